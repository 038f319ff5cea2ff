(** * UnitsFacts: how fluxes, reconstruction and Runge-Kutta steps depend on the units. *)
From Coq Require Import ZArith List String Bool Reals Lra Lia FunctionalExtensionality.
From Verif Require Import Base BoxSpec BoxFacts Arith ArithR Chunk FieldSpec VarId Manager MgrSpec BC BCSpec Euler Maxwell FluxFacts SweepSpec SweepFacts SourceSpec Sources Programs ProgramsSpec EulerSpec NumFacts PhysicsSpec PhysicsFacts AccuracyFacts UnitsSpec.
Import ListNotations.
Open Scope R_scope.

(** ** fluxes *)

Lemma sqrt_scale : forall v x, 0 < v -> sqrt (v * v * x) = v * sqrt x.
Proof.
  intros v x Hv. destruct (Rle_dec 0 x) as [H | H].
  - rewrite sqrt_mult by nra. rewrite sqrt_square by lra. reflexivity.
  - rewrite (sqrt_neg_0 x) by lra. rewrite sqrt_neg_0 by nra. ring.
Qed.

Lemma inv_scale : forall k x, k <> 0 -> / (k * x) = / k * / x.
Proof.
  intros k x Hk. destruct (Req_dec x 0) as [-> | Hx]; [rewrite Rmult_0_r, Rinv_0; ring|]. field. auto.
Qed.

Section Gas.
Variables (k v : R).
Hypothesis Hk : 0 < k.
Hypothesis Hv : 0 < v.

Lemma velocity_units : forall d q, (d < 3)%nat -> velocity d (gas_units k v q) = v * velocity d q.
Proof.
  intros d q Hd. unfold velocity, momentum, density, gas_units, Rdiv. cbn [nth]. rewrite inv_scale by lra.
  do 3 (destruct d as [|d]; [cbn [nth]; match goal with |- k * v * ?m * _ = _ => replace (k * v * m * (/ k * / nth 0 q 0)) with (k * / k * (v * (m * / nth 0 q 0))) by ring end; rewrite Rinv_r by lra; ring|]). lia.
Qed.
Lemma kinetic_units : forall q, kinetic (gas_units k v q) = k * v * v * kinetic q.
Proof.
  intros q. unfold kinetic, momentum, density, gas_units, Rdiv. cbn [nth]. replace (2 * (k * nth 0 q 0)) with (k * (2 * nth 0 q 0)) by ring. rewrite inv_scale by lra.
  match goal with |- ?m * (/ k * / (2 * nth 0 q 0)) = _ => replace (m * (/ k * / (2 * nth 0 q 0))) with (k * / k * (k * v * v * ((nth 1 q 0 ^ 2 + nth 2 q 0 ^ 2 + nth 3 q 0 ^ 2) * / (2 * nth 0 q 0)))) by ring end. rewrite Rinv_r by lra. ring.
Qed.
Lemma pressure_units : forall gamma q, pressure gamma (gas_units k v q) = k * v * v * pressure gamma q.
Proof. intros gamma q. unfold pressure. rewrite kinetic_units. unfold energy, gas_units. cbn [nth]. ring. Qed.
Lemma sound_units : forall gamma q, sound gamma (gas_units k v q) = v * sound gamma q.
Proof.
  intros gamma q. unfold sound. rewrite pressure_units. unfold density, gas_units, Rdiv. cbn [nth]. rewrite inv_scale by lra.
  replace (gamma * (k * v * v * pressure gamma q) * (/ k * / nth 0 q 0)) with (k * / k * (v * v * (gamma * pressure gamma q * / nth 0 q 0))) by ring.
  rewrite Rinv_r, Rmult_1_l by lra. now apply sqrt_scale.
Qed.
Lemma phys_units : forall gamma d q, (d < 3)%nat -> euler_phys gamma d (gas_units k v q) = gas_flux_units k v (euler_phys gamma d q).
Proof.
  intros gamma d q Hd. unfold euler_phys. cbn zeta. rewrite velocity_units, pressure_units by exact Hd. unfold gas_flux_units, gas_units, momentum, energy. cbn [map nth].
  do 3 (destruct d as [|d]; [cbn [nth Nat.eqb]; repeat (apply f_equal2; [ring|]); reflexivity|]). lia.
Qed.
Lemma hll_units : forall gamma d l r, (d < 3)%nat -> hll_flux gamma d (gas_units k v l) (gas_units k v r) = gas_flux_units k v (hll_flux gamma d l r).
Proof.
  intros gamma d l r Hd. unfold hll_flux. cbn zeta. unfold left_speed, right_speed. rewrite !velocity_units, !sound_units, !phys_units by exact Hd.
  replace (v * velocity d l - v * sound gamma l) with (v * (velocity d l - sound gamma l)) by ring. replace (v * velocity d r + v * sound gamma r) with (v * (velocity d r + sound gamma r)) by ring.
  set (sl := velocity d l - sound gamma l). set (sr := velocity d r + sound gamma r). set (fl := euler_phys gamma d l). set (fr := euler_phys gamma d r).
  assert (D1 : forall T (a b : T), (if Rlt_dec 0 (v * sl) then a else b) = if Rlt_dec 0 sl then a else b) by (intros; destruct (Rlt_dec 0 sl), (Rlt_dec 0 (v * sl)); auto; exfalso; nra).
  assert (D2 : forall T (a b : T), (if Rlt_dec (v * sr) 0 then a else b) = if Rlt_dec sr 0 then a else b) by (intros; destruct (Rlt_dec sr 0), (Rlt_dec (v * sr) 0); auto; exfalso; nra).
  assert (AV : forall j, (j < 5)%nat -> hll_average (v * sl) (v * sr) (gas_flux_units k v fl) (gas_flux_units k v fr) (gas_units k v l) (gas_units k v r) j =
    nth j (gas_flux_units k v (map (hll_average sl sr fl fr l r) (seq 0 5))) 0).
  { intros j Hj. unfold hll_average, Rdiv. replace (v * sr - v * sl) with (v * (sr - sl)) by ring. rewrite inv_scale by lra. unfold gas_flux_units, gas_units. cbn [map seq].
    do 5 (destruct j as [|j]; [cbn [nth]; match goal with |- ?e = ?f => replace e with (v * / v * f) by ring end; rewrite Rinv_r by lra; ring|]). lia. }
  unfold gas_flux_units at 5 6. cbn [map seq]. rewrite !D1, !D2, !AV by lia. clear AV. clearbody sl sr fl fr.
  unfold gas_flux_units, gas_units. cbn [map seq nth].
  destruct (Rlt_dec 0 sl), (Rlt_dec sr 0); repeat (apply f_equal2; [ring|]); reflexivity.
Qed.
End Gas.

Lemma curl_units : forall b v c d q, (d < 3)%nat -> curl_flux (v * c) d (em_units b v q) = em_flux_units b v (curl_flux c d q).
Proof.
  intros b v c d q Hd. unfold curl_flux, curl_E, curl_B, em_flux_units, em_units. cbn [map nth]. repeat (apply f_equal2; [ring|]). reflexivity.
Qed.
Lemma rusanov_units : forall b v c d l r, 0 < v -> (d < 3)%nat -> rusanov_flux (v * c) d (em_units b v l) (em_units b v r) = em_flux_units b v (rusanov_flux c d l r).
Proof.
  intros b v c d l r Hv Hd. unfold rusanov_flux. rewrite !curl_units by exact Hd. rewrite Rabs_mult, (Rabs_right v) by lra.
  set (fl := curl_flux c d l). set (fr := curl_flux c d r). unfold em_flux_units, em_units. cbn [map seq nth].
  do 3 (destruct d as [|d]; [cbn [Nat.eqb orb Nat.add]; repeat (apply f_equal2; [field|]); reflexivity|]). lia.
Qed.

(** ** the reconstruction *)

(** The reconstruction with [e] instead of 1e-12. *)
Definition left_with (e a b c : R) : R := b + / 2 * phi ((c - b) / (b - a + e)) * (b - a).
Definition right_with (e b c d : R) : R := c + / 2 * phi ((c - b) / (d - c + e)) * (c - d).

Lemma left_scaled : forall k a b c, 0 < k -> left_value (k * a) (k * b) (k * c) = k * left_with (eps / k) a b c.
Proof.
  intros k a b c Hk. rewrite left_R. unfold left_with.
  replace ((k * c - k * b) / (k * b - k * a + eps)) with ((c - b) / (b - a + eps / k)); [ring|].
  unfold Rdiv. replace (k * b - k * a + eps) with (k * (b - a + eps * / k)) by (field; lra). rewrite inv_scale by lra.
  replace ((k * c - k * b) * (/ k * / (b - a + eps * / k))) with (k * / k * ((c - b) * / (b - a + eps * / k))) by ring. rewrite Rinv_r by lra. ring.
Qed.
Lemma right_scaled : forall k b c d, 0 < k -> right_value (k * b) (k * c) (k * d) = k * right_with (eps / k) b c d.
Proof.
  intros k b c d Hk. rewrite right_R. unfold right_with.
  replace ((k * c - k * b) / (k * d - k * c + eps)) with ((c - b) / (d - c + eps / k)); [ring|].
  unfold Rdiv. replace (k * d - k * c + eps) with (k * (d - c + eps * / k)) by (field; lra). rewrite inv_scale by lra.
  replace ((k * c - k * b) * (/ k * / (d - c + eps * / k))) with (k * / k * ((c - b) * / (d - c + eps * / k))) by ring. rewrite Rinv_r by lra. ring.
Qed.

Lemma two_eps : forall e e' s g, 0 < e -> 0 < e' -> Rabs (/ 2 * (phi (g / (s + e)) - phi (g / (s + e'))) * s) <= 4 * (e + e').
Proof.
  intros e e' s g He He'. destruct (Rle_dec (Rabs s) (2 * (e + e'))) as [Sm | Bg].
  - pose proof (phi_bound (g / (s + e))). pose proof (phi_bound (g / (s + e'))). set (p := phi (g / (s + e))) in *. set (p' := phi (g / (s + e'))) in *.
    rewrite !Rabs_mult, (Rabs_right (/ 2)) by lra. assert (B : Rabs (p - p') <= 3 / 2) by (apply Rabs_le_iff; lra).
    assert (Rabs (p - p') * Rabs s <= 3 / 2 * (2 * (e + e'))) by (apply Rmult_le_compat; auto using Rabs_pos). lra.
  - apply Rnot_le_lt in Bg. set (x := s + e). set (y := s + e').
    assert (SX : Rabs s <= 2 * Rabs x /\ Rabs s <= 2 * Rabs y /\ Rabs x <= 3 / 2 * Rabs s /\ Rabs y <= 3 / 2 * Rabs s).
    { unfold x, y. unfold Rabs in *. destruct (Rcase_abs s), (Rcase_abs (s + e)), (Rcase_abs (s + e')); lra. }
    destruct SX as (S1 & S2 & S3 & S4). assert (S0 := Rabs_pos s). assert (Xp : 0 < Rabs x) by lra. assert (Yp : 0 < Rabs y) by lra.
    assert (Xn : x <> 0) by (intros Z; rewrite Z, Rabs_R0 in Xp; lra). assert (Yn : y <> 0) by (intros Z; rewrite Z, Rabs_R0 in Yp; lra).
    assert (X2 : x * x = Rabs x * Rabs x) by (rewrite <- Rabs_mult, Rabs_right; [reflexivity|nra]). assert (Y2 : y * y = Rabs y * Rabs y) by (rewrite <- Rabs_mult, Rabs_right; [reflexivity|nra]).
    assert (G2 : g * g = Rabs g * Rabs g) by (rewrite <- Rabs_mult, Rabs_right; [reflexivity|nra]). assert (G0 := Rabs_pos g).
    set (Dx := g * g + x * x). set (Dy := g * g + y * y). assert (Dxp : 0 < Dx) by (unfold Dx; nra). assert (Dyp : 0 < Dy) by (unfold Dy; nra).
    rewrite (proj2 (mirror_phi g x y ((y - x) * (g * g * (y + x) - g * g * g + g * x * y)) Dxp Dyp Xn Yn) eq_refl). fold Dx Dy.
    replace (/ 2 * ((y - x) * (g * g * (y + x) - g * g * g + g * x * y) / (Dx * Dy)) * s) with ((e' - e) * ((s * g) * / Dx) * ((g * (y + x) - g * g + x * y) * / Dy) * / 2) by (unfold x, y; field; lra).
    assert (B1 : Rabs (s * g * / Dx) <= 1).
    { rewrite !Rabs_mult, (Rabs_right (/ Dx)) by (left; now apply Rinv_0_lt_compat). apply Rmult_le_reg_r with Dx; [exact Dxp|]. rewrite Rmult_assoc, Rinv_l, Rmult_1_r by lra. unfold Dx. rewrite X2, G2.
      set (a := Rabs s) in *. set (b := Rabs g) in *. set (c := Rabs x) in *. assert (a * b <= 2 * c * b) by (apply Rmult_le_compat_r; lra). pose proof (Rle_0_sqr (b - c)) as Q. unfold Rsqr in Q. nra. }
    assert (B2 : Rabs ((g * (y + x) - g * g + x * y) * / Dy) <= 8).
    { rewrite Rabs_mult, (Rabs_right (/ Dy)) by (left; now apply Rinv_0_lt_compat). apply Rmult_le_reg_r with Dy; [exact Dyp|]. rewrite Rmult_assoc, Rinv_l, Rmult_1_r by lra.
      assert (T : Rabs (g * (y + x) - g * g + x * y) <= Rabs g * (Rabs y + Rabs x) + Rabs g * Rabs g + Rabs x * Rabs y).
      { eapply Rle_trans; [apply Rabs_triang|]. rewrite (Rabs_mult x y). apply Rplus_le_compat_r. unfold Rminus. eapply Rle_trans; [apply Rabs_triang|].
        rewrite Rabs_Ropp, !Rabs_mult. apply Rplus_le_compat_r. apply Rmult_le_compat_l; [exact G0|]. apply Rabs_triang. }
      eapply Rle_trans; [exact T|]. unfold Dy. rewrite Y2, G2. set (b := Rabs g) in *. set (c := Rabs x) in *. set (a := Rabs y) in *.
      assert (C3 : c <= 3 * a) by lra. assert (b * (a + c) <= b * (4 * a)) by (apply Rmult_le_compat_l; lra). assert (c * a <= 3 * a * a) by (apply Rmult_le_compat_r; lra).
      pose proof (Rle_0_sqr (b - a)) as Q. unfold Rsqr in Q. nra. }
    rewrite Rabs_mult, (Rabs_right (/ 2)) by lra. rewrite Rabs_mult.
    assert (B3 : Rabs ((e' - e) * (s * g * / Dx)) <= (e + e') * 1). { rewrite Rabs_mult. apply Rmult_le_compat; auto using Rabs_pos. apply Rabs_le_iff. lra. }
    assert (Rabs ((e' - e) * (s * g * / Dx)) * Rabs ((g * (y + x) - g * g + x * y) * / Dy) <= (e + e') * 1 * 8) by (apply Rmult_le_compat; auto using Rabs_pos). lra.
Qed.

Lemma left_units : forall k a b c, 0 < k -> Rabs (left_value (k * a) (k * b) (k * c) - k * left_value a b c) <= 4 * (1 + k) * eps.
Proof.
  intros k a b c Hk. rewrite left_scaled, left_R by exact Hk. unfold left_with.
  assert (E' : 0 < eps / k) by (apply Rmult_lt_0_compat; [lra|now apply Rinv_0_lt_compat]).
  pose proof (two_eps (eps / k) eps (b - a) (c - b) E' ltac:(lra)) as B.
  match goal with |- Rabs ?e <= _ => replace e with (k * (/ 2 * (phi ((c - b) / (b - a + eps / k)) - phi ((c - b) / (b - a + eps))) * (b - a))) by ring end.
  rewrite Rabs_mult, (Rabs_right k) by lra. eapply Rle_trans; [apply Rmult_le_compat_l; [lra|exact B]|]. right. field. lra.
Qed.
Lemma right_units : forall k b c d, 0 < k -> Rabs (right_value (k * b) (k * c) (k * d) - k * right_value b c d) <= 4 * (1 + k) * eps.
Proof.
  intros k b c d Hk. rewrite right_scaled, right_R by exact Hk. unfold right_with.
  assert (E' : 0 < eps / k) by (apply Rmult_lt_0_compat; [lra|now apply Rinv_0_lt_compat]).
  pose proof (two_eps (eps / k) eps (d - c) (c - b) E' ltac:(lra)) as B.
  match goal with |- Rabs ?e <= _ => replace e with (- (k * (/ 2 * (phi ((c - b) / (d - c + eps / k)) - phi ((c - b) / (d - c + eps))) * (d - c)))) by ring end.
  rewrite Rabs_Ropp, Rabs_mult, (Rabs_right k) by lra. eapply Rle_trans; [apply Rmult_le_compat_l; [lra|exact B]|]. right. field. lra.
Qed.

(** ** length and time together *)

Lemma rk3_slower : forall (Op Op' : sys -> sys) a dt U, a <> 0 -> (forall V i c, Op' V i c = Op V i c / a) -> rk3 Op' (a * dt) U = rk3 Op dt U.
Proof.
  intros Op Op' a dt U Ha HO. assert (S : forall V i c, a * dt * Op' V i c = dt * Op V i c) by (intros; rewrite HO; field; exact Ha).
  pose (U1 := (fun i c => (U i c + dt * Op U i c)%F) : @sys R). pose (U1' := (fun i c => (U i c + (a * dt)%R * Op' U i c)%F) : @sys R).
  assert (E1 : U1' = U1) by (apply functional_extensionality; intros i; apply functional_extensionality; intros c; unfold U1, U1'; cbn [fadd fmul RArith]; now rewrite S).
  pose (U2 := (fun i c => (fdec 75 (-2) * U i c + fdec 25 (-2) * U1 i c + fdec 25 (-2) * dt * Op U1 i c)%F) : @sys R).
  pose (U2' := (fun i c => (fdec 75 (-2) * U i c + fdec 25 (-2) * U1' i c + fdec 25 (-2) * (a * dt)%R * Op' U1' i c)%F) : @sys R).
  assert (E2 : U2' = U2).
  { apply functional_extensionality; intros i; apply functional_extensionality; intros c; unfold U2, U2'; rewrite E1; cbn [fadd fmul RArith].
    replace (fdec 25 (-2) * (a * dt) * Op' U1 i c)%R with (fdec 25 (-2) * (a * dt * Op' U1 i c))%R by ring. rewrite S. ring. }
  apply functional_extensionality. intros i. apply functional_extensionality. intros c.
  change (rk3 Op' (a * dt) U i c) with ((U i c + fofz 2 * (U2' i c + (a * dt)%R * Op' U2' i c)) / fofz 3)%F. change (rk3 Op dt U i c) with ((U i c + fofz 2 * (U2 i c + dt * Op U2 i c)) / fofz 3)%F.
  rewrite E2. cbn [fadd fmul fdiv RArith]. now rewrite S.
Qed.

Lemma fv_slower : forall n G M bc dx dx' ds (u : field R) a c, a <> 0 -> (forall d, In d ds -> dx' d = a * dx d) -> fv_rhs n G M bc dx' ds u c = fv_rhs n G M bc dx ds u c / a.
Proof.
  intros n G M bc dx dx' ds u a c Ha HD. unfold fv_rhs, cellwise. rewrite !fluxes_sum. change (@f0 R RArith) with 0. rewrite !Rplus_0_l. unfold sum_over.
  induction ds as [|d ds IH]; cbn [map fold_right]; [unfold Rdiv; ring|]. rewrite IH by (intros; apply HD; now right). rewrite (HD d (or_introl eq_refl)).
  unfold Rdiv. rewrite (inv_scale a) by exact Ha. ring.
Qed.

Definition slower (a : R) (p : plasma) : plasma := mkPlasma (pl_gamma p) (pl_c p) (pl_e p / a) (pl_i p / a) (map (fun x => x / a) (pl_ms p)).

Lemma lorentz_slower : forall a com (u e r r' : field R) c, (forall c, r' c = r c / a) -> with_lorentz (com / a) u e r' c = with_lorentz com u e r c / a.
Proof.
  intros a com u e r r' c H. unfold with_lorentz, lorentz_rate. rewrite H.
  destruct (last c 0%Z) as [|[[[p|p|]|[p|p|]|]|[[p|p|]|[p|p|]|]|]|p]; try reflexivity; cbn [fadd fsub fmul RArith]; unfold Rdiv; ring.
Qed.
Lemma current_slower : forall a ms (us : list (field R)) (r r' : field R) c, (forall c, r' c = r c / a) -> with_current (map (fun x => x / a) ms) us r' c = with_current ms us r c / a.
Proof.
  intros a ms us r r' c H. unfold with_current. rewrite H. destruct (_ <? _)%Z; [|reflexivity]. generalize (r c) as z. generalize (removelast c ++ [(last c 0 + 1)%Z])%list as y. clear H.
  revert us. induction ms as [|mu ms IH]; intros us y z; [reflexivity|]. destruct us as [|u us]; [reflexivity|]. cbn [map current]. rewrite <- IH. f_equal. cbn [fadd fmul RArith]. unfold Rdiv. ring.
Qed.
Lemma plasma_slower : forall a p G5 G6 M bc dx dx' ds ds3 V i c, a <> 0 -> (forall d, In d ds \/ In d ds3 -> dx' d = a * dx d) ->
  plasma_op (slower a p) G5 G6 M bc dx' ds ds3 V i c = plasma_op p G5 G6 M bc dx ds ds3 V i c / a.
Proof.
  intros a p G5 G6 M bc dx dx' ds ds3 V i c Ha HD. unfold plasma_op, slower. cbn [pl_e pl_i pl_ms].
  destruct i as [|[|i]]; [apply lorentz_slower|apply lorentz_slower|apply current_slower]; intros; apply fv_slower; auto.
Qed.
