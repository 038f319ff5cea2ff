(** * StableFacts: how differences between electric and magnetic fields grow. *)
From Coq Require Import ZArith List String Bool Reals Lra Lia Psatz Permutation.
From Verif Require Import Base BaseFacts BoxSpec BoxFacts Interface EulerSpec PhysicsSpec PhysicsFacts Properties_Physics NumFacts Range RangeSpec RangeFacts ApiSpec Arith ArithR Chunk FieldSpec VarId Manager MgrSpec MgrFacts
  BC BCSpec BCFacts Sweep SweepSpec Euler Maxwell Sources SourceSpec ParFacts SweepFacts FluxFacts Programs ProgramsSpec ConserveFacts RhsFacts Properties_Programs
  SymmetrySpec SymmetryFacts Properties_Symmetry Properties_Monopole AxesSpec AxesFacts PositiveSpec PositiveFacts StableSpec.
Import ListNotations.
Open Scope R_scope.

(** ** the limited value without the tolerance *)

Definition blend (q p : R) : R := q * p * (q + p) / (q * q + p * p).
Definition ideal (a b c : R) : R := b + / 2 * blend (c - b) (b - a).

Lemma both_zero : forall q p : R, q * q + p * p = 0 -> q = 0 /\ p = 0.
Proof. intros q p H. split; nra. Qed.
Lemma blend_0 : forall q, blend q 0 = 0 /\ blend 0 q = 0.
Proof. intros q. unfold blend, Rdiv. split; ring. Qed.
Lemma blend_sym : forall q p, blend q p = blend p q.
Proof. intros q p. unfold blend. f_equal; ring. Qed.
Lemma twice : forall x y : R, 2 * (x * y) <= x * x + y * y /\ 2 * - (x * y) <= x * x + y * y.
Proof. intros x y. pose proof (Rle_0_sqr (x - y)). pose proof (Rle_0_sqr (x + y)). unfold Rsqr in *. split; lra. Qed.
Lemma blend_step : forall q q' p, Rabs (blend q p - blend q' p) <= 2 * Rabs (q - q').
Proof.
  intros q q' p. destruct (Req_dec p 0) as [->|Hp].
  { destruct (blend_0 q) as [-> _]. destruct (blend_0 q') as [-> _]. rewrite Rminus_0_r, Rabs_R0. pose proof (Rabs_pos (q - q')). lra. }
  assert (P2 : 0 < p * p) by nra. assert (D : 0 < q * q + p * p) by nra. assert (D' : 0 < q' * q' + p * p) by nra.
  assert (E : blend q p - blend q' p = (p * p * (p * (q + q') - q * q' + p * p)) / ((q * q + p * p) * (q' * q' + p * p)) * (q - q')).
  { unfold blend. field. split; lra. }
  rewrite E, Rabs_mult. apply Rmult_le_compat_r; [apply Rabs_pos|].
  assert (DD : 0 < (q * q + p * p) * (q' * q' + p * p)) by (apply Rmult_lt_0_compat; lra).
  unfold Rdiv. rewrite Rabs_mult, (Rabs_pos_eq (/ _)) by (left; now apply Rinv_0_lt_compat).
  apply Rmult_le_reg_r with ((q * q + p * p) * (q' * q' + p * p)); [exact DD|]. rewrite (Rmult_assoc (Rabs _)), Rinv_l, Rmult_1_r by lra.
  assert (S1 : p * p * (2 * (p * q)) <= p * p * (p * p + q * q)) by (apply Rmult_le_compat_l; [lra|pose proof (twice p q); pose proof (twice p q'); pose proof (twice q q'); lra]).
  assert (S2 : p * p * (2 * (p * q')) <= p * p * (p * p + q' * q')) by (apply Rmult_le_compat_l; [lra|pose proof (twice p q); pose proof (twice p q'); pose proof (twice q q'); lra]).
  assert (S3 : p * p * (2 * - (p * q)) <= p * p * (p * p + q * q)) by (apply Rmult_le_compat_l; [lra|pose proof (twice p q); pose proof (twice p q'); pose proof (twice q q'); lra]).
  assert (S4 : p * p * (2 * - (p * q')) <= p * p * (p * p + q' * q')) by (apply Rmult_le_compat_l; [lra|pose proof (twice p q); pose proof (twice p q'); pose proof (twice q q'); lra]).
  assert (S5 : p * p * (2 * (q * q')) <= p * p * (q * q + q' * q')) by (apply Rmult_le_compat_l; [lra|pose proof (twice p q); pose proof (twice p q'); pose proof (twice q q'); lra]).
  assert (S6 : p * p * (2 * - (q * q')) <= p * p * (q * q + q' * q')) by (apply Rmult_le_compat_l; [lra|pose proof (twice p q); pose proof (twice p q'); pose proof (twice q q'); lra]).
  assert (S7 : 0 <= q * q * (q' * q')) by (apply Rmult_le_pos; nra).
  assert (S8 : 0 <= p * p * (q * q)) by (apply Rmult_le_pos; nra). assert (S9 : 0 <= p * p * (q' * q')) by (apply Rmult_le_pos; nra). assert (S0 : 0 <= p * p * (p * p)) by nra.
  apply Rabs_le. split; nra.
Qed.
Lemma blend_near : forall q q' p p', Rabs (blend q p - blend q' p') <= 2 * Rabs (q - q') + 2 * Rabs (p - p').
Proof.
  intros q q' p p'. replace (blend q p - blend q' p') with ((blend q p - blend q' p) + (blend q' p - blend q' p')) by ring.
  eapply Rle_trans; [apply Rabs_triang|]. pose proof (blend_step q q' p). pose proof (blend_step p p' q') as H2. rewrite !(blend_sym _ q') in H2. lra.
Qed.
Lemma blend_scale : forall s q p, blend (s * q) (s * p) = s * blend q p.
Proof.
  intros s q p. destruct (Req_dec s 0) as [->|Hs]; [unfold blend, Rdiv; ring|].
  destruct (Req_dec (q * q + p * p) 0) as [H|H].
  { destruct (both_zero q p H) as [-> ->]. unfold blend, Rdiv. ring. }
  unfold blend. field. split; [exact H|]. replace (s * q * (s * q) + s * p * (s * p)) with (s * s * (q * q + p * p)) by ring. apply Rmult_integral_contrapositive_currified; [nra|exact H].
Qed.

Lemma ideal_scale : forall s a b c, ideal (s * a) (s * b) (s * c) = s * ideal a b c.
Proof.
  intros s a b c. unfold ideal. replace (s * c - s * b) with (s * (c - b)) by ring. replace (s * b - s * a) with (s * (b - a)) by ring. rewrite blend_scale. ring.
Qed.
Lemma ideal_near : forall a b c a' b' c' d, Rabs (a' - a) <= d -> Rabs (b' - b) <= d -> Rabs (c' - c) <= d -> Rabs (ideal a' b' c' - ideal a b c) <= 5 * d.
Proof.
  intros a b c a' b' c' d Ha Hb Hc. unfold ideal. pose proof (blend_near (c' - b') (c - b) (b' - a') (b - a)) as H.
  assert (H1 : Rabs (c' - b' - (c - b)) <= 2 * d). { revert Hb Hc. unfold Rabs. repeat destruct Rcase_abs; lra. }
  assert (H2 : Rabs (b' - a' - (b - a)) <= 2 * d). { revert Ha Hb. unfold Rabs. repeat destruct Rcase_abs; lra. }
  assert (H3 : Rabs (blend (c' - b') (b' - a') - blend (c - b) (b - a)) <= 8 * d) by lra. clear H H1 H2. revert Hb H3. generalize (blend (c' - b') (b' - a')) (blend (c - b) (b - a)). intros x y.
  unfold Rabs. repeat destruct Rcase_abs; lra.
Qed.

Lemma phi_blend : forall q p, phi (q / p) * p = blend q p.
Proof.
  intros q p. rewrite phi_R. destruct (Req_dec p 0) as [->|Hp]; [destruct (blend_0 q) as [-> _]; ring|].
  unfold blend. field. repeat split; auto; nra.
Qed.
Lemma left_ideal : forall a b c, Rabs (left_value a b c - ideal a b c) <= 5 / 2 * eps.
Proof.
  intros a b c. rewrite left_R. unfold ideal. set (q := c - b). set (p := b - a).
  assert (E : b + / 2 * phi (q / (p + eps)) * p - (b + / 2 * blend q p) = / 2 * (blend q (p + eps) - blend q p) - / 2 * eps * phi (q / (p + eps))) by (rewrite <- (phi_blend q (p + eps)); ring).
  rewrite E. pose proof (blend_near q q (p + eps) p) as H. rewrite Rminus_eq_0, Rabs_R0 in H. replace (p + eps - p) with eps in H by ring. rewrite (Rabs_pos_eq eps) in H by lra.
  pose proof (phi_bound (q / (p + eps))) as HB. revert H HB. generalize (blend q (p + eps) - blend q p) (phi (q / (p + eps))). intros x y H HB. apply Rabs_le. assert (- (2 * eps) <= x <= 2 * eps) by (revert H; unfold Rabs; destruct Rcase_abs; lra). nra.
Qed.
Lemma right_ideal : forall b c d, Rabs (right_value b c d - ideal d c b) <= 5 / 2 * eps.
Proof.
  intros b c d. rewrite right_R. unfold ideal. replace (b - c) with (-1 * (c - b)) by ring. replace (c - d) with (-1 * (d - c)) at 2 by ring. rewrite blend_scale. set (q := c - b). set (p := d - c).
  replace (c - d) with (- p) by (unfold p; ring).
  assert (E : c + / 2 * phi (q / (p + eps)) * - p - (c + / 2 * (-1 * blend q p)) = / 2 * eps * phi (q / (p + eps)) - / 2 * (blend q (p + eps) - blend q p)) by (rewrite <- (phi_blend q (p + eps)); ring).
  rewrite E. pose proof (blend_near q q (p + eps) p) as H. rewrite Rminus_eq_0, Rabs_R0 in H. replace (p + eps - p) with eps in H by ring. rewrite (Rabs_pos_eq eps) in H by lra.
  pose proof (phi_bound (q / (p + eps))) as HB. revert H HB. generalize (blend q (p + eps) - blend q p) (phi (q / (p + eps))). intros x y H HB. apply Rabs_le. assert (- (2 * eps) <= x <= 2 * eps) by (revert H; unfold Rabs; destruct Rcase_abs; lra). nra.
Qed.

(** Two limited values of data that correspond up to a factor. *)
Lemma values_near : forall (L L' : R) s k a b c a' b' c' d, Rabs s <= k -> Rabs (L - ideal a b c) <= 5 / 2 * eps -> Rabs (L' - ideal a' b' c') <= 5 / 2 * eps ->
  Rabs (a' - s * a) <= d -> Rabs (b' - s * b) <= d -> Rabs (c' - s * c) <= d -> Rabs (L' - s * L) <= 5 * (d + (1 + k) / 2 * eps).
Proof.
  intros L L' s k a b c a' b' c' d Hs HL HL' Ha Hb Hc. pose proof (ideal_near _ _ _ _ _ _ d Ha Hb Hc) as H. rewrite ideal_scale in H.
  replace (L' - s * L) with ((L' - ideal a' b' c') + (ideal a' b' c' - s * ideal a b c) + (- s) * (L - ideal a b c)) by ring.
  eapply Rle_trans; [apply Rabs_triang|]. eapply Rle_trans; [apply Rplus_le_compat_r; apply Rabs_triang|].
  rewrite (Rabs_mult (- s)), Rabs_Ropp. assert (Rabs s * Rabs (L - ideal a b c) <= k * (5 / 2 * eps)) by (apply Rmult_le_compat; auto using Rabs_pos). lra.
Qed.

(** ** the flux *)

Lemma Rabs_both : forall x y, Rabs x <= y -> - y <= x <= y.
Proof. intros x y H. revert H. unfold Rabs. destruct (Rcase_abs x); lra. Qed.

Definition weight (c : R) (j : Z) : R := if (j <? 3)%Z then c else 1.
Definition six (f : Z -> R) : list R := map f (zrange 0 6).
Lemma six_cases : forall (Q : Z -> Prop), Q 0%Z -> Q 1%Z -> Q 2%Z -> Q 3%Z -> Q 4%Z -> Q 5%Z -> forall j, (0 <= j < 6)%Z -> Q j.
Proof.
  intros Q H0 H1 H2 H3 H4 H5 j Hj. assert (D : (j = 0 \/ j = 1 \/ j = 2 \/ j = 3 \/ j = 4 \/ j = 5)%Z) by lia.
  destruct D as [-> | [-> | [-> | [-> | [-> | ->]]]]]; assumption.
Qed.

(** The components that the flux along [d] couples. *)
Definition flux_at (c : R) (d : nat) (f g : Z -> R) (j : Z) : R := nth (Z.to_nat j) (rusanov_flux c d (six f) (six g)) 0.
Lemma flux_at_is : forall c d f g j, (d < 3)%nat -> (0 <= j < 6)%Z -> 0 < c ->
  flux_at c d f g j = match d, j with
    | 0%nat, 1%Z => c * c * ((f 5%Z + g 5%Z) / 2) - c / 2 * (g 1%Z - f 1%Z)
    | 0%nat, 2%Z => - (c * c) * ((f 4%Z + g 4%Z) / 2) - c / 2 * (g 2%Z - f 2%Z)
    | 0%nat, 4%Z => - ((f 2%Z + g 2%Z) / 2) - c / 2 * (g 4%Z - f 4%Z)
    | 0%nat, 5%Z => (f 1%Z + g 1%Z) / 2 - c / 2 * (g 5%Z - f 5%Z)
    | 1%nat, 0%Z => - (c * c) * ((f 5%Z + g 5%Z) / 2) - c / 2 * (g 0%Z - f 0%Z)
    | 1%nat, 2%Z => c * c * ((f 3%Z + g 3%Z) / 2) - c / 2 * (g 2%Z - f 2%Z)
    | 1%nat, 3%Z => (f 2%Z + g 2%Z) / 2 - c / 2 * (g 3%Z - f 3%Z)
    | 1%nat, 5%Z => - ((f 0%Z + g 0%Z) / 2) - c / 2 * (g 5%Z - f 5%Z)
    | 2%nat, 0%Z => c * c * ((f 4%Z + g 4%Z) / 2) - c / 2 * (g 0%Z - f 0%Z)
    | 2%nat, 1%Z => - (c * c) * ((f 3%Z + g 3%Z) / 2) - c / 2 * (g 1%Z - f 1%Z)
    | 2%nat, 3%Z => - ((f 1%Z + g 1%Z) / 2) - c / 2 * (g 3%Z - f 3%Z)
    | 2%nat, 4%Z => (f 0%Z + g 0%Z) / 2 - c / 2 * (g 4%Z - f 4%Z)
    | _, _ => 0
    end.
Proof.
  intros c d f g j Hd Hj Hc. revert j Hj. unfold flux_at, six. change (zrange 0 6) with [0; 1; 2; 3; 4; 5]%Z.
  destruct d as [|[|[|d]]]; [| | |lia]; (apply six_cases; unfold rusanov_flux, curl_flux, curl_E, curl_B, levi; cbn [seq map nth Z.to_nat Pos.to_nat Pos.iter_op Nat.add Nat.eqb orb]; rewrite ?(Rabs_pos_eq c) by lra;
    change (Pos.to_nat 1) with 1%nat; change (Pos.to_nat 2) with 2%nat; change (Pos.to_nat 3) with 3%nat; change (Pos.to_nat 4) with 4%nat; change (Pos.to_nat 5) with 5%nat;
    cbn [seq map nth Nat.add Nat.eqb orb]; rewrite ?INR_IZR_INZ; cbn [Z.of_nat Pos.of_succ_nat Pos.succ]; try reflexivity; field).
Qed.
Lemma flux_near : forall c d f g f' g' D j, (d < 3)%nat -> (0 <= j < 6)%Z -> 0 < c -> 0 <= D ->
  (forall i, (0 <= i < 6)%Z -> Rabs (f' i - f i) <= D * weight c i) -> (forall i, (0 <= i < 6)%Z -> Rabs (g' i - g i) <= D * weight c i) ->
  Rabs (flux_at c d f' g' j - flux_at c d f g j) <= 2 * c * D * weight c j.
Proof.
  intros c d f g f' g' D j Hd Hj Hc HD Hf Hg. rewrite !flux_at_is by assumption.
  assert (Q : forall h h' : Z -> R, (forall i, (0 <= i < 6)%Z -> Rabs (h' i - h i) <= D * weight c i) -> forall i, (0 <= i < 6)%Z -> if (i <? 3)%Z then - (D * c) <= h' i - h i <= D * c /\ - (D * c * c) <= c * h' i - c * h i <= D * c * c
      else - (c * D) <= c * h' i - c * h i <= c * D /\ - (c * c * D) <= c * c * h' i - c * c * h i <= c * c * D).
  { intros h h' H i Hi. specialize (H i Hi). unfold weight in H. assert (C2 : 0 < c * c) by nra. destruct (i <? 3)%Z.
    all: apply Rabs_both in H; split; split; nra. }
  assert (F := Q f f' Hf). assert (G := Q g g' Hg). clear Q Hf Hg.
  pose proof (F 0%Z ltac:(lia)) as F0. pose proof (F 1%Z ltac:(lia)) as F1. pose proof (F 2%Z ltac:(lia)) as F2. pose proof (F 3%Z ltac:(lia)) as F3. pose proof (F 4%Z ltac:(lia)) as F4. pose proof (F 5%Z ltac:(lia)) as F5.
  pose proof (G 0%Z ltac:(lia)) as G0. pose proof (G 1%Z ltac:(lia)) as G1. pose proof (G 2%Z ltac:(lia)) as G2. pose proof (G 3%Z ltac:(lia)) as G3. pose proof (G 4%Z ltac:(lia)) as G4. pose proof (G 5%Z ltac:(lia)) as G5.
  clear F G. cbn [Z.ltb Z.compare Pos.compare Pos.compare_cont] in *. assert (P1 : 0 <= c * D) by nra. assert (P2 : 0 <= c * c * D) by nra.
  revert j Hj. destruct d as [|[|[|d]]]; [| | |lia]; (apply six_cases; unfold weight; cbn [Z.ltb Z.compare Pos.compare Pos.compare_cont]; apply Rabs_le; split; lra).
Qed.

(** ** fields that correspond

    Cell [tau x] of the second field, on mesh [M'], corresponds to cell [x] of the
    first, on mesh [M]; its component [j] is [s j] times component [sig j].  Along
    dimension [i] of [M'] one moves along dimension [rho i] of [M], in the same
    direction if [o i]. *)
Section Matching.
Variables (c : R) (M M' P : box) (tau : list Z -> list Z) (rho : nat -> nat) (o : nat -> bool) (s : Z -> R) (sig : Z -> Z) (k : R) (ds ds' : list nat) (dx dx' : nat -> R).
Definition matching (d : R) (u v : field R) : Prop :=
  forall x j, in_box (M ++ P) x -> (0 <= j < 6)%Z -> Rabs (v (tau x ++ [j]) - s j * u (x ++ [sig j])) <= d * weight c j.
Definition turn (i : nat) (t : Z) : Z := if o i then t else (- t)%Z.
Hypothesis Hc : 0 < c.
Hypothesis Hs : forall j, (0 <= j < 6)%Z -> Rabs (s j) <= k.
Hypothesis Hbox : forall x, in_box (M ++ P) x -> in_box (M' ++ P) (tau x).
Hypothesis Hwide : wide M 2 ds.
Hypothesis Hwide' : wide M' 2 ds'.
Hypothesis Hrho : forall i, In i ds' -> (i < 3)%nat /\ (rho i < 3)%nat /\ In (rho i) ds /\ dx' i = dx (rho i) /\ 0 < dx' i.
Hypothesis Haround : forall i x t, In i ds' -> in_box (M ++ P) x -> around M' i t (tau x) = tau (around M (rho i) (turn i t) x).
Hypothesis Hsum : forall f, sum_over ds' (fun i => f (rho i)) = sum_over ds f.
Hypothesis Hflux : forall i f g j, In i ds' -> (0 <= j < 6)%Z ->
  flux_at c i (fun j => s j * f (sig j)) (fun j => s j * g (sig j)) j =
  if o i then s j * flux_at c (rho i) f g (sig j) else - (s j * flux_at c (rho i) g f (sig j)).

Let tol := (1 + k) / 2 * tolerance c.
Let S := sum_over ds' (fun i => / dx' i).
Let rate M dx ds (u : field R) : field R := fv_rhs 6 (rusanov_flux c) M (fun _ => Periodic) dx ds u.

Lemma k_pos : 0 <= k.
Proof. eapply Rle_trans; [apply (Rabs_pos (s 0%Z))|]. apply Hs. lia. Qed.
Lemma weight_tol : forall j, (1 + k) / 2 * eps <= tol * weight c j.
Proof.
  intros j. unfold tol, tolerance, weight. pose proof k_pos. pose proof (Rmax_l 1 (/ c)) as H1. pose proof (Rmax_r 1 (/ c)) as H2. set (m := Rmax 1 (/ c)) in *.
  assert (H3 : 1 <= m * c). { apply Rmult_le_compat_r with (r := c) in H2; [|lra]. rewrite Rinv_l in H2; lra. }
  destruct (j <? 3)%Z; nra.
Qed.

(** The states at the two sides of a wall. *)
Definition lefts (M : box) (d : nat) (u : field R) (x : list Z) (p : Z) (j : Z) : R :=
  left_value (u (around M d (p - 2) x ++ [j])) (u (around M d (p - 1) x ++ [j])) (u (around M d p x ++ [j])).
Definition rights (M : box) (d : nat) (u : field R) (x : list Z) (p : Z) (j : Z) : R :=
  right_value (u (around M d (p - 1) x ++ [j])) (u (around M d p x ++ [j])) (u (around M d (p + 1) x ++ [j])).
Lemma rate_at : forall M dx ds u x j, wide M 2 ds -> in_box (M ++ P) x -> rate M dx ds u (x ++ [j]) =
  sum_over ds (fun d => (flux_at c d (lefts M d u x 0) (rights M d u x 0) j - flux_at c d (lefts M d u x 1) (rights M d u x 1) j) / dx d).
Proof.
  intros M0 dx0 ds0 u x j HW Hx. unfold rate, fv_rhs, cellwise. rewrite removelast_last, last_last, fluxes_sum. change (@f0 R RArith) with 0. rewrite Rplus_0_l.
  unfold sum_over. f_equal. apply map_ext_in. intros d Hd. destruct (HW d Hd) as [Hl Hw].
  assert (Q : forall p, p = 0%Z \/ p = 1%Z -> wall 6 (rusanov_flux c) (seen Periodic M0 d u) d (move d p x) j = flux_at c d (lefts M0 d u x p) (rights M0 d u x p) j).
  { intros p Hp. exact (wall_around 6 (rusanov_flux c) M0 P d u x j p Hl Hw Hx Hp). }
  rewrite <- (Q 0%Z), <- (Q 1%Z) by auto. rewrite move_0; [reflexivity|]. apply Forall2_length in Hx. rewrite app_length in Hx. lia.
Qed.

(** The same wall is below the cell [p] further on and, seen from the other side,
    above the cell [- p] further on. *)
Lemma states_near : forall d u v x i p j, matching d u v -> in_box (M ++ P) x -> In i ds' -> (0 <= j < 6)%Z ->
  Rabs (lefts M' i v (tau x) p j - s j * (if o i then lefts M (rho i) u x p (sig j) else rights M (rho i) u x (1 - p) (sig j))) <= 5 * (d + tol) * weight c j /\
  Rabs (rights M' i v (tau x) p j - s j * (if o i then rights M (rho i) u x p (sig j) else lefts M (rho i) u x (1 - p) (sig j))) <= 5 * (d + tol) * weight c j.
Proof.
  intros d u v x i p j H Hx Hi Hj.
  assert (N : forall t, Rabs (v (around M' i t (tau x) ++ [j]) - s j * u (around M (rho i) (turn i t) x ++ [sig j])) <= d * weight c j).
  { intros t. rewrite Haround by assumption. apply H; [|exact Hj]. destruct (Hrho i Hi) as (_ & _ & Hr & _). destruct (Hwide _ Hr). apply around_in_box; auto. lia. }
  pose proof (weight_tol j) as HT. unfold lefts, rights, turn in *. destruct (o i).
  - split; (eapply Rle_trans; [eapply (values_near _ _ (s j) k); [apply Hs; exact Hj| | |apply N|apply N|apply N]; [apply left_ideal || apply right_ideal|apply left_ideal || apply right_ideal]|lra]).
  - split.
    + replace (1 - p - 1)%Z with (- p)%Z by lia. replace (1 - p)%Z with (- (p - 1))%Z by lia. replace (- (p - 1) + 1)%Z with (- (p - 2))%Z by lia.
      eapply Rle_trans; [eapply (values_near _ _ (s j) k); [apply Hs; exact Hj|apply right_ideal|apply left_ideal|apply N|apply N|apply N]|lra].
    + replace (1 - p - 2)%Z with (- (p + 1))%Z by lia. replace (1 - p - 1)%Z with (- p)%Z by lia. replace (1 - p)%Z with (- (p - 1))%Z by lia.
      eapply Rle_trans; [eapply (values_near _ _ (s j) k); [apply Hs; exact Hj|apply left_ideal|apply right_ideal|apply N|apply N|apply N]|lra].
Qed.

Lemma fluxes_near : forall d u v x i p j, 0 <= d -> matching d u v -> in_box (M ++ P) x -> In i ds' -> (0 <= j < 6)%Z ->
  Rabs (flux_at c i (lefts M' i v (tau x) p) (rights M' i v (tau x) p) j -
    (if o i then s j * flux_at c (rho i) (lefts M (rho i) u x p) (rights M (rho i) u x p) (sig j)
     else - (s j * flux_at c (rho i) (lefts M (rho i) u x (1 - p)) (rights M (rho i) u x (1 - p)) (sig j)))) <= 10 * c * (d + tol) * weight c j.
Proof.
  intros d u v x i p j Hd H Hx Hi Hj. pose proof k_pos as HK.
  assert (HT : 0 <= tol). { unfold tol, tolerance. pose proof (Rmax_l 1 (/ c)). assert (0 <= / 1000000000000) by lra. apply Rmult_le_pos; [lra|]. apply Rmult_le_pos; lra. }
  destruct (Hrho i Hi) as (H3 & _). 
  set (f := if o i then lefts M (rho i) u x p else rights M (rho i) u x (1 - p)). set (g := if o i then rights M (rho i) u x p else lefts M (rho i) u x (1 - p)).
  assert (E : (if o i then s j * flux_at c (rho i) (lefts M (rho i) u x p) (rights M (rho i) u x p) (sig j)
     else - (s j * flux_at c (rho i) (lefts M (rho i) u x (1 - p)) (rights M (rho i) u x (1 - p)) (sig j))) = flux_at c i (fun j => s j * f (sig j)) (fun j => s j * g (sig j)) j).
  { rewrite Hflux by assumption. unfold f, g. destruct (o i); reflexivity. }
  rewrite E. replace (10 * c * (d + tol) * weight c j) with (2 * c * (5 * (d + tol)) * weight c j) by ring. apply flux_near; [exact H3|exact Hj|exact Hc|lra| |]; intros b Hb; destruct (states_near d u v x i p b H Hx Hi Hb) as [N1 N2]; unfold f, g; destruct (o i); assumption.
Qed.

Lemma rates_near : forall d u v, 0 <= d -> matching d u v -> matching (20 * c * S * (d + tol)) (rate M dx ds u) (rate M' dx' ds' v).
Proof.
  intros d u v Hd H x j Hx Hj. rewrite !rate_at by auto. rewrite <- Hsum.
  set (A := fun i => (flux_at c i (lefts M' i v (tau x) 0) (rights M' i v (tau x) 0) j - flux_at c i (lefts M' i v (tau x) 1) (rights M' i v (tau x) 1) j) / dx' i).
  set (B := fun i => (flux_at c (rho i) (lefts M (rho i) u x 0) (rights M (rho i) u x 0) (sig j) - flux_at c (rho i) (lefts M (rho i) u x 1) (rights M (rho i) u x 1) (sig j)) / dx (rho i)).
  set (K := 20 * c * (d + tol) * weight c j).
  assert (Q : forall i, In i ds' -> Rabs (A i - s j * B i) <= K * / dx' i).
  { intros i Hi. destruct (Hrho i Hi) as (_ & _ & _ & E & Hp). pose proof (fluxes_near d u v x i 0 j Hd H Hx Hi Hj) as N0. pose proof (fluxes_near d u v x i 1 j Hd H Hx Hi Hj) as N1.
    unfold A, B. rewrite <- E. unfold Rdiv. change (1 - 0)%Z with 1%Z in N0. change (1 - 1)%Z with 0%Z in N1.
    match goal with |- Rabs (?a * ?q - ?z * (?b * ?q)) <= _ => replace (a * q - z * (b * q)) with ((a - z * b) * q) by ring end.
    rewrite Rabs_mult, (Rabs_pos_eq (/ dx' i)) by (left; now apply Rinv_0_lt_compat). apply Rmult_le_compat_r; [left; now apply Rinv_0_lt_compat|].
    unfold K. apply Rabs_both in N0, N1. apply Rabs_le. destruct (o i); split; lra. }
  replace (20 * c * S * (d + tol) * weight c j) with (K * S) by (unfold K; ring). unfold S.
  clear - Q. unfold sum_over. induction ds' as [|i l IH]; cbn [map fold_right].
  - rewrite !Rmult_0_r, Rminus_0_r, Rabs_R0. lra.
  - assert (Q1 := Q i (or_introl eq_refl)). assert (Q2 := IH (fun i Hi => Q i (or_intror Hi))). apply Rabs_both in Q1, Q2. apply Rabs_le. lra.
Qed.

Let Op M dx ds : (nat -> field R) -> nat -> field R := fun V _ => rate M dx ds (V 0%nat).
Lemma steps_near : forall dt n d U V, 0 <= dt -> 0 <= d -> (forall i, matching d (U i) (V i)) ->
  forall i, matching (growth c dt dx' ds' ^ n * (d + tol) - tol) (Nat.iter n (rk3 (Op M dx ds) dt) U i) (Nat.iter n (rk3 (Op M' dx' ds') dt) V i).
Proof.
  intros dt n d U V Hdt Hd H. pose proof k_pos as HK.
  assert (HT : 0 <= tol). { unfold tol, tolerance. pose proof (Rmax_l 1 (/ c)). assert (0 <= / 1000000000000) by lra. apply Rmult_le_pos; [lra|]. apply Rmult_le_pos; lra. }
  assert (HS : 0 <= S). { unfold S, sum_over. clear - Hrho. induction ds' as [|i l IH]; cbn [map fold_right]; [lra|]. assert (0 <= fold_right Rplus 0 (map (fun i => / dx' i) l)) by (apply IH; intros a Ha; apply Hrho; now right).
    destruct (Hrho i (or_introl eq_refl)) as (_ & _ & _ & _ & Hp). apply Rinv_0_lt_compat in Hp. lra. }
  set (a := 1 + 20 * dt * c * S). assert (Ha : 1 <= a). { unfold a. assert (0 <= 20 * dt * c * S) by (repeat apply Rmult_le_pos; lra). lra. }
  assert (Q : forall e U V, 0 <= e -> (forall i, matching e (U i) (V i)) -> forall i, matching (a * (e + tol) - tol) (second (Op M dx ds) dt U i) (second (Op M' dx' ds') dt V i)).
  { intros e U0 V0 He H0 i x j Hx Hj. unfold second. pose proof (H0 i x j Hx Hj) as N0. pose proof (rates_near e _ _ He (H0 0%nat) x j Hx Hj) as N1.
    change (rate M dx ds (U0 0%nat) (x ++ [sig j])) with (Op M dx ds U0 i (x ++ [sig j])) in N1. change (rate M' dx' ds' (V0 0%nat) (tau x ++ [j])) with (Op M' dx' ds' V0 i (tau x ++ [j])) in N1.
    replace ((a * (e + tol) - tol) * weight c j) with (e * weight c j + dt * (20 * c * S * (e + tol) * weight c j)) by (unfold a; ring).
    apply Rabs_both in N0, N1. apply Rabs_le. set (q := 20 * c * S * (e + tol) * weight c j) in *. set (y := Op M' dx' ds' V0 i (tau x ++ [j])) in *. set (z := Op M dx ds U0 i (x ++ [sig j])) in *. split; nra. }
  assert (HW : forall j, 0 < weight c j) by (intros j; unfold weight; destruct (j <? 3)%Z; lra).
  assert (T : forall e U V, 0 <= e -> (forall i, matching e (U i) (V i)) -> forall i, matching (a ^ 3 * (e + tol) - tol) (rk3 (Op M dx ds) dt U i) (rk3 (Op M' dx' ds') dt V i)).
  { intros e U0 V0 He H0. assert (E1 : 0 <= a * (e + tol) - tol) by nra. assert (E2 : 0 <= a * (a * (e + tol) - tol + tol) - tol) by nra.
    assert (N2 := Q _ _ _ E1 (Q _ _ _ He H0)).
    assert (N3 : forall i, matching (a * a * (e + tol) - tol) (third (Op M dx ds) dt U0 i) (third (Op M' dx' ds') dt V0 i)).
    { intros i x j Hx Hj. unfold third. pose proof (H0 i x j Hx Hj) as A0. pose proof (N2 i x j Hx Hj) as A2. pose proof (HW j). apply Rabs_both in A0, A2. apply Rabs_le.
      assert (e * weight c j <= (a * a * (e + tol) - tol) * weight c j) by (apply Rmult_le_compat_r; nra). replace (a * (a * (e + tol) - tol + tol) - tol) with (a * a * (e + tol) - tol) in A2 by ring. split; lra. }
    assert (E3 : 0 <= a * a * (e + tol) - tol) by nra. assert (N4 := Q _ _ _ E3 N3).
    intros i x j Hx Hj. rewrite !rk3_third. pose proof (H0 i x j Hx Hj) as A0. pose proof (N4 i x j Hx Hj) as A4. unfold second in A4. pose proof (HW j). apply Rabs_both in A0, A4. apply Rabs_le.
    replace (a * (a * a * (e + tol) - tol + tol) - tol) with (a ^ 3 * (e + tol) - tol) in A4 by ring.
    assert (e * weight c j <= (a ^ 3 * (e + tol) - tol) * weight c j) by (apply Rmult_le_compat_r; [lra|]; assert (1 <= a ^ 3) by (apply pow_R1_Rle; exact Ha); nra).
    split; lra. }
  assert (HG : growth c dt dx' ds' = a ^ 3) by reflexivity. rewrite HG. clear HG. assert (Ha3 : 1 <= a ^ 3) by (apply pow_R1_Rle; exact Ha).
  induction n as [|n IH]; intros i.
  - intros x j Hx Hj. cbn [pow Nat.iter nat_rect]. replace (1 * (d + tol) - tol) with d by ring. now apply H.
  - assert (E : 0 <= (a ^ 3) ^ n * (d + tol) - tol) by (assert (1 <= (a ^ 3) ^ n) by (apply pow_R1_Rle; exact Ha3); nra).
    pose proof (T _ _ _ E IH i) as N. intros x j Hx Hj. specialize (N x j Hx Hj). replace (a ^ 3 * ((a ^ 3) ^ n * (d + tol) - tol + tol) - tol) with ((a ^ 3) ^ Datatypes.S n * (d + tol) - tol) in N by (cbn [pow]; ring). exact N.
Qed.
End Matching.
