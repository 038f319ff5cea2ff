(** * NearFacts: fluxes between states near a uniform one. *)
From Coq Require Import ZArith List String Bool Reals Lra Lia Psatz.
From Verif Require Import Base BaseFacts BoxSpec BoxFacts Interface EulerSpec PhysicsSpec PhysicsFacts Properties_Physics NumFacts Range RangeSpec RangeFacts ApiSpec Arith ArithR Chunk FieldSpec VarId Manager MgrSpec MgrFacts
  BC BCSpec BCFacts Sweep SweepSpec Euler Maxwell Sources SourceSpec ParFacts SweepFacts FluxFacts Programs ProgramsSpec ConserveFacts RhsFacts Properties_Programs
  SymmetrySpec SymmetryFacts Properties_Symmetry Properties_Chunk Properties_Monopole AxesFacts PositiveSpec PositiveFacts Properties_Positive AccuracyGas EquilibriumSpec EquilibriumFacts NearSpec.
Import ListNotations.
Open Scope R_scope.

Lemma average_bound : forall sl sr fl fr dl G s, sl <= 0 -> 0 <= sr -> sl < sr -> Rabs sl <= s -> Rabs sr <= s -> Rabs fl <= G -> Rabs fr <= G ->
  Rabs ((sr * fl - sl * fr + sl * sr * dl) / (sr - sl)) <= G + s * Rabs dl.
Proof.
  intros sl sr fl fr dl G s H1 H2 H3 H4 H5 H6 H7. assert (D : 0 < sr - sl) by lra.
  unfold Rdiv. rewrite Rabs_mult, (Rabs_right (/ (sr - sl))) by (left; now apply Rinv_0_lt_compat).
  apply Rmult_le_reg_r with (sr - sl); [exact D|]. rewrite Rmult_assoc, Rinv_l, Rmult_1_r by lra.
  apply Rabs_le_iff in H4. apply Rabs_le_iff in H5. apply Rabs_le_iff in H6. apply Rabs_le_iff in H7.
  pose proof (Rle_abs dl) as A1. pose proof (Rle_abs (- dl)) as A2. rewrite Rabs_Ropp in A2. set (a := Rabs dl) in *. assert (A0 : 0 <= a) by apply Rabs_pos. clearbody a.
  assert (P : 0 <= - sl * sr) by nra. assert (T : - sl * sr * a <= s * (sr - sl) * a) by (apply Rmult_le_compat_r; nra).
  apply Rabs_le_iff. split; nra.
Qed.
Lemma hll_bound : forall gamma d l r j G s, admissible gamma l -> admissible gamma r -> wave_speed gamma d l <= s -> wave_speed gamma d r <= s -> (j < 5)%nat ->
  Rabs (nth j (euler_phys gamma d l) 0) <= G -> Rabs (nth j (euler_phys gamma d r) 0) <= G ->
  Rabs (nth j (hll_flux gamma d l r) 0) <= 2 * G + s * Rabs (nth j r 0 - nth j l 0).
Proof.
  intros gamma d l r j G s (_ & Hg & Dl & Pl) (_ & _ & Dr & Pr) Sl Sr Hj Gl Gr.
  assert (C : forall q, 0 < density q -> 0 < pressure gamma q -> 0 < sound gamma q) by (intros q D P; unfold sound; apply sqrt_lt_R0; apply Rmult_lt_0_compat; [nra|now apply Rinv_0_lt_compat]).
  pose proof (C l Dl Pl) as Cl. pose proof (C r Dr Pr) as Cr. unfold wave_speed in Sl, Sr.
  assert (G0 : 0 <= G) by (eapply Rle_trans; [apply Rabs_pos|exact Gl]). assert (S0 : 0 <= s * Rabs (nth j r 0 - nth j l 0)) by (apply Rmult_le_pos; [pose proof (Rabs_pos (velocity d l)); lra|apply Rabs_pos]).
  unfold hll_flux. rewrite nth_five by lia. unfold left_speed, right_speed.
  destruct (Rlt_dec 0 (velocity d l - sound gamma l)) as [X|X].
  - destruct (Rlt_dec (velocity d r + sound gamma r) 0) as [Y|Y]; [|lra]. eapply Rle_trans; [apply Rabs_triang|]. lra.
  - destruct (Rlt_dec (velocity d r + sound gamma r) 0) as [Y|Y]; [lra|]. apply Rnot_lt_le in X. apply Rnot_lt_le in Y. unfold hll_average.
    destruct (Rle_lt_or_eq_dec _ _ X) as [X'|X'].
    + eapply Rle_trans; [apply (average_bound _ _ _ _ _ G s); auto; try lra|lra].
      * pose proof (Rabs_triang (velocity d l) (- sound gamma l)) as T. rewrite Rabs_Ropp, (Rabs_right (sound gamma l)) in T by lra. unfold Rminus. lra.
      * pose proof (Rabs_triang (velocity d r) (sound gamma r)) as T. rewrite (Rabs_right (sound gamma r)) in T by lra. lra.
    + destruct (Rle_lt_or_eq_dec _ _ Y) as [Y'|Y'].
      * eapply Rle_trans; [apply (average_bound _ _ _ _ _ G s); auto; try lra|lra].
        -- rewrite X', Rabs_R0. pose proof (Rabs_pos (velocity d l)). lra.
        -- pose proof (Rabs_triang (velocity d r) (sound gamma r)) as T. rewrite (Rabs_right (sound gamma r)) in T by lra. lra.
      * rewrite X', <- Y'. match goal with |- Rabs ?t <= _ => replace t with 0 by (unfold Rdiv; ring) end. rewrite Rabs_R0. lra.
Qed.

Lemma near_face_left : forall a b c q w : R, Rabs (a - q) <= w -> Rabs (b - q) <= w -> Rabs (left_value a b c - q) <= 9 / 4 * w.
Proof. intros a b c q w Ha Hb. apply Rabs_le_iff in Ha. apply Rabs_le_iff in Hb. rewrite left_R. pose proof (phi_bound ((c - b) / (b - a + eps))) as F. set (f := phi _) in *. clearbody f. apply Rabs_le_iff. split; nra. Qed.
Lemma near_face_right : forall a b c q w : R, Rabs (c - q) <= w -> Rabs (b - q) <= w -> Rabs (right_value a b c - q) <= 9 / 4 * w.
Proof. intros a b c q w Ha Hb. apply Rabs_le_iff in Ha. apply Rabs_le_iff in Hb. rewrite right_R. match goal with |- context [phi ?r] => pose proof (phi_bound r) as F end. set (f := phi _) in *. clearbody f. apply Rabs_le_iff. split; nra. Qed.

Lemma state_of_nth : forall v x j, (j < 5)%nat -> nth j (state_of v x) 0 = v (x ++ [Z.of_nat j]).
Proof. intros v x j Hj. do 5 (destruct j as [|j]; [reflexivity|]). lia. Qed.
Section Near.
Variables (gamma : R) (M P : box) (u : field R) (bc : nat -> bc_kind) (dx : nat -> R) (q w G : list R) (s : R).
Hypotheses (H3 : (List.length M <= 3)%nat) (Hdx : forall d, (d < List.length M)%nat -> 0 < dx d)
  (HU : forall y, in_box (M ++ P) y -> near q w 1 (state_of u y))
  (HW : forall d, (d < List.length M)%nat -> (2 <= hi M d - lo M d)%Z /\ (bc d = Periodic \/ (bc d = NoSlip /\ forall j, (1 <= j < 4)%nat -> nth j q 0 = 0)))
  (HG : forall x d, near q w (9 / 4) x -> (d < List.length M)%nat -> admissible gamma x /\ wave_speed gamma d x <= s /\ forall j, (j < 5)%nat -> Rabs (nth j (euler_phys gamma d x) 0) <= nth j G 0).
Lemma near_seen : forall x d t j, in_box (M ++ P) x -> (d < List.length M)%nat -> (-2 <= t <= 2)%Z -> (0 <= j < 5)%Z ->
  Rabs (seen (bc d) M d u (move d t x ++ [j]) - nth (Z.to_nat j) q 0) <= nth (Z.to_nat j) w 0.
Proof.
  intros x d t j Hx Hd Ht Hj. assert (L : (d < List.length x)%nat) by (apply Forall2_length in Hx; rewrite app_length in Hx; lia). destruct (HW d Hd) as [W1 W2].
  assert (I : (lo M d <= nth d x 0%Z < hi M d)%Z) by (apply (in_box_inside M P x Hx); exact Hd).
  rewrite seen_by by exact L. match goal with |- context [u (move d ?k x ++ [j])] => assert (E := HU (move d k x)) end. specialize (E ltac:(unfold move; apply in_box_upd; auto; now apply reads_in)).
  destruct E as [_ E]. specialize (E (Z.to_nat j) ltac:(lia)). rewrite state_of_nth, Z2Nat.id, Rmult_1_l in E by lia. unfold changed, reversed. set (v := u _) in *. clearbody v. destruct (_ || _); [|exact E]. destruct W2 as [-> | [-> W2]]; [exact E|].
  destruct (Z.leb_spec 1 j), (Z.ltb_spec j 4); try exact E. cbn [andb]. rewrite W2 in * by lia. cbn. rewrite Rminus_0_r in *. rewrite <- Rabs_Ropp. replace (- (v * - (1))) with v by ring. exact E.
Qed.
Lemma near_faces : forall x d k, in_box (M ++ P) x -> (d < List.length M)%nat -> (0 <= k <= 1)%Z -> let v := seen (bc d) M d u in
  near q w (9 / 4) (left_state 5 v d (move d k x)) /\ near q w (9 / 4) (right_state 5 v d (move d k x)).
Proof.
  intros x d k Hx Hd Hk v. assert (L : (d < List.length x)%nat) by (apply Forall2_length in Hx; rewrite app_length in Hx; lia).
  assert (S : forall t j, (-2 <= t <= 2)%Z -> (j < 5)%nat -> Rabs (v (move d t x ++ [Z.of_nat j]) - nth j q 0) <= nth j w 0) by (intros t j Ht Hj; rewrite <- (Nat2Z.id j) at 2 3; apply near_seen; auto; lia).
  unfold left_state, right_state. change (zrange 0 5) with [0; 1; 2; 3; 4]%Z. cbn [map]. rewrite !move_move by exact L. split; (split; [reflexivity|]); intros j Hj.
  - pose proof (near_face_left (v (move d (k + -2) x ++ [Z.of_nat j])) (v (move d (k + -1) x ++ [Z.of_nat j])) (v (move d k x ++ [Z.of_nat j])) _ _ (S (k + -2)%Z j ltac:(lia) Hj) (S (k + -1)%Z j ltac:(lia) Hj)) as B.
    do 5 (destruct j as [|j]; [exact B|]). lia.
  - pose proof (near_face_right (v (move d (k + -1) x ++ [Z.of_nat j])) (v (move d k x ++ [Z.of_nat j])) (v (move d (k + 1) x ++ [Z.of_nat j])) _ _ (S (k + 1)%Z j ltac:(lia) Hj) (S k j ltac:(lia) Hj)) as B.
    do 5 (destruct j as [|j]; [exact B|]). lia.
Qed.
Lemma near_rate : forall x j, in_box (M ++ P) x -> (j < 5)%nat ->
  Rabs (fv_rhs 5 (flux_of (euler_flux gamma)) M bc dx (seq 0 (List.length M)) u (x ++ [Z.of_nat j])) <= sum_over (seq 0 (List.length M)) (fun d => 2 * (2 * nth j G 0 + 9 / 2 * s * nth j w 0) / dx d).
Proof.
  intros x j Hx Hj. unfold fv_rhs, cellwise. rewrite removelast_last, last_last, fluxes_sum. change (@f0 R RArith) with 0%R. rewrite Rplus_0_l.
  set (S := 2 * nth j G 0 + 9 / 2 * s * nth j w 0).
  assert (K : forall d k, (d < List.length M)%nat -> (k = 0 \/ k = 1)%Z -> Rabs (wall 5 (flux_of (euler_flux gamma)) (seen (bc d) M d u) d (move d k x) (Z.of_nat j)) <= S).
  { intros d k Hd Hk. destruct (near_faces x d k Hx Hd ltac:(lia)) as [F1 F2]. unfold wall, flux_of. rewrite C57_euler_flux by (try reflexivity; lia).
    set (l := left_state 5 _ d _) in *. set (r := right_state 5 _ d _) in *. destruct (HG l d F1 Hd) as (Al & Wl & Gl). destruct (HG r d F2 Hd) as (Ar & Wr & Gr).
    rewrite Nat2Z.id. change (@f0 R RArith) with 0. eapply Rle_trans; [apply (hll_bound gamma d l r j (nth j G 0) s); auto|]. unfold S.
    destruct F1 as [_ F1]. destruct F2 as [_ F2]. specialize (F1 j Hj). specialize (F2 j Hj). assert (S0 : 0 <= s) by (pose proof (wave_speed_pos gamma d l); lra).
    assert (B : Rabs (nth j r 0 - nth j l 0) <= 9 / 2 * nth j w 0) by (apply Rabs_le_iff in F1; apply Rabs_le_iff in F2; apply Rabs_le_iff; lra).
    pose proof (Rmult_le_compat_l s _ _ S0 B). lra. }
  assert (L0 : forall l, incl l (seq 0 (List.length M)) -> Rabs (sum_over l (fun d => (wall 5 (flux_of (euler_flux gamma)) (seen (bc d) M d u) d x (Z.of_nat j) - wall 5 (flux_of (euler_flux gamma)) (seen (bc d) M d u) d (move d 1 x) (Z.of_nat j)) / dx d)) <= sum_over l (fun d => 2 * S / dx d)).
  { induction l as [|d l IH]; intros Hl; unfold sum_over; cbn [map fold_right]; [rewrite Rabs_R0; lra|]. specialize (IH (fun a Ha => Hl a (or_intror Ha))). unfold sum_over in IH.
    assert (Hd : (d < List.length M)%nat) by (specialize (Hl d (or_introl eq_refl)); apply in_seq in Hl; lia).
    assert (L : (d < List.length x)%nat) by (apply Forall2_length in Hx; rewrite app_length in Hx; lia).
    eapply Rle_trans; [apply Rabs_triang|]. apply Rplus_le_compat; [|exact IH].
    pose proof (K d 0%Z Hd (or_introl eq_refl)) as K0. rewrite move_0 in K0 by exact L. pose proof (K d 1%Z Hd (or_intror eq_refl)) as K1. apply Rabs_le_iff in K0. apply Rabs_le_iff in K1.
    unfold Rdiv. rewrite Rabs_mult. assert (I := Rinv_0_lt_compat _ (Hdx d Hd)). rewrite (Rabs_right (/ dx d)) by lra. apply Rmult_le_compat_r; [lra|]. apply Rabs_le_iff. lra. }
  apply L0. apply incl_refl.
Qed.
End Near.
