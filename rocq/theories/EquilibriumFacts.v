(** * EquilibriumFacts: the flux between gases at rest. *)
From Coq Require Import ZArith List String Bool Reals Lra Lia.
From Verif Require Import Base BaseFacts BoxSpec BoxFacts Interface EulerSpec PhysicsSpec PhysicsFacts Properties_Physics NumFacts Range RangeSpec RangeFacts ApiSpec Arith ArithR Chunk FieldSpec VarId Manager MgrSpec MgrFacts
  BC BCSpec BCFacts Sweep SweepSpec Euler Maxwell Sources SourceSpec ParFacts SweepFacts FluxFacts Programs ProgramsSpec ConserveFacts RhsFacts Properties_Programs
  SymmetrySpec SymmetryFacts Properties_Symmetry Properties_Chunk Properties_Monopole AxesFacts PositiveSpec PositiveFacts Properties_Positive AccuracyGas EquilibriumSpec.
Import ListNotations.
Open Scope R_scope.

Lemma rest_side : forall gamma e d q, 1 < gamma -> 0 < e -> (d < 3)%nat -> 0 < density q -> (forall i, (1 <= i < 4)%nat -> nth i q 0 = 0) -> nth 4 q 0 = e ->
  velocity d q = 0 /\ pressure gamma q = (gamma - 1) * e /\ 0 < sound gamma q.
Proof.
  intros gamma e d q Hg He Hd Hr H0 H4. assert (V : velocity d q = 0) by (unfold velocity, momentum; rewrite H0 by lia; unfold Rdiv; ring).
  assert (P : pressure gamma q = (gamma - 1) * e) by (unfold pressure, kinetic, energy, momentum; rewrite (H0 1%nat), (H0 2%nat), (H0 3%nat), H4 by lia; field; lra).
  split; [exact V|]. split; [exact P|]. unfold sound. rewrite P. apply sqrt_lt_R0. apply Rmult_lt_0_compat; [|now apply Rinv_0_lt_compat]. repeat apply Rmult_lt_0_compat; lra.
Qed.
Lemma rest_flux : forall gamma e d l r j, 1 < gamma -> 0 < e -> (d < 3)%nat -> 0 < density l -> 0 < density r ->
  (forall i, (1 <= i < 4)%nat -> nth i l 0 = 0 /\ nth i r 0 = 0) -> nth 4 l 0 = e -> nth 4 r 0 = e -> (1 <= j < 5)%nat ->
  nth j (hll_flux gamma d l r) 0 = if Nat.eqb j (S d) then (gamma - 1) * e else 0.
Proof.
  intros gamma e d l r j Hg He Hd Rl Rr H0 El Er Hj.
  destruct (rest_side gamma e d l Hg He Hd Rl) as (Vl & Pl & Cl); [intros; now apply H0|exact El|]. destruct (rest_side gamma e d r Hg He Hd Rr) as (Vr & Pr & Cr); [intros; now apply H0|exact Er|].
  unfold hll_flux. rewrite nth_five by lia. unfold left_speed, right_speed. rewrite Vl, Vr. destruct (Rlt_dec 0 (0 - sound gamma l)) as [X | _]; [lra|]. destruct (Rlt_dec (0 + sound gamma r) 0) as [X | _]; [lra|].
  unfold hll_average, euler_phys. rewrite Vl, Vr, Pl, Pr. unfold momentum, energy.
  assert (D : j = 1%nat \/ j = 2%nat \/ j = 3%nat \/ j = 4%nat) by lia.
  destruct D as [-> | [-> | [-> | ->]]]; cbn [nth]; rewrite ?El, ?Er; rewrite ?(proj1 (H0 1%nat ltac:(lia))), ?(proj2 (H0 1%nat ltac:(lia))), ?(proj1 (H0 2%nat ltac:(lia))), ?(proj2 (H0 2%nat ltac:(lia))), ?(proj1 (H0 3%nat ltac:(lia))), ?(proj2 (H0 3%nat ltac:(lia)));
    destruct d as [|[|[|d]]]; try lia; cbn [Nat.eqb]; field; lra.
Qed.

(** What is seen of a gas at rest. *)
Lemma rest_seen : forall M P e u b d x t, at_rest M P e u -> (d < List.length M)%nat -> (2 <= hi M d - lo M d)%Z -> in_box (M ++ P) x -> (-2 <= t <= 2)%Z -> b = Periodic \/ b = NoSlip ->
  let w := seen b M d u in w (move d t x ++ [1%Z]) = 0 /\ w (move d t x ++ [2%Z]) = 0 /\ w (move d t x ++ [3%Z]) = 0 /\ w (move d t x ++ [4%Z]) = e.
Proof.
  intros M P e u b d x t HL Hd Hw Hx Ht Hb w. assert (L : (d < List.length x)%nat) by (apply Forall2_length in Hx; rewrite app_length in Hx; lia).
  assert (I : (lo M d <= nth d x 0%Z < hi M d)%Z) by (apply (in_box_inside M P x Hx); exact Hd).
  unfold w. rewrite !seen_by by exact L. match goal with |- context [u (move d ?k x ++ [1%Z])] => destruct (HL (move d k x)) as (E1 & E2 & E3 & E4); [unfold move; apply in_box_upd; auto; now apply reads_in|] end.
  rewrite E1, E2, E3, E4. unfold changed, reversed. destruct (_ || _); [|auto]. destruct Hb as [-> | ->]; cbn; repeat split; ring.
Qed.
Lemma rest_rate : forall gamma M P e u bc dx ds x j, 1 < gamma -> 0 < e -> (List.length M <= 3)%nat -> at_rest M P e u -> filled M P bc u ->
  (forall d, In d ds -> (d < List.length M)%nat /\ (2 <= hi M d - lo M d)%Z /\ (bc d = Periodic \/ bc d = NoSlip)) -> in_box (M ++ P) x -> (1 <= j < 5)%Z ->
  fv_rhs 5 (flux_of (euler_flux gamma)) M bc dx ds u (x ++ [j]) = 0.
Proof.
  intros gamma M P e u bc dx ds x j Hg He H3 HL HF Hds Hx Hj. unfold fv_rhs, cellwise. rewrite removelast_last, last_last, fluxes_sum. change (@f0 R RArith) with 0%R. rewrite sum_over_zero; [ring|].
  intros d Hd. destruct (Hds d Hd) as (H1 & H2 & Hb). assert (L : (d < List.length x)%nat) by (apply Forall2_length in Hx; rewrite app_length in Hx; lia).
  destruct (HF x d Hx H1) as (F1 & F2 & F3 & F4). set (w := seen (bc d) M d u) in *.
  assert (S : forall t, (-2 <= t <= 2)%Z -> w (move d t x ++ [1%Z]) = 0 /\ w (move d t x ++ [2%Z]) = 0 /\ w (move d t x ++ [3%Z]) = 0 /\ w (move d t x ++ [4%Z]) = e) by (intros; now apply (rest_seen M P e u)).
  assert (ST : forall k, (0 <= k <= 1)%Z -> forall i, (1 <= i < 5)%nat -> nth i (left_state 5 w d (move d k x)) 0 = (if Nat.eqb i 4 then e else 0) /\ nth i (right_state 5 w d (move d k x)) 0 = (if Nat.eqb i 4 then e else 0)).
  { intros k Hk i Hi. unfold left_state, right_state. change (zrange 0 5) with [0; 1; 2; 3; 4]%Z. cbn [map]. rewrite !move_move by exact L.
    destruct (S (k + -2)%Z ltac:(lia)) as (A1 & A2 & A3 & A4), (S (k + -1)%Z ltac:(lia)) as (B1 & B2 & B3 & B4), (S k ltac:(lia)) as (C1 & C2 & C3 & C4), (S (k + 1)%Z ltac:(lia)) as (D1 & D2 & D3 & D4).
    assert (D : i = 1%nat \/ i = 2%nat \/ i = 3%nat \/ i = 4%nat) by lia.
    destruct D as [-> | [-> | [-> | ->]]]; cbn [nth Nat.eqb]; rewrite ?A1, ?A2, ?A3, ?A4, ?B1, ?B2, ?B3, ?B4, ?C1, ?C2, ?C3, ?C4, ?D1, ?D2, ?D3, ?D4; now rewrite left_flat, right_flat. }
  assert (W : forall k, (k = 0 \/ k = 1)%Z -> wall 5 (flux_of (euler_flux gamma)) w d (move d k x) j = if Nat.eqb (Z.to_nat j) (Datatypes.S d) then (gamma - 1) * e else 0).
  { intros k Hk. unfold wall, flux_of. rewrite C57_euler_flux by (try reflexivity; lia). apply (rest_flux gamma e); try lia; auto; try lra.
    - destruct Hk as [-> | ->]; [now rewrite move_0|exact F3].
    - destruct Hk as [-> | ->]; [now rewrite move_0|exact F4].
    - intros i Hi. destruct (ST k ltac:(lia) i ltac:(lia)) as [E1 E2]. rewrite E1, E2. destruct (Nat.eqb_spec i 4); [lia|auto].
    - apply (ST k ltac:(lia) 4%nat ltac:(lia)).
    - apply (ST k ltac:(lia) 4%nat ltac:(lia)). }
  rewrite (W 1%Z ltac:(lia)). rewrite <- (move_0 d x L) at 1. rewrite (W 0%Z ltac:(lia)). unfold Rdiv. ring.
Qed.

(** The densities of a gas at rest. *)
Lemma rest_density : forall M P u b d x t A B, (forall y, in_box (M ++ P) y -> A <= u (y ++ [0%Z]) <= B) -> (d < List.length M)%nat -> (2 <= hi M d - lo M d)%Z -> in_box (M ++ P) x -> (-2 <= t <= 2)%Z -> b = Periodic \/ b = NoSlip ->
  A <= seen b M d u (move d t x ++ [0%Z]) <= B.
Proof.
  intros M P u b d x t A B HA Hd Hw Hx Ht Hb. assert (L : (d < List.length x)%nat) by (apply Forall2_length in Hx; rewrite app_length in Hx; lia).
  assert (I : (lo M d <= nth d x 0%Z < hi M d)%Z) by (apply (in_box_inside M P x Hx); exact Hd).
  rewrite seen_by by exact L. match goal with |- context [u (move d ?k x ++ [0%Z])] => assert (E := HA (move d k x)) end. specialize (E ltac:(unfold move; apply in_box_upd; auto; now apply reads_in)).
  unfold changed, reversed. destruct (_ || _); [|exact E]. destruct Hb as [-> | ->]; cbn; exact E.
Qed.
Lemma left_range : forall a b c A B : R, A <= a <= B -> A <= b <= B -> B <= 5 / 2 * A -> A / 16 <= left_value a b c <= 2 * B.
Proof. intros a b c A B Ha Hb HB. rewrite left_R. pose proof (phi_bound ((c - b) / (b - a + eps))) as F. set (f := phi _) in *. clearbody f. nra. Qed.
Lemma right_range : forall a b c A B : R, A <= c <= B -> A <= b <= B -> B <= 5 / 2 * A -> A / 16 <= right_value a b c <= 2 * B.
Proof. intros a b c A B Ha Hb HB. rewrite right_R. match goal with |- context [phi ?r] => pose proof (phi_bound r) as F end. set (f := phi _) in *. clearbody f. nra. Qed.
Section Range.
Variables (M P : box) (u : field R) (bc : nat -> bc_kind) (A B : R).
Hypotheses (HA : 0 < A) (HB : B <= 5 / 2 * A) (HU : forall y, in_box (M ++ P) y -> A <= u (y ++ [0%Z]) <= B)
  (HW : forall d, (d < List.length M)%nat -> (2 <= hi M d - lo M d)%Z /\ (bc d = Periodic \/ bc d = NoSlip)).
Lemma faces_range : forall x d k, in_box (M ++ P) x -> (d < List.length M)%nat -> (0 <= k <= 1)%Z -> let w := seen (bc d) M d u in
  (A / 16 <= density (left_state 5 w d (move d k x)) <= 2 * B) /\ A / 16 <= density (right_state 5 w d (move d k x)) <= 2 * B.
Proof.
  intros x d k Hx Hd Hk w. assert (L : (d < List.length x)%nat) by (apply Forall2_length in Hx; rewrite app_length in Hx; lia). destruct (HW d Hd) as (W1 & W2).
  assert (S : forall t, (-2 <= t <= 2)%Z -> A <= w (move d t x ++ [0%Z]) <= B) by (intros; now apply (rest_density M P u)).
  rewrite left_state_density, right_state_density, !move_move by exact L. split; [apply left_range|apply right_range]; auto; apply S; lia.
Qed.
Lemma range_filled : filled M P bc u.
Proof.
  intros x d Hx Hd w. assert (L : (d < List.length x)%nat) by (apply Forall2_length in Hx; rewrite app_length in Hx; lia).
  destruct (faces_range x d 0 Hx Hd ltac:(lia)) as [A1 A2]. destruct (faces_range x d 1 Hx Hd ltac:(lia)) as [B1 B2]. rewrite move_0 in A1, A2 by exact L. fold w in A1, A2, B1, B2. lra.
Qed.
Lemma range_rate : forall gamma e dx x, 1 < gamma -> 0 < e -> at_rest M P e u -> (List.length M <= 3)%nat -> (forall d, (d < List.length M)%nat -> 0 < dx d) -> in_box (M ++ P) x ->
  Rabs (fv_rhs 5 (flux_of (euler_flux gamma)) M bc dx (seq 0 (List.length M)) u (x ++ [0%Z])) <= sum_over (seq 0 (List.length M)) (fun d => 2 * sqrt (2 * gamma * (gamma - 1) * e * B) / dx d).
Proof.
  intros gamma e dx x Hg He HR H3 Hdx Hx. set (S := sqrt (2 * gamma * (gamma - 1) * e * B)). unfold fv_rhs, cellwise. rewrite removelast_last, last_last, fluxes_sum. change (@f0 R RArith) with 0%R. rewrite Rplus_0_l.
  assert (K : forall d k, (d < List.length M)%nat -> (k = 0 \/ k = 1)%Z -> Rabs (wall 5 (flux_of (euler_flux gamma)) (seen (bc d) M d u) d (move d k x) 0) <= S).
  { intros d k Hd Hk. assert (L : (d < List.length x)%nat) by (apply Forall2_length in Hx; rewrite app_length in Hx; lia). destruct (HW d Hd) as (W1 & W2).
    set (w := seen (bc d) M d u). destruct (faces_range x d k Hx Hd ltac:(lia)) as [F1 F2]. fold w in F1, F2.
    assert (SE : forall t, (-2 <= t <= 2)%Z -> w (move d t x ++ [1%Z]) = 0 /\ w (move d t x ++ [2%Z]) = 0 /\ w (move d t x ++ [3%Z]) = 0 /\ w (move d t x ++ [4%Z]) = e) by (intros; now apply (rest_seen M P e u)).
    assert (ST : forall i, (1 <= i < 5)%nat -> nth i (left_state 5 w d (move d k x)) 0 = (if Nat.eqb i 4 then e else 0) /\ nth i (right_state 5 w d (move d k x)) 0 = (if Nat.eqb i 4 then e else 0)).
    { intros i Hi. unfold left_state, right_state. change (zrange 0 5) with [0; 1; 2; 3; 4]%Z. cbn [map]. rewrite !move_move by exact L.
      destruct (SE (k + -2)%Z ltac:(lia)) as (A1 & A2 & A3 & A4), (SE (k + -1)%Z ltac:(lia)) as (B1 & B2 & B3 & B4), (SE k ltac:(lia)) as (C1 & C2 & C3 & C4), (SE (k + 1)%Z ltac:(lia)) as (D1 & D2 & D3 & D4).
      assert (D : i = 1%nat \/ i = 2%nat \/ i = 3%nat \/ i = 4%nat) by lia.
      destruct D as [-> | [-> | [-> | ->]]]; cbn [nth Nat.eqb]; rewrite ?A1, ?A2, ?A3, ?A4, ?B1, ?B2, ?B3, ?B4, ?C1, ?C2, ?C3, ?C4, ?D1, ?D2, ?D3, ?D4; now rewrite left_flat, right_flat. }
    unfold wall, flux_of. rewrite C57_euler_flux by (try reflexivity; lia). set (l := left_state 5 w d (move d k x)) in *. set (r := right_state 5 w d (move d k x)) in *.
    assert (G : forall q, A / 16 <= density q <= 2 * B -> (forall i, (1 <= i < 5)%nat -> nth i q 0 = (if Nat.eqb i 4 then e else 0)) -> density q * wave_speed gamma d q <= S).
    { intros q Q1 Q2. destruct (rest_side gamma e d q Hg He ltac:(lia) ltac:(lra)) as (V & PP & _); [intros i Hi; rewrite Q2 by lia; destruct (Nat.eqb_spec i 4); [lia|reflexivity]|now rewrite Q2 by lia|].
      unfold wave_speed, sound. rewrite V, PP, Rabs_R0, Rplus_0_l. rewrite <- (sqrt_square (density q)) at 1 by lra. rewrite <- sqrt_mult_alt by nra.
      apply sqrt_le_1_alt. replace (density q * density q * (gamma * ((gamma - 1) * e) / density q)) with (gamma * (gamma - 1) * e * density q) by (field; lra).
      assert (0 < gamma * (gamma - 1) * e) by (repeat apply Rmult_lt_0_compat; lra). replace (2 * gamma * (gamma - 1) * e * B) with (gamma * (gamma - 1) * e * (2 * B)) by ring. apply Rmult_le_compat_l; lra. }
    pose proof (mass_flux gamma d l r ltac:(lra) ltac:(lra) ltac:(lia)) as MF. pose proof (G l F1 (fun i Hi => proj1 (ST i Hi))). pose proof (G r F2 (fun i Hi => proj2 (ST i Hi))). apply Rabs_le_iff. change (Z.to_nat 0) with 0%nat. change (@f0 R RArith) with 0. lra. }
  assert (L0 : forall l, incl l (seq 0 (List.length M)) -> Rabs (sum_over l (fun d => (wall 5 (flux_of (euler_flux gamma)) (seen (bc d) M d u) d x 0 - wall 5 (flux_of (euler_flux gamma)) (seen (bc d) M d u) d (move d 1 x) 0) / dx d)) <= sum_over l (fun d => 2 * S / dx d)).
  { induction l as [|d l IH]; intros Hl; unfold sum_over; cbn [map fold_right]; [rewrite Rabs_R0; lra|]. specialize (IH (fun a Ha => Hl a (or_intror Ha))). unfold sum_over in IH.
    assert (Hd : (d < List.length M)%nat) by (specialize (Hl d (or_introl eq_refl)); apply in_seq in Hl; lia).
    assert (L : (d < List.length x)%nat) by (apply Forall2_length in Hx; rewrite app_length in Hx; lia).
    eapply Rle_trans; [apply Rabs_triang|]. apply Rplus_le_compat; [|exact IH].
    pose proof (K d 0%Z Hd (or_introl eq_refl)) as K0. rewrite move_0 in K0 by exact L. pose proof (K d 1%Z Hd (or_intror eq_refl)) as K1. apply Rabs_le_iff in K0. apply Rabs_le_iff in K1.
    unfold Rdiv. rewrite Rabs_mult. assert (I := Rinv_0_lt_compat _ (Hdx d Hd)). rewrite (Rabs_right (/ dx d)) by lra. apply Rmult_le_compat_r; [lra|]. apply Rabs_le_iff. lra. }
  apply L0. apply incl_refl.
Qed.
End Range.
