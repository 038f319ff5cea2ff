(** * Density and pressure stay positive near a uniform state (C80). *)
From Coq Require Import ZArith List String Lia Bool Reals Lra Psatz.
From Verif Require Import Base BaseFacts BoxSpec BoxFacts Interface EulerSpec PhysicsSpec PhysicsFacts Properties_Physics NumFacts Range RangeSpec RangeFacts ApiSpec Arith ArithR Chunk FieldSpec VarId Manager MgrSpec MgrFacts
  BC BCSpec BCFacts Sweep SweepSpec Euler Maxwell Sources SourceSpec ParFacts SweepFacts FluxFacts Programs ProgramsSpec ConserveFacts RhsFacts Properties_Programs
  SymmetrySpec SymmetryFacts Properties_Symmetry Properties_Chunk Properties_Monopole AxesFacts PositiveSpec PositiveFacts Properties_Positive AccuracyGas EquilibriumSpec EquilibriumFacts Properties_Equilibrium NearSpec NearFacts.
Import ListNotations.
Open Scope Z_scope.

(** ** C80 for density and pressure, near a uniform state and for short times

    Let [q] be a state and [w] widths such that all states within 9/4 of these widths
    have positive density and pressure, waves not faster than [s] and fluxes not larger
    than [G]. If every cell is within [w] of [q], with room for what the fluxes can
    change in [n] steps, then after these steps every cell is still within [w] of [q],
    so density and pressure are positive. With walls, the momenta of [q] are zero. *)
Theorem C80_near : forall gamma M f fuel dt n ws ps (m : mgr R) L u q w G s, let dx := spacing (mg_grid m) in let P := [(0, bs_points (id_basis (f_0 f)))] in
  let rate j := sum_over (seq 0 (List.length M)) (fun d => (2 * (2 * nth j G 0 + 9 / 2 * s * nth j w 0) / dx d)%R) in
  program_ready m M L [f] fuel -> List.length (id_comps (f_0 f)) = 5%nat -> (List.length M <= 3)%nat -> (forall d, (d < List.length M)%nat -> 2 <= hi M d - lo M d) ->
  (forall d, In d (ws ++ ps) <-> (d < List.length M)%nat) -> (forall d, In d ws -> ~ In d ps) -> field_get L (f_0 f) = Some u ->
  (forall d, (d < List.length M)%nat -> 0 < dx d)%R -> (0 <= dt)%R ->
  (forall x d, near q w (9 / 4) x -> (d < List.length M)%nat -> admissible gamma x /\ (wave_speed gamma d x <= s)%R /\ forall j, (j < 5)%nat -> (Rabs (nth j (euler_phys gamma d x) 0) <= nth j G 0)%R) ->
  (ws <> [] -> forall j, (1 <= j < 4)%nat -> nth j q 0%R = 0%R) -> (forall j, (j < 5)%nat -> 0 <= nth j w 0 /\ 0 <= nth j G 0)%R -> (0 <= s)%R ->
  (forall x j, in_box (M ++ P) x -> (j < 5)%nat -> (Rabs (u (x ++ [Z.of_nat j]) - nth j q 0) + INR n * dt * rate j <= nth j w 0)%R) ->
  exists u', ends (run (sod_step true fuel gamma (map Z.of_nat ws) (map Z.of_nat ps) f) dt n m) M (f_0 f) u' /\
    forall x, in_box (M ++ P) x -> near q w 1 (state_of u' x) /\ ((0 < List.length M)%nat -> admissible gamma (state_of u' x)).
Proof.
  intros gamma M f fuel dt n ws ps m L u q w G s dx P rate HR N5 Hk Hw Hds Hx Eu Hdx Hdt HG Hq HwG Hs HU.
  pose (kinds := fun d => if in_dec Nat.eq_dec d ps then Periodic else NoSlip).
  assert (HW : forall d, (d < List.length M)%nat -> 2 <= hi M d - lo M d /\ (kinds d = Periodic \/ (kinds d = NoSlip /\ forall j, (1 <= j < 4)%nat -> nth j q 0%R = 0%R))).
  { intros d Hd. split; [now apply Hw|]. unfold kinds. destruct (in_dec _ _ _) as [I|I]; [now left|]. right. split; [reflexivity|]. apply Hq. intros ->. apply Hds in Hd. now cbn in Hd. }
  pose (Op := fun (V : sys) (_ : nat) => fv_rhs 5 (flux_of (euler_flux gamma)) M kinds dx (seq 0 (List.length M)) (V 0%nat)).
  pose (D := fun (i : nat) (c : list Z) => i = 0%nat /\ exists y j, c = y ++ [Z.of_nat j] /\ in_box (M ++ P) y /\ (j < 5)%nat).
  pose (cj := fun c : list Z => Z.to_nat (last c 0)).
  assert (EJ : forall y j, cj (y ++ [Z.of_nat j]) = j) by (intros y j; unfold cj; now rewrite last_last, Nat2Z.id).
  assert (RP : forall j, (j < 5)%nat -> (0 <= rate j)%R).
  { intros j Hj. apply sum_over_nonneg. intros d Hd. apply in_seq in Hd. destruct (HwG j Hj) as [W1 W2]. apply Rmult_le_pos; [|apply Rlt_le, Rinv_0_lt_compat, Hdx; lia]. assert (0 <= s * nth j w 0)%R by nra. lra. }
  assert (NR : forall V : sys, (forall i c, D i c -> (nth (cj c) q 0 - nth (cj c) w 0 <= V i c <= nth (cj c) q 0 + nth (cj c) w 0)%R) -> forall y, in_box (M ++ P) y -> near q w 1 (state_of (V 0%nat) y)).
  { intros V HV y Hy. split; [reflexivity|]. intros j Hj. rewrite state_of_nth by exact Hj. specialize (HV 0%nat (y ++ [Z.of_nat j]) (conj eq_refl (ex_intro _ y (ex_intro _ j (conj eq_refl (conj Hy Hj)))))). rewrite EJ in HV. apply Rabs_le_iff. lra. }
  destruct (drift (fun _ _ => False) D (fun _ _ => 0%R) (fun _ c => (nth (cj c) q 0 - nth (cj c) w 0)%R) (fun _ c => (nth (cj c) q 0 + nth (cj c) w 0)%R) (fun _ c => if (cj c <? 5)%nat then rate (cj c) else 0%R) Op dt) with (n := n) (U := fun _ : nat => u) as [[_ KD] _].
  - intros V _ HV. split; [intros i c []|]. intros i c [-> (y & j & -> & Hy & Hj)]. rewrite EJ. destruct (Nat.ltb_spec j 5); [|lia].
    exact (near_rate gamma M P (V 0%nat) kinds dx q w G s Hk Hdx (NR V HV) HW HG y j Hy Hj).
  - exact Hdt.
  - intros _ c. destruct (Nat.ltb_spec (cj c) 5); [now apply RP|lra].
  - intros i c [].
  - intros i c [-> (y & j & -> & Hy & Hj)]. rewrite EJ. destruct (Nat.ltb_spec j 5); [|lia]. specialize (HU y j Hy Hj).
    assert (B : (Rabs (u (y ++ [Z.of_nat j]) - nth j q 0) <= nth j w 0 - INR n * dt * rate j)%R) by lra. apply Rabs_le_iff in B. lra.
  - destruct (C57_sod R RArith gamma M f fuel dt n ws ps m L u HR N5 ltac:(lia) Hds Hx Eu) as (m1 & L1 & E1 & (S1 & _) & _ & _ & _ & V1 & _).
    destruct (V1 0%nat (f_0 f) eq_refl) as (u' & Gu & Hu'). exists u'. split; [exists m1, L1; auto|]. intros x Hx'.
    assert (E : state_of u' x = state_of (Nat.iter n (rk3 Op dt) (fun _ => u) 0%nat) x).
    { unfold state_of. cbn [map]. rewrite !Hu' by (apply cell_join; [exact Hx'|rewrite N5; lia]). reflexivity. }
    rewrite E. assert (N1 := NR _ KD x Hx'). split; [exact N1|]. intros H0.
    apply (HG _ 0%nat); [|exact H0]. destruct N1 as [N0 N1]. split; [exact N0|]. intros j Hj. specialize (N1 j Hj). destruct (HwG j Hj). lra.
Qed.
Print Assumptions C80_near.

(** An example: four cells on a ring, with small sound waves on density 1 and energy
    5/2: density and energy are off by up to 1/100 and there is a velocity of up to
    1/100. Up to a hundred steps of 1/10000. *)
Definition ripple : field R := fun c => let k := IZR (nth (Z.to_nat (nth 0 c 0)) [0; 1; 0; -1] 0) in
  match last c 0 with 0 => (1 + k / 100)%R | 1 => (k / 100)%R | 4 => (5 / 2 + k / 100)%R | _ => 0%R end.
Lemma ripple_small : forall x j, in_box (ring4 ++ [(0, 1)]) x -> (j < 5)%nat -> (Rabs (ripple (x ++ [Z.of_nat j]) - nth j [1; 0; 0; 0; 5 / 2] 0) <= / 100)%R.
Proof.
  intros x j Hx Hj. inversion Hx as [|? i ? ? Hi H1]; subst. inversion H1 as [|? z ? ? Hz H2]; subst. inversion H2; subst. cbn [fst snd] in Hi.
  assert (K : exists k, (-1 <= k <= 1)%R /\ IZR (nth (Z.to_nat i) [0; 1; 0; -1] 0) = k).
  { eexists. split; [|reflexivity]. assert (-1 <= nth (Z.to_nat i) [0; 1; 0; -1] 0 <= 1) by (assert (D : i = 0 \/ i = 1 \/ i = 2 \/ i = 3) by lia; destruct D as [-> | [-> | [-> | ->]]]; split; vm_compute; discriminate). split; apply IZR_le; lia. }
  destruct K as (k & Hk & Ek). unfold ripple. rewrite last_last. change (nth 0 ([i; z] ++ [Z.of_nat j]) 0) with i. rewrite Ek. apply Rabs_le_iff.
  do 5 (destruct j as [|j]; [cbn; lra|]). lia.
Qed.
Lemma quotient_bound : forall a b A B : R, (0 < B <= b)%R -> (Rabs a <= A)%R -> (Rabs (a / b) <= A / B)%R.
Proof.
  intros a b A B HB HA. unfold Rdiv. rewrite Rabs_mult, (Rabs_right (/ b)) by (left; apply Rinv_0_lt_compat; lra). apply Rmult_le_compat; [apply Rabs_pos|left; apply Rinv_0_lt_compat; lra|exact HA|apply Rinv_le_contravar; lra].
Qed.
Lemma ripple_room : forall x, near [1; 0; 0; 0; 5 / 2]%R (repeat (/ 10) 5)%R (9 / 4) x -> admissible (14 / 10) x /\ (wave_speed (14 / 10) 0 x <= 2)%R /\ forall j, (j < 5)%nat -> (Rabs (nth j (euler_phys (14 / 10) 0 x) 0) <= 5 / 4)%R.
Proof.
  intros x [L N]. assert (N0 := N 0%nat ltac:(lia)). assert (N1 := N 1%nat ltac:(lia)). assert (N2 := N 2%nat ltac:(lia)). assert (N3 := N 3%nat ltac:(lia)). assert (N4 := N 4%nat ltac:(lia)). clear N.
  destruct x as [|r [|p1 [|p2 [|p3 [|e [|? ?]]]]]]; try discriminate L. cbn [nth repeat] in *.
  apply Rabs_le_iff in N0. apply Rabs_le_iff in N1. apply Rabs_le_iff in N2. apply Rabs_le_iff in N3. apply Rabs_le_iff in N4.
  assert (V : (Rabs (p1 / r) <= (9 / 40) / (31 / 40))%R) by (apply quotient_bound; [lra|apply Rabs_le_iff; lra]).
  assert (KI : (0 <= (p1 ^ 2 + p2 ^ 2 + p3 ^ 2) / (2 * r) <= / 10)%R).
  { assert (Q1 : (p1 ^ 2 <= 81 / 1600)%R) by nra. assert (Q2 : (p2 ^ 2 <= 81 / 1600)%R) by nra. assert (Q3 : (p3 ^ 2 <= 81 / 1600)%R) by nra.
    split; [apply Rmult_le_pos; [nra|left; apply Rinv_0_lt_compat; lra]|]. apply Rmult_le_reg_r with (2 * r)%R; [lra|]. unfold Rdiv. rewrite Rmult_assoc, Rinv_l by lra. nra. }
  assert (PP : (0 < pressure (14 / 10) [r; p1; p2; p3; e] <= 11 / 10)%R) by (unfold pressure, kinetic, density, momentum, energy; cbn [nth]; lra).
  split; [split; [reflexivity|]; split; [lra|]; split; [cbn; lra|apply PP]|].
  assert (VV : (velocity 0 [r; p1; p2; p3; e] = p1 / r)%R) by reflexivity. assert (DE : (density [r; p1; p2; p3; e] = r)%R) by reflexivity. set (pr := pressure (14 / 10) [r; p1; p2; p3; e]) in *.
  split.
  - unfold wave_speed, sound. rewrite VV, DE. fold pr. assert (S2 : (sqrt (14 / 10 * pr / r) <= 17 / 10)%R).
    { rewrite <- (sqrt_square (17 / 10)) by lra. apply sqrt_le_1_alt. unfold Rdiv at 1. apply Rmult_le_reg_r with r; [lra|]. rewrite Rmult_assoc, Rinv_l by lra. lra. }
    lra.
  - intros j Hj. unfold euler_phys. rewrite VV. fold pr. unfold momentum, energy. cbn [nth]. assert (VB := V). apply Rabs_le_iff in VB. set (v := (p1 / r)%R) in *. clearbody v pr.
    do 5 (destruct j as [|j]; [cbn [nth Nat.eqb]; apply Rabs_le_iff; split; nra|]). lia.
Qed.
Example C80_near_ex : forall n, (n <= 100)%nat -> exists u, ends (run (sod_step true 999 (14 / 10)%R [] [0] electrons) (/ 10000)%R n (tube_start 4 ripple)) ring4 (f_0 electrons) u /\
  forall x, in_box (ring4 ++ [(0, 1)]) x -> admissible (14 / 10) (state_of u x).
Proof.
  intros n Hn. assert (Tn : (0 <= INR n <= 100)%R) by (apply le_INR in Hn; pose proof (pos_INR n); replace (INR 100) with 100%R in Hn by (rewrite INR_IZR_INZ; reflexivity); lra).
  destruct (C80_near (14 / 10)%R ring4 electrons 999 (/ 10000)%R n [] [0%nat] (tube_start 4 ripple) [(f_0 electrons, ripple)] ripple [1; 0; 0; 0; 5 / 2]%R (repeat (/ 10) 5)%R (repeat (5 / 4) 5)%R 2%R) as (u & E & H); auto.
  - is_ready.
  - intros d Hd. destruct d as [|d]; [cbn; lia|cbn in Hd; lia].
  - intros d. cbn. lia.
  - intros d Hd. destruct d as [|d]; [cbn; lra|cbn in Hd; lia].
  - lra.
  - intros x d N Hd. destruct d as [|d]; [|cbn in Hd; lia]. destruct (ripple_room x N) as (A1 & A2 & A3). split; [exact A1|]. split; [exact A2|]. intros j Hj. specialize (A3 j Hj).
    do 5 (destruct j as [|j]; [exact A3|]). lia.
  - intros H. now elim H.
  - intros j Hj. do 5 (destruct j as [|j]; [cbn; lra|]). lia.
  - lra.
  - intros x j Hx Hj. pose proof (ripple_small x j Hx Hj) as B. set (z := Rabs _) in *. clearbody z. change (seq 0 (List.length ring4)) with [0%nat]. unfold sum_over. cbn [map fold_right]. change (spacing (mg_grid (tube_start 4 ripple)) 0%nat) with 1%R.
    do 5 (destruct j as [|j]; [cbn [nth repeat]; lra|]). lia.
  - exists u. split; [exact E|]. intros x Hx. apply (H x Hx). cbn. lia.
Qed.
