(** * A gas in equilibrium stays in equilibrium (C83). *)
From Coq Require Import ZArith List String Lia Bool Reals Lra Psatz Floats.SpecFloat.
From Verif Require Import Base BaseFacts BoxSpec BoxFacts Interface EulerSpec PhysicsSpec PhysicsFacts Properties_Physics NumFacts Range RangeSpec RangeFacts ApiSpec Arith ArithFloat ArithR Chunk FieldSpec VarId Manager MgrSpec MgrFacts
  BC BCSpec BCFacts Sweep SweepSpec Euler Maxwell Sources SourceSpec ParFacts SweepFacts FluxFacts Programs ProgramsSpec ConserveFacts RhsFacts Properties_Programs
  SymmetrySpec SymmetryFacts Properties_Symmetry Properties_Chunk Properties_Monopole AxesFacts PositiveSpec PositiveFacts Properties_Positive AccuracyGas EquilibriumSpec EquilibriumFacts.
Import ListNotations.
Open Scope Z_scope.

(** Values that do not change as long as they are what they are. *)
Lemma stay : forall (Q : nat -> list Z -> Prop) (B : @sys R) (Fill : @sys R -> Prop) Op dt, (forall V, (forall i c, Q i c -> V i c = B i c) -> Fill V -> forall i c, Q i c -> Op V i c = 0%R) ->
  forall U n, (forall i c, Q i c -> U i c = B i c) -> (forall t, (t < n)%nat -> let V := Nat.iter t (rk3 Op dt) U in Fill V /\ Fill (second Op dt V) /\ Fill (third Op dt V)) ->
  forall i c, Q i c -> Nat.iter n (rk3 Op dt) U i c = B i c.
Proof.
  intros Q B Fill Op dt H0 U n HU. induction n as [|n IH]; intros HF; [exact HU|]. intros i c Hq. cbn [Nat.iter].
  assert (S1 := IH (fun t Ht => HF t (Nat.lt_lt_succ_r _ _ Ht))). destruct (HF n (Nat.lt_succ_diag_r n)) as (F1 & F2 & F3). set (V := Nat.iter n (rk3 Op dt) U) in *.
  assert (S2 : forall i c, Q i c -> second Op dt V i c = B i c) by (intros a b Hab; unfold second; rewrite (H0 V S1 F1), S1 by exact Hab; ring).
  assert (S3 : forall i c, Q i c -> third Op dt V i c = B i c) by (intros a b Hab; unfold third, second at 1; rewrite (H0 _ S2 F2), S2, S1 by exact Hab; field).
  change (Nat.iter (S n) (rk3 Op dt) U i c) with (rk3 Op dt V i c). rewrite rk3_third, (H0 _ S3 F3), S3, S1 by exact Hq. field.
Qed.
Lemma sum_over_nonneg : forall ds f, (forall d, In d ds -> 0 <= f d)%R -> (0 <= sum_over ds f)%R.
Proof. unfold sum_over. induction ds as [|d ds IH]; intros f H; cbn [map fold_right]; [lra|]. pose proof (H d (or_introl eq_refl)). pose proof (IH f (fun d' Hd' => H d' (or_intror Hd'))). lra. Qed.
(** Values [D] that change by at most [r] per unit of time. *)
Lemma drift : forall (Q D : nat -> list Z -> Prop) (B : @sys R) (a b r : nat -> list Z -> R) Op dt,
  (forall V : sys, (forall i c, Q i c -> V i c = B i c) -> (forall i c, D i c -> (a i c <= V i c <= b i c)%R) ->
    (forall i c, Q i c -> Op V i c = 0%R) /\ forall i c, D i c -> (Rabs (Op V i c) <= r i c)%R) -> (0 <= dt)%R -> (forall i c, 0 <= r i c)%R ->
  forall n U, (forall i c, Q i c -> U i c = B i c) -> (forall i c, D i c -> (a i c + INR n * dt * r i c <= U i c <= b i c - INR n * dt * r i c)%R) ->
  let fine (V : sys) := (forall i c, Q i c -> V i c = B i c) /\ forall i c, D i c -> (a i c <= V i c <= b i c)%R in
  fine (Nat.iter n (rk3 Op dt) U) /\ forall t, (t < n)%nat -> let V := Nat.iter t (rk3 Op dt) U in fine V /\ fine (second Op dt V) /\ fine (third Op dt V).
Proof.
  intros Q D B a b r Op dt HO Hdt Hr. induction n as [|n IH]; intros U HQ HD fine.
  - split; [|intros t Ht; lia]. split; [exact HQ|]. intros i c Hc. specialize (HD i c Hc). change (INR 0) with 0%R in HD. change (a i c <= U i c <= b i c)%R. lra.
  - pose proof (pos_INR n) as Pn. rewrite S_INR in HD.
    assert (BB : forall V i c, D i c -> (Rabs (Op V i c) <= r i c)%R -> (- (dt * r i c) <= dt * Op V i c <= dt * r i c)%R) by (intros V i c _ H; apply Rabs_le_iff in H; nra).
    assert (PP : forall i c, (0 <= dt * r i c /\ 0 <= INR n * (dt * r i c))%R) by (intros i c; specialize (Hr i c); assert (0 <= dt * r i c)%R by nra; split; [assumption|nra]).
    assert (HD' : forall i c, D i c -> (a i c + INR n * (dt * r i c) + dt * r i c <= U i c <= b i c - INR n * (dt * r i c) - dt * r i c)%R) by (intros i c Hc; specialize (HD i c Hc); lra).
    assert (G1 : forall i c, D i c -> (a i c <= U i c <= b i c)%R) by (intros i c Hc; specialize (HD' i c Hc); pose proof (PP i c); lra).
    destruct (HO U HQ G1) as [Z1 R1].
    assert (Q2 : forall i c, Q i c -> second Op dt U i c = B i c) by (intros i c Hc; unfold second; rewrite Z1, HQ by exact Hc; ring).
    assert (G2 : forall i c, D i c -> (a i c <= second Op dt U i c <= b i c)%R) by (intros i c Hc; specialize (HD' i c Hc); pose proof (PP i c); pose proof (BB U i c Hc (R1 i c Hc)); unfold second; lra).
    destruct (HO (second Op dt U) Q2 G2) as [Z2 R2].
    assert (Q3 : forall i c, Q i c -> third Op dt U i c = B i c) by (intros i c Hc; unfold third, second at 1; rewrite Z2, Q2, HQ by exact Hc; field).
    assert (D3 : forall i c, D i c -> (U i c - dt * r i c / 2 <= third Op dt U i c <= U i c + dt * r i c / 2)%R).
    { intros i c Hc. pose proof (BB U i c Hc (R1 i c Hc)). pose proof (BB _ i c Hc (R2 i c Hc)). unfold third, second at 1 3. unfold second at 1 3. lra. }
    assert (G3 : forall i c, D i c -> (a i c <= third Op dt U i c <= b i c)%R) by (intros i c Hc; specialize (HD' i c Hc); specialize (D3 i c Hc); pose proof (PP i c); lra).
    destruct (HO (third Op dt U) Q3 G3) as [Z3 R3].
    assert (EI : forall k, Nat.iter (S k) (rk3 Op dt) U = Nat.iter k (rk3 Op dt) (rk3 Op dt U)) by (clear; induction k as [|k IH]; [reflexivity|cbn [Nat.iter nat_rect] in *; now rewrite IH]).
    destruct (IH (rk3 Op dt U)) as [K1 K2]; [| |split; [rewrite EI; exact K1|intros [|t] Ht; [exact (conj (conj HQ G1) (conj (conj Q2 G2) (conj Q3 G3)))|rewrite EI; apply K2; lia]]].
    + intros i c Hc. rewrite rk3_third, Z3, Q3, HQ by exact Hc. field.
    + intros i c Hc. rewrite rk3_third. specialize (HD' i c Hc). specialize (D3 i c Hc). pose proof (BB _ i c Hc (R3 i c Hc)). lra.
Qed.
Lemma at_rest_join : forall M P e u, at_rest M P e u <-> forall x j, in_box (M ++ P) x -> 1 <= j < 5 -> u (x ++ [j]) = if j =? 4 then e else 0%R.
Proof.
  intros M P e u. split.
  - intros H x j Hx Hj. destruct (H x Hx) as (H1 & H2 & H3 & H4). assert (D : j = 1 \/ j = 2 \/ j = 3 \/ j = 4) by lia. destruct D as [-> | [-> | [-> | ->]]]; auto.
  - intros H x Hx. repeat split; rewrite (H x) by (auto; lia); reflexivity.
Qed.

(** ** C83 for the Euler solver

    The programs' meshes have at most three dimensions, and along each the boundary
    condition is a wall or the data are periodic. If a gas is at rest, with the same
    energy in every cell and any densities, and the densities at both sides of every
    wall between cells are positive, then momentum and energy do not change in the
    whole run: the gas stays at rest with uniform pressure, and only the densities
    spread. Still assumed is that these densities are positive at every stage. *)
Theorem C83_sod_partial : forall gamma M f fuel dt n ws ps (m : mgr R) L u e,
  let kinds d := if in_dec Nat.eq_dec d ps then Periodic else NoSlip in
  let Op := fun (V : sys) (_ : nat) => fv_rhs 5 (flux_of (euler_flux gamma)) M kinds (spacing (mg_grid m)) (seq 0 (List.length M)) (V 0%nat) in
  let P := [(0, bs_points (id_basis (f_0 f)))] in
  program_ready m M L [f] fuel -> List.length (id_comps (f_0 f)) = 5%nat -> (List.length M <= 3)%nat -> (forall d, (d < List.length M)%nat -> 2 <= hi M d - lo M d) ->
  (forall d, In d (ws ++ ps) <-> (d < List.length M)%nat) -> (forall d, In d ws -> ~ In d ps) -> field_get L (f_0 f) = Some u ->
  (1 < gamma)%R -> (0 < e)%R -> at_rest M P e u ->
  (forall t, (t < n)%nat -> let V := Nat.iter t (rk3 Op dt) (fun _ => u) in
    filled M P kinds (V 0%nat) /\ filled M P kinds (second Op dt V 0%nat) /\ filled M P kinds (third Op dt V 0%nat)) ->
  exists u', ends (run (sod_step true fuel gamma (map Z.of_nat ws) (map Z.of_nat ps) f) dt n m) M (f_0 f) u' /\ at_rest M P e u'.
Proof.
  intros gamma M f fuel dt n ws ps m L u e kinds Op P HR N5 Hk Hw Hds Hx Eu Hg He H0 HF.
  destruct (C57_sod R RArith gamma M f fuel dt n ws ps m L u HR N5 ltac:(lia) Hds Hx Eu) as (m1 & L1 & E1 & (S1 & _) & _ & _ & _ & V1 & _).
  destruct (V1 0%nat (f_0 f) eq_refl) as (u' & Gu & Hu'). exists u'. split; [exists m1, L1; auto|]. apply at_rest_join. intros x j Hx' Hj.
  rewrite Hu' by (apply cell_join; [exact Hx'|rewrite N5; lia]).
  pose (Q := fun (i : nat) (c : list Z) => i = 0%nat /\ exists y k, c = y ++ [k] /\ in_box (M ++ P) y /\ 1 <= k < 5). pose (B := fun (i : nat) (c : list Z) => if last c 0 =? 4 then e else 0%R).
  assert (R0 : forall V : sys, (forall i c, Q i c -> V i c = B i c) -> at_rest M P e (V 0%nat)).
  { intros V HV. apply at_rest_join. intros y k Hy Hk'. rewrite HV by (split; [reflexivity|now exists y, k]). unfold B. now rewrite last_last. }
  rewrite <- (last_last x j 0) at 2. apply (stay Q B (fun V => filled M P kinds (V 0%nat)) Op dt).
  - intros V HV HFV i c [-> (y & k & -> & Hy & Hk')]. apply (rest_rate gamma M P e (V 0%nat) kinds _ _ y k Hg He Hk (R0 V HV) HFV); [|exact Hy|exact Hk']. intros d Hd. apply in_seq in Hd. split; [lia|]. split; [apply Hw; lia|]. unfold kinds. destruct (in_dec _ _ _); auto.
  - intros i c [-> (y & k & -> & Hy & Hk')]. unfold B. rewrite last_last. apply at_rest_join with (M := M) (P := P); auto.
  - exact HF.
  - split; [reflexivity|now exists x, j].
Qed.
Print Assumptions C83_sod_partial.

Lemma sod_drift : forall gamma M P kinds dx dt n u e a b, let ds := seq 0 (List.length M) in let rate := sum_over ds (fun d => (2 * sqrt (2 * gamma * (gamma - 1) * e * b) / dx d)%R) in
  let Op := fun (V : sys) (_ : nat) => fv_rhs 5 (flux_of (euler_flux gamma)) M kinds dx ds (V 0%nat) in
  (List.length M <= 3)%nat -> (forall d, (d < List.length M)%nat -> 2 <= hi M d - lo M d /\ (kinds d = Periodic \/ kinds d = NoSlip)) ->
  (forall d, (d < List.length M)%nat -> 0 < dx d)%R -> (0 <= dt)%R -> (1 < gamma)%R -> (0 < e)%R -> at_rest M P e u ->
  (0 < a)%R -> (b <= 5 / 2 * a)%R -> (forall x, in_box (M ++ P) x -> a + INR n * dt * rate <= u (x ++ [0%Z]) <= b - INR n * dt * rate)%R ->
  at_rest M P e (Nat.iter n (rk3 Op dt) (fun _ => u) 0%nat) /\ (forall x, in_box (M ++ P) x -> (a <= Nat.iter n (rk3 Op dt) (fun _ => u) 0%nat (x ++ [0%Z]) <= b)%R) /\
  forall t, (t < n)%nat -> let V := Nat.iter t (rk3 Op dt) (fun _ => u) in filled M P kinds (V 0%nat) /\ filled M P kinds (second Op dt V 0%nat) /\ filled M P kinds (third Op dt V 0%nat).
Proof.
  intros gamma M P kinds dx dt n u e a b ds rate Op Hk HW Hdx Hdt Hg He H0 Ha Hb HU.
  pose (Q := fun (i : nat) (c : list Z) => i = 0%nat /\ exists y k, c = y ++ [k] /\ in_box (M ++ P) y /\ 1 <= k < 5). pose (B := fun (i : nat) (c : list Z) => if last c 0 =? 4 then e else 0%R).
  pose (D := fun (i : nat) (c : list Z) => i = 0%nat /\ exists y, c = y ++ [0] /\ in_box (M ++ P) y).
  assert (RP : (0 <= rate)%R) by (apply sum_over_nonneg; intros d Hd; apply in_seq in Hd; apply Rmult_le_pos; [pose proof (sqrt_pos (2 * gamma * (gamma - 1) * e * b)); lra|apply Rlt_le, Rinv_0_lt_compat, Hdx; lia]).
  assert (DR : forall V : sys, (forall i c, D i c -> (a <= V i c <= b)%R) -> forall y, in_box (M ++ P) y -> (a <= V 0%nat (y ++ [0%Z]) <= b)%R) by (intros V HDV y Hy; apply HDV; split; [reflexivity|now exists y]).
  assert (QR : forall V : sys, (forall i c, Q i c -> V i c = B i c) -> at_rest M P e (V 0%nat)).
  { intros V HV. apply at_rest_join. intros y k Hy Hk'. rewrite HV by (split; [reflexivity|now exists y, k]). unfold B. now rewrite last_last. }
  destruct (drift Q D B (fun _ _ => a) (fun _ _ => b) (fun _ _ => rate) Op dt) with (n := n) (U := fun _ : nat => u) as [[KQ KD] KS]; auto.
  - intros V HV HDV. assert (R0 := QR V HV). assert (D0 := DR V HDV). split.
    + intros i c [-> (y & k & -> & Hy & Hk')]. apply (rest_rate gamma M P e (V 0%nat) kinds _ _ y k Hg He Hk R0); [exact (range_filled M P (V 0%nat) kinds a b Ha Hb D0 HW)| |exact Hy|exact Hk'].
      intros d Hd. apply in_seq in Hd. split; [lia|]. apply HW. lia.
    + intros i c [-> (y & -> & Hy)]. exact (range_rate M P (V 0%nat) kinds a b Ha Hb D0 HW gamma e dx y Hg He R0 Hk Hdx Hy).
  - intros i c [-> (y & k & -> & Hy & Hk')]. unfold B. rewrite last_last. apply at_rest_join with (M := M) (P := P); auto.
  - intros i c [-> (y & -> & Hy)]. now apply HU.
  - split; [exact (QR _ KQ)|]. split; [exact (DR _ KD)|]. intros t Ht V. destruct (KS t Ht) as ((_ & S1) & (_ & S2) & (_ & S3)). fold V in S1, S2, S3.
    split; [exact (range_filled M P _ kinds a b Ha Hb (DR _ S1) HW)|]. split; [exact (range_filled M P _ kinds a b Ha Hb (DR _ S2) HW)|exact (range_filled M P _ kinds a b Ha Hb (DR _ S3) HW)].
Qed.

(** Without an assumption about the stages, as long as the run is short enough: if the
    densities are between [a] and [b], which is at most two and a half times [a], and
    the time is too short for mass flowing at the rate sqrt (2 gamma (gamma - 1) e b)
    through every wall to move a density out of this range. *)
Theorem C83_sod : forall gamma M f fuel dt n ws ps (m : mgr R) L u e a b, let dx := spacing (mg_grid m) in let P := [(0, bs_points (id_basis (f_0 f)))] in
  let rate := sum_over (seq 0 (List.length M)) (fun d => (2 * sqrt (2 * gamma * (gamma - 1) * e * b) / dx d)%R) in
  program_ready m M L [f] fuel -> List.length (id_comps (f_0 f)) = 5%nat -> (List.length M <= 3)%nat -> (forall d, (d < List.length M)%nat -> 2 <= hi M d - lo M d) ->
  (forall d, In d (ws ++ ps) <-> (d < List.length M)%nat) -> (forall d, In d ws -> ~ In d ps) -> field_get L (f_0 f) = Some u ->
  (forall d, (d < List.length M)%nat -> 0 < dx d)%R -> (0 <= dt)%R -> (1 < gamma)%R -> (0 < e)%R -> at_rest M P e u ->
  (0 < a)%R -> (b <= 5 / 2 * a)%R -> (forall x, in_box (M ++ P) x -> a + INR n * dt * rate <= u (x ++ [0%Z]) <= b - INR n * dt * rate)%R ->
  exists u', ends (run (sod_step true fuel gamma (map Z.of_nat ws) (map Z.of_nat ps) f) dt n m) M (f_0 f) u' /\ at_rest M P e u' /\
    forall x, in_box (M ++ P) x -> (a <= u' (x ++ [0%Z]) <= b)%R.
Proof.
  intros gamma M f fuel dt n ws ps m L u e a b dx P rate HR N5 Hk Hw Hds Hx Eu Hdx Hdt Hg He H0 Ha Hb HU.
  pose (kinds := fun d => if in_dec Nat.eq_dec d ps then Periodic else NoSlip).
  assert (HW : forall d, (d < List.length M)%nat -> 2 <= hi M d - lo M d /\ (kinds d = Periodic \/ kinds d = NoSlip)) by (intros d Hd; split; [now apply Hw|unfold kinds; destruct (in_dec _ _ _); auto]).
  destruct (sod_drift gamma M P kinds dx dt n u e a b Hk HW Hdx Hdt Hg He H0 Ha Hb HU) as (KR & KD & _).
  destruct (C57_sod R RArith gamma M f fuel dt n ws ps m L u HR N5 ltac:(lia) Hds Hx Eu) as (m1 & L1 & E1 & (S1 & _) & _ & _ & _ & V1 & _).
  destruct (V1 0%nat (f_0 f) eq_refl) as (u' & Gu & Hu'). exists u'. split; [exists m1, L1; auto|].
  assert (EU : forall x j, in_box (M ++ P) x -> 0 <= j < 5 -> u' (x ++ [j]) = Nat.iter n (rk3 (fun (V : sys) (_ : nat) => fv_rhs 5 (flux_of (euler_flux gamma)) M kinds dx (seq 0 (List.length M)) (V 0%nat)) dt) (fun _ => u) 0%nat (x ++ [j])).
  { intros x j Hx' Hj. apply Hu'. apply cell_join; [exact Hx'|rewrite N5; lia]. }
  split; [intros x Hx'; rewrite !EU by (auto; lia); now apply KR|]. intros x Hx'. rewrite EU by (auto; lia). now apply KD.
Qed.
Print Assumptions C83_sod.

(** Both fluids at rest and no field: momenta, energies and fields do not change. *)
Lemma plasma_rest : forall p M P dx (V : sys) ee ei y, List.length M = 2%nat -> List.length (pl_ms p) = 2%nat -> (forall d, (d < 2)%nat -> 2 <= hi M d - lo M d) -> (1 < pl_gamma p)%R -> (0 < ee)%R -> (0 < ei)%R ->
  at_rest M P ee (V 0%nat) -> at_rest M P ei (V 1%nat) -> (forall x j, in_box (M ++ P) x -> 0 <= j < 6 -> V 2%nat (x ++ [j]) = 0%R) ->
  filled M P (gem_kinds 0) (V 0%nat) -> filled M P (gem_kinds 1) (V 1%nat) -> in_box (M ++ P) y ->
  let r := plasma_op p (flux_of (euler_flux (pl_gamma p))) (flux_of (maxwell_flux (pl_c p))) M gem_kinds dx [0; 1]%nat [0; 1]%nat V in
  (forall a k, (a < 2)%nat -> 1 <= k < 5 -> r a (y ++ [k]) = 0%R) /\ (forall k, 0 <= k < 6 -> r 2%nat (y ++ [k]) = 0%R) /\
  forall a, (a < 2)%nat -> r a (y ++ [0]) = fv_rhs 5 (flux_of (euler_flux (pl_gamma p))) M (gem_kinds a) dx [0; 1]%nat (V a) (y ++ [0]).
Proof.
  intros p M P dx V ee ei y LM Hms Hd Hg Hee Hei Z0 Z1 Z2 F0 F1 Hy r.
  assert (DD : forall b, (b < 2)%nat -> forall d, In d [0; 1]%nat -> (d < List.length M)%nat /\ 2 <= hi M d - lo M d /\ (gem_kinds b d = Periodic \/ gem_kinds b d = NoSlip)).
  { intros b Hb d [<-|[<-|[]]]; (split; [lia|]); (split; [apply Hd; lia|]); [right; destruct b as [|[|b]]; [reflexivity|reflexivity|lia]|now left]. }
  destruct (Z0 y Hy) as (A1 & A2 & A3 & A4). destruct (Z1 y Hy) as (B1 & B2 & B3 & B4).
  split; [|split].
  - intros a k Ha Hk. assert (D : k = 1 \/ k = 2 \/ k = 3 \/ k = 4) by lia. destruct a as [|[|a]]; [| |lia]; unfold r, plasma_op, with_lorentz; rewrite removelast_last, last_last.
    + rewrite (rest_rate (pl_gamma p) M P ee (V 0%nat)) by (auto; lia).
      destruct D as [-> | [-> | [-> | ->]]]; cbn [lorentz_rate]; rewrite ?A1, ?A2, ?A3, ?Z2 by (auto; lia); cbn; ring.
    + rewrite (rest_rate (pl_gamma p) M P ei (V 1%nat)) by (auto; lia).
      destruct D as [-> | [-> | [-> | ->]]]; cbn [lorentz_rate]; rewrite ?B1, ?B2, ?B3, ?Z2 by (auto; lia); cbn; ring.
  - intros k Hk. unfold r, plasma_op, with_current. rewrite removelast_last, last_last. rewrite (level_rate M P 6 (fun _ => 0%R) (V 2%nat)).
    + destruct (Z.ltb_spec k 3); [|reflexivity]. unfold current. destruct (pl_ms p) as [|m0 [|m1' [|? ?]]]; try discriminate Hms.
      assert (D : k = 0 \/ k = 1 \/ k = 2) by lia. destruct D as [-> | [-> | ->]]; cbn -[removelast app]; rewrite ?A1, ?A2, ?A3, ?B1, ?B2, ?B3; ring.
    + exact Z2.
    + intros d Hd'. destruct (DD 0%nat ltac:(lia) d Hd') as (X & Y & _). auto.
    + exact Hy.
    + intros d j [<-|[<-|[]]] Hj; cbn; auto.
  - intros a Ha. destruct a as [|[|a]]; [| |lia]; unfold r, plasma_op, with_lorentz; rewrite removelast_last, last_last; reflexivity.
Qed.

(** ** C83 for a plasma

    The same for both fluids of a plasma, with the walls of gem_challenge, without
    electromagnetic fields: at rest, there is no current, and the fields stay zero. *)
Theorem C83_gem_partial : forall p mx my e i f fuel dt n (m : mgr R) L u v w ee ei, let M := [mx; my] in
  let Op := plasma_op p (flux_of (euler_flux (pl_gamma p))) (flux_of (maxwell_flux (pl_c p))) M gem_kinds (spacing (mg_grid m)) [0; 1]%nat [0; 1]%nat in
  let P := [(0, bs_points (id_basis (f_0 f)))] in
  program_ready m M L [e; i; f] fuel -> List.length (id_comps (f_0 e)) = 5%nat -> List.length (id_comps (f_0 i)) = 5%nat -> List.length (id_comps (f_0 f)) = 6%nat ->
  bs_points (id_basis (f_0 e)) = bs_points (id_basis (f_0 f)) -> bs_points (id_basis (f_0 i)) = bs_points (id_basis (f_0 f)) -> List.length (pl_ms p) = 2%nat ->
  field_get L (f_0 e) = Some u -> field_get L (f_0 i) = Some v -> field_get L (f_0 f) = Some w ->
  (forall d, (d < 2)%nat -> 2 <= hi M d - lo M d) -> (1 < pl_gamma p)%R -> (0 < ee)%R -> (0 < ei)%R -> at_rest M P ee u -> at_rest M P ei v ->
  (forall x j, in_box (M ++ P) x -> 0 <= j < 6 -> w (x ++ [j]) = 0%R) ->
  (forall t a, (t < n)%nat -> (a < 2)%nat -> let V := Nat.iter t (rk3 Op dt) (three u v w) in
    filled M P (gem_kinds a) (V a) /\ filled M P (gem_kinds a) (second Op dt V a) /\ filled M P (gem_kinds a) (third Op dt V a)) ->
  let R := run (plasma_step true fuel p (gem_bcs e i f) e i f) dt n m in
  exists u' v' w', ends R M (f_0 e) u' /\ ends R M (f_0 i) v' /\ ends R M (f_0 f) w' /\
    at_rest M P ee u' /\ at_rest M P ei v' /\ forall x j, in_box (M ++ P) x -> 0 <= j < 6 -> w' (x ++ [j]) = 0%R.
Proof.
  intros p mx my e i f fuel dt n m L u v w ee ei M Op P HR Ne Ni Nf Pe Pi Hms Hu Hv Hw Hd Hg Hee Hei Ru Rv Rw HF.
  destruct (C57_gem R RArith p mx my e i f fuel dt n m L u v w HR Ne Ni Nf Pe Pi Hms Hu Hv Hw) as (m1 & L1 & E1 & (S1 & _) & _ & _ & _ & V1 & _).
  destruct (V1 0%nat (f_0 e) eq_refl) as (u' & Gu & Hu'). destruct (V1 1%nat (f_0 i) eq_refl) as (v' & Gv & Hv'). destruct (V1 2%nat (f_0 f) eq_refl) as (w' & Gw & Hw').
  intros RR. exists u', v', w'. do 3 (split; [exists m1, L1; auto|]).
  pose (B := fun (a : nat) (c : list Z) => match a with 2%nat => 0%R | 0%nat => if last c 0 =? 4 then ee else 0%R | _ => if last c 0 =? 4 then ei else 0%R end).
  pose (Q := fun (a : nat) (c : list Z) => exists y k, c = y ++ [k] /\ in_box (M ++ P) y /\ ((a = 2%nat /\ 0 <= k < 6) \/ ((a < 2)%nat /\ 1 <= k < 5))).
  assert (R2 : forall V : sys, (forall i c, Q i c -> V i c = B i c) -> at_rest M P ee (V 0%nat) /\ at_rest M P ei (V 1%nat) /\ forall x j, in_box (M ++ P) x -> 0 <= j < 6 -> V 2%nat (x ++ [j]) = 0%R).
  { intros V HV. split; [|split]; [apply at_rest_join| apply at_rest_join|]; intros y k Hy Hk; (rewrite HV by (exists y, k; split; [reflexivity|split; [exact Hy|lia]])); unfold B; now rewrite ?last_last. }
  assert (HH : forall a c, Q a c -> Nat.iter n (rk3 Op dt) (three u v w) a c = B a c).
  { apply (stay Q B (fun V => filled M P (gem_kinds 0) (V 0%nat) /\ filled M P (gem_kinds 1) (V 1%nat)) Op dt).
    - intros V HV [F0 F1] a c (y & k & -> & Hy & Hk). destruct (R2 V HV) as (Z0 & Z1 & Z2).
      destruct (plasma_rest p M P (spacing (mg_grid m)) V ee ei y eq_refl Hms Hd Hg Hee Hei Z0 Z1 Z2 F0 F1 Hy) as (X1 & X2 & _).
      destruct Hk as [[-> Hk] | [Ha Hk]]; [now apply X2|now apply X1].
    - intros a c (y & k & -> & Hy & Hk). unfold three, B. rewrite ?last_last. destruct Hk as [[-> Hk] | [Ha Hk]]; [now apply Rw|].
      destruct a as [|[|a]]; [| |lia]; [apply at_rest_join with (M := M) (P := P)|apply at_rest_join with (M := M) (P := P)]; auto.
    - intros t Ht. destruct (HF t 0%nat Ht ltac:(lia)) as (A1 & A2 & A3). destruct (HF t 1%nat Ht ltac:(lia)) as (B1 & B2 & B3). exact (conj (conj A1 B1) (conj (conj A2 B2) (conj A3 B3))). }
  split; [|split].
  - apply at_rest_join. intros x j Hx Hj. rewrite Hu' by (apply cell_join; [rewrite Pe; exact Hx|rewrite Ne; lia]).
    etransitivity; [apply HH; exists x, j; split; [reflexivity|split; [exact Hx|lia]]|]. unfold B. now rewrite last_last.
  - apply at_rest_join. intros x j Hx Hj. rewrite Hv' by (apply cell_join; [rewrite Pi; exact Hx|rewrite Ni; lia]).
    etransitivity; [apply HH; exists x, j; split; [reflexivity|split; [exact Hx|lia]]|]. unfold B. now rewrite last_last.
  - intros x j Hx Hj. rewrite Hw' by (apply cell_join; [exact Hx|rewrite Nf; lia]). apply HH. exists x, j. split; [reflexivity|split; [exact Hx|lia]].
Qed.
Print Assumptions C83_gem_partial.

Lemma gem_drift : forall p M P dx dt n u v w ee ei ae be ai bi,
  let rate (en b : R) := sum_over [0; 1]%nat (fun d => (2 * sqrt (2 * pl_gamma p * (pl_gamma p - 1) * en * b) / dx d)%R) in
  let Op := plasma_op p (flux_of (euler_flux (pl_gamma p))) (flux_of (maxwell_flux (pl_c p))) M gem_kinds dx [0; 1]%nat [0; 1]%nat in
  List.length M = 2%nat -> List.length (pl_ms p) = 2%nat ->
  (forall d, (d < 2)%nat -> 2 <= hi M d - lo M d) -> (forall d, (d < 2)%nat -> 0 < dx d)%R -> (0 <= dt)%R -> (1 < pl_gamma p)%R -> (0 < ee)%R -> (0 < ei)%R ->
  at_rest M P ee u -> at_rest M P ei v -> (forall x j, in_box (M ++ P) x -> 0 <= j < 6 -> w (x ++ [j]) = 0%R) ->
  (0 < ae)%R -> (be <= 5 / 2 * ae)%R -> (forall x, in_box (M ++ P) x -> ae + INR n * dt * rate ee be <= u (x ++ [0%Z]) <= be - INR n * dt * rate ee be)%R ->
  (0 < ai)%R -> (bi <= 5 / 2 * ai)%R -> (forall x, in_box (M ++ P) x -> ai + INR n * dt * rate ei bi <= v (x ++ [0%Z]) <= bi - INR n * dt * rate ei bi)%R ->
  (let V := Nat.iter n (rk3 Op dt) (three u v w) in at_rest M P ee (V 0%nat) /\ at_rest M P ei (V 1%nat) /\ (forall x j, in_box (M ++ P) x -> 0 <= j < 6 -> V 2%nat (x ++ [j]) = 0%R) /\
    forall x, in_box (M ++ P) x -> (ae <= V 0%nat (x ++ [0%Z]) <= be /\ ai <= V 1%nat (x ++ [0%Z]) <= bi)%R) /\
  forall t a, (t < n)%nat -> (a < 2)%nat -> let V := Nat.iter t (rk3 Op dt) (three u v w) in
    filled M P (gem_kinds a) (V a) /\ filled M P (gem_kinds a) (second Op dt V a) /\ filled M P (gem_kinds a) (third Op dt V a).
Proof.
  intros p M P dx dt n u v w ee ei ae be ai bi rate Op LM Hms Hd Hdx Hdt Hg Hee Hei Ru Rv Rw Hae Hbe He Hai Hbi Hi.
  pose (B := fun (a : nat) (c : list Z) => match a with 2%nat => 0%R | 0%nat => if last c 0 =? 4 then ee else 0%R | _ => if last c 0 =? 4 then ei else 0%R end).
  pose (Q := fun (a : nat) (c : list Z) => exists y k, c = y ++ [k] /\ in_box (M ++ P) y /\ ((a = 2%nat /\ 0 <= k < 6) \/ ((a < 2)%nat /\ 1 <= k < 5))).
  pose (D := fun (a : nat) (c : list Z) => (a < 2)%nat /\ exists y, c = y ++ [0] /\ in_box (M ++ P) y).
  pose (lw := fun a : nat => match a with 0%nat => ae | _ => ai end). pose (up := fun a : nat => match a with 0%nat => be | _ => bi end). pose (rt := fun a : nat => match a with 0%nat => rate ee be | _ => rate ei bi end).
  assert (RP : forall en b, (0 <= rate en b)%R) by (intros en b; apply sum_over_nonneg; intros d Hd'; apply Rmult_le_pos; [pose proof (sqrt_pos (2 * pl_gamma p * (pl_gamma p - 1) * en * b)); lra|apply Rlt_le, Rinv_0_lt_compat, Hdx; destruct Hd' as [<-|[<-|[]]]; lia]).
  assert (DD : forall b, (b < 2)%nat -> forall d, (d < List.length M)%nat -> 2 <= hi M d - lo M d /\ (gem_kinds b d = Periodic \/ gem_kinds b d = NoSlip)).
  { intros b Hb d Hd'. split; [apply Hd; lia|]. destruct d as [|d]; [right; destruct b as [|[|b]]; [reflexivity|reflexivity|lia]|now left]. }
  assert (QR : forall V : sys, (forall i c, Q i c -> V i c = B i c) -> at_rest M P ee (V 0%nat) /\ at_rest M P ei (V 1%nat) /\ forall x j, in_box (M ++ P) x -> 0 <= j < 6 -> V 2%nat (x ++ [j]) = 0%R).
  { intros V HV. split; [|split]; [apply at_rest_join| apply at_rest_join|]; intros y k Hy Hk; (rewrite HV by (exists y, k; split; [reflexivity|split; [exact Hy|lia]])); unfold B; now rewrite ?last_last. }
  assert (DR : forall V : sys, (forall i c, D i c -> (lw i <= V i c <= up i)%R) -> forall y, in_box (M ++ P) y -> (ae <= V 0%nat (y ++ [0%Z]) <= be /\ ai <= V 1%nat (y ++ [0%Z]) <= bi)%R).
  { intros V HDV y Hy. split; [apply (HDV 0%nat)|apply (HDV 1%nat)]; (split; [lia|now exists y]). }
  assert (FF : forall V : sys, (forall i c, D i c -> (lw i <= V i c <= up i)%R) -> forall a, (a < 2)%nat -> filled M P (gem_kinds a) (V a)).
  { intros V HDV [|[|a]] Ha; [| |lia].
    - exact (range_filled M P (V 0%nat) (gem_kinds 0) ae be Hae Hbe (fun y Hy => proj1 (DR V HDV y Hy)) (DD 0%nat ltac:(lia))).
    - exact (range_filled M P (V 1%nat) (gem_kinds 1) ai bi Hai Hbi (fun y Hy => proj2 (DR V HDV y Hy)) (DD 1%nat ltac:(lia))). }
  destruct (drift Q D B (fun i _ => lw i) (fun i _ => up i) (fun i _ => rt i) Op dt) with (n := n) (U := three u v w) as [[KQ KD] KS].
  - intros V HV HDV. destruct (QR V HV) as (Z0 & Z1 & Z2). assert (F0 := FF V HDV 0%nat ltac:(lia)). assert (F1 := FF V HDV 1%nat ltac:(lia)).
    split.
    + intros a c (y & k & -> & Hy & Hk). destruct (plasma_rest p M P dx V ee ei y LM Hms Hd Hg Hee Hei Z0 Z1 Z2 F0 F1 Hy) as (X1 & X2 & _).
      destruct Hk as [[-> Hk] | [Ha Hk]]; [now apply X2|now apply X1].
    + intros a c (Ha & y & -> & Hy). destruct (plasma_rest p M P dx V ee ei y LM Hms Hd Hg Hee Hei Z0 Z1 Z2 F0 F1 Hy) as (_ & _ & X3). unfold Op. rewrite X3 by exact Ha.
      assert (Hdx' : forall d, (d < List.length M)%nat -> (0 < dx d)%R) by (intros d Hd'; apply Hdx; lia).
      replace [0; 1]%nat with (seq 0 (List.length M)) by now rewrite LM. destruct a as [|[|a]]; [| |lia]; cbn [rt]; unfold rate; (replace [0; 1]%nat with (seq 0 (List.length M)) by now rewrite LM).
      * exact (range_rate M P (V 0%nat) (gem_kinds 0) ae be Hae Hbe (fun y Hy => proj1 (DR V HDV y Hy)) (DD 0%nat ltac:(lia)) (pl_gamma p) ee dx y Hg Hee Z0 ltac:(lia) Hdx' Hy).
      * exact (range_rate M P (V 1%nat) (gem_kinds 1) ai bi Hai Hbi (fun y Hy => proj2 (DR V HDV y Hy)) (DD 1%nat ltac:(lia)) (pl_gamma p) ei dx y Hg Hei Z1 ltac:(lia) Hdx' Hy).
  - exact Hdt.
  - intros [|a] c; apply RP.
  - intros a c (y & k & -> & Hy & Hk). unfold three, B. rewrite ?last_last. destruct Hk as [[-> Hk] | [Ha Hk]]; [now apply Rw|].
    destruct a as [|[|a]]; [| |lia]; [apply at_rest_join with (M := M) (P := P)|apply at_rest_join with (M := M) (P := P)]; auto.
  - intros a c (Ha & y & -> & Hy). destruct a as [|[|a]]; [apply He; exact Hy|apply Hi; exact Hy|lia].
  - split; [destruct (QR _ KQ) as (X & Y & Z); split; [exact X|split; [exact Y|split; [exact Z|exact (DR _ KD)]]]|].
    intros t a Ht Ha V. destruct (KS t Ht) as ((_ & S1) & (_ & S2) & (_ & S3)). fold V in S1, S2, S3. split; [exact (FF V S1 a Ha)|]. split; [exact (FF _ S2 a Ha)|exact (FF _ S3 a Ha)].
Qed.

(** Again without an assumption about the stages, for short times. *)
Theorem C83_gem : forall p mx my e i f fuel dt n (m : mgr R) L u v w ee ei ae be ai bi, let M := [mx; my] in let dx := spacing (mg_grid m) in let P := [(0, bs_points (id_basis (f_0 f)))] in
  let rate (en b : R) := sum_over [0; 1]%nat (fun d => (2 * sqrt (2 * pl_gamma p * (pl_gamma p - 1) * en * b) / dx d)%R) in
  program_ready m M L [e; i; f] fuel -> List.length (id_comps (f_0 e)) = 5%nat -> List.length (id_comps (f_0 i)) = 5%nat -> List.length (id_comps (f_0 f)) = 6%nat ->
  bs_points (id_basis (f_0 e)) = bs_points (id_basis (f_0 f)) -> bs_points (id_basis (f_0 i)) = bs_points (id_basis (f_0 f)) -> List.length (pl_ms p) = 2%nat ->
  field_get L (f_0 e) = Some u -> field_get L (f_0 i) = Some v -> field_get L (f_0 f) = Some w ->
  (forall d, (d < 2)%nat -> 2 <= hi M d - lo M d) -> (forall d, (d < 2)%nat -> 0 < dx d)%R -> (0 <= dt)%R -> (1 < pl_gamma p)%R -> (0 < ee)%R -> (0 < ei)%R ->
  at_rest M P ee u -> at_rest M P ei v -> (forall x j, in_box (M ++ P) x -> 0 <= j < 6 -> w (x ++ [j]) = 0%R) ->
  (0 < ae)%R -> (be <= 5 / 2 * ae)%R -> (forall x, in_box (M ++ P) x -> ae + INR n * dt * rate ee be <= u (x ++ [0%Z]) <= be - INR n * dt * rate ee be)%R ->
  (0 < ai)%R -> (bi <= 5 / 2 * ai)%R -> (forall x, in_box (M ++ P) x -> ai + INR n * dt * rate ei bi <= v (x ++ [0%Z]) <= bi - INR n * dt * rate ei bi)%R ->
  let R := run (plasma_step true fuel p (gem_bcs e i f) e i f) dt n m in
  exists u' v' w', ends R M (f_0 e) u' /\ ends R M (f_0 i) v' /\ ends R M (f_0 f) w' /\
    at_rest M P ee u' /\ at_rest M P ei v' /\ (forall x j, in_box (M ++ P) x -> 0 <= j < 6 -> w' (x ++ [j]) = 0%R) /\
    forall x, in_box (M ++ P) x -> (ae <= u' (x ++ [0%Z]) <= be /\ ai <= v' (x ++ [0%Z]) <= bi)%R.
Proof.
  intros p mx my e i f fuel dt n m L u v w ee ei ae be ai bi M dx P rate HR Ne Ni Nf Pe Pi Hms Hu Hv Hw Hd Hdx Hdt Hg Hee Hei Ru Rv Rw Hae Hbe He Hai Hbi Hi.
  destruct (gem_drift p M P dx dt n u v w ee ei ae be ai bi eq_refl Hms Hd Hdx Hdt Hg Hee Hei Ru Rv Rw Hae Hbe He Hai Hbi Hi) as ((K0 & K1 & K2 & K3) & _).
  destruct (C57_gem R RArith p mx my e i f fuel dt n m L u v w HR Ne Ni Nf Pe Pi Hms Hu Hv Hw) as (m1 & L1 & E1 & (S1 & _) & _ & _ & _ & V1 & _).
  destruct (V1 0%nat (f_0 e) eq_refl) as (u' & Gu & Hu'). destruct (V1 1%nat (f_0 i) eq_refl) as (v' & Gv & Hv'). destruct (V1 2%nat (f_0 f) eq_refl) as (w' & Gw & Hw').
  intros RR. exists u', v', w'. do 3 (split; [exists m1, L1; auto|]).
  set (V := Nat.iter n _ _) in *. pose (W := V).
  assert (EU : forall x j, in_box (M ++ P) x -> 0 <= j < 5 -> u' (x ++ [j]) = V 0%nat (x ++ [j])) by (intros x j Hx Hj; apply Hu'; apply cell_join; [rewrite Pe; exact Hx|rewrite Ne; lia]).
  assert (EV : forall x j, in_box (M ++ P) x -> 0 <= j < 5 -> v' (x ++ [j]) = V 1%nat (x ++ [j])) by (intros x j Hx Hj; apply Hv'; apply cell_join; [rewrite Pi; exact Hx|rewrite Ni; lia]).
  assert (EW : forall x j, in_box (M ++ P) x -> 0 <= j < 6 -> w' (x ++ [j]) = V 2%nat (x ++ [j])) by (intros x j Hx Hj; apply Hw'; apply cell_join; [exact Hx|rewrite Nf; lia]).
  split; [intros x Hx; rewrite !EU by (auto; lia); now apply K0|]. split; [intros x Hx; rewrite !EV by (auto; lia); now apply K1|]. split; [intros x j Hx Hj; rewrite EW by auto; now apply K2|].
  intros x Hx. rewrite EU, EV by (auto; lia). now apply K3.
Qed.
Print Assumptions C83_gem.

(** ** examples

    Four cells of energy 1 on a ring, with densities 4, 5, 6, 5 and gamma = 1.4, up to
    a hundred steps of 1/600. *)
Definition layers : field R := fun c => if last c 0 =? 0 then IZR (nth (Z.to_nat (nth 0 c 0)) [4; 5; 6; 5] 4) else if last c 0 =? 4 then 1%R else 0%R.
Lemma layers_range : forall x, in_box (ring4 ++ [(0, 1)]) x -> (4 <= layers (x ++ [0%Z]) <= 6)%R.
Proof.
  intros x Hx. inversion Hx as [|? i ? ? Hi H1]; subst. inversion H1 as [|? z ? ? Hz H2]; subst. inversion H2; subst. cbn [fst snd] in Hi.
  assert (D : i = 0 \/ i = 1 \/ i = 2 \/ i = 3) by lia. destruct D as [-> | [-> | [-> | ->]]]; match goal with |- context [layers ?q] => let v := eval cbv -[IZR] in (layers q) in change (layers q) with v end; lra.
Qed.
Lemma layers_rest : at_rest ring4 [(0, 1)] 1 layers.
Proof. intros x Hx. unfold layers. rewrite !last_last. repeat split; reflexivity. Qed.
Lemma layers_rate : forall dx, dx = 1%R -> sum_over [0%nat] (fun _ => (2 * sqrt (2 * (14 / 10) * (14 / 10 - 1) * 1 * 7) / dx)%R) = (56 / 10)%R.
Proof. intros dx ->. unfold sum_over. cbn [map fold_right]. replace (2 * (14 / 10) * (14 / 10 - 1) * 1 * 7)%R with (28 / 10 * (28 / 10))%R by field. rewrite sqrt_square by lra. field. Qed.
Lemma layers_time : forall n, (n <= 100)%nat -> (0 <= INR n * / 600 * (56 / 10) <= 1)%R.
Proof. intros n Hn. apply le_INR in Hn. pose proof (pos_INR n). replace (INR 100) with 100%R in Hn by (rewrite INR_IZR_INZ; reflexivity). lra. Qed.
Example C83_sod_ex : forall n, (n <= 100)%nat -> exists u, ends (run (sod_step true 999 (14 / 10)%R [] [0] electrons) (/ 600)%R n (tube_start 4 layers)) ring4 (f_0 electrons) u /\
  at_rest ring4 [(0, 1)] 1 u /\ forall x, in_box (ring4 ++ [(0, 1)]) x -> (3 <= u (x ++ [0%Z]) <= 7)%R.
Proof.
  intros n Hn. destruct (C83_sod (14 / 10)%R ring4 electrons 999 (/ 600)%R n [] [0%nat] (tube_start 4 layers) [(f_0 electrons, layers)] layers 1%R 3%R 7%R) as (u & E & A1 & A2); auto.
  - is_ready.
  - intros d Hd. destruct d as [|d]; [cbn; lia|cbn in Hd; lia].
  - intros d. cbn. lia.
  - intros d Hd. destruct d as [|d]; [cbn; lra|cbn in Hd; lia].
  - lra.
  - lra.
  - lra.
  - exact layers_rest.
  - lra.
  - lra.
  - intros x Hx. pose proof (layers_range x Hx). pose proof (layers_time n Hn). change (seq 0 (List.length ring4)) with [0%nat].
    match goal with |- context [sum_over ?l ?f] => replace (sum_over l f) with (56 / 10)%R by (symmetry; apply (layers_rate 1); reflexivity) end. lra.
  - exists u. auto.
Qed.
Example C83_sod_partial_ex : forall n, (n <= 100)%nat -> exists u, ends (run (sod_step true 999 (14 / 10)%R [] [0] electrons) (/ 600)%R n (tube_start 4 layers)) ring4 (f_0 electrons) u /\ at_rest ring4 [(0, 1)] 1 u.
Proof.
  intros n Hn. apply (C83_sod_partial (14 / 10)%R ring4 electrons 999 (/ 600)%R n [] [0%nat] (tube_start 4 layers) [(f_0 electrons, layers)] layers 1%R); auto.
  - is_ready.
  - intros d Hd. destruct d as [|d]; [cbn; lia|cbn in Hd; lia].
  - intros d. cbn. lia.
  - lra.
  - lra.
  - exact layers_rest.
  - intros t Ht. apply (sod_drift (14 / 10)%R ring4 [(0, 1)] (fun d => if in_dec Nat.eq_dec d [0%nat] then Periodic else NoSlip) (spacing (mg_grid (tube_start 4 layers))) (/ 600)%R n layers 1%R 3%R 7%R); auto.
    + intros [|d] Hd; [split; [cbn; lia|left; reflexivity]|cbn in Hd; lia].
    + intros [|d] Hd; [cbn; lra|cbn in Hd; lia].
    + lra.
    + lra.
    + lra.
    + exact layers_rest.
    + lra.
    + lra.
    + intros x Hx. pose proof (layers_range x Hx). pose proof (layers_time n Hn). change (seq 0 (List.length ring4)) with [0%nat].
      match goal with |- context [sum_over ?l ?f] => replace (sum_over l f) with (56 / 10)%R by (symmetry; apply (layers_rate 1); reflexivity) end. lra.
Qed.

(** A plasma on two times three cells, for any charges, masses and speed of light: the
    electrons have densities 4, 5, 6, the ions 4, 6. *)
Definition sheet : field R := fun c => if last c 0 =? 0 then IZR (4 + nth 1 c 0) else if last c 0 =? 4 then 1%R else 0%R.
Definition slab : field R := fun c => if last c 0 =? 0 then IZR (4 + 2 * nth 0 c 0) else if last c 0 =? 4 then 1%R else 0%R.
Definition calm_fields : list (vid * field R) := [(f_0 electrons, sheet); (f_0 ions, slab); (f_0 em, nothing)].
Definition calm_start : mgr R := mgr_of plane_grid plane calm_fields None None.
Lemma calm_range : forall x, in_box (plane ++ [(0, 1)]) x -> (4 <= sheet (x ++ [0%Z]) <= 6 /\ 4 <= slab (x ++ [0%Z]) <= 6)%R.
Proof.
  intros x Hx. inversion Hx as [|? i ? ? Hi H1]; subst. inversion H1 as [|? z ? ? Hz H2]; subst. inversion H2 as [|? q ? ? Hq H3]; subst. inversion H3; subst. cbn [fst snd] in *.
  unfold sheet, slab. rewrite last_last. cbn [Z.eqb app nth]. repeat split; apply IZR_le; lia.
Qed.
Lemma calm_rest : at_rest plane [(0, 1)] 1 sheet /\ at_rest plane [(0, 1)] 1 slab.
Proof. split; intros x Hx; unfold sheet, slab; rewrite !last_last; repeat split; reflexivity. Qed.
Lemma calm_rate : forall dx : nat -> R, dx 0%nat = 1%R -> dx 1%nat = 1%R -> sum_over [0; 1]%nat (fun d => (2 * sqrt (2 * (14 / 10) * (14 / 10 - 1) * 1 * 7) / dx d)%R) = (112 / 10)%R.
Proof. intros dx H0 H1. unfold sum_over. cbn [map fold_right]. rewrite H0, H1. replace (2 * (14 / 10) * (14 / 10 - 1) * 1 * 7)%R with (28 / 10 * (28 / 10))%R by field. rewrite sqrt_square by lra. field. Qed.
Lemma calm_time : forall n, (n <= 100)%nat -> (0 <= INR n * / 1200 * (112 / 10) <= 1)%R.
Proof. intros n Hn. apply le_INR in Hn. pose proof (pos_INR n). replace (INR 100) with 100%R in Hn by (rewrite INR_IZR_INZ; reflexivity). lra. Qed.
Lemma calm_wide : forall d, (d < 2)%nat -> 2 <= hi plane d - lo plane d.
Proof. intros [|[|d]] Hd; cbn; lia. Qed.
Lemma calm_spacing : forall d, (d < 2)%nat -> (0 < spacing (mg_grid calm_start) d)%R.
Proof. intros [|[|d]] Hd; [cbn; lra|cbn; lra|lia]. Qed.
Lemma calm_room : forall c ee ei ms n, (n <= 100)%nat -> let p := mkPlasma (14 / 10)%R c ee ei ms in
  let s := (INR n * / 1200 * sum_over [0; 1]%nat (fun d => 2 * sqrt (2 * pl_gamma p * (pl_gamma p - 1) * 1 * 7) / spacing (mg_grid calm_start) d))%R in
  forall x, in_box (plane ++ [(0, 1)]) x -> (3 + s <= sheet (x ++ [0%Z]) <= 7 - s /\ 3 + s <= slab (x ++ [0%Z]) <= 7 - s)%R.
Proof.
  intros c ee ei ms n Hn p s x Hx. assert (E : s = (INR n * / 1200 * (112 / 10))%R) by (unfold s; f_equal; apply calm_rate; reflexivity).
  pose proof (calm_time n Hn). pose proof (calm_range x Hx). rewrite E. lra.
Qed.
Example C83_gem_ex : forall c ee ei me mi n, (n <= 100)%nat -> let p := mkPlasma (14 / 10)%R c ee ei [me; mi] in
  let R := run (plasma_step true 999 p (gem_bcs electrons ions em) electrons ions em) (/ 1200)%R n calm_start in
  exists u v w, ends R plane (f_0 electrons) u /\ ends R plane (f_0 ions) v /\ ends R plane (f_0 em) w /\ at_rest plane [(0, 1)] 1 u /\ at_rest plane [(0, 1)] 1 v /\
    (forall x j, in_box (plane ++ [(0, 1)]) x -> 0 <= j < 6 -> w (x ++ [j]) = 0%R) /\ forall x, in_box (plane ++ [(0, 1)]) x -> (3 <= u (x ++ [0%Z]) <= 7 /\ 3 <= v (x ++ [0%Z]) <= 7)%R.
Proof.
  intros c ee ei me mi n Hn p. pose proof (calm_room c ee ei [me; mi] n Hn) as RM.
  apply (C83_gem p (0, 2) (0, 3) electrons ions em 999 (/ 1200)%R n calm_start calm_fields sheet slab nothing 1%R 1%R 3%R 7%R 3%R 7%R); try reflexivity; try exact calm_wide; try exact calm_spacing; try apply calm_rest; try (cbn; lra).
  - is_ready.
  - intros x Hx. exact (proj1 (RM x Hx)).
  - intros x Hx. exact (proj2 (RM x Hx)).
Qed.
Example C83_gem_partial_ex : forall c ee ei me mi n, (n <= 100)%nat -> let p := mkPlasma (14 / 10)%R c ee ei [me; mi] in
  let R := run (plasma_step true 999 p (gem_bcs electrons ions em) electrons ions em) (/ 1200)%R n calm_start in
  exists u v w, ends R plane (f_0 electrons) u /\ ends R plane (f_0 ions) v /\ ends R plane (f_0 em) w /\ at_rest plane [(0, 1)] 1 u /\ at_rest plane [(0, 1)] 1 v /\
    forall x j, in_box (plane ++ [(0, 1)]) x -> 0 <= j < 6 -> w (x ++ [j]) = 0%R.
Proof.
  intros c ee ei me mi n Hn p. pose proof (calm_room c ee ei [me; mi] n Hn) as RM.
  apply (C83_gem_partial p (0, 2) (0, 3) electrons ions em 999 (/ 1200)%R n calm_start calm_fields sheet slab nothing 1%R 1%R); try reflexivity; try exact calm_wide; try apply calm_rest; try (cbn; lra).
  - is_ready.
  - apply (gem_drift p plane [(0, 1)] (spacing (mg_grid calm_start)) (/ 1200)%R n sheet slab nothing 1%R 1%R 3%R 7%R 3%R 7%R); try reflexivity; try exact calm_wide; try exact calm_spacing; try apply calm_rest; try (cbn; lra).
    + intros x Hx. exact (proj1 (RM x Hx)).
    + intros x Hx. exact (proj2 (RM x Hx)).
Qed.

(** ** a gas that moves

    With the same pressure and the same velocity everywhere, a gas should only be
    carried along. The limiter acts on density, momentum and energy each for itself, and
    its constant 10^-12 treats them differently when they are small. Six cells on a
    ring, with densities 2, 4, 6, 8, 6, 4 times [t], velocity 4 and pressure 2 times
    [t], so that energy is 5 t + 8 density; time step 1/80. *)
Definition carried (t : spec_float) : field spec_float := fun c => let r := nth (Z.to_nat (nth 0 c 0)) [2; 4; 6; 8; 6; 4] 0 in
  match last c 0 with 0 => fmul t (fofz r) | 1 => fmul t (fofz (4 * r)) | 4 => fmul t (fofz (5 + 8 * r)) | _ => f0 end.
Definition carried_after (t : spec_float) (n : nat) : list (list (option spec_float)) :=
  match run (sod_step true 999 (fdec 14 (-1)) [] [0] electrons) (fdec 125 (-4)) n (tube_start 6 (carried t)) with
  | Done m => map (fun x => map (fun j => cell_value m (f_0 electrons) [x; 0; j]) [0; 1; 4]) (zrange 0 6)
  | _ => []
  end.

(** With [t] = 1, after four steps momentum is four times density and energy is eight
    times density plus 5, up to 10^-12. With [t] = 2^-41, after two steps density,
    momentum and energy of every cell are NaN. *)
Definition carried_along (l : list (option spec_float)) : bool :=
  match l with
  | [Some r; Some p; Some e] => flt (fabs (fsub p (fmul (fofz 4) r))) (fdec 1 (-12)) && flt (fabs (fsub (fsub e (fmul (fofz 8) r)) (fofz 5))) (fdec 1 (-12)) && flt f1 r
  | _ => false
  end.
Theorem C83_refuted : (forall t, program_ready (tube_start 6 (carried t)) [(0, 6)] [(f_0 electrons, carried t)] [electrons] 999) /\
  map carried_along (carried_after (fofz 1) 4) = repeat true 6 /\ carried_after (S754_finite false 1 (-41)) 2 = repeat (repeat (Some S754_nan) 3) 6.
Proof. split; [intros t; is_ready|]. split; vm_compute; reflexivity. Qed.
Print Assumptions C83_refuted.
