(** * The two fluids of a plasma on a line (C80, C83). *)
From Coq Require Import ZArith List String Lia Bool Reals Lra Psatz.
From Verif Require Import Base BaseFacts BoxSpec BoxFacts Interface EulerSpec PhysicsSpec PhysicsFacts Properties_Physics NumFacts Range RangeSpec RangeFacts ApiSpec Arith ArithFloat ArithR Chunk FieldSpec VarId Manager MgrSpec MgrFacts
  BC BCSpec BCFacts Sweep SweepSpec Euler Maxwell Sources SourceSpec ParFacts SweepFacts FluxFacts Programs ProgramsSpec ConserveFacts RhsFacts Properties_Programs
  SymmetrySpec SymmetryFacts Properties_Symmetry Properties_Chunk Properties_Monopole AxesFacts PositiveSpec PositiveFacts Properties_Positive AccuracyGas EquilibriumSpec EquilibriumFacts Properties_Equilibrium.
Import ListNotations.
Open Scope Z_scope.

(** ** C80

    Both fluids between the walls of two_fluid_brio_wu and harris_current_sheet. *)
Theorem C80_brio_wu_partial : forall p mx e i f fuel dt n (m : mgr R) L u v w s, let M := [mx] in let dx := spacing (mg_grid m) in
  let Op := plasma_op p (flux_of (euler_flux (pl_gamma p))) (flux_of (maxwell_flux (pl_c p))) M wall_kinds dx [0%nat] [0%nat] in
  let P := [(0, bs_points (id_basis (f_0 f)))] in let c := courant 1 dt s dx in
  program_ready m M L [e; i; f] fuel -> List.length (id_comps (f_0 e)) = 5%nat -> List.length (id_comps (f_0 i)) = 5%nat -> List.length (id_comps (f_0 f)) = 6%nat ->
  bs_points (id_basis (f_0 e)) = bs_points (id_basis (f_0 f)) -> bs_points (id_basis (f_0 i)) = bs_points (id_basis (f_0 f)) -> List.length (pl_ms p) = 2%nat ->
  field_get L (f_0 e) = Some u -> field_get L (f_0 i) = Some v -> field_get L (f_0 f) = Some w ->
  (0 <= dt)%R -> (0 < dx 0%nat)%R -> (0 <= c <= 1)%R ->
  (forall x, in_box (M ++ P) x -> 0 <= u (x ++ [0%Z]) /\ 0 <= v (x ++ [0%Z]))%R ->
  (forall t a, (t < n)%nat -> (a < 2)%nat -> let V := Nat.iter t (rk3 Op dt) (three u v w) in
    calm (pl_gamma p) M P (wall_kinds a) s (V a) /\ calm (pl_gamma p) M P (wall_kinds a) s (second Op dt V a) /\ calm (pl_gamma p) M P (wall_kinds a) s (third Op dt V a)) ->
  exists u' v', ends (run (plasma_step true fuel p (brio_wu_bcs e i f) e i f) dt n m) M (f_0 e) u' /\
    ends (run (plasma_step true fuel p (brio_wu_bcs e i f) e i f) dt n m) M (f_0 i) v' /\
    forall x, in_box (M ++ P) x -> ((1 - c) ^ (3 * n) * u (x ++ [0%Z]) <= u' (x ++ [0%Z]) /\ (1 - c) ^ (3 * n) * v (x ++ [0%Z]) <= v' (x ++ [0%Z]))%R.
Proof.
  intros p mx e i f fuel dt n m L u v w s M dx Op P c HR Ne Ni Nf Pe Pi Hms Hu Hv Hw Hdt H0 Hc HP HC.
  destruct (C57_brio_wu R RArith p mx e i f fuel dt n m L u v w HR Ne Ni Nf Pe Pi Hms Hu Hv Hw) as (m1 & L1 & E1 & (S1 & _) & _ & _ & _ & V1 & _).
  destruct (V1 0%nat (f_0 e) eq_refl) as (u' & Gu & Hu'). destruct (V1 1%nat (f_0 i) eq_refl) as (v' & Gv & Hv'). exists u', v'.
  split; [exists m1, L1; auto|]. split; [exists m1, L1; auto|]. intros x Hx'.
  rewrite Hu' by (apply cell_join; [rewrite Pe; exact Hx'|rewrite Ne; lia]). rewrite Hv' by (apply cell_join; [rewrite Pi; exact Hx'|rewrite Ni; lia]).
  assert (HD : forall d, (d < List.length M)%nat -> (0 < dx d)%R) by (intros [|d] Hd; auto; cbn in Hd; lia).
  assert (K : forall a (V : sys), (a < 2)%nat -> calm (pl_gamma p) M P (wall_kinds a) s (V a) -> ((1 - c) * V a (x ++ [0%Z]) <= V a (x ++ [0%Z]) + dt * Op V a (x ++ [0%Z]))%R).
  { intros a V Ha C. pose proof (stage_density (pl_gamma p) M P (wall_kinds a) s dx dt (V a) x C ltac:(cbn; lia) Hdt HD Hx') as B.
    assert (E : Op V a (x ++ [0]) = fv_rhs 5 (flux_of (euler_flux (pl_gamma p))) M (wall_kinds a) dx (seq 0 (List.length M)) (V a) (x ++ [0])).
    { destruct a as [|[|a]]; [| |lia]; unfold Op, plasma_op, with_lorentz; rewrite removelast_last, last_last; reflexivity. }
    rewrite E. exact B. }
  destruct (HP x Hx') as [Pu Pv].
  split.
  - apply (run_bound Op dt 0%nat (x ++ [0]) c n (three u v w) Hc Pu). intros t Ht V. destruct (HC t 0%nat Ht ltac:(lia)) as (C1 & C2 & C3). split; [exact (K 0%nat V ltac:(lia) C1)|]. split; [exact (K 0%nat (second Op dt V) ltac:(lia) C2)|exact (K 0%nat (third Op dt V) ltac:(lia) C3)].
  - apply (run_bound Op dt 1%nat (x ++ [0]) c n (three u v w) Hc Pv). intros t Ht V. destruct (HC t 1%nat Ht ltac:(lia)) as (C1 & C2 & C3). split; [exact (K 1%nat V ltac:(lia) C1)|]. split; [exact (K 1%nat (second Op dt V) ltac:(lia) C2)|exact (K 1%nat (third Op dt V) ltac:(lia) C3)].
Qed.
Print Assumptions C80_brio_wu_partial.

(** ** C83

    Both fluids at rest and no field: momenta, energies and fields do not change. *)
Lemma tube_rest : forall p M P dx (V : sys) ee ei y, List.length M = 1%nat -> List.length (pl_ms p) = 2%nat -> (forall d, (d < 1)%nat -> 2 <= hi M d - lo M d) -> (1 < pl_gamma p)%R -> (0 < ee)%R -> (0 < ei)%R ->
  at_rest M P ee (V 0%nat) -> at_rest M P ei (V 1%nat) -> (forall x j, in_box (M ++ P) x -> 0 <= j < 6 -> V 2%nat (x ++ [j]) = 0%R) ->
  filled M P (wall_kinds 0) (V 0%nat) -> filled M P (wall_kinds 1) (V 1%nat) -> in_box (M ++ P) y ->
  let r := plasma_op p (flux_of (euler_flux (pl_gamma p))) (flux_of (maxwell_flux (pl_c p))) M wall_kinds dx [0%nat] [0%nat] V in
  (forall a k, (a < 2)%nat -> 1 <= k < 5 -> r a (y ++ [k]) = 0%R) /\ (forall k, 0 <= k < 6 -> r 2%nat (y ++ [k]) = 0%R) /\
  forall a, (a < 2)%nat -> r a (y ++ [0]) = fv_rhs 5 (flux_of (euler_flux (pl_gamma p))) M (wall_kinds a) dx [0%nat] (V a) (y ++ [0]).
Proof.
  intros p M P dx V ee ei y LM Hms Hd Hg Hee Hei Z0 Z1 Z2 F0 F1 Hy r.
  assert (DD : forall b, (b < 2)%nat -> forall d, In d [0%nat] -> (d < List.length M)%nat /\ 2 <= hi M d - lo M d /\ (wall_kinds b d = Periodic \/ wall_kinds b d = NoSlip)).
  { intros b Hb d [<-|[]]. split; [lia|]. split; [apply Hd; lia|]. right. destruct b as [|[|b]]; [reflexivity|reflexivity|lia]. }
  destruct (Z0 y Hy) as (A1 & A2 & A3 & A4). destruct (Z1 y Hy) as (B1 & B2 & B3 & B4).
  split; [|split].
  - intros a k Ha Hk. assert (D : k = 1 \/ k = 2 \/ k = 3 \/ k = 4) by lia. destruct a as [|[|a]]; [| |lia]; unfold r, plasma_op, with_lorentz; rewrite removelast_last, last_last.
    + rewrite (rest_rate (pl_gamma p) M P ee (V 0%nat)) by (auto; lia).
      destruct D as [-> | [-> | [-> | ->]]]; cbn [lorentz_rate]; rewrite ?A1, ?A2, ?A3, ?Z2 by (auto; lia); cbn; ring.
    + rewrite (rest_rate (pl_gamma p) M P ei (V 1%nat)) by (auto; lia).
      destruct D as [-> | [-> | [-> | ->]]]; cbn [lorentz_rate]; rewrite ?B1, ?B2, ?B3, ?Z2 by (auto; lia); cbn; ring.
  - intros k Hk. unfold r, plasma_op, with_current. rewrite removelast_last, last_last. rewrite (level_rate M P 6 (fun _ => 0%R) (V 2%nat)).
    + destruct (Z.ltb_spec k 3); [|reflexivity]. unfold current. destruct (pl_ms p) as [|m0 [|m1' [|? ?]]]; try discriminate Hms.
      assert (D : k = 0 \/ k = 1 \/ k = 2) by lia. destruct D as [-> | [-> | ->]]; cbn -[removelast app]; rewrite ?A1, ?A2, ?A3, ?B1, ?B2, ?B3; ring.
    + exact Z2.
    + intros d Hd'. destruct (DD 0%nat ltac:(lia) d Hd') as (X & Y & _). auto.
    + exact Hy.
    + intros d j [<-|[]] Hj; cbn; auto.
  - intros a Ha. destruct a as [|[|a]]; [| |lia]; unfold r, plasma_op, with_lorentz; rewrite removelast_last, last_last; reflexivity.
Qed.

Theorem C83_brio_wu_partial : forall p mx e i f fuel dt n (m : mgr R) L u v w ee ei, let M := [mx] in
  let Op := plasma_op p (flux_of (euler_flux (pl_gamma p))) (flux_of (maxwell_flux (pl_c p))) M wall_kinds (spacing (mg_grid m)) [0%nat] [0%nat] in
  let P := [(0, bs_points (id_basis (f_0 f)))] in
  program_ready m M L [e; i; f] fuel -> List.length (id_comps (f_0 e)) = 5%nat -> List.length (id_comps (f_0 i)) = 5%nat -> List.length (id_comps (f_0 f)) = 6%nat ->
  bs_points (id_basis (f_0 e)) = bs_points (id_basis (f_0 f)) -> bs_points (id_basis (f_0 i)) = bs_points (id_basis (f_0 f)) -> List.length (pl_ms p) = 2%nat ->
  field_get L (f_0 e) = Some u -> field_get L (f_0 i) = Some v -> field_get L (f_0 f) = Some w ->
  (forall d, (d < 1)%nat -> 2 <= hi M d - lo M d) -> (1 < pl_gamma p)%R -> (0 < ee)%R -> (0 < ei)%R -> at_rest M P ee u -> at_rest M P ei v ->
  (forall x j, in_box (M ++ P) x -> 0 <= j < 6 -> w (x ++ [j]) = 0%R) ->
  (forall t a, (t < n)%nat -> (a < 2)%nat -> let V := Nat.iter t (rk3 Op dt) (three u v w) in
    filled M P (wall_kinds a) (V a) /\ filled M P (wall_kinds a) (second Op dt V a) /\ filled M P (wall_kinds a) (third Op dt V a)) ->
  let R := run (plasma_step true fuel p (brio_wu_bcs e i f) e i f) dt n m in
  exists u' v' w', ends R M (f_0 e) u' /\ ends R M (f_0 i) v' /\ ends R M (f_0 f) w' /\
    at_rest M P ee u' /\ at_rest M P ei v' /\ forall x j, in_box (M ++ P) x -> 0 <= j < 6 -> w' (x ++ [j]) = 0%R.
Proof.
  intros p mx e i f fuel dt n m L u v w ee ei M Op P HR Ne Ni Nf Pe Pi Hms Hu Hv Hw Hd Hg Hee Hei Ru Rv Rw HF.
  destruct (C57_brio_wu R RArith p mx e i f fuel dt n m L u v w HR Ne Ni Nf Pe Pi Hms Hu Hv Hw) as (m1 & L1 & E1 & (S1 & _) & _ & _ & _ & V1 & _).
  destruct (V1 0%nat (f_0 e) eq_refl) as (u' & Gu & Hu'). destruct (V1 1%nat (f_0 i) eq_refl) as (v' & Gv & Hv'). destruct (V1 2%nat (f_0 f) eq_refl) as (w' & Gw & Hw').
  intros RR. exists u', v', w'. do 3 (split; [exists m1, L1; auto|]).
  pose (B := fun (a : nat) (c : list Z) => match a with 2%nat => 0%R | 0%nat => if last c 0 =? 4 then ee else 0%R | _ => if last c 0 =? 4 then ei else 0%R end).
  pose (Q := fun (a : nat) (c : list Z) => exists y k, c = y ++ [k] /\ in_box (M ++ P) y /\ ((a = 2%nat /\ 0 <= k < 6) \/ ((a < 2)%nat /\ 1 <= k < 5))).
  assert (R2 : forall V : sys, (forall i c, Q i c -> V i c = B i c) -> at_rest M P ee (V 0%nat) /\ at_rest M P ei (V 1%nat) /\ forall x j, in_box (M ++ P) x -> 0 <= j < 6 -> V 2%nat (x ++ [j]) = 0%R).
  { intros V HV. split; [|split]; [apply at_rest_join| apply at_rest_join|]; intros y k Hy Hk; (rewrite HV by (exists y, k; split; [reflexivity|split; [exact Hy|lia]])); unfold B; now rewrite ?last_last. }
  assert (HH : forall a c, Q a c -> Nat.iter n (rk3 Op dt) (three u v w) a c = B a c).
  { apply (stay Q B (fun V => filled M P (wall_kinds 0) (V 0%nat) /\ filled M P (wall_kinds 1) (V 1%nat)) Op dt).
    - intros V HV [F0 F1] a c (y & k & -> & Hy & Hk). destruct (R2 V HV) as (Z0 & Z1 & Z2).
      destruct (tube_rest p M P (spacing (mg_grid m)) V ee ei y eq_refl Hms Hd Hg Hee Hei Z0 Z1 Z2 F0 F1 Hy) as (X1 & X2 & _).
      destruct Hk as [[-> Hk] | [Ha Hk]]; [now apply X2|now apply X1].
    - intros a c (y & k & -> & Hy & Hk). unfold three, B. rewrite ?last_last. destruct Hk as [[-> Hk] | [Ha Hk]]; [now apply Rw|].
      destruct a as [|[|a]]; [| |lia]; [apply at_rest_join with (M := M) (P := P)|apply at_rest_join with (M := M) (P := P)]; auto.
    - intros t Ht. destruct (HF t 0%nat Ht ltac:(lia)) as (A1 & A2 & A3). destruct (HF t 1%nat Ht ltac:(lia)) as (B1 & B2 & B3). exact (conj (conj A1 B1) (conj (conj A2 B2) (conj A3 B3))). }
  split; [|split].
  - apply at_rest_join. intros x j Hx Hj. rewrite Hu' by (apply cell_join; [rewrite Pe; exact Hx|rewrite Ne; lia]).
    etransitivity; [apply HH; exists x, j; split; [reflexivity|split; [exact Hx|lia]]|]. unfold B. now rewrite last_last.
  - apply at_rest_join. intros x j Hx Hj. rewrite Hv' by (apply cell_join; [rewrite Pi; exact Hx|rewrite Ni; lia]).
    etransitivity; [apply HH; exists x, j; split; [reflexivity|split; [exact Hx|lia]]|]. unfold B. now rewrite last_last.
  - intros x j Hx Hj. rewrite Hw' by (apply cell_join; [exact Hx|rewrite Nf; lia]). apply HH. exists x, j. split; [reflexivity|split; [exact Hx|lia]].
Qed.
Print Assumptions C83_brio_wu_partial.

Lemma tube_drift : forall p M P dx dt n u v w ee ei ae be ai bi,
  let rate (en b : R) := sum_over [0%nat] (fun d => (2 * sqrt (2 * pl_gamma p * (pl_gamma p - 1) * en * b) / dx d)%R) in
  let Op := plasma_op p (flux_of (euler_flux (pl_gamma p))) (flux_of (maxwell_flux (pl_c p))) M wall_kinds dx [0%nat] [0%nat] in
  List.length M = 1%nat -> List.length (pl_ms p) = 2%nat ->
  (forall d, (d < 1)%nat -> 2 <= hi M d - lo M d) -> (forall d, (d < 1)%nat -> 0 < dx d)%R -> (0 <= dt)%R -> (1 < pl_gamma p)%R -> (0 < ee)%R -> (0 < ei)%R ->
  at_rest M P ee u -> at_rest M P ei v -> (forall x j, in_box (M ++ P) x -> 0 <= j < 6 -> w (x ++ [j]) = 0%R) ->
  (0 < ae)%R -> (be <= 5 / 2 * ae)%R -> (forall x, in_box (M ++ P) x -> ae + INR n * dt * rate ee be <= u (x ++ [0%Z]) <= be - INR n * dt * rate ee be)%R ->
  (0 < ai)%R -> (bi <= 5 / 2 * ai)%R -> (forall x, in_box (M ++ P) x -> ai + INR n * dt * rate ei bi <= v (x ++ [0%Z]) <= bi - INR n * dt * rate ei bi)%R ->
  (let V := Nat.iter n (rk3 Op dt) (three u v w) in at_rest M P ee (V 0%nat) /\ at_rest M P ei (V 1%nat) /\ (forall x j, in_box (M ++ P) x -> 0 <= j < 6 -> V 2%nat (x ++ [j]) = 0%R) /\
    forall x, in_box (M ++ P) x -> (ae <= V 0%nat (x ++ [0%Z]) <= be /\ ai <= V 1%nat (x ++ [0%Z]) <= bi)%R) /\
  forall t a, (t < n)%nat -> (a < 2)%nat -> let V := Nat.iter t (rk3 Op dt) (three u v w) in
    filled M P (wall_kinds a) (V a) /\ filled M P (wall_kinds a) (second Op dt V a) /\ filled M P (wall_kinds a) (third Op dt V a).
Proof.
  intros p M P dx dt n u v w ee ei ae be ai bi rate Op LM Hms Hd Hdx Hdt Hg Hee Hei Ru Rv Rw Hae Hbe He Hai Hbi Hi.
  pose (B := fun (a : nat) (c : list Z) => match a with 2%nat => 0%R | 0%nat => if last c 0 =? 4 then ee else 0%R | _ => if last c 0 =? 4 then ei else 0%R end).
  pose (Q := fun (a : nat) (c : list Z) => exists y k, c = y ++ [k] /\ in_box (M ++ P) y /\ ((a = 2%nat /\ 0 <= k < 6) \/ ((a < 2)%nat /\ 1 <= k < 5))).
  pose (D := fun (a : nat) (c : list Z) => (a < 2)%nat /\ exists y, c = y ++ [0] /\ in_box (M ++ P) y).
  pose (lw := fun a : nat => match a with 0%nat => ae | _ => ai end). pose (up := fun a : nat => match a with 0%nat => be | _ => bi end). pose (rt := fun a : nat => match a with 0%nat => rate ee be | _ => rate ei bi end).
  assert (RP : forall en b, (0 <= rate en b)%R) by (intros en b; apply sum_over_nonneg; intros d Hd'; apply Rmult_le_pos; [pose proof (sqrt_pos (2 * pl_gamma p * (pl_gamma p - 1) * en * b)); lra|apply Rlt_le, Rinv_0_lt_compat, Hdx; destruct Hd' as [<-|[]]; lia]).
  assert (DD : forall b, (b < 2)%nat -> forall d, (d < List.length M)%nat -> 2 <= hi M d - lo M d /\ (wall_kinds b d = Periodic \/ wall_kinds b d = NoSlip)).
  { intros b Hb d Hd'. split; [apply Hd; lia|]. right. destruct b as [|[|b]]; [reflexivity|reflexivity|lia]. }
  assert (QR : forall V : sys, (forall i c, Q i c -> V i c = B i c) -> at_rest M P ee (V 0%nat) /\ at_rest M P ei (V 1%nat) /\ forall x j, in_box (M ++ P) x -> 0 <= j < 6 -> V 2%nat (x ++ [j]) = 0%R).
  { intros V HV. split; [|split]; [apply at_rest_join| apply at_rest_join|]; intros y k Hy Hk; (rewrite HV by (exists y, k; split; [reflexivity|split; [exact Hy|lia]])); unfold B; now rewrite ?last_last. }
  assert (DR : forall V : sys, (forall i c, D i c -> (lw i <= V i c <= up i)%R) -> forall y, in_box (M ++ P) y -> (ae <= V 0%nat (y ++ [0%Z]) <= be /\ ai <= V 1%nat (y ++ [0%Z]) <= bi)%R).
  { intros V HDV y Hy. split; [apply (HDV 0%nat)|apply (HDV 1%nat)]; (split; [lia|now exists y]). }
  assert (FF : forall V : sys, (forall i c, D i c -> (lw i <= V i c <= up i)%R) -> forall a, (a < 2)%nat -> filled M P (wall_kinds a) (V a)).
  { intros V HDV [|[|a]] Ha; [| |lia].
    - exact (range_filled M P (V 0%nat) (wall_kinds 0) ae be Hae Hbe (fun y Hy => proj1 (DR V HDV y Hy)) (DD 0%nat ltac:(lia))).
    - exact (range_filled M P (V 1%nat) (wall_kinds 1) ai bi Hai Hbi (fun y Hy => proj2 (DR V HDV y Hy)) (DD 1%nat ltac:(lia))). }
  destruct (drift Q D B (fun i _ => lw i) (fun i _ => up i) (fun i _ => rt i) Op dt) with (n := n) (U := three u v w) as [[KQ KD] KS].
  - intros V HV HDV. destruct (QR V HV) as (Z0 & Z1 & Z2). assert (F0 := FF V HDV 0%nat ltac:(lia)). assert (F1 := FF V HDV 1%nat ltac:(lia)).
    split.
    + intros a c (y & k & -> & Hy & Hk). destruct (tube_rest p M P dx V ee ei y LM Hms Hd Hg Hee Hei Z0 Z1 Z2 F0 F1 Hy) as (X1 & X2 & _).
      destruct Hk as [[-> Hk] | [Ha Hk]]; [now apply X2|now apply X1].
    + intros a c (Ha & y & -> & Hy). destruct (tube_rest p M P dx V ee ei y LM Hms Hd Hg Hee Hei Z0 Z1 Z2 F0 F1 Hy) as (_ & _ & X3). unfold Op. rewrite X3 by exact Ha.
      assert (Hdx' : forall d, (d < List.length M)%nat -> (0 < dx d)%R) by (intros d Hd'; apply Hdx; lia).
      replace [0%nat] with (seq 0 (List.length M)) by now rewrite LM. destruct a as [|[|a]]; [| |lia]; cbn [rt]; unfold rate; (replace [0%nat] with (seq 0 (List.length M)) by now rewrite LM).
      * exact (range_rate M P (V 0%nat) (wall_kinds 0) ae be Hae Hbe (fun y Hy => proj1 (DR V HDV y Hy)) (DD 0%nat ltac:(lia)) (pl_gamma p) ee dx y Hg Hee Z0 ltac:(lia) Hdx' Hy).
      * exact (range_rate M P (V 1%nat) (wall_kinds 1) ai bi Hai Hbi (fun y Hy => proj2 (DR V HDV y Hy)) (DD 1%nat ltac:(lia)) (pl_gamma p) ei dx y Hg Hei Z1 ltac:(lia) Hdx' Hy).
  - exact Hdt.
  - intros [|a] c; apply RP.
  - intros a c (y & k & -> & Hy & Hk). unfold three, B. rewrite ?last_last. destruct Hk as [[-> Hk] | [Ha Hk]]; [now apply Rw|].
    destruct a as [|[|a]]; [| |lia]; [apply at_rest_join with (M := M) (P := P)|apply at_rest_join with (M := M) (P := P)]; auto.
  - intros a c (Ha & y & -> & Hy). destruct a as [|[|a]]; [apply He; exact Hy|apply Hi; exact Hy|lia].
  - split; [destruct (QR _ KQ) as (X & Y & Z); split; [exact X|split; [exact Y|split; [exact Z|exact (DR _ KD)]]]|].
    intros t a Ht Ha V. destruct (KS t Ht) as ((_ & S1) & (_ & S2) & (_ & S3)). fold V in S1, S2, S3. split; [exact (FF V S1 a Ha)|]. split; [exact (FF _ S2 a Ha)|exact (FF _ S3 a Ha)].
Qed.

(** Again without an assumption about the stages, for short times. *)
Theorem C83_brio_wu : forall p mx e i f fuel dt n (m : mgr R) L u v w ee ei ae be ai bi, let M := [mx] in let dx := spacing (mg_grid m) in let P := [(0, bs_points (id_basis (f_0 f)))] in
  let rate (en b : R) := sum_over [0%nat] (fun d => (2 * sqrt (2 * pl_gamma p * (pl_gamma p - 1) * en * b) / dx d)%R) in
  program_ready m M L [e; i; f] fuel -> List.length (id_comps (f_0 e)) = 5%nat -> List.length (id_comps (f_0 i)) = 5%nat -> List.length (id_comps (f_0 f)) = 6%nat ->
  bs_points (id_basis (f_0 e)) = bs_points (id_basis (f_0 f)) -> bs_points (id_basis (f_0 i)) = bs_points (id_basis (f_0 f)) -> List.length (pl_ms p) = 2%nat ->
  field_get L (f_0 e) = Some u -> field_get L (f_0 i) = Some v -> field_get L (f_0 f) = Some w ->
  (forall d, (d < 1)%nat -> 2 <= hi M d - lo M d) -> (forall d, (d < 1)%nat -> 0 < dx d)%R -> (0 <= dt)%R -> (1 < pl_gamma p)%R -> (0 < ee)%R -> (0 < ei)%R ->
  at_rest M P ee u -> at_rest M P ei v -> (forall x j, in_box (M ++ P) x -> 0 <= j < 6 -> w (x ++ [j]) = 0%R) ->
  (0 < ae)%R -> (be <= 5 / 2 * ae)%R -> (forall x, in_box (M ++ P) x -> ae + INR n * dt * rate ee be <= u (x ++ [0%Z]) <= be - INR n * dt * rate ee be)%R ->
  (0 < ai)%R -> (bi <= 5 / 2 * ai)%R -> (forall x, in_box (M ++ P) x -> ai + INR n * dt * rate ei bi <= v (x ++ [0%Z]) <= bi - INR n * dt * rate ei bi)%R ->
  let R := run (plasma_step true fuel p (brio_wu_bcs e i f) e i f) dt n m in
  exists u' v' w', ends R M (f_0 e) u' /\ ends R M (f_0 i) v' /\ ends R M (f_0 f) w' /\
    at_rest M P ee u' /\ at_rest M P ei v' /\ (forall x j, in_box (M ++ P) x -> 0 <= j < 6 -> w' (x ++ [j]) = 0%R) /\
    forall x, in_box (M ++ P) x -> (ae <= u' (x ++ [0%Z]) <= be /\ ai <= v' (x ++ [0%Z]) <= bi)%R.
Proof.
  intros p mx e i f fuel dt n m L u v w ee ei ae be ai bi M dx P rate HR Ne Ni Nf Pe Pi Hms Hu Hv Hw Hd Hdx Hdt Hg Hee Hei Ru Rv Rw Hae Hbe He Hai Hbi Hi.
  destruct (tube_drift p M P dx dt n u v w ee ei ae be ai bi eq_refl Hms Hd Hdx Hdt Hg Hee Hei Ru Rv Rw Hae Hbe He Hai Hbi Hi) as ((K0 & K1 & K2 & K3) & _).
  destruct (C57_brio_wu R RArith p mx e i f fuel dt n m L u v w HR Ne Ni Nf Pe Pi Hms Hu Hv Hw) as (m1 & L1 & E1 & (S1 & _) & _ & _ & _ & V1 & _).
  destruct (V1 0%nat (f_0 e) eq_refl) as (u' & Gu & Hu'). destruct (V1 1%nat (f_0 i) eq_refl) as (v' & Gv & Hv'). destruct (V1 2%nat (f_0 f) eq_refl) as (w' & Gw & Hw').
  intros RR. exists u', v', w'. do 3 (split; [exists m1, L1; auto|]).
  set (V := Nat.iter n _ _) in *. pose (W := V).
  assert (EU : forall x j, in_box (M ++ P) x -> 0 <= j < 5 -> u' (x ++ [j]) = V 0%nat (x ++ [j])) by (intros x j Hx Hj; apply Hu'; apply cell_join; [rewrite Pe; exact Hx|rewrite Ne; lia]).
  assert (EV : forall x j, in_box (M ++ P) x -> 0 <= j < 5 -> v' (x ++ [j]) = V 1%nat (x ++ [j])) by (intros x j Hx Hj; apply Hv'; apply cell_join; [rewrite Pi; exact Hx|rewrite Ni; lia]).
  assert (EW : forall x j, in_box (M ++ P) x -> 0 <= j < 6 -> w' (x ++ [j]) = V 2%nat (x ++ [j])) by (intros x j Hx Hj; apply Hw'; apply cell_join; [exact Hx|rewrite Nf; lia]).
  split; [intros x Hx; rewrite !EU by (auto; lia); now apply K0|]. split; [intros x Hx; rewrite !EV by (auto; lia); now apply K1|]. split; [intros x j Hx Hj; rewrite EW by auto; now apply K2|].
  intros x Hx. rewrite EU, EV by (auto; lia). now apply K3.
Qed.
Print Assumptions C83_brio_wu.

(** ** cases

    A plasma on three cells, for any charges, masses and speed of light: the electrons
    have densities 4, 5, 6, the ions 6, 5, 4. *)
Definition ramp_up : field R := fun c => if last c 0 =? 0 then IZR (4 + nth 0 c 0) else if last c 0 =? 4 then 1%R else 0%R.
Definition ramp_down : field R := fun c => if last c 0 =? 0 then IZR (6 - nth 0 c 0) else if last c 0 =? 4 then 1%R else 0%R.
Definition tube3 : box := [(0, 3)].
Definition ramp_fields : list (vid * field R) := [(f_0 electrons, ramp_up); (f_0 ions, ramp_down); (f_0 em, nothing)].
Definition ramp_start : mgr R := mgr_of (mkGrid (range_of tube3) [0%R] [3%R] [1%R]) tube3 ramp_fields None None.
Lemma ramp_range : forall x, in_box (tube3 ++ [(0, 1)]) x -> (4 <= ramp_up (x ++ [0%Z]) <= 6 /\ 4 <= ramp_down (x ++ [0%Z]) <= 6)%R.
Proof.
  intros x Hx. inversion Hx as [|? i ? ? Hi H1]; subst. inversion H1 as [|? z ? ? Hz H2]; subst. inversion H2; subst. cbn [fst snd] in *.
  unfold ramp_up, ramp_down. rewrite last_last. cbn [Z.eqb app nth]. repeat split; apply IZR_le; lia.
Qed.
Lemma ramp_rest : at_rest tube3 [(0, 1)] 1 ramp_up /\ at_rest tube3 [(0, 1)] 1 ramp_down.
Proof. split; intros x Hx; unfold ramp_up, ramp_down; rewrite !last_last; repeat split; reflexivity. Qed.
Lemma ramp_rate : forall dx : nat -> R, dx 0%nat = 1%R -> sum_over [0%nat] (fun d => (2 * sqrt (2 * (14 / 10) * (14 / 10 - 1) * 1 * 7) / dx d)%R) = (56 / 10)%R.
Proof. intros dx H0. unfold sum_over. cbn [map fold_right]. rewrite H0. replace (2 * (14 / 10) * (14 / 10 - 1) * 1 * 7)%R with (28 / 10 * (28 / 10))%R by field. rewrite sqrt_square by lra. field. Qed.
Lemma ramp_time : forall n, (n <= 100)%nat -> (0 <= INR n * / 1200 * (56 / 10) <= 1)%R.
Proof. intros n Hn. apply le_INR in Hn. pose proof (pos_INR n). replace (INR 100) with 100%R in Hn by (rewrite INR_IZR_INZ; reflexivity). lra. Qed.
Lemma ramp_wide : forall d, (d < 1)%nat -> 2 <= hi tube3 d - lo tube3 d.
Proof. intros [|d] Hd; cbn; lia. Qed.
Lemma ramp_spacing : forall d, (d < 1)%nat -> (0 < spacing (mg_grid ramp_start) d)%R.
Proof. intros [|d] Hd; [cbn; lra|lia]. Qed.
Lemma ramp_room : forall c ee ei ms n, (n <= 100)%nat -> let p := mkPlasma (14 / 10)%R c ee ei ms in
  let s := (INR n * / 1200 * sum_over [0%nat] (fun d => 2 * sqrt (2 * pl_gamma p * (pl_gamma p - 1) * 1 * 7) / spacing (mg_grid ramp_start) d))%R in
  forall x, in_box (tube3 ++ [(0, 1)]) x -> (3 + s <= ramp_up (x ++ [0%Z]) <= 7 - s /\ 3 + s <= ramp_down (x ++ [0%Z]) <= 7 - s)%R.
Proof.
  intros c ee ei ms n Hn p s x Hx. assert (E : s = (INR n * / 1200 * (56 / 10))%R) by (unfold s; f_equal; apply ramp_rate; reflexivity).
  pose proof (ramp_time n Hn). pose proof (ramp_range x Hx). rewrite E. lra.
Qed.
Example C83_brio_wu_ex : forall c ee ei me mi n, (n <= 100)%nat -> let p := mkPlasma (14 / 10)%R c ee ei [me; mi] in
  let R := run (plasma_step true 999 p (brio_wu_bcs electrons ions em) electrons ions em) (/ 1200)%R n ramp_start in
  exists u v w, ends R tube3 (f_0 electrons) u /\ ends R tube3 (f_0 ions) v /\ ends R tube3 (f_0 em) w /\ at_rest tube3 [(0, 1)] 1 u /\ at_rest tube3 [(0, 1)] 1 v /\
    (forall x j, in_box (tube3 ++ [(0, 1)]) x -> 0 <= j < 6 -> w (x ++ [j]) = 0%R) /\ forall x, in_box (tube3 ++ [(0, 1)]) x -> (3 <= u (x ++ [0%Z]) <= 7 /\ 3 <= v (x ++ [0%Z]) <= 7)%R.
Proof.
  intros c ee ei me mi n Hn p. pose proof (ramp_room c ee ei [me; mi] n Hn) as RM.
  apply (C83_brio_wu p (0, 3) electrons ions em 999 (/ 1200)%R n ramp_start ramp_fields ramp_up ramp_down nothing 1%R 1%R 3%R 7%R 3%R 7%R); try reflexivity; try exact ramp_wide; try exact ramp_spacing; try apply ramp_rest; try (cbn; lra).
  - is_ready.
  - intros x Hx. exact (proj1 (RM x Hx)).
  - intros x Hx. exact (proj2 (RM x Hx)).
Qed.
Example C83_brio_wu_partial_ex : forall c ee ei me mi n, (n <= 100)%nat -> let p := mkPlasma (14 / 10)%R c ee ei [me; mi] in
  let R := run (plasma_step true 999 p (brio_wu_bcs electrons ions em) electrons ions em) (/ 1200)%R n ramp_start in
  exists u v w, ends R tube3 (f_0 electrons) u /\ ends R tube3 (f_0 ions) v /\ ends R tube3 (f_0 em) w /\ at_rest tube3 [(0, 1)] 1 u /\ at_rest tube3 [(0, 1)] 1 v /\
    forall x j, in_box (tube3 ++ [(0, 1)]) x -> 0 <= j < 6 -> w (x ++ [j]) = 0%R.
Proof.
  intros c ee ei me mi n Hn p. pose proof (ramp_room c ee ei [me; mi] n Hn) as RM.
  apply (C83_brio_wu_partial p (0, 3) electrons ions em 999 (/ 1200)%R n ramp_start ramp_fields ramp_up ramp_down nothing 1%R 1%R); try reflexivity; try exact ramp_wide; try apply ramp_rest; try (cbn; lra).
  - is_ready.
  - apply (tube_drift p tube3 [(0, 1)] (spacing (mg_grid ramp_start)) (/ 1200)%R n ramp_up ramp_down nothing 1%R 1%R 3%R 7%R 3%R 7%R); try reflexivity; try exact ramp_wide; try exact ramp_spacing; try apply ramp_rest; try (cbn; lra).
    + intros x Hx. exact (proj1 (RM x Hx)).
    + intros x Hx. exact (proj2 (RM x Hx)).
Qed.

(** Both fluids of density 1 at rest. *)
Definition still_tube : mgr R := mgr_of (mkGrid (range_of tube3) [0%R] [3%R] [1%R]) tube3 rest_fields None None.
Lemma tube_calm : forall i P u, (i < 2)%nat -> level tube3 P 5 resting u -> calm (5 / 3) tube3 P (wall_kinds i) (fun _ => 2%R) u.
Proof.
  intros i P u Hi HL x d Hx Hd w. assert (W : 2 <= hi tube3 d - lo tube3 d) by (destruct d as [|d]; cbn in *; lia). assert (L : (d < List.length x)%nat) by (apply Forall2_length in Hx; rewrite app_length in Hx; cbn in *; lia).
  assert (S : forall t j, -2 <= t <= 2 -> 0 <= j < 5 -> w (move d t x ++ [j]) = resting j).
  { intros t j Ht Hj. apply (level_seen tube3 P 5 resting); auto. right. left. split; [destruct i as [|[|i]]; [reflexivity|reflexivity|lia]|].
    intros B. unfold resting. destruct (Z.eqb_spec j 0), (Z.eqb_spec j 4); try lia. reflexivity. }
  assert (SP : (wave_speed (5 / 3) d [1; 0; 0; 0; 1] <= 2)%R).
  { unfold wave_speed, velocity, sound, pressure, kinetic, density, energy, momentum. destruct d as [|d]; [|cbn in Hd; lia]; cbn [nth];
      (replace (0 / 1)%R with 0%R by field); rewrite Rabs_R0, Rplus_0_l; (apply Rle_trans with (sqrt 4); [apply sqrt_le_1_alt; field_simplify; lra|replace 4%R with (2 * 2)%R by ring; rewrite sqrt_square; lra]). }
  assert (EL : left_state 5 w d (move d 1 x) = [1; 0; 0; 0; 1]%R).
  { unfold left_state. change (zrange 0 5) with [0; 1; 2; 3; 4]. cbn [map]. rewrite !move_move by exact L. rewrite !S by lia. now rewrite !left_flat. }
  assert (ER : right_state 5 w d x = [1; 0; 0; 0; 1]%R).
  { unfold right_state. change (zrange 0 5) with [0; 1; 2; 3; 4]. cbn [map]. rewrite <- (move_0 d x L) at 2 5 8 11 14. rewrite !S by lia. now rewrite !right_flat. }
  split; [|split; [now rewrite EL|now rewrite ER]]. intros t Ht. rewrite S by lia. split; [cbn; lra|]. intros Ht'. rewrite !S by lia. cbn. lra.
Qed.
Example C80_brio_wu_partial_ex : forall c ee ei me mi n, let p := mkPlasma (5 / 3)%R c ee ei [me; mi] in
  exists u v, ends (run (plasma_step true 999 p (brio_wu_bcs electrons ions em) electrons ions em) (/ 20)%R n still_tube) tube3 (f_0 electrons) u /\
    ends (run (plasma_step true 999 p (brio_wu_bcs electrons ions em) electrons ions em) (/ 20)%R n still_tube) tube3 (f_0 ions) v /\
    forall x, in_box (tube3 ++ [(0, 1)]) x -> (0 < u (x ++ [0%Z]) /\ 0 < v (x ++ [0%Z]))%R.
Proof.
  intros c ee ei me mi n p. set (P := [(0, 1)]). pose (dx := spacing (mg_grid still_tube)).
  pose (Op := plasma_op p (flux_of (euler_flux (pl_gamma p))) (flux_of (maxwell_flux (pl_c p))) tube3 wall_kinds dx [0%nat] [0%nat]).
  pose (steady := fun V : sys => level tube3 P 5 resting (V 0%nat) /\ level tube3 P 5 resting (V 1%nat) /\ level tube3 P 6 (fun _ => 0%R) (V 2%nat)).
  assert (HW : forall d, In d [0%nat] -> (d < List.length tube3)%nat /\ 2 <= hi tube3 d - lo tube3 d) by (intros d [<-|[]]; cbn; lia).
  assert (B5 : forall a, (a < 2)%nat -> forall d i, In d [0%nat] -> 0 <= i < 5 -> wall_kinds a d = Periodic \/ (wall_kinds a d = NoSlip /\ (1 <= i < 4 -> resting i = 0%R)) \/ (wall_kinds a d = ConductingWall /\ resting i = 0%R)).
  { intros a Ha d i [<-|[]] Hi. right. left. split; [destruct a as [|[|a]]; [reflexivity|reflexivity|lia]|]. intros B. unfold resting. destruct (Z.eqb_spec i 0), (Z.eqb_spec i 4); try lia. reflexivity. }
  assert (Z0 : forall V, steady V -> forall x, in_box (tube3 ++ P) x -> (forall j, 0 <= j < 5 -> Op V 0%nat (x ++ [j]) = 0%R /\ Op V 1%nat (x ++ [j]) = 0%R) /\ forall j, 0 <= j < 6 -> Op V 2%nat (x ++ [j]) = 0%R).
  { intros V (S0 & S1 & S2) x Hx. assert (L0 : forall a j, (a < 2)%nat -> fv_rhs 5 (flux_of (euler_flux (pl_gamma p))) tube3 (wall_kinds a) dx [0%nat] (V a) (x ++ [j]) = 0%R).
    { intros a j Ha. apply (level_rate tube3 P 5 resting); auto. destruct a as [|[|a]]; [exact S0|exact S1|lia]. }
    split; [intros j Hj; split|intros j Hj].
    - unfold Op, plasma_op, with_lorentz. rewrite removelast_last, last_last, L0 by lia. 
      assert (D : j = 0 \/ j = 1 \/ j = 2 \/ j = 3 \/ j = 4) by lia. destruct D as [-> | [-> | [-> | [-> | ->]]]]; cbn [lorentz_rate]; rewrite ?S2, ?S0 by (auto; lia); cbn; ring.
    - unfold Op, plasma_op, with_lorentz. rewrite removelast_last, last_last, L0 by lia. 
      assert (D : j = 0 \/ j = 1 \/ j = 2 \/ j = 3 \/ j = 4) by lia. destruct D as [-> | [-> | [-> | [-> | ->]]]]; cbn [lorentz_rate]; rewrite ?S2, ?S1 by (auto; lia); cbn; ring.
    - unfold Op, plasma_op, with_current. rewrite removelast_last, last_last.
      rewrite (level_rate tube3 P 6 (fun _ => 0%R) (V 2%nat)) by (auto; intros d i [<-|[]] Hi; cbn; auto).
      destruct (Z.ltb_spec j 3); [|reflexivity]. cbn [current pl_ms p]. rewrite S0, S1 by (auto; lia). assert (D : j = 0 \/ j = 1 \/ j = 2) by lia. destruct D as [-> | [-> | ->]]; cbn; ring. }
  assert (K : forall V W : sys, steady V -> (forall x, in_box (tube3 ++ P) x -> (forall j, 0 <= j < 5 -> W 0%nat (x ++ [j]) = V 0%nat (x ++ [j]) /\ W 1%nat (x ++ [j]) = V 1%nat (x ++ [j])) /\ forall j, 0 <= j < 6 -> W 2%nat (x ++ [j]) = V 2%nat (x ++ [j])) -> steady W).
  { intros V W (S0 & S1 & S2) H. split; [|split]; intros x j Hx Hj; destruct (H x Hx) as [H1 H2]; [destruct (H1 j Hj) as [-> _]|destruct (H1 j Hj) as [_ ->]|rewrite H2 by exact Hj]; auto. }
  assert (T2 : forall V, steady V -> steady (second Op (/ 20) V)).
  { intros V S. apply (K V); auto. intros x Hx. destruct (Z0 V S x Hx) as [Z1 Z2]. unfold second. split; [intros j Hj; destruct (Z1 j Hj) as [-> ->]; split; ring|intros j Hj; rewrite Z2 by exact Hj; ring]. }
  assert (T3 : forall V, steady V -> steady (third Op (/ 20) V)).
  { intros V S. apply (K V); auto. intros x Hx. assert (Q := T2 V S). destruct (Z0 _ Q x Hx) as [Z1 Z2]. destruct (Z0 V S x Hx) as [Y1 Y2]. unfold third. unfold second at 1 3 5.
    split; [intros j Hj; destruct (Z1 j Hj) as [-> ->]; unfold second; destruct (Y1 j Hj) as [-> ->]; split; field|intros j Hj; rewrite Z2 by exact Hj; unfold second; rewrite Y2 by exact Hj; field]. }
  assert (TR : forall V, steady V -> steady (rk3 Op (/ 20)%R V)).
  { intros V S. assert (Q := T3 V S). apply (K V); auto. intros x Hx. destruct (Z0 _ Q x Hx) as [Z1 Z2]. destruct S as (S0 & S1 & S2). destruct Q as (Q0 & Q1 & Q2).
    split; [intros j Hj; destruct (Z1 j Hj) as [X Y]; rewrite !rk3_third, X, Y, Q0, Q1, S0, S1 by auto; split; field|].
    intros j Hj. rewrite rk3_third, Z2, Q2, S2 by auto. field. }
  assert (S0 : steady (three rest rest nothing)) by (split; [|split]; intros x j Hx Hj; unfold three, rest, resting, nothing; rewrite ?last_last; reflexivity).
  assert (SI : forall t, steady (Nat.iter t (rk3 Op (/ 20)%R) (three rest rest nothing))) by (induction t as [|t IH]; [exact S0|exact (TR _ IH)]).
  assert (EC : courant 1 (/ 20) (fun _ => 2%R) dx = (21 / 100)%R) by (unfold courant, sum_over, dx, spacing; cbn; field).
  destruct (C80_brio_wu_partial p (0, 3) electrons ions em 999 (/ 20)%R n still_tube rest_fields rest rest nothing (fun _ => 2%R)) as (u & v & Eu & Ev & H); auto.
  - is_ready.
  - lra.
  - cbn. lra.
  - fold dx. rewrite EC. lra.
  - intros x Hx. unfold rest. rewrite last_last. cbn. lra.
  - intros t a Ht Ha V. fold dx in V. fold Op in V. assert (Q := SI t). fold Op. fold V in Q.
    assert (CA : forall W : sys, steady W -> calm (5 / 3) tube3 P (wall_kinds a) (fun _ => 2%R) (W a)).
    { intros W (W0 & W1 & _). apply tube_calm; auto. destruct a as [|[|a]]; [exact W0|exact W1|lia]. }
    split; [exact (CA V Q)|]. split; [exact (CA _ (T2 V Q))|exact (CA _ (T3 V Q))].
  - exists u, v. split; [exact Eu|]. split; [exact Ev|]. intros x Hx. destruct (H x Hx) as [H1 H2]. fold dx in H1, H2. rewrite EC in H1, H2.
    assert (PW : (0 < (1 - 21 / 100) ^ (3 * n))%R) by (apply pow_lt; lra).
    assert (R1 : @rest R RArith (x ++ [0]) = 1%R) by (unfold rest; rewrite last_last; reflexivity). rewrite R1 in H1, H2. lra.
Qed.
