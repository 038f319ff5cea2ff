(** * Energy and heat of a uniform plasma (C96). *)
From Coq Require Import ZArith List String Bool Reals Lra Lia Psatz.
From Verif Require Import Base BaseFacts BoxSpec BoxFacts Interface EulerSpec PhysicsSpec PhysicsFacts Properties_Physics NumFacts Range RangeSpec RangeFacts ApiSpec Arith ArithR Chunk FieldSpec VarId Manager MgrSpec MgrFacts
  BC BCSpec BCFacts Sweep SweepSpec Euler Maxwell Sources SourceSpec ParFacts SweepFacts FluxFacts Programs ProgramsSpec ConserveFacts RhsFacts Properties_Programs
  SymmetrySpec SymmetryFacts Properties_Symmetry Properties_Chunk Properties_Monopole AxesFacts PositiveSpec PositiveFacts Properties_Positive AccuracyGas AccuracySpec AccuracyFacts GaussSpec GaussFacts OscillationSpec OscillationFacts Properties_Gauss Initial Main
  Properties_Oscillation SwingSpec SwingFacts Properties_Swing GyroSpec GyroFacts Properties_Gyro HeatSpec HeatFacts.
Import ListNotations.
Open Scope Z_scope.

Lemma bernoulli : forall a n, (0 <= a <= 1)%R -> (1 - INR n * a <= (1 - a) ^ n)%R.
Proof.
  intros a n Ha. induction n as [|n IH]; [cbn; lra|]. rewrite S_INR. cbn [pow]. pose proof (pos_INR n) as P.
  apply Rle_trans with ((1 - a) * (1 - INR n * a))%R; [|apply Rmult_le_compat_l; [lra|exact IH]].
  assert (0 <= INR n * (a * a))%R by (apply Rmult_le_pos; [exact P|nra]). lra.
Qed.

Lemma energy_total : forall eps0 (u v w : field R) x (T : nat -> Z -> R),
  (forall k, 0 <= k < 5 -> u (x ++ [k]) = T 0%nat k) -> (forall k, 0 <= k < 5 -> v (x ++ [k]) = T 1%nat k) -> (forall k, 0 <= k < 6 -> w (x ++ [k]) = T 2%nat k) ->
  plasma_energy eps0 u v w x = total eps0 T.
Proof.
  intros eps0 u v w x T HU HV HW. unfold plasma_energy, square, total, fe. cbn [Z.add Pos.add Pos.succ]. rewrite HU, HV, !HW by lia. field.
Qed.
Lemma heat_is : forall eps0 (u v w : field R) x, (0 < u (x ++ [0]%Z))%R -> (0 < v (x ++ [0]%Z))%R ->
  heat u v x = (plasma_energy eps0 u v w x - motion2 eps0 u v w x / 2)%R.
Proof. intros eps0 u v w x PU PV. unfold heat, plasma_energy, motion2. field. lra. Qed.

(** From the steps of the cell to the energy. *)
Lemma heat_steps : forall gamma c eps0 q0 m0 q1 m1 dt n (u v w u' v' w' : field R) x oc op, let p := two_fluids gamma c eps0 q0 m0 q1 m1 in
  let S0 := fun (a : nat) (k : Z) => three u v w a (x ++ [k]) in let T := Nat.iter n (still_rk3 p dt) S0 in
  (0 < eps0)%R -> (0 <= dt)%R -> (0 < m0)%R -> (0 < m1)%R -> (0 < u (x ++ [0]%Z))%R -> (0 < v (x ++ [0]%Z))%R -> (0 < oc)%R -> (0 < op)%R ->
  ((q0 / m0) ^ 2 * square w x 3 <= oc ^ 2)%R -> ((q1 / m1) ^ 2 * square w x 3 <= oc ^ 2)%R ->
  (((q0 / m0) ^ 2 * u (x ++ [0]%Z) + (q1 / m1) ^ 2 * v (x ++ [0]%Z)) / eps0 <= op ^ 2)%R ->
  let z := ((oc + op) * dt)%R in (z ^ 2 <= 3)%R ->
  (forall k, 0 <= k < 5 -> u' (x ++ [k]) = T 0%nat k) -> (forall k, 0 <= k < 5 -> v' (x ++ [k]) = T 1%nat k) -> (forall k, 0 <= k < 6 -> w' (x ++ [k]) = T 2%nat k) ->
  (Rabs (plasma_energy eps0 u' v' w' x - plasma_energy eps0 u v w x) <= INR n * (z ^ 4 / 4 * motion2 eps0 u v w x) /\
    - (INR n * (z ^ 4 / 4 * motion2 eps0 u v w x)) <= heat u' v' x - heat u v x <= INR n * (7 * z ^ 4 / 24 * motion2 eps0 u v w x))%R.
Proof.
  intros gamma c eps0 q0 m0 q1 m1 dt n u v w u' v' w' x oc op p S0 T PE Hdt PM0 PM1 PU PV OC OP HC0 HC1 HP z Hz XU XV XW.
  destruct (energy_steps gamma c eps0 q0 m0 q1 m1 dt n u v w u' v' w' x oc op PE PM0 PM1 PU PV OC OP HC0 HC1 HP Hz XU XV XW) as ([DU DV] & _ & [L U]). fold z in L.
  destruct (fluids_values gamma c eps0 q0 m0 q1 m1) as (V1 & V2 & V3 & V4); [lra|lra|lra|]. fold p in V1, V2, V3, V4.
  assert (X : (Rabs (plasma_energy eps0 u' v' w' x - plasma_energy eps0 u v w x) <= INR n * (z ^ 4 / 4 * motion2 eps0 u v w x))%R).
  { rewrite (energy_total eps0 u' v' w' x T XU XV XW), (energy_total eps0 u v w x S0) by (intros; reflexivity). rewrite (energy_ip eps0 u v w x S0) by (auto; intros; reflexivity).
    set (re := u (x ++ [0])) in *. set (ri := v (x ++ [0])) in *.
    assert (K0 : (0 < / (eps0 * re))%R) by (apply Rinv_0_lt_compat, Rmult_lt_0_compat; assumption). assert (K1 : (0 < / (eps0 * ri))%R) by (apply Rinv_0_lt_compat, Rmult_lt_0_compat; assumption).
    unfold T. apply (energy_iter p (/ (eps0 * re)) (/ (eps0 * ri)) eps0 oc op dt S0 n); try assumption; try lra.
    - rewrite V3, V1. field. lra.
    - rewrite V4, V2. field. lra.
    - rewrite V3, V1. change (S0 0%nat 0) with re. field. lra.
    - rewrite V4, V2. change (S0 1%nat 0) with ri. field. lra.
    - rewrite V1, V2. change (S0 0%nat 0) with re. change (S0 1%nat 0) with ri. eapply Rle_trans; [|exact HP]. right. field. lra. }
  split; [exact X|]. rewrite (heat_is eps0 u' v' w' x), (heat_is eps0 u v w x); [|assumption|assumption|rewrite DU; assumption|rewrite DV; assumption].
  set (M := motion2 eps0 u v w x) in *. set (M' := motion2 eps0 u' v' w' x) in *.
  assert (M0 : (0 <= M)%R).
  { unfold M, motion2. assert (Q : forall (a : field R) j, (0 <= square a x j)%R) by (intros; unfold square; repeat apply Rplus_le_le_0_compat; apply pow2_ge_0).
    pose proof (Rinv_0_lt_compat _ PU). pose proof (Rinv_0_lt_compat _ PV). unfold Rdiv. repeat apply Rplus_le_le_0_compat; apply Rmult_le_pos; try apply Q; lra. }
  assert (Z2 := pow2_ge_0 z). assert (B : (0 <= z ^ 4 / 12 <= 1)%R) by (replace (z ^ 4)%R with (z ^ 2 * z ^ 2)%R by ring; split; nra).
  pose proof (bernoulli (z ^ 4 / 12) n B) as BN. apply (Rmult_le_compat_r M) in BN; [|exact M0].
  destruct (Rabs_def2 _ _ (Rle_lt_trans _ _ _ X (Rlt_plus_1 _))) as [_ _]. pose proof (Rle_abs (plasma_energy eps0 u' v' w' x - plasma_energy eps0 u v w x)) as A1.
  pose proof (Rle_abs (- (plasma_energy eps0 u' v' w' x - plasma_energy eps0 u v w x))) as A2. rewrite Rabs_Ropp in A2. split; lra.
Qed.

(** ** C96

    In the cell [x] of C95, the energy of both fluids and of the electric field changes in
    [n] steps by at most z^4/4 times the energy of motion in each step, and so does what
    is not energy of motion: the plasma is neither heated nor cooled by more than that. *)
Theorem C96_brio_wu : forall gamma c eps0 q0 m0 q1 m1 mx e i f fuel dt n (m : mgr R) L u v w x oc op, let M := [mx] in let p := two_fluids gamma c eps0 q0 m0 q1 m1 in
  program_ready m M L [e; i; f] fuel ->
  List.length (id_comps (f_0 e)) = 5%nat -> List.length (id_comps (f_0 i)) = 5%nat -> List.length (id_comps (f_0 f)) = 6%nat ->
  bs_points (id_basis (f_0 e)) = bs_points (id_basis (f_0 f)) -> bs_points (id_basis (f_0 i)) = bs_points (id_basis (f_0 f)) ->
  field_get L (f_0 e) = Some u -> field_get L (f_0 i) = Some v -> field_get L (f_0 f) = Some w ->
  in_box (M ++ [(0, bs_points (id_basis (f_0 f)))]) x -> let r := 6 * Z.of_nat n in fst mx + r <= nth 0 x 0 < snd mx - r ->
  uniform_near r 5 u x -> uniform_near r 5 v x -> uniform_near r 6 w x ->
  (0 < eps0)%R -> (0 <= dt)%R -> (0 < m0)%R -> (0 < m1)%R -> (0 < u (x ++ [0]%Z))%R -> (0 < v (x ++ [0]%Z))%R -> (0 < oc)%R -> (0 < op)%R ->
  ((q0 / m0) ^ 2 * square w x 3 <= oc ^ 2)%R -> ((q1 / m1) ^ 2 * square w x 3 <= oc ^ 2)%R ->
  (((q0 / m0) ^ 2 * u (x ++ [0]%Z) + (q1 / m1) ^ 2 * v (x ++ [0]%Z)) / eps0 <= op ^ 2)%R ->
  let z := ((oc + op) * dt)%R in (z ^ 2 <= 3)%R ->
  let R := run (plasma_step true fuel p (brio_wu_bcs e i f) e i f) dt n m in
  exists u' v' w', ends R M (f_0 e) u' /\ ends R M (f_0 i) v' /\ ends R M (f_0 f) w' /\
    (Rabs (plasma_energy eps0 u' v' w' x - plasma_energy eps0 u v w x) <= INR n * (z ^ 4 / 4 * motion2 eps0 u v w x) /\
    - (INR n * (z ^ 4 / 4 * motion2 eps0 u v w x)) <= heat u' v' x - heat u v x <= INR n * (7 * z ^ 4 / 24 * motion2 eps0 u v w x))%R.
Proof.
  intros gamma c eps0 q0 m0 q1 m1 mx e i f fuel dt n m L u v w x oc op M p HR Ne Ni Nf Pe Pi Hu Hv Hw Hx r Hi Uu Uv Uw PE Hdt PM0 PM1 PU PV OC OP HC0 HC1 HP z Hz R.
  assert (Hms : List.length (pl_ms p) = 2%nat) by reflexivity.
  destruct (C57_brio_wu _ _ p mx e i f fuel dt n m L u v w HR Ne Ni Nf Pe Pi Hms Hu Hv Hw) as (m2 & L1 & E1 & (S1 & _) & _ & _ & _ & V1 & _).
  destruct (V1 0%nat (f_0 e) eq_refl) as (u' & Gu & Hu'). destruct (V1 1%nat (f_0 i) eq_refl) as (v' & Gv & Hv'). destruct (V1 2%nat (f_0 f) eq_refl) as (w' & Gw & Hw').
  exists u', v', w'. do 3 (split; [exists m2, L1; auto|]). fold M in Hu', Hv', Hw'. set (Op := plasma_op _ _ _ _ _ _ _ _) in *.
  assert (LX : (0 < List.length x)%nat). { apply Forall2_length in Hx. rewrite app_length in Hx. cbn in Hx. lia. }
  pose (S0 := fun (a : nat) (k : Z) => three u v w a (x ++ [k])).
  assert (LV : forall t, (t <= n)%nat -> level (Nat.iter t (still_rk3 p dt) S0) (6 * Z.of_nat (n - t)) (Nat.iter t (rk3 Op dt) (three u v w)) x).
  { induction t as [|t IH]; intros Ht.
    - rewrite Nat.sub_0_r. intros s a k Hs Ha Hk. unfold Nat.iter, S0. destruct a as [|[|[|a]]]; [apply Uu|apply Uv|apply Uw|lia]; assumption.
    - specialize (IH ltac:(lia)). change (Nat.iter (S t) (rk3 Op dt) (three u v w)) with (rk3 Op dt (Nat.iter t (rk3 Op dt) (three u v w))).
      change (Nat.iter (S t) (still_rk3 p dt) S0) with (still_rk3 p dt (Nat.iter t (still_rk3 p dt) S0)).
      apply level_rk3; auto; [lia| |replace (6 * Z.of_nat (n - S t) + 6) with (6 * Z.of_nat (n - t)) by lia; exact IH].
      unfold lo, hi, M. destruct mx as [l h]. cbn [fst snd nth] in Hi |- *. unfold r in Hi. lia. }
  specialize (LV n ltac:(lia)). rewrite Nat.sub_diag in LV.
  assert (X : forall a k, (a < 3)%nat -> 0 <= k < comps_of a -> Nat.iter n (rk3 Op dt) (three u v w) a (x ++ [k]) = Nat.iter n (still_rk3 p dt) S0 a k).
  { intros a k Ha Hk. rewrite <- (move_0 0 x LX) at 1. apply LV; [lia|exact Ha|exact Hk]. }
  apply (heat_steps gamma c eps0 q0 m0 q1 m1 dt n u v w u' v' w' x oc op PE Hdt PM0 PM1 PU PV OC OP HC0 HC1 HP Hz).
  - intros k Hk. rewrite Hu' by (apply cell_join; [rewrite Pe; exact Hx|rewrite Ne; lia]). apply X; [lia|exact Hk].
  - intros k Hk. rewrite Hv' by (apply cell_join; [rewrite Pi; exact Hx|rewrite Ni; lia]). apply X; [lia|exact Hk].
  - intros k Hk. rewrite Hw' by (apply cell_join; [exact Hx|rewrite Nf; lia]). apply X; [lia|exact Hk].
Qed.
Print Assumptions C96_brio_wu.

Theorem C96_gem : forall gamma c eps0 q0 m0 q1 m1 mx my e i f fuel dt n (m : mgr R) L u v w x oc op, let M := [mx; my] in let p := two_fluids gamma c eps0 q0 m0 q1 m1 in
  program_ready m M L [e; i; f] fuel ->
  List.length (id_comps (f_0 e)) = 5%nat -> List.length (id_comps (f_0 i)) = 5%nat -> List.length (id_comps (f_0 f)) = 6%nat ->
  bs_points (id_basis (f_0 e)) = bs_points (id_basis (f_0 f)) -> bs_points (id_basis (f_0 i)) = bs_points (id_basis (f_0 f)) ->
  field_get L (f_0 e) = Some u -> field_get L (f_0 i) = Some v -> field_get L (f_0 f) = Some w ->
  in_box (M ++ [(0, bs_points (id_basis (f_0 f)))]) x -> let r := 6 * Z.of_nat n in fst mx + r <= nth 0 x 0 < snd mx - r -> fst my + r <= nth 1 x 0 < snd my - r ->
  uniform_around r 5 u x -> uniform_around r 5 v x -> uniform_around r 6 w x ->
  (0 < eps0)%R -> (0 <= dt)%R -> (0 < m0)%R -> (0 < m1)%R -> (0 < u (x ++ [0]%Z))%R -> (0 < v (x ++ [0]%Z))%R -> (0 < oc)%R -> (0 < op)%R ->
  ((q0 / m0) ^ 2 * square w x 3 <= oc ^ 2)%R -> ((q1 / m1) ^ 2 * square w x 3 <= oc ^ 2)%R ->
  (((q0 / m0) ^ 2 * u (x ++ [0]%Z) + (q1 / m1) ^ 2 * v (x ++ [0]%Z)) / eps0 <= op ^ 2)%R ->
  let z := ((oc + op) * dt)%R in (z ^ 2 <= 3)%R ->
  let R := run (plasma_step true fuel p (gem_bcs e i f) e i f) dt n m in
  exists u' v' w', ends R M (f_0 e) u' /\ ends R M (f_0 i) v' /\ ends R M (f_0 f) w' /\
    (Rabs (plasma_energy eps0 u' v' w' x - plasma_energy eps0 u v w x) <= INR n * (z ^ 4 / 4 * motion2 eps0 u v w x) /\
    - (INR n * (z ^ 4 / 4 * motion2 eps0 u v w x)) <= heat u' v' x - heat u v x <= INR n * (7 * z ^ 4 / 24 * motion2 eps0 u v w x))%R.
Proof.
  intros gamma c eps0 q0 m0 q1 m1 mx my e i f fuel dt n m L u v w x oc op M p HR Ne Ni Nf Pe Pi Hu Hv Hw Hx r Hi0 Hi1 Uu Uv Uw PE Hdt PM0 PM1 PU PV OC OP HC0 HC1 HP z Hz R.
  assert (Hms : List.length (pl_ms p) = 2%nat) by reflexivity.
  destruct (C57_gem _ _ p mx my e i f fuel dt n m L u v w HR Ne Ni Nf Pe Pi Hms Hu Hv Hw) as (m2 & L1 & E1 & (S1 & _) & _ & _ & _ & V1 & _).
  destruct (V1 0%nat (f_0 e) eq_refl) as (u' & Gu & Hu'). destruct (V1 1%nat (f_0 i) eq_refl) as (v' & Gv & Hv'). destruct (V1 2%nat (f_0 f) eq_refl) as (w' & Gw & Hw').
  exists u', v', w'. do 3 (split; [exists m2, L1; auto|]). fold M in Hu', Hv', Hw'. set (Op := plasma_op _ _ _ _ _ _ _ _) in *.
  assert (LX : (1 < List.length x)%nat). { apply Forall2_length in Hx. rewrite app_length in Hx. cbn in Hx. lia. }
  pose (S0 := fun (a : nat) (k : Z) => three u v w a (x ++ [k])).
  assert (LV : forall t, (t <= n)%nat -> level2 (Nat.iter t (still_rk3 p dt) S0) (6 * Z.of_nat (n - t)) (Nat.iter t (rk3 Op dt) (three u v w)) x).
  { induction t as [|t IH]; intros Ht.
    - rewrite Nat.sub_0_r. intros s q a k Hs Hq Ha Hk. unfold Nat.iter, S0. destruct a as [|[|[|a]]]; [apply Uu|apply Uv|apply Uw|lia]; assumption.
    - specialize (IH ltac:(lia)). change (Nat.iter (S t) (rk3 Op dt) (three u v w)) with (rk3 Op dt (Nat.iter t (rk3 Op dt) (three u v w))).
      change (Nat.iter (S t) (still_rk3 p dt) S0) with (still_rk3 p dt (Nat.iter t (still_rk3 p dt) S0)).
      apply level2_rk3; auto; [lia| | |replace (6 * Z.of_nat (n - S t) + 6) with (6 * Z.of_nat (n - t)) by lia; exact IH].
      + unfold lo, hi, M. destruct mx as [l h]. cbn [fst snd nth] in Hi0 |- *. unfold r in Hi0. lia.
      + unfold lo, hi, M. destruct my as [l h]. cbn [fst snd nth] in Hi1 |- *. unfold r in Hi1. lia. }
  specialize (LV n ltac:(lia)). rewrite Nat.sub_diag in LV.
  assert (X : forall a k, (a < 3)%nat -> 0 <= k < comps_of a -> Nat.iter n (rk3 Op dt) (three u v w) a (x ++ [k]) = Nat.iter n (still_rk3 p dt) S0 a k).
  { intros a k Ha Hk. rewrite <- (move_0 1 x LX) at 1. rewrite <- (move_0 0 (move 1 0 x)) by (rewrite move_length; lia). apply LV; [lia|lia|exact Ha|exact Hk]. }
  apply (heat_steps gamma c eps0 q0 m0 q1 m1 dt n u v w u' v' w' x oc op PE Hdt PM0 PM1 PU PV OC OP HC0 HC1 HP Hz).
  - intros k Hk. rewrite Hu' by (apply cell_join; [rewrite Pe; exact Hx|rewrite Ne; lia]). apply X; [lia|exact Hk].
  - intros k Hk. rewrite Hv' by (apply cell_join; [rewrite Pi; exact Hx|rewrite Ni; lia]). apply X; [lia|exact Hk].
  - intros k Hk. rewrite Hw' by (apply cell_join; [exact Hx|rewrite Nf; lia]). apply X; [lia|exact Hk].
Qed.
Print Assumptions C96_gem.

(** two_fluid_brio_wu, up to the number of particles and the magnetic field it starts
    with. *)
Theorem C96_two_fluid_brio_wu : forall mx e i f fuel n (m : mgr R) L u v w x N, let M := [mx] in let p := brio_wu_plasma in
  program_ready m M L [e; i; f] fuel ->
  List.length (id_comps (f_0 e)) = 5%nat -> List.length (id_comps (f_0 i)) = 5%nat -> List.length (id_comps (f_0 f)) = 6%nat ->
  bs_points (id_basis (f_0 e)) = bs_points (id_basis (f_0 f)) -> bs_points (id_basis (f_0 i)) = bs_points (id_basis (f_0 f)) ->
  field_get L (f_0 e) = Some u -> field_get L (f_0 i) = Some v -> field_get L (f_0 f) = Some w ->
  in_box (M ++ [(0, bs_points (id_basis (f_0 f)))]) x -> let r := 6 * Z.of_nat n in fst mx + r <= nth 0 x 0 < snd mx - r ->
  uniform_near r 5 u x -> uniform_near r 5 v x -> uniform_near r 6 w x ->
  u (x ++ [0]) = (N / 10)%R -> v (x ++ [0]) = (N)%R -> (0 < N <= 1)%R -> (square w x 3 <= 25 / 16)%R ->
  let R := run (plasma_step true fuel p (brio_wu_bcs e i f) e i f) brio_wu_dt n m in
  exists u' v' w', ends R M (f_0 e) u' /\ ends R M (f_0 i) v' /\ ends R M (f_0 f) w' /\
    (Rabs (plasma_energy (/ 1000000) u' v' w' x - plasma_energy (/ 1000000) u v w x) <= INR n * (31 / 10000) * motion2 (/ 1000000) u v w x /\
    Rabs (heat u' v' x - heat u v x) <= INR n * (36 / 10000) * motion2 (/ 1000000) u v w x)%R.
Proof.
  intros mx e i f fuel n m L u v w x N M p HR Ne Ni Nf Pe Pi Hu Hv Hw Hx r Hi Uu Uv Uw Du Dv HN HB R.
  assert (PP : p = two_fluids 2 10 (/ 1000000) (-1) (/ 10) 1 1).
  { unfold p. rewrite brio_wu_fluids. f_equal; cbn; unfold Rdecimal; cbn; try field; lra. }
  assert (D : brio_wu_dt = (/ 10000)%R) by (unfold brio_wu_dt; cbn; unfold Rdecimal; cbn; field).
  assert (MP : (0 <= motion2 (/ 1000000) u v w x)%R).
  { unfold motion2. assert (Q : forall (a : field RbaseSymbolsImpl.R) j, (0 <= square a x j)%R) by (intros; unfold square; repeat apply Rplus_le_le_0_compat; apply pow2_ge_0).
    rewrite Du, Dv. unfold Rdiv. repeat apply Rplus_le_le_0_compat; apply Rmult_le_pos; try apply Q; try (left; apply Rinv_0_lt_compat); lra. }
  destruct (C96_brio_wu 2 10 (/ 1000000) (-1) (/ 10) 1 1 mx e i f fuel brio_wu_dt n m L u v w x (25 / 2) 3317 HR Ne Ni Nf Pe Pi Hu Hv Hw Hx Hi Uu Uv Uw) as (u' & v' & w' & E1 & E2 & E3 & E4 & E5 & E6); rewrite ?Du, ?Dv, ?D; try lra.
  unfold R. rewrite PP. exists u', v', w'. do 3 (split; [assumption|]). rewrite D in E4, E5, E6. set (M0 := motion2 (/ 1000000) u v w x) in *.
  assert (NM : (0 <= INR n * M0)%R) by (apply Rmult_le_pos; [apply pos_INR|exact MP]). split; [lra|apply Rabs_le; split; lra].
Qed.
Print Assumptions C96_two_fluid_brio_wu.

(** ** cases

    One step of a tenth: of 13/2 at most 4/625 is lost or gained, and 6 of it was heat. *)
Lemma bent_energy : forall eps0 re ri b x, plasma_energy eps0 (resting re) (resting ri) (bent b) x = (6 + eps0 / 2)%R /\ heat (resting re) (resting ri) x = 6%R.
Proof.
  intros. unfold plasma_energy, heat. rewrite (proj2 (bent_square b x)). unfold square, resting. rewrite !last_last. cbn [Z.add Pos.add Pos.succ Z.eqb Pos.eqb].
  change (@f0 R RArith) with 0%R. change (@fofz R RArith 3) with 3%R. unfold Rdiv. split; ring.
Qed.
Example C96_brio_wu_ex : let p := two_fluids 2 10 1 (-1) (/ 2) 1 1 in let R := run (plasma_step true 4999 p (brio_wu_bcs electrons ions em) electrons ions em) (/ 10)%R 1 (gyro_line 1 2 (/ 2)) in
  exists u' v' w', ends R [(0, 16)] (f_0 electrons) u' /\ ends R [(0, 16)] (f_0 ions) v' /\ ends R [(0, 16)] (f_0 em) w' /\
    (Rabs (u' [8; 0; 4]%Z + v' [8; 0; 4]%Z + / 2 * (w' [8; 0; 0]%Z ^ 2 + w' [8; 0; 1]%Z ^ 2 + w' [8; 0; 2]%Z ^ 2) - 13 / 2) <= 4 / 625 /\ 6 - 4 / 625 <= heat u' v' [8; 0]%Z <= 6 + 5 / 625)%R.
Proof.
  intros p R. destruct (C96_brio_wu 2 10 1 (-1) (/ 2) 1 1 (0, 16) electrons ions em 4999 (/ 10) 1 (gyro_line 1 2 (/ 2)) (gyro_fields 1 2 (/ 2)) (resting 1%R) (resting 2%R) (bent (/ 2)) [8; 0] 1 3 (gyro_line_ready 1 2 (/ 2)) eq_refl eq_refl eq_refl eq_refl eq_refl eq_refl eq_refl eq_refl) as (u' & v' & w' & E1 & E2 & E3 & E).
  { repeat (constructor; [cbn; lia|]). constructor. }
  { cbn. lia. }
  { intros t i _ _. reflexivity. }
  { intros t i _ _. reflexivity. }
  { intros t i _ _. reflexivity. }
  { lra. }
  { lra. }
  { lra. }
  { lra. }
  { rewrite density_at. lra. }
  { rewrite density_at. lra. }
  { lra. }
  { lra. }
  { rewrite (proj1 (bent_square _ _)). lra. }
  { rewrite (proj1 (bent_square _ _)). lra. }
  { rewrite !density_at. lra. }
  { lra. }
  exists u', v', w'. do 3 (split; [assumption|]). rewrite bent_motion, (proj1 (bent_energy _ _ _ _ _)), (proj2 (bent_energy 1 _ _ (/ 2) _)) in E. cbn [INR] in E.
  destruct E as [E5 [E6 E7]]. split; [|split; lra]. unfold plasma_energy, square in E5. cbn [app Z.add Pos.add Pos.succ] in E5.
  match goal with |- (Rabs ?a <= _)%R => match type of E5 with (Rabs ?b <= _)%R => replace a with b by lra end end. lra.
Qed.

Example C96_gem_ex : let p := two_fluids 2 10 1 (-1) (/ 2) 1 1 in let R := run (plasma_step true 4999 p (gem_bcs electrons ions em) electrons ions em) (/ 10)%R 1 (gyro_plane 1 2 (/ 2)) in
  exists u' v' w', ends R swing_plane (f_0 electrons) u' /\ ends R swing_plane (f_0 ions) v' /\ ends R swing_plane (f_0 em) w' /\
    (Rabs (u' [8; 7; 0; 4]%Z + v' [8; 7; 0; 4]%Z + / 2 * (w' [8; 7; 0; 0]%Z ^ 2 + w' [8; 7; 0; 1]%Z ^ 2 + w' [8; 7; 0; 2]%Z ^ 2) - 13 / 2) <= 4 / 625 /\ 6 - 4 / 625 <= heat u' v' [8; 7; 0]%Z <= 6 + 5 / 625)%R.
Proof.
  intros p R. destruct (C96_gem 2 10 1 (-1) (/ 2) 1 1 (0, 16) (0, 16) electrons ions em 4999 (/ 10) 1 (gyro_plane 1 2 (/ 2)) (gyro_fields 1 2 (/ 2)) (resting 1%R) (resting 2%R) (bent (/ 2)) [8; 7; 0] 1 3 (gyro_plane_ready 1 2 (/ 2)) eq_refl eq_refl eq_refl eq_refl eq_refl eq_refl eq_refl eq_refl) as (u' & v' & w' & E1 & E2 & E3 & E).
  { repeat (constructor; [cbn; lia|]). constructor. }
  { cbn. lia. }
  { cbn. lia. }
  { intros s t i _ _ _. reflexivity. }
  { intros s t i _ _ _. reflexivity. }
  { intros s t i _ _ _. reflexivity. }
  { lra. }
  { lra. }
  { lra. }
  { lra. }
  { rewrite density_at. lra. }
  { rewrite density_at. lra. }
  { lra. }
  { lra. }
  { rewrite (proj1 (bent_square _ _)). lra. }
  { rewrite (proj1 (bent_square _ _)). lra. }
  { rewrite !density_at. lra. }
  { lra. }
  exists u', v', w'. do 3 (split; [assumption|]). rewrite bent_motion, (proj1 (bent_energy _ _ _ _ _)), (proj2 (bent_energy 1 _ _ (/ 2) _)) in E. cbn [INR] in E.
  destruct E as [E5 [E6 E7]]. split; [|split; lra]. unfold plasma_energy, square in E5. cbn [app Z.add Pos.add Pos.succ] in E5.
  match goal with |- (Rabs ?a <= _)%R => match type of E5 with (Rabs ?b <= _)%R => replace a with b by lra end end. lra.
Qed.

Example C96_two_fluid_brio_wu_ex : let R := run (plasma_step true 4999 brio_wu_plasma (brio_wu_bcs electrons ions em) electrons ions em) brio_wu_dt 1 (gyro_line (1 / 10) 1 (3 / 4)) in
  exists u' v' w', ends R [(0, 16)] (f_0 electrons) u' /\ ends R [(0, 16)] (f_0 ions) v' /\ ends R [(0, 16)] (f_0 em) w' /\ (Rabs (heat u' v' [8; 0]%Z - 6) <= / 10 ^ 8)%R.
Proof.
  intros R. destruct (C96_two_fluid_brio_wu (0, 16) electrons ions em 4999 1 (gyro_line (1 / 10) (1) (3 / 4)) (gyro_fields (1 / 10) (1) (3 / 4)) (resting (1 / 10)%R) (resting (1)%R) (bent (3 / 4)) [8; 0] (1)%R (gyro_line_ready (1 / 10) (1) (3 / 4)) eq_refl eq_refl eq_refl eq_refl eq_refl eq_refl eq_refl eq_refl) as (u' & v' & w' & E1 & E2 & E3 & _ & E).
  { repeat (constructor; [cbn; lia|]). constructor. }
  { cbn. lia. }
  { intros t i _ _. reflexivity. }
  { intros t i _ _. reflexivity. }
  { intros t i _ _. reflexivity. }
  { rewrite density_at. first [reflexivity|lra]. }
  { rewrite density_at. first [reflexivity|lra]. }
  { lra. }
  { rewrite (proj1 (bent_square _ _)). lra. }
  exists u', v', w'. do 3 (split; [assumption|]). rewrite bent_motion, (proj2 (bent_energy 1 _ _ (3 / 4) _)) in E. cbn [INR] in E. eapply Rle_trans; [exact E|lra].
Qed.
