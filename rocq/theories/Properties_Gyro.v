(** * Energy of motion of a uniform plasma in a magnetic field (C95). *)
From Coq Require Import ZArith List String Bool Reals Lra Lia Psatz.
From Verif Require Import Base BaseFacts BoxSpec BoxFacts Interface EulerSpec PhysicsSpec PhysicsFacts Properties_Physics NumFacts Range RangeSpec RangeFacts ApiSpec Arith ArithR Chunk FieldSpec VarId Manager MgrSpec MgrFacts
  BC BCSpec BCFacts Sweep SweepSpec Euler Maxwell Sources SourceSpec ParFacts SweepFacts FluxFacts Programs ProgramsSpec ConserveFacts RhsFacts Properties_Programs
  SymmetrySpec SymmetryFacts Properties_Symmetry Properties_Chunk Properties_Monopole AxesFacts PositiveSpec PositiveFacts Properties_Positive AccuracyGas AccuracySpec AccuracyFacts GaussSpec GaussFacts OscillationSpec OscillationFacts Properties_Gauss Initial Main
  Properties_Oscillation SwingSpec SwingFacts Properties_Swing GyroSpec GyroFacts.
Import ListNotations.
Open Scope Z_scope.

(** The solver objects of two fluids with charges [q0] and [q1] and masses [m0] and [m1]
    of their particles (two_fluid_brio_wu.cpp:154-292, harris_current_sheet.cpp:210-348 and
    gem_challenge.cpp:208-346 make them with different numbers). *)
Definition two_fluids (gamma c eps0 q0 m0 q1 m1 : R) : plasma := mkPlasma gamma c (lorentz_setup q0 m0) (lorentz_setup q1 m1) (multipliers eps0 [q0; q1] [m0; m1]).
Lemma sheet_fluids : sheet_plasma = two_fluids sheet_gamma si_c si_eps0 (- si_e)%F si_me si_e sheet_mi.
Proof. reflexivity. Qed.
Lemma brio_wu_fluids : brio_wu_plasma = two_fluids 2 10 (fdec 1 (-6)) (- f1)%F (fdec 1 (-1)) f1 f1.
Proof. reflexivity. Qed.
Lemma fluids_values : forall gamma c eps0 q0 m0 q1 m1, let p := two_fluids gamma c eps0 q0 m0 q1 m1 in eps0 <> 0%R -> m0 <> 0%R -> m1 <> 0%R ->
  pl_e p = (q0 / m0)%R /\ pl_i p = (q1 / m1)%R /\ nth 0 (pl_ms p) 0%R = (- (q0 / (m0 * eps0)))%R /\ nth 1 (pl_ms p) 0%R = (- (q1 / (m1 * eps0)))%R.
Proof.
  intros gamma c eps0 q0 m0 q1 m1 p H0 H1 H2. unfold p, two_fluids. cbn [pl_e pl_i pl_ms]. unfold multipliers, lorentz_setup. cbn [map combine fold_left nth app fadd fsub fmul fdiv fneg RArith].
  split; [reflexivity|]. split; [reflexivity|]. split; field; auto.
Qed.

Lemma energy_ip : forall eps0 (u v w : field R) x (T : nat -> Z -> R), (0 < eps0)%R -> (0 < u (x ++ [0]%Z))%R -> (0 < v (x ++ [0]%Z))%R ->
  (forall k, 0 <= k < 5 -> u (x ++ [k]) = T 0%nat k) -> (forall k, 0 <= k < 5 -> v (x ++ [k]) = T 1%nat k) -> (forall k, 0 <= k < 6 -> w (x ++ [k]) = T 2%nat k) ->
  motion2 eps0 u v w x = (eps0 * ip (/ (eps0 * u (x ++ [0]%Z))) (/ (eps0 * v (x ++ [0]%Z))) T T)%R.
Proof.
  intros eps0 u v w x T P0 P1 P2 HU HV HW. unfold motion2, square, ip, sum3. cbn [Z.add Pos.add Pos.succ]. rewrite <- !HU, <- !HV, <- !HW by lia. field. lra.
Qed.

(** From the steps of the cell to the energy. *)
Lemma energy_steps : forall gamma c eps0 q0 m0 q1 m1 dt n (u v w u' v' w' : field R) x oc op, let p := two_fluids gamma c eps0 q0 m0 q1 m1 in
  let S0 := fun (a : nat) (k : Z) => three u v w a (x ++ [k]) in let T := Nat.iter n (still_rk3 p dt) S0 in
  (0 < eps0)%R -> (0 < m0)%R -> (0 < m1)%R -> (0 < u (x ++ [0]%Z))%R -> (0 < v (x ++ [0]%Z))%R -> (0 < oc)%R -> (0 < op)%R ->
  ((q0 / m0) ^ 2 * square w x 3 <= oc ^ 2)%R -> ((q1 / m1) ^ 2 * square w x 3 <= oc ^ 2)%R ->
  (((q0 / m0) ^ 2 * u (x ++ [0]%Z) + (q1 / m1) ^ 2 * v (x ++ [0]%Z)) / eps0 <= op ^ 2)%R ->
  let z := ((oc + op) * dt)%R in (z ^ 2 <= 3)%R ->
  (forall k, 0 <= k < 5 -> u' (x ++ [k]) = T 0%nat k) -> (forall k, 0 <= k < 5 -> v' (x ++ [k]) = T 1%nat k) -> (forall k, 0 <= k < 6 -> w' (x ++ [k]) = T 2%nat k) ->
  same_densities u v u' v' x /\ same_magnet w w' x /\ ((1 - z ^ 4 / 12) ^ n * motion2 eps0 u v w x <= motion2 eps0 u' v' w' x <= motion2 eps0 u v w x)%R.
Proof.
  intros gamma c eps0 q0 m0 q1 m1 dt n u v w u' v' w' x oc op p S0 T PE PM0 PM1 PU PV OC OP HC0 HC1 HP z Hz XU XV XW.
  destruct (fluids_values gamma c eps0 q0 m0 q1 m1) as (V1 & V2 & V3 & V4); [lra|lra|lra|]. fold p in V1, V2, V3, V4.
  set (re := u (x ++ [0])) in *. set (ri := v (x ++ [0])) in *.
  assert (K0 : (0 < / (eps0 * re))%R) by (apply Rinv_0_lt_compat, Rmult_lt_0_compat; assumption). assert (K1 : (0 < / (eps0 * ri))%R) by (apply Rinv_0_lt_compat, Rmult_lt_0_compat; assumption).
  destruct (spin_iter p (/ (eps0 * re)) (/ (eps0 * ri)) oc op dt S0 n) as [(D0 & D1 & D2) E]; [lra|lra|exact OC|exact OP|..|exact Hz|].
  - rewrite V3, V1. change (S0 0%nat 0) with re. field. lra.
  - rewrite V4, V2. change (S0 1%nat 0) with ri. field. lra.
  - rewrite V1. exact HC0.
  - rewrite V2. exact HC1.
  - rewrite V1, V2. change (S0 0%nat 0) with re. change (S0 1%nat 0) with ri. eapply Rle_trans; [|exact HP]. right. field. lra.
  - fold T in D0, D1, D2, E. fold z in E. change (S0 0%nat 0) with re in D0. change (S0 1%nat 0) with ri in D1.
    assert (EU : u' (x ++ [0]) = re) by (rewrite XU by lia; exact D0). assert (EV : v' (x ++ [0]) = ri) by (rewrite XV by lia; exact D1).
    split; [split; assumption|]. split; [intros j Hj; rewrite XW by lia; exact (D2 j Hj)|].
    rewrite (energy_ip eps0 u v w x S0); auto. rewrite (energy_ip eps0 u' v' w' x T); auto; [|rewrite EU; exact PU|rewrite EV; exact PV]. rewrite EU, EV. fold re ri. destruct E as [E1 E2]. split.
    + apply (Rmult_le_compat_l eps0) in E1; [|lra]. lra.
    + apply (Rmult_le_compat_l eps0) in E2; [|lra]. lra.
Qed.

(** ** C95

    Two fluids of charged particles in an electric and a magnetic field. If all cells
    that can influence the cell [x] in [n] steps have the same fluids and the same
    fields, densities and magnetic field of the cell stay, and the energy of the flow and
    of the electric field never grows, and shrinks by at most a factor 1 - z^4/12 in each
    step. [oc] bounds the cyclotron frequencies and [op] the plasma frequency; z is their
    sum times the time step. *)
Theorem C95_brio_wu : forall gamma c eps0 q0 m0 q1 m1 mx e i f fuel dt n (m : mgr R) L u v w x oc op, let M := [mx] in let p := two_fluids gamma c eps0 q0 m0 q1 m1 in
  program_ready m M L [e; i; f] fuel ->
  List.length (id_comps (f_0 e)) = 5%nat -> List.length (id_comps (f_0 i)) = 5%nat -> List.length (id_comps (f_0 f)) = 6%nat ->
  bs_points (id_basis (f_0 e)) = bs_points (id_basis (f_0 f)) -> bs_points (id_basis (f_0 i)) = bs_points (id_basis (f_0 f)) ->
  field_get L (f_0 e) = Some u -> field_get L (f_0 i) = Some v -> field_get L (f_0 f) = Some w ->
  in_box (M ++ [(0, bs_points (id_basis (f_0 f)))]) x -> let r := 6 * Z.of_nat n in fst mx + r <= nth 0 x 0 < snd mx - r ->
  uniform_near r 5 u x -> uniform_near r 5 v x -> uniform_near r 6 w x ->
  (0 < eps0)%R -> (0 < m0)%R -> (0 < m1)%R -> (0 < u (x ++ [0]%Z))%R -> (0 < v (x ++ [0]%Z))%R -> (0 < oc)%R -> (0 < op)%R ->
  ((q0 / m0) ^ 2 * square w x 3 <= oc ^ 2)%R -> ((q1 / m1) ^ 2 * square w x 3 <= oc ^ 2)%R ->
  (((q0 / m0) ^ 2 * u (x ++ [0]%Z) + (q1 / m1) ^ 2 * v (x ++ [0]%Z)) / eps0 <= op ^ 2)%R ->
  let z := ((oc + op) * dt)%R in (z ^ 2 <= 3)%R ->
  let R := run (plasma_step true fuel p (brio_wu_bcs e i f) e i f) dt n m in
  exists u' v' w', ends R M (f_0 e) u' /\ ends R M (f_0 i) v' /\ ends R M (f_0 f) w' /\
    same_densities u v u' v' x /\ same_magnet w w' x /\ ((1 - z ^ 4 / 12) ^ n * motion2 eps0 u v w x <= motion2 eps0 u' v' w' x <= motion2 eps0 u v w x)%R.
Proof.
  intros gamma c eps0 q0 m0 q1 m1 mx e i f fuel dt n m L u v w x oc op M p HR Ne Ni Nf Pe Pi Hu Hv Hw Hx r Hi Uu Uv Uw PE PM0 PM1 PU PV OC OP HC0 HC1 HP z Hz R.
  assert (Hms : List.length (pl_ms p) = 2%nat) by reflexivity.
  destruct (C57_brio_wu _ _ p mx e i f fuel dt n m L u v w HR Ne Ni Nf Pe Pi Hms Hu Hv Hw) as (m2 & L1 & E1 & (S1 & _) & _ & _ & _ & V1 & _).
  destruct (V1 0%nat (f_0 e) eq_refl) as (u' & Gu & Hu'). destruct (V1 1%nat (f_0 i) eq_refl) as (v' & Gv & Hv'). destruct (V1 2%nat (f_0 f) eq_refl) as (w' & Gw & Hw').
  exists u', v', w'. do 3 (split; [exists m2, L1; auto|]). fold M in Hu', Hv', Hw'. set (Op := plasma_op _ _ _ _ _ _ _ _) in *.
  assert (LX : (0 < List.length x)%nat). { apply Forall2_length in Hx. rewrite app_length in Hx. cbn in Hx. lia. }
  pose (S0 := fun (a : nat) (k : Z) => three u v w a (x ++ [k])).
  assert (LV : forall t, (t <= n)%nat -> level (Nat.iter t (still_rk3 p dt) S0) (6 * Z.of_nat (n - t)) (Nat.iter t (rk3 Op dt) (three u v w)) x).
  { induction t as [|t IH]; intros Ht.
    - rewrite Nat.sub_0_r. intros s a k Hs Ha Hk. unfold Nat.iter, S0. destruct a as [|[|[|a]]]; [apply Uu|apply Uv|apply Uw|lia]; assumption.
    - specialize (IH ltac:(lia)). change (Nat.iter (S t) (rk3 Op dt) (three u v w)) with (rk3 Op dt (Nat.iter t (rk3 Op dt) (three u v w))).
      change (Nat.iter (S t) (still_rk3 p dt) S0) with (still_rk3 p dt (Nat.iter t (still_rk3 p dt) S0)).
      apply level_rk3; auto; [lia| |replace (6 * Z.of_nat (n - S t) + 6) with (6 * Z.of_nat (n - t)) by lia; exact IH].
      unfold lo, hi, M. destruct mx as [l h]. cbn [fst snd nth] in Hi |- *. unfold r in Hi. lia. }
  specialize (LV n ltac:(lia)). rewrite Nat.sub_diag in LV.
  assert (X : forall a k, (a < 3)%nat -> 0 <= k < comps_of a -> Nat.iter n (rk3 Op dt) (three u v w) a (x ++ [k]) = Nat.iter n (still_rk3 p dt) S0 a k).
  { intros a k Ha Hk. rewrite <- (move_0 0 x LX) at 1. apply LV; [lia|exact Ha|exact Hk]. }
  apply (energy_steps gamma c eps0 q0 m0 q1 m1 dt n u v w u' v' w' x oc op PE PM0 PM1 PU PV OC OP HC0 HC1 HP Hz).
  - intros k Hk. rewrite Hu' by (apply cell_join; [rewrite Pe; exact Hx|rewrite Ne; lia]). apply X; [lia|exact Hk].
  - intros k Hk. rewrite Hv' by (apply cell_join; [rewrite Pi; exact Hx|rewrite Ni; lia]). apply X; [lia|exact Hk].
  - intros k Hk. rewrite Hw' by (apply cell_join; [exact Hx|rewrite Nf; lia]). apply X; [lia|exact Hk].
Qed.
Print Assumptions C95_brio_wu.

Theorem C95_gem : forall gamma c eps0 q0 m0 q1 m1 mx my e i f fuel dt n (m : mgr R) L u v w x oc op, let M := [mx; my] in let p := two_fluids gamma c eps0 q0 m0 q1 m1 in
  program_ready m M L [e; i; f] fuel ->
  List.length (id_comps (f_0 e)) = 5%nat -> List.length (id_comps (f_0 i)) = 5%nat -> List.length (id_comps (f_0 f)) = 6%nat ->
  bs_points (id_basis (f_0 e)) = bs_points (id_basis (f_0 f)) -> bs_points (id_basis (f_0 i)) = bs_points (id_basis (f_0 f)) ->
  field_get L (f_0 e) = Some u -> field_get L (f_0 i) = Some v -> field_get L (f_0 f) = Some w ->
  in_box (M ++ [(0, bs_points (id_basis (f_0 f)))]) x -> let r := 6 * Z.of_nat n in fst mx + r <= nth 0 x 0 < snd mx - r -> fst my + r <= nth 1 x 0 < snd my - r ->
  uniform_around r 5 u x -> uniform_around r 5 v x -> uniform_around r 6 w x ->
  (0 < eps0)%R -> (0 < m0)%R -> (0 < m1)%R -> (0 < u (x ++ [0]%Z))%R -> (0 < v (x ++ [0]%Z))%R -> (0 < oc)%R -> (0 < op)%R ->
  ((q0 / m0) ^ 2 * square w x 3 <= oc ^ 2)%R -> ((q1 / m1) ^ 2 * square w x 3 <= oc ^ 2)%R ->
  (((q0 / m0) ^ 2 * u (x ++ [0]%Z) + (q1 / m1) ^ 2 * v (x ++ [0]%Z)) / eps0 <= op ^ 2)%R ->
  let z := ((oc + op) * dt)%R in (z ^ 2 <= 3)%R ->
  let R := run (plasma_step true fuel p (gem_bcs e i f) e i f) dt n m in
  exists u' v' w', ends R M (f_0 e) u' /\ ends R M (f_0 i) v' /\ ends R M (f_0 f) w' /\
    same_densities u v u' v' x /\ same_magnet w w' x /\ ((1 - z ^ 4 / 12) ^ n * motion2 eps0 u v w x <= motion2 eps0 u' v' w' x <= motion2 eps0 u v w x)%R.
Proof.
  intros gamma c eps0 q0 m0 q1 m1 mx my e i f fuel dt n m L u v w x oc op M p HR Ne Ni Nf Pe Pi Hu Hv Hw Hx r Hi0 Hi1 Uu Uv Uw PE PM0 PM1 PU PV OC OP HC0 HC1 HP z Hz R.
  assert (Hms : List.length (pl_ms p) = 2%nat) by reflexivity.
  destruct (C57_gem _ _ p mx my e i f fuel dt n m L u v w HR Ne Ni Nf Pe Pi Hms Hu Hv Hw) as (m2 & L1 & E1 & (S1 & _) & _ & _ & _ & V1 & _).
  destruct (V1 0%nat (f_0 e) eq_refl) as (u' & Gu & Hu'). destruct (V1 1%nat (f_0 i) eq_refl) as (v' & Gv & Hv'). destruct (V1 2%nat (f_0 f) eq_refl) as (w' & Gw & Hw').
  exists u', v', w'. do 3 (split; [exists m2, L1; auto|]). fold M in Hu', Hv', Hw'. set (Op := plasma_op _ _ _ _ _ _ _ _) in *.
  assert (LX : (1 < List.length x)%nat). { apply Forall2_length in Hx. rewrite app_length in Hx. cbn in Hx. lia. }
  pose (S0 := fun (a : nat) (k : Z) => three u v w a (x ++ [k])).
  assert (LV : forall t, (t <= n)%nat -> level2 (Nat.iter t (still_rk3 p dt) S0) (6 * Z.of_nat (n - t)) (Nat.iter t (rk3 Op dt) (three u v w)) x).
  { induction t as [|t IH]; intros Ht.
    - rewrite Nat.sub_0_r. intros s q a k Hs Hq Ha Hk. unfold Nat.iter, S0. destruct a as [|[|[|a]]]; [apply Uu|apply Uv|apply Uw|lia]; assumption.
    - specialize (IH ltac:(lia)). change (Nat.iter (S t) (rk3 Op dt) (three u v w)) with (rk3 Op dt (Nat.iter t (rk3 Op dt) (three u v w))).
      change (Nat.iter (S t) (still_rk3 p dt) S0) with (still_rk3 p dt (Nat.iter t (still_rk3 p dt) S0)).
      apply level2_rk3; auto; [lia| | |replace (6 * Z.of_nat (n - S t) + 6) with (6 * Z.of_nat (n - t)) by lia; exact IH].
      + unfold lo, hi, M. destruct mx as [l h]. cbn [fst snd nth] in Hi0 |- *. unfold r in Hi0. lia.
      + unfold lo, hi, M. destruct my as [l h]. cbn [fst snd nth] in Hi1 |- *. unfold r in Hi1. lia. }
  specialize (LV n ltac:(lia)). rewrite Nat.sub_diag in LV.
  assert (X : forall a k, (a < 3)%nat -> 0 <= k < comps_of a -> Nat.iter n (rk3 Op dt) (three u v w) a (x ++ [k]) = Nat.iter n (still_rk3 p dt) S0 a k).
  { intros a k Ha Hk. rewrite <- (move_0 1 x LX) at 1. rewrite <- (move_0 0 (move 1 0 x)) by (rewrite move_length; lia). apply LV; [lia|lia|exact Ha|exact Hk]. }
  apply (energy_steps gamma c eps0 q0 m0 q1 m1 dt n u v w u' v' w' x oc op PE PM0 PM1 PU PV OC OP HC0 HC1 HP Hz).
  - intros k Hk. rewrite Hu' by (apply cell_join; [rewrite Pe; exact Hx|rewrite Ne; lia]). apply X; [lia|exact Hk].
  - intros k Hk. rewrite Hv' by (apply cell_join; [rewrite Pi; exact Hx|rewrite Ni; lia]). apply X; [lia|exact Hk].
  - intros k Hk. rewrite Hw' by (apply cell_join; [exact Hx|rewrite Nf; lia]). apply X; [lia|exact Hk].
Qed.
Print Assumptions C95_gem.

(** ** the constants of the programs *)
Lemma sheet_si : sheet_plasma = two_fluids sheet_gamma c0 eps0 (- qe) me qe (25 * me).
Proof.
  destruct si_values as (V1 & V2 & V3 & V4 & V5). assert (EM : @sheet_mi R RArith = (25 * me)%R) by (unfold sheet_mi; rewrite V2; reflexivity).
  rewrite sheet_fluids, V1, V2, V3, V5, EM. reflexivity.
Qed.

(** two_fluid_brio_wu: up to 20 times as many particles as it starts with, in magnetic
    fields up to 100. *)
Theorem C95_two_fluid_brio_wu : forall mx e i f fuel n (m : mgr R) L u v w x N, let M := [mx] in let p := brio_wu_plasma in
  program_ready m M L [e; i; f] fuel ->
  List.length (id_comps (f_0 e)) = 5%nat -> List.length (id_comps (f_0 i)) = 5%nat -> List.length (id_comps (f_0 f)) = 6%nat ->
  bs_points (id_basis (f_0 e)) = bs_points (id_basis (f_0 f)) -> bs_points (id_basis (f_0 i)) = bs_points (id_basis (f_0 f)) ->
  field_get L (f_0 e) = Some u -> field_get L (f_0 i) = Some v -> field_get L (f_0 f) = Some w ->
  in_box (M ++ [(0, bs_points (id_basis (f_0 f)))]) x -> let r := 6 * Z.of_nat n in fst mx + r <= nth 0 x 0 < snd mx - r ->
  uniform_near r 5 u x -> uniform_near r 5 v x -> uniform_near r 6 w x ->
  u (x ++ [0]) = (N / 10)%R -> v (x ++ [0]) = (N)%R -> (0 < N <= 20)%R -> (square w x 3 <= 100 ^ 2)%R ->
  let R := run (plasma_step true fuel p (brio_wu_bcs e i f) e i f) brio_wu_dt n m in
  exists u' v' w', ends R M (f_0 e) u' /\ ends R M (f_0 i) v' /\ ends R M (f_0 f) w' /\
    same_densities u v u' v' x /\ same_magnet w w' x /\ (motion2 (/ 1000000) u' v' w' x <= motion2 (/ 1000000) u v w x)%R.
Proof.
  intros mx e i f fuel n m L u v w x N M p HR Ne Ni Nf Pe Pi Hu Hv Hw Hx r Hi Uu Uv Uw Du Dv HN HB R.
  assert (PP : p = two_fluids 2 10 (/ 1000000) (-1) (/ 10) 1 1).
  { unfold p. rewrite brio_wu_fluids. f_equal; cbn; unfold Rdecimal; cbn; try field; lra. }
  assert (D : brio_wu_dt = (/ 10000)%R) by (unfold brio_wu_dt; cbn; unfold Rdecimal; cbn; field).
  destruct (C95_brio_wu 2 10 (/ 1000000) (-1) (/ 10) 1 1 mx e i f fuel brio_wu_dt n m L u v w x 1000 15000 HR Ne Ni Nf Pe Pi Hu Hv Hw Hx Hi Uu Uv Uw) as (u' & v' & w' & E1 & E2 & E3 & E4 & E5 & E6 & E7); rewrite ?Du, ?Dv, ?D; try lra.
  unfold R. rewrite PP. exists u', v', w'. repeat (split; [assumption|]). assumption.
Qed.
Print Assumptions C95_two_fluid_brio_wu.

(** harris_current_sheet: up to 7*10^18 particles of each kind per cubic metre, 8 thousand
    times as many as in the middle of the sheet, in magnetic fields up to a tenth of a
    tesla, 40 times the field of the sheet. *)
Theorem C95_harris_current_sheet : forall mx e i f fuel n (m : mgr R) L u v w x N, let M := [mx] in let p := sheet_plasma in
  program_ready m M L [e; i; f] fuel ->
  List.length (id_comps (f_0 e)) = 5%nat -> List.length (id_comps (f_0 i)) = 5%nat -> List.length (id_comps (f_0 f)) = 6%nat ->
  bs_points (id_basis (f_0 e)) = bs_points (id_basis (f_0 f)) -> bs_points (id_basis (f_0 i)) = bs_points (id_basis (f_0 f)) ->
  field_get L (f_0 e) = Some u -> field_get L (f_0 i) = Some v -> field_get L (f_0 f) = Some w ->
  in_box (M ++ [(0, bs_points (id_basis (f_0 f)))]) x -> let r := 6 * Z.of_nat n in fst mx + r <= nth 0 x 0 < snd mx - r ->
  uniform_near r 5 u x -> uniform_near r 5 v x -> uniform_near r 6 w x ->
  u (x ++ [0]) = (me * N)%R -> v (x ++ [0]) = (25 * me * N)%R -> (0 < N <= 7 * 10 ^ 18)%R -> (square w x 3 <= / 100)%R ->
  let R := run (plasma_step true fuel p (brio_wu_bcs e i f) e i f) harris_dt n m in
  exists u' v' w', ends R M (f_0 e) u' /\ ends R M (f_0 i) v' /\ ends R M (f_0 f) w' /\
    same_densities u v u' v' x /\ same_magnet w w' x /\ (motion2 eps0 u' v' w' x <= motion2 eps0 u v w x)%R.
Proof.
  intros mx e i f fuel n m L u v w x N M p HR Ne Ni Nf Pe Pi Hu Hv Hw Hx r Hi Uu Uv Uw Du Dv HN HB R.
  destruct consts_pos as (P1 & P2 & P3 & P4 & P5).
  assert (Q0 : ((- qe / me) ^ 2 = qe ^ 2 / me ^ 2)%R) by (field; lra). assert (Q1 : ((qe / (25 * me)) ^ 2 = qe ^ 2 / (625 * me ^ 2))%R) by (field; lra).
  assert (C0 : (0 < qe ^ 2 / me ^ 2 <= 31 * 10 ^ 21)%R) by (unfold qe, me; lra).
  assert (C1 : (0 < qe ^ 2 / (625 * me ^ 2) <= 31 * 10 ^ 21)%R) by (unfold qe, me; lra).
  assert (SQ : (0 <= square w x 3)%R) by (unfold square; pose proof (pow2_ge_0 (w (x ++ [3]))); pose proof (pow2_ge_0 (w (x ++ [3 + 1]))); pose proof (pow2_ge_0 (w (x ++ [3 + 2]))); lra).
  assert (PP := sheet_si). fold p in PP.
  destruct (C95_brio_wu sheet_gamma c0 eps0 (- qe) me qe (25 * me) mx e i f fuel harris_dt n m L u v w x (2 * 10 ^ 10) (16 * 10 ^ 10) HR Ne Ni Nf Pe Pi Hu Hv Hw Hx Hi Uu Uv Uw) as (u' & v' & w' & E1 & E2 & E3 & E4 & E5 & E6 & E7); rewrite ?Q0, ?Q1; try lra.
  - rewrite Du. apply Rmult_lt_0_compat; lra.
  - rewrite Dv. apply Rmult_lt_0_compat; lra.
  - apply Rle_trans with (31 * 10 ^ 21 * / 100)%R; [apply Rmult_le_compat; lra|lra].
  - apply Rle_trans with (31 * 10 ^ 21 * / 100)%R; [apply Rmult_le_compat; lra|lra].
  - rewrite Du, Dv. replace ((qe ^ 2 / me ^ 2 * (me * N) + qe ^ 2 / (625 * me ^ 2) * (25 * me * N)) / eps0)%R with (26 * (qe ^ 2 / (25 * me * eps0)) * N)%R by (field; lra).
    apply Rle_trans with (26 * (qe ^ 2 / (25 * me * eps0)) * (7 * 10 ^ 18))%R; [apply Rmult_le_compat_l; [unfold qe, me, eps0; lra|lra]|unfold qe, me, eps0; lra].
  - rewrite Rpow_mult_distr, harris_dt2. unfold mu0, eps0, c0. lra.
  - unfold R. rewrite PP. exists u', v', w'. repeat (split; [assumption|]). assumption.
Qed.
Print Assumptions C95_harris_current_sheet.

(** gem_challenge: the same with up to 7*10^17 particles. *)
Theorem C95_gem_challenge : forall mx my e i f fuel n (m : mgr R) L u v w x N, let M := [mx; my] in let p := sheet_plasma in
  program_ready m M L [e; i; f] fuel ->
  List.length (id_comps (f_0 e)) = 5%nat -> List.length (id_comps (f_0 i)) = 5%nat -> List.length (id_comps (f_0 f)) = 6%nat ->
  bs_points (id_basis (f_0 e)) = bs_points (id_basis (f_0 f)) -> bs_points (id_basis (f_0 i)) = bs_points (id_basis (f_0 f)) ->
  field_get L (f_0 e) = Some u -> field_get L (f_0 i) = Some v -> field_get L (f_0 f) = Some w ->
  in_box (M ++ [(0, bs_points (id_basis (f_0 f)))]) x -> let r := 6 * Z.of_nat n in fst mx + r <= nth 0 x 0 < snd mx - r -> fst my + r <= nth 1 x 0 < snd my - r ->
  uniform_around r 5 u x -> uniform_around r 5 v x -> uniform_around r 6 w x ->
  u (x ++ [0]) = (me * N)%R -> v (x ++ [0]) = (25 * me * N)%R -> (0 < N <= 7 * 10 ^ 17)%R -> (square w x 3 <= / 100)%R ->
  let R := run (plasma_step true fuel p (gem_bcs e i f) e i f) gem_dt n m in
  exists u' v' w', ends R M (f_0 e) u' /\ ends R M (f_0 i) v' /\ ends R M (f_0 f) w' /\
    same_densities u v u' v' x /\ same_magnet w w' x /\ (motion2 eps0 u' v' w' x <= motion2 eps0 u v w x)%R.
Proof.
  intros mx my e i f fuel n m L u v w x N M p HR Ne Ni Nf Pe Pi Hu Hv Hw Hx r Hi0 Hi1 Uu Uv Uw Du Dv HN HB R.
  destruct consts_pos as (P1 & P2 & P3 & P4 & P5).
  assert (Q0 : ((- qe / me) ^ 2 = qe ^ 2 / me ^ 2)%R) by (field; lra). assert (Q1 : ((qe / (25 * me)) ^ 2 = qe ^ 2 / (625 * me ^ 2))%R) by (field; lra).
  assert (C0 : (0 < qe ^ 2 / me ^ 2 <= 31 * 10 ^ 21)%R) by (unfold qe, me; lra).
  assert (C1 : (0 < qe ^ 2 / (625 * me ^ 2) <= 31 * 10 ^ 21)%R) by (unfold qe, me; lra).
  assert (SQ : (0 <= square w x 3)%R) by (unfold square; pose proof (pow2_ge_0 (w (x ++ [3]))); pose proof (pow2_ge_0 (w (x ++ [3 + 1]))); pose proof (pow2_ge_0 (w (x ++ [3 + 2]))); lra).
  assert (PP := sheet_si). fold p in PP.
  destruct (C95_gem sheet_gamma c0 eps0 (- qe) me qe (25 * me) mx my e i f fuel gem_dt n m L u v w x (2 * 10 ^ 10) (5 * 10 ^ 10) HR Ne Ni Nf Pe Pi Hu Hv Hw Hx Hi0 Hi1 Uu Uv Uw) as (u' & v' & w' & E1 & E2 & E3 & E4 & E5 & E6 & E7); rewrite ?Q0, ?Q1; try lra.
  - rewrite Du. apply Rmult_lt_0_compat; lra.
  - rewrite Dv. apply Rmult_lt_0_compat; lra.
  - apply Rle_trans with (31 * 10 ^ 21 * / 100)%R; [apply Rmult_le_compat; lra|lra].
  - apply Rle_trans with (31 * 10 ^ 21 * / 100)%R; [apply Rmult_le_compat; lra|lra].
  - rewrite Du, Dv. replace ((qe ^ 2 / me ^ 2 * (me * N) + qe ^ 2 / (625 * me ^ 2) * (25 * me * N)) / eps0)%R with (26 * (qe ^ 2 / (25 * me * eps0)) * N)%R by (field; lra).
    apply Rle_trans with (26 * (qe ^ 2 / (25 * me * eps0)) * (7 * 10 ^ 17))%R; [apply Rmult_le_compat_l; [unfold qe, me, eps0; lra|lra]|unfold qe, me, eps0; lra].
  - rewrite Rpow_mult_distr, gem_dt2. unfold mu0, eps0, c0. lra.
  - unfold R. rewrite PP. exists u', v', w'. repeat (split; [assumption|]). assumption.
Qed.
Print Assumptions C95_gem_challenge.

(** ** cases

    Fluids at rest in an electric field of strength 1 along the line and a magnetic field
    [b] across it. *)
Definition bent (b : R) : field R := fun c => if last c 0 =? 0 then 1%R else if last c 0 =? 5 then b else 0%R.
Definition gyro_fields (re ri b : R) : list (vid * field R) := [(f_0 electrons, resting re); (f_0 ions, resting ri); (f_0 em, bent b)].
Definition gyro_line (re ri b : R) : mgr R := mgr_of fine_grid [(0, 16)] (gyro_fields re ri b) None None.
Definition gyro_plane (re ri b : R) : mgr R := mgr_of (mkGrid (range_of swing_plane) [0%R; 0%R] [1%R; 1%R] [(/ 16)%R; (/ 16)%R]) swing_plane (gyro_fields re ri b) None None.
Lemma gyro_line_ready : forall re ri b, program_ready (gyro_line re ri b) [(0, 16)] (gyro_fields re ri b) [electrons; ions; em] 4999.
Proof. intros. is_ready. Qed.
Lemma gyro_plane_ready : forall re ri b, program_ready (gyro_plane re ri b) swing_plane (gyro_fields re ri b) [electrons; ions; em] 4999.
Proof. intros. is_ready. Qed.
Lemma bent_square : forall b x, square (bent b) x 3 = (b ^ 2)%R /\ square (bent b) x 0 = 1%R.
Proof. intros. unfold square, bent. rewrite !last_last. cbn [Z.add Pos.add Pos.succ Z.eqb Pos.eqb]. split; ring. Qed.
Lemma bent_motion : forall eps0 re ri b x, motion2 eps0 (resting re) (resting ri) (bent b) x = eps0.
Proof.
  intros. unfold motion2. rewrite (proj2 (bent_square b x)). unfold square, resting. rewrite !last_last. cbn [Z.add Pos.add Pos.succ Z.eqb Pos.eqb].
  change (@f0 R RArith) with 0%R. unfold Rdiv. ring.
Qed.
Lemma density_at : forall re x, resting re (x ++ [0]) = re.
Proof. intros. unfold resting. rewrite last_last. reflexivity. Qed.
Lemma electric_below : forall eps0 (u v w u' v' : field R) x, (0 < eps0)%R -> (0 < u (x ++ [0]%Z))%R -> (0 < v (x ++ [0]%Z))%R -> same_densities u v u' v' x -> (motion2 eps0 u' v' w x <= eps0)%R -> (square w x 0 <= 1)%R.
Proof.
  intros eps0 u v w u' v' x P PU PV [DU DV] H. unfold motion2 in H. rewrite DU, DV in H.
  assert (Q : forall (a : field R) j, (0 <= square a x j)%R) by (intros; unfold square; repeat apply Rplus_le_le_0_compat; apply pow2_ge_0).
  assert (0 <= square u' x 1 / u (x ++ [0]%Z))%R by (apply Rmult_le_pos; [apply Q|left; now apply Rinv_0_lt_compat]).
  assert (0 <= square v' x 1 / v (x ++ [0]%Z))%R by (apply Rmult_le_pos; [apply Q|left; now apply Rinv_0_lt_compat]).
  apply Rmult_le_reg_l with eps0; [exact P|]. lra.
Qed.

(** One step of a tenth: of the energy at most one part in 400 is lost. *)
Example C95_brio_wu_ex : let p := two_fluids 2 10 1 (-1) (/ 2) 1 1 in let R := run (plasma_step true 4999 p (brio_wu_bcs electrons ions em) electrons ions em) (/ 10)%R 1 (gyro_line 1 2 (/ 2)) in
  exists u' v' w', ends R [(0, 16)] (f_0 electrons) u' /\ ends R [(0, 16)] (f_0 ions) v' /\ ends R [(0, 16)] (f_0 em) w' /\
    (399 / 400 <= (u' [8; 0; 1]%Z ^ 2 + u' [8; 0; 2]%Z ^ 2 + u' [8; 0; 3]%Z ^ 2) / 1 + (v' [8; 0; 1]%Z ^ 2 + v' [8; 0; 2]%Z ^ 2 + v' [8; 0; 3]%Z ^ 2) / 2 + 1 * (w' [8; 0; 0]%Z ^ 2 + w' [8; 0; 1]%Z ^ 2 + w' [8; 0; 2]%Z ^ 2) <= 1)%R.
Proof.
  intros p R. destruct (C95_brio_wu 2 10 1 (-1) (/ 2) 1 1 (0, 16) electrons ions em 4999 (/ 10) 1 (gyro_line 1 2 (/ 2)) (gyro_fields 1 2 (/ 2)) (resting 1%R) (resting 2%R) (bent (/ 2)) [8; 0] 1 3 (gyro_line_ready 1 2 (/ 2)) eq_refl eq_refl eq_refl eq_refl eq_refl eq_refl eq_refl eq_refl) as (u' & v' & w' & E1 & E2 & E3 & [D0 D1] & _ & E).
  { repeat (constructor; [cbn; lia|]). constructor. }
  { cbn. lia. }
  { intros t i _ _. reflexivity. }
  { intros t i _ _. reflexivity. }
  { intros t i _ _. reflexivity. }
  { lra. }
  { lra. }
  { lra. }
  { rewrite density_at. lra. }
  { rewrite density_at. lra. }
  { lra. }
  { lra. }
  { rewrite (proj1 (bent_square _ _)). lra. }
  { rewrite (proj1 (bent_square _ _)). lra. }
  { rewrite !density_at. lra. }
  { lra. }
  exists u', v', w'. do 3 (split; [assumption|]). rewrite bent_motion in E. unfold motion2 in E. rewrite D0, D1, !density_at, pow_1 in E.
  destruct E as [E5 E6]. unfold square in E5, E6. cbn [app Z.add Pos.add Pos.succ] in E5, E6. split; [|exact E6]. eapply Rle_trans; [|exact E5]. lra.
Qed.

(** One step of a tenth: of the energy at most one part in 400 is lost. *)
Example C95_gem_ex : let p := two_fluids 2 10 1 (-1) (/ 2) 1 1 in let R := run (plasma_step true 4999 p (gem_bcs electrons ions em) electrons ions em) (/ 10)%R 1 (gyro_plane 1 2 (/ 2)) in
  exists u' v' w', ends R swing_plane (f_0 electrons) u' /\ ends R swing_plane (f_0 ions) v' /\ ends R swing_plane (f_0 em) w' /\
    (399 / 400 <= (u' [8; 7; 0; 1]%Z ^ 2 + u' [8; 7; 0; 2]%Z ^ 2 + u' [8; 7; 0; 3]%Z ^ 2) / 1 + (v' [8; 7; 0; 1]%Z ^ 2 + v' [8; 7; 0; 2]%Z ^ 2 + v' [8; 7; 0; 3]%Z ^ 2) / 2 + 1 * (w' [8; 7; 0; 0]%Z ^ 2 + w' [8; 7; 0; 1]%Z ^ 2 + w' [8; 7; 0; 2]%Z ^ 2) <= 1)%R.
Proof.
  intros p R. destruct (C95_gem 2 10 1 (-1) (/ 2) 1 1 (0, 16) (0, 16) electrons ions em 4999 (/ 10) 1 (gyro_plane 1 2 (/ 2)) (gyro_fields 1 2 (/ 2)) (resting 1%R) (resting 2%R) (bent (/ 2)) [8; 7; 0] 1 3 (gyro_plane_ready 1 2 (/ 2)) eq_refl eq_refl eq_refl eq_refl eq_refl eq_refl eq_refl eq_refl) as (u' & v' & w' & E1 & E2 & E3 & [D0 D1] & _ & E).
  { repeat (constructor; [cbn; lia|]). constructor. }
  { cbn. lia. }
  { cbn. lia. }
  { intros s t i _ _ _. reflexivity. }
  { intros s t i _ _ _. reflexivity. }
  { intros s t i _ _ _. reflexivity. }
  { lra. }
  { lra. }
  { lra. }
  { rewrite density_at. lra. }
  { rewrite density_at. lra. }
  { lra. }
  { lra. }
  { rewrite (proj1 (bent_square _ _)). lra. }
  { rewrite (proj1 (bent_square _ _)). lra. }
  { rewrite !density_at. lra. }
  { lra. }
  exists u', v', w'. do 3 (split; [assumption|]). rewrite bent_motion in E. unfold motion2 in E. rewrite D0, D1, !density_at, pow_1 in E.
  destruct E as [E5 E6]. unfold square in E5, E6. cbn [app Z.add Pos.add Pos.succ] in E5, E6. split; [|exact E6]. eapply Rle_trans; [|exact E5]. lra.
Qed.

(** The constants of the programs: one particle per volume, and 10^15 of them. *)
Example C95_two_fluid_brio_wu_ex : let R := run (plasma_step true 4999 brio_wu_plasma (brio_wu_bcs electrons ions em) electrons ions em) brio_wu_dt 1 (gyro_line (1 / 10) (1) (3 / 4)) in
  exists u' v' w', ends R [(0, 16)] (f_0 electrons) u' /\ ends R [(0, 16)] (f_0 ions) v' /\ ends R [(0, 16)] (f_0 em) w' /\ (w' [8; 0; 0]%Z ^ 2 + w' [8; 0; 1]%Z ^ 2 + w' [8; 0; 2]%Z ^ 2 <= 1)%R.
Proof.
  intros R. destruct (C95_two_fluid_brio_wu (0, 16) electrons ions em 4999 1 (gyro_line (1 / 10) (1) (3 / 4)) (gyro_fields (1 / 10) (1) (3 / 4)) (resting (1 / 10)%R) (resting (1)%R) (bent (3 / 4)) [8; 0] (1)%R (gyro_line_ready (1 / 10) (1) (3 / 4)) eq_refl eq_refl eq_refl eq_refl eq_refl eq_refl eq_refl eq_refl) as (u' & v' & w' & E1 & E2 & E3 & D & _ & E).
  { repeat (constructor; [cbn; lia|]). constructor. }
  { cbn. lia. }
  { intros t i _ _. reflexivity. }
  { intros t i _ _. reflexivity. }
  { intros t i _ _. reflexivity. }
  { rewrite density_at. first [reflexivity|lra]. }
  { rewrite density_at. first [reflexivity|lra]. }
  { lra. }
  { rewrite (proj1 (bent_square _ _)). lra. }
  exists u', v', w'. do 3 (split; [assumption|]). rewrite bent_motion in E. apply (electric_below (/ 1000000) _ _ w' _ _ [8; 0]) in D; [exact D|unfold eps0; lra|rewrite density_at; unfold me; lra|rewrite density_at; unfold me; lra|exact E].
Qed.
Example C95_harris_current_sheet_ex : let R := run (plasma_step true 4999 sheet_plasma (brio_wu_bcs electrons ions em) electrons ions em) harris_dt 1 (gyro_line (me * 10 ^ 15) (25 * me * 10 ^ 15) (/ 1000)) in
  exists u' v' w', ends R [(0, 16)] (f_0 electrons) u' /\ ends R [(0, 16)] (f_0 ions) v' /\ ends R [(0, 16)] (f_0 em) w' /\ (w' [8; 0; 0]%Z ^ 2 + w' [8; 0; 1]%Z ^ 2 + w' [8; 0; 2]%Z ^ 2 <= 1)%R.
Proof.
  intros R. destruct (C95_harris_current_sheet (0, 16) electrons ions em 4999 1 (gyro_line (me * 10 ^ 15) (25 * me * 10 ^ 15) (/ 1000)) (gyro_fields (me * 10 ^ 15) (25 * me * 10 ^ 15) (/ 1000)) (resting (me * 10 ^ 15)%R) (resting (25 * me * 10 ^ 15)%R) (bent (/ 1000)) [8; 0] (10 ^ 15)%R (gyro_line_ready (me * 10 ^ 15) (25 * me * 10 ^ 15) (/ 1000)) eq_refl eq_refl eq_refl eq_refl eq_refl eq_refl eq_refl eq_refl) as (u' & v' & w' & E1 & E2 & E3 & D & _ & E).
  { repeat (constructor; [cbn; lia|]). constructor. }
  { cbn. lia. }
  { intros t i _ _. reflexivity. }
  { intros t i _ _. reflexivity. }
  { intros t i _ _. reflexivity. }
  { rewrite density_at. first [reflexivity|lra]. }
  { rewrite density_at. first [reflexivity|lra]. }
  { lra. }
  { rewrite (proj1 (bent_square _ _)). lra. }
  exists u', v', w'. do 3 (split; [assumption|]). rewrite bent_motion in E. apply (electric_below eps0 _ _ w' _ _ [8; 0]) in D; [exact D|unfold eps0; lra|rewrite density_at; unfold me; lra|rewrite density_at; unfold me; lra|exact E].
Qed.
Example C95_gem_challenge_ex : let R := run (plasma_step true 4999 sheet_plasma (gem_bcs electrons ions em) electrons ions em) gem_dt 1 (gyro_plane (me * 10 ^ 15) (25 * me * 10 ^ 15) (/ 1000)) in
  exists u' v' w', ends R swing_plane (f_0 electrons) u' /\ ends R swing_plane (f_0 ions) v' /\ ends R swing_plane (f_0 em) w' /\ (w' [8; 7; 0; 0]%Z ^ 2 + w' [8; 7; 0; 1]%Z ^ 2 + w' [8; 7; 0; 2]%Z ^ 2 <= 1)%R.
Proof.
  intros R. destruct (C95_gem_challenge (0, 16) (0, 16) electrons ions em 4999 1 (gyro_plane (me * 10 ^ 15) (25 * me * 10 ^ 15) (/ 1000)) (gyro_fields (me * 10 ^ 15) (25 * me * 10 ^ 15) (/ 1000)) (resting (me * 10 ^ 15)%R) (resting (25 * me * 10 ^ 15)%R) (bent (/ 1000)) [8; 7; 0] (10 ^ 15)%R (gyro_plane_ready (me * 10 ^ 15) (25 * me * 10 ^ 15) (/ 1000)) eq_refl eq_refl eq_refl eq_refl eq_refl eq_refl eq_refl eq_refl) as (u' & v' & w' & E1 & E2 & E3 & D & _ & E).
  { repeat (constructor; [cbn; lia|]). constructor. }
  { cbn. lia. }
  { cbn. lia. }
  { intros s t i _ _ _. reflexivity. }
  { intros s t i _ _ _. reflexivity. }
  { intros s t i _ _ _. reflexivity. }
  { rewrite density_at. first [reflexivity|lra]. }
  { rewrite density_at. first [reflexivity|lra]. }
  { lra. }
  { rewrite (proj1 (bent_square _ _)). lra. }
  exists u', v', w'. do 3 (split; [assumption|]). rewrite bent_motion in E. apply (electric_below eps0 _ _ w' _ _ [8; 7; 0]) in D; [exact D|unfold eps0; lra|rewrite density_at; unfold me; lra|rewrite density_at; unfold me; lra|exact E].
Qed.
