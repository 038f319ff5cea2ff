(** * The steps of a uniform plasma follow the equations of motion (C97). *)
From Coq Require Import ZArith List String Bool Reals Lra Lia Psatz.
From Verif Require Import Base BaseFacts BoxSpec BoxFacts Interface EulerSpec PhysicsSpec PhysicsFacts Properties_Physics NumFacts Range RangeSpec RangeFacts ApiSpec Arith ArithR Chunk FieldSpec VarId Manager MgrSpec MgrFacts
  BC BCSpec BCFacts Sweep SweepSpec Euler Maxwell Sources SourceSpec ParFacts SweepFacts FluxFacts Programs ProgramsSpec ConserveFacts RhsFacts Properties_Programs
  SymmetrySpec SymmetryFacts Properties_Symmetry Properties_Chunk Properties_Monopole AxesFacts PositiveSpec PositiveFacts Properties_Positive AccuracyGas AccuracySpec AccuracyFacts GaussSpec GaussFacts OscillationSpec OscillationFacts Properties_Gauss Initial Main
  Properties_Oscillation SwingSpec SwingFacts Properties_Swing GyroSpec GyroFacts Properties_Gyro FlowSpec FlowFacts SeriesFacts.
Import ListNotations.
Open Scope Z_scope.

Lemma product_at : forall a b, vector_product a b 0 = (a 1%Z * b 2%Z - a 2%Z * b 1%Z)%R /\ vector_product a b 1 = (a 2%Z * b 0%Z - a 0%Z * b 2%Z)%R /\ vector_product a b 2 = (a 0%Z * b 1%Z - a 1%Z * b 0%Z)%R.
Proof. intros. repeat split; reflexivity. Qed.

(** From the steps of the cell to the difference. *)
Lemma flow_steps : forall gamma c eps0 q0 m0 q1 m1 dt n (u v w u' v' w' : field R) x oc op (fu fv fw : R -> Z -> R), let p := two_fluids gamma c eps0 q0 m0 q1 m1 in
  let S0 := fun (a : nat) (k : Z) => three u v w a (x ++ [k]) in let T := Nat.iter n (still_rk3 p dt) S0 in
  (0 < eps0)%R -> (0 <= dt)%R -> (0 < m0)%R -> (0 < m1)%R -> (0 < u (x ++ [0]%Z))%R -> (0 < v (x ++ [0]%Z))%R -> (0 < oc)%R -> (0 < op)%R ->
  ((q0 / m0) ^ 2 * square w x 3 <= oc ^ 2)%R -> ((q1 / m1) ^ 2 * square w x 3 <= oc ^ 2)%R ->
  (((q0 / m0) ^ 2 * u (x ++ [0]%Z) + (q1 / m1) ^ 2 * v (x ++ [0]%Z)) / eps0 <= op ^ 2)%R ->
  let z := ((oc + op) * dt)%R in (z ^ 2 <= 3)%R ->
  exact_motion eps0 q0 m0 q1 m1 (u (x ++ [0]%Z)) (v (x ++ [0]%Z)) (fun j => w (x ++ [3 + j])) fu fv fw -> moves_as u v w x (fu 0%R) (fv 0%R) (fw 0%R) ->
  (forall k, 0 <= k < 5 -> u' (x ++ [k]) = T 0%nat k) -> (forall k, 0 <= k < 5 -> v' (x ++ [k]) = T 1%nat k) -> (forall k, 0 <= k < 6 -> w' (x ++ [k]) = T 2%nat k) ->
  same_densities u v u' v' x /\ (gap2 eps0 u' v' w' x (fu (INR n * dt)) (fv (INR n * dt)) (fw (INR n * dt)) <= (INR n * (z ^ 4 / 24)) ^ 2 * motion2 eps0 u v w x)%R.
Proof.
  intros gamma c eps0 q0 m0 q1 m1 dt n u v w u' v' w' x oc op fu fv fw p S0 T PE Hdt PM0 PM1 PU PV OC OP HC0 HC1 HP z Hz HX HS XU XV XW.
  destruct (energy_steps gamma c eps0 q0 m0 q1 m1 dt n u v w u' v' w' x oc op PE PM0 PM1 PU PV OC OP HC0 HC1 HP Hz XU XV XW) as ([DU DV] & _ & _). split; [split; assumption|].
  destruct (fluids_values gamma c eps0 q0 m0 q1 m1) as (V1 & V2 & V3 & V4); [lra|lra|lra|]. fold p in V1, V2, V3, V4.
  rewrite (energy_ip eps0 u v w x S0) by (auto; intros; reflexivity). unfold gap2. rewrite DU, DV.
  set (re := u (x ++ [0])) in *. set (ri := v (x ++ [0])) in *.
  assert (K0 : (0 < / (eps0 * re))%R) by (apply Rinv_0_lt_compat, Rmult_lt_0_compat; assumption). assert (K1 : (0 < / (eps0 * ri))%R) by (apply Rinv_0_lt_compat, Rmult_lt_0_compat; assumption).
  pose (Y := fun (t : R) (i : nat) (k : Z) => match i with 0%nat => fu t (k - 1) | 1%nat => fv t (k - 1) | _ => fw t k end).
  assert (HY : forall t, dvec Y t (spin_of p S0 (Y t))).
  { intros t. unfold spin_of. rewrite V1, V2, V3, V4. split.
    - intros i k Hi Hk. destruct (HX t (k - 1)) as (H1 & H2 & _); [lia|]. assert (i = 0 \/ i = 1)%nat as [->| ->] by lia; assert (k = 1 \/ k = 2 \/ k = 3) as [->|[->| ->]] by lia; (eapply d_eq; [first [exact H1|exact H2]|]);
        change (1 - 1) with 0; change (2 - 1) with 1; change (3 - 1) with 2;
        destruct (product_at (fu t) (fun j => w (x ++ [3 + j]))) as (P0 & P1 & P2); destruct (product_at (fv t) (fun j => w (x ++ [3 + j]))) as (Q0 & Q1 & Q2); rewrite ?P0, ?P1, ?P2, ?Q0, ?Q1, ?Q2;
        unfold spin, pull, turn, cross, Y, S0, three; cbn [Z.sub Z.add Z.opp Z.pos_sub Pos.pred_double Pos.add Pos.succ]; fold re ri; ring.
    - intros k Hk. destruct (HX t k) as (_ & _ & H3); [lia|]. eapply d_eq; [exact H3|]. unfold spin, pull, turn, Y. replace (k + 1 - 1) with k by lia. field. lra. }
  assert (Y0 : same S0 (Y 0%R)).
  { split.
    - intros i k Hi Hk. destruct (HS (k - 1)) as (H1 & H2 & _); [lia|]. replace (1 + (k - 1)) with k in H1, H2 by lia. assert (i = 0 \/ i = 1)%nat as [->| ->] by lia; assumption.
    - intros k Hk. destruct (HS k) as (_ & _ & H3); [lia|]. exact H3. }
  pose proof (motion_error p (/ (eps0 * re)) (/ (eps0 * ri)) oc op dt S0 n Y Hdt) as G. cbv zeta in G. fold T in G. fold z in G.
  assert (GE : (ip (/ (eps0 * re)) (/ (eps0 * ri)) (lin 1 (-1) T (Y (INR n * dt))) (lin 1 (-1) T (Y (INR n * dt))) <= (INR n * (z ^ 4 / 24)) ^ 2 * ip (/ (eps0 * re)) (/ (eps0 * ri)) S0 S0)%R).
  { apply G; try assumption; try lra.
    - rewrite V3, V1. change (S0 0%nat 0) with re. field. lra.
    - rewrite V4, V2. change (S0 1%nat 0) with ri. field. lra.
    - rewrite V1, V2. change (S0 0%nat 0) with re. change (S0 1%nat 0) with ri. eapply Rle_trans; [|exact HP]. right. field. lra. }
  apply (Rmult_le_compat_l eps0) in GE; [|lra]. eapply Rle_trans; [|eapply Rle_trans; [exact GE|]]; [|right; ring]. right.
  unfold ip, sum3, lin, Y. cbn [Z.add Z.sub Z.opp Z.pos_sub Pos.add Pos.succ Pos.pred_double]. rewrite !XU, !XV, !XW by lia. field. lra.
Qed.

(** ** C97

    In the cell [x] of C95, any exact solution [fu], [fv], [fw] of the equations of motion
    with the momenta and the electric field of the cell at the start is followed by the
    program: after [n] steps the difference, measured by the energy it would have, is at
    most that of the motion times the square of n z^4/24. For a given time that is the
    inverse of the third power of the number of steps. *)
Theorem C97_brio_wu : forall gamma c eps0 q0 m0 q1 m1 mx e i f fuel dt n (m : mgr R) L u v w x oc op (fu fv fw : R -> Z -> R), let M := [mx] in let p := two_fluids gamma c eps0 q0 m0 q1 m1 in
  program_ready m M L [e; i; f] fuel ->
  List.length (id_comps (f_0 e)) = 5%nat -> List.length (id_comps (f_0 i)) = 5%nat -> List.length (id_comps (f_0 f)) = 6%nat ->
  bs_points (id_basis (f_0 e)) = bs_points (id_basis (f_0 f)) -> bs_points (id_basis (f_0 i)) = bs_points (id_basis (f_0 f)) ->
  field_get L (f_0 e) = Some u -> field_get L (f_0 i) = Some v -> field_get L (f_0 f) = Some w ->
  in_box (M ++ [(0, bs_points (id_basis (f_0 f)))]) x -> let r := 6 * Z.of_nat n in fst mx + r <= nth 0 x 0 < snd mx - r ->
  uniform_near r 5 u x -> uniform_near r 5 v x -> uniform_near r 6 w x ->
  (0 < eps0)%R -> (0 <= dt)%R -> (0 < m0)%R -> (0 < m1)%R -> (0 < u (x ++ [0]%Z))%R -> (0 < v (x ++ [0]%Z))%R -> (0 < oc)%R -> (0 < op)%R ->
  ((q0 / m0) ^ 2 * square w x 3 <= oc ^ 2)%R -> ((q1 / m1) ^ 2 * square w x 3 <= oc ^ 2)%R ->
  (((q0 / m0) ^ 2 * u (x ++ [0]%Z) + (q1 / m1) ^ 2 * v (x ++ [0]%Z)) / eps0 <= op ^ 2)%R ->
  let z := ((oc + op) * dt)%R in (z ^ 2 <= 3)%R ->
  exact_motion eps0 q0 m0 q1 m1 (u (x ++ [0]%Z)) (v (x ++ [0]%Z)) (fun j => w (x ++ [3 + j])) fu fv fw -> moves_as u v w x (fu 0%R) (fv 0%R) (fw 0%R) ->
  let R := run (plasma_step true fuel p (brio_wu_bcs e i f) e i f) dt n m in
  exists u' v' w', ends R M (f_0 e) u' /\ ends R M (f_0 i) v' /\ ends R M (f_0 f) w' /\
    same_densities u v u' v' x /\ (gap2 eps0 u' v' w' x (fu (INR n * dt)) (fv (INR n * dt)) (fw (INR n * dt)) <= (INR n * (z ^ 4 / 24)) ^ 2 * motion2 eps0 u v w x)%R.
Proof.
  intros gamma c eps0 q0 m0 q1 m1 mx e i f fuel dt n m L u v w x oc op fu fv fw M p HR Ne Ni Nf Pe Pi Hu Hv Hw Hx r Hi Uu Uv Uw PE Hdt PM0 PM1 PU PV OC OP HC0 HC1 HP z Hz HX HS R.
  assert (Hms : List.length (pl_ms p) = 2%nat) by reflexivity.
  destruct (C57_brio_wu _ _ p mx e i f fuel dt n m L u v w HR Ne Ni Nf Pe Pi Hms Hu Hv Hw) as (m2 & L1 & E1 & (S1 & _) & _ & _ & _ & V1 & _).
  destruct (V1 0%nat (f_0 e) eq_refl) as (u' & Gu & Hu'). destruct (V1 1%nat (f_0 i) eq_refl) as (v' & Gv & Hv'). destruct (V1 2%nat (f_0 f) eq_refl) as (w' & Gw & Hw').
  exists u', v', w'. do 3 (split; [exists m2, L1; auto|]). fold M in Hu', Hv', Hw'. set (Op := plasma_op _ _ _ _ _ _ _ _) in *.
  assert (LX : (0 < List.length x)%nat). { apply Forall2_length in Hx. rewrite app_length in Hx. cbn in Hx. lia. }
  pose (S0 := fun (a : nat) (k : Z) => three u v w a (x ++ [k])).
  assert (LV : forall t, (t <= n)%nat -> level (Nat.iter t (still_rk3 p dt) S0) (6 * Z.of_nat (n - t)) (Nat.iter t (rk3 Op dt) (three u v w)) x).
  { induction t as [|t IH]; intros Ht.
    - rewrite Nat.sub_0_r. intros s a k Hs Ha Hk. unfold Nat.iter, S0. destruct a as [|[|[|a]]]; [apply Uu|apply Uv|apply Uw|lia]; assumption.
    - specialize (IH ltac:(lia)). change (Nat.iter (S t) (rk3 Op dt) (three u v w)) with (rk3 Op dt (Nat.iter t (rk3 Op dt) (three u v w))).
      change (Nat.iter (S t) (still_rk3 p dt) S0) with (still_rk3 p dt (Nat.iter t (still_rk3 p dt) S0)).
      apply level_rk3; auto; [lia| |replace (6 * Z.of_nat (n - S t) + 6) with (6 * Z.of_nat (n - t)) by lia; exact IH].
      unfold lo, hi, M. destruct mx as [l h]. cbn [fst snd nth] in Hi |- *. unfold r in Hi. lia. }
  specialize (LV n ltac:(lia)). rewrite Nat.sub_diag in LV.
  assert (X : forall a k, (a < 3)%nat -> 0 <= k < comps_of a -> Nat.iter n (rk3 Op dt) (three u v w) a (x ++ [k]) = Nat.iter n (still_rk3 p dt) S0 a k).
  { intros a k Ha Hk. rewrite <- (move_0 0 x LX) at 1. apply LV; [lia|exact Ha|exact Hk]. }
  apply (flow_steps gamma c eps0 q0 m0 q1 m1 dt n u v w u' v' w' x oc op fu fv fw PE Hdt PM0 PM1 PU PV OC OP HC0 HC1 HP Hz HX HS).
  - intros k Hk. rewrite Hu' by (apply cell_join; [rewrite Pe; exact Hx|rewrite Ne; lia]). apply X; [lia|exact Hk].
  - intros k Hk. rewrite Hv' by (apply cell_join; [rewrite Pi; exact Hx|rewrite Ni; lia]). apply X; [lia|exact Hk].
  - intros k Hk. rewrite Hw' by (apply cell_join; [exact Hx|rewrite Nf; lia]). apply X; [lia|exact Hk].
Qed.
Print Assumptions C97_brio_wu.

Theorem C97_gem : forall gamma c eps0 q0 m0 q1 m1 mx my e i f fuel dt n (m : mgr R) L u v w x oc op (fu fv fw : R -> Z -> R), let M := [mx; my] in let p := two_fluids gamma c eps0 q0 m0 q1 m1 in
  program_ready m M L [e; i; f] fuel ->
  List.length (id_comps (f_0 e)) = 5%nat -> List.length (id_comps (f_0 i)) = 5%nat -> List.length (id_comps (f_0 f)) = 6%nat ->
  bs_points (id_basis (f_0 e)) = bs_points (id_basis (f_0 f)) -> bs_points (id_basis (f_0 i)) = bs_points (id_basis (f_0 f)) ->
  field_get L (f_0 e) = Some u -> field_get L (f_0 i) = Some v -> field_get L (f_0 f) = Some w ->
  in_box (M ++ [(0, bs_points (id_basis (f_0 f)))]) x -> let r := 6 * Z.of_nat n in fst mx + r <= nth 0 x 0 < snd mx - r -> fst my + r <= nth 1 x 0 < snd my - r ->
  uniform_around r 5 u x -> uniform_around r 5 v x -> uniform_around r 6 w x ->
  (0 < eps0)%R -> (0 <= dt)%R -> (0 < m0)%R -> (0 < m1)%R -> (0 < u (x ++ [0]%Z))%R -> (0 < v (x ++ [0]%Z))%R -> (0 < oc)%R -> (0 < op)%R ->
  ((q0 / m0) ^ 2 * square w x 3 <= oc ^ 2)%R -> ((q1 / m1) ^ 2 * square w x 3 <= oc ^ 2)%R ->
  (((q0 / m0) ^ 2 * u (x ++ [0]%Z) + (q1 / m1) ^ 2 * v (x ++ [0]%Z)) / eps0 <= op ^ 2)%R ->
  let z := ((oc + op) * dt)%R in (z ^ 2 <= 3)%R ->
  exact_motion eps0 q0 m0 q1 m1 (u (x ++ [0]%Z)) (v (x ++ [0]%Z)) (fun j => w (x ++ [3 + j])) fu fv fw -> moves_as u v w x (fu 0%R) (fv 0%R) (fw 0%R) ->
  let R := run (plasma_step true fuel p (gem_bcs e i f) e i f) dt n m in
  exists u' v' w', ends R M (f_0 e) u' /\ ends R M (f_0 i) v' /\ ends R M (f_0 f) w' /\
    same_densities u v u' v' x /\ (gap2 eps0 u' v' w' x (fu (INR n * dt)) (fv (INR n * dt)) (fw (INR n * dt)) <= (INR n * (z ^ 4 / 24)) ^ 2 * motion2 eps0 u v w x)%R.
Proof.
  intros gamma c eps0 q0 m0 q1 m1 mx my e i f fuel dt n m L u v w x oc op fu fv fw M p HR Ne Ni Nf Pe Pi Hu Hv Hw Hx r Hi0 Hi1 Uu Uv Uw PE Hdt PM0 PM1 PU PV OC OP HC0 HC1 HP z Hz HX HS R.
  assert (Hms : List.length (pl_ms p) = 2%nat) by reflexivity.
  destruct (C57_gem _ _ p mx my e i f fuel dt n m L u v w HR Ne Ni Nf Pe Pi Hms Hu Hv Hw) as (m2 & L1 & E1 & (S1 & _) & _ & _ & _ & V1 & _).
  destruct (V1 0%nat (f_0 e) eq_refl) as (u' & Gu & Hu'). destruct (V1 1%nat (f_0 i) eq_refl) as (v' & Gv & Hv'). destruct (V1 2%nat (f_0 f) eq_refl) as (w' & Gw & Hw').
  exists u', v', w'. do 3 (split; [exists m2, L1; auto|]). fold M in Hu', Hv', Hw'. set (Op := plasma_op _ _ _ _ _ _ _ _) in *.
  assert (LX : (1 < List.length x)%nat). { apply Forall2_length in Hx. rewrite app_length in Hx. cbn in Hx. lia. }
  pose (S0 := fun (a : nat) (k : Z) => three u v w a (x ++ [k])).
  assert (LV : forall t, (t <= n)%nat -> level2 (Nat.iter t (still_rk3 p dt) S0) (6 * Z.of_nat (n - t)) (Nat.iter t (rk3 Op dt) (three u v w)) x).
  { induction t as [|t IH]; intros Ht.
    - rewrite Nat.sub_0_r. intros s q a k Hs Hq Ha Hk. unfold Nat.iter, S0. destruct a as [|[|[|a]]]; [apply Uu|apply Uv|apply Uw|lia]; assumption.
    - specialize (IH ltac:(lia)). change (Nat.iter (S t) (rk3 Op dt) (three u v w)) with (rk3 Op dt (Nat.iter t (rk3 Op dt) (three u v w))).
      change (Nat.iter (S t) (still_rk3 p dt) S0) with (still_rk3 p dt (Nat.iter t (still_rk3 p dt) S0)).
      apply level2_rk3; auto; [lia| | |replace (6 * Z.of_nat (n - S t) + 6) with (6 * Z.of_nat (n - t)) by lia; exact IH].
      + unfold lo, hi, M. destruct mx as [l h]. cbn [fst snd nth] in Hi0 |- *. unfold r in Hi0. lia.
      + unfold lo, hi, M. destruct my as [l h]. cbn [fst snd nth] in Hi1 |- *. unfold r in Hi1. lia. }
  specialize (LV n ltac:(lia)). rewrite Nat.sub_diag in LV.
  assert (X : forall a k, (a < 3)%nat -> 0 <= k < comps_of a -> Nat.iter n (rk3 Op dt) (three u v w) a (x ++ [k]) = Nat.iter n (still_rk3 p dt) S0 a k).
  { intros a k Ha Hk. rewrite <- (move_0 1 x LX) at 1. rewrite <- (move_0 0 (move 1 0 x)) by (rewrite move_length; lia). apply LV; [lia|lia|exact Ha|exact Hk]. }
  apply (flow_steps gamma c eps0 q0 m0 q1 m1 dt n u v w u' v' w' x oc op fu fv fw PE Hdt PM0 PM1 PU PV OC OP HC0 HC1 HP Hz HX HS).
  - intros k Hk. rewrite Hu' by (apply cell_join; [rewrite Pe; exact Hx|rewrite Ne; lia]). apply X; [lia|exact Hk].
  - intros k Hk. rewrite Hv' by (apply cell_join; [rewrite Pi; exact Hx|rewrite Ni; lia]). apply X; [lia|exact Hk].
  - intros k Hk. rewrite Hw' by (apply cell_join; [exact Hx|rewrite Nf; lia]). apply X; [lia|exact Hk].
Qed.
Print Assumptions C97_gem.

(** two_fluid_brio_wu, up to the number of particles and the magnetic field it starts
    with: its steps have the length 1/10000. *)
Theorem C97_two_fluid_brio_wu : forall mx e i f fuel n (m : mgr R) L u v w x N (fu fv fw : R -> Z -> R), let M := [mx] in let p := brio_wu_plasma in
  program_ready m M L [e; i; f] fuel ->
  List.length (id_comps (f_0 e)) = 5%nat -> List.length (id_comps (f_0 i)) = 5%nat -> List.length (id_comps (f_0 f)) = 6%nat ->
  bs_points (id_basis (f_0 e)) = bs_points (id_basis (f_0 f)) -> bs_points (id_basis (f_0 i)) = bs_points (id_basis (f_0 f)) ->
  field_get L (f_0 e) = Some u -> field_get L (f_0 i) = Some v -> field_get L (f_0 f) = Some w ->
  in_box (M ++ [(0, bs_points (id_basis (f_0 f)))]) x -> let r := 6 * Z.of_nat n in fst mx + r <= nth 0 x 0 < snd mx - r ->
  uniform_near r 5 u x -> uniform_near r 5 v x -> uniform_near r 6 w x ->
  u (x ++ [0]) = (N / 10)%R -> v (x ++ [0]) = (N)%R -> (0 < N <= 1)%R -> (square w x 3 <= 25 / 16)%R ->
  exact_motion (/ 1000000) (-1) (/ 10) 1 1 (N / 10) N (fun j => w (x ++ [3 + j])) fu fv fw -> moves_as u v w x (fu 0%R) (fv 0%R) (fw 0%R) ->
  let R := run (plasma_step true fuel p (brio_wu_bcs e i f) e i f) brio_wu_dt n m in
  exists u' v' w', ends R M (f_0 e) u' /\ ends R M (f_0 i) v' /\ ends R M (f_0 f) w' /\
    (gap2 (/ 1000000) u' v' w' x (fu (INR n / 10000)) (fv (INR n / 10000)) (fw (INR n / 10000)) <= (INR n * (52 / 100000)) ^ 2 * motion2 (/ 1000000) u v w x)%R.
Proof.
  intros mx e i f fuel n m L u v w x N fu fv fw M p HR Ne Ni Nf Pe Pi Hu Hv Hw Hx r Hi Uu Uv Uw Du Dv HN HB HX HS R.
  assert (PP : p = two_fluids 2 10 (/ 1000000) (-1) (/ 10) 1 1).
  { unfold p. rewrite brio_wu_fluids. f_equal; cbn; unfold Rdecimal; cbn; try field; lra. }
  assert (D : brio_wu_dt = (/ 10000)%R) by (unfold brio_wu_dt; cbn; unfold Rdecimal; cbn; field).
  assert (MP : (0 <= motion2 (/ 1000000) u v w x)%R).
  { unfold motion2. assert (Q : forall (a : field RbaseSymbolsImpl.R) j, (0 <= square a x j)%R) by (intros; unfold square; repeat apply Rplus_le_le_0_compat; apply pow2_ge_0).
    rewrite Du, Dv. unfold Rdiv. repeat apply Rplus_le_le_0_compat; apply Rmult_le_pos; try apply Q; try (left; apply Rinv_0_lt_compat); lra. }
  rewrite <- Du in HX at 1. rewrite <- Dv in HX.
  destruct (C97_brio_wu 2 10 (/ 1000000) (-1) (/ 10) 1 1 mx e i f fuel brio_wu_dt n m L u v w x (25 / 2) 3317 fu fv fw HR Ne Ni Nf Pe Pi Hu Hv Hw Hx Hi Uu Uv Uw) as (u' & v' & w' & E1 & E2 & E3 & E4 & E5); try (rewrite ?Du, ?Dv, ?D; lra); [exact HX|exact HS|].
  unfold R. rewrite PP. exists u', v', w'. do 3 (split; [assumption|]). rewrite D in E5. unfold Rdiv at 1 2 3. eapply Rle_trans; [exact E5|]. apply Rmult_le_compat_r; [exact MP|].
  pose proof (pos_INR n) as PN. apply pow_incr. split; [apply Rmult_le_pos; lra|]. apply Rmult_le_compat_l; lra.
Qed.
Print Assumptions C97_two_fluid_brio_wu.

(** There is such a solution for each start, and only one. *)
Definition as_vec (fu fv fw : R -> Z -> R) (t : R) (i : nat) (k : Z) : R := match i with 0%nat => fu t (k - 1) | 1%nat => fv t (k - 1) | _ => fw t k end.
Definition magnet (B : Z -> R) (k : Z) : R := B (k - 3).
Lemma motion_vec : forall eps0 q0 m0 q1 m1 rho0 rho1 B fu fv fw, 
  exact_motion eps0 q0 m0 q1 m1 rho0 rho1 B fu fv fw <-> forall t, dvec (as_vec fu fv fw) t (spin (q0 / m0) (q1 / m1) rho0 rho1 (- (q0 / m0) / eps0) (- (q1 / m1) / eps0) (magnet B) (as_vec fu fv fw t)).
Proof.
  intros eps0 q0 m0 q1 m1 rho0 rho1 B fu fv fw.
  assert (X : forall t j, 0 <= j < 3 -> let V := spin (q0 / m0) (q1 / m1) rho0 rho1 (- (q0 / m0) / eps0) (- (q1 / m1) / eps0) (magnet B) (as_vec fu fv fw t) in
    (V 0%nat (1 + j)%Z = q0 / m0 * (rho0 * fw t j + vector_product (fu t) B j) /\ V 1%nat (1 + j)%Z = q1 / m1 * (rho1 * fw t j + vector_product (fv t) B j) /\ V 2%nat j = - (q0 / m0 * fu t j + q1 / m1 * fv t j) / eps0)%R).
  { intros t j Hj V. destruct (product_at (fu t) B) as (P0 & P1 & P2). destruct (product_at (fv t) B) as (Q0 & Q1 & Q2).
    assert (j = 0 \/ j = 1 \/ j = 2) as [->|[->| ->]] by lia; rewrite ?P0, ?P1, ?P2, ?Q0, ?Q1, ?Q2; unfold V, spin, pull, turn, cross, magnet, as_vec; cbv [Z.sub Z.add Z.opp Z.pos_sub Z.double Z.succ_double Z.pred_double Pos.pred_double Pos.add Pos.succ Pos.add_carry]; unfold Rdiv; repeat split; ring. }
  split.
  - intros H t. split.
    + intros i k Hi Hk. destruct (H t (k - 1)) as (H1 & H2 & _); [lia|]. destruct (X t (k - 1)) as (X1 & X2 & _); [lia|]. replace (1 + (k - 1)) with k in X1, X2 by lia.
      assert (i = 0 \/ i = 1)%nat as [->| ->] by lia; [rewrite X1; exact H1|rewrite X2; exact H2].
    + intros k Hk. destruct (H t k) as (_ & _ & H3); [lia|]. destruct (X t k) as (_ & _ & X3); [lia|]. rewrite X3. exact H3.
  - intros H t j Hj. destruct (H t) as [H1 H2]. destruct (X t j Hj) as (X1 & X2 & X3). pose proof (H1 0%nat (1 + j) ltac:(lia) ltac:(lia)) as D0. pose proof (H1 1%nat (1 + j) ltac:(lia) ltac:(lia)) as D1. pose proof (H2 j ltac:(lia)) as D2.
    rewrite X1 in D0. rewrite X2 in D1. rewrite X3 in D2. unfold as_vec in D0, D1, D2. replace (1 + j - 1) with j in D0, D1 by lia. auto.
Qed.
Theorem C97_exists : forall eps0 q0 m0 q1 m1 rho0 rho1 (B p q E : Z -> R),
  exists fu fv fw, exact_motion eps0 q0 m0 q1 m1 rho0 rho1 B fu fv fw /\ forall j, 0 <= j < 3 -> fu 0%R j = p j /\ fv 0%R j = q j /\ fw 0%R j = E j.
Proof.
  intros eps0 q0 m0 q1 m1 rho0 rho1 B p q E.
  pose (u := fun (i : nat) (k : Z) => match i with 0%nat => p (k - 1) | 1%nat => q (k - 1) | _ => E k end).
  destruct (flow_exists (q0 / m0) (q1 / m1) rho0 rho1 (- (q0 / m0) / eps0) (- (q1 / m1) / eps0) (magnet B) u) as [H [S1 S2]]. set (Y := flow _ _ _ _ _ _ _ _) in *.
  exists (fun t j => Y t 0%nat (1 + j)), (fun t j => Y t 1%nat (1 + j)), (fun t j => Y t 2%nat j). split.
  - apply motion_vec. intros t. assert (SV : same (Y t) (as_vec (fun t j => Y t 0%nat (1 + j)) (fun t j => Y t 1%nat (1 + j)) (fun t j => Y t 2%nat j) t)).
    { split; [|reflexivity]. intros i k Hi Hk. assert (i = 0 \/ i = 1)%nat as [->| ->] by lia; unfold as_vec; now replace (1 + (k - 1)) with k by lia. }
    destruct (H t) as [H1 H2]. destruct (spin_same (q0 / m0) (q1 / m1) rho0 rho1 (- (q0 / m0) / eps0) (- (q1 / m1) / eps0) (magnet B) _ _ SV) as [T1 T2]. split.
    + intros i k Hi Hk. eapply d_eq; [|apply T1; assumption]. assert (i = 0 \/ i = 1)%nat as [->| ->] by lia; unfold as_vec; replace (1 + (k - 1)) with k by lia; apply H1; assumption.
    + intros k Hk. eapply d_eq; [|apply T2; assumption]. unfold as_vec. now apply H2.
  - intros j Hj. rewrite <- (S1 0%nat (1 + j)), <- (S1 1%nat (1 + j)), <- (S2 j) by lia. unfold u. replace (1 + j - 1) with j by lia. auto.
Qed.
Print Assumptions C97_exists.
Theorem C97_unique : forall eps0 q0 m0 q1 m1 rho0 rho1 (B : Z -> R) fu fv fw gu gv gw, (0 < eps0)%R -> (0 < rho0)%R -> (0 < rho1)%R ->
  exact_motion eps0 q0 m0 q1 m1 rho0 rho1 B fu fv fw -> exact_motion eps0 q0 m0 q1 m1 rho0 rho1 B gu gv gw ->
  (forall j, 0 <= j < 3 -> fu 0%R j = gu 0%R j /\ fv 0%R j = gv 0%R j /\ fw 0%R j = gw 0%R j) ->
  forall t j, (0 <= t)%R -> 0 <= j < 3 -> fu t j = gu t j /\ fv t j = gv t j /\ fw t j = gw t j.
Proof.
  intros eps0 q0 m0 q1 m1 rho0 rho1 B fu fv fw gu gv gw PE P0 P1 HF HG HS t j Ht Hj.
  rewrite motion_vec in HF, HG. set (A := spin _ _ _ _ _ _ _) in *. pose (D := fun t => lin 1 (-1) (as_vec fu fv fw t) (as_vec gu gv gw t)).
  assert (HD : forall t, dvec D t (A (D t))).
  { intros s. eapply dvec_same; [|apply same_sym, spin_lin]. destruct (HF s) as [F1 F2], (HG s) as [G1 G2]. split; intros; unfold D, lin; apply d_plus; apply d_scal; auto. }
  set (k0 := (/ (eps0 * rho0))%R). set (k1 := (/ (eps0 * rho1))%R).
  assert (K0 : (0 < k0)%R) by (apply Rinv_0_lt_compat, Rmult_lt_0_compat; assumption). assert (K1 : (0 < k1)%R) by (apply Rinv_0_lt_compat, Rmult_lt_0_compat; assumption).
  assert (N : nrm k0 k1 (D t) = nrm k0 k1 (D 0%R)).
  { apply (flow_norm k0 k1 A); [|exact HD|exact Ht]. apply skew0; unfold k0, k1; [generalize (q0 / m0)%R|generalize (q1 / m1)%R]; intros a; field; lra. }
  assert (Z : same (D 0%R) (lin 0 0 (D 0%R) (D 0%R))).
  { split.
    - intros i k Hi Hk. destruct (HS (k - 1)) as (S0 & S1 & _); [lia|]. assert (i = 0 \/ i = 1)%nat as [->| ->] by lia; unfold D, lin, as_vec; [rewrite S0|rewrite S1]; ring.
    - intros k Hk. destruct (HS k) as (_ & _ & S2); [lia|]. unfold D, lin, as_vec. rewrite S2. ring. }
  assert (Q : ip k0 k1 (D t) (D t) = 0%R).
  { rewrite <- nrm_sq by lra. rewrite N, nrm_sq by lra. rewrite (ip_same k0 k1 _ _ _ _ Z Z). unfold ip, sum3, lin. ring. }
  unfold ip, sum3 in Q. cbn [Z.add Pos.add Pos.succ] in Q.
  assert (SQ : forall a b c : R, (0 <= a * a + b * b + c * c)%R) by (intros; nra).
  assert (Z3 : forall a b c : R, (a * a + b * b + c * c = 0 -> a = 0 /\ b = 0 /\ c = 0)%R) by (intros; repeat split; nra).
  set (s0 := (D t 0%nat 1%Z * D t 0%nat 1%Z + D t 0%nat 2%Z * D t 0%nat 2%Z + D t 0%nat 3%Z * D t 0%nat 3%Z)%R) in *.
  set (s1 := (D t 1%nat 1%Z * D t 1%nat 1%Z + D t 1%nat 2%Z * D t 1%nat 2%Z + D t 1%nat 3%Z * D t 1%nat 3%Z)%R) in *.
  set (s2 := (D t 2%nat 0%Z * D t 2%nat 0%Z + D t 2%nat 1%Z * D t 2%nat 1%Z + D t 2%nat 2%Z * D t 2%nat 2%Z)%R) in *.
  assert (p0 : (0 <= s0)%R) by apply SQ. assert (p1 : (0 <= s1)%R) by apply SQ. assert (p2 : (0 <= s2)%R) by apply SQ.
  assert (X0 : (0 <= k0 * s0)%R) by (apply Rmult_le_pos; lra). assert (X1 : (0 <= k1 * s1)%R) by (apply Rmult_le_pos; lra).
  assert (E0 : s0 = 0%R) by (apply Rmult_eq_reg_l with k0; lra). assert (E1 : s1 = 0%R) by (apply Rmult_eq_reg_l with k1; lra). assert (E2 : s2 = 0%R) by lra.
  apply Z3 in E0, E1, E2. unfold D, lin, as_vec in E0, E1, E2. cbn [Z.sub Z.add Z.opp Z.pos_sub Pos.pred_double] in E0, E1, E2.
  assert (j = 0 \/ j = 1 \/ j = 2) as [->|[->| ->]] by lia; repeat split; lra.
Qed.
Print Assumptions C97_unique.

(** ** cases

    Two beams of particles of the same kind against each other in a magnetic field turn on
    circles, without a current. After a step of a tenth the momentum is the cosine of a
    tenth up to 1/2000. *)
Definition beam (s : R) : field R := fun c => if last c 0 =? 0 then 1%R else if last c 0 =? 1 then s else if last c 0 =? 4 then 3%R else 0%R.
Definition upright : field R := fun c => if last c 0 =? 5 then 1%R else 0%R.
Definition beam_fields : list (vid * field R) := [(f_0 electrons, beam 1); (f_0 ions, beam (-1)); (f_0 em, upright)].
Definition beam_line : mgr R := mgr_of fine_grid [(0, 16)] beam_fields None None.
Definition beam_plane : mgr R := mgr_of (mkGrid (range_of swing_plane) [0%R; 0%R] [1%R; 1%R] [(/ 16)%R; (/ 16)%R]) swing_plane beam_fields None None.
Lemma beam_line_ready : program_ready beam_line [(0, 16)] beam_fields [electrons; ions; em] 4999.
Proof. is_ready. Qed.
Lemma beam_plane_ready : program_ready beam_plane swing_plane beam_fields [electrons; ions; em] 4999.
Proof. is_ready. Qed.
Definition circle (s : R) (t : R) (j : Z) : R := match j with 0 => (s * cos t)%R | 1 => (s * - sin t)%R | _ => 0%R end.
Definition no_field (t : R) (j : Z) : R := 0%R.
Lemma beam_density : forall s x, beam s (x ++ [0]) = 1%R.
Proof. intros. unfold beam. rewrite last_last. reflexivity. Qed.
Lemma circle_turns : forall s t, (derivable_pt_lim (fun t => circle s t 0) t (s * - sin t) /\ derivable_pt_lim (fun t => circle s t 1) t (s * - cos t))%R.
Proof.
  intros s t. unfold circle. split; apply d_scal; [apply derivable_pt_lim_cos|]. exact (derivable_pt_lim_opp sin t (cos t) (derivable_pt_lim_sin t)).
Qed.
Lemma circle_exact : forall x, exact_motion 1 1 1 1 1 (beam 1 (x ++ [0])) (beam (-1) (x ++ [0])) (fun j => upright (x ++ [3 + j])) (circle 1) (circle (-1)) no_field.
Proof.
  intros x t j Hj. destruct (circle_turns 1 t) as [C0 C1]. destruct (circle_turns (-1) t) as [D0 D1]. destruct (product_at (circle 1 t) (fun j => upright (x ++ [3 + j]))) as (P0 & P1 & P2). destruct (product_at (circle (-1) t) (fun j => upright (x ++ [3 + j]))) as (Q0 & Q1 & Q2). rewrite !beam_density.
  assert (j = 0 \/ j = 1 \/ j = 2) as [->|[->| ->]] by lia;
    rewrite ?P0, ?P1, ?P2, ?Q0, ?Q1, ?Q2; unfold upright, no_field; rewrite !last_last; cbn [Z.add Pos.add Pos.succ Z.eqb Pos.eqb].
  - split; [|split]; [eapply d_eq; [exact C0|]|eapply d_eq; [exact D0|]|eapply d_eq; [apply d_const|]]; unfold circle; field.
  - split; [|split]; [eapply d_eq; [exact C1|]|eapply d_eq; [exact D1|]|eapply d_eq; [apply d_const|]]; unfold circle; field.
  - split; [|split]; (eapply d_eq; [exact (d_const 0%R t)|]); unfold circle; field.
Qed.
Lemma circle_start : forall x, moves_as (beam 1) (beam (-1)) upright x (circle 1 0) (circle (-1) 0) (no_field 0).
Proof.
  intros x j Hj. unfold beam, upright, circle, no_field. rewrite !last_last, cos_0, sin_0.
  assert (j = 0 \/ j = 1 \/ j = 2) as [->|[->| ->]] by lia; cbn [Z.add Pos.add Pos.succ Z.eqb Pos.eqb]; repeat split; ring.
Qed.
Lemma beam_motion : forall x, motion2 1 (beam 1) (beam (-1)) upright x = 2%R.
Proof. intros x. unfold motion2, square, beam, upright. rewrite !last_last. cbn [Z.add Pos.add Pos.succ Z.eqb Pos.eqb]. field. Qed.
Lemma beam_magnet : forall x, square upright x 3 = 1%R.
Proof. intros. unfold square, upright. rewrite !last_last. cbn [Z.add Pos.add Pos.succ Z.eqb Pos.eqb]. ring. Qed.
Lemma gap_first : forall (u v w : field R) x p q E b, (0 <= b)%R -> u (x ++ [0]) = 1%R -> (0 < v (x ++ [0]%Z))%R -> (gap2 1 u v w x p q E <= b * b)%R -> (Rabs (u (x ++ [1]%Z) - p 0%Z) <= b)%R.
Proof.
  intros u v w x p q E b Hb HU HV H. unfold gap2 in H. rewrite HU in H.
  assert (Q : forall a c d : R, (0 <= a ^ 2 + c ^ 2 + d ^ 2)%R) by (intros; pose proof (pow2_ge_0 a); pose proof (pow2_ge_0 c); pose proof (pow2_ge_0 d); lra).
  match type of H with (?a / 1 + ?c / ?r + 1 * ?d <= _)%R => assert (A1 : (0 <= c / r)%R) by (apply Rmult_le_pos; [apply Q|left; now apply Rinv_0_lt_compat]); assert (A2 : (0 <= d)%R) by apply Q end.
  pose proof (pow2_ge_0 (u (x ++ [2]%Z) - p 1%Z)) as S1. pose proof (pow2_ge_0 (u (x ++ [3]%Z) - p 2%Z)) as S2. apply Rabs_le.
  assert (S0 : ((u (x ++ [1]%Z) - p 0%Z) ^ 2 <= b * b)%R) by lra. split; nra.
Qed.
Example C97_brio_wu_ex : let p := two_fluids 2 10 1 1 1 1 1 in let R := run (plasma_step true 4999 p (brio_wu_bcs electrons ions em) electrons ions em) (/ 10)%R 1 beam_line in
  exists u', ends R [(0, 16)] (f_0 electrons) u' /\ (Rabs (u' [8; 0; 1]%Z - cos (/ 10)) <= / 2000)%R.
Proof.
  intros p R. destruct (C97_brio_wu 2 10 1 1 1 1 1 (0, 16) electrons ions em 4999 (/ 10) 1 beam_line beam_fields (beam 1) (beam (-1)) upright [8; 0] 1 2 (circle 1) (circle (-1)) no_field beam_line_ready eq_refl eq_refl eq_refl eq_refl eq_refl eq_refl eq_refl eq_refl) as (u' & v' & w' & E1 & E2 & E3 & [DU DV] & E).
  { repeat (constructor; [cbn; lia|]). constructor. }
  { cbn. lia. }
  { intros t i _ _. reflexivity. }
  { intros t i _ _. reflexivity. }
  { intros t i _ _. reflexivity. }
  { lra. }
  { lra. }
  { lra. }
  { lra. }
  { rewrite beam_density. lra. }
  { rewrite beam_density. lra. }
  { lra. }
  { lra. }
  { rewrite beam_magnet. lra. }
  { rewrite beam_magnet. lra. }
  { rewrite !beam_density. lra. }
  { lra. }
  { apply circle_exact. }
  { apply circle_start. }
  exists u'. split; [exact E1|]. rewrite beam_density in DU, DV. rewrite beam_motion in E. cbn [INR] in E. 
  assert (P : (0 < v' ([8; 0] ++ [0])%Z)%R) by (rewrite DV; lra). assert (PB : (0 <= / 2000)%R) by lra. assert (E0 := Rle_trans _ _ (/ 2000 * / 2000)%R E ltac:(lra)). pose proof (gap_first u' v' w' [8; 0] _ _ _ _ PB DU P E0) as E'.
  unfold circle in E'. cbn [app] in E'. rewrite !Rmult_1_l in E'. exact E'.
Qed.

Example C97_gem_ex : let p := two_fluids 2 10 1 1 1 1 1 in let R := run (plasma_step true 4999 p (gem_bcs electrons ions em) electrons ions em) (/ 10)%R 1 beam_plane in
  exists u', ends R swing_plane (f_0 electrons) u' /\ (Rabs (u' [8; 7; 0; 1]%Z - cos (/ 10)) <= / 2000)%R.
Proof.
  intros p R. destruct (C97_gem 2 10 1 1 1 1 1 (0, 16) (0, 16) electrons ions em 4999 (/ 10) 1 beam_plane beam_fields (beam 1) (beam (-1)) upright [8; 7; 0] 1 2 (circle 1) (circle (-1)) no_field beam_plane_ready eq_refl eq_refl eq_refl eq_refl eq_refl eq_refl eq_refl eq_refl) as (u' & v' & w' & E1 & E2 & E3 & [DU DV] & E).
  { repeat (constructor; [cbn; lia|]). constructor. }
  { cbn. lia. }
  { cbn. lia. }
  { intros s t i _ _ _. reflexivity. }
  { intros s t i _ _ _. reflexivity. }
  { intros s t i _ _ _. reflexivity. }
  { lra. }
  { lra. }
  { lra. }
  { lra. }
  { rewrite beam_density. lra. }
  { rewrite beam_density. lra. }
  { lra. }
  { lra. }
  { rewrite beam_magnet. lra. }
  { rewrite beam_magnet. lra. }
  { rewrite !beam_density. lra. }
  { lra. }
  { apply circle_exact. }
  { apply circle_start. }
  exists u'. split; [exact E1|]. rewrite beam_density in DU, DV. rewrite beam_motion in E. cbn [INR] in E. 
  assert (P : (0 < v' ([8; 7; 0] ++ [0])%Z)%R) by (rewrite DV; lra). assert (PB : (0 <= / 2000)%R) by lra. assert (E0 := Rle_trans _ _ (/ 2000 * / 2000)%R E ltac:(lra)). pose proof (gap_first u' v' w' [8; 7; 0] _ _ _ _ PB DU P E0) as E'.
  unfold circle in E'. cbn [app] in E'. rewrite !Rmult_1_l in E'. exact E'.
Qed.


(** Electrons and ions swing along the magnetic field of two_fluid_brio_wu, 3000 times as
    fast as a cosine; after one step of the program the electric field is the cosine of
    3/10 and the momenta are in proportion to its sine, up to one part in 1900. *)
Definition along : field R := fun c => if last c 0 =? 0 then 1%R else if last c 0 =? 3 then (3 / 4)%R else 0%R.
Definition along_fields : list (vid * field R) := [(f_0 electrons, resting (9 / 11 / 10)%R); (f_0 ions, resting (9 / 11)%R); (f_0 em, along)].
Definition along_line : mgr R := mgr_of fine_grid [(0, 16)] along_fields None None.
Lemma along_ready : program_ready along_line [(0, 16)] along_fields [electrons; ions; em] 4999.
Proof. is_ready. Qed.
Definition sway (s : R) (t : R) (j : Z) : R := match j with 0 => (s * sin (3000 * t))%R | _ => 0%R end.
Definition swing_field (t : R) (j : Z) : R := match j with 0 => cos (3000 * t)%R | _ => 0%R end.
Lemma d_inside : forall f t l, derivable_pt_lim f (3000 * t) l -> derivable_pt_lim (fun s => f (3000 * s)%R) t (3000 * l)%R.
Proof.
  intros f t l H. eapply d_eq; [apply (derivable_pt_lim_comp (fun s => 3000 * s)%R f t 3000 l); [|exact H]|ring].
  eapply d_eq; [apply d_scal, derivable_pt_lim_id|ring].
Qed.
Lemma sway_exact : forall x, exact_motion (/ 1000000) (-1) (/ 10) 1 1 (9 / 11 / 10) (9 / 11) (fun j => along (x ++ [3 + j])) (sway (- 9 / 33000)) (sway (9 / 33000)) swing_field.
Proof.
  intros x t j Hj. pose proof (d_inside sin t _ (derivable_pt_lim_sin (3000 * t))) as DS. pose proof (d_inside cos t _ (derivable_pt_lim_cos (3000 * t))) as DC.
  destruct (product_at (sway (- 9 / 33000) t) (fun j => along (x ++ [3 + j]))) as (P0 & P1 & P2). destruct (product_at (sway (9 / 33000) t) (fun j => along (x ++ [3 + j]))) as (Q0 & Q1 & Q2).
  assert (j = 0 \/ j = 1 \/ j = 2) as [->|[->| ->]] by lia;
    rewrite ?P0, ?P1, ?P2, ?Q0, ?Q1, ?Q2; unfold along; rewrite !last_last; cbn [Z.add Pos.add Pos.succ Z.eqb Pos.eqb]; unfold sway, swing_field.
  - split; [|split]; [eapply d_eq; [apply d_scal, DS|field]|eapply d_eq; [apply d_scal, DS|field]|eapply d_eq; [exact DC|field]].
  - split; [|split]; (eapply d_eq; [exact (d_const 0%R t)|field]).
  - split; [|split]; (eapply d_eq; [exact (d_const 0%R t)|field]).
Qed.
Lemma sway_start : forall x, moves_as (resting (9 / 11 / 10)%R) (resting (9 / 11)%R) along x (sway (- 9 / 33000) 0) (sway (9 / 33000) 0) (swing_field 0).
Proof.
  intros x j Hj. unfold resting, along, sway, swing_field. rewrite !last_last, !Rmult_0_r, sin_0, cos_0. change (@f0 R RArith) with 0%R.
  assert (j = 0 \/ j = 1 \/ j = 2) as [->|[->| ->]] by lia; cbn [Z.add Pos.add Pos.succ Z.eqb Pos.eqb]; repeat split; ring.
Qed.
Lemma along_square : forall x, square along x 3 = (9 / 16)%R /\ square along x 0 = 1%R.
Proof. intros. unfold square, along. rewrite !last_last. cbn [Z.add Pos.add Pos.succ Z.eqb Pos.eqb]. split; field. Qed.
Lemma along_motion : forall eps0 re ri x, motion2 eps0 (resting re) (resting ri) along x = eps0.
Proof.
  intros. unfold motion2. rewrite (proj2 (along_square x)). unfold square, resting. rewrite !last_last. cbn [Z.add Pos.add Pos.succ Z.eqb Pos.eqb].
  change (@f0 R RArith) with 0%R. unfold Rdiv. ring.
Qed.
Example C97_two_fluid_brio_wu_ex : let R := run (plasma_step true 4999 brio_wu_plasma (brio_wu_bcs electrons ions em) electrons ions em) brio_wu_dt 1 along_line in
  exists u' v' w', ends R [(0, 16)] (f_0 electrons) u' /\ ends R [(0, 16)] (f_0 ions) v' /\ ends R [(0, 16)] (f_0 em) w' /\ (gap2 (/ 1000000) u' v' w' [8; 0]%Z (sway (- 9 / 33000) (/ 10000)) (sway (9 / 33000) (/ 10000)) (swing_field (/ 10000)) <= (52 / 100000) ^ 2 * / 1000000)%R.
Proof.
  intros R. destruct (C97_two_fluid_brio_wu (0, 16) electrons ions em 4999 1 along_line along_fields (resting (9 / 11 / 10)%R) (resting (9 / 11)%R) along [8; 0] (9 / 11)%R (sway (- 9 / 33000)) (sway (9 / 33000)) swing_field along_ready eq_refl eq_refl eq_refl eq_refl eq_refl eq_refl eq_refl eq_refl) as (u' & v' & w' & E1 & E2 & E3 & E).
  { repeat (constructor; [cbn; lia|]). constructor. }
  { cbn. lia. }
  { intros t i _ _. reflexivity. }
  { intros t i _ _. reflexivity. }
  { intros t i _ _. reflexivity. }
  { rewrite density_at. reflexivity. }
  { rewrite density_at. reflexivity. }
  { lra. }
  { rewrite (proj1 (along_square _)). lra. }
  { apply sway_exact. }
  { apply sway_start. }
  exists u', v', w'. do 3 (split; [assumption|]). rewrite along_motion in E. cbn [INR] in E. replace (1 / 10000)%R with (/ 10000)%R in E by field. rewrite Rmult_1_l in E. exact E.
Qed.

(** Some motion in a field that is not along an axis, and the one on circles is the only
    one. *)
Example C97_exists_ex : exists fu fv fw, exact_motion 1 (-1) (/ 2) 1 1 1 2 (fun j => IZR (j + 1)) fu fv fw /\ fu 0%R 0 = 3%R /\ fv 0%R 1 = (-5)%R /\ fw 0%R 2 = 7%R.
Proof.
  destruct (C97_exists 1 (-1) (/ 2) 1 1 1 2 (fun j => IZR (j + 1)) (fun _ => 3%R) (fun _ => (-5)%R) (fun _ => 7%R)) as (fu & fv & fw & H & S). exists fu, fv, fw. split; [exact H|].
  split; [apply (S 0); lia|]. split; [apply (S 1); lia|apply (S 2); lia].
Qed.
Example C97_unique_ex : forall fu fv fw, exact_motion 1 1 1 1 1 1 1 (fun j => upright [3 + j]) fu fv fw -> (forall j, 0 <= j < 3 -> fu 0%R j = circle 1 0 j /\ fv 0%R j = circle (-1) 0 j /\ fw 0%R j = 0%R) ->
  forall t, (0 <= t)%R -> fu t 0 = cos t /\ fu t 1 = (- sin t)%R.
Proof.
  intros fu fv fw H S t Ht. pose proof (circle_exact []) as C. cbn [app] in C.
  assert (U := C97_unique 1 1 1 1 1 1 1 (fun j => upright [3 + j]) fu fv fw (circle 1) (circle (-1)) no_field ltac:(lra) ltac:(lra) ltac:(lra) H C S t). split.
  - destruct (U 0) as [-> _]; [exact Ht|lia|unfold circle; ring].
  - destruct (U 1) as [-> _]; [exact Ht|lia|unfold circle; ring].
Qed.
