(** * A neutral plasma and its field keep their momentum (C98). *)
From Coq Require Import ZArith List String Bool Reals Lra Lia Psatz.
From Verif Require Import Base BaseFacts BoxSpec BoxFacts Interface EulerSpec PhysicsSpec PhysicsFacts Properties_Physics NumFacts Range RangeSpec RangeFacts ApiSpec Arith ArithR Chunk FieldSpec VarId Manager MgrSpec MgrFacts
  BC BCSpec BCFacts Sweep SweepSpec Euler Maxwell Sources SourceSpec ParFacts SweepFacts FluxFacts Programs ProgramsSpec ConserveFacts RhsFacts Properties_Programs
  SymmetrySpec SymmetryFacts Properties_Symmetry Properties_Chunk Properties_Monopole AxesFacts PositiveSpec PositiveFacts Properties_Positive AccuracyGas AccuracySpec AccuracyFacts GaussSpec GaussFacts OscillationSpec OscillationFacts Properties_Gauss Initial Main
  Properties_Oscillation SwingSpec SwingFacts Properties_Swing GyroSpec GyroFacts Properties_Gyro FlowSpec FlowFacts SeriesFacts HeatSpec HeatFacts Properties_Heat Properties_Flow MomentumSpec MomentumFacts.
Import ListNotations.
Open Scope Z_scope.

Lemma momentum_steps : forall gamma c eps0 q0 m0 q1 m1 dt n (u v w u' v' w' : field R) x, let p := two_fluids gamma c eps0 q0 m0 q1 m1 in
  let S0 := fun (a : nat) (k : Z) => three u v w a (x ++ [k]) in let T := Nat.iter n (still_rk3 p dt) S0 in
  eps0 <> 0%R -> m0 <> 0%R -> m1 <> 0%R -> neutral q0 m0 q1 m1 u v x ->
  (forall k, 0 <= k < 5 -> u' (x ++ [k]) = T 0%nat k) -> (forall k, 0 <= k < 5 -> v' (x ++ [k]) = T 1%nat k) -> (forall k, 0 <= k < 6 -> w' (x ++ [k]) = T 2%nat k) ->
  forall j, 0 <= j < 3 -> momentum eps0 u' v' w' x j = momentum eps0 u v w x j.
Proof.
  intros gamma c eps0 q0 m0 q1 m1 dt n u v w u' v' w' x p S0 T PE PM0 PM1 HN XU XV XW j Hj.
  destruct (fluids_values gamma c eps0 q0 m0 q1 m1 PE PM0 PM1) as (V1 & V2 & V3 & V4). fold p in V1, V2, V3, V4.
  destruct (mom_iter p eps0 dt S0 n j Hj) as [_ E].
  - rewrite V3, V1. field. auto.
  - rewrite V4, V2. field. auto.
  - rewrite V1, V2. exact HN.
  - fold T in E. transitivity (mom eps0 (S0 2%nat) S0 j); [rewrite <- E|reflexivity]. unfold momentum, mom. rewrite XU, XV by lia.
    destruct (vp_cases (fun k => w' (x ++ [k])) (fun k => w' (x ++ [3 + k]))) as (A0 & A1 & A2), (vp_cases (T 2%nat) (fun k => T 2%nat (3 + k))) as (B0 & B1 & B2).
    three_cases j; rewrite ?A0, ?A1, ?A2, ?B0, ?B1, ?B2; rewrite !XW by lia; reflexivity.
Qed.

Theorem C98_brio_wu : forall gamma c eps0 q0 m0 q1 m1 mx e i f fuel dt n (m : mgr R) L u v w x, let M := [mx] in let p := two_fluids gamma c eps0 q0 m0 q1 m1 in
  program_ready m M L [e; i; f] fuel ->
  List.length (id_comps (f_0 e)) = 5%nat -> List.length (id_comps (f_0 i)) = 5%nat -> List.length (id_comps (f_0 f)) = 6%nat ->
  bs_points (id_basis (f_0 e)) = bs_points (id_basis (f_0 f)) -> bs_points (id_basis (f_0 i)) = bs_points (id_basis (f_0 f)) ->
  field_get L (f_0 e) = Some u -> field_get L (f_0 i) = Some v -> field_get L (f_0 f) = Some w ->
  in_box (M ++ [(0, bs_points (id_basis (f_0 f)))]) x -> let r := 6 * Z.of_nat n in fst mx + r <= nth 0 x 0 < snd mx - r ->
  uniform_near r 5 u x -> uniform_near r 5 v x -> uniform_near r 6 w x ->
  eps0 <> 0%R -> m0 <> 0%R -> m1 <> 0%R -> neutral q0 m0 q1 m1 u v x ->
  let R := run (plasma_step true fuel p (brio_wu_bcs e i f) e i f) dt n m in
  exists u' v' w', ends R M (f_0 e) u' /\ ends R M (f_0 i) v' /\ ends R M (f_0 f) w' /\
    forall j, 0 <= j < 3 -> momentum eps0 u' v' w' x j = momentum eps0 u v w x j.
Proof.
  intros gamma c eps0 q0 m0 q1 m1 mx e i f fuel dt n m L u v w x M p HR Ne Ni Nf Pe Pi Hu Hv Hw Hx r Hi Uu Uv Uw PE PM0 PM1 HN R.
  assert (Hms : List.length (pl_ms p) = 2%nat) by reflexivity.
  destruct (C57_brio_wu _ _ p mx e i f fuel dt n m L u v w HR Ne Ni Nf Pe Pi Hms Hu Hv Hw) as (m2 & L1 & E1 & (S1 & _) & _ & _ & _ & V1 & _).
  destruct (V1 0%nat (f_0 e) eq_refl) as (u' & Gu & Hu'). destruct (V1 1%nat (f_0 i) eq_refl) as (v' & Gv & Hv'). destruct (V1 2%nat (f_0 f) eq_refl) as (w' & Gw & Hw').
  exists u', v', w'. do 3 (split; [exists m2, L1; auto|]). fold M in Hu', Hv', Hw'. set (Op := plasma_op _ _ _ _ _ _ _ _) in *.
  assert (LX : (0 < List.length x)%nat). { apply Forall2_length in Hx. rewrite app_length in Hx. cbn in Hx. lia. }
  pose (S0 := fun (a : nat) (k : Z) => three u v w a (x ++ [k])).
  assert (LV : forall t, (t <= n)%nat -> level (Nat.iter t (still_rk3 p dt) S0) (6 * Z.of_nat (n - t)) (Nat.iter t (rk3 Op dt) (three u v w)) x).
  { induction t as [|t IH]; intros Ht.
    - rewrite Nat.sub_0_r. intros s a k Hs Ha Hk. unfold Nat.iter, S0. destruct a as [|[|[|a]]]; [apply Uu|apply Uv|apply Uw|lia]; assumption.
    - specialize (IH ltac:(lia)). change (Nat.iter (S t) (rk3 Op dt) (three u v w)) with (rk3 Op dt (Nat.iter t (rk3 Op dt) (three u v w))).
      change (Nat.iter (S t) (still_rk3 p dt) S0) with (still_rk3 p dt (Nat.iter t (still_rk3 p dt) S0)).
      apply level_rk3; auto; [lia| |replace (6 * Z.of_nat (n - S t) + 6) with (6 * Z.of_nat (n - t)) by lia; exact IH].
      unfold lo, hi, M. destruct mx as [l h]. cbn [fst snd nth] in Hi |- *. unfold r in Hi. lia. }
  specialize (LV n ltac:(lia)). rewrite Nat.sub_diag in LV.
  assert (X : forall a k, (a < 3)%nat -> 0 <= k < comps_of a -> Nat.iter n (rk3 Op dt) (three u v w) a (x ++ [k]) = Nat.iter n (still_rk3 p dt) S0 a k).
  { intros a k Ha Hk. rewrite <- (move_0 0 x LX) at 1. apply LV; [lia|exact Ha|exact Hk]. }
  apply (momentum_steps gamma c eps0 q0 m0 q1 m1 dt n u v w u' v' w' x PE PM0 PM1 HN).
  - intros k Hk. rewrite Hu' by (apply cell_join; [rewrite Pe; exact Hx|rewrite Ne; lia]). apply X; [lia|exact Hk].
  - intros k Hk. rewrite Hv' by (apply cell_join; [rewrite Pi; exact Hx|rewrite Ni; lia]). apply X; [lia|exact Hk].
  - intros k Hk. rewrite Hw' by (apply cell_join; [exact Hx|rewrite Nf; lia]). apply X; [lia|exact Hk].
Qed.
Print Assumptions C98_brio_wu.

Theorem C98_gem : forall gamma c eps0 q0 m0 q1 m1 mx my e i f fuel dt n (m : mgr R) L u v w x, let M := [mx; my] in let p := two_fluids gamma c eps0 q0 m0 q1 m1 in
  program_ready m M L [e; i; f] fuel ->
  List.length (id_comps (f_0 e)) = 5%nat -> List.length (id_comps (f_0 i)) = 5%nat -> List.length (id_comps (f_0 f)) = 6%nat ->
  bs_points (id_basis (f_0 e)) = bs_points (id_basis (f_0 f)) -> bs_points (id_basis (f_0 i)) = bs_points (id_basis (f_0 f)) ->
  field_get L (f_0 e) = Some u -> field_get L (f_0 i) = Some v -> field_get L (f_0 f) = Some w ->
  in_box (M ++ [(0, bs_points (id_basis (f_0 f)))]) x -> let r := 6 * Z.of_nat n in fst mx + r <= nth 0 x 0 < snd mx - r -> fst my + r <= nth 1 x 0 < snd my - r ->
  uniform_around r 5 u x -> uniform_around r 5 v x -> uniform_around r 6 w x ->
  eps0 <> 0%R -> m0 <> 0%R -> m1 <> 0%R -> neutral q0 m0 q1 m1 u v x ->
  let R := run (plasma_step true fuel p (gem_bcs e i f) e i f) dt n m in
  exists u' v' w', ends R M (f_0 e) u' /\ ends R M (f_0 i) v' /\ ends R M (f_0 f) w' /\
    forall j, 0 <= j < 3 -> momentum eps0 u' v' w' x j = momentum eps0 u v w x j.
Proof.
  intros gamma c eps0 q0 m0 q1 m1 mx my e i f fuel dt n m L u v w x M p HR Ne Ni Nf Pe Pi Hu Hv Hw Hx r Hi0 Hi1 Uu Uv Uw PE PM0 PM1 HN R.
  assert (Hms : List.length (pl_ms p) = 2%nat) by reflexivity.
  destruct (C57_gem _ _ p mx my e i f fuel dt n m L u v w HR Ne Ni Nf Pe Pi Hms Hu Hv Hw) as (m2 & L1 & E1 & (S1 & _) & _ & _ & _ & V1 & _).
  destruct (V1 0%nat (f_0 e) eq_refl) as (u' & Gu & Hu'). destruct (V1 1%nat (f_0 i) eq_refl) as (v' & Gv & Hv'). destruct (V1 2%nat (f_0 f) eq_refl) as (w' & Gw & Hw').
  exists u', v', w'. do 3 (split; [exists m2, L1; auto|]). fold M in Hu', Hv', Hw'. set (Op := plasma_op _ _ _ _ _ _ _ _) in *.
  assert (LX : (1 < List.length x)%nat). { apply Forall2_length in Hx. rewrite app_length in Hx. cbn in Hx. lia. }
  pose (S0 := fun (a : nat) (k : Z) => three u v w a (x ++ [k])).
  assert (LV : forall t, (t <= n)%nat -> level2 (Nat.iter t (still_rk3 p dt) S0) (6 * Z.of_nat (n - t)) (Nat.iter t (rk3 Op dt) (three u v w)) x).
  { induction t as [|t IH]; intros Ht.
    - rewrite Nat.sub_0_r. intros s q a k Hs Hq Ha Hk. unfold Nat.iter, S0. destruct a as [|[|[|a]]]; [apply Uu|apply Uv|apply Uw|lia]; assumption.
    - specialize (IH ltac:(lia)). change (Nat.iter (S t) (rk3 Op dt) (three u v w)) with (rk3 Op dt (Nat.iter t (rk3 Op dt) (three u v w))).
      change (Nat.iter (S t) (still_rk3 p dt) S0) with (still_rk3 p dt (Nat.iter t (still_rk3 p dt) S0)).
      apply level2_rk3; auto; [lia| | |replace (6 * Z.of_nat (n - S t) + 6) with (6 * Z.of_nat (n - t)) by lia; exact IH].
      + unfold lo, hi, M. destruct mx as [l h]. cbn [fst snd nth] in Hi0 |- *. unfold r in Hi0. lia.
      + unfold lo, hi, M. destruct my as [l h]. cbn [fst snd nth] in Hi1 |- *. unfold r in Hi1. lia. }
  specialize (LV n ltac:(lia)). rewrite Nat.sub_diag in LV.
  assert (X : forall a k, (a < 3)%nat -> 0 <= k < comps_of a -> Nat.iter n (rk3 Op dt) (three u v w) a (x ++ [k]) = Nat.iter n (still_rk3 p dt) S0 a k).
  { intros a k Ha Hk. rewrite <- (move_0 1 x LX) at 1. rewrite <- (move_0 0 (move 1 0 x)) by (rewrite move_length; lia). apply LV; [lia|lia|exact Ha|exact Hk]. }
  apply (momentum_steps gamma c eps0 q0 m0 q1 m1 dt n u v w u' v' w' x PE PM0 PM1 HN).
  - intros k Hk. rewrite Hu' by (apply cell_join; [rewrite Pe; exact Hx|rewrite Ne; lia]). apply X; [lia|exact Hk].
  - intros k Hk. rewrite Hv' by (apply cell_join; [rewrite Pi; exact Hx|rewrite Ni; lia]). apply X; [lia|exact Hk].
  - intros k Hk. rewrite Hw' by (apply cell_join; [exact Hx|rewrite Nf; lia]). apply X; [lia|exact Hk].
Qed.
Print Assumptions C98_gem.

Theorem C98_two_fluid_brio_wu : forall mx e i f fuel n (m : mgr R) L u v w x N, let M := [mx] in let p := brio_wu_plasma in
  program_ready m M L [e; i; f] fuel ->
  List.length (id_comps (f_0 e)) = 5%nat -> List.length (id_comps (f_0 i)) = 5%nat -> List.length (id_comps (f_0 f)) = 6%nat ->
  bs_points (id_basis (f_0 e)) = bs_points (id_basis (f_0 f)) -> bs_points (id_basis (f_0 i)) = bs_points (id_basis (f_0 f)) ->
  field_get L (f_0 e) = Some u -> field_get L (f_0 i) = Some v -> field_get L (f_0 f) = Some w ->
  in_box (M ++ [(0, bs_points (id_basis (f_0 f)))]) x -> let r := 6 * Z.of_nat n in fst mx + r <= nth 0 x 0 < snd mx - r ->
  uniform_near r 5 u x -> uniform_near r 5 v x -> uniform_near r 6 w x ->
  u (x ++ [0]) = (N / 10)%R -> v (x ++ [0]) = (N)%R ->
  let R := run (plasma_step true fuel p (brio_wu_bcs e i f) e i f) brio_wu_dt n m in
  exists u' v' w', ends R M (f_0 e) u' /\ ends R M (f_0 i) v' /\ ends R M (f_0 f) w' /\
    forall j, 0 <= j < 3 -> momentum (/ 1000000) u' v' w' x j = momentum (/ 1000000) u v w x j.
Proof.
  intros mx e i f fuel n m L u v w x N M p HR Ne Ni Nf Pe Pi Hu Hv Hw Hx r Hi Uu Uv Uw Du Dv R.
  assert (PP : p = two_fluids 2 10 (/ 1000000) (-1) (/ 10) 1 1).
  { unfold p. rewrite brio_wu_fluids. f_equal; cbn; unfold Rdecimal; cbn; try field; lra. }
  assert (NT : neutral (-1) (/ 10) 1 1 u v x) by (unfold neutral; rewrite Du, Dv; lra).
  destruct (C98_brio_wu 2 10 (/ 1000000) (-1) (/ 10) 1 1 mx e i f fuel brio_wu_dt n m L u v w x HR Ne Ni Nf Pe Pi Hu Hv Hw Hx Hi Uu Uv Uw) as (u' & v' & w' & E1 & E2 & E3 & E); try assumption; try lra.
  unfold R. rewrite PP. exists u', v', w'. auto.
Qed.
Print Assumptions C98_two_fluid_brio_wu.

Theorem C98_harris_current_sheet : forall mx e i f fuel n (m : mgr R) L u v w x N, let M := [mx] in let p := sheet_plasma in
  program_ready m M L [e; i; f] fuel ->
  List.length (id_comps (f_0 e)) = 5%nat -> List.length (id_comps (f_0 i)) = 5%nat -> List.length (id_comps (f_0 f)) = 6%nat ->
  bs_points (id_basis (f_0 e)) = bs_points (id_basis (f_0 f)) -> bs_points (id_basis (f_0 i)) = bs_points (id_basis (f_0 f)) ->
  field_get L (f_0 e) = Some u -> field_get L (f_0 i) = Some v -> field_get L (f_0 f) = Some w ->
  in_box (M ++ [(0, bs_points (id_basis (f_0 f)))]) x -> let r := 6 * Z.of_nat n in fst mx + r <= nth 0 x 0 < snd mx - r ->
  uniform_near r 5 u x -> uniform_near r 5 v x -> uniform_near r 6 w x ->
  u (x ++ [0]) = (me * N)%R -> v (x ++ [0]) = (25 * me * N)%R ->
  let R := run (plasma_step true fuel p (brio_wu_bcs e i f) e i f) harris_dt n m in
  exists u' v' w', ends R M (f_0 e) u' /\ ends R M (f_0 i) v' /\ ends R M (f_0 f) w' /\
    forall j, 0 <= j < 3 -> momentum eps0 u' v' w' x j = momentum eps0 u v w x j.
Proof.
  intros mx e i f fuel n m L u v w x N M p HR Ne Ni Nf Pe Pi Hu Hv Hw Hx r Hi Uu Uv Uw Du Dv R.
  destruct consts_pos as (P1 & P2 & P3 & P4 & P5). assert (PP := sheet_si). fold p in PP.
  assert (NT : neutral (- qe) me qe (25 * me) u v x) by (unfold neutral; rewrite Du, Dv; field; lra).
  destruct (C98_brio_wu sheet_gamma c0 eps0 (- qe) me qe (25 * me) mx e i f fuel harris_dt n m L u v w x HR Ne Ni Nf Pe Pi Hu Hv Hw Hx Hi Uu Uv Uw) as (u' & v' & w' & E1 & E2 & E3 & E); try assumption; try lra.
  unfold R. rewrite PP. exists u', v', w'. auto.
Qed.
Print Assumptions C98_harris_current_sheet.

Theorem C98_gem_challenge : forall mx my e i f fuel n (m : mgr R) L u v w x N, let M := [mx; my] in let p := sheet_plasma in
  program_ready m M L [e; i; f] fuel ->
  List.length (id_comps (f_0 e)) = 5%nat -> List.length (id_comps (f_0 i)) = 5%nat -> List.length (id_comps (f_0 f)) = 6%nat ->
  bs_points (id_basis (f_0 e)) = bs_points (id_basis (f_0 f)) -> bs_points (id_basis (f_0 i)) = bs_points (id_basis (f_0 f)) ->
  field_get L (f_0 e) = Some u -> field_get L (f_0 i) = Some v -> field_get L (f_0 f) = Some w ->
  in_box (M ++ [(0, bs_points (id_basis (f_0 f)))]) x -> let r := 6 * Z.of_nat n in fst mx + r <= nth 0 x 0 < snd mx - r -> fst my + r <= nth 1 x 0 < snd my - r ->
  uniform_around r 5 u x -> uniform_around r 5 v x -> uniform_around r 6 w x ->
  u (x ++ [0]) = (me * N)%R -> v (x ++ [0]) = (25 * me * N)%R ->
  let R := run (plasma_step true fuel p (gem_bcs e i f) e i f) gem_dt n m in
  exists u' v' w', ends R M (f_0 e) u' /\ ends R M (f_0 i) v' /\ ends R M (f_0 f) w' /\
    forall j, 0 <= j < 3 -> momentum eps0 u' v' w' x j = momentum eps0 u v w x j.
Proof.
  intros mx my e i f fuel n m L u v w x N M p HR Ne Ni Nf Pe Pi Hu Hv Hw Hx r Hi0 Hi1 Uu Uv Uw Du Dv R.
  destruct consts_pos as (P1 & P2 & P3 & P4 & P5). assert (PP := sheet_si). fold p in PP.
  assert (NT : neutral (- qe) me qe (25 * me) u v x) by (unfold neutral; rewrite Du, Dv; field; lra).
  destruct (C98_gem sheet_gamma c0 eps0 (- qe) me qe (25 * me) mx my e i f fuel gem_dt n m L u v w x HR Ne Ni Nf Pe Pi Hu Hv Hw Hx Hi0 Hi1 Uu Uv Uw) as (u' & v' & w' & E1 & E2 & E3 & E); try assumption; try lra.
  unfold R. rewrite PP. exists u', v', w'. auto.
Qed.
Print Assumptions C98_gem_challenge.

(** ** cases

    Fluids at rest in crossed electric and magnetic fields: all of the momentum is that of
    the field, and they start to drift across both. *)
Lemma bent_momentum : forall eps0 re ri b x, momentum eps0 (resting re) (resting ri) (bent b) x 1 = (- (eps0 * b))%R.
Proof.
  intros. unfold momentum. destruct (vp_cases (fun k => bent b (x ++ [k])) (fun k => bent b (x ++ [3 + k]))) as (_ & A1 & _). rewrite A1. unfold resting, bent. rewrite !last_last.
  cbn [Z.add Pos.add Pos.succ Z.eqb Pos.eqb]. change (@f0 R RArith) with 0%R. ring.
Qed.
Example C98_brio_wu_ex : let p := two_fluids 2 10 1 (-1) (/ 2) 1 1 in let R := run (plasma_step true 4999 p (brio_wu_bcs electrons ions em) electrons ions em) (/ 10)%R 1 (gyro_line 1 2 (/ 2)) in
  exists u' v' w', ends R [(0, 16)] (f_0 electrons) u' /\ ends R [(0, 16)] (f_0 ions) v' /\ ends R [(0, 16)] (f_0 em) w' /\
    (u' [8; 0; 2]%Z + v' [8; 0; 2]%Z + 1 * (w' [8; 0; 2]%Z * w' [8; 0; 3]%Z - w' [8; 0; 0]%Z * w' [8; 0; 5]%Z) = - / 2)%R.
Proof.
  intros p R. destruct (C98_brio_wu 2 10 1 (-1) (/ 2) 1 1 (0, 16) electrons ions em 4999 (/ 10) 1 (gyro_line 1 2 (/ 2)) (gyro_fields 1 2 (/ 2)) (resting 1%R) (resting 2%R) (bent (/ 2)) [8; 0] (gyro_line_ready 1 2 (/ 2)) eq_refl eq_refl eq_refl eq_refl eq_refl eq_refl eq_refl eq_refl ) as (u' & v' & w' & E1 & E2 & E3 & E).
  { repeat (constructor; [cbn; lia|]). constructor. }
  { cbn. lia. }
  { intros t i _ _. reflexivity. }
  { intros t i _ _. reflexivity. }
  { intros t i _ _. reflexivity. }
  { lra. }
  { lra. }
  { lra. }
  { unfold neutral. rewrite !density_at. lra. }
  exists u', v', w'. do 3 (split; [assumption|]). specialize (E 1 ltac:(lia)). rewrite bent_momentum in E. unfold momentum in E. rewrite (proj1 (proj2 (vp_cases _ _))) in E. cbn [app Z.add Pos.add Pos.succ] in E. rewrite E. lra.
Qed.
Example C98_gem_ex : let p := two_fluids 2 10 1 (-1) (/ 2) 1 1 in let R := run (plasma_step true 4999 p (gem_bcs electrons ions em) electrons ions em) (/ 10)%R 1 (gyro_plane 1 2 (/ 2)) in
  exists u' v' w', ends R swing_plane (f_0 electrons) u' /\ ends R swing_plane (f_0 ions) v' /\ ends R swing_plane (f_0 em) w' /\
    (u' [8; 7; 0; 2]%Z + v' [8; 7; 0; 2]%Z + 1 * (w' [8; 7; 0; 2]%Z * w' [8; 7; 0; 3]%Z - w' [8; 7; 0; 0]%Z * w' [8; 7; 0; 5]%Z) = - / 2)%R.
Proof.
  intros p R. destruct (C98_gem 2 10 1 (-1) (/ 2) 1 1 (0, 16) (0, 16) electrons ions em 4999 (/ 10) 1 (gyro_plane 1 2 (/ 2)) (gyro_fields 1 2 (/ 2)) (resting 1%R) (resting 2%R) (bent (/ 2)) [8; 7; 0] (gyro_plane_ready 1 2 (/ 2)) eq_refl eq_refl eq_refl eq_refl eq_refl eq_refl eq_refl eq_refl ) as (u' & v' & w' & E1 & E2 & E3 & E).
  { repeat (constructor; [cbn; lia|]). constructor. }
  { cbn. lia. }
  { cbn. lia. }
  { intros s t i _ _ _. reflexivity. }
  { intros s t i _ _ _. reflexivity. }
  { intros s t i _ _ _. reflexivity. }
  { lra. }
  { lra. }
  { lra. }
  { unfold neutral. rewrite !density_at. lra. }
  exists u', v', w'. do 3 (split; [assumption|]). specialize (E 1 ltac:(lia)). rewrite bent_momentum in E. unfold momentum in E. rewrite (proj1 (proj2 (vp_cases _ _))) in E. cbn [app Z.add Pos.add Pos.succ] in E. rewrite E. lra.
Qed.
Example C98_two_fluid_brio_wu_ex : let R := run (plasma_step true 4999 brio_wu_plasma (brio_wu_bcs electrons ions em) electrons ions em) brio_wu_dt 1 (gyro_line (1 / 10) (1) (3 / 4)) in
  exists u' v' w', ends R [(0, 16)] (f_0 electrons) u' /\ ends R [(0, 16)] (f_0 ions) v' /\ ends R [(0, 16)] (f_0 em) w' /\
    (u' [8; 0; 2]%Z + v' [8; 0; 2]%Z + / 1000000 * (w' [8; 0; 2]%Z * w' [8; 0; 3]%Z - w' [8; 0; 0]%Z * w' [8; 0; 5]%Z) = - 3 / 4000000)%R.
Proof.
  intros R. destruct (C98_two_fluid_brio_wu (0, 16) electrons ions em 4999 1 (gyro_line (1 / 10) (1) (3 / 4)) (gyro_fields (1 / 10) (1) (3 / 4)) (resting (1 / 10)%R) (resting (1)%R) (bent (3 / 4)) [8; 0] (1)%R (gyro_line_ready (1 / 10) (1) (3 / 4)) eq_refl eq_refl eq_refl eq_refl eq_refl eq_refl eq_refl eq_refl ) as (u' & v' & w' & E1 & E2 & E3 & E).
  { repeat (constructor; [cbn; lia|]). constructor. }
  { cbn. lia. }
  { intros t i _ _. reflexivity. }
  { intros t i _ _. reflexivity. }
  { intros t i _ _. reflexivity. }
  { apply density_at. }
  { apply density_at. }
  exists u', v', w'. do 3 (split; [assumption|]). specialize (E 1 ltac:(lia)). rewrite bent_momentum in E. unfold momentum in E. rewrite (proj1 (proj2 (vp_cases _ _))) in E. cbn [app Z.add Pos.add Pos.succ] in E. rewrite E. lra.
Qed.
Example C98_harris_current_sheet_ex : let R := run (plasma_step true 4999 sheet_plasma (brio_wu_bcs electrons ions em) electrons ions em) harris_dt 1 (gyro_line (me * 10 ^ 15) (25 * me * 10 ^ 15) (/ 1000)) in
  exists u' v' w', ends R [(0, 16)] (f_0 electrons) u' /\ ends R [(0, 16)] (f_0 ions) v' /\ ends R [(0, 16)] (f_0 em) w' /\
    (u' [8; 0; 2]%Z + v' [8; 0; 2]%Z + eps0 * (w' [8; 0; 2]%Z * w' [8; 0; 3]%Z - w' [8; 0; 0]%Z * w' [8; 0; 5]%Z) = - eps0 / 1000)%R.
Proof.
  intros R. destruct (C98_harris_current_sheet (0, 16) electrons ions em 4999 1 (gyro_line (me * 10 ^ 15) (25 * me * 10 ^ 15) (/ 1000)) (gyro_fields (me * 10 ^ 15) (25 * me * 10 ^ 15) (/ 1000)) (resting (me * 10 ^ 15)%R) (resting (25 * me * 10 ^ 15)%R) (bent (/ 1000)) [8; 0] (10 ^ 15)%R (gyro_line_ready (me * 10 ^ 15) (25 * me * 10 ^ 15) (/ 1000)) eq_refl eq_refl eq_refl eq_refl eq_refl eq_refl eq_refl eq_refl ) as (u' & v' & w' & E1 & E2 & E3 & E).
  { repeat (constructor; [cbn; lia|]). constructor. }
  { cbn. lia. }
  { intros t i _ _. reflexivity. }
  { intros t i _ _. reflexivity. }
  { intros t i _ _. reflexivity. }
  { apply density_at. }
  { apply density_at. }
  exists u', v', w'. do 3 (split; [assumption|]). specialize (E 1 ltac:(lia)). rewrite bent_momentum in E. unfold momentum in E. rewrite (proj1 (proj2 (vp_cases _ _))) in E. cbn [app Z.add Pos.add Pos.succ] in E. rewrite E. lra.
Qed.
Example C98_gem_challenge_ex : let R := run (plasma_step true 4999 sheet_plasma (gem_bcs electrons ions em) electrons ions em) gem_dt 1 (gyro_plane (me * 10 ^ 15) (25 * me * 10 ^ 15) (/ 1000)) in
  exists u' v' w', ends R swing_plane (f_0 electrons) u' /\ ends R swing_plane (f_0 ions) v' /\ ends R swing_plane (f_0 em) w' /\
    (u' [8; 7; 0; 2]%Z + v' [8; 7; 0; 2]%Z + eps0 * (w' [8; 7; 0; 2]%Z * w' [8; 7; 0; 3]%Z - w' [8; 7; 0; 0]%Z * w' [8; 7; 0; 5]%Z) = - eps0 / 1000)%R.
Proof.
  intros R. destruct (C98_gem_challenge (0, 16) (0, 16) electrons ions em 4999 1 (gyro_plane (me * 10 ^ 15) (25 * me * 10 ^ 15) (/ 1000)) (gyro_fields (me * 10 ^ 15) (25 * me * 10 ^ 15) (/ 1000)) (resting (me * 10 ^ 15)%R) (resting (25 * me * 10 ^ 15)%R) (bent (/ 1000)) [8; 7; 0] (10 ^ 15)%R (gyro_plane_ready (me * 10 ^ 15) (25 * me * 10 ^ 15) (/ 1000)) eq_refl eq_refl eq_refl eq_refl eq_refl eq_refl eq_refl eq_refl ) as (u' & v' & w' & E1 & E2 & E3 & E).
  { repeat (constructor; [cbn; lia|]). constructor. }
  { cbn. lia. }
  { cbn. lia. }
  { intros s t i _ _ _. reflexivity. }
  { intros s t i _ _ _. reflexivity. }
  { intros s t i _ _ _. reflexivity. }
  { apply density_at. }
  { apply density_at. }
  exists u', v', w'. do 3 (split; [assumption|]). specialize (E 1 ltac:(lia)). rewrite bent_momentum in E. unfold momentum in E. rewrite (proj1 (proj2 (vp_cases _ _))) in E. cbn [app Z.add Pos.add Pos.succ] in E. rewrite E. lra.
Qed.
