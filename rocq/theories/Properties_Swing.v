(** * Oscillations of the plasma of the current sheets (C85). *)
From Coq Require Import ZArith List String Bool Reals Lra Lia Psatz.
From Verif Require Import Base BaseFacts BoxSpec BoxFacts Interface EulerSpec PhysicsSpec PhysicsFacts Properties_Physics NumFacts Range RangeSpec RangeFacts ApiSpec Arith ArithR Chunk FieldSpec VarId Manager MgrSpec MgrFacts
  BC BCSpec BCFacts Sweep SweepSpec Euler Maxwell Sources SourceSpec ParFacts SweepFacts FluxFacts Programs ProgramsSpec ConserveFacts RhsFacts Properties_Programs
  SymmetrySpec SymmetryFacts Properties_Symmetry Properties_Chunk Properties_Monopole AxesFacts PositiveSpec PositiveFacts Properties_Positive AccuracyGas AccuracySpec AccuracyFacts GaussSpec GaussFacts OscillationSpec OscillationFacts Properties_Gauss Initial Main
  Properties_Oscillation SwingSpec SwingFacts.
Import ListNotations.
Open Scope Z_scope.

(** ** C85 in a plane

    The same as [C85_brio_wu] for the boundary conditions of gem_challenge: around a cell
    with uniform surroundings the square of the amplitude is multiplied by
    1 - z^4/12 + z^6/36 in every step. *)
Theorem C85_gem : forall p mx my e i f fuel dt n (m : mgr R) L u v w x, let M := [mx; my] in
  program_ready m M L [e; i; f] fuel ->
  List.length (id_comps (f_0 e)) = 5%nat -> List.length (id_comps (f_0 i)) = 5%nat -> List.length (id_comps (f_0 f)) = 6%nat ->
  bs_points (id_basis (f_0 e)) = bs_points (id_basis (f_0 f)) -> bs_points (id_basis (f_0 i)) = bs_points (id_basis (f_0 f)) -> List.length (pl_ms p) = 2%nat ->
  field_get L (f_0 e) = Some u -> field_get L (f_0 i) = Some v -> field_get L (f_0 f) = Some w ->
  in_box (M ++ [(0, bs_points (id_basis (f_0 f)))]) x -> let r := 6 * Z.of_nat n in fst mx + r <= nth 0 x 0 < snd mx - r -> fst my + r <= nth 1 x 0 < snd my - r ->
  uniform_around r 5 u x -> uniform_around r 5 v x -> uniform_around r 6 w x -> (forall j, 3 <= j < 6 -> w (x ++ [j]) = 0%R) ->
  let w2 := plasma_frequency2 p (u (x ++ [0])) (v (x ++ [0])) in let z2 := (w2 * dt ^ 2)%R in
  let R := run (plasma_step true fuel p (gem_bcs e i f) e i f) dt n m in
  exists u' v' w', ends R M (f_0 e) u' /\ ends R M (f_0 i) v' /\ ends R M (f_0 f) w' /\
    u' (x ++ [0]) = u (x ++ [0]) /\ v' (x ++ [0]) = v (x ++ [0]) /\ (forall j, 3 <= j < 6 -> w' (x ++ [j]) = 0%R) /\
    forall j, 0 <= j < 3 -> amplitude2 p w2 u' v' w' x j = ((1 - z2 ^ 2 / 12 + z2 ^ 3 / 36) ^ n * amplitude2 p w2 u v w x j)%R.
Proof.
  intros p mx my e i f fuel dt n m L u v w x M HR Ne Ni Nf Pe Pi Hms Hu Hv Hw Hx r Hi0 Hi1 Uu Uv Uw HB w2 z2 R.
  destruct (C57_gem _ _ p mx my e i f fuel dt n m L u v w HR Ne Ni Nf Pe Pi Hms Hu Hv Hw) as (m1 & L1 & E1 & (S1 & _) & _ & _ & _ & V1 & _).
  destruct (V1 0%nat (f_0 e) eq_refl) as (u' & Gu & Hu'). destruct (V1 1%nat (f_0 i) eq_refl) as (v' & Gv & Hv'). destruct (V1 2%nat (f_0 f) eq_refl) as (w' & Gw & Hw').
  exists u', v', w'. do 3 (split; [exists m1, L1; auto|]). fold M in Hu', Hv', Hw'. set (Op := plasma_op _ _ _ _ _ _ _ _) in *.
  assert (LX : (1 < List.length x)%nat). { apply Forall2_length in Hx. rewrite app_length in Hx. cbn in Hx. lia. }
  pose (S0 := fun (a : nat) (k : Z) => three u v w a (x ++ [k])).
  assert (LV : forall t, (t <= n)%nat -> level2 (Nat.iter t (still_rk3 p dt) S0) (6 * Z.of_nat (n - t)) (Nat.iter t (rk3 Op dt) (three u v w)) x).
  { induction t as [|t IH]; intros Ht.
    - rewrite Nat.sub_0_r. intros s q a k Hs Hq Ha Hk. unfold Nat.iter, S0. destruct a as [|[|[|a]]]; [apply Uu|apply Uv|apply Uw|lia]; assumption.
    - specialize (IH ltac:(lia)). change (Nat.iter (S t) (rk3 Op dt) (three u v w)) with (rk3 Op dt (Nat.iter t (rk3 Op dt) (three u v w))).
      change (Nat.iter (S t) (still_rk3 p dt) S0) with (still_rk3 p dt (Nat.iter t (still_rk3 p dt) S0)).
      apply level2_rk3; auto; [lia| | |replace (6 * Z.of_nat (n - S t) + 6) with (6 * Z.of_nat (n - t)) by lia; exact IH].
      + unfold lo, hi, M. destruct mx as [l h]. cbn [fst snd nth] in Hi0 |- *. unfold r in Hi0. lia.
      + unfold lo, hi, M. destruct my as [l h]. cbn [fst snd nth] in Hi1 |- *. unfold r in Hi1. lia. }
  assert (HB0 : unmagnetised S0) by exact HB. destruct (still_iter p dt S0 n HB0) as (A & B & C & D).
  specialize (LV n ltac:(lia)). rewrite Nat.sub_diag in LV. set (T := Nat.iter n (still_rk3 p dt) S0) in *.
  assert (X : forall a k, (a < 3)%nat -> 0 <= k < comps_of a -> Nat.iter n (rk3 Op dt) (three u v w) a (x ++ [k]) = T a k).
  { intros a k Ha Hk. rewrite <- (move_0 1 x LX) at 1. rewrite <- (move_0 0 (move 1 0 x)) by (rewrite move_length; lia). apply LV; [lia|lia|exact Ha|exact Hk]. }
  assert (XU : forall k, 0 <= k < 5 -> u' (x ++ [k]) = T 0%nat k) by (intros k Hk; rewrite Hu' by (apply cell_join; [rewrite Pe; exact Hx|rewrite Ne; lia]); apply X; [lia|exact Hk]).
  assert (XV : forall k, 0 <= k < 5 -> v' (x ++ [k]) = T 1%nat k) by (intros k Hk; rewrite Hv' by (apply cell_join; [rewrite Pi; exact Hx|rewrite Ni; lia]); apply X; [lia|exact Hk]).
  assert (XW : forall k, 0 <= k < 6 -> w' (x ++ [k]) = T 2%nat k) by (intros k Hk; rewrite Hw' by (apply cell_join; [exact Hx|rewrite Nf; lia]); apply X; [lia|exact Hk]).
  split; [rewrite XU by lia; exact B|]. split; [rewrite XV by lia; exact C|]. split; [intros j Hj; rewrite XW by lia; now apply A|].
  intros j Hj. unfold amplitude2 at 1. unfold current_of. rewrite XU, XV, XW by lia. exact (D j Hj).
Qed.
Print Assumptions C85_gem.

Theorem C85_gem_bounded : forall p mx my e i f fuel dt n (m : mgr R) L u v w x, let M := [mx; my] in
  program_ready m M L [e; i; f] fuel ->
  List.length (id_comps (f_0 e)) = 5%nat -> List.length (id_comps (f_0 i)) = 5%nat -> List.length (id_comps (f_0 f)) = 6%nat ->
  bs_points (id_basis (f_0 e)) = bs_points (id_basis (f_0 f)) -> bs_points (id_basis (f_0 i)) = bs_points (id_basis (f_0 f)) -> List.length (pl_ms p) = 2%nat ->
  field_get L (f_0 e) = Some u -> field_get L (f_0 i) = Some v -> field_get L (f_0 f) = Some w ->
  in_box (M ++ [(0, bs_points (id_basis (f_0 f)))]) x -> let r := 6 * Z.of_nat n in fst mx + r <= nth 0 x 0 < snd mx - r -> fst my + r <= nth 1 x 0 < snd my - r ->
  uniform_around r 5 u x -> uniform_around r 5 v x -> uniform_around r 6 w x -> (forall j, 3 <= j < 6 -> w (x ++ [j]) = 0%R) ->
  let w2 := plasma_frequency2 p (u (x ++ [0])) (v (x ++ [0])) in (0 <= w2)%R ->
  let R := run (plasma_step true fuel p (gem_bcs e i f) e i f) dt n m in
  exists u' v' w', ends R M (f_0 e) u' /\ ends R M (f_0 i) v' /\ ends R M (f_0 f) w' /\ forall j, 0 <= j < 3 ->
    ((w2 * dt ^ 2 <= 3)%R -> (amplitude2 p w2 u' v' w' x j <= amplitude2 p w2 u v w x j)%R) /\
    ((3 < w2 * dt ^ 2)%R -> (0 < n)%nat -> (0 < amplitude2 p w2 u v w x j)%R -> (amplitude2 p w2 u v w x j < amplitude2 p w2 u' v' w' x j)%R).
Proof.
  intros p mx my e i f fuel dt n m L u v w x M HR Ne Ni Nf Pe Pi Hms Hu Hv Hw Hx r Hi0 Hi1 Uu Uv Uw HB w2 P R.
  destruct (C85_gem p mx my e i f fuel dt n m L u v w x HR Ne Ni Nf Pe Pi Hms Hu Hv Hw Hx Hi0 Hi1 Uu Uv Uw HB) as (u' & v' & w' & E1 & E2 & E3 & _ & _ & _ & E).
  exists u', v', w'. do 3 (split; [assumption|]). intros j Hj. specialize (E j Hj). fold w2 in E. rewrite E.
  assert (Z : (0 <= w2 * dt ^ 2)%R) by (apply Rmult_le_pos; [exact P|nra]). destruct (growth (w2 * dt ^ 2) n Z) as [G1 G2].
  assert (A : (0 <= amplitude2 p w2 u v w x j)%R) by (unfold amplitude2; nra). split.
  - intros H. specialize (G1 H). nra.
  - intros H Hn HA. specialize (G2 H Hn). nra.
Qed.
Print Assumptions C85_gem_bounded.

(** ** the constants of the current sheets *)

(** The solver objects and the time steps of the two programs. *)
Definition sheet_plasma : plasma := mkPlasma sheet_gamma si_c (lorentz_setup (- si_e)%F si_me) (lorentz_setup si_e sheet_mi) (multipliers si_eps0 [(- si_e)%F; si_e] [si_me; sheet_mi]).
Definition harris_dt : R := (f1 / sheet_wci / steps_total 100 100)%F.
Definition gem_dt : R := (fofz 40 / sheet_wci / steps_total 1000 125)%F.
Theorem C85_harris_constants : forall aligned fuel opens, harris_current_sheet (A := RArith) aligned fuel opens =
  with_grid 1 [400] [(- sheet_Lx (fofz 4) / fofz 2)%F] [sheet_Lx (fofz 4)] (fun g =>
  simulate fuel opens "/Users/seamill/local_storage/quikin/data" [f_0 pl_electrons; f_0 pl_ions; f_0 pl_field]
    (gem_solve fuel (sheet_ic (fofz 4)) [f_0 pl_electrons; f_0 pl_ions; f_0 pl_field])
    (plasma_step aligned fuel sheet_plasma (brio_wu_bcs pl_electrons pl_ions pl_field) pl_electrons pl_ions pl_field) harris_dt 100 100 g).
Proof. reflexivity. Qed.
Print Assumptions C85_harris_constants.
Theorem C85_gem_constants : forall aligned fuel opens dir, gem_challenge (A := RArith) aligned fuel opens dir =
  with_grid 2 [256; 512] [(- sheet_Lx f1 / fofz 2)%F; (- sheet_Lx f1)%F] [sheet_Lx f1; (fofz 2 * sheet_Lx f1)%F] (fun g =>
  simulate fuel opens dir [f_0 pl_electrons; f_0 pl_ions; f_0 pl_field]
    (gem_solve fuel (sheet_ic f1) [f_0 pl_electrons; f_0 pl_ions; f_0 pl_field])
    (plasma_step aligned fuel sheet_plasma (gem_bcs pl_electrons pl_ions pl_field) pl_electrons pl_ions pl_field) gem_dt 1000 125 g).
Proof. reflexivity. Qed.
Print Assumptions C85_gem_constants.

(** Charge and mass of the electron, permittivity, permeability and speed of light. *)
Definition qe : R := (160217662 / 10 ^ 27)%R.
Definition me : R := (910938356 / 10 ^ 39)%R.
Definition eps0 : R := (885418782 / 10 ^ 20)%R.
Definition mu0 : R := (125663706 / 10 ^ 14)%R.
Definition c0 : R := 299792458%R.

Lemma si_values : @si_e R RArith = qe /\ @si_me R RArith = me /\ @si_eps0 R RArith = eps0 /\ @si_mu0 R RArith = mu0 /\ @si_c R RArith = c0.
Proof.
  unfold si_e, si_me, si_eps0, si_mu0, si_c, qe, me, eps0, mu0, c0. cbn [fdec fofz RArith Rdecimal].
  repeat split; f_equal; rewrite pow_IZR; f_equal; reflexivity.
Qed.
Lemma consts_pos : (0 < qe /\ 0 < me /\ 0 < eps0 /\ 0 < mu0 /\ 0 < c0)%R.
Proof. unfold qe, me, eps0, mu0, c0. repeat split; lra. Qed.

(** The square of the ion cyclotron frequency. *)
Lemma wci2 : (@sheet_wci R RArith ^ 2 = 288 / 100000 * (mu0 * eps0 * c0 ^ 4))%R /\ (0 < @sheet_wci R RArith)%R.
Proof.
  destruct si_values as (V1 & V2 & V3 & V4 & V5). destruct consts_pos as (P1 & P2 & P3 & P4 & P5).
  unfold sheet_wci, sheet_B0, sheet_P0, sheet_Ti, sheet_Te, sheet_n0, sheet_mi, sheet_gamma. rewrite V1, V2, V3, V4, V5.
  cbn [fadd fsub fmul fdiv fsqrt fofz fdec RArith Rdecimal]. change (@f1 R RArith) with 1%R. change (IZR (10 ^ 1)) with 10%R.
  set (P := (2 * mu0 * _)%R).
  assert (EP : P = (2 * mu0 * (c0 ^ 2 * (25 * me) * eps0 / qe ^ 2 * (36 / 1000 * c0 ^ 2 * me)))%R) by (unfold P; field; lra).
  assert (PP : (0 < P)%R).
  { rewrite EP. unfold Rdiv. repeat apply Rmult_lt_0_compat; try lra; try (apply pow_lt; lra). apply Rinv_0_lt_compat, pow_lt; lra. }
  split.
  - replace ((qe * sqrt P / (25 * me)) ^ 2)%R with (qe ^ 2 * (sqrt P * sqrt P) / (25 * me) ^ 2)%R by (field; lra). rewrite sqrt_sqrt by lra. rewrite EP. field. lra.
  - apply Rdiv_lt_0_compat; [|lra]. apply Rmult_lt_0_compat; [lra|]. apply sqrt_lt_R0. exact PP.
Qed.

Lemma harris_dt2 : (harris_dt ^ 2 = / 10 ^ 8 / (288 / 100000 * (mu0 * eps0 * c0 ^ 4)))%R.
Proof.
  destruct wci2 as [Q QP]. rewrite <- Q. unfold harris_dt, steps_total. cbn [fdiv fofz RArith]. change (@f1 R RArith) with 1%R. change (IZR (100 * 100)) with 10000%R. field. lra.
Qed.
Lemma gem_dt2 : (gem_dt ^ 2 = 1600 / 125000 ^ 2 / (288 / 100000 * (mu0 * eps0 * c0 ^ 4)))%R.
Proof.
  destruct wci2 as [Q QP]. rewrite <- Q. unfold gem_dt, steps_total. cbn [fdiv fofz RArith]. change (IZR (1000 * 125)) with 125000%R. field. lra.
Qed.

(** In seconds. *)
Lemma between_squares : forall a b x, (0 <= a -> 0 < b -> 0 < x -> a ^ 2 < x ^ 2 < b ^ 2 -> a < x < b)%R.
Proof. intros a b x A B X [H1 H2]. split; nra. Qed.
Lemma dts_pos : (0 < harris_dt /\ 0 < gem_dt)%R.
Proof.
  destruct wci2 as [_ QP]. unfold harris_dt, gem_dt, steps_total. cbn [fdiv fofz RArith]. change (@f1 R RArith) with 1%R. change (IZR (100 * 100)) with 10000%R. change (IZR (1000 * 125)) with 125000%R.
  split; repeat (apply Rdiv_lt_0_compat; [|lra]); lra.
Qed.
Example C85_harris_constants_ex : (62 / 10 ^ 13 < harris_dt < 63 / 10 ^ 13)%R.
Proof. apply between_squares; try lra; [apply dts_pos|]. rewrite harris_dt2. unfold mu0, eps0, c0. lra. Qed.
Example C85_gem_constants_ex : (198 / 10 ^ 13 < gem_dt < 199 / 10 ^ 13)%R.
Proof. apply between_squares; try lra; [apply dts_pos|]. rewrite gem_dt2. unfold mu0, eps0, c0. lra. Qed.

(** [N] pairs of electrons and ions per cubic metre. *)
Lemma sheet_frequency : forall N, plasma_frequency2 sheet_plasma (me * N) (25 * me * N) = (26 * (qe ^ 2 / (25 * me * eps0)) * N)%R.
Proof.
  intros N. destruct si_values as (V1 & V2 & V3 & V4 & V5). destruct consts_pos as (P1 & P2 & P3 & P4 & P5).
  unfold plasma_frequency2, sheet_plasma. cbn [pl_ms pl_e pl_i]. unfold multipliers, lorentz_setup. cbn [map combine fold_left nth app]. 
  unfold sheet_mi. rewrite V1, V2, V3. cbn [fadd fsub fmul fdiv fneg fofz RArith]. field. lra.
Qed.

(** harris_current_sheet: with up to 2*10^19 particles of each kind per cubic metre,
    more than 20 thousand times as many as in the middle of the sheet, the oscillations
    of a uniform part do not grow. *)
Theorem C85_harris_current_sheet : forall mx e i f fuel n (m : mgr R) L u v w x N, let M := [mx] in let p := sheet_plasma in
  program_ready m M L [e; i; f] fuel ->
  List.length (id_comps (f_0 e)) = 5%nat -> List.length (id_comps (f_0 i)) = 5%nat -> List.length (id_comps (f_0 f)) = 6%nat ->
  bs_points (id_basis (f_0 e)) = bs_points (id_basis (f_0 f)) -> bs_points (id_basis (f_0 i)) = bs_points (id_basis (f_0 f)) ->
  field_get L (f_0 e) = Some u -> field_get L (f_0 i) = Some v -> field_get L (f_0 f) = Some w ->
  in_box (M ++ [(0, bs_points (id_basis (f_0 f)))]) x -> let r := 6 * Z.of_nat n in fst mx + r <= nth 0 x 0 < snd mx - r ->
  uniform_near r 5 u x -> uniform_near r 5 v x -> uniform_near r 6 w x -> (forall j, 3 <= j < 6 -> w (x ++ [j]) = 0%R) ->
  u (x ++ [0]) = (me * N)%R -> v (x ++ [0]) = (25 * me * N)%R -> (0 <= N <= 2 * 10 ^ 19)%R -> let w2 := (26 * (qe ^ 2 / (25 * me * eps0)) * N)%R in
  let R := run (plasma_step true fuel p (brio_wu_bcs e i f) e i f) harris_dt n m in
  exists u' v' w', ends R M (f_0 e) u' /\ ends R M (f_0 i) v' /\ ends R M (f_0 f) w' /\ forall j, 0 <= j < 3 ->
    (amplitude2 p w2 u' v' w' x j <= amplitude2 p w2 u v w x j)%R.
Proof.
  intros mx e i f fuel n m L u v w x N M p HR Ne Ni Nf Pe Pi Hu Hv Hw Hx r Hi Uu Uv Uw HB Du Dv HN w2 R.
  assert (W : plasma_frequency2 p (u (x ++ [0])) (v (x ++ [0])) = w2) by (rewrite Du, Dv; apply sheet_frequency).
  assert (K : (0 < qe ^ 2 / (25 * me * eps0))%R) by (unfold qe, me, eps0; lra).
  destruct (C85_bounded p mx e i f fuel harris_dt n m L u v w x HR Ne Ni Nf Pe Pi eq_refl Hu Hv Hw Hx Hi Uu Uv Uw HB) as (u' & v' & w' & E1 & E2 & E3 & E); [rewrite W; unfold w2; nra|].
  exists u', v', w'. do 3 (split; [assumption|]). intros j Hj. destruct (E j Hj) as [E4 _]. rewrite W in E4. apply E4.
  rewrite harris_dt2. unfold w2, qe, me, eps0, mu0, c0. lra.
Qed.
Print Assumptions C85_harris_current_sheet.

(** gem_challenge: the same with up to 2*10^18 particles, more than 2000 times as many. *)
Theorem C85_gem_challenge : forall mx my e i f fuel n (m : mgr R) L u v w x N, let M := [mx; my] in let p := sheet_plasma in
  program_ready m M L [e; i; f] fuel ->
  List.length (id_comps (f_0 e)) = 5%nat -> List.length (id_comps (f_0 i)) = 5%nat -> List.length (id_comps (f_0 f)) = 6%nat ->
  bs_points (id_basis (f_0 e)) = bs_points (id_basis (f_0 f)) -> bs_points (id_basis (f_0 i)) = bs_points (id_basis (f_0 f)) ->
  field_get L (f_0 e) = Some u -> field_get L (f_0 i) = Some v -> field_get L (f_0 f) = Some w ->
  in_box (M ++ [(0, bs_points (id_basis (f_0 f)))]) x -> let r := 6 * Z.of_nat n in fst mx + r <= nth 0 x 0 < snd mx - r -> fst my + r <= nth 1 x 0 < snd my - r ->
  uniform_around r 5 u x -> uniform_around r 5 v x -> uniform_around r 6 w x -> (forall j, 3 <= j < 6 -> w (x ++ [j]) = 0%R) ->
  u (x ++ [0]) = (me * N)%R -> v (x ++ [0]) = (25 * me * N)%R -> (0 <= N <= 2 * 10 ^ 18)%R -> let w2 := (26 * (qe ^ 2 / (25 * me * eps0)) * N)%R in
  let R := run (plasma_step true fuel p (gem_bcs e i f) e i f) gem_dt n m in
  exists u' v' w', ends R M (f_0 e) u' /\ ends R M (f_0 i) v' /\ ends R M (f_0 f) w' /\ forall j, 0 <= j < 3 ->
    (amplitude2 p w2 u' v' w' x j <= amplitude2 p w2 u v w x j)%R.
Proof.
  intros mx my e i f fuel n m L u v w x N M p HR Ne Ni Nf Pe Pi Hu Hv Hw Hx r Hi0 Hi1 Uu Uv Uw HB Du Dv HN w2 R.
  assert (W : plasma_frequency2 p (u (x ++ [0])) (v (x ++ [0])) = w2) by (rewrite Du, Dv; apply sheet_frequency).
  assert (K : (0 < qe ^ 2 / (25 * me * eps0))%R) by (unfold qe, me, eps0; lra).
  destruct (C85_gem_bounded p mx my e i f fuel gem_dt n m L u v w x HR Ne Ni Nf Pe Pi eq_refl Hu Hv Hw Hx Hi0 Hi1 Uu Uv Uw HB) as (u' & v' & w' & E1 & E2 & E3 & E); [rewrite W; unfold w2; nra|].
  exists u', v', w'. do 3 (split; [assumption|]). intros j Hj. destruct (E j Hj) as [E4 _]. rewrite W in E4. apply E4.
  rewrite gem_dt2. unfold w2, qe, me, eps0, mu0, c0. lra.
Qed.
Print Assumptions C85_gem_challenge.

(** A plane of sixteen by sixteen cells with 10^15 particles of each kind at rest in one
    field: the field of a cell in the middle after one step. *)
Definition swing_plane : box := [(0, 16); (0, 16)].
Definition still_fields (N : R) : list (vid * field R) := [(f_0 electrons, resting (me * N)%R); (f_0 ions, resting (25 * me * N)%R); (f_0 em, pulled)].
Definition plane_start (N : R) : mgr R := mgr_of (mkGrid (range_of swing_plane) [0%R; 0%R] [1%R; 1%R] [(/ 16)%R; (/ 16)%R]) swing_plane (still_fields N) None None.
Definition line_start (N : R) : mgr R := mgr_of fine_grid [(0, 16)] (still_fields N) None None.
Lemma plane_ready : program_ready (plane_start (10 ^ 15)) swing_plane (still_fields (10 ^ 15)) [electrons; ions; em] 4999.
Proof. is_ready. Qed.
Lemma line_ready : program_ready (line_start (10 ^ 15)) [(0, 16)] (still_fields (10 ^ 15)) [electrons; ions; em] 4999.
Proof. is_ready. Qed.
Lemma still_start : forall N x, amplitude2 sheet_plasma (26 * (qe ^ 2 / (25 * me * eps0)) * N) (resting (me * N)%R) (resting (25 * me * N)%R) pulled x 0 = (26 * (qe ^ 2 / (25 * me * eps0)) * N)%R.
Proof.
  intros N x. unfold amplitude2, current_of, resting, pulled. rewrite !last_last. cbn [Z.add Z.eqb Pos.eqb]. change (@f0 R RArith) with 0%R. change (@f1 R RArith) with 1%R. ring.
Qed.
Lemma field_below : forall p w2 u v w x j, (0 < w2)%R -> (amplitude2 p w2 u v w x j <= w2)%R -> (w (x ++ [j]) ^ 2 <= 1)%R.
Proof.
  intros p w2 u v w x j P H. unfold amplitude2 in H. pose proof (pow2_ge_0 (current_of p u v x j)) as C. set (a := (w (x ++ [j]) ^ 2)%R) in *. clearbody a. nra.
Qed.
Example C85_gem_challenge_ex : let R := run (plasma_step true 4999 sheet_plasma (gem_bcs electrons ions em) electrons ions em) gem_dt 1 (plane_start (10 ^ 15)) in
  exists u' v' w', ends R swing_plane (f_0 electrons) u' /\ ends R swing_plane (f_0 ions) v' /\ ends R swing_plane (f_0 em) w' /\ (w' [8; 7; 0; 0]%Z ^ 2 <= 1)%R.
Proof.
  intros R. destruct (C85_gem_challenge (0, 16) (0, 16) electrons ions em 4999 1 (plane_start (10 ^ 15)) (still_fields (10 ^ 15)) (resting (me * 10 ^ 15)%R) (resting (25 * me * 10 ^ 15)%R) pulled [8; 7; 0] (10 ^ 15)%R plane_ready eq_refl eq_refl eq_refl eq_refl eq_refl eq_refl eq_refl eq_refl) as (u' & v' & w' & E1 & E2 & E3 & E).
  { repeat (constructor; [cbn; lia|]). constructor. }
  { cbn. lia. }
  { cbn. lia. }
  { intros s t i _ _ _. reflexivity. }
  { intros s t i _ _ _. reflexivity. }
  { intros s t i _ _ _. reflexivity. }
  { intros j Hj. unfold pulled. assert (j = 3 \/ j = 4 \/ j = 5) as [->|[->| ->]] by lia; reflexivity. }
  { reflexivity. }
  { reflexivity. }
  { lra. }
  exists u', v', w'. do 3 (split; [assumption|]). specialize (E 0 ltac:(lia)). rewrite still_start in E.
  apply (field_below _ _ _ _ _ [8; 7; 0] 0) in E; [exact E|]. unfold qe, me, eps0. lra.
Qed.
Example C85_harris_current_sheet_ex : let R := run (plasma_step true 4999 sheet_plasma (brio_wu_bcs electrons ions em) electrons ions em) harris_dt 1 (line_start (10 ^ 15)) in
  exists u' v' w', ends R [(0, 16)] (f_0 electrons) u' /\ ends R [(0, 16)] (f_0 ions) v' /\ ends R [(0, 16)] (f_0 em) w' /\ (w' [8; 0; 0]%Z ^ 2 <= 1)%R.
Proof.
  intros R. destruct (C85_harris_current_sheet (0, 16) electrons ions em 4999 1 (line_start (10 ^ 15)) (still_fields (10 ^ 15)) (resting (me * 10 ^ 15)%R) (resting (25 * me * 10 ^ 15)%R) pulled [8; 0] (10 ^ 15)%R line_ready eq_refl eq_refl eq_refl eq_refl eq_refl eq_refl eq_refl eq_refl) as (u' & v' & w' & E1 & E2 & E3 & E).
  { repeat (constructor; [cbn; lia|]). constructor. }
  { cbn. lia. }
  { intros t i _ _. reflexivity. }
  { intros t i _ _. reflexivity. }
  { intros t i _ _. reflexivity. }
  { intros j Hj. unfold pulled. assert (j = 3 \/ j = 4 \/ j = 5) as [->|[->| ->]] by lia; reflexivity. }
  { reflexivity. }
  { reflexivity. }
  { lra. }
  exists u', v', w'. do 3 (split; [assumption|]). specialize (E 0 ltac:(lia)). rewrite still_start in E.
  apply (field_below _ _ _ _ _ [8; 0] 0) in E; [exact E|]. unfold qe, me, eps0. lra.
Qed.
(** One step of any length with round numbers: the exact change of the amplitude. *)
Definition tame_start : mgr R := mgr_of (mkGrid (range_of swing_plane) [0%R; 0%R] [1%R; 1%R] [(/ 16)%R; (/ 16)%R]) swing_plane swing_fields None None.
Lemma tame_ready : program_ready tame_start swing_plane swing_fields [electrons; ions; em] 4999.
Proof. is_ready. Qed.
Example C85_gem_ex : forall dt, let R := run (plasma_step true 4999 flow_plasma (gem_bcs electrons ions em) electrons ions em) dt 1 tame_start in
  exists u' v' w', ends R swing_plane (f_0 electrons) u' /\ ends R swing_plane (f_0 ions) v' /\ ends R swing_plane (f_0 em) w' /\
    (6 * w' [8; 7; 0; 0]%Z ^ 2 + (2 * u' [8; 7; 0; 1]%Z + -1 * v' [8; 7; 0; 1]%Z) ^ 2 = 6 * (1 - 3 * dt ^ 4 + 6 * dt ^ 6))%R.
Proof.
  intros dt R. destruct (C85_gem flow_plasma (0, 16) (0, 16) electrons ions em 4999 dt 1 tame_start swing_fields (resting 1%R) (resting 2%R) pulled [8; 7; 0] tame_ready eq_refl eq_refl eq_refl eq_refl eq_refl eq_refl eq_refl eq_refl eq_refl) as (u' & v' & w' & E1 & E2 & E3 & _ & _ & _ & E).
  { repeat (constructor; [cbn; lia|]). constructor. }
  { cbn. lia. }
  { cbn. lia. }
  { intros s t i _ _ _. reflexivity. }
  { intros s t i _ _ _. reflexivity. }
  { intros s t i _ _ _. reflexivity. }
  { intros j Hj. unfold pulled. assert (j = 3 \/ j = 4 \/ j = 5) as [->|[->| ->]] by lia; reflexivity. }
  exists u', v', w'. do 3 (split; [assumption|]). specialize (E 0 ltac:(lia)).
  assert (W : plasma_frequency2 flow_plasma (resting 1%R ([8; 7; 0] ++ [0])) (resting 2%R ([8; 7; 0] ++ [0])) = 6%R) by (unfold plasma_frequency2; cbn; ring).
  assert (A0 : amplitude2 flow_plasma 6 (resting 1%R) (resting 2%R) pulled [8; 7; 0] 0 = 6%R) by (unfold amplitude2, current_of, pulled, resting; cbn; ring).
  rewrite W, A0 in E. unfold amplitude2, current_of in E. change (nth 0 (pl_ms flow_plasma) 0%R) with 2%R in E. change (nth 1 (pl_ms flow_plasma) 0%R) with (-1)%R in E.
  change ([8; 7; 0] ++ [0]) with [8; 7; 0; 0] in E. change ([8; 7; 0] ++ [0 + 1]) with [8; 7; 0; 1] in E. rewrite E. field.
Qed.
Example C85_gem_bounded_ex : forall dt, let R := run (plasma_step true 4999 flow_plasma (gem_bcs electrons ions em) electrons ions em) dt 1 tame_start in
  exists u' v' w', ends R swing_plane (f_0 electrons) u' /\ ends R swing_plane (f_0 ions) v' /\ ends R swing_plane (f_0 em) w' /\
    (dt = / 10 -> 6 * w' [8; 7; 0; 0]%Z ^ 2 + (2 * u' [8; 7; 0; 1]%Z + -1 * v' [8; 7; 0; 1]%Z) ^ 2 <= 6)%R /\ (dt = 1 -> 6 < 6 * w' [8; 7; 0; 0]%Z ^ 2 + (2 * u' [8; 7; 0; 1]%Z + -1 * v' [8; 7; 0; 1]%Z) ^ 2)%R.
Proof.
  intros dt R. destruct (C85_gem_ex dt) as (u' & v' & w' & E1 & E2 & E3 & E). exists u', v', w'. do 3 (split; [assumption|]). rewrite E. split; intros ->; lra.
Qed.
