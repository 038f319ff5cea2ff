(** * Energy and exact motion with the constants of the current sheets (C96, C97). *)
From Coq Require Import ZArith List String Bool Reals Lra Lia Psatz.
From Verif Require Import Base BaseFacts BoxSpec BoxFacts Interface EulerSpec PhysicsSpec PhysicsFacts Properties_Physics NumFacts Range RangeSpec RangeFacts ApiSpec Arith ArithR Chunk FieldSpec VarId Manager MgrSpec MgrFacts
  BC BCSpec BCFacts Sweep SweepSpec Euler Maxwell Sources SourceSpec ParFacts SweepFacts FluxFacts Programs ProgramsSpec ConserveFacts RhsFacts Properties_Programs
  SymmetrySpec SymmetryFacts Properties_Symmetry Properties_Chunk Properties_Monopole AxesFacts PositiveSpec PositiveFacts Properties_Positive AccuracyGas AccuracySpec AccuracyFacts GaussSpec GaussFacts OscillationSpec OscillationFacts Properties_Gauss Initial Main
  Properties_Oscillation SwingSpec SwingFacts Properties_Swing GyroSpec GyroFacts Properties_Gyro FlowSpec FlowFacts SeriesFacts HeatSpec HeatFacts Properties_Heat Properties_Flow.
Import ListNotations.
Open Scope Z_scope.

(** Electrons and ions of the sheet: up to 10^15 particles of each kind per cubic metre,
    1.4 times as many as in the middle of the sheet, in magnetic fields up to three
    thousandths of a tesla, 1.3 times the field of the sheet. *)
Lemma sheet_steps : ((((53 * 10 ^ 7 + 182 * 10 ^ 7) * harris_dt) ^ 4 <= 46 / 10 ^ 9) /\ (((53 * 10 ^ 7 + 182 * 10 ^ 7) * gem_dt) ^ 4 <= 478 / 10 ^ 8))%R.
Proof.
  split.
  - replace (((53 * 10 ^ 7 + 182 * 10 ^ 7) * harris_dt) ^ 4)%R with (((53 * 10 ^ 7 + 182 * 10 ^ 7) ^ 2 * harris_dt ^ 2) ^ 2)%R by ring. rewrite harris_dt2. unfold mu0, eps0, c0. lra.
  - replace (((53 * 10 ^ 7 + 182 * 10 ^ 7) * gem_dt) ^ 4)%R with (((53 * 10 ^ 7 + 182 * 10 ^ 7) ^ 2 * gem_dt ^ 2) ^ 2)%R by ring. rewrite gem_dt2. unfold mu0, eps0, c0. lra.
Qed.
Lemma motion_pos : forall (u v w : field R) x N, (0 < N)%R -> u (x ++ [0]) = (me * N)%R -> v (x ++ [0]) = (25 * me * N)%R -> (0 <= motion2 eps0 u v w x)%R.
Proof.
  intros u v w x N HN Du Dv. destruct consts_pos as (P1 & P2 & P3 & P4 & P5). unfold motion2. assert (Q : forall (a : field R) j, (0 <= square a x j)%R) by (intros; unfold square; repeat apply Rplus_le_le_0_compat; apply pow2_ge_0).
  assert (0 < me * N)%R by now apply Rmult_lt_0_compat. assert (0 < 25 * me * N)%R by lra. rewrite Du, Dv. unfold Rdiv. repeat apply Rplus_le_le_0_compat; apply Rmult_le_pos; try apply Q; try (left; apply Rinv_0_lt_compat); lra.
Qed.

Theorem C96_harris_current_sheet : forall mx e i f fuel n (m : mgr R) L u v w x N, let M := [mx] in let p := sheet_plasma in
  program_ready m M L [e; i; f] fuel ->
  List.length (id_comps (f_0 e)) = 5%nat -> List.length (id_comps (f_0 i)) = 5%nat -> List.length (id_comps (f_0 f)) = 6%nat ->
  bs_points (id_basis (f_0 e)) = bs_points (id_basis (f_0 f)) -> bs_points (id_basis (f_0 i)) = bs_points (id_basis (f_0 f)) ->
  field_get L (f_0 e) = Some u -> field_get L (f_0 i) = Some v -> field_get L (f_0 f) = Some w ->
  in_box (M ++ [(0, bs_points (id_basis (f_0 f)))]) x -> let r := 6 * Z.of_nat n in fst mx + r <= nth 0 x 0 < snd mx - r ->
  uniform_near r 5 u x -> uniform_near r 5 v x -> uniform_near r 6 w x ->
  u (x ++ [0]) = (me * N)%R -> v (x ++ [0]) = (25 * me * N)%R -> (0 < N <= 10 ^ 15)%R -> (square w x 3 <= 9 / 10 ^ 6)%R ->
  let R := run (plasma_step true fuel p (brio_wu_bcs e i f) e i f) harris_dt n m in
  exists u' v' w', ends R M (f_0 e) u' /\ ends R M (f_0 i) v' /\ ends R M (f_0 f) w' /\
    (Rabs (plasma_energy eps0 u' v' w' x - plasma_energy eps0 u v w x) <= INR n * (12 / 10 ^ 9) * motion2 eps0 u v w x /\ Rabs (heat u' v' x - heat u v x) <= INR n * (14 / 10 ^ 9) * motion2 eps0 u v w x)%R.
Proof.
  intros mx e i f fuel n m L u v w x N M p HR Ne Ni Nf Pe Pi Hu Hv Hw Hx r Hi Uu Uv Uw Du Dv HN HB R.
  destruct consts_pos as (P1 & P2 & P3 & P4 & P5).
  assert (Q0 : ((- qe / me) ^ 2 = qe ^ 2 / me ^ 2)%R) by (field; lra). assert (Q1 : ((qe / (25 * me)) ^ 2 = qe ^ 2 / (625 * me ^ 2))%R) by (field; lra).
  assert (C0 : (0 < qe ^ 2 / me ^ 2 <= 31 * 10 ^ 21)%R) by (unfold qe, me; lra).
  assert (C1 : (0 < qe ^ 2 / (625 * me ^ 2) <= 31 * 10 ^ 21)%R) by (unfold qe, me; lra).
  assert (SQ : (0 <= square w x 3)%R) by (unfold square; pose proof (pow2_ge_0 (w (x ++ [3]))); pose proof (pow2_ge_0 (w (x ++ [3 + 1]))); pose proof (pow2_ge_0 (w (x ++ [3 + 2]))); lra).
  assert (PP := sheet_si). fold p in PP.
  destruct (C96_brio_wu sheet_gamma c0 eps0 (- qe) me qe (25 * me) mx e i f fuel harris_dt n m L u v w x (53 * 10 ^ 7) (182 * 10 ^ 7) HR Ne Ni Nf Pe Pi Hu Hv Hw Hx Hi Uu Uv Uw) as (u' & v' & w' & E1 & E2 & E3 & E4 & E5 & E6); rewrite ?Q0, ?Q1; try lra.
  - pose proof dts_pos. lra.
  - rewrite Du. apply Rmult_lt_0_compat; lra.
  - rewrite Dv. apply Rmult_lt_0_compat; lra.
  - apply Rle_trans with (31 * 10 ^ 21 * (9 / 10 ^ 6))%R; [apply Rmult_le_compat; lra|lra].
  - apply Rle_trans with (31 * 10 ^ 21 * (9 / 10 ^ 6))%R; [apply Rmult_le_compat; lra|lra].
  - rewrite Du, Dv. replace ((qe ^ 2 / me ^ 2 * (me * N) + qe ^ 2 / (625 * me ^ 2) * (25 * me * N)) / eps0)%R with (26 * (qe ^ 2 / (25 * me * eps0)) * N)%R by (field; lra).
    apply Rle_trans with (26 * (qe ^ 2 / (25 * me * eps0)) * (10 ^ 15))%R; [apply Rmult_le_compat_l; [unfold qe, me, eps0; lra|lra]|unfold qe, me, eps0; lra].
  - rewrite Rpow_mult_distr, harris_dt2. unfold mu0, eps0, c0. lra.
  - unfold R. rewrite PP. exists u', v', w'. do 3 (split; [assumption|]). assert (MP := motion_pos u v w x N (proj1 HN) Du Dv). pose proof (proj1 sheet_steps) as Z4. set (z := ((53 * 10 ^ 7 + 182 * 10 ^ 7) * harris_dt)%R) in *.
    pose proof (pos_INR n) as PN. set (M0 := motion2 eps0 u v w x) in *. assert (Z0 : (0 <= z ^ 4)%R) by (replace (z ^ 4)%R with (z ^ 2 * z ^ 2)%R by ring; apply Rmult_le_pos; apply pow2_ge_0).
    assert (NM : (0 <= INR n * M0)%R) by now apply Rmult_le_pos.
    assert (L1 : (INR n * (z ^ 4 / 4 * M0) <= INR n * (12 / 10 ^ 9) * M0)%R) by (replace (INR n * (z ^ 4 / 4 * M0))%R with (z ^ 4 / 4 * (INR n * M0))%R by ring; replace (INR n * (12 / 10 ^ 9) * M0)%R with (12 / 10 ^ 9 * (INR n * M0))%R by ring; apply Rmult_le_compat_r; [exact NM|lra]).
    assert (L2 : (INR n * (7 * z ^ 4 / 24 * M0) <= INR n * (14 / 10 ^ 9) * M0)%R) by (replace (INR n * (7 * z ^ 4 / 24 * M0))%R with (7 * z ^ 4 / 24 * (INR n * M0))%R by (field; lra); replace (INR n * (14 / 10 ^ 9) * M0)%R with (14 / 10 ^ 9 * (INR n * M0))%R by ring; apply Rmult_le_compat_r; [exact NM|lra]).
    assert (L3 : (INR n * (12 / 10 ^ 9) * M0 <= INR n * (14 / 10 ^ 9) * M0)%R) by (apply Rmult_le_compat_r; [exact MP|apply Rmult_le_compat_l; [exact PN|lra]]).
    split; [lra|apply Rabs_le; split; lra].
Qed.
Print Assumptions C96_harris_current_sheet.

Theorem C96_gem_challenge : forall mx my e i f fuel n (m : mgr R) L u v w x N, let M := [mx; my] in let p := sheet_plasma in
  program_ready m M L [e; i; f] fuel ->
  List.length (id_comps (f_0 e)) = 5%nat -> List.length (id_comps (f_0 i)) = 5%nat -> List.length (id_comps (f_0 f)) = 6%nat ->
  bs_points (id_basis (f_0 e)) = bs_points (id_basis (f_0 f)) -> bs_points (id_basis (f_0 i)) = bs_points (id_basis (f_0 f)) ->
  field_get L (f_0 e) = Some u -> field_get L (f_0 i) = Some v -> field_get L (f_0 f) = Some w ->
  in_box (M ++ [(0, bs_points (id_basis (f_0 f)))]) x -> let r := 6 * Z.of_nat n in fst mx + r <= nth 0 x 0 < snd mx - r -> fst my + r <= nth 1 x 0 < snd my - r ->
  uniform_around r 5 u x -> uniform_around r 5 v x -> uniform_around r 6 w x ->
  u (x ++ [0]) = (me * N)%R -> v (x ++ [0]) = (25 * me * N)%R -> (0 < N <= 10 ^ 15)%R -> (square w x 3 <= 9 / 10 ^ 6)%R ->
  let R := run (plasma_step true fuel p (gem_bcs e i f) e i f) gem_dt n m in
  exists u' v' w', ends R M (f_0 e) u' /\ ends R M (f_0 i) v' /\ ends R M (f_0 f) w' /\
    (Rabs (plasma_energy eps0 u' v' w' x - plasma_energy eps0 u v w x) <= INR n * (12 / 10 ^ 7) * motion2 eps0 u v w x /\ Rabs (heat u' v' x - heat u v x) <= INR n * (14 / 10 ^ 7) * motion2 eps0 u v w x)%R.
Proof.
  intros mx my e i f fuel n m L u v w x N M p HR Ne Ni Nf Pe Pi Hu Hv Hw Hx r Hi0 Hi1 Uu Uv Uw Du Dv HN HB R.
  destruct consts_pos as (P1 & P2 & P3 & P4 & P5).
  assert (Q0 : ((- qe / me) ^ 2 = qe ^ 2 / me ^ 2)%R) by (field; lra). assert (Q1 : ((qe / (25 * me)) ^ 2 = qe ^ 2 / (625 * me ^ 2))%R) by (field; lra).
  assert (C0 : (0 < qe ^ 2 / me ^ 2 <= 31 * 10 ^ 21)%R) by (unfold qe, me; lra).
  assert (C1 : (0 < qe ^ 2 / (625 * me ^ 2) <= 31 * 10 ^ 21)%R) by (unfold qe, me; lra).
  assert (SQ : (0 <= square w x 3)%R) by (unfold square; pose proof (pow2_ge_0 (w (x ++ [3]))); pose proof (pow2_ge_0 (w (x ++ [3 + 1]))); pose proof (pow2_ge_0 (w (x ++ [3 + 2]))); lra).
  assert (PP := sheet_si). fold p in PP.
  destruct (C96_gem sheet_gamma c0 eps0 (- qe) me qe (25 * me) mx my e i f fuel gem_dt n m L u v w x (53 * 10 ^ 7) (182 * 10 ^ 7) HR Ne Ni Nf Pe Pi Hu Hv Hw Hx Hi0 Hi1 Uu Uv Uw) as (u' & v' & w' & E1 & E2 & E3 & E4 & E5 & E6); rewrite ?Q0, ?Q1; try lra.
  - pose proof dts_pos. lra.
  - rewrite Du. apply Rmult_lt_0_compat; lra.
  - rewrite Dv. apply Rmult_lt_0_compat; lra.
  - apply Rle_trans with (31 * 10 ^ 21 * (9 / 10 ^ 6))%R; [apply Rmult_le_compat; lra|lra].
  - apply Rle_trans with (31 * 10 ^ 21 * (9 / 10 ^ 6))%R; [apply Rmult_le_compat; lra|lra].
  - rewrite Du, Dv. replace ((qe ^ 2 / me ^ 2 * (me * N) + qe ^ 2 / (625 * me ^ 2) * (25 * me * N)) / eps0)%R with (26 * (qe ^ 2 / (25 * me * eps0)) * N)%R by (field; lra).
    apply Rle_trans with (26 * (qe ^ 2 / (25 * me * eps0)) * (10 ^ 15))%R; [apply Rmult_le_compat_l; [unfold qe, me, eps0; lra|lra]|unfold qe, me, eps0; lra].
  - rewrite Rpow_mult_distr, gem_dt2. unfold mu0, eps0, c0. lra.
  - unfold R. rewrite PP. exists u', v', w'. do 3 (split; [assumption|]). assert (MP := motion_pos u v w x N (proj1 HN) Du Dv). pose proof (proj2 sheet_steps) as Z4. set (z := ((53 * 10 ^ 7 + 182 * 10 ^ 7) * gem_dt)%R) in *.
    pose proof (pos_INR n) as PN. set (M0 := motion2 eps0 u v w x) in *. assert (Z0 : (0 <= z ^ 4)%R) by (replace (z ^ 4)%R with (z ^ 2 * z ^ 2)%R by ring; apply Rmult_le_pos; apply pow2_ge_0).
    assert (NM : (0 <= INR n * M0)%R) by now apply Rmult_le_pos.
    assert (L1 : (INR n * (z ^ 4 / 4 * M0) <= INR n * (12 / 10 ^ 7) * M0)%R) by (replace (INR n * (z ^ 4 / 4 * M0))%R with (z ^ 4 / 4 * (INR n * M0))%R by ring; replace (INR n * (12 / 10 ^ 7) * M0)%R with (12 / 10 ^ 7 * (INR n * M0))%R by ring; apply Rmult_le_compat_r; [exact NM|lra]).
    assert (L2 : (INR n * (7 * z ^ 4 / 24 * M0) <= INR n * (14 / 10 ^ 7) * M0)%R) by (replace (INR n * (7 * z ^ 4 / 24 * M0))%R with (7 * z ^ 4 / 24 * (INR n * M0))%R by (field; lra); replace (INR n * (14 / 10 ^ 7) * M0)%R with (14 / 10 ^ 7 * (INR n * M0))%R by ring; apply Rmult_le_compat_r; [exact NM|lra]).
    assert (L3 : (INR n * (12 / 10 ^ 7) * M0 <= INR n * (14 / 10 ^ 7) * M0)%R) by (apply Rmult_le_compat_r; [exact MP|apply Rmult_le_compat_l; [exact PN|lra]]).
    split; [lra|apply Rabs_le; split; lra].
Qed.
Print Assumptions C96_gem_challenge.

Theorem C97_harris_current_sheet : forall mx e i f fuel n (m : mgr R) L u v w x N (fu fv fw : R -> Z -> R), let M := [mx] in let p := sheet_plasma in
  program_ready m M L [e; i; f] fuel ->
  List.length (id_comps (f_0 e)) = 5%nat -> List.length (id_comps (f_0 i)) = 5%nat -> List.length (id_comps (f_0 f)) = 6%nat ->
  bs_points (id_basis (f_0 e)) = bs_points (id_basis (f_0 f)) -> bs_points (id_basis (f_0 i)) = bs_points (id_basis (f_0 f)) ->
  field_get L (f_0 e) = Some u -> field_get L (f_0 i) = Some v -> field_get L (f_0 f) = Some w ->
  in_box (M ++ [(0, bs_points (id_basis (f_0 f)))]) x -> let r := 6 * Z.of_nat n in fst mx + r <= nth 0 x 0 < snd mx - r ->
  uniform_near r 5 u x -> uniform_near r 5 v x -> uniform_near r 6 w x ->
  u (x ++ [0]) = (me * N)%R -> v (x ++ [0]) = (25 * me * N)%R -> (0 < N <= 10 ^ 15)%R -> (square w x 3 <= 9 / 10 ^ 6)%R ->
  exact_motion eps0 (- qe) me qe (25 * me) (u (x ++ [0])) (v (x ++ [0])) (fun j => w (x ++ [3 + j])) fu fv fw -> moves_as u v w x (fu 0%R) (fv 0%R) (fw 0%R) ->
  let R := run (plasma_step true fuel p (brio_wu_bcs e i f) e i f) harris_dt n m in
  exists u' v' w', ends R M (f_0 e) u' /\ ends R M (f_0 i) v' /\ ends R M (f_0 f) w' /\
    (gap2 eps0 u' v' w' x (fu (INR n * harris_dt)) (fv (INR n * harris_dt)) (fw (INR n * harris_dt)) <= (INR n * (2 / 10 ^ 9)) ^ 2 * motion2 eps0 u v w x)%R.
Proof.
  intros mx e i f fuel n m L u v w x N fu fv fw M p HR Ne Ni Nf Pe Pi Hu Hv Hw Hx r Hi Uu Uv Uw Du Dv HN HB HX HS R.
  destruct consts_pos as (P1 & P2 & P3 & P4 & P5).
  assert (Q0 : ((- qe / me) ^ 2 = qe ^ 2 / me ^ 2)%R) by (field; lra). assert (Q1 : ((qe / (25 * me)) ^ 2 = qe ^ 2 / (625 * me ^ 2))%R) by (field; lra).
  assert (C0 : (0 < qe ^ 2 / me ^ 2 <= 31 * 10 ^ 21)%R) by (unfold qe, me; lra).
  assert (C1 : (0 < qe ^ 2 / (625 * me ^ 2) <= 31 * 10 ^ 21)%R) by (unfold qe, me; lra).
  assert (SQ : (0 <= square w x 3)%R) by (unfold square; pose proof (pow2_ge_0 (w (x ++ [3]))); pose proof (pow2_ge_0 (w (x ++ [3 + 1]))); pose proof (pow2_ge_0 (w (x ++ [3 + 2]))); lra).
  assert (PP := sheet_si). fold p in PP.
  destruct (C97_brio_wu sheet_gamma c0 eps0 (- qe) me qe (25 * me) mx e i f fuel harris_dt n m L u v w x (53 * 10 ^ 7) (182 * 10 ^ 7) fu fv fw HR Ne Ni Nf Pe Pi Hu Hv Hw Hx Hi Uu Uv Uw) as (u' & v' & w' & E1 & E2 & E3 & E4 & E5); rewrite ?Q0, ?Q1; try lra.
  - pose proof dts_pos. lra.
  - rewrite Du. apply Rmult_lt_0_compat; lra.
  - rewrite Dv. apply Rmult_lt_0_compat; lra.
  - apply Rle_trans with (31 * 10 ^ 21 * (9 / 10 ^ 6))%R; [apply Rmult_le_compat; lra|lra].
  - apply Rle_trans with (31 * 10 ^ 21 * (9 / 10 ^ 6))%R; [apply Rmult_le_compat; lra|lra].
  - rewrite Du, Dv. replace ((qe ^ 2 / me ^ 2 * (me * N) + qe ^ 2 / (625 * me ^ 2) * (25 * me * N)) / eps0)%R with (26 * (qe ^ 2 / (25 * me * eps0)) * N)%R by (field; lra).
    apply Rle_trans with (26 * (qe ^ 2 / (25 * me * eps0)) * (10 ^ 15))%R; [apply Rmult_le_compat_l; [unfold qe, me, eps0; lra|lra]|unfold qe, me, eps0; lra].
  - rewrite Rpow_mult_distr, harris_dt2. unfold mu0, eps0, c0. lra.
  - exact HX.
  - exact HS.
  - unfold R. rewrite PP. exists u', v', w'. do 3 (split; [assumption|]). assert (MP := motion_pos u v w x N (proj1 HN) Du Dv). pose proof (proj1 sheet_steps) as Z4. set (z := ((53 * 10 ^ 7 + 182 * 10 ^ 7) * harris_dt)%R) in *.
    pose proof (pos_INR n) as PN. set (M0 := motion2 eps0 u v w x) in *. assert (Z0 : (0 <= z ^ 4)%R) by (replace (z ^ 4)%R with (z ^ 2 * z ^ 2)%R by ring; apply Rmult_le_pos; apply pow2_ge_0).
    eapply Rle_trans; [exact E5|]. apply Rmult_le_compat_r; [exact MP|]. apply pow_incr. split; [apply Rmult_le_pos; lra|]. apply Rmult_le_compat_l; lra.
Qed.
Print Assumptions C97_harris_current_sheet.

Theorem C97_gem_challenge : forall mx my e i f fuel n (m : mgr R) L u v w x N (fu fv fw : R -> Z -> R), let M := [mx; my] in let p := sheet_plasma in
  program_ready m M L [e; i; f] fuel ->
  List.length (id_comps (f_0 e)) = 5%nat -> List.length (id_comps (f_0 i)) = 5%nat -> List.length (id_comps (f_0 f)) = 6%nat ->
  bs_points (id_basis (f_0 e)) = bs_points (id_basis (f_0 f)) -> bs_points (id_basis (f_0 i)) = bs_points (id_basis (f_0 f)) ->
  field_get L (f_0 e) = Some u -> field_get L (f_0 i) = Some v -> field_get L (f_0 f) = Some w ->
  in_box (M ++ [(0, bs_points (id_basis (f_0 f)))]) x -> let r := 6 * Z.of_nat n in fst mx + r <= nth 0 x 0 < snd mx - r -> fst my + r <= nth 1 x 0 < snd my - r ->
  uniform_around r 5 u x -> uniform_around r 5 v x -> uniform_around r 6 w x ->
  u (x ++ [0]) = (me * N)%R -> v (x ++ [0]) = (25 * me * N)%R -> (0 < N <= 10 ^ 15)%R -> (square w x 3 <= 9 / 10 ^ 6)%R ->
  exact_motion eps0 (- qe) me qe (25 * me) (u (x ++ [0])) (v (x ++ [0])) (fun j => w (x ++ [3 + j])) fu fv fw -> moves_as u v w x (fu 0%R) (fv 0%R) (fw 0%R) ->
  let R := run (plasma_step true fuel p (gem_bcs e i f) e i f) gem_dt n m in
  exists u' v' w', ends R M (f_0 e) u' /\ ends R M (f_0 i) v' /\ ends R M (f_0 f) w' /\
    (gap2 eps0 u' v' w' x (fu (INR n * gem_dt)) (fv (INR n * gem_dt)) (fw (INR n * gem_dt)) <= (INR n * (2 / 10 ^ 7)) ^ 2 * motion2 eps0 u v w x)%R.
Proof.
  intros mx my e i f fuel n m L u v w x N fu fv fw M p HR Ne Ni Nf Pe Pi Hu Hv Hw Hx r Hi0 Hi1 Uu Uv Uw Du Dv HN HB HX HS R.
  destruct consts_pos as (P1 & P2 & P3 & P4 & P5).
  assert (Q0 : ((- qe / me) ^ 2 = qe ^ 2 / me ^ 2)%R) by (field; lra). assert (Q1 : ((qe / (25 * me)) ^ 2 = qe ^ 2 / (625 * me ^ 2))%R) by (field; lra).
  assert (C0 : (0 < qe ^ 2 / me ^ 2 <= 31 * 10 ^ 21)%R) by (unfold qe, me; lra).
  assert (C1 : (0 < qe ^ 2 / (625 * me ^ 2) <= 31 * 10 ^ 21)%R) by (unfold qe, me; lra).
  assert (SQ : (0 <= square w x 3)%R) by (unfold square; pose proof (pow2_ge_0 (w (x ++ [3]))); pose proof (pow2_ge_0 (w (x ++ [3 + 1]))); pose proof (pow2_ge_0 (w (x ++ [3 + 2]))); lra).
  assert (PP := sheet_si). fold p in PP.
  destruct (C97_gem sheet_gamma c0 eps0 (- qe) me qe (25 * me) mx my e i f fuel gem_dt n m L u v w x (53 * 10 ^ 7) (182 * 10 ^ 7) fu fv fw HR Ne Ni Nf Pe Pi Hu Hv Hw Hx Hi0 Hi1 Uu Uv Uw) as (u' & v' & w' & E1 & E2 & E3 & E4 & E5); rewrite ?Q0, ?Q1; try lra.
  - pose proof dts_pos. lra.
  - rewrite Du. apply Rmult_lt_0_compat; lra.
  - rewrite Dv. apply Rmult_lt_0_compat; lra.
  - apply Rle_trans with (31 * 10 ^ 21 * (9 / 10 ^ 6))%R; [apply Rmult_le_compat; lra|lra].
  - apply Rle_trans with (31 * 10 ^ 21 * (9 / 10 ^ 6))%R; [apply Rmult_le_compat; lra|lra].
  - rewrite Du, Dv. replace ((qe ^ 2 / me ^ 2 * (me * N) + qe ^ 2 / (625 * me ^ 2) * (25 * me * N)) / eps0)%R with (26 * (qe ^ 2 / (25 * me * eps0)) * N)%R by (field; lra).
    apply Rle_trans with (26 * (qe ^ 2 / (25 * me * eps0)) * (10 ^ 15))%R; [apply Rmult_le_compat_l; [unfold qe, me, eps0; lra|lra]|unfold qe, me, eps0; lra].
  - rewrite Rpow_mult_distr, gem_dt2. unfold mu0, eps0, c0. lra.
  - exact HX.
  - exact HS.
  - unfold R. rewrite PP. exists u', v', w'. do 3 (split; [assumption|]). assert (MP := motion_pos u v w x N (proj1 HN) Du Dv). pose proof (proj2 sheet_steps) as Z4. set (z := ((53 * 10 ^ 7 + 182 * 10 ^ 7) * gem_dt)%R) in *.
    pose proof (pos_INR n) as PN. set (M0 := motion2 eps0 u v w x) in *. assert (Z0 : (0 <= z ^ 4)%R) by (replace (z ^ 4)%R with (z ^ 2 * z ^ 2)%R by ring; apply Rmult_le_pos; apply pow2_ge_0).
    eapply Rle_trans; [exact E5|]. apply Rmult_le_compat_r; [exact MP|]. apply pow_incr. split; [apply Rmult_le_pos; lra|]. apply Rmult_le_compat_l; lra.
Qed.
Print Assumptions C97_gem_challenge.

(** ** cases

    10^15 particles at rest in an electric field of 1 V/m and a magnetic field of 1 mT. *)
Example C96_harris_current_sheet_ex : let R := run (plasma_step true 4999 sheet_plasma (brio_wu_bcs electrons ions em) electrons ions em) harris_dt 1 (gyro_line (me * 10 ^ 15) (25 * me * 10 ^ 15) (/ 1000)) in
  exists u' v' w', ends R [(0, 16)] (f_0 electrons) u' /\ ends R [(0, 16)] (f_0 ions) v' /\ ends R [(0, 16)] (f_0 em) w' /\ (Rabs (heat u' v' [8; 0]%Z - 6) <= 14 / 10 ^ 9 * eps0)%R.
Proof.
  intros R. destruct (C96_harris_current_sheet (0, 16) electrons ions em 4999 1 (gyro_line (me * 10 ^ 15) (25 * me * 10 ^ 15) (/ 1000)) (gyro_fields (me * 10 ^ 15) (25 * me * 10 ^ 15) (/ 1000)) (resting (me * 10 ^ 15)%R) (resting (25 * me * 10 ^ 15)%R) (bent (/ 1000)) [8; 0] (10 ^ 15)%R (gyro_line_ready (me * 10 ^ 15) (25 * me * 10 ^ 15) (/ 1000)) eq_refl eq_refl eq_refl eq_refl eq_refl eq_refl eq_refl eq_refl) as (u' & v' & w' & E1 & E2 & E3 & _ & E).
  { repeat (constructor; [cbn; lia|]). constructor. }
  { cbn. lia. }
  { intros t i _ _. reflexivity. }
  { intros t i _ _. reflexivity. }
  { intros t i _ _. reflexivity. }
  { apply density_at. }
  { apply density_at. }
  { lra. }
  { rewrite (proj1 (bent_square _ _)). lra. }
  exists u', v', w'. do 3 (split; [assumption|]). rewrite bent_motion, (proj2 (bent_energy 1 _ _ (/ 1000) _)) in E. cbn [INR] in E. rewrite Rmult_1_l in E. exact E.
Qed.
Example C96_gem_challenge_ex : let R := run (plasma_step true 4999 sheet_plasma (gem_bcs electrons ions em) electrons ions em) gem_dt 1 (gyro_plane (me * 10 ^ 15) (25 * me * 10 ^ 15) (/ 1000)) in
  exists u' v' w', ends R swing_plane (f_0 electrons) u' /\ ends R swing_plane (f_0 ions) v' /\ ends R swing_plane (f_0 em) w' /\ (Rabs (heat u' v' [8; 7; 0]%Z - 6) <= 14 / 10 ^ 7 * eps0)%R.
Proof.
  intros R. destruct (C96_gem_challenge (0, 16) (0, 16) electrons ions em 4999 1 (gyro_plane (me * 10 ^ 15) (25 * me * 10 ^ 15) (/ 1000)) (gyro_fields (me * 10 ^ 15) (25 * me * 10 ^ 15) (/ 1000)) (resting (me * 10 ^ 15)%R) (resting (25 * me * 10 ^ 15)%R) (bent (/ 1000)) [8; 7; 0] (10 ^ 15)%R (gyro_plane_ready (me * 10 ^ 15) (25 * me * 10 ^ 15) (/ 1000)) eq_refl eq_refl eq_refl eq_refl eq_refl eq_refl eq_refl eq_refl) as (u' & v' & w' & E1 & E2 & E3 & _ & E).
  { repeat (constructor; [cbn; lia|]). constructor. }
  { cbn. lia. }
  { cbn. lia. }
  { intros s t i _ _ _. reflexivity. }
  { intros s t i _ _ _. reflexivity. }
  { intros s t i _ _ _. reflexivity. }
  { apply density_at. }
  { apply density_at. }
  { lra. }
  { rewrite (proj1 (bent_square _ _)). lra. }
  exists u', v', w'. do 3 (split; [assumption|]). rewrite bent_motion, (proj2 (bent_energy 1 _ _ (/ 1000) _)) in E. cbn [INR] in E. rewrite Rmult_1_l in E. exact E.
Qed.
Example C97_harris_current_sheet_ex : let R := run (plasma_step true 4999 sheet_plasma (brio_wu_bcs electrons ions em) electrons ions em) harris_dt 1 (gyro_line (me * 10 ^ 15) (25 * me * 10 ^ 15) (/ 1000)) in
  exists fu fv fw, exact_motion eps0 (- qe) me qe (25 * me) (me * 10 ^ 15) (25 * me * 10 ^ 15) (fun j => bent (/ 1000) ([8; 0] ++ [3 + j])) fu fv fw /\ fw 0%R 0 = 1%R /\ exists u' v' w', ends R [(0, 16)] (f_0 electrons) u' /\ ends R [(0, 16)] (f_0 ions) v' /\ ends R [(0, 16)] (f_0 em) w' /\ (gap2 eps0 u' v' w' [8; 0]%Z (fu harris_dt) (fv harris_dt) (fw harris_dt) <= (2 / 10 ^ 9) ^ 2 * eps0)%R.
Proof.
  intros R. destruct (C97_exists eps0 (- qe) me qe (25 * me) (me * 10 ^ 15) (25 * me * 10 ^ 15) (fun j => bent (/ 1000) ([8; 0] ++ [3 + j])) (fun _ => 0%R) (fun _ => 0%R) (fun j => bent (/ 1000) ([8; 0] ++ [j]))) as (fu & fv & fw & HX & HS).
  exists fu, fv, fw. split; [exact HX|]. split; [apply (HS 0); lia|].
  destruct (C97_harris_current_sheet (0, 16) electrons ions em 4999 1 (gyro_line (me * 10 ^ 15) (25 * me * 10 ^ 15) (/ 1000)) (gyro_fields (me * 10 ^ 15) (25 * me * 10 ^ 15) (/ 1000)) (resting (me * 10 ^ 15)%R) (resting (25 * me * 10 ^ 15)%R) (bent (/ 1000)) [8; 0] (10 ^ 15)%R fu fv fw (gyro_line_ready (me * 10 ^ 15) (25 * me * 10 ^ 15) (/ 1000)) eq_refl eq_refl eq_refl eq_refl eq_refl eq_refl eq_refl eq_refl) as (u' & v' & w' & E1 & E2 & E3 & E).
  { repeat (constructor; [cbn; lia|]). constructor. }
  { cbn. lia. }
  { intros t i _ _. reflexivity. }
  { intros t i _ _. reflexivity. }
  { intros t i _ _. reflexivity. }
  { apply density_at. }
  { apply density_at. }
  { lra. }
  { rewrite (proj1 (bent_square _ _)). lra. }
  { rewrite !density_at. exact HX. }
  { intros j Hj. destruct (HS j Hj) as (-> & -> & ->). split; [|split]; [| |reflexivity]; unfold resting; rewrite last_last; change (@f0 RbaseSymbolsImpl.R RArith) with 0%R; assert (j = 0 \/ j = 1 \/ j = 2) as [->|[->| ->]] by lia; reflexivity. }
  exists u', v', w'. do 3 (split; [assumption|]). rewrite bent_motion in E. cbn [INR] in E. rewrite !Rmult_1_l in E. exact E.
Qed.
Example C97_gem_challenge_ex : let R := run (plasma_step true 4999 sheet_plasma (gem_bcs electrons ions em) electrons ions em) gem_dt 1 (gyro_plane (me * 10 ^ 15) (25 * me * 10 ^ 15) (/ 1000)) in
  exists fu fv fw, exact_motion eps0 (- qe) me qe (25 * me) (me * 10 ^ 15) (25 * me * 10 ^ 15) (fun j => bent (/ 1000) ([8; 7; 0] ++ [3 + j])) fu fv fw /\ fw 0%R 0 = 1%R /\ exists u' v' w', ends R swing_plane (f_0 electrons) u' /\ ends R swing_plane (f_0 ions) v' /\ ends R swing_plane (f_0 em) w' /\ (gap2 eps0 u' v' w' [8; 7; 0]%Z (fu gem_dt) (fv gem_dt) (fw gem_dt) <= (2 / 10 ^ 7) ^ 2 * eps0)%R.
Proof.
  intros R. destruct (C97_exists eps0 (- qe) me qe (25 * me) (me * 10 ^ 15) (25 * me * 10 ^ 15) (fun j => bent (/ 1000) ([8; 7; 0] ++ [3 + j])) (fun _ => 0%R) (fun _ => 0%R) (fun j => bent (/ 1000) ([8; 7; 0] ++ [j]))) as (fu & fv & fw & HX & HS).
  exists fu, fv, fw. split; [exact HX|]. split; [apply (HS 0); lia|].
  destruct (C97_gem_challenge (0, 16) (0, 16) electrons ions em 4999 1 (gyro_plane (me * 10 ^ 15) (25 * me * 10 ^ 15) (/ 1000)) (gyro_fields (me * 10 ^ 15) (25 * me * 10 ^ 15) (/ 1000)) (resting (me * 10 ^ 15)%R) (resting (25 * me * 10 ^ 15)%R) (bent (/ 1000)) [8; 7; 0] (10 ^ 15)%R fu fv fw (gyro_plane_ready (me * 10 ^ 15) (25 * me * 10 ^ 15) (/ 1000)) eq_refl eq_refl eq_refl eq_refl eq_refl eq_refl eq_refl eq_refl) as (u' & v' & w' & E1 & E2 & E3 & E).
  { repeat (constructor; [cbn; lia|]). constructor. }
  { cbn. lia. }
  { cbn. lia. }
  { intros s t i _ _ _. reflexivity. }
  { intros s t i _ _ _. reflexivity. }
  { intros s t i _ _ _. reflexivity. }
  { apply density_at. }
  { apply density_at. }
  { lra. }
  { rewrite (proj1 (bent_square _ _)). lra. }
  { rewrite !density_at. exact HX. }
  { intros j Hj. destruct (HS j Hj) as (-> & -> & ->). split; [|split]; [| |reflexivity]; unfold resting; rewrite last_last; change (@f0 RbaseSymbolsImpl.R RArith) with 0%R; assert (j = 0 \/ j = 1 \/ j = 2) as [->|[->| ->]] by lia; reflexivity. }
  exists u', v', w'. do 3 (split; [assumption|]). rewrite bent_motion in E. cbn [INR] in E. rewrite !Rmult_1_l in E. exact E.
Qed.
