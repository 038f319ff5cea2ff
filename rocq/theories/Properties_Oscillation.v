(** * Oscillations of a uniform plasma (C85). *)
From Coq Require Import ZArith List String Bool Reals Lra Lia Psatz.
From Verif Require Import Base BaseFacts BoxSpec BoxFacts Interface EulerSpec PhysicsSpec PhysicsFacts Properties_Physics NumFacts Range RangeSpec RangeFacts ApiSpec Arith ArithR Chunk FieldSpec VarId Manager MgrSpec MgrFacts
  BC BCSpec BCFacts Sweep SweepSpec Euler Maxwell Sources SourceSpec ParFacts SweepFacts FluxFacts Programs ProgramsSpec ConserveFacts RhsFacts Properties_Programs
  SymmetrySpec SymmetryFacts Properties_Symmetry Properties_Chunk Properties_Monopole AxesFacts PositiveSpec PositiveFacts Properties_Positive AccuracyGas AccuracySpec AccuracyFacts GaussSpec GaussFacts OscillationSpec OscillationFacts Properties_Gauss Initial Main.
Import ListNotations.
Open Scope Z_scope.

(** ** C85: the oscillation

    If all cells that can influence the cell [x] in [n] steps have the same fluids and
    the same electric field, and there is no magnetic field, the square of the amplitude
    of the oscillation of each component of field and current is multiplied by
    1 - z^4/12 + z^6/36 in every step, where z is the frequency times the step. *)
Theorem C85_brio_wu : forall p mx e i f fuel dt n (m : mgr R) L u v w x, let M := [mx] in
  program_ready m M L [e; i; f] fuel ->
  List.length (id_comps (f_0 e)) = 5%nat -> List.length (id_comps (f_0 i)) = 5%nat -> List.length (id_comps (f_0 f)) = 6%nat ->
  bs_points (id_basis (f_0 e)) = bs_points (id_basis (f_0 f)) -> bs_points (id_basis (f_0 i)) = bs_points (id_basis (f_0 f)) -> List.length (pl_ms p) = 2%nat ->
  field_get L (f_0 e) = Some u -> field_get L (f_0 i) = Some v -> field_get L (f_0 f) = Some w ->
  in_box (M ++ [(0, bs_points (id_basis (f_0 f)))]) x -> let r := 6 * Z.of_nat n in fst mx + r <= nth 0 x 0 < snd mx - r ->
  uniform_near r 5 u x -> uniform_near r 5 v x -> uniform_near r 6 w x -> (forall j, 3 <= j < 6 -> w (x ++ [j]) = 0%R) ->
  let w2 := plasma_frequency2 p (u (x ++ [0])) (v (x ++ [0])) in let z2 := (w2 * dt ^ 2)%R in
  let R := run (plasma_step true fuel p (brio_wu_bcs e i f) e i f) dt n m in
  exists u' v' w', ends R M (f_0 e) u' /\ ends R M (f_0 i) v' /\ ends R M (f_0 f) w' /\
    u' (x ++ [0]) = u (x ++ [0]) /\ v' (x ++ [0]) = v (x ++ [0]) /\ (forall j, 3 <= j < 6 -> w' (x ++ [j]) = 0%R) /\
    forall j, 0 <= j < 3 -> amplitude2 p w2 u' v' w' x j = ((1 - z2 ^ 2 / 12 + z2 ^ 3 / 36) ^ n * amplitude2 p w2 u v w x j)%R.
Proof.
  intros p mx e i f fuel dt n m L u v w x M HR Ne Ni Nf Pe Pi Hms Hu Hv Hw Hx r Hi Uu Uv Uw HB w2 z2 R.
  destruct (C57_brio_wu _ _ p mx e i f fuel dt n m L u v w HR Ne Ni Nf Pe Pi Hms Hu Hv Hw) as (m1 & L1 & E1 & (S1 & _) & _ & _ & _ & V1 & _).
  destruct (V1 0%nat (f_0 e) eq_refl) as (u' & Gu & Hu'). destruct (V1 1%nat (f_0 i) eq_refl) as (v' & Gv & Hv'). destruct (V1 2%nat (f_0 f) eq_refl) as (w' & Gw & Hw').
  exists u', v', w'. do 3 (split; [exists m1, L1; auto|]). fold M in Hu', Hv', Hw'. set (Op := plasma_op _ _ _ _ _ _ _ _) in *.
  assert (LX : (0 < List.length x)%nat). { apply Forall2_length in Hx. rewrite app_length in Hx. cbn in Hx. lia. }
  pose (S0 := fun (a : nat) (k : Z) => three u v w a (x ++ [k])).
  assert (LV : forall t, (t <= n)%nat -> level (Nat.iter t (still_rk3 p dt) S0) (6 * Z.of_nat (n - t)) (Nat.iter t (rk3 Op dt) (three u v w)) x).
  { induction t as [|t IH]; intros Ht.
    - rewrite Nat.sub_0_r. intros s a k Hs Ha Hk. unfold Nat.iter, S0. destruct a as [|[|[|a]]]; [apply Uu|apply Uv|apply Uw|lia]; assumption.
    - specialize (IH ltac:(lia)). change (Nat.iter (S t) (rk3 Op dt) (three u v w)) with (rk3 Op dt (Nat.iter t (rk3 Op dt) (three u v w))).
      change (Nat.iter (S t) (still_rk3 p dt) S0) with (still_rk3 p dt (Nat.iter t (still_rk3 p dt) S0)).
      apply level_rk3; auto; [lia| |replace (6 * Z.of_nat (n - S t) + 6) with (6 * Z.of_nat (n - t)) by lia; exact IH].
      unfold lo, hi, M. destruct mx as [l h]. cbn [fst snd nth] in Hi |- *. unfold r in Hi. lia. }
  assert (ST : forall t, let T := Nat.iter t (still_rk3 p dt) S0 in unmagnetised T /\ T 0%nat 0 = u (x ++ [0]) /\ T 1%nat 0 = v (x ++ [0]) /\
    forall j, 0 <= j < 3 -> (w2 * T 2%nat j ^ 2 + still_current p T j ^ 2 = (1 - z2 ^ 2 / 12 + z2 ^ 3 / 36) ^ t * amplitude2 p w2 u v w x j)%R).
  { induction t as [|t (A & B & C & D)]; cbn zeta.
    - split; [exact HB|]. split; [reflexivity|]. split; [reflexivity|]. intros j Hj. rewrite pow_O, Rmult_1_l. reflexivity.
    - change (Nat.iter (S t) (still_rk3 p dt) S0) with (still_rk3 p dt (Nat.iter t (still_rk3 p dt) S0)). set (T := Nat.iter t (still_rk3 p dt) S0) in *.
      destruct (still_rk3_plain p dt T A) as (A' & B' & C' & D'). rewrite B, C in *. fold w2 in D'. fold z2 in D'. split; [exact A'|]. split; [exact B'|]. split; [exact C'|].
      intros j Hj. rewrite D', D by exact Hj. cbn [pow]. ring. }
  specialize (LV n ltac:(lia)). rewrite Nat.sub_diag in LV. destruct (ST n) as (A & B & C & D). set (T := Nat.iter n (still_rk3 p dt) S0) in *.
  assert (X : forall a k, (a < 3)%nat -> 0 <= k < comps_of a -> Nat.iter n (rk3 Op dt) (three u v w) a (x ++ [k]) = T a k).
  { intros a k Ha Hk. rewrite <- (move_0 0 x LX) at 1. apply LV; [lia|exact Ha|exact Hk]. }
  assert (XU : forall k, 0 <= k < 5 -> u' (x ++ [k]) = T 0%nat k) by (intros k Hk; rewrite Hu' by (apply cell_join; [rewrite Pe; exact Hx|rewrite Ne; lia]); apply X; [lia|exact Hk]).
  assert (XV : forall k, 0 <= k < 5 -> v' (x ++ [k]) = T 1%nat k) by (intros k Hk; rewrite Hv' by (apply cell_join; [rewrite Pi; exact Hx|rewrite Ni; lia]); apply X; [lia|exact Hk]).
  assert (XW : forall k, 0 <= k < 6 -> w' (x ++ [k]) = T 2%nat k) by (intros k Hk; rewrite Hw' by (apply cell_join; [exact Hx|rewrite Nf; lia]); apply X; [lia|exact Hk]).
  split; [rewrite XU by lia; exact B|]. split; [rewrite XV by lia; exact C|]. split; [intros j Hj; rewrite XW by lia; now apply A|].
  intros j Hj. unfold amplitude2 at 1. unfold current_of. rewrite XU, XV, XW by lia. exact (D j Hj).
Qed.
Print Assumptions C85_brio_wu.

Lemma growth : forall z2 n, (0 <= z2)%R -> let a := ((1 - z2 ^ 2 / 12 + z2 ^ 3 / 36) ^ n)%R in
  (z2 <= 3 -> 0 <= a <= 1)%R /\ (3 < z2 -> (0 < n)%nat -> 1 < a)%R.
Proof.
  intros z2 n Hz a. set (g := (1 - z2 ^ 2 / 12 + z2 ^ 3 / 36)%R) in *. assert (E : g = (1 - z2 * z2 * (3 - z2) / 36)%R) by (unfold g; field). unfold a.
  assert (P : (0 <= z2 * z2)%R) by nra. split; intros H.
  - assert (G : (0 <= g <= 1)%R). { rewrite E. split; [|assert (0 <= z2 * z2 * (3 - z2))%R by (apply Rmult_le_pos; lra); lra]. assert (z2 * z2 * (3 - z2) <= 9 * 3)%R by (apply Rmult_le_compat; nra). lra. }
    clear E. induction n as [|n IH]; cbn [pow]; [lra|]. split; [apply Rmult_le_pos; lra|]. replace 1%R with (1 * 1)%R by ring. apply Rmult_le_compat; lra.
  - intros Hn. assert (G : (1 < g)%R). { rewrite E. assert (0 < z2 * z2 * (z2 - 3))%R by (apply Rmult_lt_0_compat; nra). lra. }
    apply Rlt_pow_R1; assumption.
Qed.

(** With a step of up to the square root of 3 over the frequency the oscillation does not
    grow; with a longer one every oscillation does, whatever its phase. *)
Theorem C85_bounded : forall p mx e i f fuel dt n (m : mgr R) L u v w x, let M := [mx] in
  program_ready m M L [e; i; f] fuel ->
  List.length (id_comps (f_0 e)) = 5%nat -> List.length (id_comps (f_0 i)) = 5%nat -> List.length (id_comps (f_0 f)) = 6%nat ->
  bs_points (id_basis (f_0 e)) = bs_points (id_basis (f_0 f)) -> bs_points (id_basis (f_0 i)) = bs_points (id_basis (f_0 f)) -> List.length (pl_ms p) = 2%nat ->
  field_get L (f_0 e) = Some u -> field_get L (f_0 i) = Some v -> field_get L (f_0 f) = Some w ->
  in_box (M ++ [(0, bs_points (id_basis (f_0 f)))]) x -> let r := 6 * Z.of_nat n in fst mx + r <= nth 0 x 0 < snd mx - r ->
  uniform_near r 5 u x -> uniform_near r 5 v x -> uniform_near r 6 w x -> (forall j, 3 <= j < 6 -> w (x ++ [j]) = 0%R) ->
  let w2 := plasma_frequency2 p (u (x ++ [0])) (v (x ++ [0])) in (0 <= w2)%R ->
  let R := run (plasma_step true fuel p (brio_wu_bcs e i f) e i f) dt n m in
  exists u' v' w', ends R M (f_0 e) u' /\ ends R M (f_0 i) v' /\ ends R M (f_0 f) w' /\ forall j, 0 <= j < 3 ->
    ((w2 * dt ^ 2 <= 3)%R -> (amplitude2 p w2 u' v' w' x j <= amplitude2 p w2 u v w x j)%R) /\
    ((3 < w2 * dt ^ 2)%R -> (0 < n)%nat -> (0 < amplitude2 p w2 u v w x j)%R -> (amplitude2 p w2 u v w x j < amplitude2 p w2 u' v' w' x j)%R).
Proof.
  intros p mx e i f fuel dt n m L u v w x M HR Ne Ni Nf Pe Pi Hms Hu Hv Hw Hx r Hi Uu Uv Uw HB w2 P R.
  destruct (C85_brio_wu p mx e i f fuel dt n m L u v w x HR Ne Ni Nf Pe Pi Hms Hu Hv Hw Hx Hi Uu Uv Uw HB) as (u' & v' & w' & E1 & E2 & E3 & _ & _ & _ & E).
  exists u', v', w'. do 3 (split; [assumption|]). intros j Hj. specialize (E j Hj). fold w2 in E. rewrite E.
  assert (Z : (0 <= w2 * dt ^ 2)%R) by (apply Rmult_le_pos; [exact P|nra]). destruct (growth (w2 * dt ^ 2) n Z) as [G1 G2].
  assert (A : (0 <= amplitude2 p w2 u v w x j)%R) by (unfold amplitude2; nra). split.
  - intros H. specialize (G1 H). nra.
  - intros H Hn HA. specialize (G2 H Hn). nra.
Qed.
Print Assumptions C85_bounded.

(** The constants of the program: with as many electrons as ions, up to 27 times as many
    as the most it starts with. *)
Definition brio_wu_plasma : plasma := mkPlasma (fofz 2) (fofz 10) (lorentz_setup (- f1)%F (fdec 1 (-1))) (lorentz_setup f1 f1) (multipliers (fdec 1 (-6)) [(- f1)%F; f1] [fdec 1 (-1); f1]).
Definition brio_wu_dt : R := fdiv (fdec 1 (-1)) (steps_total 100 10).
(** These are the constants and the time step of two_fluid_brio_wu. *)
Theorem C85_brio_wu_constants : forall aligned fuel opens, two_fluid_brio_wu (A := RArith) aligned fuel opens =
  with_grid 1 [100] [(- fdec 5 (-1))%F] [f1] (fun g =>
  simulate fuel opens "/Users/seamill/local_storage/quikin/data" [f_0 pl_electrons; f_0 pl_ions; f_0 pl_field]
    (brio_wu_solve fuel (mkBw (fofz 2) (fdec 1 (-1)) f1 f1 (fdec 125 (-3)) f1 (fdec 1 (-1)) (fdec 75 (-2)) f1) [f_0 pl_electrons; f_0 pl_ions; f_0 pl_field])
    (plasma_step aligned fuel brio_wu_plasma (brio_wu_bcs pl_electrons pl_ions pl_field) pl_electrons pl_ions pl_field) brio_wu_dt 100 10 g).
Proof. reflexivity. Qed.
Print Assumptions C85_brio_wu_constants.
Example C85_brio_wu_constants_ex : brio_wu_dt = (/ 10000)%R /\ pl_e brio_wu_plasma = (-10)%R /\ pl_i brio_wu_plasma = 1%R.
Proof. unfold brio_wu_dt, brio_wu_plasma, lorentz_setup. cbn. unfold Rdecimal. cbn. repeat split; field. Qed.
Theorem C85_two_fluid_brio_wu : forall mx e i f fuel n (m : mgr R) L u v w x N, let M := [mx] in let p := brio_wu_plasma in
  program_ready m M L [e; i; f] fuel ->
  List.length (id_comps (f_0 e)) = 5%nat -> List.length (id_comps (f_0 i)) = 5%nat -> List.length (id_comps (f_0 f)) = 6%nat ->
  bs_points (id_basis (f_0 e)) = bs_points (id_basis (f_0 f)) -> bs_points (id_basis (f_0 i)) = bs_points (id_basis (f_0 f)) -> 
  field_get L (f_0 e) = Some u -> field_get L (f_0 i) = Some v -> field_get L (f_0 f) = Some w ->
  in_box (M ++ [(0, bs_points (id_basis (f_0 f)))]) x -> let r := 6 * Z.of_nat n in fst mx + r <= nth 0 x 0 < snd mx - r ->
  uniform_near r 5 u x -> uniform_near r 5 v x -> uniform_near r 6 w x -> (forall j, 3 <= j < 6 -> w (x ++ [j]) = 0%R) ->
  u (x ++ [0]) = (N / 10)%R -> v (x ++ [0]) = N -> (0 <= N <= 27)%R -> let w2 := (11000000 * N)%R in
  let R := run (plasma_step true fuel p (brio_wu_bcs e i f) e i f) brio_wu_dt n m in
  exists u' v' w', ends R M (f_0 e) u' /\ ends R M (f_0 i) v' /\ ends R M (f_0 f) w' /\ forall j, 0 <= j < 3 ->
    (amplitude2 p w2 u' v' w' x j <= amplitude2 p w2 u v w x j)%R.
Proof.
  intros mx e i f fuel n m L u v w x N M p HR Ne Ni Nf Pe Pi Hu Hv Hw Hx r Hi Uu Uv Uw HB Du Dv HN w2 R.
  assert (W : plasma_frequency2 p (u (x ++ [0])) (v (x ++ [0])) = w2).
  { rewrite Du, Dv. unfold plasma_frequency2, p, brio_wu_plasma, w2. cbn [pl_ms pl_e pl_i multipliers nth lorentz_setup]. cbn. unfold Rdecimal. cbn. field. }
  destruct (C85_bounded p mx e i f fuel brio_wu_dt n m L u v w x HR Ne Ni Nf Pe Pi eq_refl Hu Hv Hw Hx Hi Uu Uv Uw HB) as (u' & v' & w' & E1 & E2 & E3 & E); [rewrite W; unfold w2; lra|].
  exists u', v', w'. do 3 (split; [assumption|]). intros j Hj. destruct (E j Hj) as [E4 _]. rewrite W in E4. apply E4.
  assert (D : brio_wu_dt = (/ 10000)%R) by (unfold brio_wu_dt; cbn; unfold Rdecimal; cbn; field). rewrite D. unfold w2. lra.
Qed.
Print Assumptions C85_two_fluid_brio_wu.

(** The tube of C84 with sixteen cells, the fluids at rest, one field everywhere: the
    field of cell 8 after one step of any length. *)
Definition resting {F} {A : Arith F} (r : F) : field F := fun c => if last c 0 =? 0 then r else if last c 0 =? 4 then fofz 3 else f0.
Definition pulled {F} {A : Arith F} : field F := fun c => if last c 0 =? 0 then f1 else f0.
Definition swing_fields : list (vid * field R) := [(f_0 electrons, resting 1%R); (f_0 ions, resting 2%R); (f_0 em, pulled)].
Definition swing_start : mgr R := mgr_of fine_grid [(0, 16)] swing_fields None None.
Lemma swing_ready : program_ready swing_start [(0, 16)] swing_fields [electrons; ions; em] 999.
Proof. is_ready. Qed.
Example C85_brio_wu_ex : forall dt, let R := run (plasma_step true 999 flow_plasma (brio_wu_bcs electrons ions em) electrons ions em) dt 1 swing_start in
  exists u' v' w', ends R [(0, 16)] (f_0 electrons) u' /\ ends R [(0, 16)] (f_0 ions) v' /\ ends R [(0, 16)] (f_0 em) w' /\
    (6 * w' [8; 0; 0]%Z ^ 2 + (2 * u' [8; 0; 1]%Z - v' [8; 0; 1]%Z) ^ 2 = 6 * (1 - 3 * dt ^ 4 + 6 * dt ^ 6))%R.
Proof.
  intros dt R. destruct (C85_brio_wu flow_plasma (0, 16) electrons ions em 999 dt 1 swing_start swing_fields (resting 1%R) (resting 2%R) pulled [8; 0] swing_ready eq_refl eq_refl eq_refl eq_refl eq_refl eq_refl eq_refl eq_refl eq_refl) as (u' & v' & w' & E1 & E2 & E3 & _ & _ & _ & E).
  { repeat (constructor; [cbn; lia|]). constructor. }
  { cbn. lia. }
  { intros t i _ _. reflexivity. }
  { intros t i _ _. reflexivity. }
  { intros t i _ _. reflexivity. }
  { intros j Hj. unfold pulled. assert (j = 3 \/ j = 4 \/ j = 5) as [->|[->| ->]] by lia; reflexivity. }
  exists u', v', w'. do 3 (split; [assumption|]). specialize (E 0 ltac:(lia)).
  unfold amplitude2, current_of, plasma_frequency2 in E. change ([8; 0] ++ [0]) with [8; 0; 0] in E. change ([8; 0] ++ [0 + 1]) with [8; 0; 1] in E.
  change (pl_ms flow_plasma) with [2; -1]%R in E. change (pl_e flow_plasma) with (-2)%R in E. change (pl_i flow_plasma) with 1%R in E. cbn [nth] in E.
  change (resting 1%R [8; 0; 0]) with 1%R in E. change (resting 2%R [8; 0; 0]) with 2%R in E. change (resting 1%R [8; 0; 1]) with 0%R in E. change (resting 2%R [8; 0; 1]) with 0%R in E. change (@pulled _ RArith [8; 0; 0]) with 1%R in E.
  rewrite pow_1 in E. set (a := w' [8; 0; 0]) in *. set (b := u' [8; 0; 1]) in *. set (c := v' [8; 0; 1]) in *. clearbody a b c. clear E1 E2 E3.
  transitivity (- (2 * -2 * 1 + -1 * 1 * 2) * a ^ 2 + (2 * b + -1 * c) ^ 2)%R; [ring|]. rewrite E. field.
Qed.
(** The same tube: steps of length 1/10 damp the oscillation, or keep it; steps of length 1 make it grow. *)
Example C85_bounded_ex : forall dt, let R := run (plasma_step true 999 flow_plasma (brio_wu_bcs electrons ions em) electrons ions em) dt 1 swing_start in
  exists u' v' w', ends R [(0, 16)] (f_0 electrons) u' /\ ends R [(0, 16)] (f_0 ions) v' /\ ends R [(0, 16)] (f_0 em) w' /\
    (dt = / 10 -> 6 * w' [8; 0; 0]%Z ^ 2 + (2 * u' [8; 0; 1]%Z + -1 * v' [8; 0; 1]%Z) ^ 2 <= 6)%R /\ (dt = 1 -> 6 < 6 * w' [8; 0; 0]%Z ^ 2 + (2 * u' [8; 0; 1]%Z + -1 * v' [8; 0; 1]%Z) ^ 2)%R.
Proof.
  intros dt R.
  assert (W : plasma_frequency2 flow_plasma (resting 1%R ([8; 0] ++ [0])) (resting 2%R ([8; 0] ++ [0])) = 6%R) by (unfold plasma_frequency2; cbn; ring).
  assert (A0 : amplitude2 flow_plasma 6 (resting 1%R) (resting 2%R) pulled [8; 0] 0 = 6%R) by (unfold amplitude2, current_of, pulled, resting; cbn; ring).
  destruct (C85_bounded flow_plasma (0, 16) electrons ions em 999 dt 1 swing_start swing_fields (resting 1%R) (resting 2%R) pulled [8; 0] swing_ready eq_refl eq_refl eq_refl eq_refl eq_refl eq_refl eq_refl eq_refl eq_refl) as (u' & v' & w' & E1 & E2 & E3 & E).
  { repeat (constructor; [cbn; lia|]). constructor. }
  { cbn. lia. }
  { intros t i _ _. reflexivity. }
  { intros t i _ _. reflexivity. }
  { intros t i _ _. reflexivity. }
  { intros j Hj. unfold pulled. assert (j = 3 \/ j = 4 \/ j = 5) as [->|[->| ->]] by lia; reflexivity. }
  { rewrite W. lra. }
  exists u', v', w'. do 3 (split; [assumption|]). specialize (E 0 ltac:(lia)). rewrite W, A0 in E. destruct E as [G1 G2]. split; intros ->; [apply G1|apply G2]; lra || lia.
Qed.
(** Twenty cells with the constants of the program and number density 1. *)
Definition brio_fields : list (vid * field R) := [(f_0 electrons, resting (/ 10)%R); (f_0 ions, resting 1%R); (f_0 em, pulled)].
Definition brio_start : mgr R := mgr_of (mkGrid (range_of [(0, 20)]) [0%R] [1%R] [(/ 20)%R]) [(0, 20)] brio_fields None None.
Example C85_two_fluid_brio_wu_ex : let R := run (plasma_step true 999 brio_wu_plasma (brio_wu_bcs electrons ions em) electrons ions em) brio_wu_dt 1 brio_start in
  exists u' v' w', ends R [(0, 20)] (f_0 electrons) u' /\ ends R [(0, 20)] (f_0 ions) v' /\ ends R [(0, 20)] (f_0 em) w' /\ (w' [9; 0; 0]%Z ^ 2 <= 1)%R.
Proof.
  intros R. assert (RD : program_ready brio_start [(0, 20)] brio_fields [electrons; ions; em] 999) by is_ready.
  destruct (C85_two_fluid_brio_wu (0, 20) electrons ions em 999 1 brio_start brio_fields (resting (/ 10)%R) (resting 1%R) pulled [9; 0] 1%R RD eq_refl eq_refl eq_refl eq_refl eq_refl eq_refl eq_refl eq_refl) as (u' & v' & w' & E1 & E2 & E3 & E).
  { repeat (constructor; [cbn; lia|]). constructor. }
  { cbn. lia. }
  { intros t i _ _. reflexivity. }
  { intros t i _ _. reflexivity. }
  { intros t i _ _. reflexivity. }
  { intros j Hj. unfold pulled. assert (j = 3 \/ j = 4 \/ j = 5) as [->|[->| ->]] by lia; reflexivity. }
  { unfold resting. cbn. field. }
  { reflexivity. }
  { lra. }
  exists u', v', w'. do 3 (split; [assumption|]). specialize (E 0 ltac:(lia)). unfold amplitude2 in E. change (@pulled _ RArith ([9; 0] ++ [0])) with 1%R in E.
  replace (current_of brio_wu_plasma (resting (/ 10)%R) (resting 1%R) [9; 0] 0) with 0%R in E by (unfold current_of, resting; cbn; ring). change ([9; 0] ++ [0]) with [9; 0; 0] in E.
  set (b := w' [9; 0; 0]) in *. set (c := current_of _ u' v' _ _) in *. clearbody b c. pose proof (pow2_ge_0 c). lra.
Qed.
