(** * Properties_Exact: the program in doubles and the program in real numbers (C93). *)
From Coq Require Import ZArith List String Bool Reals Lra Lia Floats.SpecFloat.
From Flocq Require Import Core.Zaux Core.Raux.
From Verif Require Import Base BaseFacts BoxSpec BoxFacts Interface EulerSpec PhysicsSpec Properties_Physics Range RangeSpec RangeFacts ApiSpec Arith ArithR ArithFloat Chunk FieldSpec VarId Manager MgrSpec MgrFacts
  BC BCSpec BCFacts Sweep SweepSpec Euler Maxwell Sources SourceSpec ParFacts SweepFacts FluxFacts Programs ProgramsSpec ConserveFacts RhsFacts Properties_Programs
  SymmetrySpec SymmetryFacts Properties_Symmetry StableSpec StableFacts RoundingSpec RoundingFacts DriftFacts FiniteFacts RoundingCheck Properties_Chunk Properties_Rounding ExactSpec ExactFacts.
Import ListNotations.
Open Scope Z_scope.

Notation points f := [(0, bs_points (id_basis (f_0 f)))].

(** ** C93: the computed field is the exact field up to rounding

    wave_1D and gaussian_pulse run in doubles and, with the same mesh, the same speed
    of light and the same time step, in real numbers.  If in the beginning the fields
    differ by at most [k], the values are numbers up to [B], far from overflow for all
    of [n] steps, and no divisor of the limiter is 0, then in the end the fields differ
    by at most the n-th power of the growth times [k], the tolerance and the errors of
    the 2 n stages. *)
Theorem C93_pulse : forall c M f fuel dt n (m : mgr spec_float) (e : mgr R) L E u w k B C X T,
  program_ready m M L [f] fuel -> program_ready e M E [f] fuel -> List.length (id_comps (f_0 f)) = 6%nat ->
  field_get L (f_0 f) = Some u -> field_get E (f_0 f) = Some w -> (0 <= k)%R -> (1 <= B)%R -> (1 <= C)%R -> (1 <= X)%R -> within C c -> (0 < real c)%R -> within T dt -> (0 <= real dt)%R ->
  (forall d, (d < List.length M)%nat -> number (spacing (mg_grid m) d) /\ (/ X <= real (spacing (mg_grid m) d))%R /\ spacing (mg_grid e) d = real (spacing (mg_grid m) d)) ->
  (forall x j, in_box (M ++ points f) x -> 0 <= j < 6 -> within B (u (x ++ [j]))) ->
  alike (real c) k (M ++ points f) (fun q => real (u q)) w ->
  let b := (B * step_growth C X T ^ n)%R in (1000 * (C * C * X * (1 + T)) * b <= far)%R ->
  let ds := seq 0 (Nat.min 3 (List.length M)) in
  let Op := fun (V : @sys spec_float) (_ : nat) => fv_rhs 6 (flux_of (maxwell_flux c)) M (fun _ => Periodic) (spacing (mg_grid m)) ds (V 0%nat) in
  (forall i V, (i < n)%nat -> In V (stages Op dt (Nat.iter i (rk3 Op dt) (fun _ => u))) -> no_zero_divisor M (M ++ points f) ds 6 (V 0%nat)) ->
  let dims := map Z.of_nat (seq 0 (List.length M)) in let g := growth (real c) (real dt) (spacing (mg_grid e)) ds in
  exists v z, ends (run (pulse_step true fuel c dims f) dt n m) M (f_0 f) v /\ ends (run (pulse_step true fuel (real c) dims f) (real dt) n e) M (f_0 f) z /\
    (forall x j, in_box (M ++ points f) x -> 0 <= j < 6 -> number (v (x ++ [j]))) /\
    alike (real c) (g ^ n * (k + tolerance (real c) + 2 * INR n * (Rmax 1 (/ real c) * stage_error C X T b)) - tolerance (real c)) (M ++ points f) (fun q => real (v q)) z.
Proof.
  intros c M f fuel dt n m e L E u w k B C X T HR HE H6 Hu Hw Hk HB HC HX Hc Hpos HT Hdt Hdx HU HA b HL ds Op HZ dims g.
  destruct (C57_pulse spec_float FloatArith c M f fuel dt n m L u HR H6 Hu) as (m' & L' & Em & (H1 & _) & _ & _ & _ & V & _).
  destruct (V 0%nat (f_0 f) eq_refl) as (v & Gv & Ev).
  destruct (C57_pulse_physical (real c) M f fuel (real dt) n e E w HE H6 Hw) as (e' & E' & Ee & (H1' & _) & _ & _ & _ & V' & _).
  destruct (V' 0%nat (f_0 f) eq_refl) as (z & Gz & Ez).
  exists v, z. split; [exists m', L'; auto|]. split; [exists e', E'; auto|].
  assert (Hds : forall d, In d ds -> (d < List.length M)%nat /\ (2 <= hi M d - lo M d)%Z).
  { destruct HR as (_ & _ & _ & _ & HW). intros d Hd. apply in_seq in Hd. apply HW. apply in_seq. lia. }
  assert (Hlen : (List.length ds <= 3)%nat) by (unfold ds; rewrite seq_length; lia). assert (H3 : forall d, In d ds -> (d < 3)%nat) by (intros d Hd; apply in_seq in Hd; lia).
  assert (Hdx' : forall d, In d ds -> number (spacing (mg_grid m) d) /\ (/ X <= real (spacing (mg_grid m) d))%R) by (intros d Hd; destruct (Hdx d (proj1 (Hds d Hd))) as (? & ? & ?); auto).
  assert (ES : forall d, In d ds -> spacing (mg_grid e) d = real (spacing (mg_grid m) d)) by (intros d Hd; now apply Hdx, Hds).
  assert (EV : forall x j, in_box (M ++ points f) x -> 0 <= j < 6 -> v (x ++ [j]) = Nat.iter n (rk3 Op dt) (fun _ => u) 0%nat (x ++ [j])) by (intros x j Hx Hj; apply Ev; apply cell_join; [exact Hx|rewrite H6; lia]).
  set (rx := fun d => real (spacing (mg_grid m) d)).
  assert (ER : forall W : field R, fv_rhs 6 (rusanov_flux (real c)) M (fun _ => Periodic) (spacing (mg_grid e)) ds W = fv_rhs 6 (rusanov_flux (real c)) M (fun _ => Periodic) rx ds W).
  { intros W. unfold fv_rhs. f_equal. revert ES. generalize (fun (_ : list Z) (_ : Z) => @f0 R RArith). generalize ds. intros l. induction l as [|d l IH]; intros r ES; [reflexivity|]. cbn [fold_left].
    rewrite IH by (intros d' Hd'; apply ES; now right). f_equal. unfold with_fluxes. now rewrite (ES d ltac:(now left)). }
  assert (EG : g = growth (real c) (real dt) rx ds).
  { unfold g, growth, sum_over. do 4 f_equal. apply map_ext_in. intros d Hd. now rewrite ES. }
  assert (EZ : forall x j, in_box (M ++ points f) x -> 0 <= j < 6 -> z (x ++ [j]) = Nat.iter n (rk3 (fun (W : @sys R) (_ : nat) => fv_rhs 6 (rusanov_flux (real c)) M (fun _ => Periodic) rx ds (W 0%nat)) (real dt)) (fun _ => w) 0%nat (x ++ [j])).
  { intros x j Hx Hj. rewrite Ez by (apply cell_join; [exact Hx|rewrite H6; lia]).
    rewrite (rk3_same R RArith _ (fun (W : @sys R) (_ : nat) => fv_rhs 6 (rusanov_flux (real c)) M (fun _ => Periodic) rx ds (W 0%nat))); [reflexivity|].
    intros W. apply FunctionalExtensionality.functional_extensionality. intros i. apply ER. }
  pose proof (many_steps c dt M (points f) (spacing (mg_grid m)) ds C X T HC HX HT Hc Hpos Hdt H3 Hlen Hdx' Hds n (fun _ => u) (fun _ => w) B k HB Hk HL HU HZ HA) as Q.
  assert (Hdx2 : forall d, In d ds -> number (spacing (mg_grid m) d) /\ (/ X <= Rabs (real (spacing (mg_grid m) d)))%R).
  { intros d Hd. destruct (Hdx' d Hd) as (N & L0). split; [exact N|]. rewrite Rabs_pos_eq; [exact L0|]. assert (0 < / X)%R by (apply Rinv_0_lt_compat; lra). lra. }
  assert (HL' : (200 * (C * C * X * (1 + T)) * (B * step_growth C X T ^ n) <= far)%R).
  { fold b. pose proof far_1. set (y := (C * C * X * (1 + T) * b)%R) in *. replace (1000 * (C * C * X * (1 + T)) * b)%R with (1000 * y)%R in HL by (unfold y; ring). replace (200 * (C * C * X * (1 + T)) * b)%R with (200 * y)%R by (unfold y; ring).
    destruct (Rle_dec 0 y); lra. }
  destruct (finite_run c dt M (points f) (spacing (mg_grid m)) ds C X T HC HX HT Hc Hlen Hdx2 Hds n (fun _ => u) B HB HL' HU HZ) as (S1 & _). fold Op in S1.
  split; [intros x j Hx Hj; rewrite EV by assumption; exact (proj1 (S1 x j Hx Hj))|].
  intros x j Hx Hj. specialize (Q x j Hx Hj). rewrite EZ by assumption. cbn beta. rewrite EV by assumption. rewrite EG. exact Q.
Qed.
Print Assumptions C93_pulse.

(** The pulse with speed of light 3 and a step of 0.001, on three cells: the computed
    fields differ from the exact ones by less than 10^-11 (the electric field by less
    than 3 10^-11). *)
Definition slow : spec_float := fdec 1 (-3).
Definition slow_1 : list (list Z * spec_float) := Eval vm_compute in map (fun c => (c, pulse c + slow * light_rhs pulse c)%F) em_cells.
Definition slow_2 : list (list Z * spec_float) := Eval vm_compute in
  map (fun c => (c, fdec 75 (-2) * pulse c + fdec 25 (-2) * from slow_1 c + fdec 25 (-2) * slow * light_rhs (from slow_1) c)%F) em_cells.
Lemma slow_stage : forall i V, (i < 1)%nat -> In V (stages (fun (V : @sys spec_float) (_ : nat) => light_rhs (V 0%nat)) slow (Nat.iter i (rk3 (fun (V : @sys spec_float) (_ : nat) => light_rhs (V 0%nat)) slow) (fun _ => pulse))) ->
  no_zero_divisor line (line ++ [(0, 1)]) [0%nat] 6 (V 0%nat).
Proof.
  intros [|i] V Hi HV; [|lia]. assert (D : forall v, agree 6 line [(0, 1)] (V 0%nat) v -> no_zero_divisor line (line ++ [(0, 1)]) [0%nat] 6 v -> no_zero_divisor line (line ++ [(0, 1)]) [0%nat] 6 (V 0%nat)) by (intros v; apply divisor_agree; exact line_dims).
  destruct (stages_agree 6 light line [(0, 1)] (spacing line_grid) [0%nat] line_dims slow pulse (from slow_1) (from slow_2) V) as [E|[E|E]].
  - apply agree_map. vm_compute. reflexivity.
  - apply agree_map. vm_compute. reflexivity.
  - exact HV.
  - apply (D _ E), divisor_check. vm_compute. reflexivity.
  - apply (D _ E), divisor_check. vm_compute. reflexivity.
  - apply (D _ E), divisor_check. vm_compute. reflexivity.
Qed.
Lemma real_3 : real (dbl 3) = 3%R.
Proof. set (x := dbl 3). vm_compute in x. subst x. unfold real. change (powerRZ 2 (-51)) with (/ 2 ^ 51)%R. lra. Qed.
Lemma real_slow : (0 <= real slow <= 11 / 10000)%R.
Proof. unfold slow. set (x := fdec 1 (-3)). vm_compute in x. subst x. unfold real. change (powerRZ 2 (-62)) with (/ 2 ^ 62)%R. lra. Qed.
Lemma real_pulse : forall q, real (pulse q) = pulse q.
Proof.
  intros q. unfold pulse. destruct ((last q 0 =? 0) || (last q 0 =? 3)); [|destruct ((last q 0 =? 5) && (nth 0 q 0 =? 1))].
  - set (x := fofz 5). vm_compute in x. subst x. unfold real. change (powerRZ 2 (-50)) with (/ 2 ^ 50)%R. cbn [fofz RArith]. lra.
  - set (x := @f1 spec_float FloatArith). vm_compute in x. subst x. unfold real. change (powerRZ 2 (-52)) with (/ 2 ^ 52)%R. change (@f1 R RArith) with 1%R. lra.
  - set (x := @f0 spec_float FloatArith). vm_compute in x. subst x. reflexivity.
Qed.
Example C93_ex : exists v z, ends (run (pulse_step true 999 (dbl 3) [0] em) slow 1 (@pulse_start spec_float FloatArith)) line (f_0 em) v /\
  ends (run (pulse_step true 999 3%R [0] em) (real slow) 1 (@pulse_start R RArith)) line (f_0 em) z /\ alike 3 (/ 10 ^ 11) (line ++ points em) (fun q => real (v q)) z.
Proof.
  destruct real_slow as (T0 & T1). pose proof far_1e30. pose proof u_small. pose proof u_small_15. pose proof u_pos.
  destruct (C93_pulse (dbl 3) line em 999 slow 1 pulse_start pulse_start pulse_fields pulse_fields pulse pulse 0 5 3 1 (11 / 10000) (pulse_ready _ _) (pulse_ready _ _) eq_refl eq_refl eq_refl) as (v & z & E1 & E2 & _ & A); try lra.
  - split; [split; [reflexivity|vm_compute; exact I]|]. rewrite real_3, Rabs_pos_eq; lra.
  - rewrite real_3. lra.
  - split; [split; [reflexivity|vm_compute; exact I]|]. rewrite Rabs_pos_eq; lra.
  - intros d Hd. destruct d as [|d]; [|cbn in Hd; lia]. set (y := spacing (mg_grid (@pulse_start R RArith)) 0). set (x := spacing _ _). vm_compute in x. subst x. split; [split; [reflexivity|exact I]|].
    unfold real. change (powerRZ 2 (-52)) with (/ 2 ^ 52)%R. split; [lra|]. unfold y, spacing. cbn. lra.
  - intros x j _ _. unfold pulse. destruct ((last (x ++ [j]) 0 =? 0) || (last (x ++ [j]) 0 =? 3)); [|destruct ((last (x ++ [j]) 0 =? 5) && (nth 0 (x ++ [j]) 0 =? 1))].
    + set (y := fofz 5). vm_compute in y. subst y. split; [split; [reflexivity|exact I]|]. unfold real. change (powerRZ 2 (-50)) with (/ 2 ^ 50)%R. rewrite Rabs_pos_eq; lra.
    + set (y := @f1 spec_float FloatArith). vm_compute in y. subst y. split; [split; [reflexivity|exact I]|]. unfold real. change (powerRZ 2 (-52)) with (/ 2 ^ 52)%R. rewrite Rabs_pos_eq; lra.
    + set (y := @f0 spec_float FloatArith). vm_compute in y. subst y. split; [split; [reflexivity|exact I]|]. unfold real. rewrite Rabs_R0. lra.
  - intros x j _ _. rewrite real_pulse, Rminus_eq_0, Rabs_R0. lra.
  - rewrite pow_1. unfold step_growth. lra.
  - exact slow_stage.
  - exists v, z. rewrite real_3 in *. split; [exact E1|]. split; [exact E2|]. intros x j Hx Hj. eapply Rle_trans; [apply (A x j Hx Hj)|]. apply Rmult_le_compat_r; [destruct (j <? 3); lra|].
    assert (EM : Rmax 1 (/ 3) = 1%R) by (apply Rmax_left; lra). unfold tolerance. rewrite EM. cbn [INR]. rewrite !pow_1.
    assert (SG : (step_growth 3 1 (11 / 10000) <= 10)%R) by (unfold step_growth; lra).
    assert (SE : (0 <= stage_error 3 1 (11 / 10000) (5 * step_growth 3 1 (11 / 10000)) <= 34 / 10 ^ 13)%R).
    { unfold stage_error. assert (S0 : (0 <= step_growth 3 1 (11 / 10000))%R) by (unfold step_growth; apply Rmult_le_pos; lra). set (s := step_growth 3 1 (11 / 10000)) in *.
      assert (US : (0 <= unit_roundoff * s <= unit_roundoff * 10)%R) by (split; [apply Rmult_le_pos|apply Rmult_le_compat_l]; lra). lra. }
    clear A. set (se := stage_error _ _ _ _) in *.
    assert (GR : (1 <= growth 3 (real slow) (spacing (mg_grid (@pulse_start R RArith))) (seq 0 (Nat.min 3 (List.length line))) <= 122 / 100)%R).
    { unfold growth. change (seq 0 (Nat.min 3 (List.length line))) with [0%nat]. unfold sum_over. cbn [map fold_right]. set (y := spacing _ _). assert (y = 1%R) as -> by (unfold y, spacing; cbn; lra). set (t := real slow) in *.
      replace (1 + 20 * t * 3 * (/ 1 + 0))%R with (1 + 60 * t)%R by field. assert (1 <= 1 + 60 * t <= 1066 / 1000)%R by lra. split; [apply pow_R1_Rle; lra|]. apply Rle_trans with ((1066 / 1000) ^ 3)%R; [apply pow_incr; lra|lra]. }
    set (G := growth _ _ _ _) in *. assert ((G * (0 + / 1000000000000 * 1 + 2 * 1 * (1 * se)) <= 122 / 100 * (0 + / 1000000000000 * 1 + 2 * 1 * (1 * se)))%R) by (apply Rmult_le_compat_r; lra). lra.
Qed.
