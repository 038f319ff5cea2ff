(** * Properties_Rounding: what rounding does to the totals (C89), and when doubles
    stay numbers (C90). *)
From Coq Require Import ZArith List String Bool Reals Lra Lia Floats.SpecFloat.
From Flocq Require Import Core.Zaux Core.Raux.
From Verif Require Import Base BaseFacts BoxSpec BoxFacts Interface EulerSpec Range RangeSpec RangeFacts ApiSpec Arith ArithR ArithFloat Chunk FieldSpec VarId Manager MgrSpec MgrFacts
  BC BCSpec BCFacts Sweep SweepSpec Euler Maxwell Sources SourceSpec ParFacts SweepFacts FluxFacts Programs ProgramsSpec ConserveFacts RhsFacts Properties_Programs
  SymmetrySpec SymmetryFacts Properties_Symmetry RoundingSpec RoundingFacts DriftFacts FiniteFacts RoundingCheck Properties_Chunk.
Import ListNotations.
Open Scope Z_scope.

Notation points f := [(0, bs_points (id_basis (f_0 f)))].
(** The sum of component [j] over the interior, the number of its cells, and the
    bound per step and cell. *)
Definition sum_of (M : box) (f : family) (j : Z) (u : field spec_float) : R := total (M ++ points f) (fun x => real (u (x ++ [j]))).
Definition cell_count (M : box) (f : family) : R := total (M ++ points f) (fun _ => 1%R).
Definition round_off (B Q T : R) : R := (120 * (unit_roundoff * (B + T * Q)) + 50 * (tiny * ((1 + T) * (1 + Q))))%R.

Lemma ready_box : forall F (A : Arith F) (m : mgr F) M L f fuel, program_ready m M L [f] fuel -> nonempty (M ++ points f).
Proof.
  intros F A m M L f fuel ((_ & Hf) & _). inversion Hf as [|? ? (_ & Hfit) _]; subst.
  apply Forall_app. split; [apply Hfit|]. destruct Hfit as (_ & _ & HD & _). unfold comp_box in HD. inversion HD; subst. constructor; [assumption|constructor].
Qed.

(** ** C89: in doubles the totals change only by rounding *)

(** Maxwell, periodic, up to three dimensions, any number of steps: if at the stages
    the values are numbers up to [B] and the fluxes over the spacings numbers up to
    [Q], the sum of each component changes by at most 120 units of rounding of B + dt Q
    per step and cell. *)
Theorem C89_pulse : forall c M f fuel dt n (m : mgr spec_float) L u j B Q T, program_ready m M L [f] fuel -> List.length (id_comps (f_0 f)) = 6%nat ->
  field_get L (f_0 f) = Some u -> 0 <= j < 6 -> within T dt -> (0 <= B)%R -> (0 <= Q)%R -> (100 * (B + (1 + T) * (1 + Q)) <= large)%R ->
  let ds := seq 0 (Nat.min 3 (List.length M)) in let dx := spacing (mg_grid m) in
  let Op := fun (V : @sys spec_float) (_ : nat) => fv_rhs 6 (flux_of (maxwell_flux c)) M (fun _ => Periodic) dx ds (V 0%nat) in
  (forall i V, (i < n)%nat -> In V (stages Op dt (Nat.iter i (rk3 Op dt) (fun _ => u))) -> moderate 6 (flux_of (maxwell_flux c)) M (M ++ points f) dx ds B Q (V 0%nat)) ->
  exists v, ends (run (pulse_step true fuel c (map Z.of_nat (seq 0 (List.length M))) f) dt n m) M (f_0 f) v /\
    (Rabs (sum_of M f j v - sum_of M f j u) <= INR n * (round_off B Q T * cell_count M f))%R.
Proof.
  intros c M f fuel dt n m L u j B Q T HR H6 Hu Hj HT HB HQ HL ds dx Op HM.
  destruct (C57_pulse spec_float FloatArith c M f fuel dt n m L u HR H6 Hu) as (m' & L' & E & (H1 & _) & _ & _ & _ & V & _).
  destruct (V 0%nat (f_0 f) eq_refl) as (v & Gv & Ev). exists v. split; [exists m', L'; auto|].
  assert (ES : sum_of M f j v = sum_of M f j (Nat.iter n (rk3 Op dt) (fun _ => u) 0%nat)).
  { unfold sum_of. apply total_ext. intros x Hx. f_equal. apply Ev. apply cell_join; [exact Hx|rewrite H6; lia]. }
  rewrite ES.
  pose proof (ready_box _ _ _ _ _ _ _ HR) as NE. destruct HR as (_ & _ & _ & _ & HW).
  apply (run_drift 6 (flux_of (maxwell_flux c)) M (points f) dx ds B Q T dt HT HQ HB HL NE); [unfold ds; rewrite seq_length; lia| |exact Hj|exact HM].
  intros d Hd. apply in_seq in Hd. apply HW. apply in_seq. lia.
Qed.
Print Assumptions C89_pulse.
(** The pulse on three cells, speed of light 3, a step of 0.1: the sums stay as they
    are up to 10^-10. The fields at the stages are computed first. *)
Definition light : nat -> list spec_float -> list spec_float -> list spec_float := flux_of (maxwell_flux (dbl 3)).
Definition light_rhs : field spec_float -> field spec_float := fv_rhs 6 light line (fun _ => Periodic) (spacing line_grid) [0%nat].
Definition em_cells : list (list Z) := cells (line ++ [(0, 1)] ++ [(0, 6)]).
Definition pulse_1 : list (list Z * spec_float) := Eval vm_compute in map (fun c => (c, pulse c + fdec 1 (-1) * light_rhs pulse c)%F) em_cells.
Definition pulse_2 : list (list Z * spec_float) := Eval vm_compute in
  map (fun c => (c, fdec 75 (-2) * pulse c + fdec 25 (-2) * from pulse_1 c + fdec 25 (-2) * fdec 1 (-1) * light_rhs (from pulse_1) c)%F) em_cells.
Lemma line_dims : forall d, In d [0%nat] -> (d < List.length line)%nat /\ 2 <= hi line d - lo line d.
Proof. intros d [<-|[]]. cbn. lia. Qed.
Lemma pulse_stage : forall (p : field spec_float -> Prop), (forall u v, agree 6 line [(0, 1)] u v -> p v -> p u) -> p pulse -> p (from pulse_1) -> p (from pulse_2) ->
  forall i V, (i < 1)%nat -> In V (stages (fun (V : @sys spec_float) (_ : nat) => light_rhs (V 0%nat)) (fdec 1 (-1)) (Nat.iter i (rk3 (fun (V : @sys spec_float) (_ : nat) => light_rhs (V 0%nat)) (fdec 1 (-1))) (fun _ => pulse))) -> p (V 0%nat).
Proof.
  intros p Hp H0 H1 H2 [|i] V Hi HV; [|lia].
  destruct (stages_agree 6 light line [(0, 1)] (spacing line_grid) [0%nat] line_dims (fdec 1 (-1)) pulse (from pulse_1) (from pulse_2) V) as [E|[E|E]].
  - apply agree_map. vm_compute. reflexivity.
  - apply agree_map. vm_compute. reflexivity.
  - exact HV.
  - now apply (Hp _ pulse).
  - now apply (Hp _ (from pulse_1)).
  - now apply (Hp _ (from pulse_2)).
Qed.
Lemma tenth : within (1 / 8) (fdec 1 (-1)).
Proof.
  assert (H : below (-3) (fdec 1 (-1)) = true) by (vm_compute; reflexivity). apply below_within in H. replace (1 / 8)%R with (powerRZ 2 (-3)); [exact H|]. change (powerRZ 2 (-3)) with (/ 2 ^ 3)%R. lra.
Qed.
Lemma three_cells : cell_count line em = 3%R.
Proof. unfold cell_count, total. set (l := cells _). vm_compute in l. subst l. cbn [map fold_right]. lra. Qed.
Lemma far_1e30 : (10 ^ 30 <= far)%R.
Proof. rewrite far_bpow. apply Rle_trans with (bpow radix2 120); [cbn; lra|apply bpow_le; lia]. Qed.
Lemma tiny_tiny : (tiny <= / 10 ^ 20)%R.
Proof. rewrite tiny_bpow. apply Rle_trans with (bpow radix2 (-70)); [apply bpow_le; lia|]. cbn. lra. Qed.
Lemma small_drift : (round_off 8 64 (1 / 8) * 3 <= / 10 ^ 10)%R.
Proof.
  unfold round_off. pose proof u_small_15. pose proof tiny_tiny. pose proof tiny_pos. lra.
Qed.
Lemma two_3 : 8%R = powerRZ 2 3.
Proof. change (powerRZ 2 3) with (2 ^ 3)%R. lra. Qed.
Lemma two_6 : 64%R = powerRZ 2 6.
Proof. change (powerRZ 2 6) with (2 ^ 6)%R. lra. Qed.
Example C89_ex : exists v, ends (run (pulse_step true 999 (dbl 3) [0] em) (fdec 1 (-1)) 1 (@pulse_start spec_float FloatArith)) line (f_0 em) v /\
  (Rabs (sum_of line em 5 v - sum_of line em 5 pulse) <= / 10 ^ 10)%R.
Proof.
  destruct (C89_pulse (dbl 3) line em 999 (fdec 1 (-1)) 1 pulse_start pulse_fields pulse 5 8 64 (1 / 8) (pulse_ready _ _) eq_refl eq_refl ltac:(lia) tenth ltac:(lra) ltac:(lra)) as (v & E & D).
  - pose proof large_large. lra.
  - apply (pulse_stage (moderate 6 light line (line ++ [(0, 1)]) (spacing line_grid) [0%nat] 8 64)).
    + intros u v. apply moderate_agree. exact line_dims.
    + rewrite two_3, two_6. apply moderate_check; vm_compute; reflexivity.
    + rewrite two_3, two_6. apply moderate_check; vm_compute; reflexivity.
    + rewrite two_3, two_6. apply moderate_check; vm_compute; reflexivity.
  - exists v. split; [exact E|]. rewrite three_cells in D. pose proof small_drift. cbn [INR] in D. lra.
Qed.

(** sod_shock_tube without walls: mass, momentum and energy. *)
Lemma fv_kinds : forall F (A : Arith F) n (G : nat -> list F -> list F -> list F) M k k' dx ds u, (forall d, In d ds -> k d = k' d) -> fv_rhs n G M k dx ds u = fv_rhs n G M k' dx ds u.
Proof.
  intros F A n G M k k' dx ds u H. unfold fv_rhs. f_equal. generalize (fun (_ : list Z) (_ : Z) => @f0 F A). revert H. induction ds as [|d ds IH]; intros H r; [reflexivity|]. cbn [fold_left]. unfold with_fluxes at 2 4. cbn beta.
  rewrite (H d ltac:(now left)). apply IH. intros d' Hd'. apply H. now right.
Qed.
Lemma rk3_same : forall F (A : Arith F) (Op Op' : @sys F -> @sys F) dt, (forall U, Op U = Op' U) -> forall n U, Nat.iter n (rk3 Op dt) U = Nat.iter n (rk3 Op' dt) U.
Proof.
  intros F A Op Op' dt H. assert (E : forall U, rk3 Op dt U = rk3 Op' dt U) by (intros U; unfold rk3; now rewrite !H).
  induction n as [|n IH]; intros U; [reflexivity|]. change (rk3 Op dt (Nat.iter n (rk3 Op dt) U) = rk3 Op' dt (Nat.iter n (rk3 Op' dt) U)). now rewrite IH, E.
Qed.
Theorem C89_sod : forall gamma M f fuel dt n ps (m : mgr spec_float) L u j B Q T, program_ready m M L [f] fuel -> List.length (id_comps (f_0 f)) = 5%nat -> (List.length M <= 3)%nat ->
  (forall d, In d ps <-> (d < List.length M)%nat) ->
  field_get L (f_0 f) = Some u -> 0 <= j < 5 -> within T dt -> (0 <= B)%R -> (0 <= Q)%R -> (100 * (B + (1 + T) * (1 + Q)) <= large)%R ->
  let ds := seq 0 (List.length M) in let dx := spacing (mg_grid m) in
  let Op := fun (V : @sys spec_float) (_ : nat) => fv_rhs 5 (flux_of (euler_flux gamma)) M (fun _ => Periodic) dx ds (V 0%nat) in
  (forall i V, (i < n)%nat -> In V (stages Op dt (Nat.iter i (rk3 Op dt) (fun _ => u))) -> moderate 5 (flux_of (euler_flux gamma)) M (M ++ points f) dx ds B Q (V 0%nat)) ->
  exists v, ends (run (sod_step true fuel gamma [] (map Z.of_nat ps) f) dt n m) M (f_0 f) v /\
    (Rabs (sum_of M f j v - sum_of M f j u) <= INR n * (round_off B Q T * cell_count M f))%R.
Proof.
  intros gamma M f fuel dt n ps m L u j B Q T HR H5 H3 Hps Hu Hj HT HB HQ HL ds dx Op HM.
  destruct (C57_sod spec_float FloatArith gamma M f fuel dt n [] ps m L u HR H5 ltac:(lia) Hps ltac:(intros d [])) as (m' & L' & E & (H1 & _) & _ & _ & _ & V & _); [exact Hu|].
  destruct (V 0%nat (f_0 f) eq_refl) as (v & Gv & Ev). exists v. split; [exists m', L'; auto|].
  assert (ES : sum_of M f j v = sum_of M f j (Nat.iter n (rk3 Op dt) (fun _ => u) 0%nat)).
  { unfold sum_of. apply total_ext. intros x Hx. f_equal. rewrite Ev by (apply cell_join; [exact Hx|rewrite H5; lia]). fold dx ds.
    set (k := fun d => if in_dec Nat.eq_dec d ps then Periodic else NoSlip).
    rewrite (rk3_same _ _ (fun (V0 : @sys spec_float) (_ : nat) => fv_rhs 5 (flux_of (euler_flux gamma)) M k dx ds (V0 0%nat)) Op dt); [reflexivity|].
    intros U. unfold Op. rewrite (fv_kinds _ _ 5 (flux_of (euler_flux gamma)) M k (fun _ => Periodic)); [reflexivity|].
    intros d Hd. unfold k. destruct (in_dec Nat.eq_dec d ps) as [_|Hn]; [reflexivity|]. exfalso. apply Hn. apply Hps. apply in_seq in Hd. lia. }
  rewrite ES. pose proof (ready_box _ _ _ _ _ _ _ HR) as NE. destruct HR as (_ & _ & _ & _ & HW).
  apply (run_drift 5 (flux_of (euler_flux gamma)) M (points f) dx ds B Q T dt HT HQ HB HL NE); [unfold ds; rewrite seq_length; lia| |exact Hj|exact HM].
  intros d Hd. apply in_seq in Hd. apply HW. apply in_seq. lia.
Qed.
Print Assumptions C89_sod.
(** The gas on two by three cells, periodic, gamma 5/3, a step of 0.1: the energy stays
    as it is up to 10^-9. *)
Definition five_thirds : spec_float := (fofz 5 / fofz 3)%F.
Definition gas_flux : nat -> list spec_float -> list spec_float -> list spec_float := flux_of (euler_flux five_thirds).
Definition gas_rhs : field spec_float -> field spec_float := fv_rhs 5 gas_flux plane (fun _ => Periodic) (spacing plane_grid) [0; 1]%nat.
Definition gas_cells : list (list Z) := cells (plane ++ [(0, 1)] ++ [(0, 5)]).
Definition gas_1 : list (list Z * spec_float) := Eval vm_compute in map (fun c => (c, gas c + fdec 1 (-1) * gas_rhs gas c)%F) gas_cells.
Definition gas_2 : list (list Z * spec_float) := Eval vm_compute in
  map (fun c => (c, fdec 75 (-2) * gas c + fdec 25 (-2) * from gas_1 c + fdec 25 (-2) * fdec 1 (-1) * gas_rhs (from gas_1) c)%F) gas_cells.
Lemma plane_dims : forall d, In d [0; 1]%nat -> (d < List.length plane)%nat /\ 2 <= hi plane d - lo plane d.
Proof. intros d [<-|[<-|[]]]; cbn; lia. Qed.
Lemma six_cells : cell_count plane electrons = 6%R.
Proof. unfold cell_count, total. set (l := cells _). vm_compute in l. subst l. cbn [map fold_right]. lra. Qed.
Example C89_sod_ex : exists v, ends (run (sod_step true 999 five_thirds [] [0; 1] electrons) (fdec 1 (-1)) 1 (@gas_start spec_float FloatArith)) plane (f_0 electrons) v /\
  (Rabs (sum_of plane electrons 4 v - sum_of plane electrons 4 gas) <= / 10 ^ 9)%R.
Proof.
  destruct (C89_sod five_thirds plane electrons 999 (fdec 1 (-1)) 1 [0; 1]%nat gas_start gas_fields gas 4 8 64 (1 / 8) (gas_ready _ _) eq_refl ltac:(cbn; lia)) as (v & E & D);
    [intros d; cbn; lia|reflexivity|lia|exact tenth|lra|lra|pose proof large_large; lra| |].
  - intros [|i] V Hi HV; [|lia]. assert (K : moderate 5 gas_flux plane (plane ++ [(0, 1)]) (spacing plane_grid) [0; 1]%nat 8 64 (V 0%nat)); [|exact K].
    rewrite two_3, two_6. assert (Q : forall u, small_values 5 plane [(0, 1)] 3 u && small_fluxes 5 gas_flux plane [(0, 1)] (spacing plane_grid) [0; 1]%nat 6 u = true -> agree 5 plane [(0, 1)] (V 0%nat) u ->
      moderate 5 gas_flux plane (plane ++ [(0, 1)]) (spacing plane_grid) [0; 1]%nat (powerRZ 2 3) (powerRZ 2 6) (V 0%nat)).
    { intros u Hu A. apply andb_prop in Hu as (U1 & U2). apply (moderate_agree 5 gas_flux plane [(0, 1)] _ _ plane_dims _ u _ _ A). now apply moderate_check. }
    destruct (stages_agree 5 gas_flux plane [(0, 1)] (spacing plane_grid) [0; 1]%nat plane_dims (fdec 1 (-1)) gas (from gas_1) (from gas_2) V) as [A|[A|A]].
    + apply agree_map. vm_compute. reflexivity.
    + apply agree_map. vm_compute. reflexivity.
    + exact HV.
    + apply (Q gas); [vm_compute; reflexivity|exact A].
    + apply (Q (from gas_1)); [vm_compute; reflexivity|exact A].
    + apply (Q (from gas_2)); [vm_compute; reflexivity|exact A].
  - exists v. split; [exact E|]. rewrite six_cells in D. pose proof small_drift. cbn [INR] in D. lra.
Qed.

(** ** C90: the fields stay numbers *)

(** From numbers up to [B] the fields are numbers in all of [n] steps, unless one of
    the divisors of the limiter is 0, as long as the bound B g^n is below 2^300 by the
    factors of the fluxes; then the sums are kept up to rounding, too. *)
Theorem C90_pulse : forall c M f fuel dt n (m : mgr spec_float) L u B C X T, program_ready m M L [f] fuel -> List.length (id_comps (f_0 f)) = 6%nat ->
  field_get L (f_0 f) = Some u -> (1 <= B)%R -> (1 <= C)%R -> (1 <= X)%R -> within C c -> within T dt ->
  (forall d, (d < List.length M)%nat -> number (spacing (mg_grid m) d) /\ (/ X <= Rabs (real (spacing (mg_grid m) d)))%R) ->
  (forall x j, in_box (M ++ points f) x -> 0 <= j < 6 -> within B (u (x ++ [j]))) ->
  let g := step_growth C X T in (200 * (C * C * X * (1 + T)) * (B * g ^ n) <= far)%R ->
  let ds := seq 0 (Nat.min 3 (List.length M)) in
  let Op := fun (V : @sys spec_float) (_ : nat) => fv_rhs 6 (flux_of (maxwell_flux c)) M (fun _ => Periodic) (spacing (mg_grid m)) ds (V 0%nat) in
  (forall i V, (i < n)%nat -> In V (stages Op dt (Nat.iter i (rk3 Op dt) (fun _ => u))) -> no_zero_divisor M (M ++ points f) ds 6 (V 0%nat)) ->
  exists v, ends (run (pulse_step true fuel c (map Z.of_nat (seq 0 (List.length M))) f) dt n m) M (f_0 f) v /\
    (forall x j, in_box (M ++ points f) x -> 0 <= j < 6 -> within (B * g ^ n) (v (x ++ [j]))) /\
    (forall j, 0 <= j < 6 -> (Rabs (sum_of M f j v - sum_of M f j u) <= INR n * (round_off (B * g ^ n) (18 * (C * C * X * (B * g ^ n))) T * cell_count M f))%R).
Proof.
  intros c M f fuel dt n m L u B C X T HR H6 Hu HB HC HX Hc HT Hdx HU g HL ds Op HZ.
  destruct (C57_pulse spec_float FloatArith c M f fuel dt n m L u HR H6 Hu) as (m' & L' & E & (H1 & _) & _ & _ & _ & V & _).
  destruct (V 0%nat (f_0 f) eq_refl) as (v & Gv & Ev). exists v. split; [exists m', L'; auto|].
  assert (Hw : forall d, In d ds -> (d < List.length M)%nat /\ (2 <= hi M d - lo M d)%Z).
  { destruct HR as (_ & _ & _ & _ & HW). intros d Hd. apply in_seq in Hd. apply HW. apply in_seq. lia. }
  assert (H3 : (List.length ds <= 3)%nat) by (unfold ds; rewrite seq_length; lia).
  assert (Hdx' : forall d, In d ds -> number (spacing (mg_grid m) d) /\ (/ X <= Rabs (real (spacing (mg_grid m) d)))%R) by (intros d Hd; apply Hdx; now apply Hw).
  destruct (finite_run c dt M (points f) (spacing (mg_grid m)) ds C X T HC HX HT Hc H3 Hdx' Hw n (fun _ => u) B HB HL HU HZ) as (S1 & S2). fold Op in S1, S2.
  assert (EV : forall x j, in_box (M ++ points f) x -> 0 <= j < 6 -> v (x ++ [j]) = Nat.iter n (rk3 Op dt) (fun _ => u) 0%nat (x ++ [j])) by (intros x j Hx Hj; apply Ev; apply cell_join; [exact Hx|rewrite H6; lia]).
  split; [intros x j Hx Hj; rewrite EV by assumption; now apply S1|].
  intros j Hj. assert (ES : sum_of M f j v = sum_of M f j (Nat.iter n (rk3 Op dt) (fun _ => u) 0%nat)) by (unfold sum_of; apply total_ext; intros x Hx; f_equal; now apply EV).
  rewrite ES. pose proof (ready_box _ _ _ _ _ _ _ HR) as NE.
  assert (G1 : (1 <= g ^ n)%R) by (apply pow_R1_Rle; apply (growth_1 dt C X T HC HX HT)). assert (BG : (1 <= B * g ^ n)%R) by (rewrite <- (Rmult_1_l 1); apply Rmult_le_compat; lra).
  set (b := (B * g ^ n)%R) in *. pose proof (w_nonneg _ _ HT) as T0. pose proof (CC C HC) as CC0. assert (CX : (1 <= C * C * X)%R) by (rewrite <- (Rmult_1_l 1); apply Rmult_le_compat; lra).
  assert (CB : (1 <= C * C * X * b)%R) by (rewrite <- (Rmult_1_l 1); apply Rmult_le_compat; lra). assert (CT : (0 <= T * (C * C * X * b))%R) by (apply Rmult_le_pos; lra).
  assert (TB : (T * 1 <= T * (C * C * X * b))%R) by (apply Rmult_le_compat_l; lra).
  assert (bb : (1 * b <= C * C * X * b)%R) by (apply Rmult_le_compat_r; lra).
  replace (200 * (C * C * X * (1 + T)) * b)%R with (200 * (C * C * X * b) + 200 * (T * (C * C * X * b)))%R in HL by ring.
  apply (run_drift 6 (flux_of (maxwell_flux c)) M (points f) (spacing (mg_grid m)) ds b (18 * (C * C * X * b)) T dt HT ltac:(lra) ltac:(lra)); [|exact NE|exact H3|exact Hw|exact Hj|exact S2].
  pose proof far_large. pose proof far_1.
  replace (100 * (b + (1 + T) * (1 + 18 * (C * C * X * b))))%R with (100 * b + 100 + 100 * T + 1800 * (C * C * X * b) + 1800 * (T * (C * C * X * b)))%R by ring. lra.
Qed.
Print Assumptions C90_pulse.
(** The pulse again: after the step all values are numbers. *)
Example C90_ex : exists v, ends (run (pulse_step true 999 (dbl 3) [0] em) (fdec 1 (-1)) 1 (@pulse_start spec_float FloatArith)) line (f_0 em) v /\
  forall x j, in_box (line ++ points em) x -> 0 <= j < 6 -> number (v (x ++ [j])).
Proof.
  assert (W : within 4 (dbl 3)) by (replace 4%R with (powerRZ 2 2) by (change (powerRZ 2 2) with (2 ^ 2)%R; lra); apply below_within; vm_compute; reflexivity).
  destruct (C90_pulse (dbl 3) line em 999 (fdec 1 (-1)) 1 pulse_start pulse_fields pulse 8 4 1 (1 / 8) (pulse_ready _ _) eq_refl eq_refl ltac:(lra) ltac:(lra) ltac:(lra) W tenth) as (v & E & D & _).
  - intros d Hd. destruct d as [|d]; [|cbn in Hd; lia]. set (x := spacing _ _). vm_compute in x. subst x. split; [split; [reflexivity|exact I]|].
    unfold real. change (powerRZ 2 (-52)) with (/ 2 ^ 52)%R. rewrite Rabs_pos_eq; lra.
  - rewrite two_3. apply (small_values_ok 6 line [(0, 1)]). vm_compute. reflexivity.
  - unfold step_growth. pose proof far_1e30. pose proof u_small. pose proof u_pos. rewrite pow_1. lra.
  - apply (pulse_stage (no_zero_divisor line (line ++ [(0, 1)]) [0%nat] 6)).
    + intros u v. apply divisor_agree. exact line_dims.
    + apply divisor_check. vm_compute. reflexivity.
    + apply divisor_check. vm_compute. reflexivity.
    + apply divisor_check. vm_compute. reflexivity.
  - exists v. split; [exact E|]. intros x j Hx Hj. exact (proj1 (D x j Hx Hj)).
Qed.
(** Without the condition on the divisors this fails: Bz is 10^-12 in one cell of three
    and 0 in the others, far from any overflow, and after a step of 0.1 with speed of
    light 3 Ey and Bz are not numbers. *)
Definition faint : field spec_float := fun c => if (last c 0 =? 5) && (nth 0 c 0 =? 0) then fdec 1 (-12) else f0.
Definition faint_start : mgr spec_float := mgr_of line_grid line [(f_0 em, faint)] None None.
Lemma faint_ready : program_ready faint_start line [(f_0 em, faint)] [em] 999.
Proof. is_ready. Qed.
Definition faint_1 : list (list Z * spec_float) := Eval vm_compute in map (fun c => (c, faint c + fdec 1 (-1) * light_rhs faint c)%F) em_cells.
Definition faint_2 : list (list Z * spec_float) := Eval vm_compute in
  map (fun c => (c, fdec 75 (-2) * faint c + fdec 25 (-2) * from faint_1 c + fdec 25 (-2) * fdec 1 (-1) * light_rhs (from faint_1) c)%F) em_cells.
Theorem C90_refuted : (forall x j, in_box (line ++ points em) x -> 0 <= j < 6 -> within 1 (faint (x ++ [j]))) /\
  exists v, ends (run (pulse_step true 999 (dbl 3) [0] em) (fdec 1 (-1)) 1 faint_start) line (f_0 em) v /\ v [0; 0; 1] = S754_nan /\ v [0; 0; 5] = S754_nan.
Proof.
  split.
  - intros x j Hx Hj. change 1%R with (powerRZ 2 0). apply (small_values_ok 6 line [(0, 1)]); [vm_compute; reflexivity|exact Hx|exact Hj].
  - destruct (C57_pulse spec_float FloatArith (dbl 3) line em 999 (fdec 1 (-1)) 1 faint_start _ faint faint_ready eq_refl eq_refl) as (m' & L' & E & (H1 & _) & _ & _ & _ & V & _).
    destruct (V 0%nat (f_0 em) eq_refl) as (v & Gv & Ev). exists v. split; [exists m', L'; auto|].
    assert (Z : forall j, j = 1 \/ j = 5 -> v [0; 0; j] = S754_nan); [|split; apply Z; auto].
    intros j Hj. assert (Ij : 0 <= j < 6) by lia. assert (Ix : in_box (line ++ [(0, 1)]) [0; 0]) by (repeat (constructor; [cbn; lia|]); constructor).
    rewrite Ev by (apply (cell_join line (f_0 em) [0; 0] j Ix Ij)).
    pose proof (rk3_agree 6 light line [(0, 1)] (spacing line_grid) [0%nat] line_dims (fdec 1 (-1)) faint (from faint_1) (from faint_2)
      ltac:(apply agree_map; vm_compute; reflexivity) ltac:(apply agree_map; vm_compute; reflexivity) [0; 0] j Ix Ij) as A. refine (eq_trans A _).
    destruct Hj as [->| ->]; vm_compute; reflexivity.
Qed.
Print Assumptions C90_refuted.

(** ** literals *)

(** A decimal literal of the source is a double, and no other double is nearer to
    the number it denotes. *)
Theorem C89_literals : forall m k y, (0 < k)%Z -> (Rabs (IZR m / IZR (10 ^ k)) <= large)%R -> number y ->
  number (fdec m (- k)) /\ (Rabs (real (fdec m (- k)) - IZR m / IZR (10 ^ k)) <= Rabs (real y - IZR m / IZR (10 ^ k)))%R.
Proof. exact literal_best. Qed.
Print Assumptions C89_literals.
Example C89_literals_ex : forall y, number y -> number (fdec 160217662 (-27)) /\
  (Rabs (real (fdec 160217662 (-27)) - 160217662 / 10 ^ 27) <= Rabs (real y - 160217662 / 10 ^ 27))%R.
Proof.
  intros y Hy. pose proof (C89_literals 160217662 27 y ltac:(lia)) as C. change (- (27))%Z with (-27)%Z in C.
  assert (E : (10 ^ 27 = IZR (10 ^ 27))%R) by (rewrite (pow_IZR 10 27); reflexivity). rewrite E. apply C; [|exact Hy].
  pose proof large_large. rewrite <- E. rewrite Rabs_pos_eq; lra.
Qed.
