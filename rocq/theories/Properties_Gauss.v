(** * Gauss's law (C84). *)
From Coq Require Import ZArith List String Bool Reals Lra Lia Psatz Floats.SpecFloat.
From Verif Require Import Base BaseFacts BoxSpec BoxFacts Interface EulerSpec PhysicsSpec PhysicsFacts Properties_Physics NumFacts Range RangeSpec RangeFacts ApiSpec Arith ArithR Chunk FieldSpec VarId Manager MgrSpec MgrFacts
  BC BCSpec BCFacts Sweep SweepSpec Euler Maxwell Sources SourceSpec ParFacts SweepFacts FluxFacts Programs ProgramsSpec ConserveFacts RhsFacts Properties_Programs
  SymmetrySpec SymmetryFacts Properties_Symmetry Properties_Chunk Properties_Monopole AxesFacts PositiveSpec PositiveFacts Properties_Positive AccuracyGas AccuracySpec AccuracyFacts GaussSpec GaussFacts ArithFloat Properties_Euler.
Import ListNotations.
Open Scope Z_scope.

Lemma sum_over_app : forall l l' f, sum_over (l ++ l') f = (sum_over l f + sum_over l' f)%R.
Proof. intros l l' f. unfold sum_over. induction l as [|a l IH]; cbn; [ring|rewrite IH; ring]. Qed.

(** ** C84 for the tube of the two-fluid shock

    In exact arithmetic each step changes what the divergence of E exceeds the charge
    by exactly by the weighted mean of the rates at the three stages. *)
Theorem C84_brio_wu : forall p mx e i f fuel dt n (m : mgr R) L u v w x, let M := [mx] in let h := spacing (mg_grid m) 0 in
  let Op := plasma_op p (hll_flux (pl_gamma p)) (rusanov_flux (pl_c p)) M wall_kinds (spacing (mg_grid m)) [0%nat] [0%nat] in
  let rate (V : @sys R) := gauss_rate (pl_gamma p) M (pl_ms p) h (V 0%nat) (V 1%nat) x in
  program_ready m M L [e; i; f] fuel ->
  List.length (id_comps (f_0 e)) = 5%nat -> List.length (id_comps (f_0 i)) = 5%nat -> List.length (id_comps (f_0 f)) = 6%nat ->
  bs_points (id_basis (f_0 e)) = bs_points (id_basis (f_0 f)) -> bs_points (id_basis (f_0 i)) = bs_points (id_basis (f_0 f)) -> List.length (pl_ms p) = 2%nat ->
  field_get L (f_0 e) = Some u -> field_get L (f_0 i) = Some v -> field_get L (f_0 f) = Some w -> h <> 0%R ->
  in_box (M ++ [(0, bs_points (id_basis (f_0 f)))]) x -> fst mx + 1 <= nth 0 x 0 < snd mx - 1 ->
  let R := run (plasma_step true fuel p (brio_wu_bcs e i f) e i f) dt n m in
  exists u' v' w', ends R M (f_0 e) u' /\ ends R M (f_0 i) v' /\ ends R M (f_0 f) w' /\
    gauss_error (pl_ms p) h u' v' w' x = (gauss_error (pl_ms p) h u v w x +
      sum_over (seq 0 n) (fun t => let V := Nat.iter t (rk3 Op dt) (three u v w) in dt * ((rate V + rate (second Op dt V) + 4 * rate (third Op dt V)) / 6)))%R.
Proof.
  intros p mx e i f fuel dt n m L u v w x M h Op rate HR Ne Ni Nf Pe Pi Hms Hu Hv Hw Hh Hx Hi R.
  destruct (C57_brio_wu_physical p mx e i f fuel dt n m L u v w HR Ne Ni Nf Pe Pi Hms Hu Hv Hw) as (m1 & L1 & E1 & (S1 & _) & _ & _ & _ & V1 & _).
  destruct (V1 0%nat (f_0 e) eq_refl) as (u' & Gu & Hu'). destruct (V1 1%nat (f_0 i) eq_refl) as (v' & Gv & Hv'). destruct (V1 2%nat (f_0 f) eq_refl) as (w' & Gw & Hw').
  exists u', v', w'. do 3 (split; [exists m1, L1; auto|]). fold M in Hu', Hv', Hw'. fold Op in Hu', Hv', Hw'.
  set (V := fun t => Nat.iter t (rk3 Op dt) (three u v w)). change (Nat.iter n (rk3 Op dt) (three u v w)) with (V n) in *.
  assert (LX : (0 < List.length x)%nat). { apply Forall2_length in Hx. rewrite app_length in Hx. cbn in Hx. lia. }
  assert (B : forall t, -1 <= t <= 1 -> in_box (M ++ [(0, bs_points (id_basis (f_0 f)))]) (move 0 t x)).
  { intros t Ht. unfold move. apply in_box_upd; [cbn; lia| |exact Hx]. unfold lo, hi. unfold M. destruct mx as [l r]. cbn [fst snd nth] in Hi |- *. lia. }
  assert (E : gauss_error (pl_ms p) h u' v' w' x = gauss_error (pl_ms p) h (V n 0%nat) (V n 1%nat) (V n 2%nat) x).
  { unfold gauss_error, charge. rewrite Hu' by (apply cell_join; [rewrite Pe; exact Hx|rewrite Ne; lia]). rewrite Hv' by (apply cell_join; [rewrite Pi; exact Hx|rewrite Ni; lia]).
    rewrite !Hw' by (apply cell_join; [apply B; lia|rewrite Nf; lia]). reflexivity. }
  rewrite E. clear E Hu' Hv' Hw' Gu Gv Gw V1 E1 S1. induction n as [|n IH]; [unfold sum_over; cbn [seq map fold_right]; rewrite Rplus_0_r; reflexivity|].
  rewrite seq_S, sum_over_app. cbn [Nat.add]. change (V (S n)) with (rk3 Op dt (V n)).
  assert (ST := gauss_step p M (spacing (mg_grid m)) dt (V n) x Hms LX Hh). cbn zeta in ST. rewrite plasma_op_physical in ST by (intros d [<-|[]]; lia). fold Op h in ST.
  rewrite ST, IH. unfold sum_over at 3. cbn [map fold_right]. fold (V n). unfold rate. ring.
Qed.
Print Assumptions C84_brio_wu.

(** For smooth gases, cells away from the walls, that rate is small with the width of
    the cells. *)
Theorem C84_smooth : forall gamma K, (1 <= gamma)%R -> (1 <= K)%R -> exists C, forall mx ms h u v x, (0 < h)%R ->
  (40 * gamma * K ^ 5 * (7 / 4 * K * h * h + 6 / 5 * / 1000000000000) <= 1)%R -> (0 < List.length x)%nat -> fst mx + 2 <= nth 0 x 0 < snd mx - 2 ->
  smooth_gas gamma K h u x -> smooth_gas gamma K h v x ->
  (Rabs (gauss_rate gamma [mx] ms h u v x) <= (Rabs (nth 0 ms 0) + Rabs (nth 1 ms 0)) * (C * (h + / 1000000000000 / h)))%R.
Proof.
  intros gamma K Hg HK. exists (gas_const gamma K + K)%R. intros mx ms h u v x Hh HS Hx HM Su Sv.
  assert (HM' : (lo [mx] 0 + 2 <= nth 0 x 0%Z < hi [mx] 0 - 2)%Z) by exact HM.
  pose proof (slips_smooth gamma K [mx] u x h Hg HK Hh Hx HS HM' Su) as Bu. pose proof (slips_smooth gamma K [mx] v x h Hg HK Hh Hx HS HM' Sv) as Bv.
  unfold gauss_rate. eapply Rle_trans; [apply Rabs_triang|]. rewrite !Rabs_mult, Rmult_plus_distr_r. apply Rplus_le_compat; (apply Rmult_le_compat_l; [apply Rabs_pos|assumption]).
Qed.
Print Assumptions C84_smooth.

(** A run: as long as the gases are smooth about the cell at every stage, the error
    grows at most by that rate. *)
Theorem C84_smooth_run_partial : forall gamma K, (1 <= gamma)%R -> (1 <= K)%R -> exists C, forall p mx e i f fuel dt n (m : mgr R) L u v w x, let M := [mx] in let h := spacing (mg_grid m) 0 in
  let Op := plasma_op p (hll_flux (pl_gamma p)) (rusanov_flux (pl_c p)) M wall_kinds (spacing (mg_grid m)) [0%nat] [0%nat] in
  program_ready m M L [e; i; f] fuel ->
  List.length (id_comps (f_0 e)) = 5%nat -> List.length (id_comps (f_0 i)) = 5%nat -> List.length (id_comps (f_0 f)) = 6%nat ->
  bs_points (id_basis (f_0 e)) = bs_points (id_basis (f_0 f)) -> bs_points (id_basis (f_0 i)) = bs_points (id_basis (f_0 f)) -> List.length (pl_ms p) = 2%nat ->
  field_get L (f_0 e) = Some u -> field_get L (f_0 i) = Some v -> field_get L (f_0 f) = Some w -> pl_gamma p = gamma -> (0 < h)%R -> (0 <= dt)%R ->
  (40 * gamma * K ^ 5 * (7 / 4 * K * h * h + 6 / 5 * / 1000000000000) <= 1)%R ->
  in_box (M ++ [(0, bs_points (id_basis (f_0 f)))]) x -> fst mx + 2 <= nth 0 x 0 < snd mx - 2 ->
  (forall t, (t < n)%nat -> let V := Nat.iter t (rk3 Op dt) (three u v w) in
    forall a, (a < 2)%nat -> smooth_gas gamma K h (V a) x /\ smooth_gas gamma K h (second Op dt V a) x /\ smooth_gas gamma K h (third Op dt V a) x) ->
  let R := run (plasma_step true fuel p (brio_wu_bcs e i f) e i f) dt n m in
  exists u' v' w', ends R M (f_0 e) u' /\ ends R M (f_0 i) v' /\ ends R M (f_0 f) w' /\
    (Rabs (gauss_error (pl_ms p) h u' v' w' x - gauss_error (pl_ms p) h u v w x) <=
      INR n * dt * ((Rabs (nth 0 (pl_ms p) 0) + Rabs (nth 1 (pl_ms p) 0)) * (C * (h + / 1000000000000 / h))))%R.
Proof.
  intros gamma K Hg HK. destruct (C84_smooth gamma K Hg HK) as [C HC]. exists C. intros p mx e i f fuel dt n m L u v w x M h Op HR Ne Ni Nf Pe Pi Hms Hu Hv Hw Ep Hh Hdt HS Hx Hi HV R.
  destruct (C84_brio_wu p mx e i f fuel dt n m L u v w x HR Ne Ni Nf Pe Pi Hms Hu Hv Hw ltac:(fold h; lra) Hx ltac:(lia)) as (u' & v' & w' & E1 & E2 & E3 & E).
  exists u', v', w'. do 3 (split; [assumption|]). fold M h in E. fold Op in E. rewrite E. clear E E1 E2 E3. rewrite Ep.
  set (B := ((Rabs (nth 0 (pl_ms p) 0) + Rabs (nth 1 (pl_ms p) 0)) * (C * (h + / 1000000000000 / h)))%R).
  assert (LX : (0 < List.length x)%nat). { apply Forall2_length in Hx. rewrite app_length in Hx. cbn in Hx. lia. }
  match goal with |- (Rabs (?a + ?s - ?a) <= _)%R => replace (a + s - a)%R with s by ring end.
  clear - HV HC Hh Hdt HS LX Hi. induction n as [|n IH]; [unfold sum_over; cbn [seq map fold_right]; rewrite Rabs_R0; change (INR 0) with 0%R; lra|].
  rewrite seq_S, sum_over_app, S_INR. cbn [Nat.add]. specialize (IH ltac:(intros t Ht; apply HV; lia)). specialize (HV n ltac:(lia)).
  eapply Rle_trans; [apply Rabs_triang|]. replace ((INR n + 1) * dt * B)%R with (INR n * dt * B + dt * B)%R by ring. apply Rplus_le_compat; [exact IH|].
  unfold sum_over. cbn [map fold_right]. rewrite Rplus_0_r, Rabs_mult, (Rabs_right dt) by lra. apply Rmult_le_compat_l; [exact Hdt|].
  cbn zeta in HV. set (V := Nat.iter n (rk3 Op dt) (three u v w)) in *. clearbody V. clear IH.
  destruct (HV 0%nat ltac:(lia)) as (S1 & S2 & S3), (HV 1%nat ltac:(lia)) as (T1 & T2 & T3).
  pose proof (HC mx (pl_ms p) h _ _ x Hh HS LX Hi S1 T1) as B1. pose proof (HC mx (pl_ms p) h _ _ x Hh HS LX Hi S2 T2) as B2. pose proof (HC mx (pl_ms p) h _ _ x Hh HS LX Hi S3 T3) as B3.
  fold M B in B1, B2, B3. apply Rabs_le_iff in B1, B2, B3. apply Rabs_le_iff. lra.
Qed.
Print Assumptions C84_smooth_run_partial.

(** A tube of sixteen cells of width 1/1000 between walls: electrons of density 1 and
    ions of density 2 at the same speed 1, warmer in the last cell, without field. *)
Definition fine_grid {F} {A : Arith F} : grid F := mkGrid (range_of [(0, 16)]) [f0] [f1] [fdec 1 (-3)].
Definition flow {F} {A : Arith F} (r : F) : field F := fun c =>
  if last c 0 =? 0 then r else if last c 0 =? 1 then r else if last c 0 =? 4 then (if nth 0 c 0 =? 15 then fofz 4 else fofz 3) else f0.
Definition still {F} {A : Arith F} : field F := fun _ => f0.
Definition flow_fields : list (vid * field R) := [(f_0 electrons, flow 1%R); (f_0 ions, flow 2%R); (f_0 em, still)].
Definition flow_start : mgr R := mgr_of fine_grid [(0, 16)] flow_fields None None.
Lemma flow_ready : program_ready flow_start [(0, 16)] flow_fields [electrons; ions; em] 999.
Proof. is_ready. Qed.
Definition flow_plasma : plasma := mkPlasma (7 / 5)%R 1%R (-2)%R 1%R [2; -1]%R.
Definition flow_at (r : R) (i : Z) : R := if i =? 0 then r else if i =? 1 then r else if i =? 4 then 3%R else 0%R.
Lemma flow_flat : flat_plasma (flow_at 1) (flow_at 2) 6 (three (flow 1%R) (flow 2%R) still) [8; 0].
Proof.
  intros t Ht. split; [|reflexivity]. intros i _. unfold three, flow, flow_at, move. cbn [nth upd app last]. replace (8 + t =? 15) with false by (symmetry; apply Z.eqb_neq; lia). split; reflexivity.
Qed.

(** Cell 8 before and after a step of any length. *)
Example C84_brio_wu_ex : forall dt, let R := run (plasma_step true 999 flow_plasma (brio_wu_bcs electrons ions em) electrons ions em) dt 1 flow_start in
  exists u' v' w', ends R [(0, 16)] (f_0 electrons) u' /\ ends R [(0, 16)] (f_0 ions) v' /\ ends R [(0, 16)] (f_0 em) w' /\ gauss_error [2; -1]%R (/ 1000) u' v' w' [8; 0] = 0%R.
Proof.
  intros dt. assert (H3 : spacing (mg_grid flow_start) 0 = (/ 1000)%R) by (cbn; unfold Rdecimal; cbn; field).
  destruct (C84_brio_wu flow_plasma (0, 16) electrons ions em 999 dt 1 flow_start flow_fields (flow 1%R) (flow 2%R) still [8; 0] flow_ready eq_refl eq_refl eq_refl eq_refl eq_refl eq_refl eq_refl eq_refl eq_refl ltac:(rewrite H3; lra)) as (u' & v' & w' & E1 & E2 & E3 & E).
  { repeat (constructor; [cbn; lia|]). constructor. }
  { cbn; lia. }
  exists u', v', w'. cbn zeta. do 3 (split; [assumption|]). rewrite H3 in E. change (pl_ms flow_plasma) with [2; -1]%R in E. rewrite E. clear E E1 E2 E3.
  set (Op := plasma_op _ _ _ _ _ _ _ _) in *. change (seq 0 1) with [0%nat]. unfold sum_over. cbn [map fold_right Nat.iter].
  destruct (flat_stages flow_plasma (hll_flux (pl_gamma flow_plasma)) (rusanov_flux (pl_c flow_plasma)) [(0, 16)] (spacing (mg_grid flow_start)) dt (three (flow 1%R) (flow 2%R) still) [8; 0] (flow_at 1) (flow_at 2) eq_refl ltac:(cbn; lia) ltac:(cbn; lia)) as [S2 S3].
  { intros i Hi. assert (i = 1 \/ i = 2 \/ i = 3) as [->|[->| ->]] by lia; cbn; ring. }
  { exact flow_flat. }
  fold Op in S2, S3.
  assert (EQ : forall (V : @sys R) r, 2 <= r -> flat_plasma (flow_at 1) (flow_at 2) r V [8; 0] -> gauss_rate (pl_gamma flow_plasma) [(0, 16)] [2; -1]%R (/ 1000) (V 0%nat) (V 1%nat) [8; 0] = 0%R).
  { intros V r Hr HV. unfold gauss_rate. rewrite (flat_slips _ _ _ (V 0%nat) _ (flow_at 1)), (flat_slips _ _ _ (V 1%nat) _ (flow_at 2)); try (cbn; lia); [ring| |]; intros t i Ht Hi; apply (HV t ltac:(lia)); exact Hi. }
  change (Nat.iter 0 (rk3 Op dt) (three (flow 1%R) (flow 2%R) still)) with (three (flow 1%R) (flow 2%R) (@still R RArith)). rewrite (EQ _ 6 ltac:(lia) flow_flat), (EQ _ 4 ltac:(lia) S2), (EQ _ 2 ltac:(lia) S3). unfold gauss_error, charge, still, flow. cbn. field.
Qed.
Example C84_smooth_run_ex : exists C, forall dt, (0 <= dt)%R -> let R := run (plasma_step true 999 flow_plasma (brio_wu_bcs electrons ions em) electrons ions em) dt 1 flow_start in
  exists u' v' w', ends R [(0, 16)] (f_0 electrons) u' /\ ends R [(0, 16)] (f_0 ions) v' /\ ends R [(0, 16)] (f_0 em) w' /\
    (Rabs (gauss_error [2; -1]%R (/ 1000) u' v' w' [8; 0]%Z) <= dt * C)%R.
Proof.
  destruct (C84_smooth_run_partial (7 / 5) 3 ltac:(lra) ltac:(lra)) as [C HC]. exists (1 * (3 * (C * (/ 1000 + / 1000000000000 / / 1000))))%R. intros dt Hdt.
  assert (H3 : spacing (mg_grid flow_start) 0 = (/ 1000)%R) by (cbn; unfold Rdecimal; cbn; field).
  destruct (HC flow_plasma (0, 16) electrons ions em 999%nat dt 1%nat flow_start flow_fields (flow 1%R) (flow 2%R) still [8; 0] flow_ready eq_refl eq_refl eq_refl eq_refl eq_refl eq_refl eq_refl eq_refl eq_refl eq_refl) as (u' & v' & w' & E1 & E2 & E3 & E).
  { rewrite H3. lra. }
  { exact Hdt. }
  { rewrite H3. lra. }
  { repeat (constructor; [cbn; lia|]). constructor. }
  { cbn; lia. }
  { intros t Ht. assert (t = 0%nat) as -> by lia. cbn zeta. set (Op := plasma_op _ _ _ _ _ _ _ _) in *.
    destruct (flat_stages flow_plasma (hll_flux (pl_gamma flow_plasma)) (rusanov_flux (pl_c flow_plasma)) [(0, 16)] (spacing (mg_grid flow_start)) dt (three (flow 1%R) (flow 2%R) still) [8; 0] (flow_at 1) (flow_at 2) eq_refl ltac:(cbn; lia) ltac:(cbn; lia)) as [S2 S3].
    { intros i Hi. assert (i = 1 \/ i = 2 \/ i = 3) as [->|[->| ->]] by lia; cbn; ring. }
    { exact flow_flat. }
    fold Op in S2, S3.
    assert (SM : forall (V : @sys R) r, 2 <= r -> flat_plasma (flow_at 1) (flow_at 2) r V [8; 0] -> forall a, (a < 2)%nat -> smooth_gas (7 / 5) 3 (spacing (mg_grid flow_start) 0) (V a) [8; 0]).
    { intros V r Hr HV a Ha. apply (flat_smooth _ _ _ _ _ (flow_at (match a with 0%nat => 1 | _ => 2 end))%R); [lra| | | |].
      - intros t i Ht' Hi. destruct (HV t ltac:(lia)) as [A _]. destruct (A i Hi). destruct a as [|[|a]]; [assumption|assumption|lia].
      - intros i Hi. unfold flow_at. apply Rabs_le_iff. destruct a as [|a]; destruct (i =? 0), (i =? 1), (i =? 4); lra.
      - match goal with |- context [map (flow_at ?r) (zrange 0 5)] => change (map (flow_at r) (zrange 0 5)) with [r; r; 0; 0; 3]%R end. unfold density. cbn [nth]. destruct a as [|a]; lra.
      - match goal with |- context [map (flow_at ?r) (zrange 0 5)] => change (map (flow_at r) (zrange 0 5)) with [r; r; 0; 0; 3]%R end. unfold pressure, kinetic, energy, momentum, density. cbn [nth Nat.add]. destruct a as [|a]; lra. }
    change (Nat.iter 0 (rk3 Op dt) (three (flow 1%R) (flow 2%R) still)) with (three (flow 1%R) (flow 2%R) (@still R RArith)). intros a Ha. exact (conj (SM _ 6 ltac:(lia) flow_flat a Ha) (conj (SM _ 4 ltac:(lia) S2 a Ha) (SM _ 2 ltac:(lia) S3 a Ha))). }
  exists u', v', w'. cbn zeta. do 3 (split; [assumption|]). rewrite H3 in E. change (pl_ms flow_plasma) with [2; -1]%R in E.
  replace (gauss_error [2; -1]%R (/ 1000) (flow 1%R) (flow 2%R) still [8; 0]) with 0%R in E by (unfold gauss_error, charge, still, flow; cbn; field). rewrite Rminus_0_r in E.
  eapply Rle_trans; [exact E|]. right. cbn [nth]. rewrite (Rabs_right 2), (Rabs_left (-1)) by lra. change (INR 1) with 1%R. ring.
Qed.

(** Electrons and ions whose densities grow by 1 per length, from 3/2 and from 1, at
    speed 1 and pressure 1: one factor for all widths of the cells. *)
Definition ramp (r h : R) : field R := fun c => let rho := (r + IZR (nth 0 c 0%Z) * h)%R in
  if last c 0 =? 0 then rho else if last c 0 =? 1 then rho else if last c 0 =? 4 then (5 / 2 + rho / 2)%R else 0%R.
Lemma ramp_smooth : forall r h i, (0 < h <= / 1000)%R -> (1 <= r <= 3 / 2)%R -> (0 <= IZR i * h <= 1)%R -> smooth_gas (7 / 5) 4 h (ramp r h) [i; 0].
Proof.
  intros r h i Hh Hr Hi. set (a := (r + IZR i * h)%R).
  exists (fun k y => if k =? 0 then (a + y)%R else if k =? 1 then (a + y)%R else if k =? 4 then (5 / 2 + (a + y) / 2)%R else 0%R), (fun k _ => if k =? 0 then 1%R else if k =? 1 then 1%R else if k =? 4 then (/ 2)%R else 0%R).
  split.
  - intros k Hk.
    assert (DA : forall y, derivable_pt_lim (fun y => a + y)%R y 1%R).
    { intros y. replace 1%R with (0 + 1)%R by ring. apply (derivable_pt_lim_plus (fun _ => a) id); [apply derivable_pt_lim_const|apply derivable_pt_lim_id]. }
    split.
    + split; [split|].
      * intros y _. destruct (k =? 0); [apply DA|]. destruct (k =? 1); [apply DA|]. destruct (k =? 4); [|apply derivable_pt_lim_const].
        replace (/ 2)%R with (0 + (/ 2 * 1))%R by ring. apply (derivable_pt_lim_plus (fun _ => 5 / 2)%R (fun y => (a + y) / 2)%R); [apply derivable_pt_lim_const|].
        replace (fun y => (a + y) / 2)%R with (mult_real_fct (/ 2) (fun y => a + y)%R); [apply derivable_pt_lim_scal; apply DA|]. apply FunctionalExtensionality.functional_extensionality. intros t. unfold mult_real_fct. field.
      * intros y z _ _. match goal with |- (Rabs (?p - ?q) <= _)%R => replace (p - q)%R with 0%R by ring end. rewrite Rabs_R0. apply Rmult_le_pos; [lra|apply Rabs_pos].
      * intros y Hy. split; apply Rabs_le_iff; destruct (k =? 0), (k =? 1), (k =? 4); unfold a; lra.
    + intros t Ht. unfold ramp, move. cbn [nth upd app last]. rewrite plus_IZR. destruct (k =? 0), (k =? 1), (k =? 4); unfold a; ring || field.
  - intros y Hy. match goal with |- context [map ?f (zrange 0 5)] => change (map f (zrange 0 5)) with [a + y; a + y; 0; 0; 5 / 2 + (a + y) / 2]%R end.
    unfold pressure, kinetic, energy, momentum, density. cbn [nth Nat.add]. assert (P : (0 < a + y)%R) by (unfold a; lra). split; [unfold a; lra|].
    match goal with |- (_ <= ?e)%R => replace e with 1%R by (field; lra) end. lra.
Qed.
Example C84_smooth_ex : exists C, forall n i, 1000 <= n -> 2 <= i < n - 2 -> (Rabs (gauss_rate (7 / 5) [(0%Z, n)] [2; -4]%R (/ IZR n) (ramp (3 / 2) (/ IZR n)) (ramp 1 (/ IZR n)) [i; 0]%Z) <= C * (/ IZR n + / 1000000000000 * IZR n))%R.
Proof.
  destruct (C84_smooth (7 / 5) 4 ltac:(lra) ltac:(lra)) as [C HC]. exists (6 * C)%R. intros n i Hn Hi.
  assert (N1 : (1000 <= IZR n)%R) by (apply IZR_le; lia). assert (Hh : (0 < / IZR n <= / 1000)%R) by (split; [apply Rinv_0_lt_compat; lra|apply Rinv_le_contravar; lra]).
  assert (HI : (0 <= IZR i * / IZR n <= 1)%R).
  { assert (0 <= IZR i <= IZR n)%R by (split; apply IZR_le; lia). split; [apply Rmult_le_pos; lra|]. apply (Rmult_le_reg_r (IZR n)); [lra|]. rewrite Rmult_assoc, Rinv_l, Rmult_1_r by lra. lra. }
  pose proof (HC (0, n) [2; -4]%R (/ IZR n)%R (ramp (3 / 2) (/ IZR n)) (ramp 1 (/ IZR n)) [i; 0] ltac:(lra)) as B. eapply Rle_trans; [apply B|].
  - assert (/ IZR n * / IZR n <= / 1000 * / 1000)%R by (apply Rmult_le_compat; lra). nra.
  - cbn; lia.
  - cbn; lia.
  - apply ramp_smooth; lra.
  - apply ramp_smooth; lra.
  - right. cbn [nth]. rewrite (Rabs_right 2), (Rabs_left (-4)) by lra. field. lra.
Qed.

(** ** C84 refuted

    Six cells of width 1 between walls. Electrons of mass 1/4 and ions of mass 1, as
    many of each in every cell, 4 in the lower half of the tube and 1 in the upper, all
    at rest and at the same pressure everywhere, no field: there is no charge and the
    divergence of E is 0. After one step the lighter electrons have moved further than
    the ions, yet E is still 0, up to 10^-12, and so is its divergence: the fluxes move
    mass without momentum, which makes the current. *)
Definition neutral {F} {A : Arith F} (mass : F) : field F := fun c =>
  if last c 0 =? 0 then (if nth 0 c 0 <? 3 then fmul (fofz 4) mass else mass) else if last c 0 =? 4 then f1 else f0.
Definition neutral_fields {F} {A : Arith F} : list (vid * field F) := [(f_0 electrons, neutral (fdec 25 (-2))); (f_0 ions, neutral f1); (f_0 em, still)].
Definition neutral_start {F} {A : Arith F} : mgr F := mgr_of (mkGrid (range_of [(0, 6)]) [f0] [f1] [f1]) [(0, 6)] neutral_fields None None.
Definition neutral_plasma : plasma := mkPlasma (fdec 14 (-1)) f1 (dbl (-4)) f1 [dbl 4; dbl (-1)].
(** Twice the charge of cell [x] and twice the divergence of E in it. *)
Definition charge_and_divergence (o : out (mgr spec_float)) : list (option (spec_float * spec_float)) :=
  match o with
  | Done m => map (fun x => match cell_value m (f_0 electrons) [x; 0; 0], cell_value m (f_0 ions) [x; 0; 0], cell_value m (f_0 em) [x + 1; 0; 0], cell_value m (f_0 em) [x - 1; 0; 0] with
      | Some a, Some b, Some r, Some l => Some (fmul (dbl 2) (fsub b (fmul (dbl 4) a)), fsub r l)
      | _, _, _, _ => None
      end) [1; 2; 3; 4]
  | _ => []
  end.
(** After [n] steps of length 0.1: which of the cells have no charge and no divergence
    at all, have a charge of at least 0.06, have a divergence of at most 10^-12. *)
Definition neutral_after (n : nat) : list (option (spec_float * spec_float)) :=
  charge_and_divergence (run (plasma_step true 999 neutral_plasma (brio_wu_bcs electrons ions em) electrons ions em) (fdec 1 (-1)) n neutral_start).
Definition charged (p : option (spec_float * spec_float)) : bool := match p with Some (c, _) => flt (fdec 12 (-2)) (fabs c) | None => false end.
Definition sourceless (p : option (spec_float * spec_float)) : bool := match p with Some (_, d) => flt (fabs d) (fdec 1 (-12)) | None => false end.
Theorem C84_refuted : program_ready (@neutral_start spec_float _) [(0, 6)] neutral_fields [electrons; ions; em] 999 /\
  neutral_after 0 = repeat (Some (f0, f0)) 4 /\ map charged (neutral_after 1) = [false; true; true; false] /\ map sourceless (neutral_after 1) = repeat true 4.
Proof. split; [is_ready|]. split; [|split]; vm_compute; reflexivity. Qed.
Print Assumptions C84_refuted.
