(** * GaussFacts: the change of the electric field and of the charge in one step. *)
From Coq Require Import ZArith List String Bool Reals Lra Lia Psatz.
From Verif Require Import Base BaseFacts BoxSpec BoxFacts Interface EulerSpec PhysicsSpec PhysicsFacts Properties_Physics NumFacts Range RangeSpec RangeFacts ApiSpec Arith ArithR Chunk FieldSpec VarId Manager MgrSpec MgrFacts
  BC BCSpec BCFacts Sweep SweepSpec Euler Maxwell Sources SourceSpec ParFacts SweepFacts FluxFacts Programs ProgramsSpec ConserveFacts RhsFacts Properties_Programs
  SymmetrySpec SymmetryFacts Properties_Symmetry Properties_Chunk Properties_Monopole AxesFacts PositiveSpec PositiveFacts Properties_Positive AccuracyGas AccuracySpec AccuracyFacts GaussSpec.
Import ListNotations.
Open Scope R_scope.

Lemma rk3_point : forall Op dt U i c,
  @rk3 R RArith Op dt U i c = U i c + dt * ((Op U i c + Op (second Op dt U) i c + 4 * Op (third Op dt U) i c) / 6).
Proof. intros Op dt U i c. rewrite rk3_third. unfold third at 1. unfold second at 1. unfold second at 1. field. Qed.

Lemma hll_wall : forall gamma (u : field R) x j, wall 5 (flux_of (euler_flux gamma)) u 0 x j = wall 5 (hll_flux gamma) u 0 x j.
Proof.
  intros gamma u x j. unfold wall. rewrite euler_flux_is; [reflexivity| | |lia]; unfold left_state, right_state; rewrite map_length, zrange_length; reflexivity.
Qed.

Lemma line_mass : forall p (M : box) bc dx com (u e : field R) x,
  with_lorentz com u e (fv_rhs 5 (flux_of (euler_flux (pl_gamma p))) M bc dx [0%nat] u) (x ++ [0%Z]) =
  (mass_flow (pl_gamma p) M (bc 0%nat) u x - mass_flow (pl_gamma p) M (bc 0%nat) u (move 0 1 x)) / dx 0%nat.
Proof.
  intros p M bc dx com u e x. unfold with_lorentz. rewrite last_last. cbn [lorentz_rate]. unfold fv_rhs, cellwise. rewrite removelast_last, last_last.
  cbn [fold_left]. unfold with_fluxes, mass_flow. rewrite !hll_wall. cbn [fadd fsub fdiv RArith]. change (@f0 R RArith) with 0. unfold Rdiv. ring.
Qed.

Lemma line_field : forall c ms (M : box) bc dx (u v w : field R) x, List.length ms = 2%nat ->
  with_current ms [u; v] (fv_rhs 6 (flux_of (maxwell_flux c)) M bc dx [0%nat] w) (x ++ [0%Z]) = nth 0 ms 0 * u (x ++ [1%Z]) + nth 1 ms 0 * v (x ++ [1%Z]).
Proof.
  intros c ms M bc dx u v w x H. unfold with_current. rewrite last_last, removelast_last. cbn [Z.ltb Z.compare]. rewrite maxwell_point by auto.
  destruct ms as [|a [|b [|? ?]]]; try discriminate. cbn. ring.
Qed.

Lemma gauss_op : forall p (M : box) dx U x, List.length (pl_ms p) = 2%nat -> (0 < List.length x)%nat -> dx 0%nat <> 0 ->
  let Op := plasma_op p (flux_of (euler_flux (pl_gamma p))) (flux_of (maxwell_flux (pl_c p))) M wall_kinds dx [0%nat] [0%nat] in
  gauss_error (pl_ms p) (dx 0%nat) (Op U 0%nat) (Op U 1%nat) (Op U 2%nat) x = gauss_rate (pl_gamma p) M (pl_ms p) (dx 0%nat) (U 0%nat) (U 1%nat) x.
Proof.
  intros p M dx U x Hms Hx Hd Op. unfold gauss_error, charge, Op. cbn [plasma_op]. rewrite !line_mass, !line_field by exact Hms. unfold gauss_rate, slips, slip.
  cbn [wall_kinds]. rewrite move_move by exact Hx. change (1 + -1)%Z with 0%Z. rewrite move_0 by exact Hx. field. exact Hd.
Qed.

Lemma gauss_step : forall p (M : box) dx dt U x, List.length (pl_ms p) = 2%nat -> (0 < List.length x)%nat -> dx 0%nat <> 0 ->
  let Op := plasma_op p (flux_of (euler_flux (pl_gamma p))) (flux_of (maxwell_flux (pl_c p))) M wall_kinds dx [0%nat] [0%nat] in
  let err (V : @sys R) := gauss_error (pl_ms p) (dx 0%nat) (V 0%nat) (V 1%nat) (V 2%nat) x in
  let rate (V : @sys R) := gauss_rate (pl_gamma p) M (pl_ms p) (dx 0%nat) (V 0%nat) (V 1%nat) x in
  err (rk3 Op dt U) = err U + dt * ((rate U + rate (second Op dt U) + 4 * rate (third Op dt U)) / 6).
Proof.
  intros p M dx dt U x Hms Hx Hd Op err rate. unfold rate. rewrite <- !(gauss_op p M dx _ x Hms Hx Hd). fold Op. unfold err.
  set (U2 := second Op dt U). set (U3 := third Op dt U). unfold gauss_error, charge. rewrite !rk3_point. fold U2 U3. field. exact Hd.
Qed.

(** ** smooth gases *)

Lemma central : forall f f1 K h, 0 < h -> tame f f1 K (- (5 / 2 * h)) (5 / 2 * h) -> Rabs ((f h - f (- h)) / (2 * h) - f1 0) <= K * h.
Proof.
  intros f f1 K h Hh [[HD HL] _]. destruct (difference f f1 (- h) h ltac:(lra) ltac:(intros; apply HD; lra)) as (y & Hy & E).
  replace ((f h - f (- h)) / (2 * h)) with (f1 y) by (rewrite E; field; lra). eapply Rle_trans; [apply HL; lra|].
  assert (0 <= K). { pose proof (HL h 0 ltac:(lra) ltac:(lra)) as B. pose proof (Rabs_pos (f1 h - f1 0)). rewrite (Rabs_right (h - 0)) in B by lra. nra. }
  apply Rmult_le_compat_l; [assumption|]. apply Rabs_le_iff. lra.
Qed.

Lemma slips_smooth : forall gamma K (M : box) u x h, 1 <= gamma -> 1 <= K -> 0 < h -> (0 < List.length x)%nat ->
  40 * gamma * K ^ 5 * (7 / 4 * K * h * h + 6 / 5 * eps) <= 1 -> (lo M 0 + 2 <= nth 0 x 0%Z < hi M 0 - 2)%Z -> smooth_gas gamma K h u x ->
  Rabs (slips (mass_flow gamma M NoSlip u) h u x) <= (gas_const gamma K + K) * (h + eps / h).
Proof.
  intros gamma K M u x h Hg HK Hh Hx HS HM (g & g1 & HT & HP).
  assert (SE : forall t i, (-2 <= t <= 2)%Z -> seen NoSlip M 0 u (move 0 t x ++ [i]) = u (move 0 t x ++ [i])).
  { intros t i Ht. rewrite seen_here by exact Hx. destruct (Z.ltb_spec (nth 0 x 0%Z + t) (lo M 0)); [lia|]. destruct (Z.leb_spec (hi M 0) (nth 0 x 0%Z + t)); [lia|]. reflexivity. }
  destruct (HT 1%Z ltac:(lia)) as [T1 V1].
  assert (DF : derivable_pt_lim (fun y => nth 0 (euler_phys gamma 0 (map (fun i => g i y) (zrange 0 5))) 0) 0 (g1 1%Z 0)) by (apply T1; lra).
  pose proof (gas_net gamma K (seen NoSlip M 0 u) 0 x 0 h g g1 (g1 1%Z 0) Hg HK ltac:(lia) Hx ltac:(lia) Hh HS) as B.
  assert (HT' : forall i, (0 <= i < 5)%Z -> tame (g i) (g1 i) K (- (5 / 2 * h)) (5 / 2 * h) /\ forall t, (-2 <= t <= 2)%Z -> seen NoSlip M 0 u (move 0 t x ++ [i]) = g i (IZR t * h)).
  { intros i Hi. destruct (HT i Hi) as [A1 A2]. split; [exact A1|]. intros t Ht. rewrite SE by exact Ht. now apply A2. }
  specialize (B HT' HP DF). rewrite !hll_wall in B. change (Z.of_nat 0) with 0%Z in B. pose proof (central (g 1%Z) (g1 1%Z) K h Hh T1) as C.
  assert (E : slips (mass_flow gamma M NoSlip u) h u x = (mass_flow gamma M NoSlip u x - mass_flow gamma M NoSlip u (move 0 1 x)) / h + g1 1%Z 0 + ((g 1%Z h - g 1%Z (- h)) / (2 * h) - g1 1%Z 0)).
  { unfold slips, slip. rewrite move_move by exact Hx. change (1 + -1)%Z with 0%Z. rewrite move_0 by exact Hx. rewrite !V1 by lia.
    replace (IZR 1 * h) with h by ring. replace (IZR (-1) * h) with (- h) by ring. field. lra. }
  rewrite E. eapply Rle_trans; [apply Rabs_triang|]. assert (P : 0 < eps / h) by (apply Rdiv_lt_0_compat; [apply eps_pos|exact Hh]).
  unfold mass_flow. assert (K * h <= K * (h + eps / h)) by (apply Rmult_le_compat_l; lra). lra.
Qed.

(** ** uniform parts of a plasma *)

Lemma flat_rhs : forall n G (M : box) bc dx (u : field R) x (a : Z -> R) j, (0 < List.length x)%nat -> (lo M 0 + 2 <= nth 0 x 0%Z < hi M 0 - 2)%Z ->
  (forall t i, (-2 <= t <= 2)%Z -> (0 <= i < n)%Z -> u (move 0 t x ++ [i]) = a i) -> fv_rhs n G M bc dx [0%nat] u (x ++ [j]) = 0.
Proof.
  intros n G M bc dx u x a j Hx HM HU. unfold fv_rhs, cellwise. rewrite removelast_last, last_last. cbn [fold_left]. unfold with_fluxes.
  assert (SE : forall t i, (-2 <= t <= 2)%Z -> (0 <= i < n)%Z -> seen (bc 0%nat) M 0 u (move 0 t x ++ [i]) = a i).
  { intros t i Ht Hi. rewrite seen_here by exact Hx. destruct (Z.ltb_spec (nth 0 x 0%Z + t) (lo M 0)); [lia|]. destruct (Z.leb_spec (hi M 0) (nth 0 x 0%Z + t)); [lia|]. now apply HU. }
  rewrite (wall_ext n G (seen (bc 0%nat) M 0 u) (seen (bc 0%nat) M 0 u) 0 x (move 0 1 x) j).
  - cbn [fadd fsub fdiv RArith]. change (@f0 R RArith) with 0. ring.
  - intros t i Ht Hi. rewrite move_move by exact Hx. rewrite !SE by lia. reflexivity.
  - now apply move_0.
  - apply move_0. now rewrite move_length.
Qed.

(** Both fluids uniform, without current and without field, in the cells up to [r] from [x]. *)
Definition flat_plasma (a b : Z -> R) (r : Z) (V : @sys R) (x : list Z) : Prop := forall t, (- r <= t <= r)%Z ->
  (forall i, (0 <= i < 5)%Z -> V 0%nat (move 0 t x ++ [i]) = a i /\ V 1%nat (move 0 t x ++ [i]) = b i) /\ forall i, (0 <= i < 6)%Z -> V 2%nat (move 0 t x ++ [i]) = 0.

Lemma flat_op : forall p G5 G6 (M : box) dx V x a b, List.length (pl_ms p) = 2%nat -> (0 < List.length x)%nat -> (lo M 0 + 2 <= nth 0 x 0%Z < hi M 0 - 2)%Z ->
  (forall i, (1 <= i <= 3)%Z -> nth 0 (pl_ms p) 0 * a i + nth 1 (pl_ms p) 0 * b i = 0) -> flat_plasma a b 2 V x ->
  let Op := plasma_op p G5 G6 M wall_kinds dx [0%nat] [0%nat] in
  (forall i, (0 <= i < 5)%Z -> Op V 0%nat (x ++ [i]) = 0 /\ Op V 1%nat (x ++ [i]) = 0) /\ forall i, (0 <= i < 6)%Z -> Op V 2%nat (x ++ [i]) = 0.
Proof.
  intros p G5 G6 M dx V x a b Hms Hx HM HJ HV Op.
  assert (H0 : forall i, (0 <= i < 5)%Z -> V 0%nat (x ++ [i]) = a i /\ V 1%nat (x ++ [i]) = b i) by (intros i Hi; destruct (HV 0%Z ltac:(lia)) as [A _]; rewrite move_0 in A by exact Hx; now apply A).
  assert (H2 : forall i, (0 <= i < 6)%Z -> V 2%nat (x ++ [i]) = 0) by (intros i Hi; destruct (HV 0%Z ltac:(lia)) as [_ A]; rewrite move_0 in A by exact Hx; now apply A).
  assert (LZ : forall com (u : field R) r i, r (x ++ [i]) = 0 -> with_lorentz com u (V 2%nat) r (x ++ [i]) = 0).
  { intros com u r i Hr. unfold with_lorentz. rewrite removelast_last, last_last, Hr. unfold lorentz_rate.
    assert (HZ : forall k, (0 <= k < 6)%Z -> V 2%nat (x ++ [k]) = 0) by exact H2. destruct i as [|[[?|?|]|[?|[?|?|]|]|]|?]; try reflexivity; rewrite ?HZ by lia; cbn [fadd fsub fmul RArith]; ring. }
  split.
  - intros i Hi. split; unfold Op; cbn [plasma_op]; apply LZ; [apply (flat_rhs 5 G5 M _ dx _ x a)|apply (flat_rhs 5 G5 M _ dx _ x b)]; auto; intros t k Ht Hk; destruct (HV t Ht) as [A _]; now apply A.
  - intros i Hi. unfold Op. cbn [plasma_op]. unfold with_current. rewrite last_last, removelast_last. rewrite (flat_rhs 6 G6 M _ dx _ x (fun _ => 0)); auto; [|intros t k Ht Hk; destruct (HV t Ht) as [_ A]; now apply A].
    destruct (Z.ltb_spec i 3) as [H3|H3]; [|reflexivity]. destruct (pl_ms p) as [|k0 [|k1 [|? ?]]]; try discriminate. cbn [current fadd fmul RArith].
    specialize (HJ (i + 1)%Z ltac:(lia)). cbn [nth] in HJ. destruct (H0 (i + 1)%Z ltac:(lia)) as [-> ->]. lra.
Qed.

Lemma flat_stages : forall p G5 G6 (M : box) dx dt V x a b, List.length (pl_ms p) = 2%nat -> (0 < List.length x)%nat -> (lo M 0 + 6 <= nth 0 x 0%Z < hi M 0 - 6)%Z ->
  (forall i, (1 <= i <= 3)%Z -> nth 0 (pl_ms p) 0 * a i + nth 1 (pl_ms p) 0 * b i = 0) -> flat_plasma a b 6 V x ->
  let Op := plasma_op p G5 G6 M wall_kinds dx [0%nat] [0%nat] in flat_plasma a b 4 (second Op dt V) x /\ flat_plasma a b 2 (third Op dt V) x.
Proof.
  intros p G5 G6 M dx dt V x a b Hms Hx HM HJ HV Op.
  assert (ST : forall W r, (r <= 4)%Z -> flat_plasma a b (r + 2) W x -> flat_plasma a b r (second Op dt W) x).
  { intros W r Hr HW t Ht.
    destruct (flat_op p G5 G6 M dx W (move 0 t x) a b Hms ltac:(now rewrite move_length) ltac:(unfold move; rewrite nth_upd_eq by exact Hx; lia) HJ) as [A B].
    { intros s Hs. rewrite move_move by exact Hx. apply HW. lia. }
    fold Op in A, B. destruct (HW t ltac:(lia)) as [C D]. split; [intros i Hi; destruct (A i Hi) as [A1 A2], (C i Hi) as [C1 C2]|intros i Hi; specialize (B i Hi); specialize (D i Hi)]; unfold second; [split|]; rewrite ?A1, ?A2, ?B, ?C1, ?C2, ?D; ring. }
  assert (S1 := ST V 4%Z ltac:(lia) HV). split; [exact S1|]. assert (S2 := ST (second Op dt V) 2%Z ltac:(lia) S1).
  intros t Ht. destruct (HV t ltac:(lia)) as [A B], (S2 t Ht) as [C D]. split; [intros i Hi; destruct (A i Hi) as [A1 A2], (C i Hi) as [C1 C2]|intros i Hi; specialize (B i Hi); specialize (D i Hi)]; unfold third; [split|]; rewrite ?A1, ?A2, ?B, ?C1, ?C2, ?D; field.
Qed.

Lemma flat_smooth : forall gamma K h (u : field R) x (a : Z -> R), 0 < K -> (forall t i, (-2 <= t <= 2)%Z -> (0 <= i < 5)%Z -> u (move 0 t x ++ [i]) = a i) ->
  (forall i, (0 <= i < 5)%Z -> Rabs (a i) <= K) -> / K <= density (map a (zrange 0 5)) -> / K <= pressure gamma (map a (zrange 0 5)) -> smooth_gas gamma K h u x.
Proof.
  intros gamma K h u x a HK HU HA HD HP. exists (fun i _ => a i), (fun _ _ => 0). split; [|intros y _; split; assumption].
  intros i Hi. split; [|intros t Ht; now apply HU]. split; [split|].
  - intros y _. apply derivable_pt_lim_const.
  - intros y z _ _. rewrite Rminus_0_r, Rabs_R0. apply Rmult_le_pos; [lra|apply Rabs_pos].
  - intros y _. split; [now apply HA|rewrite Rabs_R0; lra].
Qed.

Lemma flat_slips : forall gamma (M : box) bc (u : field R) x (a : Z -> R) h, (0 < List.length x)%nat -> (lo M 0 + 2 <= nth 0 x 0%Z < hi M 0 - 2)%Z ->
  (forall t i, (-2 <= t <= 2)%Z -> (0 <= i < 5)%Z -> u (move 0 t x ++ [i]) = a i) -> slips (mass_flow gamma M bc u) h u x = 0.
Proof.
  intros gamma M bc u x a h Hx HM HU.
  assert (SE : forall t i, (-2 <= t <= 2)%Z -> (0 <= i < 5)%Z -> seen bc M 0 u (move 0 t x ++ [i]) = a i).
  { intros t i Ht Hi. rewrite seen_here by exact Hx. destruct (Z.ltb_spec (nth 0 x 0%Z + t) (lo M 0)); [lia|]. destruct (Z.leb_spec (hi M 0) (nth 0 x 0%Z + t)); [lia|]. now apply HU. }
  assert (HX := HU 0%Z 1%Z ltac:(lia) ltac:(lia)). rewrite move_0 in HX by exact Hx.
  unfold slips, slip, mass_flow. rewrite move_move by exact Hx. change (1 + -1)%Z with 0%Z. rewrite move_0 by exact Hx. rewrite HX, !HU by lia.
  rewrite (wall_ext 5 (hll_flux gamma) (seen bc M 0 u) (seen bc M 0 u) 0 x (move 0 1 x) 0).
  - unfold Rdiv. ring.
  - intros t i Ht Hi. rewrite move_move by exact Hx. rewrite !SE by lia. reflexivity.
  - now apply move_0.
  - apply move_0. now rewrite move_length.
Qed.
