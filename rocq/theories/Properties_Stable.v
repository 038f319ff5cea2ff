(** * Properties_Stable: differences between electric and magnetic fields grow only
    as much as the steps allow (C86), mirror images (C87), fields of other strengths
    (C88) and axes in any order (C79). *)
From Coq Require Import ZArith List String Bool Reals Lra Lia Psatz Permutation.
From Verif Require Import Base BaseFacts BoxSpec BoxFacts Interface EulerSpec PhysicsSpec PhysicsFacts Properties_Physics NumFacts Range RangeSpec RangeFacts ApiSpec Arith ArithR Chunk FieldSpec VarId Manager MgrSpec MgrFacts
  BC BCSpec BCFacts Sweep SweepSpec Euler Maxwell Sources SourceSpec ParFacts SweepFacts FluxFacts Programs ProgramsSpec ConserveFacts RhsFacts Properties_Programs
  SymmetrySpec SymmetryFacts Properties_Symmetry Properties_Chunk Properties_Euler Properties_Monopole AxesSpec AxesFacts Properties_Axes Properties_Reach PositiveSpec PositiveFacts StableSpec StableFacts.
Import ListNotations.
Open Scope Z_scope.

Notation points f := [(0, bs_points (id_basis (f_0 f)))].

(** Two runs with fields that correspond. *)
Lemma runs_match : forall c M M' tau rho o s sig k f fuel dt n d (m1 m2 : mgr R) L1 L2 u v, let P := points f in let ds := seq 0 (Nat.min 3 (List.length M)) in
  program_ready m1 M L1 [f] fuel -> program_ready m2 M' L2 [f] fuel -> List.length (id_comps (f_0 f)) = 6%nat -> field_get L1 (f_0 f) = Some u -> field_get L2 (f_0 f) = Some v ->
  List.length M' = List.length M -> (0 < c)%R -> (0 <= dt)%R -> (0 <= d)%R ->
  (forall j, 0 <= j < 6 -> (Rabs (s j) <= k)%R) -> (forall j, 0 <= j < 6 -> 0 <= sig j < 6) -> (forall x, in_box (M ++ P) x -> in_box (M' ++ P) (tau x)) ->
  (forall i, In i ds -> In (rho i) ds /\ spacing (mg_grid m2) i = spacing (mg_grid m1) (rho i) /\ 0 < spacing (mg_grid m2) i)%R ->
  (forall i x t, In i ds -> in_box (M ++ P) x -> around M' i t (tau x) = tau (around M (rho i) (turn o i t) x)) ->
  (forall g, sum_over ds (fun i => g (rho i)) = sum_over ds g) ->
  (forall i a b j, In i ds -> 0 <= j < 6 -> (flux_at c i (fun j => s j * a (sig j)) (fun j => s j * b (sig j)) j =
    if o i then s j * flux_at c (rho i) a b (sig j) else - (s j * flux_at c (rho i) b a (sig j)))%R) ->
  matching c M P tau s sig d u v ->
  exists u' v', ends (run (pulse_step true fuel c (map Z.of_nat (seq 0 (List.length M))) f) dt n m1) M (f_0 f) u' /\
    ends (run (pulse_step true fuel c (map Z.of_nat (seq 0 (List.length M))) f) dt n m2) M' (f_0 f) v' /\
    matching c M P tau s sig (growth c dt (spacing (mg_grid m2)) ds ^ n * (d + (1 + k) / 2 * tolerance c) - (1 + k) / 2 * tolerance c)%R u' v'.
Proof.
  intros c M M' tau rho o s sig k f fuel dt n d m1 m2 L1 L2 u v P ds R1 R2 N6 Eu Ev EM Hc Hdt Hd Hs Hsig Hbox Hrho Har Hsum Hfl HM.
  destruct (C57_pulse_physical c M f fuel dt n m1 L1 u R1 N6 Eu) as (m1' & L1' & E1 & (S1 & _) & _ & _ & _ & V1 & _).
  destruct (C57_pulse_physical c M' f fuel dt n m2 L2 v R2 N6 Ev) as (m2' & L2' & E2 & (S2 & _) & _ & _ & _ & V2 & _).
  rewrite EM in E2, V2. fold ds in V1, V2.
  destruct (V1 0%nat (f_0 f) eq_refl) as (u' & Gu & Hu'). destruct (V2 0%nat (f_0 f) eq_refl) as (v' & Gv & Hv').
  exists u', v'. split; [exists m1', L1'; auto|]. split; [exists m2', L2'; auto|].
  assert (WW : forall M0 (m0 : mgr R) L0, program_ready m0 M0 L0 [f] fuel -> List.length M0 = List.length M -> wide M0 2 ds).
  { intros M0 m0 L0 (_ & _ & _ & _ & W) E i Hi. apply in_seq in Hi. split; [lia|]. destruct (W i) as [_ W']; [apply in_seq; lia|lia]. }
  intros x j Hx Hj. assert (Bj : in_box (M ++ comp_box (f_0 f)) (x ++ [sig j])) by (apply cell_join; [exact Hx|]; rewrite N6; apply Hsig; exact Hj).
  assert (Bj' : in_box (M' ++ comp_box (f_0 f)) (tau x ++ [j])) by (apply cell_join; [now apply Hbox|]; rewrite N6; exact Hj).
  rewrite (Hu' _ Bj), (Hv' _ Bj').
  refine (steps_near c M M' P tau rho o s sig k ds ds (spacing (mg_grid m1)) (spacing (mg_grid m2)) Hc Hs Hbox (WW M m1 L1 R1 eq_refl) (WW M' m2 L2 R2 EM) _ Har Hsum Hfl dt n d (fun _ => u) (fun _ => v) Hdt Hd (fun _ => HM) 0%nat x j Hx Hj).
  intros i Hi. destruct (Hrho i Hi) as (H1 & H2 & H3). repeat split; auto; [apply in_seq in Hi; lia|apply in_seq in H1; lia].
Qed.

(** ** C86: small differences stay small

    The values at a wall, from cell values that differ by at most [k]. *)
Theorem C86_values : forall k a b c d a' b' c' d' : R, (Rabs (a' - a) <= k -> Rabs (b' - b) <= k -> Rabs (c' - c) <= k -> Rabs (d' - d) <= k ->
  Rabs (fst (recon a' b' c' d') - fst (recon a b c d)) <= 5 * (k + / 1000000000000) /\ Rabs (snd (recon a' b' c' d') - snd (recon a b c d)) <= 5 * (k + / 1000000000000))%R.
Proof.
  intros k a b c d a' b' c' d' Ha Hb Hc Hd. rewrite !recon_values. cbn [fst snd].
  assert (R1 : (Rabs 1 <= 1)%R) by (rewrite Rabs_R1; lra).
  assert (E : forall x y : R, (Rabs (x - y) <= k -> Rabs (x - 1 * y) <= k)%R) by (intros x y H; now rewrite Rmult_1_l).
  pose proof (values_near _ _ 1 1 a b c a' b' c' k R1 (left_ideal a b c) (left_ideal a' b' c') (E _ _ Ha) (E _ _ Hb) (E _ _ Hc)) as H1.
  pose proof (values_near _ _ 1 1 d c b d' c' b' k R1 (right_ideal b c d) (right_ideal b' c' d') (E _ _ Hd) (E _ _ Hc) (E _ _ Hb)) as H2.
  rewrite Rmult_1_l in H1, H2. split; lra.
Qed.
Print Assumptions C86_values.
(** Without the tolerance this is false: as small as [k] may be, there are values
    that differ by at most [k] and values at a wall that differ by a quarter of it. *)
Theorem C86_jump : forall k : R, (0 < k <= / 2000000000000)%R -> exists a b c c' d : R, (Rabs (c' - c) <= k /\ / 4000000000000 <= Rabs (fst (recon a b c' d) - fst (recon a b c d)))%R.
Proof.
  intros k Hk. exists (/ 1000000000000 - k)%R, 0%R, 0%R, k, 0%R. rewrite !recon_values. cbn [fst snd]. rewrite !left_R.
  replace (0 - (/ 1000000000000 - k) + eps)%R with k by lra. replace (k - 0)%R with k by ring. replace (0 - 0)%R with 0%R by ring. rewrite !phi_R.
  replace (k / k)%R with 1%R by (field; lra). replace (0 / k)%R with 0%R by (field; lra).
  split; [rewrite Rabs_right; lra|]. rewrite Rabs_left; lra.
Qed.
Print Assumptions C86_jump.
Example C86_values_ex : (Rabs (fst (recon 1 2 4 6) - fst (recon (3 / 2) 2 (7 / 2) 6)) <= 5 * (/ 2 + / 1000000000000) /\
  / 4 < fst (recon 1 2 4 6) - fst (recon (3 / 2) 2 (7 / 2) 6) < / 2)%R.
Proof.
  split.
  - apply C86_values; unfold Rabs; destruct Rcase_abs; lra.
  - rewrite !recon_values. cbn [fst snd]. pose proof (left_ideal 1 2 4) as H1. pose proof (left_ideal (3 / 2) 2 (7 / 2)) as H2. unfold ideal, blend in H1, H2. apply Rabs_both in H1, H2. lra.
Qed.

(** If in the beginning the fields of two runs of wave_1D or gaussian_pulse differ
    by at most [k], then after n steps by at most the n-th power of the growth times
    [k] and a tolerance of 1e-12. *)
Theorem C86_pulse : forall c M f fuel dt n k (m1 m2 : mgr R) L1 L2 u v,
  program_ready m1 M L1 [f] fuel -> program_ready m2 M L2 [f] fuel -> mg_grid m2 = mg_grid m1 -> List.length (id_comps (f_0 f)) = 6%nat ->
  field_get L1 (f_0 f) = Some u -> field_get L2 (f_0 f) = Some v -> (0 < c)%R -> (0 <= dt)%R -> (0 <= k)%R -> (forall d, (d < List.length M)%nat -> 0 < spacing (mg_grid m1) d)%R ->
  alike c k (M ++ points f) u v ->
  let go := run (pulse_step true fuel c (map Z.of_nat (seq 0 (List.length M))) f) dt n in
  let g := growth c dt (spacing (mg_grid m1)) (seq 0 (Nat.min 3 (List.length M))) in
  exists u' v', ends (go m1) M (f_0 f) u' /\ ends (go m2) M (f_0 f) v' /\ alike c (g ^ n * (k + tolerance c) - tolerance c) (M ++ points f) u' v'.
Proof.
  intros c M f fuel dt n k m1 m2 L1 L2 u v R1 R2 EG N6 Eu Ev Hc Hdt Hk Hdx H go g.
  destruct (runs_match c M M (fun x => x) (fun i => i) (fun _ => true) (fun _ => 1%R) (fun j => j) 1 f fuel dt n k m1 m2 L1 L2 u v) as (u' & v' & E1 & E2 & HM); auto.
  - intros j _. rewrite Rabs_R1. lra.
  - intros i Hi. rewrite EG. repeat split; auto. apply Hdx. apply in_seq in Hi. lia.
  - intros i a b j Hi Hj. cbn beta iota. assert (E : forall h : Z -> R, (fun j => 1 * h j)%R = h) by (intros h; apply FunctionalExtensionality.functional_extensionality; intros q; ring). rewrite !E. ring.
  - intros x j Hx Hj. replace (v (x ++ [j]) - 1 * u (x ++ [j]))%R with (v (x ++ [j]) - u (x ++ [j]))%R by ring. now apply H.
  - exists u', v'. split; [exact E1|]. split; [exact E2|]. intros x j Hx Hj. specialize (HM x j Hx Hj). cbn beta in HM. rewrite EG in HM. fold g in HM. replace ((1 + 1) / 2 * tolerance c)%R with (tolerance c) in HM by field.
    replace (v' (x ++ [j]) - 1 * u' (x ++ [j]))%R with (v' (x ++ [j]) - u' (x ++ [j]))%R in HM by ring. exact HM.
Qed.
Print Assumptions C86_pulse.

(** ** C87: mirror images *)
Lemma mirror_in : forall M P d x, (d < List.length M)%nat -> in_box (M ++ P) x -> in_box (M ++ P) (mirror_cell M d x).
Proof.
  intros M P d x Hd Hx. unfold mirror_cell. pose proof (proj2 (in_box_inside M P x Hx) d Hd). apply in_box_upd; auto; try lia.
Qed.
Lemma mirror_around : forall M d i t x, (d < List.length x)%nat -> (i < List.length x)%nat -> lo M i < hi M i ->
  around M i t (mirror_cell M d x) = mirror_cell M d (around M i (turn (fun i => negb (Nat.eqb i d)) i t) x).
Proof.
  intros M d i t x Hd Hi Hw. unfold turn. destruct (Nat.eqb_spec i d) as [->|N]; cbn [negb].
  - unfold around, mirror_cell. rewrite !nth_upd_eq by exact Hd. rewrite !upd_upd. f_equal. set (w := hi M d - lo M d). set (a := nth d x 0 - t - lo M d).
    replace (lo M d + hi M d - 1 - nth d x 0 + t - lo M d) with (w - 1 - a) by (unfold w, a; lia). replace (nth d x 0 + - t - lo M d) with a by (unfold a; lia).
    assert (E : (w - 1 - a) mod w = w - 1 - a mod w). { pose proof (Z.mod_pos_bound a w ltac:(unfold w; lia)). symmetry. apply Z.mod_unique_pos with (q := - (a / w)); [lia|]. pose proof (Z.div_mod a w ltac:(unfold w; lia)). lia. }
    rewrite E. unfold w. lia.
  - unfold around, mirror_cell. rewrite !nth_upd_neq by auto. apply upd_comm. auto.
Qed.
Lemma mirror_flux : forall c d i a b j, (d < 3)%nat -> (i < 3)%nat -> 0 <= j < 6 -> (0 < c)%R ->
  flux_at c i (fun j => mirror_sign d j * a j)%R (fun j => mirror_sign d j * b j)%R j =
  (if negb (Nat.eqb i d) then mirror_sign d j * flux_at c i a b j else - (mirror_sign d j * flux_at c i b a j))%R.
Proof.
  intros c d i a b j Hd Hi Hj Hc. rewrite !flux_at_is by assumption. revert j Hj.
  destruct d as [|[|[|d]]]; [| | |lia]; (destruct i as [|[|[|i]]]; [| | |lia]); apply six_cases; unfold mirror_sign; cbn [xorb Z.eqb Z.leb Z.compare Z.of_nat Pos.of_succ_nat Pos.succ Z.add Pos.add Pos.eqb Pos.compare Pos.compare_cont andb negb Nat.eqb]; field.
Qed.

(** If in the beginning the fields of the second run are the mirror image of the
    fields of the first up to [k], they stay so up to the growth and the tolerance. *)
Theorem C87_pulse : forall c M f fuel dt n d k (m1 m2 : mgr R) L1 L2 u v,
  program_ready m1 M L1 [f] fuel -> program_ready m2 M L2 [f] fuel -> mg_grid m2 = mg_grid m1 -> List.length (id_comps (f_0 f)) = 6%nat ->
  field_get L1 (f_0 f) = Some u -> field_get L2 (f_0 f) = Some v -> (0 < c)%R -> (0 <= dt)%R -> (0 <= k)%R -> (forall d, (d < List.length M)%nat -> 0 < spacing (mg_grid m1) d)%R ->
  (d < Nat.min 3 (List.length M))%nat -> alike c k (M ++ points f) (mirrored M d u) v ->
  let go := run (pulse_step true fuel c (map Z.of_nat (seq 0 (List.length M))) f) dt n in
  let g := growth c dt (spacing (mg_grid m1)) (seq 0 (Nat.min 3 (List.length M))) in
  exists u' v', ends (go m1) M (f_0 f) u' /\ ends (go m2) M (f_0 f) v' /\ alike c (g ^ n * (k + tolerance c) - tolerance c) (M ++ points f) (mirrored M d u') v'.
Proof.
  intros c M f fuel dt n d k m1 m2 L1 L2 u v R1 R2 EG N6 Eu Ev Hc Hdt Hk Hdx Hd H go g.
  assert (HL : forall x, in_box (M ++ points f) x -> (List.length M < List.length x)%nat) by (intros x Hx; apply Forall2_length in Hx; rewrite app_length in Hx; cbn in Hx; lia).
  assert (MM : forall x, (d < List.length x)%nat -> mirror_cell M d (mirror_cell M d x) = x).
  { intros x Hx. unfold mirror_cell. rewrite nth_upd_eq, upd_upd by exact Hx. replace (lo M d + hi M d - 1 - (lo M d + hi M d - 1 - nth d x 0)) with (nth d x 0) by lia. pose proof (move_0 d x Hx) as E. unfold move in E. now rewrite Z.add_0_r in E. }
  destruct R1 as (R11 & R12 & R13 & R14 & W). assert (HW : forall i, (i < List.length M)%nat -> 2 <= hi M i - lo M i) by (intros i Hi; apply W; apply in_seq; lia).
  destruct (runs_match c M M (mirror_cell M d) (fun i => i) (fun i => negb (Nat.eqb i d)) (mirror_sign d) (fun j => j) 1 f fuel dt n k m1 m2 L1 L2 u v) as (u' & v' & E1 & E2 & HM); auto.
  - repeat (split; auto).
  - intros j _. unfold mirror_sign. destruct (xorb _ _); [rewrite Rabs_left|rewrite Rabs_right]; lra.
  - intros x Hx. apply mirror_in; [lia|exact Hx].
  - intros i Hi. rewrite EG. repeat split; auto. apply Hdx. apply in_seq in Hi. lia.
  - intros i x t Hi Hx. apply in_seq in Hi. specialize (HL x Hx). specialize (HW i ltac:(lia)). apply mirror_around; lia.
  - intros i a b j Hi Hj. apply in_seq in Hi. apply mirror_flux; auto; lia.
  - intros x j Hx Hj. specialize (H (mirror_cell M d x) j (mirror_in M (points f) d x ltac:(lia) Hx) Hj). unfold mirrored in H. rewrite removelast_last, last_last, MM in H by (specialize (HL x Hx); lia). exact H.
  - exists u', v'. split; [exact E1|]. split; [exact E2|]. intros x j Hx Hj. specialize (HM (mirror_cell M d x) j (mirror_in M (points f) d x ltac:(lia) Hx) Hj). cbn beta in HM. rewrite EG in HM. fold g in HM.
    replace ((1 + 1) / 2 * tolerance c)%R with (tolerance c) in HM by field. rewrite MM in HM by (specialize (HL x Hx); lia). unfold mirrored. rewrite removelast_last, last_last. exact HM.
Qed.
Print Assumptions C87_pulse.

(** ** C88: fields of another strength

    If in the beginning the fields of the second run are [a] times those of the
    first up to [k], they stay so up to the growth and the tolerance. *)
Theorem C88_pulse : forall c M f fuel dt n a k (m1 m2 : mgr R) L1 L2 u v,
  program_ready m1 M L1 [f] fuel -> program_ready m2 M L2 [f] fuel -> mg_grid m2 = mg_grid m1 -> List.length (id_comps (f_0 f)) = 6%nat ->
  field_get L1 (f_0 f) = Some u -> field_get L2 (f_0 f) = Some v -> (0 < c)%R -> (0 <= dt)%R -> (0 <= k)%R -> (forall d, (d < List.length M)%nat -> 0 < spacing (mg_grid m1) d)%R ->
  alike c k (M ++ points f) (fun q => a * u q)%R v ->
  let go := run (pulse_step true fuel c (map Z.of_nat (seq 0 (List.length M))) f) dt n in
  let g := growth c dt (spacing (mg_grid m1)) (seq 0 (Nat.min 3 (List.length M))) in let e := ((1 + Rabs a) / 2 * tolerance c)%R in
  exists u' v', ends (go m1) M (f_0 f) u' /\ ends (go m2) M (f_0 f) v' /\ alike c (g ^ n * (k + e) - e) (M ++ points f) (fun q => a * u' q)%R v'.
Proof.
  intros c M f fuel dt n a k m1 m2 L1 L2 u v R1 R2 EG N6 Eu Ev Hc Hdt Hk Hdx H go g e.
  destruct (runs_match c M M (fun x => x) (fun i => i) (fun _ => true) (fun _ => a) (fun j => j) (Rabs a) f fuel dt n k m1 m2 L1 L2 u v) as (u' & v' & E1 & E2 & HM); auto.
  - intros j _. lra.
  - intros i Hi. rewrite EG. repeat split; auto. apply Hdx. apply in_seq in Hi. lia.
  - intros i b b' j Hi Hj. cbn beta iota. apply in_seq in Hi. rewrite !flux_at_is by (auto; lia). clear Hi. revert j Hj.
    destruct i as [|[|[|i]]]; try (intros; ring); (apply six_cases; field).
  - exists u', v'. split; [exact E1|]. split; [exact E2|]. intros x j Hx Hj. specialize (HM x j Hx Hj). cbn beta in HM. rewrite EG in HM. exact HM.
Qed.
Print Assumptions C88_pulse.

(** ** C79: the axes in any order *)
Definition orders : list (list nat) := [[]; [0]; [0; 1]; [1; 0]; [0; 1; 2]; [0; 2; 1]; [1; 0; 2]; [1; 2; 0]; [2; 0; 1]; [2; 1; 0]]%nat.
Lemma all_orders : forall p k, Permutation p (seq 0 k) -> (k <= 3)%nat -> In p orders.
Proof.
  intros p k HP Hk. pose proof (order_length p k HP) as HL. assert (HI := order_in p k HP). assert (HJ := order_inj p k HP).
  destruct p as [|a [|b [|e [|g p]]]]; cbn [List.length] in HL; subst k; [| | | |lia].
  - cbn; tauto.
  - specialize (HI 0%nat ltac:(lia)). cbn [nth] in HI. assert (a = 0%nat) by lia. subst a. cbn; tauto.
  - pose proof (HI 0%nat ltac:(lia)). pose proof (HI 1%nat ltac:(lia)). pose proof (HJ 0%nat 1%nat ltac:(lia) ltac:(lia)) as D. cbn [nth] in *.
    destruct a as [|[|a]], b as [|[|b]]; try lia; cbn; tauto.
  - pose proof (HI 0%nat ltac:(lia)). pose proof (HI 1%nat ltac:(lia)). pose proof (HI 2%nat ltac:(lia)).
    pose proof (HJ 0%nat 1%nat ltac:(lia) ltac:(lia)) as D. pose proof (HJ 0%nat 2%nat ltac:(lia) ltac:(lia)) as D'. pose proof (HJ 1%nat 2%nat ltac:(lia) ltac:(lia)) as D''. cbn [nth] in *.
    destruct a as [|[|[|a]]]; try lia; destruct b as [|[|[|b]]]; try lia; destruct e as [|[|[|e]]]; try lia; cbn; tauto.
Qed.
Lemma orders_range : forall p j, In p orders -> 0 <= j < 6 -> 0 <= em_along p j < 6.
Proof.
  intros p j Hp. revert j. cbn in Hp. repeat destruct Hp as [<-|Hp]; [..|destruct Hp]; apply six_cases; cbv; split; congruence.
Qed.
Ltac handedness := unfold handed, levi;
  repeat match goal with |- context [Z.to_nat (along ?p ?i)] => let v := eval vm_compute in (Z.to_nat (along p i)) in change (Z.to_nat (along p i)) with v end;
  rewrite ?INR_IZR_INZ; cbn [Z.of_nat Pos.of_succ_nat Pos.succ]; lra.
Lemma handed_is : forall p, In p orders -> (Rabs (handed p) <= 1)%R.
Proof.
  intros p Hp. cbn in Hp. repeat destruct Hp as [<-|Hp]; [..|destruct Hp];
    match goal with |- context [handed ?p] => first [replace (handed p) with 1%R by handedness|replace (handed p) with (-1)%R by handedness] end; unfold Rabs; destruct Rcase_abs; lra.
Qed.
Lemma orders_flux : forall c p i a b j, In p orders -> (i < List.length p)%nat -> 0 <= j < 6 -> (0 < c)%R -> let s j := if j <? 3 then 1%R else handed p in
  flux_at c i (fun j => s j * a (em_along p j))%R (fun j => s j * b (em_along p j))%R j = (s j * flux_at c (nth i p O) a b (em_along p j))%R.
Proof.
  intros c p i a b j Hp Hi Hj Hc s. assert (Hr : (nth i p O < 3)%nat).
  { cbn in Hp. repeat destruct Hp as [<-|Hp]; [..|destruct Hp]; cbn [List.length] in Hi; destruct i as [|[|[|i]]]; cbn; lia. }
  assert (H3 : (i < 3)%nat) by (cbn in Hp; repeat destruct Hp as [<-|Hp]; [..|destruct Hp]; cbn [List.length] in Hi; lia).
  rewrite !flux_at_is by (auto; now apply orders_range). clear Hr H3. revert j Hj. unfold s. clear s.
  cbn in Hp. repeat destruct Hp as [<-|Hp]; [..|destruct Hp]; cbn [List.length] in Hi; (destruct i as [|[|[|i]]]; try lia; clear Hi);
    match goal with |- context [handed ?p] => first [assert (EH : handed p = 1%R) by handedness|assert (EH : handed p = (-1)%R) by handedness] end; rewrite EH;
    (apply six_cases; cbv beta; repeat match goal with |- context [em_along ?p ?j] => let v := eval vm_compute in (em_along p j) in change (em_along p j) with v end;
     cbn [nth Z.ltb Z.compare Pos.compare Pos.compare_cont]; field).
Qed.

(** If in the beginning the fields of the second run are those of the first with
    the axes in the order [p] up to [k], the magnetic field reversed if [p] is
    left-handed, they stay so up to the growth and the tolerance. *)
Theorem C79_pulse_near : forall c M p f fuel dt n k (m1 m2 : mgr R) L1 L2 u v, let l := List.length M in
  program_ready m1 M L1 [f] fuel -> program_ready m2 (box_axes p M) L2 [f] fuel -> List.length (id_comps (f_0 f)) = 6%nat -> (l <= 3)%nat -> Permutation p (seq 0 l) ->
  (forall i, (i < l)%nat -> spacing (mg_grid m2) i = spacing (mg_grid m1) (nth i p O) /\ 0 < spacing (mg_grid m2) i)%R ->
  field_get L1 (f_0 f) = Some u -> field_get L2 (f_0 f) = Some v -> (0 < c)%R -> (0 <= dt)%R -> (0 <= k)%R -> about_in_order c k p (M ++ points f) u v ->
  let go := run (pulse_step true fuel c (map Z.of_nat (seq 0 l)) f) dt n in
  let g := growth c dt (spacing (mg_grid m2)) (seq 0 l) in
  exists u' v', ends (go m1) M (f_0 f) u' /\ ends (go m2) (box_axes p M) (f_0 f) v' /\ about_in_order c (g ^ n * (k + tolerance c) - tolerance c) p (M ++ points f) u' v'.
Proof.
  intros c M p f fuel dt n k m1 m2 L1 L2 u v l R1 R2 N6 Hl HP HD Eu Ev Hc Hdt Hk H go g.
  assert (HO := all_orders p l HP Hl). assert (HL := order_length p l HP). assert (EM : List.length (box_axes p M) = List.length M) by (unfold box_axes; now rewrite map_length).
  assert (E3 : Nat.min 3 (List.length M) = l) by (fold l; lia).
  destruct (runs_match c M (box_axes p M) (axes p) (fun i => nth i p O) (fun _ => true) (fun j => if j <? 3 then 1%R else handed p) (em_along p) 1 f fuel dt n k m1 m2 L1 L2 u v) as (u' & v' & E1 & E2 & HM); auto.
  - intros j _. destruct (j <? 3); [rewrite Rabs_R1; lra|now apply handed_is].
  - intros j Hj. now apply orders_range.
  - intros x Hx. now apply (axes_box p l HP).
  - rewrite E3. intros i Hi. apply in_seq in Hi. destruct (HD i ltac:(lia)) as [A1 A2]. split; [|auto]. pose proof (order_in p l HP i ltac:(lia)). apply in_seq. lia.
  - rewrite E3. intros i x t Hi Hx. apply in_seq in Hi. assert (Lx : (l <= List.length x)%nat) by (apply Forall2_length in Hx; rewrite app_length in Hx; fold l in Hx; lia).
    destruct (axes_bounds p l HP M i eq_refl ltac:(lia)) as [B1 B2]. unfold turn, around. rewrite B1, B2, axes_nth by lia.
    set (z := lo M (nth i p O) + _ mod _). pose proof (axes_move p l HP i (z - nth (nth i p O) x 0) x ltac:(lia) Lx) as Q. unfold move in Q. rewrite axes_nth in Q by lia.
    replace (nth (nth i p O) x 0 + (z - nth (nth i p O) x 0)) with z in Q by lia. now symmetry.
  - rewrite E3. intros h. apply (axes_sum p l HP h).
  - rewrite E3. intros i a b j Hi Hj. apply in_seq in Hi. apply (orders_flux c p i a b j HO ltac:(lia) Hj Hc).
  - exists u', v'. split; [exact E1|]. split; [exact E2|]. intros x j Hx Hj. specialize (HM x j Hx Hj). cbn beta in HM. rewrite E3 in HM. fold g in HM. replace ((1 + 1) / 2 * tolerance c)%R with (tolerance c) in HM by field. exact HM.
Qed.
Print Assumptions C79_pulse_near.

(** ** concrete cases

    A ring of sixteen cells, one wide, with speed of light one and steps of a
    hundredth: a step multiplies differences by at most 1.2 cubed. *)
Lemma circle_growth : growth 1 (/ 100) (spacing (@circle_grid R RArith)) (seq 0 1) = ((6 / 5) ^ 3)%R.
Proof. unfold growth, sum_over, spacing. cbn [seq map fold_right circle_grid gr_dxs nth]. change (@f1 R RArith) with 1%R. rewrite Rinv_1. f_equal. lra. Qed.
Lemma one_tolerance : tolerance 1 = (/ 1000000000000)%R.
Proof. unfold tolerance. rewrite Rinv_1, Rmax_left; lra. Qed.
Lemma circle_spacing : forall d, (d < 1)%nat -> (0 < spacing (@circle_grid R RArith) d)%R.
Proof. intros [|d] H; [|lia]. change (0 < 1)%R. lra. Qed.

(** Two fields that differ in one cell, by 1000. *)
Example C86_pulse_ex : forall n, exists u v, ends (run (pulse_step true 999 1%R [0] em) (/ 100)%R n (@circle_start R RArith 1)) circle (f_0 em) u /\
  ends (run (pulse_step true 999 1%R [0] em) (/ 100)%R n (@circle_start R RArith 99)) circle (f_0 em) v /\
  (Rabs (v [4; 0; 5]%Z - u [4; 0; 5]%Z) <= ((6 / 5) ^ 3) ^ n * (1000 + / 1000000000000) - / 1000000000000)%R.
Proof.
  intros n. destruct (C86_pulse 1 circle em 999 (/ 100)%R n 1000 (circle_start 1) (circle_start 99) [(f_0 em, squares 1)] [(f_0 em, squares 99)] (squares 1) (squares 99)) as (u & v & Eu & Ev & H); auto; try lra.
  - exact (circle_ready R RArith 1).
  - exact (circle_ready R RArith 99).
  - exact circle_spacing.
  - intros x j Hx Hj. inversion Hx as [|? a ? ? Ha H1]; subst. inversion H1 as [|? b ? ? _ H2]; subst. inversion H2; subst. unfold squares. rewrite !last_last. cbn [app nth].
    cbn in Ha. replace (a =? 99) with false by (symmetry; apply Z.eqb_neq; lia). apply Rabs_le.
    destruct (j =? 5) eqn:E5; [apply Z.eqb_eq in E5; subst j; cbn [Z.ltb Z.compare Pos.compare Pos.compare_cont]; destruct (a =? 1); cbn [fofz RArith]; rewrite !plus_IZR; lra|].
    destruct (j =? 1); destruct (j <? 3); rewrite Rminus_eq_0; lra.
  - exists u, v. split; [exact Eu|]. split; [exact Ev|]. change (mg_grid (@circle_start R RArith 1)) with (@circle_grid R RArith) in H. change (seq 0 (Nat.min 3 (List.length circle))) with (seq 0 1) in H. rewrite circle_growth, one_tolerance in H.
    assert (B : in_box (circle ++ points em) [4; 0]) by (repeat (constructor; [cbn; lia|]); constructor).
    specialize (H [4; 0] 5 B ltac:(lia)). cbn [app Z.ltb Z.compare Pos.compare Pos.compare_cont] in H. lra.
Qed.

(** The squares from the other end: the magnetic field Bz is reversed. *)
Definition ring_of (u : field R) : mgr R := mgr_of circle_grid circle [(f_0 em, u)] None None.
Lemma ring_ready : forall u, program_ready (ring_of u) circle [(f_0 em, u)] [em] 999.
Proof. intros u. unfold ring_of. is_ready. Qed.
Lemma same_alike : forall c b u, (0 < c)%R -> alike c 0 b u u.
Proof. intros c b u Hc x j Hx Hj. rewrite Rminus_eq_0, Rabs_R0. destruct (j <? 3); lra. Qed.
Example C87_pulse_ex : forall n, exists u v, ends (run (pulse_step true 999 1%R [0] em) (/ 100)%R n (@circle_start R RArith 1)) circle (f_0 em) u /\
  ends (run (pulse_step true 999 1%R [0] em) (/ 100)%R n (ring_of (mirrored circle 0 (squares 1)))) circle (f_0 em) v /\
  (mirrored circle 0 (squares 1) [14; 0; 5]%Z = -1001 /\ Rabs (v [14; 0; 5]%Z + u [1; 0; 5]%Z) <= ((6 / 5) ^ 3) ^ n * / 1000000000000)%R.
Proof.
  intros n. destruct (C87_pulse 1 circle em 999 (/ 100)%R n 0 0 (circle_start 1) (ring_of (mirrored circle 0 (squares 1))) [(f_0 em, squares 1)] [(f_0 em, mirrored circle 0 (squares 1))] (squares 1) (mirrored circle 0 (squares 1))) as (u & v & Eu & Ev & H); auto; try lra.
  - exact (circle_ready R RArith 1).
  - apply ring_ready.
  - exact circle_spacing.
  - apply same_alike. lra.
  - exists u, v. split; [exact Eu|]. split; [exact Ev|]. split.
    + unfold mirrored, mirror_cell, mirror_sign, squares. cbn. lra.
    + change (mg_grid (@circle_start R RArith 1)) with (@circle_grid R RArith) in H. change (seq 0 (Nat.min 3 (List.length circle))) with (seq 0 1) in H. rewrite circle_growth, one_tolerance in H.
      assert (B : in_box (circle ++ points em) [14; 0]) by (repeat (constructor; [cbn; lia|]); constructor).
      specialize (H [14; 0] 5 B ltac:(lia)). cbn [app Z.ltb Z.compare Pos.compare Pos.compare_cont] in H. replace (mirrored circle 0 u [14; 0; 5]%Z) with (- u [1; 0; 5]%Z)%R in H by (unfold mirrored, mirror_cell, mirror_sign; cbn; ring).
      unfold Rminus in H at 1. rewrite Ropp_involutive in H. lra.
Qed.

(** The same fields a thousand times as strong. *)
Example C88_pulse_ex : forall n, exists u v, ends (run (pulse_step true 999 1%R [0] em) (/ 100)%R n (@circle_start R RArith 1)) circle (f_0 em) u /\
  ends (run (pulse_step true 999 1%R [0] em) (/ 100)%R n (ring_of (fun q => 1000 * squares 1 q)%R)) circle (f_0 em) v /\
  (Rabs (v [4; 0; 5]%Z - 1000 * u [4; 0; 5]%Z) <= ((6 / 5) ^ 3) ^ n * (501 / 1000000000000))%R.
Proof.
  intros n. destruct (C88_pulse 1 circle em 999 (/ 100)%R n 1000 0 (circle_start 1) (ring_of (fun q => 1000 * squares 1 q)%R) [(f_0 em, squares 1)] [(f_0 em, fun q => 1000 * squares 1 q)%R] (squares 1) (fun q => 1000 * squares 1 q)%R) as (u & v & Eu & Ev & H); auto; try lra.
  - exact (circle_ready R RArith 1).
  - apply ring_ready.
  - exact circle_spacing.
  - apply same_alike. lra.
  - exists u, v. split; [exact Eu|]. split; [exact Ev|].
    change (mg_grid (@circle_start R RArith 1)) with (@circle_grid R RArith) in H. change (seq 0 (Nat.min 3 (List.length circle))) with (seq 0 1) in H. rewrite circle_growth, one_tolerance in H.
    assert (B : in_box (circle ++ points em) [4; 0]) by (repeat (constructor; [cbn; lia|]); constructor).
    specialize (H [4; 0] 5 B ltac:(lia)). cbn [app Z.ltb Z.compare Pos.compare Pos.compare_cont] in H. rewrite (Rabs_right 1000) in H by lra.
    assert (0 < ((6 / 5) ^ 3) ^ n)%R by (apply pow_lt; lra). lra.
Qed.

(** The ramp of C79_swap_refuted, for which the exchange of x and y is not exact. *)
Definition flat_grid (b : box) : grid R := mkGrid (range_of b) [0; 0]%R [1; 1]%R [1; 1]%R.
Example C79_pulse_near_ex : forall n, exists u v, ends (run (pulse_step true 2000 1%R [0; 1] em) (/ 100)%R n (mgr_of (flat_grid long_mesh) long_mesh [(f_0 em, ramp)] None None)) long_mesh (f_0 em) u /\
  ends (run (pulse_step true 2000 1%R [0; 1] em) (/ 100)%R n (mgr_of (flat_grid high_mesh) high_mesh [(f_0 em, exchanged ramp)] None None)) high_mesh (f_0 em) v /\
  (Rabs (v [1; 4; 0; 5]%Z + u [4; 1; 0; 5]%Z) <= ((7 / 5) ^ 3) ^ n * / 1000000000000)%R.
Proof.
  intros n. assert (EH : handed [1; 0]%nat = (-1)%R) by handedness.
  destruct (C79_pulse_near 1 long_mesh [1; 0]%nat em 2000 (/ 100)%R n 0 (mgr_of (flat_grid long_mesh) long_mesh [(f_0 em, ramp)] None None) (mgr_of (flat_grid high_mesh) high_mesh [(f_0 em, exchanged ramp)] None None)
    [(f_0 em, ramp)] [(f_0 em, exchanged ramp)] ramp (exchanged ramp)) as (u & v & Eu & Ev & H); auto; try lra.
  - is_ready.
  - is_ready.
  - apply perm_swap.
  - intros [|[|i]] Hi; [..|cbn in Hi; lia]; (split; [reflexivity|change (0 < 1)%R; lra]).
  - intros x j Hx Hj. inversion Hx as [|? a ? ? _ H1]; subst. inversion H1 as [|? b ? ? _ H2]; subst. inversion H2 as [|? z ? ? Hz H3]; subst. inversion H3; subst.
    unfold exchanged. cbn [axes map nth skipn List.length app last]. rewrite EH. revert j Hj. apply six_cases; cbn -[Rmult Rminus Rabs IZR ramp Rle]; (match goal with |- (Rabs ?e <= _)%R => replace e with 0%R by (unfold Rminus; cbn [fneg RArith]; ring) end; rewrite Rabs_R0; lra).
  - exists u, v. split; [exact Eu|]. split; [exact Ev|]. assert (B : in_box (long_mesh ++ points em) [4; 1; 0]) by (repeat (constructor; [cbn; lia|]); constructor).
    specialize (H [4; 1; 0] 5 B ltac:(lia)). rewrite EH, one_tolerance in H. cbn [axes map nth skipn List.length app last Z.ltb Z.compare Pos.compare Pos.compare_cont] in H.
    replace (growth 1 (/ 100) _ _) with ((7 / 5) ^ 3)%R in H by (unfold growth, sum_over, spacing; cbn; f_equal; field).
    change (em_along [1; 0]%nat 5) with 5 in H. replace (v [1; 4; 0; 5]%Z - -1 * u [4; 1; 0; 5]%Z)%R with (v [1; 4; 0; 5]%Z + u [4; 1; 0; 5]%Z)%R in H by ring. lra.
Qed.
