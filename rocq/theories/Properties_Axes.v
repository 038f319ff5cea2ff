(** * The order of the axes does not matter (C79). *)
From Coq Require Import ZArith List String Lia Bool Reals Lra Permutation FunctionalExtensionality Floats.SpecFloat.
From Verif Require Import Base BaseFacts BoxSpec BoxFacts Interface EulerSpec PhysicsSpec PhysicsFacts NumFacts Range RangeSpec RangeFacts ApiSpec Arith ArithFloat ArithR Chunk FieldSpec VarId Manager MgrSpec MgrFacts
  BC BCSpec BCFacts Sweep SweepSpec Euler Maxwell Sources ParFacts SweepFacts FluxFacts Programs ProgramsSpec ConserveFacts RhsFacts Properties_Programs
  SymmetrySpec SymmetryFacts Properties_Symmetry Properties_Chunk AxesSpec AxesFacts MonopoleSpec Properties_Monopole.
Import ListNotations.
Open Scope Z_scope.

(** ** C79 for a gas

    In exact arithmetic: two meshes of up to three dimensions that differ by the
    order of the axes, the second gas being the first with its axes, momenta
    included, in the new order. So it is after any number of steps, with walls and
    periodic boundaries along corresponding axes. *)
Theorem C79_sod : forall gamma M p f fuel dt n ws ps ws' ps' (m m' : mgr R) L L' u v, let k := List.length M in let P := [(0, bs_points (id_basis (f_0 f)))] in
  program_ready m M L [f] fuel -> program_ready m' (box_axes p M) L' [f] fuel -> List.length (id_comps (f_0 f)) = 5%nat -> (k <= 3)%nat -> Permutation p (seq 0 k) ->
  (forall d, In d (ws ++ ps) <-> (d < k)%nat) -> (forall d, In d ws -> ~ In d ps) ->
  (forall i, In i ws' <-> (i < k)%nat /\ In (nth i p O) ws) -> (forall i, In i ps' <-> (i < k)%nat /\ In (nth i p O) ps) ->
  (forall i, (i < k)%nat -> spacing (mg_grid m') i = spacing (mg_grid m) (nth i p O)) ->
  field_get L (f_0 f) = Some u -> field_get L' (f_0 f) = Some v -> in_order p fluid_along 5 (M ++ P) u v ->
  exists u' v', ends (run (sod_step true fuel gamma (map Z.of_nat ws) (map Z.of_nat ps) f) dt n m) M (f_0 f) u' /\
    ends (run (sod_step true fuel gamma (map Z.of_nat ws') (map Z.of_nat ps') f) dt n m') (box_axes p M) (f_0 f) v' /\ in_order p fluid_along 5 (M ++ P) u' v'.
Proof.
  intros gamma M p f fuel dt n ws ps ws' ps' m m' L L' u v k P R1 R2 N5 Hk HP Hds Hx Hws Hps HD Eu Ev HO.
  assert (HL : List.length (box_axes p M) = k) by (unfold box_axes; rewrite map_length; now apply order_length).
  destruct (C57_sod R RArith gamma M f fuel dt n ws ps m L u R1 N5 ltac:(fold k; lia) Hds Hx Eu) as (m1 & L1 & E1 & (S1 & _) & _ & _ & _ & V1 & _).
  destruct (C57_sod R RArith gamma (box_axes p M) f fuel dt n ws' ps' m' L' v R2 N5) as (m2 & L2 & E2 & (S2 & _) & _ & _ & _ & V2 & _); auto.
  { rewrite HL. lia. }
  { intros i. rewrite HL, in_app_iff, Hws, Hps. split; [tauto|]. intros Hi. assert (H := proj2 (Hds (nth i p O)) (order_in p k HP i Hi)). apply in_app_or in H. tauto. }
  { intros i Hi Hi'. apply Hws in Hi as [_ Hi]. apply Hps in Hi' as [_ Hi']. now apply (Hx _ Hi). }
  destruct (V1 0%nat (f_0 f) eq_refl) as (u' & Gu & Hu'). destruct (V2 0%nat (f_0 f) eq_refl) as (v' & Gv & Hv'). exists u', v'.
  split; [exists m1, L1; auto|]. split; [exists m2, L2; auto|]. intros x j Hx' Hj. rewrite HL in Hv'.
  destruct (fluid_range p k j HP Hk Hj) as [Hs _].
  rewrite Hv' by (apply cell_join; [now apply (axes_box p k HP)|rewrite N5; lia]). rewrite Hu' by (apply cell_join; [exact Hx'|rewrite N5; lia]).
  set (C := fun c c' : list Z => exists x j, in_box (M ++ P) x /\ 0 <= j < 5 /\ c = x ++ [fluid_along p j] /\ c' = axes p x ++ [j]).
  refine (rk3_cells_iter R RArith _ _ dt C n _ (fun _ => u) (fun _ => v) _ 0%nat _ _ _).
  - intros U V HUV _ c c' (y & i & Hy & Hi & -> & ->).
    apply (fv_axes p (fluid_along p) 5 _ _ _ _ _ M P); auto.
    + destruct R1 as (_ & _ & _ & _ & W). exact W.
    + intros a Ha. apply (fluid_range p k a HP Hk Ha).
    + intros a Ha. fold k in Ha. split; [|now apply HD]. destruct (in_dec Nat.eq_dec a ps') as [I|I], (in_dec Nat.eq_dec (nth a p O) ps) as [I'|I']; auto.
      * apply Hps in I. tauto.
      * destruct I. apply Hps. auto.
    + intros a Ha. destruct (in_dec Nat.eq_dec a ps'); [now left|]. right. right. split; [now left|]. intros b. unfold fluid_along.
      destruct ((1 <=? b) && (b <? 4)) eqn:E; [|exact E]. apply andb_prop in E as [B1 B2]. apply Z.leb_le in B1. apply Z.ltb_lt in B2.
      assert (Q := proj2 (fluid_range p k b HP Hk ltac:(lia))). unfold fluid_along in Q. rewrite (proj2 (Z.leb_le 1 b) B1), (proj2 (Z.ltb_lt b 4) B2) in Q. exact Q.
    + intros i0 l r a Hi0 Hl Hr Ha. now apply (euler_axes p k).
    + intros y0 a Hy0 Ha. apply HUV. exists y0, a. auto.
  - intros _ c c' (y & i & Hy & Hi & -> & ->). now apply HO.
  - exists x, j. auto.
Qed.
Print Assumptions C79_sod.

(** ** C79 for electric and magnetic fields

    The axes turned cyclically; not two axes exchanged, see below. *)
Theorem C79_pulse_partial : forall c mx my mz p f fuel dt n (m m' : mgr R) L L' u v, let M := [mx; my; mz] in let P := [(0, bs_points (id_basis (f_0 f)))] in
  program_ready m M L [f] fuel -> program_ready m' (box_axes p M) L' [f] fuel -> List.length (id_comps (f_0 f)) = 6%nat -> In p [[0; 1; 2]; [1; 2; 0]; [2; 0; 1]]%nat ->
  (forall i, (i < 3)%nat -> spacing (mg_grid m') i = spacing (mg_grid m) (nth i p O)) ->
  field_get L (f_0 f) = Some u -> field_get L' (f_0 f) = Some v -> in_order p em_along 6 (M ++ P) u v ->
  exists u' v', ends (run (pulse_step true fuel c [0; 1; 2] f) dt n m) M (f_0 f) u' /\
    ends (run (pulse_step true fuel c [0; 1; 2] f) dt n m') (box_axes p M) (f_0 f) v' /\ in_order p em_along 6 (M ++ P) u' v'.
Proof.
  intros c mx my mz p f fuel dt n m m' L L' u v M P R1 R2 N6 Hp HD Eu Ev HO.
  assert (HR : rotation p) by (cbn in Hp; unfold rotation; intuition).
  assert (HP : Permutation p (seq 0 3)). { destruct HR as [-> | [-> | ->]]; [reflexivity| |]. exact (Permutation_app_comm [1; 2]%nat [0]%nat). exact (Permutation_app_comm [2]%nat [0; 1]%nat). }
  assert (HL : List.length (box_axes p M) = 3%nat) by (unfold box_axes; rewrite map_length; now apply order_length).
  destruct (C57_pulse R RArith c M f fuel dt n m L u R1 N6 Eu) as (m1 & L1 & E1 & (S1 & _) & _ & _ & _ & V1 & _).
  destruct (C57_pulse R RArith c (box_axes p M) f fuel dt n m' L' v R2 N6 Ev) as (m2 & L2 & E2 & (S2 & _) & _ & _ & _ & V2 & _).
  rewrite HL in E2, V2. change (List.length M) with 3%nat in E1, V1.
  destruct (V1 0%nat (f_0 f) eq_refl) as (u' & Gu & Hu'). destruct (V2 0%nat (f_0 f) eq_refl) as (v' & Gv & Hv'). exists u', v'.
  split; [exists m1, L1; auto|]. split; [exists m2, L2; auto|]. intros x j Hx' Hj. assert (Hs := em_range p j HR Hj).
  rewrite Hv' by (apply cell_join; [now apply (axes_box p 3 HP)|rewrite N6; lia]). rewrite Hu' by (apply cell_join; [exact Hx'|rewrite N6; lia]).
  set (C := fun c c' : list Z => exists x j, in_box (M ++ P) x /\ 0 <= j < 6 /\ c = x ++ [em_along p j] /\ c' = axes p x ++ [j]).
  refine (rk3_cells_iter R RArith _ _ dt C n _ (fun _ => u) (fun _ => v) _ 0%nat _ _ _).
  - intros U V HUV _ a a' (y & i & Hy & Hi & -> & ->).
    apply (fv_axes p (em_along p) 6 _ _ _ _ _ M P); auto.
    + destruct R1 as (_ & _ & _ & _ & W). exact W.
    + intros b Hb. now apply em_range.
    + intros i0 l r b Hi0 Hl Hr Hb. now apply maxwell_axes.
    + intros y0 b Hy0 Hb. apply HUV. exists y0, b. auto.
  - intros _ a a' (y & i & Hy & Hi & -> & ->). now apply HO.
  - exists x, j. auto.
Qed.
Print Assumptions C79_pulse_partial.

(** Two by three cells with walls along x, and three by two cells with walls along
    y: the energy of corresponding cells, and the momenta along the walls. *)
Definition tall_gas {F} {A : Arith F} : field F := fun c =>
  if last c 0 =? 0 then f1 else if last c 0 =? 4 then (if nth 1 c 0 =? 1 then fofz 2 else f1) else f0.
Definition tall_start {F} {A : Arith F} : mgr F := mgr_of (mkGrid (range_of [(0, 3); (0, 2)]) [f0; f0] [f1; f1] [f1; f1]) [(0, 3); (0, 2)] [(f_0 electrons, tall_gas)] None None.
Example C79_sod_ex : forall gamma dt n, exists u v, ends (run (sod_step true 999 gamma [0] [1] electrons) dt n (@gas_start R RArith)) plane (f_0 electrons) u /\
  ends (run (sod_step true 999 gamma [1] [0] electrons) dt n (@tall_start R RArith)) [(0, 3); (0, 2)] (f_0 electrons) v /\
  v [2; 1; 0; 4] = u [1; 2; 0; 4] /\ v [2; 1; 0; 2] = u [1; 2; 0; 1] /\ v [2; 1; 0; 1] = u [1; 2; 0; 2] /\ v [2; 1; 0; 3] = u [1; 2; 0; 3].
Proof.
  intros gamma dt n.
  destruct (C79_sod gamma plane [1; 0]%nat electrons 999 dt n [0%nat] [1%nat] [1%nat] [0%nat] gas_start tall_start gas_fields [(f_0 electrons, tall_gas)] gas tall_gas) as (u & v & Eu & Ev & H); auto.
  - exact (gas_ready R RArith).
  - is_ready.
  - apply perm_swap.
  - intros d. cbn. lia.
  - intros d [<-|[]] [H|[]]. discriminate.
  - intros [|[|i]]; cbn; lia.
  - intros [|[|i]]; cbn; lia.
  - intros [|[|i]] Hi; [reflexivity|reflexivity|cbn in Hi; lia].
  - intros x j Hx Hj. inversion Hx as [|? a ? ? _ H1]; subst. inversion H1 as [|? b ? ? _ H2]; subst. inversion H2 as [|? z ? ? _ H3]; subst. inversion H3; subst.
    assert (D : j = 0 \/ j = 1 \/ j = 2 \/ j = 3 \/ j = 4) by lia. destruct D as [-> | [-> | [-> | [-> | ->]]]]; reflexivity.
  - exists u, v. split; [exact Eu|]. split; [exact Ev|]. assert (B : in_box (plane ++ [(0, 1)]) [1; 2; 0]) by (repeat (constructor; [cbn; lia|]); constructor).
    repeat split; [exact (H [1; 2; 0] 4 B ltac:(lia))|exact (H [1; 2; 0] 2 B ltac:(lia))|exact (H [1; 2; 0] 1 B ltac:(lia))|exact (H [1; 2; 0] 3 B ltac:(lia))].
Qed.

(** A field on two by two by three cells, and on three by two by two. *)
Definition slab : box := [(0, 2); (0, 2); (0, 3)].
Definition block_grid {F} {A : Arith F} (b : box) : grid F := mkGrid (range_of b) [f0; f0; f0] [f1; f1; f1] [f1; f1; f1].
Definition some_em {F} {A : Arith F} : field F := fun c => fofz (nth 0 c 0 + 2 * nth 1 c 0 + 3 * nth 2 c 0 * last c 0).
Definition turned_em {F} {A : Arith F} : field F := fun c => some_em [nth 1 c 0; nth 2 c 0; nth 0 c 0; 0; em_along [2; 0; 1]%nat (last c 0)].
Example C79_pulse_ex : forall c dt n, exists u v, ends (run (pulse_step true 2000 c [0; 1; 2] em) dt n (@mgr_of R (block_grid slab) slab [(f_0 em, some_em)] None None)) slab (f_0 em) u /\
  ends (run (pulse_step true 2000 c [0; 1; 2] em) dt n (@mgr_of R (block_grid [(0, 3); (0, 2); (0, 2)]) [(0, 3); (0, 2); (0, 2)] [(f_0 em, turned_em)] None None)) [(0, 3); (0, 2); (0, 2)] (f_0 em) v /\
  v [2; 0; 1; 0; 0] = u [0; 1; 2; 0; 2] /\ v [2; 0; 1; 0; 4] = u [0; 1; 2; 0; 3].
Proof.
  intros c dt n.
  destruct (C79_pulse_partial c (0, 2) (0, 2) (0, 3) [2; 0; 1]%nat em 2000 dt n (@mgr_of R (block_grid slab) slab [(f_0 em, some_em)] None None)
    (@mgr_of R (block_grid [(0, 3); (0, 2); (0, 2)]) [(0, 3); (0, 2); (0, 2)] [(f_0 em, turned_em)] None None) [(f_0 em, some_em)] [(f_0 em, turned_em)] some_em turned_em) as (u & v & Eu & Ev & H); auto.
  - is_ready.
  - is_ready.
  - cbn. auto.
  - intros [|[|[|i]]] Hi; [reflexivity|reflexivity|reflexivity|lia].
  - intros x j Hx Hj. inversion Hx as [|? a ? ? _ H1]; subst. inversion H1 as [|? b ? ? _ H2]; subst. inversion H2 as [|? z ? ? _ H3]; subst. inversion H3 as [|? q ? ? _ H4]; subst. inversion H4; subst.
    unfold turned_em, some_em. cbn [axes map nth skipn List.length app last]. reflexivity.
  - exists u, v. split; [exact Eu|]. split; [exact Ev|]. assert (B : in_box (slab ++ [(0, 1)]) [0; 1; 2; 0]) by (repeat (constructor; [cbn; lia|]); constructor).
    split; [exact (H [0; 1; 2; 0] 0 B ltac:(lia))|exact (H [0; 1; 2; 0] 4 B ltac:(lia))].
Qed.

(** ** exchanging two axes

    With x and y exchanged the magnetic field, an axial vector, changes sign. *)
Definition exchanged {F} {A : Arith F} (u : field F) : field F := fun c =>
  let w := u [nth 1 c 0; nth 0 c 0; nth 2 c 0; em_along [1; 0]%nat (last c 0)] in if last c 0 <? 3 then w else fneg w.
(** Bz along x is 0, 0, 1, 3, 3, 3, nothing else. *)
Definition ramp {F} {A : Arith F} : field F := fun c => if last c 0 =? 5 then fofz (nth (Z.to_nat (nth 0 c 0)) [0; 0; 1; 3; 3; 3] 0) else f0.
Definition long_mesh : box := [(0, 6); (0, 2)].
Definition high_mesh : box := [(0, 2); (0, 6)].

(** The right-hand side of a mesh with two dimensions, written with the cells around. *)
Definition inflow_of (M : box) (c : R) (u : field R) (d : nat) (x : list Z) (j : Z) (s : Z) : R :=
  nth (Z.to_nat j) (flux_of (maxwell_flux c) d
    (map (fun i => left_value (u (around M d (s - 2) x ++ [i])) (u (around M d (s - 1) x ++ [i])) (u (around M d s x ++ [i]))) (zrange 0 6))
    (map (fun i => right_value (u (around M d (s - 1) x ++ [i])) (u (around M d s x ++ [i])) (u (around M d (s + 1) x ++ [i]))) (zrange 0 6))) 0%R.
Lemma rate_of : forall mx my c (u : field R) x j, let M := [mx; my] in wide M 2 [0; 1]%nat -> in_box (M ++ [(0, 1)]) x ->
  fv_rhs 6 (flux_of (maxwell_flux c)) M (fun _ => Periodic) (fun _ => 1%R) [0%nat; 1%nat] u (x ++ [j]) =
  (inflow_of M c u 0 x j 0 - inflow_of M c u 0 x j 1 + (inflow_of M c u 1 x j 0 - inflow_of M c u 1 x j 1))%R.
Proof.
  intros mx my c u x j M HW Hx. unfold fv_rhs, cellwise. rewrite removelast_last, last_last, fluxes_sum. unfold sum_over. cbn [map fold_right].
  assert (Hl : List.length x = 3%nat) by (apply Forall2_length in Hx; now cbn in Hx).
  assert (P : forall d s, (d < 2)%nat -> s = 0 \/ s = 1 -> wall 6 (flux_of (maxwell_flux c)) (seen Periodic M d u) d (move d s x) j = inflow_of M c u d x j s).
  { intros d s Hd Hs. apply (wall_around 6 _ M [(0, 1)]); auto. apply HW. cbn. lia. }
  rewrite <- (P 0%nat 0), <- (P 0%nat 1), <- (P 1%nat 0), <- (P 1%nat 1) by lia. rewrite !move_0 by lia. change (@f0 R RArith) with 0%R. unfold Rdiv. rewrite Rinv_1. ring.
Qed.

Definition ramp_z (c : list Z) : Z := if last c 0 =? 5 then nth (Z.to_nat (nth 0 c 0)) [0; 0; 1; 3; 3; 3] 0 else 0.
Definition exchanged_z (c : list Z) : Z :=
  let w := ramp_z [nth 1 c 0; nth 0 c 0; nth 2 c 0; em_along [1; 0]%nat (last c 0)] in if last c 0 <? 3 then w else - w.
(** In exact arithmetic, for every speed of light other than zero, the rates of
    change differ: the reconstruction adds a small number to the slope, whichever
    sign that has. *)
Theorem C79_swap_refuted : forall c : R, c <> 0%R ->
  let rate M u := fv_rhs 6 (flux_of (maxwell_flux c)) M (fun _ => Periodic) (fun _ => 1%R) [0%nat; 1%nat] u in
  rate high_mesh (exchanged ramp) [0; 3; 0; 5] <> exchanged (rate long_mesh ramp) [0; 3; 0; 5].
Proof.
  intros c Hc rate. unfold exchanged at 2. cbn [nth last]. change (em_along [1; 0]%nat 5) with 5. change (5 <? 3) with false. cbv iota. unfold rate, long_mesh, high_mesh.
  assert (WL : wide [(0, 6); (0, 2)] 2 [0; 1]%nat) by (intros d [<-|[<-|[]]]; cbn; lia). assert (WH : wide [(0, 2); (0, 6)] 2 [0; 1]%nat) by (intros d [<-|[<-|[]]]; cbn; lia).
  assert (ER : ramp = fun q => IZR (ramp_z q)) by (apply functional_extensionality; intros q; unfold ramp, ramp_z; now destruct (_ =? _)).
  assert (EX : exchanged ramp = fun q => IZR (exchanged_z q)).
  { apply functional_extensionality. intros q. unfold exchanged, exchanged_z. rewrite ER. destruct (_ <? _); [reflexivity|]. now rewrite opp_IZR. }
  rewrite EX, ER.
  change [0; 3; 0; 5] with ([0; 3; 0] ++ [5]). change [3; 0; 0; 5] with ([3; 0; 0] ++ [5]).
  rewrite !rate_of by (auto; repeat (constructor; [cbn; lia|]); constructor). unfold inflow_of. change (zrange 0 6) with [0; 1; 2; 3; 4; 5]. cbn [map].
  repeat match goal with |- context [ramp_z ?q] => let v := eval vm_compute in (ramp_z q) in change (ramp_z q) with v end.
  repeat match goal with |- context [exchanged_z ?q] => let v := eval vm_compute in (exchanged_z q) in change (exchanged_z q) with v end.
  rewrite ?even_left, ?even_right, ?left_flat, ?right_flat.
  unfold flux_of, maxwell_flux. cbn [Z.eqb Z.of_nat Pos.of_succ_nat Pos.eqb Pos.succ]. change (Z.to_nat 5) with 5%nat. cbn [nth].
  rewrite ?left_R, ?right_R, ?phi_R. cbn [fadd fsub fmul fdiv fneg fabs fofz f0 fdec RArith]. unfold Rdecimal. cbn. pose proof (Rabs_pos_lt c Hc).
  replace (((-3 - -1) / (-1 - 0 + eps) * ((-3 - -1) / (-1 - 0 + eps)) + (-3 - -1) / (-1 - 0 + eps)) / ((-3 - -1) / (-1 - 0 + eps) * ((-3 - -1) / (-1 - 0 + eps)) + 1))%R
    with (5999999999998000000000000 / 4999999999998000000000001)%R by field.
  replace (((3 - 1) / (1 - 0 + eps) * ((3 - 1) / (1 - 0 + eps)) + (3 - 1) / (1 - 0 + eps)) / ((3 - 1) / (1 - 0 + eps) * ((3 - 1) / (1 - 0 + eps)) + 1))%R
    with (6000000000002000000000000 / 5000000000002000000000001)%R by field.
  lra.
Qed.
Print Assumptions C79_swap_refuted.

(** In doubles, a step of the program with Bz = x² on four by two cells, and with
    Bz = -y² on two by four: the results are not opposite. *)
Definition bowl (d : nat) (s : Z) : field spec_float := fun c => if last c 0 =? 5 then fofz (s * (nth d c 0 * nth d c 0)) else f0.
Definition bowl_start (M : box) (d : nat) (s : Z) : mgr spec_float := mgr_of (mkGrid (range_of M) [f0; f0] [f1; f1] [f1; f1]) M [(f_0 em, bowl d s)] None None.
Example C79_swap_refuted_ex : let step := run (pulse_step true 999 (dbl 1) [0; 1] em) (fdec 5 (-1)) 1 in
  match step (bowl_start [(0, 4); (0, 2)] 0 1), step (bowl_start [(0, 2); (0, 4)] 1 (-1)) with
  | Done m, Done m' => cell_value m (f_0 em) [2; 1; 0; 5] = Some (S754_finite false 4630232590430181 (-50)) /\
                       cell_value m' (f_0 em) [1; 2; 0; 5] = Some (S754_finite true 4630232590430242 (-50))
  | _, _ => False
  end.
Proof. vm_compute. split; reflexivity. Qed.
