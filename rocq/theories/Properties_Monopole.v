(** * The divergence of the magnetic field (C78). *)
From Coq Require Import ZArith List String Lia Bool Reals Lra Floats.SpecFloat.
From Verif Require Import Base BaseFacts BoxSpec BoxFacts Interface EulerSpec PhysicsSpec PhysicsFacts NumFacts Range RangeSpec RangeFacts ApiSpec Arith ArithFloat ArithR Chunk Properties_Chunk FieldSpec VarId Manager MgrSpec MgrFacts
  BC BCSpec BCFacts Sweep SweepSpec Euler Maxwell Sources ParFacts SweepFacts FluxFacts Programs ProgramsSpec ConserveFacts RhsFacts Properties_Programs
  SymmetrySpec SymmetryFacts Properties_Symmetry MonopoleSpec MonopoleFacts.
Import ListNotations.
Open Scope Z_scope.

(** ** C78 in one dimension

    In exact arithmetic any number of steps leaves the divergence of B as it is, and
    that of E. *)
Theorem C78_line_partial : forall c mx f fuel dt n (m : mgr R) L u k, let M := [mx] in program_ready m M L [f] fuel -> List.length (id_comps (f_0 f)) = 6%nat ->
  field_get L (f_0 f) = Some u -> k = 0 \/ k = 3 ->
  exists v, ends (run (pulse_step true fuel c [0] f) dt n m) M (f_0 f) v /\
    forall x, in_box (M ++ [(0, bs_points (id_basis (f_0 f)))]) x -> divergence M (spacing (mg_grid m)) k v x = divergence M (spacing (mg_grid m)) k u x.
Proof.
  intros c mx f fuel dt n m L u k M HR H6 Hu Hk. destruct (C57_pulse R RArith c M f fuel dt n m L u HR H6 Hu) as (m' & L' & E & (H1 & _) & _ & _ & _ & V & _).
  destruct (V 0%nat (f_0 f) eq_refl) as (v & Gv & Ev). exists v. split; [exists m', L'; auto|]. intros x Hx.
  destruct HR as (_ & _ & _ & _ & W). destruct (W 0%nat ltac:(now left)) as [_ W0].
  assert (P : forall s, v (around M 0 s x ++ [k]) = u (around M 0 s x ++ [k])).
  { intros s. rewrite Ev by (apply cell_join; [apply around_in_box; [cbn; lia|lia|exact Hx]|rewrite H6; lia]).
    apply (rk3_iter (fun w => w (around M 0 s x ++ [k]))); [apply point_linear|]. intros V0. now apply maxwell_point. }
  unfold divergence. change (seq 0 (List.length M)) with [0%nat]. cbn [fold_left Z.of_nat]. rewrite Z.add_0_r, !P. reflexivity.
Qed.
Print Assumptions C78_line_partial.

Example C78_line_ex : forall c dt n, exists v, ends (run (pulse_step true 999 c [0] em) dt n (@pulse_start R RArith)) line (f_0 em) v /\
  divergence line (spacing (@line_grid R RArith)) 3 v [1; 0] = divergence line (spacing (@line_grid R RArith)) 3 (@pulse R RArith) [1; 0].
Proof.
  intros c dt n. destruct (C78_line_partial c (0, 3) em 999 dt n pulse_start pulse_fields pulse 3 (pulse_ready R RArith) eq_refl eq_refl ltac:(auto)) as (v & E & H).
  exists v. split; [exact E|]. apply H. repeat (constructor; [cbn; lia|]). constructor.
Qed.

(** ** C78 for whole layers

    In up to three dimensions the flux of B through each layer of cells normal to a
    dimension stays as it is, and so does that of E. *)
Theorem C78_layers : forall c M f fuel dt n (m : mgr R) L u d t j, program_ready m M L [f] fuel -> List.length (id_comps (f_0 f)) = 6%nat -> (List.length M <= 3)%nat ->
  field_get L (f_0 f) = Some u -> (d < List.length M)%nat -> lo M d <= t < hi M d -> j = Z.of_nat d \/ j = Z.of_nat (d + 3) ->
  exists v, ends (run (pulse_step true fuel c (map Z.of_nat (seq 0 (List.length M))) f) dt n m) M (f_0 f) v /\
    let layer := cut (M ++ [(0, bs_points (id_basis (f_0 f)))]) d t in total layer (fun x => v (x ++ [j])) = total layer (fun x => u (x ++ [j])).
Proof.
  intros c M f fuel dt n m L u d t j HR H6 H3 Hu Hd Ht Hj. destruct (C57_pulse R RArith c M f fuel dt n m L u HR H6 Hu) as (m' & L' & E & (H1 & _) & _ & _ & _ & V & _).
  destruct (V 0%nat (f_0 f) eq_refl) as (v & Gv & Ev). exists v. split; [exists m', L'; auto|]. cbn zeta.
  destruct HR as ((_ & Hf) & _ & Hr & _ & W). inversion Hf as [|? ? (_ & Hfit) _]; subst.
  assert (NE : nonempty (M ++ [(0, bs_points (id_basis (f_0 f)))])).
  { apply Forall_app. split; [apply Hfit|]. destruct Hfit as (_ & _ & HD & _). unfold comp_box in HD. inversion HD; subst. constructor; [assumption|constructor]. }
  etransitivity.
  - apply total_ext. intros x Hx. apply Ev. apply cell_join; [|rewrite H6; lia]. eapply box_incl_in; [|exact Hx]. apply cut_incl. unfold lo, hi in *. rewrite !app_nth1 by assumption. exact Ht.
  - apply (rk3_iter (fun w => total (cut (M ++ [(0, bs_points (id_basis (f_0 f)))]) d t) (fun x => w (x ++ [j])))); [apply total_linear|].
    intros V0. apply maxwell_layer; auto; try lia; [intros e He; apply in_seq in He; lia|]. rewrite Nat.min_r by lia. exact W.
Qed.
Print Assumptions C78_layers.

(** gem_challenge: the flux of Bx through each layer normal to x, and of By through
    each layer normal to y. *)
Theorem C78_gem : forall p mx my e i f fuel dt n (m : mgr R) L u v w d t, let M := [mx; my] in program_ready m M L [e; i; f] fuel ->
  List.length (id_comps (f_0 e)) = 5%nat -> List.length (id_comps (f_0 i)) = 5%nat -> List.length (id_comps (f_0 f)) = 6%nat ->
  bs_points (id_basis (f_0 e)) = bs_points (id_basis (f_0 f)) -> bs_points (id_basis (f_0 i)) = bs_points (id_basis (f_0 f)) -> List.length (pl_ms p) = 2%nat ->
  field_get L (f_0 e) = Some u -> field_get L (f_0 i) = Some v -> field_get L (f_0 f) = Some w -> (d < 2)%nat -> lo M d <= t < hi M d ->
  exists w', ends (run (plasma_step true fuel p (gem_bcs e i f) e i f) dt n m) M (f_0 f) w' /\
    let layer := cut (M ++ [(0, bs_points (id_basis (f_0 f)))]) d t in total layer (fun x => w' (x ++ [Z.of_nat (d + 3)])) = total layer (fun x => w (x ++ [Z.of_nat (d + 3)])).
Proof.
  intros p mx my e i f fuel dt n m L u v w d t M HR Ne Ni Nf Pe Pi Hms Hu Hv Hw Hd Ht.
  destruct (C57_gem R RArith p mx my e i f fuel dt n m L u v w HR Ne Ni Nf Pe Pi Hms Hu Hv Hw) as (m' & L' & E & (H1 & _) & _ & _ & _ & V & _).
  destruct (V 2%nat (f_0 f) eq_refl) as (w' & Gw & Ew). exists w'. split; [exists m', L'; auto|]. cbn zeta.
  destruct HR as ((_ & Hf) & _ & Hr & _ & W). rewrite Forall_forall in Hf. destruct (Hf f ltac:(cbn; auto)) as (_ & Hfit).
  assert (NE : nonempty (M ++ [(0, bs_points (id_basis (f_0 f)))])).
  { apply Forall_app. split; [apply Hfit|]. destruct Hfit as (_ & _ & HD & _). unfold comp_box in HD. inversion HD; subst. constructor; [assumption|constructor]. }
  etransitivity.
  - apply total_ext. intros x Hx. apply Ew. apply cell_join; [|rewrite Nf; lia]. eapply box_incl_in; [|exact Hx]. apply cut_incl. unfold lo, hi in *. rewrite !app_nth1 by (cbn; lia). exact Ht.
  - apply (rk3_iter (fun w => total (cut (M ++ [(0, bs_points (id_basis (f_0 f)))]) d t) (fun x => w (x ++ [Z.of_nat (d + 3)]))) 2%nat); [apply total_linear|].
    intros V0. cbn [plasma_op]. rewrite (total_ext _ _ _ (fun x _ => current_magnetic _ _ _ x (Z.of_nat (d + 3)) ltac:(lia))).
    apply maxwell_layer; auto; try (cbn; lia). intros a [<-|[<-|[]]] Na; [|now left]. right. cbn. assert (d = 1%nat) as -> by lia. auto.
Qed.
Print Assumptions C78_gem.
(** Six by six cells, all components x times y: the layer x = 2 keeps 30. *)
Definition square : box := [(0, 6); (0, 6)].
Definition square_grid {F} {A : Arith F} : grid F := mkGrid (range_of square) [f0; f0] [f1; f1] [f1; f1].
Example C78_layers_ex : forall c dt n, let hill := fun q => IZR (nth 0 q 0 * nth 1 q 0) in
  exists v, ends (run (pulse_step true 999 c [0; 1] em) dt n (mgr_of square_grid square [(f_0 em, hill)] None None)) square (f_0 em) v /\
    (v [2; 0; 0; 3]%Z + v [2; 1; 0; 3]%Z + v [2; 2; 0; 3]%Z + v [2; 3; 0; 3]%Z + v [2; 4; 0; 3]%Z + v [2; 5; 0; 3]%Z = 30)%R.
Proof.
  intros c dt n hill. destruct (C78_layers c square em 999 dt n (mgr_of square_grid square [(f_0 em, hill)] None None) [(f_0 em, hill)] hill 0 2 3) as (v & E & H);
    [is_ready|reflexivity|cbn; lia|reflexivity|cbn; lia|cbn; lia|right; reflexivity|].
  exists v. split; [exact E|]. unfold total in H. change (cells (cut _ 0 2)) with [[2; 0; 0]; [2; 1; 0]; [2; 2; 0]; [2; 3; 0]; [2; 4; 0]; [2; 5; 0]] in H.
  cbn [map fold_right app] in H. unfold hill in H. cbn [nth Z.mul Pos.mul Pos.add] in H. lra.
Qed.

Example C78_gem_ex : forall a b c d e f dt n, exists w, ends (run (plasma_step true 999 (real_plasma a b c d e f) (gem_bcs electrons ions em) electrons ions em) dt n (@plasma_start R RArith)) plane (f_0 em) w /\
  (w [1; 0; 0; 3]%Z + w [1; 1; 0; 3]%Z + w [1; 2; 0; 3]%Z = 15)%R.
Proof.
  intros a b c d e f dt n.
  destruct (C78_gem (real_plasma a b c d e f) (0, 2) (0, 3) electrons ions em 999 dt n plasma_start plasma_fields gas gas pulse 0 1 (plasma_ready R RArith) eq_refl eq_refl eq_refl eq_refl eq_refl eq_refl eq_refl eq_refl eq_refl ltac:(lia) ltac:(cbn; lia)) as (w & E & H).
  exists w. split; [exact E|]. unfold total in H. change (cells (cut _ 0 1)) with [[1; 0; 0]; [1; 1; 0]; [1; 2; 0]] in H. cbn [map fold_right app] in H. change (Z.of_nat (0 + 3)) with 3 in H. change (@pulse R RArith [1; 0; 0; 3]) with 5%R in H. change (@pulse R RArith [1; 1; 0; 3]) with 5%R in H. change (@pulse R RArith [1; 2; 0; 3]) with 5%R in H. lra.
Qed.

(** ** C78 in two dimensions

    A field on six by six cells in blocks of two: Bx and By are differences of a
    potential that is 1 in one block, so that the divergence is zero in every cell. *)
Definition knot (c : list Z) : Z :=
  let block a b := (a mod 3 =? 0) && (b mod 3 =? 0) in
  let pot a b := if block a b then 1 else 0 in
  let x := nth 0 c 0 in let y := nth 1 c 0 in
  if last c 0 =? 3 then pot ((x + 1) / 2) (y / 2 + 1) - pot ((x + 1) / 2) (y / 2)
  else if last c 0 =? 4 then pot (x / 2) ((y + 1) / 2) - pot (x / 2 + 1) ((y + 1) / 2)
  else 0.
Definition knot_start {F} {A : Arith F} : mgr F := mgr_of square_grid square [(f_0 em, fun c => fofz (knot c))] None None.
Lemma knot_ready : forall F (A : Arith F), program_ready (@knot_start F A) square [(f_0 em, fun c => fofz (knot c))] [em] 999.
Proof. intros. is_ready. Qed.

Definition knot_box : box := square ++ [(0, 1)].
Lemma knot_free : forallb (fun x => (knot (around square 0 1 x ++ [3]) - knot (around square 0 (-1) x ++ [3]) + (knot (around square 1 1 x ++ [4]) - knot (around square 1 (-1) x ++ [4])) =? 0)) (cells knot_box) = true.
Proof. vm_compute. reflexivity. Qed.

(** A component of a cell as the manager has it. *)
Definition cell_value {F} (m : mgr F) (k : vid) (c : list Z) : option F :=
  match find (fun kv => String.eqb (id_name (fst kv)) (id_name k)) (mg_vars m) with
  | Some (_, v) => match if_data (ds_chunks (v_ds v)) with
                   | [e] => match iface_elem (ec_if e) c with Ok x => Some x | _ => None end
                   | _ => None
                   end
  | None => None
  end.
Lemma cell_value_is : forall F (m : mgr F) M L k u c, mgr_holds m M L -> field_get L k = Some u ->
  Forall (fun kv => id_name (fst kv) = id_name k -> fst kv = k) (mg_vars m) -> in_box (grow 2 M ++ comp_box k) c -> cell_value m k c = Some (u c).
Proof.
  intros F m M L k u c [_ H] G HA Hc. unfold cell_value. revert G. induction H as [|[a v] [b w] vs L [E1 E2] H IH]; cbn [field_get find fst snd] in *; [discriminate|].
  subst b. inversion HA as [|? ? HA1 HA2]; subst. cbn [fst] in HA1. destruct (String.eqb_spec (id_name a) (id_name k)) as [E|E]; [|auto].
  intros [= ->]. rewrite (HA1 E) in E2. destruct E2 as (_ & _ & _ & _ & _ & _ & _ & _ & e & -> & ((_ & C) & _)). rewrite (C c Hc). reflexivity.
Qed.

Lemma knot_values : match run (pulse_step true 999 (dbl 1) [0; 1] em) (fdec 5 (-1)) 1 (@knot_start spec_float _) with
  | Done m => (map fst (mg_vars m), map (cell_value m (f_0 em)) [[2; 5; 0; 3]; [0; 5; 0; 3]; [1; 0; 0; 4]; [1; 4; 0; 4]])
  | _ => ([], [])
  end = ([f_0 em; f_rhs em; f_1 em; f_2 em; f_3 em],
    [Some (S754_finite false 6486183505725064 (-58)); Some (S754_finite false 5189016658213599 (-53)); Some (S754_finite false 6122444747061724 (-53)); Some (S754_finite false 5274553258382064 (-61))]).
Proof. vm_compute. reflexivity. Qed.

(** In doubles, c = 1, spacings 1 and dt = 1/2: after one step of the program the
    divergence in cell (1, 5) is 0.0619... *)
Theorem C78_refuted : exists (m : mgr spec_float) L u, program_ready m square L [em] 999 /\ field_get L (f_0 em) = Some u /\
  (forall x, in_box knot_box x -> divergence square (spacing (mg_grid m)) 3 u x = f0) /\
  exists v, ends (run (pulse_step true 999 (dbl 1) [0; 1] em) (fdec 5 (-1)) 1 m) square (f_0 em) v /\
    divergence square (spacing (mg_grid m)) 3 v [1; 5; 0] = S754_finite false 8924140797891824 (-57).
Proof.
  exists knot_start, [(f_0 em, fun c => fofz (knot c))], (fun c => fofz (knot c)). split; [apply knot_ready|]. split; [reflexivity|]. split.
  - intros x Hx. apply in_cells in Hx. revert x Hx. apply Forall_forall. repeat (constructor; [vm_compute; reflexivity|]). constructor.
  - destruct (C57_pulse spec_float _ (dbl 1) square em 999 (fdec 5 (-1)) 1 knot_start _ _ (knot_ready _ _) eq_refl eq_refl) as (m' & L' & E & (H1 & _) & _ & _ & _ & V & _).
    destruct (V 0%nat (f_0 em) eq_refl) as (v & Gv & _). exists v. change (map Z.of_nat (seq 0 (List.length square))) with [0; 1] in E. split; [exists m', L'; auto|].
    pose proof knot_values as K. rewrite E in K. apply pair_equal_spec in K as [K1 K2].
    assert (P : forall c, in_box (grow 2 square ++ comp_box (f_0 em)) c -> cell_value m' (f_0 em) c = Some (v c)).
    { intros c Hc. apply (cell_value_is _ m' square L'); auto. apply Forall_forall. intros kv Hkv N. apply (in_map fst) in Hkv. rewrite K1 in Hkv.
      cbn [In] in Hkv. destruct Hkv as [E1 | [E1 | [E1 | [E1 | [E1 | []]]]]]; rewrite <- E1 in N |- *; [reflexivity|discriminate N..]. }
    cbn [map] in K2. rewrite !P in K2 by (repeat (constructor; [cbn; lia|]); constructor).
    unfold divergence. change (seq 0 (List.length square)) with [0%nat; 1%nat]. cbn [fold_left].
    change (around square 0 1 [1; 5; 0] ++ [3 + Z.of_nat 0]) with [2; 5; 0; 3]. change (around square 0 (-1) [1; 5; 0] ++ [3 + Z.of_nat 0]) with [0; 5; 0; 3].
    change (around square 1 1 [1; 5; 0] ++ [3 + Z.of_nat 1]) with [1; 0; 0; 4]. change (around square 1 (-1) [1; 5; 0] ++ [3 + Z.of_nat 1]) with [1; 4; 0; 4].
    injection K2 as K3 K4 K5 K6. rewrite K3, K4, K5, K6. vm_compute. reflexivity.
Qed.
Print Assumptions C78_refuted.

(** The right-hand side of a periodic mesh, written with the cells around. *)
Lemma wall_around : forall n G M P d (u : field R) x j s, (d < List.length M)%nat -> 2 <= hi M d - lo M d -> in_box (M ++ P) x -> s = 0 \/ s = 1 ->
  wall n G (seen Periodic M d u) d (move d s x) j =
  nth (Z.to_nat j) (G d (map (fun i => left_value (u (around M d (s - 2) x ++ [i])) (u (around M d (s - 1) x ++ [i])) (u (around M d s x ++ [i]))) (zrange 0 n))
                        (map (fun i => right_value (u (around M d (s - 1) x ++ [i])) (u (around M d s x ++ [i])) (u (around M d (s + 1) x ++ [i]))) (zrange 0 n))) f0.
Proof.
  intros n G M P d u x j s Hd Hw Hx Hs. unfold wall, left_state, right_state. pose proof (in_box_inside M P x Hx) as HI.
  assert (Hl : (d < List.length x)%nat) by (apply Forall2_length in Hx; rewrite app_length in Hx; lia).
  assert (Hp : lo M d <= nth d x 0 < hi M d) by (apply HI; exact Hd).
  f_equal. f_equal; apply map_ext; intros i; rewrite !move_move, !seen_periodic by (lia || auto); reflexivity.
Qed.

(** Its right-hand side as a sum over the two dimensions. *)
Definition inflow (c : R) (u : field R) (d : nat) (x : list Z) (j : Z) (s : Z) : R :=
  nth (Z.to_nat j) (flux_of (maxwell_flux c) d
    (map (fun i => left_value (u (around square d (s - 2) x ++ [i])) (u (around square d (s - 1) x ++ [i])) (u (around square d s x ++ [i]))) (zrange 0 6))
    (map (fun i => right_value (u (around square d (s - 1) x ++ [i])) (u (around square d s x ++ [i])) (u (around square d (s + 1) x ++ [i]))) (zrange 0 6))) 0%R.
Lemma rate_is : forall c (u : field R) x j, in_box knot_box x ->
  fv_rhs 6 (flux_of (maxwell_flux c)) square (fun _ => Periodic) (fun _ => 1%R) [0%nat; 1%nat] u (x ++ [j]) =
  (inflow c u 0 x j 0 - inflow c u 0 x j 1 + (inflow c u 1 x j 0 - inflow c u 1 x j 1))%R.
Proof.
  intros c u x j Hx. unfold fv_rhs, cellwise. rewrite removelast_last, last_last, fluxes_sum. unfold sum_over. cbn [map fold_right].
  assert (Hl : List.length x = 3%nat) by (apply Forall2_length in Hx; now cbn in Hx).
  assert (P : forall d s, (d < 2)%nat -> s = 0 \/ s = 1 -> wall 6 (flux_of (maxwell_flux c)) (seen Periodic square d u) d (move d s x) j = inflow c u d x j s).
  { intros d s Hd Hs. apply (wall_around 6 _ square [(0, 1)]); auto. destruct d as [|[|d]]; [cbn; lia..|lia]. }
  rewrite <- (P 0%nat 0), <- (P 0%nat 1), <- (P 1%nat 0), <- (P 1%nat 1) by lia. rewrite !move_0 by lia. change (@f0 R RArith) with 0%R. unfold Rdiv. rewrite Rinv_1. ring.
Qed.

(** In exact arithmetic, for every speed of light other than zero, the rate at which
    the divergence of this field changes in cell (1, 5) is not zero. *)
Ltac in_square := repeat (constructor; [cbn; lia|]); constructor.
Theorem C78_rate_refuted : forall c : R, c <> 0%R -> exists u : field R,
  (forall x, in_box knot_box x -> divergence square (fun _ => 1%R) 3 u x = 0%R) /\
  divergence square (fun _ => 1%R) 3 (fv_rhs 6 (flux_of (maxwell_flux c)) square (fun _ => Periodic) (fun _ => 1%R) [0%nat; 1%nat] u) [1; 5; 0] <> 0%R.
Proof.
  intros c Hc. exists (fun q => IZR (knot q)). split.
  - intros x Hx. apply in_cells in Hx. pose proof knot_free as K. rewrite forallb_forall in K. specialize (K x Hx). apply Z.eqb_eq in K. apply (f_equal IZR) in K.
    rewrite plus_IZR, !minus_IZR in K. unfold divergence. change (seq 0 (List.length square)) with [0%nat; 1%nat]. cbn [fold_left].
    change (3 + Z.of_nat 0) with 3. change (3 + Z.of_nat 1) with 4. cbn [fadd fsub fmul fdiv f0 fofz RArith]. cbn in K |- *. lra.
  - unfold divergence. change (seq 0 (List.length square)) with [0%nat; 1%nat]. cbn [fold_left].
    rewrite !rate_is by in_square. unfold inflow. change (zrange 0 6) with [0; 1; 2; 3; 4; 5]. cbn [map].
    repeat match goal with |- context [knot ?q] => let v := eval vm_compute in (knot q) in change (knot q) with v end.
    rewrite ?even_left, ?even_right, ?left_flat, ?right_flat.
    unfold flux_of, maxwell_flux. cbn [Z.eqb Z.of_nat Pos.of_succ_nat Pos.eqb Pos.succ]. 
    change (Z.to_nat (3 + 0)) with 3%nat. change (Z.to_nat (3 + 1)) with 4%nat. cbn [nth].
    cbn [fadd fsub fmul fdiv fneg fabs fofz f0 fdec RArith]. unfold Rdecimal. cbn. pose proof (Rabs_pos_lt c Hc). lra.
Qed.
Print Assumptions C78_rate_refuted.
