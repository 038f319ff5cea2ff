(** * VtkFacts: proofs about the VTK writers and print. *)
From Coq Require Import ZArith List String Lia Bool.
From Verif Require Import Base BaseFacts BoxSpec BoxFacts Range RangeSpec RangeFacts Indexer IndexerFacts Interface
  InterfaceFacts ApiSpec ApiFacts Arith Chunk FieldSpec FieldFacts ChunkFacts VarId VarIdFacts Manager MgrSpec MgrFacts
  InitialSpec InitialFacts Solvers SolverFacts Vtk VtkSpec.
Import ListNotations.
Open Scope Z_scope.

Section VtkFacts.
Context {F : Type} {A : Arith F}.
Notation fld := (field F).

Lemma index_loop_ok : forall (g : Z -> stream F) body l u s, 
  (forall x s, l <= x < u -> body x s = Done (s ++ g x)) ->
  index_loop (Z.to_nat (u - l)) l body s = Done (s ++ flat_map g (zrange l u)).
Proof.
  intros g body l u s H. remember (Z.to_nat (u - l)) as n eqn:E. revert l s E H.
  induction n as [|n IH]; intros l s E H; cbn [index_loop].
  - rewrite zrange_empty by lia. cbn. now rewrite app_nil_r.
  - rewrite H by lia. cbn [obind]. rewrite (IH (l + 1)) by (first [lia | intros; apply H; lia]).
    rewrite (zrange_cons l u) by lia. cbn [flat_map]. now rewrite app_assoc.
Qed.

Lemma dim_loop_ok : forall b d l u (g : Z -> stream F) body s, nth_error b d = Some (l, u) ->
  (forall x s, l <= x < u -> body x s = Done (s ++ g x)) ->
  dim_loop (range_of b) (Z.of_nat d) body s = Done (s ++ flat_map g (zrange l u)).
Proof.
  intros b d l u g body s E H. unfold dim_loop. rewrite (range_lower_of _ _ _ _ E). cbn [liftr].
  rewrite (range_upper_of _ _ _ _ E). cbn [liftr]. now apply index_loop_ok.
Qed.

Lemma vtk_pos_ok : forall p l u q x c, nonempty (p ++ (l, u) :: q) -> prod_len (p ++ (l, u) :: q) <= int_max ->
  l <= x < u -> in_box q c ->
  vtk_pos (range_of (p ++ (l, u) :: q)) (offset q c) (Z.of_nat (List.length p)) x = Ok (offset ((l, u) :: q) (x :: c)).
Proof.
  intros p l u q x c N V X I. apply nonempty_app in N as [N1 N2].
  rewrite prod_len_app in V. pose proof (prod_len_pos _ N1). pose proof (prod_len_pos _ N2) as P2.
  assert (I' : in_box ((l, u) :: q) (x :: c)) by (constructor; auto).
  pose proof (offset_bounds _ _ I') as O. pose proof (offset_bounds _ _ I) as O'.
  assert (prod_len ((l, u) :: q) <= int_max) by nia.
  unfold vtk_pos.
  assert (E : nth_error (p ++ (l, u) :: q) (List.length p) = Some (l, u)).
  { rewrite nth_error_app2 by lia. now rewrite Nat.sub_diag. }
  rewrite (range_lower_of _ _ _ _ E). cbn [bind].
  assert (Q : 0 < prod_len q) by (lia).
  cbn [prod_len offset] in *.
  assert (x - l < u - l) by lia. assert (u - l <= int_max) by nia.
  rewrite isub_ok by (unfold is_int, int_min in *; lia). cbn [bind].
  rewrite (range_stride_of _ _ _ E). cbn [bind]. rewrite skipn_S_mid by reflexivity.
  assert (0 <= (x - l) * prod_len q) by nia.
  rewrite imul_ok by (unfold is_int, int_min in *; lia). cbn [bind].
  rewrite iadd_ok by (unfold is_int, int_min in *; lia). f_equal. lia.
Qed.

Lemma elem_ok : forall b (u : fld) c, valid_box b -> in_box b c -> vget (if_data (iface_of b u)) (offset b c) = Ok (u c).
Proof.
  intros b u c (V1 & V2 & V3 & V4) I. apply vget_ok; [apply (offset_bounds _ _ I)|].
  cbn [iface_of if_data]. rewrite nth_error_map. now rewrite nth_cells_offset.
Qed.

Definition spaced (x : F) : stream F := [TNum x; TText " "].

Lemma x_loop_ok : forall a b Q R (u : fld) c s, valid_box ((a - 2, b + 2) :: Q) -> in_box Q c ->
  x_loop (iface_of ((a - 2, b + 2) :: Q) u) (range_of ((a, b) :: R)) (offset Q c) s =
  Done (s ++ flat_map (fun x => spaced (u (x :: c))) (zrange a b)).
Proof.
  intros a b Q R u c s V I. unfold x_loop. apply (dim_loop_ok ((a, b) :: R) 0 a b); [reflexivity|].
  intros x s' X. cbn [iface_of if_range]. pose proof V as (_ & V2 & V3 & _).
  pose proof (vtk_pos_ok [] (a - 2) (b + 2) Q x c V2 V3 ltac:(lia) I) as EP. cbn [app List.length Z.of_nat Pos.of_succ_nat Pos.succ] in EP.
  rewrite EP. cbn [bind app].
  fold (iface_of ((a - 2, b + 2) :: Q) u).
  change (map u (cells ((a - 2, b + 2) :: Q))) with (if_data (iface_of ((a - 2, b + 2) :: Q) u)).
  rewrite elem_ok by (auto; constructor; cbn; auto; lia). reflexivity.
Qed.

Lemma y_loop_ok : forall a b a' b' Q R (u : fld) c s, valid_box ((a - 2, b + 2) :: (a' - 2, b' + 2) :: Q) -> in_box Q c ->
  y_loop (iface_of ((a - 2, b + 2) :: (a' - 2, b' + 2) :: Q) u) (range_of ((a, b) :: (a', b') :: R)) (offset Q c) s =
  Done (s ++ flat_map (fun y => flat_map (fun x => spaced (u (x :: y :: c))) (zrange a b)) (zrange a' b')).
Proof.
  intros a b a' b' Q R u c s V I. unfold y_loop. apply (dim_loop_ok ((a, b) :: (a', b') :: R) 1 a' b'); [reflexivity|].
  intros y s' Y. cbn [iface_of if_range]. pose proof V as (_ & V2 & V3 & _).
  pose proof (vtk_pos_ok [(a - 2, b + 2)] (a' - 2) (b' + 2) Q y c V2 V3 ltac:(lia) I) as EP. cbn [app List.length Z.of_nat Pos.of_succ_nat Pos.succ] in EP.
  rewrite EP. cbn [liftr].
  apply (x_loop_ok a b ((a' - 2, b' + 2) :: Q) ((a', b') :: R) u (y :: c)); auto. constructor; auto. cbn. lia.
Qed.

Lemma z_loop_ok : forall a b a' b' a2 b2 Q R (u : fld) c s, valid_box ((a - 2, b + 2) :: (a' - 2, b' + 2) :: (a2 - 2, b2 + 2) :: Q) -> in_box Q c ->
  z_loop (iface_of ((a - 2, b + 2) :: (a' - 2, b' + 2) :: (a2 - 2, b2 + 2) :: Q) u) (range_of ((a, b) :: (a', b') :: (a2, b2) :: R)) (offset Q c) s =
  Done (s ++ flat_map (fun z => flat_map (fun y => flat_map (fun x => spaced (u (x :: y :: z :: c))) (zrange a b)) (zrange a' b')) (zrange a2 b2)).
Proof.
  intros a b a' b' a2 b2 Q R u c s V I. unfold z_loop. apply (dim_loop_ok ((a, b) :: (a', b') :: (a2, b2) :: R) 2 a2 b2); [reflexivity|].
  intros z s' Y. cbn [iface_of if_range]. pose proof V as (_ & V2 & V3 & _).
  pose proof (vtk_pos_ok [(a - 2, b + 2); (a' - 2, b' + 2)] (a2 - 2) (b2 + 2) Q z c V2 V3 ltac:(lia) I) as EP. cbn [app List.length Z.of_nat Pos.of_succ_nat Pos.succ] in EP.
  rewrite EP. cbn [liftr].
  apply (y_loop_ok a b a' b' ((a2 - 2, b2 + 2) :: Q) ((a2, b2) :: R) u (z :: c)); auto. constructor; auto. cbn. lia.
Qed.

Lemma flat_map_map : forall X Y Z (f : X -> Y) (g : Y -> list Z) l, flat_map g (map f l) = flat_map (fun x => g (f x)) l.
Proof. induction l as [|x l IH]; [reflexivity|]. cbn. now rewrite IH. Qed.
Lemma flat_map_flat_map : forall X Y Z (f : X -> list Y) (g : Y -> list Z) l,
  flat_map g (flat_map f l) = flat_map (fun x => flat_map g (f x)) l.
Proof. induction l as [|x l IH]; [reflexivity|]. cbn. rewrite flat_map_app. now rewrite IH. Qed.
Lemma flat_map_one : forall X Y (f : X -> Y) l, flat_map (fun x => [f x]) l = map f l.
Proof. induction l as [|x l IH]; [reflexivity|]. cbn. now rewrite IH. Qed.
Lemma cells_one : forall a b, cells [(a, b)] = map (fun x => [x]) (zrange a b).
Proof. intros. cbn [cells map]. apply flat_map_one. Qed.

(** What the writer puts out for one component: the values, for up to three
    dimensions; nothing above. *)
Definition vtk_body (M : box) (u : fld) (j : Z) : stream F :=
  if (List.length M <=? 3)%nat then flat_map spaced (vtk_values M u j) else [].

Lemma chunk_write_ok : forall M k (u : fld) j s, id_fits M k -> id_basis k = volume_average ->
  0 <= j < ncomp k ->
  chunk_write_vtk (ec_chunk (echunk_of M (comp_box k) 2 u)) (range_of (layer true M k j (j + 1))) s =
  Done (s ++ [TText "LOOKUP_TABLE default"; TText eol] ++ vtk_body M u j ++ [TText eol]).
Proof.
  intros M k u j s HF HB Hj. pose proof (shape_valid _ _ _ HF) as V. pose proof HF as (S1 & _ & _ & _ & _ & _ & S7).
  unfold chunk_write_vtk. cbn [ec_chunk echunk_of chunk_of ck_mesh ck_if].
  change (ck_mesh (chunk_of (grow 2 M) (comp_box k) u)) with (range_of (grow 2 M)).
  change (ck_if (chunk_of (grow 2 M) (comp_box k) u)) with (iface_of (grow 2 M ++ comp_box k) u).
  assert (EL : r_nd (range_of (layer true M k j (j + 1))) = Z.of_nat (List.length (spots M k)) + 1).
  { cbn [range_of r_nd]. unfold layer. rewrite app_length. cbn [List.length zone]. lia. }
  rewrite EL. rewrite isub_ok.
  2:{ unfold spots. rewrite app_length. cbn [List.length]. unfold comp_box in S7. rewrite app_length in S7. cbn [List.length] in S7. unfold is_int, int_min, int_max in *. lia. }
  cbn [bind]. rewrite Z.add_simpl_r.
  assert (EO : range_lower (range_of (layer true M k j (j + 1))) (Z.of_nat (List.length (spots M k))) = Ok j).
  { apply (range_lower_of _ _ j (j + 1)). unfold layer. cbn [zone]. rewrite nth_error_app2 by lia. now rewrite Nat.sub_diag. }
  rewrite EO. cbn [liftr].
  assert (HC : in_box (comp_box k) [0; j]).
  { unfold comp_box. rewrite HB. constructor; [cbn; lia|]. constructor; [cbn; unfold ncomp in Hj; lia|constructor]. }
  assert (EC : j = offset (comp_box k) [0; j]) by (unfold comp_box; cbn [offset prod_len]; lia).
  change (r_nd (range_of (grow 2 M))) with (Z.of_nat (List.length (grow 2 M))). rewrite grow_length.
  unfold vtk_body, vtk_values.
  destruct M as [|[a b] M]; [congruence|]. destruct M as [|[a' b'] M]; [|destruct M as [|[a2 b2] M]; [|destruct M as [|iv M]]];
    cbn [List.length Nat.leb].
  - cbn [Z.of_nat Pos.of_succ_nat Z.eqb Pos.eqb].
    change (grow 2 [(a, b)] ++ comp_box k) with ((a - 2, b + 2) :: comp_box k) in *.
    change (layer true [(a, b)] k j (j + 1)) with ((a, b) :: [(0, bs_points (id_basis k)); (j, j + 1)]).
    pose proof (fun s => x_loop_ok a b (comp_box k) [(0, bs_points (id_basis k)); (j, j + 1)] u [0; j] s V HC) as EX. rewrite <- EC in EX. rewrite EX. clear EX. cbn [obind]. unfold put. f_equal.
    rewrite <- !app_assoc. do 2 f_equal. f_equal. cbn [rev app].
    rewrite cells_one, map_map, flat_map_map. reflexivity.
  - cbn [Z.of_nat Pos.of_succ_nat Pos.succ Z.eqb Pos.eqb].
    change (grow 2 [(a, b); (a', b')] ++ comp_box k) with ((a - 2, b + 2) :: (a' - 2, b' + 2) :: comp_box k) in *.
    change (layer true [(a, b); (a', b')] k j (j + 1)) with ((a, b) :: (a', b') :: [(0, bs_points (id_basis k)); (j, j + 1)]).
    pose proof (fun s => y_loop_ok a b a' b' (comp_box k) [(0, bs_points (id_basis k)); (j, j + 1)] u [0; j] s V HC) as EX. rewrite <- EC in EX. rewrite EX. clear EX. cbn [obind]. unfold put. f_equal.
    rewrite <- !app_assoc. do 2 f_equal. f_equal. cbn [rev app]. cbn [cells].
    rewrite map_flat_map, flat_map_flat_map. apply flat_map_ext. intros y.
    rewrite map_map, flat_map_map. cbn [map]. rewrite flat_map_one, flat_map_map. reflexivity.
  - cbn [Z.of_nat Pos.of_succ_nat Pos.succ Z.eqb Pos.eqb].
    change (grow 2 [(a, b); (a', b'); (a2, b2)] ++ comp_box k) with ((a - 2, b + 2) :: (a' - 2, b' + 2) :: (a2 - 2, b2 + 2) :: comp_box k) in *.
    change (layer true [(a, b); (a', b'); (a2, b2)] k j (j + 1)) with ((a, b) :: (a', b') :: (a2, b2) :: [(0, bs_points (id_basis k)); (j, j + 1)]).
    pose proof (fun s => z_loop_ok a b a' b' a2 b2 (comp_box k) [(0, bs_points (id_basis k)); (j, j + 1)] u [0; j] s V HC) as EX. rewrite <- EC in EX. rewrite EX. clear EX. cbn [obind]. unfold put. f_equal.
    rewrite <- !app_assoc. do 2 f_equal. f_equal. cbn [rev app]. cbn [cells].
    rewrite map_flat_map, flat_map_flat_map. apply flat_map_ext. intros z.
    rewrite map_map, flat_map_map, flat_map_flat_map. apply flat_map_ext. intros y.
    rewrite flat_map_map. cbn [map]. rewrite flat_map_one, flat_map_map. reflexivity.
  - destruct (Z.eqb_spec (Z.of_nat (S (S (S (S (List.length M)))))) 3); [lia|].
    destruct (Z.eqb_spec (Z.of_nat (S (S (S (S (List.length M)))))) 2); [lia|].
    destruct (Z.eqb_spec (Z.of_nat (S (S (S (S (List.length M)))))) 1); [lia|].
    cbn [obind]. unfold put. cbn [app]. rewrite <- app_assoc. reflexivity.
Qed.

(** ** one variable *)

Definition vtk_section (M : box) (k : vid) (u : fld) (jc : Z * string) : stream F :=
  [TText "SCALARS "; TText (id_name k); TText "."; TText (snd jc); TText (" float 1" ++ eol);
   TText "LOOKUP_TABLE default"; TText eol] ++ vtk_body M u (fst jc) ++ [TText eol].

Lemma vtk_comps_ok : forall fuel M k (u : fld), id_fits M k -> id_basis k = volume_average -> (1 <= fuel)%nat ->
  forall cs i s, 0 <= i -> i + Z.of_nat (List.length cs) = ncomp k ->
  vtk_comps fuel (var_of k M u) i cs s =
  Done (s ++ flat_map (vtk_section M k u) (combine (zrange i (ncomp k)) cs)).
Proof.
  intros fuel M k u HF HB HU. induction cs as [|c cs IH]; intros i s Hi HE; cbn [vtk_comps List.length] in *.
  - rewrite zrange_empty by lia. cbn. now rewrite app_nil_r.
  - rewrite (zrange_cons i) by lia. cbn [combine flat_map].
    pose proof HF as (HM & _ & _ & _ & _ & _ & S7). pose proof (one_cell_valid M HM) as V. pose proof (valid_self _ V) as G.
    unfold iface_indexer. cbn [v_ds var_of ds_chunks dataset_of if_range].
    rewrite indexer_make_ok by assumption. cbn [liftr].
    rewrite for_indexer_cells by (auto; rewrite one_cell_prod; lia). rewrite one_cells. cbn [ofold].
    fold (ix_one M). unfold vtk_chunk at 1. cbn [v_ds var_of ds_chunks dataset_of].
    assert (EG : iface_get (mkIface (range_of (one_cell M)) [echunk_of M (comp_box k) 2 u]) (ix_one M) = Ok (echunk_of M (comp_box k) 2 u)).
    { unfold iface_get. rewrite ix_one_lin. reflexivity. }
    rewrite EG. cbn [liftr ec_internal echunk_of].
    pose proof (ncomp_pos M k HF) as NP.
    assert (E0 : range_of (M ++ comp_box k) = range_of (spots M k ++ (0, ncomp k) :: [])).
    { unfold spots, comp_box, ncomp. now rewrite <- app_assoc. }
    rewrite E0.
    assert (SF : strides_fit (spots M k ++ [(0, ncomp k)])) by (apply (sub_strides _ _ (layer_good true M k 0 (ncomp k) HF ltac:(lia) ltac:(lia)))).
    rewrite !range_copy_of by exact SF. cbn [bind].
    assert (EN : r_nd (range_of (spots M k ++ [(0, ncomp k)])) = Z.of_nat (List.length (spots M k)) + 1).
    { cbn [range_of r_nd]. rewrite app_length. cbn [List.length]. lia. }
    rewrite EN.
    assert (HL : is_int (Z.of_nat (List.length (spots M k)) + 1 - 1)).
    { unfold spots. rewrite app_length. cbn [List.length]. unfold comp_box in S7. rewrite app_length in S7. cbn [List.length] in S7. unfold is_int, int_min, int_max in *. lia. }
    rewrite isub_ok by exact HL. cbn [bind]. rewrite Z.add_simpl_r.
    assert (NI : ncomp k <= int_max).
    { pose proof (shape_valid _ _ _ HF) as (_ & N1 & N2 & _). rewrite prod_len_app in N2. apply nonempty_app in N1 as [N1 N3].
      pose proof (prod_len_pos _ N1). unfold comp_box in N2, N3. rewrite HB in N2, N3. cbn [prod_len bs_points volume_average] in N2. unfold ncomp in *. nia. }
    rewrite iadd_ok by (unfold is_int, int_min; lia). cbn [bind].
    rewrite (range_set_ok (spots M k) 0 (ncomp k) [] i (i + 1) _ eq_refl)
      by (apply (sub_strides _ _ (layer_good true M k i (i + 1) HF ltac:(lia) ltac:(lia)))).
    cbn [bind liftr fst snd].
    change (spots M k ++ [(i, i + 1)]) with (layer true M k i (i + 1)).
    change (mkEchunk (chunk_of (grow 2 M) (comp_box k) u) 2 ?a ?b ?c ?d ?e) with (mkEchunk (chunk_of (grow 2 M) (comp_box k) u) 2 a b c d e).
    match goal with |- context [chunk_write_vtk ?c _ _] => change c with (ec_chunk (echunk_of M (comp_box k) 2 u)) end.
    rewrite (chunk_write_ok M k u i _ HF HB) by lia. cbn [omap obind snd fst].
    rewrite IH by lia. f_equal. unfold put, vtk_section. cbn [fst snd v_name var_of]. rewrite <- !app_assoc. reflexivity.
Qed.

Lemma basis_eqb_refl : forall b, basis_eqb b b = true.
Proof. intros [n p]. unfold basis_eqb. cbn. now rewrite String.eqb_refl, Z.eqb_refl. Qed.
Lemma basis_eqb_eq : forall a b, basis_eqb a b = true <-> a = b.
Proof.
  intros [n p] [n' p']. unfold basis_eqb. cbn. destruct (String.eqb_spec n n') as [E|E]; cbn.
  - rewrite Z.eqb_eq. split; [intros ->; now subst|congruence].
  - split; congruence.
Qed.

Lemma variable_write_ok : forall fuel M k (u : fld) s, id_fits M k -> id_basis k = volume_average -> (1 <= fuel)%nat ->
  variable_write_vtk fuel (var_of k M u) s = Done (s ++ flat_map (vtk_section M k u) (numbered k)).
Proof.
  intros fuel M k u s HF HB HU. unfold variable_write_vtk. cbn [v_ds var_of ds_basis dataset_of]. rewrite HB, basis_eqb_refl.
  cbn [v_comps]. apply vtk_comps_ok; auto; unfold ncomp; lia.
Qed.

(** ** the manager *)

Lemma vtk_vars_ok : forall fuel gr M (L : list (vid * fld)) dt t ks s, fields_ok M L -> compatible (ids L ++ ks) -> (1 <= fuel)%nat ->
  Forall (fun k => field_get L k <> None /\ id_basis k = volume_average) ks ->
  vtk_vars fuel (mgr_of gr M L dt t) ks s =
  Done (s ++ flat_map (fun ku => flat_map (vtk_section M (fst ku) (snd ku)) (numbered (fst ku))) (asked L ks)).
Proof.
  intros fuel gr M L dt t ks. induction ks as [|k ks IH]; intros s HF HC HU HA; cbn [vtk_vars asked map flat_map].
  - now rewrite app_nil_r.
  - inversion HA as [|? ? [H1 H2] H3]; subst.
    assert (FI : fitting L k) by (intros k' Hk E; apply HC; auto; apply in_app_iff; cbn; auto).
    cbn [mg_vars mgr_of]. rewrite map_find_ok by exact FI. cbn [liftr].
    destruct (idx L k) as [n|] eqn:E; [|apply idx_none in E as [E _]; congruence].
    destruct (idx_some L k n FI E) as (u & HN & HG). fold (mgr_of gr M L dt t). rewrite (var_at_of _ _ _ _ _ _ _ _ HN). cbn [liftr].
    assert (HI : id_fits M k).
    { destruct HF as [_ HF]. rewrite Forall_forall in HF. apply HF. apply nth_error_In in HN. apply (in_map fst) in HN. exact HN. }
    rewrite variable_write_ok by auto. cbn [obind]. rewrite IH; auto.
    + unfold field_or_zero. rewrite HG. cbn [fst snd]. now rewrite <- app_assoc.
    + intros a b Ha Hb. apply HC; apply in_app_iff; [apply in_app_iff in Ha as []|apply in_app_iff in Hb as []]; cbn; auto.
Qed.

Lemma vtk_vars_missing : forall fuel gr M (L : list (vid * fld)) dt t k ks s, fitting L k -> field_get L k = None ->
  vtk_vars fuel (mgr_of gr M L dt t) (k :: ks) s =
  Threw ("qk::variable::variable_manager::write_VTK : Variable '" ++ id_name k ++ "' does not exist.") s.
Proof.
  intros fuel gr M L dt t k ks s FI HG. cbn [vtk_vars mg_vars mgr_of]. rewrite map_find_ok by exact FI. cbn [liftr].
  destruct (idx L k) as [n|] eqn:E; [|reflexivity]. destruct (idx_some L k n FI E) as (u & _ & H). congruence.
Qed.

Lemma same_basis_ok : forall b ks, Forall (fun k => id_basis k = b) ks -> same_basis b ks = true.
Proof. induction 1 as [|k ks E H IH]; [reflexivity|]. cbn. rewrite E, basis_eqb_refl. exact IH. Qed.
Lemma same_basis_iff : forall b ks, same_basis b ks = true <-> Forall (fun k => id_basis k = b) ks.
Proof.
  intros b ks. split; [|apply same_basis_ok]. induction ks as [|k ks IH]; intros H; [constructor|]. cbn in H.
  destruct (basis_eqb b (id_basis k)) eqn:E; [|discriminate]. apply basis_eqb_eq in E. constructor; auto.
Qed.

(** The three numbers of the ORIGIN and SPACING lines. *)
Definition origin_at (g : grid F) (M : box) (d : nat) : F :=
  if (d <? List.length M)%nat then (nth d (gr_starts g) f0 + nth d (gr_widths g) f0 / fofz 2)%F else f0.
Definition spacing_at (g : grid F) (M : box) (d : nat) (x : F) : F :=
  if (d <? List.length M)%nat then nth d (gr_dxs g) f0 else x.
Definition origin_of (g : grid F) (M : box) : F * F * F := (origin_at g M 0, origin_at g M 1, origin_at g M 2).
Definition spacing_of (g : grid F) (M : box) : F * F * F :=
  let x := spacing_at g M 0 f0 in (x, spacing_at g M 1 x, spacing_at g M 2 x).

Lemma vget_nth : forall X (l : list X) d n x, List.length l = n -> (d < n)%nat -> vget l (Z.of_nat d) = Ok (nth d l x).
Proof. intros X l d n x HL Hd. apply vget_ok; [lia|]. rewrite Nat2Z.id. apply nth_error_nth'. lia. Qed.

Lemma vtk_points_ok : forall (g : grid F) M d, gr_range g = range_of M -> nonempty M -> prod_len (grow 2 M) <= int_max ->
  vtk_points g (Z.of_nat d) = Ok (vtk_dim M d).
Proof.
  intros g M d HR HN HP. unfold vtk_points, vtk_dim. rewrite HR. cbn [range_of r_nd].
  destruct (Z.ltb_spec (Z.of_nat d) (Z.of_nat (List.length M))) as [H|H].
  - destruct (nth_error M d) as [[l u]|] eqn:E; [|apply nth_error_None in E; lia].
    assert (B : u - l + 4 <= int_max).
    { pose proof (nonempty_grow 2 M ltac:(lia) HN) as NG.
      pose proof (prod_len_factor_le (grow 2 M) (l - 2, u + 2) NG) as P. cbn [fst snd] in P.
      assert (In (l - 2, u + 2) (grow 2 M)); [|specialize (P H0); lia].
      apply nth_error_In in E. unfold grow. apply in_map_iff. exists (l, u). auto. }
    assert (l < u) by (unfold nonempty in HN; rewrite Forall_forall in HN; apply nth_error_In in E; apply (HN _ E)).
    rewrite (range_length_of _ _ _ _ E). rewrite isub_ok by (unfold is_int, int_min in *; lia). cbn [bind].
    rewrite iadd_ok by (unfold is_int, int_min in *; lia). reflexivity.
  - destruct (nth_error M d) as [[l u]|] eqn:E; [|reflexivity]. assert (d < List.length M)%nat by (apply nth_error_Some; congruence). lia.
Qed.

Lemma vtk_origin_ok : forall (g : grid F) M d, gr_range g = range_of M -> grid_fits g M -> vtk_origin g (Z.of_nat d) = Ok (origin_at g M d).
Proof.
  intros g M d HR (G1 & G2 & G3). unfold vtk_origin, origin_at. rewrite HR. cbn [range_of r_nd].
  destruct (Z.ltb_spec (Z.of_nat d) (Z.of_nat (List.length M))) as [H|H]; destruct (Nat.ltb_spec d (List.length M)); try lia; [|reflexivity].
  rewrite (vget_nth F (gr_starts g) d _ f0 G1) by lia. cbn [bind]. rewrite (vget_nth F (gr_widths g) d _ f0 G2) by lia. reflexivity.
Qed.

Lemma vtk_spacing_ok : forall (g : grid F) M d x, gr_range g = range_of M -> grid_fits g M -> vtk_spacing g (Z.of_nat d) x = Ok (spacing_at g M d x).
Proof.
  intros g M d x HR (G1 & G2 & G3). unfold vtk_spacing, spacing_at. rewrite HR. cbn [range_of r_nd].
  destruct (Z.ltb_spec (Z.of_nat d) (Z.of_nat (List.length M))) as [H|H]; destruct (Nat.ltb_spec d (List.length M)); try lia; [|reflexivity].
  now rewrite (vget_nth F (gr_dxs g) d _ f0 G3) by lia.
Qed.

Lemma grid_write_ok : forall (g : grid F) M b s, gr_range g = range_of M -> grid_fits g M -> nonempty M -> prod_len (grow 2 M) <= int_max -> b = volume_average ->
  grid_write_vtk g b s = Done (s ++ 
   (let '(ox, oy, oz) := origin_of g M in let '(hx, hy, hz) := spacing_of g M in
   [TText ("DATASET STRUCTURED_POINTS" ++ eol);
   TText "DIMENSIONS "; TInt (vtk_dim M 0); TText " "; TInt (vtk_dim M 1); TText " "; TInt (vtk_dim M 2); TText eol;
   TText "ORIGIN "; TNum ox; TText " "; TNum oy; TText " "; TNum oz; TText eol;
   TText "SPACING "; TNum hx; TText " "; TNum hy; TText " "; TNum hz; TText eol])).
Proof.
  intros g M b s HR HG HN HP ->. unfold grid_write_vtk. rewrite basis_eqb_refl.
  assert (P0 : vtk_points g 0 = Ok (vtk_dim M 0)) by exact (vtk_points_ok g M 0 HR HN HP).
  assert (P1 : vtk_points g 1 = Ok (vtk_dim M 1)) by exact (vtk_points_ok g M 1 HR HN HP).
  assert (P2 : vtk_points g 2 = Ok (vtk_dim M 2)) by exact (vtk_points_ok g M 2 HR HN HP).
  assert (O0 : vtk_origin g 0 = Ok (origin_at g M 0)) by exact (vtk_origin_ok g M 0 HR HG).
  assert (O1 : vtk_origin g 1 = Ok (origin_at g M 1)) by exact (vtk_origin_ok g M 1 HR HG).
  assert (O2 : vtk_origin g 2 = Ok (origin_at g M 2)) by exact (vtk_origin_ok g M 2 HR HG).
  assert (Q0 : forall x, vtk_spacing g 0 x = Ok (spacing_at g M 0 x)) by exact (fun x => vtk_spacing_ok g M 0 x HR HG).
  assert (Q1 : forall x, vtk_spacing g 1 x = Ok (spacing_at g M 1 x)) by exact (fun x => vtk_spacing_ok g M 1 x HR HG).
  assert (Q2 : forall x, vtk_spacing g 2 x = Ok (spacing_at g M 2 x)) by exact (fun x => vtk_spacing_ok g M 2 x HR HG).
  rewrite P0, P1, P2, O0, O1, O2. cbn [bind]. rewrite Q0. cbn [bind]. rewrite Q1. cbn [bind]. rewrite Q2. cbn [bind liftr]. reflexivity.
Qed.

Definition file_of (g : grid F) (M : box) (L : list (vid * fld)) (ks : list vid) : stream F :=
  vtk_header (vtk_dim M 0, vtk_dim M 1, vtk_dim M 2) (origin_of g M) (spacing_of g M) (prod_len M) ++
  flat_map (fun ku => flat_map (vtk_section M (fst ku) (snd ku)) (numbered (fst ku))) (asked L ks).

Lemma fits_prod : forall M k, id_fits M k -> prod_len (grow 2 M) <= int_max /\ 0 < prod_len M <= int_max.
Proof.
  intros M k HF. pose proof HF as (S1 & S2 & S3 & S4 & S5 & S6 & S7). rewrite prod_len_app in S5.
  pose proof (prod_len_pos _ S3). pose proof (prod_len_pos _ S2). pose proof (nonempty_grow 2 M ltac:(lia) S2) as NG. pose proof (prod_len_pos _ NG).
  assert (prod_len (grow 2 M) <= int_max) by nia. split; auto. split; auto.
  assert (I : box_incl M (grow 2 M)) by (apply box_incl_grow; lia).
  pose proof (prod_len_incl_le _ _ I S2). lia.
Qed.

Lemma write_common : forall fuel name (m : mgr F) M L k ks, mgr_holds m M L -> fields_ok M L ->
  grid_fits (mg_grid m) M -> M <> [] -> nonempty M -> prod_len (grow 2 M) <= int_max -> prod_len M <= int_max ->
  id_basis k = volume_average -> Forall (fun k => id_basis k = volume_average) ks ->
  manager_write_vtk fuel true name m (k :: ks) =
  omap Some (vtk_vars fuel m (k :: ks) (vtk_header (vtk_dim M 0, vtk_dim M 1, vtk_dim M 2) (origin_of (mg_grid m) M) (spacing_of (mg_grid m) M) (prod_len M))).
Proof.
  intros fuel name m M L k ks HM HF HG N0 HN HP HP2 HB HA. unfold manager_write_vtk.
  assert (SB : same_basis (id_basis k) (k :: ks) = true).
  { apply same_basis_ok. rewrite HB. constructor; auto. }
  rewrite SB. cbn [negb]. f_equal. pose proof (proj1 (mgr_holds_iff m M L HF) HM) as [HR _].
  rewrite (grid_write_ok (mg_grid m) M _ _ HR HG HN HP HB). cbn [obind]. rewrite HR.
  pose proof (prod_len_pos _ HN). pose proof (prod_len_factor_le) as PF.
  rewrite range_volume_fit.
  2:{ destruct M as [|[l u] M]; [congruence|]. cbn [vol_fit]. pose proof (PF ((l, u) :: M) (l, u) HN (or_introl eq_refl)) as P. cbn [fst snd] in P.
      inversion HN; subst. cbn [fst snd] in *. split; unfold is_int, int_min in *; lia. }
  rewrite box_volume_pos by auto. cbn [liftr]. f_equal.
Qed.

Theorem write_ok : forall fuel name (m : mgr F) M L ks, mgr_holds m M L -> fields_ok M L -> compatible (ids L ++ ks) ->
  grid_fits (mg_grid m) M -> (1 <= fuel)%nat -> ks <> [] ->
  Forall (fun k => field_get L k <> None /\ id_basis k = volume_average) ks ->
  manager_write_vtk fuel true name m ks = Done (Some (file_of (mg_grid m) M L ks)).
Proof.
  intros fuel name m M L ks HM HF HC HG HU HK HA. destruct ks as [|k ks]; [congruence|].
  inversion HA as [|? ? [H1 H2] H3]; subst.
  assert (FI : fitting L k) by (intros k' Hk E; apply HC; auto; apply in_app_iff; cbn; auto).
  assert (HI : id_fits M k).
  { destruct (idx L k) as [n|] eqn:E; [|apply idx_none in E as [E _]; congruence].
    destruct (idx_some L k n FI E) as (u & HN & _). destruct HF as [_ HF]. rewrite Forall_forall in HF. apply HF.
    apply nth_error_In in HN. apply (in_map fst) in HN. exact HN. }
  destruct (fits_prod M k HI) as (P1 & P2 & P3). pose proof HI as (S1 & S2 & _).
  assert (H4 : Forall (fun k => id_basis k = volume_average) ks) by (eapply Forall_impl; [|exact H3]; cbn; tauto).
  rewrite (write_common fuel name m M L k ks) by auto.
  pose proof (proj1 (mgr_holds_iff m M L HF) HM) as [HR E]. 
  assert (EV : vtk_vars fuel m (k :: ks) = vtk_vars fuel (mgr_of (mg_grid m) M L (mg_dt m) (mg_time m)) (k :: ks)) by (now rewrite <- E).
  rewrite EV. rewrite vtk_vars_ok by auto. reflexivity.
Qed.

Lemma section_small : forall M k (u : fld) jc, (List.length M <= 3)%nat -> vtk_section M k u jc = scalars M k u jc.
Proof. intros M k u jc H. unfold vtk_section, scalars, vtk_body. destruct (Nat.leb_spec (List.length M) 3); [reflexivity|lia]. Qed.

Lemma file_small : forall g M L ks, (List.length M <= 3)%nat ->
  file_of g M L ks = vtk_file M (origin_of g M) (spacing_of g M) (asked L ks).
Proof.
  intros g M L ks H. unfold file_of, vtk_file, var_section. f_equal. apply flat_map_ext. intros ku. apply flat_map_ext. intros jc.
  now apply section_small.
Qed.

(** ** print *)

Lemma print_index_eq : forall c, print_index c = (coords_text c : stream F).
Proof.
  induction c as [|i c IH]; [reflexivity|]. destruct c as [|i' c]; [reflexivity|].
  change (print_index (i :: i' :: c)) with (TInt i :: TText ", " :: print_index (i' :: c) : list (tok F)).
  rewrite IH. reflexivity.
Qed.

Lemma ofold_put : forall X (g : X -> stream F) body l s, (forall x s, In x l -> body x s = Done (s ++ g x)) ->
  ofold body l s = Done (s ++ flat_map g l).
Proof.
  intros X g body l. induction l as [|x l IH]; intros s H; cbn [ofold flat_map]; [now rewrite app_nil_r|].
  rewrite H by now left. cbn [obind]. rewrite IH by (intros; apply H; now right). now rewrite app_assoc.
Qed.

Lemma interior_good : forall M k, id_fits M k -> good_sub (grow 2 M ++ comp_box k) (M ++ comp_box k).
Proof.
  intros M k HF. pose proof (layer_good true M k 0 (ncomp k) HF) as G. pose proof (ncomp_pos M k HF).
  unfold layer, zone, spots in G. rewrite <- app_assoc in G. apply G; lia.
Qed.

Lemma print_one : forall fuel M k (u : fld) s, id_fits M k -> prod_len (M ++ comp_box k) <= Z.of_nat fuel ->
  let v := var_of k M u in
  liftr s (iface_indexer (ds_chunks (v_ds v)) (if_range (ds_chunks (v_ds v)))) (fun cix =>
            for_indexer fuel cix (fun cix s =>
              liftr s (iface_get (ds_chunks (v_ds v)) cix) (fun e =>
              liftr s (iface_indexer (ec_if e) (ec_internal e)) (fun ix =>
              for_indexer fuel ix (fun ix s =>
                let s' := put (TText "Index (" :: print_index (ix_idx ix)) s in
                liftr s' (iface_get (ec_if e) ix) (fun x =>
                Done (put [TText ") : "; TNum x; TText eol] s'))) s))) s) =
  Done (s ++ flat_map (print_line u) (cells (M ++ comp_box k))).
Proof.
  intros fuel M k u s HF HU. cbv zeta. pose proof HF as (HM & S2 & S3 & _). pose proof (one_cell_valid M HM) as V. pose proof (valid_self _ V) as G.
  unfold iface_indexer at 1. cbn [v_ds var_of ds_chunks dataset_of if_range].
  rewrite indexer_make_ok by assumption. cbn [liftr].
  assert (PP : 0 < prod_len (M ++ comp_box k)) by (apply prod_len_pos, nonempty_app; auto).
  rewrite for_indexer_cells by (auto; rewrite one_cell_prod; lia). rewrite one_cells. cbn [ofold].
  fold (ix_one M).
  assert (EG : iface_get (mkIface (range_of (one_cell M)) [echunk_of M (comp_box k) 2 u]) (ix_one M) = Ok (echunk_of M (comp_box k) 2 u)).
  { unfold iface_get. rewrite ix_one_lin. reflexivity. }
  rewrite EG. cbn [liftr]. unfold iface_indexer. cbn [ec_internal echunk_of].
  match goal with |- context [ec_if ?e] => change (ec_if e) with (iface_of (grow 2 M ++ comp_box k) u) end.
  cbn [if_range iface_of]. fold (iface_of (grow 2 M ++ comp_box k) u).
  pose proof (interior_good M k HF) as GI. rewrite indexer_make_ok by exact GI. cbn [liftr].
  rewrite for_indexer_cells by auto.
  rewrite (ofold_put _ (print_line u)); [reflexivity|].
  intros c s' Hc. apply in_cells in Hc. apply (box_incl_in _ _ _ (gs_incl _ _ GI)) in Hc.
  cbn [ix_at ix_idx].
  assert (E : iface_get (iface_of (grow 2 M ++ comp_box k) u) (ix_at (grow 2 M ++ comp_box k) (M ++ comp_box k) c) = Ok (u c)).
  { unfold iface_get. cbn [ix_at ix_lin]. apply elem_ok; auto. now apply shape_valid. }
  unfold ix_at in *. cbn [ix_idx] in *. cbn [iface_of] in *. rewrite E. cbn [liftr]. unfold put, print_line. rewrite print_index_eq, <- app_assoc. reflexivity.
Qed.

Lemma field_or_zero_snoc : forall (L : list (vid * fld)) k k', field_get L k = None -> field_or_zero (L ++ [(k, fun _ => f0)]) k' = field_or_zero L k'.
Proof.
  intros L k k' H. unfold field_or_zero. induction L as [|[a u] L IH]; cbn [app field_get] in *.
  - destruct (String.eqb (id_name k) (id_name k')); reflexivity.
  - destruct (String.eqb (id_name a) (id_name k')) eqn:E; [reflexivity|].
    destruct (String.eqb (id_name a) (id_name k)) eqn:E2; [discriminate|]. auto.
Qed.

Theorem print_ok : forall fuel ins (m : mgr F) M L s, mgr_holds m M L -> fields_ok M L -> compatible (ids L ++ ins) ->
  Forall (fun k => id_fits M k /\ prod_len (M ++ comp_box k) <= Z.of_nat fuel) ins ->
  exists m' L', print_solve fuel ins m s = Done (m', s ++ flat_map (print_section M) (asked L ins)) /\
    mgr_holds m' M L' /\ same_run m m' /\ (forall k, field_or_zero L' k = field_or_zero L k) /\
    (Forall (fun k => field_get L k <> None) ins -> m' = m).
Proof.
  intros fuel ins. induction ins as [|k ins IH]; intros m M L s HM HF HC HA.
  - exists m, L. cbn. rewrite app_nil_r. splits; auto. unfold same_run. auto.
  - inversion HA as [|? ? [HI HU] HA']; subst.
    destruct (api_request m M L k HM HF) as (m1 & L1 & n & E & HM1 & HF1 & SR & HN & HD); auto.
    { intros a b Ha Hb. apply HC; apply in_app_iff; [apply in_app_iff in Ha as [|[<-|[]]]|apply in_app_iff in Hb as [|[<-|[]]]]; cbn; auto. }
    cbn [print_solve]. rewrite E.
    assert (HC1 : compatible (ids L1 ++ k :: ins)).
    { destruct (field_get L k); [destruct HD as [_ ->]; auto|]. rewrite HD.
      intros a b Ha Hb. unfold ids in Ha, Hb. rewrite map_app in Ha, Hb. apply HC; rewrite !in_app_iff in *; cbn in *; tauto. }
    assert (HC2 : compatible (ids L1 ++ [k])).
    { intros a b Ha Hb. apply HC1; apply in_app_iff; [apply in_app_iff in Ha as [|[<-|[]]]|apply in_app_iff in Hb as [|[<-|[]]]]; cbn; auto. }
    assert (HG : field_get L1 k = Some (field_or_zero L k)).
    { unfold field_or_zero. destruct (field_get L k) as [u|] eqn:EG.
      - destruct HD as [_ ->]. exact EG.
      - subst L1. clear - EG. induction L as [|[a u] L IH]; cbn [app field_get] in *.
        + now rewrite String.eqb_refl.
        + destruct (String.eqb (id_name a) (id_name k)); [discriminate|auto]. }
    pose proof (api_input m1 M L1 k HM1 HF1 HC2) as HP. rewrite HG in HP. destruct HP as (n' & EI & HN').
    rewrite EI. cbn [bind].
    pose proof (proj1 (mgr_holds_iff m1 M L1 HF1) HM1) as [HR EM].
    assert (EV : var_at m1 n' = Ok (var_of k M (field_or_zero L k))) by (rewrite EM; eapply var_at_of; eauto).
    rewrite EV. cbn [liftr]. 
    pose proof (fun s => print_one fuel M k (field_or_zero L k) s HI HU) as EP. cbv zeta in EP. rewrite EP. clear EP.
    cbn [omap obind fst snd].
    destruct (IH m1 M L1 (put [TText "Printing Variable '"; TText (v_name (var_of k M (field_or_zero L k))); TText ("'" ++ eol)] s ++
        flat_map (print_line (field_or_zero L k)) (cells (M ++ comp_box k)))) as (m2 & L2 & E2 & HM2 & SR2 & HZ & HX); auto.
    { intros a b Ha Hb. apply HC1; apply in_app_iff; [apply in_app_iff in Ha as []|apply in_app_iff in Hb as []]; cbn; auto. }
    assert (Z1 : forall k', field_or_zero L1 k' = field_or_zero L k').
    { intros k'. destruct (field_get L k) as [u|] eqn:EG; [destruct HD as [_ ->]; reflexivity|]. subst L1. now apply field_or_zero_snoc. }
    exists m2, L2. splits; auto.
    + rewrite E2. f_equal. f_equal. cbn [asked map flat_map]. unfold print_section at 2. cbn [fst snd].
      assert (EA : asked L1 ins = asked L ins) by (unfold asked; apply map_ext; intros; now rewrite Z1).
      rewrite EA. unfold put. cbn [v_name var_of]. rewrite <- !app_assoc. reflexivity.
    + destruct SR as (R1 & R2 & R3). destruct SR2 as (R4 & R5 & R6). unfold same_run. now rewrite R4, R5, R6.
    + intros k'. now rewrite HZ.
    + intros HP. inversion HP as [|? ? HP1 HP2]; subst. destruct (field_get L k) as [u|] eqn:EG; [|congruence].
      destruct HD as [-> ->]. auto.
Qed.

End VtkFacts.
