(** * MgrFacts: canonical managers and chunk loops. *)
From Coq Require Import ZArith List String Lia Bool.
From Verif Require Import Base BaseFacts BoxSpec BoxFacts Range RangeSpec RangeFacts
  Indexer IndexerFacts Interface InterfaceFacts ApiSpec ApiFacts Arith Chunk FieldSpec FieldFacts ChunkFacts
  VarId Manager MgrSpec BCFacts.
Import ListNotations.
Open Scope Z_scope.

(** ** strings and ids *)

Lemma ltb_refl : forall s, String.ltb s s = false.
Proof.
  intros s. unfold String.ltb. assert (E : String.compare s s = Eq).
  { pose proof (String.compare_antisym s s) as H. destruct (String.compare s s); cbn in H; congruence. }
  now rewrite E.
Qed.

Lemma ltb_total : forall a b, a <> b -> String.ltb a b = negb (String.ltb b a).
Proof.
  intros a b H. unfold String.ltb. rewrite String.compare_antisym.
  destruct (String.compare b a) eqn:E; cbn; auto. apply String.compare_eq_iff in E. congruence.
Qed.

Lemma strings_eqb_refl : forall l, strings_eqb l l = true.
Proof. induction l; simpl; auto. now rewrite String.eqb_refl. Qed.
Lemma strings_eqb_eq : forall a b, strings_eqb a b = true <-> a = b.
Proof.
  induction a; intros [|y b]; simpl; split; intros H; try discriminate; auto.
  - apply andb_true_iff in H as [H1 H2]. apply String.eqb_eq in H1. apply IHa in H2. congruence.
  - inversion H; subst. rewrite String.eqb_refl. simpl. now apply IHa.
Qed.

Lemma basis_lt_refl : forall b, basis_lt b b = false.
Proof. intros. unfold basis_lt. rewrite ltb_refl. apply Z.ltb_irrefl. Qed.

Lemma vid_lt_refl : forall k, vid_lt k k = Ok false.
Proof. intros. unfold vid_lt. rewrite !ltb_refl, strings_eqb_refl. simpl. now rewrite basis_lt_refl. Qed.

Lemma vid_lt_names : forall a b, id_name a <> id_name b ->
  vid_lt a b = Ok (String.ltb (id_name a) (id_name b)).
Proof.
  intros a b H. unfold vid_lt. destruct (String.ltb (id_name a) (id_name b)) eqn:E; auto.
  rewrite (ltb_total (id_name b) (id_name a)), E by congruence. reflexivity.
Qed.

Section Mgr.
Context {F : Type} {A : Arith F}.
Notation fld := (field F).

(** ** canonical objects *)

Definition dataset_of (k : vid) (M : box) (u : fld) : dataset F :=
  mkDataset (mkIface (range_of (one_cell M)) [echunk_of M (comp_box k) 2 u]) (id_basis k)
    (range_of (comp_box k)) (range_of M) (range_of M) (range_of (one_cell M)).
Definition var_of (k : vid) (M : box) (u : fld) : variable F := mkVar (dataset_of k M u) (id_name k) (id_comps k).
Definition vars_of (M : box) (L : list (vid * fld)) : list (vid * variable F) :=
  map (fun ku => (fst ku, var_of (fst ku) M (snd ku))) L.
Definition mgr_of (gr : grid F) (M : box) (L : list (vid * fld)) (dt t : option F) : mgr F :=
  mkMgr gr (vars_of M L) dt t.

Lemma var_holds_iff : forall v k M u, id_fits M k -> (var_holds v k M u <-> v = var_of k M u).
Proof.
  intros v k M u S. unfold var_holds. split.
  - intros (H1 & H2 & H3 & H4 & H5 & H6 & H7 & H8 & e & H9 & H10).
    destruct v as [[[r l] b c gm lm ly] nm cs]. cbn in *. apply observes_iff in H4, H5, H6, H7, H8.
    apply chunk_holds_iff in H10; auto. subst. reflexivity.
  - intros ->. splits; try reflexivity; try apply observes_range_of.
    eexists. split; [reflexivity|]. now apply chunk_holds_iff.
Qed.

Lemma mgr_holds_iff : forall m M L, fields_ok M L ->
  (mgr_holds m M L <-> gr_range (mg_grid m) = range_of M /\ m = mgr_of (mg_grid m) M L (mg_dt m) (mg_time m)).
Proof.
  intros m M L [_ Hf]. unfold mgr_holds. rewrite observes_iff. split.
  - intros [H1 H2]. split; auto. destruct m as [gr vs dt t]. unfold mgr_of. cbn in *. f_equal.
    clear H1. revert Hf. induction H2 as [|[k v] [k' u] vs L [E1 E2] H2 IH]; intros Hf; [reflexivity|].
    cbn in *. inversion Hf; subst. apply var_holds_iff in E2; auto. subst. f_equal. auto.
  - intros [H1 H2]. split; auto. rewrite H2. cbn. clear H1 H2 m.
    induction L as [|[k u] L IH]; cbn; constructor; cbn; inversion Hf; subst.
    + split; auto. now apply var_holds_iff.
    + now apply IH.
Qed.

(** ** lookups *)

Fixpoint idx (L : list (vid * fld)) (k : vid) : option nat :=
  match L with
  | [] => None
  | (k', _) :: L' =>
      if String.eqb (id_name k') (id_name k) then Some 0%nat
      else match idx L' k with Some n => Some (S n) | None => None end
  end.

Definition fitting (L : list (vid * fld)) (k : vid) : Prop :=
  forall k', In k' (ids L) -> id_name k' = id_name k -> k' = k.

Lemma map_find_ok : forall M L k, fitting L k -> map_find (vars_of M L) k = Ok (idx L k).
Proof.
  intros M L k. induction L as [|[k' u] L IH]; intros H; [reflexivity|]. cbn [vars_of map map_find fst snd idx].
  destruct (String.eqb_spec (id_name k') (id_name k)) as [E|E].
  - assert (k' = k) by (apply H; auto; now left). subst. rewrite vid_lt_refl. reflexivity.
  - rewrite !vid_lt_names by congruence. cbn [bind]. rewrite (ltb_total (id_name k) (id_name k')) by congruence.
    fold (vars_of M L). rewrite IH by (intros x Hx; apply H; now right).
    destruct (String.ltb (id_name k') (id_name k)); cbn; destruct (idx L k); reflexivity.
Qed.

Lemma idx_some : forall L k n, fitting L k -> idx L k = Some n ->
  exists u, nth_error L n = Some (k, u) /\ field_get L k = Some u.
Proof.
  intros L k. induction L as [|[k' u] L IH]; intros n H E; [discriminate|]. cbn [idx field_get] in *.
  destruct (String.eqb_spec (id_name k') (id_name k)) as [E1|E1].
  - inversion E; subst. assert (k' = k) by (apply H; auto; now left). subst. exists u. auto.
  - destruct (idx L k) as [n'|] eqn:E2; [|discriminate]. inversion E; subst.
    destruct (IH n') as (u' & H1 & H2); auto. { intros x Hx. apply H. now right. } exists u'. auto.
Qed.
Lemma idx_none : forall L k, idx L k = None -> field_get L k = None /\ ~ In (id_name k) (map id_name (ids L)).
Proof.
  intros L k. induction L as [|[k' u] L IH]; intros E; [split; [reflexivity|intros []]|]. cbn [idx field_get ids map fst] in *.
  destruct (String.eqb_spec (id_name k') (id_name k)) as [E1|E1]; [discriminate|].
  destruct (idx L k) eqn:E2; [discriminate|]. destruct IH as [H1 H2]; auto. split; auto.
  intros [H|H]; [congruence|]. now apply H2.
Qed.

Lemma set_existing : forall L k n u v, fitting L k -> idx L k = Some n -> nth_error L n = Some (k, u) ->
  field_set L k v = upd L n (k, v).
Proof.
  intros L k. induction L as [|[k' u'] L IH]; intros n u v H E N; [discriminate|]. cbn [idx field_set] in *.
  destruct (String.eqb_spec (id_name k') (id_name k)) as [E1|E1].
  - inversion E; subst. assert (k' = k) by (apply H; auto; now left). subst. reflexivity.
  - destruct (idx L k) as [n'|] eqn:E2; [|discriminate]. inversion E; subst. cbn [upd]. f_equal.
    eapply IH; eauto. intros x Hx. apply H. now right.
Qed.
Lemma set_new : forall L k v, idx L k = None -> field_set L k v = L ++ [(k, v)].
Proof.
  intros L k v. induction L as [|[k' u'] L IH]; intros E; [reflexivity|]. cbn [idx field_set app] in *.
  destruct (String.eqb_spec (id_name k') (id_name k)) as [E1|E1]; [discriminate|].
  destruct (idx L k) eqn:E2; [discriminate|]. f_equal. auto.
Qed.

Lemma idx_new : forall L k u, idx L k = None -> idx (L ++ [(k, u)]) k = Some (List.length L).
Proof.
  intros L k u. induction L as [|[k' u'] L IH]; intros E; cbn [idx app List.length] in *.
  - now rewrite String.eqb_refl.
  - destruct (String.eqb_spec (id_name k') (id_name k)) as [E1|E1]; [discriminate|].
    destruct (idx L k) eqn:E2; [discriminate|]. now rewrite IH.
Qed.

Lemma field_get_set_same : forall (L : list (vid * fld)) k u, field_get (field_set L k u) k = Some u.
Proof.
  intros L k u. induction L as [|[k' u'] L IH]; cbn [field_set field_get].
  - now rewrite String.eqb_refl.
  - destruct (String.eqb (id_name k') (id_name k)) eqn:E; cbn [field_get]; rewrite E; auto.
Qed.
Lemma field_get_set_other : forall (L : list (vid * fld)) k k' u, id_name k <> id_name k' ->
  field_get (field_set L k u) k' = field_get L k'.
Proof.
  intros L k k' u H. induction L as [|[k0 u0] L IH]; cbn [field_set field_get].
  - destruct (String.eqb_spec (id_name k) (id_name k')); congruence.
  - destruct (String.eqb_spec (id_name k0) (id_name k)) as [E|E]; cbn [field_get].
    + destruct (String.eqb_spec (id_name k0) (id_name k')); congruence.
    + destruct (String.eqb (id_name k0) (id_name k')); auto.
Qed.

Lemma ids_set : forall (L : list (vid * fld)) k u,
  ids (field_set L k u) = if in_dec string_dec (id_name k) (map id_name (ids L)) then ids L else ids L ++ [k].
Proof.
  intros L k u. induction L as [|[k0 u0] L IH]; cbn [field_set ids map fst app] in *.
  - destruct (in_dec _ _ _) as [[]|]; reflexivity.
  - destruct (String.eqb_spec (id_name k0) (id_name k)) as [E|E]; cbn [map fst].
    + destruct (in_dec string_dec (id_name k) (id_name k0 :: map id_name (map fst L))) as [|n]; [reflexivity|].
      exfalso. apply n. now left.
    + unfold ids in IH. rewrite IH.
      destruct (in_dec string_dec (id_name k) (map id_name (map fst L))) as [i|i];
      destruct (in_dec string_dec (id_name k) (id_name k0 :: map id_name (map fst L))) as [j|j]; auto.
      * exfalso. apply j. now right.
      * destruct j as [j|j]; [congruence|]. now exfalso.
Qed.

Lemma fields_ok_set : forall M (L : list (vid * fld)) k u, fields_ok M L -> id_fits M k -> fields_ok M (field_set L k u).
Proof.
  intros M L k u [H1 H2] Hk. unfold fields_ok. rewrite ids_set. destruct (in_dec _ _ _) as [i|i]; [auto|].
  split.
  - rewrite map_app. cbn. apply NoDup_app_intro; auto.
    + constructor; [intros []|constructor].
    + intros x Hx [<-|[]]. tauto.
  - apply Forall_app. auto.
Qed.

Lemma fitting_set : forall L k k' u, fitting L k' -> (id_name k = id_name k' -> k = k') -> fitting (field_set L k u) k'.
Proof.
  intros L k k' u H Hk x Hx. rewrite ids_set in Hx. destruct (in_dec _ _ _) as [i|i]; [now apply H|].
  apply in_app_iff in Hx as [Hx|[<-|[]]]; auto.
Qed.

(** ** constructing variables *)

Lemma one_cell_repeat : forall M, one_cell M = repeat (0, 1) (List.length M).
Proof. induction M; simpl; auto. now rewrite <- IHM. Qed.
Lemma one_cell_len : forall M, List.length (one_cell M) = List.length M.
Proof. intros. apply map_length. Qed.
Lemma one_cell_prod : forall M, prod_len (one_cell M) = 1.
Proof. induction M; cbn [one_cell map prod_len]; auto. fold (one_cell M). rewrite IHM. lia. Qed.
Lemma one_cell_nonempty : forall M, nonempty (one_cell M).
Proof. induction M; constructor; auto. simpl. lia. Qed.
Lemma one_cell_valid : forall M, M <> [] -> valid_box (one_cell M).
Proof.
  intros M H. unfold valid_box. splits.
  - destruct M; [congruence|discriminate].
  - apply one_cell_nonempty.
  - rewrite one_cell_prod. unfold int_max. lia.
  - clear H. induction M; constructor; auto. split; unfold is_int, int_min, int_max; cbn; lia.
Qed.

Lemma extrude_unit_ok : forall n (p : box), nonempty p -> prod_len p = 1 ->
  Z.of_nat (List.length p + n) < int_max ->
  extrude_unit n (range_of p) = Ok (range_of (p ++ repeat (0, 1) n)).
Proof.
  induction n as [|n IH]; intros p Hn Hp Hl; cbn [extrude_unit repeat].
  - now rewrite app_nil_r.
  - assert (N : nonempty (p ++ [(0, 1)])) by (apply nonempty_app; split; auto; constructor; [cbn; lia|constructor]).
    assert (P : prod_len (p ++ [(0, 1)]) = 1) by (rewrite prod_len_app, Hp; reflexivity).
    rewrite range_extrude_ok.
    + cbn [bind]. rewrite IH; auto.
      * now rewrite <- app_assoc.
      * rewrite app_length. cbn [List.length]. lia.
    + unfold is_int, int_min, int_max in *. lia.
    + apply fit_strides, nonempty_fit; auto. rewrite P. unfold int_max. lia.
Qed.

Lemma dataset_new_ok : forall M k, id_fits M k ->
  dataset_new (range_of M) (id_basis k) (Z.of_nat (List.length (id_comps k))) 2 = Ok (dataset_of k M (fun _ => f0)).
Proof.
  intros M k S. pose proof (shape_valid _ _ _ S) as (V1 & V2 & V3 & V4). pose proof S as (S1 & S2 & S3 & S4 & S5 & S6 & S7).
  unfold id_fits in S. set (np := bs_points (id_basis k)) in *. set (nc := Z.of_nat (List.length (id_comps k))) in *.
  assert (SM : shorter M (grow 2 M)) by (now apply shorter_grow).
  assert (NG : nonempty (grow 2 M)) by (now apply nonempty_grow).
  assert (PG : prod_len (grow 2 M) <= int_max) by (pose proof (prod_app_le _ _ V2); lia).
  assert (FM : fit M) by (eapply shorter_fit; eauto).
  unfold dataset_new. rewrite range_copy_of by (now apply fit_strides). cbn [bind].
  change range_empty with (range_of []). unfold dataset_of, comp_box in *. fold np nc. fold np nc in S3, V2, V3, V4, S5, S6, S7.
  assert (ND : 0 < np /\ 0 < nc).
  { inversion S3 as [|? ? N1 N2]; subst. inversion N2; subst. simpl in *. lia. }
  assert (PD : np * nc <= int_max).
  { pose proof (prod_app_le_r _ _ V2) as P. cbn [prod_len] in P. rewrite !Z.sub_0_r, Z.mul_1_r in P. lia. }
  rewrite (range_extrude_ok [] 0 np).
  2:{ unfold is_int, int_min, int_max; cbn; lia. }
  2:{ cbn. auto. }
  cbn [bind app]. rewrite (range_extrude_ok [(0, np)] 0 nc).
  2:{ unfold is_int, int_min, int_max; cbn; lia. }
  2:{ cbn [app strides_fit prod_len]. unfold is_int, int_min, int_max in *. rewrite !Z.sub_0_r, Z.mul_1_r. splits; auto; nia. }
  cbn [bind app]. rewrite range_volume_fit by apply FM. cbn [bind]. rewrite box_volume_pos by assumption.
  pose proof (prod_len_pos _ S2). destruct (Z.ltb_spec 0 (prod_len M)); [|lia].
  change (r_nd (range_of M)) with (Z.of_nat (List.length M)). rewrite Nat2Z.id.
  rewrite range_copy_of by (now apply fit_strides). cbn [bind].
  assert (LM : Z.of_nat (List.length M) < int_max) by (rewrite app_length in S7; lia).
  rewrite (extrude_unit_ok (List.length M) []) by (auto; constructor). cbn [app bind]. rewrite <- one_cell_repeat.
  pose proof (one_cell_valid M S1) as OV.
  assert (OF : fit (one_cell M)) by (now apply valid_fit).
  rewrite range_copy_of by (now apply fit_strides). cbn [bind].
  destruct (resize_ok (echunk F) echunk_default (mkIface (range_of []) []) (one_cell M)) as (i & E & Hok & Hd);
    try apply OV.
  rewrite E. rewrite one_cell_prod in Hd. cbn [if_data] in Hd. change (Z.to_nat 1) with 1%nat in Hd. cbn [firstn List.length app repeat Nat.sub] in Hd.
  rewrite Hd. change (vget [echunk_default] 0) with (Ok (@echunk_default F)). cbn [bind].
  pose proof (echunk_resize_fresh (F := F) echunk_default M [(0, np); (0, nc)] 2 S eq_refl) as ER.
  rewrite ER. cbn [vset bind Z.ltb Z.leb Z.compare].
  rewrite (io_range _ _ Hok). reflexivity.
Qed.

Lemma variable_new_ok : forall M k, id_fits M k ->
  variable_new (id_name k) (id_comps k) (id_basis k) (range_of M) 2 = Ok (var_of k M (fun _ => f0)).
Proof. intros M k H. unfold variable_new. rewrite dataset_new_ok by assumption. reflexivity. Qed.

(** ** with_output *)

Lemma with_output_ok : forall gr M L dt t k f, gr_range gr = range_of M -> fitting L k -> id_fits M k ->
  with_output (mgr_of gr M L dt t) k f =
  match idx L k with
  | Some n => f n (mgr_of gr M L dt t)
  | None => f (List.length L) (mgr_of gr M (L ++ [(k, fun _ => f0)]) dt t)
  end.
Proof.
  intros gr M L dt t k f Hg Hk Hf. unfold with_output. cbn [mg_vars mgr_of]. rewrite map_find_ok by assumption.
  cbn [liftr]. destruct (idx L k) as [n|] eqn:E; [reflexivity|].
  unfold add_variable. cbn [mg_vars mgr_of]. rewrite map_find_ok by assumption. cbn [liftr]. rewrite E.
  cbn [mg_grid mgr_of]. rewrite Hg. rewrite variable_new_ok by assumption. cbn [liftr obind mg_vars mg_grid mg_dt mg_time mgr_of].
  replace (vars_of M L ++ [(k, var_of k M (fun _ => f0))]) with (vars_of M (L ++ [(k, fun _ => f0)]))
    by (unfold vars_of; now rewrite map_app).
  rewrite map_find_ok.
  - cbn [liftr]. rewrite idx_new by assumption. reflexivity.
  - intros x Hx. unfold ids in Hx. rewrite map_app in Hx. apply in_app_iff in Hx as [Hx|[<-|[]]]; auto.
Qed.

(** ** chunk loops *)

Lemma one_cells : forall M, cells (one_cell M) = [map (fun _ => 0) M].
Proof.
  induction M; [reflexivity|]. cbn [one_cell map cells]. fold (one_cell M). rewrite IHM. reflexivity.
Qed.
Lemma one_first : forall M, first_cell (one_cell M) = map (fun _ => 0) M.
Proof. intros. unfold first_cell, one_cell. now rewrite map_map. Qed.
Lemma one_offset : forall M, offset (one_cell M) (map (fun _ => 0) M) = 0.
Proof. induction M; cbn [one_cell map offset]; auto. Qed.

Definition ix_one (M : box) : indexer := ix_at (one_cell M) (one_cell M) (map (fun _ => 0) M).

Lemma ix_one_lin : forall M, ix_lin (ix_one M) = 0.
Proof. intros. unfold ix_one. cbn. apply one_offset. Qed.

Lemma var_at_of : forall gr M L dt t n k u, nth_error L n = Some (k, u) ->
  var_at (mgr_of gr M L dt t) n = Ok (var_of k M u).
Proof. intros. unfold var_at, mgr_of, vars_of. cbn [mg_vars]. now rewrite nth_error_map, H. Qed.

Lemma for_chunks_ok : forall fuel gr M L dt t n k u body, M <> [] -> (1 <= fuel)%nat ->
  nth_error L n = Some (k, u) ->
  for_chunks fuel n body (mgr_of gr M L dt t) = obind (body (ix_one M) (mgr_of gr M L dt t)) Done.
Proof.
  intros fuel gr M L dt t n k u body HM Hf HN. unfold for_chunks. rewrite (var_at_of _ _ _ _ _ _ _ _ HN).
  cbn [bind]. unfold iface_indexer. cbn [v_ds var_of ds_chunks dataset_of if_range].
  pose proof (one_cell_valid M HM) as V. pose proof (valid_self _ V) as G.
  rewrite indexer_make_ok by assumption. cbn [liftr].
  rewrite for_indexer_cells.
  - rewrite one_cells. cbn [ofold]. reflexivity.
  - assumption.
  - rewrite one_cell_prod. lia.
Qed.

Lemma get_chunk_ok : forall gr M L dt t n k u, nth_error L n = Some (k, u) ->
  get_chunk (mgr_of gr M L dt t) n (ix_one M) = Ok (echunk_of M (comp_box k) 2 u).
Proof.
  intros. unfold get_chunk. rewrite (var_at_of _ _ _ _ _ _ _ _ H). cbn [bind]. unfold iface_get.
  rewrite ix_one_lin. reflexivity.
Qed.

Lemma upd_map : forall X Y (f : X -> Y) l n x, map f (upd l n x) = upd (map f l) n (f x).
Proof. induction l; intros [|n] x; simpl; auto. f_equal. auto. Qed.

Lemma put_chunk_ok : forall gr M L dt t n k u v, nth_error L n = Some (k, u) ->
  put_chunk (mgr_of gr M L dt t) n (ix_one M) (echunk_of M (comp_box k) 2 v) = Ok (mgr_of gr M (upd L n (k, v)) dt t).
Proof.
  intros. unfold put_chunk. rewrite (var_at_of _ _ _ _ _ _ _ _ H). cbn [bind]. unfold iface_put.
  rewrite ix_one_lin. cbn [v_ds var_of ds_chunks dataset_of if_data].
  rewrite vset_ok by (cbn; lia). cbn [bind]. unfold set_chunks, mgr_of. cbn [mg_vars].
  unfold vars_of. rewrite nth_error_map, H. cbn [option_map fst snd mg_grid mg_dt mg_time]. rewrite upd_map. reflexivity.
Qed.

Lemma map_chunks_ok : forall fuel gr M L dt t n k u v f, M <> [] -> (1 <= fuel)%nat ->
  nth_error L n = Some (k, u) ->
  f (echunk_of M (comp_box k) 2 u) = Done (echunk_of M (comp_box k) 2 v) ->
  map_chunks fuel n f (mgr_of gr M L dt t) = Done (mgr_of gr M (upd L n (k, v)) dt t).
Proof.
  intros. unfold map_chunks. rewrite (for_chunks_ok _ _ _ _ _ _ _ _ _ _ H H0 H1).
  rewrite (get_chunk_ok _ _ _ _ _ _ _ _ H1). cbn [liftr]. rewrite H2.
  rewrite (put_chunk_ok _ _ _ _ _ _ _ _ _ H1). reflexivity.
Qed.

(** ** solvers that transform each output variable *)

Definition apply_to (T : vid -> fld -> fld) (L : list (vid * fld)) (k : vid) : list (vid * fld) :=
  field_set L k (T k (field_or_zero L k)).

Lemma upd_snoc : forall X (l : list X) x y, upd (l ++ [x]) (List.length l) y = l ++ [y].
Proof. intros. apply upd_mid. Qed.

Lemma each_output_step : forall fuel gr M L dt t k f T, gr_range gr = range_of M -> M <> [] -> (1 <= fuel)%nat ->
  fitting L k -> id_fits M k ->
  (forall u, f (echunk_of M (comp_box k) 2 u) = Done (echunk_of M (comp_box k) 2 (T k u))) ->
  with_output (mgr_of gr M L dt t) k (fun n m => map_chunks fuel n f m) = Done (mgr_of gr M (apply_to T L k) dt t).
Proof.
  intros fuel gr M L dt t k f T Hg HM Hfu Hk Hf HT. rewrite with_output_ok by assumption.
  unfold apply_to, field_or_zero. destruct (idx L k) as [n|] eqn:E.
  - destruct (idx_some _ _ _ Hk E) as (u & H1 & H2). rewrite H2. rewrite (set_existing _ _ _ _ _ Hk E H1).
    apply (map_chunks_ok fuel gr M L dt t n k u); auto.
  - destruct (idx_none _ _ E) as [H1 H2]. rewrite H1, set_new by assumption. rewrite <- (upd_snoc _ L (k, fun _ => f0) (k, T k (fun _ => f0))).
    apply (map_chunks_ok fuel gr M _ dt t _ k (fun _ => f0)); auto.
    rewrite nth_error_app2 by lia. now rewrite Nat.sub_diag.
Qed.

Lemma each_output_ok : forall fuel gr M f T outs L dt t, gr_range gr = range_of M -> M <> [] -> (1 <= fuel)%nat ->
  compatible (ids L ++ outs) -> Forall (id_fits M) outs ->
  (forall k u, In k outs -> f (echunk_of M (comp_box k) 2 u) = Done (echunk_of M (comp_box k) 2 (T k u))) ->
  ofold (fun id m => with_output m id (fun n m => map_chunks fuel n f m)) outs (mgr_of gr M L dt t) =
  Done (mgr_of gr M (fold_left (apply_to T) outs L) dt t).
Proof.
  intros fuel gr M f T outs. induction outs as [|k outs IH]; intros L dt t Hg HM Hfu Hc Hf HT; [reflexivity|].
  cbn [ofold fold_left]. inversion Hf; subst.
  rewrite (each_output_step fuel gr M L dt t k f T); auto.
  - cbn [obind]. apply IH; auto.
    + intros a b Ha Hb. apply Hc; unfold apply_to in *; rewrite in_app_iff in *; cbn.
      * destruct Ha as [Ha|Ha]; [|tauto]. rewrite ids_set in Ha. destruct (in_dec _ _ _); [tauto|]. rewrite in_app_iff in Ha. cbn in Ha. tauto.
      * destruct Hb as [Hb|Hb]; [|tauto]. rewrite ids_set in Hb. destruct (in_dec _ _ _); [tauto|]. rewrite in_app_iff in Hb. cbn in Hb. tauto.
    + intros k' u Hk'. apply HT. now right.
  - intros k' Hk' E. apply Hc; auto; rewrite in_app_iff; cbn; tauto.
  - intros u. apply HT. now left.
Qed.

(** Contents after a list of transformations. *)
Lemma fold_apply_other : forall T outs (L : list (vid * fld)) k, ~ In (id_name k) (map id_name outs) ->
  field_get (fold_left (apply_to T) outs L) k = field_get L k.
Proof.
  intros T outs. induction outs as [|o outs IH]; intros L k H; [reflexivity|]. cbn [fold_left].
  rewrite IH by (intros Hx; apply H; now right). unfold apply_to. apply field_get_set_other.
  intros E. apply H. left. congruence.
Qed.

Lemma fields_ok_fold : forall M T outs (L : list (vid * fld)), fields_ok M L -> Forall (id_fits M) outs ->
  fields_ok M (fold_left (apply_to T) outs L).
Proof.
  intros M T outs. induction outs as [|o outs IH]; intros L H Hf; [assumption|]. cbn [fold_left]. inversion Hf; subst.
  apply IH; auto. unfold apply_to. now apply fields_ok_set.
Qed.

End Mgr.
