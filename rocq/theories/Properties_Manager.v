(** * Properties of the variable manager, ids, swap and fill (C24 - C29). *)
From Coq Require Import ZArith List String Lia Bool Floats.SpecFloat.
From Verif Require Import Base BaseFacts BoxSpec BoxFacts Range RangeSpec RangeFacts Indexer Interface
  InterfaceFacts ApiSpec ApiFacts Arith ArithFloat Chunk FieldSpec FieldFacts ChunkFacts Properties_Chunk
  VarId VarIdFacts Manager MgrSpec MgrFacts Solvers SolverFacts.
Import ListNotations.
Open Scope Z_scope.

(** ** examples used below *)

Definition q : vid := mkVid "q" (["rho"; "p"]%string) volume_average.
Definition w : vid := mkVid "w" (["a"; "b"]%string) volume_average.
Definition s1 : vid := mkVid "s" (["one"]%string) volume_average.
Definition mesh : box := [(0, 2)].
Definition demo_grid : grid spec_float := mkGrid (range_of mesh) [dbl 0] [dbl 1] [dbl 1].
Definition empty : mgr spec_float := mgr_new demo_grid.
(** Contents of a manager: name and elements of every variable. *)
Definition contents (m : mgr spec_float) : list (string * list (list spec_float)) :=
  map (fun kv => (v_name (snd kv), map (fun e => if_data (ec_if e)) (if_data (ds_chunks (v_ds (snd kv)))))) (mg_vars m).
Definition contents_out (x : out (mgr spec_float)) : option (list (string * list (list spec_float))) :=
  match x with Done m => Some (contents m) | _ => None end.

Lemma q_fits : id_fits mesh q. Proof. apply shapeb_ok; vm_compute; reflexivity. Qed.
Lemma w_fits : id_fits mesh w. Proof. apply shapeb_ok; vm_compute; reflexivity. Qed.
Lemma s1_fits : id_fits mesh s1. Proof. apply shapeb_ok; vm_compute; reflexivity. Qed.
Lemma empty_holds : mgr_holds empty mesh [] /\ fields_ok mesh ([] : list (vid * field spec_float)).
Proof. split; [split; [apply observes_iff; reflexivity|constructor]|]. split; constructor. Qed.
Lemma qw_compatible : compatible [q; w; s1].
Proof. intros a b [<-|[<-|[<-|[]]]] [<-|[<-|[<-|[]]]]; cbn; intros H; congruence. Qed.

(** ** C24 *)

(** Requesting an output variable hands out the stored variable if there is one
    (the manager is unchanged), otherwise a new one with zeros; all other
    variables keep id and contents. *)
Theorem C24_request : forall F (A : Arith F) (m : mgr F) M L k,
  mgr_holds m M L -> fields_ok M L -> compatible (ids L ++ [k]) -> id_fits M k ->
  exists m' L' n, (forall f, with_output m k f = f n m') /\ mgr_holds m' M L' /\ fields_ok M L' /\ same_run m m' /\
    nth_error L' n = Some (k, field_or_zero L k) /\
    match field_get L k with
    | Some _ => m' = m /\ L' = L
    | None => L' = L ++ [(k, fun _ => f0)]
    end.
Proof. exact @api_request. Qed.
Print Assumptions C24_request.

(** Any sequence of requests. *)
Theorem C24_history : forall F (A : Arith F) outs (m : mgr F) M L,
  mgr_holds m M L -> fields_ok M L -> compatible (ids L ++ outs) -> Forall (id_fits M) outs ->
  exists m' L', ofold (fun k m => with_output m k (fun _ m1 => Done m1)) outs m = Done m' /\
    mgr_holds m' M L' /\ fields_ok M L' /\ same_run m m' /\
    (exists L2, L' = L ++ L2) /\
    (forall k, In k outs -> field_get L' k = Some (field_or_zero L k)) /\
    (forall k, ~ In (id_name k) (map id_name outs) -> field_get L' k = field_get L k).
Proof. exact @api_history. Qed.
Print Assumptions C24_history.

(** add_variable throws exactly when the variable exists, and then changes
    nothing. *)
Theorem C24_add_variable : forall F (A : Arith F) (m : mgr F) M L k,
  mgr_holds m M L -> fields_ok M L -> compatible (ids L ++ [k]) -> id_fits M k ->
  match field_get L k with
  | Some _ => add_variable m k = Threw "qk::variable::variable_manager::add_variable : Variable already exists." m
  | None => exists m', add_variable m k = Done m' /\ mgr_holds m' M (L ++ [(k, fun _ => f0)]) /\ same_run m m'
  end.
Proof. exact @api_add_variable. Qed.
Print Assumptions C24_add_variable.

(** An id with the name of a stored one but other components is rejected by
    every request, without any change. *)
Theorem C24_mismatch : forall F (A : Arith F) (m : mgr F) M L k k',
  mgr_holds m M L -> fields_ok M L -> In k' (ids L) -> id_name k' = id_name k -> id_comps k' <> id_comps k ->
  let msg := "qk::variable::variable_id::operator < : Shared variable name, but component mismatch."%string in
  (forall f, with_output m k f = Threw msg m) /\ input_variable m k = Exn msg /\
  add_variable m k = Threw msg m.
Proof. exact @api_mismatch. Qed.
Print Assumptions C24_mismatch.

Example C24_ex :
  contents_out (ofold (fun k m => with_output m k (fun _ m1 => Done m1)) [q; s1; q] empty) =
  Some [("q"%string, [repeat (dbl 0) 12]); ("s"%string, [repeat (dbl 0) 6])] /\
  mgr_holds empty mesh [] /\ compatible [q; s1; q] /\ Forall (id_fits mesh) [q; s1; q].
Proof.
  split; [vm_compute; reflexivity|]. split; [apply empty_holds|]. split.
  - intros a b [<-|[<-|[<-|[]]]] [<-|[<-|[<-|[]]]]; cbn; intros H; congruence.
  - repeat (constructor; [first [exact q_fits|exact s1_fits]|]). constructor.
Qed.
Example C24_mismatch_ex :
  match add_variable empty q with
  | Done m => forall f, with_output m (mkVid "q" (["x"]%string) volume_average) f = Threw mismatch_msg m
  | _ => False
  end.
Proof. vm_compute. reflexivity. Qed.

(** ** C25 *)

(** An existing input variable is found. *)
Theorem C25_present : forall F (m : mgr F) M L k u,
  mgr_holds m M L -> fields_ok M L -> compatible (ids L ++ [k]) -> field_get L k = Some u ->
  exists n, input_variable m k = Ok n /\ nth_error L n = Some (k, u).
Proof. intros F m M L k u H1 H2 H3 H4. pose proof (api_input m M L k H1 H2 H3) as H. now rewrite H4 in H. Qed.
Print Assumptions C25_present.

(** Refuted: a missing one is not reported, the end iterator is dereferenced. *)
Theorem C25_missing_input_refuted : forall F (m : mgr F) M L k,
  mgr_holds m M L -> fields_ok M L -> compatible (ids L ++ [k]) -> field_get L k = None ->
  input_variable m k = UB EndDeref.
Proof. intros F m M L k H1 H2 H3 H4. pose proof (api_input m M L k H1 H2 H3) as H. now rewrite H4 in H. Qed.
Print Assumptions C25_missing_input_refuted.

Example C25_ex : input_variable empty q = UB EndDeref /\
  match add_variable empty q with Done m => input_variable m q = Ok 0%nat /\ input_variable m w = UB EndDeref | _ => False end.
Proof. split; [reflexivity|]. vm_compute. auto. Qed.

(** ** C26 *)

(** Ids of bases with one name (so that bases differ in the number of points at
    most): comparison is total, irreflexive, transitive, and neither-before is
    equality.  Partial: ids whose bases have different names, refuted below. *)
Theorem C26_order_partial : forall ks,
  (forall a b, In a ks -> In b ks -> id_name a = id_name b -> id_comps a = id_comps b) ->
  (forall a b, In a ks -> In b ks -> bs_name (id_basis a) = bs_name (id_basis b)) ->
  (forall a b, In a ks -> In b ks -> exists x y, vid_lt a b = Ok x /\ vid_eqb a b = Ok y) /\
  (forall a, In a ks -> vid_lt a a <> Ok true) /\
  (forall a b c, In a ks -> In b ks -> In c ks -> vid_lt a b = Ok true -> vid_lt b c = Ok true -> vid_lt a c = Ok true) /\
  (forall a b, In a ks -> In b ks -> ((vid_lt a b <> Ok true /\ vid_lt b a <> Ok true) <-> vid_eqb a b = Ok true)).
Proof.
  intros ks Hc Hb. split; [|split; [|split]].
  - apply (order_total ks Hc).
  - apply (order_irrefl ks Hc Hb).
  - apply (order_trans ks Hc Hb).
  - apply (order_equiv ks Hc Hb).
Qed.
Print Assumptions C26_order_partial.

(** Equality of ids is equality of name and basis, and (by the mismatch
    exception) of the components. *)
Theorem C26_equality : forall a b, vid_eqb a b = Ok true <-> a = b.
Proof.
  intros [n1 c1 [bn1 p1]] [n2 c2 [bn2 p2]]. unfold vid_eqb, basis_eqb. cbn. split.
  - destruct (String.eqb_spec n1 n2) as [->|]; cbn; [|discriminate].
    destruct (strings_eqb c1 c2) eqn:E; cbn; [|discriminate]. apply strings_eqb_eq in E. subst.
    destruct (String.eqb_spec bn1 bn2) as [->|]; cbn; [|discriminate].
    destruct (Z.eqb_spec p1 p2) as [->|]; [reflexivity|discriminate].
  - intros E. inversion E; subst. now rewrite !String.eqb_refl, strings_eqb_refl, Z.eqb_refl.
Qed.
Print Assumptions C26_equality.

(** Ids with one name and different components are neither ordered nor
    compared: both comparisons throw. *)
Theorem C26_mismatch : forall a b, id_name a = id_name b -> id_comps a <> id_comps b ->
  let msg := "qk::variable::variable_id::operator < : Shared variable name, but component mismatch."%string in
  vid_lt a b = Exn msg /\ vid_eqb a b = Exn msg.
Proof.
  intros a b Hn Hc msg. unfold vid_lt, vid_eqb. rewrite Hn, String.eqb_refl.
  assert (L : String.ltb (id_name b) (id_name b) = false).
  { unfold String.ltb. generalize (id_name b). intros s. induction s as [|c s IH]; [reflexivity|].
    cbn. unfold Ascii.compare. now rewrite N.compare_refl. }
  rewrite L. destruct (strings_eqb (id_comps a) (id_comps b)) eqn:E; [apply strings_eqb_eq in E; contradiction|]. now split.
Qed.
Print Assumptions C26_mismatch.

(** Refuted: two ids that are each before the other. *)
Theorem C26_order_refuted : exists a b, id_comps a = id_comps b /\ vid_lt a b = Ok true /\ vid_lt b a = Ok true.
Proof.
  exists (mkVid "q" (["x"]%string) (mkBasis "face_basis" 3)), (mkVid "q" (["x"]%string) volume_average).
  vm_compute. auto.
Qed.
Print Assumptions C26_order_refuted.

Example C26_ex : vid_lt q w = Ok true /\ vid_lt w q = Ok false /\ vid_eqb q q = Ok true /\
  vid_lt (mkVid "q" (["x"]%string) volume_average) q = Exn "qk::variable::variable_id::operator < : Shared variable name, but component mismatch.".
Proof. vm_compute. auto. Qed.

(** ** C27 *)

(** Any sequence of clone requests (clones of clones included, since the cloned
    ids are arbitrary): pairwise different names. *)
Theorem C27_clones_distinct : forall l tag r, 0 <= tag -> clones tag l = Ok r -> NoDup (map id_name r).
Proof. exact clones_NoDup. Qed.
Print Assumptions C27_clones_distinct.

(** Fewer than 2^31 requests succeed. *)
Theorem C27_clones_defined : forall l tag, 0 <= tag -> tag + Z.of_nat (List.length l) <= int_max ->
  exists r, clones tag l = Ok r.
Proof. exact clones_ok. Qed.
Print Assumptions C27_clones_defined.

(** Clones keep components and basis. *)
Theorem C27_clone_shape : forall tag v c t, unique_clone tag v = Ok (c, t) ->
  id_comps c = id_comps v /\ id_basis c = id_basis v /\ id_name c <> id_name v.
Proof.
  intros tag v c t H. unfold unique_clone, unique_tag in H. destruct (iadd tag 1) as [t'| | |]; cbn in H; try discriminate.
  inversion H; subst. cbn. splits; auto. intros E.
  assert (Q : forall a b, b <> EmptyString -> String.append a b <> a).
  { clear. induction a as [|x a IH]; intros b Hb E; cbn in E; [congruence|]. inversion E. eapply IH; eauto. }
  eapply Q; [|exact E]. discriminate.
Qed.
Print Assumptions C27_clone_shape.

(** A clone may collide with a name chosen by the user. *)
Theorem C27_user_name_refuted : exists v u c t, unique_clone 0 v = Ok (c, t) /\ id_name c = id_name u /\ u <> c.
Proof.
  exists q, (mkVid "q_clone_0" (["x"]%string) volume_average). do 2 eexists. split; [vm_compute; reflexivity|].
  split; [reflexivity|discriminate].
Qed.
Print Assumptions C27_user_name_refuted.

Example C27_ex :
  match clones 9 [q; q; mkVid "q_clone_1" [] volume_average; w] with
  | Ok r => map id_name r = (["q_clone_9"; "q_clone_10"; "q_clone_1_clone_11"; "w_clone_12"]%string)
  | _ => False
  end.
Proof. vm_compute. reflexivity. Qed.

(** ** C28 *)

(** Pairs of ids with equally many components: contents are exchanged pair by
    pair; everything else is described by [swap_fields]. *)
Theorem C28_swap : forall F (A : Arith F) (m : mgr F) M L ps,
  mgr_holds m M L -> fields_ok M L -> compatible (ids L ++ flat ps) ->
  Forall (fun p => id_fits M (fst p) /\ id_fits M (snd p) /\ comp_box (fst p) = comp_box (snd p)) ps ->
  exists m', swap_solve (flat ps) m = Done m' /\ same_run m m' /\
    mgr_holds m' M (fold_left swap_fields ps L) /\ fields_ok M (fold_left swap_fields ps L).
Proof. exact @api_swap_solve. Qed.
Print Assumptions C28_swap.

Theorem C28_swap_fields : forall F (A : Arith F) (L : list (vid * field F)) a b, (id_name a = id_name b -> a = b) ->
  field_get (swap_fields L (a, b)) a = Some (field_or_zero L b) /\
  field_get (swap_fields L (a, b)) b = Some (field_or_zero L a) /\
  forall k, id_name k <> id_name a -> id_name k <> id_name b -> field_get (swap_fields L (a, b)) k = field_get L k.
Proof. exact @swap_fields_get. Qed.
Print Assumptions C28_swap_fields.

(** Swapping twice restores the manager exactly. *)
Theorem C28_swap_twice : forall F (A : Arith F) (m : mgr F) M L a b ua ub,
  mgr_holds m M L -> fields_ok M L -> compatible (ids L ++ [a; b]) ->
  id_fits M a -> id_fits M b -> comp_box a = comp_box b -> field_get L a = Some ua -> field_get L b = Some ub ->
  exists m', swap_solve [a; b] m = Done m' /\ swap_solve [a; b] m' = Done m.
Proof. exact @api_swap_twice. Qed.
Print Assumptions C28_swap_twice.

(** An odd list throws and changes nothing. *)
Theorem C28_odd : forall F (A : Arith F) (m : mgr F) outs, Nat.odd (List.length outs) = true ->
  swap_solve outs m = Threw "qk::solver::swap::solve : Must have even number of output variables." m.
Proof. intros F A m outs H. unfold swap_solve. unfold Nat.odd in H. destruct (Nat.even (List.length outs)); [discriminate|reflexivity]. Qed.
Print Assumptions C28_odd.

(** Refuted: variables with different numbers of components are not rejected;
    each ends up with a chunk of the other's shape. *)
Theorem C28_incompatible_refuted : forall F (A : Arith F) (m : mgr F) M L a b ua ub,
  mgr_holds m M L -> fields_ok M L -> compatible (ids L ++ [a; b]) -> id_name a <> id_name b ->
  field_get L a = Some ua -> field_get L b = Some ub ->
  exists m' na nb va vb ea eb, swap_solve [a; b] m = Done m' /\
    nth_error (mg_vars m') na = Some (a, va) /\ if_data (ds_chunks (v_ds va)) = [ea] /\ chunk_holds ea M (comp_box b) 2 ub /\
    nth_error (mg_vars m') nb = Some (b, vb) /\ if_data (ds_chunks (v_ds vb)) = [eb] /\ chunk_holds eb M (comp_box a) 2 ua.
Proof. exact @api_swap_incompatible. Qed.
Print Assumptions C28_incompatible_refuted.

Example C28_ex :
  contents_out (obind (fill_solve 9 (dbl 3) [q] empty) (fun m => obind (fill_solve 9 (dbl 4) [w] m) (swap_solve [q; w]))) =
  Some [("q"%string, [repeat (dbl 4) 12]); ("w"%string, [repeat (dbl 3) 12])] /\
  contents_out (obind (fill_solve 9 (dbl 3) [q] empty) (fun m => obind (fill_solve 9 (dbl 4) [s1] m) (swap_solve [q; s1]))) =
  Some [("q"%string, [repeat (dbl 4) 6]); ("s"%string, [repeat (dbl 3) 12])].
Proof. split; vm_compute; reflexivity. Qed.

(** ** C29 *)

(** Every element of every listed variable, ghost cells included, has the value;
    missing variables are created; the others are unchanged. *)
Theorem C29_fill : forall F (A : Arith F) (m : mgr F) M L fuel x outs,
  mgr_holds m M L -> fields_ok M L -> compatible (ids L ++ outs) -> Forall (id_fits M) outs -> (1 <= fuel)%nat ->
  exists m' L', fill_solve fuel x outs m = Done m' /\ mgr_holds m' M L' /\ fields_ok M L' /\ same_run m m' /\ incl (ids L') (ids L ++ outs) /\
    (forall id, ~ In (id_name id) (map id_name outs) -> field_get L' id = field_get L id) /\
    (forall id, In id outs -> exists v, field_get L' id = Some v /\
       forall c, in_box (grow 2 M ++ comp_box id) c -> v c = x).
Proof. exact @api_fill_solve. Qed.
Print Assumptions C29_fill.

Example C29_ex :
  contents_out (obind (fill_solve 9 (dbl 3) [q; w] empty) (fill_solve 9 (dbl 4) [q; s1])) =
  Some [("q"%string, [repeat (dbl 4) 12]); ("w"%string, [repeat (dbl 3) 12]); ("s"%string, [repeat (dbl 4) 6])].
Proof. vm_compute. reflexivity. Qed.
