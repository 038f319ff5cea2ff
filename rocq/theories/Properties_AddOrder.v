(** * What a variable that could not be created leaves behind (C94). *)
From Coq Require Import ZArith List String Bool Floats.SpecFloat.
From Verif Require Import Base BoxSpec Range RangeSpec RangeFacts Arith ArithFloat VarId Manager MgrSpec MgrFacts AddOrder Properties_Manager.
Import ListNotations.
Open Scope Z_scope.

(** The manager with the same contents and no null pointer. *)
Definition no_null {F} (m : mgr F) : pmgr F :=
  mkPmgr (mg_grid m) (map (fun kv => (fst kv, Some (snd kv))) (mg_vars m)) (mg_dt m) (mg_time m).
(** The construction of the variable of [k] in [m] does not throw. *)
Definition can_construct {F} {A : Arith F} (m : mgr F) (k : vid) : Prop :=
  forall e, variable_new (id_name k) (id_comps k) (id_basis k) (gr_range (mg_grid m)) 2 <> Exn e.

Section Facts.
Context {F : Type} {A : Arith F}.

Lemma find_no_null : forall (l : list (vid * variable F)) k,
  entry_find (map (fun kv => (fst kv, Some (snd kv))) l) k =
  (o <- map_find l k ;;
   match o with
   | Some n => match nth_error l n with Some (_, v) => Ok (Some (n, Some v)) | None => UB OutOfBounds end
   | None => Ok None
   end).
Proof.
  induction l as [|[k' v] l IH]; intros k; [reflexivity|].
  cbn [map fst snd entry_find map_find].
  destruct (vid_lt k' k) as [a|?|?|]; try reflexivity. cbn [bind].
  destruct (vid_lt k k') as [b|?|?|]; try reflexivity. cbn [bind].
  destruct (a && b); [reflexivity|]. destruct (negb a && negb b); [reflexivity|].
  rewrite IH. destruct (map_find l k) as [[n|]|?|?|]; try reflexivity. cbn [bind nth_error].
  destruct (nth_error l n) as [[? ?]|]; reflexivity.
Qed.

Lemma map_find_inside : forall (l : list (vid * variable F)) k n, map_find l k = Ok (Some n) -> exists kv, nth_error l n = Some kv.
Proof.
  induction l as [|[k' v] l IH]; intros k n H; [discriminate|]. cbn [map_find] in H.
  destruct (vid_lt k' k) as [a|?|?|]; try discriminate. cbn [bind] in H.
  destruct (vid_lt k k') as [b|?|?|]; try discriminate. cbn [bind] in H.
  destruct (a && b); [discriminate|]. destruct (negb a && negb b).
  - inversion H; subst. now exists (k', v).
  - destruct (map_find l k) as [[n'|]|?|?|] eqn:E; try discriminate. cbn [bind] in H. inversion H; subst.
    cbn [nth_error]. exact (IH _ _ E).
Qed.

Lemma find_no_null_cases : forall (m : mgr F) k,
  match map_find (mg_vars m) k with
  | Ok (Some n) => exists v, entry_find (pm_vars (no_null m)) k = Ok (Some (n, Some v))
  | Ok None => entry_find (pm_vars (no_null m)) k = Ok None
  | Exn e => entry_find (pm_vars (no_null m)) k = Exn e
  | UB u => entry_find (pm_vars (no_null m)) k = UB u
  | NoFuel => entry_find (pm_vars (no_null m)) k = NoFuel
  end.
Proof.
  intros m k. cbn [no_null pm_vars]. rewrite find_no_null.
  destruct (map_find (mg_vars m) k) as [[n|]|?|?|] eqn:E; try reflexivity. cbn [bind].
  destruct (map_find_inside _ _ _ E) as [[k' v] ->]. now exists v.
Qed.

Lemma find_new : forall (l : list (vid * option (variable F))) k p,
  entry_find l k = Ok None -> entry_find (l ++ [(k, p)]) k = Ok (Some (List.length l, p)).
Proof.
  induction l as [|[k' p'] l IH]; intros k p H.
  - cbn [app entry_find]. rewrite vid_lt_refl. reflexivity.
  - cbn [app entry_find List.length] in *.
    destruct (vid_lt k' k) as [a|?|?|]; try discriminate. cbn [bind] in *.
    destruct (vid_lt k k') as [b|?|?|]; try discriminate. cbn [bind] in *.
    destruct (a && b); [discriminate|]. destruct (negb a && negb b); [discriminate|].
    destruct (entry_find l k) as [[[n q]|]|?|?|] eqn:E; try discriminate.
    rewrite (IH k p E). reflexivity.
Qed.

Lemma add_same : forall (m : mgr F) k, can_construct m k -> entry_add (no_null m) k = omap no_null (add_variable m k).
Proof.
  intros m k C. unfold entry_add, add_variable. pose proof (find_no_null_cases m k) as H.
  destruct (map_find (mg_vars m) k) as [[n|]|?|?|]; cbn [liftr omap].
  - destruct H as (v & ->). reflexivity.
  - rewrite H. cbn [liftr no_null pm_grid]. pose proof (C) as C'. unfold can_construct in C'.
    destruct (variable_new (id_name k) (id_comps k) (id_basis k) (gr_range (mg_grid m)) 2) as [v|e|u|] eqn:E; cbn [liftr omap].
    + unfold with_entry, no_null; cbn. rewrite map_app. reflexivity.
    + exfalso. exact (C' e eq_refl).
    + reflexivity.
    + reflexivity.
  - rewrite H. reflexivity.
  - rewrite H. reflexivity.
  - rewrite H. reflexivity.
Qed.

Lemma output_same : forall (m : mgr F) k f g, can_construct m k -> (forall n m, g n (no_null m) = omap no_null (f n m)) ->
  entry_output (no_null m) k g = omap no_null (with_output m k f).
Proof.
  intros m k f g C Hg. unfold entry_output, with_output. pose proof (find_no_null_cases m k) as H.
  destruct (map_find (mg_vars m) k) as [[n|]|?|?|] eqn:E; cbn [liftr omap].
  - destruct H as (v & ->). cbn [liftr follow]. apply Hg.
  - rewrite H. cbn [liftr]. rewrite (add_same _ _ C).
    destruct (add_variable m k) as [m'|?|?|]; cbn [omap obind]; try reflexivity.
    pose proof (find_no_null_cases m' k) as H'.
    destruct (map_find (mg_vars m') k) as [[n|]|?|?|]; cbn [liftr omap].
    + destruct H' as (v & ->). cbn [bind liftr follow]. apply Hg.
    + rewrite H'. reflexivity.
    + rewrite H'. reflexivity.
    + rewrite H'. reflexivity.
    + rewrite H'. reflexivity.
  - rewrite H. reflexivity.
  - rewrite H. reflexivity.
  - rewrite H. reflexivity.
Qed.

Lemma request_grid : forall (m : mgr F) k m', with_output m k (fun _ m1 => Done m1) = Done m' -> mg_grid m' = mg_grid m.
Proof.
  intros m k m' H. unfold with_output in H. destruct (map_find (mg_vars m) k) as [[n|]|?|?|]; cbn [liftr] in H; try discriminate.
  - now inversion H.
  - destruct (add_variable m k) as [m1|?|?|] eqn:E; cbn [obind] in H; try discriminate.
    assert (G : mg_grid m1 = mg_grid m).
    { unfold add_variable in E. destruct (map_find (mg_vars m) k) as [[n|]|?|?|]; cbn [liftr] in E; try discriminate.
      destruct (variable_new (id_name k) (id_comps k) (id_basis k) (gr_range (mg_grid m)) 2); cbn [liftr] in E; try discriminate.
      now inversion E. }
    destruct (map_find (mg_vars m1) k) as [[n|]|?|?|]; cbn [liftr] in H; try discriminate. inversion H; subst. exact G.
Qed.

End Facts.

(** ** C94 *)

(** If the variable is constructed before operator[] inserts its id, no exception of
    add_variable changes the manager. *)
Theorem C94_constructor_first : forall F (A : Arith F) (m m' : mgr F) k e, add_variable m k = Threw e m' -> m' = m.
Proof.
  intros F A m m' k e H. unfold add_variable in H. destruct (map_find (mg_vars m) k) as [[n|]|?|?|]; cbn [liftr] in H; try discriminate.
  - now inversion H.
  - destruct (variable_new (id_name k) (id_comps k) (id_basis k) (gr_range (mg_grid m)) 2); cbn [liftr] in H; try discriminate; now inversion H.
  - now inversion H.
Qed.
Print Assumptions C94_constructor_first.

(** Then a request of a variable that cannot be created throws every time it is
    made and never changes anything. *)
Theorem C94_request_again : forall F (A : Arith F) (m : mgr F) k f e, map_find (mg_vars m) k = Ok None ->
  variable_new (id_name k) (id_comps k) (id_basis k) (gr_range (mg_grid m)) 2 = Exn e -> with_output m k f = Threw e m.
Proof.
  intros F A m k f e H E. unfold with_output, add_variable. rewrite H. cbn [liftr]. rewrite ?H. cbn [liftr]. rewrite E. reflexivity.
Qed.
Print Assumptions C94_request_again.

(** If operator[] inserts the id first, a constructor that throws leaves a null
    pointer behind: the first request throws the exception of the constructor, every
    later request of the same variable dereferences null, for output or for input. *)
Theorem C94_entry_first_refuted : forall F (A : Arith F) (m : pmgr F) k e, entry_find (pm_vars m) k = Ok None ->
  variable_new (id_name k) (id_comps k) (id_basis k) (gr_range (pm_grid m)) 2 = Exn e ->
  exists m', (forall f, entry_output m k f = Threw e m') /\
    pm_vars m' = pm_vars m ++ [(k, None)] /\ pm_grid m' = pm_grid m /\ pm_dt m' = pm_dt m /\ pm_time m' = pm_time m /\
    (forall f, entry_output m' k f = Undef NullDeref) /\ entry_input m' k = UB NullDeref.
Proof.
  intros F A m k e H E. exists (with_entry m k None).
  assert (N : entry_find (pm_vars (with_entry m k None)) k = Ok (Some (List.length (pm_vars m), None))) by (apply find_new; exact H).
  repeat split.
  - intros f. unfold entry_output, entry_add. rewrite H. cbn [liftr]. rewrite ?H. cbn [liftr]. rewrite E. reflexivity.
  - intros f. unfold entry_output. rewrite N. reflexivity.
  - unfold entry_input. rewrite N. reflexivity.
Qed.
Print Assumptions C94_entry_first_refuted.

(** As long as the constructor does not throw, the two orders give the same: one
    call of add_variable, one request with what is done with the reference, any
    sequence of requests. *)
Theorem C94_same_add : forall F (A : Arith F) (m : mgr F) k, can_construct m k ->
  entry_add (no_null m) k = omap no_null (add_variable m k).
Proof. exact @add_same. Qed.
Print Assumptions C94_same_add.
Theorem C94_same_output : forall F (A : Arith F) (m : mgr F) k f g, can_construct m k ->
  (forall n m, g n (no_null m) = omap no_null (f n m)) -> entry_output (no_null m) k g = omap no_null (with_output m k f).
Proof. exact @output_same. Qed.
Print Assumptions C94_same_output.
Theorem C94_same_requests : forall F (A : Arith F) ks (m : mgr F), Forall (can_construct m) ks ->
  ofold (fun k m => entry_output m k (fun _ m1 => Done m1)) ks (no_null m) =
  omap no_null (ofold (fun k m => with_output m k (fun _ m1 => Done m1)) ks m).
Proof.
  intros F A ks. induction ks as [|k ks IH]; intros m H; [reflexivity|]. cbn [ofold]. inversion H; subst.
  rewrite (output_same m k (fun _ m1 => Done m1) (fun _ m1 => Done m1)); auto.
  destruct (with_output m k (fun _ m1 => Done m1)) as [m'|?|?|] eqn:E; cbn [obind omap]; try reflexivity.
  apply IH. eapply Forall_impl; [|eassumption]. intros k' C. unfold can_construct in *. now rewrite (request_grid _ _ _ E).
Qed.
Print Assumptions C94_same_requests.

(** Ids of the right size on the grid of the manager are constructed without an
    exception. *)
Theorem C94_fitting : forall F (A : Arith F) (m : mgr F) M k, observes (gr_range (mg_grid m)) M -> id_fits M k -> can_construct m k.
Proof. intros F A m M k H Hk e. rewrite (observes_inv _ _ H), (variable_new_ok _ _ Hk). discriminate. Qed.
Print Assumptions C94_fitting.

(** ** example *)

(** A face basis set up with -1 dimensions has -1 points. *)
Definition bad_basis : basis :=
  match face_basis_setup face_basis_default (-1) 1 with Done f => fb_basis f | _ => basis_void end.
Definition bad : vid := mkVid "q" (["rho"]%string) bad_basis.
Example C94_ex :
  variable_new (F := spec_float) (id_name bad) (id_comps bad) (id_basis bad) (gr_range (mg_grid empty)) 2 = Exn "vector::_M_default_append" /\
  with_output empty bad (fun _ m => Done m) = Threw "vector::_M_default_append" empty /\
  entry_output (no_null empty) bad (fun _ m => Done m) = Threw "vector::_M_default_append" (with_entry (no_null empty) bad None) /\
  ofold (fun k m => entry_output m k (fun _ m1 => Done m1)) [q; s1; q] (no_null empty) =
  omap no_null (ofold (fun k m => with_output m k (fun _ m1 => Done m1)) [q; s1; q] empty).
Proof. vm_compute. repeat split. Qed.
