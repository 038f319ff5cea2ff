(** * Properties of the VTK export and of print (C30, C64). *)
From Coq Require Import ZArith List String Lia Bool Permutation Floats.SpecFloat.
From Verif Require Import Base BaseFacts BoxSpec BoxFacts Range RangeSpec RangeFacts Indexer IndexerFacts Interface
  InterfaceFacts ApiSpec ApiFacts Arith ArithFloat Chunk FieldSpec FieldFacts ChunkFacts Properties_Chunk
  VarId VarIdFacts Manager MgrSpec MgrFacts Solvers SolverFacts Vtk VtkSpec VtkFacts Properties_Manager.
Import ListNotations.
Open Scope Z_scope.

(** ** C30 *)

(** The whole file on a 1, 2 or 3 dimensional grid: header, then one section per
    requested variable and component with the values on the mesh. *)
Theorem C30_file : forall F (A : Arith F) fuel name (m : mgr F) M L ks,
  mgr_holds m M L -> fields_ok M L -> compatible (ids L ++ ks) -> grid_fits (mg_grid m) M ->
  (List.length M <= 3)%nat -> (1 <= fuel)%nat -> ks <> [] ->
  Forall (fun k => field_get L k <> None /\ id_basis k = volume_average) ks ->
  exists o h, manager_write_vtk fuel true name m ks = Done (Some (vtk_file M o h (asked L ks))).
Proof.
  intros F A fuel name m M L ks H1 H2 H3 H4 H5 H6 H7 H8.
  exists (origin_of (mg_grid m) M), (spacing_of (mg_grid m) M). rewrite <- file_small by exact H5. now apply write_ok.
Qed.
Print Assumptions C30_file.

Lemma prod_len_rev : forall M, prod_len (rev M) = prod_len M.
Proof. induction M as [|[l u] M IH]; [reflexivity|]. cbn [rev]. rewrite prod_len_app, IH. cbn [prod_len]. lia. Qed.
Lemma nonempty_rev : forall M, nonempty M -> nonempty (rev M).
Proof. intros M H. unfold nonempty in *. rewrite Forall_forall in *. intros iv HI. apply H. now apply in_rev. Qed.
Lemma in_box_rev : forall M c, in_box M c -> in_box (rev M) (rev c).
Proof. intros M c H. induction H; cbn [rev]; [constructor|]. apply in_box_app; [exact IHForall2|]. constructor; [auto|constructor]. Qed.
Lemma offset_rev : forall M c, in_box M c -> offset (rev M) (rev c) = x_fastest M c.
Proof.
  intros M c H. induction H as [|[l u] x M c H1 H2 IH]; [reflexivity|]. cbn [rev x_fastest].
  rewrite offset_app by (rewrite !rev_length; now apply in_box_length with (1 := H2)).
  cbn [offset prod_len]. rewrite IH. lia.
Qed.

(** The values of a section: as many as the mesh has cells (the number CELL_DATA
    announces), every interior cell exactly once and no other, the first coordinate
    fastest. *)
Theorem C30_values : forall F (M : box) (u : field F) j, nonempty M ->
  Z.of_nat (List.length (vtk_values M u j)) = prod_len M /\
  (exists order, Permutation order (cells M) /\ vtk_values M u j = map (fun c => u (c ++ [0; j])) order) /\
  (forall c, in_box M c -> nth_error (vtk_values M u j) (Z.to_nat (x_fastest M c)) = Some (u (c ++ [0; j])) /\
     0 <= x_fastest M c < prod_len M).
Proof.
  intros F M u j HN. pose proof (nonempty_rev M HN) as HR. split; [|split].
  - unfold vtk_values. rewrite map_length, cells_length by exact HR. apply prod_len_rev.
  - exists (map (@rev Z) (cells (rev M))). split.
    + apply NoDup_Permutation.
      * apply FinFun.Injective_map_NoDup; [|apply cells_NoDup]. intros a b E. now rewrite <- (rev_involutive a), E, rev_involutive.
      * apply cells_NoDup.
      * intros c. rewrite in_map_iff. split.
        -- intros (x & <- & Hx). apply in_cells in Hx. apply in_cells. apply in_box_rev in Hx. now rewrite rev_involutive in Hx.
        -- intros H. exists (rev c). split; [apply rev_involutive|]. apply in_cells. apply in_cells in H. now apply in_box_rev.
    + unfold vtk_values. now rewrite map_map.
  - intros c Hc. rewrite <- offset_rev by exact Hc. pose proof (in_box_rev _ _ Hc) as Hr. split.
    + unfold vtk_values. rewrite nth_error_map, nth_cells_offset by auto. cbn [option_map]. now rewrite rev_involutive.
    + pose proof (offset_bounds _ _ Hr) as O. rewrite prod_len_rev in O. exact O.
Qed.
Print Assumptions C30_values.

(** DIMENSIONS minus one multiply to the number of cells (over the dimensions the
    grid has; the others announce a single layer of points). *)
Theorem C30_dimensions : forall M : box, (1 <= List.length M <= 3)%nat ->
  fold_right Z.mul 1 (map (fun d => vtk_dim M d - 1) (seq 0 (List.length M))) = prod_len M /\
  forall d, (List.length M <= d)%nat -> vtk_dim M d = 1.
Proof.
  intros M HL. split.
  - destruct M as [|[a b] [|[c d] [|[e f] [|? ?]]]]; cbn in *; lia.
  - intros d Hd. unfold vtk_dim. apply nth_error_None in Hd. now rewrite Hd.
Qed.
Print Assumptions C30_dimensions.

(** Requests that write nothing. *)
Theorem C30_nothing_written : forall F (A : Arith F) fuel created name (m : mgr F),
  manager_write_vtk fuel created name m [] = Done None /\
  (forall k ks, ~ Forall (fun k' => id_basis k' = id_basis k) ks ->
    manager_write_vtk fuel created name m (k :: ks) =
    Threw "qk::variable::variable_manager::write_VTK : Current limitation - all variables must share a basis." None) /\
  (forall k ks, Forall (fun k' => id_basis k' = id_basis k) ks ->
    manager_write_vtk fuel false name m (k :: ks) =
    Threw ("qk::solver:advection::write_VTK : File '" ++ name ++ "' could not be created") None).
Proof.
  intros F A fuel created name m. split; [reflexivity|]. split.
  - intros k ks H. unfold manager_write_vtk. destruct (same_basis (id_basis k) (k :: ks)) eqn:E; [|reflexivity].
    apply same_basis_iff in E. inversion E; subst. contradiction.
  - intros k ks H. unfold manager_write_vtk.
    assert (E : same_basis (id_basis k) (k :: ks) = true) by (apply same_basis_iff; now constructor). now rewrite E.
Qed.
Print Assumptions C30_nothing_written.

Lemma second_chunk : forall F (v : variable F) i ix st st', vtk_chunk v i ix st = Done st' -> snd st = true /\ snd st' = false.
Proof.
  intros F v i ix [s b] st' H. unfold vtk_chunk in H. cbn [fst snd] in *.
  destruct (iface_get (ds_chunks (v_ds v)) ix); cbn [liftr] in H; try discriminate.
  match type of H with liftr _ ?r _ = _ => destruct r end; cbn [liftr] in H; try discriminate.
  match type of H with obind (omap _ ?o) _ = _ => destruct o end; cbn [omap obind snd fst] in H; try discriminate.
  destruct b; [|discriminate]. injection H as <-. split; reflexivity.
Qed.
(** The writer of a variable with more than one chunk never returns normally. *)
Theorem C30_several_chunks : forall F fuel (v : variable F) B c cs s s',
  observes (if_range (ds_chunks (v_ds v))) B -> valid_box B -> 2 <= prod_len B <= Z.of_nat fuel -> v_comps v = c :: cs ->
  variable_write_vtk fuel v s <> Done s'.
Proof.
  intros F fuel v B c cs s s' HB VB HP HC H. apply observes_iff in HB. unfold variable_write_vtk in H. rewrite HC in H.
  destruct (basis_eqb (ds_basis (v_ds v)) volume_average); [|discriminate]. cbn [vtk_comps] in H. unfold iface_indexer in H. rewrite HB in H.
  rewrite indexer_make_ok in H by (now apply valid_self). cbn [liftr] in H.
  rewrite for_indexer_cells in H by (try (now apply valid_self); lia).
  assert (NB : nonempty B) by apply VB. pose proof (cells_length B NB) as CL.
  destruct (cells B) as [|c1 [|c2 l]]; cbn [List.length] in CL; try lia. cbn [ofold] in H.
  match type of H with context [obind (vtk_chunk v 0 ?x ?st) _] => destruct (vtk_chunk v 0 x st) as [st1| | |] eqn:E1; cbn [obind omap] in H; try discriminate end.
  apply second_chunk in E1 as [_ E1].
  match type of H with context [obind (vtk_chunk v 0 ?x ?st) _] => destruct (vtk_chunk v 0 x st) as [st2| | |] eqn:E2; cbn [obind omap] in H; try discriminate end.
  apply second_chunk in E2 as [E2 _]. congruence.
Qed.
Print Assumptions C30_several_chunks.

Example C30_several_chunks_ex :
  let k := mkVid "s" ["a"%string] volume_average in
  let e := echunk_of [(0, 2)] (comp_box k) 0 (fun c => dbl (List.hd 0 c)) in
  let v := mkVar (mkDataset (mkIface (range_of [(0, 2)]) [e; e]) volume_average (range_of (comp_box k)) (range_of [(0, 2)]) (range_of [(0, 2)]) (range_of [(0, 2)])) "s" ["a"%string] in
  exists s, variable_write_vtk 10 v [] = Threw "qk::variable::variable::write_vtk : Writer currently limited to a single chunk." s /\
    numbers s = [dbl 0; dbl 1; dbl 0; dbl 1].
Proof. eexists. split; [vm_compute; reflexivity|]. reflexivity. Qed.

(** A variable that does not exist is reported by an exception, but only after the
    file has been overwritten: what is left is the header and the sections of the
    variables before it. *)
Theorem C30_missing : forall F (A : Arith F) fuel name (m : mgr F) M L ks k ks',
  mgr_holds m M L -> fields_ok M L -> compatible (ids L ++ ks ++ k :: ks') -> grid_fits (mg_grid m) M ->
  (List.length M <= 3)%nat -> (1 <= fuel)%nat -> id_fits M k ->
  Forall (fun k => field_get L k <> None /\ id_basis k = volume_average) ks ->
  Forall (fun k => id_basis k = volume_average) (k :: ks') -> field_get L k = None ->
  exists o h, manager_write_vtk fuel true name m (ks ++ k :: ks') =
    Threw ("qk::variable::variable_manager::write_VTK : Variable '" ++ id_name k ++ "' does not exist.")
      (Some (vtk_file M o h (asked L ks))).
Proof.
  intros F A fuel name m M L ks k ks' HM HF HC HG HL HU HI HA HB HN.
  exists (origin_of (mg_grid m) M), (spacing_of (mg_grid m) M).
  pose proof (proj1 (mgr_holds_iff m M L HF) HM) as [HR E].
  destruct (fits_prod M k HI) as (P1 & P2 & P3). pose proof HI as (S1 & S2 & _).
  assert (HBA : Forall (fun k => id_basis k = volume_average) (ks ++ k :: ks')).
  { apply Forall_app. split; [|exact HB]. eapply Forall_impl; [|exact HA]. cbn. tauto. }
  assert (EH : exists k0 r, ks ++ k :: ks' = k0 :: r) by (destruct ks; cbn; eauto). destruct EH as (k0 & r & EH).
  rewrite EH in HBA. inversion HBA as [|? ? B1 B2]; subst. rewrite EH.
  rewrite (write_common fuel name m M L k0 r) by auto. rewrite <- EH.
  assert (EV : forall s, vtk_vars fuel m (ks ++ k :: ks') s =
    obind (vtk_vars fuel (mgr_of (mg_grid m) M L (mg_dt m) (mg_time m)) ks s) (fun s' => vtk_vars fuel (mgr_of (mg_grid m) M L (mg_dt m) (mg_time m)) (k :: ks') s')).
  { rewrite <- E. clear. induction ks as [|a ks IH]; intros s; [reflexivity|]. cbn [app vtk_vars].
    unfold liftr. destruct (map_find (mg_vars m) a) as [[n|]| | |]; try reflexivity.
    destruct (var_at m n) as [v| | |]; try reflexivity. destruct (variable_write_vtk fuel v s); try reflexivity. cbn [obind]. apply IH. }
  rewrite EV. rewrite vtk_vars_ok; auto.
  2:{ intros a b Ha Hb. apply HC; rewrite !in_app_iff in *; tauto. }
  cbn [obind]. rewrite vtk_vars_missing; auto.
  2:{ intros k' Hk En. apply HC; auto; rewrite !in_app_iff; cbn; tauto. }
  cbn [omap]. f_equal. f_equal. now rewrite <- file_small by exact HL.
Qed.
Print Assumptions C30_missing.

Lemma numbers_app : forall F (a b : stream F), numbers (a ++ b) = numbers a ++ numbers b.
Proof. intros F a b. induction a as [|[s|z|x] a IH]; cbn; auto. now rewrite IH. Qed.

(** Refuted beyond three dimensions: the file announces at least one value per
    section but contains no numbers besides origin and spacing. *)
Theorem C30_four_dimensions_refuted : forall F (A : Arith F) fuel name (m : mgr F) M L ks,
  mgr_holds m M L -> fields_ok M L -> compatible (ids L ++ ks) -> grid_fits (mg_grid m) M ->
  (4 <= List.length M)%nat -> (1 <= fuel)%nat -> ks <> [] -> Forall (fun k => id_fits M k) ks ->
  Forall (fun k => field_get L k <> None /\ id_basis k = volume_average) ks ->
  exists s, manager_write_vtk fuel true name m ks = Done (Some s) /\ In (TInt (prod_len M)) s /\ 1 <= prod_len M /\
    List.length (numbers s) = 6%nat.
Proof.
  intros F A fuel name m M L ks H1 H2 H3 H4 H5 H6 H7 HI H8.
  exists (file_of (mg_grid m) M L ks). split; [now apply write_ok|].
  destruct (origin_of (mg_grid m) M) as [[ox oy] oz] eqn:EO. destruct (spacing_of (mg_grid m) M) as [[hx hy] hz] eqn:ES.
  unfold file_of. rewrite EO, ES. split; [|split].
  - apply in_app_iff. left. cbn. tauto.
  - destruct ks as [|k ks]; [congruence|]. inversion HI as [|? ? HK HKs]; subst. destruct (fits_prod M k HK) as (_ & P & _). lia.
  - rewrite numbers_app, app_length. cbn [vtk_header numbers List.length].
    assert (Z0 : forall W, numbers (flat_map (fun ku => flat_map (vtk_section M (fst ku) (snd ku)) (numbered (fst ku))) W) = ([] : list F)).
    { induction W as [|[k u] W IH]; [reflexivity|]. cbn [flat_map fst snd]. rewrite numbers_app, IH, app_nil_r.
      induction (numbered k) as [|jc N IN]; [reflexivity|]. cbn [flat_map]. rewrite numbers_app, IN, app_nil_r.
      unfold vtk_section, vtk_body. destruct (Nat.leb_spec (List.length M) 3); [lia|]. reflexivity. }
    rewrite Z0. reflexivity.
Qed.
Print Assumptions C30_four_dimensions_refuted.

(** *** examples *)

(** A 2 x 3 mesh; the value of cell (x, y) is 10 x + y: the file lists x first. *)
Definition sheet : box := [(0, 2); (0, 3)].
Definition sheet_grid : grid spec_float := mkGrid (range_of sheet) [dbl 0; dbl 0] [dbl 2; dbl 3] [dbl 1; dbl 1].
Definition tens : field spec_float := fun c => match c with [x; y; _; _] => dbl (10 * x + y) | _ => dbl 0 end.
Definition sheet_mgr : mgr spec_float := mgr_of sheet_grid sheet [(s1, tens)] None None.
Definition file_numbers (x : out (option (stream spec_float))) : option (list spec_float) :=
  match x with Done (Some s) => Some (numbers s) | _ => None end.
Lemma s1_sheet : id_fits sheet s1. Proof. apply shapeb_ok; vm_compute; reflexivity. Qed.
Lemma sheet_holds : mgr_holds sheet_mgr sheet [(s1, tens)] /\ fields_ok sheet [(s1, tens)].
Proof.
  assert (FO : fields_ok sheet [(s1, tens)]) by (split; [repeat constructor; cbn; tauto|repeat constructor; apply s1_sheet]).
  split; [|exact FO]. apply mgr_holds_iff; [exact FO|]. split; reflexivity.
Qed.

(** Origin 1 3/2 0, spacing 1 1 1, then the values. *)
Example C30_ex : file_numbers (manager_write_vtk 1 true "f.vtk" sheet_mgr [s1]) =
  Some ([dbl 1; fdiv (dbl 3) (dbl 2); dbl 0; dbl 1; dbl 1; dbl 1] ++ map dbl [0; 10; 1; 11; 2; 12]).
Proof. vm_compute. reflexivity. Qed.
(** The same through the theorems. *)
Example C30_thm_ex : exists o h, manager_write_vtk 1 true "f.vtk" sheet_mgr [s1] = Done (Some (vtk_file sheet o h [(s1, tens)])) /\
  nth_error (vtk_values sheet tens 0) 3 = Some (dbl 11).
Proof.
  destruct sheet_holds as [H1 H2].
  destruct (C30_file _ _ 1 "f.vtk" sheet_mgr sheet [(s1, tens)] [s1] H1 H2) as (o & h & E).
  - intros a b [<-|[<-|[]]] [<-|[<-|[]]]; reflexivity.
  - repeat split.
  - cbn; lia.
  - lia.
  - discriminate.
  - repeat constructor. discriminate.
  - exists o, h. split; [exact E|]. 
    destruct (C30_values _ sheet tens 0 ltac:(repeat constructor)) as (_ & _ & HV).
    exact (proj1 (HV [1; 1] ltac:(apply in_boxb_iff; vm_compute; reflexivity))).
Qed.
(** [w] does not exist: an exception, the file has the section of [s1] only. *)
Example C30_missing_ex : match manager_write_vtk 1 true "f.vtk" sheet_mgr [s1; w] with
  | Threw msg (Some s) => msg = "qk::variable::variable_manager::write_VTK : Variable 'w' does not exist."%string /\ List.length (numbers s) = 12%nat
  | _ => False end.
Proof. vm_compute. split; reflexivity. Qed.
(** Four dimensions: 16 cells announced, no value written. *)
Definition hyper : box := [(0, 2); (0, 2); (0, 2); (0, 2)].
Definition hyper_mgr : mgr spec_float :=
  mgr_of (mkGrid (range_of hyper) (repeat (dbl 0) 4) (repeat (dbl 2) 4) (repeat (dbl 1) 4)) hyper [(s1, fun _ => dbl 7)] None None.
Example C30_four_dimensions_ex : match manager_write_vtk 1 true "f.vtk" hyper_mgr [s1] with
  | Done (Some s) => List.length (numbers s) = 6%nat /\ In (TInt 16) s
  | _ => False end.
Proof. vm_compute. split; [reflexivity|]. tauto. Qed.

(** ** C64 *)

(** print writes, for every variable asked for, one line per interior cell and
    component with its coordinates and its value, in row-major order; existing
    variables keep their contents; a variable that is missing is created and
    printed as zeros.  If all exist, the manager is unchanged. *)
Theorem C64_print : forall F (A : Arith F) fuel ins (m : mgr F) M L s,
  mgr_holds m M L -> fields_ok M L -> compatible (ids L ++ ins) ->
  Forall (fun k => id_fits M k /\ prod_len (M ++ comp_box k) <= Z.of_nat fuel) ins ->
  exists m' L', print_solve fuel ins m s = Done (m', s ++ flat_map (print_section M) (asked L ins)) /\
    mgr_holds m' M L' /\ same_run m m' /\ (forall k, field_or_zero L' k = field_or_zero L k) /\
    (Forall (fun k => field_get L k <> None) ins -> m' = m).
Proof. exact @print_ok. Qed.
Print Assumptions C64_print.

Example C64_ex : match print_solve 6 [s1] sheet_mgr [] with
  | Done (_, s) => firstn 11 s = [TText "Printing Variable '"; TText "s"; TText ("'" ++ eol);
      TText "Index ("; TInt 0; TText ", "; TInt 0; TText ", "; TInt 0; TText ", "; TInt 0] /\
      numbers s = map dbl [0; 1; 2; 10; 11; 12]
  | _ => False end.
Proof. vm_compute. split; reflexivity. Qed.
