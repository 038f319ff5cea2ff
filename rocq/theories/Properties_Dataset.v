(** * Properties of datasets that are resized (C72). *)
From Coq Require Import ZArith List String Lia Bool Floats.SpecFloat.
From Verif Require Import Base BaseFacts BoxSpec BoxFacts Range RangeSpec RangeFacts Indexer Interface InterfaceFacts ApiSpec ApiFacts
  Arith ArithFloat Chunk FieldSpec FieldFacts ChunkFacts VarId Manager MgrSpec MgrFacts Dataset.
Import ListNotations.
Open Scope Z_scope.

Lemma nth_firstn : forall X (l : list X) n d x, (d < n)%nat -> nth d (firstn n l) x = nth d l x.
Proof. intros X l n. revert l. induction n as [|n IH]; intros [|y l] [|d] x H; cbn; auto; try lia. apply IH. lia. Qed.

(** [d] is laid out for the mesh [M] with [n] components of basis [b] and [g] ghost
    layers: its members say so, and its only chunk is [e]. *)
Definition laid_out {F} (d : dataset F) (M : box) (b : basis) (n g : Z) (e : echunk F) : Prop :=
  ds_basis d = b /\ observes (ds_comp d) [(0, bs_points b); (0, n)] /\ observes (ds_mesh d) M /\ observes (ds_local d) M /\
  observes (ds_layout d) (one_cell M) /\ container (ds_chunks d) (one_cell M) /\ if_data (ds_chunks d) = [e].

Lemma dataset_resize_ok : forall F (A : Arith F) (d : dataset F) M b n g, shape M [(0, bs_points b); (0, n)] g -> (List.length (if_data (ds_chunks d)) <= 1)%nat ->
  exists i, iface_ok i (grow g M ++ [(0, bs_points b); (0, n)]) /\
    (let old := match if_data (ds_chunks d) with e :: _ => if_data (ec_if e) | [] => [] end in
     let N := Z.to_nat (prod_len (grow g M ++ [(0, bs_points b); (0, n)])) in
     if_data i = firstn N old ++ repeat f0 (N - List.length old)%nat) /\
    dataset_resize (range_of M) b n g d =
    Done (mkDataset (mkIface (range_of (one_cell M)) [ec_with (echunk_of M [(0, bs_points b); (0, n)] g (fun _ => f0)) i]) b
            (range_of [(0, bs_points b); (0, n)]) (range_of M) (range_of M) (range_of (one_cell M))).
Proof.
  intros F A d M b n g S HL. pose proof (shape_valid _ _ _ S) as (V1 & V2 & V3 & V4). pose proof S as (S1 & S2 & S3 & S4 & S5 & S6 & S7).
  set (np := bs_points b) in *.
  assert (SM : shorter M (grow g M)) by (now apply shorter_grow).
  assert (NG : nonempty (grow g M)) by (now apply nonempty_grow).
  assert (PG : prod_len (grow g M) <= int_max) by (pose proof (prod_app_le _ _ V2); lia).
  assert (FM : fit M) by (eapply shorter_fit; eauto).
  assert (ND : 0 < np /\ 0 < n).
  { inversion S3 as [|? ? N1 N2]; subst. inversion N2; subst. simpl in *. lia. }
  assert (PD : np * n <= int_max).
  { pose proof (prod_app_le_r _ _ V2) as P. cbn [prod_len] in P. rewrite !Z.sub_0_r, Z.mul_1_r in P. lia. }
  unfold dataset_resize. fold np. rewrite range_copy_of by (now apply fit_strides). cbn [liftr]. change range_empty with (range_of []).
  rewrite (range_extrude_ok [] 0 np).
  2:{ unfold is_int, int_min, int_max; cbn; lia. }
  2:{ cbn. auto. }
  cbn [liftr app]. rewrite (range_extrude_ok [(0, np)] 0 n).
  2:{ unfold is_int, int_min, int_max; cbn; lia. }
  2:{ cbn [app strides_fit prod_len]. unfold is_int, int_min, int_max in *. rewrite !Z.sub_0_r, Z.mul_1_r. splits; auto; nia. }
  cbn [liftr app]. rewrite range_volume_fit by apply FM. cbn [liftr]. rewrite box_volume_pos by assumption.
  pose proof (prod_len_pos _ S2). destruct (Z.ltb_spec 0 (prod_len M)); [|lia].
  change (r_nd (range_of M)) with (Z.of_nat (List.length M)). rewrite Nat2Z.id.
  rewrite range_copy_of by (now apply fit_strides). cbn [liftr].
  assert (LM : Z.of_nat (List.length M) < int_max) by (rewrite app_length in S7; lia).
  rewrite (extrude_unit_ok (List.length M) []) by (auto; constructor). cbn [app liftr]. rewrite <- one_cell_repeat.
  pose proof (one_cell_valid M S1) as OV.
  assert (OF : fit (one_cell M)) by (now apply valid_fit).
  rewrite range_copy_of by (now apply fit_strides). cbn [liftr].
  destruct (resize_ok (echunk F) echunk_default (ds_chunks d) (one_cell M)) as (i & E & Hok & Hd); try apply OV.
  rewrite E. rewrite one_cell_prod in Hd. change (Z.to_nat 1) with 1%nat in Hd. cbn [omap obind ds_chunks].
  set (e0 := match if_data (ds_chunks d) with e :: _ => e | [] => echunk_default end).
  assert (Hi : if_data i = [e0]).
  { rewrite Hd. unfold e0. destruct (if_data (ds_chunks d)) as [|x [|y l]]; cbn [List.length] in *; [reflexivity|reflexivity|lia]. }
  rewrite Hi. change (vget [e0] 0) with (Ok e0). cbn [liftr].
  destruct (echunk_resize_gen e0 M [(0, np); (0, n)] g S) as (j & J1 & J2 & J3). rewrite J3. cbn [omap upd].
  exists j. split; [exact J1|]. split; [|rewrite (io_range _ _ Hok); reflexivity].
  cbv zeta. unfold e0 in J2. destruct (if_data (ds_chunks d)); exact J2.
Qed.

(** A dataset with one chunk or none is resized for a mesh: its members and strips
    are those of a new dataset; of the elements only the new ones are zero, the
    others keep the old values in the order of memory.
    Partial: an empty mesh, and the values of the elements, both refuted below. *)
Theorem C72_resize_partial : forall F (A : Arith F) (d : dataset F) mesh M b n g, shape M [(0, bs_points b); (0, n)] g -> observes mesh M ->
  (List.length (if_data (ds_chunks d)) <= 1)%nat ->
  exists d' e u, dataset_resize mesh b n g d = Done d' /\ laid_out d' M b n g e /\ chunk_holds e M [(0, bs_points b); (0, n)] g u /\
    let old := match if_data (ds_chunks d) with e :: _ => if_data (ec_if e) | [] => [] end in
    forall c, in_box (grow g M ++ [(0, bs_points b); (0, n)]) c ->
      u c = nth (Z.to_nat (offset (grow g M ++ [(0, bs_points b); (0, n)]) c)) old f0.
Proof.
  intros F A d mesh M b n g S OM HL. apply observes_iff in OM. subst mesh.
  destruct (dataset_resize_ok F A d M b n g S HL) as (i & I1 & I2 & E). set (B := grow g M ++ [(0, bs_points b); (0, n)]) in *. cbv zeta in I2.
  set (old := match if_data (ds_chunks d) with e :: _ => if_data (ec_if e) | [] => [] end) in *.
  pose proof (iface_as_of F f0 i B I1) as EI. eexists _, _, _. split; [exact E|]. split; [|split].
  - pose proof S as (S1 & _). pose proof (one_cell_valid M S1) as OV. unfold laid_out. cbn [ds_basis ds_comp ds_mesh ds_local ds_layout ds_chunks if_data].
    split; [reflexivity|]. repeat (split; [now apply observes_iff|]). split; [|reflexivity].
    split; [now apply observes_iff|]. cbn [if_data List.length]. now rewrite one_cell_prod.
  - apply chunk_holds_iff; [exact S|]. rewrite EI at 1. apply ec_with_of.
  - cbv zeta. intros c Hc. pose proof (offset_bounds _ _ Hc) as OB. rewrite I2.
    destruct (Nat.lt_ge_cases (Z.to_nat (offset B c)) (List.length old)) as [HO|HO].
    + rewrite app_nth1 by (rewrite firstn_length; lia). rewrite nth_firstn by lia. reflexivity.
    + rewrite (nth_overflow old) by exact HO. rewrite app_nth2 by (rewrite firstn_length; lia). apply nth_repeat.
Qed.
Print Assumptions C72_resize_partial.

(** What a constructor reports when its body has run to [o]: the object is gone
    after an exception. *)
Definition built {S} (o : out S) : res S :=
  match o with Done s => Ok s | Threw m _ => Exn m | Undef k => UB k | Spin => NoFuel end.

(** The constructor with arguments does what resize does with blank members,
    whatever the arguments. *)
Theorem C72_constructor : forall F (A : Arith F) mesh b n g,
  dataset_new mesh b n g = built (dataset_resize mesh b n g (dataset_blank (F := F))).
Proof.
  intros F A mesh b n g. unfold dataset_new, dataset_resize. cbn [ds_chunks dataset_blank].
  destruct (range_copy mesh) as [gl|m|k|]; cbn [bind liftr built]; try reflexivity.
  destruct (range_extrude range_empty 0 (bs_points b)) as [c1|m|k|]; cbn [bind liftr built]; try reflexivity.
  destruct (range_extrude c1 0 n) as [c2|m|k|]; cbn [bind liftr built]; try reflexivity.
  destruct (range_volume gl) as [v|m|k|]; cbn [bind liftr built]; try reflexivity.
  destruct (0 <? v); [|reflexivity].
  destruct (range_copy gl) as [loc|m|k|]; cbn [bind liftr built]; try reflexivity.
  destruct (extrude_unit (Z.to_nat (r_nd gl)) range_empty) as [lay|m|k|]; cbn [bind liftr built]; try reflexivity.
  destruct (range_copy lay) as [lay'|m|k|]; cbn [bind liftr built]; try reflexivity.
  destruct (iface_resize echunk_default (mkIface range_empty []) lay') as [i|m i|k|]; cbn [omap obind built ds_chunks]; try reflexivity.
  destruct (if_data i) as [|e l] eqn:Hi; cbn [vget]; [reflexivity|].
  change (vget (e :: l) 0) with (Ok e). cbn [bind liftr].
  destruct (echunk_resize e loc c2 g) as [e'|m e'|k|]; cbn [omap built]; try reflexivity.
Qed.
Print Assumptions C72_constructor.

(** The default constructors give no chunk and no mesh; sync throws and changes
    nothing (dataset.cpp:36-49). *)
Theorem C72_default : forall F (A : Arith F),
  exists d : dataset F, dataset_default = Done d /\ variable_default = Done (mkVar d "void" []) /\
    if_data (ds_chunks d) = [] /\ observes (ds_mesh d) [] /\ observes (ds_local d) [] /\ observes (ds_layout d) [] /\
    observes (ds_comp d) [(0, 0); (0, 1)] /\ range_volume (ds_comp d) = Ok 0 /\
    forall d0 : dataset F, dataset_sync d0 = Threw "qk::data::dataset::sync : Function really doesn't work yet."%string d0.
Proof.
  intros F A. eexists. split; [reflexivity|]. split; [reflexivity|]. split; [reflexivity|].
  repeat (split; [now apply observes_iff|]). split; [reflexivity|]. reflexivity.
Qed.
Print Assumptions C72_default.

(** A mesh of volume 0: the members take the new mesh, basis and components, but
    the chunks, the local mesh and the layout stay the old ones. *)
Theorem C72_empty_mesh : forall F (A : Arith F) (d : dataset F) mesh M b n g, strides_fit M -> observes mesh M -> range_volume mesh = Ok 0 ->
  0 <= bs_points b <= int_max -> 0 <= n <= int_max ->
  exists d', dataset_resize mesh b n g d = Done d' /\ ds_basis d' = b /\ observes (ds_mesh d') M /\ observes (ds_comp d') [(0, bs_points b); (0, n)] /\
    ds_chunks d' = ds_chunks d /\ ds_local d' = ds_local d /\ ds_layout d' = ds_layout d.
Proof.
  intros F A d mesh M b n g SF OM H0 Hb Hn. assert (is_int 0) by (unfold is_int, int_min, int_max; lia).
  assert (is_int (n - 0)) by (unfold is_int, int_min, int_max in *; lia).
  pose proof OM as OM'. apply observes_iff in OM. subst mesh. unfold dataset_resize.
  rewrite range_copy_of by assumption. cbn [liftr]. change range_empty with (range_of []). rewrite (range_extrude_ok [] 0 (bs_points b)); [|assumption|cbn; auto].
  cbn [liftr app]. rewrite (range_extrude_ok [(0, bs_points b)] 0 n); [|assumption|].
  2:{ cbn [app strides_fit prod_len]. rewrite Z.mul_1_r. auto. }
  cbn [liftr app]. rewrite H0. cbn [liftr]. change (0 <? 0) with false. cbv iota.
  eexists. split; [reflexivity|]. cbn [ds_basis ds_mesh ds_comp ds_chunks ds_local ds_layout]. repeat (split; [try reflexivity; try assumption; try (now apply observes_iff)|]). reflexivity.
Qed.
Print Assumptions C72_empty_mesh.

Local Notation dbl := sf_of_Z.

(** The dataset of one component on [M] with no ghost layer that holds [u]. *)
Definition small_dataset (M : box) (u : list Z -> spec_float) : dataset spec_float :=
  mkDataset (mkIface (range_of (one_cell M)) [echunk_of M [(0, 1); (0, 1)] 0 u]) volume_average
    (range_of [(0, 1); (0, 1)]) (range_of M) (range_of M) (range_of (one_cell M)).

Lemma small_laid_out : forall M u, shape M [(0, 1); (0, 1)] 0 ->
  laid_out (small_dataset M u) M volume_average 1 0 (echunk_of M [(0, 1); (0, 1)] 0 u) /\
  chunk_holds (echunk_of M [(0, 1); (0, 1)] 0 u) M [(0, 1); (0, 1)] 0 u.
Proof.
  intros M u S. pose proof S as (S1 & _). split; [|now apply chunk_holds_iff].
  unfold laid_out, small_dataset. cbn [ds_basis ds_comp ds_mesh ds_local ds_layout ds_chunks if_data].
  split; [reflexivity|]. repeat (split; [now apply observes_iff|]). split; [|reflexivity].
  split; [now apply observes_iff|]. cbn [if_data List.length]. now rewrite one_cell_prod.
Qed.

(** What a caller may expect of resize: afterwards the elements are zero as in a
    new dataset.  It is not so: the old values stay in memory order, and most of
    them belong to other cells now. *)
Theorem C72_stale_refuted :
  exists d M e u M' d' e' u', laid_out d M volume_average 1 0 e /\ chunk_holds e M [(0, 1); (0, 1)] 0 u /\
    shape M [(0, 1); (0, 1)] 0 /\ shape M' [(0, 1); (0, 1)] 0 /\ (forall i j, u [i; j; 0; 0] = dbl (10 * i + j)) /\
    dataset_resize (range_of M') volume_average 1 0 d = Done d' /\ laid_out d' M' volume_average 1 0 e' /\ chunk_holds e' M' [(0, 1); (0, 1)] 0 u' /\
    u' [0; 0; 0; 0] = dbl 0 /\ u' [0; 1; 0; 0] = dbl 1 /\ u' [0; 2; 0; 0] = dbl 10 /\ u' [1; 0; 0; 0] = dbl 11 /\ u' [1; 1; 0; 0] = dbl 0.
Proof.
  set (M := [(0, 2); (0, 2)] : box). set (M' := [(0, 2); (0, 3)] : box).
  set (u := fun c => match c with i :: j :: _ => dbl (10 * i + j) | _ => f0 end).
  assert (S : shape M [(0, 1); (0, 1)] 0) by (apply shapeb_ok; vm_compute; reflexivity).
  assert (S' : shape M' [(0, 1); (0, 1)] 0) by (apply shapeb_ok; vm_compute; reflexivity).
  destruct (small_laid_out M u S) as (L & H).
  destruct (C72_resize_partial _ _ (small_dataset M u) (range_of M') M' volume_average 1 0 S') as (d' & e' & u' & E & L' & H' & V).
  - now apply observes_iff.
  - cbn. lia.
  - exists (small_dataset M u), M, (echunk_of M [(0, 1); (0, 1)] 0 u), u, M', d', e', u'.
    split; [exact L|]. split; [exact H|]. split; [exact S|]. split; [exact S'|]. split; [reflexivity|].
    split; [exact E|]. split; [exact L'|]. split; [exact H'|].
    assert (I : forall c, in_boxb (grow 0 M' ++ [(0, 1); (0, 1)]) c = true -> in_box (grow 0 M' ++ [(0, 1); (0, 1)]) c) by (intros; now apply in_boxb_iff).
    splits; (rewrite V; [vm_compute; reflexivity|apply I; reflexivity]).
Qed.
Print Assumptions C72_stale_refuted.

(** Nor does resizing to a mesh without cells remove the old chunk, as a new dataset
    has none there: its elements can still be reached. *)
Theorem C72_empty_refuted :
  exists d M e u mesh d' d'', laid_out d M volume_average 1 0 e /\ chunk_holds e M [(0, 1); (0, 1)] 0 u /\ shape M [(0, 1); (0, 1)] 0 /\
    observes mesh [(0, 0)] /\ dataset_resize mesh volume_average 1 0 d = Done d' /\ dataset_new mesh volume_average 1 0 = Ok d'' /\
    observes (ds_mesh d') [(0, 0)] /\ observes (ds_local d') M /\ if_data (ds_chunks d') = [e] /\ if_data (ds_chunks d'') = [].
Proof.
  set (M := [(0, 2)] : box). set (u := fun c => match c with i :: _ => dbl (10 + i) | _ => f0 end).
  assert (S : shape M [(0, 1); (0, 1)] 0) by (apply shapeb_ok; vm_compute; reflexivity).
  destruct (small_laid_out M u S) as (L & H). eexists (small_dataset M u), M, _, u, (range_of [(0, 0)]), _, _.
  split; [exact L|]. split; [exact H|]. split; [exact S|]. split; [now apply observes_iff|].
  split; [reflexivity|]. split; [reflexivity|]. split; [now apply observes_iff|]. split; [now apply observes_iff|]. split; reflexivity.
Qed.
Print Assumptions C72_empty_refuted.

(** Beside C72_resize_partial and C72_empty_mesh: a dataset of two cells is resized
    to three cells, then to none; the chunk of three cells stays. *)
Example C72_ex : let u := (fun c => match c with i :: _ => dbl (10 + i) | _ => f0 end) in
  match dataset_resize (range_of [(4, 7)]) volume_average 1 0 (small_dataset [(0, 2)] u) with
  | Done d =>
      map (fun e => if_data (ec_if e)) (if_data (ds_chunks d)) = [[dbl 10; dbl 11; dbl 0]] /\
      (exists d', dataset_resize (range_of [(4, 4)]) volume_average 2 0 d = Done d' /\
         map (fun e => if_data (ec_if e)) (if_data (ds_chunks d')) = [[dbl 10; dbl 11; dbl 0]] /\ r_upper (ds_mesh d') = [4] /\ r_upper (ds_local d') = [7])
  | _ => False
  end.
Proof. vm_compute. split; [reflexivity|]. eexists. repeat split. Qed.

(** Beside C72_constructor and C72_default: an overflow of the element count is
    reported alike; the default dataset resized to a mesh is the constructed one. *)
Example C72_constructor_ex :
  dataset_new (F := spec_float) (range_of [(0, 65536); (0, 65536)]) volume_average 1 0 = UB IntOverflow /\
  obind dataset_default (dataset_resize (range_of [(0, 2)]) volume_average 1 0) = Done (small_dataset [(0, 2)] (fun _ => f0)).
Proof. split; vm_compute; reflexivity. Qed.
