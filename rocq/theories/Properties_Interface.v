(** * Properties of containers and region copies (C09-C14, C17). *)
From Coq Require Import ZArith List String Lia Bool.
From Verif Require Import Base BaseFacts BoxSpec BoxFacts Range RangeSpec RangeFacts
  Indexer IndexerFacts Interface InterfaceFacts ApiSpec ApiFacts.
Import ListNotations.
Open Scope Z_scope.

(** ** C09 *)

(** Any sequence of writes through either interface leaves in every cell the last
    value written to it, and the old value in cells not written. *)
Theorem C09_writes : forall T (i : iface T) b ws, valid_box b -> container i b ->
  Forall (w_ok (if_range i) b) ws ->
  exists i', do_writes i ws = Ok i' /\ container i' b /\ if_range i' = if_range i /\
    forall c v, in_box b c -> iface_elem i c = Ok v -> iface_elem i' c = Ok (after_writes ws c v).
Proof. exact api_writes. Qed.
Print Assumptions C09_writes.

(** Reads are defined everywhere, and both interfaces read the same. *)
Theorem C09_read_total : forall T (i : iface T) b c, valid_box b -> container i b -> in_box b c ->
  exists v, iface_elem i c = Ok v.
Proof. exact api_read_total. Qed.
Print Assumptions C09_read_total.

Theorem C09_read_indexer : forall T (i : iface T) b ix c, valid_box b -> container i b ->
  points (if_range i) ix c -> iface_get i ix = iface_elem i c.
Proof. exact api_read_ix. Qed.
Print Assumptions C09_read_indexer.

(** Containers as above are what the constructor builds. *)
Theorem C09_construct : forall T (d : T) r b, valid_box b -> observes r b ->
  exists i, iface_new d r = Done i /\ container i b /\ if_range i = r /\
    forall c, in_box b c -> iface_elem i c = Ok d.
Proof. exact api_new. Qed.
Print Assumptions C09_construct.

Example C09_ex : exists i i' ix,
  iface_new 0 (range_of [(0, 2); (5, 8)]) = Done i /\
  points (if_range i) ix [1; 5] /\
  do_writes i [WCoord [0; 6] 11; WIx ix [1; 5] 12; WCoord [0; 6] 13] = Ok i' /\
  iface_elem i' [0; 6] = Ok 13 /\ iface_elem i' [1; 5] = Ok 12 /\ iface_elem i' [1; 7] = Ok 0.
Proof.
  eexists _, _, (ix_at [(0, 2); (5, 8)] [(0, 2); (5, 8)] [1; 5]).
  split; [vmr|]. split.
  - exists (range_of [(0, 2); (5, 8)]), [(0, 2); (5, 8)]. eexists. exists 3%nat. splits.
    + apply observes_range_of.
    + repeat constructor; simpl; lia.
    + vmr.
    + vmr.
    + reflexivity.
    + reflexivity.
  - split; [vmr|]. repeat split.
Qed.

(** ** C10 *)

Theorem C10_fill_partial : forall T (i : iface T) b sub bs v fuel,
  valid_box b -> container i b -> observes sub bs -> nonempty bs -> box_incl bs b ->
  prod_len bs <= Z.of_nat fuel ->
  exists i', iface_fill fuel sub v i = Done i' /\ container i' b /\ if_range i' = if_range i /\
    (forall c, in_box bs c -> iface_elem i' c = Ok v) /\
    (forall c, in_box b c -> ~ in_box bs c -> iface_elem i' c = iface_elem i c).
Proof. exact api_fill. Qed.
Print Assumptions C10_fill_partial.

Theorem C10_fill_outside_throws : forall T (i : iface T) b sub bs v fuel,
  container i b -> observes sub bs -> ~ box_incl bs b ->
  iface_fill fuel sub v i =
  Threw "qk::indexer_interface::fill : Requested range extends outside of interface bounds." i.
Proof. exact api_fill_outside. Qed.
Print Assumptions C10_fill_outside_throws.

Theorem C10_fill_all : forall T (i : iface T) b v, valid_box b -> container i b ->
  container (iface_fill_all v i) b /\ if_range (iface_fill_all v i) = if_range i /\
  forall c, in_box b c -> iface_elem (iface_fill_all v i) c = Ok v.
Proof. exact api_fill_all. Qed.
Print Assumptions C10_fill_all.

(** Refuted for empty sub ranges: fill of an included region without cells never
    returns normally. *)
Theorem C10_fill_empty_refuted : forall T (i i' : iface T) b sub bs v fuel,
  valid_box b -> container i b -> observes sub bs -> strides_fit bs -> box_incl bs b -> ~ nonempty bs ->
  iface_fill fuel sub v i <> Done i'.
Proof. exact api_fill_empty. Qed.
Print Assumptions C10_fill_empty_refuted.

Example C10_ex :
  let i := mkIface (range_of [(0, 3); (0, 2)]) [1; 2; 3; 4; 5; 6] in
  container i [(0, 3); (0, 2)] /\
  iface_fill 2 (range_of [(1, 3); (1, 2)]) 9 i = Done (mkIface (range_of [(0, 3); (0, 2)]) [1; 2; 3; 9; 5; 9]) /\
  iface_fill 2 (range_of [(1, 4); (1, 2)]) 9 i =
    Threw "qk::indexer_interface::fill : Requested range extends outside of interface bounds." i /\
  iface_fill_all 9 i = mkIface (range_of [(0, 3); (0, 2)]) [9; 9; 9; 9; 9; 9] /\
  iface_fill 20 (range_of [(1, 3); (1, 1)]) 9 i = Undef OutOfBounds.
Proof.
  split; [split; [apply observes_range_of|reflexivity]|]. repeat split; vmr.
Qed.

(** ** C11 *)

Theorem C11_pull_partial : forall T (src i : iface T) b1 b2 from to bf bt fuel,
  valid_box b1 -> valid_box b2 -> container src b1 -> container i b2 ->
  observes from bf -> observes to bt -> nonempty bf -> nonempty bt ->
  box_incl bf b1 -> box_incl bt b2 -> prod_len bf = prod_len bt -> prod_len bt <= Z.of_nat fuel ->
  exists i', iface_pull fuel (fun _ => src) from to i = Done i' /\ copied src bf i i' b2 bt.
Proof. exact api_pull. Qed.
Print Assumptions C11_pull_partial.

(** The same when source and target are one container and the regions are
    disjoint. *)
Theorem C11_pull_self_partial : forall T (i : iface T) b from to bf bt fuel,
  valid_box b -> container i b ->
  observes from bf -> observes to bt -> nonempty bf -> nonempty bt ->
  box_incl bf b -> box_incl bt b -> (forall c, in_box bf c -> in_box bt c -> False) ->
  prod_len bf = prod_len bt -> prod_len bt <= Z.of_nat fuel ->
  exists i', iface_pull fuel (fun j => j) from to i = Done i' /\ copied i bf i i' b bt.
Proof. exact api_pull_self. Qed.
Print Assumptions C11_pull_self_partial.

Theorem C11_pull_mismatch_throws : forall T (src_of : iface T -> iface T) i from to vf vt fuel,
  range_volume from = Ok vf -> range_volume to = Ok vt -> vf <> vt ->
  iface_pull fuel src_of from to i = Threw "qk::indexer_interface::pull : Volume mismatch." i.
Proof. exact api_pull_mismatch. Qed.
Print Assumptions C11_pull_mismatch_throws.

Example C11_ex :
  let s := mkIface (range_of [(0, 2); (0, 3)]) [1; 2; 3; 4; 5; 6] in
  let i := mkIface (range_of [(4, 9)]) [0; 0; 0; 0; 0] in
  iface_pull 4 (fun _ => s) (range_of [(0, 2); (1, 3)]) (range_of [(5, 9)]) i =
    Done (mkIface (range_of [(4, 9)]) [0; 2; 3; 5; 6]) /\
  iface_pull 4 (fun j => j) (range_of [(4, 6)]) (range_of [(7, 9)]) (mkIface (range_of [(4, 9)]) [1; 2; 3; 4; 5]) =
    Done (mkIface (range_of [(4, 9)]) [1; 2; 3; 1; 2]) /\
  iface_pull 4 (fun _ => s) (range_of [(0, 2); (1, 3)]) (range_of [(6, 9)]) i =
    Threw "qk::indexer_interface::pull : Volume mismatch." i.
Proof. repeat split; vmr. Qed.

(** Refuted: regions outside the containers are not rejected.  A source region
    outside the source is accepted and nothing is copied; a target region outside
    the target is accepted and the first cells of the target are overwritten. *)
Theorem C11_outside_rejected_refuted :
  (exists (src i : iface Z) from to bf bt,
     container src [(0, 2)] /\ container i [(0, 3)] /\ observes from bf /\ observes to bt /\
     ~ box_incl bf [(0, 2)] /\ iface_pull 2 (fun _ => src) from to i = Done i) /\
  (exists (src i i' : iface Z) from to bf bt,
     container src [(0, 2)] /\ container i [(0, 3)] /\ observes from bf /\ observes to bt /\
     ~ box_incl bt [(0, 3)] /\ iface_pull 2 (fun _ => src) from to i = Done i' /\
     iface_elem i [0] = Ok 7 /\ iface_elem i' [0] = Ok 1).
Proof. exact api_pull_outside_refuted. Qed.
Print Assumptions C11_outside_rejected_refuted.

(** ** C12 *)

(** Refuted: two containers of equal volume with different origins; the call
    returns normally and copies nothing. *)
Theorem C12_whole_pull_refuted : exists (src i : iface Z),
  container src [(0, 2)] /\ container i [(1, 3)] /\
  iface_pull_all 2 src i = Done i /\ if_data i <> if_data src.
Proof. exact api_pull_all_refuted. Qed.
Print Assumptions C12_whole_pull_refuted.

(** What holds: containers over the same box. *)
Theorem C12_whole_pull_same_box_partial : forall T (src i : iface T) b fuel,
  valid_box b -> container src b -> container i b -> prod_len b <= Z.of_nat fuel ->
  exists i', iface_pull_all fuel src i = Done i' /\ container i' b /\ if_range i' = if_range i /\
    if_data i' = if_data src.
Proof. exact api_pull_all_same. Qed.
Print Assumptions C12_whole_pull_same_box_partial.

Example C12_ex :
  iface_pull_all 4 (mkIface (range_of [(3, 5); (0, 2)]) [1; 2; 3; 4]) (mkIface (range_of [(3, 5); (0, 2)]) [0; 0; 0; 0]) =
  Done (mkIface (range_of [(3, 5); (0, 2)]) [1; 2; 3; 4]).
Proof. vmr. Qed.

(** ** C13 *)

Theorem C13_swap : forall T (a b : iface T) v,
  range_volume (if_range a) = Ok v -> range_volume (if_range b) = Ok v ->
  exists a' b', iface_swap (a, b) = Done (a', b') /\
    if_range a' = if_range a /\ if_range b' = if_range b /\
    if_data a' = if_data b /\ if_data b' = if_data a /\
    iface_swap (a', b') = Done (a, b).
Proof. exact api_swap. Qed.
Print Assumptions C13_swap.

Theorem C13_swap_mismatch_throws : forall T (a b : iface T) va vb,
  range_volume (if_range a) = Ok va -> range_volume (if_range b) = Ok vb -> va <> vb ->
  iface_swap (a, b) = Threw "qk::indexer_interface::swap : Volume mismatch." (a, b).
Proof. exact api_swap_mismatch. Qed.
Print Assumptions C13_swap_mismatch_throws.

Example C13_ex :
  iface_swap (mkIface (range_of [(0, 2)]) [1; 2], mkIface (range_of [(5, 7)]) [8; 9]) =
    Done (mkIface (range_of [(0, 2)]) [8; 9], mkIface (range_of [(5, 7)]) [1; 2]) /\
  iface_swap (mkIface (range_of [(0, 2)]) [1; 2], mkIface (range_of [(5, 6)]) [8]) =
    Threw "qk::indexer_interface::swap : Volume mismatch."
      (mkIface (range_of [(0, 2)]) [1; 2], mkIface (range_of [(5, 6)]) [8]).
Proof. split; vmr. Qed.

(** ** C14 (containers; data chunks in Properties_Chunk) *)

(** Refuted: a copy-constructed container has the range of its source but every
    element is the default value, whatever the source holds. *)
Theorem C14_copy_constructor_refuted : forall T (d : T) src b, valid_box b -> container src b ->
  exists i, iface_copy d src = Done i /\ if_range i = if_range src /\ container i b /\
    forall c, in_box b c -> iface_elem i c = Ok d.
Proof. exact api_copy_ctor. Qed.
Print Assumptions C14_copy_constructor_refuted.

Example C14_copy_constructor_refuted_ex :
  iface_copy 0 (mkIface (range_of [(0, 3)]) [4; 5; 6]) = Done (mkIface (range_of [(0, 3)]) [0; 0; 0]).
Proof. vmr. Qed.

(** ** C17 *)

Theorem C17_copy_to_partial : forall T (src i : iface T) b1 b2 from to bf bt fuel,
  valid_box b1 -> valid_box b2 -> container src b1 -> container i b2 ->
  observes from bf -> observes to bt -> nonempty bf -> nonempty bt ->
  box_incl bf b1 -> box_incl bt b2 -> prod_len bf = prod_len bt -> prod_len bt <= Z.of_nat fuel ->
  exists i', copy_to fuel (fun _ => src) from to i = Done i' /\ copied src bf i i' b2 bt.
Proof. exact api_copy_to. Qed.
Print Assumptions C17_copy_to_partial.

Theorem C17_copy_to_self_partial : forall T (i : iface T) b from to bf bt fuel,
  valid_box b -> container i b ->
  observes from bf -> observes to bt -> nonempty bf -> nonempty bt ->
  box_incl bf b -> box_incl bt b -> (forall c, in_box bf c -> in_box bt c -> False) ->
  prod_len bf = prod_len bt -> prod_len bt <= Z.of_nat fuel ->
  exists i', copy_to fuel (fun j => j) from to i = Done i' /\ copied i bf i i' b bt.
Proof. exact api_copy_to_self. Qed.
Print Assumptions C17_copy_to_self_partial.

Theorem C17_copy_to_mismatch_throws : forall T (src_of : iface T -> iface T) i from to vf vt fuel,
  range_volume from = Ok vf -> range_volume to = Ok vt -> vf <> vt ->
  copy_to fuel src_of from to i = Threw "qk::data::copy_to : Array mismatch." i.
Proof. exact api_copy_to_mismatch. Qed.
Print Assumptions C17_copy_to_mismatch_throws.

Example C17_ex :
  let i := mkIface (range_of [(-2, 6)]) [0; 0; 1; 2; 3; 4; 0; 0] in
  copy_to 2 (fun j => j) (range_of [(0, 2)]) (range_of [(4, 6)]) i =
    Done (mkIface (range_of [(-2, 6)]) [0; 0; 1; 2; 3; 4; 1; 2]) /\
  copy_to 2 (fun j => j) (range_of [(0, 2)]) (range_of [(4, 5)]) i =
    Threw "qk::data::copy_to : Array mismatch." i.
Proof. split; vmr. Qed.

(** Refuted: regions outside the chunk are not rejected; the first cell of the
    target is overwritten with the first cell of the source. *)
Theorem C17_outside_rejected_refuted : exists (src i i' : iface Z) from to bf bt,
  container src [(0, 2)] /\ container i [(0, 3)] /\ observes from bf /\ observes to bt /\
  ~ box_incl bf [(0, 2)] /\ ~ box_incl bt [(0, 3)] /\
  copy_to 2 (fun _ => src) from to i = Done i' /\
  iface_elem i [0] = Ok 7 /\ iface_elem i' [0] = Ok 1.
Proof. exact api_copy_to_outside_refuted. Qed.
Print Assumptions C17_outside_rejected_refuted.
