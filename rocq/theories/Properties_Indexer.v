(** * Properties of indexers (C04, C05, C06). *)
From Coq Require Import ZArith List String Lia Bool.
From Verif Require Import Base BaseFacts BoxSpec BoxFacts Range RangeSpec RangeFacts
  Indexer IndexerFacts ApiSpec ApiFacts.
Import ListNotations.
Open Scope Z_scope.

(** ** C04 *)

(** Traversal of a non-empty included sub range: exactly its cells, in row-major
    order, each with its row-major offset as linear index, then the loop stops
    (any fuel of at least the volume suffices). *)
Theorem C04_traversal_partial : forall sup sub b bs fuel,
  valid_box b -> observes sup b -> observes sub bs -> nonempty bs -> box_incl bs b ->
  prod_len bs <= Z.of_nat fuel ->
  exists ix, indexer_make sub sup = Ok ix /\
    trace fuel ix = Done (map (fun c => (c, offset b c)) (cells bs)).
Proof. exact api_trace. Qed.
Print Assumptions C04_traversal_partial.

Example C04_traversal_ex : exists ix,
  indexer_make (range_of [(1, 3); (2, 4)]) (range_of [(0, 4); (0, 5)]) = Ok ix /\
  trace 4 ix = Done [([1; 2], 7); ([1; 3], 8); ([2; 2], 12); ([2; 3], 13)].
Proof. eexists. split; vmr. Qed.

(** The list of visited cells is duplicate free and is exactly the set of cells. *)
Theorem C04_cells_each_once : forall b, NoDup (cells b) /\ forall c, In c (cells b) <-> in_box b c.
Proof. exact cells_each_once. Qed.
Print Assumptions C04_cells_each_once.

Example C04_cells_each_once_ex : cells [(1, 3); (-1, 1)] = [[1; -1]; [1; 0]; [2; -1]; [2; 0]].
Proof. reflexivity. Qed.

(** A sub range that is not included is not visited at all. *)
Theorem C04_not_included : forall sup sub b bs fuel,
  observes sup b -> observes sub bs -> strides_fit b -> strides_fit bs -> b = [] \/ ~ box_incl bs b ->
  exists ix, indexer_make sub sup = Ok ix /\ trace fuel ix = Done [].
Proof. exact api_trace_outside. Qed.
Print Assumptions C04_not_included.

Example C04_not_included_ex : exists ix,
  indexer_make (range_of [(1, 6)]) (range_of [(0, 4)]) = Ok ix /\ trace 10 ix = Done [].
Proof. eexists. split; vmr. Qed.

(** An indexer that was constructed without arguments visits nothing, also after
    any number of calls of next. *)
Theorem C04_default : forall n fuel, exists ix,
  Nat.iter n (fun r => bind r indexer_next) (Ok indexer_default) = Ok ix /\ ix_ex ix = false /\ ix_lin ix = 0 /\ trace fuel ix = Done [].
Proof.
  intros n fuel. exists indexer_default. split; [|split; [|split; [|destruct fuel]]]; try reflexivity.
  induction n as [|n IH]; [reflexivity|]. unfold Nat.iter in *. cbn [nat_rect]. rewrite IH. reflexivity.
Qed.
Print Assumptions C04_default.

Example C04_default_ex : indexer_next indexer_default = Ok indexer_default /\ trace 5 indexer_default = Done [].
Proof. split; reflexivity. Qed.

(** Refuted for empty sub ranges: an included sub range without cells is
    reported as existing and the loop never ends normally, whatever the number
    of steps. *)
Theorem C04_empty_sub_range_refuted : forall sup sub b bs fuel l,
  observes sup b -> observes sub bs -> strides_fit b -> strides_fit bs -> box_incl bs b -> ~ nonempty bs ->
  forall ix, indexer_make sub sup = Ok ix -> ix_ex ix = true /\ trace fuel ix <> Done l.
Proof. exact api_trace_empty. Qed.
Print Assumptions C04_empty_sub_range_refuted.

Example C04_empty_sub_range_refuted_ex : exists ix,
  indexer_make (range_of [(2, 2)]) (range_of [(0, 4)]) = Ok ix /\ ix_ex ix = true /\ trace 50 ix = Spin.
Proof. eexists. split; [vmr|]. split; vmr. Qed.

(** ** C05 *)

(** Wherever a client stands after any number of next() calls, the linear index
    is the row-major offset and lies inside storage. *)
Theorem C05_linear_index : forall r b ix c, valid_box b -> observes r b -> points r ix c ->
  in_box b c /\ ix_lin ix = offset b c /\ 0 <= offset b c < prod_len b.
Proof. exact api_points_lin. Qed.
Print Assumptions C05_linear_index.

(** Every cell is reached. *)
Theorem C05_every_cell_reached : forall r b c, valid_box b -> observes r b -> in_box b c ->
  exists ix, points r ix c.
Proof. exact api_points_exist. Qed.
Print Assumptions C05_every_cell_reached.

(** Increments and decrements from any such position keep the linear index
    equal to the offset of the coordinates. *)
Theorem C05_linear_index_walk : forall r b ix c os ix', valid_box b -> observes r b -> points r ix c ->
  Forall is_walk os -> ix_steps ix os = Ok ix' -> ix_lin ix' = offset b (ix_idx ix').
Proof. exact api_walk. Qed.
Print Assumptions C05_linear_index_walk.

Example C05_points_ex :
  let r := range_of [(0, 4); (10, 15)] in
  valid_box [(0, 4); (10, 15)] /\
  exists ix, points r ix [2; 11] /\ ix_lin ix = 11 /\
    exists ix', ix_steps ix [IxInc 0; IxDec 1] = Ok ix' /\ ix_lin ix' = 15 /\ ix_idx ix' = [3; 10].
Proof.
  split.
  - unfold valid_box, int_bounds, is_int, int_min, int_max. splits; try discriminate; repeat constructor; simpl; lia.
  - exists (ix_at [(0, 4); (10, 15)] [(0, 4); (10, 15)] [2; 11]). splits.
    + exists (range_of [(0, 4); (10, 15)]), [(0, 4); (10, 15)]. eexists. exists 11%nat. splits.
      * apply observes_range_of.
      * repeat constructor; simpl; lia.
      * vmr.
      * vmr.
      * reflexivity.
      * reflexivity.
    + reflexivity.
    + eexists. split; [vmr|]. split; reflexivity.
Qed.

(** Distinct cells have distinct linear indices. *)
Theorem C05_injective : forall b c c', in_box b c -> in_box b c' -> offset b c = offset b c' -> c = c'.
Proof. exact offset_inj. Qed.
Print Assumptions C05_injective.

(** A whole-range traversal yields 0, 1, ..., volume-1. *)
Theorem C05_whole_range : forall r b fuel, valid_box b -> observes r b -> prod_len b <= Z.of_nat fuel ->
  exists ix tr, indexer_make r r = Ok ix /\ trace fuel ix = Done tr /\ map snd tr = zrange 0 (prod_len b).
Proof. exact api_whole_trace. Qed.
Print Assumptions C05_whole_range.

Example C05_whole_range_ex : exists ix tr,
  indexer_make (range_of [(3, 5); (-1, 2)]) (range_of [(3, 5); (-1, 2)]) = Ok ix /\
  trace 6 ix = Done tr /\ map snd tr = [0; 1; 2; 3; 4; 5].
Proof. eexists _, _. split; [vmr|]. split; vmr. Qed.

(** ** C06 *)

Theorem C06_final_linear_index : forall sup sub b bs,
  valid_box b -> observes sup b -> observes sub bs -> nonempty bs -> box_incl bs b ->
  exists ix, indexer_make sub sup = Ok ix /\ indexer_final ix = Ok (offset b (last_cell bs) + 1).
Proof. exact api_final. Qed.
Print Assumptions C06_final_linear_index.

Theorem C06_final_bounds : forall b bs c, nonempty bs -> box_incl bs b -> in_box bs c ->
  offset b (first_cell bs) <= offset b c < offset b (last_cell bs) + 1 /\ offset b (last_cell bs) + 1 <= prod_len b.
Proof. exact api_final_bounds. Qed.
Print Assumptions C06_final_bounds.

Example C06_final_ex : exists ix,
  indexer_make (range_of [(1, 3); (2, 4)]) (range_of [(0, 4); (0, 5)]) = Ok ix /\
  indexer_final ix = Ok 14 /\ offset [(0, 4); (0, 5)] [2; 3] = 13.
Proof. eexists. split; [vmr|]. split; vmr. Qed.
