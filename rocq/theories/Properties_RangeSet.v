(** * Properties of range decomposition (C15). *)
From Coq Require Import ZArith List String Lia Bool.
From Verif Require Import Base BaseFacts BoxSpec Range RangeSpec RangeFacts
  Indexer Interface ApiSpec ApiFacts RangeSet RangeSetSpec RangeSetFacts.
Import ListNotations.
Open Scope Z_scope.

(** Every cell of the parent lies in exactly one of the produced sub ranges and
    the sub ranges contain no other cell.  Lengths and counts below 2^24. *)
Theorem C15_cells_covered_once_partial : forall b dims r fuel,
  b <> [] -> Forall2 div_ok b dims -> max_prod b dims <= int_max -> observes r b ->
  prod_len (dims_box dims) <= Z.of_nat fuel ->
  exists rs, rs_new fuel r dims = Done rs /\ container (rs_ranges rs) (dims_box dims) /\
    (forall idx, in_box (dims_box dims) idx -> exists sb, part rs idx sb) /\
    (forall idx sb c, in_box (dims_box dims) idx -> part rs idx sb -> in_box sb c -> in_box b c) /\
    (forall c, in_box b c -> exists idx sb, in_box (dims_box dims) idx /\ part rs idx sb /\ in_box sb c) /\
    (forall c idx sb idx' sb', in_box (dims_box dims) idx -> part rs idx sb -> in_box sb c ->
       in_box (dims_box dims) idx' -> part rs idx' sb' -> in_box sb' c -> idx = idx').
Proof. exact rs_cover_once. Qed.
Print Assumptions C15_cells_covered_once_partial.

(** A 3 x 2 decomposition of [-2,8) x [0,3): pieces of 4, 4, 2 by 2, 1. *)
Example C15_cells_covered_once_ex : exists rs,
  rs_new 6 (range_of [(-2, 8); (0, 3)]) [3; 2] = Done rs /\
  part rs [0; 0] [(-2, 2); (0, 2)] /\ part rs [2; 1] [(6, 8); (2, 3)].
Proof.
  eexists. split; [vmr|]. split.
  - exists (range_of [(-2, 2); (0, 2)]). split; [vmr|apply observes_range_of].
  - exists (range_of [(6, 8); (2, 3)]). split; [vmr|apply observes_range_of].
Qed.

(** If (count-1)*ceil(length/count) < length in every dimension, all sub ranges
    are non-empty, included in the parent, and their volumes add up. *)
Theorem C15_parts_valid_partial : forall b dims r fuel,
  b <> [] -> Forall2 div_ok b dims -> all_get_cells b dims -> max_prod b dims <= int_max -> observes r b ->
  prod_len (dims_box dims) <= Z.of_nat fuel ->
  exists rs parts, rs_new fuel r dims = Done rs /\
    Forall2 (fun idx sb => part rs idx sb /\ nonempty sb /\ box_incl sb b) (cells (dims_box dims)) parts /\
    zsum (map prod_len parts) = prod_len b.
Proof. exact rs_valid_parts. Qed.
Print Assumptions C15_parts_valid_partial.

Example C15_parts_valid_ex :
  Forall2 div_ok [(-2, 8); (0, 3)] [3; 2] /\ all_get_cells [(-2, 8); (0, 3)] [3; 2] /\
  4 * 2 + 4 * 1 + 4 * 2 + 4 * 1 + 2 * 2 + 2 * 1 = prod_len [(-2, 8); (0, 3)].
Proof.
  split; [|split]; [repeat constructor; vm_compute; congruence| |reflexivity].
  repeat constructor; vm_compute; congruence.
Qed.

(** Refuted in general: five cells in four parts produce a sub range [6,5). *)
Theorem C15_parts_valid_refuted : exists rs,
  rs_new 4 (range_of [(0, 5)]) [4] = Done rs /\ part rs [3] [(6, 5)] /\
  range_length (range_of [(6, 5)]) 0 = Ok (-1) /\ ~ nonempty [(6, 5)].
Proof. exact rs_invalid_parts. Qed.
Print Assumptions C15_parts_valid_refuted.

(** Refuted in general: float rounding drops the last cell of a range of
    2^24 + 1 cells even when it is not divided at all. *)
Theorem C15_cells_covered_once_refuted : exists rs,
  rs_new 1 (range_of [(0, 16777217)]) [1] = Done rs /\ part rs [0] [(0, 16777216)] /\
  in_box [(0, 16777217)] [16777216] /\ ~ in_box [(0, 16777216)] [16777216].
Proof. exact rs_lost_cell. Qed.
Print Assumptions C15_cells_covered_once_refuted.
