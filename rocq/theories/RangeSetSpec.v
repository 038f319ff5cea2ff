(** * RangeSetSpec: vocabulary for the decomposition of a range. *)
From Coq Require Import ZArith List Bool.
From Verif Require Import Base BoxSpec Range RangeSpec Indexer Interface RangeSet.
Import ListNotations.
Open Scope Z_scope.

(** The box of subdivision indices. *)
Definition dims_box (dims : list Z) : box := map (fun n => (0, n)) dims.

(** The sub range stored at subdivision [idx] stands for the box [sb]. *)
Definition part (rs : range_set) (idx : list Z) (sb : box) : Prop :=
  exists r, iface_elem (rs_ranges rs) idx = Ok r /\ observes r sb.

(** Exact ceiling of len/n. *)
Definition ceil_div (len n : Z) : Z := (len + n - 1) / n.

(** Requirements per dimension: 1 <= length, count < 2^24, and the int
    arithmetic of the code is representable. *)
Definition div_ok (iv : Z * Z) (n : Z) : Prop :=
  let len := snd iv - fst iv in
  1 <= len < 2 ^ 24 /\ 1 <= n < 2 ^ 24 /\ is_int (fst iv) /\ is_int (snd iv) /\
  fst iv + n * ceil_div len n <= int_max.

(** Product of max(length, count) over the dimensions. *)
Fixpoint max_prod (b : box) (dims : list Z) : Z :=
  match b, dims with
  | iv :: b', n :: dims' => Z.max (snd iv - fst iv) n * max_prod b' dims'
  | _, _ => 1
  end.

(** Every subdivision gets at least one cell in every dimension. *)
Definition all_get_cells (b : box) (dims : list Z) : Prop :=
  Forall2 (fun iv n => (n - 1) * ceil_div (snd iv - fst iv) n < snd iv - fst iv) b dims.

(** Sum of a list of integers. *)
Definition zsum (l : list Z) : Z := fold_right Z.add 0 l.
