(** * Interface: model of src/lib/indexer_interface.h (class
    qk::indexer_interface<T>) and of the region copies of src/data/functions.h. *)
From Coq Require Import ZArith List String Bool.
From Verif Require Import Base Range Indexer.
Import ListNotations.
Open Scope Z_scope.

(** indexer_interface<T>: the base class range and _data
    (indexer_interface.h:13, 162). *)
Record iface (T : Type) : Type := mkIface {
  if_range : range;
  if_data : list T
}.
Arguments mkIface {T} _ _.
Arguments if_range {T} _.
Arguments if_data {T} _.

Section Iface.
Context {T : Type}.
(** [T()], the value-initialised element. *)
Variable d : T.

(** resize(const range &) (indexer_interface.h:77-81).  When _data.resize
    throws, the range has already been replaced. *)
Definition iface_resize (i : iface T) (r : range) : out (iface T) :=
  liftr i (range_copy r) (fun r' =>
  let i1 := mkIface r' (if_data i) in
  liftr i1 (range_volume r') (fun v =>
  liftr i1 (vresize d (if_data i) v) (fun l =>
  Done (mkIface r' l)))).

(** Constructor from a range (indexer_interface.h:17-20). *)
Definition iface_new (r : range) : out (iface T) :=
  iface_resize (mkIface range_empty []) r.

(** Copy constructor (indexer_interface.h:21-24): only the range is copied. *)
Definition iface_copy (src : iface T) : out (iface T) :=
  iface_new (if_range src).

(** operator[](indexer) as a value and as an assignment target
    (indexer_interface.h:98-108). *)
Definition iface_get (i : iface T) (ix : indexer) : res T :=
  vget (if_data i) (ix_lin ix).
Definition iface_put (i : iface T) (ix : indexer) (v : T) : res (iface T) :=
  l <- vset (if_data i) (ix_lin ix) v ;;
  Ok (mkIface (if_range i) l).

(** *data(index) with global coordinates, as a value and as an assignment
    target (indexer_interface.h:119-138).  &(_data[0]) of an empty vector is
    out of bounds. *)
Definition iface_pos (i : iface T) (c : list Z) : res Z :=
  match if_data i with
  | [] => UB OutOfBounds
  | _ => lin_sum 0 c (r_lower (if_range i)) (r_stride (if_range i))
  end.
Definition iface_elem (i : iface T) (c : list Z) : res T :=
  k <- iface_pos i c ;; vget (if_data i) k.
Definition iface_store (i : iface T) (c : list Z) (v : T) : res (iface T) :=
  k <- iface_pos i c ;;
  l <- vset (if_data i) k v ;;
  Ok (mkIface (if_range i) l).

(** indexer(range) and indexer() (indexer_interface.h:88-96). *)
Definition iface_indexer (i : iface T) (sub : range) : res indexer :=
  indexer_make sub (if_range i).

(** swap (indexer_interface.h:31-38). *)
Definition iface_swap (p : iface T * iface T) : out (iface T * iface T) :=
  let (a, b) := p in
  liftr p (range_volume (if_range a)) (fun va =>
  liftr p (range_volume (if_range b)) (fun vb =>
  if va =? vb
  then Done (mkIface (if_range a) (if_data b), mkIface (if_range b) (if_data a))
  else Threw "qk::indexer_interface::swap : Volume mismatch." p)).

(** The copy loop of pull (indexer_interface.h:49-53); [src_of] gives the
    source container when the target currently is its argument: constantly the
    source, or the target itself when both are one object. *)
Fixpoint pull_loop (fuel : nat) (src_of : iface T -> iface T)
    (src_ix dst_ix : indexer) (i : iface T) : out (iface T) :=
  if ix_ex src_ix then
    match fuel with
    | O => Spin
    | S f =>
        liftr i (iface_get (src_of i) src_ix) (fun v =>
        liftr i (iface_put i dst_ix v) (fun i' =>
        liftr i' (indexer_next dst_ix) (fun dst_ix' =>
        liftr i' (indexer_next src_ix) (fun src_ix' =>
        pull_loop f src_of src_ix' dst_ix' i'))))
    end
  else Done i.

(** pull(interface, from_range, to_range) (indexer_interface.h:40-54). *)
Definition iface_pull (fuel : nat) (src_of : iface T -> iface T)
    (from to : range) (i : iface T) : out (iface T) :=
  liftr i (range_volume from) (fun vf =>
  liftr i (range_volume to) (fun vt =>
  if vf =? vt then
    liftr i (indexer_make from (if_range (src_of i))) (fun src_ix =>
    liftr i (indexer_make to (if_range i)) (fun dst_ix =>
    pull_loop fuel src_of src_ix dst_ix i))
  else Threw "qk::indexer_interface::pull : Volume mismatch." i)).

(** pull(interface) (indexer_interface.h:56-59): from_range is this->range(),
    to_range is interface.range(). *)
Definition iface_pull_all (fuel : nat) (src : iface T) (i : iface T) : out (iface T) :=
  iface_pull fuel (fun _ => src) (if_range i) (if_range src) i.

(** fill(value) (indexer_interface.h:61-64). *)
Definition iface_fill_all (v : T) (i : iface T) : iface T :=
  mkIface (if_range i) (map (fun _ => v) (if_data i)).

(** fill(sub_range, value) (indexer_interface.h:66-75). *)
Definition iface_fill (fuel : nat) (sub : range) (v : T) (i : iface T) : out (iface T) :=
  if range_includes (if_range i) sub then
    liftr i (iface_indexer i sub) (fun ix =>
    for_indexer fuel ix (fun ix j => liftr j (iface_put j ix v) Done) i)
  else Threw "qk::indexer_interface::fill : Requested range extends outside of interface bounds." i.

(** The loop of qk::data::copy_to (data/functions.h:28-38). *)
Fixpoint copy_loop (fuel : nat) (src_of : iface T -> iface T)
    (from_ix to_ix : indexer) (i : iface T) : out (iface T) :=
  match fuel with
  | O => Spin
  | S f =>
      liftr i (iface_get (src_of i) from_ix) (fun v =>
      liftr i (iface_put i to_ix v) (fun i' =>
      liftr i' (indexer_next to_ix) (fun to_ix' =>
      liftr i' (indexer_next from_ix) (fun from_ix' =>
      if ix_ex to_ix' then copy_loop f src_of from_ix' to_ix' i' else Done i'))))
  end.

(** qk::data::copy_to (data/functions.h:17-39); the state is the target chunk. *)
Definition copy_to (fuel : nat) (src_of : iface T -> iface T)
    (from to : range) (i : iface T) : out (iface T) :=
  liftr i (range_volume from) (fun vf =>
  liftr i (range_volume to) (fun vt =>
  if vf =? vt then
    liftr i (indexer_make from (if_range (src_of i))) (fun from_ix =>
    liftr i (indexer_make to (if_range i)) (fun to_ix =>
    copy_loop fuel src_of from_ix to_ix i))
  else Threw "qk::data::copy_to : Array mismatch." i)).

(** qk::data::full_copy (data/functions.h:41-51): memcpy of
    from_chunk.volume() elements between the data arrays. *)
Definition full_copy (src : iface T) (i : iface T) : out (iface T) :=
  liftr i (range_volume (if_range src)) (fun vf =>
  liftr i (range_volume (if_range i)) (fun vt =>
  if vf =? vt then
    if (Z.of_nat (List.length (if_data src)) <? vf)
       || (Z.of_nat (List.length (if_data i)) <? vf)
       || (vf <=? 0)
    then Undef OutOfBounds
    else Done (mkIface (if_range i)
                 (firstn (Z.to_nat vf) (if_data src) ++ skipn (Z.to_nat vf) (if_data i)))
  else Threw "qk::data::full_copy : Array mismatch." i)).

End Iface.
