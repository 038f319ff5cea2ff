(** * Checks: the functions with range checks as compiled by the debug build.

    CMakeLists.txt:38-39 defines _QK_RANGE_CHECK_ when CMAKE_BUILD_TYPE matches
    DEBUG.  The other files model the code without the macro; this file models
    the functions that test it, with the macro defined. *)
From Coq Require Import ZArith List String Bool.
From Verif Require Import Base Arith Range Indexer Interface Manager Grid.
Import ListNotations.
Open Scope Z_scope.

(** The condition of all four checks of qk::indexer (indexer.cpp:49, 59, 90, 101). *)
Definition ix_dim_bad (ix : indexer) (dim : Z) : bool :=
  (dim <? 0) || (r_nd (ix_sup ix) <? dim).

(** indexer::operator[] (indexer.cpp:45-54). *)
Definition dbg_at (ix : indexer) (dim : Z) : res Z :=
  if ix_dim_bad ix dim then Exn "qk::indexer::operator[] : Dimension out of range."
  else vget (ix_idx ix) dim.
(** indexer::index (indexer.cpp:56-64). *)
Definition dbg_index (ix : indexer) (dim : Z) : res Z :=
  if ix_dim_bad ix dim then Exn "qk::indexer::index : Dimension out of range."
  else vget (ix_idx ix) dim.
(** indexer::increment (indexer.cpp:87-96). *)
Definition dbg_increment (ix : indexer) (dim : Z) : res indexer :=
  if ix_dim_bad ix dim then Exn "qk::indexer::increment : Dimension out of range."
  else indexer_increment ix dim.
(** indexer::decrement (indexer.cpp:98-107). *)
Definition dbg_decrement (ix : indexer) (dim : Z) : res indexer :=
  if ix_dim_bad ix dim then Exn "qk::indexer::decrement : Dimension out of range."
  else indexer_decrement ix dim.

(** indexer::recursive_increment_dim (indexer.cpp:115-128), which calls the
    checked increment; [d] is dim+1 as in [inc_dim]. *)
Fixpoint dbg_inc_dim (d : nat) (ix : indexer) : res indexer :=
  match d with
  | O => Ok (mkIndexer (ix_sup ix) (ix_sub ix) (ix_lin ix) false (ix_idx ix))
  | S d' =>
      let dim := Z.of_nat d' in
      x <- vget (ix_idx ix) dim ;;
      u <- vget (r_upper (ix_sub ix)) dim ;;
      last <- isub u 1 ;;
      if x =? last then
        l <- vget (r_lower (ix_sub ix)) dim ;;
        idx <- vset (ix_idx ix) dim l ;;
        len <- range_length (ix_sub ix) dim ;;
        len1 <- isub len 1 ;;
        s <- vget (r_stride (ix_sup ix)) dim ;;
        m <- imul len1 s ;;
        lin <- isub (ix_lin ix) m ;;
        dbg_inc_dim d' (mkIndexer (ix_sup ix) (ix_sub ix) lin (ix_ex ix) idx)
      else dbg_increment ix dim
  end.
(** indexer::next and operator++ (indexer.cpp:80-85, 109-113). *)
Definition dbg_next (ix : indexer) : res indexer :=
  dbg_inc_dim (Z.to_nat (r_nd (ix_sup ix))) ix.

(** data(idx) of indexer_interface (indexer_interface.h:140-158): the offset in
    _data of the pointer returned.  linear_index() is converted to size_t by the
    comparison, so a negative one compares greater than every size. *)
Definition dbg_data {T} (i : iface T) (ix : indexer) : res Z :=
  if (ix_lin ix <? 0) || (Z.of_nat (List.length (if_data i)) <=? ix_lin ix)
  then Exn "qk::indexer_interface::data : Indexer out of range."
  else Ok (ix_lin ix).
(** *data(idx), the read of the element that pointer points to
    (indexer_interface.h:140-158; an example is data(idx) at
    radial_shock_tube.cpp:52). *)
Definition dbg_elem {T} (i : iface T) (ix : indexer) : res T :=
  p <- dbg_data i ix ;; vget (if_data i) p.

(** The check of a dimension in the grid classes (grid.cpp:51, 63,
    rectilinear.cpp:83, 97, structured.cpp:61, 88, 109, 123, 137). *)
Definition grid_dim_bad (r : range) (dim : Z) : bool := (r_nd r <=? dim) || (dim <? 0).
(** The check of an index (rectilinear.cpp:86, structured.cpp:112, 126): upper(dim)
    is read first. *)
Definition grid_index_bad (r : range) (dim i : Z) : res bool :=
  u <- range_upper r dim ;;
  if u <=? i then Ok true else (l <- range_lower r dim ;; Ok (i <? l)).

Section DebugGrid.
Context {F : Type} {A : Arith F}.

(** grid::width, grid::start (grid.cpp:47-68). *)
Definition dbg_width (g : grid F) (dim : Z) : res F :=
  if grid_dim_bad (gr_range g) dim then Exn "qk::grid::grid::width : Requested dimension out of range."
  else grid_width g dim.
Definition dbg_start (g : grid F) (dim : Z) : res F :=
  if grid_dim_bad (gr_range g) dim then Exn "qk::grid::grid::start : Requested dimension out of range."
  else grid_start g dim.

(** rectilinear::centroid, rectilinear::dx (rectilinear.cpp:79-102). *)
Definition dbg_centroid (g : grid F) (dim i : Z) : res F :=
  if grid_dim_bad (gr_range g) dim then Exn "qk::grid::rectilinear::centroid : Requested dimension out of range."
  else
    bad <- grid_index_bad (gr_range g) dim i ;;
    if bad : bool then Exn "qk::grid::rectilinear::centroid : Requested index out of range."
    else grid_centroid g dim i.
Definition dbg_dx (g : grid F) (dim : Z) : res F :=
  if grid_dim_bad (gr_range g) dim then Exn "qk::grid::rectilinear::dx : Requested dimension out of range."
  else grid_dx g dim.

(** structured::centroid, structured::dx (structured.cpp:105-131). *)
Definition dbg_s_centroid (g : sgrid F) (dim i : Z) : res F :=
  if grid_dim_bad (sg_range g) dim then Exn "qk::grid::structured::centroid : Requested dimension out of range."
  else
    bad <- grid_index_bad (sg_range g) dim i ;;
    if bad : bool then Exn "qk::grid::structured::centroid : Requested index out of range."
    else structured_centroid g dim i.
Definition dbg_s_dx (g : sgrid F) (dim i : Z) : res F :=
  if grid_dim_bad (sg_range g) dim then Exn "qk::grid::structured::dx : Requested dimension out of range."
  else
    bad <- grid_index_bad (sg_range g) dim i ;;
    if bad : bool then Exn "qk::grid::structured::dx : Requested index out of range."
    else structured_dx g dim i.

(** structured::apply_bias_symmetric, apply_bias_linear (structured.cpp:57-103).
    width and recalculate_xcs, which they call, check the same condition on the
    same dimension again; these second checks are left out. *)
Definition dbg_symmetric (g : sgrid F) (dim : Z) (pow : F) : res (sgrid F) :=
  if grid_dim_bad (sg_range g) dim then Exn "qk::grid::structured::apply_bias_symmetric : Requested dimension out of range."
  else apply_bias_symmetric g dim pow.
Definition dbg_linear (g : sgrid F) (dim : Z) (pow : F) : res (sgrid F) :=
  if grid_dim_bad (sg_range g) dim then Exn "qk::grid::structured::apply_bias_linear : Requested dimension out of range."
  else apply_bias_linear g dim pow.

End DebugGrid.
