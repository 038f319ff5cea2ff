(** * Indexer: model of src/lib/indexer.h and src/lib/indexer.cpp. *)
From Coq Require Import ZArith List String Bool.
From Verif Require Import Base Range.
Import ListNotations.
Open Scope Z_scope.

(** Members of qk::indexer (indexer.h:40-44); the base class range is
    [ix_sup]. *)
Record indexer : Type := mkIndexer {
  ix_sup : range;
  ix_sub : range;       (* _sub_range *)
  ix_lin : Z;           (* _linear_index *)
  ix_ex : bool;         (* _exists *)
  ix_idx : list Z       (* _index *)
}.

(** indexer::indexer() (indexer.cpp:9-16). *)
Definition indexer_default : indexer :=
  mkIndexer range_empty range_empty 0 false [].

(** Sum of (index[i]-lower[i])*stride[i], left to right, each operation on int
    (indexer.cpp:32-35, indexer_interface.h:122-126 and 133-137). *)
Fixpoint lin_sum (acc : Z) (idx lo st : list Z) : res Z :=
  match idx, lo, st with
  | i :: idx', l :: lo', s :: st' =>
      d <- isub i l ;;
      m <- imul d s ;;
      acc' <- iadd acc m ;;
      lin_sum acc' idx' lo' st'
  | [], _ :: _, _ :: _ => UB OutOfBounds
  | _, _, _ => Ok acc
  end.

(** indexer::indexer(sub_range, sup_range) (indexer.cpp:18-38). *)
Definition indexer_make (sub sup : range) : res indexer :=
  sup' <- range_copy sup ;;
  sub' <- range_copy sub ;;
  if r_nd sup' <? 0 then Exn "vector::_M_fill_insert"
  else
    let zeros := repeat 0 (Z.to_nat (r_nd sup')) in
    if (0 <? r_nd sup') && range_includes sup' sub' then
      lin <- lin_sum 0 (r_lower sub) (r_lower sup') (r_stride sup') ;;
      Ok (mkIndexer sup' sub' lin true (r_lower sub))
    else Ok (mkIndexer sup' sub' 0 false zeros).

(** indexer::increment, indexer::decrement (indexer.cpp:87-107); the range
    check macro is off by default. *)
Definition indexer_increment (ix : indexer) (dim : Z) : res indexer :=
  s <- vget (r_stride (ix_sup ix)) dim ;;
  lin <- iadd (ix_lin ix) s ;;
  x <- vget (ix_idx ix) dim ;;
  x' <- iadd x 1 ;;
  idx <- vset (ix_idx ix) dim x' ;;
  Ok (mkIndexer (ix_sup ix) (ix_sub ix) lin (ix_ex ix) idx).
Definition indexer_decrement (ix : indexer) (dim : Z) : res indexer :=
  s <- vget (r_stride (ix_sup ix)) dim ;;
  lin <- isub (ix_lin ix) s ;;
  x <- vget (ix_idx ix) dim ;;
  x' <- isub x 1 ;;
  idx <- vset (ix_idx ix) dim x' ;;
  Ok (mkIndexer (ix_sup ix) (ix_sub ix) lin (ix_ex ix) idx).

(** indexer::recursive_increment_dim (indexer.cpp:115-128); the argument [d]
    is dim+1, so dim < 0 is [d = 0]. *)
Fixpoint inc_dim (d : nat) (ix : indexer) : res indexer :=
  match d with
  | O => Ok (mkIndexer (ix_sup ix) (ix_sub ix) (ix_lin ix) false (ix_idx ix))
  | S d' =>
      let dim := Z.of_nat d' in
      x <- vget (ix_idx ix) dim ;;
      u <- vget (r_upper (ix_sub ix)) dim ;;
      last <- isub u 1 ;;
      if x =? last then
        l <- vget (r_lower (ix_sub ix)) dim ;;
        idx <- vset (ix_idx ix) dim l ;;
        len <- range_length (ix_sub ix) dim ;;
        len1 <- isub len 1 ;;
        s <- vget (r_stride (ix_sup ix)) dim ;;
        m <- imul len1 s ;;
        lin <- isub (ix_lin ix) m ;;
        inc_dim d' (mkIndexer (ix_sup ix) (ix_sub ix) lin (ix_ex ix) idx)
      else indexer_increment ix dim
  end.

(** indexer::next and operator++ (indexer.cpp:80-85, 109-113). *)
Definition indexer_next (ix : indexer) : res indexer :=
  inc_dim (Z.to_nat (r_nd (ix_sup ix))) ix.

(** Loop of final_linear_index (indexer.cpp:139-141). *)
Fixpoint final_sum (acc : Z) (up sub_up st : list Z) : res Z :=
  match up, sub_up, st with
  | u :: up', v :: sub_up', s :: st' =>
      d <- isub u v ;;
      m <- imul d s ;;
      acc' <- isub acc m ;;
      final_sum acc' up' sub_up' st'
  | _ :: _, [], _ :: _ => UB OutOfBounds
  | _, _, _ => Ok acc
  end.

(** indexer::final_linear_index (indexer.cpp:135-143). *)
Definition indexer_final (ix : indexer) : res Z :=
  v <- range_volume (ix_sup ix) ;;
  final_sum v (r_upper (ix_sup ix)) (r_upper (ix_sub ix)) (r_stride (ix_sup ix)).

(** The loop pattern [for(indexer idx = ...; idx.exists(); ++idx) body], for
    example indexer_interface.h:72 and bc_periodic.cpp:24; the
    fuel bounds the number of iterations of the model. *)
Fixpoint for_indexer {S} (fuel : nat) (ix : indexer)
    (body : indexer -> S -> out S) (s : S) : out S :=
  if ix_ex ix then
    match fuel with
    | O => Spin
    | S f =>
        obind (body ix s) (fun s' =>
        liftr s' (indexer_next ix) (fun ix' => for_indexer f ix' body s'))
    end
  else Done s.
