(** * IndexerCopy: model of indexer::operator= (src/lib/indexer.cpp:66-78). *)
From Coq Require Import ZArith List String Bool.
From Verif Require Import Base Range Indexer.
Import ListNotations.
Open Scope Z_scope.

(** indexer::operator= when source and target are different objects
    (indexer.cpp:66-78).  All members are overwritten, so the new value does not
    depend on the old one.  The loop over i (lines 73-75) reads the first
    num_dims elements of the source. *)
Definition indexer_assign (src : indexer) : res indexer :=
  sup <- range_copy (ix_sup src) ;;
  sub <- range_copy (ix_sub src) ;;
  _ <- vresize 0 [] (r_nd sup) ;;
  idx <- read_n (Some (ix_idx src)) (r_nd sup) ;;
  Ok (mkIndexer sup sub (ix_lin src) (ix_ex src) idx).

(** The same call when source and target are the same object: the first line
    (indexer.cpp:69) resizes the range from itself. *)
Definition indexer_self_assign (ix : indexer) : res indexer :=
  sup <- range_self_assign (ix_sup ix) ;;
  sub <- range_self_assign (ix_sub ix) ;;
  _ <- vresize 0 [] (r_nd sup) ;;
  idx <- read_n (Some (ix_idx ix)) (r_nd sup) ;;
  Ok (mkIndexer sup sub (ix_lin ix) (ix_ex ix) idx).
