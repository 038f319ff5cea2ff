(** * Chunk: model of src/data/datachunk.cpp and src/data/extended_datachunk.cpp. *)
From Coq Require Import ZArith List String Bool.
From Verif Require Import Base Arith Range Indexer Interface.
Import ListNotations.
Open Scope Z_scope.

Section Chunk.
Context {F : Type} {A : Arith F}.

(** datachunk: the base class indexer_interface<double>, _mesh_range and
    _data_range (datachunk.h:17, 35-36). *)
Record chunk : Type := mkChunk {
  ck_if : iface F;
  ck_mesh : range;
  ck_comp : range
}.

(** datachunk() (datachunk.cpp:15-19). *)
Definition chunk_default : chunk := mkChunk (mkIface range_empty []) range_empty range_empty.

(** extrude by every dimension of [d], in order (datachunk.cpp:83-85,
    extended_datachunk.cpp:43-49). *)
Fixpoint extrude_all (r : range) (lo up : list Z) : res range :=
  match lo, up with
  | l :: lo', u :: up' => r' <- range_extrude r l u ;; extrude_all r' lo' up'
  | _, _ => Ok r
  end.

(** datachunk::resize (datachunk.cpp:76-89); the arguments are objects other
    than the members assigned. *)
Definition chunk_resize (c : chunk) (mesh comp : range) : out chunk :=
  liftr c (range_copy mesh) (fun m =>
  let c1 := mkChunk (ck_if c) m (ck_comp c) in
  liftr c1 (range_copy comp) (fun d =>
  let c2 := mkChunk (ck_if c) m d in
  liftr c2 (range_copy m) (fun r0 =>
  liftr c2 (extrude_all r0 (r_lower comp) (r_upper comp)) (fun r =>
  omap (fun i => mkChunk i m d) (iface_resize f0 (ck_if c) r))))).

(** datachunk::operator= (datachunk.cpp:26-32) from another object. *)
Definition chunk_assign (fuel : nat) (src c : chunk) : out chunk :=
  obind (chunk_resize c (ck_mesh src) (ck_comp src)) (fun c' =>
  omap (fun i => mkChunk i (ck_mesh c') (ck_comp c')) (iface_pull_all fuel (ck_if src) (ck_if c'))).

(** datachunk::operator= applied to the object itself (datachunk.cpp:26-32,
    78): resize assigns _mesh_range from itself. *)
Definition chunk_assign_self (c : chunk) : out chunk :=
  liftr c (range_self_assign (ck_mesh c)) (fun m => Done (mkChunk (ck_if c) m (ck_comp c))).

(** The implicit copy constructor of datachunk (datachunk.h:17, 35-36): copies
    the base class with the copy constructor of indexer_interface. *)
Definition chunk_copy (src : chunk) : out chunk :=
  obind (omap (fun i => mkChunk i range_empty range_empty) (iface_copy f0 (ck_if src))) (fun c =>
  liftr c (range_copy (ck_mesh src)) (fun m =>
  liftr c (range_copy (ck_comp src)) (fun d => Done (mkChunk (ck_if c) m d)))).

(** datachunk::multiply_by_scalar (datachunk.cpp:91-97). *)
Definition chunk_scale (fuel : nat) (sub : range) (s : F) (i : iface F) : out (iface F) :=
  liftr i (iface_indexer i sub) (fun ix =>
  for_indexer fuel ix (fun ix j =>
    liftr j (iface_get j ix) (fun v =>
    liftr j (iface_put j ix (fmul v s)) Done)) i).

(** extended_datachunk (extended_datachunk.h:18, 55-62). *)
Record echunk : Type := mkEchunk {
  ec_chunk : chunk;
  ec_g : Z;                       (* _num_ghost_layers *)
  ec_internal : range;            (* _internal_range *)
  ec_low_int : list range;        (* _lower_internal_ranges *)
  ec_low_ext : list range;        (* _lower_external_ranges *)
  ec_up_int : list range;         (* _upper_internal_ranges *)
  ec_up_ext : list range          (* _upper_external_ranges *)
}.

(** extended_datachunk() (extended_datachunk.cpp:15-20). *)
Definition echunk_default : echunk := mkEchunk chunk_default 2 range_empty [] [] [] [].

(** The ghost expansion loop (extended_datachunk.cpp:32-35); [i] counts the
    dimensions done. *)
Fixpoint expand_all (n : nat) (i : Z) (r : range) (g : Z) : res range :=
  match n with
  | O => Ok r
  | S n' =>
      ng <- isub 0 g ;;
      r' <- range_expand r i ng g ;;
      expand_all n' (i + 1) r' g
  end.

(** One copy of the internal range with dimension [i] set to
    [lo + a, up + b) where lo, up are both its lower (or both its upper) bound:
    the four statements of extended_datachunk.cpp:57-71. *)
Definition strip_low_ext (r : range) (i g : Z) : res range :=
  r' <- range_copy r ;; l <- range_lower r' i ;; a <- isub l g ;; range_set r' i a l.
Definition strip_low_int (r : range) (i g : Z) : res range :=
  r' <- range_copy r ;; l <- range_lower r' i ;; a <- iadd l g ;; range_set r' i l a.
Definition strip_up_int (r : range) (i g : Z) : res range :=
  r' <- range_copy r ;; u <- range_upper r' i ;; a <- isub u g ;; range_set r' i a u.
Definition strip_up_ext (r : range) (i g : Z) : res range :=
  r' <- range_copy r ;; u <- range_upper r' i ;; a <- iadd u g ;; range_set r' i u a.

(** The loop building the strips (extended_datachunk.cpp:56-72); dimensions
    i, i+1, ..., i+n-1. *)
Fixpoint strips (f : range -> Z -> Z -> res range) (n : nat) (i : Z) (r : range) (g : Z) : res (list range) :=
  match n with
  | O => Ok []
  | S n' => x <- f r i g ;; xs <- strips f n' (i + 1) r g ;; Ok (x :: xs)
  end.

(** extended_datachunk::resize (extended_datachunk.cpp:27-74).  The four
    strip vectors are filled one after the other instead of interleaved; an
    abnormal outcome inside the loop leaves the object unspecified in the
    model only for undefined behaviour (the calls cannot throw). *)
Definition echunk_resize (e : echunk) (mesh comp : range) (g : Z) : out echunk :=
  let e1 := mkEchunk (ec_chunk e) g (ec_internal e) (ec_low_int e) (ec_low_ext e) (ec_up_int e) (ec_up_ext e) in
  liftr e1 (range_copy mesh) (fun ext0 =>
  liftr e1 (expand_all (Z.to_nat (r_nd ext0)) 0 ext0 g) (fun ext =>
  obind (omap (fun c => mkEchunk c g (ec_internal e) (ec_low_int e) (ec_low_ext e) (ec_up_int e) (ec_up_ext e))
           (chunk_resize (ec_chunk e) ext comp)) (fun e2 =>
  liftr e2 (extrude_all range_empty (r_lower mesh) (r_upper mesh)) (fun int0 =>
  liftr e2 (extrude_all int0 (r_lower comp) (r_upper comp)) (fun int =>
  let n := Z.to_nat (r_nd ext) in
  liftr e2 (strips strip_low_ext n 0 int g) (fun le =>
  liftr e2 (strips strip_low_int n 0 int g) (fun li =>
  liftr e2 (strips strip_up_int n 0 int g) (fun ui =>
  liftr e2 (strips strip_up_ext n 0 int g) (fun ue =>
  Done (mkEchunk (ec_chunk e2) g int li le ui ue)))))))))).

(** The container part of an extended_datachunk, and the same object with other
    elements: extended_datachunk is a datachunk (extended_datachunk.h:18), whose
    elements are written through operator[] and data()
    (indexer_interface.h:110-137). *)
Definition ec_if (e : echunk) : iface F := ck_if (ec_chunk e).
Definition ec_with (e : echunk) (i : iface F) : echunk :=
  mkEchunk (mkChunk i (ck_mesh (ec_chunk e)) (ck_comp (ec_chunk e))) (ec_g e) (ec_internal e)
    (ec_low_int e) (ec_low_ext e) (ec_up_int e) (ec_up_ext e).

(** The implicit assignment of extended_datachunk (extended_datachunk.h:18,
    55-62): datachunk::operator=, then the members. *)
Definition echunk_assign (fuel : nat) (src e : echunk) : out echunk :=
  obind (omap (fun c => mkEchunk c (ec_g e) (ec_internal e) (ec_low_int e) (ec_low_ext e) (ec_up_int e) (ec_up_ext e))
           (chunk_assign fuel (ec_chunk src) (ec_chunk e))) (fun e1 =>
  liftr e1 (range_copy (ec_internal src)) (fun int =>
  Done (mkEchunk (ec_chunk e1) (ec_g src) int (ec_low_int src) (ec_low_ext src) (ec_up_int src) (ec_up_ext src)))).

End Chunk.
Arguments chunk F : clear implicits.
Arguments echunk F : clear implicits.
