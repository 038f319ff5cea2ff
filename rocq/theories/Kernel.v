(** * Kernel: running array loops on the chunks of a variable manager. *)
From Coq Require Import ZArith List String Bool.
From Verif Require Import Base Arith Range Indexer Interface Chunk VarId Manager Par.
Import ListNotations.
Open Scope Z_scope.

Section Kernel.
Context {F : Type} {A : Arith F}.

(** data() (indexer_interface.h:110-117): &(_data[0]) is out of bounds on an
    empty vector. *)
Definition iface_data (i : iface F) : res (list F) :=
  match if_data i with
  | [] => UB OutOfBounds
  | l => Ok l
  end.

(** var[chunk_idx].data() for the variables at the given positions, for example
    rk1.cpp:48-50. *)
Fixpoint arrays (m : mgr F) (ns : list nat) (ix : indexer) : res (mem F) :=
  match ns with
  | [] => Ok []
  | n :: ns' =>
      e <- get_chunk m n ix ;;
      l <- iface_data (ec_if e) ;;
      ls <- arrays m ns' ix ;;
      Ok (l :: ls)
  end.

(** Store the elements of a chunk back (writes through the pointer of
    rk1.cpp:50). *)
Definition put_array (m : mgr F) (n : nat) (ix : indexer) (l : list F) : res (mgr F) :=
  e <- get_chunk m n ix ;;
  put_chunk m n ix (ec_with e (mkIface (if_range (ec_if e)) l)).

(** Run loops that read the arrays of the variables [ins] and read and write the
    array of variable [o], which comes last.  All pointers are __restrict__
    (rk1.cpp:48-50, ssprk3.cpp:60-62, 76-79, 95-99, euler.cpp:57-58,
    maxwell.cpp:93-94): writing an array that is also read through another
    pointer is undefined.  The loops write no other array than the last. *)
Definition run_kernel (ins : list nat) (o : nat) (ix : indexer) (loops : list (list (thr F))) (m : mgr F) : out (mgr F) :=
  if existsb (Nat.eqb o) ins then Undef RestrictAlias
  else
    liftr m (arrays m (ins ++ [o]) ix) (fun a =>
    liftr m (loops_run loops a) (fun a' =>
    match nth_error a' (List.length ins) with
    | Some l => liftr m (put_array m o ix l) Done
    | None => Undef OutOfBounds
    end)).

(** Collect the loops of several dimensions (euler.cpp:46, maxwell.cpp:97, 175,
    254). *)
Fixpoint loops_of (f : Z -> res (list (thr F))) (dims : list Z) : res (list (list (thr F))) :=
  match dims with
  | [] => Ok []
  | d :: dims' => l <- f d ;; ls <- loops_of f dims' ;; Ok (l :: ls)
  end.

(** 0, 1, ..., n-1, the values of dim in euler.cpp:46. *)
Definition dims_upto (n : Z) : list Z := map Z.of_nat (seq 0 (Z.to_nat n)).

End Kernel.
