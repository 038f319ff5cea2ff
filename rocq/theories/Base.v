(** * Base: outcomes of C++ code, 32-bit ints, vectors.

    This file models the parts of the C++ language and of the standard library
    the code in /repo/src relies on; it does not correspond to a file of the
    repository.  Users of each definition cite the lines they model. *)
From Coq Require Import ZArith List String Lia Bool.
Import ListNotations.
Open Scope Z_scope.

(** Kinds of undefined behaviour that the modelled code can run into. *)
Inductive ub_kind : Type :=
| OutOfBounds      (* std::vector / array element outside the array *)
| IntOverflow      (* signed int arithmetic outside [-2^31, 2^31) *)
| BadArraySize     (* variable length array of negative size *)
| InvalidPointer   (* pointer invalidated by vector::clear / resize *)
| DanglingPointer  (* pointer into a destroyed temporary *)
| EndDeref         (* dereference of std::map::end() *)
| NullDeref        (* dereference of a null pointer *)
| Uninitialised    (* read of an uninitialised object *)
| RestrictAlias    (* two __restrict__ pointers to one modified object *)
| Misaligned       (* __builtin_assume_aligned on an unaligned pointer *)
| FloatToInt       (* float -> int conversion of an unrepresentable value *)
| BadComparator    (* std::map used with a comparator that is no order *)
| DataRace.        (* conflicting unsynchronised accesses *)

(** Result of a call that returns a value: normal return, exception,
    undefined behaviour, or the loop fuel of the model ran out. *)
Inductive res (A : Type) : Type :=
| Ok (a : A)
| Exn (msg : string)
| UB (k : ub_kind)
| NoFuel.
Arguments Ok {A} _.
Arguments Exn {A} _.
Arguments UB {A} _.
Arguments NoFuel {A}.

(** Sequencing of calls that return values. *)
Definition bind {A B} (m : res A) (k : A -> res B) : res B :=
  match m with
  | Ok a => k a
  | Exn e => Exn e
  | UB u => UB u
  | NoFuel => NoFuel
  end.
Declare Scope res_scope.
Delimit Scope res_scope with res.
Notation "x <- m ;; k" := (bind m (fun x => k))
  (at level 61, m at next level, right associativity) : res_scope.
Open Scope res_scope.

(** Result of a call that changes a state [S]: the state is also known when
    the call throws ([Threw]), so exception safety can be stated. *)
Inductive out (S : Type) : Type :=
| Done (s : S)
| Threw (msg : string) (s : S)
| Undef (k : ub_kind)
| Spin.
Arguments Done {S} _.
Arguments Threw {S} _ _.
Arguments Undef {S} _.
Arguments Spin {S}.

(** Sequencing of state-changing calls. *)
Definition obind {S} (o : out S) (k : S -> out S) : out S :=
  match o with
  | Done s => k s
  | Threw m s => Threw m s
  | Undef u => Undef u
  | Spin => Spin
  end.

(** Use the value of a call made in state [s] (the call does not change [s]). *)
Definition liftr {S A} (s : S) (m : res A) (k : A -> out S) : out S :=
  match m with
  | Ok a => k a
  | Exn e => Threw e s
  | UB u => Undef u
  | NoFuel => Spin
  end.

(** Embed a call working on a part of the state. *)
Definition omap {S T} (f : S -> T) (o : out S) : out T :=
  match o with
  | Done s => Done (f s)
  | Threw m s => Threw m (f s)
  | Undef u => Undef u
  | Spin => Spin
  end.

(** A loop over a list of items; stops at the first abnormal outcome. *)
Fixpoint ofold {X S} (f : X -> S -> out S) (l : list X) (s : S) : out S :=
  match l with
  | [] => Done s
  | x :: l' => obind (f x s) (ofold f l')
  end.

(** The C++ type [int] of the platforms the code targets: 32 bits. *)
Definition int_min : Z := -2147483648.
Definition int_max : Z := 2147483647.
Definition is_int (z : Z) : Prop := int_min <= z <= int_max.
Definition is_intb (z : Z) : bool := (int_min <=? z) && (z <=? int_max).

(** Signed arithmetic: the exact result, or undefined behaviour. *)
Definition chk (z : Z) : res Z := if is_intb z then Ok z else UB IntOverflow.
(** A floating-point number truncated to [z] converts to int: [z], or undefined
    behaviour (range_set.cpp:33, structured.cpp:65, 74, 92, 95). *)
Definition conv (z : Z) : res Z := if is_intb z then Ok z else UB FloatToInt.
Definition iadd (a b : Z) : res Z := chk (a + b).
Definition isub (a b : Z) : res Z := chk (a - b).
Definition imul (a b : Z) : res Z := chk (a * b).

(** Element access of a vector / array with an int index. *)
Definition vget {A} (l : list A) (i : Z) : res A :=
  if 0 <=? i then
    match nth_error l (Z.to_nat i) with
    | Some x => Ok x
    | None => UB OutOfBounds
    end
  else UB OutOfBounds.

(** Replace the element at position [n] (no change when out of range). *)
Fixpoint upd {A} (l : list A) (n : nat) (x : A) : list A :=
  match l, n with
  | [], _ => []
  | _ :: t, O => x :: t
  | h :: t, S m => h :: upd t m x
  end.

Definition vset {A} (l : list A) (i : Z) (x : A) : res (list A) :=
  if (0 <=? i) && (i <? Z.of_nat (List.length l))
  then Ok (upd l (Z.to_nat i) x)
  else UB OutOfBounds.

(** [std::vector<T>::resize(n)]: keep the prefix, pad with [T()]; a negative
    int converts to a huge size_t and makes the library throw. *)
Definition vresize {A} (d : A) (l : list A) (n : Z) : res (list A) :=
  if n <? 0 then Exn "vector::_M_default_append"
  else Ok (firstn (Z.to_nat n) l ++ repeat d (Z.to_nat n - List.length l)%nat).
(** [std::vector<T>::resize(n, d)]: the same with another message. *)
Definition vresize_fill {A} (d : A) (l : list A) (n : Z) : res (list A) :=
  if n <? 0 then Exn "vector::_M_fill_insert"
  else Ok (firstn (Z.to_nat n) l ++ repeat d (Z.to_nat n - List.length l)%nat).
