(** * Walk: model of the loops of src/solver that walk over arrays by advancing
    pointers, lorentz_force_solve::low_order_solve (lorentz_force.cpp:71-114) and
    current_source_solve::fv_solve (current_source.cpp:44-73).  Nothing calls them;
    they are the versions for OpenMP of the functions modelled in Sources.v.

    The pointers are declared before the [#pragma omp parallel for], so all
    threads share them: here they are elements of one more array. *)
From Coq Require Import ZArith List String Bool.
From Verif Require Import Base Arith Range Indexer Interface Chunk Par Sources.
Import ListNotations.
Open Scope Z_scope.

(** What an object can hold: a double, or a pointer into one of the data arrays,
    given by its offset there (lorentz_force.cpp:84-88, current_source.cpp:60-61). *)
Inductive cell (F : Type) : Type :=
| Num (x : F)
| Ptr (p : Z).
Arguments Num {F} _.
Arguments Ptr {F} _.

Section Walk.
Context {F : Type} {A : Arith F}.

(** Number of the array that holds the pointer variables (lorentz_force.cpp:84-88,
    current_source.cpp:60-61). *)
Definition ptrs : nat := 3%nat.

(** Reading the pointer variable number [v] (lorentz_force.cpp:101-110,
    current_source.cpp:65-70). *)
Definition load_ptr (v : Z) (k : Z -> thr (cell F)) : thr (cell F) :=
  Rd ptrs v (fun c => match c with Ptr p => k p | Num _ => Bad Uninitialised end).
(** Reading element [i] of array [a] as a double (lorentz_force.cpp:101-104,
    current_source.cpp:65-67). *)
Definition load_num (a : nat) (i : Z) (k : F -> thr (cell F)) : thr (cell F) :=
  Rd a i (fun c => match c with Num x => k x | Ptr _ => Bad Uninitialised end).
(** [v][o] for a pointer [v] into array [a] (lorentz_force.cpp:101-104,
    current_source.cpp:65-67). *)
Definition deref (a : nat) (v o : Z) (k : F -> thr (cell F)) : thr (cell F) :=
  load_ptr v (fun p => load_num a (p + o) k).
(** [v][o] += x (lorentz_force.cpp:101-104, current_source.cpp:65-67). *)
Definition add_at (a : nat) (v o : Z) (x : F) (t : thr (cell F)) : thr (cell F) :=
  load_ptr v (fun p => load_num a (p + o) (fun y => Wr a (p + o) (Num (fadd y x)) t)).
(** [v] += s for a pointer (lorentz_force.cpp:106-110, current_source.cpp:69-70). *)
Definition advance (v s : Z) (t : thr (cell F)) : thr (cell F) :=
  load_ptr v (fun p => Wr ptrs v (Ptr (p + s)) t).

(** [y] += com * (r * e + s * b - s' * b'), the first three statements of the loop
    of low_order_solve (lorentz_force.cpp:101-103); the arguments are the offsets
    at E, p, B, p, B and rhs. *)
Definition momentum (com : F) (e s b s' b' y : Z) (t : thr (cell F)) : thr (cell F) :=
  deref 0 0 0 (fun q0 => deref 1 2 e (fun E => deref 0 1 s (fun p => deref 1 3 b (fun B => deref 0 1 s' (fun p' => deref 1 3 b' (fun B' =>
  add_at 2 4 y (com * (q0 * E + p * B - p' * B'))%F t)))))).
(** The fourth statement (lorentz_force.cpp:104). *)
Definition power (com : F) (t : thr (cell F)) : thr (cell F) :=
  deref 0 1 0 (fun p0 => deref 1 2 0 (fun E0 => deref 0 1 1 (fun p1 => deref 1 2 1 (fun E1 => deref 0 1 2 (fun p2 => deref 1 2 2 (fun E2 =>
  add_at 2 4 4 (com * (p0 * E0 + p1 * E1 + p2 * E2))%F t)))))).

(** Body of the loop of low_order_solve (lorentz_force.cpp:101-110).  Arrays: 0
    fluid_data, 1 field_data, 2 rhs_data; pointers: 0 q, 1 p, 2 E, 3 B, 4 rhs. *)
Definition lorentz_iter (com : F) : thr (cell F) :=
  momentum com 0 1 2 2 1 1 (
  momentum com 1 2 0 0 2 2 (
  momentum com 2 0 1 1 0 3 (
  power com (
  advance 0 5 (advance 1 5 (advance 2 6 (advance 3 6 (advance 4 5 Ret)))))))).

(** low_order_solve (lorentz_force.cpp:71-114): the iterations of its loop and the
    memory it begins with.  The counter of the loop is not used in the body. *)
Definition lorentz_walk (com : F) (fluid fld : echunk F) (rhs : iface F) : res (list (thr (cell F)) * mem (cell F)) :=
  fluid_rng <- inner_comps fluid 0 1 ;;
  field_rng <- inner_comps fld 0 1 ;;
  a <- iface_indexer (ec_if fluid) fluid_rng ;;
  b <- iface_indexer (ec_if fld) field_rng ;;
  fin <- indexer_final a ;;
  fin1 <- iadd fin 1 ;;
  is <- int_loop (Z.quot (ix_lin a) 5) (Z.quot fin1 5) 1 ;;
  Ok (map (fun _ => lorentz_iter com) is,
      [map Num (if_data (ec_if fluid)); map Num (if_data (ec_if fld)); map Num (if_data rhs);
       [Ptr (ix_lin a); Ptr (ix_lin a + 1); Ptr (ix_lin b); Ptr (ix_lin b + 3); Ptr (ix_lin a)]]).

(** Body of the loop of fv_solve (current_source.cpp:65-70).  Arrays: 0 fluid_data,
    2 rhs_data; pointers: 0 p, 1 rhs. *)
Definition current_iter (mult : F) : thr (cell F) :=
  deref 0 0 0 (fun p0 => add_at 2 1 0 (mult * p0)%F (
  deref 0 0 1 (fun p1 => add_at 2 1 1 (mult * p1)%F (
  deref 0 0 2 (fun p2 => add_at 2 1 2 (mult * p2)%F (
  advance 0 5 (advance 1 6 Ret))))))).

(** fv_solve (current_source.cpp:44-73); array 1 is not used. *)
Definition current_walk (mult : F) (fluid rhs_c : echunk F) (rhs : iface F) : res (list (thr (cell F)) * mem (cell F)) :=
  mom_rng <- inner_comps fluid 0 1 ;;
  E_rng <- inner_comps rhs_c 0 1 ;;
  a <- iface_indexer (ec_if fluid) mom_rng ;;
  b <- iface_indexer (ec_if rhs_c) E_rng ;;
  fin <- indexer_final a ;;
  fin1 <- iadd fin 1 ;;
  is <- int_loop (Z.quot (ix_lin a) 5) (Z.quot fin1 5) 1 ;;
  Ok (map (fun _ => current_iter mult) is,
      [map Num (if_data (ec_if fluid)); []; map Num (if_data rhs); [Ptr (ix_lin a + 1); Ptr (ix_lin b)]]).

End Walk.
