(** * AddOrder: the other evaluation order of an assignment in
    src/variable/variable_manager.cpp.

    CMakeLists.txt:30 compiles with -std=c++11, where the order in which the two
    sides of an assignment are evaluated is not specified.  Manager.v evaluates
    the right-hand side of variable_manager.cpp:60 first.  This file evaluates
    operator[] first: it inserts the key with a null pointer, and the pointer is
    set when the constructor of the variable has returned. *)
From Coq Require Import ZArith List String Bool.
From Verif Require Import Base Arith VarId Manager.
Import ListNotations.
Open Scope Z_scope.

Section AddOrder.
Context {F : Type} {A : Arith F}.

(** variable_manager as in Manager.v (variable_manager.h:53-57); [None] is a null
    pointer in _variables. *)
Record pmgr : Type := mkPmgr {
  pm_grid : grid F;
  pm_vars : list (vid * option (variable F));
  pm_dt : option F;
  pm_time : option F
}.

(** std::map::find (variable_manager.cpp:33, 36, 47, 57, 98) as [map_find]: the
    position and the pointer. *)
Fixpoint entry_find (l : list (vid * option (variable F))) (k : vid) : res (option (nat * option (variable F))) :=
  match l with
  | [] => Ok None
  | (k', p) :: l' =>
      a <- vid_lt k' k ;;
      b <- vid_lt k k' ;;
      if a && b then UB BadComparator
      else if negb a && negb b then Ok (Some (0%nat, p))
      else o <- entry_find l' k ;;
           Ok (match o with Some (n, p') => Some (S n, p') | None => None end)
  end.

(** The manager after _variables[var] (variable_manager.cpp:60) has been evaluated
    for a new key, and after the assignment. *)
Definition with_entry (m : pmgr) (k : vid) (p : option (variable F)) : pmgr :=
  mkPmgr (pm_grid m) (pm_vars m ++ [(k, p)]) (pm_dt m) (pm_time m).

(** add_variable (variable_manager.cpp:54-61), operator[] first. *)
Definition entry_add (m : pmgr) (k : vid) : out pmgr :=
  liftr m (entry_find (pm_vars m) k) (fun o =>
  match o with
  | Some _ => Threw "qk::variable::variable_manager::add_variable : Variable already exists." m
  | None =>
      liftr (with_entry m k None) (variable_new (id_name k) (id_comps k) (id_basis k) (gr_range (pm_grid m)) 2) (fun v =>
      Done (with_entry m k (Some v)))
  end).

(** *(itr->second) (variable_manager.cpp:41, 51). *)
Definition follow (o : option (nat * option (variable F))) : res nat :=
  match o with
  | Some (n, Some _) => Ok n
  | Some (_, None) => UB NullDeref
  | None => UB EndDeref
  end.

(** output_variable (variable_manager.cpp:30-42) with the code [f] that uses the
    returned reference. *)
Definition entry_output (m : pmgr) (k : vid) (f : nat -> pmgr -> out pmgr) : out pmgr :=
  liftr m (entry_find (pm_vars m) k) (fun o =>
  match o with
  | Some _ => liftr m (follow o) (fun n => f n m)
  | None =>
      obind (entry_add m k) (fun m' =>
      liftr m' (o' <- entry_find (pm_vars m') k ;; follow o') (fun n => f n m'))
  end).

(** input_variable (variable_manager.cpp:44-52). *)
Definition entry_input (m : pmgr) (k : vid) : res nat :=
  o <- entry_find (pm_vars m) k ;; follow o.

End AddOrder.
Arguments pmgr F : clear implicits.
