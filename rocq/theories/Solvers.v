(** * Solvers: model of src/solver/fill.cpp and src/solver/swap.cpp. *)
From Coq Require Import ZArith List String Bool.
From Verif Require Import Base Arith Range Indexer Interface Chunk VarId Manager.
Import ListNotations.
Open Scope Z_scope.

Section Solvers.
Context {F : Type} {A : Arith F}.

(** fill::solve (fill.cpp:14-25). *)
Definition fill_solve (fuel : nat) (value : F) (outs : list vid) (m : mgr F) : out (mgr F) :=
  ofold (fun id m => with_output m id (fun n m =>
    map_chunks fuel n (fun e => Done (ec_with e (iface_fill_all value (ec_if e)))) m)) outs m.

(** a.swap(b) for two variables (swap.cpp:37): the swap of
    indexer_interface<extended_datachunk> (indexer_interface.h:31-38), the
    vectors of chunks are exchanged.  [na] and [nb] may be one variable. *)
Definition swap_vars (na nb : nat) (m : mgr F) : out (mgr F) :=
  liftr m (var_at m na) (fun va =>
  liftr m (var_at m nb) (fun vb =>
  match iface_swap (ds_chunks (v_ds va), ds_chunks (v_ds vb)) with
  | Done (a, b) => if (na =? nb)%nat then Done m else Done (set_chunks (set_chunks m na a) nb b)
  | Threw msg _ => Threw msg m
  | Undef k => Undef k
  | Spin => Spin
  end)).

(** The loop over pairs (swap.cpp:32-39). *)
Fixpoint swap_pairs (outs : list vid) (m : mgr F) : out (mgr F) :=
  match outs with
  | a :: b :: outs' =>
      obind (with_output m a (fun na m1 => with_output m1 b (fun nb m2 => swap_vars na nb m2)))
        (swap_pairs outs')
  | _ => Done m
  end.

(** swap::solve (swap.cpp:25-42). *)
Definition swap_solve (outs : list vid) (m : mgr F) : out (mgr F) :=
  if Nat.even (List.length outs) then swap_pairs outs m
  else Threw "qk::solver::swap::solve : Must have even number of output variables." m.

End Solvers.
