(** * ReachSpec: how far apart cells of a mesh are. *)
From Coq Require Import ZArith List.
From Verif Require Import Base BoxSpec Arith Chunk FieldSpec VarId Manager MgrSpec BCSpec SweepSpec SymmetrySpec.
Import ListNotations.
Open Scope Z_scope.

(** From cell [x] one step to cell [y] of mesh [M]: up or down along some dimension;
    whoever leaves the mesh along one of the periodic dimensions [ps] comes back at the
    other end. *)
Definition beside (M : box) (ps : list nat) (x y : list Z) : Prop :=
  exists d t, (d < List.length M)%nat /\ (t = 1 \/ t = -1) /\ lo M d <= nth d y 0 < hi M d /\ (y = move d t x \/ In d ps /\ y = around M d t x).

(** At most [r] steps lead from [x] to [y]. *)
Inductive within (M : box) (ps : list nat) : nat -> list Z -> list Z -> Prop :=
| within_here : forall r x, within M ps r x x
| within_step : forall r x y z, beside M ps x y -> within M ps r y z -> within M ps (S r) x z.

(** The fields [u] and [v] are the same in the [n] components of all cells at most [r]
    steps away from [x]. *)
Definition same_near {F} (M : box) (ps : list nat) (r : nat) (n : Z) (x : list Z) (u v : field F) : Prop :=
  forall y j, within M ps r x y -> 0 <= j < n -> u (y ++ [j]) = v (y ++ [j]).
