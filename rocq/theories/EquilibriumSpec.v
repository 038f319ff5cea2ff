(** * EquilibriumSpec: gases at rest. *)
From Coq Require Import ZArith List Reals.
From Verif Require Import Base BoxSpec Arith ArithR Chunk FieldSpec VarId Manager MgrSpec BC BCSpec SweepSpec Programs ProgramsSpec EulerSpec.
Import ListNotations.
Open Scope R_scope.

(** In every cell of mesh [M] the gas [u] has no momentum and energy [e], so that the
    pressure is uniform; the density may change from cell to cell. *)
Definition at_rest (M P : box) (e : R) (u : field R) : Prop :=
  forall x, in_box (M ++ P) x -> u (x ++ [1%Z]) = 0 /\ u (x ++ [2%Z]) = 0 /\ u (x ++ [3%Z]) = 0 /\ u (x ++ [4%Z]) = e.

(** The densities the solver takes at both sides of both walls of every cell along
    every dimension are positive. *)
Definition filled (M P : box) (bc : nat -> bc_kind) (u : field R) : Prop :=
  forall x d, in_box (M ++ P) x -> (d < List.length M)%nat -> let w := seen (bc d) M d u in
    0 < density (left_state 5 w d x) /\ 0 < density (right_state 5 w d x) /\
    0 < density (left_state 5 w d (move d 1 x)) /\ 0 < density (right_state 5 w d (move d 1 x)).
