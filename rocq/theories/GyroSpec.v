(** * GyroSpec: energy of motion and field strength in a cell of a plasma. *)
From Coq Require Import ZArith List Reals.
From Verif Require Import Base BoxSpec Arith ArithR Chunk FieldSpec VarId Manager MgrSpec BC BCSpec.
Import ListNotations.
Open Scope R_scope.

(** The square of a vector: components [j], [j+1] and [j+2] of the cell [x]. *)
Definition square (u : field R) (x : list Z) (j : Z) : R := u (x ++ [j]) ^ 2 + u (x ++ [j + 1]%Z) ^ 2 + u (x ++ [j + 2]%Z) ^ 2.

(** Twice the energy of the flow of two fluids and of the electric field per volume. *)
Definition motion2 (eps0 : R) (u v w : field R) (x : list Z) : R :=
  square u x 1 / u (x ++ [0%Z]) + square v x 1 / v (x ++ [0%Z]) + eps0 * square w x 0.

(** The cell [x] has the same densities and the same magnetic field before and after. *)
Definition same_densities (u v u' v' : field R) (x : list Z) : Prop := u' (x ++ [0%Z]) = u (x ++ [0%Z]) /\ v' (x ++ [0%Z]) = v (x ++ [0%Z]).
Definition same_magnet (w w' : field R) (x : list Z) : Prop := forall j, (3 <= j < 6)%Z -> w' (x ++ [j]) = w (x ++ [j]).
