(** * HeatSpec: energy of a plasma in a cell. *)
From Coq Require Import ZArith List Reals.
From Verif Require Import Base BoxSpec Arith ArithR Chunk FieldSpec VarId Manager MgrSpec BC BCSpec GyroSpec.
Import ListNotations.
Open Scope R_scope.

(** Energy of both fluids and of the electric field per volume. *)
Definition plasma_energy (eps0 : R) (u v w : field R) (x : list Z) : R := u (x ++ [4%Z]) + v (x ++ [4%Z]) + eps0 / 2 * square w x 0.

(** What of the energy of the fluids is not energy of their flow. *)
Definition heat (u v : field R) (x : list Z) : R :=
  (u (x ++ [4%Z]) - square u x 1 / (2 * u (x ++ [0%Z]))) + (v (x ++ [4%Z]) - square v x 1 / (2 * v (x ++ [0%Z]))).
