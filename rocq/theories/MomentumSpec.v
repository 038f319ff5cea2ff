(** * MomentumSpec: momentum of a plasma and its field in a cell. *)
From Coq Require Import ZArith List Reals.
From Verif Require Import Base BoxSpec Arith ArithR Chunk FieldSpec VarId Manager MgrSpec BC BCSpec FlowSpec.
Import ListNotations.
Open Scope R_scope.

(** Component [j] of the momentum per volume of both fluids and of the electromagnetic
    field: the momentum of the field is the product of the electric and the magnetic field
    times the permittivity. *)
Definition momentum (eps0 : R) (u v w : field R) (x : list Z) (j : Z) : R :=
  u (x ++ [1 + j]%Z) + v (x ++ [1 + j]%Z) + eps0 * vector_product (fun k => w (x ++ [k])) (fun k => w (x ++ [3 + k]%Z)) j.

(** The charges of both fluids in the cell [x] cancel. *)
Definition neutral (q0 m0 q1 m1 : R) (u v : field R) (x : list Z) : Prop := q0 / m0 * u (x ++ [0%Z]) + q1 / m1 * v (x ++ [0%Z]) = 0.
