(** * FlowSpec: the equations of motion of a uniform plasma. *)
From Coq Require Import ZArith List Reals.
From Verif Require Import Base BoxSpec Arith ArithR Chunk FieldSpec VarId Manager MgrSpec BC BCSpec GyroSpec.
Import ListNotations.
Open Scope R_scope.

(** Component [j] of the product of two vectors. *)
Definition vector_product (a b : Z -> R) (j : Z) : R := a ((j + 1) mod 3)%Z * b ((j + 2) mod 3)%Z - a ((j + 2) mod 3)%Z * b ((j + 1) mod 3)%Z.

(** The momenta [p] and [q] of two fluids with densities [rho0] and [rho1], of particles
    with charges [q0] and [q1] and masses [m0] and [m1], and the electric field [E] satisfy
    at all times the equations of motion in the magnetic field [B]: the force of Lorentz
    acts on the fluids, and their currents change the electric field. *)
Definition exact_motion (eps0 q0 m0 q1 m1 rho0 rho1 : R) (B : Z -> R) (p q E : R -> Z -> R) : Prop := forall t j, (0 <= j < 3)%Z ->
  derivable_pt_lim (fun s => p s j) t (q0 / m0 * (rho0 * E t j + vector_product (p t) B j)) /\
  derivable_pt_lim (fun s => q s j) t (q1 / m1 * (rho1 * E t j + vector_product (q t) B j)) /\
  derivable_pt_lim (fun s => E s j) t (- (q0 / m0 * p t j + q1 / m1 * q t j) / eps0).

(** The cell [x] has the momenta [p] and [q] and the electric field [E]. *)
Definition moves_as (u v w : field R) (x : list Z) (p q E : Z -> R) : Prop :=
  forall j, (0 <= j < 3)%Z -> u (x ++ [1 + j]%Z) = p j /\ v (x ++ [1 + j]%Z) = q j /\ w (x ++ [j]) = E j.

(** Twice the energy of the difference between the motion in the cell [x] and the given
    one. *)
Definition gap2 (eps0 : R) (u v w : field R) (x : list Z) (p q E : Z -> R) : R :=
  ((u (x ++ [1%Z]) - p 0%Z) ^ 2 + (u (x ++ [2%Z]) - p 1%Z) ^ 2 + (u (x ++ [3%Z]) - p 2%Z) ^ 2) / u (x ++ [0%Z]) +
  ((v (x ++ [1%Z]) - q 0%Z) ^ 2 + (v (x ++ [2%Z]) - q 1%Z) ^ 2 + (v (x ++ [3%Z]) - q 2%Z) ^ 2) / v (x ++ [0%Z]) +
  eps0 * ((w (x ++ [0%Z]) - E 0%Z) ^ 2 + (w (x ++ [1%Z]) - E 1%Z) ^ 2 + (w (x ++ [2%Z]) - E 2%Z) ^ 2).
