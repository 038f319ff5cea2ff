(** * StableSpec: electric and magnetic fields that are almost the same, and mirror
    images. *)
From Coq Require Import ZArith List Bool Reals.
From Verif Require Import Base BoxSpec Arith ArithR Chunk FieldSpec VarId Manager MgrSpec SweepSpec EulerSpec AxesSpec.
Import ListNotations.
Open Scope R_scope.

(** In the cells of [b] the magnetic fields of [u] and [v] differ by at most [k] and
    the electric fields by at most [k] times the speed of light. *)
Definition alike (c k : R) (b : box) (u v : field R) : Prop :=
  forall x j, in_box b x -> (0 <= j < 6)%Z -> Rabs (v (x ++ [j]) - u (x ++ [j])) <= k * (if (j <? 3)%Z then c else 1).

(** By how much a step at most multiplies a difference, with [ds] the dimensions. *)
Definition growth (c dt : R) (dx : nat -> R) (ds : list nat) : R := (1 + 20 * dt * c * sum_over ds (fun d => / dx d)) ^ 3.
(** The number that the code adds to every slope, in the unit of [alike]. *)
Definition tolerance (c : R) : R := / 1000000000000 * Rmax 1 (/ c).

(** The mirror image along dimension [d] of a mesh: the cells in the opposite order,
    the electric field along [d] reversed, and the magnetic field, which is an axial
    vector, reversed in the other two directions. *)
Definition mirror_cell (M : box) (d : nat) (x : list Z) : list Z := upd x d (lo M d + hi M d - 1 - nth d x 0)%Z.
Definition mirror_sign (d : nat) (j : Z) : R := if xorb (j =? Z.of_nat d)%Z ((3 <=? j) && negb (j =? 3 + Z.of_nat d))%Z then -1 else 1.
Definition mirrored (M : box) (d : nat) (u : field R) : field R := fun q =>
  mirror_sign d (last q 0%Z) * u (mirror_cell M d (removelast q) ++ [last q 0%Z]).

(** The new order [p] of the axes is right-handed, 1, or left-handed, -1. *)
Definition handed (p : list nat) : R := levi (Z.to_nat (along p 0)) (Z.to_nat (along p 1)) (Z.to_nat (along p 2)).
(** Up to [k], the fields [v] are the fields [u] with the axes in the new order [p];
    in a left-handed order the magnetic field is reversed. *)
Definition about_in_order (c k : R) (p : list nat) (b : box) (u v : field R) : Prop :=
  forall x j, in_box b x -> (0 <= j < 6)%Z ->
    Rabs (v (axes p x ++ [j]) - (if (j <? 3)%Z then 1 else handed p) * u (x ++ [em_along p j])) <= k * (if (j <? 3)%Z then c else 1).
