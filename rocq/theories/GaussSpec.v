(** * GaussSpec: Gauss's law and what the solvers make of it. *)
From Coq Require Import ZArith List Reals.
From Verif Require Import Base BoxSpec Arith ArithR Chunk FieldSpec VarId Manager MgrSpec BC BCSpec SweepSpec Programs ProgramsSpec EulerSpec PhysicsSpec AccuracySpec.
Import ListNotations.
Open Scope R_scope.

(** The charge density of two fluids divided by the permittivity; a multiplier of the
    current is minus the charge per mass divided by the permittivity. *)
Definition charge (ms : list R) (u v : field R) (x : list Z) : R := - (nth 0 ms 0 * u (x ++ [0%Z]) + nth 1 ms 0 * v (x ++ [0%Z])).

(** What the divergence of the electric field [w] on a line exceeds the charge by in
    cell [x], with central differences. *)
Definition gauss_error (ms : list R) (h : R) (u v w : field R) (x : list Z) : R :=
  (w (move 0 1 x ++ [0%Z]) - w (move 0 (-1) x ++ [0%Z])) / (2 * h) - charge ms u v x.

(** The mass per time through the lower wall of cell [x] that the fluxes [g] have in
    excess of the mean momentum of the cells on both sides. *)
Definition slip (g : list Z -> R) (u : field R) (x : list Z) : R := g x - (u (move 0 (-1) x ++ [1%Z]) + u (x ++ [1%Z])) / 2.

(** The net inflow of it into cell [x]. *)
Definition slips (g : list Z -> R) (h : R) (u : field R) (x : list Z) : R := (slip g u x - slip g u (move 0 1 x)) / h.

(** The mass fluxes of a gas [u] on a line between walls [bc]. *)
Definition mass_flow (gamma : R) (M : box) (bc : bc_kind) (u : field R) : list Z -> R :=
  fun x => wall 5 (hll_flux gamma) (seen bc M 0 u) 0 x 0.

(** The weighted sum of both fluids: the rate at which the error changes. *)
Definition gauss_rate (gamma : R) (M : box) (ms : list R) (h : R) (u v : field R) (x : list Z) : R :=
  nth 0 ms 0 * slips (mass_flow gamma M NoSlip u) h u x + nth 1 ms 0 * slips (mass_flow gamma M NoSlip v) h v x.

(** Over two cells on each side of [x] the gas is smooth: the components are those of
    functions with bounds [K], and so are the inverse of density and of pressure. *)
Definition smooth_gas (gamma K h : R) (u : field R) (x : list Z) : Prop :=
  exists g g1 : Z -> R -> R,
    (forall i, (0 <= i < 5)%Z -> tame (g i) (g1 i) K (- (5 / 2 * h)) (5 / 2 * h) /\ forall t, (-2 <= t <= 2)%Z -> u (move 0 t x ++ [i]) = g i (IZR t * h)) /\
    forall y, - (5 / 2 * h) <= y <= 5 / 2 * h -> / K <= density (map (fun i => g i y) (zrange 0 5)) /\ / K <= pressure gamma (map (fun i => g i y) (zrange 0 5)).
