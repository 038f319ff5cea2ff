(** * PhysicsSpec: the fluxes through a wall in exact arithmetic. *)
From Coq Require Import ZArith List Reals.
From Verif Require Import EulerSpec.
Import ListNotations.
Open Scope R_scope.

(** The flux of Harten, Lax and van Leer through a wall along dimension [d]: the
    flux of the left state if all waves go right, of the right state if all go
    left, the average in between. When the left waves go right and the right
    waves go left, the code adds both fluxes. *)
Definition hll_flux (gamma : R) (d : nat) (l r : list R) : list R :=
  let sl := left_speed gamma d l in
  let sr := right_speed gamma d r in
  let fl := euler_phys gamma d l in
  let fr := euler_phys gamma d r in
  map (fun j =>
    if Rlt_dec 0 sl then (if Rlt_dec sr 0 then nth j fl 0 + nth j fr 0 else nth j fl 0)
    else if Rlt_dec sr 0 then nth j fr 0
    else hll_average sl sr fl fr l r j) (seq 0 5).

(** The flux of Rusanov for Maxwell's equations along dimension [d]: the mean of
    the two fluxes minus the jump times half the speed of light, except in the
    normal components, which have no flux. *)
Definition rusanov_flux (c : R) (d : nat) (l r : list R) : list R :=
  map (fun i => if orb (Nat.eqb i d) (Nat.eqb i (d + 3)) then 0
    else (nth i (curl_flux c d l) 0 + nth i (curl_flux c d r) 0) / 2 - Rabs c / 2 * (nth i r 0 - nth i l 0)) (seq 0 6).
