(** * UnitsSpec: the same state in other units. *)
From Coq Require Import ZArith List Reals.
From Verif Require Import EulerSpec.
Import ListNotations.
Open Scope R_scope.

(** A gas with the unit of density divided by [k] and the unit of velocity divided
    by [v], and the flux of its mass, momentum and energy. *)
Definition gas_units (k v : R) (q : list R) : list R :=
  [k * nth 0 q 0; k * v * nth 1 q 0; k * v * nth 2 q 0; k * v * nth 3 q 0; k * v * v * nth 4 q 0].
Definition gas_flux_units (k v : R) (f : list R) : list R := map (fun x => v * x) (gas_units k v f).
(** An electromagnetic field with the unit of the magnetic field divided by [b] and
    the unit of velocity divided by [v], and its flux. *)
Definition em_units (b v : R) (q : list R) : list R :=
  [b * v * nth 0 q 0; b * v * nth 1 q 0; b * v * nth 2 q 0; b * nth 3 q 0; b * nth 4 q 0; b * nth 5 q 0].
Definition em_flux_units (b v : R) (f : list R) : list R := map (fun x => v * x) (em_units b v f).
