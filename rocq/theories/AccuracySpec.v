(** * AccuracySpec: smooth data. *)
From Coq Require Import ZArith List Reals.
Import ListNotations.
Open Scope R_scope.

(** Between [a] and [b] the function [f] has the derivative [f1], which changes at
    most [K] times as much as its argument; a second derivative of at most [K] has
    this effect. *)
Definition smooth (f f1 : R -> R) (K a b : R) : Prop :=
  (forall y, a <= y <= b -> derivable_pt_lim f y (f1 y)) /\
  (forall y z, a <= y <= b -> a <= z <= b -> Rabs (f1 y - f1 z) <= K * Rabs (y - z)).

(** The curl of a vector field from the derivative [D d i] of component [i] along
    dimension [d], and the rates of change of the electric field, components 0 to 2,
    and the magnetic field, components 3 to 5, in empty space. *)
Definition sign3 (i j k : nat) : R :=
  match i, j, k with
  | 0%nat, 1%nat, 2%nat | 1%nat, 2%nat, 0%nat | 2%nat, 0%nat, 1%nat => 1
  | 0%nat, 2%nat, 1%nat | 2%nat, 1%nat, 0%nat | 1%nat, 0%nat, 2%nat => -1
  | _, _, _ => 0
  end.
Definition curl (D : nat -> nat -> R) (k : nat) : R :=
  fold_right Rplus 0 (map (fun d => fold_right Rplus 0 (map (fun i => sign3 k d i * D d i) [0; 1; 2]%nat)) [0; 1; 2]%nat).
Definition vacuum_rate (c : R) (D : nat -> nat -> R) (j : nat) : R :=
  if Nat.ltb j 3 then c * c * curl (fun d i => D d (3 + i)%nat) j else - curl D (j - 3).

(** Smooth and no larger than [K], nor is the derivative. *)
Definition tame (f f1 : R -> R) (K a b : R) : Prop :=
  smooth f f1 K a b /\ forall y, a <= y <= b -> Rabs (f y) <= K /\ Rabs (f1 y) <= K.
