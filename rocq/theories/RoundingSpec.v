(** * RoundingSpec: the numbers that doubles stand for, and what rounding can do. *)
From Coq Require Import ZArith List Reals Floats.SpecFloat.
From Verif Require Import Base BoxSpec Arith ArithFloat Chunk FieldSpec VarId Manager MgrSpec BC BCSpec SweepSpec ProgramsSpec.
Import ListNotations.
Open Scope Z_scope.

(** The number that a double stands for (infinities and NaN: none, here 0), and the
    doubles that are numbers. *)
Definition real (x : spec_float) : R :=
  match x with S754_finite s m e => (IZR (if s then - Z.pos m else Z.pos m) * powerRZ 2 e)%R | _ => 0%R end.
Definition number (x : spec_float) : Prop :=
  valid_binary 53 1024 x = true /\ match x with S754_zero _ | S754_finite _ _ _ => True | _ => False end.
Definition within (B : R) (x : spec_float) : Prop := number x /\ (Rabs (real x) <= B)%R.

(** Rounding to nearest changes a number by at most one part in 2^53, or by the
    half of the smallest positive double, 2^-1074, if it is tiny. *)
Definition unit_roundoff : R := (/ 2 ^ 53)%R.
Definition tiny : R := (/ 2 ^ 1000)%R.
(** Numbers that are far from overflow. *)
Definition large : R := (2 ^ 1000)%R.
Definition far : R := (2 ^ 300)%R.

(** The states at which a step of the integrator evaluates the right-hand side. *)
Definition stages {F} {A : Arith F} (Op : @sys F -> @sys F) (dt : F) (U : @sys F) : list (@sys F) :=
  let U1 : sys := fun i c => (U i c + dt * Op U i c)%F in
  let U2 : sys := fun i c => (fdec 75 (-2) * U i c + fdec 25 (-2) * U1 i c + fdec 25 (-2) * dt * Op U1 i c)%F in
  [U; U1; U2].

(** The values in the cells of [B] are numbers up to [b], and the fluxes through their
    walls over the spacing numbers up to [q]. *)
Definition moderate (n : Z) (G : nat -> list spec_float -> list spec_float -> list spec_float) (M B : box) (dx : nat -> spec_float) (ds : list nat)
    (b q : R) (u : field spec_float) : Prop :=
  (forall x j, in_box B x -> 0 <= j < n -> within b (u (x ++ [j]))) /\
  (forall d x j s, In d ds -> in_box B x -> 0 <= j < n -> s = 0 \/ s = 1 ->
    within q (wall n G (seen Periodic M d u) d (move d s x) j / dx d)%F).

(** The divisors of the limiter at the walls along dimension [d] are not 0: no value
    is by exactly 10^-12 (after rounding) below the value of the cell before it. *)
Definition no_zero_divisor (M B : box) (ds : list nat) (n : Z) (u : field spec_float) : Prop :=
  forall d x j t, In d ds -> in_box B x -> 0 <= j < n -> -1 <= t <= 2 ->
    real (seen Periodic M d u (move d t x ++ [j]) - seen Periodic M d u (move d (t - 1) x ++ [j]) + fdec 1 (-12))%F <> 0%R.

(** How much the largest value can grow in a step of length up to [T] with speed of
    light up to [C] and spacings of at least [1 / X]. *)
Definition step_growth (C X T : R) : R := ((1 + 64 * unit_roundoff) * (1 + 110 * (C * C) * X * T) ^ 3)%R.
