(** * ExactSpec: by how much a step in doubles misses the step in real numbers. *)
From Coq Require Import ZArith List Reals.
From Verif Require Import Base BoxSpec Arith ArithR RoundingSpec.
Open Scope R_scope.

(** The error of one stage of a step of length up to [T], with values up to [b],
    speed of light up to [C] and spacings of at least [1 / X]: the 10^-12 that the
    limiter adds to the slopes, and the rounding. *)
Definition stage_error (C X T b : R) : R :=
  C * C * X * T * (120 / 1000000000000 + 3500 * unit_roundoff * b) + 4 * unit_roundoff * b.
