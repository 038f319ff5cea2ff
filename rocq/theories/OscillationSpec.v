(** * OscillationSpec: oscillations of a uniform plasma. *)
From Coq Require Import ZArith List Reals.
From Verif Require Import Base BoxSpec Arith ArithR Chunk FieldSpec VarId Manager MgrSpec BC BCSpec SweepSpec Programs ProgramsSpec.
Import ListNotations.
Open Scope R_scope.

(** The cells up to [r] from [x] along a line all have the same [n] components. *)
Definition uniform_near (r n : Z) (u : field R) (x : list Z) : Prop :=
  forall t i, (- r <= t <= r)%Z -> (0 <= i < n)%Z -> u (move 0 t x ++ [i]) = u (x ++ [i]).

(** The square of the frequency at which the charges of two fluids of densities [re]
    and [ri] swing, as charges over masses and multipliers of the current give it. *)
Definition plasma_frequency2 (p : plasma) (re ri : R) : R := - (nth 0 (pl_ms p) 0 * pl_e p * re + nth 1 (pl_ms p) 0 * pl_i p * ri).

(** Component [j] of the current. *)
Definition current_of (p : plasma) (u v : field R) (x : list Z) (j : Z) : R := nth 0 (pl_ms p) 0 * u (x ++ [j + 1]%Z) + nth 1 (pl_ms p) 0 * v (x ++ [j + 1]%Z).

(** The square of the amplitude of an oscillation, field and current, times the
    square of the frequency. *)
Definition amplitude2 (p : plasma) (w2 : R) (u v w : field R) (x : list Z) (j : Z) : R := w2 * w (x ++ [j]) ^ 2 + current_of p u v x j ^ 2.
