(** * PositiveSpec: when the density of a gas stays positive. *)
From Coq Require Import ZArith List Reals.
From Verif Require Import Base BoxSpec Arith ArithR Chunk FieldSpec VarId Manager MgrSpec BC BCSpec SweepSpec Programs ProgramsSpec EulerSpec.
Import ListNotations.
Open Scope R_scope.

(** The largest speed of a wave along dimension [d] in state [q]. *)
Definition wave_speed (gamma : R) (d : nat) (q : list R) : R := Rabs (velocity d q) + sound gamma q.

(** From two cells below to two cells above cell [x] the density is at least 1e-9,
    and of two neighbours neither has more than nine times the density of the
    other. *)
Definition gentle (u : field R) (d : nat) (x : list Z) : Prop :=
  forall k, (-2 <= k <= 2)%Z -> / 1000000000 <= u (move d k x ++ [0%Z]) /\
    ((k < 2)%Z -> u (move d k x ++ [0%Z]) <= 9 * u (move d (k + 1) x ++ [0%Z]) /\ u (move d (k + 1) x ++ [0%Z]) <= 9 * u (move d k x ++ [0%Z])).

(** The gas [u] on mesh [M] is gentle in every cell, looking over the boundaries
    too, and the waves at the two walls of a cell along dimension [d], on the
    inside, are not faster than [s d]. *)
Definition calm (gamma : R) (M P : box) (bc : nat -> bc_kind) (s : nat -> R) (u : field R) : Prop :=
  forall x d, in_box (M ++ P) x -> (d < List.length M)%nat -> let w := seen (bc d) M d u in
    gentle w d x /\ wave_speed gamma d (left_state 5 w d (move d 1 x)) <= s d /\ wave_speed gamma d (right_state 5 w d x) <= s d.

(** The part of its density a cell loses at most in a stage of length [dt]. *)
Definition courant (k : nat) (dt : R) (s dx : nat -> R) : R := 21 / 10 * sum_over (seq 0 k) (fun d => dt * s d / dx d).

(** The fields at which the three stages of a step of the Runge-Kutta method take
    the right-hand side. *)
Definition second {I} (Op : (I -> field R) -> I -> field R) (dt : R) (U : I -> field R) : I -> field R :=
  fun i c => U i c + dt * Op U i c.
Definition third {I} (Op : (I -> field R) -> I -> field R) (dt : R) (U : I -> field R) : I -> field R :=
  fun i c => 3 / 4 * U i c + / 4 * second Op dt (second Op dt U) i c.
