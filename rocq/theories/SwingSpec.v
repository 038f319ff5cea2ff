(** * SwingSpec: a plasma that is uniform around a cell of a plane. *)
From Coq Require Import ZArith List Reals.
From Verif Require Import Base BoxSpec Arith ArithR Chunk FieldSpec VarId Manager MgrSpec BC BCSpec.
Import ListNotations.
Open Scope R_scope.

(** The cells up to [r] from [x] in each of the two dimensions all have the same [n]
    components. *)
Definition uniform_around (r n : Z) (u : field R) (x : list Z) : Prop :=
  forall s t i, (- r <= s <= r)%Z -> (- r <= t <= r)%Z -> (0 <= i < n)%Z -> u (move 0 s (move 1 t x) ++ [i]) = u (x ++ [i]).
