(** * NearSpec: states near a uniform one. *)
From Coq Require Import ZArith List Reals.
From Verif Require Import Base BoxSpec Arith ArithR Chunk FieldSpec VarId Manager MgrSpec BC BCSpec SweepSpec.
Import ListNotations.
Open Scope R_scope.

(** The state [x] differs from [q] in every component by at most [k] times [w]. *)
Definition near (q w : list R) (k : R) (x : list R) : Prop :=
  length x = 5%nat /\ forall j, (j < 5)%nat -> Rabs (nth j x 0 - nth j q 0) <= k * nth j w 0.
(** The state of cell [x]. *)
Definition state_of (u : field R) (x : list Z) : list R := map (fun j => u (x ++ [j])) [0; 1; 2; 3; 4]%Z.
