(** * MonopoleSpec: the divergence of a vector field on a periodic mesh. *)
From Coq Require Import ZArith List.
From Verif Require Import Base BoxSpec Arith Chunk FieldSpec VarId Manager MgrSpec SymmetrySpec.
Import ListNotations.
Open Scope Z_scope.

(** Central differences, along the dimensions of the mesh, of the components [k],
    [k + 1], ... of field [u] in cell [x]. *)
Definition divergence {F} {A : Arith F} (M : box) (dx : nat -> F) (k : Z) (u : field F) (x : list Z) : F :=
  fold_left (fun s d => (s + (u (around M d 1 x ++ [(k + Z.of_nat d)%Z]) - u (around M d (-1) x ++ [(k + Z.of_nat d)%Z])) / (fofz 2 * dx d))%F) (seq 0 (List.length M)) f0.
