(** * SymmetrySpec: moving data around a periodic dimension. *)
From Coq Require Import ZArith List.
From Verif Require Import Base BoxSpec Arith Chunk FieldSpec VarId Manager MgrSpec.
Import ListNotations.
Open Scope Z_scope.

(** The cell [s] further along dimension [d]; whoever leaves the mesh at one end
    comes back at the other. *)
Definition around (M : box) (d : nat) (s : Z) (c : list Z) : list Z :=
  upd c d (lo M d + (nth d c 0 + s - lo M d) mod (hi M d - lo M d)).

(** Field [v] is field [u] moved by [s] cells along dimension [d], on the cells of [b]. *)
Definition moved {F} (M : box) (d : nat) (s : Z) (b : box) (u v : field F) : Prop :=
  forall c, in_box b c -> v c = u (around M d s c).

(** The cell without its coordinate [d]. *)
Definition drop (d : nat) (c : list Z) : list Z := firstn d c ++ skipn (S d) c.

(** Field [v] does not depend on the coordinate [d]: without it, it is field [u], on
    the cells of [b]. *)
Definition lifted {F} (d : nat) (b : box) (u v : field F) : Prop := forall c, in_box b c -> v c = u (drop d c).
