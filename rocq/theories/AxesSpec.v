(** * AxesSpec: the same problem with the axes in another order. *)
From Coq Require Import ZArith List Bool.
From Verif Require Import Base BoxSpec Arith FieldSpec Chunk VarId Manager MgrSpec.
Import ListNotations.
Open Scope Z_scope.

(** New dimension [i] is the old dimension [nth i p 0]: the cells and the mesh in
    the new order. *)
Definition axes (p : list nat) (x : list Z) : list Z := map (fun d => nth d x 0) p ++ skipn (List.length p) x.
Definition box_axes (p : list nat) (M : box) : box := map (fun d => nth d M (0, 0)) p.

(** The components of a vector, along the axes of the mesh in the new order and the
    others as they are; of a fluid, whose momentum are components 1 to 3; of the two
    vectors E and B. *)
Definition along (p : list nat) (i : Z) : Z := if i <? Z.of_nat (List.length p) then Z.of_nat (nth (Z.to_nat i) p O) else i.
Definition fluid_along (p : list nat) (j : Z) : Z := if (1 <=? j) && (j <? 4) then 1 + along p (j - 1) else j.
Definition em_along (p : list nat) (j : Z) : Z := if j <? 3 then along p j else 3 + along p (j - 3).

(** Field [v] is field [u] in the new order. *)
Definition in_order {F} (p : list nat) (by_axis : list nat -> Z -> Z) (n : Z) (b : box) (u v : field F) : Prop :=
  forall x j, in_box b x -> 0 <= j < n -> v (axes p x ++ [j]) = u (x ++ [by_axis p j]).
