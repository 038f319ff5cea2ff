(** * GridSpec: specification vocabulary for grids over exact reals. *)
From Coq Require Import ZArith List Reals.
From Verif Require Import Base BoxSpec Range RangeSpec Arith ArithR Manager Grid.
Import ListNotations.
Open Scope R_scope.

(** Sum of a list. *)
Fixpoint rsum (l : list R) : R := match l with [] => 0 | x :: l' => x + rsum l' end.

(** Left edge of cell [i] of a row of cells of widths [h] that begins at [s]. *)
Definition left_edge (s : R) (h : list R) (i : nat) : R := s + rsum (firstn i h).

(** A structured grid on the box [M]: in every dimension one width and one
    centre per cell. *)
Definition structured_on (g : sgrid R) (M : box) : Prop :=
  observes (sg_range g) M /\
  List.length (sg_starts g) = List.length M /\ List.length (sg_widths g) = List.length M /\
  Forall2 (fun iv h => Z.of_nat (List.length h) = (snd iv - fst iv)%Z) M (sg_dxs g) /\
  Forall2 (fun iv h => Z.of_nat (List.length h) = (snd iv - fst iv)%Z) M (sg_xcs g).

(** Dimension [d] of [g'] has cells of widths [h] and centroids in their
    middles; everything else is as in [g]. *)
Definition row_is (g g' : sgrid R) (d : nat) (h : list R) : Prop :=
  sg_range g' = sg_range g /\ sg_starts g' = sg_starts g /\ sg_widths g' = sg_widths g /\
  (forall e, e <> d -> nth_error (sg_dxs g') e = nth_error (sg_dxs g) e /\ nth_error (sg_xcs g') e = nth_error (sg_xcs g) e) /\
  (forall i, (i < List.length h)%nat ->
    structured_dx g' (Z.of_nat d) (Z.of_nat i) = Ok (nth i h 0) /\
    structured_centroid g' (Z.of_nat d) (Z.of_nat i) = Ok (left_edge (nth d (sg_starts g) 0) h i + nth i h 0 / 2)).

(** All cells have positive width and the centroid of each is strictly between
    its edges. *)
Definition centres_inside (g : sgrid R) (d : nat) (h : list R) : Prop :=
  forall i, (i < List.length h)%nat -> 0 < nth i h 0 /\
    exists x, structured_centroid g (Z.of_nat d) (Z.of_nat i) = Ok x /\
      left_edge (nth d (sg_starts g) 0) h i < x < left_edge (nth d (sg_starts g) 0) h (S i).
