(** * BoxSpec: specification vocabulary for integer boxes.

    Independent of the model: a box is the list of its half-open intervals, a
    cell is a list of coordinates. *)
From Coq Require Import ZArith List Bool.
Import ListNotations.
Open Scope Z_scope.

Definition box : Type := list (Z * Z).

(** A coordinate list lies in the box. *)
Definition in_box (b : box) (c : list Z) : Prop :=
  Forall2 (fun (iv : Z * Z) x => fst iv <= x < snd iv) b c.

(** The box has at least one cell. *)
Definition nonempty (b : box) : Prop := Forall (fun iv => fst iv < snd iv) b.

(** Product of the lengths (1 for no dimension). *)
Fixpoint prod_len (b : box) : Z :=
  match b with
  | [] => 1
  | (l, u) :: b' => (u - l) * prod_len b'
  end.

(** The integers l, l+1, ..., u-1. *)
Definition zrange (l u : Z) : list Z :=
  map (fun k => l + Z.of_nat k) (seq 0 (Z.to_nat (u - l))).

(** All cells of the box in row-major order, last dimension fastest. *)
Fixpoint cells (b : box) : list (list Z) :=
  match b with
  | [] => [[]]
  | (l, u) :: b' => flat_map (fun x => map (cons x) (cells b')) (zrange l u)
  end.

(** Row-major offset of a cell in a box. *)
Fixpoint offset (b : box) (c : list Z) : Z :=
  match b, c with
  | (l, _) :: b', x :: c' => (x - l) * prod_len b' + offset b' c'
  | _, _ => 0
  end.

(** First cell. *)
Definition first_cell (b : box) : list Z := map fst b.
(** Last cell of a non-empty box. *)
Definition last_cell (b : box) : list Z := map (fun iv => snd iv - 1) b.

(** Box inclusion: interval by interval. *)
Definition box_incl (inner outer : box) : Prop :=
  Forall2 (fun i o => fst o <= fst i /\ snd i <= snd o) inner outer.
