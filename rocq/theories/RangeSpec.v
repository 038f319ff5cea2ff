(** * RangeSpec: specification vocabulary for ranges.

    A range object is described by the box (list of intervals) it stands for;
    [observes] says what each public accessor returns.  [box_step] says what
    each mutating call does to the box, and which integer results the call
    forms on the way. *)
From Coq Require Import ZArith List String Bool.
From Verif Require Import Base BoxSpec Range.
Import ListNotations.
Open Scope Z_scope.

(** Volume of a range: 0 for no dimension, else the product of the lengths. *)
Definition box_volume (b : box) : Z :=
  match b with [] => 0 | _ => prod_len b end.

(** What a client sees of a range object standing for the box [b]. *)
Definition observes (r : range) (b : box) : Prop :=
  r_nd r = Z.of_nat (List.length b) /\
  range_volume r =
    match b with
    | [] => Ok 0
    | (l, u) :: b' => n <- isub u l ;; imul (prod_len b') n
    end /\
  (forall i l u, nth_error b i = Some (l, u) ->
     range_lower r (Z.of_nat i) = Ok l /\
     range_upper r (Z.of_nat i) = Ok u /\
     range_length r (Z.of_nat i) = isub u l /\
     range_stride r (Z.of_nat i) = Ok (prod_len (skipn (S i) b))) /\
  (forall i, (i < 0 \/ Z.of_nat (List.length b) <= i) ->
     range_lower r i = UB OutOfBounds /\ range_upper r i = UB OutOfBounds /\
     range_stride r i = UB OutOfBounds).

(** The volume of the trailing dimensions is an int, for every proper suffix:
    exactly the values the constructor stores as strides. *)
Fixpoint strides_fit (b : box) : Prop :=
  match b with
  | [] => True
  | _ :: b' =>
      strides_fit b' /\
      match b' with
      | [] => True
      | (l, u) :: _ => is_int (u - l) /\ is_int (prod_len b')
      end
  end.

(** Mutating calls on a range. *)
Inductive range_op : Type :=
| OpExtrude (lo up : Z)
| OpExpand (dim a b : Z)
| OpShift (dim s : Z)
| OpSet (dim lo up : Z)
| OpResize (b : box)      (* resize(n, lower, upper) with the bounds of b *)
| OpAssign (src : range). (* operator= / resize from another range object *)

(** The call in the model. *)
Definition run_op (r : range) (o : range_op) : res range :=
  match o with
  | OpExtrude lo up => range_extrude r lo up
  | OpExpand d a b => range_expand r d a b
  | OpShift d s => range_shift r d s
  | OpSet d lo up => range_set r d lo up
  | OpResize b => range_make (Z.of_nat (List.length b)) (map fst b) (map snd b)
  | OpAssign src => range_copy src
  end.

Fixpoint run_ops (r : range) (os : list range_op) : res range :=
  match os with
  | [] => Ok r
  | o :: os' => r' <- run_op r o ;; run_ops r' os'
  end.

(** The effect of a call on the box. *)
Inductive box_step : box -> range_op -> box -> Prop :=
| st_extrude : forall b lo up,
    is_int (Z.of_nat (List.length b) + 1) -> strides_fit (b ++ [(lo, up)]) ->
    box_step b (OpExtrude lo up) (b ++ [(lo, up)])
| st_expand : forall p l u q a c d,
    d = Z.of_nat (List.length p) ->
    is_int (l + a) -> is_int (u + c) -> strides_fit (p ++ (l + a, u + c) :: q) ->
    box_step (p ++ (l, u) :: q) (OpExpand d a c) (p ++ (l + a, u + c) :: q)
| st_shift : forall p l u q s d,
    d = Z.of_nat (List.length p) ->
    is_int (l + s) -> is_int (u + s) -> strides_fit (p ++ (l + s, u + s) :: q) ->
    box_step (p ++ (l, u) :: q) (OpShift d s) (p ++ (l + s, u + s) :: q)
| st_set : forall p l u q lo up d,
    d = Z.of_nat (List.length p) ->
    strides_fit (p ++ (lo, up) :: q) ->
    box_step (p ++ (l, u) :: q) (OpSet d lo up) (p ++ (lo, up) :: q)
| st_resize : forall b b', strides_fit b' -> box_step b (OpResize b') b'
| st_assign : forall b src b',
    observes src b' -> strides_fit b' ->
    box_step b (OpAssign src) b'.

Inductive box_steps : box -> list range_op -> box -> Prop :=
| sts_nil : forall b, box_steps b [] b
| sts_cons : forall b o b1 os b2,
    box_step b o b1 -> box_steps b1 os b2 -> box_steps b (o :: os) b2.

(** Undefined behaviour of any kind. *)
Definition is_ub {A} (m : res A) : Prop := exists k, m = UB k.

(** The source of an assignment is itself a range some client can observe. *)
Definition op_src_ok (o : range_op) : Prop :=
  match o with OpAssign src => exists b, observes src b | _ => True end.

(** Bounds are ints. *)
Definition int_bounds (b : box) : Prop := Forall (fun iv => is_int (fst iv) /\ is_int (snd iv)) b.

(** Shapes the library can represent: at least one dimension, at least one
    cell, bounds and volume are ints. *)
Definition valid_box (b : box) : Prop :=
  b <> [] /\ nonempty b /\ prod_len b <= int_max /\ int_bounds b.
