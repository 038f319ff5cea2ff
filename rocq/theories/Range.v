(** * Range: model of src/lib/range.h and src/lib/range.cpp (class qk::range). *)
From Coq Require Import ZArith List String Bool.
From Verif Require Import Base.
Import ListNotations.
Open Scope Z_scope.

(** Members of qk::range (range.h:71-74). *)
Record range : Type := mkRange {
  r_nd : Z;             (* _num_dims *)
  r_lower : list Z;     (* _lower *)
  r_upper : list Z;     (* _upper *)
  r_stride : list Z     (* _stride *)
}.

(** An [const int*] argument of setup: the array it points to, or [None] for a
    pointer into the _lower/_upper vector of the object being set up, which
    setup invalidates by _lower.clear() (range.cpp:78-79) before reading. *)
Definition int_ptr : Type := option (list Z).

(** Read the first [n] elements through a pointer (range.cpp:88-91). *)
Definition read_n (p : int_ptr) (n : Z) : res (list Z) :=
  match p with
  | None => UB InvalidPointer
  | Some a => if Z.of_nat (List.length a) <? n then UB OutOfBounds
              else Ok (firstn (Z.to_nat n) a)
  end.

(** _stride[n-1] = 1; _stride[i] = _stride[i+1] * length(i+1) from the last
    dimension to the first (range.cpp:92-95).  The C++ loop over i is written
    as recursion on the dimensions, innermost first as in the code. *)
Fixpoint strides (lo up : list Z) : res (list Z) :=
  match lo, up with
  | _ :: lo', _ :: up' =>
      match lo', up' with
      | l1 :: _, u1 :: _ =>
          st <- strides lo' up' ;;
          match st with
          | s1 :: _ =>
              len <- isub u1 l1 ;;
              s <- imul s1 len ;;
              Ok (s :: st)
          | [] => UB OutOfBounds
          end
      | _, _ => Ok [1]
      end
  | _, _ => Ok []
  end.

(** range::setup (range.cpp:73-98). *)
Definition range_setup (nd : Z) (lower upper : int_ptr) : res range :=
  if 0 <? nd then
    lo <- read_n lower nd ;;
    up <- read_n upper nd ;;
    st <- strides lo up ;;
    Ok (mkRange nd lo up st)
  else Ok (mkRange nd [] [] []).

(** range::range() (range.cpp:13-17). *)
Definition range_empty : range := mkRange 0 [] [] [].

(** range::range(num_dims, dims) (range.cpp:25-31): the lower bounds are a
    variable length array filled with zeros. *)
Definition range_of_dims (nd : Z) (dims : list Z) : res range :=
  if nd <? 0 then UB BadArraySize
  else range_setup nd (Some (repeat 0 (Z.to_nat nd))) (Some dims).

(** range::range(num_dims, lower, upper) and
    range::resize(num_dims, lower, upper) (range.cpp:33-37, 50-54). *)
Definition range_make (nd : Z) (lower upper : list Z) : res range :=
  range_setup nd (Some lower) (Some upper).

(** range::range(const range &), resize(const range &), operator=
    (range.cpp:19-23, 44-48, 166-171) when source and target are different
    objects; the new value does not depend on the old one. *)
Definition range_copy (src : range) : res range :=
  range_setup (r_nd src) (Some (r_lower src)) (Some (r_upper src)).

(** The same calls (range.cpp:44-48, 166-171) when source and target are the same
    object: the pointers passed to setup point into the vectors that setup clears
    (range.cpp:73-80). *)
Definition range_self_assign (r : range) : res range :=
  range_setup (r_nd r) None None.

(** range::num_dims, lower, upper, length, stride
    (range.h:37-38; range.cpp:126-142). *)
Definition range_lower (r : range) (i : Z) : res Z := vget (r_lower r) i.
Definition range_upper (r : range) (i : Z) : res Z := vget (r_upper r) i.
Definition range_stride (r : range) (i : Z) : res Z := vget (r_stride r) i.
Definition range_length (r : range) (i : Z) : res Z :=
  u <- vget (r_upper r) i ;;
  l <- vget (r_lower r) i ;;
  isub u l.

(** range::volume (range.cpp:144-150). *)
Definition range_volume (r : range) : res Z :=
  if r_nd r =? 0 then Ok 0
  else s <- vget (r_stride r) 0 ;;
       l <- range_length r 0 ;;
       imul s l.

(** range::set (range.cpp:152-164). *)
Definition range_set (r : range) (dim lo up : Z) : res range :=
  if r_nd r <? 0 then UB BadArraySize
  else
    ls <- vset (r_lower r) dim lo ;;
    us <- vset (r_upper r) dim up ;;
    range_setup (r_nd r) (Some ls) (Some us).

(** range::expand (range.cpp:114-118). *)
Definition range_expand (r : range) (dim a b : Z) : res range :=
  l <- vget (r_lower r) dim ;;
  l' <- iadd l a ;;
  u <- vget (r_upper r) dim ;;
  u' <- iadd u b ;;
  range_set r dim l' u'.

(** range::shift (range.cpp:120-124). *)
Definition range_shift (r : range) (dim s : Z) : res range :=
  l <- vget (r_lower r) dim ;;
  l' <- iadd l s ;;
  u <- vget (r_upper r) dim ;;
  u' <- iadd u s ;;
  range_set r dim l' u'.

(** range::extrude (range.cpp:100-112).  The vectors have num_dims+1 elements:
    a negative count makes the vector constructor throw. *)
Definition range_extrude (r : range) (lo up : Z) : res range :=
  nd' <- iadd (r_nd r) 1 ;;
  if nd' <? 0 then Exn "cannot create std::vector larger than max_size()"
  else if nd' =? 0 then UB OutOfBounds (* lower[-1] = ... *)
  else range_setup nd' (Some (r_lower r ++ [lo])) (Some (r_upper r ++ [up])).

(** The per dimension test of range::includes (range.cpp:63-68). *)
Fixpoint includes_dims (lo up lo' up' : list Z) : bool :=
  match lo, up, lo', up' with
  | l :: lo1, u :: up1, l' :: lo1', u' :: up1' =>
      ((l <=? l') && (u >=? u')) && includes_dims lo1 up1 lo1' up1'
  | _, _, _, _ => true
  end.

(** range::includes (range.cpp:56-71).  The loop over i reads the four vectors,
    which have num_dims elements each (established by setup, proved in
    RangeFacts), so the loop is written as recursion over them. *)
Definition range_includes (r sub : range) : bool :=
  (r_nd sub =? r_nd r) &&
  includes_dims (r_lower r) (r_upper r) (r_lower sub) (r_upper sub).

(** The loop of operator== (range.h:90-97). *)
Fixpoint eq_dims (lo up lo' up' : list Z) : bool :=
  match lo, up, lo', up' with
  | l :: lo1, u :: up1, l' :: lo1', u' :: up1' =>
      (l =? l') && ((u =? u') && eq_dims lo1 up1 lo1' up1')
  | _, _, _, _ => true
  end.

(** operator== and operator!= (range.h:83-105). *)
Definition range_eqb (a b : range) : bool :=
  (r_nd a =? r_nd b) && eq_dims (r_lower a) (r_upper a) (r_lower b) (r_upper b).
Definition range_neqb (a b : range) : bool := negb (range_eqb a b).
