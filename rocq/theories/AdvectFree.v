(** * AdvectFree: the free function advection of src/solver/ssprk2_advection.cpp
    (lines 93-142).  Nothing calls it. *)
From Coq Require Import ZArith List String Bool.
From Verif Require Import Base Arith Range Manager Par Kernel Advection.
Import ListNotations.
Open Scope Z_scope.

Section AdvectFree.
Context {F : Type} {A : Arith F}.

(** stride[i] for the [k] indices from [i] on; [s] is stride[i-1]
    (ssprk2_advection.cpp:105-107). *)
Fixpoint strides_from (r : range) (i s : Z) (k : nat) : res (list Z) :=
  match k with
  | O => Ok []
  | S k' =>
      l <- range_length r (i - 1) ;;
      s' <- imul s l ;;
      rest <- strides_from r (i + 1) s' k' ;;
      Ok (s' :: rest)
  end.
(** The array stride (ssprk2_advection.cpp:103-107).  For a range without
    dimensions stride[0] is outside the array. *)
Definition first_fastest (r : range) : res (list Z) :=
  if r_nd r <=? 0 then UB OutOfBounds
  else rest <- strides_from r 1 1 (Z.to_nat (r_nd r - 1)) ;; Ok (1 :: rest).

(** ns[i] = n[i] for i below volume (ssprk2_advection.cpp:115-118). *)
Definition copy_to (vol : Z) (n ns : list F) : res (list F) :=
  if (Z.of_nat (List.length n) <? vol) || (Z.of_nat (List.length ns) <? vol) then UB OutOfBounds
  else Ok (firstn (Z.to_nat vol) n ++ skipn (Z.to_nat vol) ns).

(** The body of the loops over the dimensions (ssprk2_advection.cpp:122-125,
    136-139); [dt] is dt in the first and 0.5*dt in the second. *)
Definition free_sweep (dt : F) (velocity : list F) (gr : grid F) (vol : Z) (strides : list Z) (dim : Z) : res (list (thr F)) :=
  v <- vget velocity dim ;;
  s <- vget strides dim ;;
  off <- imul (if (f0 <? v)%F then 1 else -1) s ;;
  two <- imul 2 off ;;
  rest <- isub vol two ;;
  dx <- grid_dx gr dim ;;
  adv_iterate (Z.max 0 two) (Z.min vol rest) off (dt * v / dx)%F.

(** One loop over the dimensions: the flow of [a] added to [b] (ssprk2_advection.cpp:121-126,
    135-140).  All loops are set up before the first is run; setting up reads
    neither array.  The loops are run in order; C39 is about threads. *)
Definition free_flow (dt : F) (velocity : list F) (gr : grid F) (vol : Z) (strides : list Z) (nd : Z) (a b : list F) : res (list F) :=
  ls <- loops_of (free_sweep dt velocity gr vol strides) (dims_upto nd) ;;
  m <- loops_run ls [a; b] ;;
  match m with [_; b'] => Ok b' | _ => UB OutOfBounds end.

(** advection (ssprk2_advection.cpp:93-142): the arrays ns_data and np_data
    afterwards.  The three pointers are __restrict__, that is, to separate arrays. *)
Definition advection (gr : grid F) (total : range) (dt : F) (velocity n ns np : list F) : res (list F * list F) :=
  vol <- range_volume total ;;
  strides <- first_fastest total ;;
  ns <- copy_to vol n ns ;;
  ns <- free_flow dt velocity gr vol strides (r_nd total) n ns ;;
  np <- adv_mean vol n ns np ;;
  np <- free_flow (fdec 5 (-1) * dt)%F velocity gr vol strides (r_nd total) ns np ;;
  Ok (ns, np).

End AdvectFree.
