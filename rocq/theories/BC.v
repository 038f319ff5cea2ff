(** * BC: model of the boundary solvers src/solver/bc_periodic.cpp,
    bc_copy_out.cpp, bc_no_slip.cpp, bc_free_slip.cpp, bc_conducting_wall.cpp. *)
From Coq Require Import ZArith List String Bool.
From Verif Require Import Base Arith Range Indexer Interface Chunk VarId Manager.
Import ListNotations.
Open Scope Z_scope.

Section BC.
Context {F : Type} {A : Arith F}.

(** copy_to inside one chunk (first and third argument are the same object in
    all boundary solvers, for example bc_periodic.cpp:31). *)
Definition chunk_copy_to (fuel : nat) (from to : range) (e : echunk F) : out (echunk F) :=
  omap (ec_with e) (copy_to fuel (fun x => x) from to (ec_if e)).

(** bc_periodic, body of the loop over _dims (bc_periodic.cpp:29-34). *)
Definition periodic_dim (fuel : nat) (i : Z) (e : echunk F) : out (echunk F) :=
  liftr e (vget (ec_low_int e) i) (fun li =>
  liftr e (vget (ec_up_ext e) i) (fun ue =>
  obind (chunk_copy_to fuel li ue e) (fun e1 =>
  liftr e1 (vget (ec_up_int e1) i) (fun ui =>
  liftr e1 (vget (ec_low_ext e1) i) (fun le =>
  chunk_copy_to fuel ui le e1))))).

(** Copy of a range with dimension [i] set to the slice [s, s+1)
    (bc_copy_out.cpp:41-45, 55-59 and the same lines of the wall solvers). *)
Definition slice (r : range) (i s : Z) : res range :=
  r' <- range_copy r ;; s1 <- iadd s 1 ;; range_set r' i s s1.

(** The loop over ghost layers at the lower boundary (bc_copy_out.cpp:36-48,
    bc_no_slip.cpp:36-48, bc_free_slip.cpp:36-48, bc_conducting_wall.cpp:36-48);
    layers j, j+1, ..., j+n-1. *)
Fixpoint mirror_lower (fuel : nat) (n : nat) (i : Z) (li le : range) (j : Z) (e : echunk F) : out (echunk F) :=
  match n with
  | O => Done e
  | S n' =>
      liftr e (l <- range_lower li i ;; iadd l j) (fun from_slice =>
      liftr e (u <- range_upper le i ;; t <- isub u 1 ;; isub t j) (fun to_slice =>
      liftr e (slice li i from_slice) (fun from_rng =>
      liftr e (slice le i to_slice) (fun to_rng =>
      obind (chunk_copy_to fuel from_rng to_rng e)
        (mirror_lower fuel n' i li le (j + 1))))))
  end.

(** The same at the upper boundary (bc_copy_out.cpp:50-62, bc_no_slip.cpp:50-62,
    bc_free_slip.cpp:50-62, bc_conducting_wall.cpp:50-62). *)
Fixpoint mirror_upper (fuel : nat) (n : nat) (i : Z) (ui ue : range) (j : Z) (e : echunk F) : out (echunk F) :=
  match n with
  | O => Done e
  | S n' =>
      liftr e (u <- range_upper ui i ;; t <- isub u 1 ;; isub t j) (fun from_slice =>
      liftr e (l <- range_lower ue i ;; iadd l j) (fun to_slice =>
      liftr e (slice ui i from_slice) (fun from_rng =>
      liftr e (slice ue i to_slice) (fun to_rng =>
      obind (chunk_copy_to fuel from_rng to_rng e)
        (mirror_upper fuel n' i ui ue (j + 1))))))
  end.

(** bc_copy_out, body of the loop over _dims (bc_copy_out.cpp:28-63); the wall
    solvers start with the same statements. *)
Definition copy_out_dim (fuel : nat) (i : Z) (e : echunk F) : out (echunk F) :=
  liftr e (vget (ec_low_int e) i) (fun li =>
  liftr e (vget (ec_low_ext e) i) (fun le =>
  liftr e (vget (ec_up_int e) i) (fun ui =>
  liftr e (vget (ec_up_ext e) i) (fun ue =>
  let n := Z.to_nat (ec_g e) in
  obind (mirror_lower fuel n i li le 0 e) (fun e1 =>
  mirror_upper fuel n i ui ue 0 e1))))).

(** Multiply the components [a, b) of an external strip by -1.
    (bc_no_slip.cpp:67-71, 74-78). *)
Definition negate_strip (fuel : nat) (a b : Z) (strip : range) (e : echunk F) : out (echunk F) :=
  liftr e (range_copy strip) (fun r =>
  liftr e (isub (r_nd strip) 1) (fun last =>
  liftr e (range_set r last a b) (fun r' =>
  omap (ec_with e) (chunk_scale fuel r' (fneg f1) (ec_if e))))).

(** Body of the loop over _dims of a wall solver reversing the components
    [a, b): bc_no_slip.cpp:28-79 and bc_free_slip.cpp:28-79 with [1, 4),
    bc_conducting_wall.cpp:28-79 with [0, 4). *)
Definition wall_dim (fuel : nat) (a b : Z) (i : Z) (e : echunk F) : out (echunk F) :=
  obind (copy_out_dim fuel i e) (fun e1 =>
  liftr e1 (vget (ec_low_ext e1) i) (fun le =>
  obind (negate_strip fuel a b le e1) (fun e2 =>
  liftr e2 (vget (ec_up_ext e2) i) (fun ue =>
  negate_strip fuel a b ue e2)))).

(** Which boundary solver: the five classes of bc_periodic.cpp:17-41,
    bc_copy_out.cpp:17-70, bc_no_slip.cpp:17-86, bc_free_slip.cpp:17-86 and
    bc_conducting_wall.cpp:17-86. *)
Inductive bc_kind : Type := Periodic | CopyOut | NoSlip | FreeSlip | ConductingWall.

(** The body for one dimension: bc_periodic.cpp:29-34, bc_copy_out.cpp:28-63,
    bc_no_slip.cpp:28-79, bc_free_slip.cpp:28-79, bc_conducting_wall.cpp:28-79. *)
Definition bc_dim (k : bc_kind) (fuel : nat) : Z -> echunk F -> out (echunk F) :=
  match k with
  | Periodic => periodic_dim fuel
  | CopyOut => copy_out_dim fuel
  | NoSlip => wall_dim fuel 1 4
  | FreeSlip => wall_dim fuel 1 4
  | ConductingWall => wall_dim fuel 0 4
  end.

(** The loop over _dims for one chunk (the for statement at line 28 of
    four files, line 29 of bc_periodic.cpp). *)
Definition bc_chunk (k : bc_kind) (fuel : nat) (dims : list Z) (e : echunk F) : out (echunk F) :=
  ofold (bc_dim k fuel) dims e.

(** solve (bc_periodic.cpp:17-38, bc_copy_out.cpp:17-67, bc_no_slip.cpp:17-83,
    bc_free_slip.cpp:17-83, bc_conducting_wall.cpp:17-83). *)
Definition bc_solve (k : bc_kind) (fuel : nat) (dims : list Z) (outs : list vid) (m : mgr F) : out (mgr F) :=
  ofold (fun id m => with_output m id (fun n m => map_chunks fuel n (bc_chunk k fuel dims) m)) outs m.

End BC.
