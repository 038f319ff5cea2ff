(** * Euler: model of src/solver/euler.cpp. *)
From Coq Require Import ZArith List String Bool.
From Verif Require Import Base Arith Range Indexer Interface Chunk VarId Manager Par Kernel Sweep.
Import ListNotations.
Open Scope Z_scope.

Section Euler.
Context {F : Type} {A : Arith F}.

(** Pressure, sound speed, normal velocity and flux of the state on one side of
    a wall (euler.cpp:89-118, 158-187, 228-254; the statements for the left and
    the right state have the same form).  The result is the normal velocity, the
    sound speed and the flux. *)
Definition euler_side (gamma : F) (dim : Z) (q : list F) : res (F * F * list F) :=
  let g1 := (gamma - fofz 1)%F in
  q0 <- vget q 0 ;;
  q1 <- vget q 1 ;;
  q2 <- vget q 2 ;;
  q3 <- vget q 3 ;;
  q4 <- vget q 4 ;;
  qm <- vget q (dim + 1) ;;
  let P := (g1 * (q4 - fdec 5 (-1) * (q1 * q1 + q2 * q2 + q3 * q3) / q0))%F in
  let vs := fsqrt (gamma * P / q0)%F in
  let un := (qm / q0)%F in
  let f := [qm; (q1 * un)%F; (q2 * un)%F; (q3 * un)%F; ((q4 + P) * un)%F] in
  x <- vget f (dim + 1) ;;
  f' <- vset f (dim + 1) (x + P)%F ;;
  Ok (un, vs, f').

(** The flux components with the multipliers (euler.cpp:121-132, 190-201,
    256-264). *)
Fixpoint hll (sll srr : F) (fl fr ql qr : list F) : list F :=
  match fl, fr, ql, qr with
  | l :: fl', r :: fr', a :: ql', b :: qr' =>
      (let fl_mult := fofb (fofz 0 <? sll) in
       let fr_mult := fofb (srr <? fofz 0) in
       let fhll_mult := fofb ((fofz 0 <=? srr) && (sll <=? fofz 0)) in
       let f := (srr * l - sll * r + sll * srr * (b - a)) / (srr - sll) in
       fhll_mult * f + fl_mult * l + fr_mult * r)%F :: hll sll srr fl' fr' ql' qr'
  | _, _, _, _ => []
  end.

(** The flux through a wall between the states ql and qr (euler.cpp:88-132, the
    part after the reconstruction). *)
Definition euler_flux (gamma : F) (dim : Z) (ql qr : list F) : res (list F) :=
  sl <- euler_side gamma dim ql ;;
  sr <- euler_side gamma dim qr ;;
  let '(unl, vsl, fl) := sl in
  let '(unr, vsr, fr) := sr in
  Ok (hll (fsub unl vsl) (fadd unr vsr) fl fr ql qr).

(** The loops of solve_HLL_mp (euler.cpp:29-212) and of solve_HLL_fast
    (euler.cpp:214-267), one per dimension of the grid. *)
Definition euler_mp_loops (gamma : F) (gr : grid F) (q : echunk F) : res (list (list (thr F))) :=
  loops_of (gather_sweep 5 (euler_flux gamma) gr q) (dims_upto (r_nd (gr_range gr))).
Definition euler_fast_loops (gamma : F) (gr : grid F) (q : echunk F) : res (list (list (thr F))) :=
  loops_of (scatter_sweep 5 (euler_flux gamma) gr q) (dims_upto (r_nd (gr_range gr))).

(** euler::solve (euler.cpp:271-291); gamma is set by setup (euler.h:20-24).
    The cast of the grid succeeds: the model has rectilinear grids only. *)
Definition euler_solve (fuel : nat) (gamma : F) : list vid -> list vid -> mgr F -> out (mgr F) :=
  rhs_solve "qk::solver::euler::solve : Input must contain one variable (q)."
    "qk::solver::euler::solve : Output must contain one variable (rhs)." fuel
    (fun m q => _ <- mgr_get_dt m ;; euler_mp_loops gamma (mg_grid m) q).

End Euler.
