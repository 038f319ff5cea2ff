(** * Programs: model of the time loops of the example programs, src/example.

    An example declares the ids of its variables, sets up one solver object per
    stage and calls their solve functions in a fixed order.  Not modelled: the
    output (std::cout, printf, write_vtk, which takes the manager const) and the
    clock. *)
From Coq Require Import ZArith List String Bool.
From Verif Require Import Base Arith Range Indexer Interface Chunk VarId Manager Solvers BC Par Kernel Integrators Sweep Euler Maxwell Sources Advection.
Import ListNotations.
Open Scope Z_scope.

(** The ids of one unknown: the current values, the three stages and the
    right-hand side (gaussian_pulse.cpp:78-82, sod_shock_tube.cpp:76-80,
    gem_challenge.cpp:150-175, where they are the entries 0 to 4 of a vector). *)
Record family : Type := mkFam { f_0 : vid; f_1 : vid; f_2 : vid; f_3 : vid; f_rhs : vid }.

(** The variable whose right-hand side is computed in stage [k]
    (gaussian_pulse.cpp:93-114, gem_challenge.cpp:205-227). *)
Definition f_read (k : Z) (f : family) : vid := if k =? 0 then f_0 f else if k =? 1 then f_1 f else f_2 f.

(** One call of solve of a boundary condition object: kind, _dims, outputs
    (bc_periodic.cpp:17-41 and the other bc_*.cpp). *)
Record bc_call : Type := mkBc { bc_k : bc_kind; bc_dims : list Z; bc_outs : list vid }.

Section Programs.
Context {F : Type} {A : Arith F}.

(** The boundary conditions of a stage, one after the other
    (gem_challenge.cpp:476-478). *)
Definition run_bcs (fuel : nat) (bl : list bc_call) (m : mgr F) : out (mgr F) :=
  ofold (fun b => bc_solve (bc_k b) fuel (bc_dims b) (bc_outs b)) bl m.

(** The solve call of ssprk3 for one unknown (gaussian_pulse.cpp:84-91, 183;
    gem_challenge.cpp:177-202, 487-489). *)
Definition integrate (aligned : bool) (fuel : nat) (k : Z) (f : family) (m : mgr F) : out (mgr F) :=
  ssprk3_solve aligned fuel [f_0 f; f_rhs f] [f_1 f; f_2 f; f_3 f] k m.

(** Body of the loop over the stages in gaussian_pulse (gaussian_pulse.cpp:180-183,
    solver objects 84-146) and in wave_1D (wave_1D.cpp:187-190). *)
Definition pulse_stage (aligned : bool) (fuel : nat) (c : F) (dims : list Z) (f : family) (k : Z) (m : mgr F) : out (mgr F) :=
  obind (run_bcs fuel [mkBc Periodic dims [f_read k f]] m) (fun m =>
  obind (fill_solve fuel (fofz 0) [f_rhs f] m) (fun m =>
  obind (maxwell_solve fuel c [f_read k f] [f_rhs f] m) (fun m =>
  integrate aligned fuel k f m))).
(** One time step (gaussian_pulse.cpp:179-185, swap object 148-152). *)
Definition pulse_step (aligned : bool) (fuel : nat) (c : F) (dims : list Z) (f : family) (m : mgr F) : out (mgr F) :=
  obind (ofold (pulse_stage aligned fuel c dims f) [0; 1; 2] m) (swap_solve [f_0 f; f_3 f]).

(** Body of the loop over the stages in sod_shock_tube (sod_shock_tube.cpp:198-204):
    walls in the dimensions [walls], periodic in the dimensions [dims], which is
    called only if there are any (199-201, the grid has more than one
    dimension exactly if there are any: 56-59). *)
Definition sod_stage (aligned : bool) (fuel : nat) (gamma : F) (walls dims : list Z) (f : family) (k : Z) (m : mgr F) : out (mgr F) :=
  obind (run_bcs fuel (mkBc NoSlip walls [f_read k f] :: match dims with [] => [] | _ => [mkBc Periodic dims [f_read k f]] end) m) (fun m =>
  obind (fill_solve fuel (fofz 0) [f_rhs f] m) (fun m =>
  obind (euler_solve fuel gamma [f_read k f] [f_rhs f] m) (fun m =>
  integrate aligned fuel k f m))).
(** One time step (sod_shock_tube.cpp:197-206). *)
Definition sod_step (aligned : bool) (fuel : nat) (gamma : F) (walls dims : list Z) (f : family) (m : mgr F) : out (mgr F) :=
  obind (ofold (sod_stage aligned fuel gamma walls dims f) [0; 1; 2] m) (swap_solve [f_0 f; f_3 f]).

(** Constants of the two-fluid examples: gamma, speed of light, charge to mass
    ratios of electrons and ions, multipliers of the current source
    (gem_challenge.cpp:48-61). *)
Record plasma : Type := mkPlasma { pl_gamma : F; pl_c : F; pl_e : F; pl_i : F; pl_ms : list F }.

(** Body of the loop over the stages in the two-fluid examples after the
    boundary conditions [bl] (gem_challenge.cpp:479-489,
    two_fluid_brio_wu.cpp:400-409, harris_current_sheet.cpp:483-505). *)
Definition plasma_stage (aligned : bool) (fuel : nat) (p : plasma) (bl : Z -> list bc_call) (e i f : family) (k : Z) (m : mgr F) : out (mgr F) :=
  obind (run_bcs fuel (bl k) m) (fun m =>
  obind (fill_solve fuel (fofz 0) [f_rhs e; f_rhs i; f_rhs f] m) (fun m =>
  obind (euler_solve fuel (pl_gamma p) [f_read k e] [f_rhs e] m) (fun m =>
  obind (lorentz_solve fuel (pl_e p) [f_read k e; f_read k f] [f_rhs e] m) (fun m =>
  obind (euler_solve fuel (pl_gamma p) [f_read k i] [f_rhs i] m) (fun m =>
  obind (lorentz_solve fuel (pl_i p) [f_read k i; f_read k f] [f_rhs i] m) (fun m =>
  obind (maxwell_solve fuel (pl_c p) [f_read k f] [f_rhs f] m) (fun m =>
  obind (current_solve fuel (pl_ms p) [f_read k e; f_read k i] [f_rhs f] m) (fun m =>
  obind (integrate aligned fuel k e m) (fun m =>
  obind (integrate aligned fuel k i m) (fun m =>
  integrate aligned fuel k f m)))))))))).
(** One time step (gem_challenge.cpp:475-491, two_fluid_brio_wu.cpp:397-411,
    harris_current_sheet.cpp:480-507; num_stages() is 3, ssprk3.h:25). *)
Definition plasma_step (aligned : bool) (fuel : nat) (p : plasma) (bl : Z -> list bc_call) (e i f : family) (m : mgr F) : out (mgr F) :=
  obind (ofold (plasma_stage aligned fuel p bl e i f) [0; 1; 2] m) (swap_solve [f_0 e; f_3 e; f_0 i; f_3 i; f_0 f; f_3 f]).

(** Boundary conditions of two_fluid_brio_wu (two_fluid_brio_wu.cpp:65, 308-349,
    398-399) and of harris_current_sheet (harris_current_sheet.cpp:107, 363-404,
    481-482): walls in dimension 0. *)
Definition brio_wu_bcs (e i f : family) (k : Z) : list bc_call :=
  [mkBc NoSlip [0] [f_read k e; f_read k i]; mkBc ConductingWall [0] [f_read k f]].
(** Boundary conditions of gem_challenge (gem_challenge.cpp:105-106, 361-428,
    476-478): walls in dimension 0, periodic in dimension 1. *)
Definition gem_bcs (e i f : family) (k : Z) : list bc_call :=
  [mkBc NoSlip [0] [f_read k e; f_read k i]; mkBc ConductingWall [0] [f_read k f];
   mkBc Periodic [1] [f_read k e; f_read k i; f_read k f]].

(** One time step of advect_gaussian (advect_gaussian.cpp:166-170); [dims] is
    the _dims of the two boundary condition objects (115-129). *)
Definition advect_step (fuel : nat) (velocity : list F) (dims : list Z) (var partial new : vid) (m : mgr F) : out (mgr F) :=
  obind (bc_solve Periodic fuel dims [var] m) (fun m =>
  obind (adv_solve fuel velocity [var] [partial; new] 0 m) (fun m =>
  obind (bc_solve Periodic fuel dims [partial] m) (fun m =>
  obind (adv_solve fuel velocity [var] [partial; new] 1 m) (fun m =>
  swap_solve [var; new] m)))).

(** The time loop: [n] steps, and after each the time advances
    (gaussian_pulse.cpp:173-188, advect_gaussian.cpp:160-173,
    gem_challenge.cpp:468-494).  The examples nest it in a loop over frames, [n]
    is the number of frames times the steps per frame; [t] is the local variable
    time. *)
Fixpoint time_loop (step : mgr F -> out (mgr F)) (dt : F) (n : nat) (t : F) (m : mgr F) : out (mgr F) :=
  match n with
  | O => Done m
  | S n' => obind (step m) (fun m => time_loop step dt n' (fadd t dt) (mgr_set_time m (fadd t dt)))
  end.
(** From set_time and set_dt on (gaussian_pulse.cpp:168-189). *)
Definition run (step : mgr F -> out (mgr F)) (dt : F) (n : nat) (m : mgr F) : out (mgr F) :=
  time_loop step dt n (fofz 0) (mgr_set_dt (mgr_set_time m (fofz 0)) dt).

End Programs.
