(** * Parallel: the example programs compiled with OpenMP.

    The parallel loops of euler.cpp:60, maxwell.cpp:107, 185, 264,
    ssprk3.cpp:64, 82, 101 and ssprk2_advection.cpp:41 are run as pools of iterations whose memory operations
    interleave in any way (Par.v).  A call can therefore have several outcomes; a
    call is modelled by the set of its outcomes.  Everything else is as in
    Kernel.v, Sweep.v, Integrators.v, Advection.v and Programs.v. *)
From Coq Require Import ZArith List String Bool.
From Verif Require Import Base Arith Range Indexer Interface Chunk VarId Manager Solvers BC Par Kernel Integrators Sweep Euler Maxwell Sources Advection Programs Whole.
Import ListNotations.
Open Scope Z_scope.

Section Parallel.
Context {F : Type} {A : Arith F}.

(** The set of outcomes of a call; one outcome; one call after another; use of
    the value of a call (C++ statement sequence, for example
    gaussian_pulse.cpp:180-183). *)
Definition can : Type := out (mgr F) -> Prop.
Definition only (o : out (mgr F)) : can := fun o' => o' = o.
Definition and_then (c : can) (k : mgr F -> can) : can := fun o =>
  exists o1, c o1 /\ match o1 with
                     | Done m => k m o
                     | Threw s m => o = Threw s m
                     | Undef u => o = Undef u
                     | Spin => o = Spin
                     end.
Definition lift_can {B} (m : mgr F) (x : res B) (k : B -> can) : can :=
  match x with
  | Ok b => k b
  | Exn s => only (Threw s m)
  | UB u => only (Undef u)
  | NoFuel => only Spin
  end.

(** What several parallel loops in a row can do to the arrays (euler.cpp:46-60):
    all iterations of the first end and the others follow; or a data race or
    an access outside the arrays comes up, and then anything undefined; or the
    loop does not end. *)
Fixpoint loops_can (ls : list (list (thr F))) (a : mem F) (r : res (mem F)) : Prop :=
  match ls with
  | [] => r = Ok a
  | l :: ls' =>
      (exists ts a1, psteps (l, a) (ts, a1) /\ finished ts /\ loops_can ls' a1 r) \/
      (exists c u, psteps (l, a) c /\ (racing (fst c) \/ faulty c) /\ r = UB u) \/
      (~ Acc (fun c' c => pstep c c') (l, a) /\ r = NoFuel)
  end.

(** The arrays of a chunk and the loops on them (as run_kernel: euler.cpp:57-60,
    maxwell.cpp:93-107, ssprk3.cpp:60-64). *)
Definition kernel_can (ins : list nat) (o : nat) (ix : indexer) (loops : list (list (thr F))) (m : mgr F) : can :=
  if existsb (Nat.eqb o) ins then only (Undef RestrictAlias)
  else
    lift_can m (arrays m (ins ++ [o]) ix) (fun a r =>
    exists x, loops_can loops a x /\
      lift_can m x (fun a' =>
      match nth_error a' (List.length ins) with
      | Some l => only (liftr m (put_array m o ix l) Done)
      | None => only (Undef OutOfBounds)
      end) r).

(** output_variable (variable_manager.cpp:30-42) followed by [f]. *)
Definition output_can (m : mgr F) (k : vid) (f : nat -> mgr F -> can) : can :=
  lift_can m (map_find (mg_vars m) k) (fun o =>
  match o with
  | Some n => f n m
  | None =>
      and_then (only (add_variable m k)) (fun m' =>
      lift_can m' (map_find (mg_vars m') k) (fun o' =>
      match o' with
      | Some n => f n m'
      | None => only (Undef EndDeref)
      end))
  end).

(** The loop over the chunks of a variable (for example euler.cpp:286-289). *)
Fixpoint indexer_can (fuel : nat) (ix : indexer) (body : indexer -> mgr F -> can) (m : mgr F) : can :=
  if ix_ex ix then
    match fuel with
    | O => only Spin
    | S f =>
        and_then (body ix m) (fun m' =>
        lift_can m' (indexer_next ix) (fun ix' => indexer_can f ix' body m'))
    end
  else only (Done m).
Definition chunks_can (fuel : nat) (n : nat) (body : indexer -> mgr F -> can) (m : mgr F) : can :=
  lift_can m (v <- var_at m n ;; iface_indexer (ds_chunks (v_ds v)) (if_range (ds_chunks (v_ds v)))) (fun ix =>
  indexer_can fuel ix body m).

(** euler::solve and maxwell::solve (euler.cpp:271-291, maxwell.cpp:335-354). *)
Definition rhs_can (msg_in msg_out : string) (fuel : nat) (loops : mgr F -> echunk F -> res (list (list (thr F))))
    (ins outs : list vid) (m : mgr F) : can :=
  match ins with
  | [id_q] =>
      match outs with
      | [id_rhs] =>
          lift_can m (input_variable m id_q) (fun q =>
          output_can m id_rhs (fun rhs m =>
          chunks_can fuel q (fun ix m =>
            lift_can m (e <- get_chunk m q ix ;; loops m e) (fun ls => kernel_can [q] rhs ix ls m)) m))
      | _ => only (Threw msg_out m)
      end
  | _ => only (Threw msg_in m)
  end.
Definition euler_can (fuel : nat) (gamma : F) : list vid -> list vid -> mgr F -> can :=
  rhs_can "qk::solver::euler::solve : Input must contain one variable (q)."
    "qk::solver::euler::solve : Output must contain one variable (rhs)." fuel
    (fun m q => _ <- mgr_get_dt m ;; euler_mp_loops gamma (mg_grid m) q).
Definition maxwell_can (fuel : nat) (c : F) : list vid -> list vid -> mgr F -> can :=
  rhs_can "qk::solver::maxwell::solve : Input must contain one variable (q)."
    "qk::solver::maxwell::solve : Output must contain one variable (rhs)." fuel
    (fun m q => maxwell_mp_loops c (mg_grid m) q).

(** ssprk3::solve and its stages (ssprk3.cpp:15-105). *)
Definition ssprk3_can (aligned : bool) (fuel : nat) (ins outs : list vid) (tag : Z) (m : mgr F) : can :=
  match ins with
  | [id_0; id_rhs] =>
      match outs with
      | id_1 :: id_2 :: id_3 :: _ =>
          lift_can m (mgr_get_dt m) (fun dt =>
          lift_can m (input_variable m id_0) (fun q0 =>
          lift_can m (input_variable m id_rhs) (fun rhs =>
          output_can m id_1 (fun q1 m =>
          output_can m id_2 (fun q2 m =>
          output_can m id_3 (fun q3 m =>
          chunks_can fuel q0 (fun ix m =>
            let stage iter rd o :=
              if aligned then
                lift_can m (e <- get_chunk m rhs ix ;; stage_loops iter e) (fun ls =>
                kernel_can rd o ix ls m)
              else only (Undef Misaligned) in
            if (tag =? 0)%Z then stage (stage0_iter dt) [q0; rhs] q1
            else if (tag =? 1)%Z then stage (stage1_iter dt) [q0; q1; rhs] q2
            else if (tag =? 2)%Z then stage (stage2_iter dt) [q0; q2; rhs] q3
            else only (Done m)) m))))))
      | _ => only (Threw "qk::solver::ssprk3::solve : Output must contain three variables (q_1, q_2, q_3)." m)
      end
  | _ => only (Threw "qk::solver::ssprk3::solve : Input must contain two variables (q_0, rhs)." m)
  end.

(** The solve call of ssprk3 for one unknown (gaussian_pulse.cpp:84-91, 183). *)
Definition integrate_can (aligned : bool) (fuel : nat) (k : Z) (f : family) (m : mgr F) : can :=
  ssprk3_can aligned fuel [f_0 f; f_rhs f] [f_1 f; f_2 f; f_3 f] k m.
(** The loop over the stages (gaussian_pulse.cpp:179). *)
Fixpoint each_can {X} (f : X -> mgr F -> can) (l : list X) (m : mgr F) : can :=
  match l with
  | [] => only (Done m)
  | x :: l' => and_then (f x m) (each_can f l')
  end.

(** gaussian_pulse and wave_1D (gaussian_pulse.cpp:179-185, wave_1D.cpp:187-190). *)
Definition pulse_stage_can (aligned : bool) (fuel : nat) (c : F) (dims : list Z) (f : family) (k : Z) (m : mgr F) : can :=
  and_then (only (run_bcs fuel [mkBc Periodic dims [f_read k f]] m)) (fun m =>
  and_then (only (fill_solve fuel (fofz 0) [f_rhs f] m)) (fun m =>
  and_then (maxwell_can fuel c [f_read k f] [f_rhs f] m) (fun m =>
  integrate_can aligned fuel k f m))).
Definition pulse_can (aligned : bool) (fuel : nat) (c : F) (dims : list Z) (f : family) (m : mgr F) : can :=
  and_then (each_can (pulse_stage_can aligned fuel c dims f) [0; 1; 2] m) (fun m => only (swap_solve [f_0 f; f_3 f] m)).

(** sod_shock_tube (sod_shock_tube.cpp:197-206). *)
Definition sod_stage_can (aligned : bool) (fuel : nat) (gamma : F) (walls dims : list Z) (f : family) (k : Z) (m : mgr F) : can :=
  and_then (only (run_bcs fuel (mkBc NoSlip walls [f_read k f] :: match dims with [] => [] | _ => [mkBc Periodic dims [f_read k f]] end) m)) (fun m =>
  and_then (only (fill_solve fuel (fofz 0) [f_rhs f] m)) (fun m =>
  and_then (euler_can fuel gamma [f_read k f] [f_rhs f] m) (fun m =>
  integrate_can aligned fuel k f m))).
Definition sod_can (aligned : bool) (fuel : nat) (gamma : F) (walls dims : list Z) (f : family) (m : mgr F) : can :=
  and_then (each_can (sod_stage_can aligned fuel gamma walls dims f) [0; 1; 2] m) (fun m => only (swap_solve [f_0 f; f_3 f] m)).

(** The two-fluid examples (gem_challenge.cpp:475-491,
    two_fluid_brio_wu.cpp:397-411, harris_current_sheet.cpp:480-507).  The loops
    of lorentz_force and current_source that are used are serial
    (lorentz_force.cpp:21-69, current_source.cpp:21-42). *)
Definition plasma_stage_can (aligned : bool) (fuel : nat) (p : plasma) (bl : Z -> list bc_call) (e i f : family) (k : Z) (m : mgr F) : can :=
  and_then (only (run_bcs fuel (bl k) m)) (fun m =>
  and_then (only (fill_solve fuel (fofz 0) [f_rhs e; f_rhs i; f_rhs f] m)) (fun m =>
  and_then (euler_can fuel (pl_gamma p) [f_read k e] [f_rhs e] m) (fun m =>
  and_then (only (lorentz_solve fuel (pl_e p) [f_read k e; f_read k f] [f_rhs e] m)) (fun m =>
  and_then (euler_can fuel (pl_gamma p) [f_read k i] [f_rhs i] m) (fun m =>
  and_then (only (lorentz_solve fuel (pl_i p) [f_read k i; f_read k f] [f_rhs i] m)) (fun m =>
  and_then (maxwell_can fuel (pl_c p) [f_read k f] [f_rhs f] m) (fun m =>
  and_then (only (current_solve fuel (pl_ms p) [f_read k e; f_read k i] [f_rhs f] m)) (fun m =>
  and_then (integrate_can aligned fuel k e m) (fun m =>
  and_then (integrate_can aligned fuel k i m) (fun m =>
  integrate_can aligned fuel k f m)))))))))).
Definition plasma_can (aligned : bool) (fuel : nat) (p : plasma) (bl : Z -> list bc_call) (e i f : family) (m : mgr F) : can :=
  and_then (each_can (plasma_stage_can aligned fuel p bl e i f) [0; 1; 2] m) (fun m => only (swap_solve [f_0 e; f_3 e; f_0 i; f_3 i; f_0 f; f_3 f] m)).

(** ssprk2_advection::stage_0, stage_1 and solve (ssprk2_advection.cpp:161-271)
    and advect_gaussian (advect_gaussian.cpp:166-170). *)
Definition adv_stage_0_can (dt : F) (velocity : list F) (n0 n1 : nat) (ix : indexer) (m : mgr F) : can :=
  if (n0 =? n1)%nat then only (Undef RestrictAlias)
  else
    lift_can m (get_chunk m n0 ix) (fun e0 =>
    and_then (only (on_chunk n1 ix (full_copy (ec_if e0)) m)) (fun m =>
    lift_can m (adv_inout dt velocity (mg_grid m) e0) (fun ls => kernel_can [n0] n1 ix ls m))).
Definition adv_stage_1_can (dt : F) (velocity : list F) (n0 n1 n2 : nat) (ix : indexer) (m : mgr F) : can :=
  if (n1 =? n2)%nat then only (Undef RestrictAlias)
  else
    lift_can m (get_chunk m n0 ix) (fun e0 =>
    lift_can m (get_chunk m n1 ix) (fun e1 =>
    lift_can m (range_volume (if_range (ec_if e0))) (fun vol =>
    and_then (only (on_chunk n2 ix (fun i =>
             liftr i (iface_data (ec_if e0)) (fun n => liftr i (iface_data (ec_if e1)) (fun ns => liftr i (iface_data i) (fun np =>
             liftr i (adv_mean vol n ns np) (fun l => Done (mkIface (if_range i) l)))))) m)) (fun m =>
    lift_can m (adv_inout (fmul (fdec 5 (-1)) dt) velocity (mg_grid m) e1) (fun ls => kernel_can [n1] n2 ix ls m))))).
Definition adv_can (fuel : nat) (velocity : list F) (ins outs : list vid) (tag : Z) (m : mgr F) : can :=
  match ins with
  | [id_0] =>
      match outs with
      | [id_1; id_2] =>
          lift_can m (mgr_get_time m) (fun _ =>
          lift_can m (mgr_get_dt m) (fun dt =>
          lift_can m (input_variable m id_0) (fun n0 =>
          output_can m id_1 (fun n1 m =>
          output_can m id_2 (fun n2 m =>
          if (tag =? 0)%Z then chunks_can fuel n0 (fun ix m => adv_stage_0_can dt velocity n0 n1 ix m) m
          else if (tag =? 1)%Z then chunks_can fuel n0 (fun ix m => adv_stage_1_can dt velocity n0 n1 n2 ix m) m
          else only (Done m))))))
      | _ => only (Threw "qk::solver::ssprk2_advection::solve : Output must contain two variables." m)
      end
  | _ => only (Threw "qk::solver::ssprk2_advection::solve : Input must contain one variable." m)
  end.
Definition advect_can (fuel : nat) (velocity : list F) (dims : list Z) (var partial new : vid) (m : mgr F) : can :=
  and_then (only (bc_solve Periodic fuel dims [var] m)) (fun m =>
  and_then (adv_can fuel velocity [var] [partial; new] 0 m) (fun m =>
  and_then (only (bc_solve Periodic fuel dims [partial] m)) (fun m =>
  and_then (adv_can fuel velocity [var] [partial; new] 1 m) (fun m =>
  only (swap_solve [var; new] m))))).

(** The time loop and the whole program (gaussian_pulse.cpp:168-189). *)
Fixpoint loop_can (step : mgr F -> can) (dt : F) (n : nat) (t : F) (m : mgr F) : can :=
  match n with
  | O => only (Done m)
  | S n' => and_then (step m) (fun m => loop_can step dt n' (fadd t dt) (mgr_set_time m (fadd t dt)))
  end.
Definition run_can (step : mgr F -> can) (dt : F) (n : nat) (m : mgr F) : can :=
  loop_can step dt n (fofz 0) (mgr_set_dt (mgr_set_time m (fofz 0)) dt).
Definition program_can (init : mgr F -> out (mgr F)) (step : mgr F -> can) (dt : F) (n : nat) (gr : grid F) : can :=
  and_then (only (init (mgr_new gr))) (run_can step dt n).

End Parallel.
