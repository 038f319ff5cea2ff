(** * Integrators: model of src/solver/rk1.cpp and src/solver/ssprk3.cpp. *)
From Coq Require Import ZArith List String Bool.
From Verif Require Import Base Arith Range Indexer Interface Chunk VarId Manager Par Kernel.
Import ListNotations.
Open Scope Z_scope.

Section Integrators.
Context {F : Type} {A : Arith F}.
Local Open Scope F_scope.

(** One iteration of stage_0 on the arrays n0, r, n1 (rk1.cpp:53,
    ssprk3.cpp:66). *)
Definition stage0_iter (dt : F) (i : Z) : thr F :=
  Rd 0 i (fun n0 => Rd 1 i (fun r => Wr 2 i (n0 + dt * r) Ret)).

(** One iteration of ssprk3::stage_1 on the arrays n0, n1, r, n2
    (ssprk3.cpp:80, 84). *)
Definition stage1_iter (dt : F) (i : Z) : thr F :=
  let c := fdec 25 (-2) * dt in
  Rd 0 i (fun n0 => Rd 1 i (fun n1 => Rd 2 i (fun r =>
  Wr 3 i (fdec 75 (-2) * n0 + fdec 25 (-2) * n1 + c * r) Ret))).

(** One iteration of ssprk3::stage_2 on the arrays n0, n2, r, n3
    (ssprk3.cpp:103).  The array n1 is not accessed. *)
Definition stage2_iter (dt : F) (i : Z) : thr F :=
  Rd 0 i (fun n0 => Rd 1 i (fun n2 => Rd 2 i (fun r =>
  Wr 3 i ((n0 + fofz 2 * (n2 + dt * r)) / fofz 3) Ret))).

(** The loop over the elements; its length is rhs.volume() (rk1.cpp:51-54,
    ssprk3.cpp:63-67, 81-85, 100-104). *)
Definition stage_loops (iter : Z -> thr F) (rhs : echunk F) : res (list (list (thr F))) :=
  n <- range_volume (if_range (ec_if rhs)) ;;
  is <- int_loop 0 n 1 ;;
  Ok [map iter is].

(** rk1::solve (rk1.cpp:15-41); the only stage is STAGE_0 = 0 (rk1.h:17-20). *)
Definition rk1_solve (fuel : nat) (ins outs : list vid) (tag : Z) (m : mgr F) : out (mgr F) :=
  match ins with
  | [id_0; id_rhs] =>
      match outs with
      | id_1 :: _ =>
          liftr m (mgr_get_dt m) (fun dt =>
          liftr m (input_variable m id_0) (fun q0 =>
          liftr m (input_variable m id_rhs) (fun rhs =>
          with_output m id_1 (fun q1 m =>
          for_chunks fuel q0 (fun ix m =>
            if (tag =? 0)%Z then
              liftr m (e <- get_chunk m rhs ix ;; stage_loops (stage0_iter dt) e) (fun ls =>
              run_kernel [q0; rhs] q1 ix ls m)
            else Done m) m))))
      | [] => Threw "qk::solver::ssprk3::solve : Output must contain three variables (q_1)." m
      end
  | _ => Threw "qk::solver::ssprk3::solve : Input must contain two variables (q_0, rhs)." m
  end.

(** ssprk3::solve (ssprk3.cpp:15-53) with the stages (ssprk3.cpp:55-105,
    numbered 0, 1, 2 in ssprk3.h:17-20).  The
    stages tell the compiler that all arrays are 64 byte aligned
    (parallelization.h:5-7); [aligned] says whether the allocator of
    std::vector<double> returns such storage.  The code does not ask for it. *)
Definition ssprk3_solve (aligned : bool) (fuel : nat) (ins outs : list vid) (tag : Z) (m : mgr F) : out (mgr F) :=
  match ins with
  | [id_0; id_rhs] =>
      match outs with
      | id_1 :: id_2 :: id_3 :: _ =>
          liftr m (mgr_get_dt m) (fun dt =>
          liftr m (input_variable m id_0) (fun q0 =>
          liftr m (input_variable m id_rhs) (fun rhs =>
          with_output m id_1 (fun q1 m =>
          with_output m id_2 (fun q2 m =>
          with_output m id_3 (fun q3 m =>
          for_chunks fuel q0 (fun ix m =>
            let stage iter rd o :=
              if aligned then
                liftr m (e <- get_chunk m rhs ix ;; stage_loops iter e) (fun ls =>
                run_kernel rd o ix ls m)
              else Undef Misaligned in
            if (tag =? 0)%Z then stage (stage0_iter dt) [q0; rhs] q1
            else if (tag =? 1)%Z then stage (stage1_iter dt) [q0; q1; rhs] q2
            else if (tag =? 2)%Z then stage (stage2_iter dt) [q0; q2; rhs] q3
            else Done m) m))))))
      | _ => Threw "qk::solver::ssprk3::solve : Output must contain three variables (q_1, q_2, q_3)." m
      end
  | _ => Threw "qk::solver::ssprk3::solve : Input must contain two variables (q_0, rhs)." m
  end.

(** One time step the way the examples run it
    (src/example/maxwell/gaussian_pulse.cpp:179-184): for k = 0, 1, 2 the
    statements [P k] that compute the right-hand side, then stage k. *)
Definition ssprk3_step (aligned : bool) (fuel : nat) (P : Z -> mgr F -> out (mgr F)) (ins outs : list vid) (m : mgr F) : out (mgr F) :=
  obind (P 0%Z m) (fun m =>
  obind (ssprk3_solve aligned fuel ins outs 0 m) (fun m =>
  obind (P 1%Z m) (fun m =>
  obind (ssprk3_solve aligned fuel ins outs 1 m) (fun m =>
  obind (P 2%Z m) (fun m =>
  ssprk3_solve aligned fuel ins outs 2 m))))).

End Integrators.
