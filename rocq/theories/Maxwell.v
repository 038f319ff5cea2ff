(** * Maxwell: model of src/solver/maxwell.cpp. *)
From Coq Require Import ZArith List String Bool.
From Verif Require Import Base Arith Range Indexer Interface Chunk VarId Manager Par Kernel Sweep.
Import ListNotations.
Open Scope Z_scope.

Section Maxwell.
Context {F : Type} {A : Arith F}.

(** The six flux components of the sweeps along dimensions 0, 1 and 2
    (maxwell.cpp:28-34 and 84-90 for the multipliers; 132-137, 160-165, 40-45 for
    dimension 0; 210-215, 238-243, 53-58 for dimension 1; 289-294, 317-322, 65-70
    for dimension 2).  No sweep is made along other dimensions. *)
Definition maxwell_flux (c : F) (dim : Z) (ql qr : list F) : res (list F) :=
  let absc := fabs c in
  let c2 := (c * c)%F in
  let ef := (fdec 5 (-1) * c2)%F in
  let bf := fdec 5 (-1) in
  let ed := (fdec (-5) (-1) * absc)%F in
  let bd := (fdec (-5) (-1) * absc)%F in
  match ql, qr with
  | [l0; l1; l2; l3; l4; l5], [r0; r1; r2; r3; r4; r5] =>
      if dim =? 0 then
        Ok [fofz 0;
            (ef * (r5 + l5) + ed * (r1 - l1))%F;
            (- ef * (r4 + l4) + ed * (r2 - l2))%F;
            fofz 0;
            (- bf * (r2 + l2) + bd * (r4 - l4))%F;
            (bf * (r1 + l1) + bd * (r5 - l5))%F]
      else if dim =? 1 then
        Ok [(- ef * (r5 + l5) + ed * (r0 - l0))%F;
            fofz 0;
            (ef * (r3 + l3) + ed * (r2 - l2))%F;
            (bf * (r2 + l2) + bd * (r3 - l3))%F;
            fofz 0;
            (- bf * (r0 + l0) + bd * (r5 - l5))%F]
      else
        Ok [(ef * (r4 + l4) + ed * (r0 - l0))%F;
            (- ef * (r3 + l3) + ed * (r1 - l1))%F;
            fofz 0;
            (- bf * (r1 + l1) + bd * (r3 - l3))%F;
            (bf * (r0 + l0) + bd * (r4 - l4))%F;
            fofz 0]
  | _, _ => UB OutOfBounds
  end.

(** The loops of solve_rusanov_mp (maxwell.cpp:78-332) and of
    solve_rusanov_fast (maxwell.cpp:22-74): at most three dimensions. *)
Definition maxwell_mp_loops (c : F) (gr : grid F) (q : echunk F) : res (list (list (thr F))) :=
  loops_of (gather_sweep 6 (maxwell_flux c) gr q) (dims_upto (Z.min 3 (r_nd (gr_range gr)))).
Definition maxwell_fast_loops (c : F) (gr : grid F) (q : echunk F) : res (list (list (thr F))) :=
  loops_of (scatter_sweep 6 (maxwell_flux c) gr q) (dims_upto (Z.min 3 (r_nd (gr_range gr)))).

(** maxwell::solve (maxwell.cpp:335-354); c is set by setup (maxwell.h:24-27). *)
Definition maxwell_solve (fuel : nat) (c : F) : list vid -> list vid -> mgr F -> out (mgr F) :=
  rhs_solve "qk::solver::maxwell::solve : Input must contain one variable (q)."
    "qk::solver::maxwell::solve : Output must contain one variable (rhs)." fuel
    (fun m q => maxwell_mp_loops c (mg_grid m) q).

End Maxwell.
