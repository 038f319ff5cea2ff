(** * Whole: the example programs from the empty manager to the end. *)
From Coq Require Import ZArith List.
From Verif Require Import Base Arith Manager Programs.

Section Whole.
Context {F : Type} {A : Arith F}.

(** sod_shock_tube.cpp, wave_1D.cpp, gem_challenge.cpp (main.cpp),
    two_fluid_brio_wu.cpp from the line variable_manager(grid) on
    (src/example/maxwell/wave_1D.cpp:165-232): a manager without variables, the
    initial condition, then set_time, set_dt and the loops.  The frames are not
    written here: write_vtk reads the manager only (Vtk.v). *)
Definition program (ic : mgr F -> out (mgr F)) (step : mgr F -> out (mgr F)) (dt : F) (n : nat) (g : grid F) : out (mgr F) :=
  obind (ic (mgr_new g)) (run step dt n).

End Whole.
