(** * Main: the example programs as they stand in src/example, with their constants
    and the files they write, and the function main.

    Not modelled: what the programs write to the console, and the clock.  A file
    can be created or not depending on its name only ([opens]); later failures of a
    stream go unnoticed by the code (Vtk.v). *)
From Coq Require Import ZArith List String Bool.
From Verif Require Import Base Arith Range Indexer Interface Chunk VarId Manager BC Vtk Euler Maxwell Sources Programs Initial Exception.
Import ListNotations.
Open Scope Z_scope.

Section Main.
Context {F : Type} {A : Arith F}.

(** The files written so far, in order (gem_challenge.cpp:461, 506). *)
Definition files : Type := list (string * stream F).
(** The local variables time and variable_manager of an example
    (gem_challenge.cpp:453, 464) and the files. *)
Record sim : Type := mkSim { sm_time : F; sm_mgr : mgr F; sm_files : files }.

(** A call of solve with the manager (gem_challenge.cpp:457, 476-491). *)
Definition on_mgr (f : mgr F -> out (mgr F)) (s : sim) : out sim :=
  omap (fun m => mkSim (sm_time s) m (sm_files s)) (f (sm_mgr s)).
(** variable_manager.write_vtk(prefix, suffix, write_vars) (gem_challenge.cpp:461,
    506, variable_manager.cpp:78-81; rangeInfo is empty).  A file that was opened
    before an exception stays. *)
Definition export (fuel : nat) (opens : string -> bool) (prefix suffix : string) (ks : list vid) (s : sim) : out sim :=
  let name := (prefix ++ suffix)%string in
  omap (fun o => mkSim (sm_time s) (sm_mgr s) (match o with Some c => (sm_files s ++ [(name, c)])%list | None => sm_files s end))
    (manager_write_vtk fuel (opens name) name (sm_mgr s) ks).
(** The body of the loop over j (gem_challenge.cpp:474-494; the same in the other
    examples); [step] is all of it but the last two lines. *)
Definition one_step (step : mgr F -> out (mgr F)) (dt : F) (s : sim) : out sim :=
  obind (on_mgr step s) (fun s =>
  let t := fadd (sm_time s) dt in
  Done (mkSim t (mgr_set_time (sm_mgr s) t) (sm_files s))).
(** The loop over j (gem_challenge.cpp:473-494). *)
Fixpoint step_loop (step : mgr F -> out (mgr F)) (dt : F) (n : nat) (s : sim) : out sim :=
  match n with
  | O => Done s
  | S n' => obind (one_step step dt s) (step_loop step dt n')
  end.
(** The loop over i (gem_challenge.cpp:469-510); [n] iterations are left. *)
Fixpoint frame_loop (fuel : nat) (opens : string -> bool) (dir : string) (ks : list vid) (step : mgr F -> out (mgr F)) (dt : F)
  (steps n : nat) (i : Z) (s : sim) : out sim :=
  match n with
  | O => Done s
  | S n' =>
      obind (step_loop step dt steps s) (fun s =>
      obind (export fuel opens (dir ++ "/frame")%string ("_" ++ show_int (i + 1) ++ ".vtk")%string ks s)
        (frame_loop fuel opens dir ks step dt steps n' (i + 1)))
  end.
(** An example from variable_manager(grid) to the end (gem_challenge.cpp:453-513,
    sod_shock_tube.cpp:172-226, wave_1D.cpp:161-212, gaussian_pulse.cpp:154-205,
    two_fluid_brio_wu.cpp:374-431, harris_current_sheet.cpp:458-527,
    advect_gaussian.cpp:140-190): the files at the end. *)
Definition simulate (fuel : nat) (opens : string -> bool) (dir : string) (ks : list vid) (ic step : mgr F -> out (mgr F)) (dt : F)
  (frames steps : Z) (g : grid F) : out files :=
  omap sm_files (
  obind (on_mgr ic (mkSim (fofz 0) (mgr_new g) [])) (fun s =>
  obind (export fuel opens (dir ++ "/frame")%string "_0.vtk" ks s) (fun s =>
  frame_loop fuel opens dir ks step dt (Z.to_nat steps) (Z.to_nat frames) 0
    (mkSim (fofz 0) (mgr_set_dt (mgr_set_time (sm_mgr s) (fofz 0)) dt) (sm_files s))))).

(** rectilinear(range(num_dims, dims), startxs, widths), assigned to grid
    (gem_challenge.cpp:123-132).  The assignment copies the members; the manager
    refers to the local object, which nothing changes. *)
Definition with_grid (nd : Z) (dims : list Z) (starts widths : list F) (k : grid F -> out files) : out files :=
  liftr [] (r <- range_of_dims nd dims ;; grid_new r starts widths) k.
(** double(num_frames * num_steps_per_frame) (gem_challenge.cpp:104); the product
    of the constants is an int in all examples. *)
Definition steps_total (frames steps : Z) : F := fofz (frames * steps).

(** The component names (gem_challenge.cpp:107-120, sod_shock_tube.cpp:49-54,
    wave_1D.cpp:46-52). *)
Definition fluid_names : list string := ["rho"; "px"; "py"; "pz"; "e"]%string.
Definition field_names : list string := ["Ex"; "Ey"; "Ez"; "Bx"; "By"; "Bz"]%string.
(** The five ids of an unknown (gem_challenge.cpp:150-175, sod_shock_tube.cpp:76-80,
    wave_1D.cpp:85-89); [r] is the name of the right-hand side. *)
Definition unknown (name r : string) (comps : list string) : family :=
  mkFam (mkVid name comps volume_average) (mkVid (name ++ "_1")%string comps volume_average) (mkVid (name ++ "_2")%string comps volume_average)
    (mkVid (name ++ "_3")%string comps volume_average) (mkVid r comps volume_average).
(** The unknowns of the plasma examples (gem_challenge.cpp:150-175,
    two_fluid_brio_wu.cpp:96-121, harris_current_sheet.cpp:152-177). *)
Definition pl_electrons : family := unknown "electrons" "electrons_rhs" fluid_names.
Definition pl_ions : family := unknown "ions" "ions_rhs" fluid_names.
Definition pl_field : family := unknown "field" "field_rhs" field_names.
(** The unknowns of sod_shock_tube (sod_shock_tube.cpp:76-80) and of wave_1D and
    gaussian_pulse (wave_1D.cpp:85-89, gaussian_pulse.cpp:78-82). *)
Definition sod_fluid : family := unknown "fluid" "rhs" fluid_names.
Definition wave_field : family := unknown "field" "rhs" field_names.

(** sod_shock_tube (sod_shock_tube.cpp:37-228).  The initial condition has the
    values of its constructor (shock_tube.cpp:15-21).  startxs and widths have
    three entries, of which two are used. *)
Definition sod_shock_tube (aligned : bool) (fuel : nat) (opens : string -> bool) (dir : string) : out files :=
  let gamma := fdec 14 (-1) in
  let half := (- fdec 5 (-1))%F in
  with_grid 2 [500; 2; 2] [half; half; half] [f1; f1; f1] (fun g =>
  simulate fuel opens dir [f_0 sod_fluid]
    (shock_tube_solve fuel (fdec 125 (-3)) (fdec 1 (-1)) (fdec 14 (-1)) [f_0 sod_fluid])
    (sod_step aligned fuel gamma [0] [1] sod_fluid)
    (fdec 5 (-1) / steps_total 100 5)%F 100 5 g).

(** wave_1D (wave_1D.cpp:34-213). *)
Definition wave_1D (aligned : bool) (fuel : nat) (opens : string -> bool) (dir : string) : out files :=
  let c := f1 in
  let k := (fofz 2 * fdec 314159263 (-8))%F in
  let half := (- fdec 5 (-1))%F in
  with_grid 3 [2; 2; 128] [half; half; half] [f1; f1; f1] (fun g =>
  simulate fuel opens dir [f_0 wave_field]
    (wave_solve fuel 2 c k f1 f1 f1 [f_0 wave_field])
    (pulse_step aligned fuel c [0; 1; 2] wave_field)
    (f1 / steps_total 100 10)%F 100 10 g).

(** gaussian_pulse (gaussian_pulse.cpp:34-206). *)
Definition gaussian_pulse (aligned : bool) (fuel : nat) (opens : string -> bool) : out files :=
  let half := (- fdec 5 (-1))%F in
  with_grid 1 [128] [half] [f1] (fun g =>
  simulate fuel opens "/Users/seamill/local_storage/quikin/data" [f_0 wave_field]
    (magnetic_pulse_solve fuel f1 (fdec 1 (-2)) [f_0 wave_field])
    (pulse_step aligned fuel (fofz 5) [0] wave_field)
    (f1 / steps_total 100 10)%F 100 10 g).

(** The id of an unknown of advect_gaussian (advect_gaussian.cpp:69-88). *)
Definition rho_id (name : string) : vid := mkVid name ["rho"%string] volume_average.
(** advect_gaussian (advect_gaussian.cpp:28-191).  setup is not called for the
    boundary conditions: _dims is empty. *)
Definition advect_gaussian (fuel : nat) (opens : string -> bool) : out files :=
  let half := (- fdec 5 (-1))%F in
  with_grid 2 [128; 128] [half; half] [f1; f1] (fun g =>
  simulate fuel opens "/Users/seamill/local_storage/quikin/data" [rho_id "variable"]
    (gaussian_solve fuel f1 [f0; f0; f0] (fdec 1 (-1)) [rho_id "variable"])
    (advect_step fuel [(- f1)%F; (- f1)%F] [] (rho_id "variable") (rho_id "partial_variable") (rho_id "new_variable"))
    (f1 / steps_total 100 10)%F 100 10 g).

(** The solver objects of a plasma example: lorentz_force::setup and
    current_source::setup (gem_challenge.cpp:228-301, 327-352). *)
Definition with_plasma (gamma c eps0 qe me qi mi : F) (k : plasma -> out files) : out files :=
  match current_setup eps0 [qe; qi] [me; mi] [] with
  | Done ms => k (mkPlasma gamma c (lorentz_setup qe me) (lorentz_setup qi mi) ms)
  | Threw msg _ => Threw msg []
  | Undef u => Undef u
  | Spin => Spin
  end.

(** two_fluid_brio_wu (two_fluid_brio_wu.cpp:35-432). *)
Definition two_fluid_brio_wu (aligned : bool) (fuel : nat) (opens : string -> bool) : out files :=
  let gamma := fofz 2 in let qe := (- f1)%F in let qi := f1 in let me := fdec 1 (-1) in let mi := f1 in
  with_plasma gamma (fofz 10) (fdec 1 (-6)) qe me qi mi (fun p =>
  with_grid 1 [100] [(- fdec 5 (-1))%F] [f1] (fun g =>
  simulate fuel opens "/Users/seamill/local_storage/quikin/data" [f_0 pl_electrons; f_0 pl_ions; f_0 pl_field]
    (brio_wu_solve fuel (mkBw gamma me mi f1 (fdec 125 (-3)) f1 (fdec 1 (-1)) (fdec 75 (-2)) f1) [f_0 pl_electrons; f_0 pl_ions; f_0 pl_field])
    (plasma_step aligned fuel p (brio_wu_bcs pl_electrons pl_ions pl_field) pl_electrons pl_ions pl_field)
    (fdec 1 (-1) / steps_total 100 10)%F 100 10 g)).

(** The constants of gem_challenge (gem_challenge.cpp:45-83) and of
    harris_current_sheet (harris_current_sheet.cpp:45-81), which differ in Lx: the
    factor in front of pi is [k]. *)
Definition si_e : F := fdec 160217662 (-27).
Definition si_me : F := fdec 910938356 (-39).
Definition si_eps0 : F := fdec 885418782 (-20).
Definition si_mu0 : F := fdec 125663706 (-14).
Definition si_c : F := fofz 299792458.
Definition sheet_gamma : F := (fofz 5 / fofz 3)%F.
Definition sheet_mi : F := (fofz 25 * si_me)%F.
Definition sheet_Lx (k : F) : F := (k * fdec 314159263 (-8) * f1)%F.
Definition sheet_n0 : F := (si_c * si_c * sheet_mi * si_eps0 / (si_e * si_e * f1 * f1))%F.
Definition sheet_Te : F := (let vse := fdec 1 (-1) * si_c in vse * vse * si_me / sheet_gamma)%F.
Definition sheet_Ti : F := (sheet_Te / fdec 2 (-1))%F.
Definition sheet_P0 : F := (sheet_n0 * (sheet_Te + sheet_Ti))%F.
Definition sheet_B0 : F := fsqrt (fofz 2 * si_mu0 * sheet_P0)%F.
(** wci (gem_challenge.cpp:89, harris_current_sheet.cpp:87). *)
Definition sheet_wci : F := (si_e * sheet_B0 / sheet_mi)%F.
(** ic.setup (gem_challenge.cpp:358, harris_current_sheet.cpp:360); ue0 and ui0 are
    stored but not used. *)
Definition sheet_ic (k : F) : gem F :=
  mkGem (fdec 5 (-1) * f1)%F (sheet_Lx k) sheet_n0 (fdec 2 (-1) * sheet_n0)%F sheet_gamma (- si_e)%F si_e si_me sheet_mi sheet_Te sheet_Ti sheet_B0.

(** harris_current_sheet (harris_current_sheet.cpp:39-528). *)
Definition harris_current_sheet (aligned : bool) (fuel : nat) (opens : string -> bool) : out files :=
  let Lx := sheet_Lx (fofz 4) in
  with_plasma sheet_gamma si_c si_eps0 (- si_e)%F si_me si_e sheet_mi (fun p =>
  with_grid 1 [400] [(- Lx / fofz 2)%F] [Lx] (fun g =>
  simulate fuel opens "/Users/seamill/local_storage/quikin/data" [f_0 pl_electrons; f_0 pl_ions; f_0 pl_field]
    (gem_solve fuel (sheet_ic (fofz 4)) [f_0 pl_electrons; f_0 pl_ions; f_0 pl_field])
    (plasma_step aligned fuel p (brio_wu_bcs pl_electrons pl_ions pl_field) pl_electrons pl_ions pl_field)
    (f1 / sheet_wci / steps_total 100 100)%F 100 100 g)).

(** gem_challenge (gem_challenge.cpp:39-513). *)
Definition gem_challenge (aligned : bool) (fuel : nat) (opens : string -> bool) (dir : string) : out files :=
  let Lx := sheet_Lx f1 in
  with_plasma sheet_gamma si_c si_eps0 (- si_e)%F si_me si_e sheet_mi (fun p =>
  with_grid 2 [256; 512] [(- Lx / fofz 2)%F; (- Lx)%F] [Lx; (fofz 2 * Lx)%F] (fun g =>
  simulate fuel opens dir [f_0 pl_electrons; f_0 pl_ions; f_0 pl_field]
    (gem_solve fuel (sheet_ic f1) [f_0 pl_electrons; f_0 pl_ions; f_0 pl_field])
    (plasma_step aligned fuel p (gem_bcs pl_electrons pl_ions pl_field) pl_electrons pl_ions pl_field)
    (fofz 40 / sheet_wci / steps_total 1000 125)%F 1000 125 g)).

(** main (main.cpp:14-28).  The handler catches qk::exception only; an exception
    of the standard library (the messages starting with "vector::") would end the
    program, but the example throws none.  Done: the program ends with success; Threw: it has
    written the text and ends with EXIT_FAILURE. *)
Definition main (aligned : bool) (fuel : nat) (opens : string -> bool) : out files :=
  match gem_challenge aligned fuel opens "/home/seamill/local_storage/quikin/plasma/gem_challenge/data" with
  | Threw msg fs => liftr fs (main_handler (exc_new msg)) (fun text => Threw text fs)
  | o => o
  end.

End Main.
Arguments files F : clear implicits.
Arguments sim F : clear implicits.
