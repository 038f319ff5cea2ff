(** * Initial: model of the initial condition solvers src/solver/gaussian.cpp,
    magnetic_pulse.cpp, shock_tube.cpp, radial_shock_tube.cpp,
    brio_wu_shock_tube.cpp, electromagnetic_wave_1D.cpp and gem_challenge.cpp,
    and of rectilinear::xc (src/grid/rectilinear.cpp). *)
From Coq Require Import ZArith List String Bool.
From Verif Require Import Base Arith Range Indexer Interface Chunk VarId Manager Sources.
Import ListNotations.
Open Scope Z_scope.

Section Initial.
Context {F : Type} {A : Arith F}.

(** A local array of doubles such as [double x[3]] (gaussian.cpp:41): [None] is an
    element without a value.  In the code the array lives as long as the call of
    solve; each pass of a loop first overwrites the same elements, so the model
    starts every pass from the initial array. *)
Definition coords : Type := list (option F).
Definition no_coords : coords := [None; None; None].
(** double x[3] = {0} (gem_challenge.cpp:32). *)
Definition zero_coords : coords := [Some f0; Some f0; Some f0].
(** Reading x[i] (for example gaussian.cpp:52-54). *)
Definition xget (x : coords) (i : Z) : res F :=
  o <- vget x i ;; match o with Some v => Ok v | None => UB Uninitialised end.

(** rectilinear::xc (rectilinear.cpp:71-77); dimensions i, ..., i+n-1. *)
Fixpoint xc_loop (n : nat) (i : Z) (g : grid F) (ix : indexer) (x : coords) : res coords :=
  match n with
  | O => Ok x
  | S n' =>
      s <- vget (gr_starts g) i ;;
      k <- vget (ix_idx ix) i ;;
      d <- vget (gr_dxs g) i ;;
      x' <- vset x i (Some (s + (fofz k + fdec 5 (-1)) * d)%F) ;;
      xc_loop n' (i + 1) g ix x'
  end.
Definition grid_xc (g : grid F) (ix : indexer) (x : coords) : res coords :=
  xc_loop (Z.to_nat (r_nd (gr_range g))) 0 g ix x.

(** q[k] = v with q = chunk.data(idx) (indexer_interface.h:140-158,
    shock_tube.cpp:50, 56-57); [n] and [cix] give the variable and the chunk.
    chunk[idx] is the case k = 0. *)
Definition store (m : mgr F) (n : nat) (cix ix : indexer) (k : Z) (v : F) : res (mgr F) :=
  e <- get_chunk m n cix ;;
  l <- vset (if_data (ec_if e)) (ix_lin ix + k) v ;;
  put_chunk m n cix (ec_with e (mkIface (if_range (ec_if e)) l)).
(** A sequence of such assignments (for example shock_tube.cpp:56-57). *)
Fixpoint stores (m : mgr F) (n : nat) (cix ix : indexer) (l : list (Z * F)) : res (mgr F) :=
  match l with
  | [] => Ok m
  | (k, v) :: l' => m' <- store m n cix ix k v ;; stores m' n cix ix l'
  end.

(** chunk.fill(v) (shock_tube.cpp:44). *)
Definition clear_chunk (m : mgr F) (n : nat) (cix : indexer) (v : F) : res (mgr F) :=
  e <- get_chunk m n cix ;; put_chunk m n cix (ec_with e (iface_fill_all v (ec_if e))).

(** A copy of the internal range ([inner]) or of the whole range of a chunk of
    variable [n], with the last dimension set to [a, b)
    (shock_tube.cpp:46-47, radial_shock_tube.cpp:48-49).  The number of the last
    dimension is taken from a chunk of variable [nd] (brio_wu_shock_tube.cpp:76-77:
    the range is that of the field, the dimension that of the electrons). *)
Definition chunk_rng (inner : bool) (e : echunk F) : range :=
  if inner then ec_internal e else if_range (ec_if e).
Definition comp_range (m : mgr F) (nd n : nat) (cix : indexer) (inner : bool) (a b : Z) : res range :=
  e <- get_chunk m n cix ;;
  r <- range_copy (chunk_rng inner e) ;;
  ed <- get_chunk m nd cix ;;
  d <- isub (r_nd (if_range (ec_if ed))) 1 ;;
  range_set r d a b.
(** chunk.indexer(rng) (shock_tube.cpp:49). *)
Definition comp_indexer (m : mgr F) (nd n : nat) (cix : indexer) (inner : bool) (a b : Z) : res indexer :=
  r <- comp_range m nd n cix inner a b ;;
  e <- get_chunk m n cix ;;
  iface_indexer (ec_if e) r.
(** for(indexer idx = chunk.indexer(rng); idx.exists(); idx.next())
    (shock_tube.cpp:49). *)
Definition comp_loop (fuel : nat) (nd n : nat) (cix : indexer) (inner : bool) (a b : Z)
    (body : indexer -> mgr F -> out (mgr F)) (m : mgr F) : out (mgr F) :=
  liftr m (comp_indexer m nd n cix inner a b) (fun ix => for_indexer fuel ix body m).

(** The loops over output variables and chunks (gaussian.cpp:44-59). *)
Definition each_chunk (fuel : nat) (body : nat -> indexer -> mgr F -> out (mgr F)) (outs : list vid) (m : mgr F) : out (mgr F) :=
  ofold (fun id m => with_output m id (fun n m => for_chunks fuel n (body n) m)) outs m.

(** gaussian::setup (gaussian.cpp:25-33): _average is resized to three elements. *)
Definition resize3 (l : list F) : list F := firstn 3 l ++ repeat f0 (3 - List.length l).
(** gaussian::solve (gaussian.cpp:35-63); the vector _average as set by setup. *)
Definition gaussian_solve (fuel : nat) (amplitude : F) (average : list F) (sd : F) (outs : list vid) (m : mgr F) : out (mgr F) :=
  each_chunk fuel (fun n cix m =>
    liftr m (e <- get_chunk m n cix ;; iface_indexer (ec_if e) (if_range (ec_if e))) (fun ix =>
    for_indexer fuel ix (fun ix m =>
      liftr m (
        x <- grid_xc (mg_grid m) ix no_coords ;;
        x0 <- xget x 0 ;; a0 <- vget (resize3 average) 0 ;; let w0 := ((x0 - a0) / sd)%F in
        x1 <- xget x 1 ;; a1 <- vget (resize3 average) 1 ;; let w1 := ((x1 - a1) / sd)%F in
        x2 <- xget x 2 ;; a2 <- vget (resize3 average) 2 ;; let w2 := ((x2 - a2) / sd)%F in
        store m n cix ix 0 (amplitude * fexp (- w0 * w0 - w1 * w1 - w2 * w2))%F) Done) m)) outs m.

(** magnetic_pulse::solve (magnetic_pulse.cpp:15-48). *)
Definition magnetic_pulse_solve (fuel : nat) (amplitude sd : F) (outs : list vid) (m : mgr F) : out (mgr F) :=
  each_chunk fuel (fun n cix m =>
    liftr m (clear_chunk m n cix f0) (fun m =>
    comp_loop fuel n n cix false 5 6 (fun ix m =>
      liftr m (
        x <- grid_xc (mg_grid m) ix no_coords ;;
        x0 <- xget x 0 ;; x1 <- xget x 1 ;; x2 <- xget x 2 ;;
        let r2 := (fdec 5 (-1) * (x0 * x0 + x1 * x1 + x2 * x2) / sd)%F in
        store m n cix ix 0 (amplitude * fexp (- r2))%F) Done) m)) outs m.

(** shock_tube::solve (shock_tube.cpp:29-63). *)
Definition shock_tube_solve (fuel : nat) (rho_jump P_jump gamma : F) (outs : list vid) (m : mgr F) : out (mgr F) :=
  let rho0 := f1 in
  let e0 := (f1 / (gamma - f1))%F in
  each_chunk fuel (fun n cix m =>
    liftr m (clear_chunk m n cix f0) (fun m =>
    comp_loop fuel n n cix true 0 1 (fun ix m =>
      liftr m (
        x <- grid_xc (mg_grid m) ix no_coords ;;
        x0 <- xget x 0 ;;
        let rho := if (x0 <? f0)%F then rho0 else (rho0 * rho_jump)%F in
        let e := if (x0 <? f0)%F then e0 else (e0 * P_jump)%F in
        stores m n cix ix [(0, rho); (4, e)]) Done) m)) outs m.

(** radial_shock_tube::solve (radial_shock_tube.cpp:30-68); [center] is the vector
    given to setup, which resizes it (radial_shock_tube.h: setup).  The last term
    of r2 is coded with x[1] where x[2] must be meant. *)
Definition radial_shock_tube_solve (fuel : nat) (radius rho_jump P_jump gamma : F) (center : list F) (outs : list vid) (m : mgr F) : out (mgr F) :=
  let R2 := (radius * radius)%F in
  let rho0 := f1 in
  let e0 := (f1 / (gamma - f1))%F in
  each_chunk fuel (fun n cix m =>
    liftr m (clear_chunk m n cix f0) (fun m =>
    comp_loop fuel n n cix false 0 1 (fun ix m =>
      liftr m (
        x <- grid_xc (mg_grid m) ix no_coords ;;
        x0 <- xget x 0 ;; c0 <- vget (resize3 center) 0 ;;
        x1 <- xget x 1 ;; c1 <- vget (resize3 center) 1 ;;
        x2 <- xget x 2 ;; c2 <- vget (resize3 center) 2 ;;
        let r2 := ((x0 - c0) * (x0 - c0))%F in
        let r2 := (r2 + (x1 - c1) * (x1 - c1))%F in
        let r2 := (r2 + (x2 - c2) * (x1 - c2))%F in
        let rho := if (r2 <? R2)%F then rho0 else (rho0 * rho_jump)%F in
        let e := if (r2 <? R2)%F then e0 else (e0 * P_jump)%F in
        stores m n cix ix [(0, rho); (4, e)]) Done) m)) outs m.

(** electromagnetic_wave_1D::solve (electromagnetic_wave_1D.cpp:15-96): the six
    values written for the sine [s]. *)
Definition wave_values (dim : Z) (c Bx By Bz s : F) : list (Z * F) :=
  if dim =? 0 then
    let Ey := (c * Bz)%F in let Ez := (- c * By)%F in
    [(0, fofz 0); (1, Ey * s); (2, Ez * s); (3, Bx); (4, By * s); (5, Bz * s)]%F
  else if dim =? 1 then
    let Ex := (- c * Bz)%F in let Ez := (c * Bx)%F in
    [(0, Ex * s); (1, f0); (2, Ez * s); (3, Bx * s); (4, By); (5, Bz * s)]%F
  else
    let Ex := (c * By)%F in let Ey := (- c * Bx)%F in
    [(0, Ex * s); (1, Ey * s); (2, f0); (3, Bx * s); (4, By * s); (5, Bz)]%F.
Definition wave_solve (fuel : nat) (dim : Z) (c k Bx By Bz : F) (outs : list vid) (m : mgr F) : out (mgr F) :=
  each_chunk fuel (fun n cix m =>
    liftr m (clear_chunk m n cix f0) (fun m =>
    if (dim =? 0) || (dim =? 1) || (dim =? 2) then
      comp_loop fuel n n cix false 0 1 (fun ix m =>
        liftr m (
          x <- grid_xc (mg_grid m) ix no_coords ;;
          xd <- xget x dim ;;
          stores m n cix ix (wave_values dim c Bx By Bz (fsin (k * xd)%F))) Done) m
    else Done m)) outs m.

(** Members of brio_wu_shock_tube (brio_wu_shock_tube.h:46-54). *)
Record bw : Type := mkBw {
  bw_gamma : F; bw_me : F; bw_mi : F; bw_nl : F; bw_nr : F; bw_Pl : F; bw_Pr : F; bw_Bx : F; bw_By : F
}.
(** brio_wu_shock_tube::solve (brio_wu_shock_tube.cpp:29-92). *)
Definition brio_wu_solve (fuel : nat) (p : bw) (outs : list vid) (m : mgr F) : out (mgr F) :=
  match outs with
  | [ide; idi; idf] =>
      with_output m ide (fun ne m => with_output m idi (fun ni m => with_output m idf (fun nf m =>
      let P_mult := (f1 / (bw_gamma p - f1))%F in
      for_chunks fuel ne (fun cix m =>
        liftr m (m1 <- clear_chunk m ne cix f0 ;; m2 <- clear_chunk m1 ni cix f0 ;; clear_chunk m2 nf cix f0) (fun m =>
        obind (comp_loop fuel ne ne cix true 0 1 (fun ix m =>
          liftr m (
            x <- grid_xc (mg_grid m) ix no_coords ;; x0 <- xget x 0 ;;
            let rho_e := (bw_me p * (if (x0 <? f0)%F then bw_nl p else bw_nr p))%F in
            let rho_i := (rho_e * bw_mi p / bw_me p)%F in
            m' <- store m ne cix ix 0 rho_e ;; store m' ni cix ix 0 rho_i) Done) m) (fun m =>
        obind (comp_loop fuel ne ne cix true 4 5 (fun ix m =>
          liftr m (
            x <- grid_xc (mg_grid m) ix no_coords ;; x0 <- xget x 0 ;;
            let P := ((if (x0 <? f0)%F then bw_Pl p else bw_Pr p) * P_mult)%F in
            m' <- store m ne cix ix 0 P ;; store m' ni cix ix 0 P) Done) m) (fun m =>
        obind (comp_loop fuel ne nf cix true 4 5 (fun ix m =>
          liftr m (
            x <- grid_xc (mg_grid m) ix no_coords ;; x0 <- xget x 0 ;;
            let By := (bw_By p * (if (x0 <? f0)%F then f1 else fofz (-1)) * P_mult)%F in
            store m nf cix ix 0 By) Done) m) (fun m =>
        liftr m (comp_range m ne nf cix true 3 4) (fun r =>
        on_chunk nf cix (iface_fill fuel r (bw_Bx p)) m)))))) m)))
  | _ => Threw "qk::solver::brio_wu_shock_tube::solve : Must have three output variables (electrons, ions, field)." m
  end.

(** Members of gem_challenge (gem_challenge.h:55-68); _ue and _ui are
    never used. *)
Record gem : Type := mkGem {
  gm_lambda : F; gm_Lx : F; gm_n0 : F; gm_n1 : F; gm_gamma : F; gm_qe : F; gm_qi : F; gm_me : F; gm_mi : F;
  gm_Te : F; gm_Ti : F; gm_B0 : F
}.
(** What is written through e, i and f in one cell with position x[0], x[1]
    (gem_challenge.cpp:34-44, 79-102).  e[0] and e[3] are read back where the model
    uses the value just written: no other pointer may alias them. *)
Definition gem_values (p : gem) (x0 x1 : F) : list (Z * F) * list (Z * F) * list (Z * F) :=
  let two := fofz 2 in
  let pi := fdec 314159263 (-8) in
  let Ly := (two * gm_Lx p)%F in
  let kx := (pi / gm_Lx p)%F in
  let ky := (two * pi / Ly)%F in
  let ue := (two * gm_Te p / gm_qe p / gm_lambda p / gm_B0 p)%F in
  let ui := (two * gm_Ti p / gm_qi p / gm_lambda p / gm_B0 p)%F in
  let B1 := (fdec 1 (-1) * gm_B0 p)%F in
  let sx := fsin (kx * x0)%F in
  let cx := fcos (kx * x0)%F in
  let sy := fsin (ky * x1)%F in
  let cy := fcos (ky * x1)%F in
  let sech := (f1 / fcosh (x0 / gm_lambda p))%F in
  let sech2 := (sech * sech)%F in
  let th := ftanh (x0 / gm_lambda p)%F in
  let uvar := (sech2 / (sech2 + gm_n1 p / gm_n0 p))%F in
  let n := (gm_n0 p * (sech2 + gm_n1 p / gm_n0 p))%F in
  let Pe := (n * gm_Te p)%F in
  let Pi := (n * gm_Ti p)%F in
  let e0 := (gm_me p * n)%F in
  let i0 := (gm_mi p * n)%F in
  let e3 := (e0 * ue * uvar)%F in
  let i3 := (i0 * ui * uvar)%F in
  let e4 := (Pe / (gm_gamma p - f1) + fdec 5 (-1) * e3 * e3 / e0)%F in
  let i4 := (Pi / (gm_gamma p - f1) + fdec 5 (-1) * i3 * i3 / i0)%F in
  ([(0, e0); (3, e3); (4, e4)], [(0, i0); (3, i3); (4, i4)],
   [(3, B1 * ky * cx * sy); (4, gm_B0 p * th - B1 * kx * sx * cy)])%F.
(** while(a.exists() and b.exists() and c.exists()) (gem_challenge.cpp:73-110). *)
Fixpoint lockstep3 {S} (fuel : nat) (a b c : indexer) (body : indexer -> indexer -> indexer -> S -> out S) (s : S) : out S :=
  if ix_ex a && ix_ex b && ix_ex c then
    match fuel with
    | O => Spin
    | S f =>
        obind (body a b c s) (fun s' =>
        liftr s' (indexer_next a) (fun a' =>
        liftr s' (indexer_next b) (fun b' =>
        liftr s' (indexer_next c) (fun c' => lockstep3 f a' b' c' body s'))))
    end
  else Done s.
(** gem_challenge::solve (gem_challenge.cpp:26-113).  e, i and f are __restrict__
    pointers through which everything is modified: two equal variables are
    undefined behaviour.  The number of outputs is not checked. *)
Definition gem_solve (fuel : nat) (p : gem) (outs : list vid) (m : mgr F) : out (mgr F) :=
  match outs with
  | ide :: idi :: idf :: _ =>
      with_output m ide (fun ne m => with_output m idi (fun ni m => with_output m idf (fun nf m =>
      for_chunks fuel ne (fun cix m =>
        liftr m (m1 <- clear_chunk m ne cix f0 ;; m2 <- clear_chunk m1 ni cix f0 ;; clear_chunk m2 nf cix f0) (fun m =>
        liftr m (comp_indexer m ne ne cix false 0 1) (fun e_idx =>
        liftr m (comp_indexer m ni ni cix false 0 1) (fun i_idx =>
        liftr m (comp_indexer m nf nf cix false 0 1) (fun f_idx =>
        lockstep3 fuel e_idx i_idx f_idx (fun ie ii if_ m =>
          if (ne =? ni)%nat || (ne =? nf)%nat || (ni =? nf)%nat then Undef RestrictAlias else
          liftr m (
            x <- grid_xc (mg_grid m) ie zero_coords ;;
            x0 <- xget x 0 ;; x1 <- xget x 1 ;;
            let '(ve, vi, vf) := gem_values p x0 x1 in
            m1 <- stores m ne cix ie ve ;; m2 <- stores m1 ni cix ii vi ;; stores m2 nf cix if_ vf) Done) m))))) m)))
  | _ => Undef OutOfBounds
  end.

End Initial.
Arguments bw F : clear implicits.
Arguments gem F : clear implicits.
Arguments coords F : clear implicits.
