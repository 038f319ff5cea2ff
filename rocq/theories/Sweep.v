(** * Sweep: the finite volume sweeps shared by src/solver/euler.cpp,
    src/solver/maxwell.cpp and src/spatial_solver/functions.h.

    The gather form (parallel kernels) appears in euler.cpp:48-210 and, with 6
    components, three times in maxwell.cpp:99-172, 177-250, 256-329.  The scatter
    form (serial kernels) is the macro pair of functions.h:2-36, used in
    euler.cpp:227-265 and maxwell.cpp:39-71.  Both are written once here, with
    the number of components [n] and the flux function as parameters.  Array 0 is
    q, array 1 is rhs.  Array indices are exact integers: an index that does not
    fit an int is outside every array. *)
From Coq Require Import ZArith List String Bool.
From Verif Require Import Base Arith Range Indexer Interface Chunk VarId Manager Par Kernel.
Import ListNotations.
Open Scope Z_scope.

Section Sweep.
Context {F : Type} {A : Arith F}.

(** Limited reconstruction of the two values at a wall (euler.cpp:80-85,
    149-154; maxwell.cpp:124-129 and the five repetitions; functions.h:23-28). *)
Definition recon (qn qc qp qpp : F) : F * F :=
  (let eps := fdec 1 (-12) in
   let rl := (qp - qc) / (qc - qn + eps) in
   let rr := (qp - qc) / (qpp - qp + eps) in
   let phil := (rl * rl + rl) / (rl * rl + fofz 1) in
   let phir := (rr * rr + rr) / (rr * rr + fofz 1) in
   (qc + fdec 5 (-1) * phil * (qc - qn), qp + fdec 5 (-1) * phir * (qp - qpp)))%F.

(** The loop over components that reads q and fills ql and qr (euler.cpp:75-86,
    144-155; functions.h:18-29), from component [j] on; [b0] to [b3] are the
    positions of the four cells.  [k] is the code that follows. *)
Fixpoint recon_loop (n : nat) (j b0 b1 b2 b3 : Z) (ql qr : list F) (k : list F -> list F -> thr F) : thr F :=
  match n with
  | O => k ql qr
  | S n' =>
      Rd 0 (b0 + j) (fun qn => Rd 0 (b1 + j) (fun qc => Rd 0 (b2 + j) (fun qp => Rd 0 (b3 + j) (fun qpp =>
      let lr := recon qn qc qp qpp in
      recon_loop n' (j + 1) b0 b1 b2 b3 (ql ++ [fst lr]) (qr ++ [snd lr]) k))))
  end.

(** rhs_[j] += F[j] / d or rhs_[j] -= F[j] / d for all components
    (euler.cpp:137-139, 206-208; maxwell.cpp:141-143, 169-171). *)
Fixpoint add_loop (op : F -> F -> F) (d : F) (fs : list F) (p : Z) (t : thr F) : thr F :=
  match fs with
  | [] => t
  | f :: fs' => Rd 1 p (fun x => Wr 1 p (op x (fdiv f d)) (add_loop op d fs' (p + 1) t))
  end.

(** Use a computed flux (the array F, for example functions.h:31-34); undefined behaviour in the computation is undefined
    behaviour of the iteration. *)
Definition with_flux (f : res (list F)) (k : list F -> thr F) : thr F :=
  match f with
  | Ok l => k l
  | UB u => Bad u
  | _ => Ret
  end.

(** One iteration of a gather sweep (euler.cpp:61-210): flux through the left
    wall added, flux through the right wall subtracted. *)
Definition gather (n : nat) (stride : Z) (flux : list F -> list F -> res (list F)) (d : F) (i : Z) : thr F :=
  let qc := i in
  let qn := qc - stride in
  let qnn := qn - stride in
  let qp := qc + stride in
  let qpp := qp + stride in
  recon_loop n 0 qnn qn qc qp [] [] (fun ql qr =>
  with_flux (flux ql qr) (fun fs =>
  add_loop fadd d fs i
    (recon_loop n 0 qn qc qp qpp [] [] (fun ql qr =>
     with_flux (flux ql qr) (fun fs =>
     add_loop fsub d fs i Ret))))).

(** rhs[i + j] -= F[j] / d; rhs[ip + j] += F[j] / d for all components
    (functions.h:32-35). *)
Fixpoint scatter_loop (d : F) (fs : list F) (i ip : Z) : thr F :=
  match fs with
  | [] => Ret
  | f :: fs' =>
      Rd 1 i (fun x => Wr 1 i (fsub x (fdiv f d))
      (Rd 1 ip (fun y => Wr 1 ip (fadd y (fdiv f d)) (scatter_loop d fs' (i + 1) (ip + 1)))))
  end.

(** One iteration of a scatter sweep (functions.h:14-36). *)
Definition scatter (n : nat) (stride : Z) (flux : list F -> list F -> res (list F)) (d : F) (i : Z) : thr F :=
  let in_ := i - stride in
  let ip := i + stride in
  let ipp := ip + stride in
  recon_loop n 0 in_ i ip ipp [] [] (fun ql qr =>
  with_flux (flux ql qr) (fun fs => scatter_loop d fs i ip)).

(** The statements before the loop and the loop bounds of a sweep along [dim]
    (euler.cpp:48-55; maxwell.cpp:100-106, 178-184, 257-263; functions.h:3-13).
    [low] is the change of the lower bound along [dim]: 0 for the gather sweeps,
    -1 for the scatter sweeps, which call expand (functions.h:6). *)
Definition sweep_loop (n : nat) (low : Z) (body : Z -> F -> Z -> thr F) (gr : grid F) (q : echunk F) (dim : Z) : res (list (thr F)) :=
  d <- grid_dx gr dim ;;
  stride <- range_stride (if_range (ec_if q)) dim ;;
  r0 <- range_copy (ec_internal q) ;;
  r1 <- (if low =? 0 then Ok r0 else range_expand r0 dim low 0) ;;
  last <- isub (r_nd r1) 1 ;;
  r2 <- range_set r1 last 0 1 ;;
  ix <- iface_indexer (ec_if q) r2 ;;
  fin <- indexer_final ix ;;
  imax <- iadd fin 1 ;;
  is <- int_loop (ix_lin ix) imax (Z.of_nat n) ;;
  Ok (map (body stride d) is).

(** The gather (euler.cpp:48-210) and the scatter sweep (functions.h:2-36) along
    one dimension. *)
Definition gather_sweep (n : nat) (flux : Z -> list F -> list F -> res (list F)) (gr : grid F) (q : echunk F) (dim : Z) : res (list (thr F)) :=
  sweep_loop n 0 (fun stride d => gather n stride (flux dim) d) gr q dim.
Definition scatter_sweep (n : nat) (flux : Z -> list F -> list F -> res (list F)) (gr : grid F) (q : echunk F) (dim : Z) : res (list (thr F)) :=
  sweep_loop n (-1) (fun stride d => scatter n stride (flux dim) d) gr q dim.

(** A right-hand side solver with one input q and one output rhs: size checks,
    references and chunk loop (euler.cpp:273-289, maxwell.cpp:337-352).  All
    loops of a chunk are set up before the first is run; setting up reads ranges
    and the grid only. *)
Definition rhs_solve (msg_in msg_out : string) (fuel : nat) (loops : mgr F -> echunk F -> res (list (list (thr F))))
    (ins outs : list vid) (m : mgr F) : out (mgr F) :=
  match ins with
  | [id_q] =>
      match outs with
      | [id_rhs] =>
          liftr m (input_variable m id_q) (fun q =>
          with_output m id_rhs (fun rhs m =>
          for_chunks fuel q (fun ix m =>
            liftr m (e <- get_chunk m q ix ;; loops m e) (fun ls => run_kernel [q] rhs ix ls m)) m))
      | _ => Threw msg_out m
      end
  | _ => Threw msg_in m
  end.

End Sweep.
