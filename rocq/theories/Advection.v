(** * Advection: model of src/solver/ssprk2_advection.cpp.

    The free function advection (ssprk2_advection.cpp:93-142), which nothing
    calls, is in AdvectFree.v. *)
From Coq Require Import ZArith List String Bool.
From Verif Require Import Base Arith Range Indexer Interface Chunk VarId Manager Par Kernel Sources.
Import ListNotations.
Open Scope Z_scope.

Section Advection.
Context {F : Type} {A : Arith F}.

(** a != b on doubles (ssprk2_advection.cpp:51). *)
Definition fneq (a b : F) : bool := negb (fle a b && fle b a).

(** The flux of one iteration (ssprk2_advection.cpp:51-57). *)
Definition adv_flux (coeff vn vc vp : F) : F :=
  (let r := if fneq vp vc then (vc - vn) / (vp - vc) else fofz 1 in
   let phi := r * (r + fofz 1) / (r * r + fofz 1) in
   coeff * (vc + fdec 25 (-2) * phi * (vp - vn)))%F.

(** One iteration of advection_iterate (ssprk2_advection.cpp:42-66) on the
    arrays a (0) and b (1).  Indices are exact integers: an index that does not
    fit an int is outside every array. *)
Definition adv_iter (ds : Z) (coeff : F) (i : Z) : thr F :=
  Rd 0 (i - ds) (fun vc => Rd 0 (i - 2 * ds) (fun vn => Rd 0 i (fun vp =>
  let f := adv_flux coeff vn vc vp in
  Rd 1 (i - ds) (fun x => Wr 1 (i - ds) (fsub x f)
  (Rd 1 i (fun y => Wr 1 i (fadd y f) Ret)))))).

(** advection_iterate (ssprk2_advection.cpp:28-67). *)
Definition adv_iterate (start end_ ds : Z) (coeff : F) : res (list (thr F)) :=
  is <- int_loop start end_ 1 ;; Ok (map (adv_iter ds coeff) is).

(** The body of the loop of advection_inout (ssprk2_advection.cpp:75-88). *)
Definition adv_sweep (dt : F) (velocity : list F) (gr : grid F) (a : echunk F) (dim : Z) : res (list (thr F)) :=
  v <- vget velocity dim ;;
  s <- range_stride (if_range (ec_if a)) dim ;;
  vol <- range_volume (if_range (ec_if a)) ;;
  two <- imul 2 s ;;
  dx <- grid_dx gr dim ;;
  let coeff := fabs (dt * v / dx)%F in
  if (f0 <? v)%F then end_ <- isub vol 1 ;; adv_iterate two end_ s coeff
  else ds <- isub 0 s ;; end_ <- isub vol two ;; adv_iterate 0 end_ ds coeff.

(** advection_inout (ssprk2_advection.cpp:69-90): the loops of all dimensions of
    the grid.  All are set up before the first is run; setting up reads ranges,
    the velocity and the grid only. *)
Definition adv_inout (dt : F) (velocity : list F) (gr : grid F) (a : echunk F) : res (list (list (thr F))) :=
  loops_of (adv_sweep dt velocity gr a) (dims_upto (r_nd (gr_range gr))).

(** np[i] = 0.5 * (n[i] + ns[i]) for i below n0.volume() (ssprk2_advection.cpp:265-269).
    The pointers are not __restrict__: element [i] of np may be element [i] of n. *)
Definition adv_mean (vol : Z) (n ns np : list F) : res (list F) :=
  if (Z.of_nat (List.length n) <? vol) || (Z.of_nat (List.length ns) <? vol) || (Z.of_nat (List.length np) <? vol) then UB OutOfBounds
  else
    let k := Z.to_nat vol in
    Ok (map (fun p => fdec 5 (-1) * (fst p + snd p))%F (combine (firstn k n) (firstn k ns)) ++ skipn k np).

(** stage_0 (ssprk2_advection.cpp:208-218).  memcpy of an array onto itself and
    advection_iterate with both __restrict__ pointers to one array are
    undefined. *)
Definition adv_stage_0 (dt : F) (velocity : list F) (n0 n1 : nat) (ix : indexer) (m : mgr F) : out (mgr F) :=
  if (n0 =? n1)%nat then Undef RestrictAlias
  else
    liftr m (get_chunk m n0 ix) (fun e0 =>
    obind (on_chunk n1 ix (full_copy (ec_if e0)) m) (fun m =>
    liftr m (adv_inout dt velocity (mg_grid m) e0) (fun ls => run_kernel [n0] n1 ix ls m))).

(** stage_1 (ssprk2_advection.cpp:254-271). *)
Definition adv_stage_1 (dt : F) (velocity : list F) (n0 n1 n2 : nat) (ix : indexer) (m : mgr F) : out (mgr F) :=
  if (n1 =? n2)%nat then Undef RestrictAlias
  else
    liftr m (get_chunk m n0 ix) (fun e0 =>
    liftr m (get_chunk m n1 ix) (fun e1 =>
    liftr m (range_volume (if_range (ec_if e0))) (fun vol =>
    obind (on_chunk n2 ix (fun i =>
             liftr i (iface_data (ec_if e0)) (fun n => liftr i (iface_data (ec_if e1)) (fun ns => liftr i (iface_data i) (fun np =>
             liftr i (adv_mean vol n ns np) (fun l => Done (mkIface (if_range i) l)))))) m) (fun m =>
    liftr m (adv_inout (fmul (fdec 5 (-1)) dt) velocity (mg_grid m) e1) (fun ls => run_kernel [n1] n2 ix ls m))))).

(** ssprk2_advection::solve (ssprk2_advection.cpp:161-206); the stages are 0 and
    1 (ssprk2_advection.h:19-22).  The time is read but not used. *)
Definition adv_solve (fuel : nat) (velocity : list F) (ins outs : list vid) (tag : Z) (m : mgr F) : out (mgr F) :=
  match ins with
  | [id_0] =>
      match outs with
      | [id_1; id_2] =>
          liftr m (mgr_get_time m) (fun _ =>
          liftr m (mgr_get_dt m) (fun dt =>
          liftr m (input_variable m id_0) (fun n0 =>
          with_output m id_1 (fun n1 m =>
          with_output m id_2 (fun n2 m =>
          if tag =? 0 then for_chunks fuel n0 (fun ix m => adv_stage_0 dt velocity n0 n1 ix m) m
          else if tag =? 1 then for_chunks fuel n0 (fun ix m => adv_stage_1 dt velocity n0 n1 n2 ix m) m
          else Done m)))))
      | _ => Threw "qk::solver::ssprk2_advection::solve : Output must contain two variables." m
      end
  | _ => Threw "qk::solver::ssprk2_advection::solve : Input must contain one variable." m
  end.

End Advection.
