(** * Sources: model of src/solver/lorentz_force.cpp, lorentz_force.h,
    src/solver/current_source.cpp and current_source.h.

    lorentz_force_solve::low_order_solve (lorentz_force.cpp:71-114) and
    current_source_solve::fv_solve (current_source.cpp:44-73), which nothing calls,
    are in Walk.v. *)
From Coq Require Import ZArith List String Bool.
From Verif Require Import Base Arith Range Indexer Interface Chunk VarId Manager.
Import ListNotations.
Open Scope Z_scope.

(** while(a.exists() and b.exists()) { body; ++a; ++b; }
    (lorentz_force.cpp:40-67, current_source.cpp:35-40; in the latter b is
    incremented first, which makes no difference). *)
Fixpoint lockstep {S} (fuel : nat) (a b : indexer) (body : indexer -> indexer -> S -> out S) (s : S) : out S :=
  if ix_ex a && ix_ex b then
    match fuel with
    | O => Spin
    | S f =>
        obind (body a b s) (fun s' =>
        liftr s' (indexer_next a) (fun a' =>
        liftr s' (indexer_next b) (fun b' => lockstep f a' b' body s')))
    end
  else Done s.

Section Sources.
Context {F : Type} {A : Arith F}.

(** internal_range() with the last dimension set to [a, b)
    (lorentz_force.cpp:25-29, current_source.cpp:26-30). *)
Definition inner_comps (e : echunk F) (a b : Z) : res range :=
  r <- range_copy (ec_internal e) ;;
  last <- isub (r_nd r) 1 ;;
  range_set r last a b.

(** rhs[k] += x through a pointer to element [p] (lorentz_force.cpp:59-62). *)
Definition bump (l : list F) (p : Z) (x : F) : res (list F) :=
  v <- vget l p ;; vset l p (fadd v x).

(** Body of the loop of low_order_solve_idx (lorentz_force.cpp:41-62).  [fl],
    [fd] and [l] are the elements of fluid_data, field_data and rhs_data; [i] and
    [j] the linear indices of fluid_idx and field_idx: rhs points to element [i].
    q and E are read once: nothing they point to changes. *)
Definition lorentz_cell (com : F) (fl fd : list F) (i j : Z) (l : list F) : res (list F) :=
  q0 <- vget fl i ;;
  p0 <- vget fl (i + 1) ;;
  p1 <- vget fl (i + 2) ;;
  p2 <- vget fl (i + 3) ;;
  E0 <- vget fd j ;;
  E1 <- vget fd (j + 1) ;;
  E2 <- vget fd (j + 2) ;;
  B0 <- vget fd (j + 3) ;;
  B1 <- vget fd (j + 4) ;;
  B2 <- vget fd (j + 5) ;;
  l1 <- bump l (i + 1) (com * (q0 * E0 + p1 * B2 - p2 * B1))%F ;;
  l2 <- bump l1 (i + 2) (com * (q0 * E1 + p2 * B0 - p0 * B2))%F ;;
  l3 <- bump l2 (i + 3) (com * (q0 * E2 + p0 * B1 - p1 * B0))%F ;;
  bump l3 (i + 4) (com * (p0 * E0 + p1 * E1 + p2 * E2))%F.

(** low_order_solve_idx (lorentz_force.cpp:21-68); the state is rhs_data's
    container. *)
Definition lorentz_chunk (fuel : nat) (com : F) (fluid fld : echunk F) (i : iface F) : out (iface F) :=
  liftr i (inner_comps fluid 0 1) (fun fluid_rng =>
  liftr i (inner_comps fld 0 1) (fun field_rng =>
  liftr i (iface_indexer (ec_if fluid) fluid_rng) (fun a =>
  liftr i (iface_indexer (ec_if fld) field_rng) (fun b =>
  lockstep fuel a b (fun a b j =>
    liftr j (lorentz_cell com (if_data (ec_if fluid)) (if_data (ec_if fld)) (ix_lin a) (ix_lin b) (if_data j))
      (fun l => Done (mkIface (if_range j) l))) i)))).

(** Change the elements of one chunk of variable [n] (lorentz_force.cpp:134-137,
    current_source.cpp:92-94). *)
Definition on_chunk (n : nat) (ix : indexer) (f : iface F -> out (iface F)) (m : mgr F) : out (mgr F) :=
  liftr m (get_chunk m n ix) (fun e =>
  match f (ec_if e) with
  | Done i => liftr m (put_chunk m n ix (ec_with e i)) Done
  | Threw msg i => liftr m (put_chunk m n ix (ec_with e i)) (Threw msg)
  | Undef k => Undef k
  | Spin => Spin
  end).

(** lorentz_force::solve (lorentz_force.cpp:120-139).  The pointers in
    low_order_solve_idx are __restrict__ (lines 34-38): rhs must not be the fluid
    or the field. *)
Definition lorentz_solve (fuel : nat) (com : F) (ins outs : list vid) (m : mgr F) : out (mgr F) :=
  match ins with
  | [id_fluid; id_field] =>
      match outs with
      | [id_rhs] =>
          liftr m (input_variable m id_fluid) (fun fl =>
          liftr m (input_variable m id_field) (fun fd =>
          with_output m id_rhs (fun rhs m =>
          for_chunks fuel fl (fun ix m =>
            if (rhs =? fl)%nat || (rhs =? fd)%nat then Undef RestrictAlias
            else
              liftr m (get_chunk m fl ix) (fun efl =>
              liftr m (get_chunk m fd ix) (fun efd =>
              on_chunk rhs ix (lorentz_chunk fuel com efl efd) m))) m)))
      | _ => Threw "qk::solver::lorentz_force::solve : Output must contain one variable (rhs)." m
      end
  | _ => Threw "qk::solver::lorentz_force::solve : Input must contain two variables (fluid, field)." m
  end.

(** lorentz_force() and lorentz_force::setup (lorentz_force.h:17-28). *)
Definition lorentz_default : F := f1.
Definition lorentz_setup (charge mass : F) : F := fdiv charge mass.

(** fv_solve_idx (current_source.cpp:22-42).  fluid_data and rhs_data may be one
    object: [fluid_of] gives the fluid when the right-hand side is its argument. *)
Definition current_chunk (fuel : nat) (mult : F) (fluid rhs : echunk F) (fluid_of : iface F -> iface F) (i : iface F) : out (iface F) :=
  liftr i (inner_comps fluid 1 4) (fun mom_rng =>
  liftr i (inner_comps rhs 0 3) (fun E_rng =>
  liftr i (iface_indexer (ec_if fluid) mom_rng) (fun a =>
  liftr i (iface_indexer (ec_if rhs) E_rng) (fun b =>
  lockstep fuel a b (fun a b j =>
    liftr j (iface_get j b) (fun x =>
    liftr j (iface_get (fluid_of j) a) (fun p =>
    liftr j (iface_put j b (fadd x (fmul mult p))) Done))) i)))).

(** The loop over the species (current_source.cpp:90-95). *)
Fixpoint current_species (fuel : nat) (rhs : nat) (ms : list F) (ins : list vid) (m : mgr F) : out (mgr F) :=
  match ms, ins with
  | mult :: ms', id :: ins' =>
      obind (liftr m (input_variable m id) (fun fl =>
             for_chunks fuel fl (fun ix m =>
               liftr m (get_chunk m fl ix) (fun efl =>
               liftr m (get_chunk m rhs ix) (fun erhs =>
               on_chunk rhs ix (current_chunk fuel mult efl erhs (if (rhs =? fl)%nat then fun j => j else fun _ => ec_if efl)) m))) m))
        (current_species fuel rhs ms' ins')
  | _, _ => Done m
  end.

(** current_source::solve (current_source.cpp:78-97). *)
Definition current_solve (fuel : nat) (ms : list F) (ins outs : list vid) (m : mgr F) : out (mgr F) :=
  if (List.length ins =? List.length ms)%nat then
    match outs with
    | [id_rhs] => with_output m id_rhs (fun rhs m => current_species fuel rhs ms ins m)
    | _ => Threw "qk::solver::current_source::solve : Output must contain one variable (rhs)." m
    end
  else Threw "qk::solver::current_source::solve : Input must contain same number of variables (fluids) as charges and masses." m.

(** The loop of setup (current_source.h:28-30). *)
Fixpoint multipliers (eps0 : F) (charges masses : list F) : list F :=
  match charges, masses with
  | c :: charges', m :: masses' => fdiv (fdiv (fneg c) m) eps0 :: multipliers eps0 charges' masses'
  | _, _ => []
  end.
(** current_source::setup (current_source.h:20-31); the state is _multipliers. *)
Definition current_setup (eps0 : F) (charges masses : list F) (old : list F) : out (list F) :=
  if (List.length charges =? List.length masses)%nat then Done (multipliers eps0 charges masses)
  else Threw "qk::solver::current_source::setup : Charges and masses are of different lengths." old.

End Sources.
