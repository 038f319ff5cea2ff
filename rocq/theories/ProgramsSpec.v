(** * ProgramsSpec: what the example programs compute, on the interior values of
    their unknowns. *)
From Coq Require Import ZArith List String Bool Reals.
From Verif Require Import Base BoxSpec Range RangeSpec Interface ApiSpec Arith ArithR Chunk FieldSpec VarId Manager MgrSpec BC BCSpec SweepSpec SourceSpec Programs.
Import ListNotations.
Open Scope Z_scope.

(** The boundary condition in force for variable [q] in dimension [d]: the last
    call that covers it. *)
Fixpoint bc_of (bl : list bc_call) (q : vid) (d : nat) : option bc_kind :=
  match bl with
  | [] => None
  | b :: bl' =>
      match bc_of bl' q d with
      | Some k => Some k
      | None => if existsb (Z.eqb (Z.of_nat d)) (bc_dims b) && existsb (fun o => String.eqb (id_name o) (id_name q)) (bc_outs b)
                then Some (bc_k b) else None
      end
  end.

(** All ids of a family. *)
Definition f_ids (f : family) : list vid := [f_0 f; f_1 f; f_2 f; f_3 f; f_rhs f].

(** Unknowns with five different names each, all different, of the same shape
    within a family, on mesh [M]. *)
Definition families_ok (M : box) (fams : list family) : Prop :=
  NoDup (map id_name (flat_map f_ids fams)) /\
  Forall (fun f => Forall (fun k => comp_box k = comp_box (f_0 f)) (f_ids f) /\ id_fits M (f_0 f)) fams.

(** Boundary calls for ids [ks] that can run on mesh [M]. *)
Definition bcs_ready (M : box) (fuel : nat) (ks : list vid) (bl : list bc_call) : Prop :=
  Forall (fun b => incl (bc_outs b) ks /\ exists ds, bc_dims b = map Z.of_nat ds /\ bc_ready (bc_k b) M fuel ds (bc_outs b)) bl.

(** The ids fit on the mesh and the fuel is enough to visit all their cells. *)
Definition room (M : box) (fuel : nat) (ks : list vid) : Prop :=
  Forall (fun k => id_fits M k /\ prod_len (grow 2 M ++ comp_box k) <= Z.of_nat fuel) ks.

Section ProgramsSpec.
Context {F : Type} {A : Arith F}.

(** What one sees of the field [u] when looking from the interior along
    dimension [d]: beyond the boundary the values the boundary condition
    prescribes. *)
Definition seen (k : bc_kind) (M : box) (d : nat) (u : field F) : field F := fun c =>
  if nth d c 0 <? lo M d then low_value k M d u c
  else if hi M d <=? nth d c 0 then up_value k M d u c else u c.

(** A function of mesh cell and component as a field. *)
Definition cellwise (f : list Z -> Z -> F) : field F := fun c => f (removelast c) (last c 0).

(** The finite volume right-hand side: flux in minus flux out over the spacing,
    one dimension after the other. *)
Definition fv_rhs (n : Z) (G : nat -> list F -> list F -> list F) (M : box) (bc : nat -> bc_kind) (dx : nat -> F) (ds : list nat)
    (u : field F) : field F :=
  cellwise (fold_left (with_fluxes (fun d => wall n G (seen (bc d) M d u) d) dx) ds (fun _ _ => f0)).

(** The Lorentz force on a fluid added to [r]. *)
Definition with_lorentz (com : F) (u e : field F) (r : field F) : field F := fun c =>
  match lorentz_rate com (fun i => u (removelast c ++ [i])) (fun i => e (removelast c ++ [i])) (last c 0) with
  | Some f => fadd (r c) f
  | None => r c
  end.
(** The current of fluids added to the components of E in [r]. *)
Definition with_current (ms : list F) (us : list (field F)) (r : field F) : field F := fun c =>
  if last c 0 <? 3 then current (r c) ms us (removelast c ++ [last c 0 + 1]) else r c.

(** Several unknowns, numbered. *)
Definition sys : Type := nat -> field F.

(** One step of the three stage Runge-Kutta method for U' = Op U, with the
    operations in the order of the code. *)
Definition rk3 (Op : sys -> sys) (dt : F) (U : sys) : sys :=
  let U1 : sys := fun i c => (U i c + dt * Op U i c)%F in
  let U2 : sys := fun i c => (fdec 75 (-2) * U i c + fdec 25 (-2) * U1 i c + fdec 25 (-2) * dt * Op U1 i c)%F in
  fun i c => ((U i c + fofz 2 * (U2 i c + dt * Op U2 i c)) / fofz 3)%F.

(** A manager in working order. *)
Definition state_ok (m : mgr F) (M : box) (L : list (vid * field F)) (ks : list vid) : Prop :=
  mgr_holds m M L /\ fields_ok M L /\ compatible (ids L ++ ks).

(** Variable [k] has the values [w] in the interior. *)
Definition interior_is (M : box) (L : list (vid * field F)) (k : vid) (w : field F) : Prop :=
  exists u, field_get L k = Some u /\ forall c, in_box (M ++ comp_box k) c -> u c = w c.
Definition sys_is (M : box) (L : list (vid * field F)) (ks : list vid) (U : sys) : Prop :=
  forall i k, nth_error ks i = Some k -> interior_is M L k (U i).

(** The program [P] computes the right-hand side [Op] of the unknowns [vars] into
    [rhss] and leaves everything but ghost cells of the unknowns alone. *)
Definition computes_sys (P : mgr F -> out (mgr F)) (gr : grid F) (dt : F) (M : box) (ks vars rhss : list vid) (Op : sys -> sys) : Prop :=
  forall m L U, state_ok m M L ks -> mg_grid m = gr -> mg_dt m = Some dt -> sys_is M L vars U ->
  exists m' L', P m = Done m' /\ state_ok m' M L' ks /\ same_run m m' /\
    sys_is M L' vars U /\ sys_is M L' rhss (Op U) /\
    forall k, ~ In (id_name k) (map id_name vars) -> ~ In (id_name k) (map id_name rhss) -> field_get L' k = field_get L k.

(** The right-hand side of a two-fluid plasma: unknown 0 the electrons, 1 the
    ions, 2 the electromagnetic field. *)
Definition plasma_op (p : plasma) (G5 G6 : nat -> list F -> list F -> list F) (M : box) (bc : nat -> nat -> bc_kind) (dx : nat -> F)
    (ds ds3 : list nat) (U : sys) : sys := fun i =>
  match i with
  | 0%nat => with_lorentz (pl_e p) (U 0%nat) (U 2%nat) (fv_rhs 5 G5 M (bc 0%nat) dx ds (U 0%nat))
  | 1%nat => with_lorentz (pl_i p) (U 1%nat) (U 2%nat) (fv_rhs 5 G5 M (bc 1%nat) dx ds (U 1%nat))
  | _ => with_current (pl_ms p) [U 0%nat; U 1%nat] (fv_rhs 6 G6 M (bc 2%nat) dx ds3 (U 2%nat))
  end.

(** The grid has a spacing for every dimension of the mesh. *)
Definition spaced (gr : grid F) (M : box) : Prop := (List.length M <= List.length (gr_dxs gr))%nat.

(** The unknowns [fams] and the manager are set up for a program: the mesh is at
    least two cells wide everywhere. *)
Definition program_ready (m : mgr F) (M : box) (L : list (vid * field F)) (fams : list family) (fuel : nat) : Prop :=
  families_ok M fams /\ state_ok m M L (flat_map f_ids fams) /\ room M fuel (flat_map f_ids fams) /\ spaced (mg_grid m) M /\
  wide M 2 (seq 0 (List.length M)).

(** A run of [n] steps of length [dt] took [m] to [m']: the unknowns have the
    values [U] in the interior, the time is n dt, added up step by step, and no
    variable outside the families has changed. *)
Definition ran (m m' : mgr F) (M : box) (L L' : list (vid * field F)) (fams : list family) (dt : F) (n : nat) (U : sys) : Prop :=
  state_ok m' M L' (flat_map f_ids fams) /\ mg_grid m' = mg_grid m /\ mg_dt m' = Some dt /\
  mg_time m' = Some (Nat.iter n (fun t => fadd t dt) (fofz 0)) /\ sys_is M L' (map f_0 fams) U /\
  forall q, ~ In (id_name q) (map id_name (flat_map f_ids fams)) -> field_get L' q = field_get L q.

End ProgramsSpec.

(** The sum of component [j] of variable [k] with field [u] over the interior of
    mesh [M]. *)
Definition total_of (M : box) (k : vid) (j : Z) (u : field R) : R := total (M ++ [(0, bs_points (id_basis k))]) (fun x => u (x ++ [j])).
