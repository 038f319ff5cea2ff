(** * AdvectionSpec: one stage of the advection solver on fields. *)
From Coq Require Import ZArith List Bool.
From Verif Require Import Base BoxSpec Arith Range Indexer Interface Chunk FieldSpec VarId Manager MgrSpec BCSpec.
Import ListNotations.
Open Scope Z_scope.

Section AdvectionSpec.
Context {F : Type} {A : Arith F}.

(** Limited upwind flux out of the cell with value [vc]; [vn] is the value
    upwind of it and [vp] the value downwind, [k] the Courant number. *)
Definition slope_ratio (vn vc vp : F) : F :=
  (if fle vp vc && fle vc vp then fofz 1 else (vc - vn) / (vp - vc))%F.
Definition albada (r : F) : F := (r * (r + fofz 1) / (r * r + fofz 1))%F.
Definition upwind (k vn vc vp : F) : F :=
  (k * (vc + fdec 25 (-2) * albada (slope_ratio vn vc vp) * (vp - vn)))%F.

(** Is the flow along dimension [d] upwards? *)
Definition upwards (vel : nat -> F) (d : nat) : bool := flt f0 (vel d).
Definition downwind (vel : nat -> F) (d : nat) : Z := if upwards vel d then 1 else -1.

(** What flows into cell [c] along dimension [d] from its upwind neighbour. *)
Definition inflow (vel cf : nat -> F) (u : field F) (d : nat) (c : list Z) : F :=
  let s := downwind vel d in
  upwind (cf d) (u (move d (- 2 * s) c)) (u (move d (- s) c)) (u c).

(** [r] after the flow along dimension [d]: every cell gains what flows in and
    loses what flows into its downwind neighbour, in the order of the code. *)
Definition flow (vel cf : nat -> F) (u : field F) (r : field F) (d : nat) : field F :=
  fun c => (if upwards vel d
            then r c + inflow vel cf u d c - inflow vel cf u d (move d 1 c)
            else r c - inflow vel cf u d (move d (-1) c) + inflow vel cf u d c)%F.

(** [r'] is [r] with the flow of [u] along the dimensions [ds], in interior cells. *)
Definition flowed (M D : box) (vel cf : nat -> F) (ds : list nat) (u r r' : field F) : Prop :=
  forall c, in_box (M ++ D) c -> r' c = fold_left (flow vel cf u) ds r c.

(** Courant numbers. *)
Definition courant (dt : F) (vel dx : nat -> F) (d : nat) : F := fabs (dt * vel d / dx d)%F.

(** What flows through the lower wall of cell [x] along dimension [d], counted
    upwards. *)
Definition adv_wall (vel cf : nat -> F) (u : field F) (d : nat) (x : list Z) (j : Z) : F :=
  if upwards vel d then inflow vel cf u d (x ++ [j]) else fneg (inflow vel cf u d (move d (-1) x ++ [j])).

(** What the solver needs: three variables of one shape of which the one whose
    flow is computed is not the one it is added to, a time and a time step, and
    a velocity and a grid spacing for every dimension. *)
Definition adv_ready (m : mgr F) (M : box) (L : list (vid * field F)) (ks : list vid) (q0 q1 q2 : vid) (dt : F)
    (velocity : list F) (fuel : nat) : Prop :=
  mgr_holds m M L /\ fields_ok M L /\ compatible (ids L ++ ks) /\ incl [q0; q1; q2] ks /\ Forall (id_fits M) [q0; q1; q2] /\
  comp_box q1 = comp_box q0 /\ comp_box q2 = comp_box q0 /\ (1 <= fuel)%nat /\
  mg_time m <> None /\ mg_dt m = Some dt /\
  (List.length M <= List.length velocity)%nat /\ (List.length M <= List.length (gr_dxs (mg_grid m)))%nat.

(** From [m] to [m'] the output [o] received a field with property [P]; the
    other outputs [outs] exist and keep their fields, every other variable is
    the same. *)
Definition adv_stored (m m' : mgr F) (M : box) (L L' : list (vid * field F)) (outs : list vid) (o : vid) (P : field F -> Prop) : Prop :=
  mgr_holds m' M L' /\ fields_ok M L' /\ same_run m m' /\
  (forall k, ~ In (id_name k) (map id_name outs) -> field_get L' k = field_get L k) /\
  (forall k, In k outs -> id_name k <> id_name o -> field_get L' k = Some (field_or_zero L k)) /\
  exists v, field_get L' o = Some v /\ P v.

(** Mean of two fields. *)
Definition mean (u v : field F) : field F := fun c => (fdec 5 (-1) * (u c + v c))%F.

(** The velocity of each dimension. *)
Definition velocity_of (velocity : list F) (d : nat) : F := nth d velocity f0.

End AdvectionSpec.
