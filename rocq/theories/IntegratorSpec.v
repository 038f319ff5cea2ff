(** * IntegratorSpec: specification vocabulary for the time integrators. *)
From Coq Require Import ZArith List String Bool Reals.
From Verif Require Import Base BoxSpec Range RangeSpec Interface ApiSpec Arith ArithR Chunk FieldSpec VarId Manager MgrSpec.
Import ListNotations.
Open Scope Z_scope.

Section IntegratorSpec.
Context {F : Type} {A : Arith F}.

(** From [m] with contents [L] to [m'] with contents [L']: variable [o] received
    the values [w] in every cell; the other requested variables [outs] exist and
    keep their values, zero if new; everything else is the same. *)
Definition stored (m m' : mgr F) (M : box) (L L' : list (vid * field F)) (outs : list vid) (o : vid) (w : field F) : Prop :=
  mgr_holds m' M L' /\ fields_ok M L' /\ same_run m m' /\
  (forall k, ~ In (id_name k) (map id_name outs) -> field_get L' k = field_get L k) /\
  (forall k, In k outs -> id_name k <> id_name o -> field_get L' k = Some (field_or_zero L k)) /\
  exists v, field_get L' o = Some v /\ on_cells M o v w.

(** [P] computes the right-hand side of variable [q] into variable [r]: on the
    cells [I] it leaves [q] alone and stores [Op] of it in [r]; other variables
    are untouched.  Outside [I] it may change both (ghost cells). *)
Definition computes_rhs (P : mgr F -> out (mgr F)) (M : box) (ks : list vid) (q r : vid) (I : list Z -> Prop)
    (Op : field F -> field F) : Prop :=
  forall m L u, mgr_holds m M L -> fields_ok M L -> compatible (ids L ++ ks) -> field_get L q = Some u ->
  exists m' L' u' w, P m = Done m' /\ mgr_holds m' M L' /\ fields_ok M L' /\ compatible (ids L' ++ ks) /\ same_run m m' /\
    field_get L' q = Some u' /\ (forall c, I c -> u' c = u c) /\
    field_get L' r = Some w /\ (forall c, I c -> w c = Op u c) /\
    forall k, id_name k <> id_name q -> id_name k <> id_name r -> field_get L' k = field_get L k.

(** The operator looks at the cells [I] only. *)
Definition local_on (I : list Z -> Prop) (Op : field F -> field F) : Prop :=
  forall u v, (forall c, I c -> u c = v c) -> forall c, I c -> Op u c = Op v c.

End IntegratorSpec.

Open Scope R_scope.

(** The scheme of Shu and Osher for u' = Op u. *)
Definition euler_step (Op : field R -> field R) (dt : R) (u : field R) : field R := fun c => u c + dt * Op u c.
Definition so1 Op dt (u : field R) : field R := euler_step Op dt u.
Definition so2 Op dt (u : field R) : field R := fun c => 3 / 4 * u c + 1 / 4 * euler_step Op dt (so1 Op dt u) c.
Definition so3 Op dt (u : field R) : field R := fun c => 1 / 3 * u c + 2 / 3 * euler_step Op dt (so2 Op dt u) c.

(** A three stage explicit Runge-Kutta method given by its tableau: stage
    weights [a21], [a31], [a32] and final weights [b1], [b2], [b3]. *)
Definition rk_step (a21 a31 a32 b1 b2 b3 : R) (Op : field R -> field R) (dt : R) (u : field R) : field R :=
  let k1 := Op u in
  let k2 := Op (fun c => u c + dt * (a21 * k1 c)) in
  let k3 := Op (fun c => u c + dt * (a31 * k1 c + a32 * k2 c)) in
  fun c => u c + dt * (b1 * k1 c + b2 * k2 c + b3 * k3 c).
(** The conditions for order three. *)
Definition order3 (a21 a31 a32 b1 b2 b3 : R) : Prop :=
  let c2 := a21 in let c3 := a31 + a32 in
  b1 + b2 + b3 = 1 /\ b2 * c2 + b3 * c3 = 1 / 2 /\ b2 * (c2 * c2) + b3 * (c3 * c3) = 1 / 3 /\ b3 * a32 * c2 = 1 / 6.

(** Linear on the cells [I]. *)
Definition linear_on (I : list Z -> Prop) (Op : field R -> field R) : Prop :=
  forall a b u v c, I c -> Op (fun x => a * u x + b * v x) c = a * Op u c + b * Op v c.

(** A convex set of fields, determined by the cells [I]. *)
Definition convex_on (I : list Z -> Prop) (K : field R -> Prop) : Prop :=
  (forall u v, (forall c, I c -> u c = v c) -> K u -> K v) /\
  (forall u v a, 0 <= a <= 1 -> K u -> K v -> K (fun c => a * u c + (1 - a) * v c)).
