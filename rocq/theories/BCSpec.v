(** * BCSpec: what boundary conditions must do to the ghost cells of a field. *)
From Coq Require Import ZArith List Bool.
From Verif Require Import Base BoxSpec Arith FieldSpec VarId Manager MgrSpec BC.
Import ListNotations.
Open Scope Z_scope.

(** The cell with coordinate [d] moved by [s], or reflected to [s] minus the
    coordinate. *)
Definition move (d : nat) (s : Z) (c : list Z) : list Z := upd c d (nth d c 0 + s).
Definition flip (d : nat) (s : Z) (c : list Z) : list Z := upd c d (s - nth d c 0).

(** Cells of the ghost strips of dimension [d]. *)
Definition low_ghost (M D : box) (g : Z) (d : nat) (c : list Z) : Prop :=
  in_box (slab M D d (lo M d - g) (lo M d)) c.
Definition up_ghost (M D : box) (g : Z) (d : nat) (c : list Z) : Prop :=
  in_box (slab M D d (hi M d) (hi M d + g)) c.

(** [v] has the values [low d], [up d] in the strips of the listed dimensions and
    equals [u] in all other cells. *)
Definition ghosts_set {F} (M D : box) (g : Z) (dims : list nat)
    (low up : nat -> list Z -> F) (u v : list Z -> F) : Prop :=
  (forall d c, In d dims -> low_ghost M D g d c -> v c = low d c) /\
  (forall d c, In d dims -> up_ghost M D g d c -> v c = up d c) /\
  (forall c, in_box (grow g M ++ D) c ->
     (forall d, In d dims -> ~ low_ghost M D g d c /\ ~ up_ghost M D g d c) -> v c = u c).

(** Component of a cell: the last coordinate. *)
Definition comp (c : list Z) : Z := last c 0.

(** The listed dimensions are mesh dimensions and at least [g] cells wide. *)
Definition wide (M : box) (g : Z) (dims : list nat) : Prop :=
  forall d, In d dims -> (d < List.length M)%nat /\ g <= hi M d - lo M d.

(** The last dimension of the components is [0, n) with n >= 4. *)
Definition four_comps (D : box) : Prop := exists D' n, D = D' ++ [(0, n)] /\ 4 <= n.

Section Values.
Context {F : Type} {A : Arith F}.

(** The value [x], multiplied by -1 if component [k] is in [a, b). *)
Definition reversed (a b k : Z) (x : F) : F :=
  if (a <=? k) && (k <? b) then fmul x (fneg f1) else x.

(** The value each boundary condition prescribes in ghost cell [c] beyond the
    lower and upper face of dimension [d], in terms of the field [u] before. *)
Definition low_value (k : bc_kind) (M : box) (d : nat) (u : list Z -> F) (c : list Z) : F :=
  match k with
  | Periodic => u (move d (hi M d - lo M d) c)
  | CopyOut => u (flip d (2 * lo M d - 1) c)
  | NoSlip | FreeSlip => reversed 1 4 (comp c) (u (flip d (2 * lo M d - 1) c))
  | ConductingWall => reversed 0 4 (comp c) (u (flip d (2 * lo M d - 1) c))
  end.
Definition up_value (k : bc_kind) (M : box) (d : nat) (u : list Z -> F) (c : list Z) : F :=
  match k with
  | Periodic => u (move d (- (hi M d - lo M d)) c)
  | CopyOut => u (flip d (2 * hi M d - 1) c)
  | NoSlip | FreeSlip => reversed 1 4 (comp c) (u (flip d (2 * hi M d - 1) c))
  | ConductingWall => reversed 0 4 (comp c) (u (flip d (2 * hi M d - 1) c))
  end.

(** Component requirement of each condition. *)
Definition comps_ok (k : bc_kind) (D : box) : Prop :=
  match k with Periodic | CopyOut => True | _ => four_comps D end.

End Values.

(** What a boundary solver needs: dimensions of the mesh, wide enough, and
    output ids that fit on the mesh and have the components it reverses. *)
Definition bc_ready (k : bc_kind) (M : box) (fuel : nat) (dims : list nat) (outs : list vid) : Prop :=
  wide M 2 dims /\
  Forall (fun id => id_fits M id /\ comps_ok k (comp_box id) /\ prod_len (grow 2 M ++ comp_box id) <= Z.of_nat fuel) outs.

