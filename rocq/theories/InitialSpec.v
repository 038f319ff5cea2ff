(** * InitialSpec: what the initial conditions must leave in the variables. *)
From Coq Require Import ZArith List String.
From Verif Require Import Base BoxSpec Range RangeSpec Interface ApiSpec Arith Chunk FieldSpec VarId Manager MgrSpec.
Import ListNotations.
Open Scope Z_scope.

Section InitialSpec.
Context {F : Type} {A : Arith F}.

(** The centre of cell [x] in dimension [d]: cell i lies between i and i+1
    spacings from the start. *)
Definition center (gr : grid F) (x : list Z) (d : nat) : F :=
  (nth d (gr_starts gr) f0 + (fofz (nth d x 0%Z) + fdec 5 (-1)) * nth d (gr_dxs gr) f0)%F.

(** Manager [m] has mesh [M] and fields [L]; the variables [outs] of at least [n]
    components can be stored, the grid knows start and spacing in every
    dimension and [fuel] is enough for all cells. *)
Definition ic_ready (m : mgr F) (M : box) (L : list (vid * field F)) (outs : list vid) (n : nat) (fuel : nat) : Prop :=
  mgr_holds m M L /\ fields_ok M L /\ compatible (ids L ++ outs) /\
  Forall (fun k => id_fits M k /\ (n <= List.length (id_comps k))%nat /\ prod_len (grow 2 M ++ comp_box k) <= Z.of_nat fuel) outs /\
  (List.length M <= List.length (gr_starts (mg_grid m)))%nat /\ (List.length M <= List.length (gr_dxs (mg_grid m)))%nat.

(** The cells of variable [k] without the component number. *)
Definition spots (B : box) (k : vid) : box := B ++ [(0, bs_points (id_basis k))].
(** Variable [k] has value [W x j] in component [j] of every cell [x] of [B]. *)
Definition values_in (B : box) (k : vid) (v : field F) (W : list Z -> Z -> F) : Prop :=
  forall x j, in_box (spots B k) x -> 0 <= j < Z.of_nat (List.length (id_comps k)) -> v (x ++ [j]) = W x j.
(** Variable [k] is zero in the ghost cells of mesh [M]. *)
Definition ghosts_zero (M : box) (k : vid) (v : field F) : Prop :=
  forall x j, in_box (spots (grow 2 M) k) x -> ~ in_box (spots M k) x -> 0 <= j < Z.of_nat (List.length (id_comps k)) -> v (x ++ [j]) = f0.

(** The initial condition took [m] to [m'] and left every output [k] with a field
    for which [P k] holds; nothing else has changed. *)
Definition ic_done (m m' : mgr F) (M : box) (L L' : list (vid * field F)) (outs : list vid) (P : vid -> field F -> Prop) : Prop :=
  mgr_holds m' M L' /\ fields_ok M L' /\ same_run m m' /\ incl (ids L') (ids L ++ outs) /\
  (forall k, ~ In (id_name k) (map id_name outs) -> field_get L' k = field_get L k) /\
  (forall k, In k outs -> exists v, field_get L' k = Some v /\ P k v).

(** A gas at rest of density [rho] and energy density [e]: components density,
    three momenta, energy. *)
Definition at_rest (rho e : F) (j : Z) : F := if j =? 0 then rho else if j =? 4 then e else f0.
(** The inner state of a blast: a gas of density one and pressure one at rest;
    the outer state has the density and the pressure multiplied. *)
Definition blast (inner : bool) (rho_jump P_jump gamma : F) (j : Z) : F :=
  if inner then at_rest f1 (f1 / (gamma - f1))%F j else at_rest (f1 * rho_jump)%F (f1 / (gamma - f1) * P_jump)%F j.
(** The two states of a plasma shock: number density [n], pressure [P] and the
    transverse field; cells with a negative first coordinate are on the left. *)
Definition side {X} (gr : grid F) (x : list Z) (l r : X) : X := if (center gr x 0 <? f0)%F then l else r.
(** A field with components [i] and [j] set and the others zero. *)
Definition two_comps (i : Z) (a : F) (j : Z) (b : F) (c : Z) : F := if c =? i then a else if c =? j then b else f0.

End InitialSpec.
