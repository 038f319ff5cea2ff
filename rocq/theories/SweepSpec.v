(** * SweepSpec: specification vocabulary for the finite volume solvers.

    A cell is given by its mesh and basis coordinates [x] and a component [j]; the
    cell of the field is [x ++ [j]]. *)
From Coq Require Import ZArith List String Bool Reals.
From Verif Require Import Base BoxSpec Range RangeSpec Interface ApiSpec Arith ArithR Chunk FieldSpec VarId Manager MgrSpec BCSpec.
Import ListNotations.
Open Scope Z_scope.

Section SweepSpec.
Context {F : Type} {A : Arith F}.

(** The limiter and the limited values on the two sides of the wall between the
    second and the third of four neighbouring cells. *)
Definition phi (r : F) : F := ((r * r + r) / (r * r + fofz 1))%F.
Definition left_value (a b c : F) : F := (b + fdec 5 (-1) * phi ((c - b) / (b - a + fdec 1 (-12))) * (b - a))%F.
Definition right_value (b c d : F) : F := (c + fdec 5 (-1) * phi ((c - b) / (d - c + fdec 1 (-12))) * (c - d))%F.

(** The states on the two sides of the lower wall of cell [x] along dimension
    [d], and the flux through that wall for the flux function [G]. *)
Definition left_state (n : Z) (u : field F) (d : nat) (x : list Z) : list F :=
  map (fun j => left_value (u (move d (-2) x ++ [j])) (u (move d (-1) x ++ [j])) (u (x ++ [j]))) (zrange 0 n).
Definition right_state (n : Z) (u : field F) (d : nat) (x : list Z) : list F :=
  map (fun j => right_value (u (move d (-1) x ++ [j])) (u (x ++ [j])) (u (move d 1 x ++ [j]))) (zrange 0 n).
Definition wall (n : Z) (G : nat -> list F -> list F -> list F) (u : field F) (d : nat) (x : list Z) (j : Z) : F :=
  nth (Z.to_nat j) (G d (left_state n u d x) (right_state n u d x)) f0.

(** The right-hand side with the contribution of dimension [d] added: flux
    through the lower wall in, flux through the upper wall out. *)
Definition with_fluxes (W : nat -> list Z -> Z -> F) (dx : nat -> F) (r : list Z -> Z -> F) (d : nat) : list Z -> Z -> F :=
  fun x j => ((r x j + W d x j / dx d) - W d (move d 1 x) j / dx d)%F.

(** [r'] is [r] with the contributions of the dimensions [ds] added, one after
    the other, in every interior cell. *)
Definition fluxes_added (M P : box) (n : Z) (W : nat -> list Z -> Z -> F) (dx : nat -> F) (ds : list nat) (r r' : field F) : Prop :=
  forall x j, in_box (M ++ P) x -> 0 <= j < n ->
    r' (x ++ [j]) = fold_left (with_fluxes W dx) ds (fun x j => r (x ++ [j])) x j.

(** From [m] to [m'] the variable [r] received the contributions; every other
    variable is the same. *)
Definition rhs_added (m m' : mgr F) (M : box) (L L' : list (vid * field F)) (r : vid) (W : nat -> list Z -> Z -> F)
    (dx : nat -> F) (ds : list nat) : Prop :=
  mgr_holds m' M L' /\ fields_ok M L' /\ same_run m m' /\ incl (ids L') (ids L ++ [r]) /\
  (forall k, id_name k <> id_name r -> field_get L' k = field_get L k) /\
  exists v, field_get L' r = Some v /\
    fluxes_added M [(0, bs_points (id_basis r))] (Z.of_nat (List.length (id_comps r))) W dx ds (field_or_zero L r) v.

(** The grid spacing along dimension [d]. *)
Definition spacing (gr : grid F) (d : nat) : F := nth d (gr_dxs gr) f0.

(** The value of a flux function that may be undefined. *)
Definition flux_of (f : Z -> list F -> list F -> res (list F)) (d : nat) (l r : list F) : list F :=
  match f (Z.of_nat d) l r with Ok x => x | _ => [] end.

(** What a right-hand side solver needs to add to variable [r] what belongs to
    variable [q] with field [u]: two different variables of the same shape with [n]
    components on the mesh, and a grid with a spacing for every dimension. *)
Definition rhs_ready (m : mgr F) (M : box) (L : list (vid * field F)) (ks : list vid) (q r : vid) (u : field F) (n fuel : nat) : Prop :=
  mgr_holds m M L /\ fields_ok M L /\ compatible (ids L ++ ks) /\ incl [q; r] ks /\ id_fits M q /\ (1 <= fuel)%nat /\
  field_get L q = Some u /\ comp_box q = comp_box r /\ List.length (id_comps q) = n /\ id_name q <> id_name r /\
  (List.length M <= List.length (gr_dxs (mg_grid m)))%nat.

End SweepSpec.

Open Scope R_scope.

(** Sum over the cells of a box. *)
Definition total (b : box) (f : list Z -> R) : R := fold_right Rplus 0 (map f (cells b)).
(** Sum over dimensions. *)
Definition sum_over (ds : list nat) (g : nat -> R) : R := fold_right Rplus 0 (map g ds).
(** The layer of cells of box [b] at coordinate [t] of dimension [d]; beyond the
    end for [t = hi b d], so that its lower walls are the upper walls of [b]. *)
Definition cut (b : box) (d : nat) (t : Z) : box := upd b d (t, (t + 1)%Z).

(** Balance over a control volume [B]: what was added to component [j] in the cells
    of [B] is what came in through the lower walls minus what went out through
    the upper walls. *)
Definition balanced (B : box) (W : nat -> list Z -> Z -> R) (dx : nat -> R) (ds : list nat) (r r' : field R) (j : Z) : Prop :=
  total B (fun x => r' (x ++ [j])%list - r (x ++ [j])%list) =
  sum_over ds (fun d => (total (cut B d (lo B d)) (fun x => W d x j) - total (cut B d (hi B d)) (fun x => W d x j)) / dx d).

(** The ghost cells next to the interior repeat the field periodically. *)
Definition periodic_field {F : Type} (M P : box) (n : Z) (ds : list nat) (u : field F) : Prop :=
  forall d x j t, In d ds -> in_box (M ++ P) x -> nth d x 0%Z = lo M d -> (0 <= j < n)%Z -> (-2 <= t <= 1)%Z ->
    u (move d t x ++ [j]) = u (move d (t + (hi M d - lo M d)) x ++ [j]).
