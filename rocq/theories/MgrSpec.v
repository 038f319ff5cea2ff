(** * MgrSpec: specification vocabulary for the variable manager.

    The contents of a manager are described by the list of its fields: an id and
    the value of every cell. *)
From Coq Require Import ZArith List String Bool.
From Verif Require Import Base BoxSpec Range RangeSpec Interface ApiSpec Arith Chunk FieldSpec VarId Manager.
Import ListNotations.
Open Scope Z_scope.

(** Component box of a variable: basis points and components. *)
Definition comp_box (k : vid) : box :=
  [(0, bs_points (id_basis k)); (0, Z.of_nat (List.length (id_comps k)))].

(** The one-cell box of chunk indices for a mesh. *)
Definition one_cell (M : box) : box := map (fun _ => (0, 1)) M.

Section MgrSpec.
Context {F : Type} {A : Arith F}.

(** Values of the cells of one variable. *)
Definition field : Type := list Z -> F.

(** The variable has the id's name, components and basis, one chunk with two
    ghost layers on mesh [M], and elements [u]. *)
Definition var_holds (v : variable F) (k : vid) (M : box) (u : field) : Prop :=
  v_name v = id_name k /\ v_comps v = id_comps k /\ ds_basis (v_ds v) = id_basis k /\
  observes (ds_comp (v_ds v)) (comp_box k) /\ observes (ds_mesh (v_ds v)) M /\
  observes (ds_local (v_ds v)) M /\ observes (ds_layout (v_ds v)) (one_cell M) /\
  observes (if_range (ds_chunks (v_ds v))) (one_cell M) /\
  exists e, if_data (ds_chunks (v_ds v)) = [e] /\ chunk_holds e M (comp_box k) 2 u.

(** The manager's grid covers [M] and its variables hold the fields [L]. *)
Definition mgr_holds (m : mgr F) (M : box) (L : list (vid * field)) : Prop :=
  observes (gr_range (mg_grid m)) M /\
  Forall2 (fun kv ku => fst kv = fst ku /\ var_holds (snd kv) (fst ku) M (snd ku)) (mg_vars m) L.

(** The ids of the fields. *)
Definition ids (L : list (vid * field)) : list vid := map fst L.

(** Ids a mesh can carry: all sizes are ints. *)
Definition id_fits (M : box) (k : vid) : Prop := shape M (comp_box k) 2.

(** Ids that share a name are the same id. *)
Definition compatible (ks : list vid) : Prop :=
  forall a b, In a ks -> In b ks -> id_name a = id_name b -> a = b.

(** Well-formed contents. *)
Definition fields_ok (M : box) (L : list (vid * field)) : Prop :=
  NoDup (map id_name (ids L)) /\ Forall (id_fits M) (ids L).

(** Field stored under an id. *)
Fixpoint field_get (L : list (vid * field)) (k : vid) : option field :=
  match L with
  | [] => None
  | (k', u) :: L' => if String.eqb (id_name k') (id_name k) then Some u else field_get L' k
  end.
(** The field stored under an id; zero if there is none. *)
Definition field_or_zero (L : list (vid * field)) (k : vid) : field :=
  match field_get L k with Some u => u | None => fun _ => f0 end.

(** Contents after storing [u] under [k]: replaced in place, or appended. *)
Fixpoint field_set (L : list (vid * field)) (k : vid) (u : field) : list (vid * field) :=
  match L with
  | [] => [(k, u)]
  | (k', u') :: L' =>
      if String.eqb (id_name k') (id_name k) then (k', u) :: L' else (k', u') :: field_set L' k u
  end.

(** Everything but the variables is the same. *)
Definition same_run (m m' : mgr F) : Prop :=
  mg_grid m' = mg_grid m /\ mg_dt m' = mg_dt m /\ mg_time m' = mg_time m.

(** Equal in every cell of a variable, ghost cells included. *)
Definition on_cells (M : box) (k : vid) (u v : field) : Prop :=
  forall c, in_box (grow 2 M ++ comp_box k) c -> u c = v c.

(** Contents after exchanging the fields of two ids. *)
Definition swap_fields (L : list (vid * field)) (p : vid * vid) : list (vid * field) :=
  field_set (field_set L (fst p) (field_or_zero L (snd p))) (snd p) (field_or_zero L (fst p)).

End MgrSpec.
Arguments field F : clear implicits.

(** A list of pairs written as one list. *)
Fixpoint flat (ps : list (vid * vid)) : list vid :=
  match ps with [] => [] | (a, b) :: ps' => a :: b :: flat ps' end.
