(** * SourceSpec: the Lorentz force on a fluid and the current of fluids. *)
From Coq Require Import ZArith List Reals.
From Verif Require Import Base BoxSpec Arith Range Indexer Interface Chunk FieldSpec VarId Manager MgrSpec EulerSpec.
Import ListNotations.
Open Scope Z_scope.

Section SourceSpec.
Context {F : Type} {A : Arith F}.

(** Rate of change of component [j] of a fluid with state [q] (density, three
    momenta, energy) and charge to mass ratio [com] in the electromagnetic field
    [e] (E, then B), with the operations in the order of the code. *)
Definition lorentz_rate (com : F) (q e : Z -> F) (j : Z) : option F :=
  (match j with
   | 1 => Some (com * (q 0%Z * e 0%Z + q 2%Z * e 5%Z - q 3%Z * e 4%Z))
   | 2 => Some (com * (q 0%Z * e 1%Z + q 3%Z * e 3%Z - q 1%Z * e 5%Z))
   | 3 => Some (com * (q 0%Z * e 2%Z + q 1%Z * e 4%Z - q 2%Z * e 3%Z))
   | 4 => Some (com * (q 1%Z * e 0%Z + q 2%Z * e 1%Z + q 3%Z * e 2%Z))
   | _ => None
   end)%F.

(** [r'] is [r] with [rate x j] added to component [j] of every interior cell [x]
    for which there is a rate; every other element, also in ghost cells, is the
    same. *)
Definition rates_added (M : box) (k : vid) (rate : list Z -> Z -> option F) (r r' : field F) : Prop :=
  forall x j, in_box (grow 2 M ++ comp_box k) (x ++ [j]) ->
    (in_box (M ++ [(0, bs_points (id_basis k))]) x ->
       r' (x ++ [j]) = match rate x j with Some f => fadd (r (x ++ [j])) f | None => r (x ++ [j]) end) /\
    (~ in_box (M ++ [(0, bs_points (id_basis k))]) x -> r' (x ++ [j]) = r (x ++ [j])).

(** From [m] to [m'] the variable [r] received the rates; every other variable
    is the same. *)
Definition source_added (m m' : mgr F) (M : box) (L L' : list (vid * field F)) (r : vid) (R : field F -> field F -> Prop) : Prop :=
  mgr_holds m' M L' /\ fields_ok M L' /\ same_run m m' /\ incl (ids L') (ids L ++ [r]) /\
  (forall k, id_name k <> id_name r -> field_get L' k = field_get L k) /\
  exists v, field_get L' r = Some v /\ R (field_or_zero L r) v.

(** Variables with at least [n] components and as many points per cell as [r];
    fuel for every cell. *)
Definition source_ready (m : mgr F) (M : box) (L : list (vid * field F)) (ks : list vid) (fuel : nat) : Prop :=
  mgr_holds m M L /\ fields_ok M L /\ compatible (ids L ++ ks) /\ Forall (id_fits M) ks /\
  Forall (fun k => prod_len (grow 2 M ++ comp_box k) <= Z.of_nat fuel) ks.
Definition has_comps (k : vid) (n : nat) (r : vid) : Prop :=
  bs_points (id_basis k) = bs_points (id_basis r) /\ (n <= List.length (id_comps k))%nat.

(** The current of several fluids: [mult * momentum] of one after the other
    added to [acc]. *)
Fixpoint current (acc : F) (ms : list F) (us : list (field F)) (c : list Z) : F :=
  match ms, us with
  | mult :: ms', u :: us' => current (fadd acc (fmul mult (u c))) ms' us' c
  | _, _ => acc
  end.


(** [r'] is [r] with the current added to the first three components of every
    interior cell: component [j] receives the momentum components [j + 1]. *)
Definition current_added (M : box) (k : vid) (ms : list F) (us : list (field F)) (r r' : field F) : Prop :=
  forall x j, in_box (grow 2 M ++ comp_box k) (x ++ [j]) ->
    (in_box (M ++ [(0, bs_points (id_basis k))]) x -> (j < 3)%Z ->
       r' (x ++ [j]) = current (r (x ++ [j])) ms us (x ++ [j + 1])) /\
    (~ in_box (M ++ [(0, bs_points (id_basis k))]) x \/ (3 <= j)%Z -> r' (x ++ [j]) = r (x ++ [j])).

End SourceSpec.

Open Scope R_scope.
(** Cross product. *)
Definition cross (a b : nat -> R) (k : nat) : R :=
  levi k 0 1 * a 0%nat * b 1%nat + levi k 1 0 * a 1%nat * b 0%nat + levi k 0 2 * a 0%nat * b 2%nat +
  levi k 2 0 * a 2%nat * b 0%nat + levi k 1 2 * a 1%nat * b 2%nat + levi k 2 1 * a 2%nat * b 1%nat.
(** Scalar product. *)
Definition dot (a b : nat -> R) : R := a 0%nat * b 0%nat + a 1%nat * b 1%nat + a 2%nat * b 2%nat.

(** A charged fluid: charge, mass, its variable and the variable of its
    right-hand side. *)
Record species : Type := mkSpecies { sp_charge : R; sp_mass : R; sp_fluid : vid; sp_rhs : vid }.
(** Sum over a list. *)
Definition rsum {X} (f : X -> R) (l : list X) : R := fold_right Rplus 0 (map f l).
