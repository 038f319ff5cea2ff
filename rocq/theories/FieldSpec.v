(** * FieldSpec: specification vocabulary for data chunks with ghost layers. *)
From Coq Require Import ZArith List String Bool.
From Verif Require Import Base BoxSpec Range RangeSpec Indexer Interface ApiSpec Chunk.
Import ListNotations.
Open Scope Z_scope.

(** The container covers the box [b] and the element of each cell [c] is [u c]. *)
Definition holds {T} (i : iface T) (b : box) (u : list Z -> T) : Prop :=
  container i b /\ forall c, in_box b c -> iface_elem i c = Ok (u c).

(** A mesh box grown by [g] layers on every side. *)
Definition grow (g : Z) (M : box) : box := map (fun iv => (fst iv - g, snd iv + g)) M.

(** The bounds of dimension [d] of a box. *)
Definition lo (M : box) (d : nat) : Z := fst (nth d M (0, 0)).
Definition hi (M : box) (d : nat) : Z := snd (nth d M (0, 0)).

(** The box of all interior cells and components, and that box with the
    interval of mesh dimension [d] replaced. *)
Definition interior (M D : box) : box := M ++ D.
Definition slab (M D : box) (d : nat) (l u : Z) : box := upd (M ++ D) d (l, u).

(** Shapes a chunk can have: non-empty mesh and components; bounds, volume and
    the number of dimensions are ints, ghost layers included. *)
Definition shape (M D : box) (g : Z) : Prop :=
  M <> [] /\ nonempty M /\ nonempty D /\ 0 <= g /\
  prod_len (grow g M ++ D) <= int_max /\ int_bounds (grow g M ++ D) /\
  Z.of_nat (List.length (M ++ D)) < int_max.

(** What the strips of a chunk must be. *)
Definition strips_are (l : list range) (M D : box) (f : nat -> Z * Z) : Prop :=
  List.length l = List.length M /\
  forall d r, nth_error l d = Some r -> observes r (slab M D d (fst (f d)) (snd (f d))).

(** An extended_datachunk for mesh [M], components [D] and [g] ghost layers whose
    elements are given by [u]. *)
Definition chunk_holds {F} (e : echunk F) (M D : box) (g : Z) (u : list Z -> F) : Prop :=
  holds (ec_if e) (grow g M ++ D) u /\
  observes (ck_mesh (ec_chunk e)) (grow g M) /\ observes (ck_comp (ec_chunk e)) D /\
  ec_g e = g /\ observes (ec_internal e) (interior M D) /\
  strips_are (ec_low_ext e) M D (fun d => (lo M d - g, lo M d)) /\
  strips_are (ec_low_int e) M D (fun d => (lo M d, lo M d + g)) /\
  strips_are (ec_up_int e) M D (fun d => (hi M d - g, hi M d)) /\
  strips_are (ec_up_ext e) M D (fun d => (hi M d, hi M d + g)).

(** A datachunk covering mesh box [Mb] and components [D] with elements [u]. *)
Definition datachunk_holds {F} (c : chunk F) (Mb D : box) (u : list Z -> F) : Prop :=
  holds (ck_if c) (Mb ++ D) u /\ observes (ck_mesh c) Mb /\ observes (ck_comp c) D.

(** No common cell. *)
Definition disjoint (a b : box) : Prop := forall c, in_box a c -> in_box b c -> False.
