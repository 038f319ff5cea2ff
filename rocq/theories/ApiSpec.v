(** * ApiSpec: specification vocabulary for indexers and containers, in terms of
    the calls a client makes. *)
From Coq Require Import ZArith List String Bool.
From Verif Require Import Base BoxSpec Range RangeSpec Indexer Interface.
Import ListNotations.
Open Scope Z_scope.

(** The loop [for(indexer i = ...; i.exists(); i.next())] that records
    (coordinates, linear index) of every visited cell. *)
Definition trace (fuel : nat) (ix : indexer) : out (list (list Z * Z)) :=
  for_indexer fuel ix (fun ix l => Done (l ++ [(ix_idx ix, ix_lin ix)])) [].

(** Steps a client can make with an indexer. *)
Inductive ix_op : Type :=
| IxNext
| IxInc (dim : Z)
| IxDec (dim : Z).
Definition ix_step (ix : indexer) (o : ix_op) : res indexer :=
  match o with
  | IxNext => indexer_next ix
  | IxInc d => indexer_increment ix d
  | IxDec d => indexer_decrement ix d
  end.
Fixpoint ix_steps (ix : indexer) (os : list ix_op) : res indexer :=
  match os with
  | [] => Ok ix
  | o :: os' => ix' <- ix_step ix o ;; ix_steps ix' os'
  end.

(** n calls of next(). *)
Definition nexts (n : nat) (ix : indexer) : res indexer := ix_steps ix (repeat IxNext n).

(** [ix] is an indexer a client got from r.indexer(sub) by calls of next(), and
    it exists and stands at cell [c]. *)
Definition points (r : range) (ix : indexer) (c : list Z) : Prop :=
  exists sub bs ix0 n, observes sub bs /\ nonempty bs /\
    indexer_make sub r = Ok ix0 /\ nexts n ix0 = Ok ix /\
    ix_ex ix = true /\ ix_idx ix = c.

(** A container standing for box [b]: what its range observes, and one stored
    element per cell. *)
Definition container {T} (i : iface T) (b : box) : Prop :=
  observes (if_range i) b /\ Z.of_nat (List.length (if_data i)) = prod_len b.

(** One write through either interface. *)
Inductive write (T : Type) : Type :=
| WCoord (c : list Z) (v : T)              (* *data(c) = v *)
| WIx (ix : indexer) (c : list Z) (v : T). (* container[ix] = v, ix at c *)
Arguments WCoord {T} _ _.
Arguments WIx {T} _ _ _.
Definition w_cell {T} (w : write T) : list Z :=
  match w with WCoord c _ => c | WIx _ c _ => c end.
Definition w_val {T} (w : write T) : T :=
  match w with WCoord _ v => v | WIx _ _ v => v end.
Definition w_ok {T} (r : range) (b : box) (w : write T) : Prop :=
  match w with
  | WCoord c _ => in_box b c
  | WIx ix c _ => points r ix c
  end.
Definition do_write {T} (i : iface T) (w : write T) : res (iface T) :=
  match w with
  | WCoord c v => iface_store i c v
  | WIx ix _ v => iface_put i ix v
  end.
Fixpoint do_writes {T} (i : iface T) (ws : list (write T)) : res (iface T) :=
  match ws with
  | [] => Ok i
  | w :: ws' => i' <- do_write i w ;; do_writes i' ws'
  end.

(** The value of cell [c] after the writes, given its value before. *)
Definition after_writes {T} (ws : list (write T)) (c : list Z) (v0 : T) : T :=
  fold_left (fun v w => if list_eq_dec Z.eq_dec (w_cell w) c then w_val w else v) ws v0.

(** The k-th cell of [bt] of the target after the copy is the k-th cell of
    [bf] of the source before the copy; other cells are as before. *)
Definition copied {T} (src : iface T) (bf : box) (i i' : iface T) (b bt : box) : Prop :=
  if_range i' = if_range i /\ container i' b /\
  (forall k cs cd, nth_error (cells bf) k = Some cs -> nth_error (cells bt) k = Some cd ->
     iface_elem i' cd = iface_elem src cs) /\
  (forall c, in_box b c -> ~ in_box bt c -> iface_elem i' c = iface_elem i c).
