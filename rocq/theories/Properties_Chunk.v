(** * Properties of data chunks and ghost layers (C14, C16). *)
From Coq Require Import ZArith List String Lia Bool.
From Verif Require Import Base BaseFacts BoxSpec BoxFacts Range RangeSpec RangeFacts Indexer Interface
  InterfaceFacts ApiSpec ApiFacts Arith ArithFloat Chunk FieldSpec FieldFacts ChunkFacts.
Import ListNotations.
Open Scope Z_scope.

(** ** C14 for data chunks *)

(** Assigning a data chunk to another object, in whatever state that object is,
    makes ranges and elements equal to the source. *)
Theorem C14_chunk_assign : forall F (A : Arith F) (src c : chunk F) Mb D u fuel, shape Mb D 0 ->
  datachunk_holds src Mb D u -> prod_len (Mb ++ D) <= Z.of_nat fuel ->
  exists c', chunk_assign fuel src c = Done c' /\ datachunk_holds c' Mb D u.
Proof. exact @api_chunk_assign. Qed.
Print Assumptions C14_chunk_assign.

(** The same for chunks with ghost layers, strips included. *)
Theorem C14_extended_assign : forall F (A : Arith F) (src e : echunk F) M D g u fuel, shape M D g ->
  chunk_holds src M D g u -> prod_len (grow g M ++ D) <= Z.of_nat fuel ->
  exists e', echunk_assign fuel src e = Done e' /\ chunk_holds e' M D g u.
Proof. exact @api_echunk_assign. Qed.
Print Assumptions C14_extended_assign.

Definition dbl (z : Z) := sf_of_Z z.
Definition nums (n : nat) : list SpecFloat.spec_float := map (fun k => dbl (Z.of_nat k)) (seq 0 n).

Example C14_chunk_assign_ex :
  let src := mkChunk (mkIface (range_of [(-1, 2); (0, 2)]) (nums 6)) (range_of [(-1, 2)]) (range_of [(0, 2)]) in
  let old := mkChunk (mkIface (range_of [(7, 8)]) [dbl 50]) (range_of [(7, 8)]) (range_of []) in
  chunk_assign 6 src old = Done src.
Proof. vmr. Qed.

(** Refuted: copy construction of a data chunk keeps the ranges but every
    element of the copy is zero. *)
Theorem C14_chunk_copy_refuted : forall F (A : Arith F) (src : chunk F) Mb D u, shape Mb D 0 ->
  datachunk_holds src Mb D u ->
  exists c', chunk_copy src = Done c' /\ datachunk_holds c' Mb D (fun _ => f0).
Proof. exact @api_chunk_copy. Qed.
Print Assumptions C14_chunk_copy_refuted.

Example C14_chunk_copy_refuted_ex :
  chunk_copy (mkChunk (mkIface (range_of [(0, 2); (0, 1)]) [dbl 4; dbl 5]) (range_of [(0, 2)]) (range_of [(0, 1)])) =
  Done (mkChunk (mkIface (range_of [(0, 2); (0, 1)]) [dbl 0; dbl 0]) (range_of [(0, 2)]) (range_of [(0, 1)])).
Proof. vmr. Qed.

(** Refuted: assigning a data chunk with a mesh to itself is undefined
    behaviour. *)
Theorem C14_chunk_self_assign_refuted : forall F (A : Arith F) (c : chunk F), 0 < r_nd (ck_mesh c) ->
  chunk_assign_self c = Undef InvalidPointer.
Proof.
  intros F A c H. unfold chunk_assign_self, range_self_assign, range_setup.
  destruct (Z.ltb_spec 0 (r_nd (ck_mesh c))); [|lia]. reflexivity.
Qed.
Print Assumptions C14_chunk_self_assign_refuted.

Example C14_chunk_self_assign_refuted_ex :
  chunk_assign_self (mkChunk (mkIface (range_of [(0, 2)]) [dbl 4; dbl 5]) (range_of [(0, 2)]) (range_of [])) =
  Undef InvalidPointer.
Proof. vmr. Qed.

(** ** C16 *)

(** Resizing any chunk object to mesh [M], components [D] and [g] ghost layers
    gives a chunk covering [M] grown by [g], with the strips of [chunk_holds]. *)
Theorem C16_resize : forall F (A : Arith F) (e : echunk F) mesh comp M D g, shape M D g ->
  observes mesh M -> observes comp D ->
  exists e' u, echunk_resize e mesh comp g = Done e' /\ chunk_holds e' M D g u.
Proof. exact @api_echunk_resize. Qed.
Print Assumptions C16_resize.

(** A fresh chunk holds zeros. *)
Theorem C16_fresh : forall F (A : Arith F) mesh comp M D g, shape M D g ->
  observes mesh M -> observes comp D ->
  exists e', echunk_resize (echunk_default (F := F)) mesh comp g = Done e' /\ chunk_holds e' M D g (fun _ => f0).
Proof. exact @api_echunk_fresh. Qed.
Print Assumptions C16_fresh.

(** The strips named by [chunk_holds] have equal volume, lie in the chunk, the
    external ones are disjoint from the interior and from the strips of other
    dimensions, the internal ones lie in the interior if it is [g] cells wide. *)
Theorem C16_strips : forall M D g d, shape M D g -> (d < List.length M)%nat ->
  let le := slab M D d (lo M d - g) (lo M d) in
  let li := slab M D d (lo M d) (lo M d + g) in
  let ui := slab M D d (hi M d - g) (hi M d) in
  let ue := slab M D d (hi M d) (hi M d + g) in
  (prod_len le = prod_len li /\ prod_len li = prod_len ui /\ prod_len ui = prod_len ue) /\
  (box_incl le (grow g M ++ D) /\ box_incl li (grow g M ++ D) /\
   box_incl ui (grow g M ++ D) /\ box_incl ue (grow g M ++ D)) /\
  (disjoint le (interior M D) /\ disjoint ue (interior M D) /\ disjoint le ue) /\
  (g <= hi M d - lo M d -> box_incl li (interior M D) /\ box_incl ui (interior M D)) /\
  (forall e l u, (e < List.length M)%nat -> e <> d ->
     disjoint le (slab M D e l u) /\ disjoint ue (slab M D e l u)).
Proof. exact api_strip_geometry. Qed.
Print Assumptions C16_strips.

(** The cells of a strip. *)
Theorem C16_strip_cells : forall M D d l u c, (d < List.length M)%nat ->
  (in_box (slab M D d l u) c <->
   List.length c = List.length (M ++ D) /\ l <= nth d c 0 < u /\
   forall e, e <> d -> (e < List.length (M ++ D))%nat -> lo (M ++ D) e <= nth e c 0 < hi (M ++ D) e).
Proof. exact in_slab_iff. Qed.
Print Assumptions C16_strip_cells.

Example C16_ex :
  shape [(0, 4); (10, 13)] [(0, 1); (0, 5)] 2 /\
  exists e, echunk_resize (echunk_default (F := SpecFloat.spec_float)) (range_of [(0, 4); (10, 13)]) (range_of [(0, 1); (0, 5)]) 2 = Done e /\
    if_range (ec_if e) = range_of [(-2, 6); (8, 15); (0, 1); (0, 5)] /\
    List.length (if_data (ec_if e)) = 280%nat /\
    ec_low_ext e = [range_of [(-2, 0); (10, 13); (0, 1); (0, 5)]; range_of [(0, 4); (8, 10); (0, 1); (0, 5)]] /\
    ec_up_int e = [range_of [(2, 4); (10, 13); (0, 1); (0, 5)]; range_of [(0, 4); (11, 13); (0, 1); (0, 5)]].
Proof.
  split; [apply shapeb_ok; vm_compute; reflexivity|]. eexists. split; [vm_compute; reflexivity|]. splits; vm_compute; reflexivity.
Qed.
