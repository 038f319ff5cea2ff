(** * Properties of ranges (C01, C02, C03, C07, C08). *)
From Coq Require Import ZArith List String Lia Bool.
From Verif Require Import Base BaseFacts BoxSpec BoxFacts Range RangeSpec RangeFacts
  Indexer IndexerFacts ApiSpec ApiFacts.
Import ListNotations.
Open Scope Z_scope.

(** ** C01 *)

(** Any history of calls whose effects are described by [box_steps] succeeds and
    leaves a range that observes exactly the described box. *)
Theorem C01_range_history : forall os b, box_steps [] os b ->
  exists r, run_ops range_empty os = Ok r /\ observes r b.
Proof. exact api_history_ok. Qed.
Print Assumptions C01_range_history.

Example C01_range_history_ex : exists r,
  run_ops range_empty [OpExtrude 0 4; OpExtrude 2 5; OpExpand 0 (-2) 2; OpShift 1 10; OpSet 0 1 7] = Ok r /\
  observes r [(1, 7); (12, 15)] /\ range_stride r 0 = Ok 3 /\ range_volume r = Ok 18.
Proof.
  destruct (C01_range_history
    [OpExtrude 0 4; OpExtrude 2 5; OpExpand 0 (-2) 2; OpShift 1 10; OpSet 0 1 7] [(1, 7); (12, 15)])
    as (r & E & O).
  - eapply sts_cons. { apply st_extrude; [unfold is_int, int_min, int_max; simpl; lia|simpl; auto]. }
    eapply sts_cons. { apply st_extrude; [unfold is_int, int_min, int_max; simpl; lia|].
      simpl; unfold is_int, int_min, int_max; simpl; lia. }
    eapply sts_cons. { apply (st_expand [] 0 4 [(2, 5)]); simpl; unfold is_int, int_min, int_max; lia. }
    eapply sts_cons. { apply (st_shift [(0 + -2, 4 + 2)] 2 5 []); simpl; unfold is_int, int_min, int_max; lia. }
    eapply sts_cons. { apply (st_set [] (0 + -2) (4 + 2) [(2 + 10, 5 + 10)] 1 7); simpl; unfold is_int, int_min, int_max; lia. }
    apply sts_nil.
  - exists r. split; [exact E|]. split; [exact O|].
    vm_compute in E. inversion E; subst. split; reflexivity.
Qed.

(** Every other history is undefined behaviour: no call throws and no call
    silently produces another range. *)
Theorem C01_range_history_total : forall os, Forall op_src_ok os ->
  (exists b, box_steps [] os b) \/ is_ub (run_ops range_empty os).
Proof. exact api_history_total. Qed.
Print Assumptions C01_range_history_total.

Example C01_range_history_total_ex :
  run_ops range_empty [OpExtrude 0 65536; OpExtrude 0 65536; OpExtrude 0 1] = Ok (mkRange 3 [0;0;0] [65536;65536;1] [65536;1;1]) /\
  run_ops range_empty [OpExtrude 0 1; OpExtrude 0 65536; OpExtrude 0 65536] = UB IntOverflow.
Proof. split; vmr. Qed.

(** volume() is the product of the lengths whenever it is representable. *)
Theorem C01_range_volume : forall r b, observes r b -> fit b -> range_volume r = Ok (box_volume b).
Proof. exact api_volume. Qed.
Print Assumptions C01_range_volume.

Example C01_range_volume_ex : range_volume (range_of [(-2, 6); (0, 1); (3, 8)]) = Ok 40.
Proof. vmr. Qed.

Lemma setup_more : forall b xs ys, range_setup (Z.of_nat (List.length b)) (Some (map fst b ++ xs)) (Some (map snd b ++ ys)) =
  range_setup (Z.of_nat (List.length b)) (Some (map fst b)) (Some (map snd b)).
Proof.
  intros b xs ys. unfold range_setup. rewrite !(read_n_app _ _ (Z.of_nat (List.length b))) by (now rewrite map_length).
  rewrite !read_n_exact by (now rewrite map_length). reflexivity.
Qed.

(** The constructors: the bounds are the first elements of the arrays, the lower
    bounds are 0 if only one array is given. *)
Theorem C01_constructors : forall b xs ys,
  (strides_fit b -> exists r, range_make (Z.of_nat (List.length b)) (map fst b ++ xs) (map snd b ++ ys) = Ok r /\ observes r b) /\
  (~ strides_fit b -> is_ub (range_make (Z.of_nat (List.length b)) (map fst b ++ xs) (map snd b ++ ys))).
Proof.
  intros b xs ys. unfold range_make. rewrite setup_more. destruct (setup_cases b) as [[HF E]|[HF E]]; rewrite E; split; intros H; try contradiction.
  - eexists. split; [reflexivity|]. now apply observes_iff.
  - eexists. reflexivity.
Qed.
Print Assumptions C01_constructors.

Theorem C01_dims : forall dims ys, let b := map (fun d => (0, d)) dims in
  (strides_fit b -> exists r, range_of_dims (Z.of_nat (List.length dims)) (dims ++ ys) = Ok r /\ observes r b) /\
  (~ strides_fit b -> is_ub (range_of_dims (Z.of_nat (List.length dims)) (dims ++ ys))).
Proof.
  intros dims ys b.
  assert (E : range_of_dims (Z.of_nat (List.length dims)) (dims ++ ys) = range_make (Z.of_nat (List.length b)) (map fst b ++ []) (map snd b ++ ys)).
  { unfold range_of_dims, range_make, b. rewrite map_length, app_nil_r, !map_map, map_id. cbn [fst snd].
    destruct (Z.ltb_spec (Z.of_nat (List.length dims)) 0); [lia|]. rewrite Nat2Z.id. f_equal. f_equal.
    clear. induction dims; cbn; congruence. }
  rewrite E. apply C01_constructors.
Qed.
Print Assumptions C01_dims.

(** The default constructor and a number of dimensions below zero. *)
Theorem C01_no_dims : forall nd dims, observes range_empty [] /\ (nd < 0 -> is_ub (range_of_dims nd dims)).
Proof.
  intros nd dims. split; [now apply observes_iff|]. intros H. unfold range_of_dims. destruct (Z.ltb_spec nd 0); [|lia]. eexists. reflexivity.
Qed.
Print Assumptions C01_no_dims.

Example C01_constructors_ex :
  range_make 2 [1; -20; 8] [7; -10; 9] = Ok (mkRange 2 [1; -20] [7; -10] [10; 1]) /\
  range_of_dims 3 [7; 4; 3; 99] = Ok (mkRange 3 [0; 0; 0] [7; 4; 3] [12; 3; 1]) /\
  range_of_dims 3 [1; 65536; 65536] = UB IntOverflow /\ range_of_dims 3 [7; 4] = UB OutOfBounds.
Proof. repeat split. Qed.

(** ** C02 *)

Theorem C02_includes_iff_cells : forall a b ba bb, observes a ba -> observes b bb -> nonempty bb ->
  (range_includes a b = true <->
   List.length ba = List.length bb /\ forall c, in_box bb c -> in_box ba c).
Proof. exact api_includes_cells. Qed.
Print Assumptions C02_includes_iff_cells.

Example C02_includes_iff_cells_ex :
  range_includes (range_of [(0, 4); (0, 4)]) (range_of [(1, 3); (0, 4)]) = true /\
  range_includes (range_of [(0, 4); (0, 4)]) (range_of [(1, 3); (0, 5)]) = false.
Proof. split; reflexivity. Qed.

Theorem C02_includes_refl : forall a ba, observes a ba -> range_includes a a = true.
Proof. exact api_includes_refl. Qed.
Print Assumptions C02_includes_refl.

Theorem C02_includes_trans : forall a b c ba bb bc, observes a ba -> observes b bb -> observes c bc ->
  range_includes a b = true -> range_includes b c = true -> range_includes a c = true.
Proof. exact api_includes_trans. Qed.
Print Assumptions C02_includes_trans.

Theorem C02_includes_antisym : forall a b ba bb, observes a ba -> observes b bb ->
  range_includes a b = true -> range_includes b a = true -> range_eqb a b = true.
Proof. exact api_includes_antisym. Qed.
Print Assumptions C02_includes_antisym.

Theorem C02_includes_dims : forall a b ba bb, observes a ba -> observes b bb ->
  List.length ba <> List.length bb -> range_includes a b = false.
Proof. exact api_includes_dims. Qed.
Print Assumptions C02_includes_dims.

Example C02_order_ex :
  let a := range_of [(0, 9); (0, 9)] in
  let b := range_of [(1, 8); (0, 9)] in
  let c := range_of [(2, 3); (4, 5)] in
  range_includes a a = true /\ range_includes a b = true /\ range_includes b c = true /\
  range_includes a c = true /\ range_includes b a = false /\ range_eqb a b = false /\
  range_includes a (range_of [(2, 3)]) = false.
Proof. repeat split. Qed.

(** ** C03 *)

Theorem C03_equality : forall a b ba bb, observes a ba -> observes b bb ->
  (range_eqb a b = true <-> ba = bb).
Proof. exact api_eqb. Qed.
Print Assumptions C03_equality.

Example C03_equality_ex :
  range_eqb (range_of [(0, 4); (1, 2)]) (range_of [(0, 4); (1, 2)]) = true /\
  range_eqb (range_of [(0, 4); (1, 2)]) (range_of [(0, 4); (1, 3)]) = false.
Proof. split; reflexivity. Qed.

(** != is the negation of ==. *)
Theorem C03_inequality : forall a b ba bb, observes a ba -> observes b bb ->
  (range_neqb a b = true <-> ba <> bb).
Proof.
  intros a b ba bb Ha Hb. pose proof (C03_equality a b ba bb Ha Hb) as E. unfold range_neqb. rewrite negb_true_iff.
  destruct (range_eqb a b); split; intros H; try discriminate; try reflexivity.
  - exfalso. apply H. now apply E.
  - intros X. apply E in X. discriminate.
Qed.
Print Assumptions C03_inequality.

Example C03_inequality_ex :
  range_neqb (range_of [(0, 4); (1, 2)]) (range_of [(0, 4); (1, 2)]) = false /\
  range_neqb (range_of [(0, 4); (1, 2)]) (range_of [(0, 4); (1, 3)]) = true /\
  range_neqb (range_of [(0, 4)]) (range_of [(0, 4); (1, 2)]) = true.
Proof. repeat split. Qed.

Theorem C03_shift : forall r p l u q d s,
  observes r (p ++ (l, u) :: q) -> strides_fit (p ++ (l, u) :: q) -> d = Z.of_nat (List.length p) ->
  is_int (l + s) -> is_int (u + s) ->
  exists r', range_shift r d s = Ok r' /\ observes r' (p ++ (l + s, u + s) :: q) /\
    (forall i, range_length r' i = range_length r i \/ is_ub (range_length r i)) /\
    (forall i, range_stride r' i = range_stride r i) /\ range_volume r' = range_volume r.
Proof. exact api_shift. Qed.
Print Assumptions C03_shift.

Theorem C03_shift_back : forall r p l u q d s r',
  observes r (p ++ (l, u) :: q) -> strides_fit (p ++ (l, u) :: q) -> d = Z.of_nat (List.length p) ->
  is_int l -> is_int u -> is_int (l + s) -> is_int (u + s) ->
  range_shift r d s = Ok r' -> range_shift r' d (- s) = Ok r.
Proof. exact api_shift_back. Qed.
Print Assumptions C03_shift_back.

Example C03_shift_ex : exists r',
  range_shift (range_of [(0, 4); (3, 8); (0, 2)]) 1 7 = Ok r' /\ observes r' [(0, 4); (10, 15); (0, 2)] /\
  range_shift r' 1 (-7) = Ok (range_of [(0, 4); (3, 8); (0, 2)]).
Proof.
  exists (range_of [(0, 4); (10, 15); (0, 2)]). split; [reflexivity|].
  split; [apply observes_range_of|reflexivity].
Qed.

Theorem C03_expand : forall r p l u q d a c,
  observes r (p ++ (l, u) :: q) -> strides_fit (p ++ (l, u) :: q) -> d = Z.of_nat (List.length p) ->
  is_int l -> is_int u -> is_int (l + a) -> is_int (u + c) -> strides_fit (p ++ (l + a, u + c) :: q) ->
  exists r', range_expand r d a c = Ok r' /\ observes r' (p ++ (l + a, u + c) :: q) /\
    range_expand r' d (- a) (- c) = Ok r.
Proof. exact api_expand. Qed.
Print Assumptions C03_expand.

Example C03_expand_ex : exists r',
  range_expand (range_of [(0, 4); (3, 8); (0, 2)]) 1 (-2) 2 = Ok r' /\
  range_length r' 1 = Ok 9 /\ range_length r' 0 = Ok 4 /\
  range_expand r' 1 2 (-2) = Ok (range_of [(0, 4); (3, 8); (0, 2)]).
Proof. eexists. split; [vmr|]. repeat split. Qed.

(** ** C07 *)

(** Refuted: assigning any range of at least one dimension to itself reads
    through pointers into vectors that setup has just cleared. *)
Theorem C07_self_assignment_refuted : forall r b, observes r b -> b <> [] ->
  range_self_assign r = UB InvalidPointer.
Proof. exact api_self_assign. Qed.
Print Assumptions C07_self_assignment_refuted.

Example C07_self_assignment_refuted_ex : range_self_assign (range_of [(0, 4); (1, 3)]) = UB InvalidPointer.
Proof. reflexivity. Qed.

(** The part of C07 that holds: assignment between distinct objects. *)
Theorem C07_assignment_partial : forall r b, observes r b -> strides_fit b -> range_copy r = Ok r.
Proof. exact api_assign. Qed.
Print Assumptions C07_assignment_partial.

Example C07_assignment_partial_ex :
  range_copy (range_of [(0, 4); (1, 3)]) = Ok (range_of [(0, 4); (1, 3)]).
Proof. reflexivity. Qed.

(** ** C08 *)

(** Construction is defined when the strides fit, undefined otherwise. *)
Theorem C08_construction_defined : forall b, strides_fit b ->
  exists r, range_make (Z.of_nat (List.length b)) (map fst b) (map snd b) = Ok r /\ observes r b.
Proof. exact api_make_ok. Qed.
Print Assumptions C08_construction_defined.

Theorem C08_construction_overflow : forall b, ~ strides_fit b ->
  range_make (Z.of_nat (List.length b)) (map fst b) (map snd b) = UB IntOverflow.
Proof. exact api_make_overflow. Qed.
Print Assumptions C08_construction_overflow.

Example C08_construction_ex :
  (exists r, range_make 3 [0; 0; 0] [1290; 1290; 1290] = Ok r /\ range_volume r = Ok 2146689000) /\
  range_make 3 [0; 0; 0] [2; 65536; 65536] = UB IntOverflow.
Proof. split; [eexists; split; vmr|vmr]. Qed.

(** A representable shape never overflows: construction, volume, the indexer
    constructor, the whole traversal (every next) and final_linear_index return
    normally for every included non-empty sub range. *)
Theorem C08_no_overflow : forall b bs fuel,
  valid_box b -> nonempty bs -> box_incl bs b -> prod_len bs <= Z.of_nat fuel ->
  exists r rs ix k,
    range_make (Z.of_nat (List.length b)) (map fst b) (map snd b) = Ok r /\
    range_volume r = Ok (prod_len b) /\
    range_make (Z.of_nat (List.length bs)) (map fst bs) (map snd bs) = Ok rs /\
    indexer_make rs r = Ok ix /\ indexer_final ix = Ok k /\
    trace fuel ix = Done (map (fun c => (c, offset b c)) (cells bs)).
Proof. exact api_no_overflow. Qed.
Print Assumptions C08_no_overflow.

Example C08_no_overflow_ex : exists r rs ix,
  range_make 2 [2147483600; -2147483648] [2147483647; -2147483600] = Ok r /\
  range_make 2 [2147483645; -2147483602] [2147483647; -2147483600] = Ok rs /\
  indexer_make rs r = Ok ix /\ trace 4 ix = Done
    [([2147483645; -2147483602], 2206); ([2147483645; -2147483601], 2207);
     ([2147483646; -2147483602], 2254); ([2147483646; -2147483601], 2255)].
Proof. repeat eexists; vmr. Qed.
