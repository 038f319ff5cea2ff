(** * RangeFacts: proofs about the range model. *)
From Coq Require Import ZArith List String Lia Bool.
From Verif Require Import Base BaseFacts BoxSpec BoxFacts Range RangeSpec.
Import ListNotations.
Open Scope Z_scope.

Fixpoint box_strides (b : box) : list Z :=
  match b with
  | [] => []
  | _ :: b' => prod_len b' :: box_strides b'
  end.

(** The range object standing for a box. *)
Definition range_of (b : box) : range :=
  mkRange (Z.of_nat (List.length b)) (map fst b) (map snd b) (box_strides b).

(** The volume computation stays in int. *)
Definition vol_fit (b : box) : Prop :=
  match b with
  | [] => True
  | (l, u) :: _ => is_int (u - l) /\ is_int (prod_len b)
  end.

Definition fit (b : box) : Prop := strides_fit b /\ vol_fit b.

Lemma strides_fit_cons : forall iv b, strides_fit (iv :: b) <-> fit b.
Proof. intros iv b. unfold fit, vol_fit. destruct b as [|[l u] b]; simpl; tauto. Qed.

Lemma is_int_dec : forall z, {is_int z} + {~ is_int z}.
Proof.
  intros z. destruct (is_intb z) eqn:E.
  - left. now apply is_intb_spec.
  - right. intros H. apply is_intb_spec in H. congruence.
Qed.

Lemma strides_cases : forall b,
  (strides_fit b /\ strides (map fst b) (map snd b) = Ok (box_strides b)) \/
  (~ strides_fit b /\ strides (map fst b) (map snd b) = UB IntOverflow).
Proof.
  induction b as [|[l u] b IH]; [left; split; [exact I|reflexivity]|].
  destruct b as [|[l1 u1] b].
  - left. split; [simpl; tauto|reflexivity].
  - cbn [map fst snd] in *.
    change (strides (l :: l1 :: map fst b) (u :: u1 :: map snd b)) with
      (st <- strides (l1 :: map fst b) (u1 :: map snd b) ;;
       match st with
       | s1 :: _ => len <- isub u1 l1 ;; s <- imul s1 len ;; Ok (s :: st)
       | [] => UB OutOfBounds
       end).
    rewrite strides_fit_cons. unfold fit, vol_fit.
    destruct IH as [[F E]|[F E]]; rewrite E.
    + cbn [bind box_strides].
      destruct (is_int_dec (u1 - l1)) as [H1|H1].
      * rewrite isub_ok by assumption. cbn [bind].
        replace (prod_len ((l1, u1) :: b)) with (prod_len b * (u1 - l1)) by (simpl; ring).
        destruct (is_int_dec (prod_len b * (u1 - l1))) as [H2|H2].
        -- left. rewrite imul_ok by assumption. cbn [bind]. auto.
        -- right. split; [tauto|]. unfold imul. now rewrite chk_ub.
      * right. split; [tauto|]. unfold isub. now rewrite chk_ub.
    + right. split; [tauto|reflexivity].
Qed.

Lemma strides_ok : forall b, strides_fit b -> strides (map fst b) (map snd b) = Ok (box_strides b).
Proof. intros b H. destruct (strides_cases b) as [[_ E]|[N _]]; [exact E|contradiction]. Qed.

Lemma strides_fit_dec : forall b, strides_fit b \/ ~ strides_fit b.
Proof. intros b. destruct (strides_cases b) as [[F _]|[F _]]; auto. Qed.

Lemma read_n_app : forall a b n, n = Z.of_nat (List.length a) ->
  read_n (Some (a ++ b)) n = Ok a.
Proof.
  intros a b n ->. unfold read_n. rewrite app_length.
  destruct (Z.ltb_spec (Z.of_nat (List.length a + List.length b)) (Z.of_nat (List.length a))); [lia|].
  rewrite Nat2Z.id. rewrite firstn_app, Nat.sub_diag, firstn_all. simpl. now rewrite app_nil_r.
Qed.

Lemma read_n_exact : forall a n, n = Z.of_nat (List.length a) -> read_n (Some a) n = Ok a.
Proof. intros a n H. rewrite <- (app_nil_r a) at 1. now apply read_n_app. Qed.

Lemma setup_cases : forall b,
  (strides_fit b /\
   range_setup (Z.of_nat (List.length b)) (Some (map fst b)) (Some (map snd b)) = Ok (range_of b)) \/
  (~ strides_fit b /\
   range_setup (Z.of_nat (List.length b)) (Some (map fst b)) (Some (map snd b)) = UB IntOverflow).
Proof.
  intros b. destruct b as [|iv b].
  - left. split; [exact I|reflexivity].
  - unfold range_setup.
    destruct (Z.ltb_spec 0 (Z.of_nat (List.length (iv :: b)))); [|simpl in *; lia].
    rewrite !read_n_exact by (now rewrite map_length). cbn [bind].
    destruct (strides_cases (iv :: b)) as [[F E]|[F E]]; rewrite E; cbn [bind]; auto.
Qed.

Lemma setup_ok : forall b, strides_fit b ->
  range_setup (Z.of_nat (List.length b)) (Some (map fst b)) (Some (map snd b)) = Ok (range_of b).
Proof. intros b H. destruct (setup_cases b) as [[_ E]|[N _]]; [exact E|contradiction]. Qed.

Lemma range_copy_of : forall b, strides_fit b -> range_copy (range_of b) = Ok (range_of b).
Proof. intros. unfold range_copy. simpl r_nd. simpl r_lower. simpl r_upper. now apply setup_ok. Qed.

(** ** accessors *)

Lemma nth_error_box_strides : forall b i,
  nth_error (box_strides b) i = match nth_error b i with Some _ => Some (prod_len (skipn (S i) b)) | None => None end.
Proof.
  induction b as [|iv b IH]; intros [|i]; simpl; auto.
  rewrite IH. destruct (nth_error b i); auto.
Qed.

Lemma box_strides_length : forall b, List.length (box_strides b) = List.length b.
Proof. induction b; simpl; auto. Qed.

Lemma range_lower_of : forall b i l u, nth_error b i = Some (l, u) -> range_lower (range_of b) (Z.of_nat i) = Ok l.
Proof.
  intros. apply vget_ok; [lia|]. rewrite Nat2Z.id. simpl. now rewrite nth_error_map, H.
Qed.
Lemma range_upper_of : forall b i l u, nth_error b i = Some (l, u) -> range_upper (range_of b) (Z.of_nat i) = Ok u.
Proof.
  intros. apply vget_ok; [lia|]. rewrite Nat2Z.id. simpl. now rewrite nth_error_map, H.
Qed.
Lemma range_stride_of : forall b i iv, nth_error b i = Some iv ->
  range_stride (range_of b) (Z.of_nat i) = Ok (prod_len (skipn (S i) b)).
Proof.
  intros. apply vget_ok; [lia|]. rewrite Nat2Z.id. simpl r_stride. now rewrite nth_error_box_strides, H.
Qed.
Lemma range_length_of : forall b i l u, nth_error b i = Some (l, u) ->
  range_length (range_of b) (Z.of_nat i) = isub u l.
Proof.
  intros. unfold range_length.
  fold (range_upper (range_of b) (Z.of_nat i)). rewrite (range_upper_of _ _ _ _ H). cbn [bind].
  fold (range_lower (range_of b) (Z.of_nat i)). now rewrite (range_lower_of _ _ _ _ H).
Qed.

Lemma range_volume_of : forall b,
  range_volume (range_of b) =
  match b with
  | [] => Ok 0
  | (l, u) :: b' => n <- isub u l ;; imul (prod_len b') n
  end.
Proof.
  intros [|[l u] b]; [reflexivity|]. unfold range_volume. simpl r_nd.
  destruct (Z.eqb_spec (Z.of_nat (S (List.length b))) 0); [lia|].
  reflexivity.
Qed.

Lemma range_volume_fit : forall b, vol_fit b -> range_volume (range_of b) = Ok (box_volume b).
Proof.
  intros [|[l u] b] H; [reflexivity|]. rewrite range_volume_of.
  destruct H as [H1 H2]. rewrite isub_ok by assumption. cbn [bind].
  simpl in H2. rewrite Z.mul_comm in H2. rewrite imul_ok by assumption.
  simpl. f_equal. ring.
Qed.

Lemma observes_range_of : forall b, observes (range_of b) b.
Proof.
  intros b. unfold observes. splits.
  - reflexivity.
  - apply range_volume_of.
  - intros i l u H. splits; [eapply range_lower_of|eapply range_upper_of|eapply range_length_of|eapply range_stride_of]; eauto.
  - intros i Hi. unfold range_lower, range_upper, range_stride. simpl.
    splits; apply vget_ub; rewrite ?map_length, ?box_strides_length; lia.
Qed.

Lemma list_ext_vget : forall (l m : list Z),
  (forall i, 0 <= i -> vget l i = vget m i) -> l = m.
Proof.
  intros l m H. apply upd_inj_nth. intros n. specialize (H (Z.of_nat n)).
  rewrite !vget_nth, Nat2Z.id in H by lia. specialize (H ltac:(lia)).
  destruct (nth_error l n), (nth_error m n); congruence.
Qed.

(** The observations determine the object. *)
Lemma observes_inv : forall r b, observes r b -> r = range_of b.
Proof.
  intros [nd lo up st] b (H1 & _ & H3 & H4). unfold range_lower, range_upper, range_stride in *.
  simpl in *. unfold range_of.
  assert (HO : forall i, 0 <= i ->
    vget lo i = vget (map fst b) i /\ vget up i = vget (map snd b) i /\ vget st i = vget (box_strides b) i).
  { intros i Hi. destruct (Z_lt_dec i (Z.of_nat (List.length b))) as [Hl|Hl].
    - destruct (nth_error b (Z.to_nat i)) as [[l u]|] eqn:E.
      + destruct (H3 _ _ _ E) as (A & B & _ & D). rewrite Z2Nat.id in * by lia.
        pose proof (range_lower_of _ _ _ _ E) as A'. pose proof (range_upper_of _ _ _ _ E) as B'.
        pose proof (range_stride_of _ _ _ E) as D'. rewrite Z2Nat.id in * by lia.
        unfold range_lower, range_upper, range_stride in *. simpl in A', B'. simpl r_stride in D'.
        simpl in D. rewrite A, B, D. simpl in D'. rewrite A', B', D'. auto.
      + apply nth_error_None in E. lia.
    - destruct (H4 i) as (A & B & D); [lia|].
      rewrite A, B, D. splits; symmetry; apply vget_ub; rewrite ?map_length, ?box_strides_length; lia. }
  rewrite H1. f_equal; apply list_ext_vget; intros i Hi; apply HO; assumption.
Qed.

Lemma observes_iff : forall r b, observes r b <-> r = range_of b.
Proof. intros. split; [apply observes_inv|]. intros ->. apply observes_range_of. Qed.

Lemma box_eq_maps : forall a b : box, map fst a = map fst b -> map snd a = map snd b -> a = b.
Proof.
  induction a as [|[l u] a IH]; intros [|[l' u'] b] H1 H2; simpl in *; try discriminate; auto.
  inversion H1; inversion H2; subst. f_equal. auto.
Qed.

Lemma range_of_inj : forall a b, range_of a = range_of b -> a = b.
Proof. intros a b H. inversion H. apply box_eq_maps; auto. Qed.

(** ** mutators *)

Lemma map_upd : forall A B (f : A -> B) l n x, map f (upd l n x) = upd (map f l) n (f x).
Proof. induction l; destruct n; simpl; intros; auto. now rewrite IHl. Qed.

Lemma range_set_of : forall p l u q lo up d,
  d = Z.of_nat (List.length p) ->
  range_set (range_of (p ++ (l, u) :: q)) d lo up =
  range_setup (Z.of_nat (List.length (p ++ (lo, up) :: q)))
    (Some (map fst (p ++ (lo, up) :: q))) (Some (map snd (p ++ (lo, up) :: q))).
Proof.
  intros p l u q lo up d ->. unfold range_set. simpl r_nd.
  destruct (Z.ltb_spec (Z.of_nat (List.length (p ++ (l, u) :: q))) 0); [lia|].
  simpl r_lower. simpl r_upper. rewrite !map_app. simpl map.
  rewrite vset_mid by (now rewrite map_length). cbn [bind].
  rewrite vset_mid by (now rewrite map_length). cbn [bind].
  rewrite !app_length. reflexivity.
Qed.

Lemma range_set_ok : forall p l u q lo up d,
  d = Z.of_nat (List.length p) -> strides_fit (p ++ (lo, up) :: q) ->
  range_set (range_of (p ++ (l, u) :: q)) d lo up = Ok (range_of (p ++ (lo, up) :: q)).
Proof. intros. rewrite range_set_of by assumption. now apply setup_ok. Qed.

Lemma split_at : forall A (l : list A) n, 0 <= n < Z.of_nat (List.length l) ->
  exists p x q, l = p ++ x :: q /\ n = Z.of_nat (List.length p).
Proof.
  intros A l n H. destruct (nth_error l (Z.to_nat n)) eqn:E.
  - apply nth_error_split in E as (p & q & -> & Hp). exists p, a, q. split; auto. lia.
  - apply nth_error_None in E. lia.
Qed.

Lemma range_set_bad : forall b d lo up,
  ~ (0 <= d < Z.of_nat (List.length b)) -> range_set (range_of b) d lo up = UB OutOfBounds.
Proof.
  intros. unfold range_set. simpl r_nd.
  destruct (Z.ltb_spec (Z.of_nat (List.length b)) 0); [lia|].
  rewrite vset_ub; [reflexivity|]. simpl. rewrite map_length. lia.
Qed.

Lemma range_lower_mid : forall p l u q d, d = Z.of_nat (List.length p) ->
  vget (r_lower (range_of (p ++ (l, u) :: q))) d = Ok l.
Proof. intros. simpl. rewrite map_app. simpl. apply vget_mid. now rewrite map_length. Qed.
Lemma range_upper_mid : forall p l u q d, d = Z.of_nat (List.length p) ->
  vget (r_upper (range_of (p ++ (l, u) :: q))) d = Ok u.
Proof. intros. simpl. rewrite map_app. simpl. apply vget_mid. now rewrite map_length. Qed.

Lemma range_expand_ok : forall p l u q a c d,
  d = Z.of_nat (List.length p) -> is_int (l + a) -> is_int (u + c) ->
  strides_fit (p ++ (l + a, u + c) :: q) ->
  range_expand (range_of (p ++ (l, u) :: q)) d a c = Ok (range_of (p ++ (l + a, u + c) :: q)).
Proof.
  intros. unfold range_expand.
  rewrite range_lower_mid, range_upper_mid by assumption. cbn [bind].
  rewrite !iadd_ok by assumption. cbn [bind]. now apply range_set_ok.
Qed.

Lemma range_shift_ok : forall p l u q s d,
  d = Z.of_nat (List.length p) -> is_int (l + s) -> is_int (u + s) ->
  strides_fit (p ++ (l + s, u + s) :: q) ->
  range_shift (range_of (p ++ (l, u) :: q)) d s = Ok (range_of (p ++ (l + s, u + s) :: q)).
Proof.
  intros. unfold range_shift.
  rewrite range_lower_mid, range_upper_mid by assumption. cbn [bind].
  rewrite !iadd_ok by assumption. cbn [bind]. now apply range_set_ok.
Qed.

Lemma range_extrude_of : forall b lo up,
  is_int (Z.of_nat (List.length b) + 1) ->
  range_extrude (range_of b) lo up =
  range_setup (Z.of_nat (List.length (b ++ [(lo, up)])))
    (Some (map fst (b ++ [(lo, up)]))) (Some (map snd (b ++ [(lo, up)]))).
Proof.
  intros. unfold range_extrude. simpl r_nd. rewrite iadd_ok by assumption. cbn [bind].
  destruct (Z.ltb_spec (Z.of_nat (List.length b) + 1) 0); [lia|].
  destruct (Z.eqb_spec (Z.of_nat (List.length b) + 1) 0); [lia|].
  rewrite app_length, !map_app. simpl. repeat f_equal. lia.
Qed.

Lemma range_extrude_ok : forall b lo up,
  is_int (Z.of_nat (List.length b) + 1) -> strides_fit (b ++ [(lo, up)]) ->
  range_extrude (range_of b) lo up = Ok (range_of (b ++ [(lo, up)])).
Proof. intros. rewrite range_extrude_of by assumption. now apply setup_ok. Qed.

(** ** histories *)


Lemma bind_ub : forall A B (m : res A) (k : A -> res B), is_ub m -> is_ub (bind m k).
Proof. intros A B m k [u ->]. exists u. reflexivity. Qed.

Lemma setup_mid_cases : forall b,
  (strides_fit b /\
   range_setup (Z.of_nat (List.length b)) (Some (map fst b)) (Some (map snd b)) = Ok (range_of b)) \/
  is_ub (range_setup (Z.of_nat (List.length b)) (Some (map fst b)) (Some (map snd b))).
Proof. intros b. destruct (setup_cases b) as [?|[_ E]]; auto. right. exists IntOverflow. exact E. Qed.

Lemma run_op_cases : forall b o, op_src_ok o ->
  (exists b', box_step b o b' /\ run_op (range_of b) o = Ok (range_of b')) \/
  is_ub (run_op (range_of b) o).
Proof.
  intros b o Ho. destruct o as [lo up|d a c|d s|d lo up|b'|src]; simpl.
  - destruct (is_int_dec (Z.of_nat (List.length b) + 1)) as [H|H].
    + rewrite range_extrude_of by assumption.
      destruct (setup_mid_cases (b ++ [(lo, up)])) as [[F E]|U]; [|now right].
      left. exists (b ++ [(lo, up)]). rewrite E. split; [|reflexivity]. now constructor.
    + right. exists IntOverflow. unfold range_extrude, iadd. simpl r_nd. now rewrite chk_ub.
  - unfold range_expand.
    destruct (Z_lt_dec d 0) as [N|N]; [|destruct (Z_lt_dec d (Z.of_nat (List.length b))) as [L|L]].
    + right. apply bind_ub. exists OutOfBounds. apply vget_ub. lia.
    + destruct (split_at _ b d) as (p & [l u] & q & -> & Hd); [lia|].
      rewrite range_lower_mid, range_upper_mid by assumption. cbn [bind].
      unfold iadd.
      destruct (is_int_dec (l + a)) as [H1|H1];
        [rewrite chk_ok by assumption|rewrite (chk_ub (l + a)) by assumption; right; exists IntOverflow; reflexivity].
      cbn [bind].
      destruct (is_int_dec (u + c)) as [H2|H2];
        [rewrite chk_ok by assumption|rewrite (chk_ub (u + c)) by assumption; right; exists IntOverflow; reflexivity].
      cbn [bind]. rewrite range_set_of by assumption.
      destruct (setup_mid_cases (p ++ (l + a, u + c) :: q)) as [[F E]|U]; [|now right].
      left. eexists. split; [|exact E]. now constructor.
    + right. apply bind_ub. exists OutOfBounds. apply vget_ub. simpl. rewrite map_length. lia.
  - unfold range_shift.
    destruct (Z_lt_dec d 0) as [N|N]; [|destruct (Z_lt_dec d (Z.of_nat (List.length b))) as [L|L]].
    + right. apply bind_ub. exists OutOfBounds. apply vget_ub. lia.
    + destruct (split_at _ b d) as (p & [l u] & q & -> & Hd); [lia|].
      rewrite range_lower_mid, range_upper_mid by assumption. cbn [bind].
      unfold iadd.
      destruct (is_int_dec (l + s)) as [H1|H1];
        [rewrite chk_ok by assumption|rewrite (chk_ub (l + s)) by assumption; right; exists IntOverflow; reflexivity].
      cbn [bind].
      destruct (is_int_dec (u + s)) as [H2|H2];
        [rewrite chk_ok by assumption|rewrite (chk_ub (u + s)) by assumption; right; exists IntOverflow; reflexivity].
      cbn [bind]. rewrite range_set_of by assumption.
      destruct (setup_mid_cases (p ++ (l + s, u + s) :: q)) as [[F E]|U]; [|now right].
      left. eexists. split; [|exact E]. now constructor.
    + right. apply bind_ub. exists OutOfBounds. apply vget_ub. simpl. rewrite map_length. lia.
  - destruct (Z_lt_dec d 0) as [N|N]; [|destruct (Z_lt_dec d (Z.of_nat (List.length b))) as [L|L]].
    + right. exists OutOfBounds. apply range_set_bad. lia.
    + destruct (split_at _ b d) as (p & [l u] & q & -> & Hd); [lia|].
      rewrite range_set_of by assumption.
      destruct (setup_mid_cases (p ++ (lo, up) :: q)) as [[F E]|U]; [|now right].
      left. eexists. split; [|exact E]. now constructor.
    + right. exists OutOfBounds. apply range_set_bad. lia.
  - destruct (setup_mid_cases b') as [[F E]|U]; [|now right].
    left. exists b'. split; [|exact E]. now constructor.
  - destruct Ho as [b' Hb']. pose proof (observes_inv _ _ Hb') as E. subst src.
    destruct (setup_mid_cases b') as [[F E]|U]; [|now right].
    left. exists b'. split; [|exact E]. constructor; auto.
Qed.

Lemma app_mid_inj : forall A (p : list A) x q p' x' q',
  p ++ x :: q = p' ++ x' :: q' -> List.length p = List.length p' -> p = p' /\ x = x' /\ q = q'.
Proof.
  induction p; intros x q [|a' p'] x' q' E L; simpl in *; try discriminate.
  - inversion E; auto.
  - inversion E; subst. destruct (IHp _ _ _ _ _ H1) as (-> & -> & ->); auto.
Qed.

Lemma run_op_ok : forall b o b', box_step b o b' -> run_op (range_of b) o = Ok (range_of b').
Proof.
  intros b o b' H. inversion H; subst; simpl.
  - now apply range_extrude_ok.
  - now apply range_expand_ok.
  - now apply range_shift_ok.
  - now apply range_set_ok.
  - now apply setup_ok.
  - pose proof (observes_inv _ _ H0) as E. subst. now apply range_copy_of.
Qed.

Lemma box_step_det : forall b o b1 b2, box_step b o b1 -> box_step b o b2 -> b1 = b2.
Proof.
  intros b o b1 b2 H1 H2. apply run_op_ok in H1. apply run_op_ok in H2.
  rewrite H1 in H2. inversion H2. apply box_eq_maps; auto.
Qed.

Lemma run_ops_ok : forall os b b', box_steps b os b' -> run_ops (range_of b) os = Ok (range_of b').
Proof.
  induction os; intros b b' H; inversion H; subst; simpl; auto.
  rewrite (run_op_ok _ _ _ H3). cbn [bind]. auto.
Qed.

Lemma run_ops_cases : forall os b, Forall op_src_ok os ->
  (exists b', box_steps b os b' /\ run_ops (range_of b) os = Ok (range_of b')) \/
  is_ub (run_ops (range_of b) os).
Proof.
  induction os as [|o os IH]; intros b H; simpl.
  - left. exists b. split; [constructor|reflexivity].
  - inversion H; subst. destruct (run_op_cases b o H2) as [(b1 & S1 & E1)|U].
    + rewrite E1. cbn [bind]. destruct (IH b1 H3) as [(b2 & S2 & E2)|U].
      * left. exists b2. split; [econstructor; eauto|exact E2].
      * now right.
    + right. now apply bind_ub.
Qed.

(** Every history of calls starting from the empty range. *)
Theorem history_correct : forall os,
  Forall op_src_ok os ->
  (exists b r, box_steps [] os b /\ run_ops range_empty os = Ok r /\ observes r b) \/
  is_ub (run_ops range_empty os).
Proof.
  intros os H. change range_empty with (range_of []).
  destruct (run_ops_cases os [] H) as [(b & S & E)|U]; auto.
  left. exists b, (range_of b). splits; auto. apply observes_range_of.
Qed.

(** ** includes and == *)

Lemma includes_dims_spec : forall a b,
  List.length a = List.length b ->
  (includes_dims (map fst a) (map snd a) (map fst b) (map snd b) = true <-> box_incl b a).
Proof.
  induction a as [|[l u] a IH]; intros [|[l' u'] b] H; simpl in *; try discriminate.
  - split; [constructor|auto].
  - rewrite !andb_true_iff, Z.leb_le, Z.geb_le, IH by lia. split.
    + intros [[A B] C]. constructor; simpl; auto.
    + intros K. inversion K; subst; simpl in *. tauto.
Qed.

Lemma range_includes_of : forall a b,
  range_includes (range_of a) (range_of b) = true <-> box_incl b a.
Proof.
  intros. unfold range_includes. simpl. rewrite andb_true_iff, Z.eqb_eq. split.
  - intros [H1 H2]. apply includes_dims_spec in H2; [auto|lia].
  - intros H. pose proof (box_incl_length _ _ H). split; [lia|]. apply includes_dims_spec; auto.
Qed.

Lemma eq_dims_spec : forall a b,
  List.length a = List.length b ->
  (eq_dims (map fst a) (map snd a) (map fst b) (map snd b) = true <-> a = b).
Proof.
  induction a as [|[l u] a IH]; intros [|[l' u'] b] H; simpl in *; try discriminate.
  - tauto.
  - rewrite !andb_true_iff, !Z.eqb_eq, IH by lia. split.
    + intros (-> & -> & ->). reflexivity.
    + intros K. inversion K. auto.
Qed.

Lemma range_eqb_of : forall a b, range_eqb (range_of a) (range_of b) = true <-> a = b.
Proof.
  intros. unfold range_eqb. simpl. rewrite andb_true_iff, Z.eqb_eq. split.
  - intros [H1 H2]. apply eq_dims_spec in H2; [auto|lia].
  - intros ->. split; [reflexivity|]. now apply eq_dims_spec.
Qed.

(** ** when everything fits *)

Lemma prod_len_factor_le : forall b iv, nonempty b -> In iv b -> snd iv - fst iv <= prod_len b.
Proof.
  induction b as [|[l u] b IH]; intros iv H Hin; [destruct Hin|].
  inversion H; subst; simpl in *. pose proof (prod_len_pos _ H3).
  destruct Hin as [<-|Hin]; simpl.
  - nia.
  - specialize (IH _ H3 Hin). nia.
Qed.

Lemma nonempty_fit : forall b, nonempty b -> prod_len b <= int_max -> fit b.
Proof.
  induction b as [|[l u] b IH]; intros H Hm.
  - split; exact I.
  - inversion H; subst. simpl in H2.
    pose proof (prod_len_pos _ H3) as Hp. simpl in Hm.
    assert (prod_len b <= int_max) by nia.
    split.
    + apply strides_fit_cons. auto.
    + unfold vol_fit, is_int, int_min. cbn [prod_len]. split; nia.
Qed.

Lemma fit_strides : forall b, fit b -> strides_fit b.
Proof. intros b [H _]. exact H. Qed.

Lemma box_volume_pos : forall b, b <> [] -> box_volume b = prod_len b.
Proof. destruct b; simpl; congruence. Qed.
