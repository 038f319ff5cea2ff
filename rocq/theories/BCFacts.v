(** * BCFacts: the boundary solvers on one chunk. *)
From Coq Require Import ZArith List String Lia Bool.
From Verif Require Import Base BaseFacts BoxSpec BoxFacts Range RangeSpec RangeFacts
  Indexer IndexerFacts Interface InterfaceFacts ApiSpec ApiFacts Arith Chunk FieldSpec FieldFacts ChunkFacts
  VarId Manager BC BCSpec.
Import ListNotations.
Open Scope Z_scope.

(** ** coordinates *)

Lemma upd_length : forall T (l : list T) n x, List.length (upd l n x) = List.length l.
Proof. induction l; intros [|n] x; simpl; auto. Qed.
Lemma nth_upd_eq : forall T (l : list T) n x d, (n < List.length l)%nat -> nth n (upd l n x) d = x.
Proof. induction l; intros [|n] x d H; simpl in *; auto; try lia. apply IHl. lia. Qed.
Lemma nth_upd_neq : forall T (l : list T) n m x d, n <> m -> nth m (upd l n x) d = nth m l d.
Proof. induction l; intros [|n] [|m] x d H; simpl in *; auto; try congruence. Qed.
Lemma upd_out : forall T (l : list T) n x, (List.length l <= n)%nat -> upd l n x = l.
Proof. induction l; intros [|n] x H; simpl in *; auto; try lia. f_equal. apply IHl. lia. Qed.

Lemma shift_move : forall d s c, shift_at d s c = move d s c.
Proof.
  intros d s c. unfold shift_at, move. destruct (nth_error c d) eqn:E.
  - now rewrite (nth_error_nth _ _ 0 E).
  - apply nth_error_None in E. now rewrite upd_out.
Qed.

Lemma move_flip : forall d s t c, nth d c 0 + s = t - nth d c 0 -> move d s c = flip d t c.
Proof. intros. unfold move, flip. now rewrite H. Qed.

Lemma in_slab_upd : forall M D d l u l' u' c x, (d < List.length M)%nat ->
  in_box (slab M D d l u) c -> l' <= x < u' -> in_box (slab M D d l' u') (upd c d x).
Proof.
  intros M D d l u l' u' c x Hd H Hx. apply in_slab_iff in H as (L & H1 & H2); auto. apply in_slab_iff; auto.
  rewrite upd_length. split; [exact L|split].
  - rewrite nth_upd_eq; auto. rewrite L, app_length. lia.
  - intros e He1 He2. rewrite nth_upd_neq by congruence. auto.
Qed.

Lemma slab_nth : forall M D d l u c, (d < List.length M)%nat -> in_box (slab M D d l u) c -> l <= nth d c 0 < u.
Proof. intros. apply in_slab_iff in H0; tauto. Qed.

Lemma slab_nth_upd : forall M D d l u c x, (d < List.length M)%nat -> in_box (slab M D d l u) c ->
  nth d (upd c d x) 0 = x.
Proof.
  intros. apply in_slab_iff in H0 as (L & _); auto. apply nth_upd_eq. rewrite L, app_length. lia.
Qed.

Lemma slab_weaken : forall M D d l u l' u' c, (d < List.length M)%nat -> in_box (slab M D d l u) c ->
  l' <= nth d c 0 < u' -> in_box (slab M D d l' u') c.
Proof. intros. apply in_slab_iff in H0; auto. apply in_slab_iff; tauto. Qed.

Lemma slab_or : forall M D d l m u c, (d < List.length M)%nat -> l <= m <= u ->
  in_boxb (slab M D d l u) c = in_boxb (slab M D d l m) c || in_boxb (slab M D d m u) c.
Proof.
  intros M D d l m u c Hd H. destruct (in_boxb (slab M D d l u) c) eqn:E; symmetry.
  - apply in_boxb_iff in E. pose proof (slab_nth _ _ _ _ _ _ Hd E).
    apply orb_true_iff. rewrite !in_boxb_iff. destruct (Z.lt_ge_cases (nth d c 0) m).
    + left. eapply slab_weaken; eauto. lia.
    + right. eapply slab_weaken; eauto. lia.
  - apply orb_false_iff. rewrite !in_boxb_false. apply in_boxb_false in E.
    split; intros H1; apply E; pose proof (slab_nth _ _ _ _ _ _ Hd H1); eapply slab_weaken; eauto; lia.
Qed.

Lemma slab_empty : forall M D d l c, (d < List.length M)%nat -> in_boxb (slab M D d l l) c = false.
Proof. intros. apply in_boxb_false. intros H1. apply slab_nth in H1; auto. lia. Qed.

Lemma slab_set : forall M D g d a b l u, shape M D g -> (d < List.length M)%nat ->
  0 <= u - l <= hi M d - lo M d + 2 * g ->
  range_set (range_of (slab M D d a b)) (Z.of_nat d) l u = Ok (range_of (slab M D d l u)).
Proof.
  intros M D g d a b l u S Hd H. destruct (slab_split M D d Hd) as (p & q & E & L & Es).
  rewrite (Es a b), (Es l u). apply range_set_ok; [lia|]. rewrite <- Es.
  pose proof (shape_valid _ _ _ S) as (_ & V2 & V3 & _).
  eapply shorter_strides; eauto using shorter_slab.
Qed.

Lemma slab_copy : forall M D g d l u, shape M D g -> (d < List.length M)%nat ->
  0 <= u - l <= hi M d - lo M d + 2 * g ->
  range_copy (range_of (slab M D d l u)) = Ok (range_of (slab M D d l u)).
Proof.
  intros. apply range_copy_of. pose proof (shape_valid _ _ _ H) as (_ & V2 & V3 & _).
  eapply shorter_strides; eauto using shorter_slab.
Qed.

Lemma slab_bounds : forall M D d l u, (d < List.length M)%nat ->
  range_lower (range_of (slab M D d l u)) (Z.of_nat d) = Ok l /\
  range_upper (range_of (slab M D d l u)) (Z.of_nat d) = Ok u.
Proof.
  intros M D d l u Hd. destruct (slab_split M D d Hd) as (p & q & E & L & Es). rewrite (Es l u). subst d.
  split; [apply range_lower_mid|apply range_upper_mid]; reflexivity.
Qed.

Lemma slab_nonempty : forall M D g d l u, shape M D g -> (d < List.length M)%nat -> l < u -> nonempty (slab M D d l u).
Proof.
  intros M D g d l u (_ & H2 & H3 & _) Hd H. destruct (slab_split M D d Hd) as (p & q & E & L & Es). rewrite Es.
  assert (N : nonempty (M ++ D)) by (now apply nonempty_app). rewrite E in N.
  apply nonempty_app in N as [N1 N2]. apply nonempty_app. split; auto. inversion N2; subst. constructor; auto.
Qed.

Lemma slab_fuel : forall M D g d l u fuel, shape M D g -> (d < List.length M)%nat ->
  0 <= u - l <= hi M d - lo M d + 2 * g -> prod_len (grow g M ++ D) <= Z.of_nat fuel ->
  prod_len (slab M D d l u) <= Z.of_nat fuel.
Proof.
  intros. pose proof (shape_valid _ _ _ H) as (_ & V2 & _).
  pose proof (shorter_prod _ _ (shorter_slab _ _ _ _ _ _ H H0 H1) V2). lia.
Qed.

Section Fixed.
Context {F : Type} {A : Arith F}.
Variables (M D : box) (g : Z) (fuel : nat).
Hypothesis S : shape M D g.
Hypothesis Hg : 0 < g.
Hypothesis Hfuel : prod_len (grow g M ++ D) <= Z.of_nat fuel.
Notation ec := (echunk_of M D g).

Lemma chunk_copy_slab : forall d l u s (v : list Z -> F), (d < List.length M)%nat ->
  l < u -> lo M d - g <= l -> u <= hi M d + g -> lo M d - g <= l + s -> u + s <= hi M d + g ->
  (u - l <= s \/ s <= - (u - l)) ->
  chunk_copy_to fuel (range_of (slab M D d l u)) (range_of (slab M D d (l + s) (u + s))) (ec v) =
  Done (ec (fun c => if in_boxb (slab M D d (l + s) (u + s)) c then v (move d (- s) c) else v c)).
Proof.
  intros d l u s v Hd Hlu H1 H2 H3 H4 Hs. unfold chunk_copy_to. rewrite ec_if_of.
  pose proof (slab_nonempty M D g d l u S Hd Hlu) as Hn.
  assert (I1 : box_incl (slab M D d l u) (grow g M ++ D)) by (apply slab_incl_grow; auto; lia).
  assert (I2 : box_incl (slab M D d (l + s) (u + s)) (grow g M ++ D)) by (apply slab_incl_grow; auto; lia).
  assert (Hf : prod_len (slab M D d l u) <= Z.of_nat fuel) by (apply (slab_fuel M D g); auto; lia).
  destruct (slab_split M D d Hd) as (p & q & E & L & Es).
  pose proof (copy_slab F v (grow g M ++ D) p l u q s fuel) as C. rewrite <- !Es in C.
  rewrite C; auto using shape_valid.
  cbn [omap]. rewrite ec_with_of. f_equal. apply echunk_of_ext. intros c Hc. rewrite L, shift_move. reflexivity.
Qed.

(** ** periodic *)

Lemma vget_strip : forall f d, (d < List.length M)%nat ->
  vget (strip_list M D f) (Z.of_nat d) = Ok (range_of (slab M D d (fst (f d)) (snd (f d)))).
Proof. intros f d Hd. apply vget_ok; [lia|]. rewrite Nat2Z.id. now apply strip_list_nth. Qed.

Lemma periodic_ok : forall d (v : list Z -> F), (d < List.length M)%nat -> g <= hi M d - lo M d ->
  periodic_dim fuel (Z.of_nat d) (ec v) =
  Done (ec (fun c => if in_boxb (slab M D d (lo M d - g) (lo M d)) c then low_value Periodic M d v c
                     else if in_boxb (slab M D d (hi M d) (hi M d + g)) c then up_value Periodic M d v c else v c)).
Proof.
  intros d v Hd Hw. unfold periodic_dim. cbn [ec_low_int ec_up_ext echunk_of]. rewrite !vget_strip by assumption.
  cbn [liftr fst snd]. set (n := hi M d - lo M d) in *.
  assert (E1 : hi M d = lo M d + n) by lia. assert (E2 : hi M d + g = lo M d + g + n) by lia.
  pose proof (chunk_copy_slab d (lo M d) (lo M d + g) n v Hd) as C1. rewrite <- E1, <- E2 in C1.
  rewrite C1 by lia. clear C1. cbn [obind]. cbn [ec_up_int ec_low_ext echunk_of]. rewrite !vget_strip by assumption.
  cbn [liftr fst snd].
  pose proof (chunk_copy_slab d (hi M d - g) (hi M d) (- n)) as C2.
  replace (hi M d - g + - n) with (lo M d - g) in C2 by lia. replace (hi M d + - n) with (lo M d) in C2 by lia.
  rewrite C2 by lia. clear C2. f_equal. apply echunk_of_ext. intros c Hc.
  destruct (in_boxb (slab M D d (lo M d - g) (lo M d)) c) eqn:B1.
  - apply in_boxb_iff in B1. rewrite Z.opp_involutive. unfold low_value. fold n.
    replace (in_boxb _ (move d n c)) with false; [reflexivity|].
    symmetry. apply in_boxb_false. intros H. apply slab_nth in H; auto. unfold move in H.
    rewrite (slab_nth_upd _ _ _ _ _ _ _ Hd B1) in H. pose proof (slab_nth _ _ _ _ _ _ Hd B1). lia.
  - unfold up_value. fold n. reflexivity.
Qed.

(** ** mirror *)

Lemma slice_ok : forall d a b s, (d < List.length M)%nat -> 0 <= b - a <= hi M d - lo M d + 2 * g -> is_int (s + 1) ->
  slice (range_of (slab M D d a b)) (Z.of_nat d) s = Ok (range_of (slab M D d s (s + 1))).
Proof.
  intros d a b s Hd Hab Hs. pose proof (grow_bounds _ _ _ _ S Hd). unfold slice.
  rewrite (slab_copy M D g) by (auto; lia). cbn [bind]. rewrite iadd_ok by assumption. cbn [bind].
  apply (slab_set M D g); auto. lia.
Qed.

Lemma mirror_lower_ok : forall d, (d < List.length M)%nat -> g <= hi M d - lo M d ->
  forall n j (v : list Z -> F), 0 <= j -> j + Z.of_nat n <= g ->
  mirror_lower fuel n (Z.of_nat d) (range_of (slab M D d (lo M d) (lo M d + g)))
    (range_of (slab M D d (lo M d - g) (lo M d))) j (ec v) =
  Done (ec (fun c => if in_boxb (slab M D d (lo M d - j - Z.of_nat n) (lo M d - j)) c
                     then v (flip d (2 * lo M d - 1) c) else v c)).
Proof.
  intros d Hd Hw. pose proof (grow_bounds _ _ _ _ S Hd) as B. destruct B as (B1 & B2 & B3 & B4 & B5 & B6 & B7).
  assert (BI : forall z, lo M d - g <= z <= hi M d + g -> is_int z) by (unfold is_int in *; intros; lia).
  induction n as [|n IH]; intros j v Hj Hn; cbn [mirror_lower].
  - f_equal. apply echunk_of_ext. intros c Hc. replace (lo M d - j - Z.of_nat 0) with (lo M d - j) by lia.
    now rewrite slab_empty.
  - rewrite (proj1 (slab_bounds M D d _ _ Hd)). cbn [bind]. rewrite iadd_ok by (apply BI; lia). cbn [liftr].
    rewrite (proj2 (slab_bounds M D d _ _ Hd)). cbn [bind]. rewrite isub_ok by (apply BI; lia). cbn [bind].
    rewrite isub_ok by (apply BI; lia). cbn [liftr].
    rewrite slice_ok by (auto; try lia; apply BI; lia). cbn [liftr].
    rewrite slice_ok by (auto; try lia; apply BI; lia). cbn [liftr].
    pose proof (chunk_copy_slab d (lo M d + j) (lo M d + j + 1) (-1 - 2 * j) v Hd) as C.
    replace (lo M d + j + (-1 - 2 * j)) with (lo M d - 1 - j) in C by lia.
    replace (lo M d + j + 1 + (-1 - 2 * j)) with (lo M d - 1 - j + 1) in C by lia.
    rewrite C by lia. clear C. cbn [obind]. rewrite IH by lia. f_equal. apply echunk_of_ext. intros c Hc.
    replace (lo M d - j - Z.of_nat (Datatypes.S n)) with (lo M d - (j + 1) - Z.of_nat n) by lia.
    rewrite (slab_or M D d _ (lo M d - (j + 1)) (lo M d - j)) by (auto; lia).
    replace (lo M d - (j + 1)) with (lo M d - 1 - j) by lia.
    replace (lo M d - 1 - j + 1) with (lo M d - j) by lia.
    destruct (in_boxb (slab M D d (lo M d - 1 - j - Z.of_nat n) (lo M d - 1 - j)) c) eqn:Q1; cbn [orb].
    + apply in_boxb_iff in Q1. replace (in_boxb _ (flip d (2 * lo M d - 1) c)) with false; [reflexivity|].
      symmetry. apply in_boxb_false. intros H. apply slab_nth in H; auto. unfold flip in H.
      rewrite (slab_nth_upd _ _ _ _ _ _ _ Hd Q1) in H. pose proof (slab_nth _ _ _ _ _ _ Hd Q1). lia.
    + destruct (in_boxb (slab M D d (lo M d - 1 - j) (lo M d - j)) c) eqn:Q2; [|reflexivity].
      apply in_boxb_iff in Q2. pose proof (slab_nth _ _ _ _ _ _ Hd Q2). f_equal. apply move_flip. lia.
Qed.

Lemma mirror_upper_ok : forall d, (d < List.length M)%nat -> g <= hi M d - lo M d ->
  forall n j (v : list Z -> F), 0 <= j -> j + Z.of_nat n <= g ->
  mirror_upper fuel n (Z.of_nat d) (range_of (slab M D d (hi M d - g) (hi M d)))
    (range_of (slab M D d (hi M d) (hi M d + g))) j (ec v) =
  Done (ec (fun c => if in_boxb (slab M D d (hi M d + j) (hi M d + j + Z.of_nat n)) c
                     then v (flip d (2 * hi M d - 1) c) else v c)).
Proof.
  intros d Hd Hw. pose proof (grow_bounds _ _ _ _ S Hd) as B. destruct B as (B1 & B2 & B3 & B4 & B5 & B6 & B7).
  assert (BI : forall z, lo M d - g <= z <= hi M d + g -> is_int z) by (unfold is_int in *; intros; lia).
  induction n as [|n IH]; intros j v Hj Hn; cbn [mirror_upper].
  - f_equal. apply echunk_of_ext. intros c Hc. replace (hi M d + j + Z.of_nat 0) with (hi M d + j) by lia.
    now rewrite slab_empty.
  - rewrite (proj2 (slab_bounds M D d _ _ Hd)). cbn [bind]. rewrite isub_ok by (apply BI; lia). cbn [bind].
    rewrite isub_ok by (apply BI; lia). cbn [liftr].
    rewrite (proj1 (slab_bounds M D d _ _ Hd)). cbn [bind]. rewrite iadd_ok by (apply BI; lia). cbn [liftr].
    rewrite slice_ok by (auto; try lia; apply BI; lia). cbn [liftr].
    rewrite slice_ok by (auto; try lia; apply BI; lia). cbn [liftr].
    pose proof (chunk_copy_slab d (hi M d - 1 - j) (hi M d - 1 - j + 1) (1 + 2 * j) v Hd) as C.
    replace (hi M d - 1 - j + (1 + 2 * j)) with (hi M d + j) in C by lia.
    replace (hi M d - 1 - j + 1 + (1 + 2 * j)) with (hi M d + j + 1) in C by lia.
    rewrite C by lia. clear C. cbn [obind]. rewrite IH by lia. f_equal. apply echunk_of_ext. intros c Hc.
    replace (hi M d + j + Z.of_nat (Datatypes.S n)) with (hi M d + (j + 1) + Z.of_nat n) by lia.
    rewrite (slab_or M D d (hi M d + j) (hi M d + (j + 1)) (hi M d + (j + 1) + Z.of_nat n)) by (auto; lia).
    replace (hi M d + (j + 1)) with (hi M d + j + 1) by lia.
    destruct (in_boxb (slab M D d (hi M d + j + 1) (hi M d + j + 1 + Z.of_nat n)) c) eqn:Q1.
    + rewrite orb_true_r. apply in_boxb_iff in Q1. replace (in_boxb _ (flip d (2 * hi M d - 1) c)) with false; [reflexivity|].
      symmetry. apply in_boxb_false. intros H. apply slab_nth in H; auto. unfold flip in H.
      rewrite (slab_nth_upd _ _ _ _ _ _ _ Hd Q1) in H. pose proof (slab_nth _ _ _ _ _ _ Hd Q1). lia.
    + rewrite orb_false_r. destruct (in_boxb (slab M D d (hi M d + j) (hi M d + j + 1)) c) eqn:Q2; [|reflexivity].
      apply in_boxb_iff in Q2. pose proof (slab_nth _ _ _ _ _ _ Hd Q2). f_equal. apply move_flip. lia.
Qed.

Lemma copy_out_ok : forall d (v : list Z -> F), (d < List.length M)%nat -> g <= hi M d - lo M d ->
  copy_out_dim fuel (Z.of_nat d) (ec v) =
  Done (ec (fun c => if in_boxb (slab M D d (lo M d - g) (lo M d)) c then low_value CopyOut M d v c
                     else if in_boxb (slab M D d (hi M d) (hi M d + g)) c then up_value CopyOut M d v c else v c)).
Proof.
  intros d v Hd Hw. pose proof (grow_bounds _ _ _ _ S Hd) as B.
  unfold copy_out_dim. cbn [ec_low_int ec_up_ext ec_low_ext ec_up_int ec_g echunk_of]. rewrite !vget_strip by assumption.
  cbn [liftr fst snd]. fold (ec v). rewrite mirror_lower_ok by (auto; lia). cbn [obind].
  rewrite mirror_upper_ok by (auto; lia). f_equal. apply echunk_of_ext. intros c Hc.
  rewrite Z2Nat.id by lia. rewrite !Z.sub_0_r, !Z.add_0_r. unfold low_value, up_value.
  destruct (in_boxb (slab M D d (hi M d) (hi M d + g)) c) eqn:Q.
  - apply in_boxb_iff in Q. pose proof (slab_nth _ _ _ _ _ _ Hd Q).
    replace (in_boxb (slab M D d (lo M d - g) (lo M d)) (flip d (2 * hi M d - 1) c)) with false.
    + replace (in_boxb (slab M D d (lo M d - g) (lo M d)) c) with false; [reflexivity|].
      symmetry. apply in_boxb_false. intros H1. apply slab_nth in H1; auto. lia.
    + symmetry. apply in_boxb_false. intros H1. apply slab_nth in H1; auto. unfold flip in H1.
      rewrite (slab_nth_upd _ _ _ _ _ _ _ Hd Q) in H1. lia.
  - reflexivity.
Qed.

(** ** walls *)

Lemma slab_snoc : forall D' iv d l u, (d < List.length M)%nat ->
  slab M (D' ++ [iv]) d l u = slab M D' d l u ++ [iv].
Proof.
  intros D' iv d l u Hd. unfold slab. rewrite app_assoc.
  assert (H : (d < List.length (M ++ D'))%nat) by (rewrite app_length; lia).
  revert d H Hd. generalize (M ++ D'). intros X. induction X as [|x X IH]; intros [|d] H Hd; simpl in *; try lia; auto.
  f_equal. apply IH; lia.
Qed.

Lemma in_box_snoc : forall X a b c, in_box (X ++ [(a, b)]) c <->
  exists c' k, c = c' ++ [k] /\ in_box X c' /\ a <= k < b.
Proof.
  intros X a b c. split.
  - intros H. apply Forall2_app_inv_l in H as (c1 & c2 & H1 & H2 & ->). inversion H2; subst. inversion H5; subst.
    simpl in H3. eauto 6.
  - intros (c' & k & -> & H1 & H2). apply Forall2_app; auto.
Qed.

Lemma slab_comp : forall D' n a b d l u c, (d < List.length M)%nat -> D = D' ++ [(0, n)] -> 0 <= a -> b <= n ->
  in_boxb (slab M (D' ++ [(a, b)]) d l u) c = in_boxb (slab M D d l u) c && ((a <=? comp c) && (comp c <? b)).
Proof.
  intros D' n a b d l u c Hd -> Ha Hb. rewrite !slab_snoc by assumption.
  destruct (in_boxb (slab M D' d l u ++ [(0, n)]) c) eqn:E.
  - apply in_boxb_iff in E. apply in_box_snoc in E as (c' & k & -> & H1 & H2). cbn [andb].
    unfold comp. rewrite last_last. destruct ((a <=? k) && (k <? b)) eqn:Q.
    + apply in_boxb_iff. apply in_box_snoc. exists c', k. splits; auto; lia.
    + apply in_boxb_false. intros H. apply in_box_snoc in H as (c'' & k' & E & H3 & H4).
      apply app_inj_tail in E as [-> ->]. lia.
  - cbn [andb]. apply in_boxb_false. apply in_boxb_false in E. intros H. apply E.
    apply in_box_snoc in H as (c' & k & -> & H1 & H2). apply in_box_snoc. exists c', k. splits; auto; lia.
Qed.

Lemma negate_ok : forall D' n a b d l u (v : list Z -> F), (d < List.length M)%nat -> D = D' ++ [(0, n)] ->
  0 <= a < b -> b <= n -> l < u -> lo M d - g <= l -> u <= hi M d + g ->
  negate_strip fuel a b (range_of (slab M D d l u)) (ec v) =
  Done (ec (fun c => if in_boxb (slab M D d l u) c then reversed a b (comp c) (v c) else v c)).
Proof.
  intros D' n a b d l u v Hd HD Ha Hb Hlu H1 H2. unfold negate_strip.
  rewrite (slab_copy M D g) by (auto; lia). cbn [liftr].
  pose proof S as (S1 & S2 & S3 & S4 & S5 & S6 & S7).
  cbn [r_nd range_of].
  assert (L : Z.of_nat (List.length (slab M D d l u)) = Z.of_nat (List.length (M ++ D))) by (unfold slab; now rewrite upd_length).
  rewrite L. rewrite isub_ok by (unfold is_int, int_min, int_max in *; lia). cbn [liftr].
  assert (LD : Z.of_nat (List.length (M ++ D)) - 1 = Z.of_nat (List.length (slab M D' d l u))).
  { unfold slab. rewrite upd_length, HD, !app_length. cbn [List.length]. lia. }
  pose proof (shape_valid _ _ _ S) as (_ & V2 & V3 & _).
  assert (SH : shorter (slab M (D' ++ [(a, b)]) d l u) (grow g M ++ D)).
  { pose proof (shorter_slab M D g d l u S Hd ltac:(lia)) as SH. rewrite HD in SH. rewrite slab_snoc in * by assumption.
    subst D. rewrite app_assoc in *. apply Forall2_app_inv_l in SH as (B1 & B2 & X1 & X2 & X3).
    assert (B2 = [(0, n)] /\ B1 = grow g M ++ D').
    { inversion X2 as [|? ? ? ? Y1 Y2]; subst. inversion Y2; subst. apply app_inj_tail in X3 as [-> <-]. auto. }
    destruct H as [-> ->]. apply Forall2_app; auto. constructor; [cbn; lia|constructor]. }
  assert (E : range_set (range_of (slab M D d l u)) (Z.of_nat (List.length (M ++ D)) - 1) a b =
              Ok (range_of (slab M (D' ++ [(a, b)]) d l u))).
  { rewrite LD. rewrite HD, !slab_snoc by assumption. apply (range_set_ok _ 0 n []); auto.
    rewrite <- slab_snoc by assumption. eapply shorter_strides; eauto. }
  rewrite E. cbn [liftr]. rewrite ec_if_of.
  assert (NE : nonempty (slab M (D' ++ [(a, b)]) d l u)).
  { pose proof (slab_nonempty M D g d l u S Hd Hlu) as N. rewrite HD in N. rewrite slab_snoc in * by assumption.
    apply nonempty_app in N as [N1 N2]. apply nonempty_app. split; auto. constructor; [cbn; lia|constructor]. }
  rewrite scale_ok; auto using shape_valid.
  - cbn [omap]. rewrite ec_with_of. f_equal. apply echunk_of_ext. intros c Hc.
    rewrite (slab_comp D' n) by (auto; lia). unfold reversed.
    destruct (in_boxb (slab M D d l u) c); cbn [andb]; [|reflexivity].
    destruct ((a <=? comp c) && (comp c <? b)); reflexivity.
  - eapply box_incl_trans; [apply (slab_incl_grow M (D' ++ [(a, b)]) g); auto; lia|].
    rewrite HD, !app_assoc. apply box_incl_app; [apply box_incl_refl|]. constructor; [cbn; lia|constructor].
  - pose proof (shorter_prod _ _ SH V2). lia.
Qed.

Lemma wall_ok : forall D' n a b d (v : list Z -> F), (d < List.length M)%nat -> g <= hi M d - lo M d ->
  D = D' ++ [(0, n)] -> 0 <= a < b -> b <= n ->
  wall_dim fuel a b (Z.of_nat d) (ec v) =
  Done (ec (fun c => if in_boxb (slab M D d (lo M d - g) (lo M d)) c then reversed a b (comp c) (low_value CopyOut M d v c)
                     else if in_boxb (slab M D d (hi M d) (hi M d + g)) c then reversed a b (comp c) (up_value CopyOut M d v c) else v c)).
Proof.
  intros D' n a b d v Hd Hw HD Ha Hb. pose proof (grow_bounds _ _ _ _ S Hd) as B.
  unfold wall_dim. rewrite copy_out_ok by assumption. cbn [obind].
  cbn [ec_low_ext ec_up_ext echunk_of]. rewrite !vget_strip by assumption. cbn [liftr fst snd].
  match goal with |- context [negate_strip fuel a b _ ?e] => change e with (ec (fun c => if in_boxb (slab M D d (lo M d - g) (lo M d)) c then low_value CopyOut M d v c
                     else if in_boxb (slab M D d (hi M d) (hi M d + g)) c then up_value CopyOut M d v c else v c)) end.
  rewrite (negate_ok D' n) by (auto; lia). cbn [obind].
  cbn [ec_low_ext ec_up_ext echunk_of]. rewrite !vget_strip by assumption. cbn [liftr fst snd].
  match goal with |- negate_strip _ _ _ _ ?e = _ => 
    change e with (ec (fun c => if in_boxb (slab M D d (lo M d - g) (lo M d)) c then reversed a b (comp c)
       (if in_boxb (slab M D d (lo M d - g) (lo M d)) c then low_value CopyOut M d v c
                     else if in_boxb (slab M D d (hi M d) (hi M d + g)) c then up_value CopyOut M d v c else v c)
       else (if in_boxb (slab M D d (lo M d - g) (lo M d)) c then low_value CopyOut M d v c
                     else if in_boxb (slab M D d (hi M d) (hi M d + g)) c then up_value CopyOut M d v c else v c))) end.
  rewrite (negate_ok D' n) by (auto; lia). f_equal. apply echunk_of_ext. intros c Hc.
  destruct (in_boxb (slab M D d (hi M d) (hi M d + g)) c) eqn:Q.
  - apply in_boxb_iff in Q. pose proof (slab_nth _ _ _ _ _ _ Hd Q).
    replace (in_boxb (slab M D d (lo M d - g) (lo M d)) c) with false; [reflexivity|].
    symmetry. apply in_boxb_false. intros H1. apply slab_nth in H1; auto. lia.
  - destruct (in_boxb (slab M D d (lo M d - g) (lo M d)) c); reflexivity.
Qed.

(** ** all kinds, one dimension *)

Definition bc_fun (k : bc_kind) (d : nat) (v : list Z -> F) (c : list Z) : F :=
  if in_boxb (slab M D d (lo M d - g) (lo M d)) c then low_value k M d v c
  else if in_boxb (slab M D d (hi M d) (hi M d + g)) c then up_value k M d v c else v c.

Lemma bc_dim_ok : forall k d (v : list Z -> F), (d < List.length M)%nat -> g <= hi M d - lo M d -> comps_ok k D ->
  bc_dim k fuel (Z.of_nat d) (ec v) = Done (ec (bc_fun k d v)).
Proof.
  intros k d v Hd Hw Hk. unfold bc_fun. destruct k; cbn [bc_dim].
  - now apply periodic_ok.
  - now apply copy_out_ok.
  - destruct Hk as (D' & n & HD & Hn). exact (wall_ok D' n 1 4 d v Hd Hw HD ltac:(lia) Hn).
  - destruct Hk as (D' & n & HD & Hn). exact (wall_ok D' n 1 4 d v Hd Hw HD ltac:(lia) Hn).
  - destruct Hk as (D' & n & HD & Hn). exact (wall_ok D' n 0 4 d v Hd Hw HD ltac:(lia) Hn).
Qed.

Definition bc_all (k : bc_kind) (dims : list nat) (v : list Z -> F) : list Z -> F :=
  fold_left (fun v d => bc_fun k d v) dims v.

Lemma bc_chunk_ok : forall k dims (v : list Z -> F), wide M g dims -> comps_ok k D ->
  bc_chunk k fuel (map Z.of_nat dims) (ec v) = Done (ec (bc_all k dims v)).
Proof.
  intros k dims. unfold bc_chunk. induction dims as [|d dims IH]; intros v Hw Hk; cbn [map ofold]; [reflexivity|].
  destruct (Hw d (or_introl eq_refl)) as [Hd Hl].
  rewrite bc_dim_ok by assumption. cbn [obind]. apply IH; auto. intros e He. apply Hw. now right.
Qed.

(** ** what the composition does *)

Lemma low_source : forall d c, (d < List.length M)%nat -> g <= hi M d - lo M d -> low_ghost M D g d c ->
  in_box (M ++ D) (move d (hi M d - lo M d) c) /\ in_box (M ++ D) (flip d (2 * lo M d - 1) c).
Proof.
  intros d c Hd Hw H. assert (E : M ++ D = slab M D d (lo M d) (hi M d)).
  { destruct (slab_split M D d Hd) as (p & q & E & _ & Es). now rewrite Es. }
  pose proof (slab_nth _ _ _ _ _ _ Hd H).
  rewrite E. unfold move, flip. split; eapply in_slab_upd; eauto; lia.
Qed.
Lemma up_source : forall d c, (d < List.length M)%nat -> g <= hi M d - lo M d -> up_ghost M D g d c ->
  in_box (M ++ D) (move d (- (hi M d - lo M d)) c) /\ in_box (M ++ D) (flip d (2 * hi M d - 1) c).
Proof.
  intros d c Hd Hw H. assert (E : M ++ D = slab M D d (lo M d) (hi M d)).
  { destruct (slab_split M D d Hd) as (p & q & E & _ & Es). now rewrite Es. }
  pose proof (slab_nth _ _ _ _ _ _ Hd H).
  rewrite E. unfold move, flip. split; eapply in_slab_upd; eauto; lia.
Qed.

Lemma low_value_interior : forall k d c (u v : list Z -> F), (d < List.length M)%nat -> g <= hi M d - lo M d ->
  low_ghost M D g d c -> (forall c, in_box (M ++ D) c -> u c = v c) -> low_value k M d u c = low_value k M d v c.
Proof.
  intros k d c u v Hd Hw H E. destruct (low_source d c Hd Hw H) as [H1 H2].
  destruct k; cbn [low_value]; rewrite ?(E _ H1), ?(E _ H2); reflexivity.
Qed.
Lemma up_value_interior : forall k d c (u v : list Z -> F), (d < List.length M)%nat -> g <= hi M d - lo M d ->
  up_ghost M D g d c -> (forall c, in_box (M ++ D) c -> u c = v c) -> up_value k M d u c = up_value k M d v c.
Proof.
  intros k d c u v Hd Hw H E. destruct (up_source d c Hd Hw H) as [H1 H2].
  destruct k; cbn [up_value]; rewrite ?(E _ H1), ?(E _ H2); reflexivity.
Qed.

Lemma bc_fun_interior : forall k d v c, (d < List.length M)%nat -> in_box (M ++ D) c -> bc_fun k d v c = v c.
Proof.
  intros k d v c Hd H. unfold bc_fun. pose proof (in_interior_nth _ _ _ _ H Hd).
  replace (in_boxb (slab M D d (lo M d - g) (lo M d)) c) with false.
  - replace (in_boxb (slab M D d (hi M d) (hi M d + g)) c) with false; [reflexivity|].
    symmetry. apply in_boxb_false. intros H1. apply slab_nth in H1; auto. lia.
  - symmetry. apply in_boxb_false. intros H1. apply slab_nth in H1; auto. lia.
Qed.

Lemma bc_all_interior : forall k dims v c, wide M g dims -> in_box (M ++ D) c -> bc_all k dims v c = v c.
Proof.
  intros k dims. unfold bc_all. induction dims as [|d dims IH]; intros v c Hw H; cbn [fold_left]; [reflexivity|].
  rewrite IH; auto; [|intros e He; apply Hw; now right].
  apply bc_fun_interior; auto. apply Hw. now left.
Qed.

Lemma ghost_disjoint : forall d e c, (d < List.length M)%nat -> (e < List.length M)%nat -> d <> e ->
  (low_ghost M D g d c \/ up_ghost M D g d c) -> ~ low_ghost M D g e c /\ ~ up_ghost M D g e c.
Proof.
  intros d e c Hd He Hne H. unfold low_ghost, up_ghost in *.
  split; intros H1; (destruct H as [H|H]; [eapply (slab_disjoint_other M D d)|eapply (slab_disjoint_other M D d)]); eauto; lia.
Qed.

Lemma bc_fun_low : forall k d v c, low_ghost M D g d c -> bc_fun k d v c = low_value k M d v c.
Proof. intros. unfold bc_fun. now rewrite (proj2 (in_boxb_iff _ _) H). Qed.
Lemma bc_fun_up : forall k d v c, (d < List.length M)%nat -> up_ghost M D g d c -> bc_fun k d v c = up_value k M d v c.
Proof.
  intros. unfold bc_fun. rewrite (proj2 (in_boxb_iff (slab M D d (hi M d) (hi M d + g)) c) H0).
  replace (in_boxb _ c) with false; [reflexivity|]. symmetry. apply in_boxb_false. intros H1.
  apply slab_nth in H1; auto. apply slab_nth in H0; auto. pose proof (grow_bounds _ _ _ _ S H). lia.
Qed.
Lemma bc_fun_other : forall k d v c, ~ low_ghost M D g d c -> ~ up_ghost M D g d c -> bc_fun k d v c = v c.
Proof.
  intros. unfold bc_fun. apply in_boxb_false in H, H0. now rewrite H, H0.
Qed.

Lemma bc_all_spec : forall k dims (u : list Z -> F), wide M g dims ->
  ghosts_set M D g dims (fun d => low_value k M d u) (fun d => up_value k M d u) u (bc_all k dims u).
Proof.
  intros k dims. induction dims as [|d dims IH]; intros u Hw.
  - unfold ghosts_set. splits; intros; cbn in *; try tauto; reflexivity.
  - assert (Hw' : wide M g dims) by (intros e He; apply Hw; now right).
    destruct (Hw d (or_introl eq_refl)) as [Hd Hl].
    specialize (IH (bc_fun k d u) Hw'). destruct IH as (I1 & I2 & I3).
    assert (INT : forall c, in_box (M ++ D) c -> bc_fun k d u c = u c) by (intros; now apply bc_fun_interior).
    change (bc_all k (d :: dims) u) with (bc_all k dims (bc_fun k d u)).
    assert (SUB : forall e c, (e < List.length M)%nat -> low_ghost M D g e c \/ up_ghost M D g e c -> in_box (grow g M ++ D) c).
    { intros e c He HH; pose proof (grow_bounds _ _ _ _ S He); destruct HH as [H1|H1]; (eapply box_incl_in; [|exact H1]); apply slab_incl_grow; auto; lia. }
    unfold ghosts_set. splits.
    + intros e c He H. destruct (Hw e He) as [Hde Hle]. destruct (in_dec Nat.eq_dec e dims) as [Hin|Hin].
      * rewrite (I1 e c Hin H). now apply low_value_interior.
      * assert (e = d) by (destruct He; [congruence|tauto]). subst e.
        rewrite I3; [now apply bc_fun_low|eauto|].
        intros e He2. destruct (Hw' e He2) as [Hde2 _]. eapply (ghost_disjoint d); eauto. intros ->. tauto.
    + intros e c He H. destruct (Hw e He) as [Hde Hle]. destruct (in_dec Nat.eq_dec e dims) as [Hin|Hin].
      * rewrite (I2 e c Hin H). now apply up_value_interior.
      * assert (e = d) by (destruct He; [congruence|tauto]). subst e.
        rewrite I3; [now apply bc_fun_up|eauto|].
        intros e He2. destruct (Hw' e He2) as [Hde2 _]. eapply (ghost_disjoint d); eauto. intros ->. tauto.
    + intros c Hc Hn. rewrite I3; auto.
      * destruct (Hn d (or_introl eq_refl)). now apply bc_fun_other.
      * intros e He. apply Hn. now right.
Qed.

Lemma bc_all_ext : forall k dims (u v : list Z -> F), wide M g dims ->
  (forall c, in_box (grow g M ++ D) c -> u c = v c) ->
  forall c, in_box (grow g M ++ D) c -> bc_all k dims u c = bc_all k dims v c.
Proof.
  intros k dims. induction dims as [|d dims IH]; intros u v Hw H c Hc; [now apply H|].
  assert (Hw' : wide M g dims) by (intros e He; apply Hw; now right).
  destruct (Hw d (or_introl eq_refl)) as [Hd Hl].
  change (bc_all k (d :: dims) u) with (bc_all k dims (bc_fun k d u)).
  change (bc_all k (d :: dims) v) with (bc_all k dims (bc_fun k d v)).
  apply IH; auto. intros c' Hc'.
  assert (INT : forall c, in_box (M ++ D) c -> u c = v c).
  { intros x Hx. apply H. eapply box_incl_in; [|exact Hx]. apply box_incl_app; [apply box_incl_grow; lia|apply box_incl_refl]. }
  unfold bc_fun. destruct (in_boxb (slab M D d (lo M d - g) (lo M d)) c') eqn:Q1.
  - apply low_value_interior; auto. now apply in_boxb_iff.
  - destruct (in_boxb (slab M D d (hi M d) (hi M d + g)) c') eqn:Q2; [|auto].
    apply up_value_interior; auto. now apply in_boxb_iff.
Qed.

Lemma bc_all_idem : forall k dims (u : list Z -> F) c, wide M g dims -> in_box (grow g M ++ D) c ->
  bc_all k dims (bc_all k dims u) c = bc_all k dims u c.
Proof.
  intros k dims u c Hw Hc.
  destruct (bc_all_spec k dims (bc_all k dims u) Hw) as (I1 & I2 & I3).
  destruct (bc_all_spec k dims u Hw) as (J1 & J2 & J3).
  assert (INT : forall c, in_box (M ++ D) c -> bc_all k dims u c = u c) by (intros; now apply bc_all_interior).
  destruct (existsb (fun d => in_boxb (slab M D d (lo M d - g) (lo M d)) c) dims) eqn:E1.
  - apply existsb_exists in E1 as (d & Hin & E1). apply in_boxb_iff in E1.
    destruct (Hw d Hin). rewrite (I1 d c), (J1 d c) by assumption. now apply low_value_interior.
  - destruct (existsb (fun d => in_boxb (slab M D d (hi M d) (hi M d + g)) c) dims) eqn:E2.
    + apply existsb_exists in E2 as (d & Hin & E2). apply in_boxb_iff in E2.
      destruct (Hw d Hin). rewrite (I2 d c), (J2 d c) by assumption. now apply up_value_interior.
    + apply I3; auto. intros d Hin. split; intros H.
      * assert (existsb (fun d => in_boxb (slab M D d (lo M d - g) (lo M d)) c) dims = true); [|congruence].
        apply existsb_exists. exists d. split; auto. now apply in_boxb_iff.
      * assert (existsb (fun d => in_boxb (slab M D d (hi M d) (hi M d + g)) c) dims = true); [|congruence].
        apply existsb_exists. exists d. split; auto. now apply in_boxb_iff.
Qed.

(** ** fewer than four components *)

Lemma negate_few : forall D' n a b d l u (v : list Z -> F), (d < List.length M)%nat -> D = D' ++ [(0, n)] ->
  0 <= a < b -> n < b -> shape M (D' ++ [(0, b)]) g -> l < u -> lo M d - g <= l -> u <= hi M d + g ->
  negate_strip fuel a b (range_of (slab M D d l u)) (ec v) = Done (ec v).
Proof.
  intros D' n a b d l u v Hd HD Ha Hb SB Hlu H1 H2. unfold negate_strip.
  rewrite (slab_copy M D g) by (auto; lia). cbn [liftr].
  pose proof S as (S1 & S2 & S3 & S4 & S5 & S6 & S7).
  cbn [r_nd range_of].
  assert (L : Z.of_nat (List.length (slab M D d l u)) = Z.of_nat (List.length (M ++ D))) by (unfold slab; now rewrite upd_length).
  rewrite L. rewrite isub_ok by (unfold is_int, int_min, int_max in *; lia). cbn [liftr].
  assert (LD : Z.of_nat (List.length (M ++ D)) - 1 = Z.of_nat (List.length (slab M D' d l u))).
  { unfold slab. rewrite upd_length, HD, !app_length. cbn [List.length]. lia. }
  pose proof (shape_valid _ _ _ S) as (_ & V2 & V3 & _).
  pose proof (shape_valid _ _ _ SB) as (_ & W2 & W3 & _).
  assert (SH : shorter (slab M (D' ++ [(a, b)]) d l u) (grow g M ++ (D' ++ [(0, b)]))).
  { pose proof (shorter_slab M (D' ++ [(0, b)]) g d l u SB Hd ltac:(lia)) as SH. rewrite slab_snoc in * by assumption.
    rewrite app_assoc in *. apply Forall2_app_inv_l in SH as (B1 & B2 & X1 & X2 & X3).
    assert (B2 = [(0, b)] /\ B1 = grow g M ++ D').
    { inversion X2 as [|? ? ? ? Y1 Y2]; subst. inversion Y2; subst. apply app_inj_tail in X3 as [-> <-]. auto. }
    destruct H as [-> ->]. apply Forall2_app; auto. constructor; [cbn; lia|constructor]. }
  assert (ST : strides_fit (slab M (D' ++ [(a, b)]) d l u)) by (eapply shorter_strides; eauto).
  assert (E : range_set (range_of (slab M D d l u)) (Z.of_nat (List.length (M ++ D)) - 1) a b =
              Ok (range_of (slab M (D' ++ [(a, b)]) d l u))).
  { rewrite LD. rewrite HD, !slab_snoc by assumption. apply (range_set_ok _ 0 n []); auto.
    rewrite <- slab_snoc by assumption. exact ST. }
  rewrite E. cbn [liftr]. rewrite ec_if_of. unfold chunk_scale, iface_indexer. cbn [if_range iface_of].
  rewrite indexer_make_not_incl; auto.
  - cbn [liftr]. destruct fuel; reflexivity.
  - apply fit_strides, nonempty_fit; auto.
  - right. intros I. rewrite slab_snoc in I by assumption. rewrite HD, app_assoc in I.
    apply Forall2_app_inv_l in I as (B1 & B2 & X1 & X2 & X3). inversion X2 as [|? ? ? ? Y1 Y2]; subst. inversion Y2; subst.
    apply app_inj_tail in X3 as [_ <-]. cbn in Y1. lia.
Qed.

Lemma wall_few : forall D' n a b d (v : list Z -> F), (d < List.length M)%nat -> g <= hi M d - lo M d ->
  D = D' ++ [(0, n)] -> 0 <= a < b -> n < b -> shape M (D' ++ [(0, b)]) g ->
  wall_dim fuel a b (Z.of_nat d) (ec v) = copy_out_dim fuel (Z.of_nat d) (ec v).
Proof.
  intros D' n a b d v Hd Hw HD Ha Hb SB. pose proof (grow_bounds _ _ _ _ S Hd) as B.
  unfold wall_dim. rewrite copy_out_ok by assumption. cbn [obind].
  cbn [ec_low_ext ec_up_ext echunk_of]. rewrite !vget_strip by assumption. cbn [liftr fst snd].
  match goal with |- context [negate_strip fuel a b _ ?e] => change e with (ec (fun c => if in_boxb (slab M D d (lo M d - g) (lo M d)) c then low_value CopyOut M d v c
                     else if in_boxb (slab M D d (hi M d) (hi M d + g)) c then up_value CopyOut M d v c else v c)) end.
  rewrite (negate_few D' n) by (auto; lia). cbn [obind].
  cbn [ec_low_ext ec_up_ext echunk_of]. rewrite !vget_strip by assumption. cbn [liftr fst snd].
  match goal with |- negate_strip _ _ _ _ ?e = _ => change e with (ec (fun c => if in_boxb (slab M D d (lo M d - g) (lo M d)) c then low_value CopyOut M d v c
                     else if in_boxb (slab M D d (hi M d) (hi M d + g)) c then up_value CopyOut M d v c else v c)) end.
  now rewrite (negate_few D' n) by (auto; lia).
Qed.

Lemma bc_few : forall k D' n dims (v : list Z -> F), wide M g dims -> k = NoSlip \/ k = FreeSlip \/ k = ConductingWall ->
  D = D' ++ [(0, n)] -> n < 4 -> shape M (D' ++ [(0, 4)]) g ->
  bc_chunk k fuel (map Z.of_nat dims) (ec v) = bc_chunk CopyOut fuel (map Z.of_nat dims) (ec v).
Proof.
  intros k D' n dims v Hw Hk HD Hn SB. revert v. unfold bc_chunk. induction dims as [|d dims IH]; intros v; cbn [map ofold]; [reflexivity|].
  destruct (Hw d (or_introl eq_refl)) as [Hd Hl].
  assert (E : bc_dim k fuel (Z.of_nat d) (ec v) = bc_dim CopyOut fuel (Z.of_nat d) (ec v)).
  { destruct Hk as [->|[->| ->]]; cbn [bc_dim]; apply (wall_few D' n); auto; lia. }
  rewrite E, bc_dim_ok by (auto; exact I). cbn [obind]. apply IH. intros e He. apply Hw. now right.
Qed.

End Fixed.
