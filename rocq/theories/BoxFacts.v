(** * BoxFacts: lemmas about boxes (cells, offsets, inclusion). *)
From Coq Require Import ZArith List Lia Bool Permutation.
From Verif Require Import Base BaseFacts BoxSpec.
Import ListNotations.
Open Scope Z_scope.

Lemma zrange_length : forall l u, List.length (zrange l u) = Z.to_nat (u - l).
Proof. intros. unfold zrange. now rewrite map_length, seq_length. Qed.

Lemma in_zrange : forall l u x, In x (zrange l u) <-> l <= x < u.
Proof.
  intros. unfold zrange. rewrite in_map_iff. split.
  - intros (k & <- & H). apply in_seq in H. lia.
  - intros H. exists (Z.to_nat (x - l)). split; [lia|]. apply in_seq. lia.
Qed.

Lemma zrange_empty : forall l u, u <= l -> zrange l u = [].
Proof. intros. unfold zrange. replace (Z.to_nat (u - l)) with 0%nat by lia. reflexivity. Qed.

Lemma zrange_cons : forall l u, l < u -> zrange l u = l :: zrange (l + 1) u.
Proof.
  intros. unfold zrange.
  replace (Z.to_nat (u - l)) with (S (Z.to_nat (u - (l + 1)))) by lia.
  simpl. f_equal; [lia|]. rewrite <- seq_shift, map_map. apply map_ext. intros. lia.
Qed.

Lemma zrange_snoc : forall l u, l <= u -> zrange l (u + 1) = zrange l u ++ [u].
Proof.
  intros. unfold zrange.
  replace (Z.to_nat (u + 1 - l)) with (S (Z.to_nat (u - l))) by lia.
  rewrite seq_S, map_app. simpl. f_equal. f_equal. lia.
Qed.

Lemma zrange_split : forall l m u, l <= m <= u -> zrange l u = zrange l m ++ zrange m u.
Proof.
  intros l m u H.
  remember (Z.to_nat (m - l)) as n eqn:En. revert l H En.
  induction n; intros.
  - assert (m = l) by lia. subst m. now rewrite (zrange_empty l l) by lia.
  - rewrite (zrange_cons l u), (zrange_cons l m) by lia. simpl. f_equal. apply IHn; lia.
Qed.

Lemma zrange_NoDup : forall l u, NoDup (zrange l u).
Proof.
  intros. unfold zrange. apply FinFun.Injective_map_NoDup; [|apply seq_NoDup].
  intros a b H. lia.
Qed.

Lemma zrange_shift : forall l u s, zrange (l + s) (u + s) = map (fun x => x + s) (zrange l u).
Proof.
  intros. unfold zrange. rewrite map_map.
  replace (u + s - (l + s)) with (u - l) by lia. apply map_ext. intros; lia.
Qed.

Lemma nth_error_zrange : forall l u k,
  (k < Z.to_nat (u - l))%nat -> nth_error (zrange l u) k = Some (l + Z.of_nat k).
Proof.
  intros. unfold zrange. rewrite nth_error_map.
  assert (E : nth_error (seq 0 (Z.to_nat (u - l))) k = Some k).
  { rewrite nth_error_nth' with (d := 0%nat); [|now rewrite seq_length].
    now rewrite seq_nth. }
  now rewrite E.
Qed.

(** ** products *)

Lemma prod_len_app : forall a b, prod_len (a ++ b) = prod_len a * prod_len b.
Proof. induction a as [|[l u] a IH]; intros; cbn [prod_len app]; [ring|]. rewrite IH. ring. Qed.

Lemma prod_len_pos : forall b, nonempty b -> 0 < prod_len b.
Proof.
  induction b as [|[l u] b IH]; intros H; simpl; [lia|].
  inversion H; subst; simpl in *. specialize (IH H3). nia.
Qed.

Lemma nonempty_app : forall a b, nonempty (a ++ b) <-> nonempty a /\ nonempty b.
Proof. intros. unfold nonempty. apply Forall_app. Qed.

(** ** cells *)

Lemma in_cells : forall b c, In c (cells b) <-> in_box b c.
Proof.
  induction b as [|[l u] b IH]; intros c; simpl.
  - split; intros H.
    + destruct H as [<-|[]]. constructor.
    + inversion H. auto.
  - rewrite in_flat_map. split.
    + intros (x & Hx & Hc). apply in_map_iff in Hc as (c' & <- & Hc').
      constructor; [|now apply IH]. apply in_zrange in Hx. simpl. lia.
    + intros H. inversion H; subst. exists y. split.
      * apply in_zrange. simpl in H2. lia.
      * apply in_map. now apply IH.
Qed.

Lemma flat_map_length_const : forall A B (f : A -> list B) n l,
  (forall x, In x l -> List.length (f x) = n) -> List.length (flat_map f l) = (List.length l * n)%nat.
Proof.
  induction l; simpl; intros; auto.
  rewrite app_length, H, IHl by auto. reflexivity.
Qed.

Lemma cells_length : forall b, nonempty b -> Z.of_nat (List.length (cells b)) = prod_len b.
Proof.
  induction b as [|[l u] b IH]; intros H; simpl; [reflexivity|].
  inversion H; subst; simpl in *.
  rewrite flat_map_length_const with (n := List.length (cells b)).
  - rewrite zrange_length, Nat2Z.inj_mul, IH by assumption. lia.
  - intros. now rewrite map_length.
Qed.

Lemma NoDup_app_intro : forall A (a b : list A),
  NoDup a -> NoDup b -> (forall x, In x a -> In x b -> False) -> NoDup (a ++ b).
Proof.
  induction a; simpl; intros; auto.
  inversion H; subst. constructor.
  - rewrite in_app_iff. intros [?|?]; eauto.
  - apply IHa; eauto.
Qed.

Lemma NoDup_flat_map : forall A B (f : A -> list B) l,
  NoDup l -> (forall x, In x l -> NoDup (f x)) ->
  (forall x y z, In x l -> In y l -> In z (f x) -> In z (f y) -> x = y) ->
  NoDup (flat_map f l).
Proof.
  induction l; simpl; intros; [constructor|].
  inversion H; subst. apply NoDup_app_intro; eauto.
  - apply IHl; eauto.
  - intros x Hx Hy. apply in_flat_map in Hy as (y & Hy1 & Hy2).
    assert (a = y) by eauto. subst. contradiction.
Qed.

Lemma cells_NoDup : forall b, NoDup (cells b).
Proof.
  induction b as [|[l u] b IH]; simpl.
  - constructor; [auto|constructor].
  - apply NoDup_flat_map.
    + apply zrange_NoDup.
    + intros. apply FinFun.Injective_map_NoDup; auto. intros p q E. now inversion E.
    + intros x y z _ _ Hx Hy.
      apply in_map_iff in Hx as (? & <- & _). apply in_map_iff in Hy as (? & E & _).
      now inversion E.
Qed.

Lemma in_box_length : forall b c, in_box b c -> List.length c = List.length b.
Proof. intros. symmetry. eapply Forall2_length; eauto. Qed.

Lemma in_box_app : forall a b c d,
  in_box a c -> in_box b d -> in_box (a ++ b) (c ++ d).
Proof. intros. now apply Forall2_app. Qed.

(** ** offsets *)

Lemma offset_app : forall a b c d,
  List.length c = List.length a ->
  offset (a ++ b) (c ++ d) = offset a c * prod_len b + offset b d.
Proof.
  induction a as [|[l u] a IH]; intros b c d H; destruct c; simpl in *; try discriminate.
  - lia.
  - rewrite IH by lia. rewrite prod_len_app. lia.
Qed.

Lemma offset_bounds : forall b c, in_box b c -> 0 <= offset b c < prod_len b.
Proof.
  induction b as [|[l u] b IH]; intros c H; inversion H; subst; simpl; [lia|].
  simpl in H2. specialize (IH _ H4). nia.
Qed.

Lemma offset_inj : forall b c d, in_box b c -> in_box b d -> offset b c = offset b d -> c = d.
Proof.
  induction b as [|[l u] b IH]; intros c d Hc Hd E; inversion Hc; inversion Hd; subst; auto.
  simpl in *.
  pose proof (offset_bounds _ _ H3). pose proof (offset_bounds _ _ H8).
  assert (y = y0) by nia. subst. f_equal. apply IH; auto. nia.
Qed.

Lemma map_flat_map : forall A B C (f : B -> C) (g : A -> list B) l,
  map f (flat_map g l) = flat_map (fun x => map f (g x)) l.
Proof. induction l; simpl; auto. now rewrite map_app, IHl. Qed.

Lemma flat_map_ext_in : forall A B (f g : A -> list B) l,
  (forall x, In x l -> f x = g x) -> flat_map f l = flat_map g l.
Proof. induction l; simpl; intros; auto. rewrite H, IHl; auto. Qed.

Lemma flat_map_blocks : forall n l u,
  0 <= n -> l <= u ->
  flat_map (fun x => zrange ((x - l) * n) ((x - l) * n + n)) (zrange l u) = zrange 0 ((u - l) * n).
Proof.
  intros n l u Hn Hlu.
  replace u with (l + (u - l)) at 1 by lia.
  remember (Z.to_nat (u - l)) as k eqn:Ek.
  assert (Hk : u - l = Z.of_nat k) by lia. rewrite Hk. clear Hk Ek Hlu u.
  induction k.
  - rewrite zrange_empty by lia. simpl. symmetry. apply zrange_empty. lia.
  - replace (l + Z.of_nat (S k)) with (l + Z.of_nat k + 1) by lia.
    rewrite zrange_snoc by lia. rewrite flat_map_app. rewrite IHk. cbn [flat_map]. rewrite app_nil_r.
    replace (l + Z.of_nat k - l) with (Z.of_nat k) by lia.
    symmetry.
    replace (Z.of_nat (S k) * n) with (Z.of_nat k * n + n) by lia.
    apply zrange_split. nia.
Qed.

(** The cells of a box, in row-major order, have offsets 0,1,2,... *)
Lemma offsets_cells : forall b, nonempty b -> map (offset b) (cells b) = zrange 0 (prod_len b).
Proof.
  induction b as [|[l u] b IH]; intros H; simpl; [reflexivity|].
  inversion H; subst; simpl in *. specialize (IH H3).
  pose proof (prod_len_pos _ H3) as Hp.
  rewrite map_flat_map.
  rewrite (flat_map_ext_in _ _ _ (fun x => zrange ((x - l) * prod_len b) ((x - l) * prod_len b + prod_len b))).
  - apply flat_map_blocks; lia.
  - intros x _. rewrite map_map. simpl.
    rewrite <- (map_map (offset b) (fun y => (x - l) * prod_len b + y)).
    rewrite IH.
    pose proof (zrange_shift 0 (prod_len b) ((x - l) * prod_len b)) as E.
    rewrite Z.add_0_l, (Z.add_comm (prod_len b)) in E. rewrite E.
    apply map_ext. intros; lia.
Qed.

(** ** row-major enumeration peeled from the last dimension *)

Lemma cells_snoc : forall b l u,
  cells (b ++ [(l, u)]) = flat_map (fun p => map (fun x => p ++ [x]) (zrange l u)) (cells b).
Proof.
  induction b as [|[l0 u0] b IH]; intros l u; simpl.
  - rewrite !app_nil_r.
    induction (zrange l u); simpl; auto; try now rewrite IHl0.
  - rewrite flat_map_concat_map, flat_map_concat_map.
    induction (zrange l0 u0) as [|x xs IHx]; simpl; auto.
    rewrite IHx. rewrite !flat_map_concat_map. rewrite map_app, concat_app. f_equal.
    rewrite IH. rewrite flat_map_concat_map, concat_map, !map_map.
    f_equal. apply map_ext. intros p. rewrite map_map. reflexivity.
Qed.

Lemma cells_empty : forall b, ~ nonempty b -> cells b = [].
Proof.
  intros b H. destruct (cells b) as [|c cs] eqn:E; auto.
  exfalso. apply H. assert (In c (cells b)) by (rewrite E; simpl; auto).
  apply in_cells in H0. clear E H. unfold nonempty.
  induction H0; constructor; auto. lia.
Qed.

Lemma cells_nonempty_first : forall b, nonempty b -> exists cs, cells b = first_cell b :: cs.
Proof.
  induction b as [|[l u] b IH]; intros H; simpl.
  - eauto.
  - inversion H; subst; simpl in *. destruct (IH H3) as (cs & E).
    rewrite zrange_cons by lia. simpl. rewrite E. simpl. eauto.
Qed.

Lemma first_in_box : forall b, nonempty b -> in_box b (first_cell b).
Proof. intros b H. destruct (cells_nonempty_first _ H) as (cs & E). apply in_cells. rewrite E. simpl; auto. Qed.

Lemma last_in_box : forall b, nonempty b -> in_box b (last_cell b).
Proof.
  induction b as [|[l u] b IH]; intros H; [constructor|].
  inversion H; subst. simpl in *. constructor; [simpl; lia|]. now apply IH.
Qed.

(** ** inclusion *)

Lemma box_incl_length : forall a b, box_incl a b -> List.length a = List.length b.
Proof. intros. eapply Forall2_length; eauto. Qed.

Lemma box_incl_in : forall a b c, box_incl a b -> in_box a c -> in_box b c.
Proof.
  induction a as [|i a IH]; intros b c H Hc; inversion H; inversion Hc; subst; constructor; auto.
  - lia.
  - eapply IH; eauto.
Qed.

Lemma box_incl_refl : forall b, box_incl b b.
Proof. induction b; constructor; auto. lia. Qed.

Lemma box_incl_trans : forall a b c, box_incl a b -> box_incl b c -> box_incl a c.
Proof.
  induction a; intros b c H1 H2; inversion H1; subst; inversion H2; subst; constructor.
  - lia.
  - eapply IHa; eauto.
Qed.

Lemma box_incl_antisym : forall a b, box_incl a b -> box_incl b a -> a = b.
Proof.
  induction a; intros b H1 H2; inversion H1; subst; inversion H2; subst; auto.
  f_equal; [|apply IHa; auto].
  destruct a, y; simpl in *. f_equal; lia.
Qed.

Lemma box_incl_nonempty : forall a b, box_incl a b -> nonempty a -> nonempty b.
Proof.
  induction a; intros b H Hn; inversion H; inversion Hn; subst; constructor.
  - lia.
  - eapply IHa; eauto.
Qed.

(** For a non-empty inner box, inclusion is inclusion of the cell sets. *)
Lemma box_incl_iff : forall a b,
  nonempty a -> List.length a = List.length b ->
  (box_incl a b <-> forall c, in_box a c -> in_box b c).
Proof.
  intros a b Hn Hl. split; [intros; eapply box_incl_in; eauto|].
  intros H. pose proof (H _ (first_in_box a Hn)) as H1. pose proof (H _ (last_in_box a Hn)) as H2.
  clear H Hn. revert b Hl H1 H2. induction a; intros [|o b] Hl H1 H2; simpl in *; try discriminate; constructor.
  - inversion H1; inversion H2; subst. simpl in *. lia.
  - inversion H1; inversion H2; subst. apply IHa; auto.
Qed.
