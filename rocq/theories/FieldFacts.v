(** * FieldFacts: canonical form of containers and chunks, region operations. *)
From Coq Require Import ZArith List String Lia Bool.
From Verif Require Import Base BaseFacts BoxSpec BoxFacts Range RangeSpec RangeFacts
  Indexer IndexerFacts Interface InterfaceFacts ApiSpec ApiFacts Arith Chunk FieldSpec.
Import ListNotations.
Open Scope Z_scope.

Definition iface_of {T} (b : box) (u : list Z -> T) : iface T :=
  mkIface (range_of b) (map u (cells b)).

Lemma nth_cells_offset : forall b c, nonempty b -> in_box b c ->
  nth_error (cells b) (Z.to_nat (offset b c)) = Some c.
Proof.
  intros b c Hn Hc. pose proof (offset_bounds _ _ Hc) as Ho.
  destruct (nth_error (cells b) (Z.to_nat (offset b c))) as [c'|] eqn:E.
  - assert (Hc' : in_box b c') by (apply in_cells; eapply nth_error_In; eauto).
    f_equal. apply (offset_inj b); auto.
    assert (M : nth_error (map (offset b) (cells b)) (Z.to_nat (offset b c)) = Some (offset b c'))
      by (rewrite nth_error_map, E; reflexivity).
    rewrite offsets_cells in M by assumption.
    rewrite nth_error_zrange in M by lia. inversion M. lia.
  - apply nth_error_None in E. pose proof (cells_length _ Hn). lia.
Qed.

Lemma iface_of_ok : forall T b (u : list Z -> T), valid_box b -> iface_ok (iface_of b u) b.
Proof.
  intros T b u (H1 & H2 & H3 & H4). constructor; auto. unfold iface_of; cbn [if_data].
  rewrite map_length. now apply cells_length.
Qed.

Lemma cont_of : forall T b (u : list Z -> T) c, nonempty b -> in_box b c ->
  cont b (if_data (iface_of b u)) c = Some (u c).
Proof.
  intros. unfold cont, iface_of; cbn [if_data]. rewrite nth_error_map, nth_cells_offset by assumption. reflexivity.
Qed.

Lemma cells_nth_in : forall b k c, nth_error (cells b) k = Some c -> in_box b c /\ k = Z.to_nat (offset b c).
Proof.
  intros b k c E. assert (Hc : in_box b c) by (apply in_cells; eapply nth_error_In; eauto).
  split; auto.
  assert (Hn : nonempty b).
  { clear - Hc. induction Hc; constructor; auto. lia. }
  assert (M : nth_error (map (offset b) (cells b)) k = Some (offset b c)) by (rewrite nth_error_map, E; reflexivity).
  rewrite offsets_cells in M by assumption.
  assert (k < List.length (zrange 0 (prod_len b)))%nat by (apply nth_error_Some; congruence).
  rewrite zrange_length in H. rewrite nth_error_zrange in M by lia. inversion M. lia.
Qed.

(** A container is determined by its contents. *)
Lemma iface_eq_of : forall T (i : iface T) b u, iface_ok i b ->
  (forall c, in_box b c -> cont b (if_data i) c = Some (u c)) -> i = iface_of b u.
Proof.
  intros T [r l] b u Hok H. pose proof (io_range _ _ Hok) as Hr. simpl in Hr. subst r.
  unfold iface_of. f_equal. cbn [if_data] in *. apply upd_inj_nth. intros k.
  rewrite nth_error_map. destruct (nth_error (cells b) k) as [c|] eqn:E; simpl.
  - apply cells_nth_in in E as [Hc ->]. exact (H c Hc).
  - apply nth_error_None in E. apply nth_error_None.
    pose proof (io_len _ _ Hok) as L. pose proof (cells_length _ (io_ne _ _ Hok)). simpl in L. lia.
Qed.

Lemma iface_of_ext : forall T b (u v : list Z -> T), (forall c, in_box b c -> u c = v c) -> iface_of b u = iface_of b v.
Proof.
  intros T b u v H. unfold iface_of. f_equal. apply map_ext_in. intros c Hc. apply H. now apply in_cells.
Qed.

Lemma holds_iff : forall T (i : iface T) b u, valid_box b -> (holds i b u <-> i = iface_of b u).
Proof.
  intros T i b u V. unfold holds. rewrite container_iff by assumption. split.
  - intros [Hok H]. apply iface_eq_of; auto. intros c Hc. eapply elem_ok; eauto.
  - intros ->. split; [now apply iface_of_ok|]. intros c Hc.
    eapply elem_ok; eauto using iface_of_ok. apply cont_of; auto. apply V.
Qed.

(** ** decidable membership *)

Fixpoint in_boxb (b : box) (c : list Z) : bool :=
  match b, c with
  | [], [] => true
  | (l, u) :: b', x :: c' => (l <=? x) && (x <? u) && in_boxb b' c'
  | _, _ => false
  end.

Lemma in_boxb_iff : forall b c, in_boxb b c = true <-> in_box b c.
Proof.
  induction b as [|[l u] b IH]; intros [|x c]; simpl; split; intros H; try discriminate; try constructor; try (inversion H; fail); auto.
  - apply andb_true_iff in H as [H1 H2]. simpl. lia.
  - apply IH. apply andb_true_iff in H as [H1 H2]. auto.
  - inversion H; subst. simpl in *. apply IH in H5. rewrite H5, andb_true_r. lia.
Qed.
Lemma in_boxb_false : forall b c, in_boxb b c = false <-> ~ in_box b c.
Proof.
  intros b c. rewrite <- in_boxb_iff. destruct (in_boxb b c); split; intros; congruence.
Qed.

(** ** translation in one dimension *)

Definition shift_at (n : nat) (s : Z) (c : list Z) : list Z :=
  match nth_error c n with
  | Some x => upd c n (x + s)
  | None => c
  end.

Lemma shift_at_S : forall n s x c, shift_at (S n) s (x :: c) = x :: shift_at n s c.
Proof. intros. unfold shift_at. simpl. destruct (nth_error c n); reflexivity. Qed.
Lemma shift_at_0 : forall s x c, shift_at 0 s (x :: c) = (x + s) :: c.
Proof. reflexivity. Qed.

Lemma shift_at_inv : forall n s c, shift_at n (- s) (shift_at n s c) = c.
Proof.
  intros n s c. revert n. induction c as [|x c IH]; intros [|n]; try reflexivity.
  - rewrite !shift_at_0. f_equal. lia.
  - rewrite !shift_at_S. now rewrite IH.
Qed.
Lemma shift_at_inv' : forall n s c, shift_at n s (shift_at n (- s) c) = c.
Proof. intros. rewrite <- (Z.opp_involutive s) at 1. apply shift_at_inv. Qed.

Lemma cells_shift : forall p l u q s,
  cells (p ++ (l + s, u + s) :: q) = map (shift_at (List.length p) s) (cells (p ++ (l, u) :: q)).
Proof.
  induction p as [|[a b] p IH]; intros l u q s; cbn [app cells List.length].
  - rewrite map_flat_map. rewrite zrange_shift. rewrite flat_map_concat_map, map_map, <- flat_map_concat_map.
    apply flat_map_ext_in. intros x _. rewrite map_map. apply map_ext. intros c. reflexivity.
  - rewrite map_flat_map. apply flat_map_ext_in. intros x _. rewrite IH, !map_map. apply map_ext.
    intros c. now rewrite shift_at_S.
Qed.

Lemma in_box_shift : forall p l u q s c,
  in_box (p ++ (l + s, u + s) :: q) c -> in_box (p ++ (l, u) :: q) (shift_at (List.length p) (- s) c).
Proof.
  intros p l u q s c H. apply in_cells in H. rewrite cells_shift in H. apply in_map_iff in H as (c0 & <- & H).
  rewrite shift_at_inv. now apply in_cells.
Qed.

Lemma nth_in_box : forall p l u q c, in_box (p ++ (l, u) :: q) c -> l <= nth (List.length p) c 0 < u.
Proof.
  induction p as [|iv p IH]; intros l u q c H; cbn [app List.length] in *.
  - inversion H; subst. simpl in *. lia.
  - inversion H; subst. simpl. eapply IH; eauto.
Qed.

(** ** copy between two slabs of one container *)

Lemma copy_slab : forall T (v : list Z -> T) b p l u q s fuel,
  valid_box b ->
  nonempty (p ++ (l, u) :: q) -> box_incl (p ++ (l, u) :: q) b -> box_incl (p ++ (l + s, u + s) :: q) b ->
  (u - l <= s \/ s <= - (u - l)) ->
  prod_len (p ++ (l, u) :: q) <= Z.of_nat fuel ->
  copy_to fuel (fun x => x) (range_of (p ++ (l, u) :: q)) (range_of (p ++ (l + s, u + s) :: q)) (iface_of b v) =
  Done (iface_of b (fun c => if in_boxb (p ++ (l + s, u + s) :: q) c then v (shift_at (List.length p) (- s) c) else v c)).
Proof.
  intros T v b p l u q s fuel V Hn Hi1 Hi2 Hs Hf.
  set (bf := p ++ (l, u) :: q) in *. set (bt := p ++ (l + s, u + s) :: q) in *.
  assert (Hnt : nonempty bt).
  { unfold bt, bf in *. apply nonempty_app in Hn as [A B]. apply nonempty_app. split; auto.
    inversion B; subst. constructor; auto. simpl in *. lia. }
  assert (Hp : prod_len bf = prod_len bt).
  { unfold bt, bf. rewrite !prod_len_app. simpl. f_equal. f_equal. lia. }
  assert (Hd : forall c, in_box bf c -> in_box bt c -> False).
  { intros c H1 H2. apply nth_in_box in H1. apply nth_in_box in H2. lia. }
  pose proof (iface_of_ok T b v V) as Hok.
  destruct (copy_to_ok (fun x : iface T => x) b bf b bt (iface_of b v) Hok (fun j H _ => H)
    Hn Hnt Hi1 Hi2 Hp (ind_self T b bf bt Hi1 Hi2 Hd) fuel ltac:(lia)) as (i' & E & Hok' & _ & Hset & Hframe).
  rewrite E. f_equal. apply iface_eq_of; auto. intros c Hc.
  destruct (in_boxb bt c) eqn:Eb.
  - apply in_boxb_iff in Eb. pose proof Eb as Ec. apply in_cells in Ec.
    unfold bt in Ec. rewrite cells_shift in Ec. fold bf in Ec.
    apply In_nth_error in Ec as (k & Ek). pose proof Ek as Ek'. rewrite nth_error_map in Ek.
    destruct (nth_error (cells bf) k) as [cs|] eqn:Ecs; [|discriminate]. simpl in Ek. inversion Ek; subst c.
    rewrite shift_at_inv.
    assert (Ecd : nth_error (cells bt) k = Some (shift_at (List.length p) s cs))
      by (unfold bt; rewrite cells_shift; exact Ek').
    rewrite (Hset k cs _ Ecs Ecd). apply cont_of; [apply V|].
    apply (box_incl_in _ _ _ Hi1). apply in_cells. eapply nth_error_In; eauto.
  - apply in_boxb_false in Eb. rewrite Hframe by assumption. apply cont_of; auto. apply V.
Qed.

(** ** loops over a sub box changing each visited cell *)

Lemma for_update : forall T (v : list Z -> T) b bs (g : list Z -> T -> T) body fuel,
  valid_box b -> nonempty bs -> box_incl bs b -> prod_len bs <= Z.of_nat fuel ->
  (forall c j w, in_box bs c -> iface_ok j b -> cont b (if_data j) c = Some w ->
     body (ix_at b bs c) j =
     Done (mkIface (if_range j) (upd (if_data j) (Z.to_nat (offset b c)) (g c w)))) ->
  for_indexer fuel (ix_at b bs (first_cell bs)) body (iface_of b v) =
  Done (iface_of b (fun c => if in_boxb bs c then g c (v c) else v c)).
Proof.
  intros T v b bs g body fuel V Hn Hi Hf Hbody.
  pose proof (iface_of_ok T b v V) as Hok.
  rewrite for_indexer_cells by (try assumption; apply (iface_good T (iface_of b v)); auto).
  destruct (for_put T b bs (fun x => x) g (cells bs) (iface_of b v) body) as (i' & E & Hok' & Hr & Hset & Hframe); auto.
  - apply cells_NoDup.
  - intros c Hc. apply (box_incl_in _ _ _ Hi). now apply in_cells.
  - intros c j w Hc. apply Hbody. now apply in_cells.
  - rewrite E. f_equal. apply iface_eq_of; auto. intros c Hc. destruct (in_boxb bs c) eqn:Eb.
    + apply in_boxb_iff in Eb. apply Hset; [now apply in_cells|]. apply cont_of; auto. apply V.
    + apply in_boxb_false in Eb. rewrite Hframe; auto.
      * apply cont_of; auto. apply V.
      * intros Hin. apply Eb. now apply in_cells.
Qed.

Section Scale.
Context {F : Type} {A : Arith F}.

Lemma scale_ok : forall (v : list Z -> F) b bs s fuel,
  valid_box b -> nonempty bs -> box_incl bs b -> prod_len bs <= Z.of_nat fuel ->
  chunk_scale fuel (range_of bs) s (iface_of b v) =
  Done (iface_of b (fun c => if in_boxb bs c then fmul (v c) s else v c)).
Proof.
  intros v b bs s fuel V Hn Hi Hf. unfold chunk_scale, iface_indexer. cbn [if_range iface_of].
  rewrite (indexer_make_ok b bs) by (apply (iface_good F (iface_of b v)); auto using iface_of_ok). cbn [liftr].
  apply (for_update F v b bs (fun _ w => fmul w s)); auto.
  intros c j w Hc Hj Hw. assert (in_box b c) by (exact (box_incl_in _ _ _ Hi Hc)).
  rewrite (get_at _ _ _ _ _ _ Hj H Hw). cbn [liftr]. rewrite (put_at _ _ _ _ _ _ Hj H). reflexivity.
Qed.

End Scale.

(** ** fill of everything *)

Lemma fill_all_of : forall T b (u : list Z -> T) v, iface_fill_all v (iface_of b u) = iface_of b (fun _ => v).
Proof. intros. unfold iface_fill_all, iface_of. simpl. now rewrite map_map. Qed.
