(** * ChunkFacts: resizing, assigning and copying chunks; ghost geometry. *)
From Coq Require Import ZArith List String Lia Bool.
From Verif Require Import Base BaseFacts BoxSpec BoxFacts Range RangeSpec RangeFacts
  Indexer IndexerFacts Interface InterfaceFacts ApiSpec ApiFacts Arith Chunk FieldSpec FieldFacts.
Import ListNotations.
Open Scope Z_scope.

(** ** boxes not longer than a representable one *)

Definition shorter (b B : box) : Prop :=
  Forall2 (fun i o => 0 <= snd i - fst i <= snd o - fst o) b B.

Lemma shorter_refl : forall b, nonempty b -> shorter b b.
Proof. induction b; intros H; inversion H; subst; constructor; auto; [lia|now apply IHb]. Qed.

Lemma shorter_app : forall a A b B, shorter a A -> shorter b B -> shorter (a ++ b) (A ++ B).
Proof. intros. now apply Forall2_app. Qed.

Lemma shorter_prod : forall b B, shorter b B -> nonempty B -> 0 <= prod_len b <= prod_len B.
Proof.
  induction b as [|[l u] b IH]; intros B H Hn; inversion H; subst; simpl; [lia|].
  destruct y as [l1 u1]. inversion Hn; subst. simpl in *. specialize (IH _ H4 H5). pose proof (prod_len_pos _ H5). nia.
Qed.

Lemma shorter_fit : forall b B, shorter b B -> nonempty B -> prod_len B <= int_max -> fit b.
Proof.
  induction b as [|[l u] b IH]; intros B H Hn Hv; inversion H; subst.
  - split; exact I.
  - destruct y as [l1 u1]. inversion Hn; subst. simpl in *.
    pose proof (prod_len_pos _ H5) as P. pose proof (shorter_prod _ _ H4 H5) as Q.
    assert (F : fit b) by (eapply IH; eauto; nia).
    split; [now apply strides_fit_cons|]. unfold vol_fit, is_int, int_min, int_max in *. simpl. split; nia.
Qed.

Lemma shorter_strides : forall b B, shorter b B -> nonempty B -> prod_len B <= int_max -> strides_fit b.
Proof. intros. apply fit_strides. eapply shorter_fit; eauto. Qed.

(** ** grow *)

Lemma grow_length : forall g M, List.length (grow g M) = List.length M.
Proof. intros. apply map_length. Qed.
Lemma grow_app : forall g a b, grow g (a ++ b) = grow g a ++ grow g b.
Proof. intros. apply map_app. Qed.
Lemma grow_0 : forall M, grow 0 M = M.
Proof. induction M as [|[l u] M IH]; [reflexivity|]. cbn. unfold grow in IH. rewrite IH. repeat f_equal; lia. Qed.

Lemma shorter_grow : forall g M, 0 <= g -> nonempty M -> shorter M (grow g M).
Proof. intros g M Hg. induction M as [|[l u] M IH]; intros H; inversion H; subst; constructor; [simpl in *; lia|now apply IH]. Qed.

Lemma nonempty_grow : forall g M, 0 <= g -> nonempty M -> nonempty (grow g M).
Proof. intros g M Hg. induction M as [|[l u] M IH]; intros H; inversion H; subst; constructor; [simpl in *; lia|now apply IH]. Qed.

Lemma box_incl_grow : forall g M, 0 <= g -> box_incl M (grow g M).
Proof. intros g M Hg. induction M as [|[l u] M IH]; constructor; [simpl; lia|exact IH]. Qed.

Lemma box_incl_app : forall a A b B, box_incl a A -> box_incl b B -> box_incl (a ++ b) (A ++ B).
Proof. intros. now apply Forall2_app. Qed.

(** ** shapes *)

Lemma shape_valid : forall M D g, shape M D g -> valid_box (grow g M ++ D).
Proof.
  intros M D g (H1 & H2 & H3 & H4 & H5 & H6 & H7). unfold valid_box. splits; auto.
  - destruct M; [congruence|discriminate].
  - apply nonempty_app. split; auto. now apply nonempty_grow.
Qed.

Lemma prod_app_le : forall a b, nonempty (a ++ b) -> prod_len a <= prod_len (a ++ b).
Proof.
  intros a b H. apply nonempty_app in H as [Ha Hb]. rewrite prod_len_app.
  pose proof (prod_len_pos _ Ha). pose proof (prod_len_pos _ Hb). nia.
Qed.
Lemma prod_app_le_r : forall a b, nonempty (a ++ b) -> prod_len b <= prod_len (a ++ b).
Proof.
  intros a b H. apply nonempty_app in H as [Ha Hb]. rewrite prod_len_app.
  pose proof (prod_len_pos _ Ha). pose proof (prod_len_pos _ Hb). nia.
Qed.

Lemma shape_ghost_int : forall M D g, shape M D g -> is_int g /\ is_int (0 - g).
Proof.
  intros M D g S. pose proof (shape_valid _ _ _ S) as (_ & V & _). destruct S as (H1 & H2 & H3 & H4 & H5 & H6 & H7).
  destruct M as [|[l u] M]; [congruence|].
  pose proof (prod_len_factor_le (grow g ((l, u) :: M) ++ D) (l - g, u + g) V (or_introl eq_refl)) as P.
  inversion H2; subst. simpl fst in *; simpl snd in *. unfold is_int, int_max, int_min in *. lia.
Qed.

(** ** building ranges dimension by dimension *)

Lemma extrude_all_ok : forall d b B, nonempty B -> prod_len B <= int_max ->
  shorter (b ++ d) B -> Z.of_nat (List.length B) < int_max ->
  extrude_all (range_of b) (map fst d) (map snd d) = Ok (range_of (b ++ d)).
Proof.
  induction d as [|[l u] d IH]; intros b B Hn Hv Hs Hl; cbn [map extrude_all fst snd].
  - now rewrite app_nil_r.
  - assert (L : List.length (b ++ (l, u) :: d) = List.length B) by (eapply Forall2_length; eauto).
    rewrite app_length in L. cbn [List.length] in L.
    assert (E : b ++ (l, u) :: d = (b ++ [(l, u)]) ++ d) by (rewrite <- app_assoc; reflexivity).
    rewrite range_extrude_ok.
    + cbn [bind]. rewrite E in *. apply (IH _ B); auto.
    + unfold is_int, int_min, int_max in *. lia.
    + rewrite E in Hs. apply Forall2_app_inv_l in Hs as (B1 & B2 & S1 & S2 & ->).
      eapply shorter_strides; eauto.
      * now apply nonempty_app in Hn.
      * pose proof (prod_app_le _ _ Hn). lia.
Qed.

Lemma expand_all_ok : forall Q P g, 0 <= g -> is_int (0 - g) ->
  nonempty (P ++ Q) -> nonempty (P ++ grow g Q) -> prod_len (P ++ grow g Q) <= int_max ->
  int_bounds (grow g Q) ->
  expand_all (List.length Q) (Z.of_nat (List.length P)) (range_of (P ++ Q)) g = Ok (range_of (P ++ grow g Q)).
Proof.
  induction Q as [|[l u] Q IH]; intros P g Hg Hig Hn Hn2 Hv Hi; cbn [List.length expand_all].
  - reflexivity.
  - rewrite isub_ok by assumption. cbn [bind]. inversion Hi as [|? ? [I1 I2] I3]; subst. simpl in I1, I2.
    rewrite (range_expand_ok P l u Q (0 - g) g); auto.
    + cbn [bind]. cbn [grow map fst snd] in *. fold (grow g Q) in *.
      replace (l + (0 - g)) with (l - g) by lia.
      replace (Z.of_nat (List.length P) + 1) with (Z.of_nat (List.length (P ++ [(l - g, u + g)])))
        by (rewrite app_length; cbn [List.length]; lia).
      assert (E : forall R, P ++ (l - g, u + g) :: R = (P ++ [(l - g, u + g)]) ++ R) by (intros; rewrite <- app_assoc; reflexivity).
      rewrite (E Q). rewrite (E (grow g Q)) in *. apply IH; auto.
      rewrite <- E. apply nonempty_app in Hn as [N1 N2]. apply nonempty_app. split; auto.
      inversion N2; subst. constructor; auto. simpl in *. lia.
    + replace (l + (0 - g)) with (l - g) by lia. cbn [grow map fst snd] in *. fold (grow g Q) in *.
      eapply shorter_strides; [|exact Hn2|exact Hv].
      apply nonempty_app in Hn as [N1 N2]. inversion N2; subst.
      apply shorter_app; [now apply shorter_refl|]. constructor; [simpl in *; lia|]. now apply shorter_grow.
Qed.

(** ** canonical chunks *)

Section Canon.
Context {F : Type} {A : Arith F}.

Definition chunk_of (Mb D : box) (u : list Z -> F) : chunk F :=
  mkChunk (iface_of (Mb ++ D) u) (range_of Mb) (range_of D).

Definition strip_list (M D : box) (f : nat -> Z * Z) : list range :=
  map (fun d => range_of (slab M D d (fst (f d)) (snd (f d)))) (seq 0 (List.length M)).

Definition echunk_of (M D : box) (g : Z) (u : list Z -> F) : echunk F :=
  mkEchunk (chunk_of (grow g M) D u) g (range_of (M ++ D))
    (strip_list M D (fun d => (lo M d, lo M d + g)))
    (strip_list M D (fun d => (lo M d - g, lo M d)))
    (strip_list M D (fun d => (hi M d - g, hi M d)))
    (strip_list M D (fun d => (hi M d, hi M d + g))).

Lemma strip_list_nth : forall M D f d, (d < List.length M)%nat ->
  nth_error (strip_list M D f) d = Some (range_of (slab M D d (fst (f d)) (snd (f d)))).
Proof.
  intros. unfold strip_list. rewrite nth_error_map.
  rewrite (nth_error_nth' _ 0%nat) by (now rewrite seq_length). rewrite seq_nth by assumption. reflexivity.
Qed.

Lemma strips_are_iff : forall l M D f, strips_are l M D f <-> l = strip_list M D f.
Proof.
  intros l M D f. split.
  - intros [L H]. apply upd_inj_nth. intros d.
    destruct (Nat.lt_ge_cases d (List.length M)) as [Hd|Hd].
    + rewrite strip_list_nth by assumption.
      destruct (nth_error l d) as [r|] eqn:E.
      * f_equal. apply observes_iff. eapply H; eauto.
      * apply nth_error_None in E. lia.
    + rewrite (proj2 (nth_error_None l d)) by lia. symmetry. apply nth_error_None.
      unfold strip_list. rewrite map_length, seq_length. assumption.
  - intros ->. split.
    + unfold strip_list. now rewrite map_length, seq_length.
    + intros d r E. assert (d < List.length M)%nat.
      { assert (d < List.length (strip_list M D f))%nat by (apply nth_error_Some; congruence).
        unfold strip_list in H. now rewrite map_length, seq_length in H. }
      rewrite strip_list_nth in E by assumption. inversion E. apply observes_range_of.
Qed.

Lemma chunk_holds_iff : forall (e : echunk F) M D g u, shape M D g ->
  (chunk_holds e M D g u <-> e = echunk_of M D g u).
Proof.
  intros e M D g u S. pose proof (shape_valid _ _ _ S) as V. unfold chunk_holds. split.
  - intros (H1 & H2 & H3 & H4 & H5 & H6 & H7 & H8 & H9).
    destruct e as [[i m c] g' int li le ui ue]. cbn in *.
    apply holds_iff in H1; auto. apply observes_iff in H2, H3, H5. apply strips_are_iff in H6, H7, H8, H9.
    subst. reflexivity.
  - intros ->. splits; try apply observes_range_of; try apply strips_are_iff; try reflexivity.
    apply holds_iff; auto.
Qed.

Lemma echunk_of_ext : forall M D g u v, (forall c, in_box (grow g M ++ D) c -> u c = v c) ->
  echunk_of M D g u = echunk_of M D g v.
Proof. intros M D g u v H. unfold echunk_of, chunk_of. now rewrite (iface_of_ext _ _ u v). Qed.

Lemma ec_with_of : forall M D g u v, ec_with (echunk_of M D g u) (iface_of (grow g M ++ D) v) = echunk_of M D g v.
Proof. reflexivity. Qed.
Lemma ec_if_of : forall M D g u, ec_if (echunk_of M D g u) = iface_of (grow g M ++ D) u.
Proof. reflexivity. Qed.

(** ** resize *)

Lemma iface_as_of : forall T (d : T) i b, iface_ok i b ->
  i = iface_of b (fun c => nth (Z.to_nat (offset b c)) (if_data i) d).
Proof.
  intros T d i b H. apply iface_eq_of; auto. intros c Hc.
  destruct (cont_some _ _ _ _ H Hc) as (v & E). rewrite E. f_equal. symmetry. now apply nth_error_nth.
Qed.

Lemma chunk_resize_gen : forall (c : chunk F) Mb D,
  Mb <> [] -> nonempty (Mb ++ D) -> prod_len (Mb ++ D) <= int_max -> int_bounds (Mb ++ D) ->
  Z.of_nat (List.length (Mb ++ D)) < int_max ->
  exists i, iface_ok i (Mb ++ D) /\
    if_data i = firstn (Z.to_nat (prod_len (Mb ++ D))) (if_data (ck_if c)) ++
                repeat f0 (Z.to_nat (prod_len (Mb ++ D)) - List.length (if_data (ck_if c)))%nat /\
    chunk_resize c (range_of Mb) (range_of D) = Done (mkChunk i (range_of Mb) (range_of D)).
Proof.
  intros c Mb D HM Hn Hv Hi Hl.
  assert (NM : nonempty Mb /\ nonempty D) by (now apply nonempty_app).
  assert (FM : strides_fit Mb).
  { apply fit_strides, nonempty_fit; [apply NM|]. pose proof (prod_app_le _ _ Hn). lia. }
  assert (FD : strides_fit D).
  { apply fit_strides, nonempty_fit; [apply NM|]. pose proof (prod_app_le_r _ _ Hn). lia. }
  unfold chunk_resize. rewrite !range_copy_of by assumption. cbn [liftr]. rewrite range_copy_of by assumption. cbn [liftr].
  cbn [r_lower r_upper range_of]. rewrite (extrude_all_ok D Mb (Mb ++ D)); auto.
  2:{ now apply shorter_refl. }
  cbn [liftr]. destruct (resize_ok F f0 (ck_if c) (Mb ++ D)) as (i & E & Hok & Hd); auto.
  { destruct Mb; [congruence|discriminate]. }
  rewrite E. cbn [omap]. exists i. auto.
Qed.

Lemma upd_mid : forall T (p : list T) x q y, upd (p ++ x :: q) (List.length p) y = p ++ y :: q.
Proof. induction p; intros; simpl; [reflexivity|]. now rewrite IHp. Qed.

Lemma slab_split : forall M D d, (d < List.length M)%nat ->
  exists p q, M ++ D = p ++ (lo M d, hi M d) :: q /\ List.length p = d /\
    forall l u, slab M D d l u = p ++ (l, u) :: q.
Proof.
  intros M D d Hd. destruct (split_at _ M (Z.of_nat d)) as (p & [l u] & q & -> & L); [lia|].
  assert (List.length p = d) by lia. subst d.
  assert (N : nth (List.length p) (p ++ (l, u) :: q) (0, 0) = (l, u))
    by (rewrite app_nth2 by lia; rewrite Nat.sub_diag; reflexivity).
  exists p, (q ++ D). unfold lo, hi, slab. rewrite N. simpl. splits; auto.
  - now rewrite <- app_assoc.
  - intros l' u'. rewrite <- app_assoc. cbn [app]. apply upd_mid.
Qed.

Lemma shorter_slab : forall M D g d l u, shape M D g -> (d < List.length M)%nat ->
  0 <= u - l <= hi M d - lo M d + 2 * g -> shorter (slab M D d l u) (grow g M ++ D).
Proof.
  intros M D g d l u (H1 & H2 & H3 & H4 & _) Hd H.
  destruct (split_at _ M (Z.of_nat d)) as (p & [a b] & q & -> & L); [lia|].
  assert (List.length p = d) by lia. subst d. unfold slab, lo, hi in *.
  rewrite app_nth2 in H by lia. rewrite Nat.sub_diag in H. cbn [nth fst snd] in H.
  rewrite <- app_assoc. cbn [app]. rewrite upd_mid, grow_app, <- app_assoc.
  apply nonempty_app in H2 as [N1 N2]. inversion N2; subst.
  apply shorter_app; [now apply shorter_grow|]. cbn [grow map fst snd app]. constructor; [cbn [fst snd]; lia|].
  apply shorter_app; [now apply shorter_grow|now apply shorter_refl].
Qed.

Lemma grow_bounds : forall M D g d, shape M D g -> (d < List.length M)%nat ->
  is_int (lo M d) /\ is_int (hi M d) /\ is_int (lo M d - g) /\ is_int (hi M d + g) /\
  is_int (lo M d + g) /\ is_int (hi M d - g) /\ lo M d < hi M d.
Proof.
  intros M D g d (H1 & H2 & H3 & H4 & _ & H6 & _) Hd.
  destruct (split_at _ M (Z.of_nat d)) as (p & [a b] & q & -> & L); [lia|].
  assert (List.length p = d) by lia. subst d. unfold lo, hi.
  rewrite app_nth2 by lia. rewrite Nat.sub_diag. cbn [nth fst snd].
  rewrite grow_app, <- app_assoc in H6. apply Forall_app in H6 as [_ H6]. inversion H6 as [|? ? [I1 I2] _]; subst.
  apply nonempty_app in H2 as [_ N2]. inversion N2; subst. simpl in *. unfold is_int in *. lia.
Qed.

(** One strip function: copies the internal range and sets dimension [d]. *)
Lemma strip_ok : forall M D g d l u, shape M D g -> (d < List.length M)%nat ->
  0 <= u - l <= hi M d - lo M d + 2 * g ->
  range_set (range_of (M ++ D)) (Z.of_nat d) l u = Ok (range_of (slab M D d l u)).
Proof.
  intros M D g d l u S Hd H. destruct (slab_split M D d Hd) as (p & q & E & L & Es).
  rewrite Es, E. apply range_set_ok; [lia|]. rewrite <- Es.
  pose proof (shape_valid _ _ _ S) as (_ & V2 & V3 & _).
  eapply shorter_strides; eauto using shorter_slab.
Qed.

Lemma strip_bounds : forall M D d, (d < List.length M)%nat ->
  range_lower (range_of (M ++ D)) (Z.of_nat d) = Ok (lo M d) /\
  range_upper (range_of (M ++ D)) (Z.of_nat d) = Ok (hi M d).
Proof.
  intros M D d Hd. destruct (slab_split M D d Hd) as (p & q & E & L & _). rewrite E. subst d.
  assert (N : nth_error (p ++ (lo M (List.length p), hi M (List.length p)) :: q) (List.length p) =
              Some (lo M (List.length p), hi M (List.length p)))
    by (rewrite nth_error_app2 by lia; rewrite Nat.sub_diag; reflexivity).
  split; [eapply range_lower_of|eapply range_upper_of]; exact N.
Qed.

Lemma interior_strides : forall M D g, shape M D g -> strides_fit (M ++ D).
Proof.
  intros M D g S. pose proof (shape_valid _ _ _ S) as (_ & V2 & V3 & _).
  eapply shorter_strides; eauto. destruct S as (H1 & H2 & H3 & H4 & _).
  apply shorter_app; [now apply shorter_grow|now apply shorter_refl].
Qed.

Lemma strip_low_ext_ok : forall M D g d, shape M D g -> (d < List.length M)%nat ->
  strip_low_ext (range_of (M ++ D)) (Z.of_nat d) g = Ok (range_of (slab M D d (lo M d - g) (lo M d))).
Proof.
  intros M D g d S Hd. pose proof (grow_bounds _ _ _ _ S Hd) as B. pose proof (proj1 (proj2 (proj2 (proj2 S)))) as Hg.
  unfold strip_low_ext. rewrite range_copy_of by (eapply interior_strides; eauto). cbn [bind].
  rewrite (proj1 (strip_bounds M D d Hd)). cbn [bind]. rewrite isub_ok by tauto. cbn [bind].
  eapply strip_ok; eauto. lia.
Qed.
Lemma strip_low_int_ok : forall M D g d, shape M D g -> (d < List.length M)%nat ->
  strip_low_int (range_of (M ++ D)) (Z.of_nat d) g = Ok (range_of (slab M D d (lo M d) (lo M d + g))).
Proof.
  intros M D g d S Hd. pose proof (grow_bounds _ _ _ _ S Hd) as B. pose proof (proj1 (proj2 (proj2 (proj2 S)))) as Hg.
  unfold strip_low_int. rewrite range_copy_of by (eapply interior_strides; eauto). cbn [bind].
  rewrite (proj1 (strip_bounds M D d Hd)). cbn [bind]. rewrite iadd_ok by tauto. cbn [bind].
  eapply strip_ok; eauto. lia.
Qed.
Lemma strip_up_int_ok : forall M D g d, shape M D g -> (d < List.length M)%nat ->
  strip_up_int (range_of (M ++ D)) (Z.of_nat d) g = Ok (range_of (slab M D d (hi M d - g) (hi M d))).
Proof.
  intros M D g d S Hd. pose proof (grow_bounds _ _ _ _ S Hd) as B. pose proof (proj1 (proj2 (proj2 (proj2 S)))) as Hg.
  unfold strip_up_int. rewrite range_copy_of by (eapply interior_strides; eauto). cbn [bind].
  rewrite (proj2 (strip_bounds M D d Hd)). cbn [bind]. rewrite isub_ok by tauto. cbn [bind].
  eapply strip_ok; eauto. lia.
Qed.
Lemma strip_up_ext_ok : forall M D g d, shape M D g -> (d < List.length M)%nat ->
  strip_up_ext (range_of (M ++ D)) (Z.of_nat d) g = Ok (range_of (slab M D d (hi M d) (hi M d + g))).
Proof.
  intros M D g d S Hd. pose proof (grow_bounds _ _ _ _ S Hd) as B. pose proof (proj1 (proj2 (proj2 (proj2 S)))) as Hg.
  unfold strip_up_ext. rewrite range_copy_of by (eapply interior_strides; eauto). cbn [bind].
  rewrite (proj2 (strip_bounds M D d Hd)). cbn [bind]. rewrite iadd_ok by tauto. cbn [bind].
  eapply strip_ok; eauto. lia.
Qed.

Lemma strips_ok : forall f M D g h, (forall d, (d < List.length M)%nat ->
    f (range_of (M ++ D)) (Z.of_nat d) g = Ok (range_of (slab M D d (fst (h d)) (snd (h d))))) ->
  strips f (List.length M) 0 (range_of (M ++ D)) g = Ok (strip_list M D h).
Proof.
  intros f M D g h H.
  assert (G : forall n d, (d + n <= List.length M)%nat ->
    strips f n (Z.of_nat d) (range_of (M ++ D)) g =
    Ok (map (fun d => range_of (slab M D d (fst (h d)) (snd (h d)))) (seq d n))).
  { induction n as [|n IH]; intros d Hd; cbn [strips seq map]; [reflexivity|].
    rewrite H by lia. cbn [bind]. replace (Z.of_nat d + 1) with (Z.of_nat (S d)) by lia.
    rewrite IH by lia. reflexivity. }
  apply (G (List.length M) 0%nat). lia.
Qed.

Lemma echunk_resize_gen : forall (e : echunk F) M D g, shape M D g ->
  exists i, iface_ok i (grow g M ++ D) /\
    if_data i = firstn (Z.to_nat (prod_len (grow g M ++ D))) (if_data (ec_if e)) ++
                repeat f0 (Z.to_nat (prod_len (grow g M ++ D)) - List.length (if_data (ec_if e)))%nat /\
    echunk_resize e (range_of M) (range_of D) g =
    Done (ec_with (echunk_of M D g (fun _ => f0)) i).
Proof.
  intros e M D g S. pose proof (shape_valid _ _ _ S) as (V1 & V2 & V3 & V4).
  pose proof (shape_ghost_int _ _ _ S) as [G1 G2].
  pose proof S as (H1 & H2 & H3 & H4 & H5 & H6 & H7).
  assert (NGM : nonempty (grow g M)) by (now apply nonempty_grow).
  assert (VGM : prod_len (grow g M) <= int_max) by (pose proof (prod_app_le _ _ V2); lia).
  assert (SM : shorter M (grow g M)) by (now apply shorter_grow).
  unfold echunk_resize. rewrite range_copy_of by (eapply shorter_strides; eauto). cbn [liftr].
  change (r_nd (range_of M)) with (Z.of_nat (List.length M)). rewrite Nat2Z.id.
  pose proof (expand_all_ok M [] g H4 G2 H2 NGM VGM) as EX. cbn [app List.length Z.of_nat] in EX.
  rewrite EX by (apply Forall_app in V4; tauto). cbn [liftr].
  destruct (chunk_resize_gen (ec_chunk e) (grow g M) D) as (i & Hok & Hd & E); auto.
  { destruct M; [congruence|discriminate]. }
  { rewrite app_length, grow_length, <- app_length. assumption. }
  rewrite E. cbn [omap obind]. cbn [r_lower r_upper range_of].
  assert (NB : prod_len M <= prod_len (grow g M)) by (apply shorter_prod; auto).
  assert (E1 : extrude_all range_empty (map fst M) (map snd M) = Ok (range_of M)).
  { change range_empty with (range_of []). rewrite (extrude_all_ok M [] (grow g M)); auto.
    rewrite grow_length. rewrite app_length in H7. lia. }
  rewrite E1. cbn [liftr].
  assert (E2 : extrude_all (range_of M) (map fst D) (map snd D) = Ok (range_of (M ++ D))).
  { rewrite (extrude_all_ok D M (grow g M ++ D)); auto.
    - apply shorter_app; auto. now apply shorter_refl.
    - rewrite app_length, grow_length, <- app_length. assumption. }
  rewrite E2. cbn [liftr]. change (r_nd (range_of (grow g M))) with (Z.of_nat (List.length (grow g M))).
  rewrite Nat2Z.id, grow_length.
  rewrite (strips_ok strip_low_ext M D g (fun d => (lo M d - g, lo M d))) by (intros; now apply strip_low_ext_ok).
  cbn [liftr].
  rewrite (strips_ok strip_low_int M D g (fun d => (lo M d, lo M d + g))) by (intros; now apply strip_low_int_ok).
  cbn [liftr].
  rewrite (strips_ok strip_up_int M D g (fun d => (hi M d - g, hi M d))) by (intros; now apply strip_up_int_ok).
  cbn [liftr].
  rewrite (strips_ok strip_up_ext M D g (fun d => (hi M d, hi M d + g))) by (intros; now apply strip_up_ext_ok).
  cbn [liftr]. exists i. splits; auto.
Qed.

Lemma echunk_resize_any : forall (e : echunk F) M D g, shape M D g ->
  exists u, echunk_resize e (range_of M) (range_of D) g = Done (echunk_of M D g u).
Proof.
  intros e M D g S. destruct (echunk_resize_gen e M D g S) as (i & Hok & _ & E).
  eexists. rewrite E. f_equal. etransitivity; [|apply ec_with_of]. f_equal. exact (iface_as_of F f0 i _ Hok).
Qed.

Lemma echunk_resize_fresh : forall (e : echunk F) M D g, shape M D g -> if_data (ec_if e) = [] ->
  echunk_resize e (range_of M) (range_of D) g = Done (echunk_of M D g (fun _ => f0)).
Proof.
  intros e M D g S He. destruct (echunk_resize_gen e M D g S) as (i & Hok & Hd & E).
  rewrite E, (iface_eq_of F i (grow g M ++ D) (fun _ => f0) Hok); auto.
  intros c Hc. unfold cont. rewrite Hd, He, firstn_nil. cbn [app List.length].
  pose proof (offset_bounds _ _ Hc). rewrite (nth_error_nth' _ f0); [|rewrite repeat_length; lia]. f_equal. apply nth_repeat.
Qed.

(** ** assignment and copies of chunks *)

Lemma chunk_assign_of : forall (c : chunk F) Mb D u fuel,
  Mb <> [] -> nonempty (Mb ++ D) -> prod_len (Mb ++ D) <= int_max -> int_bounds (Mb ++ D) ->
  Z.of_nat (List.length (Mb ++ D)) < int_max -> prod_len (Mb ++ D) <= Z.of_nat fuel ->
  chunk_assign fuel (chunk_of Mb D u) c = Done (chunk_of Mb D u).
Proof.
  intros c Mb D u fuel HM Hn Hv Hi Hl Hf. unfold chunk_assign. cbn [ck_mesh ck_comp ck_if chunk_of].
  destruct (chunk_resize_gen c Mb D) as (i & Hok & _ & E); auto. rewrite E. cbn [obind ck_if ck_mesh ck_comp].
  unfold iface_pull_all. rewrite (io_range _ _ Hok). cbn [if_range iface_of].
  assert (V : valid_box (Mb ++ D)).
  { unfold valid_box. splits; auto. destruct Mb; [congruence|discriminate]. }
  destruct (pull_ok (fun _ => iface_of (Mb ++ D) u) (Mb ++ D) (Mb ++ D) (Mb ++ D) (Mb ++ D) i Hok
    (fun _ _ _ => iface_of_ok F _ u V) Hn Hn (box_incl_refl _) (box_incl_refl _) eq_refl
    (ind_const F _ _ _ _ _) fuel Hf) as (i' & E' & Hok' & _ & Hset & _).
  rewrite E'. cbn [omap]. unfold chunk_of. f_equal. f_equal. apply iface_eq_of; auto.
  intros x Hx. apply in_cells in Hx as Hx'. apply In_nth_error in Hx' as (k & Hk).
  rewrite (Hset k x x Hk Hk). now apply cont_of.
Qed.

Lemma chunk_copy_of : forall Mb D u,
  Mb <> [] -> nonempty (Mb ++ D) -> prod_len (Mb ++ D) <= int_max -> int_bounds (Mb ++ D) ->
  chunk_copy (chunk_of Mb D u) = Done (chunk_of Mb D (fun _ => f0)).
Proof.
  intros Mb D u HM Hn Hv Hi. unfold chunk_copy. cbn [ck_if ck_mesh ck_comp chunk_of].
  unfold iface_copy. cbn [if_range iface_of].
  assert (V : Mb ++ D <> []) by (destruct Mb; [congruence|discriminate]).
  destruct (new_ok F f0 (Mb ++ D)) as (i & E & Hok & Hc); auto. rewrite E. cbn [omap obind ck_if].
  pose proof (prod_app_le _ _ Hn). pose proof (prod_app_le_r _ _ Hn).
  assert (NM : nonempty Mb /\ nonempty D) by (now apply nonempty_app).
  rewrite range_copy_of by (apply fit_strides, nonempty_fit; [tauto|lia]). cbn [liftr].
  rewrite range_copy_of by (apply fit_strides, nonempty_fit; [tauto|lia]). cbn [liftr].
  unfold chunk_of. rewrite (iface_eq_of F i (Mb ++ D) (fun _ => f0) Hok); auto.
Qed.

Lemma echunk_assign_of : forall (e : echunk F) M D g u fuel, shape M D g ->
  prod_len (grow g M ++ D) <= Z.of_nat fuel ->
  echunk_assign fuel (echunk_of M D g u) e = Done (echunk_of M D g u).
Proof.
  intros e M D g u fuel S Hf. pose proof (shape_valid _ _ _ S) as (V1 & V2 & V3 & V4).
  unfold echunk_assign. cbn [ec_chunk echunk_of].
  rewrite chunk_assign_of; auto.
  - cbn [omap obind]. cbn [ec_internal echunk_of ec_chunk]. rewrite range_copy_of by (eapply interior_strides; eauto). reflexivity.
  - destruct S as (H & _). destruct M; [congruence|discriminate].
  - rewrite app_length, grow_length, <- app_length. apply S.
Qed.

End Canon.

(** ** API level *)
Section Api.
Context {F : Type} {A : Arith F}.

Lemma datachunk_holds_iff : forall (c : chunk F) Mb D u, shape Mb D 0 ->
  (datachunk_holds c Mb D u <-> c = chunk_of Mb D u).
Proof.
  intros c Mb D u S. pose proof (shape_valid _ _ _ S) as V. rewrite grow_0 in V. unfold datachunk_holds. split.
  - intros (H1 & H2 & H3). destruct c as [i m d]. cbn in *. apply holds_iff in H1; auto.
    apply observes_iff in H2, H3. subst. reflexivity.
  - intros ->. splits; try apply observes_range_of. now apply holds_iff.
Qed.

Lemma shape0_parts : forall Mb D, shape Mb D 0 ->
  Mb <> [] /\ nonempty (Mb ++ D) /\ prod_len (Mb ++ D) <= int_max /\ int_bounds (Mb ++ D) /\
  Z.of_nat (List.length (Mb ++ D)) < int_max.
Proof.
  intros Mb D S. pose proof (shape_valid _ _ _ S) as (_ & V2 & V3 & V4). rewrite grow_0 in *.
  splits; auto; apply S.
Qed.

Lemma api_chunk_assign : forall (src c : chunk F) Mb D u fuel, shape Mb D 0 ->
  datachunk_holds src Mb D u -> prod_len (Mb ++ D) <= Z.of_nat fuel ->
  exists c', chunk_assign fuel src c = Done c' /\ datachunk_holds c' Mb D u.
Proof.
  intros src c Mb D u fuel S H Hf. pose proof (shape0_parts _ _ S) as (P1 & P2 & P3 & P4 & P5).
  apply datachunk_holds_iff in H; auto. subst src. exists (chunk_of Mb D u). split.
  - now apply chunk_assign_of.
  - now apply datachunk_holds_iff.
Qed.

Lemma api_chunk_copy : forall (src : chunk F) Mb D u, shape Mb D 0 -> datachunk_holds src Mb D u ->
  exists c', chunk_copy src = Done c' /\ datachunk_holds c' Mb D (fun _ => f0).
Proof.
  intros src Mb D u S H. pose proof (shape0_parts _ _ S) as (P1 & P2 & P3 & P4 & P5).
  apply datachunk_holds_iff in H; auto. subst src. exists (chunk_of Mb D (fun _ => f0)). split.
  - now apply chunk_copy_of.
  - now apply datachunk_holds_iff.
Qed.

Lemma api_echunk_assign : forall (src e : echunk F) M D g u fuel, shape M D g ->
  chunk_holds src M D g u -> prod_len (grow g M ++ D) <= Z.of_nat fuel ->
  exists e', echunk_assign fuel src e = Done e' /\ chunk_holds e' M D g u.
Proof.
  intros src e M D g u fuel S H Hf. apply chunk_holds_iff in H; auto. subst src.
  exists (echunk_of M D g u). split.
  - now apply echunk_assign_of.
  - now apply chunk_holds_iff.
Qed.

Lemma api_echunk_resize : forall (e : echunk F) mesh comp M D g, shape M D g ->
  observes mesh M -> observes comp D ->
  exists e' u, echunk_resize e mesh comp g = Done e' /\ chunk_holds e' M D g u.
Proof.
  intros e mesh comp M D g S H1 H2. apply observes_iff in H1, H2. subst.
  destruct (echunk_resize_any e M D g S) as (u & E). exists (echunk_of M D g u), u. split; auto.
  now apply chunk_holds_iff.
Qed.

Lemma api_echunk_fresh : forall mesh comp M D g, shape M D g ->
  observes mesh M -> observes comp D ->
  exists e', echunk_resize (echunk_default (F := F)) mesh comp g = Done e' /\ chunk_holds e' M D g (fun _ => f0).
Proof.
  intros mesh comp M D g S H1 H2. apply observes_iff in H1, H2. subst.
  exists (echunk_of M D g (fun _ => f0)). split; [now apply echunk_resize_fresh|]. now apply chunk_holds_iff.
Qed.
End Api.

(** ** geometry of slabs *)

Lemma slab_prod : forall M D d, (d < List.length M)%nat ->
  exists k, forall l u, prod_len (slab M D d l u) = (u - l) * k.
Proof.
  intros M D d Hd. destruct (slab_split M D d Hd) as (p & q & _ & _ & E).
  exists (prod_len p * prod_len q). intros. rewrite E, prod_len_app. simpl. ring.
Qed.

Lemma slab_incl_grow : forall M D g d l u, 0 <= g -> (d < List.length M)%nat ->
  lo M d - g <= l -> u <= hi M d + g -> box_incl (slab M D d l u) (grow g M ++ D).
Proof.
  intros M D g d l u Hg Hd H1 H2.
  destruct (split_at _ M (Z.of_nat d)) as (p & [a b] & q & -> & L); [lia|].
  assert (List.length p = d) by lia. subst d. unfold slab, lo, hi in *.
  rewrite app_nth2 in H1, H2 by lia. rewrite Nat.sub_diag in H1, H2. cbn [nth fst snd] in *.
  rewrite <- app_assoc. cbn [app]. rewrite upd_mid, grow_app, <- app_assoc.
  apply box_incl_app; [now apply box_incl_grow|]. cbn [grow map fst snd app]. constructor; [cbn; lia|].
  apply box_incl_app; [now apply box_incl_grow|apply box_incl_refl].
Qed.

Lemma slab_incl_interior : forall M D d l u, (d < List.length M)%nat ->
  lo M d <= l -> u <= hi M d -> box_incl (slab M D d l u) (M ++ D).
Proof.
  intros. pose proof (slab_incl_grow M D 0 d l u) as I. rewrite grow_0 in I. apply I; lia.
Qed.

Lemma in_slab_iff : forall M D d l u c, (d < List.length M)%nat ->
  (in_box (slab M D d l u) c <->
   List.length c = List.length (M ++ D) /\ l <= nth d c 0 < u /\
   forall e, e <> d -> (e < List.length (M ++ D))%nat -> lo (M ++ D) e <= nth e c 0 < hi (M ++ D) e).
Proof.
  intros M D d l u c Hd. unfold slab.
  assert (Hd' : (d < List.length (M ++ D))%nat) by (rewrite app_length; lia). clear Hd.
  revert d c Hd'. generalize (M ++ D) as B. clear M D.
  induction B as [|[a b] B IH]; intros d c Hd; [simpl in Hd; lia|].
  destruct d as [|d]; cbn [upd].
  - split.
    + intros H. inversion H; subst. simpl in H2. cbn [List.length nth]. splits; try lia.
      * now rewrite (in_box_length _ _ H4).
      * intros [|e] He1 He2; [congruence|]. clear - H4 He2. cbn [List.length nth] in *. unfold lo, hi. cbn [nth].
        assert (L : (e < List.length B)%nat) by lia. clear He2. revert e L.
        induction H4; intros [|e] L; cbn [List.length nth] in *; try lia. apply IHForall2. lia.
    + intros (L & H1 & H2). destruct c as [|x c]; [discriminate|]. constructor; [exact H1|].
      cbn [List.length] in L. assert (L' : List.length c = List.length B) by lia.
      assert (H3 : forall e, (e < List.length B)%nat -> lo B e <= nth e c 0 < hi B e).
      { intros e He. specialize (H2 (S e)). cbn [nth List.length] in H2. unfold lo, hi in *. apply H2; lia. }
      clear - L' H3. revert c L' H3. induction B as [|[a b] B IH]; intros [|x c] L H; try discriminate; constructor.
      * specialize (H 0%nat). cbn in H. apply H. lia.
      * apply IH; [cbn in L; lia|]. intros e He. specialize (H (S e)). cbn in H. apply H. lia.
  - split.
    + intros H. inversion H; subst. apply IH in H4; [|cbn in Hd; lia]. destruct H4 as (L & H3 & H4). cbn [nth List.length].
      splits; try lia. intros [|e] He1 He2; [exact H2|]. apply H4; [congruence|]. lia.
    + intros (L & H1 & H2). destruct c as [|x c]; [discriminate|]. constructor.
      * specialize (H2 0%nat). cbn in H2. apply H2; lia.
      * apply IH; [cbn in Hd; lia|]. cbn in L. split; [lia|split; [exact H1|]]. intros e He1 He2. specialize (H2 (S e)). cbn in H2.
        apply H2; [congruence|lia].
Qed.

Lemma lo_app : forall M D d, (d < List.length M)%nat -> lo (M ++ D) d = lo M d.
Proof. intros. unfold lo. now rewrite app_nth1. Qed.
Lemma hi_app : forall M D d, (d < List.length M)%nat -> hi (M ++ D) d = hi M d.
Proof. intros. unfold hi. now rewrite app_nth1. Qed.

Lemma in_interior_nth : forall M D c d, in_box (M ++ D) c -> (d < List.length M)%nat -> lo M d <= nth d c 0 < hi M d.
Proof.
  intros M D c d H Hd. assert (E : M ++ D = slab M D d (lo M d) (hi M d)).
  { destruct (slab_split M D d Hd) as (p & q & E & _ & Es). now rewrite Es. }
  rewrite E in H. now apply in_slab_iff in H.
Qed.

Lemma slab_disjoint_interior : forall M D d l u, (d < List.length M)%nat ->
  (u <= lo M d \/ hi M d <= l) -> disjoint (slab M D d l u) (M ++ D).
Proof.
  intros M D d l u Hd H c H1 H2. apply in_slab_iff in H1; auto. pose proof (in_interior_nth _ _ _ _ H2 Hd). lia.
Qed.

Lemma slab_disjoint_other : forall M D d l u e l' u', (d < List.length M)%nat -> (e < List.length M)%nat -> d <> e ->
  (u <= lo M d \/ hi M d <= l) -> disjoint (slab M D d l u) (slab M D e l' u').
Proof.
  intros M D d l u e l' u' Hd He Hne H c H1 H2. apply in_slab_iff in H1; auto. apply in_slab_iff in H2; auto.
  destruct H1 as (_ & H1 & _). destruct H2 as (_ & _ & H2). specialize (H2 d Hne).
  rewrite app_length, lo_app, hi_app in H2 by assumption. specialize (H2 ltac:(lia)). lia.
Qed.

Lemma slab_disjoint_same : forall M D d l u l' u', (d < List.length M)%nat -> (u <= l' \/ u' <= l) ->
  disjoint (slab M D d l u) (slab M D d l' u').
Proof.
  intros M D d l u l' u' Hd H c H1 H2. apply in_slab_iff in H1; auto. apply in_slab_iff in H2; auto. lia.
Qed.

Lemma api_strip_geometry : forall M D g d, shape M D g -> (d < List.length M)%nat ->
  let le := slab M D d (lo M d - g) (lo M d) in
  let li := slab M D d (lo M d) (lo M d + g) in
  let ui := slab M D d (hi M d - g) (hi M d) in
  let ue := slab M D d (hi M d) (hi M d + g) in
  (prod_len le = prod_len li /\ prod_len li = prod_len ui /\ prod_len ui = prod_len ue) /\
  (box_incl le (grow g M ++ D) /\ box_incl li (grow g M ++ D) /\
   box_incl ui (grow g M ++ D) /\ box_incl ue (grow g M ++ D)) /\
  (disjoint le (interior M D) /\ disjoint ue (interior M D) /\ disjoint le ue) /\
  (g <= hi M d - lo M d -> box_incl li (interior M D) /\ box_incl ui (interior M D)) /\
  (forall e l u, (e < List.length M)%nat -> e <> d ->
     disjoint le (slab M D e l u) /\ disjoint ue (slab M D e l u)).
Proof.
  intros M D g d S Hd le li ui ue. pose proof (grow_bounds _ _ _ _ S Hd) as B.
  pose proof (proj1 (proj2 (proj2 (proj2 S)))) as Hg.
  destruct (slab_prod M D d Hd) as (k & K).
  split; [|split; [|split; [|split]]].
  - unfold le, li, ui, ue. rewrite !K. splits; ring.
  - splits; apply slab_incl_grow; auto; lia.
  - splits; [apply slab_disjoint_interior|apply slab_disjoint_interior|apply slab_disjoint_same]; auto; lia.
  - intros H. split; apply slab_incl_interior; auto; lia.
  - intros e l u He Hne. split; apply slab_disjoint_other; auto; lia.
Qed.

(** [shape] of concrete boxes by computation. *)
Definition shapeb (M D : box) (g : Z) : bool :=
  match M with [] => false | _ => true end &&
  forallb (fun iv => fst iv <? snd iv) (M ++ D) && (0 <=? g) &&
  (prod_len (grow g M ++ D) <=? int_max) &&
  forallb (fun iv => is_intb (fst iv) && is_intb (snd iv)) (grow g M ++ D) &&
  (Z.of_nat (List.length (M ++ D)) <? int_max).
Lemma shapeb_ok : forall M D g, shapeb M D g = true -> shape M D g.
Proof.
  unfold shapeb. intros M D g H. rewrite !andb_true_iff in H. destruct H as (((((H1 & H2) & H3) & H4) & H5) & H6).
  rewrite forallb_app, andb_true_iff in H2. destruct H2 as [H2 H2'].
  rewrite forallb_forall in H2, H2', H5.
  unfold shape, nonempty, int_bounds. rewrite !Forall_forall. splits; try lia.
  - destruct M; [discriminate|congruence].
  - intros x Hx. specialize (H2 x Hx). lia.
  - intros x Hx. specialize (H2' x Hx). lia.
  - intros x Hx. specialize (H5 x Hx). apply andb_true_iff in H5 as [A B].
    apply is_intb_spec in A, B. auto.
Qed.
