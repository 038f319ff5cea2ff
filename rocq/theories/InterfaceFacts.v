(** * InterfaceFacts: proofs about containers. *)
From Coq Require Import ZArith List String Lia Bool.
From Verif Require Import Base BaseFacts BoxSpec BoxFacts Range RangeSpec RangeFacts
  Indexer IndexerFacts Interface.
Import ListNotations.
Open Scope Z_scope.

(** A container over box [b] whose volume is a positive int. *)
Record iface_ok {T} (i : iface T) (b : box) : Prop := mkIok {
  io_range : if_range i = range_of b;
  io_len : Z.of_nat (List.length (if_data i)) = prod_len b;
  io_ne : nonempty b;
  io_vol : prod_len b <= int_max;
  io_dims : b <> [];
  io_int : int_bounds b
}.

(** Contents of a cell. *)
Definition cont {T} (b : box) (l : list T) (c : list Z) : option T :=
  nth_error l (Z.to_nat (offset b c)).

Lemma iface_ok_data : forall T (i : iface T) b (l : list T),
  iface_ok i b -> List.length l = List.length (if_data i) -> iface_ok (mkIface (if_range i) l) b.
Proof. intros T i b l [] H. constructor; simpl; auto. lia. Qed.

Lemma cont_some : forall T (i : iface T) b c, iface_ok i b -> in_box b c ->
  exists v, cont b (if_data i) c = Some v.
Proof.
  intros T i b c H Hc. unfold cont. pose proof (offset_bounds _ _ Hc). pose proof (io_len _ _ H).
  destruct (nth_error (if_data i) (Z.to_nat (offset b c))) eqn:E; eauto.
  apply nth_error_None in E. lia.
Qed.

Lemma cont_upd : forall T (i : iface T) b c c' v, iface_ok i b -> in_box b c -> in_box b c' ->
  cont b (upd (if_data i) (Z.to_nat (offset b c)) v) c' =
  if list_eq_dec Z.eq_dec c c' then Some v else cont b (if_data i) c'.
Proof.
  intros T i b c c' v H Hc Hc'. unfold cont.
  pose proof (offset_bounds _ _ Hc). pose proof (offset_bounds _ _ Hc'). pose proof (io_len _ _ H).
  destruct (list_eq_dec Z.eq_dec c c') as [->|N].
  - apply nth_error_upd_eq. lia.
  - apply nth_error_upd_neq. intros E. apply N.
    apply (offset_inj b); auto. lia.
Qed.

Lemma get_at : forall T (i : iface T) b bs c v, iface_ok i b -> in_box b c ->
  cont b (if_data i) c = Some v -> iface_get i (ix_at b bs c) = Ok v.
Proof.
  intros T i b bs c v H Hc E. unfold iface_get. simpl. apply vget_ok; [|exact E].
  apply (offset_bounds _ _ Hc).
Qed.

Lemma put_at : forall T (i : iface T) b bs c v, iface_ok i b -> in_box b c ->
  iface_put i (ix_at b bs c) v =
  Ok (mkIface (if_range i) (upd (if_data i) (Z.to_nat (offset b c)) v)).
Proof.
  intros T i b bs c v H Hc. unfold iface_put. simpl.
  pose proof (offset_bounds _ _ Hc). pose proof (io_len _ _ H).
  rewrite vset_ok by lia. reflexivity.
Qed.

Lemma iface_pos_ok : forall T (i : iface T) b c, iface_ok i b -> in_box b c ->
  iface_pos i c = Ok (offset b c).
Proof.
  intros T i b c H Hc. unfold iface_pos.
  pose proof (offset_bounds _ _ Hc). pose proof (io_len _ _ H). pose proof (io_vol _ _ H).
  destruct (if_data i) eqn:E; [simpl in *; lia|].
  rewrite (io_range _ _ H). simpl. rewrite lin_sum_ok; auto; try lia.
Qed.

Lemma elem_ok : forall T (i : iface T) b c v, iface_ok i b -> in_box b c ->
  (iface_elem i c = Ok v <-> cont b (if_data i) c = Some v).
Proof.
  intros T i b c v H Hc. unfold iface_elem. rewrite (iface_pos_ok _ _ _ _ H Hc). cbn [bind].
  pose proof (offset_bounds _ _ Hc). split.
  - intros E. now apply vget_ok_inv in E.
  - intros E. apply vget_ok; [lia|exact E].
Qed.

Lemma elem_cont_eq : forall T (i j : iface T) b c b' c',
  iface_ok i b -> iface_ok j b' -> in_box b c -> in_box b' c' ->
  cont b (if_data i) c = cont b' (if_data j) c' -> iface_elem i c = iface_elem j c'.
Proof.
  intros T i j b c b' c' Hi Hj Hc Hc' E.
  destruct (cont_some _ _ _ _ Hi Hc) as (v & Ev).
  assert (A : iface_elem i c = Ok v) by (eapply elem_ok; eauto).
  assert (B : iface_elem j c' = Ok v) by (eapply elem_ok; eauto; congruence).
  congruence.
Qed.

Lemma elem_total : forall T (i : iface T) b c, iface_ok i b -> in_box b c ->
  exists v, iface_elem i c = Ok v.
Proof.
  intros T i b c Hi Hc. destruct (cont_some _ _ _ _ Hi Hc) as (v & Ev).
  exists v. eapply elem_ok; eauto.
Qed.

Lemma store_ok : forall T (i : iface T) b c v, iface_ok i b -> in_box b c ->
  iface_store i c v = Ok (mkIface (if_range i) (upd (if_data i) (Z.to_nat (offset b c)) v)).
Proof.
  intros T i b c v H Hc. unfold iface_store. rewrite (iface_pos_ok _ _ _ _ H Hc). cbn [bind].
  pose proof (offset_bounds _ _ Hc). pose proof (io_len _ _ H).
  rewrite vset_ok by lia. reflexivity.
Qed.

(** ** good_sub of a container *)

Lemma iface_good : forall T (i : iface T) b bs, iface_ok i b -> nonempty bs -> box_incl bs b -> good_sub b bs.
Proof. intros T i b bs [] Hn Hi. constructor; auto. Qed.

(** ** fill *)

Lemma for_put : forall T b bs (f : T -> T) (g : list Z -> T -> T) (L : list (list Z)) (i : iface T)
  (body : indexer -> iface T -> out (iface T)),
  iface_ok i b -> NoDup L -> (forall c, In c L -> in_box b c) ->
  (forall c j v, In c L -> iface_ok j b -> cont b (if_data j) c = Some v ->
     body (ix_at b bs c) j =
     Done (mkIface (if_range j) (upd (if_data j) (Z.to_nat (offset b c)) (g c v)))) ->
  exists i', ofold (fun c => body (ix_at b bs c)) L i = Done i' /\
    iface_ok i' b /\ if_range i' = if_range i /\
    (forall c v, In c L -> cont b (if_data i) c = Some v -> cont b (if_data i') c = Some (g c v)) /\
    (forall c, in_box b c -> ~ In c L -> cont b (if_data i') c = cont b (if_data i) c).
Proof.
  intros T b bs f g L. induction L as [|c0 L IH]; intros i body Hok Hnd Hin Hbody.
  - exists i. simpl. splits; auto. intros c v [].
  - inversion Hnd; subst.
    assert (Hc0 : in_box b c0) by (apply Hin; simpl; auto).
    destruct (cont_some _ _ _ _ Hok Hc0) as (v0 & Ev0).
    cbn [ofold]. rewrite (Hbody c0 i v0) by (simpl; auto). cbn [obind].
    set (i1 := mkIface (if_range i) (upd (if_data i) (Z.to_nat (offset b c0)) (g c0 v0))).
    assert (Hok1 : iface_ok i1 b) by (apply iface_ok_data; auto; apply upd_length).
    destruct (IH i1 body Hok1 H2) as (i' & E & Hok' & Hr & Hset & Hframe).
    + intros. apply Hin. simpl; auto.
    + intros. apply Hbody; simpl; auto.
    + exists i'. splits; auto.
      * intros c v [<-|Hc] Ec.
        -- rewrite Hframe by auto. unfold i1. cbn [if_data].
           rewrite cont_upd with (i := i) by auto.
           destruct (list_eq_dec Z.eq_dec c0 c0); [|congruence]. congruence.
        -- apply Hset; auto. unfold i1; cbn [if_data].
           rewrite cont_upd with (i := i); auto; [|apply Hin; simpl; auto].
           destruct (list_eq_dec Z.eq_dec c0 c) as [->|]; [contradiction|exact Ec].
      * intros c Hc Hn. simpl in Hn. rewrite Hframe by tauto. unfold i1; cbn [if_data].
        rewrite cont_upd with (i := i) by auto.
        destruct (list_eq_dec Z.eq_dec c0 c); [tauto|reflexivity].
Qed.

Lemma fill_ok : forall T (i : iface T) b bs v fuel,
  iface_ok i b -> nonempty bs -> box_incl bs b -> prod_len bs <= Z.of_nat fuel ->
  exists i', iface_fill fuel (range_of bs) v i = Done i' /\
    iface_ok i' b /\ if_range i' = if_range i /\
    (forall c, in_box bs c -> cont b (if_data i') c = Some v) /\
    (forall c, in_box b c -> ~ in_box bs c -> cont b (if_data i') c = cont b (if_data i) c).
Proof.
  intros T i b bs v fuel Hok Hn Hi Hf. unfold iface_fill, iface_indexer.
  rewrite (io_range _ _ Hok).
  assert (E : range_includes (range_of b) (range_of bs) = true) by (now apply range_includes_of).
  rewrite E. pose proof (iface_good _ _ _ _ Hok Hn Hi) as HG.
  rewrite indexer_make_ok by assumption. cbn [liftr].
  rewrite for_indexer_cells by assumption.
  destruct (for_put T b bs (fun x => x) (fun _ _ => v) (cells bs) i
    (fun ix j => liftr j (iface_put j ix v) Done)) as (i' & E' & Hok' & Hr & Hset & Hframe); auto.
  - apply cells_NoDup.
  - intros c Hc. eapply box_incl_in; eauto. now apply in_cells.
  - intros c j w Hc Hj _. rewrite (put_at _ _ b); auto. eapply box_incl_in; eauto. now apply in_cells.
  - exists i'. rewrite E'. rewrite (io_range _ _ Hok) in Hr. splits; auto.
    + intros c Hc. destruct (cont_some _ i b c Hok) as (w & Ew); [eapply box_incl_in; eauto|].
      eapply (Hset c w); auto. now apply in_cells.
    + intros c Hc Hnc. apply Hframe; auto. rewrite in_cells. exact Hnc.
Qed.

(** ** region copies *)

Definition copy_step {T} (src_of : iface T -> iface T) b1 bf b2 bt (p : list Z * list Z) (i : iface T) : out (iface T) :=
  liftr i (iface_get (src_of i) (ix_at b1 bf (fst p))) (fun v =>
  liftr i (iface_put i (ix_at b2 bt (snd p)) v) Done).

Lemma enum_nonnil : forall b c L, enum b c L -> exists L', L = c :: L'.
Proof. intros b c L H. inversion H; subst; eauto. Qed.

Lemma pull_loop_enum : forall T (src_of : iface T -> iface T) b1 bf b2 bt c1 L1 c2 L2,
  good_sub b1 bf -> good_sub b2 bt ->
  enum bf c1 L1 -> enum bt c2 L2 -> List.length L1 = List.length L2 ->
  in_box bf c1 -> in_box bt c2 ->
  forall fuel i, (List.length L1 <= fuel)%nat ->
  pull_loop fuel src_of (ix_at b1 bf c1) (ix_at b2 bt c2) i =
  ofold (copy_step src_of b1 bf b2 bt) (combine L1 L2) i.
Proof.
  intros T src_of b1 bf b2 bt c1 L1 c2 L2 G1 G2 E1. revert c2 L2.
  induction E1 as [c1 rc R1|c1 c1' L1 R1 E1 IH]; intros c2 L2 E2 HL H1 H2 fuel i Hf;
    (destruct fuel as [|fuel]; [simpl in Hf; lia|]).
  - destruct (enum_nonnil _ _ _ E2) as (L2' & ->).
    assert (L2' = []) by (destruct L2'; simpl in *; auto; discriminate). subst.
    inversion E2 as [? rc2 R2|? c2' L2' R2 E2']; subst; [|inversion E2'].
    cbn [pull_loop combine ofold]. simpl ix_ex. cbv iota. unfold copy_step at 1. cbn [fst snd].
    destruct (iface_get (src_of i) (ix_at b1 bf c1)); cbn [liftr obind]; auto.
    destruct (iface_put i (ix_at b2 bt c2) a); cbn [liftr obind]; auto.
    destruct (next_last _ _ _ _ G2 H2 R2) as (ix2 & -> & _). cbn [liftr].
    destruct (next_last _ _ _ _ G1 H1 R1) as (ix1 & -> & Ex). cbn [liftr].
    destruct fuel; cbn [pull_loop]; rewrite Ex; reflexivity.
  - destruct (enum_nonnil _ _ _ E2) as (L2' & ->).
    inversion E2 as [? rc2 R2|? c2' L2'' R2 E2']; subst.
    + destruct (enum_nonnil _ _ _ E1) as (? & ->). simpl in HL. discriminate.
    + cbn [pull_loop combine ofold]. simpl ix_ex. cbv iota. unfold copy_step at 1. cbn [fst snd].
      destruct (iface_get (src_of i) (ix_at b1 bf c1)); cbn [liftr obind]; auto.
      destruct (iface_put i (ix_at b2 bt c2) a); cbn [liftr obind]; auto.
      destruct (next_step _ _ _ _ G2 H2 R2) as (-> & H2'). cbn [liftr].
      destruct (next_step _ _ _ _ G1 H1 R1) as (-> & H1'). cbn [liftr].
      apply IH; auto; simpl in *; lia.
Qed.

Lemma copy_loop_enum : forall T (src_of : iface T -> iface T) b1 bf b2 bt c1 L1 c2 L2,
  good_sub b1 bf -> good_sub b2 bt ->
  enum bf c1 L1 -> enum bt c2 L2 -> List.length L1 = List.length L2 ->
  in_box bf c1 -> in_box bt c2 ->
  forall fuel i, (List.length L1 <= fuel)%nat ->
  copy_loop fuel src_of (ix_at b1 bf c1) (ix_at b2 bt c2) i =
  ofold (copy_step src_of b1 bf b2 bt) (combine L1 L2) i.
Proof.
  intros T src_of b1 bf b2 bt c1 L1 c2 L2 G1 G2 E1. revert c2 L2.
  induction E1 as [c1 rc R1|c1 c1' L1 R1 E1 IH]; intros c2 L2 E2 HL H1 H2 fuel i Hf;
    (destruct fuel as [|fuel]; [simpl in Hf; lia|]).
  - destruct (enum_nonnil _ _ _ E2) as (L2' & ->).
    assert (L2' = []) by (destruct L2'; simpl in *; auto; discriminate). subst.
    inversion E2 as [? rc2 R2|? c2' L2' R2 E2']; subst; [|inversion E2'].
    cbn [copy_loop combine ofold]. unfold copy_step at 1. cbn [fst snd].
    destruct (iface_get (src_of i) (ix_at b1 bf c1)); cbn [liftr obind]; auto.
    destruct (iface_put i (ix_at b2 bt c2) a); cbn [liftr obind]; auto.
    destruct (next_last _ _ _ _ G2 H2 R2) as (ix2 & -> & Ex). cbn [liftr].
    destruct (next_last _ _ _ _ G1 H1 R1) as (ix1 & -> & _). cbn [liftr].
    rewrite Ex. reflexivity.
  - destruct (enum_nonnil _ _ _ E2) as (L2' & ->).
    inversion E2 as [? rc2 R2|? c2' L2'' R2 E2']; subst.
    + destruct (enum_nonnil _ _ _ E1) as (? & ->). simpl in HL. discriminate.
    + cbn [copy_loop combine ofold]. unfold copy_step at 1. cbn [fst snd].
      destruct (iface_get (src_of i) (ix_at b1 bf c1)); cbn [liftr obind]; auto.
      destruct (iface_put i (ix_at b2 bt c2) a); cbn [liftr obind]; auto.
      destruct (next_step _ _ _ _ G2 H2 R2) as (-> & H2'). cbn [liftr].
      destruct (next_step _ _ _ _ G1 H1 R1) as (-> & H1'). cbn [liftr].
      simpl ix_ex. cbv iota.
      apply IH; auto; simpl in *; lia.
Qed.

(** Effect of a list of cell-to-cell copies whose sources are not overwritten. *)
Lemma copy_pairs_ok : forall T (src_of : iface T -> iface T) b1 bf b2 bt ps (i : iface T),
  iface_ok i b2 ->
  (forall j, iface_ok j b2 -> if_range j = if_range i -> iface_ok (src_of j) b1) ->
  NoDup (map snd ps) ->
  (forall p, In p ps -> in_box b1 (fst p) /\ in_box b2 (snd p)) ->
  (forall j cs cd v, iface_ok j b2 -> In cs (map fst ps) -> In cd (map snd ps) ->
     cont b1 (if_data (src_of (mkIface (if_range j) (upd (if_data j) (Z.to_nat (offset b2 cd)) v)))) cs =
     cont b1 (if_data (src_of j)) cs) ->
  exists i', ofold (copy_step src_of b1 bf b2 bt) ps i = Done i' /\
    iface_ok i' b2 /\ if_range i' = if_range i /\
    (forall cs cd, In (cs, cd) ps -> cont b2 (if_data i') cd = cont b1 (if_data (src_of i)) cs) /\
    (forall c, in_box b2 c -> ~ In c (map snd ps) -> cont b2 (if_data i') c = cont b2 (if_data i) c).
Proof.
  intros T src_of b1 bf b2 bt ps. induction ps as [|[cs0 cd0] ps IH]; intros i Hok Hsrc Hnd Hin Hind.
  - exists i. simpl. splits; auto. intros cs cd [].
  - inversion Hnd; subst.
    destruct (Hin (cs0, cd0)) as [Hb1 Hb2]; [simpl; auto|]. simpl in Hb1, Hb2.
    pose proof (Hsrc i Hok eq_refl) as Hsi.
    destruct (cont_some _ _ _ _ Hsi Hb1) as (v & Ev).
    cbn [ofold]. unfold copy_step at 1. cbn [fst snd].
    rewrite (get_at _ _ b1 _ _ v) by auto. cbn [liftr].
    rewrite (put_at _ _ b2) by auto. cbn [liftr obind].
    set (i1 := mkIface (if_range i) (upd (if_data i) (Z.to_nat (offset b2 cd0)) v)).
    assert (Hok1 : iface_ok i1 b2) by (apply iface_ok_data; auto; apply upd_length).
    destruct (IH i1) as (i' & E & Hok' & Hr & Hset & Hframe); auto.
    + intros. apply Hin. simpl; auto.
    + intros. apply Hind; simpl; auto.
    + exists i'. splits; auto.
      * intros cs cd [Heq|Hp].
        -- inversion Heq; subst. rewrite Hframe by auto. unfold i1; cbn [if_data].
           rewrite cont_upd with (i := i) by auto.
           destruct (list_eq_dec Z.eq_dec cd cd); [|congruence]. congruence.
        -- rewrite (Hset _ _ Hp). apply Hind; simpl; auto.
           right. change cs with (fst (cs, cd)). now apply in_map.
      * intros c Hc Hn. simpl in Hn. rewrite Hframe by tauto. unfold i1; cbn [if_data].
        rewrite cont_upd with (i := i) by auto.
        destruct (list_eq_dec Z.eq_dec cd0 c); [tauto|reflexivity].
Qed.

Lemma map_snd_combine : forall A B (l : list A) (m : list B), List.length l = List.length m -> map snd (combine l m) = m.
Proof. induction l; destruct m; simpl; intros; try discriminate; auto. f_equal. apply IHl. lia. Qed.
Lemma map_fst_combine : forall A B (l : list A) (m : list B), List.length l = List.length m -> map fst (combine l m) = l.
Proof. induction l; destruct m; simpl; intros; try discriminate; auto. f_equal. apply IHl. lia. Qed.

Lemma combine_nth_in : forall A B (l : list A) (m : list B) k x y,
  nth_error l k = Some x -> nth_error m k = Some y -> In (x, y) (combine l m).
Proof.
  induction l; destruct m, k; simpl; intros; try discriminate; auto.
  - inversion H; inversion H0; subst; auto.
  - right. eapply IHl; eauto.
Qed.

(** What a region copy does: the k-th cell of [bt] receives the k-th cell of
    [bf], all other cells keep their contents. *)
Definition copies {T} (src : iface T) (b1 bf : box) (i i' : iface T) (b2 bt : box) : Prop :=
  iface_ok i' b2 /\ if_range i' = if_range i /\
  (forall k cs cd, nth_error (cells bf) k = Some cs -> nth_error (cells bt) k = Some cd ->
     cont b2 (if_data i') cd = cont b1 (if_data src) cs) /\
  (forall c, in_box b2 c -> ~ in_box bt c -> cont b2 (if_data i') c = cont b2 (if_data i) c).

Lemma cells_length_eq : forall a b, nonempty a -> nonempty b -> prod_len a = prod_len b ->
  List.length (cells a) = List.length (cells b).
Proof. intros. apply Nat2Z.inj. rewrite !cells_length by assumption. assumption. Qed.

Lemma cells_fuel : forall b fuel, nonempty b -> prod_len b <= Z.of_nat fuel -> (List.length (cells b) <= fuel)%nat.
Proof. intros. apply Nat2Z.inj_le. now rewrite cells_length. Qed.

Section Region.
Context {T : Type}.
Variables (src_of : iface T -> iface T) (b1 bf b2 bt : box) (i : iface T).
Hypothesis Hok : iface_ok i b2.
Hypothesis Hsrc : forall j, iface_ok j b2 -> if_range j = if_range i -> iface_ok (src_of j) b1.
Hypothesis Hnf : nonempty bf.
Hypothesis Hnt : nonempty bt.
Hypothesis Hif : box_incl bf b1.
Hypothesis Hit : box_incl bt b2.
Hypothesis Hvol : prod_len bf = prod_len bt.
Hypothesis Hind : forall j cs cd v, iface_ok j b2 -> in_box bf cs -> in_box bt cd ->
  cont b1 (if_data (src_of (mkIface (if_range j) (upd (if_data j) (Z.to_nat (offset b2 cd)) v)))) cs =
  cont b1 (if_data (src_of j)) cs.

Lemma region_pairs :
  exists i', ofold (copy_step src_of b1 bf b2 bt) (combine (cells bf) (cells bt)) i = Done i' /\
             copies (src_of i) b1 bf i i' b2 bt.
Proof.
  pose proof (cells_length_eq _ _ Hnf Hnt Hvol) as HL.
  destruct (copy_pairs_ok T src_of b1 bf b2 bt (combine (cells bf) (cells bt)) i)
    as (i' & E & H1 & H2 & H3 & H4); auto.
  - rewrite map_snd_combine by assumption. apply cells_NoDup.
  - intros [cs cd] Hp. simpl. pose proof (in_combine_l _ _ _ _ Hp) as A. pose proof (in_combine_r _ _ _ _ Hp) as B.
    apply in_cells in A. apply in_cells in B. split; eapply box_incl_in; eauto.
  - intros j cs cd v Hj A B. rewrite map_fst_combine in A by assumption. rewrite map_snd_combine in B by assumption.
    apply Hind; auto; now apply in_cells.
  - exists i'. split; auto. split; [|split; [|split]]; auto.
    + intros k cs cd Ks Kd. apply H3. eapply combine_nth_in; eauto.
    + intros c Hc Hn. apply H4; auto. rewrite map_snd_combine by assumption. now rewrite in_cells.
Qed.

Lemma volumes_eq : range_volume (range_of bf) = Ok (prod_len bf) /\ range_volume (range_of bt) = Ok (prod_len bt).
Proof.
  pose proof (iface_good _ _ _ _ Hok Hnt Hit) as G2.
  pose proof (iface_good _ _ _ _ (Hsrc i Hok eq_refl) Hnf Hif) as G1.
  pose proof (good_sub_fit_sub _ _ G1) as [_ F1]. pose proof (good_sub_fit_sub _ _ G2) as [_ F2].
  rewrite !range_volume_fit by assumption.
  assert (bf <> []) by (intros ->; pose proof (io_dims _ _ (Hsrc i Hok eq_refl)) as N; apply N; inversion Hif; reflexivity).
  assert (bt <> []) by (intros ->; pose proof (io_dims _ _ Hok) as N; apply N; inversion Hit; reflexivity).
  rewrite !box_volume_pos by assumption. auto.
Qed.

Lemma pull_ok : forall fuel, prod_len bt <= Z.of_nat fuel ->
  exists i', iface_pull fuel src_of (range_of bf) (range_of bt) i = Done i' /\
             copies (src_of i) b1 bf i i' b2 bt.
Proof.
  intros fuel Hf. unfold iface_pull. destruct volumes_eq as [-> ->]. cbn [liftr].
  rewrite Hvol, Z.eqb_refl.
  pose proof (Hsrc i Hok eq_refl) as Hs. rewrite (io_range _ _ Hs), (io_range _ _ Hok).
  rewrite !indexer_make_ok by (eapply iface_good; eauto). cbn [liftr].
  rewrite (pull_loop_enum T src_of b1 bf b2 bt _ (cells bf) _ (cells bt)).
  - exact region_pairs.
  - eapply iface_good; eauto.
  - eapply iface_good; eauto.
  - now apply enum_cells.
  - now apply enum_cells.
  - now apply cells_length_eq.
  - now apply first_in_box.
  - now apply first_in_box.
  - apply cells_fuel; auto. lia.
Qed.

Lemma copy_to_ok : forall fuel, prod_len bt <= Z.of_nat fuel ->
  exists i', copy_to fuel src_of (range_of bf) (range_of bt) i = Done i' /\
             copies (src_of i) b1 bf i i' b2 bt.
Proof.
  intros fuel Hf. unfold copy_to. destruct volumes_eq as [-> ->]. cbn [liftr].
  rewrite Hvol, Z.eqb_refl.
  pose proof (Hsrc i Hok eq_refl) as Hs. rewrite (io_range _ _ Hs), (io_range _ _ Hok).
  rewrite !indexer_make_ok by (eapply iface_good; eauto). cbn [liftr].
  rewrite (copy_loop_enum T src_of b1 bf b2 bt _ (cells bf) _ (cells bt)).
  - exact region_pairs.
  - eapply iface_good; eauto.
  - eapply iface_good; eauto.
  - now apply enum_cells.
  - now apply enum_cells.
  - now apply cells_length_eq.
  - now apply first_in_box.
  - now apply first_in_box.
  - apply cells_fuel; auto. lia.
Qed.

End Region.

(** Distinct source: no interference. *)
Lemma ind_const : forall T (src : iface T) b1 b2 bf bt,
  forall (j : iface T) cs cd v, iface_ok j b2 -> in_box bf cs -> in_box bt cd ->
  cont b1 (if_data ((fun _ => src) (mkIface (if_range j) (upd (if_data j) (Z.to_nat (offset b2 cd)) v)))) cs =
  cont b1 (if_data ((fun _ : iface T => src) j)) cs.
Proof. reflexivity. Qed.

(** Same container, disjoint regions. *)
Lemma ind_self : forall T b bf bt,
  box_incl bf b -> box_incl bt b -> (forall c, in_box bf c -> in_box bt c -> False) ->
  forall (j : iface T) cs cd v, iface_ok j b -> in_box bf cs -> in_box bt cd ->
  cont b (if_data ((fun x => x) (mkIface (if_range j) (upd (if_data j) (Z.to_nat (offset b cd)) v)))) cs =
  cont b (if_data ((fun x : iface T => x) j)) cs.
Proof.
  intros T b bf bt Hf Ht Hd j cs cd v Hj Hcs Hcd. cbn [if_data].
  assert (in_box b cs) by (exact (box_incl_in _ _ _ Hf Hcs)).
  assert (in_box b cd) by (exact (box_incl_in _ _ _ Ht Hcd)).
  rewrite cont_upd with (i := j) by auto.
  destruct (list_eq_dec Z.eq_dec cd cs) as [->|]; [|reflexivity].
  exfalso. eauto.
Qed.

(** ** Construction *)

Lemma vresize_length : forall A (d : A) l n l', vresize d l n = Ok l' -> Z.of_nat (List.length l') = n.
Proof.
  intros A d l n l' H. unfold vresize in H. destruct (Z.ltb_spec n 0); [discriminate|].
  inversion H; subst. rewrite app_length, firstn_length, repeat_length. lia.
Qed.

Lemma resize_ok : forall T (d : T) (i : iface T) b,
  nonempty b -> b <> [] -> prod_len b <= int_max -> int_bounds b ->
  exists i', iface_resize d i (range_of b) = Done i' /\ iface_ok i' b /\ if_data i' = firstn (Z.to_nat (prod_len b)) (if_data i) ++
                 repeat d (Z.to_nat (prod_len b) - List.length (if_data i))%nat.
Proof.
  intros T d i b Hn Hd Hv Hi. pose proof (nonempty_fit _ Hn Hv) as F.
  unfold iface_resize. rewrite range_copy_of by (now apply fit_strides). cbn [liftr].
  rewrite range_volume_fit by apply F. cbn [liftr]. rewrite box_volume_pos by assumption.
  destruct (vresize d (if_data i) (prod_len b)) eqn:E.
  - cbn [liftr]. eexists. split; [reflexivity|]. split.
    + constructor; auto. cbn [if_data]. eapply vresize_length; eauto.
    + cbn [if_data]. unfold vresize in E. destruct (prod_len b <? 0); inversion E. reflexivity.
  - unfold vresize in E. pose proof (prod_len_pos _ Hn). destruct (Z.ltb_spec (prod_len b) 0); [lia|discriminate].
  - unfold vresize in E. destruct (prod_len b <? 0); discriminate.
  - unfold vresize in E. destruct (prod_len b <? 0); discriminate.
Qed.

Lemma new_ok : forall T (d : T) b,
  nonempty b -> b <> [] -> prod_len b <= int_max -> int_bounds b ->
  exists i', iface_new d (range_of b) = Done i' /\ iface_ok i' b /\ forall c, in_box b c -> cont b (if_data i') c = Some d.
Proof.
  intros T d b Hn Hd Hv Hi. unfold iface_new.
  destruct (resize_ok T d (mkIface range_empty []) b) as (i' & E & Hok & Hdat); auto.
  exists i'. splits; auto. intros c Hc. unfold cont. rewrite Hdat. cbn [if_data].
  rewrite firstn_nil. simpl. pose proof (offset_bounds _ _ Hc).
  rewrite (nth_error_nth' _ d); [|rewrite repeat_length; lia]. f_equal. apply nth_repeat.
Qed.
