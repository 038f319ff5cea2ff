(** * ApiFacts: proofs of the client-level statements about ranges, indexers
    and containers. *)
From Coq Require Import ZArith List String Lia Bool.
From Verif Require Import Base BaseFacts BoxSpec BoxFacts Range RangeSpec RangeFacts
  Indexer IndexerFacts Interface InterfaceFacts ApiSpec.
Import ListNotations.
Open Scope Z_scope.

Lemma good_of_valid : forall b bs, valid_box b -> nonempty bs -> box_incl bs b -> good_sub b bs.
Proof. intros b bs (H1 & H2 & H3 & H4) Hn Hi. constructor; auto. Qed.

Lemma valid_self : forall b, valid_box b -> good_sub b b.
Proof. intros b H. apply good_of_valid; auto; [apply H|apply box_incl_refl]. Qed.

Lemma valid_fit : forall b, valid_box b -> fit b.
Proof. intros b (H1 & H2 & H3 & H4). now apply nonempty_fit. Qed.

Lemma container_iff : forall T (i : iface T) b, valid_box b -> (container i b <-> iface_ok i b).
Proof.
  intros T i b (H1 & H2 & H3 & H4). unfold container. split.
  - intros [A B]. apply observes_iff in A. constructor; auto.
  - intros []. split; auto. apply observes_iff. auto.
Qed.

(** ** Ranges *)

Lemma api_history_ok : forall os b, box_steps [] os b ->
  exists r, run_ops range_empty os = Ok r /\ observes r b.
Proof.
  intros os b H. exists (range_of b). split; [|apply observes_range_of].
  change range_empty with (range_of []). now apply run_ops_ok.
Qed.

Lemma api_history_total : forall os, Forall op_src_ok os ->
  (exists b, box_steps [] os b) \/ is_ub (run_ops range_empty os).
Proof. intros os H. destruct (history_correct os H) as [(b & r & S & _)|U]; eauto. Qed.

Lemma api_volume : forall r b, observes r b -> fit b -> range_volume r = Ok (box_volume b).
Proof. intros r b H F. apply observes_iff in H as ->. apply range_volume_fit, F. Qed.

Lemma api_includes : forall a b ba bb, observes a ba -> observes b bb ->
  (range_includes a b = true <-> box_incl bb ba).
Proof. intros a b ba bb Ha Hb. apply observes_iff in Ha as ->. apply observes_iff in Hb as ->. apply range_includes_of. Qed.

Lemma api_includes_cells : forall a b ba bb, observes a ba -> observes b bb -> nonempty bb ->
  (range_includes a b = true <->
   List.length ba = List.length bb /\ forall c, in_box bb c -> in_box ba c).
Proof.
  intros a b ba bb Ha Hb Hn. rewrite (api_includes _ _ _ _ Ha Hb). split.
  - intros H. pose proof (box_incl_length _ _ H). split; auto. intros c. eapply box_incl_in; eauto.
  - intros [Hl H]. apply box_incl_iff; auto.
Qed.

Lemma api_includes_refl : forall a ba, observes a ba -> range_includes a a = true.
Proof. intros a ba H. apply (api_includes _ _ _ _ H H). apply box_incl_refl. Qed.

Lemma api_includes_trans : forall a b c ba bb bc, observes a ba -> observes b bb -> observes c bc ->
  range_includes a b = true -> range_includes b c = true -> range_includes a c = true.
Proof.
  intros a b c ba bb bc Ha Hb Hc H1 H2.
  apply (api_includes _ _ _ _ Ha Hb) in H1. apply (api_includes _ _ _ _ Hb Hc) in H2.
  apply (api_includes _ _ _ _ Ha Hc). eapply box_incl_trans; eauto.
Qed.

Lemma api_eqb : forall a b ba bb, observes a ba -> observes b bb ->
  (range_eqb a b = true <-> ba = bb).
Proof. intros a b ba bb Ha Hb. apply observes_iff in Ha as ->. apply observes_iff in Hb as ->. apply range_eqb_of. Qed.

Lemma api_includes_antisym : forall a b ba bb, observes a ba -> observes b bb ->
  range_includes a b = true -> range_includes b a = true -> range_eqb a b = true.
Proof.
  intros a b ba bb Ha Hb H1 H2.
  apply (api_includes _ _ _ _ Ha Hb) in H1. apply (api_includes _ _ _ _ Hb Ha) in H2.
  apply (api_eqb _ _ _ _ Ha Hb). now apply box_incl_antisym.
Qed.

Lemma api_includes_dims : forall a b ba bb, observes a ba -> observes b bb ->
  List.length ba <> List.length bb -> range_includes a b = false.
Proof.
  intros a b ba bb Ha Hb H. destruct (range_includes a b) eqn:E; auto.
  apply (api_includes _ _ _ _ Ha Hb) in E. apply box_incl_length in E. congruence.
Qed.

(** shift and expand on the box *)
Definition at_dim (b : box) (d : Z) (p : box) (l u : Z) (q : box) : Prop :=
  b = p ++ (l, u) :: q /\ d = Z.of_nat (List.length p).

Lemma prod_len_mid : forall p l u l' u' q, u' - l' = u - l ->
  prod_len (p ++ (l', u') :: q) = prod_len (p ++ (l, u) :: q).
Proof. intros. rewrite !prod_len_app. simpl. rewrite H. reflexivity. Qed.

Lemma strides_fit_mid : forall p l u l' u' q, u' - l' = u - l ->
  strides_fit (p ++ (l, u) :: q) -> strides_fit (p ++ (l', u') :: q).
Proof.
  induction p as [|[a c] p IH]; intros l u l' u' q E H.
  - exact H.
  - simpl app in *. rewrite strides_fit_cons in *. destruct H as [H1 H2].
    split; [eapply IH; eauto|].
    destruct p as [|[a2 c2] p]; simpl app in *; unfold vol_fit in *.
    + rewrite E. destruct H2 as [A B]. split; auto.
      replace (prod_len ((l', u') :: q)) with (prod_len ((l, u) :: q)); auto. simpl. now rewrite E.
    + destruct H2 as [A B]. split; auto.
      change ((a2, c2) :: p ++ (l', u') :: q) with (((a2, c2) :: p) ++ (l', u') :: q).
      rewrite (prod_len_mid _ l u) by assumption. exact B.
Qed.

Lemma api_shift : forall r p l u q d s,
  observes r (p ++ (l, u) :: q) -> strides_fit (p ++ (l, u) :: q) -> d = Z.of_nat (List.length p) ->
  is_int (l + s) -> is_int (u + s) ->
  exists r', range_shift r d s = Ok r' /\ observes r' (p ++ (l + s, u + s) :: q) /\
    (forall i, range_length r' i = range_length r i \/ is_ub (range_length r i)) /\
    (forall i, range_stride r' i = range_stride r i) /\ range_volume r' = range_volume r.
Proof.
  intros r p l u q d s H F Hd H1 H2. apply observes_iff in H as ->.
  assert (F' : strides_fit (p ++ (l + s, u + s) :: q)) by (eapply strides_fit_mid; [|exact F]; lia).
  exists (range_of (p ++ (l + s, u + s) :: q)). splits.
  - now apply range_shift_ok.
  - apply observes_range_of.
  - intros i. unfold range_length. cbn [range_of r_upper r_lower].
    destruct (Z_lt_dec i 0) as [N|N].
    { right. exists OutOfBounds. unfold vget. destruct (Z.leb_spec 0 i); [lia|reflexivity]. }
    destruct (Z_lt_dec i (Z.of_nat (List.length (p ++ (l, u) :: q)))) as [M|M].
    + left. assert (E : forall (f : Z * Z -> Z) bb x y, nth_error bb (Z.to_nat i) = Some (x, y) -> vget (map f bb) i = Ok (f (x, y))).
      { intros f bb x y E. apply vget_ok; [lia|]. rewrite nth_error_map, E. reflexivity. }
      destruct (Z.eq_dec i d) as [Ei|Ei].
      * assert (A : forall x y, nth_error (p ++ (x, y) :: q) (Z.to_nat i) = Some (x, y)).
        { intros. rewrite nth_error_app2 by lia. replace (Z.to_nat i - List.length p)%nat with 0%nat by lia. reflexivity. }
        rewrite !(E _ _ _ _ (A _ _)). cbn [bind fst snd]. unfold isub. f_equal. lia.
      * assert (A : forall x y, nth_error (p ++ (x, y) :: q) (Z.to_nat i) = nth_error (p ++ (l, u) :: q) (Z.to_nat i)).
        { intros. destruct (Nat.lt_ge_cases (Z.to_nat i) (List.length p)).
          - rewrite !nth_error_app1 by assumption. reflexivity.
          - rewrite !nth_error_app2 by assumption.
            destruct (Z.to_nat i - List.length p)%nat eqn:K; [lia|reflexivity]. }
        destruct (nth_error (p ++ (l, u) :: q) (Z.to_nat i)) as [[x y]|] eqn:B.
        -- rewrite !(E _ _ _ _ B). rewrite !(E _ _ x y) by (rewrite A; reflexivity). reflexivity.
        -- apply nth_error_None in B. lia.
    + right. exists OutOfBounds. rewrite vget_ub; [reflexivity|]. rewrite map_length. lia.
  - intros i. unfold range_stride. cbn [range_of r_stride]. f_equal.
    clear. induction p as [|iv p IH]; [reflexivity|]. cbn [app box_strides]. rewrite IH.
    rewrite (prod_len_mid p l u) by lia. reflexivity.
  - destruct p as [|[a c] p].
    + simpl app. rewrite !range_volume_of. unfold isub. f_equal. f_equal. lia.
    + simpl app. rewrite !range_volume_of. rewrite (prod_len_mid p l u) by lia. reflexivity.
Qed.

Lemma api_shift_back : forall r p l u q d s r',
  observes r (p ++ (l, u) :: q) -> strides_fit (p ++ (l, u) :: q) -> d = Z.of_nat (List.length p) ->
  is_int l -> is_int u -> is_int (l + s) -> is_int (u + s) ->
  range_shift r d s = Ok r' -> range_shift r' d (- s) = Ok r.
Proof.
  intros r p l u q d s r' H F Hd Hl Hu H1 H2 E. apply observes_iff in H as ->.
  assert (F' : strides_fit (p ++ (l + s, u + s) :: q)) by (eapply strides_fit_mid; [|exact F]; lia).
  rewrite range_shift_ok in E by assumption. inversion E; subst.
  replace l with (l + s + - s) at 2 by lia. replace u with (u + s + - s) at 2 by lia.
  rewrite range_shift_ok; auto; replace (l + s + - s) with l by lia; replace (u + s + - s) with u by lia; auto.
Qed.

Lemma api_expand : forall r p l u q d a c,
  observes r (p ++ (l, u) :: q) -> strides_fit (p ++ (l, u) :: q) -> d = Z.of_nat (List.length p) ->
  is_int l -> is_int u -> is_int (l + a) -> is_int (u + c) -> strides_fit (p ++ (l + a, u + c) :: q) ->
  exists r', range_expand r d a c = Ok r' /\ observes r' (p ++ (l + a, u + c) :: q) /\
    range_expand r' d (- a) (- c) = Ok r.
Proof.
  intros r p l u q d a c H F Hd Hl Hu H1 H2 F'. apply observes_iff in H as ->.
  exists (range_of (p ++ (l + a, u + c) :: q)). splits.
  - now apply range_expand_ok.
  - apply observes_range_of.
  - replace l with (l + a + - a) at 2 by lia. replace u with (u + c + - c) at 2 by lia.
    rewrite range_expand_ok; auto; replace (l + a + - a) with l by lia; replace (u + c + - c) with u by lia; auto.
Qed.

Lemma api_self_assign : forall r b, observes r b -> b <> [] -> range_self_assign r = UB InvalidPointer.
Proof.
  intros r b H Hb. apply observes_iff in H as ->. unfold range_self_assign, range_setup.
  destruct b; [congruence|]. simpl r_nd. destruct (Z.ltb_spec 0 (Z.pos (Pos.of_succ_nat (List.length b)))); [reflexivity|lia].
Qed.

Lemma api_assign : forall r b, observes r b -> strides_fit b -> range_copy r = Ok r.
Proof. intros r b H F. apply observes_iff in H as ->. now apply range_copy_of. Qed.

Lemma api_make_ok : forall b, strides_fit b ->
  exists r, range_make (Z.of_nat (List.length b)) (map fst b) (map snd b) = Ok r /\ observes r b.
Proof.
  intros b F. exists (range_of b). split; [|apply observes_range_of]. unfold range_make.
  destruct (setup_cases b) as [[_ E]|[N _]]; auto. contradiction.
Qed.

Lemma api_make_overflow : forall b, ~ strides_fit b ->
  range_make (Z.of_nat (List.length b)) (map fst b) (map snd b) = UB IntOverflow.
Proof. intros b F. unfold range_make. destruct (setup_cases b) as [[H _]|[_ E]]; auto. contradiction. Qed.

(** ** Indexers *)

Lemma ofold_trace : forall b bs L acc,
  ofold (fun c l => Done (l ++ [(ix_idx (ix_at b bs c), ix_lin (ix_at b bs c))])) L acc =
  Done (acc ++ map (fun c => (c, offset b c)) L).
Proof.
  induction L as [|c L IH]; intros acc; cbn [ofold map].
  - now rewrite app_nil_r.
  - cbn [obind]. rewrite IH. rewrite <- app_assoc. reflexivity.
Qed.

Lemma api_trace : forall sup sub b bs fuel,
  valid_box b -> observes sup b -> observes sub bs -> nonempty bs -> box_incl bs b ->
  prod_len bs <= Z.of_nat fuel ->
  exists ix, indexer_make sub sup = Ok ix /\
    trace fuel ix = Done (map (fun c => (c, offset b c)) (cells bs)).
Proof.
  intros sup sub b bs fuel V Hb Hbs Hn Hi Hf. apply observes_iff in Hb as ->. apply observes_iff in Hbs as ->.
  pose proof (good_of_valid _ _ V Hn Hi) as G.
  exists (ix_at b bs (first_cell bs)). split; [now apply indexer_make_ok|].
  unfold trace. rewrite for_indexer_cells by assumption. rewrite ofold_trace. reflexivity.
Qed.

Lemma api_trace_outside : forall sup sub b bs fuel,
  observes sup b -> observes sub bs -> strides_fit b -> strides_fit bs -> b = [] \/ ~ box_incl bs b ->
  exists ix, indexer_make sub sup = Ok ix /\ trace fuel ix = Done [].
Proof.
  intros sup sub b bs fuel Hb Hbs F1 F2 H. apply observes_iff in Hb as ->. apply observes_iff in Hbs as ->.
  rewrite indexer_make_not_incl by assumption. eexists. split; [reflexivity|].
  unfold trace. destruct fuel; reflexivity.
Qed.

Lemma api_trace_empty : forall sup sub b bs fuel l,
  observes sup b -> observes sub bs -> strides_fit b -> strides_fit bs -> box_incl bs b -> ~ nonempty bs ->
  forall ix, indexer_make sub sup = Ok ix -> ix_ex ix = true /\ trace fuel ix <> Done l.
Proof.
  intros sup sub b bs fuel l Hb Hbs F1 F2 Hi Hn ix E. apply observes_iff in Hb as ->. apply observes_iff in Hbs as ->.
  unfold trace. eapply for_indexer_empty; eauto.
Qed.

Lemma api_final : forall sup sub b bs,
  valid_box b -> observes sup b -> observes sub bs -> nonempty bs -> box_incl bs b ->
  exists ix, indexer_make sub sup = Ok ix /\ indexer_final ix = Ok (offset b (last_cell bs) + 1).
Proof.
  intros sup sub b bs V Hb Hbs Hn Hi. apply observes_iff in Hb as ->. apply observes_iff in Hbs as ->.
  pose proof (good_of_valid _ _ V Hn Hi) as G. eexists. split; [now apply indexer_make_ok|].
  now apply indexer_final_ok.
Qed.

Lemma offset_mono : forall b c c', in_box b c -> in_box b c' -> Forall2 Z.le c c' -> offset b c <= offset b c'.
Proof.
  induction b as [|[l u] b IH]; intros c c' H H' L; inversion H as [|? ? ? ? Hx Hr]; inversion H' as [|? ? ? ? Hx' Hr']; subst; simpl; [lia|].
  inversion L as [|? ? ? ? Lx Lr]; subst. specialize (IH _ _ Hr Hr' Lr).
  assert (0 <= prod_len b).
  { pose proof (offset_bounds _ _ Hr). lia. }
  nia.
Qed.

Lemma api_final_bounds : forall b bs c, nonempty bs -> box_incl bs b -> in_box bs c ->
  offset b (first_cell bs) <= offset b c < offset b (last_cell bs) + 1 /\ offset b (last_cell bs) + 1 <= prod_len b.
Proof.
  intros b bs c Hn Hi Hc.
  pose proof (first_in_box _ Hn) as F. pose proof (last_in_box _ Hn) as La.
  assert (A1 : in_box b (first_cell bs)) by (eapply box_incl_in; eauto).
  assert (A2 : in_box b (last_cell bs)) by (eapply box_incl_in; eauto).
  assert (A3 : in_box b c) by (eapply box_incl_in; eauto).
  pose proof (offset_bounds _ _ A2).
  assert (offset b (first_cell bs) <= offset b c).
  { apply offset_mono; auto. clear - Hc. induction Hc; simpl; constructor; auto. lia. }
  assert (offset b c <= offset b (last_cell bs)).
  { apply offset_mono; auto. clear - Hc. induction Hc; simpl; constructor; auto. lia. }
  lia.
Qed.

(** Histories of next / increment / decrement. *)
Definition ix_inv (b bs : box) (ix : indexer) : Prop :=
  ix_sup ix = range_of b /\ ix_sub ix = range_of bs /\ ix_lin ix = offset b (ix_idx ix).

Lemma ix_steps_app : forall o1 o2 ix, ix_steps ix (o1 ++ o2) = (ix' <- ix_steps ix o1 ;; ix_steps ix' o2).
Proof. induction o1; intros; simpl; auto. destruct (ix_step ix a); simpl; auto. Qed.

Lemma inc_dim_ex_false : forall d ix ix', inc_dim d ix = Ok ix' -> ix_ex ix = false -> ix_ex ix' = false.
Proof.
  induction d; intros ix ix' E H; cbn [inc_dim] in E.
  - inversion E; reflexivity.
  - apply bind_inv in E as (y & Ey & E). apply bind_inv in E as (v & Ev & E).
    apply bind_inv in E as (w & Ew & E). destruct (y =? w).
    + apply bind_inv in E as (l0 & El & E). apply bind_inv in E as (idx & Ei & E).
      apply bind_inv in E as (len & _ & E). apply bind_inv in E as (len1 & _ & E).
      apply bind_inv in E as (st & _ & E). apply bind_inv in E as (m & _ & E).
      apply bind_inv in E as (lin & _ & E). eapply IHd; eauto.
    + unfold indexer_increment in E.
      apply bind_inv in E as (st & _ & E). apply bind_inv in E as (lin & _ & E).
      apply bind_inv in E as (x0 & Ex0 & E). apply bind_inv in E as (x1 & Ex1 & E).
      apply bind_inv in E as (idx & Ei & E). inversion E; subst. exact H.
Qed.

Lemma nexts_ex_false : forall n ix ix', nexts n ix = Ok ix' -> ix_ex ix = false -> ix_ex ix' = false.
Proof.
  induction n; intros ix ix' E H.
  - inversion E; subst; auto.
  - unfold nexts in E. cbn [repeat ix_steps ix_step] in E. apply bind_inv in E as (ix1 & E1 & E).
    apply IHn with (ix := ix1); auto. eapply inc_dim_ex_false; eauto.
Qed.

Lemma nexts_enum : forall b bs c L, good_sub b bs -> enum bs c L -> in_box bs c ->
  forall n ix, nexts n (ix_at b bs c) = Ok ix -> ix_ex ix = true ->
  exists c', nth_error L n = Some c' /\ ix = ix_at b bs c' /\ in_box bs c'.
Proof.
  intros b bs c L G H. induction H as [c rc E|c c' L E H IH]; intros Hc n ix En Hx.
  - destruct n.
    + inversion En; subst. exists c. auto.
    + unfold nexts in En. cbn [repeat ix_steps ix_step] in En. apply bind_inv in En as (ix1 & E1 & En).
      destruct (next_last _ _ _ _ G Hc E) as (ix2 & E2 & Hf). rewrite E2 in E1. inversion E1; subst.
      apply nexts_ex_false in En; auto. congruence.
  - destruct n.
    + inversion En; subst. exists c. auto.
    + unfold nexts in En. cbn [repeat ix_steps ix_step] in En. apply bind_inv in En as (ix1 & E1 & En).
      destruct (next_step _ _ _ _ G Hc E) as (E2 & Hc'). rewrite E2 in E1. inversion E1; subst.
      apply IH; auto.
Qed.

Lemma points_inv : forall r b ix c, valid_box b -> observes r b -> points r ix c ->
  in_box b c /\ exists bs, ix = ix_at b bs c.
Proof.
  intros r b ix c V Hr (sub & bs & ix0 & n & Hs & Hn & E0 & En & Hx & Hidx).
  apply observes_iff in Hr as ->. apply observes_iff in Hs as ->.
  destruct (range_includes (range_of b) (range_of bs)) eqn:Ei.
  - apply range_includes_of in Ei. pose proof (good_of_valid _ _ V Hn Ei) as G.
    rewrite indexer_make_ok in E0 by assumption. inversion E0; subst.
    destruct (nexts_enum _ _ _ _ G (enum_cells _ Hn) (first_in_box _ Hn) _ _ En Hx) as (c' & _ & -> & Hc').
    simpl. split; [eapply box_incl_in; eauto|eauto].
  - exfalso. unfold indexer_make in E0.
    rewrite (range_copy_of b) in E0 by (apply valid_fit; auto). cbn [bind] in E0.
    apply bind_inv in E0 as (sub' & Es & E0).
    assert (sub' = range_of bs).
    { unfold range_copy in Es. destruct (setup_cases bs) as [[_ K]|[_ K]]; simpl in *; rewrite K in Es; congruence. }
    subst. destruct (r_nd (range_of b) <? 0); [discriminate|]. rewrite Ei, andb_false_r in E0.
    inversion E0; subst. apply nexts_ex_false in En; auto. congruence.
Qed.

Lemma api_points_lin : forall r b ix c, valid_box b -> observes r b -> points r ix c ->
  in_box b c /\ ix_lin ix = offset b c /\ 0 <= offset b c < prod_len b.
Proof.
  intros r b ix c V Hr Hp. destruct (points_inv _ _ _ _ V Hr Hp) as (Hc & bs & ->).
  splits; auto; apply (offset_bounds _ _ Hc).
Qed.

Lemma in_cells_nth : forall b c, in_box b c -> exists n, nth_error (cells b) n = Some c.
Proof. intros b c H. apply In_nth_error. now apply in_cells. Qed.

Lemma enum_nexts : forall b bs c L, good_sub b bs -> enum bs c L -> in_box bs c ->
  forall n c', nth_error L n = Some c' -> nexts n (ix_at b bs c) = Ok (ix_at b bs c').
Proof.
  intros b bs c L G H. induction H as [c rc E|c c' L E H IH]; intros Hc n c1 En.
  - destruct n as [|[|n]]; simpl in En; try discriminate. inversion En; subst. reflexivity.
  - destruct n; simpl in En.
    + inversion En; subst. reflexivity.
    + unfold nexts. cbn [repeat ix_steps ix_step].
      destruct (next_step _ _ _ _ G Hc E) as (-> & Hc'). cbn [bind]. apply IH; auto.
Qed.

(** Every cell is pointed to by some indexer. *)
Lemma api_points_exist : forall r b c, valid_box b -> observes r b -> in_box b c ->
  exists ix, points r ix c.
Proof.
  intros r b c V Hr Hc. apply observes_iff in Hr as ->.
  destruct (in_cells_nth _ _ Hc) as (n & En). pose proof (valid_self _ V) as G.
  exists (ix_at b b c). exists (range_of b), b, (ix_at b b (first_cell b)), n. splits.
  - apply observes_range_of.
  - apply V.
  - now apply indexer_make_ok.
  - eapply enum_nexts; eauto. apply enum_cells, V. apply first_in_box, V.
  - reflexivity.
  - reflexivity.
Qed.

(** increment / decrement keep linear index = offset while the coordinates have
    the right number of dimensions. *)
Lemma lin_walk : forall b bs ix o d ix', o = IxInc d \/ o = IxDec d ->
  ix_inv b bs ix -> List.length (ix_idx ix) = List.length b ->
  ix_step ix o = Ok ix' -> ix_inv b bs ix' /\ List.length (ix_idx ix') = List.length b /\
    (0 <= d < Z.of_nat (List.length b)) /\
    (exists p x q, ix_idx ix = p ++ x :: q /\ Z.of_nat (List.length p) = d /\
       ix_idx ix' = p ++ (if match o with IxInc _ => true | _ => false end then x + 1 else x - 1) :: q).
Proof.
  intros b bs ix o d ix' Ho (H1 & H2 & H3) HL E.
  assert (Hgen : forall s lin x x' idx,
    vget (r_stride (ix_sup ix)) d = Ok s -> vget (ix_idx ix) d = Ok x -> vset (ix_idx ix) d x' = Ok idx ->
    lin = ix_lin ix + (x' - x) * s ->
    lin = offset b idx /\ List.length idx = List.length b /\ (0 <= d < Z.of_nat (List.length b)) /\
    exists p q, ix_idx ix = p ++ x :: q /\ Z.of_nat (List.length p) = d /\ idx = p ++ x' :: q).
  { intros s lin x x' idx Es Ex Ei El.
    apply vset_inv in Ei as [Hd ->]. apply vget_ok_inv in Ex as [_ Ex].
    apply nth_error_split in Ex as (p & q & Eq & Lp).
    assert (LP : Z.of_nat (List.length p) = d) by lia.
    rewrite Eq in *. rewrite <- Lp, upd_app_mid.
    assert (exists bp l u bq, b = bp ++ (l, u) :: bq /\ List.length bp = List.length p) as (bp & l & u & bq & Eb & Lb).
    { destruct (nth_error b (List.length p)) as [[l u]|] eqn:K.
      - apply nth_error_split in K as (bp & bq & K & Lb). exists bp, l, u, bq. auto.
      - apply nth_error_None in K. rewrite app_length in HL. simpl in HL. lia. }
    rewrite H1 in Es. cbn [range_of r_stride] in Es. rewrite Eb in Es. rewrite vget_stride_mid in Es by lia. inversion Es; subst s.
    splits.
    - subst lin. rewrite H3, Eb. rewrite (offset_replace bp l u bq p x x' q) by lia. reflexivity.
    - rewrite <- HL, !app_length. reflexivity.
    - lia.
    - rewrite <- HL, app_length. simpl. lia.
    - exists p, q. auto. }
  destruct Ho as [-> | ->]; cbn [ix_step] in E; unfold indexer_increment, indexer_decrement in E;
    apply bind_inv in E as (s & Es & E); apply bind_inv in E as (lin & El & E);
    apply bind_inv in E as (x & Ex & E); apply bind_inv in E as (x' & Ex' & E);
    apply bind_inv in E as (idx & Ei & E); inversion E; subst ix'; cbn [ix_idx ix_sup ix_sub ix_lin];
    apply chk_inv in El as [-> _]; apply chk_inv in Ex' as [-> _].
  - destruct (Hgen s (ix_lin ix + s) x (x + 1) idx) as (A & B & C & p & q & D1 & D2 & D3); auto; [lia|].
    unfold ix_inv; cbn [ix_idx ix_sup ix_sub ix_lin]. splits; auto; try lia. exists p, x, q. auto.
  - destruct (Hgen s (ix_lin ix - s) x (x - 1) idx) as (A & B & C & p & q & D1 & D2 & D3); auto; [lia|].
    unfold ix_inv; cbn [ix_idx ix_sup ix_sub ix_lin]. splits; auto; try lia. exists p, x, q. auto.
Qed.

Definition is_walk (o : ix_op) : Prop := match o with IxNext => False | _ => True end.

Lemma walks_inv : forall os b bs ix ix', Forall is_walk os ->
  ix_inv b bs ix -> List.length (ix_idx ix) = List.length b ->
  ix_steps ix os = Ok ix' -> ix_inv b bs ix' /\ List.length (ix_idx ix') = List.length b.
Proof.
  induction os as [|o os IH]; intros b bs ix ix' Hw Hi HL E; simpl in E.
  - inversion E; subst; auto.
  - inversion Hw; subst. apply bind_inv in E as (ix1 & E1 & E).
    destruct o as [|d|d]; [contradiction| |].
    + destruct (lin_walk b bs ix (IxInc d) d ix1) as (A & B & _); auto. eapply IH; eauto.
    + destruct (lin_walk b bs ix (IxDec d) d ix1) as (A & B & _); auto. eapply IH; eauto.
Qed.

(** From any pointed cell, any increments / decrements keep the linear index
    equal to the row-major offset of the coordinates. *)
Lemma api_walk : forall r b ix c os ix', valid_box b -> observes r b -> points r ix c ->
  Forall is_walk os -> ix_steps ix os = Ok ix' -> ix_lin ix' = offset b (ix_idx ix').
Proof.
  intros r b ix c os ix' V Hr Hp Hw E. destruct (points_inv _ _ _ _ V Hr Hp) as (Hc & bs & ->).
  destruct (walks_inv os b bs (ix_at b bs c) ix') as ((_ & _ & A) & _); auto.
  - repeat split.
  - simpl. eapply in_box_length; eauto.
Qed.

(** ** Containers *)

Lemma do_write_ok : forall T (i : iface T) b w, valid_box b -> iface_ok i b -> w_ok (if_range i) b w ->
  in_box b (w_cell w) /\
  do_write i w = Ok (mkIface (if_range i) (upd (if_data i) (Z.to_nat (offset b (w_cell w))) (w_val w))).
Proof.
  intros T i b w V H Hw. destruct w as [c v|ix c v]; simpl in *.
  - split; auto. now apply store_ok.
  - destruct (points_inv (if_range i) b ix c V) as (Hc & bs & ->); auto.
    { apply observes_iff. apply H. }
    split; auto. now apply put_at.
Qed.

Lemma do_writes_ok : forall T b ws (i : iface T), valid_box b -> iface_ok i b ->
  Forall (w_ok (if_range i) b) ws ->
  exists i', do_writes i ws = Ok i' /\ iface_ok i' b /\ if_range i' = if_range i /\
    forall c v, in_box b c -> cont b (if_data i) c = Some v ->
      cont b (if_data i') c = Some (after_writes ws c v).
Proof.
  intros T b ws. induction ws as [|w ws IH]; intros i V H Hw.
  - exists i. simpl. splits; auto.
  - inversion Hw; subst. destruct (do_write_ok _ _ _ _ V H H2) as (Hc & E).
    cbn [do_writes]. rewrite E. cbn [bind].
    set (i1 := mkIface (if_range i) (upd (if_data i) (Z.to_nat (offset b (w_cell w))) (w_val w))).
    assert (H1 : iface_ok i1 b) by (apply iface_ok_data; auto; apply upd_length).
    destruct (IH i1 V H1) as (i' & E' & Hok & Hr & Hv); [exact H3|].
    exists i'. splits; auto. intros c v Hcb Ev. unfold after_writes. cbn [fold_left].
    apply Hv; auto. unfold i1; cbn [if_data]. rewrite cont_upd with (i := i) by auto.
    destruct (list_eq_dec Z.eq_dec (w_cell w) c); auto.
Qed.

Lemma api_writes : forall T (i : iface T) b ws, valid_box b -> container i b ->
  Forall (w_ok (if_range i) b) ws ->
  exists i', do_writes i ws = Ok i' /\ container i' b /\ if_range i' = if_range i /\
    forall c v, in_box b c -> iface_elem i c = Ok v -> iface_elem i' c = Ok (after_writes ws c v).
Proof.
  intros T i b ws V H Hw. apply (container_iff _ _ _ V) in H.
  destruct (do_writes_ok T b ws i V H Hw) as (i' & E & Hok & Hr & Hv).
  exists i'. splits; auto. { now apply container_iff. }
  intros c v Hc Ev. eapply elem_ok; eauto. apply Hv; auto. eapply elem_ok; eauto.
Qed.

Lemma api_read_total : forall T (i : iface T) b c, valid_box b -> container i b -> in_box b c ->
  exists v, iface_elem i c = Ok v.
Proof. intros T i b c V H Hc. apply (container_iff _ _ _ V) in H. eapply elem_total; eauto. Qed.

Lemma api_read_ix : forall T (i : iface T) b ix c, valid_box b -> container i b ->
  points (if_range i) ix c -> iface_get i ix = iface_elem i c.
Proof.
  intros T i b ix c V H Hp. pose proof H as H'. apply (container_iff _ _ _ V) in H.
  destruct (points_inv _ _ _ _ V (proj1 H') Hp) as (Hc & bs & ->).
  destruct (cont_some _ _ _ _ H Hc) as (v & Ev).
  rewrite (get_at _ _ b _ _ v) by auto. symmetry. eapply elem_ok; eauto.
Qed.

Lemma api_new : forall T (d : T) r b, valid_box b -> observes r b ->
  exists i, iface_new d r = Done i /\ container i b /\ if_range i = r /\
    forall c, in_box b c -> iface_elem i c = Ok d.
Proof.
  intros T d r b V Hr. apply observes_iff in Hr as ->.
  destruct (new_ok T d b) as (i & E & Hok & Hc); try apply V.
  exists i. splits; auto. { now apply container_iff. } { apply Hok. }
  intros c Hin. eapply elem_ok; eauto.
Qed.

Lemma api_fill : forall T (i : iface T) b sub bs v fuel,
  valid_box b -> container i b -> observes sub bs -> nonempty bs -> box_incl bs b ->
  prod_len bs <= Z.of_nat fuel ->
  exists i', iface_fill fuel sub v i = Done i' /\ container i' b /\ if_range i' = if_range i /\
    (forall c, in_box bs c -> iface_elem i' c = Ok v) /\
    (forall c, in_box b c -> ~ in_box bs c -> iface_elem i' c = iface_elem i c).
Proof.
  intros T i b sub bs v fuel V H Hs Hn Hi Hf. apply (container_iff _ _ _ V) in H.
  apply observes_iff in Hs as ->.
  destruct (fill_ok T i b bs v fuel) as (i' & E & Hok & Hr & Hset & Hframe); auto.
  exists i'. splits; auto. { now apply container_iff. }
  - intros c Hc. eapply elem_ok; eauto. eapply box_incl_in; eauto.
  - intros c Hc Hnc. eapply elem_cont_eq; eauto.
Qed.

Lemma api_fill_outside : forall T (i : iface T) b sub bs v fuel,
  container i b -> observes sub bs -> ~ box_incl bs b ->
  iface_fill fuel sub v i =
  Threw "qk::indexer_interface::fill : Requested range extends outside of interface bounds." i.
Proof.
  intros T i b sub bs v fuel [H _] Hs Hi. unfold iface_fill.
  destruct (range_includes (if_range i) sub) eqn:E; auto.
  apply (api_includes _ _ _ _ H Hs) in E. contradiction.
Qed.

Lemma api_fill_empty : forall T (i i' : iface T) b sub bs v fuel,
  valid_box b -> container i b -> observes sub bs -> strides_fit bs -> box_incl bs b -> ~ nonempty bs ->
  iface_fill fuel sub v i <> Done i'.
Proof.
  intros T i i' b sub bs v fuel V [H _] Hs F Hi Hn. unfold iface_fill, iface_indexer.
  rewrite (proj2 (api_includes _ _ _ _ H Hs) Hi).
  destruct (indexer_make sub (if_range i)) as [ix| | |] eqn:E; cbn [liftr]; try discriminate.
  apply observes_iff in H. apply observes_iff in Hs. subst sub. rewrite H in E.
  eapply for_indexer_empty; eauto. apply valid_fit; auto.
Qed.

Lemma api_fill_all : forall T (i : iface T) b v, valid_box b -> container i b ->
  container (iface_fill_all v i) b /\ if_range (iface_fill_all v i) = if_range i /\
  forall c, in_box b c -> iface_elem (iface_fill_all v i) c = Ok v.
Proof.
  intros T i b v V H. pose proof H as H'. apply (container_iff _ _ _ V) in H.
  assert (Hok : iface_ok (iface_fill_all v i) b).
  { apply (iface_ok_data _ i); auto. now rewrite map_length. }
  splits; auto. { now apply container_iff. }
  intros c Hc. eapply elem_ok; eauto. unfold cont. cbn [iface_fill_all if_data].
  rewrite nth_error_map. destruct (cont_some _ _ _ _ H Hc) as (w & Ew). unfold cont in Ew.
  rewrite Ew. reflexivity.
Qed.

Lemma copies_copied : forall T (src i i' : iface T) b1 bf b2 bt,
  valid_box b2 -> iface_ok src b1 -> iface_ok i b2 -> box_incl bf b1 -> box_incl bt b2 ->
  copies src b1 bf i i' b2 bt -> copied src bf i i' b2 bt.
Proof.
  intros T src i i' b1 bf b2 bt V Hs Hi If It (H1 & H2 & H3 & H4). split; [|split; [|split]]; auto.
  - now apply container_iff.
  - intros k cs cd Ks Kd. apply (elem_cont_eq _ _ _ b2 _ b1); auto.
    + eapply box_incl_in; eauto. apply in_cells. eapply nth_error_In; eauto.
    + eapply box_incl_in; eauto. apply in_cells. eapply nth_error_In; eauto.
    + eapply H3; eauto.
  - intros c Hc Hn. apply (elem_cont_eq _ _ _ b2 _ b2); auto.
Qed.

Lemma api_pull : forall T (src i : iface T) b1 b2 from to bf bt fuel,
  valid_box b1 -> valid_box b2 -> container src b1 -> container i b2 ->
  observes from bf -> observes to bt -> nonempty bf -> nonempty bt ->
  box_incl bf b1 -> box_incl bt b2 -> prod_len bf = prod_len bt -> prod_len bt <= Z.of_nat fuel ->
  exists i', iface_pull fuel (fun _ => src) from to i = Done i' /\ copied src bf i i' b2 bt.
Proof.
  intros T src i b1 b2 from to bf bt fuel V1 V2 Hs Hi Ef Et Nf Nt If It Hv Hf.
  apply (container_iff _ _ _ V1) in Hs. apply (container_iff _ _ _ V2) in Hi.
  apply observes_iff in Ef as ->. apply observes_iff in Et as ->.
  destruct (pull_ok (fun _ => src) b1 bf b2 bt i) with (fuel := fuel) as (i' & E & C); auto.
  exists i'. split; auto. eapply copies_copied; eauto.
Qed.

Lemma api_pull_self : forall T (i : iface T) b from to bf bt fuel,
  valid_box b -> container i b ->
  observes from bf -> observes to bt -> nonempty bf -> nonempty bt ->
  box_incl bf b -> box_incl bt b -> (forall c, in_box bf c -> in_box bt c -> False) ->
  prod_len bf = prod_len bt -> prod_len bt <= Z.of_nat fuel ->
  exists i', iface_pull fuel (fun j => j) from to i = Done i' /\ copied i bf i i' b bt.
Proof.
  intros T i b from to bf bt fuel V Hi Ef Et Nf Nt If It Hd Hv Hf.
  apply (container_iff _ _ _ V) in Hi.
  apply observes_iff in Ef as ->. apply observes_iff in Et as ->.
  destruct (pull_ok (fun j => j) b bf b bt i) with (fuel := fuel) as (i' & E & C); auto.
  { now apply ind_self. }
  exists i'. split; auto. eapply copies_copied; eauto.
Qed.

Lemma api_pull_mismatch : forall T (src_of : iface T -> iface T) i from to vf vt fuel,
  range_volume from = Ok vf -> range_volume to = Ok vt -> vf <> vt ->
  iface_pull fuel src_of from to i = Threw "qk::indexer_interface::pull : Volume mismatch." i.
Proof.
  intros T src_of i from to vf vt fuel H1 H2 N. unfold iface_pull. rewrite H1, H2. cbn [liftr].
  destruct (Z.eqb_spec vf vt); [contradiction|reflexivity].
Qed.

(** A source region outside the source container is accepted without effect. *)
Lemma api_pull_outside : forall T (src i : iface T) b1 from to bf bt fuel,
  container src b1 -> valid_box b1 -> observes from bf -> observes to bt ->
  fit bf -> fit bt -> box_volume bf = box_volume bt ->
  (exists b2, container i b2 /\ strides_fit b2 /\ (b2 = [] \/ valid_box b2 /\ nonempty bt)) ->
  ~ box_incl bf b1 -> iface_pull fuel (fun _ => src) from to i = Done i.
Proof.
  intros T src i b1 from to bf bt fuel [Hs _] V1 Ef Et Ff Ft Hv (b2 & [Hi _] & F2 & Hb2) N.
  apply observes_iff in Ef as ->. apply observes_iff in Et as ->.
  apply observes_iff in Hs. apply observes_iff in Hi.
  unfold iface_pull. rewrite !range_volume_fit by (apply Ff || apply Ft). cbn [liftr].
  rewrite Hv, Z.eqb_refl, Hs, Hi.
  rewrite indexer_make_not_incl; auto; [|apply valid_fit; auto|apply Ff]. cbn [liftr].
  destruct (range_includes (range_of b2) (range_of bt)) eqn:E.
  - apply range_includes_of in E. destruct Hb2 as [->|[V2 Nt]].
    + inversion E; subst. rewrite indexer_make_not_incl by (simpl; auto). cbn [liftr].
      destruct fuel; reflexivity.
    + rewrite indexer_make_ok by (now apply good_of_valid). cbn [liftr]. destruct fuel; reflexivity.
  - rewrite indexer_make_not_incl; auto; [|apply Ft|].
    + cbn [liftr]. destruct fuel; reflexivity.
    + right. intros H. apply range_includes_of in H. congruence.
Qed.

Lemma api_copy_to : forall T (src i : iface T) b1 b2 from to bf bt fuel,
  valid_box b1 -> valid_box b2 -> container src b1 -> container i b2 ->
  observes from bf -> observes to bt -> nonempty bf -> nonempty bt ->
  box_incl bf b1 -> box_incl bt b2 -> prod_len bf = prod_len bt -> prod_len bt <= Z.of_nat fuel ->
  exists i', copy_to fuel (fun _ => src) from to i = Done i' /\ copied src bf i i' b2 bt.
Proof.
  intros T src i b1 b2 from to bf bt fuel V1 V2 Hs Hi Ef Et Nf Nt If It Hv Hf.
  apply (container_iff _ _ _ V1) in Hs. apply (container_iff _ _ _ V2) in Hi.
  apply observes_iff in Ef as ->. apply observes_iff in Et as ->.
  destruct (copy_to_ok (fun _ => src) b1 bf b2 bt i) with (fuel := fuel) as (i' & E & C); auto.
  exists i'. split; auto. eapply copies_copied; eauto.
Qed.

Lemma api_copy_to_self : forall T (i : iface T) b from to bf bt fuel,
  valid_box b -> container i b ->
  observes from bf -> observes to bt -> nonempty bf -> nonempty bt ->
  box_incl bf b -> box_incl bt b -> (forall c, in_box bf c -> in_box bt c -> False) ->
  prod_len bf = prod_len bt -> prod_len bt <= Z.of_nat fuel ->
  exists i', copy_to fuel (fun j => j) from to i = Done i' /\ copied i bf i i' b bt.
Proof.
  intros T i b from to bf bt fuel V Hi Ef Et Nf Nt If It Hd Hv Hf.
  apply (container_iff _ _ _ V) in Hi.
  apply observes_iff in Ef as ->. apply observes_iff in Et as ->.
  destruct (copy_to_ok (fun j => j) b bf b bt i) with (fuel := fuel) as (i' & E & C); auto.
  { now apply ind_self. }
  exists i'. split; auto. eapply copies_copied; eauto.
Qed.

Lemma api_copy_to_mismatch : forall T (src_of : iface T -> iface T) i from to vf vt fuel,
  range_volume from = Ok vf -> range_volume to = Ok vt -> vf <> vt ->
  copy_to fuel src_of from to i = Threw "qk::data::copy_to : Array mismatch." i.
Proof.
  intros T src_of i from to vf vt fuel H1 H2 N. unfold copy_to. rewrite H1, H2. cbn [liftr].
  destruct (Z.eqb_spec vf vt); [contradiction|reflexivity].
Qed.

Lemma api_pull_all_same : forall T (src i : iface T) b fuel,
  valid_box b -> container src b -> container i b -> prod_len b <= Z.of_nat fuel ->
  exists i', iface_pull_all fuel src i = Done i' /\ container i' b /\ if_range i' = if_range i /\
    if_data i' = if_data src.
Proof.
  intros T src i b fuel V Hs Hi Hf. unfold iface_pull_all.
  destruct (api_pull T src i b b (if_range i) (if_range src) b b fuel) as (i' & E & C); auto;
    try apply Hi; try apply Hs; try apply V; try apply box_incl_refl.
  exists i'. destruct C as (Hr & Hc & Hk & _). splits; auto.
  assert (Hl : List.length (if_data i') = List.length (if_data src)).
  { apply Nat2Z.inj. rewrite (proj2 Hc), (proj2 Hs). reflexivity. }
  apply upd_inj_nth. intros n.
  destruct (Nat.lt_ge_cases n (List.length (if_data i'))) as [Hn|Hn];
    [|rewrite !(proj2 (nth_error_None _ _)) by lia; reflexivity].
  assert (exists c, nth_error (cells b) n = Some c) as (c & Ec).
  { destruct (nth_error (cells b) n) eqn:K; eauto. apply nth_error_None in K.
    pose proof (cells_length b (proj1 (proj2 V))). destruct Hc as [_ Hc]. lia. }
  assert (Eo : offset b c = Z.of_nat n).
  { pose proof (offsets_cells b (proj1 (proj2 V))) as O. apply (f_equal (fun l => nth_error l n)) in O.
    rewrite nth_error_map, Ec in O. simpl in O. symmetry in O. rewrite nth_error_zrange in O; [|destruct Hc; lia].
    inversion O. lia. }
  assert (Hin : in_box b c) by (apply in_cells; eapply nth_error_In; eauto).
  apply (container_iff _ _ _ V) in Hs. apply (container_iff _ _ _ V) in Hc.
  pose proof (Hk n c c Ec Ec) as K.
  destruct (cont_some _ _ _ _ Hs Hin) as (v & Ev).
  assert (iface_elem src c = Ok v) by (eapply elem_ok; eauto). rewrite H in K.
  apply (elem_ok _ _ b) in K; auto. unfold cont in *. rewrite Eo, Nat2Z.id in *. congruence.
Qed.

Lemma api_swap : forall T (a b : iface T) v,
  range_volume (if_range a) = Ok v -> range_volume (if_range b) = Ok v ->
  exists a' b', iface_swap (a, b) = Done (a', b') /\
    if_range a' = if_range a /\ if_range b' = if_range b /\
    if_data a' = if_data b /\ if_data b' = if_data a /\
    iface_swap (a', b') = Done (a, b).
Proof.
  intros T [ra da] [rb db] v H1 H2. unfold iface_swap. cbn [if_range if_data] in *.
  rewrite H1, H2. cbn [liftr]. rewrite Z.eqb_refl.
  eexists _, _. split; [reflexivity|]. cbn [if_range if_data]. splits; auto.
  rewrite H1, H2. cbn [liftr]. now rewrite Z.eqb_refl.
Qed.

Lemma api_swap_mismatch : forall T (a b : iface T) va vb,
  range_volume (if_range a) = Ok va -> range_volume (if_range b) = Ok vb -> va <> vb ->
  iface_swap (a, b) = Threw "qk::indexer_interface::swap : Volume mismatch." (a, b).
Proof.
  intros T a b va vb H1 H2 N. unfold iface_swap. rewrite H1, H2. cbn [liftr].
  destruct (Z.eqb_spec va vb); [contradiction|reflexivity].
Qed.

Lemma api_copy_ctor : forall T (d : T) src b, valid_box b -> container src b ->
  exists i, iface_copy d src = Done i /\ if_range i = if_range src /\ container i b /\
    forall c, in_box b c -> iface_elem i c = Ok d.
Proof.
  intros T d src b V H. unfold iface_copy.
  destruct (api_new T d (if_range src) b V (proj1 H)) as (i & E & Hc & Hr & Hd).
  exists i. splits; auto.
Qed.

Lemma api_no_overflow : forall b bs fuel,
  valid_box b -> nonempty bs -> box_incl bs b -> prod_len bs <= Z.of_nat fuel ->
  exists r rs ix k,
    range_make (Z.of_nat (List.length b)) (map fst b) (map snd b) = Ok r /\
    range_volume r = Ok (prod_len b) /\
    range_make (Z.of_nat (List.length bs)) (map fst bs) (map snd bs) = Ok rs /\
    indexer_make rs r = Ok ix /\ indexer_final ix = Ok k /\
    trace fuel ix = Done (map (fun c => (c, offset b c)) (cells bs)).
Proof.
  intros b bs fuel V Hn Hi Hf. pose proof (good_of_valid _ _ V Hn Hi) as G.
  pose proof (good_sub_fit _ _ G) as Fb. pose proof (good_sub_fit_sub _ _ G) as Fs.
  exists (range_of b), (range_of bs), (ix_at b bs (first_cell bs)), (offset b (last_cell bs) + 1). splits.
  - unfold range_make. destruct (setup_cases b) as [[_ E]|[N _]]; auto. exfalso; apply N, Fb.
  - rewrite range_volume_fit by apply Fb. rewrite box_volume_pos by apply V. reflexivity.
  - unfold range_make. destruct (setup_cases bs) as [[_ E]|[N _]]; auto. exfalso; apply N, Fs.
  - now apply indexer_make_ok.
  - now apply indexer_final_ok.
  - unfold trace. rewrite for_indexer_cells by assumption. rewrite ofold_trace. reflexivity.
Qed.

Lemma cells_each_once : forall b, NoDup (cells b) /\ forall c, In c (cells b) <-> in_box b c.
Proof. intros b. split; [apply cells_NoDup|]. intros c. apply in_cells. Qed.

Lemma api_whole_trace : forall r b fuel, valid_box b -> observes r b -> prod_len b <= Z.of_nat fuel ->
  exists ix tr, indexer_make r r = Ok ix /\ trace fuel ix = Done tr /\ map snd tr = zrange 0 (prod_len b).
Proof.
  intros r b fuel V H Hf.
  destruct (api_trace r r b b fuel V H H) as (ix & E & T); auto; try apply V; try apply box_incl_refl.
  exists ix. eexists. splits; eauto. rewrite map_map. cbn [snd]. apply offsets_cells, V.
Qed.

Ltac show_container := split; [apply observes_range_of|reflexivity].
Ltac not_incl := let H := fresh in intros H; inversion H; simpl in *; lia.

Lemma api_pull_outside_refuted :
  (exists (src i : iface Z) from to bf bt,
     container src [(0, 2)] /\ container i [(0, 3)] /\ observes from bf /\ observes to bt /\
     ~ box_incl bf [(0, 2)] /\ iface_pull 2 (fun _ => src) from to i = Done i) /\
  (exists (src i i' : iface Z) from to bf bt,
     container src [(0, 2)] /\ container i [(0, 3)] /\ observes from bf /\ observes to bt /\
     ~ box_incl bt [(0, 3)] /\ iface_pull 2 (fun _ => src) from to i = Done i' /\
     iface_elem i [0] = Ok 7 /\ iface_elem i' [0] = Ok 1).
Proof.
  split.
  - exists (mkIface (range_of [(0, 2)]) [1; 2]), (mkIface (range_of [(0, 3)]) [7; 8; 9]),
      (range_of [(5, 7)]), (range_of [(0, 2)]), [(5, 7)], [(0, 2)].
    splits; try show_container; try apply observes_range_of; try not_incl; vm_compute; reflexivity.
  - exists (mkIface (range_of [(0, 2)]) [1; 2]), (mkIface (range_of [(0, 3)]) [7; 8; 9]),
      (mkIface (range_of [(0, 3)]) [1; 2; 9]),
      (range_of [(0, 2)]), (range_of [(5, 7)]), [(0, 2)], [(5, 7)].
    splits; try show_container; try apply observes_range_of; try not_incl; vm_compute; reflexivity.
Qed.

Lemma api_pull_all_refuted : exists (src i : iface Z),
  container src [(0, 2)] /\ container i [(1, 3)] /\
  iface_pull_all 2 src i = Done i /\ if_data i <> if_data src.
Proof.
  exists (mkIface (range_of [(0, 2)]) [1; 2]), (mkIface (range_of [(1, 3)]) [7; 8]).
  splits; try show_container; [vm_compute; reflexivity|discriminate].
Qed.

Lemma api_copy_to_outside_refuted : exists (src i i' : iface Z) from to bf bt,
  container src [(0, 2)] /\ container i [(0, 3)] /\ observes from bf /\ observes to bt /\
  ~ box_incl bf [(0, 2)] /\ ~ box_incl bt [(0, 3)] /\
  copy_to 2 (fun _ => src) from to i = Done i' /\
  iface_elem i [0] = Ok 7 /\ iface_elem i' [0] = Ok 1.
Proof.
  exists (mkIface (range_of [(0, 2)]) [1; 2]), (mkIface (range_of [(0, 3)]) [7; 8; 9]),
    (mkIface (range_of [(0, 3)]) [1; 8; 9]),
    (range_of [(5, 7)]), (range_of [(8, 10)]), [(5, 7)], [(8, 10)].
  splits; try show_container; try apply observes_range_of; try not_incl; vm_compute; reflexivity.
Qed.
