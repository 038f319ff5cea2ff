(** * IndexerFacts: proofs about the indexer model. *)
From Coq Require Import ZArith List String Lia Bool.
From Verif Require Import Base BaseFacts BoxSpec BoxFacts Range RangeSpec RangeFacts Indexer.
Import ListNotations.
Open Scope Z_scope.

(** The indexer of sub range [bs] in range [b] standing at cell [c]. *)
Definition ix_at (b bs : box) (c : list Z) : indexer :=
  mkIndexer (range_of b) (range_of bs) (offset b c) true c.

(** A non-empty sub box of a box whose volume is an int. *)
Record good_sub (b bs : box) : Prop := mkGood {
  gs_ne : nonempty bs;
  gs_incl : box_incl bs b;
  gs_vol : prod_len b <= int_max;
  gs_dims : b <> [];
  gs_int : int_bounds b
}.

Lemma good_sub_self : forall b, nonempty b -> b <> [] -> prod_len b <= int_max -> int_bounds b -> good_sub b b.
Proof. intros. constructor; auto. apply box_incl_refl. Qed.

Lemma good_sub_ne : forall b bs, good_sub b bs -> nonempty b.
Proof. intros b bs []. eapply box_incl_nonempty; eauto. Qed.

Lemma good_sub_fit : forall b bs, good_sub b bs -> fit b.
Proof. intros b bs H. apply nonempty_fit; [eapply good_sub_ne; eauto|apply H]. Qed.

Lemma prod_len_incl_le : forall a b, box_incl a b -> nonempty a -> prod_len a <= prod_len b.
Proof.
  induction a as [|[l u] a IH]; intros b H Hn; inversion H; inversion Hn; subst; simpl; [lia|].
  destruct y as [ly uy]; simpl in *.
  specialize (IH _ H4 H8). pose proof (prod_len_pos _ H8). nia.
Qed.

Lemma good_sub_fit_sub : forall b bs, good_sub b bs -> fit bs.
Proof.
  intros b bs H. apply nonempty_fit; [apply H|].
  pose proof (prod_len_incl_le _ _ (gs_incl _ _ H) (gs_ne _ _ H)). pose proof (gs_vol _ _ H). lia.
Qed.

Lemma good_sub_int_sub : forall b bs, good_sub b bs -> int_bounds bs.
Proof.
  intros b bs H. pose proof (gs_incl _ _ H) as Hi. pose proof (gs_int _ _ H) as Hb.
  pose proof (gs_ne _ _ H) as Hn. clear H.
  revert Hb Hn. induction Hi; intros Hb Hn; [constructor|].
  inversion Hb; inversion Hn; subst. constructor; [|apply IHHi; auto].
  unfold is_int, int_min, int_max in *. lia.
Qed.

(** ** construction *)

Lemma lin_sum_ok : forall b c acc,
  in_box b c -> prod_len b <= int_max -> 0 <= acc -> acc + offset b c <= int_max ->
  lin_sum acc c (map fst b) (box_strides b) = Ok (acc + offset b c).
Proof.
  induction b as [|[l u] b IH]; intros c acc Hc Hv Ha Hs; inversion Hc; subst.
  - simpl. f_equal. lia.
  - cbn [map fst box_strides lin_sum]. simpl in H1.
    pose proof (offset_bounds _ _ Hc) as Ho. pose proof (offset_bounds _ _ H3) as Ho'.
    simpl in Hs, Ho, Hv. cbn [prod_len] in *.
    rewrite isub_ok; [|unfold is_int, int_min, int_max in *; nia]. cbn [bind].
    rewrite imul_ok; [|unfold is_int, int_min, int_max in *; nia]. cbn [bind].
    rewrite iadd_ok; [|unfold is_int, int_min, int_max in *; nia]. cbn [bind].
    rewrite IH; auto; try nia. f_equal. simpl. lia.
Qed.

Lemma good_first_in : forall b bs, good_sub b bs -> in_box b (first_cell bs).
Proof. intros b bs H. eapply box_incl_in; [apply H|]. apply first_in_box. apply H. Qed.

Lemma indexer_make_ok : forall b bs, good_sub b bs ->
  indexer_make (range_of bs) (range_of b) = Ok (ix_at b bs (first_cell bs)).
Proof.
  intros b bs H. unfold indexer_make.
  rewrite (range_copy_of b) by (apply fit_strides; eapply good_sub_fit; eauto). cbn [bind].
  rewrite (range_copy_of bs) by (apply fit_strides; eapply good_sub_fit_sub; eauto). cbn [bind].
  simpl r_nd. destruct (Z.ltb_spec (Z.of_nat (List.length b)) 0); [lia|].
  destruct (Z.ltb_spec 0 (Z.of_nat (List.length b))) as [Hl|Hl].
  2:{ destruct b; [now destruct (gs_dims _ _ H)|simpl in Hl; lia]. }
  assert (E : range_includes (range_of b) (range_of bs) = true) by (apply range_includes_of, H).
  rewrite E. cbn [andb]. simpl r_lower. simpl r_stride.
  pose proof (good_first_in _ _ H) as Hf. pose proof (offset_bounds _ _ Hf).
  pose proof (gs_vol _ _ H).
  rewrite lin_sum_ok; [|exact Hf|lia|lia|unfold first_cell in *; lia].
  reflexivity.
Qed.

(** A sub range that is not included (or a range without dimensions): the
    indexer does not exist. *)
Lemma indexer_make_not_incl : forall b bs,
  strides_fit b -> strides_fit bs -> (b = [] \/ ~ box_incl bs b) ->
  indexer_make (range_of bs) (range_of b) =
  Ok (mkIndexer (range_of b) (range_of bs) 0 false (repeat 0 (List.length b))).
Proof.
  intros b bs Fb Fbs H. unfold indexer_make.
  rewrite (range_copy_of b), (range_copy_of bs) by assumption. cbn [bind]. simpl r_nd.
  destruct (Z.ltb_spec (Z.of_nat (List.length b)) 0); [lia|].
  rewrite Nat2Z.id.
  destruct H as [->|H]; [reflexivity|].
  destruct (range_includes (range_of b) (range_of bs)) eqn:E.
  - apply range_includes_of in E. contradiction.
  - now rewrite andb_false_r.
Qed.

(** ** stepping *)

(** Successor on reversed coordinates: (next cell, wrapped around?). *)
Fixpoint rsucc (rb : list (Z * Z)) (rc : list Z) : list Z * bool :=
  match rb, rc with
  | (l, u) :: rb', x :: rc' =>
      if x =? u - 1 then let (rc'', w) := rsucc rb' rc' in (l :: rc'', w)
      else (x + 1 :: rc', false)
  | _, _ => ([], true)
  end.

Lemma in_box_split : forall a iv b c,
  in_box (a ++ iv :: b) c ->
  exists p x q, c = p ++ x :: q /\ in_box a p /\ fst iv <= x < snd iv /\ in_box b q /\ List.length p = List.length a.
Proof.
  intros a iv b c H. apply Forall2_app_inv_l in H as (p & r & Hp & Hr & ->).
  inversion Hr; subst. exists p, y, l'. splits; auto; try lia. symmetry. eapply Forall2_length; eauto.
Qed.

Lemma offset_replace : forall a l u b p x y q,
  List.length p = List.length a ->
  offset (a ++ (l, u) :: b) (p ++ y :: q) = offset (a ++ (l, u) :: b) (p ++ x :: q) + (y - x) * prod_len b.
Proof. intros. rewrite !offset_app by assumption. simpl. lia. Qed.

Lemma vget_map_mid : forall (f : Z * Z -> Z) a iv b d,
  d = Z.of_nat (List.length a) -> vget (map f (a ++ iv :: b)) d = Ok (f iv).
Proof. intros. rewrite map_app. simpl. apply vget_mid. now rewrite map_length. Qed.

Lemma box_strides_app : forall a b,
  exists p, box_strides (a ++ b) = p ++ box_strides b /\ List.length p = List.length a.
Proof.
  induction a as [|iv a IH]; intros b.
  - exists []. auto.
  - destruct (IH b) as (p & E & L). exists (prod_len (a ++ b) :: p). simpl. rewrite E. auto.
Qed.

Lemma vget_stride_mid : forall a iv b d,
  d = Z.of_nat (List.length a) -> vget (box_strides (a ++ iv :: b)) d = Ok (prod_len b).
Proof.
  intros a iv b d ->. destruct (box_strides_app a (iv :: b)) as (p & E & L). rewrite E. simpl.
  apply vget_mid. now rewrite L.
Qed.

Lemma split_both : forall A B (R : A -> B -> Prop) l l' d,
  Forall2 R l l' -> (d < List.length l)%nat ->
  exists p x q p' x' q', l = p ++ x :: q /\ l' = p' ++ x' :: q' /\
    List.length p = d /\ List.length p' = d /\ Forall2 R p p' /\ R x x' /\ Forall2 R q q'.
Proof.
  intros A B R l l' d H. revert d. induction H; intros d Hd; simpl in *; [lia|].
  destruct d.
  - exists [], x, l, [], y, l'. simpl. splits; auto.
  - destruct (IHForall2 d ltac:(lia)) as (p & x0 & q & p' & x0' & q' & -> & -> & L1 & L2 & H1 & H2 & H3).
    exists (x :: p), x0, q, (y :: p'), x0', q'. simpl. splits; auto.
Qed.

Lemma rev_snoc : forall A (l : list A) x, rev (l ++ [x]) = x :: rev l.
Proof. intros. rewrite rev_app_distr. reflexivity. Qed.

Lemma firstn_snoc_mid : forall A (p : list A) x q d,
  List.length p = d -> firstn (S d) (p ++ x :: q) = p ++ [x].
Proof.
  intros. subst d. replace (S (List.length p)) with (List.length p + 1)%nat by lia.
  rewrite firstn_app_2. reflexivity.
Qed.
Lemma firstn_mid : forall A (p q : list A) d, List.length p = d -> firstn d (p ++ q) = p.
Proof. intros. subst. rewrite firstn_app, Nat.sub_diag, firstn_all. simpl. now rewrite app_nil_r. Qed.
Lemma skipn_mid : forall A (p q : list A) d, List.length p = d -> skipn d (p ++ q) = q.
Proof. intros. subst. rewrite skipn_app, Nat.sub_diag, skipn_all. reflexivity. Qed.
Lemma skipn_S_mid : forall A (p : list A) x q d, List.length p = d -> skipn (S d) (p ++ x :: q) = q.
Proof.
  intros. subst. replace (p ++ x :: q) with ((p ++ [x]) ++ q) by (now rewrite <- app_assoc).
  apply skipn_mid. rewrite app_length. simpl. lia.
Qed.

Lemma inc_dim_ok : forall b bs, good_sub b bs ->
  forall d idx ex, in_box bs idx -> (d <= List.length bs)%nat ->
  let s := rsucc (rev (firstn d bs)) (rev (firstn d idx)) in
  let idx' := rev (fst s) ++ skipn d idx in
  inc_dim d (mkIndexer (range_of b) (range_of bs) (offset b idx) ex idx) =
  Ok (mkIndexer (range_of b) (range_of bs) (offset b idx') (if snd s then false else ex) idx') /\
  in_box bs idx'.
Proof.
  intros b bs HG. induction d as [|d IH]; intros idx ex Hin Hd s idx'.
  - subst s idx'. simpl. auto.
  - (* split all lists at position d *)
    pose proof (gs_incl _ _ HG) as Hincl.
    destruct (split_both _ _ _ _ _ d Hin ltac:(lia)) as (bp & [l u] & bq & ip & x & iq & Eb & Ei & Lb & Li & Hp & Hx & Hq).
    destruct (split_both _ _ _ _ _ d Hincl ltac:(lia)) as (bp' & iv' & bq' & op & [L U] & oq & Eb' & Eo & Lb' & Lo & Hop & HLU & Hoq).
    assert (bp' = bp /\ iv' = (l, u) /\ bq' = bq) as (-> & -> & ->).
    { apply app_mid_inj; [congruence|lia]. }
    clear Eb'. subst bs. subst idx. simpl in Hx, HLU.
    pose proof (good_sub_int_sub _ _ HG) as Hbi.
    assert (Hlu : is_int l /\ is_int u).
    { apply Forall_elt in Hbi. exact Hbi. }
    pose proof (gs_vol _ _ HG) as Hvol.
    assert (Hib : in_box b (ip ++ x :: iq)) by (eapply box_incl_in; eauto).
    pose proof (offset_bounds _ _ Hib) as Hob.
    subst s idx'.
    rewrite firstn_snoc_mid by assumption. rewrite firstn_snoc_mid by assumption.
    rewrite !rev_snoc. rewrite skipn_S_mid by assumption.
    cbn [rsucc inc_dim]. cbn [ix_idx ix_sub ix_sup ix_lin ix_ex].
    unfold range_length. simpl r_upper. simpl r_lower. simpl r_stride.
    rewrite vget_mid by lia. cbn [bind].
    rewrite !vget_map_mid by lia. cbn [bind fst snd].
    rewrite isub_ok by (unfold is_int, int_min, int_max in *; lia). cbn [bind].
    assert (Hpb : 0 < prod_len oq).
    { apply prod_len_pos. pose proof (good_sub_ne _ _ HG) as Hn. subst b. apply nonempty_app in Hn as [_ Hn]. now inversion Hn. }
    assert (Hlen : (U - L) * prod_len oq <= int_max).
    { subst b. rewrite prod_len_app in Hvol. cbn [prod_len] in Hvol.
      pose proof (good_sub_ne _ _ HG) as Hn. apply nonempty_app in Hn as [Hn _].
      apply prod_len_pos in Hn.
      assert (0 <= (U - L) * prod_len oq) by nia.
      set (w := (U - L) * prod_len oq) in *. clearbody w. nia. }
    destruct (Z.eqb_spec x (u - 1)) as [Ex|Nx].
    + (* carry *)
      rewrite vset_mid by lia. cbn [bind].
      rewrite isub_ok by (unfold is_int, int_min, int_max in *; nia). cbn [bind].
      rewrite isub_ok by (unfold is_int, int_min, int_max in *; nia). cbn [bind].
      assert (Est : vget (box_strides b) (Z.of_nat d) = Ok (prod_len oq)).
      { subst b. apply vget_stride_mid. lia. }
      rewrite Est. cbn [bind].
      rewrite imul_ok by (unfold is_int, int_min, int_max in *; nia). cbn [bind].
      assert (Hin' : in_box (bp ++ (l, u) :: bq) (ip ++ l :: iq)).
      { apply Forall2_app; auto. constructor; auto. simpl. lia. }
      assert (Hib' : in_box b (ip ++ l :: iq)) by (eapply box_incl_in; eauto).
      pose proof (offset_bounds _ _ Hib') as Hob'.
      assert (Eoff : offset b (ip ++ x :: iq) - (u - l - 1) * prod_len oq = offset b (ip ++ l :: iq)).
      { subst b. rewrite (offset_replace op L U oq ip l x iq) by lia. subst x. lia. }
      rewrite isub_ok by (rewrite Eoff; unfold is_int, int_min, int_max in *; lia). cbn [bind].
      rewrite Eoff.
      destruct (IH (ip ++ l :: iq) ex Hin' ltac:(lia)) as (E & I).
      rewrite E. rewrite firstn_mid in I by assumption. rewrite firstn_mid in I by assumption.
      rewrite skipn_mid in I by assumption.
      rewrite !firstn_mid, skipn_mid by assumption.
      destruct (rsucc (rev bp) (rev ip)) as [rc w]. cbn [fst snd] in *. cbn [rev].
      rewrite <- app_assoc. cbn [app].
      split; auto.
    + (* increment *)
      cbn [fst snd].
      unfold indexer_increment. cbn [ix_idx ix_sub ix_sup ix_lin ix_ex].
      simpl r_stride.
      assert (Est : vget (box_strides b) (Z.of_nat d) = Ok (prod_len oq)).
      { subst b. apply vget_stride_mid. lia. }
      rewrite Est. cbn [bind].
      assert (Hin' : in_box (bp ++ (l, u) :: bq) (ip ++ (x + 1) :: iq)).
      { apply Forall2_app; auto. constructor; auto. simpl. lia. }
      assert (Hib' : in_box b (ip ++ (x + 1) :: iq)) by (eapply box_incl_in; eauto).
      pose proof (offset_bounds _ _ Hib') as Hob'.
      assert (Eoff : offset b (ip ++ x :: iq) + prod_len oq = offset b (ip ++ (x + 1) :: iq)).
      { subst b. rewrite (offset_replace op L U oq ip x (x + 1) iq) by lia. lia. }
      rewrite iadd_ok by (rewrite Eoff; unfold is_int, int_min, int_max in *; lia). cbn [bind].
      rewrite vget_mid by lia. cbn [bind].
      rewrite iadd_ok by (unfold is_int, int_min, int_max in *; lia). cbn [bind].
      rewrite vset_mid by lia. cbn [bind].
      rewrite Eoff. cbn [rev]. rewrite rev_involutive, <- app_assoc. cbn [app].
      split; auto.
Qed.

(** ** the order of traversal *)

(** [enum rb c L]: starting at [c], the successor visits exactly [L]. *)
Inductive enum (b : box) : list Z -> list (list Z) -> Prop :=
| enum_last : forall c rc, rsucc (rev b) (rev c) = (rc, true) -> enum b c [c]
| enum_step : forall c c' L,
    rsucc (rev b) (rev c) = (rev c', false) -> enum b c' L -> enum b c (c :: L).

Lemma enum_run : forall b l u x p L0,
  l <= x < u ->
  enum (b ++ [(l, u)]) (p ++ [u - 1]) (((p ++ [u - 1]) :: L0)) ->
  enum (b ++ [(l, u)]) (p ++ [x]) (map (fun y => p ++ [y]) (zrange x u) ++ L0).
Proof.
  intros b l u x p L0 Hx H.
  remember (Z.to_nat (u - 1 - x)) as n eqn:En. revert x Hx En.
  induction n; intros x Hx En.
  - assert (x = u - 1) by lia. subst x.
    rewrite zrange_cons, zrange_empty by lia. simpl. exact H.
  - rewrite zrange_cons by lia. simpl. eapply enum_step; [|apply IHn; lia].
    rewrite !rev_snoc. cbn [rsucc].
    destruct (Z.eqb_spec x (u - 1)); [lia|]. reflexivity.
Qed.

Lemma enum_snoc : forall b l u c L,
  l < u -> enum b c L ->
  enum (b ++ [(l, u)]) (c ++ [l]) (flat_map (fun p => map (fun x => p ++ [x]) (zrange l u)) L).
Proof.
  intros b l u c L Hlu H. induction H; cbn [flat_map].
  - rewrite app_nil_r.
    pose proof (enum_run b l u l c [] ltac:(lia)) as R. rewrite app_nil_r in R. apply R.
    apply enum_last with (rc := l :: rc). rewrite !rev_snoc. cbn [rsucc]. rewrite Z.eqb_refl, H. reflexivity.
  - apply enum_run; [lia|].
    eapply enum_step; [|exact IHenum].
    rewrite !rev_snoc. cbn [rsucc]. rewrite Z.eqb_refl, H. reflexivity.
Qed.

Lemma enum_cells : forall b, nonempty b -> enum b (first_cell b) (cells b).
Proof.
  induction b as [|[l u] b IH] using rev_ind; intros H.
  - simpl. apply enum_last with (rc := []). reflexivity.
  - apply nonempty_app in H as [H1 H2]. inversion H2; subst. simpl in *.
    rewrite cells_snoc. unfold first_cell. rewrite map_app. simpl map.
    apply enum_snoc; auto.
Qed.

(** One [next()] from a cell. *)
Lemma next_step : forall b bs c c', good_sub b bs -> in_box bs c ->
  rsucc (rev bs) (rev c) = (rev c', false) ->
  indexer_next (ix_at b bs c) = Ok (ix_at b bs c') /\ in_box bs c'.
Proof.
  intros b bs c c' HG Hc E. unfold indexer_next, ix_at. simpl r_nd. rewrite Nat2Z.id.
  pose proof (gs_incl _ _ HG) as Hi. apply box_incl_length in Hi. rewrite <- Hi.
  pose proof (inc_dim_ok _ _ HG (List.length bs) c true Hc ltac:(lia)) as H. cbv zeta in H.
  pose proof (in_box_length _ _ Hc) as HL.
  assert (E1 : firstn (List.length bs) c = c) by (rewrite <- HL; apply firstn_all).
  assert (E2 : skipn (List.length bs) c = []) by (rewrite <- HL; apply skipn_all).
  rewrite firstn_all, E1, E2, app_nil_r, E in H. cbn [fst snd] in H.
  rewrite rev_involutive in H. exact H.
Qed.

Lemma next_last : forall b bs c rc, good_sub b bs -> in_box bs c ->
  rsucc (rev bs) (rev c) = (rc, true) ->
  exists ix, indexer_next (ix_at b bs c) = Ok ix /\ ix_ex ix = false.
Proof.
  intros b bs c rc HG Hc E. unfold indexer_next, ix_at. simpl r_nd. rewrite Nat2Z.id.
  pose proof (gs_incl _ _ HG) as Hi. apply box_incl_length in Hi. rewrite <- Hi.
  pose proof (inc_dim_ok _ _ HG (List.length bs) c true Hc ltac:(lia)) as H. cbv zeta in H.
  pose proof (in_box_length _ _ Hc) as HL.
  assert (E1 : firstn (List.length bs) c = c) by (rewrite <- HL; apply firstn_all).
  assert (E2 : skipn (List.length bs) c = []) by (rewrite <- HL; apply skipn_all).
  rewrite firstn_all, E1, E2, app_nil_r, E in H. cbn [fst snd] in H.
  destruct H as [H _]. eexists. split; [exact H|reflexivity].
Qed.

(** The loop visits the cells of the sub range in row-major order. *)
Lemma for_indexer_enum : forall S b bs (body : indexer -> S -> out S) c L,
  good_sub b bs -> enum bs c L -> in_box bs c ->
  forall fuel s, (List.length L <= fuel)%nat ->
  for_indexer fuel (ix_at b bs c) body s = ofold (fun c => body (ix_at b bs c)) L s.
Proof.
  intros S b bs body c L HG H. induction H as [c rc E|c c' L E H IH]; intros Hc fuel s Hf.
  - destruct fuel; simpl in Hf; [lia|]. cbn [for_indexer ofold]. simpl ix_ex. cbv iota.
    apply obind_ext. intros s'.
    destruct (next_last _ _ _ _ HG Hc E) as (ix & En & Ee). rewrite En. cbn [liftr].
    destruct fuel; cbn [for_indexer]; rewrite Ee; reflexivity.
  - destruct fuel; simpl in Hf; [lia|]. cbn [for_indexer ofold]. simpl ix_ex. cbv iota.
    apply obind_ext. intros s'.
    destruct (next_step _ _ _ _ HG Hc E) as (En & Hc'). rewrite En. cbn [liftr].
    apply IH; auto. lia.
Qed.

Theorem for_indexer_cells : forall S b bs (body : indexer -> S -> out S) fuel s,
  good_sub b bs -> prod_len bs <= Z.of_nat fuel ->
  for_indexer fuel (ix_at b bs (first_cell bs)) body s =
  ofold (fun c => body (ix_at b bs c)) (cells bs) s.
Proof.
  intros. apply for_indexer_enum; auto.
  - apply enum_cells, H.
  - apply first_in_box, H.
  - apply Nat2Z.inj_le. rewrite cells_length by apply H. exact H0.
Qed.

(** ** final_linear_index *)

Lemma final_sum_ok : forall b c acc,
  in_box b c -> prod_len b <= int_max -> acc <= int_max ->
  int_bounds b ->
  offset b (last_cell b) - offset b c <= acc ->
  final_sum acc (map snd b) (map (fun x => x + 1) c) (box_strides b) =
  Ok (acc - (offset b (last_cell b) - offset b c)).
Proof.
  induction b as [|[l u] b IH]; intros c acc Hc Hv Ha Hi Hs; inversion Hc; subst.
  - simpl. f_equal. lia.
  - assert (Hne : nonempty b).
    { clear - H3. induction H3; constructor; auto. lia. }
    pose proof (offset_bounds _ _ (last_in_box _ Hne)) as Hl.
    pose proof (offset_bounds _ _ H3) as Ho.
    assert (Hcmp : offset b l' <= offset b (last_cell b)).
    { clear - H3. induction H3; simpl; [lia|]. destruct x; simpl in *.
      assert (0 < prod_len l).
      { apply prod_len_pos. clear - H3. induction H3; constructor; auto. lia. }
      nia. }
    inversion Hi; subst.
    cbn [map snd box_strides final_sum]. simpl in H1. cbn [prod_len last_cell map snd fst offset] in *.
    fold (last_cell b) in *.
    rewrite isub_ok; [|unfold is_int, int_min, int_max in *; nia]. cbn [bind].
    rewrite imul_ok; [|unfold is_int, int_min, int_max in *; nia]. cbn [bind].
    rewrite isub_ok; [|unfold is_int, int_min, int_max in *; nia]. cbn [bind].
    rewrite IH; auto; try nia. f_equal. nia.
Qed.

Lemma offset_last : forall b, nonempty b -> offset b (last_cell b) = prod_len b - 1.
Proof.
  induction b as [|[l u] b IH]; intros H; simpl; [reflexivity|].
  inversion H; subst. simpl in *. fold (last_cell b). rewrite IH by assumption. nia.
Qed.

Lemma indexer_final_ok : forall b bs c, good_sub b bs ->
  indexer_final (ix_at b bs c) = Ok (offset b (last_cell bs) + 1).
Proof.
  intros b bs c HG. unfold indexer_final, ix_at. cbn [ix_sup ix_sub].
  pose proof (good_sub_fit _ _ HG) as [_ Hv]. rewrite range_volume_fit by assumption. cbn [bind].
  rewrite box_volume_pos by apply HG.
  simpl r_upper. simpl r_stride.
  assert (E : map snd bs = map (fun x => x + 1) (last_cell bs)).
  { unfold last_cell. rewrite map_map. apply map_ext. intros; lia. }
  rewrite E. pose proof (good_sub_ne _ _ HG) as Hn.
  assert (Hin : in_box b (last_cell bs)).
  { eapply box_incl_in; [apply HG|]. apply last_in_box, HG. }
  pose proof (offset_bounds _ _ Hin). pose proof (gs_vol _ _ HG).
  pose proof (offset_last _ Hn).
  rewrite final_sum_ok; auto; try apply HG; try lia. f_equal. lia.
Qed.

(** ** empty sub ranges *)

Lemma inc_dim_stuck : forall d ix ix' k x l u,
  (k < d)%nat ->
  nth_error (ix_idx ix) k = Some x ->
  nth_error (r_lower (ix_sub ix)) k = Some l ->
  nth_error (r_upper (ix_sub ix)) k = Some u ->
  u <= l -> l <= x ->
  inc_dim d ix = Ok ix' ->
  ix_ex ix' = ix_ex ix /\ ix_sub ix' = ix_sub ix /\ ix_sup ix' = ix_sup ix /\
  exists x', nth_error (ix_idx ix') k = Some x' /\ l <= x'.
Proof.
  induction d as [|d IH]; intros ix ix' k x l u Hk Hx Hl Hu Hul Hlx E; [lia|].
  cbn [inc_dim] in E.
  apply bind_inv in E as (y & Ey & E). apply bind_inv in E as (v & Ev & E).
  apply bind_inv in E as (w & Ew & E).
  apply chk_inv in Ew as [-> _].
  apply vget_ok_inv in Ey as [_ Ey]. apply vget_ok_inv in Ev as [_ Ev]. rewrite Nat2Z.id in *.
  destruct (Z.eqb_spec y (v - 1)) as [Eq|Ne].
  - (* carry at dimension d: it is not dimension k *)
    assert (k <> d).
    { intros ->. rewrite Hx in Ey. rewrite Hu in Ev. inversion Ey; inversion Ev; subst. lia. }
    apply bind_inv in E as (l0 & El & E). apply bind_inv in E as (idx & Ei & E).
    apply bind_inv in E as (len & _ & E). apply bind_inv in E as (len1 & _ & E).
    apply bind_inv in E as (st & _ & E). apply bind_inv in E as (m & _ & E).
    apply bind_inv in E as (lin & _ & E).
    apply vset_inv in Ei as [_ ->]. rewrite Nat2Z.id in E.
    eapply IH with (k := k) (x := x) (l := l) (u := u) in E; cbn [ix_idx ix_sub ix_sup ix_ex] in *; eauto.
    + lia.
    + rewrite nth_error_upd_neq by lia. exact Hx.
  - (* increment at dimension d *)
    unfold indexer_increment in E.
    apply bind_inv in E as (st & _ & E). apply bind_inv in E as (lin & _ & E).
    apply bind_inv in E as (x0 & Ex0 & E). apply bind_inv in E as (x1 & Ex1 & E).
    apply bind_inv in E as (idx & Ei & E). inversion E; subst; clear E. cbn [ix_idx ix_sub ix_sup ix_ex].
    apply chk_inv in Ex1 as [-> _]. apply vset_inv in Ei as [Hb ->]. rewrite Nat2Z.id.
    apply vget_ok_inv in Ex0 as [_ Ex0]. rewrite Nat2Z.id in Ex0.
    splits; auto. destruct (Nat.eq_dec d k) as [->|N].
    + rewrite nth_error_upd_eq by lia. rewrite Hx in Ex0. inversion Ex0; subst. exists (x0 + 1). split; auto. lia.
    + rewrite nth_error_upd_neq by assumption. eauto.
Qed.

(** A loop over a sub range with an empty dimension never terminates
    normally, whatever the fuel and the loop body. *)
Lemma for_indexer_stuck : forall S (body : indexer -> S -> out S) fuel ix s k x l u,
  ix_ex ix = true ->
  (k < Z.to_nat (r_nd (ix_sup ix)))%nat ->
  nth_error (ix_idx ix) k = Some x ->
  nth_error (r_lower (ix_sub ix)) k = Some l ->
  nth_error (r_upper (ix_sub ix)) k = Some u ->
  u <= l -> l <= x ->
  forall s', for_indexer fuel ix body s <> Done s'.
Proof.
  induction fuel; intros ix s k x l u He Hk Hx Hl Hu Hul Hlx s' E; simpl in E; rewrite He in E; [discriminate|].
  destruct (body ix s) as [s1| | |] eqn:Eb; simpl in E; try discriminate.
  destruct (indexer_next ix) as [ix'| | |] eqn:En; simpl in E; try discriminate.
  destruct (inc_dim_stuck _ _ _ k x l u Hk Hx Hl Hu Hul Hlx En) as (A & B & C & x' & D & F).
  eapply (IHfuel ix' s1 k x' l u); eauto; try (rewrite ?B, ?C; assumption).
Qed.

Lemma not_nonempty_dim : forall b, ~ nonempty b ->
  exists k l u, nth_error b k = Some (l, u) /\ u <= l.
Proof.
  induction b as [|[l u] b IH]; intros H.
  - exfalso. apply H. constructor.
  - destruct (Z_lt_dec l u) as [L|L].
    + destruct IH as (k & l' & u' & E & Hle).
      * intros Hb. apply H. constructor; auto.
      * exists (S k), l', u'. auto.
    + exists 0%nat, l, u. split; auto. lia.
Qed.

Theorem for_indexer_empty : forall S b bs ix (body : indexer -> S -> out S) fuel s s',
  box_incl bs b -> ~ nonempty bs -> strides_fit b -> strides_fit bs ->
  indexer_make (range_of bs) (range_of b) = Ok ix ->
  ix_ex ix = true /\ for_indexer fuel ix body s <> Done s'.
Proof.
  intros S b bs ix body fuel s s' Hi Hne Fb Fbs E.
  assert (Hb : bs <> []) by (intros ->; apply Hne; constructor).
  pose proof (box_incl_length _ _ Hi) as HL.
  unfold indexer_make in E. rewrite (range_copy_of b), (range_copy_of bs) in E by assumption.
  cbn [bind] in E. simpl r_nd in E.
  destruct (Z.ltb_spec (Z.of_nat (List.length b)) 0); [lia|].
  destruct (Z.ltb_spec 0 (Z.of_nat (List.length b))) as [Hl|Hl].
  2:{ destruct bs; [congruence|simpl in *; lia]. }
  assert (Ei : range_includes (range_of b) (range_of bs) = true) by (now apply range_includes_of).
  rewrite Ei in E. cbn [andb] in E.
  apply bind_inv in E as (lin & _ & E). inversion E; subst; clear E. split; [reflexivity|].
  destruct (not_nonempty_dim _ Hne) as (k & l & u & Ek & Hul).
  assert (Hk : (k < List.length bs)%nat) by (apply nth_error_Some; congruence).
  eapply for_indexer_stuck with (k := k) (x := l) (l := l) (u := u); simpl; auto; try lia;
    rewrite nth_error_map, Ek; reflexivity.
Qed.
