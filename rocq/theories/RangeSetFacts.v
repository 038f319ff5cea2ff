(** * RangeSetFacts: proofs about the decomposition of a range. *)
From Coq Require Import ZArith List String Lia Bool.
From Verif Require Import Base BaseFacts BoxSpec BoxFacts Range RangeSpec RangeFacts
  Indexer IndexerFacts Interface InterfaceFacts ApiSpec ApiFacts RangeSet RangeSetSpec Float32Facts.
Import ListNotations.
Open Scope Z_scope.

Definition sub_iv (iv : Z * Z) (n k : Z) : Z * Z :=
  let s := ceil_div (snd iv - fst iv) n in
  (fst iv + k * s, Z.min (fst iv + k * s + s) (snd iv)).

Fixpoint sub_box (b : box) (dims idx : list Z) : box :=
  match b, dims, idx with
  | iv :: b', n :: dims', k :: idx' => sub_iv iv n k :: sub_box b' dims' idx'
  | _, _, _ => []
  end.

Lemma ceil_div_spec : forall len n, 1 <= n ->
  n * (ceil_div len n - 1) < len <= n * ceil_div len n.
Proof.
  intros len n Hn. unfold ceil_div. pose proof (Z.div_mod (len + n - 1) n ltac:(lia)).
  pose proof (Z.mod_pos_bound (len + n - 1) n ltac:(lia)). nia.
Qed.

Lemma div_ok_size : forall iv n, div_ok iv n ->
  1 <= ceil_div (snd iv - fst iv) n <= snd iv - fst iv.
Proof.
  intros [l u] n (H1 & H2 & _). simpl in *. pose proof (ceil_div_spec (u - l) n ltac:(lia)).
  set (s := ceil_div (u - l) n) in *. clearbody s. split; nia.
Qed.

Lemma sub_sizes_ok : forall b dims, Forall2 div_ok b dims ->
  sub_sizes (map fst b) (map snd b) dims =
  Ok (map (fun p => ceil_div (snd (fst p) - fst (fst p)) (snd p)) (combine b dims)).
Proof.
  intros b dims H. induction H as [|[l u] n b dims Hd H IH]; [reflexivity|].
  cbn [map sub_sizes combine fst snd]. destruct Hd as (H1 & H2 & H3 & H4 & _). simpl in *.
  rewrite isub_ok by (unfold is_int, int_min, int_max in *; lia). cbn [bind].
  rewrite sub_size_ok by assumption. cbn [bind]. rewrite IH. reflexivity.
Qed.

Lemma sub_bounds_ok : forall b dims idx, Forall2 div_ok b dims -> in_box (dims_box dims) idx ->
  sub_bounds (map fst b) (map snd b)
    (map (fun p => ceil_div (snd (fst p) - fst (fst p)) (snd p)) (combine b dims)) idx =
  Ok (map fst (sub_box b dims idx), map snd (sub_box b dims idx)).
Proof.
  intros b dims idx H. revert idx. induction H as [|[l u] n b dims Hd H IH]; intros idx Hi.
  - inversion Hi; subst. reflexivity.
  - inversion Hi as [|? k ? idx' Hk Hr]; subst. cbn [fst snd] in Hk.
    cbn [map sub_bounds combine fst snd sub_box].
    pose proof (div_ok_size _ _ Hd) as Hs. destruct Hd as (H1 & H2 & H3 & H4 & H5). cbn [fst snd] in *.
    pose proof (ceil_div_spec (u - l) n ltac:(lia)) as C.
    set (s := ceil_div (u - l) n) in *.
    assert (n * s < 2 ^ 25) by lia.
    assert (0 <= k * s <= n * s) by nia. assert (k * s + s <= n * s) by nia.
    unfold is_int, int_min, int_max in *.
    rewrite imul_ok by (unfold is_int, int_min, int_max; lia). cbn [bind].
    rewrite iadd_ok by (unfold is_int, int_min, int_max; lia). cbn [bind].
    rewrite iadd_ok by (unfold is_int, int_min, int_max; lia). cbn [bind].
    rewrite IH by assumption. reflexivity.
Qed.

Lemma sub_box_length : forall b dims idx, List.length b = List.length dims ->
  List.length idx = List.length dims -> List.length (sub_box b dims idx) = List.length b.
Proof.
  induction b; destruct dims, idx; simpl; intros; try discriminate; auto.
Qed.

Lemma max_prod_ge : forall b dims, Forall2 div_ok b dims -> 1 <= max_prod b dims.
Proof.
  intros b dims H. induction H as [|iv n b dims Hd H IH]; simpl; [lia|].
  destruct Hd as (H1 & H2 & _). nia.
Qed.

Lemma sub_iv_len : forall iv n k, div_ok iv n -> 0 <= k < n ->
  Z.abs (snd (sub_iv iv n k) - fst (sub_iv iv n k)) <= Z.max (snd iv - fst iv) n.
Proof.
  intros [l u] n k Hd Hk. pose proof (div_ok_size _ _ Hd) as Hs. destruct Hd as (H1 & H2 & _).
  cbn [sub_iv fst snd] in *. pose proof (ceil_div_spec (u - l) n ltac:(lia)) as C.
  set (s := ceil_div (u - l) n) in *. clearbody s.
  assert (k * s <= (n - 1) * s) by nia. nia.
Qed.

Lemma prod_sub_abs : forall b dims idx, Forall2 div_ok b dims -> in_box (dims_box dims) idx ->
  Z.abs (prod_len (sub_box b dims idx)) <= max_prod b dims.
Proof.
  intros b dims idx H. revert idx. induction H as [|iv n b dims Hd H IH]; intros idx Hi.
  - inversion Hi; subst. simpl. lia.
  - inversion Hi as [|? k ? idx' Hk Hr]; subst. cbn [fst snd] in Hk.
    cbn [sub_box max_prod prod_len]. pose proof (sub_iv_len _ _ _ Hd Hk) as L. specialize (IH _ Hr).
    destruct (sub_iv iv n k) as [a c]. cbn [fst snd] in L. simpl. rewrite Z.abs_mul.
    apply Z.mul_le_mono_nonneg; lia.
Qed.

Lemma sub_box_fit : forall b dims idx, Forall2 div_ok b dims -> in_box (dims_box dims) idx ->
  max_prod b dims <= int_max -> strides_fit (sub_box b dims idx).
Proof.
  intros b dims idx H. revert idx. induction H as [|iv n b dims Hd H IH]; intros idx Hi Hm.
  - inversion Hi; subst. exact I.
  - inversion Hi as [|? k ? idx' Hk Hr]; subst. cbn [fst snd] in Hk. cbn [sub_box].
    apply strides_fit_cons.
    assert (Hm' : max_prod b dims <= int_max).
    { cbn [max_prod] in Hm. pose proof (max_prod_ge _ _ H). destruct Hd as (? & ? & _).
      set (M := max_prod b dims) in *. clearbody M. nia. }
    split; [apply IH; auto|].
    pose proof (prod_sub_abs _ _ _ H Hr) as P.
    unfold vol_fit. destruct (sub_box b dims idx') as [|[a c] sb] eqn:E; auto.
    split; [|unfold is_int, int_min, int_max in *; lia].
    destruct H as [|iv1 n1 b1 dims1 Hd1 H1]; [simpl in E; discriminate|].
    inversion Hr as [|? k1 ? idx1 Hk1 Hr1]; subst. cbn [fst snd] in Hk1. cbn [sub_box] in E. assert (E1 : sub_iv iv1 n1 k1 = (a, c)) by congruence.
    pose proof (sub_iv_len _ _ _ Hd1 Hk1) as L. rewrite E1 in L. cbn [fst snd] in L.
    cbn [max_prod] in Hm'. pose proof (max_prod_ge _ _ H1). destruct Hd1 as (? & ? & _).
    set (M := max_prod b1 dims1) in *. clearbody M. unfold is_int, int_min, int_max in *. nia.
Qed.

Lemma dims_box_fst : forall dims, map fst (dims_box dims) = repeat 0 (List.length dims).
Proof. induction dims; simpl; congruence. Qed.
Lemma dims_box_snd : forall dims, map snd (dims_box dims) = dims.
Proof. induction dims; simpl; congruence. Qed.

Lemma dims_prod_le : forall b dims, Forall2 div_ok b dims -> prod_len (dims_box dims) <= max_prod b dims.
Proof.
  intros b dims H. induction H as [|iv n b dims Hd H IH]; simpl; [lia|].
  destruct Hd as (H1 & H2 & _).
  assert (0 <= prod_len (dims_box dims)).
  { clear - H. induction H as [|iv n b dims Hd H IH]; simpl; [lia|]. destruct Hd as (? & ? & _). nia. }
  rewrite Z.sub_0_r. apply Z.mul_le_mono_nonneg; lia.
Qed.

Lemma len_prod_le : forall b dims, Forall2 div_ok b dims -> 0 <= prod_len b <= max_prod b dims.
Proof.
  intros b dims H. induction H as [|[l u] n b dims Hd H IH]; simpl; [lia|].
  destruct Hd as (H1 & H2 & _). simpl in *. split; [nia|]. apply Z.mul_le_mono_nonneg; lia.
Qed.

Lemma dims_valid : forall b dims, Forall2 div_ok b dims -> b <> [] -> max_prod b dims <= int_max ->
  valid_box (dims_box dims).
Proof.
  intros b dims H Hb Hm. unfold valid_box. splits.
  - inversion H; subst; [congruence|]. discriminate.
  - clear Hb Hm. induction H as [|iv n b dims Hd H IH]; constructor; auto. simpl. destruct Hd as (? & ? & _). lia.
  - pose proof (dims_prod_le _ _ H). lia.
  - clear Hb Hm. induction H as [|iv n b dims Hd H IH]; constructor; auto. simpl. destruct Hd as (? & ? & _).
    unfold is_int, int_min, int_max. lia.
Qed.

Lemma source_valid : forall b dims, Forall2 div_ok b dims -> b <> [] -> max_prod b dims <= int_max -> valid_box b.
Proof.
  intros b dims H Hb Hm. unfold valid_box. splits; auto.
  - clear Hb Hm. induction H as [|[l u] n b dims Hd H IH]; constructor; auto. destruct Hd as (? & ? & _). simpl in *. lia.
  - pose proof (len_prod_le _ _ H). lia.
  - clear Hb Hm. induction H as [|iv n b dims Hd H IH]; constructor; auto. destruct Hd as (? & ? & ? & ? & _). auto.
Qed.

Lemma rs_new_ok : forall b dims r fuel,
  b <> [] -> Forall2 div_ok b dims -> max_prod b dims <= int_max -> observes r b ->
  prod_len (dims_box dims) <= Z.of_nat fuel ->
  exists rs, rs_new fuel r dims = Done rs /\ container (rs_ranges rs) (dims_box dims) /\
    forall idx, in_box (dims_box dims) idx ->
      iface_elem (rs_ranges rs) idx = Ok (range_of (sub_box b dims idx)).
Proof.
  intros b dims r fuel Hb Hd Hm Hr Hf. apply observes_iff in Hr as ->.
  pose proof (source_valid _ _ Hd Hb Hm) as Vb. pose proof (dims_valid _ _ Hd Hb Hm) as Vd.
  assert (HL : List.length b = List.length dims) by (eapply Forall2_length; eauto).
  unfold rs_new, rs_setup.
  rewrite (range_copy_of b) by (apply valid_fit; auto). cbn [liftr].
  assert (E0 : range_of_dims (r_nd (range_of b)) dims = Ok (range_of (dims_box dims))).
  { unfold range_of_dims. cbn [range_of r_nd]. destruct (Z.ltb_spec (Z.of_nat (List.length b)) 0); [lia|].
    rewrite Nat2Z.id, HL. rewrite <- dims_box_fst.
    rewrite <- (dims_box_snd dims) at 3. replace (List.length dims) with (List.length (dims_box dims)) by (apply map_length).
    destruct (setup_cases (dims_box dims)) as [[_ E]|[N _]]; auto. exfalso. apply N, valid_fit; auto. }
  rewrite E0. cbn [liftr].
  cbn [rs_ranges rs_default].
  destruct (resize_ok _ range_empty (mkIface range_empty []) (dims_box dims)) as (i2 & E2 & Hok2 & _); try apply Vd.
  rewrite E2. cbn [omap obind rs_ranges].
  cbn [range_of r_lower r_upper]. rewrite sub_sizes_ok by assumption. cbn [liftr].
  unfold iface_indexer. rewrite (io_range _ _ Hok2).
  pose proof (valid_self _ Vd) as G. rewrite indexer_make_ok by assumption. cbn [liftr].
  match goal with |- context [for_indexer _ _ ?f _] => set (body := f) end.
  rewrite for_indexer_cells by assumption.
  destruct (for_put range (dims_box dims) (dims_box dims) (fun x => x)
      (fun c _ => range_of (sub_box b dims c)) (cells (dims_box dims)) i2 body) as (i' & E & Hok' & Hr & Hset & _);
    auto.
  - apply cells_NoDup.
  - intros c Hc. now apply in_cells.
  - subst body. intros c j v Hc Hj _. cbn [ix_at ix_idx]. apply in_cells in Hc.
    rewrite sub_bounds_ok by assumption. cbn [liftr fst snd].
    assert (Em : range_make (r_nd (range_of (dims_box dims))) (map fst (sub_box b dims c)) (map snd (sub_box b dims c)) =
                 Ok (range_of (sub_box b dims c))).
    { unfold range_make. cbn [range_of r_nd].
      replace (List.length (dims_box dims)) with (List.length (sub_box b dims c)).
      - destruct (setup_cases (sub_box b dims c)) as [[_ E]|[N _]]; auto. exfalso. apply N. now apply sub_box_fit.
      - rewrite sub_box_length; auto.
        + unfold dims_box. now rewrite map_length.
        + apply in_box_length in Hc. unfold dims_box in Hc. rewrite map_length in Hc. congruence. }
    rewrite Em. cbn [liftr]. rewrite put_at with (b := dims_box dims) by assumption. reflexivity.
  - cbn [rs_ranges]. rewrite E. cbn [omap]. eexists. split; [reflexivity|]. cbn [rs_ranges]. split.
    + now apply container_iff.
    + intros idx Hi. destruct (cont_some _ _ _ _ Hok2 Hi) as (v & Ev).
      apply (elem_ok _ _ (dims_box dims)); auto. apply (Hset idx v); auto. now apply in_cells.
Qed.

(** ** Partition *)

Lemma sub_iv_cover : forall iv n x, div_ok iv n -> fst iv <= x < snd iv ->
  0 <= (x - fst iv) / ceil_div (snd iv - fst iv) n < n /\
  fst (sub_iv iv n ((x - fst iv) / ceil_div (snd iv - fst iv) n)) <= x <
  snd (sub_iv iv n ((x - fst iv) / ceil_div (snd iv - fst iv) n)).
Proof.
  intros [l u] n x Hd Hx. pose proof (div_ok_size _ _ Hd) as Hs. destruct Hd as (H1 & H2 & _).
  cbn [sub_iv fst snd] in *. pose proof (ceil_div_spec (u - l) n ltac:(lia)) as C.
  set (s := ceil_div (u - l) n) in *. clearbody s.
  pose proof (Z.div_mod (x - l) s ltac:(lia)). pose proof (Z.mod_pos_bound (x - l) s ltac:(lia)).
  set (k := (x - l) / s) in *. clearbody k. set (m := (x - l) mod s) in *. clearbody m.
  split; [|nia]. split; nia.
Qed.

Lemma sub_iv_unique : forall iv n k x, div_ok iv n -> 0 <= k < n ->
  fst (sub_iv iv n k) <= x < snd (sub_iv iv n k) ->
  k = (x - fst iv) / ceil_div (snd iv - fst iv) n /\ fst iv <= x < snd iv.
Proof.
  intros [l u] n k x Hd Hk Hx. pose proof (div_ok_size _ _ Hd) as Hs. cbn [sub_iv fst snd] in *.
  set (s := ceil_div (u - l) n) in *. clearbody s.
  split; [|nia]. apply Z.div_unique with (r := x - l - k * s); lia.
Qed.

Fixpoint owner (b : box) (dims c : list Z) : list Z :=
  match b, dims, c with
  | iv :: b', n :: dims', x :: c' => (x - fst iv) / ceil_div (snd iv - fst iv) n :: owner b' dims' c'
  | _, _, _ => []
  end.

Lemma owner_ok : forall b dims c, Forall2 div_ok b dims -> in_box b c ->
  in_box (dims_box dims) (owner b dims c) /\ in_box (sub_box b dims (owner b dims c)) c.
Proof.
  intros b dims c H. revert c. induction H as [|iv n b dims Hd H IH]; intros c Hc.
  - inversion Hc; subst. split; constructor.
  - inversion Hc as [|? x ? c' Hx Hr]; subst. cbn [owner sub_box dims_box map].
    destruct (IH _ Hr) as [A B]. destruct (sub_iv_cover _ _ _ Hd Hx) as [C D].
    split; constructor; auto.
Qed.

Lemma owner_unique : forall b dims idx c, Forall2 div_ok b dims -> in_box (dims_box dims) idx ->
  in_box (sub_box b dims idx) c -> idx = owner b dims c /\ in_box b c.
Proof.
  intros b dims idx c H. revert idx c. induction H as [|iv n b dims Hd H IH]; intros idx c Hi Hc.
  - inversion Hi; subst. inversion Hc; subst. split; [reflexivity|constructor].
  - inversion Hi as [|? k ? idx' Hk Hr]; subst. cbn [sub_box] in Hc.
    inversion Hc as [|? x ? c' Hx Hcr]; subst. cbn [fst snd] in Hk.
    destruct (sub_iv_unique _ _ _ _ Hd Hk Hx) as [A B]. destruct (IH _ _ Hr Hcr) as [C D].
    cbn [owner]. split; [congruence|constructor; auto].
Qed.

(** ** Valid sub ranges *)

Lemma sub_box_good : forall b dims idx, Forall2 div_ok b dims -> all_get_cells b dims ->
  in_box (dims_box dims) idx -> nonempty (sub_box b dims idx) /\ box_incl (sub_box b dims idx) b.
Proof.
  intros b dims idx H. revert idx. induction H as [|[l u] n b dims Hd H IH]; intros idx Ha Hi.
  - inversion Hi; subst. split; constructor.
  - inversion Hi as [|? k ? idx' Hk Hr]; subst. inversion Ha as [|? ? ? ? Hg Hgr]; subst. cbn [fst snd] in *.
    destruct (IH _ Hgr Hr) as [A B]. pose proof (div_ok_size _ _ Hd) as Hs. cbn [fst snd] in Hs.
    cbn [sub_box]. unfold sub_iv. cbn [fst snd].
    set (s := ceil_div (u - l) n) in *. clearbody s.
    split; constructor; auto; cbn [fst snd]; nia.
Qed.

(** ** Volumes *)

Lemma zsum_app : forall a b, zsum (a ++ b) = zsum a + zsum b.
Proof. induction a; intros; simpl; [reflexivity|]. unfold zsum in *. simpl. rewrite IHa. ring. Qed.
Lemma zsum_scale : forall k l, zsum (map (fun x => k * x) l) = k * zsum l.
Proof. induction l; unfold zsum in *; simpl; [ring|]. rewrite IHl. ring. Qed.

Lemma zsum_flat : forall A B (f : A -> Z) (g : B -> Z) (l : list A) (m : list B),
  zsum (flat_map (fun x => map (fun y => f x * g y) m) l) = zsum (map f l) * zsum (map g m).
Proof.
  induction l as [|x l IH]; intros m; [reflexivity|]. cbn [flat_map map]. rewrite zsum_app, IH.
  change (zsum (f x :: map f l)) with (f x + zsum (map f l)).
  replace (map (fun y => f x * g y) m) with (map (fun z => f x * z) (map g m)) by (rewrite map_map; reflexivity).
  rewrite zsum_scale. ring.
Qed.


Lemma sub_iv_telescope : forall l u s m, 0 < s -> 0 <= u - l -> (Z.of_nat m - 1) * s <= u - l ->
  zsum (map (fun k => Z.min (l + k * s + s) u - (l + k * s)) (zrange 0 (Z.of_nat m))) = Z.min (Z.of_nat m * s) (u - l).
Proof.
  intros l u s m Hs Hl. induction m as [|m IH]; intros Hg.
  - simpl. unfold zsum. simpl. lia.
  - rewrite Nat2Z.inj_succ in *. unfold Z.succ in *.
    replace (zrange 0 (Z.of_nat m + 1)) with (zrange 0 (Z.of_nat m) ++ [Z.of_nat m])
      by (symmetry; apply zrange_snoc; lia).
    rewrite map_app, zsum_app, IH by lia. unfold zsum; cbn [map fold_right]. lia.
Qed.

Lemma cells_sum : forall b dims, Forall2 div_ok b dims -> all_get_cells b dims ->
  zsum (map (fun idx => prod_len (sub_box b dims idx)) (cells (dims_box dims))) = prod_len b.
Proof.
  intros b dims H. induction H as [|[l u] n b dims Hd H IH]; intros Ha.
  - reflexivity.
  - inversion Ha as [|? ? ? ? Hg Hgr]; subst. cbn [fst snd] in Hg.
    cbn [dims_box map cells]. fold (dims_box dims). rewrite map_flat_map.
    replace (flat_map (fun x => map (fun idx => prod_len (sub_box ((l, u) :: b) (n :: dims) idx)) (map (cons x) (cells (dims_box dims)))) (zrange 0 n))
      with (flat_map (fun x => map (fun y => (snd (sub_iv (l, u) n x) - fst (sub_iv (l, u) n x)) * prod_len (sub_box b dims y)) (cells (dims_box dims))) (zrange 0 n)).
    2:{ apply flat_map_ext_in. intros x _. rewrite map_map. apply map_ext. intros idx.
        cbn [sub_box prod_len]. destruct (sub_iv (l, u) n x). reflexivity. }
    rewrite zsum_flat, IH by assumption. cbn [prod_len]. f_equal.
    pose proof (div_ok_size _ _ Hd) as Hs. destruct Hd as (H1 & H2 & _). cbn [fst snd] in *.
    pose proof (ceil_div_spec (u - l) n ltac:(lia)) as C.
    unfold sub_iv. cbn [fst snd]. set (s := ceil_div (u - l) n) in *. clearbody s.
    rewrite <- (Z2Nat.id n) at 1 by lia. rewrite sub_iv_telescope; rewrite ?Z2Nat.id; nia.
Qed.

(** ** Client-level statements *)

Lemma part_iff : forall rs b dims idx sb,
  (forall idx, in_box (dims_box dims) idx ->
      iface_elem (rs_ranges rs) idx = Ok (range_of (sub_box b dims idx))) ->
  in_box (dims_box dims) idx -> (part rs idx sb <-> sb = sub_box b dims idx).
Proof.
  intros rs b dims idx sb H Hi. unfold part. rewrite (H _ Hi). split.
  - intros (r & E & O). inversion E; subst. apply observes_iff in O. symmetry. now apply range_of_inj.
  - intros ->. eexists. split; [reflexivity|apply observes_range_of].
Qed.

Theorem rs_cover_once : forall b dims r fuel,
  b <> [] -> Forall2 div_ok b dims -> max_prod b dims <= int_max -> observes r b ->
  prod_len (dims_box dims) <= Z.of_nat fuel ->
  exists rs, rs_new fuel r dims = Done rs /\ container (rs_ranges rs) (dims_box dims) /\
    (forall idx, in_box (dims_box dims) idx -> exists sb, part rs idx sb) /\
    (forall idx sb c, in_box (dims_box dims) idx -> part rs idx sb -> in_box sb c -> in_box b c) /\
    (forall c, in_box b c -> exists idx sb, in_box (dims_box dims) idx /\ part rs idx sb /\ in_box sb c) /\
    (forall c idx sb idx' sb', in_box (dims_box dims) idx -> part rs idx sb -> in_box sb c ->
       in_box (dims_box dims) idx' -> part rs idx' sb' -> in_box sb' c -> idx = idx').
Proof.
  intros b dims r fuel Hb Hd Hm Hr Hf.
  destruct (rs_new_ok b dims r fuel) as (rs & E & Hc & Hp); auto.
  exists rs. splits; auto.
  - intros idx Hi. exists (sub_box b dims idx). eapply part_iff; eauto.
  - intros idx sb c Hi Hpart Hcb. eapply part_iff in Hpart; eauto. subst.
    eapply owner_unique; eauto.
  - intros c Hcb. destruct (owner_ok _ _ _ Hd Hcb) as [A B].
    exists (owner b dims c), (sub_box b dims (owner b dims c)). splits; auto. eapply part_iff; eauto.
  - intros c idx sb idx' sb' H1 H2 H3 H4 H5 H6.
    eapply part_iff in H2; eauto. eapply part_iff in H5; eauto. subst.
    destruct (owner_unique _ _ _ _ Hd H1 H3) as [-> _]. destruct (owner_unique _ _ _ _ Hd H4 H6) as [-> _]. reflexivity.
Qed.

Theorem rs_valid_parts : forall b dims r fuel,
  b <> [] -> Forall2 div_ok b dims -> all_get_cells b dims -> max_prod b dims <= int_max -> observes r b ->
  prod_len (dims_box dims) <= Z.of_nat fuel ->
  exists rs parts, rs_new fuel r dims = Done rs /\
    Forall2 (fun idx sb => part rs idx sb /\ nonempty sb /\ box_incl sb b) (cells (dims_box dims)) parts /\
    zsum (map prod_len parts) = prod_len b.
Proof.
  intros b dims r fuel Hb Hd Ha Hm Hr Hf.
  destruct (rs_new_ok b dims r fuel) as (rs & E & Hc & Hp); auto.
  exists rs, (map (sub_box b dims) (cells (dims_box dims))). splits; auto.
  - assert (K : forall L, (forall idx, In idx L -> in_box (dims_box dims) idx) ->
      Forall2 (fun idx sb => part rs idx sb /\ nonempty sb /\ box_incl sb b) L (map (sub_box b dims) L)).
    { induction L as [|idx L IH]; intros HL; simpl; constructor.
      - assert (Hi : in_box (dims_box dims) idx) by (apply HL; simpl; auto).
        destruct (sub_box_good _ _ _ Hd Ha Hi). splits; auto. eapply part_iff; eauto.
      - apply IH. intros; apply HL; simpl; auto. }
    apply K. intros idx H. now apply in_cells.
  - rewrite map_map. now apply cells_sum.
Qed.

Theorem rs_invalid_parts : exists rs,
  rs_new 4 (range_of [(0, 5)]) [4] = Done rs /\ part rs [3] [(6, 5)] /\
  range_length (range_of [(6, 5)]) 0 = Ok (-1) /\ ~ nonempty [(6, 5)].
Proof.
  eexists. split; [vmr|]. splits.
  - exists (range_of [(6, 5)]). split; [vmr|apply observes_range_of].
  - vmr.
  - intros H. inversion H; subst. simpl in *. lia.
Qed.

Theorem rs_lost_cell : exists rs,
  rs_new 1 (range_of [(0, 16777217)]) [1] = Done rs /\ part rs [0] [(0, 16777216)] /\
  in_box [(0, 16777217)] [16777216] /\ ~ in_box [(0, 16777216)] [16777216].
Proof.
  eexists. split; [vmr|]. splits.
  - exists (range_of [(0, 16777216)]). split; [vmr|apply observes_range_of].
  - constructor; [simpl; lia|constructor].
  - intros H. inversion H; subst. simpl in *. lia.
Qed.
