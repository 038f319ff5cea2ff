(** * InitialFacts: the initial condition solvers. *)
From Coq Require Import ZArith List String Lia Bool.
From Verif Require Import Base BaseFacts BoxSpec BoxFacts Range RangeSpec RangeFacts Indexer IndexerFacts Interface InterfaceFacts
  ApiSpec ApiFacts Arith Chunk FieldSpec FieldFacts ChunkFacts VarId Manager MgrSpec MgrFacts Solvers SolverFacts
  Par ParFacts Kernel KernelFacts Integrators IntegratorSpec IntegratorFacts SweepSpec SweepFacts Sources SourceSpec SourceFacts Initial InitialSpec.
Import ListNotations.
Open Scope Z_scope.

(** ** coordinates *)

Section Coords.
Context {F : Type} {A : Arith F}.
Notation fld := (field F).

Lemma vget_nth : forall T (l : list T) i d, (i < List.length l)%nat -> vget l (Z.of_nat i) = Ok (nth i l d).
Proof.
  intros T l i d H. unfold vget. destruct (Z.leb_spec 0 (Z.of_nat i)); [|lia]. rewrite Nat2Z.id.
  rewrite (nth_error_nth' l d H). reflexivity.
Qed.

Lemma nth_upd_same : forall T (l : list T) i v d, (i < List.length l)%nat -> nth i (upd l i v) d = v.
Proof. induction l; intros [|i] v d H; cbn in *; try lia; auto. apply IHl. lia. Qed.
Lemma nth_upd_other : forall T (l : list T) i j v d, i <> j -> nth j (upd l i v) d = nth j l d.
Proof. induction l; intros [|i] [|j] v d H; cbn in *; try congruence; auto. Qed.

Lemma xc_loop_ok : forall (g : grid F) ix n i (x : coords F),
  (i + n <= List.length (gr_starts g))%nat -> (i + n <= List.length (gr_dxs g))%nat -> (i + n <= List.length (ix_idx ix))%nat ->
  (i + n <= List.length x)%nat ->
  exists x', xc_loop n (Z.of_nat i) g ix x = Ok x' /\ List.length x' = List.length x /\
    forall d, nth d x' None = if (i <=? d)%nat && (d <? i + n)%nat then Some (center g (ix_idx ix) d) else nth d x None.
Proof.
  intros g ix. induction n as [|n IH]; intros i x H1 H2 H3 H4.
  - exists x. split; [reflexivity|split; [reflexivity|]]. intros d. destruct (Nat.leb_spec i d); destruct (Nat.ltb_spec d (i + 0)); cbn; auto; lia.
  - cbn [xc_loop]. rewrite (vget_nth _ (gr_starts g) i f0), (vget_nth _ (ix_idx ix) i 0), (vget_nth _ (gr_dxs g) i f0) by lia. cbn [bind].
    rewrite vset_ok by lia. cbn [bind]. rewrite Nat2Z.id.
    destruct (IH (S i) (upd x i (Some (nth i (gr_starts g) f0 + (fofz (nth i (ix_idx ix) 0%Z) + fdec 5 (-1)) * nth i (gr_dxs g) f0)%F))) as (x' & E & El & Ed); try lia.
    { rewrite upd_length. lia. }
    exists x'. replace (Z.of_nat i + 1) with (Z.of_nat (S i)) by lia. rewrite E. split; [reflexivity|]. rewrite El, upd_length. split; [reflexivity|].
    intros d. rewrite Ed. destruct (Nat.eq_dec d i) as [->|N].
    + destruct (Nat.leb_spec (S i) i); [lia|]. cbn [andb]. destruct (Nat.leb_spec i i); [|lia]. destruct (Nat.ltb_spec i (i + S n)); [|lia].
      cbn [andb]. rewrite nth_upd_same by lia. reflexivity.
    + rewrite nth_upd_other by lia.
      destruct (Nat.leb_spec (S i) d); destruct (Nat.leb_spec i d); destruct (Nat.ltb_spec d (S i + n)); destruct (Nat.ltb_spec d (i + S n)); cbn [andb]; auto; lia.
Qed.

Lemma xc_loop_oob : forall (g : grid F) ix n i (x : coords F),
  (i + n <= List.length (gr_starts g))%nat -> (i + n <= List.length (gr_dxs g))%nat -> (i + n <= List.length (ix_idx ix))%nat ->
  (List.length x < i + n)%nat -> (i <= List.length x)%nat -> xc_loop n (Z.of_nat i) g ix x = UB OutOfBounds.
Proof.
  intros g ix. induction n as [|n IH]; intros i x H1 H2 H3 H4 H5; [lia|].
  cbn [xc_loop]. rewrite (vget_nth _ (gr_starts g) i f0), (vget_nth _ (ix_idx ix) i 0), (vget_nth _ (gr_dxs g) i f0) by lia. cbn [bind].
  destruct (Nat.eq_dec i (List.length x)) as [E|E].
  - unfold vset. destruct (Z.ltb_spec (Z.of_nat i) (Z.of_nat (List.length x))); [lia|]. rewrite andb_false_r. reflexivity.
  - rewrite vset_ok by lia. cbn [bind]. replace (Z.of_nat i + 1) with (Z.of_nat (S i)) by lia. apply IH; rewrite ?upd_length; lia.
Qed.

Lemma xget_nth : forall (x : coords F) d, (d < List.length x)%nat ->
  xget x (Z.of_nat d) = match nth d x None with Some v => Ok v | None => UB Uninitialised end.
Proof. intros x d H. unfold xget. rewrite (vget_nth _ x d None H). reflexivity. Qed.

End Coords.

(** ** fields by position *)

Section Positions.
Context {F : Type} {A : Arith F}.
Notation fld := (field F).

(** Every field changed by a function of its position. *)
Fixpoint trf (i : nat) (T : nat -> fld -> fld) (L : list (vid * fld)) : list (vid * fld) :=
  match L with [] => [] | (k, u) :: L' => (k, T i u) :: trf (S i) T L' end.
Definition tr := trf 0.
Definition at_pos (n : nat) (f : fld -> fld) (i : nat) (u : fld) : fld := if Nat.eqb i n then f u else u.

Lemma nth_trf : forall L i T n, nth_error (trf i T L) n = option_map (fun ku => (fst ku, T (i + n)%nat (snd ku))) (nth_error L n).
Proof.
  induction L as [|[k u] L IH]; intros i T [|n]; cbn; auto.
  - now rewrite Nat.add_0_r.
  - rewrite IH. now rewrite Nat.add_succ_r.
Qed.
Lemma nth_tr : forall L T n k u, nth_error L n = Some (k, u) -> nth_error (tr T L) n = Some (k, T n u).
Proof. intros L T n k u H. unfold tr. now rewrite nth_trf, H. Qed.
Lemma ids_trf : forall L i T, ids (trf i T L) = ids L.
Proof. induction L as [|[k u] L IH]; intros; cbn; auto. f_equal. apply IH. Qed.
Lemma ids_tr : forall L T, ids (tr T L) = ids L.
Proof. intros. apply ids_trf. Qed.
Lemma trf_trf : forall L i T T', trf i T (trf i T' L) = trf i (fun n u => T n (T' n u)) L.
Proof. induction L as [|[k u] L IH]; intros; cbn; auto. f_equal. apply IH. Qed.
Lemma tr_tr : forall L T T', tr T (tr T' L) = tr (fun n u => T n (T' n u)) L.
Proof. intros. apply trf_trf. Qed.
Lemma trf_id : forall L i, trf i (fun _ u => u) L = L.
Proof. induction L as [|[k u] L IH]; intros; cbn; auto. f_equal. apply IH. Qed.
Lemma tr_id : forall L, tr (fun _ u => u) L = L.
Proof. intros. apply trf_id. Qed.
Lemma tr_ext : forall L T T', (forall n u, T n u = T' n u) -> tr T L = tr T' L.
Proof. intros L T T' H. unfold tr. generalize 0%nat as i. induction L as [|[k u] L IH]; intros i; cbn; auto. now rewrite H, IH. Qed.
Lemma idx_tr : forall L T k, idx (tr T L) k = idx L k.
Proof. intros. apply idx_ids. apply ids_tr. Qed.
Lemma trf_at : forall L n i f k u, nth_error L n = Some (k, u) -> trf i (at_pos (i + n) f) L = upd L n (k, f u).
Proof.
  assert (G : forall L i n f, (n < i)%nat -> trf i (at_pos n f) L = L).
  { induction L as [|[k u] L IH]; intros i n f H; cbn; auto. unfold at_pos at 1. destruct (Nat.eqb_spec i n); [lia|].
    f_equal. apply IH. lia. }
  induction L as [|[k' u'] L IH]; intros [|n] i f k u H; try discriminate; cbn [nth_error trf upd] in *.
  - injection H as -> ->. rewrite Nat.add_0_r. unfold at_pos at 1. rewrite Nat.eqb_refl. f_equal. apply G. lia.
  - unfold at_pos at 1. destruct (Nat.eqb_spec i (i + S n)); [lia|]. f_equal. rewrite <- (IH n (S i) f k u H). f_equal. f_equal. lia.
Qed.
Lemma tr_at : forall L n f k u, nth_error L n = Some (k, u) -> tr (at_pos n f) L = upd L n (k, f u).
Proof. intros L n f k u H. now apply (trf_at L n 0%nat f k u). Qed.

Lemma mgr_tr_ext : forall gr M L dt t T T',
  (forall n k u, nth_error L n = Some (k, u) -> on_cells M k (T n u) (T' n u)) ->
  mgr_of gr M (tr T L) dt t = mgr_of gr M (tr T' L) dt t.
Proof.
  intros gr M L dt t T T' H. unfold mgr_of. f_equal. unfold tr.
  assert (G : forall L i, (forall n k u, nth_error L n = Some (k, u) -> on_cells M k (T (i + n)%nat u) (T' (i + n)%nat u)) ->
    vars_of M (trf i T L) = vars_of M (trf i T' L)).
  { clear. induction L as [|[k u] L IH]; intros i H; [reflexivity|]. cbn [trf vars_of map fst snd].
    f_equal.
    - f_equal. unfold var_of. f_equal. unfold dataset_of. f_equal. f_equal. f_equal. apply echunk_of_ext.
      intros c Hc. specialize (H 0%nat k u eq_refl). rewrite Nat.add_0_r in H. apply H. exact Hc.
    - apply IH. intros n k' u' E. specialize (H (S n) k' u' E). rewrite Nat.add_succ_r in H. exact H. }
  apply G. intros n k u E. now apply H.
Qed.

Lemma tr_loop : forall gr M dt t X (body : X -> mgr F -> out (mgr F)) (S : X -> nat -> fld -> fld) cs L,
  (forall c L', In c cs -> ids L' = ids L -> body c (mgr_of gr M L' dt t) = Done (mgr_of gr M (tr (S c) L') dt t)) ->
  ofold body cs (mgr_of gr M L dt t) = Done (mgr_of gr M (tr (fun i u => fold_left (fun u c => S c i u) cs u) L) dt t).
Proof.
  intros gr M dt t X body S. induction cs as [|c cs IH]; intros L H.
  - cbn. now rewrite tr_id.
  - cbn [ofold]. rewrite H by (auto; now left). cbn [obind]. rewrite IH.
    + rewrite tr_tr. reflexivity.
    + intros c' L' Hc E. apply H; [now right|]. now rewrite E, ids_tr.
Qed.

Lemma fold_sets : forall (B : box) (key : list Z -> list Z) (g : list Z -> F -> F) (S : list Z -> fld -> fld) cs,
  NoDup cs -> (forall c u c', In c cs -> in_box B c' -> S c u c' = if list_eq_dec Z.eq_dec (key c') c then g c' (u c') else u c') ->
  forall u c', in_box B c' -> fold_left (fun u c => S c u) cs u c' = if in_dec (list_eq_dec Z.eq_dec) (key c') cs then g c' (u c') else u c'.
Proof.
  intros B key g S. induction cs as [|c cs IH]; intros ND H u c' Hc; [reflexivity|].
  inversion ND; subst. cbn [fold_left]. rewrite IH; auto.
  2:{ intros. apply H; auto. now right. }
  rewrite H by (auto; now left).
  destruct (list_eq_dec Z.eq_dec (key c') c) as [E|E].
  - destruct (in_dec _ (key c') cs) as [I|I]; [congruence|]. destruct (in_dec _ (key c') (c :: cs)) as [I'|I']; [reflexivity|].
    exfalso. apply I'. left; auto.
  - destruct (in_dec _ (key c') cs) as [I|I]; destruct (in_dec _ (key c') (c :: cs)) as [I'|I']; auto.
    + exfalso. apply I'. now right.
    + destruct I'; [congruence|contradiction].
Qed.

(** ** reading and writing one cell *)

Definition setc (c : list Z) (v : F) (u : fld) : fld := fun c' => if list_eq_dec Z.eq_dec c' c then v else u c'.
Definition sets (x : list Z) (vs : list (Z * F)) (u : fld) : fld := fold_left (fun u p => setc (x ++ [fst p]) (snd p) u) vs u.

Lemma store_ok : forall gr M L dt t n k u ix j v c, nth_error L n = Some (k, u) -> id_fits M k -> in_box (grow 2 M ++ comp_box k) c ->
  ix_lin ix + j = offset (grow 2 M ++ comp_box k) c ->
  store (mgr_of gr M L dt t) n (ix_one M) ix j v = Ok (mgr_of gr M (tr (at_pos n (setc c v)) L) dt t).
Proof.
  intros gr M L dt t n k u ix j v c HN HF HC HE. unfold store. rewrite (get_chunk_ok _ _ _ _ _ _ _ _ HN). cbn [bind].
  rewrite ec_if_of, HE. cbn [iface_of if_data if_range]. rewrite upd_of; [|now apply shape_valid|exact HC]. cbn [bind].
  fold (setc c v u).
  change (mkIface (range_of (grow 2 M ++ comp_box k)) (map (setc c v u) (cells (grow 2 M ++ comp_box k)))) with (iface_of (grow 2 M ++ comp_box k) (setc c v u)).
  rewrite ec_with_of. rewrite (put_chunk_ok gr M L dt t n k u (setc c v u) HN). now rewrite (tr_at L n (setc c v) k u HN).
Qed.

Lemma stores_ok : forall gr M dt t n k ix x a vs L u, nth_error L n = Some (k, u) -> id_fits M k ->
  (forall j, 0 <= j < Z.of_nat (List.length (id_comps k)) -> in_box (grow 2 M ++ comp_box k) (x ++ [j])) ->
  (forall j, ix_lin ix + j = offset (grow 2 M ++ comp_box k) (x ++ [a + j])) ->
  Forall (fun p => 0 <= a + fst p < Z.of_nat (List.length (id_comps k))) vs ->
  stores (mgr_of gr M L dt t) n (ix_one M) ix vs =
  Ok (mgr_of gr M (tr (at_pos n (sets x (map (fun p => (a + fst p, snd p)) vs))) L) dt t).
Proof.
  intros gr M dt t n k ix x a. induction vs as [|[j v] vs IH]; intros L u HN HF HI HE HV.
  - cbn [stores map]. f_equal. replace (tr (at_pos n (sets x [])) L) with L; [reflexivity|].
    rewrite (tr_at L n _ k u HN). cbn. symmetry. now apply upd_same.
  - inversion HV; subst. cbn [stores map fst snd] in *. rewrite (store_ok gr M L dt t n k u ix j v (x ++ [a + j]) HN HF); auto. cbn [bind].
    rewrite (IH _ (at_pos n (setc (x ++ [a + j]) v) n u)); auto.
    + rewrite tr_tr. f_equal. f_equal. apply tr_ext. intros i w. unfold at_pos. now destruct (i =? n)%nat.
    + now apply nth_tr.
Qed.

Lemma sets_at : forall vs x y j u, NoDup (map fst vs) ->
  sets x vs u (y ++ [j]) =
  if list_eq_dec Z.eq_dec y x then match find (fun p => fst p =? j) vs with Some p => snd p | None => u (y ++ [j]) end else u (y ++ [j]).
Proof.
  induction vs as [|[i v] vs IH]; intros x y j u ND.
  - cbn. now destruct (list_eq_dec Z.eq_dec y x).
  - cbn [map fst] in ND. rewrite NoDup_cons_iff in ND. destruct ND as [NI ND]. unfold sets in *. cbn [fold_left fst snd find]. rewrite IH by assumption. unfold setc. rewrite snoc_eq_dec.
    destruct (list_eq_dec Z.eq_dec y x) as [->|N]; [|reflexivity]. rewrite (Z.eqb_sym i j). destruct (Z.eqb_spec j i) as [->|]; [|reflexivity].
    destruct (find (fun p => fst p =? i) vs) as [p|] eqn:E; [|reflexivity]. apply find_some in E as [E1 E2]. apply Z.eqb_eq in E2. subst.
    exfalso. apply NI. now apply in_map.
Qed.

Lemma clear_chunk_ok : forall gr M L dt t n k u v, nth_error L n = Some (k, u) ->
  clear_chunk (mgr_of gr M L dt t) n (ix_one M) v = Ok (mgr_of gr M (tr (at_pos n (fun _ _ => v)) L) dt t).
Proof.
  intros gr M L dt t n k u v HN. unfold clear_chunk. rewrite (get_chunk_ok _ _ _ _ _ _ _ _ HN). cbn [bind].
  rewrite ec_if_of, fill_all_of, ec_with_of, (put_chunk_ok gr M L dt t n k u (fun _ => v) HN). now rewrite (tr_at L n (fun _ _ => v) k u HN).
Qed.

(** ** the ranges looped over *)

Definition zone (inner : bool) (M : box) : box := if inner then M else grow 2 M.
Definition ncomp (k : vid) : Z := Z.of_nat (List.length (id_comps k)).
Definition layer (inner : bool) (M : box) (k : vid) (a b : Z) : box := spots (zone inner M) k ++ [(a, b)].

Lemma whole_eq : forall M k, grow 2 M ++ comp_box k = spots (grow 2 M) k ++ [(0, ncomp k)].
Proof. intros. unfold comp_box, spots, ncomp. now rewrite <- app_assoc. Qed.

Lemma zone_incl : forall inner M k, box_incl (spots (zone inner M) k) (spots (grow 2 M) k).
Proof.
  intros [] M k; unfold spots; apply box_incl_app; try apply box_incl_refl. apply box_incl_grow; lia.
Qed.

Lemma layer_good : forall inner M k a b, id_fits M k -> 0 <= a < b -> b <= ncomp k -> good_sub (grow 2 M ++ comp_box k) (layer inner M k a b).
Proof.
  intros inner M k a b HF Ha Hb. pose proof (shape_valid _ _ _ HF) as V. rewrite whole_eq in V |- *. destruct V as (V1 & V2 & V3 & V4).
  assert (N : nonempty (spots (grow 2 M) k)) by (apply nonempty_app in V2; tauto).
  constructor; auto.
  - unfold layer. apply nonempty_app. split.
    + destruct inner; [|exact N]. unfold spots, zone. apply nonempty_app. pose proof HF as (S1 & S2 & S3 & S4 & S5 & S6 & S7).
      split; auto. unfold spots in N. apply nonempty_app in N. tauto.
    + constructor; [cbn; lia|constructor].
  - unfold layer. apply box_incl_app; [apply zone_incl|]. constructor; [cbn; lia|constructor].
Qed.

Lemma ncomp_pos : forall M k, id_fits M k -> 0 < ncomp k.
Proof. intros M k (_ & _ & S3 & _). unfold comp_box, ncomp in *. inversion S3 as [|? ? _ S4]; subst. inversion S4; subst. cbn in *. lia. Qed.

Lemma sub_strides : forall b bs, good_sub b bs -> strides_fit bs.
Proof. intros b bs H. apply fit_strides. eapply good_sub_fit_sub; eauto. Qed.

Lemma comp_range_ok : forall gr M (L : list (vid * fld)) dt t nd kd ud n k u inner a b, nth_error L nd = Some (kd, ud) -> nth_error L n = Some (k, u) ->
  id_fits M kd -> id_fits M k -> 0 <= a < b -> b <= ncomp k ->
  comp_range (mgr_of gr M L dt t) nd n (ix_one M) inner a b = Ok (range_of (layer inner M k a b)).
Proof.
  intros gr M L dt t nd kd ud n k u inner a b HD HN FD FK Ha Hb. unfold comp_range.
  rewrite (get_chunk_ok _ _ _ _ _ _ _ _ HN). cbn [bind].
  assert (E : chunk_rng inner (echunk_of M (comp_box k) 2 u) = range_of (layer inner M k 0 (ncomp k))).
  { unfold layer, spots. rewrite <- app_assoc. destruct inner; reflexivity. }
  rewrite E. rewrite range_copy_of by (eapply sub_strides, layer_good; eauto; pose proof (ncomp_pos M k FK); lia). cbn [bind].
  rewrite (get_chunk_ok _ _ _ _ _ _ _ _ HD). cbn [bind]. rewrite ec_if_of. cbn [iface_of if_range range_of r_nd].
  pose proof (shape_valid _ _ _ FD) as (_ & _ & _ & V4).
  assert (EL : Z.of_nat (List.length (grow 2 M ++ comp_box kd)) - 1 = Z.of_nat (List.length (spots (zone inner M) k))).
  { unfold spots, comp_box. rewrite !app_length. cbn [List.length]. replace (List.length (zone inner M)) with (List.length (grow 2 M)); [lia|].
    destruct inner; cbn [zone]; [apply grow_length|reflexivity]. }
  rewrite isub_ok. cbn [bind]. rewrite EL.
  - apply (range_set_ok _ 0 (ncomp k) [] ).
    + reflexivity.
    + eapply sub_strides, layer_good; eauto.
  - pose proof FD as (_ & _ & _ & _ & _ & _ & S7). rewrite app_length in *. rewrite grow_length. unfold is_int, int_min, int_max in *. lia.
Qed.

Lemma comp_indexer_ok : forall gr M (L : list (vid * fld)) dt t nd kd ud n k u inner a b, nth_error L nd = Some (kd, ud) -> nth_error L n = Some (k, u) ->
  id_fits M kd -> id_fits M k -> 0 <= a < b -> b <= ncomp k ->
  comp_indexer (mgr_of gr M L dt t) nd n (ix_one M) inner a b =
  Ok (ix_at (grow 2 M ++ comp_box k) (layer inner M k a b) (first_cell (layer inner M k a b))).
Proof.
  intros gr M L dt t nd kd ud n k u inner a b HD HN FD FK Ha Hb. unfold comp_indexer.
  rewrite (comp_range_ok gr M L dt t nd kd ud n k u) by auto. cbn [bind]. rewrite (get_chunk_ok _ _ _ _ _ _ _ _ HN). cbn [bind].
  unfold iface_indexer. rewrite ec_if_of. cbn [iface_of if_range]. apply indexer_make_ok. now apply layer_good.
Qed.

Lemma layer_in : forall inner M k a b x j, in_box (layer inner M k a b) (x ++ [j]) <-> in_box (spots (zone inner M) k) x /\ a <= j < b.
Proof.
  intros. unfold layer. split.
  - intros I. apply Forall2_app_inv_l in I as (x1 & r & I1 & I2 & E). inversion I2 as [|? ? ? ? J1 J2]; subst. inversion J2; subst.
    apply app_inj_tail in E as [-> ->]. auto.
  - intros [H1 H2]. apply Forall2_app; auto.
Qed.
Lemma layer_split : forall inner M k a b c, in_box (layer inner M k a b) c ->
  exists x j, c = x ++ [j] /\ in_box (spots (zone inner M) k) x /\ a <= j < b.
Proof.
  intros inner M k a b c I. pose proof I as I'. unfold layer in I'. apply Forall2_app_inv_l in I' as (x1 & r & I1 & I2 & ->).
  inversion I2 as [|? ? ? ? J1 J2]; subst. inversion J2; subst. apply layer_in in I as []. eauto.
Qed.
Lemma whole_in : forall M k x j, in_box (grow 2 M ++ comp_box k) (x ++ [j]) <-> in_box (spots (grow 2 M) k) x /\ 0 <= j < ncomp k.
Proof. intros. rewrite whole_eq. apply snoc_in. Qed.
Lemma whole_split : forall M k c, in_box (grow 2 M ++ comp_box k) c ->
  exists x j, c = x ++ [j] /\ in_box (spots (grow 2 M) k) x /\ 0 <= j < ncomp k.
Proof. intros M k c I. rewrite whole_eq in I. apply (layer_split false) in I. exact I. Qed.
Lemma whole_off : forall M k x i j, in_box (spots (grow 2 M) k) x -> offset (grow 2 M ++ comp_box k) (x ++ [i]) + j = offset (grow 2 M ++ comp_box k) (x ++ [i + j]).
Proof. intros M k x i j H. rewrite whole_eq. pose proof (in_box_length _ _ H). rewrite !snoc_offset by assumption. lia. Qed.
Lemma zone_spots : forall inner M k x, in_box (spots (zone inner M) k) x -> in_box (spots (grow 2 M) k) x.
Proof. intros. eapply box_incl_in; [apply zone_incl|eassumption]. Qed.

(** ** a loop over one component of all cells, writing to several variables *)

Definition after (Z0 : box) (vs : list Z -> list (Z * F)) (u : fld) : fld := fun c =>
  if in_boxb Z0 (removelast c) then match find (fun p => fst p =? last c 0) (vs (removelast c)) with Some p => snd p | None => u c end else u c.

Lemma layer_loop : forall gr M dt t (L : list (vid * fld)) fuel n k u inner a (body : indexer -> mgr F -> out (mgr F)) (W : nat -> list Z -> list (Z * F)),
  nth_error L n = Some (k, u) -> id_fits M k -> 0 <= a < ncomp k -> prod_len (grow 2 M ++ comp_box k) <= Z.of_nat fuel ->
  (forall n x, NoDup (map fst (W n x))) ->
  (forall x L', in_box (spots (zone inner M) k) x -> ids L' = ids L ->
    body (ix_at (grow 2 M ++ comp_box k) (layer inner M k a (a + 1)) (x ++ [a])) (mgr_of gr M L' dt t) =
    Done (mgr_of gr M (tr (fun i => sets x (W i x)) L') dt t)) ->
  for_indexer fuel (ix_at (grow 2 M ++ comp_box k) (layer inner M k a (a + 1)) (first_cell (layer inner M k a (a + 1)))) body (mgr_of gr M L dt t) =
  Done (mgr_of gr M (tr (fun i => after (spots (zone inner M) k) (W i)) L) dt t).
Proof.
  intros gr M dt t L fuel n k u inner a body W HN HF Ha Hfu ND HB.
  assert (G : good_sub (grow 2 M ++ comp_box k) (layer inner M k a (a + 1))) by (apply layer_good; auto; lia).
  rewrite for_indexer_cells; auto.
  2:{ pose proof (prod_len_incl_le _ _ (gs_incl _ _ G) (gs_ne _ _ G)). lia. }
  rewrite (tr_loop gr M dt t (list Z) _ (fun c i => sets (removelast c) (W i (removelast c)))).
  - f_equal. apply mgr_tr_ext. intros n' k' u' HN' c Hc. apply whole_split in Hc as (y & j & -> & Hy & Hj).
    rewrite (fold_sets (grow 2 M ++ comp_box k') (fun c => removelast c ++ [a])
      (fun c v => match find (fun p => fst p =? last c 0) (W n' (removelast c)) with Some p => snd p | None => v end)).
    + unfold after. rewrite removelast_last, last_last.
      destruct (in_dec _ (y ++ [a]) (cells (layer inner M k a (a + 1)))) as [I|I]; destruct (in_boxb (spots (zone inner M) k) y) eqn:E; auto.
      * apply in_cells, layer_in in I as [I _]. apply in_boxb_iff in I. congruence.
      * exfalso. apply I. apply in_cells, layer_in. apply in_boxb_iff in E. split; auto; lia.
    + apply cells_NoDup.
    + intros c w c' Hc Hc'. apply in_cells, layer_split in Hc as (x & i & -> & Hx & Hi). apply whole_split in Hc' as (z & i' & -> & Hz & Hi').
      replace i with a by lia. rewrite !removelast_last, last_last. rewrite sets_at by apply ND. rewrite snoc_eq_dec, Z.eqb_refl.
      destruct (list_eq_dec Z.eq_dec z x) as [->|]; reflexivity.
    + apply whole_in. auto.
  - intros c L' Hc HL. apply in_cells, layer_split in Hc as (x & i & -> & Hx & Hi). replace i with a by lia. rewrite removelast_last. now apply HB.
Qed.


Lemma comp_loop_ok : forall gr M dt t (L : list (vid * fld)) fuel nd kd ud n k u inner a (body : indexer -> mgr F -> out (mgr F)) (W : nat -> list Z -> list (Z * F)),
  nth_error L nd = Some (kd, ud) -> nth_error L n = Some (k, u) -> id_fits M kd -> id_fits M k -> 0 <= a < ncomp k ->
  prod_len (grow 2 M ++ comp_box k) <= Z.of_nat fuel -> (forall n x, NoDup (map fst (W n x))) ->
  (forall x L', in_box (spots (zone inner M) k) x -> ids L' = ids L ->
    body (ix_at (grow 2 M ++ comp_box k) (layer inner M k a (a + 1)) (x ++ [a])) (mgr_of gr M L' dt t) =
    Done (mgr_of gr M (tr (fun i => sets x (W i x)) L') dt t)) ->
  comp_loop fuel nd n (ix_one M) inner a (a + 1) body (mgr_of gr M L dt t) =
  Done (mgr_of gr M (tr (fun i => after (spots (zone inner M) k) (W i)) L) dt t).
Proof.
  intros gr M dt t L fuel nd kd ud n k u inner a body W HD HN FD FK Ha Hfu ND HB. unfold comp_loop.
  rewrite (comp_indexer_ok gr M L dt t nd kd ud n k u) by (auto; lia). cbn [liftr]. now apply (layer_loop gr M dt t L fuel n k u inner a body W).
Qed.

Lemma ids_nth : forall (L L' : list (vid * fld)) n k u, ids L' = ids L -> nth_error L n = Some (k, u) -> exists u', nth_error L' n = Some (k, u').
Proof.
  intros L L' n k u E H. assert (X : nth_error (ids L') n = Some k) by (rewrite E; unfold ids; now rewrite nth_error_map, H).
  unfold ids in X. rewrite nth_error_map in X. destruct (nth_error L' n) as [[k' u']|]; [|discriminate]. cbn in X. injection X as ->. eauto.
Qed.

(** Stores through the pointer of a cell of component [a] of a layer. *)
Lemma cell_stores : forall gr M dt t (L : list (vid * fld)) n k u kb inner a bs x vs, nth_error L n = Some (k, u) -> id_fits M k -> comp_box k = comp_box kb ->
  in_box (spots (zone inner M) k) x -> Forall (fun p => 0 <= a + fst p < ncomp k) vs ->
  stores (mgr_of gr M L dt t) n (ix_one M) (ix_at (grow 2 M ++ comp_box kb) bs (x ++ [a])) vs =
  Ok (mgr_of gr M (tr (at_pos n (sets x (map (fun p => (a + fst p, snd p)) vs))) L) dt t).
Proof.
  intros gr M dt t L n k u kb inner a bs x vs HN HF HB HX HV. apply zone_spots in HX.
  apply (stores_ok gr M dt t n k _ x a vs L u); auto.
  - intros j Hj. apply whole_in. auto.
  - intros j. cbn [ix_at ix_lin]. rewrite <- HB. now apply whole_off.
Qed.

Lemma store_stores : forall (m : mgr F) n cix ix k v, store m n cix ix k v = stores m n cix ix [(k, v)].
Proof. intros. cbn [stores]. destruct (store m n cix ix k v); reflexivity. Qed.

(** One variable written in a loop. *)
Lemma comp_loop_one : forall gr M dt t (L : list (vid * fld)) fuel nd kd ud n k u inner a (body : indexer -> mgr F -> out (mgr F)) (vs : list Z -> list (Z * F)),
  nth_error L nd = Some (kd, ud) -> nth_error L n = Some (k, u) -> id_fits M kd -> id_fits M k -> 0 <= a < ncomp k ->
  prod_len (grow 2 M ++ comp_box k) <= Z.of_nat fuel ->
  (forall x, NoDup (map (fun p => a + fst p) (vs x)) /\ Forall (fun p => 0 <= a + fst p < ncomp k) (vs x)) ->
  (forall x L', in_box (spots (zone inner M) k) x ->
    body (ix_at (grow 2 M ++ comp_box k) (layer inner M k a (a + 1)) (x ++ [a])) (mgr_of gr M L' dt t) =
    liftr (mgr_of gr M L' dt t) (stores (mgr_of gr M L' dt t) n (ix_one M) (ix_at (grow 2 M ++ comp_box k) (layer inner M k a (a + 1)) (x ++ [a])) (vs x)) Done) ->
  comp_loop fuel nd n (ix_one M) inner a (a + 1) body (mgr_of gr M L dt t) =
  Done (mgr_of gr M (tr (at_pos n (after (spots (zone inner M) k) (fun x => map (fun p => (a + fst p, snd p)) (vs x)))) L) dt t).
Proof.
  intros gr M dt t L fuel nd kd ud n k u inner a body vs HD HN FD FK Ha Hfu ND HB.
  rewrite (comp_loop_ok gr M dt t L fuel nd kd ud n k u inner a body (fun i x => if Nat.eqb i n then map (fun p => (a + fst p, snd p)) (vs x) else [])); auto.
  - f_equal. apply mgr_tr_ext. intros n' k' u' _ c _. unfold at_pos. destruct (n' =? n)%nat; [reflexivity|].
    unfold after. cbn [find]. now destruct (in_boxb _ _).
  - intros n' x. destruct (n' =? n)%nat; [|constructor]. rewrite map_map. apply ND.
  - intros x L' Hx E. rewrite HB by assumption. destruct (ids_nth _ _ _ _ _ E HN) as (u' & HN').
    rewrite (cell_stores gr M dt t L' n k u' k inner a _ x (vs x)); auto; [|apply ND]. cbn [liftr]. f_equal. f_equal. apply tr_ext.
    intros i w. unfold at_pos. now destruct (i =? n)%nat.
Qed.

(** ** the coordinates of a cell *)

Lemma xc_ok : forall gr M ix (x0 : coords F), gr_range gr = range_of M -> (List.length M <= List.length (gr_starts gr))%nat ->
  (List.length M <= List.length (gr_dxs gr))%nat -> (List.length M <= List.length (ix_idx ix))%nat -> (List.length M <= List.length x0)%nat ->
  exists x', grid_xc gr ix x0 = Ok x' /\ List.length x' = List.length x0 /\
    forall d, nth d x' None = if (d <? List.length M)%nat then Some (center gr (ix_idx ix) d) else nth d x0 None.
Proof.
  intros gr M ix x0 Hg H1 H2 H3 H4. unfold grid_xc. rewrite Hg. cbn [range_of r_nd]. rewrite Nat2Z.id.
  destruct (xc_loop_ok gr ix (List.length M) 0 x0) as (x' & E & El & Ed); auto. exists x'. split; [exact E|split; [exact El|]].
  intros d. rewrite Ed. reflexivity.
Qed.

Lemma center_snoc : forall gr x j d, (d < List.length x)%nat -> center gr (x ++ [j]) d = center gr x d.
Proof. intros. unfold center. now rewrite app_nth1. Qed.

Lemma spots_length : forall B k x, in_box (spots B k) x -> List.length x = S (List.length B).
Proof. intros B k x H. pose proof (in_box_length _ _ H) as E. unfold spots in E. rewrite app_length in E. cbn in E. lia. Qed.

Lemma zone_length : forall inner M, List.length (zone inner M) = List.length M.
Proof. intros [] M; cbn; [reflexivity|apply grow_length]. Qed.

(** ** solvers that set each output on its own *)

Lemma each_chunk_ok : forall gr M dt t fuel (body : nat -> indexer -> mgr F -> out (mgr F)) (V : vid -> fld) outs L,
  gr_range gr = range_of M -> compatible (ids L ++ outs) -> Forall (id_fits M) outs -> (1 <= fuel)%nat ->
  (forall k n u L', In k outs -> nth_error L' n = Some (k, u) ->
    body n (ix_one M) (mgr_of gr M L' dt t) = Done (mgr_of gr M (tr (at_pos n (fun _ => V k)) L') dt t)) ->
  each_chunk fuel body outs (mgr_of gr M L dt t) = Done (mgr_of gr M (fold_left (apply_to (fun k _ => V k)) outs L) dt t).
Proof.
  intros gr M dt t fuel body V. induction outs as [|k outs IH]; intros L Hg Hc Hf Hfu HB; [reflexivity|].
  unfold each_chunk in *. cbn [ofold fold_left]. inversion Hf; subst.
  assert (Hk : fitting L k) by (eapply compat_fitting; eauto; now left).
  destruct (output_pos gr M L dt t k Hg Hk) as (n & HP & HW); auto. rewrite HW.
  rewrite (for_chunks_ok fuel gr M (ensure L k) dt t n k (field_or_zero L k)); auto.
  2:{ eapply id_fits_M; eauto. }
  2:{ apply HP. }
  rewrite (HB k n (field_or_zero L k)); auto; [|now left|apply HP]. cbn [obind].
  rewrite (tr_at _ n _ k (field_or_zero L k)) by apply HP.
  rewrite (pos_upd (ensure L k) k (field_or_zero L k) n (V k)); auto; [|now apply fitting_ensure].
  unfold ensure at 1. rewrite set_set. change (field_set L k (V k)) with (apply_to (fun k _ => V k) L k). apply IH; auto.
  - unfold apply_to. now apply compat_set.
  - intros k' n' u' L' Hk' E. apply (HB k' n' u'); auto. now right.
Qed.

Lemma each_done : forall (m : mgr F) M L fuel (body : nat -> indexer -> mgr F -> out (mgr F)) (V : vid -> fld) outs nmin,
  ic_ready m M L outs nmin fuel -> 
  (forall k n u L', In k outs -> nth_error L' n = Some (k, u) ->
    body n (ix_one M) (mgr_of (mg_grid m) M L' (mg_dt m) (mg_time m)) =
    Done (mgr_of (mg_grid m) M (tr (at_pos n (fun _ => V k)) L') (mg_dt m) (mg_time m))) ->
  exists m' L', each_chunk fuel body outs m = Done m' /\ ic_done m m' M L L' outs (fun k v => on_cells M k v (V k)).
Proof.
  intros m M L fuel body V outs nmin (Hm & HL & Hc & Hf & Hs & Hd) HB.
  destruct outs as [|k0 outs'] eqn:EO.
  { exists m, L. split; [reflexivity|]. unfold ic_done. rewrite app_nil_r. splits; auto using incl_refl.
    - unfold same_run. splits; auto.
    - intros k []. }
  rewrite <- EO in *.
  assert (Hff : Forall (id_fits M) outs) by (eapply Forall_impl; [|exact Hf]; cbn; tauto).
  assert (K0 : In k0 outs) by (rewrite EO; now left).
  assert (Hfu : (1 <= fuel)%nat).
  { rewrite Forall_forall in Hf. destruct (Hf k0 K0) as (X & _ & Y). eapply fits_fuel; eauto. }
  apply mgr_holds_iff in Hm as [Hg Hm]; auto.
  set (T := fun (k : vid) (_ : fld) => V k).
  exists (mgr_of (mg_grid m) M (fold_left (apply_to T) outs L) (mg_dt m) (mg_time m)), (fold_left (apply_to T) outs L).
  assert (HL' : fields_ok M (fold_left (apply_to T) outs L)) by (now apply fields_ok_fold).
  split; [rewrite Hm at 1; now apply each_chunk_ok|]. unfold ic_done. splits; auto.
  - apply mgr_holds_iff; auto.
  - unfold same_run. splits; reflexivity.
  - apply ids_fold.
  - intros k Hk. now apply fold_apply_other.
  - intros k Hk. destruct (fold_apply_in M T outs L k Hc Hk) as (v & E & Ev); [intros u c Hc'; reflexivity|]. exists v. split; auto.
Qed.

End Positions.

(** ** the solvers *)

Section ICs.
Context {F : Type} {A : Arith F}.
Notation fld := (field F).

Definition grid_ready (gr : grid F) (M : box) : Prop :=
  gr_range gr = range_of M /\ (List.length M <= List.length (gr_starts gr))%nat /\ (List.length M <= List.length (gr_dxs gr))%nat.

Lemma ready_grid : forall (m : mgr F) M L outs n fuel k, ic_ready m M L outs n fuel -> In k outs -> grid_ready (mg_grid m) M /\ M <> [].
Proof.
  intros m M L outs n fuel k (Hm & HL & Hc & Hf & Hs & Hd) Hk. rewrite Forall_forall in Hf. destruct (Hf k Hk) as [H _].
  pose proof (id_fits_M _ _ H). apply mgr_holds_iff in Hm as [Hg Hm]; auto. split; auto. split; auto.
Qed.

Lemma cell_x : forall gr M b bs inner k x a (x0 : coords F), grid_ready gr M -> (List.length M <= 3)%nat -> List.length x0 = 3%nat ->
  in_box (spots (zone inner M) k) x ->
  exists x', grid_xc gr (ix_at b bs (x ++ [a])) x0 = Ok x' /\
    forall d, (d < 3)%nat -> xget x' (Z.of_nat d) =
      if (d <? List.length M)%nat then Ok (center gr x d) else match nth d x0 None with Some v => Ok v | None => UB Uninitialised end.
Proof.
  intros gr M b bs inner k x a x0 (Hg & H1 & H2) HM E0 HX. apply spots_length in HX. rewrite zone_length in HX.
  destruct (xc_ok gr M (ix_at b bs (x ++ [a])) x0) as (x' & E & El & Ed); auto.
  - cbn [ix_at ix_idx]. rewrite app_length. lia.
  - lia.
  - exists x'. split; auto. intros d Hd. rewrite xget_nth by lia. rewrite Ed. cbn [ix_at ix_idx].
    destruct (Nat.ltb_spec d (List.length M)); [|reflexivity]. now rewrite center_snoc by lia.
Qed.

Lemma cell_x_oob : forall gr M b bs inner k x a (x0 : coords F), grid_ready gr M -> (3 < List.length M)%nat -> List.length x0 = 3%nat ->
  in_box (spots (zone inner M) k) x -> grid_xc gr (ix_at b bs (x ++ [a])) x0 = UB OutOfBounds.
Proof.
  intros gr M b bs inner k x a x0 (Hg & H1 & H2) HM E0 HX. apply spots_length in HX. rewrite zone_length in HX.
  unfold grid_xc. rewrite Hg. cbn [range_of r_nd]. rewrite Nat2Z.id. apply (xc_loop_oob gr _ _ 0 x0); auto; try lia.
  cbn [ix_at ix_idx]. rewrite app_length. lia.
Qed.

Lemma each_done_impl : forall (m m' : mgr F) M L L' outs (P Q : vid -> fld -> Prop), (forall k v, In k outs -> P k v -> Q k v) ->
  ic_done m m' M L L' outs P -> ic_done m m' M L L' outs Q.
Proof.
  intros m m' M L L' outs P Q H (H1 & H2 & H3 & H4 & H5 & H6). unfold ic_done. splits; auto.
  intros k Hk. destruct (H6 k Hk) as (v & E & Hv). eauto.
Qed.

(** The field left by a loop that clears first. *)
Definition painted (Z0 : box) (vs : list Z -> list (Z * F)) : fld := after Z0 vs (fun _ => f0).

Lemma painted_in : forall M k inner vs v (W : list Z -> Z -> F), on_cells M k v (painted (spots (zone inner M) k) vs) ->
  (forall x j, match find (fun p => fst p =? j) (vs x) with Some p => snd p | None => f0 end = W x j) ->
  values_in (zone inner M) k v W /\ (forall x j, in_box (spots (grow 2 M) k) x -> ~ in_box (spots (zone inner M) k) x -> 0 <= j < ncomp k -> v (x ++ [j]) = f0).
Proof.
  intros M k inner vs v W H HW. split.
  - intros x j Hx Hj. rewrite H by (apply whole_in; split; auto; now apply (zone_spots inner)).
    unfold painted, after. rewrite removelast_last, last_last. rewrite (proj2 (in_boxb_iff _ _) Hx). apply HW.
  - intros x j Hx Hn Hj. rewrite H by (apply whole_in; auto). unfold painted, after. rewrite removelast_last.
    destruct (in_boxb (spots (zone inner M) k) x) eqn:E; [|reflexivity]. apply in_boxb_iff in E. contradiction.
Qed.

Lemma clear_loop : forall gr M dt t (L : list (vid * fld)) fuel n k u inner a (body : indexer -> mgr F -> out (mgr F)) (vs : list Z -> list (Z * F)),
  nth_error L n = Some (k, u) -> id_fits M k -> 0 <= a < ncomp k ->
  prod_len (grow 2 M ++ comp_box k) <= Z.of_nat fuel ->
  (forall x, NoDup (map (fun p => a + fst p) (vs x)) /\ Forall (fun p => 0 <= a + fst p < ncomp k) (vs x)) ->
  (forall x L', in_box (spots (zone inner M) k) x ->
    body (ix_at (grow 2 M ++ comp_box k) (layer inner M k a (a + 1)) (x ++ [a])) (mgr_of gr M L' dt t) =
    liftr (mgr_of gr M L' dt t) (stores (mgr_of gr M L' dt t) n (ix_one M) (ix_at (grow 2 M ++ comp_box k) (layer inner M k a (a + 1)) (x ++ [a])) (vs x)) Done) ->
  liftr (mgr_of gr M L dt t) (clear_chunk (mgr_of gr M L dt t) n (ix_one M) f0) (fun m => comp_loop fuel n n (ix_one M) inner a (a + 1) body m) =
  Done (mgr_of gr M (tr (at_pos n (fun _ => painted (spots (zone inner M) k) (fun x => map (fun p => (a + fst p, snd p)) (vs x)))) L) dt t).
Proof.
  intros gr M dt t L fuel n k u inner a body vs HN HF Ha Hfu ND HB.
  rewrite (clear_chunk_ok gr M L dt t n k u f0 HN). cbn [liftr].
  assert (HN' : nth_error (tr (at_pos n (fun _ _ => f0)) L) n = Some (k, fun _ => f0)).
  { erewrite nth_tr by exact HN. unfold at_pos. now rewrite Nat.eqb_refl. }
  rewrite (comp_loop_one gr M dt t _ fuel n k (fun _ => f0) n k (fun _ => f0) inner a body vs); auto.
  f_equal. rewrite tr_tr. f_equal. apply tr_ext. intros i w. unfold at_pos. now destruct (i =? n)%nat.
Qed.

(** shock tube *)
Definition shock_vs (gr : grid F) (rho_jump P_jump gamma : F) (x : list Z) : list (Z * F) :=
  [(0, if (center gr x 0 <? f0)%F then f1 else (f1 * rho_jump)%F);
   (4, if (center gr x 0 <? f0)%F then (f1 / (gamma - f1))%F else (f1 / (gamma - f1) * P_jump)%F)].

Lemma nd2 : forall (k : vid) (r e : F), (5 <= List.length (id_comps k))%nat ->
  NoDup (map (fun p : Z * F => 0 + fst p) [(0, r); (4, e)]) /\ Forall (fun p => 0 <= 0 + fst p < ncomp k) [(0, r); (4, e)].
Proof.
  intros k r e H. split; cbn [map fst].
  - repeat constructor; cbn; intuition lia.
  - unfold ncomp. repeat constructor; cbn [fst]; lia.
Qed.

Lemma ready_out : forall (m : mgr F) M L outs n fuel k, ic_ready m M L outs n fuel -> In k outs ->
  id_fits M k /\ (n <= List.length (id_comps k))%nat /\ prod_len (grow 2 M ++ comp_box k) <= Z.of_nat fuel.
Proof. intros m M L outs n fuel k (_ & _ & _ & Hf & _) Hk. rewrite Forall_forall in Hf. now apply Hf. Qed.

Lemma at_rest_find : forall (r e : F) j, match find (fun p => fst p =? j) [(0, r); (4, e)] with Some p => snd p | None => f0 end = at_rest r e j.
Proof. intros. unfold at_rest. cbn [find fst snd]. rewrite (Z.eqb_sym 0 j), (Z.eqb_sym 4 j). destruct (j =? 0); [reflexivity|]. now destruct (j =? 4). Qed.

Lemma shock_done : forall (m : mgr F) M L outs fuel rho_jump P_jump gamma, ic_ready m M L outs 5 fuel -> (List.length M <= 3)%nat ->
  exists m' L', shock_tube_solve fuel rho_jump P_jump gamma outs m = Done m' /\
    ic_done m m' M L L' outs (fun k v => on_cells M k v (painted (spots (zone true M) k) (shock_vs (mg_grid m) rho_jump P_jump gamma))).
Proof.
  intros m M L outs fuel rj pj gamma HR H3. unfold shock_tube_solve.
  refine (each_done m M L fuel _ _ outs 5 HR _).
  intros k n u L' Hk HN. destruct (ready_out _ _ _ _ _ _ _ HR Hk) as (HF & Hc & Hfu). destruct (ready_grid _ _ _ _ _ _ _ HR Hk) as [HG HM].
  refine (eq_trans (clear_loop (mg_grid m) M (mg_dt m) (mg_time m) L' fuel n k u true 0 _ (shock_vs (mg_grid m) rj pj gamma) HN HF _ Hfu _ _) _).
  - unfold ncomp. lia.
  - intros x. now apply nd2.
  - intros x L2 Hx. cbn [mg_grid mgr_of].
    destruct (cell_x (mg_grid m) M (grow 2 M ++ comp_box k) (layer true M k 0 (0 + 1)) true k x 0 no_coords HG H3 eq_refl Hx) as (x' & E & Ed).
    rewrite E. cbn [bind]. pose proof (Ed 0%nat ltac:(lia)) as E0. change (Z.of_nat 0) with 0 in E0. rewrite E0.
    destruct M as [|iv M']; [congruence|]. cbn [List.length Nat.ltb Nat.leb bind]. reflexivity.
  - reflexivity.
Qed.

(** radial shock tube *)
Definition coded_r2 (x0 x1 x2 c0 c1 c2 : F) : F := ((x0 - c0) * (x0 - c0) + (x1 - c1) * (x1 - c1) + (x2 - c2) * (x1 - c2))%F.
Definition radial_vs (gr : grid F) (radius rho_jump P_jump gamma c0 c1 c2 : F) (x : list Z) : list (Z * F) :=
  let r2 := coded_r2 (center gr x 0) (center gr x 1) (center gr x 2) c0 c1 c2 in
  [(0, if (r2 <? radius * radius)%F then f1 else (f1 * rho_jump)%F);
   (4, if (r2 <? radius * radius)%F then (f1 / (gamma - f1))%F else (f1 / (gamma - f1) * P_jump)%F)].

Lemma three_get : forall (l : list F) i, (i < 3)%nat -> vget (resize3 l) (Z.of_nat i) = Ok (nth i l f0).
Proof.
  intros l i H. assert (E : List.length (resize3 l) = 3%nat).
  { unfold resize3. rewrite app_length, firstn_length, repeat_length. lia. }
  rewrite (vget_nth _ _ i f0) by lia. f_equal. unfold resize3.
  destruct l as [|a [|b [|c l]]]; destruct i as [|[|[|i]]]; cbn; try reflexivity; try lia. 
Qed.

Ltac coords3 Ed := 
  let E0 := fresh "E0" in let E1 := fresh "E1" in let E2 := fresh "E2" in
  pose proof (Ed 0%nat ltac:(lia)) as E0; pose proof (Ed 1%nat ltac:(lia)) as E1; pose proof (Ed 2%nat ltac:(lia)) as E2;
  change (Z.of_nat 0) with 0 in E0; change (Z.of_nat 1) with 1 in E1; change (Z.of_nat 2) with 2 in E2;
  rewrite ?E0; cbn [bind]; rewrite ?E1; cbn [bind]; rewrite ?E2; cbn [bind].

Lemma radial_done : forall (m : mgr F) M L outs fuel radius rho_jump P_jump gamma c, ic_ready m M L outs 5 fuel -> List.length M = 3%nat ->
  exists m' L', radial_shock_tube_solve fuel radius rho_jump P_jump gamma c outs m = Done m' /\
    ic_done m m' M L L' outs (fun k v => on_cells M k v (painted (spots (zone false M) k)
      (radial_vs (mg_grid m) radius rho_jump P_jump gamma (nth 0 c f0) (nth 1 c f0) (nth 2 c f0)))).
Proof.
  intros m M L outs fuel radius rj pj gamma c HR H3. unfold radial_shock_tube_solve.
  refine (each_done m M L fuel _ _ outs 5 HR _).
  intros k n u L' Hk HN. destruct (ready_out _ _ _ _ _ _ _ HR Hk) as (HF & Hc & Hfu). destruct (ready_grid _ _ _ _ _ _ _ HR Hk) as [HG HM].
  refine (eq_trans (clear_loop (mg_grid m) M (mg_dt m) (mg_time m) L' fuel n k u false 0 _
    (radial_vs (mg_grid m) radius rj pj gamma (nth 0 c f0) (nth 1 c f0) (nth 2 c f0)) HN HF _ Hfu _ _) _).
  - unfold ncomp. lia.
  - intros x. now apply nd2.
  - intros x L2 Hx. cbn [mg_grid mgr_of].
    destruct (cell_x (mg_grid m) M (grow 2 M ++ comp_box k) (layer false M k 0 (0 + 1)) false k x 0 no_coords HG ltac:(lia) eq_refl Hx) as (x' & E & Ed).
    rewrite E. cbn [bind]. rewrite H3 in Ed. cbn in Ed.
    pose proof (three_get c 0 ltac:(lia)) as T0. pose proof (three_get c 1 ltac:(lia)) as T1. pose proof (three_get c 2 ltac:(lia)) as T2.
    change (Z.of_nat 0) with 0 in T0. change (Z.of_nat 1) with 1 in T1. change (Z.of_nat 2) with 2 in T2.
    rewrite T0, T1, T2. coords3 Ed. reflexivity.
  - reflexivity.
Qed.

(** magnetic pulse *)
Definition pulse_vs (gr : grid F) (amplitude sd : F) (x : list Z) : list (Z * F) :=
  let x0 := center gr x 0 in let x1 := center gr x 1 in let x2 := center gr x 2 in
  [(0, (amplitude * fexp (- (fdec 5 (-1) * (x0 * x0 + x1 * x1 + x2 * x2) / sd)))%F)].

Lemma pulse_done : forall (m : mgr F) M L outs fuel amplitude sd, ic_ready m M L outs 6 fuel -> List.length M = 3%nat ->
  exists m' L', magnetic_pulse_solve fuel amplitude sd outs m = Done m' /\
    ic_done m m' M L L' outs (fun k v => on_cells M k v (painted (spots (zone false M) k)
      (fun x => map (fun p => (5 + fst p, snd p)) (pulse_vs (mg_grid m) amplitude sd x)))).
Proof.
  intros m M L outs fuel amplitude sd HR H3. unfold magnetic_pulse_solve.
  refine (each_done m M L fuel _ _ outs 6 HR _).
  intros k n u L' Hk HN. destruct (ready_out _ _ _ _ _ _ _ HR Hk) as (HF & Hc & Hfu). destruct (ready_grid _ _ _ _ _ _ _ HR Hk) as [HG HM].
  refine (eq_trans (clear_loop (mg_grid m) M (mg_dt m) (mg_time m) L' fuel n k u false 5 _ (pulse_vs (mg_grid m) amplitude sd) HN HF _ Hfu _ _) _).
  - unfold ncomp. lia.
  - intros x. unfold pulse_vs, ncomp. split; repeat constructor; cbn [fst]; auto; lia.
  - intros x L2 Hx. cbn [mg_grid mgr_of].
    destruct (cell_x (mg_grid m) M (grow 2 M ++ comp_box k) (layer false M k 5 (5 + 1)) false k x 5 no_coords HG ltac:(lia) eq_refl Hx) as (x' & E & Ed).
    rewrite E. cbn [bind]. rewrite H3 in Ed. cbn in Ed. coords3 Ed. cbn [Nat.leb bind]. rewrite store_stores. reflexivity.
  - reflexivity.
Qed.

(** electromagnetic wave *)
Lemma wave_done : forall (m : mgr F) M L outs fuel d c k Bx By Bz, ic_ready m M L outs 6 fuel -> (List.length M <= 3)%nat -> (d < List.length M)%nat ->
  exists m' L', wave_solve fuel (Z.of_nat d) c k Bx By Bz outs m = Done m' /\
    ic_done m m' M L L' outs (fun q v => on_cells M q v (painted (spots (zone false M) q)
      (fun x => wave_values (Z.of_nat d) c Bx By Bz (fsin (k * center (mg_grid m) x d)%F)))).
Proof.
  intros m M L outs fuel d c kk Bx By Bz HR H3 Hd. unfold wave_solve.
  refine (each_done m M L fuel _ _ outs 6 HR _).
  intros k n u L' Hk HN. destruct (ready_out _ _ _ _ _ _ _ HR Hk) as (HF & Hc & Hfu). destruct (ready_grid _ _ _ _ _ _ _ HR Hk) as [HG HM].
  assert (ED : (Z.of_nat d =? 0) || (Z.of_nat d =? 1) || (Z.of_nat d =? 2) = true) by (destruct d as [|[|[|d]]]; cbn; auto; lia).
  rewrite ED.
  refine (eq_trans (clear_loop (mg_grid m) M (mg_dt m) (mg_time m) L' fuel n k u false 0 _
    (fun x => wave_values (Z.of_nat d) c Bx By Bz (fsin (kk * center (mg_grid m) x d)%F)) HN HF _ Hfu _ _) _).
  - unfold ncomp. lia.
  - intros x. unfold wave_values, ncomp. destruct (Z.of_nat d =? 0); [|destruct (Z.of_nat d =? 1)];
    (split; [cbn [map fst]; repeat constructor; cbn; intuition lia|repeat constructor; cbn [fst]; lia]).
  - intros x L2 Hx. cbn [mg_grid mgr_of].
    destruct (cell_x (mg_grid m) M (grow 2 M ++ comp_box k) (layer false M k 0 (0 + 1)) false k x 0 no_coords HG ltac:(lia) eq_refl Hx) as (x' & E & Ed).
    rewrite E. cbn [bind]. rewrite (Ed d) by lia. destruct (Nat.ltb_spec d (List.length M)); [|lia]. cbn [bind]. reflexivity.
  - f_equal. f_equal. apply tr_ext. intros i w. unfold at_pos. destruct (i =? n)%nat; [|reflexivity].
    f_equal. unfold wave_values. destruct (Z.of_nat d =? 0); [|destruct (Z.of_nat d =? 1)]; reflexivity.
Qed.

(** gaussian *)
Definition bell (gr : grid F) (amplitude sd a0 a1 a2 : F) (x : list Z) : F :=
  let w0 := ((center gr x 0 - a0) / sd)%F in let w1 := ((center gr x 1 - a1) / sd)%F in let w2 := ((center gr x 2 - a2) / sd)%F in
  (amplitude * fexp (- w0 * w0 - w1 * w1 - w2 * w2))%F.

Lemma whole_indexer : forall gr M (L : list (vid * fld)) dt t n k u, nth_error L n = Some (k, u) -> id_fits M k ->
  (e <- get_chunk (mgr_of gr M L dt t) n (ix_one M) ;; iface_indexer (ec_if e) (if_range (ec_if e))) =
  Ok (ix_at (grow 2 M ++ comp_box k) (grow 2 M ++ comp_box k) (first_cell (grow 2 M ++ comp_box k))).
Proof.
  intros gr M L dt t n k u HN HF. rewrite (get_chunk_ok _ _ _ _ _ _ _ _ HN). cbn [bind]. unfold iface_indexer. rewrite ec_if_of.
  cbn [iface_of if_range]. apply indexer_make_ok. apply valid_self. now apply shape_valid.
Qed.

Lemma gaussian_done : forall (m : mgr F) M L outs fuel amplitude average sd, ic_ready m M L outs 1 fuel -> List.length M = 3%nat ->
  exists m' L', gaussian_solve fuel amplitude average sd outs m = Done m' /\
    ic_done m m' M L L' outs (fun k v => on_cells M k v (fun c => bell (mg_grid m) amplitude sd (nth 0 average f0) (nth 1 average f0) (nth 2 average f0) (removelast c))).
Proof.
  intros m M L outs fuel amp av sd HR H3. unfold gaussian_solve.
  refine (each_done m M L fuel _ _ outs 1 HR _).
  intros k n u L' Hk HN. destruct (ready_out _ _ _ _ _ _ _ HR Hk) as (HF & Hc & Hfu). destruct (ready_grid _ _ _ _ _ _ _ HR Hk) as [HG HM].
  rewrite (whole_indexer (mg_grid m) M L' (mg_dt m) (mg_time m) n k u HN HF). cbn [liftr].
  rewrite for_indexer_cells; auto. 2:{ apply valid_self. now apply shape_valid. }
  set (V := fun c : list Z => bell (mg_grid m) amp sd (nth 0 av f0) (nth 1 av f0) (nth 2 av f0) (removelast c)).
  rewrite (tr_loop (mg_grid m) M (mg_dt m) (mg_time m) (list Z) _ (fun c => at_pos n (setc c (V c)))).
  - f_equal. apply mgr_tr_ext. intros n' k' u' HN' c Hc'. unfold at_pos. destruct (Nat.eqb_spec n' n) as [->|].
    + assert (k' = k) by congruence. subst k'.
      rewrite (fold_sets (grow 2 M ++ comp_box k) (fun c => c) (fun c _ => V c)); auto.
      * destruct (in_dec _ c _) as [I|I]; [reflexivity|]. exfalso. apply I. now apply in_cells.
      * apply cells_NoDup.
      * intros c1 w c2 _ _. unfold setc. destruct (list_eq_dec Z.eq_dec c2 c1) as [->|]; reflexivity.
    + clear. generalize (cells (grow 2 M ++ comp_box k)) as cs. induction cs; cbn; auto.
  - intros c L2 Hc' E. apply in_cells in Hc'. pose proof Hc' as Hw. apply whole_split in Hc' as (x & j & -> & Hx & Hj). cbn [mg_grid mgr_of].
    destruct (cell_x (mg_grid m) M (grow 2 M ++ comp_box k) (grow 2 M ++ comp_box k) false k x j no_coords HG ltac:(lia) eq_refl Hx) as (x' & E' & Ed).
    rewrite E'. cbn [bind]. rewrite H3 in Ed. cbn in Ed.
    pose proof (three_get av 0 ltac:(lia)) as T0. pose proof (three_get av 1 ltac:(lia)) as T1. pose proof (three_get av 2 ltac:(lia)) as T2.
    change (Z.of_nat 0) with 0 in T0. change (Z.of_nat 1) with 1 in T1. change (Z.of_nat 2) with 2 in T2.
    rewrite T0, T1, T2. coords3 Ed. cbn [Nat.leb bind].
    destruct (ids_nth _ _ _ _ _ E HN) as (u2 & HN2).
    rewrite (store_ok (mg_grid m) M L2 (mg_dt m) (mg_time m) n k u2 _ 0 _ (x ++ [j]) HN2 HF Hw).
    + unfold V, bell. rewrite removelast_last. reflexivity.
    + cbn [ix_at ix_lin]. lia.
Qed.

(** ** runs that go wrong in the first cell *)

Lemma cells_cons : forall b, nonempty b -> exists c cs, cells b = c :: cs /\ in_box b c.
Proof.
  intros b H. destruct (cells b) as [|c cs] eqn:E.
  - pose proof (first_in_box b H) as I. apply in_cells in I. rewrite E in I. destruct I.
  - exists c, cs. split; auto. apply in_cells. rewrite E. now left.
Qed.

Lemma comp_loop_undef : forall gr M dt t (L : list (vid * fld)) fuel n k u inner a (body : indexer -> mgr F -> out (mgr F)) e,
  nth_error L n = Some (k, u) -> id_fits M k -> 0 <= a < ncomp k -> prod_len (grow 2 M ++ comp_box k) <= Z.of_nat fuel ->
  (forall x, in_box (spots (zone inner M) k) x -> body (ix_at (grow 2 M ++ comp_box k) (layer inner M k a (a + 1)) (x ++ [a])) (mgr_of gr M L dt t) = Undef e) ->
  comp_loop fuel n n (ix_one M) inner a (a + 1) body (mgr_of gr M L dt t) = Undef e.
Proof.
  intros gr M dt t L fuel n k u inner a body e HN HF Ha Hfu HB. unfold comp_loop.
  rewrite (comp_indexer_ok gr M L dt t n k u n k u) by (auto; lia). cbn [liftr].
  assert (G : good_sub (grow 2 M ++ comp_box k) (layer inner M k a (a + 1))) by (apply layer_good; auto; lia).
  rewrite for_indexer_cells; auto.
  2:{ pose proof (prod_len_incl_le _ _ (gs_incl _ _ G) (gs_ne _ _ G)). lia. }
  destruct (cells_cons _ (gs_ne _ _ G)) as (c & cs & -> & Hc). cbn [ofold]. apply layer_split in Hc as (x & j & -> & Hx & Hj).
  replace j with a by lia. now rewrite HB.
Qed.

Lemma clear_loop_undef : forall gr M dt t (L : list (vid * fld)) fuel n k u inner a (body : indexer -> mgr F -> out (mgr F)) e,
  nth_error L n = Some (k, u) -> id_fits M k -> 0 <= a < ncomp k -> prod_len (grow 2 M ++ comp_box k) <= Z.of_nat fuel ->
  (forall x L', in_box (spots (zone inner M) k) x -> body (ix_at (grow 2 M ++ comp_box k) (layer inner M k a (a + 1)) (x ++ [a])) (mgr_of gr M L' dt t) = Undef e) ->
  liftr (mgr_of gr M L dt t) (clear_chunk (mgr_of gr M L dt t) n (ix_one M) f0) (fun m => comp_loop fuel n n (ix_one M) inner a (a + 1) body m) = Undef e.
Proof.
  intros gr M dt t L fuel n k u inner a body e HN HF Ha Hfu HB.
  rewrite (clear_chunk_ok gr M L dt t n k u f0 HN). cbn [liftr].
  assert (HN' : nth_error (tr (at_pos n (fun _ _ => f0)) L) n = Some (k, fun _ => f0)).
  { erewrite nth_tr by exact HN. unfold at_pos. now rewrite Nat.eqb_refl. }
  apply (comp_loop_undef gr M dt t _ fuel n k (fun _ => f0)); auto.
Qed.

Lemma each_undef : forall (m : mgr F) M L fuel (body : nat -> indexer -> mgr F -> out (mgr F)) outs nmin e,
  ic_ready m M L outs nmin fuel -> outs <> [] ->
  (forall k n u L', In k outs -> nth_error L' n = Some (k, u) -> body n (ix_one M) (mgr_of (mg_grid m) M L' (mg_dt m) (mg_time m)) = Undef e) ->
  each_chunk fuel body outs m = Undef e.
Proof.
  intros m M L fuel body outs nmin e HR HO HB. destruct outs as [|k outs]; [congruence|].
  pose proof (ready_out _ _ _ _ _ _ k HR (or_introl eq_refl)) as (HF & _ & Hfu).
  pose proof HR as (Hm & HL & Hc & Hf & _). apply mgr_holds_iff in Hm as [Hg Hm]; auto.
  assert (Hk : fitting L k) by (eapply compat_fitting; eauto; now left).
  unfold each_chunk. cbn [ofold]. rewrite Hm at 1.
  destruct (output_pos (mg_grid m) M L (mg_dt m) (mg_time m) k Hg Hk HF) as (n & HP & HW). rewrite HW.
  rewrite (for_chunks_ok fuel (mg_grid m) M (ensure L k) _ _ n k (field_or_zero L k)).
  - rewrite (HB k n (field_or_zero L k)); [reflexivity|now left|apply HP].
  - eapply id_fits_M; eauto.
  - eapply fits_fuel; eauto.
  - apply HP.
Qed.

Lemma short_coord : forall gr M b bs inner k x a, grid_ready gr M -> (List.length M < 3)%nat -> M <> [] -> in_box (spots (zone inner M) k) x ->
  exists x', grid_xc gr (ix_at b bs (x ++ [a])) no_coords = Ok x' /\ xget x' 0 = Ok (center gr x 0) /\
    (xget x' 1 = UB Uninitialised \/ (exists v, xget x' 1 = Ok v)) /\ xget x' 2 = UB Uninitialised.
Proof.
  intros gr M b bs inner k x a HG H3 HM Hx.
  destruct (cell_x gr M b bs inner k x a no_coords HG ltac:(lia) eq_refl Hx) as (x' & E & Ed). exists x'. split; auto.
  pose proof (Ed 0%nat ltac:(lia)) as E0. pose proof (Ed 1%nat ltac:(lia)) as E1. pose proof (Ed 2%nat ltac:(lia)) as E2.
  change (Z.of_nat 0) with 0 in E0. change (Z.of_nat 1) with 1 in E1. change (Z.of_nat 2) with 2 in E2. rewrite E0, E1, E2.
  destruct M as [|i1 [|i2 [|i3 M]]]; cbn in H3; try lia; [congruence| |]; cbn [List.length Nat.ltb Nat.leb no_coords nth]; splits; eauto.
Qed.

Lemma gaussian_uninit : forall (m : mgr F) M L outs fuel amplitude average sd, ic_ready m M L outs 1 fuel -> outs <> [] -> (List.length M < 3)%nat ->
  gaussian_solve fuel amplitude average sd outs m = Undef Uninitialised.
Proof.
  intros m M L outs fuel amp av sd HR HO H3. unfold gaussian_solve. apply (each_undef m M L fuel _ outs 1 Uninitialised HR HO).
  intros k n u L' Hk HN. destruct (ready_out _ _ _ _ _ _ _ HR Hk) as (HF & Hc & Hfu). destruct (ready_grid _ _ _ _ _ _ _ HR Hk) as [HG HM].
  rewrite (whole_indexer (mg_grid m) M L' (mg_dt m) (mg_time m) n k u HN HF). cbn [liftr].
  assert (G : good_sub (grow 2 M ++ comp_box k) (grow 2 M ++ comp_box k)) by (apply valid_self; now apply shape_valid).
  rewrite for_indexer_cells; auto. destruct (cells_cons _ (gs_ne _ _ G)) as (c & cs & -> & Hc'). cbn [ofold].
  apply whole_split in Hc' as (x & j & -> & Hx & Hj). cbn [mg_grid mgr_of].
  destruct (short_coord (mg_grid m) M (grow 2 M ++ comp_box k) (grow 2 M ++ comp_box k) false k x j HG H3 HM Hx) as (x' & E & E0 & E1 & E2).
  pose proof (three_get av 0 ltac:(lia)) as T0. pose proof (three_get av 1 ltac:(lia)) as T1. pose proof (three_get av 2 ltac:(lia)) as T2.
  change (Z.of_nat 0) with 0 in T0. change (Z.of_nat 1) with 1 in T1. change (Z.of_nat 2) with 2 in T2.
  rewrite E. cbn [bind]. rewrite E0, T0. cbn [bind]. destruct E1 as [E1|[v E1]]; rewrite E1; cbn [bind]; try reflexivity; rewrite ?T1; cbn [bind]; rewrite E2; reflexivity.
Qed.

Lemma pulse_uninit : forall (m : mgr F) M L outs fuel amplitude sd, ic_ready m M L outs 6 fuel -> outs <> [] -> (List.length M < 3)%nat ->
  magnetic_pulse_solve fuel amplitude sd outs m = Undef Uninitialised.
Proof.
  intros m M L outs fuel amp sd HR HO H3. unfold magnetic_pulse_solve. apply (each_undef m M L fuel _ outs 6 Uninitialised HR HO).
  intros k n u L' Hk HN. destruct (ready_out _ _ _ _ _ _ _ HR Hk) as (HF & Hc & Hfu). destruct (ready_grid _ _ _ _ _ _ _ HR Hk) as [HG HM].
  refine (clear_loop_undef (mg_grid m) M _ _ L' fuel n k u false 5 _ Uninitialised HN HF _ Hfu _).
  - unfold ncomp. lia.
  - intros x L2 Hx. cbn [mg_grid mgr_of].
    destruct (short_coord (mg_grid m) M (grow 2 M ++ comp_box k) (layer false M k 5 (5 + 1)) false k x 5 HG H3 HM Hx) as (x' & E & E0 & E1 & E2).
    rewrite E. cbn [bind]. rewrite E0. cbn [bind]. destruct E1 as [E1|[v E1]]; rewrite E1; cbn [bind]; try reflexivity; rewrite ?T1; cbn [bind]; rewrite E2; reflexivity.
Qed.

Lemma radial_uninit : forall (m : mgr F) M L outs fuel radius rj pj gamma c, ic_ready m M L outs 5 fuel -> outs <> [] -> (List.length M < 3)%nat ->
  radial_shock_tube_solve fuel radius rj pj gamma c outs m = Undef Uninitialised.
Proof.
  intros m M L outs fuel radius rj pj gamma c HR HO H3. unfold radial_shock_tube_solve. apply (each_undef m M L fuel _ outs 5 Uninitialised HR HO).
  intros k n u L' Hk HN. destruct (ready_out _ _ _ _ _ _ _ HR Hk) as (HF & Hc & Hfu). destruct (ready_grid _ _ _ _ _ _ _ HR Hk) as [HG HM].
  refine (clear_loop_undef (mg_grid m) M _ _ L' fuel n k u false 0 _ Uninitialised HN HF _ Hfu _).
  - unfold ncomp. lia.
  - intros x L2 Hx. cbn [mg_grid mgr_of].
    destruct (short_coord (mg_grid m) M (grow 2 M ++ comp_box k) (layer false M k 0 (0 + 1)) false k x 0 HG H3 HM Hx) as (x' & E & E0 & E1 & E2).
    pose proof (three_get c 0 ltac:(lia)) as T0. pose proof (three_get c 1 ltac:(lia)) as T1. pose proof (three_get c 2 ltac:(lia)) as T2.
    change (Z.of_nat 0) with 0 in T0. change (Z.of_nat 1) with 1 in T1. change (Z.of_nat 2) with 2 in T2.
    rewrite E. cbn [bind]. rewrite E0, T0. cbn [bind]. destruct E1 as [E1|[v E1]]; rewrite E1; cbn [bind]; try reflexivity; rewrite ?T1; cbn [bind]; rewrite E2; reflexivity.
Qed.

Lemma shock_oob : forall (m : mgr F) M L outs fuel rj pj gamma, ic_ready m M L outs 5 fuel -> outs <> [] -> (3 < List.length M)%nat ->
  shock_tube_solve fuel rj pj gamma outs m = Undef OutOfBounds.
Proof.
  intros m M L outs fuel rj pj gamma HR HO H3. unfold shock_tube_solve. apply (each_undef m M L fuel _ outs 5 OutOfBounds HR HO).
  intros k n u L' Hk HN. destruct (ready_out _ _ _ _ _ _ _ HR Hk) as (HF & Hc & Hfu). destruct (ready_grid _ _ _ _ _ _ _ HR Hk) as [HG HM].
  refine (clear_loop_undef (mg_grid m) M _ _ L' fuel n k u true 0 _ OutOfBounds HN HF _ Hfu _).
  - unfold ncomp. lia.
  - intros x L2 Hx. cbn [mg_grid mgr_of]. rewrite (cell_x_oob (mg_grid m) M _ _ true k x 0 no_coords HG H3 eq_refl Hx). reflexivity.
Qed.

Lemma wave_uninit : forall (m : mgr F) M L outs fuel d c k Bx By Bz, ic_ready m M L outs 6 fuel -> outs <> [] -> (List.length M <= d)%nat -> (d < 3)%nat ->
  wave_solve fuel (Z.of_nat d) c k Bx By Bz outs m = Undef Uninitialised.
Proof.
  intros m M L outs fuel d c kk Bx By Bz HR HO H3 Hd. unfold wave_solve. apply (each_undef m M L fuel _ outs 6 Uninitialised HR HO).
  intros k n u L' Hk HN. destruct (ready_out _ _ _ _ _ _ _ HR Hk) as (HF & Hc & Hfu). destruct (ready_grid _ _ _ _ _ _ _ HR Hk) as [HG HM].
  assert (ED : (Z.of_nat d =? 0) || (Z.of_nat d =? 1) || (Z.of_nat d =? 2) = true) by (destruct d as [|[|[|d]]]; cbn; auto; lia).
  rewrite ED.
  refine (clear_loop_undef (mg_grid m) M _ _ L' fuel n k u false 0 _ Uninitialised HN HF _ Hfu _).
  - unfold ncomp. lia.
  - intros x L2 Hx. cbn [mg_grid mgr_of].
    destruct (cell_x (mg_grid m) M (grow 2 M ++ comp_box k) (layer false M k 0 (0 + 1)) false k x 0 no_coords HG ltac:(lia) eq_refl Hx) as (x' & E & Ed).
    rewrite E. cbn [bind]. rewrite (Ed d) by lia. destruct (Nat.ltb_spec d (List.length M)); [lia|]. destruct d as [|[|[|d]]]; try lia; reflexivity.
Qed.

(** ** solvers that set three variables together *)

Definition tri (na nb nc : nat) (Va Vb Vc : fld) (i : nat) (u : fld) : fld :=
  if Nat.eqb i na then Va else if Nat.eqb i nb then Vb else if Nat.eqb i nc then Vc else u.
Definition one_of (M : box) (a b c : vid) (Va Vb Vc : fld) (k : vid) (v : fld) : Prop :=
  (k = a -> on_cells M k v Va) /\ (k = b -> on_cells M k v Vb) /\ (k = c -> on_cells M k v Vc).

Lemma three_done : forall (m : mgr F) M L a b c nmin fuel (core : nat -> nat -> nat -> mgr F -> out (mgr F)) Va Vb Vc,
  ic_ready m M L [a; b; c] nmin fuel -> NoDup (map id_name [a; b; c]) ->
  (forall na nb nc ua ub uc L3, nth_error L3 na = Some (a, ua) -> nth_error L3 nb = Some (b, ub) -> nth_error L3 nc = Some (c, uc) ->
    na <> nb -> na <> nc -> nb <> nc ->
    core na nb nc (mgr_of (mg_grid m) M L3 (mg_dt m) (mg_time m)) =
    Done (mgr_of (mg_grid m) M (tr (tri na nb nc Va Vb Vc) L3) (mg_dt m) (mg_time m))) ->
  exists m' L', with_output m a (fun na m => with_output m b (fun nb m => with_output m c (fun nc m => core na nb nc m))) = Done m' /\
    ic_done m m' M L L' [a; b; c] (one_of M a b c Va Vb Vc).
Proof.
  intros m M L a b c nmin fuel core Va Vb Vc HR ND HC.
  destruct (ready_out _ _ _ _ _ _ a HR) as (FA & _); [now left|].
  destruct (ready_out _ _ _ _ _ _ b HR) as (FB & _); [now (right; left)|].
  destruct (ready_out _ _ _ _ _ _ c HR) as (FC & _); [now (right; right; left)|].
  pose proof HR as (Hm & HL & Hc & _). apply mgr_holds_iff in Hm as [Hg Hm]; auto.
  cbn [map] in ND. rewrite !NoDup_cons_iff in ND. destruct ND as (N1 & N2 & _). cbn in N1, N2.
  assert (NAB : id_name a <> id_name b) by (intros X; apply N1; auto).
  assert (NAC : id_name a <> id_name c) by (intros X; apply N1; auto).
  assert (NBC : id_name b <> id_name c) by (intros X; apply N2; auto).
  assert (TA : fitting L a) by (eapply compat_fitting; eauto; now left).
  assert (TB : fitting L b) by (eapply compat_fitting; eauto; now (right; left)).
  assert (TC : fitting L c) by (eapply compat_fitting; eauto; now (right; right; left)).
  set (L1 := ensure L a). set (L2 := ensure L1 b). set (L3 := ensure L2 c).
  assert (TB1 : fitting L1 b) by (apply fitting_ensure; auto; congruence).
  assert (TC1 : fitting L1 c) by (apply fitting_ensure; auto; congruence).
  assert (TC2 : fitting L2 c) by (apply fitting_ensure; auto; congruence).
  assert (TA3 : fitting L3 a) by (repeat (apply fitting_ensure; auto; try congruence)).
  assert (TB3 : fitting L3 b) by (repeat (apply fitting_ensure; auto; try congruence)).
  assert (TC3 : fitting L3 c) by (repeat (apply fitting_ensure; auto; try congruence)).
  destruct (output_pos (mg_grid m) M L (mg_dt m) (mg_time m) a Hg TA FA) as (na & PA & WA). fold L1 in PA, WA.
  destruct (output_pos (mg_grid m) M L1 (mg_dt m) (mg_time m) b Hg TB1 FB) as (nb & PB & WB). fold L2 in PB, WB.
  destruct (output_pos (mg_grid m) M L2 (mg_dt m) (mg_time m) c Hg TC2 FC) as (nc & PC & WC). fold L3 in PC, WC.
  apply (pos_ensure _ _ _ _ _ TB1) in PA. fold L2 in PA. apply (pos_ensure _ _ _ _ _ TC2) in PA, PB. fold L3 in PA, PB.
  assert (nab : na <> nb) by (eapply pos_neq; eauto). assert (nac : na <> nc) by (eapply pos_neq; eauto). assert (nbc : nb <> nc) by (eapply pos_neq; eauto).
  set (L' := field_set (field_set (field_set L3 a Va) b Vb) c Vc).
  assert (ET : tr (tri na nb nc Va Vb Vc) L3 = L').
  { rewrite (tr_ext L3 _ (fun i u => at_pos nc (fun _ => Vc) i (at_pos nb (fun _ => Vb) i (at_pos na (fun _ => Va) i u)))).
    2:{ intros i u. unfold tri, at_pos. destruct (Nat.eqb_spec i na) as [->|].
        - destruct (Nat.eqb_spec na nb); [congruence|]. destruct (Nat.eqb_spec na nc); [congruence|]. reflexivity.
        - destruct (Nat.eqb_spec i nb) as [->|]; [|reflexivity]. destruct (Nat.eqb_spec nb nc); [congruence|]. reflexivity. }
    rewrite <- (tr_tr L3 (at_pos nc (fun _ => Vc)) (fun i u => at_pos nb (fun _ => Vb) i (at_pos na (fun _ => Va) i u))).
    rewrite <- (tr_tr L3 (at_pos nb (fun _ => Vb)) (at_pos na (fun _ => Va))).
    rewrite (tr_at L3 na _ a (field_or_zero L a)) by apply PA. rewrite (pos_upd L3 a (field_or_zero L a) na Va TA3 PA).
    assert (PB' : pos (field_set L3 a Va) b (field_or_zero L1 b) nb).
    { rewrite <- (pos_upd L3 a (field_or_zero L a) na Va TA3 PA). destruct PB as [P1 P2]. split.
      - rewrite (pos_upd L3 a (field_or_zero L a) na Va TA3 PA). now apply idx_set_some.
      - now rewrite nth_error_upd_neq by congruence. }
    assert (TB' : fitting (field_set L3 a Va) b) by (apply fitting_set; auto; congruence).
    assert (TC' : fitting (field_set L3 a Va) c) by (apply fitting_set; auto; congruence).
    rewrite (tr_at _ nb _ b (field_or_zero L1 b)) by apply PB'. rewrite (pos_upd _ b (field_or_zero L1 b) nb Vb TB' PB').
    assert (PC' : pos (field_set (field_set L3 a Va) b Vb) c (field_or_zero L2 c) nc).
    { split.
      - apply idx_set_some. apply idx_set_some. apply PC.
      - rewrite <- (pos_upd _ b (field_or_zero L1 b) nb Vb TB' PB'), <- (pos_upd L3 a (field_or_zero L a) na Va TA3 PA).
        rewrite !nth_error_upd_neq by congruence. apply PC. }
    rewrite (tr_at _ nc _ c (field_or_zero L2 c)) by apply PC'.
    rewrite (pos_upd _ c (field_or_zero L2 c) nc Vc); auto. apply fitting_set; auto. congruence. }
  exists (mgr_of (mg_grid m) M L' (mg_dt m) (mg_time m)), L'.
  assert (HL' : fields_ok M L').
  { unfold L', L3, L2, L1, ensure. repeat (apply fields_ok_set; auto). }
  split; [|unfold ic_done; splits; auto].
  - rewrite Hm at 1. rewrite WA, WB, WC. rewrite (HC na nb nc _ _ _ L3 (proj2 PA) (proj2 PB) (proj2 PC)) by assumption. now rewrite ET.
  - apply mgr_holds_iff; auto.
  - unfold same_run. splits; reflexivity.
  - intros x Hx. unfold L', L3, L2, L1, ensure in Hx. rewrite in_app_iff. cbn.
    repeat (apply ids_set_in in Hx; destruct Hx as [Hx|Hx]; [|subst; tauto]). tauto.
  - intros k Hk. cbn in Hk. unfold L', L3, L2, L1, ensure.
    rewrite !field_get_set_other by (intros X; apply Hk; rewrite X; tauto). reflexivity.
  - intros k Hk.
    assert (GA : field_get L' a = Some Va) by (unfold L'; rewrite !field_get_set_other by congruence; apply field_get_set_same).
    assert (GB : field_get L' b = Some Vb) by (unfold L'; rewrite field_get_set_other by congruence; apply field_get_set_same).
    assert (GC : field_get L' c = Some Vc) by (unfold L'; apply field_get_set_same).
    destruct Hk as [<-|[<-|[<-|[]]]]; eexists; (split; [eassumption|]); unfold one_of; splits; intros E; try congruence; intros x Hx; reflexivity.
Qed.

(** Brio-Wu *)
Definition bw_n (p : bw F) (gr : grid F) (x : list Z) : F := if (center gr x 0 <? f0)%F then bw_nl p else bw_nr p.
Definition bw_P (p : bw F) (gr : grid F) (x : list Z) : F := ((if (center gr x 0 <? f0)%F then bw_Pl p else bw_Pr p) * (f1 / (bw_gamma p - f1)))%F.
Definition bw_B (p : bw F) (gr : grid F) (x : list Z) : F := (bw_By p * (if (center gr x 0 <? f0)%F then f1 else fofz (-1)) * (f1 / (bw_gamma p - f1)))%F.
Definition bw_e (p : bw F) (gr : grid F) (x : list Z) : list (Z * F) := [(0, (bw_me p * bw_n p gr x)%F); (4, bw_P p gr x)].
Definition bw_i (p : bw F) (gr : grid F) (x : list Z) : list (Z * F) := [(0, (bw_me p * bw_n p gr x * bw_mi p / bw_me p)%F); (4, bw_P p gr x)].
Definition bw_f (p : bw F) (gr : grid F) (x : list Z) : list (Z * F) := [(3, bw_Bx p); (4, bw_B p gr x)].

Lemma fill_layer : forall M k fuel (u : fld) a v, id_fits M k -> 0 <= a < ncomp k -> prod_len (grow 2 M ++ comp_box k) <= Z.of_nat fuel ->
  iface_fill fuel (range_of (layer true M k a (a + 1))) v (iface_of (whole M k) u) =
  Done (iface_of (whole M k) (after (spots M k) (fun _ => [(a, v)]) u)).
Proof.
  intros M k fuel u a v HF Ha Hfu. unfold whole. pose proof (shape_valid _ _ _ HF) as V.
  assert (G : good_sub (grow 2 M ++ comp_box k) (layer true M k a (a + 1))) by (apply layer_good; auto; lia).
  destruct (fill_ok F (iface_of (grow 2 M ++ comp_box k) u) (grow 2 M ++ comp_box k) (layer true M k a (a + 1)) v fuel) as (i' & E & Ok' & Er & H1 & H2).
  - now apply iface_of_ok.
  - apply G.
  - apply G.
  - pose proof (prod_len_incl_le _ _ (gs_incl _ _ G) (gs_ne _ _ G)). lia.
  - rewrite E. f_equal. apply iface_eq_of; auto. intros c Hc. pose proof Hc as Hc'. apply whole_split in Hc' as (x & j & -> & Hx & Hj).
    unfold after. rewrite removelast_last, last_last. cbn [find fst snd].
    destruct (in_boxb (spots M k) x) eqn:E1; [apply in_boxb_iff in E1|].
    + destruct (Z.eqb_spec a j) as [->|N].
      * apply H1. apply (layer_in true). split; auto. lia.
      * rewrite H2; auto; [apply cont_of; [apply V|exact Hc]|]. intros I. apply (layer_in true) in I. lia.
    + rewrite H2; auto; [apply cont_of; [apply V|exact Hc]|]. intros I. apply (layer_in true) in I as [I _]. cbn [zone] in I. apply in_boxb_iff in I. congruence.
Qed.

Lemma fill_chunk : forall gr M (L : list (vid * fld)) dt t fuel n k u a v, nth_error L n = Some (k, u) -> id_fits M k -> 0 <= a < ncomp k ->
  prod_len (grow 2 M ++ comp_box k) <= Z.of_nat fuel ->
  on_chunk n (ix_one M) (iface_fill fuel (range_of (layer true M k a (a + 1))) v) (mgr_of gr M L dt t) =
  Done (mgr_of gr M (tr (at_pos n (after (spots M k) (fun _ => [(a, v)]))) L) dt t).
Proof.
  intros gr M L dt t fuel n k u a v HN HF Ha Hfu. rewrite (tr_at L n _ k u HN).
  apply (on_chunk_ok gr M L dt t n k u); auto. now apply fill_layer.
Qed.

Lemma comp_loop_two : forall gr M dt t (L : list (vid * fld)) fuel ne ni ke ki ue ui a (body : indexer -> mgr F -> out (mgr F)) (we wi : list Z -> F),
  nth_error L ne = Some (ke, ue) -> nth_error L ni = Some (ki, ui) -> ne <> ni -> id_fits M ke -> id_fits M ki -> comp_box ki = comp_box ke -> 0 <= a < ncomp ke ->
  prod_len (grow 2 M ++ comp_box ke) <= Z.of_nat fuel ->
  (forall x L', in_box (spots M ke) x ->
    let ix := ix_at (grow 2 M ++ comp_box ke) (layer true M ke a (a + 1)) (x ++ [a]) in
    body ix (mgr_of gr M L' dt t) =
    liftr (mgr_of gr M L' dt t) (m' <- store (mgr_of gr M L' dt t) ne (ix_one M) ix 0 (we x) ;; store m' ni (ix_one M) ix 0 (wi x)) Done) ->
  comp_loop fuel ne ne (ix_one M) true a (a + 1) body (mgr_of gr M L dt t) =
  Done (mgr_of gr M (tr (fun i u => at_pos ni (after (spots M ke) (fun x => [(a, wi x)])) i (at_pos ne (after (spots M ke) (fun x => [(a, we x)])) i u)) L) dt t).
Proof.
  intros gr M dt t L fuel ne ni ke ki ue ui a body we wi HE HI Hn FE FI HB Ha Hfu HBody.
  rewrite (comp_loop_ok gr M dt t L fuel ne ke ue ne ke ue true a body
    (fun i x => if Nat.eqb i ne then [(a, we x)] else if Nat.eqb i ni then [(a, wi x)] else [])); auto.
  - f_equal. cbn [zone]. apply mgr_tr_ext. intros n k u _ c _. unfold at_pos.
    destruct (Nat.eqb_spec n ne) as [->|]; [destruct (Nat.eqb_spec ne ni); [congruence|reflexivity]|].
    destruct (Nat.eqb_spec n ni) as [->|]; [reflexivity|].
    unfold after. cbn [find]. now destruct (in_boxb _ _).
  - intros n x. destruct (n =? ne)%nat; [|destruct (n =? ni)%nat]; repeat constructor; intros [].
  - intros x L' Hx EL. cbn [zone] in Hx. rewrite (HBody x L' Hx). destruct (ids_nth _ _ _ _ _ EL HE) as (ue' & HE'). destruct (ids_nth _ _ _ _ _ EL HI) as (ui' & HI').
    assert (ENC : ncomp ki = ncomp ke) by (unfold ncomp, comp_box in *; injection HB; auto).
    assert (ESP : forall B, spots B ki = spots B ke) by (intros; unfold spots, comp_box in *; injection HB as -> _; auto).
    rewrite store_stores. rewrite (cell_stores gr M dt t L' ne ke ue' ke true a _ x [(0, we x)]); auto; [|repeat constructor; cbn [fst]; lia]. cbn [bind].
    rewrite store_stores. rewrite (cell_stores gr M dt t _ ni ki (at_pos ne (sets x (map (fun p => (a + fst p, snd p)) [(0, we x)])) ni ui') ke true a _ x [(0, wi x)]).
    + cbn [liftr map fst snd]. rewrite Z.add_0_r. f_equal. f_equal. rewrite tr_tr. apply tr_ext. intros i w. unfold at_pos.
      destruct (Nat.eqb_spec i ne) as [->|]; [destruct (Nat.eqb_spec ne ni); [congruence|reflexivity]|]. now destruct (i =? ni)%nat.
    + now apply nth_tr.
    + exact FI.
    + exact HB.
    + rewrite ESP. exact Hx.
    + repeat constructor; cbn [fst]; lia.
Qed.

Lemma clear_three : forall gr M (L : list (vid * fld)) dt t na nb nc ka kb kc ua ub uc, nth_error L na = Some (ka, ua) -> nth_error L nb = Some (kb, ub) ->
  nth_error L nc = Some (kc, uc) -> na <> nb -> na <> nc -> nb <> nc ->
  (m1 <- clear_chunk (mgr_of gr M L dt t) na (ix_one M) f0 ;; m2 <- clear_chunk m1 nb (ix_one M) f0 ;; clear_chunk m2 nc (ix_one M) f0) =
  Ok (mgr_of gr M (tr (tri na nb nc (fun _ => f0) (fun _ => f0) (fun _ => f0)) L) dt t).
Proof.
  intros gr M L dt t na nb nc ka kb kc ua ub uc HA HB HC nab nac nbc.
  rewrite (clear_chunk_ok gr M L dt t na ka ua f0 HA). cbn [bind].
  erewrite clear_chunk_ok by (apply nth_tr; exact HB). cbn [bind].
  erewrite clear_chunk_ok by (apply nth_tr; apply nth_tr; exact HC). f_equal. f_equal. rewrite !tr_tr. apply tr_ext.
  intros i u. unfold tri, at_pos. destruct (i =? na)%nat; destruct (i =? nb)%nat; destruct (i =? nc)%nat; reflexivity.
Qed.

Lemma tri_nth : forall (L : list (vid * fld)) na nb nc Va Vb Vc n k u, nth_error L n = Some (k, u) -> nth_error (tr (tri na nb nc Va Vb Vc) L) n = Some (k, tri na nb nc Va Vb Vc n u).
Proof. intros. now apply nth_tr. Qed.

Lemma brio_done : forall (m : mgr F) M L e i f fuel p, ic_ready m M L [e; i; f] 5 fuel -> NoDup (map id_name [e; i; f]) -> comp_box i = comp_box e ->
  (List.length M <= 3)%nat ->
  exists m' L', brio_wu_solve fuel p [e; i; f] m = Done m' /\
    ic_done m m' M L L' [e; i; f] (one_of M e i f (painted (spots M e) (bw_e p (mg_grid m))) (painted (spots M i) (bw_i p (mg_grid m)))
      (painted (spots M f) (bw_f p (mg_grid m)))).
Proof.
  intros m M L e i f fuel p HR ND HB H3. unfold brio_wu_solve.
  destruct (ready_out _ _ _ _ _ _ e HR) as (FE & CE & UE); [now left|].
  destruct (ready_out _ _ _ _ _ _ i HR) as (FI & CI & UI); [now (right; left)|].
  destruct (ready_out _ _ _ _ _ _ f HR) as (FF & CF & UF); [now (right; right; left)|].
  destruct (ready_grid _ _ _ _ _ _ e HR) as [HG HM]; [now left|].
  refine (three_done m M L e i f 5 fuel _ _ _ _ HR ND _).
  intros ne ni nf ue ui uf L3 HE HI HF nei nef nif.
  rewrite (for_chunks_ok fuel _ M L3 _ _ ne e ue); auto. 2:{ eapply fits_fuel; eauto. }
  rewrite (clear_three _ M L3 _ _ ne ni nf e i f ue ui uf) by assumption. cbn [liftr].
  set (Lc := tr (tri ne ni nf (fun _ => f0) (fun _ => f0) (fun _ => f0)) L3).
  set (gr := mg_grid m) in *.
  assert (HE1 := tri_nth L3 ne ni nf (fun _ => f0) (fun _ => f0) (fun _ => f0) ne e ue HE). fold Lc in HE1.
  assert (HI1 := tri_nth L3 ne ni nf (fun _ => f0) (fun _ => f0) (fun _ => f0) ni i ui HI). fold Lc in HI1.
  assert (HF1 := tri_nth L3 ne ni nf (fun _ => f0) (fun _ => f0) (fun _ => f0) nf f uf HF). fold Lc in HF1.
  pose proof (fun k b bs x a => cell_x gr M b bs true k x a no_coords HG H3 eq_refl) as CX.
  assert (C0 : forall k b bs x a, in_box (spots M k) x -> exists x', grid_xc gr (ix_at b bs (x ++ [a])) no_coords = Ok x' /\ xget x' 0 = Ok (center gr x 0)).
  { intros k b bs x a Hx. destruct (CX k b bs x a Hx) as (x' & E & Ed). exists x'. split; auto.
    pose proof (Ed 0%nat ltac:(lia)) as E0. change (Z.of_nat 0) with 0 in E0. rewrite E0. destruct M as [|iv M']; [congruence|]. reflexivity. }
  rewrite (comp_loop_two gr M _ _ Lc fuel ne ni e i _ _ 0 _ (fun x => (bw_me p * bw_n p gr x)%F) (fun x => (bw_me p * bw_n p gr x * bw_mi p / bw_me p)%F) HE1 HI1 nei FE FI HB); auto.
  2:{ unfold ncomp. lia. }
  2:{ intros x L' Hx ix. cbn [mg_grid mgr_of]. destruct (C0 e (grow 2 M ++ comp_box e) (layer true M e 0 (0 + 1)) x 0 Hx) as (x' & E & E0).
      unfold ix. rewrite E. cbn [bind]. rewrite E0. reflexivity. }
  cbn [obind].
  rewrite (comp_loop_two gr M _ _ _ fuel ne ni e i _ _ 4 _ (bw_P p gr) (bw_P p gr) (nth_tr _ _ _ _ _ HE1) (nth_tr _ _ _ _ _ HI1) nei FE FI HB); auto.
  2:{ unfold ncomp. lia. }
  2:{ intros x L' Hx ix. cbn [mg_grid mgr_of]. destruct (C0 e (grow 2 M ++ comp_box e) (layer true M e 4 (4 + 1)) x 4 Hx) as (x' & E & E0).
      unfold ix. rewrite E. cbn [bind]. rewrite E0. reflexivity. }
  cbn [obind].
  rewrite (comp_loop_one gr M _ _ _ fuel ne e _ nf f _ true 4 _ (fun x => [(0, bw_B p gr x)]) (nth_tr _ _ _ _ _ (nth_tr _ _ _ _ _ HE1)) (nth_tr _ _ _ _ _ (nth_tr _ _ _ _ _ HF1)) FE FF); auto.
  2:{ unfold ncomp. lia. }
  2:{ intros x. unfold ncomp. split; repeat constructor; cbn [fst]; auto; lia. }
  2:{ intros x L' Hx. cbn [mg_grid mgr_of zone] in *. destruct (C0 f (grow 2 M ++ comp_box f) (layer true M f 4 (4 + 1)) x 4 Hx) as (x' & E & E0).
      rewrite E. cbn [bind]. rewrite E0. cbn [bind]. rewrite store_stores. reflexivity. }
  cbn [obind].
  rewrite (comp_range_ok gr M _ _ _ ne e _ nf f _ true 3 4 (nth_tr _ _ _ _ _ (nth_tr _ _ _ _ _ (nth_tr _ _ _ _ _ HE1)))
    (nth_tr _ _ _ _ _ (nth_tr _ _ _ _ _ (nth_tr _ _ _ _ _ HF1))) FE FF) by (unfold ncomp; lia).
  cbn [liftr].
  rewrite (fill_chunk gr M _ _ _ fuel nf f _ 3 (bw_Bx p) (nth_tr _ _ _ _ _ (nth_tr _ _ _ _ _ (nth_tr _ _ _ _ _ HF1))) FF ltac:(unfold ncomp; lia) UF).
  cbn [obind]. f_equal.
  unfold Lc. rewrite !tr_tr. apply mgr_tr_ext. intros n k u HN c Hc. cbn [zone map fst snd]. rewrite Z.add_0_r.
  unfold tri, at_pos.
  assert (ESP : spots M i = spots M e) by (unfold spots, comp_box in *; injection HB as -> _; auto).
  destruct (Nat.eqb_spec n ne) as [->|N1]; [|destruct (Nat.eqb_spec n ni) as [->|N2]; [|destruct (Nat.eqb_spec n nf) as [->|N3]; [|reflexivity]]].
  - destruct (Nat.eqb_spec ne ni); [congruence|]. destruct (Nat.eqb_spec ne nf); [congruence|].
    unfold painted, after. destruct (in_boxb (spots M e) (removelast c)); [|reflexivity]. unfold bw_e. cbn [find fst snd].
    generalize (last c 0) as j. intros j. destruct (Z.eqb_spec 4 j); destruct (Z.eqb_spec 0 j); try lia; reflexivity.
  - destruct (Nat.eqb_spec ni nf); [congruence|]. rewrite ESP.
    unfold painted, after. destruct (in_boxb (spots M e) (removelast c)); [|reflexivity]. unfold bw_i. cbn [find fst snd].
    generalize (last c 0) as j. intros j. destruct (Z.eqb_spec 4 j); destruct (Z.eqb_spec 0 j); try lia; reflexivity.
  - unfold painted, after. destruct (in_boxb (spots M f) (removelast c)); [|reflexivity]. unfold bw_f. cbn [find fst snd].
    generalize (last c 0) as j. intros j. destruct (Z.eqb_spec 3 j); destruct (Z.eqb_spec 4 j); try lia; reflexivity.
Qed.

(** GEM challenge *)
Lemma lockstep3_enum : forall S (body : indexer -> indexer -> indexer -> S -> out S) b1 b2 b3 bs c L, good_sub b1 bs -> good_sub b2 bs -> good_sub b3 bs ->
  enum bs c L -> in_box bs c -> forall fuel s, (List.length L <= fuel)%nat ->
  lockstep3 fuel (ix_at b1 bs c) (ix_at b2 bs c) (ix_at b3 bs c) body s =
  ofold (fun c => body (ix_at b1 bs c) (ix_at b2 bs c) (ix_at b3 bs c)) L s.
Proof.
  intros S body b1 b2 b3 bs c L G1 G2 G3 E1. induction E1 as [c rc R1|c c' L R1 E1 IH]; intros H1 fuel s Hf;
    (destruct fuel as [|fuel]; [simpl in Hf; lia|]); cbn [lockstep3 ofold];
    change (ix_ex (ix_at b1 bs c) && ix_ex (ix_at b2 bs c) && ix_ex (ix_at b3 bs c)) with true; cbv iota; apply obind_ext; intros s'.
  - destruct (next_last _ _ _ _ G1 H1 R1) as (ix1 & -> & Ex). cbn [liftr].
    destruct (next_last _ _ _ _ G2 H1 R1) as (ix2 & -> & _). cbn [liftr].
    destruct (next_last _ _ _ _ G3 H1 R1) as (ix3 & -> & _). cbn [liftr].
    destruct fuel; cbn [lockstep3]; rewrite Ex; reflexivity.
  - destruct (next_step _ _ _ _ G1 H1 R1) as (-> & H1'). cbn [liftr].
    destruct (next_step _ _ _ _ G2 H1 R1) as (-> & _). cbn [liftr].
    destruct (next_step _ _ _ _ G3 H1 R1) as (-> & _). cbn [liftr].
    apply IH; auto; simpl in *; lia.
Qed.

Lemma lockstep3_cells : forall S (body : indexer -> indexer -> indexer -> S -> out S) b1 b2 b3 bs fuel s, good_sub b1 bs -> good_sub b2 bs -> good_sub b3 bs ->
  prod_len bs <= Z.of_nat fuel ->
  lockstep3 fuel (ix_at b1 bs (first_cell bs)) (ix_at b2 bs (first_cell bs)) (ix_at b3 bs (first_cell bs)) body s =
  ofold (fun c => body (ix_at b1 bs c) (ix_at b2 bs c) (ix_at b3 bs c)) (cells bs) s.
Proof.
  intros S body b1 b2 b3 bs fuel s G1 G2 G3 Hf. apply lockstep3_enum; auto.
  - apply enum_cells, G1.
  - apply first_in_box, G1.
  - apply cells_fuel; auto. apply G1.
Qed.

Definition gem_e (p : gem F) (x0 x1 : F) : list (Z * F) := fst (fst (gem_values p x0 x1)).
Definition gem_i (p : gem F) (x0 x1 : F) : list (Z * F) := snd (fst (gem_values p x0 x1)).
Definition gem_f (p : gem F) (x0 x1 : F) : list (Z * F) := snd (gem_values p x0 x1).
(** The second coordinate: zero on one-dimensional grids. *)
Definition y_of (gr : grid F) (M : box) (x : list Z) : F := if (1 <? List.length M)%nat then center gr x 1 else f0.

Lemma gem_done : forall (m : mgr F) M L e i f fuel p, ic_ready m M L [e; i; f] 5 fuel -> NoDup (map id_name [e; i; f]) ->
  bs_points (id_basis i) = bs_points (id_basis e) -> bs_points (id_basis f) = bs_points (id_basis e) -> (List.length M <= 3)%nat ->
  exists m' L', gem_solve fuel p [e; i; f] m = Done m' /\
    ic_done m m' M L L' [e; i; f] (one_of M e i f
      (painted (spots (grow 2 M) e) (fun x => gem_e p (center (mg_grid m) x 0) (y_of (mg_grid m) M x)))
      (painted (spots (grow 2 M) i) (fun x => gem_i p (center (mg_grid m) x 0) (y_of (mg_grid m) M x)))
      (painted (spots (grow 2 M) f) (fun x => gem_f p (center (mg_grid m) x 0) (y_of (mg_grid m) M x)))).
Proof.
  intros m M L e i f fuel p HR ND HBi HBf H3. unfold gem_solve.
  destruct (ready_out _ _ _ _ _ _ e HR) as (FE & CE & UE); [now left|].
  destruct (ready_out _ _ _ _ _ _ i HR) as (FI & CI & UI); [now (right; left)|].
  destruct (ready_out _ _ _ _ _ _ f HR) as (FF & CF & UF); [now (right; right; left)|].
  destruct (ready_grid _ _ _ _ _ _ e HR) as [HG HM]; [now left|].
  refine (three_done m M L e i f 5 fuel _ _ _ _ HR ND _).
  intros ne ni nf ue ui uf L3 HE HI HF nei nef nif.
  rewrite (for_chunks_ok fuel _ M L3 _ _ ne e ue); auto. 2:{ eapply fits_fuel; eauto. }
  rewrite (clear_three _ M L3 _ _ ne ni nf e i f ue ui uf) by assumption. cbn [liftr].
  set (Lc := tr (tri ne ni nf (fun _ => f0) (fun _ => f0) (fun _ => f0)) L3).
  set (gr := mg_grid m) in *.
  assert (HE1 := tri_nth L3 ne ni nf (fun _ => f0) (fun _ => f0) (fun _ => f0) ne e ue HE). fold Lc in HE1.
  assert (HI1 := tri_nth L3 ne ni nf (fun _ => f0) (fun _ => f0) (fun _ => f0) ni i ui HI). fold Lc in HI1.
  assert (HF1 := tri_nth L3 ne ni nf (fun _ => f0) (fun _ => f0) (fun _ => f0) nf f uf HF). fold Lc in HF1.
  assert (NE : 1 <= ncomp e) by (unfold ncomp; lia). assert (NI : 1 <= ncomp i) by (unfold ncomp; lia). assert (NF : 1 <= ncomp f) by (unfold ncomp; lia).
  rewrite (comp_indexer_ok gr M Lc _ _ ne e _ ne e _ false 0 1 HE1 HE1 FE FE) by lia. cbn [liftr].
  rewrite (comp_indexer_ok gr M Lc _ _ ni i _ ni i _ false 0 1 HI1 HI1 FI FI) by lia. cbn [liftr].
  rewrite (comp_indexer_ok gr M Lc _ _ nf f _ nf f _ false 0 1 HF1 HF1 FF FF) by lia. cbn [liftr].
  assert (EI : spots (grow 2 M) i = spots (grow 2 M) e) by (unfold spots; now rewrite HBi).
  assert (EF : spots (grow 2 M) f = spots (grow 2 M) e) by (unfold spots; now rewrite HBf).
  assert (LI : layer false M i 0 1 = layer false M e 0 1) by (unfold layer; cbn [zone]; now rewrite EI).
  assert (LF : layer false M f 0 1 = layer false M e 0 1) by (unfold layer; cbn [zone]; now rewrite EF).
  rewrite LI, LF.
  assert (G1 : good_sub (grow 2 M ++ comp_box e) (layer false M e 0 1)) by (apply layer_good; auto; lia).
  assert (G2 : good_sub (grow 2 M ++ comp_box i) (layer false M e 0 1)) by (rewrite <- LI; apply layer_good; auto; lia).
  assert (G3 : good_sub (grow 2 M ++ comp_box f) (layer false M e 0 1)) by (rewrite <- LF; apply layer_good; auto; lia).
  rewrite lockstep3_cells; auto.
  2:{ pose proof (prod_len_incl_le _ _ (gs_incl _ _ G1) (gs_ne _ _ G1)). lia. }
  set (xc := fun x => center gr x 0). set (yc := y_of gr M).
  set (W := fun (n : nat) (x : list Z) => if Nat.eqb n ne then gem_e p (xc x) (yc x) else if Nat.eqb n ni then gem_i p (xc x) (yc x)
              else if Nat.eqb n nf then gem_f p (xc x) (yc x) else []).
  rewrite (tr_loop gr M _ _ (list Z) _ (fun c n => sets (removelast c) (W n (removelast c)))).
  - cbn [obind]. f_equal. unfold Lc. rewrite tr_tr. apply mgr_tr_ext. intros n k u HN c Hc.
    apply whole_split in Hc as (y & j & -> & Hy & Hj).
    rewrite (fold_sets (grow 2 M ++ comp_box k) (fun c => removelast c ++ [0])
      (fun c v => match find (fun p => fst p =? last c 0) (W n (removelast c)) with Some p => snd p | None => v end)).
    + rewrite removelast_last, last_last. unfold tri.
      assert (EB : (if in_dec (list_eq_dec Z.eq_dec) (y ++ [0]) (cells (layer false M e 0 1)) then true else false) = in_boxb (spots (grow 2 M) e) y).
      { destruct (in_dec _ (y ++ [0]) (cells (layer false M e 0 1))) as [I|I]; symmetry.
        - apply in_boxb_iff. apply in_cells, layer_in in I as [I _]. exact I.
        - destruct (in_boxb (spots (grow 2 M) e) y) eqn:E; auto. exfalso. apply I. apply in_cells, layer_in. apply in_boxb_iff in E. split; auto; lia. }
      unfold W. destruct (n =? ne)%nat; [|destruct (n =? ni)%nat; [|destruct (n =? nf)%nat]];
      unfold painted, after; rewrite ?removelast_last, ?last_last, ?EI, ?EF, <- ?EB;
      destruct (in_dec (list_eq_dec Z.eq_dec) (y ++ [0]) (cells (layer false M e 0 1))); reflexivity.
    + apply cells_NoDup.
    + intros c w c' Hc Hc'. apply in_cells, layer_split in Hc as (x & i0 & -> & Hx & Hi0). apply whole_split in Hc' as (z & i' & -> & Hz & Hi').
      replace i0 with 0 by lia. rewrite !removelast_last, last_last. rewrite sets_at.
      * rewrite snoc_eq_dec, Z.eqb_refl. destruct (list_eq_dec Z.eq_dec z x) as [->|]; reflexivity.
      * unfold W. destruct (n =? ne)%nat; [|destruct (n =? ni)%nat; [|destruct (n =? nf)%nat]]; cbn [gem_e gem_i gem_f gem_values fst snd map]; repeat constructor; cbn; intuition lia.
    + apply whole_in. auto.
  - intros c L' Hc EL. apply in_cells, layer_split in Hc as (x & i0 & -> & Hx & Hi0). replace i0 with 0 by lia.
    destruct (Nat.eqb_spec ne ni); [congruence|]. destruct (Nat.eqb_spec ne nf); [congruence|]. destruct (Nat.eqb_spec ni nf); [congruence|]. cbn [orb].
    cbn [mg_grid mgr_of]. 
    destruct (cell_x gr M (grow 2 M ++ comp_box e) (layer false M e 0 1) false e x 0 zero_coords HG H3 eq_refl Hx) as (x' & E & Ed).
    rewrite E. cbn [bind]. 
    assert (X0 : xget x' 0 = Ok (xc x)).
    { pose proof (Ed 0%nat ltac:(lia)) as E0. change (Z.of_nat 0) with 0 in E0. rewrite E0. destruct M as [|iv M']; [congruence|]. reflexivity. }
    assert (X1 : xget x' 1 = Ok (yc x)).
    { pose proof (Ed 1%nat ltac:(lia)) as E0. change (Z.of_nat 1) with 1 in E0. rewrite E0. unfold yc, y_of. now destruct (1 <? List.length M)%nat. }
    rewrite X0. cbn [bind]. rewrite X1. cbn [bind].
    rewrite (surjective_pairing (gem_values p (xc x) (yc x))), (surjective_pairing (fst (gem_values p (xc x) (yc x)))).
    fold (gem_e p (xc x) (yc x)) (gem_i p (xc x) (yc x)) (gem_f p (xc x) (yc x)).
    destruct (ids_nth _ _ _ _ _ EL HE1) as (ue' & HE'). destruct (ids_nth _ _ _ _ _ EL HI1) as (ui' & HI'). destruct (ids_nth _ _ _ _ _ EL HF1) as (uf' & HF').
    assert (FO : forall k, (5 <= List.length (id_comps k))%nat -> forall q, In q [gem_e p (xc x) (yc x); gem_i p (xc x) (yc x); gem_f p (xc x) (yc x)] ->
      Forall (fun q => 0 <= 0 + fst q < ncomp k) q).
    { intros k Hk q Hq. unfold ncomp. destruct Hq as [<-|[<-|[<-|[]]]]; cbn [gem_e gem_i gem_f gem_values fst snd]; repeat constructor; cbn [fst]; lia. }
    rewrite (cell_stores gr M _ _ L' ne e ue' e false 0 _ x); auto; [|apply FO; auto; now left]. cbn [bind].
    rewrite (cell_stores gr M _ _ _ ni i _ i false 0 _ x _ (nth_tr _ _ _ _ _ HI') FI eq_refl).
    2:{ cbn [zone] in *. now rewrite EI. }
    2:{ apply FO; auto. now (right; left). }
    cbn [bind].
    rewrite (cell_stores gr M _ _ _ nf f _ f false 0 _ x _ (nth_tr _ _ _ _ _ (nth_tr _ _ _ _ _ HF')) FF eq_refl).
    2:{ cbn [zone] in *. now rewrite EF. }
    2:{ apply FO; auto. now (right; right; left). }
    cbn [liftr]. f_equal. f_equal. rewrite !tr_tr. apply tr_ext. intros n' w. rewrite removelast_last. unfold at_pos, W.
    destruct (Nat.eqb_spec n' ne) as [->|].
    + destruct (Nat.eqb_spec ne ni); [congruence|]. destruct (Nat.eqb_spec ne nf); [congruence|]. reflexivity.
    + destruct (Nat.eqb_spec n' ni) as [->|].
      * destruct (Nat.eqb_spec ni nf); [congruence|]. reflexivity.
      * destruct (n' =? nf)%nat; reflexivity.
Qed.

End ICs.
