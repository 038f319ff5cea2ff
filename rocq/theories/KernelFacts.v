(** * KernelFacts: arrays as functions of their index, loops over blocks, and
    running a kernel on the chunks of a manager. *)
From Coq Require Import ZArith List String Bool Lia.
From Verif Require Import Base BoxSpec BaseFacts BoxFacts Range RangeSpec RangeFacts Indexer IndexerFacts Interface InterfaceFacts ApiSpec ApiFacts
  Arith Chunk FieldSpec FieldFacts ChunkFacts VarId Manager MgrSpec MgrFacts SolverFacts Par ParFacts Kernel.
Import ListNotations.
Open Scope Z_scope.

Section Tab.
Context {F : Type}.
Notation thr := (thr F).
Notation mem := (mem F).

(** The array of length [N] with elements [f]. *)
Definition tab (N : Z) (f : Z -> F) : list F := map f (zrange 0 N).

Lemma tab_length : forall N f, 0 <= N -> Z.of_nat (List.length (tab N f)) = N.
Proof. intros. unfold tab. rewrite map_length, zrange_length. lia. Qed.

Lemma tab_nth : forall N f i, 0 <= i < N -> nth_error (tab N f) (Z.to_nat i) = Some (f i).
Proof.
  intros. unfold tab. rewrite nth_error_map, nth_error_zrange by lia. cbn [option_map]. f_equal. f_equal. lia.
Qed.

Lemma tab_get : forall N f i, 0 <= i < N -> vget (tab N f) i = Ok (f i).
Proof. intros. apply vget_ok; [lia|]. now apply tab_nth. Qed.

Lemma tab_ext : forall N f g, (forall i, 0 <= i < N -> f i = g i) -> tab N f = tab N g.
Proof. intros. unfold tab. apply map_ext_in. intros i Hi. apply in_zrange in Hi. auto. Qed.

Lemma nth_error_ext : forall T (l l' : list T), (forall n, nth_error l n = nth_error l' n) -> l = l'.
Proof.
  induction l as [|x l IH]; intros [|y l'] H; auto.
  - specialize (H 0%nat). discriminate.
  - specialize (H 0%nat). discriminate.
  - f_equal. + specialize (H 0%nat). now inversion H. + apply IH. intros n. apply (H (S n)).
Qed.

Lemma tab_upd : forall N f i v, 0 <= i < N ->
  upd (tab N f) (Z.to_nat i) v = tab N (fun p => if p =? i then v else f p).
Proof.
  intros N f i v H. apply nth_error_ext. intros n.
  pose proof (tab_length N f ltac:(lia)) as Ln.
  destruct (Nat.eq_dec (Z.to_nat i) n) as [<-|E].
  - rewrite BaseFacts.nth_error_upd_eq by lia. rewrite tab_nth by lia. now rewrite Z.eqb_refl.
  - rewrite nth_error_upd_neq by assumption. destruct (lt_dec n (Z.to_nat N)) as [Hn|Hn].
    + replace n with (Z.to_nat (Z.of_nat n)) by lia. rewrite !tab_nth by lia.
      destruct (Z.eqb_spec (Z.of_nat n) i); [lia|reflexivity].
    + rewrite !(proj2 (nth_error_None _ _)); auto; unfold tab; rewrite map_length, zrange_length; lia.
Qed.

(** Memory whose arrays are given by functions. *)
Definition mtab (N : Z) (fs : list (Z -> F)) : mem := map (tab N) fs.

Lemma mtab_read : forall N fs a f i, nth_error fs a = Some f -> 0 <= i < N -> mread (mtab N fs) a i = Ok (f i).
Proof. intros. unfold mread, mtab. rewrite nth_error_map, H. cbn [option_map]. now apply tab_get. Qed.

Lemma mtab_write : forall N fs a f i v, nth_error fs a = Some f -> 0 <= i < N ->
  mwrite (mtab N fs) a i v = Ok (mtab N (upd fs a (fun p => if p =? i then v else f p))).
Proof.
  intros N fs a f i v H Hi. unfold mwrite, mtab. rewrite nth_error_map, H. cbn [option_map].
  rewrite vset_ok by (rewrite tab_length; lia). cbn [bind]. rewrite tab_upd by assumption.
  rewrite upd_map. reflexivity.
Qed.

Lemma mtab_valid : forall N fs l, 0 <= N ->
  (valid (mtab N fs) l <-> (fst l < List.length fs)%nat /\ 0 <= snd l < N).
Proof.
  intros N fs [a i] HN. unfold valid, mtab. cbn [fst snd]. rewrite nth_error_map. split.
  - intros (x & H1 & H2). destruct (nth_error fs a) eqn:E; [|discriminate]. cbn in H1. inversion H1; subst.
    rewrite tab_length in H2 by lia. split; auto. apply nth_error_Some. congruence.
  - intros [H1 H2]. apply nth_error_Some in H1. destruct (nth_error fs a) as [f|]; [|congruence].
    exists (tab N f). split; auto. now rewrite tab_length by lia.
Qed.

Lemma mtab_last_ext : forall N fs f g, (forall i, 0 <= i < N -> f i = g i) -> mtab N (fs ++ [f]) = mtab N (fs ++ [g]).
Proof. intros. unfold mtab. rewrite !map_app. cbn [map]. do 2 f_equal. now apply tab_ext. Qed.

(** ** loops over blocks *)

(** The start positions of [K] blocks of size [s]. *)
Definition blocks (start s : Z) (K : nat) : list Z := map (fun k => start + Z.of_nat k * s) (seq 0 K).

Lemma blocks_S : forall start s K, blocks start s (S K) = start :: blocks (start + s) s K.
Proof.
  intros. unfold blocks. cbn [seq map]. f_equal; [lia|]. rewrite <- seq_shift, map_map. apply map_ext. intros. lia.
Qed.

Lemma in_blocks : forall start s K i, In i (blocks start s K) -> exists k, (k < K)%nat /\ i = start + Z.of_nat k * s.
Proof. intros start s K i H. unfold blocks in H. apply in_map_iff in H as (k & <- & H). apply in_seq in H. exists k. split; [lia|reflexivity]. Qed.

Lemma nth_blocks : forall start s K k i, nth_error (blocks start s K) k = Some i -> (k < K)%nat /\ i = start + Z.of_nat k * s.
Proof.
  intros start s K k i H. unfold blocks in H. rewrite nth_error_map in H.
  destruct (nth_error (seq 0 K) k) as [x|] eqn:E; [|discriminate]. cbn in H. inversion H; subst.
  assert (Hk : (k < K)%nat). { rewrite <- (seq_length K 0). apply nth_error_Some. congruence. }
  split; auto. rewrite (nth_error_nth' _ 0%nat) in E by (now rewrite seq_length). rewrite seq_nth in E by assumption. inversion E. subst. cbn. reflexivity.
Qed.

(** Each iteration rewrites its block of the last array and nothing else. *)
Lemma run_blocks : forall N ins (g : Z -> F -> F) s body K start f,
  0 < s ->
  (forall i f, In i (blocks start s K) ->
     trun (body i) (mtab N (ins ++ [f])) =
     Ok (mtab N (ins ++ [fun p => if (i <=? p) && (p <? i + s) then g p (f p) else f p]))) ->
  seq_run (map body (blocks start s K)) (mtab N (ins ++ [f])) =
  Ok (mtab N (ins ++ [fun p => if (start <=? p) && (p <? start + Z.of_nat K * s) then g p (f p) else f p])).
Proof.
  intros N ins g s body K. induction K as [|K IH]; intros start f Hs H.
  - cbn [blocks seq map seq_run]. f_equal. apply mtab_last_ext. intros i _.
    destruct (Z.leb_spec start i), (Z.ltb_spec i (start + Z.of_nat 0 * s)); auto; lia.
  - rewrite blocks_S in *. cbn [map seq_run]. rewrite H by now left. cbn [bind]. rewrite IH; auto.
    + f_equal. apply mtab_last_ext. intros i _.
      destruct (Z.leb_spec (start + s) i), (Z.ltb_spec i (start + s + Z.of_nat K * s)),
        (Z.leb_spec start i), (Z.ltb_spec i (start + s)), (Z.ltb_spec i (start + Z.of_nat (S K) * s)); cbn [andb]; auto; lia.
    + intros i f' Hi. apply H. now right.
Qed.

(** Independence of block loops: reads anywhere in the arrays before the last,
    the last array is touched in the own block only. *)
Lemma blocks_independent : forall N (fs : list (Z -> F)) o s body K start, 0 <= N -> 0 < s ->
  (S o = List.length fs)%nat ->
  0 <= start -> start + Z.of_nat K * s <= N ->
  (forall i, In i (blocks start s K) ->
     within (fun l => ((fst l < o)%nat /\ 0 <= snd l < N) \/ (fst l = o /\ i <= snd l < i + s))
            (fun l => fst l = o /\ i <= snd l < i + s) (body i)) ->
  independent (fun n l => ((fst l < o)%nat /\ 0 <= snd l < N) \/ (fst l = o /\ start + Z.of_nat n * s <= snd l < start + Z.of_nat n * s + s))
    (fun n l => fst l = o /\ start + Z.of_nat n * s <= snd l < start + Z.of_nat n * s + s)
    (map body (blocks start s K)) (mtab N fs).
Proof.
  intros N fs o s body K start HN Hs Ho H0 HK HW.
  assert (LK : List.length (map body (blocks start s K)) = K) by (unfold blocks; now rewrite !map_length, seq_length).
  constructor.
  - intros n t E. rewrite nth_error_map in E. destruct (nth_error (blocks start s K) n) as [i|] eqn:E1; [|discriminate].
    cbn in E. inversion E; subst. pose proof (HW i (nth_error_In _ _ E1)) as HW'. apply nth_blocks in E1 as [_ ->]. exact HW'.
  - intros n l Hn H. rewrite LK in Hn. apply mtab_valid; auto. rewrite <- Ho.
    assert (B1 : Z.of_nat n * s + s <= Z.of_nat K * s) by nia.
    assert (B2 : 0 <= Z.of_nat n * s) by nia.
    destruct H as [[[H1 H2]|[H1 H2]]|[H1 H2]]; split; try lia.
  - intros n k l Hn Hk N0 [H1 H2]. 
    assert (Q : ~ (start + Z.of_nat k * s <= snd l < start + Z.of_nat k * s + s)).
    { intros H3. destruct (Z_lt_ge_dec (Z.of_nat n) (Z.of_nat k)); nia. }
    split; [intros [[H3 _]|[_ H3]]|intros [_ H3]]; auto. lia.
Qed.

Lemma int_loop_blocks : forall start end_ s, 0 < s -> start < end_ -> 0 <= start ->
  start + (end_ - start + s - 1) / s * s <= int_max ->
  int_loop start end_ s = Ok (blocks start s (Z.to_nat ((end_ - start + s - 1) / s))).
Proof.
  intros start end_ s Hs H H0 Hm. unfold int_loop. destruct (Z.leb_spec end_ start); [lia|].
  assert (0 <= (end_ - start + s - 1) / s) by (apply Z.div_pos; lia).
  rewrite chk_ok; [reflexivity|]. unfold is_int, int_min. nia.
Qed.

(** ** one chunk as an array *)

Definition cell_at (b : box) (p : Z) : list Z := nth (Z.to_nat p) (cells b) [].

Lemma cell_at_offset : forall b c, nonempty b -> in_box b c -> cell_at b (offset b c) = c.
Proof. intros. unfold cell_at. apply nth_error_nth. now apply nth_cells_offset. Qed.

Lemma cell_at_in : forall b p, nonempty b -> 0 <= p < prod_len b -> in_box b (cell_at b p) /\ offset b (cell_at b p) = p.
Proof.
  intros b p Hn Hp. pose proof (cells_length _ Hn) as Ln.
  destruct (nth_error (cells b) (Z.to_nat p)) as [c|] eqn:E; [|apply nth_error_None in E; lia].
  unfold cell_at. rewrite (nth_error_nth _ _ [] E). destruct (cells_nth_in _ _ _ E) as [H1 H2].
  split; auto. pose proof (offset_bounds _ _ H1). lia.
Qed.

Definition arr (b : box) (u : list Z -> F) : list F := map u (cells b).

Lemma arr_tab : forall b u, nonempty b -> arr b u = tab (prod_len b) (fun p => u (cell_at b p)).
Proof.
  intros b u Hn. unfold arr, tab. rewrite <- offsets_cells by assumption. rewrite map_map. apply map_ext_in.
  intros c Hc. apply in_cells in Hc. now rewrite cell_at_offset.
Qed.

Lemma tab_arr : forall b f, nonempty b -> tab (prod_len b) f = arr b (fun c => f (offset b c)).
Proof. intros b f Hn. unfold arr, tab. rewrite <- offsets_cells by assumption. now rewrite map_map. Qed.

Lemma arrs_mtab : forall b us, nonempty b -> map (arr b) us = mtab (prod_len b) (map (fun u p => u (cell_at b p)) us).
Proof. intros. unfold mtab. rewrite map_map. apply map_ext. intros. now apply arr_tab. Qed.

Lemma arr_ext : forall b u v, (forall c, in_box b c -> u c = v c) -> arr b u = arr b v.
Proof. intros. unfold arr. apply map_ext_in. intros c Hc. apply H. now apply in_cells. Qed.

End Tab.

Section Mgr.
Context {F : Type} {A : Arith F}.
Notation fld := (field F).

(** Variable [k] with field [u] is at position [n]. *)
Definition pos (L : list (vid * fld)) (k : vid) (u : fld) (n : nat) : Prop :=
  idx L k = Some n /\ nth_error L n = Some (k, u).

Lemma input_pos : forall gr M (L : list (vid * fld)) dt t k u, fitting L k -> field_get L k = Some u ->
  exists n, pos L k u n /\ input_variable (mgr_of gr M L dt t) k = Ok n.
Proof.
  intros gr M L dt t k u Hk Hg. destruct (idx L k) as [n|] eqn:I; [|apply idx_get in I; congruence].
  exists n. destruct (idx_some _ _ _ Hk I) as (u' & U1 & U2). unfold pos. rewrite U1. rewrite Hg in U2. inversion U2; subst.
  split; auto. unfold input_variable. cbn [mg_vars mgr_of]. rewrite map_find_ok by assumption. cbn [bind]. now rewrite I.
Qed.

Lemma pos_ensure : forall (L : list (vid * fld)) k u n k', fitting L k' -> pos L k u n -> pos (ensure L k') k u n.
Proof.
  intros L k u n k' Hk' [H1 H2]. split.
  - unfold ensure. now apply idx_set_some.
  - unfold ensure, field_or_zero. destruct (idx L k') as [n'|] eqn:I.
    + destruct (idx_some _ _ _ Hk' I) as (u' & U1 & U2). rewrite U2. now rewrite (set_same_get _ _ _ Hk' U2).
    + rewrite set_new by assumption. rewrite nth_error_app1; auto. apply nth_error_Some. congruence.
Qed.

Lemma pos_name : forall (L : list (vid * fld)) k u n k' u', pos L k u n -> pos L k' u' n -> k = k' /\ u = u'.
Proof. intros L k u n k' u' [_ H1] [_ H2]. rewrite H1 in H2. inversion H2. auto. Qed.

Lemma output_pos : forall gr M (L : list (vid * fld)) dt t k, gr_range gr = range_of M -> fitting L k -> id_fits M k ->
  exists n, pos (ensure L k) k (field_or_zero L k) n /\
    forall f, with_output (mgr_of gr M L dt t) k f = f n (mgr_of gr M (ensure L k) dt t).
Proof.
  intros gr M L dt t k Hg Hk Hf. destruct (with_output_ensure gr M L dt t k Hg Hk Hf) as (n & H1 & H2 & H3).
  exists n. split; auto. split; auto.
Qed.

Lemma pos_upd : forall (L : list (vid * fld)) k u n v, fitting L k -> pos L k u n -> upd L n (k, v) = field_set L k v.
Proof. intros L k u n v Hk [H1 H2]. symmetry. eapply set_existing; eauto. Qed.

Lemma volume_ok : forall b, valid_box b -> range_volume (range_of b) = Ok (prod_len b).
Proof.
  intros b V. pose proof (valid_self _ V) as G. pose proof (good_sub_fit_sub _ _ G) as [_ F1].
  rewrite range_volume_fit by assumption. rewrite box_volume_pos; [reflexivity|apply V].
Qed.

Definition whole (M : box) (k : vid) : box := grow 2 M ++ comp_box k.

Lemma fits_nonempty : forall M k, id_fits M k -> nonempty (whole M k).
Proof. intros M k S. now destruct (shape_valid _ _ _ S) as (_ & N & _). Qed.

Lemma data_ok : forall b (u : fld), nonempty b -> iface_data (iface_of b u) = Ok (arr b u).
Proof.
  intros b u Hn. unfold iface_data, iface_of. cbn [if_data]. fold (arr b u).
  destruct (arr b u) as [|x l] eqn:E; auto. exfalso. unfold arr in E. apply map_eq_nil in E.
  destruct (cells_nonempty_first _ Hn) as (cs & E2). congruence.
Qed.

Lemma arrays_ok : forall gr M (L : list (vid * fld)) dt t ns (kus : list (vid * fld)),
  Forall2 (fun n ku => nth_error L n = Some ku) ns kus -> Forall (fun ku => id_fits M (fst ku)) kus ->
  arrays (mgr_of gr M L dt t) ns (ix_one M) = Ok (map (fun ku : vid * fld => arr (whole M (fst ku)) (snd ku)) kus).
Proof.
  intros gr M L dt t ns kus H. induction H as [|n [k u] ns kus H1 H2 IH]; intros Hf; [reflexivity|].
  inversion Hf; subst. cbn [arrays map fst snd] in *. rewrite (get_chunk_ok _ _ _ _ _ _ _ _ H1). cbn [bind].
  change (ec_if (echunk_of M (comp_box k) 2 u)) with (iface_of (whole M k) u).
  rewrite data_ok by now apply fits_nonempty. cbn [bind]. rewrite IH by assumption. reflexivity.
Qed.

Lemma put_array_ok : forall gr M (L : list (vid * fld)) dt t n k u w, nth_error L n = Some (k, u) ->
  put_array (mgr_of gr M L dt t) n (ix_one M) (arr (whole M k) w) = Ok (mgr_of gr M (upd L n (k, w)) dt t).
Proof.
  intros. unfold put_array. rewrite (get_chunk_ok _ _ _ _ _ _ _ _ H). cbn [bind].
  rewrite <- (put_chunk_ok gr M L dt t n k u w H). reflexivity.
Qed.

(** A kernel whose loops turn the arrays of the fields [us] and [uo] into those
    of [us] and [w] stores [w]. *)
Lemma run_kernel_ok : forall gr M (L : list (vid * fld)) dt t ns o (kus : list (vid * fld)) ko uo w ls rest,
  Forall2 (fun n ku => nth_error L n = Some ku) ns kus -> nth_error L o = Some (ko, uo) -> ~ In o ns ->
  Forall (fun ku => id_fits M (fst ku)) kus -> id_fits M ko -> List.length rest = List.length ns ->
  loops_run ls (map (fun ku : vid * fld => arr (whole M (fst ku)) (snd ku)) kus ++ [arr (whole M ko) uo]) = Ok (rest ++ [arr (whole M ko) w]) ->
  run_kernel ns o (ix_one M) ls (mgr_of gr M L dt t) = Done (mgr_of gr M (upd L o (ko, w)) dt t).
Proof.
  intros gr M L dt t ns o kus ko uo w ls rest Hns Ho Hni Hf Hfo Hl Hr. unfold run_kernel.
  assert (E : existsb (Nat.eqb o) ns = false).
  { apply not_true_is_false. intros E. apply existsb_exists in E as (x & H1 & H2). apply Nat.eqb_eq in H2. congruence. }
  rewrite E. rewrite (arrays_ok gr M L dt t (ns ++ [o]) (kus ++ [(ko, uo)])).
  - cbn [liftr]. rewrite map_app. cbn [map fst snd]. rewrite Hr. cbn [liftr].
    rewrite nth_error_app2 by lia. rewrite Hl, Nat.sub_diag. cbn [nth_error].
    rewrite (put_array_ok _ _ _ _ _ _ _ _ _ Ho). reflexivity.
  - apply Forall2_app; auto.
  - apply Forall_app. auto.
Qed.

Lemma run_kernel_alias : forall ns o ix ls (m : mgr F), In o ns -> run_kernel ns o ix ls m = Undef RestrictAlias.
Proof.
  intros. unfold run_kernel. assert (E : existsb (Nat.eqb o) ns = true).
  { apply existsb_exists. exists o. split; auto. apply Nat.eqb_refl. } now rewrite E.
Qed.

End Mgr.
