(** * AdvectionFacts: proofs about the advection solver. *)
From Coq Require Import ZArith List Lia Bool Arith Reals Lra.
From Verif Require Import Base BoxSpec BaseFacts BoxFacts Arith ArithR Range RangeSpec RangeFacts Indexer IndexerFacts Interface InterfaceFacts Chunk ChunkFacts FieldSpec FieldFacts
  VarId VarIdFacts Manager MgrSpec MgrFacts Par ParFacts Kernel KernelFacts IntegratorFacts BCSpec BCFacts SolverFacts SweepSpec SweepFacts FluxFacts Sources SourceSpec SourceFacts
  Advection AdvectionSpec.
Import ListNotations.
Open Scope Z_scope.

Section AdvectionFacts.
Context {F : Type} {A : Arith F}.
Notation fld := (list Z -> F).

Lemma adv_flux_spec : forall k vn vc vp, adv_flux k vn vc vp = upwind k vn vc vp.
Proof. intros. unfold adv_flux, upwind, slope_ratio, fneq. now destruct (fle vp vc && fle vc vp). Qed.

(** ** one loop on tables *)
Section Loop.
Variables (ds : Z) (k : F) (N : Z) (fq : Z -> F).
Hypothesis Hds : ds <> 0.

Definition fl (i : Z) : F := upwind k (fq (i - 2 * ds)) (fq (i - ds)) (fq i).

Definition inb (start : Z) (K : nat) (i : Z) : bool := (start <=? i) && (i <? start + Z.of_nat K).
(** Element [p] after the first [K] iterations. *)
Definition moved (start : Z) (K : nat) (f : Z -> F) (p : Z) : F :=
  let inn x := if inb start K p then fadd x (fl p) else x in
  let outn x := if inb start K (p + ds) then fsub x (fl (p + ds)) else x in
  if 0 <? ds then outn (inn (f p)) else inn (outn (f p)).

Lemma adv_iter_run : forall i f, 0 <= i < N -> 0 <= i - ds < N -> 0 <= i - 2 * ds < N ->
  trun (adv_iter ds k i) (mtab N [fq; f]) =
  Ok (mtab N [fq; fun p => if p =? i then fadd (f p) (fl i) else if p =? i - ds then fsub (f p) (fl i) else f p]).
Proof.
  intros i f H0 H1 H2. unfold adv_iter. cbn [trun].
  rewrite (mtab_read N _ 0%nat fq) by (auto; lia). cbn [bind].
  rewrite (mtab_read N _ 0%nat fq) by (auto; lia). cbn [bind].
  rewrite (mtab_read N _ 0%nat fq) by (auto; lia). cbn [bind].
  rewrite (mtab_read N _ 1%nat f) by (auto; lia). cbn [bind]. rewrite adv_flux_spec. fold (fl i).
  rewrite (mtab_write N _ 1%nat f) by (auto; lia). cbn [bind upd].
  erewrite mtab_read by (try reflexivity; lia). cbn [bind].
  erewrite mtab_write by (try reflexivity; lia). cbn [bind upd].
  f_equal. apply (mtab_last_ext N [fq]). intros p Hp.
  destruct (Z.eqb_spec p i) as [->|E].
  - destruct (Z.eqb_spec i (i - ds)); [lia|reflexivity].
  - destruct (Z.eqb_spec p (i - ds)) as [->|E']; reflexivity.
Qed.

Lemma adv_run : forall start f K, (forall i, start <= i < start + Z.of_nat K -> 0 <= i < N /\ 0 <= i - ds < N /\ 0 <= i - 2 * ds < N) ->
  seq_run (map (adv_iter ds k) (blocks start 1 K)) (mtab N [fq; f]) = Ok (mtab N [fq; moved start K f]).
Proof.
  intros start f K. induction K as [|K IH]; intros HB.
  - cbn [blocks seq map seq_run]. f_equal. apply (mtab_last_ext N [fq]). intros p Hp. unfold moved, inb.
    replace (start + Z.of_nat 0) with start by lia.
    assert (E : forall i, (start <=? i) && (i <? start) = false).
    { intros i. destruct (Z.leb_spec start i), (Z.ltb_spec i start); cbn; lia || reflexivity. }
    rewrite !E. now destruct (0 <? ds).
  - rewrite blocks_snoc, map_app, seq_run_app, IH by (intros; apply HB; lia). cbn [bind map seq_run].
    rewrite Z.mul_1_r. destruct (HB (start + Z.of_nat K) ltac:(lia)) as (B0 & B1 & B2).
    rewrite adv_iter_run by assumption. cbn [bind]. f_equal. apply (mtab_last_ext N [fq]). intros p Hp.
    set (i := start + Z.of_nat K) in *.
    assert (HI : forall x, inb start (S K) x = inb start K x || (x =? i)).
    { intros x. unfold inb. destruct (Z.leb_spec start x), (Z.ltb_spec x (start + Z.of_nat (S K))), (Z.ltb_spec x (start + Z.of_nat K)), (Z.eqb_spec x i); cbn; lia || reflexivity. }
    assert (HF : forall x, i <= x -> inb start K x = false).
    { intros x Hx. unfold inb. destruct (Z.leb_spec start x), (Z.ltb_spec x (start + Z.of_nat K)); cbn; lia || reflexivity. }
    unfold moved. rewrite !HI.
    destruct (Z.eqb_spec p i) as [E|E].
    + rewrite E. rewrite (HF i) by lia. destruct (Z.eqb_spec (i + ds) i); [lia|]. rewrite !orb_false_r. cbn [orb].
      destruct (Z.ltb_spec 0 ds); [rewrite (HF (i + ds)) by lia; reflexivity|reflexivity].
    + rewrite orb_false_r. destruct (Z.eqb_spec p (i - ds)) as [E'|E'].
      * assert (E2 : p + ds = i) by lia. rewrite E2, Z.eqb_refl, (HF i) by lia. cbn [orb].
        destruct (Z.ltb_spec 0 ds); [reflexivity|]. rewrite (HF p) by lia. reflexivity.
      * destruct (Z.eqb_spec (p + ds) i); [lia|]. rewrite orb_false_r. reflexivity.
Qed.

End Loop.

(** ** one loop on fields *)

Lemma move_whole : forall M D g d t c, in_box (M ++ D) c -> (d < List.length M)%nat -> 0 <= g -> - g <= t <= g ->
  in_box (grow g M ++ D) (move d t c).
Proof.
  intros M D g d t c I Hd Hg Ht. destruct (nth_error M d) as [[l u]|] eqn:E; [|apply nth_error_None in E; lia].
  apply nth_error_split in E as (p & q & -> & <-). rewrite <- app_assoc in I. cbn [app] in I.
  apply in_box_split in I as (px & a & qx & -> & J1 & J2 & J3 & J4). cbn [fst snd] in J2. rewrite <- J4, move_mid.
  rewrite grow_app, <- app_assoc. cbn [grow map app fst snd].
  assert (G : forall b x, in_box b x -> in_box (grow g b) x).
  { clear - Hg. induction b as [|[l u] b IH]; intros x Hx; inversion Hx; subst; constructor; cbn [fst snd] in *; [lia|]. now apply IH. }
  apply in_box_app; [now apply G|]. constructor; [cbn [fst snd]; lia|].
  fold (grow g q). destruct (Forall2_app_inv_l _ _ J3) as (y & z & Y1 & Y2 & ->). apply in_box_app; [now apply G|exact Y2].
Qed.

Section Sweep.
Variables (M D : box).
Hypothesis Sh : shape M D 2.
Let b := grow 2 M ++ D.

Definition upd_flow (vel cf : nat -> F) (u : fld) (d : nat) (w w' : fld) : Prop :=
  forall c, in_box (M ++ D) c -> w' c = flow vel cf u w d c.

Lemma adv_sweep_field : forall gr u d velocity vel dt dx, (d < List.length M)%nat ->
  vget velocity (Z.of_nat d) = Ok (vel d) -> grid_dx gr (Z.of_nat d) = Ok (dx d) ->
  exists s k is, adv_sweep dt velocity gr (echunk_of M D 2 u) (Z.of_nat d) = Ok (map (adv_iter s k) is) /\ s <> 0 /\
    forall w, exists w', seq_run (map (adv_iter s k) is) [arr b u; arr b w] = Ok [arr b u; arr b w'] /\
      upd_flow vel (courant dt vel dx) u d w w'.
Proof.
  intros gr u d velocity vel dt dx Hd Hv Hx. pose proof (shape_valid _ _ _ Sh) as V. fold b in V.
  assert (NB : nonempty b) by apply V. assert (VB : prod_len b <= int_max) by apply V.
  destruct (nth_error M d) as [[l0 u0]|] eqn:Em; [|apply nth_error_None in Em; lia].
  assert (Bn : nth_error b d = Some (l0 - 2, u0 + 2)).
  { unfold b. rewrite nth_error_app1 by (unfold grow; rewrite map_length; lia). unfold grow. now rewrite nth_error_map, Em. }
  set (s := prod_len (skipn (S d) b)).
  assert (Hs : 0 < s). { apply prod_len_pos. unfold nonempty in *. rewrite Forall_forall in *. intros x Hin. apply NB. rewrite <- (firstn_skipn (S d) b). apply in_or_app. auto. }
  assert (Hpl : 5 * s <= prod_len b).
  { pose proof Bn as Bn'. apply nth_error_split in Bn' as (p & q & Eb & Lp). unfold s. rewrite Eb.
    replace (S d) with (List.length (p ++ [(l0 - 2, u0 + 2)])) by (rewrite app_length; cbn; lia).
    replace (p ++ (l0 - 2, u0 + 2) :: q) with ((p ++ [(l0 - 2, u0 + 2)]) ++ q) by (now rewrite <- app_assoc).
    rewrite skipn_app, skipn_all, Nat.sub_diag. cbn [app skipn]. rewrite !prod_len_app. cbn [prod_len fst snd].
    assert (Np : nonempty p /\ nonempty q).
    { rewrite Eb in NB. apply nonempty_app in NB as [N1 N2]. inversion N2; subst. split; auto. }
    destruct Np as [Np Nq]. pose proof (prod_len_pos _ Np). pose proof (prod_len_pos _ Nq).
    assert (l0 < u0). { assert (NM : nonempty M) by apply Sh. unfold nonempty in NM. rewrite Forall_forall in NM. apply nth_error_In in Em. now apply (NM (l0, u0)). }
    assert (5 * prod_len q <= (u0 + 2 - (l0 - 2)) * prod_len q) by (apply Z.mul_le_mono_nonneg_r; lia).
    assert (1 * ((u0 + 2 - (l0 - 2)) * prod_len q) <= prod_len p * ((u0 + 2 - (l0 - 2)) * prod_len q)) by (apply Z.mul_le_mono_nonneg_r; lia).
    rewrite Z.mul_1_r. lia. }
  unfold adv_sweep. rewrite Hv. cbn [bind]. rewrite ec_if_of. cbn [if_range iface_of]. fold b.
  rewrite (range_stride_of b d _ Bn). cbn [bind]. fold s. rewrite (volume_ok b V). cbn [bind].
  unfold imul, isub. assert (Hi : is_int (2 * s)) by (unfold is_int, int_min; lia). rewrite chk_ok by exact Hi. cbn [bind].
  rewrite Hx. cbn [bind]. change (fabs (dt * vel d / dx d)%F) with (courant dt vel dx d). set (k := courant dt vel dx d).
  assert (KEY : forall s0 start end_, s0 <> 0 -> 0 <= start < end_ -> end_ <= prod_len b -> (s0 = s \/ s0 = - s) ->
     (forall i, start <= i < end_ -> 0 <= i - 2 * s0 < prod_len b) ->
     (forall c, in_box (M ++ D) c -> start <= offset b c < end_ /\ start <= offset b c + s0 < end_) ->
     downwind vel d * s = s0 -> 
     adv_iterate start end_ s0 k = Ok (map (adv_iter s0 k) (blocks start 1 (Z.to_nat (end_ - start)))) /\
     forall w, exists w', seq_run (map (adv_iter s0 k) (blocks start 1 (Z.to_nat (end_ - start)))) [arr b u; arr b w] = Ok [arr b u; arr b w'] /\
      upd_flow vel (courant dt vel dx) u d w w').
  { intros s0 start end_ Hs0 Hr He Hss Hb2 Hin Hdw. split.
    - unfold adv_iterate. rewrite int_loop_blocks; try lia.
      + cbn [bind]. do 4 f_equal. replace (end_ - start + 1 - 1) with (end_ - start) by lia. apply Z.div_1_r.
      + replace (end_ - start + 1 - 1) with (end_ - start) by lia. rewrite Z.div_1_r. lia.
    - intros w. rewrite !arr_tab by exact NB.
      set (fq := fun p => u (cell_at b p)). set (fw := fun p => w (cell_at b p)).
      exists (fun c => moved s0 k fq start (Z.to_nat (end_ - start)) fw (offset b c)). split.
      + change [tab (prod_len b) fq; tab (prod_len b) fw] with (mtab (prod_len b) [fq; fw]).
        rewrite adv_run; auto.
        * cbn [mtab map]. rewrite (tab_arr b (moved _ _ _ _ _ _)) by exact NB. unfold fq. reflexivity.
        * intros i Hi'. rewrite Z2Nat.id in Hi' by lia. specialize (Hb2 i ltac:(lia)). lia.
      + intros c Hc. destruct (Hin c Hc) as [Hi1 Hi2].
        assert (Lc : List.length c = List.length b).
        { unfold b. rewrite app_length. unfold grow. rewrite map_length, <- app_length. symmetry. eapply Forall2_length; eauto. }
        assert (Ib : forall t, -2 <= t <= 2 -> in_box b (move d t c)) by (intros; apply move_whole; auto; lia).
        assert (Of : forall t, offset b (move d t c) = offset b c + t * s) by (intros; now apply (offset_move b d t c _ Bn)).
        assert (Cq : forall t, -2 <= t <= 2 -> fq (offset b c + t * s) = u (move d t c)).
        { intros t Ht. unfold fq. rewrite <- Of, cell_at_offset; auto. }
        assert (Dw : downwind vel d = 1 \/ downwind vel d = -1) by (unfold downwind; destruct (upwards vel d); auto).
        assert (Ld : (d < List.length c)%nat) by (apply nth_error_Some_lt in Bn || (rewrite Lc; apply nth_error_Some; congruence); try lia; rewrite Lc; assumption).
        assert (C0 : fq (offset b c) = u c).
        { unfold fq. rewrite cell_at_offset; auto. rewrite <- (move_0 d c Ld). apply Ib. lia. }
        assert (F1 : fl s0 k fq (offset b c) = inflow vel (courant dt vel dx) u d c).
        { unfold fl, inflow. cbv zeta. fold k. rewrite <- !Cq by lia. rewrite C0. rewrite <- Hdw. f_equal; f_equal; ring. }
        assert (F2 : fl s0 k fq (offset b c + s0) = inflow vel (courant dt vel dx) u d (move d (downwind vel d) c)).
        { unfold fl, inflow. cbv zeta. fold k. rewrite !move_move by exact Ld.
          rewrite <- !Cq by lia. rewrite <- Hdw. f_equal; f_equal; ring. }
        unfold moved. cbv zeta. rewrite F1, F2. unfold inb. rewrite Z2Nat.id by lia. replace (start + (end_ - start)) with end_ by lia.
        rewrite (proj2 (Z.leb_le start (offset b c))), (proj2 (Z.ltb_lt (offset b c) end_)), (proj2 (Z.leb_le start (offset b c + s0))), (proj2 (Z.ltb_lt (offset b c + s0) end_)) by lia. cbn [andb].
        unfold fw. rewrite cell_at_offset; [|exact NB|].
        2:{ rewrite <- (move_0 d c Ld). apply Ib. lia. }
        unfold flow, downwind in *. destruct (upwards vel d).
        * destruct (Z.ltb_spec 0 s0); [reflexivity|lia].
        * destruct (Z.ltb_spec 0 s0); [lia|reflexivity]. }
  assert (INN : forall c, in_box (M ++ D) c -> 2 * s <= offset b c /\ offset b c + 2 * s < prod_len b).
  { intros c Hc. assert (Lc : List.length c = List.length b).
    { unfold b. rewrite app_length. unfold grow. rewrite map_length, <- app_length. symmetry. eapply Forall2_length; eauto. }
    pose proof (offset_bounds _ _ (move_whole M D 2 d 2 c Hc Hd ltac:(lia) ltac:(lia))) as B1.
    pose proof (offset_bounds _ _ (move_whole M D 2 d (-2) c Hc Hd ltac:(lia) ltac:(lia))) as B2. fold b in B1, B2.
    rewrite (offset_move b d 2 c _ Bn) in B1 by exact Lc. rewrite (offset_move b d (-2) c _ Bn) in B2 by exact Lc. fold s in B1, B2. lia. }
  change (flt f0 (vel d)) with (upwards vel d). destruct (upwards vel d) eqn:Eu.
  - rewrite chk_ok by (unfold is_int, int_min; lia). cbn [bind].
    destruct (KEY s (2 * s) (prod_len b - 1)) as [K1 K2]; try lia.
    + intros c Hc. specialize (INN c Hc). lia.
    + unfold downwind. rewrite Eu. lia.
    + exists s, k, (blocks (2 * s) 1 (Z.to_nat (prod_len b - 1 - 2 * s))). split; [exact K1|]. split; [lia|exact K2].
  - rewrite chk_ok by (unfold is_int, int_min, int_max in *; lia). cbn [bind]. rewrite chk_ok by (unfold is_int, int_min, int_max in *; lia). cbn [bind].
    destruct (KEY (0 - s) 0 (prod_len b - 2 * s)) as [K1 K2]; try lia.
    + intros c Hc. specialize (INN c Hc). lia.
    + unfold downwind. rewrite Eu. lia.
    + exists (0 - s), k, (blocks 0 1 (Z.to_nat (prod_len b - 2 * s - 0))). split; [exact K1|]. split; [lia|exact K2].
Qed.


Definition is_adv (l : list (thr F)) : Prop := exists s k is, l = map (adv_iter s k) is /\ s <> 0.

Lemma flow_ext : forall vel cf u r r' d c, r c = r' c -> flow vel cf u r d c = flow vel cf u r' d c.
Proof. intros. unfold flow. now rewrite H. Qed.

Lemma fold_flow_ext : forall vel cf u ds r r' c, r c = r' c -> fold_left (flow vel cf u) ds r c = fold_left (flow vel cf u) ds r' c.
Proof. induction ds as [|d ds IH]; intros r r' c H; cbn [fold_left]; auto. apply IH. now apply flow_ext. Qed.

Lemma adv_loops : forall gr u velocity vel dt dx ds, Forall (fun d => (d < List.length M)%nat /\
    vget velocity (Z.of_nat d) = Ok (vel d) /\ grid_dx gr (Z.of_nat d) = Ok (dx d)) ds ->
  exists ls, loops_of (adv_sweep dt velocity gr (echunk_of M D 2 u)) (map Z.of_nat ds) = Ok ls /\ Forall is_adv ls /\
    forall w, exists w', loops_run ls [arr b u; arr b w] = Ok [arr b u; arr b w'] /\
      flowed M D vel (courant dt vel dx) ds u w w'.
Proof.
  intros gr u velocity vel dt dx ds H. induction H as [|d ds (H1 & H2 & H3) H IH].
  - exists []. split; [reflexivity|]. split; [constructor|]. intros w. exists w. split; [reflexivity|]. intros c _. reflexivity.
  - destruct IH as (ls & E & Ha & IH). destruct (adv_sweep_field gr u d velocity vel dt dx H1 H2 H3) as (s & k & is & El & Hs & Hl).
    exists (map (adv_iter s k) is :: ls). split; [cbn [map loops_of]; rewrite El; cbn [bind]; rewrite E; reflexivity|].
    split; [constructor; auto; exists s, k, is; auto|].
    intros w. destruct (Hl w) as (v & V1 & V2). destruct (IH v) as (w' & W1 & W2). exists w'. split.
    + cbn [loops_run]. rewrite V1. cbn [bind]. exact W1.
    + intros c Hc. rewrite W2 by assumption. cbn [fold_left]. apply fold_flow_ext. now apply V2.
Qed.

End Sweep.

(** ** the two stages *)

Lemma arr_length : forall b (u : fld), nonempty b -> Z.of_nat (List.length (arr b u)) = prod_len b.
Proof. intros. unfold arr. rewrite map_length. now apply cells_length. Qed.

Lemma full_copy_of : forall b (u w : fld), valid_box b -> full_copy (iface_of b u) (iface_of b w) = Done (iface_of b u).
Proof.
  intros b u w V. assert (NB : nonempty b) by apply V. unfold full_copy. cbn [if_range if_data iface_of].
  rewrite (volume_ok b V). cbn [liftr]. rewrite Z.eqb_refl. fold (arr b u) (arr b w). rewrite !arr_length by exact NB.
  pose proof (prod_len_pos _ NB). rewrite Z.ltb_irrefl. destruct (Z.leb_spec (prod_len b) 0); [lia|]. cbn [orb].
  unfold iface_of. rewrite <- (arr_length b u NB). rewrite Nat2Z.id, firstn_all.
  rewrite skipn_all2; [now rewrite app_nil_r|]. unfold arr. now rewrite !map_length.
Qed.

Lemma adv_mean_of : forall b (u w x : fld), nonempty b -> adv_mean (prod_len b) (arr b u) (arr b w) (arr b x) = Ok (arr b (mean u w)).
Proof.
  intros b u w x NB. unfold adv_mean. rewrite !arr_length by exact NB. rewrite Z.ltb_irrefl. cbn [orb]. f_equal.
  assert (E : forall y : fld, Z.to_nat (prod_len b) = List.length (arr b y)) by (intros; rewrite <- (arr_length b y NB); apply Nat2Z.id).
  rewrite (E u) at 1. rewrite firstn_all. rewrite (E w) at 1. rewrite firstn_all. rewrite (E x), skipn_all, app_nil_r.
  unfold arr. induction (cells b) as [|c l IH]; [reflexivity|]. cbn [map combine]. rewrite IH. reflexivity.
Qed.

Lemma whole_valid : forall M k, id_fits M k -> valid_box (whole M k).
Proof. intros M k H. apply (shape_valid _ _ _ H). Qed.

Lemma dims_of : forall M, dims_upto (r_nd (range_of M)) = map Z.of_nat (seq 0 (List.length M)).
Proof. intros. cbn [r_nd range_of]. apply dims_upto_seq. Qed.

(** Everything before the stage. *)
Lemma adv_start : forall (m : mgr F) M (L : list (vid * fld)) ks q0 q1 q2 dt velocity fuel u0 tag, adv_ready m M L ks q0 q1 q2 dt velocity fuel ->
  field_get L q0 = Some u0 ->
  let L2 := ensure (ensure L q1) q2 in
  exists n0 n1 n2, pos L2 q0 u0 n0 /\ pos L2 q1 (field_or_zero L q1) n1 /\ pos L2 q2 (field_or_zero L q2) n2 /\
    fitting L2 q1 /\ fitting L2 q2 /\ gr_range (mg_grid m) = range_of M /\
    let m2 := mgr_of (mg_grid m) M L2 (mg_dt m) (mg_time m) in
    adv_solve fuel velocity [q0] [q1; q2] tag m =
      if tag =? 0 then obind (adv_stage_0 dt velocity n0 n1 (ix_one M) m2) Done
      else if tag =? 1 then obind (adv_stage_1 dt velocity n0 n1 n2 (ix_one M) m2) Done else Done m2.
Proof.
  intros m M L ks q0 q1 q2 dt velocity fuel u0 tag (Hm & HL & Hc & Hk & Hf & Cb1 & Cb2 & Hfu & Ht & Hdt & Hv & Hg') H0 L2.
  apply mgr_holds_iff in Hm as [Hg Hm]; auto.
  inversion Hf as [|? ? Hf0 Hf']; subst. inversion Hf' as [|? ? Hf1 Hf'']; subst. inversion Hf'' as [|? ? Hf2 _]; subst.
  assert (HM : M <> []) by (eapply id_fits_M; eauto).
  assert (Hc' : compatible (ids L ++ [q0; q1; q2])).
  { eapply compat_perm; [exact Hc|]. intros x Hx. rewrite in_app_iff in *. destruct Hx; auto. }
  assert (Fx : forall x, In x [q0; q1; q2] -> fitting L x) by (intros; eapply compat_fitting; eauto).
  assert (Hab : forall a b, In a [q0; q1; q2] -> In b [q0; q1; q2] -> id_name a = id_name b -> a = b).
  { intros a b Ha Hb. apply Hc'; rewrite in_app_iff; auto. }
  assert (I0' : In q0 [q0; q1; q2]) by (cbn; auto).
  assert (I1' : In q1 [q0; q1; q2]) by (cbn; auto).
  assert (I2' : In q2 [q0; q1; q2]) by (cbn; auto).
  assert (F1 : fitting L q1) by auto.
  assert (F2 : fitting (ensure L q1) q2) by (apply fitting_ensure; auto).
  destruct (input_pos (mg_grid m) M L (mg_dt m) (mg_time m) q0 u0 (Fx _ I0') H0) as (n0 & P0 & I0).
  destruct (output_pos (mg_grid m) M L (mg_dt m) (mg_time m) q1 Hg F1 Hf1) as (n1 & P1 & O1).
  destruct (output_pos (mg_grid m) M (ensure L q1) (mg_dt m) (mg_time m) q2 Hg F2 Hf2) as (n2 & P2 & O2).
  rewrite foz_ensure in P2.
  assert (P0' : pos L2 q0 u0 n0) by (unfold L2; repeat apply pos_ensure; auto).
  exists n0, n1, n2. split; auto. split; [unfold L2; apply pos_ensure; auto|]. split; [exact P2|].
  split; [unfold L2; repeat apply fitting_ensure; auto|]. split; [unfold L2; repeat apply fitting_ensure; auto|]. split; [exact Hg|]. intros m2.
  assert (G1 : mgr_get_dt (mgr_of (mg_grid m) M L (mg_dt m) (mg_time m)) = Ok dt).
  { unfold mgr_get_dt. cbn [mg_dt mgr_of]. now rewrite Hdt. }
  assert (G2 : exists t, mgr_get_time (mgr_of (mg_grid m) M L (mg_dt m) (mg_time m)) = Ok t).
  { unfold mgr_get_time. cbn [mg_time mgr_of]. destruct (mg_time m) as [t|]; [|congruence]. now exists t. }
  destruct G2 as (t & G2).
  rewrite Hm at 1. unfold adv_solve. rewrite G2. cbn [liftr]. rewrite G1. cbn [liftr]. rewrite I0. cbn [liftr]. rewrite O1, O2. fold L2.
  rewrite !(for_chunks_ok _ _ _ _ _ _ _ _ _ _ HM Hfu (proj2 P0')). reflexivity.
Qed.

Definition adv_ran (M : box) (k : vid) (u w v : fld) : Prop :=
  exists ls, Forall is_adv ls /\ loops_run ls [arr (whole M k) u; arr (whole M k) w] = Ok [arr (whole M k) u; arr (whole M k) v].

Lemma adv_finish : forall (m : mgr F) M (L : list (vid * fld)) ks q0 q1 q2 dt velocity fuel o (v : fld) (P : fld -> Prop), adv_ready m M L ks q0 q1 q2 dt velocity fuel ->
  In o [q1; q2] -> P v ->
  let L' := field_set (ensure (ensure L q1) q2) o v in
  adv_stored m (mgr_of (mg_grid m) M L' (mg_dt m) (mg_time m)) M L L' [q1; q2] o P /\ incl (ids L') (ids L ++ ks).
Proof.
  intros m M L ks q0 q1 q2 dt velocity fuel o v P (Hm & HL & Hc & Hk & Hf & Cb1 & Cb2 & Hfu & Ht & Hdt & Hv & Hg') Ho HP L'.
  apply mgr_holds_iff in Hm as [Hg Hm]; auto.
  inversion Hf as [|? ? Hf0 Hf']; subst. inversion Hf' as [|? ? Hf1 Hf'']; subst. inversion Hf'' as [|? ? Hf2 _]; subst.
  assert (Hfo : id_fits M o) by (cbn in Ho; destruct Ho as [<-|[<-|[]]]; auto).
  assert (O' : fields_ok M L') by (unfold L', ensure; auto using fields_ok_set).
  split.
  - split; [apply mgr_holds_iff; auto|]. split; [auto|]. split; [unfold same_run; cbn; auto|]. split; [|split].
    + intros k Hn. cbn in Hn. unfold L'. rewrite field_get_set_other.
      * rewrite !get_ensure_other by tauto. reflexivity.
      * intros En. apply Hn. rewrite <- En. cbn in Ho. destruct Ho as [<-|[<-|[]]]; auto.
    + intros k Hi Hn. unfold L'. rewrite field_get_set_other by congruence.
      set (L2 := ensure (ensure L q1) q2).
      assert (Z0 : field_or_zero L2 k = field_or_zero L k) by (unfold L2; now rewrite !foz_ensure).
      assert (Z1 : exists x, field_get L2 k = Some x).
      { unfold L2. destruct Hi as [<-|[<-|[]]]; eexists.
        - apply get_ensure_keep. apply get_ensure_same. - apply get_ensure_same. }
      destruct Z1 as (x & Z1). rewrite Z1. unfold field_or_zero in Z0. rewrite Z1 in Z0. now rewrite Z0.
    + exists v. split; [apply field_get_set_same|exact HP].
  - intros x Hx. rewrite in_app_iff. apply ids_set_in in Hx as [Hx| ->].
    + apply ids_ensure_in in Hx as [Hx| ->]; [apply ids_ensure_in in Hx as [Hx| ->]; auto|]; right; apply Hk; cbn; auto.
    + right. apply Hk. cbn in *. tauto.
Qed.

Lemma adv_inout_ok : forall M k (u : fld) gr velocity dt, id_fits M k -> gr_range gr = range_of M ->
  (List.length M <= List.length velocity)%nat -> (List.length M <= List.length (gr_dxs gr))%nat ->
  exists ls, adv_inout dt velocity gr (echunk_of M (comp_box k) 2 u) = Ok ls /\ Forall is_adv ls /\
    forall w, exists w', loops_run ls [arr (whole M k) u; arr (whole M k) w] = Ok [arr (whole M k) u; arr (whole M k) w'] /\
      flowed M (comp_box k) (velocity_of velocity) (courant dt (velocity_of velocity) (spacing gr)) (seq 0 (List.length M)) u w w'.
Proof.
  intros M k u gr velocity dt Hf Hg Hv Hx. unfold adv_inout. rewrite Hg, dims_of.
  apply (adv_loops M (comp_box k) Hf gr u velocity (velocity_of velocity) dt (spacing gr)).
  apply Forall_forall. intros d Hd. apply in_seq in Hd. split; [lia|]. split.
  - unfold velocity_of, vget. rewrite (proj2 (Z.leb_le 0 _)) by lia. rewrite Nat2Z.id.
    destruct (nth_error velocity d) eqn:E; [|apply nth_error_None in E; lia]. now rewrite (nth_error_nth _ _ _ E).
  - apply grid_dx_spacing. lia.
Qed.

Lemma api_stage_0 : forall (m : mgr F) M (L : list (vid * fld)) ks q0 q1 q2 dt velocity fuel u0, adv_ready m M L ks q0 q1 q2 dt velocity fuel ->
  field_get L q0 = Some u0 -> id_name q0 <> id_name q1 ->
  exists m' L', adv_solve fuel velocity [q0] [q1; q2] 0 m = Done m' /\
    adv_stored m m' M L L' [q1; q2] q1 (fun v => adv_ran M q0 u0 u0 v /\
      flowed M (comp_box q0) (velocity_of velocity) (courant dt (velocity_of velocity) (spacing (mg_grid m))) (seq 0 (List.length M)) u0 u0 v) /\
    incl (ids L') (ids L ++ ks).
Proof.
  intros m M L ks q0 q1 q2 dt velocity fuel u0 HR H0 N01. pose proof HR as (Hm & HL & Hc & Hk & Hf & Cb1 & Cb2 & Hfu & Ht & Hdt & Hv & Hx).
  destruct (adv_start m M L ks q0 q1 q2 dt velocity fuel u0 0 HR H0) as (n0 & n1 & n2 & P0 & P1 & P2 & F1 & F2 & Hg & E). cbn [Z.eqb] in E.
  inversion Hf as [|? ? Hf0 Hf']; subst. inversion Hf' as [|? ? Hf1 Hf'']; subst.
  set (L2 := ensure (ensure L q1) q2) in *.
  destruct (adv_inout_ok M q0 u0 (mg_grid m) velocity dt Hf0 Hg Hv Hx) as (ls & E1 & E2 & E3). destruct (E3 u0) as (v & V1 & V2).
  pose proof (pos_neq _ _ _ _ _ _ _ P0 P1 N01) as NN.
  exists (mgr_of (mg_grid m) M (field_set L2 q1 v) (mg_dt m) (mg_time m)), (field_set L2 q1 v). split.
  - rewrite E. unfold adv_stage_0. destruct (Nat.eqb_spec n0 n1); [congruence|].
    rewrite (get_chunk_ok _ _ _ _ _ _ _ _ (proj2 P0)). cbn [liftr].
    rewrite (on_chunk_ok _ _ _ _ _ _ q1 (field_or_zero L q1) u0 _ (proj2 P1)).
    2:{ rewrite ec_if_of. fold (whole M q0). unfold whole. rewrite Cb1. apply full_copy_of, (whole_valid M q0 Hf0). }
    cbn [obind]. match goal with |- context [mg_grid (mgr_of ?a ?b ?c ?d ?e)] => change (mg_grid (mgr_of a b c d e)) with a end. rewrite E1. cbn [liftr].
    refine (eq_trans (f_equal (fun x => obind x Done) (run_kernel_ok (mg_grid m) M (upd L2 n1 (q1, u0)) (mg_dt m) (mg_time m) [n0] n1 [(q0, u0)] q1 u0 v ls [arr (whole M q0) u0] _ _ _ _ _ _ _)) _).
    + constructor; [|constructor]. rewrite nth_error_upd_neq by congruence. apply P0.
    + apply BaseFacts.nth_error_upd_eq. apply nth_error_Some. destruct P1. congruence.
    + cbn. intuition.
    + constructor; auto.
    + exact Hf1.
    + reflexivity.
    + cbn [map fst snd app]. unfold whole. rewrite Cb1. exact V1.
    + cbn [obind]. assert (P1' : pos (field_set L2 q1 u0) q1 u0 n1).
      { destruct P1 as [Q1 Q2]. rewrite <- (pos_upd L2 q1 _ n1 u0 F1 (conj Q1 Q2)). split.
        - rewrite <- Q1. apply idx_ids. unfold ids. rewrite upd_map. cbn [fst]. apply ParFacts.upd_same. rewrite nth_error_map, Q2. reflexivity.
        - apply BaseFacts.nth_error_upd_eq. apply nth_error_Some. congruence. }
      apply (f_equal (fun l => Done (mgr_of (mg_grid m) M l (mg_dt m) (mg_time m)))).
      refine (eq_trans (f_equal (fun l => upd l n1 (q1, v)) (pos_upd L2 q1 _ n1 u0 F1 P1)) _).
      refine (eq_trans (pos_upd (field_set L2 q1 u0) q1 _ n1 v _ P1') _); [intros x Hin En; apply ids_set_in in Hin as [Hin| ->]; auto|].
      now rewrite set_set.
  - apply (adv_finish m M L ks q0 q1 q2 dt velocity fuel q1 v _ HR); [cbn; auto|]. split; [exists ls; auto|exact V2].
Qed.

Lemma api_stage_1 : forall (m : mgr F) M (L : list (vid * fld)) ks q0 q1 q2 dt velocity fuel u0, adv_ready m M L ks q0 q1 q2 dt velocity fuel ->
  field_get L q0 = Some u0 -> id_name q1 <> id_name q2 ->
  exists m' L', adv_solve fuel velocity [q0] [q1; q2] 1 m = Done m' /\
    adv_stored m m' M L L' [q1; q2] q2 (fun v => let u1 := field_or_zero L q1 in adv_ran M q0 u1 (mean u0 u1) v /\
      flowed M (comp_box q0) (velocity_of velocity) (courant (fdec 5 (-1) * dt)%F (velocity_of velocity) (spacing (mg_grid m))) (seq 0 (List.length M)) u1 (mean u0 u1) v) /\
    incl (ids L') (ids L ++ ks).
Proof.
  intros m M L ks q0 q1 q2 dt velocity fuel u0 HR H0 N12. pose proof HR as (Hm & HL & Hc & Hk & Hf & Cb1 & Cb2 & Hfu & Ht & Hdt & Hv & Hx).
  destruct (adv_start m M L ks q0 q1 q2 dt velocity fuel u0 1 HR H0) as (n0 & n1 & n2 & P0 & P1 & P2 & F1 & F2 & Hg & E). cbn [Z.eqb] in E.
  inversion Hf as [|? ? Hf0 Hf']; subst. inversion Hf' as [|? ? Hf1 Hf'']; subst. inversion Hf'' as [|? ? Hf2 _]; subst.
  set (L2 := ensure (ensure L q1) q2) in *. set (u1 := field_or_zero L q1) in *.
  destruct (adv_inout_ok M q1 u1 (mg_grid m) velocity (fdec 5 (-1) * dt)%F Hf1 Hg Hv Hx) as (ls & E1 & E2 & E3). destruct (E3 (mean u0 u1)) as (v & V1 & V2).
  pose proof (pos_neq _ _ _ _ _ _ _ P1 P2 N12) as NN. assert (NB : nonempty (whole M q0)) by (apply (whole_valid M q0 Hf0)).
  exists (mgr_of (mg_grid m) M (field_set L2 q2 v) (mg_dt m) (mg_time m)), (field_set L2 q2 v). split.
  - rewrite E. unfold adv_stage_1. destruct (Nat.eqb_spec n1 n2); [congruence|].
    rewrite (get_chunk_ok _ _ _ _ _ _ _ _ (proj2 P0)). cbn [liftr]. rewrite (get_chunk_ok _ _ _ _ _ _ _ _ (proj2 P1)). cbn [liftr].
    rewrite !ec_if_of. cbn [if_range iface_of]. fold (whole M q0). rewrite (volume_ok _ (whole_valid M q0 Hf0)). cbn [liftr].
    rewrite (on_chunk_ok _ _ _ _ _ _ q2 (field_or_zero L q2) (mean u0 u1) _ (proj2 P2)).
    2:{ change (mkIface (range_of (whole M q0)) (map u0 (cells (whole M q0)))) with (iface_of (whole M q0) u0). unfold whole in *. rewrite Cb1, Cb2.
        rewrite !data_ok by exact NB. cbn [liftr]. rewrite adv_mean_of by exact NB. reflexivity. }
    cbn [obind]. match goal with |- context [mg_grid (mgr_of ?a ?b ?c ?d ?e)] => change (mg_grid (mgr_of a b c d e)) with a end. rewrite E1. cbn [liftr].
    refine (eq_trans (f_equal (fun x => obind x Done) (run_kernel_ok (mg_grid m) M (upd L2 n2 (q2, mean u0 u1)) (mg_dt m) (mg_time m) [n1] n2 [(q1, u1)] q2 (mean u0 u1) v ls [arr (whole M q1) u1] _ _ _ _ _ _ _)) _).
    + constructor; [|constructor]. rewrite nth_error_upd_neq by congruence. apply P1.
    + apply BaseFacts.nth_error_upd_eq. apply nth_error_Some. destruct P2. congruence.
    + cbn. intuition.
    + constructor; auto.
    + exact Hf2.
    + reflexivity.
    + cbn [map fst snd app]. unfold whole in *. rewrite Cb2, <- Cb1. exact V1.
    + cbn [obind]. assert (P2' : pos (field_set L2 q2 (mean u0 u1)) q2 (mean u0 u1) n2).
      { destruct P2 as [Q1 Q2]. rewrite <- (pos_upd L2 q2 _ n2 (mean u0 u1) F2 (conj Q1 Q2)). split.
        - rewrite <- Q1. apply idx_ids. unfold ids. rewrite upd_map. cbn [fst]. apply ParFacts.upd_same. rewrite nth_error_map, Q2. reflexivity.
        - apply BaseFacts.nth_error_upd_eq. apply nth_error_Some. congruence. }
      apply (f_equal (fun l => Done (mgr_of (mg_grid m) M l (mg_dt m) (mg_time m)))).
      refine (eq_trans (f_equal (fun l => upd l n2 (q2, v)) (pos_upd L2 q2 _ n2 (mean u0 u1) F2 P2)) _).
      refine (eq_trans (pos_upd (field_set L2 q2 (mean u0 u1)) q2 _ n2 v _ P2') _); [intros x Hin En; apply ids_set_in in Hin as [Hin| ->]; auto|].
      now rewrite set_set.
  - apply (adv_finish m M L ks q0 q1 q2 dt velocity fuel q2 v _ HR); [cbn; auto|]. cbv zeta. split; [|now rewrite <- Cb1].
    exists ls. unfold whole in *. rewrite <- Cb1. auto.
Qed.

Lemma api_other_stage : forall (m : mgr F) M (L : list (vid * fld)) ks q0 q1 q2 dt velocity fuel u0 tag, adv_ready m M L ks q0 q1 q2 dt velocity fuel ->
  field_get L q0 = Some u0 -> tag <> 0 -> tag <> 1 ->
  exists m', adv_solve fuel velocity [q0] [q1; q2] tag m = Done m' /\ mgr_holds m' M (ensure (ensure L q1) q2).
Proof.
  intros m M L ks q0 q1 q2 dt velocity fuel u0 tag HR H0 T0 T1.
  destruct (adv_start m M L ks q0 q1 q2 dt velocity fuel u0 tag HR H0) as (n0 & n1 & n2 & P0 & P1 & P2 & F1 & F2 & Hg & E).
  destruct (Z.eqb_spec tag 0); [congruence|]. destruct (Z.eqb_spec tag 1); [congruence|]. eexists. split; [exact E|].
  destruct HR as (Hm & HL & _ & _ & Hf & _). inversion Hf as [|? ? Hf0 Hf']; subst. inversion Hf' as [|? ? Hf1 Hf'']; subst. inversion Hf'' as [|? ? Hf2 _]; subst.
  apply mgr_holds_iff; [|auto]. unfold ensure. auto using fields_ok_set.
Qed.
End AdvectionFacts.

(** ** exact arithmetic *)
Open Scope R_scope.

Definition lsum (l : list R) : R := fold_right Rplus 0 l.

Lemma vget_split : forall (l : list R) i x, vget l i = Ok x -> exists a b, l = (a ++ x :: b)%list /\ Z.of_nat (List.length a) = i.
Proof.
  intros l i x H. unfold vget in H. destruct (Z.leb_spec 0 i); [|discriminate].
  destruct (nth_error l (Z.to_nat i)) as [y|] eqn:E; [|discriminate]. injection H as ->.
  apply nth_error_split in E as (a & b & -> & L). exists a, b. split; [reflexivity|lia].
Qed.

Lemma lsum_app : forall a b, lsum (a ++ b) = lsum a + lsum b.
Proof. unfold lsum. induction a as [|x a IH]; intros b; cbn; [lra|]. rewrite IH. lra. Qed.

Lemma vset_sum : forall (l : list R) i x y l', vget l i = Ok x -> vset l i y = Ok l' -> lsum l' = lsum l - x + y.
Proof.
  intros l i x y l' H E. apply vget_split in H as (a & b & -> & L).
  rewrite vset_ok in E by (rewrite app_length; cbn; lia). injection E as <-.
  replace (Z.to_nat i) with (List.length a) by lia. rewrite upd_mid, !lsum_app. cbn. lra.
Qed.

Lemma mread_1 : forall (a l : list R) i x, mread [a; l] 1 i = Ok x -> vget l i = Ok x.
Proof. intros. unfold mread in H. cbn in H. exact H. Qed.

Lemma mwrite_1 : forall (a l : list R) i x m, mwrite [a; l] 1 i x = Ok m -> exists l', vset l i x = Ok l' /\ m = [a; l'].
Proof.
  intros a l i x m H. unfold mwrite in H. cbn in H. destruct (vset l i x) as [l'| | |] eqn:E; try discriminate.
  cbn in H. injection H as <-. eauto.
Qed.

Tactic Notation "rstep" hyp(H) ident(x) ident(E) := match type of H with bind ?r _ = _ => destruct r as [x| | |] eqn:E; try discriminate H; cbn [bind] in H end.

Lemma iter_sum : forall s k i (a l : list R) m, trun (adv_iter s k i) [a; l] = Ok m -> exists l', m = [a; l'] /\ lsum l' = lsum l.
Proof.
  intros s k i a l m H. unfold adv_iter in H. cbn [trun] in H.
  rstep H vc E1. rstep H vn E2. rstep H vp E3. rstep H x E4. set (f := adv_flux k vn vc vp) in *. rstep H m1 E5.
  apply mread_1 in E4. apply mwrite_1 in E5 as (l1 & E5 & ->). rstep H y E6. rstep H m2 E7. injection H as <-.
  apply mread_1 in E6. apply mwrite_1 in E7 as (l2 & E7 & ->). exists l2. split; [reflexivity|].
  rewrite (vset_sum _ _ _ _ _ E6 E7), (vset_sum _ _ _ _ _ E4 E5). cbn [fadd fsub RArith]. lra.
Qed.

Lemma seq_sum : forall s k is (a l : list R) m, seq_run (map (adv_iter s k) is) [a; l] = Ok m -> exists l', m = [a; l'] /\ lsum l' = lsum l.
Proof.
  induction is as [|i is IH]; intros a l m H; cbn [map seq_run] in H; [injection H as <-; eauto|].
  rstep H m1 E. apply iter_sum in E as (l1 & -> & S1). apply IH in H as (l2 & -> & S2). exists l2. split; [reflexivity|lra].
Qed.

Lemma loops_sum : forall ls (a l : list R) m, Forall is_adv ls -> loops_run ls [a; l] = Ok m -> exists l', m = [a; l'] /\ lsum l' = lsum l.
Proof.
  induction ls as [|t ls IH]; intros a l m HF H; cbn [loops_run] in H; [injection H as <-; eauto|].
  inversion HF as [|? ? (s & k & is & -> & _) HF']; subst.
  rstep H m1 E. apply seq_sum in E as (l1 & -> & S1). apply IH in H as (l2 & -> & S2); auto. exists l2. split; [reflexivity|lra].
Qed.

(** The total over the whole chunk. *)
Lemma adv_ran_total : forall M k (u w v : field R), adv_ran M k u w v -> total (grow 2 M ++ comp_box k) v = total (grow 2 M ++ comp_box k) w.
Proof.
  intros M k u w v (ls & HF & E). apply loops_sum in E as (l' & E & S); auto. injection E as E. rewrite <- E in S. exact S.
Qed.

(** Constant data. *)
Lemma upwind_const : forall k x : R, upwind k x x x = k * x.
Proof. intros. unfold upwind. cbn [fmul fadd fsub RArith]. ring. Qed.

Lemma const_inflow : forall vel cf (u : field R) d c x, (forall t, (-2 <= t <= 2)%Z -> u (move d t c) = x) -> u c = x ->
  inflow vel cf u d c = cf d * x.
Proof.
  intros vel cf u d c x H H0. unfold inflow. cbv zeta. rewrite !H by (unfold downwind; destruct (upwards vel d); lia). rewrite H0. apply upwind_const.
Qed.

Lemma in_interior_whole : forall M D c, shape M D 2 -> in_box (M ++ D) c -> in_box (grow 2 M ++ D) c.
Proof.
  intros M D c Sh Hc. destruct M as [|iv M]; [exact Hc|].
  assert (E : c = move 0 0 c). { symmetry. apply move_0. apply Forall2_length in Hc. cbn in Hc. lia. }
  rewrite E. apply move_whole; auto; cbn; lia.
Qed.

Lemma const_flow : forall M D vel cf ds (u r v : field R) x, shape M D 2 -> Forall (fun d => (d < List.length M)%nat) ds ->
  (forall c, in_box (grow 2 M ++ D) c -> u c = x) -> flowed M D vel cf ds u r v ->
  forall c, in_box (M ++ D) c -> v c = r c.
Proof.
  intros M D vel cf ds u r v x Sh Hds HU HF c Hc. rewrite HF by exact Hc. clear HF v.
  revert r. induction Hds as [|d ds Hd Hds IH]; intros r; cbn [fold_left]; [reflexivity|]. rewrite IH.
  assert (Ld : (d < List.length c)%nat) by (apply Forall2_length in Hc; rewrite app_length in Hc; lia).
  assert (HM : forall t, (-2 <= t <= 2)%Z -> u (move d t c) = x) by (intros; apply HU, move_whole; auto; lia).
  assert (U0 : u c = x) by (apply HU; now apply in_interior_whole).
  unfold flow, inflow. cbv zeta. rewrite !move_move by exact Ld. unfold downwind.
  destruct (upwards vel d); cbn [Z.opp Z.mul Pos.mul Z.add Z.pos_sub Pos.pred_double]; rewrite !HM by lia; rewrite ?U0, !upwind_const; cbn [fadd fsub RArith]; ring.
Qed.

(** The flow as fluxes through walls. *)
Lemma flowed_fluxes : forall M P n vel cf ds (u r v : field R), Forall (fun d => (d < List.length M)%nat) ds ->
  flowed M (P ++ [(0%Z, n)]) vel cf ds u r v -> fluxes_added M P n (adv_wall vel cf u) (fun _ => 1) ds r v.
Proof.
  intros M P n vel cf ds u r v Hds HF x j Hx Hj. rewrite HF by (rewrite app_assoc; now apply snoc_in).
  assert (L : List.length x = (List.length M + List.length P)%nat) by (apply Forall2_length in Hx; rewrite app_length in Hx; lia).
  assert (G : forall r1 (r2 : list Z -> Z -> R), r1 (x ++ [j])%list = r2 x j ->
    fold_left (flow vel cf u) ds r1 (x ++ [j])%list = fold_left (with_fluxes (adv_wall vel cf u) (fun _ => 1)) ds r2 x j).
  { clear - Hds L. induction Hds as [|d ds Hd Hds IH]; intros r1 r2 E; cbn [fold_left]; [exact E|]. apply IH.
    assert (Ld : (d < List.length x)%nat) by lia.
    unfold flow, with_fluxes, adv_wall. rewrite E. destruct (upwards vel d).
    - rewrite move_snoc by exact Ld. cbn [fadd fsub fdiv RArith]. unfold Rdiv. rewrite Rinv_1. ring.
    - rewrite !move_snoc by exact Ld. rewrite move_move by exact Ld. cbn [Z.add Z.pos_sub]. rewrite move_0 by exact Ld.
      cbn [fadd fsub fdiv fneg RArith]. unfold Rdiv. rewrite Rinv_1. ring. }
  now apply G.
Qed.

Lemma adv_wall_ext : forall n vel cf (u : field R) j d x x', (0 <= j < n)%Z -> (d < List.length x)%nat -> (d < List.length x')%nat ->
  (forall t i, (-2 <= t <= 1)%Z -> (0 <= i < n)%Z -> u (move d t x ++ [i]) = u (move d t x' ++ [i])) ->
  adv_wall vel cf u d x j = adv_wall vel cf u d x' j.
Proof.
  intros n vel cf u j d x x' Hj L1 L2 H. unfold adv_wall, inflow. cbv zeta.
  assert (H0 : u (x ++ [j])%list = u (x' ++ [j])%list).
  { specialize (H 0%Z j ltac:(lia) Hj). now rewrite !move_0 in H by assumption. }
  unfold downwind. destruct (upwards vel d).
  - rewrite !move_snoc by assumption. now rewrite !H, H0 by lia.
  - f_equal. rewrite !move_snoc by (rewrite move_length; assumption). rewrite !move_move by assumption.
    cbn [Z.opp Z.mul Pos.mul Z.add Z.pos_sub Pos.pred_double]. now rewrite !H by lia.
Qed.

Lemma periodic_flow : forall M P n vel cf ds (u r v : field R) j, nonempty (M ++ P) -> Forall (fun d => (d < List.length M)%nat) ds -> (0 <= j < n)%Z ->
  flowed M (P ++ [(0%Z, n)]) vel cf ds u r v -> periodic_field M P n ds u ->
  total (M ++ P) (fun x => v (x ++ [j])%list) = total (M ++ P) (fun x => r (x ++ [j])%list).
Proof.
  intros M P n vel cf ds u r v j HN Hds Hj HF HP. apply flowed_fluxes in HF; auto.
  assert (E : total (M ++ P) (fun x => v (x ++ [j])%list - r (x ++ [j])%list) = 0).
  { apply (periodic_balanced_gen M P n (adv_wall vel cf u) u (fun _ => 1) ds); auto.
    intros d x x' Hin L1 L2 H. now apply (adv_wall_ext n). }
  rewrite total_minus in E. lra.
Qed.

(** ** the loops run in parallel *)
Open Scope Z_scope.
Section Parallel.
Context {F : Type} {A : Arith F}.

Lemma psteps_trans : forall c1 c2 c3 : list (thr F) * mem F, psteps c1 c2 -> psteps c2 c3 -> psteps c1 c3.
Proof. induction 1; auto. intros. econstructor; eauto. Qed.

(** Run one iteration up to its [n]th memory operation. *)
Inductive one_steps : thr F * mem F -> thr F * mem F -> Prop :=
| one_refl : forall c, one_steps c c
| one_rd : forall m a i k v c, mread m a i = Ok v -> one_steps (k v, m) c -> one_steps (Rd a i k, m) c
| one_wr : forall m a i v t m' c, mwrite m a i v = Ok m' -> one_steps (t, m') c -> one_steps (Wr a i v t, m) c.

Lemma one_psteps : forall c c', one_steps c c' -> forall ts n, nth_error ts n = Some (fst c) -> psteps (ts, snd c) (upd ts n (fst c'), snd c').
Proof.
  induction 1 as [[t m]|m a i k v c H H1 IH|m a i v t m' c H H1 IH]; intros ts n E; cbn [fst snd] in *.
  - rewrite ParFacts.upd_same by exact E. apply psteps_refl.
  - eapply psteps_step; [eapply pstep_rd; eauto|].
    assert (n < List.length ts)%nat by (apply nth_error_Some; congruence).
    specialize (IH (upd ts n (k v)) n ltac:(now apply BaseFacts.nth_error_upd_eq)). now rewrite upd_upd in IH.
  - eapply psteps_step; [eapply pstep_wr; eauto|].
    assert (n < List.length ts)%nat by (apply nth_error_Some; congruence).
    specialize (IH (upd ts n t) n ltac:(now apply BaseFacts.nth_error_upd_eq)). now rewrite upd_upd in IH.
Qed.

Lemma In_upd : forall T (l : list T) n x y, In y (upd l n x) -> y = x \/ In y l.
Proof. induction l as [|z l IH]; intros [|n] x y H; cbn in *; try tauto; destruct H as [<-|H]; auto. apply IH in H. tauto. Qed.

(** Two iterations [s] apart race. *)
Lemma adv_race : forall s k N is n1 n2 i (fa fb : Z -> F), s <> 0 -> nth_error is n1 = Some i -> nth_error is n2 = Some (i + s) ->
  0 <= i < N -> 0 <= i + s < N -> 0 <= i - s < N -> 0 <= i - 2 * s < N ->
  exists ts m, psteps (map (adv_iter s k) is, mtab N [fa; fb]) (ts, m) /\ racing ts.
Proof.
  intros s k N is n1 n2 i fa fb Hs E1 E2 B0 B1 B2 B3.
  assert (NE : n1 <> n2) by (intros ->; rewrite E1 in E2; injection E2; lia).
  set (ts := map (adv_iter s k) is).
  assert (T1 : nth_error ts n1 = Some (adv_iter s k i)) by (unfold ts; now rewrite nth_error_map, E1).
  assert (T2 : nth_error ts n2 = Some (adv_iter s k (i + s))) by (unfold ts; now rewrite nth_error_map, E2).
  (* the later iteration up to its first access to b *)
  assert (R : forall (f : Z -> F) j g, 0 <= j < N -> mread (mtab N [f; g]) 0 j = Ok (f j)) by (intros; now apply mtab_read).
  assert (R1 : forall (f : Z -> F) j g, 0 <= j < N -> mread (mtab N [f; g]) 1 j = Ok (g j)) by (intros; now apply mtab_read).
  assert (X2 : exists kk, one_steps (adv_iter s k (i + s), mtab N [fa; fb]) (Rd 1 (i + s - s) kk, mtab N [fa; fb])).
  { eexists. unfold adv_iter. do 3 (eapply one_rd; [apply R; lia|]; cbv beta). apply one_refl. }
  destruct X2 as (kk & X2). apply one_psteps with (ts := ts) (n := n2) in X2; [|exact T2]. cbn [fst snd] in X2.
  assert (X1 : exists v t fb', one_steps (adv_iter s k i, mtab N [fa; fb]) (Wr 1 i v t, mtab N [fa; fb'])).
  { eexists _, _, _. unfold adv_iter. do 3 (eapply one_rd; [apply R; lia|]; cbv beta zeta). eapply one_rd; [apply R1; lia|]. cbv beta.
    eapply one_wr; [apply (mtab_write N [fa; fb] 1 fb); [reflexivity|lia]|]. cbn [upd]. eapply one_rd; [apply R1; lia|]. cbv beta. apply one_refl. }
  destruct X1 as (v & t & fb' & X1). apply one_psteps with (ts := upd ts n2 (Rd 1 (i + s - s) kk)) (n := n1) in X1.
  2:{ rewrite nth_error_upd_neq by congruence. exact T1. }
  cbn [fst snd] in X1.
  eexists _, _. split; [eapply psteps_trans; [exact X2|exact X1]|].
  assert (L1 : (n1 < List.length ts)%nat) by (apply nth_error_Some; congruence).
  assert (L2 : (n2 < List.length ts)%nat) by (apply nth_error_Some; congruence).
  exists n1, n2. eexists _, _, 1%nat, i, true, false. split; [exact NE|]. split; [apply BaseFacts.nth_error_upd_eq; now rewrite upd_length|].
  split; [rewrite nth_error_upd_neq by congruence; now apply BaseFacts.nth_error_upd_eq|].
  split; [reflexivity|]. split; [|reflexivity]. cbn [next_op]. do 3 f_equal. lia.
Qed.

(** Accesses in bounds of arrays of [N] elements, whatever the values read. *)
Inductive inside (N : Z) : thr F -> Prop :=
| inside_ret : inside N Ret
| inside_rd : forall a i k, (a < 2)%nat -> 0 <= i < N -> (forall v, inside N (k v)) -> inside N (Rd a i k)
| inside_wr : forall a i v t, (a < 2)%nat -> 0 <= i < N -> inside N t -> inside N (Wr a i v t).

Lemma inside_steps : forall N c c', psteps c c' -> Forall (inside N) (fst c) -> (exists fa fb, snd c = mtab N [fa; fb]) ->
  Forall (inside N) (fst c') /\ exists fa fb, snd c' = mtab N [fa; fb].
Proof.
  intros N c c' H. induction H as [c|c c1 c2 H H1 IH]; intros HF HM; [auto|]. apply IH; clear IH H1.
  - destruct H as [ts m n a i k v E R|ts m n a i v t m' E W]; cbn [fst snd] in *; rewrite Forall_forall in *.
    + pose proof (HF _ (nth_error_In _ _ E)) as I. inversion I; subst. intros x Hx. apply In_upd in Hx as [->|Hx]; auto.
    + pose proof (HF _ (nth_error_In _ _ E)) as I. inversion I; subst. intros x Hx. apply In_upd in Hx as [->|Hx]; auto.
  - destruct H as [ts m n a i k v E R|ts m n a i v t m' E W]; cbn [fst snd] in *; auto.
    rewrite Forall_forall in HF. pose proof (HF _ (nth_error_In _ _ E)) as I. inversion I as [| |? ? ? ? A1 A2 A3]; subst.
    destruct HM as (fa & fb & ->). destruct a as [|[|a]]; [| |lia].
    + rewrite (mtab_write N _ 0%nat fa) in W by (auto; lia). injection W as <-. eexists _, _. reflexivity.
    + rewrite (mtab_write N _ 1%nat fb) in W by (auto; lia). injection W as <-. eexists _, _. reflexivity.
Qed.

Lemma inside_not_faulty : forall N ts m, Forall (inside N) ts -> (exists fa fb, m = mtab N [fa; fb]) -> ~ faulty (ts, m).
Proof.
  intros N ts m HF (fa & fb & ->) (n & t & E & H). cbn [fst snd] in *. rewrite Forall_forall in HF. specialize (HF _ (nth_error_In _ _ E)).
  inversion HF as [|a i k A1 A2 A3|a i v t' A1 A2 A3]; subst; auto; destruct H as (u & H); (destruct a as [|[|a]]; [| |lia]).
  - rewrite (mtab_read N _ 0%nat fa) in H by (auto; lia). discriminate.
  - rewrite (mtab_read N _ 1%nat fb) in H by (auto; lia). discriminate.
  - rewrite (mtab_write N _ 0%nat fa) in H by (auto; lia). discriminate.
  - rewrite (mtab_write N _ 1%nat fb) in H by (auto; lia). discriminate.
Qed.

Lemma adv_inside : forall s k N i, 0 <= i < N -> 0 <= i - s < N -> 0 <= i - 2 * s < N -> inside N (adv_iter s k i).
Proof. intros. unfold adv_iter. repeat (constructor; auto; intros). Qed.

(** The loop of one dimension, concretely. *)
Lemma adv_sweep_loop : forall gr M D (u : field F) d velocity v dt dx, shape M D 2 -> (d < List.length M)%nat ->
  vget velocity (Z.of_nat d) = Ok v -> grid_dx gr (Z.of_nat d) = Ok dx ->
  let N := prod_len (grow 2 M ++ D) in let s := prod_len (skipn (S d) (grow 2 M ++ D)) in let k := fabs (dt * v / dx)%F in
  0 < s /\ 5 * s <= N /\
  adv_sweep dt velocity gr (echunk_of M D 2 u) (Z.of_nat d) =
    Ok (if flt f0 v then map (adv_iter s k) (blocks (2 * s) 1 (Z.to_nat (N - 1 - 2 * s)))
        else map (adv_iter (0 - s) k) (blocks 0 1 (Z.to_nat (N - 2 * s)))).
Proof.
  intros gr M D u d velocity v dt dx Sh Hd Hv Hx N s k. pose proof (shape_valid _ _ _ Sh) as V. set (b := grow 2 M ++ D) in *.
  assert (NB : nonempty b) by apply V. assert (VB : prod_len b <= int_max) by apply V.
  destruct (nth_error M d) as [[l0 u0]|] eqn:Em; [|apply nth_error_None in Em; lia].
  assert (Bn : nth_error b d = Some (l0 - 2, u0 + 2)).
  { unfold b. rewrite nth_error_app1 by (unfold grow; rewrite map_length; lia). unfold grow. now rewrite nth_error_map, Em. }
  assert (Hs : 0 < s). { apply prod_len_pos. unfold nonempty in *. rewrite Forall_forall in *. intros x Hin. apply NB. rewrite <- (firstn_skipn (S d) b). apply in_or_app. auto. }
  assert (Hpl : 5 * s <= N).
  { pose proof Bn as Bn'. apply nth_error_split in Bn' as (p & q & Eb & Lp). unfold s, N. rewrite Eb.
    replace (S d) with (List.length (p ++ [(l0 - 2, u0 + 2)])) by (rewrite app_length; cbn; lia).
    replace (p ++ (l0 - 2, u0 + 2) :: q) with ((p ++ [(l0 - 2, u0 + 2)]) ++ q) by (now rewrite <- app_assoc).
    rewrite skipn_app, skipn_all, Nat.sub_diag. cbn [app skipn]. rewrite !prod_len_app. cbn [prod_len fst snd].
    assert (Np : nonempty p /\ nonempty q).
    { rewrite Eb in NB. apply nonempty_app in NB as [N1 N2]. inversion N2; subst. split; auto. }
    destruct Np as [Np Nq]. pose proof (prod_len_pos _ Np). pose proof (prod_len_pos _ Nq).
    assert (l0 < u0). { assert (NM : nonempty M) by apply Sh. unfold nonempty in NM. rewrite Forall_forall in NM. apply nth_error_In in Em. now apply (NM (l0, u0)). }
    assert (5 * prod_len q <= (u0 + 2 - (l0 - 2)) * prod_len q) by (apply Z.mul_le_mono_nonneg_r; lia).
    assert (1 * ((u0 + 2 - (l0 - 2)) * prod_len q) <= prod_len p * ((u0 + 2 - (l0 - 2)) * prod_len q)) by (apply Z.mul_le_mono_nonneg_r; lia).
    rewrite Z.mul_1_r. lia. }
  split; [exact Hs|]. split; [exact Hpl|].
  unfold adv_sweep. rewrite Hv. cbn [bind]. rewrite ec_if_of. cbn [if_range iface_of]. fold b.
  rewrite (range_stride_of b d _ Bn). cbn [bind]. fold s. rewrite (volume_ok b V). cbn [bind]. fold N.
  unfold imul, isub. fold N in VB. rewrite chk_ok by (unfold is_int, int_min, int_max in *; lia). cbn [bind]. rewrite Hx. cbn [bind]. fold k.
  assert (KEY : forall s0 start end_, 0 <= start < end_ -> end_ <= N -> adv_iterate start end_ s0 k = Ok (map (adv_iter s0 k) (blocks start 1 (Z.to_nat (end_ - start))))).
  { intros s0 start end_ Hr He. unfold adv_iterate. rewrite int_loop_blocks; try lia.
    - cbn [bind]. do 4 f_equal. replace (end_ - start + 1 - 1) with (end_ - start) by lia. apply Z.div_1_r.
    - replace (end_ - start + 1 - 1) with (end_ - start) by lia. rewrite Z.div_1_r. lia. }
  destruct (flt f0 v).
  - rewrite chk_ok by (unfold is_int, int_min, int_max in *; lia). cbn [bind]. apply KEY; lia.
  - rewrite chk_ok by (unfold is_int, int_min, int_max in *; lia). cbn [bind]. rewrite chk_ok by (unfold is_int, int_min, int_max in *; lia). cbn [bind].
    rewrite KEY by lia. do 4 f_equal. lia.
Qed.

Lemma blocks_nth : forall start K i, 0 <= i < Z.of_nat K -> nth_error (blocks start 1 K) (Z.to_nat i) = Some (start + i).
Proof.
  intros start K i H. unfold blocks. rewrite nth_error_map, (nth_error_nth' _ 0%nat) by (rewrite seq_length; lia).
  rewrite seq_nth by lia. cbn. f_equal. lia.
Qed.

Lemma adv_always_races : forall gr M D (u w : field F) d velocity v dt dx, shape M D 2 -> (d < List.length M)%nat ->
  vget velocity (Z.of_nat d) = Ok v -> grid_dx gr (Z.of_nat d) = Ok dx ->
  exists l, adv_sweep dt velocity gr (echunk_of M D 2 u) (Z.of_nat d) = Ok l /\
    exists ts m, psteps (l, [arr (grow 2 M ++ D) u; arr (grow 2 M ++ D) w]) (ts, m) /\ racing ts.
Proof.
  intros gr M D u w d velocity v dt dx Sh Hd Hv Hx. destruct (adv_sweep_loop gr M D u d velocity v dt dx Sh Hd Hv Hx) as (Hs & HN & E).
  set (b := grow 2 M ++ D) in *. set (s := prod_len (skipn (S d) b)) in *. set (N := prod_len b) in *.
  eexists. split; [exact E|]. assert (NB : nonempty b) by (apply (shape_valid _ _ _ Sh)).
  rewrite !arr_tab by exact NB. fold N. destruct (flt f0 v).
  - apply (adv_race s _ N _ 0%nat (Z.to_nat s) (2 * s)); try lia.
    + rewrite (blocks_nth _ _ 0) by lia. f_equal. lia.
    + rewrite blocks_nth by lia. f_equal.
  - apply (adv_race (0 - s) _ N _ (Z.to_nat s) 0%nat s); try lia.
    + rewrite blocks_nth by lia. f_equal.
    + rewrite (blocks_nth _ _ 0) by lia. f_equal. lia.
Qed.

Lemma adv_never_faulty : forall gr M D (u w : field F) d velocity v dt dx, shape M D 2 -> (d < List.length M)%nat ->
  vget velocity (Z.of_nat d) = Ok v -> grid_dx gr (Z.of_nat d) = Ok dx ->
  exists l, adv_sweep dt velocity gr (echunk_of M D 2 u) (Z.of_nat d) = Ok l /\
    forall c, psteps (l, [arr (grow 2 M ++ D) u; arr (grow 2 M ++ D) w]) c -> ~ faulty c.
Proof.
  intros gr M D u w d velocity v dt dx Sh Hd Hv Hx. destruct (adv_sweep_loop gr M D u d velocity v dt dx Sh Hd Hv Hx) as (Hs & HN & E).
  set (b := grow 2 M ++ D) in *. set (s := prod_len (skipn (S d) b)) in *. set (N := prod_len b) in *.
  eexists. split; [exact E|]. assert (NB : nonempty b) by (apply (shape_valid _ _ _ Sh)).
  rewrite !arr_tab by exact NB. fold N. intros [ts m] H. apply inside_steps with (N := N) in H as (H1 & H2).
  - now apply (inside_not_faulty N).
  - cbn [fst]. rewrite Forall_forall. intros t Ht.
    destruct (flt f0 v); apply in_map_iff in Ht as (i & <- & Hi); unfold blocks in Hi; apply in_map_iff in Hi as (j & <- & Hj); apply in_seq in Hj; apply adv_inside; lia.
  - cbn [snd]. eexists _, _. reflexivity.
Qed.

End Parallel.
