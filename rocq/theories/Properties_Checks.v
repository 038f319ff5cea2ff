(** * Properties of the range checks of the debug build (C69). *)
From Coq Require Import ZArith List String Lia Bool Reals Lra.
From Verif Require Import Base BaseFacts BoxSpec BoxFacts Range RangeSpec RangeFacts Indexer IndexerFacts Interface InterfaceFacts
  ApiSpec ApiFacts IndexerCopy IndexerCopyFacts Arith ArithR Manager Grid GridSpec GridFacts VtkSpec Checks Properties_Grid.
Import ListNotations.
Open Scope Z_scope.

(** ** indexer *)

(** The next() of the debug build is that of the release build: its own calls of
    increment pass the check. *)
Lemma dbg_inc_dim_same : forall d ix, (Z.of_nat d <= r_nd (ix_sup ix)) -> dbg_inc_dim d ix = inc_dim d ix.
Proof.
  induction d as [|d IH]; intros ix H; [reflexivity|]. cbn [dbg_inc_dim inc_dim].
  destruct (vget (ix_idx ix) (Z.of_nat d)) as [x| | |]; try reflexivity. cbn [bind].
  destruct (vget (r_upper (ix_sub ix)) (Z.of_nat d)) as [u| | |]; try reflexivity. cbn [bind].
  destruct (isub u 1) as [last| | |]; try reflexivity. cbn [bind]. destruct (x =? last).
  - destruct (vget (r_lower (ix_sub ix)) (Z.of_nat d)) as [l| | |]; try reflexivity. cbn [bind].
    destruct (vset (ix_idx ix) (Z.of_nat d) l) as [idx| | |]; try reflexivity. cbn [bind].
    destruct (range_length (ix_sub ix) (Z.of_nat d)) as [len| | |]; try reflexivity. cbn [bind].
    destruct (isub len 1) as [len1| | |]; try reflexivity. cbn [bind].
    destruct (vget (r_stride (ix_sup ix)) (Z.of_nat d)) as [s| | |]; try reflexivity. cbn [bind].
    destruct (imul len1 s) as [m| | |]; try reflexivity. cbn [bind].
    destruct (isub (ix_lin ix) m) as [lin| | |]; try reflexivity. cbn [bind]. apply IH. cbn. lia.
  - unfold dbg_increment, ix_dim_bad. destruct (Z.ltb_spec (Z.of_nat d) 0), (Z.ltb_spec (r_nd (ix_sup ix)) (Z.of_nat d)); try lia. reflexivity.
Qed.

Theorem C69_next : forall sup sub b bs ix0 os ix, observes sup b -> observes sub bs -> strides_fit b -> strides_fit bs ->
  indexer_make sub sup = Ok ix0 -> ix_steps ix0 os = Ok ix -> dbg_next ix = indexer_next ix.
Proof.
  intros sup sub b bs ix0 os ix Hb Hs Fb Fs E0 E.
  destruct (made_frame _ _ _ _ _ Hb Hs Fb Fs E0) as (A & _ & _). destruct (steps_frame _ _ _ E) as (A' & _ & _).
  unfold dbg_next, indexer_next. apply dbg_inc_dim_same. rewrite A', A, (proj1 Hb). lia.
Qed.
Print Assumptions C69_next.

Lemma ix_frame : forall sup sub b bs ix0 os ix, observes sup b -> observes sub bs -> strides_fit b -> strides_fit bs ->
  indexer_make sub sup = Ok ix0 -> ix_steps ix0 os = Ok ix ->
  observes (ix_sup ix) b /\ List.length (ix_idx ix) = List.length b.
Proof.
  intros sup sub b bs ix0 os ix Hb Hs Fb Fs E0 E.
  destruct (made_frame _ _ _ _ _ Hb Hs Fb Fs E0) as (A & _ & C). destruct (steps_frame _ _ _ E) as (A' & _ & C').
  rewrite A', A. split; [exact Hb|congruence].
Qed.

(** For every dimension number but one, the checks of every indexer a client can
    have do what they are for: a dimension the indexer has is served as in the
    release build, any other is reported.  Partial: the number of dimensions
    itself, refuted below. *)
Theorem C69_indexer_partial : forall sup sub b bs ix0 os ix dim,
  observes sup b -> observes sub bs -> strides_fit b -> strides_fit bs ->
  indexer_make sub sup = Ok ix0 -> ix_steps ix0 os = Ok ix -> dim <> Z.of_nat (List.length b) ->
  (0 <= dim < Z.of_nat (List.length b) ->
     (exists x, nth_error (ix_idx ix) (Z.to_nat dim) = Some x /\ dbg_at ix dim = Ok x /\ dbg_index ix dim = Ok x) /\
     dbg_increment ix dim = indexer_increment ix dim /\ dbg_decrement ix dim = indexer_decrement ix dim) /\
  (~ 0 <= dim < Z.of_nat (List.length b) ->
     dbg_at ix dim = Exn "qk::indexer::operator[] : Dimension out of range." /\
     dbg_index ix dim = Exn "qk::indexer::index : Dimension out of range." /\
     dbg_increment ix dim = Exn "qk::indexer::increment : Dimension out of range." /\
     dbg_decrement ix dim = Exn "qk::indexer::decrement : Dimension out of range.").
Proof.
  intros sup sub b bs ix0 os ix dim Hb Hs Fb Fs E0 E ND.
  destruct (ix_frame _ _ _ _ _ _ _ Hb Hs Fb Fs E0 E) as (HO & HL). pose proof (proj1 HO) as NB.
  unfold dbg_at, dbg_index, dbg_increment, dbg_decrement, ix_dim_bad. rewrite NB. split; intros H.
  - destruct (Z.ltb_spec dim 0), (Z.ltb_spec (Z.of_nat (List.length b)) dim); try lia. cbn [orb].
    split; [|auto]. unfold vget. destruct (Z.leb_spec 0 dim); [|lia].
    destruct (nth_error (ix_idx ix) (Z.to_nat dim)) as [x|] eqn:EN; [eauto|]. apply nth_error_None in EN. lia.
  - destruct (Z.ltb_spec dim 0); [cbn [orb]; auto|]. destruct (Z.ltb_spec (Z.of_nat (List.length b)) dim); [cbn [orb]; auto|lia].
Qed.
Print Assumptions C69_indexer_partial.

(** Refuted: the number of dimensions passes the checks (dim > _num_dims instead of
    dim >= _num_dims) and the access is outside the arrays, for every indexer. *)
Theorem C69_indexer_refuted : forall sup sub b bs ix0 os ix,
  observes sup b -> observes sub bs -> strides_fit b -> strides_fit bs ->
  indexer_make sub sup = Ok ix0 -> ix_steps ix0 os = Ok ix ->
  let dim := Z.of_nat (List.length b) in
  dbg_at ix dim = UB OutOfBounds /\ dbg_index ix dim = UB OutOfBounds /\
  dbg_increment ix dim = UB OutOfBounds /\ dbg_decrement ix dim = UB OutOfBounds.
Proof.
  intros sup sub b bs ix0 os ix Hb Hs Fb Fs E0 E dim.
  destruct (ix_frame _ _ _ _ _ _ _ Hb Hs Fb Fs E0 E) as (HO & HL). pose proof (proj1 HO) as NB.
  destruct HO as (_ & _ & _ & HU). specialize (HU dim ltac:(unfold dim; lia)). destruct HU as (_ & _ & HU). unfold range_stride in HU.
  unfold dbg_at, dbg_index, dbg_increment, dbg_decrement, ix_dim_bad. rewrite NB. fold dim.
  destruct (Z.ltb_spec dim 0); [unfold dim in *; lia|]. destruct (Z.ltb_spec dim dim); [lia|]. cbn [orb].
  assert (V : vget (ix_idx ix) dim = UB OutOfBounds).
  { unfold vget. destruct (Z.leb_spec 0 dim); [|lia]. destruct (nth_error _ _) eqn:EN; [|reflexivity].
    assert (HS : nth_error (ix_idx ix) (Z.to_nat dim) <> None) by congruence. apply nth_error_Some in HS. unfold dim in HS. lia. }
  rewrite V. unfold indexer_increment, indexer_decrement. rewrite HU. repeat split.
Qed.
Print Assumptions C69_indexer_refuted.

Example C69_indexer_ex : exists ix, indexer_make (range_of [(1, 3); (2, 4)]) (range_of [(0, 4); (0, 5)]) = Ok ix /\
  dbg_at ix 1 = Ok 2 /\ dbg_at ix 3 = Exn "qk::indexer::operator[] : Dimension out of range." /\
  dbg_index ix (-1) = Exn "qk::indexer::index : Dimension out of range." /\ dbg_at ix 2 = UB OutOfBounds /\
  exists ix', dbg_next ix = Ok ix' /\ ix_idx ix' = [1; 3].
Proof. eexists. split; [vm_compute; reflexivity|]. repeat split. eexists. split; [vm_compute; reflexivity|reflexivity]. Qed.

(** ** data(idx) of containers *)

(** An indexer that has been moved anywhere by increments and decrements: data(idx)
    gives the element at its offset if the container has one, and else reports
    the mistake; there is no access outside the container. *)
Theorem C69_data_partial : forall T (i : iface T) b ix c os ix', valid_box b -> container i b ->
  points (if_range i) ix c -> Forall is_walk os -> ix_steps ix os = Ok ix' ->
  (0 <= offset b (ix_idx ix') < prod_len b ->
     dbg_data i ix' = Ok (offset b (ix_idx ix')) /\
     exists v, nth_error (if_data i) (Z.to_nat (offset b (ix_idx ix'))) = Some v /\ dbg_elem i ix' = Ok v) /\
  (~ 0 <= offset b (ix_idx ix') < prod_len b ->
     dbg_elem i ix' = Exn "qk::indexer_interface::data : Indexer out of range.").
Proof.
  intros T i b ix c os ix' V (HC & HL) HP HW E.
  rewrite <- (api_walk _ _ _ _ _ _ V HC HP HW E). rewrite <- HL. set (p := ix_lin ix').
  unfold dbg_elem, dbg_data. fold p. split; intros H.
  - destruct (Z.ltb_spec p 0), (Z.leb_spec (Z.of_nat (List.length (if_data i))) p); try lia. cbn [orb bind]. split; [reflexivity|].
    unfold vget. destruct (Z.leb_spec 0 p); [|lia]. destruct (nth_error (if_data i) (Z.to_nat p)) as [v|] eqn:EN; [eauto|].
    apply nth_error_None in EN. lia.
  - destruct (Z.ltb_spec p 0); [reflexivity|]. destruct (Z.leb_spec (Z.of_nat (List.length (if_data i))) p); [reflexivity|lia].
Qed.
Print Assumptions C69_data_partial.

(** An indexer that stands at a cell gives the element of that cell. *)
Theorem C69_data_cell : forall T (i : iface T) b ix c, valid_box b -> container i b -> points (if_range i) ix c ->
  exists v, dbg_elem i ix = Ok v /\ iface_elem i c = Ok v.
Proof.
  intros T i b ix c V HC HP. destruct (api_points_lin _ _ _ _ V (proj1 HC) HP) as (Hc & EL & Hb).
  destruct (api_read_total _ _ _ _ V HC Hc) as (v & Ev). exists v. split; [|exact Ev].
  rewrite <- (api_read_ix _ _ _ _ _ V HC HP) in Ev. unfold iface_get in Ev. unfold dbg_elem, dbg_data.
  rewrite EL in *. destruct HC as [_ HL]. destruct (Z.ltb_spec (offset b c) 0), (Z.leb_spec (Z.of_nat (List.length (if_data i))) (offset b c)); try lia.
  exact Ev.
Qed.
Print Assumptions C69_data_cell.

(** Refuted: a cell outside the container's range is not always reported.  In every
    two-dimensional container with two rows, the indexer moved beyond the end of
    the first row is accepted and gives the first element of the second row. *)
Theorem C69_data_refuted : forall T (i : iface T) l0 u0 l1 u1, let b := [(l0, u0); (l1, u1)] in
  valid_box b -> l0 + 1 < u0 -> container i b ->
  forall ix, points (if_range i) ix [l0; u1 - 1] ->
  exists ix' v, ix_steps ix [IxInc 1] = Ok ix' /\ ix_idx ix' = [l0; u1] /\ ~ in_box b (ix_idx ix') /\
    dbg_elem i ix' = Ok v /\ iface_elem i [l0 + 1; l1] = Ok v.
Proof.
  intros T i l0 u0 l1 u1 b V H2 HC ix HP.
  destruct (api_points_lin _ _ _ _ V (proj1 HC) HP) as (Hc & EL & Hb).
  destruct V as (V1 & V2 & V3 & V4). unfold b in *. unfold int_bounds in V4. inversion V4 as [|? ? B0 V4']; subst. inversion V4' as [|? ? B1 _]; subst. cbn [fst snd] in B0, B1.
  inversion V2 as [|? ? N0 V2']; subst. inversion V2' as [|? ? N1 _]; subst. cbn [fst snd] in N0, N1.
  assert (V : valid_box [(l0, u0); (l1, u1)]) by (repeat split; auto).
  destruct (points_inv _ _ _ _ V (proj1 HC) HP) as (_ & bs & Eix). 
  assert (ES : exists ix', ix_steps ix [IxInc 1] = Ok ix' /\ ix_idx ix' = [l0; u1]).
  { cbn [ix_steps ix_step]. unfold indexer_increment. subst ix. cbn [ix_at ix_sup ix_idx ix_lin range_of r_stride box_strides].
    cbn in V3 |- *. change (Pos.to_nat 1) with 1%nat. cbn. unfold iadd. rewrite (chk_ok (_ + 1)) by (unfold is_int, int_min, int_max in *; nia). cbn.
    rewrite chk_ok by (unfold is_int, int_min, int_max in *; lia). cbn. eexists. split; [reflexivity|]. cbn. do 2 f_equal. lia. }
  destruct ES as (ix' & ES & EI). exists ix'.
  destruct (C69_data_partial T i _ ix _ [IxInc 1] ix' V HC HP) as (D & _); [repeat constructor|exact ES|].
  rewrite EI in D. assert (EO : offset [(l0, u0); (l1, u1)] [l0; u1] = offset [(l0, u0); (l1, u1)] [l0 + 1; l1]) by (cbn; lia).
  rewrite EO in D. assert (IN : in_box [(l0, u0); (l1, u1)] [l0 + 1; l1]) by (repeat constructor; cbn; lia).
  destruct D as (_ & v & Ev & Ed). { apply offset_bounds; exact IN. }
  exists v. split; [exact ES|]. split; [exact EI|]. split; [|split; [exact Ed|]].
  - rewrite EI. intros H. inversion H as [|? ? ? ? _ H']; subst. inversion H' as [|? ? ? ? H'' _]; subst. cbn in H''. lia.
  - destruct (api_points_exist _ _ _ V (proj1 HC) IN) as (jx & HJ).
    rewrite <- (api_read_ix _ _ _ _ _ V HC HJ). unfold iface_get. destruct (api_points_lin _ _ _ _ V (proj1 HC) HJ) as (_ & -> & HB).
    unfold vget. destruct (Z.leb_spec 0 (offset [(l0, u0); (l1, u1)] [l0 + 1; l1])); [|lia]. now rewrite Ev.
Qed.
Print Assumptions C69_data_refuted.

Example C69_data_ex : let i := mkIface (range_of [(0, 2); (0, 2)]) [10; 11; 12; 13] in
  exists ix ix1 ix2, indexer_make (if_range i) (if_range i) = Ok ix /\ dbg_elem i ix = Ok 10 /\
    ix_steps ix [IxInc 0; IxInc 0] = Ok ix1 /\ dbg_elem i ix1 = Exn "qk::indexer_interface::data : Indexer out of range." /\
    ix_steps ix [IxInc 1; IxInc 1] = Ok ix2 /\ ix_idx ix2 = [0; 2] /\ dbg_elem i ix2 = Ok 12 /\
    (exists ix3, ix_steps ix [IxDec 1] = Ok ix3 /\ dbg_elem i ix3 = Exn "qk::indexer_interface::data : Indexer out of range.").
Proof. do 3 eexists. repeat split; try (vm_compute; reflexivity). eexists. split; vm_compute; reflexivity. Qed.

(** ** Grids *)

Lemma dim_bad_spec : forall r M dim, observes r M -> grid_dim_bad r dim = false <-> 0 <= dim < Z.of_nat (List.length M).
Proof.
  intros r M dim HR. unfold grid_dim_bad. rewrite (proj1 HR).
  destruct (Z.leb_spec (Z.of_nat (List.length M)) dim), (Z.ltb_spec dim 0); cbn [orb]; split; intros; try discriminate; try lia; reflexivity.
Qed.
Lemma dim_bad_true : forall r M dim, observes r M -> ~ 0 <= dim < Z.of_nat (List.length M) -> grid_dim_bad r dim = true.
Proof. intros r M dim HR H. destruct (grid_dim_bad r dim) eqn:E; [reflexivity|]. apply (dim_bad_spec r M) in E; [lia|exact HR]. Qed.
Lemma index_bad_spec : forall r M d l u i, observes r M -> nth_error M d = Some (l, u) ->
  grid_index_bad r (Z.of_nat d) i = Ok (negb ((l <=? i) && (i <? u))).
Proof.
  intros r M d l u i HR Hd. destruct HR as (_ & _ & HR & _). destruct (HR d l u Hd) as (HL & HU & _ & _).
  unfold grid_index_bad. rewrite HU. cbn [bind]. destruct (Z.leb_spec u i).
  - destruct (Z.leb_spec l i), (Z.ltb_spec i u); try lia; reflexivity.
  - rewrite HL. cbn [bind]. f_equal. destruct (Z.ltb_spec i l), (Z.leb_spec l i), (Z.ltb_spec i u); try lia; reflexivity.
Qed.

(** Rectilinear grids: a dimension the grid has and an index of its range are
    served as in the release build, without undefined behaviour; everything else
    is reported. *)
Theorem C69_rectilinear : forall F (A : Arith F) r M starts widths, observes r M -> strides_fit M ->
  Forall (fun iv => is_int (snd iv - fst iv)) M ->
  (List.length M <= List.length starts)%nat -> (List.length M <= List.length widths)%nat ->
  exists g, grid_new r starts widths = Ok g /\
  (forall d l u, nth_error M d = Some (l, u) ->
     (exists x, dbg_start g (Z.of_nat d) = Ok x /\ nth_error starts d = Some x) /\
     (exists x, dbg_width g (Z.of_nat d) = Ok x /\ nth_error widths d = Some x) /\
     (exists x, dbg_dx g (Z.of_nat d) = Ok x /\ grid_dx g (Z.of_nat d) = Ok x) /\
     (forall i, l <= i < u -> exists x, dbg_centroid g (Z.of_nat d) i = Ok x /\ grid_centroid g (Z.of_nat d) i = Ok x) /\
     (forall i, ~ l <= i < u -> dbg_centroid g (Z.of_nat d) i = Exn "qk::grid::rectilinear::centroid : Requested index out of range.")) /\
  (forall dim i, ~ 0 <= dim < Z.of_nat (List.length M) ->
     dbg_start g dim = Exn "qk::grid::grid::start : Requested dimension out of range." /\
     dbg_width g dim = Exn "qk::grid::grid::width : Requested dimension out of range." /\
     dbg_dx g dim = Exn "qk::grid::rectilinear::dx : Requested dimension out of range." /\
     dbg_centroid g dim i = Exn "qk::grid::rectilinear::centroid : Requested dimension out of range.").
Proof.
  intros F A r M starts widths HR SF HI HS HW. destruct (grid_new_ok F A r M starts widths HR SF HI HS HW) as (g & E & G1 & (G2 & G3 & G4) & G5).
  exists g. split; [exact E|]. split.
  - intros d l u Hd. assert (D : (d < List.length M)%nat) by (apply nth_error_Some; congruence).
    assert (DB : grid_dim_bad (gr_range g) (Z.of_nat d) = false) by (apply (dim_bad_spec _ M); [exact G1|lia]).
    destruct (G5 d _ Hd) as (N1 & N2 & N3).
    unfold dbg_start, dbg_width, dbg_dx, dbg_centroid, grid_start, grid_width, grid_dx. rewrite DB.
    rewrite !(vget_at_nth _ _ d f0) by lia. split; [|split; [|split; [|split]]].
    + eexists. split; [reflexivity|]. rewrite N1. apply nth_error_nth'. lia.
    + eexists. split; [reflexivity|]. rewrite N2. apply nth_error_nth'. lia.
    + eexists. split; reflexivity.
    + intros i Hi. rewrite (index_bad_spec _ M d l u i G1 Hd). destruct (Z.leb_spec l i), (Z.ltb_spec i u); try lia. cbn [bind negb andb].
      unfold grid_centroid. rewrite !(vget_at_nth _ _ d f0) by lia. cbn [bind]. eexists. split; reflexivity.
    + intros i Hi. rewrite (index_bad_spec _ M d l u i G1 Hd). destruct (Z.leb_spec l i), (Z.ltb_spec i u); try lia; reflexivity.
  - intros dim i Hd. unfold dbg_start, dbg_width, dbg_dx, dbg_centroid. rewrite (dim_bad_true _ M dim G1 Hd). auto.
Qed.
Print Assumptions C69_rectilinear.

Example C69_rectilinear_ex : exists g, grid_new (range_of [(2, 4); (0, 2)]) [0; 1]%R [4; 1]%R = Ok g /\
  dbg_start g 1 = Ok 1%R /\ dbg_width g 0 = Ok 4%R /\
  dbg_centroid g 0 4 = Exn "qk::grid::rectilinear::centroid : Requested index out of range." /\
  dbg_dx g 2 = Exn "qk::grid::rectilinear::dx : Requested dimension out of range.".
Proof. eexists. split; [reflexivity|]. repeat split. Qed.

(** ** Structured grids *)

(** What the checks of a structured grid let through and report. *)
Theorem C69_structured_reports : forall g M, structured_on g M ->
  (forall dim i pow, ~ 0 <= dim < Z.of_nat (List.length M) ->
     dbg_s_centroid g dim i = Exn "qk::grid::structured::centroid : Requested dimension out of range." /\
     dbg_s_dx g dim i = Exn "qk::grid::structured::dx : Requested dimension out of range." /\
     dbg_symmetric g dim pow = Exn "qk::grid::structured::apply_bias_symmetric : Requested dimension out of range." /\
     dbg_linear g dim pow = Exn "qk::grid::structured::apply_bias_linear : Requested dimension out of range.") /\
  (forall d l u i pow, nth_error M d = Some (l, u) ->
     dbg_symmetric g (Z.of_nat d) pow = apply_bias_symmetric g (Z.of_nat d) pow /\
     dbg_linear g (Z.of_nat d) pow = apply_bias_linear g (Z.of_nat d) pow /\
     (~ l <= i < u ->
       dbg_s_centroid g (Z.of_nat d) i = Exn "qk::grid::structured::centroid : Requested index out of range." /\
       dbg_s_dx g (Z.of_nat d) i = Exn "qk::grid::structured::dx : Requested index out of range.")).
Proof.
  intros g M (G1 & _). unfold dbg_s_centroid, dbg_s_dx, dbg_symmetric, dbg_linear. split.
  - intros dim i pow Hd. rewrite (dim_bad_true _ M dim G1 Hd). auto.
  - intros d l u i pow Hd. assert (D : (d < List.length M)%nat) by (apply nth_error_Some; congruence).
    assert (DB : grid_dim_bad (sg_range g) (Z.of_nat d) = false) by (apply (dim_bad_spec _ M); [exact G1|lia]).
    rewrite DB, (index_bad_spec _ M d l u i G1 Hd). split; [reflexivity|]. split; [reflexivity|]. intros Hi.
    destruct (Z.leb_spec l i), (Z.ltb_spec i u); try lia; split; reflexivity.
Qed.
Print Assumptions C69_structured_reports.

Lemma structured_rows : forall g M d l u, structured_on g M -> nth_error M d = Some (l, u) ->
  exists h x, nth_error (sg_dxs g) d = Some h /\ nth_error (sg_xcs g) d = Some x /\
    Z.of_nat (List.length h) = u - l /\ Z.of_nat (List.length x) = u - l.
Proof.
  intros g M d l u (_ & _ & _ & H1 & H2) Hd.
  assert (P : forall N (rows : list (list R)), Forall2 (fun iv h => Z.of_nat (List.length h) = snd iv - fst iv) N rows ->
    forall e, nth_error N e = Some (l, u) -> exists h, nth_error rows e = Some h /\ Z.of_nat (List.length h) = u - l).
  { induction 1 as [|iv h N rows E H IH]; intros [|e] He; try discriminate; cbn in *.
    - injection He as ->. exists h. split; [reflexivity|exact E].
    - exact (IH e He). }
  destruct (P _ _ H1 d Hd) as (h & A1 & A2). destruct (P _ _ H2 d Hd) as (x & B1 & B2). eauto 8.
Qed.

(** Index ranges that begin at 0: every accepted index has a value, the one of the
    release build.  Partial: other lower bounds, refuted below. *)
Theorem C69_structured_partial : forall g M d u i, structured_on g M -> nth_error M d = Some (0, u) -> 0 <= i < u ->
  exists x h, dbg_s_centroid g (Z.of_nat d) i = Ok x /\ structured_centroid g (Z.of_nat d) i = Ok x /\
    dbg_s_dx g (Z.of_nat d) i = Ok h /\ structured_dx g (Z.of_nat d) i = Ok h.
Proof.
  intros g M d u i G Hd Hi. destruct (structured_rows g M d 0 u G Hd) as (h & x & E1 & E2 & L1 & L2). destruct G as (G1 & _).
  assert (D : (d < List.length M)%nat) by (apply nth_error_Some; congruence).
  assert (DB : grid_dim_bad (sg_range g) (Z.of_nat d) = false) by (apply (dim_bad_spec _ M); [exact G1|lia]).
  unfold dbg_s_centroid, dbg_s_dx, structured_centroid, structured_dx. rewrite DB, (index_bad_spec _ M d 0 u i G1 Hd).
  destruct (Z.leb_spec 0 i), (Z.ltb_spec i u); try lia. cbn [andb negb bind].
  rewrite !(vget_at _ _ _ _ E1), !(vget_at _ _ _ _ E2). cbn [bind].
  replace i with (Z.of_nat (Z.to_nat i)) by lia. rewrite (vget_at_nth _ x _ 0%R), (vget_at_nth _ h _ 0%R) by lia. eauto 6.
Qed.
Print Assumptions C69_structured_partial.

(** Refuted: the checks compare the index with the bounds of the range, the arrays
    count from 0.  For every lower bound other than 0 an index exists that passes
    the check and lies outside the arrays. *)
Theorem C69_structured_refuted : forall g M d l u, structured_on g M -> nth_error M d = Some (l, u) -> l < u -> l <> 0 ->
  exists i, l <= i < u /\ dbg_s_centroid g (Z.of_nat d) i = UB OutOfBounds /\ dbg_s_dx g (Z.of_nat d) i = UB OutOfBounds.
Proof.
  intros g M d l u G Hd LU L0. destruct (structured_rows g M d l u G Hd) as (h & x & E1 & E2 & L1 & L2). destruct G as (G1 & _).
  assert (D : (d < List.length M)%nat) by (apply nth_error_Some; congruence).
  assert (DB : grid_dim_bad (sg_range g) (Z.of_nat d) = false) by (apply (dim_bad_spec _ M); [exact G1|lia]).
  exists (if l <? 0 then l else u - 1). set (i := if l <? 0 then l else u - 1).
  assert (Hi : l <= i < u /\ (i < 0 \/ u - l <= i)) by (unfold i; destruct (Z.ltb_spec l 0); lia).
  split; [lia|]. unfold dbg_s_centroid, dbg_s_dx, structured_centroid, structured_dx. rewrite DB, (index_bad_spec _ M d l u i G1 Hd).
  destruct (Z.leb_spec l i), (Z.ltb_spec i u); try lia. cbn [andb negb bind].
  rewrite !(vget_at _ _ _ _ E1), !(vget_at _ _ _ _ E2). cbn [bind]. unfold vget. destruct (Z.leb_spec 0 i); [|auto].
  destruct (nth_error x (Z.to_nat i)) eqn:N1; [assert (K : nth_error x (Z.to_nat i) <> None) by congruence; apply nth_error_Some in K; lia|].
  destruct (nth_error h (Z.to_nat i)) eqn:N2; [assert (K : nth_error h (Z.to_nat i) <> None) by congruence; apply nth_error_Some in K; lia|auto].
Qed.
Print Assumptions C69_structured_refuted.

Example C69_structured_ex : exists g, structured_new (range_of [(1, 3)]) [0%R] [2%R] = Ok g /\
  dbg_s_dx g 0 1 = Ok (2 / 2)%R /\ dbg_s_dx g 0 2 = UB OutOfBounds /\
  dbg_s_dx g 0 0 = Exn "qk::grid::structured::dx : Requested index out of range.".
Proof. eexists. split; [reflexivity|]. repeat split. Qed.
