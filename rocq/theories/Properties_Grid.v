(** * Properties of the grids (C31, C32, C53). *)
From Coq Require Import ZArith List String Lia Bool Reals Lra.
From Coq Require Import Floats.SpecFloat.
From Verif Require Import Base BaseFacts BoxSpec BoxFacts Range RangeSpec RangeFacts Arith ArithR ArithFloat Manager Grid GridSpec GridFacts
  VarId MgrSpec Vtk VtkSpec VtkFacts FieldSpec ChunkFacts MgrFacts Interface Chunk.
Import ListNotations.
Open Scope R_scope.

(** ** rectilinear grids *)

Lemma dx_loop_ok : forall F (A : Arith F) (M : box) (ws : list F) x, Forall (fun iv => is_int (snd iv - fst iv)) M -> (List.length M <= List.length ws)%nat ->
  exists l, dx_loop (map fst M) (map snd M) ws = Ok l /\ List.length l = List.length M /\
    forall d iv, nth_error M d = Some iv -> nth d l x = fdiv (nth d ws x) (fofz (snd iv - fst iv)).
Proof.
  intros F A M. induction M as [|[l u] M IH]; intros ws x HI HL; cbn [map fst snd dx_loop].
  - exists []. split; [reflexivity|]. split; [reflexivity|]. intros [|d] iv H; discriminate.
  - destruct ws as [|w ws]; cbn [List.length] in HL; [lia|]. inversion HI as [|? ? H1 H2]; subst. cbn [fst snd] in H1.
    rewrite isub_ok by exact H1. cbn [bind]. destruct (IH ws x H2 ltac:(lia)) as (r & E & EL & EN). rewrite E. cbn [bind].
    eexists. split; [reflexivity|]. split; [cbn; now rewrite EL|]. intros [|d] iv H.
    + injection H as <-. reflexivity.
    + cbn [nth nth_error] in *. now apply EN.
Qed.

Lemma take_n_gen : forall F (l : list F) n, (n <= List.length l)%nat -> take_n n l = Ok (firstn n l).
Proof. induction l as [|x l IH]; intros [|n] H; cbn in *; try lia; try reflexivity. rewrite IH by lia. reflexivity. Qed.
Lemma nth_firstn : forall X (l : list X) n d x, (d < n)%nat -> nth d (firstn n l) x = nth d l x.
Proof. intros X l n. revert l. induction n as [|n IH]; intros [|y l] [|d] x H; cbn; auto; try lia. apply IH. lia. Qed.

(** Result of rectilinear::rectilinear (rectilinear.cpp:9-32), stated without its
    loop: the constructor stores range, starts and widths and divides each width by
    the number of cells. *)
Definition grid_built {F} {A : Arith F} (g : grid F) (M : box) (starts widths : list F) : Prop :=
  observes (gr_range g) M /\ grid_fits g M /\
  forall d iv, nth_error M d = Some iv ->
    nth d (gr_starts g) f0 = nth d starts f0 /\ nth d (gr_widths g) f0 = nth d widths f0 /\
    nth d (gr_dxs g) f0 = fdiv (nth d widths f0) (fofz (snd iv - fst iv)).

Lemma grid_new_ok : forall F (A : Arith F) r M starts widths, observes r M -> strides_fit M -> Forall (fun iv => is_int (snd iv - fst iv)) M ->
  (List.length M <= List.length starts)%nat -> (List.length M <= List.length widths)%nat ->
  exists g, grid_new r starts widths = Ok g /\ grid_built g M starts widths.
Proof.
  intros F A r M starts widths HR SF HI HS HW. apply observes_iff in HR. subst r. unfold grid_new.
  rewrite range_copy_of by exact SF. cbn [bind range_of r_nd]. rewrite Nat2Z.id, !take_n_gen by lia. unfold range_of. cbn [bind r_lower r_upper].
  destruct (dx_loop_ok F A M widths f0 HI HW) as (l & E & EL & EN). rewrite E. cbn [bind]. eexists. split; [reflexivity|].
  split; [|split]; cbn [gr_range gr_starts gr_widths gr_dxs].
  - change (mkRange (Z.of_nat (List.length M)) (map fst M) (map snd M) (box_strides M)) with (range_of M). apply observes_range_of.
  - unfold grid_fits. cbn [gr_starts gr_widths gr_dxs]. rewrite !firstn_length. lia.
  - intros d iv Hd. assert (d < List.length M)%nat by (apply nth_error_Some; congruence).
    rewrite !nth_firstn by lia. split; [auto|]. split; [auto|]. now apply EN.
Qed.

(** C32 for index ranges that begin at 0: centroids lie inside the domain, are dx
    apart, the first and the last are half a cell from the ends.  Partial: ranges
    with another lower bound, refuted below. *)
Theorem C32_centroids_partial : forall r M starts widths d n w, observes r M -> strides_fit M ->
  Forall (fun iv => is_int (snd iv - fst iv)) M ->
  (List.length M <= List.length starts)%nat -> (List.length M <= List.length widths)%nat ->
  nth_error M d = Some (0, n)%Z -> (0 < n)%Z -> nth_error widths d = Some w -> 0 < w ->
  exists g, grid_new r starts widths = Ok g /\
  let s := nth d starts 0 in let h := w / IZR n in
  grid_dx g (Z.of_nat d) = Ok h /\
  (forall i, (0 <= i < n)%Z -> exists x, grid_centroid g (Z.of_nat d) i = Ok x /\ s < x < s + w /\
     s + IZR i * h < x < s + IZR (i + 1) * h /\
     ((i + 1 < n)%Z -> grid_centroid g (Z.of_nat d) (i + 1) = Ok (x + h))) /\
  grid_centroid g (Z.of_nat d) 0 = Ok (s + h / 2) /\ grid_centroid g (Z.of_nat d) (n - 1) = Ok (s + w - h / 2).
Proof.
  intros r M starts widths d n w HR SF HI HS HW HM HN Hw W0.
  destruct (grid_new_ok R RArith r M starts widths HR SF HI HS HW) as (g & E & G1 & (G2 & G3 & G4) & G5).
  exists g. split; [exact E|]. intros s h.
  assert (D : (d < List.length M)%nat) by (apply nth_error_Some; congruence).
  destruct (G5 d _ HM) as (N1 & N2 & N3). cbn [fst snd] in N3. change (@f0 R RArith) with 0 in *.
  rewrite (nth_error_nth widths d 0 Hw) in N3. rewrite Z.sub_0_r in N3. change (fdiv w (fofz n)) with h in N3.
  assert (GD : vget (gr_dxs g) (Z.of_nat d) = Ok h) by (rewrite (vget_at_nth _ _ d 0) by lia; now rewrite N3).
  assert (GC : forall i, grid_centroid g (Z.of_nat d) i = Ok (s + (IZR i + 1 / 2) * h)).
  { intros i. unfold grid_centroid. rewrite (vget_at_nth _ (gr_starts g) d 0) by lia. cbn [bind]. rewrite GD. cbn [bind].
    rewrite N1. change (Ok (s + (IZR i + Rdecimal 5 (-1)) * h) = Ok (s + (IZR i + 1 / 2) * h)). now rewrite half_dec. }
  assert (NP : 0 < IZR n) by (apply (IZR_lt 0); lia).
  assert (HP : 0 < h) by (unfold h; apply Rdiv_lt_0_compat; lra).
  assert (WH : w = IZR n * h) by (unfold h; field; lra).
  split; [exact GD|]. split; [|split].
  - intros i [I1 I2]. exists (s + (IZR i + 1 / 2) * h). split; [apply GC|].
    assert (IZR 0 <= IZR i) by (apply IZR_le; lia). assert (IZR (i + 1) <= IZR n) by (apply IZR_le; lia). rewrite plus_IZR in *.
    assert (0 <= IZR i * h) by (apply Rmult_le_pos; lra). assert ((IZR i + 1) * h <= IZR n * h) by (apply Rmult_le_compat_r; lra).
    split; [nra|]. split; [nra|]. intros _. rewrite GC, plus_IZR. f_equal. ring.
  - rewrite GC. f_equal. lra.
  - rewrite GC, minus_IZR, WH. f_equal. field.
Qed.
Print Assumptions C32_centroids_partial.

(** Refuted: with a lower bound other than 0 the centroid of the first cell is not
    half a cell from the start; it is off by lower cells. *)
Theorem C32_lower_bound_refuted : forall r M starts widths d l u w, observes r M -> strides_fit M ->
  Forall (fun iv => is_int (snd iv - fst iv)) M ->
  (List.length M <= List.length starts)%nat -> (List.length M <= List.length widths)%nat ->
  nth_error M d = Some (l, u) -> (l < u)%Z -> nth_error widths d = Some w -> 0 < w -> l <> 0%Z ->
  exists g, grid_new r starts widths = Ok g /\
  let s := nth d starts 0 in let h := w / IZR (u - l) in
  grid_centroid g (Z.of_nat d) l = Ok (s + h / 2 + IZR l * h) /\
  grid_centroid g (Z.of_nat d) l <> Ok (s + h / 2) /\
  ((l + (u - l) <= 0 \/ u - l <= l)%Z -> forall x i, (l <= i < u)%Z -> grid_centroid g (Z.of_nat d) i = Ok x -> ~ (s < x < s + w)).
Proof.
  intros r M starts widths d l u w HR SF HI HS HW HM HN Hw W0 L0.
  destruct (grid_new_ok R RArith r M starts widths HR SF HI HS HW) as (g & E & G1 & (G2 & G3 & G4) & G5).
  exists g. split; [exact E|]. intros s h.
  assert (D : (d < List.length M)%nat) by (apply nth_error_Some; congruence).
  destruct (G5 d _ HM) as (N1 & N2 & N3). cbn [fst snd] in N3. change (@f0 R RArith) with 0 in *.
  rewrite (nth_error_nth widths d 0 Hw) in N3. change (fdiv w (fofz (u - l))) with h in N3.
  assert (GC : forall i, grid_centroid g (Z.of_nat d) i = Ok (s + (IZR i + 1 / 2) * h)).
  { intros i. unfold grid_centroid. rewrite (vget_at_nth _ (gr_starts g) d 0), (vget_at_nth _ (gr_dxs g) d 0) by lia. cbn [bind].
    rewrite N1, N3. change (Ok (s + (IZR i + Rdecimal 5 (-1)) * h) = Ok (s + (IZR i + 1 / 2) * h)). now rewrite half_dec. }
  assert (NP : 0 < IZR (u - l)) by (apply (IZR_lt 0); lia).
  assert (HP : 0 < h) by (unfold h; apply Rdiv_lt_0_compat; lra).
  assert (WH : w = IZR (u - l) * h) by (unfold h; field; lra).
  split; [|split].
  - rewrite GC. f_equal. field.
  - rewrite GC. intros H. injection H as H. assert (Z0 : IZR l * h = 0) by lra.
    apply Rmult_integral in Z0 as [Z0|Z0]; [|lra]. apply (eq_IZR l 0) in Z0. contradiction.
  - intros [H|H] x i Hi Ex (X1 & X2); rewrite GC in Ex; injection Ex as <-.
    + assert (IZR i + 1 <= 0) by (rewrite <- plus_IZR; apply (IZR_le _ 0); lia). nra.
    + assert (IZR (u - l) <= IZR i) by (apply IZR_le; lia). nra.
Qed.
Print Assumptions C32_lower_bound_refuted.

Example C32_ex : exists g, grid_new (range_of [(0, 4)%Z]) [-1] [2] = Ok g /\ grid_centroid g 0 0 = Ok (-1 + 2 / 4 / 2) /\ grid_centroid g 0 3 = Ok (-1 + 2 - 2 / 4 / 2).
Proof.
  destruct (C32_centroids_partial (range_of [(0, 4)%Z]) [(0, 4)%Z] [-1] [2] 0 4 2 (observes_range_of _)) as (g & E & _ & _ & H1 & H2);
    try reflexivity; try (cbn; lia); try lra.
  - repeat constructor; vm_compute; discriminate.
  - exists g. split; [exact E|]. split; [exact H1|exact H2].
Qed.
Example C32_refuted_ex : exists g, grid_new (range_of [(4, 8)%Z]) [0] [4] = Ok g /\ exists x, grid_centroid g 0 4 = Ok x /\ ~ (0 < x < 4).
Proof.
  destruct (C32_lower_bound_refuted (range_of [(4, 8)%Z]) [(4, 8)%Z] [0] [4] 0 4 8 4 (observes_range_of _)) as (g & E & H1 & _ & H2);
    try reflexivity; try (cbn; lia); try lra; try lia.
  - repeat constructor; vm_compute; discriminate.
  - exists g. split; [exact E|]. eexists. split; [exact H1|]. pose proof (H2 ltac:(right; lia) _ 4%Z ltac:(lia) H1) as H3. cbn [nth] in *. lra.
Qed.

(** ** C31 *)

(** Position at which the file shows the middle of the cell number [i] along a
    dimension (counted from 0) with origin [o] and spacing [h]. *)
Definition shown_at (o h : R) (i : Z) : R := o + (IZR i + 1 / 2) * h.

(** The SPACING written is the width of the cells; missing dimensions repeat the
    first.  The ORIGIN written is the middle of the domain.  Partial: the origin is
    not the start corner, refuted below. *)
Theorem C31_geometry_partial : forall F (A : Arith F) r M starts widths s, observes r M -> strides_fit M ->
  Forall (fun iv => is_int (snd iv - fst iv)) M ->
  (List.length M <= List.length starts)%nat -> (List.length M <= List.length widths)%nat ->
  M <> [] -> nonempty M -> (prod_len (grow 2 M) <= int_max)%Z ->
  exists g o h, grid_new r starts widths = Ok g /\
    grid_write_vtk g volume_average s = Done (s ++ geometry_lines (vtk_dim M 0, vtk_dim M 1, vtk_dim M 2) o h) /\
    forall d, (d < 3)%nat ->
      match nth_error M d with
      | Some (l, u) => o d = (nth d starts f0 + nth d widths f0 / fofz 2)%F /\ h d = (nth d widths f0 / fofz (u - l))%F
      | None => o d = f0 /\ h d = h 0%nat
      end.
Proof.
  intros F A r M starts widths s HR SF HI HS HW HM HN HP.
  destruct (grid_new_ok F A r M starts widths HR SF HI HS HW) as (g & EG & G1 & G2 & G3). apply observes_iff in G1.
  pose proof (grid_write_ok g M volume_average s G1 G2 HN HP eq_refl) as E. unfold origin_of, spacing_of in E.
  exists g, (origin_at g M), (fun d => match d with O => spacing_at g M 0 f0 | _ => spacing_at g M d (spacing_at g M 0 f0) end).
  split; [exact EG|]. split; [exact E|]. intros d Hd.
  assert (L0 : (0 < List.length M)%nat) by (destruct M; cbn; [congruence|lia]).
  destruct (nth_error M d) as [[l u]|] eqn:EM.
  - assert (D : (d < List.length M)%nat) by (apply nth_error_Some; congruence).
    destruct (G3 d _ EM) as (N1 & N2 & N3). cbn [fst snd] in N3. unfold origin_at, spacing_at.
    destruct (Nat.ltb_spec d (List.length M)); [|lia]. rewrite N1, N2.
    split; [reflexivity|]. destruct d as [|d]; [|exact N3]. destruct (Nat.ltb_spec 0 (List.length M)); [exact N3|lia].
  - apply nth_error_None in EM. unfold origin_at, spacing_at. destruct (Nat.ltb_spec d (List.length M)); [lia|].
    split; [reflexivity|]. destruct d as [|d]; reflexivity.
Qed.
Print Assumptions C31_geometry_partial.

(** Refuted, in every dimension of every grid of positive width: the origin
    written (start + width / 2) is not the start, and the position the file shows
    for a cell is the centroid of the grid exactly when twice the lower bound is the
    number of cells.  For lower bound 0 all cells are shown half a domain too far. *)
Theorem C31_origin_refuted : forall r M starts widths s, observes r M -> strides_fit M ->
  Forall (fun iv => is_int (snd iv - fst iv)) M ->
  (List.length M <= List.length starts)%nat -> (List.length M <= List.length widths)%nat ->
  M <> [] -> nonempty M -> (prod_len (grow 2 M) <= int_max)%Z -> Forall (fun w => 0 < w) widths ->
  exists g o h, grid_new r starts widths = Ok g /\
    grid_write_vtk g volume_average s = Done (s ++ geometry_lines (vtk_dim M 0, vtk_dim M 1, vtk_dim M 2) o h) /\
    forall d l u, (d < 3)%nat -> nth_error M d = Some (l, u) ->
      o d <> nth d starts 0 /\
      forall i, (0 <= i < u - l)%Z -> exists x, grid_centroid g (Z.of_nat d) (l + i) = Ok x /\
        (shown_at (o d) (h d) i = x <-> (2 * l = u - l)%Z) /\
        (l = 0%Z -> shown_at (o d) (h d) i = x + nth d widths 0 / 2).
Proof.
  intros r M starts widths sm HR SF HI HS HW HM HN HP W0.
  destruct (C31_geometry_partial R RArith r M starts widths sm HR SF HI HS HW HM HN HP) as (g & o & h & EG & E & HD).
  exists g, o, h. split; [exact EG|]. split; [exact E|]. intros d l u Hd EM. specialize (HD d Hd). rewrite EM in HD. destruct HD as [EO EH].
  destruct (grid_new_ok R RArith r M starts widths HR SF HI HS HW) as (g' & EG' & G1 & (G2 & G2' & G2'') & G3).
  rewrite EG in EG'. injection EG' as <-. destruct (G3 d _ EM) as (N1 & N2 & N3). cbn [fst snd] in N3.
  assert (D : (d < List.length M)%nat) by (apply nth_error_Some; congruence).
  assert (LU : (l < u)%Z) by (unfold nonempty in HN; rewrite Forall_forall in HN; apply nth_error_In in EM; apply (HN _ EM)).
  change (@f0 R RArith) with 0 in *. set (s := nth d starts 0) in *. set (w := nth d widths 0) in *.
  assert (WP : 0 < w) by (rewrite Forall_forall in W0; apply W0; unfold w; apply nth_In; lia).
  change (o d = s + w / 2) in EO. change (h d = w / IZR (u - l)) in EH. rewrite EO, EH. set (hd := w / IZR (u - l)) in *.
  assert (NP : 0 < IZR (u - l)) by (apply (IZR_lt 0); lia).
  assert (HP' : 0 < hd) by (unfold hd; apply Rdiv_lt_0_compat; lra).
  assert (WH : w = IZR (u - l) * hd) by (unfold hd; field; lra).
  split; [lra|]. intros i Hi. exists (s + (IZR (l + i) + 1 / 2) * hd). split; [|split].
  - unfold grid_centroid. rewrite (vget_at_nth _ (gr_starts g) d 0), (vget_at_nth _ (gr_dxs g) d 0) by lia. cbn [bind].
    rewrite N1, N3. change (Ok (s + (IZR (l + i) + Rdecimal 5 (-1)) * hd) = Ok (s + (IZR (l + i) + 1 / 2) * hd)). now rewrite half_dec.
  - unfold shown_at. rewrite plus_IZR. split.
    + intros H. assert (H2 : (IZR (u - l) / 2 - IZR l) * hd = 0) by (rewrite WH in H at 1; lra).
      apply Rmult_integral in H2 as [H2|H2]; [|lra]. apply eq_IZR. rewrite mult_IZR. lra.
    + intros H. apply (f_equal IZR) in H. rewrite mult_IZR in H. rewrite WH at 1. rewrite <- H. field.
  - intros ->. unfold shown_at. rewrite Z.add_0_l. lra.
Qed.
Print Assumptions C31_origin_refuted.

(** The unit interval with 2 cells: the file starts at 1/2 instead of 0. *)
Example C31_ex : exists g, grid_new (range_of [(0, 2)%Z]) [0] [1] = Ok g /\
  grid_write_vtk g volume_average [] = Done
     [TText ("DATASET STRUCTURED_POINTS" ++ eol);
      TText "DIMENSIONS "; TInt 3; TText " "; TInt 1; TText " "; TInt 1; TText eol;
      TText "ORIGIN "; TNum (0 + 1 / 2); TText " "; TNum 0; TText " "; TNum 0; TText eol;
      TText "SPACING "; TNum (1 / 2); TText " "; TNum (1 / 2); TText " "; TNum (1 / 2); TText eol].
Proof. eexists. split; [reflexivity|]. reflexivity. Qed.

(** ** C53 *)

(** The constructor: equal cells, centroids in their middles. *)
Theorem C53_constructor : forall r M starts widths, observes r M -> nonempty M -> strides_fit M ->
  Forall (fun iv => is_int (snd iv - fst iv)) M ->
  (List.length M <= List.length starts)%nat -> (List.length M <= List.length widths)%nat ->
  exists g, structured_new r starts widths = Ok g /\ structured_on g M /\
    (forall d, (d < List.length M)%nat -> nth_error (sg_starts g) d = nth_error starts d /\ nth_error (sg_widths g) d = nth_error widths d) /\
    (forall d iv, nth_error M d = Some iv -> exists h, row_is g g d h /\ rsum h = nth d widths 0 /\
       Z.of_nat (List.length h) = (snd iv - fst iv)%Z /\ (0 < nth d widths 0 -> centres_inside g d h)).
Proof.
  intros r M starts widths HR NE SF IB HS HW. destruct (structured_new_ok r M starts widths HR NE SF IB HS HW) as (g & E & G1 & G2 & G3).
  exists g. split; [exact E|]. split; [exact G1|]. split; [exact G2|]. intros d iv Hd. specialize (G3 d iv Hd).
  assert (P : (fst iv < snd iv)%Z) by (unfold nonempty in NE; rewrite Forall_forall in NE; apply nth_error_In in Hd; apply (NE _ Hd)).
  assert (NP : 0 < IZR (snd iv - fst iv)) by (apply (IZR_lt 0); lia).
  exists (even_row (nth d widths 0) iv). split; [exact G3|]. split; [|split].
  - unfold even_row. set (x := nth d widths 0 / IZR (snd iv - fst iv)).
    assert (RS : forall n, rsum (repeat x n) = INR n * x).
    { induction n as [|n IH]; [cbn; lra|]. cbn [repeat rsum]. rewrite IH, S_INR. lra. }
    rewrite RS, INR_IZR_INZ, Z2Nat.id by lia. unfold x. field. lra.
  - unfold even_row. rewrite repeat_length. lia.
  - intros W. apply (inside_of_pos g g); [exact G3|]. intros x Hx. apply repeat_spec in Hx. subst x. apply Rdiv_lt_0_compat; lra.
Qed.
Print Assumptions C53_constructor.

(** Symmetric bias of a dimension with an even number of cells whose width is an
    even whole number: the cells fill the width again, the row is symmetric, the
    centroids are in the middles.  The exponent counts with its fraction cut off.
    Partial: other widths and exponents below 1, refuted below. *)
Theorem C53_symmetric_partial : forall g M d l u L pow, structured_on g M -> nth_error M d = Some (l, u) -> is_int (u - l) -> (l < u)%Z ->
  Z.rem (u - l) 2 = 0%Z -> nth_error (sg_widths g) d = Some (2 * IZR L) -> is_int L ->
  is_int (Rtrunc pow) -> (1 <= Rtrunc pow)%Z ->
  exists g' h, apply_bias_symmetric g (Z.of_nat d) pow = Ok g' /\ row_is g g' d h /\ structured_on g' M /\
    rsum h = 2 * IZR L /\ Z.of_nat (List.length h) = (u - l)%Z /\ rev h = h /\ ((0 < L)%Z -> centres_inside g' d h).
Proof.
  intros g M d l u L pow G HM HI HP HE HW HT HQ HQ1.
  assert (EL : Rtrunc (2 * IZR L / 2) = L) by (replace (2 * IZR L / 2) with (IZR L) by field; apply Rtrunc_IZR).
  destruct (symmetric_ok g M d l u (2 * IZR L) pow G HM HI HP HE HW ltac:(now rewrite EL) HQ HQ1) as (g' & E & H1 & H2). rewrite EL in H1.
  pose proof (rem_even (u - l) ltac:(lia) HE) as EN. set (n := Z.to_nat (Z.quot (u - l) 2)) in *. assert (N1 : (1 <= n)%nat) by (unfold n; lia).
  set (b := map (Rmult (IZR L)) (bias (Rtrunc pow) n)) in *.
  exists g', (b ++ rev b). split; [exact E|]. split; [exact H1|]. split; [exact H2|]. split; [|split; [|split]].
  - rewrite rsum_app, rsum_rev. unfold b. rewrite rsum_scale, bias_sum by exact N1. lra.
  - rewrite app_length, rev_length. unfold b. rewrite map_length, bias_length. unfold n. lia.
  - rewrite rev_app_distr, rev_involutive. reflexivity.
  - intros HL. apply (inside_of_pos g g' d _ H1). intros x Hx.
    assert (In x b) as Hb by (apply in_app_iff in Hx as [Hx|Hx]; [exact Hx|now apply in_rev]).
    apply in_map_iff in Hb as (y & <- & Hy). apply bias_pos in Hy; auto. apply Rmult_lt_0_compat; auto. apply (IZR_lt 0); lia.
Qed.
Print Assumptions C53_symmetric_partial.

(** Linear bias of a dimension whose width is a whole number.  Partial as above. *)
Theorem C53_linear_partial : forall g M d l u L pow, structured_on g M -> nth_error M d = Some (l, u) -> is_int (u - l + 1) -> (l < u)%Z ->
  nth_error (sg_widths g) d = Some (IZR L) -> is_int L ->
  is_int (Rtrunc pow) -> (1 <= Rtrunc pow)%Z ->
  exists g' h, apply_bias_linear g (Z.of_nat d) pow = Ok g' /\ row_is g g' d h /\ structured_on g' M /\
    rsum h = IZR L /\ Z.of_nat (List.length h) = (u - l)%Z /\ ((0 < L)%Z -> centres_inside g' d h).
Proof.
  intros g M d l u L pow G HM HI HP HW HT HQ HQ1.
  destruct (linear_ok g M d l u (IZR L) pow G HM HI HP HW ltac:(now rewrite Rtrunc_IZR) HQ HQ1) as (g' & E & H1 & H2). rewrite Rtrunc_IZR in H1.
  set (n := Z.to_nat (u - l)) in *. assert (N1 : (1 <= n)%nat) by (unfold n; lia).
  set (b := map (Rmult (IZR L)) (bias (Rtrunc pow) n)) in *.
  exists g', (rev b). split; [exact E|]. split; [exact H1|]. split; [exact H2|]. split; [|split].
  - rewrite rsum_rev. unfold b. rewrite rsum_scale, bias_sum by exact N1. lra.
  - rewrite rev_length. unfold b. rewrite map_length, bias_length. unfold n. lia.
  - intros HL. apply (inside_of_pos g g' d _ H1). intros x Hx. apply in_rev in Hx.
    apply in_map_iff in Hx as (y & <- & Hy). apply bias_pos in Hy; auto. apply Rmult_lt_0_compat; auto. apply (IZR_lt 0); lia.
Qed.
Print Assumptions C53_linear_partial.

(** Refuted for every width that is not an even whole number (not a whole number
    for the linear bias): half the width (the width) is stored in an int, so the
    cells no longer fill it. *)
Theorem C53_symmetric_refuted : forall g M d l u w pow, structured_on g M -> nth_error M d = Some (l, u) -> is_int (u - l) -> (l < u)%Z ->
  Z.rem (u - l) 2 = 0%Z -> nth_error (sg_widths g) d = Some w -> is_int (Rtrunc (w / 2)) ->
  is_int (Rtrunc pow) -> (1 <= Rtrunc pow)%Z ->
  exists g' h, apply_bias_symmetric g (Z.of_nat d) pow = Ok g' /\ row_is g g' d h /\
    rsum h = 2 * IZR (Rtrunc (w / 2)) /\ ((forall L, w <> 2 * IZR L) -> rsum h <> w).
Proof.
  intros g M d l u w pow G HM HI HP HE HW HT HQ HQ1.
  destruct (symmetric_ok g M d l u w pow G HM HI HP HE HW HT HQ HQ1) as (g' & E & H1 & H2).
  pose proof (rem_even (u - l) ltac:(lia) HE) as EN. set (n := Z.to_nat (Z.quot (u - l) 2)) in *. assert (N1 : (1 <= n)%nat) by (unfold n; lia).
  set (b := map (Rmult (IZR (Rtrunc (w / 2)))) (bias (Rtrunc pow) n)) in *.
  exists g', (b ++ rev b). split; [exact E|]. split; [exact H1|].
  assert (S : rsum (b ++ rev b) = 2 * IZR (Rtrunc (w / 2))).
  { rewrite rsum_app, rsum_rev. unfold b. rewrite rsum_scale, bias_sum by exact N1. lra. }
  split; [exact S|]. intros H E2. apply (H (Rtrunc (w / 2))). lra.
Qed.
Print Assumptions C53_symmetric_refuted.
Theorem C53_linear_refuted : forall g M d l u w pow, structured_on g M -> nth_error M d = Some (l, u) -> is_int (u - l + 1) -> (l < u)%Z ->
  nth_error (sg_widths g) d = Some w -> is_int (Rtrunc w) ->
  is_int (Rtrunc pow) -> (1 <= Rtrunc pow)%Z ->
  exists g' h, apply_bias_linear g (Z.of_nat d) pow = Ok g' /\ row_is g g' d h /\
    rsum h = IZR (Rtrunc w) /\ ((forall L, w <> IZR L) -> rsum h <> w).
Proof.
  intros g M d l u w pow G HM HI HP HW HT HQ HQ1.
  destruct (linear_ok g M d l u w pow G HM HI HP HW HT HQ HQ1) as (g' & E & H1 & H2).
  set (n := Z.to_nat (u - l)) in *. assert (N1 : (1 <= n)%nat) by (unfold n; lia).
  set (b := map (Rmult (IZR (Rtrunc w))) (bias (Rtrunc pow) n)) in *.
  exists g', (rev b). split; [exact E|]. split; [exact H1|].
  assert (S : rsum (rev b) = IZR (Rtrunc w)).
  { rewrite rsum_rev. unfold b. rewrite rsum_scale, bias_sum by exact N1. lra. }
  split; [exact S|]. intros H E2. apply (H (Rtrunc w)). lra.
Qed.
Print Assumptions C53_linear_refuted.

(** An odd number of cells is rejected. *)
Theorem C53_odd : forall (g : sgrid R) M d l u w pow, observes (sg_range g) M -> nth_error M d = Some (l, u) -> is_int (u - l) ->
  Z.rem (u - l) 2 = 1%Z -> nth_error (sg_widths g) d = Some w -> is_int (Rtrunc (w / 2)) ->
  apply_bias_symmetric g (Z.of_nat d) pow = Exn "qk::grid::structured::apply_bias_symmetric : Can only bias even grids.".
Proof.
  intros g M d l u w pow G HM HI HE HW HT. apply observes_iff in G. unfold apply_bias_symmetric. rewrite (vget_at _ _ _ _ HW). cbn [bind].
  change (ftoi (w / fofz 2)%F) with (conv (Rtrunc (w / 2))). rewrite (conv_ok _ HT). cbn [bind]. rewrite G.
  rewrite (range_length_of _ _ _ _ HM), isub_ok by exact HI. cbn [bind]. now rewrite HE.
Qed.
Print Assumptions C53_odd.

Lemma demo_grid_ok : forall w, exists g, structured_new (range_of [(0, 2)%Z]) [0] [w] = Ok g /\ structured_on g [(0, 2)%Z] /\ nth_error (sg_widths g) 0 = Some w.
Proof.
  intros w. destruct (C53_constructor (range_of [(0, 2)%Z]) [(0, 2)%Z] [0] [w] (observes_range_of _)) as (g & E & H1 & H2 & _); try (cbn; lia).
  - repeat constructor.
  - repeat constructor; vm_compute; discriminate.
  - exists g. split; [exact E|]. split; [exact H1|]. destruct (H2 0%nat ltac:(cbn; lia)) as [_ H]. exact H.
Qed.

(** A domain of width 4 keeps it, one of width 1 collapses to a point. *)
Example C53_ex : exists g g' h, structured_new (range_of [(0, 2)%Z]) [0] [4] = Ok g /\
  apply_bias_symmetric g 0 2 = Ok g' /\ row_is g g' 0 h /\ rsum h = 4 /\ centres_inside g' 0 h.
Proof.
  destruct (demo_grid_ok 4) as (g & E & H1 & H2).
  destruct (C53_symmetric_partial g [(0, 2)%Z] 0 0 2 2 2 H1 eq_refl ltac:(vm_compute; split; discriminate) ltac:(lia) eq_refl
    ltac:(rewrite H2; f_equal; lra) ltac:(vm_compute; split; discriminate)) as (g' & h & H3 & H4 & H5 & H6 & H7 & H8 & H9).
  - rewrite (Rtrunc_IZR 2). vm_compute; split; discriminate.
  - rewrite (Rtrunc_IZR 2). lia.
  - exists g, g', h. split; [exact E|]. split; [exact H3|]. split; [exact H4|]. split; [lra|]. apply H9. lia.
Qed.
Lemma trunc_small : forall x, 0 <= x < 1 -> Rtrunc x = 0%Z.
Proof.
  intros x H. unfold Rtrunc. destruct (Rle_dec 0 x); [|lra]. unfold Int_part. rewrite <- (up_tech x 0); [reflexivity|lra|cbn; lra].
Qed.
Example C53_refuted_ex : exists g g' h, structured_new (range_of [(0, 2)%Z]) [0] [1] = Ok g /\
  apply_bias_symmetric g 0 2 = Ok g' /\ row_is g g' 0 h /\ rsum h = 0.
Proof.
  destruct (demo_grid_ok 1) as (g & E & H1 & H2).
  assert (T : Rtrunc (1 / 2) = 0%Z) by (apply trunc_small; lra).
  destruct (C53_symmetric_refuted g [(0, 2)%Z] 0 0 2 1 2 H1 eq_refl ltac:(vm_compute; split; discriminate) ltac:(lia) eq_refl
    H2 ltac:(rewrite T; vm_compute; split; discriminate)) as (g' & h & H3 & H4 & H5 & _).
  - rewrite (Rtrunc_IZR 2). vm_compute; split; discriminate.
  - rewrite (Rtrunc_IZR 2). lia.
  - exists g, g', h. split; [exact E|]. split; [exact H3|]. split; [exact H4|]. rewrite H5, T. lra.
Qed.

(** The doubles with some function [pw] as std::pow. *)
Definition DoublesWith (pw : spec_float -> spec_float -> spec_float) : Arith spec_float :=
  Build_Arith spec_float (SFadd 53 1024) (SFsub 53 1024) (SFmul 53 1024) (SFdiv 53 1024) SFopp SFltb SFleb sf_of_Z sf_dec sf_trunc SFabs (SFsqrt 53 1024)
    (fun _ => S754_nan) (fun _ => S754_nan) (fun _ => S754_nan) (fun _ => S754_nan) (fun _ => S754_nan) pw.

(** Four special values of pow that the C standard fixes (C11, F.10.4.4). *)
Definition pow_special (pw : spec_float -> spec_float -> spec_float) : Prop :=
  (forall x s, pw x (S754_zero s) = sf_of_Z 1) /\
  (forall x, SFltb (sf_of_Z 1) x = true -> pw x (S754_infinity false) = S754_infinity false) /\
  (forall y, SFltb y (S754_zero false) = true -> pw (S754_zero false) y = S754_infinity false) /\
  (forall y, SFltb y (S754_zero false) = true -> pw (S754_infinity false) y = S754_zero false).

(** Refuted for exponents whose whole part is 0 or negative, whatever pow is
    otherwise: the exponent 1/2 gives cells of infinite width and others of no
    width at all (not a number), the exponent -1 gives cells of width 0. *)
Theorem C53_exponent_refuted : forall pw, pow_special pw -> exists g g1 g2,
  structured_new (A := DoublesWith pw) (range_of [(0, 4)%Z]) [sf_of_Z 0] [sf_of_Z 4] = Ok g /\
  nth_error (sg_dxs g) 0 = Some (repeat (sf_of_Z 1) 4) /\
  apply_bias_symmetric (A := DoublesWith pw) g 0 (sf_dec 5 (-1)) = Ok g1 /\
  nth_error (sg_dxs g1) 0 = Some [S754_infinity false; S754_nan; S754_nan; S754_infinity false] /\
  apply_bias_linear (A := DoublesWith pw) g 0 (sf_of_Z (-1)) = Ok g2 /\
  nth_error (sg_dxs g2) 0 = Some (repeat (sf_of_Z 0) 4).
Proof.
  intros pw (P0 & P1 & P2 & P3).
  assert (B1 : bias_array (A := DoublesWith pw) 2 0 = Ok [S754_infinity false; S754_nan]).
  { unfold bias_array. change (iadd 2 1) with (Ok 3%Z). cbn [bind]. change (3 <? 1)%Z with false. cbv iota. f_equal.
    change (Z.to_nat 2) with 2%nat. cbn [bias_loop].
    change (@fpow spec_float (DoublesWith pw)) with pw. change (@fofz spec_float (DoublesWith pw) 0) with (S754_zero false).
    rewrite !P0. match goal with |- context [pw ?a ?b] => let a' := eval vm_compute in a in let b' := eval vm_compute in b in change a with a'; change b with b' end.
    rewrite P1 by reflexivity. reflexivity. }
  assert (B2 : bias_array (A := DoublesWith pw) 4 (-1) = Ok (repeat (S754_zero false) 4)).
  { unfold bias_array. change (iadd 4 1) with (Ok 5%Z). cbn [bind]. change (5 <? 1)%Z with false. cbv iota. f_equal.
    change (Z.to_nat 4) with 4%nat. cbn [bias_loop].
    change (@fpow spec_float (DoublesWith pw)) with pw. change (@f0 spec_float (DoublesWith pw)) with (S754_zero false).
    set (iv := (@fdiv spec_float (DoublesWith pw) _ (@fofz spec_float (DoublesWith pw) (-1)))).
    assert (E : forall x, x = S754_infinity false -> pw (@fadd spec_float (DoublesWith pw) x (@fdiv spec_float (DoublesWith pw) (@f1 spec_float (DoublesWith pw)) (@fofz spec_float (DoublesWith pw) 4))) iv = S754_zero false).
    { intros x ->. apply P3. reflexivity. }
    assert (Z0 : pw (S754_zero false) (@fofz spec_float (DoublesWith pw) (-1)) = S754_infinity false) by (apply P2; reflexivity).
    rewrite !E; auto; rewrite ?E; auto. }
  eexists. do 2 eexists. split; [vm_compute; reflexivity|]. split; [reflexivity|].
  set (g := mkSgrid _ _ _ _ _).
  assert (E1 : apply_bias_symmetric (A := DoublesWith pw) g 0 (sf_dec 5 (-1)) =
    (b <- bias_array (A := DoublesWith pw) 2 0 ;; with_dxs (A := DoublesWith pw) g 0 (symmetric_loop (A := DoublesWith pw) 2 0 2 4 b))) by reflexivity.
  assert (E2 : apply_bias_linear (A := DoublesWith pw) g 0 (sf_of_Z (-1)) =
    (b <- bias_array (A := DoublesWith pw) 4 (-1) ;; with_dxs (A := DoublesWith pw) g 0 (linear_loop (A := DoublesWith pw) 4 0 4 4 b))) by reflexivity.
  rewrite E1, E2, B1, B2. cbn [bind]. unfold g.
  split; [vm_compute; reflexivity|]. split; [reflexivity|]. split; [vm_compute; reflexivity|]. reflexivity.
Qed.
Print Assumptions C53_exponent_refuted.

(** Such a function exists: it is right at least where the standard fixes it. *)
Example C53_pow_special : pow_special (fun x y =>
  match y with S754_zero _ => sf_of_Z 1 | _ =>
    if SFltb y (S754_zero false) then match x with S754_zero _ => S754_infinity false | _ => S754_zero false end else S754_infinity false end).
Proof.
  repeat split; intros.
  - destruct y; try reflexivity; try discriminate; cbn [SFltb SFcompare] in H |- *; try (rewrite H; reflexivity); destruct s; try discriminate; reflexivity.
  - destruct y; try reflexivity; try discriminate; destruct s; try discriminate; reflexivity.
Qed.
