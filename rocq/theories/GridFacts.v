(** * GridFacts: proofs about the grids. *)
From Coq Require Import ZArith List String Lia Bool Reals Lra.
From Verif Require Import Base BaseFacts BoxSpec BoxFacts Range RangeSpec RangeFacts Arith ArithR Manager Grid GridSpec.
Import ListNotations.
Open Scope R_scope.

(** ** lists *)

Lemma upd_nth_same : forall X (l : list X) n x, (n < List.length l)%nat -> nth_error (upd l n x) n = Some x.
Proof. induction l as [|y l IH]; intros [|n] x H; cbn in *; try lia; auto. apply IH. lia. Qed.
Lemma upd_nth_other : forall X (l : list X) n m x, m <> n -> nth_error (upd l n x) m = nth_error l m.
Proof. induction l as [|y l IH]; intros [|n] [|m] x H; cbn; auto; try congruence. Qed.
Lemma upd_len : forall X (l : list X) n x, List.length (upd l n x) = List.length l.
Proof. induction l as [|y l IH]; intros [|n] x; cbn; auto. Qed.
Lemma vset_at : forall X (l : list X) n x, (n < List.length l)%nat -> vset l (Z.of_nat n) x = Ok (upd l n x).
Proof.
  intros. unfold vset. replace ((0 <=? Z.of_nat n)%Z && (Z.of_nat n <? Z.of_nat (List.length l))%Z) with true.
  - now rewrite Nat2Z.id.
  - symmetry. apply andb_true_intro. split; [apply Z.leb_le; lia|apply Z.ltb_lt; lia].
Qed.
Lemma vget_at : forall X (l : list X) n x, nth_error l n = Some x -> vget l (Z.of_nat n) = Ok x.
Proof. intros. apply vget_ok; [lia|]. now rewrite Nat2Z.id. Qed.
Lemma vget_at_nth : forall X (l : list X) n d, (n < List.length l)%nat -> vget l (Z.of_nat n) = Ok (nth n l d).
Proof. intros. apply vget_at. now apply nth_error_nth'. Qed.

Lemma list_eq_nth : forall X (a b : list X), (forall i, nth_error a i = nth_error b i) -> a = b.
Proof.
  induction a as [|x a IH]; intros [|y b] H; auto.
  - specialize (H 0%nat). discriminate.
  - specialize (H 0%nat). discriminate.
  - pose proof (H 0%nat) as H0. injection H0 as ->. f_equal. apply IH. intros i. apply (H (S i)).
Qed.

Lemma rsum_app : forall a b, rsum (a ++ b) = rsum a + rsum b.
Proof. induction a as [|x a IH]; intros b; cbn; [lra|]. rewrite IH. lra. Qed.
Lemma rsum_rev : forall a, rsum (rev a) = rsum a.
Proof. induction a as [|x a IH]; cbn; [lra|]. rewrite rsum_app, IH. cbn. lra. Qed.
Lemma rsum_scale : forall c a, rsum (map (Rmult c) a) = c * rsum a.
Proof. induction a as [|x a IH]; cbn; [lra|]. rewrite IH. lra. Qed.
Lemma rsum_firstn : forall h i, (i < List.length h)%nat -> rsum (firstn (S i) h) = rsum (firstn i h) + nth i h 0.
Proof.
  induction h as [|x h IH]; intros i H; cbn [List.length] in H; [lia|]. destruct i as [|i]; [cbn [firstn rsum nth]; lra|].
  change (firstn (S (S i)) (x :: h)) with (x :: firstn (S i) h). change (firstn (S i) (x :: h)) with (x :: firstn i h).
  cbn [rsum nth]. rewrite (IH i) by lia. lra.
Qed.

Lemma half_dec : Rdecimal 5 (-1) = 1 / 2.
Proof. unfold Rdecimal. change (10 ^ 1)%Z with 10%Z. lra. Qed.

(** ** recalculate_xcs *)

Definition ctr (s : R) (h : list R) (i : nat) : R := left_edge s h i + nth i h 0 / 2.

Lemma xcs_loop_ok : forall s h n i xcs, List.length xcs = List.length h -> (1 <= i)%nat -> (i + n = List.length h)%nat ->
  (forall j, (j < i)%nat -> nth_error xcs j = Some (ctr s h j)) ->
  xcs_loop n (Z.of_nat i) (ctr s h (i - 1)) h xcs = Ok (map (ctr s h) (seq 0 (List.length h))).
Proof.
  intros s h n. induction n as [|n IH]; intros i xcs HL H1 HN HX; cbn [xcs_loop].
  - f_equal. apply list_eq_nth. intros j. rewrite nth_error_map.
    destruct (Nat.ltb_spec j (List.length h)) as [H|H].
    + rewrite HX by lia. rewrite (nth_error_nth' _ 0%nat) by (rewrite seq_length; lia). cbn. now rewrite seq_nth by lia.
    + rewrite (proj2 (nth_error_None xcs j)) by lia. rewrite (proj2 (nth_error_None (seq 0 (List.length h)) j)) by (rewrite seq_length; lia). reflexivity.
  - replace (Z.of_nat i - 1)%Z with (Z.of_nat (i - 1)) by lia.
    rewrite (vget_at_nth _ h (i - 1) 0), (vget_at_nth _ h i 0) by lia. cbn [bind].
    rewrite vset_at by lia. cbn [bind].
    replace (Z.of_nat i + 1)%Z with (Z.of_nat (S i)) by lia.
    assert (E : (ctr s h (i - 1) + fdec 5 (-1) * (nth (i - 1) h 0%R + nth i h 0%R))%F = ctr s h (S i - 1)).
    { change (ctr s h (i - 1) + Rdecimal 5 (-1) * (nth (i - 1) h 0 + nth i h 0) = ctr s h (S i - 1)).
      replace (S i - 1)%nat with i by lia. unfold ctr, left_edge.
      replace (rsum (firstn i h)) with (rsum (firstn (S (i - 1)) h)) by (now replace (S (i - 1)) with i by lia).
      rewrite rsum_firstn by lia. rewrite half_dec. lra. }
    rewrite E. apply IH; [now rewrite upd_len|lia|lia|].
    intros j Hj. destruct (Nat.eq_dec j i) as [->|N].
    + rewrite upd_nth_same by lia. now replace (S i - 1)%nat with i by lia.
    + rewrite upd_nth_other by auto. apply HX. lia.
Qed.

Lemma recalc_ok : forall M starts dxss xcss d l u h x, nth_error M d = Some (l, u) -> is_int (u - l) ->
  List.length starts = List.length M -> nth_error dxss d = Some h -> nth_error xcss d = Some x ->
  Z.of_nat (List.length h) = (u - l)%Z -> Z.of_nat (List.length x) = (u - l)%Z -> (l < u)%Z ->
  recalculate_xcs (range_of M) starts dxss xcss (Z.of_nat d) =
  Ok (upd xcss d (map (ctr (nth d starts 0) h) (seq 0 (List.length h)))).
Proof.
  intros M starts dxss xcss d l u h x HM HI HS HD HX HL HL2 HP. unfold recalculate_xcs.
  rewrite (range_length_of _ _ _ _ HM), isub_ok by exact HI. cbn [bind].
  assert (DM : (d < List.length M)%nat) by (apply nth_error_Some; congruence).
  rewrite (vget_at _ _ _ _ HD), (vget_at _ _ _ _ HX). cbn [bind]. rewrite (vget_at_nth _ starts d 0) by lia. cbn [bind].
  change (vget h 0) with (vget h (Z.of_nat 0)). rewrite (vget_at_nth _ h 0 0) by lia. cbn [bind].
  match goal with |- context [vset x 0 ?v] => change (vset x 0 v) with (vset x (Z.of_nat 0) v) end.
  rewrite vset_at by lia. cbn [bind].
  assert (E : (nth d starts 0%R + fdec 5 (-1) * nth 0 h 0%R)%F = ctr (nth d starts 0) h (1 - 1)).
  { change (nth d starts 0 + Rdecimal 5 (-1) * nth 0 h 0 = ctr (nth d starts 0) h 0). unfold ctr, left_edge. cbn [firstn rsum].
    rewrite half_dec. lra. }
  rewrite E. match goal with |- context [xcs_loop ?a 1 ?b ?c ?e] => change (xcs_loop a 1 b c e) with (xcs_loop a (Z.of_nat 1) b c e) end.
  rewrite (xcs_loop_ok (nth d starts 0) h); [|rewrite upd_len; lia|lia|lia|].
  - cbn [bind]. assert ((d < List.length xcss)%nat) by (apply nth_error_Some; congruence). now rewrite vset_at by lia.
  - intros j Hj. replace j with 0%nat by lia. rewrite upd_nth_same by lia. reflexivity.
Qed.

(** ** bias_array *)

(** The p-th root. *)
Definition root (p v : R) : R := if Req_EM_T v 0 then 0 else Rpower v (1 / p).

Lemma root_pos : forall p v, 0 < v -> 0 < root p v.
Proof. intros p v H. unfold root. destruct (Req_EM_T v 0); [lra|]. apply exp_pos. Qed.
Lemma root_mono : forall p a b, 0 < p -> 0 <= a < b -> root p a < root p b.
Proof.
  intros p a b Hp H. unfold root. destruct (Req_EM_T b 0) as [|Nb]; [lra|]. destruct (Req_EM_T a 0) as [->|Na].
  - apply exp_pos.
  - apply exp_increasing. apply Rmult_lt_compat_l; [|apply ln_increasing; lra].
    unfold Rdiv. rewrite Rmult_1_l. now apply Rinv_0_lt_compat.
Qed.
Lemma root_pow : forall p v, 0 < p -> 0 <= v -> Rpow (root p v) p = v.
Proof.
  intros p v Hp Hv. unfold root. destruct (Req_EM_T v 0) as [->|N].
  - unfold Rpow. destruct (Rlt_dec 0 0); [lra|]. destruct (Req_EM_T p 0); [lra|]. destruct (Req_EM_T 0 0); [reflexivity|lra].
  - unfold Rpow. destruct (Rlt_dec 0 (Rpower v (1 / p))) as [_|H]; [|exfalso; apply H, exp_pos].
    rewrite Rpower_mult. replace (1 / p * p) with 1 by (field; lra). apply Rpower_1. lra.
Qed.
Lemma root_step : forall p v dv, 0 < p -> 0 <= v -> 0 < dv -> Rpow (Rpow (root p v) p + dv) (1 / p) = root p (v + dv).
Proof.
  intros p v dv Hp Hv Hd. rewrite root_pow by auto. unfold Rpow, root. destruct (Rlt_dec 0 (v + dv)); [|lra].
  destruct (Req_EM_T (v + dv) 0); [lra|reflexivity].
Qed.
Lemma root_1 : forall p, root p 1 = 1.
Proof. intros p. unfold root. destruct (Req_EM_T 1 0); [lra|]. unfold Rpower. rewrite ln_1, Rmult_0_r. apply exp_0. Qed.

Definition steps (p v dv : R) (n : nat) : list R :=
  map (fun k => root p (v + INR (S k) * dv) - root p (v + INR k * dv)) (seq 0 n).

Lemma bias_loop_ok : forall p dv, (1 <= p)%Z -> 0 < dv -> forall n v, 0 <= v ->
  bias_loop n (root (IZR p) v) dv (1 / IZR p) p = steps (IZR p) v dv n.
Proof.
  intros p dv Hp Hd. assert (P : 0 < IZR p) by (apply (IZR_lt 0); lia).
  induction n as [|n IH]; intros v Hv; [reflexivity|].
  cbn [bias_loop]. change (fpow ?a ?b) with (Rpow a b). change (?a + ?b)%F with (a + b).
  change (fofz p) with (IZR p). rewrite root_step by auto. rewrite IH by lra.
  unfold steps. cbn [seq map]. f_equal.
  - change (root (IZR p) (v + dv) - root (IZR p) v = root (IZR p) (v + INR 1 * dv) - root (IZR p) (v + INR 0 * dv)).
    cbn [INR]. now replace (v + 1 * dv) with (v + dv) by ring; replace (v + 0 * dv) with v by ring.
  - rewrite <- seq_shift, map_map. apply map_ext. intros k.
    rewrite (S_INR (S k)), (S_INR k). f_equal; f_equal; ring.
Qed.

Lemma steps_sum : forall p v dv n, rsum (steps p v dv n) = root p (v + INR n * dv) - root p v.
Proof.
  intros p v dv n. unfold steps. induction n as [|n IH].
  - cbn. replace (v + 0 * dv) with v by ring. lra.
  - rewrite seq_S, map_app, rsum_app, IH. cbn [map rsum Nat.add]. lra.
Qed.
Lemma steps_pos : forall p v dv n x, 0 < p -> 0 <= v -> 0 < dv -> In x (steps p v dv n) -> 0 < x.
Proof.
  intros p v dv n x Hp Hv Hd H. apply in_map_iff in H as (k & <- & _).
  assert (0 <= INR k) by apply pos_INR. assert (0 <= INR k * dv) by (apply Rmult_le_pos; lra).
  assert (root p (v + INR k * dv) < root p (v + INR (S k) * dv)).
  { apply root_mono; auto. split; [lra|]. rewrite S_INR. lra. }
  lra.
Qed.
Lemma steps_length : forall p v dv n, List.length (steps p v dv n) = n.
Proof. intros. unfold steps. now rewrite map_length, seq_length. Qed.

Definition bias (p : Z) (n : nat) : list R := steps (IZR p) 0 (1 / INR n) n.

Lemma bias_array_ok : forall n p, (1 <= n)%nat -> is_int (Z.of_nat n + 1) -> (1 <= p)%Z ->
  bias_array (Z.of_nat n) p = Ok (bias p n).
Proof.
  intros n p Hn HI Hp. unfold bias_array. rewrite iadd_ok by exact HI. cbn [bind].
  destruct (Z.ltb_spec (Z.of_nat n + 1) 1); [lia|]. rewrite Nat2Z.id. f_equal.
  change (f1 / fofz (Z.of_nat n))%F with (1 / IZR (Z.of_nat n)). change (f1 / fofz p)%F with (1 / IZR p).
  rewrite <- INR_IZR_INZ. assert (E : f0 = root (IZR p) 0).
  { unfold root. destruct (Req_EM_T 0 0); [reflexivity|lra]. }
  rewrite E. apply bias_loop_ok; auto; [|lra].
  assert (0 < INR n) by (apply lt_0_INR; lia). unfold Rdiv. rewrite Rmult_1_l. now apply Rinv_0_lt_compat.
Qed.
Lemma bias_sum : forall p n, (1 <= n)%nat -> rsum (bias p n) = 1.
Proof.
  intros p n H. unfold bias. rewrite steps_sum. assert (0 < INR n) by (apply lt_0_INR; lia).
  replace (0 + INR n * (1 / INR n)) with 1 by (field; lra). rewrite root_1.
  unfold root. destruct (Req_EM_T 0 0); [lra|lra].
Qed.
Lemma bias_pos : forall p n x, (1 <= p)%Z -> (1 <= n)%nat -> In x (bias p n) -> 0 < x.
Proof.
  intros p n x Hp Hn H. unfold bias in H. apply steps_pos in H; auto; try lra.
  - apply (IZR_lt 0); lia.
  - assert (0 < INR n) by (apply lt_0_INR; lia). unfold Rdiv. rewrite Rmult_1_l. now apply Rinv_0_lt_compat.
Qed.
Lemma bias_length : forall p n, List.length (bias p n) = n.
Proof. intros. apply steps_length. Qed.

(** ** the loops that store the widths *)

Lemma symmetric_loop_ok : forall L N (b : list R), N = (2 * List.length b)%nat -> forall n i dxs, List.length dxs = N ->
  (i + n = List.length b)%nat ->
  (forall j, (j < i)%nat -> nth_error dxs j = Some (IZR L * nth j b 0) /\ nth_error dxs (N - 1 - j) = Some (IZR L * nth j b 0)) ->
  symmetric_loop n (Z.of_nat i) L (Z.of_nat N) b dxs = Ok (map (Rmult (IZR L)) b ++ rev (map (Rmult (IZR L)) b)).
Proof.
  intros L N b HN. induction n as [|n IH]; intros i dxs HL HI HX; cbn [symmetric_loop].
  - f_equal. apply list_eq_nth. intros j. set (c := map (Rmult (IZR L)) b).
    assert (LC : List.length c = List.length b) by apply map_length.
    assert (NC : forall k, (k < List.length b)%nat -> nth_error c k = Some (IZR L * nth k b 0)).
    { intros k Hk. unfold c. rewrite nth_error_map. rewrite (nth_error_nth' _ 0) by lia. reflexivity. }
    destruct (Nat.ltb_spec j (List.length b)) as [H|H].
    + rewrite nth_error_app1 by lia. rewrite NC by lia. apply HX. lia.
    + rewrite nth_error_app2 by lia. destruct (Nat.ltb_spec j N) as [H2|H2].
      * pose proof (proj2 (HX (N - 1 - j)%nat ltac:(lia))) as E. replace (N - 1 - (N - 1 - j))%nat with j in E by lia. rewrite E.
        rewrite (nth_error_nth' _ 0) by (rewrite rev_length; lia). rewrite rev_nth by lia. f_equal.
        replace (List.length c - S (j - List.length c))%nat with (N - 1 - j)%nat by lia.
        symmetry. apply nth_error_nth. apply NC. lia.
      * rewrite (proj2 (nth_error_None dxs j)) by lia. symmetry. apply nth_error_None. rewrite rev_length. lia.
  - rewrite (vget_at_nth _ b i 0) by lia. cbn [bind]. rewrite vset_at by lia. cbn [bind].
    change (fofz L * nth i b 0)%F with (IZR L * nth i b 0).
    rewrite (vget_at _ (upd dxs i (IZR L * nth i b 0)) i (IZR L * nth i b 0)) by (apply upd_nth_same; lia). cbn [bind].
    replace (Z.of_nat N - 1 - Z.of_nat i)%Z with (Z.of_nat (N - 1 - i)) by lia.
    rewrite vset_at by (rewrite upd_len; lia). cbn [bind].
    replace (Z.of_nat i + 1)%Z with (Z.of_nat (S i)) by lia. apply IH; [now rewrite !upd_len|lia|].
    intros j Hj. destruct (Nat.eq_dec j i) as [->|Nj].
    + split.
      * rewrite upd_nth_other by lia. now rewrite upd_nth_same by lia.
      * rewrite upd_nth_same by (rewrite upd_len; lia). reflexivity.
    + destruct (HX j ltac:(lia)) as [X1 X2]. split.
      * rewrite upd_nth_other by lia. now rewrite upd_nth_other by lia.
      * rewrite upd_nth_other by lia. now rewrite upd_nth_other by lia.
Qed.

Lemma linear_loop_ok : forall L N (b : list R), N = List.length b -> forall n i dxs, List.length dxs = N ->
  (i + n = List.length b)%nat ->
  (forall j, (j < i)%nat -> nth_error dxs j = Some (IZR L * nth (N - 1 - j) b 0)) ->
  linear_loop n (Z.of_nat i) L (Z.of_nat N) b dxs = Ok (rev (map (Rmult (IZR L)) b)).
Proof.
  intros L N b HN. induction n as [|n IH]; intros i dxs HL HI HX; cbn [linear_loop].
  - f_equal. apply list_eq_nth. intros j. set (c := map (Rmult (IZR L)) b).
    assert (LC : List.length c = List.length b) by apply map_length.
    assert (NC : forall k, (k < List.length b)%nat -> nth_error c k = Some (IZR L * nth k b 0)).
    { intros k Hk. unfold c. rewrite nth_error_map. rewrite (nth_error_nth' _ 0) by lia. reflexivity. }
    destruct (Nat.ltb_spec j (List.length b)) as [H|H].
    + rewrite HX by lia. rewrite (nth_error_nth' _ 0) by (rewrite rev_length; lia). rewrite rev_nth by lia. f_equal.
      replace (List.length c - S j)%nat with (N - 1 - j)%nat by lia.
      symmetry. apply nth_error_nth. apply NC. lia.
    + rewrite (proj2 (nth_error_None dxs j)) by lia. symmetry. apply nth_error_None. rewrite rev_length. lia.
  - replace (Z.of_nat N - 1 - Z.of_nat i)%Z with (Z.of_nat (N - 1 - i)) by lia.
    rewrite (vget_at_nth _ b (N - 1 - i) 0) by lia. cbn [bind]. rewrite vset_at by lia. cbn [bind].
    change (fofz L * nth (N - 1 - i) b 0)%F with (IZR L * nth (N - 1 - i) b 0).
    replace (Z.of_nat i + 1)%Z with (Z.of_nat (S i)) by lia. apply IH; [now rewrite !upd_len|lia|].
    intros j Hj. destruct (Nat.eq_dec j i) as [->|Nj].
    + now rewrite upd_nth_same by lia.
    + rewrite upd_nth_other by lia. apply HX. lia.
Qed.

(** ** apply_bias *)

Lemma with_dxs_ok : forall g M d l u h f, structured_on g M -> nth_error M d = Some (l, u) -> is_int (u - l) -> (l < u)%Z ->
  Z.of_nat (List.length h) = (u - l)%Z -> (forall x, nth_error (sg_dxs g) d = Some x -> f x = Ok h) ->
  exists g', with_dxs g (Z.of_nat d) f = Ok g' /\ row_is g g' d h /\ structured_on g' M.
Proof.
  intros g M d l u h f (G1 & G2 & G3 & G4 & G5) HM HI HP HL HF.
  assert (exists x, nth_error (sg_dxs g) d = Some x /\ Z.of_nat (List.length x) = (u - l)%Z) as (x & HX & LX).
  { clear - G4 HM. revert d HM. induction G4 as [|iv h M D E H IH]; intros [|d] HM; cbn in *; try discriminate.
    - injection HM as ->. exists h. auto.
    - auto. }
  assert (exists x, nth_error (sg_xcs g) d = Some x /\ Z.of_nat (List.length x) = (u - l)%Z) as (y & HY & LY).
  { clear - G5 HM. revert d HM. induction G5 as [|iv h M D E H IH]; intros [|d] HM; cbn in *; try discriminate.
    - injection HM as ->. exists h. auto.
    - auto. }
  assert (DD : (d < List.length (sg_dxs g))%nat) by (apply nth_error_Some; congruence).
  assert (DX : (d < List.length (sg_xcs g))%nat) by (apply nth_error_Some; congruence).
  unfold with_dxs. rewrite (vget_at _ _ _ _ HX). cbn [bind]. change (vget x 0) with (vget x (Z.of_nat 0)).
  rewrite (vget_at_nth _ x 0 0) by lia. cbn [bind]. rewrite (HF x HX). cbn [bind].
  rewrite vset_at by exact DD. cbn [bind]. apply observes_iff in G1. rewrite G1.
  rewrite (recalc_ok M (sg_starts g) _ (sg_xcs g) d l u h y HM HI G2 (upd_nth_same _ _ _ _ DD) HY HL LY HP). cbn [bind].
  eexists. split; [reflexivity|]. split.
  - unfold row_is. cbn [sg_range sg_starts sg_widths sg_dxs sg_xcs]. rewrite G1. split; [auto|]. split; [auto|]. split; [auto|]. split.
    + intros e He. now rewrite !upd_nth_other by auto.
    + intros i Hi. unfold structured_dx, structured_centroid. cbn [sg_dxs sg_xcs].
      rewrite (vget_at _ _ _ _ (upd_nth_same _ _ _ h DD)). cbn [bind]. rewrite (vget_at_nth _ h i 0) by lia.
      split; [reflexivity|]. rewrite (vget_at _ _ _ _ (upd_nth_same _ _ _ _ DX)). cbn [bind].
      apply vget_at. rewrite nth_error_map. rewrite (nth_error_nth' _ 0%nat) by (rewrite seq_length; lia). cbn. now rewrite seq_nth by lia.
  - unfold structured_on. cbn [sg_range sg_starts sg_widths sg_dxs sg_xcs]. split; [now apply observes_iff|]. split; [auto|]. split; [auto|].
    assert (UP : forall (l0 : list (list R)) z, Forall2 (fun iv h => Z.of_nat (List.length h) = (snd iv - fst iv)%Z) M l0 ->
       Z.of_nat (List.length z) = (u - l)%Z -> Forall2 (fun iv h => Z.of_nat (List.length h) = (snd iv - fst iv)%Z) M (upd l0 d z)).
    { intros l0 z H HZ. clear - H HZ HM. revert d HM. induction H as [|iv h0 M D E H IH]; intros [|d] HM; cbn in *; try discriminate; constructor; auto.
      injection HM as ->. exact HZ. }
    split; apply UP; auto. rewrite map_length, seq_length. exact HL.
Qed.

Lemma rem_even : forall N, (0 <= N)%Z -> Z.rem N 2 = 0%Z -> N = (2 * Z.quot N 2)%Z.
Proof. intros N H E. pose proof (Z.quot_rem N 2 ltac:(lia)). lia. Qed.

Lemma symmetric_ok : forall g M d l u w pow, structured_on g M -> nth_error M d = Some (l, u) -> is_int (u - l) -> (l < u)%Z ->
  Z.rem (u - l) 2 = 0%Z -> nth_error (sg_widths g) d = Some w -> is_int (Rtrunc (w / 2)) ->
  is_int (Rtrunc pow) -> (1 <= Rtrunc pow)%Z ->
  let n := Z.to_nat (Z.quot (u - l) 2) in
  let h := map (Rmult (IZR (Rtrunc (w / 2)))) (bias (Rtrunc pow) n) in
  exists g', apply_bias_symmetric g (Z.of_nat d) pow = Ok g' /\ row_is g g' d (h ++ rev h) /\ structured_on g' M.
Proof.
  intros g M d l u w pow G HM HI HP HE HW HT HQ HQ1 n h.
  pose proof (rem_even (u - l) ltac:(lia) HE) as EN. set (k := Z.quot (u - l) 2) in *.
  assert (K : (1 <= k)%Z) by lia. assert (KN : Z.of_nat n = k) by (unfold n; lia).
  unfold apply_bias_symmetric. rewrite (vget_at _ _ _ _ HW). cbn [bind].
  change (ftoi (w / fofz 2)%F) with (conv (Rtrunc (w / 2))). rewrite (conv_ok _ HT). cbn [bind].
  pose proof G as (G1 & _ & _ & G4 & _). apply observes_iff in G1. rewrite G1.
  rewrite (range_length_of _ _ _ _ HM), isub_ok by exact HI. cbn [bind]. rewrite HE. cbn [Z.eqb]. fold k.
  destruct (Z.ltb_spec k 0); [lia|]. change (ftoi pow) with (conv (Rtrunc pow)). rewrite (conv_ok _ HQ). cbn [bind].
  rewrite <- KN. rewrite bias_array_ok; [|lia|unfold is_int, int_min, int_max in *; lia|lia]. cbn [bind].
  destruct (with_dxs_ok g M d l u (h ++ rev h) (symmetric_loop (Z.to_nat (Z.of_nat n)) 0 (Rtrunc (w / 2)) (u - l) (bias (Rtrunc pow) n)) G HM HI HP)
    as (g' & E & H1 & H2).
  - unfold h. rewrite app_length, rev_length, map_length, bias_length. lia.
  - intros x HX. rewrite Nat2Z.id. replace (u - l)%Z with (Z.of_nat (2 * n)) by lia.
    apply (symmetric_loop_ok (Rtrunc (w / 2)) (2 * n) (bias (Rtrunc pow) n) ltac:(now rewrite bias_length) n 0).
    + assert (E : Z.of_nat (List.length x) = (u - l)%Z); [|lia].
      clear - G4 HM HX. revert d HM HX. induction G4 as [|iv h M D E H IH]; intros [|d] HM HX; cbn in *; try discriminate.
      * injection HM as ->. injection HX as ->. exact E.
      * eauto.
    + now rewrite bias_length.
    + intros j Hj. lia.
  - exists g'. rewrite <- E. auto.
Qed.

Lemma linear_ok : forall g M d l u w pow, structured_on g M -> nth_error M d = Some (l, u) -> is_int (u - l + 1) -> (l < u)%Z ->
  nth_error (sg_widths g) d = Some w -> is_int (Rtrunc w) ->
  is_int (Rtrunc pow) -> (1 <= Rtrunc pow)%Z ->
  let h := map (Rmult (IZR (Rtrunc w))) (bias (Rtrunc pow) (Z.to_nat (u - l))) in
  exists g', apply_bias_linear g (Z.of_nat d) pow = Ok g' /\ row_is g g' d (rev h) /\ structured_on g' M.
Proof.
  intros g M d l u w pow G HM HI1 HP HW HT HQ HQ1 h. set (n := Z.to_nat (u - l)) in *.
  assert (HI : is_int (u - l)) by (unfold is_int, int_min in *; lia).
  assert (KN : Z.of_nat n = (u - l)%Z) by (unfold n; lia).
  unfold apply_bias_linear. rewrite (vget_at _ _ _ _ HW). cbn [bind].
  change (ftoi w) with (conv (Rtrunc w)). rewrite (conv_ok _ HT). cbn [bind].
  pose proof G as (G1 & _ & _ & G4 & _). apply observes_iff in G1. rewrite G1.
  rewrite (range_length_of _ _ _ _ HM), isub_ok by exact HI. cbn [bind].
  destruct (Z.ltb_spec (u - l) 0); [lia|]. change (ftoi pow) with (conv (Rtrunc pow)). rewrite (conv_ok _ HQ). cbn [bind].
  rewrite <- KN. rewrite bias_array_ok; [|lia|rewrite KN; exact HI1|lia]. cbn [bind].
  destruct (with_dxs_ok g M d l u (rev h) (linear_loop (Z.to_nat (Z.of_nat n)) 0 (Rtrunc w) (Z.of_nat n) (bias (Rtrunc pow) n)) G HM HI HP)
    as (g' & E & H1 & H2).
  - unfold h. rewrite rev_length, map_length, bias_length. lia.
  - intros x HX. rewrite Nat2Z.id.
    apply (linear_loop_ok (Rtrunc w) n (bias (Rtrunc pow) n) ltac:(now rewrite bias_length) n 0).
    + assert (E : Z.of_nat (List.length x) = (u - l)%Z); [|lia].
      clear - G4 HM HX. revert d HM HX. induction G4 as [|iv h M D E H IH]; intros [|d] HM HX; cbn in *; try discriminate.
      * injection HM as ->. injection HX as ->. exact E.
      * eauto.
    + now rewrite bias_length.
    + intros j Hj. lia.
  - exists g'. rewrite <- E. auto.
Qed.

Lemma inside_of_pos : forall g g' d h, row_is g g' d h -> (forall x, In x h -> 0 < x) -> centres_inside g' d h.
Proof.
  intros g g' d h (R1 & R2 & R3 & R4 & R5) HP i Hi.
  assert (P : 0 < nth i h 0) by (apply HP, nth_In; exact Hi).
  split; [exact P|]. destruct (R5 i Hi) as [_ E]. eexists. split; [exact E|]. rewrite R2.
  unfold left_edge. rewrite rsum_firstn by exact Hi. lra.
Qed.

Lemma Rtrunc_IZR : forall z, Rtrunc (IZR z) = z.
Proof.
  assert (I : forall z, Int_part (IZR z) = z).
  { intros z. unfold Int_part. rewrite <- (up_tech (IZR z) z); [lia|lra|]. rewrite plus_IZR. lra. }
  intros z. unfold Rtrunc. destruct (Rle_dec 0 (IZR z)); [apply I|].
  rewrite <- opp_IZR, I. lia.
Qed.

(** ** the constructor *)

Definition even_row (w : R) (iv : Z * Z) : list R := repeat (w / IZR (snd iv - fst iv)) (Z.to_nat (snd iv - fst iv)).

Lemma vresize_new : forall (x : R) n, (0 <= n)%Z -> vresize_fill x [] n = Ok (repeat x (Z.to_nat n)).
Proof. intros x n H. unfold vresize_fill. destruct (Z.ltb_spec n 0); [lia|]. rewrite firstn_nil. cbn [app List.length]. now rewrite Nat.sub_0_r. Qed.

Lemma structured_loop_ok : forall M starts widths, nonempty M -> Forall (fun iv => is_int (snd iv - fst iv)) M ->
  List.length starts = List.length M -> (List.length M <= List.length widths)%nat ->
  forall n i dxss xcss, (i + n = List.length M)%nat -> List.length dxss = List.length M -> List.length xcss = List.length M ->
  (forall e iv, nth_error M e = Some iv -> (e < i)%nat ->
     nth_error dxss e = Some (even_row (nth e widths 0) iv) /\
     nth_error xcss e = Some (map (ctr (nth e starts 0) (even_row (nth e widths 0) iv)) (seq 0 (Z.to_nat (snd iv - fst iv))))) ->
  (forall e, (i <= e < List.length M)%nat -> nth_error dxss e = Some [] /\ nth_error xcss e = Some []) ->
  exists p, structured_loop n (Z.of_nat i) (range_of M) starts widths dxss xcss = Ok p /\
    List.length (fst p) = List.length M /\ List.length (snd p) = List.length M /\
    (forall e iv, nth_error M e = Some iv ->
     nth_error (fst p) e = Some (even_row (nth e widths 0) iv) /\
     nth_error (snd p) e = Some (map (ctr (nth e starts 0) (even_row (nth e widths 0) iv)) (seq 0 (Z.to_nat (snd iv - fst iv))))).
Proof.
  intros M starts widths NE IB HS HW. induction n as [|n IH]; intros i dxss xcss HI LD LX HA HB; cbn [structured_loop].
  - exists (dxss, xcss). cbn [fst snd]. split; [reflexivity|]. split; [auto|]. split; [auto|].
    intros e iv He. apply HA; auto. assert (e < List.length M)%nat by (apply nth_error_Some; congruence). lia.
  - destruct (nth_error M i) as [[l u]|] eqn:EM; [|apply nth_error_None in EM; lia].
    assert (HP : (l < u)%Z) by (unfold nonempty in NE; rewrite Forall_forall in NE; apply nth_error_In in EM; apply (NE _ EM)).
    assert (HZ : is_int (u - l)) by (rewrite Forall_forall in IB; apply nth_error_In in EM; apply (IB _ EM)).
    rewrite (vget_at_nth _ widths i 0) by lia. cbn [bind].
    rewrite (range_length_of _ _ _ _ EM), isub_ok by exact HZ. cbn [bind].
    destruct (HB i ltac:(lia)) as [B1 B2]. rewrite (vget_at _ _ _ _ B1). cbn [bind].
    rewrite vresize_new by lia. cbn [bind]. rewrite vset_at by lia. cbn [bind].
    rewrite (vget_at _ _ _ _ B2). cbn [bind]. rewrite vresize_new by lia. cbn [bind]. rewrite vset_at by lia. cbn [bind].
    change (repeat (nth i widths 0 / fofz (u - l))%F (Z.to_nat (u - l))) with (even_row (nth i widths 0) (l, u)).
    assert (LE : List.length (even_row (nth i widths 0) (l, u)) = Z.to_nat (u - l)) by (unfold even_row; cbn [fst snd]; apply repeat_length).
    rewrite (recalc_ok M starts _ _ i l u (even_row (nth i widths 0) (l, u)) (repeat f0 (Z.to_nat (u - l))) EM HZ HS).
    + cbn [bind]. replace (Z.of_nat i + 1)%Z with (Z.of_nat (S i)) by lia.
      apply IH; [lia|now rewrite upd_len|now rewrite !upd_len| |].
      * intros e iv He Hl. destruct (Nat.eq_dec e i) as [->|N].
        -- rewrite EM in He. injection He as <-. rewrite !upd_nth_same by (rewrite ?upd_len; lia). rewrite LE. cbn [fst snd]. auto.
        -- rewrite !upd_nth_other by auto. apply HA; auto. lia.
      * intros e He. rewrite !upd_nth_other by lia. apply HB. lia.
    + apply upd_nth_same. lia.
    + apply upd_nth_same. lia.
    + rewrite LE. lia.
    + rewrite repeat_length. lia.
    + exact HP.
Qed.

Lemma take_n_ok : forall (l : list R) n, (n <= List.length l)%nat -> take_n n l = Ok (firstn n l).
Proof.
  induction l as [|x l IH]; intros [|n] H; cbn in *; try lia; try reflexivity. rewrite IH by lia. reflexivity.
Qed.

Lemma structured_new_ok : forall r M starts widths, observes r M -> nonempty M -> strides_fit M -> Forall (fun iv => is_int (snd iv - fst iv)) M ->
  (List.length M <= List.length starts)%nat -> (List.length M <= List.length widths)%nat ->
  exists g, structured_new r starts widths = Ok g /\ structured_on g M /\
    (forall d, (d < List.length M)%nat -> nth_error (sg_starts g) d = nth_error starts d /\ nth_error (sg_widths g) d = nth_error widths d) /\
    (forall d iv, nth_error M d = Some iv -> row_is g g d (even_row (nth d widths 0) iv)).
Proof.
  intros r M starts widths HR NE SF IB HS HW. apply observes_iff in HR. subst r. unfold structured_new.
  rewrite range_copy_of by exact SF. cbn [bind range_of r_nd]. rewrite !Nat2Z.id.
  rewrite !take_n_ok by lia. cbn [bind]. unfold vresize. destruct (Z.ltb_spec (Z.of_nat (List.length M)) 0); [lia|].
  rewrite !firstn_nil. cbn [app List.length bind]. rewrite Nat.sub_0_r, Nat2Z.id.
  destruct (structured_loop_ok M (firstn (List.length M) starts) widths NE IB ltac:(rewrite firstn_length; lia) HW (List.length M) 0
    (repeat [] (List.length M)) (repeat [] (List.length M))) as ((dx & xc) & E & L1 & L2 & HA).
  - lia.
  - apply repeat_length.
  - apply repeat_length.
  - intros. lia.
  - intros e He. rewrite !(nth_error_nth' _ []) by (rewrite repeat_length; lia). now rewrite nth_repeat.
  - change (mkRange (Z.of_nat (List.length M)) (map fst M) (map snd M) (box_strides M)) with (range_of M).
    change (Z.of_nat 0) with 0%Z in E. rewrite E. cbn [bind fst snd]. cbn [fst snd] in L1, L2, HA.
    eexists. split; [reflexivity|].
    assert (NS : forall X (l : list X) d, (d < List.length M)%nat -> nth_error (firstn (List.length M) l) d = nth_error l d).
    { intros X l d. generalize (List.length M). intros n. revert l d. induction n as [|n IHn]; intros l d Hd; [lia|].
      destruct l as [|x l]; [now destruct d|]. destruct d as [|d]; [reflexivity|]. cbn. apply IHn. lia. }
    split; [|split].
    + unfold structured_on. cbn [sg_range sg_starts sg_widths sg_dxs sg_xcs]. split; [apply observes_range_of|].
      rewrite !firstn_length. split; [lia|]. split; [lia|].
      assert (F2 : forall (P : Z * Z -> list R -> Prop) (l : list (list R)), List.length l = List.length M ->
        (forall e iv, nth_error M e = Some iv -> exists x, nth_error l e = Some x /\ P iv x) -> Forall2 P M l).
      { clear. intros P. induction M as [|iv M IH]; intros [|y l] HL HN; cbn in HL; try lia; [constructor|].
        constructor; [destruct (HN 0%nat iv eq_refl) as (x & E & H); injection E as ->; exact H|].
        apply IH; [lia|]. intros e iv' He. apply (HN (S e) iv' He). }
      assert (PO : forall e iv, nth_error M e = Some iv -> (0 <= snd iv - fst iv)%Z).
      { intros e iv He. unfold nonempty in NE. rewrite Forall_forall in NE. apply nth_error_In in He. specialize (NE _ He). lia. }
      split; apply F2; auto; intros e iv He; destruct (HA e iv He) as [H1 H2]; pose proof (PO e iv He).
      * exists (even_row (nth e widths 0) iv). split; [exact H1|]. unfold even_row. rewrite repeat_length. lia.
      * eexists. split; [exact H2|]. rewrite map_length, seq_length. lia.
    + intros d Hd. cbn [sg_starts sg_widths]. now rewrite !NS by exact Hd.
    + intros d iv Hd. destruct (HA d iv Hd) as [H1 H2]. unfold row_is. cbn [sg_range sg_starts sg_widths sg_dxs sg_xcs].
      split; [auto|]. split; [auto|]. split; [auto|]. split; [auto|].
      intros i Hi. assert (LE : List.length (even_row (nth d widths 0) iv) = Z.to_nat (snd iv - fst iv)) by apply repeat_length.
      unfold structured_dx, structured_centroid. cbn [sg_dxs sg_xcs]. rewrite (vget_at _ _ _ _ H1), (vget_at _ _ _ _ H2). cbn [bind].
      rewrite (vget_at_nth _ _ i 0) by exact Hi. split; [reflexivity|]. apply vget_at. rewrite nth_error_map.
      rewrite (nth_error_nth' _ 0%nat) by (rewrite seq_length; lia). cbn [option_map]. rewrite seq_nth by lia. reflexivity.
Qed.
