(** * AccuracyFacts: the accuracy of the reconstruction and of the right-hand side of
    Maxwell's equations. *)
From Coq Require Import ZArith List String Bool Reals Lra Lia.
From Verif Require Import Base BoxSpec BoxFacts Range RangeSpec Interface ApiSpec Arith ArithR Chunk FieldSpec VarId Manager MgrSpec BCSpec Euler Maxwell FluxFacts SweepSpec SweepFacts EulerSpec NumFacts PhysicsSpec PhysicsFacts AccuracySpec.
Import ListNotations.
Open Scope R_scope.

(** ** one wall *)

Notation eps := (/ 1000000000000).
Lemma eps_pos : 0 < eps.
Proof. lra. Qed.

Lemma left_accuracy : forall a b c : R, Rabs (left_value a b c - (b + (b - a) / 2)) <= / 2 * Rabs (c - b - (b - a)) + 6 / 5 * eps.
Proof.
  intros a b c. rewrite left_R. set (s := b - a). set (g := c - b). pose proof eps_pos as He.
  assert (P0 : 0 <= Rabs (g - s)) by apply Rabs_pos.
  destruct (Req_dec (s + eps) 0) as [Z | Z].
  - rewrite Z. unfold Rdiv. rewrite Rinv_0, Rmult_0_r, phi_R. replace s with (- eps) by lra.
    replace (b + / 2 * ((0 * 0 + 0) / (0 * 0 + 1)) * - eps - (b + - eps * / 2)) with (eps / 2) by field.
    rewrite (Rabs_right (eps / 2)) by lra. pose proof (Rabs_pos (g - - eps)). lra.
  - set (x := s + eps) in *. set (D := g * g + x * x). assert (Hx : 0 < x * x) by nra. assert (HD : 0 < D) by (unfold D; nra).
    rewrite phi_R. replace (b + / 2 * ((g / x * (g / x) + g / x) / (g / x * (g / x) + 1)) * s - (b + s / 2))
      with (/ 2 * (s * x * (g - x)) * / D) by (unfold D in *; clearbody x g; field; repeat split; (exact Z || (apply Rgt_not_eq; lra) || idtac)).
    rewrite Rabs_mult. rewrite (Rabs_right (/ D)) by (left; now apply Rinv_0_lt_compat).
    apply Rmult_le_reg_r with D; [exact HD|]. rewrite Rmult_assoc, Rinv_l, Rmult_1_r by lra.
    replace (s * x * (g - x)) with (x * x * ((g - s) - eps) - eps * (x * g - x * x)) by (unfold x; ring).
    assert (A1 : Rabs (g - s - eps) <= Rabs (g - s) + eps).
    { unfold Rminus at 1. eapply Rle_trans; [apply Rabs_triang|]. rewrite Rabs_Ropp, (Rabs_right eps) by (left; exact He). apply Rle_refl. }
    assert (A2 : Rabs (x * g - x * x) <= 14 / 10 * D).
    { apply Rabs_le_iff. unfold D. clearbody x g. clear. pose proof (Rle_0_sqr (x - g)) as Q1. pose proof (Rle_0_sqr (x + g)) as Q2. pose proof (Rle_0_sqr x) as Q3. pose proof (Rle_0_sqr g) as Q4. unfold Rsqr in *. nra. }
    assert (A3 : Rabs (x * x * (g - s - eps)) <= D * (Rabs (g - s) + eps)).
    { rewrite Rabs_mult, (Rabs_right (x * x)) by lra. apply Rmult_le_compat; try lra; [apply Rabs_pos|]. unfold D. nra. }
    rewrite Rabs_mult, (Rabs_right (/ 2)) by lra. unfold Rminus at 1.
    eapply Rle_trans; [apply Rmult_le_compat_l; [lra|apply Rabs_triang]|]. rewrite Rabs_Ropp, (Rabs_mult eps), (Rabs_right eps) by lra.
    assert (eps * Rabs (x * g - x * x) <= eps * (14 / 10 * D)) by (apply Rmult_le_compat_l; lra). nra.
Qed.

Lemma right_accuracy : forall b c d : R, Rabs (right_value b c d - (c + (c - d) / 2)) <= / 2 * Rabs (d - c - (c - b)) + 6 / 5 * eps.
Proof.
  intros b c d. pose proof (point_reflection (- d) (- c) (- b)) as H. rewrite !Ropp_involutive in H. rewrite H.
  pose proof (left_accuracy (- d) (- c) (- b)) as B.
  replace (- left_value (- d) (- c) (- b) - (c + (c - d) / 2)) with (- (left_value (- d) (- c) (- b) - (- c + (- c - - d) / 2))) by lra.
  rewrite Rabs_Ropp. replace (d - c - (c - b)) with (- (- b - - c - (- c - - d))) by ring. rewrite (Rabs_Ropp (- b - - c - (- c - - d))). exact B.
Qed.

(** Data so small that the slopes hardly count. *)
Lemma left_tiny : forall a b c : R, Rabs (b - a) <= eps / 50 -> Rabs (c - b) <= eps / 50 -> Rabs (left_value a b c - b) <= Rabs (b - a) / 90.
Proof.
  intros a b c Hs Hg. rewrite left_R. set (s := b - a) in *. set (g := c - b) in *. pose proof eps_pos as He.
  apply Rabs_le_iff in Hs, Hg. replace (b + / 2 * phi (g / (s + eps)) * s - b) with (/ 2 * phi (g / (s + eps)) * s) by ring.
  assert (Hr : - (21 / 1000) <= g / (s + eps) <= 21 / 1000).
  { assert (0 < s + eps) by lra. split; [apply Rmult_le_reg_r with (s + eps)|apply Rmult_le_reg_r with (s + eps)]; try assumption;
      unfold Rdiv at 1; try rewrite (Rmult_assoc g), Rinv_l, Rmult_1_r by lra; try lra.
    unfold Rdiv. rewrite Rmult_assoc, Rinv_l, Rmult_1_r by lra. lra. }
  set (r := g / (s + eps)) in *. rewrite phi_R, Rabs_mult, Rabs_mult, (Rabs_right (/ 2)) by lra. unfold Rdiv at 2. rewrite (Rmult_comm (Rabs s)).
  apply Rmult_le_compat_r; [apply Rabs_pos|].
  assert (Hq : 1 <= r * r + 1) by nra. assert (B : - (22 / 1000) <= (r * r + r) / (r * r + 1) <= 22 / 1000).
  { split; [apply Rmult_le_reg_r with (r * r + 1)|apply Rmult_le_reg_r with (r * r + 1)]; try lra; unfold Rdiv; rewrite ?(Rmult_assoc (r * r + r)), ?Rinv_l, ?Rmult_1_r by lra; nra. }
  apply Rabs_le_iff in B. lra.
Qed.

Lemma right_tiny : forall b c d : R, Rabs (d - c) <= eps / 50 -> Rabs (c - b) <= eps / 50 -> Rabs (right_value b c d - c) <= Rabs (d - c) / 90.
Proof.
  intros b c d Hs Hg. pose proof (point_reflection (- d) (- c) (- b)) as H. rewrite !Ropp_involutive in H. rewrite H.
  replace (- left_value (- d) (- c) (- b) - c) with (- (left_value (- d) (- c) (- b) - - c)) by ring. rewrite Rabs_Ropp.
  replace (d - c) with (- c - - d) in * by ring. apply left_tiny; [exact Hs|]. replace (- b - - c) with (c - b) by ring. exact Hg.
Qed.

(** ** smooth data *)

Lemma difference : forall f f1 a b, a < b -> (forall y, a <= y <= b -> derivable_pt_lim f y (f1 y)) -> exists y, a < y < b /\ f b - f a = f1 y * (b - a).
Proof. intros f f1 a b H D. destruct (MVT_cor2 f f1 a b H D) as (y & E & Hy). exists y. auto. Qed.

Lemma smooth_left : forall f f1 K x h, 0 < h -> smooth f f1 K (x - 2 * h) (x + 2 * h) ->
  Rabs (left_value (f (x - 3 / 2 * h)) (f (x - h / 2)) (f (x + h / 2)) - f x) <= 7 / 4 * K * h * h + 6 / 5 * eps.
Proof.
  intros f f1 K x h Hh [HD HK]. pose proof (left_accuracy (f (x - 3 / 2 * h)) (f (x - h / 2)) (f (x + h / 2))) as B.
  destruct (difference f f1 (x - 3 / 2 * h) (x - h / 2)) as (y1 & H1 & E1); [lra|intros; apply HD; lra|].
  destruct (difference f f1 (x - h / 2) (x + h / 2)) as (y2 & H2 & E2); [lra|intros; apply HD; lra|].
  destruct (difference f f1 (x - h / 2) x) as (y3 & H3 & E3); [lra|intros; apply HD; lra|].
  assert (K0 : 0 <= K). { pose proof (HK y1 y2 ltac:(lra) ltac:(lra)). pose proof (Rabs_pos (f1 y1 - f1 y2)). assert (0 < Rabs (y1 - y2)) by (apply Rabs_pos_lt; lra). nra. }
  assert (S1 : Rabs (f1 y2 - f1 y1) <= K * (2 * h)).
  { eapply Rle_trans; [apply HK; lra|]. apply Rmult_le_compat_l; [exact K0|]. apply Rabs_le_iff. lra. }
  assert (S2 : Rabs (f1 y1 - f1 y3) <= K * (3 / 2 * h)).
  { eapply Rle_trans; [apply HK; lra|]. apply Rmult_le_compat_l; [exact K0|]. apply Rabs_le_iff. lra. }
  apply Rabs_le_iff in S1, S2. rewrite E1 in B. rewrite E2 in B.
  replace (f1 y2 * (x + h / 2 - (x - h / 2)) - f1 y1 * (x - h / 2 - (x - 3 / 2 * h))) with ((f1 y2 - f1 y1) * h) in B by field.
  assert (T1 : Rabs ((f1 y2 - f1 y1) * h) <= K * (2 * h) * h) by (apply Rabs_le_iff; nra).
  assert (T2 : Rabs ((f1 y1 - f1 y3) * h) <= K * (3 / 2 * h) * h) by (apply Rabs_le_iff; nra).
  apply Rabs_le_iff in T2. set (l := left_value _ _ _) in *.
  replace (f1 y1 * (x - h / 2 - (x - 3 / 2 * h)) / 2) with (f1 y1 * h / 2) in B by field.
  replace (f1 y3 * (x - (x - h / 2))) with (f1 y3 * h / 2) in E3 by field.
  assert (B' := Rle_trans _ _ _ B (Rplus_le_compat_r _ _ _ (Rmult_le_compat_l (/ 2) _ _ ltac:(lra) T1))).
  apply Rabs_le_iff in B'. apply Rabs_le_iff. nra.
Qed.

Lemma smooth_mirror : forall f f1 K a b, smooth f f1 K a b -> smooth (fun y => - f (- y)) (fun y => f1 (- y)) K (- b) (- a).
Proof.
  intros f f1 K a b [HD HK]. split.
  - intros y Hy. assert (D := derivable_pt_lim_comp (fun y => - y) f y (- 1) (f1 (- y))).
    assert (D1 : derivable_pt_lim (fun y => - y) y (- 1)) by (apply (derivable_pt_lim_opp id); apply derivable_pt_lim_id).
    specialize (D D1 (HD (- y) ltac:(lra))). apply derivable_pt_lim_opp in D. replace (f1 (- y)) with (- (f1 (- y) * - 1)) by ring. exact D.
  - intros y z Hy Hz. eapply Rle_trans; [apply HK; lra|]. replace (- y - - z) with (- (y - z)) by ring. rewrite Rabs_Ropp. lra.
Qed.

Lemma smooth_right : forall f f1 K x h, 0 < h -> smooth f f1 K (x - 2 * h) (x + 2 * h) ->
  Rabs (right_value (f (x - h / 2)) (f (x + h / 2)) (f (x + 3 / 2 * h)) - f x) <= 7 / 4 * K * h * h + 6 / 5 * eps.
Proof.
  intros f f1 K x h Hh HS. apply smooth_mirror in HS.
  pose proof (smooth_left (fun y => - f (- y)) (fun y => f1 (- y)) K (- x) h Hh) as B. cbn beta in B.
  assert (B' := B ltac:(replace (- x - 2 * h) with (- (x + 2 * h)) by ring; replace (- x + 2 * h) with (- (x - 2 * h)) by ring; exact HS)). clear B.
  replace (- (- x - 3 / 2 * h)) with (x + 3 / 2 * h) in B' by ring. replace (- (- x - h / 2)) with (x + h / 2) in B' by field.
  replace (- (- x + h / 2)) with (x - h / 2) in B' by field. rewrite Ropp_involutive in B'.
  pose proof (point_reflection (- f (x + 3 / 2 * h)) (- f (x + h / 2)) (- f (x - h / 2))) as H. rewrite !Ropp_involutive in H. rewrite H.
  replace (- left_value (- f (x + 3 / 2 * h)) (- f (x + h / 2)) (- f (x - h / 2)) - f x) with (- (left_value (- f (x + 3 / 2 * h)) (- f (x + h / 2)) (- f (x - h / 2)) - - f x)) by ring.
  rewrite Rabs_Ropp. exact B'.
Qed.

(** ** the right-hand side of Maxwell's equations *)

Lemma curl_one : forall c d j, (d < 3)%nat -> (j < 6)%nat -> exists a k, (k < 6)%nat /\ Rabs a <= 1 + c * c /\ forall q, nth j (curl_flux c d q) 0 = a * nth k q 0.
Proof.
  intros c d j Hd Hj. assert (P : 0 <= c * c) by nra.
  assert (R0 : Rabs 0 <= 1 + c * c) by (rewrite Rabs_R0; lra). assert (R1 : Rabs 1 <= 1 + c * c) by (rewrite Rabs_R1; lra).
  assert (R2 : Rabs (-1) <= 1 + c * c) by (rewrite Rabs_left; lra). assert (R3 : Rabs (c * c) <= 1 + c * c) by (rewrite Rabs_right; lra).
  assert (R4 : Rabs (- (c * c)) <= 1 + c * c) by (rewrite Rabs_Ropp, Rabs_right; lra).
  do 3 (destruct d as [|d]; [do 6 (destruct j as [|j]; [
    first [exists 0, 0%nat; split; [lia|split; [exact R0|intros q; cbn [nth curl_flux]; unfold curl_E, curl_B, levi; cbn [INR]; field]]
          |(exists 1, 0%nat + exists 1, 1%nat + exists 1, 2%nat + exists (-1), 0%nat + exists (-1), 1%nat + exists (-1), 2%nat);
             split; [lia|split; [first [exact R1|exact R2]|intros q; cbn [nth curl_flux]; unfold curl_E, curl_B, levi; cbn [INR]; field]]
          |(exists (c * c), 3%nat + exists (c * c), 4%nat + exists (c * c), 5%nat + exists (- (c * c)), 3%nat + exists (- (c * c)), 4%nat + exists (- (c * c)), 5%nat);
             split; [lia|split; [first [exact R3|exact R4]|intros q; cbn [nth curl_flux]; unfold curl_E, curl_B, levi; cbn [INR]; field]]]|]); lia|]). lia.
Qed.

Lemma nth_state : forall (f : Z -> R) k, (k < 6)%nat -> nth k (map f (zrange 0 6)) 0 = f (Z.of_nat k).
Proof. intros f k Hk. do 6 (destruct k as [|k]; [reflexivity|]). lia. Qed.

Lemma maxwell_wall : forall c u d x j D (p : Z -> R), (d < 3)%nat -> (j < 6)%nat ->
  (forall i, (0 <= i < 6)%Z -> Rabs (left_value (u (move d (-2) x ++ [i])) (u (move d (-1) x ++ [i])) (u (x ++ [i])) - p i) <= D /\
    Rabs (right_value (u (move d (-1) x ++ [i])) (u (x ++ [i])) (u (move d 1 x ++ [i])) - p i) <= D) ->
  Rabs (wall 6 (flux_of (maxwell_flux c)) u d x (Z.of_nat j) - nth j (curl_flux c d (map p (zrange 0 6))) 0) <= (1 + Rabs c + c * c) * D.
Proof.
  intros c u d x j D p Hd Hj HP. unfold wall. rewrite Nat2Z.id. change (@f0 R RArith) with 0.
  rewrite maxwell_flux_is by (auto; unfold left_state, right_state; rewrite map_length, zrange_length; reflexivity).
  unfold rusanov_flux. rewrite nth_map_seq by exact Hj. destruct (curl_one c d j Hd Hj) as (a & k & Hk & Ha & HE).
  assert (D0 : 0 <= D). { destruct (HP 0%Z ltac:(lia)) as [B _]. pose proof (Rabs_pos (left_value (u (move d (-2) x ++ [0%Z])) (u (move d (-1) x ++ [0%Z])) (u (x ++ [0%Z])) - p 0%Z)). lra. }
  assert (C0 := Rabs_pos c). assert (C2 : 0 <= c * c) by nra.
  destruct (orb _ _) eqn:EN.
  - apply orb_prop in EN. rewrite curl_normal; [|exact Hd|destruct EN as [EN|EN]; apply Nat.eqb_eq in EN; auto].
    rewrite Rminus_0_r, Rabs_R0. apply Rmult_le_pos; lra.
  - rewrite !HE. unfold left_state, right_state. rewrite !nth_state by assumption.
    destruct (HP (Z.of_nat k) ltac:(lia)) as [Bl Br]. destruct (HP (Z.of_nat j) ltac:(lia)) as [Cl Cr].
    set (lk := left_value _ _ (u (x ++ [Z.of_nat k]))) in *. set (rk := right_value _ (u (x ++ [Z.of_nat k])) _) in *.
    set (lj := left_value _ _ (u (x ++ [Z.of_nat j]))) in *. set (rj := right_value _ (u (x ++ [Z.of_nat j])) _) in *.
    set (pk := p (Z.of_nat k)) in *. set (pj := p (Z.of_nat j)) in *.
    replace ((a * lk + a * rk) / 2 - Rabs c / 2 * (rj - lj) - a * pk) with (a * ((lk - pk) + (rk - pk)) * / 2 - Rabs c * ((rj - pj) - (lj - pj)) * / 2) by field.
    apply Rabs_le_iff in Bl, Br, Cl, Cr.
    assert (B1 : Rabs (a * (lk - pk + (rk - pk))) <= (1 + c * c) * (2 * D)).
    { rewrite Rabs_mult. apply Rmult_le_compat; try apply Rabs_pos; try lra. apply Rabs_le_iff. lra. }
    assert (B2 : Rabs (Rabs c * (rj - pj - (lj - pj))) <= Rabs c * (2 * D)).
    { rewrite Rabs_mult, Rabs_Rabsolu. apply Rmult_le_compat_l; [exact C0|]. apply Rabs_le_iff. lra. }
    apply Rabs_le_iff in B1, B2. apply Rabs_le_iff. lra.
Qed.

Lemma maxwell_net : forall c u d x j h (g g1 : Z -> R -> R) K, (d < 3)%nat -> (d < List.length x)%nat -> (j < 6)%nat -> 0 < h ->
  (forall i, (0 <= i < 6)%Z -> smooth (g i) (g1 i) K (- (5 / 2 * h)) (5 / 2 * h) /\ forall t, (-2 <= t <= 2)%Z -> u (move d t x ++ [i]) = g i (IZR t * h)) ->
  Rabs ((wall 6 (flux_of (maxwell_flux c)) u d x (Z.of_nat j) - wall 6 (flux_of (maxwell_flux c)) u d (move d 1 x) (Z.of_nat j)) / h
        + nth j (curl_flux c d (map (fun i => g1 i 0) (zrange 0 6))) 0) <= (1 + Rabs c + c * c) * (4 * K * h + 12 / 5 * eps / h).
Proof.
  intros c u d x j h g g1 K Hd Hx Hj Hh HS. set (D := 7 / 4 * K * h * h + 6 / 5 * eps).
  assert (SM : forall f f1 a b a' b', smooth f f1 K a b -> a <= a' -> b' <= b -> smooth f f1 K a' b').
  { intros f f1 a b a' b' [H1 H2] Ha Hb. split; intros; [apply H1|apply H2]; lra. }
  assert (W1 : Rabs (wall 6 (flux_of (maxwell_flux c)) u d x (Z.of_nat j) - nth j (curl_flux c d (map (fun i => g i (- (h / 2))) (zrange 0 6))) 0) <= (1 + Rabs c + c * c) * D).
  { apply maxwell_wall; auto. intros i Hi. destruct (HS i Hi) as [S E]. replace (u (x ++ [i])) with (u (move d 0 x ++ [i])) by (now rewrite move_0).
    rewrite !E by lia. replace (IZR (-2) * h) with (- (h / 2) - 3 / 2 * h) by field. replace (IZR (-1) * h) with (- (h / 2) - h / 2) by field.
    replace (0 * h) with (- (h / 2) + h / 2) by field. replace (1 * h) with (- (h / 2) + 3 / 2 * h) by field.
    split; [apply (smooth_left _ (g1 i))|apply (smooth_right _ (g1 i))]; auto; (eapply SM; [exact S|lra|lra]). }
  assert (W2 : Rabs (wall 6 (flux_of (maxwell_flux c)) u d (move d 1 x) (Z.of_nat j) - nth j (curl_flux c d (map (fun i => g i (h / 2)) (zrange 0 6))) 0) <= (1 + Rabs c + c * c) * D).
  { apply maxwell_wall; auto. intros i Hi. destruct (HS i Hi) as [S E]. rewrite !move_move by exact Hx. cbn [Z.add Z.pos_sub Pos.pred_double Pos.add].
    rewrite !E by lia. replace (IZR (-1) * h) with (h / 2 - 3 / 2 * h) by field.
    replace (0 * h) with (h / 2 - h / 2) by field. replace (1 * h) with (h / 2 + h / 2) by field. replace (2 * h) with (h / 2 + 3 / 2 * h) by field.
    split; [apply (smooth_left _ (g1 i))|apply (smooth_right _ (g1 i))]; auto; (eapply SM; [exact S|lra|lra]). }
  destruct (curl_one c d j Hd Hj) as (a & k & Hk & Ha & HE). rewrite HE, nth_state in W1, W2 |- * by exact Hk.
  destruct (HS (Z.of_nat k) ltac:(lia)) as [[HD HK] _]. set (gk := g (Z.of_nat k)) in *. set (dk := g1 (Z.of_nat k)) in *.
  destruct (difference gk dk (- (h / 2)) (h / 2)) as (y & Hy & Ey); [lra|intros; apply HD; lra|].
  assert (K0 : 0 <= K). { pose proof (HK 0 h ltac:(lra) ltac:(lra)). pose proof (Rabs_pos (dk 0 - dk h)). rewrite (Rabs_left (0 - h)) in H by lra. nra. }
  assert (B : Rabs (dk 0 - dk y) <= K * (h / 2)).
  { eapply Rle_trans; [apply HK; lra|]. apply Rmult_le_compat_l; [exact K0|]. apply Rabs_le_iff. lra. }
  assert (C0 := Rabs_pos c). assert (C2 : 0 <= c * c) by nra.
  assert (BA : Rabs (a * (dk 0 - dk y)) <= (1 + c * c) * (K * (h / 2))) by (rewrite Rabs_mult; apply Rmult_le_compat; auto; apply Rabs_pos).
  set (w1 := wall _ _ _ _ x _) in *. set (w2 := wall _ _ _ _ (move d 1 x) _) in *.
  replace ((w1 - w2) / h + a * dk 0) with (((w1 - a * gk (- (h / 2))) - (w2 - a * gk (h / 2))) * / h + a * (dk 0 - dk y)).
  2:{ replace (gk (h / 2)) with (gk (- (h / 2)) + dk y * (h / 2 - - (h / 2))) by lra. field. lra. }
  assert (T : Rabs ((w1 - a * gk (- (h / 2)) - (w2 - a * gk (h / 2))) * / h) <= (1 + Rabs c + c * c) * (2 * D) * / h).
  { rewrite Rabs_mult, (Rabs_right (/ h)) by (left; now apply Rinv_0_lt_compat). apply Rmult_le_compat_r; [left; now apply Rinv_0_lt_compat|].
    apply Rabs_le_iff in W1, W2. apply Rabs_le_iff. lra. }
  eapply Rle_trans; [apply Rabs_triang|]. eapply Rle_trans; [apply Rplus_le_compat; [exact T|exact BA]|]. unfold D.
  replace ((1 + Rabs c + c * c) * (2 * (7 / 4 * K * h * h + 6 / 5 * eps)) * / h) with ((1 + Rabs c + c * c) * (7 / 2 * K * h + 12 / 5 * eps / h)) by (field; lra).
  assert (K * (h / 2) * (1 + c * c) <= K * (h / 2) * (1 + Rabs c + c * c)) by (apply Rmult_le_compat_l; nra). nra.
Qed.
