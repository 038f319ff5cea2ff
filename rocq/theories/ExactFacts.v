(** * ExactFacts: a step of the Maxwell solver in doubles is, up to rounding and the
    tolerance of the limiter, the step in real numbers. *)
From Coq Require Import ZArith List String Bool Reals Lra Lia Psatz Floats.SpecFloat.
From Flocq Require Import Core.Zaux Core.Raux.
From Verif Require Import Base BaseFacts BoxSpec BoxFacts Interface EulerSpec PhysicsSpec PhysicsFacts NumFacts Range RangeSpec RangeFacts ApiSpec Arith ArithR ArithFloat Chunk FieldSpec VarId Manager MgrSpec MgrFacts
  BC BCSpec BCFacts Sweep SweepSpec Maxwell SweepFacts FluxFacts Programs ProgramsSpec ConserveFacts RhsFacts SymmetrySpec SymmetryFacts AxesSpec Properties_Monopole PositiveSpec PositiveFacts StableSpec StableFacts
  RoundingSpec RoundingFacts DriftFacts FiniteFacts ExactSpec.
Import ListNotations.
Open Scope R_scope.

Notation u := unit_roundoff.
Notation h := tiny.

Lemma about_near : forall x z z' e d, about x z e -> Rabs (z - z') <= d -> about x z' (e + d).
Proof.
  intros x z z' e d (N & H) Hd. split; [exact N|]. replace (real x - z') with ((real x - z) + (z - z')) by ring. eapply Rle_trans; [apply Rabs_triang|]. lra.
Qed.
Lemma about_is : forall x z e, about x z e -> Rabs (real x - z) <= e.
Proof. intros x z e (_ & H). exact H. Qed.
Lemma h_u : h <= / 1000000 * u.
Proof. pose proof far_1. pose proof far_tiny. pose proof tiny_pos. assert (1 * h <= far * h) by (apply Rmult_le_compat_r; lra). lra. Qed.
Lemma fh_u : forall z, 0 <= z <= far -> 0 <= h * z <= / 1000000 * u.
Proof. intros z Hz. pose proof far_tiny. pose proof tiny_pos. split; [apply Rmult_le_pos; lra|]. rewrite Rmult_comm. eapply Rle_trans; [apply Rmult_le_compat_r; [lra|apply Hz]|]. lra. Qed.
Lemma uz : forall z, 0 <= z -> 0 <= u * z <= / 1000000 * z.
Proof. intros z Hz. pose proof u_pos. pose proof u_small. split; [apply Rmult_le_pos; lra|apply Rmult_le_compat_r; lra]. Qed.

(** ** the limiter *)
Lemma quot_near : forall n n' d d' e f k, 0 < d -> 0 < d' -> Rabs (n' - n) <= e -> Rabs (d' - d) <= f -> Rabs n <= k * d -> 0 <= k -> Rabs (n' / d' - n / d) <= (e + k * f) / d'.
Proof.
  intros n n' d d' e f k Hd Hd' Hn Hf Hk K. replace (n' / d' - n / d) with (((n' - n) + (n / d) * (d - d')) / d') by (field; lra).
  unfold Rdiv at 1 3. rewrite Rabs_mult, (Rabs_pos_eq (/ d')) by (left; now apply Rinv_0_lt_compat). apply Rmult_le_compat_r; [left; now apply Rinv_0_lt_compat|].
  eapply Rle_trans; [apply Rabs_triang|]. rewrite Rabs_mult. rewrite <- (Rabs_Ropp (d - d')). replace (- (d - d')) with (d' - d) by ring.
  assert (Rabs (n / d) <= k).
  { unfold Rdiv. rewrite Rabs_mult, (Rabs_pos_eq (/ d)) by (left; now apply Rinv_0_lt_compat). apply Rmult_le_reg_r with d; [exact Hd|]. rewrite Rmult_assoc, Rinv_l by lra. lra. }
  assert (Rabs (n / d) * Rabs (d' - d) <= k * f) by (apply Rmult_le_compat; auto using Rabs_pos). lra.
Qed.

Lemma phi_about : forall r, within ratio r -> about (phi r) (phi (real r)) (10 * u).
Proof.
  intros r W. pose proof (w_phi r W) as W2. destruct W as (N & H). destruct ratio_large as (RL & R1). pose proof u_pos. pose proof u_small. pose proof tiny_pos. pose proof tiny_small. pose proof large_large. pose proof h_u.
  rewrite phi_R. set (a := Rabs (real r)) in *. assert (Ha : 0 <= a) by apply Rabs_pos. set (q := real r * real r).
  assert (Eq : q = a * a) by (unfold q, a; rewrite <- Rabs_mult, Rabs_pos_eq; [reflexivity|apply Rle_0_sqr]). assert (Tw : 2 * a <= q + 1) by (rewrite Eq; pose proof (Rle_0_sqr (a - 1)) as SQ; unfold Rsqr in SQ; lra). assert (Hq : 0 <= q) by (rewrite Eq; now apply Rmult_le_pos).
  assert (aR : a * a <= ratio * ratio) by (apply Rmult_le_compat; lra). assert (RR : ratio <= ratio * ratio) by (rewrite <- (Rmult_1_l ratio) at 1; apply Rmult_le_compat_r; lra).
  pose proof (uz q Hq). pose proof (uz a Ha). set (U := u * (q + 1)). assert (UE : U = u * q + u) by (unfold U; ring). assert (ua : 2 * (u * a) <= U) by (unfold U; rewrite <- Rmult_assoc, (Rmult_comm 2), Rmult_assoc; apply Rmult_le_compat_l; lra).
  unfold phi in *.
  assert (S : about (r * r)%F q (u * q + h)).
  { destruct (mul_ok r r N N) as (Ns & Es); [fold q; rewrite Rabs_pos_eq; lra|]. fold q in Es. split; [exact Ns|]. rewrite Es. pose proof (rnd_error q) as RE. rewrite (Rabs_pos_eq q) in RE by exact Hq. exact RE. }
  set (s := (r * r)%F) in *. assert (Ss : Rabs (real s) <= q + (u * q + h)) by (apply (about_size _ _ _ _ S); rewrite Rabs_pos_eq; lra).
  assert (Z : u * (u * q + h) <= / 1000000 * (u * q + h)) by (apply Rmult_le_compat_r; lra).
  assert (Num : about (s + r)%F (q + real r) (26 / 10 * U)).
  { eapply about_le; [apply (about_add s r q (real r) _ 0 (q + (u * q + h)) a S (about_self _ N) Ss)|]; [fold a; lra|lra|].
    replace (u * (q + (u * q + h) + a)) with (u * q + u * (u * q + h) + u * a) by ring. lra. }
  assert (L1 : number (fofz 1) /\ real (fofz 1) = 1) by (set (x := fofz 1); vm_compute in x; subst x; split; [split; [reflexivity|exact I]|]; unfold real; change (powerRZ 2 (-52)) with (/ 2 ^ 52); lra).
  destruct L1 as (N1 & E1).
  assert (Den : about (s + fofz 1)%F (q + 1) (21 / 10 * U)).
  { pose proof (about_self _ N1) as A1. rewrite E1 in A1. eapply about_le; [apply (about_add s _ q 1 _ 0 _ 1 S A1 Ss)|]; [rewrite E1, Rabs_R1; lra|lra|].
    replace (u * (q + (u * q + h) + 1)) with (u * q + u + u * (u * q + h)) by ring. lra. }
  pose proof (uz (q + 1) ltac:(lra)) as Uq. fold U in Uq.
  assert (D : 99 / 100 * (q + 1) <= real (s + fofz 1)%F).
  { pose proof (about_is _ _ _ Den) as RA. apply Rabs_both in RA. lra. }
  set (n' := real (s + r)%F) in *. set (d' := real (s + fofz 1)%F) in *.
  assert (Nb : Rabs (q + real r) <= 3 / 2 * (q + 1)) by (eapply Rle_trans; [apply Rabs_triang|]; fold a; rewrite (Rabs_pos_eq q) by exact Hq; lra).
  assert (q1 : 0 < q + 1) by lra. assert (d1 : 0 < d') by lra. assert (QN := quot_near _ _ _ _ _ _ (3 / 2) q1 d1 (about_is _ _ _ Num) (about_is _ _ _ Den) Nb ltac:(lra)). fold n' d' in QN.
  assert (I : 0 < / d') by (apply Rinv_0_lt_compat; lra).
  assert (UD : U / d' <= 102 / 100 * u).
  { unfold Rdiv. apply Rmult_le_reg_r with d'; [lra|]. rewrite Rmult_assoc, Rinv_l, Rmult_1_r by lra. unfold U. assert (u * (99 / 100 * (q + 1)) <= u * d') by (apply Rmult_le_compat_l; lra). assert (0 <= u * (q + 1)) by (apply Rmult_le_pos; lra). lra. }
  assert (QN' : Rabs (n' / d' - (q + real r) / (q + 1)) <= 59 / 10 * u).
  { eapply Rle_trans; [exact QN|]. replace ((26 / 10 * U + 3 / 2 * (21 / 10 * U)) / d') with (575 / 100 * (U / d')) by (field; lra). lra. }
  assert (QB : Rabs (n' / d') <= 16 / 10).
  { assert (B0 : Rabs ((q + real r) / (q + 1)) <= 3 / 2).
    { unfold Rdiv. rewrite Rabs_mult, Rabs_inv, (Rabs_pos_eq (q + 1)) by lra. apply Rmult_le_reg_r with (q + 1); [lra|]. rewrite Rmult_assoc, Rinv_l by lra. lra. }
    apply Rabs_both in QN'. apply Rabs_both in B0. apply Rabs_le. lra. }
  destruct (div_ok _ _ (proj1 Num) (proj1 Den)) as (Nq & Eqq); [fold d'; lra|fold n' d'; lra|]. split; [exact Nq|]. rewrite Eqq. fold n' d'.
  pose proof (rnd_error (n' / d')) as RE. assert (u * Rabs (n' / d') <= u * (16 / 10)) by (apply Rmult_le_compat_l; lra).
  apply Rabs_both in RE. apply Rabs_both in QN'. apply Rabs_le. unfold q in *. lra.
Qed.

Lemma eps_real : 0 <= real (fdec 1 (-12)) <= 101 / 100 * eps.
Proof. rewrite eps_is. unfold real. change (powerRZ 2 (-92)) with (/ 2 ^ 92). lra. Qed.

(** A limited slope: [x] and [y] are the slopes, [z] is plus or minus [x]. *)
Section Slope.
Variable B : R.
Hypothesis HB : 1 <= B <= far.
Ltac sizes := pose proof u_pos; pose proof u_small; pose proof tiny_pos; pose proof tiny_small; pose proof h_u; pose proof far_large; pose proof far_1; pose proof large_large; pose proof (uz B ltac:(lra));
  assert (uB1 : u * 1 <= u * B) by (apply Rmult_le_compat_l; lra); pose proof (fh_u B ltac:(lra)).

Lemma diff_about : forall a b, within B a -> within B b -> about (b - a)%F (real b - real a) (21 / 10 * (u * B)) /\ Rabs (real (b - a)%F) <= 21 / 10 * B.
Proof.
  intros a b (Na & Ha) (Nb & Hb). sizes.
  assert (D : about (b - a)%F (real b - real a) (21 / 10 * (u * B))).
  { eapply about_le; [apply (about_sub b a _ _ 0 0 B B (about_self _ Nb) (about_self _ Na) Hb Ha)|]; [lra|]. lra. }
  split; [exact D|]. eapply Rle_trans; [apply (about_size _ _ _ (2 * B) D)|]; [|lra]. unfold Rminus. eapply Rle_trans; [apply Rabs_triang|]. rewrite Rabs_Ropp. lra.
Qed.

Lemma slope_about : forall x y z X Y s, about x X (21 / 10 * (u * B)) -> about y Y (21 / 10 * (u * B)) -> about z (s * X) (21 / 10 * (u * B)) -> s = 1 \/ s = -1 ->
  Rabs (real x) <= 21 / 10 * B -> Rabs (real y) <= 21 / 10 * B -> Rabs (real z) <= 21 / 10 * B -> real (x + fdec 1 (-12))%F <> 0 ->
  about (fdec 5 (-1) * phi (y / (x + fdec 1 (-12))) * z)%F (/ 2 * (s * blend Y X)) (50 * (u * B) + 2 * eps) /\ Rabs (real (fdec 5 (-1) * phi (y / (x + fdec 1 (-12))) * z)%F) <= 11 / 4 * B.
Proof.
  intros x y z X Y s Ax Ay Az Hs Bx By Bz H0. sizes. pose proof eps_real as Er. destruct eps_number as (Ne & _). set (e := fdec 1 (-12)) in *. set (E := real e) in *.
  assert (EB : E <= 1 / 100) by (assert (101 / 100 * eps <= 1 / 100) by lra; lra).
  assert (D : about (x + e)%F (real x + E) (22 / 10 * (u * B))).
  { eapply about_le; [apply (about_add x e _ _ 0 0 (21 / 10 * B) (1 / 100) (about_self _ (proj1 Ax)) (about_self _ Ne) Bx)|]; [fold E; rewrite Rabs_pos_eq; lra|lra|].
    replace (u * (21 / 10 * B + 1 / 100)) with (21 / 10 * (u * B) + 1 / 100 * (u * 1)) by ring. lra. }
  set (d := (x + e)%F) in *.
  assert (Wy : within (3 * B) y) by (split; [apply Ay|lra]). assert (Wx : within (3 * B) x) by (split; [apply Ax|lra]).
  pose proof (w_ratio B HB y x Wy Wx H0) as Wr. fold e d in Wr. set (r := (y / d)%F) in *.
  assert (Pd : bpow radix2 (-100) <= Rabs (real d)) by (apply gap; [apply Ax|lra|exact H0]).
  assert (Bd : Rabs (real d) <= 22 / 10 * B).
  { eapply Rle_trans; [apply (about_size _ _ _ (21 / 10 * B + 1 / 100) D)|]; [eapply Rle_trans; [apply Rabs_triang|]; rewrite (Rabs_pos_eq E) by lra; lra|]. lra. }
  (* the quotient times the divisor *)
  assert (Q : Rabs (real r * real d - real y) <= 22 / 10 * (u * B)).
  { assert (Ar : about r (real y / real d) (0 / Rabs (real d) + u * (Rabs (real y) / Rabs (real d)) + h)).
    { apply about_div; [apply about_self; apply Ay|apply D|exact H0|lra|]. pose proof (bpow_gt_0 radix2 100).
      apply Rle_trans with (ratio); [|destruct ratio_large; assert (ratio <= ratio * ratio) by (rewrite <- (Rmult_1_l ratio) at 1; apply Rmult_le_compat_r; lra); lra].
      apply Rle_trans with (3 * B * bpow radix2 100).
      - unfold Rdiv. apply Rmult_le_compat; [apply Rabs_pos|left; apply Rinv_0_lt_compat; pose proof (bpow_gt_0 radix2 (-100)); lra|lra|]. change 100%Z with (- (-100))%Z. rewrite bpow_opp. apply Rinv_le_contravar; [apply bpow_gt_0|exact Pd].
      - unfold ratio. apply Rmult_le_compat_r; lra. }
    replace (real r * real d - real y) with ((real r - real y / real d) * real d) by (field; exact H0). rewrite Rabs_mult.
    apply Rle_trans with ((0 / Rabs (real d) + u * (Rabs (real y) / Rabs (real d)) + h) * Rabs (real d)); [apply Rmult_le_compat_r; [apply Rabs_pos|exact (about_is _ _ _ Ar)]|].
    assert (Rabs (real d) <> 0) by (apply Rabs_no_R0; exact H0).
    replace ((0 / Rabs (real d) + u * (Rabs (real y) / Rabs (real d)) + h) * Rabs (real d)) with (u * Rabs (real y) + h * Rabs (real d)) by (field; assumption).
    assert (u * Rabs (real y) <= u * (21 / 10 * B)) by (apply Rmult_le_compat_l; lra). assert (h * Rabs (real d) <= h * (22 / 10 * B)) by (apply Rmult_le_compat_l; lra). lra. }
  assert (PB : phi (real r) * real d = blend (real r * real d) (real d)).
  { rewrite <- phi_blend. f_equal. f_equal. field. exact H0. }
  pose proof (blend_near (real r * real d) Y (real d) X) as BN. rewrite <- PB in BN.
  assert (Y1 : Rabs (real r * real d - Y) <= 43 / 10 * (u * B)) by (pose proof (about_is _ _ _ Ay) as AY; apply Rabs_both in AY; apply Rabs_both in Q; apply Rabs_le; lra).
  assert (X1 : Rabs (real d - X) <= 43 / 10 * (u * B) + E) by (pose proof (about_is _ _ _ Ax) as AX; pose proof (about_is _ _ _ D) as AD; apply Rabs_both in AX; apply Rabs_both in AD; apply Rabs_le; lra).
  assert (BN' : Rabs (phi (real r) * real d - blend Y X) <= 172 / 10 * (u * B) + 2 * E) by lra. clear BN.
  (* the products *)
  pose proof (phi_about r Wr) as Ap. pose proof (w_phi r Wr) as Wp. set (p := phi r) in *. set (P := phi (real r)) in *. assert (HP : Rabs P <= 3 / 2) by (apply Rabs_le; pose proof (phi_bound (real r)); unfold P; lra).
  destruct lit_half as (Nh & Hh). assert (Eh : real (fdec 5 (-1)) = / 2) by (set (x0 := fdec 5 (-1)); vm_compute in x0; subst x0; unfold real; change (powerRZ 2 (-53)) with (/ 2 ^ 53); lra).
  assert (A1 : about (fdec 5 (-1) * p)%F (/ 2 * P) (61 / 10 * u)).
  { pose proof (about_self _ Nh) as A0. rewrite Eh in A0. eapply about_le; [apply (about_mul _ p _ P 0 _ (1 / 2) 2 A0 Ap); [rewrite Rabs_pos_eq; lra|exact Hh|apply Wp|lra]|]. lra. }
  assert (S1 : Rabs (/ 2 * P) <= 3 / 4) by (rewrite Rabs_mult, (Rabs_pos_eq (/ 2)) by lra; lra).
  assert (S2 : Rabs (real (fdec 5 (-1) * p)%F) <= 8 / 10) by (eapply Rle_trans; [apply (about_size _ _ _ _ A1 S1)|lra]).
  assert (A2 : about (fdec 5 (-1) * p * z)%F (/ 2 * P * real z) (15 * (u * B))).
  { eapply about_le; [apply (about_mul _ z _ (real z) _ 0 (8 / 10) (21 / 10 * B) A1 (about_self _ (proj1 Az))); [lra|exact S2|exact Bz|lra]|]. lra. }
  split.
  - assert (Z1 : Rabs (real z - s * real d) <= 64 / 10 * (u * B) + E).
    { pose proof (about_is _ _ _ Az) as AZ. apply Rabs_both in AZ. apply Rabs_both in X1. apply Rabs_le. destruct Hs as [-> | ->]; lra. }
    assert (Z2 : Rabs (/ 2 * P * real z - / 2 * P * (s * real d)) <= 3 / 4 * (64 / 10 * (u * B) + E)).
    { rewrite <- Rmult_minus_distr_l, Rabs_mult. apply Rmult_le_compat; auto using Rabs_pos. }
    assert (Z3 : Rabs (/ 2 * P * (s * real d) - / 2 * (s * blend Y X)) <= / 2 * (172 / 10 * (u * B) + 2 * E)).
    { replace (/ 2 * P * (s * real d) - / 2 * (s * blend Y X)) with (/ 2 * (s * (P * real d - blend Y X))) by ring. rewrite !Rabs_mult, (Rabs_pos_eq (/ 2)) by lra.
      assert (Rabs s = 1) as -> by (destruct Hs as [-> | ->]; unfold Rabs; destruct Rcase_abs; lra). lra. }
    eapply about_le; [apply (about_near _ _ _ _ _ (about_near _ _ _ _ _ A2 Z2) Z3)|]. lra.
  - eapply Rle_trans; [apply (about_size _ _ _ (3 / 4 * (21 / 10 * B)) A2)|]; [rewrite Rabs_mult; apply Rmult_le_compat; auto using Rabs_pos|]. lra.
Qed.

Lemma left_about : forall a b c, within B a -> within B b -> within B c -> real (b - a + fdec 1 (-12))%F <> 0 ->
  about (left_value a b c) (left_value (real a) (real b) (real c)) (55 * (u * B) + 5 * eps).
Proof.
  intros a b c Ha Hb Hc H0. sizes. destruct (diff_about a b Ha Hb) as (A1 & B1). destruct (diff_about b c Hb Hc) as (A2 & B2).
  destruct (slope_about _ _ (b - a)%F _ _ 1 A1 A2 ltac:(rewrite Rmult_1_l; exact A1) ltac:(now left) B1 B2 B1 H0) as (A3 & B3).
  unfold left_value at 1.
  assert (A4 : about (b + fdec 5 (-1) * phi ((c - b) / (b - a + fdec 1 (-12))) * (b - a))%F (ideal (real a) (real b) (real c)) (55 * (u * B) + 2 * eps)).
  { unfold ideal. rewrite Rmult_1_l in A3. eapply about_le; [apply (about_add b _ _ _ 0 _ B _ (about_self _ (proj1 Hb)) A3 (proj2 Hb) B3)|]; [lra|]. lra. }
  eapply about_le; [apply (about_near _ _ _ _ (5 / 2 * eps) A4)|].
  - pose proof (left_ideal (real a) (real b) (real c)) as LI. rewrite <- Rabs_Ropp, Ropp_minus_distr. exact LI.
  - lra.
Qed.
Lemma right_about : forall b c d, within B b -> within B c -> within B d -> real (d - c + fdec 1 (-12))%F <> 0 ->
  about (right_value b c d) (right_value (real b) (real c) (real d)) (55 * (u * B) + 5 * eps).
Proof.
  intros b c d Hb Hc Hd H0. sizes. destruct (diff_about c d Hc Hd) as (A1 & B1). destruct (diff_about b c Hb Hc) as (A2 & B2). destruct (diff_about d c Hd Hc) as (A5 & B5).
  destruct (slope_about _ _ (c - d)%F _ _ (-1) A1 A2 ltac:(replace (-1 * (real d - real c)) with (real c - real d) by ring; exact A5) ltac:(now right) B1 B2 B5 H0) as (A3 & B3).
  unfold right_value at 1.
  assert (A4 : about (c + fdec 5 (-1) * phi ((c - b) / (d - c + fdec 1 (-12))) * (c - d))%F (ideal (real d) (real c) (real b)) (55 * (u * B) + 2 * eps)).
  { assert (EI : ideal (real d) (real c) (real b) = real c + / 2 * (-1 * blend (real c - real b) (real d - real c))).
    { unfold ideal. rewrite <- (blend_scale (-1)). replace (-1 * (real c - real b)) with (real b - real c) by ring. replace (-1 * (real d - real c)) with (real c - real d) by ring. reflexivity. }
    rewrite EI. eapply about_le; [apply (about_add c _ _ _ 0 _ B _ (about_self _ (proj1 Hc)) A3 (proj2 Hc) B3)|]; [lra|]. lra. }
  eapply about_le; [apply (about_near _ _ _ _ (5 / 2 * eps) A4)|].
  - pose proof (right_ideal (real b) (real c) (real d)) as LI. rewrite <- Rabs_Ropp, Ropp_minus_distr. exact LI.
  - lra.
Qed.
End Slope.

(** ** fluxes *)
Section Fluxes.
Variables (B C e : R) (c : spec_float).
Hypothesis HB : 1 <= B.
Hypothesis HC : 1 <= C.
Hypothesis Hc : within C c.
Hypothesis Hpos : 0 < real c.
Hypothesis HL : 1000 * (C * C * B) <= far.
Hypothesis He : 0 <= e.

Ltac sizes := pose proof u_pos; pose proof u_small; pose proof tiny_pos; pose proof tiny_small; pose proof h_u; pose proof far_large; pose proof far_1; pose proof large_large; pose proof (CC C HC);
  destruct (CCB B C HB HC) as (C1 & C2); pose proof (uz (C * C * B) ltac:(lra)); assert (uCB : u * (C * C) <= u * (C * C * B)) by (apply Rmult_le_compat_l; lra); assert (uBC : u * B <= u * (C * C * B)) by (apply Rmult_le_compat_l; lra);
  assert (uC1 : u * 1 <= u * (C * C)) by (apply Rmult_le_compat_l; lra); assert (uB1 : u * 1 <= u * B) by (apply Rmult_le_compat_l; lra).

Lemma comp_about : forall p q a b a' b' P Q A A' B0 B', about p P (3 * (u * (C * C))) -> about q Q (3 * (u * (C * C))) -> Rabs P <= C * C -> Rabs Q <= C * C -> within (C * C) p -> within (C * C) q ->
  about a A e -> about b B0 e -> about a' A' e -> about b' B' e -> within (4 * B) a -> within (4 * B) b -> within (4 * B) a' -> within (4 * B) b' ->
  about (p * (a + b) + q * (a' - b'))%F (P * (A + B0) + Q * (A' - B')) (4 * (C * C * e) + 110 * (u * (C * C * B))).
Proof.
  intros p q a b a' b' P Q A A' B0 B' Ap Aq BP BQ Wp Wq Aa Ab Aa' Ab' Wa Wb Wa' Wb'. sizes.
  assert (S1 : within (801 / 100 * B) (a + b)%F) by (apply (w_add _ _ _ _ _ Wa Wb); lra). assert (S2 : within (801 / 100 * B) (a' - b')%F) by (apply (w_sub _ _ _ _ _ Wa' Wb'); lra).
  assert (T1 : about (a + b)%F (A + B0) (2 * e + 81 / 10 * (u * B))) by (eapply about_le; [apply (about_add _ _ _ _ _ _ (4 * B) (4 * B) Aa Ab (proj2 Wa) (proj2 Wb))|]; lra).
  assert (T2 : about (a' - b')%F (A' - B') (2 * e + 81 / 10 * (u * B))) by (eapply about_le; [apply (about_sub _ _ _ _ _ _ (4 * B) (4 * B) Aa' Ab' (proj2 Wa') (proj2 Wb'))|]; lra).
  assert (M : forall p s P S, about p P (3 * (u * (C * C))) -> Rabs P <= C * C -> within (C * C) p -> within (801 / 100 * B) s -> about s S (2 * e + 81 / 10 * (u * B)) ->
    about (p * s)%F (P * S) (2 * (C * C * e) + 41 * (u * (C * C * B))) /\ Rabs (real (p * s)%F) <= 81 / 10 * (C * C * B)).
  { intros p0 s P0 S0 A0 B1 W0 Ws As. split.
    - eapply about_le; [apply (about_mul _ _ _ _ _ _ (C * C) (801 / 100 * B) A0 As B1 (proj2 W0) (proj2 Ws))|]; [lra|].
      replace (3 * (u * (C * C)) * (801 / 100 * B)) with (2403 / 100 * (u * (C * C * B))) by field. replace (C * C * (2 * e + 81 / 10 * (u * B))) with (2 * (C * C * e) + 81 / 10 * (u * (C * C * B))) by field.
      replace (u * (C * C * (801 / 100 * B))) with (801 / 100 * (u * (C * C * B))) by field. lra.
    - apply (w_mul _ _ _ _ _ W0 Ws); lra. }
  destruct (M p _ P _ Ap BP Wp S1 T1) as (M1 & N1). destruct (M q _ Q _ Aq BQ Wq S2 T2) as (M2 & N2).
  eapply about_le; [apply (about_add _ _ _ _ _ _ _ _ M1 M2 N1 N2)|]; [lra|].
  replace (u * (81 / 10 * (C * C * B) + 81 / 10 * (C * C * B))) with (162 / 10 * (u * (C * C * B))) by field. lra.
Qed.

Lemma neg_real : forall x, number x -> number (- x)%F /\ real (- x)%F = - real x.
Proof.
  intros x (V & N). destruct x as [s|s| |s m k]; try easy; cbn [fneg FloatArith SFopp]; (split; [split; [exact V|exact I]|]); cbn [real]; [ring|].
  destruct s; cbn [negb]; rewrite opp_IZR; ring.
Qed.
Lemma abs_real : forall x, number x -> 0 < real x -> number (fabs x) /\ real (fabs x) = real x.
Proof.
  intros x (V & N) P. destruct x as [s|s| |s m k]; try easy; cbn [fabs FloatArith SFabs]; (split; [split; [exact V|exact I]|]); cbn [real] in *; try reflexivity.
  destruct s; [|reflexivity]. exfalso. assert (0 < powerRZ 2 k) by (apply powerRZ_lt; lra). assert (IZR (- Z.pos m) < 0) by (apply IZR_lt; lia). nra.
Qed.
Lemma about_neg : forall x z d, about x z d -> about (- x)%F (- z) d.
Proof.
  intros x z d (N & H). destruct (neg_real x N) as (N' & E). split; [exact N'|]. rewrite E. replace (- real x - - z) with (- (real x - z)) by ring. now rewrite Rabs_Ropp.
Qed.

Lemma flux_about : forall d ql qr f g j, (d < 3)%nat -> (0 <= j < 6)%Z ->
  (forall i, (0 <= i < 6)%Z -> within (4 * B) (ql i) /\ about (ql i) (f i) e) -> (forall i, (0 <= i < 6)%Z -> within (4 * B) (qr i) /\ about (qr i) (g i) e) ->
  about (nth (Z.to_nat j) (flux_of (maxwell_flux c) d (map ql (zrange 0 6)) (map qr (zrange 0 6))) f0) (flux_at (real c) d f g j) (4 * (C * C * e) + 110 * (u * (C * C * B))).
Proof.
  intros d ql qr f g j Hd Hj Hf Hg. sizes. destruct Hc as (Nc & Bc). rewrite flux_at_is by assumption.
  assert (E5 : real (fdec 5 (-1)) = / 2) by (set (x0 := fdec 5 (-1)); vm_compute in x0; subst x0; unfold real; change (powerRZ 2 (-53)) with (/ 2 ^ 53); lra).
  assert (E5m : real (fdec (-5) (-1)) = - / 2) by (set (x0 := fdec (-5) (-1)); vm_compute in x0; subst x0; unfold real; change (powerRZ 2 (-53)) with (/ 2 ^ 53); change (IZR (- Z.pos 4503599627370496)) with (- IZR 4503599627370496); lra).
  assert (Bc0 : real c <= C) by (rewrite Rabs_pos_eq in Bc; lra). assert (cc : 0 <= real c * real c <= C * C) by (split; [apply Rmult_le_pos|apply Rmult_le_compat]; lra).
  pose proof (about_self _ (proj1 lit_half)) as Ah. rewrite E5 in Ah. pose proof (about_self _ (proj1 lit_mhalf)) as Am. rewrite E5m in Am.
  assert (A2 : about (c * c)%F (real c * real c) (101 / 100 * (u * (C * C)))).
  { eapply about_le; [apply (about_mul c c _ _ 0 0 C C (about_self _ Nc) (about_self _ Nc) Bc Bc Bc)|]; lra. }
  assert (Hc2 : within (1001 / 1000 * (C * C)) (c * c)%F) by (apply (w_mul _ _ _ _ _ Hc Hc); lra).
  assert (Hef : within (C * C) (fdec 5 (-1) * (c * c))%F) by (apply (w_mul _ _ _ _ _ lit_half Hc2); lra).
  assert (Hed : within (C * C) (fdec (-5) (-1) * fabs c)%F) by (apply (w_mul _ _ _ _ _ lit_mhalf (w_abs _ _ Hc)); lra).
  assert (Hbf : within (C * C) (fdec 5 (-1))) by (eapply within_le; [apply lit_half|lra]).
  pose proof (w_neg _ _ Hef) as Hnef. pose proof (w_neg _ _ Hbf) as Hnbf.
  assert (Aef : about (fdec 5 (-1) * (c * c))%F (/ 2 * (real c * real c)) (3 * (u * (C * C)))).
  { eapply about_le; [apply (about_mul _ _ _ _ _ _ (1 / 2) (1001 / 1000 * (C * C)) Ah A2); [rewrite Rabs_pos_eq; lra|apply lit_half|apply Hc2|lra]|]. lra. }
  destruct (abs_real c Nc Hpos) as (Na & Ea).
  assert (Aed : about (fdec (-5) (-1) * fabs c)%F (- / 2 * real c) (3 * (u * (C * C)))).
  { pose proof (about_self _ Na) as Aa. rewrite Ea in Aa. eapply about_le; [apply (about_mul _ _ _ _ _ _ (1 / 2) C Am Aa); [rewrite Rabs_Ropp, Rabs_pos_eq; lra|apply lit_mhalf|rewrite Ea; exact Bc|lra]|].
    assert (u * (1 / 2 * C) <= u * (C * C)) by (apply Rmult_le_compat_l; lra). lra. }
  assert (Abf : about (fdec 5 (-1)) (/ 2) (3 * (u * (C * C)))) by (eapply about_le; [exact Ah|lra]).
  pose proof (about_neg _ _ _ Aef) as Anef. pose proof (about_neg _ _ _ Abf) as Anbf.
  assert (P1 : Rabs (/ 2 * (real c * real c)) <= C * C) by (rewrite Rabs_pos_eq; lra). assert (P2 : Rabs (- / 2 * real c) <= C * C) by (rewrite <- Rabs_Ropp, Rabs_pos_eq; lra). assert (P3 : Rabs (/ 2) <= C * C) by (rewrite Rabs_pos_eq; lra).
  assert (P4 : Rabs (- (/ 2 * (real c * real c))) <= C * C) by now rewrite Rabs_Ropp. assert (P5 : Rabs (- / 2) <= C * C) by now rewrite Rabs_Ropp.
  assert (Ce : 0 <= C * C * e) by (apply Rmult_le_pos; lra).
  assert (Z0 : about f0 0 (4 * (C * C * e) + 110 * (u * (C * C * B)))) by (destruct lit_0 as (N & E); split; [exact N|]; rewrite E, Rminus_0_r, Rabs_R0; lra).
  assert (Fl : forall i, (0 <= i < 6)%Z -> within (4 * B) (ql i)) by (intros; now apply Hf). assert (Fr : forall i, (0 <= i < 6)%Z -> within (4 * B) (qr i)) by (intros; now apply Hg).
  assert (Gl : forall i, (0 <= i < 6)%Z -> about (ql i) (f i) e) by (intros; now apply Hf). assert (Gr : forall i, (0 <= i < 6)%Z -> about (qr i) (g i) e) by (intros; now apply Hg).
  change (zrange 0 6) with [0; 1; 2; 3; 4; 5]%Z. cbn [map]. unfold flux_of, maxwell_flux.
  assert (GO : forall p q a b a' b' P Q A A' B0 B' r, about p P (3 * (u * (C * C))) -> about q Q (3 * (u * (C * C))) -> Rabs P <= C * C -> Rabs Q <= C * C -> within (C * C) p -> within (C * C) q ->
    about a A e -> about b B0 e -> about a' A' e -> about b' B' e -> within (4 * B) a -> within (4 * B) b -> within (4 * B) a' -> within (4 * B) b' -> P * (A + B0) + Q * (A' - B') = r ->
    about (p * (a + b) + q * (a' - b'))%F r (4 * (C * C * e) + 110 * (u * (C * C * B)))) by (intros; subst; now apply comp_about).
  revert j Hj. destruct d as [|[|[|d]]]; [| | |lia]; cbn [Z.of_nat Pos.of_succ_nat Pos.succ Z.eqb Pos.eqb]; apply six_cases; change (Z.to_nat 0) with 0%nat; change (Z.to_nat 1) with 1%nat; change (Z.to_nat 2) with 2%nat; change (Z.to_nat 3) with 3%nat;
    change (Z.to_nat 4) with 4%nat; change (Z.to_nat 5) with 5%nat; cbn [nth];
    first [exact Z0|eapply GO; [first [exact Aef|exact Anef|exact Abf|exact Anbf]|exact Aed|assumption|assumption|assumption|assumption|apply Gr; lia|apply Gl; lia|apply Gr; lia|apply Gl; lia|apply Fr; lia|apply Fl; lia|apply Fr; lia|apply Fl; lia|field]].
Qed.
End Fluxes.

Lemma wall_near : forall F (A : Arith F) n G M P d (v : field F) x j s, (d < List.length M)%nat -> (2 <= hi M d - lo M d)%Z -> in_box (M ++ P) x -> (s = 0 \/ s = 1)%Z ->
  wall n G (seen Periodic M d v) d (move d s x) j =
  nth (Z.to_nat j) (G d (map (fun i => left_value (v (around M d (s - 2) x ++ [i])) (v (around M d (s - 1) x ++ [i])) (v (around M d s x ++ [i]))) (zrange 0 n))
                        (map (fun i => right_value (v (around M d (s - 1) x ++ [i])) (v (around M d s x ++ [i])) (v (around M d (s + 1) x ++ [i]))) (zrange 0 n))) f0.
Proof.
  intros F A n G M P d v x j s Hd Hw Hx Hs. unfold wall, left_state, right_state. pose proof (in_box_inside M P x Hx) as HI.
  assert (Hl : (d < List.length x)%nat) by (apply Forall2_length in Hx; rewrite app_length in Hx; lia).
  assert (Hp : (lo M d <= nth d x 0 < hi M d)%Z) by (apply HI; exact Hd).
  f_equal. f_equal; apply map_ext; intros i; rewrite !move_move, !seen_periodic by (lia || auto); reflexivity.
Qed.

(** ** the right-hand side *)
Section Rhs.
Variables (c : spec_float) (M P : box) (dx : nat -> spec_float) (ds : list nat) (B C X : R) (v : field spec_float).
Hypothesis HB : 1 <= B <= far.
Hypothesis HC : 1 <= C.
Hypothesis HX : 1 <= X.
Hypothesis Hc : within C c.
Hypothesis Hpos : 0 < real c.
Hypothesis HL : 1000 * (C * C * X * B) <= far.
Hypothesis Hdx : forall d, In d ds -> number (dx d) /\ / X <= real (dx d).
Hypothesis H3 : forall d, In d ds -> (d < 3)%nat.
Hypothesis Hlen : (List.length ds <= 3)%nat.
Hypothesis Hds : forall d, In d ds -> (d < List.length M)%nat /\ (2 <= hi M d - lo M d)%Z.
Hypothesis Hv : forall x j, in_box (M ++ P) x -> (0 <= j < 6)%Z -> within B (v (x ++ [j])).
Hypothesis Hz : no_zero_divisor M (M ++ P) ds 6 v.
Let S : R := C * C * X * B.
Let Q : R := 18 * S.

Lemma wall_about : forall d x j s, In d ds -> in_box (M ++ P) x -> (0 <= j < 6)%Z -> (s = 0 \/ s = 1)%Z ->
  about (wall 6 (flux_of (maxwell_flux c)) (seen Periodic M d v) d (move d s x) j)
    (flux_at (real c) d (lefts M d (fun q => real (v q)) x s) (rights M d (fun q => real (v q)) x s) j) (20 * (C * C) * eps + 330 * (u * (C * C * B))).
Proof.
  intros d x j s Hd Hx Hj Hs. destruct (Hds d Hd) as (Ld & Hw). pose proof (CC C HC) as C0. destruct (CCB B C ltac:(lra) HC) as (C1 & C2). pose proof far_large. pose proof far_1.
  assert (CS : C * C * B <= S). { unfold S. replace (C * C * X * B) with (C * C * B * X) by ring. rewrite <- (Rmult_1_r (C * C * B)) at 1. apply Rmult_le_compat_l; lra. } fold S in HL.
  rewrite (wall_near _ _ 6 _ M P) by auto.
  assert (SZ : forall t i, (0 <= i < 6)%Z -> within B (v (around M d t x ++ [i]))) by (intros t i Hi; apply Hv; [apply around_in_box; [exact Ld|lia|exact Hx]|exact Hi]).
  assert (Lx : (d < List.length x)%nat) by (apply Forall2_length in Hx; rewrite app_length in Hx; lia). assert (Hp : (lo M d <= nth d x 0 < hi M d)%Z) by (apply (in_box_inside M P x Hx); exact Ld).
  assert (DZ : forall t i, (0 <= i < 6)%Z -> (-1 <= t <= 2)%Z -> real (v (around M d t x ++ [i]) - v (around M d (t - 1) x ++ [i]) + fdec 1 (-12))%F <> 0).
  { intros t i Hi Ht. pose proof (Hz d x i t Hd Hx Hi Ht) as Z. rewrite !seen_periodic in Z by (auto; lia). exact Z. }
  eapply about_le; [apply (flux_about B C (55 * (u * B) + 5 * eps) c); auto; try lra|].
  - pose proof (uz B ltac:(lra)). lra.
  - intros i Hi. cbn beta. replace (s - 2)%Z with (s - 1 - 1)%Z by lia. assert (Z := DZ (s - 1)%Z i Hi ltac:(lia)). split; [apply w_left; auto|].
    unfold lefts. replace (s - 2)%Z with (s - 1 - 1)%Z by lia. apply left_about; auto.
  - intros i Hi. cbn beta. assert (Z := DZ (s + 1)%Z i Hi ltac:(lia)). replace (s + 1 - 1)%Z with s in Z by lia. split; [apply w_right; auto|]. unfold rights. apply right_about; auto.
  - replace (C * C * (55 * (u * B) + 5 * eps)) with (55 * (u * (C * C * B)) + 5 * (C * C) * eps) by ring. lra.
Qed.

Let rate : field R := fv_rhs 6 (rusanov_flux (real c)) M (fun _ => Periodic) (fun d => real (dx d)) ds (fun q => real (v q)).

Lemma S_sizes : C * C * B <= S /\ 1 <= S /\ B <= S /\ C * C <= S /\ C * C * X <= S /\ 1000 * S <= far.
Proof.
  pose proof (CC C HC). destruct (CCB B C ltac:(lra) HC) as (C1 & C2). assert (E : C * C * B <= S).
  { unfold S. replace (C * C * X * B) with (C * C * B * X) by ring. rewrite <- (Rmult_1_r (C * C * B)) at 1. apply Rmult_le_compat_l; lra. }
  assert (E2 : C * C * X <= S). { unfold S. rewrite <- (Rmult_1_r (C * C * X)) at 1. apply Rmult_le_compat_l; [|lra]. apply Rmult_le_pos; lra. }
  repeat split; try lra. exact HL.
Qed.

Lemma spacing_ok : forall d, In d ds -> number (dx d) /\ / X <= Rabs (real (dx d)).
Proof. intros d Hd. destruct (Hdx d Hd) as (N & L). split; [exact N|]. rewrite Rabs_pos_eq; [exact L|]. assert (0 < / X) by (apply Rinv_0_lt_compat; lra). lra. Qed.

Lemma rhs_size : forall x j, in_box (M ++ P) x -> within (105 * S) (fv_rhs 6 (flux_of (maxwell_flux c)) M (fun _ => Periodic) dx ds v (x ++ [j])).
Proof. destruct S_sizes as (S1 & S2 & S3 & S4 & S5 & S6). intros x j Hx. apply (w_rhs c M P dx ds B C X v); auto; [unfold S in *; lra|exact spacing_ok]. Qed.

Lemma flow_about : forall d x j s, In d ds -> in_box (M ++ P) x -> (0 <= j < 6)%Z -> (s = 0 \/ s = 1)%Z ->
  Rabs (real (wall 6 (flux_of (maxwell_flux c)) (seen Periodic M d v) d (move d s x) j / dx d)%F -
    flux_at (real c) d (lefts M d (fun q => real (v q)) x s) (rights M d (fun q => real (v q)) x s) j / real (dx d)) <= 20 * (C * C * X) * eps + 350 * (u * S).
Proof.
  intros d x j s Hd Hx Hj Hs. destruct (Hdx d Hd) as (N & L). destruct S_sizes as (S1 & S2 & S3 & S4 & S5 & S6). pose proof far_large. pose proof far_1. pose proof u_pos. pose proof h_u. pose proof tiny_pos.
  assert (IX : 0 < / X) by (apply Rinv_0_lt_compat; lra). assert (Hw := w_wall c M P ds B C X v HB HC HX Hc ltac:(unfold S in *; lra) Hds Hv Hz d x j s Hd Hx Hs).
  pose proof (wall_about d x j s Hd Hx Hj Hs) as A. assert (R0 : Rabs (real (dx d)) = real (dx d)) by (apply Rabs_pos_eq; lra).
  assert (IL : / real (dx d) <= X) by (rewrite <- (Rinv_inv X); apply Rinv_le_contravar; lra). assert (I0 : 0 < / real (dx d)) by (apply Rinv_0_lt_compat; lra).
  pose proof (CC C HC). assert (C0 : 0 <= C * C * B) by (apply Rmult_le_pos; lra).
  assert (QL : 17 * (C * C * B) / real (dx d) <= 17 * S).
  { unfold Rdiv. replace (17 * S) with (17 * (C * C * B) * X) by (unfold S; ring). apply Rmult_le_compat_l; lra. }
  pose proof (about_div _ (dx d) _ _ _ A N ltac:(lra) (proj2 Hw)) as D. rewrite R0 in D. specialize (D ltac:(lra)).
  eapply Rle_trans; [apply (about_is _ _ _ D)|].
  assert (E1 : (20 * (C * C) * eps + 330 * (u * (C * C * B))) / real (dx d) <= (20 * (C * C) * eps + 330 * (u * (C * C * B))) * X).
  { unfold Rdiv. apply Rmult_le_compat_l; [|lra]. pose proof (uz (C * C * B) C0). assert (0 <= 20 * (C * C) * eps) by (apply Rmult_le_pos; lra). lra. }
  replace ((20 * (C * C) * eps + 330 * (u * (C * C * B))) * X) with (20 * (C * C * X) * eps + 330 * (u * S)) in E1 by (unfold S; ring).
  assert (E2 : u * (17 * (C * C * B) / real (dx d)) <= u * (17 * S)) by (apply Rmult_le_compat_l; lra). assert (u * 1 <= u * S) by (apply Rmult_le_compat_l; lra). lra.
Qed.

Lemma rhs_about : forall x j, in_box (M ++ P) x -> (0 <= j < 6)%Z ->
  about (fv_rhs 6 (flux_of (maxwell_flux c)) M (fun _ => Periodic) dx ds v (x ++ [j])) (rate (x ++ [j])) (120 * (C * C * X) * eps + 3000 * (u * S)).
Proof.
  intros x j Hx Hj. destruct S_sizes as (S1 & S2 & S3 & S4 & S5 & S6). pose proof far_large. pose proof far_1. pose proof u_pos. pose proof h_u. pose proof tiny_pos.
  assert (MD : moderate 6 (flux_of (maxwell_flux c)) M (M ++ P) dx ds B (18 * S) v).
  { split; [exact Hv|]. intros d y i s Hd Hy Hi Hs. eapply within_le; [apply (w_flow c M P dx ds B C X v HB HC HX Hc ltac:(unfold S in *; lra) spacing_ok Hds Hv Hz d y i s Hd Hy Hs)|]. unfold S in *. lra. }
  destruct (fv_rate 6 (flux_of (maxwell_flux c)) M P dx ds B (18 * S) v x j Hlen ltac:(lra) ltac:(lra) MD Hx Hj (fun d Hd => proj1 (Hds d Hd))) as (A & _).
  assert (HW : wide M 2 ds) by (intros d Hd; destruct (Hds d Hd); split; [assumption|lia]).
  unfold rate. rewrite (rate_at (real c) P M (fun d => real (dx d)) ds (fun q => real (v q)) x j HW Hx). unfold exact_rate in A.
  set (K := 20 * (C * C * X) * eps + 350 * (u * S)). assert (K0 : 0 <= K) by (unfold K; pose proof (uz S ltac:(lra)); assert (0 <= 20 * (C * C * X) * eps) by (apply Rmult_le_pos; [|lra]; pose proof (CC C HC); assert (0 <= C * C * X) by (apply Rmult_le_pos; lra); lra); lra).
  match type of A with about _ (sum_over ds ?a) _ => match goal with |- about _ (sum_over ds ?b) _ => assert (D : Rabs (sum_over ds a - sum_over ds b) <= 6 * K); [set (a0 := a); set (b0 := b)|] end end.
  - assert (Dd : forall d, In d ds -> Rabs (a0 d - b0 d) <= 2 * K).
    { intros d Hd. unfold a0, b0. pose proof (flow_about d x j 0 Hd Hx Hj ltac:(now left)) as F0. pose proof (flow_about d x j 1 Hd Hx Hj ltac:(now right)) as F1. fold K in F0, F1.
      rewrite move_0 in F0 by (destruct (Hds d Hd); apply Forall2_length in Hx; rewrite app_length in Hx; lia). rewrite Rdiv_minus_distr. apply Rabs_both in F0. apply Rabs_both in F1. apply Rabs_le. lra. }
    assert (Dl : Rabs (sum_over ds a0 - sum_over ds b0) <= INR (List.length ds) * (2 * K)).
    { clear - Dd. unfold sum_over. induction ds as [|d l IH]; cbn [map fold_right List.length]; [rewrite Rminus_0_r, Rabs_R0; cbn; lra|]. rewrite S_INR. specialize (IH (fun d Hd => Dd d (or_intror Hd))). pose proof (Dd d (or_introl eq_refl)) as D0.
      apply Rabs_both in IH. apply Rabs_both in D0. apply Rabs_le. lra. }
    eapply Rle_trans; [exact Dl|]. apply le_INR in Hlen. cbn in Hlen. replace (6 * K) with (3 * (2 * K)) by ring. apply Rmult_le_compat_r; lra.
  - eapply about_le; [apply (about_near _ _ _ _ _ A D)|]. unfold K. assert (u * 1 <= u * S) by (apply Rmult_le_compat_l; lra). lra.
Qed.
End Rhs.

(** ** a step *)
Section Step.
Variables (dt : spec_float) (T b K rho : R).
Hypothesis HT : within T dt.
Hypothesis Hb : 1 <= b <= far.
Hypothesis HK : 1 <= K <= far.
Hypothesis HTK : T <= far /\ T * K <= far.
Hypothesis Hrho : 0 <= rho.
Let tau := T * rho + 4 * (u * (b + T * K)).

Lemma step_near : forall x r1 r2 r3 k1 k2 k3, within b x -> within K r1 -> within K r2 -> within K r3 -> about r1 k1 rho -> about r2 k2 rho -> about r3 k3 rho ->
  let x1 := (x + dt * r1)%F in let x2 := (fdec 75 (-2) * x + fdec 25 (-2) * x1 + fdec 25 (-2) * dt * r2)%F in within b x1 -> within b x2 ->
  about x1 (real x + real dt * k1) tau /\ about x2 (3 / 4 * real x + / 4 * (real x1 + real dt * k2)) tau /\
  about ((x + fofz 2 * (x2 + dt * r3)) / fofz 3)%F ((real x + 2 * (real x2 + real dt * k3)) / 3) tau.
Proof.
  intros x r1 r2 r3 k1 k2 k3 Wx W1 W2 W3 A1 A2 A3 x1 x2 V1 V2. pose proof (w_nonneg _ _ HT) as T0.
  pose proof u_pos. pose proof u_small. pose proof tiny_pos. pose proof tiny_small. pose proof h_u. pose proof far_large. pose proof far_1. pose proof large_large.
  assert (TK : 0 <= T * K) by (apply Rmult_le_pos; lra). assert (Tr : 0 <= T * rho) by (apply Rmult_le_pos; lra). pose proof (uz b ltac:(lra)). pose proof (uz (T * K) TK). assert (ub : u * 1 <= u * b) by (apply Rmult_le_compat_l; lra).
  assert (ET : tau = T * rho + 4 * (u * b) + 4 * (u * (T * K))) by (unfold tau; ring). rewrite ET. clear ET tau.
  destruct Wx as (Nx & Bx). destruct V1 as (N1 & B1). destruct V2 as (N2 & B2). destruct HT as (Nt & Bt).
  assert (E : forall r k, within K r -> about r k rho -> about (dt * r)%F (real dt * k) (T * rho + u * (T * K) + h) /\ Rabs (real (dt * r)%F) <= 101 / 100 * (T * K) + h).
  { intros r k (Nr & Br) Ar. split; [eapply about_le; [apply (about_mul dt r _ k 0 rho T K (about_self _ Nt) Ar Bt Bt Br)|]; lra|].
    eapply Rle_trans; [apply (about_size _ _ _ (T * K) (about_mul dt r _ _ 0 0 T K (about_self _ Nt) (about_self _ Nr) Bt Bt Br ltac:(lra)))|]; [rewrite Rabs_mult; apply Rmult_le_compat; auto using Rabs_pos|lra]. }
  destruct (E r1 k1 W1 A1) as (D1 & S1). destruct (E r3 k3 W3 A3) as (D3 & S3). clear E.
  destruct lit_2 as (L2 & E2). destruct lit_3 as (L3 & E3). destruct lit_75 as (L75 & E75). destruct lit_25 as (L25 & E25).
  assert (uh : 0 <= u * h <= h) by (split; [apply Rmult_le_pos; lra|]; rewrite <- (Rmult_1_l h) at 2; apply Rmult_le_compat_r; lra).
  split; [|split].
  - eapply about_le; [apply (about_add x _ _ _ 0 _ b _ (about_self _ Nx) D1 Bx S1)|]; [lra|]. replace (u * (b + (101 / 100 * (T * K) + h))) with (u * b + 101 / 100 * (u * (T * K)) + u * h) by ring. lra.
  - pose proof (about_self _ L75) as M75. rewrite E75 in M75. pose proof (about_self _ L25) as M25. rewrite E25 in M25.
    assert (G1 : about (fdec 75 (-2) * x)%F (3 / 4 * real x) (3 / 4 * (u * b) + h)) by (eapply about_le; [apply (about_mul _ x _ _ 0 0 (3 / 4) b M75 (about_self _ Nx)); [rewrite Rabs_pos_eq; lra|rewrite E75, Rabs_pos_eq; lra|exact Bx|lra]|lra]).
    assert (G2 : about (fdec 25 (-2) * x1)%F (1 / 4 * real x1) (1 / 4 * (u * b) + h)) by (eapply about_le; [apply (about_mul _ x1 _ _ 0 0 (1 / 4) b M25 (about_self _ N1)); [rewrite Rabs_pos_eq; lra|rewrite E25, Rabs_pos_eq; lra|exact B1|lra]|lra]).
    assert (Z1 : Rabs (3 / 4 * real x) <= 3 / 4 * b) by (rewrite Rabs_mult, (Rabs_pos_eq (3 / 4)) by lra; lra). assert (Z2 : Rabs (1 / 4 * real x1) <= 1 / 4 * b) by (rewrite Rabs_mult, (Rabs_pos_eq (1 / 4)) by lra; lra).
    assert (Y1 : Rabs (real (fdec 75 (-2) * x)%F) <= 76 / 100 * b) by (eapply Rle_trans; [apply (about_size _ _ _ _ G1 Z1)|lra]). assert (Y2 : Rabs (real (fdec 25 (-2) * x1)%F) <= 26 / 100 * b) by (eapply Rle_trans; [apply (about_size _ _ _ _ G2 Z2)|lra]).
    assert (G3 : about (fdec 75 (-2) * x + fdec 25 (-2) * x1)%F (3 / 4 * real x + 1 / 4 * real x1) (203 / 100 * (u * b))).
    { eapply about_le; [apply (about_add _ _ _ _ _ _ _ _ G1 G2 Y1 Y2)|]; [lra|]. replace (u * (76 / 100 * b + 26 / 100 * b)) with (102 / 100 * (u * b)) by field. lra. }
    assert (Y3 : Rabs (real (fdec 75 (-2) * x + fdec 25 (-2) * x1)%F) <= 103 / 100 * b) by (eapply Rle_trans; [apply (about_size _ _ _ (3 / 4 * b + 1 / 4 * b) G3)|lra]; eapply Rle_trans; [apply Rabs_triang|lra]).
    pose proof (uz T T0) as uT.
    assert (G4 : about (fdec 25 (-2) * dt)%F (1 / 4 * real dt) (1 / 4 * (u * T) + h)) by (eapply about_le; [apply (about_mul _ dt _ _ 0 0 (1 / 4) T M25 (about_self _ Nt)); [rewrite Rabs_pos_eq; lra|rewrite E25, Rabs_pos_eq; lra|exact Bt|lra]|lra]).
    assert (Z4 : Rabs (1 / 4 * real dt) <= 1 / 4 * T) by (rewrite Rabs_mult, (Rabs_pos_eq (1 / 4)) by lra; lra).
    assert (Y4 : Rabs (real (fdec 25 (-2) * dt)%F) <= 26 / 100 * T + h) by (eapply Rle_trans; [apply (about_size _ _ _ _ G4 Z4)|lra]).
    pose proof (fh_u K ltac:(lra)) as hK. assert (PK : (26 / 100 * T + h) * K = 26 / 100 * (T * K) + h * K) by ring.
    assert (hr : 0 <= h * rho) by (apply Rmult_le_pos; lra).
    assert (G5 : about (fdec 25 (-2) * dt * r2)%F (1 / 4 * real dt * k2) (1 / 4 * (T * rho) + 52 / 100 * (u * (T * K)) + 1 / 100 * u)).
    { assert (Q4 : about (fdec 25 (-2) * dt * r2)%F (real (fdec 25 (-2) * dt)%F * real r2) (u * (26 / 100 * (T * K) + h * K) + h)).
      { destruct W2 as (Nr & Br). rewrite <- PK. eapply about_le; [apply (about_mul _ r2 _ _ 0 0 (26 / 100 * T + h) K (about_self _ (proj1 G4)) (about_self _ Nr) Y4 Y4 Br); rewrite PK; lra|lra]. }
      assert (Q5 : Rabs (real (fdec 25 (-2) * dt)%F * real r2 - 1 / 4 * real dt * k2) <= (1 / 4 * (u * T) + h) * K + 1 / 4 * T * rho).
      { replace (real (fdec 25 (-2) * dt)%F * real r2 - 1 / 4 * real dt * k2) with ((real (fdec 25 (-2) * dt)%F - 1 / 4 * real dt) * real r2 + 1 / 4 * real dt * (real r2 - k2)) by ring.
        eapply Rle_trans; [apply Rabs_triang|]. rewrite !(Rabs_mult (_ - _)). rewrite (Rabs_mult (1 / 4 * real dt)). apply Rplus_le_compat; apply Rmult_le_compat; auto using Rabs_pos; [apply G4|apply W2|apply A2]. }
      eapply about_le; [apply (about_near _ _ _ _ _ Q4 Q5)|]. replace ((1 / 4 * (u * T) + h) * K + 1 / 4 * T * rho) with (1 / 4 * (u * (T * K)) + h * K + 1 / 4 * (T * rho)) by ring.
      replace (u * (26 / 100 * (T * K) + h * K)) with (26 / 100 * (u * (T * K)) + u * (h * K)) by ring. assert (u * (h * K) <= 1 * (h * K)) by (apply Rmult_le_compat_r; lra). lra. }
    assert (Y5 : Rabs (real (fdec 25 (-2) * dt * r2)%F) <= 27 / 100 * (T * K) + 1 / 100).
    { destruct W2 as (Nr & Br). eapply Rle_trans; [apply (about_size _ _ _ (26 / 100 * (T * K) + h * K) (about_mul _ r2 _ _ 0 0 (26 / 100 * T + h) K (about_self _ (proj1 G4)) (about_self _ Nr) Y4 Y4 Br ltac:(rewrite PK; lra)))|].
      - rewrite Rabs_mult, <- PK. apply Rmult_le_compat; auto using Rabs_pos.
      - rewrite PK. replace (u * (26 / 100 * (T * K) + h * K)) with (26 / 100 * (u * (T * K)) + u * (h * K)) by ring. assert (u * (h * K) <= 1 * (h * K)) by (apply Rmult_le_compat_r; lra). lra. }
    replace (3 / 4 * real x + / 4 * (real x1 + real dt * k2)) with (3 / 4 * real x + 1 / 4 * real x1 + 1 / 4 * real dt * k2) by field.
    eapply about_le; [apply (about_add _ _ _ _ _ _ _ _ G3 G5 Y3 Y5)|]; [lra|]. replace (u * (103 / 100 * b + (27 / 100 * (T * K) + 1 / 100))) with (103 / 100 * (u * b) + 27 / 100 * (u * (T * K)) + 1 / 100 * u) by field. lra.
  - assert (F1 : about (x2 + dt * r3)%F (real x2 + real dt * k3) (T * rho + 203 / 100 * (u * (T * K)) + 101 / 100 * (u * b))).
    { eapply about_le; [apply (about_add x2 _ _ _ 0 _ b _ (about_self _ N2) D3 B2 S3)|]; [lra|]. replace (u * (b + (101 / 100 * (T * K) + h))) with (u * b + 101 / 100 * (u * (T * K)) + u * h) by ring. lra. }
    assert (Y1 : Rabs (real (x2 + dt * r3)%F) <= 101 / 100 * b + 102 / 100 * (T * K)).
    { eapply Rle_trans; [apply (about_size _ _ _ (b + (101 / 100 * (T * K) + h)) (about_add x2 _ _ _ 0 0 b _ (about_self _ N2) (about_self _ (proj1 D3)) B2 S3 ltac:(lra)))|]; [eapply Rle_trans; [apply Rabs_triang|lra]|].
      replace (u * (b + (101 / 100 * (T * K) + h))) with (u * b + 101 / 100 * (u * (T * K)) + u * h) by ring. lra. }
    pose proof (about_self _ L2) as M2. rewrite E2 in M2.
    set (Y := 101 / 100 * b + 102 / 100 * (T * K)) in *. assert (uY : u * Y = 101 / 100 * (u * b) + 102 / 100 * (u * (T * K))) by (unfold Y; field).
    assert (F2 : about (fofz 2 * (x2 + dt * r3))%F (2 * (real x2 + real dt * k3)) (2 * (T * rho) + 611 / 100 * (u * (T * K)) + 405 / 100 * (u * b))).
    { eapply about_le; [apply (about_mul _ _ _ _ 0 _ 2 Y M2 F1); [rewrite Rabs_pos_eq; lra|rewrite E2, Rabs_pos_eq; lra|exact Y1|unfold Y; lra]|]. replace (u * (2 * Y)) with (2 * (u * Y)) by ring. rewrite uY. lra. }
    assert (Y2 : Rabs (real (fofz 2 * (x2 + dt * r3))%F) <= 203 / 100 * b + 205 / 100 * (T * K)).
    { eapply Rle_trans; [apply (about_size _ _ _ (2 * Y) (about_mul _ _ _ _ 0 0 2 Y M2 (about_self _ (proj1 F1)) ltac:(rewrite Rabs_pos_eq; lra) ltac:(rewrite E2, Rabs_pos_eq; lra) Y1 ltac:(unfold Y; lra)))|].
      - rewrite Rabs_mult, (Rabs_pos_eq 2) by lra. apply Rmult_le_compat_l; lra.
      - replace (u * (2 * Y)) with (2 * (u * Y)) by ring. rewrite uY. unfold Y. lra. }
    assert (F3 : about (x + fofz 2 * (x2 + dt * r3))%F (real x + 2 * (real x2 + real dt * k3)) (2 * (T * rho) + 817 / 100 * (u * (T * K)) + 709 / 100 * (u * b))).
    { eapply about_le; [apply (about_add x _ _ _ 0 _ b _ (about_self _ Nx) F2 Bx Y2)|]; [lra|]. replace (u * (b + (203 / 100 * b + 205 / 100 * (T * K)))) with (303 / 100 * (u * b) + 205 / 100 * (u * (T * K))) by field. lra. }
    assert (Y3 : Rabs (real (x + fofz 2 * (x2 + dt * r3))%F) <= 305 / 100 * b + 207 / 100 * (T * K)).
    { eapply Rle_trans; [apply (about_size _ _ _ (b + (203 / 100 * b + 205 / 100 * (T * K))) (about_add x _ _ _ 0 0 b _ (about_self _ Nx) (about_self _ (proj1 F2)) Bx Y2 ltac:(lra)))|]; [eapply Rle_trans; [apply Rabs_triang|lra]|].
      replace (u * (b + (203 / 100 * b + 205 / 100 * (T * K)))) with (303 / 100 * (u * b) + 205 / 100 * (u * (T * K))) by field. lra. }
    assert (R3 : Rabs (real (fofz 3)) = 3) by (rewrite E3; apply Rabs_pos_eq; lra).
    pose proof (about_div _ (fofz 3) _ _ _ F3 L3 ltac:(rewrite E3; lra) Y3) as F4. rewrite R3, E3 in F4. eapply about_le; [apply F4; lra|].
    replace (u * ((305 / 100 * b + 207 / 100 * (T * K)) / 3)) with (305 / 300 * (u * b) + 69 / 100 * (u * (T * K))) by field. lra.
Qed.
End Step.

(** ** a run *)
Section Run.
Variables (c dt : spec_float) (M P : box) (dx : nat -> spec_float) (ds : list nat) (C X T : R).
Hypothesis HC : 1 <= C.
Hypothesis HX : 1 <= X.
Hypothesis HT : within T dt.
Hypothesis Hc : within C c.
Hypothesis Hpos : 0 < real c.
Hypothesis Hdt : 0 <= real dt.
Hypothesis H3 : forall d, In d ds -> (d < 3)%nat.
Hypothesis Hlen : (List.length ds <= 3)%nat.
Hypothesis Hdx : forall d, In d ds -> number (dx d) /\ / X <= real (dx d).
Hypothesis Hds : forall d, In d ds -> (d < List.length M)%nat /\ (2 <= hi M d - lo M d)%Z.
Let Op : @sys spec_float -> @sys spec_float := fun V _ => fv_rhs 6 (flux_of (maxwell_flux c)) M (fun _ => Periodic) dx ds (V 0%nat).
Let rx : nat -> R := fun d => real (dx d).
Let rate (w : field R) : field R := fv_rhs 6 (rusanov_flux (real c)) M (fun _ => Periodic) rx ds w.
Let Ex : @sys R -> @sys R := fun V _ => rate (V 0%nat).
Definition reals (v : field spec_float) : field R := fun q => real (v q).
Let tol := tolerance (real c).
Let m := Rmax 1 (/ real c).
Let near (D : R) (v : field spec_float) (w : field R) : Prop := alike (real c) D (M ++ P) (reals v) w.
Let a := 1 + 20 * real dt * real c * sum_over ds (fun d => / rx d).

Lemma rx_pos : forall d, In d ds -> 0 < rx d.
Proof. intros d Hd. destruct (Hdx d Hd) as (_ & L). assert (0 < / X) by (apply Rinv_0_lt_compat; lra). unfold rx. lra. Qed.
Lemma a_1 : 1 <= a.
Proof.
  unfold a. assert (0 <= sum_over ds (fun d => / rx d)).
  { unfold sum_over. pose proof rx_pos as RP. clear - RP. induction ds as [|i l IH]; cbn [map fold_right]; [lra|]. specialize (IH (fun d Hd => RP d (or_intror Hd))). pose proof (Rinv_0_lt_compat _ (RP i (or_introl eq_refl))). lra. }
  assert (0 <= 20 * real dt * real c * sum_over ds (fun d => / rx d)) by (repeat apply Rmult_le_pos; lra). lra.
Qed.
Lemma m_1 : 1 <= m /\ 1 <= m * real c /\ 0 <= tol.
Proof.
  pose proof (Rmax_l 1 (/ real c)) as M1. pose proof (Rmax_r 1 (/ real c)) as M2. fold m in M1, M2. split; [exact M1|]. split.
  - apply Rmult_le_compat_r with (r := real c) in M2; [|lra]. rewrite Rinv_l in M2; lra.
  - unfold tol, tolerance. fold m. lra.
Qed.

Lemma rates_alike : forall D w w', 0 <= D -> alike (real c) D (M ++ P) w w' -> alike (real c) (20 * real c * sum_over ds (fun d => / rx d) * (D + tol)) (M ++ P) (rate w) (rate w').
Proof.
  intros D w w' HD H.
  assert (Q := rates_near (real c) M M P (fun x => x) (fun i => i) (fun _ => true) (fun _ => 1) (fun j => j) 1 ds ds rx rx Hpos).
  assert (E : forall f : Z -> R, (fun j => 1 * f j) = f) by (intros f; apply FunctionalExtensionality.functional_extensionality; intros q; ring).
  assert (W : wide M 2 ds) by (intros d Hd; destruct (Hds d Hd); split; [assumption|lia]).
  assert (N : matching (real c) M P (fun x => x) (fun _ => 1) (fun j => j) D w w') by (intros x j Hx Hj; unfold weight; rewrite Rmult_1_l; now apply H).
  specialize (Q ltac:(intros; cbn beta; rewrite Rabs_R1; lra) ltac:(auto) W W ltac:(intros i Hi; repeat split; auto; now apply rx_pos) ltac:(reflexivity) ltac:(reflexivity)
    ltac:(intros i f g j Hi Hj; cbn beta iota; rewrite !E; ring) D w w' HD N).
  intros x j Hx Hj. specialize (Q x j Hx Hj). cbn beta in Q. rewrite Rmult_1_l in Q. unfold weight in Q. replace ((1 + 1) / 2 * tolerance (real c)) with tol in Q by (unfold tol; field). exact Q.
Qed.

Lemma wt_tau : forall t j, 0 <= t -> t <= m * t * (if (j <? 3)%Z then real c else 1).
Proof.
  intros t j Ht. destruct m_1 as (M1 & M2 & _). destruct (j <? 3)%Z.
  - replace (m * t * real c) with (m * real c * t) by ring. rewrite <- (Rmult_1_l t) at 1. apply Rmult_le_compat_r; lra.
  - rewrite Rmult_1_r. rewrite <- (Rmult_1_l t) at 1. apply Rmult_le_compat_r; lra.
Qed.

Section OneStep.
Variable b : R.
Hypothesis Hb : 1 <= b.
Hypothesis HL : 1000 * (C * C * X * (1 + T)) * b <= far.
Let t := stage_error C X T b.

Lemma b_sizes : 1 <= b <= far /\ 1000 * (C * C * X * b) <= far /\ 1 <= 105 * (C * C * X * b) <= far /\ T <= far /\ T * (105 * (C * C * X * b)) <= far /\ 0 <= t.
Proof.
  pose proof (CC C HC). pose proof (w_nonneg _ _ HT) as T0. pose proof u_pos. assert (CX : 1 <= C * C * X) by (rewrite <- (Rmult_1_l 1); apply Rmult_le_compat; lra).
  assert (CB : 1 <= C * C * X * b) by (rewrite <- (Rmult_1_l 1); apply Rmult_le_compat; lra). assert (bb : 1 * b <= C * C * X * b) by (apply Rmult_le_compat_r; lra).
  assert (CT : T * 1 <= T * (C * C * X * b)) by (apply Rmult_le_compat_l; lra). assert (0 <= T * (C * C * X * b)) by (apply Rmult_le_pos; lra).
  replace (1000 * (C * C * X * (1 + T)) * b) with (1000 * (C * C * X * b) + 1000 * (T * (C * C * X * b))) in HL by ring.
  repeat split; try lra. unfold t, stage_error. assert (0 <= u * b) by (apply Rmult_le_pos; lra). assert (0 <= C * C * X * T) by (apply Rmult_le_pos; lra).
  assert (0 <= C * C * X * T * (120 / 1000000000000 + 3500 * u * b)) by (apply Rmult_le_pos; lra). lra.
Qed.

Lemma one_step : forall U V D, 0 <= D -> (forall W, In W (stages Op dt U) -> sized M P b (W 0%nat) /\ no_zero_divisor M (M ++ P) ds 6 (W 0%nat)) -> near D (U 0%nat) (V 0%nat) ->
  near (a ^ 3 * (D + tol + 2 * (m * t)) - tol) (rk3 Op dt U 0%nat) (rk3 Ex (real dt) V 0%nat).
Proof.
  intros U V D HD HU HV. destruct b_sizes as (Sb & SL & SK & ST & STK & t0). destruct m_1 as (M1 & M2 & T1). pose proof a_1 as A1.
  unfold stages in HU. cbn zeta in HU. set (U1 := fun i c => (U i c + dt * Op U i c)%F) in *. set (U2 := fun i c => (fdec 75 (-2) * U i c + fdec 25 (-2) * U1 i c + fdec 25 (-2) * dt * Op U1 i c)%F) in *.
  destruct (HU U ltac:(now left)) as (Z0 & N0). destruct (HU U1 ltac:(right; now left)) as (Z1 & N1). destruct (HU U2 ltac:(right; right; now left)) as (Z2 & N2).
  set (K := 105 * (C * C * X * b)) in *. set (rho := 120 * (C * C * X) * eps + 3000 * (u * (C * C * X * b))).
  pose proof u_pos. pose proof (CC C HC). pose proof (w_nonneg _ _ HT) as T0. assert (CX : 1 <= C * C * X) by (rewrite <- (Rmult_1_l 1); apply Rmult_le_compat; lra). assert (CB : 1 <= C * C * X * b) by (rewrite <- (Rmult_1_l 1); apply Rmult_le_compat; lra).
  assert (rho0 : 0 <= rho) by (unfold rho; pose proof (uz (C * C * X * b) ltac:(lra)); assert (0 <= 120 * (C * C * X) * eps) by (apply Rmult_le_pos; lra); lra).
  assert (tE : T * rho + 4 * (u * (b + T * K)) <= t).
  { unfold t, stage_error, rho, K. pose proof (uz (C * C * X * b) ltac:(lra)). assert (0 <= T * (u * (C * C * X * b))) by (apply Rmult_le_pos; lra).
    replace (T * (120 * (C * C * X) * eps + 3000 * (u * (C * C * X * b))) + 4 * (u * (b + T * (105 * (C * C * X * b))))) with (C * C * X * T * (120 * eps) + 3420 * (T * (u * (C * C * X * b))) + 4 * (u * b)) by ring.
    replace (C * C * X * T * (120 / 1000000000000 + 3500 * u * b) + 4 * u * b) with (C * C * X * T * (120 * / 1000000000000) + 3500 * (T * (u * (C * C * X * b))) + 4 * (u * b)) by (field). lra. }
  assert (RS : forall W x j, sized M P b (W 0%nat) -> no_zero_divisor M (M ++ P) ds 6 (W 0%nat) -> in_box (M ++ P) x -> (0 <= j < 6)%Z ->
    within K (Op W 0%nat (x ++ [j])) /\ about (Op W 0%nat (x ++ [j])) (rate (reals (W 0%nat)) (x ++ [j])) rho).
  { intros W x j ZW NW Hx Hj. split; [apply (rhs_size c M P dx ds b C X (W 0%nat)); auto|apply (rhs_about c M P dx ds b C X (W 0%nat)); auto]. }
  assert (PT : forall x j, in_box (M ++ P) x -> (0 <= j < 6)%Z ->
    Rabs (reals (U1 0%nat) (x ++ [j]) - (reals (U 0%nat) (x ++ [j]) + real dt * rate (reals (U 0%nat)) (x ++ [j]))) <= t /\
    Rabs (reals (U2 0%nat) (x ++ [j]) - (3 / 4 * reals (U 0%nat) (x ++ [j]) + / 4 * (reals (U1 0%nat) (x ++ [j]) + real dt * rate (reals (U1 0%nat)) (x ++ [j])))) <= t /\
    Rabs (reals (rk3 Op dt U 0%nat) (x ++ [j]) - (reals (U 0%nat) (x ++ [j]) + 2 * (reals (U2 0%nat) (x ++ [j]) + real dt * rate (reals (U2 0%nat)) (x ++ [j]))) / 3) <= t).
  { intros x j Hx Hj. destruct (RS U x j Z0 N0 Hx Hj) as (W1 & R1). destruct (RS U1 x j Z1 N1 Hx Hj) as (W2 & R2). destruct (RS U2 x j Z2 N2 Hx Hj) as (W3 & R3).
    destruct (step_near dt T b K rho HT Sb SK ltac:(split; assumption) rho0 _ _ _ _ _ _ _ (Z0 x j Hx Hj) W1 W2 W3 R1 R2 R3 (Z1 x j Hx Hj) (Z2 x j Hx Hj)) as (Q1 & Q2 & Q3).
    split; [|split]; (eapply Rle_trans; [|exact tE]); [exact (about_is _ _ _ Q1)|exact (about_is _ _ _ Q2)|exact (about_is _ _ _ Q3)]. }
  set (tm := m * t). assert (tm0 : 0 <= tm) by (unfold tm; apply Rmult_le_pos; lra).
  set (S := sum_over ds (fun d => / rx d)) in *.
  (* a stage of Euler's method *)
  assert (EU : forall W (w : sys) E, 0 <= E -> near E (W 0%nat) (w 0%nat) -> forall x j, in_box (M ++ P) x -> (0 <= j < 6)%Z ->
    Rabs (second Ex (real dt) w 0%nat (x ++ [j]) - (reals (W 0%nat) (x ++ [j]) + real dt * rate (reals (W 0%nat)) (x ++ [j]))) <= (a * (E + tol) - tol) * (if (j <? 3)%Z then real c else 1)).
  { intros W w E HE Hn x j Hx Hj. pose proof (Hn x j Hx Hj) as Q0. pose proof (rates_alike E _ _ HE Hn x j Hx Hj) as Q1. fold S in Q1. unfold second. change (Ex w 0%nat (x ++ [j])) with (rate (w 0%nat) (x ++ [j])).
    set (wt := if (j <? 3)%Z then real c else 1) in *. replace ((a * (E + tol) - tol) * wt) with (E * wt + real dt * (20 * real c * S * (E + tol) * wt)) by (unfold a; fold S; ring).
    apply Rabs_both in Q0, Q1. apply Rabs_le. set (q := 20 * real c * S * (E + tol) * wt) in *. set (y := rate (w 0%nat) (x ++ [j])) in *. set (z := rate (reals (W 0%nat)) (x ++ [j])) in *.
    assert (real dt * - q <= real dt * (y - z)) by (apply Rmult_le_compat_l; lra). assert (real dt * (y - z) <= real dt * q) by (apply Rmult_le_compat_l; lra). lra. }
  assert (E1 : 0 <= a * (D + tol) - tol + tm). { assert (1 * (D + tol) <= a * (D + tol)) by (apply Rmult_le_compat_r; lra). lra. }
  assert (H1 : near (a * (D + tol) - tol + tm) (U1 0%nat) (second Ex (real dt) V 0%nat)).
  { intros x j Hx Hj. destruct (PT x j Hx Hj) as (Q & _). pose proof (EU U V D HD HV x j Hx Hj) as Q'. pose proof (wt_tau t j t0) as QT. fold tm in QT. apply Rabs_both in Q, Q'. apply Rabs_le. lra. }
  set (e := D + tol) in *. assert (He : 0 <= e) by (unfold e; lra).
  assert (H2 : near (a * a * e - tol + (1 + a / 4) * tm) (U2 0%nat) (third Ex (real dt) V 0%nat)).
  { intros x j Hx Hj. destruct (PT x j Hx Hj) as (_ & Q & _). pose proof (EU U1 (second Ex (real dt) V) _ E1 H1 x j Hx Hj) as Q'. pose proof (HV x j Hx Hj) as Q0. pose proof (wt_tau t j t0) as QT. fold tm in QT. unfold third.
    set (wt := if (j <? 3)%Z then real c else 1) in *. assert (W0 : 0 <= wt) by (unfold wt; destruct (j <? 3)%Z; lra).
    replace (a * (a * e - tol + tm + tol) - tol) with (a * a * e - tol + a * tm) in Q' by ring. assert (De : D * wt <= (a * a * e - tol) * wt).
    { apply Rmult_le_compat_r; [exact W0|]. assert (1 * e <= a * a * e) by (apply Rmult_le_compat_r; [exact He|]; rewrite <- (Rmult_1_l 1); apply Rmult_le_compat; lra). unfold e in *. lra. }
    replace ((a * a * e - tol + (1 + a / 4) * tm) * wt) with ((a * a * e - tol) * wt + tm * wt + / 4 * (a * tm * wt)) by field. rewrite Rmult_plus_distr_r in Q'.
    apply Rabs_both in Q, Q', Q0. apply Rabs_le. unfold second in Q'. unfold second. lra. }
  assert (E2 : 0 <= a * a * e - tol + (1 + a / 4) * tm).
  { assert (1 * e <= a * a * e) by (apply Rmult_le_compat_r; [exact He|]; rewrite <- (Rmult_1_l 1); apply Rmult_le_compat; lra). assert (0 <= (1 + a / 4) * tm) by (apply Rmult_le_pos; lra). unfold e in *. lra. }
  intros x j Hx Hj. destruct (PT x j Hx Hj) as (_ & _ & Q). pose proof (EU U2 (third Ex (real dt) V) _ E2 H2 x j Hx Hj) as Q'. pose proof (HV x j Hx Hj) as Q0. pose proof (wt_tau t j t0) as QT. fold tm in QT. rewrite rk3_third.
  set (wt := if (j <? 3)%Z then real c else 1) in *. assert (W0 : 0 <= wt) by (unfold wt; destruct (j <? 3)%Z; lra).
  assert (a2 : 1 <= a * a) by (rewrite <- (Rmult_1_l 1); apply Rmult_le_compat; lra). assert (a3 : a * a <= a * a * a) by (rewrite <- (Rmult_1_r (a * a)) at 1; apply Rmult_le_compat_l; lra). assert (a4 : a <= a * a) by (rewrite <- (Rmult_1_r a) at 1; apply Rmult_le_compat_l; lra).
  assert (B1 : (a * (a * a * e - tol + (1 + a / 4) * tm + tol) - tol) * wt = (a * a * a * e - tol) * wt + (a + a * a / 4) * (tm * wt)) by field. rewrite B1 in Q'.
  assert (tw : 0 <= tm * wt) by (now apply Rmult_le_pos). assert (B2 : (a + a * a / 4) * (tm * wt) <= 5 / 4 * (a * a * a) * (tm * wt)) by (apply Rmult_le_compat_r; lra). assert (B3 : 1 * (tm * wt) <= a * a * a * (tm * wt)) by (apply Rmult_le_compat_r; lra).
  assert (De : D * wt <= (a * a * a * e - tol) * wt).
  { apply Rmult_le_compat_r; [exact W0|]. assert (1 * e <= a * a * a * e) by (apply Rmult_le_compat_r; lra). unfold e in *. lra. }
  replace ((a ^ 3 * (e + 2 * tm) - tol) * wt) with ((a * a * a * e - tol) * wt + 2 * (a * a * a * (tm * wt))) by ring.
  apply Rabs_both in Q, Q', Q0. apply Rabs_le. unfold second in Q'.
  change (Ex (third Ex (real dt) V) 0%nat (x ++ [j])) with (rate (third Ex (real dt) V 0%nat) (x ++ [j])) in *. lra.
Qed.
End OneStep.

Lemma many_steps : forall n (U : sys) (V : sys) B D, 1 <= B -> 0 <= D -> 1000 * (C * C * X * (1 + T)) * (B * step_growth C X T ^ n) <= far -> sized M P B (U 0%nat) ->
  (forall i W, (i < n)%nat -> In W (stages Op dt (Nat.iter i (rk3 Op dt) U)) -> no_zero_divisor M (M ++ P) ds 6 (W 0%nat)) -> near D (U 0%nat) (V 0%nat) ->
  near ((a ^ 3) ^ n * (D + tol + 2 * INR n * (m * stage_error C X T (B * step_growth C X T ^ n))) - tol) (Nat.iter n (rk3 Op dt) U 0%nat) (Nat.iter n (rk3 Ex (real dt)) V 0%nat).
Proof.
  intros n U V B D HB HD HL HU HZ HV. set (b := B * step_growth C X T ^ n) in *. set (te := m * stage_error C X T b). destruct m_1 as (M1 & M2 & T1). pose proof a_1 as A1.
  assert (G1 : 1 <= step_growth C X T ^ n) by (apply pow_R1_Rle; apply (growth_1 dt C X T HC HX HT)). assert (Hb : 1 <= b) by (unfold b; rewrite <- (Rmult_1_l 1); apply Rmult_le_compat; lra).
  destruct (b_sizes b Hb HL) as (Sb & SL & SK & ST & STK & t0). assert (te0 : 0 <= te) by (unfold te; apply Rmult_le_pos; lra).
  assert (Hdx' : forall d, In d ds -> number (dx d) /\ / X <= Rabs (real (dx d))).
  { intros d Hd. destruct (Hdx d Hd) as (N & L). split; [exact N|]. rewrite Rabs_pos_eq; [exact L|]. assert (0 < / X) by (apply Rinv_0_lt_compat; lra). lra. }
  assert (HL' : 200 * (C * C * X * (1 + T)) * b <= far).
  { pose proof (w_nonneg _ _ HT) as T0. pose proof (CC C HC). assert (0 <= C * C * X * (1 + T)) by (apply Rmult_le_pos; [apply Rmult_le_pos|]; lra). assert (0 <= C * C * X * (1 + T) * b) by (apply Rmult_le_pos; lra). lra. }
  destruct (finite_run c dt M P dx ds C X T HC HX HT Hc Hlen Hdx' Hds n U B HB HL' HU HZ) as (_ & MD). fold Op in MD.
  assert (a3 : 1 <= a ^ 3) by (now apply pow_R1_Rle).
  assert (GO : forall k, (k <= n)%nat -> near ((a ^ 3) ^ k * (D + tol + 2 * INR k * te) - tol) (Nat.iter k (rk3 Op dt) U 0%nat) (Nat.iter k (rk3 Ex (real dt)) V 0%nat)).
  { induction k as [|k IH]; intros Hk.
    - change (Nat.iter 0 (rk3 Op dt) U) with U. change (Nat.iter 0 (rk3 Ex (real dt)) V) with V. cbn [pow INR]. replace (1 * (D + tol + 2 * 0 * te) - tol) with D by ring. exact HV.
    - specialize (IH ltac:(lia)). change (Nat.iter (S k) (rk3 Op dt) U) with (rk3 Op dt (Nat.iter k (rk3 Op dt) U)). change (Nat.iter (S k) (rk3 Ex (real dt)) V) with (rk3 Ex (real dt) (Nat.iter k (rk3 Ex (real dt)) V)).
      set (E := (a ^ 3) ^ k * (D + tol + 2 * INR k * te) - tol) in *. pose proof (pos_INR k) as K0. assert (P1 : 1 <= (a ^ 3) ^ k) by (now apply pow_R1_Rle). assert (kt : 0 <= 2 * INR k * te) by (apply Rmult_le_pos; lra).
      assert (E0 : 0 <= E). { unfold E. assert (1 * (D + tol + 2 * INR k * te) <= (a ^ 3) ^ k * (D + tol + 2 * INR k * te)) by (apply Rmult_le_compat_r; lra). lra. }
      pose proof (one_step b Hb HL (Nat.iter k (rk3 Op dt) U) (Nat.iter k (rk3 Ex (real dt)) V) E E0) as Q. fold te in Q. intros x j Hx Hj.
      eapply Rle_trans; [apply Q; auto|].
      + intros W HW. split; [exact (proj1 (MD k W ltac:(lia) HW))|exact (HZ k W ltac:(lia) HW)].
      + apply Rmult_le_compat_r; [destruct (j <? 3)%Z; lra|]. rewrite S_INR. unfold E. replace ((a ^ 3) ^ k * (D + tol + 2 * INR k * te) - tol + tol + 2 * te) with ((a ^ 3) ^ k * (D + tol + 2 * INR k * te) + 2 * te) by ring.
        change ((a ^ 3) ^ S k) with (a ^ 3 * (a ^ 3) ^ k). replace (a ^ 3 * (a ^ 3) ^ k * (D + tol + 2 * (INR k + 1) * te)) with (a ^ 3 * ((a ^ 3) ^ k * (D + tol + 2 * INR k * te) + (a ^ 3) ^ k * (2 * te))) by ring.
        assert (1 * (2 * te) <= (a ^ 3) ^ k * (2 * te)) by (apply Rmult_le_compat_r; lra).
        assert (a ^ 3 * ((a ^ 3) ^ k * (D + tol + 2 * INR k * te) + 2 * te) <= a ^ 3 * ((a ^ 3) ^ k * (D + tol + 2 * INR k * te) + (a ^ 3) ^ k * (2 * te))) by (apply Rmult_le_compat_l; lra). lra. }
  exact (GO n (le_n n)).
Qed.
End Run.
