(** * AccuracyGas: the accuracy of the right-hand side of the gas dynamics equations. *)
From Coq Require Import ZArith List String Bool Reals Lra Lia FunctionalExtensionality.
From Verif Require Import Base BoxSpec BoxFacts Range RangeSpec Interface ApiSpec Arith ArithR Chunk FieldSpec VarId Manager MgrSpec BCSpec Euler Maxwell FluxFacts SweepSpec SweepFacts EulerSpec NumFacts PhysicsSpec PhysicsFacts Properties_Physics AccuracySpec AccuracyFacts.
Import ListNotations.
Open Scope R_scope.

(** ** smooth functions *)

Definition is_tame (f : R -> R) (a b K : R) : Prop := exists f1, tame f f1 K a b.

Lemma tame_lip : forall f f1 K a b y z, tame f f1 K a b -> a <= y <= b -> a <= z <= b -> Rabs (f y - f z) <= K * Rabs (y - z).
Proof.
  intros f f1 K a b y z [[HD _] HB] Hy Hz.
  assert (G : forall y z, a <= y <= b -> a <= z <= b -> y < z -> Rabs (f y - f z) <= K * Rabs (y - z)).
  { clear y z Hy Hz. intros y z Hy Hz L. destruct (difference f f1 y z L) as (t & Ht & E); [intros; apply HD; lra|].
    rewrite Rabs_minus_sym, E, Rabs_mult, (Rabs_minus_sym y z). apply Rmult_le_compat_r; [apply Rabs_pos|]. apply HB. lra. }
  destruct (Rtotal_order y z) as [L | [-> | L]]; [now apply G| |].
  - rewrite !Rminus_eq_0, Rabs_R0. lra.
  - rewrite (Rabs_minus_sym (f y)), (Rabs_minus_sym y). now apply G.
Qed.
Lemma tame_pos : forall f f1 K a b, tame f f1 K a b -> a <= b -> 0 <= K.
Proof. intros f f1 K a b [_ HB] H. destruct (HB a ltac:(lra)) as [H1 _]. pose proof (Rabs_pos (f a)). lra. Qed.
Lemma tame_more : forall f a b K K', is_tame f a b K -> K <= K' -> is_tame f a b K'.
Proof.
  intros f a b K K' [f1 [[HD HK] HB]] H. exists f1. split; [split|].
  - exact HD.
  - intros y z Hy Hz. eapply Rle_trans; [now apply HK|]. apply Rmult_le_compat_r; [apply Rabs_pos|exact H].
  - intros y Hy. destruct (HB y Hy). lra.
Qed.
Lemma tame_const : forall c a b, is_tame (fun _ => c) a b (Rabs c).
Proof.
  intros c a b. exists (fun _ => 0). split; [split|].
  - intros y _. apply derivable_pt_lim_const.
  - intros y z _ _. rewrite Rminus_eq_0, Rabs_R0. apply Rmult_le_pos; apply Rabs_pos.
  - intros y _. rewrite Rabs_R0. split; [lra|apply Rabs_pos].
Qed.
Lemma tame_plus : forall f g a b K K', is_tame f a b K -> is_tame g a b K' -> is_tame (fun y => f y + g y) a b (K + K').
Proof.
  intros f g a b K K' [f1 [[HD HK] HB]] [g1 [[GD GK] GB]]. exists (fun y => f1 y + g1 y). split; [split|].
  - intros y Hy. apply (derivable_pt_lim_plus f g); auto.
  - intros y z Hy Hz. specialize (HK y z Hy Hz). specialize (GK y z Hy Hz). replace (f1 y + g1 y - (f1 z + g1 z)) with ((f1 y - f1 z) + (g1 y - g1 z)) by ring.
    eapply Rle_trans; [apply Rabs_triang|]. lra.
  - intros y Hy. destruct (HB y Hy), (GB y Hy). split; (eapply Rle_trans; [apply Rabs_triang|]; lra).
Qed.
Lemma mult_le : forall x y K K', Rabs x <= K -> Rabs y <= K' -> Rabs (x * y) <= K * K'.
Proof. intros. rewrite Rabs_mult. apply Rmult_le_compat; auto; apply Rabs_pos. Qed.
Lemma mult_lip : forall x x' y y' K K' e e', Rabs x <= K -> Rabs y' <= K' -> Rabs (x - x') <= e -> Rabs (y - y') <= e' -> Rabs (x * y - x' * y') <= K * e' + e * K'.
Proof.
  intros. replace (x * y - x' * y') with (x * (y - y') + (x - x') * y') by ring. eapply Rle_trans; [apply Rabs_triang|]. apply Rplus_le_compat; now apply mult_le.
Qed.
Lemma tame_mult : forall f g a b K K', a <= b -> is_tame f a b K -> is_tame g a b K' -> is_tame (fun y => f y * g y) a b (4 * (K * K')).
Proof.
  intros f g a b K K' Hab [f1 TF] [g1 TG]. assert (P := tame_pos _ _ _ _ _ TF Hab). assert (P' := tame_pos _ _ _ _ _ TG Hab). assert (PP := Rmult_le_pos _ _ P P').
  assert (LF := fun y z => tame_lip _ _ _ _ _ y z TF). assert (LG := fun y z => tame_lip _ _ _ _ _ y z TG). destruct TF as [[HD HK] HB], TG as [[GD GK] GB].
  exists (fun y => f1 y * g y + f y * g1 y). split; [split|].
  - intros y Hy. apply (derivable_pt_lim_mult f g); auto.
  - intros y z Hy Hz. destruct (HB y Hy), (GB y Hy), (HB z Hz), (GB z Hz).
    replace (f1 y * g y + f y * g1 y - (f1 z * g z + f z * g1 z)) with ((f1 y * g y - f1 z * g z) + (f y * g1 y - f z * g1 z)) by ring.
    eapply Rle_trans; [apply Rabs_triang|].
    assert (A1 : Rabs (f1 y * g y - f1 z * g z) <= K * (K' * Rabs (y - z)) + K * Rabs (y - z) * K') by (apply mult_lip; auto).
    assert (A2 : Rabs (f y * g1 y - f z * g1 z) <= K * (K' * Rabs (y - z)) + K * Rabs (y - z) * K') by (apply mult_lip; auto). lra.
  - intros y Hy. destruct (HB y Hy), (GB y Hy). split; [eapply Rle_trans; [now apply (mult_le _ _ K K')|]; lra|].
    eapply Rle_trans; [apply Rabs_triang|]. assert (Rabs (f1 y * g y) <= K * K') by now apply mult_le. assert (Rabs (f y * g1 y) <= K * K') by now apply mult_le. lra.
Qed.
Lemma inv_bounds : forall x K, 0 < K -> / K <= x -> 0 < x /\ Rabs (/ x) <= K.
Proof.
  intros x K HK H. assert (0 < / K) by now apply Rinv_0_lt_compat. split; [lra|]. rewrite Rabs_right by (left; apply Rinv_0_lt_compat; lra).
  rewrite <- (Rinv_inv K). apply Rinv_le_contravar; lra.
Qed.
Lemma inv_lip : forall x y K, 0 < K -> / K <= x -> / K <= y -> Rabs (/ x - / y) <= K * K * Rabs (x - y).
Proof.
  intros x y K HK Hx Hy. destruct (inv_bounds x K HK Hx) as [Px Bx], (inv_bounds y K HK Hy) as [Py By].
  replace (/ x - / y) with (/ x * / y * (y - x)) by (field; lra). rewrite (Rabs_minus_sym x y). rewrite (Rabs_mult (/ x * / y)). apply Rmult_le_compat_r; [apply Rabs_pos|]. now apply mult_le.
Qed.
Lemma tame_inv : forall f a b K, 1 <= K -> (forall y, a <= y <= b -> / K <= f y) -> is_tame f a b K -> is_tame (fun y => / f y) a b (3 * K ^ 5).
Proof.
  intros f a b K H1 HL [f1 TF]. assert (LF := fun y z => tame_lip _ _ _ _ _ y z TF). destruct TF as [[HD HK] HB].
  assert (I := fun y Hy => inv_bounds (f y) K ltac:(lra) (HL y Hy)).
  assert (P1 : forall n, 1 <= K ^ n) by (intros; now apply pow_R1_Rle).
  exists (fun y => - (f1 y * (/ f y * / f y))). split; [split|].
  - intros y Hy. destruct (I y Hy) as [Py _]. replace (fun y => / f y) with (fun y => 1 / f y)%R by (apply functional_extensionality; intros; unfold Rdiv; ring).
    replace (- (f1 y * (/ f y * / f y))) with ((0 * f y - f1 y * 1) / Rsqr (f y)) by (unfold Rsqr; field; lra).
    apply (derivable_pt_lim_div (fun _ => 1) f); [apply derivable_pt_lim_const|now apply HD|lra].
  - intros y z Hy Hz. destruct (I y Hy) as [Py By], (I z Hz) as [Pz Bz], (HB y Hy) as [_ Fy], (HB z Hz) as [_ Fz].
    replace (- (f1 y * (/ f y * / f y)) - - (f1 z * (/ f z * / f z))) with (- (f1 y * (/ f y * / f y) - f1 z * (/ f z * / f z))) by ring. rewrite Rabs_Ropp.
    assert (L1 : Rabs (/ f y - / f z) <= K * K * (K * Rabs (y - z))).
    { eapply Rle_trans; [apply (inv_lip _ _ K); auto; lra|]. apply Rmult_le_compat_l; [nra|]. now apply LF. }
    assert (L2 : Rabs (/ f y * / f y - / f z * / f z) <= K * (K * K * (K * Rabs (y - z))) + K * K * (K * Rabs (y - z)) * K) by (now apply mult_lip).
    assert (B2 : Rabs (/ f z * / f z) <= K * K) by (now apply mult_le).
    eapply Rle_trans; [apply (mult_lip _ _ _ _ _ _ _ _ Fy B2 (HK y z Hy Hz) L2)|].
    set (t := Rabs (y - z)) in *. assert (0 <= t) by apply Rabs_pos. clearbody t. clear - H1 H.
    assert (A1 : 1 <= K * K) by nra. assert (A2 : 0 <= K * K * K) by nra. assert (A3 : K * K * K * 1 <= K * K * K * (K * K)) by (apply Rmult_le_compat_l; lra).
    replace (3 * K ^ 5 * t) with (2 * (K * K * K * (K * K)) * t + (K * K * K * (K * K)) * t) by ring.
    replace (K * (K * (K * K * (K * t)) + K * K * (K * t) * K) + K * t * (K * K)) with (2 * (K * K * K * (K * K)) * t + K * K * K * 1 * t) by ring.
    apply Rplus_le_compat_l. now apply Rmult_le_compat_r.
  - intros y Hy. destruct (I y Hy) as [Py By], (HB y Hy) as [_ Fy]. specialize (P1 5%nat). rewrite Rabs_Ropp. clear - H1 By Fy.
    assert (A0 : 1 <= K * K) by nra. assert (A2 : K <= K * K * K) by nra. assert (A3 : K * K * K * 1 <= K * K * K * (K * K)) by (apply Rmult_le_compat_l; nra).
    replace (3 * K ^ 5) with (3 * (K * K * K * (K * K))) by ring. split; [lra|].
    eapply Rle_trans; [apply (mult_le _ _ _ _ Fy (mult_le _ _ _ _ By By))|]. lra.
Qed.

(** ** the fluxes of a gas along a line *)

Definition states (q : nat -> R -> R) (y : R) : list R := map (fun i => q i y) (seq 0 5).

Definition press_const (gamma K : R) : R := 4 * (Rabs (gamma - 1) * (K + 4 * (Rabs (-1) * (4 * (4 * (Rabs (/ 2) * (4 * (K * K) + 4 * (K * K) + 4 * (K * K))) * (3 * K ^ 5)))))).
Definition flux_const (gamma K : R) : R :=
  K + (4 * (K * (4 * (K * (3 * K ^ 5)))) + (press_const gamma K + Rabs 0)) + 4 * ((K + press_const gamma K) * (4 * (K * (3 * K ^ 5)))).
Lemma tame_flux : forall gamma K q a b, a <= b -> 1 <= K -> (forall i, (i < 5)%nat -> is_tame (q i) a b K) -> (forall y, a <= y <= b -> / K <= q 0%nat y) ->
  forall d j, (d < 3)%nat -> (j < 5)%nat -> is_tame (fun y => nth j (euler_phys gamma d (states q y)) 0) a b (flux_const gamma K).
Proof.
  intros gamma K q a b Hab H1 HT HL d j Hd Hj.
  assert (TI : is_tame (fun y => / q 0%nat y) a b (3 * K ^ 5)) by (apply tame_inv; auto; apply HT; lia).
  assert (TM : forall i, (i < 3)%nat -> is_tame (q (S i)) a b K) by (intros; apply HT; lia).
  assert (K5 : 1 <= K ^ 5) by now apply pow_R1_Rle.
  assert (TV : is_tame (fun y => velocity d (states q y)) a b (4 * (K * (3 * K ^ 5)))).
  { replace (fun y => velocity d (states q y)) with (fun y => q (S d) y * / q 0%nat y); [apply tame_mult; auto|].
    apply functional_extensionality. intros y. unfold velocity, momentum, density, states. do 3 (destruct d as [|d]; [reflexivity|]). lia. }
  assert (TP : is_tame (fun y => pressure gamma (states q y)) a b (press_const gamma K)).
  { replace (fun y => pressure gamma (states q y)) with
      (fun y => (gamma - 1) * (q 4%nat y + (-1) * (((/ 2) * (q 1%nat y * q 1%nat y + q 2%nat y * q 2%nat y + q 3%nat y * q 3%nat y)) * / q 0%nat y))).
    - apply (tame_mult (fun _ => gamma - 1)); [exact Hab|apply tame_const|]. apply tame_plus; [apply HT; lia|]. apply (tame_mult (fun _ => -1)); [exact Hab|apply tame_const|].
      apply (tame_mult (fun y => / 2 * (q 1%nat y * q 1%nat y + q 2%nat y * q 2%nat y + q 3%nat y * q 3%nat y))); [exact Hab| |exact TI].
      apply (tame_mult (fun _ => / 2)); [exact Hab|apply tame_const|].
      apply (tame_plus (fun y => q 1%nat y * q 1%nat y + q 2%nat y * q 2%nat y)); [apply (tame_plus (fun y => q 1%nat y * q 1%nat y))|]; apply tame_mult; auto; apply HT; lia.
    - apply functional_extensionality. intros y. unfold pressure, kinetic, energy, momentum, density, states. cbn [seq map nth]. rewrite <- (Rinv_mult 2) || idtac. unfold Rdiv. rewrite Rinv_mult. ring. }
  assert (Z0 : Rabs 0 = 0) by apply Rabs_R0.
  assert (PK : 0 <= press_const gamma K).
  { destruct TP as [p1 TP]. now apply (tame_pos _ _ _ _ _ TP). }
  assert (V0 : 0 <= 4 * (K * (3 * K ^ 5))) by nra.
  assert (M0 : 0 <= 4 * (K * (4 * (K * (3 * K ^ 5))))) by nra.
  assert (E0 : 0 <= 4 * ((K + press_const gamma K) * (4 * (K * (3 * K ^ 5))))) by (apply Rmult_le_pos; [lra|]; apply Rmult_le_pos; lra).
  assert (TW : forall i e, (i < 3)%nat -> is_tame (fun y => q (S i) y * velocity d (states q y) + (if Nat.eqb e i then pressure gamma (states q y) else 0)) a b (flux_const gamma K)).
  { intros i e Hi. apply tame_more with (4 * (K * (4 * (K * (3 * K ^ 5)))) + (press_const gamma K + Rabs 0)).
    - apply (tame_plus (fun y => q (S i) y * velocity d (states q y))); [apply tame_mult; auto|]. destruct (Nat.eqb e i).
      + apply tame_more with (press_const gamma K); [exact TP|lra].
      + apply tame_more with (Rabs 0); [apply tame_const|lra].
    - unfold flux_const. lra. }
  destruct j as [|j].
  { apply tame_more with K; [|unfold flux_const; lra].
    replace (fun y => nth 0 (euler_phys gamma d (states q y)) 0) with (q (S d)); [now apply TM|]. apply functional_extensionality. intros y. cbn [nth euler_phys]. unfold momentum, states.
    do 3 (destruct d as [|d]; [reflexivity|]). lia. }
  do 3 (destruct j as [|j]; [apply TW; lia|]). destruct j as [|j]; [|lia].
  apply tame_more with (4 * ((K + press_const gamma K) * (4 * (K * (3 * K ^ 5))))); [|unfold flux_const; lra].
  apply (tame_mult (fun y => q 4%nat y + pressure gamma (states q y))); [exact Hab| |exact TV]. apply tame_plus; [apply HT; lia|exact TP].
Qed.

(** ** close states have close fluxes *)

Lemma states_nth : forall (q : nat -> R -> R) y i, (i < 5)%nat -> nth i (states q y) 0 = q i y.
Proof. intros q y i Hi. unfold states. do 5 (destruct i as [|i]; [reflexivity|]). lia. Qed.
Lemma phys_ext : forall gamma d p q, (d < 3)%nat -> (forall i, (i < 5)%nat -> nth i p 0 = nth i q 0) -> euler_phys gamma d p = euler_phys gamma d q.
Proof.
  intros gamma d p q Hd H. unfold euler_phys, velocity, pressure, energy, kinetic, momentum, density. rewrite !H by lia. reflexivity.
Qed.
Lemma flux_lip : forall gamma K D p l d j, 1 <= K -> 0 < D -> (d < 3)%nat -> (j < 5)%nat -> (forall i, (i < 5)%nat -> Rabs (nth i p 0) <= K /\ Rabs (nth i l 0) <= K /\ Rabs (nth i l 0 - nth i p 0) <= D) ->
  / K <= density p -> / K <= density l -> Rabs (nth j (euler_phys gamma d l) 0 - nth j (euler_phys gamma d p) 0) <= flux_const gamma K * D.
Proof.
  intros gamma K D p l d j H1 HD Hd Hj HB Rp Rl. set (q := fun i y => nth i p 0 + y * ((nth i l 0 - nth i p 0) / D)).
  assert (T : is_tame (fun y => nth j (euler_phys gamma d (states q y)) 0) 0 D (flux_const gamma K)).
  { apply tame_flux; auto; [lra| |].
    - intros i Hi. destruct (HB i Hi) as (B1 & B2 & B3). exists (fun _ => (nth i l 0 - nth i p 0) / D).
      assert (B4 : Rabs ((nth i l 0 - nth i p 0) / D) <= 1).
      { unfold Rdiv. rewrite Rabs_mult, (Rabs_right (/ D)) by (left; now apply Rinv_0_lt_compat). apply Rmult_le_reg_r with D; [exact HD|]. rewrite Rmult_assoc, Rinv_l by lra. lra. }
      split; [split|].
      + intros y _. set (s := (nth i l 0 - nth i p 0) / D). change (derivable_pt_lim (fun y => nth i p 0 + y * s) y s). assert (X : derivable_pt_lim (fun y => nth i p 0 + y * s) y (0 + (1 * s + y * 0))); [|replace (0 + (1 * s + y * 0)) with s in X by ring; exact X].
        apply (derivable_pt_lim_plus (fun _ => nth i p 0) (fun y => y * s)); [apply derivable_pt_lim_const|].
        apply (derivable_pt_lim_mult id (fun _ => s)); [apply derivable_pt_lim_id|apply derivable_pt_lim_const].
      + intros y z _ _. rewrite Rminus_eq_0, Rabs_R0. apply Rmult_le_pos; [lra|apply Rabs_pos].
      + intros y Hy. split; [|lra]. unfold q. apply Rabs_le_iff in B1, B2. apply Rabs_le_iff.
        set (t := y / D). assert (Ht : 0 <= t <= 1). { unfold t. split; [apply Rmult_le_pos; [lra|left; now apply Rinv_0_lt_compat]|]. apply Rmult_le_reg_r with D; [exact HD|]. unfold Rdiv. rewrite Rmult_assoc, Rinv_l by lra. lra. }
        replace (nth i p 0 + y * ((nth i l 0 - nth i p 0) / D)) with ((1 - t) * nth i p 0 + t * nth i l 0) by (unfold t; field; lra). clearbody t. nra.
    - intros y Hy. unfold q. unfold density in Rp, Rl.
      set (t := y / D). assert (Ht : 0 <= t <= 1). { unfold t. split; [apply Rmult_le_pos; [lra|left; now apply Rinv_0_lt_compat]|]. apply Rmult_le_reg_r with D; [exact HD|]. unfold Rdiv. rewrite Rmult_assoc, Rinv_l by lra. lra. }
      replace (nth 0 p 0 + y * ((nth 0 l 0 - nth 0 p 0) / D)) with ((1 - t) * nth 0 p 0 + t * nth 0 l 0) by (unfold t; field; lra). clearbody t. nra. }
  destruct T as [f1 T]. pose proof (tame_lip _ _ _ _ _ D 0 T ltac:(lra) ltac:(lra)) as B. cbn beta in B.
  rewrite Rminus_0_r, (Rabs_right D) in B by lra.
  rewrite (phys_ext gamma d (states q D) l), (phys_ext gamma d (states q 0) p) in B; auto.
  - intros i Hi. rewrite states_nth by exact Hi. unfold q. ring.
  - intros i Hi. rewrite states_nth by exact Hi. unfold q. field. lra.
Qed.

(** ** the flux through a wall *)

Lemma sqrt_le_1 : forall x, sqrt x <= 1 + Rabs x.
Proof.
  intros x. destruct (Rle_dec x 0) as [L | L].
  - rewrite sqrt_neg_0 by exact L. pose proof (Rabs_pos x). lra.
  - assert (0 < x) by lra. rewrite Rabs_right by lra. pose proof (sqrt_lt_R0 x H). pose proof (sqrt_sqrt x ltac:(lra)). nra.
Qed.
Lemma nth_five : forall (f : nat -> R) j, (j < 5)%nat -> nth j (map f (seq 0 5)) 0 = f j.
Proof. intros f j Hj. do 5 (destruct j as [|j]; [reflexivity|]). lia. Qed.
Lemma hll_between : forall gamma d l r j F0 e, (j < 5)%nat -> left_speed gamma d l < right_speed gamma d r ->
  Rabs (nth j (euler_phys gamma d l) 0 - F0) <= e -> Rabs (nth j (euler_phys gamma d r) 0 - F0) <= e ->
  Rabs (nth j (hll_flux gamma d l r) 0 - F0) <= e + Rabs (right_speed gamma d r) * Rabs (nth j r 0 - nth j l 0).
Proof.
  intros gamma d l r j F0 e Hj HS Hl Hr. unfold hll_flux. set (sl := left_speed gamma d l) in *. set (sr := right_speed gamma d r) in *.
  rewrite nth_five by exact Hj.
  assert (P : 0 <= Rabs sr * Rabs (nth j r 0 - nth j l 0)) by (apply Rmult_le_pos; apply Rabs_pos).
  destruct (Rlt_dec 0 sl) as [A | A].
  { destruct (Rlt_dec sr 0) as [B | B]; [lra|]. lra. }
  destruct (Rlt_dec sr 0) as [B | B]; [lra|]. unfold hll_average.
  set (fl := nth j (euler_phys gamma d l) 0) in *. set (fr := nth j (euler_phys gamma d r) 0) in *. set (w := nth j r 0 - nth j l 0) in *.
  replace ((sr * fl - sl * fr + sl * sr * w) / (sr - sl) - F0) with ((sr * (fl - F0) + - sl * (fr - F0)) / (sr - sl) + (sl / (sr - sl)) * (sr * w)) by (field; lra).
  assert (I : 0 < / (sr - sl)) by (apply Rinv_0_lt_compat; lra).
  assert (T1 : Rabs ((sr * (fl - F0) + - sl * (fr - F0)) / (sr - sl)) <= e).
  { unfold Rdiv. rewrite Rabs_mult, (Rabs_right (/ (sr - sl))) by lra. apply Rmult_le_reg_r with (sr - sl); [lra|]. rewrite Rmult_assoc, Rinv_l by lra.
    rewrite Rmult_1_r. clearbody fl fr w sl sr. apply Rabs_le_iff in Hl, Hr. apply Rabs_le_iff. nra. }
  assert (T2 : Rabs (sl / (sr - sl)) <= 1).
  { unfold Rdiv. rewrite Rabs_mult, (Rabs_right (/ (sr - sl))) by lra. apply Rmult_le_reg_r with (sr - sl); [lra|]. rewrite Rmult_assoc, Rinv_l by lra.
    rewrite Rmult_1_r, Rmult_1_l, Rabs_left1 by lra. lra. }
  eapply Rle_trans; [apply Rabs_triang|]. apply Rplus_le_compat; [exact T1|]. rewrite (Rabs_mult (sl / (sr - sl))), (Rabs_mult sr).
  rewrite <- (Rmult_1_l (Rabs sr * Rabs w)) at 2. apply Rmult_le_compat_r; auto.
Qed.

(** A state near one of density and pressure at least 1/K: the same with 2 K, and
    close velocities. *)
Lemma near_state : forall gamma K D p l d, 1 <= gamma -> 1 <= K -> 0 < D -> 40 * gamma * K ^ 5 * D <= 1 -> (d < 3)%nat ->
  (forall i, (i < 5)%nat -> Rabs (nth i p 0) <= K /\ Rabs (nth i l 0 - nth i p 0) <= D) -> / K <= density p -> / K <= pressure gamma p ->
  (forall i, (i < 5)%nat -> Rabs (nth i l 0) <= 2 * K) /\ / (2 * K) <= density l /\ / (2 * K) <= pressure gamma l /\ Rabs (velocity d l - velocity d p) <= 4 * K ^ 3 * D.
Proof.
  intros gamma K D p l d Hg H1 HD HS Hd HB Rp Pp.
  assert (K2 : 1 <= K * K) by nra. assert (K3 : K <= K * K * K) by nra. assert (K4 : K * K <= K * K * K * K) by nra.
  assert (K5 : K * K * K * K <= K * K * K * K * K) by nra.
  assert (K34 : K * K * K <= K * K * K * K) by nra.
  assert (HS' : 40 * gamma * (K * K * K * K * K * D) <= 1) by (replace (40 * gamma * (K * K * K * K * K * D)) with (40 * gamma * K ^ 5 * D) by ring; exact HS).
  assert (DK : 40 * (K * K * K * K * K * D) <= 1). { assert (0 <= K * K * K * K * K * D) by (apply Rmult_le_pos; lra). nra. }
  assert (DK1 : 40 * (K * D) <= 1). { assert (K * D <= K * K * K * K * K * D) by (apply Rmult_le_compat_r; lra). lra. }
  assert (IK : K * / K = 1) by (apply Rinv_r; lra). assert (IP : 0 < / K) by (apply Rinv_0_lt_compat; lra).
  assert (D1 : 40 * D <= / K) by (apply Rmult_le_reg_l with K; lra). assert (IK1 : / K <= 1) by (apply Rmult_le_reg_l with K; lra).
  rewrite Rinv_mult. set (iK := / K) in *. assert (E2 : / 2 * iK = iK / 2) by lra. rewrite E2.
  assert (BL : forall i, (i < 5)%nat -> Rabs (nth i l 0) <= 2 * K).
  { intros i Hi. destruct (HB i Hi) as [B1 B2]. apply Rabs_le_iff in B1, B2. apply Rabs_le_iff. lra. }
  assert (RL : iK / 2 <= density l). { destruct (HB 0%nat ltac:(lia)) as [_ B]. unfold density in *. apply Rabs_le_iff in B. lra. }
  split; [exact BL|]. split; [exact RL|].
  assert (Rp0 : 0 < density p) by lra. assert (Rl0 : 0 < density l) by lra.
  assert (RD : Rabs (density l - density p) <= D) by (apply (HB 0%nat); lia).
  assert (IPp : Rabs (/ density p) <= K) by (apply inv_bounds; [lra|exact Rp]).
  assert (IPl : Rabs (/ density l) <= 2 * K) by (apply inv_bounds; [lra|]; rewrite Rinv_mult; fold iK; lra).
  assert (ID : Rabs (/ density l - / density p) <= 2 * (K * K) * D).
  { replace (/ density l - / density p) with (/ density l * / density p * (density p - density l)) by (field; lra). rewrite (Rabs_minus_sym (density l)) in RD.
    eapply Rle_trans; [apply (mult_le _ _ _ _ (mult_le _ _ _ _ IPl IPp) RD)|]. lra. }
  split.
  - assert (KIN : Rabs (kinetic l - kinetic p) <= 13 * (K * K * K * K) * D).
    { assert (SQ : forall i, (1 <= i < 4)%nat -> Rabs (nth i l 0 * nth i l 0 - nth i p 0 * nth i p 0) <= 3 * K * D /\ Rabs (nth i p 0 * nth i p 0) <= K * K).
      { intros i Hi. destruct (HB i ltac:(lia)) as [B1 B2]. split; [|now apply mult_le]. specialize (BL i ltac:(lia)).
        eapply Rle_trans; [apply (mult_lip _ _ _ _ _ _ _ _ BL B1 B2 B2)|]. lra. }
      destruct (SQ 1%nat ltac:(lia)) as [A1 B1], (SQ 2%nat ltac:(lia)) as [A2 B2], (SQ 3%nat ltac:(lia)) as [A3 B3].
      set (sl := nth 1 l 0 * nth 1 l 0 + nth 2 l 0 * nth 2 l 0 + nth 3 l 0 * nth 3 l 0) in *. set (sp := nth 1 p 0 * nth 1 p 0 + nth 2 p 0 * nth 2 p 0 + nth 3 p 0 * nth 3 p 0).
      assert (SD : Rabs (sl - sp) <= 9 * K * D). { unfold sl, sp. apply Rabs_le_iff in A1, A2, A3. apply Rabs_le_iff. lra. }
      assert (SP : Rabs sp <= 3 * (K * K)). { unfold sp. apply Rabs_le_iff in B1, B2, B3. apply Rabs_le_iff. lra. }
      assert (EL : kinetic l = / 2 * (/ density l * sl)) by (unfold kinetic, momentum, sl; field; lra).
      assert (EP : kinetic p = / 2 * (/ density p * sp)) by (unfold kinetic, momentum, sp; field; lra).
      assert (M := mult_lip _ _ _ _ _ _ _ _ IPl SP ID SD). rewrite EL, EP. replace (/ 2 * (/ density l * sl) - / 2 * (/ density p * sp)) with (/ 2 * (/ density l * sl - / density p * sp)) by ring.
      rewrite Rabs_mult, (Rabs_right (/ 2)) by lra. assert (K * K * D <= K * K * K * K * D) by (apply Rmult_le_compat_r; lra). nra. }
    assert (EN : Rabs (energy l - energy p) <= D) by (apply (HB 4%nat); lia).
    assert (PD : Rabs (pressure gamma l - pressure gamma p) <= (gamma - 1) * (14 * (K * K * K * K) * D)).
    { unfold pressure. replace ((gamma - 1) * (energy l - kinetic l) - (gamma - 1) * (energy p - kinetic p)) with ((gamma - 1) * ((energy l - energy p) - (kinetic l - kinetic p))) by ring.
      rewrite Rabs_mult, (Rabs_right (gamma - 1)) by lra. apply Rmult_le_compat_l; [lra|]. assert (D <= K * K * K * K * D) by nra. apply Rabs_le_iff in EN, KIN. apply Rabs_le_iff. lra. }
    assert (PB : (gamma - 1) * (14 * (K * K * K * K) * D) <= iK / 2).
    { apply Rmult_le_reg_l with K; [lra|]. assert (A0 : 0 <= K * K * K * K * K * D) by (apply Rmult_le_pos; lra).
      replace (K * (iK / 2)) with (/ 2) by lra. replace (K * ((gamma - 1) * (14 * (K * K * K * K) * D))) with (14 * ((gamma - 1) * (K * K * K * K * K * D))) by ring.
      set (A := K * K * K * K * K * D) in *. clearbody A. nra. }
    apply Rabs_le_iff in PD. lra.
  - assert (MD : Rabs (momentum d l - momentum d p) <= D /\ Rabs (momentum d l) <= 2 * K /\ Rabs (momentum d p) <= K).
    { unfold momentum. destruct (HB (S d) ltac:(lia)). split; [assumption|]. split; [apply BL; lia|assumption]. }
    destruct MD as (MD & ML & MP). unfold velocity, Rdiv.
    replace (momentum d l * / density l - momentum d p * / density p) with (/ density l * momentum d l - / density p * momentum d p) by ring.
    eapply Rle_trans; [apply (mult_lip _ _ _ _ _ _ _ _ IPl MP ID MD)|]. assert (K * D <= K * K * K * D) by (apply Rmult_le_compat_r; lra). nra.
Qed.

Definition speed_const (gamma K : R) : R := K * K + (1 + gamma * (Rabs (gamma - 1) * (K + 3 / 2 * K * K * K)) * K).
Lemma wall_accuracy : forall gamma K D p l r d j, 1 <= gamma -> 1 <= K -> 0 < D -> 40 * gamma * K ^ 5 * D <= 1 -> (d < 3)%nat -> (j < 5)%nat ->
  (forall i, (i < 5)%nat -> Rabs (nth i p 0) <= K /\ Rabs (nth i l 0 - nth i p 0) <= D /\ Rabs (nth i r 0 - nth i p 0) <= D) -> / K <= density p -> / K <= pressure gamma p ->
  Rabs (nth j (hll_flux gamma d l r) 0 - nth j (euler_phys gamma d p) 0) <= (flux_const gamma (2 * K) + 2 * speed_const gamma (2 * K)) * D.
Proof.
  intros gamma K D p l r d j Hg H1 HD HS Hd Hj HB Rp Pp.
  destruct (near_state gamma K D p l d Hg H1 HD HS Hd) as (BL & RL & PL & VL); [intros i Hi; destruct (HB i Hi) as (? & ? & ?); auto|auto|auto|].
  destruct (near_state gamma K D p r d Hg H1 HD HS Hd) as (BR & RR & PR & VR); [intros i Hi; destruct (HB i Hi) as (? & ? & ?); auto|auto|auto|].
  assert (IK : 0 < / K) by (apply Rinv_0_lt_compat; lra). assert (IK2 : / (2 * K) = / K / 2) by (rewrite Rinv_mult; lra).
  assert (SND : forall s, (forall i, (i < 5)%nat -> Rabs (nth i s 0) <= 2 * K) -> / (2 * K) <= density s -> / (2 * K) <= pressure gamma s -> / K / 2 <= sound gamma s).
  { intros s Bs Rs Ps. unfold sound. rewrite IK2 in *. assert (B0 := Bs 0%nat ltac:(lia)). unfold density in *. apply Rabs_le_iff in B0.
    rewrite <- (sqrt_Rsqr (/ K / 2)) by lra. apply sqrt_le_1_alt. unfold Rsqr. apply Rmult_le_reg_r with (nth 0 s 0); [lra|]. replace (gamma * pressure gamma s / nth 0 s 0 * nth 0 s 0) with (gamma * pressure gamma s) by (field; lra).
    assert (KI : K * / K = 1) by (apply Rinv_r; lra). set (iK := / K) in *. clearbody iK. assert (nth 0 s 0 * iK <= 2) by nra. nra. }
  assert (ORD : left_speed gamma d l < right_speed gamma d r).
  { unfold left_speed, right_speed. assert (SL := SND l BL RL PL). assert (SR := SND r BR RR PR). apply Rabs_le_iff in VL, VR.
    assert (8 * (K ^ 3 * D) < / K).
    { apply Rmult_lt_reg_l with K; [lra|]. rewrite Rinv_r by lra. assert (A : 0 < K ^ 4 * D) by (apply Rmult_lt_0_compat; [apply pow_lt; lra|exact HD]).
      assert (B : 0 < K ^ 5 * D) by (apply Rmult_lt_0_compat; [apply pow_lt; lra|exact HD]).
      replace (K * (8 * (K ^ 3 * D))) with (8 * (K ^ 4 * D)) by ring. replace (40 * gamma * K ^ 5 * D) with (40 * (gamma * (K * (K ^ 4 * D)))) in HS by ring.
      set (A0 := K ^ 4 * D) in *. clearbody A0. clear - HS H1 Hg A. assert (A0 <= K * A0) by nra. assert (K * A0 <= gamma * (K * A0)) by nra.
      lra. }
    lra. }
  assert (SP : Rabs (right_speed gamma d r) <= speed_const gamma (2 * K)).
  { unfold right_speed. eapply Rle_trans; [apply Rabs_triang|]. unfold speed_const. 
    assert (IR : Rabs (/ density r) <= 2 * K) by (apply inv_bounds; [lra|exact RR]).
    apply Rplus_le_compat.
    - unfold velocity, Rdiv. apply mult_le; [apply BR; lia|exact IR].
    - rewrite Rabs_right by (apply Rle_ge; apply sqrt_pos). unfold sound. eapply Rle_trans; [apply sqrt_le_1|]. apply Rplus_le_compat_l. unfold Rdiv. apply mult_le; [|exact IR].
      rewrite Rabs_mult, (Rabs_right gamma) by lra. apply Rmult_le_compat_l; [lra|]. unfold pressure. rewrite Rabs_mult. apply Rmult_le_compat_l; [apply Rabs_pos|].
      assert (QM : forall i, (1 <= i < 4)%nat -> Rabs (nth i r 0 * nth i r 0) <= 2 * K * (2 * K)) by (intros i Hi; apply mult_le; apply BR; lia).
      assert (Q1 := QM 1%nat ltac:(lia)). assert (Q2 := QM 2%nat ltac:(lia)). assert (Q3 := QM 3%nat ltac:(lia)).
      set (s := nth 1 r 0 * nth 1 r 0 + nth 2 r 0 * nth 2 r 0 + nth 3 r 0 * nth 3 r 0).
      assert (QS : Rabs s <= 3 * (2 * K * (2 * K))). { unfold s. apply Rabs_le_iff in Q1, Q2, Q3. apply Rabs_le_iff. lra. }
      assert (EK : kinetic r = / 2 * (s * / density r)) by (unfold kinetic, momentum, s; field; rewrite IK2 in RR; lra).
      assert (QK := mult_le _ _ _ _ QS IR). assert (QE := BR 4%nat ltac:(lia)). unfold energy. rewrite EK. apply Rabs_le_iff in QK, QE. apply Rabs_le_iff. lra. }
  assert (FL : Rabs (nth j (euler_phys gamma d l) 0 - nth j (euler_phys gamma d p) 0) <= flux_const gamma (2 * K) * D).
  { apply flux_lip; auto; try (rewrite IK2; lra); try lra. intros i Hi. destruct (HB i Hi) as (? & ? & ?). repeat split; auto. lra. }
  assert (FR : Rabs (nth j (euler_phys gamma d r) 0 - nth j (euler_phys gamma d p) 0) <= flux_const gamma (2 * K) * D).
  { apply flux_lip; auto; try (rewrite IK2; lra); try lra. intros i Hi. destruct (HB i Hi) as (? & ? & ?). repeat split; auto. lra. }
  eapply Rle_trans; [apply (hll_between gamma d l r j _ _ Hj ORD FL FR)|]. destruct (HB j Hj) as (_ & J1 & J2).
  assert (RLJ : Rabs (nth j r 0 - nth j l 0) <= 2 * D) by (apply Rabs_le_iff in J1, J2; apply Rabs_le_iff; lra).
  assert (X : Rabs (right_speed gamma d r) * Rabs (nth j r 0 - nth j l 0) <= speed_const gamma (2 * K) * (2 * D)) by (apply Rmult_le_compat; auto; apply Rabs_pos). lra.
Qed.

(** ** one cell *)

Definition wall_const (gamma K : R) : R := flux_const gamma (2 * K) + 2 * speed_const gamma (2 * K).
Definition gas_const (gamma K : R) : R := 7 / 2 * K * wall_const gamma K + flux_const gamma K + 12 / 5 * wall_const gamma K.
Lemma gas_net : forall gamma K u d x j h (g g1 : Z -> R -> R) f1, 1 <= gamma -> 1 <= K -> (d < 3)%nat -> (d < List.length x)%nat -> (j < 5)%nat -> 0 < h ->
  40 * gamma * K ^ 5 * (7 / 4 * K * h * h + 6 / 5 * eps) <= 1 ->
  (forall i, (0 <= i < 5)%Z -> tame (g i) (g1 i) K (- (5 / 2 * h)) (5 / 2 * h) /\ forall t, (-2 <= t <= 2)%Z -> u (move d t x ++ [i]) = g i (IZR t * h)) ->
  (forall y, - (5 / 2 * h) <= y <= 5 / 2 * h -> / K <= density (map (fun i => g i y) (zrange 0 5)) /\ / K <= pressure gamma (map (fun i => g i y) (zrange 0 5))) ->
  derivable_pt_lim (fun y => nth j (euler_phys gamma d (map (fun i => g i y) (zrange 0 5))) 0) 0 f1 ->
  Rabs ((wall 5 (flux_of (euler_flux gamma)) u d x (Z.of_nat j) - wall 5 (flux_of (euler_flux gamma)) u d (move d 1 x) (Z.of_nat j)) / h + f1) <= gas_const gamma K * (h + eps / h).
Proof.
  intros gamma K u d x j h g g1 f1 Hg H1 Hd Hx Hj Hh HS HT HP HF. set (D := 7 / 4 * K * h * h + 6 / 5 * eps) in *.
  assert (He := eps_pos). assert (HD : 0 < D). { unfold D. assert (0 < K * (h * h)) by (apply Rmult_lt_0_compat; [lra|nra]). lra. }
  set (q := fun (i : nat) y => g (Z.of_nat i) y). assert (ES : forall y, map (fun i => g i y) (zrange 0 5) = states q y) by reflexivity.
  set (phi := fun y => nth j (euler_phys gamma d (states q y)) 0).
  assert (TQ : is_tame phi (- (5 / 2 * h)) (5 / 2 * h) (flux_const gamma K)).
  { apply tame_flux; auto; [lra| |].
    - intros i Hi. exists (g1 (Z.of_nat i)). apply HT. lia.
    - intros y Hy. destruct (HP y Hy) as [B _]. exact B. }
  destruct TQ as [p1 TQ]. assert (EF : f1 = p1 0). { apply (uniqueness_limite phi 0); [exact HF|]. apply TQ. lra. }
  assert (SM : forall f f1 a b a' b', smooth f f1 K a b -> a <= a' -> b' <= b -> smooth f f1 K a' b').
  { intros f f2 a b a' b' [A1 A2] Ha Hb. split; intros; [apply A1|apply A2]; lra. }
  assert (EW : forall y, wall 5 (flux_of (euler_flux gamma)) u d y (Z.of_nat j) = nth j (hll_flux gamma d (left_state 5 u d y) (right_state 5 u d y)) 0).
  { intros y. unfold wall. rewrite Nat2Z.id. unfold flux_of. rewrite C57_euler_flux by (auto; reflexivity). reflexivity. }
  assert (NS : forall f i, (i < 5)%nat -> nth i (map f (zrange 0 5)) 0 = f (Z.of_nat i)) by (intros f i Hi; do 5 (destruct i as [|i]; [reflexivity|]); lia).
  assert (W1 : Rabs (wall 5 (flux_of (euler_flux gamma)) u d x (Z.of_nat j) - phi (- (h / 2))) <= wall_const gamma K * D).
  { rewrite EW. apply wall_accuracy; auto; try (now apply HP; lra). intros i Hi. rewrite states_nth by exact Hi. unfold q, left_state, right_state. rewrite !NS by exact Hi.
    destruct (HT (Z.of_nat i) ltac:(lia)) as [T E]. split; [apply T; lra|]. replace (u (x ++ [Z.of_nat i])) with (u (move d 0 x ++ [Z.of_nat i])) by (now rewrite move_0).
    rewrite !E by lia. replace (IZR (-2) * h) with (- (h / 2) - 3 / 2 * h) by field. replace (IZR (-1) * h) with (- (h / 2) - h / 2) by field.
    replace (0 * h) with (- (h / 2) + h / 2) by field. replace (1 * h) with (- (h / 2) + 3 / 2 * h) by field.
    split; [apply (smooth_left _ (g1 (Z.of_nat i)))|apply (smooth_right _ (g1 (Z.of_nat i)))]; auto; (eapply SM; [apply T|lra|lra]). }
  assert (W2 : Rabs (wall 5 (flux_of (euler_flux gamma)) u d (move d 1 x) (Z.of_nat j) - phi (h / 2)) <= wall_const gamma K * D).
  { rewrite EW. apply wall_accuracy; auto; try (now apply HP; lra). intros i Hi. rewrite states_nth by exact Hi. unfold q, left_state, right_state. rewrite !NS by exact Hi.
    destruct (HT (Z.of_nat i) ltac:(lia)) as [T E]. split; [apply T; lra|]. rewrite !move_move by exact Hx. cbn [Z.add Z.pos_sub Pos.pred_double Pos.add].
    rewrite !E by lia. replace (IZR (-1) * h) with (h / 2 - 3 / 2 * h) by field.
    replace (0 * h) with (h / 2 - h / 2) by field. replace (1 * h) with (h / 2 + h / 2) by field. replace (2 * h) with (h / 2 + 3 / 2 * h) by field.
    split; [apply (smooth_left _ (g1 (Z.of_nat i)))|apply (smooth_right _ (g1 (Z.of_nat i)))]; auto; (eapply SM; [apply T|lra|lra]). }
  destruct TQ as [[PD PK] PB]. destruct (difference phi p1 (- (h / 2)) (h / 2)) as (y & Hy & Ey); [lra|intros; apply PD; lra|].
  assert (C0 : 0 <= flux_const gamma K). { destruct (PB 0 ltac:(lra)) as [B _]. pose proof (Rabs_pos (phi 0)). lra. }
  assert (B : Rabs (p1 0 - p1 y) <= flux_const gamma K * (h / 2)).
  { eapply Rle_trans; [apply PK; lra|]. apply Rmult_le_compat_l; [exact C0|]. apply Rabs_le_iff. lra. }
  set (w1 := wall _ _ _ _ x _) in *. set (w2 := wall _ _ _ _ (move d 1 x) _) in *. rewrite EF.
  replace ((w1 - w2) / h + p1 0) with (((w1 - phi (- (h / 2))) - (w2 - phi (h / 2))) * / h + (p1 0 - p1 y)).
  2:{ replace (phi (h / 2)) with (phi (- (h / 2)) + p1 y * (h / 2 - - (h / 2))) by lra. field. lra. }
  assert (W0 : 0 <= wall_const gamma K). { pose proof (Rabs_pos (w1 - phi (- (h / 2)))). apply Rmult_le_reg_r with D; lra. }
  assert (T : Rabs ((w1 - phi (- (h / 2)) - (w2 - phi (h / 2))) * / h) <= wall_const gamma K * (2 * D) * / h).
  { rewrite Rabs_mult, (Rabs_right (/ h)) by (left; now apply Rinv_0_lt_compat). apply Rmult_le_compat_r; [left; now apply Rinv_0_lt_compat|].
    apply Rabs_le_iff in W1, W2. apply Rabs_le_iff. lra. }
  eapply Rle_trans; [apply Rabs_triang|]. eapply Rle_trans; [apply Rplus_le_compat; [exact T|exact B]|]. unfold D, gas_const.
  set (w := wall_const gamma K) in *. set (f := flux_const gamma K) in *. clearbody w f.
  replace (w * (2 * (7 / 4 * K * h * h + 6 / 5 * eps)) * / h) with (7 / 2 * K * w * h + 12 / 5 * w * (eps / h)) by (field; lra).
  assert (0 <= eps / h) by (apply Rmult_le_pos; [lra|left; now apply Rinv_0_lt_compat]). assert (0 <= K * w) by nra. set (e := eps / h) in *. clearbody e.
  assert (0 <= f * h) by nra. assert (0 <= w * h) by nra. assert (0 <= K * w * e) by nra. assert (0 <= f * e) by nra. lra.
Qed.
