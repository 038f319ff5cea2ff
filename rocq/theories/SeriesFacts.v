(** * SeriesFacts: the equations of motion of a uniform plasma have solutions. *)
From Coq Require Import ZArith List Reals Lra Lia Ranalysis5.
From Verif Require Import GyroFacts FlowFacts.
Import ListNotations.
Open Scope R_scope.

(** ** power series *)
Definition term (a : nat -> R) (k : nat) (t : R) : R := a k / INR (fact k) * t ^ k.
Definition sums (a : nat -> R) (t l : R) : Prop := Un_cv (fun N => SP (term a) N t) l.
Definition bounded (a : nat -> R) (K O : R) : Prop := 0 <= K /\ 0 <= O /\ forall k, Rabs (a k) <= K * O ^ k.

Lemma fact_pos : forall k, 0 < INR (fact k).
Proof. intros. apply INR_fact_lt_0. Qed.
Lemma term_cvn : forall a K O, bounded a K O -> CVN_R (term a).
Proof.
  intros a K O (HK & HO & HB) r. exists (fun k => K * (/ INR (fact k) * (O * r) ^ k)). exists (K * exp (O * r)).
  assert (PR : 0 <= O * r) by (apply Rmult_le_pos; [exact HO|left; apply cond_pos]).
  assert (P : forall k, 0 <= K * (/ INR (fact k) * (O * r) ^ k)).
  { intros k. apply Rmult_le_pos; [exact HK|]. apply Rmult_le_pos; [left; apply Rinv_0_lt_compat, fact_pos|now apply pow_le]. }
  split.
  - assert (E : Un_cv (fun n => K * sum_f_R0 (fun k => / INR (fact k) * (O * r) ^ k) n) (K * exp (O * r))).
    { apply (CV_mult (fun _ => K)); [intros eps He; exists 0%nat; intros; unfold R_dist; rewrite Rminus_diag_eq, Rabs_R0 by reflexivity; lra|]. unfold exp. exact (proj2_sig (exist_exp (O * r))). }
    intros eps He. destruct (E eps He) as [N HN]. exists N. intros n Hn. specialize (HN n Hn).
    rewrite (sum_eq _ (fun k => / INR (fact k) * (O * r) ^ k * K)) by (intros k _; rewrite Rabs_pos_eq by apply P; ring). rewrite <- scal_sum. exact HN.
  - intros k y Hy. unfold Boule in Hy. rewrite Rminus_0_r in Hy. unfold term, Rdiv. rewrite !Rabs_mult. rewrite (Rabs_pos_eq (/ INR (fact k))) by (left; apply Rinv_0_lt_compat, fact_pos). rewrite <- RPow_abs.
    assert (Y : Rabs y ^ k <= r ^ k) by (apply pow_incr; split; [apply Rabs_pos|lra]). pose proof (Rinv_0_lt_compat _ (fact_pos k)) as F. pose proof (Rabs_pos (a k)) as A0. pose proof (pow_le _ k (Rabs_pos y)) as Y0.
    apply Rle_trans with (K * O ^ k * / INR (fact k) * r ^ k); [|right; rewrite Rpow_mult_distr; ring].
    apply Rmult_le_compat; [apply Rmult_le_pos; lra|exact Y0| |exact Y]. apply Rmult_le_compat_r; [lra|apply HB].
Qed.
Lemma series : forall a K O, bounded a K O -> {f : R -> R | forall t, sums a t (f t)}.
Proof. intros a K O H. exists (fun t => proj1_sig (CVN_R_CVS _ (term_cvn a K O H) t)). intros t. exact (proj2_sig (CVN_R_CVS _ (term_cvn a K O H) t)). Qed.

Lemma sp_der : forall a t n, derivable_pt_lim (SP (term a) (S n)) t (SP (term (fun k => a (S k))) n t).
Proof.
  intros a t n. assert (T : forall k, derivable_pt_lim (term a (S k)) t (term (fun k => a (S k)) k t)).
  { intros k. unfold term. apply (d_eq _ _ (a (S k) / INR (fact (S k)) * (INR (S k) * t ^ k))); [apply d_scal; exact (derivable_pt_lim_pow t (S k))|].
    rewrite fact_simpl, mult_INR. field. split; [apply INR_fact_neq_0|apply not_0_INR; lia]. }
  induction n as [|n IH].
  - unfold SP. cbn [sum_f_R0]. eapply d_eq; [apply d_plus; [|apply T]|]; [|apply Rplus_0_l]. apply (d_eq _ _ (a 0%nat / INR (fact 0) * 0)); [|ring]. unfold term. apply d_scal. cbn [pow]. apply d_const.
  - change (SP (term a) (S (S n))) with (fun s => SP (term a) (S n) s + term a (S (S n)) s). change (SP (term (fun k => a (S k))) (S n) t) with (SP (term (fun k => a (S k))) n t + term (fun k => a (S k)) (S n) t).
    apply d_plus; [exact IH|apply T].
Qed.
Lemma series_der : forall a K O f g, bounded a K O -> (forall t, sums a t (f t)) -> (forall t, sums (fun k => a (S k)) t (g t)) -> forall t, derivable_pt_lim f t (g t).
Proof.
  intros a K O f g (HK & HO & HB) Hf Hg t.
  assert (B' : bounded (fun k => a (S k)) (K * O) O). { split; [now apply Rmult_le_pos|]. split; [exact HO|]. intros k. eapply Rle_trans; [apply HB|]. right. cbn [pow]. ring. }
  pose (cv := fun y => exist (fun l => Un_cv (fun N => SP (term (fun k => a (S k))) N y) l) (g y) (Hg y)).
  assert (P : 0 < Rabs t + 1) by (pose proof (Rabs_pos t); lra).
  apply (derivable_pt_lim_CVU (fun n => SP (term a) (S n)) (fun n => SP (term (fun k => a (S k))) n) f g t 0 (mkposreal _ P)).
  - unfold Boule. cbn. rewrite Rminus_0_r. lra.
  - intros y n _. apply sp_der.
  - intros y _ eps He. destruct (Hf y eps He) as [N HN]. exists N. intros n Hn. apply HN. lia.
  - exact (CVN_CVU _ cv (mkposreal _ P) (term_cvn _ _ _ B' (mkposreal _ P))).
  - intros y _. refine (SFL_continuity _ cv (term_cvn _ _ _ B') _ y). intros n x. unfold term. apply derivable_continuous_pt. eexists. apply (d_scal _ (fun t => t ^ n)). apply derivable_pt_lim_pow.
Qed.

Lemma sp_S : forall a N t, SP (term a) (S N) t = SP (term a) N t + term a (S N) t.
Proof. reflexivity. Qed.
Lemma sums_3 : forall a b c x y z t l m q, sums a t l -> sums b t m -> sums c t q -> sums (fun k => x * a k + y * b k + z * c k) t (x * l + y * m + z * q).
Proof.
  intros a b c x y z t l m q Ha Hb Hc. unfold sums in *.
  assert (E : forall N, SP (term (fun k => x * a k + y * b k + z * c k)) N t = x * SP (term a) N t + y * SP (term b) N t + z * SP (term c) N t).
  { induction N as [|N IH]; [unfold SP, term; cbn [sum_f_R0]; unfold Rdiv; ring|].
    rewrite !sp_S, IH. unfold term, Rdiv. ring. }
  assert (CC : forall w, Un_cv (fun _ : nat => w) w) by (intros w eps He; exists 0%nat; intros; unfold R_dist; rewrite Rminus_diag_eq, Rabs_R0 by reflexivity; lra).
  assert (X : Un_cv (fun N => x * SP (term a) N t + y * SP (term b) N t + z * SP (term c) N t) (x * l + y * m + z * q)).
  { apply (CV_plus (fun N => x * SP (term a) N t + y * SP (term b) N t) (fun N => z * SP (term c) N t)); [apply (CV_plus (fun N => x * SP (term a) N t) (fun N => y * SP (term b) N t))|];
      apply (CV_mult (fun _ => _) (fun N => SP _ N t)); auto. }
  intros eps He. destruct (X eps He) as [N HN]. exists N. intros n Hn. rewrite E. now apply HN.
Qed.
Lemma sums_start : forall a l, sums a 0 l -> l = a 0%nat.
Proof.
  intros a l H. assert (E : forall N, SP (term a) N 0 = a 0%nat).
  { induction N as [|N IH]; [unfold SP, term; cbn; field|]. change (SP (term a) (S N) 0) with (SP (term a) N 0 + term a (S N) 0). rewrite IH. unfold term. rewrite pow_i by lia. ring. }
  apply (UL_sequence (fun N => SP (term a) N 0)); [exact H|]. intros eps He. exists 0%nat. intros n _. rewrite E. unfold R_dist. rewrite Rminus_diag_eq, Rabs_R0 by reflexivity. lra.
Qed.

(** ** the plasma *)
Definition within (i : nat) (k : Z) : Prop := ((i < 2)%nat /\ (1 <= k <= 3)%Z) \/ (i = 2%nat /\ (0 <= k <= 2)%Z).
Definition withinb (i : nat) (k : Z) : bool := (((i <? 2)%nat && (1 <=? k)%Z && (k <=? 3)%Z) || ((i =? 2)%nat && (0 <=? k)%Z && (k <=? 2)%Z))%bool.
Lemma within_iff : forall i k, withinb i k = true <-> within i k.
Proof. intros i k. unfold withinb, within. rewrite Bool.orb_true_iff, !Bool.andb_true_iff, Nat.ltb_lt, Nat.eqb_eq, !Z.leb_le. intuition. Qed.

Section Existence.
Variables a0 a1 r0 r1 m0 m1 : R.
Variable b : Z -> R.
Notation A := (spin a0 a1 r0 r1 m0 m1 b).
Definition top : R := Rabs a0 * (Rabs r0 + Rabs (b 3%Z) + Rabs (b 4%Z) + Rabs (b 5%Z)) + Rabs a1 * (Rabs r1 + Rabs (b 3%Z) + Rabs (b 4%Z) + Rabs (b 5%Z)) + Rabs m0 + Rabs m1.

Lemma spin_three : forall i k, within i k -> exists x y z i1 k1 i2 k2 i3 k3, within i1 k1 /\ within i2 k2 /\ within i3 k3 /\ Rabs x + Rabs y + Rabs z <= top /\
  forall v, A v i k = x * v i1 k1 + y * v i2 k2 + z * v i3 k3.
Proof.
  assert (PP : forall x y, 0 <= Rabs x * Rabs y) by (intros; apply Rmult_le_pos; apply Rabs_pos).
  pose proof (PP a0 r0). pose proof (PP a0 (b 3%Z)). pose proof (PP a0 (b 4%Z)). pose proof (PP a0 (b 5%Z)).
  pose proof (PP a1 r1). pose proof (PP a1 (b 3%Z)). pose proof (PP a1 (b 4%Z)). pose proof (PP a1 (b 5%Z)). pose proof (Rabs_pos m0). pose proof (Rabs_pos m1).
  assert (W : forall i k, (i < 2)%nat -> (1 <= k <= 3)%Z -> within i k) by (intros; left; auto). assert (W2 : forall k, (0 <= k <= 2)%Z -> within 2 k) by (intros; right; auto).
  intros i k [[Hi Hk]|[-> Hk]].
  - assert (i = 0 \/ i = 1)%nat as [->| ->] by lia; assert (k = 1 \/ k = 2 \/ k = 3)%Z as [->|[->| ->]] by lia.
    + exists (a0 * r0), (a0 * b 5%Z), (a0 * - b 4%Z), 2%nat, 0%Z, 0%nat, 2%Z, 0%nat, 3%Z. repeat split; try (apply W2; lia); try (apply W; lia); [rewrite !Rabs_mult, Rabs_Ropp; unfold top; lra|intros v; ipring].
    + exists (a0 * r0), (a0 * b 3%Z), (a0 * - b 5%Z), 2%nat, 1%Z, 0%nat, 3%Z, 0%nat, 1%Z. repeat split; try (apply W2; lia); try (apply W; lia); [rewrite !Rabs_mult, Rabs_Ropp; unfold top; lra|intros v; ipring].
    + exists (a0 * r0), (a0 * b 4%Z), (a0 * - b 3%Z), 2%nat, 2%Z, 0%nat, 1%Z, 0%nat, 2%Z. repeat split; try (apply W2; lia); try (apply W; lia); [rewrite !Rabs_mult, Rabs_Ropp; unfold top; lra|intros v; ipring].
    + exists (a1 * r1), (a1 * b 5%Z), (a1 * - b 4%Z), 2%nat, 0%Z, 1%nat, 2%Z, 1%nat, 3%Z. repeat split; try (apply W2; lia); try (apply W; lia); [rewrite !Rabs_mult, Rabs_Ropp; unfold top; lra|intros v; ipring].
    + exists (a1 * r1), (a1 * b 3%Z), (a1 * - b 5%Z), 2%nat, 1%Z, 1%nat, 3%Z, 1%nat, 1%Z. repeat split; try (apply W2; lia); try (apply W; lia); [rewrite !Rabs_mult, Rabs_Ropp; unfold top; lra|intros v; ipring].
    + exists (a1 * r1), (a1 * b 4%Z), (a1 * - b 3%Z), 2%nat, 2%Z, 1%nat, 1%Z, 1%nat, 2%Z. repeat split; try (apply W2; lia); try (apply W; lia); [rewrite !Rabs_mult, Rabs_Ropp; unfold top; lra|intros v; ipring].
  - exists m0, m1, 0, 0%nat, (k + 1)%Z, 1%nat, (k + 1)%Z, 0%nat, (k + 1)%Z. repeat split; try (apply W; lia); [rewrite Rabs_R0; unfold top; lra|intros v; unfold spin, pull, turn; ring].
Qed.

Variable u : vec.
Definition size : R := Rabs (u 0%nat 1%Z) + Rabs (u 0%nat 2%Z) + Rabs (u 0%nat 3%Z) + Rabs (u 1%nat 1%Z) + Rabs (u 1%nat 2%Z) + Rabs (u 1%nat 3%Z) + Rabs (u 2%nat 0%Z) + Rabs (u 2%nat 1%Z) + Rabs (u 2%nat 2%Z).
Definition coefs (i : nat) (k : Z) (n : nat) : R := if withinb i k then Nat.iter n A u i k else 0.
Lemma size_pos : 0 <= size.
Proof. unfold size. repeat apply Rplus_le_le_0_compat; apply Rabs_pos. Qed.
Lemma top_pos : 0 <= top.
Proof. unfold top. repeat apply Rplus_le_le_0_compat; try apply Rmult_le_pos; repeat apply Rplus_le_le_0_compat; apply Rabs_pos. Qed.
Lemma iter_bound : forall n i k, within i k -> Rabs (Nat.iter n A u i k) <= size * top ^ n.
Proof.
  pose proof size_pos as SP0. pose proof top_pos as TP. induction n as [|n IH]; intros i k H.
  - cbn [Nat.iter nat_rect pow]. rewrite Rmult_1_r. unfold size.
    pose proof (Rabs_pos (u 0%nat 1%Z)). pose proof (Rabs_pos (u 0%nat 2%Z)). pose proof (Rabs_pos (u 0%nat 3%Z)). pose proof (Rabs_pos (u 1%nat 1%Z)). pose proof (Rabs_pos (u 1%nat 2%Z)). pose proof (Rabs_pos (u 1%nat 3%Z)).
    pose proof (Rabs_pos (u 2%nat 0%Z)). pose proof (Rabs_pos (u 2%nat 1%Z)). pose proof (Rabs_pos (u 2%nat 2%Z)).
    destruct H as [[Hi Hk]|[-> Hk]]; [assert (i = 0 \/ i = 1)%nat as [->| ->] by lia; assert (k = 1 \/ k = 2 \/ k = 3)%Z as [->|[->| ->]] by lia; lra|assert (k = 0 \/ k = 1 \/ k = 2)%Z as [->|[->| ->]] by lia; lra].
  - change (Nat.iter (S n) A u) with (A (Nat.iter n A u)). destruct (spin_three i k H) as (x & y & z & i1 & k1 & i2 & k2 & i3 & k3 & W1 & W2 & W3 & HT & E). rewrite E.
    set (c := size * top ^ n) in *. assert (Pc : 0 <= c) by (unfold c; apply Rmult_le_pos; [exact SP0|now apply pow_le]).
    eapply Rle_trans; [apply Rabs_triang|]. eapply Rle_trans; [apply Rplus_le_compat_r, Rabs_triang|]. rewrite !Rabs_mult.
    assert (X : forall d i k, within i k -> Rabs d * Rabs (Nat.iter n A u i k) <= Rabs d * c) by (intros; apply Rmult_le_compat_l; [apply Rabs_pos|now apply IH]).
    pose proof (X x _ _ W1). pose proof (X y _ _ W2). pose proof (X z _ _ W3). apply Rle_trans with ((Rabs x + Rabs y + Rabs z) * c); [lra|].
    apply Rle_trans with (top * c); [now apply Rmult_le_compat_r|]. right. unfold c. cbn [pow]. ring.
Qed.
Lemma coefs_bound : forall i k, bounded (coefs i k) size top.
Proof.
  intros i k. split; [apply size_pos|]. split; [apply top_pos|]. intros n. unfold coefs. destruct (withinb i k) eqn:W; [apply iter_bound; now apply within_iff|].
  rewrite Rabs_R0. apply Rmult_le_pos; [apply size_pos|apply pow_le, top_pos].
Qed.
Definition flow (t : R) : vec := fun i k => proj1_sig (series _ _ _ (coefs_bound i k)) t.
Lemma flow_sums : forall i k t, sums (coefs i k) t (flow t i k).
Proof. intros. exact (proj2_sig (series _ _ _ (coefs_bound i k)) t). Qed.
Lemma flow_der : forall i k t, within i k -> derivable_pt_lim (fun s => flow s i k) t (A (flow t) i k).
Proof.
  intros i k t H. apply (series_der (coefs i k) size top (fun s => flow s i k) (fun s => A (flow s) i k)); [apply coefs_bound|intros; apply flow_sums|].
  clear t. intros t. destruct (spin_three i k H) as (x & y & z & i1 & k1 & i2 & k2 & i3 & k3 & W1 & W2 & W3 & _ & E). rewrite E.
  pose proof (sums_3 _ _ _ x y z t _ _ _ (flow_sums i1 k1 t) (flow_sums i2 k2 t) (flow_sums i3 k3 t)) as X.
  assert (EQ : forall n, coefs i k (S n) = x * coefs i1 k1 n + y * coefs i2 k2 n + z * coefs i3 k3 n).
  { intros n. unfold coefs. apply within_iff in H, W1, W2, W3. rewrite H, W1, W2, W3. change (Nat.iter (S n) A u) with (A (Nat.iter n A u)). apply E. }
  intros eps He. destruct (X eps He) as [N HN]. exists N. intros n Hn. specialize (HN n Hn). unfold SP in *.
  rewrite (sum_eq _ (fun j => term (fun k => x * coefs i1 k1 k + y * coefs i2 k2 k + z * coefs i3 k3 k) j t)); [exact HN|]. intros j _. unfold term. now rewrite EQ.
Qed.
Lemma flow_exists : (forall t, dvec flow t (A (flow t))) /\ same u (flow 0).
Proof.
  split.
  - intros t. split; intros; apply flow_der; [left; auto|right; auto].
  - assert (X : forall i k, within i k -> u i k = flow 0 i k). { intros i k H. rewrite (sums_start _ _ (flow_sums i k 0)). unfold coefs. apply within_iff in H. now rewrite H. }
    split; intros; apply X; [left; auto|right; auto].
Qed.
End Existence.
