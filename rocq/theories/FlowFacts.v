(** * FlowFacts: steps of a uniform plasma and the exact motion. *)
From Coq Require Import ZArith List String Bool Reals Lra Lia Psatz.
From Verif Require Import Base BaseFacts BoxSpec BoxFacts Interface EulerSpec PhysicsSpec PhysicsFacts Properties_Physics NumFacts Range RangeSpec RangeFacts ApiSpec Arith ArithR Chunk FieldSpec VarId Manager MgrSpec MgrFacts
  BC BCSpec BCFacts Sweep SweepSpec Euler Maxwell Sources SourceSpec ParFacts SweepFacts FluxFacts Programs ProgramsSpec ConserveFacts RhsFacts Properties_Programs
  SymmetrySpec SymmetryFacts Properties_Symmetry Properties_Chunk Properties_Monopole AxesFacts PositiveSpec PositiveFacts Properties_Positive AccuracyGas AccuracySpec AccuracyFacts GaussSpec GaussFacts OscillationSpec OscillationFacts SwingSpec SwingFacts GyroFacts.
Import ListNotations.
Open Scope R_scope.

(** ** derivatives *)
Lemma d_plus : forall f g t l m, derivable_pt_lim f t l -> derivable_pt_lim g t m -> derivable_pt_lim (fun s => f s + g s) t (l + m).
Proof. exact derivable_pt_lim_plus. Qed.
Lemma d_mult : forall f g t l m, derivable_pt_lim f t l -> derivable_pt_lim g t m -> derivable_pt_lim (fun s => f s * g s) t (l * g t + f t * m).
Proof. exact derivable_pt_lim_mult. Qed.
Lemma d_const : forall c t, derivable_pt_lim (fun _ => c) t 0.
Proof. exact derivable_pt_lim_const. Qed.
Lemma d_scal : forall c f t l, derivable_pt_lim f t l -> derivable_pt_lim (fun s => c * f s) t (c * l).
Proof. intros c f t l H. replace (c * l) with (0 * f t + c * l) by ring. apply (d_mult (fun _ => c)); [apply d_const|exact H]. Qed.
Lemma d_eq : forall f t l m, derivable_pt_lim f t l -> l = m -> derivable_pt_lim f t m.
Proof. intros f t l m H <-. exact H. Qed.
Lemma d_shift : forall f t0 t l, derivable_pt_lim f (t0 + t) l -> derivable_pt_lim (fun s => f (t0 + s)) t l.
Proof. intros f t0 t l H eps He. destruct (H eps He) as [d D]. exists d. intros h H0 Hd. specialize (D h H0 Hd). now rewrite Rplus_assoc in D. Qed.

(** A function that starts at zero and grows at most like the power. *)
Lemma grows : forall f f' C k h, f 0 = 0 -> (forall s, derivable_pt_lim f s (f' s)) -> (forall s, 0 <= s -> f' s <= C * s ^ k) -> 0 <= h -> f h <= C * h ^ S k / INR (S k).
Proof.
  intros f f' C k h H0 HD HB Hh. assert (PK : 0 < INR (S k)) by (apply lt_0_INR; lia). destruct (Req_dec h 0) as [->|N].
  - rewrite H0, pow_i by lia. unfold Rdiv. lra.
  - pose (q := fun s => C / INR (S k) * s ^ S k + - 1 * f s).
    destruct (MVT_cor2 q (fun s => C / INR (S k) * (INR (S k) * s ^ k) + - 1 * f' s) 0 h) as (c & E & Hc); [lra| |].
    { intros c _. unfold q. apply d_plus; apply d_scal; [exact (derivable_pt_lim_pow c (S k))|apply HD]. }
    unfold q in E. rewrite H0, pow_i in E by lia. pose proof (HB c ltac:(lra)) as X.
    assert (C / INR (S k) * (INR (S k) * c ^ k) = C * c ^ k) by (field; lra).
    assert (0 <= (C / INR (S k) * (INR (S k) * c ^ k) + - 1 * f' c) * (h - 0)) by (apply Rmult_le_pos; lra).
    replace (C * h ^ S k / INR (S k)) with (C / INR (S k) * h ^ S k) by (field; lra). lra.
Qed.

Definition dvec (U : R -> vec) (t : R) (V : vec) : Prop :=
  (forall i k, (i < 2)%nat -> (1 <= k <= 3)%Z -> derivable_pt_lim (fun s => U s i k) t (V i k)) /\ forall k, (0 <= k <= 2)%Z -> derivable_pt_lim (fun s => U s 2%nat k) t (V 2%nat k).
Lemma dvec_same : forall U t V W, dvec U t V -> same V W -> dvec U t W.
Proof. intros U t V W [A B] [C D]. split; intros; eapply d_eq; eauto. Qed.

Section Norm.
Variables k0 k1 : R.
Hypotheses (K0 : 0 <= k0) (K1 : 0 <= k1).
Notation "<< u , v >>" := (ip k0 k1 u v).
Definition nrm (u : vec) : R := sqrt << u, u >>.

Lemma nrm_pos : forall u, 0 <= nrm u.
Proof. intros. apply sqrt_pos. Qed.
Lemma nrm_sq : forall u, nrm u * nrm u = << u, u >>.
Proof. intros. apply sqrt_sqrt. now apply ip_pos. Qed.
Lemma nrm_same : forall u v, same u v -> nrm u = nrm v.
Proof. intros u v H. unfold nrm. now rewrite (ip_same k0 k1 u v u v H H). Qed.
Lemma ip_cauchy : forall u v, << u, v >> <= nrm u * nrm v.
Proof.
  intros u v. pose proof (nrm_pos u) as PU. pose proof (nrm_pos v) as PV. pose proof (nrm_sq u) as SU. pose proof (nrm_sq v) as SV.
  assert (X : forall s t, 0 <= s * s * << u, u >> + 2 * (s * t) * << u, v >> + t * t * << v, v >>).
  { intros s t. pose proof (ip_pos k0 k1 (lin s t u v) K0 K1) as X. rewrite ip_lin, !(ip_sym k0 k1 _ (lin _ _ _ _)), !ip_lin, (ip_sym k0 k1 v u) in X. lra. }
  destruct (Req_dec (nrm u) 0) as [Z|Z].
  - rewrite Z in SU |- *. rewrite Rmult_0_l in SU |- *. rewrite <- SU in X. destruct (Rle_lt_dec << u, v >> 0) as [G|G]; [exact G|exfalso].
    specialize (X (- (<< v, v >> + 1) / << u, v >>) 1). replace (2 * (- (<< v, v >> + 1) / << u, v >> * 1) * << u, v >>) with (- 2 * (<< v, v >> + 1)) in X by (field; lra).
    pose proof (ip_pos k0 k1 v K0 K1). lra.
  - specialize (X (- nrm v) (nrm u)). rewrite <- SU, <- SV in X. destruct (Rle_lt_dec << u, v >> (nrm u * nrm v)) as [G|G]; [exact G|exfalso].
    destruct (Req_dec (nrm v) 0) as [W|W].
    + rewrite W in *. assert (P := X). clear X. pose proof (ip_pos k0 k1 (lin (- (<< u, u >> + 1)) 1 u v) K0 K1) as X.
      assert (VV : << v, v >> = 0) by (rewrite <- SV; ring). pose (t := - (<< u, u >> + 1) / << u, v >>).
      pose proof (ip_pos k0 k1 (lin 1 t u v) K0 K1) as Y. rewrite ip_lin, !(ip_sym k0 k1 _ (lin _ _ _ _)), !ip_lin, (ip_sym k0 k1 v u), VV in Y.
      assert (E : t * << u, v >> = - (<< u, u >> + 1)) by (unfold t; field; lra). pose proof (ip_pos k0 k1 u K0 K1). lra.
    + assert (P : 0 < nrm u * nrm v) by (apply Rmult_lt_0_compat; lra). nra.
Qed.
Lemma nrm_lin : forall u v, nrm (lin 1 1 u v) <= nrm u + nrm v.
Proof.
  intros u v. pose proof (nrm_pos u) as PU. pose proof (nrm_pos v) as PV. apply Rsqr_incr_0_var; [|lra]. unfold Rsqr. rewrite nrm_sq, ip_lin, !(ip_sym k0 k1 _ (lin _ _ _ _)), !ip_lin, (ip_sym k0 k1 v u).
  pose proof (ip_cauchy u v). pose proof (nrm_sq u). pose proof (nrm_sq v). lra.
Qed.
Lemma nrm_le : forall u c, 0 <= c -> << u, u >> <= c * c -> nrm u <= c.
Proof. intros u c H X. apply Rsqr_incr_0_var; [|exact H]. unfold Rsqr. rewrite nrm_sq. exact X. Qed.

Lemma ip_der : forall w U t V, dvec U t V -> derivable_pt_lim (fun s => << w, U s >>) t << w, V >>.
Proof.
  intros w U t V [H1 H2]. unfold ip, sum3. cbn [Z.add Pos.add Pos.succ].
  apply d_plus; [apply d_plus; apply d_scal|]; (apply d_plus; [apply d_plus|]); apply d_scal; (apply H2 || apply H1); lia.
Qed.
Lemma ip_der2 : forall U t V, dvec U t V -> derivable_pt_lim (fun s => << U s, U s >>) t (2 * << U t, V >>).
Proof.
  intros U t V [H1 H2].
  apply (d_eq _ _ (k0 * sum3 (fun k => V 0%nat k * U t 0%nat k + U t 0%nat k * V 0%nat k) 1 + k1 * sum3 (fun k => V 1%nat k * U t 1%nat k + U t 1%nat k * V 1%nat k) 1 + sum3 (fun k => V 2%nat k * U t 2%nat k + U t 2%nat k * V 2%nat k) 0)); [|unfold ip, sum3; ring].
  unfold ip, sum3. cbn [Z.add Pos.add Pos.succ].
  apply d_plus; [apply d_plus; apply d_scal|]; (apply d_plus; [apply d_plus|]); (apply (d_mult (fun s => U s _ _) (fun s => U s _ _))); (apply H2 || apply H1); lia.
Qed.

(** A vector that starts at zero. *)
Lemma vec_grows : forall (G : R -> vec) (D : R -> vec) C k h, (forall w, << w, G 0 >> = 0) -> (forall s, dvec G s (D s)) -> 0 <= C -> (forall s, 0 <= s -> nrm (D s) <= C * s ^ k) -> 0 <= h ->
  nrm (G h) <= C * h ^ S k / INR (S k).
Proof.
  intros G D C k h H0 HD HC HB Hh. set (b := C * h ^ S k / INR (S k)).
  assert (PB : 0 <= b) by (unfold b; apply Rmult_le_pos; [apply Rmult_le_pos; [exact HC|now apply pow_le]|left; apply Rinv_0_lt_compat, lt_0_INR; lia]).
  assert (X : << G h, G h >> <= nrm (G h) * C * h ^ S k / INR (S k)).
  { apply (grows (fun s => << G h, G s >>) (fun s => << G h, D s >>)); [apply H0|intros s; apply ip_der, HD| |exact Hh].
    intros s Hs. eapply Rle_trans; [apply ip_cauchy|]. rewrite Rmult_assoc. apply Rmult_le_compat_l; [apply nrm_pos|now apply HB]. }
  replace (nrm (G h) * C * h ^ S k / INR (S k)) with (nrm (G h) * b) in X by (unfold b, Rdiv; ring). rewrite <- nrm_sq in X.
  destruct (Req_dec (nrm (G h)) 0) as [Z|Z]; [rewrite Z; exact PB|]. pose proof (nrm_pos (G h)). apply Rmult_le_reg_l with (nrm (G h)); [lra|exact X].
Qed.

(** ** the exact motion *)
Variable A : vec -> vec.
Variable O : R.
Hypotheses (PO : 0 <= O) (LIN : forall s t u v, same (A (lin s t u v)) (lin s t (A u) (A v))) (SM : forall u v, same u v -> same (A u) (A v))
  (SK : forall u, << u, A u >> = 0) (ON : forall u, << A u, A u >> <= O ^ 2 * << u, u >>).
Definition step3 (dt : R) (u : vec) : vec := lin 1 1 (lin 1 dt u (A u)) (lin (dt ^ 2 / 2) (dt ^ 3 / 6) (A (A u)) (A (A (A u)))).

Lemma nrm_A : forall u, nrm (A u) <= O * nrm u.
Proof. intros u. apply nrm_le; [apply Rmult_le_pos; [exact PO|apply nrm_pos]|]. eapply Rle_trans; [apply ON|]. rewrite <- nrm_sq. right. ring. Qed.

Section Flow.
Variable Y : R -> vec.
Hypothesis HY : forall t, dvec Y t (A (Y t)).
Lemma flow_norm : forall h, 0 <= h -> nrm (Y h) = nrm (Y 0).
Proof.
  intros h Hh. unfold nrm. f_equal. destruct (Req_dec h 0) as [->|N]; [reflexivity|].
  destruct (MVT_cor2 (fun s => << Y s, Y s >>) (fun s => 2 * << Y s, A (Y s) >>) 0 h) as (c & E & _); [lra|intros c _; now apply ip_der2|]. rewrite SK in E. lra.
Qed.

Definition G0 (s : R) : vec := lin 1 (-1) (Y s) (Y 0).
Definition G1 (s : R) : vec := lin 1 (-1) (Y s) (lin 1 s (Y 0) (A (Y 0))).
Definition G2 (s : R) : vec := lin 1 (-1) (Y s) (lin 1 (s ^ 2 / 2) (lin 1 s (Y 0) (A (Y 0))) (A (A (Y 0)))).
Definition G3 (s : R) : vec := lin 1 (-1) (Y s) (step3 s (Y 0)).

Lemma d_pow2 : forall t, derivable_pt_lim (fun s => s ^ 2 / 2) t t.
Proof. intros t. apply (d_eq _ _ (INR 2 * t ^ 1 * (/ 2) + t ^ 2 * 0)); [|cbn; field]. apply (d_mult (fun s => s ^ 2) (fun _ => / 2)); [exact (derivable_pt_lim_pow t 2)|apply d_const]. Qed.
Lemma d_pow3 : forall t, derivable_pt_lim (fun s => s ^ 3 / 6) t (t ^ 2 / 2).
Proof. intros t. apply (d_eq _ _ (INR 3 * t ^ 2 * (/ 6) + t ^ 3 * 0)); [|cbn; field]. apply (d_mult (fun s => s ^ 3) (fun _ => / 6)); [exact (derivable_pt_lim_pow t 3)|apply d_const]. Qed.
Lemma d_times : forall f t l c, derivable_pt_lim f t l -> derivable_pt_lim (fun s => f s * c) t (l * c).
Proof. intros f t l c H. apply (d_eq _ _ (l * c + f t * 0)); [|ring]. apply (d_mult f (fun _ => c)); [exact H|apply d_const]. Qed.

Lemma G0_der : forall s, dvec G0 s (A (Y s)).
Proof.
  intros s. destruct (HY s) as [H1 H2]. split; intros; unfold G0, lin; (eapply d_eq; [apply d_plus; [apply d_scal|apply d_const]; first [apply H1; assumption|apply H2; assumption]|ring]).
Qed.
Lemma G1_der : forall s, dvec G1 s (A (G0 s)).
Proof.
  intros s. eapply dvec_same; [|apply same_sym, LIN]. destruct (HY s) as [H1 H2]. split; intros; unfold G1, lin;
    (eapply d_eq; [apply d_plus; [apply d_scal; first [apply H1; assumption|apply H2; assumption]|apply d_scal; apply d_plus; [apply d_const|apply d_times, derivable_pt_lim_id]]|ring]).
Qed.
Lemma G2_der : forall s, dvec G2 s (A (G1 s)).
Proof.
  intros s. eapply dvec_same with (V := lin 1 (-1) (A (Y s)) (lin 1 s (A (Y 0)) (A (A (Y 0))))).
  - destruct (HY s) as [H1 H2]. split; intros; unfold G2, lin;
    (eapply d_eq; [apply d_plus; [apply d_scal; first [apply H1; assumption|apply H2; assumption]|apply d_scal; apply d_plus; [apply d_scal; apply d_plus; [apply d_const|apply d_times, derivable_pt_lim_id]|apply d_times, d_pow2]]|ring]).
  - eapply same_trans; [|apply same_sym, LIN]. apply same_lin; [apply same_refl|apply same_sym, LIN].
Qed.
Lemma G3_der : forall s, dvec G3 s (A (G2 s)).
Proof.
  intros s. eapply dvec_same with (V := lin 1 (-1) (A (Y s)) (lin 1 (s ^ 2 / 2) (lin 1 s (A (Y 0)) (A (A (Y 0)))) (A (A (A (Y 0)))))).
  - destruct (HY s) as [H1 H2]. split; intros; unfold G3, step3, lin;
    (eapply d_eq; [apply d_plus; [apply d_scal; first [apply H1; assumption|apply H2; assumption]|apply d_scal; apply d_plus; [apply d_scal; apply d_plus; [apply d_const|apply d_times, derivable_pt_lim_id]|apply d_scal; apply d_plus; [apply d_times, d_pow2|apply d_times, d_pow3]]]|ring]).
  - eapply same_trans; [|apply same_sym, LIN]. apply same_lin; [apply same_refl|]. eapply same_trans; [|apply same_sym, LIN]. apply same_lin; [apply same_sym, LIN|apply same_refl].
Qed.

Lemma local_error : forall h, 0 <= h -> nrm (G3 h) <= (O * h) ^ 4 / 24 * nrm (Y 0).
Proof.
  pose proof (nrm_pos (Y 0)) as PY. set (N := nrm (Y 0)) in *.
  assert (Z : forall w c d u, << w, lin 1 (-1) u (lin 1 0 u c) >> = 0 /\ << w, lin 1 (-1) u u >> = 0 /\ << w, lin 1 (-1) u (lin 1 (0 ^ 2 / 2) (lin 1 0 u c) d) >> = 0) by (intros; split; [|split]; unfold ip, sum3, lin; field).
  assert (B0 : forall h, 0 <= h -> nrm (G0 h) <= O * N * h).
  { intros h Hh. replace (O * N * h) with (O * N * h ^ 1 / INR 1) by (cbn; field). apply (vec_grows G0 (fun s => A (Y s))); [intros w; apply (Z w w w)|apply G0_der|now apply Rmult_le_pos| |exact Hh].
    intros s Hs. cbn [pow]. rewrite Rmult_1_r. eapply Rle_trans; [apply nrm_A|]. rewrite flow_norm by exact Hs. apply Rle_refl. }
  assert (B1 : forall h, 0 <= h -> nrm (G1 h) <= O ^ 2 * N / 2 * h ^ 2).
  { intros h Hh. replace (O ^ 2 * N / 2 * h ^ 2) with (O ^ 2 * N * h ^ 2 / INR 2) by (cbn; field). apply (vec_grows G1 (fun s => A (G0 s))); [intros w; apply (Z w (A (Y 0)) w)|apply G1_der|apply Rmult_le_pos; [apply pow2_ge_0|exact PY]| |exact Hh].
    intros s Hs. eapply Rle_trans; [apply nrm_A|]. replace (O ^ 2 * N * s ^ 1) with (O * (O * N * s)) by ring. apply Rmult_le_compat_l; [exact PO|now apply B0]. }
  assert (B2 : forall h, 0 <= h -> nrm (G2 h) <= O ^ 3 * N / 6 * h ^ 3).
  { intros h Hh. replace (O ^ 3 * N / 6 * h ^ 3) with (O ^ 3 * N / 2 * h ^ 3 / INR 3) by (cbn; field).
    apply (vec_grows G2 (fun s => A (G1 s))); [intros w; apply (Z w (A (Y 0)) (A (A (Y 0))))|apply G2_der|assert (0 <= O ^ 3 * N) by (apply Rmult_le_pos; [now apply pow_le|exact PY]); lra| |exact Hh].
    intros s Hs. eapply Rle_trans; [apply nrm_A|]. replace (O ^ 3 * N / 2 * s ^ 2) with (O * (O ^ 2 * N / 2 * s ^ 2)) by field. apply Rmult_le_compat_l; [exact PO|now apply B1]. }
  intros h Hh. replace ((O * h) ^ 4 / 24 * N) with (O ^ 4 * N / 6 * h ^ 4 / INR 4) by (cbn; field).
  apply (vec_grows G3 (fun s => A (G2 s))); [|apply G3_der|assert (0 <= O ^ 4 * N) by (apply Rmult_le_pos; [now apply pow_le|exact PY]); lra| |exact Hh].
  - intros w. unfold G3, step3, ip, sum3, lin. field.
  - intros s Hs. eapply Rle_trans; [apply nrm_A|]. replace (O ^ 4 * N / 6 * s ^ 3) with (O * (O ^ 3 * N / 6 * s ^ 3)) by field. apply Rmult_le_compat_l; [exact PO|now apply B2].
Qed.
End Flow.

Lemma step3_at : forall dt u i k, step3 dt u i k = 1 * (1 * u i k + dt * A u i k) + 1 * (dt ^ 2 / 2 * A (A u) i k + dt ^ 3 / 6 * A (A (A u)) i k).
Proof. reflexivity. Qed.
Lemma step3_lin : forall dt s t u v, same (step3 dt (lin s t u v)) (lin s t (step3 dt u) (step3 dt v)).
Proof.
  intros dt s t u v. pose proof (LIN s t u v) as L1. assert (L2 : same (A (A (lin s t u v))) (lin s t (A (A u)) (A (A v)))) by (eapply same_trans; [apply SM, L1|apply LIN]).
  assert (L3 : same (A (A (A (lin s t u v)))) (lin s t (A (A (A u))) (A (A (A v))))) by (eapply same_trans; [apply SM, L2|apply LIN]).
  destruct L1 as [P1 Q1], L2 as [P2 Q2], L3 as [P3 Q3]. split; intros; rewrite step3_at; [rewrite P1, P2, P3 by assumption|rewrite Q1, Q2, Q3 by assumption]; unfold lin; rewrite !step3_at; ring.
Qed.

(** Errors add up. *)
Lemma global_error : forall (Y : R -> vec) dt (T : nat -> vec), (forall t, dvec Y t (A (Y t))) -> 0 <= dt -> (forall u, << step3 dt u, step3 dt u >> <= << u, u >>) ->
  same (T 0%nat) (Y 0) -> (forall n, same (T (S n)) (step3 dt (T n))) ->
  forall n, nrm (lin 1 (-1) (T n) (Y (INR n * dt))) <= INR n * ((O * dt) ^ 4 / 24 * nrm (Y 0)).
Proof.
  intros Y dt T HY Hdt ST T0 TS n. induction n as [|n IH].
  - cbn [INR]. rewrite !Rmult_0_l. right. rewrite (nrm_same _ (lin 1 (-1) (Y 0) (Y 0))) by (apply same_lin; [exact T0|apply same_refl]). unfold nrm.
    replace << lin 1 (-1) (Y 0) (Y 0), lin 1 (-1) (Y 0) (Y 0) >> with 0 by (unfold ip, sum3, lin; ring). apply sqrt_0.
  - set (t := INR n * dt) in *. assert (Ht : 0 <= t) by (apply Rmult_le_pos; [apply pos_INR|exact Hdt]). rewrite S_INR. replace ((INR n + 1) * dt) with (t + dt) by (unfold t; ring).
    pose (Z := fun s => Y (t + s)). assert (HZ : forall s, dvec Z s (A (Z s))).
    { intros s. destruct (HY (t + s)) as [H1 H2]. split; intros; unfold Z; apply (d_shift (fun s => Y s _ _)); auto. }
    pose proof (local_error Z HZ dt Hdt) as LE. assert (Z0 : Z 0 = Y t) by (unfold Z; now rewrite Rplus_0_r). assert (FN : nrm (Y t) = nrm (Y 0)) by (apply (flow_norm Y HY); exact Ht). rewrite Z0, FN in LE.
    assert (E : same (lin 1 (-1) (T (S n)) (Y (t + dt))) (lin 1 1 (step3 dt (lin 1 (-1) (T n) (Y t))) (lin (-1) 0 (G3 Z dt) (G3 Z dt)))).
    { destruct (TS n) as [P Q]. destruct (step3_lin dt 1 (-1) (T n) (Y t)) as [P' Q']. split; intros; unfold lin at 1 2; [rewrite P, P' by assumption|rewrite Q, Q' by assumption]; unfold G3; rewrite Z0; unfold Z, lin; ring. }
    rewrite (nrm_same _ _ E). eapply Rle_trans; [apply nrm_lin|]. rewrite Rmult_plus_distr_r, Rmult_1_l. apply Rplus_le_compat.
    + eapply Rle_trans; [|exact IH]. unfold nrm. apply sqrt_le_1_alt, ST.
    + eapply Rle_trans; [|exact LE]. right. unfold nrm. f_equal. unfold ip, sum3, lin. ring.
Qed.
End Norm.

(** The steps of a cell. *)
Lemma motion_error : forall p k0 k1 oc op dt S0 n (Y : R -> vec), 0 <= dt -> 0 <= k0 -> 0 <= k1 -> 0 < oc -> 0 < op ->
  nth 0 (pl_ms p) 0 = - (k0 * pl_e p * S0 0%nat 0%Z) -> nth 1 (pl_ms p) 0 = - (k1 * pl_i p * S0 1%nat 0%Z) ->
  let B2 := S0 2%nat 3%Z ^ 2 + S0 2%nat 4%Z ^ 2 + S0 2%nat 5%Z ^ 2 in
  pl_e p ^ 2 * B2 <= oc ^ 2 -> pl_i p ^ 2 * B2 <= oc ^ 2 -> k0 * (pl_e p * S0 0%nat 0%Z) ^ 2 + k1 * (pl_i p * S0 1%nat 0%Z) ^ 2 <= op ^ 2 ->
  let z := (oc + op) * dt in z ^ 2 <= 3 -> (forall t, dvec Y t (spin_of p S0 (Y t))) -> same S0 (Y 0) ->
  let D := lin 1 (-1) (Nat.iter n (still_rk3 p dt) S0) (Y (INR n * dt)) in
  ip k0 k1 D D <= (INR n * (z ^ 4 / 24)) ^ 2 * ip k0 k1 S0 S0.
Proof.
  intros p k0 k1 oc op dt S0 n Y Hdt K0 K1 OC OP M0 M1 B2 HC0 HC1 HP z Hz HY Y0 D.
  pose proof (spin_norm (pl_e p) (pl_i p) (S0 0%nat 0%Z) (S0 1%nat 0%Z) (nth 0 (pl_ms p) 0) (nth 1 (pl_ms p) 0) (S0 2%nat) k0 k1 M0 M1 K0 K1 oc op OC OP HC0 HC1 HP) as ON.
  pose proof (cubic_bound (pl_e p) (pl_i p) (S0 0%nat 0%Z) (S0 1%nat 0%Z) (nth 0 (pl_ms p) 0) (nth 1 (pl_ms p) 0) (S0 2%nat) k0 k1 M0 M1 K0 K1 oc op OC OP HC0 HC1 HP dt) as CB.
  pose proof (skew0 (pl_e p) (pl_i p) (S0 0%nat 0%Z) (S0 1%nat 0%Z) (nth 0 (pl_ms p) 0) (nth 1 (pl_ms p) 0) (S0 2%nat) k0 k1 M0 M1) as SK.
  pose proof (global_error k0 k1 K0 K1 (spin_of p S0) (oc + op) ltac:(lra) ltac:(intros; apply spin_lin) ltac:(intros; now apply spin_same) SK ON Y dt (fun m => Nat.iter m (still_rk3 p dt) S0) HY Hdt) as G.
  assert (GE : nrm k0 k1 D <= INR n * (z ^ 4 / 24 * nrm k0 k1 (Y 0))).
  { apply G; [intros u; apply (CB u Hz)|exact Y0|]. intros m. destruct (spin_iter p k0 k1 oc op dt S0 m K0 K1 OC OP M0 M1 HC0 HC1 HP Hz) as [KP _].
    change (Nat.iter (S m) (still_rk3 p dt) S0) with (still_rk3 p dt (Nat.iter m (still_rk3 p dt) S0)). set (T := Nat.iter m (still_rk3 p dt) S0) in *.
    eapply same_trans; [apply still_rk3_spin|]. unfold cubic, step3. change (spin (pl_e p) (pl_i p) (T 0%nat 0%Z) (T 1%nat 0%Z) (nth 0 (pl_ms p) 0) (nth 1 (pl_ms p) 0) (T 2%nat)) with (spin_of p T).
    assert (KS : forall v, same (spin_of p T v) (spin_of p S0 v)) by (intros; now apply kept_spin).
    assert (KS2 : same (spin_of p T (spin_of p T T)) (spin_of p S0 (spin_of p S0 T))) by (eapply same_trans; [apply KS|apply spin_same, KS]).
    apply same_lin; apply same_lin; [apply same_refl|apply KS|exact KS2|]. eapply same_trans; [apply KS|apply spin_same, KS2]. }
  rewrite <- (ip_same k0 k1 (Y 0) S0 (Y 0) S0) by (now apply same_sym). rewrite <- !nrm_sq by assumption.
  pose proof (nrm_pos k0 k1 D) as PD. set (c := INR n * (z ^ 4 / 24)). replace (INR n * (z ^ 4 / 24 * nrm k0 k1 (Y 0))) with (c * nrm k0 k1 (Y 0)) in GE by (unfold c; ring).
  replace (c ^ 2 * (nrm k0 k1 (Y 0) * nrm k0 k1 (Y 0))) with (c * nrm k0 k1 (Y 0) * (c * nrm k0 k1 (Y 0))) by ring. apply Rmult_le_compat; assumption.
Qed.
