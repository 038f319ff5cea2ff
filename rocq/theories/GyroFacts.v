(** * GyroFacts: the motion of a uniform plasma in a magnetic field. *)
From Coq Require Import ZArith List String Bool Reals Lra Lia Psatz.
From Verif Require Import Base BaseFacts BoxSpec BoxFacts Interface EulerSpec PhysicsSpec PhysicsFacts Properties_Physics NumFacts Range RangeSpec RangeFacts ApiSpec Arith ArithR Chunk FieldSpec VarId Manager MgrSpec MgrFacts
  BC BCSpec BCFacts Sweep SweepSpec Euler Maxwell Sources SourceSpec ParFacts SweepFacts FluxFacts Programs ProgramsSpec ConserveFacts RhsFacts Properties_Programs
  SymmetrySpec SymmetryFacts Properties_Symmetry Properties_Chunk Properties_Monopole AxesFacts PositiveSpec PositiveFacts Properties_Positive AccuracyGas AccuracySpec AccuracyFacts GaussSpec GaussFacts OscillationSpec OscillationFacts SwingSpec SwingFacts.
Import ListNotations.
Open Scope R_scope.

(** Momenta are the components 1, 2, 3 of the unknowns 0 and 1, the electric field the
    components 0, 1, 2 of the unknown 2. *)
Notation vec := (nat -> Z -> R).
Definition same (u v : vec) : Prop := (forall i k, (i < 2)%nat -> (1 <= k <= 3)%Z -> u i k = v i k) /\ forall k, (0 <= k <= 2)%Z -> u 2%nat k = v 2%nat k.
Definition cross (v b : Z -> R) (k : Z) : R :=
  match k with 1%Z => v 2%Z * b 5%Z - v 3%Z * b 4%Z | 2%Z => v 3%Z * b 3%Z - v 1%Z * b 5%Z | 3%Z => v 1%Z * b 4%Z - v 2%Z * b 3%Z | _ => 0 end.
(** The turning of the momenta around [b], and the pull of field and current on each
    other. *)
Definition turn (a0 a1 : R) (b : Z -> R) (v : vec) : vec := fun i k =>
  match i with 0%nat => a0 * cross (v 0%nat) b k | 1%nat => a1 * cross (v 1%nat) b k | _ => 0 end.
Definition pull (a0 a1 r0 r1 m0 m1 : R) (v : vec) : vec := fun i k =>
  match i with 0%nat => a0 * (r0 * v 2%nat (k - 1)%Z) | 1%nat => a1 * (r1 * v 2%nat (k - 1)%Z) | _ => m0 * v 0%nat (k + 1)%Z + m1 * v 1%nat (k + 1)%Z end.
Definition spin (a0 a1 r0 r1 m0 m1 : R) (b : Z -> R) (v : vec) : vec := fun i k => pull a0 a1 r0 r1 m0 m1 v i k + turn a0 a1 b v i k.
Definition sum3 (f : Z -> R) (k : Z) : R := f k + f (k + 1)%Z + f (k + 2)%Z.
Definition ip (k0 k1 : R) (u v : vec) : R :=
  k0 * sum3 (fun k => u 0%nat k * v 0%nat k) 1 + k1 * sum3 (fun k => u 1%nat k * v 1%nat k) 1 + sum3 (fun k => u 2%nat k * v 2%nat k) 0.
Definition lin (s t : R) (u v : vec) : vec := fun i k => s * u i k + t * v i k.

Ltac ipring := unfold ip, sum3, lin, spin, pull, turn, cross; cbn [Z.add Z.sub Z.opp Z.pos_sub Pos.add Pos.succ Pos.pred_double]; ring.

Lemma ip_sym : forall k0 k1 u v, ip k0 k1 u v = ip k0 k1 v u.
Proof. intros. ipring. Qed.
Lemma ip_lin : forall k0 k1 s t u v w, ip k0 k1 (lin s t u v) w = s * ip k0 k1 u w + t * ip k0 k1 v w.
Proof. intros. ipring. Qed.
Lemma ip_same : forall k0 k1 u u' v v', same u u' -> same v v' -> ip k0 k1 u v = ip k0 k1 u' v'.
Proof.
  intros k0 k1 u u' v v' [H1 H2] [H3 H4]. unfold ip, sum3. cbn [Z.add Pos.add Pos.succ].
  rewrite ?H2, ?H4 by lia. rewrite ?(H1 0%nat), ?(H1 1%nat), ?(H3 0%nat), ?(H3 1%nat) by lia. reflexivity.
Qed.
Lemma ip_pos : forall k0 k1 u, 0 <= k0 -> 0 <= k1 -> 0 <= ip k0 k1 u u.
Proof.
  intros k0 k1 u H0 H1. unfold ip, sum3.
  assert (Q : forall a b c : R, 0 <= a * a + b * b + c * c) by (intros; nra).
  apply Rplus_le_le_0_compat; [apply Rplus_le_le_0_compat; apply Rmult_le_pos; auto|]; apply Q.
Qed.
Lemma same_refl : forall u, same u u.
Proof. intros. split; intros; reflexivity. Qed.
Lemma same_trans : forall u v w, same u v -> same v w -> same u w.
Proof. intros u v w [A B] [C D]. split; intros; [rewrite A by assumption; now apply C|rewrite B by assumption; now apply D]. Qed.

Section Spin.
Variables a0 a1 r0 r1 m0 m1 : R.
Variable b : Z -> R.
Let A := spin a0 a1 r0 r1 m0 m1 b.

Lemma spin_lin : forall s t u v, same (A (lin s t u v)) (lin s t (A u) (A v)).
Proof.
  intros s t u v. split.
  - intros i k Hi Hk. assert (i = 0 \/ i = 1)%nat as [->| ->] by lia; assert (k = 1 \/ k = 2 \/ k = 3)%Z as [->|[->| ->]] by lia; unfold A; ipring.
  - intros k Hk. assert (k = 0 \/ k = 1 \/ k = 2)%Z as [->|[->| ->]] by lia; unfold A; ipring.
Qed.
Lemma spin_same : forall u v, same u v -> same (A u) (A v).
Proof.
  intros u v [H1 H2]. split.
  - intros i k Hi Hk. assert (i = 0 \/ i = 1)%nat as [->| ->] by lia; assert (k = 1 \/ k = 2 \/ k = 3)%Z as [->|[->| ->]] by lia;
      unfold A, spin, pull, turn, cross; cbn [Z.sub Z.add Z.opp Z.pos_sub Pos.pred_double]; rewrite ?H2 by lia; rewrite ?(H1 0%nat), ?(H1 1%nat) by lia; reflexivity.
  - intros k Hk. unfold A, spin, pull, turn. rewrite (H1 0%nat), (H1 1%nat) by lia. reflexivity.
Qed.

Variables k0 k1 : R.
Hypothesis M0 : m0 = - (k0 * a0 * r0).
Hypothesis M1 : m1 = - (k1 * a1 * r1).
Notation "<< u , v >>" := (ip k0 k1 u v).

Lemma spin_skew : forall u v, << A u, v >> = - << u, A v >>.
Proof. intros. unfold A. rewrite M0, M1. ipring. Qed.
Lemma skew0 : forall u, << u, A u >> = 0.
Proof. intros u. pose proof (spin_skew u u) as H. rewrite ip_sym in H. lra. Qed.

(** The third-order step. *)
Definition cubic (dt : R) (u : vec) : vec := lin 1 1 (lin 1 dt u (A u)) (lin (dt ^ 2 / 2) (dt ^ 3 / 6) (A (A u)) (A (A (A u)))).
Lemma cubic_norm : forall dt u, << cubic dt u, cubic dt u >> = << u, u >> - dt ^ 4 / 12 * << A (A u), A (A u) >> + dt ^ 6 / 36 * << A (A (A u)), A (A (A u)) >>.
Proof.
  intros dt u. unfold cubic. set (v1 := A u). set (v2 := A v1). set (v3 := A v2).
  rewrite !ip_lin. rewrite !(ip_sym k0 k1 _ (lin _ _ _ _)). rewrite !ip_lin.
  assert (E01 : << u, v1 >> = 0) by apply skew0. assert (E12 : << v1, v2 >> = 0) by apply skew0. assert (E23 : << v2, v3 >> = 0) by apply skew0.
  assert (E02 : << u, v2 >> = - << v1, v1 >>) by (pose proof (spin_skew u v1) as H; fold v1 v2 in H; lra).
  assert (E03 : << u, v3 >> = 0) by (pose proof (spin_skew u v2) as H; fold v1 v3 in H; rewrite E12 in H; lra).
  assert (E13 : << v1, v3 >> = - << v2, v2 >>) by (pose proof (spin_skew v1 v2) as H; fold v2 v3 in H; lra).
  rewrite (ip_sym k0 k1 v1 u), (ip_sym k0 k1 v2 u), (ip_sym k0 k1 v3 u), (ip_sym k0 k1 v2 v1), (ip_sym k0 k1 v3 v1), (ip_sym k0 k1 v3 v2).
  rewrite E01, E02, E03, E12, E13, E23. field.
Qed.

(** Bounds. *)
Hypothesis K0 : 0 <= k0.
Hypothesis K1 : 0 <= k1.
Variables oc op : R.
Hypothesis OC : 0 < oc.
Hypothesis OP : 0 < op.
Let B2 := b 3%Z ^ 2 + b 4%Z ^ 2 + b 5%Z ^ 2.
Hypothesis HC0 : a0 ^ 2 * B2 <= oc ^ 2.
Hypothesis HC1 : a1 ^ 2 * B2 <= oc ^ 2.
Hypothesis HP : k0 * (a0 * r0) ^ 2 + k1 * (a1 * r1) ^ 2 <= op ^ 2.

Lemma cross_norm : forall a v, a ^ 2 * B2 <= oc ^ 2 -> sum3 (fun k => (a * cross v b k) * (a * cross v b k)) 1 <= oc ^ 2 * sum3 (fun k => v k * v k) 1.
Proof.
  intros a v H. apply Rle_trans with (a ^ 2 * B2 * sum3 (fun k => v k * v k) 1).
  - assert (E : sum3 (fun k => (a * cross v b k) * (a * cross v b k)) 1 = a ^ 2 * B2 * sum3 (fun k => v k * v k) 1 - (a * (v 1%Z * b 3%Z + v 2%Z * b 4%Z + v 3%Z * b 5%Z)) ^ 2).
    { unfold B2, sum3, cross. cbn [Z.add Pos.add Pos.succ]. ring. }
    rewrite E. pose proof (pow2_ge_0 (a * (v 1%Z * b 3%Z + v 2%Z * b 4%Z + v 3%Z * b 5%Z))). lra.
  - apply Rmult_le_compat_r; [unfold sum3; nra|exact H].
Qed.
Lemma turn_norm : forall u, << turn a0 a1 b u, turn a0 a1 b u >> <= oc ^ 2 * << u, u >>.
Proof.
  intros u. pose proof (cross_norm a0 (u 0%nat) HC0) as X0. pose proof (cross_norm a1 (u 1%nat) HC1) as X1.
  unfold ip. set (s0 := sum3 (fun k => u 0%nat k * u 0%nat k) 1) in *. set (s1 := sum3 (fun k => u 1%nat k * u 1%nat k) 1) in *. set (s2 := sum3 (fun k => u 2%nat k * u 2%nat k) 0) in *.
  unfold turn. set (c0 := sum3 (fun k => a0 * cross (u 0%nat) b k * (a0 * cross (u 0%nat) b k)) 1) in *. set (c1 := sum3 (fun k => a1 * cross (u 1%nat) b k * (a1 * cross (u 1%nat) b k)) 1) in *. set (c2 := sum3 _ 0).
  assert (E : c2 = 0) by (unfold c2, sum3; ring). assert (P2 : 0 <= s2) by (unfold s2, sum3; nra). rewrite E.
  assert (k0 * c0 <= k0 * (oc ^ 2 * s0)) by (apply Rmult_le_compat_l; assumption). assert (k1 * c1 <= k1 * (oc ^ 2 * s1)) by (apply Rmult_le_compat_l; assumption).
  assert (0 <= oc ^ 2 * s2) by (apply Rmult_le_pos; [apply pow2_ge_0|exact P2]). lra.
Qed.
Lemma pull_norm : forall u, << pull a0 a1 r0 r1 m0 m1 u, pull a0 a1 r0 r1 m0 m1 u >> <= op ^ 2 * << u, u >>.
Proof.
  intros u. set (w2 := k0 * (a0 * r0) ^ 2 + k1 * (a1 * r1) ^ 2) in *. apply Rle_trans with (w2 * << u, u >>).
  - assert (Q : forall x y, (m0 * x + m1 * y) * (m0 * x + m1 * y) = w2 * (k0 * (x * x) + k1 * (y * y)) - k0 * k1 * (a0 * r0 * y - a1 * r1 * x) ^ 2) by (intros; unfold w2; rewrite M0, M1; ring).
    assert (N : forall x y, 0 <= k0 * k1 * (a0 * r0 * y - a1 * r1 * x) ^ 2) by (intros; apply Rmult_le_pos; [apply Rmult_le_pos; assumption|apply pow2_ge_0]).
    unfold ip, sum3, pull. cbn [Z.add Z.sub Z.opp Z.pos_sub Pos.add Pos.succ Pos.pred_double]. rewrite !Q.
    pose proof (N (u 0%nat 1%Z) (u 1%nat 1%Z)). pose proof (N (u 0%nat 2%Z) (u 1%nat 2%Z)). pose proof (N (u 0%nat 3%Z) (u 1%nat 3%Z)). unfold w2 in *. lra.
  - apply Rmult_le_compat_r; [now apply ip_pos|exact HP].
Qed.
Lemma spin_norm : forall u, << A u, A u >> <= (oc + op) ^ 2 * << u, u >>.
Proof.
  intros u. set (C := turn a0 a1 b u). set (P := pull a0 a1 r0 r1 m0 m1 u). set (N := << u, u >>).
  assert (HC : << C, C >> <= oc ^ 2 * N) by apply turn_norm. assert (HPp : << P, P >> <= op ^ 2 * N) by apply pull_norm.
  assert (E : << A u, A u >> = << P, P >> + 2 * << C, P >> + << C, C >>) by (unfold A, spin; fold C P; unfold ip, sum3; ring).
  pose proof (ip_pos k0 k1 (lin op (- oc) C P) K0 K1) as X. rewrite ip_lin, !(ip_sym k0 k1 _ (lin _ _ _ _)), !ip_lin, (ip_sym k0 k1 P C) in X.
  assert (Y : << C, P >> <= oc * op * N).
  { apply Rmult_le_reg_l with (2 * (oc * op)); [apply Rmult_lt_0_compat; [lra|apply Rmult_lt_0_compat; assumption]|].
    assert (op ^ 2 * << C, C >> <= op ^ 2 * (oc ^ 2 * N)) by (apply Rmult_le_compat_l; [apply pow2_ge_0|exact HC]).
    assert (oc ^ 2 * << P, P >> <= oc ^ 2 * (op ^ 2 * N)) by (apply Rmult_le_compat_l; [apply pow2_ge_0|exact HPp]). lra. }
  rewrite E. lra.
Qed.

Lemma cubic_bound : forall dt u, let z := (oc + op) * dt in z ^ 2 <= 3 -> (1 - z ^ 4 / 12) * << u, u >> <= << cubic dt u, cubic dt u >> <= << u, u >>.
Proof.
  intros dt u z Hz. rewrite cubic_norm. set (N := << u, u >>). set (N1 := << A u, A u >>). set (N2 := << A (A u), A (A u) >>). set (N3 := << A (A (A u)), A (A (A u)) >>).
  assert (H1 : N1 <= (oc + op) ^ 2 * N) by apply spin_norm. assert (H2 : N2 <= (oc + op) ^ 2 * N1) by apply spin_norm. assert (H3 : N3 <= (oc + op) ^ 2 * N2) by apply spin_norm.
  assert (P2 : 0 <= N2) by now apply ip_pos. assert (P3 : 0 <= N3) by now apply ip_pos. assert (O2 : 0 <= (oc + op) ^ 2) by apply pow2_ge_0.
  assert (D2 : 0 <= dt ^ 2) by apply pow2_ge_0. assert (D4 : 0 <= dt ^ 4) by (replace (dt ^ 4) with (dt ^ 2 * dt ^ 2) by ring; now apply Rmult_le_pos).
  assert (D6 : 0 <= dt ^ 6) by (replace (dt ^ 6) with (dt ^ 4 * dt ^ 2) by ring; now apply Rmult_le_pos). split.
  - assert (H : N2 <= (oc + op) ^ 2 * ((oc + op) ^ 2 * N)) by (eapply Rle_trans; [exact H2|]; now apply Rmult_le_compat_l).
    assert (dt ^ 4 * N2 <= dt ^ 4 * ((oc + op) ^ 2 * ((oc + op) ^ 2 * N))) by now apply Rmult_le_compat_l.
    assert (0 <= dt ^ 6 * N3) by now apply Rmult_le_pos. replace (z ^ 4) with (dt ^ 4 * (oc + op) ^ 2 * (oc + op) ^ 2) by (unfold z; ring). lra.
  - assert (dt ^ 6 * N3 <= dt ^ 6 * ((oc + op) ^ 2 * N2)) by now apply Rmult_le_compat_l.
    assert (E : dt ^ 6 * ((oc + op) ^ 2 * N2) = z ^ 2 * (dt ^ 4 * N2)) by (unfold z; ring).
    assert (z ^ 2 * (dt ^ 4 * N2) <= 3 * (dt ^ 4 * N2)) by (apply Rmult_le_compat_r; [now apply Rmult_le_pos|exact Hz]). lra.
Qed.
End Spin.

(** ** the steps of the program *)

(** The operator of [p] at densities and magnetic field of [S]. *)
Definition spin_of (p : plasma) (S : nat -> Z -> R) : vec -> vec :=
  spin (pl_e p) (pl_i p) (S 0%nat 0%Z) (S 1%nat 0%Z) (nth 0 (pl_ms p) 0) (nth 1 (pl_ms p) 0) (S 2%nat).
(** Densities and magnetic field. *)
Definition kept (S T : nat -> Z -> R) : Prop := T 0%nat 0%Z = S 0%nat 0%Z /\ T 1%nat 0%Z = S 1%nat 0%Z /\ forall k, (3 <= k < 6)%Z -> T 2%nat k = S 2%nat k.

Lemma kept_spin : forall p S T v, kept S T -> same (spin_of p T v) (spin_of p S v).
Proof.
  intros p S T v (K0 & K1 & K2). split.
  - intros i k Hi Hk. unfold spin_of, spin, pull, turn, cross. rewrite K0, K1. rewrite !K2 by lia. reflexivity.
  - intros k Hk. reflexivity.
Qed.
Lemma still_op_spin : forall p S, same (still_op p S) (spin_of p S S).
Proof.
  intros p S. split.
  - intros i k Hi Hk. assert (i = 0 \/ i = 1)%nat as [->| ->] by lia; assert (k = 1 \/ k = 2 \/ k = 3)%Z as [->|[->| ->]] by lia;
      cbn [still_op]; unfold force, spin_of, spin, pull, turn, cross; cbn [lorentz_rate fadd fsub fmul RArith Z.sub Z.add Z.opp Z.pos_sub Pos.pred_double]; ring.
  - intros k Hk. cbn [still_op]. unfold spin_of, spin, pull, turn. destruct (Z.ltb_spec k 3); [|lia]. ring.
Qed.
Lemma still_op_kept : forall p S, still_op p S 0%nat 0%Z = 0 /\ still_op p S 1%nat 0%Z = 0 /\ forall k, (3 <= k < 6)%Z -> still_op p S 2%nat k = 0.
Proof.
  intros p S. split; [reflexivity|]. split; [reflexivity|]. intros k Hk. cbn [still_op]. destruct (Z.ltb_spec k 3); [lia|reflexivity].
Qed.
Lemma same_lin : forall s t u u' v v', same u u' -> same v v' -> same (lin s t u v) (lin s t u' v').
Proof. intros s t u u' v v' [A B] [C D]. split; intros; unfold lin; [rewrite A, C by assumption|rewrite B, D by assumption]; reflexivity. Qed.
Lemma same_sym : forall u v, same u v -> same v u.
Proof. intros u v [A B]. split; intros; symmetry; auto. Qed.

Lemma still_second_spin : forall p dt S T, kept S T -> kept S (still_second p dt T) /\ same (still_second p dt T) (lin 1 dt T (spin_of p S T)).
Proof.
  intros p dt S T (K0 & K1 & K2). destruct (still_op_kept p T) as (Z0 & Z1 & Z2). unfold still_second. split.
  - split; [rewrite Z0, K0; ring|]. split; [rewrite Z1, K1; ring|]. intros k Hk. rewrite Z2, K2 by exact Hk. ring.
  - pose proof (same_trans _ _ _ (still_op_spin p T) (kept_spin p S T T (conj K0 (conj K1 K2)))) as [A B]. split; intros; unfold lin; [rewrite A by assumption|rewrite B by assumption]; ring.
Qed.

Lemma still_rk3_spin : forall p dt S, kept S (still_rk3 p dt S) /\
  same (still_rk3 p dt S) (cubic (pl_e p) (pl_i p) (S 0%nat 0%Z) (S 1%nat 0%Z) (nth 0 (pl_ms p) 0) (nth 1 (pl_ms p) 0) (S 2%nat) dt S).
Proof.
  intros p dt S. assert (KS : kept S S) by (split; [|split]; auto). set (A := spin_of p S).
  assert (LIN : forall s t u v, same (A (lin s t u v)) (lin s t (A u) (A v))) by (intros; apply spin_lin).
  assert (SM : forall u v, same u v -> same (A u) (A v)) by (intros; now apply spin_same).
  assert (OP : forall T, kept S T -> same (still_op p T) (A T)) by (intros T K; eapply same_trans; [apply still_op_spin|now apply kept_spin]).
  destruct (still_second_spin p dt S S KS) as [K1 S1]. destruct (still_second_spin p dt S _ K1) as [K2 S2]. fold A in S1, S2.
  set (T1 := still_second p dt S) in *. set (T2 := still_second p dt T1) in *.
  assert (K3 : kept S (still_third p dt S)).
  { destruct K2 as (A0 & A1 & A2). unfold still_third. fold T1 T2. split; [rewrite A0; field|]. split; [rewrite A1; field|]. intros k Hk. rewrite A2 by exact Hk. field. }
  assert (S3 : same (still_third p dt S) (lin (3 / 4) (/ 4) S T2)) by (split; intros; reflexivity).
  pose proof (OP S KS) as O0. pose proof (OP T1 K1) as O1. pose proof (OP _ K3) as O3.
  (* A T1 = A S + dt A A S *)
  assert (X1 : same (A T1) (lin 1 dt (A S) (A (A S)))) by (eapply same_trans; [apply SM, S1|apply LIN]).
  assert (X2 : same (A T2) (lin 1 dt (A T1) (A (A T1)))) by (eapply same_trans; [apply SM, S2|apply LIN]).
  assert (X11 : same (A (A T1)) (lin 1 dt (A (A S)) (A (A (A S))))) by (eapply same_trans; [apply SM, X1|apply LIN]).
  assert (X3 : same (A (still_third p dt S)) (lin (3 / 4) (/ 4) (A S) (A T2))) by (eapply same_trans; [apply SM, S3|apply LIN]).
  split.
  - destruct (still_op_kept p S) as (P0 & P1 & P2), (still_op_kept p T1) as (Q0 & Q1 & Q2), (still_op_kept p (still_third p dt S)) as (R0 & R1 & R2).
    unfold still_rk3. fold T1. split; [rewrite P0, Q0, R0; lra|]. split; [rewrite P1, Q1, R1; lra|]. intros k Hk. rewrite P2, Q2, R2 by exact Hk. lra.
  - change (spin (pl_e p) (pl_i p) (S 0%nat 0%Z) (S 1%nat 0%Z) (nth 0 (pl_ms p) 0) (nth 1 (pl_ms p) 0) (S 2%nat)) with A. unfold cubic.
    change (spin (pl_e p) (pl_i p) (S 0%nat 0%Z) (S 1%nat 0%Z) (nth 0 (pl_ms p) 0) (nth 1 (pl_ms p) 0) (S 2%nat)) with A.
    destruct O0 as [O0 O0'], O1 as [O1 O1'], O3 as [O3 O3'], X1 as [X1 X1'], X2 as [X2 X2'], X11 as [X11 X11'], X3 as [X3 X3']. split.
    + intros i k Hi Hk. unfold still_rk3. fold T1. rewrite O0, O1, O3, X3 by assumption. unfold lin at 1. rewrite X2 by assumption. unfold lin at 1. rewrite X11, X1 by assumption. unfold lin. field.
    + intros k Hk. unfold still_rk3. fold T1. rewrite O0', O1', O3', X3' by assumption. unfold lin at 1. rewrite X2' by assumption. unfold lin at 1. rewrite X11', X1' by assumption. unfold lin. field.
Qed.

Lemma kept_trans : forall S T U, kept S T -> kept T U -> kept S U.
Proof. intros S T U (A & B & C) (D & E & G). split; [congruence|]. split; [congruence|]. intros k Hk. rewrite G, C by exact Hk. reflexivity. Qed.

(** Any number of steps. *)
Lemma spin_iter : forall p k0 k1 oc op dt S0 n, 0 <= k0 -> 0 <= k1 -> 0 < oc -> 0 < op ->
  nth 0 (pl_ms p) 0 = - (k0 * pl_e p * S0 0%nat 0%Z) -> nth 1 (pl_ms p) 0 = - (k1 * pl_i p * S0 1%nat 0%Z) ->
  let B2 := S0 2%nat 3%Z ^ 2 + S0 2%nat 4%Z ^ 2 + S0 2%nat 5%Z ^ 2 in
  pl_e p ^ 2 * B2 <= oc ^ 2 -> pl_i p ^ 2 * B2 <= oc ^ 2 -> k0 * (pl_e p * S0 0%nat 0%Z) ^ 2 + k1 * (pl_i p * S0 1%nat 0%Z) ^ 2 <= op ^ 2 ->
  let z := (oc + op) * dt in z ^ 2 <= 3 ->
  let T := Nat.iter n (still_rk3 p dt) S0 in kept S0 T /\ (1 - z ^ 4 / 12) ^ n * ip k0 k1 S0 S0 <= ip k0 k1 T T <= ip k0 k1 S0 S0.
Proof.
  intros p k0 k1 oc op dt S0 n K0 K1 OC OP M0 M1 B2 HC0 HC1 HP z Hz. induction n as [|n [KK IH]]; cbn zeta.
  - split; [split; [|split]; auto|]. cbn [Nat.iter nat_rect pow]. lra.
  - change (Nat.iter (S n) (still_rk3 p dt) S0) with (still_rk3 p dt (Nat.iter n (still_rk3 p dt) S0)). set (T := Nat.iter n (still_rk3 p dt) S0) in *.
    destruct (still_rk3_spin p dt T) as [KT ST]. split; [eapply kept_trans; eassumption|].
    rewrite (ip_same k0 k1 _ _ _ _ ST ST). pose proof KK as (D0 & D1 & D2). rewrite D0, D1.
    assert (CB := cubic_bound (pl_e p) (pl_i p) (S0 0%nat 0%Z) (S0 1%nat 0%Z) (nth 0 (pl_ms p) 0) (nth 1 (pl_ms p) 0) (T 2%nat) k0 k1 M0 M1 K0 K1 oc op OC OP).
    cbn zeta in CB. rewrite !D2 in CB by lia. specialize (CB HC0 HC1 HP dt T Hz). fold z in CB.
    assert (Z4 : 0 <= 1 - z ^ 4 / 12). { replace (z ^ 4) with (z ^ 2 * z ^ 2) by ring. pose proof (pow2_ge_0 z). assert (z ^ 2 * z ^ 2 <= 3 * 3) by (apply Rmult_le_compat; assumption). lra. }
    cbn [pow]. destruct IH as [L U]. split; [|lra]. apply Rle_trans with ((1 - z ^ 4 / 12) * ip k0 k1 T T); [|exact (proj1 CB)].
    rewrite Rmult_assoc. now apply Rmult_le_compat_l.
Qed.
