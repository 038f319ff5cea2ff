(** * HeatFacts: the energy of a uniform plasma. *)
From Coq Require Import ZArith List String Bool Reals Lra Lia Psatz.
From Verif Require Import Base BaseFacts BoxSpec BoxFacts Interface EulerSpec PhysicsSpec PhysicsFacts Properties_Physics NumFacts Range RangeSpec RangeFacts ApiSpec Arith ArithR Chunk FieldSpec VarId Manager MgrSpec MgrFacts
  BC BCSpec BCFacts Sweep SweepSpec Euler Maxwell Sources SourceSpec ParFacts SweepFacts FluxFacts Programs ProgramsSpec ConserveFacts RhsFacts Properties_Programs
  SymmetrySpec SymmetryFacts Properties_Symmetry Properties_Chunk Properties_Monopole AxesFacts PositiveSpec PositiveFacts Properties_Positive AccuracyGas AccuracySpec AccuracyFacts GaussSpec GaussFacts OscillationSpec OscillationFacts SwingSpec SwingFacts GyroFacts.
Import ListNotations.
Open Scope R_scope.

(** The product of the electric fields. *)
Definition fe (u v : vec) : R := u 2%nat 0%Z * v 2%nat 0%Z + u 2%nat 1%Z * v 2%nat 1%Z + u 2%nat 2%Z * v 2%nat 2%Z.
(** The power of the field, per volume. *)
Definition power (a0 a1 : R) (v : vec) : R :=
  a0 * (v 0%nat 1%Z * v 2%nat 0%Z + v 0%nat 2%Z * v 2%nat 1%Z + v 0%nat 3%Z * v 2%nat 2%Z) + a1 * (v 1%nat 1%Z * v 2%nat 0%Z + v 1%nat 2%Z * v 2%nat 1%Z + v 1%nat 3%Z * v 2%nat 2%Z).
Definition total (eps0 : R) (v : vec) : R := v 0%nat 4%Z + v 1%nat 4%Z + eps0 / 2 * fe v v.

Lemma fe_same : forall u u' v v', same u u' -> same v v' -> fe u v = fe u' v'.
Proof. intros u u' v v' [_ H] [_ H']. unfold fe. rewrite !H, !H' by lia. reflexivity. Qed.
Lemma fe_ip : forall k0 k1 u, 0 <= k0 -> 0 <= k1 -> fe u u <= ip k0 k1 u u.
Proof.
  intros k0 k1 u H0 H1. unfold fe, ip, sum3. cbn [Z.add Pos.add Pos.succ].
  assert (Q : forall a b c : R, 0 <= a * a + b * b + c * c) by (intros; nra).
  assert (0 <= k0 * (u 0%nat 1%Z * u 0%nat 1%Z + u 0%nat 2%Z * u 0%nat 2%Z + u 0%nat 3%Z * u 0%nat 3%Z)) by (apply Rmult_le_pos; auto).
  assert (0 <= k1 * (u 1%nat 1%Z * u 1%nat 1%Z + u 1%nat 2%Z * u 1%nat 2%Z + u 1%nat 3%Z * u 1%nat 3%Z)) by (apply Rmult_le_pos; auto). lra.
Qed.
Lemma fe_pos : forall u, 0 <= fe u u.
Proof. intros. unfold fe. nra. Qed.
Lemma fe_cauchy : forall s u v, 0 < s -> Rabs (2 * s * fe u v) <= s ^ 2 * fe u u + fe v v.
Proof.
  intros s u v Hs. pose proof (fe_pos (lin s 1 u v)) as P. pose proof (fe_pos (lin s (-1) u v)) as N. unfold fe, lin in *. apply Rabs_le. split; lra.
Qed.
Lemma power_field : forall eps0 a0 a1 r0 r1 m0 m1 b v, eps0 * m0 = - a0 -> eps0 * m1 = - a1 -> eps0 * fe v (spin a0 a1 r0 r1 m0 m1 b v) = - power a0 a1 v.
Proof.
  intros eps0 a0 a1 r0 r1 m0 m1 b v E0 E1. unfold fe, spin, pull, turn, power. cbn [Z.add Pos.add Pos.succ]. 
  replace a0 with (- (eps0 * m0)) by lra. replace a1 with (- (eps0 * m1)) by lra. ring.
Qed.

Lemma power_same : forall a0 a1 u v, same u v -> power a0 a1 u = power a0 a1 v.
Proof. intros a0 a1 u v [H1 H2]. unfold power. rewrite ?(H1 0%nat), ?(H1 1%nat), ?H2 by lia. reflexivity. Qed.

(** The change of the energy in one step. *)
Lemma still_energy : forall p eps0 dt S, eps0 * nth 0 (pl_ms p) 0 = - pl_e p -> eps0 * nth 1 (pl_ms p) 0 = - pl_i p ->
  let A := spin_of p S in let y := A S in let z := A y in let w := A z in
  total eps0 (still_rk3 p dt S) - total eps0 S = eps0 / 2 * dt ^ 4 * (fe z z / 12 + fe y w / 6 + dt * fe z w / 12 + dt ^ 2 * fe w w / 36).
Proof.
  intros p eps0 dt S E0 E1 A y z w. assert (KS : kept S S) by (split; [|split]; auto).
  assert (LIN : forall s t u v, same (A (lin s t u v)) (lin s t (A u) (A v))) by (intros; apply spin_lin).
  assert (SM : forall u v, same u v -> same (A u) (A v)) by (intros; now apply spin_same).
  destruct (still_second_spin p dt S S KS) as [K1 S1]. destruct (still_second_spin p dt S _ K1) as [K2 S2]. fold A in S1, S2. fold y in S1.
  destruct (still_rk3_spin p dt S) as [_ S3].
  change (spin (pl_e p) (pl_i p) (S 0%nat 0%Z) (S 1%nat 0%Z) (nth 0 (pl_ms p) 0) (nth 1 (pl_ms p) 0) (S 2%nat)) with A in S3. 
  set (T1 := still_second p dt S) in *. set (T2 := still_second p dt T1) in *. set (T3 := still_third p dt S).
  assert (X1 : same (A T1) (lin 1 dt y z)) by (eapply same_trans; [apply SM, S1|apply LIN]).
  assert (H3 : same T3 (lin (3 / 4) (/ 4) S T2)) by (split; intros; reflexivity).
  assert (X2 : same (A T2) (lin 1 dt (A T1) (A (A T1)))) by (eapply same_trans; [apply SM, S2|apply LIN]).
  assert (X11 : same (A (A T1)) (lin 1 dt z w)) by (eapply same_trans; [apply SM, X1|apply LIN]).
  assert (Y3 : same (A T3) (lin (3 / 4) (/ 4) y (A T2))) by (eapply same_trans; [apply SM, H3|apply LIN]).
  assert (G3 : same T3 (lin 1 1 (lin 1 (dt / 2) S y) (lin 0 (dt ^ 2 / 4) S z))).
  { destruct H3 as [P P'], S2 as [Q Q'], S1 as [U U'], X1 as [W W']. split.
    - intros i k Hi Hk. rewrite P by assumption. unfold lin at 1. rewrite Q by assumption. unfold lin at 1. rewrite W, U by assumption. unfold lin. field.
    - intros k Hk. rewrite P' by assumption. unfold lin at 1. rewrite Q' by assumption. unfold lin at 1. rewrite W', U' by assumption. unfold lin. field. }
  assert (G4 : same (A T3) (lin 1 1 (lin 1 (dt / 2) y z) (lin 0 (dt ^ 2 / 4) y w))).
  { destruct Y3 as [P P'], X2 as [Q Q'], X11 as [U U'], X1 as [W W']. split.
    - intros i k Hi Hk. rewrite P by assumption. unfold lin at 1. rewrite Q by assumption. unfold lin at 1. rewrite W, U by assumption. unfold lin. field.
    - intros k Hk. rewrite P' by assumption. unfold lin at 1. rewrite Q' by assumption. unfold lin at 1. rewrite W', U' by assumption. unfold lin. field. }
  assert (PW : forall v, eps0 * fe v (A v) = - power (pl_e p) (pl_i p) v) by (intros; now apply power_field).
  assert (EN : still_rk3 p dt S 0%nat 4%Z + still_rk3 p dt S 1%nat 4%Z = S 0%nat 4%Z + S 1%nat 4%Z + dt / 6 * (power (pl_e p) (pl_i p) S + power (pl_e p) (pl_i p) T1 + 4 * power (pl_e p) (pl_i p) T3)).
  { unfold still_rk3. fold T1 T3. cbn [still_op]. unfold force. cbn [lorentz_rate]. unfold power. cbn [fadd fsub fmul RArith]. field. }
  unfold total. rewrite EN, (fe_same _ _ _ _ S3 S3).
  replace (power (pl_e p) (pl_i p) S) with (- (eps0 * fe S y)) by (unfold y; rewrite PW; ring).
  replace (power (pl_e p) (pl_i p) T1) with (- (eps0 * fe (lin 1 dt S y) (lin 1 dt y z))) by (rewrite <- (fe_same _ _ _ _ S1 X1), PW; ring).
  replace (power (pl_e p) (pl_i p) T3) with (- (eps0 * fe (lin 1 1 (lin 1 (dt / 2) S y) (lin 0 (dt ^ 2 / 4) S z)) (lin 1 1 (lin 1 (dt / 2) y z) (lin 0 (dt ^ 2 / 4) y w)))) by (rewrite <- (fe_same _ _ _ _ G3 G4), PW; ring).
  unfold cubic. change (spin (pl_e p) (pl_i p) (S 0%nat 0%Z) (S 1%nat 0%Z) (nth 0 (pl_ms p) 0) (nth 1 (pl_ms p) 0) (S 2%nat)) with A. fold y. fold z. fold w. clearbody y z w. unfold fe, lin. field.
Qed.

(** Its bound. *)
Lemma still_energy_bound : forall p k0 k1 eps0 oc op dt S, 0 < eps0 -> 0 <= dt -> 0 <= k0 -> 0 <= k1 -> 0 < oc -> 0 < op ->
  eps0 * nth 0 (pl_ms p) 0 = - pl_e p -> eps0 * nth 1 (pl_ms p) 0 = - pl_i p ->
  nth 0 (pl_ms p) 0 = - (k0 * pl_e p * S 0%nat 0%Z) -> nth 1 (pl_ms p) 0 = - (k1 * pl_i p * S 1%nat 0%Z) ->
  let B2 := S 2%nat 3%Z ^ 2 + S 2%nat 4%Z ^ 2 + S 2%nat 5%Z ^ 2 in
  pl_e p ^ 2 * B2 <= oc ^ 2 -> pl_i p ^ 2 * B2 <= oc ^ 2 -> k0 * (pl_e p * S 0%nat 0%Z) ^ 2 + k1 * (pl_i p * S 1%nat 0%Z) ^ 2 <= op ^ 2 ->
  let z := (oc + op) * dt in z ^ 2 <= 3 ->
  Rabs (total eps0 (still_rk3 p dt S) - total eps0 S) <= z ^ 4 / 4 * (eps0 * ip k0 k1 S S).
Proof.
  intros p k0 k1 eps0 oc op dt S PE Hdt K0 K1 OC OP E0 E1 M0 M1 B2 HC0 HC1 HP z Hz. rewrite still_energy by assumption. set (A := spin_of p S).
  set (v1 := A S). set (v2 := A v1). set (v3 := A v2). set (N := ip k0 k1 S S). set (O := oc + op) in *. assert (PO : 0 < O) by (unfold O; lra).
  assert (SN := spin_norm (pl_e p) (pl_i p) (S 0%nat 0%Z) (S 1%nat 0%Z) (nth 0 (pl_ms p) 0) (nth 1 (pl_ms p) 0) (S 2%nat) k0 k1 M0 M1 K0 K1 oc op OC OP HC0 HC1 HP). fold O in SN.
  assert (SA : forall u, ip k0 k1 (A u) (A u) <= O ^ 2 * ip k0 k1 u u) by (intros u; exact (SN u)). clear SN.
  assert (O2 : 0 < O ^ 2) by (apply pow_lt; exact PO).
  assert (N0 : 0 <= N) by now apply ip_pos.
  assert (N1 : ip k0 k1 v1 v1 <= O ^ 2 * N) by apply SA.
  assert (N2 : ip k0 k1 v2 v2 <= O ^ 4 * N) by (eapply Rle_trans; [apply SA|]; replace (O ^ 4 * N) with (O ^ 2 * (O ^ 2 * N)) by ring; apply Rmult_le_compat_l; [lra|exact N1]).
  assert (N3 : ip k0 k1 v3 v3 <= O ^ 6 * N) by (eapply Rle_trans; [apply SA|]; replace (O ^ 6 * N) with (O ^ 2 * (O ^ 4 * N)) by ring; apply Rmult_le_compat_l; [lra|exact N2]).
  assert (F1 : fe v1 v1 <= O ^ 2 * N) by (eapply Rle_trans; [apply (fe_ip k0 k1); assumption|exact N1]).
  assert (F2 : fe v2 v2 <= O ^ 4 * N) by (eapply Rle_trans; [apply (fe_ip k0 k1); assumption|exact N2]).
  assert (F3 : fe v3 v3 <= O ^ 6 * N) by (eapply Rle_trans; [apply (fe_ip k0 k1); assumption|exact N3]).
  assert (C13 : Rabs (fe v1 v3) <= O ^ 4 * N).
  { pose proof (fe_cauchy (O ^ 2) v1 v3 O2) as C. rewrite Rabs_mult, (Rabs_pos_eq (2 * O ^ 2)) in C by lra. apply Rmult_le_reg_l with (2 * O ^ 2); [lra|].
    eapply Rle_trans; [exact C|]. assert ((O ^ 2) ^ 2 * fe v1 v1 <= (O ^ 2) ^ 2 * (O ^ 2 * N)) by (apply Rmult_le_compat_l; [apply pow2_ge_0|exact F1]). 
    replace (2 * O ^ 2 * (O ^ 4 * N)) with ((O ^ 2) ^ 2 * (O ^ 2 * N) + O ^ 6 * N) by ring. lra. }
  assert (C23 : Rabs (fe v2 v3) <= O ^ 5 * N).
  { pose proof (fe_cauchy O v2 v3 PO) as C. rewrite Rabs_mult, (Rabs_pos_eq (2 * O)) in C by lra. apply Rmult_le_reg_l with (2 * O); [lra|].
    eapply Rle_trans; [exact C|]. assert (O ^ 2 * fe v2 v2 <= O ^ 2 * (O ^ 4 * N)) by (apply Rmult_le_compat_l; [lra|exact F2]). 
    replace (2 * O * (O ^ 5 * N)) with (O ^ 2 * (O ^ 4 * N) + O ^ 6 * N) by ring. lra. }
  pose proof (fe_pos v2) as Q2. pose proof (fe_pos v3) as Q3.
  assert (Z0 : 0 <= z) by (unfold z; apply Rmult_le_pos; lra). assert (Z1 : z <= 7 / 4) by nra.
  assert (D2 : 0 <= dt ^ 2) by apply pow2_ge_0.
  assert (X : Rabs (fe v2 v2 / 12 + fe v1 v3 / 6 + dt * fe v2 v3 / 12 + dt ^ 2 * fe v3 v3 / 36) <= O ^ 4 * N / 2).
  { assert (T3 : dt * Rabs (fe v2 v3) <= z * (O ^ 4 * N)) by (replace (z * (O ^ 4 * N)) with (dt * (O ^ 5 * N)) by (unfold z; ring); now apply Rmult_le_compat_l).
    assert (T4 : dt ^ 2 * fe v3 v3 <= z ^ 2 * (O ^ 4 * N)) by (replace (z ^ 2 * (O ^ 4 * N)) with (dt ^ 2 * (O ^ 6 * N)) by (unfold z; ring); now apply Rmult_le_compat_l).
    set (W := O ^ 4 * N) in *. assert (PW : 0 <= W) by lra.
    assert (z * W <= 7 / 4 * W) by now apply Rmult_le_compat_r. assert (z ^ 2 * W <= 3 * W) by now apply Rmult_le_compat_r.
    assert (0 <= dt ^ 2 * fe v3 v3) by now apply Rmult_le_pos. pose proof (Rabs_pos (fe v2 v3)).
    assert (A23 : - (dt * Rabs (fe v2 v3)) <= dt * fe v2 v3 <= dt * Rabs (fe v2 v3)).
    { pose proof (Rle_abs (fe v2 v3)). pose proof (Rle_abs (- fe v2 v3)) as Y. rewrite Rabs_Ropp in Y. split; nra. }
    pose proof (Rle_abs (fe v1 v3)). pose proof (Rle_abs (- fe v1 v3)) as Y. rewrite Rabs_Ropp in Y. apply Rabs_le. split; lra. }
  rewrite Rabs_mult. assert (D4 : 0 <= eps0 / 2 * dt ^ 4) by (replace (dt ^ 4) with (dt ^ 2 * dt ^ 2) by ring; apply Rmult_le_pos; [lra|now apply Rmult_le_pos]).
  rewrite (Rabs_pos_eq _ D4). apply Rle_trans with (eps0 / 2 * dt ^ 4 * (O ^ 4 * N / 2)); [now apply Rmult_le_compat_l|]. right. unfold z. field.
Qed.

(** Any number of steps. *)
Lemma energy_iter : forall p k0 k1 eps0 oc op dt S0 n, 0 < eps0 -> 0 <= dt -> 0 <= k0 -> 0 <= k1 -> 0 < oc -> 0 < op ->
  eps0 * nth 0 (pl_ms p) 0 = - pl_e p -> eps0 * nth 1 (pl_ms p) 0 = - pl_i p ->
  nth 0 (pl_ms p) 0 = - (k0 * pl_e p * S0 0%nat 0%Z) -> nth 1 (pl_ms p) 0 = - (k1 * pl_i p * S0 1%nat 0%Z) ->
  let B2 := S0 2%nat 3%Z ^ 2 + S0 2%nat 4%Z ^ 2 + S0 2%nat 5%Z ^ 2 in
  pl_e p ^ 2 * B2 <= oc ^ 2 -> pl_i p ^ 2 * B2 <= oc ^ 2 -> k0 * (pl_e p * S0 0%nat 0%Z) ^ 2 + k1 * (pl_i p * S0 1%nat 0%Z) ^ 2 <= op ^ 2 ->
  let z := (oc + op) * dt in z ^ 2 <= 3 ->
  Rabs (total eps0 (Nat.iter n (still_rk3 p dt) S0) - total eps0 S0) <= INR n * (z ^ 4 / 4 * (eps0 * ip k0 k1 S0 S0)).
Proof.
  intros p k0 k1 eps0 oc op dt S0 n PE Hdt K0 K1 OC OP E0 E1 M0 M1 B2 HC0 HC1 HP z Hz. induction n as [|n IH].
  - cbn [Nat.iter nat_rect INR]. replace (_ - _) with 0 by ring. rewrite Rabs_R0. lra.
  - change (Nat.iter (S n) (still_rk3 p dt) S0) with (still_rk3 p dt (Nat.iter n (still_rk3 p dt) S0)).
    destruct (spin_iter p k0 k1 oc op dt S0 n K0 K1 OC OP M0 M1 HC0 HC1 HP Hz) as [(D0 & D1 & D2) [_ U]]. set (T := Nat.iter n (still_rk3 p dt) S0) in *.
    assert (X : Rabs (total eps0 (still_rk3 p dt T) - total eps0 T) <= z ^ 4 / 4 * (eps0 * ip k0 k1 T T)).
    { apply still_energy_bound; try assumption; rewrite ?D0, ?D1, ?D2 by lia; assumption. }
    assert (Z4 : 0 <= z ^ 4 / 4) by (replace (z ^ 4) with (z ^ 2 * z ^ 2) by ring; pose proof (pow2_ge_0 z); nra).
    assert (Y : z ^ 4 / 4 * (eps0 * ip k0 k1 T T) <= z ^ 4 / 4 * (eps0 * ip k0 k1 S0 S0)) by (apply Rmult_le_compat_l; [exact Z4|apply Rmult_le_compat_l; lra]).
    rewrite S_INR. replace (total eps0 (still_rk3 p dt T) - total eps0 S0) with ((total eps0 (still_rk3 p dt T) - total eps0 T) + (total eps0 T - total eps0 S0)) by ring.
    eapply Rle_trans; [apply Rabs_triang|]. lra.
Qed.
