(** * DriftFacts: totals of periodic systems in doubles. *)
From Coq Require Import ZArith List String Bool Reals Lra Lia Floats.SpecFloat.
From Verif Require Import Base BaseFacts BoxSpec BoxFacts Interface Range RangeSpec RangeFacts ApiSpec Arith ArithR ArithFloat Chunk FieldSpec VarId Manager MgrSpec MgrFacts
  BC BCSpec BCFacts Sweep SweepSpec SweepFacts FluxFacts Programs ProgramsSpec ConserveFacts RhsFacts SymmetrySpec SymmetryFacts RoundingSpec RoundingFacts.
Import ListNotations.
Open Scope R_scope.

Notation u := unit_roundoff.
Notation h := tiny.

Lemma lit_2 : number (fofz 2) /\ real (fofz 2) = 2.
Proof. set (x := fofz 2). vm_compute in x. subst x. split; [split; [reflexivity|exact I]|]. unfold real. change (powerRZ 2 (-51)) with (/ 2 ^ 51). lra. Qed.
Lemma lit_3 : number (fofz 3) /\ real (fofz 3) = 3.
Proof. set (x := fofz 3). vm_compute in x. subst x. split; [split; [reflexivity|exact I]|]. unfold real. change (powerRZ 2 (-51)) with (/ 2 ^ 51). lra. Qed.
Lemma lit_75 : number (fdec 75 (-2)) /\ real (fdec 75 (-2)) = 3 / 4.
Proof. set (x := fdec 75 (-2)). vm_compute in x. subst x. split; [split; [reflexivity|exact I]|]. unfold real. change (powerRZ 2 (-53)) with (/ 2 ^ 53). lra. Qed.
Lemma lit_25 : number (fdec 25 (-2)) /\ real (fdec 25 (-2)) = 1 / 4.
Proof. set (x := fdec 25 (-2)). vm_compute in x. subst x. split; [split; [reflexivity|exact I]|]. unfold real. change (powerRZ 2 (-54)) with (/ 2 ^ 54). lra. Qed.
Lemma lit_0 : number f0 /\ real f0 = 0.
Proof. set (x := f0). vm_compute in x. subst x. split; [split; [reflexivity|exact I]|reflexivity]. Qed.

(** One step of the integrator at one place: [k1], [k2] and [k3] are the exact
    right-hand sides. *)
Section Step.
Variables (dt : spec_float) (B Q T K E : R).
Hypothesis HT : within T dt.
Hypothesis HB : 0 <= B.
Hypothesis HQ : 0 <= Q.
Hypothesis HL : 100 * (B + (1 + T) * (1 + Q)) <= large.
Definition slack : R := h * ((1 + T) * (1 + Q)).
Definition rate (x : spec_float) (k : R) : Prop := about x k (48 * (u * Q) + 8 * h) /\ Rabs k <= 6 * Q.

Lemma T_pos : 0 <= T.
Proof. destruct HT as (_ & H). pose proof (Rabs_pos (real dt)). lra. Qed.
Lemma rate_size : forall x k, rate x k -> Rabs (real x) <= 7 * Q + 8 * h.
Proof.
  intros x k (Ha & Hk). pose proof (about_size _ _ _ _ Ha Hk). pose proof u_small. pose proof u_pos. assert (u * Q <= / 1000000 * Q) by (apply Rmult_le_compat_r; lra). lra.
Qed.

Ltac atoms := pose proof u_pos; pose proof u_small; pose proof tiny_pos; pose proof tiny_small; pose proof T_pos; pose proof large_large.

Lemma prods : let TQ := T * Q in 0 <= TQ /\ 0 <= u * B /\ 1000000 * (u * B) <= B /\ 0 <= u * TQ /\ 1000000 * (u * TQ) <= TQ /\
  0 <= slack /\ h <= slack /\ h * T <= slack /\ h * Q <= slack /\ h * TQ <= slack /\ 1000000 * (u * slack) <= slack /\ 0 <= u * slack /\ 100 * slack <= / 10000 * large /\ 100 * B <= large /\ 100 * TQ <= large /\ 100 * Q <= large /\ 100 * T <= large.
Proof.
  atoms. intros TQ. assert (P1 : 0 <= TQ) by (now apply Rmult_le_pos). assert (P2 : slack = h + h * T + h * Q + h * TQ) by (unfold slack, TQ; ring).
  assert (0 <= h * T) by (apply Rmult_le_pos; lra). assert (0 <= h * Q) by (apply Rmult_le_pos; lra). assert (0 <= h * TQ) by (apply Rmult_le_pos; lra).
  assert (P3 : forall z, 0 <= z -> 0 <= u * z /\ 1000000 * (u * z) <= z).
  { intros z Hz. split; [apply Rmult_le_pos; lra|]. assert (u * z <= / 1000000 * z) by (apply Rmult_le_compat_r; lra). lra. }
  destruct (P3 B HB). destruct (P3 TQ P1). destruct (P3 slack ltac:(lra)).
  assert (HL' : 100 * (B + 1 + T + Q + TQ) <= large) by (replace (100 * (B + 1 + T + Q + TQ)) with (100 * (B + (1 + T) * (1 + Q))) by (unfold TQ; ring); exact HL).
  assert (P4 : slack <= / 1000000 * (1 + T + Q + TQ)).
  { unfold slack. replace ((1 + T) * (1 + Q)) with (1 + T + Q + TQ) by (unfold TQ; ring). apply Rmult_le_compat_r; lra. }
  repeat split; lra.
Qed.

Lemma euler_part : forall x k, rate x k -> about (dt * x)%F (real dt * k) (56 * (u * (T * Q)) + 10 * slack) /\ Rabs (real (dt * x)%F) <= 7 * (T * Q) + 11 * slack /\ Rabs (real dt * k) <= 6 * (T * Q).
Proof.
  intros x k R. pose proof (rate_size x k R) as S. destruct R as (Ha & Hk). destruct HT as (Nt & Ht).
  destruct prods as (P1 & P2 & P3 & P4 & P5 & P6 & P7 & P8 & P9 & P10 & P11 & P12 & P13 & P14 & P15 & P16 & P17). set (TQ := T * Q) in *. atoms.
  assert (TE : T * (7 * Q + 8 * h) = 7 * TQ + 8 * (h * T)) by (unfold TQ; ring).
  assert (AM : about (dt * x)%F (real dt * k) (56 * (u * TQ) + 10 * slack)).
  { eapply about_le; [apply (about_mul dt x (real dt) k 0 _ T (7 * Q + 8 * h) (about_self _ Nt) Ha Ht Ht S)|].
    - rewrite TE. lra.
    - rewrite TE. replace (T * (48 * (u * Q) + 8 * h)) with (48 * (u * TQ) + 8 * (h * T)) by (unfold TQ; ring).
      replace (u * (7 * TQ + 8 * (h * T))) with (7 * (u * TQ) + 8 * (u * (h * T))) by ring. assert (u * (h * T) <= u * slack) by (apply Rmult_le_compat_l; lra). lra. }
  assert (BK : Rabs (real dt * k) <= 6 * TQ).
  { rewrite Rabs_mult. replace (6 * TQ) with (T * (6 * Q)) by (unfold TQ; ring). apply Rmult_le_compat; auto using Rabs_pos. }
  split; [exact AM|]. split; [|exact BK]. pose proof (about_size _ _ _ _ AM BK). lra.
Qed.

Lemma step_about : forall x k1 k2 k3 r1 r2 r3, within B x -> rate r1 k1 -> rate r2 k2 -> rate r3 k3 ->
  let x1 := (x + dt * r1)%F in within B x1 ->
  let x2 := (fdec 75 (-2) * x + fdec 25 (-2) * x1 + fdec 25 (-2) * dt * r2)%F in within B x2 ->
  about ((x + fofz 2 * (x2 + dt * r3)) / fofz 3)%F (real x + real dt * (k1 + k2 + 4 * k3) / 6) (12 * (u * B) + 120 * (u * (T * Q)) + 50 * slack).
Proof.
  intros x k1 k2 k3 r1 r2 r3 (Nx & Bx) R1 R2 R3 x1 (N1 & B1) x2 (N2 & B2).
  destruct (euler_part r1 k1 R1) as (A1 & S1 & _). destruct (euler_part r3 k3 R3) as (A3 & S3 & _).
  destruct prods as (P1 & P2 & P3 & P4 & P5 & P6 & P7 & P8 & P9 & P10 & P11 & P12 & P13 & P14 & P15 & P16 & P17). set (TQ := T * Q) in *. atoms.
  destruct lit_2 as (L2 & E2). destruct lit_3 as (L3 & E3). destruct lit_75 as (L75 & E75). destruct lit_25 as (L25 & E25).
  (* first stage *)
  assert (F1 : about x1 (real x + real dt * k1) (u * B + 63 * (u * TQ) + 12 * slack)).
  { eapply about_le; [apply (about_add x _ _ _ 0 _ B (7 * TQ + 11 * slack) (about_self _ Nx) A1 Bx S1)|]; [lra|].
    replace (u * (B + (7 * TQ + 11 * slack))) with (u * B + 7 * (u * TQ) + 11 * (u * slack)) by ring. lra. }
  (* second stage *)
  assert (G1 : about (fdec 75 (-2) * x)%F (3 / 4 * real x) (u * B + slack) /\ Rabs (real (fdec 75 (-2) * x)%F) <= B + slack).
  { assert (G : about (fdec 75 (-2) * x)%F (3 / 4 * real x) (3 / 4 * (u * B) + slack)).
    { eapply about_le; [apply (about_mul _ x (3 / 4) (real x) 0 0 (3 / 4) B)|]; auto; try (rewrite ?E75, Rabs_pos_eq; lra); try lra; try (now apply about_self). rewrite <- E75. now apply about_self. }
    split; [eapply about_le; [exact G|lra]|]. eapply Rle_trans; [apply (about_size _ _ _ (3 / 4 * B) G)|lra]. rewrite Rabs_mult, (Rabs_pos_eq (3 / 4)) by lra. lra. }
  assert (G2 : about (fdec 25 (-2) * x1)%F (1 / 4 * real x1) (u * B + slack) /\ Rabs (real (fdec 25 (-2) * x1)%F) <= B + slack).
  { assert (G : about (fdec 25 (-2) * x1)%F (1 / 4 * real x1) (1 / 4 * (u * B) + slack)).
    { eapply about_le; [apply (about_mul _ x1 (1 / 4) (real x1) 0 0 (1 / 4) B)|]; auto; try (rewrite ?E25, Rabs_pos_eq; lra); try lra; try (now apply about_self). rewrite <- E25. now apply about_self. }
    split; [eapply about_le; [exact G|lra]|]. eapply Rle_trans; [apply (about_size _ _ _ (1 / 4 * B) G)|lra]. rewrite Rabs_mult, (Rabs_pos_eq (1 / 4)) by lra. lra. }
  destruct G1 as (G1 & G1s). destruct G2 as (G2 & G2s).
  assert (G3 : about (fdec 75 (-2) * x + fdec 25 (-2) * x1)%F (3 / 4 * real x + 1 / 4 * real x1) (4 * (u * B) + 4 * slack) /\
    Rabs (real (fdec 75 (-2) * x + fdec 25 (-2) * x1)%F) <= 2 * B + 4 * slack).
  { assert (G : about (fdec 75 (-2) * x + fdec 25 (-2) * x1)%F (3 / 4 * real x + 1 / 4 * real x1) (4 * (u * B) + 4 * slack)).
    { eapply about_le; [apply (about_add _ _ _ _ _ _ _ _ G1 G2 G1s G2s)|]; [lra|]. replace (u * (B + slack + (B + slack))) with (2 * (u * B) + 2 * (u * slack)) by ring. lra. }
    split; [exact G|]. eapply Rle_trans; [apply (about_size _ _ _ B G)|lra]. eapply Rle_trans; [apply Rabs_triang|]. rewrite !Rabs_mult, (Rabs_pos_eq (3 / 4)), (Rabs_pos_eq (1 / 4)) by lra. lra. }
  destruct G3 as (G3 & G3s).
  assert (G4 : about (fdec 25 (-2) * dt * r2)%F (1 / 4 * real dt * k2) (30 * (u * TQ) + 25 * slack) /\ Rabs (real (fdec 25 (-2) * dt * r2)%F) <= 2 * TQ + 26 * slack).
  { destruct HT as (Nt & Ht).
    assert (D : about (fdec 25 (-2) * dt)%F (1 / 4 * real dt) (1 / 4 * (u * T) + h)).
    { eapply about_le; [apply (about_mul _ dt (1 / 4) (real dt) 0 0 (1 / 4) T)|]; auto; try (rewrite ?E25, Rabs_pos_eq; lra); try lra; try (now apply about_self). rewrite <- E25. now apply about_self. }
    assert (uT : u * T <= / 1000000 * T) by (apply Rmult_le_compat_r; lra). assert (uT0 : 0 <= u * T) by (apply Rmult_le_pos; lra).
    assert (D1 : Rabs (1 / 4 * real dt) <= 1 / 4 * T) by (rewrite Rabs_mult, Rabs_pos_eq by lra; lra).
    pose proof (about_size _ _ _ _ D D1) as D2.
    pose proof (rate_size _ _ R2) as S2. destruct R2 as (Ha & Hk).
    assert (W : about (fdec 25 (-2) * dt * r2)%F (1 / 4 * real dt * k2) (30 * (u * TQ) + 25 * slack)).
    { eapply about_le; [apply (about_mul _ r2 (1 / 4 * real dt) k2 _ _ (1 / 2 * T + h) (7 * Q + 8 * h) D Ha)|]; [lra|lra|exact S2| |].
      - replace ((1 / 2 * T + h) * (7 * Q + 8 * h)) with (7 / 2 * TQ + 4 * (h * T) + 7 * (h * Q) + 8 * (h * h)) by (unfold TQ; field). assert (h * h <= h * 1) by (apply Rmult_le_compat_l; lra). lra.
      - replace ((1 / 4 * (u * T) + h) * (7 * Q + 8 * h)) with (7 / 4 * (u * TQ) + 2 * (u * (h * T)) + 7 * (h * Q) + 8 * (h * h)) by (unfold TQ; field).
        replace ((1 / 2 * T + h) * (48 * (u * Q) + 8 * h)) with (24 * (u * TQ) + 4 * (h * T) + 48 * (u * (h * Q)) + 8 * (h * h)) by (unfold TQ; field).
        replace (u * ((1 / 2 * T + h) * (7 * Q + 8 * h))) with (7 / 2 * (u * TQ) + 4 * (u * (h * T)) + 7 * (u * (h * Q)) + 8 * (u * (h * h))) by (unfold TQ; field).
        assert (hh : h * h <= h * / 1000000) by (apply Rmult_le_compat_l; lra). assert (0 <= h * h) by (apply Rmult_le_pos; lra).
        assert (u * (h * T) <= u * slack) by (apply Rmult_le_compat_l; lra). assert (u * (h * Q) <= u * slack) by (apply Rmult_le_compat_l; lra).
        assert (u * (h * h) <= u * slack) by (apply Rmult_le_compat_l; lra). lra. }
    split; [exact W|]. eapply Rle_trans; [apply (about_size _ _ _ (1 / 4 * T * (6 * Q)) W)|replace (1 / 4 * T * (6 * Q)) with (6 / 4 * TQ) by (unfold TQ; field); lra].
    rewrite Rabs_mult. apply Rmult_le_compat; auto using Rabs_pos. }
  destruct G4 as (G4 & G4s).
  assert (F2 : about x2 (3 / 4 * real x + 1 / 4 * real x1 + 1 / 4 * real dt * k2) (6 * (u * B) + 32 * (u * TQ) + 31 * slack)).
  { eapply about_le; [apply (about_add _ _ _ _ _ _ _ _ G3 G4 G3s G4s)|]; [lra|].
    replace (u * (2 * B + 4 * slack + (2 * TQ + 26 * slack))) with (2 * (u * B) + 2 * (u * TQ) + 30 * (u * slack)) by ring. lra. }
  (* third stage *)
  assert (J1 : about (x2 + dt * r3)%F (real x2 + real dt * k3) (u * B + 63 * (u * TQ) + 12 * slack)).
  { eapply about_le; [apply (about_add x2 _ _ _ 0 _ B (7 * TQ + 11 * slack) (about_self _ N2) A3 B2 S3)|]; [lra|].
    replace (u * (B + (7 * TQ + 11 * slack))) with (u * B + 7 * (u * TQ) + 11 * (u * slack)) by ring. lra. }
  destruct (euler_part r3 k3 R3) as (_ & _ & BK3). fold TQ in BK3.
  assert (J1s : Rabs (real (x2 + dt * r3)%F) <= 2 * B + 7 * TQ + 12 * slack).
  { eapply Rle_trans; [apply (about_size _ _ _ (B + 6 * TQ) J1)|lra]. eapply Rle_trans; [apply Rabs_triang|]. lra. }
  assert (J2 : about (fofz 2 * (x2 + dt * r3))%F (2 * (real x2 + real dt * k3)) (6 * (u * B) + 140 * (u * TQ) + 26 * slack)).
  { eapply about_le; [apply (about_mul (fofz 2) _ 2 _ 0 _ 2 (2 * B + 7 * TQ + 12 * slack) ltac:(rewrite <- E2; now apply about_self) J1)|]; [rewrite Rabs_pos_eq; lra|rewrite E2, Rabs_pos_eq; lra|exact J1s|lra|].
    replace (u * (2 * (2 * B + 7 * TQ + 12 * slack))) with (4 * (u * B) + 14 * (u * TQ) + 24 * (u * slack)) by ring. lra. }
  assert (J2s : Rabs (real (fofz 2 * (x2 + dt * r3))%F) <= 3 * B + 13 * TQ + 27 * slack).
  { eapply Rle_trans; [apply (about_size _ _ _ (2 * (B + 6 * TQ)) J2)|lra]. rewrite Rabs_mult, (Rabs_pos_eq 2) by lra. apply Rmult_le_compat_l; [lra|]. eapply Rle_trans; [apply Rabs_triang|]. lra. }
  assert (J3 : about (x + fofz 2 * (x2 + dt * r3))%F (real x + 2 * (real x2 + real dt * k3)) (10 * (u * B) + 153 * (u * TQ) + 28 * slack)).
  { eapply about_le; [apply (about_add x _ _ _ 0 _ _ _ (about_self _ Nx) J2 Bx J2s)|]; [lra|].
    replace (u * (B + (3 * B + 13 * TQ + 27 * slack))) with (4 * (u * B) + 13 * (u * TQ) + 27 * (u * slack)) by ring. lra. }
  assert (J3s : Rabs (real (x + fofz 2 * (x2 + dt * r3))%F) <= 4 * B + 13 * TQ + 29 * slack).
  { eapply Rle_trans; [apply (about_size _ _ _ (B + 2 * (B + 6 * TQ)) J3)|lra]. eapply Rle_trans; [apply Rabs_triang|]. apply Rplus_le_compat; [exact Bx|].
    rewrite Rabs_mult, (Rabs_pos_eq 2) by lra. apply Rmult_le_compat_l; [lra|]. eapply Rle_trans; [apply Rabs_triang|]. lra. }
  assert (E3' : Rabs (real (fofz 3)) = 3) by (rewrite E3; apply Rabs_pos_eq; lra).
  pose proof (about_div _ (fofz 3) _ _ _ J3 L3 ltac:(rewrite E3; lra) J3s) as J4. rewrite E3', E3 in J4. specialize (J4 ltac:(lra)).
  destruct J4 as (N4 & J4). split; [exact N4|]. destruct F1 as (_ & F1). destruct F2 as (_ & F2).
  set (y := ((x + fofz 2 * (x2 + dt * r3)) / fofz 3)%F) in *.
  replace (real y - (real x + real dt * (k1 + k2 + 4 * k3) / 6)) with
    ((real y - (real x + 2 * (real x2 + real dt * k3)) / 3) + (2 / 3 * (real x2 - (3 / 4 * real x + 1 / 4 * real x1 + 1 / 4 * real dt * k2)) + 1 / 6 * (real x1 - (real x + real dt * k1)))) by field.
  eapply Rle_trans; [apply Rabs_triang|]. eapply Rle_trans; [apply Rplus_le_compat; [exact J4|apply Rabs_triang]|]. rewrite !Rabs_mult, (Rabs_pos_eq (2 / 3)), (Rabs_pos_eq (1 / 6)) by lra.
  replace (u * ((4 * B + 13 * TQ + 29 * slack) / 3)) with (4 / 3 * (u * B) + 13 / 3 * (u * TQ) + 29 / 3 * (u * slack)) by field. lra.
Qed.
End Step.

(** ** the right-hand side *)

Lemma fold_about : forall (W : nat -> list Z -> Z -> spec_float) dx Q Z x j, 0 <= Q -> 0 <= Z -> Z <= large -> forall ds r k0 e0 K0, about (r x j) k0 e0 -> Rabs k0 <= K0 ->
  (forall d s, In d ds -> s = 0%Z \/ s = 1%Z -> within Q (W d (move d s x) j / dx d)%F) -> (forall d, In d ds -> move d 0 x = x) ->
  K0 + 2 * INR (List.length ds) * Q + e0 + 2 * INR (List.length ds) * (u * Z + h) <= Z ->
  about (fold_left (with_fluxes W dx) ds r x j) (k0 + sum_over ds (fun d => real (W d x j / dx d)%F - real (W d (move d 1 x) j / dx d)%F)) (e0 + 2 * INR (List.length ds) * (u * Z + h)) /\
  Rabs (k0 + sum_over ds (fun d => real (W d x j / dx d)%F - real (W d (move d 1 x) j / dx d)%F)) <= K0 + 2 * INR (List.length ds) * Q.
Proof.
  intros W dx Q Z x j HQ HZ0 HZ. induction ds as [|d ds IH]; intros r k0 e0 K0 Hr Hk HW Hm HS.
  - cbn [fold_left List.length INR]. unfold sum_over. cbn [map fold_right]. rewrite Rplus_0_r. split; [eapply about_le; [exact Hr|]; lra|lra].
  - cbn [List.length] in *. rewrite S_INR in *. set (l := INR (List.length ds)) in *. assert (Hl : 0 <= l) by apply pos_INR.
    destruct (HW d 0%Z ltac:(now left) ltac:(now left)) as (Na & Ba). rewrite (Hm d ltac:(now left)) in Na, Ba. destruct (HW d 1%Z ltac:(now left) ltac:(now right)) as (Nb & Bb).
    cbn [fold_left]. set (a := (W d x j / dx d)%F) in *. set (b := (W d (move d 1 x) j / dx d)%F) in *.
    pose proof u_pos. pose proof tiny_pos. assert (0 <= e0) by (destruct Hr as (_ & Hr); pose proof (Rabs_pos (real (r x j) - k0)); lra). assert (0 <= K0) by (pose proof (Rabs_pos k0); lra).
    assert (0 <= u * Z) by (apply Rmult_le_pos; lra). assert (0 <= l * Q) by now apply Rmult_le_pos. assert (0 <= l * (u * Z + h)) by (apply Rmult_le_pos; lra).
    pose proof (about_size _ _ _ _ Hr Hk) as Sr.
    assert (R1 : about (r x j + a)%F (k0 + real a) (e0 + (u * Z + h))).
    { eapply about_le; [apply (about_add _ _ _ _ _ _ _ _ Hr (about_self _ Na) Sr Ba)|]; [lra|]. assert (u * (K0 + e0 + Q) <= u * Z) by (apply Rmult_le_compat_l; lra). lra. }
    assert (K1 : Rabs (k0 + real a) <= K0 + Q) by (eapply Rle_trans; [apply Rabs_triang|]; lra).
    pose proof (about_size _ _ _ _ R1 K1) as S1.
    assert (R2 : about (r x j + a - b)%F (k0 + real a - real b) (e0 + 2 * (u * Z + h))).
    { eapply about_le; [apply (about_sub _ _ _ _ _ _ _ _ R1 (about_self _ Nb) S1 Bb)|]; [lra|]. assert (u * (K0 + Q + (e0 + (u * Z + h)) + Q) <= u * Z) by (apply Rmult_le_compat_l; lra). lra. }
    assert (K2 : Rabs (k0 + real a - real b) <= K0 + 2 * Q) by (unfold Rminus; eapply Rle_trans; [apply Rabs_triang|]; rewrite Rabs_Ropp; lra).
    destruct (IH (with_fluxes W dx r d) (k0 + real a - real b) (e0 + 2 * (u * Z + h)) (K0 + 2 * Q) R2 K2) as (I1 & I2).
    + intros d' s Hd Hs. apply HW; [now right|exact Hs].
    + intros d' Hd. apply Hm. now right.
    + lra.
    + assert (ES : forall g, sum_over (d :: ds) g = g d + sum_over ds g) by reflexivity. rewrite ES. fold a b.
      match goal with |- about _ ?z _ /\ _ => match type of I1 with about _ ?w _ => replace z with w by ring end end.
      split; [eapply about_le; [exact I1|lra]|lra].
Qed.

Section Sweep.
Variables (n : Z) (G : nat -> list spec_float -> list spec_float -> list spec_float) (M P : box) (dx : nat -> spec_float) (ds : list nat) (B Q : R).
Let W (v : field spec_float) d := wall n G (seen Periodic M d v) d.
Definition exact_rate (v : field spec_float) (x : list Z) (j : Z) : R :=
  sum_over ds (fun d => real (W v d x j / dx d)%F - real (W v d (move d 1 x) j / dx d)%F).

Lemma fv_rate : forall v x j, (List.length ds <= 3)%nat -> 0 <= Q -> 9 * Q + 9 <= large -> moderate n G M (M ++ P) dx ds B Q v -> in_box (M ++ P) x -> (0 <= j < n)%Z -> (forall d, In d ds -> (d < List.length M)%nat) ->
  rate Q (fv_rhs n G M (fun _ => Periodic) dx ds v (x ++ [j])) (exact_rate v x j).
Proof.
  intros v x j H3 HQ HL (_ & HW) Hx Hj Hd. unfold fv_rhs, cellwise. rewrite removelast_last, last_last.
  pose proof u_pos. pose proof u_small. pose proof tiny_pos. pose proof tiny_small. assert (uQ : u * Q <= / 1000000 * Q) by (apply Rmult_le_compat_r; lra). assert (0 <= u * Q) by (apply Rmult_le_pos; lra).
  assert (uh : u * h <= / 1000000 * h) by (apply Rmult_le_compat_r; lra). assert (0 <= u * h) by (apply Rmult_le_pos; lra).
  destruct lit_0 as (L0 & E0). set (l := INR (List.length ds)). assert (Hl : 0 <= l <= 3) by (split; [apply pos_INR|apply le_INR in H3; cbn in H3; unfold l; lra]).
  assert (lQ : l * Q <= 3 * Q) by (apply Rmult_le_compat_r; lra). assert (le : l * (u * (8 * Q + 8 * h) + h) <= 3 * (u * (8 * Q + 8 * h) + h)) by (apply Rmult_le_compat_r; lra).
  destruct (fold_about (fun d => wall n G (seen Periodic M d v) d) dx Q (8 * Q + 8 * h) x j HQ ltac:(lra) ltac:(lra) ds (fun _ _ => f0) 0 0 0) as (F1 & F2).
  - pose proof (about_self _ L0) as S0. rewrite E0 in S0. exact S0.
  - rewrite Rabs_R0. lra.
  - intros d s Hin Hs. now apply HW.
  - intros d Hin. apply move_0. apply Forall2_length in Hx. rewrite app_length in Hx. specialize (Hd d Hin). lia.
  - fold l. lra.
  - fold l in F1, F2. rewrite Rplus_0_l in F1, F2. split; [eapply about_le; [exact F1|lra]|]. eapply Rle_trans; [exact F2|]. lra.
Qed.

Lemma seen_at' : forall k d (v : field spec_float) t x i, (d < List.length x)%nat ->
  seen k M d v (move d t x ++ [i]) =
  if (nth d x 0 + t <? lo M d)%Z then low_value k M d v (move d t x ++ [i]) else if (hi M d <=? nth d x 0 + t)%Z then up_value k M d v (move d t x ++ [i]) else v (move d t x ++ [i]).
Proof.
  intros. unfold seen. assert (N : nth d (move d t x ++ [i]) 0%Z = (nth d x 0 + t)%Z).
  { rewrite app_nth1 by (now rewrite move_length). unfold move. now apply nth_upd_eq. }
  now rewrite N.
Qed.
Lemma walls_agree : forall v d x j, (d < List.length M)%nat -> (2 <= hi M d - lo M d)%Z -> in_box (cut (M ++ P) d (lo M d)) x -> W v d x j = W v d (move d (hi M d - lo M d) x) j.
Proof.
  intros v d x j Hd Hw Hx. apply (in_cut M P d _ x Hd) in Hx as [Ex Lx].
  assert (Lx' : (d < List.length (move d (hi M d - lo M d) x))%nat) by (now rewrite move_length).
  apply wall_ext; [|now apply move_0|now apply move_0]. intros t i Ht Hi. rewrite !seen_at', move_nth by assumption. rewrite Ex.
  replace (lo M d + (hi M d - lo M d) + t)%Z with (hi M d + t)%Z by lia. rewrite move_move by assumption.
  destruct (Z.ltb_spec (lo M d + t) (lo M d)).
  - destruct (Z.ltb_spec (hi M d + t) (lo M d)); [lia|]. destruct (Z.leb_spec (hi M d) (hi M d + t)); [lia|].
    cbn [low_value]. rewrite move_snoc' by assumption. do 3 f_equal. lia.
  - destruct (Z.leb_spec (hi M d) (lo M d + t)); [lia|]. destruct (Z.ltb_spec (hi M d + t) (lo M d)); [lia|]. destruct (Z.leb_spec (hi M d) (hi M d + t)); [|lia].
    cbn [up_value]. rewrite move_snoc' by assumption. do 3 f_equal. lia.
Qed.

Lemma exact_total : forall v j, nonempty (M ++ P) -> (forall d, In d ds -> (d < List.length M)%nat /\ (2 <= hi M d - lo M d)%Z) ->
  total (M ++ P) (fun x => exact_rate v x j) = 0.
Proof.
  intros v j HN Hd. unfold exact_rate. rewrite (total_sum_over (M ++ P) ds (fun d x => real (W v d x j / dx d)%F - real (W v d (move d 1 x) j / dx d)%F)).
  apply sum_over_zero. intros d Hin. destruct (Hd d Hin) as (Ld & Hw).
  assert (Hlo : lo (M ++ P) d = lo M d) by (unfold lo; now rewrite app_nth1). assert (Hhi : hi (M ++ P) d = hi M d) by (unfold hi; now rewrite app_nth1).
  assert (LB : (d < List.length (M ++ P))%nat) by (rewrite app_length; lia).
  pose proof (fun f => cut_shift (M ++ P) d (hi M d) (lo M d) f LB) as CS.
  pose proof (fun x Hx => walls_agree v d x j Ld Hw Hx) as WA. set (g := fun x => real (W v d x j / dx d)%F).
  assert (EG : total (cut (M ++ P) d (hi M d)) g = total (cut (M ++ P) d (lo M d)) g).
  { rewrite CS. apply total_ext. intros x Hx. unfold g. now rewrite (WA x Hx). }
  change (total (M ++ P) (fun x => g x - g (move d 1 x)) = 0).
  rewrite <- Hlo, <- Hhi in EG. clear - EG LB HN. revert EG LB HN. generalize (M ++ P). intros b EG LB HN.
  destruct (nth_error b d) as [[p q]|] eqn:E; [|apply nth_error_None in E; lia].
  unfold lo, hi in EG. rewrite !(nth_error_nth _ _ _ E) in EG. cbn [fst snd] in EG.
  apply nth_error_split in E as (l & r & -> & <-). rewrite !cut_mid in EG.
  assert (H : (p <= q)%Z).
  { apply Forall_app in HN as [_ HN]. inversion HN as [|? ? HH _]; subst. cbn in HH. lia. }
  rewrite total_telescope by assumption. lra.
Qed.
End Sweep.

(** ** the totals *)

Lemma total_const : forall b k, total b (fun _ => k) = k * total b (fun _ => 1).
Proof.
  intros b k. assert (Z0 : total b (fun _ => 0) = 0) by (unfold total; now apply sum_zero).
  transitivity (total b (fun _ => 0 + k * 1)); [apply total_ext; intros; ring|]. rewrite (total_lin b (fun _ => 0) (fun _ => 1) k), Z0. ring.
Qed.
Lemma total_abs : forall b f e, (forall x, in_box b x -> Rabs (f x) <= e) -> Rabs (total b f) <= e * total b (fun _ => 1).
Proof.
  intros b f e H. rewrite <- total_const. unfold total.
  assert (K : forall l, (forall x, In x l -> Rabs (f x) <= e) -> Rabs (fold_right Rplus 0 (map f l)) <= fold_right Rplus 0 (map (fun _ => e) l)).
  { induction l as [|x l IH]; intros Hl; cbn [map fold_right]; [rewrite Rabs_R0; lra|]. eapply Rle_trans; [apply Rabs_triang|]. apply Rplus_le_compat; [apply Hl; now left|]. apply IH. intros y Hy. apply Hl. now right. }
  apply K. intros x Hx. apply H. now apply in_cells.
Qed.

Section Run.
Variables (n : Z) (G : nat -> list spec_float -> list spec_float -> list spec_float) (M P : box) (dx : nat -> spec_float) (ds : list nat) (B Q T : R) (dt : spec_float).
Hypothesis HT : within T dt.
Hypothesis HQ : 0 <= Q.
Hypothesis HB : 0 <= B.
Hypothesis HL : 100 * (B + (1 + T) * (1 + Q)) <= large.
Hypothesis HN : nonempty (M ++ P).
Hypothesis H3 : (List.length ds <= 3)%nat.
Hypothesis Hd : forall d, In d ds -> (d < List.length M)%nat /\ (2 <= hi M d - lo M d)%Z.
Let Op : @sys spec_float -> @sys spec_float := fun V _ => fv_rhs n G M (fun _ => Periodic) dx ds (V 0%nat).
Let amount (U : @sys spec_float) j := total (M ++ P) (fun x => real (U 0%nat (x ++ [j]))).

Lemma Q_room : 9 * Q + 9 <= large.
Proof. pose proof (T_pos dt T HT). assert (0 <= T * Q) by now apply Rmult_le_pos. lra. Qed.

Lemma step_drift : forall U j, (0 <= j < n)%Z -> (forall V, In V (stages Op dt U) -> moderate n G M (M ++ P) dx ds B Q (V 0%nat)) ->
  Rabs (amount (rk3 Op dt U) j - amount U j) <= (120 * (u * (B + T * Q)) + 50 * (h * ((1 + T) * (1 + Q)))) * total (M ++ P) (fun _ => 1).
Proof.
  intros U j Hj HV. unfold stages in HV. cbn zeta in HV.
  set (U1 := fun i c => (U i c + dt * Op U i c)%F) in *. set (U2 := fun i c => (fdec 75 (-2) * U i c + fdec 25 (-2) * U1 i c + fdec 25 (-2) * dt * Op U1 i c)%F) in *.
  pose proof (HV U ltac:(now left)) as M0. pose proof (HV U1 ltac:(right; now left)) as M1. pose proof (HV U2 ltac:(right; right; now left)) as M2.
  set (K := fun V x => exact_rate n G M dx ds (V 0%nat : field spec_float) x j).
  assert (ZK : forall V, total (M ++ P) (K V) = 0) by (intros V; apply exact_total; auto).
  assert (Hd' : forall d, In d ds -> (d < List.length M)%nat) by (intros d Hin; now apply Hd).
  assert (ST : forall x, in_box (M ++ P) x -> Rabs ((real (rk3 Op dt U 0%nat (x ++ [j])) - real (U 0%nat (x ++ [j]))) - real dt / 6 * (K U x + K U1 x + 4 * K U2 x)) <=
     120 * (u * (B + T * Q)) + 50 * (h * ((1 + T) * (1 + Q)))).
  { intros x Hx.
    assert (RR : forall V, moderate n G M (M ++ P) dx ds B Q (V 0%nat) -> rate Q (Op V 0%nat (x ++ [j])) (K V x)).
    { intros V HM. apply (fv_rate n G M P dx ds B Q (V 0%nat) x j); auto. apply Q_room. }
    destruct (step_about dt B Q T HT HB HQ HL (U 0%nat (x ++ [j])) (K U x) (K U1 x) (K U2 x) (Op U 0%nat (x ++ [j])) (Op U1 0%nat (x ++ [j])) (Op U2 0%nat (x ++ [j])))
      as (_ & S); auto; [now apply (proj1 M0)|exact (proj1 M1 x j Hx Hj)|exact (proj1 M2 x j Hx Hj)|].
    unfold slack in S.
    match type of S with Rabs (?y - ?z) <= _ => change (Rabs ((y - real (U 0%nat (x ++ [j]))) - real dt / 6 * (K U x + K U1 x + 4 * K U2 x)) <= 120 * (u * (B + T * Q)) + 50 * (h * ((1 + T) * (1 + Q)))) end.
    match type of S with Rabs (?y - ?z) <= _ => replace ((y - real (U 0%nat (x ++ [j]))) - real dt / 6 * (K U x + K U1 x + 4 * K U2 x)) with (y - z) by field end.
    eapply Rle_trans; [exact S|]. pose proof u_pos. assert (0 <= u * B) by (apply Rmult_le_pos; lra). lra. }
  assert (E : amount (rk3 Op dt U) j - amount U j =
    total (M ++ P) (fun x => (real (rk3 Op dt U 0%nat (x ++ [j])) - real (U 0%nat (x ++ [j]))) - real dt / 6 * (K U x + K U1 x + 4 * K U2 x))).
  { unfold amount. rewrite !total_minus.
    rewrite (total_ext (M ++ P) (fun x => real dt / 6 * (K U x + K U1 x + 4 * K U2 x)) (fun x => ((0 + real dt / 6 * K U x) + real dt / 6 * K U1 x) + real dt * 4 / 6 * K U2 x)) by (intros; field).
    rewrite (total_lin (M ++ P) (fun x => 0 + real dt / 6 * K U x + real dt / 6 * K U1 x) (K U2)), (total_lin (M ++ P) (fun x => 0 + real dt / 6 * K U x) (K U1)), (total_lin (M ++ P) (fun _ => 0) (K U)), !ZK.
    unfold total at 5. rewrite sum_zero by auto. ring. }
  rewrite E. apply total_abs. exact ST.
Qed.

Lemma run_drift : forall U j k, (0 <= j < n)%Z -> (forall i V, (i < k)%nat -> In V (stages Op dt (Nat.iter i (rk3 Op dt) U)) -> moderate n G M (M ++ P) dx ds B Q (V 0%nat)) ->
  Rabs (amount (Nat.iter k (rk3 Op dt) U) j - amount U j) <= INR k * ((120 * (u * (B + T * Q)) + 50 * (h * ((1 + T) * (1 + Q)))) * total (M ++ P) (fun _ => 1)).
Proof.
  intros U j k Hj HM. induction k as [|k IH].
  - change (Nat.iter 0 (rk3 Op dt) U) with U. rewrite Rminus_diag_eq, Rabs_R0 by reflexivity. cbn [INR]. lra.
  - rewrite S_INR. change (Nat.iter (S k) (rk3 Op dt) U) with (rk3 Op dt (Nat.iter k (rk3 Op dt) U)). set (V := Nat.iter k (rk3 Op dt) U) in *.
    pose proof (step_drift V j Hj (fun W HW => HM k W ltac:(lia) HW)) as S.
    assert (I := IH (fun i W Hi HW => HM i W ltac:(lia) HW)).
    replace (amount (rk3 Op dt V) j - amount U j) with ((amount (rk3 Op dt V) j - amount V j) + (amount V j - amount U j)) by ring.
    eapply Rle_trans; [apply Rabs_triang|]. lra.
Qed.
End Run.
