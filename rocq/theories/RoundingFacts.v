(** * RoundingFacts: the operations on doubles are exact up to rounding.

    The executable IEEE specification of the standard library is related to the
    correctness theorems of Flocq, as in Float32Facts. *)
From Coq Require Import ZArith List Reals Lia Lra Bool Floats.SpecFloat.
From Flocq Require Import Core IEEE754.BinarySingleNaN Relative.
From Verif Require Import Base Arith ArithFloat RoundingSpec.
Open Scope Z_scope.

Local Instance prec64 : Prec_gt_0 53 := eq_refl.
Local Instance emax64 : Prec_lt_emax 53 1024 := eq_refl.
Notation fexp64 := (SpecFloat.fexp 53 1024).
Local Instance vexp64 : Valid_exp fexp64 := FLT_exp_valid (SpecFloat.emin 53 1024) 53.

Lemma rne_equiv : forall s m l, round_nearest_even m l = choice_mode mode_NE s m l.
Proof.
  intros s m l. destruct l as [|c]; [reflexivity|].
  destruct c; try reflexivity. simpl. unfold Round.cond_incr. destruct (Z.even m); reflexivity.
Qed.
Lemma round_aux_equiv : forall sx mx ex lx,
  SpecFloat.binary_round_aux 53 1024 sx mx ex lx = binary_round_aux 53 1024 mode_NE sx mx ex lx.
Proof.
  intros. unfold SpecFloat.binary_round_aux, binary_round_aux.
  set (m := shr_fexp _ _ _). destruct m as [mrs' e']. simpl. now rewrite (rne_equiv sx).
Qed.
Lemma round_equiv : forall s m e,
  SpecFloat.binary_round 53 1024 s m e = binary_round 53 1024 mode_NE s m e.
Proof.
  intros. unfold SpecFloat.binary_round, binary_round, shl_align_fexp.
  set (mez := shl_align _ _ _). destruct mez as [mz ez]. apply round_aux_equiv.
Qed.
Lemma normalize_equiv : forall m e sz,
  SpecFloat.binary_normalize 53 1024 m e sz = B2SF (binary_normalize 53 1024 _ _ mode_NE m e sz).
Proof.
  intros. destruct m as [|p|p]; simpl; auto; rewrite B2SF_SF2B; apply round_equiv.
Qed.

Lemma number_B : forall x, number x -> exists b : binary_float 53 1024, x = B2SF b /\ is_finite b = true /\ real x = B2R b.
Proof.
  intros x (V & H). exists (SF2B x V). rewrite B2SF_SF2B, B2R_SF2B, is_finite_SF2B. split; [reflexivity|].
  destruct x as [s|s| |s m e]; try easy. split; [reflexivity|]. cbn [real SF2R]. unfold F2R. cbn [Defs.Fnum Defs.Fexp]. rewrite bpow_powerRZ. now destruct s.
Qed.
Lemma B_number : forall b : binary_float 53 1024, is_finite b = true -> number (B2SF b) /\ real (B2SF b) = B2R b.
Proof.
  intros b H. split.
  - split; [apply valid_binary_B2SF|]. now destruct b.
  - destruct b as [s|s| |s m e V]; try easy. cbn [real B2SF B2R]. unfold F2R. cbn [Defs.Fnum Defs.Fexp]. rewrite bpow_powerRZ. now destruct s.
Qed.

(** Rounding of a real number. *)
Definition rnd (z : R) : R := round radix2 fexp64 (round_mode mode_NE) z.

Open Scope R_scope.
Lemma u_bpow : unit_roundoff = / 2 * bpow radix2 (- 53 + 1).
Proof. unfold unit_roundoff. rewrite bpow_powerRZ. replace (powerRZ (IZR radix2) (-53 + 1)) with (/ 2 ^ 52) by reflexivity. replace (2 ^ 53) with (2 * 2 ^ 52) by reflexivity. field. Qed.
Lemma large_bpow : large = bpow radix2 1000.
Proof. unfold large. now rewrite bpow_powerRZ. Qed.
Lemma tiny_bpow : tiny = bpow radix2 (-1000).
Proof. unfold tiny. now rewrite bpow_powerRZ. Qed.

Lemma rnd_error : forall z, Rabs (rnd z - z) <= unit_roundoff * Rabs z + tiny.
Proof.
  intros z. destruct (error_N_FLT radix2 (-1074) 53 eq_refl (fun x => negb (Z.even x)) z) as (e & h & He & Hh & _ & E).
  unfold rnd. change (round radix2 fexp64 (round_mode mode_NE) z) with (round radix2 (FLT_exp (-1074) 53) (Znearest (fun x => negb (Z.even x))) z). rewrite E.
  replace (z * (1 + e) + h - z) with (e * z + h) by ring. eapply Rle_trans; [apply Rabs_triang|]. apply Rplus_le_compat.
  - rewrite Rabs_mult. apply Rmult_le_compat_r; [apply Rabs_pos|]. rewrite u_bpow. exact He.
  - eapply Rle_trans; [exact Hh|]. rewrite tiny_bpow. assert (B : bpow radix2 (-1074) <= bpow radix2 (-1000)) by (apply bpow_le; lia). pose proof (bpow_gt_0 radix2 (-1074)). lra.
Qed.

Lemma rnd_below : forall z, Rabs z <= large -> Rlt_bool (Rabs (rnd z)) (bpow radix2 1024) = true.
Proof.
  intros z H. apply Rlt_bool_true. pose proof (rnd_error z) as E.
  assert (T : Rabs (rnd z) <= Rabs z + Rabs (rnd z - z)) by (replace (rnd z) with (z + (rnd z - z)) at 1 by ring; apply Rabs_triang).
  assert (U : unit_roundoff * Rabs z <= large).
  { rewrite <- (Rmult_1_l large). apply Rmult_le_compat; [|apply Rabs_pos| |exact H]; unfold unit_roundoff; [left; apply Rinv_0_lt_compat, pow_lt; lra|].
    rewrite <- Rinv_1. apply Rinv_le_contravar; [lra|]. apply pow_R1_Rle. lra. }
  assert (Y : tiny <= large) by (rewrite tiny_bpow, large_bpow; apply bpow_le; lia).
  assert (L : 4 * large <= bpow radix2 1002) by (rewrite large_bpow; change (bpow radix2 1002) with (bpow radix2 (2 + 1000)); rewrite bpow_plus; apply Rle_refl).
  assert (L2 : bpow radix2 1002 < bpow radix2 1024) by (apply bpow_lt; lia).
  assert (0 < large) by (rewrite large_bpow; apply bpow_gt_0). lra.
Qed.

Lemma add_B : forall x y : binary_float 53 1024, SFadd 53 1024 (B2SF x) (B2SF y) = B2SF (Bplus mode_NE x y).
Proof.
  intros x y. destruct x as [sx|sx| |sx mx ex Bx]; destruct y as [sy|sy| |sy my ey By];
    try (now trivial || (simpl; case Bool.eqb; reflexivity)).
  cbn [B2SF SFadd Bplus]. apply normalize_equiv.
Qed.
Lemma sub_B : forall x y : binary_float 53 1024, SFsub 53 1024 (B2SF x) (B2SF y) = B2SF (Bminus mode_NE x y).
Proof.
  intros x y. destruct x as [sx|sx| |sx mx ex Bx]; destruct y as [sy|sy| |sy my ey By];
    try (now trivial || (simpl; destruct sx, sy; reflexivity)).
  unfold SFsub. cbn [B2SF]. unfold Bminus. cbn [Bopp Bplus]. rewrite normalize_equiv. do 2 f_equal. unfold Fplus_naive. destruct sy; cbn [cond_Zopp negb]; lia.
Qed.
Lemma mul_B : forall x y : binary_float 53 1024, SFmul 53 1024 (B2SF x) (B2SF y) = B2SF (Bmult mode_NE x y).
Proof.
  intros x y. destruct x as [sx|sx| |sx mx ex Bx]; destruct y as [sy|sy| |sy my ey By]; try (now trivial).
  cbn [B2SF SFmul Bmult]. rewrite B2SF_SF2B. apply round_aux_equiv.
Qed.
Lemma div_B : forall x y : binary_float 53 1024, SFdiv 53 1024 (B2SF x) (B2SF y) = B2SF (Bdiv mode_NE x y).
Proof.
  intros x y. destruct x as [sx|sx| |sx mx ex Bx]; destruct y as [sy|sy| |sy my ey By];
    try (now trivial || simpl; case Bool.eqb).
  simpl. rewrite B2SF_SF2B.
  set (melz := SFdiv_core_binary _ _ _ _ _ _). destruct melz as [[mz ez] lz].
  apply round_aux_equiv.
Qed.

(** A literal is the nearest double. *)
Lemma literal_nearest : forall m k, (0 < k)%Z -> Rabs (IZR m / IZR (10 ^ k)) <= large ->
  number (fdec m (- k)) /\ real (fdec m (- k)) = rnd (IZR m / IZR (10 ^ k)).
Proof.
  intros m k Hk HL. change (fdec m (- k)) with (sf_dec m (- k)). unfold sf_dec.
  destruct (Z.leb_spec 0 (- k)); [lia|]. destruct (Z.eqb_spec m 0) as [->|Hm].
  - split; [split; [reflexivity|exact I]|]. unfold Rdiv. rewrite Rmult_0_l. unfold rnd. rewrite round_0 by typeclasses eauto. reflexivity.
  - replace (- - k)%Z with k by lia. assert (P : (0 < 10 ^ k)%Z) by (apply Z.pow_pos_nonneg; lia).
    destruct (10 ^ k)%Z as [|y|y] eqn:EY; try lia. clear P EY.
    assert (EX : exists x, Z.abs m = Zpos x) by (destruct m as [|x|x]; [lia|now exists x|now exists x]). destruct EX as (x & EX). rewrite EX.
    pose proof (Bdiv_correct_aux 53 1024 _ _ mode_NE (m <? 0)%Z x 0 false y 0) as C. cbv zeta in C.
    replace (F2R {| Fnum := cond_Zopp (m <? 0)%Z (Z.pos x); Fexp := 0 |}) with (IZR m) in C
      by (unfold F2R; cbn [Fnum Fexp]; rewrite Rmult_1_r; f_equal; destruct (Z.ltb_spec m 0); cbn [cond_Zopp]; lia).
    replace (F2R {| Fnum := cond_Zopp false (Z.pos y); Fexp := 0 |}) with (IZR (Zpos y)) in C by (unfold F2R; cbn [Fnum Fexp cond_Zopp]; now rewrite Rmult_1_r).
    rewrite Bool.xorb_false_r in C. fold (rnd (IZR m / IZR (Zpos y))) in C. rewrite (rnd_below _ HL) in C.
    destruct (SFdiv_core_binary 53 1024 (Zpos x) 0 (Zpos y) 0) as [[q e] l]. rewrite <- round_aux_equiv in C.
    destruct C as (V & C1 & C2 & _). set (z := SpecFloat.binary_round_aux 53 1024 (m <? 0)%Z q e l) in *.
    assert (N : number z) by (split; [exact V|destruct z; try discriminate C2; exact I]).
    split; [exact N|]. destruct (number_B z N) as (b & Eb & _ & ->). rewrite <- C1, Eb. apply eq_sym, SF2R_B2SF.
Qed.

Lemma literal_best : forall m k y, (0 < k)%Z -> Rabs (IZR m / IZR (10 ^ k)) <= large -> number y ->
  number (fdec m (- k)) /\ Rabs (real (fdec m (- k)) - IZR m / IZR (10 ^ k)) <= Rabs (real y - IZR m / IZR (10 ^ k)).
Proof.
  intros m k y Hk HL Hy. destruct (literal_nearest m k Hk HL) as (N & ->). split; [exact N|].
  destruct (number_B y Hy) as (b & _ & _ & ->). unfold rnd. cbn [round_mode].
  destruct (round_N_pt radix2 fexp64 (fun x => negb (Z.even x)) (IZR m / IZR (10 ^ k))) as (_ & H). apply H. apply generic_format_B2R.
Qed.

Lemma add_ok : forall x y, number x -> number y -> Rabs (real x + real y) <= large ->
  number (x + y)%F /\ real (x + y)%F = rnd (real x + real y).
Proof.
  intros x y Hx Hy HL. destruct (number_B x Hx) as (a & -> & Fa & Ea). destruct (number_B y Hy) as (b & -> & Fb & Eb). rewrite Ea, Eb in *.
  change (fadd (B2SF a) (B2SF b)) with (SFadd 53 1024 (B2SF a) (B2SF b)). rewrite add_B.
  pose proof (Bplus_correct 53 1024 _ _ mode_NE a b Fa Fb) as C. fold (rnd (B2R a + B2R b)) in C. rewrite (rnd_below _ HL) in C. destruct C as (C1 & C2 & _).
  destruct (B_number _ C2) as (N & ->). split; [exact N|exact C1].
Qed.
Lemma sub_ok : forall x y, number x -> number y -> Rabs (real x - real y) <= large ->
  number (x - y)%F /\ real (x - y)%F = rnd (real x - real y).
Proof.
  intros x y Hx Hy HL. destruct (number_B x Hx) as (a & -> & Fa & Ea). destruct (number_B y Hy) as (b & -> & Fb & Eb). rewrite Ea, Eb in *.
  change (fsub (B2SF a) (B2SF b)) with (SFsub 53 1024 (B2SF a) (B2SF b)). rewrite sub_B.
  pose proof (Bminus_correct 53 1024 _ _ mode_NE a b Fa Fb) as C. fold (rnd (B2R a - B2R b)) in C. rewrite (rnd_below _ HL) in C. destruct C as (C1 & C2 & _).
  destruct (B_number _ C2) as (N & ->). split; [exact N|exact C1].
Qed.
Lemma mul_ok : forall x y, number x -> number y -> Rabs (real x * real y) <= large ->
  number (x * y)%F /\ real (x * y)%F = rnd (real x * real y).
Proof.
  intros x y Hx Hy HL. destruct (number_B x Hx) as (a & -> & Fa & Ea). destruct (number_B y Hy) as (b & -> & Fb & Eb). rewrite Ea, Eb in *.
  change (fmul (B2SF a) (B2SF b)) with (SFmul 53 1024 (B2SF a) (B2SF b)). rewrite mul_B.
  pose proof (Bmult_correct 53 1024 _ _ mode_NE a b) as C. fold (rnd (B2R a * B2R b)) in C. rewrite (rnd_below _ HL), Fa, Fb in C. destruct C as (C1 & C2 & _).
  destruct (B_number _ C2) as (N & ->). split; [exact N|exact C1].
Qed.
Lemma div_ok : forall x y, number x -> number y -> real y <> 0 -> Rabs (real x / real y) <= large ->
  number (x / y)%F /\ real (x / y)%F = rnd (real x / real y).
Proof.
  intros x y Hx Hy HN HL. destruct (number_B x Hx) as (a & -> & Fa & Ea). destruct (number_B y Hy) as (b & -> & Fb & Eb). rewrite Ea, Eb in *.
  change (fdiv (B2SF a) (B2SF b)) with (SFdiv 53 1024 (B2SF a) (B2SF b)). rewrite div_B.
  pose proof (Bdiv_correct 53 1024 _ _ mode_NE a b HN) as C. fold (rnd (B2R a / B2R b)) in C. rewrite (rnd_below _ HL), Fa in C. destruct C as (C1 & C2 & _).
  destruct (B_number _ C2) as (N & ->). split; [exact N|exact C1].
Qed.

(** ** doubles near a number *)

Lemma u_pos : 0 < unit_roundoff.
Proof. unfold unit_roundoff. apply Rinv_0_lt_compat, pow_lt. lra. Qed.
Lemma u_small : unit_roundoff <= / 1000000.
Proof. unfold unit_roundoff. lra. Qed.
Lemma u_small_15 : unit_roundoff <= / 10 ^ 15.
Proof. unfold unit_roundoff. lra. Qed.
Lemma tiny_pos : 0 < tiny.
Proof. unfold tiny. apply Rinv_0_lt_compat, pow_lt. lra. Qed.
Lemma tiny_small : tiny <= / 1000000.
Proof. rewrite tiny_bpow. apply Rle_trans with (bpow radix2 (-20)); [apply bpow_le; lia|]. cbn. lra. Qed.
Lemma large_large : 1000000 <= large.
Proof. rewrite large_bpow. apply Rle_trans with (bpow radix2 20); [cbn; lra|apply bpow_le; lia]. Qed.
Global Opaque unit_roundoff tiny large.

Definition about (x : spec_float) (z e : R) : Prop := number x /\ Rabs (real x - z) <= e.

Lemma about_le : forall x z e e', about x z e -> e <= e' -> about x z e'.
Proof. intros x z e e' (N & H) L. split; [exact N|lra]. Qed.
Lemma about_self : forall x, number x -> about x (real x) 0.
Proof. intros x N. split; [exact N|]. rewrite Rminus_diag_eq, Rabs_R0 by reflexivity. lra. Qed.
Lemma about_size : forall x z e b, about x z e -> Rabs z <= b -> Rabs (real x) <= b + e.
Proof.
  intros x z e b (N & H) L. replace (real x) with (z + (real x - z)) by ring. eapply Rle_trans; [apply Rabs_triang|]. lra.
Qed.
Lemma rounded : forall x z w e Z, number x -> real x = rnd z -> Rabs (z - w) <= e -> Rabs z <= Z -> about x w (e + unit_roundoff * Z + tiny).
Proof.
  intros x z w e Z N E He HZ. split; [exact N|]. rewrite E. replace (rnd z - w) with ((rnd z - z) + (z - w)) by ring.
  eapply Rle_trans; [apply Rabs_triang|]. pose proof (rnd_error z). assert (unit_roundoff * Rabs z <= unit_roundoff * Z) by (apply Rmult_le_compat_l; [left; apply u_pos|exact HZ]). lra.
Qed.
Lemma about_add : forall x y a b e f p q, about x a e -> about y b f -> Rabs (real x) <= p -> Rabs (real y) <= q -> p + q <= large ->
  about (x + y)%F (a + b) (e + f + unit_roundoff * (p + q) + tiny).
Proof.
  intros x y a b e f p q (Nx & Hx) (Ny & Hy) Px Py L.
  assert (S : Rabs (real x + real y) <= p + q) by (eapply Rle_trans; [apply Rabs_triang|]; lra).
  destruct (add_ok x y Nx Ny ltac:(lra)) as (N & E). apply rounded with (z := real x + real y); auto.
  replace (real x + real y - (a + b)) with ((real x - a) + (real y - b)) by ring. eapply Rle_trans; [apply Rabs_triang|]. lra.
Qed.
Lemma about_sub : forall x y a b e f p q, about x a e -> about y b f -> Rabs (real x) <= p -> Rabs (real y) <= q -> p + q <= large ->
  about (x - y)%F (a - b) (e + f + unit_roundoff * (p + q) + tiny).
Proof.
  intros x y a b e f p q (Nx & Hx) (Ny & Hy) Px Py L.
  assert (S : Rabs (real x - real y) <= p + q) by (unfold Rminus; eapply Rle_trans; [apply Rabs_triang|]; rewrite Rabs_Ropp; lra).
  destruct (sub_ok x y Nx Ny ltac:(lra)) as (N & E). apply rounded with (z := real x - real y); auto.
  replace (real x - real y - (a - b)) with ((real x - a) + - (real y - b)) by ring. eapply Rle_trans; [apply Rabs_triang|]. rewrite Rabs_Ropp. lra.
Qed.
Lemma about_mul : forall x y a b e f p q, about x a e -> about y b f -> Rabs a <= p -> Rabs (real x) <= p -> Rabs (real y) <= q -> p * q <= large ->
  about (x * y)%F (a * b) (e * q + p * f + unit_roundoff * (p * q) + tiny).
Proof.
  intros x y a b e f p q (Nx & Hx) (Ny & Hy) Pa Px Py L.
  assert (S : Rabs (real x * real y) <= p * q) by (rewrite Rabs_mult; apply Rmult_le_compat; auto using Rabs_pos).
  destruct (mul_ok x y Nx Ny ltac:(lra)) as (N & E). apply rounded with (z := real x * real y); auto.
  replace (real x * real y - a * b) with ((real x - a) * real y + a * (real y - b)) by ring. eapply Rle_trans; [apply Rabs_triang|]. rewrite !Rabs_mult.
  apply Rplus_le_compat; apply Rmult_le_compat; auto using Rabs_pos.
Qed.
(** Division by a given number. *)
Lemma about_div : forall x y b e q, about x b e -> number y -> real y <> 0 -> Rabs (real x) <= q -> q / Rabs (real y) <= large ->
  about (x / y)%F (b / real y) (e / Rabs (real y) + unit_roundoff * (q / Rabs (real y)) + tiny).
Proof.
  intros x y b e q (Nx & Hx) Ny Y0 Px L. assert (P : 0 < Rabs (real y)) by now apply Rabs_pos_lt.
  assert (I : 0 <= / Rabs (real y)) by (left; now apply Rinv_0_lt_compat).
  assert (S : Rabs (real x / real y) <= q / Rabs (real y)) by (unfold Rdiv; rewrite Rabs_mult, Rabs_inv; now apply Rmult_le_compat_r).
  destruct (div_ok x y Nx Ny Y0 ltac:(lra)) as (N & E). apply rounded with (z := real x / real y); auto.
  replace (real x / real y - b / real y) with ((real x - b) * / real y) by (now field). rewrite Rabs_mult, Rabs_inv. now apply Rmult_le_compat_r.
Qed.

(** ** the divisor of the limiter

    is 0 or at least 2^-100: the differences of doubles near 10^-12 are multiples of
    2^-93, and so is the double 10^-12. *)
Lemma eps_is : (fdec 1 (-12) : spec_float) = S754_finite false 4951760157141521 (-92).
Proof. reflexivity. Qed.
Lemma eps_number : number (fdec 1 (-12)) /\ real (fdec 1 (-12)) = 2 * 4951760157141521 * bpow radix2 (-93).
Proof.
  rewrite eps_is. split; [split; [reflexivity|exact I]|]. cbn [real]. rewrite <- (bpow_powerRZ radix2). change (-92)%Z with (1 + -93)%Z. rewrite bpow_plus. change (bpow radix2 1) with 2. ring.
Qed.
Lemma number_format : forall x, number x -> generic_format radix2 fexp64 (real x).
Proof. intros x N. destruct (number_B x N) as (b & _ & _ & ->). apply generic_format_B2R. Qed.

Lemma multiple : forall d, generic_format radix2 fexp64 d -> bpow radix2 (-41) <= Rabs d -> exists k, d = IZR k * bpow radix2 (-93).
Proof.
  intros d Fd Hd. assert (Hm : (-41 < mag radix2 d)%Z) by (apply mag_gt_bpow; exact Hd).
  rewrite Fd. unfold F2R. cbn [Defs.Fnum Defs.Fexp]. set (m := Ztrunc _). unfold cexp, SpecFloat.fexp, SpecFloat.emin. set (c := Z.max _ _). assert (Hc : (-93 <= c)%Z) by (subst c; lia).
  exists (m * 2 ^ (c + 93))%Z. rewrite mult_IZR, (IZR_Zpower radix2) by lia. rewrite Rmult_assoc, <- bpow_plus. do 2 f_equal. lia.
Qed.

Lemma gap : forall d, number d -> Rabs (real d) <= large / 4 -> real (d + fdec 1 (-12))%F <> 0 -> bpow radix2 (-100) <= Rabs (real (d + fdec 1 (-12))%F).
Proof.
  intros d N HL H0. destruct eps_number as (Ne & Ee). set (e := fdec 1 (-12)) in *.
  assert (P : bpow radix2 (-41) = 4503599627370496 * bpow radix2 (-93)) by (change (-41)%Z with (52 + -93)%Z; rewrite bpow_plus; reflexivity).
  assert (P' : bpow radix2 (-93) = 128 * bpow radix2 (-100)) by (change (-93)%Z with (7 + -100)%Z; rewrite bpow_plus; reflexivity).
  pose proof (bpow_gt_0 radix2 (-93)) as P0. set (b := bpow radix2 (-93)) in *.
  assert (b1 : b <= / 1000) by (unfold b; apply Rle_trans with (bpow radix2 (-10)); [apply bpow_le; lia|cbn; lra]).
  pose proof large_large as LL.
  assert (SL : Rabs (real d + real e) <= large).
  { eapply Rle_trans; [apply Rabs_triang|]. rewrite Ee, (Rabs_pos_eq (2 * _ * _)) by lra.
    assert (b <= bpow radix2 (-53)) by (apply bpow_le; lia). assert (9903520314283042 * bpow radix2 (-53) <= 100) by (cbn; lra). lra. }
  destruct (add_ok d e N Ne SL) as (_ & E). rewrite E in *.
  assert (Z : b <= Rabs (real d + real e)).
  { destruct (Rle_dec (bpow radix2 (-41)) (Rabs (real d))) as [H|H].
    - destruct (multiple (real d) (number_format d N) H) as (k & Ek). fold b in Ek. rewrite Ee, Ek in *.
      assert (EK : IZR k * b + 2 * 4951760157141521 * b = IZR (k + 9903520314283042) * b) by (rewrite plus_IZR; ring). rewrite EK in *.
      destruct (Z.eq_dec (k + 9903520314283042) 0) as [K0|K0].
      + exfalso. apply H0. rewrite K0, Rmult_0_l. unfold rnd. apply round_0. apply valid_rnd_round_mode.
      + rewrite Rabs_mult, (Rabs_pos_eq b) by lra. rewrite <- (Rmult_1_l b) at 1. apply Rmult_le_compat_r; [lra|]. rewrite <- abs_IZR. apply IZR_le. lia.
    - rewrite Ee. apply Rnot_le_lt in H. rewrite P in H. apply Rabs_def2 in H as (H1 & H2). rewrite Rabs_pos_eq; lra. }
  pose proof (rnd_error (real d + real e)) as RE. set (z := real d + real e) in *.
  assert (T : Rabs z <= Rabs (rnd z) + Rabs (rnd z - z)) by (replace z with (rnd z + - (rnd z - z)) at 1 by ring; eapply Rle_trans; [apply Rabs_triang|]; rewrite Rabs_Ropp; lra).
  assert (T2 : unit_roundoff * Rabs z <= / 1000000 * Rabs z) by (apply Rmult_le_compat_r; [apply Rabs_pos|apply u_small]).
  assert (T3 : tiny <= bpow radix2 (-100)) by (rewrite tiny_bpow; apply bpow_le; lia). lra.
Qed.
