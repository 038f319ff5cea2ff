(** * Float32Facts: ceil(float(len)/float(n)) for counts below 2^24.

    The executable IEEE specification of the standard library is related to the
    correctness theorems of Flocq (which adds no axioms of its own; the axioms
    used are those of the Reals of the standard library). *)
From Coq Require Import ZArith List Reals Lia Lra Bool Floats.SpecFloat.
From Flocq Require Import Core IEEE754.BinarySingleNaN.
From Verif Require Import Base BaseFacts RangeSet.
Open Scope Z_scope.

Notation p32 := 24 (only parsing).
Notation e32 := 128 (only parsing).

Local Instance prec32 : Prec_gt_0 24 := eq_refl.
Local Instance emax32 : Prec_lt_emax 24 128 := eq_refl.

Lemma rne_equiv : forall s m l, round_nearest_even m l = choice_mode mode_NE s m l.
Proof.
  intros s m l. destruct l as [|c]; [reflexivity|].
  destruct c; try reflexivity. simpl. unfold Round.cond_incr. destruct (Z.even m); reflexivity.
Qed.

Lemma round_aux_equiv : forall sx mx ex lx,
  SpecFloat.binary_round_aux 24 128 sx mx ex lx = binary_round_aux 24 128 mode_NE sx mx ex lx.
Proof.
  intros. unfold SpecFloat.binary_round_aux, binary_round_aux.
  set (m := shr_fexp _ _ _). destruct m as [mrs' e']. simpl. now rewrite (rne_equiv sx).
Qed.

Lemma round_equiv : forall s m e,
  SpecFloat.binary_round 24 128 s m e = binary_round 24 128 mode_NE s m e.
Proof.
  intros. unfold SpecFloat.binary_round, binary_round, shl_align_fexp.
  set (mez := shl_align _ _ _). destruct mez as [mz ez]. apply round_aux_equiv.
Qed.

Lemma normalize_equiv : forall m e sz,
  SpecFloat.binary_normalize 24 128 m e sz = B2SF (binary_normalize 24 128 _ _ mode_NE m e sz).
Proof.
  intros. destruct m as [|p|p]; simpl; auto; rewrite B2SF_SF2B; apply round_equiv.
Qed.

Lemma div_equiv : forall x y : binary_float 24 128,
  SFdiv 24 128 (B2SF x) (B2SF y) = B2SF (Bdiv mode_NE x y).
Proof.
  intros x y. destruct x as [sx|sx| |sx mx ex Bx]; destruct y as [sy|sy| |sy my ey By];
    try (now trivial || simpl; case Bool.eqb).
  simpl. rewrite B2SF_SF2B.
  set (melz := SFdiv_core_binary _ _ _ _ _ _). destruct melz as [[mz ez] lz].
  apply round_aux_equiv.
Qed.

Notation fexp32 := (SpecFloat.fexp 24 128).

Local Instance vexp32 : Valid_exp fexp32 := FLT_exp_valid (SpecFloat.emin 24 128) 24.

Lemma format_int : forall z, Z.abs z <= 2 ^ 24 -> generic_format radix2 fexp32 (IZR z).
Proof.
  intros z Hz.
  destruct (Z.eq_dec (Z.abs z) (2 ^ 24)) as [E|N].
  - assert (H : generic_format radix2 fexp32 (bpow radix2 24)).
    { apply generic_format_bpow. vm_compute; discriminate. }
    change (bpow radix2 24) with (IZR (2 ^ 24)) in H.
    destruct (Z.abs_spec z) as [[_ A]|[_ A]]; rewrite A in E.
    + now rewrite E.
    + replace z with (- 2 ^ 24) by lia. rewrite opp_IZR. now apply generic_format_opp.
  - apply (generic_format_FLT radix2 (SpecFloat.emin 24 128) 24).
    apply (FLT_spec _ _ _ _ (Float radix2 z 0)).
    + unfold F2R. simpl. ring.
    + simpl. change (Z.pow_pos 2 24) with (2 ^ 24). lia.
    + simpl. unfold SpecFloat.emin. lia.
Qed.

Lemma round_int : forall z, Z.abs z <= 2 ^ 24 ->
  round radix2 fexp32 (round_mode mode_NE) (IZR z) = IZR z.
Proof. intros. apply round_generic; [apply valid_rnd_round_mode|]. now apply format_int. Qed.

Lemma lt_emax : forall x, (Rabs x <= IZR (2 ^ 24))%R -> Rlt_bool (Rabs x) (bpow radix2 128) = true.
Proof.
  intros x H. apply Rlt_bool_true. eapply Rle_lt_trans; [exact H|].
  change (IZR (2 ^ 24)) with (bpow radix2 24). apply bpow_lt. reflexivity.
Qed.

Lemma of_int_B : forall z, Z.abs z <= 2 ^ 24 ->
  exists b : binary_float 24 128, f32_of_int z = B2SF b /\ B2R b = IZR z /\ is_finite b = true.
Proof.
  intros z Hz. unfold f32_of_int. rewrite normalize_equiv. eexists. split; [reflexivity|].
  pose proof (binary_normalize_correct 24 128 _ _ mode_NE z 0 false) as C. cbv zeta in C.
  replace (F2R (Float radix2 z 0)) with (IZR z) in C by (unfold F2R; simpl; ring).
  rewrite round_int in C by assumption.
  rewrite lt_emax in C.
  - destruct C as (A & B & _). auto.
  - rewrite <- abs_IZR. now apply IZR_le.
Qed.

(** f32_ceil is the ceiling of the real value. *)
Lemma f32_ceil_B : forall b : binary_float 24 128, is_finite b = true ->
  f32_ceil (B2SF b) = Some (Zceil (B2R b)).
Proof.
  intros b H. destruct b as [s|s| |s m e Hb]; try discriminate; simpl.
  - f_equal. symmetry. apply (Zceil_IZR 0).
  - f_equal. unfold F2R. cbn [Fnum Fexp].
    replace (if s then Z.neg m else Z.pos m) with (cond_Zopp s (Z.pos m)) by (destruct s; reflexivity).
    set (v := cond_Zopp s (Z.pos m)).
    destruct (Z.leb_spec 0 e) as [He|He].
    + rewrite <- IZR_Zpower by assumption. rewrite <- mult_IZR. rewrite Zceil_IZR. reflexivity.
    + unfold Zceil. f_equal. symmetry.
      replace (- (IZR v * bpow radix2 e))%R with (IZR (- v) / IZR (2 ^ (- e)))%R.
      * rewrite Zfloor_div; [reflexivity|]. apply Z.pow_nonzero; lia.
      * rewrite opp_IZR. change (2 ^ (- e)) with (radix2 ^ (- e)). rewrite IZR_Zpower by lia.
        rewrite bpow_opp. unfold Rdiv. rewrite Rinv_inv. ring.
Qed.

Lemma ceil_quot : forall len n, 1 <= len < 2 ^ 24 -> 1 <= n < 2 ^ 24 ->
  Zceil (round radix2 fexp32 (round_mode mode_NE) (IZR len / IZR n)) = (len + n - 1) / n.
Proof.
  intros len n Hl Hn.
  set (k := (len + n - 1) / n).
  assert (Hk : n * (k - 1) < len <= n * k).
  { unfold k. pose proof (Z.div_mod (len + n - 1) n ltac:(lia)).
    pose proof (Z.mod_pos_bound (len + n - 1) n ltac:(lia)). nia. }
  assert (Hk1 : 1 <= k) by nia.
  assert (Hk2 : k <= 2 ^ 24) by nia.
  set (x := (IZR len / IZR n)%R).
  assert (Hn0 : (0 < IZR n)%R) by (apply IZR_lt; lia).
  assert (Hl0 : (0 < IZR len)%R) by (apply IZR_lt; lia).
  assert (Hx0 : (0 < x)%R) by (apply Rdiv_lt_0_compat; assumption).
  assert (Hxk : (x <= IZR k)%R).
  { unfold x. apply Rmult_le_reg_r with (IZR n); auto. unfold Rdiv. rewrite Rmult_assoc, Rinv_l by lra.
    rewrite Rmult_1_r, <- mult_IZR. apply IZR_le. lia. }
  apply Zceil_imp. split.
  - (* lower bound through the half ulp error *)
    pose proof (error_le_half_ulp radix2 fexp32 (fun z => negb (Z.even z)) x) as E.
    change (Znearest (fun z => negb (Z.even z))) with (round_mode mode_NE) in E.
    assert (U : (ulp radix2 fexp32 x <= x * bpow radix2 (-23))%R).
    { rewrite ulp_neq_0 by lra. unfold cexp.
      assert (M : (bpow radix2 (mag radix2 x - 1) <= x)%R).
      { pose proof (bpow_mag_le radix2 x ltac:(lra)) as B. rewrite Rabs_pos_eq in B by lra. exact B. }
      assert (Mx : -24 <= mag radix2 x).
      { apply mag_ge_bpow. rewrite Rabs_pos_eq by lra. unfold x.
        apply Rmult_le_reg_r with (IZR n); auto. unfold Rdiv. rewrite Rmult_assoc, Rinv_l by lra.
        rewrite Rmult_1_r. apply Rle_trans with (bpow radix2 (-25) * bpow radix2 24)%R.
        - apply Rmult_le_compat_l; [apply bpow_ge_0|]. change (bpow radix2 24) with (IZR (2 ^ 24)). apply IZR_le. lia.
        - rewrite <- bpow_plus. apply Rle_trans with 1%R.
          + change 1%R with (bpow radix2 0). apply bpow_le. lia.
          + apply IZR_le. lia. }
      unfold SpecFloat.fexp, SpecFloat.emin. rewrite Z.max_l by lia.
      apply Rle_trans with (bpow radix2 (mag radix2 x - 1) * bpow radix2 (-23))%R.
      - rewrite <- bpow_plus. apply bpow_le. lia.
      - apply Rmult_le_compat_r; [apply bpow_ge_0|exact M]. }
    assert (B23 : bpow radix2 (-23) = (2 * bpow radix2 (-24))%R).
    { change (-23) with (1 + -24). rewrite bpow_plus. reflexivity. }
    assert (E2 : (x - x * bpow radix2 (-24) <= round radix2 fexp32 (round_mode mode_NE) x)%R).
    { apply Rabs_le_inv in E. rewrite B23 in U. lra. }
    eapply Rlt_le_trans; [|exact E2].
    (* n (k-1) < len - len 2^-24 *)
    rewrite minus_IZR.
    apply Rmult_lt_reg_r with (IZR n); auto.
    assert (Hxn : (x * IZR n = IZR len)%R).
    { unfold x, Rdiv. rewrite Rmult_assoc, Rinv_l by lra. ring. }
    replace ((x - x * bpow radix2 (-24)) * IZR n)%R with (IZR len - IZR len * bpow radix2 (-24))%R
      by (rewrite <- Hxn; ring).
    assert (L24 : (IZR len * bpow radix2 (-24) < 1)%R).
    { apply Rmult_lt_reg_r with (bpow radix2 24); [apply bpow_gt_0|].
      rewrite Rmult_assoc, <- bpow_plus. simpl (-24 + 24). change (bpow radix2 0) with 1%R.
      rewrite Rmult_1_r, Rmult_1_l. change (bpow radix2 24) with (IZR (2 ^ 24)). apply IZR_lt. lia. }
    assert (Lk : ((IZR k - 1) * IZR n <= IZR len - 1)%R).
    { rewrite <- minus_IZR, <- minus_IZR, <- mult_IZR. apply IZR_le. lia. }
    lra.
  - (* upper bound by monotonicity *)
    rewrite <- (round_int k) by lia. apply round_le; auto.
    + apply vexp32.
    + apply valid_rnd_round_mode.
Qed.

Theorem sub_size_ok : forall len n, 1 <= len < 2 ^ 24 -> 1 <= n < 2 ^ 24 ->
  sub_size len n = Ok ((len + n - 1) / n).
Proof.
  intros len n Hl Hn. unfold sub_size, f32_div.
  destruct (of_int_B len ltac:(lia)) as (bl & -> & Rl & Fl).
  destruct (of_int_B n ltac:(lia)) as (bn & -> & Rn & Fn).
  rewrite div_equiv.
  pose proof (Bdiv_correct 24 128 _ _ mode_NE bl bn) as D.
  assert (Hn0 : (0 < IZR n)%R) by (apply IZR_lt; lia).
  rewrite Rn, Rl in D. specialize (D ltac:(lra)).
  assert (Hk : 0 <= (len + n - 1) / n <= 2 ^ 24).
  { split; [apply Z.div_pos; lia|]. apply Z.div_le_upper_bound; nia. }
  rewrite lt_emax in D.
  - destruct D as (A & B & _). rewrite Fl in B. rewrite f32_ceil_B by exact B. rewrite A.
    rewrite ceil_quot by assumption.
    unfold conv, is_intb, int_min, int_max.
    destruct (Z.leb_spec (-2147483648) ((len + n - 1) / n)); [|lia].
    destruct (Z.leb_spec ((len + n - 1) / n) 2147483647); [reflexivity|lia].
  - assert (Hx : (0 <= IZR len / IZR n)%R).
    { apply Rlt_le, Rdiv_lt_0_compat; auto. apply IZR_lt; lia. }
    rewrite Rabs_pos_eq.
    + rewrite <- (round_int (2 ^ 24)) by (simpl; lia).
      apply round_le; [apply vexp32|apply valid_rnd_round_mode|].
      apply Rmult_le_reg_r with (IZR n); auto. unfold Rdiv. rewrite Rmult_assoc, Rinv_l by lra.
      rewrite Rmult_1_r, <- mult_IZR. apply IZR_le. nia.
    + rewrite <- (round_0 radix2 fexp32 (round_mode mode_NE)).
      apply round_le; [apply vexp32|apply valid_rnd_round_mode|exact Hx].
Qed.
