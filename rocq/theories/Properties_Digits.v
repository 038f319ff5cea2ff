(** * Properties of the numbers in VTK files (C73).

    A double is written with 16 significant digits (variable_manager.cpp:87).  How
    the library turns a double into digits is not part of the repository; the
    statements hold for every library that rounds to the nearest decimal. *)
From Coq Require Import ZArith List String Lia Bool Reals Lra Floats.SpecFloat.
From Verif Require Import Base Arith ArithFloat BoxSpec ChunkFacts VarId Manager MgrSpec MgrFacts Vtk VtkSpec Properties_Manager Properties_Vtk.
Import ListNotations.
Open Scope R_scope.

(** Powers with whole exponents. *)
Definition pw (b k : Z) : R := if (0 <=? k)%Z then IZR (b ^ k) else / IZR (b ^ (- k)).

(** The value of a finite double. *)
Definition value (x : spec_float) : option R :=
  match x with
  | S754_zero _ => Some 0
  | S754_finite s m e => Some (IZR (if s then Z.neg m else Z.pos m) * pw 2 e)
  | _ => None
  end.

(** [d] * 10^[k] is a decimal with [n] significant digits that is nearest to [x]. *)
Definition nearest (n : Z) (x : R) (d k : Z) : Prop :=
  (10 ^ (n - 1) <= d < 10 ^ n)%Z /\ Rabs (x - IZR d * pw 10 k) <= pw 10 k / 2.

Lemma pw_pos : forall b k, (0 < b)%Z -> 0 < pw b k.
Proof.
  intros b k H. unfold pw. destruct (Z.leb_spec 0 k).
  - apply (IZR_lt 0). apply Z.pow_pos_nonneg; lia.
  - apply Rinv_0_lt_compat. apply (IZR_lt 0). apply Z.pow_pos_nonneg; lia.
Qed.
Lemma pw_succ : forall b k, (0 < b)%Z -> pw b (k + 1) = IZR b * pw b k.
Proof.
  intros b k H. unfold pw. destruct (Z.leb_spec 0 k); destruct (Z.leb_spec 0 (k + 1)); try lia.
  - rewrite Z.pow_add_r, Z.pow_1_r by lia. rewrite mult_IZR. ring.
  - replace k with (-1)%Z by lia. cbn [Z.add Z.opp]. change (-1 + 1)%Z with 0%Z. rewrite Z.pow_0_r. change (- -1)%Z with 1%Z. rewrite Z.pow_1_r. field.
    apply (IZR_neq b 0). lia.
  - replace (- k)%Z with (- (k + 1) + 1)%Z by lia. rewrite Z.pow_add_r, Z.pow_1_r by lia. rewrite mult_IZR.
    assert (IZR b <> 0) by (apply (IZR_neq b 0); lia).
    assert (IZR (b ^ - (k + 1)) <> 0) by (apply (IZR_neq _ 0); pose proof (Z.pow_pos_nonneg b (- (k + 1))); lia).
    field. auto.
Qed.
Lemma pw_le : forall b k l, (1 < b)%Z -> (k <= l)%Z -> pw b k <= pw b l.
Proof.
  intros b k l H HL. replace l with (k + Z.of_nat (Z.to_nat (l - k)))%Z by lia. generalize (Z.to_nat (l - k)) as n. clear l HL.
  induction n as [|n IH]; [replace (k + Z.of_nat 0)%Z with k by lia; lra|].
  replace (k + Z.of_nat (S n))%Z with (k + Z.of_nat n + 1)%Z by lia. rewrite pw_succ by lia.
  pose proof (pw_pos b (k + Z.of_nat n) ltac:(lia)). assert (1 <= IZR b) by (apply (IZR_le 1); lia). nra.
Qed.

Lemma abs_le : forall x y, Rabs x <= y -> - y <= x <= y.
Proof. intros x y H. unfold Rabs in H. destruct (Rcase_abs x); lra. Qed.

(** Two doubles near 0.3 that differ in the last bit. *)
Definition third_a : spec_float := S754_finite false 5404319552844595 (-54).
Definition third_b : spec_float := S754_finite false 5404319552844596 (-54).

Lemma near_unique : forall x d k, 2999999999999999 / 10000000000000000 + 6 / 100000000000000000 < x < 3000000000000000 / 10000000000000000 + 49 / 1000000000000000000 ->
  (nearest 16 x d k <-> d = 3000000000000000%Z /\ k = (-16)%Z).
Proof.
  intros x d k Hx. unfold nearest. change (10 ^ (16 - 1))%Z with 1000000000000000%Z. change (10 ^ 16)%Z with 10000000000000000%Z.
  assert (P16 : pw 10 (-16) = / 10000000000000000) by reflexivity.
  split.
  - intros [Hd HN]. pose proof (pw_pos 10 k ltac:(lia)) as PP.
    assert (D1 : 1000000000000000 <= IZR d) by (apply (IZR_le 1000000000000000); lia).
    assert (D2 : IZR d <= 9999999999999999) by (apply (IZR_le _ 9999999999999999); lia).
    apply abs_le in HN.
    destruct (Z_lt_le_dec (-16) k) as [K|K].
    { exfalso. pose proof (pw_le 10 (-15) k ltac:(lia) ltac:(lia)) as L. change (pw 10 (-15)) with (/ 1000000000000000) in L. nra. }
    destruct (Z_lt_le_dec k (-16)) as [K'|K'].
    { exfalso. pose proof (pw_le 10 k (-17) ltac:(lia) ltac:(lia)) as L. change (pw 10 (-17)) with (/ 100000000000000000) in L. nra. }
    assert (k = (-16)%Z) by lia. subst k. split; [|reflexivity]. rewrite P16 in HN.
    assert (IZR d < 3000000000000001) by lra. assert (2999999999999999 < IZR d) by lra.
    apply lt_IZR in H. apply lt_IZR in H0. lia.
  - intros [-> ->]. split; [lia|]. rewrite P16. apply Rabs_le. lra.
Qed.

(** Two different doubles have the same 16 digits, and no others. *)
Theorem C73_digits_refuted : exists a b x y, third_a = a /\ third_b = b /\ a <> b /\ value a = Some x /\ value b = Some y /\ x < y /\
  forall d k, (nearest 16 x d k <-> d = 3000000000000000%Z /\ k = (-16)%Z) /\ (nearest 16 y d k <-> d = 3000000000000000%Z /\ k = (-16)%Z).
Proof.
  exists third_a, third_b, (IZR 5404319552844595 * pw 2 (-54)), (IZR 5404319552844596 * pw 2 (-54)).
  assert (P : pw 2 (-54) = / 18014398509481984) by reflexivity.
  split; [reflexivity|]. split; [reflexivity|]. split; [discriminate|]. split; [reflexivity|]. split; [reflexivity|].
  split; [rewrite P; lra|]. intros d k. split; apply near_unique; rewrite P; lra.
Qed.
Print Assumptions C73_digits_refuted.

(** The text of a stream: [fmt] gives the text of a double, [int] that of an int. *)
Definition text {F} (int : Z -> string) (fmt : F -> string) (s : stream F) : string :=
  String.concat "" (map (fun t => match t with TText x => x | TInt z => int z | TNum x => fmt x end) s).

(** [fmt] writes a double as its nearest decimal with [n] digits: what it writes
    depends on nothing else. *)
Definition writes_digits (n : Z) (fmt : spec_float -> string) : Prop :=
  forall a b x y, value a = Some x -> value b = Some y -> (forall d k, nearest n x d k <-> nearest n y d k) -> fmt a = fmt b.

Definition all_of (x : spec_float) : mgr spec_float := mgr_of sheet_grid sheet [(s1, fun _ => x)] None None.
Lemma all_holds : forall x, mgr_holds (all_of x) sheet [(s1, fun _ => x)].
Proof.
  intros x. assert (FO : fields_ok sheet [(s1, fun _ : list Z => x)]) by (split; [repeat constructor; cbn; tauto|repeat constructor; apply s1_sheet]).
  apply mgr_holds_iff; [exact FO|]. split; reflexivity.
Qed.

(** Two managers whose variable has different values everywhere write files with
    the same text, whatever library rounds to the nearest 16 digits. *)
Theorem C73_file_refuted : exists m m' u u' s s',
  mgr_holds m sheet [(s1, u)] /\ mgr_holds m' sheet [(s1, u')] /\ (forall c, u c <> u' c) /\ mg_grid m = mg_grid m' /\
  manager_write_vtk 1 true "f.vtk" m [s1] = Done (Some s) /\ manager_write_vtk 1 true "f.vtk" m' [s1] = Done (Some s') /\
  forall int fmt, writes_digits 16 fmt -> text int fmt s = text int fmt s'.
Proof.
  exists (all_of third_a), (all_of third_b), (fun _ => third_a), (fun _ => third_b). do 2 eexists.
  split; [apply all_holds|]. split; [apply all_holds|]. split; [intros c; discriminate|]. split; [reflexivity|].
  split; [vm_compute; reflexivity|]. split; [vm_compute; reflexivity|]. intros int fmt HF.
  assert (E : fmt third_a = fmt third_b).
  { destruct C73_digits_refuted as (a & b & x & y & <- & <- & _ & Ha & Hb & _ & H). apply (HF _ _ x y Ha Hb). intros d k.
    destruct (H d k) as [H1 H2]. rewrite H1, H2. reflexivity. }
  unfold third_a, third_b in E. unfold text. cbn [map]. rewrite E. reflexivity.
Qed.
Print Assumptions C73_file_refuted.

Lemma pw_add : forall k n, pw 2 (k + Z.of_nat n) = IZR (2 ^ Z.of_nat n) * pw 2 k.
Proof.
  intros k. induction n as [|n IH]; [replace (k + Z.of_nat 0)%Z with k by lia; cbn; lra|].
  replace (k + Z.of_nat (S n))%Z with (k + Z.of_nat n + 1)%Z by lia. rewrite pw_succ, IH by lia.
  rewrite Nat2Z.inj_succ, Z.pow_succ_r, mult_IZR by lia. ring.
Qed.
Lemma digits_bounds : forall m, (2 ^ (Z.pos (digits2_pos m) - 1) <= Z.pos m < 2 ^ Z.pos (digits2_pos m))%Z.
Proof.
  induction m as [m IH|m IH|]; cbn [digits2_pos]; [| |cbn; lia].
  - rewrite Pos2Z.inj_succ. replace (Z.succ (Z.pos (digits2_pos m)) - 1)%Z with (Z.succ (Z.pos (digits2_pos m) - 1)) by lia.
    rewrite !Z.pow_succ_r by lia. lia.
  - rewrite Pos2Z.inj_succ. replace (Z.succ (Z.pos (digits2_pos m)) - 1)%Z with (Z.succ (Z.pos (digits2_pos m) - 1)) by lia.
    rewrite !Z.pow_succ_r by lia. lia.
Qed.
(** What valid doubles are: at most 53 bits, exactly 53 unless the exponent is the
    smallest one. *)
Lemma valid_bounds : forall m e, valid_binary 53 1024 (S754_finite false m e) = true ->
  (Z.pos m < 2 ^ 53 /\ -1074 <= e /\ (-1074 < e -> 2 ^ 52 <= Z.pos m))%Z.
Proof.
  intros m e H. cbn [valid_binary] in H. unfold bounded, canonical_mantissa in H. apply andb_true_iff in H as [H _].
  apply Zeq_bool_eq in H. unfold SpecFloat.fexp, SpecFloat.emin in H. pose proof (digits_bounds m) as [L U]. set (p := Z.pos (digits2_pos m)) in *.
  assert (p <= 53)%Z by lia. assert (2 ^ p <= 2 ^ 53)%Z by (apply Z.pow_le_mono_r; lia).
  split; [lia|]. split; [lia|]. intros HE. assert (p = 53)%Z by lia. rewrite H2 in L. exact L.
Qed.
Lemma spacing : forall m e m' e', valid_binary 53 1024 (S754_finite false m e) = true -> valid_binary 53 1024 (S754_finite false m' e') = true ->
  IZR (Z.pos m) * pw 2 e < IZR (Z.pos m') * pw 2 e' -> IZR (Z.pos m) * pw 2 e + pw 2 e <= IZR (Z.pos m') * pw 2 e'.
Proof.
  intros m e m' e' V V' H. apply valid_bounds in V as (U & E & N). apply valid_bounds in V' as (U' & E' & N').
  destruct (Z_lt_le_dec e' e) as [HE|HE].
  - exfalso. pose proof (pw_pos 2 e' ltac:(lia)). pose proof (pw_pos 2 (e - 1) ltac:(lia)) as P1.
    pose proof (pw_le 2 e' (e - 1) ltac:(lia) ltac:(lia)) as L. pose proof (pw_succ 2 (e - 1) ltac:(lia)) as S1. replace (e - 1 + 1)%Z with e in S1 by lia.
    assert (4503599627370496 <= IZR (Z.pos m)) by (apply (IZR_le 4503599627370496); specialize (N ltac:(lia)); lia).
    assert (IZR (Z.pos m') <= 9007199254740992) by (apply (IZR_le _ 9007199254740992); lia).
    assert (0 < IZR (Z.pos m')) by (apply (IZR_lt 0); lia). rewrite S1 in H.
    assert (IZR (Z.pos m') * pw 2 e' <= 9007199254740992 * pw 2 (e - 1)) by (apply Rmult_le_compat; lra).
    assert (4503599627370496 * pw 2 (e - 1) <= IZR (Z.pos m) * pw 2 (e - 1)) by (apply Rmult_le_compat_r; lra). lra.
  - replace e' with (e + Z.of_nat (Z.to_nat (e' - e)))%Z in * by lia. set (n := Z.to_nat (e' - e)) in *. rewrite pw_add in *.
    pose proof (pw_pos 2 e ltac:(lia)) as PE. rewrite <- Rmult_assoc, <- mult_IZR in *.
    assert (IZR (Z.pos m) < IZR (Z.pos m' * 2 ^ Z.of_nat n)) as HM by (apply (Rmult_lt_reg_r (pw 2 e)); assumption).
    apply lt_IZR in HM. assert (IZR (Z.pos m + 1) <= IZR (Z.pos m' * 2 ^ Z.of_nat n)) as HL by (apply IZR_le; lia).
    rewrite plus_IZR in HL. nra.
Qed.

(** With 17 digits instead of 16 no two positive doubles would share their digits;
    subnormal numbers are included. *)
Theorem C73_seventeen : forall m e m' e' d k, valid_binary 53 1024 (S754_finite false m e) = true -> valid_binary 53 1024 (S754_finite false m' e') = true ->
  nearest 17 (IZR (Z.pos m) * pw 2 e) d k -> nearest 17 (IZR (Z.pos m') * pw 2 e') d k -> m = m' /\ e = e'.
Proof.
  assert (G : forall m e m' e' d k, valid_binary 53 1024 (S754_finite false m e) = true -> valid_binary 53 1024 (S754_finite false m' e') = true ->
    nearest 17 (IZR (Z.pos m) * pw 2 e) d k -> nearest 17 (IZR (Z.pos m') * pw 2 e') d k -> ~ IZR (Z.pos m) * pw 2 e < IZR (Z.pos m') * pw 2 e').
  { intros m e m' e' d k V V' [[D1 _] N] [_ N'] H. pose proof (spacing m e m' e' V V' H) as SP. apply valid_bounds in V as (U & _ & _).
    apply abs_le in N. apply abs_le in N'. pose proof (pw_pos 10 k ltac:(lia)) as PK. pose proof (pw_pos 2 e ltac:(lia)) as PE.
    assert (10000000000000000 <= IZR d) by (apply (IZR_le 10000000000000000); exact D1).
    assert (IZR (Z.pos m) <= 9007199254740991) by (apply (IZR_le _ 9007199254740991); lia).
    assert (10000000000000000 * pw 10 k <= IZR d * pw 10 k) by (apply Rmult_le_compat_r; lra).
    assert (IZR (Z.pos m) * pw 2 e <= 9007199254740991 * pw 2 e) by (apply Rmult_le_compat_r; lra). lra. }
  assert (Q : forall m e m' e', valid_binary 53 1024 (S754_finite false m e) = true -> valid_binary 53 1024 (S754_finite false m' e') = true ->
    IZR (Z.pos m) * pw 2 e = IZR (Z.pos m') * pw 2 e' -> ~ (e < e')%Z).
  { intros m e m' e' V V' H HE. apply valid_bounds in V as (U & E & N). apply valid_bounds in V' as (U' & E' & N').
    replace e' with (e + 1 + Z.of_nat (Z.to_nat (e' - e - 1)))%Z in * by lia. rewrite pw_add, pw_succ in H by lia. set (n := Z.to_nat (e' - e - 1)) in *.
    pose proof (pw_pos 2 e ltac:(lia)) as PE.
    assert (IZR (Z.pos m) = IZR (Z.pos m' * 2 ^ Z.of_nat n * 2)) as HM by (rewrite !mult_IZR; apply (Rmult_eq_reg_r (pw 2 e)); lra).
    apply eq_IZR in HM. specialize (N' ltac:(lia)). pose proof (Z.pow_pos_nonneg 2 (Z.of_nat n)). nia. }
  intros m e m' e' d k V V' N N'. pose proof (G m e m' e' d k V V' N N') as G1. pose proof (G m' e' m e d k V' V N' N) as G2.
  assert (EQ : IZR (Z.pos m) * pw 2 e = IZR (Z.pos m') * pw 2 e') by lra.
  assert (e = e') by (pose proof (Q m e m' e' V V' EQ); pose proof (Q m' e' m e V' V (eq_sym EQ)); lia). subst e'. split; [|reflexivity].
  pose proof (pw_pos 2 e ltac:(lia)) as PE. apply Rmult_eq_reg_r in EQ; [|lra]. apply eq_IZR in EQ. now injection EQ.
Qed.
Print Assumptions C73_seventeen.

(** Beside C73_seventeen: the two doubles near 0.3 are valid and have different
    digits with 17 of them. *)
Example C73_ex : valid_binary 53 1024 third_a = true /\ valid_binary 53 1024 third_b = true /\
  nearest 17 (IZR 5404319552844595 * pw 2 (-54)) 29999999999999999 (-17) /\ nearest 17 (IZR 5404319552844596 * pw 2 (-54)) 30000000000000004 (-17).
Proof.
  split; [reflexivity|]. split; [reflexivity|]. assert (P : pw 2 (-54) = / 18014398509481984) by reflexivity.
  assert (Q : pw 10 (-17) = / 100000000000000000) by reflexivity.
  split; (split; [lia|rewrite P, Q; apply Rabs_le; lra]).
Qed.
