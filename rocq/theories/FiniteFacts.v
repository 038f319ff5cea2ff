(** * FiniteFacts: a step of the Maxwell solver from doubles of moderate size gives
    doubles of moderate size. *)
From Coq Require Import ZArith List String Bool Reals Lra Lia Psatz Floats.SpecFloat.
From Flocq Require Import Core.Zaux Core.Raux.
From Verif Require Import Base BaseFacts BoxSpec BoxFacts Interface Range RangeSpec RangeFacts ApiSpec Arith ArithR ArithFloat Chunk FieldSpec VarId Manager MgrSpec MgrFacts
  BC BCSpec BCFacts Sweep SweepSpec Maxwell SweepFacts FluxFacts Programs ProgramsSpec ConserveFacts RhsFacts SymmetrySpec SymmetryFacts RoundingSpec RoundingFacts DriftFacts.
Import ListNotations.
Open Scope R_scope.

Lemma within_le : forall a b x, within a x -> a <= b -> within b x.
Proof. intros a b x (N & H) L. split; [exact N|lra]. Qed.
Lemma about_within : forall x z e b c, about x z e -> Rabs z <= b -> b + e <= c -> within c x.
Proof. intros x z e b c A H L. split; [apply A|]. pose proof (about_size _ _ _ _ A H). lra. Qed.

(** The bound [c] has room for the rounding. *)
Lemma room : forall z c, 0 <= z -> 1001 / 1000 * z <= c -> 1 <= c -> z + (unit_roundoff * z + tiny) <= c.
Proof.
  intros z c Hz H1 H2. pose proof u_pos. pose proof u_small. pose proof tiny_pos. pose proof tiny_small. assert (unit_roundoff * z <= / 1000000 * z) by (apply Rmult_le_compat_r; lra).
  destruct (Rle_dec z (1 / 2)); lra.
Qed.
Lemma w_nonneg : forall a x, within a x -> 0 <= a.
Proof. intros a x (_ & H). pose proof (Rabs_pos (real x)). lra. Qed.
Lemma w_add : forall x y a b c, within a x -> within b y -> 1001 / 1000 * (a + b) <= c -> 1 <= c -> c <= large -> within c (x + y)%F.
Proof.
  intros x y a b c Hx Hy H1 H2 H3. pose proof (w_nonneg _ _ Hx). pose proof (w_nonneg _ _ Hy). destruct Hx as (Nx & Hx). destruct Hy as (Ny & Hy).
  apply (about_within _ _ _ (a + b) c (about_add x y _ _ 0 0 a b (about_self _ Nx) (about_self _ Ny) Hx Hy ltac:(lra))); [eapply Rle_trans; [apply Rabs_triang|]; lra|].
  pose proof (room (a + b) c ltac:(lra) H1 H2). lra.
Qed.
Lemma w_sub : forall x y a b c, within a x -> within b y -> 1001 / 1000 * (a + b) <= c -> 1 <= c -> c <= large -> within c (x - y)%F.
Proof.
  intros x y a b c Hx Hy H1 H2 H3. pose proof (w_nonneg _ _ Hx). pose proof (w_nonneg _ _ Hy). destruct Hx as (Nx & Hx). destruct Hy as (Ny & Hy).
  apply (about_within _ _ _ (a + b) c (about_sub x y _ _ 0 0 a b (about_self _ Nx) (about_self _ Ny) Hx Hy ltac:(lra))); [unfold Rminus; eapply Rle_trans; [apply Rabs_triang|]; rewrite Rabs_Ropp; lra|].
  pose proof (room (a + b) c ltac:(lra) H1 H2). lra.
Qed.
Lemma w_mul : forall x y a b c, within a x -> within b y -> 1001 / 1000 * (a * b) <= c -> 1 <= c -> c <= large -> within c (x * y)%F.
Proof.
  intros x y a b c Hx Hy H1 H2 H3. pose proof (w_nonneg _ _ Hx). pose proof (w_nonneg _ _ Hy). destruct Hx as (Nx & Hx). destruct Hy as (Ny & Hy).
  assert (0 <= a * b) by now apply Rmult_le_pos.
  apply (about_within _ _ _ (a * b) c (about_mul x y _ _ 0 0 a b (about_self _ Nx) (about_self _ Ny) Hx Hx Hy ltac:(lra))); [rewrite Rabs_mult; apply Rmult_le_compat; auto using Rabs_pos|].
  pose proof (room (a * b) c ltac:(lra) H1 H2). lra.
Qed.
Lemma w_div : forall x y a l c, within a x -> number y -> 0 < l -> l <= Rabs (real y) -> 1001 / 1000 * (a / l) <= c -> 1 <= c -> c <= large -> within c (x / y)%F.
Proof.
  intros x y a l c Hx Ny Hl Hy H1 H2 H3. pose proof (w_nonneg _ _ Hx). destruct Hx as (Nx & Hx).
  assert (Y0 : real y <> 0) by (intros E; rewrite E, Rabs_R0 in Hy; lra).
  assert (L1 : a / Rabs (real y) <= a / l) by (unfold Rdiv; apply Rmult_le_compat_l; [assumption|apply Rinv_le_contravar; lra]).
  assert (L0 : 0 <= a / Rabs (real y)) by (apply Rmult_le_pos; [assumption|left; apply Rinv_0_lt_compat; lra]).
  apply (about_within _ _ _ (a / Rabs (real y)) c (about_div x y _ 0 a (about_self _ Nx) Ny Y0 Hx ltac:(lra))).
  - unfold Rdiv. rewrite Rabs_mult, Rabs_inv. apply Rmult_le_compat_r; [left; apply Rinv_0_lt_compat; lra|exact Hx].
  - pose proof (room (a / Rabs (real y)) c L0 ltac:(lra) H2). unfold Rdiv at 2. lra.
Qed.
Lemma w_neg : forall x a, within a x -> within a (- x)%F.
Proof.
  intros x a ((V & N) & H). destruct x as [s|s| |s m e]; try easy; cbn [fneg FloatArith SFopp]; (split; [split; [exact V|exact I]|]).
  cbn [real] in *. eapply Rle_trans; [|exact H]. right. rewrite !Rabs_mult. f_equal. rewrite <- !abs_IZR. f_equal. destruct s; cbn; lia.
Qed.
Lemma w_abs : forall x a, within a x -> within a (fabs x).
Proof.
  intros x a ((V & N) & H). destruct x as [s|s| |s m e]; try easy; cbn [fabs FloatArith SFabs]; (split; [split; [exact V|exact I]|]).
  cbn [real] in *. eapply Rle_trans; [|exact H]. right. rewrite !Rabs_mult. f_equal. rewrite <- !abs_IZR. f_equal. destruct s; cbn; lia.
Qed.

(** Sizes. *)
Lemma far_bpow : far = bpow radix2 300.
Proof. unfold far. now rewrite bpow_powerRZ. Qed.
Lemma far_1 : 1000000 <= far.
Proof. rewrite far_bpow. apply Rle_trans with (bpow radix2 20); [cbn; lra|apply bpow_le; lia]. Qed.
Lemma far_large : 1000000 * far <= large.
Proof. rewrite far_bpow, large_bpow. apply Rle_trans with (bpow radix2 20 * bpow radix2 300); [apply Rmult_le_compat_r; [apply bpow_ge_0|cbn; lra]|]. rewrite <- bpow_plus. apply bpow_le. lia. Qed.
Lemma far_tiny : far * tiny <= / 1000000 * unit_roundoff.
Proof.
  rewrite far_bpow, tiny_bpow, u_bpow, <- bpow_plus. change (300 + -1000)%Z with (-700)%Z. apply Rle_trans with (bpow radix2 (-100)); [apply bpow_le; lia|].
  change (-100)%Z with ((-48) + (- 53 + 1))%Z. rewrite (bpow_plus radix2 (-48)). rewrite <- Rmult_assoc. apply Rmult_le_compat_r; [apply bpow_ge_0|]. cbn. lra.
Qed.
Definition ratio : R := 4 * far * bpow radix2 100.
Lemma ratio_large : 4 * (ratio * ratio) <= large /\ 1 <= ratio.
Proof.
  unfold ratio. rewrite far_bpow, large_bpow.
  assert (E : 4 * bpow radix2 300 * bpow radix2 100 = bpow radix2 402) by (change 4 with (bpow radix2 2); now rewrite <- !bpow_plus).
  rewrite E. split; [|change 1 with (bpow radix2 0); apply bpow_le; lia]. change 4 with (bpow radix2 2). rewrite <- !bpow_plus. apply bpow_le. lia.
Qed.
Global Opaque far.

(** The limiter. *)
Lemma w_phi : forall r, within ratio r -> within 2 (phi r).
Proof.
  intros r (N & H). destruct ratio_large as (RL & R1). pose proof u_pos. pose proof u_small. pose proof tiny_pos. pose proof tiny_small. pose proof large_large.
  unfold phi. set (a := Rabs (real r)) in *. assert (Ha : 0 <= a) by apply Rabs_pos. set (q := real r * real r).
  assert (Eq : q = a * a) by (unfold q, a; rewrite <- Rabs_mult, Rabs_pos_eq; [reflexivity|apply Rle_0_sqr]). assert (Tw : 2 * a <= q + 1) by (rewrite Eq; pose proof (Rle_0_sqr (a - 1)) as SQ; unfold Rsqr in SQ; lra). assert (Hq : 0 <= q) by (rewrite Eq; now apply Rmult_le_pos).
  assert (aR : a * a <= ratio * ratio) by (apply Rmult_le_compat; lra). assert (RR : ratio <= ratio * ratio) by (rewrite <- (Rmult_1_l ratio) at 1; apply Rmult_le_compat_r; lra).
  assert (uq : unit_roundoff * q <= / 1000000 * q) by (apply Rmult_le_compat_r; lra). assert (0 <= unit_roundoff * q) by (apply Rmult_le_pos; lra).
  assert (S : about (r * r)%F q (unit_roundoff * q + tiny)).
  { destruct (mul_ok r r N N) as (Ns & Es); [fold q; rewrite Rabs_pos_eq; lra|]. fold q in Es. split; [exact Ns|]. rewrite Es. pose proof (rnd_error q) as RE. rewrite (Rabs_pos_eq q) in RE by exact Hq. exact RE. }
  set (s := (r * r)%F) in *. assert (Ss : Rabs (real s) <= q + (unit_roundoff * q + tiny)) by (apply (about_size _ _ _ _ S); rewrite Rabs_pos_eq; lra).
  assert (Num : within (8 / 5 * (q + 1)) (s + r)%F).
  { apply (w_add s r (q + (unit_roundoff * q + tiny)) a); [split; [apply S|exact Ss]|split; [exact N|unfold a; lra]| | |]; lra. }
  assert (L1 : number (fofz 1) /\ real (fofz 1) = 1) by (set (x := fofz 1); vm_compute in x; subst x; split; [split; [reflexivity|exact I]|]; unfold real; change (powerRZ 2 (-52)) with (/ 2 ^ 52); lra).
  destruct L1 as (N1 & E1).
  assert (Den : about (s + fofz 1)%F (q + 1) (3 * (unit_roundoff * (q + 1)) + 3 * tiny)).
  { pose proof (about_self _ N1) as A1. rewrite E1 in A1. eapply about_le; [apply (about_add s _ q 1 _ 0 _ 1 S A1 Ss)|]; [rewrite E1, Rabs_R1; lra|lra|].
    replace (unit_roundoff * (q + (unit_roundoff * q + tiny) + 1)) with (unit_roundoff * (q + 1) + unit_roundoff * (unit_roundoff * q + tiny)) by ring.
    assert (unit_roundoff * (unit_roundoff * q + tiny) <= / 1000000 * (unit_roundoff * q + tiny)) by (apply Rmult_le_compat_r; lra). lra. }
  destruct Den as (Nd & Hd).
  assert (D : 99 / 100 * (q + 1) <= real (s + fofz 1)%F).
  { assert (unit_roundoff * (q + 1) <= / 1000000 * (q + 1)) by (apply Rmult_le_compat_r; lra).
    pose proof (Rle_abs (- (real (s + fofz 1)%F - (q + 1)))) as RA. rewrite Rabs_Ropp in RA. lra. }
  apply (w_div _ _ (8 / 5 * (q + 1)) (99 / 100 * (q + 1)) 2 Num Nd); [lra|rewrite Rabs_pos_eq; lra| |lra|lra].
  replace (8 / 5 * (q + 1) / (99 / 100 * (q + 1))) with (160 / 99) by (field; lra). lra.
Qed.

Lemma lit_half : within (1 / 2) (fdec 5 (-1)).
Proof. set (x := fdec 5 (-1)). vm_compute in x. subst x. split; [split; [reflexivity|exact I]|]. unfold real. change (powerRZ 2 (-53)) with (/ 2 ^ 53). rewrite Rabs_pos_eq; lra. Qed.
Lemma lit_mhalf : within (1 / 2) (fdec (-5) (-1)).
Proof. set (x := fdec (-5) (-1)). vm_compute in x. subst x. split; [split; [reflexivity|exact I]|]. unfold real. change (powerRZ 2 (-53)) with (/ 2 ^ 53). change (IZR (- Z.pos 4503599627370496)) with (- IZR 4503599627370496). rewrite <- Rabs_Ropp, Rabs_pos_eq; lra. Qed.

Section Values.
Variable B : R.
Hypothesis HB : 1 <= B <= far.

Lemma w_ratio : forall d e, within (3 * B) d -> within (3 * B) e -> real (e + fdec 1 (-12))%F <> 0 -> within ratio (d / (e + fdec 1 (-12)))%F.
Proof.
  intros d e Hd He H0. pose proof far_large. pose proof far_1. destruct ratio_large as (RL & R1). pose proof (bpow_gt_0 radix2 100) as P.
  assert (Ne : within (4 * B) (e + fdec 1 (-12))%F).
  { apply (w_add _ _ (3 * B) (1 / 2) _ He); try lra. rewrite eps_is. split; [split; [reflexivity|exact I]|]. unfold real. change (powerRZ 2 (-92)) with (/ 2 ^ 92). rewrite Rabs_pos_eq; lra. }
  pose proof (gap e (proj1 He) ltac:(destruct He; lra) H0) as G.
  apply (w_div _ _ (3 * B) (bpow radix2 (-100)) ratio Hd (proj1 Ne)); [apply bpow_gt_0|exact G| |exact R1|].
  - unfold Rdiv. rewrite <- bpow_opp. change (- -100)%Z with 100%Z. unfold ratio. rewrite <- Rmult_assoc. apply Rmult_le_compat_r; lra.
  - assert (ratio <= ratio * ratio) by (rewrite <- (Rmult_1_l ratio) at 1; apply Rmult_le_compat_r; lra). lra.
Qed.

Lemma w_left : forall a b c, within B a -> within B b -> within B c -> real (b - a + fdec 1 (-12))%F <> 0 -> within (4 * B) (left_value a b c).
Proof.
  intros a b c Ha Hb Hc H0. pose proof far_large. unfold left_value.
  assert (D1 : within (3 * B) (b - a)%F) by (apply (w_sub _ _ B B _ Hb Ha); lra). assert (D2 : within (3 * B) (c - b)%F) by (apply (w_sub _ _ B B _ Hc Hb); lra).
  pose proof (w_phi _ (w_ratio _ _ D2 D1 H0)) as W. set (p := phi _) in *.
  assert (D1' : within (9 / 4 * B) (b - a)%F) by (apply (w_sub _ _ B B _ Hb Ha); lra).
  assert (W2 : within (11 / 10) (fdec 5 (-1) * p)%F) by (apply (w_mul _ _ _ _ _ lit_half W); lra).
  assert (W3 : within (11 / 4 * B) (fdec 5 (-1) * p * (b - a))%F) by (apply (w_mul _ _ _ _ _ W2 D1'); lra).
  apply (w_add _ _ _ _ _ Hb W3); lra.
Qed.
Lemma w_right : forall b c d, within B b -> within B c -> within B d -> real (d - c + fdec 1 (-12))%F <> 0 -> within (4 * B) (right_value b c d).
Proof.
  intros b c d Hb Hc Hd H0. pose proof far_large. unfold right_value.
  assert (D1 : within (3 * B) (d - c)%F) by (apply (w_sub _ _ B B _ Hd Hc); lra). assert (D2 : within (3 * B) (c - b)%F) by (apply (w_sub _ _ B B _ Hc Hb); lra).
  pose proof (w_phi _ (w_ratio _ _ D2 D1 H0)) as W. set (p := phi _) in *.
  assert (D1' : within (9 / 4 * B) (c - d)%F) by (apply (w_sub _ _ B B _ Hc Hd); lra).
  assert (W2 : within (11 / 10) (fdec 5 (-1) * p)%F) by (apply (w_mul _ _ _ _ _ lit_half W); lra).
  assert (W3 : within (11 / 4 * B) (fdec 5 (-1) * p * (c - d))%F) by (apply (w_mul _ _ _ _ _ W2 D1'); lra).
  apply (w_add _ _ _ _ _ Hc W3); lra.
Qed.
End Values.

(** ** fluxes *)
Section Fluxes.
Variables (B C : R) (c : spec_float).
Hypothesis HB : 1 <= B.
Hypothesis HC : 1 <= C.
Hypothesis Hc : within C c.
Hypothesis HL : 1000 * (C * C * B) <= large.

Lemma CC : C <= C * C.
Proof. rewrite <- (Rmult_1_l C) at 1. apply Rmult_le_compat_r; lra. Qed.
Lemma CCB : C * C <= C * C * B /\ B <= C * C * B.
Proof. pose proof CC. split; [rewrite <- (Rmult_1_r (C * C)) at 1; apply Rmult_le_compat_l; lra|rewrite <- (Rmult_1_l B) at 1; apply Rmult_le_compat_r; lra]. Qed.

Lemma w_comp : forall p q a b a' b', within (C * C) p -> within (C * C) q -> within (4 * B) a -> within (4 * B) b -> within (4 * B) a' -> within (4 * B) b' ->
  within (17 * (C * C * B)) (p * (a + b) + q * (a' - b'))%F.
Proof.
  intros p q a b a' b' Hp Hq Ha Hb Ha' Hb'. pose proof CC. destruct CCB as (C1 & C2).
  assert (S1 : within (801 / 100 * B) (a + b)%F) by (apply (w_add _ _ _ _ _ Ha Hb); lra). assert (S2 : within (801 / 100 * B) (a' - b')%F) by (apply (w_sub _ _ _ _ _ Ha' Hb'); lra).
  assert (M1 : within (81 / 10 * (C * C * B)) (p * (a + b))%F) by (apply (w_mul _ _ _ _ _ Hp S1); lra).
  assert (M2 : within (81 / 10 * (C * C * B)) (q * (a' - b'))%F) by (apply (w_mul _ _ _ _ _ Hq S2); lra).
  apply (w_add _ _ _ _ _ M1 M2); lra.
Qed.
Lemma w_zero : within (17 * (C * C * B)) (fofz 0).
Proof. destruct lit_0 as (N & E). change (fofz 0) with (@f0 spec_float FloatArith). split; [exact N|]. rewrite E, Rabs_R0. destruct CCB. pose proof CC. lra. Qed.

Lemma w_flux : forall d ql qr j, List.length ql = 6%nat -> List.length qr = 6%nat -> Forall (within (4 * B)) ql -> Forall (within (4 * B)) qr ->
  within (17 * (C * C * B)) (nth j (flux_of (maxwell_flux c) d ql qr) f0).
Proof.
  intros d ql qr j Ll Lr Fl Fr.
  destruct ql as [|l0 [|l1 [|l2 [|l3 [|l4 [|l5 [|]]]]]]]; try discriminate Ll. destruct qr as [|r0 [|r1 [|r2 [|r3 [|r4 [|r5 [|]]]]]]]; try discriminate Lr. clear Ll Lr.
  repeat match goal with H : Forall _ (_ :: _) |- _ => inversion H; clear H; subst end. pose proof CC. destruct CCB as (C1 & C2).
  assert (Hc2 : within (1001 / 1000 * (C * C)) (c * c)%F) by (apply (w_mul _ _ _ _ _ Hc Hc); lra).
  assert (Hef : within (C * C) (fdec 5 (-1) * (c * c))%F) by (apply (w_mul _ _ _ _ _ lit_half Hc2); lra).
  assert (Hed : within (C * C) (fdec (-5) (-1) * fabs c)%F) by (apply (w_mul _ _ _ _ _ lit_mhalf (w_abs _ _ Hc)); lra).
  assert (Hbf : within (C * C) (fdec 5 (-1))) by (eapply within_le; [apply lit_half|lra]).
  pose proof w_zero as W0. assert (W0' : within (17 * (C * C * B)) f0) by exact W0.
  pose proof (w_neg _ _ Hef) as Hnef. pose proof (w_neg _ _ Hbf) as Hnbf.
  unfold flux_of, maxwell_flux. destruct (Z.of_nat d =? 0)%Z; [|destruct (Z.of_nat d =? 1)%Z]; do 6 (destruct j as [|j]; cbn [nth]; [first [exact W0|apply w_comp; assumption]|]); destruct j; exact W0'.
Qed.
End Fluxes.

(** ** the right-hand side *)
Section Rhs.
Variables (c : spec_float) (M P : box) (dx : nat -> spec_float) (ds : list nat) (B C X : R) (v : field spec_float).
Hypothesis HB : 1 <= B <= far.
Hypothesis HC : 1 <= C.
Hypothesis HX : 1 <= X.
Hypothesis Hc : within C c.
Hypothesis HL : 200 * (C * C * X * B) <= far.
Hypothesis Hdx : forall d, In d ds -> number (dx d) /\ / X <= Rabs (real (dx d)).
Hypothesis Hds : forall d, In d ds -> (d < List.length M)%nat /\ (2 <= hi M d - lo M d)%Z.
Hypothesis Hv : forall x j, in_box (M ++ P) x -> (0 <= j < 6)%Z -> within B (v (x ++ [j])).
Hypothesis Hz : no_zero_divisor M (M ++ P) ds 6 v.
Let S : R := C * C * X * B.

Lemma S_facts : C * C * B <= S /\ 1 <= S /\ B <= S /\ C * C <= S.
Proof.
  pose proof (CC C HC). destruct (CCB B C ltac:(lra) HC) as (C1 & C2). assert (E : C * C * B <= S).
  { unfold S. replace (C * C * X * B) with (C * C * B * X) by ring. rewrite <- (Rmult_1_r (C * C * B)) at 1. apply Rmult_le_compat_l; lra. }
  repeat split; lra.
Qed.

Lemma w_seen : forall d x t j, In d ds -> in_box (M ++ P) x -> (-2 <= t <= 2)%Z -> (0 <= j < 6)%Z -> within B (seen Periodic M d v (move d t x ++ [j])).
Proof.
  intros d x t j Hd Hx Ht Hj. destruct (Hds d Hd) as (Ld & Hw). rewrite seen_periodic; auto.
  - apply Hv; [apply around_in_box; [exact Ld|lia|exact Hx]|exact Hj].
  - apply Forall2_length in Hx. rewrite app_length in Hx. lia.
  - now apply (in_box_inside M P x Hx).
Qed.

Lemma w_wall : forall d x j s, In d ds -> in_box (M ++ P) x -> (s = 0 \/ s = 1)%Z -> within (17 * (C * C * B)) (wall 6 (flux_of (maxwell_flux c)) (seen Periodic M d v) d (move d s x) j).
Proof.
  intros d x j s Hd Hx Hs. destruct (Hds d Hd) as (Ld & Hw). assert (Lx : (d < List.length x)%nat) by (apply Forall2_length in Hx; rewrite app_length in Hx; lia).
  destruct S_facts as (S1 & S2 & S3 & S4). pose proof far_large.
  unfold wall. apply (w_flux B C c); auto; try lra; try (unfold left_state, right_state; rewrite map_length, zrange_length; reflexivity).
  - fold S in HL. lra.
  - unfold left_state. apply Forall_forall. intros y Hy. apply in_map_iff in Hy as (i & <- & Hi). apply in_zrange in Hi. rewrite !move_move by exact Lx.
    apply w_left; try (apply w_seen; auto; lia); [exact HB|]. replace (s + -2)%Z with (s + -1 - 1)%Z by lia. apply Hz; auto; lia.
  - unfold right_state. apply Forall_forall. intros y Hy. apply in_map_iff in Hy as (i & <- & Hi). apply in_zrange in Hi. rewrite !move_move by exact Lx.
    apply w_right; try (apply w_seen; auto; lia); [exact HB|]. replace s with (s + 1 - 1)%Z at 2 by lia. apply Hz; auto; lia.
Qed.

Lemma w_flow : forall d x j s, In d ds -> in_box (M ++ P) x -> (s = 0 \/ s = 1)%Z -> within (171 / 10 * S) (wall 6 (flux_of (maxwell_flux c)) (seen Periodic M d v) d (move d s x) j / dx d)%F.
Proof.
  intros d x j s Hd Hx Hs. destruct (Hdx d Hd) as (N & L). destruct S_facts as (S1 & S2 & S3 & S4). pose proof far_large. fold S in HL.
  apply (w_div _ _ _ (/ X) _ (w_wall d x j s Hd Hx Hs) N); [apply Rinv_0_lt_compat; lra|exact L| |lra|lra].
  unfold Rdiv. rewrite Rinv_inv. replace (17 * (C * C * B) * X) with (17 * S) by (unfold S; ring). lra.
Qed.

Lemma w_fold : forall x j l r k, in_box (M ++ P) x -> (forall d, In d l -> In d ds) -> 0 <= k -> k + 102 / 100 * (2 * INR (List.length l)) <= 7 -> within (k * (171 / 10 * S)) (r x j) ->
  within ((k + 102 / 100 * (2 * INR (List.length l))) * (171 / 10 * S)) (fold_left (with_fluxes (fun d => wall 6 (flux_of (maxwell_flux c)) (seen Periodic M d v) d) dx) l r x j).
Proof.
  intros x j. induction l as [|d l IH]; intros r k Hx Hl Hk H7 Hr.
  - cbn [fold_left List.length INR]. eapply within_le; [exact Hr|]. right. ring.
  - cbn [fold_left]. cbn [List.length] in H7 |- *. rewrite S_INR in *. set (i := INR (List.length l)) in *. assert (0 <= i) by apply pos_INR.
    destruct S_facts as (S1 & S2 & S3 & S4). pose proof far_large. fold S in HL. set (q := 171 / 10 * S) in *. assert (Hq : 17 <= q) by (unfold q; lra). assert (Hq' : 10 * q <= far) by (unfold q; lra).
    assert (kq : forall z, z <= 7 -> z * q <= 7 * q) by (intros z Hz'; apply Rmult_le_compat_r; lra). assert (kq0 : forall z, 0 <= z -> 0 <= z * q) by (intros z Hz'; apply Rmult_le_pos; lra).
    assert (Hd : In d ds) by (apply Hl; now left). assert (Hd' := w_flow d x j 0 Hd Hx ltac:(now left)). assert (Hd'' := w_flow d x j 1 Hd Hx ltac:(now right)).
    fold q in Hd', Hd''. rewrite move_0 in Hd' by (destruct (Hds d Hd); apply Forall2_length in Hx; rewrite app_length in Hx; lia).
    assert (A1 : within ((k + 101 / 100) * q) (r x j + wall 6 (flux_of (maxwell_flux c)) (seen Periodic M d v) d x j / dx d)%F).
    { pose proof (kq k ltac:(lra)). pose proof (kq0 k Hk). apply (w_add _ _ _ _ _ Hr Hd'); lra. }
    assert (A2 : within ((k + 204 / 100) * q) (with_fluxes (fun d => wall 6 (flux_of (maxwell_flux c)) (seen Periodic M d v) d) dx r d x j)).
    { pose proof (kq k ltac:(lra)). pose proof (kq0 k Hk). unfold with_fluxes. apply (w_sub _ _ _ _ _ A1 Hd''); lra. }
    eapply within_le; [apply (IH _ (k + 204 / 100) Hx)|]; [intros d' Hd1; apply Hl; now right|lra|lra|exact A2|]. right. fold i. field.
Qed.

Lemma w_rhs : forall x j, in_box (M ++ P) x -> (List.length ds <= 3)%nat -> within (105 * S) (fv_rhs 6 (flux_of (maxwell_flux c)) M (fun _ => Periodic) dx ds v (x ++ [j])).
Proof.
  intros x j Hx H3. unfold fv_rhs, cellwise. rewrite removelast_last, last_last. apply le_INR in H3. cbn in H3. destruct S_facts as (S1 & S2 & S3 & S4). pose proof (pos_INR (List.length ds)).
  eapply within_le; [apply (w_fold x j ds (fun _ _ => f0) 0 Hx (fun d H => H))|]; [lra|lra| |].
  - destruct lit_0 as (N & E). split; [exact N|]. rewrite E, Rabs_R0. lra.
  - assert (INR (List.length ds) * S <= 3 * S) by (apply Rmult_le_compat_r; lra). lra.
Qed.
End Rhs.

(** ** a step *)
Lemma p_add : forall x y a b, within a x -> within b y -> a + b <= large -> within (a + b + (u * (a + b) + h)) (x + y)%F.
Proof.
  intros x y a b (Nx & Hx) (Ny & Hy) L. apply (about_within _ _ _ (a + b) _ (about_add x y _ _ 0 0 a b (about_self _ Nx) (about_self _ Ny) Hx Hy L)); [eapply Rle_trans; [apply Rabs_triang|]; lra|lra].
Qed.
Lemma p_mul : forall x y a b, within a x -> within b y -> a * b <= large -> within (a * b + (u * (a * b) + h)) (x * y)%F.
Proof.
  intros x y a b (Nx & Hx) (Ny & Hy) L. apply (about_within _ _ _ (a * b) _ (about_mul x y _ _ 0 0 a b (about_self _ Nx) (about_self _ Ny) Hx Hx Hy L)); [rewrite Rabs_mult; apply Rmult_le_compat; auto using Rabs_pos|lra].
Qed.
Lemma p_third : forall x a, within a x -> a <= large -> within (a / 3 + (u * (a / 3) + h)) (x / fofz 3)%F.
Proof.
  intros x a W L. pose proof (w_nonneg _ _ W). destruct W as (N & H0). destruct lit_3 as (N3 & E3). assert (E3' : Rabs (real (fofz 3)) = 3) by (rewrite E3; apply Rabs_pos_eq; lra).
  pose proof (about_div x (fofz 3) _ 0 a (about_self _ N) N3 ltac:(rewrite E3; lra) H0) as A. rewrite E3', E3 in A. specialize (A ltac:(lra)).
  apply (about_within _ _ _ (a / 3) _ A); [|lra]. unfold Rdiv. rewrite Rabs_mult, Rabs_inv, (Rabs_pos_eq 3) by lra. apply Rmult_le_compat_r; lra.
Qed.

Section Stage.
Variables (dt : spec_float) (C X T B : R).
Hypothesis HC : 1 <= C.
Hypothesis HX : 1 <= X.
Hypothesis HT : within T dt.
Let lam : R := 110 * (C * C) * X * T.
Definition stage_1 : R := B * (1 + lam) * (1 + 4 * u).
Definition stage_2 : R := stage_1 * (1 + lam) * (1 + 16 * u).
Definition stage_3 : R := stage_2 * (1 + lam) * (1 + 10 * u).
Hypothesis HB : 1 <= B.
Hypothesis HL : 200 * (C * C * X * (1 + T)) * stage_3 <= far.

Ltac small z := assert (0 <= u * z) by (apply Rmult_le_pos; lra); assert (u * z <= / 1000000 * z) by (apply Rmult_le_compat_r; lra).

Lemma stage_facts : 0 <= T /\ 0 <= lam /\ 1 <= C * C * X /\ B <= stage_1 /\ stage_1 <= stage_2 /\ stage_2 <= stage_3 /\ lam * B <= stage_1 /\ lam * stage_1 <= stage_2 /\ lam * stage_2 <= stage_3 /\
  200 * (C * C * X) * stage_3 <= far /\ 200 * stage_3 <= far.
Proof.
  pose proof (CC C HC). pose proof (w_nonneg _ _ HT). pose proof u_pos. assert (CX : 1 <= C * C * X) by (rewrite <- (Rmult_1_l 1); apply Rmult_le_compat; lra).
  assert (Lm : 0 <= lam) by (unfold lam; replace (110 * (C * C) * X * T) with (110 * ((C * C * X) * T)) by ring; apply Rmult_le_pos; [lra|]; apply Rmult_le_pos; lra).
  assert (G : forall b k, 1 <= b -> 0 <= k -> b + lam * b <= b * (1 + lam) * (1 + k * u)).
  { intros b k Hb Hk. replace (b * (1 + lam) * (1 + k * u)) with (b + lam * b + b * (1 + lam) * (k * u)) by ring. assert (0 <= b * (1 + lam) * (k * u)) by (repeat apply Rmult_le_pos; lra). lra. }
  assert (P : forall b, 0 <= b -> 0 <= lam * b) by (intros; now apply Rmult_le_pos).
  pose proof (G B 4 HB ltac:(lra)) as G1. fold stage_1 in G1. pose proof (P B ltac:(lra)). pose proof (G stage_1 16 ltac:(lra) ltac:(lra)) as G2. fold stage_2 in G2. pose proof (P stage_1 ltac:(lra)).
  pose proof (G stage_2 10 ltac:(lra) ltac:(lra)) as G3. fold stage_3 in G3. pose proof (P stage_2 ltac:(lra)).
  assert (0 <= C * C * X * T) by (apply Rmult_le_pos; lra). assert (T1 : C * C * X * stage_3 <= C * C * X * (1 + T) * stage_3) by (apply Rmult_le_compat_r; lra).
  assert (T2 : 1 * stage_3 <= C * C * X * stage_3) by (apply Rmult_le_compat_r; lra). repeat split; lra.
Qed.

Lemma w_move : forall r b, 1 <= b <= stage_2 -> within (105 * (C * C * X * b)) r -> within (lam * b + h) (dt * r)%F.
Proof.
  intros r b Hb Hr. destruct stage_facts as (F1 & F2 & F3 & F4 & F5 & F6 & F7 & F8 & F9 & F10 & F11). pose proof far_large. pose proof u_pos. pose proof u_small. pose proof tiny_pos.
  assert (E : T * (105 * (C * C * X * b)) = 21 / 22 * (lam * b)) by (unfold lam; field). assert (0 <= lam * b) by (apply Rmult_le_pos; lra). assert (lam * b <= lam * stage_2) by (apply Rmult_le_compat_l; lra).
  eapply within_le; [apply (p_mul _ _ _ _ HT Hr)|]; rewrite E; [lra|]. small (21 / 22 * (lam * b)). lra.
Qed.

Lemma w_step : forall x r1 r2 r3, within B x -> within (105 * (C * C * X * B)) r1 -> within (105 * (C * C * X * stage_1)) r2 -> within (105 * (C * C * X * stage_2)) r3 ->
  let x1 := (x + dt * r1)%F in let x2 := (fdec 75 (-2) * x + fdec 25 (-2) * x1 + fdec 25 (-2) * dt * r2)%F in
  within stage_1 x1 /\ within stage_2 x2 /\ within stage_3 ((x + fofz 2 * (x2 + dt * r3)) / fofz 3)%F.
Proof.
  intros x r1 r2 r3 Hx H1 H2 H3 x1 x2. destruct stage_facts as (F1 & F2 & F3 & F4 & F5 & F6 & F7 & F8 & F9 & F10 & F11).
  pose proof far_large. pose proof far_1. pose proof u_pos. pose proof u_small. pose proof tiny_pos. pose proof tiny_small. pose proof far_tiny as FT.
  assert (hu : h <= / 1000000 * u) by (assert (1 * h <= far * h) by (apply Rmult_le_compat_r; lra); lra).
  destruct lit_2 as (L2 & E2). destruct lit_75 as (L75 & E75). destruct lit_25 as (L25 & E25).
  assert (W75 : within (3 / 4) (fdec 75 (-2))) by (split; [exact L75|]; rewrite E75, Rabs_pos_eq; lra). assert (W25 : within (1 / 4) (fdec 25 (-2))) by (split; [exact L25|]; rewrite E25, Rabs_pos_eq; lra).
  assert (W2 : within 2 (fofz 2)) by (split; [exact L2|]; rewrite E2, Rabs_pos_eq; lra).
  assert (L0 : forall b, 1 <= b -> 0 <= lam * b) by (intros; apply Rmult_le_pos; lra). pose proof (L0 B HB). pose proof (L0 stage_1 ltac:(lra)). pose proof (L0 stage_2 ltac:(lra)).
  assert (S1 : within stage_1 x1).
  { eapply within_le; [apply (p_add _ _ _ _ Hx (w_move r1 B ltac:(lra) H1))|]; [lra|]. unfold stage_1. replace (B * (1 + lam) * (1 + 4 * u)) with ((B + lam * B) + 4 * (u * (B + lam * B))) by ring.
    small (B + lam * B). small h. assert (u * B >= u) by (rewrite <- (Rmult_1_r u) at 2; apply Rle_ge, Rmult_le_compat_l; lra). assert (0 <= u * (lam * B)) by (apply Rmult_le_pos; lra). lra. }
  assert (S2 : within stage_2 x2).
  { assert (A1 : within (3 / 4 * B + (u * (3 / 4 * B) + h)) (fdec 75 (-2) * x)%F) by (apply p_mul; auto; lra).
    assert (A2 : within (1 / 4 * stage_1 + (u * (1 / 4 * stage_1) + h)) (fdec 25 (-2) * x1)%F) by (apply p_mul; auto; lra).
    small stage_1. assert (uB : u * B <= u * stage_1) by (apply Rmult_le_compat_l; lra). assert (uu : u * 1 <= u * stage_1) by (apply Rmult_le_compat_l; lra).
    assert (A3 : within (stage_1 + 3 * (u * stage_1)) (fdec 75 (-2) * x + fdec 25 (-2) * x1)%F).
    { assert (A1' : within (3 / 4 * stage_1 + (u * stage_1)) (fdec 75 (-2) * x)%F) by (eapply within_le; [exact A1|lra]). assert (A2' : within (1 / 4 * stage_1 + u * stage_1 / 2) (fdec 25 (-2) * x1)%F) by (eapply within_le; [exact A2|lra]).
      eapply within_le; [apply (p_add _ _ _ _ A1' A2')|]; [lra|]. assert (u * (u * stage_1) <= / 1000000 * (u * stage_1)) by (apply Rmult_le_compat_r; lra). lra. }
    assert (A4 : within (1 / 4 * (lam * stage_1) + u) (fdec 25 (-2) * dt * r2)%F).
    { set (K := 105 * (C * C * X * stage_1)) in *. assert (FX : C * C * X * stage_1 <= C * C * X * stage_3) by (apply Rmult_le_compat_l; lra). assert (K0 : 0 <= K) by apply (w_nonneg _ _ H2). assert (KF : K <= far) by (unfold K; lra).
      assert (TKE : T * K = 21 / 22 * (lam * stage_1)) by (unfold K, lam; field).
      assert (D : within (1 / 4 * T + (u * (1 / 4 * T) + h)) (fdec 25 (-2) * dt)%F).
      { apply p_mul; auto. pose proof stage_facts. assert (T * 1 <= T * (C * C * X * stage_3)) by (apply Rmult_le_compat_l; [lra|]; rewrite <- (Rmult_1_l 1); apply Rmult_le_compat; lra).
        replace (200 * (C * C * X * (1 + T)) * stage_3) with (200 * (C * C * X) * stage_3 + 200 * (T * (C * C * X * stage_3))) in HL by ring. assert (0 <= C * C * X * stage_3) by (apply Rmult_le_pos; lra). lra. }
      assert (hK : h * K <= far * h) by (rewrite Rmult_comm; apply Rmult_le_compat_r; lra). assert (0 <= h * K) by (apply Rmult_le_pos; lra).
      small (lam * stage_1).
      assert (PE : (1 / 4 * T + (u * (1 / 4 * T) + h)) * K = 1 / 4 * (T * K) + u * (1 / 4 * (T * K)) + h * K) by ring.
      assert (U1 : u * (1 / 4 * (T * K)) = 21 / 88 * (u * (lam * stage_1))) by (rewrite TKE; field).
      eapply within_le; [apply (p_mul _ _ _ _ D H2)|]; rewrite PE, U1, TKE; [lra|].
      replace (u * (1 / 4 * (21 / 22 * (lam * stage_1)) + 21 / 88 * (u * (lam * stage_1)) + h * K)) with (21 / 88 * (u * (lam * stage_1)) + 21 / 88 * (u * (u * (lam * stage_1))) + u * (h * K)) by field.
      assert (u * (u * (lam * stage_1)) <= / 1000000 * (u * (lam * stage_1))) by (apply Rmult_le_compat_r; lra). assert (u * (h * K) <= / 1000000 * (h * K)) by (apply Rmult_le_compat_r; lra). lra. }
    eapply within_le; [apply (p_add _ _ _ _ A3 A4)|]; [lra|]. unfold stage_2. replace (stage_1 * (1 + lam) * (1 + 16 * u)) with ((stage_1 + lam * stage_1) + 16 * (u * stage_1) + 16 * (u * (lam * stage_1))) by ring.
    small (lam * stage_1). assert (u * (u * stage_1) <= / 1000000 * (u * stage_1)) by (apply Rmult_le_compat_r; lra). assert (u * u <= / 1000000 * u) by (apply Rmult_le_compat_r; lra).
    replace (u * (stage_1 + 3 * (u * stage_1) + (1 / 4 * (lam * stage_1) + u))) with (u * stage_1 + 3 * (u * (u * stage_1)) + 1 / 4 * (u * (lam * stage_1)) + u * u) by ring. lra. }
  split; [exact S1|]. split; [exact S2|].
  set (Y := stage_2 + lam * stage_2). assert (Y1 : stage_2 <= Y) by (unfold Y; lra). small Y. assert (uY : u * 1 <= u * Y) by (apply Rmult_le_compat_l; lra). assert (uuY : u * (u * Y) <= / 1000000 * (u * Y)) by (apply Rmult_le_compat_r; lra).
  assert (E3 : stage_3 = Y + 10 * (u * Y)) by (unfold stage_3, Y; ring).
  assert (B1 : within (Y + 2 * (u * Y)) (x2 + dt * r3)%F).
  { eapply within_le; [apply (p_add _ _ _ _ S2 (w_move r3 stage_2 ltac:(lra) H3))|]; [lra|]. replace (u * (stage_2 + (lam * stage_2 + h))) with (u * Y + u * h) by (unfold Y; ring). small h. unfold Y in *. lra. }
  assert (B2 : within (2 * Y + 7 * (u * Y)) (fofz 2 * (x2 + dt * r3))%F).
  { eapply within_le; [apply (p_mul _ _ _ _ W2 B1)|]; [lra|]. replace (u * (2 * (Y + 2 * (u * Y)))) with (2 * (u * Y) + 4 * (u * (u * Y))) by ring. lra. }
  assert (B3 : within (3 * Y + 11 * (u * Y)) (x + fofz 2 * (x2 + dt * r3))%F).
  { eapply within_le; [apply (p_add _ _ _ _ Hx B2)|]; [lra|]. assert (u * B <= u * Y) by (apply Rmult_le_compat_l; lra). replace (u * (B + (2 * Y + 7 * (u * Y)))) with (u * B + 2 * (u * Y) + 7 * (u * (u * Y))) by ring. lra. }
  eapply within_le; [apply (p_third _ _ B3)|]; [lra|]. rewrite E3. replace (u * ((3 * Y + 11 * (u * Y)) / 3)) with (u * Y + 11 / 3 * (u * (u * Y))) by field. lra.
Qed.

Lemma stage_total : stage_3 <= B * step_growth C X T.
Proof.
  destruct stage_facts as (F1 & F2 & F3 & F4 & F5 & F6 & F7 & F8 & F9 & F10 & F11). pose proof u_pos. pose proof u_small.
  unfold stage_3, stage_2, stage_1, step_growth. fold lam. set (p := 1 + lam). assert (Hp : 0 <= p) by (unfold p; lra). assert (HBp : 0 <= B * p ^ 3) by (apply Rmult_le_pos; [lra|]; now apply pow_le).
  replace (B * p * (1 + 4 * u) * p * (1 + 16 * u) * p * (1 + 10 * u)) with (B * p ^ 3 * ((1 + 4 * u) * (1 + 16 * u) * (1 + 10 * u))) by ring.
  replace (B * ((1 + 64 * u) * p ^ 3)) with (B * p ^ 3 * (1 + 64 * u)) by ring. apply Rmult_le_compat_l; [exact HBp|].
  assert (U2 : u * u <= / 1000000 * u) by (apply Rmult_le_compat_r; lra). assert (U3 : u * (u * u) <= / 1000000 * (u * u)) by (apply Rmult_le_compat_r; [apply Rmult_le_pos|]; lra). lra.
Qed.
End Stage.

(** ** a run *)
Section FiniteRun.
Variables (c dt : spec_float) (M P : box) (dx : nat -> spec_float) (ds : list nat) (C X T : R).
Hypothesis HC : 1 <= C.
Hypothesis HX : 1 <= X.
Hypothesis HT : within T dt.
Hypothesis Hc : within C c.
Hypothesis H3 : (List.length ds <= 3)%nat.
Hypothesis Hdx : forall d, In d ds -> number (dx d) /\ / X <= Rabs (real (dx d)).
Hypothesis Hds : forall d, In d ds -> (d < List.length M)%nat /\ (2 <= hi M d - lo M d)%Z.
Let Op : @sys spec_float -> @sys spec_float := fun V _ => fv_rhs 6 (flux_of (maxwell_flux c)) M (fun _ => Periodic) dx ds (V 0%nat).
Let g := step_growth C X T.
Definition sized (b : R) (v : field spec_float) : Prop := forall x j, in_box (M ++ P) x -> (0 <= j < 6)%Z -> within b (v (x ++ [j])).

Lemma growth_1 : 1 <= g.
Proof.
  unfold g, step_growth. pose proof u_pos. pose proof (w_nonneg _ _ HT). pose proof (CC C HC).
  assert (0 <= 110 * (C * C) * X * T) by (apply Rmult_le_pos; [|lra]; apply Rmult_le_pos; lra).
  rewrite <- (Rmult_1_l 1). apply Rmult_le_compat; [lra|lra|lra|]. apply pow_R1_Rle. lra.
Qed.

Lemma finite_step : forall U b, 1 <= b -> 200 * (C * C * X * (1 + T)) * (b * g) <= far -> sized b (U 0%nat) -> (forall V, In V (stages Op dt U) -> no_zero_divisor M (M ++ P) ds 6 (V 0%nat)) ->
  sized (b * g) (rk3 Op dt U 0%nat) /\ forall V, In V (stages Op dt U) -> moderate 6 (flux_of (maxwell_flux c)) M (M ++ P) dx ds (b * g) (18 * (C * C * X * (b * g))) (V 0%nat).
Proof.
  intros U b Hb HL HU HZ. unfold stages in *. cbn zeta in *. pose proof u_pos. pose proof u_small. pose proof (w_nonneg _ _ HT) as T0. pose proof (CC C HC).
  set (U1 := fun i c => (U i c + dt * Op U i c)%F) in *. set (U2 := fun i c => (fdec 75 (-2) * U i c + fdec 25 (-2) * U1 i c + fdec 25 (-2) * dt * Op U1 i c)%F) in *.
  assert (CX : 1 <= C * C * X) by (rewrite <- (Rmult_1_l 1); apply Rmult_le_compat; lra).
  assert (S3 : stage_3 C X T b <= b * g).
  { unfold stage_3, stage_2, stage_1, g, step_growth. set (lam := 110 * (C * C) * X * T). assert (0 <= lam) by (unfold lam; apply Rmult_le_pos; [|lra]; apply Rmult_le_pos; lra). set (p := 1 + lam).
    assert (Hp : 0 <= p) by (unfold p; lra). assert (HBp : 0 <= b * p ^ 3) by (apply Rmult_le_pos; [lra|]; now apply pow_le).
    replace (b * p * (1 + 4 * u) * p * (1 + 16 * u) * p * (1 + 10 * u)) with (b * p ^ 3 * ((1 + 4 * u) * (1 + 16 * u) * (1 + 10 * u))) by ring.
    replace (b * ((1 + 64 * u) * p ^ 3)) with (b * p ^ 3 * (1 + 64 * u)) by ring. apply Rmult_le_compat_l; [exact HBp|].
    assert (V2 : u * u <= / 1000000 * u) by (apply Rmult_le_compat_r; lra). assert (V3 : u * (u * u) <= / 1000000 * (u * u)) by (apply Rmult_le_compat_r; [apply Rmult_le_pos|]; lra). lra. }
  assert (CT : 0 <= C * C * X * (1 + T)) by (apply Rmult_le_pos; lra).
  assert (HL3 : 200 * (C * C * X * (1 + T)) * stage_3 C X T b <= far) by (eapply Rle_trans; [apply Rmult_le_compat_l; [lra|exact S3]|exact HL]).
  destruct (stage_facts dt C X T b HC HX HT Hb HL3) as (F1 & F2 & F3 & F4 & F5 & F6 & F7 & F8 & F9 & F10 & F11).
  set (b1 := stage_1 C X T b) in *. set (b2 := stage_2 C X T b) in *. set (b3 := stage_3 C X T b) in *.
  assert (RH : forall V d, 1 <= d <= b3 -> sized d (V 0%nat) -> In V [U; U1; U2] -> forall x j, in_box (M ++ P) x -> within (105 * (C * C * X * d)) (Op V 0%nat (x ++ [j]))).
  { intros V d Hd HV Hin x j Hx. assert (C * C * X * d <= C * C * X * b3) by (apply Rmult_le_compat_l; lra). apply (w_rhs c M P dx ds d C X (V 0%nat)); auto; try lra. }
  assert (ST : forall x j, in_box (M ++ P) x -> (0 <= j < 6)%Z -> forall y2 y3, within (105 * (C * C * X * b1)) y2 -> within (105 * (C * C * X * b2)) y3 -> _)
    by (intros x j Hx Hj y2 y3 Y2 Y3; exact (w_step dt C X T b HC HX HT Hb HL3 (U 0%nat (x ++ [j])) (Op U 0%nat (x ++ [j])) y2 y3 (HU x j Hx Hj) (RH U b ltac:(lra) HU ltac:(now left) x j Hx) Y2 Y3)).
  cbn beta zeta in ST.
  assert (Z0 : forall k, 0 <= k -> within k f0) by (intros k Hk; destruct lit_0 as (N & E); split; [exact N|]; rewrite E, Rabs_R0; exact Hk).
  assert (C1p : 0 <= C * C * X * b1) by (apply Rmult_le_pos; lra). assert (C2p : 0 <= C * C * X * b2) by (apply Rmult_le_pos; lra).
  assert (Z1 := Z0 (105 * (C * C * X * b1)) ltac:(lra)). assert (Z2 := Z0 (105 * (C * C * X * b2)) ltac:(lra)).
  assert (K1 : sized b1 (U1 0%nat)) by (intros x j Hx Hj; exact (proj1 (ST x j Hx Hj f0 f0 Z1 Z2))).
  assert (R1 := RH U1 b1 ltac:(lra) K1 ltac:(right; now left)).
  assert (K2 : sized b2 (U2 0%nat)) by (intros x j Hx Hj; exact (proj1 (proj2 (ST x j Hx Hj _ f0 (R1 x j Hx) Z2)))).
  assert (R2 := RH U2 b2 ltac:(lra) K2 ltac:(right; right; now left)).
  split.
  - intros x j Hx Hj. eapply within_le; [exact (proj2 (proj2 (ST x j Hx Hj _ _ (R1 x j Hx) (R2 x j Hx))))|exact S3].
  - intros V Hin. assert (HV : exists d, 1 <= d <= b3 /\ sized d (V 0%nat)).
    { destruct Hin as [<- | [<- | [<- | []]]]; [exists b|exists b1|exists b2]; (split; [lra|assumption]). }
    destruct HV as (d & Hd & HV). assert (CD : C * C * X * d <= C * C * X * b3) by (apply Rmult_le_compat_l; lra). assert (CG : C * C * X * b3 <= C * C * X * (b * g)) by (apply Rmult_le_compat_l; lra). assert (0 <= C * C * X * d) by (apply Rmult_le_pos; lra).
    split; [intros x j Hx Hj; eapply within_le; [now apply HV|lra]|]. intros e x j s He Hx Hj Hs.
    eapply within_le; [apply (w_flow c M P dx ds d C X (V 0%nat)); auto; lra|]. lra.
Qed.

Lemma finite_run : forall n U B, 1 <= B -> 200 * (C * C * X * (1 + T)) * (B * g ^ n) <= far -> sized B (U 0%nat) ->
  (forall i V, (i < n)%nat -> In V (stages Op dt (Nat.iter i (rk3 Op dt) U)) -> no_zero_divisor M (M ++ P) ds 6 (V 0%nat)) ->
  sized (B * g ^ n) (Nat.iter n (rk3 Op dt) U 0%nat) /\
  forall i V, (i < n)%nat -> In V (stages Op dt (Nat.iter i (rk3 Op dt) U)) -> moderate 6 (flux_of (maxwell_flux c)) M (M ++ P) dx ds (B * g ^ n) (18 * (C * C * X * (B * g ^ n))) (V 0%nat).
Proof.
  induction n as [|n IH]; intros U B HB HL HU HZ.
  - change (Nat.iter 0 (rk3 Op dt) U) with U. rewrite pow_O, Rmult_1_r in *. split; [exact HU|]. intros i V Hi. lia.
  - pose proof growth_1 as G1. assert (GP : 1 <= g ^ n) by now apply pow_R1_Rle. set (G := B * g ^ n) in *. assert (HG : 1 <= G) by (unfold G; rewrite <- (Rmult_1_l 1); apply Rmult_le_compat; lra).
    assert (EG : B * g ^ S n = G * g) by (unfold G; cbn [pow]; ring). rewrite EG in *. assert (GG : G <= G * g) by (rewrite <- (Rmult_1_r G) at 1; apply Rmult_le_compat_l; lra).
    pose proof (w_nonneg _ _ HT) as T0. pose proof (CC C HC). assert (CX : 1 <= C * C * X) by (rewrite <- (Rmult_1_l 1); apply Rmult_le_compat; lra). assert (0 <= C * C * X * (1 + T)) by (apply Rmult_le_pos; lra).
    assert (HL' : 200 * (C * C * X * (1 + T)) * G <= far) by (eapply Rle_trans; [apply Rmult_le_compat_l; [lra|exact GG]|exact HL]).
    destruct (IH U B HB HL' HU (fun i V Hi => HZ i V ltac:(lia))) as (S1 & M1). fold G in S1, M1. change (Nat.iter (S n) (rk3 Op dt) U) with (rk3 Op dt (Nat.iter n (rk3 Op dt) U)).
    destruct (finite_step (Nat.iter n (rk3 Op dt) U) G HG HL S1 (fun V => HZ n V ltac:(lia))) as (S2 & M2). split; [exact S2|].
    intros i V Hi Hin. destruct (Nat.eq_dec i n) as [->|Ne]; [now apply M2|].
    destruct (M1 i V ltac:(lia) Hin) as (A1 & A2). assert (C * C * X * G <= C * C * X * (G * g)) by (apply Rmult_le_compat_l; lra).
    split; [intros x j Hx Hj; eapply within_le; [now apply A1|lra]|intros d x j s Hd Hx Hj Hs; eapply within_le; [now apply A2|lra]].
Qed.
End FiniteRun.
