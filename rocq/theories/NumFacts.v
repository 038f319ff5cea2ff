(** * NumFacts: limiter, HLL and Rusanov fluxes in exact arithmetic. *)
From Coq Require Import ZArith List String Bool Lia Reals Lra Psatz.
From Verif Require Import Base BoxSpec Arith ArithR Chunk VarId Manager MgrSpec BCSpec Sweep SweepSpec SweepFacts Euler Maxwell FluxFacts EulerSpec.
Import ListNotations.
Open Scope R_scope.

Ltac five l H := do 5 (destruct l as [|? l]; [discriminate H|]); destruct l; [clear H|discriminate H].
Ltac six l H := do 6 (destruct l as [|? l]; [discriminate H|]); destruct l; [clear H|discriminate H].

Lemma half : @fdec R RArith 5 (-1) = / 2.
Proof. cbn. unfold Rdecimal. cbn. field. Qed.
Lemma mhalf : @fdec R RArith (-5) (-1) = - / 2.
Proof. cbn. unfold Rdecimal. cbn. field. Qed.
Lemma tiny : @fdec R RArith 1 (-12) = / 1000000000000.
Proof. cbn. unfold Rdecimal. rewrite Rdiv_1_l || unfold Rdiv; try rewrite Rmult_1_l. f_equal. Qed.

(** ** the two sides of a wall *)

Lemma euler_side_phys : forall gamma d q, List.length q = 5%nat -> (d < 3)%nat ->
  euler_side gamma (Z.of_nat d) q = Ok (velocity d q, sound gamma q, euler_phys gamma d q).
Proof.
  intros gamma d q Hl Hd. five q Hl.
  assert (EP : forall x y z w e : R, (gamma - 1) * (e - @fdec R RArith 5 (-1) * (y * y + z * z + w * w) / x) = pressure gamma [x; y; z; w; e]).
  { intros. rewrite half. unfold pressure, kinetic, momentum, energy, density, Rdiv. cbn [nth]. rewrite Rinv_mult. ring. }
  do 3 (destruct d as [|d]; [
    match goal with |- ?l = _ => let l' := eval lazy -[Rdecimal Rminus Rdiv Rmult Rplus IZR sqrt] in l in change l with l' end; change (Rdecimal 5 (-1)) with (@fdec R RArith 5 (-1)); rewrite !EP;
    unfold sound, velocity, euler_phys; cbn [Nat.eqb]; unfold velocity, momentum, energy, density; cbn [nth];
    rewrite ?Rplus_0_r; reflexivity|]). lia.
Qed.

(** ** HLL *)

Lemma hll_left : forall sl sr fl fr l r, 0 < sl -> 0 <= sr -> List.length fl = List.length fr -> List.length fl = List.length l -> List.length fl = List.length r ->
  hll sl sr fl fr l r = fl.
Proof.
  intros sl sr fl. induction fl as [|x fl IH]; intros [|y fr] [|a l] [|b r] H1 H2 L1 L2 L3; try discriminate; auto.
  cbn [List.length] in *. cbn [hll]. rewrite IH by (assumption || lia). f_equal. cbn [fmul fadd fdiv fsub flt fle fofz RArith].
  rewrite (proj2 (Rltb_iff _ _) H1), (proj2 (Rltb_not sr 0) H2), (proj2 (Rleb_iff _ _) H2), (proj2 (Rleb_not sl 0) H1).
  unfold fofb, f0, f1. cbn [andb fofz RArith]. ring.
Qed.
Lemma hll_right : forall sl sr fl fr l r, sl <= 0 -> sr < 0 -> List.length fl = List.length fr -> List.length fl = List.length l -> List.length fl = List.length r ->
  hll sl sr fl fr l r = fr.
Proof.
  intros sl sr fl. induction fl as [|x fl IH]; intros [|y fr] [|a l] [|b r] H1 H2 L1 L2 L3; try discriminate; auto.
  cbn [List.length] in *. cbn [hll]. rewrite IH by (assumption || lia). f_equal. cbn [fmul fadd fdiv fsub flt fle fofz RArith].
  rewrite (proj2 (Rltb_not 0 sl) H1), (proj2 (Rltb_iff sr 0) H2), (proj2 (Rleb_not 0 sr) H2), (proj2 (Rleb_iff sl 0) H1).
  unfold fofb, f0, f1. cbn [andb fofz RArith]. ring.
Qed.
Lemma hll_mid : forall sl sr fl fr l r j, sl <= 0 -> 0 <= sr -> List.length fl = List.length fr -> List.length fl = List.length l -> List.length fl = List.length r ->
  (j < List.length fl)%nat -> nth j (hll sl sr fl fr l r) 0 = hll_average sl sr fl fr l r j.
Proof.
  intros sl sr fl. induction fl as [|x fl IH]; intros [|y fr] [|a l] [|b r] j H1 H2 L1 L2 L3 Hj; try discriminate; try (cbn in Hj; lia).
  cbn [List.length] in *. cbn [hll]. destruct j as [|j].
  - unfold hll_average. cbn [nth fmul fadd fdiv fsub flt fle fofz RArith].
    rewrite (proj2 (Rltb_not 0 sl) H1), (proj2 (Rltb_not sr 0) H2), (proj2 (Rleb_iff 0 sr) H2), (proj2 (Rleb_iff sl 0) H1).
    unfold fofb, f0, f1. cbn [andb fofz RArith]. ring.
  - cbn [nth]. rewrite IH by (assumption || lia). reflexivity.
Qed.
Lemma hll_both : forall sl sr fl fr l r j, 0 < sl -> sr < 0 -> List.length fl = List.length fr -> List.length fl = List.length l -> List.length fl = List.length r ->
  (j < List.length fl)%nat -> nth j (hll sl sr fl fr l r) 0 = nth j fl 0 + nth j fr 0.
Proof.
  intros sl sr fl. induction fl as [|x fl IH]; intros [|y fr] [|a l] [|b r] j H1 H2 L1 L2 L3 Hj; try discriminate; try (cbn in Hj; lia).
  cbn [List.length] in *. cbn [hll]. destruct j as [|j].
  - cbn [nth fmul fadd fdiv fsub flt fle fofz RArith].
    rewrite (proj2 (Rltb_iff 0 sl) H1), (proj2 (Rltb_iff sr 0) H2), (proj2 (Rleb_not 0 sr) H2).
    unfold fofb, f0, f1. cbn [andb fofz RArith]. ring.
  - cbn [nth]. rewrite IH by (assumption || lia). reflexivity.
Qed.
Lemma hll_length : forall {F} {A : Arith F} (sl sr : F) fl fr l r, List.length fl = List.length fr -> List.length fl = List.length l -> List.length fl = List.length r ->
  List.length (hll sl sr fl fr l r) = List.length fl.
Proof.
  intros F A sl sr fl. induction fl as [|x fl IH]; intros [|y fr] [|a l] [|b r] L1 L2 L3; try discriminate; auto.
  cbn [List.length hll] in *. rewrite IH; lia.
Qed.

Lemma euler_flux_hll : forall gamma d l r, List.length l = 5%nat -> List.length r = 5%nat -> (d < 3)%nat ->
  euler_flux gamma (Z.of_nat d) l r =
  Ok (hll (left_speed gamma d l) (right_speed gamma d r) (euler_phys gamma d l) (euler_phys gamma d r) l r).
Proof. intros gamma d l r Hl Hr Hd. unfold euler_flux. rewrite !euler_side_phys by assumption. reflexivity. Qed.

Lemma hll_consistent : forall gamma d q, admissible gamma q -> (d < 3)%nat -> euler_flux gamma (Z.of_nat d) q q = Ok (euler_phys gamma d q).
Proof.
  intros gamma d q (Hl & Hg & Hr & HP) Hd. rewrite euler_flux_hll by assumption. f_equal.
  assert (Hc : 0 < sound gamma q).
  { apply sqrt_lt_R0. apply Rdiv_lt_0_compat; auto. apply Rmult_lt_0_compat; auto. }
  unfold left_speed, right_speed.
  destruct (Rlt_le_dec 0 (velocity d q - sound gamma q)) as [H1|H1].
  { apply hll_left; try reflexivity; try lra; now rewrite Hl. }
  destruct (Rlt_le_dec (velocity d q + sound gamma q) 0) as [H2|H2].
  { apply hll_right; try reflexivity; try lra; now rewrite Hl. }
  apply nth_ext with (d := 0) (d' := 0).
  { apply hll_length; try reflexivity; now rewrite Hl. }
  intros j Hj. rewrite hll_length in Hj by (try reflexivity; now rewrite Hl).
  rewrite hll_mid by (try reflexivity; try lra; try (now rewrite Hl); auto). unfold hll_average. field. lra.
Qed.

(** ** the limiter *)

Notation eps := (/ 1000000000000).

Lemma phi_R : forall r : R, phi r = (r * r + r) / (r * r + 1).
Proof. reflexivity. Qed.
Lemma left_R : forall a b c : R, left_value a b c = b + / 2 * phi ((c - b) / (b - a + eps)) * (b - a).
Proof. intros. unfold left_value. rewrite half, tiny. reflexivity. Qed.
Lemma right_R : forall b c d : R, right_value b c d = c + / 2 * phi ((c - b) / (d - c + eps)) * (c - d).
Proof. intros. unfold right_value. rewrite half, tiny. reflexivity. Qed.

Lemma point_reflection : forall a b c : R, right_value (- c) (- b) (- a) = - left_value a b c.
Proof.
  intros. rewrite left_R, right_R. replace (- b - - c) with (c - b) by ring. replace (- a - - b) with (b - a) by ring. ring.
Qed.

(** The limited increment for slope [s >= 0] and jump [g >= 0]. *)
Lemma increment_up : forall s g, 0 <= s -> 0 <= g -> 0 <= / 2 * phi (g / (s + eps)) * s <= g.
Proof.
  intros s g Hs Hg. set (t := s + eps). assert (Ht : 0 < t) by (unfold t; lra).
  set (r := g / t). assert (Hr : 0 <= r) by (apply Rmult_le_pos; [lra|apply Rlt_le, Rinv_0_lt_compat; lra]).
  assert (Eg : g = r * t) by (unfold r; field; lra).
  rewrite phi_R. assert (Hd : 0 < r * r + 1) by nra.
  split.
  - apply Rmult_le_pos; [|lra]. apply Rmult_le_pos; [lra|]. apply Rmult_le_pos; [nra|apply Rlt_le, Rinv_0_lt_compat; lra].
  - assert (/ 2 * ((r * r + r) / (r * r + 1)) * s <= / 2 * ((r * r + r) / (r * r + 1)) * t).
    { apply Rmult_le_compat_l; [|unfold t; lra]. apply Rmult_le_pos; [lra|]. apply Rmult_le_pos; [nra|apply Rlt_le, Rinv_0_lt_compat; lra]. }
    assert ((r * r + r) / (r * r + 1) <= 2 * r).
    { apply Rmult_le_reg_r with (r * r + 1); [lra|]. unfold Rdiv. rewrite Rmult_assoc, Rinv_l by lra. nra. }
    rewrite Eg. nra.
Qed.

(** For slope [s <= -3 eps] and jump [g <= 0]. *)
Lemma increment_down : forall s g, s <= - 3 * eps -> g <= 0 -> g <= / 2 * phi (g / (s + eps)) * s <= 0.
Proof.
  intros s g Hs Hg. set (t := - (s + eps)). assert (Ht : 0 < t) by (unfold t; lra).
  replace (g / (s + eps)) with (- g / t) by (unfold t; field; unfold t in Ht; lra).
  set (r := - g / t). assert (Hr : 0 <= r) by (apply Rmult_le_pos; [lra|apply Rlt_le, Rinv_0_lt_compat; lra]).
  assert (Eg : g = - (r * t)) by (unfold r; field; lra).
  rewrite phi_R. assert (Hd : 0 < r * r + 1) by nra.
  assert (Hp : 0 <= (r * r + r) / (r * r + 1)) by (apply Rmult_le_pos; [nra|apply Rlt_le, Rinv_0_lt_compat; lra]).
  assert (Hq : (r * r + r) / (r * r + 1) <= 4 / 3 * r).
  { apply Rmult_le_reg_r with (r * r + 1); [lra|]. unfold Rdiv at 1. rewrite Rmult_assoc, Rinv_l by lra.
    assert (0 <= r * (4 * r * r - 3 * r + 1)); [|lra]. apply Rmult_le_pos; [lra|].
    pose proof (Rle_0_sqr (2 * r - 3 / 4)) as SQ. unfold Rsqr in SQ. lra. }
  assert (Hs' : - s <= 3 / 2 * t) by (unfold t; lra).
  assert (H0 : 0 <= - s) by lra.
  split; [|nra].
  assert (/ 2 * ((r * r + r) / (r * r + 1)) * - s <= / 2 * (4 / 3 * r) * (3 / 2 * t)).
  { apply Rmult_le_compat; auto; nra. }
  rewrite Eg. nra.
Qed.

Lemma left_increasing : forall a b c : R, a <= b -> b <= c -> b <= left_value a b c <= c.
Proof. intros a b c H1 H2. rewrite left_R. pose proof (increment_up (b - a) (c - b)). lra. Qed.
Lemma right_increasing : forall b c d : R, b <= c -> c <= d -> b <= right_value b c d <= c.
Proof.
  intros b c d H1 H2. rewrite right_R. pose proof (increment_up (d - c) (c - b)).
  replace (/ 2 * phi ((c - b) / (d - c + eps)) * (c - d)) with (- (/ 2 * phi ((c - b) / (d - c + eps)) * (d - c))) by ring. lra.
Qed.
Lemma left_decreasing : forall a b c : R, b <= a - 3 * eps -> c <= b -> c <= left_value a b c <= b.
Proof. intros a b c H1 H2. rewrite left_R. pose proof (increment_down (b - a) (c - b)). lra. Qed.
Lemma right_decreasing : forall b c d : R, c <= b -> d <= c - 3 * eps -> c <= right_value b c d <= b.
Proof.
  intros b c d H1 H2. rewrite right_R. pose proof (increment_down (d - c) (c - b)).
  replace (/ 2 * phi ((c - b) / (d - c + eps)) * (c - d)) with (- (/ 2 * phi ((c - b) / (d - c + eps)) * (d - c))) by ring. lra.
Qed.
Lemma left_flat : forall b c : R, left_value b b c = b.
Proof. intros. rewrite left_R. ring. Qed.
Lemma right_flat : forall b c : R, right_value b c c = c.
Proof. intros. rewrite right_R. ring. Qed.

(** Whatever the data, the overshoot is at most two eps. *)
Lemma phi_bound : forall r : R, - / 4 <= phi r <= 5 / 4.
Proof.
  intros r. rewrite phi_R. pose proof (Rle_0_sqr r) as SR. pose proof (Rle_0_sqr (r - 2)) as S1. pose proof (Rle_0_sqr (5 * r + 2)) as S2. unfold Rsqr in *.
  assert (Hd : 0 < r * r + 1) by lra.
  split; (apply Rmult_le_reg_r with (r * r + 1); [lra|]); unfold Rdiv; rewrite ?(Rmult_assoc (r * r + r)), Rinv_l by lra; lra.
Qed.
Lemma left_overshoot : forall a b c : R, b <= a -> c <= b -> c - 2 * eps <= left_value a b c <= b + 2 * eps.
Proof.
  intros a b c H1 H2. destruct (Rle_dec b (a - 3 * eps)) as [H|H]; [pose proof (left_decreasing a b c H H2); lra|].
  rewrite left_R. pose proof (phi_bound ((c - b) / (b - a + eps))) as HP. set (p := phi _) in *. nra.
Qed.
Lemma right_overshoot : forall b c d : R, c <= b -> d <= c -> c - 2 * eps <= right_value b c d <= b + 2 * eps.
Proof.
  intros b c d H1 H2. destruct (Rle_dec d (c - 3 * eps)) as [H|H]; [pose proof (right_decreasing b c d H1 H); lra|].
  rewrite right_R. pose proof (phi_bound ((c - b) / (d - c + eps))) as HP. set (p := phi _) in *. nra.
Qed.

(** ** uniform stencils *)

Lemma uniform_stencil : forall M P n G u dx ds (r v : field R) x j,
  fluxes_added M P n (wall n G u) dx ds r v -> in_box (M ++ P) x -> (0 <= j < n)%Z -> Forall (fun d => (d < List.length x)%nat) ds ->
  (forall d t i, In d ds -> (-2 <= t <= 2)%Z -> (0 <= i < n)%Z -> u (move d t x ++ [i]) = u (x ++ [i])) ->
  v (x ++ [j]) = r (x ++ [j]).
Proof.
  intros M P n G u dx ds r v x j HF Hx Hj Hd HU. rewrite HF by assumption. rewrite fluxes_sum. rewrite sum_over_zero; [ring|].
  intros d Hin. rewrite Forall_forall in Hd. specialize (Hd d Hin).
  assert (E : wall n G u d x j = wall n G u d (move d 1 x) j).
  { apply wall_ext; [|now apply move_0|rewrite move_move by assumption; reflexivity].
    intros t i Ht Hi. rewrite move_move by assumption. rewrite !HU; auto; lia. }
  rewrite E. unfold Rdiv. ring.
Qed.

(** ** Maxwell *)

Lemma maxwell_parts : forall c d l r, List.length l = 6%nat -> List.length r = 6%nat -> (d < 3)%nat ->
  exists f, maxwell_flux c (Z.of_nat d) l r = Ok f /\ List.length f = 6%nat /\
    forall i, (i < 6)%nat -> nth i f 0 =
      if orb (Nat.eqb i d) (Nat.eqb i (d + 3)) then 0
      else (nth i (curl_flux c d l) 0 + nth i (curl_flux c d r) 0) / 2 - Rabs c / 2 * (nth i r 0 - nth i l 0).
Proof.
  intros c d l r Hl Hr Hd. six l Hl. six r Hr.
  do 3 (destruct d as [|d]; [
    eexists; split; [reflexivity|]; split; [reflexivity|]; intros i Hi;
    do 6 (destruct i as [|i]; [
      cbn [nth Nat.eqb orb Nat.add curl_flux]; unfold curl_E, curl_B, levi; cbn [nth INR fmul fadd fsub fneg fofz fabs RArith];
      rewrite ?half, ?mhalf; try reflexivity; field|]); lia|]). lia.
Qed.

Lemma curl_normal : forall c d q i, (d < 3)%nat -> i = d \/ i = (d + 3)%nat -> nth i (curl_flux c d q) 0 = 0.
Proof.
  intros c d q i Hd [-> | ->]; do 3 (destruct d as [|d]; [cbn [nth Nat.add curl_flux]; unfold curl_E, curl_B, levi; cbn [INR]; field|]); lia.
Qed.

Lemma maxwell_consistent : forall c d q, List.length q = 6%nat -> (d < 3)%nat -> maxwell_flux c (Z.of_nat d) q q = Ok (curl_flux c d q).
Proof.
  intros c d q Hq Hd. destruct (maxwell_parts c d q q Hq Hq Hd) as (f & E & L & H). rewrite E. f_equal.
  apply nth_ext with (d := 0) (d' := 0); [now rewrite L|]. intros i Hi. rewrite L in Hi. rewrite H by assumption.
  destruct (Nat.eqb_spec i d) as [->|N1]; cbn [orb]; [symmetry; apply curl_normal; auto|].
  destruct (Nat.eqb_spec i (d + 3)) as [->|N2]; [symmetry; apply curl_normal; auto|]. field.
Qed.

Lemma maxwell_normal : forall {F} {A : Arith F} c d l r i, List.length l = 6%nat -> List.length r = 6%nat -> (d < 3)%nat ->
  i = d \/ i = (d + 3)%nat -> exists f, maxwell_flux c (Z.of_nat d) l r = Ok f /\ nth_error f i = Some f0.
Proof.
  intros F A c d l r i Hl Hr Hd Hi. six l Hl. six r Hr.
  do 3 (destruct d as [|d]; [destruct Hi as [-> | ->]; eexists; split; reflexivity|]). lia.
Qed.

(** ** mirror images of the stencil *)

Lemma mirror_phi : forall g p m X, 0 < g * g + p * p -> 0 < g * g + m * m -> p <> 0 -> m <> 0 ->
  phi (g / p) - phi (g / m) = X / ((g * g + p * p) * (g * g + m * m)) <->
  X = (m - p) * (g * g * (m + p) - g * g * g + g * p * m).
Proof.
  intros g p m X H1 H2 Hp Hm. rewrite !phi_R.
  replace ((g / p * (g / p) + g / p) / (g / p * (g / p) + 1)) with ((g * g + g * p) / (g * g + p * p)).
  2:{ field. repeat split; lra. }
  replace ((g / m * (g / m) + g / m) / (g / m * (g / m) + 1)) with ((g * g + g * m) / (g * g + m * m)).
  2:{ field. repeat split; lra. }
  replace ((g * g + g * p) / (g * g + p * p) - (g * g + g * m) / (g * g + m * m))
    with (((m - p) * (g * g * (m + p) - g * g * g + g * p * m)) / ((g * g + p * p) * (g * g + m * m))) by (field; lra).
  split; [|now intros ->]. intros H. unfold Rdiv in H. apply Rmult_eq_reg_r in H; [auto|].
  apply Rinv_neq_0_compat. apply Rmult_integral_contrapositive_currified; lra.
Qed.

Lemma Rabs_le_iff : forall x y : R, Rabs x <= y <-> - y <= x <= y.
Proof. intros. split; [intros H; unfold Rabs in H; destruct (Rcase_abs x); lra|intros H; unfold Rabs; destruct (Rcase_abs x); lra]. Qed.

Lemma mirror_bound : forall e s g, 0 < e -> 2 * e <= Rabs s ->
  Rabs (/ 2 * (phi (g / (s + e)) - phi (g / (s - e))) * s) <= 6 * e.
Proof.
  intros e s g He Hs.
  assert (S2 : 4 * e * e <= s * s).
  { replace (s * s) with (Rabs s * Rabs s) by (rewrite <- Rabs_mult; apply Rabs_pos_eq; nra). nra. }
  set (p := s + e). set (m := s - e).
  assert (Pq : s * s <= 4 * (p * p)) by (unfold p; destruct (Rle_dec 0 s); [rewrite (Rabs_pos_eq s) in Hs by assumption|rewrite (Rabs_left1 s) in Hs by lra]; nra).
  assert (Mq : s * s <= 4 * (m * m)) by (unfold m; destruct (Rle_dec 0 s); [rewrite (Rabs_pos_eq s) in Hs by assumption|rewrite (Rabs_left1 s) in Hs by lra]; nra).
  assert (ss : 0 < s * s) by nra.
  assert (p0 : p <> 0) by (intros E; rewrite E in Pq; lra). assert (m0 : m <> 0) by (intros E; rewrite E in Mq; lra).
  assert (gg : 0 <= g * g) by nra.
  rewrite (proj2 (mirror_phi g p m _ ltac:(lra) ltac:(lra) p0 m0) eq_refl).
  set (Y := (g * g + p * p) * (g * g + m * m)).
  assert (HY : (g * g + s * s / 4) * (g * g + s * s / 4) <= Y) by (unfold Y; apply Rmult_le_compat; lra).
  assert (Yp : 0 < Y) by (unfold Y; apply Rmult_lt_0_compat; lra).
  replace (/ 2 * ((m - p) * (g * g * (m + p) - g * g * g + g * p * m) / Y) * s)
    with (- e * (s * (g * g * (2 * s) - g * g * g + g * p * m)) / Y) by (unfold m, p; field; unfold m, p in Yp; lra).
  assert (B : Rabs (s * (g * g * (2 * s) - g * g * g + g * p * m)) <= 6 * Y).
  { apply Rle_trans with (6 * ((g * g + s * s / 4) * (g * g + s * s / 4))); [|lra].
    set (t := s / 2). replace s with (2 * t) by (unfold t; lra).
    replace (p * m) with (4 * (t * t) - e * e) by (unfold p, m, t; field).
    replace (g * g + 2 * t * (2 * t) / 4) with (g * g + t * t) by field.
    replace (2 * t * (g * g * (2 * (2 * t)) - g * g * g + g * p * m)) with (8 * ((g * t) * (g * t)) + (g * t) * (2 * (p * m) - 2 * (g * g))) by ring.
    replace (p * m) with (4 * (t * t) - e * e) by (unfold p, m, t; field).
    assert (T2 : e * e <= t * t) by (unfold t; lra).
    set (X := g * g + t * t). set (z := g * t).
    assert (Z1 : - X <= 2 * z <= X) by (unfold X, z; pose proof (Rle_0_sqr (g - t)); pose proof (Rle_0_sqr (g + t)); unfold Rsqr in *; lra).
    assert (K1 : - (8 * X) <= 2 * (4 * (t * t) - e * e) - 2 * (g * g) <= 8 * X) by (unfold X; nra).
    set (w := 2 * (4 * (t * t) - e * e) - 2 * (g * g)) in *.
    assert (X0 : 0 <= X) by (unfold X; nra).
    assert (Q1 : 0 <= z * z /\ 4 * (z * z) <= X * X) by (split; nra).
    assert (Q2 : - (4 * X * X) <= z * w <= 4 * X * X) by (split; nra).
    apply Rabs_le_iff. lra. }
  apply Rabs_le_iff. apply Rabs_le_iff in B. set (N := s * (g * g * (2 * s) - g * g * g + g * p * m)) in *.
  assert (I : 0 < / Y) by (now apply Rinv_0_lt_compat).
  assert (NY : - 6 <= N / Y <= 6).
  { split; (apply Rmult_le_reg_r with Y; [assumption|]); unfold Rdiv; rewrite Rmult_assoc, Rinv_l by lra; lra. }
  replace (- e * N / Y) with (- e * (N / Y)) by (unfold Rdiv; ring). nra.
Qed.

(** Mirrored data give the mirrored value up to six eps. *)
Lemma mirror_value : forall a b c : R, Rabs (right_value c b a - left_value a b c) <= 6 * eps.
Proof.
  intros. rewrite left_R, right_R. set (s := b - a). set (g := c - b).
  destruct (Rle_dec (2 * eps) (Rabs s)) as [H|H].
  - replace (b + / 2 * phi ((b - c) / (a - b + eps)) * (b - a) - (b + / 2 * phi ((c - b) / (b - a + eps)) * (b - a)))
      with (- (/ 2 * (phi (g / (s + eps)) - phi (g / (s - eps))) * s)).
    + rewrite Rabs_Ropp. apply mirror_bound; [lra|exact H].
    + replace ((b - c) / (a - b + eps)) with (g / (s - eps)).
      * unfold s, g. ring.
      * unfold s, g. replace (a - b + eps) with (- (b - a - eps)) by ring. replace (b - c) with (- (c - b)) by ring. field.
        unfold s in H. intros E. replace (b - a) with eps in H by lra. rewrite Rabs_pos_eq in H; lra.
  - pose proof (phi_bound ((b - c) / (a - b + eps))) as P1. pose proof (phi_bound ((c - b) / (b - a + eps))) as P2.
    fold g in P2 |- *. fold s in P2 |- *. set (p1 := phi ((b - c) / _)) in *. set (p2 := phi (g / _)) in *.
    replace (b + / 2 * p1 * s - (b + / 2 * p2 * s)) with (/ 2 * (p1 - p2) * s) by ring.
    assert (Hs : - (2 * eps) < s < 2 * eps) by (unfold Rabs in H; destruct (Rcase_abs s); lra).
    assert (Hp : Rabs (p1 - p2) <= 2) by (apply Rabs_le_iff; lra).
    assert (Ha : Rabs s <= 2 * eps) by lra.
        rewrite !Rabs_mult, (Rabs_pos_eq (/ 2)) by lra.
    pose proof (Rabs_pos (p1 - p2)). pose proof (Rabs_pos s).
    assert (Rabs (p1 - p2) * Rabs s <= 2 * (2 * eps)) by (apply Rmult_le_compat; lra). lra.
Qed.
