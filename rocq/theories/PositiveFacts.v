(** * PositiveFacts: how much of its density a cell can lose. *)
From Coq Require Import ZArith List String Lia Bool Reals Lra Psatz.
From Verif Require Import Base BaseFacts BoxSpec BoxFacts Interface EulerSpec PhysicsSpec PhysicsFacts NumFacts Range RangeSpec RangeFacts ApiSpec Arith ArithR Chunk FieldSpec VarId Manager MgrSpec MgrFacts
  BC BCSpec BCFacts Sweep SweepSpec SweepFacts Euler FluxFacts Programs ProgramsSpec ConserveFacts SymmetrySpec SymmetryFacts PositiveSpec.
Import ListNotations.
Open Scope R_scope.

(** ** the mass flux *)

Lemma sound_pos : forall gamma q, 0 <= sound gamma q.
Proof. intros. apply sqrt_pos. Qed.

Lemma mass_flux : forall gamma d l r, 0 < density l -> 0 < density r -> (d < 3)%nat ->
  - (density r * wave_speed gamma d r) <= nth 0 (hll_flux gamma d l r) 0 <= density l * wave_speed gamma d l.
Proof.
  intros gamma d l r Hl Hr Hd. unfold hll_flux. cbn [seq map nth]. unfold hll_average, left_speed, right_speed, euler_phys, wave_speed. cbn [nth].
  change (nth 0 r 0) with (density r). change (nth 0 l 0) with (density l).
  assert (El : momentum d l = density l * velocity d l) by (unfold velocity; field; lra).
  assert (Er : momentum d r = density r * velocity d r) by (unfold velocity; field; lra).
  rewrite El, Er. pose proof (sound_pos gamma l) as Al. pose proof (sound_pos gamma r) as Ar.
  set (a := sound gamma l) in *. set (b := sound gamma r) in *. set (v := velocity d l). set (w := velocity d r). set (p := density l) in *. set (q := density r) in *.
  clearbody a b v w p q. clear El Er. pose proof (Rle_abs v) as V1. pose proof (Rle_abs w) as W1. pose proof (Rle_abs (- v)) as V2. pose proof (Rle_abs (- w)) as W2.
  rewrite Rabs_Ropp in V2, W2. set (av := Rabs v) in *. set (aw := Rabs w) in *. clearbody av aw.
  destruct (Rlt_dec 0 (v - a)), (Rlt_dec (w + b) 0).
  - nra.
  - nra.
  - nra.
  - assert (P : 0 <= p * a /\ 0 <= q * b) by (split; apply Rmult_le_pos; lra).
    destruct (Req_dec (w + b - (v - a)) 0) as [E|E].
    + replace (w + b) with 0 by lra. replace (v - a) with 0 by lra. unfold Rdiv. rewrite !Rmult_0_l, Rminus_0_r, Rplus_0_l, Rmult_0_l. nra.
    + set (t := (w + b) / (w + b - (v - a))). assert (T : 0 <= t <= 1).
      { unfold t. split; [apply Rmult_le_pos; [lra|apply Rlt_le, Rinv_0_lt_compat; lra]|]. apply Rmult_le_reg_r with (w + b - (v - a)); [lra|]. unfold Rdiv. rewrite Rmult_assoc, Rinv_l by lra. lra. }
      replace (((w + b) * (p * v) - (v - a) * (q * w) + (v - a) * (w + b) * (q - p)) / (w + b - (v - a)))
        with (t * (p * a) - (1 - t) * (q * b)) by (unfold t; field; lra).
      assert (0 <= p * av /\ 0 <= q * aw) by (split; apply Rmult_le_pos; lra).
      split; nra.
Qed.

(** ** the density at the walls *)

(** The slopes on the two sides of a cell nearly cancel. *)
Lemma two_slopes_main : forall e x y, 0 < e -> x + e <> 0 -> y + e <> 0 ->
  Rabs (phi (y / (x + e)) * x - phi (x / (y + e)) * y) <= 9 * e.
Proof.
  intros e x y He Hx Hy. rewrite !phi_R. set (s := x + y + e). set (D1 := y * y + (x + e) * (x + e)). set (D2 := x * x + (y + e) * (y + e)).
  assert (P1 : 0 < D1) by (unfold D1; pose proof (Rle_0_sqr y); pose proof (Rsqr_pos_lt _ Hx); unfold Rsqr in *; lra).
  assert (P2 : 0 < D2) by (unfold D2; pose proof (Rle_0_sqr x); pose proof (Rsqr_pos_lt _ Hy); unfold Rsqr in *; lra).
  replace ((y / (x + e) * (y / (x + e)) + y / (x + e)) / (y / (x + e) * (y / (x + e)) + 1)) with (y * s / D1)
    by (unfold s, D1; field; fold D1; split; lra).
  replace ((x / (y + e) * (x / (y + e)) + x / (y + e)) / (x / (y + e) * (x / (y + e)) + 1)) with (x * s / D2)
    by (unfold s, D2; field; fold D2; split; lra).
  replace (y * s / D1 * x - x * s / D2 * y) with (x * y * s * (2 * e * (y - x)) / (D1 * D2)) by (unfold s, D1, D2 in *; field; split; lra).
  assert (PD : 0 < D1 * D2) by (apply Rmult_lt_0_compat; lra).
  apply Rabs_le_iff. 
  assert (B1 : - (5 / 4 * D1) <= y * s <= 5 / 4 * D1).
  { unfold s, D1. pose proof (Rle_0_sqr (y + 2 * (x + e))) as Q1. pose proof (Rle_0_sqr (y - 2 * (x + e))) as Q2. pose proof (Rle_0_sqr y) as Q3. pose proof (Rle_0_sqr (x + e)) as Q4. unfold Rsqr in *. split; nra. }
  assert (B2 : - (5 / 4 * D2) <= x * s <= 5 / 4 * D2).
  { unfold s, D2. pose proof (Rle_0_sqr (x + 2 * (y + e))) as Q1. pose proof (Rle_0_sqr (x - 2 * (y + e))) as Q2. pose proof (Rle_0_sqr x) as Q3. pose proof (Rle_0_sqr (y + e)) as Q4. unfold Rsqr in *. split; nra. }
  assert (N : - (9 * e * (D1 * D2)) <= x * y * s * (2 * e * (y - x)) <= 9 * e * (D1 * D2)).
  { assert (C : e * e / 4 <= D2 \/ e * e / 4 <= D1).
    { destruct (Rle_dec (e * e / 4) D2) as [H|H]; [now left|]. right. unfold D1, D2 in *.
      pose proof (Rle_0_sqr (x + y + e)) as Q1. pose proof (Rle_0_sqr (x - y)) as Q2. pose proof (Rle_0_sqr (2 * x + e)). pose proof (Rle_0_sqr (2 * y + e)). unfold Rsqr in *. nra. }
    destruct C as [C|C].
    - assert (B3 : - (18 / 5 * D2) <= x * (y - x) <= 18 / 5 * D2).
      { unfold D2 in *. pose proof (Rle_0_sqr (x + (y + e))) as Q1. pose proof (Rle_0_sqr (x - (y + e))) as Q2. pose proof (Rle_0_sqr (2 * x + e)) as Q3. pose proof (Rle_0_sqr (2 * x - e)) as Q4. unfold Rsqr in *. split; nra. }
      replace (x * y * s * (2 * e * (y - x))) with (2 * e * ((y * s) * (x * (y - x)))) by ring.
      assert (- (5 / 4 * D1 * (18 / 5 * D2)) <= y * s * (x * (y - x)) <= 5 / 4 * D1 * (18 / 5 * D2)).
      { apply Rabs_le_iff. rewrite Rabs_mult. apply Rmult_le_compat; try apply Rabs_pos; apply Rabs_le_iff; assumption. }
      split; nra.
    - assert (B3 : - (18 / 5 * D1) <= y * (y - x) <= 18 / 5 * D1).
      { unfold D1 in *. pose proof (Rle_0_sqr (y + (x + e))) as Q1. pose proof (Rle_0_sqr (y - (x + e))) as Q2. pose proof (Rle_0_sqr (2 * y + e)) as Q3. pose proof (Rle_0_sqr (2 * y - e)) as Q4. unfold Rsqr in *. split; nra. }
      replace (x * y * s * (2 * e * (y - x))) with (2 * e * ((x * s) * (y * (y - x)))) by ring.
      assert (- (5 / 4 * D2 * (18 / 5 * D1)) <= x * s * (y * (y - x)) <= 5 / 4 * D2 * (18 / 5 * D1)).
      { apply Rabs_le_iff. rewrite Rabs_mult. apply Rmult_le_compat; try apply Rabs_pos; apply Rabs_le_iff; assumption. }
      split; nra. }
  split.
  - apply Rmult_le_reg_r with (D1 * D2); [exact PD|]. unfold Rdiv. rewrite Rmult_assoc, Rinv_l by lra. lra.
  - apply Rmult_le_reg_r with (D1 * D2); [exact PD|]. unfold Rdiv. rewrite Rmult_assoc, Rinv_l by lra. lra.
Qed.

Lemma one_slope : forall e y, 0 < e -> Rabs (phi (- e / (y + e)) * y) <= 9 / 4 * e.
Proof.
  intros e y He. apply Rabs_le_iff. destruct (Req_dec (y + e) 0) as [E|E].
  - pose proof (phi_bound (- e / (y + e))). replace y with (- e) at 2 4 by lra. nra.
  - rewrite phi_R. set (D := e * e + (y + e) * (y + e)). assert (P : 0 < D) by (unfold D; pose proof (Rsqr_pos_lt _ E); unfold Rsqr in *; nra).
    replace ((- e / (y + e) * (- e / (y + e)) + - e / (y + e)) / (- e / (y + e) * (- e / (y + e)) + 1) * y) with (- (e * (y * y)) / D) by (unfold D in *; field; split; nra).
    assert (y * y <= 2 * D). { unfold D. pose proof (Rle_0_sqr (y + 2 * e)). unfold Rsqr in *. nra. }
    set (k := - (e * (y * y)) / D). assert (K : k * D = - (e * (y * y))) by (unfold k; field; lra). split; apply Rmult_le_reg_r with D; auto; nra.
Qed.

Lemma two_slopes : forall e x y, 0 < e -> Rabs (phi (y / (x + e)) * x - phi (x / (y + e)) * y) <= 9 * e.
Proof.
  intros e x y He. destruct (Req_dec (x + e) 0) as [E|E]; [|destruct (Req_dec (y + e) 0) as [E'|E']; [|now apply two_slopes_main]].
  - pose proof (one_slope e y He) as B. assert (Ex : x = - e) by lra. rewrite Ex. pose proof (phi_bound (y / (- e + e))). apply Rabs_le_iff in B. apply Rabs_le_iff. nra.
  - pose proof (one_slope e x He) as B. assert (Ey : y = - e) by lra. rewrite Ey. pose proof (phi_bound (x / (- e + e))). apply Rabs_le_iff in B. apply Rabs_le_iff. nra.
Qed.

(** Together the two values of a cell at its walls are at most the double of its
    value. *)
Lemma both_walls : forall a b c : R, left_value a b c + right_value a b c <= 2 * b + 9 / 2 * eps.
Proof.
  intros a b c. rewrite left_R, right_R. pose proof (two_slopes eps (b - a) (c - b) ltac:(lra)) as H. apply Rabs_le_iff in H.
  replace (b - c) with (- (c - b)) by ring. lra.
Qed.

Lemma minimum_bound : forall t : R, (t - 1) / (t * t + 1) <= 21 / 100.
Proof.
  intros t. pose proof (Rle_0_sqr t) as Q. unfold Rsqr in Q. apply Rmult_le_reg_r with (t * t + 1); [lra|]. unfold Rdiv at 1. rewrite Rmult_assoc, Rinv_l by lra.
  pose proof (Rle_0_sqr (21 * t - 50)) as Q1. unfold Rsqr in Q1. nra.
Qed.

(** Neighbours within a factor of nine: a tenth of the density is left. *)
Lemma left_density : forall a b c : R, / 1000000000 <= a -> / 1000000000 <= b -> / 1000000000 <= c -> a <= 9 * b -> c <= 9 * b -> b <= 9 * c ->
  b / 10 <= left_value a b c.
Proof.
  intros a b c Ha Hb Hc H1 H2 H3. destruct (Rle_dec a b) as [L|L].
  { rewrite left_R. pose proof (phi_bound ((c - b) / (b - a + eps))) as HP. set (p := phi _) in *. nra. }
  destruct (Rle_dec c b) as [L'|L'].
  { pose proof (left_overshoot a b c ltac:(lra) L'). lra. }
  rewrite left_R. set (p := a - b). set (q := c - b). assert (Hp : 0 < p) by (unfold p; lra). assert (Hq : 0 < q <= 8 * b) by (unfold q; lra).
  replace (b - a) with (- p) by (unfold p; ring). destruct (Rle_dec p (100 * eps)) as [S|S].
  { pose proof (phi_bound (q / (- p + eps))) as HP. set (f := phi _) in *. nra. }
  set (t := q / (p - eps)). assert (Ht : 0 < t) by (apply Rmult_lt_0_compat; [lra|apply Rinv_0_lt_compat; lra]).
  replace (q / (- p + eps)) with (- t) by (unfold t; field; lra). rewrite phi_R. pose proof (minimum_bound t) as B.
  assert (Eq : q = t * (p - eps)) by (unfold t; field; lra).
  replace ((- t * - t + - t) / (- t * - t + 1)) with (t * ((t - 1) / (t * t + 1))) by (field; nra). set (g := (t - 1) / (t * t + 1)) in *.
  assert (U : p <= 100 / 99 * (p - eps)) by lra.
  assert (G : t * g * p <= 22 / 100 * q).
  { destruct (Rle_dec g 0) as [N|N]; [assert (0 <= t * p) by nra; nra|]. assert (t * p <= 100 / 99 * q) by (rewrite Eq; nra). assert (0 <= t * p) by nra. nra. }
  lra.
Qed.
Lemma right_density : forall a b c : R, / 1000000000 <= a -> / 1000000000 <= b -> / 1000000000 <= c -> a <= 9 * b -> c <= 9 * b -> b <= 9 * a ->
  b / 10 - 6 * eps <= right_value a b c.
Proof.
  intros a b c Ha Hb Hc H1 H2 H3. pose proof (left_density c b a Hc Hb Ha H2 H1 H3). pose proof (mirror_value c b a) as M. apply Rabs_le_iff in M. lra.
Qed.

(** ** one stage *)

Lemma wave_speed_pos : forall gamma d q, 0 <= wave_speed gamma d q.
Proof. intros. unfold wave_speed. pose proof (Rabs_pos (velocity d q)). pose proof (sound_pos gamma q). lra. Qed.

Lemma left_state_density : forall u d x, density (left_state 5 u d x) = left_value (u (move d (-2) x ++ [0%Z])) (u (move d (-1) x ++ [0%Z])) (u (x ++ [0%Z])).
Proof. reflexivity. Qed.
Lemma right_state_density : forall u d x, density (right_state 5 u d x) = right_value (u (move d (-1) x ++ [0%Z])) (u (x ++ [0%Z])) (u (move d 1 x ++ [0%Z])).
Proof. reflexivity. Qed.

(** The flux into a cell along one dimension. *)
Lemma net_mass : forall gamma u d x s, (d < 3)%nat -> (d < List.length x)%nat -> gentle u d x ->
  wave_speed gamma d (left_state 5 u d (move d 1 x)) <= s -> wave_speed gamma d (right_state 5 u d x) <= s ->
  - (21 / 10 * u (x ++ [0%Z]) * s) <= wall 5 (flux_of (euler_flux gamma)) u d x 0 - wall 5 (flux_of (euler_flux gamma)) u d (move d 1 x) 0.
Proof.
  intros gamma u d x s Hd Hl G S1 S2. unfold wall. change (Z.to_nat 0) with O. change (@f0 R RArith) with 0. rewrite !euler_flux_is by (auto; unfold left_state, right_state; rewrite map_length, zrange_length; reflexivity).
  assert (g := fun k => G k). destruct (g (-2)%Z ltac:(lia)) as (A1 & R1). destruct (g (-1)%Z ltac:(lia)) as (A2 & R2). destruct (g 0%Z ltac:(lia)) as (A3 & R3).
  destruct (g 1%Z ltac:(lia)) as (A4 & R4). destruct (g 2%Z ltac:(lia)) as (A5 & _). clear g G.
  specialize (R1 ltac:(lia)). specialize (R2 ltac:(lia)). specialize (R3 ltac:(lia)). specialize (R4 ltac:(lia)).
  cbn [Z.add Z.pos_sub Pos.pred_double Pos.add Pos.succ] in R1, R2, R3, R4. rewrite !move_0 in * by exact Hl.
  assert (D1 : 0 < density (left_state 5 u d x)).
  { rewrite left_state_density. pose proof (left_density (u (move d (-2) x ++ [0%Z])) (u (move d (-1) x ++ [0%Z])) (u (x ++ [0%Z]))). lra. }
  assert (D2 : 0 < density (right_state 5 u d x)).
  { rewrite right_state_density. pose proof (right_density (u (move d (-1) x ++ [0%Z])) (u (x ++ [0%Z])) (u (move d 1 x ++ [0%Z]))). lra. }
  assert (E1 : density (left_state 5 u d (move d 1 x)) = left_value (u (move d (-1) x ++ [0%Z])) (u (x ++ [0%Z])) (u (move d 1 x ++ [0%Z]))).
  { rewrite left_state_density, !move_move by exact Hl. change (1 + -2)%Z with (-1)%Z. change (1 + -1)%Z with 0%Z. now rewrite move_0. }
  assert (E2 : density (right_state 5 u d (move d 1 x)) = right_value (u (x ++ [0%Z])) (u (move d 1 x ++ [0%Z])) (u (move d 2 x ++ [0%Z]))).
  { rewrite right_state_density, !move_move by exact Hl. change (1 + -1)%Z with 0%Z. change (1 + 1)%Z with 2%Z. now rewrite move_0. }
  assert (D3 : 0 < density (left_state 5 u d (move d 1 x))).
  { rewrite E1. pose proof (left_density (u (move d (-1) x ++ [0%Z])) (u (x ++ [0%Z])) (u (move d 1 x ++ [0%Z]))). lra. }
  assert (D4 : 0 < density (right_state 5 u d (move d 1 x))).
  { rewrite E2. pose proof (right_density (u (x ++ [0%Z])) (u (move d 1 x ++ [0%Z])) (u (move d 2 x ++ [0%Z]))). lra. }
  destruct (mass_flux gamma d _ _ D1 D2 Hd) as [F1 _]. destruct (mass_flux gamma d _ _ D3 D4 Hd) as [_ F2].
  set (w1 := wave_speed gamma d (right_state 5 u d x)) in *. set (w2 := wave_speed gamma d (left_state 5 u d (move d 1 x))) in *.
  pose proof (wave_speed_pos gamma d (right_state 5 u d x)) as W1. fold w1 in W1.
  assert (B : density (left_state 5 u d (move d 1 x)) + density (right_state 5 u d x) <= 21 / 10 * u (x ++ [0%Z])).
  { rewrite E1, right_state_density. pose proof (both_walls (u (move d (-1) x ++ [0%Z])) (u (x ++ [0%Z])) (u (move d 1 x ++ [0%Z]))). lra. }
  assert (G1 : density (right_state 5 u d x) * w1 <= density (right_state 5 u d x) * s) by (apply Rmult_le_compat_l; lra).
  assert (G2 : density (left_state 5 u d (move d 1 x)) * w2 <= density (left_state 5 u d (move d 1 x)) * s) by (apply Rmult_le_compat_l; lra).
  assert (G3 : (density (left_state 5 u d (move d 1 x)) + density (right_state 5 u d x)) * s <= 21 / 10 * u (x ++ [0%Z]) * s) by (apply Rmult_le_compat_r; lra).
  lra.
Qed.

Lemma sum_over_ge : forall ds f g, (forall d, In d ds -> f d <= g d) -> sum_over ds f <= sum_over ds g.
Proof.
  unfold sum_over. induction ds as [|d ds IH]; intros f g H; cbn [map fold_right]; [lra|]. pose proof (H d (or_introl eq_refl)). pose proof (IH f g (fun d' Hd' => H d' (or_intror Hd'))). lra.
Qed.
Lemma sum_over_scale : forall ds f a, sum_over ds (fun d => a * f d) = a * sum_over ds f.
Proof. unfold sum_over. induction ds as [|d ds IH]; intros f a; cbn [map fold_right]; [ring|]. rewrite IH. ring. Qed.

Lemma stage_density : forall gamma M P bc s dx dt u x, calm gamma M P bc s u -> (List.length M <= 3)%nat -> 0 <= dt ->
  (forall d, (d < List.length M)%nat -> 0 < dx d) -> in_box (M ++ P) x ->
  (1 - courant (List.length M) dt s dx) * u (x ++ [0%Z]) <=
  u (x ++ [0%Z]) + dt * fv_rhs 5 (flux_of (euler_flux gamma)) M bc dx (seq 0 (List.length M)) u (x ++ [0%Z]).
Proof.
  intros gamma M P bc s dx dt u x C Hk Hdt Hdx Hx. unfold fv_rhs, cellwise. rewrite removelast_last, last_last, fluxes_sum. change (@f0 R RArith) with 0.
  set (b := u (x ++ [0%Z])). assert (Hl : (List.length M <= List.length x)%nat) by (apply Forall2_length in Hx; rewrite app_length in Hx; lia).
  assert (H : sum_over (seq 0 (List.length M)) (fun d => - (21 / 10 * b) * (s d / dx d)) <=
    sum_over (seq 0 (List.length M)) (fun d => (wall 5 (flux_of (euler_flux gamma)) (seen (bc d) M d u) d x 0 - wall 5 (flux_of (euler_flux gamma)) (seen (bc d) M d u) d (move d 1 x) 0) / dx d)).
  { apply sum_over_ge. intros d Hd. apply in_seq in Hd. destruct (C x d Hx ltac:(lia)) as (G & S1 & S2).
    pose proof (net_mass gamma _ d x (s d) ltac:(lia) ltac:(lia) G S1 S2) as N.
    assert (E : seen (bc d) M d u (x ++ [0%Z]) = b).
    { unfold seen. assert (HI : (lo M d <= nth d x 0 < hi M d)%Z) by (apply (in_box_inside M P x Hx); lia). rewrite app_nth1 by lia. destruct (Z.ltb_spec (nth d x 0%Z) (lo M d)); [lia|]. destruct (Z.leb_spec (hi M d) (nth d x 0%Z)); [lia|]. reflexivity. }
    rewrite E in N. assert (Hi := Rinv_0_lt_compat _ (Hdx d ltac:(lia))). unfold Rdiv. rewrite <- Rmult_assoc. apply Rmult_le_compat_r; lra. }
  rewrite sum_over_scale in H. unfold courant.
  assert (E : sum_over (seq 0 (List.length M)) (fun d => dt * s d / dx d) = dt * sum_over (seq 0 (List.length M)) (fun d => s d / dx d)).
  { rewrite <- sum_over_scale. unfold sum_over. f_equal. apply map_ext. intros d. unfold Rdiv. ring. }
  rewrite E. set (S := sum_over _ (fun d => s d / dx d)) in *. set (N := sum_over _ _) in *. nra.
Qed.

(** ** one step *)

Lemma rk3_third : forall Op dt U i c, @rk3 R RArith Op dt U i c = (U i c + 2 * (third Op dt U i c + dt * Op (third Op dt U) i c)) / 3.
Proof.
  intros Op dt U i c. unfold rk3. cbn [fadd fmul fdiv fofz fdec RArith].
  set (U1 := fun j e => U j e + dt * Op U j e). change U1 with (second Op dt U). clear U1.
  match goal with |- context [Op ?V i c] => match V with U => fail 1 | second _ _ _ => fail 1 | third _ _ _ => fail 1 | _ => assert (E : V = third Op dt U) end end.
  { apply FunctionalExtensionality.functional_extensionality. intros j. apply FunctionalExtensionality.functional_extensionality. intros e.
    change (third Op dt U j e) with (3 / 4 * U j e + / 4 * (second Op dt U j e + dt * Op (second Op dt U) j e)).
    unfold Rdecimal. cbn [Z.opp Z.to_nat Pos.to_nat Pos.iter_op Nat.add pow Z.leb Z.compare]. change (10 ^ 2)%Z with 100%Z. change (second Op dt U j e) with (U j e + dt * Op U j e). field. }
  pose proof (f_equal (fun V => V i c) E) as E'. cbv beta in E'. rewrite E', E. reflexivity.
Qed.
Lemma step_bound : forall Op dt U i c k, 0 <= k <= 1 -> 0 <= U i c ->
  (1 - k) * U i c <= U i c + dt * Op U i c ->
  (1 - k) * second Op dt U i c <= second Op dt U i c + dt * Op (second Op dt U) i c ->
  (1 - k) * third Op dt U i c <= third Op dt U i c + dt * Op (third Op dt U) i c ->
  (1 - k) ^ 3 * U i c <= @rk3 R RArith Op dt U i c.
Proof.
  intros Op dt U i c k Hk HU H1 H2 H3. rewrite rk3_third.
  assert (T : third Op dt U i c = 3 / 4 * U i c + / 4 * (second Op dt U i c + dt * Op (second Op dt U) i c)) by reflexivity.
  assert (S : second Op dt U i c = U i c + dt * Op U i c) by reflexivity.
  set (u := U i c) in *. set (u1 := second Op dt U i c) in *. set (u2 := third Op dt U i c) in *. set (q := 1 - k) in *. assert (Q : 0 <= q <= 1) by (unfold q; lra).
  assert (B1 : q * u <= u1) by lra. assert (B2 : q * (q * u) <= q * u1) by (apply Rmult_le_compat_l; lra).
  assert (B3 : q * (q * u) <= u) by (assert (q * u <= u) by nra; nra).
  assert (B4 : q * (q * u) <= u2) by lra. assert (B5 : q * (q * (q * u)) <= q * u2) by (apply Rmult_le_compat_l; lra).
  assert (B6 : q * (q * (q * u)) <= u) by nra.
  replace (q ^ 3 * u) with (q * (q * (q * u))) by ring. lra.
Qed.

Lemma run_bound : forall Op dt i c k n U, 0 <= k <= 1 -> 0 <= U i c ->
  (forall t, (t < n)%nat -> let V := Nat.iter t (@rk3 R RArith Op dt) U in
    (1 - k) * V i c <= V i c + dt * Op V i c /\
    (1 - k) * second Op dt V i c <= second Op dt V i c + dt * Op (second Op dt V) i c /\
    (1 - k) * third Op dt V i c <= third Op dt V i c + dt * Op (third Op dt V) i c) ->
  (1 - k) ^ (3 * n) * U i c <= Nat.iter n (@rk3 R RArith Op dt) U i c.
Proof.
  intros Op dt i c k n U Hk HU. induction n as [|n IH]; intros H; [cbn; lra|].
  assert (P : forall m, 0 <= (1 - k) ^ m) by (intros m; apply pow_le; lra).
  assert (I := IH (fun t Ht => H t (Nat.lt_lt_succ_r _ _ Ht))). destruct (H n (Nat.lt_succ_diag_r n)) as (H1 & H2 & H3).
  change (Nat.iter (Datatypes.S n) (@rk3 R RArith Op dt) U) with (@rk3 R RArith Op dt (Nat.iter n (@rk3 R RArith Op dt) U)).
  set (V := Nat.iter n (@rk3 R RArith Op dt) U) in *. assert (HV : 0 <= V i c) by (eapply Rle_trans; [|exact I]; apply Rmult_le_pos; auto).
  pose proof (step_bound Op dt V i c k Hk HV H1 H2 H3) as B.
  replace (3 * Datatypes.S n)%nat with (3 + 3 * n)%nat by lia. rewrite pow_add, Rmult_assoc.
  eapply Rle_trans; [apply Rmult_le_compat_l; [apply P|exact I]|exact B].
Qed.
