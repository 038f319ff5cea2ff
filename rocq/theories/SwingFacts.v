(** * SwingFacts: uniform parts of a plasma in a plane stay uniform. *)
From Coq Require Import ZArith List String Bool Reals Lra Lia Psatz.
From Verif Require Import Base BaseFacts BoxSpec BoxFacts Interface EulerSpec PhysicsSpec PhysicsFacts Properties_Physics NumFacts Range RangeSpec RangeFacts ApiSpec Arith ArithR Chunk FieldSpec VarId Manager MgrSpec MgrFacts
  BC BCSpec BCFacts Sweep SweepSpec Euler Maxwell Sources SourceSpec ParFacts SweepFacts FluxFacts Programs ProgramsSpec ConserveFacts RhsFacts Properties_Programs
  SymmetrySpec SymmetryFacts Properties_Symmetry Properties_Chunk Properties_Monopole AxesFacts PositiveSpec PositiveFacts Properties_Positive AccuracyGas AccuracySpec AccuracyFacts GaussSpec GaussFacts OscillationSpec OscillationFacts SwingSpec.
Import ListNotations.
Open Scope R_scope.

Lemma move_swap : forall d e s t (x : list Z), d <> e -> move d s (move e t x) = move e t (move d s x).
Proof. intros d e s t x H. unfold move. rewrite !nth_upd_neq by auto. apply upd_comm. auto. Qed.
Lemma move_twice : forall s t s' t' (x : list Z), (1 < List.length x)%nat -> move 0 s' (move 1 t' (move 0 s (move 1 t x))) = move 0 (s + s') (move 1 (t + t') x).
Proof.
  intros s t s' t' x H. rewrite (move_swap 1 0) by lia. rewrite move_move by (rewrite move_length; rewrite move_length; lia).
  rewrite move_move by lia. reflexivity.
Qed.

(** Unknown [i] has the components [S i] in the cells up to [r] from [x]. *)
Definition level2 (S : nat -> Z -> R) (r : Z) (V : @sys R) (x : list Z) : Prop :=
  forall s t i k, (- r <= s <= r)%Z -> (- r <= t <= r)%Z -> (i < 3)%nat -> (0 <= k < comps_of i)%Z -> V i (move 0 s (move 1 t x) ++ [k]) = S i k.

Lemma flat_flux : forall n G (M : box) bc dx (u : field R) x (a : Z -> R) j d r, (d < List.length x)%nat -> (lo M d + 2 <= nth d x 0%Z < hi M d - 2)%Z ->
  (forall t i, (-2 <= t <= 2)%Z -> (0 <= i < n)%Z -> u (move d t x ++ [i]) = a i) -> with_fluxes (fun e => wall n G (seen (bc e) M e u) e) dx r d x j = r x j.
Proof.
  intros n G M bc dx u x a j d r Hx HM HU. unfold with_fluxes.
  assert (SE : forall t i, (-2 <= t <= 2)%Z -> (0 <= i < n)%Z -> seen (bc d) M d u (move d t x ++ [i]) = a i).
  { intros t i Ht Hi. rewrite seen_here by exact Hx. destruct (Z.ltb_spec (nth d x 0%Z + t) (lo M d)); [lia|]. destruct (Z.leb_spec (hi M d) (nth d x 0%Z + t)); [lia|]. now apply HU. }
  rewrite (wall_ext n G (seen (bc d) M d u) (seen (bc d) M d u) d x (move d 1 x) j).
  - cbn [fadd fsub fdiv RArith]. ring.
  - intros t i Ht Hi. rewrite move_move by exact Hx. rewrite !SE by lia. reflexivity.
  - now apply move_0.
  - apply move_0. now rewrite move_length.
Qed.

Lemma flat_rhs2 : forall n G (M : box) bc dx (u : field R) x (a : Z -> R) j, (1 < List.length x)%nat ->
  (lo M 0 + 2 <= nth 0 x 0%Z < hi M 0 - 2)%Z -> (lo M 1 + 2 <= nth 1 x 0%Z < hi M 1 - 2)%Z ->
  (forall s t i, (-2 <= s <= 2)%Z -> (-2 <= t <= 2)%Z -> (0 <= i < n)%Z -> u (move 0 s (move 1 t x) ++ [i]) = a i) -> fv_rhs n G M bc dx [0; 1]%nat u (x ++ [j]) = 0.
Proof.
  intros n G M bc dx u x a j Hx H0 H1 HU. unfold fv_rhs, cellwise. rewrite removelast_last, last_last. cbn [fold_left].
  rewrite (flat_flux n G M bc dx u x a j 1); [|lia|exact H1|].
  - rewrite (flat_flux n G M bc dx u x a j 0); [reflexivity|lia|exact H0|].
    intros t i Ht Hi. rewrite <- (move_0 1 x Hx) at 1. apply HU; lia || assumption.
  - intros t i Ht Hi. rewrite <- (move_0 0 (move 1 t x)) by (rewrite move_length; lia). apply HU; lia || assumption.
Qed.

Lemma level2_op : forall p G5 G6 (M : box) bc dx V x S, List.length (pl_ms p) = 2%nat -> (1 < List.length x)%nat ->
  (lo M 0 + 2 <= nth 0 x 0%Z < hi M 0 - 2)%Z -> (lo M 1 + 2 <= nth 1 x 0%Z < hi M 1 - 2)%Z -> level2 S 2 V x ->
  forall i k, (i < 3)%nat -> (0 <= k < comps_of i)%Z -> plasma_op p G5 G6 M bc dx [0; 1]%nat [0; 1]%nat V i (x ++ [k]) = still_op p S i k.
Proof.
  intros p G5 G6 M bc dx V x S Hms Hx HM0 HM1 HV.
  assert (H0 : forall i k, (i < 3)%nat -> (0 <= k < comps_of i)%Z -> V i (x ++ [k]) = S i k).
  { intros i k Hi Hk. rewrite <- (move_0 1 x Hx) at 1. rewrite <- (move_0 0 (move 1 0 x)) by (rewrite move_length; lia). apply HV; lia || assumption. }
  assert (LZ : forall a com r k, (a < 2)%nat -> (0 <= k < 5)%Z -> r (x ++ [k]) = 0 -> with_lorentz com (V a) (V 2%nat) r (x ++ [k]) = force com (S a) (S 2%nat) k).
  { intros a com r k Ha Hk Hr. unfold with_lorentz. rewrite removelast_last, last_last, Hr. unfold force.
    rewrite (lorentz_ext com (fun i => V a (x ++ [i])) (S a) (fun i => V 2%nat (x ++ [i])) (S 2%nat) k Hk).
    - destruct (lorentz_rate com (S a) (S 2%nat) k); [cbn [fadd RArith]; ring|reflexivity].
    - intros i Hi. apply H0; [lia|]. destruct a as [|[|a]]; [exact Hi|exact Hi|lia].
    - intros i Hi. apply H0; [lia|exact Hi]. }
  intros i k Hi Hk. destruct i as [|[|[|i]]]; [| | |lia].
  - cbn [plasma_op still_op comps_of] in *. apply LZ; [lia|exact Hk|]. apply (flat_rhs2 5 G5 M _ dx _ x (S 0%nat) k Hx HM0 HM1). intros s t c Hs Ht Hc. apply HV; [exact Hs|exact Ht|lia|exact Hc].
  - cbn [plasma_op still_op comps_of] in *. apply LZ; [lia|exact Hk|]. apply (flat_rhs2 5 G5 M _ dx _ x (S 1%nat) k Hx HM0 HM1). intros s t c Hs Ht Hc. apply HV; [exact Hs|exact Ht|lia|exact Hc].
  - cbn [plasma_op still_op comps_of] in *. unfold with_current. rewrite last_last, removelast_last. rewrite (flat_rhs2 6 G6 M _ dx _ x (S 2%nat) k Hx HM0 HM1); [|intros s t c Hs Ht Hc; apply HV; [exact Hs|exact Ht|lia|exact Hc]].
    destruct (Z.ltb_spec k 3) as [H3|H3]; [|reflexivity]. destruct (pl_ms p) as [|k0 [|k1 [|? ?]]]; try discriminate. cbn [current fadd fmul RArith nth].
    rewrite (H0 0%nat), (H0 1%nat) by (cbn; lia). ring.
Qed.

Lemma level2_less : forall S r r' V x, (r' <= r)%Z -> level2 S r V x -> level2 S r' V x.
Proof. intros S r r' V x Hr HV s t i k Hs Ht. apply HV; lia. Qed.

Lemma level2_rk3 : forall p G5 G6 (M : box) bc dx dt V x S r, List.length (pl_ms p) = 2%nat -> (1 < List.length x)%nat -> (0 <= r)%Z ->
  (lo M 0 + r + 6 <= nth 0 x 0%Z < hi M 0 - r - 6)%Z -> (lo M 1 + r + 6 <= nth 1 x 0%Z < hi M 1 - r - 6)%Z ->
  level2 S (r + 6) V x -> level2 (still_rk3 p dt S) r (rk3 (plasma_op p G5 G6 M bc dx [0; 1]%nat [0; 1]%nat) dt V) x.
Proof.
  intros p G5 G6 M bc dx dt V x S r Hms Hx Hr HM0 HM1 HV. set (Op := plasma_op p G5 G6 M bc dx [0; 1]%nat [0; 1]%nat).
  assert (OPS : forall W T q s t i k, (q <= r + 4)%Z -> level2 T (q + 2) W x -> (- q <= s <= q)%Z -> (- q <= t <= q)%Z -> (i < 3)%nat -> (0 <= k < comps_of i)%Z -> Op W i (move 0 s (move 1 t x) ++ [k]) = still_op p T i k).
  { intros W T q s t i k Hq HW Hs Ht Hi Hk. apply level2_op; auto.
    - now rewrite !move_length.
    - unfold move. rewrite nth_upd_eq by (rewrite upd_length; lia). rewrite nth_upd_neq by lia. lia.
    - rewrite (move_swap 0 1) by lia. unfold move. rewrite nth_upd_eq by (rewrite upd_length; lia). rewrite nth_upd_neq by lia. lia.
    - intros s' t' i' k' Hs' Ht' Hi' Hk'. rewrite move_twice by exact Hx. apply HW; [lia|lia|exact Hi'|exact Hk']. }
  assert (ST : forall W T q, (q <= r + 4)%Z -> level2 T (q + 2) W x -> level2 (still_second p dt T) q (second Op dt W) x).
  { intros W T q Hq HW s t i k Hs Ht Hi Hk. unfold second, still_second. rewrite (OPS W T q s t i k Hq HW Hs Ht Hi Hk), (HW s t i k) by (lia || assumption). reflexivity. }
  replace (r + 6)%Z with (r + 4 + 2)%Z in HV by ring. assert (S1 := ST V S (r + 4)%Z ltac:(lia) HV).
  replace (r + 4)%Z with (r + 2 + 2)%Z in S1 by ring. assert (S2 := ST _ _ (r + 2)%Z ltac:(lia) S1).
  assert (S3 : level2 (still_third p dt S) (r + 2) (third Op dt V) x).
  { intros s t i k Hs Ht Hi Hk. unfold third, still_third. rewrite (HV s t i k), (S2 s t i k) by (lia || assumption). reflexivity. }
  intros s t i k Hs Ht Hi Hk. rewrite rk3_point. unfold still_rk3. rewrite (HV s t i k) by (lia || assumption).
  assert (V' : level2 S (r + 2) V x) by (apply (level2_less S (r + 4 + 2)); [lia|exact HV]).
  assert (S1' : level2 (still_second p dt S) (r + 2) (second Op dt V) x) by (apply (level2_less _ (r + 2 + 2)); [lia|exact S1]).
  rewrite (OPS V S r s t i k ltac:(lia) V' Hs Ht Hi Hk), (OPS _ _ r s t i k ltac:(lia) S1' Hs Ht Hi Hk), (OPS _ _ r s t i k ltac:(lia) S3 Hs Ht Hi Hk). reflexivity.
Qed.

(** ** the amplitude after any number of steps *)
Lemma still_iter : forall p dt S0 n, unmagnetised S0 -> let w2 := plasma_frequency2 p (S0 0%nat 0%Z) (S0 1%nat 0%Z) in let z2 := w2 * dt ^ 2 in
  let T := Nat.iter n (still_rk3 p dt) S0 in
  unmagnetised T /\ T 0%nat 0%Z = S0 0%nat 0%Z /\ T 1%nat 0%Z = S0 1%nat 0%Z /\
  forall j, (0 <= j < 3)%Z -> w2 * T 2%nat j ^ 2 + still_current p T j ^ 2 = (1 - z2 ^ 2 / 12 + z2 ^ 3 / 36) ^ n * (w2 * S0 2%nat j ^ 2 + still_current p S0 j ^ 2).
Proof.
  intros p dt S0 n HB w2 z2. induction n as [|n (A & B & C & D)]; cbn zeta.
  - split; [exact HB|]. split; [reflexivity|]. split; [reflexivity|]. intros j Hj. rewrite pow_O, Rmult_1_l. reflexivity.
  - change (Nat.iter (S n) (still_rk3 p dt) S0) with (still_rk3 p dt (Nat.iter n (still_rk3 p dt) S0)). set (T := Nat.iter n (still_rk3 p dt) S0) in *.
    destruct (still_rk3_plain p dt T A) as (A' & B' & C' & D'). rewrite B, C in *. fold w2 in D'. fold z2 in D'. split; [exact A'|]. split; [exact B'|]. split; [exact C'|].
    intros j Hj. rewrite D', D by exact Hj. cbn [pow]. ring.
Qed.
