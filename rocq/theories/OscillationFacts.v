(** * OscillationFacts: uniform parts of a plasma stay uniform. *)
From Coq Require Import ZArith List String Bool Reals Lra Lia Psatz.
From Verif Require Import Base BaseFacts BoxSpec BoxFacts Interface EulerSpec PhysicsSpec PhysicsFacts Properties_Physics NumFacts Range RangeSpec RangeFacts ApiSpec Arith ArithR Chunk FieldSpec VarId Manager MgrSpec MgrFacts
  BC BCSpec BCFacts Sweep SweepSpec Euler Maxwell Sources SourceSpec ParFacts SweepFacts FluxFacts Programs ProgramsSpec ConserveFacts RhsFacts Properties_Programs
  SymmetrySpec SymmetryFacts Properties_Symmetry Properties_Chunk Properties_Monopole AxesFacts PositiveSpec PositiveFacts Properties_Positive AccuracyGas AccuracySpec AccuracyFacts GaussSpec GaussFacts OscillationSpec.
Import ListNotations.
Open Scope R_scope.

(** Unknown [i] has the components [S i] in the cells up to [r] from [x]. *)
Definition comps_of (i : nat) : Z := match i with 2%nat => 6%Z | _ => 5%Z end.
Definition level (S : nat -> Z -> R) (r : Z) (V : @sys R) (x : list Z) : Prop :=
  forall t i k, (- r <= t <= r)%Z -> (i < 3)%nat -> (0 <= k < comps_of i)%Z -> V i (move 0 t x ++ [k]) = S i k.

(** The rate of change of uniform data. *)
Definition force (com : R) (q e : Z -> R) (k : Z) : R := match lorentz_rate com q e k with Some f => f | None => 0 end.
Definition still_op (p : plasma) (S : nat -> Z -> R) (i : nat) (k : Z) : R :=
  match i with
  | 0%nat => force (pl_e p) (S 0%nat) (S 2%nat) k
  | 1%nat => force (pl_i p) (S 1%nat) (S 2%nat) k
  | _ => if (k <? 3)%Z then nth 0 (pl_ms p) 0 * S 0%nat (k + 1)%Z + nth 1 (pl_ms p) 0 * S 1%nat (k + 1)%Z else 0
  end.

Lemma lorentz_ext : forall com (q q' e e' : Z -> R) k, (0 <= k < 5)%Z -> (forall i, (0 <= i < 5)%Z -> q i = q' i) -> (forall i, (0 <= i < 6)%Z -> e i = e' i) ->
  lorentz_rate com q e k = lorentz_rate com q' e' k.
Proof.
  intros com q q' e e' k Hk Hq He. assert (k = 0 \/ k = 1 \/ k = 2 \/ k = 3 \/ k = 4)%Z as [->|[->|[->|[->| ->]]]] by lia; cbn [lorentz_rate]; [reflexivity| | | |]; rewrite ?Hq, ?He by lia; reflexivity.
Qed.

Lemma level_op : forall p G5 G6 (M : box) dx V x S, List.length (pl_ms p) = 2%nat -> (0 < List.length x)%nat -> (lo M 0 + 2 <= nth 0 x 0%Z < hi M 0 - 2)%Z -> level S 2 V x ->
  forall i k, (i < 3)%nat -> (0 <= k < comps_of i)%Z -> plasma_op p G5 G6 M wall_kinds dx [0%nat] [0%nat] V i (x ++ [k]) = still_op p S i k.
Proof.
  intros p G5 G6 M dx V x S Hms Hx HM HV.
  assert (H0 : forall i k, (i < 3)%nat -> (0 <= k < comps_of i)%Z -> V i (x ++ [k]) = S i k) by (intros i k Hi Hk; rewrite <- (move_0 0 x Hx) at 1; apply HV; lia || assumption).
  assert (LZ : forall a com r k, (a < 2)%nat -> (0 <= k < 5)%Z -> r (x ++ [k]) = 0 -> with_lorentz com (V a) (V 2%nat) r (x ++ [k]) = force com (S a) (S 2%nat) k).
  { intros a com r k Ha Hk Hr. unfold with_lorentz. rewrite removelast_last, last_last, Hr. unfold force.
    rewrite (lorentz_ext com (fun i => V a (x ++ [i])) (S a) (fun i => V 2%nat (x ++ [i])) (S 2%nat) k Hk).
    - destruct (lorentz_rate com (S a) (S 2%nat) k); [cbn [fadd RArith]; ring|reflexivity].
    - intros i Hi. apply H0; [lia|]. destruct a as [|[|a]]; [exact Hi|exact Hi|lia].
    - intros i Hi. apply H0; [lia|exact Hi]. }
  intros i k Hi Hk. destruct i as [|[|[|i]]]; [| | |lia].
  - cbn [plasma_op still_op comps_of] in *. apply LZ; [lia|exact Hk|]. apply (flat_rhs 5 G5 M _ dx _ x (S 0%nat) k Hx HM). intros t c Ht Hc. apply HV; [exact Ht|lia|exact Hc].
  - cbn [plasma_op still_op comps_of] in *. apply LZ; [lia|exact Hk|]. apply (flat_rhs 5 G5 M _ dx _ x (S 1%nat) k Hx HM). intros t c Ht Hc. apply HV; [exact Ht|lia|exact Hc].
  - cbn [plasma_op still_op comps_of] in *. unfold with_current. rewrite last_last, removelast_last. rewrite (flat_rhs 6 G6 M _ dx _ x (S 2%nat) k Hx HM); [|intros t c Ht Hc; apply HV; [exact Ht|lia|exact Hc]].
    destruct (Z.ltb_spec k 3) as [H3|H3]; [|reflexivity]. destruct (pl_ms p) as [|k0 [|k1 [|? ?]]]; try discriminate. cbn [current fadd fmul RArith nth].
    rewrite (H0 0%nat), (H0 1%nat) by (cbn; lia). ring.
Qed.

Definition still_second (p : plasma) (dt : R) (S : nat -> Z -> R) : nat -> Z -> R := fun i k => S i k + dt * still_op p S i k.
Definition still_third (p : plasma) (dt : R) (S : nat -> Z -> R) : nat -> Z -> R := fun i k => 3 / 4 * S i k + / 4 * still_second p dt (still_second p dt S) i k.
Definition still_rk3 (p : plasma) (dt : R) (S : nat -> Z -> R) : nat -> Z -> R :=
  fun i k => S i k + dt * ((still_op p S i k + still_op p (still_second p dt S) i k + 4 * still_op p (still_third p dt S) i k) / 6).

Lemma level_less : forall S r r' V x, (r' <= r)%Z -> level S r V x -> level S r' V x.
Proof. intros S r r' V x Hr HV t i k Ht. apply HV. lia. Qed.

Lemma level_rk3 : forall p G5 G6 (M : box) dx dt V x S r, List.length (pl_ms p) = 2%nat -> (0 < List.length x)%nat -> (0 <= r)%Z -> (lo M 0 + r + 6 <= nth 0 x 0%Z < hi M 0 - r - 6)%Z ->
  level S (r + 6) V x -> level (still_rk3 p dt S) r (rk3 (plasma_op p G5 G6 M wall_kinds dx [0%nat] [0%nat]) dt V) x.
Proof.
  intros p G5 G6 M dx dt V x S r Hms Hx Hr HM HV. set (Op := plasma_op p G5 G6 M wall_kinds dx [0%nat] [0%nat]).
  assert (OPS : forall W T s t i k, (s <= r + 4)%Z -> level T (s + 2) W x -> (- s <= t <= s)%Z -> (i < 3)%nat -> (0 <= k < comps_of i)%Z -> Op W i (move 0 t x ++ [k]) = still_op p T i k).
  { intros W T s t i k Hs HW Ht Hi Hk. apply level_op; auto; [now rewrite move_length|unfold move; rewrite nth_upd_eq by exact Hx; lia|].
    intros t' i' k' Ht' Hi' Hk'. rewrite move_move by exact Hx. apply HW; [lia|exact Hi'|exact Hk']. }
  assert (ST : forall W T s, (s <= r + 4)%Z -> level T (s + 2) W x -> level (still_second p dt T) s (second Op dt W) x).
  { intros W T s Hs HW t i k Ht Hi Hk. unfold second, still_second. rewrite (OPS W T s t i k Hs HW Ht Hi Hk), (HW t i k) by (lia || assumption). reflexivity. }
  replace (r + 6)%Z with (r + 4 + 2)%Z in HV by ring. assert (S1 := ST V S (r + 4)%Z ltac:(lia) HV).
  replace (r + 4)%Z with (r + 2 + 2)%Z in S1 by ring. assert (S2 := ST _ _ (r + 2)%Z ltac:(lia) S1).
  assert (S3 : level (still_third p dt S) (r + 2) (third Op dt V) x).
  { intros t i k Ht Hi Hk. unfold third, still_third. rewrite (HV t i k), (S2 t i k) by (lia || assumption). reflexivity. }
  intros t i k Ht Hi Hk. rewrite rk3_point. unfold still_rk3. rewrite (HV t i k) by (lia || assumption).
  assert (V' : level S (r + 2) V x) by (apply (level_less S (r + 4 + 2)); [lia|exact HV]).
  assert (S1' : level (still_second p dt S) (r + 2) (second Op dt V) x) by (apply (level_less _ (r + 2 + 2)); [lia|exact S1]).
  rewrite (OPS V S r t i k ltac:(lia) V' Ht Hi Hk), (OPS _ _ r t i k ltac:(lia) S1' Ht Hi Hk), (OPS _ _ r t i k ltac:(lia) S3 Ht Hi Hk). reflexivity.
Qed.

(** ** the oscillation *)

(** No magnetic field. *)
Definition unmagnetised (S : nat -> Z -> R) : Prop := forall k, (3 <= k < 6)%Z -> S 2%nat k = 0.
Definition still_current (p : plasma) (S : nat -> Z -> R) (k : Z) : R := nth 0 (pl_ms p) 0 * S 0%nat (k + 1)%Z + nth 1 (pl_ms p) 0 * S 1%nat (k + 1)%Z.

Lemma still_second_plain : forall p dt S, unmagnetised S -> let T := still_second p dt S in let w2 := plasma_frequency2 p (S 0%nat 0%Z) (S 1%nat 0%Z) in
  unmagnetised T /\ T 0%nat 0%Z = S 0%nat 0%Z /\ T 1%nat 0%Z = S 1%nat 0%Z /\
  forall j, (0 <= j < 3)%Z -> T 2%nat j = S 2%nat j + dt * still_current p S j /\ still_current p T j = still_current p S j - dt * w2 * S 2%nat j.
Proof.
  intros p dt S HB T w2. unfold T, still_second. split; [|split; [|split]].
  - intros k Hk. cbn [still_op]. destruct (Z.ltb_spec k 3); [lia|]. rewrite HB by exact Hk. ring.
  - cbn [still_op]. unfold force. cbn [lorentz_rate]. ring.
  - cbn [still_op]. unfold force. cbn [lorentz_rate]. ring.
  - intros j Hj. split.
    + cbn [still_op]. destruct (Z.ltb_spec j 3); [|lia]. unfold still_current. ring.
    + unfold still_current, w2, plasma_frequency2. cbn [still_op]. unfold force.
      assert (j = 0 \/ j = 1 \/ j = 2)%Z as [->|[->| ->]] by lia; cbn [Z.add Pos.add Pos.succ lorentz_rate fadd fsub fmul RArith]; rewrite ?(HB 3%Z), ?(HB 4%Z), ?(HB 5%Z) by lia; ring.
Qed.

(** The operator itself, from the second stage with step 1. *)
Lemma still_op_plain : forall p S, unmagnetised S -> let w2 := plasma_frequency2 p (S 0%nat 0%Z) (S 1%nat 0%Z) in
  (forall k, (3 <= k < 6)%Z -> still_op p S 2%nat k = 0) /\ still_op p S 0%nat 0%Z = 0 /\ still_op p S 1%nat 0%Z = 0 /\
  forall j, (0 <= j < 3)%Z -> still_op p S 2%nat j = still_current p S j /\
    nth 0 (pl_ms p) 0 * still_op p S 0%nat (j + 1)%Z + nth 1 (pl_ms p) 0 * still_op p S 1%nat (j + 1)%Z = - w2 * S 2%nat j.
Proof.
  intros p S HB w2. destruct (still_second_plain p 1 S HB) as (A & B & C & D). unfold still_second in *.
  split; [intros k Hk; specialize (A k Hk); cbn beta in A; rewrite HB in A by exact Hk; lra|]. split; [lra|]. split; [lra|].
  intros j Hj. destruct (D j Hj) as [D1 D2]. cbn beta in D1, D2. split; [lra|]. unfold still_current in D2. fold w2 in D2. lra.
Qed.

Lemma still_rk3_plain : forall p dt S, unmagnetised S -> let T := still_rk3 p dt S in let w2 := plasma_frequency2 p (S 0%nat 0%Z) (S 1%nat 0%Z) in
  unmagnetised T /\ T 0%nat 0%Z = S 0%nat 0%Z /\ T 1%nat 0%Z = S 1%nat 0%Z /\
  forall j, (0 <= j < 3)%Z -> w2 * T 2%nat j ^ 2 + still_current p T j ^ 2 =
    (1 - (w2 * dt ^ 2) ^ 2 / 12 + (w2 * dt ^ 2) ^ 3 / 36) * (w2 * S 2%nat j ^ 2 + still_current p S j ^ 2).
Proof.
  intros p dt S HB T w2. destruct (still_second_plain p dt S HB) as (A1 & A2 & A3 & A4). set (S1 := still_second p dt S) in *.
  destruct (still_second_plain p dt S1 A1) as (B1 & B2 & B3 & B4). set (S2 := still_second p dt S1) in *.
  rewrite A2, A3 in B4. fold w2 in A4, B4.
  assert (C1 : unmagnetised (still_third p dt S)). { intros k Hk. unfold still_third. fold S1 S2. rewrite HB, B1 by exact Hk. ring. }
  assert (C2 : still_third p dt S 0%nat 0%Z = S 0%nat 0%Z /\ still_third p dt S 1%nat 0%Z = S 1%nat 0%Z). { unfold still_third. fold S1 S2. rewrite B2, B3, A2, A3. split; field. }
  destruct (still_op_plain p S HB) as (P1 & P2 & P3 & P4). destruct (still_op_plain p S1 A1) as (Q1 & Q2 & Q3 & Q4). destruct (still_op_plain p _ C1) as (R1 & R2 & R3 & R4).
  rewrite A2, A3 in Q4. destruct C2 as [C2 C3]. rewrite C2, C3 in R4. fold w2 in P4, Q4, R4. unfold T, still_rk3. fold S1.
  split; [intros k Hk; rewrite P1, Q1, R1, HB by exact Hk; lra|]. split; [rewrite P2, Q2, R2; lra|]. split; [rewrite P3, Q3, R3; lra|].
  intros j Hj. destruct (A4 j Hj) as [E1 J1], (B4 j Hj) as [E2 J2], (P4 j Hj) as [P5 P6], (Q4 j Hj) as [Q5 Q6], (R4 j Hj) as [R5 R6].
  assert (E3 : still_third p dt S 2%nat j = 3 / 4 * S 2%nat j + / 4 * S2 2%nat j) by reflexivity.
  assert (J3 : still_current p (still_third p dt S) j = 3 / 4 * still_current p S j + / 4 * still_current p S2 j) by (unfold still_current, still_third; fold S1 S2; ring).
  assert (JT : still_current p (still_rk3 p dt S) j = still_current p S j + dt * ((- w2 * S 2%nat j + - w2 * S1 2%nat j + 4 * (- w2 * still_third p dt S 2%nat j)) / 6)).
  { rewrite <- P6, <- Q6, <- R6. unfold still_current, still_rk3. fold S1. field. }
  change (fun i k => S i k + dt * ((still_op p S i k + still_op p S1 i k + 4 * still_op p (still_third p dt S) i k) / 6)) with (still_rk3 p dt S).
  rewrite JT. rewrite P5, Q5, R5, J3, E3, J2, E2, J1, E1. field.
Qed.
