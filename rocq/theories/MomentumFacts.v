(** * MomentumFacts: momentum is a linear invariant of the motion of a neutral plasma. *)
From Coq Require Import ZArith List Reals Lra Lia.
From Verif Require Import Base Arith ArithR Chunk FieldSpec Sources Programs OscillationSpec OscillationFacts SwingSpec SwingFacts GyroSpec GyroFacts FlowSpec MomentumSpec.
Import ListNotations.
Open Scope R_scope.

(** The momentum of the state [v] in the magnetic field [b]. *)
Definition mom (eps0 : R) (b : Z -> R) (v : vec) (j : Z) : R := v 0%nat (1 + j)%Z + v 1%nat (1 + j)%Z + eps0 * vector_product (v 2%nat) (fun k => b (3 + k)%Z) j.

Ltac three_cases j := let H := fresh in assert (H : (j = 0 \/ j = 1 \/ j = 2)%Z) by lia; destruct H as [->|[->| ->]].
Lemma vp_cases : forall a b, vector_product a b 0%Z = a 1%Z * b 2%Z - a 2%Z * b 1%Z /\ vector_product a b 1%Z = a 2%Z * b 0%Z - a 0%Z * b 2%Z /\ vector_product a b 2%Z = a 0%Z * b 1%Z - a 1%Z * b 0%Z.
Proof. intros. now repeat split. Qed.

Lemma mom_lin : forall eps0 b s t u v j, (0 <= j < 3)%Z -> mom eps0 b (lin s t u v) j = s * mom eps0 b u j + t * mom eps0 b v j.
Proof. intros eps0 b s t u v j Hj. unfold mom, vector_product, lin. ring. Qed.
Lemma mom_same : forall eps0 b c u v j, (0 <= j < 3)%Z -> same u v -> (forall k, (3 <= k < 6)%Z -> b k = c k) -> mom eps0 b u j = mom eps0 c v j.
Proof.
  intros eps0 b c u v j Hj [H1 H2] Hb. unfold mom. destruct (vp_cases (u 2%nat) (fun k => b (3 + k)%Z)) as (A0 & A1 & A2), (vp_cases (v 2%nat) (fun k => c (3 + k)%Z)) as (B0 & B1 & B2).
  three_cases j; rewrite ?A0, ?A1, ?A2, ?B0, ?B1, ?B2; rewrite !(H1 0%nat), !(H1 1%nat), !H2, !Hb by lia; reflexivity.
Qed.
(** No force on the whole: what the field pulls at one fluid it pulls back at the other, and the current takes from the field what the magnetic force gives. *)
Lemma mom_spin : forall eps0 a0 a1 r0 r1 m0 m1 b v j, (0 <= j < 3)%Z -> eps0 * m0 = - a0 -> eps0 * m1 = - a1 -> a0 * r0 + a1 * r1 = 0 -> mom eps0 b (spin a0 a1 r0 r1 m0 m1 b v) j = 0.
Proof.
  intros eps0 a0 a1 r0 r1 m0 m1 b v j Hj E0 E1 N. unfold mom. set (s := spin a0 a1 r0 r1 m0 m1 b v). destruct (vp_cases (s 2%nat) (fun k => b (3 + k)%Z)) as (A0 & A1 & A2).
  assert (a0 = - (eps0 * m0)) as -> by lra. assert (a1 = - (eps0 * m1)) as -> by lra.
  assert (Q : forall X, (- (eps0 * m0) * r0 + - (eps0 * m1) * r1) * X = 0) by (intros; rewrite N; ring).
  three_cases j; rewrite ?A0, ?A1, ?A2; unfold s, spin, pull, turn, cross; cbn [Z.sub Z.add Z.opp Z.pos_sub Pos.pred_double Pos.add Pos.succ]; [eapply eq_trans; [|apply (Q (v 2%nat 0%Z))]|eapply eq_trans; [|apply (Q (v 2%nat 1%Z))]|eapply eq_trans; [|apply (Q (v 2%nat 2%Z))]]; ring.
Qed.

Lemma mom_iter : forall p eps0 dt S0 n j, (0 <= j < 3)%Z -> eps0 * nth 0 (pl_ms p) 0 = - pl_e p -> eps0 * nth 1 (pl_ms p) 0 = - pl_i p -> pl_e p * S0 0%nat 0%Z + pl_i p * S0 1%nat 0%Z = 0 ->
  let T := Nat.iter n (still_rk3 p dt) S0 in kept S0 T /\ mom eps0 (T 2%nat) T j = mom eps0 (S0 2%nat) S0 j.
Proof.
  intros p eps0 dt S0 n j Hj E0 E1 N. induction n as [|n [KK IH]]; cbn zeta.
  - split; [split; [|split]; auto|reflexivity].
  - change (Nat.iter (S n) (still_rk3 p dt) S0) with (still_rk3 p dt (Nat.iter n (still_rk3 p dt) S0)). set (T := Nat.iter n (still_rk3 p dt) S0) in *.
    destruct (still_rk3_spin p dt T) as [KT ST]. split; [eapply kept_trans; eassumption|]. rewrite <- IH. destruct KT as (_ & _ & KT).
    rewrite (mom_same eps0 _ (T 2%nat) _ _ j Hj ST KT). unfold cubic. rewrite !mom_lin by exact Hj. destruct KK as (D0 & D1 & _).
    rewrite !mom_spin by (rewrite ?D0, ?D1; assumption). ring.
Qed.
