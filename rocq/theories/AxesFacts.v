(** * AxesFacts: the right-hand sides with the axes in another order. *)
From Coq Require Import ZArith List String Lia Bool Reals Lra Permutation.
From Verif Require Import Base BaseFacts BoxSpec BoxFacts Range RangeSpec RangeFacts ApiSpec Arith ArithR Chunk ChunkFacts FieldSpec FieldFacts VarId Manager MgrSpec MgrFacts
  BC BCSpec BCFacts Sweep SweepSpec Euler Maxwell EulerSpec PhysicsSpec PhysicsFacts ParFacts SweepFacts FluxFacts Programs ProgramsSpec ConserveFacts SymmetrySpec SymmetryFacts AxesSpec.
Import ListNotations.
Open Scope Z_scope.

(** ** cells *)

Lemma axes_length : forall p x, (List.length p <= List.length x)%nat -> List.length (axes p x) = List.length x.
Proof. intros. unfold axes. rewrite app_length, map_length, skipn_length. lia. Qed.
Lemma axes_nth : forall p x i, (i < List.length p)%nat -> nth i (axes p x) 0 = nth (nth i p O) x 0.
Proof.
  intros p x i Hi. unfold axes. rewrite app_nth1 by (now rewrite map_length). rewrite (nth_indep _ 0 (nth O x 0)) by (now rewrite map_length). now rewrite (map_nth (fun d => nth d x 0)).
Qed.
Lemma upd_out : forall T (l : list T) n x, (List.length l <= n)%nat -> upd l n x = l.
Proof. induction l as [|a l IH]; intros [|n] x H; cbn in *; auto; try lia. now rewrite IH by lia. Qed.
Lemma skipn_upd : forall T (l : list T) k n x, (n < k)%nat -> skipn k (upd l n x) = skipn k l.
Proof. induction l as [|a l IH]; intros [|k] [|n] x H; cbn; auto; try lia. apply IH. lia. Qed.

Section Order.
Variable p : list nat.
Variable k : nat.
Hypothesis HP : Permutation p (seq 0 k).

Lemma order_length : List.length p = k.
Proof. rewrite (Permutation_length HP). apply seq_length. Qed.
Lemma order_in : forall i, (i < k)%nat -> (nth i p O < k)%nat.
Proof. intros i Hi. assert (H : In (nth i p O) (seq 0 k)) by (eapply Permutation_in; [exact HP|]; apply nth_In; now rewrite order_length). apply in_seq in H. lia. Qed.
Lemma order_nodup : NoDup p.
Proof. eapply Permutation_NoDup; [symmetry; exact HP|]. apply seq_NoDup. Qed.
Lemma order_inj : forall i j, (i < k)%nat -> (j < k)%nat -> nth i p O = nth j p O -> i = j.
Proof. intros i j Hi Hj. apply NoDup_nth; [exact order_nodup| |]; now rewrite order_length. Qed.

Lemma axes_move : forall i t x, (i < k)%nat -> (k <= List.length x)%nat -> axes p (move (nth i p O) t x) = move i t (axes p x).
Proof.
  intros i t x Hi Hx. assert (HL := order_length). unfold move at 2. apply nth_ext with (d := 0) (d' := 0).
  - rewrite upd_length, !axes_length; rewrite ?move_length; lia.
  - intros a Ha. rewrite axes_length in Ha by (rewrite move_length; lia). rewrite move_length in Ha. destruct (Nat.eq_dec a i) as [->|Na].
    + rewrite nth_upd_eq by (rewrite axes_length; lia). rewrite !axes_nth by lia. apply move_nth. pose proof (order_in i Hi). lia.
    + rewrite nth_upd_neq by auto. destruct (Nat.lt_ge_cases a k) as [Lk|Gk].
      * rewrite !axes_nth by lia. unfold move. apply nth_upd_neq. intros E. apply Na. apply order_inj; auto.
      * unfold axes. rewrite !app_nth2, !map_length by (rewrite map_length; lia). unfold move. rewrite skipn_upd; auto. rewrite HL. now apply order_in.
Qed.
Lemma axes_box : forall M P x, List.length M = k -> in_box (M ++ P) x -> in_box (box_axes p M ++ P) (axes p x).
Proof.
  intros M P x HM Hx. apply Forall2_app_inv_l in Hx as (a & b & Ha & Hb & ->). assert (La := in_box_length _ _ Ha). unfold axes.
  rewrite order_length, skipn_app, <- HM, <- La, skipn_all, Nat.sub_diag. cbn [skipn app]. apply Forall2_app; [|exact Hb].
  unfold box_axes. assert (HI : forall d, In d p -> (d < List.length M)%nat). { intros d Hd. apply (Permutation_in _ HP) in Hd. apply in_seq in Hd. lia. }
  clear HP. induction p as [|d q IH]; cbn [map]; constructor; [|apply IH; intros; apply HI; now right].
  assert (Hd : (d < List.length M)%nat) by (apply HI; now left). rewrite app_nth1 by lia. destruct (in_box_inside M [] a ltac:(now rewrite app_nil_r)) as [_ I]. apply I. exact Hd.
Qed.
Lemma axes_bounds : forall M i, List.length M = k -> (i < k)%nat -> lo (box_axes p M) i = lo M (nth i p O) /\ hi (box_axes p M) i = hi M (nth i p O).
Proof.
  intros M i HM Hi. unfold lo, hi, box_axes. rewrite (nth_indep _ (0, 0) (nth O M (0, 0))) by (now rewrite map_length, order_length). rewrite (map_nth (fun d => nth d M (0, 0))). auto.
Qed.
Lemma axes_sum : forall (f : nat -> R), sum_over (seq 0 k) (fun i => f (nth i p O)) = sum_over (seq 0 k) f.
Proof.
  intros f. assert (E : map (fun i => nth i p O) (seq 0 k) = p).
  { apply nth_ext with (d := O) (d' := O); [rewrite map_length, seq_length; symmetry; apply order_length|]. intros i Hi. rewrite map_length, seq_length in Hi.
    rewrite (nth_indep _ O (nth O p O)) by (now rewrite map_length, seq_length). rewrite (map_nth (fun i => nth i p O)). now rewrite seq_nth. }
  unfold sum_over. rewrite <- (map_map (fun i => nth i p O) f), E. assert (Q := Permutation_map f HP). revert Q. generalize (map f p) (map f (seq 0 k)).
  induction 1; cbn; lra.
Qed.
End Order.

(** ** what is seen, and the fluxes *)

Section Seen.
Context {F : Type} {A : Arith F}.

(** The cell read for the one [t] away, and what is done to its value. *)
Definition reads (b : bc_kind) (l h q t : Z) : Z :=
  if q + t <? l then match b with Periodic => t + (h - l) | _ => (2 * l - 1) - t - 2 * q end
  else if h <=? q + t then match b with Periodic => t + - (h - l) | _ => (2 * h - 1) - t - 2 * q end else t.
Definition changed (b : bc_kind) (l h q t : Z) (j : Z) (y : F) : F :=
  if (q + t <? l) || (h <=? q + t) then match b with Periodic | CopyOut => y | NoSlip | FreeSlip => reversed 1 4 j y | ConductingWall => reversed 0 4 j y end else y.
Lemma seen_by : forall b e M (u : field F) x t j, (e < List.length x)%nat ->
  seen b M e u (move e t x ++ [j]) = changed b (lo M e) (hi M e) (nth e x 0) t j (u (move e (reads b (lo M e) (hi M e) (nth e x 0) t) x ++ [j])).
Proof.
  intros b e M u x t j Hx. rewrite seen_here by exact Hx. unfold changed, reads. destruct (Z.ltb_spec (nth e x 0 + t) (lo M e)) as [H1|H1]; [|destruct (Z.leb_spec (hi M e) (nth e x 0 + t)) as [H2|H2]]; cbn [orb]; auto.
  all: destruct b; cbn [low_value up_value]; rewrite ?move_snoc', ?flip_move by exact Hx; unfold comp; rewrite ?last_last; reflexivity.
Qed.
Lemma reads_in : forall b l h q t, l <= q < h -> 2 <= h - l -> -2 <= t <= 2 -> l <= q + reads b l h q t < h.
Proof. intros b l h q t Hq Hw Ht. unfold reads. destruct (Z.ltb_spec (q + t) l), (Z.leb_spec h (q + t)), b; lia. Qed.

(** The components in the new order. *)
Definition ordered (s : Z -> Z) (n : Z) (l : list F) : list F := map (fun j => nth (Z.to_nat (s j)) l f0) (zrange 0 n).

Lemma seen_axes : forall p s n b M P (u v : field F) i t x j, Permutation p (seq 0 (List.length M)) -> (i < List.length M)%nat -> wide M 2 (seq 0 (List.length M)) ->
  (forall x j, in_box (M ++ P) x -> 0 <= j < n -> v (axes p x ++ [j]) = u (x ++ [s j])) -> (forall j, 0 <= j < n -> 0 <= s j < n) ->
  (b = Periodic \/ b = CopyOut \/ ((b = NoSlip \/ b = FreeSlip) /\ forall j, (1 <=? s j) && (s j <? 4) = (1 <=? j) && (j <? 4))) ->
  in_box (M ++ P) x -> -2 <= t <= 2 -> 0 <= j < n ->
  seen b (box_axes p M) i v (move i t (axes p x) ++ [j]) = seen b M (nth i p O) u (move (nth i p O) t x ++ [s j]).
Proof.
  intros p s n b M P u v i t x j HP Hi HW HO Hs Hb Hx Ht Hj.
  assert (HL := order_length p _ HP). assert (Hd := order_in p _ HP i Hi). assert (Lx : (List.length M <= List.length x)%nat) by (apply in_box_inside in Hx; apply Hx).
  assert (I := proj2 (in_box_inside M P x Hx) _ Hd). destruct (HW (nth i p O) ltac:(apply in_seq; lia)) as [_ We].
  rewrite !seen_by by (rewrite ?axes_length; lia). destruct (axes_bounds p _ HP M i eq_refl Hi) as [-> ->]. rewrite axes_nth by lia.
  set (r := reads b _ _ _ t). rewrite <- (axes_move p _ HP) by lia. rewrite HO; [|apply in_box_upd; auto; now apply reads_in|exact Hj].
  unfold changed. destruct (_ || _); [|reflexivity]. destruct Hb as [-> | [-> | ([-> | ->] & Hr)]]; try reflexivity; unfold reversed; now rewrite Hr.
Qed.

Lemma ordered_state : forall s n (f : Z -> F), (forall j, 0 <= j < n -> 0 <= s j < n) -> ordered s n (map f (zrange 0 n)) = map (fun j => f (s j)) (zrange 0 n).
Proof.
  intros s n f Hs. unfold ordered. apply map_ext_in. intros j Hj. apply in_zrange in Hj. specialize (Hs j Hj).
  rewrite (nth_indep _ f0 (f 0)) by (rewrite map_length, zrange_length; lia). rewrite map_nth. f_equal. apply nth_error_nth. rewrite nth_error_zrange by lia. f_equal. lia.
Qed.

Lemma wall_axes : forall p s n G b M P (u v : field F) i r x j, Permutation p (seq 0 (List.length M)) -> (i < List.length M)%nat -> wide M 2 (seq 0 (List.length M)) ->
  (forall x j, in_box (M ++ P) x -> 0 <= j < n -> v (axes p x ++ [j]) = u (x ++ [s j])) -> (forall j, 0 <= j < n -> 0 <= s j < n) ->
  (b = Periodic \/ b = CopyOut \/ ((b = NoSlip \/ b = FreeSlip) /\ forall j, (1 <=? s j) && (s j <? 4) = (1 <=? j) && (j <? 4))) ->
  (forall l r j, List.length l = Z.to_nat n -> List.length r = Z.to_nat n -> 0 <= j < n -> nth (Z.to_nat j) (G i (ordered s n l) (ordered s n r)) f0 = nth (Z.to_nat (s j)) (G (nth i p O) l r) f0) ->
  in_box (M ++ P) x -> 0 <= r <= 1 -> 0 <= j < n ->
  wall n G (seen b (box_axes p M) i v) i (move i r (axes p x)) j = wall n G (seen b M (nth i p O) u) (nth i p O) (move (nth i p O) r x) (s j).
Proof.
  intros p s n G b M P u v i r x j HP Hi HW HO Hs Hb HG Hx Hr Hj. unfold wall.
  assert (HL := order_length p _ HP). assert (Hd := order_in p _ HP i Hi). assert (Lx : (List.length M <= List.length x)%nat) by (apply in_box_inside in Hx; apply Hx).
  rewrite <- HG; [|unfold left_state; rewrite map_length, zrange_length; lia|unfold right_state; rewrite map_length, zrange_length; lia|exact Hj].
  f_equal. unfold left_state, right_state. rewrite !ordered_state by exact Hs.
  f_equal; apply map_ext_in; intros a Ha; apply in_zrange in Ha; rewrite !move_move by (rewrite ?axes_length; lia); f_equal; apply (seen_axes p s n b M P); auto; lia.
Qed.
End Seen.

(** The right-hand side in the new order. *)
Lemma fv_axes : forall p s n G bc bc' dx dx' M P (u v : field R), let k := List.length M in Permutation p (seq 0 k) -> wide M 2 (seq 0 k) -> (forall j, 0 <= j < n -> 0 <= s j < n) ->
  (forall i, (i < k)%nat -> bc' i = bc (nth i p O) /\ dx' i = dx (nth i p O)) ->
  (forall i, (i < k)%nat -> bc' i = Periodic \/ bc' i = CopyOut \/ ((bc' i = NoSlip \/ bc' i = FreeSlip) /\ forall j, (1 <=? s j) && (s j <? 4) = (1 <=? j) && (j <? 4))) ->
  (forall i l r j, (i < k)%nat -> List.length l = Z.to_nat n -> List.length r = Z.to_nat n -> 0 <= j < n -> nth (Z.to_nat j) (G i (ordered s n l) (ordered s n r)) 0%R = nth (Z.to_nat (s j)) (G (nth i p O) l r) 0%R) ->
  (forall x j, in_box (M ++ P) x -> 0 <= j < n -> v (axes p x ++ [j]) = u (x ++ [s j])) ->
  forall x j, in_box (M ++ P) x -> 0 <= j < n -> fv_rhs n G (box_axes p M) bc' dx' (seq 0 k) v (axes p x ++ [j]) = fv_rhs n G M bc dx (seq 0 k) u (x ++ [s j]).
Proof.
  intros p s n G bc bc' dx dx' M P u v k HP HW Hs HB Hb HG HO x j Hx Hj. unfold fv_rhs, cellwise. rewrite !removelast_last, !last_last, !fluxes_sum. f_equal.
  assert (HL := order_length p _ HP). assert (Lx : (k <= List.length x)%nat) by (apply in_box_inside in Hx; apply Hx).
  rewrite <- (axes_sum p k HP (fun d => ((wall n G (seen (bc d) M d u) d x (s j) - wall n G (seen (bc d) M d u) d (move d 1 x) (s j)) / dx d)%R)).
  unfold sum_over. f_equal. apply map_ext_in. intros i Hi. apply in_seq in Hi. destruct (HB i ltac:(lia)) as [E1 E2]. cbn beta. assert (Hd := order_in p _ HP i ltac:(lia)).
  assert (R : forall r, 0 <= r <= 1 -> wall n G (seen (bc' i) (box_axes p M) i v) i (move i r (axes p x)) j = wall n G (seen (bc (nth i p O)) M (nth i p O) u) (nth i p O) (move (nth i p O) r x) (s j)).
  { intros r Hr. rewrite <- E1. apply (wall_axes (A := RArith) p s n G (bc' i) M P); auto; [lia|apply Hb; lia|]. intros. apply HG; auto. lia. }
  rewrite (R 1 ltac:(lia)). specialize (R 0 ltac:(lia)). rewrite !move_0 in R by (rewrite ?axes_length; lia). rewrite R, E2. reflexivity.
Qed.

(** ** the fluxes have no preferred axis *)

Lemma small_orders : forall p k, Permutation p (seq 0 k) -> (k <= 3)%nat -> In p [[]; [0]; [0; 1]; [1; 0]; [0; 1; 2]; [0; 2; 1]; [1; 0; 2]; [1; 2; 0]; [2; 0; 1]; [2; 1; 0]]%nat.
Proof.
  intros p k HP Hk. assert (HL := order_length p k HP). assert (HI := order_in p k HP). assert (HJ := order_inj p k HP).
  destruct p as [|a [|b [|c [|e q]]]]; cbn [List.length] in HL; subst k; [cbn; auto|..|lia].
  - specialize (HI 0%nat ltac:(lia)). cbn in HI. assert (a = 0%nat) as -> by lia. cbn. auto.
  - assert (H0 := HI 0%nat ltac:(lia)). assert (H1 := HI 1%nat ltac:(lia)). assert (H2 := HJ 0%nat 1%nat ltac:(lia) ltac:(lia)). cbn in H0, H1, H2. clear HI HJ HP.
    destruct a as [|[|a]], b as [|[|b]]; try lia; cbn; auto 20.
  - assert (H0 := HI 0%nat ltac:(lia)). assert (H1 := HI 1%nat ltac:(lia)). assert (H2 := HI 2%nat ltac:(lia)).
    assert (J1 := HJ 0%nat 1%nat ltac:(lia) ltac:(lia)). assert (J2 := HJ 0%nat 2%nat ltac:(lia) ltac:(lia)). assert (J3 := HJ 1%nat 2%nat ltac:(lia) ltac:(lia)). cbn in H0, H1, H2, J1, J2, J3. clear HI HJ HP.
    destruct a as [|[|[|a]]], b as [|[|[|b]]], c as [|[|[|c]]]; try lia; cbn; auto 20.
Qed.
Ltac each_order H := cbn [In] in H; repeat (destruct H as [<-|H]); [..|destruct H].

Lemma fluid_range : forall p k j, Permutation p (seq 0 k) -> (k <= 3)%nat -> 0 <= j < 5 ->
  0 <= fluid_along p j < 5 /\ (1 <=? fluid_along p j) && (fluid_along p j <? 4) = (1 <=? j) && (j <? 4).
Proof.
  intros p k j HP Hk Hj. assert (H := small_orders p k HP Hk). clear HP. assert (D : j = 0 \/ j = 1 \/ j = 2 \/ j = 3 \/ j = 4) by lia.
  each_order H; destruct D as [-> | [-> | [-> | [-> | ->]]]]; vm_compute; repeat split; congruence.
Qed.

Open Scope R_scope.
Lemma euler_speeds : forall p k gamma i q, Permutation p (seq 0 k) -> (k <= 3)%nat -> (i < k)%nat -> List.length q = 5%nat ->
  let q' := ordered (fluid_along p) 5 q in velocity i q' = velocity (nth i p O) q /\ sound gamma q' = sound gamma q /\
    euler_phys gamma i q' = ordered (fluid_along p) 5 (euler_phys gamma (nth i p O) q).
Proof.
  intros p k gamma i q HP Hk Hi Hq q'. assert (H := small_orders p k HP Hk). assert (HL := order_length p k HP). clear HP. subst k.
  destruct q as [|q0 [|q1 [|q2 [|q3 [|q4 [|]]]]]]; try discriminate Hq.
  assert (PR : pressure gamma q' = pressure gamma [q0; q1; q2; q3; q4]).
  { unfold q'. each_order H; cbv -[Rplus Rmult Rminus Ropp Rinv Rdiv IZR pow]; unfold Rdiv; ring. }
  assert (DE : density q' = q0). { unfold q'. each_order H; reflexivity. }
  assert (S : sound gamma q' = sound gamma [q0; q1; q2; q3; q4]) by (unfold sound; now rewrite PR, DE).
  split; [|split; [exact S|]].
  - unfold velocity. rewrite DE. unfold q'. clear PR DE S q'. each_order H; cbn in Hi; destruct i as [|[|[|i]]]; try lia; reflexivity.
  - unfold euler_phys. rewrite PR. generalize (pressure gamma [q0; q1; q2; q3; q4]). intros P. unfold velocity. rewrite DE. unfold q'. clear PR DE S q'.
    each_order H; cbn in Hi; destruct i as [|[|[|i]]]; try lia; cbv -[Rplus Rmult Rminus Ropp Rinv Rdiv IZR pow]; reflexivity.
Qed.
Lemma ordered_nth : forall (s : Z -> Z) n (l : list R) j, (0 <= j < n)%Z -> nth (Z.to_nat j) (ordered s n l) 0 = nth (Z.to_nat (s j)) l 0.
Proof.
  intros s n l j Hj. unfold ordered. apply nth_error_nth. rewrite nth_error_map, nth_error_zrange by lia. cbn [option_map]. now rewrite Z.add_0_l, Z2Nat.id by lia.
Qed.
Lemma euler_axes : forall p k gamma i l r j, Permutation p (seq 0 k) -> (k <= 3)%nat -> (i < k)%nat -> List.length l = 5%nat -> List.length r = 5%nat -> (0 <= j < 5)%Z ->
  nth (Z.to_nat j) (flux_of (euler_flux gamma) i (ordered (fluid_along p) 5 l) (ordered (fluid_along p) 5 r)) 0 = nth (Z.to_nat (fluid_along p j)) (flux_of (euler_flux gamma) (nth i p O) l r) 0.
Proof.
  intros p k gamma i l r j HP Hk Hi Hl Hr Hj. assert (Hd := order_in p k HP i Hi). destruct (fluid_range p k j HP Hk Hj) as [Hs _].
  rewrite !euler_flux_is; try (unfold ordered; rewrite map_length, zrange_length; reflexivity); try assumption; try lia.
  destruct (euler_speeds p k gamma i l HP Hk Hi Hl) as (V1 & S1 & P1). destruct (euler_speeds p k gamma i r HP Hk Hi Hr) as (V2 & S2 & P2).
  unfold hll_flux. cbn zeta. unfold left_speed, right_speed. rewrite V1, V2, S1, S2, P1, P2.
  assert (N : forall (f : nat -> R) a, (0 <= a < 5)%Z -> nth (Z.to_nat a) (map f (seq 0 5)) 0 = f (Z.to_nat a)).
  { intros f a Ha. rewrite (nth_indep _ 0 (f O)) by (rewrite map_length, seq_length; lia). rewrite map_nth, seq_nth by lia. reflexivity. }
  rewrite !N by assumption. unfold hll_average. rewrite !ordered_nth by exact Hj. reflexivity.
Qed.

Definition rotation (p : list nat) : Prop := p = [0; 1; 2]%nat \/ p = [1; 2; 0]%nat \/ p = [2; 0; 1]%nat.
Lemma em_range : forall p j, rotation p -> (0 <= j < 6)%Z -> (0 <= em_along p j < 6)%Z.
Proof.
  intros p j H Hj. assert (D : (j = 0 \/ j = 1 \/ j = 2 \/ j = 3 \/ j = 4 \/ j = 5)%Z) by lia.
  destruct H as [-> | [-> | ->]]; destruct D as [-> | [-> | [-> | [-> | [-> | ->]]]]]; vm_compute; split; congruence.
Qed.
Lemma maxwell_axes : forall p c i l r j, rotation p -> (i < 3)%nat -> List.length l = 6%nat -> List.length r = 6%nat -> (0 <= j < 6)%Z ->
  nth (Z.to_nat j) (flux_of (maxwell_flux c) i (ordered (em_along p) 6 l) (ordered (em_along p) 6 r)) 0 = nth (Z.to_nat (em_along p j)) (flux_of (maxwell_flux c) (nth i p O) l r) 0.
Proof.
  intros p c i l r j H Hi Hl Hr Hj. assert (D : (j = 0 \/ j = 1 \/ j = 2 \/ j = 3 \/ j = 4 \/ j = 5)%Z) by lia.
  destruct l as [|l0 [|l1 [|l2 [|l3 [|l4 [|l5 [|]]]]]]]; try discriminate Hl. destruct r as [|r0 [|r1 [|r2 [|r3 [|r4 [|r5 [|]]]]]]]; try discriminate Hr.
  destruct H as [-> | [-> | ->]]; destruct i as [|[|[|i]]]; try lia; destruct D as [-> | [-> | [-> | [-> | [-> | ->]]]]]; reflexivity.
Qed.

(** ** the integrator *)

Lemma rk3_cells : forall F (A : Arith F) (Op Op' : sys -> sys) dt (C : list Z -> list Z -> Prop), let same (U V : @sys F) := forall i c c', C c c' -> V i c' = U i c in
  (forall U V, same U V -> same (Op U) (Op' V)) -> forall U V, same U V -> same (rk3 Op dt U) (rk3 Op' dt V).
Proof.
  intros F A Op Op' dt C same HO U V H.
  assert (H1 : same (fun i c => fadd (U i c) (fmul dt (Op U i c))) (fun i c => fadd (V i c) (fmul dt (Op' V i c)))).
  { intros i c c' Hc. now rewrite (H i c c' Hc), (HO U V H i c c' Hc). }
  set (U1 := fun i c => fadd (U i c) (fmul dt (Op U i c))) in *. set (V1 := fun i c => fadd (V i c) (fmul dt (Op' V i c))) in *.
  set (U2 := fun i c => fadd (fadd (fmul (fdec 75 (-2)) (U i c)) (fmul (fdec 25 (-2)) (U1 i c))) (fmul (fmul (fdec 25 (-2)) dt) (Op U1 i c))).
  set (V2 := fun i c => fadd (fadd (fmul (fdec 75 (-2)) (V i c)) (fmul (fdec 25 (-2)) (V1 i c))) (fmul (fmul (fdec 25 (-2)) dt) (Op' V1 i c))).
  assert (H2 : same U2 V2). { intros i c c' Hc. unfold U2, V2. now rewrite (H i c c' Hc), (H1 i c c' Hc), (HO U1 V1 H1 i c c' Hc). }
  intros i c c' Hc. change (fdiv (fadd (V i c') (fmul (fofz 2) (fadd (V2 i c') (fmul dt (Op' V2 i c'))))) (fofz 3) = fdiv (fadd (U i c) (fmul (fofz 2) (fadd (U2 i c) (fmul dt (Op U2 i c))))) (fofz 3)).
  now rewrite (H i c c' Hc), (H2 i c c' Hc), (HO U2 V2 H2 i c c' Hc).
Qed.
Lemma rk3_cells_iter : forall F (A : Arith F) (Op Op' : sys -> sys) dt (C : list Z -> list Z -> Prop) n, let same (U V : @sys F) := forall i c c', C c c' -> V i c' = U i c in
  (forall U V, same U V -> same (Op U) (Op' V)) -> forall U V, same U V -> same (Nat.iter n (rk3 Op dt) U) (Nat.iter n (rk3 Op' dt) V).
Proof.
  intros F A Op Op' dt C n same HO U V H. induction n as [|n IH]; [exact H|].
  change (same (rk3 Op dt (Nat.iter n (rk3 Op dt) U)) (rk3 Op' dt (Nat.iter n (rk3 Op' dt) V))). now apply rk3_cells.
Qed.
