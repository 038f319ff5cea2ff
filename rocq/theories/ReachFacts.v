(** * ReachFacts: a step of the programs reads cells at most six steps away. *)
From Coq Require Import ZArith List String Lia Bool Reals Lra.
From Verif Require Import Base BaseFacts BoxSpec BoxFacts Arith ArithR Chunk ChunkFacts FieldSpec VarId Manager MgrSpec BC BCSpec BCFacts ParFacts SweepSpec SweepFacts FluxFacts SourceSpec
  Programs ProgramsSpec ConserveFacts SymmetrySpec SymmetryFacts ReachSpec.
Import ListNotations.
Open Scope Z_scope.

Lemma within_more : forall M ps r s x y, within M ps r x y -> (r <= s)%nat -> within M ps s x y.
Proof. intros M ps r s x y H. revert s. induction H as [r x|r x y z B H IH]; intros s Hs; [constructor|]. destruct s as [|s]; [lia|]. apply (within_step M ps s x y z B). apply IH. lia. Qed.
Lemma within_trans : forall M ps r s x y z, within M ps r x y -> within M ps s y z -> within M ps (r + s) x z.
Proof.
  intros M ps r s x y z H1 H2. induction H1 as [r x|r x y w B H IH]; [apply (within_more M ps s); [exact H2|lia]|]. cbn [Nat.add]. apply (within_step M ps _ x y z B). now apply IH.
Qed.
Lemma within_0 : forall M ps x y, within M ps 0 x y -> y = x.
Proof. intros M ps x y H. now inversion H. Qed.
Lemma beside_in : forall M P ps x y, in_box (M ++ P) x -> beside M ps x y -> in_box (M ++ P) y.
Proof.
  intros M P ps x y Hx (d & t & Hd & Ht & Hy & H). assert (L : (d < List.length x)%nat) by (apply in_box_length in Hx; rewrite app_length in Hx; lia). destruct H as [->|[_ ->]].
  - unfold move in *. rewrite nth_upd_eq in Hy by exact L. now apply in_box_upd.
  - apply around_in_box; auto. lia.
Qed.
Lemma within_in : forall M P ps r x y, in_box (M ++ P) x -> within M ps r x y -> in_box (M ++ P) y.
Proof. intros M P ps r x y Hx H. induction H as [r x|r x y z B H IH]; [exact Hx|]. apply IH. now apply (beside_in M P ps x). Qed.

(** Two cells along a dimension. *)
Lemma near_move : forall M P ps e x t, (e < List.length M)%nat -> in_box (M ++ P) x -> -2 <= t <= 2 -> lo M e <= nth e x 0 + t < hi M e -> within M ps 2 x (move e t x).
Proof.
  intros M P ps e x t He Hx Ht Hm. destruct (in_box_inside M P x Hx) as [L I]. specialize (I e He). assert (Lx : (e < List.length x)%nat) by lia.
  assert (S1 : forall s y, (s = 1 \/ s = -1) -> (e < List.length y)%nat -> lo M e <= nth e y 0 + s < hi M e -> beside M ps y (move e s y)).
  { intros s y Hs Hl Hy. exists e, s. repeat (split; [first [exact He|exact Hs|rewrite move_nth by exact Hl; lia]|]). now left. }
  assert (D : t = 0 \/ (t = 1 \/ t = -1) \/ t = 2 \/ t = -2) by lia. destruct D as [->|[D|D]].
  - rewrite move_0 by exact Lx. constructor.
  - apply (within_step M ps 1 x (move e t x)); [|constructor]. now apply S1.
  - assert (E : move e t x = move e (Z.sgn t) (move e (Z.sgn t) x)) by (rewrite move_move by exact Lx; f_equal; destruct D as [->| ->]; reflexivity).
    assert (Hs : Z.sgn t = 1 \/ Z.sgn t = -1) by (destruct D as [->| ->]; cbn; lia). rewrite E.
    apply (within_step M ps 1 x (move e (Z.sgn t) x)); [apply S1; auto; destruct D as [->| ->]; cbn [Z.sgn]; lia|].
    apply (within_step M ps 0 _ (move e (Z.sgn t) (move e (Z.sgn t) x))); [|constructor]. apply S1; auto; [now rewrite move_length|]. rewrite move_nth by exact Lx. destruct D as [->| ->]; cbn [Z.sgn]; lia.
Qed.
Lemma near_around : forall M P ps e x t, (e < List.length M)%nat -> In e ps -> in_box (M ++ P) x -> -2 <= t <= 2 -> within M ps 2 x (around M e t x).
Proof.
  intros M P ps e x t He Hp Hx Ht. destruct (in_box_inside M P x Hx) as [L I]. specialize (I e He). assert (Lx : (e < List.length x)%nat) by lia.
  assert (S1 : forall s y, (s = 1 \/ s = -1) -> (e < List.length y)%nat -> beside M ps y (around M e s y)).
  { intros s y Hs Hl. exists e, s. split; [exact He|]. split; [exact Hs|]. split; [|right; now split]. rewrite around_nth by exact Hl.
    pose proof (Z.mod_pos_bound (nth e y 0 + s - lo M e) (hi M e - lo M e) ltac:(lia)). lia. }
  assert (D : t = 0 \/ (t = 1 \/ t = -1) \/ t = 2 \/ t = -2) by lia. destruct D as [->|[D|D]].
  - replace (around M e 0 x) with x; [constructor|]. unfold around. rewrite Z.add_0_r, Z.mod_small by lia. replace (lo M e + (nth e x 0 - lo M e)) with (nth e x 0) by lia.
    symmetry. change (move e 0 x = x) with (upd x e (nth e x 0 + 0) = x). rewrite <- (move_0 e x Lx) at 3. unfold move. now rewrite Z.add_0_r.
  - apply (within_step M ps 1 x (around M e t x)); [|constructor]. now apply S1.
  - assert (E : around M e t x = around M e (Z.sgn t) (around M e (Z.sgn t) x)) by (rewrite around_around by exact Lx; f_equal; destruct D as [->| ->]; reflexivity).
    assert (Hs : Z.sgn t = 1 \/ Z.sgn t = -1) by (destruct D as [->| ->]; cbn; lia). rewrite E.
    apply (within_step M ps 1 x (around M e (Z.sgn t) x)); [now apply S1|].
    apply (within_step M ps 0 _ (around M e (Z.sgn t) (around M e (Z.sgn t) x))); [|constructor]. apply S1; auto. now rewrite around_length.
Qed.

Section Reach.
Context {F : Type} {A : Arith F}.

(** The cells at most [r] steps away from [x0], each paired with itself. *)
Definition near (M P : box) (ps : list nat) (x0 : list Z) (r : nat) (x y : list Z) : Prop := y = x /\ in_box (M ++ P) x /\ within M ps r x0 x.

Lemma paired_less : forall M P ps x0 n r s (u v : field F), (r <= s)%nat -> paired (near M P ps x0 s) n u v -> paired (near M P ps x0 r) n u v.
Proof. intros M P ps x0 n r s u v Hr H x y j (-> & Hx & W) Hj. apply H; auto. split; [reflexivity|]. split; [exact Hx|]. now apply (within_more M ps r). Qed.

Lemma seen_near : forall k M P ps x0 r n (u v : field F) e t x j, (e < List.length M)%nat -> wide M 2 [e] -> (k = Periodic -> In e ps) -> paired (near M P ps x0 (2 + r)) n u v ->
  in_box (M ++ P) x -> within M ps r x0 x -> -2 <= t <= 2 -> 0 <= j < n -> seen k M e v (move e t x ++ [j]) = seen k M e u (move e t x ++ [j]).
Proof.
  intros k M P ps x0 r n u v e t x j He HW HK HT Hx HR Ht Hj. destruct (in_box_inside M P x Hx) as [L I]. specialize (I e He). destruct (HW e (or_introl eq_refl)) as [_ W2].
  assert (N : forall y, in_box (M ++ P) y -> within M ps 2 x y -> v (y ++ [j]) = u (y ++ [j])).
  { intros y Hy Hxy. apply HT; [|exact Hj]. split; [reflexivity|]. split; [exact Hy|]. rewrite Nat.add_comm. now apply (within_trans M ps r 2 x0 x). }
  destruct k.
  { rewrite !seen_periodic by lia. apply N; [apply around_in_box; auto; lia|]. apply (near_around M P); auto. }
  all: match goal with |- seen ?k _ _ _ _ = _ => destruct (seen_reads k e _ _ (nth e x 0) t I W2 Ht) as (t' & f & Ht' & B & E) end;
    rewrite !E by (auto; lia); f_equal; apply N; [unfold move; now apply in_box_upd|]; apply (near_move M P); auto; apply B; discriminate.
Qed.
Lemma fv_near : forall n G M P ps x0 r bc dx ds (u v : field F), wide M 2 (seq 0 (List.length M)) -> (forall e, In e ds -> (e < List.length M)%nat /\ (bc e = Periodic -> In e ps)) ->
  paired (near M P ps x0 (2 + r)) n u v -> paired (near M P ps x0 r) n (fv_rhs n G M bc dx ds u) (fv_rhs n G M bc dx ds v).
Proof.
  intros n G M P ps x0 r bc dx ds u v HW Hds HT x y j (-> & Hx & HR) Hj. unfold fv_rhs, cellwise. rewrite !removelast_last, !last_last.
  destruct (in_box_inside M P x Hx) as [L _]. apply fluxes_read; [|reflexivity]. intros e He. destruct (Hds e He) as [He' HB].
  assert (R : forall q, 0 <= q <= 1 -> wall n G (seen (bc e) M e v) e (move e q x) j = wall n G (seen (bc e) M e u) e (move e q x) j).
  { intros q Hq. apply wall_reads; try lia. intros t i Ht Hi. apply (seen_near _ M P ps x0 r n); auto. intros c [<-|[]]. apply HW. apply in_seq. lia. }
  split; [reflexivity|]. split; [|apply R; lia]. specialize (R 0 ltac:(lia)). rewrite !move_0 in R by lia. exact R.
Qed.
Lemma plasma_near : forall M P ps x0 r p G5 G6 bc dx ds ds3 U V, wide M 2 (seq 0 (List.length M)) ->
  (forall i e, In e (ds ++ ds3) -> (e < List.length M)%nat /\ (bc i e = Periodic -> In e ps)) ->
  sys_paired (near M P ps x0 (2 + r)) sizes U V -> sys_paired (near M P ps x0 r) sizes (plasma_op (F := F) p G5 G6 M bc dx ds ds3 U) (plasma_op p G5 G6 M bc dx ds ds3 V).
Proof.
  intros M P ps x0 r p G5 G6 bc dx ds ds3 U V HW Hds HT.
  pose proof (HT 0%nat) as T0. pose proof (HT 1%nat) as T1. pose proof (HT 2%nat) as T2. cbn [sizes] in T0, T1, T2.
  assert (S0 := paired_less M P ps x0 5 r (2 + r) _ _ ltac:(lia) T0). assert (S1 := paired_less M P ps x0 5 r (2 + r) _ _ ltac:(lia) T1). assert (S2 := paired_less M P ps x0 6 r (2 + r) _ _ ltac:(lia) T2).
  assert (D1 : forall i e, In e ds -> (e < List.length M)%nat /\ (bc i e = Periodic -> In e ps)) by (intros i e He; apply Hds; apply in_or_app; now left).
  assert (D2 : forall i e, In e ds3 -> (e < List.length M)%nat /\ (bc i e = Periodic -> In e ps)) by (intros i e He; apply Hds; apply in_or_app; now right).
  intros [|[|i]]; cbn [plasma_op sizes].
  - apply lorentz_paired; auto. apply fv_near; auto.
  - apply lorentz_paired; auto. apply fv_near; auto.
  - apply with_current_paired; auto. apply fv_near; auto.
Qed.
(** A Runge-Kutta step evaluates the right-hand side three times. *)
Lemma rk3_near : forall (Op : sys -> sys) dt (C : nat -> list Z -> list Z -> Prop) c, (forall r s x y, (r <= s)%nat -> C r x y -> C s x y) ->
  (forall r U V, sys_paired (C (2 + r)%nat) c U V -> sys_paired (C r) c (Op U) (Op V)) ->
  forall n r U V, sys_paired (C (6 * n + r)%nat) c U V -> sys_paired (C r) c (Nat.iter n (rk3 Op dt) U) (Nat.iter n (rk3 Op dt) V).
Proof.
  intros Op dt C c HC H.
  assert (L : forall r s (U V : @sys F), (r <= s)%nat -> sys_paired (C s) c U V -> sys_paired (C r) c U V) by (intros r s U V Hr E i x y j Hx Hj; apply E; eauto).
  induction n as [|n IH]; intros r U V HU; [exact HU|].
  change (sys_paired (C r) c (rk3 Op dt (Nat.iter n (rk3 Op dt) U)) (rk3 Op dt (Nat.iter n (rk3 Op dt) V))).
  assert (E : sys_paired (C (6 + r)%nat) c (Nat.iter n (rk3 Op dt) U) (Nat.iter n (rk3 Op dt) V)) by (apply IH; replace (6 * n + (6 + r))%nat with (6 * S n + r)%nat by lia; exact HU).
  revert E. generalize (Nat.iter n (rk3 Op dt) U) (Nat.iter n (rk3 Op dt) V). clear U V HU IH. intros U V E. unfold rk3.
  assert (E0 := H (4 + r)%nat _ _ E).
  set (U1 := fun i c => (U i c + dt * Op U i c)%F). set (V1 := fun i c => (V i c + dt * Op V i c)%F).
  assert (E1 : sys_paired (C (4 + r)%nat) c U1 V1).
  { intros i x y j Hx Hj; unfold U1, V1. rewrite (L (4 + r) (6 + r) U V ltac:(lia) E i x y j Hx Hj)%nat. now rewrite (E0 i x y j Hx Hj). }
  assert (E1' := H (2 + r)%nat _ _ E1).
  set (U2 := fun i c => (fdec 75 (-2) * U i c + fdec 25 (-2) * U1 i c + fdec 25 (-2) * dt * Op U1 i c)%F).
  set (V2 := fun i c => (fdec 75 (-2) * V i c + fdec 25 (-2) * V1 i c + fdec 25 (-2) * dt * Op V1 i c)%F).
  assert (E2 : sys_paired (C (2 + r)%nat) c U2 V2).
  { intros i x y j Hx Hj; unfold U2, V2. rewrite (L (2 + r) (6 + r) U V ltac:(lia) E i x y j Hx Hj)%nat, (L (2 + r) (4 + r) U1 V1 ltac:(lia) E1 i x y j Hx Hj)%nat. now rewrite (E1' i x y j Hx Hj). }
  assert (E2' := H r _ _ E2).
  intros i x y j Hx Hj. change (((V i (x ++ [j]) + fofz 2 * (V2 i (x ++ [j]) + dt * Op V2 i (x ++ [j]))) / fofz 3)%F =
    ((U i (y ++ [j]) + fofz 2 * (U2 i (y ++ [j]) + dt * Op U2 i (y ++ [j]))) / fofz 3)%F).
  rewrite (L r (6 + r)%nat U V ltac:(lia) E i x y j Hx Hj), (L r (2 + r)%nat U2 V2 ltac:(lia) E2 i x y j Hx Hj), (E2' i x y j Hx Hj). reflexivity.
Qed.
Lemma near_more : forall M P ps x0 r s x y, (r <= s)%nat -> near M P ps x0 r x y -> near M P ps x0 s x y.
Proof. intros M P ps x0 r s x y Hr (-> & Hx & W). split; [reflexivity|]. split; [exact Hx|]. now apply (within_more M ps r). Qed.
End Reach.

(** A gas at rest that is the same everywhere stays as it is, in exact arithmetic. *)
Section Rest.
Open Scope R_scope.
Lemma fdec_75 : fdec (F := R) 75 (-2) = 3 / 4. Proof. cbn. unfold Rdecimal. cbn. lra. Qed.
Lemma fdec_25 : fdec (F := R) 25 (-2) = 1 / 4. Proof. cbn. unfold Rdecimal. cbn. lra. Qed.

(** The field has the value [w j] in component [j] of every cell. *)
Definition uniform (b : box) (n : Z) (w : Z -> R) (u : field R) : Prop := forall x j, in_box b x -> (0 <= j < n)%Z -> u (x ++ [j]) = w j.
Lemma rest_rhs : forall n G M P bc dx ds w u, wide M 2 (seq 0 (List.length M)) -> (forall e, In e ds -> (e < List.length M)%nat /\ (bc e = Periodic \/ bc e = NoSlip)) ->
  (forall j, (1 <= j < 4)%Z -> w j = 0) -> uniform (M ++ P) n w u -> uniform (M ++ P) n (fun _ => 0) (fv_rhs n G M bc dx ds u).
Proof.
  intros n G M P bc dx ds w u HW Hds H0 HU x j Hx Hj. unfold fv_rhs, cellwise. rewrite removelast_last, last_last. destruct (in_box_inside M P x Hx) as [L I].
  assert (S : forall e t i, In e ds -> (-2 <= t <= 2)%Z -> (0 <= i < n)%Z -> seen (bc e) M e u (move e t x ++ [i]) = w i).
  { intros e t i He Ht Hi. destruct (Hds e He) as [He' HB]. specialize (I e He'). destruct (HW e ltac:(apply in_seq; lia)) as [_ W2]. rewrite seen_here by lia.
    assert (Z : reversed 1 4 i (w i) = w i).
    { unfold reversed. destruct (Z.leb_spec 1 i), (Z.ltb_spec i 4); cbn [andb]; auto. rewrite H0 by lia. cbn. ring. }
    assert (B : forall s, (lo M e <= nth e x 0%Z + s < hi M e)%Z -> in_box (M ++ P) (move e s x)) by (intros s Hs; unfold move; now apply in_box_upd).
    destruct (Z.ltb_spec (nth e x 0%Z + t) (lo M e)) as [H1|H1]; [|destruct (Z.leb_spec (hi M e) (nth e x 0%Z + t)) as [H2|H2]].
    - destruct HB as [-> | ->]; cbn [low_value]; rewrite ?move_snoc' by lia.
      + apply HU; [apply B; lia|exact Hi].
      + rewrite flip_move by lia. unfold comp. rewrite last_last. rewrite HU; [exact Z|apply B; lia|exact Hi].
    - destruct HB as [-> | ->]; cbn [up_value]; rewrite ?move_snoc' by lia.
      + apply HU; [apply B; lia|exact Hi].
      + rewrite flip_move by lia. unfold comp. rewrite last_last. rewrite HU; [exact Z|apply B; lia|exact Hi].
    - apply HU; [apply B; lia|exact Hi]. }
  assert (E : forall e, In e ds -> wall n G (seen (bc e) M e u) e (move e 1 x) j = wall n G (seen (bc e) M e u) e x j).
  { intros e He. destruct (Hds e He) as [He' _]. replace (wall n G (seen (bc e) M e u) e x j) with (wall n G (seen (bc e) M e u) e (move e 0 x) j) by (now rewrite move_0 by lia).
    unfold wall. do 2 f_equal; unfold left_state, right_state; apply map_ext_in; intros i Hi; apply in_zrange in Hi; rewrite !move_move by lia; rewrite !S by (auto; lia); reflexivity. }
  assert (K : forall r, r x j = 0 -> fold_left (with_fluxes (fun d => wall n G (seen (bc d) M d u) d) dx) ds r x j = 0); [|now apply K].
  clear S. induction ds as [|e ds IH]; intros r Hr; [exact Hr|]. cbn [fold_left]. apply IH.
  - intros d Hd. apply Hds. now right.
  - intros d Hd. apply E. now right.
  - unfold with_fluxes. rewrite (E e (or_introl eq_refl)), Hr. change (0 + wall n G (seen (bc e) M e u) e x j / dx e - wall n G (seen (bc e) M e u) e x j / dx e = 0). ring.
Qed.
Lemma rest_rk3 : forall (Op : sys -> sys) dt b n w, (forall U, (forall i, uniform b n w (U i)) -> forall i, uniform b n (fun _ => 0) (Op U i)) ->
  forall k U, (forall i, uniform b n w (U i)) -> forall i, uniform b n w (Nat.iter k (rk3 Op dt) U i).
Proof.
  intros Op dt b n w H k U HU. induction k as [|k IH]; [exact HU|].
  change (forall i, uniform b n w (rk3 Op dt (Nat.iter k (rk3 Op dt) U) i)). revert IH. generalize (Nat.iter k (rk3 Op dt) U). clear U HU. intros U E. unfold rk3.
  assert (E0 := H _ E).
  set (U1 := fun i c => (U i c + dt * Op U i c)%F).
  assert (E1 : forall i, uniform b n w (U1 i)). { intros i x j Hx Hj. unfold U1. rewrite (E i x j Hx Hj), (E0 i x j Hx Hj). change (w j + dt * 0 = w j). ring. }
  assert (E1' := H _ E1).
  set (U2 := fun i c => (fdec 75 (-2) * U i c + fdec 25 (-2) * U1 i c + fdec 25 (-2) * dt * Op U1 i c)%F).
  assert (E2 : forall i, uniform b n w (U2 i)).
  { intros i x j Hx Hj. unfold U2. rewrite (E i x j Hx Hj), (E1 i x j Hx Hj), (E1' i x j Hx Hj), fdec_75, fdec_25. change (3 / 4 * w j + 1 / 4 * w j + 1 / 4 * dt * 0 = w j). field. }
  assert (E2' := H _ E2).
  intros i x j Hx Hj. change ((U i (x ++ [j]) + 2 * (U2 i (x ++ [j]) + dt * Op U2 i (x ++ [j]))) / 3 = w j).
  rewrite (E i x j Hx Hj), (E2 i x j Hx Hj), (E2' i x j Hx Hj). field.
Qed.
End Rest.
