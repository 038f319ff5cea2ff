(** * OneThread: running the iterations one after the other is one of the schedules. *)
From Coq Require Import ZArith List String Bool Lia.
From Verif Require Import Base BaseFacts Arith Range Indexer Interface Chunk VarId Manager Solvers BC Par ParFacts Kernel Advection Programs Whole Parallel ParallelFacts.
Import ListNotations.
Open Scope Z_scope.

Section OneThread.
Context {F : Type} {A : Arith F}.

Lemma psteps_trans : forall (c c1 c2 : list (thr F) * mem F), psteps c c1 -> psteps c1 c2 -> psteps c c2.
Proof. induction 1; auto. intros. econstructor; eauto. Qed.

Lemma trun_steps : forall (t : thr F) pre ts m m', trun t m = Ok m' -> psteps (pre ++ t :: ts, m) (pre ++ Ret :: ts, m').
Proof.
  assert (U : forall (t t' : thr F) pre ts, upd (pre ++ t :: ts) (List.length pre) t' = pre ++ t' :: ts).
  { intros t t' pre ts. induction pre as [|x pre IH]; cbn; [reflexivity|now rewrite IH]. }
  assert (N : forall (t : thr F) pre ts, nth_error (pre ++ t :: ts) (List.length pre) = Some t).
  { intros t pre ts. rewrite nth_error_app2, Nat.sub_diag by lia. reflexivity. }
  induction t as [|a i k IH|a i v t IH|u]; intros pre ts m m' H; cbn [trun] in H.
  - injection H as ->. constructor.
  - apply bind_inv in H as (v & E & H). econstructor; [eapply pstep_rd; [apply N|exact E]|]. rewrite U. now apply IH.
  - apply bind_inv in H as (m1 & E & H). econstructor; [eapply pstep_wr; [apply N|exact E]|]. rewrite U. now apply IH.
  - discriminate.
Qed.

Lemma seq_steps : forall (ts pre : list (thr F)) m m', finished pre -> seq_run ts m = Ok m' ->
  exists ts', psteps (pre ++ ts, m) (ts', m') /\ finished ts'.
Proof.
  induction ts as [|t ts IH]; intros pre m m' Hp H; cbn [seq_run] in H.
  - injection H as ->. exists pre. rewrite app_nil_r. split; [constructor|exact Hp].
  - apply bind_inv in H as (m1 & E & H). destruct (IH (pre ++ [Ret]) m1 m') as (ts' & P & Fi); auto.
    { apply Forall_app. split; [exact Hp|]. now repeat constructor. }
    exists ts'. split; [|exact Fi]. eapply psteps_trans; [apply trun_steps, E|]. now rewrite <- app_assoc in P.
Qed.

Lemma loops_reach : forall ls (a a' : mem F), loops_run ls a = Ok a' -> loops_can ls a (Ok a').
Proof.
  induction ls as [|l ls IH]; intros a a' H; cbn [loops_run loops_can] in *; [now injection H as ->|].
  apply bind_inv in H as (a1 & E & H). left. destruct (seq_steps l [] a a1) as (ts & P & Fi); [constructor|exact E|]. exists ts, a1. auto.
Qed.

(** [c] can have the outcome [o], if that is a normal one. *)
Definition reaches (c : @can F) (o : out (mgr F)) : Prop := forall m, o = Done m -> c (Done m).

Lemma reaches_only : forall o, reaches (only o) o.
Proof. intros o m ->. reflexivity. Qed.
Lemma reaches_then : forall c o k f, reaches c o -> (forall m, reaches (k m) (f m)) -> reaches (and_then c k) (obind o f).
Proof.
  intros c o k f H1 H2 m E. destruct o as [m1| | |]; try discriminate. cbn [obind] in E. exists (Done m1). split; [now apply H1|now apply H2].
Qed.
Lemma reaches_lift : forall B m (x : res B) k f, (forall b, reaches (k b) (f b)) -> reaches (lift_can m x k) (liftr m x f).
Proof. intros B m x k f H. destruct x; cbn [lift_can liftr]; auto using reaches_only. Qed.
Lemma reaches_kernel : forall ins o ix ls m, reaches (kernel_can ins o ix ls m) (run_kernel ins o ix ls m).
Proof.
  intros ins o ix ls m. unfold kernel_can, run_kernel. destruct (existsb (Nat.eqb o) ins); [apply reaches_only|].
  apply reaches_lift. intros a m' E. destruct (loops_run ls a) as [a'| | |] eqn:R; try discriminate. cbn [liftr] in E.
  exists (Ok a'). split; [now apply loops_reach|]. cbn [lift_can]. destruct (nth_error a' (List.length ins)); [|discriminate]. unfold only. congruence.
Qed.
Lemma reaches_output : forall m k c f, (forall n m, reaches (c n m) (f n m)) -> reaches (output_can m k c) (with_output m k f).
Proof.
  intros m k c f H. unfold output_can, with_output. apply reaches_lift. intros [n|]; [apply H|].
  apply reaches_then; [apply reaches_only|]. intros m'. apply reaches_lift. intros [n|]; [apply H|apply reaches_only].
Qed.
Lemma reaches_indexer : forall fuel ix c f m, (forall ix m, reaches (c ix m) (f ix m)) -> reaches (indexer_can fuel ix c m) (for_indexer fuel ix f m).
Proof.
  induction fuel as [|fuel IH]; intros ix c f m H; cbn [indexer_can for_indexer]; destruct (ix_ex ix); try apply reaches_only.
  apply reaches_then; [apply H|]. intros m'. apply reaches_lift. intros ix'. now apply IH.
Qed.
Lemma reaches_chunks : forall fuel n c f m, (forall ix m, reaches (c ix m) (f ix m)) -> reaches (chunks_can fuel n c m) (for_chunks fuel n f m).
Proof. intros fuel n c f m H. unfold chunks_can, for_chunks. apply reaches_lift. intros ix. now apply reaches_indexer. Qed.
Lemma reaches_run : forall c f dt n m, (forall m, reaches (c m) (f m)) -> reaches (run_can c dt n m) (run f dt n m).
Proof.
  intros c f dt n m H. unfold run_can, run. generalize (fofz 0 : F) as t. intros t. generalize (mgr_set_dt (mgr_set_time m t) dt) as m0.
  revert t. induction n as [|n IH]; intros t m0; cbn [loop_can time_loop]; [apply reaches_only|]. apply reaches_then; [apply H|]. intros m'. apply IH.
Qed.

Lemma reaches_adv : forall fuel velocity ins outs tag m, reaches (adv_can fuel velocity ins outs tag m) (adv_solve fuel velocity ins outs tag m).
Proof.
  intros fuel velocity ins outs tag m. unfold adv_can, adv_solve. destruct ins as [|q0 [|]]; try apply reaches_only. destruct outs as [|q1 [|q2 [|]]]; try apply reaches_only.
  apply reaches_lift. intros _. apply reaches_lift. intros dt. apply reaches_lift. intros n0. apply reaches_output. intros n1 m1. apply reaches_output. intros n2 m2.
  destruct (tag =? 0); [|destruct (tag =? 1); [|apply reaches_only]]; apply reaches_chunks; intros ix m3.
  - unfold adv_stage_0_can, adv_stage_0. destruct (n0 =? n1)%nat; [apply reaches_only|]. apply reaches_lift. intros e0.
    apply reaches_then; [apply reaches_only|]. intros m4. apply reaches_lift. intros ls. apply reaches_kernel.
  - unfold adv_stage_1_can, adv_stage_1. destruct (n1 =? n2)%nat; [apply reaches_only|]. apply reaches_lift. intros e0. apply reaches_lift. intros e1. apply reaches_lift. intros vol.
    apply reaches_then; [apply reaches_only|]. intros m4. apply reaches_lift. intros ls. apply reaches_kernel.
Qed.
Lemma reaches_advect : forall fuel velocity dims var partial new m,
  reaches (advect_can fuel velocity dims var partial new m) (advect_step fuel velocity dims var partial new m).
Proof.
  intros. unfold advect_can, advect_step. repeat (apply reaches_then; [first [apply reaches_only|apply reaches_adv]|intros ?]). apply reaches_only.
Qed.

End OneThread.
