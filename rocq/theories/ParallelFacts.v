(** * ParallelFacts: every schedule gives the sequential result. *)
From Coq Require Import ZArith List String Bool Lia.
From Verif Require Import Base BaseFacts BoxSpec BoxFacts Arith Range Indexer IndexerFacts Interface ApiSpec ApiFacts RangeSpec RangeFacts Chunk FieldSpec FieldFacts ChunkFacts VarId Manager MgrSpec MgrFacts Solvers SolverFacts BC BCSpec Par ParFacts Kernel KernelFacts
  Integrators IntegratorSpec IntegratorFacts SourceFacts Sweep SweepSpec SweepFacts Euler Maxwell FluxFacts Sources Advection AdvectionSpec AdvectionFacts Programs Whole Parallel.
Import ListNotations.
Open Scope Z_scope.

Section ParallelFacts.
Context {F : Type} {A : Arith F}.

(** ** iterations whose accesses do not depend on the data *)

Definition op : Type := nat * Z * bool.
Inductive obl : list op -> thr F -> Prop :=
| obl_ret : obl [] Ret
| obl_rd : forall l a i k, (forall v, obl l (k v)) -> obl ((a, i, false) :: l) (Rd a i k)
| obl_wr : forall l a i v t, obl l t -> obl ((a, i, true) :: l) (Wr a i v t).

Lemma obl_within : forall l t, obl l t -> forall L, incl l L ->
  within (fun p => In (fst p, snd p, false) L) (fun p => In (fst p, snd p, true) L) t.
Proof.
  induction 1; intros L HL; constructor; try (apply HL; left; reflexivity); intros; apply H0 || apply IHobl; intros x Hx; apply HL; now right.
Qed.

Lemma obl_valid : forall l t, obl l t -> forall m m', trun t m = Ok m' ->
  (forall a i b, In (a, i, b) l -> valid m (a, i)) /\ (forall p, valid m' p <-> valid m p).
Proof.
  induction 1 as [|l a i k Hk IH|l a i v t Ht IH]; intros m m' E; cbn [trun] in E.
  - injection E as <-. split; [intros ? ? ? []|tauto].
  - apply bind_inv in E as (v & E1 & E2). destruct (IH v _ _ E2) as [H1 H2]. split; [|exact H2].
    intros a' i' b [Q|Q]; [injection Q as <- <- <-; now apply mread_get in E1|eauto].
  - apply bind_inv in E as (m1 & E1 & E2). apply mwrite_put in E1 as [-> V]. destruct (IH _ _ E2) as [H1 H2]. split.
    + intros a' i' b [Q|Q]; [injection Q as <- <- <-; exact V|]. apply (proj1 (valid_put m (a, i) v _)). eauto.
    + intros p. rewrite H2. apply valid_put.
Qed.

Lemma seq_valid : forall ops ts, Forall2 obl ops ts -> forall m m', seq_run ts m = Ok m' ->
  (forall l, In l ops -> forall a i b, In (a, i, b) l -> valid m (a, i)) /\ (forall p, valid m' p <-> valid m p).
Proof.
  induction 1 as [|l t ops ts Ht _ IH]; intros m m' E; cbn [seq_run] in E.
  - injection E as <-. split; [intros ? []|tauto].
  - apply bind_inv in E as (m1 & E1 & E2). destruct (obl_valid _ _ Ht _ _ E1) as [H1 H2]. destruct (IH _ _ E2) as [H3 H4]. split.
    + intros l' [<-|Hl]; [exact H1|]. intros a i b Hi. apply H2. eauto.
    + intros p. rewrite H4. apply H2.
Qed.

Definition apart (ops : list (list op)) : Prop :=
  forall n k ln lk a i b, n <> k -> nth_error ops n = Some ln -> nth_error ops k = Some lk -> In (a, i, true) ln -> ~ In (a, i, b) lk.

Lemma Forall2_nth : forall X Y (P : X -> Y -> Prop) l l', Forall2 P l l' -> forall n y, nth_error l' n = Some y -> exists x, nth_error l n = Some x /\ P x y.
Proof.
  induction 1; intros n z E; [destruct n; discriminate|]. destruct n as [|n]; cbn in E.
  - injection E as <-. exists x. auto.
  - destruct (IHForall2 _ _ E) as (x0 & ? & ?). exists x0. auto.
Qed.

Lemma obl_par : forall ops ts, Forall2 obl ops ts -> apart ops -> forall m m', seq_run ts m = Ok m' -> par_safe ts m m'.
Proof.
  intros ops ts H Ha m m' E. destruct (seq_valid _ _ H _ _ E) as [Hv _].
  pose (R := fun n p => exists l, nth_error ops n = Some l /\ In (fst p, snd p, false) l).
  pose (W := fun n p => exists l, nth_error ops n = Some l /\ In (fst p, snd p, true) l).
  assert (I : independent R W ts m).
  { constructor.
    - intros n t Hn. destruct (Forall2_nth _ _ _ _ _ H _ _ Hn) as (l & El & Hl).
      pose proof (obl_within _ _ Hl l (incl_refl l)) as Hw. clear - Hw El. induction Hw; constructor; auto; eexists; eauto.
    - intros n [a i] _ [(l & El & Hl)|(l & El & Hl)]; cbn [fst snd] in Hl; eapply Hv; eauto; eapply nth_error_In; eauto.
    - intros n k [a i] _ _ N (l & El & Hl). cbn [fst snd] in Hl. split; intros (l' & El' & Hl'); cbn [fst snd] in Hl'; eapply Ha; eauto. }
  destruct (par_seq R W ts m I) as (m1 & E1 & P). congruence.
Qed.

(** ** the loops of the code *)

Definition range_ops (a : nat) (w : bool) (p : Z) (n : nat) : list op := map (fun k => (a, p + Z.of_nat k, w)) (seq 0 n).
(** Reads anywhere in array 0; reads and writes of array 1 in [i, i + n). *)
Definition local (i n : Z) (l : list op) : Prop :=
  forall a p b, In (a, p, b) l -> (a = 0%nat /\ b = false) \/ (a = 1%nat /\ i <= p < i + n).

Lemma local_app : forall i n l1 l2, local i n l1 -> local i n l2 -> local i n (l1 ++ l2).
Proof. intros i n l1 l2 H1 H2 a p b H. apply in_app_or in H as [H|H]; eauto. Qed.

Lemma recon_obl : forall n j b0 b1 b2 b3 ql qr k l i w, local i w l ->
  (forall ql' qr', List.length ql' = (List.length ql + n)%nat -> List.length qr' = (List.length qr + n)%nat -> obl l (k ql' qr')) ->
  exists l', obl l' (recon_loop n j b0 b1 b2 b3 ql qr k) /\ local i w l' /\
    (forall ql' qr', List.length ql' = List.length ql -> List.length qr' = List.length qr -> obl l' (recon_loop n j b0 b1 b2 b3 ql' qr' k)).
Proof.
  induction n as [|n IH]; intros j b0 b1 b2 b3 ql qr k l i w Hl Hk.
  - exists l. cbn [recon_loop]. split; [apply Hk; lia|]. split; [exact Hl|]. intros ql' qr' L1 L2. apply Hk; lia.
  - destruct (IH (j + 1) b0 b1 b2 b3 (ql ++ [f0]) (qr ++ [f0]) k l i w Hl) as (l' & H1 & H2 & H3).
    { intros ql' qr' L1 L2. rewrite app_length in L1, L2. cbn in L1, L2. apply Hk; lia. }
    assert (Q : forall ql' qr', List.length ql' = List.length ql -> List.length qr' = List.length qr ->
      obl ((0%nat, b0 + j, false) :: (0%nat, b1 + j, false) :: (0%nat, b2 + j, false) :: (0%nat, b3 + j, false) :: l') (recon_loop (S n) j b0 b1 b2 b3 ql' qr' k)).
    { intros ql' qr' L1 L2. cbn [recon_loop]. repeat (constructor; intros). apply H3; rewrite !app_length; cbn; lia. }
    eexists. split; [apply Q; reflexivity|]. split; [|exact Q].
    intros a p b H. cbn [In] in H. repeat destruct H as [H|H]; try (injection H as <- <- <-; left; auto). eauto.
Qed.

Lemma add_obl : forall op d m fs p t l i w, List.length fs = m -> local i w l -> i <= p -> p + Z.of_nat m <= i + w -> obl l t ->
  obl (flat_map (fun k => [(1%nat, p + Z.of_nat k, false); (1%nat, p + Z.of_nat k, true)]) (seq 0 m) ++ l) (add_loop op d fs p t) /\
  local i w (flat_map (fun k => [(1%nat, p + Z.of_nat k, false); (1%nat, p + Z.of_nat k, true)]) (seq 0 m) ++ l).
Proof.
  intros o d m fs p t l i w Hm Hl H1 H2 Ht. split.
  - clear Hl H1 H2. revert p m Hm. induction fs as [|f fs IH]; intros p [|m] Hm; try discriminate; [exact Ht|]. injection Hm as Hm.
    cbn [add_loop seq flat_map app]. rewrite Z.add_0_r. constructor. intros x. constructor.
    rewrite <- seq_shift, flat_map_concat_map, map_map, <- flat_map_concat_map.
    erewrite flat_map_ext; [apply (IH (p + 1) m Hm)|]. intros k. cbn beta. replace (p + Z.of_nat (S k)) with (p + 1 + Z.of_nat k) by lia. reflexivity.
  - apply local_app; [|exact Hl]. intros a q b H. apply in_flat_map in H as (k & Hk & H). apply in_seq in Hk. right.
    destruct H as [H|[H|[]]]; injection H as <- <- <-; split; auto; lia.
Qed.

Definition flux_fixed (n : nat) (flux : list F -> list F -> res (list F)) : Prop :=
  (exists G, forall l r, List.length l = n -> List.length r = n -> flux l r = Ok (G l r) /\ List.length (G l r) = n) \/
  (forall l r, List.length l = n -> List.length r = n -> exists u, flux l r = UB u).

Lemma gather_obl : forall n stride flux d i G, (forall l r, List.length l = n -> List.length r = n -> flux l r = Ok (G l r) /\ List.length (G l r) = n) ->
  exists l, obl l (gather n stride flux d i) /\ local i (Z.of_nat n) l.
Proof.
  intros n stride flux d i G HG. unfold gather.
  assert (L0 : local i (Z.of_nat n) []) by (intros ? ? ? []).
  pose (adds := flat_map (fun k => [(1%nat, i + Z.of_nat k, false); (1%nat, i + Z.of_nat k, true)]) (seq 0 n)).
  destruct (recon_obl n 0 (i - stride) i (i + stride) (i + stride + stride) [] []
    (fun ql qr => with_flux (flux ql qr) (fun fs => add_loop fsub d fs i Ret)) (adds ++ []) i (Z.of_nat n)) as (l1 & O1 & K1 & _).
  { apply (add_obl fsub d n (repeat f0 n) i Ret [] i (Z.of_nat n)); try lia; auto using repeat_length. constructor. }
  { intros ql qr L1 L2. destruct (HG ql qr L1 L2) as [E L]. rewrite E. cbn [with_flux]. apply (add_obl fsub d n _ i Ret [] i (Z.of_nat n)); try lia; auto. constructor. }
  destruct (recon_obl n 0 (i - stride - stride) (i - stride) i (i + stride) [] []
    (fun ql qr => with_flux (flux ql qr) (fun fs => add_loop fadd d fs i
      (recon_loop n 0 (i - stride) i (i + stride) (i + stride + stride) [] [] (fun ql qr => with_flux (flux ql qr) (fun fs => add_loop fsub d fs i Ret)))))
    (adds ++ l1) i (Z.of_nat n)) as (l2 & O2 & K2 & _).
  { refine (proj2 (add_obl fadd d n (repeat f0 n) i _ l1 i (Z.of_nat n) (repeat_length _ _) K1 _ _ O1)); lia. }
  { intros ql qr L1 L2. destruct (HG ql qr L1 L2) as [E L]. rewrite E. cbn [with_flux]. apply (add_obl fadd d n _ i _ l1 i (Z.of_nat n)); try lia; auto. }
  exists l2. auto.
Qed.

Lemma recon_bad : forall n j b0 b1 b2 b3 ql qr k m m', 
  (forall ql' qr', List.length ql' = (List.length ql + n)%nat -> List.length qr' = (List.length qr + n)%nat -> exists u, k ql' qr' = Bad u) ->
  trun (recon_loop n j b0 b1 b2 b3 ql qr k) m <> Ok m'.
Proof.
  induction n as [|n IH]; intros j b0 b1 b2 b3 ql qr k m m' Hk E.
  - cbn [recon_loop] in E. destruct (Hk ql qr ltac:(lia) ltac:(lia)) as [u Q]. rewrite Q in E. discriminate.
  - cbn [recon_loop trun] in E. do 4 (apply bind_inv in E as (? & _ & E)). revert E. apply IH.
    intros ql' qr' L1 L2. rewrite app_length in L1, L2. cbn in L1, L2. apply Hk; lia.
Qed.

Lemma int_loop_is : forall s e n is, int_loop s e n = Ok is -> exists c, is = map (fun k => s + Z.of_nat k * n) (seq 0 c).
Proof.
  intros s e n is H. unfold int_loop in H. destruct (e <=? s).
  - injection H as <-. exists 0%nat. reflexivity.
  - apply bind_inv in H as (? & _ & H). injection H as <-. eexists. reflexivity.
Qed.

Lemma choose_ops : forall (body : Z -> thr F) (f : nat -> Z) (P : Z -> list op -> Prop), (forall i, exists l, obl l (body i) /\ P i l) ->
  forall c k0, exists ops, Forall2 obl ops (map body (map f (seq k0 c))) /\ forall k l, nth_error ops k = Some l -> P (f (k0 + k)%nat) l.
Proof.
  intros body f P H. induction c as [|c IH]; intros k0.
  - exists []. split; [constructor|]. intros [|k] l E; discriminate.
  - destruct (IH (S k0)) as (ops & F1 & F2). destruct (H (f k0)) as (l & H1 & H2). exists (l :: ops). cbn [seq map]. split; [constructor; auto|].
    intros [|k] l' E; cbn in E; [injection E as <-; now rewrite Nat.add_0_r|]. replace (k0 + S k)%nat with (S k0 + k)%nat by lia. auto.
Qed.

(** A loop whose iteration at [i] stays within [i, i + n), over i = s, s + n, ... *)
Lemma spaced_par : forall n (body : Z -> thr F) s c, 0 < n -> (forall i, exists l, obl l (body i) /\ local i n l) ->
  forall m m', let ts := map body (map (fun k => s + Z.of_nat k * n) (seq 0 c)) in seq_run ts m = Ok m' -> par_safe ts m m'.
Proof.
  intros n body s c Hn H m m' ts. subst ts. intros E.
  destruct (choose_ops body (fun k => s + Z.of_nat k * n) (fun i => local i n) H c 0) as (ops & F1 & F2).
  refine (obl_par ops _ F1 _ m m' E).
  intros a b la lb x i w N Ea Eb Ia Ib. apply F2 in Ea, Eb.
  destruct (Ea _ _ _ Ia) as [[_ Q]|[-> Q1]]; [discriminate|]. destruct (Eb _ _ _ Ib) as [[Q _]|[_ Q2]]; [discriminate|].
  assert (Z.of_nat a = Z.of_nat b) by nia. lia.
Qed.

Lemma sweep_par : forall n flux gr q dim l, (0 < n)%nat -> flux_fixed n (flux dim) -> gather_sweep n flux gr q dim = Ok l ->
  forall m m', seq_run l m = Ok m' -> par_safe l m m'.
Proof.
  intros n flux gr q dim l Hn Hf E m m' R. unfold gather_sweep, sweep_loop in E.
  apply bind_inv in E as (d & _ & E). apply bind_inv in E as (st & _ & E). apply bind_inv in E as (? & _ & E). apply bind_inv in E as (? & _ & E).
  apply bind_inv in E as (? & _ & E). apply bind_inv in E as (? & _ & E). apply bind_inv in E as (ix & _ & E). apply bind_inv in E as (? & _ & E).
  apply bind_inv in E as (? & _ & E). apply bind_inv in E as (is & E1 & E). injection E as <-. apply int_loop_is in E1 as (c & ->).
  destruct Hf as [(G & HG)|HB].
  - refine (spaced_par (Z.of_nat n) _ (ix_lin ix) c _ _ m m' R); [lia|]. intros i. eapply gather_obl; eauto.
  - destruct c as [|c].
    + cbn in R |- *. refine (obl_par [] [] (Forall2_nil _) _ m m' R). intros [|?] ? ? ? ? ? ? _ Ea; discriminate.
    + cbn [seq map seq_run] in R. apply bind_inv in R as (m1 & R & _). exfalso. revert R. unfold gather. apply recon_bad.
      intros ql qr L1 L2. destruct (HB ql qr L1 L2) as [u ->]. exists u. reflexivity.
Qed.

Lemma loops_of_par : forall (f : Z -> res (list (thr F))) dims ls, (forall d l, In d dims -> f d = Ok l -> forall m m', seq_run l m = Ok m' -> par_safe l m m') ->
  loops_of f dims = Ok ls -> forall m m', loops_run ls m = Ok m' -> loops_safe ls m m'.
Proof.
  intros f. induction dims as [|d dims IH]; intros ls H E m m' R; cbn [loops_of] in E.
  - injection E as <-. cbn in R |- *. congruence.
  - apply bind_inv in E as (l & E1 & E). apply bind_inv in E as (ls' & E2 & E). injection E as <-. cbn [loops_run] in R.
    apply bind_inv in R as (m1 & R1 & R2). exists m1. split; [apply (H d); auto; now left|]. apply (IH ls'); auto. intros d' l' Hd. apply H. now right.
Qed.

(** ** from loops to outcomes *)

Lemma safe_can : forall ls (a a' : mem F), loops_safe ls a a' -> forall r, loops_can ls a r <-> r = Ok a'.
Proof.
  induction ls as [|l ls IH]; intros a a' H r; cbn [loops_safe loops_can] in *.
  - subst a'. tauto.
  - destruct H as (a1 & (HA & HP) & HS). split.
    + intros [(ts & a2 & P & Fi & C)|[(c & u & P & B & ->)|(N & _)]].
      * destruct (HP _ P) as (_ & _ & E & _). cbn [fst snd] in E. rewrite (E Fi) in C. now apply (IH a1 a').
      * destruct (HP _ P) as (N1 & N2 & _). destruct B; contradiction.
      * contradiction.
    + intros ->. left. assert (Q : exists ts, psteps (l, a) (ts, a1) /\ finished ts).
      { assert (G : forall c, Acc (fun c' c => pstep c c') c -> psteps (l, a) c -> exists ts, psteps (l, a) (ts, a1) /\ finished ts).
        { induction 1 as [c _ IHc]. intros Hc. destruct (HP _ Hc) as (_ & _ & E & [Fi|(c' & St)]).
          - exists (fst c). split; [|exact Fi]. rewrite <- (E Fi). now destruct c.
          - apply (IHc c' St). clear - Hc St. induction Hc; [econstructor; [exact St|constructor]|econstructor; [exact H|auto]]. }
        apply (G (l, a) HA). constructor. }
      destruct Q as (ts & P & Fi). exists ts, a1. split; [exact P|]. split; [exact Fi|]. now apply (IH a1 a').
Qed.

(** [c] has the outcome [o] only, if that is a normal one. *)
Definition settled (c : @can F) (o : out (mgr F)) : Prop := forall m, o = Done m -> forall o', c o' <-> o' = Done m.

Lemma settled_only : forall o, settled (only o) o.
Proof. intros o m -> o'. unfold only. tauto. Qed.
Lemma settled_then : forall c o k f, settled c o -> (forall m, o = Done m -> settled (k m) (f m)) -> settled (and_then c k) (obind o f).
Proof.
  intros c o k f H1 H2 m E o'. destruct o as [m1| | |]; try discriminate. cbn [obind] in E. unfold and_then. split.
  - intros (o1 & C1 & C2). apply (H1 m1 eq_refl) in C1 as ->. now apply (H2 m1 eq_refl m E).
  - intros ->. exists (Done m1). split; [now apply (H1 m1 eq_refl)|]. now apply (H2 m1 eq_refl m E).
Qed.
Lemma settled_lift : forall B m (x : res B) k f, (forall b, x = Ok b -> settled (k b) (f b)) -> settled (lift_can m x k) (liftr m x f).
Proof. intros B m x k f H. destruct x; cbn [lift_can liftr]; auto using settled_only. Qed.

Lemma settled_kernel : forall ins o ix ls m, (forall a a', loops_run ls a = Ok a' -> loops_safe ls a a') ->
  settled (kernel_can ins o ix ls m) (run_kernel ins o ix ls m).
Proof.
  intros ins o ix ls m H. unfold kernel_can, run_kernel. destruct (existsb (Nat.eqb o) ins); [apply settled_only|].
  apply settled_lift. intros a _ m' E o'. destruct (loops_run ls a) as [a'| | |] eqn:R; try discriminate. cbn [liftr] in E.
  pose proof (safe_can _ _ _ (H _ _ R)) as C. split.
  - intros (x & Cx & Hx). apply C in Cx as ->. cbn [lift_can] in Hx. destruct (nth_error a' (List.length ins)); [|discriminate]. unfold only in Hx. congruence.
  - intros ->. exists (Ok a'). split; [now apply C|]. cbn [lift_can]. destruct (nth_error a' (List.length ins)); [|discriminate]. unfold only. congruence.
Qed.

Lemma settled_output : forall m k c f, (forall n m, settled (c n m) (f n m)) -> settled (output_can m k c) (with_output m k f).
Proof.
  intros m k c f H. unfold output_can, with_output. apply settled_lift. intros [n|] _; [apply H|].
  apply settled_then; [apply settled_only|]. intros m' _. apply settled_lift. intros [n|] _; [apply H|apply settled_only].
Qed.
Lemma settled_indexer : forall fuel ix c f m, (forall ix m, settled (c ix m) (f ix m)) -> settled (indexer_can fuel ix c m) (for_indexer fuel ix f m).
Proof.
  induction fuel as [|fuel IH]; intros ix c f m H; cbn [indexer_can for_indexer]; destruct (ix_ex ix); try apply settled_only.
  apply settled_then; [apply H|]. intros m' _. apply settled_lift. intros ix' _. now apply IH.
Qed.
Lemma settled_chunks : forall fuel n c f m, (forall ix m, settled (c ix m) (f ix m)) -> settled (chunks_can fuel n c m) (for_chunks fuel n f m).
Proof. intros fuel n c f m H. unfold chunks_can, for_chunks. apply settled_lift. intros ix _. now apply settled_indexer. Qed.

Lemma settled_rhs : forall s1 s2 fuel loops ins outs m, (forall m e ls, loops m e = Ok ls -> forall a a', loops_run ls a = Ok a' -> loops_safe ls a a') ->
  settled (rhs_can s1 s2 fuel loops ins outs m) (rhs_solve s1 s2 fuel loops ins outs m).
Proof.
  intros s1 s2 fuel loops ins outs m H. unfold rhs_can, rhs_solve. destruct ins as [|q [|]]; try apply settled_only. destruct outs as [|r [|]]; try apply settled_only.
  apply settled_lift. intros n _. apply settled_output. intros n' m'. apply settled_chunks. intros ix m1. apply settled_lift. intros ls E.
  apply bind_inv in E as (e & _ & E). apply settled_kernel. eapply H; eauto.
Qed.

Lemma dims_nat : forall n d, In d (dims_upto n) -> exists k, d = Z.of_nat k.
Proof. intros n d H. unfold dims_upto in H. apply in_map_iff in H as (k & <- & _). eauto. Qed.

Lemma euler_fixed : forall gamma d, flux_fixed 5 (euler_flux gamma (Z.of_nat d)).
Proof.
  intros gamma d. destruct (Nat.lt_ge_cases d 4) as [H|H].
  - left. exists (flux_of (euler_flux gamma) d). intros l r Hl Hr. exact (euler_total gamma d H l r Hl Hr).
  - right. intros l r Hl _. do 5 (destruct l as [|? l]; [discriminate|]). destruct l; [|discriminate]. unfold euler_flux, euler_side.
    assert (Q : forall x y z w v : F, vget [x; y; z; w; v] (Z.of_nat d + 1) = UB OutOfBounds).
    { intros. unfold vget. replace (Z.to_nat (Z.of_nat d + 1)) with (5 + (d - 4))%nat by lia. destruct (0 <=? Z.of_nat d + 1); [|reflexivity].
      cbn. destruct (d - 4)%nat; reflexivity. }
    rewrite Q. cbn. exists OutOfBounds. reflexivity.
Qed.
Lemma maxwell_fixed : forall c d, flux_fixed 6 (maxwell_flux c (Z.of_nat d)).
Proof. intros c d. left. exists (flux_of (maxwell_flux c) d). intros l r Hl Hr. exact (maxwell_total c d l r Hl Hr). Qed.

Lemma settled_euler : forall fuel gamma ins outs m, settled (euler_can fuel gamma ins outs m) (euler_solve fuel gamma ins outs m).
Proof.
  intros. apply settled_rhs. intros m0 e ls E. apply bind_inv in E as (? & _ & E). apply (loops_of_par _ _ _) with (2 := E).
  intros d l Hd El. apply dims_nat in Hd as [k ->]. eapply sweep_par; [| |exact El]; [auto with arith|apply euler_fixed].
Qed.
Lemma settled_maxwell : forall fuel c ins outs m, settled (maxwell_can fuel c ins outs m) (maxwell_solve fuel c ins outs m).
Proof.
  intros. apply settled_rhs. intros m0 e ls E. apply (loops_of_par _ _ _) with (2 := E).
  intros d l Hd El. apply dims_nat in Hd as [k ->]. eapply sweep_par; [| |exact El]; [auto with arith|apply maxwell_fixed].
Qed.

(** Iteration [i] of an integrator loop accesses position [i] only and writes
    the last array, which it does not read. *)
Definition pointwise (i : Z) (l : list op) : Prop := forall a p b, In (a, p, b) l -> p = i.
Lemma point_par : forall (body : Z -> thr F) ls e, (forall i, exists l, obl l (body i) /\ pointwise i l) -> stage_loops body e = Ok ls ->
  forall a a', loops_run ls a = Ok a' -> loops_safe ls a a'.
Proof.
  intros body ls e H E a a' R. unfold stage_loops in E. apply bind_inv in E as (n & _ & E). apply bind_inv in E as (is & E1 & E). injection E as <-.
  apply int_loop_is in E1 as (c & ->). cbn [loops_run] in R. apply bind_inv in R as (a1 & R & Q). injection Q as <-. exists a1. split; [|reflexivity].
  destruct (choose_ops body (fun k => 0 + Z.of_nat k * 1) pointwise H c 0) as (ops & F1 & F2). refine (obl_par ops _ F1 _ a a1 R).
  intros x y lx ly b i w N Ea Eb Ia Ib. apply F2 in Ea, Eb. apply Ea in Ia. apply Eb in Ib. lia.
Qed.
Lemma stage0_obl : forall dt i, exists l, obl l (stage0_iter dt i) /\ pointwise i l.
Proof. intros. eexists. split; [unfold stage0_iter; repeat (constructor; intros)|]. intros a p b H. cbn in H. intuition congruence. Qed.
Lemma stage1_obl : forall dt i, exists l, obl l (stage1_iter dt i) /\ pointwise i l.
Proof. intros. eexists. split; [unfold stage1_iter; repeat (constructor; intros)|]. intros a p b H. cbn in H. intuition congruence. Qed.
Lemma stage2_obl : forall dt i, exists l, obl l (stage2_iter dt i) /\ pointwise i l.
Proof. intros. eexists. split; [unfold stage2_iter; repeat (constructor; intros)|]. intros a p b H. cbn in H. intuition congruence. Qed.

Lemma settled_ssprk3 : forall al fuel ins outs tag m, settled (ssprk3_can al fuel ins outs tag m) (ssprk3_solve al fuel ins outs tag m).
Proof.
  intros al fuel ins outs tag m. unfold ssprk3_can, ssprk3_solve. destruct ins as [|q0 [|r [|]]]; try apply settled_only. destruct outs as [|q1 [|q2 [|q3 outs]]]; try apply settled_only.
  apply settled_lift. intros dt _. apply settled_lift. intros n0 _. apply settled_lift. intros nr _. apply settled_output. intros n1 m1. apply settled_output. intros n2 m2.
  apply settled_output. intros n3 m3. apply settled_chunks. intros ix m4. cbv zeta.
  assert (Q : forall iter rd o, (forall i, exists l, obl l (iter i) /\ pointwise i l) ->
    settled (if al then lift_can m4 (e <- get_chunk m4 nr ix ;; stage_loops iter e) (fun ls => kernel_can rd o ix ls m4) else only (Undef Misaligned))
            (if al then liftr m4 (e <- get_chunk m4 nr ix ;; stage_loops iter e) (fun ls => run_kernel rd o ix ls m4) else Undef Misaligned)).
  { intros iter rd o H. destruct al; [|apply settled_only]. apply settled_lift. intros ls E. apply bind_inv in E as (e & _ & E). apply settled_kernel.
    eapply point_par; eauto. }
  destruct (tag =? 0); [apply Q, stage0_obl|]. destruct (tag =? 1); [apply Q, stage1_obl|]. destruct (tag =? 2); [apply Q, stage2_obl|apply settled_only].
Qed.

Lemma settled_each : forall X (c : X -> mgr F -> can) f l m, (forall x m, settled (c x m) (f x m)) -> settled (each_can c l m) (ofold f l m).
Proof.
  intros X c f. induction l as [|x l IH]; intros m H; cbn [each_can ofold]; [apply settled_only|]. apply settled_then; [apply H|]. intros m' _. now apply IH.
Qed.
Lemma settled_loop : forall c f dt n t m, (forall m, settled (c m) (f m)) -> settled (loop_can c dt n t m) (time_loop f dt n t m).
Proof.
  intros c f dt. induction n as [|n IH]; intros t m H; cbn [loop_can time_loop]; [apply settled_only|]. apply settled_then; [apply H|]. intros m' _. now apply IH.
Qed.
Lemma settled_run : forall c f dt n m, (forall m, settled (c m) (f m)) -> settled (run_can c dt n m) (run f dt n m).
Proof. intros. now apply settled_loop. Qed.
Lemma settled_program : forall ic c f dt n gr, (forall m, settled (c m) (f m)) -> settled (program_can ic c dt n gr) (program ic f dt n gr).
Proof. intros. apply settled_then; [apply settled_only|]. intros m _. now apply settled_run. Qed.

Ltac stl := repeat (apply settled_then; [first [apply settled_only|apply settled_euler|apply settled_maxwell|apply settled_ssprk3]|intros ? _]);
  first [apply settled_only|apply settled_ssprk3].
Lemma settled_pulse : forall al fuel c dims f m, settled (pulse_can al fuel c dims f m) (pulse_step al fuel c dims f m).
Proof. intros. apply settled_then; [apply settled_each; intros k m0; unfold pulse_stage_can, pulse_stage; stl|intros; apply settled_only]. Qed.
Lemma settled_sod : forall al fuel g ws ds f m, settled (sod_can al fuel g ws ds f m) (sod_step al fuel g ws ds f m).
Proof. intros. apply settled_then; [apply settled_each; intros k m0; unfold sod_stage_can, sod_stage; stl|intros; apply settled_only]. Qed.
Lemma settled_plasma : forall al fuel p bl e i f m, settled (plasma_can al fuel p bl e i f m) (plasma_step al fuel p bl e i f m).
Proof. intros. apply settled_then; [apply settled_each; intros k m0; unfold plasma_stage_can, plasma_stage; stl|intros; apply settled_only]. Qed.

(** ** the advection program has a race in every chunk *)

Lemma output_can_at : forall (m : mgr F) k n m', (forall f, with_output m k f = f n m') -> forall (c : nat -> mgr F -> can) o, c n m' o -> output_can m k c o.
Proof.
  intros m k n m' H c o C. unfold output_can. unfold with_output in H. destruct (map_find (mg_vars m) k) as [[n1|]| | |]; cbn [liftr lift_can] in *;
    try (specialize (H (fun _ _ => Undef IntOverflow)) as Q1; specialize (H (fun _ _ => Spin)) as Q2; congruence).
  - assert (m = m') by (specialize (H (fun _ m => Done m)); congruence). subst m'. destruct (Nat.eq_dec n1 n) as [->|N]; [exact C|].
    specialize (H (fun x m => if Nat.eqb x n then Spin else Done m)). cbn beta in H. rewrite Nat.eqb_refl in H. apply Nat.eqb_neq in N. rewrite N in H. discriminate.
  - destruct (add_variable m k) as [m1|s m1|u|]; cbn [obind] in H; try (specialize (H (fun _ _ => Undef IntOverflow)) as Q1; specialize (H (fun _ _ => Spin)) as Q2; congruence).
    exists (Done m1). split; [reflexivity|]. destruct (map_find (mg_vars m1) k) as [[n1|]| | |]; cbn [liftr lift_can] in *;
      try (specialize (H (fun _ _ => Undef IntOverflow)) as Q1; specialize (H (fun _ _ => Spin)) as Q2; congruence).
    assert (m1 = m') by (specialize (H (fun _ m => Done m)); congruence). subst m'. destruct (Nat.eq_dec n1 n) as [->|N]; [exact C|].
    specialize (H (fun x m => if Nat.eqb x n then Spin else Done m)). cbn beta in H. rewrite Nat.eqb_refl in H. apply Nat.eqb_neq in N. rewrite N in H. discriminate.
Qed.
Lemma chunks_can_at : forall fuel gr M (L : list (vid * field F)) dt t n k u (body : indexer -> mgr F -> can) o, M <> [] -> (1 <= fuel)%nat -> nth_error L n = Some (k, u) ->
  (forall m, o <> Done m) -> body (ix_one M) (mgr_of gr M L dt t) o -> chunks_can fuel n body (mgr_of gr M L dt t) o.
Proof.
  intros fuel gr M L dt t n k u body o HM Hf HN Ho B. unfold chunks_can. rewrite (var_at_of _ _ _ _ _ _ _ _ HN).
  cbn [bind]. unfold iface_indexer. cbn [v_ds var_of ds_chunks dataset_of if_range].
  pose proof (one_cell_valid M HM) as V. pose proof (valid_self _ V) as G. rewrite indexer_make_ok by assumption. cbn [lift_can].
  replace (ix_at (one_cell M) (one_cell M) (first_cell (one_cell M))) with (ix_one M) by (unfold ix_one, first_cell, one_cell; now rewrite map_map).
  destruct fuel as [|fuel]; [lia|]. cbn [indexer_can]. cbn [ix_ex ix_one ix_at]. exists o. split; [exact B|]. destruct o; try reflexivity. now destruct (Ho s).
Qed.

Lemma adv_can_undef : forall (m : mgr F) M L ks q0 q1 q2 dt velocity fuel u0 u, adv_ready m M L ks q0 q1 q2 dt velocity fuel ->
  field_get L q0 = Some u0 -> id_name q0 <> id_name q1 -> adv_can fuel velocity [q0] [q1; q2] 0 m (Undef u).
Proof.
  intros m M L ks q0 q1 q2 dt velocity fuel u0 u (Hm & HL & Hc & Hk & Hf & Cb1 & Cb2 & Hfu & Ht & Hdt & Hv & Hx) H0 N01.
  apply mgr_holds_iff in Hm as [Hg Hm]; auto.
  inversion Hf as [|? ? Hf0 Hf']; subst. inversion Hf' as [|? ? Hf1 Hf'']; subst. inversion Hf'' as [|? ? Hf2 _]; subst.
  assert (HM : M <> []) by (eapply id_fits_M; eauto).
  assert (Hc' : compatible (ids L ++ [q0; q1; q2])).
  { eapply compat_perm; [exact Hc|]. intros x Hx'. rewrite in_app_iff in *. destruct Hx'; auto. }
  assert (Fx : forall x, In x [q0; q1; q2] -> fitting L x) by (intros; eapply compat_fitting; eauto).
  assert (Hab : forall a b, In a [q0; q1; q2] -> In b [q0; q1; q2] -> id_name a = id_name b -> a = b).
  { intros a b Ha Hb. apply Hc'; rewrite in_app_iff; auto. }
  assert (I0' : In q0 [q0; q1; q2]) by (cbn; auto).
  assert (I1' : In q1 [q0; q1; q2]) by (cbn; auto).
  assert (I2' : In q2 [q0; q1; q2]) by (cbn; auto).
  assert (F1 : fitting L q1) by auto.
  assert (F2 : fitting (ensure L q1) q2) by (apply fitting_ensure; auto).
  destruct (input_pos (mg_grid m) M L (mg_dt m) (mg_time m) q0 u0 (Fx _ I0') H0) as (n0 & P0 & I0).
  destruct (output_pos (mg_grid m) M L (mg_dt m) (mg_time m) q1 Hg F1 Hf1) as (n1 & P1 & O1).
  destruct (output_pos (mg_grid m) M (ensure L q1) (mg_dt m) (mg_time m) q2 Hg F2 Hf2) as (n2 & P2 & O2).
  set (L2 := ensure (ensure L q1) q2) in *.
  assert (P0' : pos L2 q0 u0 n0) by (unfold L2; repeat apply pos_ensure; auto).
  assert (P1' : pos L2 q1 (field_or_zero L q1) n1) by (unfold L2; apply pos_ensure; auto).
  pose proof (pos_neq _ _ _ _ _ _ _ P0' P1' N01) as NN.
  assert (G1 : mgr_get_dt (mgr_of (mg_grid m) M L (mg_dt m) (mg_time m)) = Ok dt).
  { unfold mgr_get_dt. cbn [mg_dt mgr_of]. now rewrite Hdt. }
  assert (G2 : exists t, mgr_get_time (mgr_of (mg_grid m) M L (mg_dt m) (mg_time m)) = Ok t).
  { unfold mgr_get_time. cbn [mg_time mgr_of]. destruct (mg_time m) as [t|]; [|congruence]. now exists t. }
  destruct G2 as (t & G2).
  rewrite Hm at 1. unfold adv_can. rewrite G2. cbn [lift_can]. rewrite G1. cbn [lift_can]. rewrite I0. cbn [lift_can].
  apply (output_can_at _ _ _ _ O1). apply (output_can_at _ _ _ _ O2). cbn [Z.eqb].
  apply (chunks_can_at fuel (mg_grid m) M L2 (mg_dt m) (mg_time m) n0 q0 u0); auto; [apply P0'|discriminate|].
  unfold adv_stage_0_can. destruct (Nat.eqb_spec n0 n1); [congruence|].
  rewrite (get_chunk_ok _ _ _ _ _ _ _ _ (proj2 P0')). cbn [lift_can].
  rewrite (on_chunk_ok _ _ _ _ _ _ q1 (field_or_zero L q1) u0 _ (proj2 P1')).
  2:{ rewrite ec_if_of. fold (whole M q0). unfold whole. rewrite Cb1. apply full_copy_of, (whole_valid M q0 Hf0). }
  eexists. split; [reflexivity|]. cbn beta iota. match goal with |- context [mg_grid (mgr_of ?a ?b ?c ?d ?e)] => change (mg_grid (mgr_of a b c d e)) with a end.
  destruct (adv_inout_ok M q0 u0 (mg_grid m) velocity dt Hf0 Hg Hv Hx) as (ls & E1 & _). rewrite E1. cbn [lift_can].
  unfold kernel_can. assert (EX : existsb (Nat.eqb n1) [n0] = false) by (cbn; destruct (Nat.eqb_spec n1 n0); [congruence|reflexivity]). rewrite EX.
  cbn [app]. rewrite (arrays_ok _ _ _ _ _ [n0; n1] [(q0, u0); (q1, u0)]).
  2:{ constructor; [rewrite nth_error_upd_neq by congruence; apply P0'|]. constructor; [|constructor].
      apply BaseFacts.nth_error_upd_eq. apply nth_error_Some. destruct P1'. congruence. }
  2:{ repeat (constructor; auto). }
  cbn [lift_can map fst snd]. exists (UB u). split; [|reflexivity].
  unfold adv_inout in E1. rewrite Hg, dims_of in E1. destruct M as [|b M]; [congruence|]. cbn [List.length seq map loops_of] in E1.
  destruct (adv_always_races (mg_grid m) (b :: M) (comp_box q0) u0 u0 0%nat velocity (velocity_of velocity 0) dt (spacing (mg_grid m) 0) Hf0) as (l & El & ts & a & Pa & Ra).
  { cbn. lia. }
  { unfold velocity_of, vget. cbn [Z.of_nat Z.leb Z.compare Z.to_nat]. destruct velocity; [cbn in Hv; lia|]. reflexivity. }
  { apply grid_dx_spacing. cbn in Hx. lia. }
  rewrite El in E1. cbn [bind] in E1. apply bind_inv in E1 as (ls' & _ & E1). injection E1 as <-. cbn [loops_can]. right. left.
  exists (ts, a), u. split; [|auto]. unfold whole. rewrite Cb1. exact Pa.
Qed.

End ParallelFacts.
