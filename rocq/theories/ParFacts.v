(** * ParFacts: loops whose iterations write elements no other iteration touches
    give the sequential result under every interleaving. *)
From Coq Require Import ZArith List Bool Lia Wellfounded.
From Verif Require Import Base BaseFacts Par.
Import ListNotations.
Open Scope Z_scope.

Section ParFacts.
Context {F : Type}.
Notation thr := (thr F).
Notation mem := (mem F).

Definition loc : Type := nat * Z.

(** Reads only inside [R], writes only inside [W], never undefined by itself. *)
Inductive within (R W : loc -> Prop) : thr -> Prop :=
| within_ret : within R W Ret
| within_rd : forall a i k, R (a, i) -> (forall v, within R W (k v)) -> within R W (Rd a i k)
| within_wr : forall a i v t, W (a, i) -> within R W t -> within R W (Wr a i v t).

(** The location exists. *)
Definition valid (m : mem) (l : loc) : Prop :=
  exists x, nth_error m (fst l) = Some x /\ 0 <= snd l < Z.of_nat (List.length x).

Definition mget (m : mem) (l : loc) : option F :=
  match nth_error m (fst l) with
  | Some x => nth_error x (Z.to_nat (snd l))
  | None => None
  end.
Definition mput (m : mem) (l : loc) (v : F) : mem :=
  match nth_error m (fst l) with
  | Some x => upd m (fst l) (upd x (Z.to_nat (snd l)) v)
  | None => m
  end.

Lemma mread_ok : forall m a i, valid m (a, i) -> exists v, mread m a i = Ok v /\ mget m (a, i) = Some v.
Proof.
  intros m a i (x & H1 & H2). unfold mread, mget. cbn [fst snd] in *. rewrite H1.
  destruct (nth_error x (Z.to_nat i)) as [v|] eqn:E.
  - exists v. split; auto. apply vget_ok; auto. lia.
  - apply nth_error_None in E. lia.
Qed.

Lemma mread_get : forall m a i v, mread m a i = Ok v -> mget m (a, i) = Some v /\ valid m (a, i).
Proof.
  intros m a i v H. unfold mread in H. unfold mget, valid. cbn [fst snd].
  destruct (nth_error m a) as [x|] eqn:E; [|discriminate].
  apply vget_ok_inv in H as [H1 H2]. split; auto. exists x. split; auto. split; auto.
  assert (nth_error x (Z.to_nat i) <> None) by congruence. apply nth_error_Some in H. lia.
Qed.

Lemma mwrite_ok : forall m a i v, valid m (a, i) -> mwrite m a i v = Ok (mput m (a, i) v).
Proof.
  intros m a i v (x & H1 & H2). unfold mwrite, mput. cbn [fst snd] in *. rewrite H1.
  rewrite vset_ok by lia. reflexivity.
Qed.

Lemma mwrite_put : forall m a i v m', mwrite m a i v = Ok m' -> m' = mput m (a, i) v /\ valid m (a, i).
Proof.
  intros m a i v m' H. assert (V : valid m (a, i)).
  { unfold mwrite in H. unfold valid; cbn [fst snd]. destruct (nth_error m a) as [x|] eqn:E; [|discriminate].
    apply bind_inv in H as (l' & H & _). exists x. split; auto. unfold vset in H.
    destruct ((0 <=? i) && (i <? Z.of_nat (List.length x))) eqn:B; [|discriminate]. lia. }
  split; auto. rewrite mwrite_ok in H by assumption. congruence.
Qed.

Lemma valid_put : forall m l v l', valid (mput m l v) l' <-> valid m l'.
Proof.
  intros m [a i] v [a' i']. unfold valid, mput; cbn [fst snd].
  destruct (nth_error m a) as [x|] eqn:E; [|tauto].
  rewrite nth_error_upd. destruct (Nat.eq_dec a a') as [->|N].
  - rewrite E. assert (a' < List.length m)%nat by (apply nth_error_Some; congruence).
    destruct (a' =? a')%nat eqn:B; [|apply Nat.eqb_neq in B; congruence].
    destruct (a' <? List.length m)%nat eqn:B2; [|apply Nat.ltb_ge in B2; lia]. cbn [andb].
    split; intros (y & H1 & H2).
    + inversion H1; subst. exists x. rewrite upd_length in H2. auto.
    + inversion H1; subst. eexists. split; eauto. now rewrite upd_length.
  - destruct (a =? a')%nat eqn:B; [apply Nat.eqb_eq in B; congruence|]. cbn [andb]. tauto.
Qed.

Lemma loc_dec : forall l l' : loc, {l = l'} + {l <> l'}.
Proof. decide equality; [apply Z.eq_dec | apply Nat.eq_dec]. Qed.

Lemma mget_put_same : forall m l v, valid m l -> mget (mput m l v) l = Some v.
Proof.
  intros m [a i] v (x & H1 & H2). unfold mget, mput; cbn [fst snd] in *. rewrite H1.
  rewrite nth_error_upd_eq by (apply nth_error_Some; congruence).
  apply nth_error_upd_eq. lia.
Qed.

Lemma mget_put_other : forall m l v l', valid m l -> valid m l' -> l <> l' -> mget (mput m l v) l' = mget m l'.
Proof.
  intros m [a i] v [a' i'] (x & H1 & H2) (x' & H1' & H2') N. unfold mget, mput; cbn [fst snd] in *. rewrite H1.
  destruct (Nat.eq_dec a a') as [->|Na].
  - rewrite nth_error_upd_eq by (apply nth_error_Some; congruence). rewrite H1.
    apply nth_error_upd_neq. intros Hc. apply N. f_equal.
    assert (x = x') by congruence. subst x'. apply Z2Nat.inj in Hc; lia.
  - now rewrite nth_error_upd_neq by congruence.
Qed.

Lemma upd_comm : forall T (l : list T) i j x y, i <> j -> upd (upd l i x) j y = upd (upd l j y) i x.
Proof. induction l; intros [|i] [|j] x y H; simpl; auto; try congruence. f_equal. apply IHl. congruence. Qed.
Lemma upd_upd : forall T (l : list T) i x y, upd (upd l i x) i y = upd l i y.
Proof. induction l; intros [|i] x y; simpl; auto. now f_equal. Qed.
Lemma upd_same : forall T (l : list T) i x, nth_error l i = Some x -> upd l i x = l.
Proof. induction l; intros [|i] x H; simpl in *; auto; try congruence. f_equal; auto. Qed.

Lemma mput_comm : forall m l v l' v', valid m l -> valid m l' -> l <> l' ->
  mput (mput m l v) l' v' = mput (mput m l' v') l v.
Proof.
  intros m [a i] v [a' i'] v' (x & H1 & H2) (x' & H1' & H2') N. unfold mput; cbn [fst snd] in *.
  rewrite H1, H1'. destruct (Nat.eq_dec a a') as [->|Na].
  - assert (x = x') by congruence. subst x'.
    rewrite !nth_error_upd_eq by (apply nth_error_Some; congruence). rewrite !upd_upd. f_equal.
    apply upd_comm. intros Hc. apply N. f_equal. apply Z2Nat.inj in Hc; lia.
  - rewrite (nth_error_upd_neq _ m a a') by congruence. rewrite (nth_error_upd_neq _ m a' a) by congruence.
    rewrite H1, H1'. now apply upd_comm.
Qed.

(** Running one iteration alone: defined, keeps all sizes and all elements it
    does not write; a write elsewhere commutes with it. *)
Lemma trun_ok : forall R W t, within R W t -> forall m,
  (forall l, R l -> valid m l) -> (forall l, W l -> valid m l) ->
  exists m', trun t m = Ok m' /\ (forall l, valid m' l <-> valid m l) /\
    (forall l, valid m l -> ~ W l -> mget m' l = mget m l) /\
    (forall l v, valid m l -> ~ R l -> ~ W l -> trun t (mput m l v) = Ok (mput m' l v)).
Proof.
  intros R W t H. induction H as [|a i k Hr Hk IH|a i v t Hw Ht IH]; intros m VR VW.
  - exists m. repeat split; auto; tauto.
  - destruct (mread_ok m a i (VR _ Hr)) as (v & E1 & E2).
    destruct (IH v m VR VW) as (m' & E & V & K & C). exists m'. cbn [trun]. rewrite E1. cbn [bind].
    split; auto. split; auto. split; auto.
    intros l w Hv Nr Nw. destruct (mread_ok (mput m l w) a i) as (v' & E3 & E4).
    { apply valid_put. auto. }
    assert (N : l <> (a, i)) by (intros ->; auto).
    assert (v' = v). { rewrite mget_put_other in E4; auto. congruence. }
    subst v'. rewrite E3. cbn [bind]. auto.
  - destruct (IH (mput m (a, i) v)) as (m' & E & V & K & C).
    { intros. apply valid_put. auto. } { intros. apply valid_put. auto. }
    exists m'. cbn [trun]. rewrite mwrite_ok by auto. cbn [bind]. split; auto.
    split. { intros l. rewrite V. apply valid_put. }
    split. { intros l Hv Nw. assert (N : (a, i) <> l) by (intros <-; auto).
      rewrite K; auto. - apply mget_put_other; auto. - apply valid_put; auto. }
    intros l w Hv Nr Nw. rewrite mwrite_ok by (apply valid_put; auto). cbn [bind].
    assert (N : l <> (a, i)) by (intros ->; auto).
    rewrite mput_comm; auto. apply C; auto. apply valid_put; auto.
Qed.

(** ** independence *)

(** Iteration number [n] stays within [R n], [W n]; all locations exist; nobody
    else touches what an iteration writes. *)
Record independent (R W : nat -> loc -> Prop) (ts : list thr) (m : mem) : Prop := {
  ind_within : forall n t, nth_error ts n = Some t -> within (R n) (W n) t;
  ind_valid : forall n l, (n < List.length ts)%nat -> R n l \/ W n l -> valid m l;
  ind_apart : forall n k l, (n < List.length ts)%nat -> (k < List.length ts)%nat -> n <> k ->
    W n l -> ~ R k l /\ ~ W k l
}.

Lemma ind_tail : forall R W t ts m, independent R W (t :: ts) m ->
  independent (fun n => R (S n)) (fun n => W (S n)) ts m.
Proof.
  intros R W t ts m [H1 H2 H3]. constructor.
  - intros n t' E. apply (H1 (S n)). exact E.
  - intros n l Hn H. apply (H2 (S n)); auto. simpl. lia.
  - intros n k l Hn Hk N H. apply (H3 (S n) (S k)); auto; simpl; lia.
Qed.

Lemma ind_mem : forall R W ts m m', independent R W ts m -> (forall l, valid m l -> valid m' l) -> independent R W ts m'.
Proof. intros R W ts m m' [H1 H2 H3] H. constructor; auto. intros. eauto. Qed.

Lemma ind_head : forall R W t ts m, independent R W (t :: ts) m ->
  within (R 0%nat) (W 0%nat) t /\ (forall l, R 0%nat l -> valid m l) /\ (forall l, W 0%nat l -> valid m l).
Proof.
  intros R W t ts m [H1 H2 H3]. split; [|split].
  - apply H1. reflexivity.
  - intros. apply (H2 0%nat). simpl; lia. auto.
  - intros. apply (H2 0%nat). simpl; lia. auto.
Qed.

Lemma seq_run_ok : forall ts R W m, independent R W ts m ->
  exists m', seq_run ts m = Ok m' /\ (forall l, valid m' l <-> valid m l).
Proof.
  induction ts as [|t ts IH]; intros R W m I.
  - exists m. split; [reflexivity|tauto].
  - destruct (ind_head _ _ _ _ _ I) as (Hw & VR & VW).
    destruct (trun_ok _ _ _ Hw m VR VW) as (m1 & E & V & _).
    destruct (IH _ _ m1 (ind_mem _ _ _ _ _ (ind_tail _ _ _ _ _ I) (fun l => proj2 (V l)))) as (m' & E' & V').
    exists m'. cbn [seq_run]. rewrite E. split; auto. intros l. rewrite V', V. tauto.
Qed.

(** A parallel step does not change what the remaining iterations produce when
    run in order. *)
Lemma step_seq : forall ts R W m n, independent R W ts m ->
  (forall a i k v, nth_error ts n = Some (Rd a i k) -> mread m a i = Ok v ->
     seq_run (upd ts n (k v)) m = seq_run ts m) /\
  (forall a i v t m1, nth_error ts n = Some (Wr a i v t) -> mwrite m a i v = Ok m1 ->
     seq_run (upd ts n t) m1 = seq_run ts m).
Proof.
  induction ts as [|t0 ts IH]; intros R W m n I.
  - destruct n; split; intros; discriminate.
  - destruct (ind_head _ _ _ _ _ I) as (Hw & VR & VW). destruct n as [|n]; cbn [nth_error upd seq_run].
    + split.
      * intros a i k v E Er. inversion E; subst. cbn [trun]. rewrite Er. reflexivity.
      * intros a i v t m1 E Er. inversion E; subst. cbn [trun]. rewrite Er. reflexivity.
    + destruct (trun_ok _ _ _ Hw m VR VW) as (m' & E & V & K & C). rewrite E. cbn [bind].
      pose proof (ind_mem _ _ _ _ _ (ind_tail _ _ _ _ _ I) (fun l => proj2 (V l))) as I'.
      destruct (IH _ _ m' n I') as [IH1 IH2]. split.
      * intros a i k v En Er. apply IH1 with (a := a) (i := i); auto.
        assert (Hl : (S n < List.length (t0 :: ts))%nat) by (apply nth_error_Some; cbn [nth_error]; congruence).
        apply mread_get in Er as [G Vl].
        assert (NW : ~ W 0%nat (a, i)).
        { intros Hc. destruct (ind_apart _ _ _ _ I 0%nat (S n) (a, i)) as [N _]; auto; try (simpl; lia).
          apply N. pose proof (ind_within _ _ _ _ I (S n) _ En) as Hn. now inversion Hn. }
        destruct (mread_ok m' a i) as (v' & E1 & E2). { apply V. auto. }
        rewrite K in E2 by auto. congruence.
      * intros a i v t m1 En Er.
        assert (Hl : (S n < List.length (t0 :: ts))%nat) by (apply nth_error_Some; cbn [nth_error]; congruence).
        apply mwrite_put in Er as [-> Vl].
        pose proof (ind_within _ _ _ _ I (S n) _ En) as Hn. inversion Hn; subst.
        destruct (ind_apart _ _ _ _ I (S n) 0%nat (a, i)) as [N1 N2]; auto; try (simpl; lia).
        rewrite C by auto. cbn [bind]. apply IH2 with (a := a) (i := i) (v := v); auto.
        apply mwrite_ok. apply V. auto.
Qed.

Lemma ind_upd : forall R W ts m n t, independent R W ts m -> within (R n) (W n) t ->
  independent R W (upd ts n t) m.
Proof.
  intros R W ts m n t [H1 H2 H3] Ht. constructor.
  - intros k t' E. destruct (Nat.eq_dec n k) as [->|N].
    + destruct (lt_dec k (List.length ts)) as [Hk|Hk].
      * rewrite nth_error_upd_eq in E by assumption. inversion E; subst. auto.
      * rewrite upd_out in E by lia. auto.
    + rewrite nth_error_upd_neq in E by congruence. auto.
  - intros k l. rewrite upd_length. apply H2.
  - intros k k' l. rewrite upd_length. apply H3.
Qed.

Lemma pstep_ind : forall R W c c', pstep c c' -> independent R W (fst c) (snd c) ->
  independent R W (fst c') (snd c') /\ seq_run (fst c') (snd c') = seq_run (fst c) (snd c).
Proof.
  intros R W c c' H I. destruct H; cbn [fst snd] in *.
  - split.
    + apply ind_upd; auto. pose proof (ind_within _ _ _ _ I _ _ H) as Hn. inversion Hn; subst. auto.
    + eapply (proj1 (step_seq ts R W m n I)); eauto.
  - split.
    + apply ind_upd.
      * eapply ind_mem; eauto. intros l Hl. apply mwrite_put in H0 as [-> _]. now apply valid_put.
      * pose proof (ind_within _ _ _ _ I _ _ H) as Hn. inversion Hn; subst. auto.
    + eapply (proj2 (step_seq ts R W m n I)); eauto.
Qed.

Lemma psteps_ind : forall R W c c', psteps c c' -> independent R W (fst c) (snd c) ->
  independent R W (fst c') (snd c') /\ seq_run (fst c') (snd c') = seq_run (fst c) (snd c).
Proof.
  intros R W c c' H. induction H; intros I; auto.
  destruct (pstep_ind _ _ _ _ H I) as [I1 E1]. destruct (IHpsteps I1) as [I2 E2]. split; auto. congruence.
Qed.

Lemma finished_seq : forall (ts : list thr) (m : mem), finished ts -> seq_run ts m = Ok m.
Proof. intros ts m H. induction H; cbn [seq_run]; auto. subst x. cbn [trun bind]. auto. Qed.

(** ** termination: every execution is finite *)

Definition child (t' t : thr) : Prop :=
  match t with
  | Rd _ _ k => exists v, t' = k v
  | Wr _ _ _ t0 => t' = t0
  | _ => False
  end.
Lemma child_wf : well_founded child.
Proof.
  intros t. induction t as [|a i k IH|a i v t IH|u]; constructor; intros t' H; simpl in H.
  - destruct H.
  - destruct H as [v ->]. auto.
  - subst. auto.
  - destruct H.
Qed.

Definition lchild (ts' ts : list thr) : Prop :=
  exists n t t', nth_error ts n = Some t /\ child t' t /\ ts' = upd ts n t'.
Lemma lchild_wf : well_founded lchild.
Proof.
  intros ts. induction ts as [|t ts IH].
  - constructor. intros ts' (n & t & t' & E & _). destruct n; discriminate.
  - revert ts IH. induction (child_wf t) as [t _ IHt]. intros ts IH. induction IH as [ts H IHts].
    constructor. intros ts' (n & t1 & t' & E & C & ->). destruct n as [|n]; cbn [nth_error upd] in *.
    + inversion E; subst. apply IHt; auto. constructor. auto.
    + apply IHts. exists n, t1, t'. auto.
Qed.

Lemma pstep_wf : well_founded (fun c' c : list thr * mem => pstep c c').
Proof.
  intros [ts m]. revert m. induction (lchild_wf ts) as [ts _ IH]. intros m. constructor. intros [ts' m'] H.
  apply IH. inversion H; subst.
  - exists n, (Rd a i k), (k v). simpl. eauto.
  - exists n, (Wr a i v t), t. simpl. auto.
Qed.

(** ** the result *)

Lemma ind_not_faulty : forall R W ts m, independent R W ts m -> ~ faulty (ts, m).
Proof.
  intros R W ts m I (n & t & E & H). cbn [fst snd] in *.
  assert (Hn : (n < List.length ts)%nat) by (apply nth_error_Some; congruence).
  pose proof (ind_within _ _ _ _ I _ _ E) as Ht. destruct Ht; auto.
  - destruct H as [u H]. destruct (mread_ok m a i) as (v & Ev & _).
    { apply (ind_valid _ _ _ _ I n); auto. } congruence.
  - destruct H as [u H]. rewrite mwrite_ok in H. discriminate. apply (ind_valid _ _ _ _ I n); auto.
Qed.

Lemma ind_not_racing : forall R W ts m, independent R W ts m -> ~ racing ts.
Proof.
  intros R W ts m I (n & k & s & t & a & i & w1 & w2 & N & E1 & E2 & O1 & O2 & B).
  assert (Hn : (n < List.length ts)%nat) by (apply nth_error_Some; congruence).
  assert (Hk : (k < List.length ts)%nat) by (apply nth_error_Some; congruence).
  pose proof (ind_within _ _ _ _ I _ _ E1) as Hs. pose proof (ind_within _ _ _ _ I _ _ E2) as Ht.
  destruct Hs; inversion O1; subst; destruct Ht; inversion O2; subst; try discriminate.
  - destruct (ind_apart _ _ _ _ I k n (a, i)); auto.
  - destruct (ind_apart _ _ _ _ I n k (a, i)); auto.
  - destruct (ind_apart _ _ _ _ I n k (a, i)); auto.
Qed.

Lemma ind_progress : forall R W ts m, independent R W ts m -> finished ts \/ exists c, pstep (ts, m) c.
Proof.
  intros R W ts m I. assert (H : finished ts \/ exists n t, nth_error ts n = Some t /\ t <> Ret).
  { clear. induction ts as [|t ts [IH|(n & t' & E & N)]].
    - left. constructor.
    - destruct t; [left; constructor; auto|..]; right; exists 0%nat; eexists; split; try reflexivity; discriminate.
    - right. exists (S n), t'. auto. }
  destruct H as [H|(n & t & E & N)]; auto. right.
  assert (Hn : (n < List.length ts)%nat) by (apply nth_error_Some; congruence).
  pose proof (ind_within _ _ _ _ I _ _ E) as Ht. destruct Ht; try congruence.
  - destruct (mread_ok m a i) as (v & Ev & _). { apply (ind_valid _ _ _ _ I n); auto. }
    eexists. eapply pstep_rd; eauto.
  - eexists. eapply pstep_wr; eauto. apply mwrite_ok. apply (ind_valid _ _ _ _ I n); auto.
Qed.

Lemma par_seq : forall R W ts m, independent R W ts m ->
  exists m', seq_run ts m = Ok m' /\ par_safe ts m m'.
Proof.
  intros R W ts m I. destruct (seq_run_ok _ _ _ _ I) as (m' & E & _). exists m'. split; auto.
  split. { apply pstep_wf. }
  intros [ts1 m1] H. destruct (psteps_ind R W _ _ H I) as [I1 E1]. cbn [fst snd] in *.
  split; [eapply ind_not_faulty; eauto|]. split; [eapply ind_not_racing; eauto|].
  split; [|eapply ind_progress; eauto].
  intros Hf. rewrite (finished_seq _ _ Hf) in E1. congruence.
Qed.

End ParFacts.
