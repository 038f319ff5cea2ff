(** * IndexerCopyFacts: proofs about IndexerCopy. *)
From Coq Require Import ZArith List String Lia Bool.
From Verif Require Import Base BaseFacts BoxSpec BoxFacts Range RangeSpec RangeFacts
  Indexer IndexerFacts ApiSpec ApiFacts IndexerCopy.
Import ListNotations.
Open Scope Z_scope.

Lemma vset_same_length : forall (l : list Z) i x l', vset l i x = Ok l' -> List.length l' = List.length l.
Proof.
  unfold vset. intros l i x l'. destruct (_ && _); [|discriminate]. intros [= <-].
  generalize (Z.to_nat i). induction l; intros [|n]; cbn; auto.
Qed.

(** What no step changes. *)
Definition same_frame (a b : indexer) : Prop :=
  ix_sup a = ix_sup b /\ ix_sub a = ix_sub b /\ List.length (ix_idx a) = List.length (ix_idx b).

Lemma inc_frame : forall ix d ix', indexer_increment ix d = Ok ix' -> same_frame ix' ix.
Proof.
  unfold indexer_increment. intros ix d ix' E.
  repeat (apply bind_inv in E as (? & ? & E)). injection E as <-. repeat split. cbn.
  eapply vset_same_length; eassumption.
Qed.

Lemma dec_frame : forall ix d ix', indexer_decrement ix d = Ok ix' -> same_frame ix' ix.
Proof.
  unfold indexer_decrement. intros ix d ix' E.
  repeat (apply bind_inv in E as (? & ? & E)). injection E as <-. repeat split. cbn.
  eapply vset_same_length; eassumption.
Qed.

Lemma inc_dim_frame : forall d ix ix', inc_dim d ix = Ok ix' -> same_frame ix' ix.
Proof.
  induction d as [|d IH]; intros ix ix' E.
  - injection E as <-. repeat split.
  - cbn [inc_dim] in E.
    apply bind_inv in E as (x & _ & E). apply bind_inv in E as (u & _ & E).
    apply bind_inv in E as (last & _ & E). destruct (x =? last).
    + apply bind_inv in E as (l & _ & E). apply bind_inv in E as (idx & Ei & E).
      repeat (apply bind_inv in E as (? & _ & E)).
      apply IH in E as (A & B & C). repeat split; try assumption. cbn in C. rewrite C.
      eapply vset_same_length; eassumption.
    + eapply inc_frame; eassumption.
Qed.

Lemma steps_frame : forall os ix ix', ix_steps ix os = Ok ix' -> same_frame ix' ix.
Proof.
  induction os as [|o os IH]; intros ix ix' E.
  - injection E as <-. repeat split.
  - cbn [ix_steps] in E. apply bind_inv in E as (ix1 & E1 & E). apply IH in E as (A & B & C).
    assert (S1 : same_frame ix1 ix).
    { destruct o; cbn [ix_step] in E1;
        [eapply inc_dim_frame|eapply inc_frame|eapply dec_frame]; eassumption. }
    destruct S1 as (A' & B' & C'). repeat split; congruence.
Qed.

Lemma made_frame : forall sup sub b bs ix,
  observes sup b -> observes sub bs -> strides_fit b -> strides_fit bs ->
  indexer_make sub sup = Ok ix ->
  ix_sup ix = sup /\ ix_sub ix = sub /\ List.length (ix_idx ix) = List.length b.
Proof.
  intros sup sub b bs ix Hb Hs Fb Fs E. unfold indexer_make in E.
  rewrite (api_assign _ _ Hb Fb), (api_assign _ _ Hs Fs) in E. cbn [bind] in E.
  pose proof (proj1 Hb) as Nb. pose proof (proj1 Hs) as Ns.
  destruct (r_nd sup <? 0); [discriminate|].
  destruct ((0 <? r_nd sup) && range_includes sup sub) eqn:I.
  - apply bind_inv in E as (lin & _ & E). injection E as <-. cbn. repeat split.
    apply andb_prop in I as [_ I]. apply andb_prop in I as [I _]. apply Z.eqb_eq in I.
    apply observes_iff in Hs. subst sub. cbn. rewrite map_length. lia.
  - injection E as <-. cbn. repeat split. rewrite repeat_length. lia.
Qed.
