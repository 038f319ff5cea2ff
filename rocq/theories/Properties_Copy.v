(** * Properties_Copy: C65, assignment of indexers. *)
From Coq Require Import ZArith List String Lia Bool.
From Verif Require Import Base BaseFacts BoxSpec BoxFacts Range RangeSpec RangeFacts
  Indexer IndexerFacts ApiSpec ApiFacts IndexerCopy IndexerCopyFacts.
Import ListNotations.
Open Scope Z_scope.

(** An indexer of any range and sub range, after any calls of next, increment
    and decrement, is copied to exactly the same indexer: the same range, sub
    range, position, linear index and existence. *)
Theorem C65_assign : forall sup sub b bs ix os ix',
  observes sup b -> observes sub bs -> strides_fit b -> strides_fit bs ->
  indexer_make sub sup = Ok ix -> ix_steps ix os = Ok ix' ->
  indexer_assign ix' = Ok ix'.
Proof.
  intros sup sub b bs ix os ix' Hb Hs Fb Fs E St.
  destruct (made_frame _ _ _ _ _ Hb Hs Fb Fs E) as (A & B & C).
  destruct (steps_frame _ _ _ St) as (A' & B' & C').
  pose proof (proj1 Hb) as Nb.
  unfold indexer_assign. rewrite A', B', A, B, (api_assign _ _ Hb Fb), (api_assign _ _ Hs Fs).
  cbn [bind]. unfold vresize. replace (r_nd sup <? 0) with false by (symmetry; apply Z.ltb_ge; lia).
  cbn [bind]. unfold read_n.
  replace (Z.of_nat (List.length (ix_idx ix')) <? r_nd sup) with false by (symmetry; apply Z.ltb_ge; lia).
  cbn [bind]. rewrite firstn_all2 by lia.
  destruct ix'; cbn in *. congruence.
Qed.
Print Assumptions C65_assign.

Example C65_assign_ex : exists ix ix' cp,
  indexer_make (range_of [(1, 3); (2, 4)]) (range_of [(0, 4); (0, 5)]) = Ok ix /\
  ix_steps ix [IxNext; IxNext] = Ok ix' /\ indexer_assign ix' = Ok cp /\
  ix_idx cp = [2; 2] /\ ix_lin cp = 12 /\ ix_idx ix = [1; 2] /\
  trace 4 cp = Done [([2; 2], 12); ([2; 3], 13)].
Proof. repeat eexists; vm_compute; reflexivity. Qed.

(** Hence the copy walks through the same remaining cells. *)
Theorem C65_same_traversal : forall sup sub b bs ix os ix' fuel,
  observes sup b -> observes sub bs -> strides_fit b -> strides_fit bs ->
  indexer_make sub sup = Ok ix -> ix_steps ix os = Ok ix' ->
  exists cp, indexer_assign ix' = Ok cp /\ trace fuel cp = trace fuel ix'.
Proof.
  intros sup sub b bs ix os ix' fuel Hb Hs Fb Fs E St. exists ix'.
  split; [exact (C65_assign _ _ _ _ _ _ _ Hb Hs Fb Fs E St)|reflexivity].
Qed.
Print Assumptions C65_same_traversal.

(** Refuted: assigning an indexer to itself reads through pointers into vectors
    that have just been cleared, for every range with a dimension. *)
Theorem C65_self_assignment_refuted : forall sup sub b bs ix os ix',
  observes sup b -> observes sub bs -> strides_fit b -> strides_fit bs -> b <> [] ->
  indexer_make sub sup = Ok ix -> ix_steps ix os = Ok ix' ->
  indexer_self_assign ix' = UB InvalidPointer.
Proof.
  intros sup sub b bs ix os ix' Hb Hs Fb Fs Hn E St.
  destruct (made_frame _ _ _ _ _ Hb Hs Fb Fs E) as (A & _).
  destruct (steps_frame _ _ _ St) as (A' & _).
  unfold indexer_self_assign. rewrite A', A, (api_self_assign _ _ Hb Hn). reflexivity.
Qed.
Print Assumptions C65_self_assignment_refuted.

Example C65_self_assignment_refuted_ex : exists ix,
  indexer_make (range_of [(1, 3); (2, 4)]) (range_of [(0, 4); (0, 5)]) = Ok ix /\
  indexer_self_assign ix = UB InvalidPointer.
Proof. eexists. split; vm_compute; reflexivity. Qed.
