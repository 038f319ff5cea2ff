(** * Properties C68: what advect_gaussian computes on one thread. *)
From Coq Require Import ZArith List String Bool.
From Verif Require Import Base Arith ArithFloat Properties_Chunk VarId Manager Solvers Programs Properties_Programs Properties_Advection Parallel OneThread.
Import ListNotations.
Open Scope Z_scope.

(** The state that advect_gaussian reaches when each loop runs its iterations in
    order is one of those that it can reach on several threads: what
    C68_advect_refuted adds are further outcomes. *)
Theorem C68_advect_one_thread : forall F (A : Arith F) (m m' : mgr F) q0 q1 q2 dt velocity fuel dims n,
  run (advect_step fuel velocity dims q0 q1 q2) dt n m = Done m' ->
  run_can (advect_can fuel velocity dims q0 q1 q2) dt n m (Done m').
Proof. intros F A m m' q0 q1 q2 dt velocity fuel dims n H. revert m' H. apply reaches_run. intros m'. apply reaches_advect. Qed.
Print Assumptions C68_advect_one_thread.

Lemma done_of : forall o l, interior_data o = Some l -> exists m', o = Done m'.
Proof. intros [m'| | |] l H; try discriminate. now exists m'. Qed.
(** The fixture of C60, in doubles: the dot of 16 has moved, and the sum is kept. *)
Example C68_advect_one_thread_ex : exists o, run_can (advect_can 40 avel [0; 1] av ap an) (fdec 25 (-2)) 1 (amgr (@adot _ FloatArith)) o /\
  interior_data o = Some [dbl 2; dbl 11; dbl 1; dbl 2].
Proof.
  destruct (done_of _ _ C60_as_intended_ex) as (m' & E). exists (Done m'). split; [exact (C68_advect_one_thread _ _ _ _ _ _ _ _ _ _ _ _ E)|].
  exact (eq_trans (f_equal interior_data (eq_sym E)) C60_as_intended_ex).
Qed.
