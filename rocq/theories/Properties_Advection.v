(** * Properties of the advection solver (C39, C50). *)
From Coq Require Import ZArith List String Lia Bool Floats.SpecFloat Reals Lra.
From Verif Require Import Base BaseFacts BoxSpec BoxFacts Range RangeSpec RangeFacts Indexer Interface
  ApiSpec ApiFacts Arith ArithFloat ArithR Chunk FieldSpec FieldFacts ChunkFacts Properties_Chunk VarId Manager MgrSpec MgrFacts Solvers SolverFacts
  BC BCSpec Par Kernel KernelFacts Integrators IntegratorSpec IntegratorFacts SweepSpec SweepFacts FluxFacts Advection AdvectionSpec AdvectionFacts.
Import ListNotations.
Open Scope Z_scope.

(** ** examples used below *)

Definition aid (s : string) : vid := mkVid s (["rho"]%string) volume_average.
Definition av := aid "variable". Definition ap := aid "partial_variable". Definition an := aid "new_variable".
(** Two rows of two cells with a flow up the first and down the second
    dimension; one cell holds 16, the others are empty. *)
Definition amesh : box := [(0, 2); (0, 2)].
Definition agrid {F} {A : Arith F} : grid F := mkGrid (range_of amesh) [f0; f0] [fofz 2; fofz 2] [f1; f1].
Definition adot {F} {A : Arith F} : field F := fun c => match c with [0; 1; 0; 0] => fofz 16 | _ => f0 end.
Definition afields {F} {A : Arith F} (u : field F) : list (vid * field F) := [(av, u)].
Definition avel {F} {A : Arith F} : list F := [fofz 1; fofz (-1)].
Definition amgr {F} {A : Arith F} (u : field F) : mgr F := mgr_of agrid amesh (afields u) (Some (fdec 25 (-2))) (Some f0).
Lemma aready : forall F (A : Arith F) u, adv_ready (@amgr F A u) amesh (afields u) [av; ap; an] av ap an (fdec 25 (-2)) avel 1.
Proof.
  intros F A u.
  assert (Fit : Forall (id_fits amesh) [av; ap; an]) by (repeat (apply Forall_cons; [apply shapeb_ok; vm_compute; reflexivity|]); constructor).
  assert (OK : fields_ok amesh (afields u)).
  { split; [|inversion Fit; subst; now constructor]. cbn. repeat constructor; cbn; intuition discriminate. }
  split; [apply mgr_holds_iff; auto|]. split; [exact OK|]. split.
  { intros a b Ha Hb E. cbn in Ha, Hb. clear - Ha Hb E.
    repeat destruct Ha as [<-|Ha]; try contradiction; repeat destruct Hb as [<-|Hb]; try contradiction; try reflexivity; discriminate. }
  split; [apply incl_refl|]. split; [exact Fit|]. split; [reflexivity|]. split; [reflexivity|]. split; [lia|]. split; [discriminate|].
  split; [reflexivity|]. split; cbn; lia.
Qed.
Definition adata (m : out (mgr spec_float)) (k : vid) : option (list spec_float) :=
  match m with
  | Done m => match map_find (mg_vars m) k with Ok (Some n) => match get_chunk m n (ix_one amesh) with Ok e => Some (if_data (ec_if e)) | _ => None end | _ => None end
  | _ => None
  end.

(** ** C50: what the stages compute *)

(** Stage 0, in any arithmetic: the first output receives the input plus its
    flow over one time step, in every interior cell and for either sign of the
    velocity of each dimension; nothing throws and nothing is undefined when the
    iterations run one after the other. *)
Theorem C50_stage_0 : forall F (A : Arith F) (m : mgr F) M L ks q0 q1 q2 dt velocity fuel u0,
  adv_ready m M L ks q0 q1 q2 dt velocity fuel -> field_get L q0 = Some u0 -> id_name q0 <> id_name q1 ->
  exists m' L', adv_solve fuel velocity [q0] [q1; q2] 0 m = Done m' /\
    adv_stored m m' M L L' [q1; q2] q1 (fun v =>
      flowed M (comp_box q0) (velocity_of velocity) (courant dt (velocity_of velocity) (spacing (mg_grid m))) (seq 0 (List.length M)) u0 u0 v).
Proof.
  intros F A m M L ks q0 q1 q2 dt velocity fuel u0 HR H0 N. destruct (api_stage_0 m M L ks q0 q1 q2 dt velocity fuel u0 HR H0 N)
    as (m' & L' & E & (S1 & S2 & S3 & S4 & S5 & v & S6 & _ & S7) & _).
  exists m', L'. split; [exact E|]. repeat (split; [assumption|]). now exists v.
Qed.
Print Assumptions C50_stage_0.

(** Stage 1: the second output receives the mean of the input and the first
    output plus the flow of the first output over half a time step. *)
Theorem C50_stage_1 : forall F (A : Arith F) (m : mgr F) M L ks q0 q1 q2 dt velocity fuel u0 u1,
  adv_ready m M L ks q0 q1 q2 dt velocity fuel -> field_get L q0 = Some u0 -> field_get L q1 = Some u1 -> id_name q1 <> id_name q2 ->
  exists m' L', adv_solve fuel velocity [q0] [q1; q2] 1 m = Done m' /\
    adv_stored m m' M L L' [q1; q2] q2 (fun v =>
      flowed M (comp_box q0) (velocity_of velocity) (courant (fmul (fdec 5 (-1)) dt) (velocity_of velocity) (spacing (mg_grid m)))
        (seq 0 (List.length M)) u1 (fun c => fmul (fdec 5 (-1)) (fadd (u0 c) (u1 c))) v).
Proof.
  intros F A m M L ks q0 q1 q2 dt velocity fuel u0 u1 HR H0 H1 N. destruct (api_stage_1 m M L ks q0 q1 q2 dt velocity fuel u0 HR H0 N)
    as (m' & L' & E & (S1 & S2 & S3 & S4 & S5 & v & S6 & _ & S7) & _). unfold field_or_zero in S7. rewrite H1 in S7.
  exists m', L'. split; [exact E|]. repeat (split; [assumption|]). now exists v.
Qed.
Print Assumptions C50_stage_1.

(** A quarter of the content of the cell moves up the first and a quarter down
    the second dimension, each with one more unit taken from the cell beyond
    (see C56). *)
Example C50_stage_ex : exists l, adata (adv_solve 1 avel [av] [ap; an] 0 (amgr (@adot _ FloatArith))) ap = Some l /\
  map (fun c => nth (Z.to_nat (offset (grow 2 amesh ++ comp_box av) c)) l (dbl 0)) (cells (amesh ++ comp_box av)) = [dbl 5; dbl 8; dbl 0; dbl 5].
Proof. eexists. split; [vm_compute; reflexivity|]. vm_compute. reflexivity. Qed.
(** Input 0 and first output 8 x: the mean is 4 x, and half a step of 1/4 takes
    1/8 of the slope 8 from every cell. *)
Example C50_stage_1_ex :
  let u1 := fun c => match c with x :: _ => dbl (8 * x) | [] => dbl 0 end in
  let m := mgr_of agrid amesh [(av, fun _ => dbl 0); (ap, u1)] (Some (fdec 25 (-2))) (Some (dbl 0)) in
  exists l, adata (adv_solve 1 avel [av] [ap; an] 1 m) an = Some l /\
  map (fun c => nth (Z.to_nat (offset (grow 2 amesh ++ comp_box av) c)) l (dbl 0)) (cells (amesh ++ comp_box av)) = [dbl (-1); dbl (-1); dbl 3; dbl 3].
Proof. cbv zeta. eexists. split; [vm_compute; reflexivity|]. vm_compute. reflexivity. Qed.

(** In exact arithmetic the sum over all elements of the chunk, ghost cells
    included, is kept by stage 0; stage 1 gives the mean of the two sums. *)
Theorem C50_total : forall (m : mgr R) M L ks q0 q1 q2 dt velocity fuel u0,
  adv_ready m M L ks q0 q1 q2 dt velocity fuel -> field_get L q0 = Some u0 ->
  (id_name q0 <> id_name q1 -> exists m' L' v, adv_solve fuel velocity [q0] [q1; q2] 0 m = Done m' /\ mgr_holds m' M L' /\ field_get L' q1 = Some v /\
     total (grow 2 M ++ comp_box q0) v = total (grow 2 M ++ comp_box q0) u0) /\
  (forall u1, field_get L q1 = Some u1 -> id_name q1 <> id_name q2 ->
     exists m' L' v, adv_solve fuel velocity [q0] [q1; q2] 1 m = Done m' /\ mgr_holds m' M L' /\ field_get L' q2 = Some v /\
     total (grow 2 M ++ comp_box q0) v = ((total (grow 2 M ++ comp_box q0) u0 + total (grow 2 M ++ comp_box q0) u1) / 2)%R).
Proof.
  intros m M L ks q0 q1 q2 dt velocity fuel u0 HR H0. split.
  - intros N. destruct (api_stage_0 m M L ks q0 q1 q2 dt velocity fuel u0 HR H0 N) as (m' & L' & E & (S1 & _ & _ & _ & _ & v & S6 & S7 & _) & _).
    exists m', L', v. split; [exact E|]. split; [exact S1|]. split; [exact S6|]. now apply (adv_ran_total M q0 u0).
  - intros u1 H1 N. destruct (api_stage_1 m M L ks q0 q1 q2 dt velocity fuel u0 HR H0 N) as (m' & L' & E & (S1 & _ & _ & _ & _ & v & S6 & S7 & _) & _).
    unfold field_or_zero in S7. rewrite H1 in S7.
    exists m', L', v. split; [exact E|]. split; [exact S1|]. split; [exact S6|]. rewrite (adv_ran_total _ _ _ _ _ S7).
    rewrite (total_ext _ (mean u0 u1) (fun c => (0 + / 2 * u0 c) + / 2 * u1 c)%R).
    2:{ intros c _. unfold mean. cbn [fmul fadd fdec RArith]. unfold Rdecimal. cbn. field. }
    rewrite (total_lin _ (fun c => (0 + / 2 * u0 c)%R) u1), (total_lin _ (fun _ => 0%R) u0).
    assert (Z0 : total (grow 2 M ++ comp_box q0) (fun _ => 0%R) = 0%R) by (unfold total; now apply sum_zero). rewrite Z0. field.
Qed.
Print Assumptions C50_total.
Example C50_total_ex : exists m' L' v, adv_solve 1 avel [av] [ap; an] 0 (amgr (@adot R RArith)) = Done m' /\
  mgr_holds m' amesh L' /\ field_get L' ap = Some v /\ total (grow 2 amesh ++ comp_box av) v = 16%R.
Proof.
  destruct (proj1 (C50_total (amgr adot) amesh (afields adot) _ av ap an _ avel 1 adot (aready _ _ _) eq_refl) ltac:(discriminate))
    as (m' & L' & v & E & S1 & S2 & S3).
  exists m', L', v. split; [exact E|]. split; [exact S1|]. split; [exact S2|]. rewrite S3.
  unfold total. let l := eval vm_compute in (cells (grow 2 amesh ++ comp_box av)) in change (cells (grow 2 amesh ++ comp_box av)) with l.
  cbn [map adot fold_right]. unfold f0. cbn [fofz RArith]. lra.
Qed.

(** In exact arithmetic constant data stays constant in every interior cell. *)
Theorem C50_constant : forall (m : mgr R) M L ks q0 q1 q2 dt velocity fuel u0 x,
  adv_ready m M L ks q0 q1 q2 dt velocity fuel -> field_get L q0 = Some u0 -> id_name q0 <> id_name q1 ->
  (forall c, in_box (grow 2 M ++ comp_box q0) c -> u0 c = x) ->
  exists m' L' v, adv_solve fuel velocity [q0] [q1; q2] 0 m = Done m' /\ mgr_holds m' M L' /\ field_get L' q1 = Some v /\
    forall c, in_box (M ++ comp_box q0) c -> v c = x.
Proof.
  intros m M L ks q0 q1 q2 dt velocity fuel u0 x HR H0 N HU.
  destruct (api_stage_0 m M L ks q0 q1 q2 dt velocity fuel u0 HR H0 N) as (m' & L' & E & (S1 & _ & _ & _ & _ & v & S6 & _ & S7) & _).
  exists m', L', v. split; [exact E|]. split; [exact S1|]. split; [exact S6|]. intros c Hc.
  assert (Sh : shape M (comp_box q0) 2) by (destruct HR as (_ & _ & _ & _ & Hf & _); now inversion Hf).
  assert (Fd : Forall (fun d => (d < List.length M)%nat) (seq 0 (List.length M))) by (apply Forall_forall; intros d Hd; apply in_seq in Hd; lia).
  rewrite (const_flow _ _ _ _ _ _ _ _ _ Sh Fd HU S7 c Hc). apply HU. now apply in_interior_whole.
Qed.
Print Assumptions C50_constant.
Example C50_constant_ex : exists m' L' v, adv_solve 1 avel [av] [ap; an] 0 (amgr (fun _ => 7%R)) = Done m' /\
  mgr_holds m' amesh L' /\ field_get L' ap = Some v /\ v [1; 0; 0; 0] = 7%R.
Proof.
  destruct (C50_constant (amgr (fun _ => 7%R)) amesh (afields (fun _ => 7%R)) _ av ap an _ avel 1 (fun _ => 7%R) 7%R (aready _ _ _) eq_refl ltac:(discriminate) ltac:(auto))
    as (m' & L' & v & E & S1 & S2 & S3).
  exists m', L', v. split; [exact E|]. split; [exact S1|]. split; [exact S2|]. apply S3. repeat (constructor; [cbn; lia|]). constructor.
Qed.

(** In doubles it does not: what flows in is rounded before it flows out. *)
Theorem C50_constant_rounding_refuted : exists x l,
  adata (adv_solve 1 avel [av] [ap; an] 0 (@amgr _ FloatArith (fun _ => x))) ap = Some l /\
  exists c, in_box (amesh ++ comp_box av) c /\ nth (Z.to_nat (offset (grow 2 amesh ++ comp_box av) c)) l (dbl 0) <> x.
Proof.
  exists (@fdec _ FloatArith 81 (-2)). eexists. split; [vm_compute; reflexivity|]. exists [0; 0; 0; 0].
  split; [repeat (constructor; [cbn; lia|]); constructor|]. vm_compute. discriminate.
Qed.
Print Assumptions C50_constant_rounding_refuted.

(** Balance over any control volume of interior cells: the content changes by
    what flows through its walls, and with periodic ghost cells the content of
    the interior does not change. *)
Theorem C50_balance : forall M P n vel cf ds (u r v : field R) B j,
  flowed M (P ++ [(0, n)]) vel cf ds u r v -> Forall (fun d => (d < List.length M)%nat) ds -> 0 <= j < n ->
  box_incl B (M ++ P) -> nonempty B -> balanced B (adv_wall vel cf u) (fun _ => 1%R) ds r v j.
Proof.
  intros M P n vel cf ds u r v B j HF Hd Hj HB HN. apply (box_balanced M P n); auto.
  - now apply flowed_fluxes.
  - apply Forall2_length in HB. rewrite app_length in HB. eapply Forall_impl; [|exact Hd]. cbn. intros. lia.
Qed.
Print Assumptions C50_balance.
Example C50_balance_ex : exists v, flowed amesh (comp_box av) (velocity_of avel) (fun _ => (1 / 4)%R) [0; 1]%nat adot adot v /\
  balanced [(0, 1); (1, 2); (0, 1)] (adv_wall (velocity_of avel) (fun _ => (1 / 4)%R) adot) (fun _ => 1%R) [0; 1]%nat adot v 0.
Proof.
  exists (fold_left (flow (velocity_of avel) (fun _ => (1 / 4)%R) adot) [0; 1]%nat adot). split; [intros c _; reflexivity|].
  apply (C50_balance amesh [(0, 1)] 1); try lia.
  - intros c _. reflexivity.
  - repeat (constructor; [cbn; lia|]). constructor.
  - repeat (constructor; [cbn; lia|]). constructor.
  - repeat (constructor; [cbn; lia|]). constructor.
Qed.
Theorem C50_periodic : forall M P n vel cf ds (u r v : field R) j,
  flowed M (P ++ [(0, n)]) vel cf ds u r v -> Forall (fun d => (d < List.length M)%nat) ds -> 0 <= j < n ->
  nonempty (M ++ P) -> periodic_field M P n ds u ->
  total (M ++ P) (fun x => v (x ++ [j])) = total (M ++ P) (fun x => r (x ++ [j])).
Proof. intros. eapply periodic_flow; eauto. Qed.
Print Assumptions C50_periodic.
(** Alternating cells 0 and 1 on a mesh of four cells. *)
Example C50_periodic_ex : let u := fun c => match c with x :: _ => IZR (x mod 2) | [] => 0%R end in
  exists v, flowed [(0, 4)] (comp_box av) (fun _ => 1%R) (fun _ => (1 / 4)%R) [0%nat] u u v /\
    (v [0%Z; 0%Z; 0%Z] + v [1%Z; 0%Z; 0%Z] + v [2%Z; 0%Z; 0%Z] + v [3%Z; 0%Z; 0%Z] = 2)%R.
Proof.
  intros u. exists (fold_left (flow (fun _ => 1%R) (fun _ => (1 / 4)%R) u) [0%nat] u). split; [intros c _; reflexivity|].
  set (v := fold_left _ _ _).
  assert (E := C50_periodic [(0, 4)] [(0, 1)] 1 (fun _ => 1%R) (fun _ => (1 / 4)%R) [0%nat] u u v 0 ltac:(intros c _; reflexivity)
    ltac:(repeat constructor) ltac:(lia) ltac:(repeat constructor)).
  assert (P : periodic_field [(0, 4)] [(0, 1)] 1 [0%nat] u).
  { intros d x j t [<-|[]] Hx H0 Hj Ht. inversion Hx as [|? a ? y J1 J2]; subst. cbn in H0. unfold lo in H0. cbn in H0. subst a.
    cbn -[Z.modulo Z.add]. unfold hi, lo. cbn [nth fst snd]. f_equal. replace (t + (4 - 0)) with (t + 2 * 2) by lia. rewrite !Z.add_0_l. now rewrite Z.mod_add by lia. }
  specialize (E P). unfold total in E. change (cells ([(0, 4)] ++ [(0, 1)])) with [[0; 0]; [1; 0]; [2; 0]; [3; 0]] in E.
  cbn [map fold_right app] in E.
  assert (U : (u [0%Z; 0%Z; 0%Z] = 0 /\ u [1%Z; 0%Z; 0%Z] = 1 /\ u [2%Z; 0%Z; 0%Z] = 0 /\ u [3%Z; 0%Z; 0%Z] = 1)%R) by (repeat split; reflexivity).
  destruct U as (U0 & U1 & U2 & U3). rewrite U0, U1, U2, U3 in E. lra.
Qed.

(** Every access of the loop of every dimension is inside the two arrays, for
    every chunk, either sign of the velocity and every interleaving of the
    iterations. *)
Theorem C50_in_bounds : forall F (A : Arith F) gr M D (u w : field F) d velocity v dt dx, shape M D 2 -> (d < List.length M)%nat ->
  nth_error velocity d = Some v -> nth_error (gr_dxs gr) d = Some dx ->
  exists l, adv_sweep dt velocity gr (echunk_of M D 2 u) (Z.of_nat d) = Ok l /\
    forall c, psteps (l, [map u (cells (grow 2 M ++ D)); map w (cells (grow 2 M ++ D))]) c -> ~ faulty c.
Proof.
  intros F A gr M D u w d velocity v dt dx Sh Hd Hv Hx. apply (adv_never_faulty gr M D u w d velocity v dt dx Sh Hd); apply vget_ok; try lia; now rewrite Nat2Z.id.
Qed.
Print Assumptions C50_in_bounds.
Example C50_in_bounds_ex : exists l, adv_sweep (dbl 1) avel (@agrid _ FloatArith) (echunk_of amesh (comp_box av) 2 adot) 1 = Ok l /\
  List.length l = 34%nat /\ forall c, psteps (l, [map adot (cells (grow 2 amesh ++ comp_box av)); map adot (cells (grow 2 amesh ++ comp_box av))]) c -> ~ faulty c.
Proof.
  destruct (C50_in_bounds _ FloatArith agrid amesh (comp_box av) adot adot 1 avel (dbl (-1)) (dbl 1) (dbl 1)) as (l & E & H); try reflexivity.
  - apply shapeb_ok. vm_compute. reflexivity.
  - cbn. lia.
  - exists l. split; [exact E|]. split; [|exact H].
    assert (E' : match adv_sweep (dbl 1) avel (@agrid _ FloatArith) (echunk_of amesh (comp_box av) 2 adot) (Z.of_nat 1) with Ok l => List.length l | _ => 0%nat end = 34%nat)
      by (vm_compute; reflexivity).
    rewrite E in E'. exact E'.
Qed.

(** ** C39: schedules *)

(** The loop of every dimension of every chunk has a data race: iterations one
    stride apart both update the element between them. *)
Theorem C39_refuted : forall F (A : Arith F) gr M D (u w : field F) d velocity v dt dx, shape M D 2 -> (d < List.length M)%nat ->
  nth_error velocity d = Some v -> nth_error (gr_dxs gr) d = Some dx ->
  exists l, adv_sweep dt velocity gr (echunk_of M D 2 u) (Z.of_nat d) = Ok l /\
    exists ts m, psteps (l, [map u (cells (grow 2 M ++ D)); map w (cells (grow 2 M ++ D))]) (ts, m) /\ racing ts.
Proof.
  intros F A gr M D u w d velocity v dt dx Sh Hd Hv Hx. apply (adv_always_races gr M D u w d velocity v dt dx Sh Hd); apply vget_ok; try lia; now rewrite Nat2Z.id.
Qed.
Print Assumptions C39_refuted.

(** A schedule of the two iterations of a chunk with one interior cell after
    which that cell has lost what flowed into it: it holds 0 instead of 1. *)
Definition one_mesh : box := [(0, 1)].
Theorem C39_lost_update_refuted :
  let gr := mkGrid (range_of one_mesh) [dbl 0] [dbl 1] [dbl 1] in
  let ones := [dbl 1; dbl 1; dbl 1; dbl 1; dbl 1] in
  exists l, adv_sweep (dbl 1) [dbl 1] gr (echunk_of one_mesh (comp_box av) 2 (fun _ => dbl 1)) 0 = Ok l /\
    seq_run l [ones; ones] = Ok [ones; [dbl 1; dbl 0; dbl 1; dbl 2; dbl 1]] /\
    psteps (l, [ones; ones]) ([Ret; Ret], [ones; [dbl 1; dbl 0; dbl 0; dbl 2; dbl 1]]).
Proof.
  cbv zeta. exists [adv_iter 1 (dbl 1) 2; adv_iter 1 (dbl 1) 3]. split; [reflexivity|]. split; [vm_compute; reflexivity|].
  unfold adv_iter.
  do 4 (eapply psteps_step; [eapply (pstep_rd _ _ 1%nat); reflexivity|]; cbn [upd]).
  do 4 (eapply psteps_step; [eapply (pstep_rd _ _ 0%nat); reflexivity|]; cbn [upd]).
  eapply psteps_step; [eapply (pstep_wr _ _ 0%nat); reflexivity|]; cbn [upd].
  eapply psteps_step; [eapply (pstep_rd _ _ 0%nat); reflexivity|]; cbn [upd].
  eapply psteps_step; [eapply (pstep_wr _ _ 0%nat); reflexivity|]; cbn [upd].
  eapply psteps_step; [eapply (pstep_wr _ _ 1%nat); reflexivity|]; cbn [upd].
  eapply psteps_step; [eapply (pstep_rd _ _ 1%nat); reflexivity|]; cbn [upd].
  eapply psteps_step; [eapply (pstep_wr _ _ 1%nat); reflexivity|]; cbn [upd].
  vm_compute. apply psteps_refl.
Qed.
Print Assumptions C39_lost_update_refuted.

(** ** C56: no new extremes *)

(** With Courant number 1/4 a stage turns the densities 0, 16, 0, 0 into
    0, 12, 5, -1: next to equal values the flux is not limited. *)
Definition four_mesh : box := [(0, 4)].
Theorem C56_positivity_refuted :
  let u := fun c => match c with [1; 0; 0] => dbl 16 | _ => dbl 0 end in
  let m := mgr_of (mkGrid (range_of four_mesh) [dbl 0] [dbl 4] [dbl 1]) four_mesh [(av, u)] (Some (fdec 25 (-2))) (Some (dbl 0)) in
  exists m' n e, adv_solve 1 [dbl 1] [av] [ap; an] 0 m = Done m' /\ map_find (mg_vars m') ap = Ok (Some n) /\
    get_chunk m' n (ix_one four_mesh) = Ok e /\
    if_data (ec_if e) = [dbl 0; dbl 0; dbl 0; dbl 12; dbl 5; dbl (-1); dbl 0; dbl 0].
Proof. cbv zeta. eexists _, _, _. split; [vm_compute; reflexivity|]. split; [vm_compute; reflexivity|]. split; [vm_compute; reflexivity|]. vm_compute. reflexivity. Qed.
Print Assumptions C56_positivity_refuted.

(** ** calls the solver does not answer *)

(** Wrong numbers of variables are rejected with an exception; a stage other
    than 0 and 1 is silently ignored. *)
Theorem C50_counts : forall F (A : Arith F) fuel velocity ins outs tag (m : mgr F),
  (List.length ins <> 1%nat -> adv_solve fuel velocity ins outs tag m = Threw "qk::solver::ssprk2_advection::solve : Input must contain one variable." m) /\
  (List.length ins = 1%nat -> List.length outs <> 2%nat ->
     adv_solve fuel velocity ins outs tag m = Threw "qk::solver::ssprk2_advection::solve : Output must contain two variables." m).
Proof.
  intros F A fuel velocity ins outs tag m. split.
  - intros H. destruct ins as [|a [|b ins]]; cbn in *; try reflexivity; congruence.
  - intros H1 H2. destruct ins as [|a [|b ins]]; try discriminate. destruct outs as [|c [|d [|e outs]]]; cbn in *; try reflexivity; congruence.
Qed.
Print Assumptions C50_counts.
Theorem C50_other_stage : forall F (A : Arith F) (m : mgr F) M L ks q0 q1 q2 dt velocity fuel u0 tag,
  adv_ready m M L ks q0 q1 q2 dt velocity fuel -> field_get L q0 = Some u0 -> tag <> 0 -> tag <> 1 ->
  exists m' L', adv_solve fuel velocity [q0] [q1; q2] tag m = Done m' /\ mgr_holds m' M L' /\
    forall k, field_or_zero L' k = field_or_zero L k.
Proof.
  intros F A m M L ks q0 q1 q2 dt velocity fuel u0 tag HR H0 T0 T1.
  destruct (api_other_stage m M L ks q0 q1 q2 dt velocity fuel u0 tag HR H0 T0 T1) as (m' & E & S).
  eexists _, _. split; [exact E|]. split; [exact S|]. intros k. now rewrite !foz_ensure.
Qed.
Print Assumptions C50_other_stage.
Example C50_other_stage_ex : exists m' L', adv_solve 1 avel [av] [ap; an] 2 (amgr (@adot R RArith)) = Done m' /\ mgr_holds m' amesh L' /\
  forall k, field_or_zero L' k = field_or_zero (afields adot) k.
Proof. apply (C50_other_stage R RArith _ _ _ _ _ _ _ _ _ _ adot 2 (aready _ _ _) eq_refl); discriminate. Qed.
