(** * Properties of the time integrators (C35 - C38, C55). *)
From Coq Require Import ZArith List String Lia Bool Floats.SpecFloat Reals Lra.
From Verif Require Import Base BaseFacts BoxSpec BoxFacts Range RangeSpec RangeFacts Indexer Interface
  ApiSpec ApiFacts Arith ArithFloat ArithR Chunk FieldSpec FieldFacts ChunkFacts Properties_Chunk VarId Manager MgrSpec MgrFacts Solvers SolverFacts
  Par ParFacts Kernel KernelFacts Integrators IntegratorSpec IntegratorFacts.
Import ListNotations.
Open Scope Z_scope.

(** ** examples used below *)

Definition tid (s : string) : vid := mkVid s (["a"; "b"]%string) volume_average.
Definition tq := tid "q". Definition tr := tid "rhs".
Definition t1 := tid "q1". Definition t2 := tid "q2". Definition t3 := tid "q3".
Definition tmesh : box := [(0, 2)].
Definition tgrid {F} {A : Arith F} : grid F := mkGrid (range_of tmesh) [f0] [f1] [f1].
Definition tmgr : mgr spec_float := mkMgr tgrid [] (Some (dbl 2)) (Some (dbl 0)).
Definition tdata (k : vid) (m : mgr spec_float) : option (list spec_float) :=
  match map_find (mg_vars m) k with
  | Ok (Some n) => match get_chunk m n (ix_one tmesh) with Ok e => Some (if_data (ec_if e)) | _ => None end
  | _ => None
  end.
(** q = 3 and rhs = 5 everywhere. *)
Definition tstart : out (mgr spec_float) := obind (fill_solve 9 (dbl 3) [tq] tmgr) (fill_solve 9 (dbl 5) [tr]).

Lemma tid_fits : forall s, id_fits tmesh (tid s).
Proof. intros. apply shapeb_ok; vm_compute; reflexivity. Qed.
Lemma tids_compatible : compatible [tq; tr; t1; t2; t3].
Proof.
  intros a b [<-|[<-|[<-|[<-|[<-|[]]]]]] [<-|[<-|[<-|[<-|[<-|[]]]]]]; vm_compute; intros H; congruence.
Qed.

(** ** C37 *)

(** Wrong numbers of variables: an exception, and nothing has changed. *)
Theorem C37_rk1_inputs : forall F (A : Arith F) fuel ins outs tag (m : mgr F), List.length ins <> 2%nat ->
  rk1_solve fuel ins outs tag m = Threw "qk::solver::ssprk3::solve : Input must contain two variables (q_0, rhs)."%string m.
Proof. intros F A fuel [|a [|b [|c l]]] outs tag m H; try reflexivity. now cbn in H. Qed.
Print Assumptions C37_rk1_inputs.
Theorem C37_rk1_outputs : forall F (A : Arith F) fuel ins tag (m : mgr F),
  rk1_solve fuel ins [] tag m = Threw (if (List.length ins =? 2)%nat then "qk::solver::ssprk3::solve : Output must contain three variables (q_1)."%string
                                       else "qk::solver::ssprk3::solve : Input must contain two variables (q_0, rhs)."%string) m.
Proof. intros F A fuel [|a [|b [|c l]]] tag m; reflexivity. Qed.
Print Assumptions C37_rk1_outputs.
Theorem C37_ssprk3_inputs : forall F (A : Arith F) al fuel ins outs tag (m : mgr F), List.length ins <> 2%nat ->
  ssprk3_solve al fuel ins outs tag m = Threw "qk::solver::ssprk3::solve : Input must contain two variables (q_0, rhs)."%string m.
Proof. intros F A al fuel [|a [|b [|c l]]] outs tag m H; try reflexivity. now cbn in H. Qed.
Print Assumptions C37_ssprk3_inputs.
Theorem C37_ssprk3_outputs : forall F (A : Arith F) al fuel ins outs tag (m : mgr F), (List.length outs < 3)%nat ->
  ssprk3_solve al fuel ins outs tag m = Threw (if (List.length ins =? 2)%nat then "qk::solver::ssprk3::solve : Output must contain three variables (q_1, q_2, q_3)."%string
                                               else "qk::solver::ssprk3::solve : Input must contain two variables (q_0, rhs)."%string) m.
Proof.
  intros F A al fuel [|a [|b [|c l]]] outs tag m H; try reflexivity.
  destruct outs as [|x [|y [|z o]]]; try reflexivity. cbn in H. lia.
Qed.
Print Assumptions C37_ssprk3_outputs.

(** rk1 stores q + dt * rhs in every cell of its output and changes nothing
    else. *)
Theorem C37_rk1_step : forall F (A : Arith F) (m : mgr F) M L fuel q0 r q1 more dt u0 ur ks,
  mgr_holds m M L -> fields_ok M L -> compatible (ids L ++ ks) -> incl [q0; r; q1] ks -> id_fits M q1 -> (1 <= fuel)%nat ->
  mg_dt m = Some dt -> field_get L q0 = Some u0 -> field_get L r = Some ur ->
  comp_box q0 = comp_box q1 -> comp_box r = comp_box q1 -> id_name q0 <> id_name q1 -> id_name r <> id_name q1 ->
  exists m' L', rk1_solve fuel [q0; r] (q1 :: more) 0 m = Done m' /\ compatible (ids L' ++ ks) /\
    stored m m' M L L' [q1] q1 (fun c => u0 c + dt * ur c)%F.
Proof. exact @api_rk1. Qed.
Print Assumptions C37_rk1_step.

Example C37_ex :
  match obind tstart (rk1_solve 9 [tq; tr] [t1] 0) with
  | Done m => tdata t1 m = Some (repeat (dbl 13) 12) /\ tdata tq m = Some (repeat (dbl 3) 12) /\ tdata tr m = Some (repeat (dbl 5) 12)
  | _ => False
  end /\ rk1_solve 9 [tq] [t1] 0 tmgr = Threw "qk::solver::ssprk3::solve : Input must contain two variables (q_0, rhs)." tmgr.
Proof. split; vm_compute; auto. Qed.

(** ** C35 *)

(** One stage: the stage output receives the stage formula in every cell, the
    other outputs exist and keep their values, nothing else changes. *)
Theorem C35_stage : forall F (A : Arith F) (m : mgr F) M L fuel q0 r q1 q2 q3 more tag dt u0 ur ks,
  mgr_holds m M L -> fields_ok M L -> compatible (ids L ++ ks) -> incl [q0; r; q1; q2; q3] ks ->
  Forall (id_fits M) [q1; q2; q3] -> (1 <= fuel)%nat -> 0 <= tag <= 2 ->
  mg_dt m = Some dt -> field_get L q0 = Some u0 -> field_get L r = Some ur ->
  let o := if tag =? 0 then q1 else if tag =? 1 then q2 else q3 in
  let reads := if tag =? 0 then [q0; r] else if tag =? 1 then [q0; q1; r] else [q0; q2; r] in
  Forall (fun k => comp_box k = comp_box o /\ id_name k <> id_name o) reads ->
  exists m' L', ssprk3_solve true fuel [q0; r] (q1 :: q2 :: q3 :: more) tag m = Done m' /\ compatible (ids L' ++ ks) /\
    stored m m' M L L' [q1; q2; q3] o (fun c =>
      (if (tag =? 0)%Z then u0 c + dt * ur c
       else if (tag =? 1)%Z then fdec 75 (-2) * u0 c + fdec 25 (-2) * field_or_zero L q1 c + fdec 25 (-2) * dt * ur c
       else (u0 c + fofz 2 * (field_or_zero L q2 c + dt * ur c)) / fofz 3)%F).
Proof. exact @api_ssprk3. Qed.
Print Assumptions C35_stage.

(** A whole step in exact arithmetic, with any solver that evaluates a right-hand
    side [Op] (which looks at the cells [I] only, and may change ghost cells):
    the result is the Shu-Osher scheme on those cells. *)
Theorem C35_step : forall (m : mgr R) M L fuel P q0 r q1 q2 q3 more dt u0 (I : list Z -> Prop) Op ks,
  mgr_holds m M L -> fields_ok M L -> compatible (ids L ++ ks) -> incl [q0; r; q1; q2; q3] ks ->
  Forall (id_fits M) [q1; q2; q3] -> (1 <= fuel)%nat -> mg_dt m = Some dt -> field_get L q0 = Some u0 ->
  NoDup (map id_name [q0; r; q1; q2; q3]) ->
  Forall (fun k => comp_box k = comp_box q3) [q0; r; q1; q2] ->
  (forall c, I c -> in_box (grow 2 M ++ comp_box q3) c) -> local_on I Op ->
  computes_rhs (P 0) M ks q0 r I Op -> computes_rhs (P 1) M ks q1 r I Op -> computes_rhs (P 2) M ks q2 r I Op ->
  exists m' L' v, ssprk3_step true fuel P [q0; r] (q1 :: q2 :: q3 :: more) m = Done m' /\
    mgr_holds m' M L' /\ fields_ok M L' /\ compatible (ids L' ++ ks) /\ same_run m m' /\
    field_get L' q3 = Some v /\ (forall c, I c -> v c = so3 Op dt u0 c) /\
    (exists w, field_get L' q0 = Some w /\ forall c, I c -> w c = u0 c) /\
    (forall k, ~ In (id_name k) (map id_name [q0; r; q1; q2; q3]) -> field_get L' k = field_get L k).
Proof. exact api_step. Qed.
Print Assumptions C35_step.

(** That scheme is the Runge-Kutta method with this tableau, whose order is
    three. *)
Theorem C35_tableau : forall Op dt u, (forall f g, (forall c, f c = g c) -> forall c, Op f c = Op g c) ->
  (forall c, so3 Op dt u c = rk_step 1 (1 / 4) (1 / 4) (1 / 6) (1 / 6) (2 / 3) Op dt u c)%R /\
  order3 1 (1 / 4) (1 / 4) (1 / 6) (1 / 6) (2 / 3).
Proof. intros. split; [now apply so3_rk|exact ssprk3_order3]. Qed.
Print Assumptions C35_tableau.

(** Linear right-hand sides: the exponential series up to the third power. *)
Theorem C35_linear : forall (I : list Z -> Prop) Op dt u, linear_on I Op -> local_on I Op -> forall c, I c ->
  (so3 Op dt u c = u c + dt * Op u c + dt * dt / 2 * Op (Op u) c + dt * dt * dt / 6 * Op (Op (Op u)) c)%R.
Proof. exact so3_linear. Qed.
Print Assumptions C35_linear.
Theorem C35_scalar : forall lambda dt u c,
  let z := (dt * lambda)%R in
  so3 (fun u c => lambda * u c)%R dt u c = ((1 + z + z * z / 2 + z * z * z / 6) * u c)%R.
Proof.
  intros lambda dt u c z. rewrite (so3_linear (fun _ => True)); auto.
  - unfold z. field.
  - intros a b f g x _. ring.
  - intros f g H x _. now rewrite (H x I).
Qed.
Print Assumptions C35_scalar.
(** Zero right-hand side. *)
Theorem C35_zero : forall dt u c, so3 (fun _ _ => 0%R) dt u c = u c.
Proof. intros. unfold so3, so2, so1, euler_step. field. Qed.
Print Assumptions C35_zero.

(** Three stages with the constant right-hand side 5 and dt = 2. *)
Definition zstart : out (mgr spec_float) := obind tstart (fun m => ssprk3_step true 9 (fun _ m => Done m) [tq; tr] [t1; t2; t3] m).
Example C35_ex :
  match zstart with
  | Done m => tdata t1 m = Some (repeat (dbl 13) 12) /\ tdata tq m = Some (repeat (dbl 3) 12) /\
      tdata t2 m = Some (repeat (dbl 8) 12) /\ tdata t3 m = Some (repeat (dbl 13) 12)
  | _ => False
  end.
Proof. vm_compute. auto. Qed.

(** The hypotheses of C35_step are met by the manager above over the reals with a
    solver that fills rhs with 5, the right-hand side of u' = 5. *)
Definition rfields : list (vid * field R) := [(tq, fun _ => 3%R); (tr, fun _ => 0%R)].
Definition rmgr : mgr R := mgr_of tgrid tmesh rfields (Some 2%R) None.
Lemma rfields_ok : fields_ok tmesh rfields.
Proof.
  split.
  - cbn. constructor; [|constructor; [intros []|constructor]]. intros [H|[]]. discriminate.
  - constructor; [apply tid_fits|constructor; [apply tid_fits|constructor]].
Qed.
Lemma fill_rhs : forall q, In q [tq; t1; t2] ->
  computes_rhs (fun m => fill_solve 9 5%R [tr] m) tmesh [tq; tr; t1; t2; t3] q tr (in_box (grow 2 tmesh ++ comp_box tr)) (fun _ _ => 5%R).
Proof.
  intros q Hq m L u Hm HL Hc Hg.
  assert (Nq : id_name q <> id_name tr) by (destruct Hq as [<-|[<-|[<-|[]]]]; discriminate).
  assert (Hc' : compatible (ids L ++ [tr])).
  { eapply compat_perm; [exact Hc|]. intros x Hx. rewrite in_app_iff in *. cbn in *. tauto. }
  destruct (api_fill_solve m tmesh L 9 5%R [tr] Hm HL Hc') as (m' & L' & E & Hm' & HL' & Hs & HI & O & S).
  { constructor; [apply tid_fits|constructor]. } { lia. }
  destruct (S tr) as (v & Gv & Vv); [now left|].
  exists m', L', u, v. split; auto. split; auto. split; auto. split.
  { eapply compat_perm; [exact Hc|]. intros x Hx. rewrite in_app_iff in *. destruct Hx as [Hx|]; auto.
    apply HI in Hx. rewrite in_app_iff in Hx. cbn in *. tauto. }
  split; auto. split. { rewrite O; auto. intros [H|[]]. congruence. }
  split; auto. split; auto. split; auto. intros k N1 N2. apply O. intros [H|[]]. congruence.
Qed.
Example C35_step_ex :
  exists m' L' v, ssprk3_step true 9 (fun _ m => fill_solve 9 5%R [tr] m) [tq; tr] [t1; t2; t3] rmgr = Done m' /\
    mgr_holds m' tmesh L' /\ field_get L' t3 = Some v /\
    forall c, in_box (grow 2 tmesh ++ comp_box t3) c -> v c = 13%R.
Proof.
  destruct (C35_step rmgr tmesh rfields 9 (fun _ m => fill_solve 9 5%R [tr] m) tq tr t1 t2 t3 [] 2%R (fun _ => 3%R)
    (in_box (grow 2 tmesh ++ comp_box tr)) (fun _ _ => 5%R) [tq; tr; t1; t2; t3]) as (m' & L' & v & E & Hm & _ & _ & _ & G & V & _).
  - apply mgr_holds_iff; auto using rfields_ok.
  - apply rfields_ok.
  - eapply compat_perm; [exact tids_compatible|]. cbn. tauto.
  - apply incl_refl.
  - constructor; [apply tid_fits|constructor; [apply tid_fits|constructor; [apply tid_fits|constructor]]].
  - lia.
  - reflexivity.
  - reflexivity.
  - vm_compute. repeat (constructor; [cbn; intuition discriminate|]). constructor.
  - repeat constructor.
  - auto.
  - intros f g _ c _. reflexivity.
  - apply fill_rhs; cbn; auto.
  - apply fill_rhs; cbn; auto.
  - apply fill_rhs; cbn; auto.
  - exists m', L', v. split; auto. split; auto. split; auto. intros c Hc. rewrite V by assumption.
    unfold so3, so2, so1, euler_step. lra.
Qed.
Example C35_scalar_ex : so3 (fun u c => 3 * u c)%R 2%R (fun _ => 1%R) [] = 61%R.
Proof. rewrite (C35_scalar 3 2 (fun _ => 1%R) []). lra. Qed.

(** ** C36 *)

(** Any convex set of fields preserved by every forward Euler step of size dt is
    preserved by one run of the whole step. *)
Theorem C36_convex : forall (m : mgr R) M L fuel P q0 r q1 q2 q3 more dt u0 (I : list Z -> Prop) Op ks (K : field R -> Prop),
  mgr_holds m M L -> fields_ok M L -> compatible (ids L ++ ks) -> incl [q0; r; q1; q2; q3] ks ->
  Forall (id_fits M) [q1; q2; q3] -> (1 <= fuel)%nat -> mg_dt m = Some dt -> field_get L q0 = Some u0 ->
  NoDup (map id_name [q0; r; q1; q2; q3]) ->
  Forall (fun k => comp_box k = comp_box q3) [q0; r; q1; q2] ->
  (forall c, I c -> in_box (grow 2 M ++ comp_box q3) c) -> local_on I Op ->
  computes_rhs (P 0) M ks q0 r I Op -> computes_rhs (P 1) M ks q1 r I Op -> computes_rhs (P 2) M ks q2 r I Op ->
  convex_on I K -> (forall v, K v -> K (fun c => v c + dt * Op v c)%R) -> K u0 ->
  exists m' L' v, ssprk3_step true fuel P [q0; r] (q1 :: q2 :: q3 :: more) m = Done m' /\
    mgr_holds m' M L' /\ field_get L' q3 = Some v /\ K v.
Proof.
  intros m M L fuel P q0 r q1 q2 q3 more dt u0 I Op ks K H1 H2 H3 H4 H5 H6 H7 H8 H9 H10 H11 H12 H13 H14 H15 HK HE HU.
  destruct (api_step m M L fuel P q0 r q1 q2 q3 more dt u0 I Op ks H1 H2 H3 H4 H5 H6 H7 H8 H9 H10 H11 H12 H13 H14 H15)
    as (m' & L' & v & E & Hm & _ & _ & _ & G & V & _).
  exists m', L', v. split; auto. split; auto. split; auto.
  apply (proj1 HK (so3 Op dt u0) v); [intros c Hc; symmetry; auto|]. now apply (so3_convex I).
Qed.
Print Assumptions C36_convex.

(** In particular bounds: if Euler steps keep all values within [a, b], the
    step does. *)
Theorem C36_bounds : forall (m : mgr R) M L fuel P q0 r q1 q2 q3 more dt u0 (I : list Z -> Prop) Op ks (a b : R),
  mgr_holds m M L -> fields_ok M L -> compatible (ids L ++ ks) -> incl [q0; r; q1; q2; q3] ks ->
  Forall (id_fits M) [q1; q2; q3] -> (1 <= fuel)%nat -> mg_dt m = Some dt -> field_get L q0 = Some u0 ->
  NoDup (map id_name [q0; r; q1; q2; q3]) ->
  Forall (fun k => comp_box k = comp_box q3) [q0; r; q1; q2] ->
  (forall c, I c -> in_box (grow 2 M ++ comp_box q3) c) -> local_on I Op ->
  computes_rhs (P 0) M ks q0 r I Op -> computes_rhs (P 1) M ks q1 r I Op -> computes_rhs (P 2) M ks q2 r I Op ->
  (forall v, (forall c, I c -> a <= v c <= b)%R -> forall c, I c -> (a <= v c + dt * Op v c <= b)%R) ->
  (forall c, I c -> (a <= u0 c <= b)%R) ->
  exists m' L' v, ssprk3_step true fuel P [q0; r] (q1 :: q2 :: q3 :: more) m = Done m' /\
    mgr_holds m' M L' /\ field_get L' q3 = Some v /\ forall c, I c -> (a <= v c <= b)%R.
Proof.
  intros m M L fuel P q0 r q1 q2 q3 more dt u0 I Op ks a b H1 H2 H3 H4 H5 H6 H7 H8 H9 H10 H11 H12 H13 H14 H15 HE HU.
  apply (C36_convex m M L fuel P q0 r q1 q2 q3 more dt u0 I Op ks (fun v => forall c, I c -> (a <= v c <= b)%R)); auto.
  split.
  - intros u v E Hu c Hc. rewrite <- E by assumption. auto.
  - intros u v x Hx Hu Hv c Hc. specialize (Hu c Hc). specialize (Hv c Hc). nra.
Qed.
Print Assumptions C36_bounds.

(** Decay u' = -u with dt = 1/2 keeps every value in [0, 7]. *)
Example C36_ex : forall u : field R, (forall c, 0 <= u c <= 7)%R -> forall c, (0 <= so3 (fun u c => - u c) (1/2) u c <= 7)%R.
Proof.
  intros u H. apply (so3_convex (fun _ => True) (fun v => forall c, (0 <= v c <= 7)%R)); auto.
  - split.
    + intros v w E Hv c. rewrite <- E; auto.
    + intros v w x Hx Hv Hw c. specialize (Hv c). specialize (Hw c). nra.
  - intros v Hv c. unfold euler_step. specialize (Hv c). lra.
Qed.

(** ** C38 for the integrators *)

(** The loop of every stage, on arrays of any size and content: every
    interleaving of the iterations ends, never races, never leaves the arrays,
    and ends with the same memory, the one given by the formula. *)
Theorem C38_stage_0 : forall F (A : Arith F) (e : echunk F) M D g dt (n0 r n1 : field F), shape M D g -> chunk_holds e M D g r ->
  let b := grow g M ++ D in let arr (u : field F) := map u (cells b) in
  exists ls, stage_loops (stage0_iter dt) e = Ok ls /\
    loops_run ls [arr n0; arr r; arr n1] = Ok [arr n0; arr r; arr (fun c => n0 c + dt * r c)%F] /\
    loops_safe ls [arr n0; arr r; arr n1] [arr n0; arr r; arr (fun c => n0 c + dt * r c)%F].
Proof.
  intros F A e M D g dt n0 r n1 S He b arr. apply chunk_holds_iff in He; auto. subst e.
  pose proof (shape_valid _ _ _ S) as V. eexists. split; [apply (point_loops _ _ b r); auto|].
  exact (point_run_all _ _ _ (stage0_point dt) b [n0; r] n1 (proj1 (proj2 V)) eq_refl).
Qed.
Print Assumptions C38_stage_0.
Theorem C38_stage_1 : forall F (A : Arith F) (e : echunk F) M D g dt (n0 n1 r n2 : field F), shape M D g -> chunk_holds e M D g r ->
  let b := grow g M ++ D in let arr (u : field F) := map u (cells b) in
  let w c := (fdec 75 (-2) * n0 c + fdec 25 (-2) * n1 c + fdec 25 (-2) * dt * r c)%F in
  exists ls, stage_loops (stage1_iter dt) e = Ok ls /\
    loops_run ls [arr n0; arr n1; arr r; arr n2] = Ok [arr n0; arr n1; arr r; arr w] /\
    loops_safe ls [arr n0; arr n1; arr r; arr n2] [arr n0; arr n1; arr r; arr w].
Proof.
  intros F A e M D g dt n0 n1 r n2 S He b arr w. apply chunk_holds_iff in He; auto. subst e.
  pose proof (shape_valid _ _ _ S) as V. eexists. split; [apply (point_loops _ _ b r); auto|].
  exact (point_run_all _ _ _ (stage1_point dt) b [n0; n1; r] n2 (proj1 (proj2 V)) eq_refl).
Qed.
Print Assumptions C38_stage_1.
Theorem C38_stage_2 : forall F (A : Arith F) (e : echunk F) M D g dt (n0 n2 r n3 : field F), shape M D g -> chunk_holds e M D g r ->
  let b := grow g M ++ D in let arr (u : field F) := map u (cells b) in
  let w c := ((n0 c + fofz 2 * (n2 c + dt * r c)) / fofz 3)%F in
  exists ls, stage_loops (stage2_iter dt) e = Ok ls /\
    loops_run ls [arr n0; arr n2; arr r; arr n3] = Ok [arr n0; arr n2; arr r; arr w] /\
    loops_safe ls [arr n0; arr n2; arr r; arr n3] [arr n0; arr n2; arr r; arr w].
Proof.
  intros F A e M D g dt n0 n2 r n3 S He b arr w. apply chunk_holds_iff in He; auto. subst e.
  pose proof (shape_valid _ _ _ S) as V. eexists. split; [apply (point_loops _ _ b r); auto|].
  exact (point_run_all _ _ _ (stage2_point dt) b [n0; n2; r] n3 (proj1 (proj2 V)) eq_refl).
Qed.
Print Assumptions C38_stage_2.

(** The iterations of the loop of stage_0 for two elements, run in the
    opposite order by two threads. *)
Example C38_stage_ex : forall F (A : Arith F) dt (a b c d e f : F),
  exists m, psteps ([stage0_iter dt 0; stage0_iter dt 1], [[a; b]; [c; d]; [e; f]]) ([Ret; Ret], m) /\
    m = [[a; b]; [c; d]; [a + dt * c; b + dt * d]]%F.
Proof.
  intros. eexists. split; [|reflexivity].
  do 2 (eapply psteps_step; [eapply (pstep_rd _ _ 1%nat); reflexivity|]; cbn [upd]).
  eapply psteps_step; [eapply (pstep_wr _ _ 1%nat); reflexivity|]. cbn [upd].
  do 2 (eapply psteps_step; [eapply (pstep_rd _ _ 0%nat); reflexivity|]; cbn [upd]).
  eapply psteps_step; [eapply (pstep_wr _ _ 0%nat); reflexivity|]. cbn [upd].
  apply psteps_refl.
Qed.

(** ** C55 *)

(** The stages of ssprk3 promise 64 byte aligned arrays to the compiler.  If the
    storage of std::vector is not so aligned, every call of a stage is
    undefined. *)
Theorem C55_alignment_refuted : forall F (A : Arith F) (m : mgr F) M L fuel q0 r q1 q2 q3 more tag dt u0 ur ks,
  mgr_holds m M L -> fields_ok M L -> compatible (ids L ++ ks) -> incl [q0; r; q1; q2; q3] ks ->
  Forall (id_fits M) [q1; q2; q3] -> (1 <= fuel)%nat -> 0 <= tag <= 2 ->
  mg_dt m = Some dt -> field_get L q0 = Some u0 -> field_get L r = Some ur ->
  ssprk3_solve false fuel [q0; r] (q1 :: q2 :: q3 :: more) tag m = Undef Misaligned.
Proof. exact @api_misaligned. Qed.
Print Assumptions C55_alignment_refuted.

(** A stage tag other than 0, 1, 2 is not reported: nothing happens. *)
Theorem C55_stage_tag_refuted : forall F (A : Arith F) (m : mgr F) M L al fuel q0 r q1 q2 q3 more tag dt u0 ur u1 u2 u3 ks,
  mgr_holds m M L -> fields_ok M L -> compatible (ids L ++ ks) -> incl [q0; r; q1; q2; q3] ks ->
  Forall (id_fits M) [q1; q2; q3] -> (1 <= fuel)%nat -> tag < 0 \/ 2 < tag ->
  mg_dt m = Some dt -> field_get L q0 = Some u0 -> field_get L r = Some ur ->
  field_get L q1 = Some u1 -> field_get L q2 = Some u2 -> field_get L q3 = Some u3 ->
  ssprk3_solve al fuel [q0; r] (q1 :: q2 :: q3 :: more) tag m = Done m.
Proof. exact @api_other_tag. Qed.
Print Assumptions C55_stage_tag_refuted.

(** An output of rk1 that is one of its inputs breaks __restrict__, always. *)
Theorem C55_alias_refuted : forall F (A : Arith F) (m : mgr F) M L fuel q0 r more dt u0 ur,
  mgr_holds m M L -> fields_ok M L -> compatible (ids L ++ [q0; r]) -> Forall (id_fits M) [q0; r] -> (1 <= fuel)%nat ->
  mg_dt m = Some dt -> field_get L q0 = Some u0 -> field_get L r = Some ur ->
  forall q1, q1 = q0 \/ q1 = r -> rk1_solve fuel [q0; r] (q1 :: more) 0 m = Undef RestrictAlias.
Proof. exact @api_rk1_alias. Qed.
Print Assumptions C55_alias_refuted.

(** A right-hand side with more components than q is used past the end. *)
Definition wide_rhs : vid := mkVid "rhs" (["a"; "b"; "c"]%string) volume_average.
Theorem C55_shapes_refuted : exists (m : mgr spec_float) ins outs,
  List.length ins = 2%nat /\ List.length outs = 1%nat /\
  obind (fill_solve 9 (dbl 3) [tq] m) (fun m => obind (fill_solve 9 (dbl 5) [wide_rhs] m) (rk1_solve 9 ins outs 0)) = Undef OutOfBounds.
Proof. exists tmgr, [tq; wide_rhs], [t1]. split; [reflexivity|]. split; [reflexivity|]. vm_compute. reflexivity. Qed.
Print Assumptions C55_shapes_refuted.

Example C55_ex : obind tstart (ssprk3_solve false 9 [tq; tr] [t1; t2; t3] 1) = Undef Misaligned /\
  obind tstart (rk1_solve 9 [tq; tr] [tq] 0) = Undef RestrictAlias /\
  match obind tstart (fill_solve 9 (dbl 4) [t1; t2; t3]) with
  | Done m => ssprk3_solve true 9 [tq; tr] [t1; t2; t3] 3 m = Done m
  | _ => False
  end.
Proof. split; [vm_compute; reflexivity|]. split; vm_compute; reflexivity. Qed.
