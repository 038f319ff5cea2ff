(** * AdvectRunFacts: the time loop of advect_gaussian in a periodic box. *)
From Coq Require Import ZArith List String Bool Lia Reals Lra Psatz.
From Verif Require Import Base BaseFacts BoxSpec BoxFacts Range RangeSpec Indexer IndexerFacts Interface ApiSpec Arith ArithR Chunk FieldSpec FieldFacts ChunkFacts VarId Manager MgrSpec MgrFacts
  Solvers SolverFacts BC BCSpec BCFacts KernelFacts IntegratorSpec IntegratorFacts SweepSpec SweepFacts FluxFacts Advection AdvectionSpec AdvectionFacts Programs ProgramsSpec ProgramsFacts RhsFacts.
Import ListNotations.
Open Scope R_scope.

Lemma adv_ready_next : forall (m m' : mgr R) M L L' ks q0 q1 q2 dt velocity fuel, adv_ready m M L ks q0 q1 q2 dt velocity fuel ->
  mgr_holds m' M L' -> fields_ok M L' -> incl (ids L') (ids L ++ ks) -> same_run m m' -> adv_ready m' M L' ks q0 q1 q2 dt velocity fuel.
Proof.
  intros m m' M L L' ks q0 q1 q2 dt velocity fuel (Hm & HL & Hc & Hk & Hf & Cb1 & Cb2 & Hfu & Ht & Hdt & Hv & Hx) H1 H2 H3 (S1 & S2 & S3).
  split; [exact H1|]. split; [exact H2|]. split.
  { eapply compat_perm; [exact Hc|]. intros x Hx'. apply in_app_or in Hx' as [Hx'|Hx']; [now apply H3|apply in_or_app; auto]. }
  do 5 (split; [assumption|]). rewrite S1, S2, S3. auto.
Qed.

Lemma bc_adv : forall (m : mgr R) M L ks q0 q1 q2 dt velocity fuel q u, adv_ready m M L ks q0 q1 q2 dt velocity fuel -> In q [q0; q1; q2] ->
  bc_ready Periodic M fuel (seq 0 (List.length M)) [q] -> field_get L q = Some u ->
  exists m' L' v, bc_solve Periodic fuel (map Z.of_nat (seq 0 (List.length M))) [q] m = Done m' /\ adv_ready m' M L' ks q0 q1 q2 dt velocity fuel /\ same_run m m' /\
    (forall k, id_name k <> id_name q -> field_get L' k = field_get L k) /\ field_get L' q = Some v /\
    periodic_field M [(0%Z, bs_points (id_basis q))] (Z.of_nat (List.length (id_comps q))) (seq 0 (List.length M)) v /\
    forall c, in_box (M ++ comp_box q) c -> v c = u c.
Proof.
  intros m M L ks q0 q1 q2 dt velocity fuel q u HR Hq HB Hu. pose proof HR as (Hm & HL & Hc & Hk & Hf & _).
  assert (Hqk : In q ks) by (now apply Hk).
  destruct (api_bc_solve Periodic m M L fuel (seq 0 (List.length M)) [q] Hm HL) as (m' & L' & E & H1 & H2 & H3 & H4 & H5 & H6 & _); auto.
  { eapply compat_perm; [exact Hc|]. intros x Hx. rewrite in_app_iff in *. destruct Hx as [|[<-|[]]]; auto. }
  destruct (H6 q (or_introl eq_refl)) as (v & Gv & Gs). unfold field_or_zero in Gs. rewrite Hu in Gs. exists m', L', v.
  rewrite Forall_forall in Hf. assert (Fq := Hf q Hq). destruct HB as [Hw _].
  split; [exact E|]. split. { eapply adv_ready_next; eauto. intros x Hx. apply H4 in Hx. rewrite in_app_iff in *. destruct Hx as [|[<-|[]]]; auto. }
  split; [exact H3|]. split; [intros k Nk; apply H5; intros [X|[]]; congruence|]. split; [exact Gv|]. split.
  - eapply bc_periodic_field; eauto.
  - intros c Hcc. eapply ghosts_interior; eauto.
Qed.

Lemma advect_step_ok : forall (m : mgr R) M L ks q0 q1 q2 dt velocity fuel u, adv_ready m M L ks q0 q1 q2 dt velocity fuel ->
  NoDup (map id_name [q0; q1; q2]) -> bc_ready Periodic M fuel (seq 0 (List.length M)) [q0] -> bc_ready Periodic M fuel (seq 0 (List.length M)) [q1] ->
  field_get L q0 = Some u ->
  exists m' L' v, advect_step fuel velocity (map Z.of_nat (seq 0 (List.length M))) q0 q1 q2 m = Done m' /\ adv_ready m' M L' ks q0 q1 q2 dt velocity fuel /\ same_run m m' /\
    field_get L' q0 = Some v /\ forall j, (0 <= j < Z.of_nat (List.length (id_comps q0)))%Z -> total_of M q0 j v = total_of M q0 j u.
Proof.
  intros m M L ks q0 q1 q2 dt velocity fuel u HR HN B0 B1 Hu. pose proof HR as (_ & _ & _ & Hk & Hf & Cb1 & Cb2 & _). cbn [map] in HN. rewrite !NoDup_cons_iff in HN. cbn [In] in HN.
  assert (N01 : id_name q0 <> id_name q1) by intuition. assert (N02 : id_name q0 <> id_name q2) by intuition. assert (N12 : id_name q1 <> id_name q2) by intuition.
  assert (W : Forall (fun d => (d < List.length M)%nat) (seq 0 (List.length M))) by (apply Forall_forall; intros d Hd; apply in_seq in Hd; lia).
  assert (NE : nonempty (M ++ [(0%Z, bs_points (id_basis q0))])).
  { inversion Hf as [|? ? Hfit _]; subst. apply Forall_app. split; [apply Hfit|]. destruct Hfit as (_ & _ & HD & _). unfold comp_box in HD. inversion HD; subst. constructor; [assumption|constructor]. }
  assert (P1 : bs_points (id_basis q1) = bs_points (id_basis q0)) by (unfold comp_box in Cb1; now injection Cb1).
  assert (C1 : List.length (id_comps q1) = List.length (id_comps q0)) by (unfold comp_box in Cb1; injection Cb1 as _ X; lia).
  assert (Tot : forall (a b : field R), (forall c, in_box (M ++ comp_box q0) c -> a c = b c) -> forall j, (0 <= j < Z.of_nat (List.length (id_comps q0)))%Z -> total_of M q0 j a = total_of M q0 j b).
  { intros a b H j Hj. apply total_ext. intros x Hx. apply H. now apply cell_join. }
  destruct (bc_adv m M L ks q0 q1 q2 dt velocity fuel q0 u HR ltac:(cbn; auto) B0 Hu) as (m1 & L1 & u1 & E1 & R1 & S1 & O1 & G1 & F1 & I1).
  destruct (api_stage_0 m1 M L1 ks q0 q1 q2 dt velocity fuel u1 R1 G1 N01) as (m2 & L2 & E2 & (H2 & HL2 & S2 & O2 & _ & u2 & G2 & _ & Fl2) & K2).
  assert (R2 : adv_ready m2 M L2 ks q0 q1 q2 dt velocity fuel) by (eapply adv_ready_next; eauto).
  assert (T2 : forall j, (0 <= j < Z.of_nat (List.length (id_comps q0)))%Z -> total_of M q0 j u2 = total_of M q0 j u).
  { intros j Hj. rewrite <- (Tot u1 u I1 j Hj). eapply periodic_flow; eauto. }
  assert (G20 : field_get L2 q0 = Some u1). { rewrite O2; [exact G1|]. cbn. intuition. }
  destruct (bc_adv m2 M L2 ks q0 q1 q2 dt velocity fuel q1 u2 R2 ltac:(cbn; auto) B1 G2) as (m3 & L3 & u3 & E3 & R3 & S3 & O3 & G3 & F3 & I3).
  assert (G30 : field_get L3 q0 = Some u1) by (now rewrite O3).
  destruct (api_stage_1 m3 M L3 ks q0 q1 q2 dt velocity fuel u1 R3 G30 N12) as (m4 & L4 & E4 & (H4 & HL4 & S4 & O4 & _ & u4 & G4 & _ & Fl4) & K4).
  assert (R4 : adv_ready m4 M L4 ks q0 q1 q2 dt velocity fuel) by (eapply adv_ready_next; eauto).
  unfold field_or_zero in Fl4. rewrite G3 in Fl4. rewrite P1, C1 in F3. rewrite Cb1 in I3.
  assert (T4 : forall j, (0 <= j < Z.of_nat (List.length (id_comps q0)))%Z -> total_of M q0 j u4 = total_of M q0 j u).
  { intros j Hj. unfold total_of. rewrite (periodic_flow M [(0%Z, bs_points (id_basis q0))] (Z.of_nat (List.length (id_comps q0))) _ _ (seq 0 (List.length M)) u3 (mean u1 u3) u4 j NE W Hj Fl4 F3).
    pose proof (Tot u1 u I1 j Hj) as X1. pose proof (Tot u3 u2 I3 j Hj) as X3. pose proof (T2 j Hj) as X2. unfold total_of in *.
    rewrite (total_ext _ (fun x => mean u1 u3 (x ++ [j])) (fun x => 0 + / 2 * (u1 (x ++ [j]) + 1 * u3 (x ++ [j])))).
    2:{ intros x _. unfold mean. cbn. unfold Rdecimal. cbn. field. }
    rewrite (total_lin _ (fun _ => 0)), (total_lin _ (fun x => u1 (x ++ [j]))). unfold total at 1. rewrite sum_zero by auto. rewrite X1, X3, X2. field. }
  pose proof R4 as (_ & _ & Hc4 & _).
  destruct (api_swap_solve m4 M L4 [(q0, q2)] H4 HL4) as (m5 & E5 & S5 & H5 & HL5).
  { eapply compat_perm; [exact Hc4|]. intros x Hx. rewrite in_app_iff in *. destruct Hx as [|[<-|[<-|[]]]]; auto; right; apply Hk; cbn; auto. }
  { rewrite Forall_forall in Hf. constructor; [|constructor]. cbn [fst snd]. split; [apply Hf; cbn; auto|]. split; [apply Hf; cbn; auto|congruence]. }
  cbn [flat app fold_left] in E5, H5, HL5. exists m5, (swap_fields L4 (q0, q2)), u4.
  split. { unfold advect_step. rewrite E1. cbn [obind]. rewrite E2. cbn [obind]. rewrite E3. cbn [obind]. rewrite E4. cbn [obind]. exact E5. }
  split. { eapply adv_ready_next; eauto. intros x Hx. assert (X := ids_swaps [(q0, q2)] L4 x Hx). rewrite in_app_iff in X |- *. cbn in X. destruct X as [|[<-|[<-|[]]]]; auto; right; apply Hk; cbn; auto. }
  split; [eapply same_run_trans; [|exact S5]; eapply same_run_trans; [|exact S4]; eapply same_run_trans; [|exact S3]; eapply same_run_trans; eauto|].
  split; [|exact T4]. pose proof (swaps_get [(q0, q2)] L4 q0 q2) as X. cbn [fold_left] in X. rewrite X.
  - unfold field_or_zero. now rewrite G4.
  - cbn. repeat constructor; cbn; intuition.
  - cbn. auto.
Qed.

Lemma advect_loop_ok : forall n t (m : mgr R) M L ks q0 q1 q2 dt velocity fuel u, adv_ready m M L ks q0 q1 q2 dt velocity fuel ->
  NoDup (map id_name [q0; q1; q2]) -> bc_ready Periodic M fuel (seq 0 (List.length M)) [q0] -> bc_ready Periodic M fuel (seq 0 (List.length M)) [q1] ->
  field_get L q0 = Some u ->
  exists m' L' v, time_loop (advect_step fuel velocity (map Z.of_nat (seq 0 (List.length M))) q0 q1 q2) dt n t m = Done m' /\ mgr_holds m' M L' /\
    field_get L' q0 = Some v /\ forall j, (0 <= j < Z.of_nat (List.length (id_comps q0)))%Z -> total_of M q0 j v = total_of M q0 j u.
Proof.
  induction n as [|n IH]; intros t m M L ks q0 q1 q2 dt velocity fuel u HR HN B0 B1 Hu.
  - exists m, L, u. split; [reflexivity|]. split; [apply HR|]. auto.
  - destruct (advect_step_ok m M L ks q0 q1 q2 dt velocity fuel u HR HN B0 B1 Hu) as (m1 & L1 & v1 & E1 & R1 & S1 & G1 & T1).
    destruct (IH (fadd t dt) (mgr_set_time m1 (fadd t dt)) M L1 ks q0 q1 q2 dt velocity fuel v1) as (m2 & L2 & v2 & E2 & H2 & G2 & T2); auto.
    { destruct R1 as (X1 & X2 & X3 & X4 & X5 & X6 & X7 & X8 & X9 & X10 & X11 & X12). do 8 (split; [assumption|]). split; [discriminate|]. auto. }
    exists m2, L2, v2. cbn [time_loop]. rewrite E1. cbn [obind]. split; [exact E2|]. split; [exact H2|]. split; [exact G2|]. intros j Hj. rewrite T2, T1; auto.
Qed.
