(** * RunFacts: the example programs run the Runge-Kutta method. *)
From Coq Require Import ZArith List String Bool Lia Reals Lra Permutation.
From Verif Require Import Base BaseFacts BoxSpec BoxFacts Range RangeSpec RangeFacts Interface ApiSpec InterfaceFacts Arith ArithR Chunk FieldSpec FieldFacts ChunkFacts VarId Manager MgrSpec MgrFacts
  Solvers SolverFacts BC BCSpec BCFacts Par Kernel KernelFacts Integrators IntegratorSpec IntegratorFacts Sweep SweepSpec SweepFacts FluxFacts Euler Maxwell Sources SourceSpec SourceFacts Advection
  Programs ProgramsSpec ProgramsFacts RhsFacts NumFacts.
Import ListNotations.
Open Scope Z_scope.

Section Run.
Context {F : Type} {A : Arith F}.
Notation fld := (field F).

Lemma ofold_ext : forall X S (f g : X -> S -> out S) l s, (forall x s, f x s = g x s) -> ofold f l s = ofold g l s.
Proof. intros X S f g l. induction l as [|x l IH]; intros s H; [reflexivity|]. cbn [ofold]. rewrite H. destruct (g x s); cbn [obind]; auto. Qed.

Definition pulse_rhs (fuel : nat) (c : F) (dims : list Z) (f : family) (k : Z) (m : mgr F) : out (mgr F) :=
  obind (run_bcs fuel [mkBc Periodic dims [f_read k f]] m) (fun m => obind (fill_solve fuel (fofz 0) [f_rhs f] m) (maxwell_solve fuel c [f_read k f] [f_rhs f])).
Definition sod_rhs (fuel : nat) (gamma : F) (walls dims : list Z) (f : family) (k : Z) (m : mgr F) : out (mgr F) :=
  obind (run_bcs fuel (mkBc NoSlip walls [f_read k f] :: match dims with [] => [] | _ => [mkBc Periodic dims [f_read k f]] end) m)
    (fun m => obind (fill_solve fuel (fofz 0) [f_rhs f] m) (euler_solve fuel gamma [f_read k f] [f_rhs f])).

Lemma pulse_is : forall fuel c dims f m, pulse_step true fuel c dims f m = sys_step fuel (pulse_rhs fuel c dims f) [f] m.
Proof.
  intros. unfold pulse_step, sys_step. f_equal. apply ofold_ext. clear m. intros k m. unfold pulse_stage, pulse_rhs. rewrite obind_assoc. apply obind_ext. intros m1.
  rewrite obind_assoc. apply obind_ext. intros m2. apply obind_ext. intros m3. cbn [ofold]. now rewrite obind_done.
Qed.
Lemma sod_is : forall fuel gamma walls dims f m, sod_step true fuel gamma walls dims f m = sys_step fuel (sod_rhs fuel gamma walls dims f) [f] m.
Proof.
  intros. unfold sod_step, sys_step. f_equal. apply ofold_ext. clear m. intros k m. unfold sod_stage, sod_rhs. rewrite obind_assoc. apply obind_ext. intros m1.
  rewrite obind_assoc. apply obind_ext. intros m2. apply obind_ext. intros m3. cbn [ofold]. now rewrite obind_done.
Qed.
Lemma plasma_is : forall fuel p bl e i f m, plasma_step true fuel p bl e i f m =
  sys_step fuel (fun k => plasma_rhs fuel p (bl k) (f_read k e) (f_read k i) (f_read k f) (f_rhs e) (f_rhs i) (f_rhs f)) [e; i; f] m.
Proof.
  intros. unfold plasma_step, sys_step. f_equal. apply ofold_ext. clear m. intros k m. unfold plasma_stage, plasma_rhs.
  do 7 (rewrite obind_assoc; apply obind_ext; intros ?). apply obind_ext; intros ?. cbn [ofold].
  apply obind_ext; intros ?. apply obind_ext; intros ?. now rewrite obind_done.
Qed.

Lemma run_gen : forall fuel (P : Z -> mgr F -> out (mgr F)) fams step M Op dt n m L U, fams <> [] ->
  program_ready m M L fams fuel -> (forall m, step m = sys_step fuel P fams m) ->
  (forall k, 0 <= k <= 2 -> computes_sys (P k) (mg_grid m) dt M (flat_map f_ids fams) (map (f_read k) fams) (map f_rhs fams) Op) ->
  sys_is M L (map f_0 fams) U ->
  exists m' L', run step dt n m = Done m' /\ ran m m' M L L' fams dt n (Nat.iter n (rk3 Op dt) U).
Proof.
  intros fuel P fams step M Op dt n m L U Hne (Hf & Hs & Hr & Hsp & Hw) Hst HP HU. unfold run.
  assert (Hfu : (1 <= fuel)%nat).
  { destruct fams as [|f fams]; [congruence|]. eapply room_fits; [exact Hr|]. cbn. left. reflexivity. }
  destruct (time_loop_ok fuel P fams (mg_grid m) dt M (flat_map f_ids fams) Op Hf (fun x H => H) Hfu HP step Hst n (fofz 0)
    (mgr_set_dt (mgr_set_time m (fofz 0)) dt) L U Hs eq_refl eq_refl HU) as (m' & L' & R1 & S1 & G1 & D1 & T1 & V1 & O1).
  exists m', L'. split; [exact R1|]. split; [exact S1|]. split; [exact G1|]. split; [exact D1|]. split; [|split; [exact V1|exact O1]].
  rewrite T1. destruct n; reflexivity.
Qed.

Lemma read_in : forall k f, In (f_read k f) (f_ids f).
Proof. intros. unfold f_read, f_ids. destruct (k =? 0), (k =? 1); cbn; auto. Qed.
Lemma read_comps : forall M fams f k, families_ok M fams -> In f fams ->
  List.length (id_comps (f_read k f)) = List.length (id_comps (f_0 f)) /\ comp_box (f_rhs f) = comp_box (f_read k f) /\
  bs_points (id_basis (f_read k f)) = bs_points (id_basis (f_0 f)).
Proof.
  intros M fams f k [_ H] Hin. rewrite Forall_forall in H. destruct (H f Hin) as [H1 _]. rewrite Forall_forall in H1.
  pose proof (H1 _ (read_in k f)) as E1. pose proof (H1 (f_rhs f) ltac:(unfold f_ids; cbn; auto 6)) as E2.
  split; [|split; [congruence|]].
  - unfold comp_box in E1. injection E1 as _ E. now apply Nat2Z.inj in E.
  - unfold comp_box in E1. now injection E1.
Qed.

Lemma wide_sub : forall M g ds ds', wide M g ds -> incl ds' ds -> wide M g ds'.
Proof. intros M g ds ds' H I d Hd. apply H. now apply I. Qed.

Lemma ready_bc : forall M fuel ks k ds q, room M fuel ks -> wide M 2 (seq 0 (List.length M)) -> Forall (fun d => (d < List.length M)%nat) ds ->
  incl q ks -> Forall (fun q => comps_ok k (comp_box q)) q -> bc_ready k M fuel ds q.
Proof.
  intros M fuel ks k ds q Hr Hw Hd Hq Hc. split.
  - eapply wide_sub; [exact Hw|]. intros d Hin. rewrite Forall_forall in Hd. apply Hd in Hin. apply in_seq. lia.
  - rewrite Forall_forall in Hc |- *. intros x Hx. unfold room in Hr. rewrite Forall_forall in Hr. destruct (Hr x (Hq x Hx)) as [R1 R2]. auto.
Qed.

Lemma comps_four : forall k q, (4 <= List.length (id_comps q))%nat -> comps_ok k (comp_box q).
Proof. intros k q H. assert (four_comps (comp_box q)); [|destruct k; cbn; auto]. exists [(0, bs_points (id_basis q))], (Z.of_nat (List.length (id_comps q))). split; [reflexivity|lia]. Qed.

Lemma dim_in : forall d ds, In d ds -> existsb (Z.eqb (Z.of_nat d)) (map Z.of_nat ds) = true.
Proof. intros. rewrite existsb_dims. now destruct (in_dec Nat.eq_dec d ds). Qed.
Lemma dim_out : forall d ds, ~ In d ds -> existsb (Z.eqb (Z.of_nat d)) (map Z.of_nat ds) = false.
Proof. intros. rewrite existsb_dims. now destruct (in_dec Nat.eq_dec d ds). Qed.
Lemma name_self : forall q l, existsb (fun o => String.eqb (id_name o) (id_name q)) (q :: l) = true.
Proof. intros. cbn. now rewrite String.eqb_refl. Qed.

Lemma fam_nodup : forall M fams f, families_ok M fams -> In f fams -> fam_ok M f.
Proof.
  intros M fams f. induction fams as [|g fams IH]; intros H Hin; [destruct Hin|]. apply fams_cons in H as (H1 & H2 & _). destruct Hin as [<-|Hin]; auto.
Qed.
Lemma read_rhs : forall M fams f k, families_ok M fams -> In f fams -> id_name (f_read k f) <> id_name (f_rhs f).
Proof.
  intros M fams f k H Hin. destruct (fam_nodup M fams f H Hin) as [N _]. unfold f_ids in N. cbn [map] in N.
  rewrite !NoDup_cons_iff in N. cbn [In] in N. unfold f_read. destruct (k =? 0), (k =? 1); intuition.
Qed.

Theorem pulse_run : forall c M f fuel dt n (m : mgr F) L U, program_ready m M L [f] fuel -> List.length (id_comps (f_0 f)) = 6%nat ->
  sys_is M L [f_0 f] U ->
  exists m' L', run (pulse_step true fuel c (map Z.of_nat (seq 0 (List.length M))) f) dt n m = Done m' /\
    ran m m' M L L' [f] dt n (Nat.iter n (rk3 (fun V _ => fv_rhs 6 (flux_of (maxwell_flux c)) M (fun _ => Periodic) (spacing (mg_grid m)) (seq 0 (Nat.min 3 (List.length M))) (V 0%nat)) dt) U).
Proof.
  intros c M f fuel dt n m L U HR H6 HU. pose proof HR as (Hf & Hs & Hr & Hsp & Hw).
  eapply (run_gen fuel (pulse_rhs fuel c (map Z.of_nat (seq 0 (List.length M))) f) [f]); [discriminate|exact HR|intros; apply pulse_is| |exact HU].
  intros k Hk. destruct (read_comps M [f] f k Hf (or_introl eq_refl)) as (E1 & E2 & _).
  assert (Iq : In (f_read k f) (flat_map f_ids [f])) by (cbn [flat_map]; apply in_or_app; left; apply read_in).
  unfold pulse_rhs. apply (single_rhs (maxwell_solve fuel c) 6); auto.
  - intros m1 L1 u Gr Dt Rd. destruct (api_maxwell c m1 M L1 (flat_map f_ids [f]) (f_read k f) (f_rhs f) u fuel Rd) as (m' & L' & X). exists m', L'. now rewrite Gr in X.
  - cbn. auto 8.
  - congruence.
  - eapply read_rhs; [exact Hf|now left].
  - constructor; [|constructor]. cbn [bc_outs bc_dims bc_k]. split; [intros x Hx; exact Hx|]. eexists. split; [reflexivity|].
    eapply ready_bc; eauto. + apply Forall_forall. intros d Hd. apply in_seq in Hd. lia. + intros x [<-|[]]. exact Iq. + constructor; constructor.
  - intros d Hd. apply in_seq in Hd. split; [lia|]. cbn [bc_of bc_dims bc_outs bc_k]. rewrite dim_in by (apply in_seq; lia). now rewrite name_self.
Qed.

Theorem sod_run : forall gamma M f fuel dt n ws ps (m : mgr F) L U, program_ready m M L [f] fuel -> List.length (id_comps (f_0 f)) = 5%nat -> (List.length M <= 4)%nat ->
  (forall d, In d (ws ++ ps) <-> (d < List.length M)%nat) -> (forall d, In d ws -> ~ In d ps) ->
  sys_is M L [f_0 f] U ->
  let kinds d := if in_dec Nat.eq_dec d ps then Periodic else NoSlip in
  exists m' L', run (sod_step true fuel gamma (map Z.of_nat ws) (map Z.of_nat ps) f) dt n m = Done m' /\
    ran m m' M L L' [f] dt n (Nat.iter n (rk3 (fun V _ => fv_rhs 5 (flux_of (euler_flux gamma)) M kinds (spacing (mg_grid m)) (seq 0 (List.length M)) (V 0%nat)) dt) U).
Proof.
  intros gamma M f fuel dt n ws ps m L U HR H5 H4 Hd Hx HU kinds. pose proof HR as (Hf & Hs & Hr & Hsp & Hw).
  eapply (run_gen fuel (sod_rhs fuel gamma (map Z.of_nat ws) (map Z.of_nat ps) f) [f]); [discriminate|exact HR|intros; apply sod_is| |exact HU].
  intros k Hk. destruct (read_comps M [f] f k Hf (or_introl eq_refl)) as (E1 & E2 & _).
  assert (Iq : In (f_read k f) (flat_map f_ids [f])) by (cbn [flat_map]; apply in_or_app; left; apply read_in).
  assert (C4 : forall kk, Forall (fun q => comps_ok kk (comp_box q)) [f_read k f]) by (intros; constructor; [apply comps_four; lia|constructor]).
  assert (Bw : exists ds, map Z.of_nat ws = map Z.of_nat ds /\ bc_ready NoSlip M fuel ds [f_read k f]).
  { eexists. split; [reflexivity|]. eapply ready_bc; eauto; [|intros x [<-|[]]; exact Iq]. apply Forall_forall. intros d Hin. apply Hd. apply in_or_app. auto. }
  assert (Bp : exists ds, map Z.of_nat ps = map Z.of_nat ds /\ bc_ready Periodic M fuel ds [f_read k f]).
  { eexists. split; [reflexivity|]. eapply ready_bc; eauto; [|intros x [<-|[]]; exact Iq]. apply Forall_forall. intros d Hin. apply Hd. apply in_or_app. auto. }
  unfold sod_rhs. apply (single_rhs (euler_solve fuel gamma) 5); auto.
  - intros m1 L1 u Gr Dt Rd. destruct (api_euler gamma m1 M L1 (flat_map f_ids [f]) (f_read k f) (f_rhs f) u fuel dt) as (m' & L' & X); auto. exists m', L'. now rewrite Gr in X.
  - cbn. auto 8.
  - congruence.
  - eapply read_rhs; [exact Hf|now left].
  - constructor; [split; [intros x Hi; exact Hi|exact Bw]|]. destruct ps as [|p0 ps]; [constructor|]. cbn [map]. constructor; [|constructor]. split; [intros x Hi; exact Hi|exact Bp].
  - intros d Hin. apply in_seq in Hin. split; [lia|]. unfold kinds. cbn [bc_of].
    assert (Hin' : In d (ws ++ ps)) by (apply Hd; lia). destruct (in_dec Nat.eq_dec d ps) as [Hp|Hp].
    + destruct ps as [|p0 ps]; [destruct Hp|]. cbn [map bc_of bc_dims bc_outs bc_k]. change (Z.of_nat p0 :: map Z.of_nat ps) with (map Z.of_nat (p0 :: ps)).
      rewrite (dim_in d (p0 :: ps)) by assumption. now rewrite name_self.
    + assert (Hws : In d ws) by (apply in_app_or in Hin' as [|]; [assumption|contradiction]).
      assert (X : bc_of match map Z.of_nat ps with [] => [] | _ :: _ => [mkBc Periodic (map Z.of_nat ps) [f_read k f]] end (f_read k f) d = None).
      { destruct ps as [|p0 ps]; [reflexivity|]. cbn [map bc_of bc_dims bc_outs bc_k]. change (Z.of_nat p0 :: map Z.of_nat ps) with (map Z.of_nat (p0 :: ps)).
        now rewrite (dim_out d (p0 :: ps)). }
      cbn zeta. rewrite X. cbn [bc_dims bc_outs bc_k]. rewrite dim_in by assumption. now rewrite name_self.
Qed.

Theorem plasma_run : forall p bl (bc : nat -> nat -> bc_kind) M e i f fuel dt n (m : mgr F) L U, program_ready m M L [e; i; f] fuel ->
  List.length (id_comps (f_0 e)) = 5%nat -> List.length (id_comps (f_0 i)) = 5%nat -> List.length (id_comps (f_0 f)) = 6%nat ->
  bs_points (id_basis (f_0 e)) = bs_points (id_basis (f_0 f)) -> bs_points (id_basis (f_0 i)) = bs_points (id_basis (f_0 f)) -> List.length (pl_ms p) = 2%nat -> (List.length M <= 4)%nat ->
  (forall k, 0 <= k <= 2 -> Forall (fun b => incl (bc_outs b) [f_read k e; f_read k i; f_read k f] /\ exists ds, bc_dims b = map Z.of_nat ds /\ Forall (fun d => (d < List.length M)%nat) ds) (bl k)) ->
  (forall k d, 0 <= k <= 2 -> (d < List.length M)%nat -> bc_of (bl k) (f_read k e) d = Some (bc 0%nat d) /\ bc_of (bl k) (f_read k i) d = Some (bc 1%nat d) /\
     bc_of (bl k) (f_read k f) d = Some (bc 2%nat d)) ->
  sys_is M L [f_0 e; f_0 i; f_0 f] U ->
  exists m' L', run (plasma_step true fuel p bl e i f) dt n m = Done m' /\
    ran m m' M L L' [e; i; f] dt n (Nat.iter n (rk3 (plasma_op p (flux_of (euler_flux (pl_gamma p))) (flux_of (maxwell_flux (pl_c p))) M bc (spacing (mg_grid m))
      (seq 0 (List.length M)) (seq 0 (Nat.min 3 (List.length M)))) dt) U).
Proof.
  intros p bl bc M e i f fuel dt n m L U HR Ne Ni Nf Pe Pi Hms H4 Hbl Hbc HU. pose proof HR as (Hf & Hs & Hr & Hsp & Hw).
  set (P := fun k => plasma_rhs fuel p (bl k) (f_read k e) (f_read k i) (f_read k f) (f_rhs e) (f_rhs i) (f_rhs f)).
  eapply (run_gen fuel P [e; i; f]); [discriminate|exact HR|intros; apply plasma_is| |exact HU].
  intros k Hk. destruct (read_comps M [e; i; f] e k Hf ltac:(cbn; auto)) as (A1 & A2 & A3).
  destruct (read_comps M [e; i; f] i k Hf ltac:(cbn; auto)) as (B1 & B2 & B3). destruct (read_comps M [e; i; f] f k Hf ltac:(cbn; auto)) as (C1 & C2 & C3).
  assert (Sub : forall x, In x [f_read k e; f_read k i; f_read k f; f_rhs e; f_rhs i; f_rhs f] -> In x (flat_map f_ids [e; i; f])).
  { pose proof (read_in k e). pose proof (read_in k i). pose proof (read_in k f). intros x Hx. cbn [flat_map]. rewrite !in_app_iff.
    assert (Ir : forall g, In (f_rhs g) (f_ids g)) by (intros; unfold f_ids; cbn; auto 6).
    cbn [In] in Hx. destruct Hx as [<-|[<-|[<-|[<-|[<-|[<-|[]]]]]]]; auto. }
  unfold P. apply plasma_rhs_ok; auto; try congruence.
  - destruct Hf as [N _]. cbn [flat_map] in N. unfold f_ids in N. cbn [app map] in N. rewrite !NoDup_cons_iff in N. cbn [In] in N. cbn [map]. rewrite !NoDup_cons_iff. cbn [In].
    unfold f_read. destruct (k =? 0), (k =? 1); intuition.
  - specialize (Hbl k Hk). unfold bcs_ready. rewrite Forall_forall in Hbl |- *. intros b Hb. destruct (Hbl b Hb) as (X1 & ds & X2 & X3). split; [exact X1|].
    exists ds. split; [exact X2|]. eapply ready_bc; eauto.
    + intros x Hx. apply Sub. apply X1 in Hx. cbn in Hx |- *. intuition.
    + apply Forall_forall. intros x Hx. apply comps_four. apply X1 in Hx as [<-|[<-|[<-|[]]]]; lia.
  - intros d Hd. apply in_seq in Hd. destruct (Hbc k d Hk ltac:(lia)) as (X1 & X2 & X3). auto.
  - intros d Hd. apply in_seq in Hd. destruct (Hbc k d Hk ltac:(lia)) as (X1 & X2 & X3). auto.
Qed.

End Run.
