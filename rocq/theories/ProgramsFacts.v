(** * ProgramsFacts: the example programs carry out their method. *)
From Coq Require Import ZArith List String Bool Lia Reals Lra.
From Verif Require Import Base BaseFacts BoxSpec BoxFacts Range RangeSpec RangeFacts Indexer IndexerFacts Interface InterfaceFacts ApiSpec ApiFacts
  Arith ArithR Chunk FieldSpec FieldFacts ChunkFacts VarId Manager MgrSpec MgrFacts Solvers SolverFacts BC BCSpec BCFacts Par ParFacts Kernel KernelFacts
  Integrators IntegratorSpec IntegratorFacts Sweep SweepSpec SweepFacts Euler Maxwell FluxFacts EulerSpec NumFacts Sources SourceSpec SourceFacts
  Advection AdvectionSpec AdvectionFacts Programs ProgramsSpec.
Import ListNotations.
Open Scope Z_scope.

Section System.
Context {F : Type} {A : Arith F}.
Notation fld := (field F).

Lemma obind_assoc : forall S (o : out S) (f g : S -> out S), obind (obind o f) g = obind o (fun s => obind (f s) g).
Proof. intros S [s|e s|k|] f g; reflexivity. Qed.
Lemma obind_done : forall S (o : out S), obind o Done = o.
Proof. intros S [s|e s|k|]; reflexivity. Qed.
Lemma obind_ext : forall S (o : out S) (f g : S -> out S), (forall s, f s = g s) -> obind o f = obind o g.
Proof. intros S [s|e s|k|] f g H; cbn; auto. Qed.

Lemma same_run_trans : forall (a b c : mgr F), same_run a b -> same_run b c -> same_run a c.
Proof. unfold same_run. intuition congruence. Qed.
Lemma same_run_refl : forall (a : mgr F), same_run a a.
Proof. unfold same_run. auto. Qed.

Lemma get_name : forall (L : list (vid * fld)) a b, id_name a = id_name b -> field_get L a = field_get L b.
Proof. induction L as [|[k u] L IH]; intros a b H; cbn; auto. rewrite H, (IH a b H). reflexivity. Qed.

(** Stages of the integrator. *)
Definition f_write (k : Z) (f : family) : vid := if k =? 0 then f_1 f else if k =? 1 then f_2 f else f_3 f.
Definition stage (k : Z) (dt : F) (w0 wk r : fld) : fld := fun c =>
  (if (k =? 0)%Z then w0 c + dt * r c
   else if (k =? 1)%Z then fdec 75 (-2) * w0 c + fdec 25 (-2) * wk c + fdec 25 (-2) * dt * r c
   else (w0 c + fofz 2 * (wk c + dt * r c)) / fofz 3)%F.

Definition fam_ok (M : box) (f : family) : Prop :=
  NoDup (map id_name (f_ids f)) /\ Forall (fun k => comp_box k = comp_box (f_0 f)) (f_ids f) /\ id_fits M (f_0 f).

Lemma in_interior_grow : forall M k c, id_fits M k -> in_box (M ++ comp_box k) c -> in_box (grow 2 M ++ comp_box k) c.
Proof.
  intros M k c S H. eapply box_incl_in; [|exact H]. apply box_incl_app; [apply box_incl_grow; apply S|apply box_incl_refl].
Qed.

Lemma integrate_one : forall fuel (m : mgr F) M L f ks k dt w0 wk r,
  state_ok m M L ks -> fam_ok M f -> incl (f_ids f) ks -> (1 <= fuel)%nat -> 0 <= k <= 2 -> mg_dt m = Some dt ->
  interior_is M L (f_0 f) w0 -> interior_is M L (f_read k f) wk -> interior_is M L (f_rhs f) r ->
  exists m' L', integrate true fuel k f m = Done m' /\ state_ok m' M L' ks /\ same_run m m' /\
    interior_is M L' (f_write k f) (stage k dt w0 wk r) /\
    (forall q u, id_name q <> id_name (f_write k f) -> field_get L q = Some u -> field_get L' q = Some u) /\
    (forall q, ~ In (id_name q) (map id_name [f_1 f; f_2 f; f_3 f]) -> field_get L' q = field_get L q).
Proof.
  intros fuel m M L f ks k dt w0 wk r (Hm & HL & Hc) (Hn & Hb & Hf) Hi Hfu Hk Hdt (u0 & G0 & E0) (uk & Gk & Ek) (ur & Gr & Er).
  destruct f as [q0 q1 q2 q3 qr]. unfold f_ids in *. cbn [f_0 f_1 f_2 f_3 f_rhs] in *.
  cbn [map] in Hn. inversion Hn as [|? ? A1 A2]; subst. inversion A2 as [|? ? B1 B2]; subst.
  inversion B2 as [|? ? C1 C2]; subst. inversion C2 as [|? ? D1 D2]; subst. inversion D2 as [|? ? E1 _]; subst. cbn in A1, B1, C1, D1, E1.
  inversion Hb as [|? ? _ Hb1]; subst. inversion Hb1 as [|? ? K1 Hb2]; subst. inversion Hb2 as [|? ? K2 Hb3]; subst.
  inversion Hb3 as [|? ? K3 Hb4]; subst. inversion Hb4 as [|? ? Kr _]; subst.
  assert (Fit : forall q, comp_box q = comp_box q0 -> id_fits M q) by (intros q Eq; unfold id_fits; now rewrite Eq).
  destruct (api_ssprk3 m M L fuel q0 qr q1 q2 q3 [] k dt u0 ur ks) as (m' & L' & S1 & S2 & S3); auto.
  { intros x Hx. apply Hi. cbn in *. tauto. }
  { assert (k = 0 \/ k = 1 \/ k = 2) as [->|[->| ->]] by lia; unfold stage_out, stage_reads; cbn [Z.eqb Pos.eqb];
      repeat constructor; try congruence; intuition congruence. }
  destruct S3 as (T1 & T2 & T3 & T4 & T5 & v & Hv & Ev).
  assert (So : stage_out q1 q2 q3 k = f_write k (mkFam q0 q1 q2 q3 qr)) by reflexivity.
  rewrite So in *. exists m', L'. split; [exact S1|]. split; [split; [exact T1|split; [exact T2|exact S2]]|]. split; [exact T3|]. split.
  - exists v. split; [exact Hv|]. intros c Hcc.
    assert (Cw : comp_box (f_write k (mkFam q0 q1 q2 q3 qr)) = comp_box q0).
    { unfold f_write. cbn. destruct (k =? 0), (k =? 1); assumption. }
    rewrite Ev by (apply in_interior_grow; auto). rewrite Cw in Hcc.
    unfold stage_val, stage. unfold f_read in Gk, Ek. cbn [f_0 f_1 f_2] in Gk, Ek.
    assert (k = 0 \/ k = 1 \/ k = 2) as [->|[->| ->]] by lia; cbn [Z.eqb Pos.eqb] in *.
    + rewrite E0 by assumption. rewrite Er by (rewrite Kr; assumption). reflexivity.
    + unfold field_or_zero. rewrite Gk. rewrite E0 by assumption. rewrite Er by (rewrite Kr; assumption). rewrite Ek by (rewrite K1; assumption). reflexivity.
    + unfold field_or_zero. rewrite Gk. rewrite E0 by assumption. rewrite Er by (rewrite Kr; assumption). rewrite Ek by (rewrite K2; assumption). reflexivity.
  - split; [|exact T4]. intros q u Nq Gq.
    destruct (in_dec string_dec (id_name q) (map id_name [q1; q2; q3])) as [Hin|Hout].
    + apply in_map_iff in Hin as (q' & Eq & Hq'). rewrite <- (get_name L' q' q Eq).
      rewrite T5 by (auto; congruence). unfold field_or_zero. rewrite (get_name L q' q Eq), Gq. reflexivity.
    + rewrite T4 by assumption. exact Gq.
Qed.

(** All unknowns. *)
Definition names (ks : list vid) : list string := map id_name ks.

Lemma nodup_app : forall X (l l' : list X), NoDup (l ++ l') -> NoDup l /\ NoDup l' /\ forall x, In x l -> In x l' -> False.
Proof.
  induction l as [|y l IH]; intros l' N; cbn in N; [split; [constructor|]; split; [exact N|]; intros x []|].
  inversion N as [|? ? N1 N2]; subst. destruct (IH l' N2) as (H1 & H2 & H3). split; [|split; [exact H2|]].
  - constructor; auto. intros X'. apply N1, in_or_app. now left.
  - intros x [->|Hx] Hx'; [apply N1, in_or_app; now right|eauto].
Qed.

Lemma fams_cons : forall M f fams, families_ok M (f :: fams) -> fam_ok M f /\ families_ok M fams /\
  (forall a b, In a (f_ids f) -> In b (flat_map f_ids fams) -> id_name a <> id_name b).
Proof.
  intros M f fams (Hn & Hf). inversion Hf as [|? ? [H1 H2] H3]; subst. change (flat_map f_ids (f :: fams)) with (f_ids f ++ flat_map f_ids fams) in Hn.
  rewrite map_app in Hn. split; [|split].
  - split; [|split; assumption]. exact (proj1 (nodup_app _ _ _ Hn)).
  - split; [|exact H3]. exact (proj1 (proj2 (nodup_app _ _ _ Hn))).
  - intros a b Ha Hb E. apply (proj2 (proj2 (nodup_app _ _ _ Hn)) (id_name a)); [now apply in_map|]. rewrite E. now apply in_map.
Qed.

Lemma f_read_in : forall k f, In (f_read k f) (f_ids f).
Proof. intros k [q0 q1 q2 q3 r]. unfold f_read, f_ids. cbn. destruct (k =? 0), (k =? 1); cbn; auto. Qed.
Lemma f_write_in : forall k f, In (f_write k f) (f_ids f).
Proof. intros k [q0 q1 q2 q3 r]. unfold f_write, f_ids. cbn. destruct (k =? 0), (k =? 1); cbn; auto. Qed.
Lemma f_write_123 : forall k f, In (f_write k f) [f_1 f; f_2 f; f_3 f].
Proof. intros k [q0 q1 q2 q3 r]. unfold f_write. cbn. destruct (k =? 0), (k =? 1); cbn; auto. Qed.

Lemma interior_keep : forall M (L L' : list (vid * fld)) k w, (forall u, field_get L k = Some u -> field_get L' k = Some u) ->
  interior_is M L k w -> interior_is M L' k w.
Proof. intros M L L' k w H (u & G & E). exists u. auto. Qed.

Lemma integrate_all : forall fuel M ks k dt fams (m : mgr F) L (U V R : sys),
  state_ok m M L ks -> families_ok M fams -> incl (flat_map f_ids fams) ks -> (1 <= fuel)%nat -> 0 <= k <= 2 -> mg_dt m = Some dt ->
  sys_is M L (map f_0 fams) U -> sys_is M L (map (f_read k) fams) V -> sys_is M L (map f_rhs fams) R ->
  exists m' L', ofold (integrate true fuel k) fams m = Done m' /\ state_ok m' M L' ks /\ same_run m m' /\
    sys_is M L' (map (f_write k) fams) (fun i => stage k dt (U i) (V i) (R i)) /\
    (forall q u, ~ In (id_name q) (names (map (f_write k) fams)) -> field_get L q = Some u -> field_get L' q = Some u) /\
    (forall q, ~ In (id_name q) (names (flat_map f_ids fams)) -> field_get L' q = field_get L q).
Proof.
  intros fuel M ks k dt. induction fams as [|f fams IH]; intros m L U V R Hs Hf Hi Hfu Hk Hdt HU HV HR.
  - exists m, L. split; [reflexivity|]. split; [exact Hs|]. split; [apply same_run_refl|]. split; [intros [|i] q; discriminate|]. auto.
  - apply fams_cons in Hf as (F1 & F2 & F3). cbn [ofold].
    change (flat_map f_ids (f :: fams)) with (f_ids f ++ flat_map f_ids fams) in *.
    destruct (integrate_one fuel m M L f ks k dt (U 0%nat) (V 0%nat) (R 0%nat)) as (m1 & L1 & I1 & I2 & I3 & I4 & I5 & I6); auto.
    { intros x Hx. apply Hi, in_or_app. now left. }
    rewrite I1. cbn [obind].
    assert (Keep : forall q w, In q (flat_map f_ids fams) -> interior_is M L q w -> interior_is M L1 q w).
    { intros q w Hq. apply interior_keep. intros u. apply I5. intros E. apply (F3 (f_write k f) q); auto using f_write_in. }
    assert (Inm : forall (g : family -> vid), (forall f, In (g f) (f_ids f)) -> forall i q, nth_error (map g fams) i = Some q -> In q (flat_map f_ids fams)).
    { intros g Hg i q E. apply nth_error_In, in_map_iff in E as (f' & <- & Hf'). apply in_flat_map. exists f'. auto. }
    destruct (IH m1 L1 (fun i => U (S i)) (fun i => V (S i)) (fun i => R (S i))) as (m2 & L2 & J1 & J2 & J3 & J4 & J5 & J6); auto.
    { intros x Hx. apply Hi, in_or_app. now right. }
    { destruct I3 as (_ & E & _). congruence. }
    { intros i q E. apply Keep; [eapply (Inm f_0); eauto; intros; cbn; auto|]. now apply (HU (S i)). }
    { intros i q E. apply Keep; [eapply (Inm (f_read k)); eauto using f_read_in|]. now apply (HV (S i)). }
    { intros i q E. apply Keep; [eapply (Inm f_rhs); eauto; intros; unfold f_ids; cbn; auto 6|]. now apply (HR (S i)). }
    exists m2, L2. split; [exact J1|]. split; [exact J2|]. split; [eapply same_run_trans; eauto|]. split; [|split].
    + intros [|i] q E; [|now apply J4]. cbn in E. injection E as <-.
      eapply interior_keep; [|exact I4]. intros u. apply J5. intros Hin. apply in_map_iff in Hin as (q' & E1 & E2).
      apply in_map_iff in E2 as (f' & <- & Hf'). apply (F3 (f_write k f) (f_write k f')); auto using f_write_in.
      apply in_flat_map. exists f'. auto using f_write_in.
    + intros q u Nq Gq. apply J5; [|apply I5; auto]; intros X; apply Nq; cbn; auto.
    + intros q Nq. unfold names in Nq. rewrite map_app in Nq. rewrite J6 by (intros X; apply Nq, in_or_app; now right).
      apply I6. intros X. apply Nq, in_or_app. left. unfold f_ids. cbn in *. tauto.
Qed.

(** The exchange at the end of a step. *)
Lemma ids_swaps : forall ps (L : list (vid * fld)), incl (ids (fold_left swap_fields ps L)) (ids L ++ flat ps).
Proof.
  induction ps as [|[a b] ps IH]; intros L x Hx; cbn [fold_left flat] in *.
  - apply in_or_app. now left.
  - apply IH in Hx. rewrite in_app_iff in *. destruct Hx as [Hx|Hx]; [|cbn; auto].
    unfold swap_fields in Hx. cbn [fst snd] in Hx. apply ids_set_in in Hx as [Hx| ->]; [|cbn; auto].
    apply ids_set_in in Hx as [Hx| ->]; cbn; auto.
Qed.

Lemma swaps_other : forall ps (L : list (vid * fld)) q, ~ In (id_name q) (names (flat ps)) ->
  field_get (fold_left swap_fields ps L) q = field_get L q.
Proof.
  induction ps as [|[a b] ps IH]; intros L q H; cbn [fold_left flat] in *; auto.
  rewrite IH by (intros X; apply H; cbn; auto). unfold swap_fields. cbn [fst snd]. cbn in H.
  rewrite !field_get_set_other by (intros X; apply H; auto). reflexivity.
Qed.

Lemma swaps_get : forall ps (L : list (vid * fld)) a b, NoDup (names (flat ps)) -> In (a, b) ps ->
  field_get (fold_left swap_fields ps L) a = Some (field_or_zero L b).
Proof.
  induction ps as [|[a0 b0] ps IH]; intros L a b N H; [destruct H|]. cbn [fold_left flat] in *.
  inversion N as [|? ? N1 N2]; subst. inversion N2 as [|? ? N3 N4]; subst. cbn in N1, N3.
  destruct H as [H|H].
  - injection H as -> ->. rewrite swaps_other by tauto.
    apply (swap_fields_get L a b). intros E. exfalso. apply N1. auto.
  - rewrite (IH _ a b) by assumption. f_equal. unfold field_or_zero, swap_fields. cbn [fst snd].
    assert (Hb : In (id_name b) (names (flat ps))).
    { clear - H. induction ps as [|[x y] ps IH]; [destruct H|]. destruct H as [H|H]; cbn; [injection H as -> ->; auto|]. right. right. auto. }
    rewrite !field_get_set_other; [reflexivity| |]; intros E; rewrite <- E in Hb; tauto.
Qed.

Definition swaps (fams : list family) : list (vid * vid) := map (fun f => (f_0 f, f_3 f)) fams.

Lemma swaps_nodup : forall M fams, families_ok M fams -> NoDup (names (flat (swaps fams))).
Proof.
  intros M fams. induction fams as [|f fams IH]; intros H; cbn; [constructor|].
  apply fams_cons in H as ((N & _) & H2 & H3). specialize (IH H2).
  assert (Sub : forall q, In q (flat (swaps fams)) -> In q (flat_map f_ids fams)).
  { clear. induction fams as [|f fams IH]; intros q Hq; [destruct Hq|]. cbn in Hq. apply in_flat_map.
    destruct Hq as [<-|[<-|Hq]]; [exists f; cbn; auto 6..|]. apply IH, in_flat_map in Hq as (f' & H1 & H2). exists f'. cbn. auto. }
  unfold f_ids in N. cbn in N. inversion N as [|? ? N1 _]; subst. cbn in N1.
  constructor; [|constructor; [|exact IH]].
  - cbn. intros [E|E]; [apply N1; auto|]. apply in_map_iff in E as (q & E1 & E2). apply (H3 (f_0 f) q); auto. unfold f_ids. cbn. auto.
  - intros E. apply in_map_iff in E as (q & E1 & E2). apply (H3 (f_3 f) q); auto. unfold f_ids. cbn. auto 6.
Qed.

Lemma swaps_ids : forall fams, incl (flat (swaps fams)) (flat_map f_ids fams).
Proof.
  induction fams as [|f fams IH]; intros q Hq; [destruct Hq|]. cbn in Hq. apply in_flat_map.
  destruct Hq as [<-|[<-|Hq]]; [exists f; cbn; auto 6..|]. apply IH, in_flat_map in Hq as (f' & H1 & H2). exists f'. cbn. auto.
Qed.

(** ** one step, any number of steps *)

Definition sys_step (fuel : nat) (P : Z -> mgr F -> out (mgr F)) (fams : list family) (m : mgr F) : out (mgr F) :=
  obind (ofold (fun k m => obind (P k m) (ofold (integrate true fuel k) fams)) [0; 1; 2] m) (swap_solve (flat (swaps fams))).

Section Step.
Variables (fuel : nat) (P : Z -> mgr F -> out (mgr F)) (fams : list family) (gr : grid F) (dt : F) (M : box) (ks : list vid) (Op : @sys F -> @sys F).
Hypothesis Hf : families_ok M fams.
Hypothesis Hi : incl (flat_map f_ids fams) ks.
Hypothesis Hfu : (1 <= fuel)%nat.
Hypothesis HP : forall k, 0 <= k <= 2 -> computes_sys (P k) gr dt M ks (map (f_read k) fams) (map f_rhs fams) Op.

Lemma name_inj : forall a b, In a (flat_map f_ids fams) -> In b (flat_map f_ids fams) -> id_name a = id_name b -> a = b.
Proof.
  destruct Hf as [N _]. intros a b Ha Hb E. revert N Ha Hb. generalize (flat_map f_ids fams). clear - E.
  induction l as [|x l IH]; intros N Ha Hb; [destruct Ha|]. inversion N as [|? ? N1 N2]; subst.
  destruct Ha as [<-|Ha], Hb as [<-|Hb]; auto; exfalso; apply N1; [rewrite E|rewrite <- E]; now apply in_map.
Qed.

(** f_0, f_1, f_2, f_3, f_rhs of two families have different names. *)
Lemma fam_names : forall (g h : family -> vid), (forall f, In (g f) (f_ids f)) -> (forall f, In (h f) (f_ids f)) ->
  (forall M f, fam_ok M f -> id_name (g f) <> id_name (h f)) ->
  forall f, In f fams -> ~ In (id_name (g f)) (names (map h fams)).
Proof.
  intros g h Hg Hh Hgh. revert Hf. clear - Hg Hh Hgh. induction fams as [|f0 fams' IH]; intros Hf f Hin; [destruct Hin|].
  apply fams_cons in Hf as (F1 & F2 & F3). cbn [map names]. intros X.
  assert (Sub : forall f', In f' fams' -> forall g : family -> vid, (forall f, In (g f) (f_ids f)) -> In (g f') (flat_map f_ids fams')).
  { intros f' Hf' g' Hg'. apply in_flat_map. exists f'. auto. }
  destruct Hin as [<-|Hin].
  - destruct X as [X|X]; [symmetry in X; revert X; eapply Hgh; eauto|]. apply in_map_iff in X as (q & E1 & E2). apply in_map_iff in E2 as (f' & <- & Hf').
    apply (F3 (g f0) (h f')); auto.
  - destruct X as [X|X]; [apply (F3 (h f0) (g f)); auto|]. revert X. now apply IH.
Qed.

Ltac fam_solve := intros ? [] [N _]; unfold f_ids in N; cbn in N |- *;
  repeat match goal with H : NoDup (_ :: _) |- _ => inversion H; clear H; subst end; cbn in *; intuition congruence.

Lemma sys_keep : forall (L L' : list (vid * fld)) (g : family -> vid) U,
  (forall f, In f fams -> forall u, field_get L (g f) = Some u -> field_get L' (g f) = Some u) ->
  sys_is M L (map g fams) U -> sys_is M L' (map g fams) U.
Proof.
  intros L L' g U H HU i q E. eapply interior_keep; [|apply HU; exact E]. apply nth_error_In, in_map_iff in E as (f & <- & Hin). now apply H.
Qed.

Theorem sys_step_ok : forall m L U, state_ok m M L ks -> mg_grid m = gr -> mg_dt m = Some dt -> sys_is M L (map f_0 fams) U ->
  exists m' L', sys_step fuel P fams m = Done m' /\ state_ok m' M L' ks /\ same_run m m' /\
    sys_is M L' (map f_0 fams) (rk3 Op dt U) /\
    forall q, ~ In (id_name q) (names (flat_map f_ids fams)) -> field_get L' q = field_get L q.
Proof.
  intros m L U Hs Hg Hd HU. unfold sys_step. cbn [ofold].
  assert (I0 : forall f, In (f_0 f) (f_ids f)) by (intros; unfold f_ids; cbn; auto).
  assert (I1 : forall f, In (f_1 f) (f_ids f)) by (intros; unfold f_ids; cbn; auto).
  assert (I2 : forall f, In (f_2 f) (f_ids f)) by (intros; unfold f_ids; cbn; auto).
  assert (I3 : forall f, In (f_3 f) (f_ids f)) by (intros; unfold f_ids; cbn; auto 6).
  assert (Ir : forall f, In (f_rhs f) (f_ids f)) by (intros; unfold f_ids; cbn; auto 6).
  assert (Out : forall g : family -> vid, (forall f, In (g f) (f_ids f)) -> forall q, ~ In (id_name q) (names (flat_map f_ids fams)) -> ~ In (id_name q) (names (map g fams))).
  { intros g Hg' q Nq X. apply Nq. apply in_map_iff in X as (q' & E1 & E2). apply in_map_iff in E2 as (f & <- & Hin).
    apply in_map_iff. exists (g f). split; auto. apply in_flat_map. eauto. }
  (* stage 0 *)
  destruct (HP 0 ltac:(lia) m L U Hs Hg Hd HU) as (m1 & L1 & R1 & S1 & Q1 & V1 & W1 & O1).
  destruct (integrate_all fuel M ks 0 dt fams m1 L1 U U (Op U)) as (m2 & L2 & R2 & S2 & Q2 & V2 & K2 & O2); auto; [lia|destruct Q1 as (_ & E & _); congruence|].
  rewrite R1. cbn [obind]. rewrite R2. cbn [obind].
  pose proof (same_run_trans _ _ _ Q1 Q2) as T2.
  set (U1 := fun i c => (U i c + dt * Op U i c)%F) in *.
  change (sys_is M L2 (map f_1 fams) U1) in V2.
  assert (Z0 : sys_is M L2 (map f_0 fams) U).
  { eapply sys_keep; [|exact V1]. intros f Hin u. apply K2. apply (fam_names f_0 f_1); auto. fam_solve. }
  (* stage 1 *)
  destruct (HP 1 ltac:(lia) m2 L2 U1 S2) as (m3 & L3 & R3 & S3 & Q3 & V3 & W3 & O3); auto.
  { destruct T2 as (E & _). congruence. } { destruct T2 as (_ & E & _). congruence. }
  pose proof (same_run_trans _ _ _ T2 Q3) as T3.
  assert (Z0' : sys_is M L3 (map f_0 fams) U).
  { eapply sys_keep; [|exact Z0]. intros f Hin u E. rewrite O3; auto.
    - apply (fam_names f_0 f_1); auto. fam_solve.
    - apply (fam_names f_0 f_rhs); auto. fam_solve. }
  destruct (integrate_all fuel M ks 1 dt fams m3 L3 U U1 (Op U1)) as (m4 & L4 & R4 & S4 & Q4 & V4 & K4 & O4); auto; [lia|destruct T3 as (_ & E & _); congruence|].
  rewrite R3. cbn [obind]. rewrite R4. cbn [obind].
  pose proof (same_run_trans _ _ _ T3 Q4) as T4.
  set (U2 := fun i c => (fdec 75 (-2) * U i c + fdec 25 (-2) * U1 i c + fdec 25 (-2) * dt * Op U1 i c)%F) in *.
  change (sys_is M L4 (map f_2 fams) U2) in V4.
  assert (Z1 : sys_is M L4 (map f_0 fams) U).
  { eapply sys_keep; [|exact Z0']. intros f Hin u. apply K4. apply (fam_names f_0 f_2); auto. fam_solve. }
  (* stage 2 *)
  destruct (HP 2 ltac:(lia) m4 L4 U2 S4) as (m5 & L5 & R5 & S5 & Q5 & V5 & W5 & O5); auto.
  { destruct T4 as (E & _). congruence. } { destruct T4 as (_ & E & _). congruence. }
  pose proof (same_run_trans _ _ _ T4 Q5) as T5.
  assert (Z1' : sys_is M L5 (map f_0 fams) U).
  { eapply sys_keep; [|exact Z1]. intros f Hin u E. rewrite O5; auto.
    - apply (fam_names f_0 f_2); auto. fam_solve.
    - apply (fam_names f_0 f_rhs); auto. fam_solve. }
  destruct (integrate_all fuel M ks 2 dt fams m5 L5 U U2 (Op U2)) as (m6 & L6 & R6 & S6 & Q6 & V6 & K6 & O6); auto; [lia|destruct T5 as (_ & E & _); congruence|].
  rewrite R5. cbn [obind]. rewrite R6. cbn [obind].
  pose proof (same_run_trans _ _ _ T5 Q6) as T6.
  change (sys_is M L6 (map f_3 fams) (rk3 Op dt U)) in V6.
  (* swap *)
  destruct S6 as (Hm6 & HL6 & Hc6).
  destruct (api_swap_solve m6 M L6 (swaps fams) Hm6 HL6) as (m7 & R7 & Q7 & Hm7 & HL7).
  { eapply compat_perm; [exact Hc6|]. intros x Hx. rewrite in_app_iff in *. destruct Hx; auto. right. apply Hi. now apply swaps_ids. }
  { apply Forall_forall. intros p Hp. apply in_map_iff in Hp as (f & <- & Hin). cbn [fst snd]. destruct Hf as [_ Hf2]. rewrite Forall_forall in Hf2.
    destruct (Hf2 f Hin) as [Hb Hfit]. unfold f_ids in Hb. rewrite Forall_forall in Hb.
    assert (E3 : comp_box (f_3 f) = comp_box (f_0 f)) by (apply Hb; cbn; auto 6).
    split; [exact Hfit|]. split; [|now rewrite E3]. unfold id_fits. now rewrite E3. }
  rewrite R7. exists m7, (fold_left swap_fields (swaps fams) L6). split; [reflexivity|]. split; [split; [exact Hm7|split; [exact HL7|]]|split; [eapply same_run_trans; eauto|split]].
  - eapply compat_perm; [exact Hc6|]. intros x Hx. rewrite in_app_iff in *. destruct Hx as [Hx|]; auto.
    apply ids_swaps, in_app_or in Hx as [|Hx]; auto. right. apply Hi. now apply swaps_ids.
  - intros i q E. rewrite nth_error_map in E. destruct (nth_error fams i) as [f|] eqn:Ef; [|discriminate]. injection E as <-.
    destruct (V6 i (f_3 f)) as (v & Gv & Ev). { rewrite nth_error_map, Ef. reflexivity. }
    exists v. split.
    + rewrite (swaps_get (swaps fams) L6 (f_0 f) (f_3 f)).
      * unfold field_or_zero. now rewrite Gv.
      * eapply swaps_nodup; eauto.
      * apply in_map_iff. exists f. split; auto. now apply nth_error_In in Ef.
    + intros c Hc'. apply Ev. apply nth_error_In in Ef. destruct Hf as [_ Hf2]. rewrite Forall_forall in Hf2. destruct (Hf2 f Ef) as [Hb _].
      unfold f_ids in Hb. rewrite Forall_forall in Hb. rewrite (Hb (f_3 f)) by (cbn; auto 6). exact Hc'.
  - intros q Nq. rewrite swaps_other. 2:{ intros X. apply Nq. apply in_map_iff in X as (q' & E1 & E2). apply swaps_ids in E2. apply in_map_iff. eauto. }
    rewrite O6 by assumption. rewrite O5 by (apply Out; auto using f_read_in). rewrite O4 by assumption. rewrite O3 by (apply Out; auto using f_read_in).
    rewrite O2 by assumption. apply O1; apply Out; auto using f_read_in.
Qed.

Theorem time_loop_ok : forall step, (forall m, step m = sys_step fuel P fams m) ->
  forall n t m L U, state_ok m M L ks -> mg_grid m = gr -> mg_dt m = Some dt -> sys_is M L (map f_0 fams) U ->
  exists m' L', time_loop step dt n t m = Done m' /\ state_ok m' M L' ks /\ mg_grid m' = gr /\ mg_dt m' = Some dt /\
    mg_time m' = match n with O => mg_time m | _ => Some (Nat.iter n (fun t => fadd t dt) t) end /\
    sys_is M L' (map f_0 fams) (Nat.iter n (rk3 Op dt) U) /\
    forall q, ~ In (id_name q) (names (flat_map f_ids fams)) -> field_get L' q = field_get L q.
Proof.
  intros step Hstep. assert (Sh : forall X (f : X -> X) n x, Nat.iter n f (f x) = f (Nat.iter n f x)).
  { intros X f n x. induction n as [|n IH]; [reflexivity|]. exact (f_equal f IH). }
  induction n as [|n IH]; intros t m L U Hs Hg Hd HU.
  - exists m, L. split; [reflexivity|]. auto 8.
  - destruct (sys_step_ok m L U Hs Hg Hd HU) as (m1 & L1 & R1 & S1 & (Q1 & Q2 & Q3) & V1 & O1).
    cbn [time_loop]. rewrite Hstep, R1. cbn [obind].
    destruct (IH (fadd t dt) (mgr_set_time m1 (fadd t dt)) L1 (rk3 Op dt U)) as (m2 & L2 & R2 & S2 & G2 & D2 & T2 & V2 & O2).
    + exact S1. + cbn. congruence. + cbn. congruence. + exact V1.
    + exists m2, L2. split; [exact R2|]. split; [exact S2|]. split; [exact G2|]. split; [exact D2|]. split; [|split].
      * rewrite T2. destruct n as [|n']; [reflexivity|]. exact (f_equal Some (Sh _ (fun t => fadd t dt) (S n') t)).
      * rewrite Sh in V2. exact V2.
      * intros q Nq. rewrite O2, O1; auto.
Qed.

End Step.
End System.
