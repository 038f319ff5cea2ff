(** * SolverFacts: boundary, fill and swap solvers on managers. *)
From Coq Require Import ZArith List String Lia Bool.
From Verif Require Import Base BaseFacts BoxSpec BoxFacts Range RangeSpec RangeFacts
  Indexer IndexerFacts Interface InterfaceFacts ApiSpec ApiFacts Arith Chunk FieldSpec FieldFacts ChunkFacts
  VarId Manager MgrSpec MgrFacts BC BCSpec BCFacts Solvers.
Import ListNotations.
Open Scope Z_scope.

Section Solvers.
Context {F : Type} {A : Arith F}.
Notation fld := (field F).

Lemma compat_fitting : forall (L : list (vid * fld)) outs k, compatible (ids L ++ outs) -> In k outs -> fitting L k.
Proof. intros L outs k H Hk k' Hk' E. apply H; auto; rewrite in_app_iff; auto. Qed.

Lemma compat_set : forall (L : list (vid * fld)) k u outs, compatible (ids L ++ k :: outs) ->
  compatible (ids (field_set L k u) ++ outs).
Proof.
  intros L k u outs H a b Ha Hb. apply H; rewrite in_app_iff in *; cbn.
  - destruct Ha as [Ha|Ha]; [|tauto]. rewrite ids_set in Ha. destruct (in_dec _ _ _); [tauto|]. rewrite in_app_iff in Ha. cbn in Ha. tauto.
  - destruct Hb as [Hb|Hb]; [|tauto]. rewrite ids_set in Hb. destruct (in_dec _ _ _); [tauto|]. rewrite in_app_iff in Hb. cbn in Hb. tauto.
Qed.

Lemma fold_apply_in : forall M T outs (L : list (vid * fld)) k,
  compatible (ids L ++ outs) -> In k outs ->
  (forall u, on_cells M k (T k (T k u)) (T k u)) ->
  exists v, field_get (fold_left (apply_to T) outs L) k = Some v /\ on_cells M k v (T k (field_or_zero L k)).
Proof.
  intros M T outs. induction outs as [|o outs IH]; intros L k Hc Hk Hi; [easy|]. cbn [fold_left].
  pose proof (compat_set L o (T o (field_or_zero L o)) outs Hc) as Hc'.
  destruct (string_dec (id_name o) (id_name k)) as [E|E].
  - assert (o = k). { apply Hc; auto; rewrite in_app_iff; cbn; auto. } subst o.
    destruct (in_dec string_dec (id_name k) (map id_name outs)) as [H|H].
    + apply in_map_iff in H as (k' & E' & H). assert (k' = k). { apply Hc; auto; rewrite in_app_iff; cbn; auto. } subst k'.
      destruct (IH _ k Hc' H Hi) as (v & H1 & H2). exists v. split; [exact H1|]. intros c Hin. rewrite H2 by assumption.
      unfold apply_to, field_or_zero at 1. rewrite field_get_set_same. now apply Hi.
    + rewrite fold_apply_other by assumption. unfold apply_to. rewrite field_get_set_same. eexists. split; [reflexivity|].
      intros c _. reflexivity.
  - destruct Hk as [->|Hk]; [congruence|]. destruct (IH _ k Hc' Hk Hi) as (v & H1 & H2).
    exists v. split; [exact H1|]. intros c Hin. rewrite H2 by assumption. unfold apply_to, field_or_zero.
    now rewrite field_get_set_other by assumption.
Qed.

(** Setting a field to an equal one changes nothing. *)
Lemma vars_of_set_same : forall M (L : list (vid * fld)) k u v, fitting L k -> field_get L k = Some u ->
  on_cells M k v u -> vars_of M (field_set L k v) = vars_of M L.
Proof.
  intros M L k u v. induction L as [|[k' u'] L IH]; intros Hk Hg Hv; [discriminate|]. cbn [field_set field_get] in *.
  destruct (String.eqb_spec (id_name k') (id_name k)) as [E|E].
  - assert (k' = k) by (apply Hk; auto; now left). subst. inversion Hg; subst. unfold vars_of. cbn [map fst snd].
    unfold var_of, dataset_of. now rewrite (echunk_of_ext M (comp_box k) 2 v u).
  - cbn. f_equal. apply IH; auto. intros x Hx. apply Hk. now right.
Qed.

Definition settled (M : box) (T : vid -> fld -> fld) (L : list (vid * fld)) (k : vid) : Prop :=
  exists v, field_get L k = Some v /\ on_cells M k (T k v) v.

(** ** solvers given by a transformation of each output *)

Section Each.
Variables (M : box) (fuel : nat) (f : echunk F -> out (echunk F)) (T : vid -> fld -> fld) (outs : list vid).
Hypothesis HT : forall k u, In k outs -> f (echunk_of M (comp_box k) 2 u) = Done (echunk_of M (comp_box k) 2 (T k u)).
Hypothesis Hi : forall k u, In k outs -> on_cells M k (T k (T k u)) (T k u).
Hypothesis Hx : forall k u v, In k outs -> on_cells M k u v -> on_cells M k (T k u) (T k v).
Hypothesis Hfu : (1 <= fuel)%nat.
Hypothesis HM : M <> [].
Definition each := ofold (fun id m => with_output m id (fun n m => map_chunks fuel n f m)) outs.

Lemma ids_fold : forall (o : list vid) (L : list (vid * fld)), incl (ids (fold_left (apply_to T) o L)) (ids L ++ o).
Proof.
  induction o as [|y o IH]; intros L x Hin; [now rewrite app_nil_r|]. cbn [fold_left] in Hin. apply IH in Hin.
  unfold apply_to in Hin. rewrite in_app_iff, ids_set in Hin. rewrite in_app_iff. cbn.
  destruct (in_dec _ _ _); [tauto|]. rewrite in_app_iff in Hin. cbn in Hin. tauto.
Qed.

Lemma each_api : forall (m : mgr F) L, mgr_holds m M L -> fields_ok M L -> compatible (ids L ++ outs) ->
  Forall (id_fits M) outs ->
  exists m' L', each m = Done m' /\ mgr_holds m' M L' /\ fields_ok M L' /\ same_run m m' /\ incl (ids L') (ids L ++ outs) /\
    (forall k, ~ In (id_name k) (map id_name outs) -> field_get L' k = field_get L k) /\
    (forall k, In k outs -> exists v, field_get L' k = Some v /\ on_cells M k v (T k (field_or_zero L k))).
Proof.
  intros m L Hm HL Hc Hf. apply mgr_holds_iff in Hm as [Hg Hm]; auto.
  exists (mgr_of (mg_grid m) M (fold_left (apply_to T) outs L) (mg_dt m) (mg_time m)), (fold_left (apply_to T) outs L).
  assert (HL' : fields_ok M (fold_left (apply_to T) outs L)) by (now apply fields_ok_fold).
  split; [|split; [|split; [|split; [|split; [|split]]]]]; auto.
  - rewrite Hm at 1. now apply each_output_ok.
  - apply mgr_holds_iff; auto.
  - now unfold same_run.
  - apply ids_fold.
  - intros k Hk. now apply fold_apply_other.
  - intros k Hk. apply fold_apply_in; auto.
Qed.

Lemma each_settled : forall gr L dt t, gr_range gr = range_of M -> compatible (ids L ++ outs) -> Forall (id_fits M) outs ->
  (forall k, In k outs -> settled M T L k) -> each (mgr_of gr M L dt t) = Done (mgr_of gr M L dt t).
Proof.
  intros gr L dt t Hg Hc Hf Hs. unfold each. revert Hc Hf Hs HT. clear Hi Hx.
  induction outs as [|k o IH]; intros Hc Hf Hs HT; [reflexivity|].
  cbn [ofold]. inversion Hf; subst.
  assert (Hk : fitting L k) by (eapply compat_fitting; eauto; now left).
  rewrite (each_output_step fuel gr M L dt t k f T); auto; [|intros u; apply HT; now left]. cbn [obind].
  destruct (Hs k (or_introl eq_refl)) as (v & Hv & He).
  replace (mgr_of gr M (apply_to T L k) dt t) with (mgr_of gr M L dt t).
  - apply IH; auto.
    + intros a b Ha Hb. apply Hc; rewrite in_app_iff in *; cbn; tauto.
    + intros k' Hk'. apply Hs. now right.
    + intros k' u Hk'. apply HT. now right.
  - unfold mgr_of. f_equal. unfold apply_to, field_or_zero. rewrite Hv. symmetry.
    eapply vars_of_set_same; eauto.
Qed.

Lemma each_idem : forall (m : mgr F) L, mgr_holds m M L -> fields_ok M L -> compatible (ids L ++ outs) ->
  Forall (id_fits M) outs ->
  exists m', each m = Done m' /\ each m' = Done m'.
Proof.
  intros m L Hm HL Hc Hf. destruct (each_api m L Hm HL Hc Hf) as (m' & L' & H1 & H2 & H3 & H4 & HI & H5 & H6).
  exists m'. split; auto. apply mgr_holds_iff in H2 as [H2 E]; auto. rewrite E. apply each_settled; auto.
  - apply mgr_holds_iff in Hm as [Hg Hm]; auto.
    assert (E2 : m' = mgr_of (mg_grid m) M (fold_left (apply_to T) outs L) (mg_dt m) (mg_time m)).
    { assert (X : each m = Done (mgr_of (mg_grid m) M (fold_left (apply_to T) outs L) (mg_dt m) (mg_time m)))
        by (rewrite Hm at 1; now apply each_output_ok). congruence. }
    assert (EI : ids L' = ids (fold_left (apply_to T) outs L)).
    { assert (V : forall X : list (vid * fld), map fst (vars_of M X) = ids X).
      { intros X. unfold vars_of, ids. rewrite map_map. reflexivity. }
      rewrite <- !V. f_equal. rewrite E in E2. now inversion E2. }
    rewrite EI. clear - Hc. revert L Hc. induction outs as [|k o IH]; intros L Hc; [exact Hc|].
    cbn [fold_left]. intros a b Ha Hb. apply (compat_set L k (T k (field_or_zero L k)) o) in Hc as Hc'.
    specialize (IH _ Hc').
    assert (G : forall x, In x (ids (fold_left (apply_to T) o (apply_to T L k)) ++ k :: o) ->
                In x (ids L ++ k :: o)).
    { clear. intros x Hin. rewrite in_app_iff in Hin. destruct Hin as [Hin|Hin]; [|apply in_app_iff; now right].
      assert (Q : forall o' (L : list (vid * fld)) x, In x (ids (fold_left (apply_to T) o' L)) -> In x (ids L ++ o')).
      { clear. induction o' as [|y o' IH]; intros L x Hin; [now rewrite app_nil_r|]. cbn [fold_left] in Hin. apply IH in Hin.
        unfold apply_to in Hin. rewrite in_app_iff, ids_set in Hin. rewrite in_app_iff. cbn.
        destruct (in_dec _ _ _); [tauto|]. rewrite in_app_iff in Hin. cbn in Hin. tauto. }
      apply Q in Hin. unfold apply_to in Hin. rewrite in_app_iff, ids_set in Hin. rewrite in_app_iff. cbn.
      destruct (in_dec _ _ _); [tauto|]. rewrite in_app_iff in Hin. cbn in Hin. tauto. }
    apply Hc; apply G; assumption.
  - intros k Hk. destruct (H6 k Hk) as (v & Hv & He). exists v. split; auto.
    intros c Hin. rewrite (Hx k v _ Hk He c Hin). rewrite (Hi k _ Hk c Hin). symmetry. now apply He.
Qed.
End Each.

(** ** boundary solvers *)

Lemma bc_set_ext : forall M D g k dims (u v w : fld), shape M D g -> wide M g dims ->
  ghosts_set M D g dims (fun d => low_value k M d u) (fun d => up_value k M d u) u w ->
  (forall c, in_box (grow g M ++ D) c -> v c = w c) ->
  ghosts_set M D g dims (fun d => low_value k M d u) (fun d => up_value k M d u) u v.
Proof.
  intros M D g k dims u v w S Hw (H1 & H2 & H3) E.
  assert (Hg : 0 <= g) by apply S.
  split; [|split].
  - intros d c Hd Hc. rewrite E; [now apply H1|]. destruct (Hw d Hd) as [Hd' ?].
    pose proof (grow_bounds _ _ _ _ S Hd'). eapply box_incl_in; [|exact Hc]. apply slab_incl_grow; auto; lia.
  - intros d c Hd Hc. rewrite E; [now apply H2|]. destruct (Hw d Hd) as [Hd' ?].
    pose proof (grow_bounds _ _ _ _ S Hd'). eapply box_incl_in; [|exact Hc]. apply slab_incl_grow; auto; lia.
  - intros c Hc Hn. rewrite E by assumption. auto.
Qed.

(** Chunk level. *)
Lemma api_bc_chunk : forall k (e : echunk F) M D g u fuel dims, shape M D g -> 0 < g ->
  chunk_holds e M D g u -> wide M g dims -> comps_ok k D -> prod_len (grow g M ++ D) <= Z.of_nat fuel ->
  exists e' v, bc_chunk k fuel (map Z.of_nat dims) e = Done e' /\ chunk_holds e' M D g v /\
    ghosts_set M D g dims (fun d => low_value k M d u) (fun d => up_value k M d u) u v.
Proof.
  intros k e M D g u fuel dims S Hg He Hw Hk Hf. apply chunk_holds_iff in He; auto. subst e.
  exists (echunk_of M D g (bc_all M D g k dims u)), (bc_all M D g k dims u). splits.
  - now apply bc_chunk_ok.
  - now apply chunk_holds_iff.
  - apply bc_all_spec; auto.
Qed.

Lemma id_fits_M : forall M k, id_fits M k -> M <> [].
Proof. intros M k H. apply H. Qed.
Lemma fits_fuel : forall M k fuel, id_fits M k -> prod_len (grow 2 M ++ comp_box k) <= Z.of_nat fuel -> (1 <= fuel)%nat.
Proof.
  intros M k fuel S H. pose proof (shape_valid _ _ _ S) as (_ & N & _). pose proof (prod_len_pos _ N). lia.
Qed.

Lemma api_bc_solve : forall k (m : mgr F) M L fuel dims outs,
  mgr_holds m M L -> fields_ok M L -> compatible (ids L ++ outs) -> bc_ready k M fuel dims outs ->
  exists m' L', bc_solve k fuel (map Z.of_nat dims) outs m = Done m' /\ mgr_holds m' M L' /\ fields_ok M L' /\ same_run m m' /\ incl (ids L') (ids L ++ outs) /\
    (forall id, ~ In (id_name id) (map id_name outs) -> field_get L' id = field_get L id) /\
    (forall id, In id outs -> exists v, field_get L' id = Some v /\
       ghosts_set M (comp_box id) 2 dims (fun d => low_value k M d (field_or_zero L id))
         (fun d => up_value k M d (field_or_zero L id)) (field_or_zero L id) v) /\
    bc_solve k fuel (map Z.of_nat dims) outs m' = Done m'.
Proof.
  intros k m M L fuel dims outs Hm HL Hc [Hw Hr].
  destruct outs as [|o outs].
  { exists m, L. splits; auto; try easy; try apply HL; try apply Hm. now apply incl_appl, incl_refl. }
  assert (Ho : In o (o :: outs)) by (now left).
  pose proof (proj1 (Forall_forall _ _) Hr) as HR.
  destruct (HR o Ho) as (O1 & O2 & O3).
  assert (HM : M <> []) by (eapply id_fits_M; eauto). assert (Hfu : (1 <= fuel)%nat) by (eapply fits_fuel; eauto).
  set (T := fun (id : vid) (u : fld) => bc_all M (comp_box id) 2 k dims u).
  assert (HT : forall id u, In id (o :: outs) -> bc_chunk k fuel (map Z.of_nat dims) (echunk_of M (comp_box id) 2 u) =
                Done (echunk_of M (comp_box id) 2 (T id u))).
  { intros id u Hid. destruct (HR id Hid) as (P1 & P2 & P3). apply bc_chunk_ok; auto. lia. }
  assert (Hi : forall id u, In id (o :: outs) -> on_cells M id (T id (T id u)) (T id u)).
  { intros id u Hid c Hin. destruct (HR id Hid) as (P1 & P2 & P3). apply bc_all_idem; auto; lia. }
  assert (Hx : forall id u v, In id (o :: outs) -> on_cells M id u v -> on_cells M id (T id u) (T id v)).
  { intros id u v Hid E c Hin. destruct (HR id Hid) as (P1 & P2 & P3). apply bc_all_ext; auto; lia. }
  assert (Hf : Forall (id_fits M) (o :: outs)) by (eapply Forall_impl; [|exact Hr]; cbn; tauto).
  destruct (each_api M fuel (bc_chunk k fuel (map Z.of_nat dims)) T (o :: outs) HT Hi Hfu HM m L Hm HL Hc Hf)
    as (m' & L' & H1 & H2 & H3 & H4 & HI & H5 & H6).
  exists m', L'. split; [exact H1|]. split; [exact H2|]. split; [exact H3|]. split; [exact H4|]. split; [exact HI|]. split; [exact H5|]. split.
  - intros id Hid. destruct (H6 id Hid) as (v & Hv & He). exists v. split; auto.
    destruct (HR id Hid) as (P1 & P2 & P3). eapply bc_set_ext; eauto. apply bc_all_spec; auto. lia.
  - destruct (each_idem M fuel (bc_chunk k fuel (map Z.of_nat dims)) T (o :: outs) HT Hi Hx Hfu HM m L Hm HL Hc Hf) as (m2 & E1 & E2).
    assert (m2 = m') by congruence. subst. exact E2.
Qed.

(** ** fill *)

Lemma api_fill_solve : forall (m : mgr F) M L fuel x outs,
  mgr_holds m M L -> fields_ok M L -> compatible (ids L ++ outs) -> Forall (id_fits M) outs -> (1 <= fuel)%nat ->
  exists m' L', fill_solve fuel x outs m = Done m' /\ mgr_holds m' M L' /\ fields_ok M L' /\ same_run m m' /\ incl (ids L') (ids L ++ outs) /\
    (forall id, ~ In (id_name id) (map id_name outs) -> field_get L' id = field_get L id) /\
    (forall id, In id outs -> exists v, field_get L' id = Some v /\
       forall c, in_box (grow 2 M ++ comp_box id) c -> v c = x).
Proof.
  intros m M L fuel x outs Hm HL Hc Hf Hfu.
  destruct outs as [|o outs].
  { exists m, L. splits; auto; try easy; try apply HL; try apply Hm. now apply incl_appl, incl_refl. }
  assert (HM : M <> []) by (inversion Hf; subst; eapply id_fits_M; eauto).
  destruct (each_api M fuel (fun e => Done (ec_with e (iface_fill_all x (ec_if e)))) (fun _ _ _ => x) (o :: outs))
    with (m := m) (L := L) as (m' & L' & H1 & H2 & H3 & H4 & HI & H5 & H6); auto.
  - intros k u _. now rewrite ec_if_of, fill_all_of.
  - intros k u _ c _. reflexivity.
  - exists m', L'. split; [exact H1|]. split; [exact H2|]. split; [exact H3|]. split; [exact H4|]. split; [exact HI|]. split; [exact H5|].
    intros id Hid. destruct (H6 id Hid) as (v & Hv & He). exists v. split; auto.
Qed.

(** ** swap *)

Lemma set_chunks_ok : forall gr M (L : list (vid * fld)) dt t n k u i, nth_error L n = Some (k, u) ->
  set_chunks (mgr_of gr M L dt t) n i =
  mkMgr gr (upd (vars_of M L) n (k, mkVar (mkDataset i (id_basis k) (range_of (comp_box k)) (range_of M) (range_of M)
     (range_of (one_cell M))) (id_name k) (id_comps k))) dt t.
Proof.
  intros. unfold set_chunks, mgr_of. cbn [mg_vars]. unfold vars_of at 1. now rewrite nth_error_map, H.
Qed.

Lemma nth_error_upd_neq : forall X (l : list X) n m x, n <> m -> nth_error (upd l n x) m = nth_error l m.
Proof. induction l; intros [|n] [|m] x H; simpl; auto; try congruence. Qed.
Lemma nth_error_upd_eq : forall X (l : list X) n x y, nth_error l n = Some y -> nth_error (upd l n x) n = Some x.
Proof. induction l; intros [|n] x y H; simpl in *; auto; try congruence. eauto. Qed.

Lemma swap_vars_ok : forall gr M (L : list (vid * fld)) dt t na nb ka ua kb ub, M <> [] ->
  nth_error L na = Some (ka, ua) -> nth_error L nb = Some (kb, ub) -> comp_box ka = comp_box kb ->
  swap_vars na nb (mgr_of gr M L dt t) = Done (mgr_of gr M (upd (upd L na (ka, ub)) nb (kb, ua)) dt t).
Proof.
  intros gr M L dt t na nb ka ua kb ub HM Ha Hb E. unfold swap_vars.
  rewrite (var_at_of _ _ _ _ _ _ _ _ Ha), (var_at_of _ _ _ _ _ _ _ _ Hb). cbn [liftr v_ds var_of ds_chunks dataset_of].
  unfold iface_swap. cbn [if_range if_data].
  pose proof (one_cell_valid M HM) as V. rewrite range_volume_fit by (now apply valid_fit). cbn [liftr]. rewrite Z.eqb_refl.
  destruct (Nat.eqb_spec na nb) as [->|N].
  - assert (ka = kb /\ ua = ub) as [-> ->] by (split; congruence). unfold mgr_of. do 2 f_equal.
    unfold vars_of. rewrite !upd_map. f_equal.
    assert (Q : forall X (l : list X) n x, nth_error l n = Some x -> upd (upd l n x) n x = l).
    { clear. induction l; intros [|n] x H; simpl in *; try congruence. f_equal. auto. }
    symmetry. apply Q. now rewrite nth_error_map, Hb.
  - rewrite (set_chunks_ok gr M L dt t na ka ua _ Ha).
    set (x := (ka, _)). unfold set_chunks. cbn [mg_vars]. rewrite nth_error_upd_neq by congruence.
    unfold vars_of at 1. rewrite nth_error_map, Hb. cbn [option_map fst snd mg_grid mg_dt mg_time v_name v_comps v_ds var_of ds_basis ds_comp ds_mesh ds_local ds_layout dataset_of].
    unfold mgr_of. do 2 f_equal. unfold vars_of. rewrite !upd_map. subst x. unfold var_of, dataset_of. cbn [fst snd]. rewrite E. reflexivity.
Qed.

Lemma idx_set_some : forall (L : list (vid * fld)) a x b n, idx L b = Some n -> idx (field_set L a x) b = Some n.
Proof.
  intros L a x b. induction L as [|[k u] L IH]; intros n H; [discriminate|]. cbn [field_set idx] in *.
  destruct (String.eqb_spec (id_name k) (id_name a)) as [E|E]; cbn [idx];
  destruct (String.eqb_spec (id_name k) (id_name b)) as [E'|E']; auto.
  destruct (idx L b) eqn:Q; [|discriminate]. now rewrite (IH n0).
Qed.

Lemma set_swap : forall (L : list (vid * fld)) a b na nb ua ub, fitting L a -> fitting L b ->
  (id_name a = id_name b -> a = b) ->
  idx L a = Some na -> idx L b = Some nb -> nth_error L na = Some (a, ua) -> nth_error L nb = Some (b, ub) ->
  field_set (field_set L a ub) b ua = upd (upd L na (a, ub)) nb (b, ua).
Proof.
  intros L a b na nb ua ub Fa Fb Hab Ia Ib Na Nb.
  rewrite (set_existing L a na ua ub Fa Ia Na).
  assert (Ib' : idx (upd L na (a, ub)) b = Some nb).
  { rewrite <- (set_existing L a na ua ub Fa Ia Na). now apply idx_set_some. }
  destruct (Nat.eq_dec na nb) as [->|N].
  - assert (a = b) by congruence. subst b.
    eapply (set_existing _ _ _ ub); eauto.
    + rewrite <- (set_existing L a nb ua ub Fa Ia Na). apply fitting_set; auto.
    + eapply nth_error_upd_eq; eauto.
  - eapply (set_existing _ _ _ ub); eauto.
    + rewrite <- (set_existing L a na ua ub Fa Ia Na). apply fitting_set; auto.
    + rewrite nth_error_upd_neq by congruence. exact Nb.
Qed.

Lemma set_set : forall (L : list (vid * fld)) k x y, field_set (field_set L k x) k y = field_set L k y.
Proof.
  intros L k x y. induction L as [|[k' u] L IH]; cbn [field_set].
  - now rewrite String.eqb_refl.
  - destruct (String.eqb (id_name k') (id_name k)) eqn:E; cbn [field_set]; rewrite E; auto. now rewrite IH.
Qed.

(** Contents after the two requests of a pair. *)
Definition ensure (L : list (vid * fld)) (k : vid) : list (vid * fld) := field_set L k (field_or_zero L k).

Lemma set_same_get : forall (L : list (vid * fld)) k u, fitting L k -> field_get L k = Some u -> field_set L k u = L.
Proof.
  intros L k u. induction L as [|[k' u'] L IH]; intros Hk Hg; [discriminate|]. cbn [field_set field_get] in *.
  destruct (String.eqb_spec (id_name k') (id_name k)) as [E|E].
  - inversion Hg; subst. reflexivity.
  - f_equal. apply IH; auto. intros x Hx. apply Hk. now right.
Qed.

Lemma with_output_ensure : forall gr M (L : list (vid * fld)) dt t k, gr_range gr = range_of M -> fitting L k -> id_fits M k ->
  exists n, idx (ensure L k) k = Some n /\ nth_error (ensure L k) n = Some (k, field_or_zero L k) /\
    forall f, with_output (mgr_of gr M L dt t) k f = f n (mgr_of gr M (ensure L k) dt t).
Proof.
  intros gr M L dt t k Hg Hk Hf. unfold ensure, field_or_zero. destruct (idx L k) as [n|] eqn:E.
  - destruct (idx_some _ _ _ Hk E) as (u & H1 & H2). rewrite H2. rewrite (set_same_get L k u) by assumption.
    exists n. splits; auto. intros f. rewrite with_output_ok by assumption. now rewrite E.
  - destruct (idx_none _ _ E) as [H1 H2]. rewrite H1, set_new by assumption. exists (List.length L). splits.
    + now apply idx_new.
    + rewrite nth_error_app2 by lia. now rewrite Nat.sub_diag.
    + intros f. rewrite with_output_ok by assumption. now rewrite E.
Qed.

Lemma set_comm_ensure : forall (L : list (vid * fld)) a b,
  fitting L a -> fitting L b -> (id_name a = id_name b -> a = b) ->
  field_set (field_set (ensure (ensure L a) b) a (field_or_zero L b)) b (field_or_zero L a) = swap_fields L (a, b).
Proof.
  intros L a b Fa Fb Hab. unfold swap_fields, ensure. cbn [fst snd].
  destruct (string_dec (id_name a) (id_name b)) as [E|E].
  - rewrite <- (Hab E) in *. rewrite !set_set. reflexivity.
  - assert (G : forall (L : list (vid * fld)) x y z, In (id_name a) (map id_name (ids L)) ->
      field_set (field_set (field_set L b y) a x) b z = field_set (field_set L a x) b z).
    { clear - E. induction L as [|[k u] L IH]; intros x y z H; [destruct H|]. cbn [field_set].
      destruct (String.eqb_spec (id_name k) (id_name b)) as [E1|E1]; cbn [field_set];
      destruct (String.eqb_spec (id_name k) (id_name a)) as [E2|E2]; cbn [field_set]; try congruence.
      - destruct (String.eqb_spec (id_name k) (id_name b)); [|congruence]. reflexivity.
      - destruct (String.eqb_spec (id_name k) (id_name b)); [congruence|]. f_equal. apply set_set.
      - destruct (String.eqb_spec (id_name k) (id_name b)); [congruence|]. f_equal. apply IH.
        cbn in H. destruct H as [H|H]; [congruence|exact H]. }
    rewrite G.
    + now rewrite set_set.
    + rewrite ids_set. destruct (in_dec _ _ _) as [i|i]; auto. rewrite map_app. apply in_app_iff. right. now left.
Qed.

Lemma swap_pair_ok : forall gr M (L : list (vid * fld)) dt t a b, gr_range gr = range_of M -> fitting L a -> fitting L b ->
  (id_name a = id_name b -> a = b) -> id_fits M a -> id_fits M b -> comp_box a = comp_box b ->
  with_output (mgr_of gr M L dt t) a (fun na m1 => with_output m1 b (fun nb m2 => swap_vars na nb m2)) =
  Done (mgr_of gr M (swap_fields L (a, b)) dt t).
Proof.
  intros gr M L dt t a b Hg Fa Fb Hab Ha Hb E.
  destruct (with_output_ensure gr M L dt t a Hg Fa Ha) as (na & I1 & N1 & W1). rewrite W1.
  assert (Fb' : fitting (ensure L a) b) by (apply fitting_set; auto).
  destruct (with_output_ensure gr M (ensure L a) dt t b Hg Fb' Hb) as (nb & I2 & N2 & W2). rewrite W2.
  assert (Fa2 : fitting (ensure L a) a) by (apply fitting_set; auto).
  assert (Fa' : fitting (ensure (ensure L a) b) a) by (apply fitting_set; auto; intros; symmetry; apply Hab; auto).
  assert (Fb2 : fitting (ensure (ensure L a) b) b) by (apply fitting_set; auto).
  assert (I1' : idx (ensure (ensure L a) b) a = Some na) by (now apply idx_set_some).
  assert (G1 : field_or_zero (ensure L a) b = field_or_zero L b).
  { unfold ensure, field_or_zero. destruct (string_dec (id_name a) (id_name b)) as [Q|Q].
    - rewrite <- (Hab Q). now rewrite field_get_set_same.
    - now rewrite field_get_set_other. }
  assert (N1' : nth_error (ensure (ensure L a) b) na = Some (a, field_or_zero L a)).
  { destruct (idx_some _ _ _ Fa' I1') as (u & U1 & U2). rewrite U1. do 2 f_equal.
    unfold ensure in U2. destruct (string_dec (id_name b) (id_name a)) as [Q|Q].
    - rewrite (Hab (eq_sym Q)) in *. rewrite field_get_set_same in U2. unfold ensure in G1. congruence.
    - rewrite field_get_set_other in U2 by assumption. rewrite field_get_set_same in U2. now inversion U2. }
  rewrite G1 in N2.
  rewrite (swap_vars_ok gr M _ dt t na nb a _ b _ (id_fits_M _ _ Ha) N1' N2 E).
  do 2 f_equal. rewrite <- (set_swap _ _ _ _ _ _ _ Fa' Fb2 Hab I1' I2 N1' N2). now apply set_comm_ensure.
Qed.

Lemma swap_pairs_ok : forall gr M dt t ps (L : list (vid * fld)), gr_range gr = range_of M -> compatible (ids L ++ flat ps) ->
  Forall (fun p => id_fits M (fst p) /\ id_fits M (snd p) /\ comp_box (fst p) = comp_box (snd p)) ps ->
  swap_pairs (flat ps) (mgr_of gr M L dt t) = Done (mgr_of gr M (fold_left swap_fields ps L) dt t).
Proof.
  intros gr M dt t ps. induction ps as [|[a b] ps IH]; intros L Hg Hc Hp; [reflexivity|].
  cbn [flat swap_pairs fold_left] in *. inversion Hp as [|? ? (P1 & P2 & P3) Hp']; subst. cbn [fst snd] in *.
  rewrite swap_pair_ok; auto.
  - cbn [obind]. apply IH; auto. unfold swap_fields. cbn [fst snd]. apply compat_set.
    intros x y Hx Hy. apply (compat_set L a (field_or_zero L b) (b :: flat ps)); auto.
  - eapply compat_fitting; eauto. now left.
  - eapply compat_fitting; eauto. right. now left.
  - intros Q. apply Hc; auto; rewrite in_app_iff; cbn; auto.
Qed.

Lemma fields_ok_swap : forall M (L : list (vid * fld)) p, fields_ok M L -> id_fits M (fst p) -> id_fits M (snd p) -> fields_ok M (swap_fields L p).
Proof. intros. unfold swap_fields. auto using fields_ok_set. Qed.
Lemma fields_ok_swaps : forall M ps (L : list (vid * fld)), fields_ok M L ->
  Forall (fun p => id_fits M (fst p) /\ id_fits M (snd p) /\ comp_box (fst p) = comp_box (snd p)) ps ->
  fields_ok M (fold_left swap_fields ps L).
Proof.
  intros M ps. induction ps as [|p ps IH]; intros L H Hp; [exact H|]. cbn [fold_left]. inversion Hp; subst.
  apply IH; auto. apply fields_ok_swap; tauto.
Qed.

Lemma flat_even : forall ps, Nat.even (List.length (flat ps)) = true.
Proof. induction ps as [|[a b] ps IH]; auto. Qed.

Lemma api_swap_solve : forall (m : mgr F) M L ps,
  mgr_holds m M L -> fields_ok M L -> compatible (ids L ++ flat ps) ->
  Forall (fun p => id_fits M (fst p) /\ id_fits M (snd p) /\ comp_box (fst p) = comp_box (snd p)) ps ->
  exists m', swap_solve (flat ps) m = Done m' /\ same_run m m' /\
    mgr_holds m' M (fold_left swap_fields ps L) /\ fields_ok M (fold_left swap_fields ps L).
Proof.
  intros m M L ps Hm HL Hc Hp. apply mgr_holds_iff in Hm as [Hg Hm]; auto.
  exists (mgr_of (mg_grid m) M (fold_left swap_fields ps L) (mg_dt m) (mg_time m)). unfold swap_solve. rewrite flat_even.
  split; [rewrite Hm at 1; now apply swap_pairs_ok|]. split; [now unfold same_run|].
  assert (fields_ok M (fold_left swap_fields ps L)) by (now apply fields_ok_swaps).
  split; auto. apply mgr_holds_iff; auto.
Qed.

Lemma swap_fields_get : forall (L : list (vid * fld)) a b, (id_name a = id_name b -> a = b) ->
  field_get (swap_fields L (a, b)) a = Some (field_or_zero L b) /\
  field_get (swap_fields L (a, b)) b = Some (field_or_zero L a) /\
  forall k, id_name k <> id_name a -> id_name k <> id_name b -> field_get (swap_fields L (a, b)) k = field_get L k.
Proof.
  intros L a b H. unfold swap_fields. cbn [fst snd]. split; [|split].
  - destruct (string_dec (id_name b) (id_name a)) as [E|E].
    + rewrite (H (eq_sym E)). now rewrite field_get_set_same.
    + rewrite field_get_set_other by assumption. apply field_get_set_same.
  - apply field_get_set_same.
  - intros k H1 H2. rewrite !field_get_set_other by congruence. reflexivity.
Qed.

Lemma swap_fields_twice : forall (L : list (vid * fld)) a b ua ub, fitting L a -> fitting L b ->
  (id_name a = id_name b -> a = b) -> field_get L a = Some ua -> field_get L b = Some ub ->
  swap_fields (swap_fields L (a, b)) (a, b) = L.
Proof.
  intros L a b ua ub Fa Fb H Ha Hb. destruct (swap_fields_get L a b H) as (G1 & G2 & _).
  unfold swap_fields at 1. cbn [fst snd]. unfold field_or_zero. rewrite G1, G2. unfold field_or_zero. rewrite Ha, Hb.
  unfold swap_fields. cbn [fst snd]. unfold field_or_zero. rewrite Ha, Hb.
  destruct (string_dec (id_name a) (id_name b)) as [E|E].
  - rewrite <- (H E) in *. rewrite !set_set. now apply set_same_get.
  - clear - Fa Fb E Ha Hb. revert Fa Fb Ha Hb.
    assert (G : forall (L : list (vid * fld)) k u, field_get L k = Some u -> field_set L k u = L).
    { clear. induction L as [|[k' u'] L IH]; intros k u Hg; [discriminate|]. cbn [field_set field_get] in *.
      destruct (String.eqb_spec (id_name k') (id_name k)); [now inversion Hg|]. f_equal. auto. }
    induction L as [|[k u] L IH]; intros Fa Fb Ha Hb; [discriminate|]. cbn [field_set field_get] in *.
    destruct (String.eqb_spec (id_name k) (id_name a)) as [E1|E1];
    destruct (String.eqb_spec (id_name k) (id_name b)) as [E2|E2]; cbn [field_set]; try congruence.
    + destruct (String.eqb_spec (id_name k) (id_name b)); [congruence|]. cbn [field_set].
      destruct (String.eqb_spec (id_name k) (id_name a)); [|congruence]. cbn [field_set].
      destruct (String.eqb_spec (id_name k) (id_name b)); [congruence|]. rewrite set_set. rewrite (G L b) by assumption. congruence.
    + destruct (String.eqb_spec (id_name k) (id_name b)); [|congruence]. cbn [field_set].
      destruct (String.eqb_spec (id_name k) (id_name a)); [congruence|]. cbn [field_set].
      destruct (String.eqb_spec (id_name k) (id_name b)); [|congruence]. rewrite set_set. rewrite (G L a) by assumption. congruence.
    + destruct (String.eqb_spec (id_name k) (id_name b)); [congruence|]. cbn [field_set].
      destruct (String.eqb_spec (id_name k) (id_name a)); [congruence|]. cbn [field_set].
      destruct (String.eqb_spec (id_name k) (id_name b)); [congruence|]. f_equal. apply IH; auto; intros x Hx; [apply Fa|apply Fb]; now right.
Qed.

Lemma get_in : forall (L : list (vid * fld)) k u, field_get L k = Some u -> In (id_name k) (map id_name (ids L)).
Proof.
  intros L k u. induction L as [|[k' u'] L IH]; intros H; [discriminate|]. cbn [field_get ids map fst] in *.
  destruct (String.eqb_spec (id_name k') (id_name k)); [now left|]. right. auto.
Qed.

Lemma api_swap_twice : forall (m : mgr F) M L a b ua ub, mgr_holds m M L -> fields_ok M L ->
  compatible (ids L ++ [a; b]) -> id_fits M a -> id_fits M b -> comp_box a = comp_box b ->
  field_get L a = Some ua -> field_get L b = Some ub ->
  exists m', swap_solve [a; b] m = Done m' /\ swap_solve [a; b] m' = Done m.
Proof.
  intros m M L a b ua ub Hm HL Hc Ha Hb E Ga Gb. apply mgr_holds_iff in Hm as [Hg Hm]; auto.
  assert (Fa : fitting L a) by (eapply compat_fitting; eauto; now left).
  assert (Fb : fitting L b) by (eapply compat_fitting; eauto; right; now left).
  assert (Hab : id_name a = id_name b -> a = b) by (intros Q; apply Hc; auto; rewrite in_app_iff; cbn; auto).
  assert (Hp : Forall (fun p => id_fits M (fst p) /\ id_fits M (snd p) /\ comp_box (fst p) = comp_box (snd p)) [(a, b)])
    by (constructor; auto).
  pose proof (swap_pairs_ok (mg_grid m) M (mg_dt m) (mg_time m) [(a, b)] L Hg Hc Hp) as S1. cbn [flat fold_left] in S1.
  exists (mgr_of (mg_grid m) M (swap_fields L (a, b)) (mg_dt m) (mg_time m)). unfold swap_solve. cbn [List.length Nat.even].
  split; [rewrite Hm at 1; exact S1|].
  assert (Hc' : compatible (ids (swap_fields L (a, b)) ++ flat [(a, b)])).
  { cbn [flat]. intros x y Hx Hy. unfold swap_fields in *. cbn [fst snd] in *. rewrite !in_app_iff, !ids_set in *.
    assert (I : In (id_name a) (map id_name (ids L)) /\ In (id_name b) (map id_name (ids L))).
    { split; eapply get_in; eauto. }
    destruct I as [I1 I2]. destruct (in_dec string_dec (id_name a) (map id_name (ids L))); [|tauto].
    destruct (in_dec string_dec (id_name b) (map id_name (ids L))); [|tauto]. apply Hc; rewrite in_app_iff; assumption. }
  pose proof (swap_pairs_ok (mg_grid m) M (mg_dt m) (mg_time m) [(a, b)] _ Hg Hc' Hp) as S2. cbn [flat fold_left] in S2.
  rewrite S2. rewrite (swap_fields_twice L a b ua ub Fa Fb Hab Ga Gb). now rewrite <- Hm.
Qed.

(** Variables with different component boxes are exchanged as well. *)
Lemma api_swap_incompatible : forall (m : mgr F) M L a b ua ub, mgr_holds m M L -> fields_ok M L ->
  compatible (ids L ++ [a; b]) -> id_name a <> id_name b ->
  field_get L a = Some ua -> field_get L b = Some ub ->
  exists m' na nb va vb ea eb, swap_solve [a; b] m = Done m' /\
    nth_error (mg_vars m') na = Some (a, va) /\ if_data (ds_chunks (v_ds va)) = [ea] /\ chunk_holds ea M (comp_box b) 2 ub /\
    nth_error (mg_vars m') nb = Some (b, vb) /\ if_data (ds_chunks (v_ds vb)) = [eb] /\ chunk_holds eb M (comp_box a) 2 ua.
Proof.
  intros m M L a b ua ub Hm HL Hc Hne Ga Gb. apply mgr_holds_iff in Hm as [Hg Hm]; auto.
  assert (Fa : fitting L a) by (eapply compat_fitting; eauto; now left).
  assert (Fb : fitting L b) by (eapply compat_fitting; eauto; right; now left).
  destruct (idx L a) as [na|] eqn:Ia; [|apply idx_none in Ia; destruct Ia; congruence].
  destruct (idx L b) as [nb|] eqn:Ib; [|apply idx_none in Ib; destruct Ib; congruence].
  destruct (idx_some _ _ _ Fa Ia) as (ua' & Na & Ga'). destruct (idx_some _ _ _ Fb Ib) as (ub' & Nb & Gb').
  assert (ua' = ua) by congruence. assert (ub' = ub) by congruence. subst.
  assert (N : na <> nb) by (intros ->; congruence).
  assert (Sa : id_fits M a).
  { destruct HL as [_ HL]. eapply Forall_forall; [exact HL|]. apply nth_error_In in Na. apply in_map_iff. exists (a, ua). auto. }
  assert (Sb : id_fits M b).
  { destruct HL as [_ HL]. eapply Forall_forall; [exact HL|]. apply nth_error_In in Nb. apply in_map_iff. exists (b, ub). auto. }
  pose proof (one_cell_valid M (id_fits_M _ _ Sa)) as V.
  set (x := (a, mkVar (mkDataset (mkIface (range_of (one_cell M)) [echunk_of M (comp_box b) 2 ub]) (id_basis a)
    (range_of (comp_box a)) (range_of M) (range_of M) (range_of (one_cell M))) (id_name a) (id_comps a))).
  set (y := (b, mkVar (mkDataset (mkIface (range_of (one_cell M)) [echunk_of M (comp_box a) 2 ua]) (id_basis b)
    (range_of (comp_box b)) (range_of M) (range_of M) (range_of (one_cell M))) (id_name b) (id_comps b))).
  assert (X : swap_solve [a; b] m = Done (mkMgr (mg_grid m) (upd (upd (vars_of M L) na x) nb y) (mg_dt m) (mg_time m))).
  { unfold swap_solve. cbn [List.length Nat.even swap_pairs]. rewrite Hm at 1.
    rewrite with_output_ok by assumption. rewrite Ia. rewrite with_output_ok by assumption. rewrite Ib.
    unfold swap_vars.
    rewrite (var_at_of _ _ _ _ _ _ _ _ Na), (var_at_of _ _ _ _ _ _ _ _ Nb). cbn [liftr v_ds var_of ds_chunks dataset_of].
    unfold iface_swap. cbn [if_range if_data].
    rewrite range_volume_fit by (now apply valid_fit). cbn [liftr]. rewrite Z.eqb_refl.
    destruct (Nat.eqb_spec na nb) as [|_]; [congruence|].
    rewrite (set_chunks_ok _ M L _ _ na a ua _ Na). fold x. unfold set_chunks. cbn [mg_vars].
    rewrite nth_error_upd_neq by congruence.
    unfold vars_of at 1. rewrite nth_error_map, Nb. reflexivity. }
  exists (mkMgr (mg_grid m) (upd (upd (vars_of M L) na x) nb y) (mg_dt m) (mg_time m)), na, nb, (snd x), (snd y),
    (echunk_of M (comp_box b) 2 ub), (echunk_of M (comp_box a) 2 ua). split; [exact X|]. cbn [mg_vars].
  assert (Va : nth_error (vars_of M L) na = Some (a, var_of a M ua)) by (unfold vars_of; now rewrite nth_error_map, Na).
  assert (Vb : nth_error (vars_of M L) nb = Some (b, var_of b M ub)) by (unfold vars_of; now rewrite nth_error_map, Nb).
  split. { rewrite nth_error_upd_neq by congruence. rewrite (nth_error_upd_eq _ _ _ _ _ Va). reflexivity. }
  split; [reflexivity|]. split; [now apply chunk_holds_iff|].
  split. { erewrite nth_error_upd_eq; [reflexivity|]. rewrite nth_error_upd_neq by congruence. exact Vb. }
  split; [reflexivity|]. now apply chunk_holds_iff.
Qed.

End Solvers.

(** ** requests *)

Section Requests.
Context {F : Type} {A : Arith F}.
Notation fld := (field F).

Lemma idx_get : forall (L : list (vid * fld)) k, (idx L k = None <-> field_get L k = None).
Proof.
  intros L k. induction L as [|[k' u] L IH]; cbn [idx field_get]; [tauto|].
  destruct (String.eqb (id_name k') (id_name k)); [split; discriminate|].
  destruct (idx L k); [|tauto]. split; intros H; [discriminate|]. apply IH in H. discriminate.
Qed.

Lemma compat_one : forall (L : list (vid * fld)) k, compatible (ids L ++ [k]) -> fitting L k.
Proof. intros. eapply compat_fitting; eauto. now left. Qed.

Lemma api_request : forall (m : mgr F) M L k, mgr_holds m M L -> fields_ok M L -> compatible (ids L ++ [k]) -> id_fits M k ->
  exists m' L' n, (forall f, with_output m k f = f n m') /\ mgr_holds m' M L' /\ fields_ok M L' /\ same_run m m' /\
    nth_error L' n = Some (k, field_or_zero L k) /\
    match field_get L k with
    | Some _ => m' = m /\ L' = L
    | None => L' = L ++ [(k, fun _ => f0)]
    end.
Proof.
  intros m M L k Hm HL Hc Hk. apply mgr_holds_iff in Hm as [Hg Hm]; auto. pose proof (compat_one _ _ Hc) as Fk.
  destruct (idx L k) as [n|] eqn:E.
  - destruct (idx_some _ _ _ Fk E) as (u & H1 & H2). exists m, L, n. unfold field_or_zero. rewrite H2.
    split; [intros f; rewrite Hm at 1; rewrite with_output_ok, E by assumption; now rewrite <- Hm|].
    split; [now apply mgr_holds_iff|]. split; [exact HL|]. split; [now unfold same_run|]. auto.
  - destruct (idx_none _ _ E) as [H1 H2].
    exists (mgr_of (mg_grid m) M (L ++ [(k, fun _ => f0)]) (mg_dt m) (mg_time m)), (L ++ [(k, fun _ => f0)]), (List.length L).
    unfold field_or_zero. rewrite H1.
    assert (HL' : fields_ok M (L ++ [(k, fun _ => f0)])).
    { rewrite <- (set_new L k (fun _ => f0)) by assumption. now apply fields_ok_set. }
    split; [intros f; rewrite Hm at 1; now rewrite with_output_ok, E by assumption|].
    split; [now apply mgr_holds_iff|]. split; [exact HL'|]. split; [now unfold same_run|].
    split; [|reflexivity]. rewrite nth_error_app2 by lia. now rewrite Nat.sub_diag.
Qed.

Lemma api_history : forall outs (m : mgr F) M L, mgr_holds m M L -> fields_ok M L -> compatible (ids L ++ outs) ->
  Forall (id_fits M) outs ->
  exists m' L', ofold (fun k m => with_output m k (fun _ m1 => Done m1)) outs m = Done m' /\ mgr_holds m' M L' /\ fields_ok M L' /\ same_run m m' /\
    (exists L2, L' = L ++ L2) /\
    (forall k, In k outs -> field_get L' k = Some (field_or_zero L k)) /\
    (forall k, ~ In (id_name k) (map id_name outs) -> field_get L' k = field_get L k).
Proof.
  induction outs as [|k outs IH]; intros m M L Hm HL Hc Hf.
  - exists m, L. cbn. splits; auto; try easy; try apply Hm; try apply HL. exists []. now rewrite app_nil_r.
  - cbn [ofold]. inversion Hf; subst.
    assert (Hc1 : compatible (ids L ++ [k])).
    { intros a b Ha Hb. apply Hc; rewrite in_app_iff in *; cbn in *; tauto. }
    destruct (api_request m M L k Hm HL Hc1 ltac:(assumption)) as (m1 & L1 & n & R1 & R2 & R3 & R4 & R5 & R6).
    rewrite R1. cbn [obind].
    assert (E1 : L1 = field_set L k (field_or_zero L k)).
    { unfold field_or_zero in *. destruct (field_get L k) eqn:Q.
      - destruct R6 as [_ ->]. symmetry. apply set_same_get; auto. now apply compat_one.
      - rewrite R6. symmetry. apply set_new. now apply idx_get. }
    assert (Hc2 : compatible (ids L1 ++ outs)) by (rewrite E1; now apply compat_set).
    destruct (IH m1 M L1 R2 R3 Hc2 ltac:(assumption)) as (m' & L' & H1' & H2' & H3' & H4' & (L2 & H5') & H6' & H7').
    exists m', L'. split; [exact H1'|]. split; [exact H2'|]. split; [exact H3'|].
    split; [unfold same_run in *; intuition congruence|]. split; [|split].
    + destruct (field_get L k); [destruct R6 as [_ ->]; eauto|]. exists ([(k, fun _ => f0)] ++ L2).
      rewrite H5', R6. now rewrite <- app_assoc.
    + intros k' Hk'. destruct (in_dec string_dec (id_name k') (map id_name outs)) as [Q|Q].
      * apply in_map_iff in Q as (k2 & Q1 & Q2). assert (k2 = k').
        { apply Hc; auto; rewrite in_app_iff; cbn; auto. }
        subst k2. rewrite H6' by assumption. f_equal. unfold field_or_zero at 1. rewrite E1.
        destruct (string_dec (id_name k) (id_name k')) as [W|W].
        -- assert (k = k'). { apply Hc; auto; rewrite in_app_iff; cbn; auto. } subst k'. now rewrite field_get_set_same.
        -- now rewrite field_get_set_other.
      * rewrite H7' by assumption. destruct Hk' as [<-|Hk']; [|exfalso; apply Q; now apply in_map]. rewrite E1. apply field_get_set_same.
    + intros k' Hk'. rewrite H7' by (intros W; apply Hk'; now right). rewrite E1. apply field_get_set_other.
      intros W. apply Hk'. left. exact W.
Qed.

Lemma api_add_variable : forall (m : mgr F) M L k, mgr_holds m M L -> fields_ok M L -> compatible (ids L ++ [k]) -> id_fits M k ->
  match field_get L k with
  | Some _ => add_variable m k = Threw "qk::variable::variable_manager::add_variable : Variable already exists." m
  | None => exists m', add_variable m k = Done m' /\ mgr_holds m' M (L ++ [(k, fun _ => f0)]) /\ same_run m m'
  end.
Proof.
  intros m M L k Hm HL Hc Hk. apply mgr_holds_iff in Hm as [Hg Hm]; auto. pose proof (compat_one _ _ Hc) as Fk.
  assert (E : add_variable m k = match idx L k with
    | Some _ => Threw "qk::variable::variable_manager::add_variable : Variable already exists." m
    | None => Done (mgr_of (mg_grid m) M (L ++ [(k, fun _ => f0)]) (mg_dt m) (mg_time m)) end).
  { unfold add_variable. rewrite Hm at 2. cbn [mg_vars mgr_of]. rewrite map_find_ok by assumption. cbn [liftr].
    destruct (idx L k); [reflexivity|]. rewrite Hg, variable_new_ok by assumption. cbn [liftr].
    rewrite Hm at 2. cbn [mg_vars mgr_of]. unfold mgr_of, vars_of. now rewrite map_app. }
  rewrite E. destruct (field_get L k) eqn:Q.
  - destruct (idx L k) eqn:I; [reflexivity|]. apply idx_get in I. congruence.
  - assert (I : idx L k = None) by (now apply idx_get). rewrite I. eexists. split; [reflexivity|].
    split; [|now unfold same_run]. apply mgr_holds_iff; auto.
    rewrite <- (set_new L k (fun _ => f0)) by assumption. now apply fields_ok_set.
Qed.

Lemma map_find_mismatch : forall M (L : list (vid * fld)) k k', NoDup (map id_name (ids L)) -> In k' (ids L) ->
  id_name k' = id_name k -> id_comps k' <> id_comps k -> map_find (vars_of M L) k = Exn mismatch_msg.
Proof.
  intros M L k k'. induction L as [|[k0 u] L IH]; intros N Hin E Hc; [destruct Hin|]. cbn [ids map fst] in *. inversion N; subst.
  cbn [vars_of map map_find fst snd]. destruct Hin as [->|Hin].
  - unfold vid_lt. rewrite E, ltb_refl. destruct (strings_eqb (id_comps k') (id_comps k)) eqn:Q.
    + apply strings_eqb_eq in Q. congruence.
    + reflexivity.
  - assert (id_name k0 <> id_name k). { intros Q. apply H1. rewrite Q, <- E. now apply in_map. }
    rewrite !vid_lt_names by congruence. cbn [bind]. rewrite (ltb_total (id_name k) (id_name k0)) by congruence.
    fold (vars_of M L). rewrite IH by assumption. destruct (String.ltb (id_name k0) (id_name k)); reflexivity.
Qed.

Lemma api_mismatch : forall (m : mgr F) M L k k', mgr_holds m M L -> fields_ok M L -> In k' (ids L) ->
  id_name k' = id_name k -> id_comps k' <> id_comps k ->
  (forall f, with_output m k f = Threw mismatch_msg m) /\ input_variable m k = Exn mismatch_msg /\
  add_variable m k = Threw mismatch_msg m.
Proof.
  intros m M L k k' Hm HL Hin E Hc. pose proof HL as [HN _]. apply mgr_holds_iff in Hm as [Hg Hm]; auto.
  assert (Q : map_find (mg_vars m) k = Exn mismatch_msg) by (rewrite Hm; cbn [mg_vars mgr_of]; eapply map_find_mismatch; eauto).
  unfold with_output, input_variable, add_variable. rewrite Q. auto.
Qed.

Lemma api_input : forall (m : mgr F) M L k, mgr_holds m M L -> fields_ok M L -> compatible (ids L ++ [k]) ->
  match field_get L k with
  | Some u => exists n, input_variable m k = Ok n /\ nth_error L n = Some (k, u)
  | None => input_variable m k = UB EndDeref
  end.
Proof.
  intros m M L k Hm HL Hc. apply mgr_holds_iff in Hm as [Hg Hm]; auto. pose proof (compat_one _ _ Hc) as Fk.
  assert (E : input_variable m k = match idx L k with Some n => Ok n | None => UB EndDeref end).
  { unfold input_variable. rewrite Hm. cbn [mg_vars mgr_of]. rewrite map_find_ok by assumption. reflexivity. }
  rewrite E. destruct (field_get L k) eqn:Q.
  - destruct (idx L k) as [n|] eqn:I; [|apply idx_get in I; congruence]. exists n. split; auto.
    destruct (idx_some _ _ _ Fk I) as (u & U1 & U2). congruence.
  - now rewrite (proj2 (idx_get L k) Q).
Qed.

End Requests.
