(** * IntegratorFacts: rk1 and ssprk3 on the variables of a manager. *)
From Coq Require Import ZArith List String Bool Lia Reals Lra.
From Verif Require Import Base BoxSpec BaseFacts BoxFacts Range RangeSpec RangeFacts Indexer IndexerFacts Interface InterfaceFacts ApiSpec ApiFacts
  Arith ArithR Chunk FieldSpec FieldFacts ChunkFacts VarId Manager MgrSpec MgrFacts SolverFacts Par ParFacts Kernel KernelFacts Integrators IntegratorSpec.
Import ListNotations.
Open Scope Z_scope.

Section IntegratorFacts.
Context {F : Type} {A : Arith F}.
Notation fld := (field F).

(** ** element-wise loops *)

(** An iteration that reads the element of [n] arrays and writes a function of
    them to the next array. *)
Record pointwise (n : nat) (val : list F -> F) (iter : Z -> thr F) : Prop := {
  pw_run : forall N (ins : list (Z -> F)) f i, List.length ins = n -> 0 <= i < N ->
    trun (iter i) (mtab N (ins ++ [f])) =
    Ok (mtab N (ins ++ [fun p => if (i <=? p) && (p <? i + 1) then val (map (fun h => h p) ins) else f p]));
  pw_within : forall N i, 0 <= i < N ->
    within (fun l => ((fst l < n)%nat /\ 0 <= snd l < N) \/ (fst l = n /\ i <= snd l < i + 1))
           (fun l => fst l = n /\ i <= snd l < i + 1) (iter i)
}.

Definition val0 (dt : F) (l : list F) : F :=
  match l with [n0; r] => (n0 + dt * r)%F | _ => f0 end.
Definition val1 (dt : F) (l : list F) : F :=
  match l with [n0; n1; r] => (fdec 75 (-2) * n0 + fdec 25 (-2) * n1 + fdec 25 (-2) * dt * r)%F | _ => f0 end.
Definition val2 (dt : F) (l : list F) : F :=
  match l with [n0; n2; r] => ((n0 + fofz 2 * (n2 + dt * r)) / fofz 3)%F | _ => f0 end.

Ltac point_run :=
  cbn [trun];
  repeat (erewrite mtab_read; [|reflexivity|assumption]; cbn [bind trun]);
  erewrite mtab_write; [|reflexivity|assumption]; cbn [bind trun upd map app]; f_equal.
Ltac point_ext p i :=
  destruct (Z.eqb_spec p i) as [->|]; [rewrite Z.leb_refl, (proj2 (Z.ltb_lt i (i + 1))) by lia; reflexivity|];
  destruct (Z.leb_spec i p); destruct (Z.ltb_spec p (i + 1)); cbn [andb]; try lia; reflexivity.

Lemma stage0_point : forall dt, pointwise 2 (val0 dt) (stage0_iter dt).
Proof.
  intros dt. constructor.
  - intros N ins f i Hl Hi. destruct ins as [|a [|b [|]]]; try discriminate. unfold stage0_iter. point_run.
    apply (mtab_last_ext N [a; b]). intros p _. point_ext p i.
  - intros N i Hi. unfold stage0_iter. repeat (constructor; cbn [fst snd]; try lia; intros).
Qed.
Lemma stage1_point : forall dt, pointwise 3 (val1 dt) (stage1_iter dt).
Proof.
  intros dt. constructor.
  - intros N ins f i Hl Hi. destruct ins as [|a [|b [|c [|]]]]; try discriminate. unfold stage1_iter. point_run.
    apply (mtab_last_ext N [a; b; c]). intros p _. point_ext p i.
  - intros N i Hi. unfold stage1_iter. repeat (constructor; cbn [fst snd]; try lia; intros).
Qed.
Lemma stage2_point : forall dt, pointwise 3 (val2 dt) (stage2_iter dt).
Proof.
  intros dt. constructor.
  - intros N ins f i Hl Hi. destruct ins as [|a [|b [|c [|]]]]; try discriminate. unfold stage2_iter. point_run.
    apply (mtab_last_ext N [a; b; c]). intros p _. point_ext p i.
  - intros N i Hi. unfold stage2_iter. repeat (constructor; cbn [fst snd]; try lia; intros).
Qed.

Section Pointwise.
Variables (n : nat) (val : list F -> F) (iter : Z -> thr F).
Hypothesis HP : pointwise n val iter.

Lemma point_loops : forall (e : echunk F) b u, ec_if e = iface_of b u -> valid_box b ->
  stage_loops iter e = Ok [map iter (blocks 0 1 (Z.to_nat (prod_len b)))].
Proof.
  intros e b u E V. unfold stage_loops. rewrite E. cbn [if_range iface_of]. rewrite volume_ok by assumption. cbn [bind].
  destruct V as (V1 & V2 & V3 & V4). pose proof (prod_len_pos _ V2).
  assert (Q : (prod_len b - 0 + 1 - 1) / 1 = prod_len b) by (rewrite Z.div_1_r; lia).
  rewrite int_loop_blocks; try rewrite Q; try lia. reflexivity.
Qed.

(** The loop stores the function of the inputs, under every schedule. *)
Lemma point_run_all : forall b us uo, nonempty b -> List.length us = n ->
  let m := map (arr b) (us ++ [uo]) in
  let m' := map (arr b) (us ++ [fun c => val (map (fun u => u c) us)]) in
  loops_run [map iter (blocks 0 1 (Z.to_nat (prod_len b)))] m = Ok m' /\
  loops_safe [map iter (blocks 0 1 (Z.to_nat (prod_len b)))] m m'.
Proof.
  intros b us uo Hn Hl m m'. pose proof (prod_len_pos _ Hn) as HN. set (N := prod_len b) in *.
  set (fs := map (fun (u : list Z -> F) p => u (cell_at b p)) us).
  set (f := fun p => uo (cell_at b p)).
  assert (Em : m = mtab N (fs ++ [f])) by (unfold m; rewrite arrs_mtab by assumption; rewrite map_app; reflexivity).
  assert (HB : forall i, In i (blocks 0 1 (Z.to_nat N)) -> 0 <= i < N) by (intros i Hi; apply in_blocks in Hi as (k & Hk & ->); lia).
  assert (E1 : seq_run (map iter (blocks 0 1 (Z.to_nat N))) m = Ok m').
  { rewrite Em. rewrite (run_blocks N fs (fun p _ => val (map (fun h => h p) fs)) 1 iter (Z.to_nat N) 0 f); [|lia|].
    - f_equal. unfold m'. rewrite arrs_mtab by assumption. rewrite map_app. cbn [map]. fold fs N.
      apply mtab_last_ext. intros i Hi. destruct (Z.leb_spec 0 i); destruct (Z.ltb_spec i (0 + Z.of_nat (Z.to_nat N) * 1)); try lia.
      cbn [andb]. unfold fs. now rewrite map_map.
    - intros i f' Hi. apply (pw_run _ _ _ HP); auto. unfold fs. now rewrite map_length. }
  split.
  - cbn [loops_run]. rewrite E1. reflexivity.
  - cbn [loops_safe]. exists m'. split; auto.
    assert (I := blocks_independent N (fs ++ [f]) n 1 iter (Z.to_nat N) 0).
    destruct (par_seq _ _ _ _ (I ltac:(lia) ltac:(lia) ltac:(unfold fs; rewrite app_length, map_length, Hl; simpl; lia) ltac:(lia) ltac:(lia)
      (fun i Hi => pw_within _ _ _ HP N i (HB i Hi)))) as (m1 & S1 & S2).
    rewrite <- Em in *. congruence.
Qed.

(** The stage on the variables at positions [ns] and [o]; [nr] is the variable
    that gives the length. *)
Lemma point_stage : forall gr M (L : list (vid * fld)) dt t ns o nr kus ko uo,
  Forall2 (fun x ku => nth_error L x = Some ku) ns kus -> nth_error L o = Some (ko, uo) -> ~ In o ns ->
  In nr ns -> List.length ns = n -> id_fits M ko ->
  Forall (fun ku => comp_box (fst ku) = comp_box ko) kus ->
  liftr (mgr_of gr M L dt t) (e <- get_chunk (mgr_of gr M L dt t) nr (ix_one M) ;; stage_loops iter e)
    (fun ls => run_kernel ns o (ix_one M) ls (mgr_of gr M L dt t)) =
  Done (mgr_of gr M (upd L o (ko, fun c => val (map (fun ku => snd ku c) kus))) dt t).
Proof.
  intros gr M L dt t ns o nr kus ko uo Hns Ho Hni Hr Hl Hf Hc.
  assert (Hr' : exists kr ur, nth_error L nr = Some (kr, ur) /\ comp_box kr = comp_box ko).
  { clear Hni Hl. induction Hns as [|x [k u] ns kus H1 H2 IH]; [destruct Hr|]. inversion Hc; subst. cbn [fst] in *.
    destruct Hr as [<-|Hr]; eauto. }
  destruct Hr' as (kr & ur & Er & Cr). rewrite (get_chunk_ok _ _ _ _ _ _ _ _ Er). cbn [bind].
  pose proof (shape_valid _ _ _ Hf) as V. fold (whole M ko) in V.
  rewrite (point_loops _ (whole M ko) ur); auto.
  2: { unfold whole. rewrite <- Cr. reflexivity. }
  cbn [liftr].
  assert (Lk : List.length kus = n) by (rewrite <- Hl; symmetry; eapply Forall2_length; eauto).
  assert (Em : map (fun ku : vid * fld => arr (whole M (fst ku)) (snd ku)) kus = map (arr (whole M ko)) (map snd kus)).
  { rewrite map_map. apply map_ext_in. intros ku Hk. unfold whole. rewrite Forall_forall in Hc. now rewrite (Hc ku Hk). }
  assert (Ff : Forall (fun ku : vid * fld => id_fits M (fst ku)) kus).
  { eapply Forall_impl; [|exact Hc]. intros ku E. unfold id_fits. rewrite E. exact Hf. }
  destruct (point_run_all (whole M ko) (map snd kus) uo) as [R1 _].
  - apply fits_nonempty; auto.
  - now rewrite map_length.
  - eapply run_kernel_ok with (rest := map (arr (whole M ko)) (map snd kus)); eauto.
    + rewrite !map_length. now rewrite <- Lk in Hl.
    + rewrite Em. rewrite !map_app in R1. cbn [map] in R1. rewrite R1. do 3 f_equal. apply arr_ext. intros c _. now rewrite map_map.
Qed.

(** Storing to a variable that is also read. *)
Lemma point_alias : forall gr M (L : list (vid * fld)) dt t ns o nr k u,
  nth_error L nr = Some (k, u) -> id_fits M k -> In o ns ->
  liftr (mgr_of gr M L dt t) (e <- get_chunk (mgr_of gr M L dt t) nr (ix_one M) ;; stage_loops iter e)
    (fun ls => run_kernel ns o (ix_one M) ls (mgr_of gr M L dt t)) = Undef RestrictAlias.
Proof.
  intros gr M L dt t ns o nr k u E Hf Hi. rewrite (get_chunk_ok _ _ _ _ _ _ _ _ E). cbn [bind].
  rewrite (point_loops _ (whole M k) u); auto. { cbn [liftr]. now apply run_kernel_alias. } exact (shape_valid _ _ _ Hf).
Qed.

End Pointwise.

(** ** solve *)

Lemma foz_set_other : forall (L : list (vid * fld)) k k' u, id_name k <> id_name k' ->
  field_or_zero (field_set L k u) k' = field_or_zero L k'.
Proof. intros. unfold field_or_zero. now rewrite field_get_set_other. Qed.

Lemma foz_ensure : forall (L : list (vid * fld)) k k', field_or_zero (ensure L k) k' = field_or_zero L k'.
Proof.
  intros L k k'. unfold ensure. destruct (string_dec (id_name k) (id_name k')) as [E|E]; [|now apply foz_set_other].
  assert (G : forall u, field_get (field_set L k u) k' = Some u).
  { intros u. induction L as [|[k0 u0] L IH]; cbn [field_set field_get].
    - now rewrite E, String.eqb_refl.
    - destruct (String.eqb_spec (id_name k0) (id_name k)) as [E'|E']; cbn [field_get].
      + rewrite E', E, String.eqb_refl. reflexivity.
      + destruct (String.eqb_spec (id_name k0) (id_name k')); [congruence|]. apply IH. }
  unfold field_or_zero at 1. rewrite G. unfold field_or_zero.
  assert (Q : field_get L k = field_get L k').
  { clear G. induction L as [|[k0 u0] L IH]; auto. cbn [field_get]. now rewrite E, IH. }
  now rewrite Q.
Qed.

Lemma compat_perm : forall ks ks', compatible ks -> (forall k, In k ks' -> In k ks) -> compatible ks'.
Proof. intros ks ks' H I a b Ha Hb. apply H; auto. Qed.

Lemma compat_ensure : forall (L : list (vid * fld)) k outs, compatible (ids L ++ k :: outs) -> compatible (ids (ensure L k) ++ k :: outs).
Proof.
  intros L k outs H. eapply compat_perm; [exact H|]. intros x Hx. unfold ensure in Hx. rewrite ids_set in Hx.
  rewrite in_app_iff in *. cbn in *. destruct (in_dec _ _ _); try tauto. rewrite in_app_iff in Hx. cbn in Hx. tauto.
Qed.

Lemma fitting_ensure : forall (L : list (vid * fld)) k k', fitting L k' -> (id_name k = id_name k' -> k = k') -> fitting (ensure L k) k'.
Proof.
  intros L k k' H1 H2 x Hx E. unfold ensure in Hx. rewrite ids_set in Hx. destruct (in_dec _ _ _); auto.
  rewrite in_app_iff in Hx. destruct Hx as [Hx|[<-|[]]]; auto.
Qed.

Lemma get_ensure_other : forall (L : list (vid * fld)) k k', id_name k <> id_name k' -> field_get (ensure L k) k' = field_get L k'.
Proof. intros. unfold ensure. now apply field_get_set_other. Qed.

Lemma get_ensure_keep : forall (L : list (vid * fld)) k k' u, field_get L k' = Some u -> field_get (ensure L k) k' = Some u.
Proof.
  intros L k k' u H. destruct (string_dec (id_name k) (id_name k')) as [E|E]; [|now rewrite get_ensure_other].
  assert (Q : field_get L k = field_get L k').
  { clear H. induction L as [|[k0 u0] L IH]; auto. cbn [field_get]. now rewrite E, IH. }
  unfold ensure, field_or_zero. rewrite Q, H. 
  clear Q. induction L as [|[k0 u0] L IH]; [discriminate|]. cbn [field_set field_get] in *.
  destruct (String.eqb_spec (id_name k0) (id_name k)) as [E'|E']; cbn [field_get].
  - destruct (String.eqb_spec (id_name k0) (id_name k')); congruence.
  - destruct (String.eqb_spec (id_name k0) (id_name k')); [congruence|]. auto.
Qed.

Lemma get_ensure_same : forall (L : list (vid * fld)) k, field_get (ensure L k) k = Some (field_or_zero L k).
Proof. intros. unfold ensure. apply field_get_set_same. Qed.

Definition fits3 (M : box) (outs : list vid) : Prop := Forall (id_fits M) outs.

Lemma pos_neq : forall (L : list (vid * fld)) k u n k' u' n', pos L k u n -> pos L k' u' n' -> id_name k <> id_name k' -> n <> n'.
Proof. intros L k u n k' u' n' H1 H2 N ->. destruct (pos_name _ _ _ _ _ _ H1 H2) as [-> _]. congruence. Qed.

Lemma pos_same : forall (L : list (vid * fld)) k u n u' n', pos L k u n -> pos L k u' n' -> n = n'.
Proof. intros L k u n u' n' [H1 _] [H2 _]. congruence. Qed.

(** Everything before the stage, for the two solvers. *)
Lemma rk1_start : forall gr M (L : list (vid * fld)) dt t fuel q0 r q1 more tag u0 ur,
  gr_range gr = range_of M -> M <> [] -> compatible (ids L ++ [q0; r; q1]) -> id_fits M q1 -> (1 <= fuel)%nat ->
  field_get L q0 = Some u0 -> field_get L r = Some ur ->
  exists n0 nr n1, pos (ensure L q1) q0 u0 n0 /\ pos (ensure L q1) r ur nr /\ pos (ensure L q1) q1 (field_or_zero L q1) n1 /\
    let m := mgr_of gr M (ensure L q1) (Some dt) t in
    rk1_solve fuel [q0; r] (q1 :: more) tag (mgr_of gr M L (Some dt) t) =
    obind (if (tag =? 0)%Z then
      liftr m (e <- get_chunk m nr (ix_one M) ;; stage_loops (stage0_iter dt) e) (fun ls => run_kernel [n0; nr] n1 (ix_one M) ls m)
      else Done m) Done.
Proof.
  intros gr M L dt t fuel q0 r q1 more tag u0 ur Hg HM Hc Hf1 Hfu H0 Hr.
  assert (F0 : fitting L q0) by (eapply compat_fitting; eauto; cbn; auto).
  assert (Fr : fitting L r) by (eapply compat_fitting; eauto; cbn; auto).
  assert (F1 : fitting L q1) by (eapply compat_fitting; eauto; cbn; auto).
  destruct (input_pos gr M L (Some dt) t q0 u0 F0 H0) as (n0 & P0 & I0).
  destruct (input_pos gr M L (Some dt) t r ur Fr Hr) as (nr & Pr & Ir).
  destruct (output_pos gr M L (Some dt) t q1 Hg F1 Hf1) as (n1 & P1 & O1).
  exists n0, nr, n1. split; [now apply pos_ensure|]. split; [now apply pos_ensure|]. split; auto. intros m.
  unfold rk1_solve. unfold mgr_get_dt at 1. cbn [mg_dt mgr_of liftr]. rewrite I0. cbn [liftr]. rewrite Ir. cbn [liftr].
  rewrite O1. rewrite (for_chunks_ok _ _ _ _ _ _ _ _ _ _ HM Hfu (proj2 (pos_ensure L q0 u0 n0 q1 F1 P0))). reflexivity.
Qed.

Lemma ssprk3_start : forall gr M (L : list (vid * fld)) dt t fuel aligned q0 r q1 q2 q3 more tag u0 ur,
  gr_range gr = range_of M -> M <> [] -> compatible (ids L ++ [q0; r; q1; q2; q3]) -> Forall (id_fits M) [q1; q2; q3] -> (1 <= fuel)%nat ->
  field_get L q0 = Some u0 -> field_get L r = Some ur ->
  let L3 := ensure (ensure (ensure L q1) q2) q3 in
  exists n0 nr n1 n2 n3, pos L3 q0 u0 n0 /\ pos L3 r ur nr /\ pos L3 q1 (field_or_zero L q1) n1 /\
    pos L3 q2 (field_or_zero L q2) n2 /\ pos L3 q3 (field_or_zero L q3) n3 /\
    let m := mgr_of gr M L3 (Some dt) t in
    let stage iter rd o := if aligned : bool then
        liftr m (e <- get_chunk m nr (ix_one M) ;; stage_loops iter e) (fun ls => run_kernel rd o (ix_one M) ls m)
      else Undef Misaligned in
    ssprk3_solve aligned fuel [q0; r] (q1 :: q2 :: q3 :: more) tag (mgr_of gr M L (Some dt) t) =
    obind (if (tag =? 0)%Z then stage (stage0_iter dt) [n0; nr] n1
            else if (tag =? 1)%Z then stage (stage1_iter dt) [n0; n1; nr] n2
            else if (tag =? 2)%Z then stage (stage2_iter dt) [n0; n2; nr] n3
            else Done m) Done.
Proof.
  intros gr M L dt t fuel aligned q0 r q1 q2 q3 more tag u0 ur Hg HM Hc Hf Hfu H0 Hr L3.
  inversion Hf as [|? ? Hf1 Hf']; subst. inversion Hf' as [|? ? Hf2 Hf'']; subst. inversion Hf'' as [|? ? Hf3 _]; subst.
  assert (Fx : forall x, In x [q0; r; q1; q2; q3] -> fitting L x) by (intros; eapply compat_fitting; eauto).
  assert (Hab : forall a b, In a [q0; r; q1; q2; q3] -> In b [q0; r; q1; q2; q3] -> id_name a = id_name b -> a = b).
  { intros a b Ha Hb. apply Hc; rewrite in_app_iff; auto. }
  assert (I0' : In q0 [q0; r; q1; q2; q3]) by (cbn; auto).
  assert (Ir' : In r [q0; r; q1; q2; q3]) by (cbn; auto).
  assert (I1' : In q1 [q0; r; q1; q2; q3]) by (cbn; auto).
  assert (I2' : In q2 [q0; r; q1; q2; q3]) by (cbn; auto 6).
  assert (I3' : In q3 [q0; r; q1; q2; q3]) by (cbn; auto 7).
  assert (F1 : fitting L q1) by auto.
  assert (F2 : fitting (ensure L q1) q2) by (apply fitting_ensure; auto).
  assert (F3 : fitting (ensure (ensure L q1) q2) q3) by (repeat apply fitting_ensure; auto).
  destruct (input_pos gr M L (Some dt) t q0 u0 (Fx _ I0') H0) as (n0 & P0 & I0).
  destruct (input_pos gr M L (Some dt) t r ur (Fx _ Ir') Hr) as (nr & Pr & Ir).
  destruct (output_pos gr M L (Some dt) t q1 Hg F1 Hf1) as (n1 & P1 & O1).
  destruct (output_pos gr M (ensure L q1) (Some dt) t q2 Hg F2 Hf2) as (n2 & P2 & O2).
  destruct (output_pos gr M (ensure (ensure L q1) q2) (Some dt) t q3 Hg F3 Hf3) as (n3 & P3 & O3).
  rewrite foz_ensure in P2. rewrite foz_ensure, foz_ensure in P3.
  assert (P0' : pos L3 q0 u0 n0) by (unfold L3; repeat apply pos_ensure; auto).
  exists n0, nr, n1, n2, n3. split; auto.
  split; [unfold L3; repeat apply pos_ensure; auto|].
  split; [unfold L3; apply pos_ensure; auto; apply pos_ensure; auto|].
  split; [unfold L3; apply pos_ensure; auto|]. split; [auto|]. intros m stage.
  unfold ssprk3_solve. unfold mgr_get_dt at 1. cbn [mg_dt mgr_of liftr]. rewrite I0. cbn [liftr]. rewrite Ir. cbn [liftr].
  rewrite O1, O2, O3. fold L3. rewrite (for_chunks_ok _ _ _ _ _ _ _ _ _ _ HM Hfu (proj2 P0')). reflexivity.
Qed.

End IntegratorFacts.

Section Api.
Context {F : Type} {A : Arith F}.
Notation fld := (field F).


Lemma ids_ensure_in : forall (L : list (vid * fld)) k x, In x (ids (ensure L k)) -> In x (ids L) \/ x = k.
Proof.
  intros L k x H. unfold ensure in H. rewrite ids_set in H. destruct (in_dec _ _ _); auto.
  rewrite in_app_iff in H. cbn in H. intuition.
Qed.
Lemma ids_set_in : forall (L : list (vid * fld)) k u x, In x (ids (field_set L k u)) -> In x (ids L) \/ x = k.
Proof.
  intros L k u x H. rewrite ids_set in H. destruct (in_dec _ _ _); auto.
  rewrite in_app_iff in H. cbn in H. intuition.
Qed.

Lemma api_rk1 : forall (m : mgr F) M L fuel q0 r q1 more dt u0 ur ks,
  mgr_holds m M L -> fields_ok M L -> compatible (ids L ++ ks) -> incl [q0; r; q1] ks -> id_fits M q1 -> (1 <= fuel)%nat ->
  mg_dt m = Some dt -> field_get L q0 = Some u0 -> field_get L r = Some ur ->
  comp_box q0 = comp_box q1 -> comp_box r = comp_box q1 -> id_name q0 <> id_name q1 -> id_name r <> id_name q1 ->
  exists m' L', rk1_solve fuel [q0; r] (q1 :: more) 0 m = Done m' /\ compatible (ids L' ++ ks) /\
    stored m m' M L L' [q1] q1 (fun c => u0 c + dt * ur c)%F.
Proof.
  intros m M L fuel q0 r q1 more dt u0 ur ks Hm HL Hc Hk Hf1 Hfu Hdt H0 Hr C0 Cr N0 Nr.
  apply mgr_holds_iff in Hm as [Hg Hm]; auto.
  assert (Hc' : compatible (ids L ++ [q0; r; q1])).
  { eapply compat_perm; [exact Hc|]. intros x Hx. rewrite in_app_iff in *. destruct Hx; auto. }
  destruct (rk1_start (mg_grid m) M L dt (mg_time m) fuel q0 r q1 more 0 u0 ur Hg (id_fits_M _ _ Hf1) Hc' Hf1 Hfu H0 Hr)
    as (n0 & nr & n1 & P0 & Pr & P1 & E).
  assert (Fe : fitting (ensure L q1) q1).
  { eapply compat_fitting; [apply (compat_ensure L q1 [])|now left]. eapply compat_perm; [exact Hc'|].
    intros x Hx. rewrite in_app_iff in *. cbn in *. tauto. }
  cbn [Z.eqb] in E.
  rewrite (point_stage _ _ _ (stage0_point dt) _ _ _ _ _ [n0; nr] n1 nr [(q0, u0); (r, ur)] q1 (field_or_zero L q1)) in E; auto.
  - rewrite (pos_upd _ _ _ _ _ Fe P1) in E. cbn [obind map snd val0] in E.
    set (L' := field_set (ensure L q1) q1 (fun c => (u0 c + dt * ur c)%F)) in *.
    assert (O' : fields_ok M L') by (unfold L', ensure; auto using fields_ok_set).
    eexists _, L'. split; [|split; [|split; [|split; [|split; [|split; [|split]]]]]].
    + rewrite Hm, Hdt at 1. exact E.
    + eapply compat_perm; [exact Hc|]. intros x Hx. rewrite in_app_iff in *. destruct Hx as [Hx|]; auto.
      apply ids_set_in in Hx as [Hx| ->]; [apply ids_ensure_in in Hx as [Hx| ->]|]; auto; right; apply Hk; cbn; auto.
    + apply mgr_holds_iff; auto.
    + auto.
    + unfold same_run. cbn. auto.
    + intros k Hn. cbn in Hn. unfold L'. rewrite field_get_set_other by tauto. apply get_ensure_other. tauto.
    + intros k [->|[]] Hn. congruence.
    + eexists. split; [apply field_get_set_same|]. intros c _. reflexivity.
  - repeat constructor; [apply P0|apply Pr].
  - apply P1.
  - pose proof (pos_neq _ _ _ _ _ _ _ P0 P1 N0). pose proof (pos_neq _ _ _ _ _ _ _ Pr P1 Nr). cbn. intuition.
  - cbn. auto.
Qed.

(** The three stages at once: the variable stored to, the variables read and the
    value. *)
Definition stage_out (q1 q2 q3 : vid) (tag : Z) : vid :=
  if tag =? 0 then q1 else if tag =? 1 then q2 else q3.
Definition stage_reads (q0 q1 q2 r : vid) (tag : Z) : list vid :=
  if tag =? 0 then [q0; r] else if tag =? 1 then [q0; q1; r] else [q0; q2; r].
Definition stage_val (dt : F) (u0 u1 u2 ur : fld) (tag : Z) : fld := fun c =>
  (if (tag =? 0)%Z then u0 c + dt * ur c
   else if (tag =? 1)%Z then fdec 75 (-2) * u0 c + fdec 25 (-2) * u1 c + fdec 25 (-2) * dt * ur c
   else (u0 c + fofz 2 * (u2 c + dt * ur c)) / fofz 3)%F.

Lemma api_ssprk3 : forall (m : mgr F) M L fuel q0 r q1 q2 q3 more tag dt u0 ur ks,
  mgr_holds m M L -> fields_ok M L -> compatible (ids L ++ ks) -> incl [q0; r; q1; q2; q3] ks ->
  Forall (id_fits M) [q1; q2; q3] -> (1 <= fuel)%nat -> 0 <= tag <= 2 ->
  mg_dt m = Some dt -> field_get L q0 = Some u0 -> field_get L r = Some ur ->
  Forall (fun k => comp_box k = comp_box (stage_out q1 q2 q3 tag) /\ id_name k <> id_name (stage_out q1 q2 q3 tag)) (stage_reads q0 q1 q2 r tag) ->
  exists m' L', ssprk3_solve true fuel [q0; r] (q1 :: q2 :: q3 :: more) tag m = Done m' /\ compatible (ids L' ++ ks) /\
    stored m m' M L L' [q1; q2; q3] (stage_out q1 q2 q3 tag) (stage_val dt u0 (field_or_zero L q1) (field_or_zero L q2) ur tag).
Proof.
  intros m M L fuel q0 r q1 q2 q3 more tag dt u0 ur ks Hm HL Hc Hk Hf Hfu Ht Hdt H0 Hr HS.
  apply mgr_holds_iff in Hm as [Hg Hm]; auto.
  assert (Hc' : compatible (ids L ++ [q0; r; q1; q2; q3])).
  { eapply compat_perm; [exact Hc|]. intros x Hx. rewrite in_app_iff in *. destruct Hx; auto. }
  assert (HM : M <> []) by (inversion Hf; subst; eapply id_fits_M; eauto).
  destruct (ssprk3_start (mg_grid m) M L dt (mg_time m) fuel true q0 r q1 q2 q3 more tag u0 ur Hg HM Hc' Hf Hfu H0 Hr)
    as (n0 & nr & n1 & n2 & n3 & P0 & Pr & P1 & P2 & P3 & E).
  set (L3 := ensure (ensure (ensure L q1) q2) q3) in *.
  set (o := stage_out q1 q2 q3 tag) in *.
  assert (Ho : In o [q1; q2; q3]) by (unfold o, stage_out; destruct (tag =? 0), (tag =? 1); cbn; auto).
  assert (Hfo : id_fits M o) by (rewrite Forall_forall in Hf; auto).
  assert (I3 : forall x, In x (ids L3) -> In x (ids L ++ [q0; r; q1; q2; q3])).
  { intros x Hx. rewrite in_app_iff. cbn. apply ids_ensure_in in Hx as [Hx| ->]; [|tauto].
    apply ids_ensure_in in Hx as [Hx| ->]; [|tauto]. apply ids_ensure_in in Hx as [Hx| ->]; tauto. }
  assert (Fe : fitting L3 o).
  { intros x Hx En. apply Hc'; auto. rewrite in_app_iff. right. cbn in *. tauto. }
  set (w := stage_val dt u0 (field_or_zero L q1) (field_or_zero L q2) ur tag).
  assert (E' : ssprk3_solve true fuel [q0; r] (q1 :: q2 :: q3 :: more) tag (mgr_of (mg_grid m) M L (Some dt) (mg_time m)) =
    Done (mgr_of (mg_grid m) M (field_set L3 o w) (Some dt) (mg_time m))).
  { assert (tag = 0 \/ tag = 1 \/ tag = 2) as [->|[->| ->]] by lia; cbn [Z.eqb Pos.eqb] in E; rewrite E; unfold o, stage_out, stage_reads in *; cbn [Z.eqb Pos.eqb] in *.
    - inversion HS as [|? ? [A1 A2] HS']; subst. inversion HS' as [|? ? [B1 B2] _]; subst.
      rewrite (point_stage _ _ _ (stage0_point dt) _ _ _ _ _ [n0; nr] n1 nr [(q0, u0); (r, ur)] q1 (field_or_zero L q1)); auto.
      + rewrite (pos_upd _ _ _ _ _ Fe P1). reflexivity.
      + repeat constructor; [apply P0|apply Pr].
      + apply P1.
      + pose proof (pos_neq _ _ _ _ _ _ _ P0 P1 A2). pose proof (pos_neq _ _ _ _ _ _ _ Pr P1 B2). cbn. intuition.
      + cbn. auto.
    - inversion HS as [|? ? [A1 A2] HS']; subst. inversion HS' as [|? ? [B1 B2] HS'']; subst. inversion HS'' as [|? ? [D1 D2] _]; subst.
      rewrite (point_stage _ _ _ (stage1_point dt) _ _ _ _ _ [n0; n1; nr] n2 nr [(q0, u0); (q1, field_or_zero L q1); (r, ur)] q2 (field_or_zero L q2)); auto.
      + rewrite (pos_upd _ _ _ _ _ Fe P2). reflexivity.
      + repeat constructor; [apply P0|apply P1|apply Pr].
      + apply P2.
      + pose proof (pos_neq _ _ _ _ _ _ _ P0 P2 A2). pose proof (pos_neq _ _ _ _ _ _ _ P1 P2 B2). pose proof (pos_neq _ _ _ _ _ _ _ Pr P2 D2). cbn. intuition.
      + cbn. auto.
    - inversion HS as [|? ? [A1 A2] HS']; subst. inversion HS' as [|? ? [B1 B2] HS'']; subst. inversion HS'' as [|? ? [D1 D2] _]; subst.
      rewrite (point_stage _ _ _ (stage2_point dt) _ _ _ _ _ [n0; n2; nr] n3 nr [(q0, u0); (q2, field_or_zero L q2); (r, ur)] q3 (field_or_zero L q3)); auto.
      + rewrite (pos_upd _ _ _ _ _ Fe P3). reflexivity.
      + repeat constructor; [apply P0|apply P2|apply Pr].
      + apply P3.
      + pose proof (pos_neq _ _ _ _ _ _ _ P0 P3 A2). pose proof (pos_neq _ _ _ _ _ _ _ P2 P3 B2). pose proof (pos_neq _ _ _ _ _ _ _ Pr P3 D2). cbn. intuition.
      + cbn. auto. }
  set (L' := field_set L3 o w) in *.
  assert (Hf' : id_fits M q1 /\ id_fits M q2 /\ id_fits M q3).
  { inversion Hf as [|? ? Hf1 Hf0]; subst. inversion Hf0 as [|? ? Hf2 Hf00]; subst. inversion Hf00; subst. auto. }
  destruct Hf' as (Hf1 & Hf2 & Hf3).
  assert (O' : fields_ok M L') by (unfold L', L3, ensure; auto using fields_ok_set).
  eexists _, L'. split; [|split; [|split; [|split; [|split; [|split; [|split]]]]]].
  + rewrite Hm, Hdt at 1. exact E'.
  + eapply compat_perm; [exact Hc|]. intros x Hx. rewrite in_app_iff in *. destruct Hx as [Hx|]; auto.
    apply ids_set_in in Hx as [Hx| ->].
    * apply I3 in Hx. rewrite in_app_iff in Hx. destruct Hx as [Hx|Hx]; auto.
    * right. apply Hk. cbn in *. tauto.
  + apply mgr_holds_iff; auto.
  + auto.
  + unfold same_run. cbn. auto.
  + intros k Hn. cbn in Hn. unfold L'. rewrite field_get_set_other.
    * unfold L3. rewrite !get_ensure_other by tauto. reflexivity.
    * intros En. apply Hn. rewrite <- En. cbn in Ho. destruct Ho as [<-|[<-|[<-|[]]]]; auto.
  + intros k Hi Hn. unfold L'. rewrite field_get_set_other by congruence.
    assert (Z0 : field_or_zero L3 k = field_or_zero L k) by (unfold L3; now rewrite !foz_ensure).
    assert (Z1 : exists x, field_get L3 k = Some x).
    { unfold L3. destruct Hi as [<-|[<-|[<-|[]]]]; eexists.
      - do 2 apply get_ensure_keep. apply get_ensure_same. - apply get_ensure_keep. apply get_ensure_same. - apply get_ensure_same. }
    destruct Z1 as (x & Z1). rewrite Z1. unfold field_or_zero in Z0. rewrite Z1 in Z0. now rewrite Z0.
  + eexists. split; [apply field_get_set_same|]. intros c _. reflexivity.
Qed.

(** Without aligned storage. *)
Lemma api_misaligned : forall (m : mgr F) M L fuel q0 r q1 q2 q3 more tag dt u0 ur ks,
  mgr_holds m M L -> fields_ok M L -> compatible (ids L ++ ks) -> incl [q0; r; q1; q2; q3] ks ->
  Forall (id_fits M) [q1; q2; q3] -> (1 <= fuel)%nat -> 0 <= tag <= 2 ->
  mg_dt m = Some dt -> field_get L q0 = Some u0 -> field_get L r = Some ur ->
  ssprk3_solve false fuel [q0; r] (q1 :: q2 :: q3 :: more) tag m = Undef Misaligned.
Proof.
  intros m M L fuel q0 r q1 q2 q3 more tag dt u0 ur ks Hm HL Hc Hk Hf Hfu Ht Hdt H0 Hr.
  apply mgr_holds_iff in Hm as [Hg Hm]; auto.
  assert (Hc' : compatible (ids L ++ [q0; r; q1; q2; q3])).
  { eapply compat_perm; [exact Hc|]. intros x Hx. rewrite in_app_iff in *. destruct Hx; auto. }
  assert (HM : M <> []) by (inversion Hf; subst; eapply id_fits_M; eauto).
  destruct (ssprk3_start (mg_grid m) M L dt (mg_time m) fuel false q0 r q1 q2 q3 more tag u0 ur Hg HM Hc' Hf Hfu H0 Hr)
    as (n0 & nr & n1 & n2 & n3 & P0 & Pr & P1 & P2 & P3 & E).
  rewrite Hm, Hdt. rewrite E. assert (tag = 0 \/ tag = 1 \/ tag = 2) as [->|[->| ->]] by lia; reflexivity.
Qed.

(** A tag that is no stage. *)
Lemma api_other_tag : forall (m : mgr F) M L al fuel q0 r q1 q2 q3 more tag dt u0 ur u1 u2 u3 ks,
  mgr_holds m M L -> fields_ok M L -> compatible (ids L ++ ks) -> incl [q0; r; q1; q2; q3] ks ->
  Forall (id_fits M) [q1; q2; q3] -> (1 <= fuel)%nat -> tag < 0 \/ 2 < tag ->
  mg_dt m = Some dt -> field_get L q0 = Some u0 -> field_get L r = Some ur ->
  field_get L q1 = Some u1 -> field_get L q2 = Some u2 -> field_get L q3 = Some u3 ->
  ssprk3_solve al fuel [q0; r] (q1 :: q2 :: q3 :: more) tag m = Done m.
Proof.
  intros m M L al fuel q0 r q1 q2 q3 more tag dt u0 ur u1 u2 u3 ks Hm HL Hc Hk Hf Hfu Ht Hdt H0 Hr H1 H2 H3.
  apply mgr_holds_iff in Hm as [Hg Hm]; auto.
  assert (Hc' : compatible (ids L ++ [q0; r; q1; q2; q3])).
  { eapply compat_perm; [exact Hc|]. intros x Hx. rewrite in_app_iff in *. destruct Hx; auto. }
  assert (HM : M <> []) by (inversion Hf; subst; eapply id_fits_M; eauto).
  destruct (ssprk3_start (mg_grid m) M L dt (mg_time m) fuel al q0 r q1 q2 q3 more tag u0 ur Hg HM Hc' Hf Hfu H0 Hr)
    as (n0 & nr & n1 & n2 & n3 & P0 & Pr & P1 & P2 & P3 & E).
  assert (S : forall k u, field_get L k = Some u -> (forall x, In x (ids L) -> id_name x = id_name k -> x = k) -> ensure L k = L).
  { clear. intros k u G Hx. unfold ensure, field_or_zero. rewrite G. induction L as [|[k0 u0] L IH]; [discriminate|].
    cbn [field_set field_get] in *. destruct (String.eqb_spec (id_name k0) (id_name k)) as [E|E].
    - rewrite (Hx k0) by (cbn; auto). congruence.
    - f_equal. apply IH; auto. intros x Hi. apply Hx. now right. }
  assert (Fx : forall x, In x [q0; r; q1; q2; q3] -> forall y, In y (ids L) -> id_name y = id_name x -> y = x).
  { intros x Hx y Hy. apply Hc'; rewrite in_app_iff; auto. }
  rewrite (S q1 u1 H1), (S q2 u2 H2), (S q3 u3 H3) in E by (apply Fx; cbn; auto 7).
  rewrite Hm, Hdt. rewrite E.
  rewrite (proj2 (Z.eqb_neq tag 0)), (proj2 (Z.eqb_neq tag 1)), (proj2 (Z.eqb_neq tag 2)) by lia. reflexivity.
Qed.

(** The output of rk1 is one of its inputs. *)
Lemma api_rk1_alias : forall (m : mgr F) M L fuel q0 r more dt u0 ur,
  mgr_holds m M L -> fields_ok M L -> compatible (ids L ++ [q0; r]) -> Forall (id_fits M) [q0; r] -> (1 <= fuel)%nat ->
  mg_dt m = Some dt -> field_get L q0 = Some u0 -> field_get L r = Some ur ->
  forall q1, q1 = q0 \/ q1 = r -> rk1_solve fuel [q0; r] (q1 :: more) 0 m = Undef RestrictAlias.
Proof.
  intros m M L fuel q0 r more dt u0 ur Hm HL Hc Hf Hfu Hdt H0 Hr q1 Hq.
  apply mgr_holds_iff in Hm as [Hg Hm]; auto.
  assert (Hc' : compatible (ids L ++ [q0; r; q1])).
  { eapply compat_perm; [exact Hc|]. intros x Hx. rewrite in_app_iff in *. cbn in *. destruct Hq; subst; tauto. }
  assert (HM : M <> []) by (inversion Hf; subst; eapply id_fits_M; eauto).
  inversion Hf as [|? ? F0 Hf']; subst. inversion Hf' as [|? ? Fr _]; subst.
  assert (F1 : id_fits M q1) by (destruct Hq; subst; auto).
  destruct (rk1_start (mg_grid m) M L dt (mg_time m) fuel q0 r q1 more 0 u0 ur Hg HM Hc' F1 Hfu H0 Hr)
    as (n0 & nr & n1 & P0 & Pr & P1 & E).
  rewrite Hm, Hdt. rewrite E. cbn [Z.eqb].
  rewrite (point_alias _ _ _ _ _ _ [n0; nr] n1 nr r ur); auto; [apply Pr|].
  destruct Hq as [->| ->]; cbn.
  - left. eapply pos_same; eauto.
  - right. left. eapply pos_same; eauto.
Qed.

End Api.

(** ** a whole step in exact arithmetic *)

Section Step.
Open Scope R_scope.
Notation fld := (field R).

Lemma rhs_local_on : forall I Op dt, local_on I Op -> local_on I (euler_step Op dt).
Proof. intros I Op dt H u v E c Hc. unfold euler_step. rewrite (H u v E c Hc), (E c Hc). reflexivity. Qed.

Lemma same_run_trans : forall (a b c : mgr R), same_run a b -> same_run b c -> same_run a c.
Proof. intros a b c (H1 & H2 & H3) (K1 & K2 & K3). unfold same_run. intuition congruence. Qed.

Lemma api_step : forall (m : mgr R) M L fuel P q0 r q1 q2 q3 more dt u0 (I : list Z -> Prop) Op ks,
  mgr_holds m M L -> fields_ok M L -> compatible (ids L ++ ks) -> incl [q0; r; q1; q2; q3] ks ->
  Forall (id_fits M) [q1; q2; q3] -> (1 <= fuel)%nat -> mg_dt m = Some dt -> field_get L q0 = Some u0 ->
  NoDup (map id_name [q0; r; q1; q2; q3]) ->
  Forall (fun k => comp_box k = comp_box q3) [q0; r; q1; q2] ->
  (forall c, I c -> in_box (grow 2 M ++ comp_box q3) c) -> local_on I Op ->
  computes_rhs (P 0%Z) M ks q0 r I Op -> computes_rhs (P 1%Z) M ks q1 r I Op -> computes_rhs (P 2%Z) M ks q2 r I Op ->
  exists m' L' v, ssprk3_step true fuel P [q0; r] (q1 :: q2 :: q3 :: more) m = Done m' /\
    mgr_holds m' M L' /\ fields_ok M L' /\ compatible (ids L' ++ ks) /\ same_run m m' /\
    field_get L' q3 = Some v /\ (forall c, I c -> v c = so3 Op dt u0 c) /\
    (exists w, field_get L' q0 = Some w /\ forall c, I c -> w c = u0 c) /\
    (forall k, ~ In (id_name k) (map id_name [q0; r; q1; q2; q3]) -> field_get L' k = field_get L k).
Proof.
  intros m M L fuel P q0 r q1 q2 q3 more dt u0 I Op ks Hm HL Hc Hk Hf Hfu Hdt H0 HN HC HI HO P0 P1 P2.
  assert (HN' := HN). cbn [map] in HN. inversion HN as [|? ? A1 A2]; subst. inversion A2 as [|? ? B1 B2]; subst.
  inversion B2 as [|? ? C1 C2]; subst. inversion C2 as [|? ? D1 D2]; subst. inversion D2 as [|? ? E1 E2]; subst. cbn in A1, B1, C1, D1, E1.
  clear HN A2 B2 C2 D2 E2 E1.
  inversion HC as [|? ? K0 HC1]; subst. inversion HC1 as [|? ? Kr HC2]; subst. inversion HC2 as [|? ? K1 HC3]; subst. inversion HC3 as [|? ? K2 _]; subst.
  clear HC1 HC2 HC3.
  unfold ssprk3_step.
  (* right-hand side of q0 *)
  destruct (P0 m L u0 Hm HL Hc H0) as (m1 & L1 & u0' & r0 & S1 & Hm1 & HL1 & Hc1 & R1 & G0 & U0 & Gr & Ur & Oth1).
  rewrite S1. cbn [obind].
  assert (Hdt1 : mg_dt m1 = Some dt) by (destruct R1 as (_ & -> & _); auto).
  destruct (api_ssprk3 m1 M L1 fuel q0 r q1 q2 q3 more 0 dt u0' r0 ks) as (m2 & L2 & S2 & Hc2 & Hm2 & HL2 & R2 & Oth2 & Keep2 & v1 & G1 & V1); auto.
  { lia. } { unfold stage_out, stage_reads. cbn [Z.eqb]. repeat constructor; try congruence; intuition. }
  rewrite S2. cbn [obind]. unfold stage_out in *. cbn [Z.eqb] in *.
  assert (Q1 : forall c, I c -> v1 c = so1 Op dt u0 c).
  { intros c Hi. rewrite V1 by (rewrite K1; auto). unfold stage_val. cbn [Z.eqb]. unfold so1, euler_step. cbn. rewrite U0, Ur by auto. reflexivity. }
  (* right-hand side of q1 *)
  destruct (P1 m2 L2 v1 Hm2 HL2 Hc2 G1) as (m3 & L3 & v1' & r1 & S3 & Hm3 & HL3 & Hc3 & R3 & G1' & U1 & Gr1 & Ur1 & Oth3).
  rewrite S3. cbn [obind].
  assert (Hdt3 : mg_dt m3 = Some dt) by (destruct R3 as (_ & -> & _); destruct R2 as (_ & -> & _); auto).
  assert (G0' : field_get L3 q0 = Some u0').
  { rewrite Oth3 by intuition. rewrite Oth2; [auto|cbn; intuition]. }
  destruct (api_ssprk3 m3 M L3 fuel q0 r q1 q2 q3 more 1 dt u0' r1 ks) as (m4 & L4 & S4 & Hc4 & Hm4 & HL4 & R4 & Oth4 & Keep4 & v2 & G2 & V2); auto.
  { lia. } { unfold stage_out, stage_reads. cbn [Z.eqb Pos.eqb]. repeat constructor; try congruence; intuition. }
  rewrite S4. cbn [obind]. unfold stage_out in *. cbn [Z.eqb Pos.eqb] in *.
  assert (Q2 : forall c, I c -> v2 c = so2 Op dt u0 c).
  { intros c Hi. rewrite V2 by (rewrite K2; auto). unfold stage_val. cbn [Z.eqb Pos.eqb]. unfold field_or_zero. rewrite G1'.
    cbn [fdec fmul fadd RArith]. rewrite U0, U1, Ur1 by auto. rewrite (HO v1 (so1 Op dt u0)) by auto. rewrite Q1 by auto.
    unfold so2, euler_step, Rdecimal. cbn. field. }
  (* right-hand side of q2 *)
  destruct (P2 m4 L4 v2 Hm4 HL4 Hc4 G2) as (m5 & L5 & v2' & r2 & S5 & Hm5 & HL5 & Hc5 & R5 & G2' & U2 & Gr2 & Ur2 & Oth5).
  rewrite S5. cbn [obind].
  assert (Hdt5 : mg_dt m5 = Some dt) by (destruct R5 as (_ & -> & _); destruct R4 as (_ & -> & _); auto).
  assert (G0'' : field_get L5 q0 = Some u0').
  { rewrite Oth5 by intuition. rewrite Oth4; [auto|cbn; intuition]. }
  destruct (api_ssprk3 m5 M L5 fuel q0 r q1 q2 q3 more 2 dt u0' r2 ks) as (m6 & L6 & S6 & Hc6 & Hm6 & HL6 & R6 & Oth6 & Keep6 & v3 & G3 & V3); auto.
  { lia. } { unfold stage_out, stage_reads. cbn [Z.eqb Pos.eqb]. repeat constructor; try congruence; intuition. }
  rewrite S6. unfold stage_out in *. cbn [Z.eqb Pos.eqb] in *.
  exists m6, L6, v3. split; auto. split; auto. split; auto. split; auto.
  split; [repeat (eapply same_run_trans; eauto)|]. split; auto. split; [|split].
  - intros c Hi. rewrite V3 by auto. unfold stage_val. cbn [Z.eqb Pos.eqb]. unfold field_or_zero. rewrite G2'.
    cbn [fofz fdiv fmul fadd RArith]. rewrite U0, U2, Ur2 by auto. rewrite (HO v2 (so2 Op dt u0)) by auto. rewrite Q2 by auto.
    unfold so3, euler_step. field.
  - exists u0'. split; auto. rewrite Oth6; [auto|cbn; intuition].
  - intros k Hn. cbn in Hn.
    assert (Hn3 : ~ In (id_name k) (map id_name [q1; q2; q3])) by (cbn; tauto).
    assert (N0 : id_name k <> id_name q0) by intuition. assert (Nr : id_name k <> id_name r) by intuition.
    assert (N1 : id_name k <> id_name q1) by intuition. assert (N2 : id_name k <> id_name q2) by intuition.
    rewrite Oth6, Oth5, Oth4, Oth3, Oth2, Oth1; auto.
Qed.

Lemma so3_rk : forall Op dt u, (forall f g, (forall c, f c = g c) -> forall c, Op f c = Op g c) ->
  forall c, so3 Op dt u c = rk_step 1 (1 / 4) (1 / 4) (1 / 6) (1 / 6) (2 / 3) Op dt u c.
Proof.
  intros Op dt u HE c. unfold so3, rk_step, euler_step.
  assert (E1 : forall c, Op (so1 Op dt u) c = Op (fun c => u c + dt * (1 * Op u c)) c).
  { apply HE. intros x. unfold so1, euler_step. ring. }
  assert (E2 : forall c, Op (so2 Op dt u) c = Op (fun c => u c + dt * (1 / 4 * Op u c + 1 / 4 * Op (fun c => u c + dt * (1 * Op u c)) c)) c).
  { apply HE. intros x. unfold so2, euler_step. rewrite E1. unfold so1, euler_step. field. }
  rewrite E2. unfold so2, euler_step. rewrite E1. unfold so1, euler_step. field.
Qed.

Lemma ssprk3_order3 : order3 1 (1 / 4) (1 / 4) (1 / 6) (1 / 6) (2 / 3).
Proof. unfold order3. repeat split; field. Qed.

Lemma so3_linear : forall (I : list Z -> Prop) Op dt u, linear_on I Op -> local_on I Op -> forall c, I c ->
  so3 Op dt u c = u c + dt * Op u c + dt * dt / 2 * Op (Op u) c + dt * dt * dt / 6 * Op (Op (Op u)) c.
Proof.
  intros I Op dt u HL HO c Hc.
  assert (S1 : forall c, I c -> Op (so1 Op dt u) c = Op u c + dt * Op (Op u) c).
  { intros x Hx. rewrite (HO _ (fun x => 1 * u x + dt * Op u x)); auto.
    - rewrite HL by auto. ring.
    - intros y _. unfold so1, euler_step. ring. }
  assert (S2 : forall c, I c -> Op (so2 Op dt u) c = Op u c + dt / 2 * Op (Op u) c + dt * dt / 4 * Op (Op (Op u)) c).
  { intros x Hx. 
    rewrite (HO _ (fun x => 1 * u x + 1 * (fun x => dt / 2 * Op u x + dt * dt / 4 * Op (Op u) x) x)); auto.
    - rewrite HL by auto. rewrite HL by auto. ring.
    - intros y Hy. unfold so2, euler_step. rewrite S1 by auto. unfold so1, euler_step. field. }
  unfold so3, euler_step. rewrite S2 by auto. unfold so2, euler_step. rewrite S1 by auto. unfold so1, euler_step. field.
Qed.

Lemma so3_convex : forall I K Op dt u, convex_on I K -> (forall v, K v -> K (euler_step Op dt v)) -> K u -> K (so3 Op dt u).
Proof.
  intros I K Op dt u [HK HC] HE Hu.
  assert (K1 : K (so1 Op dt u)) by (apply HE; auto).
  assert (K2 : K (so2 Op dt u)).
  { eapply HK; [|apply (HC u (euler_step Op dt (so1 Op dt u)) (3 / 4)); auto; lra]. intros c _. unfold so2. lra. }
  eapply HK; [|apply (HC u (euler_step Op dt (so2 Op dt u)) (1 / 3)); auto; lra]. intros c _. unfold so3. lra.
Qed.

End Step.
