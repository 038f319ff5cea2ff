(** * Facts about the frames of the example programs. *)
From Coq Require Import ZArith List String Lia Bool.
From Coq Require DecimalPos.
From Verif Require Import Base BaseFacts BoxSpec BoxFacts Range RangeSpec Arith Chunk FieldSpec FieldFacts VarId VarIdFacts Manager MgrSpec MgrFacts BC Vtk VtkSpec VtkFacts
  Programs ProgramsSpec Main MainSpec Properties_Vtk.
Import ListNotations.
Open Scope Z_scope.

(** ** Names of the files *)

Lemma show_decimal : forall k, show_int (Z.of_nat k) = decimal k.
Proof.
  intros [|k]; [reflexivity|]. unfold decimal. cbn [Z.of_nat show_int N.of_nat N.to_uint].
  pose proof (DecimalPos.Unsigned.to_uint_nonnil (Pos.of_succ_nat k)) as H. destruct (Pos.to_uint (Pos.of_succ_nat k)); [congruence|reflexivity..].
Qed.
Lemma append_assoc : forall a b c : string, (a ++ (b ++ c) = (a ++ b) ++ c)%string.
Proof. induction a as [|x a IH]; intros b c; [reflexivity|]. cbn. now rewrite IH. Qed.
Lemma append_cancel : forall a b c : string, (a ++ b = a ++ c)%string -> b = c.
Proof. induction a as [|x a IH]; intros b c H; [exact H|]. injection H as H. now apply IH. Qed.
Lemma append_cancel_end : forall c a b : string, (a ++ c = b ++ c)%string -> a = b.
Proof.
  assert (L : forall a b : string, String.length (a ++ b)%string = (String.length a + String.length b)%nat) by (induction a; intros; cbn; auto).
  intros c. induction a as [|x a IH]; intros [|y b] H; [reflexivity| | |].
  - apply (f_equal String.length) in H. rewrite !L in H. cbn in H. lia.
  - apply (f_equal String.length) in H. rewrite !L in H. cbn in H. lia.
  - injection H as -> H. f_equal. now apply IH.
Qed.
Lemma frame_inj : forall dir j k, frame dir j = frame dir k -> j = k.
Proof.
  intros dir j k H. unfold frame in H. apply append_cancel in H. apply append_cancel in H. apply append_cancel_end in H.
  rewrite <- !show_decimal in H. apply show_inj in H; lia.
Qed.
Lemma frame_is : forall dir k, ((dir ++ "/frame") ++ ("_" ++ show_int (Z.of_nat k) ++ ".vtk"))%string = frame dir k.
Proof. intros dir k. rewrite show_decimal. unfold frame. rewrite <- append_assoc. reflexivity. Qed.

Section MainFacts.
Context {F : Type} {A : Arith F}.

(** ** Files depend on the interior only *)

Lemma section_ext : forall M k (u v : field F), bs_points (id_basis k) = 1 -> (forall c, in_box (M ++ comp_box k) c -> u c = v c) ->
  var_section M (k, u) = var_section M (k, v).
Proof.
  intros M k u v HB HE. unfold var_section. cbn [fst snd].
  assert (X : forall l, (forall jc, In jc l -> 0 <= fst jc < Z.of_nat (List.length (id_comps k))) -> flat_map (scalars M k u) l = flat_map (scalars M k v) l).
  { induction l as [|jc l IH]; intros H; [reflexivity|]. cbn [flat_map]. rewrite IH by (intros; apply H; now right). f_equal.
    unfold scalars. do 2 f_equal. f_equal. unfold vtk_values. apply map_ext_in. intros c Hc. apply HE. unfold comp_box. rewrite HB.
    apply in_cells in Hc. apply in_box_rev in Hc. rewrite rev_involutive in Hc.
    change [0; fst jc] with ([0] ++ [fst jc]). apply in_box_app; [exact Hc|]. pose proof (H jc (or_introl eq_refl)).
    constructor; [cbn; lia|constructor; [cbn; lia|constructor]]. }
  apply X. intros [j c] H. apply in_combine_l in H. apply in_zrange in H. cbn [fst]. lia.
Qed.

Lemma file_ext : forall M o h (W W' : list (vid * field F)), Forall (fun ku => bs_points (id_basis (fst ku)) = 1) W ->
  Forall2 (fun ku kv => fst ku = fst kv /\ forall c, in_box (M ++ comp_box (fst ku)) c -> snd ku c = snd kv c) W W' -> vtk_file M o h W = vtk_file M o h W'.
Proof.
  intros M o h W W' HB HE. unfold vtk_file. f_equal. revert HB. induction HE as [|[k u] [k' v] W W' [E1 E2] HE IH]; intros HB; [reflexivity|].
  cbn [fst snd] in E1, E2. subst k'. inversion HB; subst. cbn [flat_map]. rewrite IH by assumption. f_equal. now apply section_ext.
Qed.
Lemma asked_fields : forall M o h (L : list (vid * field F)) ks U, Forall (fun k => bs_points (id_basis k) = 1) ks -> sys_is M L ks U ->
  vtk_file M o h (asked L ks) = vtk_file M o h (fields_of ks U).
Proof.
  intros M o h L ks U HB HS. apply file_ext.
  - unfold asked. apply Forall_forall. intros ku H. apply in_map_iff in H as (k & <- & H). cbn [fst]. rewrite Forall_forall in HB. auto.
  - unfold asked, fields_of. revert U HS. clear HB. induction ks as [|k ks IH]; intros U HS; [constructor|]. cbn [List.length seq map combine]. constructor.
    + cbn [fst snd]. split; [reflexivity|]. destruct (HS 0%nat k eq_refl) as (u & E & H). unfold field_or_zero. now rewrite E.
    + rewrite <- seq_shift, map_map. apply (IH (fun i => U (S i))). intros i k' E. exact (HS (S i) k' E).
Qed.

(** ** The loops *)

Definition later (dt : F) (n : nat) (t : F) : F := Nat.iter n (fun t => fadd t dt) t.
Lemma later_shift : forall dt n t, later dt n (fadd t dt) = later dt (S n) t.
Proof.
  intros dt n t. unfold later. induction n as [|n IH]; [reflexivity|]. change (Nat.iter (S n) (fun t0 => fadd t0 dt) (fadd t dt)) with (fadd (Nat.iter n (fun t0 => fadd t0 dt) (fadd t dt)) dt).
  rewrite IH. reflexivity.
Qed.
Lemma time_loop_app : forall step dt a b t (m m1 : mgr F), time_loop step dt a t m = Done m1 ->
  time_loop step dt (a + b) t m = time_loop step dt b (later dt a t) m1.
Proof.
  induction a as [|a IH]; intros b t m m1 H; cbn [time_loop Nat.add] in *; [now injection H as ->|].
  destruct (step m) as [m0| | |]; cbn [obind] in *; try discriminate. rewrite (IH b _ _ _ H). now rewrite later_shift.
Qed.
Lemma step_loop_done : forall step dt n t (m m' : mgr F) fs, time_loop step dt n t m = Done m' ->
  step_loop step dt n (mkSim t m fs) = Done (mkSim (later dt n t) m' fs).
Proof.
  induction n as [|n IH]; intros t m m' fs H; cbn [time_loop step_loop] in *; [now injection H as ->|].
  unfold one_step, on_mgr. cbn [sm_mgr sm_time sm_files]. destruct (step m) as [m0| | |]; cbn [obind omap] in *; try discriminate.
  cbn [sm_mgr sm_time sm_files]. rewrite (IH _ _ _ _ H). now rewrite later_shift.
Qed.

(** ** Writing a frame *)

Section Frames.
Variables (fuel : nat) (dir : string) (ks : list vid) (M : box) (g : grid F) (U : nat -> nat -> field F).
Hypothesis Hfuel : (1 <= fuel)%nat.
Hypothesis Hks : ks <> [].
Hypothesis Hbasis : Forall (fun k => id_basis k = volume_average) ks.
Hypothesis HM : (List.length M <= 3)%nat.
Hypothesis Hg : grid_fits g M.

Lemma create_fails : forall name (m : mgr F), manager_write_vtk fuel false name m ks = Threw ("qk::solver:advection::write_VTK : File '" ++ name ++ "' could not be created") None.
Proof.
  intros name m. destruct ks as [|k l]; [congruence|]. inversion Hbasis as [|? ? B1 B2]; subst. apply (C30_nothing_written F A fuel true name m). now rewrite B1.
Qed.
Lemma export_step : forall opens prefix suffix name t (m : mgr F) fs L V, name = (prefix ++ suffix)%string ->
  mgr_holds m M L -> fields_ok M L -> compatible (ids L ++ ks) -> mg_grid m = g -> sys_is M L ks V ->
  export fuel opens prefix suffix ks (mkSim t m fs) =
    if opens name then Done (mkSim t m (fs ++ [(name, vtk_file M (origin_of g M) (spacing_of g M) (fields_of ks V))]))
    else Threw ("qk::solver:advection::write_VTK : File '" ++ name ++ "' could not be created") (mkSim t m fs).
Proof.
  intros opens prefix suffix name t m fs L V -> H1 H2 H3 H4 H5. unfold export. cbn [sm_mgr sm_time sm_files]. destruct (opens (prefix ++ suffix)%string).
  - rewrite (write_ok fuel _ m M L ks); auto; [| now rewrite H4 |].
    + cbn [omap]. rewrite file_small by exact HM. rewrite H4. rewrite (asked_fields M _ _ L ks V); [reflexivity| |exact H5].
      eapply Forall_impl; [|exact Hbasis]. intros k E. now rewrite E.
    + apply Forall_forall. intros k Hk. rewrite Forall_forall in Hbasis. split; [|auto]. apply In_nth_error in Hk as [i Hi]. destruct (H5 i k Hi) as (u & E & _). congruence.
  - rewrite create_fails. reflexivity.
Qed.

Variables (step : mgr F -> out (mgr F)) (dt : F) (m1 : mgr F) (steps : nat).
(** After any number of steps the manager has the values U. *)
Hypothesis Hrun : forall n, exists m' L', run step dt n m1 = Done m' /\ mgr_holds m' M L' /\ fields_ok M L' /\ compatible (ids L' ++ ks) /\ mg_grid m' = g /\ sys_is M L' ks (U n).

Let file (k : nat) : string * stream F := (frame dir k, movie M (origin_of g M) (spacing_of g M) ks U steps k).
Lemma frames_step : forall opens n i m fs, run step dt (steps * i) m1 = Done m ->
  let P := frame_loop fuel opens dir ks step dt steps n (Z.of_nat i) (mkSim (later dt (steps * i) (fofz 0)) m fs) in
  ((forall k, (i < k <= i + n)%nat -> opens (frame dir k) = true) -> omap sm_files P = Done (fs ++ map file (seq (S i) n))) /\
  (forall k, (i < k <= i + n)%nat -> opens (frame dir k) = false -> (forall j, (i < j < k)%nat -> opens (frame dir j) = true) ->
     omap sm_files P = Threw ("qk::solver:advection::write_VTK : File '" ++ frame dir k ++ "' could not be created") (fs ++ map file (seq (S i) (k - S i)))).
Proof.
  intros opens n. induction n as [|n IH]; intros i m fs H; cbn zeta.
  - split; [intros _; cbn; now rewrite app_nil_r|]. intros k Hk. lia.
  - cbn [frame_loop]. destruct (Hrun (steps * S i)) as (m' & L' & R1 & R2 & R3 & R4 & R5 & R6).
    replace (steps * S i)%nat with (steps * i + steps)%nat in R1 by lia. pose proof R1 as R1'. unfold run in R1. rewrite (time_loop_app step dt _ _ _ _ _ H) in R1.
    rewrite (step_loop_done _ _ _ _ _ _ fs R1). cbn [obind].
    replace (later dt steps (later dt (steps * i) (fofz 0))) with (later dt (steps * S i) (fofz 0)).
    2:{ unfold later. replace (steps * S i)%nat with (steps + steps * i)%nat by lia. clear. generalize (steps * i)%nat as si. intros si. induction steps as [|s IH]; [reflexivity|]. cbn [Nat.add]. unfold Nat.iter in *. cbn [nat_rect]. now rewrite IH. }
    rewrite (export_step opens _ _ (frame dir (S i)) _ _ _ L' (U (steps * S i))) by (auto; replace (Z.of_nat i + 1) with (Z.of_nat (S i)) by lia; now rewrite frame_is).
    change (vtk_file M (origin_of g M) (spacing_of g M) (fields_of ks (U (steps * S i)%nat))) with (snd (file (S i))).
    change (frame dir (S i), snd (file (S i))) with (file (S i)).
    replace (Z.of_nat i + 1) with (Z.of_nat (S i)) by lia.
    replace (steps * i + steps)%nat with (steps * S i)%nat in R1' by lia.
    destruct (opens (frame dir (S i))) eqn:EO; cbn [obind].
    + destruct (IH (S i) m' (fs ++ [file (S i)]) R1') as [I1 I2]. split.
      * intros HO. rewrite I1 by (intros; apply HO; lia). cbn [seq map]. now rewrite <- app_assoc.
      * intros k Hk HF HO. assert (k <> S i) by congruence. rewrite (I2 k) by (auto; try lia; intros; apply HO; lia).
        replace (k - S i)%nat with (S (k - S (S i))) by lia. cbn [seq map]. now rewrite <- app_assoc.
    + split; [intros HO; rewrite HO in EO by lia; discriminate|]. intros k Hk HF HO. assert (k = S i) as -> by (destruct (Nat.eq_dec k (S i)) as [|N]; [auto|]; rewrite HO in EO by lia; discriminate).
      cbn [omap]. rewrite Nat.sub_diag. cbn [seq map]. now rewrite app_nil_r.
Qed.
End Frames.

Theorem simulate_saves : forall fuel dir ks M (g : grid F) U ic step dt (frames steps : Z) (m1 : mgr F) L1,
  (1 <= fuel)%nat -> ks <> [] -> Forall (fun k => id_basis k = volume_average) ks -> (List.length M <= 3)%nat -> grid_fits g M -> 0 <= frames ->
  ic (mgr_new g) = Done m1 -> mgr_holds m1 M L1 -> fields_ok M L1 -> compatible (ids L1 ++ ks) -> mg_grid m1 = g -> sys_is M L1 ks (U 0%nat) ->
  (forall n, exists m' L', run step dt n m1 = Done m' /\ mgr_holds m' M L' /\ fields_ok M L' /\ compatible (ids L' ++ ks) /\ mg_grid m' = g /\ sys_is M L' ks (U n)) ->
  saves (fun opens => simulate fuel opens dir ks ic step dt frames steps g) dir (movie M (origin_of g M) (spacing_of g M) ks U (Z.to_nat steps)) (S (Z.to_nat frames)).
Proof.
  intros fuel dir ks M g U ic step dt frames steps m1 L1 H1 H2 H3 H4 H5 Hf H6 H7 H8 H9 H10 H11 HR opens. unfold simulate, on_mgr. cbn [sm_mgr sm_time sm_files]. rewrite H6. cbn [omap obind].
  rewrite (export_step fuel ks M g H1 H2 H3 H4 H5 opens _ _ (frame dir 0) _ _ _ L1 (U 0%nat)); auto; [|symmetry; exact (frame_is dir 0)].
  assert (R0 : run step dt (Z.to_nat steps * 0) m1 = Done (mgr_set_dt (mgr_set_time m1 (fofz 0)) dt)) by (rewrite Nat.mul_0_r; reflexivity).
  pose proof (frames_step fuel dir ks M g U H1 H2 H3 H4 H5 step dt m1 (Z.to_nat steps) HR opens (Z.to_nat frames) 0 _ [(frame dir 0, movie M (origin_of g M) (spacing_of g M) ks U (Z.to_nat steps) 0)] R0) as X.
  cbn zeta in X. replace (vtk_file M (origin_of g M) (spacing_of g M) (fields_of ks (U 0%nat))) with (movie M (origin_of g M) (spacing_of g M) ks U (Z.to_nat steps) 0) by (unfold movie; now rewrite Nat.mul_0_r).
  rewrite Nat.mul_0_r in X. change (later dt 0 (fofz 0)) with (@fofz F A 0) in X. change (Z.of_nat 0) with 0 in X.
  cbn [app]. split.
  - intros HO. rewrite (HO 0%nat) by lia. cbn [obind sm_mgr sm_files]. destruct X as [X _]. rewrite X by (intros; apply HO; lia).
    unfold saved. cbn [seq map]. reflexivity.
  - intros [|k] Hk HF HO.
    + rewrite HF. reflexivity.
    + rewrite (HO 0%nat) by lia. cbn [obind sm_mgr sm_files]. destruct X as [_ X]. rewrite (X (S k)) by (auto; try lia; intros; apply HO; lia).
      unfold saved. cbn [seq map]. now replace (S k - 1)%nat with k by lia.
Qed.
End MainFacts.
