(** * Properties of the Lorentz force and current source solvers (C48, C49). *)
From Coq Require Import ZArith List String Lia Bool Floats.SpecFloat Reals Lra.
From Verif Require Import Base BaseFacts BoxSpec BoxFacts Range RangeSpec RangeFacts Indexer Interface
  ApiSpec ApiFacts Arith ArithFloat ArithR Chunk FieldSpec FieldFacts ChunkFacts Properties_Chunk VarId Manager MgrSpec MgrFacts Solvers SolverFacts
  Par Kernel KernelFacts Integrators IntegratorSpec IntegratorFacts SweepSpec SweepFacts EulerSpec Sources SourceSpec SourceFacts.
Import ListNotations.
Open Scope Z_scope.

(** ** examples used below *)

Definition sfl (s : string) : vid := mkVid s (["rho"; "px"; "py"; "pz"; "e"]%string) volume_average.
Definition sfd (s : string) : vid := mkVid s (["Ex"; "Ey"; "Ez"; "Bx"; "By"; "Bz"]%string) volume_average.
Definition sion := sfl "ion". Definition selec := sfl "electron". Definition sirhs := sfl "ion_rhs". Definition serhs := sfl "electron_rhs".
Definition sem := sfd "em". Definition semrhs := sfd "em_rhs".
Definition smesh : box := [(0, 2)].
Definition sgrid {F} {A : Arith F} : grid F := mkGrid (range_of smesh) [f0] [f1] [f1].
(** In cell 1: ions with density 2 and momentum (3, 5, 7), electrons with
    density 1 and momentum (1, 0, 4), E = (11, 13, 17), B = (19, 23, 29). *)
Definition scell {F} {A : Arith F} (l : list Z) : field F := fun c =>
  match c with [x; _; j] => if x =? 1 then fofz (nth (Z.to_nat j) l 0) else f0 | _ => f0 end.
Definition sfields {F} {A : Arith F} : list (vid * field F) :=
  [(sion, scell [2; 3; 5; 7; 100]); (selec, scell [1; 1; 0; 4; 50]); (sem, scell [11; 13; 17; 19; 23; 29]);
   (sirhs, fun _ => f0); (serhs, fun _ => f1); (semrhs, fun _ => f0)].
Definition smgr {F} {A : Arith F} : mgr F := mgr_of sgrid smesh sfields (Some f1) None.
Lemma sready : forall F (A : Arith F) ks, incl ks [sion; selec; sem; sirhs; serhs; semrhs] ->
  source_ready (@smgr F A) smesh sfields ks 99.
Proof.
  intros F A ks Hk.
  assert (Fit : Forall (id_fits smesh) [sion; selec; sem; sirhs; serhs; semrhs]) by (repeat (apply Forall_cons; [apply shapeb_ok; vm_compute; reflexivity|]); constructor).
  assert (OK : fields_ok smesh (@sfields F A)).
  { split; [|exact Fit]. cbn. repeat constructor; cbn; intuition discriminate. }
  split; [apply mgr_holds_iff; auto|]. split; [exact OK|]. split.
  { intros a b Ha Hb E. rewrite in_app_iff in Ha, Hb.
    assert (Ha' : In a [sion; selec; sem; sirhs; serhs; semrhs]) by (destruct Ha as [Ha|Ha]; [exact Ha|now apply Hk]).
    assert (Hb' : In b [sion; selec; sem; sirhs; serhs; semrhs]) by (destruct Hb as [Hb|Hb]; [exact Hb|now apply Hk]).
    clear - Ha' Hb' E. repeat destruct Ha' as [<-|Ha']; try contradiction; repeat destruct Hb' as [<-|Hb']; try contradiction; try reflexivity; discriminate. }
  rewrite Forall_forall in Fit. rewrite !Forall_forall. split; intros k Hin; [apply Fit|]; apply Hk in Hin; [exact Hin|].
  clear - Hin. repeat destruct Hin as [<-|Hin]; try contradiction; vm_compute; discriminate.
Qed.
Definition sdata (m : out (mgr spec_float)) (k : vid) : option (list spec_float) :=
  match m with
  | Done m => match map_find (mg_vars m) k with Ok (Some n) => match get_chunk m n (ix_one smesh) with Ok e => Some (if_data (ec_if e)) | _ => None end | _ => None end
  | _ => None
  end.

(** ** C48: Lorentz force *)

(** Every interior cell receives the force and the power, in the order of
    operations of the code, in any arithmetic; every other element of the
    right-hand side and every other variable keeps its value. *)
Theorem C48_solve : forall F (A : Arith F) (m : mgr F) M L fluid em r u e charge mass fuel,
  source_ready m M L [fluid; em; r] fuel ->
  field_get L fluid = Some u -> field_get L em = Some e -> comp_box fluid = comp_box r -> has_comps fluid 5 r -> has_comps em 6 r ->
  id_name fluid <> id_name r -> id_name em <> id_name r ->
  exists m' L', lorentz_solve fuel (lorentz_setup charge mass) [fluid; em] [r] m = Done m' /\
    source_added m m' M L L' r
      (rates_added M r (fun x => lorentz_rate (fdiv charge mass) (fun i => u (x ++ [i])) (fun i => e (x ++ [i])))).
Proof. intros. now apply api_lorentz. Qed.
Print Assumptions C48_solve.

(** A solver that was not set up takes charge over mass as one. *)
Theorem C48_default : forall F (A : Arith F) (m : mgr F) M L fluid em r u e fuel,
  source_ready m M L [fluid; em; r] fuel ->
  field_get L fluid = Some u -> field_get L em = Some e -> comp_box fluid = comp_box r -> has_comps fluid 5 r -> has_comps em 6 r ->
  id_name fluid <> id_name r -> id_name em <> id_name r ->
  exists m' L', lorentz_solve fuel lorentz_default [fluid; em] [r] m = Done m' /\
    source_added m m' M L L' r
      (rates_added M r (fun x => lorentz_rate f1 (fun i => u (x ++ [i])) (fun i => e (x ++ [i])))).
Proof. intros. now apply api_lorentz. Qed.
Print Assumptions C48_default.

(** What the rates are, in exact arithmetic: [com] times [rho E + p x B] for the
    momentum, [com] times [p . E] for the energy, and none for the density or
    further components. *)
Theorem C48_force : forall (com : R) (q e : Z -> R),
  let E k := e (Z.of_nat k) in let B k := e (Z.of_nat (3 + k)) in let p k := q (Z.of_nat (1 + k)) in
  (forall k, (k < 3)%nat -> lorentz_rate com q e (Z.of_nat (1 + k)) = Some (com * (q 0%Z * E k + cross p B k))%R) /\
  lorentz_rate com q e 4 = Some (com * dot p E)%R /\
  (forall j, j <= 0 \/ 5 <= j -> lorentz_rate com q e j = None).
Proof.
  intros com q e E B p. unfold E, B, p. split; [|split].
  - intros k Hk. destruct k as [|[|[|k]]]; [| | |lia]; unfold cross, levi; cbn; f_equal; field.
  - unfold dot. cbn. reflexivity.
  - intros j Hj. rewrite lorentz_rate_cases. repeat match goal with |- context [j =? ?i] => destruct (Z.eqb_spec j i); [lia|] end. reflexivity.
Qed.
Print Assumptions C48_force.

(** The work done per mass is that of the electric field: the scalar product of
    the momentum with the force is the density times the power. *)
Theorem C48_no_magnetic_work : forall (com : R) (q e : Z -> R) f w,
  (forall k, (k < 3)%nat -> lorentz_rate com q e (Z.of_nat (1 + k)) = Some (f k)) -> lorentz_rate com q e 4 = Some w ->
  dot (fun k => q (Z.of_nat (1 + k))) f = (q 0%Z * w)%R.
Proof.
  intros com q e f w Hf Hw. pose proof (Hf 0%nat ltac:(lia)) as E0. pose proof (Hf 1%nat ltac:(lia)) as E1. pose proof (Hf 2%nat ltac:(lia)) as E2.
  cbn in E0, E1, E2, Hw. injection E0 as E0. injection E1 as E1. injection E2 as E2. injection Hw as Hw. unfold dot. rewrite <- E0, <- E1, <- E2, <- Hw. cbn. ring.
Qed.
Print Assumptions C48_no_magnetic_work.

(** Another number of inputs or outputs is reported and changes nothing. *)
Theorem C48_counts : forall F (A : Arith F) fuel (com : F) ins outs m, List.length ins <> 2%nat \/ List.length outs <> 1%nat ->
  lorentz_solve fuel com ins outs m = Threw (if (List.length ins =? 2)%nat then "qk::solver::lorentz_force::solve : Output must contain one variable (rhs)."%string
                                             else "qk::solver::lorentz_force::solve : Input must contain two variables (fluid, field)."%string) m.
Proof.
  intros F A fuel com ins outs m H. unfold lorentz_solve. destruct ins as [|a [|b [|c ins]]]; try reflexivity.
  destruct outs as [|o [|o' outs]]; try reflexivity. cbn in H. lia.
Qed.
Print Assumptions C48_counts.

(** A right-hand side that is the fluid or the field breaks __restrict__. *)
Theorem C48_alias_refuted : forall F (A : Arith F) (m : mgr F) M L fluid em r u e com fuel,
  source_ready m M L [fluid; em] fuel -> field_get L fluid = Some u -> field_get L em = Some e ->
  r = fluid \/ r = em -> lorentz_solve fuel com [fluid; em] [r] m = Undef RestrictAlias.
Proof.
  intros F A m M L fluid em r u e com fuel (Hm & HL & Hc & Hfit & Hfu) Hu He Hr.
  apply mgr_holds_iff in Hm as [Hg Hm]; auto.
  assert (Ff : fitting L fluid) by (eapply compat_fitting; eauto; cbn; auto).
  assert (Fe : fitting L em) by (eapply compat_fitting; eauto; cbn; auto).
  inversion Hfit as [|? ? If Hfit1]; subst. inversion Hfit1 as [|? ? Ie _]; subst. inversion Hfu as [|? ? Fu _]; subst.
  pose proof (fits_fuel _ _ _ If Fu) as Hfu1.
  destruct (input_pos (mg_grid m) M L (mg_dt m) (mg_time m) fluid u Ff Hu) as (nf & Pnf & Inf).
  destruct (input_pos (mg_grid m) M L (mg_dt m) (mg_time m) em e Fe He) as (ne & Pne & Ine).
  assert (Fr : fitting L r) by (destruct Hr; subst; auto). assert (Ir : id_fits M r) by (destruct Hr; subst; auto).
  destruct (output_pos (mg_grid m) M L (mg_dt m) (mg_time m) r Hg Fr Ir) as (nr & Pr & Or).
  rewrite Hm at 1. unfold lorentz_solve. rewrite Inf. cbn [liftr]. rewrite Ine. cbn [liftr]. rewrite Or.
  rewrite (for_chunks_ok _ _ _ _ _ _ _ _ _ _ (id_fits_M _ _ If) Hfu1 (proj2 (pos_ensure L fluid u nf r Fr Pnf))).
  assert (E : ((nr =? nf) || (nr =? ne))%nat = true).
  { apply orb_true_iff. rewrite !Nat.eqb_eq. destruct Hr as [-> | ->].
    - left. exact (pos_same _ _ _ _ _ _ Pr (pos_ensure L fluid u nf fluid Ff Pnf)).
    - right. exact (pos_same _ _ _ _ _ _ Pr (pos_ensure L em e ne em Fe Pne)). }
  rewrite E. reflexivity.
Qed.
Print Assumptions C48_alias_refuted.

(** The right-hand side is addressed with the fluid's positions; nothing checks
    that it has the fluid's components.  A right-hand side of six components
    for a fluid of five receives the force elsewhere: what should go to elements
    19 to 22 (cell 1) goes to 16 to 19, half of it in cell 0. *)
Definition swide : vid := mkVid "wide" (["rho"; "px"; "py"; "pz"; "e"; "f"]%string) volume_average.
Theorem C48_shapes_refuted :
  sdata (lorentz_solve 99 (dbl 1) [sion; sem] [swide] smgr) swide =
  Some (repeat (dbl 0) 16 ++ [dbl 6; dbl 72; dbl 8; dbl 217] ++ repeat (dbl 0) 16).
Proof. vm_compute. reflexivity. Qed.
Print Assumptions C48_shapes_refuted.

(** Charge 6, mass 2: the factor is 3; 3 (2 11 + 5 29 - 7 23) = 18 and so on. *)
Example C48_ex :
  sdata (lorentz_solve 99 (lorentz_setup (dbl 6) (dbl 2)) [sion; sem] [sirhs] smgr) sirhs =
  Some (repeat (dbl 0) 16 ++ [dbl 18; dbl 216; dbl 24; dbl 651] ++ repeat (dbl 0) 10) /\
  source_ready (@smgr R RArith) smesh sfields [sion; sem; sirhs] 99.
Proof.
  split; [vm_compute; reflexivity|]. apply sready. intros k Hk. cbn in *. tauto.
Qed.

(** ** C49: current *)

(** The first three components of every interior cell receive the current of
    all fluids, one after the other; everything else keeps its value. *)
Theorem C49_solve : forall F (A : Arith F) (m : mgr F) M L r ms fluids us fuel,
  source_ready m M L (fluids ++ [r]) fuel ->
  Forall2 (fun k u => field_get L k = Some u) fluids us -> List.length ms = List.length fluids ->
  Forall (fun k => has_comps k 4 r /\ id_name k <> id_name r) fluids -> (3 <= List.length (id_comps r))%nat ->
  exists m' L', current_solve fuel ms fluids [r] m = Done m' /\ source_added m m' M L L' r (current_added M r ms us).
Proof. intros. now apply api_current. Qed.
Print Assumptions C49_solve.

(** In exact arithmetic, with the factors of setup, this is minus the sum of
    [charge / (mass eps0) * momentum]. *)
Theorem C49_current : forall (eps0 acc : R) (ss : list species) (us : list (field R)) c old, List.length ss = List.length us -> (eps0 <> 0)%R ->
  exists ms, current_setup eps0 (map sp_charge ss) (map sp_mass ss) old = Done ms /\ List.length ms = List.length ss /\
  current acc ms us c = (acc - rsum (fun p => sp_charge (fst p) / (sp_mass (fst p) * eps0) * snd p c) (combine ss us))%R.
Proof.
  intros eps0 acc ss us c old Hl He. exists (multipliers eps0 (map sp_charge ss) (map sp_mass ss)). unfold current_setup. rewrite !map_length, Nat.eqb_refl.
  split; [reflexivity|]. split; [clear; induction ss; cbn; auto|]. rewrite current_sum. unfold Rminus. f_equal.
  revert us Hl. induction ss as [|s ss IH]; intros us Hl; destruct us as [|u us]; try discriminate; [cbn; lra|].
  injection Hl as Hl. specialize (IH us Hl). unfold rsum in *. cbn [map combine multipliers fold_right fst snd] in *.
  rewrite IH. rewrite Ropp_plus_distr. f_equal. cbn [fdiv fneg RArith]. unfold Rdiv. rewrite (Rinv_mult (sp_mass s)). ring.
Qed.
Print Assumptions C49_current.

(** The energy the fluids receive from the Lorentz solver is what the field
    loses through the current solver, in every interior cell: any number of
    species, each with its own right-hand side. *)
Theorem C49_energy : forall (m : mgr R) M L em emrhs e eps0 (ss : list species) us fuel,
  source_ready m M L (em :: emrhs :: map sp_fluid ss ++ map sp_rhs ss) fuel -> (eps0 <> 0)%R ->
  field_get L em = Some e -> Forall2 (fun s u => field_get L (sp_fluid s) = Some u) ss us ->
  has_comps em 6 emrhs -> (3 <= List.length (id_comps emrhs))%nat ->
  Forall (fun s => comp_box (sp_fluid s) = comp_box (sp_rhs s) /\ has_comps (sp_fluid s) 5 emrhs) ss ->
  NoDup (map (fun s => id_name (sp_rhs s)) ss) ->
  (forall s, In s ss -> id_name (sp_rhs s) <> id_name em /\ id_name (sp_rhs s) <> id_name emrhs /\ id_name (sp_fluid s) <> id_name emrhs /\
     forall s', In s' ss -> id_name (sp_rhs s) <> id_name (sp_fluid s')) ->
  exists ms m1 m2 L2,
    ofold (fun s => lorentz_solve fuel (lorentz_setup (sp_charge s) (sp_mass s)) [sp_fluid s; em] [sp_rhs s]) ss m = Done m1 /\
    current_setup eps0 (map sp_charge ss) (map sp_mass ss) [] = Done ms /\
    current_solve fuel ms (map sp_fluid ss) [emrhs] m1 = Done m2 /\ mgr_holds m2 M L2 /\
    forall x, in_box (M ++ [(0, bs_points (id_basis emrhs))]) x ->
      let change k j := (field_or_zero L2 k (x ++ [j]) - field_or_zero L k (x ++ [j]))%R in
      (eps0 * dot (fun k => e (x ++ [Z.of_nat k])) (fun k => change emrhs (Z.of_nat k)) + rsum (fun s => change (sp_rhs s) 4%Z) ss = 0)%R.
Proof.
  intros m M L em emrhs e eps0 ss us fuel Hr He0 He Hu Hq Hre Hs ND Hn.
  destruct (exchange m M L em emrhs e eps0 ss us fuel Hr He0 He Hu Hq Hre Hs ND Hn) as (m1 & m2 & L2 & E1 & E2 & H1 & H2).
  exists (multipliers eps0 (map sp_charge ss) (map sp_mass ss)), m1, m2, L2. split; [exact E1|]. split.
  { unfold current_setup. now rewrite !map_length, Nat.eqb_refl. }
  auto.
Qed.
Print Assumptions C49_energy.

(** Wrong numbers are reported and change nothing. *)
Theorem C49_counts : forall F (A : Arith F) fuel (ms : list F) ins outs m, List.length ins <> List.length ms \/ List.length outs <> 1%nat ->
  current_solve fuel ms ins outs m =
    Threw (if (List.length ins =? List.length ms)%nat then "qk::solver::current_source::solve : Output must contain one variable (rhs)."%string
           else "qk::solver::current_source::solve : Input must contain same number of variables (fluids) as charges and masses."%string) m.
Proof.
  intros F A fuel ms ins outs m H. unfold current_solve. destruct (Nat.eqb_spec (List.length ins) (List.length ms)); [|reflexivity].
  destruct outs as [|o [|o' outs]]; try reflexivity. cbn in H. lia.
Qed.
Print Assumptions C49_counts.
Theorem C49_setup_counts : forall F (A : Arith F) (eps0 : F) charges masses old, List.length charges <> List.length masses ->
  current_setup eps0 charges masses old = Threw "qk::solver::current_source::setup : Charges and masses are of different lengths."%string old.
Proof. intros F A eps0 charges masses old H. unfold current_setup. destruct (Nat.eqb_spec (List.length charges) (List.length masses)); [contradiction|]. reflexivity. Qed.
Print Assumptions C49_setup_counts.

(** Two species: ions of charge 2 and mass 1, electrons of charge -1 and mass
    0.5, eps0 = 4.  The current is -(2 p_i - 2 p_e)/4 = (-1, -2.5, -1.5). *)
Example C49_ex :
  sdata (obind (omap (fun _ => smgr) (current_setup (dbl 4) [dbl 2; dbl (-1)] [dbl 1; fdec 5 (-1)] []))
           (current_solve 99 (multipliers (dbl 4) [dbl 2; dbl (-1)] [dbl 1; fdec 5 (-1)]) [sion; selec] [semrhs])) semrhs =
  Some (repeat (dbl 0) 18 ++ [dbl (-1); fdec (-25) (-1); fdec (-15) (-1)] ++ repeat (dbl 0) 15).
Proof. vm_compute. reflexivity. Qed.
Example C49_energy_ex : let ss := [mkSpecies 2 1 sion sirhs; mkSpecies (-1) (1/2) selec serhs] in
  exists ms m1 m2 L2,
    ofold (fun s => lorentz_solve 99 (lorentz_setup (sp_charge s) (sp_mass s)) [sp_fluid s; sem] [sp_rhs s]) ss (@smgr R RArith) = Done m1 /\
    current_setup 4%R (map sp_charge ss) (map sp_mass ss) [] = Done ms /\
    current_solve 99 ms (map sp_fluid ss) [semrhs] m1 = Done m2 /\ mgr_holds m2 smesh L2 /\
    forall x, in_box (smesh ++ [(0, 1)]) x ->
      let change k j := (field_or_zero L2 k (x ++ [j]) - field_or_zero (@sfields R RArith) k (x ++ [j]))%R in
      (4 * dot (fun k => scell [11; 13; 17; 19; 23; 29]%Z (x ++ [Z.of_nat k])) (fun k => change semrhs (Z.of_nat k)) + rsum (fun s => change (sp_rhs s) 4%Z) ss = 0)%R.
Proof.
  intros ss. refine (C49_energy smgr smesh sfields sem semrhs _ 4 ss [scell [2; 3; 5; 7; 100]; scell [1; 1; 0; 4; 50]] 99 _ _ _ _ _ _ _ _ _).
  - apply sready. intros k Hk. cbn in *. tauto.
  - lra.
  - reflexivity.
  - repeat constructor.
  - split; [reflexivity|cbn; lia].
  - cbn; lia.
  - repeat constructor; cbn; lia.
  - cbn. repeat constructor; cbn; intuition discriminate.
  - intros s Hs. cbn in Hs. destruct Hs as [<-|[<-|[]]]; repeat split; try discriminate; intros s' [<-|[<-|[]]]; discriminate.
Qed.
