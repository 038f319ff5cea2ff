(** * C68: the parallel loops do not change what the programs compute. *)
From Coq Require Import ZArith List String Lia Bool Floats.SpecFloat Reals Lra.
From Verif Require Import Base BaseFacts BoxSpec BoxFacts Range RangeSpec RangeFacts Indexer Interface
  ApiSpec ApiFacts Arith ArithFloat ArithR Chunk FieldSpec FieldFacts ChunkFacts VarId Manager MgrSpec MgrFacts Solvers SolverFacts
  BC BCSpec Par Kernel KernelFacts IntegratorSpec IntegratorFacts SweepSpec Euler Maxwell FluxFacts EulerSpec Sources SourceSpec Advection AdvectionSpec AdvectionFacts Initial InitialSpec
  Programs ProgramsSpec Whole Properties_Programs Properties_Whole Properties_Advection Parallel ParallelFacts.
Import ListNotations.
Open Scope Z_scope.

(** ** any program that would end normally on one thread *)

(** Every execution of the program ends, and ends in the state the run on one
    thread ends in; nothing is assumed about the meshes or the variables. *)
Theorem C68_pulse : forall F (A : Arith F) al fuel c dims f dt n (m m' : mgr F), run (pulse_step al fuel c dims f) dt n m = Done m' ->
  forall o, run_can (pulse_can al fuel c dims f) dt n m o <-> o = Done m'.
Proof. intros F A al fuel c dims f dt n m m' E. exact (settled_run _ _ dt n m (settled_pulse al fuel c dims f) m' E). Qed.
Print Assumptions C68_pulse.
Theorem C68_sod : forall F (A : Arith F) al fuel gamma walls dims f dt n (m m' : mgr F), run (sod_step al fuel gamma walls dims f) dt n m = Done m' ->
  forall o, run_can (sod_can al fuel gamma walls dims f) dt n m o <-> o = Done m'.
Proof. intros F A al fuel gamma walls dims f dt n m m' E. exact (settled_run _ _ dt n m (settled_sod al fuel gamma walls dims f) m' E). Qed.
Print Assumptions C68_sod.
Theorem C68_plasma : forall F (A : Arith F) al fuel p bl e i f dt n (m m' : mgr F), run (plasma_step al fuel p bl e i f) dt n m = Done m' ->
  forall o, run_can (plasma_can al fuel p bl e i f) dt n m o <-> o = Done m'.
Proof. intros F A al fuel p bl e i f dt n m m' E. exact (settled_run _ _ dt n m (settled_plasma al fuel p bl e i f) m' E). Qed.
Print Assumptions C68_plasma.

(** ** the programs from the empty manager on *)

(** sod_shock_tube, wave_1D, two_fluid_brio_wu and gem_challenge with any number
    of threads: every execution ends normally, all with the same fields, those
    of the Runge-Kutta method. *)
Theorem C68_sod_program : forall F (A : Arith F) gamma rho_jump P_jump gr M f fuel dt n ws ps, setting gr M [f] fuel -> List.length (id_comps (f_0 f)) = 5%nat -> (List.length M <= 3)%nat ->
  (forall d, In d (ws ++ ps) <-> (d < List.length M)%nat) -> (forall d, In d ws -> ~ In d ps) ->
  let kinds d := if in_dec Nat.eq_dec d ps then Periodic else NoSlip in
  exists m' L' (u : field F),
    (forall o, program_can (shock_tube_solve fuel rho_jump P_jump gamma [f_0 f]) (sod_can true fuel gamma (map Z.of_nat ws) (map Z.of_nat ps) f) dt n gr o <-> o = Done m') /\
    mgr_holds m' M L' /\
    values_in M (f_0 f) u (fun x => blast (center gr x 0 <? f0)%F rho_jump P_jump gamma) /\
    interior_is M L' (f_0 f) (Nat.iter n (rk3 (fun V _ => fv_rhs 5 (flux_of (euler_flux gamma)) M kinds (spacing gr) (seq 0 (List.length M)) (V 0%nat)) dt) (fun _ => u) 0%nat).
Proof.
  intros F A gamma rj pj gr M f fuel dt n ws ps HS H5 H3 Hd Hx kinds.
  destruct (C63_sod F A gamma rj pj gr M f fuel dt n ws ps HS H5 H3 Hd Hx) as (m' & L' & u & E & H). exists m', L', u. split; [|exact H].
  exact (settled_program _ _ _ dt n gr (settled_sod true fuel gamma _ _ f) m' E).
Qed.
Print Assumptions C68_sod_program.
Theorem C68_wave_program : forall F (A : Arith F) c kk Bx By Bz gr M d f fuel dt n, setting gr M [f] fuel -> List.length (id_comps (f_0 f)) = 6%nat -> (List.length M <= 3)%nat -> (d < List.length M)%nat ->
  exists m' L' (u : field F),
    (forall o, program_can (wave_solve fuel (Z.of_nat d) c kk Bx By Bz [f_0 f]) (pulse_can true fuel c (map Z.of_nat (seq 0 (List.length M))) f) dt n gr o <-> o = Done m') /\
    mgr_holds m' M L' /\
    values_in M (f_0 f) u (fun x j => nth (Z.to_nat j) (map snd (wave_values (Z.of_nat d) c Bx By Bz (fsin (kk * center gr x d)%F))) f0) /\
    interior_is M L' (f_0 f) (Nat.iter n (rk3 (fun V _ => fv_rhs 6 (flux_of (maxwell_flux c)) M (fun _ => Periodic) (spacing gr) (seq 0 (Nat.min 3 (List.length M))) (V 0%nat)) dt) (fun _ => u) 0%nat).
Proof.
  intros F A c kk Bx By Bz gr M d f fuel dt n HS H6 H3 Hd.
  destruct (C63_wave F A c kk Bx By Bz gr M d f fuel dt n HS H6 H3 Hd) as (m' & L' & u & E & H). exists m', L', u. split; [|exact H].
  exact (settled_program _ _ _ dt n gr (settled_pulse true fuel c _ f) m' E).
Qed.
Print Assumptions C68_wave_program.
Theorem C68_brio_wu_program : forall F (A : Arith F) q p mx gr e i f fuel dt n, let M := [mx] in setting gr M [e; i; f] fuel ->
  List.length (id_comps (f_0 e)) = 5%nat -> List.length (id_comps (f_0 i)) = 5%nat -> List.length (id_comps (f_0 f)) = 6%nat ->
  bs_points (id_basis (f_0 e)) = bs_points (id_basis (f_0 f)) -> bs_points (id_basis (f_0 i)) = bs_points (id_basis (f_0 f)) -> List.length (pl_ms p) = 2%nat ->
  exists m' L' (u v w : field F),
    (forall o, program_can (brio_wu_solve fuel q [f_0 e; f_0 i; f_0 f]) (plasma_can true fuel p (brio_wu_bcs e i f) e i f) dt n gr o <-> o = Done m') /\ mgr_holds m' M L' /\
    values_in M (f_0 e) u (fun x => at_rest (bw_me q * side gr x (bw_nl q) (bw_nr q))%F (side gr x (bw_Pl q) (bw_Pr q) * (f1 / (bw_gamma q - f1)))%F) /\
    values_in M (f_0 i) v (fun x => at_rest (bw_me q * side gr x (bw_nl q) (bw_nr q) * bw_mi q / bw_me q)%F (side gr x (bw_Pl q) (bw_Pr q) * (f1 / (bw_gamma q - f1)))%F) /\
    values_in M (f_0 f) w (fun x => two_comps 3 (bw_Bx q) 4 (bw_By q * side gr x f1 (fofz (-1)) * (f1 / (bw_gamma q - f1)))%F) /\
    sys_is M L' [f_0 e; f_0 i; f_0 f] (Nat.iter n (rk3 (plasma_op p (flux_of (euler_flux (pl_gamma p))) (flux_of (maxwell_flux (pl_c p))) M wall_kinds (spacing gr) [0%nat] [0%nat]) dt) (three u v w)).
Proof.
  intros F A q p mx gr e i f fuel dt n M HS Ne Ni Nf Pe Pi Hms.
  destruct (C63_brio_wu F A q p mx gr e i f fuel dt n HS Ne Ni Nf Pe Pi Hms) as (m' & L' & u & v & w & E & H). exists m', L', u, v, w. split; [|exact H].
  exact (settled_program _ _ _ dt n gr (settled_plasma true fuel p _ e i f) m' E).
Qed.
Print Assumptions C68_brio_wu_program.
Theorem C68_gem_program : forall F (A : Arith F) q p mx my gr e i f fuel dt n, let M := [mx; my] in setting gr M [e; i; f] fuel ->
  List.length (id_comps (f_0 e)) = 5%nat -> List.length (id_comps (f_0 i)) = 5%nat -> List.length (id_comps (f_0 f)) = 6%nat ->
  bs_points (id_basis (f_0 e)) = bs_points (id_basis (f_0 f)) -> bs_points (id_basis (f_0 i)) = bs_points (id_basis (f_0 f)) -> List.length (pl_ms p) = 2%nat ->
  exists m1 m' L1 L' (u v w : field F),
    gem_solve fuel q [f_0 e; f_0 i; f_0 f] (mgr_new gr) = Done m1 /\ mgr_holds m1 M L1 /\
    field_get L1 (f_0 e) = Some u /\ field_get L1 (f_0 i) = Some v /\ field_get L1 (f_0 f) = Some w /\
    (forall o, program_can (gem_solve fuel q [f_0 e; f_0 i; f_0 f]) (plasma_can true fuel p (gem_bcs e i f) e i f) dt n gr o <-> o = Done m') /\ mgr_holds m' M L' /\
    sys_is M L' [f_0 e; f_0 i; f_0 f] (Nat.iter n (rk3 (plasma_op p (flux_of (euler_flux (pl_gamma p))) (flux_of (maxwell_flux (pl_c p))) M gem_kinds (spacing gr) [0; 1]%nat [0; 1]%nat) dt) (three u v w)).
Proof.
  intros F A q p mx my gr e i f fuel dt n M HS Ne Ni Nf Pe Pi Hms.
  destruct (C63_gem F A q p mx my gr e i f fuel dt n HS Ne Ni Nf Pe Pi Hms) as (m1 & m' & L1 & L' & u & v & w & H1 & H2 & H3 & H4 & H5 & E & H). exists m1, m', L1, L', u, v, w.
  do 5 (split; [assumption|]). split; [|exact H].
  exact (settled_program _ _ _ dt n gr (settled_plasma true fuel p _ e i f) m' E).
Qed.
Print Assumptions C68_gem_program.
Theorem C68_harris_program : forall F (A : Arith F) q p mx gr e i f fuel dt n, let M := [mx] in setting gr M [e; i; f] fuel ->
  List.length (id_comps (f_0 e)) = 5%nat -> List.length (id_comps (f_0 i)) = 5%nat -> List.length (id_comps (f_0 f)) = 6%nat ->
  bs_points (id_basis (f_0 e)) = bs_points (id_basis (f_0 f)) -> bs_points (id_basis (f_0 i)) = bs_points (id_basis (f_0 f)) -> List.length (pl_ms p) = 2%nat ->
  exists m1 m' L1 L' (u v w : field F),
    gem_solve fuel q [f_0 e; f_0 i; f_0 f] (mgr_new gr) = Done m1 /\ mgr_holds m1 M L1 /\
    field_get L1 (f_0 e) = Some u /\ field_get L1 (f_0 i) = Some v /\ field_get L1 (f_0 f) = Some w /\
    (forall o, program_can (gem_solve fuel q [f_0 e; f_0 i; f_0 f]) (plasma_can true fuel p (brio_wu_bcs e i f) e i f) dt n gr o <-> o = Done m') /\ mgr_holds m' M L' /\
    sys_is M L' [f_0 e; f_0 i; f_0 f] (Nat.iter n (rk3 (plasma_op p (flux_of (euler_flux (pl_gamma p))) (flux_of (maxwell_flux (pl_c p))) M wall_kinds (spacing gr) [0%nat] [0%nat]) dt) (three u v w)).
Proof.
  intros F A q p mx gr e i f fuel dt n M HS Ne Ni Nf Pe Pi Hms.
  destruct (C63_harris F A q p mx gr e i f fuel dt n HS Ne Ni Nf Pe Pi Hms) as (m1 & m' & L1 & L' & u & v & w & H1 & H2 & H3 & H4 & H5 & E & H). exists m1, m', L1, L', u, v, w.
  do 5 (split; [assumption|]). split; [|exact H].
  exact (settled_program _ _ _ dt n gr (settled_plasma true fuel p _ e i f) m' E).
Qed.
Print Assumptions C68_harris_program.

(** ** examples *)

(** A gas in a box, in doubles: after one step of any execution four of the values are these. *)
Example C68_sod_ex : forall o, run_can (sod_can true 999 (fdec 14 (-1)) [0] [1] electrons) (fdec 1 (-1)) 1 gas_start o ->
  map (fun i => nth i (data_after plane (f_0 electrons) o) f0) [80; 81; 115; 116]%nat =
  [S754_finite false 4507784870983489 (-52); S754_finite true 4527619399363625 (-58); S754_finite false 8998828767515005 (-53); S754_finite true 5988862834431314 (-58)].
Proof.
  intros o H. destruct (C57_sod spec_float _ (fdec 14 (-1)) plane electrons 999 (fdec 1 (-1)) 1 [0%nat] [1%nat] gas_start gas_fields gas (gas_ready _ _) eq_refl) as (m' & L' & E & _).
  - cbn; lia.
  - intros d. cbn. lia.
  - intros d [<-|[]] [Q|[]]. discriminate.
  - reflexivity.
  - change (map Z.of_nat [0%nat]) with [0] in E. change (map Z.of_nat [1%nat]) with [1] in E.
    apply (C68_sod _ _ true 999 _ [0] [1] electrons _ 1 gas_start m' E) in H. rewrite H, <- E. exact C57_sod_ex.
Qed.
(** The program main runs, on six by three cells: every execution ends
    normally, and there is one. *)
Example C68_gem_ex : forall dt n q, exists m', forall o, program_can (gem_solve 999 q [f_0 electrons; f_0 ions; f_0 em])
  (plasma_can true 999 some_plasma (gem_bcs electrons ions em) electrons ions em) dt n (tube_grid (A := FloatArith)) o <-> o = Done m'.
Proof.
  intros dt n q. destruct (C68_gem_program spec_float _ q some_plasma (0, 6) (0, 3) tube_grid electrons ions em 999 dt n (sheet_setting _ _)) as (m1 & m' & L1 & L' & u & v & w & _ & _ & _ & _ & _ & E & _); auto.
  exists m'. exact E.
Qed.

(** ** the advection program *)

(** advect_gaussian has no such guarantee: from every ready state its first step
    can be undefined in any way, whatever the boundary conditions. *)
Theorem C68_advect_refuted : forall F (A : Arith F) (m : mgr F) M L ks q0 q1 q2 dt velocity fuel dims u n k,
  adv_ready (mgr_set_dt (mgr_set_time m f0) dt) M L ks q0 q1 q2 dt velocity fuel -> id_name q0 <> id_name q1 ->
  bc_ready Periodic M fuel dims [q0] -> field_get L q0 = Some u ->
  run_can (advect_can fuel velocity (map Z.of_nat dims) q0 q1 q2) dt (S n) m (Undef k).
Proof.
  intros F A m M L ks q0 q1 q2 dt velocity fuel dims u n k HR N01 HB Hu. pose proof HR as (Hm & HL & Hc & Hk & Hf & Cb1 & Cb2 & Hfu & Ht & Hdt & Hv & Hx).
  unfold run_can. change (fofz 0 : F) with (f0 : F). set (m0 := mgr_set_dt (mgr_set_time m f0) dt) in *.
  destruct (api_bc_solve Periodic m0 M L fuel dims [q0] Hm HL) as (m1 & L1 & E & H1 & H2 & (S1 & S2 & S3) & H4 & H5 & H6 & _); auto.
  { eapply compat_perm; [exact Hc|]. intros x Hx'. rewrite in_app_iff in *. destruct Hx' as [|[<-|[]]]; auto. right. apply Hk. now left. }
  destruct (H6 q0 (or_introl eq_refl)) as (v & Gv & _).
  assert (R1 : adv_ready m1 M L1 ks q0 q1 q2 dt velocity fuel).
  { split; [exact H1|]. split; [exact H2|]. split.
    { eapply compat_perm; [exact Hc|]. intros x Hx'. rewrite in_app_iff in *. destruct Hx' as [Hx'|]; auto. apply H4 in Hx'. rewrite in_app_iff in Hx'. destruct Hx' as [|[<-|[]]]; auto. right. apply Hk. now left. }
    do 5 (split; [assumption|]). rewrite S1, S2, S3. auto. }
  cbn [loop_can]. exists (Undef k). split; [|reflexivity]. unfold advect_can.
  exists (Done m1). split; [symmetry; exact E|]. exists (Undef k). split; [|reflexivity].
  exact (adv_can_undef m1 M L1 ks q0 q1 q2 dt velocity fuel v k R1 Gv N01).
Qed.
Print Assumptions C68_advect_refuted.
(** The fixture of C60, in doubles. *)
Example C68_advect_ex : forall k, run_can (advect_can 40 avel [0; 1] av ap an) (fdec 25 (-2)) 5 (amgr (@adot _ FloatArith)) (Undef k).
Proof.
  intros k. apply (C68_advect_refuted _ _ (amgr adot) amesh (afields adot) [av; ap; an] av ap an (fdec 25 (-2)) avel 40 [0; 1]%nat adot 4 k).
  - destruct (aready _ FloatArith adot) as (X1 & X2 & X3 & X4 & X5 & X6 & X7 & X8 & X9 & X10 & X11 & X12). do 7 (split; [assumption|]). split; [lia|]. split; [discriminate|]. auto.
  - discriminate.
  - split; [intros d Hd; cbn in Hd |- *; repeat destruct Hd as [<-|Hd]; [cbn; unfold hi, lo; cbn; lia..|destruct Hd]|].
    constructor; [|constructor]. split; [apply shapeb_ok; vm_compute; reflexivity|]. split; [exact I|vm_compute; discriminate].
  - reflexivity.
Qed.
