(** * The example programs and main, with their constants and files (C74). *)
From Coq Require Import ZArith List String Lia Bool Floats.SpecFloat Reals Lra.
From Verif Require Import Base BaseFacts BoxSpec BoxFacts Range RangeSpec RangeFacts Indexer Interface
  ApiSpec ApiFacts Arith ArithFloat ArithR Chunk FieldSpec FieldFacts ChunkFacts Properties_Chunk VarId Manager MgrSpec MgrFacts
  BC BCSpec Sweep SweepSpec Euler Maxwell SourceSpec EulerSpec Sources Programs ProgramsSpec Properties_Programs Initial InitialSpec InitialFacts Properties_Initial FluxFacts Whole Properties_Whole
  Vtk VtkSpec VtkFacts Exception Properties_Exception Main MainSpec MainFacts.
Import ListNotations.
Open Scope Z_scope.

(** The unknowns as they are called in the files. *)
Definition fluid_id (name : string) : vid := mkVid name ["rho"; "px"; "py"; "pz"; "e"]%string volume_average.
Definition em_id (name : string) : vid := mkVid name ["Ex"; "Ey"; "Ez"; "Bx"; "By"; "Bz"]%string volume_average.
(** Two fluids of charges [qe], [qi] and masses [me], [mi] per particle. *)
Definition two_fluids {F} {A : Arith F} (gamma c eps0 qe me qi mi : F) : plasma :=
  mkPlasma gamma c (qe / me)%F (qi / mi)%F [(- qe / me / eps0)%F; (- qi / mi / eps0)%F].
(** A grid on [M] that starts at [starts]. *)
Definition grid_on {F} {A : Arith F} (M : box) (starts widths : list F) : grid F :=
  mkGrid (range_of M) starts widths (map (fun p => (fst p / fofz (snd (snd p) - fst (snd p)))%F) (combine widths M)).

Lemma saves_ext : forall F (P Q : (string -> bool) -> out (list (string * stream F))) dir c n, (forall o, P o = Q o) -> saves Q dir c n -> saves P dir c n.
Proof. intros F P Q dir c n E H o. rewrite E. apply H. Qed.
Lemma program_saves : forall F (A : Arith F) fuel dir M fams (g : grid F) U ic step dt (frames steps : Z) (m1 : mgr F) L1,
  (1 <= fuel)%nat -> fams <> [] -> Forall (fun f => id_basis (f_0 f) = volume_average) fams -> (List.length M <= 3)%nat -> grid_fits g M -> 0 <= frames ->
  ic (mgr_new g) = Done m1 -> program_ready m1 M L1 fams fuel -> mg_grid m1 = g -> sys_is M L1 (map f_0 fams) (U 0%nat) ->
  (forall n, exists m' L', run step dt n m1 = Done m' /\ ran m1 m' M L1 L' fams dt n (U n)) ->
  saves (fun opens => simulate fuel opens dir (map f_0 fams) ic step dt frames steps g) dir
    (movie M (origin_of g M) (spacing_of g M) (map f_0 fams) U (Z.to_nat steps)) (S (Z.to_nat frames)).
Proof.
  intros F A fuel dir M fams g U ic step dt frames steps m1 L1 H1 H2 H3 H4 H5 H6 H7 (_ & (P1 & P2 & P3) & _) H9 H10 HR.
  assert (CI : forall L : list (vid * field F), compatible (ids L ++ flat_map f_ids fams) -> compatible (ids L ++ map f_0 fams)).
  { intros L HC a b Ha Hb. apply HC; rewrite in_app_iff in *; [destruct Ha as [Ha|Ha]|destruct Hb as [Hb|Hb]]; auto; right; [apply in_map_iff in Ha as (f & <- & Hf)|apply in_map_iff in Hb as (f & <- & Hf)]; now apply f0_in. }
  apply (simulate_saves fuel dir _ M g U ic step dt frames steps m1 L1); auto.
  - destruct fams; [congruence|discriminate].
  - apply Forall_forall. intros k Hk. apply in_map_iff in Hk as (f & <- & Hf). rewrite Forall_forall in H3. auto.
  - intros n. destruct (HR n) as (m' & L' & E & (S1 & S2 & S3) & S4 & _ & _ & S5 & _). exists m', L'. rewrite S4. repeat (split; auto).
Qed.

(** ** C74: the programs *)

(** Enough loop fuel for every loop of the programs. *)
Definition enough (fuel : nat) : Prop := 1000000 <= Z.of_nat fuel.
Ltac has_setting HU := unfold setting; split; [reflexivity|split; [cbn; lia|split; [cbn; lia|
  split; [intros d Hd; cbn in Hd |- *; repeat destruct Hd as [<-|Hd]; [cbn; unfold hi, lo; cbn; lia..|destruct Hd]|
  split; [split; [names_differ|repeat (constructor; [split; [repeat (constructor; [reflexivity|]); constructor|apply shapeb_ok; vm_compute; reflexivity]|]); constructor]|
  repeat (constructor; [split; [apply shapeb_ok; vm_compute; reflexivity|refine (Z.le_trans _ _ _ _ HU); vm_compute; discriminate]|]); constructor]]]]].

(** sod_shock_tube: 101 files, every five steps of length 0.5/500. *)
Definition sod_mesh : box := [(0, 500); (0, 2)].
Definition sod_grid {F} {A : Arith F} : grid F := grid_on sod_mesh [(- fdec 5 (-1))%F; (- fdec 5 (-1))%F] [f1; f1].
Lemma sod_setting : forall F (A : Arith F) fuel, enough fuel -> setting (@sod_grid F A) sod_mesh [sod_fluid] fuel.
Proof. intros F A fuel HU. has_setting HU. Qed.
Theorem C74_sod : forall F (A : Arith F) fuel dir, enough fuel ->
  let gamma := fdec 14 (-1) in let dt := (fdec 5 (-1) / fofz 500)%F in let kinds d := match d with O => NoSlip | _ => Periodic end in
  exists u : field F,
    values_in sod_mesh (fluid_id "fluid") u (fun x => blast (center sod_grid x 0 <? f0)%F (fdec 125 (-3)) (fdec 1 (-1)) gamma) /\
    saves (fun opens => sod_shock_tube true fuel opens dir) dir
      (movie sod_mesh (- fdec 5 (-1) + f1 / fofz 2, - fdec 5 (-1) + f1 / fofz 2, f0)%F (f1 / fofz 500, f1 / fofz 2, f1 / fofz 500)%F [fluid_id "fluid"]
        (fun n => Nat.iter n (rk3 (fun V _ => fv_rhs 5 (flux_of (euler_flux gamma)) sod_mesh kinds (spacing sod_grid) [0; 1]%nat (V 0%nat)) dt) (fun _ => u)) 5) 101.
Proof.
  intros F A fuel dir HU gamma dt kinds. pose proof (sod_setting F A fuel HU) as HS.
  destruct (C54_shock_tube F A (mgr_new sod_grid) sod_mesh [] [f_0 sod_fluid] fuel (fdec 125 (-3)) (fdec 1 (-1)) gamma) as (m1 & L1 & E1 & D).
  { apply (start_ready F A sod_grid sod_mesh [sod_fluid] fuel 5 HS). constructor; [cbn; lia|constructor]. }
  { cbn; lia. }
  destruct (done_ready F A sod_grid sod_mesh [sod_fluid] fuel m1 L1 _ HS D) as [PR EG]. destruct D as (_ & _ & _ & _ & _ & D). destruct (D (f_0 sod_fluid) (or_introl eq_refl)) as (u & Eu & Hu & _).
  exists u. split; [exact Hu|].
  refine (program_saves F A fuel dir sod_mesh [sod_fluid] sod_grid _ (shock_tube_solve fuel (fdec 125 (-3)) (fdec 1 (-1)) gamma [f_0 sod_fluid]) (sod_step true fuel gamma [0] [1] sod_fluid) dt 100 5 m1 L1 _ _ _ _ _ _ E1 PR EG _ _).
  - unfold enough in HU. lia.
  - discriminate.
  - repeat constructor.
  - cbn; lia.
  - split; [|split]; reflexivity.
  - lia.
  - intros [|i] k E; [|destruct i; discriminate]. injection E as <-. exists u. auto.
  - intros n. pose proof (C57_sod F A gamma sod_mesh sod_fluid fuel dt n [0%nat] [1%nat] m1 L1 u PR eq_refl ltac:(cbn; lia)) as X.
    destruct X as (m' & L' & E & R); auto.
    + intros d. cbn. lia.
    + intros d [<-|[]] [H|[]]. discriminate.
    + exists m', L'. split; [exact E|]. rewrite EG in R. exact R.
Qed.
Print Assumptions C74_sod.

(** wave_1D: 101 files, every ten steps of length 1/1000; three dimensions, the wave
    runs along the last. *)
Definition wave_mesh : box := [(0, 2); (0, 2); (0, 128)].
Definition wave_grid {F} {A : Arith F} : grid F := let h := (- fdec 5 (-1))%F in grid_on wave_mesh [h; h; h] [f1; f1; f1].
Lemma wave_setting : forall F (A : Arith F) fuel, enough fuel -> setting (@wave_grid F A) wave_mesh [wave_field] fuel.
Proof. intros F A fuel HU. has_setting HU. Qed.
Theorem C74_wave : forall F (A : Arith F) fuel dir, enough fuel ->
  let dt := (f1 / fofz 1000)%F in let k := (fofz 2 * fdec 314159263 (-8))%F in let o := (- fdec 5 (-1) + f1 / fofz 2)%F in
  exists u : field F,
    (* E and B of a wave that runs along z: (E cross B) has the direction of z *)
    values_in wave_mesh (em_id "field") u (fun x j => let s := fsin (k * center wave_grid x 2)%F in
      nth (Z.to_nat j) [f1 * f1 * s; - f1 * f1 * s; f0; f1 * s; f1 * s; f1]%F f0) /\
    saves (fun opens => wave_1D true fuel opens dir) dir
      (movie wave_mesh (o, o, o) (f1 / fofz 2, f1 / fofz 2, f1 / fofz 128)%F [em_id "field"]
        (fun n => Nat.iter n (rk3 (fun V _ => fv_rhs 6 (flux_of (maxwell_flux f1)) wave_mesh (fun _ => Periodic) (spacing wave_grid) [0; 1; 2]%nat (V 0%nat)) dt) (fun _ => u)) 10) 101.
Proof.
  intros F A fuel dir HU dt k o. pose proof (wave_setting F A fuel HU) as HS.
  destruct (wave_done (mgr_new wave_grid) wave_mesh [] [f_0 wave_field] fuel 2 f1 k f1 f1 f1) as (m1 & L1 & E1 & D); auto.
  { apply (start_ready F A wave_grid wave_mesh [wave_field] fuel 6 HS). constructor; [cbn; lia|constructor]. }
  destruct (done_ready F A wave_grid wave_mesh [wave_field] fuel m1 L1 _ HS D) as [PR EG]. destruct D as (_ & _ & _ & _ & _ & D). destruct (D (f_0 wave_field) (or_introl eq_refl)) as (u & Eu & Hu).
  exists u. split.
  { set (W := fun (x : list Z) (j : Z) => match find (fun p => fst p =? j) (wave_values 2 f1 f1 f1 f1 (fsin (k * center wave_grid x 2)%F)) with Some p => snd p | None => f0 end).
    destruct (painted_in wave_mesh (f_0 wave_field) false _ u W Hu) as [V6 _]; [reflexivity|]. intros x j Hx Hj. change (em_id "field") with (f_0 wave_field) in Hx.
    rewrite (V6 x j) by (auto; now apply (zone_spots true)). unfold W. cbn in Hj.
    assert (j = 0 \/ j = 1 \/ j = 2 \/ j = 3 \/ j = 4 \/ j = 5) as HJ by lia.
    repeat destruct HJ as [->|HJ]; try subst j; reflexivity. }
  unfold wave_1D; cbv zeta.
  lazymatch goal with |- saves (fun o => with_grid 3 _ _ _ (fun g => simulate fuel o dir _ (wave_solve fuel 2 f1 (fofz 2 * fdec 314159263 (-8))%F f1 f1 f1 _) (pulse_step true fuel f1 [0; 1; 2] _) _ 100 10 g)) _ _ _ => idtac end.
  refine (program_saves F A fuel dir wave_mesh [wave_field] wave_grid _ (wave_solve fuel 2 f1 k f1 f1 f1 [f_0 wave_field]) (pulse_step true fuel f1 [0; 1; 2] wave_field) dt 100 10 m1 L1 _ _ _ _ _ _ E1 PR EG _ _).
  - unfold enough in HU. lia.
  - discriminate.
  - repeat constructor.
  - cbn; lia.
  - split; [|split]; reflexivity.
  - lia.
  - intros [|i] q E; [|destruct i; discriminate]. injection E as <-. exists u. auto.
  - intros n. destruct (C57_pulse F A f1 wave_mesh wave_field fuel dt n m1 L1 u PR eq_refl Eu) as (m' & L' & E & R).
    exists m', L'. split; [exact E|]. rewrite EG in R. exact R.
Qed.
Print Assumptions C74_wave.

(** two_fluid_brio_wu: 101 files, every ten steps of length 0.1/1000. *)
Definition data_dir : string := "/Users/seamill/local_storage/quikin/data".
Definition bw_mesh : box := [(0, 100)].
Definition bw_grid {F} {A : Arith F} : grid F := grid_on bw_mesh [(- fdec 5 (-1))%F] [f1].
Lemma bw_setting : forall F (A : Arith F) fuel, enough fuel -> setting (@bw_grid F A) bw_mesh [pl_electrons; pl_ions; pl_field] fuel.
Proof. intros F A fuel HU. has_setting HU. Qed.
Theorem C74_brio_wu : forall F (A : Arith F) fuel, enough fuel ->
  let dt := (fdec 1 (-1) / fofz 1000)%F in
  let p := two_fluids (fofz 2) (fofz 10) (fdec 1 (-6)) (- f1)%F (fdec 1 (-1)) f1 f1 in
  let side x l r := if (center bw_grid x 0 <? f0)%F then l else r in
  let energy P := (P * (f1 / (fofz 2 - f1)))%F in
  exists u v w : field F,
    values_in bw_mesh (fluid_id "electrons") u (fun x => at_rest (fdec 1 (-1) * side x f1 (fdec 125 (-3)))%F (energy (side x f1 (fdec 1 (-1))))) /\
    values_in bw_mesh (fluid_id "ions") v (fun x => at_rest (fdec 1 (-1) * side x f1 (fdec 125 (-3)) * f1 / fdec 1 (-1))%F (energy (side x f1 (fdec 1 (-1))))) /\
    values_in bw_mesh (em_id "field") w (fun x => two_comps 3 (fdec 75 (-2)) 4 (f1 * side x f1 (fofz (-1)) * (f1 / (fofz 2 - f1)))%F) /\
    saves (two_fluid_brio_wu true fuel) data_dir
      (movie bw_mesh (- fdec 5 (-1) + f1 / fofz 2, f0, f0)%F (f1 / fofz 100, f1 / fofz 100, f1 / fofz 100)%F [fluid_id "electrons"; fluid_id "ions"; em_id "field"]
        (fun n => Nat.iter n (rk3 (plasma_op p (flux_of (euler_flux (fofz 2))) (flux_of (maxwell_flux (fofz 10))) bw_mesh wall_kinds (spacing bw_grid) [0%nat] [0%nat]) dt) (three u v w)) 10) 101.
Proof.
  intros F A fuel HU dt p sd energy. pose proof (bw_setting F A fuel HU) as HS. set (q := mkBw (fofz 2) (fdec 1 (-1)) f1 f1 (fdec 125 (-3)) f1 (fdec 1 (-1)) (fdec 75 (-2)) f1).
  destruct (C54_brio_wu F A (mgr_new bw_grid) bw_mesh [] (f_0 pl_electrons) (f_0 pl_ions) (f_0 pl_field) fuel q) as (m1 & L1 & u & v & w & E1 & D & Eu & Ev & Ew & _ & _ & _ & Vu & Vv & Vw); auto.
  { apply (start_ready F A bw_grid bw_mesh [pl_electrons; pl_ions; pl_field] fuel 5 HS). repeat (constructor; [cbn; lia|]). constructor. }
  { exact (f0_names [pl_electrons; pl_ions; pl_field] (proj1 (proj1 (proj2 (proj2 (proj2 (proj2 HS))))))). }
  destruct (done_ready F A bw_grid bw_mesh [pl_electrons; pl_ions; pl_field] fuel m1 L1 _ HS D) as [PR EG].
  exists u, v, w. split; [exact Vu|]. split; [exact Vv|]. split; [exact Vw|].
  refine (program_saves F A fuel data_dir bw_mesh [pl_electrons; pl_ions; pl_field] bw_grid _ (brio_wu_solve fuel q [f_0 pl_electrons; f_0 pl_ions; f_0 pl_field])
    (plasma_step true fuel p (brio_wu_bcs pl_electrons pl_ions pl_field) pl_electrons pl_ions pl_field) dt 100 10 m1 L1 _ _ _ _ _ _ E1 PR EG _ _).
  - unfold enough in HU. lia.
  - discriminate.
  - repeat constructor.
  - cbn; lia.
  - split; [|split]; reflexivity.
  - lia.
  - apply three_is; auto.
  - intros n. destruct (C57_brio_wu F A p (0, 100) pl_electrons pl_ions pl_field fuel dt n m1 L1 u v w PR eq_refl eq_refl eq_refl eq_refl eq_refl eq_refl Eu Ev Ew) as (m' & L' & E & R).
    exists m', L'. split; [exact E|]. rewrite EG in R. exact R.
Qed.
Print Assumptions C74_brio_wu.

(** The constants of the current sheets, in SI units; [L] is the length Lx. *)
Section Sheets.
Context {F : Type} {A : Arith F}.
Let e : F := fdec 160217662 (-27).
Let me : F := fdec 910938356 (-39).
Let mi : F := (fofz 25 * me)%F.
Let eps0 : F := fdec 885418782 (-20).
Let c : F := fofz 299792458.
Let gamma : F := (fofz 5 / fofz 3)%F.
Let n0 : F := (c * c * mi * eps0 / (e * e * f1 * f1))%F.
Let Te : F := (fdec 1 (-1) * c * (fdec 1 (-1) * c) * me / gamma)%F.
Let Ti : F := (Te / fdec 2 (-1))%F.
Let B0 : F := fsqrt (fofz 2 * fdec 125663706 (-14) * (n0 * (Te + Ti)))%F.
Definition sheet_length (k : F) : F := (k * fdec 314159263 (-8) * f1)%F.
Definition sheet (L : F) : gem F := mkGem (fdec 5 (-1) * f1)%F L n0 (fdec 2 (-1) * n0)%F gamma (- e)%F e me mi Te Ti B0.
Definition sheet_fluids : plasma := two_fluids gamma c eps0 (- e)%F me e mi.
Definition cyclotron : F := (e * B0 / mi)%F.
End Sheets.

(** harris_current_sheet: 101 files, every hundred steps of length 1/10000 of the
    time of a gyration. *)
Definition harris_mesh : box := [(0, 400)].
Definition harris_grid {F} {A : Arith F} : grid F := let L := sheet_length (fofz 4) in grid_on harris_mesh [(- L / fofz 2)%F] [L].
Lemma harris_setting : forall F (A : Arith F) fuel, enough fuel -> setting (@harris_grid F A) harris_mesh [pl_electrons; pl_ions; pl_field] fuel.
Proof. intros F A fuel HU. has_setting HU. Qed.
Theorem C74_harris : forall F (A : Arith F) fuel, enough fuel ->
  let ids := [fluid_id "electrons"; fluid_id "ions"; em_id "field"] in
  let dt := (f1 / cyclotron / fofz 10000)%F in let p := sheet_fluids in let L := sheet_length (fofz 4) in
  exists m1 L1 (u v w : field F),
    gem_solve fuel (sheet L) ids (mgr_new harris_grid) = Done m1 /\ mgr_holds m1 harris_mesh L1 /\
    field_get L1 (fluid_id "electrons") = Some u /\ field_get L1 (fluid_id "ions") = Some v /\ field_get L1 (em_id "field") = Some w /\
    saves (harris_current_sheet true fuel) data_dir
      (movie harris_mesh (- L / fofz 2 + L / fofz 2, f0, f0)%F (L / fofz 400, L / fofz 400, L / fofz 400)%F ids
        (fun n => Nat.iter n (rk3 (plasma_op p (flux_of (euler_flux (pl_gamma p))) (flux_of (maxwell_flux (pl_c p))) harris_mesh wall_kinds (spacing harris_grid) [0%nat] [0%nat]) dt) (three u v w)) 100) 101.
Proof.
  intros F A fuel HU ids dt p L. pose proof (harris_setting F A fuel HU) as HS.
  destruct (gem_done (mgr_new harris_grid) harris_mesh [] (f_0 pl_electrons) (f_0 pl_ions) (f_0 pl_field) fuel (sheet L)) as (m1 & L1 & E1 & D); auto.
  { apply (start_ready F A harris_grid harris_mesh [pl_electrons; pl_ions; pl_field] fuel 5 HS). repeat (constructor; [cbn; lia|]). constructor. }
  { exact (f0_names [pl_electrons; pl_ions; pl_field] (proj1 (proj1 (proj2 (proj2 (proj2 (proj2 HS))))))). }
  destruct (done_ready F A harris_grid harris_mesh [pl_electrons; pl_ions; pl_field] fuel m1 L1 _ HS D) as [PR EG]. destruct D as (D1 & _ & _ & _ & _ & D).
  destruct (D (f_0 pl_electrons)) as (u & Eu & _); [now left|]. destruct (D (f_0 pl_ions)) as (v & Ev & _); [now (right; left)|]. destruct (D (f_0 pl_field)) as (w & Ew & _); [now (right; right; left)|].
  exists m1, L1, u, v, w. split; [exact E1|]. split; [exact D1|]. split; [exact Eu|]. split; [exact Ev|]. split; [exact Ew|].
  refine (program_saves F A fuel data_dir harris_mesh [pl_electrons; pl_ions; pl_field] harris_grid _ (gem_solve fuel (sheet L) ids)
    (plasma_step true fuel p (brio_wu_bcs pl_electrons pl_ions pl_field) pl_electrons pl_ions pl_field) dt 100 100 m1 L1 _ _ _ _ _ _ E1 PR EG _ _).
  - unfold enough in HU. lia.
  - discriminate.
  - repeat constructor.
  - cbn; lia.
  - split; [|split]; reflexivity.
  - lia.
  - apply three_is; auto.
  - intros n. destruct (C57_brio_wu F A p (0, 400) pl_electrons pl_ions pl_field fuel dt n m1 L1 u v w PR eq_refl eq_refl eq_refl eq_refl eq_refl eq_refl Eu Ev Ew) as (m' & L' & E & R).
    exists m', L'. split; [exact E|]. rewrite EG in R. exact R.
Qed.
Print Assumptions C74_harris.

(** gem_challenge: 1001 files, every 125 steps of length 40/125000 of the time of a
    gyration. *)
Definition gem_mesh : box := [(0, 256); (0, 512)].
Definition gem_grid {F} {A : Arith F} : grid F := let L := sheet_length f1 in grid_on gem_mesh [(- L / fofz 2)%F; (- L)%F] [L; (fofz 2 * L)%F].
Lemma gem_setting : forall F (A : Arith F) fuel, enough fuel -> setting (@gem_grid F A) gem_mesh [pl_electrons; pl_ions; pl_field] fuel.
Proof. intros F A fuel HU. has_setting HU. Qed.
Theorem C74_gem : forall F (A : Arith F) fuel dir, enough fuel ->
  let ids := [fluid_id "electrons"; fluid_id "ions"; em_id "field"] in
  let dt := (fofz 40 / cyclotron / fofz 125000)%F in let p := sheet_fluids in let L := sheet_length f1 in
  exists m1 L1 (u v w : field F),
    gem_solve fuel (sheet L) ids (mgr_new gem_grid) = Done m1 /\ mgr_holds m1 gem_mesh L1 /\
    field_get L1 (fluid_id "electrons") = Some u /\ field_get L1 (fluid_id "ions") = Some v /\ field_get L1 (em_id "field") = Some w /\
    saves (fun opens => gem_challenge true fuel opens dir) dir
      (movie gem_mesh (- L / fofz 2 + L / fofz 2, - L + fofz 2 * L / fofz 2, f0)%F (L / fofz 256, fofz 2 * L / fofz 512, L / fofz 256)%F ids
        (fun n => Nat.iter n (rk3 (plasma_op p (flux_of (euler_flux (pl_gamma p))) (flux_of (maxwell_flux (pl_c p))) gem_mesh gem_kinds (spacing gem_grid) [0; 1]%nat [0; 1]%nat) dt) (three u v w)) 125) 1001.
Proof.
  intros F A fuel dir HU ids dt p L. pose proof (gem_setting F A fuel HU) as HS.
  destruct (gem_done (mgr_new gem_grid) gem_mesh [] (f_0 pl_electrons) (f_0 pl_ions) (f_0 pl_field) fuel (sheet L)) as (m1 & L1 & E1 & D); auto.
  { apply (start_ready F A gem_grid gem_mesh [pl_electrons; pl_ions; pl_field] fuel 5 HS). repeat (constructor; [cbn; lia|]). constructor. }
  { exact (f0_names [pl_electrons; pl_ions; pl_field] (proj1 (proj1 (proj2 (proj2 (proj2 (proj2 HS))))))). }
  destruct (done_ready F A gem_grid gem_mesh [pl_electrons; pl_ions; pl_field] fuel m1 L1 _ HS D) as [PR EG]. destruct D as (D1 & _ & _ & _ & _ & D).
  destruct (D (f_0 pl_electrons)) as (u & Eu & _); [now left|]. destruct (D (f_0 pl_ions)) as (v & Ev & _); [now (right; left)|]. destruct (D (f_0 pl_field)) as (w & Ew & _); [now (right; right; left)|].
  exists m1, L1, u, v, w. split; [exact E1|]. split; [exact D1|]. split; [exact Eu|]. split; [exact Ev|]. split; [exact Ew|].
  change 1001%nat with (S (Z.to_nat 1000)). change 125%nat with (Z.to_nat 125).
  refine (program_saves F A fuel dir gem_mesh [pl_electrons; pl_ions; pl_field] gem_grid _ (gem_solve fuel (sheet L) ids)
    (plasma_step true fuel p (gem_bcs pl_electrons pl_ions pl_field) pl_electrons pl_ions pl_field) dt 1000 125 m1 L1 _ _ _ _ _ _ E1 PR EG _ _).
  - unfold enough in HU. lia.
  - discriminate.
  - repeat constructor.
  - cbn; lia.
  - split; [|split]; reflexivity.
  - lia.
  - apply three_is; auto.
  - intros n. destruct (C57_gem F A p (0, 256) (0, 512) pl_electrons pl_ions pl_field fuel dt n m1 L1 u v w PR eq_refl eq_refl eq_refl eq_refl eq_refl eq_refl Eu Ev Ew) as (m' & L' & E & R).
    exists m', L'. split; [exact E|]. rewrite EG in R. exact R.
Qed.
Print Assumptions C74_gem.

(** gaussian_pulse and advect_gaussian write no file: they begin with undefined
    behaviour, whatever files can be created. *)
Definition pulse_mesh : box := [(0, 128)].
Definition pulse_grid {F} {A : Arith F} : grid F := grid_on pulse_mesh [(- fdec 5 (-1))%F] [f1].
Lemma pulse_setting : forall F (A : Arith F) fuel, enough fuel -> setting (@pulse_grid F A) pulse_mesh [wave_field] fuel.
Proof. intros F A fuel HU. has_setting HU. Qed.
Theorem C74_gaussian_pulse_refuted : forall F (A : Arith F) fuel opens, enough fuel -> gaussian_pulse true fuel opens = Undef Uninitialised.
Proof.
  intros F A fuel opens HU.
  assert (E : magnetic_pulse_solve fuel f1 (fdec 1 (-2)) [f_0 wave_field] (mgr_new pulse_grid) = Undef Uninitialised).
  { apply (pulse_uninit (mgr_new pulse_grid) pulse_mesh []); [|discriminate|cbn; lia].
    apply (start_ready F A pulse_grid pulse_mesh [wave_field] fuel 6 (pulse_setting F A fuel HU)). constructor; [cbn; lia|constructor]. }
  change (gaussian_pulse true fuel opens) with (simulate fuel opens data_dir [f_0 wave_field] (magnetic_pulse_solve fuel f1 (fdec 1 (-2)) [f_0 wave_field])
    (pulse_step true fuel (fofz 5) [0] wave_field) (f1 / fofz 1000)%F 100 10 pulse_grid).
  unfold simulate, on_mgr. cbn [sm_mgr]. rewrite E. reflexivity.
Qed.
Print Assumptions C74_gaussian_pulse_refuted.
Definition square_mesh : box := [(0, 128); (0, 128)].
Definition square_grid {F} {A : Arith F} : grid F := let h := (- fdec 5 (-1))%F in grid_on square_mesh [h; h] [f1; f1].
Theorem C74_advect_gaussian_refuted : forall F (A : Arith F) fuel opens, enough fuel -> advect_gaussian fuel opens = Undef Uninitialised.
Proof.
  intros F A fuel opens HU.
  assert (E : gaussian_solve fuel f1 [f0; f0; f0] (fdec 1 (-1)) [rho_id "variable"] (mgr_new square_grid) = Undef Uninitialised).
  { apply (gaussian_uninit (mgr_new square_grid) square_mesh []); [|discriminate|cbn; lia].
    refine (ic_start_ready F A square_grid square_mesh [rho_id "variable"] 1 fuel eq_refl _ _ _ _); [constructor; [intros []|constructor]| |cbn; lia|cbn; lia].
    constructor; [|constructor]. split; [apply shapeb_ok; vm_compute; reflexivity|]. split; [cbn; lia|]. refine (Z.le_trans _ _ _ _ HU). vm_compute. discriminate. }
  change (advect_gaussian fuel opens) with (simulate fuel opens data_dir [rho_id "variable"] (gaussian_solve fuel f1 [f0; f0; f0] (fdec 1 (-1)) [rho_id "variable"])
    (advect_step fuel [(- f1)%F; (- f1)%F] [] (rho_id "variable") (rho_id "partial_variable") (rho_id "new_variable")) (f1 / fofz 1000)%F 100 10 square_grid).
  unfold simulate, on_mgr. cbn [sm_mgr]. rewrite E. reflexivity.
Qed.
Print Assumptions C74_advect_gaussian_refuted.
Lemma plenty : enough (Z.to_nat 1000000).
Proof. unfold enough. rewrite Z2Nat.id by lia. lia. Qed.
Example C74_refuted_ex : gaussian_pulse (A := FloatArith) true (Z.to_nat 1000000) (fun _ => true) = Undef Uninitialised /\
  advect_gaussian (A := FloatArith) (Z.to_nat 1000000) (fun _ => true) = Undef Uninitialised.
Proof. split; [apply C74_gaussian_pulse_refuted|apply C74_advect_gaussian_refuted]; apply plenty. Qed.

(** No file is written over another. *)
Theorem C74_names : forall F dir (content : nat -> stream F) n, NoDup (map fst (saved dir content n)) /\ List.length (saved dir content n) = n.
Proof.
  intros F dir content n. unfold saved. rewrite map_map, map_length, seq_length. split; [|reflexivity]. cbn [fst].
  apply FinFun.Injective_map_NoDup; [|apply seq_NoDup]. intros j k. apply frame_inj.
Qed.
Print Assumptions C74_names.
Example C74_names_ex : map fst (saved "d" (fun _ => [] : stream spec_float) 3) = ["d/frame_0.vtk"; "d/frame_1.vtk"; "d/frame_2.vtk"]%string /\ frame "/tmp" 1000 = "/tmp/frame_1000.vtk"%string.
Proof. split; vm_compute; reflexivity. Qed.

(** main: if all 1001 files can be created, they are written and the program ends
    normally. *)
Definition gem_dir : string := "/home/seamill/local_storage/quikin/plasma/gem_challenge/data".
Theorem C74_main : forall F (A : Arith F) fuel opens, enough fuel -> (forall k, (k <= 1000)%nat -> opens (frame gem_dir k) = true) ->
  exists content, saves (fun opens => gem_challenge true fuel opens gem_dir) gem_dir content 1001 /\ main true fuel opens = Done (saved gem_dir content 1001).
Proof.
  intros F A fuel opens HU HO. destruct (C74_gem F A fuel gem_dir HU) as (m1 & L1 & u & v & w & _ & _ & _ & _ & _ & S). eexists. split; [exact S|].
  destruct (S opens) as [S1 _]. unfold main. fold gem_dir. rewrite S1 by (intros k Hk; apply HO; lia). reflexivity.
Qed.
Print Assumptions C74_main.
(** Refuted: main does not report a file that cannot be created.  Its handler reads
    the message after it is gone. *)
Lemma least : forall (f : nat -> bool) k, f k = false -> exists j, (j <= k)%nat /\ f j = false /\ forall i, (i < j)%nat -> f i = true.
Proof.
  intros f k. induction k as [k IH] using (well_founded_induction Wf_nat.lt_wf). intros H.
  destruct (forallb f (seq 0 k)) eqn:E.
  - exists k. split; [lia|]. split; [exact H|]. intros i Hi. rewrite forallb_forall in E. apply E. apply in_seq. lia.
  - assert (X : exists i, (i < k)%nat /\ f i = false).
    { clear -E. induction k as [|k IH]; [discriminate|]. rewrite seq_S, forallb_app in E. cbn in E. destruct (forallb f (seq 0 k)); [exists k; split; [lia|]; now destruct (f k)|].
      destruct (IH eq_refl) as (i & Hi & Fi). exists i. split; [lia|exact Fi]. }
    destruct X as (i & Hi & Fi). destruct (IH i Hi Fi) as (j & J1 & J2 & J3). exists j. split; [lia|]. auto.
Qed.
Theorem C74_main_refuted : forall F (A : Arith F) fuel opens k, enough fuel -> (k <= 1000)%nat -> opens (frame gem_dir k) = false ->
  main true fuel opens = Undef DanglingPointer.
Proof.
  intros F A fuel opens k HU Hk HF. destruct (least (fun k => opens (frame gem_dir k)) k HF) as (j & J1 & J2 & J3). cbn beta in J2, J3.
  destruct (C74_gem F A fuel gem_dir HU) as (m1 & L1 & u & v & w & _ & _ & _ & _ & _ & S). destruct (S opens) as [_ S2]. unfold main. fold gem_dir.
  rewrite (S2 j) by (auto; lia). cbv beta iota. rewrite (proj2 (C52_what_refuted _)). reflexivity.
Qed.
Print Assumptions C74_main_refuted.
(** In doubles: with a directory that exists 1001 files, without it undefined
    behaviour. *)
Example C74_main_ex : (exists fs, main (A := FloatArith) true (Z.to_nat 1000000) (fun _ => true) = Done fs /\ List.length fs = 1001%nat /\
    nth_error (map fst fs) 7 = Some "/home/seamill/local_storage/quikin/plasma/gem_challenge/data/frame_7.vtk"%string) /\
  main (A := FloatArith) true (Z.to_nat 1000000) (fun _ => false) = Undef DanglingPointer.
Proof.
  split; [|apply (C74_main_refuted _ _ _ _ 0); [apply plenty|lia|reflexivity]].
  destruct (C74_main spec_float FloatArith (Z.to_nat 1000000) (fun _ => true) plenty ltac:(auto)) as (content & _ & E). eexists. split; [exact E|].
  split; [apply (C74_names _ gem_dir content 1001)|]. change 1001%nat with (8 + 993)%nat. reflexivity.
Qed.
