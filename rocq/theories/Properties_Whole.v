(** * Whole programs: initial condition and any number of steps (C63). *)
From Coq Require Import ZArith List String Lia Bool Floats.SpecFloat Reals Lra.
From Verif Require Import Base BaseFacts BoxSpec BoxFacts Range RangeSpec RangeFacts Indexer Interface
  ApiSpec ApiFacts Arith ArithFloat ArithR Chunk FieldSpec FieldFacts ChunkFacts Properties_Chunk VarId Manager MgrSpec MgrFacts
  BC BCSpec Sweep SweepSpec Euler Maxwell SourceSpec EulerSpec Programs ProgramsSpec Properties_Programs Initial InitialSpec InitialFacts Properties_Initial FluxFacts Whole.
Import ListNotations.
Open Scope Z_scope.

(** What a program needs: the grid is that of mesh [M] with a start and a spacing
    in every dimension, at least two cells wide, and there is room for all
    variables. *)
Definition setting {F} (gr : grid F) (M : box) (fams : list family) (fuel : nat) : Prop :=
  gr_range gr = range_of M /\ (List.length M <= List.length (gr_starts gr))%nat /\ (List.length M <= List.length (gr_dxs gr))%nat /\
  wide M 2 (seq 0 (List.length M)) /\ families_ok M fams /\ room M fuel (flat_map f_ids fams).

Lemma f0_in : forall fams f, In f fams -> In (f_0 f) (flat_map f_ids fams).
Proof. intros fams f H. apply in_flat_map. exists f. split; [exact H|]. now left. Qed.
Lemma f0_names : forall fams, NoDup (map id_name (flat_map f_ids fams)) -> NoDup (map id_name (map f_0 fams)).
Proof.
  induction fams as [|f fams IH]; intros N; [constructor|]. cbn [flat_map] in N. unfold f_ids in N. cbn [app map] in N. rewrite !NoDup_cons_iff in N.
  destruct N as (N1 & _ & _ & _ & _ & N). cbn [map]. constructor; [|now apply IH].
  intros H. apply N1. cbn [In]. do 4 right. rewrite in_map_iff in H. destruct H as (k & E & Hk). apply in_map_iff in Hk as (g & <- & Hg).
  rewrite <- E. apply in_map. now apply f0_in.
Qed.

Lemma start_ready : forall F (A : Arith F) (gr : grid F) M fams fuel n, setting gr M fams fuel ->
  Forall (fun f => (n <= List.length (id_comps (f_0 f)))%nat) fams -> ic_ready (mgr_new gr) M [] (map f_0 fams) n fuel.
Proof.
  intros F A gr M fams fuel n (G & G1 & G2 & W & (N & FO) & R) HN. apply (ic_start_ready F A); auto; [now apply f0_names|].
  rewrite Forall_forall in HN |- *. unfold room in R. rewrite Forall_forall in R. intros k Hk. apply in_map_iff in Hk as (f & <- & Hf).
  destruct (R _ (f0_in _ _ Hf)) as [R1 R2]. auto.
Qed.
Lemma done_ready : forall F (A : Arith F) (gr : grid F) M fams fuel (m' : mgr F) L' P, setting gr M fams fuel ->
  ic_done (mgr_new gr) m' M [] L' (map f_0 fams) P -> program_ready m' M L' fams fuel /\ mg_grid m' = gr.
Proof.
  intros F A gr M fams fuel m' L' P (G & G1 & G2 & W & FO & R) (D1 & D2 & D3 & D4 & _). pose proof D3 as (E & _). cbn [mgr_new mg_grid] in E.
  split; [|exact E]. split; [exact FO|]. split; [|split; [exact R|split; [|exact W]]].
  - split; [exact D1|]. split; [exact D2|]. apply compat_distinct; [apply FO|]. intros k Hk. apply D4 in Hk. cbn in Hk.
    apply in_map_iff in Hk as (f & <- & Hf). now apply f0_in.
  - unfold spaced. now rewrite E.
Qed.

(** ** C63: whole programs *)

(** sod_shock_tube, whatever the arithmetic: the program ends normally, and ends
    with what the Runge-Kutta method makes of the blast. *)
Theorem C63_sod : forall F (A : Arith F) gamma rho_jump P_jump gr M f fuel dt n ws ps, setting gr M [f] fuel -> List.length (id_comps (f_0 f)) = 5%nat -> (List.length M <= 3)%nat ->
  (forall d, In d (ws ++ ps) <-> (d < List.length M)%nat) -> (forall d, In d ws -> ~ In d ps) ->
  let kinds d := if in_dec Nat.eq_dec d ps then Periodic else NoSlip in
  exists m' L' (u : field F),
    program (shock_tube_solve fuel rho_jump P_jump gamma [f_0 f]) (sod_step true fuel gamma (map Z.of_nat ws) (map Z.of_nat ps) f) dt n gr = Done m' /\
    mgr_holds m' M L' /\
    values_in M (f_0 f) u (fun x => blast (center gr x 0 <? f0)%F rho_jump P_jump gamma) /\
    interior_is M L' (f_0 f) (Nat.iter n (rk3 (fun V _ => fv_rhs 5 (flux_of (euler_flux gamma)) M kinds (spacing gr) (seq 0 (List.length M)) (V 0%nat)) dt) (fun _ => u) 0%nat).
Proof.
  intros F A gamma rj pj gr M f fuel dt n ws ps HS H5 H3 Hd Hx kinds.
  destruct (C54_shock_tube F A (mgr_new gr) M [] [f_0 f] fuel rj pj gamma) as (m1 & L1 & E1 & D).
  { apply (start_ready F A gr M [f] fuel 5 HS). constructor; [lia|constructor]. }
  { exact H3. }
  destruct (done_ready F A gr M [f] fuel m1 L1 _ HS D) as [PR EG]. destruct D as (_ & _ & _ & _ & _ & D). destruct (D (f_0 f) (or_introl eq_refl)) as (u & Eu & Hu & _).
  destruct (C57_sod F A gamma M f fuel dt n ws ps m1 L1 u PR H5 ltac:(lia) Hd Hx Eu) as (m' & L' & E2 & (H1 & _) & _ & _ & _ & V & _).
  exists m', L', u. split; [unfold program; rewrite E1; exact E2|]. split; [exact H1|]. split; [exact Hu|]. rewrite EG in V. exact (V 0%nat (f_0 f) eq_refl).
Qed.
Print Assumptions C63_sod.
(** In exact arithmetic its total mass and energy are those of the blast. *)
Theorem C63_sod_totals : forall gamma rho_jump P_jump (gr : grid R) M f fuel dt n ws ps j, setting gr M [f] fuel -> List.length (id_comps (f_0 f)) = 5%nat -> (List.length M <= 3)%nat ->
  (forall d, In d (ws ++ ps) <-> (d < List.length M)%nat) -> (forall d, In d ws -> ~ In d ps) -> j = 0 \/ j = 4 ->
  exists m' L' v,
    program (shock_tube_solve fuel rho_jump P_jump gamma [f_0 f]) (sod_step true fuel gamma (map Z.of_nat ws) (map Z.of_nat ps) f) dt n gr = Done m' /\
    mgr_holds m' M L' /\ field_get L' (f_0 f) = Some v /\
    total_of M (f_0 f) j v = total (spots M (f_0 f)) (fun x => blast (Rltb (center gr x 0) 0) rho_jump P_jump gamma j).
Proof.
  intros gamma rj pj gr M f fuel dt n ws ps j HS H5 H3 Hd Hx Hj.
  destruct (C54_shock_tube R RArith (mgr_new gr) M [] [f_0 f] fuel rj pj gamma) as (m1 & L1 & E1 & D).
  { apply (start_ready R RArith gr M [f] fuel 5 HS). constructor; [lia|constructor]. }
  { exact H3. }
  destruct (done_ready R RArith gr M [f] fuel m1 L1 _ HS D) as [PR EG]. destruct D as (_ & _ & _ & _ & _ & D). destruct (D (f_0 f) (or_introl eq_refl)) as (u & Eu & Hu & _).
  destruct (C58_sod gamma M f fuel dt n ws ps m1 L1 u j PR H5 H3 Hd Hx Eu ltac:(lia) ltac:(right; lia)) as (m' & L' & v & E2 & H1 & Ev & T).
  exists m', L', v. split; [unfold program; rewrite E1; exact E2|]. split; [exact H1|]. split; [exact Ev|]. rewrite T.
  apply total_ext. intros x Hin. apply Hu; [exact Hin|]. rewrite H5. lia.
Qed.
Print Assumptions C63_sod_totals.
(** Six by three cells, an interface in the middle of dimension 0: the mass is
    9 (1 + 1/8) however long the program runs. *)
Definition tube : box := [(0, 6); (0, 3)].
Definition tube_grid {F} {A : Arith F} : grid F := mkGrid (range_of tube) [fofz (-3); f0] [fofz 6; fofz 3] [f1; f1].
Ltac is_setting := unfold setting; split; [reflexivity|split; [cbn; lia|split; [cbn; lia|
  split; [intros d Hd; cbn in Hd |- *; repeat destruct Hd as [<-|Hd]; [cbn; unfold hi, lo; cbn; lia..|destruct Hd]|
  split; [split; [names_differ|repeat (constructor; [split; [repeat (constructor; [reflexivity|]); constructor|apply shapeb_ok; vm_compute; reflexivity]|]); constructor]|
  repeat (constructor; [split; [apply shapeb_ok; vm_compute; reflexivity|vm_compute; discriminate]|]); constructor]]]]].
Lemma tube_setting : forall F (A : Arith F), setting (@tube_grid F A) tube [electrons] 999.
Proof. intros. is_setting. Qed.
Example C63_sod_ex : forall dt n, exists m' L' v,
  program (shock_tube_solve 999 (1/8)%R (1/10)%R 3%R [f_0 electrons]) (sod_step true 999 3%R [0] [1] electrons) dt n tube_grid = Done m' /\
  mgr_holds m' tube L' /\ field_get L' (f_0 electrons) = Some v /\ total_of tube (f_0 electrons) 0 v = (9 + 9/8)%R.
Proof.
  intros dt n. destruct (C63_sod_totals 3%R (1/8)%R (1/10)%R tube_grid tube electrons 999 dt n [0%nat] [1%nat] 0 (tube_setting R RArith) eq_refl ltac:(cbn; lia)) as (m' & L' & v & E & H & Ev & T).
  - intros d. cbn. lia.
  - intros d [<-|[]] [H|[]]. discriminate.
  - now left.
  - exists m', L', v. split; [exact E|]. split; [exact H|]. split; [exact Ev|]. rewrite T.
    unfold total. change (cells (spots tube (f_0 electrons))) with (flat_map (fun i => map (fun j => [i; j; 0]) [0; 1; 2]) [0; 1; 2; 3; 4; 5]).
    cbn [flat_map map app fold_right]. unfold center, tube_grid, blast, at_rest, f1, f0. cbn [gr_starts gr_dxs nth Z.eqb]. cbn [fadd fmul fofz fdec RArith Rdecimal].
    replace (IZR (10 ^ 1)) with 10%R by reflexivity. cbn [sum_over fold_right].
    repeat (match goal with |- context[Rltb ?a ?b] => first [rewrite (proj2 (Rltb_iff a b)) by lra|rewrite (proj2 (Rltb_not a b)) by lra] end). lra.
Qed.

(** wave_1D: Maxwell in a periodic box of up to three dimensions. *)
Theorem C63_wave : forall F (A : Arith F) c kk Bx By Bz gr M d f fuel dt n, setting gr M [f] fuel -> List.length (id_comps (f_0 f)) = 6%nat -> (List.length M <= 3)%nat -> (d < List.length M)%nat ->
  exists m' L' (u : field F),
    program (wave_solve fuel (Z.of_nat d) c kk Bx By Bz [f_0 f]) (pulse_step true fuel c (map Z.of_nat (seq 0 (List.length M))) f) dt n gr = Done m' /\
    mgr_holds m' M L' /\
    values_in M (f_0 f) u (fun x j => nth (Z.to_nat j) (map snd (wave_values (Z.of_nat d) c Bx By Bz (fsin (kk * center gr x d)%F))) f0) /\
    interior_is M L' (f_0 f) (Nat.iter n (rk3 (fun V _ => fv_rhs 6 (flux_of (maxwell_flux c)) M (fun _ => Periodic) (spacing gr) (seq 0 (Nat.min 3 (List.length M))) (V 0%nat)) dt) (fun _ => u) 0%nat).
Proof.
  intros F A c kk Bx By Bz gr M d f fuel dt n HS H6 H3 Hd.
  destruct (wave_done (mgr_new gr) M [] [f_0 f] fuel d c kk Bx By Bz) as (m1 & L1 & E1 & D); auto.
  { apply (start_ready F A gr M [f] fuel 6 HS). constructor; [lia|constructor]. }
  destruct (done_ready F A gr M [f] fuel m1 L1 _ HS D) as [PR EG]. destruct D as (_ & _ & _ & _ & _ & D). destruct (D (f_0 f) (or_introl eq_refl)) as (u & Eu & Hu).
  destruct (C57_pulse F A c M f fuel dt n m1 L1 u PR H6 Eu) as (m' & L' & E2 & (H1 & _) & _ & _ & _ & V & _).
  exists m', L', u. split; [unfold program; rewrite E1; exact E2|]. split; [exact H1|]. split; [|rewrite EG in V; exact (V 0%nat (f_0 f) eq_refl)].
  set (W := fun (x : list Z) (j : Z) => match find (fun p => fst p =? j) (wave_values (Z.of_nat d) c Bx By Bz (fsin (kk * center gr x d)%F)) with Some p => snd p | None => f0 end).
  destruct (painted_in M (f_0 f) false _ u W Hu) as [V6 _]; [reflexivity|]. intros x j Hx Hj.
  rewrite (V6 x j) by (auto; now apply (zone_spots true)). unfold W. rewrite H6 in Hj.
  assert (j = 0 \/ j = 1 \/ j = 2 \/ j = 3 \/ j = 4 \/ j = 5) as HJ by lia. unfold wave_values.
  destruct (Z.of_nat d =? 0); [|destruct (Z.of_nat d =? 1)]; repeat destruct HJ as [->|HJ]; try subst j; reflexivity.
Qed.
Print Assumptions C63_wave.

(** two_fluid_brio_wu. *)
Theorem C63_brio_wu : forall F (A : Arith F) q p mx gr e i f fuel dt n, let M := [mx] in setting gr M [e; i; f] fuel ->
  List.length (id_comps (f_0 e)) = 5%nat -> List.length (id_comps (f_0 i)) = 5%nat -> List.length (id_comps (f_0 f)) = 6%nat ->
  bs_points (id_basis (f_0 e)) = bs_points (id_basis (f_0 f)) -> bs_points (id_basis (f_0 i)) = bs_points (id_basis (f_0 f)) -> List.length (pl_ms p) = 2%nat ->
  exists m' L' (u v w : field F),
    program (brio_wu_solve fuel q [f_0 e; f_0 i; f_0 f]) (plasma_step true fuel p (brio_wu_bcs e i f) e i f) dt n gr = Done m' /\ mgr_holds m' M L' /\
    values_in M (f_0 e) u (fun x => at_rest (bw_me q * side gr x (bw_nl q) (bw_nr q))%F (side gr x (bw_Pl q) (bw_Pr q) * (f1 / (bw_gamma q - f1)))%F) /\
    values_in M (f_0 i) v (fun x => at_rest (bw_me q * side gr x (bw_nl q) (bw_nr q) * bw_mi q / bw_me q)%F (side gr x (bw_Pl q) (bw_Pr q) * (f1 / (bw_gamma q - f1)))%F) /\
    values_in M (f_0 f) w (fun x => two_comps 3 (bw_Bx q) 4 (bw_By q * side gr x f1 (fofz (-1)) * (f1 / (bw_gamma q - f1)))%F) /\
    sys_is M L' [f_0 e; f_0 i; f_0 f] (Nat.iter n (rk3 (plasma_op p (flux_of (euler_flux (pl_gamma p))) (flux_of (maxwell_flux (pl_c p))) M wall_kinds (spacing gr) [0%nat] [0%nat]) dt) (three u v w)).
Proof.
  intros F A q p mx gr e i f fuel dt n M HS Ne Ni Nf Pe Pi Hms.
  assert (ND : NoDup (map id_name [f_0 e; f_0 i; f_0 f])) by (destruct HS as (_ & _ & _ & _ & (N & _) & _); exact (f0_names [e; i; f] N)).
  destruct (C54_brio_wu F A (mgr_new gr) M [] (f_0 e) (f_0 i) (f_0 f) fuel q) as (m1 & L1 & u & v & w & E1 & D & Eu & Ev & Ew & _ & _ & _ & Vu & Vv & Vw); auto.
  { apply (start_ready F A gr M [e; i; f] fuel 5 HS). repeat (constructor; [lia|]). constructor. }
  { unfold comp_box. now rewrite Ne, Ni, Pe, Pi. }
  destruct (done_ready F A gr M [e; i; f] fuel m1 L1 _ HS D) as [PR EG].
  destruct (C57_brio_wu F A p mx e i f fuel dt n m1 L1 u v w PR Ne Ni Nf Pe Pi Hms Eu Ev Ew) as (m' & L' & E2 & (H1 & _) & _ & _ & _ & V & _).
  exists m', L', u, v, w. split; [unfold program; rewrite E1; exact E2|]. split; [exact H1|]. split; [exact Vu|]. split; [exact Vv|]. split; [exact Vw|].
  rewrite EG in V. exact V.
Qed.
Print Assumptions C63_brio_wu.

(** gem_challenge, the program main runs: in doubles it ends normally after any
    number of steps; in exact arithmetic the masses and the magnetic flux are those
    of the current sheet. *)
Theorem C63_gem : forall F (A : Arith F) q p mx my gr e i f fuel dt n, let M := [mx; my] in setting gr M [e; i; f] fuel ->
  List.length (id_comps (f_0 e)) = 5%nat -> List.length (id_comps (f_0 i)) = 5%nat -> List.length (id_comps (f_0 f)) = 6%nat ->
  bs_points (id_basis (f_0 e)) = bs_points (id_basis (f_0 f)) -> bs_points (id_basis (f_0 i)) = bs_points (id_basis (f_0 f)) -> List.length (pl_ms p) = 2%nat ->
  exists m1 m' L1 L' (u v w : field F),
    gem_solve fuel q [f_0 e; f_0 i; f_0 f] (mgr_new gr) = Done m1 /\ mgr_holds m1 M L1 /\
    field_get L1 (f_0 e) = Some u /\ field_get L1 (f_0 i) = Some v /\ field_get L1 (f_0 f) = Some w /\
    program (gem_solve fuel q [f_0 e; f_0 i; f_0 f]) (plasma_step true fuel p (gem_bcs e i f) e i f) dt n gr = Done m' /\ mgr_holds m' M L' /\
    sys_is M L' [f_0 e; f_0 i; f_0 f] (Nat.iter n (rk3 (plasma_op p (flux_of (euler_flux (pl_gamma p))) (flux_of (maxwell_flux (pl_c p))) M gem_kinds (spacing gr) [0; 1]%nat [0; 1]%nat) dt) (three u v w)).
Proof.
  intros F A q p mx my gr e i f fuel dt n M HS Ne Ni Nf Pe Pi Hms.
  assert (ND : NoDup (map id_name [f_0 e; f_0 i; f_0 f])) by (destruct HS as (_ & _ & _ & _ & (N & _) & _); exact (f0_names [e; i; f] N)).
  destruct (gem_done (mgr_new gr) M [] (f_0 e) (f_0 i) (f_0 f) fuel q) as (m1 & L1 & E1 & D); auto.
  { apply (start_ready F A gr M [e; i; f] fuel 5 HS). repeat (constructor; [lia|]). constructor. }
  { congruence. }
  destruct (done_ready F A gr M [e; i; f] fuel m1 L1 _ HS D) as [PR EG]. destruct D as (D1 & _ & _ & _ & _ & D).
  destruct (D (f_0 e)) as (u & Eu & _); [now left|]. destruct (D (f_0 i)) as (v & Ev & _); [now (right; left)|]. destruct (D (f_0 f)) as (w & Ew & _); [now (right; right; left)|].
  destruct (C57_gem F A p mx my e i f fuel dt n m1 L1 u v w PR Ne Ni Nf Pe Pi Hms Eu Ev Ew) as (m' & L' & E2 & (H1 & _) & _ & _ & _ & V & _).
  exists m1, m', L1, L', u, v, w. split; [exact E1|]. split; [exact D1|]. split; [exact Eu|]. split; [exact Ev|]. split; [exact Ew|].
  split; [unfold program; rewrite E1; exact E2|]. split; [exact H1|]. rewrite EG in V. exact V.
Qed.
Print Assumptions C63_gem.
Theorem C63_gem_totals : forall q p mx my (gr : grid R) e i f fuel dt n, let M := [mx; my] in setting gr M [e; i; f] fuel ->
  List.length (id_comps (f_0 e)) = 5%nat -> List.length (id_comps (f_0 i)) = 5%nat -> List.length (id_comps (f_0 f)) = 6%nat ->
  bs_points (id_basis (f_0 e)) = bs_points (id_basis (f_0 f)) -> bs_points (id_basis (f_0 i)) = bs_points (id_basis (f_0 f)) -> List.length (pl_ms p) = 2%nat ->
  (0 < gm_n0 q)%R -> (0 <= gm_n1 q)%R -> (0 < gm_me q)%R -> (0 < gm_mi q)%R -> gm_gamma q <> 1%R -> gm_qe q <> 0%R -> gm_qi q <> 0%R -> gm_lambda q <> 0%R -> gm_B0 q <> 0%R ->
  exists m' L' (u v w : field R),
    program (gem_solve fuel q [f_0 e; f_0 i; f_0 f]) (plasma_step true fuel p (gem_bcs e i f) e i f) dt n gr = Done m' /\ mgr_holds m' M L' /\
    field_get L' (f_0 e) = Some u /\ field_get L' (f_0 i) = Some v /\ field_get L' (f_0 f) = Some w /\
    total_of M (f_0 e) 0 u = total (spots M (f_0 e)) (fun x => (gm_me q * sheet_density q (center gr x 0))%R) /\
    total_of M (f_0 i) 0 v = total (spots M (f_0 i)) (fun x => (gm_mi q * sheet_density q (center gr x 0))%R) /\
    total_of M (f_0 f) 3 w = total (spots M (f_0 f)) (fun x => bump_x q (center gr x 0) (center gr x 1)) /\
    total_of M (f_0 f) 4 w = total (spots M (f_0 f)) (fun x => (sheet_field q (center gr x 0) + bump_y q (center gr x 0) (center gr x 1))%R) /\
    total_of M (f_0 f) 5 w = 0%R.
Proof.
  intros q p mx my gr e i f fuel dt n M HS Ne Ni Nf Pe Pi Hms N0 N1 Me Mi Hg Qe Qi Hl HB.
  assert (ND : NoDup (map id_name [f_0 e; f_0 i; f_0 f])) by (destruct HS as (_ & _ & _ & _ & (N & _) & _); exact (f0_names [e; i; f] N)).
  destruct (C62_gem (mgr_new gr) M [] (f_0 e) (f_0 i) (f_0 f) fuel q) as (m1 & L1 & u & v & w & E1 & D & Eu & Ev & Ew & X); auto.
  { apply (start_ready R RArith gr M [e; i; f] fuel 5 HS). repeat (constructor; [lia|]). constructor. }
  { congruence. }
  destruct (done_ready R RArith gr M [e; i; f] fuel m1 L1 _ HS D) as [PR EG].
  destruct (C59_gem p mx my e i f fuel dt n m1 L1 u v w PR Ne Ni Nf Pe Pi Hms Eu Ev Ew) as (m' & L' & u' & v' & w' & E2 & H1 & Gu & Gv & Gw & T1 & T2 & T3).
  exists m', L', u', v', w'. split; [unfold program; rewrite E1; exact E2|]. split; [exact H1|]. split; [exact Gu|]. split; [exact Gv|]. split; [exact Gw|].
  cbn [mg_grid mgr_new] in X. change (1 <? Datatypes.length M)%nat with true in X. cbn beta iota zeta in X.
  assert (XX : forall x, in_box (spots M (f_0 e)) x -> in_box (spots (grow 2 M) (f_0 e)) x) by (intros x Hx; now apply (zone_spots true)).
  fold M in T1, T2, T3. rewrite T1, T2, !T3 by lia. split; [|split; [|split; [|split]]].
  - apply total_ext. intros x Hx. destruct (X x (XX x Hx)) as (X1 & _). exact X1.
  - apply total_ext. intros x Hx. assert (Hx' : in_box (spots M (f_0 e)) x) by (unfold spots in *; now rewrite Pe, <- Pi). destruct (X x (XX x Hx')) as (_ & X2 & _). exact X2.
  - apply total_ext. intros x Hx. assert (Hx' : in_box (spots M (f_0 e)) x) by (unfold spots in *; now rewrite Pe). destruct (X x (XX x Hx')) as (_ & _ & _ & _ & _ & _ & X7 & _). exact X7.
  - apply total_ext. intros x Hx. assert (Hx' : in_box (spots M (f_0 e)) x) by (unfold spots in *; now rewrite Pe). destruct (X x (XX x Hx')) as (_ & _ & _ & _ & _ & _ & _ & X8 & _). exact X8.
  - transitivity (total (spots M (f_0 f)) (fun _ => 0%R)).
    + apply total_ext. intros x Hx. assert (Hx' : in_box (spots M (f_0 e)) x) by (unfold spots in *; now rewrite Pe).
      destruct (X x (XX x Hx')) as (_ & _ & _ & _ & _ & _ & _ & _ & X9). apply X9; rewrite ?Nf; lia.
    + unfold total. generalize (cells (spots M (f_0 f))) as l. induction l as [|a l IH]; [reflexivity|]. cbn in *. lra.
Qed.
Print Assumptions C63_gem_totals.
(** Any number of steps of the program main runs, in doubles, on six by three
    cells. *)
Lemma sheet_setting : forall F (A : Arith F), setting (@tube_grid F A) tube [electrons; ions; em] 999.
Proof. intros. is_setting. Qed.
Example C63_gem_ex : forall dt n q, exists m', program (gem_solve 999 q [f_0 electrons; f_0 ions; f_0 em])
  (plasma_step true 999 some_plasma (gem_bcs electrons ions em) electrons ions em) dt n (tube_grid (A := FloatArith)) = Done m'.
Proof.
  intros dt n q. destruct (C63_gem spec_float _ q some_plasma (0, 6) (0, 3) tube_grid electrons ions em 999 dt n (sheet_setting _ _)) as (m1 & m' & L1 & L' & u & v & w & _ & _ & _ & _ & _ & E & _); auto.
  exists m'. exact E.
Qed.

(** harris_current_sheet: the initial condition of gem_challenge on a grid of one
    dimension, the steps of two_fluid_brio_wu. *)
Theorem C63_harris : forall F (A : Arith F) q p mx gr e i f fuel dt n, let M := [mx] in setting gr M [e; i; f] fuel ->
  List.length (id_comps (f_0 e)) = 5%nat -> List.length (id_comps (f_0 i)) = 5%nat -> List.length (id_comps (f_0 f)) = 6%nat ->
  bs_points (id_basis (f_0 e)) = bs_points (id_basis (f_0 f)) -> bs_points (id_basis (f_0 i)) = bs_points (id_basis (f_0 f)) -> List.length (pl_ms p) = 2%nat ->
  exists m1 m' L1 L' (u v w : field F),
    gem_solve fuel q [f_0 e; f_0 i; f_0 f] (mgr_new gr) = Done m1 /\ mgr_holds m1 M L1 /\
    field_get L1 (f_0 e) = Some u /\ field_get L1 (f_0 i) = Some v /\ field_get L1 (f_0 f) = Some w /\
    program (gem_solve fuel q [f_0 e; f_0 i; f_0 f]) (plasma_step true fuel p (brio_wu_bcs e i f) e i f) dt n gr = Done m' /\ mgr_holds m' M L' /\
    sys_is M L' [f_0 e; f_0 i; f_0 f] (Nat.iter n (rk3 (plasma_op p (flux_of (euler_flux (pl_gamma p))) (flux_of (maxwell_flux (pl_c p))) M wall_kinds (spacing gr) [0%nat] [0%nat]) dt) (three u v w)).
Proof.
  intros F A q p mx gr e i f fuel dt n M HS Ne Ni Nf Pe Pi Hms.
  assert (ND : NoDup (map id_name [f_0 e; f_0 i; f_0 f])) by (destruct HS as (_ & _ & _ & _ & (N & _) & _); exact (f0_names [e; i; f] N)).
  destruct (gem_done (mgr_new gr) M [] (f_0 e) (f_0 i) (f_0 f) fuel q) as (m1 & L1 & E1 & D); auto.
  { apply (start_ready F A gr M [e; i; f] fuel 5 HS). repeat (constructor; [lia|]). constructor. }
  { congruence. }
  destruct (done_ready F A gr M [e; i; f] fuel m1 L1 _ HS D) as [PR EG]. destruct D as (D1 & _ & _ & _ & _ & D).
  destruct (D (f_0 e)) as (u & Eu & _); [now left|]. destruct (D (f_0 i)) as (v & Ev & _); [now (right; left)|]. destruct (D (f_0 f)) as (w & Ew & _); [now (right; right; left)|].
  destruct (C57_brio_wu F A p mx e i f fuel dt n m1 L1 u v w PR Ne Ni Nf Pe Pi Hms Eu Ev Ew) as (m' & L' & E2 & (H1 & _) & _ & _ & _ & V & _).
  exists m1, m', L1, L', u, v, w. split; [exact E1|]. split; [exact D1|]. split; [exact Eu|]. split; [exact Ev|]. split; [exact Ew|].
  split; [unfold program; rewrite E1; exact E2|]. split; [exact H1|]. rewrite EG in V. exact V.
Qed.
Print Assumptions C63_harris.
(** In exact arithmetic the masses are those of the sheet, Bx stays 0 in every cell,
    and the flux of By is that of the sheet together with the perturbation at y = 0,
    which the initial condition adds in one dimension too. *)
Theorem C63_harris_totals : forall q p mx (gr : grid R) e i f fuel dt n, let M := [mx] in setting gr M [e; i; f] fuel ->
  List.length (id_comps (f_0 e)) = 5%nat -> List.length (id_comps (f_0 i)) = 5%nat -> List.length (id_comps (f_0 f)) = 6%nat ->
  bs_points (id_basis (f_0 e)) = bs_points (id_basis (f_0 f)) -> bs_points (id_basis (f_0 i)) = bs_points (id_basis (f_0 f)) -> List.length (pl_ms p) = 2%nat ->
  (0 < gm_n0 q)%R -> (0 <= gm_n1 q)%R -> (0 < gm_me q)%R -> (0 < gm_mi q)%R -> gm_gamma q <> 1%R -> gm_qe q <> 0%R -> gm_qi q <> 0%R -> gm_lambda q <> 0%R -> gm_B0 q <> 0%R ->
  exists m' L' (u v w : field R),
    program (gem_solve fuel q [f_0 e; f_0 i; f_0 f]) (plasma_step true fuel p (brio_wu_bcs e i f) e i f) dt n gr = Done m' /\ mgr_holds m' M L' /\
    field_get L' (f_0 e) = Some u /\ field_get L' (f_0 i) = Some v /\ field_get L' (f_0 f) = Some w /\
    total_of M (f_0 e) 0 u = total (spots M (f_0 e)) (fun x => (gm_me q * sheet_density q (center gr x 0))%R) /\
    total_of M (f_0 i) 0 v = total (spots M (f_0 i)) (fun x => (gm_mi q * sheet_density q (center gr x 0))%R) /\
    (forall x, in_box (spots M (f_0 f)) x -> w (x ++ [3]) = 0%R) /\
    total_of M (f_0 f) 4 w = total (spots M (f_0 f)) (fun x => (sheet_field q (center gr x 0) + bump_y q (center gr x 0) 0)%R) /\
    total_of M (f_0 f) 5 w = 0%R.
Proof.
  intros q p mx gr e i f fuel dt n M HS Ne Ni Nf Pe Pi Hms N0 N1 Me Mi Hg Qe Qi Hl HB.
  assert (ND : NoDup (map id_name [f_0 e; f_0 i; f_0 f])) by (destruct HS as (_ & _ & _ & _ & (N & _) & _); exact (f0_names [e; i; f] N)).
  destruct (C62_gem (mgr_new gr) M [] (f_0 e) (f_0 i) (f_0 f) fuel q) as (m1 & L1 & u & v & w & E1 & D & Eu & Ev & Ew & X); auto.
  { apply (start_ready R RArith gr M [e; i; f] fuel 5 HS). repeat (constructor; [lia|]). constructor. }
  { congruence. }
  destruct (done_ready R RArith gr M [e; i; f] fuel m1 L1 _ HS D) as [PR EG].
  destruct (C59_brio_wu p mx e i f fuel dt n m1 L1 u v w PR Ne Ni Nf Pe Pi Hms Eu Ev Ew) as (m' & L' & u' & v' & w' & E2 & H1 & Gu & Gv & Gw & T1 & T2 & T3 & T4).
  exists m', L', u', v', w'. split; [unfold program; rewrite E1; exact E2|]. split; [exact H1|]. split; [exact Gu|]. split; [exact Gv|]. split; [exact Gw|].
  cbn [mg_grid mgr_new] in X. change (1 <? Datatypes.length M)%nat with false in X. cbn beta iota zeta in X.
  assert (XX : forall x, in_box (spots M (f_0 e)) x -> in_box (spots (grow 2 M) (f_0 e)) x) by (intros x Hx; now apply (zone_spots true)).
  fold M in T1, T2, T3, T4. rewrite T1, T2, !T3 by lia. split; [|split; [|split; [|split]]].
  - apply total_ext. intros x Hx. destruct (X x (XX x Hx)) as (X1 & _). exact X1.
  - apply total_ext. intros x Hx. assert (Hx' : in_box (spots M (f_0 e)) x) by (unfold spots in *; now rewrite Pe, <- Pi). destruct (X x (XX x Hx')) as (_ & X2 & _). exact X2.
  - intros x Hx. rewrite T4 by exact Hx. assert (Hx' : in_box (spots M (f_0 e)) x) by (unfold spots in *; now rewrite Pe). destruct (X x (XX x Hx')) as (_ & _ & _ & _ & _ & _ & X7 & _).
    rewrite X7. unfold bump_x. rewrite Rmult_0_r, sin_0. ring.
  - apply total_ext. intros x Hx. assert (Hx' : in_box (spots M (f_0 e)) x) by (unfold spots in *; now rewrite Pe). destruct (X x (XX x Hx')) as (_ & _ & _ & _ & _ & _ & _ & X8 & _). exact X8.
  - transitivity (total (spots M (f_0 f)) (fun _ => 0%R)).
    + apply total_ext. intros x Hx. assert (Hx' : in_box (spots M (f_0 e)) x) by (unfold spots in *; now rewrite Pe).
      destruct (X x (XX x Hx')) as (_ & _ & _ & _ & _ & _ & _ & _ & X9). apply X9; rewrite ?Nf; lia.
    + unfold total. generalize (cells (spots M (f_0 f))) as l. induction l as [|a l IH]; [reflexivity|]. cbn in *. lra.
Qed.
Print Assumptions C63_harris_totals.
(** Any number of steps, in doubles, on six cells. *)
Definition rod : box := [(0, 6)].
Definition rod_grid {F} {A : Arith F} : grid F := mkGrid (range_of rod) [fofz (-3)] [fofz 6] [f1].
Lemma rod_setting : forall F (A : Arith F), setting (@rod_grid F A) rod [electrons; ions; em] 999.
Proof. intros. is_setting. Qed.
Example C63_harris_ex : forall dt n q, exists m', program (gem_solve 999 q [f_0 electrons; f_0 ions; f_0 em])
  (plasma_step true 999 some_plasma (brio_wu_bcs electrons ions em) electrons ions em) dt n (rod_grid (A := FloatArith)) = Done m'.
Proof.
  intros dt n q. destruct (C63_harris spec_float _ q some_plasma (0, 6) rod_grid electrons ions em 999 dt n (rod_setting _ _)) as (m1 & m' & L1 & L' & u & v & w & _ & _ & _ & _ & _ & E & _); auto.
  exists m'. exact E.
Qed.

(** gaussian_pulse and advect_gaussian as written start with undefined behaviour:
    their grids have one and two dimensions. *)
Theorem C63_gaussian_pulse_refuted : forall F (A : Arith F) (gr : grid F) M f fuel amplitude sd step dt n, setting gr M [f] fuel -> List.length (id_comps (f_0 f)) = 6%nat ->
  (List.length M < 3)%nat -> program (magnetic_pulse_solve fuel amplitude sd [f_0 f]) step dt n gr = Undef Uninitialised.
Proof.
  intros F A gr M f fuel amp sd step dt n HS H6 H3. unfold program. rewrite (pulse_uninit (mgr_new gr) M []); auto; [|discriminate].
  apply (start_ready F A gr M [f] fuel 6 HS). constructor; [lia|constructor].
Qed.
Print Assumptions C63_gaussian_pulse_refuted.
Theorem C63_advect_gaussian_refuted : forall F (A : Arith F) (gr : grid F) M k fuel amplitude average sd step dt n,
  gr_range gr = range_of M -> (List.length M <= List.length (gr_starts gr))%nat -> (List.length M <= List.length (gr_dxs gr))%nat -> id_fits M k ->
  prod_len (grow 2 M ++ comp_box k) <= Z.of_nat fuel -> (1 <= List.length (id_comps k))%nat ->
  (List.length M < 3)%nat -> program (gaussian_solve fuel amplitude average sd [k]) step dt n gr = Undef Uninitialised.
Proof.
  intros F A gr M k fuel amp av sd step dt n G G1 G2 HF HU HC H3. unfold program. rewrite (gaussian_uninit (mgr_new gr) M []); auto; [|discriminate].
  refine (ic_start_ready F A gr M [k] 1 fuel G _ _ G1 G2); [constructor; [intros []|constructor]|]. constructor; [auto|constructor].
Qed.
Print Assumptions C63_advect_gaussian_refuted.
Example C63_refuted_ex : program (gaussian_solve 999 f1 [f0; f0] f1 [f_0 electrons]) (fun m => Done m) f1 1 (tube_grid (A := FloatArith)) = Undef Uninitialised.
Proof. vm_compute. reflexivity. Qed.
