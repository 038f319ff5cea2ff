(** * Properties of the initial conditions (C33, C34, C54, C61, C62). *)
From Coq Require Import ZArith List String Lia Bool Floats.SpecFloat Reals Lra.
From Verif Require Import Base BaseFacts BoxSpec BoxFacts Range RangeSpec RangeFacts Indexer Interface
  ApiSpec ApiFacts Arith ArithFloat ArithR Chunk FieldSpec FieldFacts ChunkFacts Properties_Chunk VarId Manager MgrSpec MgrFacts EulerSpec
  SourceSpec Maxwell Initial InitialSpec InitialFacts.
Import ListNotations.
Open Scope Z_scope.

(** ** examples used below *)

Definition ic_fluid (s : string) : vid := mkVid s (["rho"; "px"; "py"; "pz"; "e"]%string) volume_average.
Definition ic_em : vid := mkVid "field" (["Ex"; "Ey"; "Ez"; "Bx"; "By"; "Bz"]%string) volume_average.
(** Two cells around 0; one cell at (0, -10, 10). *)
Definition ic_line : box := [(0, 2)].
Definition ic_cube : box := [(0, 1); (0, 1); (0, 1)].
Definition ic_line_grid {F} {A : Arith F} : grid F := mkGrid (range_of ic_line) [fofz (-1)] [fofz 2] [f1].
Definition ic_cube_grid {F} {A : Arith F} : grid F :=
  mkGrid (range_of ic_cube) [fdec (-5) (-1); fdec (-105) (-1); fdec 95 (-1)] [f1; f1; f1] [f1; f1; f1].
Definition ic_start {F} {A : Arith F} (gr : grid F) : mgr F := mkMgr gr [] None None.
Lemma compat_nodup : forall ks, NoDup (map id_name ks) -> compatible ks.
Proof.
  intros ks N a b Ha Hb E. induction ks as [|x ks IH]; [destruct Ha|]. cbn in N. rewrite NoDup_cons_iff in N. destruct N as [N1 N2].
  destruct Ha as [<-|Ha], Hb as [<-|Hb]; auto; exfalso; apply N1; [rewrite E|rewrite <- E]; now apply in_map.
Qed.

Lemma ic_start_ready : forall F (A : Arith F) (gr : grid F) M outs n fuel, gr_range gr = range_of M -> NoDup (map id_name outs) ->
  Forall (fun k => id_fits M k /\ (n <= List.length (id_comps k))%nat /\ prod_len (grow 2 M ++ comp_box k) <= Z.of_nat fuel) outs ->
  (List.length M <= List.length (gr_starts gr))%nat -> (List.length M <= List.length (gr_dxs gr))%nat -> ic_ready (ic_start gr) M [] outs n fuel.
Proof.
  intros F A gr M outs n fuel Hg ND HF H1 H2. unfold ic_ready. split; [|split; [split; constructor|split; [now apply compat_nodup|auto]]].
  apply mgr_holds_iff; [split; constructor|]. split; auto.
Qed.
Ltac ic_ok := apply ic_start_ready; [reflexivity|cbn; repeat (constructor; [cbn; intuition discriminate|]); constructor|
  repeat (constructor; [split; [apply shapeb_ok; vm_compute; reflexivity|split; [cbn; lia|vm_compute; discriminate]]|]); constructor|cbn; lia|cbn; lia].

(** ** C54: shock tubes *)

(** On every grid of one to three dimensions, for every jump: the mesh holds the
    left state where the first coordinate of the cell centre is negative and the
    right state elsewhere, at rest; the ghost cells hold zero and no other
    variable is touched.  Whatever the arithmetic. *)
Theorem C54_shock_tube : forall F (A : Arith F) (m : mgr F) M L outs fuel rho_jump P_jump gamma,
  ic_ready m M L outs 5 fuel -> (List.length M <= 3)%nat ->
  exists m' L', shock_tube_solve fuel rho_jump P_jump gamma outs m = Done m' /\
    ic_done m m' M L L' outs (fun k v =>
      values_in M k v (fun x => blast (center (mg_grid m) x 0 <? f0)%F rho_jump P_jump gamma) /\ ghosts_zero M k v).
Proof.
  intros F A m M L outs fuel rj pj gamma HR H3. destruct (shock_done m M L outs fuel rj pj gamma HR H3) as (m' & L' & E & D).
  exists m', L'. split; [exact E|]. revert D. apply each_done_impl. intros k v Hk Hv.
  destruct (painted_in M k true _ v (fun x => blast (center (mg_grid m) x 0 <? f0)%F rj pj gamma) Hv) as [H1 H2]; [|split; [exact H1|exact H2]].
  intros x j. unfold shock_vs. rewrite at_rest_find. unfold blast. now destruct (center (mg_grid m) x 0 <? f0)%F.
Qed.
Print Assumptions C54_shock_tube.

(** In real numbers: the left state has density one and pressure one, the right
    state density [rho_jump] and pressure [P_jump]. *)
Definition state_at (v : field R) (x : list Z) : list R := map (fun j => v (x ++ [j])) [0; 1; 2; 3; 4].
Lemma rest_pressure : forall g r e, pressure g [r; 0; 0; 0; e]%R = ((g - 1) * e)%R.
Proof. intros. unfold pressure, energy, kinetic, momentum, density. cbn [nth]. unfold Rdiv. ring. Qed.
Theorem C54_pressure : forall (m : mgr R) M L outs fuel rho_jump P_jump gamma,
  ic_ready m M L outs 5 fuel -> (List.length M <= 3)%nat -> gamma <> 1%R ->
  exists m' L', shock_tube_solve fuel rho_jump P_jump gamma outs m = Done m' /\
    forall k, In k outs -> exists v, field_get L' k = Some v /\ forall x, in_box (spots M k) x ->
      ((center (mg_grid m) x 0 < 0)%R -> density (state_at v x) = 1%R /\ pressure gamma (state_at v x) = 1%R) /\
      ((0 <= center (mg_grid m) x 0)%R -> density (state_at v x) = rho_jump /\ pressure gamma (state_at v x) = P_jump).
Proof.
  intros m M L outs fuel rj pj gamma HR H3 Hg. destruct (C54_shock_tube R RArith m M L outs fuel rj pj gamma HR H3) as (m' & L' & E & D).
  exists m', L'. split; [exact E|]. intros k Hk. destruct D as (_ & _ & _ & _ & _ & D). destruct (D k Hk) as (v & Ev & Hv & _). exists v. split; [exact Ev|].
  intros x Hx. assert (HN : (5 <= List.length (id_comps k))%nat).
  { destruct HR as (_ & _ & _ & HF & _). rewrite Forall_forall in HF. now destruct (HF k Hk) as (_ & X & _). }
  assert (HV : forall j, 0 <= j < 5 -> v (x ++ [j]) = blast (center (mg_grid m) x 0 <? f0)%F rj pj gamma j) by (intros; apply Hv; auto; lia).
  unfold state_at. cbn [map]. rewrite !HV by lia. unfold blast, at_rest. cbn [Z.eqb Pos.eqb]. unfold f0, f1.
  cbn [flt RArith fofz fmul fdiv fsub]. unfold Rltb. split; intros Hc.
  - destruct (Rlt_dec _ _) as [_|N]; [|exfalso; apply N; exact Hc]. split; [reflexivity|]. rewrite rest_pressure. field. lra.
  - destruct (Rlt_dec _ _) as [N|_]; [exfalso; apply (Rlt_irrefl 0); eapply Rle_lt_trans; [exact Hc|exact N]|].
    split; [unfold density; cbn [nth]; ring|]. rewrite rest_pressure. field. lra.
Qed.
Print Assumptions C54_pressure.

(** All values of variable number [n] after an initial condition. *)
Definition ic_data {F} (M : box) (n : nat) (o : out (mgr F)) : list F :=
  match o with Done m => match get_chunk m n (ix_one M) with Ok e => if_data (ec_if e) | _ => [] end | _ => [] end.
(** Two ghost cells, a left cell, a right cell, two ghost cells. *)
Example C54_shock_tube_ex :
  ic_ready (ic_start (ic_line_grid (A := FloatArith))) ic_line [] [ic_fluid "q"] 5 99 /\
  ic_data ic_line 0 (shock_tube_solve 99 (fdec 125 (-3)) (fdec 1 (-1)) (dbl 3) [ic_fluid "q"] (ic_start ic_line_grid)) =
  repeat f0 10 ++ [f1; f0; f0; f0; fdec 5 (-1)] ++ [fdec 125 (-3); f0; f0; f0; fdec 5 (-2)] ++ repeat f0 10.
Proof. split; [ic_ok|vm_compute; reflexivity]. Qed.

(** Ghost cells are overwritten, contrary to the statement: whatever a ghost cell
    held before, it is zero afterwards. *)
Theorem C54_ghosts_kept_refuted : ~ forall (m : mgr spec_float) M L outs fuel rho_jump P_jump gamma m' L' k u v x j,
  ic_ready m M L outs 5 fuel -> (List.length M <= 3)%nat -> shock_tube_solve fuel rho_jump P_jump gamma outs m = Done m' -> mgr_holds m' M L' ->
  In k outs -> field_get L k = Some u -> field_get L' k = Some v -> in_box (spots (grow 2 M) k) x -> ~ in_box (spots M k) x -> 0 <= j < 5 ->
  v (x ++ [j]) = u (x ++ [j]).
Proof.
  intros H. set (k := ic_fluid "q"). set (m := @mgr_of spec_float ic_line_grid ic_line [(k, fun _ => dbl 7)] None None).
  assert (HF : id_fits ic_line k) by (apply shapeb_ok; vm_compute; reflexivity).
  assert (HO : fields_ok ic_line [(k, fun _ => dbl 7)]).
  { split; [repeat constructor; cbn; intuition|]. constructor; [exact HF|constructor]. }
  assert (HR : ic_ready m ic_line [(k, fun _ => dbl 7)] [k] 5 99).
  { split; [apply mgr_holds_iff; [exact HO|split; reflexivity]|]. split; [exact HO|]. split.
    - intros a b Ha Hb _. cbn in Ha, Hb. intuition congruence.
    - split; [|cbn; lia]. constructor; [|constructor]. split; [exact HF|split; [cbn; lia|vm_compute; discriminate]]. }
  destruct (C54_shock_tube _ _ m ic_line _ [k] 99 (dbl 1) (dbl 1) (dbl 3) HR ltac:(cbn; lia)) as (m' & L' & E & HH & _ & _ & _ & _ & D).
  destruct (D k (or_introl eq_refl)) as (v & Ev & _ & Hg).
  assert (I1 : in_box (spots (grow 2 ic_line) k) [-2; 0]) by (apply in_boxb_iff; vm_compute; reflexivity).
  assert (I2 : ~ in_box (spots ic_line k) [-2; 0]) by (intros X; apply in_boxb_iff in X; vm_compute in X; discriminate).
  pose proof (H m ic_line _ [k] 99%nat (dbl 1) (dbl 1) (dbl 3) m' L' k _ v [-2; 0] 0 HR ltac:(cbn; lia) E HH (or_introl eq_refl) eq_refl Ev I1 I2 ltac:(lia)) as X.
  rewrite (Hg _ 0 I1 I2 ltac:(cbn; lia)) in X. cbn in X. discriminate X.
Qed.
Print Assumptions C54_ghosts_kept_refuted.

(** On a grid of four dimensions the coordinates are written past the end of the
    local array, whatever the sizes and parameters. *)
Theorem C54_four_dimensions_refuted : forall F (A : Arith F) (m : mgr F) M L outs fuel rho_jump P_jump gamma,
  ic_ready m M L outs 5 fuel -> outs <> [] -> (3 < List.length M)%nat ->
  shock_tube_solve fuel rho_jump P_jump gamma outs m = Undef OutOfBounds.
Proof. intros. now apply (shock_oob m M L). Qed.
Print Assumptions C54_four_dimensions_refuted.
Definition ic_four : box := [(0, 1); (0, 1); (0, 1); (0, 1)].
Definition ic_four_grid {F} {A : Arith F} : grid F := mkGrid (range_of ic_four) [f0; f0; f0; f0] [f1; f1; f1; f1] [f1; f1; f1; f1].
Example C54_four_dimensions_ex :
  ic_ready (ic_start (ic_four_grid (A := FloatArith))) ic_four [] [ic_fluid "q"] 5 4000 /\
  shock_tube_solve 4000 f1 f1 (dbl 3) [ic_fluid "q"] (ic_start (ic_four_grid (A := FloatArith))) = Undef OutOfBounds.
Proof. split; [ic_ok|vm_compute; reflexivity]. Qed.

(** The number of components is not checked: with three components the energy of
    a cell is written into the momentum of its neighbour, and into the ghost cell
    beside the mesh. *)
Theorem C54_few_components_refuted :
  let k := mkVid "q" (["rho"; "p"; "e"]%string) volume_average in
  ic_data ic_line 0 (shock_tube_solve 99 (fdec 125 (-3)) (fdec 1 (-1)) (dbl 3) [k] (ic_start ic_line_grid)) =
  repeat f0 6 ++ [f1; f0; f0] ++ [fdec 125 (-3); fdec 5 (-1); f0] ++ [f0; fdec 5 (-2); f0; f0; f0; f0].
Proof. vm_compute. reflexivity. Qed.
Print Assumptions C54_few_components_refuted.

(** The plasma shock tube: both fluids at rest with the number density of their
    side and energy pressure/(gamma-1); the field is as coded, see the refutation
    below. *)
Theorem C54_brio_wu : forall F (A : Arith F) (m : mgr F) M L e i f fuel p, ic_ready m M L [e; i; f] 5 fuel ->
  NoDup (map id_name [e; i; f]) -> comp_box i = comp_box e -> (List.length M <= 3)%nat ->
  exists m' L' ue ui uf, brio_wu_solve fuel p [e; i; f] m = Done m' /\ ic_done m m' M L L' [e; i; f] (fun _ _ => True) /\
    field_get L' e = Some ue /\ field_get L' i = Some ui /\ field_get L' f = Some uf /\
    ghosts_zero M e ue /\ ghosts_zero M i ui /\ ghosts_zero M f uf /\
    values_in M e ue (fun x => let g := mg_grid m in
      at_rest (bw_me p * side g x (bw_nl p) (bw_nr p))%F (side g x (bw_Pl p) (bw_Pr p) * (f1 / (bw_gamma p - f1)))%F) /\
    values_in M i ui (fun x => let g := mg_grid m in
      at_rest (bw_me p * side g x (bw_nl p) (bw_nr p) * bw_mi p / bw_me p)%F (side g x (bw_Pl p) (bw_Pr p) * (f1 / (bw_gamma p - f1)))%F) /\
    values_in M f uf (fun x => two_comps 3 (bw_Bx p) 4 (bw_By p * side (mg_grid m) x f1 (fofz (-1)) * (f1 / (bw_gamma p - f1)))%F).
Proof.
  intros F A m M L e i f fuel p HR ND HB H3. destruct (brio_done m M L e i f fuel p HR ND HB H3) as (m' & L' & E & D).
  pose proof D as (D1 & D2 & D3 & D4 & D5 & D6).
  destruct (D6 e) as (ue & Ee & (He & _ & _)); [now left|]. destruct (D6 i) as (ui & Ei & (_ & Hi & _)); [now (right; left)|].
  destruct (D6 f) as (uf & Ef & (_ & _ & Hf)); [now (right; right; left)|].
  specialize (He eq_refl). specialize (Hi eq_refl). specialize (Hf eq_refl).
  assert (X : forall k v vs (W : list Z -> Z -> F), on_cells M k v (painted (spots M k) vs) ->
    (forall x j, match find (fun p => fst p =? j) (vs x) with Some p => snd p | None => f0 end = W x j) -> values_in M k v W /\ ghosts_zero M k v).
  { intros k v vs W Hv HW. exact (painted_in M k true vs v W Hv HW). }
  exists m', L', ue, ui, uf. split; [exact E|]. split.
  { refine (conj D1 (conj D2 (conj D3 (conj D4 (conj D5 _))))). intros k Hk. destruct (D6 k Hk) as (v & Ev & _). exists v. auto. }
  split; [exact Ee|]. split; [exact Ei|]. split; [exact Ef|].
  destruct (X _ _ _ (fun x => at_rest (bw_me p * bw_n p (mg_grid m) x)%F (bw_P p (mg_grid m) x)) He) as [Ve Ge]; [intros x j; apply at_rest_find|].
  destruct (X _ _ _ (fun x => at_rest (bw_me p * bw_n p (mg_grid m) x * bw_mi p / bw_me p)%F (bw_P p (mg_grid m) x)) Hi) as [Vi Gi]; [intros x j; apply at_rest_find|].
  destruct (X _ _ _ (fun x => two_comps 3 (bw_Bx p) 4 (bw_B p (mg_grid m) x)) Hf) as [Vf Gf].
  { intros x j. unfold bw_f, two_comps. cbn [find fst snd]. rewrite (Z.eqb_sym j 3), (Z.eqb_sym j 4). now destruct (3 =? j), (4 =? j). }
  split; [exact Ge|]. split; [exact Gi|]. split; [exact Gf|]. split; [exact Ve|]. split; [exact Vi|exact Vf].
Qed.
Print Assumptions C54_brio_wu.
(** gamma = 3: the transverse field given as 1 is stored as 0.5 and -0.5. *)
Definition some_bw : bw spec_float := mkBw (dbl 3) (dbl 2) (dbl 8) f1 (fdec 125 (-3)) f1 (fdec 1 (-1)) (fdec 75 (-2)) f1.
Example C54_brio_wu_ex :
  ic_ready (ic_start (ic_line_grid (A := FloatArith))) ic_line [] [ic_fluid "e"; ic_fluid "i"; ic_em] 5 99 /\
  let o := brio_wu_solve 99 some_bw [ic_fluid "e"; ic_fluid "i"; ic_em] (ic_start ic_line_grid) in
  ic_data ic_line 0 o = repeat f0 10 ++ [dbl 2; f0; f0; f0; fdec 5 (-1)] ++ [fdec 25 (-2); f0; f0; f0; fdec 5 (-2)] ++ repeat f0 10 /\
  ic_data ic_line 1 o = repeat f0 10 ++ [dbl 8; f0; f0; f0; fdec 5 (-1)] ++ [dbl 1; f0; f0; f0; fdec 5 (-2)] ++ repeat f0 10 /\
  ic_data ic_line 2 o = repeat f0 12 ++ [f0; f0; f0; fdec 75 (-2); fdec 5 (-1); f0] ++ [f0; f0; f0; fdec 75 (-2); fdec (-5) (-1); f0] ++ repeat f0 12.
Proof. split; [ic_ok|]. vm_compute. repeat split; reflexivity. Qed.

(** The transverse field is given but not stored: what is stored is By/(gamma-1). *)
Theorem C54_brio_wu_field_refuted : ~ forall (m : mgr R) M L e i f fuel p m' L' u x,
  ic_ready m M L [e; i; f] 5 fuel -> NoDup (map id_name [e; i; f]) -> comp_box i = comp_box e -> (List.length M <= 3)%nat -> bw_gamma p <> 1%R ->
  brio_wu_solve fuel p [e; i; f] m = Done m' -> mgr_holds m' M L' -> field_get L' f = Some u -> in_box (spots M f) x ->
  Rabs (u (x ++ [4])) = Rabs (bw_By p).
Proof.
  intros H. set (p := (mkBw 3 1 1 1 1 1 1 1 1)%R).
  assert (HR : ic_ready (ic_start (ic_line_grid (A := RArith))) ic_line [] [ic_fluid "e"; ic_fluid "i"; ic_em] 5 99) by ic_ok.
  assert (ND : NoDup (map id_name [ic_fluid "e"; ic_fluid "i"; ic_em])) by (cbn; repeat (constructor; [cbn; intuition discriminate|]); constructor).
  destruct (C54_brio_wu R RArith _ ic_line [] _ _ _ 99 p HR ND eq_refl ltac:(cbn; lia)) as (m' & L' & ue & ui & uf & E & D & _ & _ & Ef & _ & _ & _ & _ & _ & Hf).
  assert (I : in_box (spots ic_line ic_em) [0; 0]) by (apply in_boxb_iff; vm_compute; reflexivity).
  pose proof (H _ ic_line [] _ _ _ _ p m' L' uf [0; 0] HR ND eq_refl ltac:(cbn; lia) ltac:(cbn; lra) E (proj1 D) Ef I) as X.
  rewrite (Hf [0; 0] 4 I ltac:(cbn; lia)) in X. unfold two_comps, side in X. cbn [Z.eqb Pos.eqb] in X. unfold f1, p in X. cbn [bw_By bw_gamma fmul fdiv fsub fofz RArith] in X.
  destruct (_ <? _)%F in X; cbn in X; unfold Rabs in X; destruct (Rcase_abs 1), (Rcase_abs _) in X; lra.
Qed.
Print Assumptions C54_brio_wu_field_refuted.

(** ** C33: initial conditions as functions of the position *)

(** On every three-dimensional grid the values, ghost cells included, are the
    given function of the cell centre. *)
Theorem C33_gaussian_partial : forall F (A : Arith F) (m : mgr F) M L outs fuel amplitude average sd, ic_ready m M L outs 1 fuel -> List.length M = 3%nat ->
  exists m' L', gaussian_solve fuel amplitude average sd outs m = Done m' /\
    ic_done m m' M L L' outs (fun k v => values_in (grow 2 M) k v (fun x _ =>
      let w d := ((center (mg_grid m) x d - nth d average f0) / sd)%F in
      (amplitude * fexp (- w 0%nat * w 0%nat - w 1%nat * w 1%nat - w 2%nat * w 2%nat))%F)).
Proof.
  intros F A m M L outs fuel amp av sd HR H3. destruct (gaussian_done m M L outs fuel amp av sd HR H3) as (m' & L' & E & D).
  exists m', L'. split; [exact E|]. revert D. apply each_done_impl. intros k v Hk Hv x j Hx Hj.
  rewrite Hv by (apply whole_in; auto). now rewrite removelast_last.
Qed.
Print Assumptions C33_gaussian_partial.
Theorem C33_magnetic_pulse_partial : forall F (A : Arith F) (m : mgr F) M L outs fuel amplitude sd, ic_ready m M L outs 6 fuel -> List.length M = 3%nat ->
  exists m' L', magnetic_pulse_solve fuel amplitude sd outs m = Done m' /\
    ic_done m m' M L L' outs (fun k v => values_in (grow 2 M) k v (fun x j =>
      let y d := center (mg_grid m) x d in
      if j =? 5 then (amplitude * fexp (- (fdec 5 (-1) * (y 0%nat * y 0%nat + y 1%nat * y 1%nat + y 2%nat * y 2%nat) / sd)))%F else f0)).
Proof.
  intros F A m M L outs fuel amp sd HR H3. destruct (pulse_done m M L outs fuel amp sd HR H3) as (m' & L' & E & D).
  exists m', L'. split; [exact E|]. revert D. apply each_done_impl. intros k v Hk Hv.
  refine (proj1 (painted_in M k false _ v _ Hv _)). intros x j. cbn [map pulse_vs find fst snd]. rewrite (Z.eqb_sym j 5). change (5 + 0) with 5. now destruct (5 =? j).
Qed.
Print Assumptions C33_magnetic_pulse_partial.
Theorem C33_radial_partial : forall F (A : Arith F) (m : mgr F) M L outs fuel radius rho_jump P_jump gamma c, ic_ready m M L outs 5 fuel -> List.length M = 3%nat ->
  exists m' L', radial_shock_tube_solve fuel radius rho_jump P_jump gamma c outs m = Done m' /\
    ic_done m m' M L L' outs (fun k v => values_in (grow 2 M) k v (fun x =>
      let y d := center (mg_grid m) x d in let z d := nth d c f0 in
      blast ((y 0%nat - z 0%nat) * (y 0%nat - z 0%nat) + (y 1%nat - z 1%nat) * (y 1%nat - z 1%nat) + (y 2%nat - z 2%nat) * (y 1%nat - z 2%nat) <? radius * radius)%F
        rho_jump P_jump gamma)).
Proof.
  intros F A m M L outs fuel radius rj pj gamma c HR H3. destruct (radial_done m M L outs fuel radius rj pj gamma c HR H3) as (m' & L' & E & D).
  exists m', L'. split; [exact E|]. revert D. apply each_done_impl. intros k v Hk Hv.
  refine (proj1 (painted_in M k false _ v _ Hv _)). intros x j. unfold radial_vs. rewrite at_rest_find. unfold blast, coded_r2.
  now destruct (_ <? radius * radius)%F.
Qed.
Print Assumptions C33_radial_partial.

(** In real numbers the Gaussian is a Gaussian and the pulse is one with variance
    [sd] (not [sd] squared). *)
Definition dist2 (gr : grid R) (x : list Z) (c : nat -> R) : R :=
  ((center gr x 0 - c 0%nat) ^ 2 + (center gr x 1 - c 1%nat) ^ 2 + (center gr x 2 - c 2%nat) ^ 2)%R.
Theorem C33_real_partial : forall (m : mgr R) M L outs fuel amplitude average sd, ic_ready m M L outs 6 fuel -> List.length M = 3%nat -> sd <> 0%R ->
  (exists m' L', gaussian_solve fuel amplitude average sd outs m = Done m' /\
    ic_done m m' M L L' outs (fun k v => values_in (grow 2 M) k v (fun x _ => (amplitude * exp (- (dist2 (mg_grid m) x (fun d => nth d average 0) / sd ^ 2)))%R))) /\
  (exists m' L', magnetic_pulse_solve fuel amplitude sd outs m = Done m' /\
    ic_done m m' M L L' outs (fun k v => values_in (grow 2 M) k v (fun x j => if j =? 5 then (amplitude * exp (- (dist2 (mg_grid m) x (fun _ => 0) / (2 * sd))))%R else 0%R))).
Proof.
  intros m M L outs fuel amp av sd HR H3 Hs. split.
  - assert (HR1 : ic_ready m M L outs 1 fuel).
    { destruct HR as (R1 & R2 & R3 & R4 & R5). split; [exact R1|]. split; [exact R2|]. split; [exact R3|]. split; [|exact R5].
      revert R4. apply Forall_impl. intros k (K1 & K2 & K3). split; [exact K1|]. split; [lia|exact K3]. }
    destruct (C33_gaussian_partial R RArith m M L outs fuel amp av sd HR1 H3) as (m' & L' & E & D). exists m', L'. split; [exact E|].
    revert D. apply each_done_impl. intros k v Hk Hv x j Hx Hj. rewrite (Hv x j Hx Hj). unfold f0. cbn [fmul fsub fneg fdiv fexp fofz RArith]. f_equal. f_equal.
    unfold dist2. field. exact Hs.
  - destruct (C33_magnetic_pulse_partial R RArith m M L outs fuel amp sd HR H3) as (m' & L' & E & D). exists m', L'. split; [exact E|].
    revert D. apply each_done_impl. intros k v Hk Hv x j Hx Hj. rewrite (Hv x j Hx Hj). destruct (j =? 5); [|reflexivity].
    cbn [fmul fadd fsub fneg fdiv fexp fofz fdec RArith Rdecimal]. f_equal. f_equal. unfold dist2.
    replace (IZR (10 ^ 1)) with 10%R by reflexivity. field. exact Hs.
Qed.
Print Assumptions C33_real_partial.
(** The only cell of the cube has its centre at (0, -10, 10): a Gaussian around
    that point has its top there. *)
Lemma ic_cube_center : forall x, in_box (spots ic_cube (ic_fluid "q")) x -> center (ic_cube_grid (A := RArith)) x 0 = 0%R /\
  center (ic_cube_grid (A := RArith)) x 1 = (-10)%R /\ center (ic_cube_grid (A := RArith)) x 2 = 10%R.
Proof.
  intros x Hx. apply in_cells in Hx. cbn in Hx. destruct Hx as [<-|[]]. unfold center, ic_cube_grid, f1. cbn [gr_starts gr_dxs nth fadd fmul fofz fdec RArith Rdecimal].
  replace (IZR (10 ^ 1)) with 10%R by reflexivity. repeat split; field.
Qed.
Lemma ic_cube_ready : forall (n : nat), (n <= 5)%nat -> ic_ready (ic_start (ic_cube_grid (A := RArith))) ic_cube [] [ic_fluid "q"] n 999.
Proof.
  intros n Hn. apply ic_start_ready; [reflexivity|repeat constructor; intros []| |cbn; lia|cbn; lia].
  constructor; [|constructor]. split; [apply shapeb_ok; vm_compute; reflexivity|]. split; [cbn; lia|vm_compute; discriminate].
Qed.
Example C33_ex : exists m' L' v, gaussian_solve 999 7%R [0; -10; 10]%R 3%R [ic_fluid "q"] (ic_start ic_cube_grid) = Done m' /\
  mgr_holds m' ic_cube L' /\ field_get L' (ic_fluid "q") = Some v /\ v [0; 0; 0; 0; 2] = 7%R.
Proof.
  destruct (C33_gaussian_partial R RArith _ ic_cube [] [ic_fluid "q"] 999 7%R [0; -10; 10]%R 3%R (ic_cube_ready 1 ltac:(lia)) eq_refl) as (m' & L' & E & D).
  destruct D as (D1 & _ & _ & _ & _ & D). destruct (D _ (or_introl eq_refl)) as (v & Ev & Hv). exists m', L', v. split; [exact E|split; [exact D1|split; [exact Ev|]]].
  assert (I : in_box (spots ic_cube (ic_fluid "q")) [0; 0; 0; 0]) by (apply in_boxb_iff; vm_compute; reflexivity).
  change (v [0; 0; 0; 0; 2]) with (v ([0; 0; 0; 0] ++ [2])).
  rewrite (Hv [0; 0; 0; 0] 2); [|apply in_boxb_iff; vm_compute; reflexivity|cbn; lia].
  destruct (ic_cube_center _ I) as (E0 & E1 & E2). cbn [mg_grid ic_start nth]. rewrite E0, E1, E2. cbn [fmul fsub fneg fdiv fexp RArith].
  replace (- ((0 - 0) / 3) * ((0 - 0) / 3) - (-10 - -10) / 3 * ((-10 - -10) / 3) - (10 - 10) / 3 * ((10 - 10) / 3))%R with 0%R by field.
  rewrite exp_0. ring.
Qed.

(** On grids of one and two dimensions, as in the example programs, coordinates
    are read that were never written. *)
Theorem C33_refuted : forall F (A : Arith F) (m : mgr F) M L outs fuel, outs <> [] -> (List.length M < 3)%nat ->
  (forall amplitude average sd, ic_ready m M L outs 1 fuel -> gaussian_solve fuel amplitude average sd outs m = Undef Uninitialised) /\
  (forall amplitude sd, ic_ready m M L outs 6 fuel -> magnetic_pulse_solve fuel amplitude sd outs m = Undef Uninitialised) /\
  (forall radius rho_jump P_jump gamma c, ic_ready m M L outs 5 fuel -> radial_shock_tube_solve fuel radius rho_jump P_jump gamma c outs m = Undef Uninitialised).
Proof.
  intros F A m M L outs fuel HO H3. split; [|split]; intros.
  - now apply (gaussian_uninit m M L).
  - now apply (pulse_uninit m M L).
  - now apply (radial_uninit m M L).
Qed.
Print Assumptions C33_refuted.
Example C33_refuted_ex : magnetic_pulse_solve 99 f1 f1 [ic_em] (ic_start (ic_line_grid (A := FloatArith))) = Undef Uninitialised /\
  ic_ready (ic_start (ic_line_grid (A := FloatArith))) ic_line [] [ic_em] 6 99.
Proof. split; [vm_compute; reflexivity|ic_ok]. Qed.

(** ** C34: the region of the radial shock tube *)

(** In real numbers: right for the cells in the plane through the centre and for
    those on the diagonal plane x1 = x2. *)
Theorem C34_partial : forall (m : mgr R) M L outs fuel radius rho_jump P_jump gamma c, ic_ready m M L outs 5 fuel -> List.length M = 3%nat -> (0 <= radius)%R ->
  exists m' L', radial_shock_tube_solve fuel radius rho_jump P_jump gamma c outs m = Done m' /\
    ic_done m m' M L L' outs (fun k v => forall x j, in_box (spots (grow 2 M) k) x -> 0 <= j < Z.of_nat (List.length (id_comps k)) ->
      center (mg_grid m) x 2 = nth 2 c 0%R \/ center (mg_grid m) x 1 = center (mg_grid m) x 2 ->
      exists inner, v (x ++ [j]) = blast inner rho_jump P_jump gamma j /\ (inner = true <-> (sqrt (dist2 (mg_grid m) x (fun d => nth d c 0%R)) < radius)%R)).
Proof.
  intros m M L outs fuel radius rj pj gamma c HR H3 Hr. destruct (C33_radial_partial R RArith m M L outs fuel radius rj pj gamma c HR H3) as (m' & L' & E & D).
  exists m', L'. split; [exact E|]. revert D. apply each_done_impl. intros k v Hk Hv x j Hx Hj Hp. rewrite (Hv x j Hx Hj). eexists. split; [reflexivity|].
  cbn [flt fadd fsub fmul RArith]. rewrite Rltb_iff. change (@f0 R RArith) with 0%R.
  match goal with |- (?a < _)%R <-> _ => replace a with (dist2 (mg_grid m) x (fun d => nth d c 0%R)) by (unfold dist2; destruct Hp as [Hp|Hp]; rewrite Hp; ring) end.
  assert (P : (0 <= dist2 (mg_grid m) x (fun d => nth d c 0))%R) by (unfold dist2; repeat apply Rplus_le_le_0_compat; apply pow2_ge_0).
  pose proof (sqrt_pos (dist2 (mg_grid m) x (fun d => nth d c 0%R))) as Q. pose proof (sqrt_sqrt _ P) as S. split; intros H; nra.
Qed.
Print Assumptions C34_partial.
(** Elsewhere it is wrong: a cell far outside gets the inner state. *)
Theorem C34_refuted : ~ forall (m : mgr R) M L outs fuel radius rho_jump P_jump gamma c m' L' k v x j,
  ic_ready m M L outs 5 fuel -> List.length M = 3%nat -> (0 <= radius)%R -> radial_shock_tube_solve fuel radius rho_jump P_jump gamma c outs m = Done m' ->
  mgr_holds m' M L' -> In k outs -> field_get L' k = Some v -> in_box (spots M k) x -> 0 <= j < 5 -> (radius < sqrt (dist2 (mg_grid m) x (fun d => nth d c 0%R)))%R ->
  v (x ++ [j]) = blast false rho_jump P_jump gamma j.
Proof.
  intros H.
  destruct (C33_radial_partial R RArith _ ic_cube [] [ic_fluid "q"] 999 1%R 2%R 2%R 3%R [0; 0; 0]%R (ic_cube_ready 5 ltac:(lia)) eq_refl) as (m' & L' & E & D).
  destruct D as (D1 & _ & _ & _ & _ & D). destruct (D _ (or_introl eq_refl)) as (v & Ev & Hv).
  assert (I : in_box (spots ic_cube (ic_fluid "q")) [0; 0; 0; 0]) by (apply in_boxb_iff; vm_compute; reflexivity).
  destruct (ic_cube_center _ I) as (E0 & E1 & E2).
  assert (X := H _ ic_cube [] [ic_fluid "q"] 999%nat 1%R 2%R 2%R 3%R [0; 0; 0]%R m' L' _ v [0; 0; 0; 0] 0 (ic_cube_ready 5 ltac:(lia)) eq_refl ltac:(lra) E D1 (or_introl eq_refl) Ev I ltac:(lia)).
  cbn [mg_grid ic_start] in X. rewrite (Hv [0; 0; 0; 0] 0) in X; [|apply in_boxb_iff; vm_compute; reflexivity|cbn; lia].
  cbn [mg_grid ic_start nth] in X. unfold dist2 in X. rewrite E0, E1, E2 in X. cbn [flt fadd fsub fmul RArith] in X.
  rewrite (proj2 (Rltb_iff _ _)) in X by lra. unfold blast, at_rest in X. cbn [Z.eqb] in X. unfold f1 in X. cbn [fmul fofz RArith] in X.
  assert (S : (1 < sqrt ((0 - 0) ^ 2 + (-10 - 0) ^ 2 + (10 - 0) ^ 2))%R).
  { rewrite <- sqrt_1 at 1. apply sqrt_lt_1; lra. }
  specialize (X S). lra.
Qed.
Print Assumptions C34_refuted.

(** ** C61: the electromagnetic wave *)

(** In real numbers: E = c B x n with n the direction of propagation, B the given
    amplitude times the sine, except its component along n, which is constant. *)
Definition unit_vector (d i : nat) : R := if (i =? d)%nat then 1%R else 0%R.
Theorem C61_wave : forall (m : mgr R) M L outs fuel d c kk Bx By Bz, ic_ready m M L outs 6 fuel -> (List.length M <= 3)%nat -> (d < List.length M)%nat ->
  exists m' L', wave_solve fuel (Z.of_nat d) c kk Bx By Bz outs m = Done m' /\
    ic_done m m' M L L' outs (fun k v => forall x, in_box (spots (grow 2 M) k) x ->
      let s := sin (kk * center (mg_grid m) x d) in
      let E i := v (x ++ [Z.of_nat i]) in let B i := v (x ++ [3 + Z.of_nat i]) in
      (forall i, (i < 3)%nat -> E i = c * cross B (unit_vector d) i)%R /\
      (forall i, (i < 3)%nat -> B i = (nth i [Bx; By; Bz] 0 * (if (i =? d)%nat then 1 else s))%R)).
Proof.
  intros m M L outs fuel d c kk Bx By Bz HR H3 Hd. destruct (wave_done m M L outs fuel d c kk Bx By Bz HR H3 Hd) as (m' & L' & E & D).
  exists m', L'. split; [exact E|]. revert D. apply each_done_impl. intros k v Hk Hv x Hx.
  assert (HN : (6 <= List.length (id_comps k))%nat).
  { destruct HR as (_ & _ & _ & HF & _). rewrite Forall_forall in HF. now destruct (HF k Hk) as (_ & X & _). }
  set (s := sin (kk * center (mg_grid m) x d)).
  set (W := fun (x : list Z) (j : Z) => match find (fun p => fst p =? j) (wave_values (Z.of_nat d) c Bx By Bz (fsin (kk * center (mg_grid m) x d)%F)) with Some p => snd p | None => f0 end).
  destruct (painted_in M k false _ v W Hv) as [V _]; [reflexivity|].
  assert (VV : forall j, 0 <= j < 6 -> v (x ++ [j]) = W x j) by (intros j Hj; apply V; auto; lia).
  assert (D3 : (d < 3)%nat) by lia.
  split; intros i Hi; destruct d as [|[|[|d]]]; try lia; destruct i as [|[|[|i]]]; try lia;
    unfold cross, levi, unit_vector; cbn [Nat.eqb]; cbn [Z.of_nat Pos.of_succ_nat Pos.succ Z.add Pos.add];
    rewrite !VV by lia; unfold W, wave_values; cbn [Z.of_nat Pos.of_succ_nat Pos.succ Z.eqb Pos.eqb find fst snd nth];
    cbn [fmul fneg fofz fsin RArith]; unfold f0; cbn [fofz RArith]; fold s; cbn [INR]; field.
Qed.
Print Assumptions C61_wave.

(** Such a wave is purely upwind: between any two wave states the flux of the
    Maxwell solver is c times the left state, and zero for the component of B along
    the direction of propagation. *)
Theorem C61_upwind : forall d c E B E' B', (d < 3)%nat -> (0 <= c)%R ->
  (forall i, (i < 3)%nat -> E i = c * cross B (unit_vector d) i)%R -> (forall i, (i < 3)%nat -> E' i = c * cross B' (unit_vector d) i)%R ->
  maxwell_flux c (Z.of_nat d) [E 0%nat; E 1%nat; E 2%nat; B 0%nat; B 1%nat; B 2%nat] [E' 0%nat; E' 1%nat; E' 2%nat; B' 0%nat; B' 1%nat; B' 2%nat] =
  Ok (map (fun i => if (i =? 3 + d)%nat then 0%R else (c * nth i [E 0%nat; E 1%nat; E 2%nat; B 0%nat; B 1%nat; B 2%nat] 0)%R) [0; 1; 2; 3; 4; 5]%nat).
Proof.
  intros d c E B E' B' Hd Hc H H'.
  rewrite (H 0%nat), (H 1%nat), (H 2%nat), (H' 0%nat), (H' 1%nat), (H' 2%nat) by lia. clear H H'.
  unfold maxwell_flux. cbn [fabs RArith]. rewrite (Rabs_right c) by lra.
  destruct d as [|[|[|d]]]; try lia; cbn [Z.of_nat Pos.of_succ_nat Pos.succ Z.eqb Pos.eqb map Nat.eqb Nat.add nth];
    unfold cross, levi, unit_vector; cbn [Nat.eqb INR]; cbn [fadd fsub fmul fneg fofz fdec RArith Rdecimal]; replace (IZR (10 ^ 1)) with 10%R by reflexivity;
    repeat (apply f_equal2 || apply f_equal); try reflexivity; try field.
Qed.
Print Assumptions C61_upwind.

(** The cell at (0, -10, 10), wave number pi/20 along dimension 1: the sine is -1. *)
Definition ic_wave_start : mgr R := ic_start ic_cube_grid.
Lemma ic_wave_ready : ic_ready ic_wave_start ic_cube [] [ic_em] 6 999.
Proof. unfold ic_wave_start. ic_ok. Qed.
Example C61_ex : exists m' L' v, wave_solve 999 1 3%R (PI / 20)%R 5%R 6%R 7%R [ic_em] ic_wave_start = Done m' /\ mgr_holds m' ic_cube L' /\ field_get L' ic_em = Some v /\
  map (fun j => v [0; 0; 0; 0; j]) [0; 1; 2; 3; 4; 5] = [21; 0; -15; -5; 6; -7]%R.
Proof.
  destruct (C61_wave ic_wave_start ic_cube [] [ic_em] 999 1 3%R (PI / 20)%R 5%R 6%R 7%R ic_wave_ready ltac:(cbn; lia) ltac:(cbn; lia)) as (m' & L' & E & D).
  destruct D as (D1 & _ & _ & _ & _ & D). destruct (D _ (or_introl eq_refl)) as (v & Ev & Hv).
  exists m', L', v. split; [exact E|split; [exact D1|split; [exact Ev|]]].
  assert (I : in_box (spots ic_cube (ic_fluid "q")) [0; 0; 0; 0]) by (apply in_boxb_iff; vm_compute; reflexivity).
  destruct (ic_cube_center _ I) as (_ & E1 & _).
  destruct (Hv [0; 0; 0; 0]) as [HE HB]; [apply in_boxb_iff; vm_compute; reflexivity|]. cbn [mg_grid ic_wave_start ic_start] in HB. rewrite E1 in HB.
  assert (S : sin (PI / 20 * -10) = (-1)%R) by (replace (PI / 20 * -10)%R with (- (PI / 2))%R by field; rewrite sin_neg, sin_PI2; reflexivity).
  rewrite S in HB.
  pose proof (HB 0%nat ltac:(lia)) as B0. pose proof (HB 1%nat ltac:(lia)) as B1. pose proof (HB 2%nat ltac:(lia)) as B2.
  pose proof (HE 0%nat ltac:(lia)) as X0. pose proof (HE 1%nat ltac:(lia)) as X1. pose proof (HE 2%nat ltac:(lia)) as X2. clear HB HE.
  unfold cross, levi, unit_vector in X0, X1, X2. cbn [app Z.of_nat Z.add Pos.of_succ_nat Pos.succ Pos.add Nat.eqb nth INR] in B0, B1, B2, X0, X1, X2.
  rewrite B0, B1, B2 in X0, X1, X2. cbn [map]. rewrite X0, X1, X2, B0, B1, B2. repeat (apply f_equal2; [field|]). reflexivity.
Qed.

(** A direction the grid does not have: an unwritten coordinate is read; a
    direction that is not 0, 1 or 2: no wave at all, without an error. *)
Theorem C61_direction_refuted : forall F (A : Arith F) (m : mgr F) M L outs fuel d c kk Bx By Bz,
  ic_ready m M L outs 6 fuel -> outs <> [] -> (List.length M <= d)%nat -> (d < 3)%nat ->
  wave_solve fuel (Z.of_nat d) c kk Bx By Bz outs m = Undef Uninitialised.
Proof. intros F A m M L outs fuel d c kk Bx By Bz HR HO H H3. now apply (wave_uninit m M L). Qed.
Print Assumptions C61_direction_refuted.
Theorem C61_silent_refuted : ic_data ic_line 0 (wave_solve 99 (-1) f1 f1 f1 f1 f1 [ic_em] (ic_start (ic_line_grid (A := FloatArith)))) = repeat f0 36.
Proof. vm_compute. reflexivity. Qed.
Print Assumptions C61_silent_refuted.

(** ** C62: the current sheet of the GEM challenge *)

(** The unperturbed current sheet: number density, and the field along dimension 1
    as a function of the position across the sheet. *)
Definition sech (z : R) : R := (/ cosh z)%R.
Definition sheet_density (p : gem R) (X : R) : R := (gm_n0 p * sech (X / gm_lambda p) ^ 2 + gm_n1 p)%R.
Definition sheet_field (p : gem R) (X : R) : R := (gm_B0 p * tanh (X / gm_lambda p))%R.
(** The perturbation of the field: a constant times (ky cos sin, -kx sin cos). *)
Definition pi_coded : R := (314159263 / 100000000)%R.
Definition wave_x (p : gem R) : R := (pi_coded / gm_Lx p)%R.
Definition wave_y (p : gem R) : R := (2 * pi_coded / (2 * gm_Lx p))%R.
Definition bump_x (p : gem R) (X Y : R) : R := (gm_B0 p / 10 * wave_y p * cos (wave_x p * X) * sin (wave_y p * Y))%R.
Definition bump_y (p : gem R) (X Y : R) : R := (- (gm_B0 p / 10 * wave_x p * sin (wave_x p * X) * cos (wave_y p * Y)))%R.

Theorem C62_gem : forall (m : mgr R) M L e i f fuel p, ic_ready m M L [e; i; f] 5 fuel -> NoDup (map id_name [e; i; f]) ->
  bs_points (id_basis i) = bs_points (id_basis e) -> bs_points (id_basis f) = bs_points (id_basis e) -> (List.length M <= 3)%nat ->
  (0 < gm_n0 p)%R -> (0 <= gm_n1 p)%R -> (0 < gm_me p)%R -> (0 < gm_mi p)%R -> gm_gamma p <> 1%R -> gm_qe p <> 0%R -> gm_qi p <> 0%R -> gm_lambda p <> 0%R -> gm_B0 p <> 0%R ->
  exists m' L' ue ui uf, gem_solve fuel p [e; i; f] m = Done m' /\ ic_done m m' M L L' [e; i; f] (fun _ _ => True) /\
    field_get L' e = Some ue /\ field_get L' i = Some ui /\ field_get L' f = Some uf /\
    forall x, in_box (spots (grow 2 M) e) x -> let X := center (mg_grid m) x 0 in let Y := if (1 <? List.length M)%nat then center (mg_grid m) x 1 else 0%R in
      (* both fluids have the same number density, in isothermal equilibrium *)
      density (state_at ue x) = (gm_me p * sheet_density p X)%R /\ density (state_at ui x) = (gm_mi p * sheet_density p X)%R /\
      pressure (gm_gamma p) (state_at ue x) = (sheet_density p X * gm_Te p)%R /\ pressure (gm_gamma p) (state_at ui x) = (sheet_density p X * gm_Ti p)%R /\
      (* they flow along dimension 2 and carry the current of the sheet *)
      (forall d, (d < 2)%nat -> momentum d (state_at ue x) = 0%R /\ momentum d (state_at ui x) = 0%R) /\
      (gm_qe p / gm_me p * momentum 2 (state_at ue x) + gm_qi p / gm_mi p * momentum 2 (state_at ui x) =
       2 * gm_n0 p * (gm_Te p + gm_Ti p) / (gm_lambda p * gm_B0 p) * sech (X / gm_lambda p) ^ 2)%R /\
      (* the field is that of the sheet and the perturbation *)
      uf (x ++ [3]) = bump_x p X Y /\ uf (x ++ [4]) = (sheet_field p X + bump_y p X Y)%R /\
      (forall j, 0 <= j < Z.of_nat (List.length (id_comps f)) -> j <> 3 -> j <> 4 -> uf (x ++ [j]) = 0%R).
Proof.
  intros m M L e i f fuel p HR ND HPi HPf H3 N0 N1 Me Mi Hg Qe Qi Hl HB.
  destruct (gem_done m M L e i f fuel p HR ND HPi HPf H3) as (m' & L' & E & D). pose proof D as (D1 & D2 & D3 & D4 & D5 & D6).
  destruct (D6 e) as (ue & Ee & (He & _ & _)); [now left|]. destruct (D6 i) as (ui & Ei & (_ & Hi & _)); [now (right; left)|].
  destruct (D6 f) as (uf & Ef & (_ & _ & Hf)); [now (right; right; left)|].
  specialize (He eq_refl). specialize (Hi eq_refl). specialize (Hf eq_refl).
  assert (HN : forall k, In k [e; i; f] -> (5 <= List.length (id_comps k))%nat).
  { intros k Hk. destruct HR as (_ & _ & _ & HF & _). rewrite Forall_forall in HF. now destruct (HF k Hk) as (_ & X & _). }
  pose proof (HN e ltac:(now left)) as Ne. pose proof (HN i ltac:(right; now left)) as Ni. pose proof (HN f ltac:(right; right; now left)) as Nf.
  set (W := fun (vs : list (Z * R)) (j : Z) => match find (fun p => fst p =? j) vs with Some p => snd p | None => f0 end).
  assert (Q : forall k v vs, on_cells M k v (painted (spots (grow 2 M) k) vs) -> values_in (grow 2 M) k v (fun x => W (vs x))).
  { intros k v vs Hv. exact (proj1 (painted_in M k false vs v (fun x => W (vs x)) Hv (fun _ _ => eq_refl))). }
  apply Q in He, Hi, Hf. clear Q.
  exists m', L', ue, ui, uf. split; [exact E|]. split.
  { refine (conj D1 (conj D2 (conj D3 (conj D4 (conj D5 _))))). intros k Hk. destruct (D6 k Hk) as (v & Ev & _). exists v. auto. }
  split; [exact Ee|]. split; [exact Ei|]. split; [exact Ef|]. intros x Hx X Y.
  assert (Hxi : in_box (spots (grow 2 M) i) x) by (unfold spots in *; now rewrite HPi).
  assert (Hxf : in_box (spots (grow 2 M) f) x) by (unfold spots in *; now rewrite HPf).
  assert (Ve : forall j, 0 <= j < 5 -> ue (x ++ [j]) = W (gem_e p X Y) j) by (intros j Hj; refine (He x j Hx _); lia).
  assert (Vi : forall j, 0 <= j < 5 -> ui (x ++ [j]) = W (gem_i p X Y) j) by (intros j Hj; refine (Hi x j Hxi _); lia).
  assert (Vf : forall j, 0 <= j < Z.of_nat (List.length (id_comps f)) -> uf (x ++ [j]) = W (gem_f p X Y) j) by (intros j Hj; exact (Hf x j Hxf Hj)).
  clear He Hi Hf. clearbody X Y.
  assert (C : (0 < cosh (X / gm_lambda p))%R) by (unfold cosh; pose proof (exp_pos (X / gm_lambda p)); pose proof (exp_pos (- (X / gm_lambda p))); lra).
  set (S := sech (X / gm_lambda p)). assert (HS : (0 < S)%R) by (unfold S, sech; now apply Rinv_0_lt_compat).
  assert (NE : (gm_n0 p * S ^ 2 + gm_n1 p <> 0)%R) by (assert (0 < gm_n0 p * S ^ 2)%R by (apply Rmult_lt_0_compat; [lra|apply pow_lt; lra]); lra).
  assert (Z1 : (S * S + gm_n1 p / gm_n0 p <> 0)%R).
  { intros Z. apply NE. replace (gm_n0 p * S ^ 2 + gm_n1 p)%R with (gm_n0 p * (S * S + gm_n1 p / gm_n0 p))%R by (field; lra). rewrite Z. ring. }
  assert (SD : sheet_density p X = (gm_n0 p * (S * S + gm_n1 p / gm_n0 p))%R) by (unfold sheet_density; fold S; field; lra).
  assert (FS : (1 / cosh (X / gm_lambda p))%R = S) by (unfold S, sech; field; lra).
  unfold state_at. cbn [map]. rewrite !Ve, !Vi by lia. rewrite !(Vf 3), !(Vf 4) by lia.
  unfold W, gem_e, gem_i, gem_f, gem_values. cbn [fst snd find Z.eqb Pos.eqb].
  unfold f1, f0. cbn [fadd fsub fmul fdiv fneg fofz fdec fcosh ftanh fsin fcos RArith Rdecimal]. replace (IZR (10 ^ 1)) with 10%R by reflexivity. rewrite FS.
  unfold pressure, energy, kinetic, momentum, density. cbn [nth Nat.add]. rewrite SD. set (nn := (S * S + gm_n1 p / gm_n0 p)%R) in *.
  split; [ring|]. split; [ring|]. split; [field; repeat split; lra|]. split; [field; repeat split; lra|].
  split; [intros [|[|d]] Hd; [split; reflexivity..|lia]|]. split; [field; repeat split; lra|].
  change (IZR (10 ^ 8)) with 100000000%R. fold pi_coded. fold (wave_x p). fold (wave_y p).
  split; [unfold bump_x; field|]. split; [unfold sheet_field, bump_y; field; exact Hl|].
  intros j Hj J3 J4. rewrite (Vf j Hj). unfold W, gem_f, gem_values. cbn [fst snd find]. destruct (Z.eqb_spec 3 j); [lia|]. destruct (Z.eqb_spec 4 j); [lia|]. reflexivity.
Qed.
Print Assumptions C62_gem.

(** With B0^2 = 2 mu0 n0 (Te + Ti), as the example program chooses it, the sheet is
    an equilibrium: the current is the curl of the field (so that E stays zero) and
    the sum of the pressures and the magnetic pressure is the same everywhere. *)
Lemma cosh_pos : forall z, (0 < cosh z)%R.
Proof. intros z. unfold cosh. pose proof (exp_pos z). pose proof (exp_pos (- z)). lra. Qed.
Lemma cosh_sinh : forall z, (cosh z * cosh z - sinh z * sinh z = 1)%R.
Proof.
  intros z. unfold cosh, sinh. assert (H : (exp z * exp (- z) = 1)%R) by (rewrite <- exp_plus, Rplus_opp_r; apply exp_0).
  transitivity (exp z * exp (- z))%R; [field|exact H].
Qed.
Lemma tanh_lim : forall z, derivable_pt_lim tanh z (sech z ^ 2)%R.
Proof.
  intros z. pose proof (cosh_pos z) as P.
  replace (sech z ^ 2)%R with ((cosh z * cosh z - sinh z * sinh z) / Rsqr (cosh z))%R by (rewrite cosh_sinh; unfold sech, Rsqr; field; lra).
  apply (derivable_pt_lim_div sinh cosh z (cosh z) (sinh z)); [apply derivable_pt_lim_sinh|apply derivable_pt_lim_cosh|lra].
Qed.
Theorem C62_ampere : forall p mu0 X, gm_lambda p <> 0%R -> gm_B0 p <> 0%R -> (gm_B0 p ^ 2 = 2 * mu0 * gm_n0 p * (gm_Te p + gm_Ti p))%R ->
  derivable_pt_lim (sheet_field p) X (mu0 * (2 * gm_n0 p * (gm_Te p + gm_Ti p) / (gm_lambda p * gm_B0 p) * sech (X / gm_lambda p) ^ 2))%R.
Proof.
  intros p mu0 X Hl HB H.
  replace (mu0 * (2 * gm_n0 p * (gm_Te p + gm_Ti p) / (gm_lambda p * gm_B0 p) * sech (X / gm_lambda p) ^ 2))%R
    with (gm_B0 p * (sech (X / gm_lambda p) ^ 2 * / gm_lambda p))%R.
  - apply (derivable_pt_lim_scal (comp tanh (fun X => (X / gm_lambda p)%R))). apply (derivable_pt_lim_comp (fun X => (X / gm_lambda p)%R) tanh); [|apply tanh_lim].
    replace (/ gm_lambda p)%R with (1 * / gm_lambda p + X * 0)%R by ring.
    apply (derivable_pt_lim_mult id (fct_cte (/ gm_lambda p))); [apply derivable_pt_lim_id|apply derivable_pt_lim_const].
  - replace (mu0 * (2 * gm_n0 p * (gm_Te p + gm_Ti p) / (gm_lambda p * gm_B0 p) * sech (X / gm_lambda p) ^ 2))%R
      with (2 * mu0 * gm_n0 p * (gm_Te p + gm_Ti p) / (gm_lambda p * gm_B0 p) * sech (X / gm_lambda p) ^ 2)%R by (field; auto).
    rewrite <- H. field. auto.
Qed.
Print Assumptions C62_ampere.
Theorem C62_balance : forall p mu0 X, mu0 <> 0%R -> (gm_B0 p ^ 2 = 2 * mu0 * gm_n0 p * (gm_Te p + gm_Ti p))%R ->
  (sheet_density p X * gm_Te p + sheet_density p X * gm_Ti p + sheet_field p X ^ 2 / (2 * mu0) = (gm_n0 p + gm_n1 p) * (gm_Te p + gm_Ti p))%R.
Proof.
  intros p mu0 X Hm H. unfold sheet_field. replace ((gm_B0 p * tanh (X / gm_lambda p)) ^ 2)%R with (gm_B0 p ^ 2 * tanh (X / gm_lambda p) ^ 2)%R by ring.
  rewrite H. unfold sheet_density, sech, tanh. set (z := (X / gm_lambda p)%R). pose proof (cosh_pos z). pose proof (cosh_sinh z) as C.
  assert (C' : (sinh z ^ 2 = cosh z ^ 2 - 1)%R) by lra. replace ((sinh z / cosh z) ^ 2)%R with (sinh z ^ 2 / cosh z ^ 2)%R by (field; lra). rewrite C'. field. split; lra.
Qed.
Print Assumptions C62_balance.

(** The whole field, as a function of the position, has no divergence, whatever
    the constants. *)
Theorem C62_divergence : forall p X Y, exists a b,
  derivable_pt_lim (fun X => bump_x p X Y) X a /\ derivable_pt_lim (fun Y => (sheet_field p X + bump_y p X Y)%R) Y b /\ (a + b = 0)%R.
Proof.
  intros p X Y. set (k := wave_x p). set (l := wave_y p). set (B := (gm_B0 p / 10)%R).
  assert (LK : forall k x : R, derivable_pt_lim (fun x => (k * x)%R) x k).
  { intros q x. pose proof (derivable_pt_lim_scal id q x 1 (derivable_pt_lim_id x)) as H. rewrite Rmult_1_r in H. exact H. }
  exists (B * l * sin (l * Y) * (- sin (k * X) * k))%R, (0 + - (B * k * sin (k * X)) * (- sin (l * Y) * l))%R. split; [|split].
  - assert (H : derivable_pt_lim (mult_real_fct (B * l * sin (l * Y)) (comp cos (fun x => (k * x)%R))) X (B * l * sin (l * Y) * (- sin (k * X) * k))%R).
    { apply derivable_pt_lim_scal. apply derivable_pt_lim_comp; [apply LK|apply derivable_pt_lim_cos]. }
    eapply derivable_pt_lim_ext; [|exact H]. intros z. unfold mult_real_fct, comp, bump_x. fold k l B. ring.
  - assert (H : derivable_pt_lim (plus_fct (fct_cte (sheet_field p X)) (mult_real_fct (- (B * k * sin (k * X))) (comp cos (fun y => (l * y)%R)))) Y (0 + - (B * k * sin (k * X)) * (- sin (l * Y) * l))%R).
    { apply derivable_pt_lim_plus; [apply derivable_pt_lim_const|]. apply derivable_pt_lim_scal. apply derivable_pt_lim_comp; [apply LK|apply derivable_pt_lim_cos]. }
    eapply derivable_pt_lim_ext; [|exact H]. intros z. unfold plus_fct, fct_cte, mult_real_fct, comp, bump_y. fold k l B. ring.
  - ring.
Qed.
Print Assumptions C62_divergence.

(** The walls lie at half the width: the perturbation is meant to vanish there, and
    does not, because pi is mistyped (3.14159263). *)
Lemma pi_mistyped : (pi_coded < PI)%R.
Proof.
  pose proof (proj1 (PI_2_3_7_ineq 4)) as H. unfold sum_f_R0, tg_alt, PI_2_3_7_tg, Ratan_seq, Nat.mul, Nat.add in H. cbn [pow INR] in H. unfold pi_coded. lra.
Qed.
Theorem C62_wall_refuted : forall p Y, (0 < gm_Lx p)%R -> gm_B0 p <> 0%R -> sin (wave_y p * Y) <> 0%R -> bump_x p (gm_Lx p / 2) Y <> 0%R.
Proof.
  intros p Y HL HB HY. unfold bump_x.
  assert (C : (0 < cos (wave_x p * (gm_Lx p / 2)))%R).
  { replace (wave_x p * (gm_Lx p / 2))%R with (pi_coded / 2)%R by (unfold wave_x; field; lra). pose proof pi_mistyped. apply cos_gt_0; unfold pi_coded in *; lra. }
  assert (W : wave_y p <> 0%R).
  { unfold wave_y. assert (0 < 2 * pi_coded / (2 * gm_Lx p))%R by (apply Rdiv_lt_0_compat; unfold pi_coded; lra). lra. }
  assert (T : (gm_B0 p / 10)%R <> 0%R) by lra.
  intros Z. apply Rmult_integral in Z as [Z|Z]; [|contradiction]. apply Rmult_integral in Z as [Z|Z]; [|lra]. apply Rmult_integral in Z as [Z|Z]; contradiction.
Qed.
Print Assumptions C62_wall_refuted.

(** The cell at (0, -10, 10): mass ratio 25, densities 1 and 0.2, temperatures 1
    and 5. *)
Definition some_gem : gem R := (mkGem 1 1 1 (1/5) 2 (-1) 1 1 25 1 5 (sqrt 12))%R.
Lemma ic_gem_ready : ic_ready ic_wave_start ic_cube [] [ic_fluid "e"; ic_fluid "i"; ic_em] 5 999.
Proof. unfold ic_wave_start. ic_ok. Qed.
Example C62_ex : (gm_B0 some_gem ^ 2 = 2 * 1 * gm_n0 some_gem * (gm_Te some_gem + gm_Ti some_gem))%R /\
  exists m' L' ue ui, gem_solve 999 some_gem [ic_fluid "e"; ic_fluid "i"; ic_em] ic_wave_start = Done m' /\ mgr_holds m' ic_cube L' /\
  field_get L' (ic_fluid "e") = Some ue /\ field_get L' (ic_fluid "i") = Some ui /\ density (state_at ue [0; 0; 0; 0]) = (6/5)%R /\ density (state_at ui [0; 0; 0; 0]) = 30%R /\
  pressure 2%R (state_at ui [0; 0; 0; 0]%Z) = 6%R /\ (momentum 2 (state_at ui [0; 0; 0; 0]%Z) / 25 - momentum 2 (state_at ue [0; 0; 0; 0]%Z) = sqrt 12)%R.
Proof.
  assert (S : (sqrt 12 * sqrt 12 = 12)%R) by (apply sqrt_sqrt; lra). assert (P : (0 < sqrt 12)%R) by (apply sqrt_lt_R0; lra).
  split; [cbn; lra|].
  assert (ND : NoDup (map id_name [ic_fluid "e"; ic_fluid "i"; ic_em])) by (cbn; repeat (constructor; [cbn; intuition discriminate|]); constructor).
  destruct (C62_gem ic_wave_start ic_cube [] (ic_fluid "e") (ic_fluid "i") ic_em 999 some_gem ic_gem_ready ND eq_refl eq_refl (le_n 3)) as (m' & L' & ue & ui & uf & E & D & Ee & Ei & _ & V);
    [unfold some_gem; cbn [gm_n0 gm_n1 gm_lambda gm_me gm_mi gm_gamma gm_qe gm_qi gm_B0]; lra..|].
  exists m', L', ue, ui. split; [exact E|]. split; [apply D|]. split; [exact Ee|]. split; [exact Ei|].
  assert (I : in_box (spots ic_cube (ic_fluid "q")) [0; 0; 0; 0]) by (apply in_boxb_iff; vm_compute; reflexivity).
  destruct (ic_cube_center _ I) as (E0 & _ & _).
  destruct (V [0; 0; 0; 0]) as (V1 & V2 & _ & V4 & _ & V6 & _); [apply in_boxb_iff; vm_compute; reflexivity|].
  cbn [mg_grid ic_wave_start ic_start] in V1, V2, V4, V6. rewrite E0 in V1, V2, V4, V6. unfold sheet_density, sech in V1, V2, V4, V6.
  cbn [some_gem gm_n0 gm_n1 gm_lambda gm_me gm_mi gm_gamma gm_Te gm_Ti gm_qe gm_qi gm_B0] in V1, V2, V4, V6.
  replace (0 / 1)%R with 0%R in V1, V2, V4, V6 by field. rewrite cosh_0 in V1, V2, V4, V6. split; [lra|]. split; [lra|]. split; [lra|].
  replace (2 * 1 * (1 + 5) / (1 * sqrt 12) * (/ 1) ^ 2)%R with (sqrt 12)%R in V6 by (apply (Rmult_eq_reg_r (sqrt 12)); [rewrite S; field; lra|lra]). lra.
Qed.
