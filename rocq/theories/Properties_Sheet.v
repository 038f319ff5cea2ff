(** * Properties_Sheet: the current sheet is an equilibrium of each fluid by itself
    (C91) and, with the constants of the programs, of the electric field only up to
    their rounding (C92). *)
From Coq Require Import ZArith List String Lia Bool Reals Lra Floats.SpecFloat.
From Verif Require Import Base BaseFacts FieldFacts BoxSpec BoxFacts Range RangeSpec RangeFacts Arith ArithFloat ArithR Chunk FieldSpec VarId Manager MgrSpec MgrFacts
  BC BCSpec Sweep SweepSpec FluxFacts EulerSpec Euler Maxwell Sources SourceSpec Programs ProgramsSpec ConserveFacts RhsFacts Properties_Programs Initial InitialSpec InitialFacts Properties_Initial
  Whole Properties_Whole Vtk VtkSpec VtkFacts Properties_Vtk Main MainSpec MainFacts Properties_Main Properties_Files.
Import ListNotations.
Open Scope Z_scope.

(** The perturbation of the field as a vector. *)
Definition bump (p : gem R) (X Y : R) (j : Z) : R := if j =? 3 then bump_x p X Y else if j =? 4 then bump_y p X Y else 0%R.
(** In cell [x] at position [X] across the sheet a fluid with charge to mass ratio
    [com] and temperature [T] is in balance in the field [e]: it does not flow across
    the sheet or along the field, its pressure is that of the sheet, the derivative of
    that pressure is the force of the field, and the force does no work. *)
Definition balanced (p : gem R) (com T : R) (u : field R) (x : list Z) (X : R) (e : Z -> R) : Prop :=
  momentum 0 (state_at u x) = 0%R /\ momentum 1 (state_at u x) = 0%R /\
  let P := fun X => (sheet_density p X * T)%R in let q := fun j => u (x ++ [j]) in
  pressure (gm_gamma p) (state_at u x) = P X /\
  (exists f, lorentz_rate com q e 1 = Some f /\ derivable_pt_lim P X f) /\
  lorentz_rate com q e 2 = Some 0%R /\ lorentz_rate com q e 3 = Some 0%R /\ lorentz_rate com q e 4 = Some 0%R.

Lemma pressure_lim : forall p T X, gm_lambda p <> 0%R ->
  derivable_pt_lim (fun X => (sheet_density p X * T)%R) X (- (2 * gm_n0 p * T / gm_lambda p * (sech (X / gm_lambda p) ^ 2 * tanh (X / gm_lambda p))))%R.
Proof.
  intros p T X Hl. set (t := Ranalysis1.comp tanh (fun X => (X / gm_lambda p)%R)).
  assert (D : derivable_pt_lim t X (sech (X / gm_lambda p) ^ 2 * / gm_lambda p)%R).
  { apply (derivable_pt_lim_comp (fun X => (X / gm_lambda p)%R) tanh); [|apply tanh_lim].
    replace (/ gm_lambda p)%R with (1 * / gm_lambda p + X * 0)%R by ring.
    apply (derivable_pt_lim_mult id (fct_cte (/ gm_lambda p))); [apply derivable_pt_lim_id|apply derivable_pt_lim_const]. }
  pose proof (derivable_pt_lim_mult t t X _ _ D D) as D2.
  pose proof (derivable_pt_lim_scal (mult_fct t t) (- (gm_n0 p * T))%R X _ D2) as D3.
  pose proof (derivable_pt_lim_plus (mult_real_fct (- (gm_n0 p * T)) (mult_fct t t)) (fct_cte ((gm_n0 p + gm_n1 p) * T)%R) X _ _ D3 (derivable_pt_lim_const _ _)) as D4.
  match type of D4 with derivable_pt_lim _ _ ?d => replace (- (2 * gm_n0 p * T / gm_lambda p * (sech (X / gm_lambda p) ^ 2 * tanh (X / gm_lambda p))))%R with d end.
  - eapply derivable_pt_lim_ext; [|exact D4]. intros z. unfold plus_fct, mult_real_fct, mult_fct, fct_cte, t, Ranalysis1.comp, sheet_density, sech, tanh. set (y := (z / gm_lambda p)%R).
    pose proof (cosh_pos y). pose proof (cosh_sinh y) as C. replace (sinh y / cosh y * (sinh y / cosh y))%R with ((sinh y * sinh y) / (cosh y * cosh y))%R by (field; lra).
    replace (sinh y * sinh y)%R with (cosh y * cosh y - 1)%R by lra. field. lra.
  - unfold t, Ranalysis1.comp. field. exact Hl.
Qed.

(** ** C91: each fluid is in balance of forces by itself *)

Theorem C91_forces : forall (m : mgr R) M L e i f fuel p, ic_ready m M L [e; i; f] 5 fuel -> NoDup (map id_name [e; i; f]) ->
  bs_points (id_basis i) = bs_points (id_basis e) -> bs_points (id_basis f) = bs_points (id_basis e) -> (List.length M <= 3)%nat -> List.length (id_comps f) = 6%nat ->
  (0 < gm_n0 p)%R -> (0 <= gm_n1 p)%R -> (0 < gm_me p)%R -> (0 < gm_mi p)%R -> gm_gamma p <> 1%R -> gm_qe p <> 0%R -> gm_qi p <> 0%R -> gm_lambda p <> 0%R -> gm_B0 p <> 0%R ->
  exists m' L' ue ui uf, gem_solve fuel p [e; i; f] m = Done m' /\ ic_done m m' M L L' [e; i; f] (fun _ _ => True) /\
    field_get L' e = Some ue /\ field_get L' i = Some ui /\ field_get L' f = Some uf /\
    forall x, in_box (spots (grow 2 M) e) x -> let X := center (mg_grid m) x 0 in let Y := if (1 <? List.length M)%nat then center (mg_grid m) x 1 else 0%R in
      let field := fun j => (uf (x ++ [j]) - bump p X Y j)%R in
      balanced p (gm_qe p / gm_me p)%R (gm_Te p) ue x X field /\ balanced p (gm_qi p / gm_mi p)%R (gm_Ti p) ui x X field.
Proof.
  intros m M L e i f fuel p HR ND HPi HPf H3 H6 N0 N1 Me Mi Hg Qe Qi Hl HB.
  destruct (gem_done m M L e i f fuel p HR ND HPi HPf H3) as (m' & L' & E & D). pose proof D as (D1 & D2 & D3 & D4 & D5 & D6).
  destruct (D6 e) as (ue & Ee & (He & _ & _)); [now left|]. destruct (D6 i) as (ui & Ei & (_ & Hi & _)); [now (right; left)|].
  destruct (D6 f) as (uf & Ef & (_ & _ & Hf)); [now (right; right; left)|].
  specialize (He eq_refl). specialize (Hi eq_refl). specialize (Hf eq_refl).
  assert (HN : forall k, In k [e; i; f] -> (5 <= List.length (id_comps k))%nat).
  { intros k Hk. destruct HR as (_ & _ & _ & HF & _). rewrite Forall_forall in HF. now destruct (HF k Hk) as (_ & X & _). }
  pose proof (HN e ltac:(now left)) as Ne. pose proof (HN i ltac:(right; now left)) as Ni.
  set (W := fun (vs : list (Z * R)) (j : Z) => match find (fun p => fst p =? j) vs with Some p => snd p | None => f0 end).
  assert (Q : forall k v vs, on_cells M k v (painted (spots (grow 2 M) k) vs) -> values_in (grow 2 M) k v (fun x => W (vs x))).
  { intros k v vs Hv. exact (proj1 (painted_in M k false vs v (fun x => W (vs x)) Hv (fun _ _ => eq_refl))). }
  apply Q in He, Hi, Hf. clear Q.
  exists m', L', ue, ui, uf. split; [exact E|]. split.
  { refine (conj D1 (conj D2 (conj D3 (conj D4 (conj D5 _))))). intros k Hk. destruct (D6 k Hk) as (v & Ev & _). exists v. auto. }
  split; [exact Ee|]. split; [exact Ei|]. split; [exact Ef|]. intros x Hx X Y.
  assert (Hxi : in_box (spots (grow 2 M) i) x) by (unfold spots in *; now rewrite HPi).
  assert (Hxf : in_box (spots (grow 2 M) f) x) by (unfold spots in *; now rewrite HPf).
  assert (Ve : forall j, 0 <= j < 5 -> ue (x ++ [j]) = W (gem_e p X Y) j) by (intros j Hj; refine (He x j Hx _); lia).
  assert (Vi : forall j, 0 <= j < 5 -> ui (x ++ [j]) = W (gem_i p X Y) j) by (intros j Hj; refine (Hi x j Hxi _); lia).
  assert (Vf : forall j, 0 <= j < 6 -> uf (x ++ [j]) = W (gem_f p X Y) j) by (intros j Hj; refine (Hf x j Hxf _); lia).
  clear He Hi Hf. clearbody X Y. intros field.
  pose proof (cosh_pos (X / gm_lambda p)) as C.
  set (S := sech (X / gm_lambda p)). assert (HS : (0 < S)%R) by (unfold S, sech; now apply Rinv_0_lt_compat).
  assert (NE : (gm_n0 p * S ^ 2 + gm_n1 p <> 0)%R) by (assert (0 < gm_n0 p * S ^ 2)%R by (apply Rmult_lt_0_compat; [lra|apply pow_lt; lra]); lra).
  assert (Z1 : (S * S + gm_n1 p / gm_n0 p <> 0)%R).
  { intros Z. apply NE. replace (gm_n0 p * S ^ 2 + gm_n1 p)%R with (gm_n0 p * (S * S + gm_n1 p / gm_n0 p))%R by (field; lra). rewrite Z. ring. }
  assert (SD : sheet_density p X = (gm_n0 p * (S * S + gm_n1 p / gm_n0 p))%R) by (unfold sheet_density; fold S; field; lra).
  assert (FS : (1 / cosh (X / gm_lambda p))%R = S) by (unfold S, sech; field; lra).
  assert (F : field 0 = 0%R /\ field 1 = 0%R /\ field 2 = 0%R /\ field 3 = 0%R /\ field 4 = sheet_field p X /\ field 5 = 0%R).
  { unfold field, bump. rewrite !Vf by lia. unfold W, gem_f, gem_values. cbn [fst snd find Z.eqb Pos.eqb]. unfold f1, f0.
    cbn [fadd fsub fmul fdiv fneg fofz fdec fcosh ftanh fsin fcos RArith Rdecimal]. replace (IZR (10 ^ 1)) with 10%R by reflexivity.
    change (IZR (10 ^ 8)) with 100000000%R. fold pi_coded. fold (wave_x p). fold (wave_y p). unfold bump_x, bump_y, sheet_field. repeat split; try ring; field; auto. }
  clearbody field. destruct F as (F0 & F1 & F2 & F3 & F4 & F5).
  assert (K : forall com T u m' q, (0 < m')%R -> q <> 0%R -> com = (q / m')%R ->
    (forall j, 0 <= j < 5 -> u (x ++ [j]) = W [(0%Z, m' * sheet_density p X); (3%Z, m' * sheet_density p X * (2 * T / q / gm_lambda p / gm_B0 p) * (S * S / (S * S + gm_n1 p / gm_n0 p)));
       (4%Z, sheet_density p X * T / (gm_gamma p - 1) + 5 / 10 * (m' * sheet_density p X * (2 * T / q / gm_lambda p / gm_B0 p) * (S * S / (S * S + gm_n1 p / gm_n0 p))) *
         (m' * sheet_density p X * (2 * T / q / gm_lambda p / gm_B0 p) * (S * S / (S * S + gm_n1 p / gm_n0 p))) / (m' * sheet_density p X))]%R j) -> balanced p com T u x X field).
  { intros com T u m0 q Hm Hq -> V. unfold balanced, state_at, lorentz_rate. cbn [map]. rewrite !V by lia. rewrite F0, F1, F2, F3, F4, F5.
    unfold W. cbn [fst snd find Z.eqb Pos.eqb]. unfold pressure, energy, kinetic, momentum, density. cbn [nth Nat.add].
    cbn [fadd fsub fmul RArith]. unfold f0. cbn [fofz RArith].
    split; [reflexivity|]. split; [reflexivity|]. split; [rewrite SD; field; repeat split; lra|]. split.
    - eexists. split; [reflexivity|]. match goal with |- derivable_pt_lim _ _ ?d => replace d with (- (2 * gm_n0 p * T / gm_lambda p * (sech (X / gm_lambda p) ^ 2 * tanh (X / gm_lambda p))))%R end; [now apply pressure_lim|].
      fold S. unfold sheet_field. rewrite SD. field. repeat split; lra.
    - repeat split; f_equal; ring. }
  split.
  - apply (K _ _ ue (gm_me p) (gm_qe p) Me Qe eq_refl). intros j Hj. rewrite Ve by lia. unfold gem_e, gem_values. cbn [fst snd].
    unfold f1, f0. cbn [fadd fsub fmul fdiv fneg fofz fdec fcosh ftanh fsin fcos RArith Rdecimal]. change (IZR (10 ^ 1)) with 10%R. rewrite FS, SD. reflexivity.
  - apply (K _ _ ui (gm_mi p) (gm_qi p) Mi Qi eq_refl). intros j Hj. rewrite Vi by lia. unfold gem_i, gem_values. cbn [fst snd].
    unfold f1, f0. cbn [fadd fsub fmul fdiv fneg fofz fdec fcosh ftanh fsin fcos RArith Rdecimal]. change (IZR (10 ^ 1)) with 10%R. rewrite FS, SD. reflexivity.
Qed.
Print Assumptions C91_forces.

(** With the constants of harris_current_sheet and gem_challenge (length 4 and 1), on any
    mesh. *)
Theorem C91_program : forall (g : grid R) M fuel L, setting g M [pl_electrons; pl_ions; pl_field] fuel -> (List.length M <= 3)%nat -> let p := sheet L in
  exists m' L' ue ui uf, gem_solve fuel p [fluid_id "electrons"; fluid_id "ions"; em_id "field"] (mgr_new g) = Done m' /\ mgr_holds m' M L' /\
    field_get L' (fluid_id "electrons") = Some ue /\ field_get L' (fluid_id "ions") = Some ui /\ field_get L' (em_id "field") = Some uf /\
    forall x, in_box (M ++ [(0, 1)]) x -> let X := center g x 0 in let Y := if (1 <? List.length M)%nat then center g x 1 else 0%R in
      let field := fun j => (uf (x ++ [j]) - bump p X Y j)%R in
      balanced p (gm_qe p / gm_me p)%R (gm_Te p) ue x X field /\ balanced p (gm_qi p / gm_mi p)%R (gm_Ti p) ui x X field.
Proof.
  intros g M fuel L HS H3 p. destruct (sheet_positive L) as (N0 & N1 & Me & Mi & Te & Ti & La & B0 & Qe & Qi & Ga). fold p in N0, N1, Me, Mi, Te, Ti, La, B0, Qe, Qi, Ga.
  pose proof (f0_names [pl_electrons; pl_ions; pl_field] (proj1 (proj1 (proj2 (proj2 (proj2 (proj2 HS))))))) as ND.
  destruct (C91_forces (mgr_new g) M [] (fluid_id "electrons") (fluid_id "ions") (em_id "field") fuel p) as (m' & L' & ue & ui & uf & E & D & Ee & Ei & Ef & V); auto; try (rewrite ?Ga; lra).
  { apply (start_ready R RArith g M [pl_electrons; pl_ions; pl_field] fuel 5 HS). repeat (constructor; [cbn; lia|]). constructor. }
  exists m', L', ue, ui, uf. split; [exact E|]. split; [exact (proj1 D)|]. split; [exact Ee|]. split; [exact Ei|]. split; [exact Ef|].
  intros x Hx. apply V. apply (zone_spots true M (fluid_id "electrons")). exact Hx.
Qed.
Print Assumptions C91_program.
(** harris_current_sheet on its 400 cells: a quarter of the way to the wall. *)
Example C91_ex : forall fuel, enough fuel -> let p := sheet (sheet_length 4%R) in
  exists m' L' ue uf, gem_solve fuel p [fluid_id "electrons"; fluid_id "ions"; em_id "field"] (mgr_new harris_grid) = Done m' /\ mgr_holds m' harris_mesh L' /\
    field_get L' (fluid_id "electrons") = Some ue /\ field_get L' (em_id "field") = Some uf /\
    let X := center (@harris_grid R RArith) [250; 0] 0 in
    balanced p (gm_qe p / gm_me p)%R (gm_Te p) ue [250; 0] X (fun j => (uf ([250; 0]%Z ++ [j]) - bump p X 0 j)%R).
Proof.
  intros fuel HU p. destruct (C91_program harris_grid harris_mesh fuel (sheet_length 4%R) (harris_setting R RArith fuel HU) ltac:(cbn; lia)) as (m' & L' & ue & ui & uf & E & D & Ee & Ei & Ef & V).
  exists m', L', ue, uf. split; [exact E|]. split; [exact D|]. split; [exact Ee|]. split; [exact Ef|].
  refine (proj1 (V [250; 0] _)). repeat (constructor; [cbn; lia|]). constructor.
Qed.

(** ** C92: the constants of the programs make the sheet an equilibrium *)

Definition mu_0 : R := (125663706 / 10 ^ 14)%R.
Definition epsilon_0 : R := (885418782 / 10 ^ 20)%R.
Definition light_speed : R := 299792458%R.
(** The current of the two fluids at distance [X] from the middle (C62_gem). *)
Definition sheet_current (p : gem R) (X : R) : R := (2 * gm_n0 p * (gm_Te p + gm_Ti p) / (gm_lambda p * gm_B0 p) * sech (X / gm_lambda p) ^ 2)%R.

Lemma sheet_strength : forall L, let p := sheet (A := RArith) L in (gm_B0 p ^ 2 = 2 * mu_0 * gm_n0 p * (gm_Te p + gm_Ti p))%R.
Proof.
  intros L p. destruct (sheet_positive L) as (N0 & _ & _ & _ & Te & Ti & _). fold p in N0, Te, Ti.
  assert (E : gm_B0 p = sqrt (2 * mu_0 * (gm_n0 p * (gm_Te p + gm_Ti p)))).
  { unfold p, sheet. cbn [gm_n0 gm_Te gm_Ti gm_B0]. cbn [fadd fsub fmul fdiv fneg fofz fdec fsqrt RArith Rdecimal]. do 2 f_equal. unfold mu_0. change (IZR (10 ^ 14)) with 100000000000000%R. lra. }
  rewrite E, pow2_sqrt; [ring|]. assert (0 < mu_0)%R by (unfold mu_0; lra). apply Rmult_le_pos; [lra|]. apply Rmult_le_pos; lra.
Qed.
(** The sum of all pressures is the same everywhere. *)
Theorem C92_pressure : forall L X, let p := sheet L in
  (sheet_density p X * gm_Te p + sheet_density p X * gm_Ti p + sheet_field p X ^ 2 / (2 * mu_0) = (gm_n0 p + gm_n1 p) * (gm_Te p + gm_Ti p))%R.
Proof. intros L X p. apply C62_balance; [unfold mu_0; lra|apply sheet_strength]. Qed.
Print Assumptions C92_pressure.
(** The rate of change of Ez, c^2 times the derivative of By minus the current over
    epsilon_0, is not 0: the constants are rounded, and it is 8.7 to 8.8 parts in ten
    thousand million of the current term. *)
Theorem C92_ampere : forall L X, let p := sheet L in exists b k, derivable_pt_lim (sheet_field p) X b /\ (87 / 10 ^ 11 < k < 88 / 10 ^ 11)%R /\
  (light_speed ^ 2 * b - sheet_current p X / epsilon_0 = - (k * (sheet_current p X / epsilon_0)))%R.
Proof.
  intros L X p. destruct (sheet_positive L) as (_ & _ & _ & _ & _ & _ & La & B0 & _). fold p in La, B0.
  exists (mu_0 * sheet_current p X)%R, (1 - light_speed ^ 2 * mu_0 * epsilon_0)%R. split; [|split].
  - apply C62_ampere; [lra|lra|apply sheet_strength].
  - unfold light_speed, mu_0, epsilon_0. split; lra.
  - field. unfold epsilon_0. lra.
Qed.
Print Assumptions C92_ampere.
Theorem C92_refuted : forall L X b, let p := sheet L in derivable_pt_lim (sheet_field p) X b -> (light_speed ^ 2 * b - sheet_current p X / epsilon_0 <> 0)%R.
Proof.
  intros L X b p Hb. destruct (C92_ampere L X) as (b' & k & Hb' & Hk & E). fold p in Hb', E. rewrite (uniqueness_limite _ _ _ _ Hb Hb'), E.
  destruct (sheet_positive L) as (N0 & _ & _ & _ & Te & Ti & La & B0 & _). fold p in N0, Te, Ti, La, B0.
  assert (S : (0 < sech (X / gm_lambda p))%R) by (unfold sech; apply Rinv_0_lt_compat, cosh_pos).
  assert (J : (0 < sheet_current p X)%R).
  { unfold sheet_current. apply Rmult_lt_0_compat; [|now apply pow_lt]. apply Rdiv_lt_0_compat; [apply Rmult_lt_0_compat; [apply Rmult_lt_0_compat|]; lra|now apply Rmult_lt_0_compat]. }
  assert (0 < k * (sheet_current p X / epsilon_0))%R by (apply Rmult_lt_0_compat; [lra|apply Rdiv_lt_0_compat; [exact J|unfold epsilon_0; lra]]). lra.
Qed.
Print Assumptions C92_refuted.
(** So in every cell of the run, with the current [J] of its two fluids. *)
Theorem C92_run : forall (g : grid R) M fuel L, setting g M [pl_electrons; pl_ions; pl_field] fuel -> (List.length M <= 3)%nat -> let p := sheet L in
  exists m' L' ue ui, gem_solve fuel p [fluid_id "electrons"; fluid_id "ions"; em_id "field"] (mgr_new g) = Done m' /\ mgr_holds m' M L' /\
    field_get L' (fluid_id "electrons") = Some ue /\ field_get L' (fluid_id "ions") = Some ui /\
    forall x, in_box (M ++ [(0, 1)]) x -> let X := center g x 0 in let J := (gm_qe p / gm_me p * ue (x ++ [3%Z]) + gm_qi p / gm_mi p * ui (x ++ [3%Z]))%R in
      exists b, derivable_pt_lim (sheet_field p) X b /\ (0 < Rabs (light_speed ^ 2 * b - J / epsilon_0) < 88 / 10 ^ 11 * (J / epsilon_0))%R.
Proof.
  intros g M fuel L HS H3 p. destruct (sheet_positive L) as (N0 & N1 & Me & Mi & Te & Ti & La & B0 & Qe & Qi & Ga). fold p in N0, N1, Me, Mi, Te, Ti, La, B0, Qe, Qi, Ga.
  pose proof (f0_names [pl_electrons; pl_ions; pl_field] (proj1 (proj1 (proj2 (proj2 (proj2 (proj2 HS))))))) as ND.
  destruct (C62_gem (mgr_new g) M [] (fluid_id "electrons") (fluid_id "ions") (em_id "field") fuel p) as (m' & L' & ue & ui & uf & E & D & Ee & Ei & Ef & V); auto; try (rewrite ?Ga; lra).
  { apply (start_ready R RArith g M [pl_electrons; pl_ions; pl_field] fuel 5 HS). repeat (constructor; [cbn; lia|]). constructor. }
  exists m', L', ue, ui. split; [exact E|]. split; [exact (proj1 D)|]. split; [exact Ee|]. split; [exact Ei|]. intros x Hx X J0.
  destruct (V x) as (_ & _ & _ & _ & _ & J & _); [apply (zone_spots true M (fluid_id "electrons")); exact Hx|]. change (mg_grid (mgr_new g)) with g in J. fold X in J. fold (sheet_current p X) in J.
  destruct (C92_ampere L X) as (b & k & Hb & Hk & A). fold p in Hb, A. exists b. split; [exact Hb|].
  assert (EJ : J0 = sheet_current p X) by (rewrite <- J; reflexivity). clearbody J0. subst J0. rewrite A.
  assert (S : (0 < sech (X / gm_lambda p))%R) by (unfold sech; apply Rinv_0_lt_compat, cosh_pos).
  assert (JP : (0 < sheet_current p X / epsilon_0)%R).
  { apply Rdiv_lt_0_compat; [|unfold epsilon_0; lra]. unfold sheet_current. apply Rmult_lt_0_compat; [|now apply pow_lt]. apply Rdiv_lt_0_compat; [apply Rmult_lt_0_compat; [apply Rmult_lt_0_compat|]; lra|now apply Rmult_lt_0_compat]. }
  rewrite Rabs_Ropp, Rabs_pos_eq by (apply Rmult_le_pos; lra). split; [apply Rmult_lt_0_compat; lra|apply Rmult_lt_compat_r; lra].
Qed.
Print Assumptions C92_run.
Example C92_ex : forall fuel, enough fuel -> let p := sheet (sheet_length 4%R) in let X := center (@harris_grid R RArith) [250; 0] 0 in
  exists m' L' ue ui b, gem_solve fuel p [fluid_id "electrons"; fluid_id "ions"; em_id "field"] (mgr_new harris_grid) = Done m' /\
    field_get L' (fluid_id "electrons") = Some ue /\ field_get L' (fluid_id "ions") = Some ui /\ derivable_pt_lim (sheet_field p) X b /\
    let J := (gm_qe p / gm_me p * ue [250; 0; 3]%Z + gm_qi p / gm_mi p * ui [250; 0; 3]%Z)%R in
    (0 < Rabs (light_speed ^ 2 * b - J / epsilon_0) < 88 / 10 ^ 11 * (J / epsilon_0))%R.
Proof.
  intros fuel HU p X. destruct (C92_run harris_grid harris_mesh fuel (sheet_length 4%R) (harris_setting R RArith fuel HU) ltac:(cbn; lia)) as (m' & L' & ue & ui & E & _ & Ee & Ei & V).
  destruct (V [250; 0]) as (b & B1 & B2); [repeat (constructor; [cbn; lia|]); constructor|]. exists m', L', ue, ui, b. auto 10.
Qed.
