(** * C57 in exact arithmetic: the programs solve the equations they are for.

    The theorems of C57 for any arithmetic use the flux functions of the code.
    Here the fluxes are written down from the equations instead. *)
From Coq Require Import ZArith List String Lia Bool Reals Lra FunctionalExtensionality.
From Verif Require Import Base BaseFacts BoxSpec BoxFacts Range Indexer Interface Arith ArithR Chunk FieldSpec VarId Manager MgrSpec BC BCSpec
  SweepSpec Euler Maxwell FluxFacts EulerSpec PhysicsSpec NumFacts SourceSpec Programs ProgramsSpec PhysicsFacts Properties_Programs.
Import ListNotations.
Open Scope Z_scope.

(** The flux functions of the code, for the three dimensions of space. *)
Theorem C57_euler_flux : forall gamma d l r, List.length l = 5%nat -> List.length r = 5%nat -> (d < 3)%nat ->
  euler_flux gamma (Z.of_nat d) l r = Ok (hll_flux gamma d l r).
Proof.
  intros gamma d l r Hl Hr Hd. rewrite <- euler_flux_is by assumption. unfold flux_of. now rewrite euler_flux_hll.
Qed.
Print Assumptions C57_euler_flux.
Theorem C57_maxwell_flux : forall c d l r, List.length l = 6%nat -> List.length r = 6%nat -> (d < 3)%nat ->
  maxwell_flux c (Z.of_nat d) l r = Ok (rusanov_flux c d l r).
Proof.
  intros c d l r Hl Hr Hd. rewrite <- maxwell_flux_is by assumption. unfold flux_of.
  destruct (maxwell_parts c d l r Hl Hr Hd) as (f & E & _). now rewrite E.
Qed.
Print Assumptions C57_maxwell_flux.

(** Two gases at rest, the left one with four times the density and pressure of
    the right one; sound travels at speed 1 in both. *)
Example C57_euler_flux_ex : euler_flux (7/5)%R 0 [7/5; 0; 0; 0; 5/2]%R [7/20; 0; 0; 0; 5/8]%R = Ok [21/40; 5/8; 0; 0; 15/16]%R.
Proof.
  set (l := [7/5; 0; 0; 0; 5/2]%R). set (r := [7/20; 0; 0; 0; 5/8]%R).
  rewrite (C57_euler_flux (7/5) 0 l r eq_refl eq_refl ltac:(lia) : euler_flux (7/5)%R 0 l r = _). f_equal.
  assert (Sl : left_speed (7/5) 0 l = (-1)%R).
  { unfold left_speed, velocity, sound, pressure, kinetic, momentum, energy, density, l. cbn [nth].
    match goal with |- (_ - sqrt ?x = _)%R => replace x with 1%R by field end. rewrite sqrt_1. field. }
  assert (Sr : right_speed (7/5) 0 r = 1%R).
  { unfold right_speed, velocity, sound, pressure, kinetic, momentum, energy, density, r. cbn [nth].
    match goal with |- (_ + sqrt ?x = _)%R => replace x with 1%R by field end. rewrite sqrt_1. field. }
  unfold hll_flux. rewrite Sl, Sr. destruct (Rlt_dec 0 (-1)) as [H|_]; [lra|]. destruct (Rlt_dec 1 0) as [H|_]; [lra|].
  unfold hll_average, euler_phys, velocity, pressure, kinetic, momentum, energy, density, l, r. cbn [map seq nth Nat.eqb].
  repeat (apply f_equal2; [field|]). reflexivity.
Qed.
Example C57_maxwell_flux_ex : maxwell_flux 3%R 0 [0; 0; 0; 0; 0; 2]%R [0; 6; 0; 0; 0; 0]%R = Ok [0; 0; 0; 0; 0; 6]%R.
Proof.
  rewrite (C57_maxwell_flux 3 0 [0; 0; 0; 0; 0; 2]%R [0; 6; 0; 0; 0; 0]%R eq_refl eq_refl ltac:(lia) : maxwell_flux 3%R 0 _ _ = _). f_equal. unfold rusanov_flux, curl_flux, curl_E, curl_B, levi. cbn [map seq nth Nat.eqb orb Nat.add INR].
  rewrite Rabs_right by lra. repeat (apply f_equal2; [field|]). reflexivity.
Qed.

(** gaussian_pulse and wave_1D solve Maxwell's equations. *)
Theorem C57_pulse_physical : forall c M f fuel dt n (m : mgr R) L u, program_ready m M L [f] fuel -> List.length (id_comps (f_0 f)) = 6%nat ->
  field_get L (f_0 f) = Some u ->
  exists m' L', run (pulse_step true fuel c (map Z.of_nat (seq 0 (List.length M))) f) dt n m = Done m' /\
    ran m m' M L L' [f] dt n (Nat.iter n (rk3 (fun V _ => fv_rhs 6 (rusanov_flux c) M (fun _ => Periodic) (spacing (mg_grid m)) (seq 0 (Nat.min 3 (List.length M))) (V 0%nat)) dt) (fun _ => u)).
Proof.
  intros c M f fuel dt n m L u HR H6 Hu.
  assert (E : (fun V (_ : nat) => fv_rhs 6 (flux_of (maxwell_flux c)) M (fun _ => Periodic) (spacing (mg_grid m)) (seq 0 (Nat.min 3 (List.length M))) (V 0%nat)) =
              (fun (V : @sys R) (_ : nat) => fv_rhs 6 (rusanov_flux c) M (fun _ => Periodic) (spacing (mg_grid m)) (seq 0 (Nat.min 3 (List.length M))) (V 0%nat))).
  { apply functional_extensionality. intros V. apply functional_extensionality. intros _. apply fv_rhs_ext.
    intros d l r Hd Hl Hr. apply in_seq in Hd. apply maxwell_flux_is; auto. lia. }
  rewrite <- E. now apply C57_pulse.
Qed.
Print Assumptions C57_pulse_physical.

(** sod_shock_tube solves the Euler equations, in at most three dimensions. *)
Theorem C57_sod_physical : forall gamma M f fuel dt n ws ps (m : mgr R) L u, program_ready m M L [f] fuel -> List.length (id_comps (f_0 f)) = 5%nat -> (List.length M <= 3)%nat ->
  (forall d, In d (ws ++ ps) <-> (d < List.length M)%nat) -> (forall d, In d ws -> ~ In d ps) -> field_get L (f_0 f) = Some u ->
  let kinds d := if in_dec Nat.eq_dec d ps then Periodic else NoSlip in
  exists m' L', run (sod_step true fuel gamma (map Z.of_nat ws) (map Z.of_nat ps) f) dt n m = Done m' /\
    ran m m' M L L' [f] dt n (Nat.iter n (rk3 (fun V _ => fv_rhs 5 (hll_flux gamma) M kinds (spacing (mg_grid m)) (seq 0 (List.length M)) (V 0%nat)) dt) (fun _ => u)).
Proof.
  intros gamma M f fuel dt n ws ps m L u HR H5 H3 Hd Hx Hu kinds.
  assert (E : (fun V (_ : nat) => fv_rhs 5 (flux_of (euler_flux gamma)) M kinds (spacing (mg_grid m)) (seq 0 (List.length M)) (V 0%nat)) =
              (fun (V : @sys R) (_ : nat) => fv_rhs 5 (hll_flux gamma) M kinds (spacing (mg_grid m)) (seq 0 (List.length M)) (V 0%nat))).
  { apply functional_extensionality. intros V. apply functional_extensionality. intros _. apply fv_rhs_ext.
    intros d l r Hin Hl Hr. apply in_seq in Hin. apply euler_flux_is; auto. lia. }
  rewrite <- E. apply C57_sod; auto; lia.
Qed.
Print Assumptions C57_sod_physical.

Lemma plasma_op_physical : forall p M bc dx ds ds3, (forall d, In d ds -> (d < 3)%nat) -> (forall d, In d ds3 -> (d < 3)%nat) ->
  plasma_op p (flux_of (euler_flux (pl_gamma p))) (flux_of (maxwell_flux (pl_c p))) M bc dx ds ds3 =
  plasma_op p (hll_flux (pl_gamma p)) (rusanov_flux (pl_c p)) M bc dx ds ds3.
Proof.
  intros p M bc dx ds ds3 H5 H6. apply functional_extensionality. intros U. apply functional_extensionality. intros i. unfold plasma_op.
  assert (E5 : forall k u, fv_rhs 5 (flux_of (euler_flux (pl_gamma p))) M (bc k) dx ds u = fv_rhs 5 (hll_flux (pl_gamma p)) M (bc k) dx ds u)
    by (intros k u; apply fv_rhs_ext; intros d l r Hd Hl Hr; apply euler_flux_is; auto).
  assert (E6 : forall k u, fv_rhs 6 (flux_of (maxwell_flux (pl_c p))) M (bc k) dx ds3 u = fv_rhs 6 (rusanov_flux (pl_c p)) M (bc k) dx ds3 u)
    by (intros k u; apply fv_rhs_ext; intros d l r Hd Hl Hr; apply maxwell_flux_is; auto).
  destruct i as [|[|i]]; now rewrite ?E5, ?E6.
Qed.

(** gem_challenge, and two_fluid_brio_wu with harris_current_sheet, solve both
    systems coupled by the Lorentz force and the current. *)
Theorem C57_gem_physical : forall p mx my e i f fuel dt n (m : mgr R) L u v w, let M := [mx; my] in program_ready m M L [e; i; f] fuel ->
  List.length (id_comps (f_0 e)) = 5%nat -> List.length (id_comps (f_0 i)) = 5%nat -> List.length (id_comps (f_0 f)) = 6%nat ->
  bs_points (id_basis (f_0 e)) = bs_points (id_basis (f_0 f)) -> bs_points (id_basis (f_0 i)) = bs_points (id_basis (f_0 f)) -> List.length (pl_ms p) = 2%nat ->
  field_get L (f_0 e) = Some u -> field_get L (f_0 i) = Some v -> field_get L (f_0 f) = Some w ->
  exists m' L', run (plasma_step true fuel p (gem_bcs e i f) e i f) dt n m = Done m' /\
    ran m m' M L L' [e; i; f] dt n (Nat.iter n (rk3 (plasma_op p (hll_flux (pl_gamma p)) (rusanov_flux (pl_c p)) M gem_kinds (spacing (mg_grid m))
      [0; 1]%nat [0; 1]%nat) dt) (three u v w)).
Proof.
  intros p mx my e i f fuel dt n m L u v w M HR Ne Ni Nf Pe Pi Hms Hu Hv Hw.
  rewrite <- plasma_op_physical by (intros d [<-|[<-|[]]]; lia). exact (C57_gem R RArith p mx my e i f fuel dt n m L u v w HR Ne Ni Nf Pe Pi Hms Hu Hv Hw).
Qed.
Print Assumptions C57_gem_physical.
Theorem C57_brio_wu_physical : forall p mx e i f fuel dt n (m : mgr R) L u v w, let M := [mx] in program_ready m M L [e; i; f] fuel ->
  List.length (id_comps (f_0 e)) = 5%nat -> List.length (id_comps (f_0 i)) = 5%nat -> List.length (id_comps (f_0 f)) = 6%nat ->
  bs_points (id_basis (f_0 e)) = bs_points (id_basis (f_0 f)) -> bs_points (id_basis (f_0 i)) = bs_points (id_basis (f_0 f)) -> List.length (pl_ms p) = 2%nat ->
  field_get L (f_0 e) = Some u -> field_get L (f_0 i) = Some v -> field_get L (f_0 f) = Some w ->
  exists m' L', run (plasma_step true fuel p (brio_wu_bcs e i f) e i f) dt n m = Done m' /\
    ran m m' M L L' [e; i; f] dt n (Nat.iter n (rk3 (plasma_op p (hll_flux (pl_gamma p)) (rusanov_flux (pl_c p)) M wall_kinds (spacing (mg_grid m))
      [0%nat] [0%nat]) dt) (three u v w)).
Proof.
  intros p mx e i f fuel dt n m L u v w M HR Ne Ni Nf Pe Pi Hms Hu Hv Hw.
  rewrite <- plasma_op_physical by (intros d [<-|[]]; lia). exact (C57_brio_wu R RArith p mx e i f fuel dt n m L u v w HR Ne Ni Nf Pe Pi Hms Hu Hv Hw).
Qed.
Print Assumptions C57_brio_wu_physical.

(** The fixtures of C57: a wave on a line and a gas in a box with walls and
    periodic boundary, two fluids with a field in the plane. *)
Example C57_pulse_physical_ex : forall c dt n, exists m' L', run (pulse_step true 999 c [0] em) dt n (@pulse_start R RArith) = Done m' /\
  ran pulse_start m' line pulse_fields L' [em] dt n (Nat.iter n (rk3 (fun V _ => fv_rhs 6 (rusanov_flux c) line (fun _ => Periodic) (spacing line_grid) [0%nat] (V 0%nat)) dt) (fun _ => pulse)).
Proof. intros c dt n. exact (C57_pulse_physical c line em 999 dt n pulse_start pulse_fields pulse (pulse_ready R RArith) eq_refl eq_refl). Qed.
Example C57_sod_physical_ex : forall gamma dt n, exists m' L', run (sod_step true 999 gamma [0] [1] electrons) dt n (@gas_start R RArith) = Done m' /\
  ran gas_start m' plane gas_fields L' [electrons] dt n (Nat.iter n (rk3 (fun V _ => fv_rhs 5 (hll_flux gamma) plane
    (fun d => if in_dec Nat.eq_dec d [1%nat] then Periodic else NoSlip) (spacing plane_grid) [0; 1]%nat (V 0%nat)) dt) (fun _ => gas)).
Proof.
  intros gamma dt n. apply (C57_sod_physical gamma plane electrons 999 dt n [0%nat] [1%nat] gas_start gas_fields gas (gas_ready R RArith) eq_refl).
  - cbn; lia.
  - intros d. cbn. lia.
  - intros d [<-|[]] [H|[]]. discriminate.
  - reflexivity.
Qed.
