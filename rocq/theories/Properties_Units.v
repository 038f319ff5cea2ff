(** * The results do not depend on the units (C82). *)
From Coq Require Import ZArith List String Lia Bool Floats.SpecFloat Reals Lra.
From Verif Require Import Base BaseFacts BoxSpec BoxFacts Range RangeSpec RangeFacts Indexer Interface
  ApiSpec ApiFacts Arith ArithFloat ArithR Chunk FieldSpec FieldFacts ChunkFacts Properties_Chunk VarId Manager MgrSpec MgrFacts
  BC BCSpec Sweep SweepSpec SweepFacts Euler Maxwell SourceSpec Sources EulerSpec NumFacts PhysicsSpec PhysicsFacts Properties_Physics FluxFacts Programs ProgramsSpec Properties_Programs
  Properties_Symmetry Properties_Monopole Properties_Euler Properties_Positive UnitsSpec UnitsFacts.
Import ListNotations.
Open Scope Z_scope.

(** ** C82: fluxes *)

(** A gas or a field described in other units has the same fluxes in those units. *)
Theorem C82_euler_flux : forall k v gamma d l r, (0 < k)%R -> (0 < v)%R -> (d < 3)%nat -> List.length l = 5%nat -> List.length r = 5%nat ->
  exists f, euler_flux gamma (Z.of_nat d) l r = Ok f /\ euler_flux gamma (Z.of_nat d) (gas_units k v l) (gas_units k v r) = Ok (gas_flux_units k v f).
Proof.
  intros k v gamma d l r Hk Hv Hd Hl Hr. exists (hll_flux gamma d l r). split; [now apply C57_euler_flux|]. rewrite C57_euler_flux by (auto; reflexivity). now rewrite hll_units.
Qed.
Print Assumptions C82_euler_flux.
Theorem C82_maxwell_flux : forall b v c d l r, (0 < v)%R -> (d < 3)%nat -> List.length l = 6%nat -> List.length r = 6%nat ->
  exists f, maxwell_flux c (Z.of_nat d) l r = Ok f /\ maxwell_flux (v * c)%R (Z.of_nat d) (em_units b v l) (em_units b v r) = Ok (em_flux_units b v f).
Proof.
  intros b v c d l r Hv Hd Hl Hr. exists (rusanov_flux c d l r). split; [now apply C57_maxwell_flux|]. rewrite C57_maxwell_flux by (auto; reflexivity). now rewrite rusanov_units.
Qed.
Print Assumptions C82_maxwell_flux.

(** Two gases at rest of pressures 1 and 1/4 with sound speed 1, see
    C57_euler_flux_ex, in grams and centimeters per second. *)
Example C82_euler_flux_ex : euler_flux (7/5)%R 0 [1400; 0; 0; 0; 25000000]%R [350; 0; 0; 0; 6250000]%R = Ok [52500; 6250000; 0; 0; 937500000]%R.
Proof.
  destruct (C82_euler_flux 1000 100 (7/5) 0 [7/5; 0; 0; 0; 5/2]%R [7/20; 0; 0; 0; 5/8]%R) as (f & E1 & E2); try lra; try reflexivity; try lia. 
  change (Z.of_nat 0) with 0 in *. rewrite C57_euler_flux_ex in E1. injection E1 as <-.
  replace [1400; 0; 0; 0; 25000000]%R with (gas_units 1000 100 [7/5; 0; 0; 0; 5/2])%R by (unfold gas_units; cbn [nth]; repeat (apply f_equal2; [field|]); reflexivity).
  replace [350; 0; 0; 0; 6250000]%R with (gas_units 1000 100 [7/20; 0; 0; 0; 5/8])%R by (unfold gas_units; cbn [nth]; repeat (apply f_equal2; [field|]); reflexivity).
  rewrite E2. f_equal. unfold gas_flux_units, gas_units. cbn [nth map]. repeat (apply f_equal2; [field|]); reflexivity.
Qed.

(** The case of C57_maxwell_flux_ex with speeds ten times and magnetic fields seven
    times as large as numbers. *)
Example C82_maxwell_flux_ex : maxwell_flux 30%R 0 [0; 0; 0; 0; 0; 14]%R [0; 420; 0; 0; 0; 0]%R = Ok [0; 0; 0; 0; 0; 420]%R.
Proof.
  destruct (C82_maxwell_flux 7 10 3 0 [0; 0; 0; 0; 0; 2]%R [0; 6; 0; 0; 0; 0]%R) as (f & E1 & E2); try lra; try reflexivity; try lia.
  change (Z.of_nat 0) with 0 in *. rewrite C57_maxwell_flux_ex in E1. injection E1 as <-.
  replace [0; 0; 0; 0; 0; 14]%R with (em_units 7 10 [0; 0; 0; 0; 0; 2])%R by (unfold em_units; cbn [nth]; repeat (apply f_equal2; [field|]); reflexivity).
  replace [0; 420; 0; 0; 0; 0]%R with (em_units 7 10 [0; 6; 0; 0; 0; 0])%R by (unfold em_units; cbn [nth]; repeat (apply f_equal2; [field|]); reflexivity).
  replace 30%R with (10 * 3)%R by ring. rewrite E2. f_equal. unfold em_flux_units, em_units. cbn [nth map]. repeat (apply f_equal2; [field|]); reflexivity.
Qed.

(** ** C82: the reconstruction

    In other units the same values up to 4e-12 in either unit, but not exactly. *)
Theorem C82_recon_partial : forall k a b c d : R, (0 < k)%R -> let w := recon (k * a)%R (k * b)%R (k * c)%R (k * d)%R in
  (Rabs (fst w - k * fst (recon a b c d)) <= 4 * (1 + k) / 1000000000000 /\ Rabs (snd w - k * snd (recon a b c d)) <= 4 * (1 + k) / 1000000000000)%R.
Proof.
  intros k a b c d Hk w. unfold w. rewrite !recon_values. cbn [fst snd]. pose proof (left_units k a b c Hk). pose proof (right_units k b c d Hk). lra.
Qed.
Print Assumptions C82_recon_partial.
(** Values 0, 1, 2 against the same times 1e-12: 1.5 and 1.3e-12. *)
Theorem C82_recon_refuted : let k := (/ 1000000000000)%R in
  (Rabs (fst (recon 0 1 2 3) - 3 / 2) <= / 1000000)%R /\ fst (recon (k * 0) (k * 1) (k * 2) (k * 3))%R = (k * (13 / 10))%R.
Proof.
  intros k. rewrite !recon_values. cbn [fst snd]. rewrite !left_R, !phi_R. split.
  - match goal with |- context [((?x / ?y) * _)%R] => idtac end. apply Rabs_le_iff.
    set (r := ((2 - 1) / (1 - 0 + / 1000000000000))%R). assert (Er : (r = 1000000000000 / 1000000000001)%R) by (unfold r; field). rewrite Er. lra.
  - match goal with |- context [((?x - ?y) / ?z)%R] => replace ((x - y) / z)%R with (/ 2)%R by (unfold k; field) end. unfold k. field.
Qed.
Print Assumptions C82_recon_refuted.

(** ** C82: length and time together

    All lengths and times [a] times as large, in a plasma the charge to mass ratios
    and currents [a] times smaller: the same results. *)
Section Same.
Variable (Op Op' : @sys R -> @sys R).
Lemma same_iter : forall a dt n U, a <> 0%R -> (forall V i c, Op' V i c = Op V i c / a)%R -> Nat.iter n (rk3 Op' (a * dt)%R) U = Nat.iter n (rk3 Op dt) U.
Proof. intros a dt n U Ha HO. induction n as [|n IH]; [reflexivity|]. cbn [Nat.iter nat_rect]. unfold Nat.iter in IH. rewrite IH. now apply rk3_slower. Qed.
End Same.

Definition same_end (o o' : out (mgr R)) (M : box) (k : vid) : Prop :=
  exists u v, ends o M k u /\ ends o' M k v /\ forall c, in_box (M ++ comp_box k) c -> u c = v c.
Lemma same_ends : forall (m1 m2 : mgr R) M L1 L2 ks ks' fams o o' U, o = Done m1 -> o' = Done m2 -> state_ok m1 M L1 ks -> state_ok m2 M L2 ks' -> sys_is M L1 fams U -> sys_is M L2 fams U ->
  forall k, In k fams -> same_end o o' M k.
Proof.
  intros m1 m2 M L1 L2 ks ks' fams o o' U E1 E2 S1 S2 Q1 Q2 k Hk. apply In_nth_error in Hk as [i Hi]. destruct (Q1 i k Hi) as (u & Gu & Hu). destruct (Q2 i k Hi) as (v & Gv & Hv).
  exists u, v. split; [exists m1, L1; split; [exact E1|split; [apply S1|exact Gu]]|]. split; [exists m2, L2; split; [exact E2|split; [apply S2|exact Gv]]|].
  intros c Hc. rewrite Hu, Hv by exact Hc. reflexivity.
Qed.

Theorem C82_sod : forall gamma M f fuel dt n ws ps (m m' : mgr R) L L' u a, a <> 0%R ->
  program_ready m M L [f] fuel -> program_ready m' M L' [f] fuel -> List.length (id_comps (f_0 f)) = 5%nat -> (List.length M <= 4)%nat ->
  (forall d, In d (ws ++ ps) <-> (d < List.length M)%nat) -> (forall d, In d ws -> ~ In d ps) ->
  (forall d, (d < List.length M)%nat -> spacing (mg_grid m') d = a * spacing (mg_grid m) d)%R -> field_get L (f_0 f) = Some u -> field_get L' (f_0 f) = Some u ->
  same_end (run (sod_step true fuel gamma (map Z.of_nat ws) (map Z.of_nat ps) f) dt n m) (run (sod_step true fuel gamma (map Z.of_nat ws) (map Z.of_nat ps) f) (a * dt)%R n m') M (f_0 f).
Proof.
  intros gamma M f fuel dt n ws ps m m' L L' u a Ha R1 R2 N5 H4 Hds Hx HD Eu Ev.
  destruct (C57_sod R RArith gamma M f fuel dt n ws ps m L u R1 N5 H4 Hds Hx Eu) as (m1 & L1 & E1 & S1 & _ & _ & _ & V1 & _).
  destruct (C57_sod R RArith gamma M f fuel (a * dt)%R n ws ps m' L' u R2 N5 H4 Hds Hx Ev) as (m2 & L2 & E2 & S2 & _ & _ & _ & V2 & _).
  rewrite (same_iter (fun V _ => fv_rhs 5 (flux_of (euler_flux gamma)) M (fun d => if in_dec Nat.eq_dec d ps then Periodic else NoSlip) (spacing (mg_grid m)) (seq 0 (List.length M)) (V 0%nat))) in V2; auto.
  - apply (same_ends m1 m2 M L1 L2 _ _ _ _ _ _ E1 E2 S1 S2 V1 V2). now left.
  - intros V i c. apply fv_slower; [exact Ha|]. intros d Hd. apply in_seq in Hd. apply HD. lia.
Qed.
Print Assumptions C82_sod.

Theorem C82_pulse : forall c M f fuel dt n (m m' : mgr R) L L' u a, a <> 0%R -> program_ready m M L [f] fuel -> program_ready m' M L' [f] fuel -> List.length (id_comps (f_0 f)) = 6%nat ->
  (forall d, (d < List.length M)%nat -> spacing (mg_grid m') d = a * spacing (mg_grid m) d)%R -> field_get L (f_0 f) = Some u -> field_get L' (f_0 f) = Some u ->
  same_end (run (pulse_step true fuel c (map Z.of_nat (seq 0 (List.length M))) f) dt n m) (run (pulse_step true fuel c (map Z.of_nat (seq 0 (List.length M))) f) (a * dt)%R n m') M (f_0 f).
Proof.
  intros c M f fuel dt n m m' L L' u a Ha R1 R2 N6 HD Eu Ev.
  destruct (C57_pulse R RArith c M f fuel dt n m L u R1 N6 Eu) as (m1 & L1 & E1 & S1 & _ & _ & _ & V1 & _).
  destruct (C57_pulse R RArith c M f fuel (a * dt)%R n m' L' u R2 N6 Ev) as (m2 & L2 & E2 & S2 & _ & _ & _ & V2 & _).
  rewrite (same_iter (fun V _ => fv_rhs 6 (flux_of (maxwell_flux c)) M (fun _ => Periodic) (spacing (mg_grid m)) (seq 0 (Nat.min 3 (List.length M))) (V 0%nat))) in V2; auto.
  - apply (same_ends m1 m2 M L1 L2 _ _ _ _ _ _ E1 E2 S1 S2 V1 V2). now left.
  - intros V i q. apply fv_slower; [exact Ha|]. intros d Hd. apply in_seq in Hd. apply HD. lia.
Qed.
Print Assumptions C82_pulse.

Theorem C82_gem : forall p mx my e i f fuel dt n (m m' : mgr R) L L' u v w a, let M := [mx; my] in a <> 0%R ->
  program_ready m M L [e; i; f] fuel -> program_ready m' M L' [e; i; f] fuel ->
  List.length (id_comps (f_0 e)) = 5%nat -> List.length (id_comps (f_0 i)) = 5%nat -> List.length (id_comps (f_0 f)) = 6%nat ->
  bs_points (id_basis (f_0 e)) = bs_points (id_basis (f_0 f)) -> bs_points (id_basis (f_0 i)) = bs_points (id_basis (f_0 f)) -> List.length (pl_ms p) = 2%nat ->
  (forall d, (d < 2)%nat -> spacing (mg_grid m') d = a * spacing (mg_grid m) d)%R ->
  field_get L (f_0 e) = Some u -> field_get L (f_0 i) = Some v -> field_get L (f_0 f) = Some w -> field_get L' (f_0 e) = Some u -> field_get L' (f_0 i) = Some v -> field_get L' (f_0 f) = Some w ->
  let p' := mkPlasma (pl_gamma p) (pl_c p) (pl_e p / a)%R (pl_i p / a)%R (map (fun x => x / a)%R (pl_ms p)) in
  forall k, In k [f_0 e; f_0 i; f_0 f] -> same_end (run (plasma_step true fuel p (gem_bcs e i f) e i f) dt n m) (run (plasma_step true fuel p' (gem_bcs e i f) e i f) (a * dt)%R n m') M k.
Proof.
  intros p mx my e i f fuel dt n m m' L L' u v w a M Ha R1 R2 Ne Ni Nf Pe Pi Hms HD Eu Ev Ew Eu' Ev' Ew' p' k Hk.
  destruct (C57_gem R RArith p mx my e i f fuel dt n m L u v w R1 Ne Ni Nf Pe Pi Hms Eu Ev Ew) as (m1 & L1 & E1 & S1 & _ & _ & _ & V1 & _).
  destruct (C57_gem R RArith p' mx my e i f fuel (a * dt)%R n m' L' u v w R2 Ne Ni Nf Pe Pi) as (m2 & L2 & E2 & S2 & _ & _ & _ & V2 & _); auto; [cbn; now rewrite map_length|].
  rewrite (same_iter (plasma_op p (flux_of (euler_flux (pl_gamma p))) (flux_of (maxwell_flux (pl_c p))) [mx; my] gem_kinds (spacing (mg_grid m)) [0; 1]%nat [0; 1]%nat)) in V2; auto.
  - apply (same_ends m1 m2 M L1 L2 _ _ _ _ _ _ E1 E2 S1 S2 V1 V2 k Hk).
  - intros V j c. apply plasma_slower; [exact Ha|]. intros d Hd. apply HD. cbn in Hd. intuition lia.
Qed.
Print Assumptions C82_gem.
Theorem C82_brio_wu : forall p mx e i f fuel dt n (m m' : mgr R) L L' u v w a, let M := [mx] in a <> 0%R ->
  program_ready m M L [e; i; f] fuel -> program_ready m' M L' [e; i; f] fuel ->
  List.length (id_comps (f_0 e)) = 5%nat -> List.length (id_comps (f_0 i)) = 5%nat -> List.length (id_comps (f_0 f)) = 6%nat ->
  bs_points (id_basis (f_0 e)) = bs_points (id_basis (f_0 f)) -> bs_points (id_basis (f_0 i)) = bs_points (id_basis (f_0 f)) -> List.length (pl_ms p) = 2%nat ->
  spacing (mg_grid m') 0 = (a * spacing (mg_grid m) 0)%R ->
  field_get L (f_0 e) = Some u -> field_get L (f_0 i) = Some v -> field_get L (f_0 f) = Some w -> field_get L' (f_0 e) = Some u -> field_get L' (f_0 i) = Some v -> field_get L' (f_0 f) = Some w ->
  let p' := mkPlasma (pl_gamma p) (pl_c p) (pl_e p / a)%R (pl_i p / a)%R (map (fun x => x / a)%R (pl_ms p)) in
  forall k, In k [f_0 e; f_0 i; f_0 f] -> same_end (run (plasma_step true fuel p (brio_wu_bcs e i f) e i f) dt n m) (run (plasma_step true fuel p' (brio_wu_bcs e i f) e i f) (a * dt)%R n m') M k.
Proof.
  intros p mx e i f fuel dt n m m' L L' u v w a M Ha R1 R2 Ne Ni Nf Pe Pi Hms HD Eu Ev Ew Eu' Ev' Ew' p' k Hk.
  destruct (C57_brio_wu R RArith p mx e i f fuel dt n m L u v w R1 Ne Ni Nf Pe Pi Hms Eu Ev Ew) as (m1 & L1 & E1 & S1 & _ & _ & _ & V1 & _).
  destruct (C57_brio_wu R RArith p' mx e i f fuel (a * dt)%R n m' L' u v w R2 Ne Ni Nf Pe Pi) as (m2 & L2 & E2 & S2 & _ & _ & _ & V2 & _); auto; [cbn; now rewrite map_length|].
  rewrite (same_iter (plasma_op p (flux_of (euler_flux (pl_gamma p))) (flux_of (maxwell_flux (pl_c p))) [mx] wall_kinds (spacing (mg_grid m)) [0%nat] [0%nat])) in V2; auto.
  - apply (same_ends m1 m2 M L1 L2 _ _ _ _ _ _ E1 E2 S1 S2 V1 V2 k Hk).
  - intros V j c. apply plasma_slower; [exact Ha|]. intros d Hd. cbn in Hd. assert (d = 0%nat) as -> by intuition lia. exact HD.
Qed.
Print Assumptions C82_brio_wu.

(** Six cells in a ring with densities 1, 2, 3, 4, 3, 2, moving at speed 1, of
    pressure 4, and the densities after four steps of 1/16. *)
Definition hill {F} {A : Arith F} (k : F) : field F := fun c =>
  let rho := nth (Z.to_nat (nth 0 c 0)) [1; 2; 3; 4; 3; 2] 1 in
  (k * match last c 0 with 0 | 1 => fofz rho | 4 => fofz 10 + fdec 5 (-1) * fofz rho | _ => f0 end)%F.
Definition hill_after (k : spec_float) : list (option spec_float) :=
  match run (sod_step true 999 (fdec 14 (-1)) [] [0] electrons) (fdec 625 (-4)) 4 (tube_start 6 (hill k)) with
  | Done m => map (fun x => cell_value m (f_0 electrons) [x; 0; 0]) (zrange 0 6)
  | _ => []
  end.
(** With a unit of mass 2^45 times as large, which changes nothing but the exponents
    of the doubles, the least dense cell ends with 15 percent more mass. *)
Theorem C82_refuted : let k := S754_finite false 1 (-45) in
  Forall (fun k => program_ready (tube_start 6 (hill k)) [(0, 6)] [(f_0 electrons, hill k)] [electrons] 999) [dbl 1; k] /\
  (forall c, In c (cells (grow 2 [(0, 6)] ++ comp_box (f_0 electrons))) -> fmul k (hill (dbl 1) c) = hill k c) /\
  match nth 0 (hill_after (dbl 1)) None, nth 0 (hill_after k) None with
  | Some a, Some b => flt (fdec 115 (-2) * (k * a))%F b = true
  | _, _ => False
  end.
Proof.
  intros k. split; [|split].
  - constructor; [is_ready|constructor; [is_ready|constructor]].
  - apply Forall_forall. repeat (constructor; [vm_compute; reflexivity|]). constructor.
  - vm_compute. reflexivity.
Qed.
Print Assumptions C82_refuted.

(** The same gas on cells of width 1 and of width 3, with time steps of 1/16 and of
    3/16. *)
Example C82_sod_ex : forall n, let wide := mgr_of (mkGrid (range_of [(0, 6)]) [0%R] [18%R] [3%R]) [(0, 6)] [(f_0 electrons, hill 1%R)] None None in
  same_end (run (sod_step true 999 (14 / 10)%R [] [0] electrons) (/ 16)%R n (tube_start 6 (hill 1%R))) (run (sod_step true 999 (14 / 10)%R [] [0] electrons) (3 * / 16)%R n wide) [(0, 6)] (f_0 electrons).
Proof.
  intros n wide. apply (C82_sod (14 / 10)%R [(0, 6)] electrons 999 (/ 16)%R n [] [0%nat] (tube_start 6 (hill 1%R)) wide [(f_0 electrons, hill 1%R)] [(f_0 electrons, hill 1%R)] (hill 1%R) 3%R); try reflexivity; try lra.
  - is_ready.
  - is_ready.
  - cbn; lia.
  - intros d. cbn. lia.
  - intros d [].
  - intros d Hd. cbn in Hd. assert (d = 0%nat) as -> by lia. cbn. ring.
Qed.

(** The plasma of Properties_Programs and a pulse with all lengths and times doubled. *)
Example C82_gem_ex : forall gamma c e i me mi dt n k, In k [f_0 electrons; f_0 ions; f_0 em] ->
  let wide := mgr_of (mkGrid (range_of plane) [0%R; 0%R] [2%R; 2%R] (map (Rmult 2) (gr_dxs (@plane_grid R RArith)))) plane plasma_fields None None in
  same_end (run (plasma_step true 999 (real_plasma gamma c e i me mi) (gem_bcs electrons ions em) electrons ions em) dt n (@plasma_start R RArith))
    (run (plasma_step true 999 (real_plasma gamma c (e / 2) (i / 2) (me / 2) (mi / 2)) (gem_bcs electrons ions em) electrons ions em) (2 * dt)%R n wide) plane k.
Proof.
  intros gamma c e i me mi dt n k Hk wide.
  apply (C82_gem (real_plasma gamma c e i me mi) (0, 2) (0, 3) electrons ions em 999 dt n plasma_start wide plasma_fields plasma_fields gas gas pulse 2%R); try reflexivity; try lra; try exact Hk.
  - apply plasma_ready.
  - is_ready.
  - intros d Hd. destruct d as [|[|d]]; [reflexivity|reflexivity|lia].
Qed.
Example C82_pulse_ex : forall c dt n,
  let wide := mgr_of (mkGrid (range_of line) [0%R] [2%R] (map (Rmult 2) (gr_dxs (@line_grid R RArith)))) line pulse_fields None None in
  same_end (run (pulse_step true 999 c [0] em) dt n (@pulse_start R RArith)) (run (pulse_step true 999 c [0] em) (2 * dt)%R n wide) line (f_0 em).
Proof.
  intros c dt n wide. apply (C82_pulse c line em 999 dt n pulse_start wide pulse_fields pulse_fields pulse 2%R); try reflexivity; try lra.
  - apply pulse_ready.
  - is_ready.
  - intros d Hd. cbn in Hd. assert (d = 0%nat) as -> by lia. reflexivity.
Qed.
