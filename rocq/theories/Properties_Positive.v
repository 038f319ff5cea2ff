(** * Density and pressure stay positive (C80). *)
From Coq Require Import ZArith List String Lia Bool Reals Lra Psatz Floats.SpecFloat.
From Verif Require Import Base BaseFacts BoxSpec BoxFacts Interface EulerSpec PhysicsSpec PhysicsFacts NumFacts Range RangeSpec RangeFacts ApiSpec Arith ArithFloat ArithR Chunk FieldSpec VarId Manager MgrSpec MgrFacts
  BC BCSpec BCFacts Sweep SweepSpec Euler Maxwell Sources SourceSpec ParFacts SweepFacts FluxFacts Programs ProgramsSpec ConserveFacts RhsFacts Properties_Programs
  SymmetrySpec SymmetryFacts Properties_Symmetry Properties_Chunk Properties_Monopole AxesFacts PositiveSpec PositiveFacts.
Import ListNotations.
Open Scope Z_scope.

(** ** C80 for the density

    In exact arithmetic: as long as the gas is calm at every stage, and the time
    step and the speeds such that [courant] is at most one, a cell keeps in every
    step at least the part (1 - courant)^3 of its density. The pressure, and gases
    that are not calm, are missing: see below. *)
Theorem C80_sod_partial : forall gamma M f fuel dt n ws ps (m : mgr R) L u s,
  let kinds d := if in_dec Nat.eq_dec d ps then Periodic else NoSlip in let dx := spacing (mg_grid m) in
  let Op := fun (V : sys) (_ : nat) => fv_rhs 5 (flux_of (euler_flux gamma)) M kinds dx (seq 0 (List.length M)) (V 0%nat) in
  let P := [(0, bs_points (id_basis (f_0 f)))] in
  program_ready m M L [f] fuel -> List.length (id_comps (f_0 f)) = 5%nat -> (List.length M <= 3)%nat ->
  (forall d, In d (ws ++ ps) <-> (d < List.length M)%nat) -> (forall d, In d ws -> ~ In d ps) -> field_get L (f_0 f) = Some u ->
  (0 <= dt)%R -> (forall d, (d < List.length M)%nat -> 0 < dx d)%R -> (0 <= courant (List.length M) dt s dx <= 1)%R ->
  (forall x, in_box (M ++ P) x -> 0 <= u (x ++ [0%Z]))%R ->
  (forall t, (t < n)%nat -> let V := Nat.iter t (rk3 Op dt) (fun _ => u) in
    calm gamma M P kinds s (V 0%nat) /\ calm gamma M P kinds s (second Op dt V 0%nat) /\ calm gamma M P kinds s (third Op dt V 0%nat)) ->
  exists u', ends (run (sod_step true fuel gamma (map Z.of_nat ws) (map Z.of_nat ps) f) dt n m) M (f_0 f) u' /\
    forall x, in_box (M ++ P) x -> ((1 - courant (List.length M) dt s dx) ^ (3 * n) * u (x ++ [0%Z]) <= u' (x ++ [0%Z]))%R.
Proof.
  intros gamma M f fuel dt n ws ps m L u s kinds dx Op P HR N5 Hk Hds Hx Eu Hdt Hdx Hc H0 HC.
  destruct (C57_sod R RArith gamma M f fuel dt n ws ps m L u HR N5 ltac:(lia) Hds Hx Eu) as (m1 & L1 & E1 & (S1 & _) & _ & _ & _ & V1 & _).
  destruct (V1 0%nat (f_0 f) eq_refl) as (u' & Gu & Hu'). exists u'. split; [exists m1, L1; auto|]. intros x Hx'.
  rewrite Hu' by (apply cell_join; [exact Hx'|rewrite N5; lia]).
  apply (run_bound Op dt 0%nat (x ++ [0]) (courant (List.length M) dt s dx) n (fun _ => u) Hc (H0 x Hx')).
  intros t Ht V. destruct (HC t Ht) as (C1 & C2 & C3). fold V in C1, C2, C3.
  assert (K : forall W : sys, calm gamma M P kinds s (W 0%nat) -> ((1 - courant (List.length M) dt s dx) * W 0%nat (x ++ [0%Z]) <= W 0%nat (x ++ [0%Z]) + dt * Op W 0%nat (x ++ [0%Z]))%R).
  { intros W C. exact (stage_density gamma M P kinds s dx dt (W 0%nat) x C Hk Hdt Hdx Hx'). }
  split; [exact (K V C1)|]. split; [exact (K (second Op dt V) C2)|exact (K (third Op dt V) C3)].
Qed.
Print Assumptions C80_sod_partial.

(** Both fluids of a plasma, with the walls of gem_challenge. *)
Theorem C80_gem_partial : forall p mx my e i f fuel dt n (m : mgr R) L u v w s, let M := [mx; my] in let dx := spacing (mg_grid m) in
  let Op := plasma_op p (flux_of (euler_flux (pl_gamma p))) (flux_of (maxwell_flux (pl_c p))) M gem_kinds dx [0; 1]%nat [0; 1]%nat in
  let P := [(0, bs_points (id_basis (f_0 f)))] in let c := courant 2 dt s dx in
  program_ready m M L [e; i; f] fuel -> List.length (id_comps (f_0 e)) = 5%nat -> List.length (id_comps (f_0 i)) = 5%nat -> List.length (id_comps (f_0 f)) = 6%nat ->
  bs_points (id_basis (f_0 e)) = bs_points (id_basis (f_0 f)) -> bs_points (id_basis (f_0 i)) = bs_points (id_basis (f_0 f)) -> List.length (pl_ms p) = 2%nat ->
  field_get L (f_0 e) = Some u -> field_get L (f_0 i) = Some v -> field_get L (f_0 f) = Some w ->
  (0 <= dt)%R -> (0 < dx 0%nat)%R -> (0 < dx 1%nat)%R -> (0 <= c <= 1)%R ->
  (forall x, in_box (M ++ P) x -> 0 <= u (x ++ [0%Z]) /\ 0 <= v (x ++ [0%Z]))%R ->
  (forall t a, (t < n)%nat -> (a < 2)%nat -> let V := Nat.iter t (rk3 Op dt) (three u v w) in
    calm (pl_gamma p) M P (gem_kinds a) s (V a) /\ calm (pl_gamma p) M P (gem_kinds a) s (second Op dt V a) /\ calm (pl_gamma p) M P (gem_kinds a) s (third Op dt V a)) ->
  exists u' v', ends (run (plasma_step true fuel p (gem_bcs e i f) e i f) dt n m) M (f_0 e) u' /\
    ends (run (plasma_step true fuel p (gem_bcs e i f) e i f) dt n m) M (f_0 i) v' /\
    forall x, in_box (M ++ P) x -> ((1 - c) ^ (3 * n) * u (x ++ [0%Z]) <= u' (x ++ [0%Z]) /\ (1 - c) ^ (3 * n) * v (x ++ [0%Z]) <= v' (x ++ [0%Z]))%R.
Proof.
  intros p mx my e i f fuel dt n m L u v w s M dx Op P c HR Ne Ni Nf Pe Pi Hms Hu Hv Hw Hdt H0 H1 Hc HP HC.
  destruct (C57_gem R RArith p mx my e i f fuel dt n m L u v w HR Ne Ni Nf Pe Pi Hms Hu Hv Hw) as (m1 & L1 & E1 & (S1 & _) & _ & _ & _ & V1 & _).
  destruct (V1 0%nat (f_0 e) eq_refl) as (u' & Gu & Hu'). destruct (V1 1%nat (f_0 i) eq_refl) as (v' & Gv & Hv'). exists u', v'.
  split; [exists m1, L1; auto|]. split; [exists m1, L1; auto|]. intros x Hx'.
  rewrite Hu' by (apply cell_join; [rewrite Pe; exact Hx'|rewrite Ne; lia]). rewrite Hv' by (apply cell_join; [rewrite Pi; exact Hx'|rewrite Ni; lia]).
  assert (HD : forall d, (d < List.length M)%nat -> (0 < dx d)%R) by (intros [|[|d]] Hd; auto; cbn in Hd; lia).
  assert (K : forall a (V : sys), (a < 2)%nat -> calm (pl_gamma p) M P (gem_kinds a) s (V a) -> ((1 - c) * V a (x ++ [0%Z]) <= V a (x ++ [0%Z]) + dt * Op V a (x ++ [0%Z]))%R).
  { intros a V Ha C. pose proof (stage_density (pl_gamma p) M P (gem_kinds a) s dx dt (V a) x C ltac:(cbn; lia) Hdt HD Hx') as B.
    assert (E : Op V a (x ++ [0]) = fv_rhs 5 (flux_of (euler_flux (pl_gamma p))) M (gem_kinds a) dx (seq 0 (List.length M)) (V a) (x ++ [0])).
    { destruct a as [|[|a]]; [| |lia]; unfold Op, plasma_op, with_lorentz; rewrite removelast_last, last_last; reflexivity. }
    rewrite E. exact B. }
  destruct (HP x Hx') as [Pu Pv].
  split.
  - apply (run_bound Op dt 0%nat (x ++ [0]) c n (three u v w) Hc Pu). intros t Ht V. destruct (HC t 0%nat Ht ltac:(lia)) as (C1 & C2 & C3). split; [exact (K 0%nat V ltac:(lia) C1)|]. split; [exact (K 0%nat (second Op dt V) ltac:(lia) C2)|exact (K 0%nat (third Op dt V) ltac:(lia) C3)].
  - apply (run_bound Op dt 1%nat (x ++ [0]) c n (three u v w) Hc Pv). intros t Ht V. destruct (HC t 1%nat Ht ltac:(lia)) as (C1 & C2 & C3). split; [exact (K 1%nat V ltac:(lia) C1)|]. split; [exact (K 1%nat (second Op dt V) ltac:(lia) C2)|exact (K 1%nat (third Op dt V) ltac:(lia) C3)].
Qed.
Print Assumptions C80_gem_partial.

(** ** gases that do not stay positive

    Seven cells, at rest, with pressure 0.4 everywhere and density 3, 3, 1, 0.1,
    2.5, 3, 3; and five cells of density 1 and pressure 0.04 with the velocities 0,
    1, 2, 3, 4. *)
Definition dip {F} {A : Arith F} : field F := fun c =>
  match last c 0 with 0 => fdec (nth (Z.to_nat (nth 0 c 0)) [30; 30; 10; 1; 25; 30; 30] 30) (-1) | 4 => f1 | _ => f0 end.
Definition speeding {F} {A : Arith F} : field F := fun c =>
  match last c 0 with 0 => f1 | 1 => fofz (nth 0 c 0) | 4 => fdec (5 * nth 0 c 0 * nth 0 c 0 + 1) (-1) | _ => f0 end.
Definition tube_start {F} {A : Arith F} (k : Z) (u : field F) : mgr F := mgr_of (mkGrid (range_of [(0, k)]) [f0] [f1] [f1]) [(0, k)] [(f_0 electrons, u)] None None.
(** The state of a cell. *)
Definition state_at {F} (u : field F) (x : list Z) : list F := map (fun j => u (x ++ [j])) [0; 1; 2; 3; 4].

(** In exact arithmetic: every cell of the first has positive density and pressure,
    but the density the solver takes for the inside of the upper wall of cell 3 is
    negative; every cell of the second has, but the pressure at the upper wall of
    cell 1 is negative. *)
Theorem C80_dip_refuted : (forall x, in_box [(0, 7); (0, 1)] x -> admissible (14 / 10) (state_at (@dip R RArith) x)) /\
  (density (left_state 5 (@dip R RArith) 0 [4; 0]%Z) < 0)%R.
Proof.
  split.
  - intros x Hx. inversion Hx as [|? a ? ? Ha H1]; subst. inversion H1 as [|? b ? ? Hb H2]; subst. inversion H2; subst. cbn [fst snd] in Ha, Hb. assert (b = 0) by lia. subst b.
    unfold admissible, pressure, kinetic, density, energy, momentum, state_at.
    assert (D : a = 0 \/ a = 1 \/ a = 2 \/ a = 3 \/ a = 4 \/ a = 5 \/ a = 6) by lia.
    repeat destruct D as [-> | D]; [..|rewrite D]; (split; [reflexivity|]; cbv -[Rplus Rmult Rminus Ropp Rinv Rdiv IZR pow Rlt]; split; [lra|split; [lra|]]; field_simplify; lra).
  - rewrite left_state_density.
    replace (dip (move 0 (-2) [4; 0]%Z ++ [0%Z])) with (10 / 10)%R by reflexivity. replace (dip (move 0 (-1) [4; 0]%Z ++ [0%Z])) with (1 / 10)%R by reflexivity.
    replace (dip ([4; 0]%Z ++ [0%Z])) with (25 / 10)%R by reflexivity. rewrite left_R, phi_R.
    match goal with |- (_ + _ * ?g * _ < 0)%R => replace g with (3600000000002400000000000 / 6569999999998200000000001)%R by field end. lra.
Qed.
Print Assumptions C80_dip_refuted.
Theorem C80_speeding_refuted : (forall x, in_box [(0, 5); (0, 1)] x -> admissible (14 / 10) (state_at (@speeding R RArith) x)) /\
  (pressure (14 / 10) (left_state 5 (@speeding R RArith) 0 [2; 0]%Z) < 0)%R.
Proof.
  split.
  - intros x Hx. inversion Hx as [|? a ? ? Ha H1]; subst. inversion H1 as [|? b ? ? Hb H2]; subst. inversion H2; subst. cbn [fst snd] in Ha, Hb. assert (b = 0) by lia. subst b.
    unfold admissible, pressure, kinetic, density, energy, momentum, state_at.
    assert (D : a = 0 \/ a = 1 \/ a = 2 \/ a = 3 \/ a = 4) by lia.
    repeat destruct D as [-> | D]; [..|rewrite D]; (split; [reflexivity|]; cbv -[Rplus Rmult Rminus Ropp Rinv Rdiv IZR pow Rlt]; split; [lra|split; [lra|]]; field_simplify; lra).
  - assert (V : left_state 5 (@speeding R RArith) 0 [2; 0]%Z = [left_value 1 1 1; left_value 0 1 2; left_value 0 0 0; left_value 0 0 0; left_value (1 / 10) (6 / 10) (21 / 10)]%R).
    { unfold left_state. change (zrange 0 5) with [0; 1; 2; 3; 4]%Z. cbn [map]. repeat f_equal. }
    rewrite V. unfold pressure, kinetic, density, energy, momentum. cbn [nth]. rewrite !left_flat, !left_R, !phi_R.
    match goal with |- (_ * (_ + _ * ?g * _ - ((_ + _ * ?h * _) ^ 2 + _ + _) / _) < 0)%R =>
      replace g with (3000000000001500000000000 / 2500000000001000000000001)%R by field; replace h with (2000000000001000000000000 / 2000000000002000000000001)%R by field end. field_simplify. lra.
Qed.
Print Assumptions C80_speeding_refuted.

(** The programs in doubles: after a step of a billionth nothing but NaN is left of
    density, momentum and energy. *)
Definition tube_after (k : Z) (u : field spec_float) : list (list (option spec_float)) :=
  match run (sod_step true 999 (fdec 14 (-1)) [0] [] electrons) (fdec 1 (-9)) 1 (tube_start k u) with
  | Done m => map (fun x => map (fun j => cell_value m (f_0 electrons) [x; 0; j]) [0; 1; 4]) (zrange 0 k)
  | _ => []
  end.
Theorem C80_refuted : Forall (fun ku : Z * field spec_float => let (k, u) := ku in
  program_ready (tube_start k u) [(0, k)] [(f_0 electrons, u)] [electrons] 999 /\
  tube_after k u = repeat (repeat (Some S754_nan) 3) (Z.to_nat k)) [(7, dip); (5, speeding)].
Proof.
  constructor; [|constructor; [|constructor]]; (split; [is_ready|vm_compute; reflexivity]).
Qed.
Print Assumptions C80_refuted.

(** ** an example that stays positive

    A pressureless gas, gamma = 1, that moves with velocity 1 around four cells,
    with densities 1, 2, 3, 2. *)
Definition dusty (M P : box) (a b : R) (u : field R) : Prop :=
  forall x, in_box (M ++ P) x -> u (x ++ [1%Z]) = u (x ++ [0%Z]) /\ (a <= u (x ++ [0%Z]) <= b)%R.
Section Dust.
Open Scope R_scope.
Variables (k : Z) (P : box) (a b : R) (u : field R).
Let M : box := [(0, k)]%Z.
Let w : field R := seen Periodic M 0 u.
Hypotheses (Hk : (2 <= k)%Z) (Ha : / 1000000000 <= a) (Hb : b <= 9 * a) (HD : dusty M P a b u).
Lemma dust_seen : forall x t, in_box (M ++ P) x -> (-2 <= t <= 2)%Z -> w (move 0 t x ++ [1%Z]) = w (move 0 t x ++ [0%Z]) /\ a <= w (move 0 t x ++ [0%Z]) <= b.
Proof.
  intros x t Hx Ht. assert (L : (0 < List.length x)%nat) by (apply Forall2_length in Hx; rewrite <- Hx; cbn; lia).
  assert (I : (lo M 0 <= nth 0 x 0 < hi M 0)%Z) by (apply (in_box_inside M P x Hx); cbn; lia).
  unfold w. rewrite !seen_periodic by (cbn; auto; lia). apply HD. apply around_in_box; [cbn; lia|cbn; lia|exact Hx].
Qed.
Lemma dust_gentle : forall x, in_box (M ++ P) x -> gentle w 0 x.
Proof.
  intros x Hx t Ht. destruct (dust_seen x t Hx Ht) as [_ B]. split; [lra|]. intros Ht'. destruct (dust_seen x (t + 1) Hx ltac:(lia)) as [_ B']. lra.
Qed.
Lemma dust_speed : forall q, 0 < density q -> momentum 0 q = density q -> wave_speed 1 0 q = 1.
Proof.
  intros q H E. unfold wave_speed, velocity, sound, pressure. rewrite E. replace (density q / density q) with 1 by (field; lra).
  replace (1 * ((1 - 1) * (energy q - kinetic q)) / density q) with 0 by (field; lra). rewrite sqrt_0, Rabs_R1. ring.
Qed.
(** The states at the walls -1 .. 1 of a cell. *)
Lemma dust_left : forall x s, in_box (M ++ P) x -> s = 0%Z \/ s = 1%Z -> momentum 0 (left_state 5 w 0 (move 0 s x)) = density (left_state 5 w 0 (move 0 s x)) /\ 0 < density (left_state 5 w 0 (move 0 s x)) <= 21 / 10 * b.
Proof.
  intros x s Hx Hs. assert (L : (0 < List.length x)%nat) by (apply Forall2_length in Hx; rewrite <- Hx; cbn; lia).
  assert (E : forall j, left_value (w (move 0 (-2) (move 0 s x) ++ [j])) (w (move 0 (-1) (move 0 s x) ++ [j])) (w (move 0 s x ++ [j])) =
    left_value (w (move 0 (s + -2) x ++ [j])) (w (move 0 (s + -1) x ++ [j])) (w (move 0 s x ++ [j]))) by (intros j; now rewrite !move_move by exact L).
  destruct (dust_seen x (s + -2) Hx ltac:(lia)) as [E1 B1]. destruct (dust_seen x (s + -1) Hx ltac:(lia)) as [E2 B2]. destruct (dust_seen x s Hx ltac:(lia)) as [E3 B3].
  assert (M1 : momentum 0 (left_state 5 w 0 (move 0 s x)) = left_value (w (move 0 (-2) (move 0 s x) ++ [1%Z])) (w (move 0 (-1) (move 0 s x) ++ [1%Z])) (w (move 0 s x ++ [1%Z]))) by reflexivity.
  rewrite M1, left_state_density, !E, E1, E2, E3. split; [reflexivity|].
  set (p := w (move 0 (s + -2) x ++ [0%Z])) in *. set (q := w (move 0 (s + -1) x ++ [0%Z])) in *. set (r := w (move 0 s x ++ [0%Z])) in *.
  pose proof (left_density p q r). pose proof (right_density p q r). pose proof (both_walls p q r). lra.
Qed.
Lemma dust_right : forall x s, in_box (M ++ P) x -> s = 0%Z \/ s = 1%Z -> momentum 0 (right_state 5 w 0 (move 0 s x)) = density (right_state 5 w 0 (move 0 s x)) /\ 0 < density (right_state 5 w 0 (move 0 s x)) <= 21 / 10 * b.
Proof.
  intros x s Hx Hs. assert (L : (0 < List.length x)%nat) by (apply Forall2_length in Hx; rewrite <- Hx; cbn; lia).
  assert (E : forall j, right_value (w (move 0 (-1) (move 0 s x) ++ [j])) (w (move 0 s x ++ [j])) (w (move 0 1 (move 0 s x) ++ [j])) =
    right_value (w (move 0 (s + -1) x ++ [j])) (w (move 0 s x ++ [j])) (w (move 0 (s + 1) x ++ [j]))) by (intros j; now rewrite !move_move by exact L).
  destruct (dust_seen x (s + -1) Hx ltac:(lia)) as [E1 B1]. destruct (dust_seen x s Hx ltac:(lia)) as [E2 B2]. destruct (dust_seen x (s + 1) Hx ltac:(lia)) as [E3 B3].
  assert (M1 : momentum 0 (right_state 5 w 0 (move 0 s x)) = right_value (w (move 0 (-1) (move 0 s x) ++ [1%Z])) (w (move 0 s x ++ [1%Z])) (w (move 0 1 (move 0 s x) ++ [1%Z]))) by reflexivity.
  rewrite M1, right_state_density, !E, E1, E2, E3. split; [reflexivity|].
  set (p := w (move 0 (s + -1) x ++ [0%Z])) in *. set (q := w (move 0 s x ++ [0%Z])) in *. set (r := w (move 0 (s + 1) x ++ [0%Z])) in *.
  pose proof (left_density p q r). pose proof (right_density p q r). pose proof (both_walls p q r). lra.
Qed.
Lemma dust_calm : calm 1 M P (fun _ => Periodic) (fun _ => 1) u.
Proof.
  intros x [|d] Hx Hd; [|cbn in Hd; lia]. assert (L : (0 < List.length x)%nat) by (apply Forall2_length in Hx; rewrite <- Hx; cbn; lia). cbv zeta. fold w.
  destruct (dust_left x 1 Hx (or_intror eq_refl)) as [E1 B1]. destruct (dust_right x 0 Hx (or_introl eq_refl)) as [E2 B2]. rewrite move_0 in E2, B2 by exact L.
  split; [now apply dust_gentle|]. rewrite !dust_speed by (assumption || lra). lra.
Qed.
Lemma dust_wall : forall x s, in_box (M ++ P) x -> s = 0%Z \/ s = 1%Z ->
  wall 5 (flux_of (euler_flux 1)) w 0 (move 0 s x) 1 = wall 5 (flux_of (euler_flux 1)) w 0 (move 0 s x) 0 /\
  - (21 / 10 * b) <= wall 5 (flux_of (euler_flux 1)) w 0 (move 0 s x) 0 <= 21 / 10 * b.
Proof.
  intros x s Hx Hs. destruct (dust_left x s Hx Hs) as [E1 B1]. destruct (dust_right x s Hx Hs) as [E2 B2]. unfold wall. change (@f0 R RArith) with 0.
  rewrite !euler_flux_is by (auto; unfold left_state, right_state; rewrite map_length, zrange_length; reflexivity).
  set (l := left_state 5 w 0 (move 0 s x)) in *. set (r := right_state 5 w 0 (move 0 s x)) in *. clearbody l r.
  pose proof (mass_flux 1 0 l r ltac:(lra) ltac:(lra) ltac:(lia)) as F. rewrite !dust_speed in F by (assumption || lra). change (Z.to_nat 0) with O. split; [|lra].
  change (Z.to_nat 1) with 1%nat. unfold hll_flux. cbn [seq map nth]. unfold hll_average, euler_phys. cbn [nth Nat.eqb].
  change (nth 1 l 0) with (momentum 0 l). change (nth 1 r 0) with (momentum 0 r). change (nth 0 l 0) with (density l). change (nth 0 r 0) with (density r).
  assert (V : forall q, 0 < density q -> momentum 0 q = density q -> momentum 0 q * velocity 0 q + pressure 1 q = density q).
  { intros q Q1 Q2. unfold velocity, pressure. rewrite Q2. field. lra. }
  rewrite !V by (assumption || lra). rewrite E1, E2. reflexivity.
Qed.
Lemma dust_rate : forall x, in_box (M ++ P) x -> let r := fv_rhs 5 (flux_of (euler_flux 1)) M (fun _ => Periodic) (fun _ => 1) [0%nat] u in
  r (x ++ [1%Z]) = r (x ++ [0%Z]) /\ r (x ++ [0%Z]) <= 42 / 10 * b.
Proof.
  intros x Hx r. assert (L : (0 < List.length x)%nat) by (apply Forall2_length in Hx; rewrite <- Hx; cbn; lia). unfold r, fv_rhs, cellwise. rewrite !removelast_last, !last_last, !fluxes_sum.
  unfold sum_over. cbn [map fold_right]. fold w. destruct (dust_wall x 0 Hx (or_introl eq_refl)) as [E0 B0]. destruct (dust_wall x 1 Hx (or_intror eq_refl)) as [E1 B1].
  rewrite move_0 in E0, B0 by exact L. rewrite E0, E1. split; [reflexivity|]. change (@f0 R RArith) with 0. lra.
Qed.
End Dust.

Definition ring4 : box := [(0, 4)].
Definition dust : field R := fun c => if last c 0 <? 2 then IZR (nth (Z.to_nat (nth 0 c 0)) [1; 2; 3; 2] 1) else 0%R.
Example C80_sod_partial_ex : exists u, ends (run (sod_step true 999 1%R [] [0] electrons) (/ 10)%R 1 (tube_start 4 dust)) ring4 (f_0 electrons) u /\
  forall x, in_box (ring4 ++ [(0, 1)]) x -> (49 / 100 * dust (x ++ [0%Z]) <= u (x ++ [0%Z]))%R.
Proof.
  pose (kinds := fun d => if in_dec Nat.eq_dec d [0%nat] then Periodic else NoSlip). pose (dx := spacing (mg_grid (tube_start 4 dust))).
  pose (Op := fun (V : sys) (_ : nat) => fv_rhs 5 (flux_of (euler_flux 1%R)) ring4 kinds dx (seq 0 1) (V 0%nat)).
  assert (EO : forall V i, Op V i = fv_rhs 5 (flux_of (euler_flux 1%R)) ring4 (fun _ => Periodic) (fun _ => 1%R) [0%nat] (V 0%nat)) by reflexivity.
  assert (EC : courant 1 (/ 10) (fun _ => 1%R) dx = (21 / 100)%R) by (unfold courant, sum_over, dx, spacing; cbn; field).
  assert (CK : forall v, calm 1 ring4 [(0, 1)] (fun _ => Periodic) (fun _ => 1%R) v -> calm 1 ring4 [(0, 1)] kinds (fun _ => 1%R) v).
  { intros v C x [|d] Hx Hd; [|cbn in Hd; lia]. exact (C x 0%nat Hx Hd). }
  assert (D1 : dusty ring4 [(0, 1)] 1 3 dust).
  { intros x Hx. inversion Hx as [|? i ? ? Hi H1]; subst. inversion H1 as [|? z ? ? Hz H2]; subst. inversion H2; subst. cbn [fst snd] in Hi.
    assert (D : i = 0 \/ i = 1 \/ i = 2 \/ i = 3) by lia. destruct D as [-> | [-> | [-> | ->]]]; (split; [reflexivity|]); match goal with |- context [dust ?q] => let v := eval cbv -[IZR] in (dust q) in change (dust q) with v end; lra. }
  assert (ST : forall a b (V : sys), (/ 1000000000 <= a)%R -> (b <= 9 * a)%R -> dusty ring4 [(0, 1)] a b (V 0%nat) ->
    calm 1 ring4 [(0, 1)] kinds (fun _ => 1%R) (V 0%nat) /\ dusty ring4 [(0, 1)] (79 / 100 * a) (142 / 100 * b) (second Op (/ 10) V 0%nat)).
  { intros a b V Ha Hb HD. assert (C : calm 1 ring4 [(0, 1)] (fun _ => Periodic) (fun _ => 1%R) (V 0%nat)) by (apply (dust_calm 4 [(0, 1)] a b); auto; lia).
    split; [now apply CK|]. intros x Hx. destruct (HD x Hx) as [E B]. destruct (dust_rate 4 [(0, 1)] a b (V 0%nat) ltac:(lia) Ha Hb HD x Hx) as [E' B'].
    pose proof (stage_density 1 ring4 [(0, 1)] kinds (fun _ => 1%R) dx (/ 10) (V 0%nat) x (CK _ C) ltac:(cbn; lia) ltac:(lra)) as S.
    assert (Hdx : forall d, (d < List.length ring4)%nat -> (0 < dx d)%R) by (intros [|d] Hd; [cbn; lra|cbn in Hd; lia]). specialize (S Hdx Hx).
    change (List.length ring4) with 1%nat in S. rewrite EC in S. unfold second. rewrite !EO. change (fv_rhs 5 (flux_of (euler_flux 1%R)) ring4 kinds dx (seq 0 1) (V 0%nat)) with (Op V 0%nat) in S. rewrite EO in S.
    set (r := fv_rhs _ _ _ _ _ _ _) in *. rewrite E, E'. split; [reflexivity|]. lra. }
  destruct (ST 1%R 3%R (fun _ => dust) ltac:(lra) ltac:(lra) D1) as [C1 D2].
  destruct (ST (79 / 100 * 1)%R (142 / 100 * 3)%R (second Op (/ 10) (fun _ => dust)) ltac:(lra) ltac:(lra) D2) as [C2 D3].
  assert (D4 : dusty ring4 [(0, 1)] (9 / 10) 4 (third Op (/ 10) (fun _ => dust) 0%nat)).
  { intros x Hx. destruct (D1 x Hx) as [X1 Y1]. destruct (D3 x Hx) as [X3 Y3]. unfold third. rewrite X1, X3. split; [reflexivity|]. lra. }
  destruct (ST (9 / 10)%R 4%R (third Op (/ 10) (fun _ => dust)) ltac:(lra) ltac:(lra) D4) as [C3 _].
  destruct (C80_sod_partial 1%R ring4 electrons 999 (/ 10)%R 1 [] [0%nat] (tube_start 4 dust) [(f_0 electrons, dust)] dust (fun _ => 1%R)) as (u & E & H); auto.
  - is_ready.
  - intros d. cbn. lia.
  - lra.
  - intros [|d] Hd; [cbn; lra|cbn in Hd; lia].
  - fold dx. change (List.length ring4) with 1%nat. rewrite EC. lra.
  - intros x Hx. destruct (D1 x Hx). lra.
  - intros t Ht. assert (t = 0%nat) by lia. subst t. exact (conj C1 (conj C2 C3)).
  - exists u. split; [exact E|]. intros x Hx. specialize (H x Hx). fold dx in H. change (List.length ring4) with 1%nat in H. rewrite EC in H. destruct (D1 x Hx) as [_ B]. cbn [pow Nat.mul Nat.add] in H. lra.
Qed.

(** A plasma at rest between the walls, without fields: both fluids have density 1
    and energy 1. *)
Definition resting (j : Z) : R := if (j =? 0) || (j =? 4) then 1%R else 0%R.
Definition rest {F} {A : Arith F} : field F := fun c => if (last c 0 =? 0) || (last c 0 =? 4) then f1 else f0.
Definition nothing {F} {A : Arith F} : field F := fun _ => f0.
Definition rest_fields {F} {A : Arith F} : list (vid * field F) := [(f_0 electrons, rest); (f_0 ions, rest); (f_0 em, nothing)].
Definition rest_start {F} {A : Arith F} : mgr F := mgr_of plane_grid plane rest_fields None None.
Definition level (M P : box) (n : Z) (q : Z -> R) (u : field R) : Prop := forall x j, in_box (M ++ P) x -> 0 <= j < n -> u (x ++ [j]) = q j.
Lemma level_seen : forall M P n q u b d x t j, level M P n q u -> (d < List.length M)%nat -> 2 <= hi M d - lo M d -> in_box (M ++ P) x -> -2 <= t <= 2 -> 0 <= j < n ->
  (b = Periodic \/ (b = NoSlip /\ (1 <= j < 4 -> q j = 0%R)) \/ (b = ConductingWall /\ q j = 0%R)) -> seen b M d u (move d t x ++ [j]) = q j.
Proof.
  intros M P n q u b d x t j HL Hd Hw Hx Ht Hj Hb. assert (L : (d < List.length x)%nat) by (apply Forall2_length in Hx; rewrite app_length in Hx; lia).
  assert (I : lo M d <= nth d x 0 < hi M d) by (apply (in_box_inside M P x Hx); exact Hd).
  rewrite seen_by by exact L. rewrite (HL (move d _ x) j); [|unfold move; apply in_box_upd; auto; now apply reads_in|exact Hj].
  unfold changed. destruct (_ || _); [|reflexivity]. destruct Hb as [-> | [[-> Hb] | [-> Hb]]]; [reflexivity| |].
  - unfold reversed. destruct (Z.leb_spec 1 j), (Z.ltb_spec j 4); try reflexivity. cbn [andb]. rewrite Hb by lia. cbn. ring.
  - unfold reversed. rewrite Hb. destruct (_ && _); [cbn; ring|reflexivity].
Qed.
Lemma level_rate : forall M P n q u G bc dx ds x j, level M P n q u -> (forall d, In d ds -> (d < List.length M)%nat /\ 2 <= hi M d - lo M d) -> in_box (M ++ P) x ->
  (forall d i, In d ds -> 0 <= i < n -> bc d = Periodic \/ (bc d = NoSlip /\ (1 <= i < 4 -> q i = 0%R)) \/ (bc d = ConductingWall /\ q i = 0%R)) ->
  fv_rhs n G M bc dx ds u (x ++ [j]) = 0%R.
Proof.
  intros M P n q u G bc dx ds x j HL Hds Hx Hb. unfold fv_rhs, cellwise. rewrite removelast_last, last_last, fluxes_sum. change (@f0 R RArith) with 0%R. rewrite sum_over_zero; [ring|].
  intros d Hd. destruct (Hds d Hd) as [H1 H2]. assert (L : (d < List.length x)%nat) by (apply Forall2_length in Hx; rewrite app_length in Hx; lia).
  rewrite (wall_ext n G (seen (bc d) M d u) (seen (bc d) M d u) d x (move d 1 x) j); [unfold Rdiv; ring| |now apply move_0|now rewrite move_move].
  intros t i Ht Hi. rewrite move_move by exact L. rewrite !(level_seen M P n q) by (auto; lia). reflexivity.
Qed.
Lemma rest_calm : forall i P u, (i < 2)%nat -> level plane P 5 resting u -> calm (5 / 3) plane P (gem_kinds i) (fun _ => 2%R) u.
Proof.
  intros i P u Hi HL x d Hx Hd w. assert (W : 2 <= hi plane d - lo plane d) by (destruct d as [|[|d]]; cbn in *; lia). assert (L : (d < List.length x)%nat) by (apply Forall2_length in Hx; rewrite app_length in Hx; cbn in *; lia).
  assert (S : forall t j, -2 <= t <= 2 -> 0 <= j < 5 -> w (move d t x ++ [j]) = resting j).
  { intros t j Ht Hj. apply (level_seen plane P 5 resting); auto. destruct d as [|d]; [|now left]. right. left. split; [destruct i as [|[|i]]; [reflexivity|reflexivity|lia]|].
    intros B. unfold resting. destruct (Z.eqb_spec j 0), (Z.eqb_spec j 4); try lia. reflexivity. }
  assert (SP : (wave_speed (5 / 3) d [1; 0; 0; 0; 1] <= 2)%R).
  { unfold wave_speed, velocity, sound, pressure, kinetic, density, energy, momentum. destruct d as [|[|d]]; [| |cbn in Hd; lia]; cbn [nth];
      (replace (0 / 1)%R with 0%R by field); rewrite Rabs_R0, Rplus_0_l; (apply Rle_trans with (sqrt 4); [apply sqrt_le_1_alt; field_simplify; lra|replace 4%R with (2 * 2)%R by ring; rewrite sqrt_square; lra]). }
  assert (EL : left_state 5 w d (move d 1 x) = [1; 0; 0; 0; 1]%R).
  { unfold left_state. change (zrange 0 5) with [0; 1; 2; 3; 4]. cbn [map]. rewrite !move_move by exact L. rewrite !S by lia. now rewrite !left_flat. }
  assert (ER : right_state 5 w d x = [1; 0; 0; 0; 1]%R).
  { unfold right_state. change (zrange 0 5) with [0; 1; 2; 3; 4]. cbn [map]. rewrite <- (move_0 d x L) at 2 5 8 11 14. rewrite !S by lia. now rewrite !right_flat. }
  split; [|split; [now rewrite EL|now rewrite ER]]. intros t Ht. rewrite S by lia. split; [cbn; lra|]. intros Ht'. rewrite !S by lia. cbn. lra.
Qed.
Example C80_gem_partial_ex : forall c ee ei me mi n, let p := mkPlasma (5 / 3)%R c ee ei [me; mi] in
  exists u v, ends (run (plasma_step true 999 p (gem_bcs electrons ions em) electrons ions em) (/ 20)%R n (@rest_start R RArith)) plane (f_0 electrons) u /\
    ends (run (plasma_step true 999 p (gem_bcs electrons ions em) electrons ions em) (/ 20)%R n (@rest_start R RArith)) plane (f_0 ions) v /\
    forall x, in_box (plane ++ [(0, 1)]) x -> (0 < u (x ++ [0%Z]) /\ 0 < v (x ++ [0%Z]))%R.
Proof.
  intros c ee ei me mi n p. set (P := [(0, 1)]). pose (dx := spacing (mg_grid (@rest_start R RArith))).
  pose (Op := plasma_op p (flux_of (euler_flux (pl_gamma p))) (flux_of (maxwell_flux (pl_c p))) plane gem_kinds dx [0; 1]%nat [0; 1]%nat).
  pose (steady := fun V : sys => level plane P 5 resting (V 0%nat) /\ level plane P 5 resting (V 1%nat) /\ level plane P 6 (fun _ => 0%R) (V 2%nat)).
  assert (HW : forall d, In d [0; 1]%nat -> (d < List.length plane)%nat /\ 2 <= hi plane d - lo plane d) by (intros d [<-|[<-|[]]]; cbn; lia).
  assert (B5 : forall a, (a < 2)%nat -> forall d i, In d [0; 1]%nat -> 0 <= i < 5 -> gem_kinds a d = Periodic \/ (gem_kinds a d = NoSlip /\ (1 <= i < 4 -> resting i = 0%R)) \/ (gem_kinds a d = ConductingWall /\ resting i = 0%R)).
  { intros a Ha d i [<-|[<-|[]]] Hi; [|now left]. right. left. split; [destruct a as [|[|a]]; [reflexivity|reflexivity|lia]|]. intros B. unfold resting. destruct (Z.eqb_spec i 0), (Z.eqb_spec i 4); try lia. reflexivity. }
  assert (Z0 : forall V, steady V -> forall x, in_box (plane ++ P) x -> (forall j, 0 <= j < 5 -> Op V 0%nat (x ++ [j]) = 0%R /\ Op V 1%nat (x ++ [j]) = 0%R) /\ forall j, 0 <= j < 6 -> Op V 2%nat (x ++ [j]) = 0%R).
  { intros V (S0 & S1 & S2) x Hx. assert (L0 : forall a j, (a < 2)%nat -> fv_rhs 5 (flux_of (euler_flux (pl_gamma p))) plane (gem_kinds a) dx [0; 1]%nat (V a) (x ++ [j]) = 0%R).
    { intros a j Ha. apply (level_rate plane P 5 resting); auto. destruct a as [|[|a]]; [exact S0|exact S1|lia]. }
    split; [intros j Hj; split|intros j Hj].
    - unfold Op, plasma_op, with_lorentz. rewrite removelast_last, last_last, L0 by lia. 
      assert (D : j = 0 \/ j = 1 \/ j = 2 \/ j = 3 \/ j = 4) by lia. destruct D as [-> | [-> | [-> | [-> | ->]]]]; cbn [lorentz_rate]; rewrite ?S2, ?S0 by (auto; lia); cbn; ring.
    - unfold Op, plasma_op, with_lorentz. rewrite removelast_last, last_last, L0 by lia. 
      assert (D : j = 0 \/ j = 1 \/ j = 2 \/ j = 3 \/ j = 4) by lia. destruct D as [-> | [-> | [-> | [-> | ->]]]]; cbn [lorentz_rate]; rewrite ?S2, ?S1 by (auto; lia); cbn; ring.
    - unfold Op, plasma_op, with_current. rewrite removelast_last, last_last.
      rewrite (level_rate plane P 6 (fun _ => 0%R) (V 2%nat)) by (auto; intros d i [<-|[<-|[]]] Hi; cbn; auto).
      destruct (Z.ltb_spec j 3); [|reflexivity]. cbn [current pl_ms p]. rewrite S0, S1 by (auto; lia). assert (D : j = 0 \/ j = 1 \/ j = 2) by lia. destruct D as [-> | [-> | ->]]; cbn; ring. }
  assert (K : forall V W : sys, steady V -> (forall x, in_box (plane ++ P) x -> (forall j, 0 <= j < 5 -> W 0%nat (x ++ [j]) = V 0%nat (x ++ [j]) /\ W 1%nat (x ++ [j]) = V 1%nat (x ++ [j])) /\ forall j, 0 <= j < 6 -> W 2%nat (x ++ [j]) = V 2%nat (x ++ [j])) -> steady W).
  { intros V W (S0 & S1 & S2) H. split; [|split]; intros x j Hx Hj; destruct (H x Hx) as [H1 H2]; [destruct (H1 j Hj) as [-> _]|destruct (H1 j Hj) as [_ ->]|rewrite H2 by exact Hj]; auto. }
  assert (T2 : forall V, steady V -> steady (second Op (/ 20) V)).
  { intros V S. apply (K V); auto. intros x Hx. destruct (Z0 V S x Hx) as [Z1 Z2]. unfold second. split; [intros j Hj; destruct (Z1 j Hj) as [-> ->]; split; ring|intros j Hj; rewrite Z2 by exact Hj; ring]. }
  assert (T3 : forall V, steady V -> steady (third Op (/ 20) V)).
  { intros V S. apply (K V); auto. intros x Hx. assert (Q := T2 V S). destruct (Z0 _ Q x Hx) as [Z1 Z2]. destruct (Z0 V S x Hx) as [Y1 Y2]. unfold third. unfold second at 1 3 5.
    split; [intros j Hj; destruct (Z1 j Hj) as [-> ->]; unfold second; destruct (Y1 j Hj) as [-> ->]; split; field|intros j Hj; rewrite Z2 by exact Hj; unfold second; rewrite Y2 by exact Hj; field]. }
  assert (TR : forall V, steady V -> steady (rk3 Op (/ 20)%R V)).
  { intros V S. assert (Q := T3 V S). apply (K V); auto. intros x Hx. destruct (Z0 _ Q x Hx) as [Z1 Z2]. destruct S as (S0 & S1 & S2). destruct Q as (Q0 & Q1 & Q2).
    split; [intros j Hj; destruct (Z1 j Hj) as [X Y]; rewrite !rk3_third, X, Y, Q0, Q1, S0, S1 by auto; split; field|].
    intros j Hj. rewrite rk3_third, Z2, Q2, S2 by auto. field. }
  assert (S0 : steady (three rest rest nothing)) by (split; [|split]; intros x j Hx Hj; unfold three, rest, resting, nothing; rewrite ?last_last; reflexivity).
  assert (SI : forall t, steady (Nat.iter t (rk3 Op (/ 20)%R) (three rest rest nothing))) by (induction t as [|t IH]; [exact S0|exact (TR _ IH)]).
  assert (EC : courant 2 (/ 20) (fun _ => 2%R) dx = (42 / 100)%R) by (unfold courant, sum_over, dx, spacing; cbn; field).
  destruct (C80_gem_partial p (0, 2) (0, 3) electrons ions em 999 (/ 20)%R n (@rest_start R RArith) rest_fields rest rest nothing (fun _ => 2%R)) as (u & v & Eu & Ev & H); auto.
  - is_ready.
  - lra.
  - cbn. lra.
  - cbn. lra.
  - fold dx. rewrite EC. lra.
  - intros x Hx. unfold rest. rewrite last_last. cbn. lra.
  - intros t a Ht Ha V. fold dx in V. fold Op in V. assert (Q := SI t). fold Op. fold V in Q.
    assert (CA : forall W : sys, steady W -> calm (5 / 3) plane P (gem_kinds a) (fun _ => 2%R) (W a)).
    { intros W (W0 & W1 & _). apply rest_calm; auto. destruct a as [|[|a]]; [exact W0|exact W1|lia]. }
    split; [exact (CA V Q)|]. split; [exact (CA _ (T2 V Q))|exact (CA _ (T3 V Q))].
  - exists u, v. split; [exact Eu|]. split; [exact Ev|]. intros x Hx. destruct (H x Hx) as [H1 H2]. fold dx in H1, H2. rewrite EC in H1, H2.
    assert (PW : (0 < (1 - 42 / 100) ^ (3 * n))%R) by (apply pow_lt; lra).
    assert (R1 : @rest R RArith (x ++ [0]) = 1%R) by (unfold rest; rewrite last_last; reflexivity). rewrite R1 in H1, H2. lra.
Qed.
