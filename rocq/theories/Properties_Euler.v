(** * Properties of the Euler solver (C38, C40 - C45). *)
From Coq Require Import ZArith List String Lia Bool Floats.SpecFloat Reals Lra.
From Verif Require Import Base BaseFacts BoxSpec BoxFacts Range RangeSpec RangeFacts Indexer Interface
  ApiSpec ApiFacts Arith ArithFloat ArithR Chunk FieldSpec FieldFacts ChunkFacts Properties_Chunk VarId Manager MgrSpec MgrFacts Solvers SolverFacts
  BC BCSpec BCFacts Par ParFacts Kernel KernelFacts Integrators IntegratorSpec IntegratorFacts Sweep SweepSpec SweepFacts Euler Maxwell FluxFacts EulerSpec NumFacts.
Import ListNotations.
Open Scope Z_scope.

(** ** examples used below *)

Definition eid (s : string) : vid := mkVid s (["rho"; "px"; "py"; "pz"; "e"]%string) volume_average.
Definition eq_ := eid "q". Definition er := eid "rhs".
Definition emesh : box := [(0, 3)].
Definition egrid {F} {A : Arith F} : grid F := mkGrid (range_of emesh) [f0] [f1] [f1].
(** Gas at rest with density 1 and energy 1, but energy 2 in cell 1. *)
Definition egas {F} {A : Arith F} : field F := fun c =>
  match c with
  | [x; _; j] => if j =? 0 then f1 else if j =? 4 then (if x =? 1 then fofz 2 else f1) else f0
  | _ => f0
  end.
Definition efields {F} {A : Arith F} : list (vid * field F) := [(eq_, egas); (er, fun _ => f0)].
Definition emgr {F} {A : Arith F} : mgr F := mgr_of egrid emesh efields (Some f1) None.
Lemma eid_fits : forall s, id_fits emesh (eid s).
Proof. intros. apply shapeb_ok; vm_compute; reflexivity. Qed.
Lemma efields_ok : forall F (A : Arith F), fields_ok emesh (@efields F A).
Proof.
  intros. split.
  - cbn. constructor; [|constructor; [intros []|constructor]]. intros [H|[]]. discriminate.
  - constructor; [apply eid_fits|constructor; [apply eid_fits|constructor]].
Qed.
Lemma eready : forall F (A : Arith F) fuel, (1 <= fuel)%nat -> rhs_ready (@emgr F A) emesh efields [eq_; er] eq_ er egas 5 fuel.
Proof.
  intros F A fuel Hf. split; [apply mgr_holds_iff; auto using efields_ok|]. split; [apply efields_ok|].
  split. { intros a b [<-|[<-|[<-|[<-|[]]]]] [<-|[<-|[<-|[<-|[]]]]]; vm_compute; intros H; congruence. }
  split; [apply incl_refl|]. split; [apply eid_fits|]. split; [exact Hf|]. repeat split; try reflexivity; try discriminate; cbn; lia.
Qed.

(** ** C38, C40: every access in bounds, whatever the schedule *)

(** The loops of solve_HLL_mp on a chunk with any contents and any right-hand
    side: run in order they end normally, and every interleaving of their
    iterations ends, never leaves the arrays, never races and gives the same
    memory.  Grids of up to four dimensions. *)
Theorem C38_euler : forall F (A : Arith F) gamma (gr : grid F) (e : echunk F) M P u,
  let D := P ++ [(0, 5)] in let b := grow 2 M ++ D in let arr (u : field F) := map u (cells b) in
  shape M D 2 -> chunk_holds e M D 2 u -> observes (gr_range gr) M -> (List.length M <= 4)%nat -> (List.length M <= List.length (gr_dxs gr))%nat ->
  exists ls, euler_mp_loops gamma gr e = Ok ls /\ List.length ls = List.length M /\
    forall r, exists v, loops_run ls [arr u; arr r] = Ok [arr u; arr v] /\ loops_safe ls [arr u; arr r] [arr u; arr v].
Proof.
  intros F A gamma gr e M P u D b arr Sh He Hr H4 Hd. unfold euler_mp_loops. rewrite (observed_nd _ _ Hr).
  destruct (mp_chunk M P 5 (euler_flux gamma) gr (List.length M) Sh ltac:(lia) ltac:(lia) Hd
    ltac:(intros; apply euler_total; lia) e u He) as (ls & E & H).
  exists ls. split; [exact E|]. split.
  { rewrite dims_upto_seq in E. clear - E. assert (Q : forall f (l : list Z) (ls : list (list (thr F))), loops_of f l = Ok ls -> List.length ls = List.length l).
    { intros f. induction l as [|d l IH]; intros ls0 E0; cbn in E0; [now inversion E0|].
      destruct (f d); try discriminate. cbn in E0. destruct (loops_of f l) eqn:E1; try discriminate. inversion E0. cbn. now rewrite (IH a0). }
    apply Q in E. now rewrite map_length, seq_length in E. }
  intros r. destruct (H r) as (v & V1 & V2 & _). exists v. auto.
Qed.
Print Assumptions C38_euler.

(** Called through the solver interface, the solver finishes. *)
Theorem C40_solve : forall F (A : Arith F) gamma (m : mgr F) M L ks q r u fuel dt,
  rhs_ready m M L ks q r u 5 fuel -> (List.length M <= 4)%nat -> mg_dt m = Some dt ->
  exists m' L', euler_solve fuel gamma [q] [r] m = Done m' /\ mgr_holds m' M L' /\ fields_ok M L' /\ same_run m m' /\
    forall k, id_name k <> id_name r -> field_get L' k = field_get L k.
Proof.
  intros F A gamma m M L ks q r u fuel dt HR H4 Hdt.
  destruct (api_euler gamma m M L ks q r u fuel dt HR H4 Hdt) as (m' & L' & E & _ & HA). destruct HA as (H1 & H2 & H3 & _ & H5 & _).
  exists m', L'. auto.
Qed.
Print Assumptions C40_solve.

(** On grids of five dimensions or more the sweep along the fifth dimension
    reads past the end of the state. *)
Theorem C40_five_dimensions_refuted : forall F (A : Arith F) gamma (gr : grid F) (e : echunk F) M P u r,
  let D := P ++ [(0, 5)] in let b := grow 2 M ++ D in let arr (u : field F) := map u (cells b) in
  shape M D 2 -> chunk_holds e M D 2 u -> observes (gr_range gr) M -> (5 <= List.length M)%nat -> (List.length M <= List.length (gr_dxs gr))%nat ->
  exists ls, euler_mp_loops gamma gr e = Ok ls /\ loops_run ls [arr u; arr r] = UB OutOfBounds.
Proof.
  intros F A gamma gr e M P u r D b arr Sh He Hr H5 Hd. unfold euler_mp_loops. rewrite (observed_nd _ _ Hr). rewrite dims_upto_seq.
  apply chunk_holds_iff in He; auto. subst e.
  replace (List.length M) with (4 + Datatypes.S (List.length M - 5))%nat by lia. rewrite seq_app, map_app. cbn [seq map Nat.add].
  destruct (gather_loops M P 5 Sh ltac:(lia) (euler_flux gamma) (flux_of (euler_flux gamma)) gr u (spacing gr) (seq 0 4)) as (l4 & E4 & H4).
  { apply dims_ok_seq; try lia. intros. now apply euler_total. }
  destruct (gather_bad M P 5 Sh ltac:(lia) (euler_flux gamma) gr u 4 (spacing gr 4)) as (l & E & HB); [lia|apply grid_dx_spacing; lia|].
  assert (Rest : forall ds, Forall (fun d => (d < List.length M)%nat) ds ->
    exists ls, loops_of (gather_sweep 5 (euler_flux gamma) gr (echunk_of M D 2 u)) (map Z.of_nat ds) = Ok ls).
  { induction 1 as [|d ds Hd' _ [ls IH]]; [eexists; reflexivity|]. cbn [map loops_of].
    destruct (gather_bad M P 5 Sh ltac:(lia) (euler_flux gamma) gr u d (spacing gr d)) as (x & Ex & _); [lia|apply grid_dx_spacing; lia|].
    change (P ++ [(0, Z.of_nat 5)]) with D in Ex. rewrite Ex. cbn [bind]. rewrite IH. eexists. reflexivity. }
  destruct (Rest (seq 5 (List.length M - 5))) as (rest & ER).
  { apply Forall_forall. intros d Hd'. apply in_seq in Hd'. lia. }
  assert (App : forall f (a c : list Z) (x y : list (list (thr F))), loops_of f a = Ok x -> loops_of f c = Ok y -> loops_of f (a ++ c) = Ok (x ++ y)).
  { intros f. induction a as [|d a IH]; intros c x y Ea Ec; [inversion Ea; exact Ec|]. cbn [app loops_of] in *. destruct (f d); try discriminate. cbn [bind] in *.
    destruct (loops_of f a) eqn:E1; try discriminate. inversion Ea. rewrite (IH c a1 y); auto. }
  exists (l4 ++ l :: rest). split.
  { apply (App _ (map Z.of_nat (seq 0 4)) (map Z.of_nat (4%nat :: seq 5 (List.length M - 5)))); [exact E4|]. cbn [map loops_of].
    change (P ++ [(0, Z.of_nat 5)]) with D in E. rewrite E. cbn [bind]. change (Z.of_nat 4) with 4 in *. rewrite ER. reflexivity. }
  destruct (H4 r) as (v & V & _).
  assert (Run : forall (a c : list (list (thr F))) m, loops_run (a ++ c) m = (m' <- loops_run a m ;; loops_run c m')).
  { induction a as [|d a IH]; intros c m; [reflexivity|]. cbn [app loops_run]. destruct (seq_run d m); cbn [bind]; auto. }
  rewrite Run. change (arr u) with (KernelFacts.arr (grow 2 M ++ P ++ [(0, Z.of_nat 5)]) u). change (arr r) with (KernelFacts.arr (grow 2 M ++ P ++ [(0, Z.of_nat 5)]) r).
  rewrite V. cbn [bind loops_run]. rewrite (HB v OutOfBounds); [reflexivity|].
  intros a c Ha Hc. do 5 (destruct a as [|? a]; [discriminate Ha|]). destruct a; [|discriminate Ha]. reflexivity.
Qed.
Print Assumptions C40_five_dimensions_refuted.

(** Three cells of gas, the middle one hotter: the right-hand side of the
    momentum in the three cells, in doubles.  Not quite opposite in cells 0
    and 2, because the limiter adds its tolerance without regard to sign. *)
Example C40_ex : exists m', euler_solve 99 (dbl 2) [eq_] [er] emgr = Done m' /\
  match map_find (mg_vars m') er with
  | Ok (Some n) => match get_chunk m' n (ix_one emesh) with Ok e => map (fun i => nth i (if_data (ec_if e)) f0) [11; 16; 21]%nat | _ => [] end
  | _ => []
  end = [S754_finite true 7461808180622696 (-54); S754_finite false 6992893952655360 (-95); S754_finite false 7461808180619516 (-54)].
Proof. eexists. split; vm_compute; reflexivity. Qed.

(** ** C41: balance of mass, momentum and energy *)

(** In exact arithmetic, over every box [B] of interior cells - a row, a cell,
    the whole mesh - what the solver adds to component [j] of the right-hand
    side is what comes in through the lower walls of [B] minus what goes out
    through its upper walls, divided by the cell width. *)
Theorem C41_balance : forall gamma (m : mgr R) M L ks q r u fuel dt B j,
  rhs_ready m M L ks q r u 5 fuel -> (List.length M <= 4)%nat -> mg_dt m = Some dt ->
  box_incl B (M ++ [(0, bs_points (id_basis r))]) -> nonempty B -> 0 <= j < 5 ->
  exists m' L' v, euler_solve fuel gamma [q] [r] m = Done m' /\ mgr_holds m' M L' /\ field_get L' r = Some v /\
    balanced B (wall 5 (flux_of (euler_flux gamma)) u) (spacing (mg_grid m)) (seq 0 (List.length M)) (field_or_zero L r) v j.
Proof.
  intros gamma m M L ks q r u fuel dt B j HR H4 Hdt HB HN Hj.
  destruct (api_euler gamma m M L ks q r u fuel dt HR H4 Hdt) as (m' & L' & E & _ & HA). destruct HA as (H1 & _ & _ & _ & _ & v & Hv & HF).
  exists m', L', v. split; [exact E|]. split; [exact H1|]. split; [exact Hv|].
  assert (Ln : List.length (id_comps r) = 5%nat) by apply (ready_parts _ _ _ _ _ _ _ _ _ HR). rewrite Ln in HF.
  apply (box_balanced _ _ _ _ _ _ _ _ B j HF); auto.
  apply Forall_forall. intros d Hd. apply in_seq in Hd. assert (LB : List.length B = List.length (M ++ [(0, bs_points (id_basis r))])) by (now apply Forall2_length in HB).
  rewrite LB, app_length. lia.
Qed.
Print Assumptions C41_balance.

(** After periodic boundary conditions in every dimension, nothing is added in
    total: mass, momentum and energy are conserved. *)
Theorem C41_periodic : forall gamma (m : mgr R) M L ks q r u fuel dt j,
  rhs_ready m M L ks q r u 5 fuel -> (List.length M <= 4)%nat -> mg_dt m = Some dt -> 0 <= j < 5 ->
  bc_ready Periodic M fuel (seq 0 (List.length M)) [q] ->
  exists m1 m' L' v, bc_solve Periodic fuel (map Z.of_nat (seq 0 (List.length M))) [q] m = Done m1 /\
    euler_solve fuel gamma [q] [r] m1 = Done m' /\ mgr_holds m' M L' /\ field_get L' r = Some v /\
    total (M ++ [(0, bs_points (id_basis r))]) (fun x => (v (x ++ [j])%list - field_or_zero L r (x ++ [j])%list)%R) = 0%R.
Proof.
  intros gamma m M L ks q r u fuel dt j HR H4 Hdt Hj HB.
  destruct (ready_after_bc Periodic m M L ks q r u 5 fuel _ HR HB) as (m1 & L1 & u1 & E1 & HR1 & Hs & HG & _ & HO).
  assert (Hdt1 : mg_dt m1 = Some dt) by (destruct Hs as (_ & E & _); congruence).
  destruct (api_euler gamma m1 M L1 ks q r u1 fuel dt HR1 H4 Hdt1) as (m' & L' & E & _ & HA).
  destruct (total_after_periodic m m' M L1 L' ks q r u 5 fuel _ _ _ u1 L1 m1 j HR1 (proj1 HB) HG HA ltac:(lia)) as (v & Hv & HT).
  exists m1, m', L', v. split; [exact E1|]. split; [exact E|]. split; [apply HA|]. split; [exact Hv|].
  unfold field_or_zero in *. rewrite HO in HT; [exact HT|]. apply not_eq_sym, HR.
Qed.
Print Assumptions C41_periodic.

Lemma edt : forall F (A : Arith F), mg_dt (@emgr F A) = Some f1.
Proof. reflexivity. Qed.
Lemma ebc : bc_ready Periodic emesh 99 (seq 0 (List.length emesh)) [eq_].
Proof.
  split.
  - intros d [<-|[]]. split; vm_compute; [|intros]; try lia. discriminate.
  - constructor; [|constructor]. split; [apply eid_fits|]. split; [exact I|]. vm_compute. discriminate.
Qed.
(** The three cells of gas with the hot one in the middle, put through the
    periodic boundary condition: the energy added sums to zero. *)
Example C41_ex : exists m1 m' L' v, bc_solve Periodic 99 [0] [eq_] (@emgr R RArith) = Done m1 /\
    euler_solve 99 2%R [eq_] [er] m1 = Done m' /\ mgr_holds m' emesh L' /\ field_get L' er = Some v /\
    (v [0%Z; 0%Z; 4%Z] + v [1%Z; 0%Z; 4%Z] + v [2%Z; 0%Z; 4%Z] = 0)%R.
Proof.
  destruct (C41_periodic 2%R emgr emesh efields [eq_; er] eq_ er egas 99 f1 4 (eready R RArith 99 ltac:(lia)) ltac:(cbn; lia) (edt R RArith) ltac:(lia) ebc)
    as (m1 & m' & L' & v & E1 & E2 & E3 & E4 & E5).
  exists m1, m', L', v. split; [exact E1|]. split; [exact E2|]. split; [exact E3|]. split; [exact E4|].
  unfold total in E5. change (cells (emesh ++ [(0, bs_points (id_basis er))])) with [[0; 0]; [1; 0]; [2; 0]] in E5.
  cbn in E5. unfold f0 in E5. cbn in E5. lra.
Qed.

(** ** C42: uniform states *)

(** A cell whose stencil holds one state along every dimension receives
    nothing. *)
Theorem C42_uniform : forall gamma (m : mgr R) M L ks q r u fuel dt,
  rhs_ready m M L ks q r u 5 fuel -> (List.length M <= 4)%nat -> mg_dt m = Some dt ->
  exists m' L' v, euler_solve fuel gamma [q] [r] m = Done m' /\ mgr_holds m' M L' /\ field_get L' r = Some v /\
    forall x j, in_box (M ++ [(0, bs_points (id_basis r))]) x -> 0 <= j < 5 ->
      (forall d t i, (d < List.length M)%nat -> -2 <= t <= 2 -> 0 <= i < 5 -> u (move d t x ++ [i]) = u (x ++ [i])) ->
      v (x ++ [j]) = field_or_zero L r (x ++ [j]).
Proof.
  intros gamma m M L ks q r u fuel dt HR H4 Hdt.
  destruct (api_euler gamma m M L ks q r u fuel dt HR H4 Hdt) as (m' & L' & E & _ & HA). destruct HA as (H1 & _ & _ & _ & _ & v & Hv & HF).
  exists m', L', v. split; [exact E|]. split; [exact H1|]. split; [exact Hv|]. intros x j Hx Hj HU.
  assert (Ln : List.length (id_comps r) = 5%nat) by apply (ready_parts _ _ _ _ _ _ _ _ _ HR). rewrite Ln in HF.
  apply (uniform_stencil _ _ _ _ _ _ _ _ _ _ _ HF); auto.
  - apply Forall_forall. intros d Hd. apply in_seq in Hd. apply Forall2_length in Hx. rewrite app_length in Hx. lia.
  - intros d t i Hd. apply in_seq in Hd. apply HU. lia.
Qed.
Print Assumptions C42_uniform.

(** Moving gas of density 2, momentum (3, 1, 0) and energy 9 everywhere, with a
    right-hand side already at 7: it stays at 7. *)
Definition estate (j : Z) : R := nth (Z.to_nat j) [2; 3; 1; 0; 9]%R 0%R.
Definition euni : list (vid * field R) := [(eq_, fun c => estate (nth 2 c 0)); (er, fun _ => 7%R)].
Example C42_ex : exists m' L' v, euler_solve 99 2%R [eq_] [er] (mgr_of egrid emesh euni (Some 1%R) None) = Done m' /\ mgr_holds m' emesh L' /\
  field_get L' er = Some v /\ v [1; 0; 4] = 7%R /\ v [0; 0; 0] = 7%R.
Proof.
  assert (OK : fields_ok emesh euni).
  { split; [cbn; constructor; [|constructor; [intros []|constructor]]; intros [H|[]]; discriminate|].
    constructor; [apply eid_fits|constructor; [apply eid_fits|constructor]]. }
  destruct (C42_uniform 2%R (mgr_of egrid emesh euni (Some 1%R) None) emesh euni [eq_; er] eq_ er (fun c => estate (nth 2 c 0)) 99 1%R) as (m' & L' & v & E1 & E2 & E3 & E4).
  - split; [apply mgr_holds_iff; auto|]. split; [exact OK|].
    split. { intros a b [<-|[<-|[<-|[<-|[]]]]] [<-|[<-|[<-|[<-|[]]]]]; vm_compute; intros H; congruence. }
    split; [apply incl_refl|]. split; [apply eid_fits|]. repeat split; try reflexivity; try discriminate; cbn; lia.
  - cbn. lia.
  - reflexivity.
  - exists m', L', v. split; [exact E1|]. split; [exact E2|]. split; [exact E3|].
    split; [change (v ([1; 0] ++ [4]) = 7%R)|change (v ([0; 0] ++ [0]) = 7%R)]; rewrite E4; try reflexivity; try lia;
      try (repeat (constructor; [cbn; lia|]); constructor); intros [|d] t i Hd Ht Hi; try (cbn in Hd; lia); reflexivity.
Qed.

(** ** C43: the HLL flux *)

(** Equal physical states: the flux of the Euler equations. *)
Theorem C43_consistent : forall gamma d q, admissible gamma q -> (d < 3)%nat ->
  euler_flux gamma (Z.of_nat d) q q = Ok (euler_phys gamma d q).
Proof. exact hll_consistent. Qed.
Print Assumptions C43_consistent.
Lemma euler_phys_length : forall gamma d q, List.length (euler_phys gamma d q) = 5%nat. Proof. reflexivity. Qed.
(** All waves to the right: the left flux.  All to the left: the right flux. *)
Theorem C43_left : forall gamma d l r, List.length l = 5%nat -> List.length r = 5%nat -> (d < 3)%nat ->
  (0 < left_speed gamma d l)%R -> (0 <= right_speed gamma d r)%R -> euler_flux gamma (Z.of_nat d) l r = Ok (euler_phys gamma d l).
Proof. intros. rewrite euler_flux_hll by assumption. f_equal. apply hll_left; auto. Qed.
Print Assumptions C43_left.
Theorem C43_right : forall gamma d l r, List.length l = 5%nat -> List.length r = 5%nat -> (d < 3)%nat ->
  (left_speed gamma d l <= 0)%R -> (right_speed gamma d r < 0)%R -> euler_flux gamma (Z.of_nat d) l r = Ok (euler_phys gamma d r).
Proof. intros. rewrite euler_flux_hll by assumption. f_equal. apply hll_right; auto. Qed.
Print Assumptions C43_right.
(** Waves both ways: the average. *)
Theorem C43_average : forall gamma d l r, List.length l = 5%nat -> List.length r = 5%nat -> (d < 3)%nat ->
  (left_speed gamma d l <= 0)%R -> (0 <= right_speed gamma d r)%R ->
  exists f, euler_flux gamma (Z.of_nat d) l r = Ok f /\ List.length f = 5%nat /\
    forall j, (j < 5)%nat -> nth j f 0%R = hll_average (left_speed gamma d l) (right_speed gamma d r) (euler_phys gamma d l) (euler_phys gamma d r) l r j.
Proof.
  intros. rewrite euler_flux_hll by assumption. eexists. split; [reflexivity|]. split.
  - now rewrite hll_length.
  - intros j Hj. now apply hll_mid.
Qed.
Print Assumptions C43_average.
(** With the left state supersonic to the right and the right state supersonic
    to the left, both multipliers are one and the sum of the two fluxes is used,
    which is neither flux nor the average: not exactly one case is selected. *)
Theorem C43_colliding : forall gamma d l r, List.length l = 5%nat -> List.length r = 5%nat -> (d < 3)%nat ->
  (0 < left_speed gamma d l)%R -> (right_speed gamma d r < 0)%R ->
  exists f, euler_flux gamma (Z.of_nat d) l r = Ok f /\
    forall j, (j < 5)%nat -> nth j f 0%R = (nth j (euler_phys gamma d l) 0 + nth j (euler_phys gamma d r) 0)%R.
Proof.
  intros. rewrite euler_flux_hll by assumption. eexists. split; [reflexivity|]. intros j Hj. now apply hll_both.
Qed.
Print Assumptions C43_colliding.

Definition stream (s : R) : list R := [1; s; 0; 0; 25 / 14 + s * s / 2]%R.
Lemma stream_pressure : forall s, pressure (7 / 5) (stream s) = (5 / 7)%R.
Proof. intros. unfold pressure, kinetic, energy, momentum, density, stream. cbn [nth]. field. Qed.
Lemma stream_sound : forall s, sound (7 / 5) (stream s) = 1%R.
Proof. intros. unfold sound. rewrite stream_pressure. unfold density, stream. cbn [nth]. replace (7 / 5 * (5 / 7) / 1)%R with 1%R by field. apply sqrt_1. Qed.
Lemma stream_velocity : forall s, velocity 0 (stream s) = s.
Proof. intros. unfold velocity, momentum, density, stream. cbn [nth]. field. Qed.
Theorem C43_exactly_one_refuted : exists gamma l r, admissible gamma l /\ admissible gamma r /\
  exists f, euler_flux gamma 0 l r = Ok f /\ f <> euler_phys gamma 0 l /\ f <> euler_phys gamma 0 r /\
    nth 1 f 0%R <> hll_average (left_speed gamma 0 l) (right_speed gamma 0 r) (euler_phys gamma 0 l) (euler_phys gamma 0 r) l r 1.
Proof.
  exists (7 / 5)%R, (stream 10), (stream (-10)).
  assert (Ad : forall s, admissible (7 / 5) (stream s)) by (intros; unfold admissible; rewrite stream_pressure; unfold stream, density; cbn; repeat split; lra).
  split; [apply Ad|]. split; [apply Ad|].
  assert (S1 : left_speed (7 / 5) 0 (stream 10) = 9%R) by (unfold left_speed; rewrite stream_velocity, stream_sound; ring).
  assert (S2 : right_speed (7 / 5) 0 (stream (-10)) = (-9)%R) by (unfold right_speed; rewrite stream_velocity, stream_sound; ring).
  destruct (C43_colliding (7 / 5) 0 (stream 10) (stream (-10))) as (f & E & Hf); try reflexivity; try lia; try lra.
  assert (P : forall s, nth 1 (euler_phys (7 / 5) 0 (stream s)) 0%R = (s * s + 5 / 7)%R).
  { intros. unfold euler_phys. cbn [nth Nat.eqb]. rewrite stream_pressure, stream_velocity. unfold momentum, stream. cbn [nth]. ring. }
  exists f. split; [exact E|]. specialize (Hf 1%nat ltac:(lia)). rewrite !P in Hf. split; [|split].
  - intros ->. rewrite P in Hf. lra.
  - intros ->. rewrite P in Hf. lra.
  - rewrite Hf, S1, S2. unfold hll_average. rewrite !P. unfold stream. cbn [nth]. intros H. field_simplify in H. lra.
Qed.
Print Assumptions C43_exactly_one_refuted.
(** In doubles the average is formed even when it is multiplied by zero.  If
    the two speeds are equal it is infinite or not a number, and so is the flux:
    here both states stream right faster than sound (adiabatic index 2; left
    density 1, velocity 3, sound speed 1; right density 1, velocity 1, sound
    speed 1) and the flux should be the left flux. *)
Theorem C43_upwind_double_refuted :
  euler_flux (dbl 2) 0 [dbl 1; dbl 3; dbl 0; dbl 0; dbl 5] [dbl 1; dbl 1; dbl 0; dbl 0; dbl 1] =
  Ok [S754_nan; S754_nan; S754_nan; S754_nan; S754_nan].
Proof. vm_compute. reflexivity. Qed.
Print Assumptions C43_upwind_double_refuted.

(** Both states faster than sound to the right, in doubles: the left flux (5, 25.5, 0, 0, 67.5). *)
Example C43_ex :
  euler_flux (dbl 2) 0 [dbl 1; dbl 5; dbl 0; dbl 0; dbl 13] [dbl 1; dbl 4; dbl 0; dbl 0; dbl 9] = Ok [dbl 5; fdec 255 (-1); dbl 0; dbl 0; fdec 675 (-1)].
Proof. vm_compute. reflexivity. Qed.

(** ** C44: the limited reconstruction *)

(** The model function [recon] computes the left and the right value at the wall
    between cell values [b] and [c], with [a] and [d] beyond; all statements are
    about it.  [left_value] and [right_value] only serve the proofs. *)
Lemma recon_values : forall F (A : Arith F) (a b c d : F), recon a b c d = (left_value a b c, right_value b c d).
Proof. reflexivity. Qed.

(** Increasing data: both values always between [b] and [c]. *)
Theorem C44_increasing : forall a b c d : R, (a <= b -> b <= c -> c <= d ->
  b <= fst (recon a b c d) <= c /\ b <= snd (recon a b c d) <= c)%R.
Proof. intros. rewrite recon_values. split; [now apply left_increasing|now apply right_increasing]. Qed.
Print Assumptions C44_increasing.
(** Decreasing data with slopes above the tolerance of 1e-12: likewise. *)
Theorem C44_decreasing_partial : forall a b c d : R,
  (b <= a - 3 / 1000000000000 -> c <= b -> d <= c - 3 / 1000000000000 ->
  c <= fst (recon a b c d) <= b /\ c <= snd (recon a b c d) <= b)%R.
Proof. intros. rewrite recon_values. cbn [fst snd]. split; [apply left_decreasing|apply right_decreasing]; lra. Qed.
Print Assumptions C44_decreasing_partial.
(** Any decreasing data: between them up to 2e-12. *)
Theorem C44_overshoot : forall a b c d : R, (b <= a -> c <= b -> d <= c ->
  c - 2 / 1000000000000 <= fst (recon a b c d) <= b + 2 / 1000000000000 /\
  c - 2 / 1000000000000 <= snd (recon a b c d) <= b + 2 / 1000000000000)%R.
Proof.
  intros a b c d H1 H2 H3. rewrite recon_values. cbn [fst snd].
  pose proof (left_overshoot a b c H1 H2). pose proof (right_overshoot b c d H2 H3). lra.
Qed.
Print Assumptions C44_overshoot.
(** Exactly between is false for decreasing data with tiny slopes. *)
Theorem C44_between_refuted : exists a b c d : R, (b <= a /\ c <= b /\ d <= c /\ fst (recon a b c d) < c)%R.
Proof.
  exists (15 / 10000000000000)%R, 0%R, (- 25 / 100000000000000)%R, (-1)%R. split; [lra|]. split; [lra|]. split; [lra|].
  rewrite recon_values. cbn [fst snd]. rewrite left_R, phi_R.
  match goal with |- context [((?x - 0) / ?y)%R] => replace ((x - 0) / y)%R with (/ 2)%R by field end. lra.
Qed.
Print Assumptions C44_between_refuted.
(** A flat upwind stencil is reproduced exactly. *)
Theorem C44_flat : forall a b c d : R, fst (recon b b c d) = b /\ snd (recon a b c c) = c.
Proof. intros. rewrite !recon_values. split; [apply left_flat|apply right_flat]. Qed.
Print Assumptions C44_flat.
(** Turning the data by half a turn turns the result; mirroring the data mirrors
    the result up to 6e-12, but not exactly. *)
Theorem C44_turned : forall a b c d : R,
  (recon (- d) (- c) (- b) (- a) = (- snd (recon a b c d), - fst (recon a b c d)))%R.
Proof.
  intros. rewrite !recon_values. cbn [fst snd]. f_equal; [|apply point_reflection].
  pose proof (point_reflection (- d) (- c) (- b))%R as H. rewrite !Ropp_involutive in H. rewrite H. ring.
Qed.
Print Assumptions C44_turned.
Theorem C44_mirrored_partial : forall a b c d : R,
  (Rabs (snd (recon d c b a) - fst (recon a b c d)) <= 6 / 1000000000000 /\
   Rabs (snd (recon a b c d) - fst (recon d c b a)) <= 6 / 1000000000000)%R.
Proof.
  intros. rewrite !recon_values. cbn [fst snd].
  pose proof (mirror_value a b c). pose proof (mirror_value d c b). lra.
Qed.
Print Assumptions C44_mirrored_partial.
Theorem C44_mirrored_refuted : exists a b c d : R, (a < b < c /\ c < d /\ snd (recon d c b a) <> fst (recon a b c d))%R.
Proof.
  exists 0%R, (2 / 1000000000000)%R, (4 / 1000000000000)%R, 1%R. split; [lra|]. split; [lra|].
  rewrite !recon_values. cbn [fst snd]. rewrite left_R, right_R, !phi_R.
  match goal with |- context [((?x - ?y) / (0 - ?z + ?w))%R] => replace ((x - y) / (0 - z + w))%R with 2%R by field end.
  match goal with |- context [((?x - ?y) / (?z - 0 + ?w))%R] => replace ((x - y) / (z - 0 + w))%R with (2 / 3)%R by field end. lra.
Qed.
Print Assumptions C44_mirrored_refuted.
(** In doubles a slope of exactly minus the tolerance next to a jump of zero
    gives 0 / 0. *)
Theorem C44_not_a_number_refuted : forall d,
  fst (recon (fdec 1 (-12)) (dbl 0) (dbl 0) d) = S754_nan.
Proof. intros. rewrite recon_values. vm_compute. reflexivity. Qed.
Print Assumptions C44_not_a_number_refuted.
(** Cell values 1, 2, 4: the value at the wall is above 2 and below 4. *)
Example C44_ex : (2 < fst (@recon R RArith 1 2 4 5) < 3)%R.
Proof.
  rewrite recon_values. cbn [fst]. rewrite left_R, phi_R. match goal with |- context [((4 - 2) / ?y)%R] => replace ((4 - 2) / y)%R with (2 / (1 + / 1000000000000))%R by (f_equal; ring) end.
  set (r := (2 / (1 + / 1000000000000))%R). assert (1 < r <= 2)%R.
  { unfold r. split; (apply Rmult_lt_reg_r with (1 + / 1000000000000)%R || apply Rmult_le_reg_r with (1 + / 1000000000000)%R); try lra; unfold Rdiv; rewrite Rmult_assoc, Rinv_l; lra. }
  assert (1 < (r * r + r) / (r * r + 1) < 2)%R.
  { split; (apply Rmult_lt_reg_r with (r * r + 1)%R); try nra; unfold Rdiv; rewrite Rmult_assoc, Rinv_l; nra. }
  lra.
Qed.

(** ** C45: the serial and the parallel kernel *)

Theorem C45_euler : forall F (A : Arith F) gamma (gr : grid F) (e : echunk F) M P u r,
  let D := P ++ [(0, 5)] in let b := grow 2 M ++ D in let arr (u : field F) := map u (cells b) in
  shape M D 2 -> chunk_holds e M D 2 u -> observes (gr_range gr) M -> (List.length M <= 4)%nat -> (List.length M <= List.length (gr_dxs gr))%nat ->
  exists ls ls' v v', euler_mp_loops gamma gr e = Ok ls /\ euler_fast_loops gamma gr e = Ok ls' /\
    loops_run ls [arr u; arr r] = Ok [arr u; arr v] /\ loops_run ls' [arr u; arr r] = Ok [arr u; arr v'] /\
    forall c, in_box (M ++ D) c -> v c = v' c.
Proof.
  intros F A gamma gr e M P u r D b arr Sh He Hr H4 Hd. unfold euler_mp_loops, euler_fast_loops. rewrite (observed_nd _ _ Hr).
  destruct (mp_chunk M P 5 (euler_flux gamma) gr (List.length M) Sh ltac:(lia) ltac:(lia) Hd ltac:(intros; apply euler_total; lia) e u He) as (ls & E & H).
  destruct (fast_chunk M P 5 (euler_flux gamma) gr (List.length M) Sh ltac:(lia) ltac:(lia) Hd ltac:(intros; apply euler_total; lia) e u He) as (ls' & E' & H').
  destruct (H r) as (v & V1 & _ & V2). destruct (H' r) as (v' & V1' & V2').
  exists ls, ls', v, v'. split; [exact E|]. split; [exact E'|]. split; [exact V1|]. split; [exact V1'|].
  intros c Hc. unfold D in Hc. rewrite app_assoc in Hc. apply Forall2_app_inv_l in Hc as (x & y & Hx & Hy & ->).
  inversion Hy as [|? ? ? ? Hj Hy']; subst. inversion Hy'; subst. rewrite V2, V2'; auto.
Qed.
Print Assumptions C45_euler.
(** The hot cell in doubles: the interiors of the two results are the same 15
    numbers, not all zero. *)
Example C45_ex :
  let e := echunk_of emesh (comp_box eq_) 2 egas in
  match euler_mp_loops (dbl 2) egrid e, euler_fast_loops (dbl 2) egrid e with
  | Ok ls, Ok ls' => match loops_run ls [if_data (ec_if e); repeat (dbl 0) 35], loops_run ls' [if_data (ec_if e); repeat (dbl 0) 35] with
                     | Ok [_; v], Ok [_; v'] => firstn 15 (skipn 10 v) = firstn 15 (skipn 10 v') /\ nth 11 v (dbl 0) <> dbl 0
                     | _, _ => False
                     end
  | _, _ => False
  end.
Proof. vm_compute. split; [reflexivity|discriminate]. Qed.
