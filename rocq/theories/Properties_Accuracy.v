(** * The accuracy for smooth data (C81). *)
From Coq Require Import ZArith List String Lia Bool Reals Lra.
From Verif Require Import Base BaseFacts BoxSpec BoxFacts Range RangeSpec RangeFacts Indexer Interface
  ApiSpec ApiFacts Arith ArithFloat ArithR Chunk FieldSpec FieldFacts ChunkFacts Properties_Chunk VarId Manager MgrSpec MgrFacts
  BC BCSpec Sweep SweepSpec SweepFacts Euler Maxwell EulerSpec NumFacts PhysicsFacts FluxFacts Programs ProgramsSpec Properties_Programs Initial InitialSpec InitialFacts Properties_Initial
  Whole Properties_Whole Main Properties_Main Properties_Maxwell Properties_Euler AccuracySpec AccuracyFacts AccuracyGas.
Import ListNotations.
Open Scope Z_scope.

(** ** C81: the values at a wall *)

(** Whatever the data: half a slope beyond the cell, up to half the change of the
    slope and 1.2e-12. *)
Theorem C81_wall : forall a b c d : R,
  (Rabs (fst (recon a b c d) - (b + (b - a) / 2)) <= / 2 * Rabs (c - 2 * b + a) + 12 / 10000000000000 /\
   Rabs (snd (recon a b c d) - (c + (c - d) / 2)) <= / 2 * Rabs (d - 2 * c + b) + 12 / 10000000000000)%R.
Proof.
  intros a b c d. rewrite recon_values. cbn [fst snd]. pose proof (left_accuracy a b c) as B1. pose proof (right_accuracy b c d) as B2.
  replace (c - b - (b - a))%R with (c - 2 * b + a)%R in B1 by ring. replace (d - c - (c - b))%R with (d - 2 * c + b)%R in B2 by ring. lra.
Qed.
Print Assumptions C81_wall.
(** A straight line: up to 1.2e-12 the values of the line at the wall. *)
Example C81_wall_ex : forall s : R, (Rabs (fst (recon (1 - s) 1 (1 + s) (1 + 2 * s)) - (1 + s / 2)) <= 12 / 10000000000000)%R.
Proof.
  intros s. destruct (C81_wall (1 - s) 1 (1 + s) (1 + 2 * s)) as [B _]. replace (1 + s - 2 * 1 + (1 - s))%R with 0%R in B by ring. rewrite Rabs_R0 in B.
  replace (1 + (1 - (1 - s)) / 2)%R with (1 + s / 2)%R in B by field. lra.
Qed.

(** Values of a smooth function at the centers of cells of width [h]: both values at
    a wall are the value of the function there, up to 7/4 K h^2 + 1.2e-12. *)
Theorem C81_smooth : forall f f1 K x h, (0 < h)%R -> smooth f f1 K (x - 2 * h) (x + 2 * h) ->
  let w := recon (f (x - 3 / 2 * h)%R) (f (x - h / 2)%R) (f (x + h / 2)%R) (f (x + 3 / 2 * h)%R) in
  (Rabs (fst w - f x) <= 7 / 4 * K * h * h + 12 / 10000000000000 /\ Rabs (snd w - f x) <= 7 / 4 * K * h * h + 12 / 10000000000000)%R.
Proof.
  intros f f1 K x h Hh HS w. unfold w. rewrite recon_values. cbn [fst snd]. pose proof (smooth_left f f1 K x h Hh HS). pose proof (smooth_right f f1 K x h Hh HS). lra.
Qed.
Print Assumptions C81_smooth.

Lemma cos_lip : forall y z, (Rabs (cos y - cos z) <= Rabs (y - z))%R.
Proof.
  assert (H : forall y z, (y < z)%R -> (Rabs (cos y - cos z) <= Rabs (y - z))%R).
  { intros y z Hyz. destruct (MVT_cor2 cos (fun t => - sin t)%R y z Hyz) as (t & E & _); [intros; apply derivable_pt_lim_cos|].
    replace (cos y - cos z)%R with (sin t * (z - y))%R by lra. rewrite Rabs_mult, (Rabs_minus_sym y z).
    rewrite <- (Rmult_1_l (Rabs (z - y))) at 2. apply Rmult_le_compat_r; [apply Rabs_pos|]. apply Rabs_le_iff. pose proof (SIN_bound t). lra. }
  intros y z. destruct (Rtotal_order y z) as [L | [-> | L]]; [now apply H|rewrite !Rminus_eq_0; lra|]. rewrite (Rabs_minus_sym (cos y)), (Rabs_minus_sym y). now apply H.
Qed.
Lemma sin_smooth : forall a b, smooth sin cos 1 a b.
Proof. intros a b. split; [intros; apply derivable_pt_lim_sin|]. intros y z _ _. pose proof (cos_lip y z). lra. Qed.
(** A sine with a hundred cells per unit, at its maximum too. *)
Example C81_smooth_ex : forall x, let h := (/ 100)%R in
  (Rabs (fst (recon (sin (x - 3 / 2 * h)) (sin (x - h / 2)) (sin (x + h / 2)) (sin (x + 3 / 2 * h))) - sin x) <= / 5000)%R.
Proof. intros x h. destruct (C81_smooth sin cos 1 x h) as [B _]; [unfold h; lra|apply sin_smooth|]. unfold h in *. lra. Qed.

(** ** C81: Maxwell's equations *)

(** Fields that are smooth along the lines through a cell: what the solver adds there
    is the rate of change of Maxwell's equations, up to a constant times K dx +
    1e-12/dx.  [g d i] is component [i] along the line through the center of the cell
    in direction [d], [g1 d i] its derivative. *)
Theorem C81_maxwell : forall c (m : mgr R) M L ks q r u fuel,
  rhs_ready m M L ks q r u 6 fuel -> let dx := spacing (mg_grid m) in let ds := seq 0 (Nat.min 3 (List.length M)) in
  exists m' L' v, maxwell_solve fuel c [q] [r] m = Done m' /\ mgr_holds m' M L' /\ field_get L' r = Some v /\
    forall x j (g g1 : nat -> nat -> R -> R) K, in_box (M ++ [(0, bs_points (id_basis r))]) x -> (j < 6)%nat ->
      (forall d i, In d ds -> (i < 6)%nat -> (0 < dx d)%R /\ smooth (g d i) (g1 d i) K (- (5 / 2 * dx d)) (5 / 2 * dx d) /\
        forall t, -2 <= t <= 2 -> u (move d t x ++ [Z.of_nat i]) = g d i (IZR t * dx d)%R) ->
      let rate := vacuum_rate c (fun d i => if (d <? List.length M)%nat then g1 d i 0%R else 0%R) j in
      (Rabs (v (x ++ [Z.of_nat j]) - (field_or_zero L r (x ++ [Z.of_nat j]) + rate)) <=
       sum_over ds (fun d => (1 + Rabs c + c * c) * (4 * K * dx d + 24 / 10000000000000 / dx d)))%R.
Proof.
  intros c m M L ks q r u fuel HR dx ds.
  destruct (api_maxwell c m M L ks q r u fuel HR) as (m' & L' & E & _ & HA). destruct HA as (H1 & _ & _ & _ & _ & v & Hv & HF).
  exists m', L', v. split; [exact E|]. split; [exact H1|]. split; [exact Hv|]. intros x j g g1 K Hx Hj HS rate.
  assert (Ln : List.length (id_comps r) = 6%nat) by apply (ready_parts _ _ _ _ _ _ _ _ _ HR). rewrite Ln in HF.
  rewrite HF by (auto; lia). rewrite fluxes_sum. fold dx. fold ds.
  set (W := wall 6 (flux_of (maxwell_flux c)) u). set (z := field_or_zero L r (x ++ [Z.of_nat j])).
  assert (ER : rate = sum_over ds (fun d => - nth j (curl_flux c d (map (fun i => g1 d (Z.to_nat i) 0%R) (zrange 0 6))) 0)%R).
  { unfold rate, ds, sum_over, vacuum_rate, curl. change (zrange 0 6) with [0; 1; 2; 3; 4; 5]. cbn [map]. change (Z.to_nat 0) with 0%nat. change (Z.to_nat 1) with 1%nat. change (Z.to_nat 2) with 2%nat.
    change (Z.to_nat 3) with 3%nat. change (Z.to_nat 4) with 4%nat. change (Z.to_nat 5) with 5%nat.
    destruct (List.length M) as [|[|[|k]]]; cbn [Nat.min seq map fold_right Nat.ltb Nat.leb];
      do 6 (destruct j as [|j]; [cbn [nth curl_flux sign3 Nat.ltb Nat.leb Nat.sub Nat.add]; unfold curl_E, curl_B, levi; cbn [nth INR]; field|]); lia. }
  assert (Lx : List.length x = S (List.length M)) by (apply Forall2_length in Hx; rewrite app_length in Hx; cbn in Hx; lia).
  assert (B : forall l, incl l ds -> (Rabs (sum_over l (fun d => (W d x (Z.of_nat j) - W d (move d 1 x) (Z.of_nat j)) / dx d) - sum_over l (fun d => - nth j (curl_flux c d (map (fun i => g1 d (Z.to_nat i) 0%R) (zrange 0 6))) 0))
     <= sum_over l (fun d => (1 + Rabs c + c * c) * (4 * K * dx d + 24 / 10000000000000 / dx d)))%R).
  { induction l as [|d l IH]; intros Hi; unfold sum_over; cbn [map fold_right]; [rewrite Rminus_0_r, Rabs_R0; lra|].
    specialize (IH (fun a Ha => Hi a (or_intror Ha))). unfold sum_over in IH. assert (Hd : In d ds) by (apply Hi; now left). assert (Hd' := Hd). unfold ds in Hd'. apply in_seq in Hd'.
    destruct (HS d 0%nat Hd ltac:(lia)) as (P0 & _).
    pose proof (maxwell_net c u d x j (dx d) (fun i => g d (Z.to_nat i)) (fun i => g1 d (Z.to_nat i)) K ltac:(lia) ltac:(lia) Hj P0) as B0.
    assert (B1 := B0 ltac:(intros i Hi'; destruct (HS d (Z.to_nat i) Hd ltac:(lia)) as (_ & S & T); rewrite Z2Nat.id in T by lia; split; [exact S|exact T])). clear B0. fold W in B1.
    replace (12 / 5 * / 1000000000000 / dx d)%R with (24 / 10000000000000 / dx d)%R in B1 by (field; lra).
    apply Rabs_le_iff in IH, B1. apply Rabs_le_iff. lra. }
  specialize (B ds (incl_refl _)). rewrite ER. replace (fun (x : list Z) (j : Z) => field_or_zero L r (x ++ [j])) with (fun (x : list Z) (j : Z) => field_or_zero L r (x ++ [j])%list) by reflexivity.
  match goal with |- (Rabs (?a + ?s - (z + ?t)) <= _)%R => replace (a + s - (z + t))%R with (s - t)%R by (unfold z; ring) end. exact B.
Qed.
Print Assumptions C81_maxwell.

(** A wave E_y = B_z = sin x with c = 1 on a line of a hundred cells of width 1/100:
    what is added to E_y is - cos x up to 0.121. *)
Definition fine : box := [(0, 100)].
Definition fine_grid : grid R := mkGrid (range_of fine) [0%R] [1%R] [(/ 100)%R].
Definition sine : field R := fun p => match p with [i; _; j] => if (j =? 1) || (j =? 5) then sin (IZR i / 100) else 0%R | _ => 0%R end.
Example C81_maxwell_ex : let m := mgr_of fine_grid fine [(xq, sine); (xr, fun _ => 0%R)] (Some 1%R) None in
  exists m' L' v, maxwell_solve 99 1%R [xq] [xr] m = Done m' /\ mgr_holds m' fine L' /\ field_get L' xr = Some v /\
    forall i, 0 <= i < 100 -> (Rabs (v [i; 0; 1]%Z - - cos (IZR i / 100)) <= 121 / 1000)%R.
Proof.
  intros m. assert (XF : forall s, id_fits fine (xid s)) by (intros; apply shapeb_ok; vm_compute; reflexivity).
  assert (OK : fields_ok fine [(xq, sine); (xr, fun _ => 0%R)]).
  { split.
    - cbn. constructor; [|constructor; [intros []|constructor]]. intros [H|[]]. discriminate.
    - constructor; [apply XF|constructor; [apply XF|constructor]]. }
  assert (RD : rhs_ready m fine [(xq, sine); (xr, fun _ => 0%R)] [xq; xr] xq xr sine 6 99).
  { split; [apply mgr_holds_iff; auto|]. split; [exact OK|].
    split. { intros a b [<-|[<-|[<-|[<-|[]]]]] [<-|[<-|[<-|[<-|[]]]]]; vm_compute; intros H; congruence. }
    split; [apply incl_refl|]. split; [apply XF|]. split; [lia|]. repeat split; try reflexivity; try discriminate; cbn; lia. }
  destruct (C81_maxwell 1%R m fine _ _ xq xr sine 99 RD) as (m' & L' & v & E & HM & Hv & HB). exists m', L', v. split; [exact E|]. split; [exact HM|]. split; [exact Hv|]. intros i Hi.
  pose (on := fun k => orb (Nat.eqb k 1) (Nat.eqb k 5)).
  specialize (HB [i; 0] 1%nat (fun _ k y => if on k then sin (y + IZR i / 100)%R else 0%R) (fun _ k y => if on k then cos (y + IZR i / 100)%R else 0%R) 1%R). cbn zeta in HB.
  assert (S0 : spacing (mg_grid m) 0 = (/ 100)%R) by reflexivity.
  assert (A1 : in_box (fine ++ [(0, bs_points (id_basis xr))]) [i; 0]) by (repeat (constructor; [cbn; lia|]); constructor).
  specialize (HB A1 ltac:(lia)).
  assert (A2 : forall d k, In d (seq 0 (Nat.min 3 (List.length fine))) -> (k < 6)%nat -> (0 < spacing (mg_grid m) d)%R /\
    smooth (fun y => if on k then sin (y + IZR i / 100)%R else 0%R) (fun y => if on k then cos (y + IZR i / 100)%R else 0%R) 1 (- (5 / 2 * spacing (mg_grid m) d)) (5 / 2 * spacing (mg_grid m) d) /\
    forall t, -2 <= t <= 2 -> sine (move d t [i; 0] ++ [Z.of_nat k]) = if on k then sin (IZR t * spacing (mg_grid m) d + IZR i / 100) else 0%R).
  { intros d k [<-|[]] Hk. rewrite S0. split; [lra|]. split.
    - destruct (on k); split.
      + intros y _. assert (D := derivable_pt_lim_comp (fun y => y + IZR i / 100)%R sin y 1 (cos (y + IZR i / 100))). rewrite Rmult_1_r in D. apply D; [|apply derivable_pt_lim_sin].
        replace 1%R with (1 + 0)%R by ring. apply (derivable_pt_lim_plus id (fct_cte (IZR i / 100))); [apply derivable_pt_lim_id|apply derivable_pt_lim_const].
      + intros y z _ _. pose proof (cos_lip (y + IZR i / 100) (z + IZR i / 100)) as B. replace (y + IZR i / 100 - (z + IZR i / 100))%R with (y - z)%R in B by ring. lra.
      + intros y _. apply (derivable_pt_lim_const 0%R).
      + intros y z _ _. rewrite Rminus_0_r, Rabs_R0. pose proof (Rabs_pos (y - z)). lra.
    - intros t Ht. unfold sine, move. cbn [upd nth app]. unfold on. replace ((Z.of_nat k =? 1) || (Z.of_nat k =? 5)) with (orb (Nat.eqb k 1) (Nat.eqb k 5)) by (do 6 (destruct k as [|k]; [reflexivity|]); lia).
      destruct (orb _ _); [|reflexivity]. f_equal. rewrite plus_IZR. field. }
  specialize (HB A2). cbn [app Z.of_nat Pos.of_succ_nat] in HB. unfold field_or_zero in HB. cbn [field_get] in HB.
  replace (vacuum_rate _ _ 1) with (- cos (IZR i / 100))%R in HB.
  2:{ unfold vacuum_rate, curl, on, sign3. cbn [Nat.ltb Nat.leb List.length fine map fold_right Nat.eqb orb Nat.add]. rewrite Rplus_0_l. ring. }
  unfold sum_over in HB. cbn [Nat.min List.length fine seq map fold_right] in HB. rewrite S0 in HB. rewrite Rabs_R1 in HB.
  change (@field_get R [(xq, sine); (xr, fun _ => 0%R)] xr) with (Some (fun _ : list Z => 0%R)) in HB. cbv beta iota in HB. rewrite Rplus_0_l in HB.
  eapply Rle_trans; [exact HB|]. lra.
Qed.

(** ** C81: the equations of gas dynamics *)

(** Gases that are smooth along the lines through a cell, with density and pressure of
    at least 1/K there and everything else at most K: what the solver adds is minus the
    divergence of the fluxes of mass, momentum and energy, up to a constant times
    dx + 1e-12/dx; the constant depends on gamma and K only.  [f1 d] is the derivative
    of the flux of component [j] along dimension [d]. *)
Theorem C81_euler : forall gamma K, (1 <= gamma)%R -> (1 <= K)%R -> exists C, forall (m : mgr R) M L ks q r u fuel dt,
  rhs_ready m M L ks q r u 5 fuel -> (List.length M <= 3)%nat -> mg_dt m = Some dt -> let dx := spacing (mg_grid m) in let ds := seq 0 (List.length M) in
  exists m' L' v, euler_solve fuel gamma [q] [r] m = Done m' /\ mgr_holds m' M L' /\ field_get L' r = Some v /\
    forall x j (g g1 : nat -> nat -> R -> R) f1, in_box (M ++ [(0, bs_points (id_basis r))]) x -> (j < 5)%nat ->
      (forall d, In d ds -> let h := dx d in let line y := map (fun i => g d i y) (seq 0 5) in
        (0 < h /\ 40 * gamma * K ^ 5 * (7 / 4 * K * h * h + 12 / 10000000000000) <= 1)%R /\
        (forall i, (i < 5)%nat -> tame (g d i) (g1 d i) K (- (5 / 2 * h)) (5 / 2 * h) /\ forall t, -2 <= t <= 2 -> u (move d t x ++ [Z.of_nat i]) = g d i (IZR t * h)%R) /\
        (forall y, (- (5 / 2 * h) <= y <= 5 / 2 * h)%R -> (/ K <= density (line y) /\ / K <= pressure gamma (line y))%R) /\
        derivable_pt_lim (fun y => nth j (euler_phys gamma d (line y)) 0%R) 0 (f1 d)) ->
      (Rabs (v (x ++ [Z.of_nat j]) - (field_or_zero L r (x ++ [Z.of_nat j]) - sum_over ds f1)) <= C * sum_over ds (fun d => dx d + / 1000000000000 / dx d))%R.
Proof.
  intros gamma K Hg HK. exists (gas_const gamma K). intros m M L ks q r u fuel dt HR H3 Hdt dx ds.
  destruct (api_euler gamma m M L ks q r u fuel dt HR ltac:(lia) Hdt) as (m' & L' & E & _ & HA). destruct HA as (H1 & _ & _ & _ & _ & v & Hv & HF).
  exists m', L', v. split; [exact E|]. split; [exact H1|]. split; [exact Hv|]. intros x j g g1 f1 Hx Hj HS.
  assert (Ln : List.length (id_comps r) = 5%nat) by apply (ready_parts _ _ _ _ _ _ _ _ _ HR). rewrite Ln in HF.
  rewrite HF by (auto; lia). rewrite fluxes_sum. fold dx. fold ds.
  set (W := wall 5 (flux_of (euler_flux gamma)) u). set (z := field_or_zero L r (x ++ [Z.of_nat j])).
  assert (Lx : List.length x = S (List.length M)) by (apply Forall2_length in Hx; rewrite app_length in Hx; cbn in Hx; lia).
  assert (B : forall l, incl l ds -> (Rabs (sum_over l (fun d => (W d x (Z.of_nat j) - W d (move d 1 x) (Z.of_nat j)) / dx d) + sum_over l f1)
     <= gas_const gamma K * sum_over l (fun d => dx d + / 1000000000000 / dx d))%R).
  { induction l as [|d l IH]; intros Hi; unfold sum_over; cbn [map fold_right]; [rewrite Rplus_0_r, Rabs_R0; lra|].
    specialize (IH (fun a Ha => Hi a (or_intror Ha))). unfold sum_over in IH. assert (Hd : In d ds) by (apply Hi; now left). assert (Hd' := Hd). unfold ds in Hd'. apply in_seq in Hd'.
    destruct (HS d Hd) as ((P0 & P1) & T & P & D).
    assert (B1 := gas_net gamma K u d x j (dx d) (fun i => g d (Z.to_nat i)) (fun i => g1 d (Z.to_nat i)) (f1 d) Hg HK ltac:(lia) ltac:(lia) Hj P0). fold W in B1.
    assert (B2 : (Rabs ((W d x (Z.of_nat j) - W d (move d 1 x) (Z.of_nat j)) / dx d + f1 d) <= gas_const gamma K * (dx d + / 1000000000000 / dx d))%R).
    { apply B1.
      - replace (6 / 5 * / 1000000000000)%R with (12 / 10000000000000)%R by lra. exact P1.
      - intros i Hi'. destruct (T (Z.to_nat i) ltac:(lia)) as (S & U). rewrite Z2Nat.id in U by lia. split; [exact S|exact U].
      - exact P.
      - exact D. }
    apply Rabs_le_iff in IH, B2. apply Rabs_le_iff. lra. }
  specialize (B ds (incl_refl _)).
  match goal with |- (Rabs (?a + ?s - (z - ?t)) <= _)%R => replace (a + s - (z - t))%R with (s + t)%R by (unfold z; ring) end. exact B.
Qed.
Print Assumptions C81_euler.

(** A gas of density 2 + sin x and pressure 1 that moves at speed 1, on a line of n
    cells of width 1/n: what is added to the density is - cos x up to a multiple of
    1/n + n 1e-12, with one multiple for all n. *)
Definition swell (n : Z) : field R := fun p => match p with
  | [i; _; j] => let rho := (2 + sin (IZR i / IZR n))%R in if j =? 0 then rho else if j =? 1 then rho else if j =? 4 then (5 / 2 + rho / 2)%R else 0%R
  | _ => 0%R end.
Definition swell_start (n : Z) : mgr R := mgr_of (mkGrid (range_of [(0, n)]) [0%R] [1%R] [(/ IZR n)%R]) [(0, n)] [(eq_, swell n); (er, fun _ => 0%R)] (Some 1%R) None.
Example C81_euler_ex : exists C, forall n, 1000 <= n <= 1000000 ->
  exists m' L' v, euler_solve 99 (7 / 5)%R [eq_] [er] (swell_start n) = Done m' /\ mgr_holds m' [(0, n)] L' /\ field_get L' er = Some v /\
    forall i, 0 <= i < n -> (Rabs (v [i; 0; 0]%Z - - cos (IZR i / IZR n)) <= C * (/ IZR n + / 1000000000000 / (/ IZR n)))%R.
Proof.
  destruct (C81_euler (7 / 5) 4 ltac:(lra) ltac:(lra)) as [C HC]. exists C. intros n Hn.
  set (M := [(0, n)]). assert (XF : forall s, id_fits M (eid s)).
  { intros s. unfold id_fits, shape, M. change (comp_box (eid s)) with [(0, 1); (0, 5)]. cbn [grow map app prod_len fold_right List.length]. splits; try discriminate; try lia.
    - repeat constructor; cbn; lia.
    - repeat constructor; cbn; lia.
    - unfold int_max. cbn. lia.
    - repeat constructor; unfold int_bounds, int_min, int_max; cbn; lia.
    - unfold int_max. cbn. lia. }
  assert (OK : fields_ok M [(eq_, swell n); (er, fun _ => 0%R)]).
  { split.
    - cbn. constructor; [|constructor; [intros []|constructor]]. intros [H|[]]. discriminate.
    - constructor; [apply XF|constructor; [apply XF|constructor]]. }
  assert (RD : rhs_ready (swell_start n) M [(eq_, swell n); (er, fun _ => 0%R)] [eq_; er] eq_ er (swell n) 5 99).
  { split; [apply mgr_holds_iff; auto|]. split; [exact OK|].
    split. { intros a b [<-|[<-|[<-|[<-|[]]]]] [<-|[<-|[<-|[<-|[]]]]]; vm_compute; intros H; congruence. }
    split; [apply incl_refl|]. split; [apply XF|]. split; [lia|]. repeat split; try reflexivity; try discriminate; cbn; lia. }
  destruct (HC (swell_start n) M _ _ eq_ er (swell n) 99%nat 1%R RD ltac:(cbn; lia) eq_refl) as (m' & L' & v & E & HM & Hv & HB). exists m', L', v. split; [exact E|]. split; [exact HM|]. split; [exact Hv|]. intros i Hi.
  set (a := (IZR i / IZR n)%R). set (h := (/ IZR n)%R) in *.
  assert (N1 : (1000 <= IZR n)%R) by (apply IZR_le; lia). assert (Hh : (0 < h <= / 1000)%R) by (unfold h; split; [apply Rinv_0_lt_compat; lra|apply Rinv_le_contravar; lra]).
  pose (g := fun (_ k : nat) (y : R) => match k with 0%nat | 1%nat => (2 + sin (y + a))%R | 4%nat => (5 / 2 + (2 + sin (y + a)) / 2)%R | _ => 0%R end).
  pose (g1 := fun (_ k : nat) (y : R) => match k with 0%nat | 1%nat => cos (y + a)%R | 4%nat => (cos (y + a) / 2)%R | _ => 0%R end).
  specialize (HB [i; 0] 0%nat g g1 (fun _ => cos a)).
  assert (S0 : spacing (mg_grid (swell_start n)) 0 = h) by reflexivity.
  assert (A1 : in_box (M ++ [(0, bs_points (id_basis er))]) [i; 0]) by (repeat (constructor; [cbn; lia|]); constructor).
  specialize (HB A1 ltac:(lia)).
  assert (DS : forall y, derivable_pt_lim (fun y => 2 + sin (y + a))%R y (cos (y + a))).
  { intros y. assert (D := derivable_pt_lim_comp (fun y => y + a)%R sin y 1 (cos (y + a))). rewrite Rmult_1_r in D.
    assert (X : derivable_pt_lim (fun y => 2 + sin (y + a))%R y (0 + cos (y + a))%R); [|now rewrite Rplus_0_l in X].
    apply (derivable_pt_lim_plus (fun _ => 2%R) (fun y => sin (y + a))); [apply derivable_pt_lim_const|]. apply D; [|apply derivable_pt_lim_sin].
    assert (Y : derivable_pt_lim (fun y => y + a)%R y (1 + 0)%R); [|now rewrite Rplus_0_r in Y]. apply (derivable_pt_lim_plus id (fun _ => a)); [apply derivable_pt_lim_id|apply derivable_pt_lim_const]. }
  assert (CB := fun y => COS_bound y). assert (SB := fun y => SIN_bound y).
  assert (CL : forall y z, (Rabs (cos (y + a) - cos (z + a)) <= Rabs (y - z))%R) by (intros y z; pose proof (cos_lip (y + a) (z + a)) as B; now replace (y + a - (z + a))%R with (y - z)%R in B by ring).
  match type of HB with ?P -> _ => assert (A2 : P) end.
  { intros d Hd h' line. destruct Hd as [<-|[]]. change h' with h. clear h'. split; [|split; [|split]].
    - split; [lra|]. assert (h * h <= / 1000 * / 1000)%R by (apply Rmult_le_compat; lra). nra.
    - intros k Hk. split.
      + destruct k as [|[|[|[|[|k]]]]]; try lia; (split; [split|]).
        * intros y _. apply DS.
        * intros y z _ _. unfold g1. pose proof (CL y z). pose proof (Rabs_pos (y - z)). lra.
        * intros y _. unfold g, g1. specialize (CB (y + a)%R). specialize (SB (y + a)%R). split; apply Rabs_le_iff; lra.
        * intros y _. apply DS.
        * intros y z _ _. unfold g1. pose proof (CL y z). pose proof (Rabs_pos (y - z)). lra.
        * intros y _. unfold g, g1. specialize (CB (y + a)%R). specialize (SB (y + a)%R). split; apply Rabs_le_iff; lra.
        * intros y _. apply (derivable_pt_lim_const 0%R).
        * intros y z _ _. unfold g1. rewrite Rminus_0_r, Rabs_R0. pose proof (Rabs_pos (y - z)). lra.
        * intros y _. unfold g, g1. rewrite Rabs_R0. lra.
        * intros y _. apply (derivable_pt_lim_const 0%R).
        * intros y z _ _. unfold g1. rewrite Rminus_0_r, Rabs_R0. pose proof (Rabs_pos (y - z)). lra.
        * intros y _. unfold g, g1. rewrite Rabs_R0. lra.
        * intros y _. unfold g, g1. assert (X : derivable_pt_lim (fun y => 5 / 2 + / 2 * (2 + sin (y + a)))%R y (0 + (0 * (2 + sin (y + a)) + / 2 * cos (y + a)))%R).
          { apply (derivable_pt_lim_plus (fun _ => 5 / 2)%R (fun y => / 2 * (2 + sin (y + a)))%R); [apply derivable_pt_lim_const|].
            apply (derivable_pt_lim_mult (fun _ => / 2)%R (fun y => 2 + sin (y + a))%R); [apply derivable_pt_lim_const|apply DS]. }
          replace (0 + (0 * (2 + sin (y + a)) + / 2 * cos (y + a)))%R with (cos (y + a) / 2)%R in X by field.
          replace (fun y => 5 / 2 + (2 + sin (y + a)) / 2)%R with (fun y => 5 / 2 + / 2 * (2 + sin (y + a)))%R; [exact X|]. apply FunctionalExtensionality.functional_extensionality. intros t. field.
        * intros y z _ _. unfold g1. pose proof (CL y z) as B. replace (cos (y + a) / 2 - cos (z + a) / 2)%R with (/ 2 * (cos (y + a) - cos (z + a)))%R by field. rewrite Rabs_mult, (Rabs_right (/ 2)) by lra. pose proof (Rabs_pos (y - z)). lra.
        * intros y _. unfold g, g1. specialize (CB (y + a)%R). specialize (SB (y + a)%R). split; apply Rabs_le_iff; lra.
      + intros t Ht. unfold swell, move. cbn [upd nth app]. assert (EA : (IZR (i + t) / IZR n = IZR t * h + a)%R) by (rewrite plus_IZR; unfold h, a; field; lra). rewrite EA.
        destruct k as [|[|[|[|[|k]]]]]; try lia; reflexivity.
    - intros y _. unfold line, density, pressure, kinetic, energy, momentum, density, g. cbn [seq map nth]. specialize (SB (y + a)%R). set (s := sin (y + a)) in *. clearbody s.
      split; [lra|]. match goal with |- (_ <= ?e)%R => replace e with 1%R by (field; lra) end. lra.
    - cbn [nth euler_phys]. unfold momentum, line, g. cbn [seq map nth]. specialize (DS 0%R). now rewrite Rplus_0_l in DS. }
  specialize (HB A2). cbn [app Z.of_nat] in HB. change (field_or_zero [(eq_, swell n); (er, fun _ => 0%R)] er [i; 0; 0]) with 0%R in HB.
  unfold sum_over in HB. cbn [List.length M seq map fold_right] in HB. rewrite S0 in HB. rewrite !Rplus_0_r in HB. replace (0 - cos a)%R with (- cos a)%R in HB by ring. exact HB.
Qed.

(** ** C81: the programs in SI units

    In gem_challenge, which main runs, and in harris_current_sheet all densities are
    below 2e-14 at the start, far less than the 1e-12 the reconstruction adds to the
    slopes: the densities at the walls are those of the cells, up to 1/90 of the
    difference to the neighbour where half of it would be right. *)
Lemma sheet_numbers : forall L : R, let p := sheet (A := RArith) L in
  (0 < gm_n0 p /\ 0 <= gm_n1 p /\ 0 < gm_me p /\ 0 < gm_mi p /\ gm_gamma p <> 1 /\ gm_qe p <> 0 /\ gm_qi p <> 0 /\ gm_lambda p <> 0 /\ gm_B0 p <> 0 /\
   gm_me p * (gm_n0 p + gm_n1 p) <= / 1000000000000 / 50 /\ gm_mi p * (gm_n0 p + gm_n1 p) <= / 1000000000000 / 50)%R.
Proof.
  intros L p. unfold p, sheet. cbn [gm_n0 gm_n1 gm_me gm_mi gm_gamma gm_qe gm_qi gm_lambda gm_B0]. cbn [fdec fofz fmul fdiv fadd fneg fsqrt f1 RArith]. unfold Rdecimal.
  repeat match goal with |- context [10 ^ ?q] => let v := eval vm_compute in (10 ^ q) in change (10 ^ q) with v end.
  set (e := (160217662 / _)%R). set (me := (910938356 / _)%R). set (ep := (885418782 / _)%R). rewrite !Rmult_1_r.
  assert (He : (0 < e)%R) by (unfold e; lra). assert (Hme : (0 < me)%R) by (unfold me; lra). assert (Hep : (0 < ep)%R) by (unfold ep; lra).
  assert (N0 : (299792458 * 299792458 * (25 * me) * ep / (e * e) = 25 * 299792458 * 299792458 * (me * ep) * / (e * e))%R) by (unfold Rdiv; ring). rewrite N0. clear N0.
  assert (P1 : (0 < me * ep)%R) by now apply Rmult_lt_0_compat. assert (P2 : (0 < e * e)%R) by now apply Rmult_lt_0_compat. assert (P3 := Rinv_0_lt_compat _ P2).
  assert (P4 : (0 < me * ep * / (e * e))%R) by now apply Rmult_lt_0_compat.
  replace (25 * 299792458 * 299792458 * (me * ep) * / (e * e))%R with (25 * 299792458 * 299792458 * (me * ep * / (e * e)))%R by ring.
  assert (BD : (me * (me * ep * / (e * e)) <= 29 / 100000000000000000000000000000000000)%R).
  { replace (me * (me * ep * / (e * e)))%R with (me * me * ep * / (e * e))%R by ring. apply Rmult_le_reg_r with (e * e)%R; [exact P2|]. rewrite Rmult_assoc, Rinv_l, Rmult_1_r by lra. unfold me, ep, e. lra. }
  set (k := (me * ep * / (e * e))%R) in *. clearbody k.
  assert (Q : (0 < me * k)%R) by now apply Rmult_lt_0_compat.
  repeat split; try lra.
  - apply Rgt_not_eq, sqrt_lt_R0. repeat (apply Rmult_lt_0_compat; try lra). 
Qed.

Definition first_order (M P : box) (u : field R) : Prop :=
  forall d x, (d < List.length M)%nat -> in_box (M ++ P) x -> let rho t := u (move d t x ++ [0%Z]) in let w := recon (rho (-2)) (rho (-1)) (rho 0) (rho 1) in
    (Rabs (fst w - rho (-1)%Z) <= Rabs (rho (-1)%Z - rho (-2)%Z) / 90 /\ Rabs (snd w - rho 0%Z) <= Rabs (rho 1%Z - rho 0%Z) / 90)%R.

Lemma grow_move : forall M P t d x, -2 <= t <= 2 -> (d < List.length M)%nat -> in_box (M ++ P) x -> in_box (grow 2 M ++ P) (move d t x).
Proof.
  intros M P t. induction M as [|[l h] M IH]; intros d x Ht Hd Hx; [cbn in Hd; lia|].
  inversion Hx as [|? a ? ? Ha Hx']; subst. cbn [fst snd] in Ha. destruct d as [|d].
  - unfold move. cbn [upd nth grow map app]. constructor; [cbn [fst snd]; lia|]. clear - Hx'. apply Forall2_app_inv_l in Hx' as (y & z & Hy & Hz & ->). apply Forall2_app; [|exact Hz].
    clear - Hy. induction Hy as [|? ? ? ? H _ IH]; cbn; constructor; auto. cbn [fst snd]. lia.
  - unfold move. cbn [upd nth grow map app]. constructor; [cbn [fst snd]; lia|]. apply (IH d); auto. cbn in Hd. lia.
Qed.
Lemma small_first_order : forall M P (u : field R), (forall x, in_box (grow 2 M ++ P) x -> 0 <= u (x ++ [0%Z]) <= / 1000000000000 / 50)%R -> first_order M P u.
Proof.
  intros M P u H d x Hd Hx rho w.
  assert (B : forall t, -2 <= t <= 2 -> (0 <= rho t <= / 1000000000000 / 50)%R) by (intros t Ht; apply H, grow_move; assumption).
  pose proof (B (-2) ltac:(lia)). pose proof (B (-1) ltac:(lia)). pose proof (B 0 ltac:(lia)). pose proof (B 1 ltac:(lia)).
  unfold w. rewrite recon_values. cbn [fst snd]. split; [apply left_tiny|apply right_tiny]; apply Rabs_le_iff; lra.
Qed.

Lemma sheet_small : forall (gr : grid R) M L fuel, setting gr M [pl_electrons; pl_ions; pl_field] fuel -> (List.length M <= 3)%nat ->
  exists m1 L1 u v, gem_solve fuel (sheet L) [fluid_id "electrons"; fluid_id "ions"; em_id "field"] (mgr_new gr) = Done m1 /\ mgr_holds m1 M L1 /\
    field_get L1 (fluid_id "electrons") = Some u /\ field_get L1 (fluid_id "ions") = Some v /\ first_order M [(0, 1)] u /\ first_order M [(0, 1)] v.
Proof.
  intros gr M L fuel HS H3. destruct (sheet_numbers L) as (A1 & A2 & A3 & A4 & A5 & A6 & A7 & A8 & A9 & B1 & B2).
  destruct (C62_gem (mgr_new gr) M [] (f_0 pl_electrons) (f_0 pl_ions) (f_0 pl_field) fuel (sheet L)) as (m1 & L1 & u & v & w & E & D & Eu & Ev & _ & HV); auto.
  { apply (start_ready R RArith gr M [pl_electrons; pl_ions; pl_field] fuel 5 HS). repeat (constructor; [cbn; lia|]). constructor. }
  { exact (f0_names [pl_electrons; pl_ions; pl_field] (proj1 (proj1 (proj2 (proj2 (proj2 (proj2 HS))))))). }
  assert (SB : forall X, (0 <= sheet_density (sheet L) X <= gm_n0 (sheet L) + gm_n1 (sheet L))%R).
  { intros X. unfold sheet_density, sech. set (z := (X / gm_lambda (sheet L))%R).
    assert (C1 : (1 <= cosh z)%R). { unfold cosh. rewrite exp_Ropp. pose proof (exp_pos z) as P. set (y := exp z) in *. assert (0 < / y)%R by now apply Rinv_0_lt_compat.
      assert (Y1 : (y * / y = 1)%R) by (apply Rinv_r; lra). set (y' := (/ y)%R) in *. clearbody y y'. pose proof (Rle_0_sqr (y - y')) as Q. unfold Rsqr in Q. nra. }
    assert (C2 : (0 < / cosh z <= 1)%R). { split; [apply Rinv_0_lt_compat; lra|]. rewrite <- Rinv_1. apply Rinv_le_contravar; lra. }
    set (q := (/ cosh z)%R) in *. clearbody q. replace (q ^ 2)%R with (q * q)%R by ring. assert (C3 : (0 <= q * q <= 1)%R) by (split; nra). set (qq := (q * q)%R) in *. set (n := gm_n0 (sheet L)) in *. clearbody qq n. nra. }
  exists m1, L1, u, v. split; [exact E|]. split; [apply D|]. split; [exact Eu|]. split; [exact Ev|].
  split; apply small_first_order; intros x Hx; destruct (HV x Hx) as (V1 & V2 & _); unfold density, state_at in V1, V2; cbn [nth map zrange] in V1, V2.
  - rewrite V1. specialize (SB (center (mg_grid (mgr_new gr)) x 0)). split; [apply Rmult_le_pos; lra|]. eapply Rle_trans; [|exact B1]. apply Rmult_le_compat_l; lra.
  - rewrite V2. specialize (SB (center (mg_grid (mgr_new gr)) x 0)). split; [apply Rmult_le_pos; lra|]. eapply Rle_trans; [|exact B2]. apply Rmult_le_compat_l; lra.
Qed.

Theorem C81_gem_refuted : forall fuel, enough fuel ->
  exists m1 L1 u v, gem_solve fuel (sheet (sheet_length 1%R)) [fluid_id "electrons"; fluid_id "ions"; em_id "field"] (mgr_new gem_grid) = Done m1 /\ mgr_holds m1 gem_mesh L1 /\
    field_get L1 (fluid_id "electrons") = Some u /\ field_get L1 (fluid_id "ions") = Some v /\ first_order gem_mesh [(0, 1)] u /\ first_order gem_mesh [(0, 1)] v.
Proof. intros fuel HU. apply sheet_small; [now apply gem_setting|cbn; lia]. Qed.
Print Assumptions C81_gem_refuted.
Theorem C81_harris_refuted : forall fuel, enough fuel ->
  exists m1 L1 u v, gem_solve fuel (sheet (sheet_length 4%R)) [fluid_id "electrons"; fluid_id "ions"; em_id "field"] (mgr_new harris_grid) = Done m1 /\ mgr_holds m1 harris_mesh L1 /\
    field_get L1 (fluid_id "electrons") = Some u /\ field_get L1 (fluid_id "ions") = Some v /\ first_order harris_mesh [(0, 1)] u /\ first_order harris_mesh [(0, 1)] v.
Proof. intros fuel HU. apply sheet_small; [now apply harris_setting|cbn; lia]. Qed.
Print Assumptions C81_harris_refuted.
