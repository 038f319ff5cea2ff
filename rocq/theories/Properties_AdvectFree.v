(** * Properties of the free function advection (C71). *)
From Coq Require Import ZArith List String Lia Bool Floats.SpecFloat Reals Lra.
From Verif Require Import Base BaseFacts BoxSpec BoxFacts Range RangeSpec RangeFacts Indexer Interface FieldSpec FieldFacts
  Arith ArithFloat ArithR Manager Par ParFacts Kernel KernelFacts Advection AdvectionSpec AdvectionFacts AdvectFree.
Import ListNotations.
Open Scope Z_scope.

(** What a call needs: the three arrays have one element per cell of the box [b],
    there are a velocity and a spacing for every dimension, and the indices of the
    loops are ints. *)
Definition call_ok {F} (gr : grid F) (r : range) (b : box) (velocity n ns np : list F) : Prop :=
  r = range_of b /\ valid_box b /\ 3 * prod_len b <= int_max /\
  Z.of_nat (List.length n) = prod_len b /\ Z.of_nat (List.length ns) = prod_len b /\ Z.of_nat (List.length np) = prod_len b /\
  (List.length b <= List.length velocity)%nat /\ (List.length b <= List.length (gr_dxs gr))%nat.

(** ** strides and loops *)

Lemma prod_firstn : forall b d, nonempty b -> 0 < prod_len (firstn d b) <= prod_len b.
Proof.
  intros b d N. assert (NN : nonempty (firstn d b ++ skipn d b)) by (now rewrite firstn_skipn). apply Forall_app in NN as [N1 N2].
  pose proof (prod_len_pos _ N1). pose proof (prod_len_pos _ N2). rewrite <- (firstn_skipn d b) at 3. rewrite prod_len_app. nia.
Qed.
Lemma prod_snoc : forall b d l u, nth_error b d = Some (l, u) -> prod_len (firstn (S d) b) = prod_len (firstn d b) * (u - l).
Proof.
  induction b as [|[l0 u0] b IH]; intros [|d] l u H; try discriminate.
  - cbn in H. injection H as <- <-. cbn [firstn prod_len]. lia.
  - cbn [nth_error] in H. rewrite !firstn_cons. cbn [prod_len]. rewrite (IH d l u H). lia.
Qed.

Lemma strides_from_ok : forall b k i, valid_box b -> (i + k = List.length b)%nat -> (1 <= i)%nat ->
  strides_from (range_of b) (Z.of_nat i) (prod_len (firstn (i - 1) b)) k = Ok (map (fun d => prod_len (firstn d b)) (seq i k)).
Proof.
  intros b k. induction k as [|k IH]; intros i V Hk Hi; [reflexivity|]. cbn [strides_from seq map].
  destruct (nth_error b (i - 1)) as [[l u]|] eqn:E; [|apply nth_error_None in E; lia].
  replace (Z.of_nat i - 1) with (Z.of_nat (i - 1)) by lia. rewrite (range_length_of b (i - 1) l u E).
  destruct V as (V0 & VN & VI & VB). pose proof (prod_snoc b (i - 1) l u E) as PS. replace (S (i - 1)) with i in PS by lia.
  pose proof (prod_firstn b i VN) as B1. pose proof (prod_firstn b (i - 1) VN) as B0.
  assert (HL : l < u). { unfold nonempty in VN. rewrite Forall_forall in VN. exact (VN (l, u) (nth_error_In _ _ E)). }
  assert (u - l <= prod_len b) by nia.
  unfold isub. rewrite chk_ok by (unfold is_int, int_min, int_max in *; lia). cbn [bind]. unfold imul. rewrite <- PS.
  rewrite chk_ok by (unfold is_int, int_min, int_max in *; lia). cbn [bind].
  replace (Z.of_nat i + 1) with (Z.of_nat (S i)) by lia. specialize (IH (S i) (conj V0 (conj VN (conj VI VB))) ltac:(lia) ltac:(lia)).
  replace (S i - 1)%nat with i in IH by lia. rewrite IH. reflexivity.
Qed.
Lemma first_fastest_ok : forall b, valid_box b -> first_fastest (range_of b) = Ok (map (fun d => prod_len (firstn d b)) (seq 0 (List.length b))).
Proof.
  intros b V. unfold first_fastest. assert (EN : r_nd (range_of b) = Z.of_nat (List.length b)) by reflexivity. rewrite EN.
  destruct b as [|iv b]; [now destruct V|]. cbn [List.length]. destruct (Z.leb_spec (Z.of_nat (S (List.length b))) 0); [lia|].
  replace (Z.to_nat (Z.of_nat (S (List.length b)) - 1)) with (List.length b) by lia.
  pose proof (strides_from_ok (iv :: b) (List.length b) 1 V ltac:(cbn; lia) ltac:(lia)) as H1. cbn [Nat.sub firstn prod_len] in H1.
  change (Z.of_nat 1) with 1 in H1. rewrite H1. reflexivity.
Qed.

(** The loop of a dimension: [s] is the number of cells of the dimensions before it. *)
Definition free_loop {F} {A : Arith F} (s N : Z) (up : bool) (k : F) : list (thr F) :=
  if up then map (adv_iter s k) (blocks (2 * s) 1 (Z.to_nat (N - 4 * s))) else map (adv_iter (- s) k) (blocks 0 1 (Z.to_nat N)).

Lemma free_sweep_ok : forall F (A : Arith F) (gr : grid F) b velocity dt d v dx, valid_box b -> 3 * prod_len b <= int_max -> (d < List.length b)%nat ->
  vget velocity (Z.of_nat d) = Ok v -> grid_dx gr (Z.of_nat d) = Ok dx ->
  free_sweep dt velocity gr (prod_len b) (map (fun d => prod_len (firstn d b)) (seq 0 (List.length b))) (Z.of_nat d) =
  Ok (free_loop (prod_len (firstn d b)) (prod_len b) (f0 <? v)%F (dt * v / dx)%F).
Proof.
  intros F A gr b velocity dt d v dx V H3 Hd Hv Hx. unfold free_sweep. rewrite Hv. cbn [bind].
  assert (ES : vget (map (fun d => prod_len (firstn d b)) (seq 0 (List.length b))) (Z.of_nat d) = Ok (prod_len (firstn d b))).
  { unfold vget. destruct (Z.leb_spec 0 (Z.of_nat d)); [|lia]. rewrite Nat2Z.id, (nth_error_map _ d). assert (E : nth_error (seq 0 (List.length b)) d = Some d) by (rewrite (nth_error_nth' _ 0%nat) by (rewrite seq_length; lia); rewrite seq_nth by lia; reflexivity). rewrite E. reflexivity. }
  rewrite ES. cbn [bind]. destruct V as (V0 & VN & VI & VB). pose proof (prod_firstn b d VN) as B. set (s := prod_len (firstn d b)) in *. set (N := prod_len b) in *.
  unfold free_loop. destruct (f0 <? v)%F.
  - unfold imul, isub. rewrite Z.mul_1_l, chk_ok by (unfold is_int, int_min, int_max in *; lia). cbn [bind]. rewrite chk_ok by (unfold is_int, int_min, int_max in *; lia). cbn [bind].
    rewrite chk_ok by (unfold is_int, int_min, int_max in *; lia). cbn [bind]. rewrite Hx. cbn [bind]. unfold adv_iterate.
    rewrite Z.max_r, Z.min_r by lia. destruct (Z.le_gt_cases (N - 2 * s) (2 * s)).
    + unfold int_loop. destruct (Z.leb_spec (N - 2 * s) (2 * s)); [|lia]. cbn [bind]. replace (Z.to_nat (N - 4 * s)) with 0%nat by lia. reflexivity.
    + rewrite int_loop_blocks; rewrite ?Z.div_1_r, ?Z.mul_1_r; try lia. cbn [bind]. do 3 f_equal. f_equal. lia.
  - unfold imul, isub. rewrite chk_ok by (unfold is_int, int_min, int_max in *; lia). cbn [bind]. rewrite chk_ok by (unfold is_int, int_min, int_max in *; lia). cbn [bind].
    rewrite chk_ok by (unfold is_int, int_min, int_max in *; lia). cbn [bind]. rewrite Hx. cbn [bind]. unfold adv_iterate.
    rewrite Z.max_l, Z.min_l by lia. replace (-1 * s) with (- s) by lia.
    rewrite int_loop_blocks; rewrite ?Z.div_1_r, ?Z.mul_1_r; try lia. cbn [bind]. do 3 f_equal. f_equal. lia.
Qed.

Section Runs.
Context {F : Type} {A : Arith F}.

Lemma up_run : forall s N k (fq f : Z -> F), 0 < s -> seq_run (free_loop s N true k) (mtab N [fq; f]) = Ok (mtab N [fq; moved s k fq (2 * s) (Z.to_nat (N - 4 * s)) f]).
Proof. intros s N k fq f Hs. unfold free_loop. apply adv_run; [lia|]. intros i Hi. lia. Qed.

Lemma mtab_oob : forall N (fs : list (Z -> F)) a f i, 0 <= N -> nth_error fs a = Some f -> ~ 0 <= i < N -> mread (mtab N fs) a i = UB OutOfBounds.
Proof.
  intros N fs a f i HN E H. unfold mread, mtab. rewrite nth_error_map, E. cbn [option_map]. unfold vget. destruct (Z.leb_spec 0 i); [|reflexivity].
  destruct (nth_error (tab N f) (Z.to_nat i)) eqn:E2; [|reflexivity].
  assert (nth_error (tab N f) (Z.to_nat i) <> None) as X by congruence. apply nth_error_Some in X. pose proof (tab_length N f HN). lia.
Qed.

Lemma bad_run : forall ds k N (fq : Z -> F) is f, ds <> 0 -> 0 <= N -> Exists (fun i => ~ (0 <= i - ds < N)) is ->
  seq_run (map (adv_iter ds k) is) (mtab N [fq; f]) = UB OutOfBounds.
Proof.
  intros ds k N fq is f Hd HN. revert f. induction is as [|i is IH]; intros f H; [now apply Exists_nil in H|]. cbn [map seq_run].
  assert (D : forall j, 0 <= j < N \/ ~ 0 <= j < N) by (intros; lia).
  destruct (D (i - ds)) as [D1|D1].
  - destruct (D (i - 2 * ds)) as [D2|D2].
    + destruct (D i) as [D3|D3].
      * rewrite adv_iter_run by assumption. cbn [bind]. apply IH. apply Exists_cons in H as [H|H]; [contradiction|exact H].
      * unfold adv_iter. cbn [trun]. rewrite (mtab_read N _ 0%nat fq) by auto. cbn [bind]. rewrite (mtab_read N _ 0%nat fq) by auto. cbn [bind].
        rewrite (mtab_oob N _ 0%nat fq) by auto. reflexivity.
    + unfold adv_iter. cbn [trun]. rewrite (mtab_read N _ 0%nat fq) by auto. cbn [bind]. rewrite (mtab_oob N _ 0%nat fq) by auto. reflexivity.
  - unfold adv_iter. cbn [trun]. rewrite (mtab_oob N _ 0%nat fq) by auto. reflexivity.
Qed.
Lemma down_run : forall s N k (fq f : Z -> F), 0 < s -> 0 < N -> seq_run (free_loop s N false k) (mtab N [fq; f]) = UB OutOfBounds.
Proof.
  intros s N k fq f Hs HN. unfold free_loop. apply bad_run; [lia|lia|]. apply Exists_exists. exists (N - 1). split; [|lia].
  unfold blocks. apply in_map_iff. exists (Z.to_nat (N - 1)). split; [lia|]. apply in_seq. lia.
Qed.

Lemma as_tab : forall l : list F, l = tab (Z.of_nat (List.length l)) (fun i => nth (Z.to_nat i) l f0).
Proof.
  intros l. apply nth_error_ext. intros n. destruct (Nat.lt_ge_cases n (List.length l)).
  - rewrite (nth_error_nth' l f0) by assumption. rewrite <- (Nat2Z.id n) at 2. rewrite tab_nth by lia. now rewrite Nat2Z.id.
  - assert (nth_error l n = None) as -> by (now apply nth_error_None). symmetry. apply nth_error_None.
    pose proof (tab_length (Z.of_nat (List.length l)) (fun i => nth (Z.to_nat i) l f0) ltac:(lia)). lia.
Qed.

(** Velocity and spacing of the dimensions. *)
Definition vel_of (velocity : list F) (d : nat) : F := nth d velocity f0.
Definition dx_of (gr : grid F) (d : nat) : F := nth d (gr_dxs gr) f0.
Lemma vget_nth : forall (l : list F) d, (d < List.length l)%nat -> vget l (Z.of_nat d) = Ok (nth d l f0).
Proof. intros l d H. unfold vget. destruct (Z.leb_spec 0 (Z.of_nat d)); [|lia]. rewrite Nat2Z.id, (nth_error_nth' l f0) by assumption. reflexivity. Qed.

Lemma flow_loops : forall (gr : grid F) b velocity dt ds, valid_box b -> 3 * prod_len b <= int_max -> Forall (fun d => (d < List.length b)%nat) ds ->
  (List.length b <= List.length velocity)%nat -> (List.length b <= List.length (gr_dxs gr))%nat ->
  exists ls, loops_of (free_sweep dt velocity gr (prod_len b) (map (fun d => prod_len (firstn d b)) (seq 0 (List.length b)))) (map Z.of_nat ds) = Ok ls /\ Forall is_adv ls /\
    (Forall (fun d => (f0 <? vel_of velocity d)%F = true) ds -> forall fq f, exists f', loops_run ls (mtab (prod_len b) [fq; f]) = Ok (mtab (prod_len b) [fq; f'])) /\
    (Exists (fun d => (f0 <? vel_of velocity d)%F = false) ds -> forall fq f, loops_run ls (mtab (prod_len b) [fq; f]) = UB OutOfBounds).
Proof.
  intros gr b velocity dt ds V H3 HD HV HX. induction HD as [|d ds Hd HD IH].
  - exists []. split; [reflexivity|]. split; [constructor|]. split; [intros _ fq f; exists f; reflexivity|intros H; now apply Exists_nil in H].
  - destruct IH as (ls & E & HA & HU & HB). assert (VN : nonempty b) by apply V. pose proof (prod_firstn b d VN) as B.
    pose proof (free_sweep_ok F A gr b velocity dt d _ _ V H3 Hd (vget_nth velocity d ltac:(lia)) (vget_nth (gr_dxs gr) d ltac:(lia))) as E1.
    fold (vel_of velocity d) (dx_of gr d) in E1. eexists (_ :: ls). cbn [map loops_of]. rewrite E1. cbn [bind]. rewrite E. cbn [bind]. split; [reflexivity|]. split; [|split].
    + constructor; [|exact HA]. unfold free_loop. destruct (f0 <? vel_of velocity d)%F; eexists _, _, _; (split; [reflexivity|lia]).
    + intros H fq f. inversion H as [|? ? U HU']; subst. rewrite U. cbn [loops_run]. rewrite up_run by lia. cbn [bind]. now apply HU.
    + intros H fq f. cbn [loops_run]. destruct (f0 <? vel_of velocity d)%F eqn:U.
      * rewrite up_run by lia. cbn [bind]. apply HB. apply Exists_cons in H as [H|H]; [congruence|exact H].
      * rewrite down_run by lia. reflexivity.
Qed.

Lemma dims_upto_of : forall b, dims_upto (r_nd (range_of b)) = map Z.of_nat (seq 0 (List.length b)).
Proof. intros b. unfold dims_upto. cbn [r_nd range_of]. now rewrite Nat2Z.id. Qed.

Lemma copy_all : forall N (n ns : list F), Z.of_nat (List.length n) = N -> Z.of_nat (List.length ns) = N -> copy_to N n ns = Ok n.
Proof.
  intros N n ns E1 E2. unfold copy_to. rewrite E1, E2, Z.ltb_irrefl. cbn [orb]. rewrite firstn_all2 by lia. rewrite skipn_all2 by lia. now rewrite app_nil_r.
Qed.
Lemma mean_all : forall N (n ns np : list F), Z.of_nat (List.length n) = N -> Z.of_nat (List.length ns) = N -> Z.of_nat (List.length np) = N ->
  adv_mean N n ns np = Ok (map (fun p => fdec 5 (-1) * (fst p + snd p))%F (combine n ns)).
Proof.
  intros N n ns np E1 E2 E3. unfold adv_mean. rewrite E1, E2, E3, Z.ltb_irrefl. cbn [orb]. rewrite !firstn_all2 by lia. rewrite skipn_all2 by lia. now rewrite app_nil_r.
Qed.
End Runs.

(** ** C71 *)

(** Any velocity that is not positive: the loop of its dimension runs over the whole
    array and reads behind its end, whatever the contents. *)
Theorem C71_upstream_refuted : forall F (A : Arith F) (gr : grid F) r b dt velocity n ns np d, call_ok gr r b velocity n ns np ->
  (d < List.length b)%nat -> (f0 <? nth d velocity f0)%F = false -> advection gr r dt velocity n ns np = UB OutOfBounds.
Proof.
  intros F A gr r b dt velocity n ns np d (-> & V & H3 & L1 & L2 & L3 & HV & HX) Hd Hv. unfold advection.
  rewrite (volume_ok b V). cbn [bind]. rewrite (first_fastest_ok b V). cbn [bind]. rewrite (copy_all _ n ns L1 L2). cbn [bind]. unfold free_flow. rewrite dims_upto_of.
  destruct (flow_loops gr b velocity dt (seq 0 (List.length b)) V H3) as (ls & E & _ & _ & HB); auto.
  { apply Forall_forall. intros x Hx. apply in_seq in Hx. lia. }
  rewrite E. cbn [bind]. assert (EM : [n; n] = mtab (prod_len b) [fun i => nth (Z.to_nat i) n f0; fun i => nth (Z.to_nat i) n f0]).
  { unfold mtab. cbn [map]. rewrite <- L1, <- as_tab. reflexivity. }
  rewrite EM, HB; [reflexivity|]. apply Exists_exists. exists d. split; [apply in_seq; lia|exact Hv].
Qed.
Print Assumptions C71_upstream_refuted.

(** All velocities positive, exact arithmetic: both arrays keep the total of the
    array n.  Partial: other velocities, and the direction of the flow, both refuted. *)
Theorem C71_total_partial : forall (gr : grid R) r b dt velocity n ns np, call_ok gr r b velocity n ns np ->
  (forall d, (d < List.length b)%nat -> (0 < nth d velocity 0)%R) ->
  exists ns' np', advection gr r dt velocity n ns np = Ok (ns', np') /\ List.length ns' = List.length n /\ List.length np' = List.length n /\
    fold_right Rplus 0%R ns' = fold_right Rplus 0%R n /\ fold_right Rplus 0%R np' = fold_right Rplus 0%R n.
Proof.
  intros gr r b dt velocity n ns np (-> & V & H3 & L1 & L2 & L3 & HV & HX) Hv. unfold advection.
  rewrite (volume_ok b V). cbn [bind]. rewrite (first_fastest_ok b V). cbn [bind]. rewrite (copy_all _ n ns L1 L2). cbn [bind]. unfold free_flow. rewrite dims_upto_of.
  assert (HD : Forall (fun d => (d < List.length b)%nat) (seq 0 (List.length b))) by (apply Forall_forall; intros x Hx; apply in_seq in Hx; lia).
  assert (HP : Forall (fun d => (f0 <? vel_of velocity d)%F = true) (seq 0 (List.length b))).
  { apply Forall_forall. intros x Hx. apply in_seq in Hx. apply Rltb_iff. cbn. apply Hv. lia. }
  assert (N0 : 0 <= prod_len b) by lia.
  destruct (flow_loops gr b velocity dt (seq 0 (List.length b)) V H3 HD HV HX) as (ls & E & HA & HU & _).
  destruct (flow_loops gr b velocity (fdec 5 (-1) * dt)%F (seq 0 (List.length b)) V H3 HD HV HX) as (ls2 & E2 & HA2 & HU2 & _).
  rewrite E. cbn [bind].
  set (fn := fun i => nth (Z.to_nat i) n f0) in *. assert (En : n = tab (prod_len b) fn) by (rewrite <- L1; apply as_tab).
  destruct (HU HP fn fn) as (f1 & R1). unfold mtab in R1. cbn [map] in R1. rewrite <- En in R1. rewrite R1. cbn [bind].
  set (n1 := tab (prod_len b) f1) in *. assert (LN1 : Z.of_nat (List.length n1) = prod_len b) by (now apply tab_length).
  rewrite (mean_all _ n n1 np L1 LN1 L3). cbn [bind]. set (n2 := map _ (combine n n1)). rewrite E2. cbn [bind].
  assert (LN2 : Z.of_nat (List.length n2) = prod_len b) by (unfold n2; rewrite map_length, combine_length; lia).
  set (f2 := fun i => nth (Z.to_nat i) n2 f0). assert (En2 : n2 = tab (prod_len b) f2) by (rewrite <- LN2; apply as_tab).
  destruct (HU2 HP f1 f2) as (f3 & R3). unfold mtab in R3. cbn [map] in R3. fold n1 in R3. rewrite <- En2 in R3. rewrite R3. cbn [bind].
  exists n1, (tab (prod_len b) f3). split; [reflexivity|]. split; [lia|]. split; [pose proof (tab_length (prod_len b) f3 N0); lia|].
  apply loops_sum in R1 as (l1 & X1 & S1); [|exact HA]. injection X1 as <-. apply loops_sum in R3 as (l3 & X3 & S3); [|exact HA2]. injection X3 as <-.
  fold (lsum n) (lsum n1) (lsum (tab (prod_len b) f3)). split; [exact S1|]. rewrite S3.
  assert (G : forall a c : list R, List.length a = List.length c -> lsum (map (fun p => fmul (fdec 5 (-1)) (fadd (fst p) (snd p))) (combine a c)) = (/ 2 * (lsum a + lsum c))%R).
  { induction a as [|x a IH]; intros [|y c] HL; try discriminate; [cbn; lra|]. cbn [combine map fst snd]. injection HL as HL.
    unfold lsum in *. cbn [fold_right]. rewrite (IH c HL). cbn [fmul fadd fdec RArith Rdecimal]. replace (IZR (10 ^ 1)) with 10%R by reflexivity. lra. }
  unfold n2. rewrite G by lia. rewrite S1. lra.
Qed.
Print Assumptions C71_total_partial.

(** One step along a line of [N] cells with Courant number [k]: [f] with the
    limited upwind fluxes of [q] through the walls 2, ..., N-3 (wall [i] is between
    the cells [i-1] and [i]).  The walls N-2 and N-1 are not treated. *)
Definition line_step {F} {A : Arith F} (N : Z) (k : F) (q f : Z -> F) (i : Z) : F :=
  let open w := (2 <=? w) && (w <? N - 2) in
  let flux w := upwind k (q (w - 2)) (q (w - 1)) (q w) in
  let x := if open i then fadd (f i) (flux i) else f i in
  if open (i + 1) then fsub x (flux (i + 1)) else x.
(** One dimension and a positive velocity: the two arrays afterwards, in any
    arithmetic. *)
Theorem C71_line : forall F (A : Arith F) (gr : grid F) l u dt velocity (q : Z -> F) ns np, let N := u - l in
  call_ok gr (range_of [(l, u)]) [(l, u)] velocity (map q (zrange 0 N)) ns np -> (f0 <? nth 0 velocity f0)%F = true ->
  let v := nth 0 velocity f0 in let dx := nth 0 (gr_dxs gr) f0 in
  let q1 := line_step N (dt * v / dx)%F q q in
  advection gr (range_of [(l, u)]) dt velocity (map q (zrange 0 N)) ns np =
  Ok (map q1 (zrange 0 N), map (line_step N (fdec 5 (-1) * dt * v / dx)%F q1 (fun i => fdec 5 (-1) * (q i + q1 i))%F) (zrange 0 N)).
Proof.
  intros F A gr l u dt velocity q ns np N (_ & V & H3 & L1 & L2 & L3 & HV & HX) Hv v dx q1. cbn [List.length] in HV, HX.
  assert (EP : prod_len [(l, u)] = N) by (cbn [prod_len]; lia). rewrite EP in *.
  assert (ST : forall k (fq f : Z -> F) i, moved 1 k fq (2 * 1) (Z.to_nat (N - 4 * 1)) f i = line_step N k fq f i).
  { intros k fq f i. unfold moved, line_step, inb, fl. change (0 <? 1) with true. cbn iota. change (2 * 1) with 2.
    assert (O : forall w, (2 <=? w) && (w <? 2 + Z.of_nat (Z.to_nat (N - 4 * 1))) = (2 <=? w) && (w <? N - 2)).
    { intros w. destruct (Z.leb_spec 2 w); [|reflexivity]. cbn [andb]. destruct (Z.ltb_spec w (2 + Z.of_nat (Z.to_nat (N - 4 * 1)))), (Z.ltb_spec w (N - 2)); try lia; reflexivity. }
    rewrite !O. reflexivity. }
  assert (SW : forall dt', free_sweep dt' velocity gr N [1] 0 = Ok (free_loop 1 N true (dt' * v / dx)%F)).
  { intros dt'. pose proof (free_sweep_ok F A gr [(l, u)] velocity dt' 0 v dx V) as H. rewrite EP in H. cbn [List.length seq map firstn prod_len] in H.
    change (Z.of_nat 0) with 0 in H. rewrite H; [fold v in Hv; now rewrite Hv|lia|lia| |]; apply (vget_nth _ 0); lia. }
  assert (FL : forall dt' (fq f : Z -> F), free_flow dt' velocity gr N [1] 1 (map fq (zrange 0 N)) (map f (zrange 0 N)) = Ok (map (line_step N (dt' * v / dx)%F fq f) (zrange 0 N))).
  { intros dt' fq f. unfold free_flow. change (dims_upto 1) with [0]. cbn [loops_of]. rewrite SW. cbn [bind loops_run].
    fold (tab N fq) (tab N f). change [tab N fq; tab N f] with (mtab N [fq; f]). rewrite up_run by lia. cbn [bind mtab map]. f_equal. apply tab_ext. intros i _. apply ST. }
  unfold advection. rewrite (volume_ok _ V), EP. cbn [bind]. rewrite (first_fastest_ok _ V). cbn [bind List.length seq map firstn prod_len].
  rewrite (copy_all N) by assumption. cbn [bind]. change (r_nd (range_of [(l, u)])) with 1. rewrite FL. cbn [bind]. fold q1.
  assert (LQ : forall f : Z -> F, Z.of_nat (List.length (map f (zrange 0 N))) = N) by (intros; rewrite !map_length in *; lia).
  rewrite (mean_all N) by (assumption || apply LQ). cbn [bind].
  assert (EM : map (fun p => (fdec 5 (-1) * (fst p + snd p))%F) (combine (map q (zrange 0 N)) (map q1 (zrange 0 N))) = map (fun i => (fdec 5 (-1) * (q i + q1 i))%F) (zrange 0 N)).
  { clearbody q1. clear. generalize (zrange 0 N) as zs. induction zs as [|z zs IH]; [reflexivity|]. cbn [map combine fst snd]. now rewrite IH. }
  rewrite EM, FL. reflexivity.
Qed.
Print Assumptions C71_line.

(** Refuted: ranges number their cells with the last dimension fastest, the strides
    of this function with the first dimension fastest.  Six by six cells, 16 in cell
    (2, 2), velocity 1 along dimension 0 and 2^-10 along dimension 1, Courant number
    1/4: after the first stage (2, 3), the neighbour along dimension 1, holds 5, and
    (3, 2), the neighbour along dimension 0, holds 2^-8. *)
Local Notation dbl := sf_of_Z.
Definition square : box := [(0, 6); (0, 6)].
Definition square_grid : grid spec_float := mkGrid (range_of square) [dbl 0; dbl 0] [dbl 6; dbl 6] [dbl 1; dbl 1].
Definition hot : list spec_float := map (fun c => match c with [2; 2] => dbl 16 | _ => dbl 0 end) (cells square).
Definition quarter : spec_float := fdec 25 (-2).
Definition slow : spec_float := (dbl 1 / dbl 1024)%F.
Theorem C71_direction_refuted : exists ns' np', call_ok square_grid (range_of square) square [dbl 1; slow] hot hot hot /\
  advection square_grid (range_of square) quarter [dbl 1; slow] hot hot hot = Ok (ns', np') /\
  nth (Z.to_nat (offset square [2; 3])) ns' (dbl 0) = dbl 5 /\ nth (Z.to_nat (offset square [3; 2])) ns' (dbl 0) = (dbl 1 / dbl 256)%F.
Proof.
  eexists _, _. split; [|split; [vm_compute; reflexivity|split; vm_compute; reflexivity]].
  unfold call_ok. split; [reflexivity|]. split; [|repeat split; cbn; unfold int_max; lia].
  unfold valid_box. split; [discriminate|]. split; [repeat constructor; cbn; lia|]. split; [cbn; unfold int_max; lia|].
  unfold int_bounds. repeat constructor; cbn; unfold is_int, int_min, int_max; lia.
Qed.
Print Assumptions C71_direction_refuted.

(** Eight cells on a line, 16 in cell 3, Courant number 1/4: the walls into cells 6
    and 7 are closed.  With the velocity reversed the function reads behind the
    arrays. *)
Definition rail : grid spec_float := mkGrid (range_of [(0, 8)]) [dbl 0] [dbl 8] [dbl 1].
Definition spike (z : Z) : list spec_float := map dbl (map (fun i => if i =? z then 16 else 0) (zrange 0 8)).
Example C71_ex : call_ok rail (range_of [(0, 8)]) [(0, 8)] [dbl 1] (spike 3) (spike 0) (spike 0) /\
  option_map fst (match advection rail (range_of [(0, 8)]) quarter [dbl 1] (spike 3) (spike 0) (spike 0) with Ok x => Some x | _ => None end) =
    Some (map dbl [0; 0; 0; 12; 5; -1; 0; 0]) /\
  option_map fst (match advection rail (range_of [(0, 8)]) quarter [dbl 1] (spike 5) (spike 0) (spike 0) with Ok x => Some x | _ => None end) =
    Some (map dbl [0; 0; 0; 0; 0; 16; 0; 0]) /\
  advection rail (range_of [(0, 8)]) quarter [dbl (-1)] (spike 3) (spike 0) (spike 0) = UB OutOfBounds.
Proof.
  split; [|repeat split; vm_compute; reflexivity]. unfold call_ok. split; [reflexivity|]. split; [|repeat split; cbn; unfold int_max; lia].
  unfold valid_box. split; [discriminate|]. split; [repeat constructor; cbn; lia|]. split; [cbn; unfold int_max; lia|].
  unfold int_bounds. repeat constructor; cbn; unfold is_int, int_min, int_max; lia.
Qed.
