(** * Properties of the Maxwell solver (C38, C45 - C47). *)
From Coq Require Import ZArith List String Lia Bool Floats.SpecFloat Reals Lra.
From Verif Require Import Base BaseFacts BoxSpec BoxFacts Range RangeSpec RangeFacts Indexer Interface
  ApiSpec ApiFacts Arith ArithFloat ArithR Chunk FieldSpec FieldFacts ChunkFacts Properties_Chunk VarId Manager MgrSpec MgrFacts Solvers SolverFacts
  BC BCSpec BCFacts Par ParFacts Kernel KernelFacts Integrators IntegratorSpec IntegratorFacts Sweep SweepSpec SweepFacts Euler Maxwell FluxFacts EulerSpec NumFacts.
Import ListNotations.
Open Scope Z_scope.

(** ** examples used below *)

Definition xid (s : string) : vid := mkVid s (["Ex"; "Ey"; "Ez"; "Bx"; "By"; "Bz"]%string) volume_average.
Definition xq := xid "em". Definition xr := xid "rhs".
Definition xmesh : box := [(0, 3)].
Definition xgrid {F} {A : Arith F} : grid F := mkGrid (range_of xmesh) [f0] [f1] [f1].
(** Ex = Bx = 5 and Ez = 1 in cell 1, everything else 0. *)
Definition xwave {F} {A : Arith F} : field F := fun c =>
  match c with
  | [x; _; j] => if x =? 1 then (if (j =? 0) || (j =? 3) then fofz 5 else if j =? 2 then f1 else f0) else f0
  | _ => f0
  end.
Definition xfields {F} {A : Arith F} : list (vid * field F) := [(xq, xwave); (xr, fun _ => f0)].
Definition xmgr {F} {A : Arith F} : mgr F := mgr_of xgrid xmesh xfields (Some f1) None.
Lemma xid_fits : forall s, id_fits xmesh (xid s).
Proof. intros. apply shapeb_ok; vm_compute; reflexivity. Qed.
Lemma xfields_ok : forall F (A : Arith F), fields_ok xmesh (@xfields F A).
Proof.
  intros. split.
  - cbn. constructor; [|constructor; [intros []|constructor]]. intros [H|[]]. discriminate.
  - constructor; [apply xid_fits|constructor; [apply xid_fits|constructor]].
Qed.
Lemma xready : forall F (A : Arith F) fuel, (1 <= fuel)%nat -> rhs_ready (@xmgr F A) xmesh xfields [xq; xr] xq xr xwave 6 fuel.
Proof.
  intros F A fuel Hf. split; [apply mgr_holds_iff; auto using xfields_ok|]. split; [apply xfields_ok|].
  split. { intros a b [<-|[<-|[<-|[<-|[]]]]] [<-|[<-|[<-|[<-|[]]]]]; vm_compute; intros H; congruence. }
  split; [apply incl_refl|]. split; [apply xid_fits|]. split; [exact Hf|]. repeat split; try reflexivity; try discriminate; cbn; lia.
Qed.
Lemma xbc : bc_ready Periodic xmesh 99 (seq 0 (List.length xmesh)) [xq].
Proof.
  split.
  - intros d [<-|[]]. split; vm_compute; [|intros]; try lia. discriminate.
  - constructor; [|constructor]. split; [apply xid_fits|]. split; [exact I|]. vm_compute. discriminate.
Qed.

(** ** C38, C46: every access in bounds, whatever the schedule *)

(** Grids of any number of dimensions; sweeps are made along the first three. *)
Theorem C38_maxwell : forall F (A : Arith F) c (gr : grid F) (e : echunk F) M P u,
  let D := P ++ [(0, 6)] in let b := grow 2 M ++ D in let arr (u : field F) := map u (cells b) in
  shape M D 2 -> chunk_holds e M D 2 u -> observes (gr_range gr) M -> (List.length M <= List.length (gr_dxs gr))%nat ->
  exists ls, maxwell_mp_loops c gr e = Ok ls /\ List.length ls = Nat.min 3 (List.length M) /\
    forall r, exists v, loops_run ls [arr u; arr r] = Ok [arr u; arr v] /\ loops_safe ls [arr u; arr r] [arr u; arr v].
Proof.
  intros F A c gr e M P u D b arr Sh He Hr Hd. unfold maxwell_mp_loops. rewrite (observed_nd _ _ Hr).
  replace (Z.min 3 (Z.of_nat (List.length M))) with (Z.of_nat (Nat.min 3 (List.length M))) by lia.
  destruct (mp_chunk M P 6 (maxwell_flux c) gr (Nat.min 3 (List.length M)) Sh ltac:(lia) ltac:(lia) ltac:(lia)
    ltac:(intros; apply maxwell_total) e u He) as (ls & E & H).
  exists ls. split; [exact E|]. split.
  { rewrite dims_upto_seq in E. clear - E. assert (Q : forall f (l : list Z) (ls : list (list (thr F))), loops_of f l = Ok ls -> List.length ls = List.length l).
    { intros f. induction l as [|d l IH]; intros ls0 E0; cbn in E0; [now inversion E0|].
      destruct (f d); try discriminate. cbn in E0. destruct (loops_of f l) eqn:E1; try discriminate. inversion E0. cbn. now rewrite (IH a0). }
    apply Q in E. now rewrite map_length, seq_length in E. }
  intros r. destruct (H r) as (v & V1 & V2 & _). exists v. auto.
Qed.
Print Assumptions C38_maxwell.

Theorem C46_solve : forall F (A : Arith F) c (m : mgr F) M L ks q r u fuel,
  rhs_ready m M L ks q r u 6 fuel ->
  exists m' L', maxwell_solve fuel c [q] [r] m = Done m' /\ mgr_holds m' M L' /\ fields_ok M L' /\ same_run m m' /\
    forall k, id_name k <> id_name r -> field_get L' k = field_get L k.
Proof.
  intros F A c m M L ks q r u fuel HR.
  destruct (api_maxwell c m M L ks q r u fuel HR) as (m' & L' & E & _ & HA). destruct HA as (H1 & H2 & H3 & _ & H5 & _).
  exists m', L'. auto.
Qed.
Print Assumptions C46_solve.

(** ** C46: balance, consistency, uniform fields *)

Theorem C46_balance : forall c (m : mgr R) M L ks q r u fuel B j,
  rhs_ready m M L ks q r u 6 fuel ->
  box_incl B (M ++ [(0, bs_points (id_basis r))]) -> nonempty B -> 0 <= j < 6 ->
  exists m' L' v, maxwell_solve fuel c [q] [r] m = Done m' /\ mgr_holds m' M L' /\ field_get L' r = Some v /\
    balanced B (wall 6 (flux_of (maxwell_flux c)) u) (spacing (mg_grid m)) (seq 0 (Nat.min 3 (List.length M))) (field_or_zero L r) v j.
Proof.
  intros c m M L ks q r u fuel B j HR HB HN Hj.
  destruct (api_maxwell c m M L ks q r u fuel HR) as (m' & L' & E & _ & HA). destruct HA as (H1 & _ & _ & _ & _ & v & Hv & HF).
  exists m', L', v. split; [exact E|]. split; [exact H1|]. split; [exact Hv|].
  assert (Ln : List.length (id_comps r) = 6%nat) by apply (ready_parts _ _ _ _ _ _ _ _ _ HR). rewrite Ln in HF.
  apply (box_balanced _ _ _ _ _ _ _ _ B j HF); auto.
  apply Forall_forall. intros d Hd. apply in_seq in Hd. assert (LB : List.length B = List.length (M ++ [(0, bs_points (id_basis r))])) by (now apply Forall2_length in HB).
  rewrite LB, app_length. lia.
Qed.
Print Assumptions C46_balance.

(** After periodic boundary conditions in the first three dimensions nothing is
    added in total to any component of E and B. *)
Theorem C46_periodic : forall c (m : mgr R) M L ks q r u fuel j,
  rhs_ready m M L ks q r u 6 fuel -> 0 <= j < 6 ->
  bc_ready Periodic M fuel (seq 0 (Nat.min 3 (List.length M))) [q] ->
  exists m1 m' L' v, bc_solve Periodic fuel (map Z.of_nat (seq 0 (Nat.min 3 (List.length M)))) [q] m = Done m1 /\
    maxwell_solve fuel c [q] [r] m1 = Done m' /\ mgr_holds m' M L' /\ field_get L' r = Some v /\
    total (M ++ [(0, bs_points (id_basis r))]) (fun x => (v (x ++ [j])%list - field_or_zero L r (x ++ [j])%list)%R) = 0%R.
Proof.
  intros c m M L ks q r u fuel j HR Hj HB.
  destruct (ready_after_bc Periodic m M L ks q r u 6 fuel _ HR HB) as (m1 & L1 & u1 & E1 & HR1 & Hs & HG & _ & HO).
  destruct (api_maxwell c m1 M L1 ks q r u1 fuel HR1) as (m' & L' & E & _ & HA).
  destruct (total_after_periodic m m' M L1 L' ks q r u 6 fuel _ _ _ u1 L1 m1 j HR1 (proj1 HB) HG HA ltac:(lia)) as (v & Hv & HT).
  exists m1, m', L', v. split; [exact E1|]. split; [exact E|]. split; [apply HA|]. split; [exact Hv|].
  unfold field_or_zero in *. rewrite HO in HT; [exact HT|]. apply not_eq_sym, HR.
Qed.
Print Assumptions C46_periodic.
Example C46_periodic_ex : exists m1 m' L' v, bc_solve Periodic 99 [0] [xq] (@xmgr R RArith) = Done m1 /\
    maxwell_solve 99 3%R [xq] [xr] m1 = Done m' /\ mgr_holds m' xmesh L' /\ field_get L' xr = Some v /\
    (v [0%Z; 0%Z; 4%Z] + v [1%Z; 0%Z; 4%Z] + v [2%Z; 0%Z; 4%Z] = 0)%R.
Proof.
  destruct (C46_periodic 3%R xmgr xmesh xfields [xq; xr] xq xr xwave 99 4 (xready R RArith 99 ltac:(lia)) ltac:(lia) xbc)
    as (m1 & m' & L' & v & E1 & E2 & E3 & E4 & E5).
  exists m1, m', L', v. split; [exact E1|]. split; [exact E2|]. split; [exact E3|]. split; [exact E4|].
  unfold total in E5. change (cells (xmesh ++ [(0, bs_points (id_basis xr))])) with [[0; 0]; [1; 0]; [2; 0]] in E5.
  cbn in E5. unfold f0 in E5. cbn in E5. lra.
Qed.

(** Equal states on both sides of a wall: the curl flux of Maxwell's equations.
    Different states: the mean of the two curl fluxes minus half the speed of
    light times the jump, in the components across the wall. *)
Theorem C46_consistent : forall c d q, List.length q = 6%nat -> (d < 3)%nat ->
  maxwell_flux c (Z.of_nat d) q q = Ok (curl_flux c d q).
Proof. exact maxwell_consistent. Qed.
Print Assumptions C46_consistent.
Theorem C46_rusanov : forall c d l r, List.length l = 6%nat -> List.length r = 6%nat -> (d < 3)%nat ->
  exists f, maxwell_flux c (Z.of_nat d) l r = Ok f /\ List.length f = 6%nat /\
    forall i, (i < 6)%nat -> i <> d -> i <> (d + 3)%nat ->
      nth i f 0%R = ((nth i (curl_flux c d l) 0 + nth i (curl_flux c d r) 0) / 2 - Rabs c / 2 * (nth i r 0 - nth i l 0))%R.
Proof.
  intros c d l r Hl Hr Hd. destruct (maxwell_parts c d l r Hl Hr Hd) as (f & E & L & H). exists f. split; [exact E|]. split; [exact L|].
  intros i Hi N1 N2. rewrite H by assumption. apply Nat.eqb_neq in N1, N2. now rewrite N1, N2.
Qed.
Print Assumptions C46_rusanov.
(** Along y, with c = 2: E = (1,2,3), B = (4,5,6) has the flux
    (-24, 0, 16, 3, 0, -1), from the definition of the curl and from the code. *)
Example C46_consistent_ex : @maxwell_flux _ FloatArith (dbl 2) 1 [dbl 1; dbl 2; dbl 3; dbl 4; dbl 5; dbl 6] [dbl 1; dbl 2; dbl 3; dbl 4; dbl 5; dbl 6] =
    Ok [dbl (-24); dbl 0; dbl 16; dbl 3; dbl 0; dbl (-1)] /\
  curl_flux 2 1 [1; 2; 3; 4; 5; 6]%R = [-24; 0; 16; 3; 0; -1]%R.
Proof.
  split; [vm_compute; reflexivity|]. unfold curl_flux, curl_E, curl_B, levi. cbn [nth INR].
  repeat (f_equal; [field|]). f_equal. field.
Qed.

Theorem C46_uniform : forall c (m : mgr R) M L ks q r u fuel,
  rhs_ready m M L ks q r u 6 fuel ->
  exists m' L' v, maxwell_solve fuel c [q] [r] m = Done m' /\ mgr_holds m' M L' /\ field_get L' r = Some v /\
    forall x j, in_box (M ++ [(0, bs_points (id_basis r))]) x -> 0 <= j < 6 ->
      (forall d t i, (d < Nat.min 3 (List.length M))%nat -> -2 <= t <= 2 -> 0 <= i < 6 -> u (move d t x ++ [i]) = u (x ++ [i])) ->
      v (x ++ [j]) = field_or_zero L r (x ++ [j]).
Proof.
  intros c m M L ks q r u fuel HR.
  destruct (api_maxwell c m M L ks q r u fuel HR) as (m' & L' & E & _ & HA). destruct HA as (H1 & _ & _ & _ & _ & v & Hv & HF).
  exists m', L', v. split; [exact E|]. split; [exact H1|]. split; [exact Hv|]. intros x j Hx Hj HU.
  assert (Ln : List.length (id_comps r) = 6%nat) by apply (ready_parts _ _ _ _ _ _ _ _ _ HR). rewrite Ln in HF.
  apply (uniform_stencil _ _ _ _ _ _ _ _ _ _ _ HF); auto.
  - apply Forall_forall. intros d Hd. apply in_seq in Hd. apply Forall2_length in Hx. rewrite app_length in Hx. lia.
  - intros d t i Hd. apply in_seq in Hd. apply HU. lia.
Qed.
Print Assumptions C46_uniform.

(** ** C45: the serial and the parallel kernel *)

Theorem C45_maxwell : forall F (A : Arith F) c (gr : grid F) (e : echunk F) M P u r,
  let D := P ++ [(0, 6)] in let b := grow 2 M ++ D in let arr (u : field F) := map u (cells b) in
  shape M D 2 -> chunk_holds e M D 2 u -> observes (gr_range gr) M -> (List.length M <= List.length (gr_dxs gr))%nat ->
  exists ls ls' v v', maxwell_mp_loops c gr e = Ok ls /\ maxwell_fast_loops c gr e = Ok ls' /\
    loops_run ls [arr u; arr r] = Ok [arr u; arr v] /\ loops_run ls' [arr u; arr r] = Ok [arr u; arr v'] /\
    forall x, in_box (M ++ D) x -> v x = v' x.
Proof.
  intros F A c gr e M P u r D b arr Sh He Hr Hd. unfold maxwell_mp_loops, maxwell_fast_loops. rewrite (observed_nd _ _ Hr).
  replace (Z.min 3 (Z.of_nat (List.length M))) with (Z.of_nat (Nat.min 3 (List.length M))) by lia.
  destruct (mp_chunk M P 6 (maxwell_flux c) gr (Nat.min 3 (List.length M)) Sh ltac:(lia) ltac:(lia) ltac:(lia) ltac:(intros; apply maxwell_total) e u He) as (ls & E & H).
  destruct (fast_chunk M P 6 (maxwell_flux c) gr (Nat.min 3 (List.length M)) Sh ltac:(lia) ltac:(lia) ltac:(lia) ltac:(intros; apply maxwell_total) e u He) as (ls' & E' & H').
  destruct (H r) as (v & V1 & _ & V2). destruct (H' r) as (v' & V1' & V2').
  exists ls, ls', v, v'. split; [exact E|]. split; [exact E'|]. split; [exact V1|]. split; [exact V1'|].
  intros x Hc. unfold D in Hc. rewrite app_assoc in Hc. apply Forall2_app_inv_l in Hc as (x' & y & Hx & Hy & ->).
  inversion Hy as [|? ? ? ? Hj Hy']; subst. inversion Hy'; subst. rewrite V2, V2'; auto.
Qed.
Print Assumptions C45_maxwell.
Example C45_maxwell_ex :
  let e := echunk_of xmesh (comp_box xq) 2 xwave in
  match maxwell_mp_loops (dbl 2) xgrid e, maxwell_fast_loops (dbl 2) xgrid e with
  | Ok ls, Ok ls' => match loops_run ls [if_data (ec_if e); repeat (dbl 0) 42], loops_run ls' [if_data (ec_if e); repeat (dbl 0) 42] with
                     | Ok [_; v], Ok [_; v'] => firstn 18 (skipn 12 v) = firstn 18 (skipn 12 v') /\ nth 16 v (dbl 0) <> dbl 0
                     | _, _ => False
                     end
  | _, _ => False
  end.
Proof. vm_compute. split; [reflexivity|discriminate]. Qed.

(** ** C47: the components along the sweep *)

(** Whatever the arithmetic, the flux along dimension [d] of components [d] of E
    and B is zero. *)
Theorem C47_normal_flux : forall F (A : Arith F) c d l r i, List.length l = 6%nat -> List.length r = 6%nat -> (d < 3)%nat ->
  i = d \/ i = (d + 3)%nat -> exists f, maxwell_flux c (Z.of_nat d) l r = Ok f /\ nth_error f i = Some f0.
Proof. intros F A. exact maxwell_normal. Qed.
Print Assumptions C47_normal_flux.
(** So on a one-dimensional grid the right-hand sides of Ex and Bx stay as they
    are, in exact arithmetic. *)
Theorem C47_one_dimension : forall c (m : mgr R) mx L ks q r u fuel,
  rhs_ready m [mx] L ks q r u 6 fuel ->
  exists m' L' v, maxwell_solve fuel c [q] [r] m = Done m' /\ mgr_holds m' [mx] L' /\ field_get L' r = Some v /\
    forall x j, in_box [mx; (0, bs_points (id_basis r))] x -> j = 0 \/ j = 3 -> v (x ++ [j]) = field_or_zero L r (x ++ [j]).
Proof.
  intros c m mx L ks q r u fuel HR.
  destruct (api_maxwell c m [mx] L ks q r u fuel HR) as (m' & L' & E & _ & HA). destruct HA as (H1 & _ & _ & _ & _ & v & Hv & HF).
  exists m', L', v. split; [exact E|]. split; [exact H1|]. split; [exact Hv|]. intros x j Hx Hj.
  assert (Ln : List.length (id_comps r) = 6%nat) by apply (ready_parts _ _ _ _ _ _ _ _ _ HR). rewrite Ln in HF.
  rewrite HF; [|exact Hx|lia]. rewrite fluxes_sum. cbn [Nat.min List.length seq].
  rewrite sum_over_zero; [cbn; ring|]. intros d [<-|[]].
  assert (W : forall y, wall 6 (flux_of (maxwell_flux c)) u 0 y j = 0%R).
  { intros y. unfold wall, flux_of.
    destruct (maxwell_normal c 0 (left_state 6 u 0 y) (right_state 6 u 0 y) (Z.to_nat j)) as (f & Ef & Hf); [reflexivity|reflexivity|lia|lia|].
    rewrite Ef. apply nth_error_nth with (d := f0) in Hf. exact Hf. }
  rewrite !W. unfold Rdiv. ring.
Qed.
Print Assumptions C47_one_dimension.
Example C47_ex : exists m' L' v, maxwell_solve 99 3%R [xq] [xr] xmgr = Done m' /\ mgr_holds m' xmesh L' /\ field_get L' xr = Some v /\
  v [1; 0; 0] = 0%R /\ v [1; 0; 3] = 0%R.
Proof.
  destruct (C47_one_dimension 3%R xmgr (0, 3) xfields [xq; xr] xq xr xwave 99 (xready R RArith 99 ltac:(lia))) as (m' & L' & v & E1 & E2 & E3 & E4).
  exists m', L', v. split; [exact E1|]. split; [exact E2|]. split; [exact E3|].
  split; [change (v ([1; 0] ++ [0]) = 0%R)|change (v ([1; 0] ++ [3]) = 0%R)]; rewrite E4; auto;
    repeat (constructor; [cbn; lia|]); constructor.
Qed.
