(** * RhsFacts: boundary conditions, fluxes and sources of the example programs. *)
From Coq Require Import ZArith List String Bool Lia Reals Lra.
From Verif Require Import Base BaseFacts BoxSpec BoxFacts Range RangeSpec RangeFacts Indexer IndexerFacts Interface InterfaceFacts ApiSpec ApiFacts
  Arith ArithR Chunk FieldSpec FieldFacts ChunkFacts VarId Manager MgrSpec MgrFacts Solvers SolverFacts BC BCSpec BCFacts Par ParFacts Kernel KernelFacts
  Integrators IntegratorSpec IntegratorFacts Sweep SweepSpec SweepFacts Euler Maxwell FluxFacts EulerSpec NumFacts Sources SourceSpec SourceFacts
  Advection AdvectionSpec AdvectionFacts Programs ProgramsSpec ProgramsFacts.
Import ListNotations.
Open Scope Z_scope.

Section Rhs.
Context {F : Type} {A : Arith F}.
Notation fld := (field F).

(** ** ghost values come from the interior *)

Lemma reversed_ext : forall a b k (x y : F), x = y -> reversed a b k x = reversed a b k y.
Proof. now intros ? ? ? ? ? ->. Qed.

Lemma low_value_ext : forall k M D d (u v : fld) c, (d < List.length M)%nat -> 2 <= hi M d - lo M d -> low_ghost M D 2 d c ->
  (forall c, in_box (M ++ D) c -> u c = v c) -> low_value k M d u c = low_value k M d v c.
Proof.
  intros k M D d u v c Hd Hw Hc H. pose proof (slab_nth _ _ _ _ _ _ Hd Hc) as B.
  assert (H1 : u (move d (hi M d - lo M d) c) = v (move d (hi M d - lo M d) c)).
  { apply H. rewrite (interior_slab M D d Hd). unfold move. eapply in_slab_upd; [exact Hd|exact Hc|lia]. }
  assert (H2 : u (flip d (2 * lo M d - 1) c) = v (flip d (2 * lo M d - 1) c)).
  { apply H. rewrite (interior_slab M D d Hd). unfold flip. eapply in_slab_upd; [exact Hd|exact Hc|lia]. }
  destruct k; cbn [low_value]; auto using reversed_ext.
Qed.

Lemma up_value_ext : forall k M D d (u v : fld) c, (d < List.length M)%nat -> 2 <= hi M d - lo M d -> up_ghost M D 2 d c ->
  (forall c, in_box (M ++ D) c -> u c = v c) -> up_value k M d u c = up_value k M d v c.
Proof.
  intros k M D d u v c Hd Hw Hc H. pose proof (slab_nth _ _ _ _ _ _ Hd Hc) as B.
  assert (H1 : u (move d (- (hi M d - lo M d)) c) = v (move d (- (hi M d - lo M d)) c)).
  { apply H. rewrite (interior_slab M D d Hd). unfold move. eapply in_slab_upd; [exact Hd|exact Hc|lia]. }
  assert (H2 : u (flip d (2 * hi M d - 1) c) = v (flip d (2 * hi M d - 1) c)).
  { apply H. rewrite (interior_slab M D d Hd). unfold flip. eapply in_slab_upd; [exact Hd|exact Hc|lia]. }
  destruct k; cbn [up_value]; auto using reversed_ext.
Qed.

(** ** a list of boundary conditions *)

Definition dressed (M D : box) (bc : nat -> option bc_kind) (u v : fld) : Prop :=
  (forall c, in_box (M ++ D) c -> v c = u c) /\
  forall d, (d < List.length M)%nat ->
    match bc d with
    | Some k => 2 <= hi M d - lo M d /\ (forall c, low_ghost M D 2 d c -> v c = low_value k M d u c) /\ (forall c, up_ghost M D 2 d c -> v c = up_value k M d u c)
    | None => forall c, low_ghost M D 2 d c \/ up_ghost M D 2 d c -> v c = u c
    end.

Lemma strip_other : forall M D d e c, (d < List.length M)%nat -> (e < List.length M)%nat -> d <> e ->
  low_ghost M D 2 d c \/ up_ghost M D 2 d c -> ~ low_ghost M D 2 e c /\ ~ up_ghost M D 2 e c.
Proof.
  intros M D d e c Hd He Ne H.
  assert (I : lo M e <= nth e c 0 < hi M e).
  { assert (exists l u, in_box (slab M D d l u) c) as (l & u & S) by (destruct H as [H|H]; eauto).
    apply in_slab_iff in S as (_ & _ & S); auto. specialize (S e ltac:(congruence) ltac:(rewrite app_length; lia)).
    unfold lo, hi in *. rewrite app_nth1 in S by assumption. exact S. }
  split; intros Q; apply slab_nth in Q; auto; lia.
Qed.

Lemma ghosts_dressed : forall M D g k dims (u v : fld), g = 2 -> shape M D g -> wide M 2 dims ->
  ghosts_set M D g dims (fun d => low_value k M d u) (fun d => up_value k M d u) u v ->
  dressed M D (fun d => if in_dec Nat.eq_dec d dims then Some k else None) u v.
Proof.
  intros M D g k dims u v -> Sh Hw HG. split; [eapply ghosts_interior; eauto|]. destruct HG as (G1 & G2 & G3). intros d Hd.
  destruct (in_dec Nat.eq_dec d dims) as [Hin|Hout].
  - split; [now apply Hw|]. split; intros c Hc; [now apply G1|now apply G2].
  - intros c Hc. apply G3.
    + assert (exists l w, in_box (slab M D d l w) c /\ lo M d - 2 <= l /\ w <= hi M d + 2) as (l & w & S & B1 & B2).
      { assert (lo M d <= hi M d). { destruct Sh as (_ & Sh & _). destruct (nth_error M d) as [iv|] eqn:E; [|apply nth_error_None in E; lia].
          unfold lo, hi. rewrite (nth_error_nth _ _ _ E). apply nth_error_In in E. unfold nonempty in Sh. rewrite Forall_forall in Sh. specialize (Sh iv E). lia. }
        destruct Hc as [Hc|Hc]; [exists (lo M d - 2), (lo M d)|exists (hi M d), (hi M d + 2)]; (split; [exact Hc|lia]). }
      eapply box_incl_in; [|exact S]. apply slab_incl_grow; auto; lia.
    + intros e He. destruct (Hw e He) as [He' _]. apply (strip_other M D d e); auto. congruence.
Qed.

Lemma dressed_trans : forall M D bc1 bc2 (u v w : fld), dressed M D bc1 u v -> dressed M D bc2 v w ->
  dressed M D (fun d => match bc2 d with Some k => Some k | None => bc1 d end) u w.
Proof.
  intros M D bc1 bc2 u v w (I1 & H1) (I2 & H2). split; [intros; rewrite I2, I1; auto|]. intros d Hd. specialize (H1 d Hd). specialize (H2 d Hd).
  destruct (bc2 d) as [k|].
  - destruct H2 as (Hw & G1 & G2). split; [exact Hw|]. split; intros c Hc.
    + rewrite G1 by assumption. eapply low_value_ext; eauto.
    + rewrite G2 by assumption. eapply up_value_ext; eauto.
  - destruct (bc1 d) as [k|].
    + destruct H1 as (Hw & G1 & G2). split; [exact Hw|]. split; intros c Hc; rewrite H2 by auto; auto.
    + intros c Hc. rewrite H2 by assumption. auto.
Qed.

Lemma dressed_ext : forall M D bc1 bc2 (u v : fld), (forall d, (d < List.length M)%nat -> bc1 d = bc2 d) -> dressed M D bc1 u v -> dressed M D bc2 u v.
Proof. intros M D bc1 bc2 u v H (I1 & H1). split; [exact I1|]. intros d Hd. rewrite <- H by assumption. now apply H1. Qed.

Lemma dressed_refl : forall M D (u : fld), dressed M D (fun _ => None) u u.
Proof. intros. split; auto. Qed.

Lemma existsb_dims : forall d ds, existsb (Z.eqb (Z.of_nat d)) (map Z.of_nat ds) = if in_dec Nat.eq_dec d ds then true else false.
Proof.
  intros d ds. destruct (in_dec Nat.eq_dec d ds) as [H|H].
  - apply existsb_exists. exists (Z.of_nat d). split; [now apply in_map|apply Z.eqb_refl].
  - apply not_true_is_false. intros E. apply existsb_exists in E as (z & Hz & E). apply in_map_iff in Hz as (d' & <- & Hd').
    apply Z.eqb_eq in E. assert (d = d') by lia. congruence.
Qed.

Lemma existsb_name : forall q outs, existsb (fun o => String.eqb (id_name o) (id_name q)) outs = if in_dec string_dec (id_name q) (map id_name outs) then true else false.
Proof.
  intros q outs. destruct (in_dec string_dec (id_name q) (map id_name outs)) as [H|H].
  - apply in_map_iff in H as (o & E & Ho). apply existsb_exists. exists o. split; auto. now apply String.eqb_eq.
  - apply not_true_is_false. intros E. apply existsb_exists in E as (o & Ho & E). apply String.eqb_eq in E. apply H. rewrite <- E. now apply in_map.
Qed.

Lemma run_bcs_ok : forall fuel M ks bl (m : mgr F) L, state_ok m M L ks -> bcs_ready M fuel ks bl ->
  exists m' L', run_bcs fuel bl m = Done m' /\ state_ok m' M L' ks /\ same_run m m' /\
    (forall q u, In q ks -> field_get L q = Some u -> exists v, field_get L' q = Some v /\ dressed M (comp_box q) (bc_of bl q) u v) /\
    (forall q, (forall b, In b bl -> ~ In (id_name q) (map id_name (bc_outs b))) -> field_get L' q = field_get L q).
Proof.
  intros fuel M ks bl. induction bl as [|b bl IH]; intros m L Hs Hr.
  - exists m, L. split; [reflexivity|]. split; [exact Hs|]. split; [apply same_run_refl|]. split; auto.
    intros q u _ E. exists u. split; [exact E|]. apply dressed_refl.
  - inversion Hr as [|? ? (Hk & ds & Ed & Hb) Hr']; subst. destruct Hs as (Hm & HL & Hc). unfold run_bcs. cbn [ofold]. rewrite Ed.
    destruct (api_bc_solve (bc_k b) m M L fuel ds (bc_outs b) Hm HL) as (m1 & L1 & R1 & A1 & A2 & A3 & A4 & A5 & A6 & _); auto.
    { eapply compat_perm; [exact Hc|]. intros x Hx. rewrite in_app_iff in *. destruct Hx; auto. }
    rewrite R1. cbn [obind].
    assert (Hc1 : compatible (ids L1 ++ ks)).
    { eapply compat_perm; [exact Hc|]. intros x Hx. rewrite in_app_iff in *. destruct Hx as [Hx|]; auto.
      apply A4, in_app_or in Hx as [|Hx]; auto. }
    destruct (IH m1 L1) as (m2 & L2 & R2 & B1 & B2 & B3 & B4); auto; [split; auto|].
    exists m2, L2. split; [exact R2|]. split; [exact B1|]. split; [eapply same_run_trans; eauto|]. split.
    + intros q u Hq Gq. assert (exists v1, field_get L1 q = Some v1 /\ dressed M (comp_box q)
        (fun d => if existsb (Z.eqb (Z.of_nat d)) (bc_dims b) && existsb (fun o => String.eqb (id_name o) (id_name q)) (bc_outs b)
                  then Some (bc_k b) else None) u v1) as (v1 & G1 & D1).
      { rewrite existsb_name. destruct (in_dec string_dec (id_name q) (map id_name (bc_outs b))) as [Hin|Hout].
        - apply in_map_iff in Hin as (q' & E & Hq'). assert (q' = q) by (apply Hc; auto; apply in_or_app; right; auto). subst q'.
          destruct (A6 q Hq') as (v & Gv & HG). exists v. split; [exact Gv|]. unfold field_or_zero in HG. rewrite Gq in HG.
          destruct Hb as [Hw Hf]. rewrite Forall_forall in Hf. destruct (Hf q Hq') as (Fq & _).
          eapply dressed_ext; [|eapply (ghosts_dressed _ _ 2); eauto]. intros d _. cbn beta. rewrite Ed, existsb_dims, andb_true_r. now destruct (in_dec _ _ _).
        - exists u. rewrite A5 by assumption. split; [exact Gq|]. eapply dressed_ext; [|apply dressed_refl]. intros d _. cbn beta. now rewrite andb_false_r. }
      destruct (B3 q v1 Hq G1) as (v2 & G2 & D2). exists v2. split; [exact G2|]. eapply dressed_ext; [|eapply dressed_trans; eauto].
      intros d _. reflexivity.
    + intros q Hq. rewrite B4, A5; auto; [apply Hq; now left|]. intros b' Hb'. apply Hq. now right.
Qed.

(** ** looking across the boundary *)

Lemma seen_ok : forall M P n bc k d (u v U : fld) x j t, let D := P ++ [(0, n)] in
  dressed M D bc u v -> (forall c, in_box (M ++ D) c -> u c = U c) -> (d < List.length M)%nat -> bc d = Some k ->
  in_box (M ++ P) x -> 0 <= j < n -> -2 <= t <= 2 -> v (move d t x ++ [j]) = seen k M d U (move d t x ++ [j]).
Proof.
  intros M P n bc k d u v U x j t D (I1 & H1) HU Hd Ek Hx Hj Ht. specialize (H1 d Hd). rewrite Ek in H1. destruct H1 as (Hw & G1 & G2).
  assert (HI : in_box (M ++ D) (x ++ [j])) by (unfold D; rewrite app_assoc; now apply snoc_in).
  pose proof (in_interior_nth _ _ _ _ HI Hd) as B.
  assert (LX : (d < List.length x)%nat) by (apply Forall2_length in Hx; rewrite app_length in Hx; lia).
  rewrite app_nth1 in B by assumption. assert (HS := HI). rewrite (interior_slab M D d Hd) in HS.
  assert (Mv : forall l w, l <= nth d x 0 + t < w -> in_box (slab M D d l w) (move d t x ++ [j])).
  { intros l w B'. rewrite <- move_snoc by assumption. unfold move. eapply in_slab_upd; eauto. rewrite app_nth1 by assumption. exact B'. }
  unfold seen. assert (N : nth d (move d t x ++ [j]) 0 = nth d x 0 + t).
  { rewrite app_nth1 by (now rewrite move_length). unfold move. apply nth_upd_eq. exact LX. }
  rewrite N. destruct (Z.ltb_spec (nth d x 0 + t) (lo M d)).
  - assert (LG : low_ghost M D 2 d (move d t x ++ [j])) by (apply Mv; lia).
    rewrite G1 by exact LG. eapply low_value_ext; eauto.
  - destruct (Z.leb_spec (hi M d) (nth d x 0 + t)).
    + assert (UG : up_ghost M D 2 d (move d t x ++ [j])) by (apply Mv; lia).
      rewrite G2 by exact UG. eapply up_value_ext; eauto.
    + assert (II : in_box (M ++ D) (move d t x ++ [j])) by (rewrite (interior_slab M D d Hd); apply Mv; lia).
      rewrite I1, HU; auto.
Qed.

Lemma fold_fluxes_ext : forall (W W' : nat -> list Z -> Z -> F) dx ds r r' x j,
  (forall d, In d ds -> W d x j = W' d x j /\ W d (move d 1 x) j = W' d (move d 1 x) j) -> r x j = r' x j ->
  fold_left (with_fluxes W dx) ds r x j = fold_left (with_fluxes W' dx) ds r' x j.
Proof.
  intros W W' dx. induction ds as [|d ds IH]; intros r r' x j H E; cbn [fold_left]; auto.
  apply IH; [intros; apply H; now right|]. unfold with_fluxes. destruct (H d) as [H1 H2]; [now left|]. now rewrite E, H1, H2.
Qed.

(** What a flux solver adds to a right-hand side of zero. *)
Lemma fv_added : forall M P n G bc kd ds dx (u v U r w : fld), let D := P ++ [(0, n)] in
  dressed M D bc u v -> (forall c, in_box (M ++ D) c -> u c = U c) -> (forall d, In d ds -> (d < List.length M)%nat /\ bc d = Some (kd d)) ->
  (forall c, in_box (M ++ D) c -> r c = f0) ->
  fluxes_added M P n (wall n G v) dx ds r w -> forall c, in_box (M ++ D) c -> w c = fv_rhs n G M kd dx ds U c.
Proof.
  intros M P n G bc kd ds dx u v U r w D HD HU Hds Hr HF c Hc.
  destruct c as [|c0 c] using rev_ind; [apply Forall2_length in Hc; unfold D in Hc; rewrite !app_length in Hc; cbn in Hc; lia|]. clear IHc. rename c0 into j, c into x.
  assert (HI := Hc). unfold D in Hc. rewrite app_assoc in Hc. apply snoc_in in Hc as [Hx Hj].
  rewrite HF by assumption. unfold fv_rhs, cellwise. rewrite removelast_last, last_last.
  apply fold_fluxes_ext; [|now rewrite Hr]. intros d Hd. destruct (Hds d Hd) as [Hd' Ek].
  assert (LX : (d < List.length x)%nat) by (apply Forall2_length in Hx; rewrite app_length in Hx; lia).
  assert (LX' : (d < List.length (move d 1 x))%nat) by (now rewrite move_length).
  split; apply wall_ext; auto using move_0.
  - intros t i Ht Hi. eapply seen_ok; eauto. lia.
  - intros t i Ht Hi. rewrite move_move by assumption. eapply seen_ok; eauto. lia.
Qed.

(** ** phases of a stage *)

Lemma room_fits : forall M fuel ks k, room M fuel ks -> In k ks -> id_fits M k /\ (1 <= fuel)%nat.
Proof. intros M fuel ks k H Hk. unfold room in H. rewrite Forall_forall in H. destruct (H k Hk) as [H1 H2]. split; auto. exact (fits_fuel _ _ _ H1 H2). Qed.

Lemma fill_phase : forall fuel M ks outs (m : mgr F) L, state_ok m M L ks -> room M fuel ks -> incl outs ks -> outs <> [] ->
  exists m' L', fill_solve fuel (fofz 0) outs m = Done m' /\ state_ok m' M L' ks /\ same_run m m' /\
    (forall k, In k outs -> interior_is M L' k (fun _ => f0)) /\
    (forall k, ~ In (id_name k) (map id_name outs) -> field_get L' k = field_get L k).
Proof.
  intros fuel M ks outs m L (Hm & HL & Hc) Hr Hi Hne.
  destruct outs as [|o outs]; [congruence|]. assert (Ho : In o ks) by (apply Hi; now left).
  destruct (api_fill_solve m M L fuel (fofz 0) (o :: outs) Hm HL) as (m' & L' & R & A1 & A2 & A3 & A4 & A5 & A6).
  { eapply compat_perm; [exact Hc|]. intros x Hx. rewrite in_app_iff in *. destruct Hx; auto. }
  { apply Forall_forall. intros k Hk. apply (room_fits M fuel ks); auto. }
  { apply (room_fits M fuel ks o); auto. }
  exists m', L'. split; [exact R|]. split; [split; [exact A1|split; [exact A2|]]|split; [exact A3|split; [|exact A5]]].
  - eapply compat_perm; [exact Hc|]. intros x Hx. rewrite in_app_iff in *. destruct Hx as [Hx|]; auto. apply A4, in_app_or in Hx as [|Hx]; auto.
  - intros k Hk. destruct (A6 k Hk) as (v & Gv & Ev). exists v. split; [exact Gv|]. intros c Hcc. apply Ev. apply in_interior_grow; auto.
    apply (room_fits M fuel ks); auto.
Qed.

(** Variable [q] looks like [U] from the interior with boundary conditions [kd] in
    the dimensions [ds]. *)
Definition looks (M : box) (L : list (vid * fld)) (q : vid) (kd : nat -> bc_kind) (ds : list nat) (U : fld) : Prop :=
  exists bc u v, field_get L q = Some v /\ dressed M (comp_box q) bc u v /\ (forall c, in_box (M ++ comp_box q) c -> u c = U c) /\
    forall d, In d ds -> (d < List.length M)%nat /\ bc d = Some (kd d).

Lemma looks_interior : forall M L q kd ds U, looks M L q kd ds U -> interior_is M L q U.
Proof. intros M L q kd ds U (bc & u & v & G & (D & _) & E & _). exists v. split; [exact G|]. intros c Hc. now rewrite D, E. Qed.

Lemma looks_keep : forall M L L' q kd ds U, field_get L' q = field_get L q -> looks M L q kd ds U -> looks M L' q kd ds U.
Proof. intros M L L' q kd ds U E (bc & u & v & G & H). exists bc, u, v. split; [congruence|exact H]. Qed.

Lemma comp_box_split : forall k, comp_box k = [(0, bs_points (id_basis k))] ++ [(0, Z.of_nat (List.length (id_comps k)))].
Proof. reflexivity. Qed.

Lemma flux_phase : forall (solve : list vid -> list vid -> mgr F -> out (mgr F)) n G ds (m : mgr F) M L ks q r kd U fuel dx,
  (forall u, rhs_ready m M L ks q r u n fuel -> exists m' L', solve [q] [r] m = Done m' /\ compatible (ids L' ++ ks) /\
     rhs_added m m' M L L' r (wall (Z.of_nat n) G u) dx ds) ->
  state_ok m M L ks -> room M fuel ks -> spaced (mg_grid m) M -> In q ks -> In r ks ->
  comp_box r = comp_box q -> List.length (id_comps q) = n -> id_name q <> id_name r ->
  looks M L q kd ds U -> interior_is M L r (fun _ => f0) ->
  exists m' L', solve [q] [r] m = Done m' /\ state_ok m' M L' ks /\ same_run m m' /\
    interior_is M L' r (fv_rhs (Z.of_nat n) G M kd dx ds U) /\ forall k, id_name k <> id_name r -> field_get L' k = field_get L k.
Proof.
  intros solve n G ds m M L ks q r kd U fuel dx Hsolve (Hm & HL & Hc) Hr Hsp Hq Hr' Cb Hn Nq (bc & u & v & Gv & Dv & Eu & Hds) (z & Gz & Ez).
  destruct (room_fits _ _ _ _ Hr Hq) as [Fq Hfu].
  assert (HR : rhs_ready m M L ks q r v n fuel).
  { unfold rhs_ready. repeat (split; [first [assumption|congruence]|]). split.
    { intros x [<-|[<-|[]]]; assumption. }
    repeat (split; [first [assumption|congruence]|]). exact Hsp. }
  destruct (Hsolve v HR) as (m' & L' & R & C' & (B1 & B2 & B3 & _ & B5 & w & Gw & HF)).
  exists m', L'. split; [exact R|]. split; [split; [exact B1|split; [exact B2|exact C']]|]. split; [exact B3|]. split; [|exact B5].
  exists w. split; [exact Gw|]. intros c Hc'. pose proof (ready_parts _ _ _ _ _ _ _ _ _ HR) as (ED & Ln & _).
  rewrite Ln in HF. rewrite ED in *. rewrite Cb in Hc'.
  eapply (fv_added M [(0, bs_points (id_basis r))] (Z.of_nat n)); [exact Dv|exact Eu|exact Hds| |exact HF|exact Hc'].
  intros c' Hcc. unfold field_or_zero. rewrite Gz. apply Ez. now rewrite Cb.
Qed.

Lemma euler_phase : forall gamma (m : mgr F) M L ks q r kd U fuel dt, mg_dt m = Some dt -> (List.length M <= 4)%nat ->
  state_ok m M L ks -> room M fuel ks -> spaced (mg_grid m) M -> In q ks -> In r ks ->
  comp_box r = comp_box q -> List.length (id_comps q) = 5%nat -> id_name q <> id_name r ->
  looks M L q kd (seq 0 (List.length M)) U -> interior_is M L r (fun _ => f0) ->
  exists m' L', euler_solve fuel gamma [q] [r] m = Done m' /\ state_ok m' M L' ks /\ same_run m m' /\
    interior_is M L' r (fv_rhs 5 (flux_of (euler_flux gamma)) M kd (spacing (mg_grid m)) (seq 0 (List.length M)) U) /\
    forall k, id_name k <> id_name r -> field_get L' k = field_get L k.
Proof. intros. eapply (flux_phase (euler_solve fuel gamma) 5); eauto. intros u HR. eapply api_euler; eauto. Qed.

Lemma maxwell_phase : forall c (m : mgr F) M L ks q r kd U fuel,
  state_ok m M L ks -> room M fuel ks -> spaced (mg_grid m) M -> In q ks -> In r ks ->
  comp_box r = comp_box q -> List.length (id_comps q) = 6%nat -> id_name q <> id_name r ->
  looks M L q kd (seq 0 (Nat.min 3 (List.length M))) U -> interior_is M L r (fun _ => f0) ->
  exists m' L', maxwell_solve fuel c [q] [r] m = Done m' /\ state_ok m' M L' ks /\ same_run m m' /\
    interior_is M L' r (fv_rhs 6 (flux_of (maxwell_flux c)) M kd (spacing (mg_grid m)) (seq 0 (Nat.min 3 (List.length M))) U) /\
    forall k, id_name k <> id_name r -> field_get L' k = field_get L k.
Proof. intros. eapply (flux_phase (maxwell_solve fuel c) 6); eauto. intros u HR. eapply api_maxwell; eauto. Qed.

Lemma source_state : forall (m m' : mgr F) M L L' ks r X, compatible (ids L ++ ks) -> In r ks -> source_added m m' M L L' r X -> state_ok m' M L' ks.
Proof.
  intros m m' M L L' ks r X Hc Hr (B1 & B2 & _ & B4 & _). split; [exact B1|]. split; [exact B2|].
  eapply compat_perm; [exact Hc|]. intros x Hx. rewrite in_app_iff in *. destruct Hx as [Hx|]; auto. apply B4, in_app_or in Hx as [|[<-|[]]]; auto.
Qed.

Lemma cell_split : forall M k c, in_box (M ++ comp_box k) c -> c = removelast c ++ [last c 0] /\
  in_box (M ++ [(0, bs_points (id_basis k))]) (removelast c) /\ 0 <= last c 0 < Z.of_nat (List.length (id_comps k)).
Proof.
  intros M k c Hc. destruct c as [|j x] using rev_ind; [apply Forall2_length in Hc; rewrite app_length in Hc; cbn in Hc; lia|].
  rewrite removelast_last, last_last. rewrite comp_box_split, app_assoc in Hc. apply snoc_in in Hc as [H1 H2]. auto.
Qed.
Lemma cell_join : forall M k x j, in_box (M ++ [(0, bs_points (id_basis k))]) x -> 0 <= j < Z.of_nat (List.length (id_comps k)) -> in_box (M ++ comp_box k) (x ++ [j]).
Proof. intros. rewrite comp_box_split, app_assoc. now apply snoc_in. Qed.

Lemma lorentz_phase : forall com (m : mgr F) M L ks qf qe r U E R fuel,
  state_ok m M L ks -> room M fuel ks -> In qf ks -> In qe ks -> In r ks ->
  comp_box r = comp_box qf -> bs_points (id_basis qe) = bs_points (id_basis qf) -> List.length (id_comps qf) = 5%nat -> List.length (id_comps qe) = 6%nat ->
  id_name qf <> id_name r -> id_name qe <> id_name r ->
  interior_is M L qf U -> interior_is M L qe E -> interior_is M L r R ->
  exists m' L', lorentz_solve fuel com [qf; qe] [r] m = Done m' /\ state_ok m' M L' ks /\ same_run m m' /\
    interior_is M L' r (with_lorentz com U E R) /\ forall k, id_name k <> id_name r -> field_get L' k = field_get L k.
Proof.
  intros com m M L ks qf qe r U E R fuel (Hm & HL & Hc) Hr If Ie Ir Cb Pe Nf Ne Dn De (u & Gu & Eu) (e & Ge & Ee) (z & Gz & Ez).
  assert (Cb' := Cb). unfold comp_box in Cb'. injection Cb' as P1 P2. apply Nat2Z.inj in P2.
  destruct (api_lorentz m M L qf qe r u e com fuel) as (m' & L' & S1 & S2); auto.
  - split; [exact Hm|]. split; [exact HL|]. split; [|split].
    + eapply compat_perm; [exact Hc|]. intros x Hx. rewrite in_app_iff in *. destruct Hx as [|[<-|[<-|[<-|[]]]]]; auto.
    + apply Forall_forall. intros k [<-|[<-|[<-|[]]]]; eapply room_fits; eauto.
    + unfold room in Hr. rewrite Forall_forall in Hr. apply Forall_forall. intros k [<-|[<-|[<-|[]]]]; apply Hr; auto.
  - split; [congruence|lia].
  - split; [congruence|lia].
  - exists m', L'. split; [exact S1|]. split; [eapply source_state; eauto|]. destruct S2 as (_ & _ & B3 & _ & B5 & w & Gw & HF).
    split; [exact B3|]. split; [|exact B5]. exists w. split; [exact Gw|]. intros c Hc'.
    destruct (room_fits _ _ _ r Hr Ir) as [Fr _].
    destruct (cell_split _ _ _ Hc') as (Ec & Hx & Hj). assert (HG := in_interior_grow _ _ _ Fr Hc'). rewrite Ec in HG.
    destruct (HF _ _ HG) as [H1 _]. specialize (H1 Hx). rewrite <- Ec in H1. rewrite H1. unfold with_lorentz.
    unfold field_or_zero. rewrite Gz. rewrite (Ez c Hc').
    assert (Q : forall i, 0 <= i < 5 -> u (removelast c ++ [i]) = U (removelast c ++ [i])).
    { intros i Hi. apply Eu. apply cell_join; [now rewrite <- P1|lia]. }
    assert (Q' : forall i, 0 <= i < 6 -> e (removelast c ++ [i]) = E (removelast c ++ [i])).
    { intros i Hi. apply Ee. apply cell_join; [now rewrite Pe, <- P1|lia]. }
    assert (last c 0 = 0 \/ last c 0 = 1 \/ last c 0 = 2 \/ last c 0 = 3 \/ last c 0 = 4) as J by lia.
    unfold lorentz_rate. destruct J as [->|[->|[->|[->| ->]]]]; rewrite ?Q, ?Q' by lia; reflexivity.
Qed.

Lemma current_phase : forall ms (m : mgr F) M L ks q1 q2 r U1 U2 R fuel,
  state_ok m M L ks -> room M fuel ks -> In q1 ks -> In q2 ks -> In r ks -> List.length ms = 2%nat ->
  bs_points (id_basis q1) = bs_points (id_basis r) -> bs_points (id_basis q2) = bs_points (id_basis r) ->
  List.length (id_comps q1) = 5%nat -> List.length (id_comps q2) = 5%nat -> List.length (id_comps r) = 6%nat ->
  id_name q1 <> id_name r -> id_name q2 <> id_name r ->
  interior_is M L q1 U1 -> interior_is M L q2 U2 -> interior_is M L r R ->
  exists m' L', current_solve fuel ms [q1; q2] [r] m = Done m' /\ state_ok m' M L' ks /\ same_run m m' /\
    interior_is M L' r (with_current ms [U1; U2] R) /\ forall k, id_name k <> id_name r -> field_get L' k = field_get L k.
Proof.
  intros ms m M L ks q1 q2 r U1 U2 R fuel (Hm & HL & Hc) Hr I1 I2 Ir Hms Pe1 Pe2 N1 N2 Nr D1 D2 (u1 & G1 & E1) (u2 & G2 & E2) (z & Gz & Ez).
  destruct (api_current m M L r ms [q1; q2] [u1; u2] fuel) as (m' & L' & S1 & S2).
  - split; [exact Hm|]. split; [exact HL|]. split; [|split].
    + eapply compat_perm; [exact Hc|]. intros x Hx. rewrite in_app_iff in *. destruct Hx as [|[<-|[<-|[<-|[]]]]]; auto.
    + apply Forall_forall. intros k [<-|[<-|[<-|[]]]]; eapply room_fits; eauto.
    + unfold room in Hr. rewrite Forall_forall in Hr. apply Forall_forall. intros k [<-|[<-|[<-|[]]]]; apply Hr; auto.
  - repeat constructor; assumption.
  - exact Hms.
  - unfold has_comps. repeat constructor; auto; lia.
  - lia.
  - exists m', L'. split; [exact S1|]. split; [eapply source_state; eauto|]. destruct S2 as (_ & _ & B3 & _ & B5 & w & Gw & HF).
    split; [exact B3|]. split; [|exact B5]. exists w. split; [exact Gw|]. intros c Hc'.
    destruct (room_fits _ _ _ r Hr Ir) as [Fr _].
    destruct (cell_split _ _ _ Hc') as (Ec & Hx & Hj). assert (HG := in_interior_grow _ _ _ Fr Hc'). rewrite Ec in HG.
    destruct (HF _ _ HG) as [H1 H2]. rewrite <- Ec in H1, H2. unfold with_current. destruct (Z.ltb_spec (last c 0) 3).
    + rewrite H1 by auto. unfold field_or_zero. rewrite Gz, (Ez c Hc'). destruct ms as [|a [|b [|]]]; cbn [List.length] in Hms; try lia. cbn [current].
      rewrite E1 by (apply cell_join; [now rewrite Pe1|lia]). rewrite E2 by (apply cell_join; [now rewrite Pe2|lia]). reflexivity.
    + rewrite H2 by auto. unfold field_or_zero. now rewrite Gz, (Ez c Hc').
Qed.

Lemma bcs_looks : forall M L L' bl q kd ds U, interior_is M L q U ->
  (forall u, field_get L q = Some u -> exists v, field_get L' q = Some v /\ dressed M (comp_box q) (bc_of bl q) u v) ->
  (forall d, In d ds -> (d < List.length M)%nat /\ bc_of bl q d = Some (kd d)) -> looks M L' q kd ds U.
Proof. intros M L L' bl q kd ds U (u & G & E) H Hd. destruct (H u G) as (v & Gv & Dv). exists (bc_of bl q), u, v. auto. Qed.

(** ** the right-hand sides of the programs *)

Lemma single_rhs : forall (solve : list vid -> list vid -> mgr F -> out (mgr F)) n G ds gr dt M ks q r kd fuel bl,
  (forall m L u, mg_grid m = gr -> mg_dt m = Some dt -> rhs_ready m M L ks q r u n fuel -> exists m' L', solve [q] [r] m = Done m' /\ compatible (ids L' ++ ks) /\
     rhs_added m m' M L L' r (wall (Z.of_nat n) G u) (spacing gr) ds) ->
  room M fuel ks -> spaced gr M -> In q ks -> In r ks -> comp_box r = comp_box q -> List.length (id_comps q) = n -> id_name q <> id_name r ->
  bcs_ready M fuel [q] bl -> (forall d, In d ds -> (d < List.length M)%nat /\ bc_of bl q d = Some (kd d)) ->
  computes_sys (fun m => obind (run_bcs fuel bl m) (fun m => obind (fill_solve fuel (fofz 0) [r] m) (solve [q] [r]))) gr dt M ks [q] [r]
    (fun U i => fv_rhs (Z.of_nat n) G M kd (spacing gr) ds (U 0%nat)).
Proof.
  intros solve n G ds gr dt M ks q r kd fuel bl Hsolve Hr Hsp Iq Ir Cb Hn Nq Hbl Hds m L U Hs Hg Hd HU.
  assert (Hbl' : bcs_ready M fuel ks bl).
  { eapply Forall_impl; [|exact Hbl]. cbn. intros b (H1 & H2). split; [|exact H2]. intros x Hx. apply H1 in Hx as [<-|[]]. exact Iq. }
  destruct (run_bcs_ok fuel M ks bl m L Hs Hbl') as (m1 & L1 & R1 & S1 & Q1 & B1 & O1).
  assert (Lk : looks M L1 q kd ds (U 0%nat)).
  { eapply bcs_looks; [apply (HU 0%nat q eq_refl)| |exact Hds]. intros u. now apply B1. }
  destruct (fill_phase fuel M ks [r] m1 L1 S1 Hr) as (m2 & L2 & R2 & S2 & Q2 & Z2 & O2); [intros x [<-|[]]; exact Ir|discriminate|].
  assert (T2 := same_run_trans _ _ _ Q1 Q2).
  destruct (flux_phase solve n G ds m2 M L2 ks q r kd (U 0%nat) fuel (spacing gr)) as (m3 & L3 & R3 & S3 & Q3 & V3 & O3); auto.
  { intros u. apply Hsolve; destruct T2 as (E1 & E2 & _); congruence. }
  { destruct T2 as (E1 & _). rewrite E1, Hg. exact Hsp. }
  { eapply looks_keep; [|exact Lk]. apply O2. cbn. intuition. }
  { apply Z2. now left. }
  rewrite R1. cbn [obind]. rewrite R2. cbn [obind]. exists m3, L3. split; [exact R3|]. split; [exact S3|]. split; [eapply same_run_trans; eauto|].
  split; [|split].
  - intros [|i] k E; cbn in E; [injection E as <-|destruct i; discriminate].
    eapply looks_interior. eapply looks_keep; [|exact Lk]. rewrite O3 by assumption. apply O2. cbn. intuition.
  - intros [|i] k E; cbn in E; [injection E as <-|destruct i; discriminate]. exact V3.
  - intros k N1 N2. cbn in N1, N2. rewrite O3 by intuition. rewrite O2 by (cbn; intuition). apply O1. intros b Hb X.
    unfold bcs_ready in Hbl. rewrite Forall_forall in Hbl. destruct (Hbl b Hb) as (H1 & _). apply in_map_iff in X as (o & Eo & Ho). apply H1 in Ho as [<-|[]]. intuition.
Qed.

Definition plasma_rhs (fuel : nat) (p : @plasma F) (bl : list bc_call) (qe qi qf re ri rf : vid) (m : mgr F) : out (mgr F) :=
  obind (run_bcs fuel bl m) (fun m =>
  obind (fill_solve fuel (fofz 0) [re; ri; rf] m) (fun m =>
  obind (euler_solve fuel (pl_gamma p) [qe] [re] m) (fun m =>
  obind (lorentz_solve fuel (pl_e p) [qe; qf] [re] m) (fun m =>
  obind (euler_solve fuel (pl_gamma p) [qi] [ri] m) (fun m =>
  obind (lorentz_solve fuel (pl_i p) [qi; qf] [ri] m) (fun m =>
  obind (maxwell_solve fuel (pl_c p) [qf] [rf] m) (fun m =>
  current_solve fuel (pl_ms p) [qe; qi] [rf] m))))))).

Lemma plasma_rhs_ok : forall p gr dt M ks qe qi qf re ri rf (bc : nat -> nat -> bc_kind) fuel bl,
  let ds := seq 0 (List.length M) in let ds3 := seq 0 (Nat.min 3 (List.length M)) in
  (List.length M <= 4)%nat -> room M fuel ks -> spaced gr M -> incl [qe; qi; qf; re; ri; rf] ks -> NoDup (map id_name [qe; qi; qf; re; ri; rf]) ->
  comp_box re = comp_box qe -> comp_box ri = comp_box qi -> comp_box rf = comp_box qf ->
  List.length (id_comps qe) = 5%nat -> List.length (id_comps qi) = 5%nat -> List.length (id_comps qf) = 6%nat ->
  bs_points (id_basis qe) = bs_points (id_basis qf) -> bs_points (id_basis qi) = bs_points (id_basis qf) -> List.length (pl_ms p) = 2%nat ->
  bcs_ready M fuel [qe; qi; qf] bl ->
  (forall d, In d ds -> bc_of bl qe d = Some (bc 0%nat d) /\ bc_of bl qi d = Some (bc 1%nat d)) -> (forall d, In d ds3 -> bc_of bl qf d = Some (bc 2%nat d)) ->
  computes_sys (plasma_rhs fuel p bl qe qi qf re ri rf) gr dt M ks [qe; qi; qf] [re; ri; rf]
    (plasma_op p (flux_of (euler_flux (pl_gamma p))) (flux_of (maxwell_flux (pl_c p))) M bc (spacing gr) ds ds3).
Proof.
  intros p gr dt M ks qe qi qf re ri rf bc fuel bl ds ds3 H4 Hr Hsp Hk Hn Ce Ci Cf Ne Ni Nf Pe Pi Hms Hbl Hd1 Hd2 m L U Hs Hg Hd HU.
  assert (Ins : In qe ks /\ In qi ks /\ In qf ks /\ In re ks /\ In ri ks /\ In rf ks) by (repeat split; apply Hk; cbn; auto 8).
  destruct Ins as (Ie & Ii & If & Ire & Iri & Irf). cbn [map] in Hn.
  rewrite !NoDup_cons_iff in Hn. destruct Hn as (N1 & N2 & N3 & N4 & N5 & N6 & _). cbn [In] in N1, N2, N3, N4, N5, N6.
  assert (Hbl' : bcs_ready M fuel ks bl).
  { eapply Forall_impl; [|exact Hbl]. cbn. intros b (X1 & X2). split; [|exact X2]. intros x Hx. apply X1 in Hx as [<-|[<-|[<-|[]]]]; assumption. }
  destruct (run_bcs_ok fuel M ks bl m L Hs Hbl') as (m1 & L1 & R1 & S1 & Q1 & B1 & O1).
  assert (Lt : forall d, In d ds -> (d < List.length M)%nat) by (intros d Hin; apply in_seq in Hin; lia).
  assert (Lt3 : forall d, In d ds3 -> (d < List.length M)%nat) by (intros d Hin; apply in_seq in Hin; lia).
  assert (Le : looks M L1 qe (bc 0%nat) ds (U 0%nat)).
  { eapply bcs_looks; [apply (HU 0%nat qe eq_refl)|intros u; now apply B1|]. intros d Hin. split; [auto|now apply Hd1]. }
  assert (Li : looks M L1 qi (bc 1%nat) ds (U 1%nat)).
  { eapply bcs_looks; [apply (HU 1%nat qi eq_refl)|intros u; now apply B1|]. intros d Hin. split; [auto|now apply Hd1]. }
  assert (Lf : looks M L1 qf (bc 2%nat) ds3 (U 2%nat)).
  { eapply bcs_looks; [apply (HU 2%nat qf eq_refl)|intros u; now apply B1|]. intros d Hin. split; [auto|now apply Hd2]. }
  destruct (fill_phase fuel M ks [re; ri; rf] m1 L1 S1 Hr) as (m2 & L2 & R2 & S2 & Q2 & Z2 & O2); [intros x [<-|[<-|[<-|[]]]]; assumption|discriminate|].
  assert (T2 := same_run_trans _ _ _ Q1 Q2).
  assert (Run : forall m', same_run m m' -> mg_grid m' = gr /\ mg_dt m' = Some dt /\ spaced (mg_grid m') M).
  { intros m' (E1 & E2 & _). rewrite E1, E2, Hg. auto. }
  assert (Fr2 : forall q, id_name q <> id_name re -> id_name q <> id_name ri -> id_name q <> id_name rf -> field_get L2 q = field_get L1 q).
  { intros q X1 X2 X3. apply O2. cbn. intuition. }
  destruct (Run m2 T2) as (Gr2 & Dt2 & Sp2).
  destruct (euler_phase (pl_gamma p) m2 M L2 ks qe re (bc 0%nat) (U 0%nat) fuel dt) as (m3 & L3 & R3 & S3 & Q3 & V3 & O3); auto; try solve [intuition congruence].
  { eapply looks_keep; [|exact Le]. apply Fr2; intuition congruence. } { apply Z2. cbn. auto. }
  assert (T3 := same_run_trans _ _ _ T2 Q3).
  assert (Xe : interior_is M L3 qe (U 0%nat)).
  { eapply interior_keep; [|eapply looks_interior; exact Le]. intros u E. rewrite O3 by (intuition congruence). rewrite Fr2; auto; intuition congruence. }
  assert (Xf : interior_is M L3 qf (U 2%nat)).
  { eapply interior_keep; [|eapply looks_interior; exact Lf]. intros u E. rewrite O3 by (intuition congruence). rewrite Fr2; auto; intuition congruence. }
  destruct (lorentz_phase (pl_e p) m3 M L3 ks qe qf re (U 0%nat) (U 2%nat) _ fuel S3 Hr Ie If Ire Ce ltac:(congruence) Ne Nf ltac:(intuition congruence) ltac:(intuition congruence)
    Xe Xf V3) as (m4 & L4 & R4 & S4 & Q4 & V4 & O4).
  assert (T4 := same_run_trans _ _ _ T3 Q4). destruct (Run m4 T4) as (Gr4 & Dt4 & Sp4).
  assert (Fr4 : forall q, id_name q <> id_name re -> id_name q <> id_name ri -> id_name q <> id_name rf -> field_get L4 q = field_get L1 q).
  { intros q X1 X2 X3. rewrite O4, O3 by assumption. now apply Fr2. }
  destruct (euler_phase (pl_gamma p) m4 M L4 ks qi ri (bc 1%nat) (U 1%nat) fuel dt) as (m5 & L5 & R5 & S5 & Q5 & V5 & O5); auto; try solve [intuition congruence].
  { eapply looks_keep; [|exact Li]. apply Fr4; intuition congruence. }
  { eapply interior_keep; [|apply Z2; cbn; auto]. intros u E. rewrite O4, O3 by (intuition congruence). exact E. }
  assert (T5 := same_run_trans _ _ _ T4 Q5).
  assert (Yi : interior_is M L5 qi (U 1%nat)).
  { eapply interior_keep; [|eapply looks_interior; exact Li]. intros u E. rewrite O5 by (intuition congruence). rewrite Fr4; auto; intuition congruence. }
  assert (Yf : interior_is M L5 qf (U 2%nat)).
  { eapply interior_keep; [|eapply looks_interior; exact Lf]. intros u E. rewrite O5 by (intuition congruence). rewrite Fr4; auto; intuition congruence. }
  destruct (lorentz_phase (pl_i p) m5 M L5 ks qi qf ri (U 1%nat) (U 2%nat) _ fuel S5 Hr Ii If Iri Ci ltac:(congruence) Ni Nf ltac:(intuition congruence) ltac:(intuition congruence)
    Yi Yf V5) as (m6 & L6 & R6 & S6 & Q6 & V6 & O6).
  assert (T6 := same_run_trans _ _ _ T5 Q6). destruct (Run m6 T6) as (Gr6 & Dt6 & Sp6).
  assert (Fr6 : forall q, id_name q <> id_name re -> id_name q <> id_name ri -> id_name q <> id_name rf -> field_get L6 q = field_get L1 q).
  { intros q X1 X2 X3. rewrite O6, O5 by assumption. now apply Fr4. }
  destruct (maxwell_phase (pl_c p) m6 M L6 ks qf rf (bc 2%nat) (U 2%nat) fuel) as (m7 & L7 & R7 & S7 & Q7 & V7 & O7); auto; try solve [intuition congruence].
  { eapply looks_keep; [|exact Lf]. apply Fr6; intuition congruence. }
  { eapply interior_keep; [|apply Z2; cbn; auto]. intros u E. rewrite O6, O5, O4, O3 by (intuition congruence). exact E. }
  assert (T7 := same_run_trans _ _ _ T6 Q7).
  assert (Cf' := Cf). unfold comp_box in Cf'. injection Cf' as Pf1 Pf2. apply Nat2Z.inj in Pf2.
  assert (Ze : interior_is M L7 qe (U 0%nat)).
  { eapply interior_keep; [|eapply looks_interior; exact Le]. intros u E. rewrite O7 by (intuition congruence). rewrite Fr6; auto; intuition congruence. }
  assert (Zi : interior_is M L7 qi (U 1%nat)).
  { eapply interior_keep; [|eapply looks_interior; exact Li]. intros u E. rewrite O7 by (intuition congruence). rewrite Fr6; auto; intuition congruence. }
  destruct (current_phase (pl_ms p) m7 M L7 ks qe qi rf (U 0%nat) (U 1%nat) _ fuel S7 Hr Ie Ii Irf Hms ltac:(congruence) ltac:(congruence) Ne Ni ltac:(congruence)
     ltac:(intuition congruence) ltac:(intuition congruence) Ze Zi V7) as (m8 & L8 & R8 & S8 & Q8 & V8 & O8).
  assert (T8 := same_run_trans _ _ _ T7 Q8).
  assert (Fr8 : forall q, id_name q <> id_name re -> id_name q <> id_name ri -> id_name q <> id_name rf -> field_get L8 q = field_get L1 q).
  { intros q X1 X2 X3. rewrite O8, O7 by assumption. now apply Fr6. }
  exists m8, L8. split; [|split; [exact S8|split; [exact T8|split; [|split]]]].
  - unfold plasma_rhs. rewrite R1. cbn [obind]. rewrite R2. cbn [obind]. rewrite R3. cbn [obind]. rewrite R4. cbn [obind]. rewrite R5. cbn [obind].
    rewrite R6. cbn [obind]. rewrite R7. cbn [obind]. exact R8.
  - intros [|[|[|i]]] k E; cbn in E; [injection E as <-..|destruct i; discriminate].
    + eapply interior_keep; [|eapply looks_interior; exact Le]. intros u E. rewrite Fr8; auto; intuition congruence.
    + eapply interior_keep; [|eapply looks_interior; exact Li]. intros u E. rewrite Fr8; auto; intuition congruence.
    + eapply interior_keep; [|eapply looks_interior; exact Lf]. intros u E. rewrite Fr8; auto; intuition congruence.
  - intros [|[|[|i]]] k E; cbn in E; [injection E as <-..|destruct i; discriminate].
    + rewrite Gr2 in V4. eapply interior_keep; [|exact V4]. intros u E. rewrite O8, O7, O6, O5 by (intuition congruence). exact E.
    + rewrite Gr4 in V6. eapply interior_keep; [|exact V6]. intros u E. rewrite O8, O7 by (intuition congruence). exact E.
    + rewrite Gr6 in V8. exact V8.
  - intros k X1 X2. cbn in X1, X2. rewrite Fr8 by intuition. apply O1. intros b Hb X.
    unfold bcs_ready in Hbl. rewrite Forall_forall in Hbl. destruct (Hbl b Hb) as (Y1 & _). apply in_map_iff in X as (o & Eo & Ho). apply Y1 in Ho as [<-|[<-|[<-|[]]]]; intuition.
Qed.

End Rhs.
