(** * FluxFacts: the Euler and Maxwell right-hand sides. *)
From Coq Require Import ZArith List String Bool Lia Reals Lra.
From Verif Require Import Base BoxSpec BaseFacts BoxFacts Range RangeSpec RangeFacts Indexer IndexerFacts Interface InterfaceFacts ApiSpec ApiFacts
  Arith ArithR Chunk FieldSpec FieldFacts ChunkFacts VarId Manager MgrSpec MgrFacts SolverFacts BC BCSpec BCFacts Par ParFacts Kernel KernelFacts
  IntegratorFacts Sweep SweepSpec SweepFacts Euler Maxwell.
Import ListNotations.
Open Scope Z_scope.

Section Defined.
Context {F : Type} {A : Arith F}.

Ltac five l H := do 5 (destruct l as [|? l]; [discriminate H|]); destruct l; [clear H|discriminate H].
Ltac six l H := do 6 (destruct l as [|? l]; [discriminate H|]); destruct l; [clear H|discriminate H].

Lemma euler_total : forall gamma d, (d < 4)%nat -> total_at 5 (euler_flux gamma) (flux_of (euler_flux gamma)) d.
Proof.
  intros gamma d Hd l r Hl Hr. five l Hl. five r Hr. unfold flux_of.
  do 4 (destruct d as [|d]; [cbn; auto|]). lia.
Qed.

Lemma maxwell_total : forall c d, total_at 6 (maxwell_flux c) (flux_of (maxwell_flux c)) d.
Proof.
  intros c d l r Hl Hr. six l Hl. six r Hr. unfold flux_of, maxwell_flux.
  destruct (Z.of_nat d =? 0); [cbn; auto|]. destruct (Z.of_nat d =? 1); cbn; auto.
Qed.

Lemma grid_dx_spacing : forall (gr : grid F) d, (d < List.length (gr_dxs gr))%nat -> grid_dx gr (Z.of_nat d) = Ok (spacing gr d).
Proof.
  intros gr d Hd. unfold grid_dx, spacing, vget. rewrite (proj2 (Z.leb_le 0 _)) by lia.
  rewrite Nat2Z.id. destruct (nth_error (gr_dxs gr) d) eqn:E; [|apply nth_error_None in E; lia].
  rewrite (nth_error_nth _ _ _ E). reflexivity.
Qed.

Lemma dims_ok_seq : forall M n (flux : Z -> list F -> list F -> res (list F)) G gr k, (k <= List.length M)%nat ->
  (k <= List.length (gr_dxs gr))%nat -> (forall d, (d < k)%nat -> total_at n flux G d) ->
  dims_ok M n flux G gr (spacing gr) (seq 0 k).
Proof.
  intros. apply Forall_forall. intros d Hd. apply in_seq in Hd. split; [lia|]. split; [apply grid_dx_spacing; lia|]. apply H1. lia.
Qed.

(** ** chunks *)

Section ChunkLevel.
Variables (M P : box) (n : nat) (flux : Z -> list F -> list F -> res (list F)).
Let D : box := P ++ [(0, Z.of_nat n)].
Let b : box := grow 2 M ++ D.
Variables (gr : grid F) (k : nat).
Hypothesis Sh : shape M D 2.
Hypothesis Hn : (2 <= n)%nat.
Hypothesis Hk : (k <= List.length M)%nat.
Hypothesis Hdx : (k <= List.length (gr_dxs gr))%nat.
Hypothesis Ht : forall d, (d < k)%nat -> total_at n flux (flux_of flux) d.

Lemma mp_chunk : forall e u, chunk_holds e M D 2 u ->
  exists ls, loops_of (gather_sweep n flux gr e) (dims_upto (Z.of_nat k)) = Ok ls /\
  forall r, exists v, loops_run ls [arr b u; arr b r] = Ok [arr b u; arr b v] /\ loops_safe ls [arr b u; arr b r] [arr b u; arr b v] /\
    fluxes_added M P (Z.of_nat n) (wall (Z.of_nat n) (flux_of flux) u) (spacing gr) (seq 0 k) r v.
Proof.
  intros e u He. apply chunk_holds_iff in He; auto. subst e. rewrite dims_upto_seq.
  apply gather_loops; auto. now apply dims_ok_seq.
Qed.

Lemma fast_chunk : forall e u, chunk_holds e M D 2 u ->
  exists ls, loops_of (scatter_sweep n flux gr e) (dims_upto (Z.of_nat k)) = Ok ls /\
  forall r, exists v, loops_run ls [arr b u; arr b r] = Ok [arr b u; arr b v] /\
    fluxes_added M P (Z.of_nat n) (wall (Z.of_nat n) (flux_of flux) u) (spacing gr) (seq 0 k) r v.
Proof.
  intros e u He. apply chunk_holds_iff in He; auto. subst e. rewrite dims_upto_seq.
  apply scatter_loops; auto. now apply dims_ok_seq.
Qed.

End ChunkLevel.

Lemma observed_nd : forall (r : range) M, observes r M -> r_nd r = Z.of_nat (List.length M).
Proof. intros r M H. now destruct H as (H & _). Qed.

(** ** solvers *)

Lemma fv_solve : forall mi mo n flux (k : nat) (m : mgr F) M L ks q r u fuel loops,
  rhs_ready m M L ks q r u n fuel -> (2 <= n)%nat -> (k <= List.length M)%nat ->
  (forall d, (d < k)%nat -> total_at n flux (flux_of flux) d) ->
  (forall m' e, same_run m m' -> loops m' e = loops_of (gather_sweep n flux (mg_grid m) e) (dims_upto (Z.of_nat k))) ->
  exists m' L', rhs_solve mi mo fuel loops [q] [r] m = Done m' /\ compatible (ids L' ++ ks) /\
    rhs_added m m' M L L' r (wall (Z.of_nat n) (flux_of flux) u) (spacing (mg_grid m)) (seq 0 k).
Proof.
  intros mi mo n flux k m M L ks q r u fuel loops (Hm & HL & Hc & Hi & Hq & Hfu & Hu & Cb & Hn & Nq & Hdx) Hn2 Hk Ht Hl.
  assert (Hr : id_fits M r) by (unfold id_fits; rewrite <- Cb; exact Hq).
  assert (ED : comp_box q = [(0, bs_points (id_basis r))] ++ [(0, Z.of_nat n)]).
  { assert (comp_box q = comp_box q) as E by reflexivity. rewrite Cb in E at 2. unfold comp_box in *. cbn [app]. injection E as E1 E2. now rewrite E1, Hn. }
  destruct (rhs_solve_ok mi mo fuel loops m M L q r u ks
    (fluxes_added M [(0, bs_points (id_basis r))] (Z.of_nat n) (wall (Z.of_nat n) (flux_of flux) u) (spacing (mg_grid m)) (seq 0 k)))
    as (m' & L' & H1 & H2 & H3 & H4 & H5 & H6 & H7 & v & H8 & H9); auto.
  - intros m' Hs. rewrite (Hl m') by assumption. unfold whole. rewrite ED.
    assert (Sh : shape M ([(0, bs_points (id_basis r))] ++ [(0, Z.of_nat n)]) 2) by (rewrite <- ED; exact Hq).
    destruct (mp_chunk M [(0, bs_points (id_basis r))] n flux (mg_grid m) k Sh Hn2 Hk ltac:(lia) Ht
      (echunk_of M ([(0, bs_points (id_basis r))] ++ [(0, Z.of_nat n)]) 2 u) u) as (ls & E1 & E2); [now apply chunk_holds_iff|].
    exists ls. split; [exact E1|]. intros w. destruct (E2 w) as (v & V1 & _ & V3). exists v. auto.
  - exists m', L'. split; [exact H1|]. split; [exact H4|]. unfold rhs_added.
    assert (Ln : List.length (id_comps r) = n).
    { assert (comp_box q = comp_box q) as E by reflexivity. rewrite Cb in E at 2. unfold comp_box in E. injection E as E1 E2. lia. }
    rewrite Ln. eauto 12.
Qed.

Lemma api_euler : forall gamma (m : mgr F) M L ks q r u fuel dt,
  rhs_ready m M L ks q r u 5 fuel -> (List.length M <= 4)%nat -> mg_dt m = Some dt ->
  exists m' L', euler_solve fuel gamma [q] [r] m = Done m' /\ compatible (ids L' ++ ks) /\
    rhs_added m m' M L L' r (wall 5 (flux_of (euler_flux gamma)) u) (spacing (mg_grid m)) (seq 0 (List.length M)).
Proof.
  intros gamma m M L ks q r u fuel dt HR H4 Hdt. unfold euler_solve.
  apply (fv_solve _ _ 5 (euler_flux gamma) (List.length M) m M L ks q r u fuel); auto.
  - intros d Hd. apply euler_total. lia.
  - intros m' e (S1 & S2 & S3). unfold mgr_get_dt. rewrite S2, Hdt. cbn [bind]. unfold euler_mp_loops. rewrite S1.
    rewrite (observed_nd _ M); [reflexivity|]. apply HR.
Qed.

Lemma api_maxwell : forall c (m : mgr F) M L ks q r u fuel,
  rhs_ready m M L ks q r u 6 fuel ->
  exists m' L', maxwell_solve fuel c [q] [r] m = Done m' /\ compatible (ids L' ++ ks) /\
    rhs_added m m' M L L' r (wall 6 (flux_of (maxwell_flux c)) u) (spacing (mg_grid m)) (seq 0 (Nat.min 3 (List.length M))).
Proof.
  intros c m M L ks q r u fuel HR. unfold maxwell_solve.
  apply (fv_solve _ _ 6 (maxwell_flux c) (Nat.min 3 (List.length M)) m M L ks q r u fuel); auto.
  - lia.
  - intros d Hd. apply maxwell_total.
  - intros m' e (S1 & S2 & S3). unfold maxwell_mp_loops. rewrite S1.
    rewrite (observed_nd _ M); [|apply HR]. f_equal. f_equal. lia.
Qed.

End Defined.

(** ** balance in exact arithmetic *)

Open Scope R_scope.

Lemma sum_app : forall a b, fold_right Rplus 0 (a ++ b) = fold_right Rplus 0 a + fold_right Rplus 0 b.
Proof. induction a as [|x a IH]; intros b; cbn [app fold_right]; [ring|]. rewrite IH. ring. Qed.

Lemma total_nil : forall f, total [] f = f [].
Proof. intros. unfold total. cbn. ring. Qed.

Lemma total_cons : forall l u b f, total ((l, u) :: b) f = fold_right Rplus 0 (map (fun t => total b (fun c => f (t :: c))) (zrange l u)).
Proof.
  intros l u b f. unfold total. cbn [cells]. induction (zrange l u) as [|t ts IH]; [reflexivity|].
  cbn [flat_map map fold_right]. rewrite map_app, sum_app, map_map, IH. reflexivity.
Qed.

Lemma total_ext : forall b f g, (forall c, in_box b c -> f c = g c) -> total b f = total b g.
Proof. intros b f g H. unfold total. f_equal. apply map_ext_in. intros c Hc. apply H. now apply in_cells. Qed.

Lemma sum_zero : forall X (l : list X) (f : X -> R), (forall x, In x l -> f x = 0) -> fold_right Rplus 0 (map f l) = 0.
Proof. induction l as [|x l IH]; intros f H; cbn; [ring|]. rewrite H by now left. rewrite IH; [ring|]. intros. apply H. now right. Qed.

Lemma sum_lin : forall X (l : list X) (f g : X -> R) k, fold_right Rplus 0 (map (fun x => f x + k * g x) l) =
  fold_right Rplus 0 (map f l) + k * fold_right Rplus 0 (map g l).
Proof. induction l as [|x l IH]; intros f g k; cbn; [ring|]. rewrite IH. ring. Qed.

Lemma total_lin : forall b f g k, total b (fun c => f c + k * g c) = total b f + k * total b g.
Proof. intros. unfold total. apply sum_lin. Qed.

Lemma total_minus : forall b f g, total b (fun c => f c - g c) = total b f - total b g.
Proof.
  intros. rewrite (total_ext b (fun c => f c - g c) (fun c => f c + (-1) * g c)) by (intros; ring). rewrite total_lin. ring.
Qed.

Lemma telescope : forall (g : Z -> R) l u, (l <= u)%Z -> fold_right Rplus 0 (map (fun t => g t - g (t + 1)%Z) (zrange l u)) = g l - g u.
Proof.
  intros g l u H. remember (Z.to_nat (u - l)) as k eqn:E. revert l H E. induction k as [|k IH]; intros l H E.
  - assert (l = u) by lia. subst. rewrite zrange_empty by lia. cbn. ring.
  - rewrite zrange_cons by lia. cbn [map fold_right]. rewrite IH by lia. ring.
Qed.

(** The difference across a box telescopes. *)
Lemma total_telescope : forall p l u q (g : list Z -> R), (l <= u)%Z ->
  total (p ++ (l, u) :: q) (fun x => g x - g (move (List.length p) 1 x)) =
  total (p ++ (l, (l + 1)%Z) :: q) g - total (p ++ (u, (u + 1)%Z) :: q) g.
Proof.
  induction p as [|[a b] p IH]; intros l u q g H.
  - cbn [app List.length]. rewrite !total_cons. 
    rewrite (zrange_cons l (l + 1)), (zrange_cons u (u + 1)), (zrange_empty (l + 1)), (zrange_empty (u + 1)) by lia. cbn [map fold_right]. rewrite !Rplus_0_r.
    rewrite <- (telescope (fun t => total q (fun c => g (t :: c)))) by assumption. f_equal. apply map_ext. intros t.
    rewrite <- total_minus. apply total_ext. intros c _. unfold move. cbn [nth upd]. reflexivity.
  - cbn [app List.length]. rewrite !total_cons.
    assert (E : forall ts, fold_right Rplus 0 (map (fun t => total (p ++ (l, u) :: q) (fun c => g (t :: c) - g (move (Datatypes.S (List.length p)) 1 (t :: c)))) ts) =
      fold_right Rplus 0 (map (fun t => total (p ++ (l, (l + 1)%Z) :: q) (fun c => g (t :: c))) ts) -
      fold_right Rplus 0 (map (fun t => total (p ++ (u, (u + 1)%Z) :: q) (fun c => g (t :: c))) ts)).
    { induction ts as [|t ts IHt]; cbn [map fold_right]; [ring|]. rewrite IHt.
      assert (E1 : total (p ++ (l, u) :: q) (fun c => g (t :: c) - g (move (Datatypes.S (List.length p)) 1 (t :: c))) =
        total (p ++ (l, (l + 1)%Z) :: q) (fun c => g (t :: c)) - total (p ++ (u, (u + 1)%Z) :: q) (fun c => g (t :: c)));
        [apply (IH l u q (fun c => g (t :: c)) H)|]. rewrite E1. ring. }
    apply E.
Qed.

Lemma fluxes_sum : forall W dx ds r x j, fold_left (with_fluxes W dx) ds r x j =
  r x j + sum_over ds (fun d => (W d x j - W d (move d 1 x) j) / dx d).
Proof.
  intros W dx. unfold sum_over. induction ds as [|d ds IH]; intros r x j; cbn [fold_left map fold_right]; [ring|].
  rewrite IH. unfold with_fluxes. cbn [fadd fsub fdiv RArith]. unfold Rdiv. ring.
Qed.

Lemma total_sum_over : forall b ds (f : nat -> list Z -> R), total b (fun x => sum_over ds (fun d => f d x)) = sum_over ds (fun d => total b (f d)).
Proof.
  intros b ds f. unfold sum_over. induction ds as [|d ds IH]; cbn [map fold_right].
  - unfold total. now apply sum_zero.
  - rewrite <- IH. rewrite <- (Rmult_1_l (total b (fun x => fold_right Rplus 0 (map (fun d0 => f d0 x) ds)))).
    rewrite <- total_lin. apply total_ext. intros. ring.
Qed.

Lemma cut_mid : forall p l u q t, cut (p ++ (l, u) :: q) (List.length p) t = p ++ (t, (t + 1)%Z) :: q.
Proof. intros. unfold cut. induction p as [|a p IH]; cbn; [reflexivity|]. now rewrite IH. Qed.

Lemma box_balanced : forall M P n W dx ds (r v : field R) B j, fluxes_added M P n W dx ds r v ->
  box_incl B (M ++ P) -> nonempty B -> Forall (fun d => (d < List.length B)%nat) ds -> (0 <= j < n)%Z ->
  balanced B W dx ds r v j.
Proof.
  intros M P n W dx ds r v B j HF HB HN Hd Hj. unfold balanced.
  rewrite (total_ext B _ (fun x => sum_over ds (fun d => (W d x j - W d (move d 1 x) j) / dx d))).
  2:{ intros x Hx. rewrite HF; [|eapply box_incl_in; eauto|exact Hj]. rewrite fluxes_sum. ring. }
  rewrite total_sum_over. unfold sum_over. f_equal. apply map_ext_in. intros d Hin. rewrite Forall_forall in Hd. specialize (Hd d Hin).
  destruct (nth_error B d) as [[l u]|] eqn:E; [|apply nth_error_None in E; lia].
  unfold lo, hi. rewrite !(nth_error_nth _ _ _ E). cbn [fst snd].
  apply nth_error_split in E as (p & q & -> & <-). rewrite !cut_mid.
  assert (H : (l <= u)%Z).
  { apply Forall_app in HN as [_ HN]. inversion HN as [|? ? HH _]; subst. cbn in HH. lia. }
  rewrite <- total_telescope by assumption. unfold Rdiv. rewrite Rmult_comm.
  rewrite (total_ext _ _ (fun x => 0 + / dx (List.length p) * (W (List.length p) x j - W (List.length p) (move (List.length p) 1 x) j))) by (intros; ring).
  rewrite total_lin. unfold total at 1. rewrite sum_zero by auto. ring.
Qed.

(** Walls see the field only through the four cells around them. *)
Lemma wall_ext : forall {F} {A : Arith F} n (G : nat -> list F -> list F -> list F) u u' d x x' j,
  (forall t i, (-2 <= t <= 1)%Z -> (0 <= i < n)%Z -> u (move d t x ++ [i]) = u' (move d t x' ++ [i])) -> move d 0 x = x -> move d 0 x' = x' ->
  wall n G u d x j = wall n G u' d x' j.
Proof.
  intros F A n G u u' d x x' j H E E'. unfold wall. f_equal. f_equal; unfold left_state, right_state; apply map_ext_in; intros i Hi;
    apply in_zrange in Hi; [rewrite <- E at 3; rewrite <- E' at 3|rewrite <- E at 2; rewrite <- E' at 2]; rewrite !H; auto; lia.
Qed.

Lemma sum_over_zero : forall ds g, (forall d, In d ds -> g d = 0) -> sum_over ds g = 0.
Proof. intros. unfold sum_over. now apply sum_zero. Qed.

Lemma periodic_balanced_gen : forall M P n (W : nat -> list Z -> Z -> R) (u : field R) dx ds (r v : field R) j,
  (forall d x x', In d ds -> (d < List.length x)%nat -> (d < List.length x')%nat ->
     (forall t i, (-2 <= t <= 1)%Z -> (0 <= i < n)%Z -> u (move d t x ++ [i]) = u (move d t x' ++ [i])) -> W d x j = W d x' j) ->
  fluxes_added M P n W dx ds r v -> nonempty (M ++ P) -> Forall (fun d => (d < List.length M)%nat) ds -> (0 <= j < n)%Z ->
  periodic_field M P n ds u -> total (M ++ P) (fun x => v (x ++ [j])%list - r (x ++ [j])%list) = 0.
Proof.
  intros M P n W u dx ds r v j HW HF HN Hd Hj HP.
  rewrite (box_balanced M P n W dx ds r v (M ++ P) j HF); auto.
  3:{ eapply Forall_impl; [|exact Hd]. cbn. intros. rewrite app_length. lia. }
  2:{ apply box_incl_refl. }
  apply sum_over_zero. intros d Hin. rewrite Forall_forall in Hd. specialize (Hd d Hin).
  destruct (nth_error M d) as [[l u0]|] eqn:E; [|apply nth_error_None in E; lia].
  assert (EL : lo M d = l /\ hi M d = u0) by (unfold lo, hi; now rewrite !(nth_error_nth _ _ _ E)).
  unfold lo at 1, hi at 1. rewrite !app_nth1 by assumption. rewrite !(nth_error_nth _ _ _ E). cbn [fst snd].
  pose proof E as E0. apply nth_error_split in E as (p & q & -> & <-). rewrite <- !app_assoc. cbn [app]. rewrite !cut_mid.
  rewrite <- !app_assoc in *. cbn [app] in *.
  assert (HH : (l < u0)%Z).
  { apply Forall_app in HN as [_ HN]. inversion HN as [|? ? HH _]; subst. exact HH. }
  assert (T : total (p ++ (u0, (u0 + 1)%Z) :: q ++ P) (fun x => W (List.length p) x j) =
              total (p ++ (l, (l + 1)%Z) :: q ++ P) (fun x => W (List.length p) (move (List.length p) (u0 - l) x) j)).
  { clear. assert (Q : forall p0 f, total (p0 ++ (u0, (u0 + 1)%Z) :: q ++ P) f =
      total (p0 ++ (l, (l + 1)%Z) :: q ++ P) (fun x => f (move (List.length p0) (u0 - l) x))); [|apply Q].
    induction p0 as [|[a b] p0 IH]; intros f.
    - cbn [app List.length]. rewrite !total_cons. rewrite (zrange_cons l (l + 1)), (zrange_cons u0 (u0 + 1)), (zrange_empty (l + 1)), (zrange_empty (u0 + 1)) by lia.
      cbn [map fold_right]. f_equal. apply total_ext. intros c _. unfold move. cbn [nth upd]. do 2 f_equal. lia.
    - cbn [app List.length]. rewrite !total_cons. f_equal. apply map_ext. intros t. rewrite IH. reflexivity. }
  rewrite T. rewrite <- total_minus.
  rewrite (total_ext _ _ (fun _ => 0)).
  - unfold total. rewrite sum_zero by auto. unfold Rdiv. ring.
  - intros x Hx. apply Rminus_diag_eq. destruct EL as [EL1 EL2].
    apply in_box_split in Hx as (px & a & qx & -> & J1 & J2 & J3 & J4). cbn [fst snd] in J2. assert (a = l) by lia. subst a.
    assert (LX : (List.length p < List.length (px ++ l :: qx))%nat) by (rewrite app_length; cbn; lia).
    apply HW; [exact Hin|exact LX|rewrite move_length; exact LX|].
    intros t i Ht Hi. rewrite move_move by assumption.
    rewrite (HP (List.length p) (px ++ l :: qx) i t); auto.
    + rewrite EL1, EL2. do 3 f_equal. lia.
    + rewrite <- app_assoc. cbn [app]. apply in_box_app; auto. constructor; auto. cbn. lia.
    + rewrite <- J4, nth_middle. now rewrite J4, EL1.
Qed.

Lemma periodic_balanced : forall M P n G u dx ds (r v : field R) j,
  fluxes_added M P n (wall n G u) dx ds r v -> nonempty (M ++ P) -> Forall (fun d => (d < List.length M)%nat) ds -> (0 <= j < n)%Z ->
  periodic_field M P n ds u -> total (M ++ P) (fun x => v (x ++ [j])%list - r (x ++ [j])%list) = 0.
Proof.
  intros M P n G u dx ds r v j HF HN Hd Hj HP. apply (periodic_balanced_gen M P n (wall n G u) u dx ds); auto.
  intros d x x' _ L1 L2 H. apply wall_ext; auto using move_0.
Qed.

(** Setting ghosts keeps the interior. *)
Lemma ghosts_interior : forall F M D g dims low up (u v : list Z -> F), shape M D g -> wide M g dims ->
  ghosts_set M D g dims low up u v -> forall c, in_box (M ++ D) c -> v c = u c.
Proof.
  intros F M D g dims low up u v S Hw (_ & _ & G) c Hc. apply G.
  - eapply box_incl_in; [|exact Hc]. apply box_incl_app; [apply box_incl_grow; apply S|apply box_incl_refl].
  - intros d Hd. destruct (Hw d Hd) as [Hd' _]. pose proof (in_interior_nth _ _ _ _ Hc Hd').
    split; intros Q; apply slab_nth in Q; auto; lia.
Qed.

Lemma move_snoc : forall d t x j, (d < List.length x)%nat -> move d t (x ++ [j]) = move d t x ++ [j].
Proof.
  intros d t x j Hd. destruct (nth_error x d) as [a|] eqn:E; [|apply nth_error_None in E; lia].
  apply nth_error_split in E as (p & q & -> & <-). rewrite <- app_assoc. cbn [app]. rewrite !move_mid. now rewrite <- app_assoc.
Qed.

Lemma interior_slab : forall M D d, (d < List.length M)%nat -> M ++ D = slab M D d (lo M d) (hi M d).
Proof. intros M D d Hd. destruct (slab_split M D d Hd) as (p & q & E & _ & Es). now rewrite Es. Qed.

(** Periodic boundary conditions make the field periodic. *)
Lemma bc_periodic_field : forall {F} {A : Arith F} M P n ds (u v : field F),
  let D := P ++ [(0%Z, n)] in shape M D 2 -> wide M 2 ds ->
  ghosts_set M D 2 ds (fun d => low_value Periodic M d u) (fun d => up_value Periodic M d u) u v ->
  periodic_field M P n ds v.
Proof.
  intros F A M P n ds u v D Sh Hw HG d x j t Hin Hx Hlo Hj Ht.
  destruct (Hw d Hin) as [Hd HN].
  assert (HI : in_box (M ++ D) (x ++ [j])) by (unfold D; rewrite app_assoc; now apply snoc_in).
  assert (HS := HI). rewrite (interior_slab M D d Hd) in HS.
  assert (LX : (d < List.length x)%nat).
  { apply Forall2_length in Hx. rewrite app_length in Hx. lia. }
  assert (LX' : (d < List.length (x ++ [j]))%nat) by (rewrite app_length; lia).
  assert (Nj : nth d (x ++ [j]) 0%Z = lo M d) by (now rewrite app_nth1).
  assert (Mv : forall s l w, (l <= lo M d + s < w)%Z -> in_box (slab M D d l w) (move d s x ++ [j])).
  { intros s l w B. rewrite <- move_snoc by assumption. unfold move. eapply in_slab_upd; eauto. now rewrite Nj. }
  assert (Keep : forall s, (lo M d <= lo M d + s < hi M d)%Z -> v (move d s x ++ [j]) = u (move d s x ++ [j])).
  { intros s B. eapply ghosts_interior; eauto. rewrite (interior_slab M D d Hd). now apply Mv. }
  destruct (Z_lt_le_dec t 0) as [H0|H0].
  - destruct HG as (G1 & _). rewrite (G1 d) by (auto; apply Mv; lia). cbn [low_value].
    rewrite Keep by lia. rewrite <- !move_snoc by assumption. now rewrite move_move by assumption.
  - destruct HG as (_ & G2 & _). rewrite (G2 d (move d (t + (hi M d - lo M d)) x ++ [j])) by (auto; apply Mv; lia). cbn [up_value].
    rewrite Keep by lia. rewrite <- !move_snoc by assumption. rewrite move_move by assumption. do 2 f_equal. lia.
Qed.

(** ** periodic boundary conditions before a right-hand side *)

Lemma ready_parts : forall {F} {A : Arith F} (m : mgr F) M L ks q r u n fuel, rhs_ready m M L ks q r u n fuel ->
  comp_box q = [(0%Z, bs_points (id_basis r))] ++ [(0%Z, Z.of_nat n)] /\ List.length (id_comps r) = n /\ bs_points (id_basis q) = bs_points (id_basis r) /\ id_fits M r /\
  nonempty (M ++ [(0%Z, bs_points (id_basis r))]).
Proof.
  intros F A m M L ks q r u n fuel (Hm & HL & Hc & Hi & Hq & Hfu & Hu & Cb & Hn & Nq & Hdx).
  assert (E := eq_refl (comp_box q)). rewrite Cb in E at 2. unfold comp_box in E. injection E as E1 E2.
  assert (ED : comp_box q = [(0%Z, bs_points (id_basis r))] ++ [(0%Z, Z.of_nat n)]) by (unfold comp_box; cbn [app]; now rewrite E1, Hn).
  split; [exact ED|]. split; [lia|]. split; [exact E1|]. split; [unfold id_fits; now rewrite <- Cb|].
  apply nonempty_app. split; [apply Hq|].
  assert (NB : nonempty (comp_box q)) by apply Hq. rewrite ED in NB. now apply nonempty_app in NB.
Qed.

Lemma ready_after_bc : forall {F} {A : Arith F} k (m : mgr F) M L ks q r u n fuel ds,
  rhs_ready m M L ks q r u n fuel -> bc_ready k M fuel ds [q] ->
  exists m1 L1 u1, bc_solve k fuel (map Z.of_nat ds) [q] m = Done m1 /\ rhs_ready m1 M L1 ks q r u1 n fuel /\ same_run m m1 /\
    ghosts_set M (comp_box q) 2 ds (fun d => low_value k M d u) (fun d => up_value k M d u) u u1 /\
    (forall c, in_box (M ++ comp_box q) c -> u1 c = u c) /\
    (forall id, id_name id <> id_name q -> field_get L1 id = field_get L id).
Proof.
  intros F A k m M L ks q r u n fuel ds HR HB. pose proof (ready_parts _ _ _ _ _ _ _ _ _ HR) as (ED & _).
  destruct HR as (Hm & HL & Hc & Hi & Hq & Hfu & Hu & Cb & Hn & Nq & Hdx).
  assert (Hc' : compatible (ids L ++ [q])).
  { eapply compat_perm; [exact Hc|]. intros x Hx. rewrite in_app_iff in *. destruct Hx as [|[<-|[]]]; auto. right. apply Hi. now left. }
  destruct (api_bc_solve k m M L fuel ds [q] Hm HL Hc' HB) as (m1 & L1 & H1 & H2 & H3 & H4 & HI & H5 & H6 & _).
  destruct (H6 q) as (v & Hv & HG); [now left|]. unfold field_or_zero in HG. rewrite Hu in HG.
  exists m1, L1, v. split; [exact H1|]. split; [|split; [exact H4|]].
  - split; [exact H2|]. split; [exact H3|]. split.
    { eapply compat_perm; [exact Hc|]. intros x Hx. rewrite in_app_iff in *. destruct Hx as [Hx|]; auto.
      apply HI in Hx. rewrite in_app_iff in Hx. destruct Hx as [|[<-|[]]]; auto. right. apply Hi. now left. }
    destruct H4 as (G1 & _ & _). rewrite G1. auto 12.
  - split; [exact HG|]. split.
    + intros c Hcc. eapply ghosts_interior; [exact Hq|apply HB|exact HG|exact Hcc].
    + intros id Hn'. apply H5. cbn. intuition congruence.
Qed.

(** A right-hand side solver after periodic boundary conditions. *)
Lemma total_after_periodic : forall (m m' : mgr R) M L L' ks q r u n fuel ds G dx (u1 : field R) (L1 : list (vid * field R)) m1 j,
  rhs_ready m1 M L1 ks q r u1 n fuel -> wide M 2 ds ->
  ghosts_set M (comp_box q) 2 ds (fun d => low_value Periodic M d u) (fun d => up_value Periodic M d u) u u1 ->
  rhs_added m1 m' M L L' r (wall (Z.of_nat n) G u1) dx ds -> (0 <= j < Z.of_nat n)%Z ->
  exists v, field_get L' r = Some v /\
    total (M ++ [(0%Z, bs_points (id_basis r))]) (fun x => v (x ++ [j])%list - field_or_zero L r (x ++ [j])%list) = 0.
Proof.
  intros m m' M L L' ks q r u n fuel ds G dx u1 L1 m1 j HR HW HG HA Hj.
  pose proof (ready_parts _ _ _ _ _ _ _ _ _ HR) as (ED & Ln & _ & _ & HN).
  destruct HA as (_ & _ & _ & _ & _ & v & Hv & HF). exists v. split; [exact Hv|]. rewrite Ln in HF.
  apply (periodic_balanced M _ (Z.of_nat n) G u1 dx ds); auto.
  - apply Forall_forall. intros d Hd. now apply HW.
  - rewrite ED in HG. eapply bc_periodic_field; [|exact HW|exact HG]. rewrite <- ED. apply HR.
Qed.
