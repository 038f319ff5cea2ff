(** * SymmetryFacts: the right-hand sides commute with moving data around a periodic
    dimension. *)
From Coq Require Import ZArith List String Lia Bool Reals.
From Verif Require Import Base BaseFacts BoxSpec BoxFacts Arith ArithR Chunk ChunkFacts FieldSpec VarId Manager MgrSpec BC BCSpec BCFacts ParFacts SweepSpec SweepFacts FluxFacts SourceSpec
  Programs ProgramsSpec ConserveFacts SymmetrySpec.
Import ListNotations.
Open Scope Z_scope.

Lemma upd_app_l : forall T (a b : list T) n x, (n < List.length a)%nat -> upd (a ++ b) n x = upd a n x ++ b.
Proof. induction a as [|y a IH]; intros b [|n] x H; cbn in *; try lia; [reflexivity|]. f_equal. apply IH. lia. Qed.

(** The mesh coordinates of [x] are inside the mesh. *)
Definition inside (M : box) (x : list Z) : Prop := (List.length M <= List.length x)%nat /\ forall d, (d < List.length M)%nat -> lo M d <= nth d x 0 < hi M d.

Lemma in_box_inside : forall M P x, in_box (M ++ P) x -> inside M x.
Proof.
  intros M P x H. split; [apply in_box_length in H; rewrite app_length in H; lia|].
  revert x H. induction M as [|[l u] M IH]; intros x H d Hd; [cbn in Hd; lia|]. cbn [app] in H. inversion H as [|? a ? x' H1 H2]; subst. cbn [fst snd] in H1.
  destruct d as [|d]; [exact H1|]. cbn in Hd. exact (IH x' H2 d ltac:(lia)).
Qed.

Lemma around_snoc : forall M d s x j, (d < List.length x)%nat -> around M d s (x ++ [j]) = around M d s x ++ [j].
Proof. intros. unfold around. rewrite app_nth1 by assumption. now apply upd_app_l. Qed.
Lemma around_length : forall M d s x, List.length (around M d s x) = List.length x.
Proof. intros. unfold around. apply BaseFacts.upd_length. Qed.
Lemma around_nth : forall M d s x, (d < List.length x)%nat -> nth d (around M d s x) 0 = lo M d + (nth d x 0 + s - lo M d) mod (hi M d - lo M d).
Proof. intros. unfold around. now apply nth_upd_eq. Qed.
Lemma around_other : forall M d s x e, e <> d -> nth e (around M d s x) 0 = nth e x 0.
Proof. intros. unfold around. apply nth_upd_neq. congruence. Qed.
Lemma around_around : forall M d s t x, (d < List.length x)%nat -> around M d s (around M d t x) = around M d (t + s) x.
Proof.
  intros M d s t x Hd. unfold around at 1. rewrite around_nth by exact Hd. unfold around. rewrite upd_upd. f_equal. f_equal.
  set (w := hi M d - lo M d). replace (lo M d + (nth d x 0 + t - lo M d) mod w + s - lo M d) with ((nth d x 0 + t - lo M d) mod w + s) by lia.
  rewrite Zplus_mod_idemp_l. f_equal. lia.
Qed.
Lemma around_move_other : forall M d s e t x, e <> d -> around M d s (move e t x) = move e t (around M d s x).
Proof. intros. unfold move. rewrite around_other by assumption. unfold around. rewrite nth_upd_neq by assumption. apply upd_comm. assumption. Qed.
Lemma around_inside : forall M d s x, (d < List.length M)%nat -> lo M d < hi M d -> inside M x -> inside M (around M d s x).
Proof.
  intros M d s x Hd Hw [L H]. split; [now rewrite around_length|]. intros e He. destruct (Nat.eq_dec e d) as [->|N].
  - rewrite around_nth by lia. pose proof (Z.mod_pos_bound (nth d x 0 + s - lo M d) (hi M d - lo M d) ltac:(lia)). lia.
  - rewrite around_other by exact N. now apply H.
Qed.
Lemma in_box_upd : forall M P d a x, (d < List.length M)%nat -> lo M d <= a < hi M d -> in_box (M ++ P) x -> in_box (M ++ P) (upd x d a).
Proof.
  intros M P d a x Hd Ha H. revert d x H Hd Ha. induction M as [|[l u] M IH]; intros d x H Hd Ha; [cbn in Hd; lia|]. cbn [app] in *. inversion H as [|? y ? x' H1 H2]; subst.
  destruct d as [|d]; cbn [upd]; [constructor; assumption|]. constructor; [exact H1|]. apply IH; auto. cbn in Hd. lia.
Qed.
Lemma around_in_box : forall M P d s x, (d < List.length M)%nat -> lo M d < hi M d -> in_box (M ++ P) x -> in_box (M ++ P) (around M d s x).
Proof.
  intros M P d s x Hd Hw H. unfold around. apply in_box_upd; auto. pose proof (Z.mod_pos_bound (nth d x 0 + s - lo M d) (hi M d - lo M d) ltac:(lia)). lia.
Qed.

Section Symmetry.
Context {F : Type} {A : Arith F}.

Lemma seen_here : forall k M d (u : field F) t x i, (d < List.length x)%nat ->
  seen k M d u (move d t x ++ [i]) =
  if nth d x 0 + t <? lo M d then low_value k M d u (move d t x ++ [i]) else if hi M d <=? nth d x 0 + t then up_value k M d u (move d t x ++ [i]) else u (move d t x ++ [i]).
Proof.
  intros. unfold seen. rewrite app_nth1 by (now rewrite move_length). now rewrite move_nth.
Qed.
(** What one sees in the cell [t] away is a value of an interior cell or its
    negative. *)
Lemma seen_reads : forall k e l h p t, l <= p < h -> 2 <= h - l -> -2 <= t <= 2 ->
  exists t' (f : Z -> F -> F), l <= p + t' < h /\ (k <> Periodic -> -2 <= t' <= 2) /\
    forall M u x j, lo M e = l -> hi M e = h -> (e < List.length x)%nat -> nth e x 0 = p -> seen k M e u (move e t x ++ [j]) = f j (u (move e t' x ++ [j])).
Proof.
  intros k e l h p t Hp Hw Ht. destruct (Z.ltb_spec (p + t) l) as [H1|H1]; [|destruct (Z.leb_spec h (p + t)) as [H2|H2]].
  - exists (match k with Periodic => t + (h - l) | _ => (2 * l - 1) - t - 2 * p end),
      (fun j y => match k with Periodic | CopyOut => y | NoSlip | FreeSlip => reversed 1 4 j y | ConductingWall => reversed 0 4 j y end).
    split; [destruct k; lia|]. split; [destruct k; [congruence|lia..]|]. intros M u x j El Eh Hx Ex. rewrite seen_here by exact Hx. rewrite Ex, El, Eh. destruct (Z.ltb_spec (p + t) l); [|lia].
    destruct k; cbn [low_value]; rewrite ?move_snoc', ?flip_move by exact Hx; rewrite ?Ex, ?El, ?Eh; unfold comp; rewrite ?last_last; reflexivity.
  - exists (match k with Periodic => t + - (h - l) | _ => (2 * h - 1) - t - 2 * p end),
      (fun j y => match k with Periodic | CopyOut => y | NoSlip | FreeSlip => reversed 1 4 j y | ConductingWall => reversed 0 4 j y end).
    split; [destruct k; lia|]. split; [destruct k; [congruence|lia..]|]. intros M u x j El Eh Hx Ex. rewrite seen_here by exact Hx. rewrite Ex, El, Eh. destruct (Z.ltb_spec (p + t) l); [lia|]. destruct (Z.leb_spec h (p + t)); [|lia].
    destruct k; cbn [up_value]; rewrite ?move_snoc', ?flip_move by exact Hx; rewrite ?Ex, ?El, ?Eh; unfold comp; rewrite ?last_last; reflexivity.
  - exists t, (fun _ y => y). split; [lia|]. split; [lia|]. intros M u x j El Eh Hx Ex. rewrite seen_here by exact Hx. rewrite Ex, El, Eh. destruct (Z.ltb_spec (p + t) l); [lia|]. destruct (Z.leb_spec h (p + t)); [lia|]. reflexivity.
Qed.
(** Along a periodic dimension it is the value further around. *)
Lemma seen_periodic : forall M d u x t j, (d < List.length x)%nat -> lo M d <= nth d x 0 < hi M d -> 2 <= hi M d - lo M d -> -2 <= t <= 2 ->
  seen Periodic M d u (move d t x ++ [j]) = u (around M d t x ++ [j]).
Proof.
  intros M d u x t j Hx Hp Hw Ht. rewrite seen_here by exact Hx.
  assert (K : forall z q, 0 <= nth d x 0 + z - lo M d < hi M d - lo M d -> z = t + q * (hi M d - lo M d) -> u (move d z x ++ [j]) = u (around M d t x ++ [j])).
  { intros z q Hz ->. unfold move, around. do 3 f_equal.
    replace (nth d x 0 + t - lo M d) with (nth d x 0 + (t + q * (hi M d - lo M d)) - lo M d + (- q) * (hi M d - lo M d)) by ring.
    rewrite Z_mod_plus_full, Z.mod_small by lia. lia. }
  destruct (Z.ltb_spec (nth d x 0 + t) (lo M d)) as [H1|H1]; [|destruct (Z.leb_spec (hi M d) (nth d x 0 + t)) as [H2|H2]]; cbn [low_value up_value]; rewrite ?move_snoc' by exact Hx.
  - apply (K _ 1); lia.
  - apply (K _ (-1)); lia.
  - apply (K _ 0); lia.
Qed.

(** The flux through a wall depends on four cells. *)
Lemma wall_reads : forall n G (v v' : field F) e x y r j, (e < List.length x)%nat -> (e < List.length y)%nat -> 0 <= r <= 1 ->
  (forall t i, -2 <= t <= 2 -> 0 <= i < n -> v (move e t x ++ [i]) = v' (move e t y ++ [i])) -> wall n G v e (move e r x) j = wall n G v' e (move e r y) j.
Proof.
  intros n G v v' e x y r j Hx Hy Hr H. unfold wall.
  do 2 f_equal; unfold left_state, right_state; apply map_ext_in; intros i Hi; apply in_zrange in Hi; rewrite !move_move by assumption; f_equal; apply H; lia.
Qed.
Lemma fluxes_read : forall (W W' : nat -> list Z -> Z -> F) dx dx' ds x y j, (forall d, In d ds -> dx d = dx' d /\ W d x j = W' d y j /\ W d (move d 1 x) j = W' d (move d 1 y) j) ->
  forall r r', r x j = r' y j -> fold_left (with_fluxes W dx) ds r x j = fold_left (with_fluxes W' dx') ds r' y j.
Proof.
  intros W W' dx dx' ds x y j. induction ds as [|d ds IH]; intros H r r' E; [exact E|]. cbn [fold_left]. apply IH; [intros e He; apply H; now right|].
  unfold with_fluxes. destruct (H d (or_introl eq_refl)) as (-> & -> & ->). now rewrite E.
Qed.

(** [v] is [u], looked at in paired cells, for the first [n] components. *)
Definition paired (C : list Z -> list Z -> Prop) (n : Z) (u v : field F) : Prop := forall x y j, C x y -> 0 <= j < n -> v (x ++ [j]) = u (y ++ [j]).
(** The sources act cell by cell. *)
Lemma lorentz_paired : forall (C : list Z -> list Z -> Prop) com u v e e' r r', paired C 5 u v -> paired C 6 e e' -> paired C 5 r r' -> paired C 5 (with_lorentz com u e r) (with_lorentz com v e' r').
Proof.
  intros C com u v e e' r r' H1 H2 H3 x y j Hx Hj. unfold with_lorentz. rewrite !removelast_last, !last_last.
  rewrite (H3 x y j Hx Hj).
  replace (lorentz_rate com (fun i => v (x ++ [i])) (fun i => e' (x ++ [i])) j) with (lorentz_rate com (fun i => u (y ++ [i])) (fun i => e (y ++ [i])) j); [reflexivity|].
  unfold lorentz_rate. rewrite !(H1 x y _ Hx), !(H2 x y _ Hx) by lia. reflexivity.
Qed.
Lemma current_paired : forall (C : list Z -> list Z -> Prop) n x y j, C x y -> 0 <= j < n -> forall ms us vs a, Forall2 (paired C n) us vs -> current a ms vs (x ++ [j]) = current a ms us (y ++ [j]).
Proof.
  intros C n x y j Hx Hj. induction ms as [|m ms IH]; intros us vs a H; [reflexivity|]. inversion H as [|u v us' vs' H1 H2]; subst; [reflexivity|]. cbn [current]. rewrite (H1 x y j Hx Hj). now apply IH.
Qed.
Lemma with_current_paired : forall (C : list Z -> list Z -> Prop) ms us vs r r', Forall2 (paired C 5) us vs -> paired C 6 r r' -> paired C 6 (with_current ms us r) (with_current ms vs r').
Proof.
  intros C ms us vs r r' H1 H2 x y j Hx Hj. unfold with_current. rewrite !removelast_last, !last_last. rewrite (H2 x y j Hx Hj). destruct (Z.ltb_spec j 3); [|reflexivity].
  apply (current_paired C 5); auto. lia.
Qed.

(** Runge-Kutta steps. *)
Definition sys_paired (C : list Z -> list Z -> Prop) (n : nat -> Z) (U V : sys) : Prop := forall i, paired C (n i) (U i) (V i).
Lemma rk3_paired : forall (Op Op' : sys -> sys) dt (C : list Z -> list Z -> Prop) c, (forall U V, sys_paired C c U V -> sys_paired C c (Op U) (Op' V)) ->
  forall n U V, sys_paired C c U V -> sys_paired C c (Nat.iter n (rk3 Op dt) U) (Nat.iter n (rk3 Op' dt) V).
Proof.
  intros Op Op' dt C c H n U V HU. induction n as [|n IH]; [exact HU|].
  change (sys_paired C c (rk3 Op dt (Nat.iter n (rk3 Op dt) U)) (rk3 Op' dt (Nat.iter n (rk3 Op' dt) V))).
  revert IH. generalize (Nat.iter n (rk3 Op dt) U) (Nat.iter n (rk3 Op' dt) V). clear U V HU. intros U V E. unfold rk3.
  assert (E0 := H _ _ E).
  set (U1 := fun i c => (U i c + dt * Op U i c)%F). set (V1 := fun i c => (V i c + dt * Op' V i c)%F).
  assert (E1 : sys_paired C c U1 V1) by (intros i x y j Hx Hj; unfold U1, V1; now rewrite (E i x y j Hx Hj), (E0 i x y j Hx Hj)).
  assert (E1' := H _ _ E1).
  set (U2 := fun i c => (fdec 75 (-2) * U i c + fdec 25 (-2) * U1 i c + fdec 25 (-2) * dt * Op U1 i c)%F).
  set (V2 := fun i c => (fdec 75 (-2) * V i c + fdec 25 (-2) * V1 i c + fdec 25 (-2) * dt * Op' V1 i c)%F).
  assert (E2 : sys_paired C c U2 V2) by (intros i x y j Hx Hj; unfold U2, V2; now rewrite (E i x y j Hx Hj), (E1 i x y j Hx Hj), (E1' i x y j Hx Hj)).
  assert (E2' := H _ _ E2).
  intros i x y j Hx Hj. change (((V i (x ++ [j]) + fofz 2 * (V2 i (x ++ [j]) + dt * Op' V2 i (x ++ [j]))) / fofz 3)%F =
    ((U i (y ++ [j]) + fofz 2 * (U2 i (y ++ [j]) + dt * Op U2 i (y ++ [j]))) / fofz 3)%F).
  now rewrite (E i x y j Hx Hj), (E2 i x y j Hx Hj), (E2' i x y j Hx Hj).
Qed.
(** Components of the unknowns of a plasma. *)
Definition sizes (i : nat) : Z := match i with 0%nat | 1%nat => 5 | _ => 6 end.
Lemma plasma_paired : forall (C : list Z -> list Z -> Prop) p G5 G6 M M' bc bc' dx dx' ds ds3 ds' ds3' U V,
  (forall i u v, paired C 5 u v -> paired C 5 (fv_rhs 5 G5 M (bc i) dx ds u) (fv_rhs 5 G5 M' (bc' i) dx' ds' v)) ->
  (forall u v, paired C 6 u v -> paired C 6 (fv_rhs 6 G6 M (bc 2%nat) dx ds3 u) (fv_rhs 6 G6 M' (bc' 2%nat) dx' ds3' v)) ->
  sys_paired C sizes U V -> sys_paired C sizes (plasma_op p G5 G6 M bc dx ds ds3 U) (plasma_op p G5 G6 M' bc' dx' ds' ds3' V).
Proof.
  intros C p G5 G6 M M' bc bc' dx dx' ds ds3 ds' ds3' U V H5 H6 HT.
  pose proof (HT 0%nat) as T0. pose proof (HT 1%nat) as T1. pose proof (HT 2%nat) as T2.
  intros [|[|i]]; cbn [plasma_op sizes].
  - apply lorentz_paired; auto.
  - apply lorentz_paired; auto.
  - apply with_current_paired; auto.
Qed.

(** Cells paired by going around dimension [d]. *)
Definition turn (M P : box) (d : nat) (s : Z) (x y : list Z) : Prop := in_box (M ++ P) x /\ y = around M d s x.

Lemma seen_turned : forall k M P d s n u v e t x j, (d < List.length M)%nat -> (e < List.length M)%nat -> wide M 2 [d; e] -> (e = d -> k = Periodic) -> paired (turn M P d s) n u v ->
  in_box (M ++ P) x -> -2 <= t <= 2 -> 0 <= j < n -> seen k M e v (move e t x ++ [j]) = seen k M e u (move e t (around M d s x) ++ [j]).
Proof.
  intros k M P d s n u v e t x j Hd He HW HK HT Hx Ht Hj. assert (Wd := proj2 (HW d (or_introl eq_refl))). assert (We := proj2 (HW e (or_intror (or_introl eq_refl)))).
  destruct (in_box_inside M P x Hx) as [L I]. assert (Hy := around_in_box M P d s x Hd ltac:(lia) Hx). destruct (Nat.eq_dec e d) as [->|N].
  - rewrite (HK eq_refl), !seen_periodic; rewrite ?around_length; auto; try lia; [|now apply (in_box_inside M P)].
    rewrite (HT _ (around M d s (around M d t x))); [|split; [apply around_in_box; auto; lia|reflexivity]|exact Hj]. rewrite !around_around by lia. do 3 f_equal. lia.
  - destruct (seen_reads k e _ _ (nth e x 0) t (I e He) We Ht) as (t' & f & Ht' & _ & E). rewrite !E; rewrite ?around_length; try lia; [|now apply around_other].
    f_equal. rewrite (HT _ (around M d s (move e t' x))); [now rewrite around_move_other by exact N|split; [|reflexivity]|exact Hj]. unfold move. now apply in_box_upd.
Qed.
Lemma fv_turned : forall n G M P bc dx ds d s u v, (d < List.length M)%nat -> wide M 2 (seq 0 (List.length M)) -> (forall e, In e ds -> (e < List.length M)%nat) -> bc d = Periodic ->
  paired (turn M P d s) n u v -> paired (turn M P d s) n (fv_rhs n G M bc dx ds u) (fv_rhs n G M bc dx ds v).
Proof.
  intros n G M P bc dx ds d s u v Hd HW Hds HB HT x y j [Hx ->] Hj. unfold fv_rhs, cellwise. rewrite !removelast_last, !last_last.
  destruct (in_box_inside M P x Hx) as [L _].
  apply fluxes_read; [|reflexivity]. intros e He. specialize (Hds e He).
  assert (R : forall r, 0 <= r <= 1 -> wall n G (seen (bc e) M e v) e (move e r x) j = wall n G (seen (bc e) M e u) e (move e r (around M d s x)) j).
  { intros r Hr. apply wall_reads; rewrite ?around_length; try lia. intros t i Ht Hi. apply (seen_turned _ M P d s n); auto; [|congruence].
    intros c [<-|[<-|[]]]; apply HW; apply in_seq; lia. }
  split; [reflexivity|]. split; [|apply R; lia]. specialize (R 0 ltac:(lia)). rewrite !move_0 in R by (rewrite ?around_length; lia). exact R.
Qed.

(** What does not change along a periodic dimension flows in and out alike. *)
Lemma wall_flat : forall n G M P d u x j, (d < List.length M)%nat -> 2 <= hi M d - lo M d -> paired (turn M P d 1) n u u -> in_box (M ++ P) x ->
  wall n G (seen Periodic M d u) d (move d 1 x) j = wall n G (seen Periodic M d u) d x j.
Proof.
  intros n G M P d u x j Hd Hw HT Hx. destruct (in_box_inside M P x Hx) as [L I]. specialize (I d Hd).
  assert (S : forall t t' i, -2 <= t' <= 1 -> t = t' + 1 -> 0 <= i < n -> seen Periodic M d u (move d t x ++ [i]) = seen Periodic M d u (move d t' x ++ [i])).
  { intros t t' i Ht -> Hi. rewrite !seen_periodic by lia. symmetry. rewrite (HT _ (around M d 1 (around M d t' x))); [|split; [apply around_in_box; auto; lia|reflexivity]|exact Hi].
    now rewrite around_around by lia. }
  replace (wall n G (seen Periodic M d u) d x j) with (wall n G (seen Periodic M d u) d (move d 0 x) j) by (now rewrite move_0 by lia).
  unfold wall. do 2 f_equal; unfold left_state, right_state; apply map_ext_in; intros i Hi; apply in_zrange in Hi; rewrite !move_move by lia; f_equal; apply S; lia.
Qed.

(** Cells paired by leaving out the last coordinate of the mesh M ++ [iv]. *)
Definition leave_out (M : box) (iv : Z * Z) (P : box) (x y : list Z) : Prop :=
  exists a b q, x = a ++ b :: q /\ y = a ++ q /\ in_box M a /\ fst iv <= b < snd iv /\ in_box P q.

Lemma move_app : forall e t (a b : list Z), (e < List.length a)%nat -> move e t (a ++ b) = move e t a ++ b.
Proof. intros. unfold move. rewrite app_nth1 by assumption. now apply upd_app_l. Qed.
Lemma in_move : forall M e t a, (e < List.length M)%nat -> in_box M a -> lo M e <= nth e a 0 + t < hi M e -> in_box M (move e t a).
Proof. intros M e t a He Ha Ht. unfold move. rewrite <- (app_nil_r M) in *. apply in_box_upd; auto; rewrite ?app_nil_r in *; auto. Qed.

Lemma seen_left_out : forall k M iv P n u v e t x y j, (e < List.length M)%nat -> wide M 2 [e] -> paired (leave_out M iv P) n u v ->
  leave_out M iv P x y -> -2 <= t <= 2 -> 0 <= j < n -> seen k (M ++ [iv]) e v (move e t x ++ [j]) = seen k M e u (move e t y ++ [j]).
Proof.
  intros k M iv P n u v e t x y j He HW HT (a & b & q & -> & -> & Ha & Hb & Hq) Ht Hj.
  assert (We := proj2 (HW e (or_introl eq_refl))). destruct (in_box_inside M [] a ltac:(now rewrite app_nil_r)) as [_ I]. assert (La := in_box_length _ _ Ha).
  destruct (seen_reads k e _ _ (nth e a 0) t (I e He) We Ht) as (t' & f & Ht' & _ & E).
  rewrite (E (M ++ [iv])), (E M); rewrite ?app_length, ?lo_app, ?hi_app, ?app_nth1; auto; try lia.
  f_equal. rewrite !move_app by lia. apply HT; [|exact Hj]. exists (move e t' a), b, q. repeat split; auto; try lia. apply in_move; auto.
Qed.
End Symmetry.

(** In exact arithmetic what flows in and out alike changes nothing, so the last
    dimension may as well not be there. *)
Lemma fv_left_out : forall n G M iv P bc bc' dx dx' u v, let d := List.length M in wide (M ++ [iv]) 2 (seq 0 (S d)) -> bc d = Periodic -> (forall e, (e < d)%nat -> dx e = dx' e /\ bc e = bc' e) ->
  paired (leave_out M iv P) n u v -> paired (leave_out M iv P) n (fv_rhs n G M bc' dx' (seq 0 d) u) (fv_rhs (F := R) n G (M ++ [iv]) bc dx (seq 0 (S d)) v).
Proof.
  intros n G M iv P bc bc' dx dx' u v d HW HB HD HT x y j Hxy Hj. unfold fv_rhs, cellwise. rewrite !removelast_last, !last_last.
  assert (Wd : 2 <= snd iv - fst iv).
  { destruct (HW d ltac:(apply in_seq; lia)) as [_ W]. unfold hi, lo in W. rewrite app_nth2 in W by (unfold d; lia). unfold d in W. rewrite Nat.sub_diag in W. exact W. }
  assert (WM : forall e, (e < d)%nat -> wide M 2 [e]).
  { intros e He c [<-|[]]. split; [exact He|]. destruct (HW e ltac:(apply in_seq; lia)) as [_ W]. rewrite lo_app, hi_app in W by exact He. exact W. }
  assert (Hd : nth d (M ++ [iv]) (0, 0) = iv) by (unfold d; apply nth_middle).
  assert (Hxy' := Hxy). destruct Hxy' as (a & b & q & Ex & Ey & Ha & Hb & Hq). assert (La := in_box_length _ _ Ha). fold d in La.
  rewrite seq_S, fold_left_app. cbn [fold_left]. unfold with_fluxes at 1. rewrite Nat.add_0_l, HB.
  assert (Hx : in_box ((M ++ [iv]) ++ P) x). { subst x. rewrite <- app_assoc. cbn [app]. apply Forall2_app; [exact Ha|]. constructor; [exact Hb|exact Hq]. }
  rewrite (wall_flat n G (M ++ [iv]) P d v x j); [|rewrite app_length; cbn; lia|unfold hi, lo; rewrite Hd; lia| |exact Hx].
  - change (fadd ?p ?w) with (p + w)%R. change (fsub ?p ?w) with (p - w)%R. match goal with |- (?p + ?w - ?w)%R = _ => replace (p + w - w)%R with p by ring end.
    apply (fluxes_read (F := R)); [|reflexivity]. intros e He. apply in_seq in He.
    assert (Lx : List.length x = S (d + List.length q)) by (subst x; rewrite app_length; cbn; lia). assert (Ly : List.length y = (d + List.length q)%nat) by (subst y; rewrite app_length; lia).
    assert (R : forall r, 0 <= r <= 1 -> wall n G (seen (bc e) (M ++ [iv]) e v) e (move e r x) j = wall n G (seen (bc' e) M e u) e (move e r y) j).
    { intros r Hr. rewrite <- (proj2 (HD e ltac:(lia))). apply wall_reads; try lia. intros t i Ht Hi. apply (seen_left_out _ M iv P n); auto. lia. apply WM; lia. }
    split; [apply HD; lia|]. split; [|apply R; lia]. specialize (R 0 ltac:(lia)). rewrite !move_0 in R by lia. exact R.
  - intros x1 y1 i [Hx1 ->] Hi. rewrite <- app_assoc in Hx1. apply Forall2_app_inv_l in Hx1 as (a1 & bq & Ha1 & Hbq & ->). cbn [app] in Hbq. inversion Hbq as [|? b1 ? q1 Hb1 Hq1]; subst.
    assert (La1 := in_box_length _ _ Ha1). fold d in La1.
    assert (EA : around (M ++ [iv]) d 1 (a1 ++ b1 :: q1) = a1 ++ (fst iv + (b1 + 1 - fst iv) mod (snd iv - fst iv)) :: q1).
    { unfold around, lo, hi. rewrite Hd, <- La1, nth_middle. apply upd_mid. }
    rewrite EA. rewrite (HT (a1 ++ b1 :: q1) (a1 ++ q1)), (HT (a1 ++ (fst iv + (b1 + 1 - fst iv) mod (snd iv - fst iv)) :: q1) (a1 ++ q1)); auto.
    + exists a1, (fst iv + (b1 + 1 - fst iv) mod (snd iv - fst iv)), q1. pose proof (Z.mod_pos_bound (b1 + 1 - fst iv) (snd iv - fst iv) ltac:(lia)). repeat split; auto; lia.
    + exists a1, b1, q1. repeat split; auto; lia.
Qed.
