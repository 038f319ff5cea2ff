(** * MonopoleFacts: sums over the layers of a mesh. *)
From Coq Require Import ZArith List String Lia Bool Reals Lra.
From Verif Require Import Base BaseFacts BoxSpec BoxFacts Range RangeSpec RangeFacts ApiSpec Arith ArithR Chunk ChunkFacts FieldSpec FieldFacts VarId Manager MgrSpec MgrFacts
  BC BCSpec BCFacts Sweep SweepSpec Euler Maxwell Sources ParFacts SweepFacts FluxFacts Programs ProgramsSpec ConserveFacts.
Import ListNotations.
Open Scope R_scope.

Lemma cut_other : forall B d t e, d <> e -> lo (cut B d t) e = lo B e /\ hi (cut B d t) e = hi B e.
Proof. intros B d t e H. unfold lo, hi, cut. rewrite nth_upd_neq by auto. auto. Qed.
Lemma cut_length : forall B d t, List.length (cut B d t) = List.length B.
Proof. intros. unfold cut. apply upd_length. Qed.
Lemma cut_incl : forall B d t, (lo B d <= t < hi B d)%Z -> box_incl (cut B d t) B.
Proof.
  intros B d t. unfold cut, lo, hi. revert d. induction B as [|[a b] B IH]; intros [|d] H; cbn in *; constructor; cbn; try lia; try apply box_incl_refl. now apply IH.
Qed.
Lemma cut_nonempty : forall B d t, nonempty B -> nonempty (cut B d t).
Proof.
  intros B d t. unfold cut. revert d. induction B as [|[a b] B IH]; intros [|d] H; cbn; auto; inversion H; subst; constructor; cbn in *; try lia; auto. now apply IH.
Qed.

(** The two ends of a periodic dimension, in any box. *)
Lemma periodic_ends : forall n G M B (u : field R) d j, (d < List.length B)%nat -> (2 <= hi M d - lo M d)%Z ->
  total (cut B d (lo M d)) (fun x => wall n G (seen Periodic M d u) d x j) = total (cut B d (hi M d)) (fun x => wall n G (seen Periodic M d u) d x j).
Proof.
  intros n G M B u d j Hd Hw. rewrite (cut_shift B d (hi M d) (lo M d)) by assumption.
  apply total_ext. intros x Hx. rewrite <- (app_nil_r B) in Hx. apply (in_cut B [] d _ x Hd) in Hx as [Ex Lx].
  assert (Lx' : (d < List.length (move d (hi M d - lo M d) x))%nat) by (now rewrite move_length).
  apply wall_ext; [|now apply move_0|now apply move_0]. intros t i Ht Hi. rewrite !seen_at, move_nth by assumption. rewrite Ex.
  replace (lo M d + (hi M d - lo M d) + t)%Z with (hi M d + t)%Z by lia. rewrite move_move by assumption.
  destruct (Z.ltb_spec (lo M d + t) (lo M d)).
  - destruct (Z.ltb_spec (hi M d + t) (lo M d)); [lia|]. destruct (Z.leb_spec (hi M d) (hi M d + t)); [lia|].
    cbn [low_value]. rewrite move_snoc' by assumption. do 3 f_equal. lia.
  - destruct (Z.leb_spec (hi M d) (lo M d + t)); [lia|]. destruct (Z.ltb_spec (hi M d + t) (lo M d)); [lia|]. destruct (Z.leb_spec (hi M d) (hi M d + t)); [|lia].
    cbn [up_value]. rewrite move_snoc' by assumption. do 3 f_equal. lia.
Qed.
(** Walls without flux. *)
Lemma total_0 : forall B f, (forall x, in_box B x -> f x = 0) -> total B f = 0.
Proof. intros B f H. rewrite (total_ext B f (fun _ => 0)) by exact H. unfold total. now apply sum_zero. Qed.

(** What one layer normal to [d] has of the normal component of a field does not
    change: there is no flux through its faces, and around it the boundary is
    periodic or a conducting wall. *)
Lemma maxwell_layer : forall c M P bc dx ds u d t j, nonempty (M ++ P) -> (forall e, In e ds -> (e < 3)%nat) -> wide M 2 ds -> (d < List.length M)%nat -> (d < 3)%nat -> (lo M d <= t < hi M d)%Z ->
  j = Z.of_nat d \/ j = Z.of_nat (d + 3) -> (forall e, In e ds -> e <> d -> bc e = Periodic \/ (e = 0%nat /\ bc e = ConductingWall /\ (j = 4%Z \/ j = 5%Z))) ->
  total (cut (M ++ P) d t) (fun x => @fv_rhs R RArith 6 (flux_of (maxwell_flux c)) M bc dx ds u (x ++ [j])) = 0.
Proof.
  intros c M P bc dx ds u d t j HN H3 Hw Hd Hd3 Ht Hj Hb. set (W := fun d => wall 6 (flux_of (maxwell_flux c)) (seen (bc d) M d u) d).
  assert (HF : @fluxes_added R RArith M P 6 W dx ds (fun _ => 0) (fv_rhs 6 (flux_of (maxwell_flux c)) M bc dx ds u)).
  { intros x i Hx Hi. unfold fv_rhs, cellwise. now rewrite removelast_last, last_last. }
  assert (EL : forall e, (e < List.length M)%nat -> lo (M ++ P) e = lo M e /\ hi (M ++ P) e = hi M e) by (intros; unfold lo, hi; rewrite app_nth1 by assumption; auto).
  destruct (EL d Hd) as [El Eh].
  assert (B : balanced (cut (M ++ P) d t) W dx ds (fun _ => 0) (fv_rhs 6 (flux_of (maxwell_flux c)) M bc dx ds u) j).
  { apply (box_balanced M P 6); [exact HF|apply cut_incl; lia|now apply cut_nonempty| |lia].
    apply Forall_forall. intros e He. rewrite cut_length, app_length. destruct (Hw e He). lia. }
  unfold balanced in B. rewrite (total_ext _ (fun x => fv_rhs 6 (flux_of (maxwell_flux c)) M bc dx ds u (x ++ [j])) (fun x => fv_rhs 6 (flux_of (maxwell_flux c)) M bc dx ds u (x ++ [j]) - 0)) by (intros; ring).
  rewrite B. apply sum_over_zero. intros e He. destruct (Hw e He) as [Le We]. unfold W. destruct (Nat.eq_dec e d) as [->|Ne].
  - rewrite !total_0 by (intros; apply (@maxwell_normal_wall R RArith); auto). unfold Rdiv. ring.
  - destruct (cut_other (M ++ P) d t e ltac:(auto)) as [-> ->]. destruct (EL e Le) as [-> ->].
    assert (Lb : (e < List.length (cut (M ++ P) d t))%nat) by (rewrite cut_length, app_length; lia).
    destruct (Hb e He Ne) as [-> | (-> & -> & Hj')].
    + rewrite (periodic_ends 6 _ M) by assumption. unfold Rdiv. ring.
    + rewrite !total_0; [unfold Rdiv; ring| |]; intros x Hx; rewrite <- (app_nil_r (cut (M ++ P) d t)) in Hx; apply (in_cut _ [] 0 _ x Lb) in Hx as [Ex Lx];
        unfold wall; apply maxwell_wall; [apply wall_mirror; auto; discriminate|lia|apply wall_mirror; auto; discriminate|lia].
Qed.
