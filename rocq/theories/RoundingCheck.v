(** * RoundingCheck: checks, by computing, that doubles are of moderate size, for the
    examples of Properties_Rounding. *)
From Coq Require Import ZArith List String Bool Reals Lra Lia Floats.SpecFloat.
From Flocq Require Import Core.Zaux Core.Raux Core.Digits Core.Float_prop.
From Verif Require Import Base BaseFacts BoxSpec BoxFacts Arith ArithR ArithFloat Chunk FieldSpec VarId Manager MgrSpec MgrFacts
  BC BCSpec BCFacts Sweep SweepSpec ParFacts SweepFacts FluxFacts ProgramsSpec ConserveFacts RhsFacts
  SymmetrySpec SymmetryFacts RoundingSpec RoundingFacts DriftFacts FiniteFacts.
Import ListNotations.
Open Scope Z_scope.

(** A number below 2^k. *)
Definition below (k : Z) (x : spec_float) : bool :=
  valid_binary 53 1024 x && match x with S754_zero _ => true | S754_finite _ m e => (Z.pos (digits2_pos m) + e <=? k) | _ => false end.
Lemma pos_below : forall m, (IZR (Z.pos m) <= bpow radix2 (Z.pos (digits2_pos m)))%R.
Proof.
  intros m. rewrite <- (IZR_Zpower radix2) by lia. apply IZR_le.
  rewrite Digits.Zpos_digits2_pos. pose proof (Digits.Zdigits_correct radix2 (Z.pos m)) as (_ & H). cbn [Z.abs] in H. lia.
Qed.
Lemma below_within : forall k x, below k x = true -> within (powerRZ 2 k) x.
Proof.
  intros k x H. apply andb_prop in H as (V & H). split.
  - split; [exact V|]. now destruct x.
  - change (powerRZ 2 k) with (powerRZ (IZR radix2) k). rewrite <- (bpow_powerRZ radix2 k). destruct x as [s|s| |s m e]; try discriminate; cbn [real]; try (rewrite Rabs_R0; apply bpow_ge_0).
    apply Z.leb_le in H. rewrite Rabs_mult. change (powerRZ 2 e) with (powerRZ (IZR radix2) e). rewrite <- (bpow_powerRZ radix2 e), (Rabs_pos_eq (bpow radix2 e)) by apply bpow_ge_0.
    replace (Rabs (IZR (if s then - Z.pos m else Z.pos m))) with (IZR (Z.pos m)) by (destruct s; rewrite <- abs_IZR; reflexivity).
    apply Rle_trans with (bpow radix2 (Z.pos (digits2_pos m)) * bpow radix2 e)%R; [apply Rmult_le_compat_r; [apply bpow_ge_0|apply pos_below]|].
    rewrite <- bpow_plus. now apply bpow_le.
Qed.

(** A field from a table. *)
Definition from (l : list (list Z * spec_float)) : field spec_float := fun c =>
  match find (fun p => if list_eq_dec Z.eq_dec (fst p) c then true else false) l with Some p => snd p | None => f0 end.

Section Check.
Variables (n : Z) (G : nat -> list spec_float -> list spec_float -> list spec_float) (M P : box) (dx : nat -> spec_float) (ds : list nat).
Hypothesis Hds : forall d, In d ds -> (d < List.length M)%nat /\ (2 <= hi M d - lo M d)%Z.
Notation rhs := (fv_rhs n G M (fun _ => Periodic) dx ds).

Definition agree (u v : field spec_float) : Prop := forall x j, in_box (M ++ P) x -> 0 <= j < n -> u (x ++ [j]) = v (x ++ [j]).
Lemma agree_map : forall u v, map u (cells (M ++ P ++ [(0, n)])) = map v (cells (M ++ P ++ [(0, n)])) -> agree u v.
Proof. intros u v H x j Hx Hj. apply (ext_in_map H). apply in_cells. rewrite app_assoc. now apply snoc_in. Qed.
Lemma seen_agree : forall u v d x t j, agree u v -> In d ds -> in_box (M ++ P) x -> -2 <= t <= 2 -> 0 <= j < n ->
  seen Periodic M d u (move d t x ++ [j]) = seen Periodic M d v (move d t x ++ [j]).
Proof.
  intros u v d x t j H Hd Hx Ht Hj. destruct (Hds d Hd) as (Ld & Hw).
  assert (Lx : (d < List.length x)%nat) by (apply Forall2_length in Hx; rewrite app_length in Hx; lia).
  rewrite !seen_periodic; auto; try (now apply (in_box_inside M P x Hx)). apply H; [apply around_in_box; [exact Ld|lia|exact Hx]|exact Hj].
Qed.
Lemma wall_agree : forall u v d x s j, agree u v -> In d ds -> in_box (M ++ P) x -> 0 <= s <= 1 ->
  wall n G (seen Periodic M d u) d (move d s x) j = wall n G (seen Periodic M d v) d (move d s x) j.
Proof.
  intros u v d x s j H Hd Hx Hs. assert (Lx : (d < List.length x)%nat) by (destruct (Hds d Hd) as (Ld & _); apply Forall2_length in Hx; rewrite app_length in Hx; lia).
  apply wall_reads; auto. intros t i Ht Hi. now apply seen_agree.
Qed.
Lemma rhs_agree : forall u v, agree u v -> agree (rhs u) (rhs v).
Proof.
  intros u v H x j Hx Hj. unfold fv_rhs, cellwise. rewrite removelast_last, last_last.
  assert (A : forall l (r r' : list Z -> Z -> spec_float), (forall d, In d l -> In d ds) -> r x j = r' x j ->
    fold_left (with_fluxes (fun d => wall n G (seen Periodic M d u) d) dx) l r x j = fold_left (with_fluxes (fun d => wall n G (seen Periodic M d v) d) dx) l r' x j).
  { induction l as [|d l IH]; intros r r' Hl E; [exact E|]. cbn [fold_left]. apply IH; [intros d' Hd'; apply Hl; now right|].
    unfold with_fluxes. rewrite E. pose proof (wall_agree u v d x 0 j H (Hl d ltac:(now left)) Hx ltac:(lia)) as E0. rewrite !move_0 in E0 by (destruct (Hds d (Hl d ltac:(now left))) as (Ld & _); apply Forall2_length in Hx; rewrite app_length in Hx; lia).
    pose proof (wall_agree u v d x 1 j H (Hl d ltac:(now left)) Hx ltac:(lia)) as E1. cbn beta in *. rewrite E0, E1. reflexivity. }
  apply A; auto.
Qed.
Lemma moderate_agree : forall u v b q, agree u v -> moderate n G M (M ++ P) dx ds b q v -> moderate n G M (M ++ P) dx ds b q u.
Proof.
  intros u v b q H (H1 & H2). split; [intros x j Hx Hj; rewrite H by assumption; now apply H1|].
  intros d x j s Hd Hx Hj Hs. rewrite (wall_agree u v d x s j H Hd Hx) by lia. now apply H2.
Qed.
Lemma divisor_agree : forall u v, agree u v -> no_zero_divisor M (M ++ P) ds n v -> no_zero_divisor M (M ++ P) ds n u.
Proof. intros u v H H1 d x j t Hd Hx Hj Ht. rewrite !(seen_agree u v) by (auto; lia). now apply H1. Qed.

(** The three tests. *)
Definition small_values (k : Z) (u : field spec_float) : bool := forallb (fun c => below k (u c)) (cells (M ++ P ++ [(0, n)])).
Definition small_fluxes (q : Z) (u : field spec_float) : bool :=
  forallb (fun d => forallb (fun x => forallb (fun j => forallb (fun s => below q (wall n G (seen Periodic M d u) d (move d s x) j / dx d)%F) [0; 1]) (zrange 0 n)) (cells (M ++ P))) ds.
Definition nonzero (x : spec_float) : bool := match x with S754_finite _ _ _ => true | _ => false end.
Definition good_divisors (u : field spec_float) : bool :=
  forallb (fun d => forallb (fun x => forallb (fun j => forallb (fun t =>
    nonzero (seen Periodic M d u (move d t x ++ [j]) - seen Periodic M d u (move d (t - 1) x ++ [j]) + fdec 1 (-12))%F) [-1; 0; 1; 2]) (zrange 0 n)) (cells (M ++ P))) ds.
Lemma small_values_ok : forall k u, small_values k u = true -> forall x j, in_box (M ++ P) x -> 0 <= j < n -> within (powerRZ 2 k) (u (x ++ [j])).
Proof.
  intros k u H x j Hx Hj. unfold small_values in H. rewrite forallb_forall in H. apply below_within, H. apply in_cells. rewrite app_assoc. now apply snoc_in.
Qed.
Lemma moderate_check : forall k q u, small_values k u = true -> small_fluxes q u = true -> moderate n G M (M ++ P) dx ds (powerRZ 2 k) (powerRZ 2 q) u.
Proof.
  intros k q u H1 H2. split; [now apply small_values_ok|]. intros d x j s Hd Hx Hj Hs. apply below_within.
  unfold small_fluxes in H2. rewrite forallb_forall in H2. specialize (H2 d Hd). rewrite forallb_forall in H2. specialize (H2 x (proj2 (in_cells _ _) Hx)).
  rewrite forallb_forall in H2. specialize (H2 j ltac:(apply in_zrange; lia)). rewrite forallb_forall in H2. apply H2. destruct Hs as [->| ->]; [now left|right; now left].
Qed.
Lemma divisor_check : forall u, good_divisors u = true -> no_zero_divisor M (M ++ P) ds n u.
Proof.
  intros u H d x j t Hd Hx Hj Ht. unfold good_divisors in H. rewrite forallb_forall in H. specialize (H d Hd). rewrite forallb_forall in H. specialize (H x (proj2 (in_cells _ _) Hx)).
  rewrite forallb_forall in H. specialize (H j ltac:(apply in_zrange; lia)). rewrite forallb_forall in H.
  assert (It : In t [-1; 0; 1; 2]) by (assert (T : t = -1 \/ t = 0 \/ t = 1 \/ t = 2) by lia; cbn; lia).
  specialize (H t It). destruct (_ + _)%F as [s|s| |s m e]; try discriminate. cbn [real]. apply Rmult_integral_contrapositive. split.
  - intros E. apply eq_IZR_R0 in E. destruct s; lia.
  - apply powerRZ_NOR. lra.
Qed.

(** The stages of a step, from tables of the second and the third. *)
Lemma stages_agree : forall dt (u u1 u2 : field spec_float) V, let Op := fun (V : @sys spec_float) (_ : nat) => rhs (V 0%nat) in
  agree (fun c => u c + dt * rhs u c)%F u1 -> agree (fun c => fdec 75 (-2) * u c + fdec 25 (-2) * u1 c + fdec 25 (-2) * dt * rhs u1 c)%F u2 ->
  In V (stages Op dt (fun _ => u)) -> agree (V 0%nat) u \/ agree (V 0%nat) u1 \/ agree (V 0%nat) u2.
Proof.
  intros dt u u1 u2 V Op H1 H2 [<-|[<-|[<-|[]]]]; [left; intros x j _ _; reflexivity|right; left; exact H1|right; right].
  intros x j Hx Hj. rewrite <- (H2 x j Hx Hj). unfold Op.
  pose proof (rhs_agree (fun c => (u c + dt * rhs u c)%F) u1 H1 x j Hx Hj) as E1. pose proof (H1 x j Hx Hj) as E2. cbn beta in E2. rewrite <- E2. f_equal. f_equal. exact E1.
Qed.
(** The fields after a step, from such tables. *)
Lemma rk3_agree : forall dt (u u1 u2 : field spec_float), let Op := fun (V : @sys spec_float) (_ : nat) => rhs (V 0%nat) in
  agree (fun c => u c + dt * rhs u c)%F u1 -> agree (fun c => fdec 75 (-2) * u c + fdec 25 (-2) * u1 c + fdec 25 (-2) * dt * rhs u1 c)%F u2 ->
  agree (rk3 Op dt (fun _ => u) 0%nat) (fun c => (u c + fofz 2 * (u2 c + dt * rhs u2 c)) / fofz 3)%F.
Proof.
  intros dt u u1 u2 Op H1 H2. unfold rk3, Op. set (U1 := fun c => (u c + dt * rhs u c)%F) in *.
  set (U2 := fun c => (fdec 75 (-2) * u c + fdec 25 (-2) * U1 c + fdec 25 (-2) * dt * rhs U1 c)%F).
  assert (A2 : agree U2 u2) by (intros x j Hx Hj; rewrite <- (H2 x j Hx Hj); unfold U2; now rewrite (rhs_agree U1 u1 H1 x j Hx Hj), (H1 x j Hx Hj)).
  intros x j Hx Hj. change ((u (x ++ [j]) + fofz 2 * (U2 (x ++ [j]) + dt * rhs U2 (x ++ [j]))) / fofz 3 = (u (x ++ [j]) + fofz 2 * (u2 (x ++ [j]) + dt * rhs u2 (x ++ [j]))) / fofz 3)%F.
  now rewrite (rhs_agree U2 u2 A2 x j Hx Hj), (A2 x j Hx Hj).
Qed.
End Check.
