(** * PhysicsFacts: the flux functions of the programs in exact arithmetic. *)
From Coq Require Import ZArith List String Lia Bool Reals Lra FunctionalExtensionality.
From Verif Require Import Base BaseFacts BoxSpec BoxFacts Range Indexer Interface Arith ArithR Chunk FieldSpec VarId Manager MgrSpec BC BCSpec
  SweepSpec Euler Maxwell FluxFacts EulerSpec PhysicsSpec NumFacts SourceSpec Programs ProgramsSpec.
Import ListNotations.
Open Scope Z_scope.

Lemma list_eq_nth : forall (a b : list R), List.length a = List.length b -> (forall i, (i < List.length a)%nat -> nth i a 0%R = nth i b 0%R) -> a = b.
Proof. intros a b L H. exact (nth_ext a b 0%R 0%R L H). Qed.

Lemma nth_map_seq : forall (f : nat -> R) n i, (i < n)%nat -> nth i (map f (seq 0 n)) 0%R = f i.
Proof.
  intros f n i Hi. rewrite nth_indep with (d' := f 0%nat) by now rewrite map_length, seq_length.
  rewrite map_nth. now rewrite seq_nth.
Qed.

Lemma euler_flux_is : forall gamma d l r, List.length l = 5%nat -> List.length r = 5%nat -> (d < 3)%nat ->
  flux_of (euler_flux gamma) d l r = hll_flux gamma d l r.
Proof.
  intros gamma d l r Hl Hr Hd. unfold flux_of. rewrite euler_flux_hll by assumption.
  set (sl := left_speed gamma d l). set (sr := right_speed gamma d r). set (fl := euler_phys gamma d l). set (fr := euler_phys gamma d r).
  assert (Ll : List.length fl = 5%nat) by reflexivity. assert (Lr : List.length fr = 5%nat) by reflexivity.
  assert (LL : List.length (hll sl sr fl fr l r) = 5%nat) by (rewrite hll_length; lia).
  apply list_eq_nth; [rewrite LL; unfold hll_flux; now rewrite map_length, seq_length|]. intros i Hi. rewrite LL in Hi.
  unfold hll_flux. fold sl sr fl fr. rewrite nth_map_seq by assumption. clearbody sl sr fl fr.
  destruct (Rlt_dec 0 sl), (Rlt_dec sr 0).
  - apply hll_both; lia || assumption.
  - rewrite hll_left; lia || lra || reflexivity.
  - rewrite hll_right; lia || lra || reflexivity.
  - apply hll_mid; lia || lra.
Qed.

Lemma maxwell_flux_is : forall c d l r, List.length l = 6%nat -> List.length r = 6%nat -> (d < 3)%nat ->
  flux_of (maxwell_flux c) d l r = rusanov_flux c d l r.
Proof.
  intros c d l r Hl Hr Hd. destruct (maxwell_parts c d l r Hl Hr Hd) as (f & E & Lf & Hf). unfold flux_of. rewrite E.
  apply list_eq_nth; [rewrite Lf; unfold rusanov_flux; now rewrite map_length, seq_length|]. intros i Hi. rewrite Lf in Hi.
  rewrite Hf by assumption. unfold rusanov_flux. now rewrite nth_map_seq.
Qed.

Lemma fv_rhs_ext : forall n G G' M bc dx ds (u : field R),
  (forall d l r, In d ds -> List.length l = Z.to_nat n -> List.length r = Z.to_nat n -> G d l r = G' d l r) ->
  fv_rhs n G M bc dx ds u = fv_rhs n G' M bc dx ds u.
Proof.
  intros n G G' M bc dx ds u H. unfold fv_rhs. f_equal.
  generalize (fun (_ : list Z) (_ : Z) => @f0 R RArith). induction ds as [|d ds IH]; intros r; [reflexivity|]. cbn [fold_left].
  assert (E : with_fluxes (fun d => wall n G (seen (bc d) M d u) d) dx r d = with_fluxes (fun d => wall n G' (seen (bc d) M d u) d) dx r d).
  { apply functional_extensionality. intros x. apply functional_extensionality. intros j. unfold with_fluxes, wall.
    rewrite !H; try reflexivity; try (left; reflexivity); unfold left_state, right_state; rewrite map_length, zrange_length, Z.sub_0_r; reflexivity. }
  rewrite E. apply IH. intros d' l r' Hd. apply H. now right.
Qed.
