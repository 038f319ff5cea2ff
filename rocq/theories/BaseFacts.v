(** * BaseFacts: lemmas about Base. *)
From Coq Require Import ZArith List String Lia Bool.
From Verif Require Import Base.
Import ListNotations.
Open Scope Z_scope.

Lemma Forall2_length : forall A B (R : A -> B -> Prop) l l',
  Forall2 R l l' -> List.length l = List.length l'.
Proof. induction 1; simpl; auto. Qed.

Ltac splits := repeat match goal with |- _ /\ _ => split end.

Lemma is_intb_spec : forall z, is_intb z = true <-> is_int z.
Proof. intros z. unfold is_intb, is_int. rewrite andb_true_iff, !Z.leb_le. tauto. Qed.

Lemma chk_ok : forall z, is_int z -> chk z = Ok z.
Proof. intros z H. unfold chk. apply is_intb_spec in H. now rewrite H. Qed.

Lemma conv_ok : forall z, is_int z -> conv z = Ok z.
Proof. intros z H. unfold conv. apply is_intb_spec in H. now rewrite H. Qed.

Lemma chk_ub : forall z, ~ is_int z -> chk z = UB IntOverflow.
Proof.
  intros z H. unfold chk. destruct (is_intb z) eqn:E; [|reflexivity].
  apply is_intb_spec in E. contradiction.
Qed.

Lemma chk_inv : forall z r, chk z = Ok r -> r = z /\ is_int z.
Proof.
  intros z r. unfold chk. destruct (is_intb z) eqn:E; [|discriminate].
  intros [= <-]. apply is_intb_spec in E. auto.
Qed.

Lemma iadd_ok : forall a b, is_int (a + b) -> iadd a b = Ok (a + b).
Proof. intros; now apply chk_ok. Qed.
Lemma isub_ok : forall a b, is_int (a - b) -> isub a b = Ok (a - b).
Proof. intros; now apply chk_ok. Qed.
Lemma imul_ok : forall a b, is_int (a * b) -> imul a b = Ok (a * b).
Proof. intros; now apply chk_ok. Qed.

Lemma bind_ok : forall A B (a : A) (k : A -> res B), bind (Ok a) k = k a.
Proof. reflexivity. Qed.

Lemma bind_inv : forall A B (m : res A) (k : A -> res B) b,
  bind m k = Ok b -> exists a, m = Ok a /\ k a = Ok b.
Proof. intros A B [a|e|u|] k b H; try discriminate. exists a. auto. Qed.

(** ** vectors *)

Lemma upd_length : forall A (l : list A) n x, List.length (upd l n x) = List.length l.
Proof. induction l; destruct n; simpl; intros; auto. Qed.

Lemma nth_error_upd_eq : forall A (l : list A) n x,
  (n < List.length l)%nat -> nth_error (upd l n x) n = Some x.
Proof. induction l; destruct n; simpl; intros; try lia; auto. apply IHl. lia. Qed.

Lemma nth_error_upd_neq : forall A (l : list A) n m x,
  n <> m -> nth_error (upd l n x) m = nth_error l m.
Proof.
  induction l; destruct n, m; simpl; intros; auto; try congruence.
Qed.

Lemma nth_error_upd : forall A (l : list A) n m x,
  nth_error (upd l n x) m =
  if Nat.eqb n m then (if Nat.ltb n (List.length l) then Some x else None) else nth_error l m.
Proof.
  intros. destruct (Nat.eqb_spec n m) as [->|N].
  - destruct (Nat.ltb_spec m (List.length l)).
    + now apply nth_error_upd_eq.
    + apply nth_error_None. now rewrite upd_length.
  - now apply nth_error_upd_neq.
Qed.

Lemma upd_app_mid : forall A (p : list A) x q y,
  upd (p ++ x :: q) (List.length p) y = p ++ y :: q.
Proof. induction p; simpl; intros; auto. now rewrite IHp. Qed.

Lemma upd_out : forall A (l : list A) n x, (List.length l <= n)%nat -> upd l n x = l.
Proof. induction l; destruct n; simpl; intros; auto; try lia. now rewrite IHl by lia. Qed.

Lemma vget_nth : forall A (l : list A) i,
  0 <= i -> vget l i = match nth_error l (Z.to_nat i) with Some x => Ok x | None => UB OutOfBounds end.
Proof. intros. unfold vget. destruct (Z.leb_spec 0 i); [reflexivity|lia]. Qed.

Lemma vget_mid : forall A (p : list A) x q n,
  n = Z.of_nat (List.length p) -> vget (p ++ x :: q) n = Ok x.
Proof.
  intros A p x q n ->. rewrite vget_nth by lia. rewrite Nat2Z.id.
  rewrite nth_error_app2 by lia. now rewrite Nat.sub_diag.
Qed.

Lemma vset_mid : forall A (p : list A) x q n y,
  n = Z.of_nat (List.length p) -> vset (p ++ x :: q) n y = Ok (p ++ y :: q).
Proof.
  intros A p x q n y ->. unfold vset.
  rewrite app_length; simpl.
  destruct (Z.leb_spec 0 (Z.of_nat (List.length p))); [|lia].
  destruct (Z.ltb_spec (Z.of_nat (List.length p)) (Z.of_nat (List.length p + S (List.length q)))); [|lia].
  simpl. rewrite Nat2Z.id. now rewrite upd_app_mid.
Qed.

Lemma vget_ok_inv : forall A (l : list A) i x,
  vget l i = Ok x -> 0 <= i /\ nth_error l (Z.to_nat i) = Some x.
Proof.
  intros A l i x. unfold vget. destruct (Z.leb_spec 0 i); [|discriminate].
  destruct (nth_error l (Z.to_nat i)) eqn:E; [|discriminate]. intros [= ->]. auto.
Qed.

Lemma vget_ok : forall A (l : list A) i x,
  0 <= i -> nth_error l (Z.to_nat i) = Some x -> vget l i = Ok x.
Proof. intros. rewrite vget_nth by assumption. now rewrite H0. Qed.

Lemma vget_in : forall A (l : list A) i d,
  0 <= i < Z.of_nat (List.length l) -> vget l i = Ok (nth (Z.to_nat i) l d).
Proof.
  intros. apply vget_ok; [lia|]. apply nth_error_nth'. lia.
Qed.

Lemma vset_ok : forall A (l : list A) i x,
  0 <= i < Z.of_nat (List.length l) -> vset l i x = Ok (upd l (Z.to_nat i) x).
Proof.
  intros. unfold vset.
  destruct (Z.leb_spec 0 i); [|lia]. destruct (Z.ltb_spec i (Z.of_nat (List.length l))); [|lia]. reflexivity.
Qed.

Lemma vset_ub : forall A (l : list A) i x,
  ~ (0 <= i < Z.of_nat (List.length l)) -> vset l i x = UB OutOfBounds.
Proof.
  intros. unfold vset.
  destruct (Z.leb_spec 0 i); destruct (Z.ltb_spec i (Z.of_nat (List.length l))); try reflexivity; lia.
Qed.

Lemma vget_ub : forall A (l : list A) i,
  ~ (0 <= i < Z.of_nat (List.length l)) -> vget l i = UB OutOfBounds.
Proof.
  intros. unfold vget. destruct (Z.leb_spec 0 i); [|reflexivity].
  destruct (nth_error l (Z.to_nat i)) eqn:E; [|reflexivity].
  assert (nth_error l (Z.to_nat i) <> None) by congruence.
  apply nth_error_Some in H1. lia.
Qed.

Lemma vset_inv : forall A (l : list A) i x l',
  vset l i x = Ok l' -> 0 <= i < Z.of_nat (List.length l) /\ l' = upd l (Z.to_nat i) x.
Proof.
  intros A l i x l'. unfold vset.
  destruct (Z.leb_spec 0 i); destruct (Z.ltb_spec i (Z.of_nat (List.length l))); try discriminate.
  intros [= <-]. auto.
Qed.

Lemma upd_inj_nth : forall A (l l' : list A),
  (forall n, nth_error l n = nth_error l' n) -> l = l'.
Proof.
  induction l; intros [|y l'] H; auto.
  - specialize (H 0%nat). discriminate.
  - specialize (H 0%nat). discriminate.
  - f_equal.
    + specialize (H 0%nat). now inversion H.
    + apply IHl. intros n. exact (H (S n)).
Qed.

(** ** loops *)

Lemma ofold_app : forall X S (f : X -> S -> out S) l1 l2 s,
  ofold f (l1 ++ l2) s = obind (ofold f l1 s) (ofold f l2).
Proof.
  induction l1; simpl; intros; auto.
  destruct (f a s); simpl; auto.
Qed.

Lemma obind_assoc : forall S (o : out S) (f g : S -> out S),
  obind (obind o f) g = obind o (fun s => obind (f s) g).
Proof. destruct o; reflexivity. Qed.

Lemma obind_done : forall S (o : out S), obind o Done = o.
Proof. destruct o; reflexivity. Qed.

Lemma obind_ext : forall S (o : out S) (f g : S -> out S),
  (forall s, f s = g s) -> obind o f = obind o g.
Proof. intros S [s| | |] f g H; simpl; auto. Qed.

Lemma ofold_ext : forall X S (f g : X -> S -> out S) l s,
  (forall x s', In x l -> f x s' = g x s') -> ofold f l s = ofold g l s.
Proof.
  induction l; simpl; intros; auto.
  rewrite (H a s) by auto. apply obind_ext. intros. apply IHl. auto.
Qed.

(** A loop all of whose iterations succeed is a fold. *)
Lemma ofold_done : forall X S (f : X -> S -> out S) (g : X -> S -> S) (I : S -> Prop) l s,
  (forall x s', In x l -> I s' -> f x s' = Done (g x s') /\ I (g x s')) ->
  I s ->
  ofold f l s = Done (fold_left (fun s' x => g x s') l s) /\
  I (fold_left (fun s' x => g x s') l s).
Proof.
  induction l; simpl; intros; auto.
  destruct (H a s) as [E HI]; auto. rewrite E. simpl. apply IHl; auto.
Qed.

Lemma ofold_map : forall X Y S (h : X -> Y) (f : Y -> S -> out S) l s,
  ofold f (map h l) s = ofold (fun x => f (h x)) l s.
Proof. induction l; simpl; intros; auto. apply obind_ext. auto. Qed.

(** Evaluate one closed goal at a time. *)
Ltac vmr := match goal with |- _ => vm_compute; reflexivity end.
