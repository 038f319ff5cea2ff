(** * Properties of qk::exception (C52). *)
From Coq Require Import String List.
From Verif Require Import Base Exception.
Import ListNotations.
Open Scope string_scope.

(** The operations on a message that the code performs without what(). *)
Inductive exc_op : Type :=
| Copy
| Append (s : string).
(** The object after an operation. *)
Definition exc_step (e : exc) (o : exc_op) : exc :=
  match o with Copy => exc_copy e | Append s => exc_append e s end.
(** The text an operation adds. *)
Definition added (o : exc_op) : string := match o with Copy => "" | Append s => s end.

Lemma append_assoc : forall a b c, (a ++ b) ++ c = a ++ (b ++ c).
Proof. induction a; intros b c; cbn; [reflexivity|]. now rewrite IHa. Qed.
Lemma append_nil : forall a, a ++ "" = a.
Proof. induction a; cbn; congruence. Qed.
Lemma append_inj_nil : forall a b, a ++ b = b -> a = "".
Proof.
  intros a b H. destruct a as [|c a]; [reflexivity|].
  assert (L : String.length (String c a ++ b) = String.length b) by (now rewrite H).
  assert (E : forall x y, String.length (x ++ y) = String.length x + String.length y) by (induction x; intros; cbn; auto).
  rewrite E in L. cbn in L. apply (f_equal (fun n => n - String.length b)) in L.
  rewrite PeanoNat.Nat.sub_diag in L. rewrite <- PeanoNat.Nat.add_succ_l, PeanoNat.Nat.add_sub in L. discriminate.
Qed.

(** A message printed with operator<< is the text given at construction, or none,
    followed by everything appended, through any copies.  Partial: what() and assignment
    are refuted below. *)
Theorem C52_message_partial : forall msg ops,
  exc_show (fold_left exc_step ops (exc_new msg)) = msg ++ String.concat "" (map added ops) /\
  exc_show (fold_left exc_step ops exc_default) = String.concat "" (map added ops).
Proof.
  assert (G : forall msg ops, exc_show (fold_left exc_step ops (exc_new msg)) = msg ++ String.concat "" (map added ops)); [|intros msg ops; split; [apply G|exact (G ""%string ops)]].
  intros msg ops. unfold exc_show, exc_new. revert msg. induction ops as [|o ops IH]; intros msg.
  - cbn. now rewrite append_nil.
  - cbn [fold_left]. rewrite IH. 
    assert (C : String.concat "" (map added (o :: ops)) = added o ++ String.concat "" (map added ops)).
    { cbn [map String.concat]. destruct (map added ops); [cbn; now rewrite append_nil|reflexivity]. }
    rewrite C, <- append_assoc. f_equal. destruct o; cbn; [now rewrite append_nil|reflexivity].
Qed.
Print Assumptions C52_message_partial.

Example C52_message_ex : exc_show (fold_left exc_step [Append " in range"; Copy; Append "."] (exc_new "bad index")) = "bad index in range.".
Proof. reflexivity. Qed.

(** Refuted: the pointer returned by what() is dangling for every message, so
    the handler of main, which prints it, is undefined. *)
Theorem C52_what_refuted : forall e, text_at (exc_what e) = UB DanglingPointer /\ main_handler e = UB DanglingPointer.
Proof. auto. Qed.
Print Assumptions C52_what_refuted.

(** Refuted: assignment reads the dangling pointer, whatever is assigned to
    whatever. *)
Theorem C52_assign_refuted : forall e other, exc_assign e other = UB DanglingPointer.
Proof. reflexivity. Qed.
Print Assumptions C52_assign_refuted.

(** Refuted: even if what() delivered the message, the assigned object would
    report both messages: it reports the same as the source only if it was empty. *)
Theorem C52_assign_appends_refuted : forall e other,
  exc_assign_with text_at e other (Alive other) = Ok (e ++ other) /\
  (exc_assign_with text_at e other (Alive other) = Ok (exc_show other) <-> e = "").
Proof.
  intros e other. split; [reflexivity|]. unfold exc_assign_with, exc_append, exc_show. cbn. split.
  - intros H. injection H as H. now apply append_inj_nil in H.
  - intros ->. reflexivity.
Qed.
Print Assumptions C52_assign_appends_refuted.

Example C52_assign_ex : exc_assign_with text_at "old" "new" (Alive "new") = Ok "oldnew" /\ exc_assign "old" "new" = UB DanglingPointer.
Proof. auto. Qed.

(** A std::exception whose what() is alive is taken over with its message. *)
Theorem C52_from_std : forall s, exc_of_std (Alive s) = Ok s.
Proof. reflexivity. Qed.
Print Assumptions C52_from_std.
(** Refuted: a quikin exception taken over through its base class is not. *)
Theorem C52_from_base_refuted : forall e, exc_of_std (exc_what e) = UB DanglingPointer.
Proof. reflexivity. Qed.
Print Assumptions C52_from_base_refuted.
Example C52_from_std_ex : exc_of_std (Alive "bad_alloc") = Ok "bad_alloc".
Proof. reflexivity. Qed.
