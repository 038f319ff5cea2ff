(** * VarIdFacts: order of ids and names of clones. *)
From Coq Require Import ZArith List String Ascii Lia Bool DecimalString Decimal DecimalPos DecimalFacts.
From Verif Require Import Base BaseFacts Arith VarId MgrFacts.
Import ListNotations.
Open Scope Z_scope.

(** ** string order *)

Lemma ascii_compare_eq : forall a b, Ascii.compare a b = Eq <-> a = b.
Proof. intros a b. split; [apply Ascii.compare_eq_iff|intros ->]. unfold Ascii.compare. apply N.compare_refl. Qed.
Lemma ascii_lt_trans : forall a b c, Ascii.compare a b = Lt -> Ascii.compare b c = Lt -> Ascii.compare a c = Lt.
Proof. unfold Ascii.compare. intros a b c H1 H2. rewrite N.compare_lt_iff in *. lia. Qed.

Lemma string_lt_trans : forall a b c, String.compare a b = Lt -> String.compare b c = Lt -> String.compare a c = Lt.
Proof.
  induction a as [|x a IH]; intros [|y b] [|z c] H1 H2; cbn in *; try discriminate; auto.
  destruct (Ascii.compare x y) eqn:E1; destruct (Ascii.compare y z) eqn:E2; try discriminate.
  - apply ascii_compare_eq in E1, E2. subst. rewrite (proj2 (ascii_compare_eq z z) eq_refl). eauto.
  - apply ascii_compare_eq in E1. subst. now rewrite E2.
  - apply ascii_compare_eq in E2. subst. now rewrite E1.
  - now rewrite (ascii_lt_trans _ _ _ E1 E2).
Qed.

Lemma ltb_iff : forall a b, String.ltb a b = true <-> String.compare a b = Lt.
Proof. intros. unfold String.ltb. destruct (String.compare a b); split; congruence. Qed.
Lemma ltb_trans : forall a b c, String.ltb a b = true -> String.ltb b c = true -> String.ltb a c = true.
Proof. intros a b c. rewrite !ltb_iff. apply string_lt_trans. Qed.
Lemma ltb_antisym_eq : forall a b, String.ltb a b = false -> String.ltb b a = false -> a = b.
Proof.
  intros a b H1 H2. destruct (string_dec a b); auto. rewrite (ltb_total a b), H2 in H1 by assumption. discriminate.
Qed.

(** Value of the order on ids that do not share a name with other components. *)
Lemma vid_lt_value : forall a b, (id_name a = id_name b -> id_comps a = id_comps b) ->
  vid_lt a b = Ok (String.ltb (id_name a) (id_name b) ||
                   (String.eqb (id_name a) (id_name b) && basis_lt (id_basis a) (id_basis b))).
Proof.
  intros a b H. unfold vid_lt. destruct (String.eqb_spec (id_name a) (id_name b)) as [E|E].
  - rewrite E, ltb_refl, (H E), strings_eqb_refl. reflexivity.
  - rewrite (ltb_total (id_name b) (id_name a)) by congruence. destruct (String.ltb (id_name a) (id_name b)); reflexivity.
Qed.
Lemma vid_eqb_value : forall a b, (id_name a = id_name b -> id_comps a = id_comps b) ->
  vid_eqb a b = Ok (String.eqb (id_name a) (id_name b) && basis_eqb (id_basis a) (id_basis b)).
Proof.
  intros a b H. unfold vid_eqb. destruct (String.eqb_spec (id_name a) (id_name b)) as [E|E]; [|reflexivity].
  rewrite (H E), strings_eqb_refl. reflexivity.
Qed.

Section Order.
Variable ks : list vid.
Hypothesis Hc : forall a b, In a ks -> In b ks -> id_name a = id_name b -> id_comps a = id_comps b.
Hypothesis Hb : forall a b, In a ks -> In b ks -> bs_name (id_basis a) = bs_name (id_basis b).

Lemma basis_lt_same : forall a b, In a ks -> In b ks ->
  basis_lt (id_basis a) (id_basis b) = (bs_points (id_basis a) <? bs_points (id_basis b)).
Proof. intros a b Ha H. unfold basis_lt. rewrite (Hb a b Ha H), ltb_refl. reflexivity. Qed.

Definition before (a b : vid) : Prop := vid_lt a b = Ok true.

Lemma before_iff : forall a b, In a ks -> In b ks ->
  (before a b <-> String.ltb (id_name a) (id_name b) = true \/
     (id_name a = id_name b /\ bs_points (id_basis a) < bs_points (id_basis b))).
Proof.
  intros a b Ha H. unfold before. rewrite vid_lt_value by auto. rewrite basis_lt_same by assumption. split.
  - intros E. injection E as E'. apply orb_true_iff in E' as [E'|E']; [left; exact E'|]. right.
    apply andb_true_iff in E' as [E1 E2]. apply String.eqb_eq in E1. apply Z.ltb_lt in E2. auto.
  - intros [E|[E1 E2]]; [now rewrite E|]. rewrite E1, String.eqb_refl. apply Z.ltb_lt in E2. rewrite E2. now rewrite orb_true_r.
Qed.

Lemma order_total : forall a b, In a ks -> In b ks -> exists x y, vid_lt a b = Ok x /\ vid_eqb a b = Ok y.
Proof. intros a b Ha H. rewrite vid_lt_value, vid_eqb_value by auto. eauto. Qed.
Lemma order_irrefl : forall a, In a ks -> ~ before a a.
Proof. intros a Ha H. apply before_iff in H as [H|[_ H]]; auto; [|lia]. rewrite ltb_refl in H. discriminate. Qed.
Lemma order_trans : forall a b c, In a ks -> In b ks -> In c ks -> before a b -> before b c -> before a c.
Proof.
  intros a b c Ha H1 H2 B1 B2. apply before_iff in B1, B2; auto. apply before_iff; auto.
  destruct B1 as [B1|[E1 B1]], B2 as [B2|[E2 B2]].
  - left. eapply ltb_trans; eauto.
  - left. now rewrite <- E2.
  - left. now rewrite E1.
  - right. split; [congruence|lia].
Qed.
Lemma order_equiv : forall a b, In a ks -> In b ks -> ((~ before a b /\ ~ before b a) <-> vid_eqb a b = Ok true).
Proof.
  intros a b Ha H. rewrite !before_iff by assumption. rewrite vid_eqb_value by auto.
  unfold basis_eqb. rewrite (Hb a b Ha H), String.eqb_refl. cbn [negb]. split.
  - intros [N1 N2]. assert (E : id_name a = id_name b).
    { apply ltb_antisym_eq; [destruct (String.ltb (id_name a) (id_name b)) eqn:Q|destruct (String.ltb (id_name b) (id_name a)) eqn:Q]; auto; tauto. }
    rewrite E, String.eqb_refl. cbn. f_equal. apply Z.eqb_eq.
    destruct (Z.lt_trichotomy (bs_points (id_basis a)) (bs_points (id_basis b))) as [Q|[Q|Q]]; auto; exfalso; [apply N1|apply N2]; auto.
  - intros E. injection E as E'. apply andb_true_iff in E' as [E1 E2]. apply String.eqb_eq in E1. apply Z.eqb_eq in E2.
    rewrite E1, ltb_refl. split; intros [Q|[_ Q]]; try discriminate; lia.
Qed.
End Order.

(** ** clones *)

(** Names of the clones returned by a sequence of calls, starting at [tag]. *)
Fixpoint clones (tag : Z) (l : list vid) : res (list vid) :=
  match l with
  | [] => Ok []
  | v :: l' => p <- unique_clone tag v ;; r <- clones (snd p) l' ;; Ok (fst p :: r)
  end.

Definition clone_name (v : vid) (t : Z) : string := String.append (id_name v) (String.append "_clone_" (show_int t)).

Lemma clones_names : forall l tag r, clones tag l = Ok r ->
  map id_name r = map (fun p => clone_name (fst p) (snd p)) (combine l (map (fun n => tag + Z.of_nat n) (seq 0 (List.length l)))).
Proof.
  induction l as [|v l IH]; intros tag r H; cbn [clones] in H.
  - inversion H. reflexivity.
  - unfold unique_clone, unique_tag in H. destruct (iadd tag 1) as [t'| | |] eqn:E; cbn [bind fst snd] in H; try discriminate.
    assert (t' = tag + 1).
    { unfold iadd, chk in E. destruct (is_intb (tag + 1)); [|discriminate]. now inversion E. }
    subst t'. destruct (clones (tag + 1) l) as [r'| | |] eqn:E2; cbn [bind] in H; try discriminate.
    inversion H; subst. cbn [map id_name List.length seq combine fst snd]. f_equal.
    + replace (tag + Z.of_nat 0) with tag by lia. reflexivity.
    + rewrite (IH _ _ E2). do 2 f_equal. rewrite <- seq_shift, map_map. apply map_ext. intros. lia.
Qed.

(** Length of the longest suffix of digits. *)
Definition is_digit (a : ascii) : bool := (N.leb 48 (N_of_ascii a) && N.leb (N_of_ascii a) 57)%bool.

Fixpoint all_digits (s : string) : bool :=
  match s with EmptyString => true | String a s' => is_digit a && all_digits s' end.

Lemma append_assoc : forall a b c, String.append a (String.append b c) = String.append (String.append a b) c.
Proof. induction a; intros; cbn; auto. now rewrite IHa. Qed.

(** A non-digit followed by digits determines the digits. *)
Lemma suffix_unique : forall a b x y s t, is_digit x = false -> is_digit y = false ->
  all_digits s = true -> all_digits t = true ->
  String.append a (String x s) = String.append b (String y t) -> s = t.
Proof.
  induction a as [|p a IH]; intros [|q b] x y s t Hx Hy Hs Ht E; cbn in E; inversion E; subst; auto.
  - exfalso. assert (Q : forall b' y' t', all_digits (String.append b' (String y' t')) = true -> is_digit y' = true).
    { clear. induction b' as [|q b' IH]; intros y' t' H; cbn in H; apply andb_true_iff in H as [H1 H2]; eauto. }
    rewrite (Q _ _ _ Hs) in Hy. discriminate.
  - exfalso. assert (Q : forall b' y' t', all_digits (String.append b' (String y' t')) = true -> is_digit y' = true).
    { clear. induction b' as [|q b' IH]; intros y' t' H; cbn in H; apply andb_true_iff in H as [H1 H2]; eauto. }
    rewrite (Q _ _ _ Ht) in Hx. discriminate.
  - apply (IH b x y s t); assumption.
Qed.

Lemma uint_digits : forall u, all_digits (NilEmpty.string_of_uint u) = true.
Proof. induction u; cbn; auto. Qed.

Lemma show_digits : forall t, 0 <= t -> all_digits (show_int t) = true.
Proof. intros [|p|p] H; [reflexivity| |lia]. apply uint_digits. Qed.

Lemma show_inj : forall s t, 0 <= s -> 0 <= t -> show_int s = show_int t -> s = t.
Proof.
  assert (Z0' : forall p, show_int (Zpos p) <> "0"%string).
  { intros p H. cbn in H. change "0"%string with (NilEmpty.string_of_uint (D0 Nil)) in H.
    assert (Q : Some (Pos.to_uint p) = Some (D0 Nil)).
    { rewrite <- !NilEmpty.usu. now rewrite H. }
    inversion Q as [Q']. pose proof (DecimalPos.Unsigned.of_to p) as O. rewrite Q' in O. cbn in O. discriminate. }
  intros [|s|s] [|t|t] Hs Ht H; try lia; auto.
  - exfalso. apply (Z0' t). now rewrite <- H.
  - exfalso. now apply (Z0' s).
  - cbn in H. assert (Q : Some (Pos.to_uint s) = Some (Pos.to_uint t)) by (rewrite <- !NilEmpty.usu; now rewrite H).
    inversion Q as [Q']. pose proof (DecimalPos.Unsigned.of_to s) as O1. pose proof (DecimalPos.Unsigned.of_to t) as O2.
    rewrite Q' in O1. rewrite O1 in O2. congruence.
Qed.

Lemma clone_name_inj : forall v w s t, 0 <= s -> 0 <= t -> clone_name v s = clone_name w t -> s = t.
Proof.
  intros v w s t Hs Ht H. apply show_inj; auto. unfold clone_name in H.
  change (String.append "_clone_" (show_int s)) with (String.append "_clone" (String "_" (show_int s))) in H.
  change (String.append "_clone_" (show_int t)) with (String.append "_clone" (String "_" (show_int t))) in H.
  rewrite !append_assoc in H. eapply suffix_unique in H; auto using show_digits.
Qed.

Lemma clones_NoDup : forall l tag r, 0 <= tag -> clones tag l = Ok r -> NoDup (map id_name r).
Proof.
  intros l tag r H0 H. rewrite (clones_names _ _ _ H). clear H r.
  assert (G : forall n k, NoDup (map (fun p : vid * Z => clone_name (fst p) (snd p))
     (combine l (map (fun n => tag + Z.of_nat n) (seq k n))))).
  { induction l as [|v l IH]; intros n k; [constructor|]. destruct n; [constructor|]. cbn [seq map combine]. constructor; [|apply IH].
    cbn [fst snd]. intros Hin. apply in_map_iff in Hin as ([w t] & E & Hin). cbn in E.
    apply in_combine_r in Hin. apply in_map_iff in Hin as (j & Ej & Hj). apply in_seq in Hj.
    apply clone_name_inj in E; lia. }
  apply G.
Qed.

Lemma clones_ok : forall l tag, 0 <= tag -> tag + Z.of_nat (List.length l) <= int_max -> exists r, clones tag l = Ok r.
Proof.
  induction l as [|v l IH]; intros tag H0 H; [exists []; reflexivity|]. cbn [clones List.length] in *.
  unfold unique_clone, unique_tag. rewrite iadd_ok by (unfold is_int, int_min, int_max in *; lia). cbn [bind fst snd].
  destruct (IH (tag + 1)) as [r E]; [lia|lia|]. rewrite E. eexists. reflexivity.
Qed.
