(** * Properties_Basis: C66, the face basis (src/basis/face_basis.cpp). *)
From Coq Require Import ZArith List String Bool Lia.
From Verif Require Import Base BaseFacts BoxSpec RangeSpec VarId.
Import ListNotations.
Open Scope Z_scope.

(** Any number of setup calls with one point per dimension; the arguments are
    the dimension counts. *)
Fixpoint setups (f : face_basis) (ds : list Z) : out face_basis :=
  match ds with
  | [] => Done f
  | d :: ds' => obind (face_basis_setup f d 1) (fun f' => setups f' ds')
  end.

Lemma setup_one : forall f0 d, is_int d -> face_basis_setup f0 d 1 =
  Done (mkFaceBasis (mkBasis (bs_name (fb_basis f0)) d) d 1 (S (fb_points f0)) (S (fb_weights f0))).
Proof.
  intros f0 d H. unfold face_basis_setup, imul. rewrite Z.mul_1_r, chk_ok by exact H. reflexivity.
Qed.

(** The part of C66 that holds: the first setup of a new basis with one point
    per dimension gives one point per dimension, one node and one weight. *)
Theorem C66_setup_partial : forall dims, is_int dims ->
  exists f, face_basis_setup face_basis_default dims 1 = Done f /\
    bs_points (fb_basis f) = dims /\ bs_name (fb_basis f) = "face_basis"%string /\
    fb_dims f = dims /\ fb_per_dim f = 1 /\
    fb_points f = 1%nat /\ fb_weights f = 1%nat.
Proof.
  intros dims H. rewrite setup_one by exact H. eexists. split; [reflexivity|]. repeat split.
Qed.
Print Assumptions C66_setup_partial.

Example C66_setup_partial_ex : exists f,
  face_basis_setup face_basis_default 3 1 = Done f /\ bs_points (fb_basis f) = 3 /\ fb_points f = 1%nat.
Proof. eexists. split; [vm_compute; reflexivity|]. split; reflexivity. Qed.

(** Every other number of points per dimension is reported, from any state. *)
Theorem C66_rejected : forall f dims per, per <> 1 -> is_int (dims * per) ->
  exists f', face_basis_setup f dims per =
    Threw "qk::basis::face_basis::setup : Not yet setup for multiple points per dimensions."%string f' /\
    bs_points (fb_basis f') = dims * per.
Proof.
  intros f dims per Hp H. unfold face_basis_setup, imul. rewrite chk_ok by exact H.
  apply Z.eqb_neq in Hp. cbn [liftr]. rewrite Hp. eexists. split; reflexivity.
Qed.
Print Assumptions C66_rejected.

(** Refuted: a rejected call does not leave the basis as it was. *)
Theorem C66_rejected_unchanged_refuted : forall dims per, per <> 1 -> dims * per <> 0 -> is_int (dims * per) ->
  exists msg f', face_basis_setup face_basis_default dims per = Threw msg f' /\ f' <> face_basis_default.
Proof.
  intros dims per Hp Hz H.
  destruct (C66_rejected face_basis_default dims per Hp H) as (f' & E & P).
  eexists _, f'. split; [exact E|]. intros ->. cbn in P. congruence.
Qed.
Print Assumptions C66_rejected_unchanged_refuted.

Example C66_rejected_ex : exists msg f',
  face_basis_setup face_basis_default 2 3 = Threw msg f' /\ bs_points (fb_basis f') = 6 /\ fb_points f' = 0%nat.
Proof. eexists _, _. split; [vm_compute; reflexivity|]. split; reflexivity. Qed.

(** Refuted: the nodes pile up, one per setup, although one point per dimension
    was asked for each time. *)
Theorem C66_repeated_refuted : forall ds d, Forall is_int ds -> is_int d ->
  exists f, setups face_basis_default (ds ++ [d]) = Done f /\
    bs_points (fb_basis f) = d /\ fb_per_dim f = 1 /\
    fb_points f = S (List.length ds) /\ fb_weights f = S (List.length ds).
Proof.
  assert (G : forall ds d f0, Forall is_int ds -> is_int d ->
    exists f, setups f0 (ds ++ [d]) = Done f /\
      bs_points (fb_basis f) = d /\ fb_per_dim f = 1 /\
      fb_points f = (fb_points f0 + S (List.length ds))%nat /\
      fb_weights f = (fb_weights f0 + S (List.length ds))%nat).
  { induction ds as [|x ds IH]; intros d f0 Hs Hd; cbn [app setups].
    - rewrite (setup_one f0 d Hd). cbn. eexists. split; [reflexivity|]. cbn. repeat split; lia.
    - inversion Hs; subst. rewrite (setup_one f0 x) by assumption. cbn [obind].
      destruct (IH d (mkFaceBasis (mkBasis (bs_name (fb_basis f0)) x) x 1 (S (fb_points f0)) (S (fb_weights f0))))
        as (f & E & A & B & C & D); [assumption|assumption|].
      exists f. cbn in C, D. cbn [List.length]. repeat split; try assumption; lia. }
  intros ds d Hs Hd. exact (G ds d face_basis_default Hs Hd).
Qed.
Print Assumptions C66_repeated_refuted.

Example C66_repeated_refuted_ex : exists f,
  setups face_basis_default [3; 2] = Done f /\ bs_points (fb_basis f) = 2 /\ fb_points f = 2%nat.
Proof. eexists. split; [vm_compute; reflexivity|]. split; reflexivity. Qed.
