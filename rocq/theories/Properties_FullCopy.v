(** * Properties of the whole-array copy (C67). *)
From Coq Require Import ZArith List String Lia Bool.
From Verif Require Import Base BaseFacts BoxSpec BoxFacts Range RangeSpec RangeFacts
  Indexer IndexerFacts Interface InterfaceFacts ApiSpec ApiFacts FieldFacts KernelFacts.
Import ListNotations.
Open Scope Z_scope.

Lemma valid_volume : forall T (i : iface T) b, valid_box b -> container i b -> range_volume (if_range i) = Ok (prod_len b).
Proof.
  intros T i b V C. apply (container_iff _ _ _ V) in C. rewrite (io_range _ _ C). now apply volume_ok.
Qed.

Lemma full_copy_data : forall T (src i : iface T) b1 b2, valid_box b1 -> valid_box b2 -> container src b1 -> container i b2 -> prod_len b1 = prod_len b2 ->
  full_copy src i = Done (mkIface (if_range i) (if_data src)).
Proof.
  intros T src i b1 b2 V1 V2 C1 C2 E. unfold full_copy. rewrite (valid_volume _ _ _ V1 C1), (valid_volume _ _ _ V2 C2). cbn [liftr].
  rewrite E, Z.eqb_refl. pose proof (proj2 C1) as L1. pose proof (proj2 C2) as L2. assert (NB : nonempty b2) by apply V2. pose proof (prod_len_pos _ NB).
  rewrite L1, L2, E, Z.ltb_irrefl. destruct (Z.leb_spec (prod_len b2) 0); [lia|]. cbn [orb]. do 2 f_equal.
  rewrite firstn_all2, skipn_all2, app_nil_r by lia. reflexivity.
Qed.

(** full_copy between containers with the same number of cells: the k-th element
    of the target in row-major order is the k-th of the source. *)
Theorem C67_full_copy : forall T (src i : iface T) b1 b2, valid_box b1 -> valid_box b2 -> container src b1 -> container i b2 -> prod_len b1 = prod_len b2 ->
  exists i', full_copy src i = Done i' /\ if_range i' = if_range i /\ container i' b2 /\
    forall k c1 c2, nth_error (cells b1) k = Some c1 -> nth_error (cells b2) k = Some c2 -> iface_elem i' c2 = iface_elem src c1.
Proof.
  intros T src i b1 b2 V1 V2 C1 C2 E. exists (mkIface (if_range i) (if_data src)). split; [exact (full_copy_data T src i b1 b2 V1 V2 C1 C2 E)|]. split; [reflexivity|].
  assert (C : container (mkIface (if_range i) (if_data src)) b2) by (split; [apply C2|cbn [if_data]; rewrite (proj2 C1); exact E]). split; [exact C|].
  intros k c1 c2 H1 H2. apply cells_nth_in in H1 as [I1 K1], H2 as [I2 K2].
  apply (elem_cont_eq T _ _ b2 c2 b1 c1); auto; try (now apply container_iff). unfold cont. cbn [if_data]. now rewrite <- K1, <- K2.
Qed.
Print Assumptions C67_full_copy.

(** Over the same box: every cell. *)
Theorem C67_same_box : forall T (src i : iface T) b, valid_box b -> container src b -> container i b ->
  exists i', full_copy src i = Done i' /\ if_range i' = if_range i /\ forall c, in_box b c -> iface_elem i' c = iface_elem src c.
Proof.
  intros T src i b V C1 C2. destruct (C67_full_copy T src i b b V V C1 C2 eq_refl) as (i' & E & R & _ & H). exists i'. split; [exact E|]. split; [exact R|].
  intros c Hc. destruct (in_cells_nth _ _ Hc) as [n Hn]. eapply H; eauto.
Qed.
Print Assumptions C67_same_box.

(** Different numbers of cells: the exception, and the target is unchanged. *)
Theorem C67_mismatch : forall T (src i : iface T) b1 b2, valid_box b1 -> valid_box b2 -> container src b1 -> container i b2 -> prod_len b1 <> prod_len b2 ->
  full_copy src i = Threw "qk::data::full_copy : Array mismatch."%string i.
Proof.
  intros T src i b1 b2 V1 V2 C1 C2 E. unfold full_copy. rewrite (valid_volume _ _ _ V1 C1), (valid_volume _ _ _ V2 C2). cbn [liftr].
  destruct (Z.eqb_spec (prod_len b1) (prod_len b2)); [contradiction|reflexivity].
Qed.
Print Assumptions C67_mismatch.

(** Two by three cells into three by two, and into two by two. *)
Example C67_ex : full_copy (mkIface (range_of [(0, 2); (0, 3)]) [1; 2; 3; 4; 5; 6]) (mkIface (range_of [(5, 8); (1, 3)]) [0; 0; 0; 0; 0; 0]) =
  Done (mkIface (range_of [(5, 8); (1, 3)]) [1; 2; 3; 4; 5; 6]).
Proof. vm_compute. reflexivity. Qed.
Example C67_mismatch_ex : full_copy (mkIface (range_of [(0, 2); (0, 3)]) [1; 2; 3; 4; 5; 6]) (mkIface (range_of [(0, 2); (0, 2)]) [0; 0; 0; 0]) =
  Threw "qk::data::full_copy : Array mismatch."%string (mkIface (range_of [(0, 2); (0, 2)]) [0; 0; 0; 0]).
Proof. vm_compute. reflexivity. Qed.
