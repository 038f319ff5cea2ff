(** * Properties of the boundary solvers (C18 - C23). *)
From Coq Require Import ZArith List String Lia Bool Floats.SpecFloat.
From Verif Require Import Base BaseFacts BoxSpec BoxFacts Range RangeSpec RangeFacts Indexer Interface
  InterfaceFacts ApiSpec ApiFacts Arith ArithFloat Chunk FieldSpec FieldFacts ChunkFacts Properties_Chunk
  VarId Manager MgrSpec BC BCSpec BCFacts MgrFacts SolverFacts.
Import ListNotations.
Open Scope Z_scope.

(** ** helpers for the examples *)

Definition demo (M D : box) (g : Z) (l : list spec_float) : echunk spec_float :=
  match echunk_resize echunk_default (range_of M) (range_of D) g with
  | Done e => ec_with e (mkIface (if_range (ec_if e)) l)
  | _ => echunk_default
  end.
Definition values (x : out (echunk spec_float)) : option (list spec_float) :=
  match x with Done e => Some (if_data (ec_if e)) | _ => None end.

(** ** C18 *)

(** Every ghost cell beyond a face of a listed dimension gets the value of the
    cell one period away; all other cells keep theirs.  Partial: meshes with
    fewer cells than ghost layers and chunks without ghost layers are excluded;
    see the two refutations below. *)
Theorem C18_periodic_partial : forall F (A : Arith F) (e : echunk F) M D g u fuel dims,
  shape M D g -> 0 < g -> chunk_holds e M D g u -> wide M g dims ->
  prod_len (grow g M ++ D) <= Z.of_nat fuel ->
  exists e' v, bc_chunk Periodic fuel (map Z.of_nat dims) e = Done e' /\ chunk_holds e' M D g v /\
    ghosts_set M D g dims (fun d c => u (move d (hi M d - lo M d) c))
      (fun d c => u (move d (- (hi M d - lo M d)) c)) u v.
Proof. intros F A e M D g u fuel dims S Hg He Hw Hf. exact (api_bc_chunk Periodic e M D g u fuel dims S Hg He Hw I Hf). Qed.
Print Assumptions C18_periodic_partial.

(** The cells the values come from, for all boundary solvers, are interior
    cells. *)
Theorem C18_sources : forall M D g d c, (d < List.length M)%nat -> g <= hi M d - lo M d ->
  (low_ghost M D g d c -> in_box (interior M D) (move d (hi M d - lo M d) c) /\ in_box (interior M D) (flip d (2 * lo M d - 1) c)) /\
  (up_ghost M D g d c -> in_box (interior M D) (move d (- (hi M d - lo M d)) c) /\ in_box (interior M D) (flip d (2 * hi M d - 1) c)).
Proof. intros M D g d c H1 H2. split; intros H; [now apply (low_source M D g)|now apply (up_source M D g)]. Qed.
Print Assumptions C18_sources.

Example C18_ex :
  shape [(0, 3)] [(0, 1)] 2 /\ wide [(0, 3)] 2 [0%nat] /\
  values (bc_chunk Periodic 7 [0] (demo [(0, 3)] [(0, 1)] 2 (nums 7))) = Some (map dbl [3; 4; 2; 3; 4; 2; 3]).
Proof.
  split; [apply shapeb_ok; vm_compute; reflexivity|]. split; [|vm_compute; reflexivity].
  intros d [<-|[]]. cbn. lia.
Qed.

(** In two dimensions with two components; the corners are not written. *)
Example C18_ex2 :
  let M := [(0, 2); (0, 2)] in
  let b := grow 2 M ++ [(0, 1); (0, 2)] in
  exists l, values (bc_chunk Periodic 100 [0; 1] (demo M [(0, 1); (0, 2)] 2 (nums 72))) = Some l /\
    (* ghost (-1, 0), component 1: cell (1, 0) *)
    nth_error l (Z.to_nat (offset b [-1; 0; 0; 1])) = Some (dbl (offset b [1; 0; 0; 1])) /\
    (* ghost (1, 3), component 0: cell (1, 1) *)
    nth_error l (Z.to_nat (offset b [1; 3; 0; 0])) = Some (dbl (offset b [1; 1; 0; 0])) /\
    (* corner (-1, -1): unchanged *)
    nth_error l (Z.to_nat (offset b [-1; -1; 0; 0])) = Some (dbl (offset b [-1; -1; 0; 0])).
Proof. eexists. split; [vm_compute; reflexivity|]. splits; vm_compute; reflexivity. Qed.

(** Refuted for a mesh narrower than the ghost layer: the periodic continuation
    of a one-cell mesh is constant, but ghost cell -2 receives the old content
    of ghost cell -1. *)
Theorem C18_narrow_mesh_refuted : exists (e e' : echunk spec_float) u v,
  chunk_holds e [(0, 1)] [(0, 1)] 2 u /\ bc_chunk Periodic 5 [0] e = Done e' /\
  chunk_holds e' [(0, 1)] [(0, 1)] 2 v /\ v [-2; 0] <> u [0; 0] /\ v [-2; 0] = u [-1; 0].
Proof.
  set (u := fun c : list Z => dbl (nth 0 c 0 + 2)).
  set (v := fun c : list Z => if nth 0 c 0 =? -2 then dbl 1 else dbl 2).
  exists (echunk_of [(0, 1)] [(0, 1)] 2 u), (echunk_of [(0, 1)] [(0, 1)] 2 v), u, v.
  assert (S : shape [(0, 1)] [(0, 1)] 2) by (apply shapeb_ok; vm_compute; reflexivity).
  split; [now apply chunk_holds_iff|]. split; [vm_compute; reflexivity|]. split; [now apply chunk_holds_iff|].
  split; [vm_compute; discriminate|vm_compute; reflexivity].
Qed.
Print Assumptions C18_narrow_mesh_refuted.

(** Refuted for chunks without ghost layers: the copy of an empty strip touches
    an element beyond the chunk. *)
Theorem C18_no_ghosts_refuted : exists (e : echunk spec_float) u,
  chunk_holds e [(0, 4)] [(0, 1)] 0 u /\ bc_chunk Periodic 10 [0] e = Undef OutOfBounds.
Proof.
  exists (echunk_of [(0, 4)] [(0, 1)] 0 (fun _ => dbl 1)), (fun _ => dbl 1).
  assert (S : shape [(0, 4)] [(0, 1)] 0) by (apply shapeb_ok; vm_compute; reflexivity).
  split; [now apply chunk_holds_iff|]. vm_compute; reflexivity.
Qed.
Print Assumptions C18_no_ghosts_refuted.

(** ** C19 *)

(** Ghost layer j beyond a face equals interior layer j from that face: the
    ghost cell with coordinate x has the value of the cell with coordinate
    2 lo - 1 - x or 2 hi - 1 - x. *)
Theorem C19_copy_out : forall F (A : Arith F) (e : echunk F) M D g u fuel dims,
  shape M D g -> 0 < g -> chunk_holds e M D g u -> wide M g dims ->
  prod_len (grow g M ++ D) <= Z.of_nat fuel ->
  exists e' v, bc_chunk CopyOut fuel (map Z.of_nat dims) e = Done e' /\ chunk_holds e' M D g v /\
    ghosts_set M D g dims (fun d c => u (flip d (2 * lo M d - 1) c))
      (fun d c => u (flip d (2 * hi M d - 1) c)) u v.
Proof. intros F A e M D g u fuel dims S Hg He Hw Hf. exact (api_bc_chunk CopyOut e M D g u fuel dims S Hg He Hw I Hf). Qed.
Print Assumptions C19_copy_out.

Example C19_ex :
  shape [(5, 8)] [(0, 1)] 3 /\
  values (bc_chunk CopyOut 9 [0] (demo [(5, 8)] [(0, 1)] 3 (nums 9))) = Some (map dbl [5; 4; 3; 3; 4; 5; 5; 4; 3]).
Proof. split; [apply shapeb_ok; vm_compute; reflexivity|vm_compute; reflexivity]. Qed.

(** ** C20 *)

(** No-slip: mirrored, components 1, 2 and 3 multiplied by -1. *)
Theorem C20_no_slip : forall F (A : Arith F) (e : echunk F) M D g u fuel dims,
  shape M D g -> 0 < g -> chunk_holds e M D g u -> wide M g dims -> four_comps D ->
  prod_len (grow g M ++ D) <= Z.of_nat fuel ->
  exists e' v, bc_chunk NoSlip fuel (map Z.of_nat dims) e = Done e' /\ chunk_holds e' M D g v /\
    ghosts_set M D g dims (fun d c => reversed 1 4 (comp c) (u (flip d (2 * lo M d - 1) c)))
      (fun d c => reversed 1 4 (comp c) (u (flip d (2 * hi M d - 1) c))) u v.
Proof. intros F A e M D g u fuel dims S Hg He Hw Hk Hf. exact (api_bc_chunk NoSlip e M D g u fuel dims S Hg He Hw Hk Hf). Qed.
Print Assumptions C20_no_slip.

Example C20_ex :
  shape [(0, 1)] [(0, 1); (0, 5)] 1 /\ four_comps [(0, 1); (0, 5)] /\
  values (bc_chunk NoSlip 20 [0] (demo [(0, 1)] [(0, 1); (0, 5)] 1 (nums 15))) =
  Some (map dbl [5; -6; -7; -8; 9; 5; 6; 7; 8; 9; 5; -6; -7; -8; 9]).
Proof.
  split; [apply shapeb_ok; vm_compute; reflexivity|]. split; [|vm_compute; reflexivity].
  exists [(0, 1)], 5. split; [reflexivity|lia].
Qed.

(** A variable with fewer than four components: nothing is reversed, all three
    wall solvers act like copy-out and report nothing. *)
Theorem C20_few_components : forall F (A : Arith F) k (e : echunk F) M D n g u fuel dims,
  k = NoSlip \/ k = FreeSlip \/ k = ConductingWall ->
  shape M (D ++ [(0, n)]) g -> shape M (D ++ [(0, 4)]) g -> 0 < g -> n < 4 ->
  chunk_holds e M (D ++ [(0, n)]) g u -> wide M g dims ->
  prod_len (grow g M ++ (D ++ [(0, n)])) <= Z.of_nat fuel ->
  bc_chunk k fuel (map Z.of_nat dims) e = bc_chunk CopyOut fuel (map Z.of_nat dims) e.
Proof.
  intros F A k e M D n g u fuel dims Hk S S4 Hg Hn He Hw Hf. apply chunk_holds_iff in He; auto. subst e.
  eapply bc_few; eauto.
Qed.
Print Assumptions C20_few_components.

Example C20_few_components_ex :
  values (bc_chunk NoSlip 20 [0] (demo [(0, 1)] [(0, 1); (0, 2)] 1 (nums 6))) = Some (map dbl [2; 3; 2; 3; 2; 3]).
Proof. vm_compute. reflexivity. Qed.

(** ** C21 *)

(** Free-slip, the part that holds: mirrored, the normal momentum (component
    d + 1) multiplied by -1, components other than the momentum copied, all
    other cells unchanged.  Missing: the tangential momentum, refuted below. *)
Theorem C21_free_slip_partial : forall F (A : Arith F) (e : echunk F) M D g u fuel dims,
  shape M D g -> 0 < g -> chunk_holds e M D g u -> wide M g dims -> (forall d, In d dims -> (d < 3)%nat) -> four_comps D ->
  prod_len (grow g M ++ D) <= Z.of_nat fuel ->
  exists e' v, bc_chunk FreeSlip fuel (map Z.of_nat dims) e = Done e' /\ chunk_holds e' M D g v /\
    (forall d c, In d dims -> low_ghost M D g d c ->
       (comp c = Z.of_nat d + 1 -> v c = fmul (u (flip d (2 * lo M d - 1) c)) (fneg f1)) /\
       (comp c < 1 \/ 4 <= comp c -> v c = u (flip d (2 * lo M d - 1) c))) /\
    (forall d c, In d dims -> up_ghost M D g d c ->
       (comp c = Z.of_nat d + 1 -> v c = fmul (u (flip d (2 * hi M d - 1) c)) (fneg f1)) /\
       (comp c < 1 \/ 4 <= comp c -> v c = u (flip d (2 * hi M d - 1) c))) /\
    (forall c, in_box (grow g M ++ D) c ->
       (forall d, In d dims -> ~ low_ghost M D g d c /\ ~ up_ghost M D g d c) -> v c = u c).
Proof.
  intros F A e M D g u fuel dims S Hg He Hw H3 Hk Hf.
  destruct (api_bc_chunk FreeSlip e M D g u fuel dims S Hg He Hw Hk Hf) as (e' & v & H1 & H2 & G1 & G2 & G3).
  exists e', v. split; [exact H1|]. split; [exact H2|]. split; [|split; [|exact G3]].
  - intros d c Hd Hc. rewrite (G1 d c Hd Hc). specialize (H3 d Hd). cbn [low_value]. unfold reversed. split; intros Q.
    + destruct (Z.leb_spec 1 (comp c)); destruct (Z.ltb_spec (comp c) 4); try lia. reflexivity.
    + destruct (Z.leb_spec 1 (comp c)); destruct (Z.ltb_spec (comp c) 4); try lia; reflexivity.
  - intros d c Hd Hc. rewrite (G2 d c Hd Hc). specialize (H3 d Hd). cbn [up_value]. unfold reversed. split; intros Q.
    + destruct (Z.leb_spec 1 (comp c)); destruct (Z.ltb_spec (comp c) 4); try lia. reflexivity.
    + destruct (Z.leb_spec 1 (comp c)); destruct (Z.ltb_spec (comp c) 4); try lia; reflexivity.
Qed.
Print Assumptions C21_free_slip_partial.

(** Refuted: tangential momentum is multiplied by -1 as well, for every field,
    every wall dimension and every tangential component. *)
Theorem C21_tangential_refuted : forall F (A : Arith F) (e : echunk F) M D g u fuel dims,
  shape M D g -> 0 < g -> chunk_holds e M D g u -> wide M g dims -> four_comps D ->
  prod_len (grow g M ++ D) <= Z.of_nat fuel ->
  exists e' v, bc_chunk FreeSlip fuel (map Z.of_nat dims) e = Done e' /\ chunk_holds e' M D g v /\
    forall d c, In d dims -> low_ghost M D g d c -> 1 <= comp c < 4 -> comp c <> Z.of_nat d + 1 ->
      v c = fmul (u (flip d (2 * lo M d - 1) c)) (fneg f1).
Proof.
  intros F A e M D g u fuel dims S Hg He Hw Hk Hf.
  destruct (api_bc_chunk FreeSlip e M D g u fuel dims S Hg He Hw Hk Hf) as (e' & v & H1 & H2 & G1 & G2 & G3).
  exists e', v. split; [exact H1|]. split; [exact H2|]. intros d c Hd Hc Q _.
  rewrite (G1 d c Hd Hc). cbn [low_value]. unfold reversed.
  destruct (Z.leb_spec 1 (comp c)); destruct (Z.ltb_spec (comp c) 4); try lia. reflexivity.
Qed.
Print Assumptions C21_tangential_refuted.

(** Witness: one cell, wall normal to x; the y momentum (component 2) of value 7
    becomes -7. *)
Example C21_ex :
  values (bc_chunk FreeSlip 20 [0] (demo [(0, 1)] [(0, 1); (0, 5)] 1 (nums 15))) =
  Some (map dbl [5; -6; -7; -8; 9; 5; 6; 7; 8; 9; 5; -6; -7; -8; 9]) /\ dbl (-7) <> dbl 7.
Proof. split; [vm_compute; reflexivity|vm_compute; discriminate]. Qed.

(** ** C22 *)

(** Conducting wall, the part that holds: mirrored, components 0, 1, 2
    multiplied by -1, components from 4 copied, all other cells unchanged.
    Missing: component 3. *)
Theorem C22_conducting_wall_partial : forall F (A : Arith F) (e : echunk F) M D g u fuel dims,
  shape M D g -> 0 < g -> chunk_holds e M D g u -> wide M g dims -> four_comps D ->
  prod_len (grow g M ++ D) <= Z.of_nat fuel ->
  exists e' v, bc_chunk ConductingWall fuel (map Z.of_nat dims) e = Done e' /\ chunk_holds e' M D g v /\
    (forall d c, In d dims -> low_ghost M D g d c ->
       (0 <= comp c < 3 -> v c = fmul (u (flip d (2 * lo M d - 1) c)) (fneg f1)) /\
       (4 <= comp c -> v c = u (flip d (2 * lo M d - 1) c))) /\
    (forall d c, In d dims -> up_ghost M D g d c ->
       (0 <= comp c < 3 -> v c = fmul (u (flip d (2 * hi M d - 1) c)) (fneg f1)) /\
       (4 <= comp c -> v c = u (flip d (2 * hi M d - 1) c))) /\
    (forall c, in_box (grow g M ++ D) c ->
       (forall d, In d dims -> ~ low_ghost M D g d c /\ ~ up_ghost M D g d c) -> v c = u c).
Proof.
  intros F A e M D g u fuel dims S Hg He Hw Hk Hf.
  destruct (api_bc_chunk ConductingWall e M D g u fuel dims S Hg He Hw Hk Hf) as (e' & v & H1 & H2 & G1 & G2 & G3).
  exists e', v. split; [exact H1|]. split; [exact H2|]. split; [|split; [|exact G3]].
  - intros d c Hd Hc. rewrite (G1 d c Hd Hc). cbn [low_value]. unfold reversed. split; intros Q.
    + destruct (Z.leb_spec 0 (comp c)); destruct (Z.ltb_spec (comp c) 4); try lia. reflexivity.
    + destruct (Z.leb_spec 0 (comp c)); destruct (Z.ltb_spec (comp c) 4); try lia; reflexivity.
  - intros d c Hd Hc. rewrite (G2 d c Hd Hc). cbn [up_value]. unfold reversed. split; intros Q.
    + destruct (Z.leb_spec 0 (comp c)); destruct (Z.ltb_spec (comp c) 4); try lia. reflexivity.
    + destruct (Z.leb_spec 0 (comp c)); destruct (Z.ltb_spec (comp c) 4); try lia; reflexivity.
Qed.
Print Assumptions C22_conducting_wall_partial.

(** Refuted: component 3, the x component of the magnetic field, is multiplied
    by -1 too, for every field and every wall. *)
Theorem C22_magnetic_refuted : forall F (A : Arith F) (e : echunk F) M D g u fuel dims,
  shape M D g -> 0 < g -> chunk_holds e M D g u -> wide M g dims -> four_comps D ->
  prod_len (grow g M ++ D) <= Z.of_nat fuel ->
  exists e' v, bc_chunk ConductingWall fuel (map Z.of_nat dims) e = Done e' /\ chunk_holds e' M D g v /\
    forall d c, In d dims -> low_ghost M D g d c -> comp c = 3 ->
      v c = fmul (u (flip d (2 * lo M d - 1) c)) (fneg f1).
Proof.
  intros F A e M D g u fuel dims S Hg He Hw Hk Hf.
  destruct (api_bc_chunk ConductingWall e M D g u fuel dims S Hg He Hw Hk Hf) as (e' & v & H1 & H2 & G1 & G2 & G3).
  exists e', v. split; [exact H1|]. split; [exact H2|]. intros d c Hd Hc Q.
  rewrite (G1 d c Hd Hc). cbn [low_value]. unfold reversed. now rewrite Q.
Qed.
Print Assumptions C22_magnetic_refuted.

(** Witness: Bx of value 9 (component 3) becomes -9. *)
Example C22_ex :
  values (bc_chunk ConductingWall 20 [0] (demo [(0, 1)] [(0, 1); (0, 6)] 1 (nums 18))) =
  Some (map dbl [-6; -7; -8; -9; 10; 11; 6; 7; 8; 9; 10; 11; -6; -7; -8; -9; 10; 11]) /\ dbl (-9) <> dbl 9.
Proof. split; [vm_compute; reflexivity|vm_compute; discriminate]. Qed.

(** ** C23 *)

(** The whole solve on any manager contents and any list of outputs, repeated
    ones included: it ends normally, variables not listed keep their fields,
    missing ones are created, every listed variable has its ghost strips set
    from its own field and is otherwise unchanged (the interior in particular),
    and a second run changes nothing at all. *)
Theorem C23_solve : forall F (A : Arith F) k (m : mgr F) M L fuel dims outs,
  mgr_holds m M L -> fields_ok M L -> compatible (ids L ++ outs) -> bc_ready k M fuel dims outs ->
  exists m' L', bc_solve k fuel (map Z.of_nat dims) outs m = Done m' /\ mgr_holds m' M L' /\ fields_ok M L' /\ same_run m m' /\ incl (ids L') (ids L ++ outs) /\
    (forall id, ~ In (id_name id) (map id_name outs) -> field_get L' id = field_get L id) /\
    (forall id, In id outs -> exists v, field_get L' id = Some v /\
       ghosts_set M (comp_box id) 2 dims (fun d => low_value k M d (field_or_zero L id))
         (fun d => up_value k M d (field_or_zero L id)) (field_or_zero L id) v) /\
    bc_solve k fuel (map Z.of_nat dims) outs m' = Done m'.
Proof. exact @api_bc_solve. Qed.
Print Assumptions C23_solve.

(** Ghost strips are no interior cells, so [ghosts_set] keeps the interior. *)
Theorem C23_interior : forall F M D g dims low up (u v : list Z -> F), shape M D g -> wide M g dims ->
  ghosts_set M D g dims low up u v -> forall c, in_box (interior M D) c -> v c = u c.
Proof.
  intros F M D g dims low up u v S Hw (_ & _ & G) c Hc. apply G.
  - eapply box_incl_in; [|exact Hc]. apply box_incl_app; [apply box_incl_grow; apply S|apply box_incl_refl].
  - intros d Hd. destruct (Hw d Hd) as [Hd' _]. pose proof (in_interior_nth _ _ _ _ Hc Hd').
    split; intros Q; apply slab_nth in Q; auto; lia.
Qed.
Print Assumptions C23_interior.

(** A dimension the mesh does not have: undefined behaviour (the strip arrays
    are read out of bounds). *)
Theorem C23_bad_dimension : forall F (A : Arith F) k (e : echunk F) M D g u fuel d,
  shape M D g -> chunk_holds e M D g u -> (List.length M <= d)%nat ->
  bc_chunk k fuel [Z.of_nat d] e = Undef OutOfBounds.
Proof.
  intros F A k e M D g u fuel d S He Hd. apply chunk_holds_iff in He; auto. subst e.
  assert (V : forall f, vget (strip_list M D f) (Z.of_nat d) = UB OutOfBounds).
  { intros f. unfold vget. destruct (0 <=? Z.of_nat d); [|reflexivity].
    rewrite Nat2Z.id. assert (Q : nth_error (strip_list M D f) d = None).
    { apply nth_error_None. unfold strip_list. rewrite map_length, seq_length. lia. } now rewrite Q. }
  unfold bc_chunk. cbn [ofold].
  destruct k; cbn [bc_dim]; unfold wall_dim, copy_out_dim, periodic_dim;
    cbn [ec_low_int ec_low_ext ec_up_int ec_up_ext echunk_of]; rewrite V; reflexivity.
Qed.
Print Assumptions C23_bad_dimension.

Definition fluid : vid := mkVid "q" (["rho"; "px"; "py"; "pz"; "e"]%string) volume_average.
Definition other : vid := mkVid "w" (["a"]%string) volume_average.

Example C23_ex :
  let M := [(0, 2)] in
  let u := fun c : list Z => dbl (10 * nth 0 c 0 + comp c) in
  let m := mgr_of (mkGrid (range_of M) [dbl 0] [dbl 1] [dbl 1]) M [(other, fun _ => dbl 5); (fluid, u)] None None in
  mgr_holds m M [(other, fun _ => dbl 5); (fluid, u)] /\
  bc_ready NoSlip M 100 [0%nat] [fluid] /\
  match bc_solve NoSlip 100 [0] [fluid] m with
  | Done m' => map (fun kv => if_data (ds_chunks (v_ds (snd kv)))) (mg_vars m') =
      [ [demo M [(0, 1); (0, 1)] 2 (repeat (dbl 5) 6)];
        [demo M [(0, 1); (0, 5)] 2
          (map dbl [10; -11; -12; -13; 14; 0; -1; -2; -3; 4; 0; 1; 2; 3; 4; 10; 11; 12; 13; 14;
                    10; -11; -12; -13; 14; 0; -1; -2; -3; 4])] ]
  | _ => False
  end.
Proof.
  cbv zeta.
  assert (S1 : id_fits [(0, 2)] other) by (apply shapeb_ok; vm_compute; reflexivity).
  assert (S2 : id_fits [(0, 2)] fluid) by (apply shapeb_ok; vm_compute; reflexivity).
  split; [|split].
  - apply mgr_holds_iff; [|split; reflexivity]. split.
    + cbn. constructor; [cbn; intros [H|[]]; discriminate|]. constructor; [intros []|constructor].
    + constructor; [exact S1|]. constructor; [exact S2|constructor].
  - split; [intros d [<-|[]]; cbn; lia|]. constructor; [|constructor]. split; [exact S2|]. split.
    + exists [(0, 1)], 5. split; [reflexivity|lia].
    + cbn. lia.
  - vm_compute. reflexivity.
Qed.
