(** * SourceFacts: the Lorentz force and current source solvers. *)
From Coq Require Import ZArith List String Lia Bool Reals Lra.
From Verif Require Import Base BaseFacts BoxSpec BoxFacts Range RangeSpec RangeFacts Indexer IndexerFacts Interface InterfaceFacts
  ApiSpec ApiFacts Arith ArithR Chunk FieldSpec FieldFacts ChunkFacts VarId Manager MgrSpec MgrFacts Solvers SolverFacts
  Par Kernel KernelFacts Integrators IntegratorSpec IntegratorFacts SweepSpec SweepFacts EulerSpec Sources SourceSpec.
Import ListNotations.
Open Scope Z_scope.

(** ** two indexers in step *)

Lemma lockstep_enum : forall S (body : indexer -> indexer -> S -> out S) b1 bf b2 bt c1 L1 c2 L2,
  good_sub b1 bf -> good_sub b2 bt -> enum bf c1 L1 -> enum bt c2 L2 -> List.length L1 = List.length L2 ->
  in_box bf c1 -> in_box bt c2 ->
  forall fuel s, (List.length L1 <= fuel)%nat ->
  lockstep fuel (ix_at b1 bf c1) (ix_at b2 bt c2) body s =
  ofold (fun p => body (ix_at b1 bf (fst p)) (ix_at b2 bt (snd p))) (combine L1 L2) s.
Proof.
  intros S body b1 bf b2 bt c1 L1 c2 L2 G1 G2 E1. revert c2 L2.
  induction E1 as [c1 rc R1|c1 c1' L1 R1 E1 IH]; intros c2 L2 E2 HL H1 H2 fuel s Hf;
    (destruct fuel as [|fuel]; [simpl in Hf; lia|]); destruct (enum_nonnil _ _ _ E2) as (L2' & ->).
  - assert (L2' = []) by (destruct L2'; simpl in *; auto; discriminate). subst.
    inversion E2 as [? rc2 R2|? c2' L2' R2 E2']; subst; [|inversion E2'].
    cbn [lockstep combine ofold]. change (ix_ex (ix_at b1 bf c1) && ix_ex (ix_at b2 bt c2)) with true. cbv iota. cbn [fst snd].
    apply obind_ext. intros s'.
    destruct (next_last _ _ _ _ G1 H1 R1) as (ix1 & -> & Ex). cbn [liftr].
    destruct (next_last _ _ _ _ G2 H2 R2) as (ix2 & -> & _). cbn [liftr].
    destruct fuel; cbn [lockstep]; rewrite Ex; reflexivity.
  - inversion E2 as [? rc2 R2|? c2' L2'' R2 E2']; subst.
    + destruct (enum_nonnil _ _ _ E1) as (? & ->). simpl in HL. discriminate.
    + cbn [lockstep combine ofold]. change (ix_ex (ix_at b1 bf c1) && ix_ex (ix_at b2 bt c2)) with true. cbv iota. cbn [fst snd].
      apply obind_ext. intros s'.
      destruct (next_step _ _ _ _ G1 H1 R1) as (-> & H1'). cbn [liftr].
      destruct (next_step _ _ _ _ G2 H2 R2) as (-> & H2'). cbn [liftr].
      apply IH; auto; simpl in *; lia.
Qed.

Lemma lockstep_cells : forall S (body : indexer -> indexer -> S -> out S) b1 bf b2 bt fuel s,
  good_sub b1 bf -> good_sub b2 bt -> prod_len bf = prod_len bt -> prod_len bf <= Z.of_nat fuel ->
  lockstep fuel (ix_at b1 bf (first_cell bf)) (ix_at b2 bt (first_cell bt)) body s =
  ofold (fun p => body (ix_at b1 bf (fst p)) (ix_at b2 bt (snd p))) (combine (cells bf) (cells bt)) s.
Proof.
  intros S body b1 bf b2 bt fuel s G1 G2 Hp Hf. apply lockstep_enum; auto.
  - apply enum_cells, G1.
  - apply enum_cells, G2.
  - apply cells_length_eq; auto; [apply G1|apply G2].
  - apply first_in_box, G1.
  - apply first_in_box, G2.
  - apply cells_fuel; auto. apply G1.
Qed.

(** ** steps that change the cells with a given key *)

Section Keyed.
Context {T : Type}.
Variable key : list Z -> list Z.
Variable g : list Z -> T -> T.

Definition keyed (w : list Z -> T) (k : list Z) : list Z -> T :=
  fun c => if list_eq_dec Z.eq_dec (key c) k then g c (w c) else w c.

Lemma keyed_fold : forall L w c, NoDup L ->
  fold_left keyed L w c = if in_dec (list_eq_dec Z.eq_dec) (key c) L then g c (w c) else w c.
Proof.
  induction L as [|k L IH]; intros w c H; [reflexivity|]. inversion H; subst. cbn [fold_left]. rewrite IH by assumption.
  unfold keyed. destruct (list_eq_dec Z.eq_dec (key c) k) as [E|E].
  - destruct (in_dec _ (key c) L) as [I|I]; [congruence|]. destruct (in_dec _ (key c) (k :: L)) as [I'|I']; [reflexivity|].
    exfalso. apply I'. left; auto.
  - destruct (in_dec _ (key c) L) as [I|I]; destruct (in_dec _ (key c) (k :: L)) as [I'|I']; auto.
    + exfalso. apply I'. now right.
    + destruct I'; [congruence|contradiction].
Qed.

Lemma keyed_run : forall b (step : list Z -> iface T -> out (iface T)) L w,
  (forall k w, In k L -> step k (iface_of b w) = Done (iface_of b (keyed w k))) ->
  ofold step L (iface_of b w) = Done (iface_of b (fold_left keyed L w)).
Proof.
  intros b step. induction L as [|k L IH]; intros w H; [reflexivity|]. cbn [ofold fold_left].
  rewrite H by now left. cbn [obind]. apply IH. intros. apply H. now right.
Qed.

End Keyed.

Lemma combine_same : forall X Y (f : X -> Y) (l : list X), combine (map f l) l = map (fun x => (f x, x)) l.
Proof. induction l; cbn; congruence. Qed.

Lemma ofold_map : forall S X Y (f : X -> Y) (g : Y -> S -> out S) l s, ofold g (map f l) s = ofold (fun x => g (f x)) l s.
Proof. induction l as [|x l IH]; intros s; [reflexivity|]. cbn [map ofold]. apply obind_ext. intros. apply IH. Qed.

Lemma ofold_ext_in : forall S X (f g : X -> S -> out S) l s, (forall x s, In x l -> f x s = g x s) -> ofold f l s = ofold g l s.
Proof.
  induction l as [|x l IH]; intros s H; [reflexivity|]. cbn [ofold]. rewrite H by now left. apply obind_ext. intros s'. apply IH. intros. apply H. now right.
Qed.

(** ** cells and components *)

Lemma vget_of : forall T b (u : list Z -> T) c, valid_box b -> in_box b c -> vget (map u (cells b)) (offset b c) = Ok (u c).
Proof.
  intros T b u c V Hc. assert (N : nonempty b) by apply V. apply vget_ok.
  - now apply offset_bounds.
  - rewrite nth_error_map, (nth_cells_offset b c N Hc). reflexivity.
Qed.

Lemma upd_of : forall T b (w : list Z -> T) c v, valid_box b -> in_box b c ->
  vset (map w (cells b)) (offset b c) v = Ok (map (fun c' => if list_eq_dec Z.eq_dec c' c then v else w c') (cells b)).
Proof.
  intros T b w c v V Hc. pose proof (iface_of_ok T b w V) as O. pose proof (put_at _ _ _ [] _ v O Hc) as P.
  unfold iface_put in P. cbn [ix_at ix_lin if_data iface_of if_range] in P.
  destruct (vset (map w (cells b)) (offset b c) v) as [l| | |] eqn:E; cbn [bind] in P; try discriminate.
  injection P as P. f_equal.
  assert (Q : mkIface (range_of b) l = iface_of b (fun c' => if list_eq_dec Z.eq_dec c' c then v else w c')).
  { apply iface_eq_of.
    - rewrite P. apply (iface_ok_data _ _ _ (upd (map w (cells b)) (Z.to_nat (offset b c)) v) O). apply upd_length.
    - intros c' Hc'. cbn [if_data]. rewrite P. change (map w (cells b)) with (if_data (iface_of b w)).
      rewrite cont_upd by assumption. destruct (list_eq_dec Z.eq_dec c c') as [E1|E1]; destruct (list_eq_dec Z.eq_dec c' c) as [E2|E2]; try congruence.
      apply cont_of; auto. apply V. }
  unfold iface_of in Q. now injection Q.
Qed.

Section Parts.
Context {F : Type} {A : Arith F}.
Notation fld := (field F).

Lemma bump_of : forall b (w : fld) c v, valid_box b -> in_box b c ->
  bump (map w (cells b)) (offset b c) v = Ok (map (fun c' => if list_eq_dec Z.eq_dec c' c then fadd (w c') v else w c') (cells b)).
Proof.
  intros b w c v V Hc. unfold bump. rewrite vget_of by assumption. cbn [bind]. rewrite upd_of by assumption.
  f_equal. apply map_ext_in. intros c' _. destruct (list_eq_dec Z.eq_dec c' c) as [->|]; reflexivity.
Qed.

(** ** the part of the interior with some components *)

Variables (M : box) (P : Z).
Definition part (a b : Z) : box := (M ++ [(0, P)]) ++ [(a, b)].
Definition wide_box (n : Z) : box := (grow 2 M ++ [(0, P)]) ++ [(0, n)].

Lemma wide_eq : forall n, grow 2 M ++ [(0, P); (0, n)] = wide_box n.
Proof. intros. unfold wide_box. now rewrite <- app_assoc. Qed.

Lemma wide_valid : forall n, shape M [(0, P); (0, n)] 2 -> valid_box (wide_box n).
Proof. intros n S. rewrite <- wide_eq. now apply shape_valid. Qed.

Lemma part_good : forall n a b, shape M [(0, P); (0, n)] 2 -> 0 <= a < b -> b <= n -> good_sub (wide_box n) (part a b).
Proof.
  intros n a b S Ha Hb. pose proof (wide_valid n S) as (V1 & V2 & V3 & V4). destruct S as (S1 & S2 & S3 & S4 & _).
  constructor; auto.
  - unfold part. rewrite !nonempty_app. inversion S3; subst. repeat split; auto; repeat constructor; cbn in *; lia.
  - unfold part, wide_box. repeat apply box_incl_app; try apply box_incl_refl; [now apply box_incl_grow|].
    constructor; [cbn; lia|constructor].
Qed.

Lemma part_in : forall a b x j, in_box (part a b) (x ++ [j]) <-> in_box (M ++ [(0, P)]) x /\ a <= j < b.
Proof.
  intros. unfold part. split.
  - intros I. apply Forall2_app_inv_l in I as (x1 & r & I1 & I2 & E). inversion I2 as [|? ? ? ? J1 J2]; subst. inversion J2; subst.
    apply app_inj_tail in E as [-> ->]. auto.
  - intros [I J]. apply in_box_app; auto. repeat constructor; cbn; lia.
Qed.

Lemma part_split : forall a b c, in_box (part a b) c -> exists x j, c = x ++ [j].
Proof.
  intros a b c I. apply Forall2_app_inv_l in I as (x1 & r & I1 & I2 & ->). inversion I2 as [|? ? ? ? J1 J2]; subst. inversion J2; subst. eauto.
Qed.

Lemma inner_wide : forall x, in_box (M ++ [(0, P)]) x -> in_box (grow 2 M ++ [(0, P)]) x.
Proof. intros x H. eapply box_incl_in; [|exact H]. apply box_incl_app; [apply box_incl_grow; lia|apply box_incl_refl]. Qed.

Lemma inner_comps_ok : forall n a b (u : fld), shape M [(0, P); (0, n)] 2 -> 0 <= a < b -> b <= n ->
  inner_comps (echunk_of M [(0, P); (0, n)] 2 u) a b = Ok (range_of (part a b)).
Proof.
  intros n a b u S Ha Hb. unfold inner_comps. cbn [ec_internal echunk_of].
  pose proof (wide_valid n S) as (V1 & V2 & V3 & V4). pose proof S as (S1 & S2 & S3 & S4 & S5 & S6 & S7).
  assert (N1 : nonempty (M ++ [(0, P); (0, n)])) by (apply nonempty_app; auto).
  assert (SH : shorter (M ++ [(0, P); (0, n)]) (grow 2 M ++ [(0, P); (0, n)])).
  { apply Forall2_app; [|apply shorter_refl; auto]. clear - S2. induction M as [|[l h] M' IH]; [constructor|].
    inversion S2; subst. constructor; [cbn in *; lia|auto]. }
  rewrite range_copy_of.
  2:{ eapply shorter_strides; [exact SH| |exact S5]. now rewrite wide_eq. }
  cbn [bind r_nd range_of]. rewrite isub_ok by (unfold is_int, int_min, int_max in *; lia). cbn [bind].
  change [(0, P); (0, n)] with ([(0, P)] ++ [(0, n)]). rewrite app_assoc. unfold part. apply (range_set_ok _ 0 n []).
  - rewrite !app_length. cbn [List.length]. lia.
  - eapply (shorter_strides _ (wide_box n)); auto. unfold wide_box.
    change [(0, P); (0, n)] with ([(0, P)] ++ [(0, n)]) in SH. rewrite !app_assoc in SH.
    apply Forall2_app_inv_l in SH as (B1 & B2 & X1 & X2 & X3).
    inversion X2 as [|? ? ? ? Y1 Y2]; subst. inversion Y2; subst. apply app_inj_tail in X3 as [-> <-].
    apply Forall2_app; auto. constructor; [cbn; lia|constructor].
Qed.

Lemma part_indexer : forall n a b (u : fld), shape M [(0, P); (0, n)] 2 -> 0 <= a < b -> b <= n ->
  iface_indexer (ec_if (echunk_of M [(0, P); (0, n)] 2 u)) (range_of (part a b)) = Ok (ix_at (wide_box n) (part a b) (first_cell (part a b))).
Proof.
  intros n a b u S Ha Hb. unfold iface_indexer. rewrite ec_if_of. cbn [iface_of if_range].
  rewrite wide_eq. apply indexer_make_ok. now apply part_good.
Qed.

(** ** Lorentz force in one chunk *)

Definition with_rate (rate : list Z -> Z -> option F) (c : list Z) (v : F) : F :=
  match rate (removelast c) (last c 0) with Some f => fadd v f | None => v end.
Definition lrate (com : F) (u e : fld) (x : list Z) (j : Z) : option F :=
  lorentz_rate com (fun i => u (x ++ [i])) (fun i => e (x ++ [i])) j.

Lemma lorentz_rate_cases : forall com (q e : Z -> F) j, lorentz_rate com q e j =
  (if j =? 1 then Some (com * (q 0%Z * e 0%Z + q 2%Z * e 5%Z - q 3%Z * e 4%Z))
   else if j =? 2 then Some (com * (q 0%Z * e 1%Z + q 3%Z * e 3%Z - q 1%Z * e 5%Z))
   else if j =? 3 then Some (com * (q 0%Z * e 2%Z + q 1%Z * e 4%Z - q 2%Z * e 3%Z))
   else if j =? 4 then Some (com * (q 1%Z * e 0%Z + q 2%Z * e 1%Z + q 3%Z * e 2%Z)) else None)%F.
Proof. intros. destruct j as [|[[p|p|]|[[p|p|]|[p|p|]|]|]|p]; reflexivity. Qed.

Lemma wide_lin : forall n x i, in_box (grow 2 M ++ [(0, P)]) x -> offset (wide_box n) (x ++ [0]) + i = offset (wide_box n) (x ++ [i]).
Proof. intros n x i I. unfold wide_box. apply in_box_length in I. rewrite !snoc_offset by auto. lia. Qed.

Lemma snoc_eq_dec : forall X (x y : list Z) i j (a b : X),
  (if list_eq_dec Z.eq_dec (x ++ [i]) (y ++ [j]) then a else b) = if list_eq_dec Z.eq_dec x y then (if i =? j then a else b) else b.
Proof.
  intros. destruct (list_eq_dec Z.eq_dec (x ++ [i]) (y ++ [j])) as [E|E].
  - apply app_inj_tail in E as [-> ->]. destruct (list_eq_dec Z.eq_dec y y); [|congruence]. now rewrite Z.eqb_refl.
  - destruct (list_eq_dec Z.eq_dec x y) as [->|]; [|reflexivity]. destruct (Z.eqb_spec i j); [congruence|reflexivity].
Qed.

Lemma wide_split : forall n c, in_box (wide_box n) c -> exists x j, c = x ++ [j] /\ in_box (grow 2 M ++ [(0, P)]) x /\ 0 <= j < n.
Proof.
  intros n c I. pose proof I as I'. apply Forall2_app_inv_l in I' as (x1 & r & I1 & I2 & ->). inversion I2 as [|? ? ? ? J1 J2]; subst. inversion J2; subst.
  apply snoc_in in I as []. eauto.
Qed.

Lemma lorentz_cell_ok : forall com nf ne (u e w : fld) x, shape M [(0, P); (0, nf)] 2 -> shape M [(0, P); (0, ne)] 2 -> 5 <= nf -> 6 <= ne ->
  in_box (grow 2 M ++ [(0, P)]) x ->
  lorentz_cell com (map u (cells (wide_box nf))) (map e (cells (wide_box ne))) (offset (wide_box nf) (x ++ [0])) (offset (wide_box ne) (x ++ [0]))
    (map w (cells (wide_box nf))) =
  Ok (map (keyed (fun c => removelast c ++ [0]) (with_rate (lrate com u e)) w (x ++ [0])) (cells (wide_box nf))).
Proof.
  intros com nf ne u e w x Sf Se Hf He I. pose proof (wide_valid _ Sf) as Vf. pose proof (wide_valid _ Se) as Ve.
  unfold lorentz_cell. rewrite !wide_lin by assumption.
  assert (If : forall j, 0 <= j < nf -> in_box (wide_box nf) (x ++ [j])) by (intros; apply snoc_in; auto).
  assert (Ie : forall j, 0 <= j < ne -> in_box (wide_box ne) (x ++ [j])) by (intros; apply snoc_in; auto).
  rewrite !vget_of by (auto; first [apply If|apply Ie]; lia). cbn [bind].
  rewrite bump_of by (auto; apply If; lia). cbn [bind].
  rewrite bump_of by (auto; apply If; lia). cbn [bind].
  rewrite bump_of by (auto; apply If; lia). cbn [bind].
  rewrite bump_of by (auto; apply If; lia).
  f_equal. apply map_ext_in. intros c Hc. apply in_cells in Hc. apply wide_split in Hc as (y & j & -> & Iy & Hj).
  rewrite !snoc_eq_dec. unfold keyed, with_rate, lrate. rewrite removelast_last, last_last. rewrite snoc_eq_dec.
  destruct (list_eq_dec Z.eq_dec y x) as [->|N]; [|reflexivity]. rewrite Z.eqb_refl. rewrite lorentz_rate_cases.
  destruct (Z.eqb_spec j 1); [subst; reflexivity|]. destruct (Z.eqb_spec j 2); [subst; reflexivity|].
  destruct (Z.eqb_spec j 3); [subst; reflexivity|]. destruct (Z.eqb_spec j 4); reflexivity.
Qed.

Definition after_rates (rate : list Z -> Z -> option F) (w : fld) : fld :=
  fun c => if in_boxb (M ++ [(0, P)]) (removelast c) then with_rate rate c (w c) else w c.

Lemma prod_part : forall a b, prod_len (part a b) = prod_len (M ++ [(0, P)]) * (b - a).
Proof. intros. unfold part. rewrite prod_len_app. cbn. lia. Qed.

Lemma combine_diag : forall X (l : list X), combine l l = map (fun x => (x, x)) l.
Proof. induction l; cbn; congruence. Qed.

Lemma lorentz_chunk_ok : forall com nf ne (u e w : fld) fuel, shape M [(0, P); (0, nf)] 2 -> shape M [(0, P); (0, ne)] 2 -> 5 <= nf -> 6 <= ne ->
  prod_len (wide_box nf) <= Z.of_nat fuel ->
  lorentz_chunk fuel com (echunk_of M [(0, P); (0, nf)] 2 u) (echunk_of M [(0, P); (0, ne)] 2 e) (iface_of (wide_box nf) w) =
  Done (iface_of (wide_box nf) (after_rates (lrate com u e) w)).
Proof.
  intros com nf ne u e w fuel Sf Se Hf He Hfu. unfold lorentz_chunk.
  rewrite !inner_comps_ok by (auto; lia). cbn [liftr]. rewrite !part_indexer by (auto; lia). cbn [liftr].
  pose proof (part_good nf 0 1 Sf ltac:(lia) ltac:(lia)) as G1. pose proof (part_good ne 0 1 Se ltac:(lia) ltac:(lia)) as G2.
  rewrite lockstep_cells; auto.
  2:{ pose proof (prod_len_incl_le _ _ (gs_incl _ _ G1) (gs_ne _ _ G1)). lia. }
  rewrite combine_diag, ofold_map. cbn [fst snd].
  rewrite (keyed_run (fun c => removelast c ++ [0]) (with_rate (lrate com u e)) (wide_box nf)).
  - f_equal. apply iface_of_ext. intros c Hc. rewrite keyed_fold by apply cells_NoDup. unfold after_rates.
    apply wide_split in Hc as (x & j & -> & Hx & Hj). rewrite removelast_last.
    destruct (in_dec _ (x ++ [0]) (cells (part 0 1))) as [I|I]; destruct (in_boxb (M ++ [(0, P)]) x) eqn:E; auto.
    + apply in_cells, part_in in I as [I _]. apply in_boxb_iff in I. congruence.
    + exfalso. apply I. apply in_cells, part_in. apply in_boxb_iff in E. split; auto; lia.
  - intros k v Hk. apply in_cells in Hk. destruct (part_split _ _ _ Hk) as (x & j & ->). apply part_in in Hk as [Hx Hj].
    replace j with 0 by lia. cbn [ix_at ix_lin ec_if]. rewrite !ec_if_of, !wide_eq. cbn [iface_of if_data if_range].
    rewrite lorentz_cell_ok by auto using inner_wide. reflexivity.
Qed.

Lemma after_rates_added : forall k rate w, comp_box k = [(0, P); (0, Z.of_nat (List.length (id_comps k)))] -> rates_added M k rate w (after_rates rate w).
Proof.
  intros k rate w E x j Hx. unfold comp_box in E. injection E as EP. rewrite EP. unfold after_rates, with_rate. rewrite removelast_last, last_last.
  split; intros H; destruct (in_boxb (M ++ [(0, P)]) x) eqn:Eb; auto.
  - apply in_boxb_iff in H. congruence.
  - apply in_boxb_iff in Eb. contradiction.
Qed.

(** ** current in one chunk *)

Definition current_rate (mult : F) (u : fld) (x : list Z) (j : Z) : option F :=
  if (0 <=? j) && (j <? 3) then Some (fmul mult (u (x ++ [j + 1]))) else None.

Lemma current_chunk_ok : forall mult nf nr (u w0 w : fld) fuel, shape M [(0, P); (0, nf)] 2 -> shape M [(0, P); (0, nr)] 2 -> 4 <= nf -> 3 <= nr ->
  prod_len (wide_box nf) <= Z.of_nat fuel ->
  current_chunk fuel mult (echunk_of M [(0, P); (0, nf)] 2 u) (echunk_of M [(0, P); (0, nr)] 2 w0)
     (fun _ => ec_if (echunk_of M [(0, P); (0, nf)] 2 u)) (iface_of (wide_box nr) w) =
  Done (iface_of (wide_box nr) (after_rates (current_rate mult u) w)).
Proof.
  intros mult nf nr u w0 w fuel Sf Sr Hf Hr Hfu. unfold current_chunk.
  rewrite !inner_comps_ok by (auto; lia). cbn [liftr]. rewrite !part_indexer by (auto; lia). cbn [liftr].
  pose proof (part_good nf 1 4 Sf ltac:(lia) ltac:(lia)) as G1. pose proof (part_good nr 0 3 Sr ltac:(lia) ltac:(lia)) as G2.
  pose proof (wide_valid _ Sf) as Vf. pose proof (wide_valid _ Sr) as Vr.
  rewrite lockstep_cells; auto.
  2:{ rewrite !prod_part. lia. }
  2:{ pose proof (prod_len_incl_le _ _ (gs_incl _ _ G1) (gs_ne _ _ G1)). lia. }
  change (part 1 4) with ((M ++ [(0, P)]) ++ (0 + 1, 3 + 1) :: []) at 2. rewrite cells_shift. fold (part 0 3).
  rewrite combine_same, ofold_map. cbn [fst snd].
  rewrite (keyed_run (fun c => c) (with_rate (current_rate mult u)) (wide_box nr)).
  - f_equal. apply iface_of_ext. intros c Hc. rewrite keyed_fold by apply cells_NoDup. unfold after_rates.
    apply wide_split in Hc as (x & j & -> & Hx & Hj). rewrite removelast_last. unfold with_rate. rewrite removelast_last, last_last. unfold current_rate.
    destruct (in_dec _ (x ++ [j]) (cells (part 0 3))) as [I|I]; destruct (in_boxb (M ++ [(0, P)]) x) eqn:E; auto.
    + apply in_cells, part_in in I as [I _]. apply in_boxb_iff in I. congruence.
    + destruct ((0 <=? j) && (j <? 3)) eqn:Ej; auto. exfalso. apply I. apply in_cells, part_in. apply in_boxb_iff in E. split; auto; lia.
  - intros k v Hk. apply in_cells in Hk. destruct (part_split _ _ _ Hk) as (x & j & ->). apply part_in in Hk as [Hx Hj].
    pose proof (inner_wide _ Hx) as Wx. pose proof (in_box_length _ _ Hx) as Lx.
    assert (ES : shift_at (List.length (M ++ [(0, P)])) 1 (x ++ [j]) = x ++ [j + 1]).
    { rewrite <- Lx. unfold shift_at. rewrite nth_error_app2, Nat.sub_diag by lia. cbn [nth_error].
      now rewrite upd_mid. }
    rewrite ES. rewrite (get_at _ (iface_of (wide_box nr) v) (wide_box nr) _ (x ++ [j]) (v (x ++ [j]))).
    2:{ now apply iface_of_ok. }
    2:{ apply snoc_in. split; auto; lia. }
    2:{ apply cont_of; [apply Vr|]. apply snoc_in. split; auto; lia. }
    cbn [liftr]. rewrite ec_if_of, wide_eq.
    rewrite (get_at _ (iface_of (wide_box nf) u) (wide_box nf) _ (x ++ [j + 1]) (u (x ++ [j + 1]))).
    2:{ now apply iface_of_ok. }
    2:{ apply snoc_in. split; auto; lia. }
    2:{ apply cont_of; [apply Vf|]. apply snoc_in. split; auto; lia. }
    cbn [liftr]. unfold iface_put. cbn [ix_at ix_lin iface_of if_data if_range].
    rewrite upd_of; auto. 2:{ apply snoc_in. split; auto; lia. }
    cbn [bind liftr]. f_equal. unfold iface_of. f_equal. apply map_ext. intros c. unfold keyed, with_rate.
    destruct (list_eq_dec Z.eq_dec c (x ++ [j])) as [->|]; [|reflexivity]. rewrite removelast_last, last_last. unfold current_rate.
    replace ((0 <=? j) && (j <? 3)) with true by (symmetry; lia). reflexivity.
Qed.

End Parts.

Section Solve.
Context {F : Type} {A : Arith F}.
Notation fld := (field F).

Lemma on_chunk_ok : forall gr M (L : list (vid * fld)) dt t n k w v f, nth_error L n = Some (k, w) ->
  f (iface_of (whole M k) w) = Done (iface_of (whole M k) v) ->
  on_chunk n (ix_one M) f (mgr_of gr M L dt t) = Done (mgr_of gr M (upd L n (k, v)) dt t).
Proof.
  intros gr M L dt t n k w v f H E. unfold on_chunk. rewrite (get_chunk_ok _ _ _ _ _ _ _ _ H). cbn [liftr].
  rewrite ec_if_of. fold (whole M k). rewrite E. unfold whole. rewrite ec_with_of. rewrite (put_chunk_ok _ _ _ _ _ _ _ _ _ H). reflexivity.
Qed.

Lemma fits_shape : forall M k r, id_fits M k -> bs_points (id_basis k) = bs_points (id_basis r) ->
  shape M [(0, bs_points (id_basis r)); (0, Z.of_nat (List.length (id_comps k)))] 2.
Proof. intros M k r H E. unfold id_fits, comp_box in H. now rewrite E in H. Qed.

Lemma source_list_facts : forall (m : mgr F) M L r v (ks : list vid), fields_ok M L -> id_fits M r -> gr_range (mg_grid m) = range_of M ->
  let L' := field_set (ensure L r) r v in
  mgr_holds (mgr_of (mg_grid m) M L' (mg_dt m) (mg_time m)) M L' /\ fields_ok M L' /\ incl (ids L') (ids L ++ [r]) /\
  (forall k, id_name k <> id_name r -> field_get L' k = field_get L k) /\ field_get L' r = Some v.
Proof.
  intros m M L r v ks HL Hr Hg L'. 
  assert (O' : fields_ok M L') by (unfold L', ensure; auto using fields_ok_set).
  split; [apply mgr_holds_iff; auto|]. split; [auto|]. split.
  { intros x Hx. rewrite in_app_iff. apply ids_set_in in Hx as [Hx| ->]; [apply ids_ensure_in in Hx as [Hx| ->]|]; cbn; auto. }
  split; [|apply field_get_set_same].
  intros k Hn. unfold L'. rewrite field_get_set_other by congruence. apply get_ensure_other. congruence.
Qed.

Lemma api_lorentz : forall (m : mgr F) M L qf qe r u e com fuel, source_ready m M L [qf; qe; r] fuel ->
  field_get L qf = Some u -> field_get L qe = Some e -> comp_box qf = comp_box r -> has_comps qf 5 r -> has_comps qe 6 r ->
  id_name qf <> id_name r -> id_name qe <> id_name r ->
  exists m' L', lorentz_solve fuel com [qf; qe] [r] m = Done m' /\
    source_added m m' M L L' r (rates_added M r (fun x => lorentz_rate com (fun i => u (x ++ [i])) (fun i => e (x ++ [i])))).
Proof.
  intros m M L qf qe r u e com fuel (Hm & HL & Hc & Hfit & Hfu) Hu He Cb [Pf Nf] [Pe Ne] Nqf Nqe.
  apply mgr_holds_iff in Hm as [Hg Hm]; auto.
  assert (Fqf : fitting L qf) by (eapply compat_fitting; eauto; cbn; auto).
  assert (Fqe : fitting L qe) by (eapply compat_fitting; eauto; cbn; auto).
  assert (Fr : fitting L r) by (eapply compat_fitting; eauto; cbn; auto).
  inversion Hfit as [|? ? If Hfit1]; subst. inversion Hfit1 as [|? ? Ie Hfit2]; subst. inversion Hfit2 as [|? ? Ir _]; subst.
  inversion Hfu as [|? ? Ff Hfu']; subst.
  assert (Hfu1 : (1 <= fuel)%nat) by (exact (fits_fuel _ _ _ If Ff)).
  destruct (input_pos (mg_grid m) M L (mg_dt m) (mg_time m) qf u Fqf Hu) as (nf & Pnf & Inf).
  destruct (input_pos (mg_grid m) M L (mg_dt m) (mg_time m) qe e Fqe He) as (ne & Pne & Ine).
  destruct (output_pos (mg_grid m) M L (mg_dt m) (mg_time m) r Hg Fr Ir) as (nr & Pr & Or).
  pose proof (pos_ensure L qf u nf r Fr Pnf) as Pf'. pose proof (pos_ensure L qe e ne r Fr Pne) as Pe'.
  assert (Fe : fitting (ensure L r) r).
  { eapply compat_fitting; [apply (compat_ensure L r [])|now left]. eapply compat_perm; [exact Hc|].
    intros x Hx. rewrite in_app_iff in *. cbn in *. tauto. }
  set (w := field_or_zero L r) in *.
  set (v := after_rates M (bs_points (id_basis r)) (lrate com u e) w).
  destruct (source_list_facts m M L r v [] HL Ir Hg) as (X1 & X2 & X3 & X4 & X5).
  eexists _, _. split.
  { rewrite Hm at 1. unfold lorentz_solve. rewrite Inf. cbn [liftr]. rewrite Ine. cbn [liftr]. rewrite Or.
    rewrite (for_chunks_ok _ _ _ _ _ _ _ _ _ _ (id_fits_M _ _ If) Hfu1 (proj2 Pf')).
    pose proof (pos_neq _ _ _ _ _ _ _ Pf' Pr Nqf). pose proof (pos_neq _ _ _ _ _ _ _ Pe' Pr Nqe).
    destruct (Nat.eqb_spec nr nf); [congruence|]. destruct (Nat.eqb_spec nr ne); [congruence|]. cbn [orb].
    rewrite (get_chunk_ok _ _ _ _ _ _ _ _ (proj2 Pf')), (get_chunk_ok _ _ _ _ _ _ _ _ (proj2 Pe')). cbn [liftr].
    rewrite (on_chunk_ok _ _ _ _ _ _ r w v _ (proj2 Pr)).
    - cbn [obind]. rewrite (pos_upd _ _ _ _ _ Fe Pr). reflexivity.
    - unfold whole. rewrite <- Cb. unfold comp_box. rewrite Pf, Pe, wide_eq. apply lorentz_chunk_ok; try lia.
      + now apply fits_shape.
      + now apply fits_shape.
      + rewrite <- wide_eq. unfold comp_box in Ff. now rewrite Pf in Ff. }
  split; [exact X1|]. split; [exact X2|]. split; [unfold same_run; cbn; auto|]. split; [exact X3|]. split; [exact X4|].
  exists v. split; [exact X5|]. apply after_rates_added. reflexivity.
Qed.

Lemma idx_ids : forall (L L' : list (vid * fld)) k, ids L = ids L' -> idx L k = idx L' k.
Proof.
  induction L as [|[k1 u1] L IH]; intros [|[k2 u2] L'] k E; try discriminate; [reflexivity|]. cbn in E. injection E as -> E.
  cbn [idx]. now rewrite (IH L').
Qed.

Lemma Forall2_impl_in : forall X Y (R R' : X -> Y -> Prop) l l', (forall x y, In x l -> R x y -> R' x y) -> Forall2 R l l' -> Forall2 R' l l'.
Proof. induction l; intros l' H F2; inversion F2; subst; constructor; [apply H; auto; now left|]. apply IHl; auto. intros. apply H; auto. now right. Qed.

(** The rates of one species after another. *)
Lemma current_run : forall gr M dt t fuel r ms ins us (L : list (vid * fld)) nr w,
  Forall2 (fun k u => field_get L k = Some u) ins us -> List.length ms = List.length us ->
  Forall (fun k => fitting L k /\ id_fits M k /\ prod_len (grow 2 M ++ comp_box k) <= Z.of_nat fuel /\ has_comps k 4 r /\ id_name k <> id_name r) ins ->
  fitting L r -> id_fits M r -> (3 <= List.length (id_comps r))%nat -> pos L r w nr ->
  exists v, current_species fuel nr ms ins (mgr_of gr M L dt t) = Done (mgr_of gr M (field_set L r v) dt t) /\ current_added M r ms us w v.
Proof.
  intros gr M dt t fuel r ms ins us L nr w H. revert ms L w H. 
  assert (Same : forall (L : list (vid * fld)) (w : fld), pos L r w nr -> fitting L r -> field_set L r w = L).
  { intros L w Pr Fr. rewrite <- (pos_upd _ _ _ _ _ Fr Pr). apply ParFacts.upd_same. apply Pr. }
  revert ins. induction us as [|u us IH]; intros ins ms L w H Hl Hk Fr Ir Hr Pr.
  - inversion H; subst. destruct ms; [|discriminate]. exists w. split.
    + cbn. rewrite Same by assumption. reflexivity.
    + intros x j Hx. cbn. auto.
  - inversion H as [|k u' ins' us' Hu H' E1 E2]; subst. destruct ms as [|mult ms]; [discriminate|].
    inversion Hk as [|? ? (Fk & Ik & Fuk & [Pk Nk] & Nn) Hk']; subst.
    assert (Hfu1 : (1 <= fuel)%nat) by (exact (fits_fuel _ _ _ Ik Fuk)).
    destruct (input_pos gr M L dt t k u Fk Hu) as (nk & Pnk & Ink).
    set (v1 := after_rates M (bs_points (id_basis r)) (current_rate mult u) w).
    assert (Hids : ids (field_set L r v1) = ids L).
    { rewrite <- (pos_upd _ _ _ _ _ Fr Pr). unfold ids. rewrite upd_map. cbn [fst]. apply ParFacts.upd_same. rewrite nth_error_map, (proj2 Pr). reflexivity. }
    assert (Pr1 : pos (field_set L r v1) r v1 nr).
    { split; [rewrite (idx_ids _ L) by exact Hids; apply Pr|]. rewrite <- (pos_upd _ _ _ _ _ Fr Pr).
      apply BaseFacts.nth_error_upd_eq. apply nth_error_Some. rewrite (proj2 Pr). discriminate. }
    destruct (IH ins' ms (field_set L r v1) v1) as (v & V1 & V2); auto.
    + eapply Forall2_impl_in; [|exact H']. intros a b Ha Hb. cbn in *. rewrite field_get_set_other; auto.
      rewrite Forall_forall in Hk'. apply Hk' in Ha. intuition congruence.
    + eapply Forall_impl; [|exact Hk']. cbn. unfold fitting. rewrite Hids. auto.
    + unfold fitting. rewrite Hids. auto.
    + exists v. split.
      * cbn [current_species]. rewrite Ink. cbn [liftr].
        rewrite (for_chunks_ok _ _ _ _ _ _ _ _ _ _ (id_fits_M _ _ Ik) Hfu1 (proj2 Pnk)).
        rewrite (get_chunk_ok _ _ _ _ _ _ _ _ (proj2 Pnk)), (get_chunk_ok _ _ _ _ _ _ _ _ (proj2 Pr)). cbn [liftr].
        pose proof (pos_neq _ _ _ _ _ _ _ Pnk Pr Nn). destruct (Nat.eqb_spec nr nk); [congruence|].
        rewrite (on_chunk_ok _ _ _ _ _ _ r w v1 _ (proj2 Pr)).
        -- cbn [obind]. rewrite (pos_upd _ _ _ _ _ Fr Pr). rewrite V1. rewrite set_set. reflexivity.
        -- unfold whole, comp_box. rewrite Pk, wide_eq. apply current_chunk_ok; try lia.
           ++ now apply fits_shape.
           ++ apply fits_shape; auto.
           ++ rewrite <- wide_eq. unfold comp_box in Fuk. now rewrite Pk in Fuk.
      * intros x j Hx. pose proof (V2 x j Hx) as [Q1 Q2]. cbn [current].
        assert (Ev : v1 (x ++ [j]) = if in_boxb (M ++ [(0, bs_points (id_basis r))]) x then (if j <? 3 then fadd (w (x ++ [j])) (fmul mult (u (x ++ [j + 1]))) else w (x ++ [j])) else w (x ++ [j])).
        { unfold v1, after_rates, with_rate. rewrite removelast_last, last_last. unfold current_rate.
          unfold comp_box in Hx. rewrite wide_eq in Hx. apply snoc_in in Hx as [_ Hx]. destruct (in_boxb _ x); [|reflexivity]. replace (0 <=? j) with true by (symmetry; lia). cbn [andb]. destruct (j <? 3); reflexivity. }
        split.
        -- intros Hi Hj. rewrite Q1, Ev by auto. apply in_boxb_iff in Hi. rewrite Hi. replace (j <? 3) with true by (symmetry; lia). reflexivity.
        -- intros Ho. rewrite Q2, Ev by auto. destruct (in_boxb _ x) eqn:Eb; [|reflexivity]. destruct Ho as [Ho|Ho].
           ++ apply in_boxb_iff in Eb. contradiction.
           ++ replace (j <? 3) with false by (symmetry; lia). reflexivity.
Qed.

Lemma api_current : forall (m : mgr F) M L r ms ins us fuel, source_ready m M L (ins ++ [r]) fuel ->
  Forall2 (fun k u => field_get L k = Some u) ins us -> List.length ms = List.length ins ->
  Forall (fun k => has_comps k 4 r /\ id_name k <> id_name r) ins -> (3 <= List.length (id_comps r))%nat ->
  exists m' L', current_solve fuel ms ins [r] m = Done m' /\ source_added m m' M L L' r (current_added M r ms us).
Proof.
  intros m M L r ms ins us fuel (Hm & HL & Hc & Hfit & Hfu) Hu Hl Hk Hr.
  apply mgr_holds_iff in Hm as [Hg Hm]; auto.
  assert (Fr : fitting L r) by (eapply compat_fitting; eauto; apply in_or_app; cbn; auto).
  assert (Ir : id_fits M r) by (rewrite Forall_forall in Hfit; apply Hfit; apply in_or_app; cbn; auto).
  destruct (output_pos (mg_grid m) M L (mg_dt m) (mg_time m) r Hg Fr Ir) as (nr & Pr & Or).
  assert (Ce : compatible (ids (ensure L r) ++ ins ++ [r])).
  { eapply compat_perm; [exact Hc|]. intros x Hx. rewrite !in_app_iff in *. cbn in *.
    destruct Hx as [Hx|Hx]; [apply ids_ensure_in in Hx as [Hx| ->]|]; auto. }
  assert (Fe : forall k, In k (ins ++ [r]) -> fitting (ensure L r) k) by (intros; eapply compat_fitting; eauto).
  rewrite Forall_forall in Hfit, Hfu, Hk.
  destruct (current_run (mg_grid m) M (mg_dt m) (mg_time m) fuel r ms ins us (ensure L r) nr (field_or_zero L r)) as (v & V1 & V2); auto.
  - eapply Forall2_impl_in; [|exact Hu]. intros k u Hin E. cbn in *. rewrite get_ensure_other; auto.
    apply Hk in Hin. intuition congruence.
  - rewrite Hl. clear - Hu. induction Hu; cbn; congruence.
  - rewrite Forall_forall. intros k Hin. assert (In k (ins ++ [r])) by (apply in_or_app; auto). apply Hk in Hin as [Hh Hn]. auto 7.
  - apply Fe. apply in_or_app; cbn; auto.
  - destruct (source_list_facts m M L r v [] HL Ir Hg) as (X1 & X2 & X3 & X4 & X5).
    eexists _, _. split.
    { rewrite Hm at 1. unfold current_solve. rewrite Hl, Nat.eqb_refl. rewrite Or. rewrite V1. reflexivity. }
    split; [exact X1|]. split; [exact X2|]. split; [unfold same_run; cbn; auto|]. split; [exact X3|]. split; [exact X4|].
    exists v. split; [exact X5|]. exact V2.
Qed.

End Solve.

(** ** energy exchange *)

Open Scope R_scope.

Lemma current_sum : forall ms (us : list (field R)) acc c, @current R RArith acc ms us c = acc + rsum (fun p => fst p * snd p c) (combine ms us).
Proof.
  induction ms as [|a ms IH]; intros us acc c; [cbn; lra|]. destruct us as [|u us]; [cbn; lra|].
  cbn [current combine]. rewrite IH. unfold rsum. cbn. lra.
Qed.

Lemma exchange_sum : forall (ss : list species) (us : list (field R)) (e : nat -> R) eps0 x, eps0 <> 0 -> List.length ss = List.length us ->
  eps0 * (e 0%nat * rsum (fun p => fst p * snd p (x ++ [1%Z])) (combine (@multipliers R RArith eps0 (map sp_charge ss) (map sp_mass ss)) us) +
          e 1%nat * rsum (fun p => fst p * snd p (x ++ [2%Z])) (combine (@multipliers R RArith eps0 (map sp_charge ss) (map sp_mass ss)) us) +
          e 2%nat * rsum (fun p => fst p * snd p (x ++ [3%Z])) (combine (@multipliers R RArith eps0 (map sp_charge ss) (map sp_mass ss)) us)) +
  rsum (fun p => sp_charge (fst p) / sp_mass (fst p) * (snd p (x ++ [1%Z]) * e 0%nat + snd p (x ++ [2%Z]) * e 1%nat + snd p (x ++ [3%Z]) * e 2%nat)) (combine ss us) = 0.
Proof.
  induction ss as [|s ss IH]; intros us e eps0 x He Hl; destruct us as [|u us]; try discriminate; [unfold rsum; cbn; lra|].
  injection Hl as Hl. specialize (IH us e eps0 x He Hl). unfold rsum in *.
  cbn [map combine multipliers fold_right fst snd] in *.
  match type of IH with eps0 * (_ * ?a + _ * ?b + _ * ?c) + ?d = 0 => set (A1 := a) in *; set (A2 := b) in *; set (A3 := c) in *; set (A4 := d) in * end.
  cbn [fdiv fneg RArith].
  assert (Hm : eps0 * (- sp_charge s / sp_mass s / eps0) = - (sp_charge s / sp_mass s)).
  { unfold Rdiv. rewrite (Rmult_comm eps0). rewrite !Rmult_assoc. rewrite (Rinv_l eps0) by assumption. lra. }
  set (mu := - sp_charge s / sp_mass s / eps0) in *. set (co := sp_charge s / sp_mass s) in *.
  match goal with |- ?g = 0 => replace g with ((eps0 * (e 0%nat * A1 + e 1%nat * A2 + e 2%nat * A3) + A4) +
     (eps0 * mu + co) * (u (x ++ [1%Z]) * e 0%nat + u (x ++ [2%Z]) * e 1%nat + u (x ++ [3%Z]) * e 2%nat)) by ring end.
  rewrite Hm, IH. lra.
Qed.

Lemma source_ready_after : forall (m m' : mgr R) M L L' r T ks fuel, @source_ready R m M L ks fuel -> In r ks -> @source_added R RArith m m' M L L' r T ->
  @source_ready R m' M L' ks fuel.
Proof.
  intros m m' M L L' r T ks fuel (Hm & HL & Hc & Hfit & Hfu) Hr (A1 & A2 & A3 & A4 & A5 & A6).
  split; [auto|]. split; [auto|]. split; [|auto]. eapply compat_perm; [exact Hc|]. intros x Hx. rewrite in_app_iff in *. destruct Hx as [Hx|Hx]; auto.
  apply A4 in Hx. rewrite in_app_iff in Hx. destruct Hx as [Hx|[<-|[]]]; auto.
Qed.

Lemma source_ready_sub : forall (m : mgr R) M L ks ks' fuel, @source_ready R m M L ks fuel -> incl ks' ks -> @source_ready R m M L ks' fuel.
Proof.
  intros m M L ks ks' fuel (Hm & HL & Hc & Hfit & Hfu) Hi. split; [auto|]. split; [auto|]. split.
  - eapply compat_perm; [exact Hc|]. intros x Hx. rewrite in_app_iff in *. destruct Hx; auto.
  - rewrite !Forall_forall in *. split; intros k Hk; [apply Hfit|apply Hfu]; now apply Hi.
Qed.

Lemma get_foz : forall (L : list (vid * field R)) k u, field_get L k = Some u -> field_or_zero L k = u.
Proof. intros L k u H. unfold field_or_zero. now rewrite H. Qed.

Lemma foz_get_eq : forall (L L' : list (vid * field R)) k, field_get L k = field_get L' k -> field_or_zero L k = field_or_zero L' k.
Proof. intros L L' k H. unfold field_or_zero. now rewrite H. Qed.

Definition lorentz_all (fuel : nat) (qe : vid) (ss : list species) (m : mgr R) : out (mgr R) :=
  ofold (fun s => lorentz_solve fuel (lorentz_setup (sp_charge s) (sp_mass s)) [sp_fluid s; qe] [sp_rhs s]) ss m.

Lemma lorentz_all_ok : forall M qe re e ks fuel ss us (m : mgr R) L, @source_ready R m M L ks fuel ->
  In qe ks -> Forall (fun s => In (sp_fluid s) ks /\ In (sp_rhs s) ks) ss ->
  field_get L qe = Some e -> Forall2 (fun s u => field_get L (sp_fluid s) = Some u) ss us ->
  has_comps qe 6 re -> Forall (fun s => comp_box (sp_fluid s) = comp_box (sp_rhs s) /\ has_comps (sp_fluid s) 5 re) ss ->
  NoDup (map (fun s => id_name (sp_rhs s)) ss) ->
  (forall s, In s ss -> id_name (sp_rhs s) <> id_name qe /\ forall s', In s' ss -> id_name (sp_rhs s) <> id_name (sp_fluid s')) ->
  exists m' L', lorentz_all fuel qe ss m = Done m' /\ @source_ready R m' M L' ks fuel /\ same_run m m' /\
    (forall k, ~ In (id_name k) (map (fun s => id_name (sp_rhs s)) ss) -> field_get L' k = field_get L k) /\
    forall x, in_box (M ++ [(0%Z, bs_points (id_basis re))]) x ->
    rsum (fun s => field_or_zero L' (sp_rhs s) (x ++ [4%Z]) - field_or_zero L (sp_rhs s) (x ++ [4%Z])) ss =
    rsum (fun p => sp_charge (fst p) / sp_mass (fst p) * (snd p (x ++ [1%Z]) * e (x ++ [0%Z]) + snd p (x ++ [2%Z]) * e (x ++ [1%Z]) + snd p (x ++ [3%Z]) * e (x ++ [2%Z]))) (combine ss us).
Proof.
  intros M qe re e ks fuel. induction ss as [|s ss IH]; intros us m L Hr Iq Is He Hu Hq Hs ND Hn.
  - exists m, L. cbn. inversion Hu; subst. split; [auto|]. split; [auto|]. split; [unfold same_run; auto|]. split; auto.
  - inversion Hu as [|? u ? us' Hu1 Hu2]; subst. inversion Is as [|? ? [If Ir] Is']; subst. inversion Hs as [|? ? (Cb & Pf & Nf) Hs']; subst. inversion ND as [|? ? Nd1 Nd2]; subst.
    destruct (Hn s ltac:(now left)) as [Nq Nf'].
    assert (Ep : bs_points (id_basis (sp_fluid s)) = bs_points (id_basis (sp_rhs s))) by (unfold comp_box in Cb; now injection Cb).
    assert (Er : bs_points (id_basis (sp_rhs s)) = bs_points (id_basis re)) by (rewrite <- Ep; exact Pf).
    destruct (@api_lorentz R RArith m M L (sp_fluid s) qe (sp_rhs s) u e (lorentz_setup (sp_charge s) (sp_mass s)) fuel) as (m1 & L1 & E1 & S1); auto.
    { eapply source_ready_sub; [exact Hr|]. intros k [<-|[<-|[<-|[]]]]; auto. }
    { split; auto. }
    { destruct Hq. split; auto. congruence. }
    { intros K. apply (Nf' s); [now left|congruence]. }
    pose proof S1 as (A1 & A2 & A3 & A4 & A5 & v & A6 & A7).
    destruct (IH us' m1 L1) as (m2 & L2 & E2 & R2 & Q2 & G2 & T2); auto.
    { eapply source_ready_after; [exact Hr|exact Ir|exact S1]. }
    { rewrite A5; auto. }
    { eapply Forall2_impl_in; [|exact Hu2]. intros s' u' Hin Hg. cbn in *. rewrite A5; auto. intros K. apply (Nf' s'); [now right|congruence]. }
    { intros s' Hs''. destruct (Hn s' ltac:(now right)) as [N1 N2]. split; auto. intros s3 H3. apply N2. now right. }
    exists m2, L2. split.
    { unfold lorentz_all in *. cbn [ofold]. rewrite E1. exact E2. }
    split; [auto|]. split; [unfold same_run in *; intuition congruence|]. split.
    { intros k Hk. cbn in Hk. rewrite G2 by tauto. apply A5. intros K. apply Hk. left. congruence. }
    intros x Hx. specialize (T2 x Hx).
    assert (Ev : v (x ++ [4%Z]) = field_or_zero L (sp_rhs s) (x ++ [4%Z]) + sp_charge s / sp_mass s * (u (x ++ [1%Z]) * e (x ++ [0%Z]) + u (x ++ [2%Z]) * e (x ++ [1%Z]) + u (x ++ [3%Z]) * e (x ++ [2%Z]))).
    { destruct (A7 x 4%Z) as [B1 _].
      - unfold comp_box. rewrite wide_eq. apply snoc_in. split; [|unfold comp_box in Cb; injection Cb as _ Cb; lia].
        rewrite Er. now apply inner_wide.
      - rewrite B1 by now rewrite Er. reflexivity. }
    unfold rsum in *. cbn [map combine fold_right fst snd].
    assert (E4 : field_or_zero L2 (sp_rhs s) = v).
    { rewrite (foz_get_eq L2 L1) by (apply G2; auto). now apply get_foz. }
    rewrite E4, Ev. rewrite <- T2. 
    assert (E5 : map (fun s0 => field_or_zero L2 (sp_rhs s0) (x ++ [4%Z]) - field_or_zero L (sp_rhs s0) (x ++ [4%Z])) ss =
                 map (fun s0 => field_or_zero L2 (sp_rhs s0) (x ++ [4%Z]) - field_or_zero L1 (sp_rhs s0) (x ++ [4%Z])) ss).
    { apply map_ext_in. intros s' Hs''. rewrite (foz_get_eq L L1); auto. symmetry. apply A5.
      intros K. apply Nd1. rewrite <- K. apply (in_map (fun s => id_name (sp_rhs s))). auto. }
    rewrite E5. set (tl := fold_right Rplus 0 _). lra.
Qed.

Lemma exchange : forall (m : mgr R) M L qe re e eps0 ss us fuel,
  @source_ready R m M L (qe :: re :: map sp_fluid ss ++ map sp_rhs ss) fuel -> eps0 <> 0 ->
  field_get L qe = Some e -> Forall2 (fun s u => field_get L (sp_fluid s) = Some u) ss us ->
  has_comps qe 6 re -> (3 <= List.length (id_comps re))%nat ->
  Forall (fun s => comp_box (sp_fluid s) = comp_box (sp_rhs s) /\ has_comps (sp_fluid s) 5 re) ss ->
  NoDup (map (fun s => id_name (sp_rhs s)) ss) ->
  (forall s, In s ss -> id_name (sp_rhs s) <> id_name qe /\ id_name (sp_rhs s) <> id_name re /\ id_name (sp_fluid s) <> id_name re /\
     forall s', In s' ss -> id_name (sp_rhs s) <> id_name (sp_fluid s')) ->
  exists m1 m2 L2, lorentz_all fuel qe ss m = Done m1 /\
    current_solve fuel (@multipliers R RArith eps0 (map sp_charge ss) (map sp_mass ss)) (map sp_fluid ss) [re] m1 = Done m2 /\
    mgr_holds m2 M L2 /\
    forall x, in_box (M ++ [(0%Z, bs_points (id_basis re))]) x ->
      eps0 * dot (fun k => e (x ++ [Z.of_nat k])) (fun k => field_or_zero L2 re (x ++ [Z.of_nat k]) - field_or_zero L re (x ++ [Z.of_nat k])) +
      rsum (fun s => field_or_zero L2 (sp_rhs s) (x ++ [4%Z]) - field_or_zero L (sp_rhs s) (x ++ [4%Z])) ss = 0.
Proof.
  intros m M L qe re e eps0 ss us fuel Hr He0 He Hu Hq Hre Hs ND Hn.
  set (ks := qe :: re :: map sp_fluid ss ++ map sp_rhs ss) in *.
  destruct (lorentz_all_ok M qe re e ks fuel ss us m L Hr) as (m1 & L1 & E1 & R1 & Q1 & G1 & T1); auto.
  { now left. }
  { rewrite Forall_forall; intros s Is; unfold ks; split; do 2 right; apply in_or_app; [left|right]; now apply in_map. }
  { intros s Is; destruct (Hn s Is) as (N1 & N2 & N3 & N4); auto. }
  assert (Nre : ~ In (id_name re) (map (fun s => id_name (sp_rhs s)) ss)).
  { intros K. apply in_map_iff in K as (s & K1 & K2). destruct (Hn s K2) as (_ & N2 & _). auto. }
  assert (LM : List.length (@multipliers R RArith eps0 (map sp_charge ss) (map sp_mass ss)) = List.length ss).
  { clear. induction ss; cbn; auto. }
  destruct (@api_current R RArith m1 M L1 re (@multipliers R RArith eps0 (map sp_charge ss) (map sp_mass ss)) (map sp_fluid ss) us fuel) as (m2 & L2 & E2 & S2); auto.
  { eapply source_ready_sub; [exact R1|]. intros k Hk. unfold ks. rewrite in_app_iff in Hk. cbn in Hk. cbn. rewrite in_app_iff. tauto. }
  { assert (Hn' : forall s, In s ss -> ~ In (id_name (sp_fluid s)) (map (fun s => id_name (sp_rhs s)) ss)).
    { intros s Is K. apply in_map_iff in K as (s' & K1 & K2). destruct (Hn s' K2) as (_ & _ & _ & N4). now apply (N4 s). }
    assert (Hu' : Forall2 (fun s u => field_get L1 (sp_fluid s) = Some u) ss us).
    { eapply Forall2_impl_in; [|exact Hu]. intros s u Is K. cbn in *. now rewrite G1 by auto. }
    clear - Hu'. induction Hu'; cbn; constructor; auto. }
  { now rewrite map_length. }
  { rewrite Forall_forall in *. intros k Hk. apply in_map_iff in Hk as (s & <- & Is). destruct (Hs s Is) as (_ & Hp & Hc). destruct (Hn s Is) as (_ & _ & N3 & _).
    split; auto. split; auto. lia. }
  exists m1, m2, L2. split; [exact E1|]. split; [exact E2|]. destruct S2 as (A1 & A2 & A3 & A4 & A5 & v & A6 & A7). split; [exact A1|].
  intros x Hx. specialize (T1 x Hx).
  assert (EL : List.length ss = List.length us) by (clear - Hu; induction Hu; cbn; congruence).
  assert (Ek : forall k, (k < 3)%nat -> field_or_zero L2 re (x ++ [Z.of_nat k]) - field_or_zero L re (x ++ [Z.of_nat k]) =
    rsum (fun p => fst p * snd p (x ++ [(Z.of_nat k + 1)%Z])) (combine (@multipliers R RArith eps0 (map sp_charge ss) (map sp_mass ss)) us)).
  { intros k Hk. rewrite (get_foz _ _ _ A6). destruct (A7 x (Z.of_nat k)) as [B1 _].
    - unfold comp_box. rewrite wide_eq. apply snoc_in. split; [now apply inner_wide|lia].
    - rewrite B1 by (auto; lia). rewrite current_sum. rewrite (foz_get_eq L1 L) by (apply G1; auto). lra. }
  unfold dot. rewrite !Ek by lia. cbn [Z.of_nat Z.add]. 
  change (0 + 1)%Z with 1%Z. change (Z.pos (Pos.of_succ_nat 0) + 1)%Z with 2%Z. change (Z.pos (Pos.of_succ_nat 1) + 1)%Z with 3%Z.
  assert (E5 : rsum (fun s => field_or_zero L2 (sp_rhs s) (x ++ [4%Z]) - field_or_zero L (sp_rhs s) (x ++ [4%Z])) ss =
               rsum (fun s => field_or_zero L1 (sp_rhs s) (x ++ [4%Z]) - field_or_zero L (sp_rhs s) (x ++ [4%Z])) ss).
  { unfold rsum. f_equal. apply map_ext_in. intros s Is. rewrite (foz_get_eq L2 L1); auto. apply A5. apply (Hn s Is). }
  rewrite E5, T1. exact (exchange_sum ss us (fun k => e (x ++ [Z.of_nat k])) eps0 x He0 EL).
Qed.
