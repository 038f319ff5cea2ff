(** * Moving the data around a periodic dimension moves the results, and data that do
    not depend on a coordinate stay that way (C76). *)
From Coq Require Import ZArith List String Lia Bool Reals Lra Floats.SpecFloat.
From Verif Require Import Base BaseFacts BoxSpec BoxFacts Range RangeSpec RangeFacts ApiSpec Arith ArithFloat ArithR Chunk Properties_Chunk FieldSpec VarId Manager MgrSpec MgrFacts
  BC BCSpec BCFacts Sweep SweepSpec Euler Maxwell Sources Programs ProgramsSpec RhsFacts Properties_Programs Initial InitialSpec InitialFacts Properties_Initial
  Whole Properties_Whole Vtk VtkSpec VtkFacts Properties_Vtk Main MainSpec MainFacts Properties_Main Properties_Files SymmetrySpec SymmetryFacts.
Import ListNotations.
Open Scope Z_scope.

(** The run [o] ends with a manager on mesh [M] in which variable [k] has the field
    [u]. *)
Definition ends {F} (o : out (mgr F)) (M : box) (k : vid) (u : field F) : Prop :=
  exists m L, o = Done m /\ mgr_holds m M L /\ field_get L k = Some u.

Section Bridge.
Context {F : Type} {A : Arith F}.

Lemma moved_turn : forall M d s k n (u v : field F), (d < List.length M)%nat -> n = Z.of_nat (List.length (id_comps k)) -> moved M d s (M ++ comp_box k) u v ->
  paired (turn M [(0, bs_points (id_basis k))] d s) n u v.
Proof.
  intros M d s k n u v Hd -> H x y j [Hx ->] Hj. rewrite (H (x ++ [j])) by (now apply cell_join). rewrite around_snoc; [reflexivity|].
  apply in_box_length in Hx. rewrite app_length in Hx. lia.
Qed.
Lemma turn_moved : forall M d s k n (u v : field F), (d < List.length M)%nat -> n = Z.of_nat (List.length (id_comps k)) ->
  paired (turn M [(0, bs_points (id_basis k))] d s) n u v -> moved M d s (M ++ comp_box k) u v.
Proof.
  intros M d s k n u v Hd -> H c Hc. destruct (cell_split M k c Hc) as (E & Hx & Hj). rewrite E. rewrite (H _ _ _ (conj Hx eq_refl) Hj). rewrite around_snoc; [reflexivity|].
  apply in_box_length in Hx. rewrite app_length in Hx. lia.
Qed.
(** The fields at the end of two runs. *)
Lemma ends_moved : forall (m1 m2 m1' m2' : mgr F) M L1 L2 L1' L2' fams dt n U V d s i k o1 o2,
  o1 = Done m1' -> o2 = Done m2' -> ran m1 m1' M L1 L1' fams dt n U -> ran m2 m2' M L2 L2' fams dt n V -> nth_error (map f_0 fams) i = Some k ->
  (d < List.length M)%nat -> lo M d < hi M d -> moved M d s (M ++ comp_box k) (U i) (V i) ->
  exists u v, ends o1 M k u /\ ends o2 M k v /\ moved M d s (M ++ comp_box k) u v.
Proof.
  intros m1 m2 m1' m2' M L1 L2 L1' L2' fams dt n U V d s i k o1 o2 -> -> ((H1 & _) & _ & _ & _ & S1 & _) ((H2 & _) & _ & _ & _ & S2 & _) E Hd Hw HM.
  destruct (S1 i k E) as (u & Eu & Hu). destruct (S2 i k E) as (v & Ev & Hv). exists u, v. split; [exists m1', L1'; auto|]. split; [exists m2', L2'; auto|].
  intros c Hc. rewrite Hv by exact Hc. rewrite Hu by (now apply around_in_box). now apply HM.
Qed.
End Bridge.

(** ** C76: moved data give moved results, in any arithmetic

    wave_1D and gaussian_pulse: two runs from data that differ by a shift along any
    dimension end with data that differ by the same shift. *)
Theorem C76_pulse : forall F (A : Arith F) c M f fuel dt n d s (m1 m2 : mgr F) L1 L2 u v,
  program_ready m1 M L1 [f] fuel -> program_ready m2 M L2 [f] fuel -> mg_grid m2 = mg_grid m1 -> List.length (id_comps (f_0 f)) = 6%nat ->
  field_get L1 (f_0 f) = Some u -> field_get L2 (f_0 f) = Some v -> (d < List.length M)%nat -> moved M d s (M ++ comp_box (f_0 f)) u v ->
  let go := run (pulse_step true fuel c (map Z.of_nat (seq 0 (List.length M))) f) dt n in
  exists u' v', ends (go m1) M (f_0 f) u' /\ ends (go m2) M (f_0 f) v' /\ moved M d s (M ++ comp_box (f_0 f)) u' v'.
Proof.
  intros F A c M f fuel dt n d s m1 m2 L1 L2 u v R1 R2 EG N6 Eu Ev Hd HM go.
  destruct (C57_pulse F A c M f fuel dt n m1 L1 u R1 N6 Eu) as (m1' & L1' & E1 & Z1). destruct (C57_pulse F A c M f fuel dt n m2 L2 v R2 N6 Ev) as (m2' & L2' & E2 & Z2).
  rewrite EG in Z2. destruct R1 as (_ & _ & _ & _ & W).
  refine (ends_moved m1 m2 m1' m2' M L1 L2 L1' L2' [f] dt n _ _ d s 0 (f_0 f) _ _ E1 E2 Z1 Z2 eq_refl Hd _ _).
  { destruct (W d) as [_ W']; [apply in_seq; lia|lia]. }
  apply (turn_moved M d s _ 6); [exact Hd|now rewrite N6|].
  refine (rk3_paired _ _ dt _ (fun _ => 6) _ n (fun _ => u) (fun _ => v) _ 0%nat).
  - intros U V HU i. apply fv_turned; auto. intros e He. apply in_seq in He. lia.
  - intros i. apply moved_turn; auto. now rewrite N6.
Qed.
Print Assumptions C76_pulse.

(** sod_shock_tube: along its periodic dimensions. *)
Theorem C76_sod : forall F (A : Arith F) gamma M f fuel dt n ws ps d s (m1 m2 : mgr F) L1 L2 u v,
  program_ready m1 M L1 [f] fuel -> program_ready m2 M L2 [f] fuel -> mg_grid m2 = mg_grid m1 -> List.length (id_comps (f_0 f)) = 5%nat -> (List.length M <= 4)%nat ->
  (forall d, In d (ws ++ ps) <-> (d < List.length M)%nat) -> (forall d, In d ws -> ~ In d ps) ->
  field_get L1 (f_0 f) = Some u -> field_get L2 (f_0 f) = Some v -> In d ps -> moved M d s (M ++ comp_box (f_0 f)) u v ->
  let go := run (sod_step true fuel gamma (map Z.of_nat ws) (map Z.of_nat ps) f) dt n in
  exists u' v', ends (go m1) M (f_0 f) u' /\ ends (go m2) M (f_0 f) v' /\ moved M d s (M ++ comp_box (f_0 f)) u' v'.
Proof.
  intros F A gamma M f fuel dt n ws ps d s m1 m2 L1 L2 u v R1 R2 EG N5 N4 Hds Hx Eu Ev Hp HM go.
  assert (Hd : (d < List.length M)%nat) by (apply Hds, in_or_app; now right).
  destruct (C57_sod F A gamma M f fuel dt n ws ps m1 L1 u R1 N5 N4 Hds Hx Eu) as (m1' & L1' & E1 & Z1). destruct (C57_sod F A gamma M f fuel dt n ws ps m2 L2 v R2 N5 N4 Hds Hx Ev) as (m2' & L2' & E2 & Z2).
  rewrite EG in Z2. destruct R1 as (_ & _ & _ & _ & W).
  refine (ends_moved m1 m2 m1' m2' M L1 L2 L1' L2' [f] dt n _ _ d s 0 (f_0 f) _ _ E1 E2 Z1 Z2 eq_refl Hd _ _).
  { destruct (W d) as [_ W']; [apply in_seq; lia|lia]. }
  apply (turn_moved M d s _ 5); [exact Hd|now rewrite N5|].
  refine (rk3_paired _ _ dt _ (fun _ => 5) _ n (fun _ => u) (fun _ => v) _ 0%nat).
  - intros U V HU i. apply fv_turned; auto; [intros e He; apply in_seq in He; lia|]. destruct (in_dec Nat.eq_dec d ps); [reflexivity|contradiction].
  - intros i. apply moved_turn; auto. now rewrite N5.
Qed.
Print Assumptions C76_sod.

(** gem_challenge: both fluids and the field together, along the second
    dimension. *)
Theorem C76_gem : forall F (A : Arith F) p mx my e i f fuel dt n s (m1 m2 : mgr F) L1 L2 u1 v1 w1 u2 v2 w2, let M := [mx; my] in
  program_ready m1 M L1 [e; i; f] fuel -> program_ready m2 M L2 [e; i; f] fuel -> mg_grid m2 = mg_grid m1 ->
  List.length (id_comps (f_0 e)) = 5%nat -> List.length (id_comps (f_0 i)) = 5%nat -> List.length (id_comps (f_0 f)) = 6%nat ->
  bs_points (id_basis (f_0 e)) = bs_points (id_basis (f_0 f)) -> bs_points (id_basis (f_0 i)) = bs_points (id_basis (f_0 f)) -> List.length (pl_ms p) = 2%nat ->
  field_get L1 (f_0 e) = Some u1 -> field_get L1 (f_0 i) = Some v1 -> field_get L1 (f_0 f) = Some w1 ->
  field_get L2 (f_0 e) = Some u2 -> field_get L2 (f_0 i) = Some v2 -> field_get L2 (f_0 f) = Some w2 ->
  moved M 1 s (M ++ comp_box (f_0 e)) u1 u2 -> moved M 1 s (M ++ comp_box (f_0 i)) v1 v2 -> moved M 1 s (M ++ comp_box (f_0 f)) w1 w2 ->
  let go := run (plasma_step true fuel p (gem_bcs e i f) e i f) dt n in
  forall k, In k [f_0 e; f_0 i; f_0 f] -> exists a b, ends (go m1) M k a /\ ends (go m2) M k b /\ moved M 1 s (M ++ comp_box k) a b.
Proof.
  intros F A p mx my e i f fuel dt n s m1 m2 L1 L2 u1 v1 w1 u2 v2 w2 M R1 R2 EG Ne Ni Nf Pe Pi Hms Eu1 Ev1 Ew1 Eu2 Ev2 Ew2 Hu Hv Hw go k Hk.
  destruct (C57_gem F A p mx my e i f fuel dt n m1 L1 u1 v1 w1 R1 Ne Ni Nf Pe Pi Hms Eu1 Ev1 Ew1) as (m1' & L1' & E1 & Z1).
  destruct (C57_gem F A p mx my e i f fuel dt n m2 L2 u2 v2 w2 R2 Ne Ni Nf Pe Pi Hms Eu2 Ev2 Ew2) as (m2' & L2' & E2 & Z2).
  rewrite EG in Z2. fold M in Z1, Z2. destruct R1 as (_ & _ & _ & _ & W). assert (Hd : (1 < List.length M)%nat) by (cbn; lia).
  assert (T : sys_paired (turn M [(0, bs_points (id_basis (f_0 f)))] 1 s) sizes
    (Nat.iter n (rk3 (plasma_op p (flux_of (euler_flux (pl_gamma p))) (flux_of (maxwell_flux (pl_c p))) M gem_kinds (spacing (mg_grid m1)) [0; 1]%nat [0; 1]%nat) dt) (three u1 v1 w1))
    (Nat.iter n (rk3 (plasma_op p (flux_of (euler_flux (pl_gamma p))) (flux_of (maxwell_flux (pl_c p))) M gem_kinds (spacing (mg_grid m1)) [0; 1]%nat [0; 1]%nat) dt) (three u2 v2 w2))).
  { apply rk3_paired.
    - intros U V HU. apply plasma_paired; [| |exact HU]; intros; apply fv_turned; auto; intros q Hq; cbn in Hq |- *; lia.
    - intros [|[|q]]; cbn [sizes three].
      + rewrite <- Pe. apply moved_turn; auto. now rewrite Ne.
      + rewrite <- Pi. apply moved_turn; auto. now rewrite Ni.
      + apply moved_turn; auto. now rewrite Nf. }
  assert (Hw1 : lo M 1 < hi M 1) by (destruct (W 1%nat) as [_ W']; [apply in_seq; cbn; lia|lia]).
  destruct Hk as [<-|[<-|[<-|[]]]].
  - refine (ends_moved m1 m2 m1' m2' M L1 L2 L1' L2' [e; i; f] dt n _ _ 1%nat s 0 _ _ _ E1 E2 Z1 Z2 eq_refl Hd Hw1 _).
    apply (turn_moved M 1 s _ 5); [exact Hd|now rewrite Ne|]. rewrite Pe. exact (T 0%nat).
  - refine (ends_moved m1 m2 m1' m2' M L1 L2 L1' L2' [e; i; f] dt n _ _ 1%nat s 1 _ _ _ E1 E2 Z1 Z2 eq_refl Hd Hw1 _).
    apply (turn_moved M 1 s _ 5); [exact Hd|now rewrite Ni|]. rewrite Pi. exact (T 1%nat).
  - refine (ends_moved m1 m2 m1' m2' M L1 L2 L1' L2' [e; i; f] dt n _ _ 1%nat s 2 _ _ _ E1 E2 Z1 Z2 eq_refl Hd Hw1 _).
    apply (turn_moved M 1 s _ 6); [exact Hd|now rewrite Nf|]. exact (T 2%nat).
Qed.
Print Assumptions C76_gem.

(** ** rows that are equal stay equal *)

Section Rows.
Context {F : Type} {A : Arith F}.
(** Two cells that differ in coordinate [d] are a shift apart. *)
Lemma apart : forall M P d x a, (d < List.length M)%nat -> in_box (M ++ P) x -> lo M d <= a < hi M d -> upd x d a = around M d (a - nth d x 0) x.
Proof. intros M P d x a Hd Hx Ha. unfold around. f_equal. rewrite Z.mod_small by lia. lia. Qed.
Lemma rows_equal : forall M P d n u x a j, (d < List.length M)%nat -> (forall s, paired (turn M P d s) n u u) -> in_box (M ++ P) x -> lo M d <= a < hi M d -> 0 <= j < n ->
  u (upd x d a ++ [j]) = u (x ++ [j]) :> F.
Proof. intros M P d n u x a j Hd H Hx Ha Hj. rewrite (apart M P d x a Hd Hx Ha). symmetry. apply (H (a - nth d x 0)); [now split|exact Hj]. Qed.
End Rows.

(** sod_shock_tube: in each of the 101 files and for each of the five components the
    first 500 numbers (y = -0.25) are the last 500 (y = 0.25), bit for bit. *)
Theorem C76_sod_rows : forall F (A : Arith F) fuel dir, enough fuel -> all_files (fun opens => sod_shock_tube true fuel opens dir) dir 101 (fun f =>
  forall c, In c ["rho"; "px"; "py"; "pz"; "e"]%string -> exists l, List.length l = 500%nat /\ column "fluid" c f = l ++ l).
Proof.
  intros F A fuel dir HU. destruct (C74_sod F A fuel dir HU) as (u & Hu & S). apply (saved_all _ _ _ _ _ _ S). intros k. clear S. unfold movie.
  match goal with |- context [Nat.iter (5 * k) ?f ?v] => set (U := Nat.iter (5 * k) f v) end.
  assert (T : forall s, paired (turn sod_mesh [(0, 1)] 1 s) 5 (U 0%nat) (U 0%nat)).
  { intros s. refine (rk3_paired _ _ _ _ (fun _ => 5) _ (5 * k) (fun _ => u) (fun _ => u) _ 0%nat).
    - intros V W HV i. apply fv_turned; [cbn; lia|exact (proj1 (proj2 (proj2 (proj2 (sod_setting F A fuel HU)))))|intros e He; cbn in He |- *; lia|reflexivity|apply HV; exact 0%nat].
    - intros _ x y j [Hx ->] Hj. rewrite (Hu x j) by (try exact Hx; exact Hj). rewrite (Hu _ j); [|apply (around_in_box sod_mesh); [cbn; lia|reflexivity|exact Hx]|exact Hj].
      unfold center. now rewrite around_other by discriminate. }
  assert (R : forall j, 0 <= j < 5 -> exists l, List.length l = 500%nat /\ vtk_values sod_mesh (U 0%nat) j = l ++ l).
  { intros j Hj. exists (map (fun c => U 0%nat (rev (0 :: c) ++ [0; j])) (cells [(0, 500)])). split; [rewrite map_length; reflexivity|].
    transitivity (map (fun c => U 0%nat (rev c ++ [0; j])) (map (cons 0) (cells [(0, 500)]) ++ map (cons 1) (cells [(0, 500)]))); [reflexivity|].
    rewrite map_app, !map_map. f_equal. apply map_ext_in. intros c Hc. apply in_cells in Hc. inversion Hc as [|? t ? r Ht Hr]; subst. inversion Hr; subst.
    apply (rows_equal sod_mesh [(0, 1)] 1 5 (U 0%nat) [t; 0; 0] 1 j); [cbn; lia|exact T| |unfold lo, hi; cbn; lia|exact Hj].
    repeat (constructor; [cbn in Ht |- *; lia|]). constructor. }
  intros c Hc.
  assert (HC : exists j, 0 <= j < 5 /\ find (fun jc => String.eqb (snd jc) c) (numbered (fluid_id "fluid")) = Some (j, c)).
  { cbn in Hc. repeat destruct Hc as [<-|Hc]; [exists 0|exists 1|exists 2|exists 3|exists 4|destruct Hc]; (split; [lia|reflexivity]). }
  destruct HC as (j & Hj & HC). destruct (R j Hj) as (l & L & E). exists l. split; [exact L|].
  rewrite <- E. refine (C75_column F sod_mesh _ _ _ (fluid_id "fluid") _ c j _ _ HC); [repeat constructor|reflexivity].
Qed.
Print Assumptions C76_sod_rows.

(** wave_1D: in each of the 101 files and for each of the six components every four
    numbers of a plane of constant z are the same, bit for bit: the file has 128
    different numbers at most. *)
Theorem C76_wave_planes : forall F (A : Arith F) fuel dir, enough fuel -> all_files (fun opens => wave_1D true fuel opens dir) dir 101 (fun f =>
  forall c, In c ["Ex"; "Ey"; "Ez"; "Bx"; "By"; "Bz"]%string -> exists l, List.length l = 128%nat /\ column "field" c f = flat_map (fun a => [a; a; a; a]) l).
Proof.
  intros F A fuel dir HU. destruct (C74_wave F A fuel dir HU) as (u & Hu & S). apply (saved_all _ _ _ _ _ _ S). intros k. clear S. unfold movie.
  match goal with |- context [Nat.iter (10 * k) ?f ?v] => set (U := Nat.iter (10 * k) f v) end.
  assert (T : forall d s, (d < 2)%nat -> paired (turn wave_mesh [(0, 1)] d s) 6 (U 0%nat) (U 0%nat)).
  { intros d s Hd. refine (rk3_paired _ _ _ _ (fun _ => 6) _ (10 * k) (fun _ => u) (fun _ => u) _ 0%nat).
    - intros V W HV i. apply fv_turned; [cbn; lia|exact (proj1 (proj2 (proj2 (proj2 (wave_setting F A fuel HU)))))|intros e He; cbn in He |- *; lia|reflexivity|apply HV; exact 0%nat].
    - intros _ x y j [Hx ->] Hj. rewrite (Hu x j) by (try exact Hx; exact Hj).
      rewrite (Hu _ j); [|apply (around_in_box wave_mesh); [cbn; lia|destruct d as [|[|d]]; [reflexivity|reflexivity|lia]|exact Hx]|exact Hj].
      unfold center. now rewrite around_other by lia. }
  assert (R : forall j, 0 <= j < 6 -> exists l, List.length l = 128%nat /\ vtk_values wave_mesh (U 0%nat) j = flat_map (fun a => [a; a; a; a]) l).
  { intros j Hj. exists (map (fun t => U 0%nat ([0; 0; t] ++ [0; j])) (zrange 0 128)). split; [rewrite map_length; reflexivity|].
    transitivity (map (fun c => U 0%nat (rev c ++ [0; j])) (flat_map (fun t => [[t; 0; 0]; [t; 0; 1]; [t; 1; 0]; [t; 1; 1]]) (zrange 0 128))); [reflexivity|].
    assert (Z : forall t, In t (zrange 0 128) -> 0 <= t < 128) by (intros; now apply in_zrange). induction (zrange 0 128) as [|t ts IH]; [reflexivity|].
    cbn [flat_map map app]. assert (Ht := Z t (or_introl eq_refl)).
    assert (B : forall a b, 0 <= a < 2 -> 0 <= b < 2 -> U 0%nat ([a; b; t] ++ [0; j]) = U 0%nat ([0; 0; t] ++ [0; j])).
    { intros a b Ha Hb.
      transitivity (U 0%nat ([0; b; t] ++ [0; j])).
      - apply (rows_equal wave_mesh [(0, 1)] 0 6 (U 0%nat) [0; b; t; 0] a j); [cbn; lia|intros; apply T; lia| |unfold lo, hi; cbn; lia|exact Hj]. repeat (constructor; [cbn; lia|]). constructor.
      - apply (rows_equal wave_mesh [(0, 1)] 1 6 (U 0%nat) [0; 0; t; 0] b j); [cbn; lia|intros; apply T; lia| |unfold lo, hi; cbn; lia|exact Hj]. repeat (constructor; [cbn; lia|]). constructor. }
    cbn [rev app] in *. rewrite (B 1 0), (B 0 1), (B 1 1) by lia. do 4 f_equal. apply IH. intros q Hq. apply Z. now right. }
  intros c Hc.
  assert (HC : exists j, 0 <= j < 6 /\ find (fun jc => String.eqb (snd jc) c) (numbered (em_id "field")) = Some (j, c)).
  { cbn in Hc. repeat destruct Hc as [<-|Hc]; [exists 0|exists 1|exists 2|exists 3|exists 4|exists 5|destruct Hc]; (split; [lia|reflexivity]). }
  destruct HC as (j & Hj & HC). destruct (R j Hj) as (l & L & E). exists l. split; [exact L|].
  rewrite <- E. refine (C75_column F wave_mesh _ _ _ (em_id "field") _ c j _ _ HC); [repeat constructor|reflexivity].
Qed.
Print Assumptions C76_wave_planes.

(** ** a dimension along which nothing changes *)

Lemma drop_mid : forall (a : list Z) b q, drop (List.length a) (a ++ b :: q) = a ++ q.
Proof.
  intros a b q. unfold drop. rewrite firstn_app, firstn_all, Nat.sub_diag. cbn [firstn]. rewrite app_nil_r. f_equal.
  replace (S (List.length a)) with (List.length (a ++ [b])) by (rewrite app_length; cbn; lia). replace (a ++ b :: q) with ((a ++ [b]) ++ q) by (now rewrite <- app_assoc).
  rewrite skipn_app, skipn_all, Nat.sub_diag. reflexivity.
Qed.
Lemma split_cell : forall M iv (P : box) x, in_box ((M ++ [iv]) ++ P) x <-> exists a b q, x = a ++ b :: q /\ in_box M a /\ fst iv <= b < snd iv /\ in_box P q.
Proof.
  intros M iv P x. rewrite <- app_assoc. split.
  - intros H. apply Forall2_app_inv_l in H as (a & bq & Ha & Hbq & ->). cbn [app] in Hbq. inversion Hbq as [|? b ? q Hb Hq]; subst. exists a, b, q. auto.
  - intros (a & b & q & -> & Ha & Hb & Hq). apply Forall2_app; [exact Ha|]. cbn [app]. constructor; assumption.
Qed.
Lemma lifted_left_out : forall M iv k n (u v : field R), n = Z.of_nat (List.length (id_comps k)) -> lifted (List.length M) ((M ++ [iv]) ++ comp_box k) u v ->
  paired (leave_out M iv [(0, bs_points (id_basis k))]) n u v.
Proof.
  intros M iv k n u v -> H x y j (a & b & q & -> & -> & Ha & Hb & Hq) Hj. rewrite H.
  - rewrite <- (in_box_length _ _ Ha), <- !app_assoc. cbn [app]. now rewrite drop_mid.
  - apply cell_join; [|exact Hj]. apply split_cell. exists a, b, q. auto.
Qed.
Lemma left_out_lifted : forall M iv k n (u v : field R), n = Z.of_nat (List.length (id_comps k)) -> paired (leave_out M iv [(0, bs_points (id_basis k))]) n u v ->
  lifted (List.length M) ((M ++ [iv]) ++ comp_box k) u v.
Proof.
  intros M iv k n u v -> H c Hc. destruct (cell_split _ k c Hc) as (E & Hx & Hj). apply split_cell in Hx as (a & b & q & Ex & Ha & Hb & Hq). rewrite E, Ex.
  rewrite (H _ (a ++ q)); [|exists a, b, q; auto|exact Hj]. rewrite <- (in_box_length _ _ Ha), <- !app_assoc. cbn [app]. now rewrite drop_mid.
Qed.
Lemma ends_lifted : forall (m1 m2 m1' m2' : mgr R) M iv L1 L2 L1' L2' fams dt n U V i k o1 o2, let d := List.length M in
  o1 = Done m1' -> o2 = Done m2' -> ran m1 m1' (M ++ [iv]) L1 L1' fams dt n V -> ran m2 m2' M L2 L2' fams dt n U -> nth_error (map f_0 fams) i = Some k ->
  lifted d ((M ++ [iv]) ++ comp_box k) (U i) (V i) ->
  exists u v, ends o1 (M ++ [iv]) k v /\ ends o2 M k u /\ lifted d ((M ++ [iv]) ++ comp_box k) u v.
Proof.
  intros m1 m2 m1' m2' M iv L1 L2 L1' L2' fams dt n U V i k o1 o2 d -> -> ((H1 & _) & _ & _ & _ & S1 & _) ((H2 & _) & _ & _ & _ & S2 & _) E HM.
  destruct (S1 i k E) as (v & Ev & Hv). destruct (S2 i k E) as (u & Eu & Hu). exists u, v. split; [exists m1', L1'; auto|]. split; [exists m2', L2'; auto|].
  intros c Hc. rewrite Hv by exact Hc. rewrite HM by exact Hc. symmetry. apply Hu. apply split_cell in Hc as (a & b & q & -> & Ha & Hb & Hq).
  unfold d. rewrite <- (in_box_length _ _ Ha), drop_mid. now apply Forall2_app.
Qed.

(** In exact arithmetic, where the data do not depend on the last coordinate and that
    dimension is periodic, the sod_shock_tube program computes what it would compute
    without that dimension. *)
Theorem C76_sod_flat : forall gamma M iv f fuel dt n ws ps (m m' : mgr R) L L' u v, let d := List.length M in let k := f_0 f in
  program_ready m (M ++ [iv]) L [f] fuel -> program_ready m' M L' [f] fuel -> (forall e, (e < d)%nat -> spacing (mg_grid m) e = spacing (mg_grid m') e) ->
  List.length (id_comps k) = 5%nat -> (S d <= 4)%nat -> (forall e, In e (ws ++ ps) <-> (e < d)%nat) -> (forall e, In e ws -> ~ In e ps) ->
  field_get L k = Some v -> field_get L' k = Some u -> lifted d ((M ++ [iv]) ++ comp_box k) u v ->
  exists u' v', ends (run (sod_step true fuel gamma (map Z.of_nat ws) (map Z.of_nat (ps ++ [d])) f) dt n m) (M ++ [iv]) k v' /\
    ends (run (sod_step true fuel gamma (map Z.of_nat ws) (map Z.of_nat ps) f) dt n m') M k u' /\ lifted d ((M ++ [iv]) ++ comp_box k) u' v'.
Proof.
  intros gamma M iv f fuel dt n ws ps m m' L L' u v d k R1 R2 ED N5 N4 Hds Hx Ev Eu HL.
  assert (LM : List.length (M ++ [iv]) = S d) by (rewrite app_length; cbn; unfold d; lia).
  assert (Nd : ~ In d ws) by (intros H; assert (d < d)%nat by (apply Hds, in_or_app; now left); lia).
  destruct (C57_sod R RArith gamma (M ++ [iv]) f fuel dt n ws (ps ++ [d]) m L v R1 N5) as (m1 & L1 & E1 & Z1); auto.
  { rewrite LM. exact N4. }
  { intros e. rewrite LM, app_assoc, in_app_iff, Hds. cbn [In]. lia. }
  { intros e He H. apply in_app_or in H as [H|[<-|[]]]; [now apply (Hx e)|contradiction]. }
  destruct (C57_sod R RArith gamma M f fuel dt n ws ps m' L' u R2 N5 ltac:(unfold d in N4; lia) Hds Hx Eu) as (m2 & L2 & E2 & Z2).
  refine (ends_lifted m m' m1 m2 M iv L L' L1 L2 [f] dt n _ _ 0 k _ _ E1 E2 Z1 Z2 eq_refl _).
  apply (left_out_lifted M iv k 5); [now rewrite N5|].
  refine (rk3_paired _ _ dt _ (fun _ => 5) _ n (fun _ => u) (fun _ => v) _ 0%nat).
  - intros U V HU i. rewrite LM. apply fv_left_out; [| |intros e He; split; [now apply ED|]|apply HU; exact 0%nat].
    + destruct R1 as (_ & _ & _ & _ & W). rewrite LM in W. exact W.
    + destruct (in_dec Nat.eq_dec (List.length M) (ps ++ [d])) as [|H]; [reflexivity|]. destruct H. apply in_or_app. right. now left.
    + destruct (in_dec Nat.eq_dec e (ps ++ [d])) as [H|H], (in_dec Nat.eq_dec e ps) as [H'|H']; auto.
      * apply in_app_or in H as [H|[<-|[]]]; [contradiction|]. unfold d in He. lia.
      * destruct H. apply in_or_app. now left.
  - intros i. apply (lifted_left_out M iv k 5); [now rewrite N5|exact HL].
Qed.
Print Assumptions C76_sod_flat.

(** The same for the two-fluid programs: gem_challenge on data that do not depend on
    y is the one-dimensional program of harris_current_sheet. *)
Theorem C76_gem_flat : forall p mx my e i f fuel dt n (m m' : mgr R) L L' u v w u1 v1 w1, let M := [mx; my] in
  program_ready m M L [e; i; f] fuel -> program_ready m' [mx] L' [e; i; f] fuel -> spacing (mg_grid m) 0 = spacing (mg_grid m') 0 ->
  List.length (id_comps (f_0 e)) = 5%nat -> List.length (id_comps (f_0 i)) = 5%nat -> List.length (id_comps (f_0 f)) = 6%nat ->
  bs_points (id_basis (f_0 e)) = bs_points (id_basis (f_0 f)) -> bs_points (id_basis (f_0 i)) = bs_points (id_basis (f_0 f)) -> List.length (pl_ms p) = 2%nat ->
  field_get L (f_0 e) = Some u -> field_get L (f_0 i) = Some v -> field_get L (f_0 f) = Some w ->
  field_get L' (f_0 e) = Some u1 -> field_get L' (f_0 i) = Some v1 -> field_get L' (f_0 f) = Some w1 ->
  lifted 1 (M ++ comp_box (f_0 e)) u1 u -> lifted 1 (M ++ comp_box (f_0 i)) v1 v -> lifted 1 (M ++ comp_box (f_0 f)) w1 w ->
  forall k, In k [f_0 e; f_0 i; f_0 f] ->
  exists a b, ends (run (plasma_step true fuel p (gem_bcs e i f) e i f) dt n m) M k b /\
    ends (run (plasma_step true fuel p (brio_wu_bcs e i f) e i f) dt n m') [mx] k a /\ lifted 1 (M ++ comp_box k) a b.
Proof.
  intros p mx my e i f fuel dt n m m' L L' u v w u1 v1 w1 M R1 R2 ED Ne Ni Nf Pe Pi Hms Eu Ev Ew Eu1 Ev1 Ew1 Hu Hv Hw k Hk.
  destruct (C57_gem R RArith p mx my e i f fuel dt n m L u v w R1 Ne Ni Nf Pe Pi Hms Eu Ev Ew) as (m1 & L1 & E1 & Z1).
  destruct (C57_brio_wu R RArith p mx e i f fuel dt n m' L' u1 v1 w1 R2 Ne Ni Nf Pe Pi Hms Eu1 Ev1 Ew1) as (m2 & L2 & E2 & Z2).
  change M with ([mx] ++ [my]) in *. change 1%nat with (List.length [mx]).
  assert (T : sys_paired (leave_out [mx] my [(0, bs_points (id_basis (f_0 f)))]) sizes
    (Nat.iter n (rk3 (plasma_op p (flux_of (euler_flux (pl_gamma p))) (flux_of (maxwell_flux (pl_c p))) [mx] wall_kinds (spacing (mg_grid m')) [0]%nat [0]%nat) dt) (three u1 v1 w1))
    (Nat.iter n (rk3 (plasma_op p (flux_of (euler_flux (pl_gamma p))) (flux_of (maxwell_flux (pl_c p))) [mx; my] gem_kinds (spacing (mg_grid m)) [0; 1]%nat [0; 1]%nat) dt) (three u v w))).
  { apply rk3_paired.
    - intros U V HU. destruct R1 as (_ & _ & _ & _ & W).
      assert (X : forall e', (e' < 1)%nat -> forall q, spacing (mg_grid m) e' = spacing (mg_grid m') e' /\ gem_kinds q e' = wall_kinds q e') by (intros [|e'] He' q; [split; [exact ED|destruct q as [|[|[|q]]]; reflexivity]|lia]).
      apply plasma_paired; [| |exact HU].
      + intros q a b Hab. apply (fv_left_out 5 _ [mx] my _ (gem_kinds q) (wall_kinds q)); auto.
      + intros a b Hab. apply (fv_left_out 6 _ [mx] my _ (gem_kinds 2) (wall_kinds 2)); auto.
    - intros [|[|q]]; cbn [sizes three].
      + rewrite <- Pe. apply lifted_left_out; [now rewrite Ne|exact Hu].
      + rewrite <- Pi. apply lifted_left_out; [now rewrite Ni|exact Hv].
      + apply lifted_left_out; [now rewrite Nf|exact Hw]. }
  destruct Hk as [<-|[<-|[<-|[]]]].
  - refine (ends_lifted m m' m1 m2 [mx] my L L' L1 L2 [e; i; f] dt n _ _ 0 _ _ _ E1 E2 Z1 Z2 eq_refl _).
    apply (left_out_lifted [mx] my _ 5); [now rewrite Ne|]. rewrite Pe. exact (T 0%nat).
  - refine (ends_lifted m m' m1 m2 [mx] my L L' L1 L2 [e; i; f] dt n _ _ 1 _ _ _ E1 E2 Z1 Z2 eq_refl _).
    apply (left_out_lifted [mx] my _ 5); [now rewrite Ni|]. rewrite Pi. exact (T 1%nat).
  - refine (ends_lifted m m' m1 m2 [mx] my L L' L1 L2 [e; i; f] dt n _ _ 2 _ _ _ E1 E2 Z1 Z2 eq_refl _).
    apply (left_out_lifted [mx] my _ 6); [now rewrite Nf|]. exact (T 2%nat).
Qed.
Print Assumptions C76_gem_flat.

(** sod_shock_tube with one dimension less: the same constants on 500 cells. *)
Definition sod_line_mesh : box := [(0, 500)].
Definition sod_line_grid {F} {A : Arith F} : grid F := grid_on sod_line_mesh [(- fdec 5 (-1))%F] [f1].
Definition sod_line {F} {A : Arith F} (fuel : nat) (opens : string -> bool) (dir : string) : out (list (string * stream F)) :=
  simulate fuel opens dir [fluid_id "fluid"] (shock_tube_solve fuel (fdec 125 (-3)) (fdec 1 (-1)) (fdec 14 (-1)) [fluid_id "fluid"])
    (sod_step true fuel (fdec 14 (-1)) [0] [] sod_fluid) (fdec 5 (-1) / fofz 500)%F 100 5 sod_line_grid.
Lemma sod_line_setting : forall F (A : Arith F) fuel, enough fuel -> setting (@sod_line_grid F A) sod_line_mesh [sod_fluid] fuel.
Proof. intros F A fuel HU. has_setting HU. Qed.
Lemma sod_line_saves : forall F (A : Arith F) fuel dir, enough fuel ->
  let gamma := fdec 14 (-1) in let dt := (fdec 5 (-1) / fofz 500)%F in
  exists (u : field F) o h,
    values_in sod_line_mesh (fluid_id "fluid") u (fun x => blast (center sod_line_grid x 0 <? f0)%F (fdec 125 (-3)) (fdec 1 (-1)) gamma) /\
    saves (fun opens => sod_line fuel opens dir) dir
      (movie sod_line_mesh o h [fluid_id "fluid"]
        (fun n => Nat.iter n (rk3 (fun V _ => fv_rhs 5 (flux_of (euler_flux gamma)) sod_line_mesh (fun _ => NoSlip) (spacing sod_line_grid) [0]%nat (V 0%nat)) dt) (fun _ => u)) 5) 101.
Proof.
  intros F A fuel dir HU gamma dt. pose proof (sod_line_setting F A fuel HU) as HS.
  destruct (C54_shock_tube F A (mgr_new sod_line_grid) sod_line_mesh [] [f_0 sod_fluid] fuel (fdec 125 (-3)) (fdec 1 (-1)) gamma) as (m1 & L1 & E1 & D).
  { apply (start_ready F A sod_line_grid sod_line_mesh [sod_fluid] fuel 5 HS). constructor; [cbn; lia|constructor]. }
  { cbn; lia. }
  destruct (done_ready F A sod_line_grid sod_line_mesh [sod_fluid] fuel m1 L1 _ HS D) as [PR EG]. destruct D as (_ & _ & _ & _ & _ & D). destruct (D (f_0 sod_fluid) (or_introl eq_refl)) as (u & Eu & Hu & _).
  exists u. eexists. eexists. split; [exact Hu|].
  refine (program_saves F A fuel dir sod_line_mesh [sod_fluid] sod_line_grid _ (shock_tube_solve fuel (fdec 125 (-3)) (fdec 1 (-1)) gamma [f_0 sod_fluid]) (sod_step true fuel gamma [0] [] sod_fluid) dt 100 5 m1 L1 _ _ _ _ _ _ E1 PR EG _ _).
  - unfold enough in HU. lia.
  - discriminate.
  - repeat constructor.
  - cbn; lia.
  - split; [|split]; reflexivity.
  - lia.
  - intros [|i] k E; [|destruct i; discriminate]. injection E as <-. exists u. auto.
  - intros n. pose proof (C57_sod F A gamma sod_line_mesh sod_fluid fuel dt n [0%nat] [] m1 L1 u PR eq_refl ltac:(cbn; lia)) as X.
    destruct X as (m' & L' & E & Z); auto.
    + intros d. cbn. lia.
    + exists m', L'. split; [exact E|]. rewrite EG in Z. exact Z.
Qed.
(** In exact arithmetic sod_shock_tube is a one-dimensional shock tube: all its files
    show twice the numbers of the one-dimensional program. *)
Theorem C76_sod_line : forall fuel dir opens, enough fuel -> (forall k, (k < 101)%nat -> opens (frame dir k) = true) ->
  exists fs gs : list (string * stream R), sod_shock_tube true fuel opens dir = Done fs /\ sod_line fuel opens dir = Done gs /\ List.length fs = 101%nat /\
    Forall2 (fun f g => forall c, In c ["rho"; "px"; "py"; "pz"; "e"]%string -> column "fluid" c (snd f) = column "fluid" c (snd g) ++ column "fluid" c (snd g)) fs gs.
Proof.
  intros fuel dir opens HU HO. destruct (C74_sod R RArith fuel dir HU) as (v & Hv & S). destruct (sod_line_saves R RArith fuel dir HU) as (u & o & h & Hu & S').
  destruct (S opens) as [S1 _]. destruct (S' opens) as [S2 _]. specialize (S1 HO). specialize (S2 HO). eexists. eexists. split; [exact S1|]. split; [exact S2|]. clear S S' S1 S2.
  split; [now apply C74_names|].
  unfold saved. generalize (seq 0 101). induction l as [|k l IH]; [constructor|]. cbn [map]. constructor; [|exact IH]. clear IH. cbn [snd]. unfold movie.
  match goal with |- context [vtk_file sod_mesh _ _ (fields_of _ (Nat.iter (5 * k) ?f ?v))] => set (V := Nat.iter (5 * k) f v) end.
  match goal with |- context [vtk_file sod_line_mesh _ _ (fields_of _ (Nat.iter (5 * k) ?f ?v))] => set (U := Nat.iter (5 * k) f v) end.
  assert (T : paired (leave_out sod_line_mesh (0, 2) [(0, 1)]) 5 (U 0%nat) (V 0%nat)).
  { refine (rk3_paired _ _ _ _ (fun _ => 5) _ (5 * k) (fun _ => u) (fun _ => v) _ 0%nat).
    - intros V1 V2 HV i. apply (fv_left_out 5 _ sod_line_mesh (0, 2) _ (fun d => match d with O => NoSlip | _ => Periodic end) (fun _ => NoSlip)).
      + exact (proj1 (proj2 (proj2 (proj2 (sod_setting R RArith fuel HU))))).
      + reflexivity.
      + intros [|e] He; [split; reflexivity|cbn in He; lia].
      + exact (HV 0%nat).
    - intros _ x y j Hxy Hj. destruct Hxy as (a & b & q & -> & -> & Ha & Hb & Hq). inversion Ha as [|? t ? r Ht Hr]; subst. inversion Hr; subst. inversion Hq as [|? z ? r' Hz Hr']; subst. inversion Hr'; subst.
      rewrite (Hv _ j); [|repeat (constructor; [cbn in *; lia|]); constructor|exact Hj]. rewrite (Hu _ j); [|repeat (constructor; [cbn in *; lia|]); constructor|exact Hj]. reflexivity. }
  intros c Hc.
  assert (HC : exists j, 0 <= j < 5 /\ find (fun jc => String.eqb (snd jc) c) (numbered (fluid_id "fluid")) = Some (j, c)).
  { cbn in Hc. repeat destruct Hc as [<-|Hc]; [exists 0|exists 1|exists 2|exists 3|exists 4|destruct Hc]; (split; [lia|reflexivity]). }
  destruct HC as (j & Hj & HC).
  assert (C2 : column "fluid" c (vtk_file sod_mesh (- fdec 5 (-1) + f1 / fofz 2, - fdec 5 (-1) + f1 / fofz 2, f0)%F (f1 / fofz 500, f1 / fofz 2, f1 / fofz 500)%F (fields_of [fluid_id "fluid"] V)) = vtk_values sod_mesh (V 0%nat) j).
  { refine (C75_column R sod_mesh _ _ _ (fluid_id "fluid") _ c j _ _ HC); [repeat constructor|reflexivity]. }
  assert (C1 : column "fluid" c (vtk_file sod_line_mesh o h (fields_of [fluid_id "fluid"] U)) = vtk_values sod_line_mesh (U 0%nat) j).
  { refine (C75_column R sod_line_mesh _ _ _ (fluid_id "fluid") _ c j _ _ HC); [repeat constructor|reflexivity]. }
  rewrite C2, C1.
  transitivity (map (fun c => V 0%nat (rev c ++ [0; j])) (map (cons 0) (cells [(0, 500)]) ++ map (cons 1) (cells [(0, 500)]))); [reflexivity|].
  rewrite map_app, !map_map. unfold vtk_values, sod_line_mesh. cbn [rev app].
  f_equal; apply map_ext_in; intros q Hq; apply in_cells in Hq; inversion Hq as [|? t ? r Ht Hr]; subst; inversion Hr; subst; cbn [fst snd] in Ht.
  - apply (T [t; 0; 0] [t; 0]); [|exact Hj]. exists [t], 0, [0]. cbn. repeat split; auto; try lia; repeat (constructor; [cbn; lia|]); constructor.
  - apply (T [t; 1; 0] [t; 0]); [|exact Hj]. exists [t], 1, [0]. cbn. repeat split; auto; try lia; repeat (constructor; [cbn; lia|]); constructor.
Qed.
Print Assumptions C76_sod_line.

(** ** concrete cases *)

(** In doubles: the pulse of C57_pulse_ex and the same moved by one cell.  The values
    of Bz after a step, bit for bit. *)
Definition pulse_moved {F} {A : Arith F} : field F := fun c => pulse (around line 0 1 c).
Definition pulse_start_moved {F} {A : Arith F} : mgr F := mgr_of line_grid line [(f_0 em, pulse_moved)] None None.
Lemma pulse_moved_ready : forall F (A : Arith F), program_ready (@pulse_start_moved F A) line [(f_0 em, pulse_moved)] [em] 999.
Proof. intros. is_ready. Qed.
Definition bz_after (m : mgr spec_float) : list spec_float :=
  map (fun i => nth i (data_after line (f_0 em) (run (pulse_step true 999 (dbl 3) [0] em) (fdec 1 (-1)) 1 m)) f0) [17; 23; 29]%nat.
Example C76_pulse_ex :
  bz_after pulse_start = [S754_finite false 4668453891731069 (-55); S754_finite false 6672972308875931 (-53); S754_finite false 4668453891729175 (-55)] /\
  bz_after pulse_start_moved = [S754_finite false 6672972308875931 (-53); S754_finite false 4668453891729175 (-55); S754_finite false 4668453891731069 (-55)].
Proof. split; vm_compute; reflexivity. Qed.
(** And for any number of steps. *)
Example C76_pulse_all_ex : forall dt n, exists u v, ends (run (pulse_step true 999 (dbl 3) [0] em) dt n pulse_start) line (f_0 em) u /\
  ends (run (pulse_step true 999 (dbl 3) [0] em) dt n pulse_start_moved) line (f_0 em) v /\ v [0; 0; 5] = u [1; 0; 5] /\ v [2; 0; 5] = u [0; 0; 5].
Proof.
  intros dt n. destruct (C76_pulse spec_float _ (dbl 3) line em 999 dt n 0 1 pulse_start pulse_start_moved _ _ pulse pulse_moved (pulse_ready _ _) (pulse_moved_ready _ _)) as (u & v & E1 & E2 & H); try reflexivity; try (cbn; lia).
  { intros c Hc. reflexivity. }
  exists u, v. split; [exact E1|]. split; [exact E2|]. split; apply H; repeat (constructor; [cbn; lia|]); constructor.
Qed.
(** Two by three cells with walls on the left and right: a warm cell moved upwards. *)
Definition warm {F} {A : Arith F} (y : Z) : field F := fun c => if (last c 0 =? 4) && (nth 0 c 0 =? 1) && (nth 1 c 0 =? y) then fofz 2 else if (last c 0 =? 0) || (last c 0 =? 4) then f1 else f0.
Definition warm_start {F} {A : Arith F} (y : Z) : mgr F := mgr_of plane_grid plane [(f_0 electrons, warm y)] None None.
Lemma warm_ready : forall F (A : Arith F) y, program_ready (@warm_start F A y) plane [(f_0 electrons, warm y)] [electrons] 999.
Proof. intros. is_ready. Qed.
Lemma warm_moved : forall F (A : Arith F), moved plane 1 2 (plane ++ comp_box (f_0 electrons)) (@warm F A 0) (warm 1).
Proof.
  intros F A c Hc. repeat match goal with H : in_box _ _ |- _ => inversion H; clear H; subst | H : Forall2 _ _ _ |- _ => inversion H; clear H; subst end. cbn [fst snd] in *.
  unfold around, lo, hi. cbn [plane nth fst snd upd]. assert (y0 = 0 \/ y0 = 1 \/ y0 = 2) as [->|[->| ->]] by lia; reflexivity.
Qed.
Example C76_sod_ex : forall dt n, exists u v, ends (run (sod_step true 999 (fdec 14 (-1)) [0] [1] electrons) dt n (warm_start 0)) plane (f_0 electrons) u /\
  ends (run (sod_step true 999 (fdec 14 (-1)) [0] [1] electrons) dt n (warm_start 1)) plane (f_0 electrons) v /\ v [1; 1; 0; 4] = u [1; 0; 0; 4] :> spec_float /\ v [0; 0; 0; 1] = u [0; 2; 0; 1].
Proof.
  intros dt n. destruct (C76_sod spec_float _ (fdec 14 (-1)) plane electrons 999 dt n [0%nat] [1%nat] 1 2 (warm_start 0) (warm_start 1) _ _ (warm 0) (warm 1) (warm_ready _ _ 0) (warm_ready _ _ 1)) as (u & v & E1 & E2 & H); try reflexivity.
  - cbn; lia.
  - intros d. cbn. lia.
  - intros d [<-|[]] [H|[]]. discriminate.
  - now left.
  - apply warm_moved.
  - exists u, v. split; [exact E1|]. split; [exact E2|]. split; apply H; repeat (constructor; [cbn; lia|]); constructor.
Qed.
(** Two fluids with a warm cell in a uniform field. *)
Example C76_gem_ex : forall dt n, let L y := [(f_0 electrons, warm y); (f_0 ions, @warm spec_float _ y); (f_0 em, fun c => dbl (last c 0))] in
  let go y := run (plasma_step true 999 some_plasma (gem_bcs electrons ions em) electrons ions em) dt n (mgr_of plane_grid plane (L y) None None) in
  exists u v, ends (go 0) plane (f_0 em) u /\ ends (go 1) plane (f_0 em) v /\ v [1; 1; 0; 4] = u [1; 0; 0; 4] :> spec_float.
Proof.
  intros dt n L go. assert (R : forall y, program_ready (mgr_of plane_grid plane (L y) None None) plane (L y) [electrons; ions; em] 999) by (intros; is_ready).
  destruct (C76_gem spec_float _ some_plasma (0, 2) (0, 3) electrons ions em 999 dt n 2 _ _ (L 0) (L 1) (warm 0) (warm 0) (fun c => dbl (last c 0)) (warm 1) (warm 1) (fun c => dbl (last c 0)) (R 0) (R 1)) with (k := f_0 em)
    as (u & v & E1 & E2 & H); try reflexivity; try apply warm_moved.
  - intros c Hc. destruct (cell_split plane (f_0 em) c Hc) as (E & Hx & _). change [(0, 2); (0, 3)] with plane. rewrite E. rewrite around_snoc by (apply in_box_length in Hx; rewrite Hx; cbn; lia). now rewrite !last_last.
  - do 2 right. now left.
  - exists u, v. split; [exact E1|]. split; [exact E2|]. apply H. repeat (constructor; [cbn; lia|]); constructor.
Qed.
(** In doubles the two rows of a small shock tube of four by two cells are the same
    after a step. *)
Definition small_plane : grid spec_float := grid_on (A := FloatArith) [(0, 4); (0, 2)] [(- fdec 5 (-1))%F; (- fdec 5 (-1))%F] [f1; f1].
Example C76_rows_ex : exists a b, simulate (A := FloatArith) 999 (fun _ => true) "d" [fluid_id "fluid"] (shock_tube_solve 999 (fdec 125 (-3)) (fdec 1 (-1)) (fdec 14 (-1)) [fluid_id "fluid"])
    (sod_step true 999 (fdec 14 (-1)) [0] [1] sod_fluid) (fdec 1 (-1)) 1 1 small_plane = Done [("d/frame_0.vtk"%string, a); ("d/frame_1.vtk"%string, b)] /\
  firstn 4 (column "fluid" "px" b) = skipn 4 (column "fluid" "px" b) /\ nth 1 (column "fluid" "px" b) f0 <> f0.
Proof. eexists. eexists. split; [vm_compute; reflexivity|]. split; [reflexivity|]. vm_compute. discriminate. Qed.
(** The last of the 101 files, in doubles. *)
Example C76_sod_rows_ex : exists fs f, sod_shock_tube (A := FloatArith) true (Z.to_nat 1000000) (fun _ => true) "d" = Done fs /\ nth_error fs 100 = Some f /\
  exists l, List.length l = 500%nat /\ column "fluid" "rho" (snd f) = l ++ l.
Proof.
  destruct (C76_sod_rows spec_float FloatArith (Z.to_nat 1000000) "d" plenty (fun _ => true) ltac:(reflexivity)) as (fs & E & EL & H). destruct (nth_error fs 100) as [f|] eqn:N.
  - exists fs, f. split; [exact E|]. split; [exact N|]. apply nth_error_In in N. rewrite Forall_forall in H. apply (H f N). now left.
  - apply nth_error_None in N. exfalso. rewrite EL in N. lia.
Qed.
Example C76_wave_planes_ex : exists fs f, wave_1D (A := FloatArith) true (Z.to_nat 1000000) (fun _ => true) "d" = Done fs /\ nth_error fs 100 = Some f /\
  exists l, List.length l = 128%nat /\ column "field" "Ex" (snd f) = flat_map (fun a => [a; a; a; a]) l.
Proof.
  destruct (C76_wave_planes spec_float FloatArith (Z.to_nat 1000000) "d" plenty (fun _ => true) ltac:(reflexivity)) as (fs & E & EL & H). destruct (nth_error fs 100) as [f|] eqn:N.
  - exists fs, f. split; [exact E|]. split; [exact N|]. apply nth_error_In in N. rewrite Forall_forall in H. apply (H f N). now left.
  - apply nth_error_None in N. exfalso. rewrite EL in N. lia.
Qed.
(** The gas of C57_sod_ex does not depend on y: in exact arithmetic a run with two
    cells does the same. *)
Definition pair_mesh : box := [(0, 2)].
Definition pair_start : mgr R := mgr_of (mkGrid (range_of pair_mesh) [f0] [f1] [f1]) pair_mesh gas_fields None None.
Lemma pair_ready : program_ready pair_start pair_mesh gas_fields [electrons] 999.
Proof. is_ready. Qed.
Lemma gas_lifted : lifted 1 (plane ++ comp_box (f_0 electrons)) (@gas R _) gas.
Proof. intros c Hc. repeat match goal with H : in_box _ _ |- _ => inversion H; clear H; subst | H : Forall2 _ _ _ |- _ => inversion H; clear H; subst end. reflexivity. Qed.
Example C76_sod_flat_ex : forall dt n, exists u v, ends (run (sod_step true 999 (fdec 14 (-1)) [0] [1] electrons) dt n gas_start) plane (f_0 electrons) v /\
  ends (run (sod_step true 999 (fdec 14 (-1)) [0] [] electrons) dt n pair_start) pair_mesh (f_0 electrons) u /\ v [1; 2; 0; 4] = u [1; 0; 4] :> R.
Proof.
  intros dt n. destruct (C76_sod_flat (fdec 14 (-1)) pair_mesh (0, 3) electrons 999 dt n [0%nat] [] gas_start pair_start _ _ gas gas (gas_ready _ _) pair_ready) as (u & v & E1 & E2 & H); try reflexivity.
  - intros [|e] He; [reflexivity|cbn in He; lia].
  - cbn; lia.
  - intros e. cbn. lia.
  - intros e _ [].
  - apply gas_lifted.
  - exists u, v. split; [exact E1|]. split; [exact E2|]. apply (H [1; 2; 0; 4]). repeat (constructor; [cbn; lia|]); constructor.
Qed.
(** Not so in doubles: flux in and flux out along y are the same number, but adding it
    and taking it away again costs the last bits.  Momentum along y and energy. *)
Definition wind : field spec_float := fun c => nth (Z.to_nat (last c 0)) [f1; f0; dbl 10; f0; if nth 0 c 0 =? 1 then dbl 102 else dbl 101] f0.
Example C76_flat_doubles_ex :
  let kinds d := match d with O => NoSlip | _ => Periodic end in let G := flux_of (euler_flux (fdec 14 (-1))) in
  map (fun j => fv_rhs 5 G plane kinds (fun _ => f1) [0; 1]%nat wind [0; 0; 0; j]) [2; 4] = [S754_finite true 7521230486774402 (-47); S754_finite false 6046193739835904 (-51)] /\
  map (fun j => fv_rhs 5 G pair_mesh kinds (fun _ => f1) [0%nat] wind [0; 0; j]) [2; 4] = [S754_finite true 7521230486774403 (-47); S754_finite false 6046193739835659 (-51)].
Proof. split; vm_compute; reflexivity. Qed.
(** The one-dimensional harris program and the plane. *)
Definition one_fields : list (vid * field R) := [(f_0 electrons, gas); (f_0 ions, gas); (f_0 em, pulse)].
Definition pair_plasma : mgr R := mgr_of (mkGrid (range_of pair_mesh) [f0] [f1] [f1]) pair_mesh one_fields None None.
Lemma pair_plasma_ready : program_ready pair_plasma pair_mesh one_fields [electrons; ions; em] 999.
Proof. is_ready. Qed.
Example C76_gem_flat_ex : forall p dt n, List.length (pl_ms p) = 2%nat -> exists a b, ends (run (plasma_step true 999 p (gem_bcs electrons ions em) electrons ions em) dt n plasma_start) plane (f_0 em) b /\
  ends (run (plasma_step true 999 p (brio_wu_bcs electrons ions em) electrons ions em) dt n pair_plasma) pair_mesh (f_0 em) a /\ b [1; 2; 0; 5] = a [1; 0; 5] :> R.
Proof.
  intros p dt n Hp. destruct (C76_gem_flat p (0, 2) (0, 3) electrons ions em 999 dt n plasma_start pair_plasma _ _ gas gas pulse gas gas pulse (plasma_ready _ _) pair_plasma_ready) with (k := f_0 em) as (a & b & E1 & E2 & H); try reflexivity; auto; try apply gas_lifted.
  - intros c Hc. repeat match goal with H : in_box _ _ |- _ => inversion H; clear H; subst | H : Forall2 _ _ _ |- _ => inversion H; clear H; subst end. reflexivity.
  - cbn. auto.
  - exists a, b. split; [exact E1|]. split; [exact E2|]. apply (H [1; 2; 0; 5]). repeat (constructor; [cbn; lia|]); constructor.
Qed.
(** The last file of sod_shock_tube in exact arithmetic: 1000 densities, the 500 of the
    one-dimensional program twice. *)
Example C76_sod_line_ex : exists (fs gs : list (string * stream R)) f g, sod_shock_tube true (Z.to_nat 1000000) (fun _ => true) "d" = Done fs /\ sod_line (Z.to_nat 1000000) (fun _ => true) "d" = Done gs /\
  nth_error fs 100 = Some f /\ nth_error gs 100 = Some g /\ column "fluid" "rho" (snd f) = column "fluid" "rho" (snd g) ++ column "fluid" "rho" (snd g).
Proof.
  destruct (C76_sod_line (Z.to_nat 1000000) "d" (fun _ => true) plenty ltac:(reflexivity)) as (fs & gs & E1 & E2 & EL & H). exists fs, gs.
  assert (X : forall l l' (P : string * stream R -> string * stream R -> Prop) n, Forall2 P l l' -> (n < List.length l)%nat -> exists f g, nth_error l n = Some f /\ nth_error l' n = Some g /\ P f g).
  { clear. intros l l' P n H. revert n. induction H as [|a b l l' HP H IH]; intros n Hn; [cbn in Hn; lia|]. destruct n as [|n]; [exists a, b; auto|]. apply IH. cbn in Hn. lia. }
  destruct (X fs gs _ 100%nat H ltac:(rewrite EL; lia)) as (f & g & N1 & N2 & HP). exists f, g. split; [exact E1|]. split; [exact E2|]. split; [exact N1|]. split; [exact N2|]. apply HP. now left.
Qed.
