(** * Properties of the example programs as a whole (C47, C51, C57 - C60). *)
From Coq Require Import ZArith List String Lia Bool Floats.SpecFloat Reals Lra.
From Verif Require Import Base BaseFacts BoxSpec BoxFacts Range RangeSpec RangeFacts Indexer Interface
  ApiSpec ApiFacts Arith ArithFloat ArithR Chunk FieldSpec FieldFacts ChunkFacts Properties_Chunk VarId Manager MgrSpec MgrFacts Solvers SolverFacts
  BC BCSpec BCFacts Par ParFacts Kernel KernelFacts Integrators IntegratorSpec IntegratorFacts Sweep SweepSpec SweepFacts Euler Maxwell FluxFacts EulerSpec NumFacts
  Sources SourceSpec SourceFacts Advection AdvectionSpec AdvectionFacts Properties_Advection Programs ProgramsSpec ProgramsFacts RhsFacts RunFacts ConserveFacts AdvectRunFacts.
Import ListNotations.
Open Scope Z_scope.

(** ** examples used below *)

Definition fluid_id (s : string) : vid := mkVid s (["rho"; "px"; "py"; "pz"; "e"]%string) volume_average.
Definition em_id (s : string) : vid := mkVid s (["Ex"; "Ey"; "Ez"; "Bx"; "By"; "Bz"]%string) volume_average.
Definition em : family := mkFam (em_id "em_0") (em_id "em_1") (em_id "em_2") (em_id "em_3") (em_id "em_rhs").
Definition electrons : family := mkFam (fluid_id "e_0") (fluid_id "e_1") (fluid_id "e_2") (fluid_id "e_3") (fluid_id "e_rhs").
Definition ions : family := mkFam (fluid_id "i_0") (fluid_id "i_1") (fluid_id "i_2") (fluid_id "i_3") (fluid_id "i_rhs").
(** Three cells, and two by three cells. *)
Definition line : box := [(0, 3)].
Definition plane : box := [(0, 2); (0, 3)].
Definition line_grid {F} {A : Arith F} : grid F := mkGrid (range_of line) [f0] [f1] [f1].
Definition plane_grid {F} {A : Arith F} : grid F := mkGrid (range_of plane) [f0; f0] [f1; f1] [f1; f1].
(** Density 1, energy 1 but 2 where the first index is 1; at rest. *)
Definition gas {F} {A : Arith F} : field F := fun c =>
  if last c 0 =? 0 then f1 else if last c 0 =? 4 then (if nth 0 c 0 =? 1 then fofz 2 else f1) else f0.
(** Bz = 1 where the first index is 1, Ex = Bx = 5. *)
Definition pulse {F} {A : Arith F} : field F := fun c =>
  if (last c 0 =? 0) || (last c 0 =? 3) then fofz 5 else if (last c 0 =? 5) && (nth 0 c 0 =? 1) then f1 else f0.
Definition pulse_fields {F} {A : Arith F} : list (vid * field F) := [(f_0 em, pulse)].
Definition gas_fields {F} {A : Arith F} : list (vid * field F) := [(f_0 electrons, gas)].
Definition plasma_fields {F} {A : Arith F} : list (vid * field F) := [(f_0 electrons, gas); (f_0 ions, gas); (f_0 em, pulse)].

Lemma compat_distinct : forall L ks, NoDup (map id_name ks) -> incl L ks -> compatible (L ++ ks).
Proof.
  intros L ks N I a b Ha Hb E. assert (Ha' : In a ks) by (apply in_app_or in Ha as [|]; auto). assert (Hb' : In b ks) by (apply in_app_or in Hb as [|]; auto).
  clear Ha Hb I. induction ks as [|x ks IH]; [destruct Ha'|]. cbn in N. inversion N as [|? ? N1 N2]; subst.
  destruct Ha' as [<-|Ha], Hb' as [<-|Hb]; auto; exfalso; apply N1; [rewrite E|rewrite <- E]; now apply in_map.
Qed.

Ltac names_differ := once (cbn; repeat (constructor; [cbn; intuition discriminate|]); constructor).
Ltac is_ready := unfold program_ready;
  split; [split; [names_differ|repeat (constructor; [split; [repeat (constructor; [reflexivity|]); constructor|apply shapeb_ok; vm_compute; reflexivity]|]); constructor]|
  split; [split; [apply mgr_holds_iff; [split; [names_differ|repeat (constructor; [apply shapeb_ok; vm_compute; reflexivity|]); constructor]|split; reflexivity]|
    split; [split; [names_differ|repeat (constructor; [apply shapeb_ok; vm_compute; reflexivity|]); constructor]|
      apply compat_distinct; [names_differ|intros x Hx; cbn in Hx |- *; intuition]]]|
  split; [repeat (constructor; [split; [apply shapeb_ok; vm_compute; reflexivity|vm_compute; discriminate]|]); constructor|
  split; [unfold spaced; cbn; lia|intros d Hd; cbn in Hd |- *; repeat destruct Hd as [<-|Hd]; [cbn; unfold hi, lo; cbn; lia..|destruct Hd]]]]].

Definition pulse_start {F} {A : Arith F} : mgr F := mgr_of line_grid line pulse_fields None None.
Definition gas_start {F} {A : Arith F} : mgr F := mgr_of plane_grid plane gas_fields None None.
Definition plasma_start {F} {A : Arith F} : mgr F := mgr_of plane_grid plane plasma_fields None None.
Definition plasma_line {F} {A : Arith F} : mgr F := mgr_of line_grid line plasma_fields None None.
Lemma pulse_ready : forall F (A : Arith F), program_ready (@pulse_start F A) line pulse_fields [em] 999.
Proof. intros. is_ready. Qed.
Lemma gas_ready : forall F (A : Arith F), program_ready (@gas_start F A) plane gas_fields [electrons] 999.
Proof. intros. is_ready. Qed.
Lemma plasma_ready : forall F (A : Arith F), program_ready (@plasma_start F A) plane plasma_fields [electrons; ions; em] 999.
Proof. intros. is_ready. Qed.
Lemma plasma_line_ready : forall F (A : Arith F), program_ready (@plasma_line F A) line plasma_fields [electrons; ions; em] 999.
Proof. intros. is_ready. Qed.

(** ** C57: what the programs compute *)

(** Whatever the arithmetic, so also with the rounding of doubles: any number of
    steps of the program ends normally, and the unknowns are what the three
    stage Runge-Kutta method gives for the finite volume right-hand side. *)

(** gaussian_pulse and wave_1D: Maxwell in a periodic box of any dimension. *)
Theorem C57_pulse : forall F (A : Arith F) c M f fuel dt n (m : mgr F) L u, program_ready m M L [f] fuel -> List.length (id_comps (f_0 f)) = 6%nat ->
  field_get L (f_0 f) = Some u ->
  exists m' L', run (pulse_step true fuel c (map Z.of_nat (seq 0 (List.length M))) f) dt n m = Done m' /\
    ran m m' M L L' [f] dt n (Nat.iter n (rk3 (fun V _ => fv_rhs 6 (flux_of (maxwell_flux c)) M (fun _ => Periodic) (spacing (mg_grid m)) (seq 0 (Nat.min 3 (List.length M))) (V 0%nat)) dt) (fun _ => u)).
Proof.
  intros F A c M f fuel dt n m L u HR H6 Hu. apply pulse_run; auto. intros [|i] k E; [|destruct i; discriminate]. injection E as <-. exists u. auto.
Qed.
Print Assumptions C57_pulse.
(** sod_shock_tube: Euler in a box with walls in the dimensions [ws] and periodic
    in the others. *)
Theorem C57_sod : forall F (A : Arith F) gamma M f fuel dt n ws ps (m : mgr F) L u, program_ready m M L [f] fuel -> List.length (id_comps (f_0 f)) = 5%nat -> (List.length M <= 4)%nat ->
  (forall d, In d (ws ++ ps) <-> (d < List.length M)%nat) -> (forall d, In d ws -> ~ In d ps) -> field_get L (f_0 f) = Some u ->
  let kinds d := if in_dec Nat.eq_dec d ps then Periodic else NoSlip in
  exists m' L', run (sod_step true fuel gamma (map Z.of_nat ws) (map Z.of_nat ps) f) dt n m = Done m' /\
    ran m m' M L L' [f] dt n (Nat.iter n (rk3 (fun V _ => fv_rhs 5 (flux_of (euler_flux gamma)) M kinds (spacing (mg_grid m)) (seq 0 (List.length M)) (V 0%nat)) dt) (fun _ => u)).
Proof.
  intros F A gamma M f fuel dt n ws ps m L u HR H5 H4 Hd Hx Hu. apply sod_run; auto. intros [|i] k E; [|destruct i; discriminate]. injection E as <-. exists u. auto.
Qed.
Print Assumptions C57_sod.

(** The unknowns of a two-fluid program. *)
Definition three {F} (a b c : field F) : nat -> field F := fun i => match i with 0%nat => a | 1%nat => b | _ => c end.
Lemma three_is : forall F (M : box) (L : list (vid * field F)) a b c u v w, field_get L a = Some u -> field_get L b = Some v -> field_get L c = Some w ->
  sys_is M L [a; b; c] (three u v w).
Proof. intros F M L a b c u v w E1 E2 E3 [|[|[|i]]] k E; cbn in E; [injection E as <-..|destruct i; discriminate]; eexists; split; eauto. Qed.

(** gem_challenge: walls in dimension 0, periodic in dimension 1. *)
Definition gem_kinds (i d : nat) : bc_kind := match d with 0%nat => match i with 2%nat => ConductingWall | _ => NoSlip end | _ => Periodic end.
Theorem C57_gem : forall F (A : Arith F) p mx my e i f fuel dt n (m : mgr F) L u v w, let M := [mx; my] in program_ready m M L [e; i; f] fuel ->
  List.length (id_comps (f_0 e)) = 5%nat -> List.length (id_comps (f_0 i)) = 5%nat -> List.length (id_comps (f_0 f)) = 6%nat ->
  bs_points (id_basis (f_0 e)) = bs_points (id_basis (f_0 f)) -> bs_points (id_basis (f_0 i)) = bs_points (id_basis (f_0 f)) -> List.length (pl_ms p) = 2%nat ->
  field_get L (f_0 e) = Some u -> field_get L (f_0 i) = Some v -> field_get L (f_0 f) = Some w ->
  exists m' L', run (plasma_step true fuel p (gem_bcs e i f) e i f) dt n m = Done m' /\
    ran m m' M L L' [e; i; f] dt n (Nat.iter n (rk3 (plasma_op p (flux_of (euler_flux (pl_gamma p))) (flux_of (maxwell_flux (pl_c p))) M gem_kinds (spacing (mg_grid m))
      [0; 1]%nat [0; 1]%nat) dt) (three u v w)).
Proof.
  intros F A p mx my e i f fuel dt n m L u v w M HR Ne Ni Nf Pe Pi Hms Hu Hv Hw. refine (plasma_run p (gem_bcs e i f) gem_kinds M e i f fuel dt n m L (three u v w) HR Ne Ni Nf Pe Pi Hms _ _ _ _); [cbn; lia| | |now apply three_is].
  - intros k Hk. unfold gem_bcs. constructor; [|constructor; [|constructor; [|constructor]]]; (split; [intros x Hx; cbn in Hx |- *; intuition|]).
    + exists [0%nat]. split; [reflexivity|]. constructor; [cbn; lia|constructor].
    + exists [0%nat]. split; [reflexivity|]. constructor; [cbn; lia|constructor].
    + exists [1%nat]. split; [reflexivity|]. constructor; [cbn; lia|constructor].
  - intros k d Hk Hd. assert (NE : id_name (f_read k f) <> id_name (f_read k e) /\ id_name (f_read k f) <> id_name (f_read k i)).
    { destruct HR as ((N & _) & _). cbn [flat_map] in N. unfold f_ids in N. cbn [app map] in N. rewrite !NoDup_cons_iff in N. cbn [In] in N. unfold f_read. destruct (k =? 0), (k =? 1); intuition. }
    destruct NE as [NE1 NE2]. apply String.eqb_neq in NE1, NE2.
    destruct d as [|[|d]]; [| |cbn in Hd; lia]; cbn [gem_bcs bc_of bc_dims bc_outs bc_k existsb]; cbn [Z.of_nat Z.eqb Pos.eqb Pos.of_succ_nat orb andb];
      rewrite ?String.eqb_refl, ?NE1, ?NE2, ?orb_true_r; cbn; repeat split; reflexivity.
Qed.
Print Assumptions C57_gem.
(** two_fluid_brio_wu and harris_current_sheet: one dimension, walls. *)
Definition wall_kinds (i d : nat) : bc_kind := match i with 2%nat => ConductingWall | _ => NoSlip end.
Theorem C57_brio_wu : forall F (A : Arith F) p mx e i f fuel dt n (m : mgr F) L u v w, let M := [mx] in program_ready m M L [e; i; f] fuel ->
  List.length (id_comps (f_0 e)) = 5%nat -> List.length (id_comps (f_0 i)) = 5%nat -> List.length (id_comps (f_0 f)) = 6%nat ->
  bs_points (id_basis (f_0 e)) = bs_points (id_basis (f_0 f)) -> bs_points (id_basis (f_0 i)) = bs_points (id_basis (f_0 f)) -> List.length (pl_ms p) = 2%nat ->
  field_get L (f_0 e) = Some u -> field_get L (f_0 i) = Some v -> field_get L (f_0 f) = Some w ->
  exists m' L', run (plasma_step true fuel p (brio_wu_bcs e i f) e i f) dt n m = Done m' /\
    ran m m' M L L' [e; i; f] dt n (Nat.iter n (rk3 (plasma_op p (flux_of (euler_flux (pl_gamma p))) (flux_of (maxwell_flux (pl_c p))) M wall_kinds (spacing (mg_grid m))
      [0%nat] [0%nat]) dt) (three u v w)).
Proof.
  intros F A p mx e i f fuel dt n m L u v w M HR Ne Ni Nf Pe Pi Hms Hu Hv Hw. refine (plasma_run p (brio_wu_bcs e i f) wall_kinds M e i f fuel dt n m L (three u v w) HR Ne Ni Nf Pe Pi Hms _ _ _ _); [cbn; lia| | |now apply three_is].
  - intros k Hk. unfold brio_wu_bcs. constructor; [|constructor; [|constructor]]; (split; [intros x Hx; cbn in Hx |- *; intuition|]).
    + exists [0%nat]. split; [reflexivity|]. constructor; [cbn; lia|constructor].
    + exists [0%nat]. split; [reflexivity|]. constructor; [cbn; lia|constructor].
  - intros k d Hk Hd. assert (NE : id_name (f_read k f) <> id_name (f_read k e) /\ id_name (f_read k f) <> id_name (f_read k i)).
    { destruct HR as ((N & _) & _). cbn [flat_map] in N. unfold f_ids in N. cbn [app map] in N. rewrite !NoDup_cons_iff in N. cbn [In] in N. unfold f_read. destruct (k =? 0), (k =? 1); intuition. }
    destruct NE as [NE1 NE2]. apply String.eqb_neq in NE1, NE2.
    destruct d as [|d]; [|cbn in Hd; lia]; cbn [brio_wu_bcs bc_of bc_dims bc_outs bc_k existsb]; cbn [Z.of_nat Z.eqb Pos.eqb Pos.of_succ_nat orb andb];
      rewrite ?String.eqb_refl, ?NE1, ?NE2, ?orb_true_r; cbn; repeat split; reflexivity.
Qed.
Print Assumptions C57_brio_wu.

(** The interior and ghost values of variable [k] after a run. *)
Definition data_after (M : box) (k : vid) (o : out (mgr spec_float)) : list spec_float :=
  match o with
  | Done m => match map_find (mg_vars m) k with
              | Ok (Some n) => match get_chunk m n (ix_one M) with Ok e => if_data (ec_if e) | _ => [] end
              | _ => []
              end
  | _ => []
  end.
(** One step of length 0.1 in doubles: Ex and Bz in the three cells; the values
    of Bz in the outer cells differ by the tolerance of the limiter. *)
Example C57_pulse_ex : map (fun i => nth i (data_after line (f_0 em) (run (pulse_step true 999 (dbl 3) [0] em) (fdec 1 (-1)) 1 pulse_start)) f0) [12; 17; 18; 23; 24; 29]%nat =
  [dbl 5; S754_finite false 4668453891731069 (-55); dbl 5; S754_finite false 6672972308875931 (-53); dbl 5; S754_finite false 4668453891729175 (-55)].
Proof. vm_compute. reflexivity. Qed.
Example C57_sod_ex : map (fun i => nth i (data_after plane (f_0 electrons) (run (sod_step true 999 (fdec 14 (-1)) [0] [1] electrons) (fdec 1 (-1)) 1 gas_start)) f0) [80; 81; 115; 116]%nat =
  [S754_finite false 4507784870983489 (-52); S754_finite true 4527619399363625 (-58); S754_finite false 8998828767515005 (-53); S754_finite true 5988862834431314 (-58)].
Proof. vm_compute. reflexivity. Qed.
(** One step of the two-fluid program with walls and periodic boundary:
    density and momentum of the electrons in cells (0,0) and (1,0). *)
Definition some_plasma : plasma := mkPlasma (fdec 14 (-1)) (dbl 3) (dbl (-2)) (dbl 1) [dbl 2; dbl (-1)].
Example C57_gem_ex : map (fun i => nth i (data_after plane (f_0 electrons) (run (plasma_step true 999 some_plasma (gem_bcs electrons ions em) electrons ions em) (fdec 1 (-1)) 1 plasma_start)) f0)
    [80; 81; 82; 115; 116; 117]%nat =
  [S754_finite false 4714988678753945 (-52); S754_finite true 4506079230159897 (-52); S754_finite false 7106483252515999 (-58);
   S754_finite false 8584421151974093 (-53); S754_finite true 8140939176000287 (-53); S754_finite true 6771431608257843 (-57)].
Proof. vm_compute. reflexivity. Qed.
(** And any number of steps with any constants and any step length ends
    normally. *)
Example C57_brio_wu_ex : forall p dt n, List.length (pl_ms p) = 2%nat -> exists m', run (plasma_step true 999 p (brio_wu_bcs electrons ions em) electrons ions em) dt n (@plasma_line spec_float _) = Done m'.
Proof.
  intros p dt n Hp. destruct (C57_brio_wu spec_float _ p (0, 3) electrons ions em 999 dt n plasma_line plasma_fields gas gas pulse (plasma_line_ready _ _)) as (m' & L' & E & _); auto.
  exists m'. exact E.
Qed.

(** ** C51: the periodic Maxwell programs keep the totals *)

(** In exact arithmetic the sum of every component of E and B over the interior
    stays the same in any number of steps. *)
Theorem C51_run : forall c M f fuel dt n (m : mgr R) L u j, program_ready m M L [f] fuel -> List.length (id_comps (f_0 f)) = 6%nat ->
  field_get L (f_0 f) = Some u -> (0 <= j < 6)%Z ->
  exists m' L' v, run (pulse_step true fuel c (map Z.of_nat (seq 0 (List.length M))) f) dt n m = Done m' /\ mgr_holds m' M L' /\
    field_get L' (f_0 f) = Some v /\ total_of M (f_0 f) j v = total_of M (f_0 f) j u.
Proof.
  intros c M f fuel dt n m L u j HR H6 Hu Hj. destruct (C57_pulse R RArith c M f fuel dt n m L u HR H6 Hu) as (m' & L' & E & (H1 & _) & _ & _ & _ & V & _).
  destruct (interior_total M L' (f_0 f) _ j ltac:(rewrite H6; exact Hj) (V 0%nat (f_0 f) eq_refl)) as (v & Gv & Tv).
  exists m', L', v. split; [exact E|]. split; [exact H1|]. split; [exact Gv|]. rewrite Tv. unfold total_of.
  destruct HR as ((_ & Hf) & _ & Hr & _ & Hw). inversion Hf as [|? ? (_ & Hfit) _]; subst.
  apply (rk3_iter (fun w => total (M ++ [(0, bs_points (id_basis (f_0 f)))]) (fun x => w (x ++ [j])))); [apply total_linear|].
  intros V0. apply maxwell_total; auto.
  - apply Forall_app. split; [apply Hfit|]. destruct Hfit as (_ & _ & HD & _). unfold comp_box in HD. inversion HD; subst. constructor; [assumption|constructor].
  - intros d Hd. apply in_seq in Hd. lia.
  - eapply wide_sub; [exact Hw|]. intros d Hd. apply in_seq in Hd. apply in_seq. lia.
Qed.
Print Assumptions C51_run.
(** The fixture: Bz stays 1 in total, Ex 15. *)
Example C51_ex : forall c dt n, exists m' L' v, run (pulse_step true 999 c [0] em) dt n (@pulse_start R RArith) = Done m' /\ field_get L' (f_0 em) = Some v /\
  (v [0; 0; 5]%Z + v [1; 0; 5]%Z + v [2; 0; 5]%Z = 1)%R.
Proof.
  intros c dt n. destruct (C51_run c line em 999 dt n pulse_start pulse_fields pulse 5 (pulse_ready R RArith) eq_refl eq_refl ltac:(lia)) as (m' & L' & v & E1 & _ & E2 & E3).
  exists m', L', v. split; [exact E1|]. split; [exact E2|]. unfold total_of, total in E3. change (cells (line ++ _)) with [[0; 0]; [1; 0]; [2; 0]] in E3.
  cbn in E3. unfold pulse, f0, f1 in E3. cbn in E3. lra.
Qed.

(** ** C47: Ex and Bx on a one-dimensional grid *)

Theorem C47_run : forall c mx f fuel dt n (m : mgr R) L u x j, let M := [mx] in program_ready m M L [f] fuel -> List.length (id_comps (f_0 f)) = 6%nat ->
  field_get L (f_0 f) = Some u -> in_box (M ++ [(0, bs_points (id_basis (f_0 f)))]) x -> j = 0 \/ j = 3 ->
  exists m' L' v, run (pulse_step true fuel c [0] f) dt n m = Done m' /\ mgr_holds m' M L' /\
    field_get L' (f_0 f) = Some v /\ v (x ++ [j]) = u (x ++ [j]).
Proof.
  intros c mx f fuel dt n m L u x j M HR H6 Hu Hx Hj. destruct (C57_pulse R RArith c M f fuel dt n m L u HR H6 Hu) as (m' & L' & E & (H1 & _) & _ & _ & _ & V & _).
  destruct (V 0%nat (f_0 f) eq_refl) as (v & Gv & Ev). exists m', L', v. split; [exact E|]. split; [exact H1|]. split; [exact Gv|].
  rewrite Ev by (apply cell_join; [exact Hx|rewrite H6; lia]).
  apply (rk3_iter (fun w => w (x ++ [j]))); [apply point_linear|]. intros V0. now apply maxwell_point.
Qed.
Print Assumptions C47_run.
(** With the rounding of doubles the integrator itself changes a constant field:
    one tenth becomes the next larger number in the first step. *)
Theorem C47_run_double_refuted : let start := @mgr_of spec_float line_grid line [(f_0 em, fun _ => fdec 1 (-1))] None None in
  nth 15 (data_after line (f_0 em) (Done start)) f0 = fdec 1 (-1) /\
  nth 15 (data_after line (f_0 em) (run (pulse_step true 999 (dbl 3) [0] em) (fdec 1 (-1)) 1 start)) f0 = S754_finite false 7205759403792795 (-56) /\
  fdec 1 (-1) = S754_finite false 7205759403792794 (-56).
Proof. vm_compute. repeat split; reflexivity. Qed.
Print Assumptions C47_run_double_refuted.
Example C47_run_ex : forall c dt n, exists m' L' v, run (pulse_step true 999 c [0] em) dt n (@pulse_start R RArith) = Done m' /\ field_get L' (f_0 em) = Some v /\
  v [1; 0; 3]%Z = 5%R.
Proof.
  intros c dt n. destruct (C47_run c (0, 3) em 999 dt n pulse_start pulse_fields pulse [1; 0] 3 (pulse_ready R RArith) eq_refl eq_refl) as (m' & L' & v & E1 & _ & E2 & E3); auto.
  - repeat (constructor; [cbn; lia|]). constructor.
  - exists m', L', v. auto.
Qed.

(** ** C58: a closed box keeps mass and energy *)

(** sod_shock_tube in at most three dimensions, in exact arithmetic: with walls
    in the dimensions [ws] and periodic boundary in the others total mass and
    energy stay the same; without walls also the total momentum. *)
Theorem C58_sod : forall gamma M f fuel dt n ws ps (m : mgr R) L u j, program_ready m M L [f] fuel -> List.length (id_comps (f_0 f)) = 5%nat -> (List.length M <= 3)%nat ->
  (forall d, In d (ws ++ ps) <-> (d < List.length M)%nat) -> (forall d, In d ws -> ~ In d ps) -> field_get L (f_0 f) = Some u ->
  (0 <= j < 5)%Z -> ws = [] \/ j = 0 \/ j = 4 ->
  exists m' L' v, run (sod_step true fuel gamma (map Z.of_nat ws) (map Z.of_nat ps) f) dt n m = Done m' /\ mgr_holds m' M L' /\
    field_get L' (f_0 f) = Some v /\ total_of M (f_0 f) j v = total_of M (f_0 f) j u.
Proof.
  intros gamma M f fuel dt n ws ps m L u j HR H5 H3 Hd Hx Hu Hj Hk.
  destruct (C57_sod R RArith gamma M f fuel dt n ws ps m L u HR H5 ltac:(lia) Hd Hx Hu) as (m' & L' & E & (H1 & _) & _ & _ & _ & V & _).
  destruct (interior_total M L' (f_0 f) _ j ltac:(rewrite H5; exact Hj) (V 0%nat (f_0 f) eq_refl)) as (v & Gv & Tv).
  exists m', L', v. split; [exact E|]. split; [exact H1|]. split; [exact Gv|]. rewrite Tv. unfold total_of.
  destruct HR as ((_ & Hf) & _ & Hr & _ & Hw). inversion Hf as [|? ? (_ & Hfit) _]; subst.
  apply (rk3_iter (fun w => total (M ++ [(0, bs_points (id_basis (f_0 f)))]) (fun x => w (x ++ [j])))); [apply total_linear|].
  intros V0. apply euler_total; auto.
  - apply Forall_app. split; [apply Hfit|]. destruct Hfit as (_ & _ & HD & _). unfold comp_box in HD. inversion HD; subst. constructor; [assumption|constructor].
  - intros d Hin. cbn beta. destruct (in_dec Nat.eq_dec d ps) as [|Np]; [now left|]. right. split; [reflexivity|]. destruct Hk as [->|Hk]; [|exact Hk].
    exfalso. apply Np. apply in_seq in Hin. apply (proj2 (Hd d)). cbn in Hin. lia.
Qed.
Print Assumptions C58_sod.
Example C58_ex : forall gamma dt n, exists m' L' v, run (sod_step true 999 gamma [0] [1] electrons) dt n (@gas_start R RArith) = Done m' /\ field_get L' (f_0 electrons) = Some v /\
  (v [0; 0; 0; 4]%Z + v [0; 1; 0; 4]%Z + v [0; 2; 0; 4]%Z + v [1; 0; 0; 4]%Z + v [1; 1; 0; 4]%Z + v [1; 2; 0; 4]%Z = 9)%R.
Proof.
  intros gamma dt n. destruct (C58_sod gamma plane electrons 999 dt n [0%nat] [1%nat] gas_start gas_fields gas 4 (gas_ready R RArith) eq_refl ltac:(cbn; lia)) as (m' & L' & v & E1 & _ & E2 & E3); auto; try lia.
  - intros d. cbn. lia.
  - intros d [<-|[]] [H|[]]. discriminate.
  - exists m', L', v. split; [exact E1|]. split; [exact E2|]. unfold total_of, total in E3.
    change (cells (plane ++ _)) with [[0; 0; 0]; [0; 1; 0]; [0; 2; 0]; [1; 0; 0]; [1; 1; 0]; [1; 2; 0]] in E3. cbn in E3. unfold gas, f0, f1 in E3. cbn in E3. lra.
Qed.

(** ** C59: the two-fluid programs keep mass and magnetic flux *)

(** gem_challenge: the total mass of the electrons, the total mass of the ions
    and the totals of Bx, By and Bz stay the same in any number of steps. *)
Theorem C59_gem : forall p mx my e i f fuel dt n (m : mgr R) L u v w, let M := [mx; my] in program_ready m M L [e; i; f] fuel ->
  List.length (id_comps (f_0 e)) = 5%nat -> List.length (id_comps (f_0 i)) = 5%nat -> List.length (id_comps (f_0 f)) = 6%nat ->
  bs_points (id_basis (f_0 e)) = bs_points (id_basis (f_0 f)) -> bs_points (id_basis (f_0 i)) = bs_points (id_basis (f_0 f)) -> List.length (pl_ms p) = 2%nat ->
  field_get L (f_0 e) = Some u -> field_get L (f_0 i) = Some v -> field_get L (f_0 f) = Some w ->
  exists m' L' u' v' w', run (plasma_step true fuel p (gem_bcs e i f) e i f) dt n m = Done m' /\ mgr_holds m' M L' /\
    field_get L' (f_0 e) = Some u' /\ field_get L' (f_0 i) = Some v' /\ field_get L' (f_0 f) = Some w' /\
    total_of M (f_0 e) 0 u' = total_of M (f_0 e) 0 u /\ total_of M (f_0 i) 0 v' = total_of M (f_0 i) 0 v /\
    forall j, 3 <= j < 6 -> total_of M (f_0 f) j w' = total_of M (f_0 f) j w.
Proof.
  intros p mx my e i f fuel dt n m L u v w M HR Ne Ni Nf Pe Pi Hms Hu Hv Hw.
  destruct (C57_gem R RArith p mx my e i f fuel dt n m L u v w HR Ne Ni Nf Pe Pi Hms Hu Hv Hw) as (m' & L' & E & (H1 & _) & _ & _ & _ & V & _).
  destruct (V 0%nat (f_0 e) eq_refl) as (u' & Gu & Eu). destruct (V 1%nat (f_0 i) eq_refl) as (v' & Gv & Ev). destruct (V 2%nat (f_0 f) eq_refl) as (w' & Gw & Ew).
  exists m', L', u', v', w'. do 5 (split; [eassumption|]).
  assert (Tot : forall k j (a b : field R), 0 <= j < Z.of_nat (List.length (id_comps k)) -> (forall c, in_box (M ++ comp_box k) c -> a c = b c) -> total_of M k j a = total_of M k j b).
  { intros k j a b Hj H. apply total_ext. intros x Hx. apply H. now apply cell_join. }
  destruct HR as ((_ & Hf) & _ & Hr & _ & Hwi). rewrite Forall_forall in Hf.
  assert (NE : forall g, In g [e; i; f] -> nonempty (M ++ [(0, bs_points (id_basis (f_0 g)))])).
  { intros g Hg. destruct (Hf g Hg) as (_ & Hfit). apply Forall_app. split; [apply Hfit|]. destruct Hfit as (_ & _ & HD & _). unfold comp_box in HD. inversion HD; subst. constructor; [assumption|constructor]. }
  assert (W : wide M 2 [0; 1]%nat) by exact Hwi.
  split; [|split].
  - rewrite (Tot (f_0 e) 0 u' _ ltac:(rewrite Ne; lia) Eu). unfold total_of.
    apply (rk3_iter (fun w => total (M ++ [(0, bs_points (id_basis (f_0 e)))]) (fun x => w (x ++ [0]))) 0%nat); [apply total_linear|].
    intros V0. cbn [plasma_op]. rewrite (total_ext _ _ _ (fun x _ => lorentz_mass _ _ _ _ x)). apply euler_total; [apply NE; cbn; auto|cbn; lia|exact W|lia|].
    intros d [<-|[<-|[]]]; cbn; auto.
  - rewrite (Tot (f_0 i) 0 v' _ ltac:(rewrite Ni; lia) Ev). unfold total_of.
    apply (rk3_iter (fun w => total (M ++ [(0, bs_points (id_basis (f_0 i)))]) (fun x => w (x ++ [0]))) 1%nat); [apply total_linear|].
    intros V0. cbn [plasma_op]. rewrite (total_ext _ _ _ (fun x _ => lorentz_mass _ _ _ _ x)). apply euler_total; [apply NE; cbn; auto|cbn; lia|exact W|lia|].
    intros d [<-|[<-|[]]]; cbn; auto.
  - intros j Hj. rewrite (Tot (f_0 f) j w' _ ltac:(rewrite Nf; lia) Ew). unfold total_of.
    apply (rk3_iter (fun w => total (M ++ [(0, bs_points (id_basis (f_0 f)))]) (fun x => w (x ++ [j]))) 2%nat); [apply total_linear|].
    intros V0. cbn [plasma_op]. rewrite (total_ext _ _ _ (fun x _ => current_magnetic _ _ _ x j ltac:(lia))). apply maxwell_total; [apply NE; cbn; auto|intros d [<-|[<-|[]]]; lia|exact W|lia|].
    intros d [<-|[<-|[]]]; [|now left]. right. cbn [gem_kinds]. assert (j = 3 \/ j = 4 \/ j = 5) as [->|[->| ->]] by lia; cbn; auto 8.
Qed.
Print Assumptions C59_gem.
(** two_fluid_brio_wu and harris_current_sheet: the same, and Bx does not change
    in any cell. *)
Theorem C59_brio_wu : forall p mx e i f fuel dt n (m : mgr R) L u v w, let M := [mx] in program_ready m M L [e; i; f] fuel ->
  List.length (id_comps (f_0 e)) = 5%nat -> List.length (id_comps (f_0 i)) = 5%nat -> List.length (id_comps (f_0 f)) = 6%nat ->
  bs_points (id_basis (f_0 e)) = bs_points (id_basis (f_0 f)) -> bs_points (id_basis (f_0 i)) = bs_points (id_basis (f_0 f)) -> List.length (pl_ms p) = 2%nat ->
  field_get L (f_0 e) = Some u -> field_get L (f_0 i) = Some v -> field_get L (f_0 f) = Some w ->
  exists m' L' u' v' w', run (plasma_step true fuel p (brio_wu_bcs e i f) e i f) dt n m = Done m' /\ mgr_holds m' M L' /\
    field_get L' (f_0 e) = Some u' /\ field_get L' (f_0 i) = Some v' /\ field_get L' (f_0 f) = Some w' /\
    total_of M (f_0 e) 0 u' = total_of M (f_0 e) 0 u /\ total_of M (f_0 i) 0 v' = total_of M (f_0 i) 0 v /\
    (forall j, 4 <= j < 6 -> total_of M (f_0 f) j w' = total_of M (f_0 f) j w) /\
    forall x, in_box (M ++ [(0, bs_points (id_basis (f_0 f)))]) x -> w' (x ++ [3]) = w (x ++ [3]).
Proof.
  intros p mx e i f fuel dt n m L u v w M HR Ne Ni Nf Pe Pi Hms Hu Hv Hw.
  destruct (C57_brio_wu R RArith p mx e i f fuel dt n m L u v w HR Ne Ni Nf Pe Pi Hms Hu Hv Hw) as (m' & L' & E & (H1 & _) & _ & _ & _ & V & _).
  destruct (V 0%nat (f_0 e) eq_refl) as (u' & Gu & Eu). destruct (V 1%nat (f_0 i) eq_refl) as (v' & Gv & Ev). destruct (V 2%nat (f_0 f) eq_refl) as (w' & Gw & Ew).
  exists m', L', u', v', w'. do 5 (split; [eassumption|]).
  assert (Tot : forall k j (a b : field R), 0 <= j < Z.of_nat (List.length (id_comps k)) -> (forall c, in_box (M ++ comp_box k) c -> a c = b c) -> total_of M k j a = total_of M k j b).
  { intros k j a b Hj H. apply total_ext. intros x Hx. apply H. now apply cell_join. }
  destruct HR as ((_ & Hf) & _ & Hr & _ & Hwi). rewrite Forall_forall in Hf.
  assert (NE : forall g, In g [e; i; f] -> nonempty (M ++ [(0, bs_points (id_basis (f_0 g)))])).
  { intros g Hg. destruct (Hf g Hg) as (_ & Hfit). apply Forall_app. split; [apply Hfit|]. destruct Hfit as (_ & _ & HD & _). unfold comp_box in HD. inversion HD; subst. constructor; [assumption|constructor]. }
  assert (W : wide M 2 [0]%nat) by exact Hwi.
  split; [|split; [|split]].
  - rewrite (Tot (f_0 e) 0 u' _ ltac:(rewrite Ne; lia) Eu). unfold total_of.
    apply (rk3_iter (fun w => total (M ++ [(0, bs_points (id_basis (f_0 e)))]) (fun x => w (x ++ [0]))) 0%nat); [apply total_linear|].
    intros V0. cbn [plasma_op]. rewrite (total_ext _ _ _ (fun x _ => lorentz_mass _ _ _ _ x)). apply euler_total; [apply NE; cbn; auto|cbn; lia|exact W|lia|].
    intros d [<-|[]]; cbn; auto.
  - rewrite (Tot (f_0 i) 0 v' _ ltac:(rewrite Ni; lia) Ev). unfold total_of.
    apply (rk3_iter (fun w => total (M ++ [(0, bs_points (id_basis (f_0 i)))]) (fun x => w (x ++ [0]))) 1%nat); [apply total_linear|].
    intros V0. cbn [plasma_op]. rewrite (total_ext _ _ _ (fun x _ => lorentz_mass _ _ _ _ x)). apply euler_total; [apply NE; cbn; auto|cbn; lia|exact W|lia|].
    intros d [<-|[]]; cbn; auto.
  - intros j Hj. rewrite (Tot (f_0 f) j w' _ ltac:(rewrite Nf; lia) Ew). unfold total_of.
    apply (rk3_iter (fun w => total (M ++ [(0, bs_points (id_basis (f_0 f)))]) (fun x => w (x ++ [j]))) 2%nat); [apply total_linear|].
    intros V0. cbn [plasma_op]. rewrite (total_ext _ _ _ (fun x _ => current_magnetic _ _ _ x j ltac:(lia))). apply maxwell_total; [apply NE; cbn; auto|intros d [<-|[]]; lia|exact W|lia|].
    intros d [<-|[]]. right. cbn [wall_kinds]. assert (j = 4 \/ j = 5) as [->| ->] by lia; cbn; auto 8.
  - intros x Hx. rewrite Ew by (apply cell_join; [exact Hx|rewrite Nf; lia]).
    apply (rk3_iter (fun w => w (x ++ [3])) 2%nat); [apply point_linear|]. intros V0. cbn [plasma_op]. rewrite current_magnetic by lia. apply maxwell_point. auto.
Qed.
Print Assumptions C59_brio_wu.
Definition real_plasma (a b c d e f : R) : plasma := mkPlasma a b c d [e; f].
Example C59_ex : forall a b c d e f dt n, exists m' L' u' w',
  run (plasma_step true 999 (real_plasma a b c d e f) (gem_bcs electrons ions em) electrons ions em) dt n (@plasma_start R RArith) = Done m' /\ mgr_holds m' plane L' /\
  field_get L' (f_0 electrons) = Some u' /\ field_get L' (f_0 em) = Some w' /\
  (u' [0; 0; 0; 0]%Z + u' [0; 1; 0; 0]%Z + u' [0; 2; 0; 0]%Z + u' [1; 0; 0; 0]%Z + u' [1; 1; 0; 0]%Z + u' [1; 2; 0; 0]%Z = 6)%R /\
  (w' [0; 0; 0; 5]%Z + w' [0; 1; 0; 5]%Z + w' [0; 2; 0; 5]%Z + w' [1; 0; 0; 5]%Z + w' [1; 1; 0; 5]%Z + w' [1; 2; 0; 5]%Z = 3)%R.
Proof.
  intros a b c d e f dt n.
  destruct (C59_gem (real_plasma a b c d e f) (0, 2) (0, 3) electrons ions em 999 dt n plasma_start plasma_fields gas gas pulse (plasma_ready R RArith) eq_refl eq_refl eq_refl eq_refl eq_refl eq_refl eq_refl eq_refl eq_refl)
    as (m' & L' & u' & v' & w' & E1 & E2 & E3 & _ & E5 & T1 & _ & T3).
  exists m', L', u', w'. do 4 (split; [assumption|]). specialize (T3 5 ltac:(lia)). unfold total_of, total in T1, T3.
  change (cells ([(0, 2); (0, 3)] ++ _)) with [[0; 0; 0]; [0; 1; 0]; [0; 2; 0]; [1; 0; 0]; [1; 1; 0]; [1; 2; 0]] in T1, T3.
  cbn in T1, T3. unfold gas, pulse, f0, f1 in T1, T3. cbn in T1, T3. lra.
Qed.

(** ** C60: the advection program *)

(** One thread, every mesh dimension periodic: after any number of steps the program
    has ended normally and every component has kept its total. *)
Theorem C60_advect : forall (m : mgr R) M L ks q0 q1 q2 dt velocity fuel u n,
  adv_ready (mgr_set_dt (mgr_set_time m 0%R) dt) M L ks q0 q1 q2 dt velocity fuel -> NoDup (map id_name [q0; q1; q2]) ->
  bc_ready Periodic M fuel (seq 0 (List.length M)) [q0] -> bc_ready Periodic M fuel (seq 0 (List.length M)) [q1] -> field_get L q0 = Some u ->
  exists m' L' v, run (advect_step fuel velocity (map Z.of_nat (seq 0 (List.length M))) q0 q1 q2) dt n m = Done m' /\ mgr_holds m' M L' /\ field_get L' q0 = Some v /\
    forall j, 0 <= j < Z.of_nat (List.length (id_comps q0)) -> total_of M q0 j v = total_of M q0 j u.
Proof. intros m M L ks q0 q1 q2 dt velocity fuel u n H HN B0 B1 Hu. exact (advect_loop_ok n _ _ M L ks q0 q1 q2 dt velocity fuel u H HN B0 B1 Hu). Qed.

Example C60_ex : exists m' L' v, run (advect_step 40 avel [0; 1] av ap an) (fdec 25 (-2)) 5 (amgr (@adot R RArith)) = Done m' /\ mgr_holds m' amesh L' /\
  field_get L' av = Some v /\ (v [0; 0; 0; 0]%Z + (v [0; 1; 0; 0]%Z + (v [1; 0; 0; 0]%Z + v [1; 1; 0; 0]%Z)) = 16)%R.
Proof.
  destruct (C60_advect (amgr adot) amesh (afields adot) [av; ap; an] av ap an (fdec 25 (-2)) avel 40 adot 5) as (m' & L' & v & E & H & G & T).
  - destruct (aready R RArith adot) as (X1 & X2 & X3 & X4 & X5 & X6 & X7 & X8 & X9 & X10 & X11 & X12). do 7 (split; [assumption|]). split; [lia|]. split; [discriminate|]. auto.
  - names_differ.
  - split; [intros d Hd; cbn in Hd |- *; repeat destruct Hd as [<-|Hd]; [cbn; unfold hi, lo; cbn; lia..|destruct Hd]|].
    constructor; [|constructor]. split; [apply shapeb_ok; vm_compute; reflexivity|]. split; [exact I|vm_compute; discriminate].
  - split; [intros d Hd; cbn in Hd |- *; repeat destruct Hd as [<-|Hd]; [cbn; unfold hi, lo; cbn; lia..|destruct Hd]|].
    constructor; [|constructor]. split; [apply shapeb_ok; vm_compute; reflexivity|]. split; [exact I|vm_compute; discriminate].
  - reflexivity.
  - exists m', L', v. split; [exact E|]. split; [exact H|]. split; [exact G|]. pose proof (T 0 ltac:(cbn; lia)) as X. unfold total_of, total in X. change (cells (amesh ++ [(0, bs_points (id_basis av))])) with [[0; 0; 0]; [0; 1; 0]; [1; 0; 0]; [1; 1; 0]] in X. cbn in X. unfold f0 in X. cbn in X. lra.
Qed.

(** advect_gaussian.cpp never calls setup on its two boundary solvers, so they hold
    no dimension and the ghost cells are never filled: of a cell of 16 the box holds more
    than 16.25 after one step. *)
Definition interior_data (m : out (mgr spec_float)) : option (list spec_float) :=
  option_map (fun l => map (fun c => nth (Z.to_nat (offset (grow 2 amesh ++ comp_box av) c)) l (dbl 0)) (cells (amesh ++ comp_box av))) (adata m av).
Definition interior_sum (m : out (mgr spec_float)) : option spec_float := option_map (fun l => fold_right fadd (dbl 0) l) (interior_data m).
Theorem C60_as_written_refuted : ~ forall n, exists s, interior_sum (run (advect_step 40 avel [] av ap an) (fdec 25 (-2)) n (amgr (@adot _ FloatArith))) = Some s /\
  flt (fsub s (dbl 16)) (fdec 25 (-2)) = true.
Proof. intros H. destruct (H 1%nat) as (s & E & B). vm_compute in E. injection E as <-. vm_compute in B. discriminate. Qed.
(** With both dimensions periodic the sum of doubles is 16 exactly here. *)
Example C60_as_intended_ex : interior_data (run (advect_step 40 avel [0; 1] av ap an) (fdec 25 (-2)) 1 (amgr (@adot _ FloatArith))) = Some [dbl 2; dbl 11; dbl 1; dbl 2].
Proof. vm_compute. reflexivity. Qed.

Print Assumptions C60_as_written_refuted.
Print Assumptions C60_advect.
