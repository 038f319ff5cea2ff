(** * News travels at most six cells per time step (C77). *)
From Coq Require Import ZArith List String Lia Bool Reals Lra Floats.SpecFloat.
From Verif Require Import Base BaseFacts BoxSpec BoxFacts Range RangeSpec RangeFacts ApiSpec Arith ArithFloat ArithR Chunk Properties_Chunk FieldSpec VarId Manager MgrSpec MgrFacts
  BC BCSpec BCFacts Sweep SweepSpec Euler Maxwell Sources ParFacts SweepFacts FluxFacts Programs ProgramsSpec ConserveFacts RhsFacts Properties_Programs Initial InitialSpec InitialFacts Properties_Initial
  Whole Properties_Whole Vtk VtkSpec VtkFacts Properties_Vtk Main MainSpec MainFacts Properties_Main Properties_Files SymmetrySpec SymmetryFacts Properties_Symmetry ReachSpec ReachFacts.
Import ListNotations.
Open Scope Z_scope.

(** The basis points of a variable. *)
Definition points (k : vid) : box := [(0, bs_points (id_basis k))].

Section Bridge.
Context {F : Type} {A : Arith F}.
Lemma same_near_paired : forall M P ps r n x (u v : field F), same_near M ps r n x u v -> paired (near M P ps x r) n u v.
Proof. intros M P ps r n x u v H y z j (-> & _ & W) Hj. symmetry. now apply H. Qed.
Lemma ends_near : forall (m1 m2 m1' m2' : mgr F) M L1 L2 L1' L2' fams dt n U V i k c ps x o1 o2,
  o1 = Done m1' -> o2 = Done m2' -> ran m1 m1' M L1 L1' fams dt n U -> ran m2 m2' M L2 L2' fams dt n V -> nth_error (map f_0 fams) i = Some k ->
  c = Z.of_nat (List.length (id_comps k)) -> in_box (M ++ points k) x -> paired (near M (points k) ps x 0) c (U i) (V i) ->
  exists u v, ends o1 M k u /\ ends o2 M k v /\ forall j, 0 <= j < c -> u (x ++ [j]) = v (x ++ [j]).
Proof.
  intros m1 m2 m1' m2' M L1 L2 L1' L2' fams dt n U V i k c ps x o1 o2 -> -> ((H1 & _) & _ & _ & _ & S1 & _) ((H2 & _) & _ & _ & _ & S2 & _) E -> Hx HM.
  destruct (S1 i k E) as (u & Eu & Hu). destruct (S2 i k E) as (v & Ev & Hv). exists u, v. split; [exists m1', L1'; auto|]. split; [exists m2', L2'; auto|].
  intros j Hj. rewrite Hv, Hu by (now apply cell_join). symmetry. apply HM; [|exact Hj]. split; [reflexivity|]. split; [exact Hx|constructor].
Qed.
End Bridge.

(** ** C77: what is further than six cells per step away does not matter, in any
    arithmetic

    wave_1D and gaussian_pulse: two runs from data that are the same in the cells up to
    6 n steps away from [x] end with the same values in [x], bit for bit. *)
Theorem C77_pulse : forall F (A : Arith F) c M f fuel dt n (m1 m2 : mgr F) L1 L2 u v x,
  program_ready m1 M L1 [f] fuel -> program_ready m2 M L2 [f] fuel -> mg_grid m2 = mg_grid m1 -> List.length (id_comps (f_0 f)) = 6%nat ->
  field_get L1 (f_0 f) = Some u -> field_get L2 (f_0 f) = Some v -> in_box (M ++ points (f_0 f)) x -> same_near M (seq 0 (List.length M)) (6 * n) 6 x u v ->
  let go := run (pulse_step true fuel c (map Z.of_nat (seq 0 (List.length M))) f) dt n in
  exists u' v', ends (go m1) M (f_0 f) u' /\ ends (go m2) M (f_0 f) v' /\ forall j, 0 <= j < 6 -> u' (x ++ [j]) = v' (x ++ [j]).
Proof.
  intros F A c M f fuel dt n m1 m2 L1 L2 u v x R1 R2 EG N6 Eu Ev Hx HS go.
  destruct (C57_pulse F A c M f fuel dt n m1 L1 u R1 N6 Eu) as (m1' & L1' & E1 & Z1). destruct (C57_pulse F A c M f fuel dt n m2 L2 v R2 N6 Ev) as (m2' & L2' & E2 & Z2).
  rewrite EG in Z2. destruct R1 as (_ & _ & _ & _ & W).
  refine (ends_near m1 m2 m1' m2' M L1 L2 L1' L2' [f] dt n _ _ 0 (f_0 f) 6 (seq 0 (List.length M)) x _ _ E1 E2 Z1 Z2 eq_refl _ Hx _); [now rewrite N6|].
  refine (rk3_near _ dt (near M (points (f_0 f)) (seq 0 (List.length M)) x) (fun _ => 6) (near_more M _ _ x) _ n 0 (fun _ => u) (fun _ => v) _ 0%nat).
  - intros r U V HU i. apply fv_near; auto. intros e He. apply in_seq in He. split; [lia|]. intros _. apply in_seq. lia.
  - intros i. rewrite Nat.add_0_r. now apply same_near_paired.
Qed.
Print Assumptions C77_pulse.

(** sod_shock_tube. *)
Theorem C77_sod : forall F (A : Arith F) gamma M f fuel dt n ws ps (m1 m2 : mgr F) L1 L2 u v x,
  program_ready m1 M L1 [f] fuel -> program_ready m2 M L2 [f] fuel -> mg_grid m2 = mg_grid m1 -> List.length (id_comps (f_0 f)) = 5%nat -> (List.length M <= 4)%nat ->
  (forall d, In d (ws ++ ps) <-> (d < List.length M)%nat) -> (forall d, In d ws -> ~ In d ps) ->
  field_get L1 (f_0 f) = Some u -> field_get L2 (f_0 f) = Some v -> in_box (M ++ points (f_0 f)) x -> same_near M ps (6 * n) 5 x u v ->
  let go := run (sod_step true fuel gamma (map Z.of_nat ws) (map Z.of_nat ps) f) dt n in
  exists u' v', ends (go m1) M (f_0 f) u' /\ ends (go m2) M (f_0 f) v' /\ forall j, 0 <= j < 5 -> u' (x ++ [j]) = v' (x ++ [j]).
Proof.
  intros F A gamma M f fuel dt n ws ps m1 m2 L1 L2 u v x R1 R2 EG N5 N4 Hds Hxx Eu Ev Hx HS go.
  destruct (C57_sod F A gamma M f fuel dt n ws ps m1 L1 u R1 N5 N4 Hds Hxx Eu) as (m1' & L1' & E1 & Z1). destruct (C57_sod F A gamma M f fuel dt n ws ps m2 L2 v R2 N5 N4 Hds Hxx Ev) as (m2' & L2' & E2 & Z2).
  rewrite EG in Z2. destruct R1 as (_ & _ & _ & _ & W).
  refine (ends_near m1 m2 m1' m2' M L1 L2 L1' L2' [f] dt n _ _ 0 (f_0 f) 5 ps x _ _ E1 E2 Z1 Z2 eq_refl _ Hx _); [now rewrite N5|].
  refine (rk3_near _ dt (near M (points (f_0 f)) ps x) (fun _ => 5) (near_more M _ _ x) _ n 0 (fun _ => u) (fun _ => v) _ 0%nat).
  - intros r U V HU i. apply fv_near; auto. intros e He. apply in_seq in He. split; [lia|]. destruct (in_dec Nat.eq_dec e ps) as [Hp|Hp]; [auto|discriminate].
  - intros i. rewrite Nat.add_0_r. now apply same_near_paired.
Qed.
Print Assumptions C77_sod.

(** gem_challenge: both fluids and the field together. *)
Theorem C77_gem : forall F (A : Arith F) p mx my e i f fuel dt n (m1 m2 : mgr F) L1 L2 u1 v1 w1 u2 v2 w2 x, let M := [mx; my] in
  program_ready m1 M L1 [e; i; f] fuel -> program_ready m2 M L2 [e; i; f] fuel -> mg_grid m2 = mg_grid m1 ->
  List.length (id_comps (f_0 e)) = 5%nat -> List.length (id_comps (f_0 i)) = 5%nat -> List.length (id_comps (f_0 f)) = 6%nat ->
  bs_points (id_basis (f_0 e)) = bs_points (id_basis (f_0 f)) -> bs_points (id_basis (f_0 i)) = bs_points (id_basis (f_0 f)) -> List.length (pl_ms p) = 2%nat ->
  field_get L1 (f_0 e) = Some u1 -> field_get L1 (f_0 i) = Some v1 -> field_get L1 (f_0 f) = Some w1 ->
  field_get L2 (f_0 e) = Some u2 -> field_get L2 (f_0 i) = Some v2 -> field_get L2 (f_0 f) = Some w2 ->
  in_box (M ++ points (f_0 f)) x -> same_near M [1%nat] (6 * n) 5 x u1 u2 -> same_near M [1%nat] (6 * n) 5 x v1 v2 -> same_near M [1%nat] (6 * n) 6 x w1 w2 ->
  let go := run (plasma_step true fuel p (gem_bcs e i f) e i f) dt n in
  forall k, In k [f_0 e; f_0 i; f_0 f] -> exists a b, ends (go m1) M k a /\ ends (go m2) M k b /\
    forall j, 0 <= j < Z.of_nat (List.length (id_comps k)) -> a (x ++ [j]) = b (x ++ [j]).
Proof.
  intros F A p mx my e i f fuel dt n m1 m2 L1 L2 u1 v1 w1 u2 v2 w2 x M R1 R2 EG Ne Ni Nf Pe Pi Hms Eu1 Ev1 Ew1 Eu2 Ev2 Ew2 Hx Hu Hv Hw go k Hk.
  destruct (C57_gem F A p mx my e i f fuel dt n m1 L1 u1 v1 w1 R1 Ne Ni Nf Pe Pi Hms Eu1 Ev1 Ew1) as (m1' & L1' & E1 & Z1).
  destruct (C57_gem F A p mx my e i f fuel dt n m2 L2 u2 v2 w2 R2 Ne Ni Nf Pe Pi Hms Eu2 Ev2 Ew2) as (m2' & L2' & E2 & Z2).
  rewrite EG in Z2. fold M in Z1, Z2. destruct R1 as (_ & _ & _ & _ & W).
  assert (T : sys_paired (near M (points (f_0 f)) [1%nat] x 0) sizes
    (Nat.iter n (rk3 (plasma_op p (flux_of (euler_flux (pl_gamma p))) (flux_of (maxwell_flux (pl_c p))) M gem_kinds (spacing (mg_grid m1)) [0; 1]%nat [0; 1]%nat) dt) (three u1 v1 w1))
    (Nat.iter n (rk3 (plasma_op p (flux_of (euler_flux (pl_gamma p))) (flux_of (maxwell_flux (pl_c p))) M gem_kinds (spacing (mg_grid m1)) [0; 1]%nat [0; 1]%nat) dt) (three u2 v2 w2))).
  { apply (rk3_near _ dt (near M (points (f_0 f)) [1%nat] x) sizes (near_more M _ _ x)).
    - intros r U V HU. apply plasma_near; [exact W| |exact HU]. intros a b Hb. cbn in Hb.
      assert (D : b = 0%nat \/ b = 1%nat) by lia. destruct D as [->| ->]; (split; [cbn; lia|]); [destruct a as [|[|[|a]]]; discriminate|now left].
    - rewrite Nat.add_0_r. intros [|[|q]]; cbn [sizes three]; now apply same_near_paired. }
  assert (P1 : points (f_0 e) = points (f_0 f)) by (unfold points; now rewrite Pe). assert (P2 : points (f_0 i) = points (f_0 f)) by (unfold points; now rewrite Pi).
  destruct Hk as [<-|[<-|[<-|[]]]].
  - refine (ends_near m1 m2 m1' m2' M L1 L2 L1' L2' [e; i; f] dt n _ _ 0 _ _ [1%nat] x _ _ E1 E2 Z1 Z2 eq_refl eq_refl _ _); rewrite ?Ne, P1; [exact Hx|exact (T 0%nat)].
  - refine (ends_near m1 m2 m1' m2' M L1 L2 L1' L2' [e; i; f] dt n _ _ 1 _ _ [1%nat] x _ _ E1 E2 Z1 Z2 eq_refl eq_refl _ _); rewrite ?Ni, P2; [exact Hx|exact (T 1%nat)].
  - refine (ends_near m1 m2 m1' m2' M L1 L2 L1' L2' [e; i; f] dt n _ _ 2 _ _ [1%nat] x _ _ E1 E2 Z1 Z2 eq_refl eq_refl _ _); rewrite ?Nf; [exact Hx|exact (T 2%nat)].
Qed.
Print Assumptions C77_gem.

(** two_fluid_brio_wu and harris_current_sheet. *)
Theorem C77_brio_wu : forall F (A : Arith F) p mx e i f fuel dt n (m1 m2 : mgr F) L1 L2 u1 v1 w1 u2 v2 w2 x, let M := [mx] in
  program_ready m1 M L1 [e; i; f] fuel -> program_ready m2 M L2 [e; i; f] fuel -> mg_grid m2 = mg_grid m1 ->
  List.length (id_comps (f_0 e)) = 5%nat -> List.length (id_comps (f_0 i)) = 5%nat -> List.length (id_comps (f_0 f)) = 6%nat ->
  bs_points (id_basis (f_0 e)) = bs_points (id_basis (f_0 f)) -> bs_points (id_basis (f_0 i)) = bs_points (id_basis (f_0 f)) -> List.length (pl_ms p) = 2%nat ->
  field_get L1 (f_0 e) = Some u1 -> field_get L1 (f_0 i) = Some v1 -> field_get L1 (f_0 f) = Some w1 ->
  field_get L2 (f_0 e) = Some u2 -> field_get L2 (f_0 i) = Some v2 -> field_get L2 (f_0 f) = Some w2 ->
  in_box (M ++ points (f_0 f)) x -> same_near M [] (6 * n) 5 x u1 u2 -> same_near M [] (6 * n) 5 x v1 v2 -> same_near M [] (6 * n) 6 x w1 w2 ->
  let go := run (plasma_step true fuel p (brio_wu_bcs e i f) e i f) dt n in
  forall k, In k [f_0 e; f_0 i; f_0 f] -> exists a b, ends (go m1) M k a /\ ends (go m2) M k b /\
    forall j, 0 <= j < Z.of_nat (List.length (id_comps k)) -> a (x ++ [j]) = b (x ++ [j]).
Proof.
  intros F A p mx e i f fuel dt n m1 m2 L1 L2 u1 v1 w1 u2 v2 w2 x M R1 R2 EG Ne Ni Nf Pe Pi Hms Eu1 Ev1 Ew1 Eu2 Ev2 Ew2 Hx Hu Hv Hw go k Hk.
  destruct (C57_brio_wu F A p mx e i f fuel dt n m1 L1 u1 v1 w1 R1 Ne Ni Nf Pe Pi Hms Eu1 Ev1 Ew1) as (m1' & L1' & E1 & Z1).
  destruct (C57_brio_wu F A p mx e i f fuel dt n m2 L2 u2 v2 w2 R2 Ne Ni Nf Pe Pi Hms Eu2 Ev2 Ew2) as (m2' & L2' & E2 & Z2).
  rewrite EG in Z2. fold M in Z1, Z2. destruct R1 as (_ & _ & _ & _ & W).
  assert (T : sys_paired (near M (points (f_0 f)) [] x 0) sizes
    (Nat.iter n (rk3 (plasma_op p (flux_of (euler_flux (pl_gamma p))) (flux_of (maxwell_flux (pl_c p))) M wall_kinds (spacing (mg_grid m1)) [0%nat] [0%nat]) dt) (three u1 v1 w1))
    (Nat.iter n (rk3 (plasma_op p (flux_of (euler_flux (pl_gamma p))) (flux_of (maxwell_flux (pl_c p))) M wall_kinds (spacing (mg_grid m1)) [0%nat] [0%nat]) dt) (three u2 v2 w2))).
  { apply (rk3_near _ dt (near M (points (f_0 f)) [] x) sizes (near_more M _ _ x)).
    - intros r U V HU. apply plasma_near; [exact W| |exact HU]. intros a b Hb. cbn in Hb.
      assert (D : b = 0%nat) by lia. subst b. split; [cbn; lia|]. destruct a as [|[|[|a]]]; discriminate.
    - rewrite Nat.add_0_r. intros [|[|q]]; cbn [sizes three]; now apply same_near_paired. }
  assert (P1 : points (f_0 e) = points (f_0 f)) by (unfold points; now rewrite Pe). assert (P2 : points (f_0 i) = points (f_0 f)) by (unfold points; now rewrite Pi).
  destruct Hk as [<-|[<-|[<-|[]]]].
  - refine (ends_near m1 m2 m1' m2' M L1 L2 L1' L2' [e; i; f] dt n _ _ 0 _ _ [] x _ _ E1 E2 Z1 Z2 eq_refl eq_refl _ _); rewrite ?Ne, P1; [exact Hx|exact (T 0%nat)].
  - refine (ends_near m1 m2 m1' m2' M L1 L2 L1' L2' [e; i; f] dt n _ _ 1 _ _ [] x _ _ E1 E2 Z1 Z2 eq_refl eq_refl _ _); rewrite ?Ni, P2; [exact Hx|exact (T 1%nat)].
  - refine (ends_near m1 m2 m1' m2' M L1 L2 L1' L2' [e; i; f] dt n _ _ 2 _ _ [] x _ _ E1 E2 Z1 Z2 eq_refl eq_refl _ _); rewrite ?Nf; [exact Hx|exact (T 2%nat)].
Qed.
Print Assumptions C77_brio_wu.

(** ** nothing happens where the news has not arrived

    In exact arithmetic a gas at rest that is uniform up to 6 n cells around [x], walls
    or not, is still the same in [x] after [n] steps. *)
Lemma sod_quiet : forall gamma M P bc dx dt ps n u w x, wide M 2 (seq 0 (List.length M)) -> (forall e, (e < List.length M)%nat -> bc e = Periodic /\ In e ps \/ bc e = NoSlip) ->
  (forall j, 1 <= j < 4 -> w j = 0%R) -> in_box (M ++ P) x -> (forall y j, within M ps (6 * n) x y -> 0 <= j < 5 -> u (y ++ [j]) = w j) ->
  forall j, 0 <= j < 5 -> Nat.iter n (rk3 (fun V _ => fv_rhs 5 (flux_of (euler_flux (F := R) gamma)) M bc dx (seq 0 (List.length M)) (V 0%nat)) dt) (fun _ => u) 0%nat (x ++ [j]) = w j.
Proof.
  intros gamma M P bc dx dt ps n u w x HW HB H0 Hx HS j Hj. set (c := fun c : list Z => w (last c 0)).
  assert (T : sys_paired (near M P ps x 0) (fun _ => 5) (Nat.iter n (rk3 (fun V _ => fv_rhs 5 (flux_of (euler_flux gamma)) M bc dx (seq 0 (List.length M)) (V 0%nat)) dt) (fun _ => c))
    (Nat.iter n (rk3 (fun V _ => fv_rhs 5 (flux_of (euler_flux gamma)) M bc dx (seq 0 (List.length M)) (V 0%nat)) dt) (fun _ => u))).
  { apply (rk3_near _ dt (near M P ps x) (fun _ => 5) (near_more M _ _ x)).
    - intros r U V HU i. apply fv_near; auto. intros e He. apply in_seq in He. split; [lia|]. destruct (HB e ltac:(lia)) as [[_ Hp]|Hn]; [auto|rewrite Hn; discriminate].
    - rewrite Nat.add_0_r. intros i. apply same_near_paired. intros y q Hy Hq. unfold c. rewrite last_last. symmetry. now apply HS. }
  rewrite (T 0%nat x x j); [|split; [reflexivity|split; [exact Hx|constructor]]|exact Hj].
  refine (rest_rk3 _ dt (M ++ P) 5 w _ n (fun _ => c) _ 0%nat x j Hx Hj).
  - intros U HU _. apply (rest_rhs 5 _ M P bc dx (seq 0 (List.length M)) w); auto. intros e He. apply in_seq in He. split; [lia|]. destruct (HB e ltac:(lia)) as [[Hp _]|Hn]; auto.
  - intros _ y q Hy Hq. unfold c. now rewrite last_last.
Qed.
Theorem C77_sod_quiet : forall gamma M f fuel dt n ws ps (m : mgr R) L u w x,
  program_ready m M L [f] fuel -> List.length (id_comps (f_0 f)) = 5%nat -> (List.length M <= 4)%nat ->
  (forall d, In d (ws ++ ps) <-> (d < List.length M)%nat) -> (forall d, In d ws -> ~ In d ps) -> field_get L (f_0 f) = Some u ->
  (forall j, 1 <= j < 4 -> w j = 0%R) -> in_box (M ++ points (f_0 f)) x -> (forall y j, within M ps (6 * n) x y -> 0 <= j < 5 -> u (y ++ [j]) = w j) ->
  exists u', ends (run (sod_step true fuel gamma (map Z.of_nat ws) (map Z.of_nat ps) f) dt n m) M (f_0 f) u' /\ forall j, 0 <= j < 5 -> u' (x ++ [j]) = w j.
Proof.
  intros gamma M f fuel dt n ws ps m L u w x R1 N5 N4 Hds Hxx Eu H0 Hx HS.
  destruct (C57_sod R RArith gamma M f fuel dt n ws ps m L u R1 N5 N4 Hds Hxx Eu) as (m' & L' & E1 & Z1). destruct R1 as (_ & _ & _ & _ & W).
  destruct Z1 as ((H1 & _) & _ & _ & _ & S1 & _). destruct (S1 0%nat (f_0 f) eq_refl) as (u' & Eu' & Hu'). exists u'. split; [exists m', L'; auto|].
  intros j Hj. rewrite Hu' by (apply cell_join; [exact Hx|rewrite N5; exact Hj]). apply (sod_quiet gamma M (points (f_0 f)) _ _ dt ps n u w x); auto.
  intros e He. destruct (in_dec Nat.eq_dec e ps) as [Hp|Hp]; auto.
Qed.
Print Assumptions C77_sod_quiet.

(** Steps along other dimensions do not change a coordinate, steps along it change it by
    one at most. *)
Lemma within_far : forall M ps d r x y, within M ps r x y -> (d < List.length x)%nat -> ~ In d ps -> Z.abs (nth d y 0 - nth d x 0) <= Z.of_nat r.
Proof.
  intros M ps d r x y H. induction H as [r x|r x y z (e & t & He & Ht & Hy & HE) H IH]; intros Hd Hp; [lia|].
  assert (L : List.length y = List.length x) by (destruct HE as [->|[_ ->]]; [apply move_length|apply around_length]). specialize (IH ltac:(lia) Hp).
  assert (Z.abs (nth d y 0 - nth d x 0) <= 1); [|lia]. destruct HE as [->|[Hin ->]].
  - destruct (Nat.eq_dec d e) as [->|N]; [rewrite move_nth by exact Hd; lia|]. unfold move. rewrite nth_upd_neq by congruence. lia.
  - rewrite around_other by congruence. lia.
Qed.

(** sod_shock_tube saves every five steps. In exact arithmetic file number k shows the
    initial states, density 1 and energy 5/2 on the left, density 1/8 and energy 1/4 on
    the right, in all cells at least 30 k cells away from the diaphragm. *)
Theorem C77_sod_files : forall fuel dir opens, enough fuel -> (forall k, (k < 101)%nat -> opens (frame dir k) = true) ->
  exists fs : list (string * stream R), sod_shock_tube true fuel opens dir = Done fs /\ List.length fs = 101%nat /\
    forall k f, nth_error fs k = Some f -> forall i row c l r, (i < 500)%nat -> (row < 2)%nat ->
      In (c, (l, r)) [("rho", (1, 1/8)); ("px", (0, 0)); ("py", (0, 0)); ("pz", (0, 0)); ("e", (5/2, 1/4))]%string%R ->
      ((i + 30 * k < 250)%nat -> nth (i + 500 * row) (column "fluid" c (snd f)) 0%R = l) /\
      ((250 + 30 * k <= i)%nat -> nth (i + 500 * row) (column "fluid" c (snd f)) 0%R = r).
Proof.
  intros fuel dir opens HU HO. destruct (C74_sod R RArith fuel dir HU) as (v & Hv & S). destruct (S opens) as [S1 _]. specialize (S1 HO). clear S.
  eexists. split; [exact S1|]. split; [now apply C74_names|]. clear S1. intros k f Hf i row c l r Hi Hrow Hc.
  unfold saved in Hf. rewrite nth_error_map in Hf. destruct (nth_error (seq 0 101) k) as [k'|] eqn:Ek; [|discriminate]. cbn [option_map] in Hf.
  apply (f_equal (fun o => match o with Some a => a | None => f end)) in Hf. cbv beta iota in Hf. subst f. cbn [snd].
  assert (Hk : (k < 101)%nat) by (rewrite <- (seq_length 101 0); apply nth_error_Some; congruence).
  rewrite (nth_error_nth' (seq 0 101) 0%nat) in Ek by (rewrite seq_length; exact Hk). rewrite seq_nth, Nat.add_0_l in Ek by exact Hk. injection Ek as <-. clear Hk HO.
  unfold movie.
  match goal with |- context [vtk_file sod_mesh _ _ (fields_of _ (Nat.iter (5 * k) ?f ?v))] => set (V := Nat.iter (5 * k) f v) end.
  assert (HC : exists j, 0 <= j < 5 /\ find (fun jc => String.eqb (snd jc) c) (numbered (fluid_id "fluid")) = Some (j, c) /\ l = at_rest 1%R (5/2)%R j /\ r = at_rest (1/8)%R (1/4)%R j).
  { destruct Hc as [Hc|[Hc|[Hc|[Hc|[Hc|[]]]]]]; injection Hc as <- <- <-; [exists 0|exists 1|exists 2|exists 3|exists 4]; (split; [lia|split; [reflexivity|split; reflexivity]]). }
  destruct HC as (j & Hj & HC & -> & ->).
  assert (C2 : forall o h, column "fluid" c (vtk_file sod_mesh o h (fields_of [fluid_id "fluid"] V)) = vtk_values sod_mesh (V 0%nat) j).
  { intros o h. refine (C75_column R sod_mesh _ _ _ (fluid_id "fluid") _ c j _ _ HC); [repeat constructor|reflexivity]. }
  rewrite C2. clear C2 HC Hc.
  assert (EN : nth (i + 500 * row) (vtk_values sod_mesh (V 0%nat) j) 0%R = V 0%nat ([Z.of_nat i; Z.of_nat row; 0] ++ [j])).
  { transitivity (nth (i + 500 * row) (map (fun c => V 0%nat (rev c ++ [0; j])) (map (cons 0) (cells [(0, 500)]) ++ map (cons 1) (cells [(0, 500)]))) 0%R); [reflexivity|].
    assert (LC : List.length (cells [(0, 500)]) = 500%nat) by reflexivity.
    assert (NC : nth i (cells [(0, 500)]) [] = [Z.of_nat i]).
    { change (cells [(0, 500)]) with (flat_map (fun a => [[a]]) (zrange 0 500)). rewrite flat_map_concat_map. change (zrange 0 500) with (map Z.of_nat (seq 0 500)). rewrite map_map.
      assert (G : forall l : list nat, List.concat (map (fun x => [[Z.of_nat x]]) l) = map (fun x => [Z.of_nat x]) l) by (induction l as [|a l IH]; [reflexivity|cbn; now f_equal]).
      rewrite G. rewrite (nth_indep _ [] [Z.of_nat 0]) by (rewrite map_length, seq_length; exact Hi). rewrite (map_nth (fun x => [Z.of_nat x])), seq_nth by exact Hi. reflexivity. }
    rewrite (nth_indep _ 0%R (V 0%nat (rev [] ++ [0; j]))) by (rewrite map_length, app_length, !map_length, LC; lia).
    rewrite (map_nth (fun c => V 0%nat (rev c ++ [0; j]))).
    assert (R01 : row = 0%nat \/ row = 1%nat) by lia. destruct R01 as [->| ->].
    - rewrite app_nth1 by (rewrite map_length, LC; lia). replace (i + 500 * 0)%nat with i by lia. rewrite (nth_indep _ [] [0]) by (rewrite map_length, LC; lia).
      rewrite (map_nth (cons 0)), NC. reflexivity.
    - rewrite app_nth2 by (rewrite map_length, LC; lia). rewrite map_length, LC. replace (i + 500 * 1 - 500)%nat with i by lia.
      rewrite (nth_indep _ [] (1 :: [])) by (rewrite map_length, LC; lia). rewrite (map_nth (cons 1)), NC. reflexivity. }
  rewrite EN. clear EN. set (x := [Z.of_nat i; Z.of_nat row; 0]).
  assert (Hx : in_box (sod_mesh ++ [(0, 1)]) x) by (unfold x; repeat (constructor; [cbn; lia|]); constructor).
  assert (CE : forall y, in_box (sod_mesh ++ [(0, 1)]) y -> center (F := R) sod_grid y 0 = ((IZR (nth 0 y 0%Z) - IZR 250 + 1/2) / 500)%R).
  { intros y _. unfold center, sod_grid, grid_on. cbn. unfold Rdecimal. cbn. field. }
  assert (K : forall w, (forall j, 1 <= j < 4 -> w j = 0%R) ->
    (forall y q, in_box (sod_mesh ++ [(0, 1)]) y -> Z.abs (nth 0 y 0 - Z.of_nat i) <= 30 * Z.of_nat k -> 0 <= q < 5 -> v (y ++ [q]) = w q) -> V 0%nat (x ++ [j]) = w j).
  { intros w H0 Hw. refine (sod_quiet (fdec 14 (-1)) sod_mesh [(0, 1)] _ _ _ [1%nat] (5 * k) v w x _ _ H0 Hx _ j Hj).
    - exact (proj1 (proj2 (proj2 (proj2 (sod_setting R RArith fuel HU))))).
    - intros [|[|e]] He; [now right|left; split; [reflexivity|now left]|cbn in He; lia].
    - intros y q Hy Hq. apply Hw; [exact (within_in sod_mesh [(0, 1)] [1%nat] _ x y Hx Hy)| |exact Hq].
      pose proof (within_far _ _ 0 _ _ _ Hy ltac:(cbn; lia) ltac:(cbn; lia)) as D. unfold x in D. cbn [nth] in D. lia. }
  assert (B : forall y q, in_box (sod_mesh ++ [(0, 1)]) y -> 0 <= q < 5 -> v (y ++ [q]) = if nth 0 y 0 <? 250 then at_rest 1%R (5/2)%R q else at_rest (1/8)%R (1/4)%R q).
  { intros y q Hy Hq. rewrite (Hv y q) by auto. rewrite (CE y Hy). unfold blast. cbn [flt RArith].
    destruct (Z.ltb_spec (nth 0 y 0) 250) as [C|C].
    - replace (Rltb _ _) with true; [f_equal; cbn; unfold Rdecimal; cbn; try reflexivity; field|symmetry; apply Rltb_iff].
      assert (C' : (IZR (nth 0 y 0%Z) <= 249)%R) by (apply IZR_le; lia). cbn. lra.
    - replace (Rltb _ _) with false; [f_equal; cbn; unfold Rdecimal; cbn; field|symmetry; apply Rltb_not].
      apply IZR_le in C. cbn. lra. }
  split; intros H; apply K.
  - intros q Hq. unfold at_rest. destruct (Z.eqb_spec q 0), (Z.eqb_spec q 4); try lia. reflexivity.
  - intros y q Hy HA Hq. rewrite (B y q Hy Hq). destruct (Z.ltb_spec (nth 0 y 0) 250); [reflexivity|lia].
  - intros q Hq. unfold at_rest. destruct (Z.eqb_spec q 0), (Z.eqb_spec q 4); try lia. reflexivity.
  - intros y q Hy HA Hq. rewrite (B y q Hy Hq). destruct (Z.ltb_spec (nth 0 y 0) 250); [lia|reflexivity].
Qed.
Print Assumptions C77_sod_files.

(** ** concrete cases *)

(** Sixteen cells in a circle, Bz and Ey with squares in them; one value of Bz changed. *)
Definition circle : box := [(0, 16)].
Definition circle_grid {F} {A : Arith F} : grid F := mkGrid (range_of circle) [f0] [f1] [f1].
Definition squares {F} {A : Arith F} (a : Z) : field F := fun c =>
  if last c 0 =? 5 then fofz (nth 0 c 0 * nth 0 c 0 + (if nth 0 c 0 =? a then 1000 else 0)) else if last c 0 =? 1 then fofz (nth 0 c 0 * nth 0 c 0) else f0.
Definition circle_start {F} {A : Arith F} (a : Z) : mgr F := mgr_of circle_grid circle [(f_0 em, squares a)] None None.
Lemma circle_ready : forall F (A : Arith F) a, program_ready (@circle_start F A a) circle [(f_0 em, squares a)] [em] 999.
Proof. intros. is_ready. Qed.
(** Ey and Bz in cell 8 after a step, in doubles. *)
Definition in_cell_8 (a : Z) : list spec_float :=
  map (fun i => nth i (data_after circle (f_0 em) (run (pulse_step true 999 (dbl 1) [0] em) (dbl 1) 1 (circle_start a))) f0) [61; 65]%nat.
(** A change seven cells away leaves both values as they are, whichever way around; a
    change six cells away does not: six is the right number. *)
Example C77_pulse_ex : map in_cell_8 [99; 1; 15; 2; 14] =
  let same := [S754_finite false 6894515850561003 (-47); S754_finite false 6894515850561003 (-47)] in
  [same; same; same; [S754_finite false 6895471485998585 (-47); S754_finite false 6895471485998585 (-47)]; [S754_finite false 6894440521941243 (-47); S754_finite false 6894591179180760 (-47)]].
Proof. vm_compute. reflexivity. Qed.
(** With any step length. *)
Example C77_pulse_all_ex : forall dt, exists u v, ends (run (pulse_step true 999 (dbl 1) [0] em) dt 1 (circle_start 99)) circle (f_0 em) u /\
  ends (run (pulse_step true 999 (dbl 1) [0] em) dt 1 (circle_start 15)) circle (f_0 em) v /\ u [8; 0; 1] = v [8; 0; 1] /\ u [8; 0; 5] = v [8; 0; 5].
Proof.
  intros dt. destruct (C77_pulse spec_float _ (dbl 1) circle em 999 dt 1 (circle_start 99) (circle_start 15) _ _ (squares 99) (squares 15) [8; 0] (circle_ready _ _ 99) (circle_ready _ _ 15)) as (u & v & E1 & E2 & H); try reflexivity.
  - repeat (constructor; [cbn; lia|]). constructor.
  - assert (S : forall r x y, within circle (seq 0 1) r x y -> (exists t, x = [t; 0] /\ 8 - (6 - Z.of_nat r) <= t <= 8 + (6 - Z.of_nat r)) -> (r <= 6)%nat -> exists t, y = [t; 0] /\ 2 <= t <= 14).
    { induction 1 as [r x|r x y z (d & s & Hd & Hs & Hy & HE) H IH]; intros (t & -> & Ht) Hr; [exists t; split; [reflexivity|lia]|].
      apply IH; [|lia]. assert (d = 0%nat) as -> by (cbn in Hd; lia). exists (t + s). split; [|lia]. destruct HE as [->|[_ ->]]; [reflexivity|]. unfold around, circle, lo, hi. cbn. f_equal.
      rewrite Z.mod_small by lia. lia. }
    intros y j Hy Hj. destruct (S _ _ _ Hy) as (t & -> & Ht); [exists 8; split; [reflexivity|lia]|lia|]. unfold squares. cbn [app last nth].
    destruct (Z.eqb_spec t 99), (Z.eqb_spec t 15); try lia. reflexivity.
  - exists u, v. split; [exact E1|]. split; [exact E2|]. split; apply H; lia.
Qed.

(** A tube of sixteen cells with walls at the ends; cell [a] is warm. *)
Definition tube : box := [(0, 16)].
Definition tube_grid {F} {A : Arith F} : grid F := mkGrid (range_of tube) [f0] [f1] [f1].
Definition warm_at {F} {A : Arith F} (a : Z) : field F := fun c => if last c 0 =? 0 then f1 else if last c 0 =? 4 then (if nth 0 c 0 =? a then fofz 2 else f1) else f0.
Definition tube_start {F} {A : Arith F} (a : Z) : mgr F := mgr_of tube_grid tube [(f_0 electrons, warm_at a)] None None.
Lemma tube_ready : forall F (A : Arith F) a, program_ready (@tube_start F A a) tube [(f_0 electrons, warm_at a)] [electrons] 999.
Proof. intros. is_ready. Qed.
Lemma warm_near : forall F (A : Arith F) M ps r n x a b, (0 < List.length x)%nat -> ~ In 0%nat ps -> Z.of_nat r < Z.abs (a - nth 0 x 0) -> Z.of_nat r < Z.abs (b - nth 0 x 0) -> same_near M ps r n x (@warm_at F A a) (warm_at b).
Proof.
  intros F A M ps r n x a b Hx Hp Ha Hb y j Hy Hj. pose proof (within_far M ps 0 r x y Hy Hx Hp) as D. assert (L : List.length y = List.length x).
  { clear - Hy. induction Hy as [r x|r x y z (e & t & _ & _ & _ & HE) H IH]; [reflexivity|]. rewrite IH. destruct HE as [->|[_ ->]]; [apply move_length|apply around_length]. }
  unfold warm_at. rewrite last_last, app_nth1 by lia. destruct (Z.eqb_spec (nth 0 y 0) a), (Z.eqb_spec (nth 0 y 0) b); try lia. reflexivity.
Qed.
Example C77_sod_ex : forall dt, exists u v, ends (run (sod_step true 999 (fdec 14 (-1)) [0] [] electrons) dt 2 (tube_start 13)) tube (f_0 electrons) u /\
  ends (run (sod_step true 999 (fdec 14 (-1)) [0] [] electrons) dt 2 (@tube_start spec_float _ 15)) tube (f_0 electrons) v /\ u [0; 0; 1] = v [0; 0; 1].
Proof.
  intros dt. destruct (C77_sod spec_float _ (fdec 14 (-1)) tube electrons 999 dt 2 [0%nat] [] (tube_start 13) (tube_start 15) _ _ (warm_at 13) (warm_at 15) [0; 0] (tube_ready _ _ 13) (tube_ready _ _ 15)
    eq_refl eq_refl ltac:(cbn; lia) ltac:(intros d; cbn; lia) ltac:(intros d _ []) eq_refl eq_refl) as (u & v & E1 & E2 & H).
  - repeat (constructor; [cbn; lia|]). constructor.
  - apply warm_near; cbn; try lia; tauto.
  - exists u, v. split; [exact E1|]. split; [exact E2|]. apply H. lia.
Qed.
(** In exact arithmetic nothing has happened there at all. *)
Example C77_sod_quiet_ex : forall dt, exists u, ends (run (sod_step true 999 (fdec 14 (-1)) [0] [] electrons) dt 2 (@tube_start R _ 13)) tube (f_0 electrons) u /\ u [0; 0; 0] = 1%R /\ u [0; 0; 1] = 0%R /\ u [0; 0; 4] = 1%R.
Proof.
  intros dt. destruct (C77_sod_quiet (fdec 14 (-1)) tube electrons 999 dt 2 [0%nat] [] (tube_start 13) _ (warm_at 13) (at_rest 1%R 1%R) [0; 0] (tube_ready _ _ 13)
    eq_refl ltac:(cbn; lia) ltac:(intros d; cbn; lia) ltac:(intros d _ []) eq_refl) as (u & E & H).
  - intros j Hj. unfold at_rest. destruct (Z.eqb_spec j 0), (Z.eqb_spec j 4); try lia. reflexivity.
  - repeat (constructor; [cbn; lia|]). constructor.
  - intros y j Hy Hj. rewrite (warm_near R _ tube [] 12 5 [0; 0] 13 99 ltac:(cbn; lia) ltac:(cbn; tauto) ltac:(cbn; lia) ltac:(cbn; lia) y j Hy Hj).
    assert (I : in_box (tube ++ points (f_0 electrons)) y). { refine (within_in tube _ [] _ [0; 0] y _ Hy). repeat (constructor; [cbn; lia|]). constructor. }
    inversion I as [|? t ? r Ht Hr]; subst. cbn in Ht. unfold warm_at, at_rest. rewrite last_last. cbn [app nth]. destruct (Z.eqb_spec t 99); [lia|]. reflexivity.
  - exists u. split; [exact E|]. split; [apply (H 0); lia|]. split; [apply (H 1); lia|apply (H 4); lia].
Qed.
(** In file 8 of sod_shock_tube the last ten cells at either end still show the initial
    densities. *)
Example C77_sod_files_ex : exists (fs : list (string * stream R)) f, sod_shock_tube true (Z.to_nat 1000000) (fun _ => true) "d" = Done fs /\ nth_error fs 8 = Some f /\
  nth 9 (column "fluid" "rho" (snd f)) 0%R = 1%R /\ nth 490 (column "fluid" "rho" (snd f)) 0%R = (1/8)%R /\ nth 990 (column "fluid" "e" (snd f)) 0%R = (1/4)%R.
Proof.
  destruct (C77_sod_files (Z.to_nat 1000000) "d" (fun _ => true) plenty ltac:(reflexivity)) as (fs & E & EL & H). destruct (nth_error fs 8) as [f|] eqn:N.
  - exists fs, f. split; [exact E|]. split; [exact N|]. split; [|split].
    + refine (proj1 (H 8%nat f N 9%nat 0%nat "rho"%string 1%R (1/8)%R _ _ _) _); try lia. now left.
    + refine (proj2 (H 8%nat f N 490%nat 0%nat "rho"%string 1%R (1/8)%R _ _ _) _); try lia. now left.
    + refine (proj2 (H 8%nat f N 490%nat 1%nat "e"%string (5/2)%R (1/4)%R _ _ _) _); try lia. do 4 right. now left.
  - apply nth_error_None in N. exfalso. rewrite EL in N. lia.
Qed.
(** Plasmas: the electrons and ions warm in cell 13 or 15, the field the same. *)
Definition warm_plasma {F} {A : Arith F} (a : Z) : list (vid * field F) := [(f_0 electrons, warm_at a); (f_0 ions, warm_at a); (f_0 em, pulse)].
Definition tube_plasma {F} {A : Arith F} (a : Z) : mgr F := mgr_of tube_grid tube (warm_plasma a) None None.
Lemma tube_plasma_ready : forall F (A : Arith F) a, program_ready (@tube_plasma F A a) tube (warm_plasma a) [electrons; ions; em] 999.
Proof. intros. is_ready. Qed.
Example C77_brio_wu_ex : forall p dt, List.length (pl_ms p) = 2%nat -> exists u v, ends (run (plasma_step true 999 p (brio_wu_bcs electrons ions em) electrons ions em) dt 2 (tube_plasma 13)) tube (f_0 em) u /\
  ends (run (plasma_step true 999 p (brio_wu_bcs electrons ions em) electrons ions em) dt 2 (@tube_plasma spec_float _ 15)) tube (f_0 em) v /\ u [0; 0; 1] = v [0; 0; 1].
Proof.
  intros p dt Hms. destruct (C77_brio_wu spec_float _ p (0, 16) electrons ions em 999 dt 2 (tube_plasma 13) (tube_plasma 15) (warm_plasma 13) (warm_plasma 15) (warm_at 13) (warm_at 13) pulse (warm_at 15) (warm_at 15) pulse [0; 0] (tube_plasma_ready _ _ 13) (tube_plasma_ready _ _ 15)
    eq_refl eq_refl eq_refl eq_refl eq_refl eq_refl Hms eq_refl eq_refl eq_refl eq_refl eq_refl eq_refl) with (k := f_0 em) as (u & v & E1 & E2 & H).
  - repeat (constructor; [cbn; lia|]). constructor.
  - apply warm_near; cbn; try lia; tauto.
  - apply warm_near; cbn; try lia; tauto.
  - intros y j _ _. reflexivity.
  - cbn. tauto.
  - exists u, v. split; [exact E1|]. split; [exact E2|]. apply H. cbn. lia.
Qed.
Definition strip : box := [(0, 16); (0, 2)].
Definition strip_plasma {F} {A : Arith F} (a : Z) : mgr F := mgr_of (mkGrid (range_of strip) [f0; f0] [f1; f1] [f1; f1]) strip (warm_plasma a) None None.
Lemma strip_plasma_ready : forall F (A : Arith F) a, program_ready (@strip_plasma F A a) strip (warm_plasma a) [electrons; ions; em] 999.
Proof. intros. is_ready. Qed.
Example C77_gem_ex : forall p dt, List.length (pl_ms p) = 2%nat -> exists u v, ends (run (plasma_step true 999 p (gem_bcs electrons ions em) electrons ions em) dt 2 (strip_plasma 13)) strip (f_0 em) u /\
  ends (run (plasma_step true 999 p (gem_bcs electrons ions em) electrons ions em) dt 2 (@strip_plasma spec_float _ 15)) strip (f_0 em) v /\ u [0; 1; 0; 1] = v [0; 1; 0; 1].
Proof.
  intros p dt Hms. destruct (C77_gem spec_float _ p (0, 16) (0, 2) electrons ions em 999 dt 2 (strip_plasma 13) (strip_plasma 15) (warm_plasma 13) (warm_plasma 15) (warm_at 13) (warm_at 13) pulse (warm_at 15) (warm_at 15) pulse [0; 1; 0] (strip_plasma_ready _ _ 13) (strip_plasma_ready _ _ 15)
    eq_refl eq_refl eq_refl eq_refl eq_refl eq_refl Hms eq_refl eq_refl eq_refl eq_refl eq_refl eq_refl) with (k := f_0 em) as (u & v & E1 & E2 & H).
  - repeat (constructor; [cbn; lia|]). constructor.
  - apply warm_near; cbn; try lia; intros [H|[]]; discriminate.
  - apply warm_near; cbn; try lia; intros [H|[]]; discriminate.
  - intros y j _ _. reflexivity.
  - cbn. tauto.
  - exists u, v. split; [exact E1|]. split; [exact E2|]. apply H. cbn. lia.
Qed.
