(** * ConserveFacts: what the Runge-Kutta method keeps, in exact arithmetic. *)
From Coq Require Import ZArith List String Bool Lia Reals Lra Psatz.
From Verif Require Import Base BaseFacts BoxSpec BoxFacts Range RangeSpec Indexer IndexerFacts Interface ApiSpec Arith ArithR Chunk FieldSpec FieldFacts ChunkFacts VarId Manager MgrSpec MgrFacts
  BC BCSpec BCFacts Sweep SweepSpec SweepFacts FluxFacts Euler Maxwell EulerSpec NumFacts SourceSpec Programs ProgramsSpec RhsFacts.
Import ListNotations.
Open Scope R_scope.

(** ** Runge-Kutta *)

Definition linear_fun (T : field R -> R) : Prop :=
  (forall u v, (forall c, u c = v c) -> T u = T v) /\ forall u v k, T (fun c => u c + k * v c) = T u + k * T v.

Lemma linear_use : forall T, linear_fun T -> forall w u v k, (forall c, w c = u c + k * v c) -> T w = T u + k * T v.
Proof. intros T [E H] w u v k Hw. rewrite <- H. now apply E. Qed.
Lemma linear_zero : forall T, linear_fun T -> T (fun _ => 0) = 0.
Proof. intros T H. pose proof (linear_use T H (fun _ => 0) (fun _ => 0) (fun _ => 0) 1 ltac:(intros; cbn beta; ring)). lra. Qed.
Lemma linear_two : forall T, linear_fun T -> forall w u v a b, (forall c, w c = a * u c + b * v c) -> T w = a * T u + b * T v.
Proof.
  intros T H w u v a b Hw. rewrite (linear_use T H w (fun c => a * u c) v b Hw). rewrite (linear_use T H (fun c => a * u c) (fun _ => 0) u a) by (intros; cbn beta; ring).
  rewrite linear_zero by assumption. ring.
Qed.

Lemma rk3_keep : forall T i Op dt, linear_fun T -> (forall V, T (Op V i) = 0) -> forall U, T (@rk3 R RArith Op dt U i) = T (U i).
Proof.
  intros T i Op dt HT H0 U. unfold rk3. cbn zeta.
  set (U1 := fun i c => fadd (U i c) (fmul dt (Op U i c))).
  set (U2 := fun i c => fadd (fadd (fmul (fdec 75 (-2)) (U i c)) (fmul (fdec 25 (-2)) (U1 i c))) (fmul (fmul (fdec 25 (-2)) dt) (Op U1 i c))).
  assert (T1 : T (U1 i) = T (U i)). { rewrite (linear_use T HT (U1 i) (U i) (Op U i) dt), H0 by reflexivity. ring. }
  assert (T2 : T (U2 i) = T (U i)).
  { set (a := @fdec R RArith 75 (-2)). set (b := @fdec R RArith 25 (-2)).
    rewrite (linear_use T HT (U2 i) (fun c => a * U i c + b * U1 i c) (Op U1 i) (b * dt)), H0 by reflexivity.
    rewrite (linear_two T HT _ (U i) (U1 i) a b) by reflexivity. rewrite T1. unfold a, b. cbn. unfold Rdecimal. cbn. field. }
  change (T (fun c => (U i c + 2 * (U2 i c + dt * Op U2 i c)) / 3) = T (U i)).
  rewrite (linear_use T HT _ (fun c => / 3 * U i c + 2 / 3 * U2 i c) (Op U2 i) (2 / 3 * dt)), H0 by (intros; field).
  rewrite (linear_two T HT _ (U i) (U2 i) (/ 3) (2 / 3)), T2 by reflexivity. field.
Qed.

Lemma rk3_iter : forall T i Op dt, linear_fun T -> (forall V, T (Op V i) = 0) -> forall n U, T (Nat.iter n (@rk3 R RArith Op dt) U i) = T (U i).
Proof.
  intros T i Op dt HT H0 n U. induction n as [|n IH]; [reflexivity|]. rewrite <- IH. apply (rk3_keep T i Op dt HT H0).
Qed.

Lemma total_linear : forall B j, linear_fun (fun u => total B (fun x => u (x ++ [j]))).
Proof. intros. split; [intros u v H; apply total_ext; auto|]. intros. apply total_lin. Qed.
Lemma point_linear : forall c, linear_fun (fun u => u c).
Proof. intros. split; auto. Qed.

(** ** totals of the finite volume right-hand side *)

Lemma cut_shift : forall B d h l f, (d < List.length B)%nat -> total (cut B d h) f = total (cut B d l) (fun x => f (move d (h - l) x)).
Proof.
  intros B d h l f Hd. destruct (nth_error B d) as [[a b]|] eqn:E; [|apply nth_error_None in E; lia].
  apply nth_error_split in E as (p & q & -> & <-). clear Hd. rewrite !cut_mid. revert f.
  induction p as [|[x y] p IH]; intros f.
  - cbn [app List.length]. rewrite !total_cons, (zrange_cons l (l + 1)), (zrange_cons h (h + 1)), (zrange_empty (l + 1)), (zrange_empty (h + 1)) by lia.
    cbn [map fold_right]. f_equal. apply total_ext. intros c _. unfold move. cbn [nth upd]. do 2 f_equal. lia.
  - cbn [app List.length]. rewrite !total_cons. f_equal. apply map_ext. intros t. rewrite IH. reflexivity.
Qed.

Lemma in_cut : forall M P d t x, (d < List.length M)%nat -> in_box (cut (M ++ P) d t) x -> nth d x 0%Z = t /\ (d < List.length x)%nat.
Proof.
  intros M P d t x Hd Hx. assert (Hd' : (d < List.length (M ++ P))%nat) by (rewrite app_length; lia). revert Hd' Hx. generalize (M ++ P). clear M P Hd. intros B Hd Hx.
  destruct (nth_error B d) as [[a b]|] eqn:E; [|apply nth_error_None in E; lia].
  apply nth_error_split in E as (p & q & -> & <-). rewrite cut_mid in Hx. apply in_box_split in Hx as (px & c & qx & -> & J1 & J2 & J3 & J4). cbn [fst snd] in J2.
  rewrite <- J4, nth_middle, app_length. cbn. split; lia.
Qed.

Lemma fv_total : forall n G M P bc dx ds u j, nonempty (M ++ P) -> (forall d, In d ds -> (d < List.length M)%nat) -> (0 <= j < n)%Z ->
  (forall d, In d ds -> total (cut (M ++ P) d (lo M d)) (fun x => wall n G (seen (bc d) M d u) d x j) = total (cut (M ++ P) d (hi M d)) (fun x => wall n G (seen (bc d) M d u) d x j)) ->
  total (M ++ P) (fun x => @fv_rhs R RArith n G M bc dx ds u (x ++ [j])) = 0.
Proof.
  intros n G M P bc dx ds u j HN Hd Hj HW.
  assert (HF : @fluxes_added R RArith M P n (fun d => wall n G (seen (bc d) M d u) d) dx ds (fun _ => 0) (fv_rhs n G M bc dx ds u)).
  { intros x i Hx Hi. unfold fv_rhs, cellwise. now rewrite removelast_last, last_last. }
  pose proof (box_balanced M P n _ dx ds _ _ (M ++ P) j HF (box_incl_refl _) HN) as B.
  assert (B' : balanced (M ++ P) (fun d => wall n G (seen (bc d) M d u) d) dx ds (fun _ => 0) (fv_rhs n G M bc dx ds u) j).
  { apply B; [|exact Hj]. apply Forall_forall. intros d Hin. rewrite app_length. specialize (Hd d Hin). lia. }
  unfold balanced in B'. rewrite (total_ext _ (fun x => fv_rhs n G M bc dx ds u (x ++ [j])) (fun x => fv_rhs n G M bc dx ds u (x ++ [j]) - 0)) by (intros; ring).
  rewrite B'. apply sum_over_zero. intros d Hin. assert (Hd' := Hd d Hin).
  replace (lo (M ++ P) d) with (lo M d) by (unfold lo; now rewrite app_nth1). replace (hi (M ++ P) d) with (hi M d) by (unfold hi; now rewrite app_nth1).
  rewrite (HW d Hin). unfold Rdiv. ring.
Qed.

Lemma seen_at : forall k M d (u : field R) t x i, (d < List.length x)%nat ->
  seen k M d u (move d t x ++ [i]) =
  if (nth d x 0 + t <? lo M d)%Z then low_value k M d u (move d t x ++ [i]) else if (hi M d <=? nth d x 0 + t)%Z then up_value k M d u (move d t x ++ [i]) else u (move d t x ++ [i]).
Proof.
  intros. unfold seen. assert (N : nth d (move d t x ++ [i]) 0%Z = (nth d x 0 + t)%Z).
  { rewrite app_nth1 by (now rewrite move_length). unfold move. now apply nth_upd_eq. }
  now rewrite N.
Qed.

Lemma move_nth : forall d t (x : list Z), (d < List.length x)%nat -> nth d (move d t x) 0%Z = (nth d x 0 + t)%Z.
Proof. intros. unfold move. now apply nth_upd_eq. Qed.

Lemma flip_move : forall d s t (x : list Z) i, (d < List.length x)%nat -> flip d s (move d t x ++ [i]) = move d (s - t - 2 * nth d x 0)%Z x ++ [i].
Proof.
  intros d s t x i Hd. destruct (nth_error x d) as [a|] eqn:E; [|apply nth_error_None in E; lia].
  apply nth_error_split in E as (p & q & -> & <-). rewrite nth_middle, !move_mid. unfold flip. rewrite <- app_assoc. cbn [app]. rewrite nth_middle, upd_mid, <- app_assoc. cbn [app].
  do 2 f_equal. lia.
Qed.
Lemma move_snoc' : forall d s t (x : list Z) i, (d < List.length x)%nat -> move d s (move d t x ++ [i]) = move d (t + s) x ++ [i].
Proof. intros. rewrite move_snoc by (now rewrite move_length). now rewrite move_move. Qed.

Lemma periodic_walls : forall n G M P (u : field R) d j, (d < List.length M)%nat -> (2 <= hi M d - lo M d)%Z ->
  total (cut (M ++ P) d (lo M d)) (fun x => wall n G (seen Periodic M d u) d x j) = total (cut (M ++ P) d (hi M d)) (fun x => wall n G (seen Periodic M d u) d x j).
Proof.
  intros n G M P u d j Hd Hw. rewrite (cut_shift (M ++ P) d (hi M d) (lo M d)) by (rewrite app_length; lia).
  apply total_ext. intros x Hx. apply (in_cut M P d _ x Hd) in Hx as [Ex Lx].
  assert (Lx' : (d < List.length (move d (hi M d - lo M d) x))%nat) by (now rewrite move_length).
  apply wall_ext; [|now apply move_0|now apply move_0]. intros t i Ht Hi. rewrite !seen_at, move_nth by assumption. rewrite Ex.
  replace (lo M d + (hi M d - lo M d) + t)%Z with (hi M d + t)%Z by lia. rewrite move_move by assumption.
  destruct (Z.ltb_spec (lo M d + t) (lo M d)).
  - destruct (Z.ltb_spec (hi M d + t) (lo M d)); [lia|]. destruct (Z.leb_spec (hi M d) (hi M d + t)); [lia|].
    cbn [low_value]. rewrite move_snoc' by assumption. do 3 f_equal. lia.
  - destruct (Z.leb_spec (hi M d) (lo M d + t)); [lia|]. destruct (Z.ltb_spec (hi M d + t) (lo M d)); [lia|]. destruct (Z.leb_spec (hi M d) (hi M d + t)); [|lia].
    cbn [up_value]. rewrite move_snoc' by assumption. do 3 f_equal. lia.
Qed.

(** ** walls *)

(** The right state is the mirror image of the left one, components in [odd]
    changing sign. *)
Definition mirror (odd : Z -> bool) (n : Z) (l r : list R) : Prop := exists f : Z -> R,
  l = map f (zrange 0 n) /\ r = map (fun j => if odd j then - f j else f j) (zrange 0 n).

Lemma even_left : forall a b : R, left_value a b b = b.
Proof. intros. rewrite left_R, phi_R. replace (b - b) with 0 by ring. unfold Rdiv. rewrite !Rmult_0_l, Rplus_0_l, Rmult_0_l. ring. Qed.
Lemma even_right : forall b c : R, right_value b b c = b.
Proof. intros. rewrite right_R, phi_R. replace (b - b) with 0 by ring. unfold Rdiv. rewrite !Rmult_0_l, Rplus_0_l, Rmult_0_l. ring. Qed.

Definition odd_of (k : bc_kind) (j : Z) : bool :=
  match k with NoSlip | FreeSlip => (1 <=? j)%Z && (j <? 4)%Z | ConductingWall => (0 <=? j)%Z && (j <? 4)%Z | _ => false end.

Lemma mirror_values : forall k M d (u : field R) x i, k <> Periodic ->
  low_value k M d u (x ++ [i]) = (if odd_of k i then - u (flip d (2 * lo M d - 1) (x ++ [i])) else u (flip d (2 * lo M d - 1) (x ++ [i]))) /\
  up_value k M d u (x ++ [i]) = (if odd_of k i then - u (flip d (2 * hi M d - 1) (x ++ [i])) else u (flip d (2 * hi M d - 1) (x ++ [i]))).
Proof.
  intros k M d u x i Hk. unfold low_value, up_value, comp, reversed, odd_of. rewrite last_last.
  destruct k; try congruence; try (split; reflexivity); split; (match goal with |- context [if ?b then _ else _] => destruct b end; [cbn; ring|reflexivity]).
Qed.

Lemma wall_mirror : forall k n M d (u : field R) x, k <> Periodic -> (d < List.length x)%nat -> (2 <= hi M d - lo M d)%Z ->
  nth d x 0%Z = lo M d \/ nth d x 0%Z = hi M d ->
  mirror (odd_of k) n (left_state n (seen k M d u) d x) (right_state n (seen k M d u) d x).
Proof.
  intros k n M d u x Hk Lx Hw Hx.
  exists (fun j => left_value (seen k M d u (move d (-2) x ++ [j])) (seen k M d u (move d (-1) x ++ [j])) (seen k M d u (x ++ [j]))).
  split; [reflexivity|]. unfold right_state. apply map_ext. intros i.
  assert (E0 : seen k M d u (x ++ [i]) = seen k M d u (move d 0 x ++ [i])) by (now rewrite move_0).
  rewrite E0. rewrite !seen_at by assumption. destruct Hx as [Hx|Hx]; rewrite Hx.
  - rewrite (proj2 (Z.ltb_lt (lo M d + -2) (lo M d))), (proj2 (Z.ltb_lt (lo M d + -1) (lo M d))) by lia.
    destruct (Z.ltb_spec (lo M d + 0) (lo M d)); [lia|]. destruct (Z.leb_spec (hi M d) (lo M d + 0)); [lia|].
    destruct (Z.ltb_spec (lo M d + 1) (lo M d)); [lia|]. destruct (Z.leb_spec (hi M d) (lo M d + 1)); [lia|].
    rewrite !(proj1 (mirror_values k M d u (move d _ x) i Hk)). rewrite !flip_move by assumption. rewrite Hx.
    replace (2 * lo M d - 1 - -1 - 2 * lo M d)%Z with 0%Z by lia. replace (2 * lo M d - 1 - -2 - 2 * lo M d)%Z with 1%Z by lia.
    destruct (odd_of k i); [|now rewrite even_left, even_right]. rewrite <- point_reflection. now rewrite !Ropp_involutive.
  - destruct (Z.ltb_spec (hi M d + -2) (lo M d)); [lia|]. destruct (Z.leb_spec (hi M d) (hi M d + -2)); [lia|].
    destruct (Z.ltb_spec (hi M d + -1) (lo M d)); [lia|]. destruct (Z.leb_spec (hi M d) (hi M d + -1)); [lia|].
    destruct (Z.ltb_spec (hi M d + 0) (lo M d)); [lia|]. destruct (Z.leb_spec (hi M d) (hi M d + 0)); [|lia].
    destruct (Z.ltb_spec (hi M d + 1) (lo M d)); [lia|]. destruct (Z.leb_spec (hi M d) (hi M d + 1)); [|lia].
    rewrite !(proj2 (mirror_values k M d u (move d _ x) i Hk)). rewrite !flip_move by assumption. rewrite Hx.
    replace (2 * hi M d - 1 - 0 - 2 * hi M d)%Z with (-1)%Z by lia. replace (2 * hi M d - 1 - 1 - 2 * hi M d)%Z with (-2)%Z by lia.
    destruct (odd_of k i); [|now rewrite even_left, even_right]. rewrite <- point_reflection. now rewrite !Ropp_involutive.
Qed.

Lemma hll_mirror : forall s fl fr ql qr j, List.length fl = List.length fr -> List.length fl = List.length ql -> List.length fl = List.length qr ->
  (j < List.length fl)%nat -> nth j fr 0 = - nth j fl 0 -> nth j qr 0 = nth j ql 0 -> nth j (@hll R RArith s (- s) fl fr ql qr) 0 = 0.
Proof.
  intros s fl fr ql qr j L1 L2 L3 Hj E1 E2. destruct (Rle_dec s 0) as [H|H].
  - rewrite hll_mid by (auto; lra). unfold hll_average. rewrite E1, E2. unfold Rdiv.
    replace (- s * nth j fl 0 - s * - nth j fl 0 + s * - s * (nth j ql 0 - nth j ql 0)) with 0 by ring. ring.
  - rewrite hll_both by (auto; lra). lra.
Qed.

Lemma euler_wall : forall gamma d l r j, (d < 3)%nat -> mirror (odd_of NoSlip) 5 l r -> j = 0%nat \/ j = 4%nat ->
  nth j (flux_of (@euler_flux R RArith gamma) d l r) 0 = 0.
Proof.
  intros gamma d l r j Hd (f & -> & ->) Hj.
  change (zrange 0 5) with [0; 1; 2; 3; 4]%Z. cbn [map odd_of Z.leb Z.ltb Z.compare Pos.compare Pos.compare_cont andb].
  set (l := [f 0%Z; f 1%Z; f 2%Z; f 3%Z; f 4%Z]). set (r := [f 0%Z; - f 1%Z; - f 2%Z; - f 3%Z; f 4%Z]).
  unfold flux_of. rewrite euler_flux_hll by (reflexivity || assumption).
  assert (P : pressure gamma r = pressure gamma l).
  { unfold pressure, kinetic, momentum, energy, density, l, r. cbn [nth]. do 3 f_equal. ring. }
  assert (S : sound gamma r = sound gamma l) by (unfold sound; rewrite P; reflexivity).
  assert (V : velocity d r = - velocity d l).
  { unfold velocity, momentum, density, l, r. do 3 (destruct d as [|d]; [cbn [nth]; unfold Rdiv; ring|]). lia. }
  replace (right_speed gamma d r) with (- left_speed gamma d l) by (unfold left_speed, right_speed; rewrite S, V; ring).
  apply hll_mirror; try reflexivity.
  - cbn. lia.
  - destruct Hj as [-> | ->]; unfold euler_phys; rewrite ?P, ?V; unfold momentum, energy, density, l, r; do 3 (destruct d as [|d]; [cbn; ring|]); lia.
  - destruct Hj as [-> | ->]; reflexivity.
Qed.

Lemma maxwell_wall : forall c l r j, mirror (odd_of ConductingWall) 6 l r -> j = 4%nat \/ j = 5%nat ->
  nth j (flux_of (@maxwell_flux R RArith c) 0 l r) 0 = 0.
Proof.
  intros c l r j (f & -> & ->) Hj. change (zrange 0 6) with [0; 1; 2; 3; 4; 5]%Z. cbn [map odd_of Z.leb Z.ltb Z.compare Pos.compare Pos.compare_cont andb].
  unfold flux_of, maxwell_flux. cbn [Z.of_nat Z.eqb]. destruct Hj as [-> | ->]; cbn [nth fadd fmul fsub fneg RArith]; ring.
Qed.

Lemma maxwell_normal_wall : forall {F} {A : Arith F} c d (u : field F) x j, (d < 3)%nat -> j = Z.of_nat d \/ j = Z.of_nat (d + 3) ->
  wall 6 (flux_of (maxwell_flux c)) u d x j = f0.
Proof.
  intros F A c d u x j Hd Hj. unfold wall, flux_of.
  destruct (maxwell_normal c d (left_state 6 u d x) (right_state 6 u d x) (Z.to_nat j)) as (f & Ef & Hf); [reflexivity|reflexivity|assumption|lia|].
  rewrite Ef. now apply nth_error_nth with (d := f0) in Hf.
Qed.

Lemma zero_walls : forall n G M P k (u : field R) d j, (d < List.length M)%nat ->
  (forall x, (d < List.length x)%nat -> nth d x 0%Z = lo M d \/ nth d x 0%Z = hi M d -> wall n G (seen k M d u) d x j = 0) ->
  total (cut (M ++ P) d (lo M d)) (fun x => wall n G (seen k M d u) d x j) = total (cut (M ++ P) d (hi M d)) (fun x => wall n G (seen k M d u) d x j).
Proof.
  intros n G M P k u d j Hd H. rewrite !(total_ext _ (fun x => wall n G (seen k M d u) d x j) (fun _ => 0)).
  - unfold total. rewrite !sum_zero; auto.
  - intros x Hx. apply (in_cut M P d _ x Hd) in Hx as [Ex Lx]. auto.
  - intros x Hx. apply (in_cut M P d _ x Hd) in Hx as [Ex Lx]. auto.
Qed.

(** Totals of the Euler right-hand side: everything in a periodic box, mass and
    energy in a box with walls. *)
Lemma euler_total : forall gamma M P bc dx ds u j, nonempty (M ++ P) -> (List.length M <= 3)%nat -> wide M 2 ds -> (0 <= j < 5)%Z ->
  (forall d, In d ds -> bc d = Periodic \/ (bc d = NoSlip /\ (j = 0%Z \/ j = 4%Z))) ->
  total (M ++ P) (fun x => @fv_rhs R RArith 5 (flux_of (euler_flux gamma)) M bc dx ds u (x ++ [j])) = 0.
Proof.
  intros gamma M P bc dx ds u j HN H3 Hw Hj Hb. apply fv_total; auto; [intros; now apply Hw|].
  intros d Hin. destruct (Hw d Hin) as [Hd Hw']. destruct (Hb d Hin) as [-> | [-> Hj']]; [now apply periodic_walls|].
  apply zero_walls; auto. intros x Lx Hx. unfold wall. apply euler_wall; [lia| |lia]. apply wall_mirror; auto. discriminate.
Qed.
Lemma maxwell_total : forall c M P bc dx ds u j, nonempty (M ++ P) -> (forall d, In d ds -> (d < 3)%nat) -> wide M 2 ds -> (0 <= j < 6)%Z ->
  (forall d, In d ds -> bc d = Periodic \/ j = Z.of_nat d \/ j = Z.of_nat (d + 3) \/ (d = 0%nat /\ bc d = ConductingWall /\ (j = 4%Z \/ j = 5%Z))) ->
  total (M ++ P) (fun x => @fv_rhs R RArith 6 (flux_of (maxwell_flux c)) M bc dx ds u (x ++ [j])) = 0.
Proof.
  intros c M P bc dx ds u j HN H3 Hw Hj Hb. apply fv_total; auto; [intros; now apply Hw|].
  intros d Hin. destruct (Hw d Hin) as [Hd Hw']. destruct (Hb d Hin) as [-> | [Ej | [Ej | (-> & -> & Hj')]]]; [now apply periodic_walls| | |].
  1,2: apply zero_walls; auto; intros x Lx Hx; apply (@maxwell_normal_wall R RArith); auto.
  apply zero_walls; auto. intros x Lx Hx. unfold wall. apply maxwell_wall; [|lia]. apply wall_mirror; auto. discriminate.
Qed.
(** In one dimension the right-hand sides of Ex and Bx are zero. *)
Lemma maxwell_point : forall c M bc dx u x j, j = 0%Z \/ j = 3%Z ->
  @fv_rhs R RArith 6 (flux_of (maxwell_flux c)) M bc dx [0%nat] u (x ++ [j]) = 0.
Proof.
  intros c M bc dx u x j Hj. unfold fv_rhs, cellwise. rewrite removelast_last, last_last. cbn [fold_left]. unfold with_fluxes.
  rewrite !(@maxwell_normal_wall R RArith) by (lia || (cbn; tauto)). cbn. unfold Rdiv. ring.
Qed.

(** ** sources *)

Lemma lorentz_mass : forall com (u e r : field R) x, with_lorentz com u e r (x ++ [0%Z]) = r (x ++ [0%Z]).
Proof. intros. unfold with_lorentz. rewrite last_last. reflexivity. Qed.
Lemma current_magnetic : forall ms us (r : field R) x j, (3 <= j)%Z -> with_current ms us r (x ++ [j]) = r (x ++ [j]).
Proof. intros. unfold with_current. rewrite last_last. destruct (Z.ltb_spec j 3); [lia|reflexivity]. Qed.

Lemma interior_total : forall M L k (U : field R) j, (0 <= j < Z.of_nat (List.length (id_comps k)))%Z -> interior_is M L k U ->
  exists u, field_get L k = Some u /\ total_of M k j u = total_of M k j U.
Proof.
  intros M L k U j Hj (u & G & E). exists u. split; [exact G|]. unfold total_of. apply total_ext. intros x Hx. apply E. now apply cell_join.
Qed.
