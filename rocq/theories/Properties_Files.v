(** * What can be read in the files of the example programs (C75). *)
From Coq Require Import ZArith List String Lia Bool Reals Lra Permutation Floats.SpecFloat.
From Verif Require Import Base BaseFacts FieldFacts BoxSpec BoxFacts Range RangeSpec RangeFacts Arith ArithFloat ArithR Chunk FieldSpec VarId Manager MgrSpec MgrFacts
  BC BCSpec Sweep SweepSpec FluxFacts EulerSpec Euler Maxwell Sources Programs ProgramsSpec ConserveFacts RhsFacts Properties_Programs Initial InitialSpec InitialFacts Properties_Initial
  Whole Properties_Whole Vtk VtkSpec VtkFacts Properties_Vtk Main MainSpec MainFacts Properties_Main.
Import ListNotations.
Open Scope Z_scope.

(** ** reading a section *)

Section Reading.
Context {F : Type} {A : Arith F}.

Lemma reading_values : forall (xs : list F) rest, reading (flat_map (fun x => [TNum x; TText " "]) xs ++ TText newline :: rest) = xs.
Proof. induction xs as [|x xs IH]; intros rest; [reflexivity|]. cbn. now rewrite IH. Qed.
Lemma column_num : forall v c x (s : stream F), column v c (TNum x :: s) = column v c s.
Proof. reflexivity. Qed.
Lemma column_int : forall v c x (s : stream F), column v c (TInt x :: s) = column v c s.
Proof. reflexivity. Qed.
Lemma column_text : forall v c a (s : stream F), String.eqb a "SCALARS " = false -> column v c (TText a :: s) = column v c s.
Proof. intros v c a s H. cbn. destruct s as [|[b| | ] [|[d| | ] [|[e| | ] s]]]; try reflexivity. now rewrite H. Qed.
Lemma column_values : forall v c (xs : list F) rest, column v c (flat_map (fun x => [TNum x; TText " "]) xs ++ rest) = column v c rest.
Proof. intros v c. induction xs as [|x xs IH]; intros rest; [reflexivity|]. cbn [flat_map app]. rewrite column_num, column_text by reflexivity. apply IH. Qed.
Lemma column_hit : forall M (k : vid) (u : field F) j c rest, column (id_name k) c (scalars M k u (j, c) ++ rest) = vtk_values M u j.
Proof.
  intros M k u j c rest. unfold scalars. cbn [fst snd app column heading skipn]. rewrite !String.eqb_refl. cbn [andb].
  rewrite <- app_assoc. apply reading_values.
Qed.
Lemma column_skip : forall M (k : vid) (u : field F) jc v c rest, String.eqb (id_name k) "SCALARS " = false -> String.eqb (snd jc) "SCALARS " = false ->
  String.eqb (id_name k) v && String.eqb (snd jc) c = false -> column v c (scalars M k u jc ++ rest) = column v c rest.
Proof.
  intros M k u [j d] v c rest H1 H2 H3. unfold scalars. cbn [fst snd] in *. rewrite <- !app_assoc. cbn [app].
  transitivity (column v c ([TText (id_name k); TText "."; TText d; TText (" float 1" ++ newline); TText "LOOKUP_TABLE default"; TText newline] ++
    flat_map (fun x => [TNum x; TText " "]) (vtk_values M u j) ++ [TText newline] ++ rest)).
  { cbn [app column heading]. destruct (String.eqb (id_name k) v); [|reflexivity]. cbn [andb] in H3. rewrite H3. reflexivity. }
  cbn [app]. rewrite column_text by exact H1. rewrite column_text by reflexivity. rewrite column_text by exact H2. rewrite !column_text by reflexivity.
  rewrite column_values. now rewrite column_text.
Qed.
Lemma column_header : forall v c n o h m (s : stream F), column v c (vtk_header n o h m ++ s) = column v c s.
Proof. intros v c [[nx ny] nz] [[ox oy] oz] [[hx hy] hz] m s. unfold vtk_header. cbn [app].
  repeat first [rewrite column_num|rewrite column_int|rewrite column_text by reflexivity]. reflexivity.
Qed.

(** The section of a component in a file with several variables. *)
Lemma column_section : forall M (k : vid) (u : field F) l rest j c, String.eqb (id_name k) "SCALARS " = false -> forallb (fun jc => negb (String.eqb (snd jc) "SCALARS ")) l = true ->
  find (fun jc => String.eqb (snd jc) c) l = Some (j, c) -> column (id_name k) c (flat_map (scalars M k u) l ++ rest) = vtk_values M u j.
Proof.
  intros M k u l rest j c Hk. induction l as [|[i d] l IH]; [discriminate|]. cbn [forallb find flat_map snd]. intros HN HF. apply andb_prop in HN as [HN1 HN2].
  rewrite <- app_assoc. destruct (String.eqb d c) eqn:E.
  - injection HF as -> ->. apply column_hit.
  - rewrite column_skip; [auto|exact Hk|now apply negb_true_iff in HN1|]. cbn [snd]. rewrite E. apply andb_false_r.
Qed.
Lemma column_other : forall M (k : vid) (u : field F) l rest v c, String.eqb (id_name k) "SCALARS " = false -> forallb (fun jc => negb (String.eqb (snd jc) "SCALARS ")) l = true ->
  String.eqb (id_name k) v = false -> column v c (flat_map (scalars M k u) l ++ rest) = column v c rest.
Proof.
  intros M k u l rest v c Hk HN Hv. induction l as [|[i d] l IH]; [reflexivity|]. cbn [forallb flat_map snd] in *. apply andb_prop in HN as [HN1 HN2].
  rewrite <- app_assoc, column_skip; [auto|exact Hk|now apply negb_true_iff in HN1|]. now rewrite Hv.
Qed.
End Reading.

(** No name is the word of the headings. *)
Definition plain (k : vid) : bool := negb (String.eqb (id_name k) "SCALARS ") && forallb (fun c => negb (String.eqb c "SCALARS ")) (id_comps k).
(** ** C75: a column of a file

    Reading the file back at the heading of component [c] of variable [k] gives the
    values of that component. *)
Theorem C75_column : forall F (M : box) o h (W : list (vid * field F)) k u c j, Forall (fun w => plain (fst w) = true) W ->
  find (fun w => String.eqb (id_name (fst w)) (id_name k)) W = Some (k, u) -> find (fun jc => String.eqb (snd jc) c) (numbered k) = Some (j, c) ->
  column (id_name k) c (vtk_file M o h W) = vtk_values M u j.
Proof.
  intros F M o h W k u c j HP HF HC. unfold vtk_file. rewrite column_header.
  assert (N : forall q, plain q = true -> String.eqb (id_name q) "SCALARS " = false /\ forallb (fun jc => negb (String.eqb (snd jc) "SCALARS ")) (numbered q) = true).
  { intros q Hq. apply andb_prop in Hq as [Q1 Q2]. split; [now apply negb_true_iff|]. apply forallb_forall. intros [i d] Hi. rewrite forallb_forall in Q2. apply Q2. eapply in_combine_r. exact Hi. }
  induction W as [|[q v] W IH]; [discriminate|]. inversion HP as [|? ? P1 P2]; subst. cbn [fst] in P1. destruct (N q P1) as [N1 N2].
  cbn [flat_map find fst] in *. unfold var_section at 1. cbn [fst snd]. destruct (String.eqb (id_name q) (id_name k)) eqn:E.
  - injection HF as -> ->. apply column_section; auto.
  - rewrite column_other; auto.
Qed.
Print Assumptions C75_column.

(** The sum of the numbers of a column. *)
Definition sum (l : list R) : R := fold_right Rplus 0%R l.
Lemma sum_perm : forall a b, Permutation a b -> sum a = sum b.
Proof. intros a b H. unfold sum. induction H; cbn [fold_right]; lra || congruence. Qed.
Lemma sum_values : forall (M : box) (u : field R) j, nonempty M -> sum (vtk_values M u j) = total (M ++ [(0, 1)]) (fun x => u (x ++ [j])).
Proof.
  intros M u j HM. destruct (C30_values R M u j HM) as (_ & (order & HP & ->) & _). rewrite (sum_perm _ _ (Permutation_map _ HP)).
  unfold total. rewrite cells_snoc. unfold sum. f_equal. clear HP. induction (cells M) as [|c cs IH]; [reflexivity|].
  cbn [map flat_map]. rewrite map_app, <- IH. change (zrange 0 1) with [0]. cbn [map app]. now rewrite <- app_assoc.
Qed.
(** A program that can write all its [n] files writes files with property [Q]. *)
Definition all_files {F} (P : (string -> bool) -> out (list (string * stream F))) (dir : string) (n : nat) (Q : stream F -> Prop) : Prop :=
  forall opens, (forall k, (k < n)%nat -> opens (frame dir k) = true) ->
    exists fs, P opens = Done fs /\ List.length fs = n /\ Forall (fun f => Q (snd f)) fs.

Lemma saved_all : forall F (P : (string -> bool) -> out (list (string * stream F))) dir content n (Q : stream F -> Prop), saves P dir content n ->
  (forall k, Q (content k)) -> all_files P dir n Q.
Proof.
  intros F P dir content n Q S H opens O. exists (saved dir content n). split; [now apply S|]. split; [now apply C74_names|].
  unfold saved. apply Forall_map. apply Forall_forall. intros k Hk. apply H.
Qed.

(** ** sums of the initial values *)

Lemma sum_const : forall (a : R) l u, l <= u -> sum (map (fun _ => a) (zrange l u)) = (IZR (u - l) * a)%R.
Proof.
  intros a l u H. replace u with (l + Z.of_nat (Z.to_nat (u - l))) by lia. generalize (Z.to_nat (u - l)). intros n. clear H. rewrite Z.add_simpl_l.
  induction n as [|n IH]; [rewrite Z.add_0_r, zrange_empty by lia; cbn; ring|].
  rewrite Nat2Z.inj_succ. unfold Z.succ. rewrite Z.add_assoc, zrange_snoc by lia. rewrite map_app. unfold sum in *. rewrite sum_app, IH, plus_IZR. cbn. ring.
Qed.
(** A quantity that is [a] before [m] and [b] from there on. *)
Lemma sum_step : forall l m u a b, l <= m <= u -> sum (map (fun t => if t <? m then a else b) (zrange l u)) = (IZR (m - l) * a + IZR (u - m) * b)%R.
Proof.
  intros l m u a b H. rewrite (zrange_split l m u) by lia. rewrite map_app. unfold sum. rewrite sum_app. f_equal.
  - rewrite <- sum_const by lia. unfold sum. f_equal. apply map_ext_in. intros t Ht. apply in_zrange in Ht. destruct (Z.ltb_spec t m); [reflexivity|lia].
  - rewrite <- sum_const by lia. unfold sum. f_equal. apply map_ext_in. intros t Ht. apply in_zrange in Ht. destruct (Z.ltb_spec t m); [lia|reflexivity].
Qed.
Lemma total_snoc_const : forall B (a : R), nonempty B -> total B (fun _ => a) = (IZR (prod_len B) * a)%R.
Proof.
  induction B as [|[l u] B IH]; intros a HN; [rewrite total_nil; cbn; ring|]. inversion HN; subst. rewrite total_cons.
  rewrite (map_ext _ (fun _ => (IZR (prod_len B) * a)%R)) by (intros; now apply IH). cbn [fst snd] in *.
  change (fold_right Rplus 0%R) with sum. rewrite sum_const by lia. cbn [prod_len]. rewrite mult_IZR. ring.
Qed.
Lemma total_step : forall l m u B a b, l <= m <= u -> nonempty B -> total ((l, u) :: B) (fun x => if nth 0 x 0 <? m then a else b) = (IZR (prod_len B) * (IZR (m - l) * a + IZR (u - m) * b))%R.
Proof.
  intros l m u B a b H HN. rewrite total_cons. cbn [nth]. rewrite (map_ext _ (fun t => if t <? m then IZR (prod_len B) * a else IZR (prod_len B) * b)%R).
  - change (fold_right Rplus 0%R) with sum. rewrite sum_step by lia. ring.
  - intros t. destruct (t <? m); now apply total_snoc_const.
Qed.

(** ** the programs in exact arithmetic *)

Lemma center_left : forall (g : grid R) x m, nth 0 (gr_starts g) 0%R = (- (IZR m * nth 0 (gr_dxs g) 0))%R -> (0 < nth 0 (gr_dxs g) 0)%R ->
  (center g x 0 <? f0)%F = (nth 0 x 0%Z <? m).
Proof.
  intros g x m H1 H2. unfold center. change (nth 0 (gr_starts g) f0) with (nth 0 (gr_starts g) 0%R). change (nth 0 (gr_dxs g) f0) with (nth 0 (gr_dxs g) 0%R). rewrite H1.
  set (h := nth 0 (gr_dxs g) 0%R) in *. set (t := nth 0 x 0%Z). cbn [flt fadd fmul fofz fdec f0 RArith]. unfold Rdecimal.
  replace (- (IZR m * h) + (IZR t + 5 / 10 ^ 1) * h)%R with ((IZR t - IZR m + / 2) * h)%R by field.
  destruct (Z.ltb_spec t m) as [L|L].
  - apply Rltb_iff. assert (IZR t + 1 <= IZR m)%R by (rewrite <- plus_IZR; apply IZR_le; lia). nra.
  - apply Rltb_not. apply IZR_le in L. nra.
Qed.

Ltac in_column M k c j := refine (C75_column R M _ _ _ k _ c j _ _ _); [repeat constructor|reflexivity|reflexivity].

(** sod_shock_tube: in each of the 101 files the densities add up to 562.5 and the
    energies to 1375. *)
Theorem C75_sod : forall fuel dir, enough fuel -> all_files (fun opens => sod_shock_tube true fuel opens dir) dir 101 (fun f =>
  sum (column "fluid" "rho" f) = (5625 / 10)%R /\ sum (column "fluid" "e" f) = 1375%R).
Proof.
  intros fuel dir HU. destruct (C74_sod R RArith fuel dir HU) as (u & Hu & S). apply (saved_all _ _ _ _ _ _ S). intros k. clear S.
  assert (T : forall j n, j = 0 \/ j = 4 -> sum (vtk_values sod_mesh (Nat.iter n (rk3 (fun V _ => fv_rhs 5 (flux_of (euler_flux (fdec 14 (-1)))) sod_mesh
      (fun d => match d with O => NoSlip | _ => Periodic end) (spacing sod_grid) [0; 1]%nat (V 0%nat)) (fdec 5 (-1) / fofz 500)%F) (fun _ => u) 0%nat) j) = total (sod_mesh ++ [(0, 1)]) (fun x => u (x ++ [j]))).
  { intros j n Hj. rewrite sum_values by (repeat constructor).
    apply (rk3_iter (fun w => total (sod_mesh ++ [(0, 1)]) (fun x => w (x ++ [j])))); [apply total_linear|]. intros V.
    apply euler_total; [repeat constructor|cbn; lia| |lia|].
    - intros d [<-|[<-|[]]]; cbn; unfold hi, lo; cbn; lia.
    - intros d [<-|[<-|[]]]; cbn; auto. }
  assert (I : forall j, 0 <= j < 5 -> total (sod_mesh ++ [(0, 1)]) (fun x => u (x ++ [j])) =
    (2 * (250 * blast true (fdec 125 (-3)) (fdec 1 (-1)) (fdec 14 (-1)) j + 250 * blast false (fdec 125 (-3)) (fdec 1 (-1)) (fdec 14 (-1)) j))%R).
  { intros j Hj. rewrite (total_ext _ _ (fun x => if nth 0 x 0 <? 250 then blast true (fdec 125 (-3)) (fdec 1 (-1)) (fdec 14 (-1)) j else blast false (fdec 125 (-3)) (fdec 1 (-1)) (fdec 14 (-1)) j)).
    - change (sod_mesh ++ [(0, 1)]) with ((0, 500) :: [(0, 2); (0, 1)]). rewrite total_step; [reflexivity|lia|repeat constructor].
    - intros x Hx. rewrite (Hu x j Hx Hj). rewrite (center_left _ _ 250); [destruct (nth 0 x 0 <? 250); reflexivity| |]; cbn; unfold Rdecimal; cbn; lra. }
  split.
  - etransitivity; [apply (f_equal sum); in_column sod_mesh (fluid_id "fluid") "rho"%string 0|]. rewrite T, I by lia. cbn. unfold Rdecimal. cbn. lra.
  - etransitivity; [apply (f_equal sum); in_column sod_mesh (fluid_id "fluid") "e"%string 4|]. rewrite T, I by lia. cbn. unfold Rdecimal. cbn. lra.
Qed.
Print Assumptions C75_sod.

(** Terms that cancel in pairs. *)
Lemma sum_odd : forall (g : Z -> R) n, 0 <= n -> (forall t, 0 <= t < n -> g (n - 1 - t)%Z = (- g t)%R) -> sum (map g (zrange 0 n)) = 0%R.
Proof.
  intros g n Hn H. assert (P : Permutation (zrange 0 n) (map (fun t => n - 1 - t) (zrange 0 n))).
  { apply NoDup_Permutation; [apply zrange_NoDup|apply FinFun.Injective_map_NoDup; [intros a b E; lia|apply zrange_NoDup]|].
    intros x. rewrite in_map_iff, in_zrange. split; [intros Hx; exists (n - 1 - x); rewrite in_zrange; lia|intros (t & <- & Ht); apply in_zrange in Ht; lia]. }
  pose proof (sum_perm _ _ (Permutation_map g P)) as E. rewrite map_map in E. rewrite (map_ext_in (fun t => g (n - 1 - t)) (fun t => (0 + -1 * g t)%R)) in E by (intros t Ht; apply in_zrange in Ht; rewrite H by lia; ring).
  unfold sum in *. rewrite (sum_lin _ _ (fun _ => 0%R) g (-1)%R) in E. rewrite (sum_zero _ (zrange 0 n) (fun _ => 0%R)) in E by reflexivity. lra.
Qed.
Lemma sum_scale : forall (g : Z -> R) a l, sum (map (fun t => a * g t)%R l) = (a * sum (map g l))%R.
Proof. intros g a l. unfold sum. induction l as [|t l IH]; cbn [map fold_right]; [ring|]. rewrite IH. ring. Qed.
Lemma sum_zeros : forall l (f : Z -> R), (forall t, In t l -> f t = 0%R) -> sum (map f l) = 0%R.
Proof. intros l f H. exact (sum_zero Z l f H). Qed.

Lemma total_single : forall f, total [(0, 1)] f = f [0].
Proof. intros f. apply Rplus_0_r. Qed.

Ltac one_entry := intros; match goal with |- context [Z.to_nat ?j] => let n := eval vm_compute in (Z.to_nat j) in change (Z.to_nat j) with n end; unfold f0, f1; cbn; ring.

(** wave_1D: in each of the 101 files the numbers of every component add up to zero,
    those of Bz to the number of cells. *)
Theorem C75_wave : forall fuel dir, enough fuel -> all_files (fun opens => wave_1D true fuel opens dir) dir 101 (fun f =>
  sum (column "field" "Bz" f) = 512%R /\ Forall (fun c => sum (column "field" c f) = 0%R) ["Ex"; "Ey"; "Ez"; "Bx"; "By"]%string).
Proof.
  intros fuel dir HU. destruct (C74_wave R RArith fuel dir HU) as (u & Hu & S). apply (saved_all _ _ _ _ _ _ S). intros k. clear S.
  set (kz := (fofz 2 * fdec 314159263 (-8))%F) in *.
  assert (T : forall j n, 0 <= j < 6 -> sum (vtk_values wave_mesh (Nat.iter n (rk3 (fun V _ => fv_rhs 6 (flux_of (maxwell_flux f1)) wave_mesh (fun _ => Periodic) (spacing wave_grid) [0; 1; 2]%nat (V 0%nat)) (f1 / fofz 1000)%F) (fun _ => u) 0%nat) j)
    = total (wave_mesh ++ [(0, 1)]) (fun x => u (x ++ [j]))).
  { intros j n Hj. rewrite sum_values by (repeat constructor).
    apply (rk3_iter (fun w => total (wave_mesh ++ [(0, 1)]) (fun x => w (x ++ [j])))); [apply total_linear|]. intros V.
    apply maxwell_total; [repeat constructor| | |lia|].
    - intros d [<-|[<-|[<-|[]]]]; lia.
    - intros d [<-|[<-|[<-|[]]]]; cbn; unfold hi, lo; cbn; lia.
    - intros d [<-|[<-|[<-|[]]]]; auto. }
  assert (I : forall j (a : R), 0 <= j < 5 -> (forall x s, in_box (spots wave_mesh (em_id "field")) x -> nth (Z.to_nat j) [f1 * f1 * s; - f1 * f1 * s; f0; f1 * s; f1 * s; f1]%F f0 = (a * s)%R) ->
    total (wave_mesh ++ [(0, 1)]) (fun x => u (x ++ [j])) = 0%R).
  { intros j a Hj Ha. rewrite (total_ext _ _ (fun x => (a * sin (kz * center wave_grid x 2))%R)).
    - unfold wave_mesh. cbn [app]. rewrite !total_cons. apply sum_zeros. intros x0 _. rewrite total_cons. apply sum_zeros. intros x1 _. rewrite total_cons.
      rewrite (map_ext _ (fun t => (a * sin (kz * (- / 2 + (IZR t + / 2) * (1 / 128))))%R)).
      + apply sum_odd; [lia|]. intros t Ht. rewrite !minus_IZR. rewrite Ropp_mult_distr_r, <- sin_neg. f_equal. f_equal. field.
      + intros t. rewrite total_single.
        unfold center. cbn. unfold Rdecimal. cbn. f_equal. f_equal. f_equal. lra.
    - intros x Hx. rewrite (Hu x j Hx) by (cbn; lia). cbv zeta. rewrite (Ha x _ Hx). reflexivity. }
  split.
  - etransitivity; [apply (f_equal sum); in_column wave_mesh (em_id "field") "Bz"%string 5|]. rewrite T by lia.
    rewrite (total_ext _ _ (fun _ => 1%R)) by (intros x Hx; rewrite (Hu x 5 Hx) by (cbn; lia); reflexivity).
    rewrite total_snoc_const by (repeat constructor). change (prod_len (wave_mesh ++ [(0, 1)])) with 512. lra.
  - repeat apply Forall_cons; [..|apply Forall_nil].
    + etransitivity; [apply (f_equal sum); in_column wave_mesh (em_id "field") "Ex"%string 0|]. rewrite T by lia. apply (I 0 1%R); [lia|]. one_entry.
    + etransitivity; [apply (f_equal sum); in_column wave_mesh (em_id "field") "Ey"%string 1|]. rewrite T by lia. apply (I 1 (-1)%R); [lia|]. one_entry.
    + etransitivity; [apply (f_equal sum); in_column wave_mesh (em_id "field") "Ez"%string 2|]. rewrite T by lia. apply (I 2 0%R); [lia|]. one_entry.
    + etransitivity; [apply (f_equal sum); in_column wave_mesh (em_id "field") "Bx"%string 3|]. rewrite T by lia. apply (I 3 1%R); [lia|]. one_entry.
    + etransitivity; [apply (f_equal sum); in_column wave_mesh (em_id "field") "By"%string 4|]. rewrite T by lia. apply (I 4 1%R); [lia|]. one_entry.
Qed.
Print Assumptions C75_wave.

(** ** the plasma programs *)

(** What one spatial dimension with walls keeps. *)
Lemma walls_keep : forall p g c m dx dt u v w n, 2 <= m -> let M := [(0, m)] in
  let U := Nat.iter n (rk3 (plasma_op p (flux_of (euler_flux g)) (flux_of (maxwell_flux c)) M wall_kinds dx [0%nat] [0%nat]) dt) (three u v w) in
  sum (vtk_values M (U 0%nat) 0) = total (M ++ [(0, 1)]) (fun x => u (x ++ [0])) /\
  sum (vtk_values M (U 1%nat) 0) = total (M ++ [(0, 1)]) (fun x => v (x ++ [0])) /\
  (forall j, 4 <= j < 6 -> sum (vtk_values M (U 2%nat) j) = total (M ++ [(0, 1)]) (fun x => w (x ++ [j]))) /\
  forall x, U 2%nat (x ++ [3]) = w (x ++ [3]).
Proof.
  intros p g c m dx dt u v w n Hm M U.
  assert (NE : nonempty (M ++ [(0, 1)])) by (constructor; [cbn; lia|constructor; [cbn; lia|constructor]]).
  assert (NM : nonempty M) by (constructor; [cbn; lia|constructor]).
  assert (W : wide M 2 [0]%nat) by (intros d [<-|[]]; cbn; unfold hi, lo; cbn; lia).
  assert (K : forall i j (q : field R), (forall V, total (M ++ [(0, 1)]) (fun x => plasma_op p (flux_of (euler_flux g)) (flux_of (maxwell_flux c)) M wall_kinds dx [0%nat] [0%nat] V i (x ++ [j])) = 0%R) ->
    three u v w i = q -> sum (vtk_values M (U i) j) = total (M ++ [(0, 1)]) (fun x => q (x ++ [j]))).
  { intros i j q H <-. rewrite sum_values by exact NM. exact (rk3_iter (fun w => total (M ++ [(0, 1)]) (fun x => w (x ++ [j]))) i _ dt (total_linear _ j) H n (three u v w)). }
  split; [|split; [|split]].
  - apply (K 0%nat 0); [|reflexivity]. intros V. cbn [plasma_op]. rewrite (total_ext _ _ _ (fun x _ => lorentz_mass _ _ _ _ x)). apply euler_total; [exact NE|cbn; lia|exact W|lia|].
    intros d [<-|[]]; cbn; auto.
  - apply (K 1%nat 0); [|reflexivity]. intros V. cbn [plasma_op]. rewrite (total_ext _ _ _ (fun x _ => lorentz_mass _ _ _ _ x)). apply euler_total; [exact NE|cbn; lia|exact W|lia|].
    intros d [<-|[]]; cbn; auto.
  - intros j Hj. apply (K 2%nat j); [|reflexivity]. intros V. cbn [plasma_op]. rewrite (total_ext _ _ _ (fun x _ => current_magnetic _ _ _ x j ltac:(lia))).
    apply maxwell_total; [exact NE|intros d [<-|[]]; lia|exact W|lia|].
    intros d [<-|[]]. right. cbn [wall_kinds]. assert (j = 4 \/ j = 5) as [->| ->] by lia; cbn; auto 8.
  - intros x. apply (rk3_iter (fun w => w (x ++ [3])) 2%nat _ dt (point_linear _) ) with (U := three u v w). intros V. cbn [plasma_op]. rewrite current_magnetic by lia. apply maxwell_point. auto.
Qed.
(** Two dimensions, walls in the first and periodic in the second. *)
Lemma plane_keeps : forall p g c m m' dx dt u v w n, 2 <= m -> 2 <= m' -> let M := [(0, m); (0, m')] in
  let U := Nat.iter n (rk3 (plasma_op p (flux_of (euler_flux g)) (flux_of (maxwell_flux c)) M gem_kinds dx [0; 1]%nat [0; 1]%nat) dt) (three u v w) in
  sum (vtk_values M (U 0%nat) 0) = total (M ++ [(0, 1)]) (fun x => u (x ++ [0])) /\
  sum (vtk_values M (U 1%nat) 0) = total (M ++ [(0, 1)]) (fun x => v (x ++ [0])) /\
  (forall j, 3 <= j < 6 -> sum (vtk_values M (U 2%nat) j) = total (M ++ [(0, 1)]) (fun x => w (x ++ [j]))).
Proof.
  intros p g c m m' dx dt u v w n Hm Hm' M U.
  assert (NE : nonempty (M ++ [(0, 1)])) by (repeat (constructor; [cbn; lia|]); constructor).
  assert (NM : nonempty M) by (repeat (constructor; [cbn; lia|]); constructor).
  assert (W : wide M 2 [0; 1]%nat) by (intros d [<-|[<-|[]]]; cbn; unfold hi, lo; cbn; lia).
  assert (K : forall i j (q : field R), (forall V, total (M ++ [(0, 1)]) (fun x => plasma_op p (flux_of (euler_flux g)) (flux_of (maxwell_flux c)) M gem_kinds dx [0; 1]%nat [0; 1]%nat V i (x ++ [j])) = 0%R) ->
    three u v w i = q -> sum (vtk_values M (U i) j) = total (M ++ [(0, 1)]) (fun x => q (x ++ [j]))).
  { intros i j q H <-. rewrite sum_values by exact NM. exact (rk3_iter (fun w => total (M ++ [(0, 1)]) (fun x => w (x ++ [j]))) i _ dt (total_linear _ j) H n (three u v w)). }
  split; [|split].
  - apply (K 0%nat 0); [|reflexivity]. intros V. cbn [plasma_op]. rewrite (total_ext _ _ _ (fun x _ => lorentz_mass _ _ _ _ x)). apply euler_total; [exact NE|cbn; lia|exact W|lia|].
    intros d [<-|[<-|[]]]; cbn; auto.
  - apply (K 1%nat 0); [|reflexivity]. intros V. cbn [plasma_op]. rewrite (total_ext _ _ _ (fun x _ => lorentz_mass _ _ _ _ x)). apply euler_total; [exact NE|cbn; lia|exact W|lia|].
    intros d [<-|[<-|[]]]; cbn; auto.
  - intros j Hj. apply (K 2%nat j); [|reflexivity]. intros V. cbn [plasma_op]. rewrite (total_ext _ _ _ (fun x _ => current_magnetic _ _ _ x j ltac:(lia))).
    apply maxwell_total; [exact NE|intros d [<-|[<-|[]]]; lia|exact W|lia|].
    intros d [<-|[<-|[]]]; [|now left]. right. cbn [gem_kinds]. assert (j = 3 \/ j = 4 \/ j = 5) as [->|[->| ->]] by lia; cbn; auto 8.
Qed.

(** A column with the same number everywhere. *)
Lemma constant_column : forall M (q : field R) j a n, nonempty M -> prod_len M = Z.of_nat n -> (forall x, in_box M x -> q (x ++ [0; j]) = a) -> vtk_values M q j = repeat a n.
Proof.
  intros M q j a n HN HL H. destruct (C30_values R M q j HN) as (EL & (order & HP & EV) & _).
  replace n with (List.length (vtk_values M q j)) by lia. apply Forall_eq_repeat. rewrite EV. apply Forall_forall. intros y Hy. apply in_map_iff in Hy as (x & <- & Hx).
  symmetry. apply H. apply in_cells. eapply Permutation_in; eassumption.
Qed.
Lemma cell_zero : forall M x, in_box M x -> in_box (M ++ [(0, 1)]) (x ++ [0]).
Proof. intros M x H. apply Forall2_app; [exact H|]. constructor; [cbn; lia|constructor]. Qed.

(** two_fluid_brio_wu: in each of the 101 files the electrons have the mass 5.625, the
    ions 56.25, By and Bz add up to zero, and all hundred numbers under Bx are 0.75. *)
Theorem C75_brio_wu : forall fuel, enough fuel -> all_files (two_fluid_brio_wu true fuel) data_dir 101 (fun f =>
  sum (column "electrons" "rho" f) = (5625 / 1000)%R /\ sum (column "ions" "rho" f) = (5625 / 100)%R /\
  sum (column "field" "By" f) = 0%R /\ sum (column "field" "Bz" f) = 0%R /\ column "field" "Bx" f = repeat (75 / 100)%R 100).
Proof.
  intros fuel HU. destruct (C74_brio_wu R RArith fuel HU) as (u & v & w & Hu & Hv & Hw & S). apply (saved_all _ _ _ _ _ _ S). intros k. clear S.
  set (p := two_fluids _ _ _ _ _ _ _) in *.
  destruct (walls_keep p (fofz 2) (fofz 10) 100 (spacing bw_grid) (fdec 1 (-1) / fofz 1000)%F u v w (10 * k) ltac:(lia)) as (K0 & K1 & K2 & K3).
  assert (CL : forall x, (center (@bw_grid R RArith) x 0 <? f0)%F = (nth 0 x 0%Z <? 50)) by (intros x; apply center_left; cbn; unfold Rdecimal; cbn; lra).
  split; [|split; [|split; [|split]]].
  - etransitivity; [apply (f_equal sum); in_column bw_mesh (fluid_id "electrons") "rho"%string 0|]. etransitivity; [exact K0|].
    rewrite (total_ext _ _ (fun x => if nth 0 x 0 <? 50 then (1 / 10)%R else (125 / 10000)%R)).
    + cbn [app]. rewrite total_step; [|lia|repeat constructor]. cbn [prod_len fst snd]. cbn. lra.
    + intros x Hx. rewrite (Hu x 0 Hx) by (cbn; lia). rewrite CL. destruct (nth 0 x 0 <? 50); cbn; unfold Rdecimal; cbn; lra.
  - etransitivity; [apply (f_equal sum); in_column bw_mesh (fluid_id "ions") "rho"%string 0|]. etransitivity; [exact K1|].
    rewrite (total_ext _ _ (fun x => if nth 0 x 0 <? 50 then 1%R else (125 / 1000)%R)).
    + cbn [app]. rewrite total_step; [|lia|repeat constructor]. cbn [prod_len fst snd]. cbn. lra.
    + intros x Hx. rewrite (Hv x 0 Hx) by (cbn; lia). rewrite CL. destruct (nth 0 x 0 <? 50); cbn; unfold Rdecimal; cbn; lra.
  - etransitivity; [apply (f_equal sum); in_column bw_mesh (em_id "field") "By"%string 4|]. etransitivity; [exact (K2 4 ltac:(lia))|].
    rewrite (total_ext _ _ (fun x => if nth 0 x 0 <? 50 then 1%R else (-1)%R)).
    + cbn [app]. rewrite total_step; [|lia|repeat constructor]. cbn [prod_len fst snd]. cbn. lra.
    + intros x Hx. rewrite (Hw x 4 Hx) by (cbn; lia). rewrite CL. destruct (nth 0 x 0 <? 50); cbn; unfold Rdecimal; cbn; lra.
  - etransitivity; [apply (f_equal sum); in_column bw_mesh (em_id "field") "Bz"%string 5|]. etransitivity; [exact (K2 5 ltac:(lia))|].
    rewrite (total_ext _ _ (fun x => 0)%R).
    + rewrite total_snoc_const by (repeat constructor). lra.
    + intros x Hx. rewrite (Hw x 5 Hx) by (cbn; lia). reflexivity.
  - etransitivity; [in_column bw_mesh (em_id "field") "Bx"%string 3|]. apply (constant_column bw_mesh _ 3 _ 100); [repeat constructor|reflexivity|].
    intros x Hx. change [0; 3] with ([0] ++ [3]). rewrite app_assoc. etransitivity; [exact (K3 (x ++ [0]))|]. etransitivity; [exact (Hw (x ++ [0]) 3 (cell_zero _ _ Hx) ltac:(cbn; lia))|].
    cbn. unfold Rdecimal. cbn. lra.
Qed.
Print Assumptions C75_brio_wu.

(** ** the current sheets *)

(** The fields of a manager are determined by the manager: two descriptions have the
    same ids and the same values in all cells, ghost cells included. *)
Theorem C75_unique : forall F (m : mgr F) M M' L L', mgr_holds m M L -> mgr_holds m M' L' ->
  M = M' /\ Forall2 (fun a b => fst a = fst b /\ forall c, in_box (grow 2 M ++ comp_box (fst a)) c -> snd a c = snd b c) L L'.
Proof.
  intros F m M M' L L' [H1 H2] [H3 H4]. assert (E : M = M') by (apply observes_iff in H1, H3; apply range_of_inj; congruence). split; [exact E|]. subst M'. clear H1 H3.
  revert L' H4. induction H2 as [|[k v] [a u] vs L [E1 E2] H2 IH]; intros L' H4; inversion H4 as [|? [b u'] ? L'' [E3 E4] H5]; subst; constructor; auto.
  cbn [fst snd] in *. subst. split; [reflexivity|]. intros c Hc. destruct E2 as (_ & _ & _ & _ & _ & _ & _ & _ & e & D1 & (C1 & _)), E4 as (_ & _ & _ & _ & _ & _ & _ & _ & e' & D2 & (C2 & _)).
  rewrite D1 in D2. injection D2 as <-. destruct C1 as [_ C1], C2 as [_ C2]. pose proof (C1 c Hc). pose proof (C2 c Hc). congruence.
Qed.
Print Assumptions C75_unique.
Lemma same_field : forall F (m : mgr F) M M' L L' outs k u u', mgr_holds m M L -> mgr_holds m M' L' -> incl (ids L) outs -> compatible outs -> In k outs ->
  field_get L k = Some u -> field_get L' k = Some u' -> forall c, in_box (grow 2 M ++ comp_box k) c -> u c = u' c.
Proof.
  intros F m M M' L L' outs k u u' H1 H2 HI HC Hk. destruct (C75_unique F m M M' L L' H1 H2) as (_ & H). clear H1 H2.
  induction H as [|[a w] [b w'] L L' [E1 E2] H IH]; [discriminate|]. cbn [fst snd field_get ids map] in *. subst b.
  destruct (String.eqb_spec (id_name a) (id_name k)) as [E|E].
  - intros [= ->] [= ->] c Hc. apply E2. assert (a = k) as -> by (apply HC; auto; apply HI; now left). exact Hc.
  - apply IH. intros x Hx. apply HI. now right.
Qed.

(** The constants are positive. *)
Lemma literal_pos : forall m p, 0 < m -> (0 < IZR m / IZR (10 ^ Z.pos p))%R.
Proof. intros m p H. apply Rdiv_lt_0_compat; apply IZR_lt; [exact H|]. apply Z.pow_pos_nonneg; lia. Qed.
Ltac positive := repeat match goal with
  | |- (0 < IZR _ / IZR (10 ^ _))%R => apply literal_pos; reflexivity
  | |- (0 < IZR _)%R => apply IZR_lt; reflexivity
  | |- (0 < _ + _)%R => apply Rplus_lt_0_compat
  | |- (0 < _ * _)%R => apply Rmult_lt_0_compat
  | |- (0 < _ / _)%R => apply Rdiv_lt_0_compat
  end.
Lemma sheet_positive : forall L, let p := sheet L in
  (0 < gm_n0 p)%R /\ (0 < gm_n1 p)%R /\ (0 < gm_me p)%R /\ (0 < gm_mi p)%R /\ (0 < gm_Te p)%R /\ (0 < gm_Ti p)%R /\ (0 < gm_lambda p)%R /\ (0 < gm_B0 p)%R /\
  (gm_qe p < 0)%R /\ (0 < gm_qi p)%R /\ gm_gamma p = (5 / 3)%R.
Proof.
  intros L p. unfold p, sheet. cbn [gm_n0 gm_n1 gm_me gm_mi gm_Te gm_Ti gm_lambda gm_B0 gm_qe gm_qi gm_gamma].
  unfold f1. cbn [fadd fsub fmul fdiv fneg fofz fdec fsqrt RArith Rdecimal].
  repeat match goal with |- _ /\ _ => split end; try reflexivity; try (apply sqrt_lt_R0); try (apply Ropp_lt_gt_0_contravar, Rlt_gt); positive.
Qed.

(** The positions of cell centres on [n] cells of a symmetric interval of length [L]. *)
Definition across (L : R) (n t : Z) : R := ((IZR t + / 2) / IZR n - / 2)%R * L.
Lemma across_odd : forall L n t, 0 < n -> across L n (n - 1 - t) = (- across L n t)%R.
Proof. intros L n t H. unfold across. rewrite !minus_IZR. field. apply IZR_lt in H. lra. Qed.
Lemma tanh_odd : forall x, tanh (- x) = (- tanh x)%R.
Proof.
  intros x. unfold tanh, sinh, cosh. rewrite Ropp_involutive. field. pose proof (exp_pos x). pose proof (exp_pos (- x)). lra.
Qed.
Lemma sheet_field_odd : forall p X, gm_lambda p <> 0%R -> sheet_field p (- X) = (- sheet_field p X)%R.
Proof. intros p X H. unfold sheet_field. replace (- X / gm_lambda p)%R with (- (X / gm_lambda p))%R by (field; exact H). rewrite tanh_odd. ring. Qed.
Lemma bump_y_odd : forall p X Y, bump_y p (- X) Y = (- bump_y p X Y)%R.
Proof. intros p X Y. unfold bump_y. replace (wave_x p * - X)%R with (- (wave_x p * X))%R by ring. rewrite sin_neg. ring. Qed.
Lemma bump_x_odd : forall p X Y, bump_x p X (- Y) = (- bump_x p X Y)%R.
Proof. intros p X Y. unfold bump_x. replace (wave_y p * - Y)%R with (- (wave_y p * Y))%R by ring. rewrite sin_neg. ring. Qed.
Lemma center_across : forall (g : grid R) x d L n, nth d (gr_starts g) 0%R = (- L / 2)%R -> nth d (gr_dxs g) 0%R = (L / IZR n)%R -> 0 < n -> center g x d = across L n (nth d x 0%Z).
Proof.
  intros g x d L n H1 H2 H3. unfold center. change (nth d (gr_starts g) f0) with (nth d (gr_starts g) 0%R). change (nth d (gr_dxs g) f0) with (nth d (gr_dxs g) 0%R). rewrite H1, H2.
  unfold across. cbn [fadd fmul fofz fdec RArith Rdecimal]. change (IZR (10 ^ 1)) with 10%R. apply IZR_lt in H3. field. lra.
Qed.

(** The start of a sheet on one of the two grids. *)
Lemma sheet_start : forall (g : grid R) M fuel L m1 L1 u v w, setting g M [pl_electrons; pl_ions; pl_field] fuel -> (List.length M <= 3)%nat ->
  let ids := [fluid_id "electrons"; fluid_id "ions"; em_id "field"] in
  gem_solve fuel (sheet L) ids (mgr_new g) = Done m1 -> mgr_holds m1 M L1 ->
  field_get L1 (fluid_id "electrons") = Some u -> field_get L1 (fluid_id "ions") = Some v -> field_get L1 (em_id "field") = Some w ->
  forall x, in_box (M ++ [(0, 1)]) x -> let X := center g x 0 in let Y := if (1 <? List.length M)%nat then center g x 1 else 0%R in
    u (x ++ [0]) = (gm_me (sheet L) * sheet_density (sheet L) X)%R /\ v (x ++ [0]) = (gm_mi (sheet L) * sheet_density (sheet L) X)%R /\
    w (x ++ [3]) = bump_x (sheet L) X Y /\ w (x ++ [4]) = (sheet_field (sheet L) X + bump_y (sheet L) X Y)%R /\ w (x ++ [5]) = 0%R.
Proof.
  intros g M fuel L m1 L1 u v w HS H3 ks E1 HM Eu Ev Ew x Hx X Y.
  destruct (sheet_positive L) as (N0 & N1 & Me & Mi & Te & Ti & La & B0 & Qe & Qi & Ga).
  assert (ND : NoDup (map id_name ks)) by exact (f0_names [pl_electrons; pl_ions; pl_field] (proj1 (proj1 (proj2 (proj2 (proj2 (proj2 HS))))))).
  destruct (C62_gem (mgr_new g) M [] (fluid_id "electrons") (fluid_id "ions") (em_id "field") fuel (sheet L)) as (m' & L' & ue & ui & uf & E & D & Ee & Ei & Ef & V); auto; try (rewrite ?Ga; lra).
  { apply (start_ready R RArith g M [pl_electrons; pl_ions; pl_field] fuel 5 HS). repeat (constructor; [cbn; lia|]). constructor. }
  assert (m' = m1) as -> by (unfold ks in E1; congruence). destruct D as (D1 & _ & _ & D4 & _).
  assert (CK : compatible ks) by (intros a b Ha Hb; unfold ks in *; cbn in Ha, Hb; intros; repeat (destruct Ha as [<-|Ha]; [repeat (destruct Hb as [<-|Hb]; [reflexivity||discriminate|]); destruct Hb|]); destruct Ha).
  assert (SF : forall k q q', In k ks -> field_get L' k = Some q -> field_get L1 k = Some q' -> forall c, in_box (grow 2 M ++ comp_box k) c -> q c = q' c).
  { intros k q q' Hk G1 G2. exact (same_field R m1 M M L' L1 ks k q q' D1 HM D4 CK Hk G1 G2). }
  assert (Gx : in_box (spots (grow 2 M) (fluid_id "electrons")) x) by (apply (zone_spots true M (fluid_id "electrons")); exact Hx).
  assert (J : forall k j, In k ks -> 0 <= j < Z.of_nat (List.length (id_comps k)) -> in_box (grow 2 M ++ comp_box k) (x ++ [j])).
  { intros k j Hk Hj. apply cell_join; [|exact Hj]. unfold ks in Hk. cbn in Hk. repeat (destruct Hk as [<-|Hk]; [exact Gx|]). destruct Hk. }
  destruct (V x Gx) as (V1 & V2 & _ & _ & _ & _ & V3 & V4 & V5).
  repeat split.
  - rewrite <- (SF (fluid_id "electrons") ue u ltac:(now left) Ee Eu _ (J (fluid_id "electrons") 0 ltac:(now left) ltac:(cbn; lia))). exact V1.
  - rewrite <- (SF (fluid_id "ions") ui v ltac:(now (right; left)) Ei Ev _ (J (fluid_id "ions") 0 ltac:(now (right; left)) ltac:(cbn; lia))). exact V2.
  - rewrite <- (SF (em_id "field") uf w ltac:(now (right; right; left)) Ef Ew _ (J (em_id "field") 3 ltac:(now (right; right; left)) ltac:(cbn; lia))). exact V3.
  - rewrite <- (SF (em_id "field") uf w ltac:(now (right; right; left)) Ef Ew _ (J (em_id "field") 4 ltac:(now (right; right; left)) ltac:(cbn; lia))). exact V4.
  - rewrite <- (SF (em_id "field") uf w ltac:(now (right; right; left)) Ef Ew _ (J (em_id "field") 5 ltac:(now (right; right; left)) ltac:(cbn; lia))). apply V5; [cbn; lia|lia|lia].
Qed.

(** harris_current_sheet: in each of the 101 files the masses are those of the sheet,
    ions and electrons are equally many, By and Bz add up to zero and Bx is zero. *)
Theorem C75_harris : forall fuel, enough fuel -> let L := sheet_length (fofz 4) in let me := (910938356 / 10 ^ 39)%R in
  let N := sum (map (fun t => sheet_density (sheet L) (across L 400 t)) (zrange 0 400)) in
  all_files (harris_current_sheet true fuel) data_dir 101 (fun f =>
    sum (column "electrons" "rho" f) = (me * N)%R /\ sum (column "ions" "rho" f) = (25 * me * N)%R /\
    sum (column "field" "By" f) = 0%R /\ sum (column "field" "Bz" f) = 0%R /\ column "field" "Bx" f = repeat 0%R 400).
Proof.
  intros fuel HU L me N. destruct (C74_harris R RArith fuel HU) as (m1 & L1 & u & v & w & E1 & HM & Eu & Ev & Ew & S).
  pose proof (sheet_start harris_grid harris_mesh fuel L m1 L1 u v w (harris_setting R RArith fuel HU) ltac:(cbn; lia) E1 HM Eu Ev Ew) as V. clear E1 HM Eu Ev Ew m1 L1.
  apply (saved_all _ _ _ _ _ _ S). intros k. clear S. cbn [List.length harris_mesh Nat.ltb Nat.leb] in V. cbv zeta in V.
  assert (CX : forall x, center (@harris_grid R RArith) x 0 = across L 400 (nth 0 x 0)) by (intros x; apply center_across; [reflexivity|reflexivity|lia]).
  assert (CME : gm_me (sheet L) = me) by (unfold sheet, me; cbn [gm_me fdec RArith Rdecimal]; now rewrite pow_IZR).
  assert (CMI : gm_mi (sheet L) = (25 * me)%R) by (unfold sheet, me; cbn [gm_mi fdec fmul fofz RArith Rdecimal]; now rewrite pow_IZR).
  destruct (sheet_positive L) as (_ & _ & _ & _ & _ & _ & La & _).
  set (p := sheet_fluids) in *. set (dt := (f1 / cyclotron / fofz 10000)%F) in *.
  destruct (walls_keep p (pl_gamma p) (pl_c p) 400 (spacing harris_grid) dt u v w (100 * k) ltac:(lia)) as (K0 & K1 & K2 & K3).
  assert (TT : forall (h : Z -> R) (q : field R) j, (forall x, in_box (harris_mesh ++ [(0, 1)]) x -> q (x ++ [j]) = h (nth 0 x 0)) -> total (harris_mesh ++ [(0, 1)]) (fun x => q (x ++ [j])) = sum (map h (zrange 0 400))).
  { intros h q j Hq. rewrite (total_ext _ _ (fun x => h (nth 0 x 0)) Hq). unfold harris_mesh. cbn [app]. rewrite total_cons. unfold sum. f_equal. apply map_ext. intros t. now rewrite total_single. }
  split; [|split; [|split; [|split]]].
  - etransitivity; [apply (f_equal sum); in_column harris_mesh (fluid_id "electrons") "rho"%string 0|]. etransitivity; [exact K0|].
    etransitivity; [apply (TT (fun t => me * sheet_density (sheet L) (across L 400 t))%R)|apply sum_scale]. intros x Hx. destruct (V x Hx) as (V1 & _). now rewrite V1, CX, CME.
  - etransitivity; [apply (f_equal sum); in_column harris_mesh (fluid_id "ions") "rho"%string 0|]. etransitivity; [exact K1|].
    etransitivity; [apply (TT (fun t => 25 * me * sheet_density (sheet L) (across L 400 t))%R)|apply sum_scale]. intros x Hx. destruct (V x Hx) as (_ & V1 & _). now rewrite V1, CX, CMI.
  - etransitivity; [apply (f_equal sum); in_column harris_mesh (em_id "field") "By"%string 4|]. etransitivity; [exact (K2 4 ltac:(lia))|].
    etransitivity; [apply (TT (fun t => sheet_field (sheet L) (across L 400 t) + bump_y (sheet L) (across L 400 t) 0)%R)|].
    + intros x Hx. destruct (V x Hx) as (_ & _ & _ & V1 & _). now rewrite V1, CX.
    + apply sum_odd; [lia|]. intros t Ht. rewrite across_odd by lia. rewrite sheet_field_odd, bump_y_odd by lra. ring.
  - etransitivity; [apply (f_equal sum); in_column harris_mesh (em_id "field") "Bz"%string 5|]. etransitivity; [exact (K2 5 ltac:(lia))|].
    etransitivity; [apply (TT (fun t => 0%R))|apply sum_zeros; reflexivity]. intros x Hx. apply (V x Hx).
  - etransitivity; [in_column harris_mesh (em_id "field") "Bx"%string 3|]. apply (constant_column harris_mesh _ 3 _ 400); [repeat constructor|reflexivity|].
    intros x Hx. change [0; 3] with ([0] ++ [3]). rewrite app_assoc. etransitivity; [exact (K3 (x ++ [0]))|]. destruct (V (x ++ [0]) (cell_zero _ _ Hx)) as (_ & _ & V1 & _). rewrite V1.
    unfold bump_x. rewrite Rmult_0_r, sin_0. ring.
Qed.
Print Assumptions C75_harris.

(** gem_challenge: in each of the 1001 files the masses are those of the sheet and
    every component of B adds up to zero. *)
Theorem C75_gem : forall fuel dir, enough fuel -> let L := sheet_length f1 in let me := (910938356 / 10 ^ 39)%R in
  let N := (512 * sum (map (fun t => sheet_density (sheet L) (across L 256 t)) (zrange 0 256)))%R in
  all_files (fun opens => gem_challenge true fuel opens dir) dir 1001 (fun f =>
    sum (column "electrons" "rho" f) = (me * N)%R /\ sum (column "ions" "rho" f) = (25 * me * N)%R /\
    Forall (fun c => sum (column "field" c f) = 0%R) ["Bx"; "By"; "Bz"]%string).
Proof.
  intros fuel dir HU L me N. destruct (C74_gem R RArith fuel dir HU) as (m1 & L1 & u & v & w & E1 & HM & Eu & Ev & Ew & S).
  pose proof (sheet_start gem_grid gem_mesh fuel L m1 L1 u v w (gem_setting R RArith fuel HU) ltac:(cbn; lia) E1 HM Eu Ev Ew) as V. clear E1 HM Eu Ev Ew m1 L1.
  apply (saved_all _ _ _ _ _ _ S). intros k. clear S. cbn [List.length gem_mesh Nat.ltb Nat.leb] in V. cbv zeta in V.
  assert (CX : forall x, center (@gem_grid R RArith) x 0 = across L 256 (nth 0 x 0)) by (intros x; apply center_across; [reflexivity|reflexivity|lia]).
  assert (CY : forall x, center (@gem_grid R RArith) x 1 = across (2 * L) 512 (nth 1 x 0)).
  { intros x; apply center_across; [|reflexivity|lia]. change (- L = - (2 * L) / 2)%R. field. }
  assert (CME : gm_me (sheet L) = me) by (unfold sheet, me; cbn [gm_me fdec RArith Rdecimal]; now rewrite pow_IZR).
  assert (CMI : gm_mi (sheet L) = (25 * me)%R) by (unfold sheet, me; cbn [gm_mi fdec fmul fofz RArith Rdecimal]; now rewrite pow_IZR).
  destruct (sheet_positive L) as (_ & _ & _ & _ & _ & _ & La & _).
  set (p := sheet_fluids) in *. set (dt := (fofz 40 / cyclotron / fofz 125000)%F) in *.
  destruct (plane_keeps p (pl_gamma p) (pl_c p) 256 512 (spacing gem_grid) dt u v w (125 * k) ltac:(lia) ltac:(lia)) as (K0 & K1 & K2).
  assert (TT : forall (h : Z -> Z -> R) (q : field R) j, (forall x, in_box (gem_mesh ++ [(0, 1)]) x -> q (x ++ [j]) = h (nth 0 x 0) (nth 1 x 0)) ->
    total (gem_mesh ++ [(0, 1)]) (fun x => q (x ++ [j])) = sum (map (fun t => sum (map (h t) (zrange 0 512))) (zrange 0 256))).
  { intros h q j Hq. rewrite (total_ext _ _ (fun x => h (nth 0 x 0) (nth 1 x 0)) Hq). unfold gem_mesh. cbn [app]. rewrite total_cons. apply (f_equal (fold_right Rplus 0%R)). apply map_ext. intros t.
    rewrite total_cons. apply (f_equal (fold_right Rplus 0%R)). apply map_ext. intros t'. now rewrite total_single. }
  assert (MM : forall (a : R), sum (map (fun t => sum (map (fun _ => (a * sheet_density (sheet L) (across L 256 t))%R) (zrange 0 512))) (zrange 0 256)) = (a * N)%R).
  { intros a. unfold N. rewrite (map_ext _ (fun t => (a * 512) * sheet_density (sheet L) (across L 256 t))%R) by (intros t; rewrite sum_const by lia; cbn [Z.sub Z.opp Z.add]; ring).
    rewrite sum_scale. ring. }
  split; [|split].
  - etransitivity; [apply (f_equal sum); in_column gem_mesh (fluid_id "electrons") "rho"%string 0|]. etransitivity; [exact K0|].
    etransitivity; [apply (TT (fun t _ => me * sheet_density (sheet L) (across L 256 t))%R)|apply MM]. intros x Hx. destruct (V x Hx) as (V1 & _). now rewrite V1, CX, CME.
  - etransitivity; [apply (f_equal sum); in_column gem_mesh (fluid_id "ions") "rho"%string 0|]. etransitivity; [exact K1|].
    etransitivity; [apply (TT (fun t _ => 25 * me * sheet_density (sheet L) (across L 256 t))%R)|apply MM]. intros x Hx. destruct (V x Hx) as (_ & V1 & _). now rewrite V1, CX, CMI.
  - repeat apply Forall_cons; [..|apply Forall_nil].
    + etransitivity; [apply (f_equal sum); in_column gem_mesh (em_id "field") "Bx"%string 3|]. etransitivity; [exact (K2 3 ltac:(lia))|].
      etransitivity; [apply (TT (fun t t' => bump_x (sheet L) (across L 256 t) (across (2 * L) 512 t')))|].
      * intros x Hx. destruct (V x Hx) as (_ & _ & V1 & _). now rewrite V1, CX, CY.
      * apply sum_zeros. intros t _. apply sum_odd; [lia|]. intros t' Ht. rewrite across_odd by lia. apply bump_x_odd.
    + etransitivity; [apply (f_equal sum); in_column gem_mesh (em_id "field") "By"%string 4|]. etransitivity; [exact (K2 4 ltac:(lia))|].
      etransitivity; [apply (TT (fun t t' => sheet_field (sheet L) (across L 256 t) + bump_y (sheet L) (across L 256 t) (across (2 * L) 512 t'))%R)|].
      * intros x Hx. destruct (V x Hx) as (_ & _ & _ & V1 & _). now rewrite V1, CX, CY.
      * apply sum_odd; [lia|]. intros t Ht. rewrite across_odd by lia. 
        rewrite (map_ext _ (fun t' => (-1) * (sheet_field (sheet L) (across L 256 t) + bump_y (sheet L) (across L 256 t) (across (2 * L) 512 t')))%R) by (intros t'; rewrite sheet_field_odd, bump_y_odd by lra; ring).
        rewrite (sum_scale (fun t' => sheet_field (sheet L) (across L 256 t) + bump_y (sheet L) (across L 256 t) (across (2 * L) 512 t'))%R). ring.
    + etransitivity; [apply (f_equal sum); in_column gem_mesh (em_id "field") "Bz"%string 5|]. etransitivity; [exact (K2 5 ltac:(lia))|].
      etransitivity; [apply (TT (fun t t' => 0%R))|apply sum_zeros; intros; apply sum_zeros; reflexivity]. intros x Hx. apply (V x Hx).
Qed.
Print Assumptions C75_gem.

(** ** examples *)

(** A file with two variables on a mesh of 2 x 3 cells; the first coordinate runs
    fastest. *)
Example C75_column_ex : let f := vtk_file [(0, 2); (0, 3)] (0, 0, 0) (1, 1, 1) [(fluid_id "a", fun c => nth 0 c 0 + 10 * nth 1 c 0 + 100 * nth 3 c 0); (em_id "b", fun c => - nth 3 c 0)] in
  column "a" "px" f = [100; 101; 110; 111; 120; 121] /\ column "b" "Bz" f = [-5; -5; -5; -5; -5; -5] /\ column "b" "rho" f = [] /\ column "a" "rho" f = [0; 1; 10; 11; 20; 21].
Proof. cbv zeta. repeat split. Qed.
(** Whatever describes this manager has one variable, and 1 in its cell 1. *)
Example C75_unique_ex : forall M L, mgr_holds (@pulse_start R RArith) M L -> exists u, M = line /\ L = [(f_0 em, u)] /\ u [1; 0; 5] = 1%R /\ u [-2; 0; 3] = 5%R.
Proof.
  intros M L H. destruct (pulse_ready R RArith) as (_ & (H0 & _) & _). destruct (C75_unique R _ _ _ _ _ H0 H) as [EM HF].
  inversion HF as [|? [k u] ? ? [E1 E2] HF']; subst. inversion HF'; subst. cbn [fst snd] in *. subst k. exists u. split; [reflexivity|]. split; [reflexivity|].
  split; (rewrite <- E2; [unfold pulse; cbn; reflexivity|apply in_boxb_iff; vm_compute; reflexivity]).
Qed.
(** With every file creatable: the hundredth file of the shock tube. *)
Example C75_sod_ex : exists fs f, sod_shock_tube (A := RArith) true (Z.to_nat 1000000) (fun _ => true) "d" = Done fs /\ nth_error fs 100 = Some f /\
  sum (column "fluid" "rho" (snd f)) = (5625 / 10)%R.
Proof.
  destruct (C75_sod (Z.to_nat 1000000) "d" plenty (fun _ => true) ltac:(reflexivity)) as (fs & E & EL & H). destruct (nth_error fs 100) as [f|] eqn:N.
  - exists fs, f. split; [exact E|]. split; [exact N|]. apply nth_error_In in N. rewrite Forall_forall in H. now destruct (H f N).
  - apply nth_error_None in N. lia.
Qed.
Example C75_gem_ex : exists fs f, gem_challenge (A := RArith) true (Z.to_nat 1000000) (fun _ => true) "d" = Done fs /\ nth_error fs 1000 = Some f /\
  sum (column "field" "By" (snd f)) = 0%R.
Proof.
  destruct (C75_gem (Z.to_nat 1000000) "d" plenty (fun _ => true) ltac:(reflexivity)) as (fs & E & EL & H). destruct (nth_error fs 1000) as [f|] eqn:N.
  - exists fs, f. split; [exact E|]. split; [exact N|]. apply nth_error_In in N. rewrite Forall_forall in H. destruct (H f N) as (_ & _ & G). inversion G as [|? ? _ G']; subst. now inversion G'.
  - apply nth_error_None in N. exfalso. rewrite EL in N. apply (Nat.lt_irrefl 1001). apply Nat.le_lt_trans with (2 := Nat.lt_succ_diag_r 1000) in N. exact N.
Qed.
(** The loops at work in doubles: a shock tube of four cells, one step, a file at the
    start and one after the step; or the second file cannot be created. *)
Definition small_grid : grid spec_float := grid_on (A := FloatArith) [(0, 4)] [(- fdec 5 (-1))%F] [f1].
Definition small_run (opens : string -> bool) : out (list (string * stream spec_float)) :=
  simulate (A := FloatArith) 999 opens "d" [fluid_id "fluid"] (shock_tube_solve 999 (fdec 125 (-3)) (fdec 1 (-1)) (fdec 14 (-1)) [fluid_id "fluid"])
    (sod_step true 999 (fdec 14 (-1)) [0] [] sod_fluid) (fdec 1 (-1)) 1 1 small_grid.
Example C75_run_ex :
  (exists a b, small_run (fun _ => true) = Done [("d/frame_0.vtk"%string, a); ("d/frame_1.vtk"%string, b)] /\ column "fluid" "rho" a = [f1; f1; fdec 125 (-3); fdec 125 (-3)] /\
     List.length (column "fluid" "rho" b) = 4%nat /\ column "fluid" "rho" b <> column "fluid" "rho" a) /\
  (exists a, small_run (String.eqb "d/frame_0.vtk") = Threw "qk::solver:advection::write_VTK : File 'd/frame_1.vtk' could not be created" [("d/frame_0.vtk"%string, a)]).
Proof.
  split.
  - eexists. eexists. split; [vm_compute; reflexivity|]. repeat split. vm_compute. discriminate.
  - eexists. vm_compute. reflexivity.
Qed.
