(** * WalkFacts: proofs about Walk. *)
From Coq Require Import ZArith List String Lia Bool.
From Verif Require Import Base BaseFacts BoxSpec BoxFacts Range RangeSpec RangeFacts Indexer IndexerFacts Interface InterfaceFacts
  ApiSpec ApiFacts Arith Chunk FieldSpec FieldFacts ChunkFacts VarId Manager MgrSpec MgrFacts Par ParFacts KernelFacts SweepFacts SourceSpec Sources SourceFacts Walk.
Import ListNotations.
Open Scope Z_scope.

(** ** Races *)

Section Race.
Context {T : Type}.

(** Every complete run of the iteration writes element [i] of array [a]. *)
Fixpoint must_write (a : nat) (i : Z) (t : thr T) : Prop :=
  match t with
  | Ret => False
  | Rd _ _ k => forall v, must_write a i (k v)
  | Wr a' i' _ t' => (a' = a /\ i' = i) \/ must_write a i t'
  | Bad _ => True
  end.

Lemma psteps_trans : forall (c1 c2 c3 : list (thr T) * mem T), psteps c1 c2 -> psteps c2 c3 -> psteps c1 c3.
Proof. induction 1; intros; [assumption|]. econstructor; eauto. Qed.

Lemma reach_write : forall a i t ts m m', must_write a i t -> trun t m = Ok m' ->
  exists t' m1, psteps (t :: ts, m) (t' :: ts, m1) /\ next_op t' = Some (a, i, true).
Proof.
  intros a i t. induction t as [|a' i' k IH|a' i' v t IH|u]; intros ts m m' MW E.
  - contradiction.
  - cbn [trun] in E. apply bind_inv in E as (v & Ev & E). destruct (IH v ts m m' (MW v) E) as (t' & m1 & PS & N).
    exists t', m1. split; [|exact N]. eapply psteps_step; [|exact PS].
    exact (pstep_rd (Rd a' i' k :: ts) m 0 a' i' k v eq_refl Ev).
  - destruct MW as [[-> ->]|MW].
    + exists (Wr a i v t), m. split; [constructor|reflexivity].
    + cbn [trun] in E. apply bind_inv in E as (m2 & Ev & E). destruct (IH ts m2 m' MW E) as (t' & m1 & PS & N).
      exists t', m1. split; [|exact N]. eapply psteps_step; [|exact PS].
      exact (pstep_wr (Wr a' i' v t :: ts) m 0 a' i' v t m2 eq_refl Ev).
  - discriminate.
Qed.

(** Two iterations: the first one writes what the second one accesses first. *)
Lemma race_found : forall a i w t1 t2 ts m m', must_write a i t1 -> next_op t2 = Some (a, i, w) -> trun t1 m = Ok m' ->
  exists c, psteps (t1 :: t2 :: ts, m) c /\ racing (fst c).
Proof.
  intros a i w t1 t2 ts m m' MW N2 E. destruct (reach_write a i t1 (t2 :: ts) m m' MW E) as (t' & m1 & PS & N1).
  exists (t' :: t2 :: ts, m1). split; [exact PS|]. exists 0%nat, 1%nat, t', t2, a, i, true, w. repeat split; auto.
Qed.

End Race.

Section WalkFacts.
Context {F : Type} {A : Arith F}.
Notation fld := (field F).

(** ** Running the operations of Walk *)

Lemma vget_num : forall (l : list F) i x, vget l i = Ok x -> vget (map Num l) i = Ok (Num x).
Proof.
  unfold vget. intros l i x. destruct (0 <=? i); [|discriminate]. rewrite nth_error_map. destruct (nth_error l (Z.to_nat i)); [|discriminate].
  now intros [= ->].
Qed.
Lemma map_upd_num : forall (l : list F) n x, map Num (upd l n x) = upd (map Num l) n (Num x).
Proof. induction l as [|y l IH]; intros [|n] x; cbn; auto. now rewrite IH. Qed.
Lemma vset_num : forall (l : list F) i x l', vset l i x = Ok l' -> vset (map Num l) i (Num x) = Ok (map Num l').
Proof. unfold vset. intros l i x l'. rewrite map_length. destruct (_ && _); [|discriminate]. intros [= <-]. now rewrite map_upd_num. Qed.

Lemma run_deref : forall (m : mem (cell F)) a v o k ps p arr x,
  nth_error m ptrs = Some ps -> vget ps v = Ok (Ptr p) -> nth_error m a = Some arr -> vget arr (p + o) = Ok (Num x) ->
  trun (deref a v o k) m = trun (k x) m.
Proof. intros m a v o k ps p arr x H1 H2 H3 H4. unfold deref, load_ptr, load_num. cbn [trun]. unfold mread. rewrite H1, H2. cbn [bind trun]. unfold mread. rewrite H3, H4. reflexivity. Qed.

Lemma run_add : forall (m : mem (cell F)) a v o x t ps p arr y arr',
  nth_error m ptrs = Some ps -> vget ps v = Ok (Ptr p) -> nth_error m a = Some arr -> vget arr (p + o) = Ok (Num y) ->
  vset arr (p + o) (Num (fadd y x)) = Ok arr' ->
  trun (add_at a v o x t) m = trun t (upd m a arr').
Proof.
  intros m a v o x t ps p arr y arr' H1 H2 H3 H4 H5. unfold add_at, load_ptr, load_num. cbn [trun]. unfold mread. rewrite H1, H2. cbn [bind trun].
  unfold mread. rewrite H3, H4. cbn [bind trun]. unfold mwrite. rewrite H3, H5. reflexivity.
Qed.

Lemma run_advance : forall (m : mem (cell F)) v s t ps p ps',
  nth_error m ptrs = Some ps -> vget ps v = Ok (Ptr p) -> vset ps v (Ptr (p + s)) = Ok ps' ->
  trun (advance v s t) m = trun t (upd m ptrs ps').
Proof. intros m v s t ps p ps' H1 H2 H3. unfold advance, load_ptr. cbn [trun]. unfold mread. rewrite H1, H2. cbn [bind trun]. unfold mwrite. rewrite H1, H3. reflexivity. Qed.

Lemma bump_inv : forall (l : list F) p x l', bump l p x = Ok l' -> exists y, vget l p = Ok y /\ vset l p (fadd y x) = Ok l'.
Proof. unfold bump. intros l p x l' E. apply bind_inv in E as (y & E1 & E2). eauto. Qed.

(** ** One iteration of low_order_solve *)

Definition lmem (fl fd l : list F) (i j : Z) : mem (cell F) :=
  [map Num fl; map Num fd; map Num l; [Ptr i; Ptr (i + 1); Ptr j; Ptr (j + 3); Ptr i]].

Lemma lorentz_iter_cell : forall com fl fd i j l l', lorentz_cell com fl fd i j l = Ok l' ->
  trun (lorentz_iter com) (lmem fl fd l i j) = Ok (lmem fl fd l' (i + 5) (j + 6)).
Proof.
  intros com fl fd i j l l' E. unfold lorentz_cell in E.
  apply bind_inv in E as (q0 & Q0 & E). apply bind_inv in E as (p0 & P0 & E). apply bind_inv in E as (p1 & P1 & E). apply bind_inv in E as (p2 & P2 & E).
  apply bind_inv in E as (E0 & K0 & E). apply bind_inv in E as (E1 & K1 & E). apply bind_inv in E as (E2 & K2 & E).
  apply bind_inv in E as (B0 & K3 & E). apply bind_inv in E as (B1 & K4 & E). apply bind_inv in E as (B2 & K5 & E).
  apply bind_inv in E as (l1 & L1 & E). apply bind_inv in E as (l2 & L2 & E). apply bind_inv in E as (l3 & L3 & L4).
  apply bump_inv in L1 as (y1 & G1 & S1). apply bump_inv in L2 as (y2 & G2 & S2). apply bump_inv in L3 as (y3 & G3 & S3). apply bump_inv in L4 as (y4 & G4 & S4).
  replace i with (i + 0) in Q0 by lia. replace (i + 2) with (i + 1 + 1) in P1 by lia. replace (i + 3) with (i + 1 + 2) in P2 by lia.
  replace (i + 1) with (i + 1 + 0) in P0 by lia. replace j with (j + 0) in K0 by lia.
  replace (j + 3) with (j + 3 + 0) in K3 by lia. replace (j + 4) with (j + 3 + 1) in K4 by lia. replace (j + 5) with (j + 3 + 2) in K5 by lia.
  apply vget_num in Q0, P0, P1, P2, K0, K1, K2, K3, K4, K5, G1, G2, G3, G4. apply vset_num in S1, S2, S3, S4.
  unfold lorentz_iter, lmem, momentum, power.
  repeat (erewrite run_deref; [|reflexivity|reflexivity|reflexivity|eassumption]).
  erewrite run_add; [|reflexivity|reflexivity|reflexivity|eassumption|eassumption]. cbn [upd].
  repeat (erewrite run_deref; [|reflexivity|reflexivity|reflexivity|eassumption]).
  erewrite run_add; [|reflexivity|reflexivity|reflexivity|eassumption|eassumption]. cbn [upd].
  repeat (erewrite run_deref; [|reflexivity|reflexivity|reflexivity|eassumption]).
  erewrite run_add; [|reflexivity|reflexivity|reflexivity|eassumption|eassumption]. cbn [upd].
  repeat (erewrite run_deref; [|reflexivity|reflexivity|reflexivity|eassumption]).
  erewrite run_add; [|reflexivity|reflexivity|reflexivity|eassumption|eassumption]. cbn [upd].
  do 5 (erewrite run_advance; [|reflexivity|reflexivity|reflexivity]; cbn [upd ptrs Z.to_nat]).
  cbn [trun]. change (Pos.to_nat 1) with 1%nat. change (Pos.to_nat 2) with 2%nat. change (Pos.to_nat 3) with 3%nat. change (Pos.to_nat 4) with 4%nat. cbn [upd].
  replace (i + 1 + 5) with (i + 5 + 1) by lia. replace (j + 3 + 6) with (j + 6 + 3) by lia. reflexivity.
Qed.

Lemma lorentz_iter_writes : forall com, must_write ptrs 0 (lorentz_iter com).
Proof.
  intros com. unfold lorentz_iter, momentum, power, deref, add_at, advance, load_ptr, load_num. cbn [must_write].
  repeat match goal with |- True => exact I | |- forall _, _ => intros [?|?]; cbn [must_write] | |- _ \/ _ => first [left; split; reflexivity|right] end.
Qed.

(** ** One iteration of fv_solve *)

Definition current_cell (mult : F) (fl : list F) (i j : Z) (l : list F) : res (list F) :=
  p0 <- vget fl (i + 1) ;; p1 <- vget fl (i + 2) ;; p2 <- vget fl (i + 3) ;;
  l1 <- bump l j (mult * p0)%F ;;
  l2 <- bump l1 (j + 1) (mult * p1)%F ;;
  bump l2 (j + 2) (mult * p2)%F.

Definition cmem (fl l : list F) (i j : Z) : mem (cell F) := [map Num fl; []; map Num l; [Ptr (i + 1); Ptr j]].

Lemma current_iter_cell : forall mult fl i j l l', current_cell mult fl i j l = Ok l' ->
  trun (current_iter mult) (cmem fl l i j) = Ok (cmem fl l' (i + 5) (j + 6)).
Proof.
  intros mult fl i j l l' E. unfold current_cell in E.
  apply bind_inv in E as (p0 & P0 & E). apply bind_inv in E as (p1 & P1 & E). apply bind_inv in E as (p2 & P2 & E).
  apply bind_inv in E as (l1 & L1 & E). apply bind_inv in E as (l2 & L2 & L3).
  apply bump_inv in L1 as (y1 & G1 & S1). apply bump_inv in L2 as (y2 & G2 & S2). apply bump_inv in L3 as (y3 & G3 & S3).
  replace (i + 2) with (i + 1 + 1) in P1 by lia. replace (i + 3) with (i + 1 + 2) in P2 by lia. replace (i + 1) with (i + 1 + 0) in P0 by lia.
  replace j with (j + 0) in G1, S1 by lia.
  apply vget_num in P0, P1, P2, G1, G2, G3. apply vset_num in S1, S2, S3. unfold current_iter, cmem.
  erewrite run_deref; [|reflexivity|reflexivity|reflexivity|eassumption]. erewrite run_add; [|reflexivity|reflexivity|reflexivity|eassumption|eassumption]. cbn [upd].
  erewrite run_deref; [|reflexivity|reflexivity|reflexivity|eassumption]. erewrite run_add; [|reflexivity|reflexivity|reflexivity|eassumption|eassumption]. cbn [upd].
  erewrite run_deref; [|reflexivity|reflexivity|reflexivity|eassumption]. erewrite run_add; [|reflexivity|reflexivity|reflexivity|eassumption|eassumption]. cbn [upd].
  do 2 (erewrite run_advance; [|reflexivity|reflexivity|reflexivity]; cbn [upd ptrs Z.to_nat]).
  cbn [trun]. change (Pos.to_nat 1) with 1%nat. cbn [upd]. replace (i + 1 + 5) with (i + 5 + 1) by lia. reflexivity.
Qed.

Lemma current_iter_writes : forall mult, must_write ptrs 0 (current_iter mult).
Proof.
  intros mult. unfold current_iter, deref, add_at, advance, load_ptr, load_num. cbn [must_write].
  repeat match goal with |- True => exact I | |- forall _, _ => intros [?|?]; cbn [must_write] | |- _ \/ _ => first [left; split; reflexivity|right] end.
Qed.

(** ** Walks over the cells of a chunk *)

Variables (M : box) (P : Z).
Let H : box := grow 2 M ++ [(0, P)].
Notation wide_box := (wide_box M P).
Notation part := (part M P).
Notation key := (fun c : list Z => removelast c ++ [0]).

Lemma cells_nth_offset : forall b k x, nonempty b -> nth_error (cells b) k = Some x -> in_box b x /\ offset b x = Z.of_nat k.
Proof.
  intros b k x N E. assert (I : in_box b x) by (apply in_cells; eapply nth_error_In; eauto). split; [exact I|].
  pose proof (nth_cells_offset b x N I) as E2. pose proof (offset_bounds _ _ I) as B.
  assert (NoDup (cells b)) by apply cells_NoDup.
  assert (k = Z.to_nat (offset b x)).
  { eapply (proj1 (NoDup_nth_error (cells b))); [assumption| |congruence]. apply nth_error_Some. congruence. }
  lia.
Qed.

Lemma skipn_S : forall X (l : list X) k x, nth_error l k = Some x -> skipn k l = x :: skipn (S k) l.
Proof. induction l as [|y l IH]; intros [|k] x E; try discriminate; cbn in *; [congruence|]. now apply IH. Qed.

Section Generic.
Variables (it : thr (cell F)) (mm : list F -> Z -> mem (cell F)) (n : Z) (rate : list Z -> Z -> option F).
Hypothesis step : forall x w, in_box H x ->
  trun it (mm (map w (cells (wide_box n))) (offset H x)) =
  Ok (mm (map (keyed key (with_rate rate) w (x ++ [0])) (cells (wide_box n))) (offset H x + 1)).

Lemma walk_run : nonempty H -> forall c k w, (k + c <= List.length (cells H))%nat ->
  seq_run (repeat it c) (mm (map w (cells (wide_box n))) (Z.of_nat k)) =
  Ok (mm (map (fold_left (keyed key (with_rate rate)) (map (fun x => x ++ [0]) (firstn c (skipn k (cells H)))) w) (cells (wide_box n))) (Z.of_nat (k + c))).
Proof.
  intros N. induction c as [|c IH]; intros k w L.
  - cbn. rewrite Nat.add_0_r. reflexivity.
  - destruct (nth_error (cells H) k) as [x|] eqn:E; [|apply nth_error_None in E; lia].
    destruct (cells_nth_offset H k x N E) as [I O]. rewrite (skipn_S _ _ _ _ E). cbn [repeat seq_run firstn map fold_left].
    rewrite <- O, step by exact I. cbn [bind]. rewrite O. replace (Z.of_nat k + 1) with (Z.of_nat (S k)) by lia. rewrite IH by lia.
    do 3 f_equal. lia.
Qed.

(** The cells passed are those with a number from [k] to [k + c - 1]. *)
Lemma in_range_cells : nonempty H -> forall c k x, in_box H x ->
  (In (x ++ [0]) (map (fun x => x ++ [0]) (firstn c (skipn k (cells H)))) <-> Z.of_nat k <= offset H x < Z.of_nat (k + c)).
Proof.
  intros N c k x I. pose proof (nth_cells_offset H x N I) as E. pose proof (offset_bounds _ _ I) as B. split.
  - intros J. apply in_map_iff in J as (y & Ey & J). apply app_inj_tail in Ey as [-> _]. apply In_nth_error in J as (q & J).
    assert (Q : (q < c)%nat). { assert (K : (q < List.length (firstn c (skipn k (cells H))))%nat) by (apply nth_error_Some; congruence). rewrite firstn_length in K. lia. }
    assert (J2 : nth_error (cells H) (k + q) = Some x).
    { rewrite <- J. rewrite <- (firstn_skipn c (skipn k (cells H))) at 1. clear -Q.
      assert (G : forall X (l : list X) k q, nth_error (skipn k l) q = nth_error l (k + q)) by (induction l as [|y l IH]; intros [|k'] q'; cbn; auto; now destruct q').
      assert (G2 : forall X (l : list X) c q, (q < c)%nat -> nth_error (firstn c l) q = nth_error l q) by (induction l as [|y l IH]; intros [|c'] [|q'] Hq; cbn; auto; try lia; apply IH; lia).
      rewrite firstn_skipn, G2 by exact Q. now rewrite G. }
    destruct (cells_nth_offset H _ x N J2) as [_ ->]. lia.
  - intros J. apply (in_map (fun x => x ++ [0])). apply (nth_error_In _ (Z.to_nat (offset H x) - k)).
    assert (G : forall X (l : list X) k q, nth_error (skipn k l) q = nth_error l (k + q)) by (induction l as [|y l IH]; intros [|k'] q'; cbn; auto; now destruct q').
    assert (G2 : forall X (l : list X) c q, (q < c)%nat -> nth_error (firstn c l) q = nth_error l q) by (induction l as [|y l IH]; intros [|c'] [|q'] Hq; cbn; auto; try lia; apply IH; lia).
    rewrite G2, G by lia. rewrite <- E. f_equal. lia.
Qed.

Lemma walk_fold : nonempty H -> forall c k w x j, in_box H x ->
  fold_left (keyed key (with_rate rate)) (map (fun x => x ++ [0]) (firstn c (skipn k (cells H)))) w (x ++ [j]) =
  if (Z.of_nat k <=? offset H x) && (offset H x <? Z.of_nat (k + c)) then with_rate rate (x ++ [j]) (w (x ++ [j])) else w (x ++ [j]).
Proof.
  intros N c k w x j I. rewrite keyed_fold.
  - rewrite removelast_last. pose proof (in_range_cells N c k x I) as R.
    destruct (in_dec _ _ _) as [J|J]; destruct ((Z.of_nat k <=? offset H x) && (offset H x <? Z.of_nat (k + c))) eqn:E; auto; exfalso.
    + apply R in J. apply andb_false_iff in E. rewrite Z.leb_gt, Z.ltb_ge in E. lia.
    + apply J, R. apply andb_true_iff in E. rewrite Z.leb_le, Z.ltb_lt in E. lia.
  - apply FinFun.Injective_map_NoDup. { intros a b E. now apply app_inj_tail in E as []. }
    assert (G : forall X (l : list X) k, NoDup l -> NoDup (skipn k l)) by (induction l as [|y l IH]; intros [|k'] D; cbn; auto; inversion D; auto).
    assert (G2 : forall X (l : list X) c, NoDup l -> NoDup (firstn c l)).
    { induction l as [|y l IH]; intros [|c'] D; cbn; try constructor; inversion D; subst; auto.
      intros J. apply H2. clear -J. revert l J. induction c' as [|c' IH]; intros [|z l] J; cbn in *; try contradiction. destruct J; auto. }
    apply G2, G, cells_NoDup.
Qed.
End Generic.

(** First and last cell of the interior, and their numbers. *)
Let inner : box := M ++ [(0, P)].
Lemma part_first : first_cell (part 0 1) = first_cell inner ++ [0].
Proof. unfold first_cell, SourceFacts.part, inner. now rewrite map_app. Qed.
Lemma part_last : last_cell (part 0 1) = last_cell inner ++ [0].
Proof. unfold last_cell, SourceFacts.part, inner. now rewrite map_app. Qed.

Lemma inner_ends : forall n, shape M [(0, P); (0, n)] 2 -> 0 < n -> nonempty H /\ in_box inner (first_cell inner) /\ in_box inner (last_cell inner) /\
  offset H (first_cell inner) <= offset H (last_cell inner) /\ nonempty inner /\ box_incl inner H.
Proof.
  intros n S Hn. pose proof (part_good M P n 0 1 S ltac:(lia) ltac:(lia)) as G. pose proof (wide_valid M P n S) as V.
  assert (NI : nonempty inner). { pose proof (gs_ne _ _ G) as N. unfold SourceFacts.part in N. apply nonempty_app in N. apply N. }
  assert (NH : nonempty H). { destruct V as (_ & N & _). unfold SourceFacts.wide_box in N. apply nonempty_app in N. apply N. }
  assert (IF : in_box inner (first_cell inner)). { clear -NI. unfold first_cell. induction NI as [|[l u] b N NI IH]; constructor; auto. cbn in *. lia. }
  assert (IL : in_box inner (last_cell inner)). { clear -NI. unfold last_cell. induction NI as [|[l u] b N NI IH]; constructor; auto. cbn in *. lia. }
  assert (BI : box_incl inner H) by (unfold inner, H; apply box_incl_app; [apply box_incl_grow; lia|apply box_incl_refl]).
  split; [exact NH|]. split; [exact IF|]. split; [exact IL|]. split; [|auto].
  pose proof (api_final_bounds H inner (last_cell inner) NI BI IL). lia.
Qed.

Lemma quot_cell : forall k r, 0 <= k -> 0 <= r < 5 -> Z.quot (k * 5 + r) 5 = k.
Proof. intros k r K R. rewrite Z.quot_div_nonneg by lia. rewrite Z.div_add_l by lia. rewrite Z.div_small by lia. lia. Qed.

(** The prologue both functions share: the fluid has five components. *)
Lemma walk_loop : shape M [(0, P); (0, 5)] 2 ->
  let kf := offset H (first_cell inner) in let kl := offset H (last_cell inner) in
  let a := ix_at (wide_box 5) (part 0 1) (first_cell (part 0 1)) in
  ix_lin a = 5 * kf /\ 0 <= kf <= kl /\
  (fin <- indexer_final a ;; fin1 <- iadd fin 1 ;; int_loop (Z.quot (ix_lin a) 5) (Z.quot fin1 5) 1) =
  Ok (map (fun k => kf + Z.of_nat k * 1) (seq 0 (Z.to_nat (kl - kf)))).
Proof.
  intros S kf kl a. destruct (inner_ends 5 S ltac:(lia)) as (NH & IF & IL & LE & NI & BI).
  pose proof (part_good M P 5 0 1 S ltac:(lia) ltac:(lia)) as G. pose proof (wide_valid M P 5 S) as V.
  pose proof (box_incl_in _ _ _ BI IF) as HF. pose proof (box_incl_in _ _ _ BI IL) as HL.
  pose proof (offset_bounds _ _ HF) as BF. pose proof (offset_bounds _ _ HL) as BL.
  assert (EA : ix_lin a = 5 * kf).
  { unfold a. cbn [ix_at ix_lin]. rewrite part_first. unfold SourceFacts.wide_box. rewrite snoc_offset by (now apply in_box_length in HF). unfold kf. fold H. lia. }
  split; [exact EA|]. split; [unfold kf, kl; lia|]. rewrite EA. unfold a. rewrite indexer_final_ok by exact G. cbn [bind].
  rewrite part_last. unfold SourceFacts.wide_box at 1. rewrite snoc_offset by (now apply in_box_length in HL). fold H. fold kl.
  assert (PW : prod_len (wide_box 5) = prod_len H * 5) by (unfold SourceFacts.wide_box, H; rewrite prod_len_app; cbn; lia).
  destruct V as (_ & _ & V & _). rewrite PW in V. fold kf in BF. fold kl in BL.
  unfold iadd. rewrite chk_ok by (unfold is_int, int_min, int_max in *; lia). cbn [bind].
  replace (kl * 5 + 0 + 1 + 1) with (kl * 5 + 2) by lia. rewrite quot_cell by lia. replace (5 * kf) with (kf * 5 + 0) by lia. rewrite quot_cell by lia.
  unfold int_loop. destruct (Z.leb_spec kl kf) as [LK|LK].
  - fold kf in LE. fold kl in LE. replace (kl - kf) with 0 by lia. reflexivity.
  - replace (kl - kf + 1 - 1) with (kl - kf) by lia. rewrite Z.div_1_r.
    rewrite chk_ok by (unfold is_int, int_min, int_max in *; lia). reflexivity.
Qed.

Lemma map_const : forall X Y (y : Y) (l : list X), map (fun _ => y) l = repeat y (List.length l).
Proof. induction l; cbn; congruence. Qed.

(** ** low_order_solve in order *)

Lemma lorentz_walk_ok : forall com (u e w : fld), shape M [(0, P); (0, 5)] 2 -> shape M [(0, P); (0, 6)] 2 ->
  let kf := offset H (first_cell inner) in let kl := offset H (last_cell inner) in
  exists w', lorentz_walk com (echunk_of M [(0, P); (0, 5)] 2 u) (echunk_of M [(0, P); (0, 6)] 2 e) (iface_of (wide_box 5) w) =
    Ok (repeat (lorentz_iter com) (Z.to_nat (kl - kf)), lmem (map u (cells (wide_box 5))) (map e (cells (wide_box 6))) (map w (cells (wide_box 5))) (5 * kf) (6 * kf)) /\
  seq_run (repeat (lorentz_iter com) (Z.to_nat (kl - kf)))
    (lmem (map u (cells (wide_box 5))) (map e (cells (wide_box 6))) (map w (cells (wide_box 5))) (5 * kf) (6 * kf)) =
  Ok (lmem (map u (cells (wide_box 5))) (map e (cells (wide_box 6))) (map w' (cells (wide_box 5))) (5 * kl) (6 * kl)) /\
  forall x j, in_box H x -> w' (x ++ [j]) =
    if (kf <=? offset H x) && (offset H x <? kl) then with_rate (lrate com u e) (x ++ [j]) (w (x ++ [j])) else w (x ++ [j]).
Proof.
  intros com u e w S5 S6 kf kl. destruct (walk_loop S5) as (EA & KK & EL). fold kf kl in EA, KK, EL.
  destruct (inner_ends 5 S5 ltac:(lia)) as (NH & IF & IL & LE & NI & BI).
  pose proof (box_incl_in _ _ _ BI IF) as HF. pose proof (box_incl_in _ _ _ BI IL) as HL. pose proof (offset_bounds _ _ HL) as BL. fold kl in BL.
  exists (fold_left (keyed key (with_rate (lrate com u e))) (map (fun x => x ++ [0]) (firstn (Z.to_nat (kl - kf)) (skipn (Z.to_nat kf) (cells H)))) w).
  split; [|split].
  - unfold lorentz_walk. rewrite !inner_comps_ok by (auto; lia). cbn [bind]. rewrite !part_indexer by (auto; lia). cbn [bind].
    destruct (indexer_final (ix_at (wide_box 5) (part 0 1) (first_cell (part 0 1)))) as [fin| | |]; try discriminate. cbn [bind] in EL |- *.
    destruct (iadd fin 1) as [fin1| | |]; try discriminate. cbn [bind] in EL |- *. rewrite EL. cbn [bind].
    rewrite map_const, map_length, seq_length. rewrite EA.
    assert (EB : ix_lin (ix_at (wide_box 6) (part 0 1) (first_cell (part 0 1))) = 6 * kf).
    { cbn [ix_at ix_lin]. rewrite part_first. unfold SourceFacts.wide_box. rewrite snoc_offset by (now apply in_box_length in HF). fold H. fold kf. lia. }
    rewrite EB, !ec_if_of, !wide_eq. reflexivity.
  - pose (mm := fun l k => lmem (map u (cells (wide_box 5))) (map e (cells (wide_box 6))) l (5 * k) (6 * k)).
    assert (ST : forall x v, in_box H x -> trun (lorentz_iter com) (mm (map v (cells (wide_box 5))) (offset H x)) =
      Ok (mm (map (keyed key (with_rate (lrate com u e)) v (x ++ [0])) (cells (wide_box 5))) (offset H x + 1))).
    { intros x v I. unfold mm. pose proof (lorentz_cell_ok M P com 5 6 u e v x S5 S6 ltac:(lia) ltac:(lia) I) as C.
      assert (LX := in_box_length _ _ I).
      replace (offset (wide_box 5) (x ++ [0])) with (5 * offset H x) in C by (unfold SourceFacts.wide_box; rewrite snoc_offset by exact LX; fold H; lia).
      replace (offset (wide_box 6) (x ++ [0])) with (6 * offset H x) in C by (unfold SourceFacts.wide_box; rewrite snoc_offset by exact LX; fold H; lia).
      rewrite (lorentz_iter_cell _ _ _ _ _ _ _ C). do 2 f_equal; lia. }
    pose proof (walk_run (lorentz_iter com) mm 5 (lrate com u e) ST NH (Z.to_nat (kl - kf)) (Z.to_nat kf) w) as R.
    pose proof (cells_length H NH) as CL. specialize (R ltac:(lia)). unfold mm in R. rewrite Nat2Z.inj_add, !Z2Nat.id in R by lia.
    replace (kf + (kl - kf)) with kl in R by lia. exact R.
  - intros x j I. rewrite walk_fold by auto. rewrite Nat2Z.inj_add, !Z2Nat.id by lia. replace (kf + (kl - kf)) with kl by lia. reflexivity.
Qed.

(** ** fv_solve in order *)

Lemma current_cell_ok : forall mult (u w : fld) x, shape M [(0, P); (0, 5)] 2 -> shape M [(0, P); (0, 6)] 2 -> in_box H x ->
  current_cell mult (map u (cells (wide_box 5))) (offset (wide_box 5) (x ++ [0])) (offset (wide_box 6) (x ++ [0])) (map w (cells (wide_box 6))) =
  Ok (map (keyed key (with_rate (current_rate mult u)) w (x ++ [0])) (cells (wide_box 6))).
Proof.
  intros mult u w x S5 S6 I. pose proof (wide_valid M P 5 S5) as Vf. pose proof (wide_valid M P 6 S6) as Ve.
  unfold current_cell. rewrite !wide_lin by assumption.
  assert (If : forall j, 0 <= j < 5 -> in_box (wide_box 5) (x ++ [j])) by (intros; apply snoc_in; auto).
  assert (Ie : forall j, 0 <= j < 6 -> in_box (wide_box 6) (x ++ [j])) by (intros; apply snoc_in; auto).
  rewrite !vget_of by (auto; apply If; lia). cbn [bind].
  rewrite bump_of by (auto; apply Ie; lia). cbn [bind].
  rewrite bump_of by (auto; apply Ie; lia). cbn [bind].
  rewrite bump_of by (auto; apply Ie; lia).
  f_equal. apply map_ext_in. intros c Hc. apply in_cells in Hc. apply wide_split in Hc as (y & j & -> & Iy & Hj).
  rewrite !snoc_eq_dec. unfold keyed, with_rate, current_rate. rewrite removelast_last, last_last. rewrite snoc_eq_dec.
  destruct (list_eq_dec Z.eq_dec y x) as [->|N]; [|reflexivity]. rewrite Z.eqb_refl.
  destruct (Z.eqb_spec j 0); [subst; reflexivity|]. destruct (Z.eqb_spec j 1); [subst; reflexivity|]. destruct (Z.eqb_spec j 2); [subst; reflexivity|].
  destruct ((0 <=? j) && (j <? 3)) eqn:E; [lia|reflexivity].
Qed.

Lemma current_walk_ok : forall mult (u w0 w : fld), shape M [(0, P); (0, 5)] 2 -> shape M [(0, P); (0, 6)] 2 ->
  let kf := offset H (first_cell inner) in let kl := offset H (last_cell inner) in
  exists w', current_walk mult (echunk_of M [(0, P); (0, 5)] 2 u) (echunk_of M [(0, P); (0, 6)] 2 w0) (iface_of (wide_box 6) w) =
    Ok (repeat (current_iter mult) (Z.to_nat (kl - kf)), cmem (map u (cells (wide_box 5))) (map w (cells (wide_box 6))) (5 * kf) (6 * kf)) /\
  seq_run (repeat (current_iter mult) (Z.to_nat (kl - kf))) (cmem (map u (cells (wide_box 5))) (map w (cells (wide_box 6))) (5 * kf) (6 * kf)) =
  Ok (cmem (map u (cells (wide_box 5))) (map w' (cells (wide_box 6))) (5 * kl) (6 * kl)) /\
  forall x j, in_box H x -> w' (x ++ [j]) =
    if (kf <=? offset H x) && (offset H x <? kl) then with_rate (current_rate mult u) (x ++ [j]) (w (x ++ [j])) else w (x ++ [j]).
Proof.
  intros mult u w0 w S5 S6 kf kl. destruct (walk_loop S5) as (EA & KK & EL). fold kf kl in EA, KK, EL.
  destruct (inner_ends 5 S5 ltac:(lia)) as (NH & IF & IL & LE & NI & BI).
  pose proof (box_incl_in _ _ _ BI IF) as HF. pose proof (box_incl_in _ _ _ BI IL) as HL. pose proof (offset_bounds _ _ HL) as BL. fold kl in BL.
  exists (fold_left (keyed key (with_rate (current_rate mult u))) (map (fun x => x ++ [0]) (firstn (Z.to_nat (kl - kf)) (skipn (Z.to_nat kf) (cells H)))) w).
  split; [|split].
  - unfold current_walk. rewrite !inner_comps_ok by (auto; lia). cbn [bind]. rewrite !part_indexer by (auto; lia). cbn [bind].
    destruct (indexer_final (ix_at (wide_box 5) (part 0 1) (first_cell (part 0 1)))) as [fin| | |]; try discriminate. cbn [bind] in EL |- *.
    destruct (iadd fin 1) as [fin1| | |]; try discriminate. cbn [bind] in EL |- *. rewrite EL. cbn [bind].
    rewrite map_const, map_length, seq_length. rewrite EA.
    assert (EB : ix_lin (ix_at (wide_box 6) (part 0 1) (first_cell (part 0 1))) = 6 * kf).
    { cbn [ix_at ix_lin]. rewrite part_first. unfold SourceFacts.wide_box. rewrite snoc_offset by (now apply in_box_length in HF). fold H. fold kf. lia. }
    rewrite EB, !ec_if_of, !wide_eq. reflexivity.
  - pose (mm := fun l k => cmem (map u (cells (wide_box 5))) l (5 * k) (6 * k)).
    assert (ST : forall x v, in_box H x -> trun (current_iter mult) (mm (map v (cells (wide_box 6))) (offset H x)) =
      Ok (mm (map (keyed key (with_rate (current_rate mult u)) v (x ++ [0])) (cells (wide_box 6))) (offset H x + 1))).
    { intros x v I. unfold mm. pose proof (current_cell_ok mult u v x S5 S6 I) as C. assert (LX := in_box_length _ _ I).
      replace (offset (wide_box 5) (x ++ [0])) with (5 * offset H x) in C by (unfold SourceFacts.wide_box; rewrite snoc_offset by exact LX; fold H; lia).
      replace (offset (wide_box 6) (x ++ [0])) with (6 * offset H x) in C by (unfold SourceFacts.wide_box; rewrite snoc_offset by exact LX; fold H; lia).
      rewrite (current_iter_cell _ _ _ _ _ _ C). do 2 f_equal; lia. }
    pose proof (walk_run (current_iter mult) mm 6 (current_rate mult u) ST NH (Z.to_nat (kl - kf)) (Z.to_nat kf) w) as R.
    pose proof (cells_length H NH) as CL. specialize (R ltac:(lia)). unfold mm in R. rewrite Nat2Z.inj_add, !Z2Nat.id in R by lia.
    replace (kf + (kl - kf)) with kl in R by lia. exact R.
  - intros x j I. rewrite walk_fold by auto. rewrite Nat2Z.inj_add, !Z2Nat.id by lia. replace (kf + (kl - kf)) with kl by lia. reflexivity.
Qed.

End WalkFacts.
