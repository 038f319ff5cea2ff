(** * Properties of the pointer walking kernels (C70). *)
From Coq Require Import ZArith List String Lia Bool Floats.SpecFloat.
From Verif Require Import Base BaseFacts BoxSpec BoxFacts Range RangeSpec RangeFacts Indexer IndexerFacts Interface InterfaceFacts
  ApiSpec ApiFacts Arith ArithFloat Chunk FieldSpec FieldFacts ChunkFacts Par ParFacts SweepFacts SourceSpec Sources SourceFacts Walk WalkFacts.
Import ListNotations.
Open Scope Z_scope.

(** [v] with the rate [f], if there is one, added. *)
Definition plus_rate {F} {A : Arith F} (v : F) (f : option F) : F := match f with Some x => fadd v x | None => v end.

(** Array number 2 of a memory, the right-hand side, holds the elements [w] of the
    box [b]. *)
Definition rhs_holds {F} (m : mem (cell F)) (b : box) (w : list Z -> F) : Prop :=
  nth_error m 2 = Some (map (fun c => Num (w c)) (cells b)).

(** The numbers (in the order of memory) of the first and of the last interior
    cell of a chunk of mesh [M] with [P] points per cell. *)
Definition first_no (M : box) (P : Z) : Z := offset (grow 2 M ++ [(0, P)]) (first_cell (M ++ [(0, P)])).
Definition last_no (M : box) (P : Z) : Z := offset (grow 2 M ++ [(0, P)]) (last_cell (M ++ [(0, P)])).

(** The current that component [j] of the field receives from a fluid of state [q]. *)
Definition one_current {F} {A : Arith F} (mult : F) (q : Z -> F) (j : Z) : option F :=
  if (0 <=? j) && (j <? 3) then Some (fmul mult (q (j + 1))) else None.

(** ** low_order_solve of the Lorentz force *)

(** Run without OpenMP, the kernel adds the force and the power to every cell whose
    number is at least that of the first and less than that of the last interior
    cell, and to no other element. *)
Theorem C70_lorentz_serial : forall F (A : Arith F) com M P fluid fld rhs u e w,
  shape M [(0, P); (0, 5)] 2 -> shape M [(0, P); (0, 6)] 2 ->
  chunk_holds fluid M [(0, P); (0, 5)] 2 u -> chunk_holds fld M [(0, P); (0, 6)] 2 e -> holds rhs (grow 2 M ++ [(0, P); (0, 5)]) w ->
  exists its m0 m1 w', lorentz_walk com fluid fld rhs = Ok (its, m0) /\ seq_run its m0 = Ok m1 /\ rhs_holds m1 (grow 2 M ++ [(0, P); (0, 5)]) w' /\
    forall x j, in_box (grow 2 M ++ [(0, P)]) x ->
      (first_no M P <= offset (grow 2 M ++ [(0, P)]) x < last_no M P ->
         w' (x ++ [j]) = plus_rate (w (x ++ [j])) (lorentz_rate com (fun i => u (x ++ [i])) (fun i => e (x ++ [i])) j)) /\
      (~ first_no M P <= offset (grow 2 M ++ [(0, P)]) x < last_no M P -> w' (x ++ [j]) = w (x ++ [j])).
Proof.
  intros F A com M P fluid fld rhs u e w S5 S6 Hu He Hw.
  apply chunk_holds_iff in Hu; [|exact S5]. apply chunk_holds_iff in He; [|exact S6]. subst fluid fld.
  apply holds_iff in Hw; [|now apply shape_valid]. subst rhs. rewrite wide_eq.
  destruct (lorentz_walk_ok M P com u e w S5 S6) as (w' & E1 & E2 & E3).
  eexists _, _, _, w'. split; [exact E1|]. split; [exact E2|]. split.
  - unfold rhs_holds, lmem. cbn [nth_error]. now rewrite map_map.
  - intros x j I. specialize (E3 x j I). fold (first_no M P) (last_no M P) in E3. split; intros K; rewrite E3.
    + destruct (Z.leb_spec (first_no M P) (offset (grow 2 M ++ [(0, P)]) x)), (Z.ltb_spec (offset (grow 2 M ++ [(0, P)]) x) (last_no M P)); try lia. cbn [andb].
      unfold with_rate, lrate, plus_rate. now rewrite removelast_last, last_last.
    + destruct (Z.leb_spec (first_no M P) (offset (grow 2 M ++ [(0, P)]) x)), (Z.ltb_spec (offset (grow 2 M ++ [(0, P)]) x) (last_no M P)); try lia; reflexivity.
Qed.
Print Assumptions C70_lorentz_serial.

Lemma inner_number : forall M P n x, shape M [(0, P); (0, n)] 2 -> 0 < n -> in_box (M ++ [(0, P)]) x -> x <> last_cell (M ++ [(0, P)]) ->
  in_box (grow 2 M ++ [(0, P)]) x /\ first_no M P <= offset (grow 2 M ++ [(0, P)]) x < last_no M P.
Proof.
  intros M P n x S Hn I NE. destruct (inner_ends M P n S Hn) as (NH & IF & IL & LE & NI & BI).
  pose proof (box_incl_in _ _ _ BI I) as IH. pose proof (box_incl_in _ _ _ BI IL) as LH. split; [exact IH|].
  pose proof (api_final_bounds _ _ x NI BI I) as B. unfold first_no, last_no.
  assert (offset (grow 2 M ++ [(0, P)]) x <> offset (grow 2 M ++ [(0, P)]) (last_cell (M ++ [(0, P)]))); [|lia].
  intros E. apply NE. now apply (offset_inj (grow 2 M ++ [(0, P)])).
Qed.

(** All interior cells but the last one receive what low_order_solve_idx adds.
    Partial: the last interior cell and OpenMP, refuted below. *)
Theorem C70_lorentz_partial : forall F (A : Arith F) com M P fluid fld rhs u e w,
  shape M [(0, P); (0, 5)] 2 -> shape M [(0, P); (0, 6)] 2 ->
  chunk_holds fluid M [(0, P); (0, 5)] 2 u -> chunk_holds fld M [(0, P); (0, 6)] 2 e -> holds rhs (grow 2 M ++ [(0, P); (0, 5)]) w ->
  exists its m0 m1 w', lorentz_walk com fluid fld rhs = Ok (its, m0) /\ seq_run its m0 = Ok m1 /\ rhs_holds m1 (grow 2 M ++ [(0, P); (0, 5)]) w' /\
    forall x j, in_box (M ++ [(0, P)]) x -> x <> last_cell (M ++ [(0, P)]) ->
      w' (x ++ [j]) = plus_rate (w (x ++ [j])) (lorentz_rate com (fun i => u (x ++ [i])) (fun i => e (x ++ [i])) j).
Proof.
  intros F A com M P fluid fld rhs u e w S5 S6 Hu He Hw.
  destruct (C70_lorentz_serial F A com M P fluid fld rhs u e w S5 S6 Hu He Hw) as (its & m0 & m1 & w' & E1 & E2 & E3 & E4).
  exists its, m0, m1, w'. repeat (split; [assumption|]). intros x j I NE.
  destruct (inner_number M P 5 x S5 ltac:(lia) I NE) as [IH K]. now apply E4.
Qed.
Print Assumptions C70_lorentz_partial.

(** Refuted: the last interior cell receives nothing, in every chunk;
    low_order_solve_idx, which the program calls, gives it its force and power. *)
Theorem C70_lorentz_last_refuted : forall F (A : Arith F) com M P fluid fld rhs u e w fuel,
  shape M [(0, P); (0, 5)] 2 -> shape M [(0, P); (0, 6)] 2 ->
  chunk_holds fluid M [(0, P); (0, 5)] 2 u -> chunk_holds fld M [(0, P); (0, 6)] 2 e -> holds rhs (grow 2 M ++ [(0, P); (0, 5)]) w ->
  prod_len (grow 2 M ++ [(0, P); (0, 5)]) <= Z.of_nat fuel ->
  let x := last_cell (M ++ [(0, P)]) in
  in_box (M ++ [(0, P)]) x /\
  (exists its m0 m1 w', lorentz_walk com fluid fld rhs = Ok (its, m0) /\ seq_run its m0 = Ok m1 /\ rhs_holds m1 (grow 2 M ++ [(0, P); (0, 5)]) w' /\
    forall j, w' (x ++ [j]) = w (x ++ [j])) /\
  (exists i w'', lorentz_chunk fuel com fluid fld rhs = Done i /\ holds i (grow 2 M ++ [(0, P); (0, 5)]) w'' /\
    forall j, w'' (x ++ [j]) = plus_rate (w (x ++ [j])) (lorentz_rate com (fun i => u (x ++ [i])) (fun i => e (x ++ [i])) j)).
Proof.
  intros F A com M P fluid fld rhs u e w fuel S5 S6 Hu He Hw Hf x. destruct (inner_ends M P 5 S5 ltac:(lia)) as (NH & IF & IL & LE & NI & BI).
  split; [exact IL|]. pose proof (box_incl_in _ _ _ BI IL) as HL. split.
  - destruct (C70_lorentz_serial F A com M P fluid fld rhs u e w S5 S6 Hu He Hw) as (its & m0 & m1 & w' & E1 & E2 & E3 & E4).
    exists its, m0, m1, w'. repeat (split; [assumption|]). intros j. apply (E4 x j HL). unfold last_no, x. lia.
  - apply chunk_holds_iff in Hu; [|exact S5]. apply chunk_holds_iff in He; [|exact S6]. subst fluid fld.
    apply holds_iff in Hw; [|now apply shape_valid]. subst rhs. rewrite wide_eq in *.
    eexists _, (after_rates M P (lrate com u e) w). split; [apply lorentz_chunk_ok; auto; lia|].
    split; [apply holds_iff; [now apply wide_valid|reflexivity]|]. intros j. unfold after_rates. rewrite removelast_last.
    destruct (in_boxb (M ++ [(0, P)]) x) eqn:Eb.
    + unfold with_rate, lrate, plus_rate. now rewrite removelast_last, last_last.
    + apply in_boxb_iff in IL. unfold x in Eb. congruence.
Qed.
Print Assumptions C70_lorentz_last_refuted.

(** Refuted: with OpenMP the iterations share the pointers.  In every chunk for which
    the loop has two iterations the parallel loop has a data race. *)
Theorem C70_lorentz_race_refuted : forall F (A : Arith F) com M P fluid fld rhs u e w,
  shape M [(0, P); (0, 5)] 2 -> shape M [(0, P); (0, 6)] 2 ->
  chunk_holds fluid M [(0, P); (0, 5)] 2 u -> chunk_holds fld M [(0, P); (0, 6)] 2 e -> holds rhs (grow 2 M ++ [(0, P); (0, 5)]) w ->
  first_no M P + 2 <= last_no M P ->
  exists its m0, lorentz_walk com fluid fld rhs = Ok (its, m0) /\ exists c, psteps (its, m0) c /\ racing (fst c).
Proof.
  intros F A com M P fluid fld rhs u e w S5 S6 Hu He Hw H2.
  apply chunk_holds_iff in Hu; [|exact S5]. apply chunk_holds_iff in He; [|exact S6]. subst fluid fld.
  apply holds_iff in Hw; [|now apply shape_valid]. subst rhs. rewrite wide_eq.
  destruct (lorentz_walk_ok M P com u e w S5 S6) as (w' & E1 & E2 & _). fold (first_no M P) (last_no M P) in E1, E2.
  eexists _, _. split; [exact E1|]. destruct (Z.to_nat (last_no M P - first_no M P)) as [|[|n]] eqn:EN; [lia|lia|]. cbn [repeat seq_run] in E2 |- *.
  apply bind_inv in E2 as (m1 & E2 & _). apply (race_found ptrs 0 false _ _ _ _ m1); [apply lorentz_iter_writes|reflexivity|exact E2].
Qed.
Print Assumptions C70_lorentz_race_refuted.

(** ** fv_solve of the current *)

(** Run without OpenMP: as above, the last interior cell is left out. *)
Theorem C70_current_serial : forall F (A : Arith F) mult M P fluid rc rhs u w0 w,
  shape M [(0, P); (0, 5)] 2 -> shape M [(0, P); (0, 6)] 2 ->
  chunk_holds fluid M [(0, P); (0, 5)] 2 u -> chunk_holds rc M [(0, P); (0, 6)] 2 w0 -> holds rhs (grow 2 M ++ [(0, P); (0, 6)]) w ->
  exists its m0 m1 w', current_walk mult fluid rc rhs = Ok (its, m0) /\ seq_run its m0 = Ok m1 /\ rhs_holds m1 (grow 2 M ++ [(0, P); (0, 6)]) w' /\
    forall x j, in_box (grow 2 M ++ [(0, P)]) x ->
      (first_no M P <= offset (grow 2 M ++ [(0, P)]) x < last_no M P -> w' (x ++ [j]) = plus_rate (w (x ++ [j])) (one_current mult (fun i => u (x ++ [i])) j)) /\
      (~ first_no M P <= offset (grow 2 M ++ [(0, P)]) x < last_no M P -> w' (x ++ [j]) = w (x ++ [j])).
Proof.
  intros F A mult M P fluid rc rhs u w0 w S5 S6 Hu He Hw.
  apply chunk_holds_iff in Hu; [|exact S5]. apply chunk_holds_iff in He; [|exact S6]. subst fluid rc.
  apply holds_iff in Hw; [|now apply shape_valid]. subst rhs. rewrite wide_eq.
  destruct (current_walk_ok M P mult u w0 w S5 S6) as (w' & E1 & E2 & E3).
  eexists _, _, _, w'. split; [exact E1|]. split; [exact E2|]. split.
  - unfold rhs_holds, cmem. cbn [nth_error]. now rewrite map_map.
  - intros x j I. specialize (E3 x j I). fold (first_no M P) (last_no M P) in E3. split; intros K; rewrite E3.
    + destruct (Z.leb_spec (first_no M P) (offset (grow 2 M ++ [(0, P)]) x)), (Z.ltb_spec (offset (grow 2 M ++ [(0, P)]) x) (last_no M P)); try lia. cbn [andb].
      unfold with_rate, current_rate, one_current, plus_rate. now rewrite removelast_last, last_last.
    + destruct (Z.leb_spec (first_no M P) (offset (grow 2 M ++ [(0, P)]) x)), (Z.ltb_spec (offset (grow 2 M ++ [(0, P)]) x) (last_no M P)); try lia; reflexivity.
Qed.
Print Assumptions C70_current_serial.

Theorem C70_current_last_refuted : forall F (A : Arith F) mult M P fluid rc rhs u w0 w fuel,
  shape M [(0, P); (0, 5)] 2 -> shape M [(0, P); (0, 6)] 2 ->
  chunk_holds fluid M [(0, P); (0, 5)] 2 u -> chunk_holds rc M [(0, P); (0, 6)] 2 w0 -> holds rhs (grow 2 M ++ [(0, P); (0, 6)]) w ->
  prod_len (grow 2 M ++ [(0, P); (0, 5)]) <= Z.of_nat fuel ->
  let x := last_cell (M ++ [(0, P)]) in
  in_box (M ++ [(0, P)]) x /\
  (exists its m0 m1 w', current_walk mult fluid rc rhs = Ok (its, m0) /\ seq_run its m0 = Ok m1 /\ rhs_holds m1 (grow 2 M ++ [(0, P); (0, 6)]) w' /\
    forall j, w' (x ++ [j]) = w (x ++ [j])) /\
  (exists i w'', current_chunk fuel mult fluid rc (fun _ => ec_if fluid) rhs = Done i /\ holds i (grow 2 M ++ [(0, P); (0, 6)]) w'' /\
    forall j, w'' (x ++ [j]) = plus_rate (w (x ++ [j])) (one_current mult (fun i => u (x ++ [i])) j)).
Proof.
  intros F A mult M P fluid rc rhs u w0 w fuel S5 S6 Hu He Hw Hf x. destruct (inner_ends M P 5 S5 ltac:(lia)) as (NH & IF & IL & LE & NI & BI).
  split; [exact IL|]. pose proof (box_incl_in _ _ _ BI IL) as HL. split.
  - destruct (C70_current_serial F A mult M P fluid rc rhs u w0 w S5 S6 Hu He Hw) as (its & m0 & m1 & w' & E1 & E2 & E3 & E4).
    exists its, m0, m1, w'. repeat (split; [assumption|]). intros j. apply (E4 x j HL). unfold last_no, x. lia.
  - apply chunk_holds_iff in Hu; [|exact S5]. apply chunk_holds_iff in He; [|exact S6]. subst fluid rc.
    apply holds_iff in Hw; [|now apply shape_valid]. subst rhs. rewrite wide_eq in *.
    eexists _, (after_rates M P (current_rate mult u) w). split; [apply current_chunk_ok; auto; lia|].
    split; [apply holds_iff; [now apply wide_valid|reflexivity]|]. intros j. unfold after_rates. rewrite removelast_last.
    destruct (in_boxb (M ++ [(0, P)]) x) eqn:Eb.
    + unfold with_rate, current_rate, one_current, plus_rate. now rewrite removelast_last, last_last.
    + apply in_boxb_iff in IL. unfold x in Eb. congruence.
Qed.
Print Assumptions C70_current_last_refuted.

Theorem C70_current_race_refuted : forall F (A : Arith F) mult M P fluid rc rhs u w0 w,
  shape M [(0, P); (0, 5)] 2 -> shape M [(0, P); (0, 6)] 2 ->
  chunk_holds fluid M [(0, P); (0, 5)] 2 u -> chunk_holds rc M [(0, P); (0, 6)] 2 w0 -> holds rhs (grow 2 M ++ [(0, P); (0, 6)]) w ->
  first_no M P + 2 <= last_no M P ->
  exists its m0, current_walk mult fluid rc rhs = Ok (its, m0) /\ exists c, psteps (its, m0) c /\ racing (fst c).
Proof.
  intros F A mult M P fluid rc rhs u w0 w S5 S6 Hu He Hw H2.
  apply chunk_holds_iff in Hu; [|exact S5]. apply chunk_holds_iff in He; [|exact S6]. subst fluid rc.
  apply holds_iff in Hw; [|now apply shape_valid]. subst rhs. rewrite wide_eq.
  destruct (current_walk_ok M P mult u w0 w S5 S6) as (w' & E1 & E2 & _). fold (first_no M P) (last_no M P) in E1, E2.
  eexists _, _. split; [exact E1|]. destruct (Z.to_nat (last_no M P - first_no M P)) as [|[|n]] eqn:EN; [lia|lia|]. cbn [repeat seq_run] in E2 |- *.
  apply bind_inv in E2 as (m1 & E2 & _). apply (race_found ptrs 0 false _ _ _ _ m1); [apply current_iter_writes|reflexivity|exact E2].
Qed.
Print Assumptions C70_current_race_refuted.

(** ** Example: three cells *)

(** Density 1, momentum (2, 0, 0), E = (3, 0, 0), B = (0, 0, 5) everywhere: the
    momentum receives (3, -10, 0), the energy 6, in cells 0 and 1; cell 2 (elements
    20 to 24 of the 35) stays 0.  With OpenMP the loop has a race. *)
Local Notation dbl := sf_of_Z.
Definition wmesh : box := [(0, 3)].
Definition wcell (l : list Z) : list Z -> spec_float := fun c => dbl (nth (Z.to_nat (last c 0)) l 0).
Definition wfluid : echunk spec_float := echunk_of wmesh [(0, 1); (0, 5)] 2 (wcell [1; 2; 0; 0; 9]).
Definition wfield : echunk spec_float := echunk_of wmesh [(0, 1); (0, 6)] 2 (wcell [3; 0; 0; 0; 0; 5]).
Definition wrhs (n : Z) : iface spec_float := iface_of (grow 2 wmesh ++ [(0, 1); (0, n)]) (fun _ => dbl 0).
Definition wresult (o : res (list (thr (cell spec_float)) * mem (cell spec_float))) : option (list (cell spec_float)) :=
  match o with Ok (its, m) => match seq_run its m with Ok m1 => nth_error m1 2 | _ => None end | _ => None end.
Example C70_ex :
  wresult (lorentz_walk (dbl 1) wfluid wfield (wrhs 5)) =
    Some (map (fun z => Num (dbl z)) (repeat 0 10 ++ [0; 3; -10; 0; 6] ++ [0; 3; -10; 0; 6] ++ repeat 0 15)) /\
  wresult (current_walk (dbl 1) wfluid wfield (wrhs 6)) =
    Some (map (fun z => Num (dbl z)) (repeat 0 12 ++ [2; 0; 0; 0; 0; 0] ++ [2; 0; 0; 0; 0; 0] ++ repeat 0 18)) /\
  first_no wmesh 1 + 2 = last_no wmesh 1 /\
  exists its m0, lorentz_walk (dbl 1) wfluid wfield (wrhs 5) = Ok (its, m0) /\ exists c, psteps (its, m0) c /\ racing (fst c).
Proof.
  split; [vm_compute; reflexivity|]. split; [vm_compute; reflexivity|]. split; [reflexivity|].
  assert (S5 : shape wmesh [(0, 1); (0, 5)] 2) by (apply shapeb_ok; reflexivity). assert (S6 : shape wmesh [(0, 1); (0, 6)] 2) by (apply shapeb_ok; reflexivity).
  eapply (C70_lorentz_race_refuted _ _ (dbl 1) wmesh 1); [exact S5|exact S6| | | |vm_compute; discriminate].
  - apply chunk_holds_iff; [exact S5|reflexivity].
  - apply chunk_holds_iff; [exact S6|reflexivity].
  - apply holds_iff; [now apply shape_valid|reflexivity].
Qed.
