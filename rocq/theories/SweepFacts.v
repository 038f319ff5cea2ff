(** * SweepFacts: what the sweeps do to the arrays, in the order of the code and
    under every interleaving. *)
From Coq Require Import ZArith List String Bool Lia.
From Verif Require Import Base BoxSpec BaseFacts BoxFacts Range RangeSpec RangeFacts Indexer IndexerFacts Interface InterfaceFacts ApiSpec ApiFacts
  Arith Chunk FieldSpec FieldFacts ChunkFacts VarId Manager MgrSpec MgrFacts SolverFacts BCSpec Par ParFacts Kernel KernelFacts IntegratorFacts Sweep SweepSpec.
Import ListNotations.
Open Scope Z_scope.

Ltac band := repeat match goal with
  | |- context [?a <=? ?b] => destruct (Z.leb_spec a b)
  | |- context [?a <? ?b] => destruct (Z.ltb_spec a b)
  end; cbn [andb]; try lia.

Section Flat.
Context {F : Type} {A : Arith F}.

Definition recons (fq : Z -> F) (j n b0 b1 b2 b3 : Z) : list (F * F) :=
  map (fun t => recon (fq (b0 + t)) (fq (b1 + t)) (fq (b2 + t)) (fq (b3 + t))) (zrange j n).

Definition fits_at (N b l u : Z) : Prop := 0 <= b + l /\ b + u <= N.

Lemma recon_run : forall N fq fs n j b0 b1 b2 b3 ql qr k, 
  fits_at N b0 j (j + Z.of_nat n) -> fits_at N b1 j (j + Z.of_nat n) -> fits_at N b2 j (j + Z.of_nat n) -> fits_at N b3 j (j + Z.of_nat n) ->
  let L := recons fq j (j + Z.of_nat n) b0 b1 b2 b3 in
  trun (recon_loop n j b0 b1 b2 b3 ql qr k) (mtab N (fq :: fs)) = trun (k (ql ++ map fst L) (qr ++ map snd L)) (mtab N (fq :: fs)).
Proof.
  intros N fq fs. induction n as [|n IH]; intros j b0 b1 b2 b3 ql qr k H0 H1 H2 H3 L; unfold fits_at in *.
  - unfold L, recons. rewrite zrange_empty by lia. cbn [map]. now rewrite !app_nil_r.
  - cbn [recon_loop trun]. rewrite (mtab_read N (fq :: fs) 0 fq (b0 + j) eq_refl) by lia. cbn [bind trun].
    rewrite (mtab_read N (fq :: fs) 0 fq (b1 + j) eq_refl) by lia. cbn [bind trun].
    rewrite (mtab_read N (fq :: fs) 0 fq (b2 + j) eq_refl) by lia. cbn [bind trun].
    rewrite (mtab_read N (fq :: fs) 0 fq (b3 + j) eq_refl) by lia. cbn [bind trun].
    rewrite IH by (unfold fits_at; lia). unfold L, recons. rewrite (zrange_cons j) by lia. cbn [map].
    replace (j + 1 + Z.of_nat n) with (j + Z.of_nat (S n)) by lia. rewrite <- !app_assoc. reflexivity.
Qed.

Lemma recon_within : forall (R W : loc -> Prop) n j b0 b1 b2 b3 ql qr k,
  (forall t, j <= t < j + Z.of_nat n -> R (0%nat, b0 + t) /\ R (0%nat, b1 + t) /\ R (0%nat, b2 + t) /\ R (0%nat, b3 + t)) ->
  (forall l r, List.length l = (List.length ql + n)%nat -> List.length r = (List.length qr + n)%nat -> within R W (k l r)) ->
  within R W (recon_loop n j b0 b1 b2 b3 ql qr k).
Proof.
  intros R W. induction n as [|n IH]; intros j b0 b1 b2 b3 ql qr k HR HK.
  - cbn [recon_loop]. apply HK; lia.
  - cbn [recon_loop]. destruct (HR j) as (R0 & R1 & R2 & R3); [lia|].
    constructor; auto. intros v0. constructor; auto. intros v1. constructor; auto. intros v2. constructor; auto. intros v3.
    apply IH; [intros t Ht; apply HR; lia|]. intros l r Hl Hr. apply HK; rewrite app_length in *; cbn [List.length] in *; lia.
Qed.

Lemma add_run : forall N fq (op : F -> F -> F) d fs p t f, 0 <= p -> p + Z.of_nat (List.length fs) <= N ->
  trun (add_loop op d fs p t) (mtab N [fq; f]) =
  trun t (mtab N [fq; fun x => if (p <=? x) && (x <? p + Z.of_nat (List.length fs)) then op (f x) (nth (Z.to_nat (x - p)) fs f0 / d)%F else f x]).
Proof.
  intros N fq op d. induction fs as [|v fs IH]; intros p t f Hp HN.
  - cbn [add_loop List.length]. f_equal. apply (mtab_last_ext N [fq]). intros i _. band; reflexivity.
  - cbn [List.length] in *. cbn [add_loop trun].
    rewrite (mtab_read N [fq; f] 1 f p eq_refl) by lia. cbn [bind trun].
    rewrite (mtab_write N [fq; f] 1 f p _ eq_refl) by lia. cbn [bind upd].
    rewrite IH by lia. f_equal. apply (mtab_last_ext N [fq]). intros i _.
    destruct (Z.eqb_spec i p) as [->|E].
    + rewrite Z.sub_diag. cbn [nth Z.to_nat]. band; reflexivity.
    + band; auto. replace (Z.to_nat (i - p)) with (S (Z.to_nat (i - (p + 1)))) by lia. reflexivity.
Qed.

Lemma add_within : forall (R W : loc -> Prop) op d fs p t,
  (forall x, p <= x < p + Z.of_nat (List.length fs) -> R (1%nat, x) /\ W (1%nat, x)) -> within R W t ->
  within R W (add_loop op d fs p t).
Proof.
  intros R W op d. induction fs as [|v fs IH]; intros p t H Ht; [exact Ht|].
  cbn [List.length] in H. cbn [add_loop]. constructor; [apply H; lia|]. intros x. constructor; [apply H; lia|].
  apply IH; auto. intros y Hy. apply H. lia.
Qed.

Lemma scatter_run : forall N fq d fs i ip f, 0 <= i -> i + Z.of_nat (List.length fs) <= ip -> ip + Z.of_nat (List.length fs) <= N ->
  trun (scatter_loop d fs i ip) (mtab N [fq; f]) =
  Ok (mtab N [fq; fun x => if (i <=? x) && (x <? i + Z.of_nat (List.length fs)) then (f x - nth (Z.to_nat (x - i)) fs f0 / d)%F
                           else if (ip <=? x) && (x <? ip + Z.of_nat (List.length fs)) then (f x + nth (Z.to_nat (x - ip)) fs f0 / d)%F
                           else f x]).
Proof.
  intros N fq d fs i ip f H0 H1 H2.
  assert (Q : forall fs i ip f gap, 0 <= i -> i + Z.of_nat (List.length fs) <= i + gap -> ip = i + gap -> ip + Z.of_nat (List.length fs) <= N ->
    trun (scatter_loop d fs i ip) (mtab N [fq; f]) =
    Ok (mtab N [fq; fun x => if (i <=? x) && (x <? i + Z.of_nat (List.length fs)) then (f x - nth (Z.to_nat (x - i)) fs f0 / d)%F
                           else if (ip <=? x) && (x <? ip + Z.of_nat (List.length fs)) then (f x + nth (Z.to_nat (x - ip)) fs f0 / d)%F
                           else f x])); [|apply (Q fs i ip f (ip - i)); lia].
  clear. induction fs as [|v fs IH]; intros i ip f gap H0 H1 H2 H3.
  - cbn [scatter_loop trun List.length]. f_equal. apply (mtab_last_ext N [fq]). intros x _. band; reflexivity.
  - cbn [List.length] in *. cbn [scatter_loop trun].
    rewrite (mtab_read N [fq; f] 1 f i eq_refl) by lia. cbn [bind trun].
    rewrite (mtab_write N [fq; f] 1 f i _ eq_refl) by lia. cbn [bind upd trun].
    erewrite mtab_read; [|reflexivity|lia]. cbn [bind trun].
    erewrite mtab_write; [|reflexivity|lia]. cbn [bind upd trun].
    rewrite (IH _ _ _ gap) by lia. f_equal. apply (mtab_last_ext N [fq]). intros x _.
    destruct (Z.eqb_spec ip i); [lia|].
    destruct (Z.eqb_spec x ip) as [->|E].
    { rewrite Z.sub_diag. cbn [nth Z.to_nat]. band; reflexivity. }
    destruct (Z.eqb_spec x i) as [->|E'].
    { rewrite Z.sub_diag. cbn [nth Z.to_nat]. band; reflexivity. }
    band; auto;
      try (replace (Z.to_nat (x - i)) with (S (Z.to_nat (x - (i + 1)))) by lia; reflexivity);
      replace (Z.to_nat (x - ip)) with (S (Z.to_nat (x - (ip + 1)))) by lia; reflexivity.
Qed.

(** ** one iteration *)

Variables (n : nat) (s : Z) (flux : list F -> list F -> res (list F)) (G : list F -> list F -> list F) (d : F).
Hypothesis Hflux : forall l r, List.length l = n -> List.length r = n -> flux l r = Ok (G l r) /\ List.length (G l r) = n.
Hypothesis Hs : Z.of_nat n <= s.
Hypothesis Hn : (0 < n)%nat.

(** Flux through the lower wall of the block at [i]. *)
Definition wallf (fq : Z -> F) (i : Z) : list F :=
  let L := recons fq 0 (Z.of_nat n) (i - s - s) (i - s) i (i + s) in G (map fst L) (map snd L).

Lemma recons_len : forall fq b0 b1 b2 b3, List.length (recons fq 0 (Z.of_nat n) b0 b1 b2 b3) = n.
Proof. intros. unfold recons. rewrite map_length, zrange_length. lia. Qed.

Lemma wallf_ok : forall fq i, let L := recons fq 0 (Z.of_nat n) (i - s - s) (i - s) i (i + s) in
  flux (map fst L) (map snd L) = Ok (wallf fq i) /\ List.length (wallf fq i) = n.
Proof. intros. apply Hflux; rewrite map_length; apply recons_len. Qed.

Lemma gather_run : forall N fq i f, 0 <= i - s - s -> i + s + s + Z.of_nat n <= N ->
  trun (gather n s flux d i) (mtab N [fq; f]) =
  Ok (mtab N [fq; fun p => if (i <=? p) && (p <? i + Z.of_nat n) then
      ((f p + nth (Z.to_nat (p - i)) (wallf fq i) f0 / d) - nth (Z.to_nat (p - i)) (wallf fq (i + s)) f0 / d)%F else f p]).
Proof.
  intros N fq i f H1 H2. unfold gather.
  rewrite recon_run by (unfold fits_at; lia). cbn [app]. rewrite Z.add_0_l.
  destruct (wallf_ok fq i) as [E1 E2]. rewrite E1. cbn [with_flux].
  rewrite add_run by lia. rewrite recon_run by (unfold fits_at; lia). cbn [app]. rewrite Z.add_0_l.
  destruct (wallf_ok fq (i + s)) as [E3 E4].
  replace (i + s - s) with i in E3 by lia. rewrite E3. cbn [with_flux].
  rewrite add_run by lia. cbn [trun]. f_equal. apply (mtab_last_ext N [fq]). intros p _. rewrite E2, E4. band; reflexivity.
Qed.

Lemma gather_within : forall N i, 0 <= i - s - s -> i + s + s + Z.of_nat n <= N ->
  within (fun l => ((fst l < 1)%nat /\ 0 <= snd l < N) \/ (fst l = 1%nat /\ i <= snd l < i + Z.of_nat n))
         (fun l => fst l = 1%nat /\ i <= snd l < i + Z.of_nat n) (gather n s flux d i).
Proof.
  intros N i H1 H2. unfold gather. apply recon_within.
  { intros t Ht. cbn [fst snd]. repeat split; left; lia. }
  intros l r Hl Hr. cbn [List.length] in *. destruct (Hflux l r Hl Hr) as [-> El]. cbn [with_flux].
  apply add_within. { intros x Hx. rewrite El in Hx. cbn [fst snd]. split; [right|]; lia. }
  apply recon_within. { intros t Ht. cbn [fst snd]. repeat split; left; lia. }
  intros l' r' Hl' Hr'. cbn [List.length] in *. destruct (Hflux l' r' Hl' Hr') as [-> El']. cbn [with_flux].
  apply add_within. { intros x Hx. rewrite El' in Hx. cbn [fst snd]. split; [right|]; lia. }
  constructor.
Qed.

Lemma scatter_iter_run : forall N fq i f, 0 <= i - s -> i + s + s + Z.of_nat n <= N ->
  trun (scatter n s flux d i) (mtab N [fq; f]) =
  Ok (mtab N [fq; fun p => if (i <=? p) && (p <? i + Z.of_nat n) then (f p - nth (Z.to_nat (p - i)) (wallf fq (i + s)) f0 / d)%F
     else if (i + s <=? p) && (p <? i + s + Z.of_nat n) then (f p + nth (Z.to_nat (p - (i + s))) (wallf fq (i + s)) f0 / d)%F else f p]).
Proof.
  intros N fq i f H1 H2. unfold scatter.
  rewrite recon_run by (unfold fits_at; lia). cbn [app]. rewrite Z.add_0_l.
  destruct (wallf_ok fq (i + s)) as [E3 E4]. replace (i + s - s) with i in E3 by lia. rewrite E3. cbn [with_flux].
  rewrite scatter_run by lia. now rewrite E4.
Qed.

(** ** whole sweeps *)

(** Value of the flux through the lower wall of the block that holds position
    [p]. *)
Definition wallp (fq : Z -> F) (p : Z) : F :=
  nth (Z.to_nat (p mod Z.of_nat n)) (wallf fq (p - p mod Z.of_nat n)) f0.
Definition swept (fq : Z -> F) (start : Z) (K : nat) (f : Z -> F) : Z -> F :=
  fun p => if (start <=? p) && (p <? start + Z.of_nat K * Z.of_nat n)
           then ((f p + wallp fq p / d) - wallp fq (p + s) / d)%F else f p.

Lemma block_pos : forall h p, let i := h * Z.of_nat n in i <= p < i + Z.of_nat n -> p mod Z.of_nat n = p - i.
Proof. intros h p i H. unfold i in *. symmetry. apply Z.mod_unique_pos with h; lia. Qed.

Lemma gather_sweep_run : forall N fq h0 K f m, let start := h0 * Z.of_nat n in s = m * Z.of_nat n ->
  s + s <= start -> start + Z.of_nat K * Z.of_nat n + s + s <= N ->
  let l := map (gather n s flux d) (blocks start (Z.of_nat n) K) in
  seq_run l (mtab N [fq; f]) = Ok (mtab N [fq; swept fq start K f]) /\
  par_safe l (mtab N [fq; f]) (mtab N [fq; swept fq start K f]).
Proof.
  intros N fq h0 K f m start Es H1 H2 l.
  assert (B : forall i, In i (blocks start (Z.of_nat n) K) -> exists h, i = h * Z.of_nat n /\ start <= i /\ i + Z.of_nat n <= start + Z.of_nat K * Z.of_nat n).
  { intros i Hi. apply in_blocks in Hi as (k & Hk & ->). exists (h0 + Z.of_nat k). unfold start. nia. }
  assert (E : seq_run l (mtab N [fq; f]) = Ok (mtab N [fq; swept fq start K f])).
  { unfold l. apply (run_blocks N [fq] (fun p x => ((x + wallp fq p / d) - wallp fq (p + s) / d)%F)); [lia|].
    intros i f' Hi. destruct (B i Hi) as (h & -> & B1 & B2). cbn [app]. rewrite gather_run by lia. f_equal.
    apply (mtab_last_ext N [fq]). intros p _.
    destruct (Z.leb_spec (h * Z.of_nat n) p); [|reflexivity]. destruct (Z.ltb_spec p (h * Z.of_nat n + Z.of_nat n)); [|reflexivity].
    cbn [andb]. unfold wallp. rewrite (block_pos h p) by lia.
    rewrite (block_pos (h + m) (p + s)) by lia.
    replace (p + s - (h + m) * Z.of_nat n) with (p - h * Z.of_nat n) by lia.
    replace (p - (p - h * Z.of_nat n)) with (h * Z.of_nat n) by lia.
    replace (p + s - (p - h * Z.of_nat n)) with (h * Z.of_nat n + s) by lia. reflexivity. }
  split; auto.
  assert (I : exists m', seq_run l (mtab N [fq; f]) = Ok m' /\ par_safe l (mtab N [fq; f]) m').
  2:{ destruct I as (m' & E' & P). assert (m' = mtab N [fq; swept fq start K f]) as -> by congruence. exact P. }
  eapply par_seq.
  apply (blocks_independent N [fq; f] 1 (Z.of_nat n) (gather n s flux d) K start); try lia; try reflexivity.
  intros i Hi. destruct (B i Hi) as (h & -> & B1 & B2). apply gather_within; lia.
Qed.

(** The scatter sweep that starts one stride earlier and ends at the same
    block.  Positions of the gather sweep get the same value. *)
Definition scattered (fq : Z -> F) (start : Z) (K : nat) (f : Z -> F) : Z -> F :=
  fun p =>
    let x := if (start + s <=? p) && (p <? start + s + Z.of_nat K * Z.of_nat n) then (f p + wallp fq p / d)%F else f p in
    if (start <=? p) && (p <? start + Z.of_nat K * Z.of_nat n) then (x - wallp fq (p + s) / d)%F else x.

Lemma seq_run_app : forall (l l' : list (thr F)) m, seq_run (l ++ l') m = (m' <- seq_run l m ;; seq_run l' m').
Proof.
  induction l as [|t l IH]; intros l' m; [reflexivity|]. cbn [app seq_run]. destruct (trun t m); cbn [bind]; auto.
Qed.

Lemma blocks_snoc : forall start w K, blocks start w (S K) = blocks start w K ++ [start + Z.of_nat K * w].
Proof. intros. unfold blocks. rewrite seq_S, map_app. reflexivity. Qed.

Lemma scatter_sweep_run : forall N fq h0 f m K, let start := h0 * Z.of_nat n in s = m * Z.of_nat n ->
  s <= start -> start + Z.of_nat K * Z.of_nat n + s + s <= N ->
  seq_run (map (scatter n s flux d) (blocks start (Z.of_nat n) K)) (mtab N [fq; f]) = Ok (mtab N [fq; scattered fq start K f]).
Proof.
  intros N fq h0 f m K start Es H1. induction K as [|K IH]; intros H2.
  - cbn [blocks seq map seq_run]. f_equal. apply (mtab_last_ext N [fq]). intros p _. unfold scattered. band; reflexivity.
  - rewrite blocks_snoc, map_app, seq_run_app. rewrite IH by lia. cbn [bind map seq_run].
    set (i := start + Z.of_nat K * Z.of_nat n).
    assert (Ei : i = (h0 + Z.of_nat K) * Z.of_nat n) by (unfold i, start; ring).
    rewrite scatter_iter_run by nia. cbn [bind]. f_equal. apply (mtab_last_ext N [fq]). intros p _. unfold scattered.
    replace (start + Z.of_nat (S K) * Z.of_nat n) with (i + Z.of_nat n) by (unfold i; lia).
    replace (start + s + Z.of_nat (S K) * Z.of_nat n) with (i + s + Z.of_nat n) by (unfold i; lia).
    replace (start + s + Z.of_nat K * Z.of_nat n) with (i + s) by (unfold i; lia).
    fold i. assert (start <= i) by (unfold i; lia).
    destruct (Z.leb_spec i p); [|band; reflexivity]. destruct (Z.ltb_spec p (i + Z.of_nat n)); cbn [andb].
    + assert (Q : wallp fq (p + s) = nth (Z.to_nat (p - i)) (wallf fq (i + s)) f0).
      { unfold wallp. rewrite (block_pos (h0 + Z.of_nat K + m) (p + s)) by lia.
        replace (p + s - (h0 + Z.of_nat K + m) * Z.of_nat n) with (p - i) by lia.
        replace (p + s - (p - i)) with (i + s) by lia. reflexivity. }
      rewrite Q. band; reflexivity.
    + destruct (Z.leb_spec (i + s) p); [|band; reflexivity]. destruct (Z.ltb_spec p (i + s + Z.of_nat n)); [|band; reflexivity]. cbn [andb].
      assert (Q : wallp fq p = nth (Z.to_nat (p - (i + s))) (wallf fq (i + s)) f0).
      { unfold wallp. rewrite (block_pos (h0 + Z.of_nat K + m) p) by lia.
        replace (p - (h0 + Z.of_nat K + m) * Z.of_nat n) with (p - (i + s)) by lia.
        replace (p - (p - (i + s))) with (i + s) by lia. reflexivity. }
      rewrite Q. band; reflexivity.
Qed.

End Flat.

(** ** the cells of a sweep *)

Section Geometry.
Context {F : Type} {A : Arith F}.

Lemma move_mid : forall (p q : list Z) a t, move (List.length p) t (p ++ a :: q) = p ++ (a + t) :: q.
Proof.
  intros. unfold move. rewrite app_nth2 by lia. rewrite Nat.sub_diag. cbn [nth].
  induction p as [|x p IH]; cbn [app List.length upd]; [reflexivity|]. now f_equal.
Qed.

Lemma move_move : forall d s t (x : list Z), (d < List.length x)%nat -> move d s (move d t x) = move d (t + s) x.
Proof.
  intros d s t x Hd. destruct (nth_error x d) as [a|] eqn:E; [|apply nth_error_None in E; lia].
  apply nth_error_split in E as (p & q & -> & <-). rewrite !move_mid. f_equal. f_equal. lia.
Qed.
Lemma move_0 : forall d (x : list Z), (d < List.length x)%nat -> move d 0 x = x.
Proof.
  intros d x Hd. destruct (nth_error x d) as [a|] eqn:E; [|apply nth_error_None in E; lia].
  apply nth_error_split in E as (p & q & -> & <-). rewrite move_mid. f_equal. f_equal. lia.
Qed.

Lemma move_length : forall d s (x : list Z), List.length (move d s x) = List.length x.
Proof. intros. unfold move. apply upd_length. Qed.

Lemma offset_move : forall H d t x iv, nth_error H d = Some iv -> List.length x = List.length H ->
  offset H (move d t x) = offset H x + t * prod_len (skipn (S d) H).
Proof.
  intros H d t x [l u] E L. apply nth_error_split in E as (p & q & -> & <-).
  destruct (nth_error x (List.length p)) as [a|] eqn:E.
  2:{ apply nth_error_None in E. rewrite app_length in L. cbn in L. lia. }
  apply nth_error_split in E as (px & qx & -> & Lp). rewrite <- Lp at 1. rewrite move_mid.
  rewrite (offset_replace p l u q px a (a + t) qx) by assumption.
  rewrite skipn_S_mid by reflexivity. lia.
Qed.

Lemma snoc_offset : forall H n x j, List.length x = List.length H -> offset (H ++ [(0, n)]) (x ++ [j]) = offset H x * n + j.
Proof. intros. rewrite offset_app by assumption. cbn [offset prod_len]. lia. Qed.

Lemma snoc_in : forall H n x j, in_box (H ++ [(0, n)]) (x ++ [j]) <-> in_box H x /\ 0 <= j < n.
Proof.
  intros. split.
  - intros I. apply Forall2_app_inv_l in I as (x1 & r & I1 & I2 & E). inversion I2 as [|? ? ? ? J1 J2]; subst. inversion J2; subst.
    apply app_inj_tail in E as [-> ->]. auto.
  - intros [I J]. apply in_box_app; auto. repeat constructor; cbn; lia.
Qed.

Lemma in_box_le : forall b x, in_box b x -> Forall2 Z.le (first_cell b) x /\ Forall2 Z.le x (last_cell b).
Proof.
  induction b as [|[l u] b IH]; intros x I; inversion I as [|? ? ? ? J1 J2]; subst; cbn; [split; constructor|].
  destruct (IH _ J2). cbn in J1. split; constructor; auto; lia.
Qed.

(** The wall fluxes of the flat sweep are those of the field. *)
Lemma wallp_field : forall n (G : nat -> list F -> list F -> list F) H d iv (u : list Z -> F) x j,
  nonempty H -> nth_error H d = Some iv -> (0 < n)%nat ->
  in_box H (move d (-2) x) -> in_box H (move d (-1) x) -> in_box H x -> in_box H (move d 1 x) -> 0 <= j < Z.of_nat n ->
  let b := H ++ [(0, Z.of_nat n)] in
  wallp n (prod_len (skipn (S d) H) * Z.of_nat n) (G d) (fun p => u (cell_at b p)) (offset b (x ++ [j])) =
  wall (Z.of_nat n) G u d x j.
Proof.
  intros n G H d iv u x j Hne E Hn I2 I1 I0 J1 Hj b.
  assert (Lx : List.length x = List.length H) by (symmetry; eapply Forall2_length; eauto).
  assert (Nb : nonempty b). { apply nonempty_app. split; auto. repeat constructor. cbn. lia. }
  set (h := offset H x).
  assert (Q : forall t y, in_box H y -> offset H y = h + t * prod_len (skipn (S d) H) ->
    forall k, 0 <= k < Z.of_nat n -> cell_at b (h * Z.of_nat n + t * (prod_len (skipn (S d) H) * Z.of_nat n) + k) = y ++ [k]).
  { intros t y Hy Ey k Hk. rewrite <- (cell_at_offset b (y ++ [k])); auto.
    - f_equal. unfold b. rewrite snoc_offset by (symmetry; eapply Forall2_length; eauto). rewrite Ey. ring.
    - unfold b. apply snoc_in. auto. }
  assert (M2 : offset H (move d (-2) x) = h + -2 * prod_len (skipn (S d) H)) by (now apply (offset_move H d (-2) x iv)).
  assert (M1 : offset H (move d (-1) x) = h + -1 * prod_len (skipn (S d) H)) by (now apply (offset_move H d (-1) x iv)).
  assert (P1 : offset H (move d 1 x) = h + 1 * prod_len (skipn (S d) H)) by (now apply (offset_move H d 1 x iv)).
  assert (P0 : offset H x = h + 0 * prod_len (skipn (S d) H)) by (unfold h; lia).
  assert (Eb : offset b (x ++ [j]) = h * Z.of_nat n + j) by (now apply snoc_offset).
  unfold wallp, wall. rewrite !Eb.
  rewrite (block_pos n Hn h (h * Z.of_nat n + j)) by lia.
  replace (h * Z.of_nat n + j - h * Z.of_nat n) with j by lia.
  replace (h * Z.of_nat n + j - j) with (h * Z.of_nat n) by lia.
  f_equal. unfold wallf. cbv zeta. set (s := prod_len (skipn (S d) H)) in *.
  assert (EL : recons (fun p => u (cell_at b p)) 0 (Z.of_nat n) (h * Z.of_nat n - s * Z.of_nat n - s * Z.of_nat n) (h * Z.of_nat n - s * Z.of_nat n)
     (h * Z.of_nat n) (h * Z.of_nat n + s * Z.of_nat n) =
     map (fun k => recon (u (move d (-2) x ++ [k])) (u (move d (-1) x ++ [k])) (u (x ++ [k])) (u (move d 1 x ++ [k]))) (zrange 0 (Z.of_nat n))).
  { unfold recons. apply map_ext_in. intros k Hk. apply in_zrange in Hk.
    rewrite <- (Q _ _ I2 M2 k Hk), <- (Q _ _ I1 M1 k Hk), <- (Q _ _ I0 P0 k Hk), <- (Q _ _ J1 P1 k Hk).
    f_equal; f_equal; f_equal; ring. }
  rewrite EL. f_equal; unfold left_state, right_state; rewrite map_map; apply map_ext; intros; reflexivity.
Qed.

(** Mesh [M] split at dimension [d]. *)
Variables (p q P : box) (l u : Z) (n : nat).
Let M : box := p ++ (l, u) :: q.
Let d : nat := List.length p.
Let D : box := P ++ [(0, Z.of_nat n)].
Let H : box := grow 2 M ++ P.
Let b : box := grow 2 M ++ D.
Hypothesis Sh : shape M D 2.
Hypothesis Hn : (2 <= n)%nat.
Let Q : Z := prod_len (grow 2 q ++ P).

Lemma b_eq : b = H ++ [(0, Z.of_nat n)].
Proof. unfold b, H, D. now rewrite app_assoc. Qed.
Lemma H_eq : H = grow 2 p ++ (l - 2, u + 2) :: (grow 2 q ++ P).
Proof. unfold H, M. rewrite grow_app. cbn [grow map fst snd]. now rewrite <- app_assoc. Qed.
Lemma H_nonempty : nonempty H.
Proof. pose proof (shape_valid _ _ _ Sh) as (_ & V & _). fold b in V. rewrite b_eq in V. apply nonempty_app in V. tauto. Qed.
Lemma H_parts : nonempty (grow 2 p) /\ l < u /\ nonempty (grow 2 q ++ P) /\ nonempty p /\ nonempty q /\ nonempty P.
Proof.
  destruct Sh as (_ & N1 & N2 & _). unfold M in N1. apply nonempty_app in N1 as [Np Nq]. inversion Nq; subst. cbn in *.
  unfold D in N2. apply nonempty_app in N2 as [NP _].
  repeat split; auto; try (apply nonempty_grow; auto; lia). apply nonempty_app. split; auto. apply nonempty_grow; auto; lia.
Qed.
Lemma H_nth : nth_error H d = Some (l - 2, u + 2).
Proof. rewrite H_eq. unfold d. rewrite <- (grow_length 2 p). rewrite nth_error_app2 by lia. now rewrite Nat.sub_diag. Qed.
Lemma H_skip : skipn (S d) H = grow 2 q ++ P.
Proof. rewrite H_eq. unfold d. rewrite <- (grow_length 2 p). now apply skipn_S_mid. Qed.
Lemma stride_eq : prod_len (skipn (S d) b) = Q * Z.of_nat n.
Proof.
  rewrite b_eq, H_eq. unfold d. rewrite <- (grow_length 2 p). rewrite <- app_assoc. cbn [app]. rewrite skipn_S_mid by reflexivity.
  rewrite prod_len_app. cbn [prod_len]. unfold Q. lia.
Qed.
Lemma Q_pos : 0 < Q.
Proof. apply prod_len_pos, H_parts. Qed.
Lemma N_eq : prod_len b = prod_len H * Z.of_nat n.
Proof. rewrite b_eq, prod_len_app. cbn [prod_len]. lia. Qed.

(** First and last traversed head cells; [low] as in sweep_loop. *)
Variable low : Z.
Hypothesis Hlow : -1 <= low <= 0.
Let Ml : box := p ++ (l + low, u) :: q.
Let h0 : Z := offset H (first_cell (Ml ++ P)).
Let hl : Z := offset H (last_cell (M ++ P)).

Lemma in_H_parts : forall a px qx, in_box (grow 2 p) px -> in_box (grow 2 q ++ P) qx -> l - 2 <= a < u + 2 -> in_box H (px ++ a :: qx).
Proof. intros. rewrite H_eq. apply in_box_app; auto. constructor; auto. Qed.

Lemma offset_H : forall a px qx, List.length px = List.length p ->
  offset H (px ++ a :: qx) = offset (grow 2 p) px * ((u - l + 4) * Q) + (a - (l - 2)) * Q + offset (grow 2 q ++ P) qx.
Proof.
  intros. rewrite H_eq. rewrite offset_app by (now rewrite grow_length). cbn [offset prod_len]. fold Q. ring.
Qed.

Lemma grow_in : forall (m : box) x, in_box m x -> in_box (grow 2 m) x.
Proof. intros m x I. eapply box_incl_in; [|exact I]. apply box_incl_grow. lia. Qed.
Lemma tail_in : forall x, in_box (q ++ P) x -> in_box (grow 2 q ++ P) x.
Proof. intros x I. eapply box_incl_in; [|exact I]. apply box_incl_app; [apply box_incl_grow; lia|apply box_incl_refl]. Qed.

Lemma first_mid : first_cell (Ml ++ P) = first_cell p ++ (l + low) :: first_cell (q ++ P).
Proof. unfold Ml, first_cell. rewrite <- app_assoc. cbn [app]. now rewrite map_app. Qed.
Lemma last_mid : last_cell (M ++ P) = last_cell p ++ (u - 1) :: last_cell (q ++ P).
Proof. unfold M, last_cell. rewrite <- app_assoc. cbn [app]. now rewrite map_app. Qed.

Lemma h0_bound : (2 + low) * Q <= h0.
Proof.
  pose proof H_parts as (N1 & N2 & N3 & N4 & N5 & N6). pose proof Q_pos.
  assert (I1 : in_box (grow 2 p) (first_cell p)) by (apply grow_in, first_in_box; auto).
  assert (I2 : in_box (grow 2 q ++ P) (first_cell (q ++ P))) by (apply tail_in, first_in_box, nonempty_app; auto).
  unfold h0. rewrite first_mid, offset_H by (unfold first_cell; now rewrite map_length).
  pose proof (offset_bounds _ _ I1). pose proof (offset_bounds _ _ I2). nia.
Qed.

Lemma hl_bound : hl + 1 + 2 * Q <= prod_len H.
Proof.
  pose proof H_parts as (N1 & N2 & N3 & N4 & N5 & N6). pose proof Q_pos.
  assert (I1 : in_box (grow 2 p) (last_cell p)) by (apply grow_in, last_in_box; auto).
  assert (I2 : in_box (grow 2 q ++ P) (last_cell (q ++ P))) by (apply tail_in, last_in_box, nonempty_app; auto).
  unfold hl. rewrite last_mid, offset_H by (unfold last_cell; now rewrite map_length).
  pose proof (offset_bounds _ _ I1) as B1. pose proof (offset_bounds _ _ I2) as B2. fold Q in B2.
  rewrite H_eq, prod_len_app. cbn [prod_len]. fold Q.
  assert (offset (grow 2 p) (last_cell p) * ((u - l + 4) * Q) <= (prod_len (grow 2 p) - 1) * ((u - l + 4) * Q)).
  { apply Z.mul_le_mono_nonneg_r; [nia|lia]. }
  lia.
Qed.

(** Interior cells lie between the first and the last traversed cell. *)
Lemma interior_between : forall x, in_box (M ++ P) x ->
  h0 <= offset H x <= hl /\ forall t, -2 <= t <= 2 -> in_box H (move d t x).
Proof.
  intros x I. pose proof H_parts as (N1 & N2 & N3 & N4 & N5 & N6). pose proof Q_pos.
  assert (I' : in_box (p ++ (l, u) :: (q ++ P)) x) by (unfold M in I; now rewrite <- app_assoc in I).
  apply in_box_split in I' as (px & a & qx & -> & J1 & J2 & J3 & J4). cbn [fst snd] in J2.
  assert (Lq : List.length (first_cell (q ++ P)) = List.length qx).
  { unfold first_cell. rewrite map_length. eapply Forall2_length; eauto. }
  assert (F1 : Forall2 Z.le (first_cell p) px /\ Forall2 Z.le px (last_cell p)) by (now apply in_box_le).
  assert (F2 : Forall2 Z.le (first_cell (q ++ P)) qx /\ Forall2 Z.le qx (last_cell (q ++ P))) by (now apply in_box_le).
  destruct F1 as [F1 F1'], F2 as [F2 F2'].
  assert (K1 : in_box (grow 2 p) px) by (now apply grow_in). assert (K2 : in_box (grow 2 q ++ P) qx) by (now apply tail_in).
  assert (A1 : in_box (grow 2 p) (first_cell p)) by (apply grow_in, first_in_box; auto).
  assert (A2 : in_box (grow 2 q ++ P) (first_cell (q ++ P))) by (apply tail_in, first_in_box, nonempty_app; auto).
  assert (A3 : in_box (grow 2 p) (last_cell p)) by (apply grow_in, last_in_box; auto).
  assert (A4 : in_box (grow 2 q ++ P) (last_cell (q ++ P))) by (apply tail_in, last_in_box, nonempty_app; auto).
  split.
  - unfold h0, hl. rewrite first_mid, last_mid.
    split; (apply (offset_mono H); [rewrite H_eq..|]).
    + apply in_box_app; auto. constructor; auto. cbn. lia.
    + apply in_box_app; auto. constructor; auto. cbn. lia.
    + apply Forall2_app; auto. constructor; auto. lia.
    + apply in_box_app; auto. constructor; auto. cbn. lia.
    + apply in_box_app; auto. constructor; auto. cbn. lia.
    + apply Forall2_app; auto. constructor; auto. lia.
  - intros t Ht. unfold d. rewrite <- J4, move_mid. apply in_H_parts; auto. lia.
Qed.


(** Setting up a sweep. *)
Lemma sweep_loop_ok : forall body gr dx (w : list Z -> F), grid_dx gr (Z.of_nat d) = Ok dx ->
  sweep_loop n low body gr (echunk_of M D 2 w) (Z.of_nat d) =
  Ok (map (body (Q * Z.of_nat n) dx) (blocks (h0 * Z.of_nat n) (Z.of_nat n) (Z.to_nat (hl - h0 + 1)))).
Proof.
  intros body gr dx w Hdx. pose proof (shape_valid _ _ _ Sh) as V. fold b in V.
  pose proof H_parts as (N1 & N2 & N3 & N4 & N5 & N6). pose proof Q_pos as HQ.
  assert (NB : nonempty b) by apply V. assert (VB : prod_len b <= int_max) by apply V.
  unfold sweep_loop. rewrite Hdx. cbn [bind].
  rewrite ec_if_of. cbn [if_range iface_of]. fold b.
  assert (Bn : nth_error b d = Some (l - 2, u + 2)).
  { rewrite b_eq. rewrite nth_error_app1; [apply H_nth|]. apply nth_error_Some. rewrite H_nth. discriminate. }
  rewrite (range_stride_of b d _ Bn). cbn [bind]. rewrite stride_eq.
  cbn [ec_internal echunk_of]. rewrite range_copy_of by (eapply interior_strides; eauto). cbn [bind].
  assert (B0 : int_bounds b) by apply V.
  assert (Bl : is_int (l + low) /\ is_int (u + 0)).
  { unfold int_bounds in B0. rewrite Forall_forall in B0. apply nth_error_In in Bn. destruct (B0 _ Bn) as [B1 B2]. cbn in B1, B2.
    unfold is_int in *. lia. }
  assert (S1 : shorter (Ml ++ D) b).
  { unfold Ml, b, M. rewrite grow_app, <- !app_assoc. cbn [app grow map fst snd]. apply shorter_app; [apply shorter_grow; auto; lia|].
    constructor; [cbn; lia|]. apply shorter_app; [apply shorter_grow; auto; lia|]. apply shorter_refl. apply Sh. }
  assert (S2 : shorter (Ml ++ P ++ [(0, 1)]) b).
  { unfold Ml, b, M, D. rewrite grow_app, <- !app_assoc. cbn [app grow map fst snd]. apply shorter_app; [apply shorter_grow; auto; lia|].
    constructor; [cbn; lia|]. apply shorter_app; [apply shorter_grow; auto; lia|]. apply shorter_app; [now apply shorter_refl|]. repeat constructor; cbn; lia. }
  assert (E1 : (if low =? 0 then Ok (range_of (M ++ D)) else range_expand (range_of (M ++ D)) (Z.of_nat d) low 0) = Ok (range_of (Ml ++ D))).
  { destruct (Z.eqb_spec low 0) as [E|E].
    - unfold Ml, M. rewrite E. now rewrite Z.add_0_r.
    - unfold M, Ml. rewrite <- !app_assoc. cbn [app]. rewrite (range_expand_ok p l u (q ++ D) low 0 (Z.of_nat d)); try tauto; auto.
      + now rewrite Z.add_0_r.
      + rewrite Z.add_0_r. unfold Ml in S1. rewrite <- app_assoc in S1. cbn [app] in S1. eapply shorter_strides; eauto. }
  rewrite E1. cbn [bind r_nd range_of].
  assert (LM : 0 < Z.of_nat (List.length (Ml ++ D)) < int_max).
  { destruct Sh as (_ & _ & _ & _ & _ & _ & LL). unfold Ml, M in *. rewrite !app_length in *. cbn [List.length] in *. lia. }
  rewrite isub_ok by (unfold is_int, int_min; lia). cbn [bind].
  assert (E2 : range_set (range_of (Ml ++ D)) (Z.of_nat (List.length (Ml ++ D)) - 1) 0 1 = Ok (range_of (Ml ++ P ++ [(0, 1)]))).
  { unfold D. rewrite app_assoc. rewrite range_set_ok.
    - now rewrite app_assoc.
    - rewrite app_length. cbn. lia.
    - rewrite <- app_assoc. eapply shorter_strides; eauto. }
  rewrite E2. cbn [bind]. unfold iface_indexer. try rewrite ec_if_of. cbn [if_range iface_of]. fold b.
  assert (IN : box_incl (Ml ++ P ++ [(0, 1)]) b).
  { unfold Ml, b, M, D. rewrite grow_app, <- !app_assoc. cbn [app grow map fst snd].
    apply Forall2_app; [apply box_incl_grow; lia|]. constructor; [cbn; lia|].
    apply Forall2_app; [apply box_incl_grow; lia|]. apply Forall2_app; [apply box_incl_refl|]. repeat constructor; cbn; lia. }
  assert (NE : nonempty (Ml ++ P ++ [(0, 1)])).
  { unfold Ml. apply nonempty_app. split; [apply nonempty_app; split; auto; constructor; auto; cbn; lia|].
    apply nonempty_app. split; auto. repeat constructor. }
  pose proof (good_of_valid _ _ V NE IN) as GS.
  rewrite (indexer_make_ok b _ GS). cbn [bind]. rewrite (indexer_final_ok b _ _ GS). cbn [bind ix_lin ix_at].
  assert (O1 : offset b (first_cell (Ml ++ P ++ [(0, 1)])) = h0 * Z.of_nat n).
  { rewrite b_eq. rewrite app_assoc. unfold first_cell at 1. rewrite map_app. cbn [map fst].
    rewrite snoc_offset; [unfold h0, first_cell; lia|].
    rewrite map_length. unfold Ml, H, M. rewrite !app_length, grow_length. rewrite !app_length. reflexivity. }
  assert (O2 : offset b (last_cell (Ml ++ P ++ [(0, 1)])) = hl * Z.of_nat n).
  { rewrite b_eq. rewrite app_assoc. unfold last_cell at 1. rewrite map_app. cbn [map fst snd].
    rewrite snoc_offset.
    - replace (map (fun iv => snd iv - 1) (Ml ++ P)) with (last_cell (M ++ P)); [unfold hl; lia|].
      unfold Ml, M, last_cell. rewrite !map_app. reflexivity.
    - rewrite map_length. unfold Ml, H, M. rewrite !app_length, grow_length. rewrite !app_length. reflexivity. }
  rewrite O1, O2.
  pose proof hl_bound as HB. pose proof h0_bound as HB0. pose proof N_eq as EN.
  assert (HI : h0 <= hl).
  { assert (FI : in_box (M ++ P) (first_cell (M ++ P))) by (apply first_in_box; apply nonempty_app; split; auto; apply Sh).
    destruct (interior_between _ FI) as [B1 _]. lia. }
  assert (X0 : (hl + 1) * Z.of_nat n <= prod_len b) by (rewrite EN; apply Z.mul_le_mono_nonneg_r; lia).
  assert (X1 : 0 <= h0) by (assert (0 <= (2 + low) * Q) by (apply Z.mul_nonneg_nonneg; lia); lia).
  assert (X2 : 0 <= hl * Z.of_nat n) by (apply Z.mul_nonneg_nonneg; lia).
  rewrite iadd_ok by (unfold is_int, int_min; lia). cbn [bind].
  assert (Qd : (hl * Z.of_nat n + 1 + 1 - h0 * Z.of_nat n + Z.of_nat n - 1) / Z.of_nat n = hl - h0 + 1).
  { symmetry. apply Z.div_unique with 1; lia. }
  rewrite int_loop_blocks; try rewrite Qd; try nia.
  - cbn [bind]. reflexivity.
Qed.

Lemma span_bounds : low + 2 <= 2 -> let N := prod_len b in let s := Q * Z.of_nat n in
  (2 + low) * s <= h0 * Z.of_nat n /\ h0 * Z.of_nat n + Z.of_nat (Z.to_nat (hl - h0 + 1)) * Z.of_nat n + s + s <= N /\ h0 <= hl.
Proof.
  intros _ N s. pose proof H_parts as (N1 & N2 & N3 & N4 & N5 & N6).
  pose proof hl_bound as HB. pose proof h0_bound as HB0. pose proof N_eq as EN.
  assert (HI : h0 <= hl).
  { assert (FI : in_box (M ++ P) (first_cell (M ++ P))) by (apply first_in_box; apply nonempty_app; split; auto; apply Sh).
    destruct (interior_between _ FI) as [B1 _]. lia. }
  assert (X0 : (hl + 1 + 2 * Q) * Z.of_nat n <= N) by (unfold N; rewrite EN; apply Z.mul_le_mono_nonneg_r; lia).
  assert (X1 : (2 + low) * Q * Z.of_nat n <= h0 * Z.of_nat n) by (apply Z.mul_le_mono_nonneg_r; lia).
  unfold s. split; [lia|]. split; [|lia]. rewrite Z2Nat.id by lia. nia.
Qed.

(** The positions of an interior cell and of its walls. *)
Lemma interior_walls : forall (G : nat -> list F -> list F -> list F) (w : list Z -> F) x j, in_box (M ++ P) x -> 0 <= j < Z.of_nat n ->
  let s := Q * Z.of_nat n in let o := offset b (x ++ [j]) in
  h0 * Z.of_nat n <= o < h0 * Z.of_nat n + Z.of_nat (Z.to_nat (hl - h0 + 1)) * Z.of_nat n /\
  wallp n s (G d) (fun k => w (cell_at b k)) o = wall (Z.of_nat n) G w d x j /\
  wallp n s (G d) (fun k => w (cell_at b k)) (o + s) = wall (Z.of_nat n) G w d (move d 1 x) j /\
  0 <= o < prod_len b.
Proof.
  intros G w x j Hx Hj s o. destruct (interior_between x Hx) as [B HM].
  assert (Lx : List.length x = List.length H).
  { rewrite <- (move_length d 0 x). symmetry. eapply Forall2_length. apply (HM 0). lia. }
  assert (Ld : (d < List.length x)%nat).
  { rewrite Lx. apply nth_error_Some. rewrite H_nth. discriminate. }
  assert (Eo : o = offset H x * Z.of_nat n + j) by (unfold o; rewrite b_eq; now apply snoc_offset).
  assert (I0 : in_box H x) by (rewrite <- (move_0 d x Ld); apply HM; lia).
  split; [|split; [|split]].
  - rewrite Eo. rewrite Z2Nat.id by lia. nia.
  - unfold s, o. unfold Q. rewrite <- H_skip. rewrite b_eq.
    apply (wallp_field n G H d (l - 2, u + 2)); auto using H_nonempty, H_nth; try (apply HM; lia). lia.
  - assert (Eo' : o + s = offset b (move d 1 x ++ [j])).
    { rewrite b_eq. rewrite snoc_offset by (now rewrite move_length). rewrite (offset_move H d 1 x (l - 2, u + 2) H_nth Lx).
      rewrite H_skip. fold Q. rewrite Eo. unfold s. ring. }
    rewrite Eo'. unfold s, Q. rewrite <- H_skip. rewrite b_eq.
    apply (wallp_field n G H d (l - 2, u + 2)); auto using H_nonempty, H_nth; try lia; rewrite ?move_move by assumption; apply HM; lia.
  - unfold o. apply offset_bounds. rewrite b_eq. apply snoc_in. auto.
Qed.

End Geometry.

Section Sweeps.
Context {F : Type} {A : Arith F}.
Variables (M P : box) (n : nat).
Let D : box := P ++ [(0, Z.of_nat n)].
Let b : box := grow 2 M ++ D.
Hypothesis Sh : shape M D 2.
Hypothesis Hn : (2 <= n)%nat.
Variables (flux : Z -> list F -> list F -> res (list F)) (G : nat -> list F -> list F -> list F).

Definition total_at (d : nat) : Prop :=
  forall l r, List.length l = n -> List.length r = n -> flux (Z.of_nat d) l r = Ok (G d l r) /\ List.length (G d l r) = n.

Lemma split_M : forall d, (d < List.length M)%nat -> exists p l u q, M = p ++ (l, u) :: q /\ List.length p = d.
Proof.
  intros d Hd. destruct (nth_error M d) as [[l u]|] eqn:E; [|apply nth_error_None in E; lia].
  apply nth_error_split in E as (p & q & -> & <-). eauto 6.
Qed.

(** Gather sweep along dimension [d] of a chunk with elements [u]: defined, safe
    under every interleaving, and the contribution is added. *)
Lemma gather_field : forall gr u d dx, (d < List.length M)%nat -> grid_dx gr (Z.of_nat d) = Ok dx -> total_at d ->
  exists l, gather_sweep n flux gr (echunk_of M D 2 u) (Z.of_nat d) = Ok l /\
  forall r, exists v, seq_run l [arr b u; arr b r] = Ok [arr b u; arr b v] /\ par_safe l [arr b u; arr b r] [arr b u; arr b v] /\
    forall x j, in_box (M ++ P) x -> 0 <= j < Z.of_nat n ->
      v (x ++ [j]) = (r (x ++ [j])%list + wall (Z.of_nat n) G u d x j / dx - wall (Z.of_nat n) G u d (move d 1 x) j / dx)%F.
Proof.
  intros gr u d dx Hd Hdx Ht. destruct (split_M d Hd) as (p & l0 & u0 & q & EM & Ed).
  assert (Sh' : shape (p ++ (l0, u0) :: q) (P ++ [(0, Z.of_nat n)]) 2) by (rewrite <- EM; exact Sh).
  subst d.
  pose proof (sweep_loop_ok p q P l0 u0 n Sh' Hn 0 ltac:(lia) (fun s dx i => gather n s (flux (Z.of_nat (List.length p))) dx i) gr dx u Hdx) as E0.
  match type of E0 with _ = Ok ?l => exists l end.
  split; [unfold gather_sweep, D; rewrite EM; exact E0|]. clear E0.
  intros r.
  assert (Nb : nonempty b) by apply (shape_valid _ _ _ Sh).
  set (fq := fun k => u (cell_at b k)). set (fr := fun k => r (cell_at b k)).
  destruct (span_bounds p q P l0 u0 n Sh' Hn 0) as (B1 & B2 & B3); try lia.
  set (s := prod_len (grow 2 q ++ P) * Z.of_nat n) in *.
  assert (EH : grow 2 M ++ P = grow 2 (p ++ (l0, u0) :: q) ++ P) by (now rewrite EM).
  set (h0 := offset (grow 2 (p ++ (l0, u0) :: q) ++ P) (first_cell ((p ++ (l0 + 0, u0) :: q) ++ P))) in *.
  set (hl := offset (grow 2 (p ++ (l0, u0) :: q) ++ P) (last_cell ((p ++ (l0, u0) :: q) ++ P))) in *.
  assert (Eb : grow 2 (p ++ (l0, u0) :: q) ++ P ++ [(0, Z.of_nat n)] = b) by (unfold b, D; now rewrite EM).
  rewrite Eb in *.
  assert (Qp : 0 < prod_len (grow 2 q ++ P)) by (eapply Q_pos; eauto).
  destruct (gather_sweep_run n s (flux (Z.of_nat (List.length p))) (G (List.length p)) dx Ht ltac:(unfold s; nia) ltac:(lia)
    (prod_len b) fq h0 (Z.to_nat (hl - h0 + 1)) fr (prod_len (grow 2 q ++ P)) eq_refl ltac:(lia) ltac:(lia)) as [R1 R2].
  set (w := swept n s (G (List.length p)) dx fq (h0 * Z.of_nat n) (Z.to_nat (hl - h0 + 1)) fr) in *.
  exists (fun c => w (offset b c)).
  assert (E1 : [arr b u; arr b r] = mtab (prod_len b) [fq; fr]) by (unfold mtab; cbn [map]; now rewrite !arr_tab).
  assert (E2 : [arr b u; arr b (fun c => w (offset b c))] = mtab (prod_len b) [fq; w]).
  { unfold mtab; cbn [map]. rewrite (tab_arr b w) by assumption. rewrite (arr_tab b u) by assumption. reflexivity. }
  rewrite E1, E2. split; [exact R1|]. split; [exact R2|].
  intros x j Hx Hj. rewrite EM in Hx.
  destruct (interior_walls p q P l0 u0 n Sh' Hn 0 ltac:(lia) G u x j Hx Hj) as (W1 & W2 & W3 & W4).
  rewrite Eb in *. fold s in W2, W3. fold h0 hl in W1. fold fq in W2, W3.
  unfold w, swept. rewrite (proj2 (Z.leb_le _ _)), (proj2 (Z.ltb_lt _ _)) by lia. cbn [andb].
  rewrite W2, W3. unfold fr. rewrite cell_at_offset; auto.
  unfold b, D. rewrite app_assoc. apply snoc_in. split; auto. rewrite EH.
  assert (I0 : in_box (p ++ (l0, u0) :: q ++ P) x) by (now rewrite <- app_assoc in Hx).
  rewrite <- EM in Hx. rewrite <- EH. eapply box_incl_in; [|exact Hx]. apply box_incl_app; [apply box_incl_grow; lia|apply box_incl_refl].
Qed.

(** A sweep can be set up whatever the flux; if the flux is undefined, so is the
    loop. *)
Lemma gather_bad : forall gr u d dx, (d < List.length M)%nat -> grid_dx gr (Z.of_nat d) = Ok dx ->
  exists l, gather_sweep n flux gr (echunk_of M D 2 u) (Z.of_nat d) = Ok l /\
  forall r e, (forall a c, List.length a = n -> List.length c = n -> flux (Z.of_nat d) a c = UB e) ->
    seq_run l [arr b u; arr b r] = UB e.
Proof.
  intros gr u d dx Hd Hdx. destruct (split_M d Hd) as (p & l0 & u0 & q & EM & Ed).
  assert (Sh' : shape (p ++ (l0, u0) :: q) (P ++ [(0, Z.of_nat n)]) 2) by (rewrite <- EM; exact Sh).
  subst d.
  pose proof (sweep_loop_ok p q P l0 u0 n Sh' Hn 0 ltac:(lia) (fun s dx i => gather n s (flux (Z.of_nat (List.length p))) dx i) gr dx u Hdx) as E0.
  match type of E0 with _ = Ok ?l => exists l end.
  split; [unfold gather_sweep, D; rewrite EM; exact E0|]. clear E0.
  intros r e He.
  assert (Nb : nonempty b) by apply (shape_valid _ _ _ Sh).
  set (fq := fun k => u (cell_at b k)). set (fr := fun k => r (cell_at b k)).
  destruct (span_bounds p q P l0 u0 n Sh' Hn 0) as (B1 & B2 & B3); try lia.
  set (s := prod_len (grow 2 q ++ P) * Z.of_nat n) in *.
  set (h0 := offset (grow 2 (p ++ (l0, u0) :: q) ++ P) (first_cell ((p ++ (l0 + 0, u0) :: q) ++ P))) in *.
  set (hl := offset (grow 2 (p ++ (l0, u0) :: q) ++ P) (last_cell ((p ++ (l0, u0) :: q) ++ P))) in *.
  assert (Eb : grow 2 (p ++ (l0, u0) :: q) ++ P ++ [(0, Z.of_nat n)] = b) by (unfold b, D; now rewrite EM).
  rewrite Eb in *.
  assert (Qp : 0 < prod_len (grow 2 q ++ P)) by (eapply Q_pos; eauto).
  assert (E1 : [arr b u; arr b r] = mtab (prod_len b) [fq; fr]) by (unfold mtab; cbn [map]; now rewrite !arr_tab).
  rewrite E1. remember (Z.to_nat (hl - h0 + 1)) as K eqn:EK. destruct K as [|K]; [lia|].
  rewrite blocks_S. cbn [map seq_run]. unfold gather at 1.
  assert (Ps : 0 < s) by (unfold s; nia).
  rewrite recon_run by (unfold fits_at; nia). cbn [app]. rewrite Z.add_0_l.
  rewrite He by (rewrite map_length; unfold recons; rewrite map_length, zrange_length; lia). reflexivity.
Qed.

(** The scatter sweep adds the same in the interior. *)
Lemma scatter_field : forall gr u d dx, (d < List.length M)%nat -> grid_dx gr (Z.of_nat d) = Ok dx -> total_at d ->
  exists l, scatter_sweep n flux gr (echunk_of M D 2 u) (Z.of_nat d) = Ok l /\
  forall r, exists v, seq_run l [arr b u; arr b r] = Ok [arr b u; arr b v] /\
    forall x j, in_box (M ++ P) x -> 0 <= j < Z.of_nat n ->
      v (x ++ [j]) = (r (x ++ [j])%list + wall (Z.of_nat n) G u d x j / dx - wall (Z.of_nat n) G u d (move d 1 x) j / dx)%F.
Proof.
  intros gr u d dx Hd Hdx Ht. destruct (split_M d Hd) as (p & l0 & u0 & q & EM & Ed).
  assert (Sh' : shape (p ++ (l0, u0) :: q) (P ++ [(0, Z.of_nat n)]) 2) by (rewrite <- EM; exact Sh).
  subst d.
  pose proof (sweep_loop_ok p q P l0 u0 n Sh' Hn (-1) ltac:(lia) (fun s dx i => scatter n s (flux (Z.of_nat (List.length p))) dx i) gr dx u Hdx) as E0.
  match type of E0 with _ = Ok ?l => exists l end.
  split; [unfold scatter_sweep, D; rewrite EM; exact E0|]. clear E0.
  intros r.
  assert (Nb : nonempty b) by apply (shape_valid _ _ _ Sh).
  set (fq := fun k => u (cell_at b k)). set (fr := fun k => r (cell_at b k)).
  destruct (span_bounds p q P l0 u0 n Sh' Hn (-1)) as (B1 & B2 & B3); try lia.
  set (s := prod_len (grow 2 q ++ P) * Z.of_nat n) in *.
  assert (EH : grow 2 M ++ P = grow 2 (p ++ (l0, u0) :: q) ++ P) by (now rewrite EM).
  set (h0 := offset (grow 2 (p ++ (l0, u0) :: q) ++ P) (first_cell ((p ++ (l0 + -1, u0) :: q) ++ P))) in *.
  set (hl := offset (grow 2 (p ++ (l0, u0) :: q) ++ P) (last_cell ((p ++ (l0, u0) :: q) ++ P))) in *.
  assert (Eb : grow 2 (p ++ (l0, u0) :: q) ++ P ++ [(0, Z.of_nat n)] = b) by (unfold b, D; now rewrite EM).
  rewrite Eb in *.
  assert (Qp : 0 < prod_len (grow 2 q ++ P)) by (eapply Q_pos; eauto).
  pose proof (scatter_sweep_run n s (flux (Z.of_nat (List.length p))) (G (List.length p)) dx Ht ltac:(unfold s; nia) ltac:(lia)
    (prod_len b) fq h0 fr (prod_len (grow 2 q ++ P)) (Z.to_nat (hl - h0 + 1)) eq_refl ltac:(lia) ltac:(lia)) as R1.
  set (w := scattered n s (G (List.length p)) dx fq (h0 * Z.of_nat n) (Z.to_nat (hl - h0 + 1)) fr) in *.
  exists (fun c => w (offset b c)).
  assert (E1 : [arr b u; arr b r] = mtab (prod_len b) [fq; fr]) by (unfold mtab; cbn [map]; now rewrite !arr_tab).
  assert (E2 : [arr b u; arr b (fun c => w (offset b c))] = mtab (prod_len b) [fq; w]).
  { unfold mtab; cbn [map]. rewrite (tab_arr b w) by assumption. rewrite (arr_tab b u) by assumption. reflexivity. }
  rewrite E1, E2. split; [exact R1|].
  intros x j Hx Hj. rewrite EM in Hx.
  destruct (interior_walls p q P l0 u0 n Sh' Hn (-1) ltac:(lia) G u x j Hx Hj) as (W1 & W2 & W3 & W4).
  destruct (interior_walls p q P l0 u0 n Sh' Hn 0 ltac:(lia) G u x j Hx Hj) as (V1 & _).
  rewrite Eb in *. fold s in W2, W3. fold h0 hl in W1. fold hl in V1. fold fq in W2, W3.
  assert (H00 : offset (grow 2 (p ++ (l0, u0) :: q) ++ P) (first_cell ((p ++ (l0 + 0, u0) :: q) ++ P)) * Z.of_nat n = h0 * Z.of_nat n + s).
  { unfold h0. rewrite !first_mid, !offset_H by (unfold first_cell; now rewrite map_length). unfold s. ring. }
  rewrite H00 in V1.
  unfold w, scattered. rewrite (proj2 (Z.leb_le (h0 * Z.of_nat n) _)), (proj2 (Z.ltb_lt _ (h0 * Z.of_nat n + _))) by lia.
  rewrite (proj2 (Z.leb_le (h0 * Z.of_nat n + s) _)), (proj2 (Z.ltb_lt _ (h0 * Z.of_nat n + s + _))) by lia. cbn [andb].
  rewrite W2, W3. unfold fr. rewrite cell_at_offset; auto.
  unfold b, D. rewrite app_assoc. apply snoc_in. split; auto. rewrite EH.
  rewrite <- EM in Hx. rewrite <- EH. eapply box_incl_in; [|exact Hx]. apply box_incl_app; [apply box_incl_grow; lia|apply box_incl_refl].
Qed.


(** ** several dimensions *)

Lemma fold_fluxes_ext : forall W (dx : nat -> F) ds r r' x j, r x j = r' x j ->
  fold_left (with_fluxes W dx) ds r x j = fold_left (with_fluxes W dx) ds r' x j.
Proof.
  intros W dx. induction ds as [|d ds IH]; intros r r' x j E; [exact E|]. cbn [fold_left]. apply IH. unfold with_fluxes. now rewrite E.
Qed.

Definition dims_ok (gr : grid F) (dx : nat -> F) (ds : list nat) : Prop :=
  Forall (fun d => (d < List.length M)%nat /\ grid_dx gr (Z.of_nat d) = Ok (dx d) /\ total_at d) ds.

Lemma gather_loops : forall gr u dx ds, dims_ok gr dx ds ->
  exists ls, loops_of (gather_sweep n flux gr (echunk_of M D 2 u)) (map Z.of_nat ds) = Ok ls /\
  forall r, exists v, loops_run ls [arr b u; arr b r] = Ok [arr b u; arr b v] /\ loops_safe ls [arr b u; arr b r] [arr b u; arr b v] /\
    fluxes_added M P (Z.of_nat n) (wall (Z.of_nat n) G u) dx ds r v.
Proof.
  intros gr u dx ds H. induction H as [|d ds (H1 & H2 & H3) H IH].
  - exists []. split; [reflexivity|]. intros r. exists r. repeat split. 
  - destruct IH as (ls & E & IH). destruct (gather_field gr u d (dx d) H1 H2 H3) as (l & El & Hl).
    exists (l :: ls). split; [cbn [map loops_of]; rewrite El; cbn [bind]; rewrite E; reflexivity|].
    intros r. destruct (Hl r) as (v & V1 & V2 & V3). destruct (IH v) as (w & W1 & W2 & W3). exists w. split; [|split].
    + cbn [loops_run]. rewrite V1. cbn [bind]. exact W1.
    + cbn [loops_safe]. eauto.
    + intros x j Hx Hj. rewrite W3 by assumption. cbn [fold_left]. apply fold_fluxes_ext. unfold with_fluxes. now apply V3.
Qed.

Lemma scatter_loops : forall gr u dx ds, dims_ok gr dx ds ->
  exists ls, loops_of (scatter_sweep n flux gr (echunk_of M D 2 u)) (map Z.of_nat ds) = Ok ls /\
  forall r, exists v, loops_run ls [arr b u; arr b r] = Ok [arr b u; arr b v] /\
    fluxes_added M P (Z.of_nat n) (wall (Z.of_nat n) G u) dx ds r v.
Proof.
  intros gr u dx ds H. induction H as [|d ds (H1 & H2 & H3) H IH].
  - exists []. split; [reflexivity|]. intros r. exists r. repeat split. 
  - destruct IH as (ls & E & IH). destruct (scatter_field gr u d (dx d) H1 H2 H3) as (l & El & Hl).
    exists (l :: ls). split; [cbn [map loops_of]; rewrite El; cbn [bind]; rewrite E; reflexivity|].
    intros r. destruct (Hl r) as (v & V1 & V3). destruct (IH v) as (w & W1 & W3). exists w. split.
    + cbn [loops_run]. rewrite V1. cbn [bind]. exact W1.
    + intros x j Hx Hj. rewrite W3 by assumption. cbn [fold_left]. apply fold_fluxes_ext. unfold with_fluxes. now apply V3.
Qed.

End Sweeps.

Section RhsSolve.
Context {F : Type} {A : Arith F}.
Notation fld := (field F).

Lemma dims_upto_seq : forall k, dims_upto (Z.of_nat k) = map Z.of_nat (seq 0 k).
Proof. intros. unfold dims_upto. now rewrite Nat2Z.id. Qed.

(** A right-hand side solver whose loops, for the input field [u], turn every
    right-hand side [r] into one related by [R]. *)
Lemma rhs_solve_ok : forall mi mo fuel loops (m : mgr F) M L q r u ks (R : fld -> fld -> Prop),
  mgr_holds m M L -> fields_ok M L -> compatible (ids L ++ ks) -> incl [q; r] ks -> id_fits M q -> id_fits M r -> (1 <= fuel)%nat ->
  field_get L q = Some u -> comp_box q = comp_box r -> id_name q <> id_name r ->
  (forall m', same_run m m' -> exists ls, loops m' (echunk_of M (comp_box q) 2 u) = Ok ls /\
     forall w, exists v, loops_run ls [arr (whole M q) u; arr (whole M q) w] = Ok [arr (whole M q) u; arr (whole M q) v] /\ R w v) ->
  exists m' L', rhs_solve mi mo fuel loops [q] [r] m = Done m' /\ mgr_holds m' M L' /\ fields_ok M L' /\ compatible (ids L' ++ ks) /\
    same_run m m' /\ incl (ids L') (ids L ++ [r]) /\
    (forall k, id_name k <> id_name r -> field_get L' k = field_get L k) /\
    exists v, field_get L' r = Some v /\ R (field_or_zero L r) v.
Proof.
  intros mi mo fuel loops m M L q r u ks R Hm HL Hc Hk Hq Hr Hfu Hu Cb Nq Hl.
  apply mgr_holds_iff in Hm as [Hg Hm]; auto.
  assert (Hc' : compatible (ids L ++ [q; r])).
  { eapply compat_perm; [exact Hc|]. intros x Hx. rewrite in_app_iff in *. destruct Hx; auto. }
  assert (Fq : fitting L q) by (eapply compat_fitting; eauto; cbn; auto).
  assert (Fr : fitting L r) by (eapply compat_fitting; eauto; cbn; auto).
  destruct (input_pos (mg_grid m) M L (mg_dt m) (mg_time m) q u Fq Hu) as (nq & Pq & Iq).
  destruct (output_pos (mg_grid m) M L (mg_dt m) (mg_time m) r Hg Fr Hr) as (nr & Pr & Or).
  pose proof (pos_ensure L q u nq r Fr Pq) as Pq'.
  assert (Fe : fitting (ensure L r) r).
  { eapply compat_fitting; [apply (compat_ensure L r [])|now left]. eapply compat_perm; [exact Hc'|].
    intros x Hx. rewrite in_app_iff in *. cbn in *. tauto. }
  set (m1 := mgr_of (mg_grid m) M (ensure L r) (mg_dt m) (mg_time m)).
  destruct (Hl m1) as (ls & El & Hls); [unfold same_run; cbn; auto|].
  destruct (Hls (field_or_zero L r)) as (v & V1 & V2).
  assert (Ck : whole M q = whole M r) by (unfold whole; now rewrite Cb).
  assert (E : rhs_solve mi mo fuel loops [q] [r] m = Done (mgr_of (mg_grid m) M (field_set (ensure L r) r v) (mg_dt m) (mg_time m))).
  { rewrite Hm at 1. unfold rhs_solve. rewrite Iq. cbn [liftr]. rewrite Or.
    rewrite (for_chunks_ok _ _ _ _ _ _ _ _ _ _ (id_fits_M _ _ Hq) Hfu (proj2 Pq')).
    rewrite (get_chunk_ok _ _ _ _ _ _ _ _ (proj2 Pq')). cbn [bind]. fold m1. rewrite El. cbn [liftr]. unfold m1.
    rewrite (run_kernel_ok _ _ _ _ _ [nq] nr [(q, u)] r (field_or_zero L r) v ls [arr (whole M q) u]).
    - cbn [obind]. now rewrite (pos_upd _ _ _ _ _ Fe Pr).
    - repeat constructor. apply Pq'.
    - apply Pr.
    - pose proof (pos_neq _ _ _ _ _ _ _ Pq' Pr Nq). cbn. intuition.
    - constructor; [exact Hq|constructor].
    - exact Hr.
    - reflexivity.
    - cbn [map app fst snd]. rewrite Ck in *. exact V1. }
  set (L' := field_set (ensure L r) r v) in *.
  assert (O' : fields_ok M L') by (unfold L', ensure; auto using fields_ok_set).
  assert (HI : incl (ids L') (ids L ++ [r])).
  { intros x Hx. rewrite in_app_iff. apply ids_set_in in Hx as [Hx| ->]; [apply ids_ensure_in in Hx as [Hx| ->]|]; cbn; auto. }
  eexists _, L'. split; [exact E|]. split; [apply mgr_holds_iff; auto|]. split; [auto|]. split.
  { eapply compat_perm; [exact Hc|]. intros x Hx. rewrite in_app_iff in *. destruct Hx as [Hx|]; auto.
    apply HI in Hx. rewrite in_app_iff in Hx. destruct Hx as [Hx|[<-|[]]]; auto. right; apply Hk; cbn; auto. }
  split; [unfold same_run; cbn; auto|]. split; [auto|]. split.
  { intros k Hn. unfold L'. rewrite field_get_set_other by congruence. apply get_ensure_other. congruence. }
  exists v. split; [apply field_get_set_same|exact V2].
Qed.

End RhsSolve.
