(** * RepoTests: the unit tests of the repository (test/lib/test_range.cpp,
    test/lib/test_indexer.cpp, test/variable/test_variable.cpp) carried out by the
    model.  Each block of a test function is a program of the model that returns
    the asserted conditions in order; the examples say that all of them hold.
    These are tests of the model, not proofs of properties. *)
From Coq Require Import ZArith List String Bool Floats.SpecFloat.
From Verif Require Import Base Range Indexer Interface Arith ArithFloat Chunk VarId Manager Dataset.
Import ListNotations.
Open Scope Z_scope.

(** The value of a call that changes an object, for test programs only. *)
Definition val {S} (o : out S) : res S :=
  match o with Done s => Ok s | Threw m _ => Exn m | Undef k => UB k | Spin => NoFuel end.

(** The test loops over the dimensions (test_range.cpp:28-33): [f] of the
    dimensions equals the numbers of [l]. *)
Fixpoint all_dims (f : Z -> res Z) (i : Z) (l : list Z) : res bool :=
  match l with
  | [] => Ok true
  | x :: l' => y <- f i ;; r <- all_dims f (i + 1) l' ;; Ok ((y =? x) && r)
  end.

(** The four loops of test_range.cpp:27-37, 60-72, 76-88. *)
Definition four_tests (r : range) (lo up len st : list Z) : res (list bool) :=
  a <- all_dims (range_lower r) 0 lo ;; b <- all_dims (range_upper r) 0 up ;;
  c <- all_dims (range_length r) 0 len ;; d <- all_dims (range_stride r) 0 st ;; Ok [a; b; c; d].

(** Expected strides as the tests compute them (test_range.cpp:20-24, 48-52). *)
Fixpoint test_strides (dims : list Z) : list Z :=
  match dims with
  | [] => []
  | _ :: rest => fold_right Z.mul 1 rest :: test_strides rest
  end.

(** test_range.cpp:10-13. *)
Definition range_constructors_1 : res (list bool) :=
  v <- range_volume range_empty ;; Ok [v =? 0].

(** test_range.cpp:15-42. *)
Definition range_constructors_2 : res (list bool) :=
  let dims := [7; 4; 3; 1; 8; 9; 2] in
  rng <- range_of_dims 7 dims ;;
  t <- four_tests rng (repeat 0 7) dims dims (test_strides dims) ;;
  v <- range_volume rng ;;
  Ok ((r_nd rng =? 7) :: t ++ [v =? 7 * 4 * 3 * 1 * 8 * 9 * 2]).

(** test_range.cpp:44-89. *)
Definition range_constructors_3 : res (list bool) :=
  let lo := [1; -20; 8] in let up := [7; -10; 9] in let len := [6; 10; 1] in
  rng <- range_make 3 lo up ;;
  t <- four_tests rng lo up len (test_strides len) ;;
  rng2 <- range_copy rng ;;
  t2 <- four_tests rng2 lo up len (test_strides len) ;;
  Ok ((r_nd rng =? 3) :: t ++ t2).

(** test_range.cpp:97-112. *)
Definition range_extrusion_1 : res (list bool) :=
  base <- range_of_dims 3 [10; 10; 10] ;;
  r1 <- range_extrude range_empty 0 10 ;; r2 <- range_extrude r1 0 10 ;; r3 <- range_extrude r2 0 10 ;;
  Ok [range_eqb r3 base].

(** test_range.cpp:114-121. *)
Definition range_extrusion_2 : res (list bool) :=
  base <- range_of_dims 3 [10; 10; 10] ;;
  rng <- range_copy base ;; rng <- range_extrude rng (-51) (-41) ;;
  v <- range_volume rng ;; vb <- range_volume base ;;
  Ok [v =? vb * 10].

(** test_range.cpp:134-154; resize(num_dims, lower, upper) is setup
    (range.cpp:50-54). *)
Definition range_resize_1 : res (list bool) :=
  let lo := [2; 7] in let up := [5; 9] in
  rng <- range_setup 2 (Some lo) (Some up) ;;
  a <- all_dims (range_lower rng) 0 lo ;; b <- all_dims (range_upper rng) 0 up ;;
  v <- range_volume rng ;;
  Ok [r_nd rng =? 2; a; b; v =? 6].

(** test_range.cpp:156-167; resize(range) is setup, as the copy constructor (range.cpp:18-23, 44-48). *)
Definition range_resize_2 : res (list bool) :=
  new_rng <- range_make 2 [-2; 90] [48; 982] ;;
  rng <- range_copy new_rng ;;
  Ok [range_eqb rng new_rng].

(** The assertions of test_range.cpp:185-189 and 198-202. *)
Definition moved_tests (rng base : range) : res (list bool) :=
  l <- range_lower rng 1 ;; u <- range_upper rng 1 ;; s <- range_stride rng 0 ;; sb <- range_stride base 0 ;;
  v <- range_volume rng ;; vb <- range_volume base ;;
  Ok [range_neqb rng base; l =? 5; u =? 15; s =? sb; v =? vb].

(** test_range.cpp:180-191. *)
Definition range_functionality_1 : res (list bool) :=
  base <- range_of_dims 3 [10; 10; 10] ;;
  rng <- range_copy base ;; rng <- range_shift rng 1 5 ;; moved_tests rng base.

(** test_range.cpp:193-204. *)
Definition range_functionality_2 : res (list bool) :=
  base <- range_of_dims 3 [10; 10; 10] ;;
  rng <- range_copy base ;; rng <- range_set rng 1 5 15 ;; moved_tests rng base.

(** test_range.cpp:206-221. *)
Definition range_functionality_3 : res (list bool) :=
  base <- range_of_dims 3 [10; 10; 10] ;;
  i1 <- range_extrude range_empty 2 4 ;; i2 <- range_extrude i1 2 4 ;;
  i3 <- range_extrude i2 2 4 ;; i4 <- range_set i3 1 (-1) 11 ;;
  Ok [negb (range_includes base i2); range_includes base i3; negb (range_includes base i4)].

Example test_range_passes :
  range_constructors_1 = Ok [true] /\
  range_constructors_2 = Ok (repeat true 6) /\
  range_constructors_3 = Ok (repeat true 9) /\
  range_extrusion_1 = Ok [true] /\ range_extrusion_2 = Ok [true] /\
  range_resize_1 = Ok (repeat true 4) /\ range_resize_2 = Ok [true] /\
  range_functionality_1 = Ok (repeat true 5) /\ range_functionality_2 = Ok (repeat true 5) /\
  range_functionality_3 = Ok (repeat true 3).
Proof. vm_compute. repeat split. Qed.

(** range with extrusions (test_indexer.cpp:42-44 and elsewhere). *)
Fixpoint extruded (l : list (Z * Z)) (r : range) : res range :=
  match l with
  | [] => Ok r
  | (lo, up) :: l' => r' <- range_extrude r lo up ;; extruded l' r'
  end.

(** test_indexer.cpp:15-18. *)
Definition indexer_constructors_1 : res (list bool) :=
  v <- range_volume (if_range (mkIface (T := Z) range_empty [])) ;; Ok [v =? 0].

(** test_indexer.cpp:20-33. *)
Definition indexer_constructors_2 : res (list bool) :=
  rng <- range_of_dims 7 [7; 4; 3; 1; 8; 9; 2] ;;
  ii <- val (iface_new 0 rng) ;; ii2 <- val (iface_copy 0 ii) ;;
  Ok [r_nd (if_range ii) =? 7; r_nd (if_range ii2) =? 7].

(** test_indexer.cpp:46-56. *)
Definition indexer_functionality_1 : res (list bool) :=
  rng <- extruded [(-2, 4); (-5, 90)] range_empty ;;
  rng1 <- extruded [(0, 100)] range_empty ;;
  ii <- val (iface_new 0 rng) ;; ii <- val (iface_resize 0 ii rng1) ;;
  v <- range_volume (if_range ii) ;; Ok [v =? 100].

(** data()[0] and data()[volume()-1] are [x] (test_indexer.cpp:63, 69). *)
Definition ends_are (i : iface Z) (x : Z) : res bool :=
  v <- range_volume (if_range i) ;; a <- vget (if_data i) 0 ;; b <- vget (if_data i) (v - 1) ;; Ok ((a =? x) && (b =? x)).

(** test_indexer.cpp:58-71. *)
Definition indexer_functionality_2 : res (list bool) :=
  rng <- extruded [(-2, 4); (-5, 90)] range_empty ;;
  ii <- val (iface_new 0 rng) ;;
  let ii := iface_fill_all 17 ii in
  a <- ends_are ii 17 ;;
  ii2 <- val (iface_new 0 rng) ;;
  p <- val (iface_swap (ii2, ii)) ;;
  b <- ends_are (fst p) 17 ;; Ok [a; b].

(** Number of steps of the loops of test_indexer.cpp:122-136. *)
Definition count_steps (ix : indexer) : res Z := val (for_indexer 1000 ix (fun _ n => Done (n + 1)) 0).

(** The colouring loops (test_indexer.cpp:173-186, 203-214, 224-235): all elements
    inside [fr] are [x], all others 0. *)
Definition coloured (ii : iface Z) (fr : range) (x : Z) : res (bool * bool) :=
  ix <- iface_indexer ii (if_range ii) ;;
  val (for_indexer 1000 ix (fun idx st =>
    let inside := match ix_idx idx, r_lower fr, r_upper fr with
                  | [i; j], [l0; l1], [u0; u1] => (l0 <=? i) && (i <? u0) && ((l1 <=? j) && (j <? u1))
                  | _, _, _ => false
                  end in
    liftr st (iface_get ii idx) (fun v =>
    Done (if inside then (fst st && (v =? x), snd st) else (fst st, snd st && (v =? 0))))) (true, true)).

(** test_indexer.cpp:80-136: indexers and their loops. *)
Definition indexer_indexer_1 : res (list bool) :=
  rng <- extruded [(0, 15); (0, 25)] range_empty ;;
  ii <- val (iface_new 0 rng) ;;
  sub <- extruded [(9, 13); (3, 7)] range_empty ;;
  i2 <- indexer_make sub rng ;;
  a0 <- vget (ix_idx i2) 0 ;; a1 <- vget (ix_idx i2) 1 ;; l0 <- range_lower sub 0 ;; l1 <- range_lower sub 1 ;;
  i3 <- iface_indexer ii range_empty ;;
  i4 <- iface_indexer ii (if_range ii) ;;
  b0 <- vget (ix_idx i4) 0 ;; b1 <- vget (ix_idx i4) 1 ;; m0 <- range_lower (if_range ii) 0 ;; m1 <- range_lower (if_range ii) 1 ;;
  n4 <- count_steps i4 ;; v <- range_volume rng ;;
  i5 <- iface_indexer ii sub ;; n5 <- count_steps i5 ;; vs <- range_volume sub ;;
  Ok [negb (ix_ex indexer_default); ix_ex i2; a0 =? l0; a1 =? l1; negb (ix_ex i3); ix_ex i4; ix_lin i4 =? 0; b0 =? m0; b1 =? m1; n4 =? v; n5 =? vs].

(** test_indexer.cpp:138-151: the tests extrude rng, not rng3, and ask for the
    indexer of the empty rng3. *)
Definition indexer_indexer_2 : res (list bool) :=
  rng <- extruded [(0, 15); (0, 25)] range_empty ;;
  ii <- val (iface_new 0 rng) ;;
  rng' <- extruded [(-1, 39)] rng ;;
  i1 <- iface_indexer ii range_empty ;;
  rng'' <- extruded [(-100, 100); (-100, 100)] rng' ;;
  i2 <- iface_indexer ii range_empty ;;
  Ok [negb (ix_ex i1); negb (ix_ex i2)].

(** test_indexer.cpp:153-239: fill and pull on sub ranges. *)
Definition indexer_indexer_3 : res (list bool) :=
  rng <- extruded [(0, 15); (0, 25)] range_empty ;;
  ii <- val (iface_new 0 rng) ;;
  sub <- extruded [(9, 13); (3, 7)] range_empty ;;
  fr <- extruded [(1, 5); (9, 13)] range_empty ;;
  ix <- iface_indexer ii fr ;;
  a0 <- vget (ix_idx ix) 0 ;; a1 <- vget (ix_idx ix) 1 ;; l0 <- range_lower fr 0 ;; l1 <- range_lower fr 1 ;;
  let ii := iface_fill_all 0 ii in
  ii <- val (for_indexer 1000 ix (fun idx i => liftr i (iface_put i idx 21) Done) ii) ;;
  c1 <- coloured ii fr 21 ;;
  ii2 <- val (iface_new 0 sub) ;;
  ii2 <- val (iface_pull 1000 (fun _ => ii) fr (if_range ii2) ii2) ;;
  c2 <- coloured ii2 sub 21 ;;
  let ii2 := iface_fill_all 7 ii2 in
  ii <- val (iface_pull 1000 (fun _ => ii2) (if_range ii2) fr ii) ;;
  c3 <- coloured ii fr 7 ;;
  ii <- val (iface_fill 1000 fr 15 ii) ;;
  c4 <- coloured ii fr 15 ;;
  Ok [a0 =? l0; a1 =? l1; snd c1; fst c1; fst c2; snd c3; fst c3; snd c4; fst c4].

Example test_indexer_passes :
  indexer_constructors_1 = Ok [true] /\ indexer_constructors_2 = Ok [true; true] /\
  indexer_functionality_1 = Ok [true] /\ indexer_functionality_2 = Ok [true; true] /\
  indexer_indexer_1 = Ok (repeat true 11) /\ indexer_indexer_2 = Ok [true; true] /\
  indexer_indexer_3 = Ok (repeat true 9).
Proof. vm_compute. repeat split. Qed.

(** The tests meant by test_indexer.cpp:138-151, with rng3 extruded. *)
Definition indexer_indexer_2_meant : res (list bool) :=
  rng <- extruded [(0, 15); (0, 25)] range_empty ;;
  ii <- val (iface_new 0 rng) ;;
  r1 <- extruded [(-1, 39)] range_empty ;;
  i1 <- iface_indexer ii r1 ;;
  r2 <- extruded [(-100, 100); (-100, 100)] range_empty ;;
  i2 <- iface_indexer ii r2 ;;
  Ok [negb (ix_ex i1); negb (ix_ex i2)].
Example test_indexer_meant_passes : indexer_indexer_2_meant = Ok [true; true].
Proof. vm_compute. reflexivity. Qed.

(** test_variable.cpp:15-18. *)
Definition variable_1 : res (list bool) :=
  var <- val (variable_default (F := spec_float)) ;;
  v <- range_volume (if_range (ds_chunks (v_ds var))) ;; Ok [v =? 0].

(** The loop of test_variable.cpp:32-34. *)
Fixpoint expanded (n : nat) (i g : Z) (r : range) : res range :=
  match n with
  | O => Ok r
  | S n' => r' <- range_expand r i (- g) g ;; expanded n' (i + 1) g r'
  end.

(** test_variable.cpp:20-56. *)
Definition variable_2 : res (list bool) :=
  let comps := ["A"; "B"; "C"]%string in
  rng <- range_of_dims 4 [7; 4; 3; 1] ;;
  ext <- expanded 4 0 3 rng ;;
  var <- variable_new (F := spec_float) "CoMpLeX VaRiAbLe NaMe" comps volume_average rng 3 ;;
  ix <- iface_indexer (ds_chunks (v_ds var)) (if_range (ds_chunks (v_ds var))) ;;
  ve <- range_volume ext ;;
  r <- val (for_indexer 10 ix (fun idx st =>
    liftr st (iface_get (ds_chunks (v_ds var)) idx) (fun e =>
    let r := if_range (ec_if e) in
    liftr st (range_volume r) (fun v => liftr st (range_length r 4) (fun l4 => liftr st (range_length r 5) (fun l5 =>
    Done (fst st + 1, snd st ++ [v =? ve * 3 * 1; l4 =? 1; l5 =? 3])))))) (0, [])) ;;
  Ok ([String.eqb (v_name var) "CoMpLeX VaRiAbLe NaMe"; if list_eq_dec String.string_dec (v_comps var) comps then true else false] ++ snd r ++ [fst r =? 1]).

Example test_variable_passes : variable_1 = Ok [true] /\ variable_2 = Ok (repeat true 6).
Proof. vm_compute. repeat split. Qed.
