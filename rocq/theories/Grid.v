(** * Grid: model of the rest of src/grid/rectilinear.cpp and of
    src/grid/structured.cpp. *)
From Coq Require Import ZArith List String Bool.
From Verif Require Import Base Arith Range Manager.
Import ListNotations.
Open Scope Z_scope.

Section Grid.
Context {F : Type} {A : Arith F}.

(** rectilinear::centroid (rectilinear.cpp:80-91); the range check macro is off. *)
Definition grid_centroid (g : grid F) (d i : Z) : res F :=
  s <- vget (gr_starts g) d ;; h <- vget (gr_dxs g) d ;; Ok (s + (fofz i + fdec 5 (-1)) * h)%F.

(** grid::structured: the base class range, _startxs, _widths (grid.h:17, 43-44),
    _dxs and _xcs (structured.h:38-39).  The class does not override
    grid::write_vtk (grid.h:32), which is pure virtual: objects exist as parts of derived
    classes only. *)
Record sgrid : Type := mkSgrid {
  sg_range : range;
  sg_starts : list F;
  sg_widths : list F;
  sg_dxs : list (list F);
  sg_xcs : list (list F)
}.

(** The loop of recalculate_xcs (structured.cpp:147-150). *)
Fixpoint xcs_loop (n : nat) (i : Z) (pxc : F) (dxs xcs : list F) : res (list F) :=
  match n with
  | O => Ok xcs
  | S n' =>
      a <- vget dxs (i - 1) ;; b <- vget dxs i ;;
      let pxc' := (pxc + fdec 5 (-1) * (a + b))%F in
      xcs' <- vset xcs i pxc' ;;
      xcs_loop n' (i + 1) pxc' dxs xcs'
  end.

(** structured::recalculate_xcs (structured.cpp:133-151): the new _xcs. *)
Definition recalculate_xcs (r : range) (starts : list F) (dxss xcss : list (list F)) (dim : Z) : res (list (list F)) :=
  n <- range_length r dim ;;
  dxs <- vget dxss dim ;;
  xcs <- vget xcss dim ;;
  s <- vget starts dim ;;
  d0 <- vget dxs 0 ;;
  let pxc := (s + fdec 5 (-1) * d0)%F in
  xcs' <- vset xcs 0 pxc ;;
  xcs'' <- xcs_loop (Z.to_nat (n - 1)) 1 pxc dxs xcs' ;;
  vset xcss dim xcs''.

(** The loop of the constructor (structured.cpp:29-34); [i] counts the
    dimensions done.  range has the same lengths as the grid. *)
Fixpoint structured_loop (n : nat) (i : Z) (r : range) (starts widths : list F) (dxss xcss : list (list F)) : res (list (list F) * list (list F)) :=
  match n with
  | O => Ok (dxss, xcss)
  | S n' =>
      w <- vget widths i ;;
      len <- range_length r i ;;
      let dx := (w / fofz len)%F in
      d <- vget dxss i ;;
      d' <- vresize_fill dx d len ;;
      dxss' <- vset dxss i d' ;;
      x <- vget xcss i ;;
      x' <- vresize_fill f0 x len ;;
      xcss' <- vset xcss i x' ;;
      xcss'' <- recalculate_xcs r starts dxss' xcss' i ;;
      structured_loop n' (i + 1) r starts widths dxss' xcss''
  end.

(** structured(range, startxs, widths) (structured.cpp:24-36) with grid::setup
    (grid.cpp:34-45). *)
Definition structured_new (r : range) (starts widths : list F) : res sgrid :=
  r' <- range_copy r ;;
  ws <- take_n (Z.to_nat (r_nd r')) widths ;;
  ss <- take_n (Z.to_nat (r_nd r')) starts ;;
  dxss <- vresize [] [] (r_nd r') ;;
  xcss <- vresize [] [] (r_nd r') ;;
  p <- structured_loop (Z.to_nat (r_nd r')) 0 r' ss widths dxss xcss ;;
  Ok (mkSgrid r' ss ws (fst p) (snd p)).

(** The loop of bias_array (structured.cpp:51-54); [x] is xs[i]. *)
Fixpoint bias_loop (n : nat) (x dV invPow : F) (pow : Z) : list F :=
  match n with
  | O => []
  | S n' => let x' := fpow (fpow x (fofz pow) + dV)%F invPow in (x' - x)%F :: bias_loop n' x' dV invPow pow
  end.
(** structured::bias_array (structured.cpp:43-55): the [size] elements of the
    array it fills. *)
Definition bias_array (size pow : Z) : res (list F) :=
  n <- iadd size 1 ;;
  if n <? 1 then UB BadArraySize
  else Ok (bias_loop (Z.to_nat size) f0 (f1 / fofz size)%F (f1 / fofz pow)%F pow).

(** The loop of apply_bias_symmetric (structured.cpp:76-79). *)
Fixpoint symmetric_loop (n : nat) (i L N : Z) (b dxs : list F) : res (list F) :=
  match n with
  | O => Ok dxs
  | S n' =>
      x <- vget b i ;;
      dxs1 <- vset dxs i (fofz L * x)%F ;;
      y <- vget dxs1 i ;;
      dxs2 <- vset dxs1 (N - 1 - i) y ;;
      symmetric_loop n' (i + 1) L N b dxs2
  end.
(** The loop of apply_bias_linear (structured.cpp:97-99). *)
Fixpoint linear_loop (n : nat) (i L N : Z) (b dxs : list F) : res (list F) :=
  match n with
  | O => Ok dxs
  | S n' =>
      x <- vget b (N - 1 - i) ;;
      dxs1 <- vset dxs i (fofz L * x)%F ;;
      linear_loop n' (i + 1) L N b dxs1
  end.

(** Storing new cell widths of one dimension and recalculating the centres
    (structured.cpp:75-81, 96-101). *)
Definition with_dxs (g : sgrid) (dim : Z) (f : list F -> res (list F)) : res sgrid :=
  dxs <- vget (sg_dxs g) dim ;;
  _ <- vget dxs 0 ;;
  dxs' <- f dxs ;;
  dxss <- vset (sg_dxs g) dim dxs' ;;
  xcss <- recalculate_xcs (sg_range g) (sg_starts g) dxss (sg_xcs g) dim ;;
  Ok (mkSgrid (sg_range g) (sg_starts g) (sg_widths g) dxss xcss).

(** structured::apply_bias_symmetric (structured.cpp:57-82); pow is converted to
    int when bias_array is called. *)
Definition apply_bias_symmetric (g : sgrid) (dim : Z) (pow : F) : res sgrid :=
  w <- vget (sg_widths g) dim ;;
  L <- ftoi (w / fofz 2)%F ;;
  N <- range_length (sg_range g) dim ;;
  if Z.rem N 2 =? 1 then Exn "qk::grid::structured::apply_bias_symmetric : Can only bias even grids."
  else
    let n := Z.quot N 2 in
    if n <? 0 then UB BadArraySize
    else
      p <- ftoi pow ;;
      b <- bias_array n p ;;
      with_dxs g dim (symmetric_loop (Z.to_nat n) 0 L N b).

(** structured::apply_bias_linear (structured.cpp:84-103). *)
Definition apply_bias_linear (g : sgrid) (dim : Z) (pow : F) : res sgrid :=
  w <- vget (sg_widths g) dim ;;
  L <- ftoi w ;;
  N <- range_length (sg_range g) dim ;;
  if N <? 0 then UB BadArraySize
  else
    p <- ftoi pow ;;
    b <- bias_array N p ;;
    with_dxs g dim (linear_loop (Z.to_nat N) 0 L N b).

(** structured::centroid, structured::dx (structured.cpp:105-131). *)
Definition structured_centroid (g : sgrid) (dim i : Z) : res F := x <- vget (sg_xcs g) dim ;; vget x i.
Definition structured_dx (g : sgrid) (dim i : Z) : res F := x <- vget (sg_dxs g) dim ;; vget x i.

End Grid.
Arguments sgrid F : clear implicits.
