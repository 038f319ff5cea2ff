(** * VtkSpec: specification vocabulary for written files and printed text.

    A file is described section by section; the sections do not mention the
    loops of the writers. *)
From Coq Require Import ZArith List String Bool.
From Verif Require Import Base Arith BoxSpec VarId Manager MgrSpec Vtk.
Import ListNotations.
Open Scope Z_scope.

(** The end of a line: the character with code 10. *)
Definition newline : string := "
".

Section VtkSpec.
Context {F : Type} {A : Arith F}.

(** The values of component [j] on the mesh with the first coordinate running
    fastest, as VTK wants them: the row-major cells of the reversed box. *)
Definition vtk_values (M : box) (u : field F) (j : Z) : list F :=
  map (fun c => u (rev c ++ [0; j])) (cells (rev M)).

(** Position of a cell when the first coordinate runs fastest. *)
Fixpoint x_fastest (M : box) (c : list Z) : Z :=
  match M, c with
  | (l, u) :: M', x :: c' => (x - l) + (u - l) * x_fastest M' c'
  | _, _ => 0
  end.

(** Points along dimension [d]: one more than cells, 1 for a missing dimension. *)
Definition vtk_dim (M : box) (d : nat) : Z :=
  match nth_error M d with Some (l, u) => u - l + 1 | None => 1 end.

(** The section of component [j] called [c] of variable [k]. *)
Definition scalars (M : box) (k : vid) (u : field F) (jc : Z * string) : stream F :=
  [TText "SCALARS "; TText (id_name k); TText "."; TText (snd jc); TText (" float 1" ++ newline);
   TText "LOOKUP_TABLE default"; TText newline] ++
  flat_map (fun x => [TNum x; TText " "]) (vtk_values M u (fst jc)) ++ [TText newline].
(** The components of an id with their numbers. *)
Definition numbered (k : vid) : list (Z * string) :=
  combine (zrange 0 (Z.of_nat (List.length (id_comps k)))) (id_comps k).
(** All sections of a variable. *)
Definition var_section (M : box) (ku : vid * field F) : stream F :=
  flat_map (scalars M (fst ku) (snd ku)) (numbered (fst ku)).

(** The header with three points, an origin and a spacing. *)
Definition vtk_header (n : Z * Z * Z) (o h : F * F * F) (cells : Z) : stream F :=
  let '(nx, ny, nz) := n in let '(ox, oy, oz) := o in let '(hx, hy, hz) := h in
  [TText ("# vtk DataFile Version 2.0" ++ newline); TText ("quikin output" ++ newline); TText ("ASCII" ++ newline);
   TText ("DATASET STRUCTURED_POINTS" ++ newline);
   TText "DIMENSIONS "; TInt nx; TText " "; TInt ny; TText " "; TInt nz; TText newline;
   TText "ORIGIN "; TNum ox; TText " "; TNum oy; TText " "; TNum oz; TText newline;
   TText "SPACING "; TNum hx; TText " "; TNum hy; TText " "; TNum hz; TText newline;
   TText "CELL_DATA "; TInt cells; TText newline].

(** The lines that place the grid. *)
Definition geometry_lines (n : Z * Z * Z) (o h : nat -> F) : stream F :=
  let '(nx, ny, nz) := n in
  [TText ("DATASET STRUCTURED_POINTS" ++ newline);
   TText "DIMENSIONS "; TInt nx; TText " "; TInt ny; TText " "; TInt nz; TText newline;
   TText "ORIGIN "; TNum (o 0%nat); TText " "; TNum (o 1%nat); TText " "; TNum (o 2%nat); TText newline;
   TText "SPACING "; TNum (h 0%nat); TText " "; TNum (h 1%nat); TText " "; TNum (h 2%nat); TText newline].

(** The numbers in a text that is not the geometry: all of them. *)
Fixpoint numbers (s : stream F) : list F :=
  match s with [] => [] | TNum x :: s' => x :: numbers s' | _ :: s' => numbers s' end.

(** The whole file for the fields [W]. *)
Definition vtk_file (M : box) (o h : F * F * F) (W : list (vid * field F)) : stream F :=
  vtk_header (vtk_dim M 0, vtk_dim M 1, vtk_dim M 2) o h (prod_len M) ++ flat_map (var_section M) W.

(** The arrays of a grid have one entry per dimension. *)
Definition grid_fits (g : grid F) (M : box) : Prop :=
  List.length (gr_starts g) = List.length M /\ List.length (gr_widths g) = List.length M /\
  List.length (gr_dxs g) = List.length M.

(** The fields requested by a list of ids. *)
Definition asked (L : list (vid * field F)) (ks : list vid) : list (vid * field F) :=
  map (fun k => (k, field_or_zero L k)) ks.

(** The coordinates of a cell, separated by ", ". *)
Definition coords_text (c : list Z) : stream F := tl (flat_map (fun i => [TText ", "; TInt i]) c).
(** The lines print writes for one cell: its coordinates and its value. *)
Definition print_line (u : field F) (c : list Z) : stream F :=
  TText "Index (" :: coords_text c ++ [TText ") : "; TNum (u c); TText newline].
(** What print writes for one variable: every interior cell, row-major. *)
Definition print_section (M : box) (ku : vid * field F) : stream F :=
  [TText "Printing Variable '"; TText (id_name (fst ku)); TText ("'" ++ newline)] ++
  flat_map (print_line (snd ku)) (cells (M ++ comp_box (fst ku))).

End VtkSpec.
