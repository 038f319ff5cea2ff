(** * Vtk: model of the VTK writers (src/grid/rectilinear.cpp,
    src/data/datachunk.cpp, src/variable/variable.cpp,
    src/variable/variable_manager.cpp) and of src/solver/print.cpp.

    A stream is the list of what has been inserted into it, one element per
    operator<<.  The text an int or a double is printed as is not modelled: the
    element keeps the value.  std::endl is the same as "\n". *)
From Coq Require Import ZArith List String Bool Ascii.
From Verif Require Import Base Arith Range Indexer Interface Chunk VarId Manager.
Import ListNotations.
Open Scope Z_scope.

(** The newline inserted by "\n", '\n' and std::endl (for example
    rectilinear.cpp:59-62, print.cpp:22, 38). *)
Definition eol : string := String (ascii_of_nat 10) EmptyString.

Section Vtk.
Context {F : Type} {A : Arith F}.

(** One operator<< of a stream: text, int or double (for example
    rectilinear.cpp:59-61). *)
Inductive tok : Type :=
| TText (s : string)
| TInt (z : Z)
| TNum (x : F).

(** The contents of a stream so far (for example file in rectilinear.cpp:59-62). *)
Definition stream : Type := list tok.
(** file << a << b << ...: (for example rectilinear.cpp:59). *)
Definition put (l : list tok) (s : stream) : stream := s ++ l.

(** length(d) + 1 if the grid has more than [d] dimensions, else 1
    (rectilinear.cpp:44-47). *)
Definition vtk_points (g : grid F) (d : Z) : res Z :=
  if d <? r_nd (gr_range g) then n <- range_length (gr_range g) d ;; iadd n 1 else Ok 1.
(** start + width / 2 if the grid has more than [d] dimensions, else 0
    (rectilinear.cpp:49-52). *)
Definition vtk_origin (g : grid F) (d : Z) : res F :=
  if d <? r_nd (gr_range g) then
    s <- vget (gr_starts g) d ;; w <- vget (gr_widths g) d ;; Ok (s + w / fofz 2)%F
  else Ok f0.
(** _dxs[d] if the grid has more than [d] dimensions, else [x]
    (rectilinear.cpp:54-57). *)
Definition vtk_spacing (g : grid F) (d : Z) (x : F) : res F :=
  if d <? r_nd (gr_range g) then vget (gr_dxs g) d else Ok x.

(** rectilinear::write_vtk (rectilinear.cpp:38-69). *)
Definition grid_write_vtk (g : grid F) (b : basis) (s : stream) : out stream :=
  if basis_eqb b volume_average then
    liftr s (
      nx <- vtk_points g 0 ;; ny <- vtk_points g 1 ;; nz <- vtk_points g 2 ;;
      cx <- vtk_origin g 0 ;; cy <- vtk_origin g 1 ;; cz <- vtk_origin g 2 ;;
      sx <- vtk_spacing g 0 f0 ;; sy <- vtk_spacing g 1 sx ;; sz <- vtk_spacing g 2 sx ;;
      Ok [TText ("DATASET STRUCTURED_POINTS" ++ eol);
          TText "DIMENSIONS "; TInt nx; TText " "; TInt ny; TText " "; TInt nz; TText eol;
          TText "ORIGIN "; TNum cx; TText " "; TNum cy; TText " "; TNum cz; TText eol;
          TText "SPACING "; TNum sx; TText " "; TNum sy; TText " "; TNum sz; TText eol])
    (fun l => Done (put l s))
  else Threw "qk::grid::rectilinear::write_vtk : Basis not allowed (i.e. not setup yet)." s.

(** for(index = i; index < upper; index++) body (datachunk.cpp:46, 48, 50);
    [n] is the number of iterations left.  index never exceeds upper, so index++
    cannot overflow. *)
Fixpoint index_loop (n : nat) (i : Z) (body : Z -> stream -> out stream) (s : stream) : out stream :=
  match n with
  | O => Done s
  | S n' => obind (body i s) (fun s' => index_loop n' (i + 1) body s')
  end.
(** The loop over index[d] from range.lower(d) to range.upper(d)
    (datachunk.cpp:46, 48, 50). *)
Definition dim_loop (r : range) (d : Z) (body : Z -> stream -> out stream) (s : stream) : out stream :=
  liftr s (range_lower r d) (fun l =>
  liftr s (range_upper r d) (fun u =>
  index_loop (Z.to_nat (u - l)) l body s)).
(** base + (index[d] - lower(d)) * stride(d) (datachunk.cpp:47, 49, 51). *)
Definition vtk_pos (r : range) (base d i : Z) : res Z :=
  l <- range_lower r d ;; k <- isub i l ;; st <- range_stride r d ;; m <- imul k st ;; iadd base m.

(** The innermost loop (datachunk.cpp:50-52, 60-62, 67-69). *)
Definition x_loop (i : iface F) (r : range) (base : Z) (s : stream) : out stream :=
  dim_loop r 0 (fun x s =>
    liftr s (p <- vtk_pos (if_range i) base 0 x ;; vget (if_data i) p) (fun v =>
    Done (put [TNum v; TText " "] s))) s.
(** The loop over index[1] (datachunk.cpp:48-53, 58-63). *)
Definition y_loop (i : iface F) (r : range) (base : Z) (s : stream) : out stream :=
  dim_loop r 1 (fun y s => liftr s (vtk_pos (if_range i) base 1 y) (fun p => x_loop i r p s)) s.
(** The loop over index[2] (datachunk.cpp:46-54). *)
Definition z_loop (i : iface F) (r : range) (base : Z) (s : stream) : out stream :=
  dim_loop r 2 (fun z s => liftr s (vtk_pos (if_range i) base 2 z) (fun p => y_loop i r p s)) s.

(** datachunk::write_VTK (datachunk.cpp:34-74). *)
Definition chunk_write_vtk (c : chunk F) (r : range) (s : stream) : out stream :=
  let s1 := put [TText "LOOKUP_TABLE default"; TText eol] s in
  liftr s1 (d <- isub (r_nd r) 1 ;; range_lower r d) (fun off =>
  obind (if r_nd (ck_mesh c) =? 3 then z_loop (ck_if c) r off s1
         else if r_nd (ck_mesh c) =? 2 then y_loop (ck_if c) r off s1
         else if r_nd (ck_mesh c) =? 1 then x_loop (ck_if c) r off s1
         else Done s1) (fun s2 =>
  Done (put [TText eol] s2))).

(** The loop body of variable::write_vtk (variable.cpp:53-71); the state is the
    stream and single_chunk.  internal_range (lines 55-56) is computed but not
    used. *)
Definition vtk_chunk (v : variable F) (i : Z) (ix : indexer) (st : stream * bool) : out (stream * bool) :=
  liftr st (iface_get (ds_chunks (v_ds v)) ix) (fun e =>
  liftr st (
    r <- range_copy (ec_internal e) ;; d <- isub (r_nd r) 1 ;; i1 <- iadd i 1 ;; _ <- range_set r d i i1 ;;
    r' <- range_copy (ec_internal e) ;; range_set r' d i i1) (fun r =>
  obind (omap (fun s => (s, snd st)) (chunk_write_vtk (ec_chunk e) r (fst st))) (fun st' =>
  if snd st' then Done (fst st', false)
  else Threw "qk::variable::variable::write_vtk : Writer currently limited to a single chunk." st'))).

(** The component loop (variable.cpp:44-73); [i] counts the components done. *)
Fixpoint vtk_comps (fuel : nat) (v : variable F) (i : Z) (cs : list string) (s : stream) : out stream :=
  match cs with
  | [] => Done s
  | c :: cs' =>
      let s1 := put [TText "SCALARS "; TText (v_name v); TText "."; TText c; TText (" float 1" ++ eol)] s in
      obind (
        liftr s1 (iface_indexer (ds_chunks (v_ds v)) (if_range (ds_chunks (v_ds v)))) (fun ix =>
        omap fst (for_indexer fuel ix (vtk_chunk v i) (s1, true)))) (fun s2 =>
      vtk_comps fuel v (i + 1) cs' s2)
  end.

(** variable::write_vtk (variable.cpp:40-81). *)
Definition variable_write_vtk (fuel : nat) (v : variable F) (s : stream) : out stream :=
  if basis_eqb (ds_basis (v_ds v)) volume_average then vtk_comps fuel v 0 (v_comps v) s
  else Threw "qk::variable::variable::write_vtk : Basis not yet supported." s.

(** The basis test of variable_manager::write_vtk (variable_manager.cpp:71-76). *)
Fixpoint same_basis (b : basis) (ks : list vid) : bool :=
  match ks with
  | [] => true
  | k :: ks' => if negb (basis_eqb b (id_basis k)) then false else same_basis b ks'
  end.

(** The loop over the requested variables (variable_manager.cpp:97-105). *)
Fixpoint vtk_vars (fuel : nat) (m : mgr F) (ks : list vid) (s : stream) : out stream :=
  match ks with
  | [] => Done s
  | k :: ks' =>
      liftr s (map_find (mg_vars m) k) (fun o =>
      match o with
      | None => Threw ("qk::variable::variable_manager::write_VTK : Variable '" ++ id_name k ++ "' does not exist.") s
      | Some n =>
          liftr s (var_at m n) (fun v =>
          obind (variable_write_vtk fuel v s) (fun s' => vtk_vars fuel m ks' s'))
      end)
  end.

(** variable_manager::write_vtk (variable_manager.cpp:63-110).  The result is the
    contents of the file, [None] as long as none has been opened; [created] tells
    whether the file could be created.  Later failures of the stream are not
    checked by the code and not modelled. *)
Definition manager_write_vtk (fuel : nat) (created : bool) (filename : string) (m : mgr F) (ks : list vid) : out (option stream) :=
  match ks with
  | [] => Done None
  | k :: _ =>
      if negb (same_basis (id_basis k) ks) then
        Threw "qk::variable::variable_manager::write_VTK : Current limitation - all variables must share a basis." None
      else if negb created then
        Threw ("qk::solver:advection::write_VTK : File '" ++ filename ++ "' could not be created") None
      else
        omap Some (
        let s := [TText ("# vtk DataFile Version 2.0" ++ eol); TText ("quikin output" ++ eol); TText ("ASCII" ++ eol)] in
        obind (grid_write_vtk (mg_grid m) (id_basis k) s) (fun s =>
        liftr s (range_volume (gr_range (mg_grid m))) (fun vol =>
        vtk_vars fuel m ks (put [TText "CELL_DATA "; TInt vol; TText eol] s))))
  end.

(** "(i, j, ...)" (print.cpp:32-37); [l] are the index entries still to print. *)
Fixpoint print_index (l : list Z) : list tok :=
  match l with
  | [] => []
  | [i] => [TInt i]
  | i :: l' => TInt i :: TText ", " :: print_index l'
  end.

(** print::solve (print.cpp:14-45): the manager, which gets the variables that are
    missing, and the text written to std::cout.  The variable output_variable
    returns a reference to is looked up again. *)
Fixpoint print_solve (fuel : nat) (ins : list vid) (m : mgr F) (s : stream) : out (mgr F * stream) :=
  match ins with
  | [] => Done (m, s)
  | k :: ins' =>
      match with_output m k (fun _ m' => Done m') with
      | Threw msg m' => Threw msg (m', s)
      | Undef u => Undef u
      | Spin => Spin
      | Done m' =>
          liftr (m', s) (n <- input_variable m' k ;; var_at m' n) (fun v =>
          let s1 := put [TText "Printing Variable '"; TText (v_name v); TText ("'" ++ eol)] s in
          obind (omap (pair m') (
            liftr s1 (iface_indexer (ds_chunks (v_ds v)) (if_range (ds_chunks (v_ds v)))) (fun cix =>
            for_indexer fuel cix (fun cix s =>
              liftr s (iface_get (ds_chunks (v_ds v)) cix) (fun e =>
              liftr s (iface_indexer (ec_if e) (ec_internal e)) (fun ix =>
              for_indexer fuel ix (fun ix s =>
                let s' := put (TText "Index (" :: print_index (ix_idx ix)) s in
                liftr s' (iface_get (ec_if e) ix) (fun x =>
                Done (put [TText ") : "; TNum x; TText eol] s'))) s))) s1)))
          (fun ms => print_solve fuel ins' (fst ms) (snd ms)))
      end
  end.

End Vtk.
Arguments tok F : clear implicits.
Arguments stream F : clear implicits.
