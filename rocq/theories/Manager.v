(** * Manager: model of src/data/dataset.cpp, src/variable/variable.cpp
    (constructor), src/grid/grid.cpp, src/grid/rectilinear.cpp (constructor and
    accessors) and src/variable/variable_manager.cpp. *)
From Coq Require Import ZArith List String Bool.
From Verif Require Import Base Arith Range Indexer Interface Chunk VarId.
Import ListNotations.
Open Scope Z_scope.

Section Manager.
Context {F : Type} {A : Arith F}.

(** dataset: the base class indexer_interface<extended_datachunk> and its
    members (dataset.h:20, 48-52). *)
Record dataset : Type := mkDataset {
  ds_chunks : iface (echunk F);
  ds_basis : basis;
  ds_comp : range;        (* _data_range *)
  ds_mesh : range;        (* _mesh_range_global *)
  ds_local : range;       (* _mesh_range_local *)
  ds_layout : range       (* _chunk_range_global *)
}.

(** extrude(0,1) [n] times (dataset.cpp:71-73). *)
Fixpoint extrude_unit (n : nat) (r : range) : res range :=
  match n with
  | O => Ok r
  | S n' => r' <- range_extrude r 0 1 ;; extrude_unit n' r'
  end.

(** dataset(global_data_range, basis, num_components, num_ghost_layers)
    (dataset.cpp:23-29) with dataset::resize (dataset.cpp:51-82) on the fresh
    object.  The object is only handed out when construction succeeds, so the
    model gives no state for an exception. *)
Definition dataset_new (mesh : range) (b : basis) (ncomp g : Z) : res dataset :=
  gl <- range_copy mesh ;;
  c1 <- range_extrude range_empty 0 (bs_points b) ;;
  c2 <- range_extrude c1 0 ncomp ;;
  v <- range_volume gl ;;
  if 0 <? v then
    loc <- range_copy gl ;;
    lay <- extrude_unit (Z.to_nat (r_nd gl)) range_empty ;;
    lay' <- range_copy lay ;;
    match iface_resize (echunk_default) (mkIface range_empty []) lay' with
    | Done i =>
        e <- vget (if_data i) 0 ;;
        match echunk_resize e loc c2 g with
        | Done e' =>
            l <- vset (if_data i) 0 e' ;;
            Ok (mkDataset (mkIface (if_range i) l) b c2 gl loc lay)
        | Threw m _ => Exn m
        | Undef k => UB k
        | Spin => NoFuel
        end
    | Threw m _ => Exn m
    | Undef k => UB k
    | Spin => NoFuel
    end
  else Ok (mkDataset (mkIface range_empty []) b c2 gl range_empty range_empty).

(** dataset::sync (dataset.cpp:36-49). *)
Definition dataset_sync (d : dataset) : out dataset :=
  Threw "qk::data::dataset::sync : Function really doesn't work yet." d.

(** variable: dataset, _name and _component_names (variable.h:26, 54-55). *)
Record variable : Type := mkVar {
  v_ds : dataset;
  v_name : string;
  v_comps : list string
}.

(** variable(name, component_names, basis, global_mesh_range,
    num_ghost_layers) (variable.cpp:28-38); component_names.size() is converted
    to int. *)
Definition variable_new (name : string) (comps : list string) (b : basis) (mesh : range) (g : Z) : res variable :=
  d <- dataset_new mesh b (Z.of_nat (List.length comps)) g ;;
  Ok (mkVar d name comps).

(** grid::rectilinear: the base class range, _startxs, _widths (grid.h:17,
    43-44) and _dxs (rectilinear.h:32). *)
Record grid : Type := mkGrid {
  gr_range : range;
  gr_starts : list F;
  gr_widths : list F;
  gr_dxs : list F
}.

(** Copy of the first [n] elements of an array (loop of grid.cpp:40-44). *)
Fixpoint take_n (n : nat) (l : list F) : res (list F) :=
  match n with
  | O => Ok []
  | S n' => match l with
            | [] => UB OutOfBounds
            | x :: l' => r <- take_n n' l' ;; Ok (x :: r)
            end
  end.

(** The loop computing _dxs (rectilinear.cpp:28-30). *)
Fixpoint dx_loop (lo up : list Z) (ws : list F) : res (list F) :=
  match lo, up with
  | l :: lo', u :: up' =>
      match ws with
      | [] => UB OutOfBounds
      | w :: ws' =>
          n <- isub u l ;;
          r <- dx_loop lo' up' ws' ;;
          Ok (fdiv w (fofz n) :: r)
      end
  | _, _ => Ok []
  end.

(** rectilinear(range, startxs, widths) (rectilinear.cpp:24-31) with
    grid::setup (grid.cpp:34-45). *)
Definition grid_new (r : range) (starts widths : list F) : res grid :=
  r' <- range_copy r ;;
  ws <- take_n (Z.to_nat (r_nd r')) widths ;;
  ss <- take_n (Z.to_nat (r_nd r')) starts ;;
  ds <- dx_loop (r_lower r') (r_upper r') widths ;;
  Ok (mkGrid r' ss ws ds).

(** rectilinear::dx, grid::start, grid::width (rectilinear.cpp:93-102,
    grid.cpp:47-68). *)
Definition grid_dx (g : grid) (d : Z) : res F := vget (gr_dxs g) d.
Definition grid_start (g : grid) (d : Z) : res F := vget (gr_starts g) d.
Definition grid_width (g : grid) (d : Z) : res F := vget (gr_widths g) d.

(** variable_manager: _grid, _variables, _dt, _time
    (variable_manager.h:53-57); _dt and _time are uninitialised until set.  _grid
    is a reference: the grid has to outlive the manager and nothing may change it,
    which holds in all examples, so the model keeps a copy.

    _variables is a std::map.  The model keeps the pairs in order of insertion:
    nothing in the code depends on the order of iteration.  References to
    variables stay valid while others are inserted, so a reference is the
    position of the variable. *)
Record mgr : Type := mkMgr {
  mg_grid : grid;
  mg_vars : list (vid * variable);
  mg_dt : option F;
  mg_time : option F
}.

(** variable_manager(grid) (variable_manager.cpp:15-19). *)
Definition mgr_new (g : grid) : mgr := mkMgr g [] None None.

(** set_dt, set_time, dt, time (variable_manager.h:42-46). *)
Definition mgr_set_dt (m : mgr) (x : F) : mgr := mkMgr (mg_grid m) (mg_vars m) (Some x) (mg_time m).
Definition mgr_set_time (m : mgr) (x : F) : mgr := mkMgr (mg_grid m) (mg_vars m) (mg_dt m) (Some x).
Definition mgr_get_dt (m : mgr) : res F :=
  match mg_dt m with Some x => Ok x | None => UB Uninitialised end.
Definition mgr_get_time (m : mgr) : res F :=
  match mg_time m with Some x => Ok x | None => UB Uninitialised end.

(** std::map::find with operator< of variable_id (variable_manager.cpp:33, 36,
    47, 57, 98): the position of the stored key that is neither less nor greater.
    The comparison throws when a stored key has the same name and other
    components; the tree search meets such a key whenever there is one, since
    the keys with the searched name are adjacent.  Keys for which both a < b and
    b < a hold violate the requirements of std::map: undefined behaviour. *)
Fixpoint map_find (l : list (vid * variable)) (k : vid) : res (option nat) :=
  match l with
  | [] => Ok None
  | (k', _) :: l' =>
      a <- vid_lt k' k ;;
      b <- vid_lt k k' ;;
      if a && b then UB BadComparator
      else if negb a && negb b then Ok (Some 0%nat)
      else o <- map_find l' k ;;
           Ok (match o with Some n => Some (S n) | None => None end)
  end.

(** add_variable (variable_manager.cpp:54-61).  The right-hand side of the
    assignment is evaluated before the element is inserted, as C++17 requires.
    C++11, for which the code is compiled, leaves the order open: AddOrder.v has
    the other one. *)
Definition add_variable (m : mgr) (k : vid) : out mgr :=
  liftr m (map_find (mg_vars m) k) (fun o =>
  match o with
  | Some _ => Threw "qk::variable::variable_manager::add_variable : Variable already exists." m
  | None =>
      liftr m (variable_new (id_name k) (id_comps k) (id_basis k) (gr_range (mg_grid m)) 2) (fun v =>
      Done (mkMgr (mg_grid m) (mg_vars m ++ [(k, v)]) (mg_dt m) (mg_time m)))
  end).

(** output_variable (variable_manager.cpp:30-42), with the code [f] that uses
    the returned reference.  The exception constructed at line 38 is not
    thrown. *)
Definition with_output (m : mgr) (k : vid) (f : nat -> mgr -> out mgr) : out mgr :=
  liftr m (map_find (mg_vars m) k) (fun o =>
  match o with
  | Some n => f n m
  | None =>
      obind (add_variable m k) (fun m' =>
      liftr m' (map_find (mg_vars m') k) (fun o' =>
      match o' with
      | Some n => f n m'
      | None => Undef EndDeref
      end))
  end).

(** input_variable (variable_manager.cpp:44-52).  The exception constructed at
    line 49 is not thrown, end() is dereferenced. *)
Definition input_variable (m : mgr) (k : vid) : res nat :=
  o <- map_find (mg_vars m) k ;;
  match o with
  | Some n => Ok n
  | None => UB EndDeref
  end.

(** The variable a reference denotes; the map holds pointers to variables
    (variable_manager.h:54). *)
Definition var_at (m : mgr) (n : nat) : res variable :=
  match nth_error (mg_vars m) n with
  | Some (_, v) => Ok v
  | None => UB OutOfBounds
  end.
(** Replace the chunks of the variable a reference denotes (writes through the
    pointers of variable_manager.h:54). *)
Definition set_chunks (m : mgr) (n : nat) (i : iface (echunk F)) : mgr :=
  match nth_error (mg_vars m) n with
  | Some (k, v) =>
      let d := v_ds v in
      mkMgr (mg_grid m)
        (upd (mg_vars m) n (k, mkVar (mkDataset i (ds_basis d) (ds_comp d) (ds_mesh d) (ds_local d) (ds_layout d))
                                 (v_name v) (v_comps v)))
        (mg_dt m) (mg_time m)
  | None => m
  end.

(** var[chunk_idx] as a value and as a target (indexer_interface.h:98-108). *)
Definition get_chunk (m : mgr) (n : nat) (ix : indexer) : res (echunk F) :=
  v <- var_at m n ;; iface_get (ds_chunks (v_ds v)) ix.
Definition put_chunk (m : mgr) (n : nat) (ix : indexer) (e : echunk F) : res mgr :=
  v <- var_at m n ;; i <- iface_put (ds_chunks (v_ds v)) ix e ;; Ok (set_chunks m n i).

(** for(indexer i = var.indexer(); i.exists(); i.next()), the chunk loop of all
    solvers (for example bc_periodic.cpp:24); [n] is the variable traversed. *)
Definition for_chunks (fuel : nat) (n : nat) (body : indexer -> mgr -> out mgr) (m : mgr) : out mgr :=
  liftr m (v <- var_at m n ;; iface_indexer (ds_chunks (v_ds v)) (if_range (ds_chunks (v_ds v)))) (fun ix =>
  for_indexer fuel ix body m).

(** A chunk loop whose body changes the elements of the visited chunk only, for
    example bc_periodic.cpp:24-35 and fill.cpp:20-22. *)
Definition map_chunks (fuel : nat) (n : nat) (f : echunk F -> out (echunk F)) (m : mgr) : out mgr :=
  for_chunks fuel n (fun ix m =>
    liftr m (get_chunk m n ix) (fun e =>
    match f e with
    | Done e' => liftr m (put_chunk m n ix e') Done
    | Threw msg e' => liftr m (put_chunk m n ix e') (Threw msg)
    | Undef k => Undef k
    | Spin => Spin
    end)) m.

End Manager.
Arguments dataset F : clear implicits.
Arguments variable F : clear implicits.
Arguments grid F : clear implicits.
Arguments mgr F : clear implicits.
