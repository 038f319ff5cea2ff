(** * Dataset: default construction of datasets and variables and
    dataset::resize on an existing object (src/data/dataset.cpp:17-21, 51-82,
    src/variable/variable.cpp:17-21). *)
From Coq Require Import ZArith List String Bool.
From Verif Require Import Base Arith Range Indexer Interface Chunk VarId Manager.
Import ListNotations.
Open Scope Z_scope.

Section Dataset.
Context {F : Type} {A : Arith F}.

(** The members of a dataset before the body of a constructor runs
    (dataset.cpp:17-18, dataset.h:48-52, basis.h:16-21). *)
Definition dataset_blank : dataset F :=
  mkDataset (mkIface range_empty []) basis_void range_empty range_empty range_empty range_empty.

(** dataset::resize (dataset.cpp:51-82).  this->data()[0] is resized where it
    stands; global_range is not the member _mesh_range_global. *)
Definition dataset_resize (mesh : range) (b : basis) (ncomp g : Z) (d : dataset F) : out (dataset F) :=
  let d1 := mkDataset (ds_chunks d) b (ds_comp d) (ds_mesh d) (ds_local d) (ds_layout d) in
  liftr d1 (range_copy mesh) (fun gl =>
  let d2 := mkDataset (ds_chunks d) b range_empty gl (ds_local d) (ds_layout d) in
  liftr d2 (range_extrude range_empty 0 (bs_points b)) (fun c1 =>
  let d3 := mkDataset (ds_chunks d) b c1 gl (ds_local d) (ds_layout d) in
  liftr d3 (range_extrude c1 0 ncomp) (fun c2 =>
  let d4 := mkDataset (ds_chunks d) b c2 gl (ds_local d) (ds_layout d) in
  liftr d4 (range_volume gl) (fun v =>
  if 0 <? v then
    liftr d4 (range_copy gl) (fun loc =>
    let d5 := mkDataset (ds_chunks d) b c2 gl loc (ds_layout d) in
    liftr d5 (extrude_unit (Z.to_nat (r_nd gl)) range_empty) (fun lay =>
    let with_chunks i := mkDataset i b c2 gl loc lay in
    liftr (with_chunks (ds_chunks d)) (range_copy lay) (fun lay' =>
    obind (omap with_chunks (iface_resize echunk_default (ds_chunks d) lay')) (fun d6 =>
    liftr d6 (vget (if_data (ds_chunks d6)) 0) (fun e =>
    let with_first e' := with_chunks (mkIface (if_range (ds_chunks d6)) (upd (if_data (ds_chunks d6)) 0 e')) in
    omap with_first (echunk_resize e loc c2 g))))))
  else Done d4)))).

(** dataset() (dataset.cpp:17-21). *)
Definition dataset_default : out (dataset F) := dataset_resize range_empty basis_void 1 2 dataset_blank.

(** variable() (variable.cpp:17-21). *)
Definition variable_default : out (variable F) :=
  match dataset_default with
  | Done d => Done (mkVar d "void" [])
  | Threw m d => Threw m (mkVar d "void" [])
  | Undef k => Undef k
  | Spin => Spin
  end.

End Dataset.
