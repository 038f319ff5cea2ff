(** * VarId: model of src/basis/basis.h, src/basis/volume_average.cpp,
    src/basis/face_basis.cpp and src/variable/variable_id.h. *)
From Coq Require Import ZArith List String Bool DecimalString.
From Verif Require Import Base.
Import ListNotations.
Open Scope Z_scope.

(** basis::basis: _name and _num_points (basis.h:73-74). *)
Record basis : Type := mkBasis {
  bs_name : string;
  bs_points : Z
}.

(** basis() (basis.h:16-21) and volume_average() (volume_average.cpp:8-12). *)
Definition basis_void : basis := mkBasis "void" 0.
Definition volume_average : basis := mkBasis "volume_average" 1.

(** face_basis: the base class part and the other members
    (face_basis.h:26-29). *)
Record face_basis : Type := mkFaceBasis {
  fb_basis : basis;
  fb_dims : Z;
  fb_per_dim : Z;
  fb_points : nat;                (* size of _normalized_face_points *)
  fb_weights : nat                (* size of _normalized_quadrature_weights *)
}.
(** face_basis() (face_basis.cpp:11-17). *)
Definition face_basis_default : face_basis := mkFaceBasis (mkBasis "face_basis" 0) 0 0 0 0.
(** face_basis::setup (face_basis.cpp:24-37); of the two vectors only the size
    is kept (the pushed values are constants). *)
Definition face_basis_setup (f : face_basis) (dims per : Z) : out face_basis :=
  let f1 := mkFaceBasis (fb_basis f) dims per (fb_points f) (fb_weights f) in
  liftr f1 (imul dims per) (fun n =>
  let f2 := mkFaceBasis (mkBasis (bs_name (fb_basis f)) n) dims per (fb_points f) (fb_weights f) in
  if negb (per =? 1)
  then Threw "qk::basis::face_basis::setup : Not yet setup for multiple points per dimensions." f2
  else Done (mkFaceBasis (fb_basis f2) dims per (S (fb_points f)) (S (fb_weights f)))).

(** operator< on basis (basis.h:45-54). *)
Definition basis_lt (a b : basis) : bool :=
  if String.ltb (bs_name a) (bs_name b) then true else bs_points a <? bs_points b.

(** operator== on basis (basis.h:56-64). *)
Definition basis_eqb (a b : basis) : bool :=
  if negb (String.eqb (bs_name a) (bs_name b)) then false else bs_points a =? bs_points b.

(** variable_id: _name, _basis, _component_names (variable_id.h:85-87). *)
Record vid : Type := mkVid {
  id_name : string;
  id_comps : list string;
  id_basis : basis
}.

(** == on std::vector<std::string> (used at variable_id.h:58, 74). *)
Fixpoint strings_eqb (a b : list string) : bool :=
  match a, b with
  | [], [] => true
  | x :: a', y :: b' => String.eqb x y && strings_eqb a' b'
  | _, _ => false
  end.

(** Message of both comparisons (variable_id.h:59, 75). *)
Definition mismatch_msg : string :=
  "qk::variable::variable_id::operator < : Shared variable name, but component mismatch.".

(** operator< on variable_id (variable_id.h:48-64). *)
Definition vid_lt (a b : vid) : res bool :=
  if String.ltb (id_name a) (id_name b) then Ok true
  else if String.ltb (id_name b) (id_name a) then Ok false
  else if negb (strings_eqb (id_comps a) (id_comps b)) then Exn mismatch_msg
  else Ok (basis_lt (id_basis a) (id_basis b)).

(** operator== on variable_id (variable_id.h:66-80). *)
Definition vid_eqb (a b : vid) : res bool :=
  if negb (String.eqb (id_name a) (id_name b)) then Ok false
  else if negb (strings_eqb (id_comps a) (id_comps b)) then Exn mismatch_msg
  else Ok (basis_eqb (id_basis a) (id_basis b)).

(** unique_tag (variable_id.h:39-42); the state is the static _tag. *)
Definition unique_tag (tag : Z) : res (Z * Z) :=
  tag' <- iadd tag 1 ;; Ok (tag, tag').

(** Decimal text of an int, as operator<< of a stream writes it
    (variable_id.h:33). *)
Definition show_int (z : Z) : string :=
  match z with
  | Zneg p => String.append "-" (NilEmpty.string_of_uint (Pos.to_uint p))
  | Zpos p => NilEmpty.string_of_uint (Pos.to_uint p)
  | Z0 => "0"
  end.

(** unique_clone (variable_id.h:28-37): the clone and the new tag. *)
Definition unique_clone (tag : Z) (v : vid) : res (vid * Z) :=
  t <- unique_tag tag ;;
  Ok (mkVid (String.append (id_name v) (String.append "_clone_" (show_int (fst t)))) (id_comps v) (id_basis v), snd t).
