(** * MainSpec: what an example program should leave on the disk. *)
From Coq Require Import ZArith List String Bool DecimalString.
From Verif Require Import Base BoxSpec Arith Chunk FieldSpec VarId Manager MgrSpec Vtk VtkSpec ProgramsSpec.
Import ListNotations.
Open Scope Z_scope.

(** A number in decimal notation. *)
Definition decimal (k : nat) : string := NilZero.string_of_uint (N.to_uint (N.of_nat k)).
(** The name of file number [k]. *)
Definition frame (dir : string) (k : nat) : string := (dir ++ "/frame_" ++ decimal k ++ ".vtk")%string.

(** The first [n] files, with what [content] says. *)
Definition saved {F} (dir : string) (content : nat -> stream F) (n : nat) : list (string * stream F) :=
  map (fun k => (frame dir k, content k)) (seq 0 n).
(** The program, given which files can be created, writes [n] files, and stops with
    an exception at the first that cannot be created. *)
Definition saves {F} (P : (string -> bool) -> out (list (string * stream F))) (dir : string) (content : nat -> stream F) (n : nat) : Prop :=
  forall opens,
    ((forall k, (k < n)%nat -> opens (frame dir k) = true) -> P opens = Done (saved dir content n)) /\
    (forall k, (k < n)%nat -> opens (frame dir k) = false -> (forall j, (j < k)%nat -> opens (frame dir j) = true) ->
       P opens = Threw ("qk::solver:advection::write_VTK : File '" ++ frame dir k ++ "' could not be created") (saved dir content k)).

(** Ids with the fields of a system. *)
Definition fields_of {F} (ks : list vid) (U : nat -> field F) : list (vid * field F) := combine ks (map U (seq 0 (List.length ks))).
(** File number [k] of a program whose unknowns have the values [U n] after [n]
    steps, [s] steps between two files. *)
Definition movie {F} (M : box) (o h : F * F * F) (ks : list vid) (U : nat -> nat -> field F) (s k : nat) : stream F :=
  vtk_file M o h (fields_of ks (U (s * k)%nat)).

(** Reading a file back.  The numbers up to the end of a line: each is followed by
    a separator. *)
Fixpoint reading {F} (s : stream F) : list F :=
  match s with TNum x :: TText _ :: s' => x :: reading s' | _ => [] end.
(** Does the section of component [c] of variable [v] begin here? *)
Definition heading {F} (v c : string) (s : stream F) : bool :=
  match s with
  | TText a :: TText b :: TText d :: TText e :: _ => String.eqb a "SCALARS " && String.eqb b v && String.eqb d "." && String.eqb e c
  | _ => false
  end.
(** The numbers of the first section of [v.c]; the heading takes two lines. *)
Fixpoint column {F} (v c : string) (s : stream F) : list F :=
  match s with [] => [] | _ :: s' => if heading v c s then reading (skipn 7 s) else column v c s' end.
