(** * Arith: the operations on [double] the modelled code uses.

    The code computes with C++ doubles.  The model is written over an arbitrary
    carrier [F] with the operations below, so structural theorems (which cell
    receives which expression, what is left alone) hold for every arithmetic,
    IEEE doubles included.  Numeric identities are proved for the instance [R]
    of exact real arithmetic ([ArithR.v]); executable examples use [Z]-, [R]- or
    IEEE instances.  The class is not taken from a file of the repository; its
    members are the operators and library functions applied to doubles in
    src/solver, src/grid and src/spatial_solver/functions.h. *)
From Coq Require Import ZArith.
From Verif Require Import Base.

Class Arith (F : Type) : Type := {
  fadd : F -> F -> F;        (* a + b *)
  fsub : F -> F -> F;        (* a - b *)
  fmul : F -> F -> F;        (* a * b *)
  fdiv : F -> F -> F;        (* a / b *)
  fneg : F -> F;             (* -a *)
  flt : F -> F -> bool;      (* a < b *)
  fle : F -> F -> bool;      (* a <= b *)
  fofz : Z -> F;             (* int -> double *)
  fdec : Z -> Z -> F;        (* the literal m * 10^e *)
  ftoi : F -> res Z;         (* double -> int, truncation *)
  fabs : F -> F;             (* std::fabs *)
  fsqrt : F -> F;            (* std::sqrt *)
  fexp : F -> F;             (* std::exp *)
  fsin : F -> F;             (* std::sin *)
  fcos : F -> F;             (* std::cos *)
  ftanh : F -> F;            (* std::tanh *)
  fcosh : F -> F;            (* std::cosh *)
  fpow : F -> F -> F         (* std::pow *)
}.

Declare Scope F_scope.
Delimit Scope F_scope with F.
Infix "+" := fadd : F_scope.
Infix "-" := fsub : F_scope.
Infix "*" := fmul : F_scope.
Infix "/" := fdiv : F_scope.
Notation "- x" := (fneg x) : F_scope.
Infix "<?" := flt : F_scope.
Infix "<=?" := fle : F_scope.

(** 0. and 1., for example the value-initialised double of vector::resize and
    the values of the conversions in euler.cpp:121-123. *)
Definition f0 {F} `{Arith F} : F := fofz 0.
Definition f1 {F} `{Arith F} : F := fofz 1.
(** double(b) of a bool (euler.cpp:121-123). *)
Definition fofb {F} `{Arith F} (b : bool) : F := if b then f1 else f0.
