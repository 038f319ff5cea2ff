(** * ArithFloat: IEEE 754 binary64 arithmetic (round to nearest even) as an
    instance of [Arith], with the executable definitions of the standard library
    (Coq.Floats.SpecFloat).  Used to run the model on concrete doubles. *)
From Coq Require Import ZArith Floats.SpecFloat.
From Verif Require Import Base Arith.
Open Scope Z_scope.

(** m * 2^0 rounded to double. *)
Definition sf_of_Z (z : Z) : spec_float := binary_normalize 53 1024 z 0 false.
(** The literal m * 10^e, rounded to the nearest double ([literal_nearest] in
    RoundingFacts.v). *)
Definition sf_dec (m e : Z) : spec_float :=
  if 0 <=? e then sf_of_Z (m * 10 ^ e)
  else if m =? 0 then S754_zero false
  else let '(q, e', l) := SFdiv_core_binary 53 1024 (Z.abs m) 0 (10 ^ (- e)) 0 in
       binary_round_aux 53 1024 (m <? 0) q e' l.
(** Truncation to int; values that do not fit are undefined behaviour. *)
Definition sf_trunc (x : spec_float) : res Z :=
  match x with
  | S754_zero _ => Ok 0
  | S754_finite s m e =>
      let a := if 0 <=? e then Z.pos m * 2 ^ e else Z.pos m / 2 ^ (- e) in
      let v := if s then - a else a in
      conv v
  | _ => UB FloatToInt
  end.

(** The library functions exp, sin, cos, tanh, cosh and pow have no exact
    definition in IEEE 754; here they give NaN and no example depends on them. *)
#[export] Instance FloatArith : Arith spec_float := {
  fadd := SFadd 53 1024;
  fsub := SFsub 53 1024;
  fmul := SFmul 53 1024;
  fdiv := SFdiv 53 1024;
  fneg := SFopp;
  flt := SFltb;
  fle := SFleb;
  fofz := sf_of_Z;
  fdec := sf_dec;
  ftoi := sf_trunc;
  fabs := SFabs;
  fsqrt := SFsqrt 53 1024;
  fexp := fun _ => S754_nan;
  fsin := fun _ => S754_nan;
  fcos := fun _ => S754_nan;
  ftanh := fun _ => S754_nan;
  fcosh := fun _ => S754_nan;
  fpow := fun _ _ => S754_nan
}.

Example dec_exact : sf_dec 25 (-2) = SFdiv 53 1024 (sf_of_Z 1) (sf_of_Z 4).
Proof. vm_compute. reflexivity. Qed.
(** 10^23 is no double: dividing 1 by the nearest one does not give 1e-23. *)
Example dec_rounded : sf_dec 1 (-23) <> SFdiv 53 1024 (sf_of_Z 1) (sf_of_Z (10 ^ 23)).
Proof. vm_compute. discriminate. Qed.
