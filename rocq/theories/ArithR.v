(** * ArithR: exact real arithmetic as an instance of [Arith].

    Not taken from the repository: the instance in which numeric identities are
    proved.  The reals of the standard library; comparisons use the decision
    procedure of the library. *)
From Coq Require Import ZArith Reals Lra.
From Verif Require Import Base Arith.
Open Scope R_scope.

Definition Rltb (a b : R) : bool := if Rlt_dec a b then true else false.
Definition Rleb (a b : R) : bool := if Rle_dec a b then true else false.

(** Truncation towards zero. *)
Definition Rtrunc (x : R) : Z := if Rle_dec 0 x then Int_part x else Z.opp (Int_part (- x)).

(** m * 10^e. *)
Definition Rdecimal (m e : Z) : R :=
  match e with
  | Z0 => IZR m
  | Zpos p => IZR (m * 10 ^ Zpos p)
  | Zneg p => IZR m / IZR (10 ^ Zpos p)
  end.

(** std::pow on the arguments the code uses: a positive base, or an exponent
    that is not negative. *)
Definition Rpow (x y : R) : R :=
  if Rlt_dec 0 x then Rpower x y
  else if Req_EM_T y 0 then 1
  else if Req_EM_T x 0 then 0
  else match Z.even (Int_part y) with
       | true => Rpower (- x) y
       | false => - Rpower (- x) y
       end.

Global Instance RArith : Arith R := {
  fadd := Rplus; fsub := Rminus; fmul := Rmult; fdiv := Rdiv; fneg := Ropp;
  flt := Rltb; fle := Rleb; fofz := IZR; fdec := Rdecimal;
  ftoi x := conv (Rtrunc x);
  fabs := Rabs; fsqrt := sqrt; fexp := exp; fsin := sin; fcos := cos;
  ftanh := tanh; fcosh := cosh; fpow := Rpow
}.

Lemma Rltb_iff : forall a b, Rltb a b = true <-> a < b.
Proof. intros. unfold Rltb. destruct (Rlt_dec a b); split; intros; auto; discriminate. Qed.
Lemma Rleb_iff : forall a b, Rleb a b = true <-> a <= b.
Proof. intros. unfold Rleb. destruct (Rle_dec a b); split; intros; auto; discriminate. Qed.
Lemma Rltb_not : forall a b, Rltb a b = false <-> b <= a.
Proof. intros. unfold Rltb. destruct (Rlt_dec a b); split; intros; auto; try discriminate; lra. Qed.
Lemma Rleb_not : forall a b, Rleb a b = false <-> b < a.
Proof. intros. unfold Rleb. destruct (Rle_dec a b); split; intros; auto; try discriminate; lra. Qed.
