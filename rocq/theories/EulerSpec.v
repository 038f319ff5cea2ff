(** * EulerSpec: gas dynamics and electromagnetism in exact arithmetic. *)
From Coq Require Import ZArith List Reals.
Import ListNotations.
Open Scope R_scope.

(** A state of the Euler equations: density, three momenta, energy. *)
Definition density (q : list R) : R := nth 0 q 0.
Definition momentum (d : nat) (q : list R) : R := nth (S d) q 0.
Definition energy (q : list R) : R := nth 4 q 0.
Definition velocity (d : nat) (q : list R) : R := momentum d q / density q.
Definition kinetic (q : list R) : R := (momentum 0 q ^ 2 + momentum 1 q ^ 2 + momentum 2 q ^ 2) / (2 * density q).
Definition pressure (gamma : R) (q : list R) : R := (gamma - 1) * (energy q - kinetic q).
Definition sound (gamma : R) (q : list R) : R := sqrt (gamma * pressure gamma q / density q).

(** The flux of the Euler equations along dimension [d]. *)
Definition euler_phys (gamma : R) (d : nat) (q : list R) : list R :=
  let v := velocity d q in
  let P := pressure gamma q in
  [momentum d q;
   momentum 0 q * v + (if Nat.eqb d 0 then P else 0);
   momentum 1 q * v + (if Nat.eqb d 1 then P else 0);
   momentum 2 q * v + (if Nat.eqb d 2 then P else 0);
   (energy q + P) * v].

(** The slowest wave of the left state and the fastest of the right state. *)
Definition left_speed (gamma : R) (d : nat) (l : list R) : R := velocity d l - sound gamma l.
Definition right_speed (gamma : R) (d : nat) (r : list R) : R := velocity d r + sound gamma r.

(** The average of Harten, Lax and van Leer for component [j]. *)
Definition hll_average (sl sr : R) (fl fr l r : list R) (j : nat) : R :=
  (sr * nth j fl 0 - sl * nth j fr 0 + sl * sr * (nth j r 0 - nth j l 0)) / (sr - sl).

(** Physical states. *)
Definition admissible (gamma : R) (q : list R) : Prop :=
  length q = 5%nat /\ 0 < gamma /\ 0 < density q /\ 0 < pressure gamma q.

(** The permutation symbol of three dimensions. *)
Definition levi (i j k : nat) : R := (INR i - INR j) * (INR j - INR k) * (INR k - INR i) / 2.

(** The flux along dimension [d] of dE/dt = c^2 curl B, dB/dt = - curl E, where
    [q] holds E and then B: component [k] of E, component [k] of B. *)
Definition curl_E (c : R) (d k : nat) (q : list R) : R :=
  - (c * c) * (levi k d 0 * nth 3 q 0 + levi k d 1 * nth 4 q 0 + levi k d 2 * nth 5 q 0).
Definition curl_B (d k : nat) (q : list R) : R :=
  levi k d 0 * nth 0 q 0 + levi k d 1 * nth 1 q 0 + levi k d 2 * nth 2 q 0.
Definition curl_flux (c : R) (d : nat) (q : list R) : list R :=
  [curl_E c d 0 q; curl_E c d 1 q; curl_E c d 2 q; curl_B d 0 q; curl_B d 1 q; curl_B d 2 q].
