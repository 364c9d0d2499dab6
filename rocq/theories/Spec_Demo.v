(** * Vocabulary for the demonstration scripts *)

From Coq Require Import Reals List Arith.
Local Open Scope R_scope.

(** time number [k] of a calculation with [m + 1] times over [a] and [n] further ones over [b], equally spaced each *)
Definition two_phases (m n : nat) (a b : R) (k : nat) : R :=
  if (k <=? m)%nat then INR k * a / INR m else a + INR (k - m) * b / INR n.

(** way of a train that stands until time [t0] and runs with speed [v] afterwards *)
Definition way (t0 v t : R) : R := v * Rmax 0 (t - t0).
