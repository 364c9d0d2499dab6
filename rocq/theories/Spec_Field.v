(** * Expectations of functions of a normally distributed quantity *)

From Coq Require Import Reals.
Local Open Scope R_scope.

(** [F] has the derivative [f] everywhere *)
Definition antiderivative_of (F f : R -> R) : Prop := forall x, derivable_pt_lim F x (f x).
Definition tends_right (F : R -> R) (l : R) : Prop := forall eps, 0 < eps -> exists M, forall x, M <= x -> Rabs (F x - l) < eps.
Definition tends_left (F : R -> R) (l : R) : Prop := tends_right (fun x => F (- x)) l.
(** the integral of [f] over the real line is [v] *)
Definition total (f : R -> R) (v : R) : Prop := exists F L U, antiderivative_of F f /\ tends_left F L /\ tends_right F U /\ v = U - L.

(** the density of the normal distribution, up to a factor; [var] is the variance *)
Definition bell (mu var x : R) : R := exp (- ((x - mu) * (x - mu)) / (2 * var)).
(** [e] is the expectation of [g X] for a normal [X] with mean [mu] and variance [var] *)
Definition expectation (mu var : R) (g : R -> R) (e : R) : Prop :=
  exists I, 0 < I /\ total (bell mu var) I /\ total (fun x => g x * bell mu var x) (e * I).
