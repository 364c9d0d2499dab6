(** * Vocabulary for statements about a force moving along a beam on an elastic foundation *)

From Coq Require Import Reals List.
From Coquelicot Require Import Complex.
From Verif Require Import Num Spec_Analytic.
Import ListNotations.
Local Open Scope R_scope.

(** [w n] is the n-th derivative in [x] of a deflection [w 0 x t] of a beam without load on a foundation of stiffness [k] *)
Definition foundation_piece (EI rho k : R) (w : nat -> R -> R -> R) : Prop :=
  (forall n t, derivative (fun x => w n x t) (fun x => w (S n) x t)) /\
  exists v a : R -> R -> R, (forall x, derivative (w 0%nat x) (v x)) /\ (forall x, derivative (v x) (a x)) /\
    forall x t, EI * w 4%nat x t + rho * a x t + k * w 0%nat x t = 0.

(** the function tends to zero to the left, to the right *)
Definition dies_left (f : R -> R) : Prop := forall eps, 0 < eps -> exists X, forall x, x < X -> Rabs (f x) < eps.
Definition dies_right (f : R -> R) : Prop := forall eps, 0 < eps -> exists X, forall x, X < x -> Rabs (f x) < eps.

(** the deflection left of the force, between the force and the change of stiffness at zero, and right of that, of an endless beam on a
    foundation of stiffness [k1] left and [k2] right of zero under a force [P] at [v t]: no load left and right of the
    force; at the force deflection, slope and moment are continuous and the shear force jumps by [P]; at the change of stiffness
    deflection, slope, moment and shear force are continuous; far away nothing moves; the beam is at rest long before the force comes *)
Definition approaching_pieces (EI rho k1 k2 P v : R) (wl wm wr : nat -> R -> R -> R) : Prop :=
  foundation_piece EI rho k1 wl /\ foundation_piece EI rho k1 wm /\ foundation_piece EI rho k2 wr /\
  (forall t n, (n < 3)%nat -> wl n (v * t) t = wm n (v * t) t) /\
  (forall t, EI * (wm 3%nat (v * t) t - wl 3%nat (v * t) t) = P) /\
  (forall t n, (n < 4)%nat -> wm n 0 t = wr n 0 t) /\
  (forall t, dies_left (fun x => wl 0%nat x t) /\ dies_right (fun x => wr 0%nat x t)) /\
  (forall x, dies_left (wm 0%nat x) /\ dies_left (wr 0%nat x)).

(** [u x t] is the deflection of that beam at [x] and a time [t < 0], before the force reaches the change of stiffness *)
Definition approaching (EI rho k1 k2 P v : R) (u : R -> R -> R) : Prop :=
  exists wl wm wr : nat -> R -> R -> R, approaching_pieces EI rho k1 k2 P v wl wm wr /\
    forall x t, t < 0 -> u x t = if Rle_dec x (v * t) then wl 0%nat x t else if Rle_dec x 0 then wm 0%nat x t else wr 0%nat x t.

(** a beam with bending stiffness [E I] and mass [rho] per length on foundations of stiffness [k1] and [k2] and a force that is slower
    than the slowest free waves of either: [rho^2 v^4 < 4 k E I] *)
Definition slow_enough (E I rho k1 k2 v : R) : Prop :=
  0 < E /\ 0 < I /\ 0 < rho /\ 0 < k1 /\ 0 < k2 /\ 0 < v /\ rho ^ 2 * v ^ 4 < 4 * k1 * (E * I) /\ rho ^ 2 * v ^ 4 < 4 * k2 * (E * I).

(** row [i], column [j] of a table *)
Definition row_column (rows : list (list R)) (i j : nat) : option R := match nth_error rows i with Some r => nth_error r j | None => None end.

(** complex numbers are pairs of the real and the imaginary part; the derivative of a complex function of a real variable *)
Definition cderivative (f g : R -> C) : Prop :=
  derivative (fun x => fst (f x)) (fun x => fst (g x)) /\ derivative (fun x => snd (f x)) (fun x => snd (g x)).

(** the Laplace transform in time, at [s], of a deflection without dimension of a beam on a foundation of stiffness [k]: [U n] is its n-th derivative;
    [start] and [velocity] are the deflection and its velocity at time zero, [load] is the transformed load *)
Definition transformed_piece (s : C) (k : R) (start velocity : R -> R) (load : R -> C) (U : nat -> R -> C) : Prop :=
  (forall n, cderivative (U n) (U (S n))) /\
  forall x, (U 4%nat x + (RtoC k + s * s) * U 0%nat x = s * RtoC (start x) + RtoC (velocity x) + load x)%C.

(** the transform of a force [F] at the place [alpha t] at times [t > 0] *)
Definition passing_force (F alpha : R) (s : C) (x : R) : C :=
  let z := (- s * RtoC (x / alpha))%C in Cmult (RtoC (F / alpha)) (exp (fst z) * cos (snd z), exp (fst z) * sin (snd z)).

(** a complex function tends to zero *)
Definition cdies_left (f : R -> C) : Prop := dies_left (fun x => fst (f x)) /\ dies_left (fun x => snd (f x)).
Definition cdies_right (f : R -> C) : Prop := dies_right (fun x => fst (f x)) /\ dies_right (fun x => snd (f x)).

(** [s] is none of the zeros of the denominators in the transformed solution; [a4] is the fourth power of the speed without dimension,
    [ratio] that of the stiffnesses.  (The last polynomial belongs to the denominator with the other sign.)  No positive number is
    such a zero *)
Definition no_pole (a4 ratio : R) (s : C) : Prop :=
  (s * s * (s * s) + RtoC a4 * (s * s) + RtoC a4 <> 0)%C /\
  (s * s * (s * s) + RtoC a4 * (s * s) + RtoC (a4 * ratio) <> 0)%C /\
  ((2 + s * s) * (2 + s * s) - RtoC a4 * (2 + s * s) + RtoC a4 <> 0)%C.

(** the inverse of a Laplace transform with real part [U] after Dubner and Abate: [nb] terms, half period [T] *)
Definition inverse_series (nb : nat) (a T : R) (U : C -> R) (t : R) : R :=
  2 * exp (a * t) / T * (1 / 2 * U (RtoC a) + sumn (nb - 1) (fun i => U (a, INR (S i) * PI / T) * cos (INR (S i) * PI * t / T))).

(** the transforms [U1] left and [U2] right of the change of stiffness of the deflection without dimension of a beam that moves on from the deflection
    [wl] left and [wr] right of it (and the velocities [vl] and [vr]) under the force [P], which is then on the right: no load left, the
    force right, slope, moment and shear force continuous at the change of stiffness, nothing far away.  [h] and [ka] are the units of
    time and length *)
Definition transformed_beam (s : C) (k1 k2 P v h ka : R) (wl wr vl vr : R -> R -> R) (U1 U2 : nat -> R -> C) : Prop :=
  transformed_piece s 1 (fun q => wl (q / ka) 0) (fun q => vl (q / ka) 0 / h) (fun _ => RtoC 0) U1 /\
  transformed_piece s (k2 / k1) (fun q => wr (q / ka) 0) (fun q => vr (q / ka) 0 / h) (passing_force (P * ka / k1) (v * ka / h) s) U2 /\
  (forall n, (0 < n < 4)%nat -> U1 n 0 = U2 n 0) /\
  cdies_left (U1 0%nat) /\ cdies_right (U2 0%nat).
