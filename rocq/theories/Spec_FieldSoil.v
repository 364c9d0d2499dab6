(** * Vocabulary for tracks on a random field of soil *)

From Coq Require Import Reals List Arith ZArith.
Import ListNotations.
Local Open Scope R_scope.

(** the generator of the scripts (length scale 20, seed 14) draws one function [z] of the place, the same for all means and variances, and
    scales it: this is what a Gaussian field with a fixed seed is *)
Definition draws (srf : R -> R -> R -> R -> Z -> list R -> list R) (z : R -> R) : Prop :=
  forall variance mean places, srf variance 20 0 mean 14%Z places = map (fun x => mean + sqrt variance * z x) places.

(** the sleepers of a row of stretches: mean stiffness, mean damping and number of sleepers of the stretch, and the number of the sleeper in it *)
Definition sleepers_of (stretches : list (R * R * nat)) : list (R * R * nat * nat) := flat_map (fun s => map (pair s) (seq 0 (snd s))) stretches.

(** the place at which the field is read for sleeper [j] of a stretch of [m] sleepers: they share out [m] distances of 0.6 m, where there are [m - 1] *)
Definition read_at (m j : nat) : R := 6 / 10 * (INR j * INR m / INR (m - 1)).
(** the value of a field with the given mean and a variation of 25 % where the drawn function is [z], for one sleeper distance *)
Definition varied (mean z : R) : R := 6 / 10 * (mean + Rabs mean / 4 * z).
