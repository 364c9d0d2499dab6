(** * Vocabulary for statements about particle swarm optimisation *)

From Coq Require Import Reals List Arith.
From Verif Require Import Num PyBase Model_Swarm.
Import ListNotations.
Local Open Scope R_scope.

(** every coordinate is between its bounds *)
Definition within (bounds : list (R * R)) (x : list R) : Prop :=
  forall i, (i < length x)%nat -> fst (nth i bounds (0, 0)) <= nth i x 0 <= snd (nth i bounds (0, 0)).
(** the nearest value between the bounds [b] *)
Definition clamp (b : R * R) (x : R) : R := Rmax (fst b) (Rmin (snd b) x).

(** [x] is the first of the positions [l] with the smallest cost *)
Definition is_best (cost : list R -> R) (l : list (list R)) (x : list R) : Prop :=
  exists before after, l = before ++ x :: after /\ (forall y, In y before -> cost x < cost y) /\ (forall y, In y after -> cost x <= cost y).

(** the law of motion of a swarm of [P] particles: [pos k j i] and [vel k j i] are coordinate [i] of the position and the
    velocity of particle [j] at iteration [k], [g k] is the position towards which the swarm moves after iteration [k].  [draw] are
    the random numbers between 0 and 1 in the order in which they are drawn: one for each initial velocity, then two for each
    iteration, particle and coordinate, of which the first has no influence *)
Definition motion (draw : nat -> R) (x0 : list R) (bounds : list (R * R)) (P : nat) (pos vel : nat -> nat -> nat -> R) (g : nat -> list R) : Prop :=
  let n := length x0 in
  (forall j i, (j < P)%nat -> (i < n)%nat -> pos 0%nat j i = nth i x0 0 /\ vel 0%nat j i = 2 * draw (j * n + i)%nat - 1) /\
  forall k j i, (j < P)%nat -> (i < n)%nat ->
    vel (S k) j i = vel k j i / 2 + 2 * draw (P * n + 2 * ((k * P + j) * n + i) + 1)%nat * (nth i (g k) 0 - pos k j i) /\
    pos (S k) j i = clamp (nth i bounds (0, 0)) (pos k j i + vel (S k) j i).

(** particle [j] of a swarm, its current position and the position it remembers as its best *)
Definition particle_of (s : swarm R) (j : nat) (p : particle R) : Prop := nth_error (sw_particles s) j = Some p.
Definition position_of (s : swarm R) (p : particle R) (x : list R) : Prop := nth_error (sw_heap s) (p_pos p) = Some x.
Definition remembered (s : swarm R) (p : particle R) (x : list R) : Prop := nth_error (sw_heap s) (p_best p) = Some x.
