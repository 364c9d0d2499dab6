(** * Vocabulary for springs at the ends of beams *)

From Coq Require Import Reals List.
From Verif Require Import Num PyBase Model_Geometry Model_System Model_Element Spec_Element.
Local Open Scope R_scope.

(** [m] is the least value of [f] where [P] holds, and is taken *)
Definition least {A} (P : A -> Prop) (f : A -> R) (m : R) : Prop := (exists x, P x /\ f x = m) /\ forall x, P x -> m <= f x.

(** an end that is fixed to its node turns with it *)
Definition joined (s : option R) (node_turn end_turn : R) : Prop := match s with None => end_turn = node_turn | Some _ => True end.
(** energy of the spring between a node and the end of a beam *)
Definition spring_energy (s : option R) (turn : R) : R := match s with None => 0 | Some k => k / 2 * (turn * turn) end.
(** no spring has a negative stiffness *)
Definition passive (s : option R) : Prop := match s with None => True | Some k => 0 <= k end.

(** the same displacements with other rotations of the two ends *)
Definition ends (u : nat -> R) (turn1 turn2 : R) : nat -> R := vec6 (u 0%nat) (u 1%nat) turn1 (u 3%nat) (u 4%nat) turn2.
