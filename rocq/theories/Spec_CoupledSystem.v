(** * Vocabulary for the matrices of the coupled system *)

From Coq Require Import Reals List Bool Arith.
From Verif Require Import Num PyBase Model_System Model_Track Spec_System.
Import ListNotations.
Local Open Scope R_scope.

(** velocities of the coupled system in which the track moves with [x] and the train with [y] *)
Definition both_moving (nt : nat) (x y : nat -> R) : nat -> R := fun i => if (i <? nt)%nat then x i else y (i - nt)%nat.

(** a motion of the frequency [w] that [s] can do without load and damping *)
Definition mode (n : nat) (s : gsys R) (w : R) (x : nat -> R) : Prop :=
  forall i, (i < n)%nat -> mulv n (me (gK s)) x i = (w * w) * mulv n (me (gM s)) x i.

(** a motion that no spring of [s] resists *)
Definition rigid (n : nat) (s : gsys R) (x : nat -> R) : Prop := forall i, (i < n)%nat -> mulv n (me (gK s)) x i = 0.

(** the damping that is asked for: a positive ratio at two positive frequencies *)
Definition damping_asked (da : damping R) : Prop := da_on da = true /\ 0 <= da_ratio da /\ 0 < da_one da /\ 0 < da_two da.
