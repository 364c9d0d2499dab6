(** * Vocabulary for holding directions of a model *)

From Coq Require Import Reals List Bool Arith.
From Verif Require Import Num PyBase Model_Geometry Model_System Spec_System.
Import ListNotations.

(** the constraint [c] holds direction [d] of node [p] *)
Definition holds (c : list nat * tri bool) (p : nat) (d : dir) : Prop := In p (fst c) /\ tget (snd c) d = false.

(** the constraint [c], set after the constraints [cs], lets nothing go: what its nodes cannot do already, it holds as well *)
Definition lets_nothing_go (ns : list (node R)) (cs : list (list nat * tri bool)) (c : list nat * tri bool) : Prop :=
  forall p d, In p (fst c) -> flag_after cs p d (active ns p d) = false -> holds c p d.
