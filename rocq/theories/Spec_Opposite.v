(** * Vocabulary for tracks laid in the opposite order *)

From Coq Require Import Reals List.
From Verif Require Import Num PyBase Model_Mesh Spec_Cut.
Import ListNotations.
Local Open Scope R_scope.

(** node [f p] of the second track is the mirror image of node [p] of the first one: rail node for rail node, sleeper for sleeper and
    lower end for lower end, from right to left; no two nodes have the same image *)
Definition opposed (f : nat -> nat) (j j' : joined) : Prop :=
  map f (jn_rail_nodes j) = rev (jn_rail_nodes j') /\ map f (jn_sleepers j) = rev (jn_sleepers j') /\ map f (soil_ends j) = rev (soil_ends j') /\
  forall p q, f p = f q -> p = q.
