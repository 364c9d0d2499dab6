(** * Vocabulary for the directions of a track that are calculated *)

From Coq Require Import Reals List.
From Verif Require Import Num PyBase Model_System Spec_System Model_Mesh.
Import ListNotations.

(** every node of the rail moves along x, vertically and turns, but its two ends do not move along x; sleepers move vertically only;
    nothing else moves *)
Definition free_to_move (j : joined) (p : nat) (d : dir) : Prop :=
  (In p (jn_rail_nodes j) /\ (d = DX -> p <> hd 0%nat (jn_rail_nodes j) /\ p <> last (jn_rail_nodes j) 0%nat)) \/ (In p (jn_sleepers j) /\ d = DY).

(** the directions of a node in their order: along x, vertical, rotation *)
Definition direction_order (d : dir) : nat := match d with DX => 0 | DY => 1 | DR => 2 end.
