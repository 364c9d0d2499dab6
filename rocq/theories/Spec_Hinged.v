(** * Vocabulary for tracks with a hinge in the rail *)

From Coq Require Import Reals List.
From Verif Require Import Num PyBase Model_Geometry Model_System Model_Mesh.
Import ListNotations.
Local Open Scope R_scope.

(** a rail that is cut at [x] rests on the sleepers: one of its two pieces on two sleepers (one of which may be at [x]) and the other one,
    besides the first piece, on a third sleeper *)
Definition rests_apart (c : heap R) (sleepers : list nat) (x : R) : Prop :=
  exists q1 q2 q3, In q1 sleepers /\ In q2 sleepers /\ In q3 sleepers /\ tx (c q1) <> tx (c q2) /\
    ((tx (c q1) <= x /\ tx (c q2) <= x /\ x < tx (c q3)) \/ (x <= tx (c q1) /\ x <= tx (c q2) /\ tx (c q3) < x)).
