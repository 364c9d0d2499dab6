(** * Vocabulary for statements about the results of tracks with a hinge *)

From Coq Require Import Reals List.
From Verif Require Import Num PyBase Model_Geometry Spec_Geometry Model_System Model_Element Model_Moving Model_Mesh Spec_Mesh Model_Track Model_Run Model_CoupledRun Model_DemoResults.
Import ListNotations.
Local Open Scope R_scope.

(** a part as the script reads it has the nodes of an element part, and elements of the mesh between the same nodes in the same order *)
Definition shown (es : list (melem R)) (w : wpart R) (p : Model_Track.epart R) : Prop :=
  w_nodes w = ep_nodes p /\
  Forall2 (fun k e => exists m, nth_error es k = Some m /\ ml_nodes m = [fst e; snd e]) (w_els w) (ep_els p).

(** no node occurs twice and no two nodes are at the same place *)
Definition apart (c : heap R) (nodes : list nat) : Prop :=
  NoDup nodes /\ forall p q, In p nodes -> In q nodes -> coincide (c p) (c q) -> p = q.
(** the first node at [x] is number [i], and it is not an end *)
Definition inside (c : heap R) (nodes : list nat) (x : R) (i : nat) : Prop :=
  (1 <= i)%nat /\ (i + 2 <= length nodes)%nat /\ near (tx (c (nth i nodes 0%nat))) x /\ forall q, (q < i)%nat -> ~ near (tx (c (nth q nodes 0%nat))) x.
(** the nodes of the mesh have the places of the rail *)
Definition on_places (track : list (node R)) (c : heap R) (nodes : list nat) : Prop :=
  forall p, In p nodes -> exists n, nth_error track p = Some n /\ n_coord n = c p.
