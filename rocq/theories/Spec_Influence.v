(** * Vocabulary for influence lines *)

From Coq Require Import Reals List.
From Verif Require Import Num PyBase Model_Geometry Model_System Spec_System Model_Element Spec_Element Model_Moving Spec_Moving Model_Track Spec_Track Spec_Halves Spec_Between.
Import ListNotations.
Local Open Scope R_scope.

(** how far the place at distance [x] from node [i] on the beam [b] between the nodes [i] and [j] moves in the direction of a load with the components [f],
    times the load, when the nodes are displaced by [u] and the beam is bent accordingly *)
Definition along_load (f : tri R) (b : beam R) (u : nat -> dir -> R) (i j : nat) (x : R) : R :=
  tx f * bent b u i j x DX + ty f * bent b u i j x DY + tr f * bent b u i j x DR.

(** a moving load with the components [f] has put the forces [st'] on its [nodes] while standing on the level beam [b] without shear deformation *)
Definition pressed (nodes : list nat) (ns : list (node R)) (b : beam R) (i j : nat) (x : R) (f : tri R) (st' : mstate R) : Prop :=
  NoDup nodes /\ right_of ns i j /\ 0 < b_l b /\ b_shear_factor b <= 0 /\ (ty f = 0 \/ tr f = 0) /\
  exists m d beams t st, moving_update m d beams st t = Ok st' /\ stands m d beams nodes ns b i j x f t /\ sized (length nodes) st.
