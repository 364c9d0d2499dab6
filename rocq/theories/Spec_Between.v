(** * Vocabulary for a moving load that stands on a beam *)

From Coq Require Import Reals List Bool Arith.
From Verif Require Import Num PyBase Model_Geometry Model_System Spec_System Model_Element Spec_Element Model_Moving Spec_Moving Model_Track Spec_Track Spec_Halves.
Import ListNotations.
Local Open Scope R_scope.

(** at step [t] the moving load stands on the beam [b] from node [i] to node [j] of the mesh, at distance [x] from node [i], with the components [f];
    [nodes] are the nodes of the load condition, [beams] length and shear factor of its model parts *)
Definition stands (m : moving_input R) (d : moving_data R) (beams : list (R * R)) (nodes : list nat) (ns : list (node R)) (b : beam R) (i j : nat) (x : R) (f : tri R) (t : nat) : Prop :=
  exists ki kj k,
    nth_error (mv_nodes d) t = Some (ki, kj) /\ nth_error nodes ki = Some i /\ nth_error nodes kj = Some j /\
    nth_error (mv_x d) t = Some (tx f) /\ nth_error (mv_y d) t = Some (ty f) /\ nth_error (mv_z d) t = Some (tr f) /\ nth_error (mv_local d) t = Some x /\
    nth_error (mv_part d) t = Some k /\ nth_error beams k = Some (b_l b, timoshenko_factor 0 b) /\ length (mi_coords m) = length nodes /\
    (tx (at_node (mi_coords m) ki), ty (at_node (mi_coords m) ki)) = xy ns i /\ (tx (at_node (mi_coords m) kj), ty (at_node (mi_coords m) kj)) = xy ns j /\
    clear_direction (at_node (mi_coords m) ki) (at_node (mi_coords m) kj).

(** the load condition of the system when the force vectors of the moving load are those of [st] *)
Definition moving_load (nodes : list nat) (st : mstate R) : load R := mkLoad (T3 true true true) nodes (vals_of st).

(** a load with the components [f] on the single node [c] *)
Definition full_load (c : nat) (f : tri R) : load R := mkLoad (T3 true true true) [c] [f].
