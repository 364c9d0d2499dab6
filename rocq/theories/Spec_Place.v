(** * Vocabulary for models that are laid somewhere else *)

From Coq Require Import Reals List Bool Arith.
From Verif Require Import Num PyBase Model_Geometry Model_System Model_Element Model_Track Model_Moving Spec_Element Spec_Track.
Import ListNotations.
Local Open Scope R_scope.

(** the point [c] moved by [v] *)
Definition moved (v c : tri R) : tri R := T3 (tx c + tx v) (ty c + ty v) (tr c + tr v).
Definition moved_node (v : tri R) (n : node R) : node R := mkNode (n_id n) (n_index n) (n_dof n) (moved v (n_coord n)) (n_flag n) (n_parts n).
(** a mesh that is laid somewhere else; everything but the coordinates stays *)
Definition moved_mesh (v : tri R) (ns : list (node R)) : list (node R) := map (moved_node v) ns.

(** a moving load on a track that is laid somewhere else *)
Definition moved_input (v : tri R) (m : moving_input R) : moving_input R :=
  mkMovingInput (map (moved v) (mi_coords m)) (mi_elements m) (mi_sizes m) (mi_time m) (mi_velocities m) (mi_start m) (mi_x m) (mi_y m) (mi_z m) (mi_n_ini m).

(** two places that are the same or more than 1e-9 apart in some direction *)
Definition distinct_or_same (a b : tri R) : Prop :=
  a = b \/ 1 / 1000000000 < Rabs (tx a - tx b) \/ 1 / 1000000000 < Rabs (ty a - ty b) \/ 1 / 1000000000 < Rabs (tr a - tr b).

(** the ends of an element are one above the other, or apart along x by more than a 1e-9th of their distance from the origin *)
Definition near_origin (p q : tri R) : Prop :=
  tx p = tx q \/ 1 / 1000000000 * Rmax (Rabs (tx q)) (Rabs (tx p)) < Rabs (tx q - tx p).
