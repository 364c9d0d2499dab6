(** * Vocabulary for statements about a generated track *)

From Coq Require Import Reals List Bool Arith.
From Verif Require Import Num PyBase Model_Geometry Model_System Model_Element Model_Mesh Model_Track Spec_System Spec_Element Spec_Track.
Import ListNotations.
Local Open Scope R_scope.

(** the matrix has positive energy for every vector but zero *)
Definition pos_def (n : nat) (m : nat -> nat -> R) : Prop := forall x, (exists i, (i < n)%nat /\ x i <> 0) -> 0 < quad n m x.

(** the model parts of a track as the scripts set them up (run_rose/demo.py 77-148): rail, rail pads, sleepers and soil *)
Definition track_parts (t : track R) (rail : beam R) (pad : R * option R * option R) (sleeper : R) (soil : R * option R * option R) : list (epart R) :=
  [mkPart (KRail rail) (tk_rail_nodes t) (tk_rail_els t);
   mkPart (KRod (Some (fst (fst pad))) (snd (fst pad)) (snd pad)) (tk_pad_nodes t) (tk_pad_els t);
   mkPart (KPoint sleeper) (tk_sleepers t) [];
   mkPart (KRod (Some (fst (fst soil))) (snd (fst soil)) (snd soil)) (tk_soil_nodes t) (tk_soil_els t)].

(** values of the parts that make sense; the length of the rail elements is not among them, it is taken from the mesh *)
Definition good_rail (b : beam R) : Prop := fixed_ends b /\ 0 < b_E b /\ 0 < b_I b /\ 0 < b_A b /\ - 1 < b_nu b /\ 0 <= b_rho b.
Definition good_rod (p : R * option R * option R) : Prop := 0 < fst (fst p) /\ opt_nonneg (snd (fst p)) /\ opt_nonneg (snd p).

(** coordinates of the nodes of a mesh, by position *)
Definition mesh_coord (ns : list (node R)) (i : nat) : tri R := match nth_error ns i with Some a => n_coord a | None => T3 0 0 0 end.

(** the constraint of the scripts at the sides (run_rose/demo.py 138-139): both ends of the rail are held along the rail *)
Definition side_boundary (t : track R) : list nat * tri bool := ([hd 0%nat (tk_rail_nodes t); last (tk_rail_nodes t) 0%nat], T3 false true true).
(** no displacement at the bottom (mesh_utils.py 56-76) *)
Definition fixed_nodes (l : list nat) : list nat * tri bool := (l, T3 false false false).
