(** * Vocabulary for statements about a straight chain of beam elements *)

From Coq Require Import Reals List Bool Arith.
From Verif Require Import Num PyBase Model_Geometry Model_System Model_Element Model_Track Spec_System Spec_Element.
Import ListNotations.
Local Open Scope R_scope.

(** N + 1 nodes on a horizontal line at distance [h], free to move *)
Definition straight_mesh (N : nat) (h : R) (ns : list (node R)) : Prop :=
  length ns = S N /\ exists x0 y0, forall i n, nth_error ns i = Some n ->
    tx (n_coord n) = x0 + INR i * h /\ ty (n_coord n) = y0 /\ n_flag n = T3 true true true.

(** a beam without rotational springs at the ends of its elements, of element length [h] *)
Definition good_beam (h : R) (b : beam R) : Prop :=
  fixed_ends b /\ b_l b = h /\ 0 < b_E b /\ 0 < b_I b /\ 0 < b_A b /\ - 1 < b_nu b /\ 0 <= b_rho b.

(** the beam elements from node to node *)
Definition chain_part (N : nat) (b : beam R) : epart R :=
  mkPart (KBeam b) (seq 0 (S N)) (map (fun i => (i, (i + 1)%nat)) (seq 0 N)).

(** vertical forces at nodes: pairs of a node and a force *)
Definition vertical_loads (fs : list (nat * R)) : list (load R) :=
  map (fun q => mkLoad (T3 false true false) [fst q] [T3 0 (snd q) 0]) fs.

(** the first node is held in both directions, the last one vertically *)
Definition two_supports (N : nat) : list (list nat * tri bool) := [([0%nat], T3 false false true); ([N], T3 true false true)].
(** the first node is clamped *)
Definition clamped_start : list (list nat * tri bool) := [([0%nat], T3 false false false)].

(** static equilibrium *)
Definition in_balance (s : gsys R) (k : nat) (x : nat -> R) : Prop :=
  forall i, (i < k)%nat -> mulv k (me (gK s)) x i = nth i (gF s) 0.

(** shear stiffness; the code takes a shear factor of zero for a beam without shear deformation *)
Definition shear_stiffness (b : beam R) : R := b_E b / (2 * (1 + b_nu b)) * b_A b * b_shear_factor b.

(** additional deflection from shear of a beam on two supports under a force at [a], and of a clamped beam *)
Definition supported_shear (b : beam R) (len force a x : R) : R :=
  if Rlt_dec 0 (b_shear_factor b) then force * (Rmin x a * (len - Rmax x a)) / (len * shear_stiffness b) else 0.
Definition clamped_shear (b : beam R) (force a x : R) : R :=
  if Rlt_dec 0 (b_shear_factor b) then force * Rmin x a / shear_stiffness b else 0.

(** ratio of bending to shear stiffness of an element *)
Definition shear_ratio (h : R) (b : beam R) : R :=
  if Rlt_dec 0 (b_shear_factor b) then 12 * (b_E b * b_I b) / (shear_stiffness b * (h * h)) else 0.

(** the values on the diagonals of the element matrices exceed the tolerance below which the code takes them for zero *)
Definition above_tolerance (h : R) (b : beam R) : Prop :=
  let tol := 1 / 100000000 in
  tol < b_E b * b_A b / h /\ tol < b_E b * b_I b / h /\ tol < 12 * (b_E b * b_I b) / ((1 + shear_ratio h b) * (h * h * h)) /\
  tol < b_rho b * b_A b * h / 3 /\ tol < b_rho b * b_A b * (h * h * h) / 120.
