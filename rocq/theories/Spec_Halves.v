(** * Vocabulary for cutting a beam in two *)

From Coq Require Import Reals List Bool Arith.
From Verif Require Import Num PyBase Model_Geometry Model_System Spec_System Model_Element Spec_Element Model_Track Spec_Track.
Import ListNotations.
Local Open Scope R_scope.

(** a beam like [b] of length [l] *)
Definition piece (b : beam R) (l : R) : beam R := mkBeam (b_E b) (b_nu b) (b_rho b) (b_A b) (b_I b) (b_shear_factor b) l (b_s1 b) (b_s2 b).
(** a beam from node [i] to node [j] *)
Definition one_beam (b : beam R) (i j : nat) : epart R := mkPart (KBeam b) [i; j] [(i, j)].

(** the node [j] lies to the right of the node [i], at the same height *)
Definition right_of (ns : list (node R)) (i j : nat) : Prop := fst (xy ns i) < fst (xy ns j) /\ snd (xy ns i) = snd (xy ns j).

(** 12 EI / (G A k) for a beam with shear deformation, G = E / (2 (1 + nu)); 0 without *)
Definition shear_area (b : beam R) : R := if Rlt_dec 0 (b_shear_factor b) then 24 * (1 + b_nu b) * b_I b / (b_A b * b_shear_factor b) else 0.

(** how a level beam without loads between its nodes [i] and [j] is bent: curvature and shear force are linear and constant; displacement along
    it, across it and rotation at distance [x] from node [i] *)
Definition bent (b : beam R) (u : nat -> dir -> R) (i j : nat) (x : R) (d : dir) : R :=
  let l := b_l b in let k := shear_area b in
  let c2 := 6 * (u i DY - u j DY + l * (u i DR + u j DR) / 2) / (l * l * l + k * l) in
  let c1 := (u j DR - u i DR) / l - c2 * l in
  match d with
  | DX => u i DX + (u j DX - u i DX) * x / l
  | DY => u i DY + u i DR * x + c1 * (x * x) / 2 + c2 * (x * x * x) / 3 - k * c2 * x / 6
  | DR => u i DR + c1 * x + c2 * (x * x)
  end.

(** the same directions are calculated, and all of the new node *)
Definition same_freedom (ns1 ns2 : list (node R)) (c : nat) : Prop :=
  (forall k d, (k < c)%nat -> (number_of ns2 k d = None <-> number_of ns1 k d = None)) /\ forall d, number_of ns2 c d <> None.

(** a vertical load [P] at distance [x] from the left node, shared out over both nodes by the shape functions of the code
    (boundary_conditions.py 493-511) *)
Definition shared_load (l x P : R) (i j : nat) : load R :=
  mkLoad (T3 false true true) [i; j] [T3 0 (P * y_shape l 0 x 0) (P * y_shape l 0 x 1); T3 0 (P * y_shape l 0 x 2) (P * y_shape l 0 x 3)].
