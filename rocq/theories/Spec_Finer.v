(** * Vocabulary for finer meshes *)

From Coq Require Import Reals List Bool Arith.
From Verif Require Import Num PyBase Model_Geometry Model_System Spec_System Model_Element Spec_Element Model_Track Spec_Track Spec_Halves.
Local Open Scope R_scope.

(** twice the energy of motion per length at distance [x] from node [i] when the nodes of a level beam move with velocities [u] and the beam
    moves as it is bent: mass of the section in both directions, and with shear deformation the inertia of its rotation *)
Definition moving_density (b : beam R) (u : nat -> dir -> R) (i j : nat) (x : R) : R :=
  b_rho b * b_A b * (bent b u i j x DX * bent b u i j x DX + bent b u i j x DY * bent b u i j x DY) +
  (if Rlt_dec 0 (b_shear_factor b) then b_rho b * b_I b * (bent b u i j x DR * bent b u i j x DR) else 0).

(** a way to read the displacements of one model as displacements of another, sums and multiples included *)
Definition reading (e : (nat -> R) -> nat -> R) : Prop := forall a x y k, e (fun i => a * x i + y i) k = a * e x k + e y k.
