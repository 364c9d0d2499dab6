(** * Vocabulary for statements about elements *)

From Coq Require Import Reals List Bool Arith.
From Verif Require Import Num PyBase Model_Geometry Model_System Model_Element Spec_System.
Import ListNotations.
Local Open Scope R_scope.

(** six nodal values: axial, transverse, rotation of the first and of the second node *)
Definition vec6 (u1 v1 t1 u2 v2 t2 : R) : nat -> R := fun i =>
  match i with 0%nat => u1 | 1%nat => v1 | 2%nat => t1 | 3%nat => u2 | 4%nat => v2 | 5%nat => t2 | _ => 0 end.

(** small rigid motion of an element of length [l]: both nodes translate and rotate as one body *)
Definition rigid_motion (l : R) (u : nat -> R) : Prop :=
  u 3%nat = u 0%nat /\ u 5%nat = u 2%nat /\ u 4%nat = u 1%nat + l * u 2%nat.

(** distance in the plane *)
Definition plane_dist (p q : R * R) : R := sqrt ((fst q - fst p) * (fst q - fst p) + (snd q - snd p) * (snd q - snd p)).

(** in-plane inner product and length *)
Definition dot2 (a b : tri R) : R := tx a * tx b + ty a * ty b.

(** interpolated value: shape functions [n] applied to nodal transverse displacements and rotations *)
Definition interp (n : nat -> R) (v1 t1 v2 t2 : R) : R := n 0%nat * v1 + n 1%nat * t1 + n 2%nat * v2 + n 3%nat * t2.

(** distance in space *)
Definition dist3 (p q : tri R) : R :=
  sqrt ((tx q - tx p) * (tx q - tx p) + (ty q - ty p) * (ty q - ty p) + (tr q - tr p) * (tr q - tr p)).

(** nodal values of a rigid motion: translation (ux, uy) and rotation [t] about the first node *)
Definition rigid6 (l ux uy t : R) : nat -> R := vec6 ux uy t ux (uy + l * t) t.

(** infinitely stiff springs at both ends *)
Definition fixed_ends (b : beam R) : Prop := b_s1 b = None /\ b_s2 b = None.
