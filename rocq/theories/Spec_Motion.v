(** * Vocabulary for motions of a system *)

From Coq Require Import Reals List Bool Arith.
From Verif Require Import Num PyBase Model_Geometry Model_System Model_Element Model_Track Spec_System Spec_Element Spec_Track Spec_Analytic.
Import ListNotations.
Local Open Scope R_scope.

(** work of the forces [f] along the displacements [x], or their power along velocities *)
Definition work (n : nat) (f x : nat -> R) : R := sumn n (fun i => f i * x i).

(** displacements [u], velocities [v] and accelerations [a] of the [n] degrees of freedom in time, which obey Newton's law under
    the forces [f]: inertia, damping and stiffness balance the load at every time *)
Definition motion (n : nat) (s : gsys R) (f u v a : R -> nat -> R) : Prop :=
  (forall i, (i < n)%nat -> derivative (fun t => u t i) (fun t => v t i)) /\
  (forall i, (i < n)%nat -> derivative (fun t => v t i) (fun t => a t i)) /\
  (forall t i, (i < n)%nat -> mulv n (me (gM s)) (a t) i + mulv n (me (gC s)) (v t) i + mulv n (me (gK s)) (u t) i = f t i).

(** the energy of the elements of a model: half the sum of the quadratic forms of the masses in the velocities and of the
    stiffnesses in the displacements of the nodes *)
Definition stored_energy (ns ns' : list (node R)) (ps : list (epart R)) (u v : nat -> R) : R :=
  (nsum (map (fun p => part_form aux_mass ns (field_of ns' v) (settled ns p)) ps) +
   nsum (map (fun p => part_form aux_stiffness ns (field_of ns' u) (settled ns p)) ps)) / 2.

(** no damper anywhere: rods without damping, and no Rayleigh damping *)
Definition undamped (ps : list (epart R)) (da : damping R) : Prop :=
  da_on da = false /\ Forall (fun p => match ep_kind p with KRod _ (Some c) _ => c = 0 | _ => True end) ps.
