(** * Vocabulary for comparing models of different stiffness and mass *)

From Coq Require Import Reals List Bool Arith.
From Verif Require Import Num PyBase Model_Geometry Model_System Spec_System Model_Element Spec_Element Model_Track Spec_Track.
Local Open Scope R_scope.

(** a value that may be left out *)
Definition amount (o : option R) : R := match o with Some x => x | None => 0 end.

(** the same beam of a material that is at least as stiff and not heavier *)
Definition swifter_beam (b b' : beam R) : Prop :=
  b_E b <= b_E b' /\ b_rho b' <= b_rho b /\ fixed_ends b /\ fixed_ends b' /\
  b_nu b' = b_nu b /\ b_A b' = b_A b /\ b_I b' = b_I b /\ b_shear_factor b' = b_shear_factor b /\ b_l b' = b_l b.

(** the same part with at least the stiffness and at most the mass *)
Definition swifter (p p' : epart R) : Prop :=
  ep_nodes p' = ep_nodes p /\ ep_els p' = ep_els p /\
  match ep_kind p, ep_kind p' with
  | KRod s _ m, KRod s' _ m' => amount s <= amount s' /\ amount m' <= amount m
  | KBeam b, KBeam b' | KRail b, KRail b' => swifter_beam b b'
  | KPoint m, KPoint m' => m' <= m
  | _, _ => False
  end.

(** springs and dampers without mass; masses without springs *)
Definition massless (p : epart R) : Prop := match ep_kind p with KRod _ _ m => amount m = 0 | _ => False end.
Definition only_mass (p : epart R) : Prop := match ep_kind p with KPoint _ => True | KRod s _ _ => amount s = 0 | _ => False end.

(** a displacement in which the model swings freely, without damping, with the square [w] of a circular frequency *)
Definition swings (s : gsys R) (k : nat) (w : R) (y : nat -> R) : Prop :=
  0 < quad k (me (gM s)) y /\ forall i, (i < k)%nat -> mulv k (me (gK s)) y i = w * mulv k (me (gM s)) y i.
