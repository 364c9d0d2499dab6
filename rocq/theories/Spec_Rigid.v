(** * Vocabulary for models that move as one rigid body *)

From Coq Require Import Reals List Bool Arith.
From Verif Require Import Num PyBase Model_Geometry Model_System Model_Element Model_Track Spec_System Spec_Element Spec_Track.
Import ListNotations.
Local Open Scope R_scope.

(** the displacement of the point [c] of a body that is moved by [(a, b)] and turned about the origin by the small angle [t] *)
Definition rigid_at (a b t : R) (c : R * R) (d : dir) : R :=
  match d with DX => a - t * snd c | DY => b + t * fst c | DR => t end.

(** the node [q] follows the rigid body in direction [d] *)
Definition follows (ns : list (node R)) (a b t : R) (u : nat -> dir -> R) (q : nat) (d : dir) : Prop := u q d = rigid_at a b t (xy ns q) d.

(** the part follows the rigid body: beams and rails are level, their elements as long as the distance of their ends, and all of their
    directions follow; the beams have fixed ends or no shear deformation.  Rods are upright and follow vertically, or level and follow
    along x *)
Definition carried (ns : list (node R)) (a b t : R) (u : nat -> dir -> R) (p : epart R) : Prop :=
  match ep_kind p with
  | KPoint _ => True
  | KRod _ _ _ => forall e, In e (ep_els p) ->
      fst (xy ns (fst e)) = fst (xy ns (snd e)) /\ snd (xy ns (fst e)) <> snd (xy ns (snd e)) /\ follows ns a b t u (fst e) DY /\ follows ns a b t u (snd e) DY \/
      snd (xy ns (fst e)) = snd (xy ns (snd e)) /\ follows ns a b t u (fst e) DX /\ follows ns a b t u (snd e) DX
  | KBeam g | KRail g => (fixed_ends g \/ b_shear_factor g <= 0) /\ forall e, In e (ep_els p) ->
      snd (xy ns (fst e)) = snd (xy ns (snd e)) /\ Rabs (fst (xy ns (snd e)) - fst (xy ns (fst e))) = b_l g /\
      forall d, follows ns a b t u (fst e) d /\ follows ns a b t u (snd e) d
  end.

(** the part is moved by [(a, b)] without turning; its elements may stand in any way *)
Definition displaced (a b : R) (u : nat -> dir -> R) (p : epart R) : Prop :=
  match ep_kind p with
  | KPoint _ => True
  | KRod _ _ _ => forall e, In e (ep_els p) -> u (fst e) DX = a /\ u (fst e) DY = b /\ u (snd e) DX = a /\ u (snd e) DY = b
  | KBeam _ | KRail _ => forall e, In e (ep_els p) -> u (fst e) DX = a /\ u (fst e) DY = b /\ u (fst e) DR = 0 /\ u (snd e) DX = a /\ u (snd e) DY = b /\ u (snd e) DR = 0
  end.
