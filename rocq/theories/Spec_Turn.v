(** * Vocabulary for elements that are written from the other end *)

From Coq Require Import Reals List Bool Arith.
From Verif Require Import Num PyBase Model_Geometry Model_System Model_Element Model_Track Spec_System Spec_Element Spec_Track.
Import ListNotations.
Local Open Scope R_scope.

(** the ends of an element are exactly above each other, or more than 1e-8 apart along x *)
Definition clearly_placed (p q : R * R) : Prop :=
  fst q = fst p /\ snd q <> snd p \/ 1 / 100000000 < Rabs (fst q - fst p).

(** an element that may be written from the other end: any element of a rod, and those of a beam or rail with equal springs
    (or none) at its two ends that are clearly placed *)
Definition turnable (ns : list (node R)) (k : kind R) (e : nat * nat) : Prop :=
  match k with
  | KRod _ _ _ | KPoint _ => True
  | KBeam b | KRail b => b_s1 b = b_s2 b /\ clearly_placed (xy ns (fst e)) (xy ns (snd e))
  end.

(** the same part, some of whose elements go from their second node to their first *)
Definition turned_part (ns : list (node R)) (p q : epart R) : Prop :=
  ep_kind q = ep_kind p /\ ep_nodes q = ep_nodes p /\
  Forall2 (fun e e' => e' = e \/ e' = (snd e, fst e) /\ turnable ns (ep_kind p) e) (ep_els p) (ep_els q).
