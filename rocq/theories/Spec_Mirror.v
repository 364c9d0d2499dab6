(** * Vocabulary for mirrored models *)

From Coq Require Import Reals List Bool Arith Permutation.
From Verif Require Import Num PyBase Model_Geometry Model_System Model_Element Model_Track Spec_System Spec_Element Spec_Track Spec_Renumber Spec_Turn.
Import ListNotations.
Local Open Scope R_scope.

(** a mesh seen in a mirror that stands upright at [x = a / 2]: left and right change places, heights and everything else stay *)
Definition mirror_node (a : R) (n : node R) : node R :=
  mkNode (n_id n) (n_index n) (n_dof n) (T3 (a - tx (n_coord n)) (ty (n_coord n)) (tr (n_coord n))) (n_flag n) (n_parts n).
Definition mirrored (a : R) (ns : list (node R)) : list (node R) := map (mirror_node a) ns.

(** in the mirror, displacements and forces along x and rotations and moments change their sign, vertical ones do not *)
Definition side (d : dir) : R := match d with DY => 1 | _ => -1 end.
Definition mirrored_load (l : load R) : load R := mkLoad (ld_flag l) (ld_nodes l) (map (fun v => T3 (- tx v) (ty v) (- tr v)) (ld_vals l)).

(** an element that does not lean by less than 1e-8: upright, level, or with ends more than 1e-8 apart along x *)
Definition straight (p q : R * R) : Prop :=
  fst q = fst p /\ snd q <> snd p \/ snd q = snd p /\ fst q <> fst p \/ 1 / 100000000 < Rabs (fst q - fst p).

(** beams and rails do not lean by less than 1e-8; rods may stand in any way *)
Definition mirrorable (ns : list (node R)) (p : epart R) : Prop :=
  match ep_kind p with
  | KRod _ _ _ | KPoint _ => True
  | KBeam _ | KRail _ => forall e, In e (ep_els p) -> straight (xy ns (fst e)) (xy ns (snd e))
  end.

(** ** Symmetric models *)

(** the directions in which constraints leave node [p] free; the last constraint that lists the node counts *)
Definition held (cs : list (list nat * tri bool)) (p : nat) : option (tri bool) :=
  fold_left (fun o c => if existsb (Nat.eqb p) (fst c) then Some (snd c) else o) cs None.

(** the part [q] is what the part [p] becomes in the mirror when node [i] is seen at the place of node [f i]: the same class with
    the same values, and the same elements in any order, some of which may be written from the other end *)
Definition counterpart (f : nat -> nat) (ns : list (node R)) (p q : epart R) : Prop :=
  ep_kind (settled ns q) = ep_kind (settled ns p) /\
  match ep_kind p with
  | KPoint _ => Permutation (ep_nodes q) (map f (ep_nodes p))
  | k => exists es, Forall2 (fun e e' => e' = e \/ e' = (snd e, fst e) /\ turnable ns k e) (map (fun e => (f (fst e), f (snd e))) (ep_els p)) es /\
           Permutation (ep_els q) es
  end.

(** a model that looks the same in a mirror at [x = a / 2], in which node [i] is seen at the place of node [f i] *)
Definition symmetric_model (a : R) (f : nat -> nat) (ns : list (node R)) (ps : list (epart R)) (cs : list (list nat * tri bool)) : Prop :=
  (forall p, f (f p) = p) /\ renumbered_mesh f (mirrored a ns) ns /\
  (exists rs, Forall2 (counterpart f ns) ps rs /\ Permutation rs ps) /\
  (forall p, held cs (f p) = held cs p).

(** loads that look the same in that mirror *)
Definition symmetric_loads (f : nat -> nat) (ls : list (load R)) : Prop :=
  forall p d, nsum (map (fun l => load_force l (f p) d) ls) = side d * nsum (map (fun l => load_force l p d) ls).
