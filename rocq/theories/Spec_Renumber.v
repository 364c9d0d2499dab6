(** * Vocabulary for renumbered models *)

From Coq Require Import Reals List Bool Arith Permutation.
From Verif Require Import Num PyBase Model_Geometry Model_System Model_Element Model_Track Spec_System Spec_Element Spec_Track.
Import ListNotations.
Local Open Scope R_scope.

(** the mesh [ms] has the nodes of the mesh [ns], each at another position: node [p] of [ns] is node [f p] of [ms] *)
Definition renumbered_mesh (f : nat -> nat) (ns ms : list (node R)) : Prop :=
  length ms = length ns /\ (forall p q, f p = f q -> p = q) /\
  forall p, match nth_error ns p, nth_error ms (f p) with
            | Some a, Some b => n_coord b = n_coord a /\ n_flag b = n_flag a
            | None, None => True
            | _, _ => False
            end.

(** a part of the same class with the same values on the same nodes; the elements may come in another order *)
Definition renumbered_part (f : nat -> nat) (p q : epart R) : Prop :=
  ep_kind q = ep_kind p /\ ep_nodes q = map f (ep_nodes p) /\ Permutation (ep_els q) (map (fun e => (f (fst e), f (snd e))) (ep_els p)).

(** the same parts, in any order *)
Definition renumbered_parts (f : nat -> nat) (ps qs : list (epart R)) : Prop :=
  exists rs, Forall2 (renumbered_part f) ps rs /\ Permutation rs qs.

Definition renumbered_load (f : nat -> nat) (l : load R) : load R := mkLoad (ld_flag l) (map f (ld_nodes l)) (ld_vals l).
Definition renumbered_constraint (f : nat -> nat) (c : list nat * tri bool) : list nat * tri bool := (map f (fst c), snd c).

(** a load lists every node once, with its values *)
Definition plain_load (l : load R) : Prop := NoDup (ld_nodes l) /\ length (ld_vals l) = length (ld_nodes l).

(** the force a load puts on node [p] in direction [d] *)
Definition load_force (l : load R) (p : nat) (d : dir) : R :=
  nsum (map (fun q => if (tget (ld_flag l) d && Nat.eqb (fst q) p)%bool then tget (snd q) d else 0) (combine (ld_nodes l) (ld_vals l))).

(** a part refers to nodes of the mesh only *)
Definition within (ns : list (node R)) (p : epart R) : Prop :=
  forall i, In i (ep_nodes p) \/ (exists e, In e (ep_els p) /\ (i = fst e \/ i = snd e)) -> (i < length ns)%nat.
