(** * Vocabulary for tracks cut into different segments *)

From Coq Require Import Reals List.
From Verif Require Import Num PyBase Model_Mesh.
Import ListNotations.
Local Open Scope R_scope.

(** the soil under every sleeper, one after the other: depth and values of the segment to which the sleeper belongs *)
Definition per_sleeper {A} (specs : list (nat * R)) (soils : list A) : list (R * A) :=
  flat_map (fun q => repeat (snd (fst q), snd q) (fst (fst q))) (combine specs soils).

(** the lower ends of the soil of a joined track, from left to right *)
Definition soil_ends (j : joined) : list nat := map snd (flat_map snd (jn_soil j)).

(** node [f p] of the second track takes the place of node [p] of the first one: rail node for rail node, sleeper for sleeper and lower
    end for lower end, from left to right; no two nodes have the same partner *)
Definition matched (f : nat -> nat) (j j' : joined) : Prop :=
  map f (jn_rail_nodes j) = jn_rail_nodes j' /\ map f (jn_sleepers j) = jn_sleepers j' /\ map f (soil_ends j) = soil_ends j' /\
  forall p q, f p = f q -> p = q.
