(** * Vocabulary for statements about profiles along the track *)

From Coq Require Import Reals List Bool Arith.
From Verif Require Import Num PyBase Model_Profile.
Import ListNotations.
Local Open Scope R_scope.

(** mean of values with weights, and mean of the squared deviations from it *)
Definition weighted_mean (values weights : list R) : R :=
  sumn (length values) (fun i => nth i values 0 * nth i weights 0) / sumn (length weights) (fun i => nth i weights 0).
Definition weighted_variance (values weights : list R) : R :=
  sumn (length values) (fun i => (nth i values 0 - weighted_mean values weights) ^ 2 * nth i weights 0) / sumn (length weights) (fun i => nth i weights 0).

(** weights: one for each value, not negative, not all zero *)
Definition are_weights (values weights : list R) : Prop :=
  length values = length weights /\ (forall w, In w weights -> 0 <= w) /\ exists w, In w weights /\ 0 < w.

(** straight distance *)
Definition straight (a b : R * R) : R := sqrt ((fst a - fst b) ^ 2 + (snd a - snd b) ^ 2).

(** index [t] has a time nearest to [time], and no earlier index has one as near *)
Definition nearest_index (times : list R) (time : R) (t : nat) : Prop :=
  (t < length times)%nat /\ (forall i, (i < length times)%nat -> Rabs (nth t times 0 - time) <= Rabs (nth i times 0 - time)) /\
  (forall i, (i < t)%nat -> Rabs (nth t times 0 - time) < Rabs (nth i times 0 - time)).

(** mean [m] and standard deviation [d] of the scenarios of a segment at time index [t] *)
Definition segment_has (t : nat) (s : segment R) (m d : R) : Prop :=
  let values := map (fun sc => nth t (fst sc) 0) (sg_scenarios s) in
  let weights := map snd (sg_scenarios s) in
  m = weighted_mean values weights /\ d = sqrt (weighted_variance values weights).

(** a segment whose scenarios have values up to time index [t] and probabilities *)
Definition usable (t : nat) (s : segment R) : Prop := (forall sc, In sc (sg_scenarios s) -> (t < length (fst sc))%nat) /\
  are_weights (map (fun sc => nth t (fst sc) 0) (sg_scenarios s)) (map snd (sg_scenarios s)).

(** segments listed along the track: every one has at least two coordinates and starts where the one before ends, and the track does not
    come back to its start *)
Fixpoint along (start stop : R * R) (segs : list (segment R)) : Prop :=
  match segs with
  | [] => True
  | s :: r => exists b c, sg_coords s = stop :: b :: c /\ stop <> start /\ along start (last (b :: c) b) r
  end.
Definition listed_along (segs : list (segment R)) : Prop :=
  match segs with
  | [] => True
  | s :: r => exists a c, sg_coords s = a :: c /\ along a (last (a :: c) a) r
  end.
