(** * Vocabulary for statements about generated meshes *)

From Coq Require Import Reals List ZArith Arith.
From Verif Require Import Num PyBase Model_Geometry Spec_Geometry.
Import ListNotations.
Local Open Scope R_scope.

(** a node list of a mesh contains the object [i] at point [p], and its index is its place in the list *)
Definition placed (mesh : list (node R)) (i : nat) (p : tri R) : Prop :=
  exists k n, nth_error mesh k = Some n /\ n_id n = i /\ n_coord n = p /\ n_index n = Some k.

(** the elements of a line of nodes: element [i] runs from node [i] to node [i + 1] *)
Definition in_line (nodes : list nat) (els : list (nat * nat)) : Prop :=
  length els = (length nodes - 1)%nat /\
  forall i, (S i < length nodes)%nat -> nth_error els i = Some (nth i nodes 0%nat, nth (S i) nodes 0%nat).

(** [x] coincides with no other of the listed values, for the tolerance of a search along the track *)
Definition near (a b : R) : Prop := Rabs (a - b) <= 1 / 100000000 + 1 / 100000 * Rabs b.

(** number of sleepers of tracks that are made for the given numbers of sleepers (and soil depths) *)
Definition sleeper_count (specs : list (nat * R)) : nat := list_sum (map fst specs).

(** where the sleepers lie when the tracks are joined with [gap] between the last sleeper of a track and the first sleeper
    of the next one, the first sleeper at [x] *)
Fixpoint sleeper_places (gap d x : R) (specs : list (nat * R)) : list R :=
  match specs with
  | [] => []
  | (n, _) :: q => map (fun i => x + INR i * d) (seq 0 n) ++ sleeper_places gap d (x + INR (n - 1) * d + gap) q
  end.
