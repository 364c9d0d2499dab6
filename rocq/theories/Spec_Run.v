(** * Vocabulary for statements about running a calculation *)

From Coq Require Import Reals List Bool ZArith Arith.
From Verif Require Import Num PyBase Model_Geometry Model_System Spec_System Model_Run.
Import ListNotations.
Local Open Scope R_scope.

(** [a] and [b] are neighbours in a list *)
Definition neighbours {A} (l : list A) (a b : A) : Prop := exists p q, l = p ++ a :: b :: q.

(** mean step size between two time indices *)
Definition mean_step (time : list R) (a b : nat) : R := (nth b time 0 - nth a time 0) / INR (b - a).

(** [rows] has been computed from its first row by one step to each later time index, with step size [dt i] from index [i] *)
Definition marched (step : R -> nat -> row R -> res (row R)) (dt : nat -> R) (rows : list (row R)) : Prop :=
  forall i, (S i < length rows)%nat -> exists r r', nth_error rows i = Some r /\ nth_error rows (S i) = Some r' /\ step (dt i) (S i) r = Ok r'.

(** a result of a node at one time step agrees with the row of the solver: in active directions it is the value with the number of
    that direction, in the other directions displacement, velocity and acceleration are zero *)
Definition agrees_with_row (n : node R) (r : row R) (o : nodal R) : Prop :=
  exists u v a f : tri R, o = mkNodal (tlist u) (tlist v) (tlist a) (tlist f) /\
  forall d, match tget (n_dof n) d with
            | Some k => tget u d = nth k (rw_u r) 0 /\ tget v d = nth k (rw_v r) 0 /\ tget a d = nth k (rw_a r) 0 /\ tget f d = nth k (rw_f r) 0
            | None => tget u d = 0 /\ tget v d = 0 /\ tget a d = 0
            end.

(** directions are switched on exactly where they have a number *)
Definition flags_match (n : node R) : Prop := forall d, tget (n_flag n) d = true <-> tget (n_dof n) d <> None.
