(** * Vocabulary for loads given as tables *)

From Coq Require Import Reals List.
From Verif Require Import Num PyBase Model_Geometry Model_Tables.
Import ListNotations.
Local Open Scope R_scope.

(** the force a user gave for node [i] at step [t]: none without a table *)
Definition given (o : option (table R)) (i t : nat) : R := match o with Some m => tb_val m i t | None => 0 end.
(** a table, if there is one, has a row for each of [n] nodes and a column for each of [k] steps *)
Definition wide (n k : nat) (o : option (table R)) : Prop := match o with Some m => (n <= tb_rows m)%nat /\ (k <= tb_cols m)%nat | None => True end.
Definition all_wide (n k : nat) (ts : tri (option (table R))) : Prop := wide n k (tx ts) /\ wide n k (ty ts) /\ wide n k (tr ts).
(** the forces that act at step [t]: one value per node and direction *)
Definition forces (n : nat) (ts : tri (option (table R))) (t : nat) : tri (option (list R)) :=
  let row o := Some (map (fun i => given o i t) (seq 0 n)) in T3 (row (tx ts)) (row (ty ts)) (row (tr ts)).
(** initialising and going to steps below [k], in any order *)
Definition runs (k : nat) (a : action R) : Prop := match a with Initialise => True | Step t => (t < k)%nat | _ => False end.
