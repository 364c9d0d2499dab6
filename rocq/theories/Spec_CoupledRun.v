(** * Vocabulary for statements about running the coupled train and track *)

From Coq Require Import Reals List.
From Verif Require Import Num PyBase Model_Geometry Model_System Model_Element Model_Run Model_CoupledRun.
Import ListNotations.
Local Open Scope R_scope.

(** the displacements of two nodes behind each other *)
Definition six (a b : tri R) (i : nat) : R :=
  match i with 0%nat => tx a | 1%nat => ty a | 2%nat => tr a | 3%nat => tx b | 4%nat => ty b | 5%nat => tr b | _ => 0 end.
(** sum over the six displacements *)
Definition sum6 (f : nat -> R) : R := f 0%nat + f 1%nat + f 2%nat + f 3%nat + f 4%nat + f 5%nat.
(** displacements in the axes of an element whose axes are the rows of the transposed matrix [rot] *)
Definition in_axes (rot : option (nat -> nat -> R)) (u : nat -> R) (j : nat) : R :=
  match rot with Some r => sum6 (fun m => r m j * u m) | None => u j end.
(** the force at an end of an element: stiffness times displacements, both in the axes of the element *)
Definition end_force (k : nat -> nat -> R) (rot : option (nat -> nat -> R)) (a b : tri R) (j : nat) : R :=
  sum6 (fun m => k j m * in_axes rot (six a b) m).
(** the force of an element with ends displaced by [a] and [b]: in active directions the mean of the forces at both ends, the second with
    opposite sign, in the others zero *)
Definition mean_force (k : nat -> nat -> R) (mask : tri bool) (rot : option (nat -> nat -> R)) (a b f : tri R) : Prop :=
  tx f = (if tx mask then (end_force k rot a b 0 - end_force k rot a b 3) / 2 else 0) /\
  ty f = (if ty mask then (end_force k rot a b 1 - end_force k rot a b 4) / 2 else 0) /\
  tr f = (if tr mask then (end_force k rot a b 2 - end_force k rot a b 5) / 2 else 0).

(** the first part of an element that has elements of its own: the parts before it are loads and conditions *)
Definition stiffness_part (e : melem R) (aux : option (nat -> nat -> R)) (mask : tri bool) (rot : option (nat -> nat -> R)) : Prop :=
  exists before after, ml_parts e = before ++ ElementPart aux mask rot :: after /\ forall p, In p before -> p = OtherPart.

(** an element that has a force: two nodes, and a stiffness *)
Definition carries_force (e : melem R) (i j : nat) (k : nat -> nat -> R) (mask : tri bool) (rot : option (nat -> nat -> R)) : Prop :=
  ml_nodes e = [i; j] /\ stiffness_part e (Some k) mask rot.
(** an element without a force *)
Definition carries_none (e : melem R) : Prop :=
  (forall i j, ml_nodes e <> [i; j]) \/ (forall p, In p (ml_parts e) -> p = OtherPart) \/ exists mask rot, stiffness_part e None mask rot.

(** displacements of a node at a time *)
Definition displaced (o : list (list (nodal R))) (n t : nat) (u : tri R) : Prop :=
  exists l x, nth_error o n = Some l /\ nth_error l t = Some x /\ nd_u x = tlist u.
