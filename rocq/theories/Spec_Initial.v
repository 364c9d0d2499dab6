(** * Vocabulary for statements about the initial state of the coupled system *)

From Coq Require Import Reals List Bool Arith.
From Verif Require Import Num PyBase Model_Geometry Model_System Model_Element Model_Coupled Model_Initial Spec_System Spec_Coupled.
Import ListNotations.
Local Open Scope R_scope.

(** a solver of linear systems: what it returns has the right length and solves the system *)
Definition solves (solve : mat R -> list R -> res (list R)) : Prop :=
  forall K F u, solve K F = Ok u -> length u = mc K /\ forall r, (r < mr K)%nat -> mulv (mc K) (me K) (fun j => nth j u 0) r = nth r F 0.

(** row [r] of a matrix times displacements *)
Definition resistance (K : mat R) (u : list R) (r : nat) : R := mulv (mc K) (me K) (fun j => nth j u 0) r.

(** the contacts of a model with a track of [nt] and a train of [nv] degrees of freedom, one for each wheel *)
Definition contacts_fit (cs : list (contact R)) (wheels : list nat) (loads : list R) (nt nv : nat) : Prop :=
  length cs = length wheels /\ length loads = length wheels /\ (forall c, In c cs -> four c) /\
  (forall i, In i (touched cs) -> (i < nt)%nat) /\ NoDup wheels /\ (forall i, In i wheels -> (i < nv)%nat).

(** the force vector of the track: every wheel load with its shape factors, and nothing else *)
Definition wheel_loads_only (Ft : list R) (cs : list (contact R)) (loads : list R) : Prop :=
  forall k, (k < length Ft)%nat -> nth k Ft 0 = nsum (contributions cs loads k).

(** the data of the first contact evaluation, from the initial state *)
Definition at_start (s : initial R) (cs : list (contact R)) (nt : nat) (wheels : list nat) (irr : list R) (G pow : R) : interaction R :=
  mkInteraction cs (map (fun w => (nt + w)%nat) wheels) (in_static s) irr G pow.
