(** * Vocabulary for statements about fitting parameters *)

From Coq Require Import String.
From Coq Require Import Reals List Arith.
From Verif Require Import Num PyBase Model_System Model_Optimisation Spec_Accumulation.
Import ListNotations.
Local Open Scope R_scope.

(** parameter [i] belongs to the attribute [name] of part [j] of the track: the parameters are numbered through the chosen parts
    and, in each of them, through the chosen names *)
Definition belongs (refs : list nat) (parts : list opart) (i j : nat) (name : string) : Prop :=
  exists k l p, nth_error parts k = Some p /\ nth_error refs j = Some (opart_ref p) /\ nth_error (opart_names p) l = Some name /\
    i = (list_sum (map (fun q => List.length (opart_names q)) (firstn k parts)) + l)%nat.
Definition parameter_count (parts : list opart) : nat := list_sum (map (fun q => List.length (opart_names q)) parts).

(** [m] is [m0] with the parameters in the attributes to which they belong (the last one, if several belong to it) and nothing
    else changed *)
Definition written {M} (refs : list nat) (parts : list opart) (params : list R) (m0 m : model R M) : Prop :=
  md_rest m = md_rest m0 /\ List.length (md_parts m) = List.length (md_parts m0) /\
  forall j a0 a, nth_error (md_parts m0) j = Some a0 -> nth_error (md_parts m) j = Some a -> forall name,
    (forall i v, belongs refs parts i j name -> (forall i', belongs refs parts i' j name -> (i' <= i)%nat) -> nth_error params i = Some v -> a name = Some v) /\
    ((forall i, ~ belongs refs parts i j name) -> a name = a0 name).

(** the state after a history of evaluations: parameter values, and whether the method is 'maximum' *)
Definition after_history {M} (main : model R M -> model R M * option err) (get : model R M -> string -> res (mat R)) (o : optimisation R M) (history : list (list R * bool)) : optimisation R M :=
  fold_left (fun o e => fst (residual_function main get (snd e) (fst e) o)) history o.

(** the entries of column [c] of a result array at the given time steps *)
Definition column (a : mat R) (steps : list nat) (c : nat) : list R := map (fun t => me a t c) steps.
(** the requested part of a result array exists *)
Definition selectable (a : mat R) (r : model_results R) : Prop :=
  mres_steps r <> [] /\ (forall t, In t (mres_steps r) -> (t < mr a)%nat) /\ (forall c, In c (mres_indices r) -> (c < mc a)%nat).
(** [row] is what the function of request [r] returns for the requested time steps and indices of the result [name] of [m] *)
Definition applied {M} (get : model R M -> string -> res (mat R)) (m : model R M) (r : model_results R) (f : list (list R) -> res (list R)) (name : string) (row : list R) : Prop :=
  exists a, get m name = Ok a /\ (forall t, In t (mres_steps r) -> (t < mr a)%nat) /\ (forall c, In c (mres_indices r) -> (c < mc a)%nat) /\
    f (map (fun t => map (me a t) (mres_indices r)) (mres_steps r)) = Ok row.
