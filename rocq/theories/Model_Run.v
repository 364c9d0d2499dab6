(** * Model of running a calculation: stages, results of nodes and output (rose/model/global_system.py) *)

From Coq Require Import List Bool ZArith Arith.
From Verif Require Import Num PyBase Model_Geometry Model_System Model_Accumulation.
Import ListNotations.

(** the solver types known to [calculate_stage] (global_system.py 532-539) and any other *)
Inductive solver_type := Dynamic | Static | OtherType.

Section Run.
  Context {T : Type} `{Num T}.
  Local Open Scope num_scope.

  (** one time step of the arrays of the solver: displacements, velocities, accelerations and forces (global_system.py 617-622) *)
  Record row := mkRow { rw_u : list T; rw_v : list T; rw_a : list T; rw_f : list T }.

  (** the solver of the external package, as far as it is needed: it starts from the values at the first time index of the stage
      ([update_initial_conditions], global_system.py 494) and fills one time index after the other up to the last of the stage.
      [step dt t] is one step to time index [t]; the package divides the duration of the stage by its number of steps.  [step] and
      this rule are the package's and are taken as given (called in global_system.py 533 and 536) *)
  Fixpoint fill_steps (step : T -> nat -> row -> res row) (dt : T) (a n : nat) (rows : list row) : res (list row) :=
    match n with
    | O => Ok rows
    | S k => do r <- at_idx rows a ;
             do r' <- step dt (S a) r ;
             if Nat.ltb (S a) (length rows) then fill_steps step dt (S a) k (lset rows (S a) r') else Err ErrIndex
    end.
  (** global_system.py 533: a stage of the external solver *)
  Definition solver_calculate (step : T -> nat -> row -> res row) (time : list T) (a b : nat) (rows : list row) : res (list row) :=
    do ta <- at_idx time a ;
    do tb <- at_idx time b ;
    fill_steps step ((tb - ta) / nofnat (b - a)) a (b - a) rows.

  (** results of a node at one time step: displacements, velocities, accelerations, forces in the three directions (geometry.py 54-85) *)
  Record nodal := mkNodal { nd_u : list T; nd_v : list T; nd_a : list T; nd_f : list T }.
  (** the columns of one time step as a function; numbers are in range for nodes of the system (global_system.py 616-622) *)
  Definition columns (l : list T) (k : nat) : T := nth k l (lit 0).
  (** global_system.py 608-623, all quantities of one node at one time step; [memory] is what [numpy.empty] finds (geometry.py 84) *)
  Definition nodal_result (memory : list T) (n : node T) (r : row) : res nodal :=
    do u <- assign_result_to_node zero_row n (columns (rw_u r)) ;
    do v <- assign_result_to_node zero_row n (columns (rw_v r)) ;
    do a <- assign_result_to_node zero_row n (columns (rw_a r)) ;
    do f <- assign_result_to_node memory n (columns (rw_f r)) ;
    Ok (mkNodal u v a f).
  (** global_system.py 625-632, [assign_results_to_nodes]: every node at every time step.  [numpy.vectorize] of an empty list of nodes
      raises ([ValueError]) *)
  Definition assign_results_to_nodes (memory : list T) (ns : list (node T)) (rows : list row) : res (list (list nodal)) :=
    match ns with
    | [] => Err ErrValue
    | _ => mapr (fun n => mapr (nodal_result memory n) rows) ns
    end.

  (** global_system.py 517-543, [calculate_stage]; an unknown solver type only constructs an exception and does not raise it (541) *)
  Definition calculate_stage (kind : solver_type) (dynamic static : T -> nat -> row -> res row) (time : list T) (a b : nat)
      (memory : list T) (ns : list (node T)) (rows : list row) : res (list row * list (list nodal)) :=
    do rows <- match kind with
               | Dynamic => solver_calculate dynamic time a b rows
               | Static => solver_calculate static time a b rows
               | OtherType => Ok rows
               end ;
    do out <- assign_results_to_nodes memory ns rows ;
    Ok (rows, out).

  (** global_system.py 667-669: the loop over the stages; [out] are the results the nodes have so far, [None] before the first stage *)
  Fixpoint run_stages (kind : solver_type) (dynamic static : T -> nat -> row -> res row) (time : list T) (memory : list T) (ns : list (node T))
      (ids : list nat) (rows : list row) (out : option (list (list nodal))) : res (list row * option (list (list nodal))) :=
    match ids with
    | a :: ((b :: _) as r) =>
        do q <- calculate_stage kind dynamic static time a b memory ns rows ;
        run_stages kind dynamic static time memory ns r (fst q) (Some (snd q))
    | _ => Ok (rows, out)
    end.

  (** global_system.py 655-671 from the stages on: [rows] are the arrays of the initialised solver, with the initial state at time 0;
      the results are the output arrays (600-604) and the results of the nodes *)
  Definition run_all (kind : solver_type) (dynamic static : T -> nat -> row -> res row) (time : list T) (memory : list T) (ns : list (node T))
      (rows : list row) : res (list row * option (list (list nodal))) :=
    run_stages kind dynamic static time memory ns (stage_time_ids time) rows None.
End Run.

Arguments row T : clear implicits.
Arguments nodal T : clear implicits.
