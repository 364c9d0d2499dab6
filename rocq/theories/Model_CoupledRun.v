(** * Model of running the coupled train and track: rose/model/train_track_interaction.py 355-370 and 568-610 *)

From Coq Require Import List Bool ZArith Arith.
From Verif Require Import Num PyBase Model_Geometry Model_System Model_Element Model_Moving Model_Accumulation Model_Run.
Import ListNotations.

Section CoupledRun.
  Context {T : Type} `{Num T} `{Trig T}.
  Local Open Scope num_scope.

  (** a model part of an element, as far as forces need it (global_system.py 558-563): a part without stiffness of its own (a load or a
      condition), or a part with elements, its reshaped stiffness matrix, its active directions and its rotation matrix *)
  Inductive epart := OtherPart | ElementPart (aux : option (nat -> nat -> T)) (mask : tri bool) (rot : option (nat -> nat -> T)).
  (** an element of the mesh: its nodes by their places in the list of nodes of the track, and its model parts (geometry.py 139-156) *)
  Record melem := mkMelem { ml_nodes : list nat; ml_parts : list epart }.

  (** global_system.py 558-569: the first part that is an element part *)
  Fixpoint first_element_part (ps : list epart) : option (option (nat -> nat -> T) * tri bool * option (nat -> nat -> T)) :=
    match ps with
    | [] => None
    | OtherPart :: r => first_element_part r
    | ElementPart aux mask rot :: _ => Some (aux, mask, rot)
    end.

  (** global_system.py 575: the displacements of both nodes of an element at one time step behind each other *)
  Definition joined (a b : list T) (i : nat) : T := nth i (a ++ b) (lit 0).
  (** global_system.py 580-590 and geometry.py 196-207: the force at one time step; without a rotation matrix the displacements are
      taken as they are.  The inverse of the rotation matrix is its transpose *)
  Definition element_force_row (aux : nat -> nat -> T) (mask : tri bool) (rot : option (nat -> nat -> T)) (a b : list T) : res (list T) :=
    let u := joined a b in
    let local_u j := match rot with Some r => sumn 6 (fun m => mtrans r j m * u m) | None => u j end in
    let force j := sumn 6 (fun m => aux j m * local_u m) in
    assign_force_row
      (flat_map (fun d => if tget mask d then [let i := match d with DX => 0 | DY => 1 | DR => 2 end%nat in (force i - force (i + 3)%nat) / lit 2] else [])
                all_dirs) (tlist mask).

  (** global_system.py 546-590, [calculate_force_in_elements], one element: [disp] are the displacements that the nodes have so far.
      [None]: the attribute stays [None].  Displacements that are missing cannot be joined ([ValueError]).  Both nodes have
      displacements of the same times *)
  Definition force_in_element (disp : option (list (list (nodal T)))) (e : melem) : res (option (list (list T))) :=
    match ml_nodes e, first_element_part (ml_parts e) with
    | [i; j], Some (Some aux, mask, rot) =>
        match disp with
        | None => Err ErrValue
        | Some o => do a <- at_idx o i ;
                    do b <- at_idx o j ;
                    do f <- mapr (fun ab => element_force_row aux mask rot (nd_u (fst ab)) (nd_u (snd ab))) (combine a b) ;
                    Ok (Some f)
        end
    | _, _ => Ok None
    end.
  (** global_system.py 546-590 for all elements of a mesh *)
  Definition force_in_elements (disp : option (list (list (nodal T)))) (es : list melem) : res (list (option (list (list T)))) :=
    mapr (force_in_element disp) es.

  (** train_track_interaction.py 355-370, [assign_results_to_nodes]: the nodes of the track, then those of the train; the numbers of the
      nodes of the train begin behind those of the track *)
  Definition coupled_assign (memory : list T) (track train : list (node T)) (rows : list (row T)) : res (list (list (nodal T)) * list (list (nodal T))) :=
    do o1 <- mapr (fun n => mapr (nodal_result memory n) rows) track ;
    do o2 <- mapr (fun n => mapr (nodal_result memory n) rows) train ;
    Ok (o1, o2).

  (** train_track_interaction.py 568-577, [calculate_stage] (global_system.py 517-543) *)
  Definition coupled_stage (kind : solver_type) (dynamic static : T -> nat -> row T -> res (row T)) (time : list T) (a b : nat)
      (memory : list T) (track train : list (node T)) (rows : list (row T)) : res (list (row T) * (list (list (nodal T)) * list (list (nodal T)))) :=
    do rows <- match kind with
               | Dynamic => solver_calculate dynamic time a b rows
               | Static => solver_calculate static time a b rows
               | OtherType => Ok rows
               end ;
    do out <- coupled_assign memory track train rows ;
    Ok (rows, out).

  (** train_track_interaction.py 602-606: the loop over the stages *)
  Fixpoint coupled_stages (kind : solver_type) (dynamic static : T -> nat -> row T -> res (row T)) (time : list T) (memory : list T)
      (track train : list (node T)) (ids : list nat) (rows : list (row T)) (out : option (list (list (nodal T)) * list (list (nodal T))))
      : res (list (row T) * option (list (list (nodal T)) * list (list (nodal T)))) :=
    match ids with
    | a :: ((b :: _) as r) =>
        do q <- coupled_stage kind dynamic static time a b memory track train rows ;
        coupled_stages kind dynamic static time memory track train r (fst q) (Some (snd q))
    | _ => Ok (rows, out)
    end.

  (** what a user reads after the run: displacements, velocities, accelerations and forces of the solver (global_system.py 600-602), the
      results of the nodes of track and train, and the forces of the elements of the track *)
  Record coupled_results := mkCoupled { cr_rows : list (row T); cr_track : list (list (nodal T)); cr_train : list (list (nodal T));
                                        cr_forces : list (option (list (list T))) }.

  (** train_track_interaction.py 579-587, [finalise] (global_system.py 592-606): the coupled model has no elements of its own, so its
      own loop over elements does nothing *)
  Definition coupled_finalise (memory : list T) (track train : list (node T)) (es : list melem) (rows : list (row T))
      (out : option (list (list (nodal T)) * list (list (nodal T)))) : res coupled_results :=
    do f <- force_in_elements (option_map fst out) es ;
    do o <- coupled_assign memory track train rows ;
    Ok (mkCoupled rows (fst o) (snd o) f).

  (** train_track_interaction.py 589-610, [main] from the stages on: [rows] are the arrays of the initialised solver with the initial
      state at time 0 *)
  Definition coupled_main (kind : solver_type) (dynamic static : T -> nat -> row T -> res (row T)) (time : list T) (memory : list T)
      (track train : list (node T)) (es : list melem) (rows : list (row T)) : res coupled_results :=
    do q <- coupled_stages kind dynamic static time memory track train (stage_time_ids time) rows None ;
    coupled_finalise memory track train es (fst q) (snd q).
End CoupledRun.

Arguments epart T : clear implicits.
Arguments melem T : clear implicits.
Arguments coupled_results T : clear implicits.
