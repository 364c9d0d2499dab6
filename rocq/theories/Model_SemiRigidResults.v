(** * Model of what the scripts with a hinge in the rail write after a run: run_rose/demo_semi_rigid.py 192-322 and
    run_rose/demo_semi_rigid_rf.py 191-320 (the same function) *)

From Coq Require Import String List Bool ZArith Arith.
From Verif Require Import Num PyBase Model_Geometry Model_System Model_Element Model_Moving Model_Accumulation Model_Run Model_CoupledRun Model_DemoResults Model_Train.
Import ListNotations.

Section SemiRigidResults.
  Context {T : Type} `{Num T}.
  Local Open Scope num_scope.

  (** the comparison behind [rail_node not in rail_nodes] (demo_semi_rigid.py 217): the same object, or nodes with equal coordinates
      (geometry.py 87-117).  Simplified: the comparison of two different nodes with equal coordinates also makes them share their numbers,
      which no displacement or force that was computed before depends on; a node is its place in the mesh of the track *)
  Definition rail_node_is (track : list (node T)) (i k : nat) : bool :=
    Nat.eqb i k ||
    match nth_error track i, nth_error track k with
    | Some a, Some b => coords_equal (n_coord a) (n_coord b)
    | _, _ => false
    end.

  (** demo_semi_rigid.py 206-221: the first four parts of the track as one: the nodes of one part after the other, each node once, and the
      elements of one part after the other *)
  Definition rail_of_four (track : list (node T)) (ps : list (wpart T)) : res (wpart T) :=
    do four <- mapr (at_idx ps) (seq 0 4) ;
    Ok (mkW false (unique_by (rail_node_is track) [] (flat_map w_nodes four)) (flat_map w_els four) None None).

  (** demo_semi_rigid.py 192-322, [write_results]: rail pads are the fifth part and sleepers the sixth (229-237), everything else is as in
      demo.py *)
  Definition semi_rigid_write_results (segment : string) (time_out velocities : list T) (outputs : list nat) (track : list (node T)) (es : list (melem T))
      (ps : list (wpart T)) (c : coupled_results T) (s : gsys T)
      : res (string * written T * list nat * ((nat -> nat -> T) * (nat -> nat -> T) * list nat)) :=
    do rail <- rail_of_four track ps ;
    do w <- write_series 1 (do v <- mapr (at_idx velocities) outputs ; Ok (time_out, v)) track (rail :: skipn 4 ps) (Ok (soil_nodes ps, soil_elements ps)) c ;
    do m <- soil_matrices track es (mr (gK s)) ps ;
    Ok (String.append segment ".pickle", w, soil_ids 0 ps, m).
End SemiRigidResults.
