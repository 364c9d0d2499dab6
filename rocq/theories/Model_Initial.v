(** * Model of the initial state of the coupled system: rose/model/train_track_interaction.py 371-409 *)

From Coq Require Import Reals List Bool ZArith Arith.
From Verif Require Import Num PyBase Model_Geometry Model_System Model_Element Model_Moving Model_Train Model_Coupled Model_Accumulation.
Import ListNotations.

Section Initial.
  Context {T : Type} `{Num T} `{Trig T} `{Pow T}.
  Local Open Scope num_scope.

  (** what [calculate_initial_state] leaves: the displacements at time 0, the static deformations of the contacts, the stiffness
      matrix and the force vector of the coupled system (train_track_interaction.py 388-409).  Velocities are zero; damping and
      mass are combined as the stiffness *)
  Record initial := mkInitial { in_u : list T; in_static : list T; in_K : mat T; in_F : list T }.

  (** train_track_interaction.py 388-409, [calculate_initial_state], with 371-386, global_system.py 337-353 and
      train_model.py 962-1000.  [solve] is the static solver of the external package.  [Kt], [Ft] are stiffness and force vector of
      the track, [Kv], [Fv] those of the train, [cs] the contacts at time 0, [wheels] the vertical degrees of freedom of the wheels
      within the train, [loads] the static loads of the wheels ([y_force] of the wheel loads, lines 170-181) *)
  Definition calculate_initial_state (solve : mat T -> list T -> res (list T)) (Kt : mat T) (Ft : list T) (cs : list (contact T))
      (Kv : mat T) (Fv : list T) (wheels : list nat) (G pow : T) (loads : list T) : res initial :=
    let nt := length Ft in
    let nv := length Fv in
    do ut <- solve Kt Ft ;
    let disp := disp_at_wheels ut cs in
    do q <- initial_system Kv Fv nv disp wheels ;
    do u1 <- solve (fst q) (snd q) ;
    do uv <- initial_displacement nv disp wheels u1 ;
    do static <- mapr (static_deformation G pow) loads ;
    do K <- combine_matrices nt (nt + nv) Kt Kv ;
    do u <- combine_solution (nt + nv) nt ut uv ;
    do F <- combine_rhs (repeat (lit 0) (nt + nv)) Ft Fv nt ;
    Ok (mkInitial u static K F).
End Initial.

Arguments initial T : clear implicits.
