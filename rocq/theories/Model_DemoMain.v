(** * Model of the main functions of the demonstration scripts: run_rose/demo.py 295-343

    demo_rf.py 297-354, demo_semi_rigid.py 323-378 and demo_semi_rigid_rf.py 321-381 have the same loop over the same trains *)

From Coq Require Import String.
From Coq Require Import List Bool ZArith Arith.
From Verif Require Import Num PyBase Model_Accumulation Model_Moving Model_Train Model_Coupled Model_Demo Model_DefaultTrains.
Import ListNotations.

(** [train_type.name] (demo.py 323, default_trains.py 7-17) *)
Definition train_name (ty : train_type) : string :=
  match ty with
  | DOUBLEDEKKER => "DOUBLEDEKKER" | SPRINTER_SLT => "SPRINTER_SLT" | SPRINTER_SGM => "SPRINTER_SGM" | ICM => "ICM" | CARGO_FALNS5 => "CARGO_FALNS5"
  | CARGO_SGNS => "CARGO_SGNS" | CARGO_TAPPS => "CARGO_TAPPS" | TRAXX => "TRAXX" | BR189 => "BR189"
  end%string.

Section DemoMain.
  Context {T : Type} `{Num T}.
  Local Open Scope num_scope.

  (** one turn of the loop: train, speed and running time (demo.py 312-319) *)
  Record demo_case := mkCase { dc_type : train_type; dc_speed : T; dc_running : T }.
  (** demo.py 312-319: the six trains *)
  Definition demo_cases : list demo_case :=
    let fast := lit 140 / ndec 36 1 in let slow := lit 80 / ndec 36 1 in
    [mkCase DOUBLEDEKKER fast (lit 14); mkCase SPRINTER_SLT fast (lit 14); mkCase SPRINTER_SGM fast (lit 14);
     mkCase CARGO_TAPPS slow (lit 23); mkCase TRAXX slow (lit 23); mkCase BR189 slow (lit 23)].

  (** what [create_model] sets up for a train: the train, the initialisation times, all times and the speeds (demo.py 99-105, 131-135
      and 152-156) *)
  Record setup := mkSetup { su_train : generated T; su_ini : list T; su_time : list T; su_velocities : list T }.
  (** demo.py 321-334 with [create_model] 74-175: one cart is the default of [set_train] (default_trains.py 20).  The track, whose
      settings are the same for all trains, is not repeated here: building it does not raise (C52, C114) *)
  Definition demo_setup (start step : T) (carts : nat) (c : demo_case) : res setup :=
    do d <- time_integration (dc_running c) step ;
    do t <- demo_time d ;
    do g <- set_train (dc_type c) start carts ;
    Ok (mkSetup g (fst t) (snd t) (demo_velocities (fst t) (snd t) (dc_speed c))).

  (** a train as [calculate_distances] sees it (train_model.py 816-841): position of each cart, distances of its bogies, distances of
      their wheels *)
  Definition train_layout (g : generated T) : list (T * list (T * list T)) :=
    map (fun cp => (snd cp, map (fun bd => (snd bd, bg_wheel_distances (bogie_of (gn_train g) (fst bd))))
                              (combine (ct_bogies (fst cp)) (ct_bogie_distances (fst cp)))))
        (combine (tn_carts (gn_train g)) (gn_positions g)).
  (** [wheel.distances] of all wheels (train_model.py 816-841).  Simplified: a wheel of a bogie that two carts share is listed for both *)
  Definition wheel_histories (s : setup) : res (list (list T)) :=
    do hs <- train_distances (su_time s) (su_velocities s) (train_layout (su_train s)) ;
    Ok (flat_map (fun cart => flat_map snd (snd cart)) hs).
  (** train_track_interaction.py 411-432: whether the train is on the rail at all times *)
  Definition demo_check (rail_x : list T) (s : setup) : res unit :=
    do ws <- wheel_histories s ; check_train_position rail_x ws.

  (** demo.py 320-341: the loop.  [calculate] is [coupled_model.main()] and [write_results]: what the file of the train holds, or the
      exception.  The result are the files written and the exception that ends the script *)
  Fixpoint demo_main {A : Type} (calculate : demo_case -> setup -> res A) (start step : T) (carts : nat) (cases : list demo_case) : list (string * A) * option err :=
    match cases with
    | [] => ([], None)
    | c :: r =>
        match (do s <- demo_setup start step carts c ; calculate c s) with
        | Err e => ([], Some e)
        | Ok a => let (files, e) := demo_main calculate start step carts r in ((train_name (dc_type c), a) :: files, e)
        end
    end.
End DemoMain.

Arguments demo_case T : clear implicits.
Arguments setup T : clear implicits.
