(** * Model of the demonstration scripts: run_rose/demo.py and run_rose/batch_calculation.py

    demo_rf.py, demo_semi_rigid.py and demo_semi_rigid_rf.py have the same functions *)

From Coq Require Import List Bool ZArith Arith.
From Verif Require Import Num PyBase Model_Geometry Model_System Model_Element Model_Moving Model_Coupled Model_Accumulation.
Import ListNotations.

Section Demo.
  Context {T : Type} `{Num T}.
  Local Open Scope num_scope.

  (** the four time parameters, demo.py 55-64 *)
  Record time_data := mkTimeData { td_tot_ini : T; td_n_ini : Z; td_tot_calc : T; td_n_calc : Z }.

  (** demo.py 55-64, [time_integration] *)
  Definition time_integration (running_time time_step : T) : res time_data :=
    if neqb time_step (lit 0) then Err ErrZeroDivision
    else Ok (mkTimeData (ndec 1 4) 5 running_time (ntrunc (running_time / time_step))).

  (** demo.py 99-105 (batch_calculation.py 91-96): the initialisation times and all times; [initialisation_time[-1]] raises when
      there is none *)
  Definition demo_time (d : time_data) : res (list T * list T) :=
    do ini <- linspace (lit 0) (td_tot_ini d) (td_n_ini d) ;
    match ini with
    | [] => Err ErrIndex
    | _ :: _ =>
        let e := last ini (lit 0) in
        do calc <- linspace e (e + td_tot_calc d) (td_n_calc d) ;
        Ok (ini, ini ++ skipn 1 calc)
    end.

  (** demo.py 131-135 (batch_calculation.py 130-134): speed at every time, zero at the initialisation times *)
  Definition demo_velocities (ini time : list T) (velocity : T) : list T :=
    let v := repeat (lit 1 * velocity) (length time) in
    repeat (lit 0) (Nat.min (length ini) (length v)) ++ skipn (length ini) v.

  (** batch_calculation.py 193-194 in [calculate]: another speed for a train that has been set up *)
  Definition change_velocity (velocities : list T) (velocity : T) : list T :=
    map (fun v => if nltb (ndec 1 10) v then velocity else v) velocities.

  (** demo.py 12-21, [geometry]: sleepers per segment and their distance *)
  Definition demo_geometry (nb_sleeper : list Z) (fact : T) : res (list Z * T) :=
    if neqb fact (lit 0) && negb (Nat.eqb (length nb_sleeper) 0) then Err ErrZeroDivision
    else Ok (map (fun n => ntrunc (lit n / fact)) nb_sleeper, ndec 6 1 * fact).

  (** demo.py 67-72, [soil_parameters]: stiffness and damping of the soil under one sleeper of every segment *)
  Definition soil_parameters (sleeper_distance : T) (stiffness damping : list T) : list T * list T :=
    (map (fun s => s * sleeper_distance) stiffness, map (fun d => d * sleeper_distance) damping).
End Demo.

Arguments time_data T : clear implicits.
