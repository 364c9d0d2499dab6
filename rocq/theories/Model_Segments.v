(** * Model of a batch of segments: run_rose/run_wolf.py 25-58 (the soil data), run_rose/read_wolf.py 4-21 (the dynamic stiffness files) and
    run_rose/batch_calculation.py 177-198 and 269-305 (one calculation for each of them) *)

From Coq Require Import String Ascii List Bool ZArith Arith.
From Verif Require Import Num PyBase Model_Geometry Model_System Model_Element Model_Moving Model_Accumulation Model_Misc Model_Batch Model_Run Model_CoupledRun Model_DemoResults Model_Demo.
Import ListNotations.

(** whether a path has a slash (read_wolf.py 7) *)
Fixpoint has_slash (p : string) : bool :=
  match p with EmptyString => false | String c r => Ascii.eqb c "/"%char || has_slash r end.
(** [os.path.basename]: what comes after the last slash (read_wolf.py 7) *)
Fixpoint basename (p : string) : string :=
  match p with
  | EmptyString => EmptyString
  | String c r => if has_slash r then basename r else if Ascii.eqb c "/"%char then r else p
  end.
(** a name cut before its last dot (read_wolf.py 8) *)
Fixpoint cut_dot (p : string) : option (string * string) :=
  match p with
  | EmptyString => None
  | String c r => match cut_dot r with
                  | Some q => Some (String c (fst q), snd q)
                  | None => if Ascii.eqb c "."%char then Some (EmptyString, p) else None
                  end
  end.
(** whether a name has dots only (read_wolf.py 8) *)
Fixpoint only_dots (p : string) : bool :=
  match p with EmptyString => true | String c r => Ascii.eqb c "."%char && only_dots r end.
(** [os.path.splitext] of a name without slash: the extension starts at the last dot, and dots at the start are no extension (read_wolf.py 8
    and 10) *)
Definition splitext (p : string) : string * string :=
  match cut_dot p with
  | Some q => if only_dots (fst q) then (p, EmptyString) else q
  | None => (p, EmptyString)
  end.

Section Segments.
  Context {T : Type} `{Num T}.
  Local Open Scope num_scope.

  (** run_wolf.py 25-58, [read_file], for the soil data of the file: a name and a table for each scenario of each segment.  The table is that
      of [create_layering_for_wolf] (run_wolf.py 39-56 has the same lines) *)
  Definition read_file (data : dict (dict (layering T))) (first_layer : list (cell T)) : res (list (string * list (list (cell T)))) :=
    mapr (fun q => do rows <- create_layering_for_wolf (snd q) first_layer ; Ok (fst q, rows))
         (flat_map (fun s => map (fun c => (String.append (fst s) (String.append "_" (fst c)), snd c)) (snd s)) data).

  (** the values of a dynamic stiffness file (read_wolf.py 15-18) *)
  Record wolf := mkWolf { wf_name : string; wf_omega : T; wf_stiffness : T; wf_damping : T }.
  (** [data[k][0]] (read_wolf.py 16-18) *)
  Definition first_of (k : string) (data : dict (list T)) : res T := do l <- dget k data ; at_idx l 0.
  (** read_wolf.py 4-21, [read_wolf]: files with their names and what [json.load] gives for them; files with another extension are not
      opened *)
  Fixpoint read_wolf (files : list (string * res (dict (list T)))) : res (list wolf) :=
    match files with
    | [] => Ok []
    | (path, content) :: r =>
        let base := basename path in
        if String.eqb (snd (splitext base)) ".json" then
          do data <- content ;
          do omega <- first_of "omega" data ;
          do k <- first_of "stiffness" data ;
          do c <- first_of "damping" data ;
          do q <- read_wolf r ;
          Ok (mkWolf (fst (splitext base)) omega k c :: q)
        else read_wolf r
    end.

  (** a coupled model as [calculate] and [write_results] see it (batch_calculation.py 177-266): times, speeds, the nodes and the parts of the
      track, and what [main] computes for given speeds and parts; everything else of the model stays as it is *)
  Record batch_model := mkBatchModel {
    bm_time : list T; bm_velocities : list T; bm_track : list (node T); bm_parts : list (wpart T);
    bm_main : list T -> list (wpart T) -> res (coupled_results T) }.

  (** batch_calculation.py 189-191: stiffness and damping of the fifth part *)
  Definition set_soil (ps : list (wpart T)) (k c : T) : res (list (wpart T)) :=
    do p <- at_idx ps 4 ;
    Ok (firstn 4 ps ++ mkW (w_soil p) (w_nodes p) (w_els p) (Some k) (Some c) :: skipn 5 ps).
  (** batch_calculation.py 177-198, [calculate]: the changed model and its results *)
  Definition calculate (k c : T) (m : batch_model) (velocity : T) : res (batch_model * coupled_results T) :=
    do ps <- set_soil (bm_parts m) k c ;
    let v := change_velocity (bm_velocities m) velocity in
    do r <- bm_main m v ps ;
    Ok (mkBatchModel (bm_time m) v (bm_track m) ps (bm_main m), r).

  (** batch_calculation.py 296-305: one calculation after the other, each with a copy of the model; the folder with the files, which hold the
      series and the frequency, and the error that ended the loop *)
  Fixpoint batch_loop (velocity : T) (m : batch_model) (l : list (T * T * (string * T))) (folder : dict (written T * T)) : dict (written T * T) * option err :=
    match l with
    | [] => (folder, None)
    | (k, c, (segment, omega)) :: r =>
        match (do x <- calculate k c m velocity ;
               batch_write_results segment 10 (bm_time (fst x)) (bm_velocities (fst x)) (bm_track (fst x)) (bm_parts (fst x)) (snd x)) with
        | Err e => (folder, Some e)
        | Ok w => batch_loop velocity m r (dset (fst w) (snd w, omega) folder)
        end
    end.
  (** batch_calculation.py 269-305, [main]: stiffness and damping per metre times the sleeper distance *)
  Definition batch_main (files : list (string * res (dict (list T)))) (sleeper_distance velocity : T) (m : batch_model) (folder : dict (written T * T))
      : dict (written T * T) * option err :=
    match read_wolf files with
    | Err e => (folder, Some e)
    | Ok results =>
        let stiffnesses := map (fun w => wf_stiffness w * sleeper_distance) results in
        let dampings := map (fun w => wf_damping w * sleeper_distance) results in
        batch_loop velocity m (combine (combine stiffnesses dampings) (combine (map wf_name results) (map wf_omega results))) folder
    end.
End Segments.

Arguments wolf T : clear implicits.
Arguments batch_model T : clear implicits.
