(** * Model of the scripts that run the settlement of a batch and collect it: run_rose/batch_varandas.py and part of run_rose/batch_post_process.py

    Directories are lists of entries in the order in which they are listed; reading a file gives its dictionary or raises. *)

From Coq Require Import List Bool ZArith Arith String Ascii.
From Verif Require Import Num PyBase Model_Accumulation Model_Batch.
Import ListNotations.
Local Notation length := List.length.

(** the characters of a text the other way round (used for batch_varandas.py 24, 28, 32 and 68) *)
Definition reversed (s : string) : string := string_of_list_ascii (rev (list_ascii_of_string s)).
(** [s.endswith(suffix)] (batch_varandas.py 24, 28 and 32; batch_post_process.py 260) *)
Definition ends_with (suffix s : string) : bool := String.prefix (reversed suffix) (reversed s).
(** the left half of [s.strip(chars)]: characters of the set are taken away as long as there are any (batch_varandas.py 68) *)
Fixpoint lstrip (chars s : string) : string :=
  match s with
  | EmptyString => EmptyString
  | String c r => if existsb (Ascii.eqb c) (list_ascii_of_string chars) then lstrip chars r else s
  end.
(** [s.strip(chars)]: both ends (batch_varandas.py 68) *)
Definition strip (chars s : string) : string := reversed (lstrip chars (reversed (lstrip chars s))).

(** the attributes of an object of the class [Varandas] that are not special methods of Python (accumulation_model.py 82-118 and 121) *)
Definition varandas_attributes : list string :=
  ["alpha"; "beta"; "gamma"; "N0"; "F0"; "M_alpha_beta"; "nb_nodes"; "histogram_force"; "force_max"; "max_val_force"; "h_f"; "nb_int_step";
   "force_scl_fct"; "disp_scl_fct"; "settlement"]%string.
(** [obj.name]: a missing attribute raises [AttributeError] (batch_varandas.py 72, 73 and 76) *)
Definition getattr (attributes : list string) (name : string) : res unit :=
  if existsb (String.eqb name) attributes then Ok tt else Err ErrAttribute.

Section Varandas_batch.
  Context {T : Type} `{Num T}.
  Local Open Scope num_scope.

  (** an entry of the directory with results: name, [isfile], and the dictionary in the file (only tables of numbers matter); a file that
      cannot be read raises (batch_varandas.py 23-46) *)
  Record entry := mkEntry { en_name : string; en_isfile : bool; en_data : res (dict (list (list T))) }.
  (** batch_varandas.py 23-32: the files of one kind of train *)
  Definition files_of (kind : string) (d : list entry) : list entry :=
    filter (fun e => en_isfile e && ends_with kind (en_name e)) d.

  (** batch_varandas.py 50-62: the traffic of the three trains *)
  Definition scenario_traffic (ic sp cg : list (list T)) : list (train_type T) :=
    [{| tt_per_hour := lit 6; tt_hours := lit 6; tt_axles := lit 16; tt_forces := ic |};
     {| tt_per_hour := lit 6; tt_hours := lit 16; tt_axles := lit 16; tt_forces := sp |};
     {| tt_per_hour := lit 27; tt_hours := lit 1; tt_axles := lit 40; tt_forces := cg |}].

  (** what a file that is written holds: the traffic, the days and the nodes of the calculation (batch_varandas.py 72-76) *)
  Record job := mkJob { jb_traffic : list (train_type T); jb_days : T; jb_nodes : list nat }.

  (** batch_varandas.py 64-76, the body of [try]: the calls on the object, which has the given attributes.  What the calls do is only
      their request; the model object of this commit raises at the first of them *)
  Definition scenario_output (attributes : list string) (name : string) (trains : list (train_type T)) : res (string * job) :=
    let out_name := strip "intercity.pickle" name in
    do _ <- getattr attributes "read_traffic" ;
    do _ <- getattr attributes "settlement" ;
    do _ <- getattr attributes "dump" ;
    Ok (append out_name "_incl_cargo_100d.json", mkJob trains (lit 100) [100%nat]).

  (** batch_varandas.py 38-88: the loop over the triples of files; [except: pass] goes on with the next triple *)
  Fixpoint scenario_loop (attributes : list string) (l : list (entry * (entry * entry))) (out : dict job) : res (dict job) :=
    match l with
    | [] => Ok out
    | (ic, (sp, cg)) :: r =>
        do dic <- en_data ic ;
        do dsp <- en_data sp ;
        do dcg <- en_data cg ;
        do fic <- dget "vertical_force_soil" dic ;
        do fsp <- dget "vertical_force_soil" dsp ;
        do fcg <- dget "vertical_force_soil" dcg ;
        match scenario_output attributes (en_name ic) (scenario_traffic fic fsp fcg) with
        | Ok (n, j) => scenario_loop attributes r (dset n j out)
        | Err _ => scenario_loop attributes r out
        end
    end.

  (** batch_varandas.py 9-88, [main], for model objects with the given attributes: the files written in the output directory, a file
      with the same name being overwritten; different numbers of files fail the assertion ([ErrOther]) *)
  Definition varandas_batch (attributes : list string) (d : list entry) : res (dict job) :=
    let ic := files_of "intercity.pickle" d in
    let sp := files_of "sprinter.pickle" d in
    let cg := files_of "cargo.pickle" d in
    if Nat.eqb (length ic) (length sp) && Nat.eqb (length sp) (length cg) then scenario_loop attributes (combine ic (combine sp cg)) []
    else Err ErrOther.

  (** a result of a calculation: its name and the vertical displacements of the soil nodes (batch_post_process.py 263-266) *)
  Record outcome := mkOutcome { oc_name : string; oc_soil : list (list T) }.
  (** [min(…)] of Python; an empty list raises [ValueError] (batch_post_process.py 265) *)
  Definition min_list (l : list T) : res T :=
    match l with [] => Err ErrValue | a :: r => Ok (fold_left (fun acc x => if nltb x acc then x else acc) r a) end.
  (** what is collected of a scenario: minimum displacement, probability and stiffness (batch_post_process.py 280-283) *)
  Record scenario := mkScenario { sc_disp : T; sc_probability : T; sc_stiffness : T }.
  (** what is collected of a segment: coordinates, further values by name, and scenarios (batch_post_process.py 274-278) *)
  Record segment := mkSegment { sg_coordinates : list (T * T); sg_values : dict T; sg_scenarios : dict scenario }.

  (** batch_post_process.py 265-283, one file of results; [wolf] holds the stiffnesses of the files in the directory of dynamic stiffnesses *)
  Definition add_outcome (s : sos T) (wolf : dict (list T)) (node_nr : nat) (prev : string) (d : dict segment) (o : outcome)
      : res (string * dict segment) :=
    do row <- at_idx (oc_soil o) node_nr ;
    do min_disp <- min_list row ;
    do ids <- name_parts (oc_name o) ;
    let segment_id := fst ids in
    let scenario_id := snd ids in
    do seg <- dget segment_id s ;
    do sce <- dget scenario_id seg ;
    let probability := fst sce / lit 100 in
    do st <- match dget (append (oc_name o) ".json") wolf with Ok l => at_idx l 0 | Err _ => Err ErrFileNotFound end ;
    let d := if String.eqb prev segment_id then d
             else dset segment_id (mkSegment (snd sce) [("w_disp"%string, lit 0); ("w_stiffness"%string, lit 0)] []) d in
    do cur <- dget segment_id d ;
    Ok (segment_id, dset segment_id (mkSegment (sg_coordinates cur) (sg_values cur) (dset scenario_id (mkScenario min_disp probability st) (sg_scenarios cur))) d).
  (** batch_post_process.py 259-285: the loop over the files *)
  Fixpoint add_outcomes (s : sos T) (wolf : dict (list T)) (node_nr : nat) (prev : string) (d : dict segment) (l : list outcome)
      : res (dict segment) :=
    match l with
    | [] => Ok d
    | o :: r => do q <- add_outcome s wolf node_nr prev d o ; add_outcomes s wolf node_nr (fst q) (snd q) r
    end.
  (** batch_post_process.py 251-287, [get_results]; the list holds the files with the extension [.pickle] in the order of the directory *)
  Definition get_results (s : sos T) (wolf : dict (list T)) (node_nr : nat) (l : list outcome) : res (dict segment) :=
    add_outcomes s wolf node_nr EmptyString [] l.

  (** the values that can be weighted (batch_post_process.py 281-283); another name raises [KeyError] *)
  Definition scenario_value (key : string) (v : scenario) : res T :=
    if String.eqb key "min_disp" then Ok (sc_disp v)
    else if String.eqb key "probability" then Ok (sc_probability v)
    else if String.eqb key "stiffness" then Ok (sc_stiffness v)
    else Err ErrOther.
  (** batch_post_process.py 38-39: the sum over the scenarios of a segment *)
  Fixpoint weigh (key : string) (l : dict scenario) (acc : T) : res T :=
    match l with
    | [] => Ok acc
    | (_, v) :: r => do x <- scenario_value key v ; weigh key r (acc + x * sc_probability v)
    end.
  (** batch_post_process.py 26-39, [calculate_weighted_values] on the results of [get_results] *)
  Fixpoint calculate_weighted_values (d : dict segment) (key res_key : string) : res (dict segment) :=
    match d with
    | [] => Ok []
    | (k, v) :: r =>
        do w <- weigh key (sg_scenarios v) (lit 0) ;
        do q <- calculate_weighted_values r key res_key ;
        Ok ((k, mkSegment (sg_coordinates v) (dset res_key w (sg_values v)) (sg_scenarios v)) :: q)
    end.

  (** a line of the file for the map: coordinate, segment and the four values (batch_post_process.py 20) *)
  Definition gis_line : Type := (T * T) * string * (T * T * T * T).
  (** batch_post_process.py 8-24, [write_gis_csv]: the lines after the header *)
  Fixpoint write_gis_csv (d : dict segment) : res (list gis_line) :=
    match d with
    | [] => Ok []
    | (k, v) :: r =>
        do rows <- mapr (fun c => do a <- dget "w_disp" (sg_values v) ;
                                  do b <- dget "w_stiffness" (sg_values v) ;
                                  do e <- dget "dyn_stiffness" (sg_values v) ;
                                  do g <- dget "cum_settlement" (sg_values v) ;
                                  Ok (c, k, (a, b, e, g))) (sg_coordinates v) ;
        do q <- write_gis_csv r ;
        Ok (rows ++ q)
    end.
End Varandas_batch.

Arguments entry T : clear implicits.
Arguments job T : clear implicits.
Arguments outcome T : clear implicits.
Arguments scenario T : clear implicits.
Arguments segment T : clear implicits.
