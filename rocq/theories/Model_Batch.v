(** * Model of collecting the results of a batch: run_rose/batch_post_process.py

    Reading and writing of files is not modelled: a result file is its segment, its scenario and its value, in the order in which the
    directory lists them. *)

From Coq Require Import List Bool ZArith Arith String Ascii.
From Verif Require Import Num PyBase Model_Accumulation.
Import ListNotations.
Local Notation length := List.length.

(** a dictionary: keys and values in the order in which the keys were added (used in batch_post_process.py 105-140) *)
Definition dict (V : Type) := list (string * V).
(** [d[k]]; a missing key raises [KeyError], here [ErrOther] (batch_post_process.py 122) *)
Fixpoint dget {V} (k : string) (d : dict V) : res V :=
  match d with
  | [] => Err ErrOther
  | (a, v) :: r => if String.eqb a k then Ok v else dget k r
  end.
(** [k in d] (batch_post_process.py 139) *)
Fixpoint dmem {V} (k : string) (d : dict V) : bool :=
  match d with
  | [] => false
  | (a, v) :: r => String.eqb a k || dmem k r
  end.
(** [d[k] = v]: an existing key keeps its place (batch_post_process.py 125-126) *)
Fixpoint dset {V} (k : string) (v : V) (d : dict V) : dict V :=
  match d with
  | [] => [(k, v)]
  | (a, w) :: r => if String.eqb a k then (a, v) :: r else (a, w) :: dset k v r
  end.

(** [str.lower] of one character (batch_post_process.py 153 and 155) *)
Definition lower_char (c : ascii) : ascii :=
  let n := nat_of_ascii c in if Nat.leb 65 n && Nat.leb n 90 then ascii_of_nat (n + 32) else c.
(** [str.lower], ASCII letters (batch_post_process.py 153 and 155) *)
Fixpoint lower (s : string) : string :=
  match s with EmptyString => EmptyString | String c r => String (lower_char c) (lower r) end.
(** [p in s] for strings (batch_post_process.py 153 and 155) *)
Fixpoint contains (p s : string) : bool :=
  String.prefix p s || match s with EmptyString => false | String _ r => contains p r end.
(** [s.split("_")] (batch_post_process.py 149) *)
Fixpoint split_underscore (s : string) : list string :=
  match s with
  | EmptyString => [EmptyString]
  | String c r => if Ascii.eqb c "_"%char then EmptyString :: split_underscore r
                  else match split_underscore r with
                       | [] => [String c EmptyString]
                       | a :: q => String c a :: q
                       end
  end.
(** batch_post_process.py 143-157, [get_segment_and_scenario_from_fn]: the last part with the word *)
Definition segment_and_scenario (file_name : string) : string * string :=
  fold_left (fun acc part => (if contains "segment" (lower part) then part else fst acc,
                              if contains "scenario" (lower part) then part else snd acc))
            (split_underscore file_name) (EmptyString, EmptyString).

(** batch_post_process.py 123: [_, segment_id, scenario_id = name.split("_")], another number of parts raises [ValueError] *)
Definition name_parts (name : string) : res (string * string) :=
  match split_underscore name with [_; seg; sce] => Ok (seg, sce) | _ => Err ErrValue end.

Section Batch.
  Context {T : Type} `{Num T}.
  Local Open Scope num_scope.

  (** the soil data: for every segment and scenario the probability in percent and the coordinates (batch_post_process.py 103, 122 and 140) *)
  Definition sos := dict (dict (T * list (T * T))).
  (** a result file: segment, scenario and value (batch_post_process.py 117-121 and 195-197) *)
  Record file := mkFile { fl_segment : string; fl_scenario : string; fl_value : T }.
  (** the results: value and probability of every scenario, weighted value of every segment (batch_post_process.py 105-108 and 185-188) *)
  Record batch := mkBatch { bt_data : dict (dict (T * T)); bt_weighted : dict T }.

  (** batch_post_process.py 122-133 (and 199-210), one file; [prev] is the segment of the file before *)
  Definition add_file (s : sos) (prev : string) (b : batch) (f : file) : res batch :=
    do seg <- dget (fl_segment f) s ;
    do sce <- dget (fl_scenario f) seg ;
    let probability := fst sce / lit 100 in
    let b := if String.eqb prev (fl_segment f) then b
             else mkBatch (dset (fl_segment f) [] (bt_data b)) (dset (fl_segment f) (lit 0) (bt_weighted b)) in
    do d <- dget (fl_segment f) (bt_data b) ;
    do w <- dget (fl_segment f) (bt_weighted b) ;
    Ok (mkBatch (dset (fl_segment f) (dset (fl_scenario f) (fl_value f, probability) d) (bt_data b))
                (dset (fl_segment f) (w + fl_value f * probability) (bt_weighted b))).
  (** batch_post_process.py 112-135 (and 192-212), the loop over the files *)
  Fixpoint add_files (s : sos) (prev : string) (b : batch) (fs : list file) : res batch :=
    match fs with
    | [] => Ok b
    | f :: r => do b' <- add_file s prev b f ; add_files s (fl_segment f) b' r
    end.
  (** batch_post_process.py 138-140 (and 215-217): the coordinates of the first scenario of every segment with results, in the order
      of the soil data; a segment without scenarios raises *)
  Fixpoint batch_coordinates (s : sos) (data : dict (dict (T * T))) : res (dict (list (T * T))) :=
    match s with
    | [] => Ok []
    | (k, v) :: r =>
        if dmem k data then
          match v with
          | [] => Err ErrIndex
          | (_, first) :: _ => do q <- batch_coordinates r data ; Ok ((k, snd first) :: q)
          end
        else batch_coordinates r data
    end.
  (** batch_post_process.py 95-142 and 172-219, [get_batch_dynamic_stiffnesses] and [get_batch_cumulative_settlement]: results and
      coordinates *)
  Definition get_batch (s : sos) (fs : list file) : res (batch * dict (list (T * T))) :=
    do b <- add_files s EmptyString (mkBatch [] []) fs ;
    do c <- batch_coordinates s (bt_data b) ;
    Ok (b, c).

  (** batch_post_process.py 159-170, [write_gis_csv_2]: the lines of the file after the header, as coordinate, segment and value *)
  Definition gis_rows (coords : dict (list (T * T))) (weighted : dict T) : list ((T * T) * string * T) :=
    flat_map (fun q => if String.eqb (fst (fst q)) (fst (snd q))
                       then map (fun c => (c, fst (fst q), snd (snd q))) (snd (fst q)) else [])
             (combine coords weighted).

  (** batch_post_process.py 26-39, [calculate_weighted_values], for the values and probabilities of the scenarios of every segment *)
  Definition weighted_values (data : dict (dict (T * T))) : dict T :=
    map (fun kv => (fst kv, fold_left (fun acc sc => acc + fst (snd sc) * snd (snd sc)) (snd kv) (lit 0))) data.

  (** batch_post_process.py 120-121, [np.max(np.abs(…))]; an empty array raises [ValueError] *)
  Definition max_abs (l : list T) : res T :=
    match l with [] => Err ErrValue | a :: r => Ok (fold_left (fun acc x => if acc <=? nabs x then nabs x else acc) r (nabs a)) end.
  (** batch_post_process.py 58-65 and 120-121, [calculate_dynamic_stiffness] of the largest values at a node; NumPy divides by zero
      without raising, the result is then not a number ([None]) *)
  Definition dynamic_stiffness (u f : list T) : res (option T) :=
    do du <- max_abs u ;
    do df <- max_abs f ;
    Ok (if neqb du (lit 0) then None else Some (df / du)).

  (** batch_post_process.py 67-93, [get_and_write_n_scenarios_per_segment]: the lines of the file after the header, as coordinate,
      segment and number of scenarios; a segment without scenarios raises *)
  Fixpoint scenario_rows (s : sos) : res (list ((T * T) * string * nat)) :=
    match s with
    | [] => Ok []
    | (k, v) :: r =>
        match v with
        | [] => Err ErrIndex
        | (_, first) :: _ => do q <- scenario_rows r ; Ok (map (fun c => (c, k, length v)) (snd first) ++ q)
        end
    end.
End Batch.

Arguments sos T : clear implicits.
Arguments file T : clear implicits.
Arguments batch T : clear implicits.
