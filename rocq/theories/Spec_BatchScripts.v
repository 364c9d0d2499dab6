(** * Vocabulary for statements about the scripts of a batch *)

From Coq Require Import Reals List Bool Arith String Ascii.
From Verif Require Import Num PyBase Model_Accumulation Model_Batch Model_BatchScripts Spec_Batch.
Import ListNotations.
Local Open Scope R_scope.

(** the file of results of a scenario and a kind of train *)
Definition result_file (kind stem : string) : string := append stem (append "_" (append kind ".pickle")).
(** an entry of a directory is a file with a name and holds a table of soil forces *)
Definition holds_forces (e : entry R) (name : string) (forces : list (list R)) : Prop :=
  en_name e = name /\ en_isfile e = true /\ exists d, en_data e = Ok d /\ dget "vertical_force_soil" d = Ok forces.
(** the entries of a directory with an ending, in the order of the directory *)
Definition ending (suffix : string) (d : list (entry R)) (l : list (entry R)) : Prop :=
  exists p : entry R -> bool, (forall e, p e = true <-> en_isfile e = true /\ exists stem, en_name e = append stem suffix) /\ l = filter p d.

(** what a file of results says of its scenario at a node: segment, scenario, smallest displacement, and the stiffness of the scenario *)
Record reading := mkReading { rd_segment : string; rd_scenario : string; rd_lowest : R; rd_stiffness : R }.
(** the smallest number of a list *)
Definition lowest (m : R) (l : list R) : Prop := In m l /\ forall x, In x l -> m <= x.
(** the file [o] gives the reading [r]: name [prefix_segment_scenario], and the soil data and the stiffnesses know the scenario *)
Definition gives_reading (s : sos R) (wolf : dict (list R)) (node : nat) (o : outcome R) (r : reading) : Prop :=
  (exists pre, no_underscore pre /\ no_underscore (rd_segment r) /\ no_underscore (rd_scenario r) /\ oc_name o = join_parts [pre; rd_segment r; rd_scenario r]) /\
  (exists row, nth_error (oc_soil o) node = Some row /\ lowest (rd_lowest r) row) /\
  (exists rest, dget (append (oc_name o) ".json") wolf = Ok (rd_stiffness r :: rest)) /\
  exists d v, dget (rd_segment r) s = Ok d /\ dget (rd_scenario r) d = Ok v.

(** the readings as files of the batch, with the displacement or with the stiffness as value *)
Definition displacement_of (r : reading) : file R := mkFile (rd_segment r) (rd_scenario r) (rd_lowest r).
Definition stiffness_of (r : reading) : file R := mkFile (rd_segment r) (rd_scenario r) (rd_stiffness r).

(** the coordinates of a scenario in the soil data *)
Definition coordinates_of (s : sos R) (seg sce : string) : list (R * R) :=
  match dget seg s with Ok d => match dget sce d with Ok v => snd v | Err _ => [] end | Err _ => [] end.

(** the readings of a segment listed without another segment in between, counted back from the last one *)
Fixpoint back_head (seg : string) (rs : list reading) : list reading :=
  match rs with [] => [] | r :: q => if String.eqb (rd_segment r) seg then r :: back_head seg q else [] end.
Fixpoint back_run (seg : string) (rs : list reading) : list reading :=
  match rs with [] => [] | r :: q => if String.eqb (rd_segment r) seg then r :: back_head seg q else back_run seg q end.
