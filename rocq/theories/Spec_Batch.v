(** * Vocabulary for statements about the results of a batch *)

From Coq Require Import Reals List Bool Arith String Ascii.
From Verif Require Import Num PyBase Model_Batch.
Import ListNotations.
Local Open Scope R_scope.

(** the probability of a scenario, as a fraction *)
Definition probability (s : sos R) (seg sce : string) : R :=
  match dget seg s with
  | Ok d => match dget sce d with Ok v => fst v / 100 | Err _ => 0 end
  | Err _ => 0
  end.
(** the soil data know the scenario of a file *)
Definition known (s : sos R) (f : file R) : Prop := exists d v, dget (fl_segment f) s = Ok d /\ dget (fl_scenario f) d = Ok v.

(** value of a segment over files: values times probabilities *)
Definition weighted_sum (s : sos R) (fs : list (file R)) : R :=
  nsum (map (fun f => fl_value f * probability s (fl_segment f) (fl_scenario f)) fs).

(** the files of a segment *)
Definition of_segment (seg : string) (fs : list (file R)) : list (file R) := filter (fun f => String.eqb (fl_segment f) seg) fs.

(** the files of a segment that are listed without a file of another segment in between, counted back from the last one *)
Fixpoint head_run (seg : string) (rs : list (file R)) : list (file R) :=
  match rs with
  | [] => []
  | f :: r => if String.eqb (fl_segment f) seg then f :: head_run seg r else []
  end.
Fixpoint last_run (seg : string) (rs : list (file R)) : list (file R) :=
  match rs with
  | [] => []
  | f :: r => if String.eqb (fl_segment f) seg then f :: head_run seg r else last_run seg r
  end.

(** all files of a segment follow each other in the directory *)
Definition grouped (fs : list (file R)) : Prop :=
  forall i j k a b c, (i < j < k)%nat -> nth_error fs i = Some a -> nth_error fs j = Some b -> nth_error fs k = Some c ->
    fl_segment a = fl_segment c -> fl_segment b = fl_segment a.

(** the file found first from the end with a scenario *)
Definition newest (sce : string) (rs : list (file R)) : option (file R) := find (fun f => String.eqb (fl_scenario f) sce) rs.

(** names in the order in which they are first seen *)
Fixpoint first_seen (names seen : list string) : list string :=
  match names with
  | [] => []
  | a :: r => if existsb (String.eqb a) seen then first_seen r seen else a :: first_seen r (a :: seen)
  end.

(** parts of a file name joined by underscores *)
Fixpoint join_parts (parts : list string) : string :=
  match parts with
  | [] => EmptyString
  | [a] => a
  | a :: r => append a (String "_"%char (join_parts r))
  end.
(** the underscore does not occur *)
Fixpoint no_underscore (s : string) : Prop :=
  match s with EmptyString => True | String c r => c <> "_"%char /\ no_underscore r end.
