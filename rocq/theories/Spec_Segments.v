(** * Vocabulary for statements about a batch of segments *)

From Coq Require Import Reals String Ascii List.
From Verif Require Import Num PyBase Model_Geometry Model_System Model_Element Model_Moving Model_Batch Model_Run Model_CoupledRun Model_DemoResults Model_Demo Model_Segments.
Import ListNotations.
Local Open Scope R_scope.
Local Open Scope string_scope.

(** the name of a file: no slash, and not dots only *)
Fixpoint no_slash (s : string) : Prop := match s with EmptyString => True | String c r => c <> "/"%char /\ no_slash r end.
Fixpoint some_letter (s : string) : Prop := match s with EmptyString => False | String c r => c <> "."%char \/ some_letter r end.
(** [path] is the file [name].json, in some folder or in none *)
Definition json_file (path name : string) : Prop :=
  no_slash name /\ some_letter name /\ (path = name ++ ".json" \/ exists folder, path = folder ++ "/" ++ name ++ ".json").

(** the first entries that a file has under the three names *)
Definition gives (content : res (dict (list R))) (omega k c : R) : Prop :=
  exists d o ks cs, content = Ok d /\ dget "omega" d = Ok (omega :: o) /\ dget "stiffness" d = Ok (k :: ks) /\ dget "damping" d = Ok (c :: cs).

(** what a calculation of the model with soil of stiffness [k] and damping [c] and trains of speed [velocity] writes: all other parts are as in
    the model, and trains that stand keep standing *)
Definition own_series (m : batch_model R) (velocity k c : R) (segment : string) (w : written R) : Prop :=
  exists p1 p2 p3 p4 soil rest v r file, bm_parts m = p1 :: p2 :: p3 :: p4 :: soil :: rest /\
    Forall2 (fun a b => b = if Rlt_dec (1 / 10000000000) a then velocity else a) (bm_velocities m) v /\
    let ps := p1 :: p2 :: p3 :: p4 :: mkW (w_soil soil) (w_nodes soil) (w_els soil) (Some k) (Some c) :: rest in
    bm_main m v ps = Ok r /\ batch_write_results segment 10 (bm_time m) v (bm_track m) ps r = Ok (file, w).
(** the result file of a stiffness file: the series of its own soil, per metre times the sleeper distance, and its frequency *)
Definition own_result (m : batch_model R) (sleeper_distance velocity : R) (name : string) (content : res (dict (list R))) (x : written R * R) : Prop :=
  exists k c, gives content (snd x) k c /\ own_series m velocity (k * sleeper_distance) (c * sleeper_distance) name (fst x).

(** the result file of a name *)
Definition result_file (name : string) : string := "res_" ++ name ++ ".pickle".

(** no two stiffness files have the same name *)
Definition names_apart (files : list (string * res (dict (list R)))) : Prop :=
  forall i j f g name, nth_error files i = Some f -> nth_error files j = Some g -> json_file (fst f) name -> json_file (fst g) name -> i = j.

(** soil data in which no segment and no scenario of a segment occurs twice *)
Definition keys_once {V} (data : dict (dict V)) : Prop := NoDup (map fst data) /\ forall s, In s data -> NoDup (map fst (snd s)).
