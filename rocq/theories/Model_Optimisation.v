(** * Model of rose/optimisation/optimisation.py: fitting parameters of a model to observations

    The numerical model is represented by the attributes of the parts of its track and the rest of its state, which is of an
    arbitrary type.  Running it and reading a result array from it are arbitrary functions.  [copy.deepcopy] of a value is the
    value itself: later changes of the copy do not change the original.  That two parts of a model may share objects is not
    modelled. *)

From Coq Require Import Reals List Bool ZArith Arith String.
From Verif Require Import Num PyBase Model_System Model_Coupled Model_Accumulation.
Import ListNotations.

Section Optimisation.
  Context {T : Type} `{Num T} {M : Type}.
  Local Open Scope num_scope.

  (** the attributes of an object that hold numbers (optimisation.py 66-70) *)
  Definition attributes := string -> option T.
  (** [setattr(object, name, value)] (optimisation.py 69) *)
  Definition setattr (a : attributes) (name : string) (v : T) : attributes := fun x => if String.eqb x name then Some v else a x.

  (** [model.track.model_parts] and everything else (optimisation.py 24-34) *)
  Record model := { md_parts : list attributes; md_rest : M }.

  (** optimisation.py 8-14; [mres_function] is the post process function together with its arguments.  Only lists of indices that
      are not negative are modelled, not slices *)
  Record model_results := { mres_names : list string; mres_indices : list nat; mres_steps : list nat; mres_function : option (list (list T) -> res (list T)) }.
  (** lines 17-21; [opart_ref] identifies the object among the parts of the track *)
  Record opart := { opart_ref : nat; opart_names : list string }.
  (** lines 24-34, after [initialise]; [opt_file] are the lines appended to the file *)
  Record optimisation := { opt_model : model; opt_original : model; opt_indices : list nat; opt_parts : list opart; opt_results : list model_results;
                           opt_observations : list T; opt_file : list (T * T) }.

  (** lines 36-43, [initialise]: [refs] are the identities of the objects of [model.track.model_parts], in order *)
  Fixpoint index_of (refs : list nat) (r : nat) : res nat :=
    match refs with [] => Err ErrValue | x :: l => if Nat.eqb x r then Ok 0%nat else do i <- index_of l r ; Ok (S i) end.
  (** lines 36-43 *)
  Definition initialise (m : model) (refs : list nat) (parts : list opart) (results : list model_results) (observations : list T) : res optimisation :=
    do indices <- mapr (fun p => index_of refs (opart_ref p)) parts ;
    Ok {| opt_model := m; opt_original := m; opt_indices := indices; opt_parts := parts; opt_results := results; opt_observations := observations; opt_file := [] |}.

  (** lines 45-50, [reset_model] *)
  Definition set_model (o : optimisation) (m : model) : optimisation :=
    {| opt_model := m; opt_original := opt_original o; opt_indices := opt_indices o; opt_parts := opt_parts o; opt_results := opt_results o;
       opt_observations := opt_observations o; opt_file := opt_file o |}.
  (** lines 45-50 *)
  Definition reset_model (o : optimisation) : optimisation := set_model o (opt_original o).

  (** lines 66-70: the loops that write the parameters.  The model as far as it was written, the number of parameters used, and
      whether an exception was raised *)
  Fixpoint write_names (params : list T) (idx : nat) (names : list string) (m : model) (i : nat) : model * nat * option err :=
    match names with
    | [] => (m, i, None)
    | name :: l =>
        match nth_error (md_parts m) idx, nth_error params i with
        | Some a, Some v => write_names params idx l {| md_parts := lset (md_parts m) idx (setattr a name v); md_rest := md_rest m |} (S i)
        | _, _ => (m, i, Some ErrIndex)
        end
    end.
  (** lines 66-70: the loop over the parts *)
  Fixpoint write_parts (params : list T) (parts : list (nat * opart)) (m : model) (i : nat) : model * nat * option err :=
    match parts with
    | [] => (m, i, None)
    | (idx, p) :: l =>
        match write_names params idx (opart_names p) m i with
        | (m, i, None) => write_parts params l m i
        | out => out
        end
    end.

  (** [getattr(self.model, res_name)[time_step_indices, :]] and [[:, result_indices]]: the rows of the selection (lines 82-83 and 95-96) *)
  Definition select (a : mat T) (steps indices : list nat) : res (list (list T)) :=
    do rows <- mapr (fun t => if Nat.ltb t (mr a) then Ok t else Err ErrIndex) steps ;
    do cols <- mapr (fun c => if Nat.ltb c (mc a) then Ok c else Err ErrIndex) indices ;
    Ok (map (fun t => map (me a t) cols) rows).
  (** [np.max(np.abs(result), axis=0)] of rows with [n] columns (line 85) *)
  Definition column_peaks (n : nat) (rows : list (list T)) : res (list T) :=
    mapr (fun c => max_of (map (fun row => nabs (nth c row (lit 0))) rows)) (seq 0 n).

  (** lines 82-90 and 95-100: the result for one name *)
  Definition one_result (get : model -> string -> res (mat T)) (maximum : bool) (m : model) (r : model_results) (name : string) : res (list T) :=
    do a <- get m name ;
    do rows <- select a (mres_steps r) (mres_indices r) ;
    match mres_function r with
    | None => if maximum then column_peaks (List.length (mres_indices r)) rows else Err ErrType
    | Some f => f rows
    end.
  (** [np.array(results)] of one-dimensional results, which must have the same length (lines 90 and 101) *)
  Definition stack (rows : list (list T)) : res (list (list T)) :=
    match rows with
    | [] => Ok []
    | r :: l => if forallb (fun x => Nat.eqb (List.length x) (List.length r)) l then Ok rows else Err ErrValue
    end.
  (** lines 76-102: [results] is a list for the first element of [model_results]; afterwards it is an array, which has no
      [append] *)
  Fixpoint later_results (get : model -> string -> res (mat T)) (maximum : bool) (m : model) (rs : list model_results) : res unit :=
    match rs with
    | [] => Ok tt
    | r :: l => match mres_names r with
                | [] => later_results get maximum m l
                | name :: _ => do _ <- one_result get maximum m r name ; Err ErrAttribute
                end
    end.
  (** lines 76-102 *)
  Definition collect (get : model -> string -> res (mat T)) (maximum : bool) (m : model) (rs : list model_results) : res (list (list T)) :=
    match rs with
    | [] => Ok []
    | r :: l =>
        do rows <- mapr (one_result get maximum m r) (mres_names r) ;
        do rows <- stack rows ;
        do _ <- later_results get maximum m l ;
        Ok rows
    end.

  (** line 105, [results - self.observations] for one row; numpy repeats a single value *)
  Definition minus (row observations : list T) : res (list T) :=
    if Nat.eqb (List.length row) (List.length observations) then Ok (map (fun p => fst p - snd p) (combine row observations))
    else match row, observations with
         | [x], _ => Ok (map (fun b => x - b) observations)
         | _, [b] => Ok (map (fun x => x - b) row)
         | _, _ => Err ErrValue
         end.

  (** lines 53-112, [residual_function].  [main] is running the model: its state afterwards and whether it raised.  An empty
      array of results can only be subtracted from by one observation, and has no first entry *)
  Definition residual_function (main : model -> model * option err) (get : model -> string -> res (mat T)) (maximum : bool) (params : list T) (o : optimisation)
      : optimisation * res (list T) :=
    let o := reset_model o in
    match write_parts params (combine (opt_indices o) (opt_parts o)) (opt_model o) 0 with
    | (m, _, Some e) => (set_model o m, Err e)
    | (m, _, None) =>
        match main m with
        | (m, Some e) => (set_model o m, Err e)
        | (m, None) =>
            let o := set_model o m in
            match (do rows <- collect get maximum m (opt_results o) ;
                   match rows with
                   | [] => if Nat.eqb (List.length (opt_observations o)) 1 then Err ErrIndex else Err ErrValue
                   | row :: _ => do d <- minus row (opt_observations o) ; do p <- at_idx params 0 ; do x <- at_idx row 1 ; Ok (d, (p, x))
                   end) with
            | Err e => (o, Err e)
            | Ok (d, line) =>
                ({| opt_model := opt_model o; opt_original := opt_original o; opt_indices := opt_indices o; opt_parts := opt_parts o; opt_results := opt_results o;
                    opt_observations := opt_observations o; opt_file := opt_file o ++ [line] |}, Ok d)
            end
        end
    end.
End Optimisation.
Arguments attributes T : clear implicits.
Arguments model T M : clear implicits.
Arguments model_results T : clear implicits.
Arguments optimisation T M : clear implicits.
