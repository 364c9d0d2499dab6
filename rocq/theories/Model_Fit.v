(** * Model of the fit of run_rose/run_optimisation.py: stiffness and damping of the soil from one observed displacement *)

From Coq Require Import String.
From Coq Require Import Reals List Bool ZArith Arith.
From Verif Require Import Num PyBase Model_System Model_Accumulation Model_Optimisation Model_Batch Model_Segments.
Import ListNotations.

Section Fit.
  Context {T : Type} `{Num T} {M : Type}.
  Local Open Scope num_scope.

  (** run_optimisation.py 335-337: the fifth part of the track, with the attributes stiffness and damping *)
  Definition fit_parts : list opart := [{| opart_ref := 4; opart_names := ["stiffness"%string; "damping"%string] |}].
  (** run_optimisation.py 339-342: degree of freedom 807, twice, at the output steps [np.arange(800, int(len(time)/10))] *)
  Definition fit_request (n_time : nat) : model_results T :=
    {| mres_names := ["displacements_out"%string]; mres_indices := [807%nat; 807%nat]; mres_steps := seq 800 (n_time / 10 - 800); mres_function := None |}.
  (** run_optimisation.py 332: what was observed *)
  Definition fit_observations : list T := [ndec 8 4; ndec 8 4].
  (** run_optimisation.py 328-347: the optimisation of one file.  [m] is the copy of the coupled model, [n_time] the number of its time
      steps.  The objects of [model.track.model_parts] (set_base_model, 205-206: rail, rail pads, sleepers, side boundaries, soil) are identified
      by their places *)
  Definition script_fit (m : model T M) (n_time : nat) : res (optimisation T M) :=
    initialise m (seq 0 (length (md_parts m))) fit_parts [fit_request n_time] fit_observations.
  (** run_optimisation.py 313-314 and 349: the values at which the search starts *)
  Definition start_values (w : wolf T) : list T := [wf_stiffness w * ndec 6 1; wf_damping w * ndec 6 1].

  (** run_optimisation.py 288-351, [main].  [search] is [scipy.optimize.least_squares] as called by [least_square] (optimisation.py
      115-135): any function of the residual function and the start values.  It gets the residuals of the freshly set up optimisation (by
      C66 evaluations before do not change them).  [max] and [min] of no files raise (316-317) *)
  Definition fit_main {A : Type} (search : (list T -> res (list T)) -> list T -> res A) (main : model T M -> model T M * option err)
      (get : model T M -> string -> res (mat T)) (m : model T M) (n_time : nat) (files : list (string * res (dict (list T)))) : res (list A) :=
    do ws <- read_wolf files ;
    match ws with
    | [] => Err ErrValue
    | _ => mapr (fun w => do o <- script_fit m n_time ; search (fun p => snd (residual_function main get true p o)) (start_values w)) ws
    end.
End Fit.
