(** * Model of the matrices of the coupled system: rose/model/train_track_interaction.py 298-335 and 371-409 *)

From Coq Require Import List Bool ZArith Arith.
From Verif Require Import Num PyBase Model_Geometry Model_System Model_Element Model_Moving Model_Train Model_Coupled Model_Accumulation Model_Track.
Import ListNotations.

Section CoupledSystem.
  Context {T : Type} `{Num T} `{Trig T} `{Pow T}.
  Local Open Scope num_scope.

  (** train_track_interaction.py 306-335, [combine_global_matrices] and 298-304, [combine_rhs]: the blocks of track and train are
      written into the matrices [s] that the coupled system has at that moment.  [nt] is the number of degrees of freedom of
      the track.  The rows of the solver (lines 319-321 and 331-333) are [combine_solution] of Model_Coupled.v *)
  Definition combine_system (s : gsys T) (nt : nat) (track train : gsys T) : res (gsys T) :=
    let ntot := mr (gK s) in
    do K <- block_assign (gK s) 0 nt (gK track) ;
    do C <- block_assign (gC s) 0 nt (gC track) ;
    do M <- block_assign (gM s) 0 nt (gM track) ;
    do K <- block_assign K nt ntot (gK train) ;
    do C <- block_assign C nt ntot (gC train) ;
    do M <- block_assign M nt ntot (gM train) ;
    do F <- combine_rhs (gF s) (gF track) (gF train) nt ;
    Ok (mkSys K M C F).

  (** train_track_interaction.py 404-409, the end of [calculate_initial_state]: combined matrices, then the Rayleigh damping [da]
      of the coupled model (global_system.py 391-415) *)
  Definition initial_matrices (da : damping T) (s : gsys T) (nt : nat) (track train : gsys T) : res (gsys T) :=
    do s <- combine_system s nt track train ;
    Ok (rayleigh_damping (da_on da) (da_ratio da) (da_one da) (da_two da) s).

  (** train_track_interaction.py 541-557 (global_system.py 355-374): the matrices are set to zero by [initialise] before *)
  Definition coupled_matrices (da : damping T) (track train : gsys T) : res (gsys T) :=
    let nt := mr (gK track) in
    initial_matrices da (zero_system (nt + mr (gK train))) nt track train.
End CoupledSystem.
