(** * Vocabulary for the track of the demonstration scripts *)

From Coq Require Import Reals List ZArith.
From Verif Require Import Num PyBase Model_System Spec_System Model_Mesh Spec_Balance.
Import ListNotations.
Local Open Scope R_scope.

(** [m] is the number of whole groups of [fact] sleepers among [n] *)
Definition whole_groups (fact : R) (n : Z) (m : nat) : Prop := INR m <= IZR n / fact < INR m + 1.

(** force of the soil on the ground: for every segment the stiffness of its soil per metre times the distance [d] of sleepers times
    what its sleepers go down (here: up) *)
Definition soil_force (d : R) (segments : list (list (nat * nat))) (stiffness : list R) (u : nat -> dir -> R) : R :=
  nsum (map (fun q => snd q * d * nsum (map (fun e => u (fst e) DY) (fst q))) (combine segments stiffness)).
