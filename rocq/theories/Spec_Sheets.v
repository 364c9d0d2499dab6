(** * Data sheets of the train types *)

From Coq Require Import Reals List Bool ZArith Arith.
From Verif Require Import Num PyBase Model_Train Model_DefaultTrains Spec_Train Spec_DefaultTrains.
Import ListNotations.
Local Open Scope R_scope.

(** what is known of a vehicle; all masses, inertias and suspensions are those of one rail (half of the vehicle).  Lengths in
    metres, masses in kilograms *)
Record sheet := {
  sh_length : R; sh_pivots : R; sh_wheelbase : R;
  sh_body : R; sh_body_inertia : R; sh_secondary : R; sh_secondary_damper : R;
  sh_frame : R; sh_frame_inertia : R; sh_primary : R; sh_primary_damper : R; sh_wheel : R }.

(** the sheets, read from the values in rose/pre_process/default_trains.py: 162-192, 211-258, 276-306, 324-354, 419-449, 371-401,
    467-497, 68-97 and 115-144 *)
Definition sheet_of (ty : train_type) : sheet :=
  match ty with
  | DOUBLEDEKKER => {| sh_length := 24.1; sh_pivots := 19.9; sh_wheelbase := 2.5; sh_body := 25000; sh_body_inertia := 64400; sh_secondary := 2708000; sh_secondary_damper := 64000;
      sh_frame := 3000; sh_frame_inertia := 155; sh_primary := 4800000; sh_primary_damper := 250; sh_wheel := 1500 |}
  | SPRINTER_SLT => {| sh_length := 15.57; sh_pivots := 15.57; sh_wheelbase := 2.8; sh_body := 23000; sh_body_inertia := 36700; sh_secondary := 2468000; sh_secondary_damper := 50200;
      sh_frame := 1600; sh_frame_inertia := 85; sh_primary := 4400000; sh_primary_damper := 590; sh_wheel := 1500 |}
  | SPRINTER_SGM => {| sh_length := 25.15; sh_pivots := 18; sh_wheelbase := 2.5; sh_body := 23000; sh_body_inertia := 36700; sh_secondary := 2468000; sh_secondary_damper := 50200;
      sh_frame := 1600; sh_frame_inertia := 85; sh_primary := 4400000; sh_primary_damper := 590; sh_wheel := 1500 |}
  | ICM => {| sh_length := 27.3; sh_pivots := 15.4; sh_wheelbase := 1.8; sh_body := 34300; sh_body_inertia := 91500; sh_secondary := 10000000; sh_secondary_damper := 42500;
      sh_frame := 1495; sh_frame_inertia := 1900; sh_primary := 2612000; sh_primary_damper := 52200; sh_wheel := 677.5 |}
  | CARGO_FALNS5 => {| sh_length := 15.79; sh_pivots := 10.67; sh_wheelbase := 1.82; sh_body := 30000; sh_body_inertia := 124139; sh_secondary := 237000000; sh_secondary_damper := 802000;
      sh_frame := 2600; sh_frame_inertia := 1050; sh_primary := 2370000; sh_primary_damper := 80200; sh_wheel := 3000 |}
  | CARGO_SGNS => {| sh_length := 19.74; sh_pivots := 14.2; sh_wheelbase := 1.82; sh_body := 14740; sh_body_inertia := 392100; sh_secondary := 32700000; sh_secondary_damper := 802000;
      sh_frame := 2500; sh_frame_inertia := 1050; sh_primary := 3270000; sh_primary_damper := 80200; sh_wheel := 1500 |}
  | CARGO_TAPPS => {| sh_length := 12.55; sh_pivots := 7.49; sh_wheelbase := 1.82; sh_body := 32500; sh_body_inertia := 779062.5; sh_secondary := 24000000; sh_secondary_damper := 71000;
      sh_frame := 4666.65; sh_frame_inertia := 4650; sh_primary := 2232000; sh_primary_damper := 36700; sh_wheel := 2500 |}
  | TRAXX => {| sh_length := 18.95; sh_pivots := 10.35; sh_wheelbase := 2.6; sh_body := 27000; sh_body_inertia := 779062.5; sh_secondary := 24000000; sh_secondary_damper := 71000;
      sh_frame := 3500; sh_frame_inertia := 4666.5; sh_primary := 2232000; sh_primary_damper := 36700; sh_wheel := 4000 |}
  | BR189 => {| sh_length := 19.6; sh_pivots := 9.9; sh_wheelbase := 2.9; sh_body := 27600; sh_body_inertia := 796375; sh_secondary := 24000000; sh_secondary_damper := 71000;
      sh_frame := 3500; sh_frame_inertia := 4666.65; sh_primary := 2232000; sh_primary_damper := 36700; sh_wheel := 4000 |}
  end.

(** a bogie, a cart and the length of a cart agree with a sheet: two wheels a wheelbase apart, two bogies a pivot distance apart *)
Definition bogie_agrees (s : sheet) (b : bogie R) : Prop :=
  bg_mass b = sh_frame s /\ bg_inertia b = sh_frame_inertia s /\ bg_k b = sh_primary s /\ bg_c b = sh_primary_damper s /\
  bg_wheels b = [sh_wheel s; sh_wheel s] /\ exists a c, bg_wheel_distances b = [a; c] /\ Rabs (c - a) = sh_wheelbase s.
Definition cart_agrees (s : sheet) (c : cart R) : Prop :=
  ct_mass c = sh_body s /\ ct_inertia c = sh_body_inertia s /\ ct_k c = sh_secondary s /\ ct_c c = sh_secondary_damper s /\
  exists a d, ct_bogie_distances c = [a; d] /\ Rabs (d - a) = sh_pivots s.
(** cart [q] of the train [g], its bogies and its length agree with a sheet *)
Definition agrees (s : sheet) (g : generated R) (q : nat) : Prop :=
  exists c, nth_error (tn_carts (gn_train g)) q = Some c /\ cart_agrees s c /\ nth_error (gn_lengths g) q = Some (sh_length s) /\
    length (ct_bogies c) = 2%nat /\ forall b, In b (ct_bogies c) -> bogie_agrees s (bogie_of (gn_train g) b) /\ nth_error (gn_bogie_lengths g) b = Some (sh_wheelbase s).

(** mass of a bogie with its wheels, and of a cart with two bogies *)
Definition bogie_total (s : sheet) : R := sh_frame s + 2 * sh_wheel s.
Definition vehicle_total (s : sheet) : R := sh_body s + 2 * bogie_total s.
