(** * Expected values of the repository's unit tests, replayed on the model

    Computations with exact rationals (instance [QNum]).  These are tests of the reading of the code, not proofs of properties.
    [approx] is pytest's comparison: a relative deviation of 1e-6. *)

From Coq Require Import QArith List Bool ZArith Arith.
From Verif Require Import Num PyBase Model_System Model_Element Model_Moving Model_Train Model_Geometry.
Import ListNotations.
Local Open Scope Q_scope.

(** angles 0 and a quarter turn either way; the number standing for pi is a token *)
#[local] Instance QTrig : Trig Q := {|
  npi := 22 # 7;
  ncos := fun x => if Qeq_bool x 0 then 1 else 0;
  nsin := fun x => if Qeq_bool x 0 then 0 else if Qle_bool 0 x then 1 else -1;
  natan := fun x => 0 |}.

Definition qabs (x : Q) : Q := if Qle_bool 0 x then x else - x.
Definition approx (x y : Q) : bool := Qle_bool (qabs (x - y)) ((1 # 1000000) * qabs y + (1 # 1000000000000)).
Definition all2 (l m : list Q) : bool := Nat.eqb (length l) (length m) && forallb (fun p => approx (fst p) (snd p)) (combine l m).
Definition rows (n : nat) (m : nat -> nat -> Q) : list (list Q) := map (fun i => map (m i) (seq 0 n)) (seq 0 n).
Definition same (l m : list (list Q)) : bool := Nat.eqb (length l) (length m) && forallb (fun p => all2 (fst p) (snd p)) (combine l m).

(** ** beam: tests/test_model_parts.py *)

Definition euler (s : option Q) : @beam Q := mkBeam 200000000000 0 8000 (1 # 1000) (2 # 100000) 0 10 s s.
Definition expected_stiffness : list (list Q) :=
  [[20000000; 0; 0; (-20000000); 0; 0];
   [0; 48000; 240000; 0; (-48000); 240000];
   [0; 240000; 1600000; 0; (-240000); 800000];
   [(-20000000); 0; 0; 20000000; 0; 0];
   [0; (-48000); (-240000); 0; 48000; (-240000)];
   [0; 240000; 800000; 0; (-240000); 1600000]].
Definition expected_mass : list (list Q) :=
  [[(2666666667 # 100000000); 0; 0; (1333333333 # 100000000); 0; 0];
   [0; (2971428571 # 100000000); (419047619 # 10000000); 0; (1028571429 # 100000000); (-619047619 # 25000000)];
   [0; (419047619 # 10000000); (7619047619 # 100000000); 0; (619047619 # 25000000); (-2857142857 # 50000000)];
   [(1333333333 # 100000000); 0; 0; (2666666667 # 100000000); 0; 0];
   [0; (1028571429 # 100000000); (619047619 # 25000000); 0; (2971428571 # 100000000); (-419047619 # 10000000)];
   [0; (-619047619 # 25000000); (-2857142857 # 50000000); 0; (-419047619 # 10000000); (7619047619 # 100000000)]].
Example test_euler_stiffness : same (rows 6 (beam_stiffness (euler None) (timoshenko_factor 0 (euler None)))) expected_stiffness = true.
Proof. vm_compute. reflexivity. Qed.
Example test_euler_mass : same (rows 6 (beam_mass (euler None) (timoshenko_factor 0 (euler None)))) expected_mass = true.
Proof. vm_compute. reflexivity. Qed.
Example test_timoshenko_factor : approx (timoshenko_factor 0 (mkBeam 200000000000 0 8000 (1 # 1000) (2 # 100000) (1 # 2) 10 None None)) (96 # 10000) = true.
Proof. vm_compute. reflexivity. Qed.
(** 6 E I / l at both ends: fixity 2/3 *)
Example test_semi_rigid : same (rows 6 (beam_stiffness (euler (Some (6 * 200000000000 * (2 # 100000) / 10))) 0))
  [[20000000; 0; 0; (-20000000); 0; 0];
   [0; 24000; 120000; 0; (-24000); 120000];
   [0; 120000; 900000; 0; (-120000); 300000];
   [(-20000000); 0; 0; 20000000; 0; 0];
   [0; (-24000); (-120000); 0; 24000; (-120000)];
   [0; 120000; 300000; 0; (-120000); 900000]] = true.
Proof. vm_compute. reflexivity. Qed.
Example test_no_rigid : same (rows 6 (beam_stiffness (euler (Some 0)) 0))
  [[20000000; 0; 0; (-20000000); 0; 0];
   [0; 0; 0; 0; 0; 0];
   [0; 0; 0; 0; 0; 0];
   [(-20000000); 0; 0; 20000000; 0; 0];
   [0; 0; 0; 0; 0; 0];
   [0; 0; 0; 0; 0; 0]] = true.
Proof. vm_compute. reflexivity. Qed.

(** displacements of test_calculate_local_forces and test_calculate_strain, every metre *)
Definition test_u (i : nat) : Q := nth i [1 # 800; 1 # 80; 0; - 1 # 800; - 1 # 80; 0] 0.
Definition metres : list Q := map (fun n => inject_Z (Z.of_nat n)) (seq 0 11).
Definition expected_forces (x : Q) : list Q :=
  let reaction_N := 200000000000 * (1 # 1000) / 10 * (1 # 400) in
  let reaction_V := 12 * 4000000 / 1000 * (1 # 40) in
  let reaction_M := 6 * 4000000 / 100 * (1 # 40) in
  [reaction_N; - (reaction_M / 10) * (x * x) + reaction_M * x + reaction_V; - (2 * reaction_M / 10) * x + reaction_M].
Example test_local_forces : forallb (fun x => let '(n, v, m) := local_forces (beam_stiffness (euler None) 0) 10 0 x test_u in all2 [n; v; m] (expected_forces x)) metres = true.
Proof. vm_compute. reflexivity. Qed.
Example test_strain : forallb (fun x => let e := expected_forces x in let n := nth 0 e 0 in let m := nth 2 e 0 in
    let (top, bot) := beam_strain (euler None) (1 # 10) (5 # 100) 0 x test_u in
    all2 [top; bot] [n / (200000000000 * (1 # 1000)) + m * (5 # 100) / 4000000; n / (200000000000 * (1 # 1000)) - m * (5 # 100) / 4000000]) metres = true.
Proof. vm_compute. reflexivity. Qed.

(** ** rod: tests/test_model_parts.py and tests/test_model_utils.py *)

Definition some_rows (n : nat) (m : option (nat -> nat -> Q)) : list (list Q) := match m with Some m => rows n m | None => [] end.
Example test_rod_mass : same (some_rows 2 (rod_mass (Some 1))) [[1 # 3; 1 # 6]; [1 # 6; 1 # 3]] = true.
Proof. vm_compute. reflexivity. Qed.
Example test_rod_stiffness : same (some_rows 2 (rod_spring (Some 1))) [[1; -1]; [-1; 1]] = true.
Proof. vm_compute. reflexivity. Qed.
Definition rod1 : nat -> nat -> Q := match rod_spring (Some 1) with Some m => rod_reshaped m | None => zeros end.
Definition entry (l : list (nat * nat * Q)) : list (list Q) :=
  rows 6 (fun i j => fold_left (fun a e => let '(r, c, v) := e in if Nat.eqb r i && Nat.eqb c j then v else a) l 0).
Example test_reshape : same (rows 6 rod1) (entry [(0%nat, 0%nat, 1); (3%nat, 3%nat, 1); (0%nat, 3%nat, -1); (3%nat, 0%nat, -1)]) = true.
Proof. vm_compute. reflexivity. Qed.
Example test_no_rotation : same (rows 6 (rotate_aux_matrix (0, 0) (1, 0) rod1)) (entry [(0%nat, 0%nat, 1); (3%nat, 3%nat, 1); (0%nat, 3%nat, -1); (3%nat, 0%nat, -1)]) = true.
Proof. vm_compute. reflexivity. Qed.
Example test_quarter_turn : same (rows 6 (rotate_aux_matrix (0, 0) (0, 1) rod1)) (entry [(1%nat, 1%nat, 1); (4%nat, 4%nat, 1); (1%nat, 4%nat, -1); (4%nat, 1%nat, -1)]) = true.
Proof. vm_compute. reflexivity. Qed.
Example test_rotation_matrix : same (rows 6 (rotation_matrix (npi / 2)))
  [[0; 1; 0; 0; 0; 0]; [-1; 0; 0; 0; 0; 0]; [0; 0; 1; 0; 0; 0]; [0; 0; 0; 0; 1; 0]; [0; 0; 0; -1; 0; 0]; [0; 0; 0; 0; 0; 1]] = true.
Proof. vm_compute. reflexivity. Qed.
Example test_rotations : all2 (calculate_rotation [((0, 0), (0, 0)); ((0, 0), (1, 0)); ((0, 0), (0, 1)); ((0, 0), (-1, 0)); ((0, 0), (0, -1))]) [0; 0; npi / 2; npi; - npi / 2] = true.
Proof. vm_compute. reflexivity. Qed.

(** ** length of a rail: tests/test_track.py *)

Example test_length_rail : match calculate_length_rail None [T3 0 0 0; T3 3 4 0; T3 3 7 4] with Ok (Some l) => approx l 5 | _ => false end = true.
Proof. vm_compute. reflexivity. Qed.
(** the third node of the test is at an irrational distance; here the distance is 13 *)
Example test_length_rail_raises : match calculate_length_rail None [T3 0 0 0; T3 3 4 0; T3 3 9 12] with Err ErrInvalidRail => true | _ => false end = true.
Proof. vm_compute. reflexivity. Qed.

(** ** Rayleigh damping: tests/test_global_system.py *)

Definition of_rows (l : list (list Q)) : @mat Q := mkMat 6 6 (fun i j => nth j (nth i l []) 0).
Example test_rayleigh : same (rows 6 (me (gC (rayleigh_damping true (502 # 10000) 2 500 (mkSys (of_rows expected_stiffness) (of_rows expected_mass) (mzero 6 6) [])))))
  [[(400533333333 # 100000000); 0; 0; (-399733333333 # 100000000); 0; 0];
   [0; (777142857 # 50000000); (2819047619 # 50000000); 0; (-377142857 # 50000000); (860952381 # 20000000)];
   [0; (2819047619 # 50000000); (8380952381 # 25000000); 0; (-860952381 # 20000000); (14857142857 # 100000000)];
   [(-399733333333 # 100000000); 0; 0; (400533333333 # 100000000); 0; 0];
   [0; (-377142857 # 50000000); (-860952381 # 20000000); 0; (777142857 # 50000000); (-2819047619 # 50000000)];
   [0; (860952381 # 20000000); (14857142857 # 100000000); 0; (-2819047619 # 50000000); (8380952381 # 25000000)]] = true.
Proof. vm_compute. reflexivity. Qed.

(** ** moving load: tests/test_boundary_conditions.py *)

Definition three : list (tri Q) := [T3 0 0 0; T3 1 0 0; T3 2 0 0].
Definition blank : @mstate Q := mkMState [0; 0; 0] [0; 0; 0] [0; 0; 0] (0, 0) (0, 0) (0, 0).
(** the test sets element and position of the load; here they follow from a speed of 5/2 *)
Definition moving_test : @moving_input Q := mkMovingInput three [(0, 1); (1, 2)]%nat None (map (fun n => inject_Z (Z.of_nat n) / 10) (seq 0 7)) (repeat (5 # 2) 7) None None (Some 1) None 0.
Definition y_forces : list (list Q) := match moving_initialize moving_test with
  | Ok d => map (fun t => match moving_update moving_test d [(1, 0)] blank t with Ok s => st_y s | Err _ => [] end) (seq 0 7) | Err _ => [] end.
Example test_moving_load : same (map (fun i => map (fun r => nth i r (-1)) y_forces) (seq 0 3))
  [[1; 84375 # 100000; 1 # 2; 15625 # 100000; 0; 0; 0]; [0; 15625 # 100000; 1 # 2; 84375 # 100000; 1; 84375 # 100000; 1 # 2]; [0; 0; 0; 0; 0; 15625 # 100000; 1 # 2]] = true.
Proof. vm_compute. reflexivity. Qed.

(** ** train: tests/test_train_model.py *)

Definition one_bogie (mass inertia k c d mw : Q) : @bogie Q := mkBogie mass inertia k c (check_factors [] 2) [- d; d] [mw; mw].
Definition single : @train Q := mkTrain [mkCart 77000 1200000 5320000 70000 (check_factors [] 2) [-3; 3] [0; 1]%nat]
  [one_bogie 1100 760 2140000 49000 1 1200; one_bogie 1100 760 2140000 49000 1 1200].
Definition shared : @train Q := mkTrain [mkCart 2000 800 5000 3000 [1; 1 # 2] [-5; 5] [0; 1]%nat; mkCart 2000 800 5000 3000 [1 # 2; 1] [-5; 5] [1; 2]%nat]
  (repeat (one_bogie 3000 700 6000 4000 (3 # 2) 5750) 3).
Definition numbering (tn : @train Q) := initialise_train_ndof tn.
Definition stiff_of (tn : @train Q) (bs : list nat) := let '(cd, st, _) := numbering tn in train_stiffness tn cd st bs.
Definition damp_of (tn : @train Q) (bs : list nat) := let '(cd, st, _) := numbering tn in train_damping tn cd st bs.
Definition mass_of (tn : @train Q) := let '(cd, st, _) := numbering tn in train_mass tn cd st.

Example test_cart_stiffness : same (rows 10 (stiff_of single [0; 1]%nat))
  [[10640000; 0; (-5320000); 0; 0; 0; (-5320000); 0; 0; 0];
   [0; 95760000; (-15960000); 0; 0; 0; 15960000; 0; 0; 0];
   [(-5320000); (-15960000); 9600000; 0; (-2140000); (-2140000); 0; 0; 0; 0];
   [0; 0; 0; 4280000; (-2140000); 2140000; 0; 0; 0; 0];
   [0; 0; (-2140000); (-2140000); 2140000; 0; 0; 0; 0; 0];
   [0; 0; (-2140000); 2140000; 0; 2140000; 0; 0; 0; 0];
   [(-5320000); 15960000; 0; 0; 0; 0; 9600000; 0; (-2140000); (-2140000)];
   [0; 0; 0; 0; 0; 0; 0; 4280000; (-2140000); 2140000];
   [0; 0; 0; 0; 0; 0; (-2140000); (-2140000); 2140000; 0];
   [0; 0; 0; 0; 0; 0; (-2140000); 2140000; 0; 2140000]] = true.
Proof. vm_compute. reflexivity. Qed.
Example test_cart_damping : same (rows 10 (damp_of single [0; 1]%nat))
  [[140000; 0; (-70000); 0; 0; 0; (-70000); 0; 0; 0];
   [0; 1260000; (-210000); 0; 0; 0; 210000; 0; 0; 0];
   [(-70000); (-210000); 168000; 0; (-49000); (-49000); 0; 0; 0; 0];
   [0; 0; 0; 98000; (-49000); 49000; 0; 0; 0; 0];
   [0; 0; (-49000); (-49000); 49000; 0; 0; 0; 0; 0];
   [0; 0; (-49000); 49000; 0; 49000; 0; 0; 0; 0];
   [(-70000); 210000; 0; 0; 0; 0; 168000; 0; (-49000); (-49000)];
   [0; 0; 0; 0; 0; 0; 0; 98000; (-49000); 49000];
   [0; 0; 0; 0; 0; 0; (-49000); (-49000); 49000; 0];
   [0; 0; 0; 0; 0; 0; (-49000); 49000; 0; 49000]] = true.
Proof. vm_compute. reflexivity. Qed.
Example test_cart_mass : same (rows 10 (mass_of single))
  [[77000; 0; 0; 0; 0; 0; 0; 0; 0; 0];
   [0; 1200000; 0; 0; 0; 0; 0; 0; 0; 0];
   [0; 0; 1100; 0; 0; 0; 0; 0; 0; 0];
   [0; 0; 0; 760; 0; 0; 0; 0; 0; 0];
   [0; 0; 0; 0; 1200; 0; 0; 0; 0; 0];
   [0; 0; 0; 0; 0; 1200; 0; 0; 0; 0];
   [0; 0; 0; 0; 0; 0; 1100; 0; 0; 0];
   [0; 0; 0; 0; 0; 0; 0; 760; 0; 0];
   [0; 0; 0; 0; 0; 0; 0; 0; 1200; 0];
   [0; 0; 0; 0; 0; 0; 0; 0; 0; 1200]] = true.
Proof. vm_compute. reflexivity. Qed.
Example test_shared_stiffness : same (rows 16 (stiff_of shared [0; 1; 2]%nat))
  [[7500; 0; (-5000); 0; 0; 0; (-2500); 0; 0; 0; 0; 0; 0; 0; 0; 0];
   [0; 187500; (-25000); 0; 0; 0; 12500; 0; 0; 0; 0; 0; 0; 0; 0; 0];
   [(-5000); (-25000); 17000; 0; (-6000); (-6000); 0; 0; 0; 0; 0; 0; 0; 0; 0; 0];
   [0; 0; 0; 27000; (-9000); 9000; 0; 0; 0; 0; 0; 0; 0; 0; 0; 0];
   [0; 0; (-6000); (-9000); 6000; 0; 0; 0; 0; 0; 0; 0; 0; 0; 0; 0];
   [0; 0; (-6000); 9000; 0; 6000; 0; 0; 0; 0; 0; 0; 0; 0; 0; 0];
   [(-2500); 12500; 0; 0; 0; 0; 17000; 0; (-6000); (-6000); (-2500); (-12500); 0; 0; 0; 0];
   [0; 0; 0; 0; 0; 0; 0; 27000; (-9000); 9000; 0; 0; 0; 0; 0; 0];
   [0; 0; 0; 0; 0; 0; (-6000); (-9000); 6000; 0; 0; 0; 0; 0; 0; 0];
   [0; 0; 0; 0; 0; 0; (-6000); 9000; 0; 6000; 0; 0; 0; 0; 0; 0];
   [0; 0; 0; 0; 0; 0; (-2500); 0; 0; 0; 7500; 0; (-5000); 0; 0; 0];
   [0; 0; 0; 0; 0; 0; (-12500); 0; 0; 0; 0; 187500; 25000; 0; 0; 0];
   [0; 0; 0; 0; 0; 0; 0; 0; 0; 0; (-5000); 25000; 17000; 0; (-6000); (-6000)];
   [0; 0; 0; 0; 0; 0; 0; 0; 0; 0; 0; 0; 0; 27000; (-9000); 9000];
   [0; 0; 0; 0; 0; 0; 0; 0; 0; 0; 0; 0; (-6000); (-9000); 6000; 0];
   [0; 0; 0; 0; 0; 0; 0; 0; 0; 0; 0; 0; (-6000); 9000; 0; 6000]] = true.
Proof. vm_compute. reflexivity. Qed.
Example test_shared_damping : same (rows 16 (damp_of shared [0; 1; 2]%nat))
  [[4500; 0; (-3000); 0; 0; 0; (-1500); 0; 0; 0; 0; 0; 0; 0; 0; 0];
   [0; 112500; (-15000); 0; 0; 0; 7500; 0; 0; 0; 0; 0; 0; 0; 0; 0];
   [(-3000); (-15000); 11000; 0; (-4000); (-4000); 0; 0; 0; 0; 0; 0; 0; 0; 0; 0];
   [0; 0; 0; 18000; (-6000); 6000; 0; 0; 0; 0; 0; 0; 0; 0; 0; 0];
   [0; 0; (-4000); (-6000); 4000; 0; 0; 0; 0; 0; 0; 0; 0; 0; 0; 0];
   [0; 0; (-4000); 6000; 0; 4000; 0; 0; 0; 0; 0; 0; 0; 0; 0; 0];
   [(-1500); 7500; 0; 0; 0; 0; 11000; 0; (-4000); (-4000); (-1500); (-7500); 0; 0; 0; 0];
   [0; 0; 0; 0; 0; 0; 0; 18000; (-6000); 6000; 0; 0; 0; 0; 0; 0];
   [0; 0; 0; 0; 0; 0; (-4000); (-6000); 4000; 0; 0; 0; 0; 0; 0; 0];
   [0; 0; 0; 0; 0; 0; (-4000); 6000; 0; 4000; 0; 0; 0; 0; 0; 0];
   [0; 0; 0; 0; 0; 0; (-1500); 0; 0; 0; 4500; 0; (-3000); 0; 0; 0];
   [0; 0; 0; 0; 0; 0; (-7500); 0; 0; 0; 0; 112500; 15000; 0; 0; 0];
   [0; 0; 0; 0; 0; 0; 0; 0; 0; 0; (-3000); 15000; 11000; 0; (-4000); (-4000)];
   [0; 0; 0; 0; 0; 0; 0; 0; 0; 0; 0; 0; 0; 18000; (-6000); 6000];
   [0; 0; 0; 0; 0; 0; 0; 0; 0; 0; 0; 0; (-4000); (-6000); 4000; 0];
   [0; 0; 0; 0; 0; 0; 0; 0; 0; 0; 0; 0; (-4000); 6000; 0; 4000]] = true.
Proof. vm_compute. reflexivity. Qed.
Example test_shared_mass : same (rows 16 (mass_of shared))
  [[2000; 0; 0; 0; 0; 0; 0; 0; 0; 0; 0; 0; 0; 0; 0; 0];
   [0; 800; 0; 0; 0; 0; 0; 0; 0; 0; 0; 0; 0; 0; 0; 0];
   [0; 0; 3000; 0; 0; 0; 0; 0; 0; 0; 0; 0; 0; 0; 0; 0];
   [0; 0; 0; 700; 0; 0; 0; 0; 0; 0; 0; 0; 0; 0; 0; 0];
   [0; 0; 0; 0; 5750; 0; 0; 0; 0; 0; 0; 0; 0; 0; 0; 0];
   [0; 0; 0; 0; 0; 5750; 0; 0; 0; 0; 0; 0; 0; 0; 0; 0];
   [0; 0; 0; 0; 0; 0; 3000; 0; 0; 0; 0; 0; 0; 0; 0; 0];
   [0; 0; 0; 0; 0; 0; 0; 700; 0; 0; 0; 0; 0; 0; 0; 0];
   [0; 0; 0; 0; 0; 0; 0; 0; 5750; 0; 0; 0; 0; 0; 0; 0];
   [0; 0; 0; 0; 0; 0; 0; 0; 0; 5750; 0; 0; 0; 0; 0; 0];
   [0; 0; 0; 0; 0; 0; 0; 0; 0; 0; 2000; 0; 0; 0; 0; 0];
   [0; 0; 0; 0; 0; 0; 0; 0; 0; 0; 0; 800; 0; 0; 0; 0];
   [0; 0; 0; 0; 0; 0; 0; 0; 0; 0; 0; 0; 3000; 0; 0; 0];
   [0; 0; 0; 0; 0; 0; 0; 0; 0; 0; 0; 0; 0; 700; 0; 0];
   [0; 0; 0; 0; 0; 0; 0; 0; 0; 0; 0; 0; 0; 0; 5750; 0];
   [0; 0; 0; 0; 0; 0; 0; 0; 0; 0; 0; 0; 0; 0; 0; 5750]] = true.
Proof. vm_compute. reflexivity. Qed.

Definition wheel_loads (tn : @train Q) (bs : list nat) : list (option Q) :=
  let '(cd, st, _) := numbering tn in
  match train_static_load tn cd st bs (train_static_force tn cd st) 0 no_loads with
  | Ok l => flat_map (fun b => map (fun i => ld_wheel l b i) (seq 0 (length (bg_wheels (bogie_of tn b))))) bs
  | Err _ => []
  end.
Definition value (o : option Q) : Q := match o with Some v => v | None => 0 end.
Example test_shared_load : all2 (map value (wheel_loads shared [0; 1; 2]%nat))
  (let cart := - 2000 * (981 # 100) in let outer := (cart / 2 - 3000 * (981 # 100)) / 2 - 5750 * (981 # 100) in let middle := (cart - 3000 * (981 # 100)) / 2 - 5750 * (981 # 100) in
   [outer; outer; middle; middle; outer; outer]) = true.
Proof. vm_compute. reflexivity. Qed.
Example test_bogie_and_wheel : all2 (map value (wheel_loads (mkTrain [mkCart 0 0 0 0 [1] [0] [0]%nat] [mkBogie 3000 0 0 0 [1] [0] [5750]]) [0]%nat)) [- (3000 + 5750) * (981 # 100)] = true.
Proof. vm_compute. reflexivity. Qed.
