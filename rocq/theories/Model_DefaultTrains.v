(** * Model of rose/pre_process/default_trains.py *)

From Coq Require Import List Bool ZArith Arith.
From Verif Require Import Num PyBase Model_Geometry Model_System Model_Element Model_Moving Model_Train.
Import ListNotations.

(** default_trains.py 7-17 *)
Inductive train_type := DOUBLEDEKKER | SPRINTER_SLT | SPRINTER_SGM | ICM | CARGO_FALNS5 | CARGO_SGNS | CARGO_TAPPS | TRAXX | BR189.

Section DefaultTrains.
  Context {T : Type} `{Num T}.
  Local Open Scope num_scope.

  (** the numbers that distinguish the trains with two own bogies per cart and two wheels per bogie: length, distance of
      the bogies from the centre, mass, inertia, stiffness and damping of a cart; distance of the wheels from the centre,
      mass, inertia, stiffness, damping and length of a bogie; mass of a wheel (default_trains.py 38-500) *)
  Record vehicle := mkVehicle {
    vh_length : T; vh_bogie : T; vh_mass : T; vh_inertia : T; vh_k : T; vh_c : T;
    vh_wheel : T; vh_bmass : T; vh_binertia : T; vh_bk : T; vh_bc : T; vh_blength : T; vh_wmass : T }.

  (** default_trains.py 68-97 *)
  Definition traxx : vehicle := mkVehicle (ndec 1895 2) (ndec 5175 3) (lit 54000 / lit 2) (lit 1558125 / lit 2) (lit 24000000) (lit 71000)
    (ndec 13 1) (lit 7000 / lit 2) (lit 9333 / lit 2) (lit 2232000) (lit 36700) (ndec 26 1) (lit 4000).
  (** default_trains.py 115-144 *)
  Definition br189 : vehicle := mkVehicle (ndec 196 1) (ndec 495 2) (lit 55200 / lit 2) (lit 1592750 / lit 2) (lit 24000000) (lit 71000)
    (ndec 145 2) (lit 7000 / lit 2) (ndec 93333 1 / lit 2) (lit 2232000) (lit 36700) (ndec 29 1) (lit 4000).
  (** default_trains.py 162-192 *)
  Definition double_dekker : vehicle := mkVehicle (ndec 241 1) (ndec 995 2) (lit 50000 / lit 2) (lit 128800 / lit 2) (lit 2708000) (lit 64000)
    (ndec 125 2) (lit 6000 / lit 2) (lit 310 / lit 2) (lit 4800000) (lit 250) (ndec 25 1) (lit 1500).
  (** default_trains.py 276-306 *)
  Definition sprinter_sgm : vehicle := mkVehicle (ndec 2515 2) (lit 9) (lit 46000 / lit 2) (lit 73400 / lit 2) (lit 2468000) (lit 50200)
    (ndec 125 2) (lit 3200 / lit 2) (lit 170 / lit 2) (lit 4400000) (lit 590) (ndec 25 1) (lit 1500).
  (** default_trains.py 324-354 *)
  Definition icm : vehicle := mkVehicle (ndec 273 1) (ndec 77 1) (lit 34300) (lit 91500) (lit 10000000) (lit 42500)
    (ndec 9 1) (lit 1495) (lit 1900) (lit 2612000) (lit 52200) (ndec 18 1) (ndec 6775 1).
  (** default_trains.py 371-401 *)
  Definition cargo_SGNS : vehicle := mkVehicle (ndec 1974 2) (ndec 71 1) (lit 29480 / lit 2) (lit 784200 / lit 2) (lit 32700000) (lit 802000)
    (ndec 91 2) (lit 5000 / lit 2) (lit 2100 / lit 2) (lit 3270000) (lit 80200) (ndec 182 2) (lit 1500).
  (** default_trains.py 419-449 *)
  Definition cargo_FALNS5 : vehicle := mkVehicle (ndec 1579 2) (ndec 5335 3) (lit 60000 / lit 2) (lit 248278 / lit 2) (lit 237000000) (lit 802000)
    (ndec 91 2) (lit 5200 / lit 2) (lit 2100 / lit 2) (lit 2370000) (lit 80200) (ndec 182 2) (lit 3000).
  (** default_trains.py 467-497 *)
  Definition cargo_TAPPS : vehicle := mkVehicle (ndec 1255 2) (ndec 3745 3) (lit 65000 / lit 2) (lit 1558125 / lit 2) (lit 24000000) (lit 71000)
    (ndec 91 2) (ndec 93333 1 / lit 2) (lit 9300 / lit 2) (lit 2232000) (lit 36700) (ndec 182 2) (lit 2500).

  (** what a train function sets: carts and bogies, cart lengths and positions ([cart_distances]) and bogie lengths; time
      and velocities are passed on unchanged and not repeated here (default_trains.py 60-99) *)
  Record generated := mkGenerated {
    gn_train : train T; gn_lengths : list T; gn_positions : list T; gn_bogie_lengths : list T }.

  (** the loops of the train functions, e.g. default_trains.py 68-99: cart [i] has the bogie objects [first + 2 i] and
      [first + 2 i + 1] *)
  Definition vehicle_bogie (v : vehicle) : bogie T :=
    mkBogie (vh_bmass v) (vh_binertia v) (vh_bk v) (vh_bc v) [] [- vh_wheel v; vh_wheel v] (repeat (vh_wmass v) 2).
  (** default_trains.py 74-97: one cart *)
  Definition vehicle_cart (v : vehicle) (first i : nat) : cart T :=
    mkCart (vh_mass v) (vh_inertia v) (vh_k v) (vh_c v) [] [- vh_bogie v; vh_bogie v] [first + 2 * i; first + 2 * i + 1]%nat.
  (** default_trains.py 72: the cart distances *)
  Definition behind (start length : T) (nb : nat) : list T := map (fun i => start - nofnat i * length) (seq 0 nb).
  (** default_trains.py 67-99: the whole train *)
  Definition vehicle_train (v : vehicle) (start : T) (nb : nat) : generated :=
    mkGenerated (mkTrain (map (vehicle_cart v 0) (seq 0 nb)) (repeat (vehicle_bogie v) (2 * nb)))
                (repeat (vh_length v) nb) (behind start (vh_length v) nb) (repeat (vh_blength v) (2 * nb)).

  (** default_trains.py 197-260, [set_sprinter_slt_train]: neighbouring carts share a bogie *)
  Definition slt_length : T := lit 2 * ndec 7785 3.
  (** default_trains.py 222-242: one cart *)
  Definition slt_cart (nb i : nat) : cart T :=
    mkCart (lit 46000 / lit 2) (lit 73400 / lit 2) (lit 2468000) (lit 50200)
      (if Nat.eqb i 0 then [lit 1; ndec 5 1] else if Nat.eqb i (nb - 1) then [ndec 5 1; lit 1] else [ndec 5 1; ndec 5 1])
      [slt_length / lit 2; - slt_length / lit 2] [i; i + 1]%nat.
  (** default_trains.py 245-258 *)
  Definition slt_bogie : bogie T :=
    mkBogie (lit 3200 / lit 2) (lit 170 / lit 2) (lit 4400000) (lit 590) [] [- ndec 14 1; ndec 14 1] (repeat (lit 1500) 2).
  (** default_trains.py 197-260: the whole train *)
  Definition slt_train (start : T) (nb : nat) : res generated :=
    if Nat.ltb nb 2 then Err ErrValue
    else Ok (mkGenerated (mkTrain (map (slt_cart nb) (seq 0 nb)) (repeat slt_bogie (nb + 1)))
                         (repeat slt_length nb) (behind start slt_length nb) (repeat (ndec 28 1) (nb + 1))).

  (** default_trains.py 20-52, [set_train] (the number of carts is not negative) *)
  Definition set_train (ty : train_type) (start : T) (nb : nat) : res generated :=
    match ty with
    | DOUBLEDEKKER => Ok (vehicle_train double_dekker start nb)
    | SPRINTER_SLT => slt_train start nb
    | SPRINTER_SGM => Ok (vehicle_train sprinter_sgm start nb)
    | ICM => Ok (vehicle_train icm start nb)
    | CARGO_FALNS5 => Ok (vehicle_train cargo_FALNS5 start nb)
    | CARGO_SGNS => Ok (vehicle_train cargo_SGNS start nb)
    | CARGO_TAPPS => Ok (vehicle_train cargo_TAPPS start nb)
    | TRAXX => Ok (vehicle_train traxx start nb)
    | BR189 => Ok (vehicle_train br189 start nb)
    end.

  (** default_trains.py 501-546, [build_cargo_train]; the wagons are deep copies, so they have bogies of their own.  The
      length of [carts[0]] is only read when there are wagons (line 535) *)
  Definition locomotive (ty : train_type) : res vehicle :=
    match ty with TRAXX => Ok traxx | BR189 => Ok br189 | _ => Err ErrValue end.
  (** default_trains.py 524-532 *)
  Definition wagon (ty : train_type) : res vehicle :=
    match ty with CARGO_TAPPS => Ok cargo_TAPPS | CARGO_FALNS5 => Ok cargo_FALNS5 | CARGO_SGNS => Ok cargo_SGNS | _ => Err ErrValue end.
  (** default_trains.py 501-546 *)
  Definition build_cargo_train (lty wty : train_type) (start : T) (nl nw : nat) : res generated :=
    do l <- locomotive lty ;
    do w <- wagon wty ;
    if Nat.eqb nl 0 && negb (Nat.eqb nw 0) then Err ErrIndex
    else
      let g := vehicle_train l start nl in
      Ok (mkGenerated
        (mkTrain (tn_carts (gn_train g) ++ map (vehicle_cart w (2 * nl)) (seq 0 nw))
                 (tn_bogies (gn_train g) ++ repeat (vehicle_bogie w) (2 * nw)))
        (gn_lengths g ++ repeat (vh_length w) nw)
        (gn_positions g ++ map (fun i => start - vh_length l / lit 2 - vh_length w / lit 2 - vh_length w * nofnat i) (seq 0 nw))
        (gn_bogie_lengths g ++ repeat (vh_blength w) (2 * nw))).

  (** train_model.py 816-841 and 59-68, 161-180, 384-402 ([calculate_distances] and [set_mesh]): positions of the bogies
      and wheels at the first time step; a shared bogie keeps the position seen from the last of its carts *)
  Definition bogie_places (g : generated) (none : nat -> T) : nat -> T :=
    fold_left (fun x cp => fold_left (fun x bd b => if Nat.eqb b (fst bd) then snd cp + snd bd else x b)
                             (combine (ct_bogies (fst cp)) (ct_bogie_distances (fst cp))) x)
      (combine (tn_carts (gn_train g)) (gn_positions g)) none.
  (** train_model.py 59-68 and 816-841: positions of the wheels *)
  Definition wheel_places (g : generated) (none : nat -> T) : nat * nat -> T :=
    fun w => bogie_places g none (fst w) + nth (snd w) (bg_wheel_distances (bogie_of (gn_train g) (fst w))) (lit 0).
End DefaultTrains.

Arguments vehicle T : clear implicits.
Arguments generated T : clear implicits.
