(** * Model of the description of a train for the dashboard and of a train built from such values *)

From Coq Require Import List Bool ZArith Arith.
From Verif Require Import Num PyBase Model_Geometry Model_System Model_Element Model_Moving Model_Train Model_DefaultTrains.
Import ListNotations.

Section TrainDict.
  Context {T : Type} `{Num T}.

  (** the dictionary of default_trains.py 596-619, one field for each key; the same values are set in run_optimisation.py 44-71.
      Simplified: the lists of distances are copied here, in the code the dictionary and the train have the same list objects *)
  Record train_dict := mkTrainDict {
    td_wheel_distances : list T; td_bogie_length : T; td_bogie_distances : list T; td_cart_length : T; td_cart_distances : list T;
    td_mass_wheel : T; td_mass_bogie : T; td_mass_cart : T; td_inertia_bogie : T; td_inertia_cart : T;
    td_prim_stiffness : T; td_sec_stiffness : T; td_prim_damping : T; td_sec_damping : T }.

  (** default_trains.py 588-621, [train_class_to_dict]: the first wheel of the first bogie of the first cart; without a cart, bogie or
      wheel the index raises *)
  Definition train_class_to_dict (g : generated T) : res train_dict :=
    match tn_carts (gn_train g), gn_lengths g with
    | c :: _, len :: _ =>
        match ct_bogies c with
        | [] => Err ErrIndex
        | i :: _ =>
            let b := bogie_of (gn_train g) i in
            match bg_wheels b with
            | [] => Err ErrIndex
            | w :: _ =>
                Ok (mkTrainDict (bg_wheel_distances b) (nth i (gn_bogie_lengths g) (lit 0)) (ct_bogie_distances c) len (gn_positions g)
                      w (bg_mass b) (ct_mass c) (bg_inertia b) (ct_inertia c) (bg_k b) (ct_k c) (bg_c b) (ct_c c))
            end
        end
    | _, _ => Err ErrIndex
    end.

  (** run_optimisation.py 182-197: one bogie *)
  Definition dict_bogie (p : train_dict) : bogie T :=
    mkBogie (td_mass_bogie p) (td_inertia_bogie p) (td_prim_stiffness p) (td_prim_damping p) [] (td_wheel_distances p)
      (map (fun _ => td_mass_wheel p) (td_wheel_distances p)).
  (** run_optimisation.py 170-181: cart [i], with as many bogies of its own as there are bogie distances *)
  Definition dict_cart (p : train_dict) (i : nat) : cart T :=
    mkCart (td_mass_cart p) (td_inertia_cart p) (td_sec_stiffness p) (td_sec_damping p) [] (td_bogie_distances p)
      (seq (i * length (td_bogie_distances p)) (length (td_bogie_distances p))).
  (** run_optimisation.py 162-197: the whole train; time and velocities are not repeated here *)
  Definition dict_train (p : train_dict) : generated T :=
    let n := length (td_cart_distances p) in
    let m := length (td_bogie_distances p) in
    mkGenerated (mkTrain (map (dict_cart p) (seq 0 n)) (repeat (dict_bogie p) (n * m)))
      (repeat (td_cart_length p) n) (td_cart_distances p) (repeat (td_bogie_length p) (n * m)).
End TrainDict.

Arguments train_dict T : clear implicits.
