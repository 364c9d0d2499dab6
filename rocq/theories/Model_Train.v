(** * Model of rose/model/train_model.py and of the generated rail irregularities *)

From Coq Require Import Reals List Bool ZArith Arith.
From Verif Require Import Num PyBase Model_Geometry Model_System Model_Element Model_Moving.
Import ListNotations.

Section Train.
  Context {T : Type} `{Num T} `{Trig T}.
  Local Open Scope num_scope.

  (** train_model.py 135-152, [Bogie.__init__]; its wheels (14-29) are given by their masses; wheels belong to one
      bogie *)
  Record bogie := mkBogie {
    bg_mass : T; bg_inertia : T; bg_k : T; bg_c : T;
    bg_factor : list T; bg_wheel_distances : list T; bg_wheels : list T }.

  (** train_model.py 358-375, [Cart.__init__]; bogies are given by their object identity, an index in the list of all
      bogies of the train, so that neighbouring carts may share a bogie *)
  Record cart := mkCart {
    ct_mass : T; ct_inertia : T; ct_k : T; ct_c : T;
    ct_factor : list T; ct_bogie_distances : list T; ct_bogies : list nat }.

  (** train_model.py 583-604, [TrainModel]: carts and all bogie objects *)
  Record train := mkTrain { tn_carts : list cart; tn_bogies : list bogie }.

  (** default for [nth]; bogie numbers are in range in a well-formed train; train_model.py 135-153 *)
  Definition no_bogie : bogie := mkBogie (lit 0) (lit 0) (lit 0) (lit 0) [] [] [].
  (** a bogie object by its identity, train_model.py 604-619 *)
  Definition bogie_of (tn : train) (b : nat) : bogie := nth b (tn_bogies tn) no_bogie.

  (** train_model.py 11 *)
  Definition gravity : T := ndec 981 2.

  (** ** bogies and wheels of the train *)

  (** [x not in seen] with an equality of nodes; the first of equal items is kept (train_model.py 634-662) *)
  Fixpoint unique_by {A} (same : A -> A -> bool) (seen l : list A) : list A :=
    match l with
    | [] => []
    | x :: r => if existsb (same x) seen then unique_by same seen r else x :: unique_by same (seen ++ [x]) r
    end.

  (** train_model.py 634-647, [__get_bogies] (the nodes are not numbered yet, so the comparison of nodes changes
      nothing): [x b] is the x coordinate of the node of bogie [b], y = 1 and z = 0 *)
  Definition get_bogies (tn : train) (x : nat -> T) : list nat :=
    unique_by (fun a b => coords_equal (T3 (x a) (lit 1) (lit 0)) (T3 (x b) (lit 1) (lit 0))) []
      (flat_map ct_bogies (tn_carts tn)).

  (** train_model.py 649-662, [__get_wheels]: a wheel is a bogie and its position in the bogie *)
  Definition get_wheels (tn : train) (x : nat -> T) (xw : nat * nat -> T) : list (nat * nat) :=
    unique_by (fun a b => coords_equal (T3 (xw a) (lit 0) (lit 0)) (T3 (xw b) (lit 0) (lit 0))) []
      (flat_map (fun b => map (fun i => (b, i)) (seq 0 (length (bg_wheels (bogie_of tn b))))) (get_bogies tn x)).

  (** ** degrees of freedom *)

  (** numbers of a bogie (y and rotation) and of its wheels (train_model.py 83-95 and 195-222) *)
  Record bdof := mkBdof { bd_y : nat; bd_r : nat; bd_wheels : list nat }.

  (** train_model.py 83-95, [Wheel.calculate_active_n_dof] for all wheels of a bogie *)
  Fixpoint number_wheels (index_dof n : nat) : list nat * nat :=
    match n with
    | 0%nat => ([], index_dof)
    | S m => let (r, i) := number_wheels (S index_dof) m in (index_dof :: r, i)
    end.

  (** the numbers already given to a bogie, train_model.py 195-222 *)
  Fixpoint dof_of (b : nat) (st : list (nat * bdof)) : option bdof :=
    match st with [] => None | (c, d) :: r => if Nat.eqb b c then Some d else dof_of b r end.

  (** train_model.py 195-222, [Bogie.calculate_active_n_dof]: nothing happens when the node is already numbered *)
  Definition number_bogie (tn : train) (st : list (nat * bdof)) (index_dof b : nat) : list (nat * bdof) * nat :=
    match dof_of b st with
    | Some _ => (st, index_dof)
    | None => let (ws, i) := number_wheels (S (S index_dof)) (length (bg_wheels (bogie_of tn b))) in
              (st ++ [(b, mkBdof index_dof (S index_dof) ws)], i)
    end.
  (** train_model.py 195-222 and 419-444: the loop over the bogies of a cart *)
  Fixpoint number_bogies (tn : train) (st : list (nat * bdof)) (index_dof : nat) (bs : list nat) : list (nat * bdof) * nat :=
    match bs with
    | [] => (st, index_dof)
    | b :: r => let (st', i) := number_bogie tn st index_dof b in number_bogies tn st' i r
    end.

  (** train_model.py 419-444 and 672-685, [Cart.calculate_active_n_dof] and [TrainModel.initialise_ndof]: numbers of
      the carts (y, rotation), of the bogies, and the next free number *)
  Fixpoint number_carts (tn : train) (st : list (nat * bdof)) (index_dof : nat) (cs : list cart)
    : list (nat * nat) * list (nat * bdof) * nat :=
    match cs with
    | [] => ([], st, index_dof)
    | c :: r =>
        let (st', i) := number_bogies tn st (S (S index_dof)) (ct_bogies c) in
        let '(cd, st'', j) := number_carts tn st' i r in
        ((index_dof, S index_dof) :: cd, st'', j)
    end.
  (** train_model.py 672-685 *)
  Definition initialise_train_ndof (tn : train) : list (nat * nat) * list (nat * bdof) * nat :=
    number_carts tn [] 0 (tn_carts tn).

  (** train_model.py 219, 443 and 685: [total_n_dof]; a shared bogie is counted for every cart *)
  Definition bogie_active_n_dof (b : bogie) : nat := 2 + length (bg_wheels b).
  (** train_model.py 443 *)
  Definition cart_active_n_dof (tn : train) (c : cart) : nat :=
    2 + list_sum (map (fun b => bogie_active_n_dof (bogie_of tn b)) (ct_bogies c)).
  (** train_model.py 685 *)
  Definition train_total_n_dof (tn : train) : nat := list_sum (map (cart_active_n_dof tn) (tn_carts tn)).

  (** train_model.py 785-802, [get_contact_dofs] before trimming: a wheel has one number only *)
  Definition contact_dofs (st : list (nat * bdof)) (wheels : list (nat * nat)) : list nat :=
    flat_map (fun w => match dof_of (fst w) st with
                       | Some d => match nth_error (bd_wheels d) (snd w) with Some k => [k] | None => [] end
                       | None => [] end) wheels.

  (** ** matrices *)

  (** [m[i, j] += v] (train_model.py 243-292 and 465-524) *)
  Definition madd (m : nat -> nat -> T) (i j : nat) (v : T) : nat -> nat -> T := mset m i j (m i j + v).

  (** train_model.py 875-889, [check_distribution_factors] *)
  Definition check_factors (factors : list T) (n : nat) : list T :=
    match factors with [] => repeat (lit 1) n | _ => factors end.

  (** train_model.py 465-495, [Cart.fill_stiffness_matrix]: [cy], [cr] numbers of the cart, [bys] of its bogies *)
  Definition cart_fill_stiffness (c : cart) (cy cr : nat) (bys : list nat) (m : nat -> nat -> T) : nat -> nat -> T :=
    let f := check_factors (ct_factor c) (length (ct_bogies c)) in
    let m := madd m cy cy (ct_k c * nsum f) in
    fold_left (fun m i =>
      let by_ := nth i bys 0%nat in let d := nth i (ct_bogie_distances c) (lit 0) in let fi := nth i f (lit 0) in
      let m := madd m cr cr (ct_k c * sq d * fi) in
      let m := madd m cy by_ (- ct_k c * fi) in
      let m := madd m by_ cy (- ct_k c * fi) in
      let m := madd m cr by_ (ct_k c * d * fi) in
      let m := madd m by_ cr (ct_k c * d * fi) in
      madd m by_ by_ (ct_k c * fi)) (seq 0 (length (ct_bogies c))) m.

  (** train_model.py 497-524, [Cart.fill_damping_matrix] *)
  Definition cart_fill_damping (c : cart) (cy cr : nat) (bys : list nat) (m : nat -> nat -> T) : nat -> nat -> T :=
    let f := check_factors (ct_factor c) (length (ct_bogies c)) in
    let m := madd m cy cy (ct_c c * nsum f) in
    fold_left (fun m i =>
      let by_ := nth i bys 0%nat in let d := nth i (ct_bogie_distances c) (lit 0) in let fi := nth i f (lit 0) in
      let m := madd m cr cr (ct_c c * sq d * fi) in
      let m := madd m cy by_ (- ct_c c * fi) in
      let m := madd m by_ cy (- ct_c c * fi) in
      let m := madd m cr by_ (ct_c c * d * fi) in
      let m := madd m by_ cr (ct_c c * d * fi) in
      madd m by_ by_ (ct_c c * fi)) (seq 0 (length (ct_bogies c))) m.

  (** train_model.py 243-271, [Bogie.fill_stiffness_matrix] *)
  Definition bogie_fill_stiffness (b : bogie) (d : bdof) (m : nat -> nat -> T) : nat -> nat -> T :=
    let f := check_factors (bg_factor b) (length (bg_wheels b)) in
    let m := madd m (bd_y d) (bd_y d) (bg_k b * nsum f) in
    fold_left (fun m i =>
      let wy := nth i (bd_wheels d) 0%nat in let x := nth i (bg_wheel_distances b) (lit 0) in let fi := nth i f (lit 0) in
      let m := madd m (bd_r d) (bd_r d) (bg_k b * sq x * fi) in
      let m := madd m (bd_y d) wy (- bg_k b * fi) in
      let m := madd m wy (bd_y d) (- bg_k b * fi) in
      let m := madd m (bd_r d) wy (bg_k b * x * fi) in
      let m := madd m wy (bd_r d) (bg_k b * x * fi) in
      madd m wy wy (bg_k b * fi)) (seq 0 (length (bg_wheels b))) m.

  (** train_model.py 273-292, [Bogie.fill_damping_matrix] *)
  Definition bogie_fill_damping (b : bogie) (d : bdof) (m : nat -> nat -> T) : nat -> nat -> T :=
    let f := check_factors (bg_factor b) (length (bg_wheels b)) in
    let m := madd m (bd_y d) (bd_y d) (bg_c b * nsum f) in
    fold_left (fun m i =>
      let wy := nth i (bd_wheels d) 0%nat in let x := nth i (bg_wheel_distances b) (lit 0) in let fi := nth i f (lit 0) in
      let m := madd m (bd_r d) (bd_r d) (bg_c b * sq x * fi) in
      let m := madd m (bd_y d) wy (- bg_c b * fi) in
      let m := madd m wy (bd_y d) (- bg_c b * fi) in
      let m := madd m (bd_r d) wy (bg_c b * x * fi) in
      let m := madd m wy (bd_r d) (bg_c b * x * fi) in
      madd m wy wy (bg_c b * fi)) (seq 0 (length (bg_wheels b))) m.

  (** train_model.py 37-45, 224-241 and 446-463, [fill_mass_matrix] of wheels, bogie and cart *)
  Definition wheels_fill_mass (ws : list (nat * T)) (m : nat -> nat -> T) : nat -> nat -> T :=
    fold_left (fun m w => mset m (fst w) (fst w) (snd w)) ws m.
  (** train_model.py 224-241 *)
  Definition bogie_fill_mass (b : bogie) (d : bdof) (m : nat -> nat -> T) : nat -> nat -> T :=
    let m := mset m (bd_y d) (bd_y d) (bg_mass b) in
    let m := mset m (bd_r d) (bd_r d) (bg_inertia b) in
    wheels_fill_mass (combine (bd_wheels d) (bg_wheels b)) m.
  (** default for a bogie without numbers, which does not occur after numbering; train_model.py 195-222 *)
  Definition no_dof : bdof := mkBdof 0 0 [].
  (** train_model.py 224-241: the numbers of a bogie *)
  Definition dof_get (st : list (nat * bdof)) (b : nat) : bdof := match dof_of b st with Some d => d | None => no_dof end.
  (** train_model.py 446-463 *)
  Definition cart_fill_mass (tn : train) (st : list (nat * bdof)) (c : cart) (cy cr : nat) (m : nat -> nat -> T) : nat -> nat -> T :=
    let m := mset m cy cy (ct_mass c) in
    let m := mset m cr cr (ct_inertia c) in
    fold_left (fun m b => bogie_fill_mass (bogie_of tn b) (dof_get st b) m) (ct_bogies c) m.

  (** train_model.py 687-733, the three global matrices; [bs] are the bogies of the train.  Lists of factors or
      distances shorter than the list of bogies or wheels would raise IndexError (not modelled: [nth] with default) *)
  Definition train_mass (tn : train) (cd : list (nat * nat)) (st : list (nat * bdof)) : nat -> nat -> T :=
    fold_left (fun m cn => cart_fill_mass tn st (fst cn) (fst (snd cn)) (snd (snd cn)) m) (combine (tn_carts tn) cd) zeros.
  (** train_model.py 700-715 *)
  Definition train_stiffness (tn : train) (cd : list (nat * nat)) (st : list (nat * bdof)) (bs : list nat) : nat -> nat -> T :=
    let m := fold_left (fun m cn => cart_fill_stiffness (fst cn) (fst (snd cn)) (snd (snd cn))
               (map (fun b => bd_y (dof_get st b)) (ct_bogies (fst cn))) m) (combine (tn_carts tn) cd) zeros in
    fold_left (fun m b => bogie_fill_stiffness (bogie_of tn b) (dof_get st b) m) bs m.
  (** train_model.py 717-732 *)
  Definition train_damping (tn : train) (cd : list (nat * nat)) (st : list (nat * bdof)) (bs : list nat) : nat -> nat -> T :=
    let m := fold_left (fun m cn => cart_fill_damping (fst cn) (fst (snd cn)) (snd (snd cn))
               (map (fun b => bd_y (dof_get st b)) (ct_bogies (fst cn))) m) (combine (tn_carts tn) cd) zeros in
    fold_left (fun m b => bogie_fill_damping (bogie_of tn b) (dof_get st b) m) bs m.

  (** ** static loads *)

  (** assignment in a vector (train_model.py 47-57) *)
  Definition vset (f : nat -> T) (i : nat) (v : T) : nat -> T := fun k => if Nat.eqb k i then v else f k.

  (** train_model.py 47-57, 294-308, 526-542 and 735-745: the static force vector *)
  Definition bogie_fill_static (b : bogie) (d : bdof) (f : nat -> T) : nat -> T :=
    fold_left (fun f w => vset f (fst w) (- snd w * gravity)) (combine (bd_wheels d) (bg_wheels b))
      (vset f (bd_y d) (- bg_mass b * gravity)).
  (** train_model.py 526-542 *)
  Definition cart_fill_static (tn : train) (st : list (nat * bdof)) (c : cart) (cy : nat) (f : nat -> T) : nat -> T :=
    fold_left (fun f b => bogie_fill_static (bogie_of tn b) (dof_get st b) f) (ct_bogies c) (vset f cy (- ct_mass c * gravity)).
  (** train_model.py 734-745 *)
  Definition train_static_force (tn : train) (cd : list (nat * nat)) (st : list (nat * bdof)) : nat -> T :=
    fold_left (fun f cn => cart_fill_static tn st (fst cn) (fst (snd cn)) f) (combine (tn_carts tn) cd) (fun _ => lit 0).

  (** the attributes [total_static_load] of bogies and wheels; they survive until they are set to None (train_model.py 97-111, 310-324 and 544-564) *)
  Record loads := mkLoads { ld_bogie : nat -> option T; ld_wheel : nat -> nat -> option T }.
  (** train_model.py 28 and 147: the attributes are None at first *)
  Definition no_loads : loads := mkLoads (fun _ => None) (fun _ _ => None).

  (** train_model.py 310-325, [Bogie.calculate_total_static_load] *)
  Definition bogie_add_load (force : nat -> T) (by_ : nat) (external : T) (old : option T) : T :=
    (match old with None => force by_ | Some t => t end) + external.

  (** train_model.py 544-564, [Cart.calculate_total_static_load] (the cart has degrees of freedom) *)
  Definition cart_add_load (force : nat -> T) (st : list (nat * bdof)) (external : T) (c : cart) (cy : nat) (l : loads) : loads :=
    let total := force cy + external in
    let distributed := total / nofnat (length (ct_bogies c)) in
    fold_left (fun l b => mkLoads (fun b' => if Nat.eqb b' b then Some (bogie_add_load force (bd_y (dof_get st b)) distributed (ld_bogie l b)) else ld_bogie l b')
                                  (ld_wheel l)) (ct_bogies c) l.

  (** train_model.py 97-111, [Wheel.calculate_total_static_load] *)
  Definition wheel_add_load (mass : T) (external : T) (old : option T) : T :=
    (match old with None => - mass * gravity | Some t => t end) + external.

  (** train_model.py 327-334, [Bogie.distribute_static_load] *)
  Definition bogie_distribute (tn : train) (b : nat) (l : loads) : loads :=
    let ws := bg_wheels (bogie_of tn b) in
    let total := match ld_bogie l b with Some t => t | None => lit 0 end in
    let distributed := total / nofnat (length ws) in
    mkLoads (ld_bogie l) (fun b' i => if Nat.eqb b' b && Nat.ltb i (length ws)
       then Some (wheel_add_load (nth i ws (lit 0)) distributed (ld_wheel l b i)) else ld_wheel l b' i).

  (** train_model.py 747-768, [TrainModel.calculate_total_static_load] *)
  Definition train_static_load (tn : train) (cd : list (nat * nat)) (st : list (nat * bdof)) (bs : list nat)
    (force : nat -> T) (external : T) (l : loads) : res loads :=
    match tn_carts tn with
    | [] => Err ErrZeroDivision
    | _ =>
        let distributed := external / nofnat (length (tn_carts tn)) in
        let l := fold_left (fun l cn => cart_add_load force st distributed (fst cn) (fst (snd cn)) l) (combine (tn_carts tn) cd) l in
        Ok (fold_left (fun l b => bogie_distribute tn b l) bs l)
    end.

  (** the same train initialised [n] times: the attributes are not reset (train_model.py 747-764) *)
  Fixpoint train_static_loads (n : nat) (tn : train) (cd : list (nat * nat)) (st : list (nat * bdof)) (bs : list nat)
    (force : nat -> T) (external : T) (l : loads) : res loads :=
    match n with
    | 0%nat => Ok l
    | S m => do l' <- train_static_load tn cd st bs force external l ; train_static_loads m tn cd st bs force external l'
    end.

  (** ** irregularities *)

  (** irregularities.py 219-227, [spectral] *)
  Definition spectral (Av omega_c omega : T) : T :=
    lit 2 * npi * Av * sq omega_c / ((sq omega + sq omega_c) * sq omega).

  (** irregularities.py 176-216, [RailIrregularities.__init__]: [rng seed n] is the [n]-th number of the generator
      started with [seed], uniform in [0, 2 pi) *)
  Definition rail_irregularities (rng : nat -> nat -> T) (x : list T) (f_min f_max : T) (N : nat) (Av omega_c : T) (seed : nat) : res (list T) :=
    match N with
    | 0%nat => Err ErrZeroDivision
    | _ =>
        let omega_max := lit 2 * npi * f_max in
        let omega_min := lit 2 * npi * f_min in
        let delta := (omega_max - omega_min) / nofnat N in
        Ok (fold_left (fun irr n =>
              let omega_n := omega_min + delta * nofnat n in
              let phi := rng seed n in
              map (fun p => fst p + nsqrt (lit 4 * spectral Av omega_c omega_n * delta) * ncos (omega_n * snd p - phi)) (combine irr x))
            (seq 0 N) (map (fun _ => lit 0) x))
    end.

  (** utils.py 385-403, [generate_rail_irregularities]: one row per wheel; a row of another length than the time
      vector raises *)
  Fixpoint generate_irregularities (rng : nat -> nat -> T) (wheels : list (list T)) (n_time : nat) (f_min f_max : T) (N : nat) (Av omega_c : T) (seed : nat)
    : res (list (list T)) :=
    match wheels with
    | [] => Ok []
    | d :: r =>
        do row <- rail_irregularities rng d f_min f_max N Av omega_c seed ;
        if Nat.eqb (length row) n_time then
          do q <- generate_irregularities rng r n_time f_min f_max N Av omega_c seed ; Ok (row :: q)
        else Err ErrValue
    end.

  (** train_model.py 770-782, [initialise_irregularities_at_wheels]: what was there before is kept and added to *)
  Definition initialise_irregularities (old : option (list (list T))) (n_wheels n_time : nat) (generated : option (list (list T))) : list (list T) :=
    let base := match old with Some m => m | None => repeat (repeat (lit 0) n_time) n_wheels end in
    match generated with
    | None => base
    | Some g => map (fun rr => map (fun ab => fst ab + snd ab) (combine (fst rr) (snd rr))) (combine base g)
    end.

  (** ** initial displacement *)

  (** product of a matrix and a vector (train_model.py 941-960) *)
  Definition matvec (m : mat T) (u : nat -> T) : list T := map (fun i => sumn (mc m) (fun j => me m i j * u j)) (seq 0 (mr m)).

  (** train_model.py 941-960, [impose_displacement]: the constraint vector and the resulting force *)
  Definition constraint_vector (n : nat) (dofs : list nat) (disp : list T) : list T := write_all (repeat (lit 0) n) dofs disp.
  (** train_model.py 941-960: the resulting force *)
  Definition impose_displacement (K : mat T) (F : list T) (n : nat) (disp : list T) (dofs : list nat) : list T :=
    let u := constraint_vector n dofs disp in
    map (fun p => fst p + snd p) (combine F (matvec K (fun i => nth i u (lit 0)))).

  (** train_model.py 962-1000, [calculate_initial_displacement]: the reduced system handed to the static solver ... *)
  Definition initial_system (K : mat T) (F : list T) (n : nat) (disp : list T) (dofs : list nat) : res (mat T * list T) :=
    let F' := impose_displacement K F n disp dofs in
    do K1 <- delete_from_lil K dofs dofs ;
    do F1 <- delete_from_vec F' dofs ;
    Ok (K1, F1).
  (** ... and the displacement assembled from the solution [u1] (train_model.py 962-1000) *)
  Fixpoint scatter (mask : list bool) (u1 : list T) : list T :=
    match mask with
    | [] => []
    | true :: r => match u1 with a :: q => a :: scatter r q | [] => lit 0 :: scatter r [] end
    | false :: r => lit 0 :: scatter r u1
    end.
  (** train_model.py 962-1000 *)
  Definition initial_displacement (n : nat) (disp : list T) (dofs : list nat) (u1 : list T) : res (list T) :=
    do mask <- delete_mask n dofs ;
    Ok (write_all (scatter mask u1) dofs disp).
End Train.

Arguments bogie T : clear implicits.
Arguments cart T : clear implicits.
Arguments train T : clear implicits.
Arguments loads T : clear implicits.
