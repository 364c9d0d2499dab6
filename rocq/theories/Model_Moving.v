(** * Model of load conditions: rose/model/boundary_conditions.py and the distance helpers of rose/model/utils.py *)

From Coq Require Import Reals List Bool ZArith Arith.
From Verif Require Import Num PyBase Model_Geometry Model_System Model_Element.
Import ListNotations.

Section Moving.
  Context {T : Type} `{Num T} `{Trig T}.
  Local Open Scope num_scope.

  (** ** helpers *)

  (** [numpy.cumsum] (train_model.py 826, utils.py 83) *)
  Fixpoint cumsum_from (acc : T) (l : list T) : list T :=
    match l with [] => [] | x :: r => (acc + x) :: cumsum_from (acc + x) r end.
  (** train_model.py 826, utils.py 83: [numpy.cumsum] *)
  Definition cumsum (l : list T) : list T := cumsum_from (lit 0) l.

  (** [numpy.linspace(0, stop, n)]: equal steps, the last value is [stop] itself (boundary_conditions.py 123) *)
  Definition linspace0 (stop : T) (n : nat) : list T :=
    match n with
    | 0%nat => []
    | 1%nat => [lit 0]
    | S m => map (fun i => nofnat i * (stop / nofnat m)) (seq 0 m) ++ [stop]
    end.

  (** boundary_conditions.py 111-126, [set_load_vector_as_function_of_time]: [n_time] is the number of time steps and
      [n_ini] both [build_up_idxs] and the number of initialisation steps (the only call passes that length);
      assigning [n_ini] values to a shorter slice raises, except that a single value is broadcast *)
  Definition load_history (load : T) (n_time n_ini : nat) : res (list T) :=
    let time_load := repeat (lit 1 * load) n_time in
    if Nat.leb n_ini n_time then Ok (linspace0 load n_ini ++ skipn n_ini time_load)
    else if Nat.eqb n_ini 1 then Ok time_load
    else Err ErrValue.

  (** boundary_conditions.py 332-357, [set_load_vectors_as_function_of_time], one of the three components *)
  Definition component_history (load : option T) (n_time n_ini : nat) : res (list T) :=
    match load with Some p => load_history p n_time n_ini | None => Ok (repeat (lit 0) n_time) end.

  (** utils.py 12-27, [filer_location] *)
  Definition filer_location (locations : list T) (lower upper : T) : list T :=
    map (fun x => if nltb x lower then lower else x)
        (map (fun x => if nltb upper x then upper else x) locations).

  (** utils.py 30-45, [filter_data_outside_range] *)
  Definition filter_data_outside_range (data locations : list T) (lower upper : T) : list T :=
    map (fun dx => if nltb (snd dx) lower then lit 0 else fst dx)
        (combine (map (fun dx => if nltb upper (snd dx) then lit 0 else fst dx) (combine data locations)) locations).

  (** utils.py 73-85, [calculate_cum_distance_from_velocity]; the product of two arrays of different length raises *)
  Definition cum_distance_from_velocity (time velocities : list T) : res (list T) :=
    let dt := np_diff time in
    let v := removelast velocities in
    if Nat.eqb (length dt) (length v)
    then Ok (lit 0 :: cumsum (map (fun p => fst p * snd p) (combine dt v)))
    else Err ErrValue.

  (** train_model.py 816-841, [TrainModel.calculate_distances]: a cart is its distance and its bogies, a bogie its
      distance within the cart and the distances of its wheels; the result has the same shape, with a history for
      every cart, bogie and wheel *)
  Definition shift (h : list T) (d : T) : list T := map (fun x => x + d) h.
  (** train_model.py 816-841 for the whole train *)
  Definition train_distances (time velocities : list T) (carts : list (T * list (T * list T)))
    : res (list (list T * list (list T * list (list T)))) :=
    let dt := np_diff time in
    let v := removelast velocities in
    if Nat.eqb (length v) (length dt) then
      let distances := cumsum (lit 0 :: map (fun p => fst p * snd p) (combine v dt)) in
      Ok (map (fun cart =>
            let ch := shift distances (fst cart) in
            (ch, map (fun bogie =>
                   let bh := shift ch (fst bogie) in
                   (bh, map (shift bh) (snd bogie))) (snd cart))) carts)
    else Err ErrValue.

  (** mesh_utils.py 42-53 with utils.py 373-382: cumulative distances of the nodes *)
  Definition cum_distances_nodes (coords : list (tri T)) : list T :=
    lit 0 :: cumsum (consecutive_distances coords).

  (** ** contact element *)

  (** [numpy.argmin] of values where [None] is infinite: the first smallest (boundary_conditions.py 446) *)
  Fixpoint argmin_from (k best : nat) (bv : option T) (l : list (option T)) : nat :=
    match l with
    | [] => best
    | x :: r =>
        let smaller := match x, bv with Some a, Some b => nltb a b | Some _, None => true | None, _ => false end in
        if smaller then argmin_from (S k) k x r else argmin_from (S k) best bv r
    end.
  (** boundary_conditions.py 446: [numpy.argmin] of a list *)
  Definition argmin (l : list (option T)) : nat :=
    match l with [] => 0%nat | x :: r => argmin_from 1 0 x r end.

  (** boundary_conditions.py 434-448, [get_first_element_idx] (all elements have two nodes) *)
  Definition get_first_element_idx (nodes : list T) (first : T) : Z :=
    let ahead := map (fun d => if nltb (lit 0) (d - first) then Some (d - first) else None) nodes in
    Z.sub (Z.of_nat (argmin ahead)) 1.

  (** boundary_conditions.py 375-382: the loop of [set_active_elements]; [i] is the current row *)
  Fixpoint active_rows (nodes : list T) (i : Z) (forces : list T) : list Z :=
    match forces with
    | [] => []
    | d :: r =>
        let i' := if (i <? Z.of_nat (length nodes) - 2)%Z && nltb (nth (Z.to_nat (i + 1)) nodes (lit 0)) d
                  then (i + 1)%Z else i in
        i' :: active_rows nodes i' r
    end.

  (** boundary_conditions.py 359-387, [set_active_elements]: rows outside the matrix raise *)
  Definition set_active_elements (n_elements : nat) (nodes forces : list T) : res (list nat) :=
    let rows := active_rows nodes (get_first_element_idx nodes (nth 0 forces (lit 0))) forces in
    if forallb (fun i => (0 <=? i)%Z && (i <? Z.of_nat n_elements)%Z) rows
    then Ok (map Z.to_nat rows) else Err ErrValue.

  (** boundary_conditions.py 297-330, [set_contact_model_part_as_function_of_time]: [sizes] are the numbers of
      elements of the contact model parts, the result is the index of the part at every step *)
  Fixpoint parts_loop (sizes : list nat) (mp mx : nat) (els : list nat) : res (list nat) :=
    match els with
    | [] => Ok []
    | e :: r =>
        if Nat.leb mx e then
          match nth_error sizes (S mp) with
          | None => Err ErrIndex
          | Some k => do q <- parts_loop sizes (S mp) (mx + k) r ; Ok (S mp :: q)
          end
        else do q <- parts_loop sizes mp mx r ; Ok (mp :: q)
    end.
  (** boundary_conditions.py 297-330 *)
  Definition contact_parts (sizes : list nat) (els : list nat) : res (list nat) :=
    match sizes with [] => Err ErrIndex | k :: _ => parts_loop sizes 0 k els end.

  (** ** positions *)

  (** [numpy.searchsorted(x, v)] (left): number of values below [v] (used by [interp1d], utils.py 61-63) *)
  Definition searchsorted (xs : list T) (v : T) : nat := length (filter (fun x => nltb x v) xs).

  (** [scipy.interpolate.interp1d(xs, ys)(v)], linear, for [v] within the range (utils.py 61-70) *)
  Definition interp1 (xs ys : list T) (v : T) : T :=
    let hi := Nat.max 1 (Nat.min (searchsorted xs v) (length xs - 1)) in
    let lo := (hi - 1)%nat in
    let x_lo := nth lo xs (lit 0) in let x_hi := nth hi xs (lit 0) in
    let y_lo := nth lo ys (lit 0) in let y_hi := nth hi ys (lit 0) in
    (y_hi - y_lo) / (x_hi - x_lo) * (v - x_lo) + y_lo.

  (** utils.py 48-70, [interpolate_cumulative_distance_on_nodes] for one new distance *)
  Definition moving_coord (cum : list T) (coords : list (tri T)) (v : T) : tri T :=
    T3 (interp1 cum (map tx coords) v) (interp1 cum (map ty coords) v) (interp1 cum (map tr coords) v).

  (** [dict.fromkeys]: first occurrences in order (boundary_conditions.py 542) *)
  Fixpoint first_occurrences (seen l : list nat) : list nat :=
    match l with
    | [] => []
    | x :: r => if memb x seen then first_occurrences seen r else x :: first_occurrences (x :: seen) r
    end.

  (** boundary_conditions.py 562-571: the loop that repeats the node indices of the contact elements.  Elements are
      compared by their index in the condition (elements of a condition are different from each other); [pairs] are
      the node positions of the [unique] elements *)
  Fixpoint node_indices_loop (unique : list nat) (pairs : list (nat * nat)) (i : nat) (els : list nat) : list (nat * nat) :=
    match els with
    | [] => []
    | e :: r =>
        let i := if Nat.ltb i (length unique) && Nat.eqb e (nth i unique 0%nat) then S i else i in
        (match i with 0%nat => last pairs (0, 0)%nat | S k => nth k pairs (0, 0)%nat end) :: node_indices_loop unique pairs i r
    end.

  (** boundary_conditions.py 531-571, [set_moving_point_load]: node positions of the contact element at every step.
      [elements] are the node positions of the elements in the condition's node list ([self.nodes.index], the nodes
      being pairwise different). [element_idxs] is sorted by row in the code; the rows never decrease, so this is the
      order in time. *)
  Definition contact_nodes (elements : list (nat * nat)) (els : list nat) : list (nat * nat) :=
    let unique := first_occurrences [] els in
    node_indices_loop unique (map (fun e => nth e elements (0, 0)%nat) unique) 0 els.

  (** ** moving point load *)

  (** input of a moving load: node coordinates, elements, sizes of the contact parts ([None]: a single part), time,
      velocities, start, load components, number of initialisation steps (boundary_conditions.py 204-276) *)
  Record moving_input := mkMovingInput {
    mi_coords : list (tri T); mi_elements : list (nat * nat); mi_sizes : option (list nat);
    mi_time : list T; mi_velocities : list T; mi_start : option T;
    mi_x : option T; mi_y : option T; mi_z : option T; mi_n_ini : nat }.

  (** what is stored per time step (boundary_conditions.py 278-577) *)
  Record moving_data := mkMoving {
    mv_dist : list T;             (* cum_distances_force, filtered *)
    mv_els : list nat;            (* contact element *)
    mv_x : list T; mv_y : list T; mv_z : list T;
    mv_part : list nat;           (* contact model part *)
    mv_local : list T;            (* local_distances *)
    mv_nodes : list (nat * nat) }.

  (** boundary_conditions.py 245-276, [MovingPointLoad.initialize] without the force vectors *)
  Definition moving_initialize (m : moving_input) : res moving_data :=
    let cum_nodes := cum_distances_nodes (mi_coords m) in
    do travelled <- cum_distance_from_velocity (mi_time m) (mi_velocities m) ;
    let start := match mi_start m with Some s => s | None => lit 0 end in
    let cum_force := map (fun d => d + start) travelled in
    do els <- set_active_elements (length (mi_elements m)) cum_nodes cum_force ;
    let n := length (mi_time m) in
    do hx <- component_history (mi_x m) n (mi_n_ini m) ;
    do hy <- component_history (mi_y m) n (mi_n_ini m) ;
    do hz <- component_history (mi_z m) n (mi_n_ini m) ;
    let lower := nth 0 cum_nodes (lit 0) in
    let upper := last cum_nodes (lit 0) in
    let fx := filter_data_outside_range hx cum_force lower upper in
    let fy := filter_data_outside_range hy cum_force lower upper in
    let fz := filter_data_outside_range hz cum_force lower upper in
    let dist := filer_location cum_force lower upper in
    let coords := map (moving_coord cum_nodes (mi_coords m)) dist in
    do parts <- match mi_sizes m with Some s => contact_parts s els | None => Ok (repeat 0%nat n) end ;
    let first_node e := nth (fst (nth e (mi_elements m) (0, 0)%nat)) (mi_coords m) (T3 (lit 0) (lit 0) (lit 0)) in
    let local := map (fun ec => distance3 (first_node (fst ec)) (snd ec)) (combine els coords) in
    Ok (mkMoving dist els fx fy fz parts local (contact_nodes (mi_elements m) els)).

  (** the three force vectors of a condition and the persistent work arrays of 476-529 *)
  Record mstate := mkMState {
    st_x : list T; st_y : list T; st_z : list T;
    w_normal : T * T; w_shear : T * T; w_moment : T * T }.

  (** boundary_conditions.py 608-620 *)
  Definition is_zero (x : T) : bool := math_isclose x (lit 0).
  (** sum of two pairs of forces, boundary_conditions.py 476-529 *)
  Definition tadd (a b : T * T) : T * T := (fst a + fst b, snd a + snd b).
  (** [l[i] += v], boundary_conditions.py 476-529 *)
  Definition iadd (l : list T) (i : nat) (v : T) : list T := lset l i (nth i l (lit 0) + v).

  (** boundary_conditions.py 579-639, [update_force] at one time step, with the helpers 476-529.  The work arrays are
      shared: what was computed for the shear force is read only after the moment has been distributed.
      [l], [phi]: element length and shear factor of the contact model part; [p], [q] coordinates of the contact
      nodes [i], [j]; [x] local distance; [f] the load components *)
  Definition distribute (l phi : T) (p q : T * T) (i j : nat) (x : T) (f : tri T) (st : mstate) : mstate :=
    let zero v := map (fun _ => lit 0) v in
    let st := mkMState (zero (st_x st)) (zero (st_y st)) (zero (st_z st)) (w_normal st) (w_shear st) (w_moment st) in
    let element_rot := calculate_point_rotation p q in
    let rotated := rotate_scalar element_rot f in
    (* 604-608 *)
    let w_n := if is_zero (tx rotated) then w_normal st
               else (tx rotated * fst (normal_shape l x), tx rotated * snd (normal_shape l x)) in
    let normal := if is_zero (tx rotated) then (lit 0, lit 0) else w_n in
    (* 612-615 *)
    let v0 := is_zero (ty rotated) in
    let w_s := if v0 then w_shear st else (ty rotated * y_shape l phi x 0, ty rotated * y_shape l phi x 2) in
    let w_m := if v0 then w_moment st else (ty rotated * y_shape l phi x 1, ty rotated * y_shape l phi x 3) in
    (* 617-621 *)
    let z0 := is_zero (tr rotated) in
    let w_s := if z0 then w_s else (tr rotated * z_rot_shape l phi x 0, tr rotated * z_rot_shape l phi x 2) in
    let w_m := if z0 then w_m else (tr rotated * z_rot_shape l phi x 1, tr rotated * z_rot_shape l phi x 3) in
    (* 623-624: the arrays are read here *)
    let shear := tadd (if v0 then (lit 0, lit 0) else w_s) (if z0 then (lit 0, lit 0) else w_s) in
    let moment := tadd (if v0 then (lit 0, lit 0) else w_m) (if z0 then (lit 0, lit 0) else w_m) in
    (* 627-630 *)
    let g1 := rotate_scalar (- element_rot) (T3 (fst normal) (fst shear) (fst moment)) in
    let g2 := rotate_scalar (- element_rot) (T3 (snd normal) (snd shear) (snd moment)) in
    (* 633-637 *)
    mkMState (iadd (iadd (st_x st) i (tx g1)) j (tx g2))
             (iadd (iadd (st_y st) i (ty g1)) j (ty g2))
             (iadd (iadd (st_z st) i (tr g1)) j (tr g2)) w_n w_s w_m.

  (** boundary_conditions.py 579-639: [update_force(t)]; [beams] are length and shear factor of the contact parts *)
  Definition moving_update (m : moving_input) (d : moving_data) (beams : list (T * T)) (st : mstate) (t : nat) : res mstate :=
    match nth_error (mv_nodes d) t, nth_error (mv_x d) t, nth_error (mv_y d) t, nth_error (mv_z d) t,
          nth_error (mv_local d) t, nth_error (mv_part d) t with
    | Some (i, j), Some fx, Some fy, Some fz, Some x, Some k =>
        match nth_error (mi_coords m) i, nth_error (mi_coords m) j, nth_error beams k with
        | Some a, Some b, Some (l, phi) =>
            Ok (distribute l phi (tx a, ty a) (tx b, ty b) i j x (T3 fx fy fz) st)
        | _, _, _ => Err ErrIndex
        end
    | _, _, _, _, _, _ => Err ErrIndex
    end.

  (** boundary_conditions.py 128-137, [LoadCondition.update_force]: the three force matrices, node by node *)
  Definition static_update (mx my mz : nat -> nat -> T) (st : mstate) (t : nat) : mstate :=
    let fill (m : nat -> nat -> T) v := map (fun i => m i t) (seq 0 (length v)) in
    mkMState (fill mx (st_x st)) (fill my (st_y st)) (fill mz (st_z st)) (w_normal st) (w_shear st) (w_moment st).

  (** a load condition of a model (global_system.py 495-515) *)
  Inductive load :=
  | Static (mx my mz : nat -> nat -> T)
  | Moving (m : moving_input) (d : moving_data) (beams : list (T * T)).

  (** global_system.py 500-506: the update of one load *)
  Definition load_update (c : load) (st : mstate) (t : nat) : res mstate :=
    match c with
    | Static mx my mz => Ok (static_update mx my mz st t)
    | Moving m d beams => moving_update m d beams st t
    end.

  (** force components per node (global_system.py 179-194) *)
  Definition vals_of (st : mstate) : list (tri T) :=
    map (fun p => T3 (fst (fst p)) (snd (fst p)) (snd p)) (combine (combine (st_x st) (st_y st)) (st_z st)).

  (** global_system.py 495-515, [update_time_step_rhs]: a condition is its flags, nodes, kind and current vectors *)
  Record condition := mkCondition { k_flag : tri bool; k_nodes : list (node T); k_load : load; k_state : mstate }.

  (** global_system.py 495-515: the loop over the conditions *)
  Fixpoint update_conditions (cs : list condition) (t : nat) : res (list condition) :=
    match cs with
    | [] => Ok []
    | c :: r =>
        do st <- load_update (k_load c) (k_state c) t ;
        do r' <- update_conditions r t ;
        Ok (mkCondition (k_flag c) (k_nodes c) (k_load c) st :: r')
    end.

  (** global_system.py 495-515 *)
  Definition update_time_step_rhs (n : nat) (cs : list condition) (t : nat) : res (list T * list condition) :=
    do cs' <- update_conditions cs t ;
    Ok (rhs n (map (fun c => mkCond (k_flag c) (k_nodes c) (vals_of (k_state c))) cs'), cs').

  (** several time steps in a given order: the conditions keep their state (global_system.py 495-515) *)
  Fixpoint evaluate_history (n : nat) (cs : list condition) (ts : list nat) : res (list condition) :=
    match ts with
    | [] => Ok cs
    | t :: r => do q <- update_time_step_rhs n cs t ; evaluate_history n (snd q) r
    end.
End Moving.

Arguments moving_input T : clear implicits.
Arguments moving_data T : clear implicits.
Arguments mstate T : clear implicits.
Arguments load T : clear implicits.
Arguments condition T : clear implicits.
