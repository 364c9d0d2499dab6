(** * Model of the coupled system: rose/model/train_track_interaction.py *)

From Coq Require Import Reals List Bool ZArith Arith.
From Verif Require Import Num PyBase Model_Geometry Model_System Model_Element Model_Moving.
Import ListNotations.

(** [numpy.power]: [None] is NaN (negative base, exponent not an integer) (train_track_interaction.py 180-181 and 201-203) *)
Class Pow (T : Type) := { npow : T -> T -> option T }.

(** on the reals; [0 ** p] is 1 for [p = 0] and 0 otherwise (numpy: infinite for negative [p]; the only caller
    multiplies it by a zero sign) *)
#[global] Instance RPow : Pow R := {| npow x p :=
  if nltb (lit 0) x then Some (Rpower x p)
  else if neqb x (lit 0) then Some (if neqb p (lit 0) then lit 1 else lit 0)
  else if neqb p (lit (nfloor p)) then Some (if Z.even (nfloor p) then Rpower (nopp x) p else nopp (Rpower (nopp x) p))
  else None |}.

Section Coupled.
  Context {T : Type} `{Num T} `{Trig T} `{Pow T}.
  Local Open Scope num_scope.

  (** ** array helpers *)

  (** [l[a:b] = v]: a value of length one is broadcast, another length raises (train_track_interaction.py 251-257 and 299-335) *)
  Definition slice_assign (l : list T) (a b : nat) (v : list T) : res (list T) :=
    let b := Nat.min b (length l) in
    let w := (b - a)%nat in
    if Nat.eqb (length v) w then Ok (firstn a l ++ v ++ skipn (a + w) l)
    else match v with
         | [x] => Ok (firstn a l ++ repeat x w ++ skipn (a + w) l)
         | _ => Err ErrValue
         end.

  (** [u[idx]] (train_track_interaction.py 207-228) *)
  Definition gather (u : list T) (idx : list nat) : res (list T) :=
    if forallb (fun i => Nat.ltb i (length u)) idx then Ok (map (fun i => nth i u (lit 0)) idx) else Err ErrIndex.

  (** the entries of an object array that are not [None], with the values at the same places (train_track_interaction.py 207-228) *)
  Definition masked (idx : list (option nat)) (vals : list T) : list (nat * T) :=
    flat_map (fun p => match fst p with Some i => [(i, snd p)] | None => [] end) (combine idx vals).

  (** ** contact at one time step *)

  (** degrees of freedom (y and rotation of both nodes) and shape factors of the contact element of a wheel at one
      time step (train_track_interaction.py 207-259) *)
  Record contact := mkContact { cn_dofs : list (option nat); cn_shape : list T }.

  (** train_track_interaction.py 66-85, [set_wheel_load_on_track]: assignment, so of several values for one degree of
      freedom the last one stays; [track] is the vector of the track, which is changed in place *)
  Definition set_wheel_load_on_track (track : list T) (cs : list contact) (loads : list T) : res (list T) :=
    let writes := flat_map (fun cl => masked (cn_dofs (fst cl)) (map (fun s => s * snd cl) (cn_shape (fst cl)))) (combine cs loads) in
    if forallb (fun w => Nat.ltb (fst w) (length track)) writes
    then Ok (write_all track (map fst writes) (map snd writes)) else Err ErrIndex.

  (** train_track_interaction.py 207-228, [get_disp_track_at_wheels] *)
  Definition disp_at_wheel (u : list T) (c : contact) : T :=
    nsum (map (fun p => (match fst p with Some i => nth i u (lit 0) | None => lit 0 end) * snd p) (combine (cn_dofs c) (cn_shape c))).
  (** train_track_interaction.py 207-228 for all wheels *)
  Definition disp_at_wheels (u : list T) (cs : list contact) : list T := map (disp_at_wheel u) cs.

  (** train_track_interaction.py 170-181, [calculate_static_contact_deformation], one wheel; [nan] never occurs since
      the base is not negative *)
  Definition static_deformation (G pow load : T) : res T :=
    if neqb pow (lit 0) then Err ErrZeroDivision
    else Ok (nsign load * G * match npow (nabs load) (lit 1 / pow) with Some v => v | None => lit 0 end).

  (** train_track_interaction.py 183-205 with 165-168, [calculate_wheel_rail_contact_force], one wheel; the check for
      NaN displacements is not modelled, there are none *)
  Definition contact_force (G pow irregularity du : T) : res T :=
    if neqb G (lit 0) then Err ErrZeroDivision
    else let d := - irregularity - du in
         Ok (nsign d * match npow (lit 1 / G * d) pow with Some v => v | None => lit 0 end).

  (** all wheels (train_track_interaction.py 183-205) *)
  Fixpoint contact_forces (G pow : T) (irr du : list T) : res (list T) :=
    match irr, du with
    | i :: ir, d :: dr => do f <- contact_force G pow i d ; do r <- contact_forces G pow ir dr ; Ok (f :: r)
    | _, _ => Ok []
    end.

  (** data of the coupled model at one time step (train_track_interaction.py 33-52) *)
  Record interaction := mkInteraction {
    ia_contacts : list contact; ia_train_dofs : list nat; ia_static : list T; ia_irr : list T; ia_G : T; ia_pow : T }.

  (** train_track_interaction.py 230-259, [update_force_vector_contact]: the force vector and the vector of the track
      after the call *)
  Definition update_contact (ia : interaction) (u F track : list T) : res (list T * list T) :=
    do u_wheels <- gather u (ia_train_dofs ia) ;
    let du := map (fun p => fst (fst p) + snd (fst p) - snd p)
                  (combine (combine u_wheels (ia_static ia)) (disp_at_wheels u (ia_contacts ia))) in
    do force <- contact_forces (ia_G ia) (ia_pow ia) (ia_irr ia) du ;
    let F := fancy_iadd F (ia_train_dofs ia) force in
    do track <- set_wheel_load_on_track track (ia_contacts ia) (map nopp force) ;
    do F <- slice_assign F 0 (length track) track ;
    Ok (F, track).

  (** ** evaluation history *)

  (** mutable parts: load conditions and force vector of the track, force vector of the train, global force vector (train_track_interaction.py 230-305) *)
  Record cstate := mkCState { cs_conds : list (condition T); cs_track : list T; cs_train : list T; cs_F : list T }.

  (** train_track_interaction.py 299-305, [combine_rhs]; [nt] is the number of degrees of freedom of the track *)
  Definition combine_rhs (F track train : list T) (nt : nat) : res (list T) :=
    do F <- slice_assign F 0 nt track ;
    slice_assign F nt (length F) train.

  (** train_track_interaction.py 271-285, [update_time_step_rhs] *)
  Definition coupled_time_step (nt : nat) (s : cstate) (t : nat) : res cstate :=
    do q <- update_time_step_rhs nt (cs_conds s) t ;
    do F <- combine_rhs (cs_F s) (fst q) (cs_train s) nt ;
    Ok (mkCState (snd q) (fst q) (cs_train s) F).

  (** train_track_interaction.py 261-269, [update_non_linear_iteration]: the global vector is copied, the track vector
      is not *)
  Definition coupled_iteration (ia : interaction) (s : cstate) (u : list T) : res (list T * cstate) :=
    do q <- update_contact ia u (cs_F s) (cs_track s) ;
    Ok (fst q, mkCState (cs_conds s) (snd q) (cs_train s) (cs_F s)).

  (** train_track_interaction.py 287-297, [update_force_vector]: the same on the global vector itself *)
  Definition coupled_update (ia : interaction) (s : cstate) (u : list T) : res (list T * cstate) :=
    do q <- update_contact ia u (cs_F s) (cs_track s) ;
    Ok (fst q, mkCState (cs_conds s) (snd q) (cs_train s) (fst q)).

  (** what a solver does: start time steps and evaluate trial displacements; [ia] gives the data of every step (train_track_interaction.py 261-297 and 568-577) *)
  Inductive event := TimeStep (t : nat) | Trial (t : nat) (u : list T).
  (** the calls of a solver in order, train_track_interaction.py 261-297 and 568-577 *)
  Fixpoint run (nt : nat) (ia : nat -> interaction) (s : cstate) (es : list event) : res cstate :=
    match es with
    | [] => Ok s
    | TimeStep t :: r => do s' <- coupled_time_step nt s t ; run nt ia s' r
    | Trial t u :: r => do q <- coupled_iteration (ia t) s u ; run nt ia (snd q) r
    end.

  (** train_track_interaction.py 54-63, [get_interaction_forces_history], one time step: [F_out] is the force vector
      at that step, [g] the gravity constant of the coupled model (global_system.py 69) *)
  Definition interaction_forces (g : T) (masses : list T) (F_out : list T) (dofs : list nat) : res (list T) :=
    do f <- gather F_out dofs ;
    Ok (map (fun p => - g * fst p - snd p) (combine masses f)).

  (** ** matrices and numbering *)

  (** [m[a:b, a:b] = v] (train_track_interaction.py 307-335) *)
  Definition block_assign (m : mat T) (a b : nat) (v : mat T) : res (mat T) :=
    if Nat.eqb (mr v) (b - a) && Nat.eqb (mc v) (b - a) && Nat.leb b (mr m) && Nat.leb b (mc m)
    then Ok (mkMat (mr m) (mc m) (fun i j => if Nat.leb a i && Nat.ltb i b && Nat.leb a j && Nat.ltb j b
                                             then me v (i - a) (j - a) else me m i j))
    else Err ErrValue.

  (** train_track_interaction.py 307-335, [combine_global_matrices] for one of the three matrices; the matrix is zero
      before (global_system.py 355-374) *)
  Definition combine_matrices (nt ntot : nat) (track train : mat T) : res (mat T) :=
    do m <- block_assign (mzero ntot ntot) 0 nt track ;
    block_assign m nt ntot train.

  (** train_track_interaction.py 319-321 and 331-333: one time step of displacements (or velocities) *)
  Definition combine_solution (ntot nt : nat) (track train : list T) : res (list T) :=
    combine_rhs (repeat (lit 0) ntot) track train nt.

  (** train_track_interaction.py 337-353, [initialise_ndof]: shift of the numbers of the train nodes *)
  Definition shift_dofs (nt : nat) (ns : list (node T)) : list (node T) :=
    let sh o := match o with Some i => Some (i + nt)%nat | None => None end in
    map (fun n => with_dof n (T3 (sh (tx (n_dof n))) (sh (ty (n_dof n))) (sh (tr (n_dof n))))) ns.

  (** ** geometry of the contact *)

  (** train_track_interaction.py 87-116, [initialize_track_elements], one wheel: [els] is the contact element at every
      step ([active_elements.nonzero()[0]] is sorted by row; the rows never decrease in time), [elements] the two node
      objects of every element *)
  Definition track_global_indices (elements : list (node T * node T)) (els : list nat) : list (list (option nat)) :=
    flat_map (fun e => match nth_error elements e with
                       | Some (a, b) => [[ty (n_dof a); tr (n_dof a); ty (n_dof b); tr (n_dof b)]]
                       | None => [] end) els.

  (** train_track_interaction.py 118-143, [calculate_distance_wheels_track_nodes], one wheel: [first] are the
      coordinates of the first node of its contact element at every step *)
  Definition wheel_node_dist (distances : list T) (first : list (tri T)) : list T :=
    match first with
    | [] => []
    | p :: _ =>
        let initial := distance3 (T3 (lit 0) (lit 0) (lit 0)) p * nsign (tx p) in
        map (fun q => fst q - (snd q + initial)) (combine distances (cum_distances_nodes first))
    end.

  (** train_track_interaction.py 145-163, [calculate_y_shape_factors_rail], one wheel at one step: length and shear
      factor of the last beam part of the contact element; without one the zeros stay *)
  Definition rail_shape (parts : list (option (T * T))) (x : T) : list T :=
    fold_left (fun acc p => match p with Some (l, phi) => map (y_shape l phi x) (seq 0 4) | None => acc end)
              parts (repeat (lit 0) 4).

  (** minimum and maximum of a list (train_track_interaction.py 411-432) *)
  Definition nmin (a b : T) : T := if a <=? b then a else b.
  (** [max] of two values, train_track_interaction.py 411-432 *)
  Definition nmax (a b : T) : T := if b <=? a then a else b.
  (** [min] of a list; an empty list raises; train_track_interaction.py 411-432 *)
  Definition min_of (l : list T) : res T := match l with [] => Err ErrValue | x :: r => Ok (fold_left nmin r x) end.
  (** [max] of a list; an empty list raises; train_track_interaction.py 411-432 *)
  Definition max_of (l : list T) : res T := match l with [] => Err ErrValue | x :: r => Ok (fold_left nmax r x) end.

  (** [[min(wheel.distances), max(wheel.distances)] for wheel in ...] (train_track_interaction.py 411-432) *)
  Fixpoint limits_of (wheels : list (list T)) : res (list T) :=
    match wheels with
    | [] => Ok []
    | w :: r => do a <- min_of w ; do b <- max_of w ; do l <- limits_of r ; Ok (a :: b :: l)
    end.

  (** train_track_interaction.py 411-432, [__check_train_position]; [numpy.finfo(float32).eps] is [2^-23] *)
  Definition check_train_position (rail_x : list T) (wheels : list (list T)) : res unit :=
    do lo <- min_of rail_x ;
    do hi <- max_of rail_x ;
    do lim <- limits_of wheels ;
    let precision := lit 1 / lit (2 ^ 23) in
    if existsb (fun d => nltb d (lo - precision)) lim || existsb (fun d => nltb (hi + precision) d) lim
    then Err ErrValue else Ok tt.

  (** train_track_interaction.py 441-449 and 470-471, [initialize_wheel_loads]: nodes and elements of all rail parts in
      a row.  A part is its list of nodes and its list of elements (pairs of nodes); [unique_idxs] of line 446 is not
      used by the code *)
  Definition wheel_load_lists (parts : list (list nat * list (nat * nat))) : list nat * list (nat * nat) :=
    (flat_map fst parts, flat_map snd parts).
End Coupled.

Arguments contact T : clear implicits.
Arguments interaction T : clear implicits.
Arguments cstate T : clear implicits.
Arguments event T : clear implicits.
