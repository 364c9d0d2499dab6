(** * Model of elements: rotation helpers of rose/model/utils.py, rod and beam of rose/model/model_part.py,
      rail and hinge of rose/model/track.py *)

From Coq Require Import Reals List Bool ZArith Arith.
From Verif Require Import Num PyBase Model_Geometry Model_System.
Import ListNotations.

(** trigonometric functions of [math] / [numpy] (utils.py 164-252) *)
Class Trig (T : Type) := { nsin : T -> T; ncos : T -> T; natan : T -> T; npi : T }.
#[global] Instance RTrig : Trig R := {| nsin := sin; ncos := cos; natan := atan; npi := PI |}.

Section Element.
  Context {T : Type} `{Num T} `{Trig T}.
  Local Open Scope num_scope.

  (** [a ** 2], [a ** 3] (model_part.py 423-458, 585-602 and 618-775) *)
  Definition sq (a : T) : T := a * a.
  (** [a ** 3], model_part.py 423-458, 585-602 and 618-775 *)
  Definition cube (a : T) : T := a * a * a.

  (** numpy [m[[rows], [cols]] = v] with a scalar (model_part.py 423-458, 585-602 and 618-775) *)
  Definition fset (m : nat -> nat -> T) (rows cols : list nat) (v : T) : nat -> nat -> T :=
    fold_left (fun m rc => mset m (fst rc) (snd rc) v) (combine rows cols) m.
  (** [numpy.zeros], model_part.py 423-458, 585-602 and 618-775 *)
  Definition zeros : nat -> nat -> T := fun _ _ => lit 0.
  (** [m.dot(scalar)] (model_part.py 423-458, 585-602 and 618-775) *)
  Definition mscale (c : T) (m : nat -> nat -> T) : nat -> nat -> T := fun i j => m i j * c.
  (** [a.dot(b)] for square matrices of size [n]; [m.transpose()] (utils.py 276-294) *)
  Definition mmul (n : nat) (a b : nat -> nat -> T) : nat -> nat -> T := fun i j => sumn n (fun k => a i k * b k j).
  (** [m.transpose()], utils.py 276-294 *)
  Definition mtrans (m : nat -> nat -> T) : nat -> nat -> T := fun i j => m j i.

  (** ** rotation *)

  (** utils.py 164-190, [calculate_point_rotation] *)
  Definition calculate_point_rotation (p q : T * T) : T :=
    let (x1, y1) := p in let (x2, y2) := q in
    if math_isclose x2 x1 then npi / lit 2 * nsign (y2 - y1)
    else
      let rot := if nltb x2 x1 then lit 0 + npi else lit 0 in
      rot + natan ((y2 - y1) / (x2 - x1)).

  (** utils.py 193-219, [calculate_rotation], one row of the coordinate arrays *)
  Definition calculate_rotation1 (pq : (T * T) * (T * T)) : T :=
    let '((x1, y1), (x2, y2)) := pq in
    let is_x_equal := np_isclose (x2 - x1) (lit 0) in
    let rot := if is_x_equal then npi / lit 2 * nsign (y2 - y1) else lit 0 in
    let rot := if nltb x2 x1 then rot + npi else rot in
    if is_x_equal then rot else rot + natan ((y2 - y1) / (x2 - x1)).

  (** utils.py 193-219, [calculate_rotation] (all operations are element-wise) *)
  Definition calculate_rotation (pqs : list ((T * T) * (T * T))) : list T := map calculate_rotation1 pqs.

  (** utils.py 230-244, [rotate_point_around_z_axis] with a scalar: dot product with the rotation matrix *)
  Definition rotate_scalar (rotation : T) (v : tri T) : tri T :=
    let c := ncos rotation in let s := nsin rotation in
    let row (m : tri T) := tx m * tx v + ty m * ty v + tr m * tr v in
    T3 (row (T3 c s (lit 0))) (row (T3 (- s) c (lit 0))) (row (T3 (lit 0) (lit 0) (lit 1))).

  (** utils.py 246-252: arrays of angles and vectors, row by row *)
  Definition rotate_array (rotations : list T) (vs : list (tri T)) : list (tri T) :=
    map (fun rv => let (r, v) := rv : T * tri T in
           T3 (ncos r * tx v + nsin r * ty v) (- nsin r * tx v + ncos r * ty v) (tr v)) (combine rotations vs).

  (** model_part.py 408-421 and 604-616, [set_rotation_matrix] for dim = 2 *)
  Definition rotation_matrix (rotation : T) : nat -> nat -> T :=
    let m := fset zeros [0; 1; 3; 4]%nat [0; 1; 3; 4]%nat (ncos rotation) in
    let m := fset m [0; 3]%nat [1; 4]%nat (nsin rotation) in
    let m := fset m [1; 4]%nat [0; 3]%nat (- nsin rotation) in
    fset m [2; 5]%nat [2; 5]%nat (lit 1).

  (** utils.py 276-294, [rotate_aux_matrix] for a two-node element of a rod or beam part *)
  Definition rotate_aux_matrix (p q : T * T) (aux : nat -> nat -> T) : nat -> nat -> T :=
    let r := rotation_matrix (calculate_rotation1 (p, q)) in
    mmul 6 r (mmul 6 aux (mtrans r)).

  (** ** rod *)

  (** model_part.py 436-446 and 448-458, [set_aux_stiffness_matrix], [set_aux_damping_matrix]: [None] when the
      value is not given *)
  Definition rod_spring (k : option T) : option (nat -> nat -> T) :=
    match k with
    | Some k => Some (mset (mset (mset (mset zeros 0 0 k) 1 0 (- k)) 0 1 (- k)) 1 1 k)
    | None => None
    end.

  (** model_part.py 423-434, [set_aux_mass_matrix] *)
  Definition rod_mass (mass : option T) : option (nat -> nat -> T) :=
    match mass with
    | Some m => Some (mscale (m / lit 6) (mset (mset (mset (mset zeros 0 0 (lit 2)) 1 0 (lit 1)) 0 1 (lit 1)) 1 1 (lit 2)))
    | None => None
    end.

  (** global_system.py 140-177: a rod is reshaped with its active directions (x only) *)
  Definition rod_reshaped (aux : nat -> nat -> T) : nat -> nat -> T := me (reshape_aux_matrix 2 [true; false; false] aux).

  (** model_part.py 467-475 and 788-796, [set_normal_shape_functions] *)
  Definition normal_shape (l x : T) : T * T := (lit 1 - x / l, x / l).

  (** ** Timoshenko beam *)

  (** model_part.py 8-44, 48-64 and 494-512: the beam's data; a spring stiffness [None] is [numpy.inf] *)
  Record beam := mkBeam {
    b_E : T; b_nu : T; b_rho : T;
    b_A : T; b_I : T; b_shear_factor : T;
    b_l : T;
    b_s1 : option T; b_s2 : option T
  }.

  (** model_part.py 36-44, [Material.shear_modulus] *)
  Definition shear_modulus (b : beam) : T := b_E b / (lit 2 * (lit 1 + b_nu b)).

  (** model_part.py 577-583, [calculate_mass] (mass per metre) *)
  Definition beam_mass_per_meter (b : beam) : T := b_A b * b_rho b.

  (** model_part.py 585-602, [calculate_timoshenko_factor]: [old] is the factor before the call (0 at first) *)
  Definition timoshenko_factor (old : T) (b : beam) : T :=
    if nltb (lit 0) (b_shear_factor b)
    then lit 12 * b_E b * b_I b / (sq (b_l b) * shear_modulus b * b_A b * b_shear_factor b)
    else old.

  (** model_part.py 618-666, [__set_translational_aux_mass_matrix] ([nodal_ndof] is 3) *)
  Definition trans_mass (b : beam) (phi : T) : nat -> nat -> T :=
    let l := b_l b in
    let constant := b_rho b * b_A b * l / (lit 210 * sq (lit 1 + phi)) in
    let m := zeros in
    let m := fset m [0; 3]%nat [0; 3]%nat (lit 70 * sq (lit 1 + phi)) in
    let m := fset m [3; 0]%nat [0; 3]%nat (lit 35 * sq (lit 1 + phi)) in
    let m := fset m [1; 4]%nat [1; 4]%nat (lit 70 * sq phi + lit 147 * phi + lit 78) in
    let m := fset m [1; 4]%nat [4; 1]%nat (lit 35 * sq phi + lit 63 * phi + lit 27) in
    let m := fset m [1; 2]%nat [2; 1]%nat ((lit 35 * sq phi + lit 77 * phi + lit 44) * l / lit 4) in
    let m := fset m [1; 5]%nat [5; 1]%nat (- (lit 35 * sq phi + lit 63 * phi + lit 26) * l / lit 4) in
    let m := fset m [2; 5]%nat [2; 5]%nat ((lit 7 * sq phi + lit 14 * phi + lit 8) * (sq l / lit 4)) in
    let m := fset m [2; 5]%nat [5; 2]%nat (- (lit 7 * sq phi + lit 14 * phi + lit 6) * (sq l / lit 4)) in
    let m := fset m [2; 4]%nat [4; 2]%nat ((lit 35 * sq phi + lit 63 * phi + lit 26) * (l / lit 4)) in
    let m := fset m [4; 5]%nat [5; 4]%nat (- (lit 35 * sq phi + lit 77 * phi + lit 44) * (l / lit 4)) in
    mscale constant (me (reshape_aux_matrix 2 [true; true; true] m)).

  (** model_part.py 668-699, [__set_rotational_aux_mass_matrix] *)
  Definition rot_mass (b : beam) (phi : T) : nat -> nat -> T :=
    let l := b_l b in
    let constant := b_rho b * b_I b / (lit 30 * sq (lit 1 + phi) * l) in
    let m := zeros in
    let m := fset m [1; 4]%nat [1; 4]%nat (lit 36) in
    let m := fset m [1; 4]%nat [4; 1]%nat (- lit 36) in
    let m := fset m [1; 1; 2; 5]%nat [2; 5; 1; 1]%nat (- (lit 15 * phi - lit 3) * l) in
    let m := fset m [2; 5]%nat [2; 5]%nat ((lit 10 * sq phi + lit 5 * phi + lit 4) * sq l) in
    let m := fset m [2; 5]%nat [5; 2]%nat ((lit 5 * sq phi - lit 5 * phi - lit 1) * sq l) in
    let m := fset m [2; 4; 4; 5]%nat [4; 2; 5; 4]%nat ((lit 15 * phi - lit 3) * l) in
    mscale constant (me (reshape_aux_matrix 2 [true; true; true] m)).

  (** model_part.py 701-709, [set_aux_mass_matrix] *)
  Definition beam_mass (b : beam) (phi : T) : nat -> nat -> T :=
    if negb (neqb phi (lit 0)) then fun i j => trans_mass b phi i j + rot_mass b phi i j
    else trans_mass b phi.

  (** model_part.py 722-723: fixity factor of an end spring; with [numpy.inf] the quotient is 0 *)
  Definition fixity (EI l : T) (s : option T) : T :=
    match s with
    | None => lit 1 / (lit 1 + lit 0)
    | Some s => if nltb (lit 0) s then lit 1 / (lit 1 + lit 3 * EI / (s * l)) else lit 0
    end.

  (** model_part.py 725-733, [__set_rigid_part_stiffness_matrix] *)
  Definition rigid_mat (a1 a2 : T) : nat -> nat -> T :=
    let m := zeros in
    let m := fset m [0; 3]%nat [0; 3]%nat (lit 1) in
    let m := fset m [3; 0]%nat [0; 3]%nat (lit 1) in
    let m := fset m [1; 4; 1; 4]%nat [1; 4; 4; 1]%nat ((a1 + a2 + a1 * a2) / (lit 4 - a1 * a2)) in
    let m := fset m [1; 2; 2; 4]%nat [2; 1; 4; 2]%nat ((lit 2 * a1 + a1 * a2) / (lit 4 - a1 * a2)) in
    let m := fset m [1; 5; 4; 5]%nat [5; 1; 5; 4]%nat ((lit 2 * a2 + a1 * a2) / (lit 4 - a1 * a2)) in
    let m := mset m 2 2 (lit 3 * a1 / (lit 4 - a1 * a2)) in
    let m := mset m 5 5 (lit 3 * a2 / (lit 4 - a1 * a2)) in
    fset m [2; 5]%nat [5; 2]%nat (lit 3 * a1 * a2 / (lit 4 - a1 * a2)).

  (** model_part.py 736-770, [set_aux_stiffness_matrix] *)
  Definition beam_stiffness (b : beam) (phi : T) : nat -> nat -> T :=
    let l := b_l b in
    let EI := b_E b * b_I b in
    let constant := EI / ((lit 1 + phi) * cube l) in
    let m := zeros in
    let m := fset m [0; 3]%nat [0; 3]%nat (b_A b / b_I b * (lit 1 + phi) * sq l) in
    let m := fset m [3; 0]%nat [0; 3]%nat (- b_A b / b_I b * (lit 1 + phi) * sq l) in
    let m := fset m [1; 4]%nat [1; 4]%nat (lit 12) in
    let m := fset m [1; 4]%nat [4; 1]%nat (- lit 12) in
    let m := fset m [1; 1; 2; 5]%nat [2; 5; 1; 1]%nat (lit 6 * l) in
    let m := fset m [2; 4; 4; 5]%nat [4; 2; 5; 4]%nat (- lit 6 * l) in
    let m := fset m [2; 5]%nat [2; 5]%nat ((lit 4 + phi) * sq l) in
    let m := fset m [2; 5]%nat [5; 2]%nat ((lit 2 - phi) * sq l) in
    let rigid := rigid_mat (fixity EI l (b_s1 b)) (fixity EI l (b_s2 b)) in
    me (reshape_aux_matrix 2 [true; true; true] (mscale constant (fun i j => m i j * rigid i j))).

  (** model_part.py 772-777, [set_aux_damping_matrix] *)
  Definition beam_damping : nat -> nat -> T := zeros.

  (** model_part.py 798-837, [set_y_shape_functions] *)
  Definition y_shape (l phi x : T) (k : nat) : T :=
    let constant := lit 1 / (lit 1 + phi) in
    let x_l := x / l in
    let x_l2 := sq x_l in
    let x2 := sq x in
    let x3 := cube x in
    match k with
    | 0%nat => constant * (lit 1 + lit 2 * cube x_l - lit 3 * x_l2 + phi * (lit 1 - x_l))
    | 1%nat => constant * (x + x3 / sq l - lit 2 * (x2 / l) + phi / lit 2 * (x_l - x_l2))
    | 2%nat => constant * (- lit 2 * cube x_l + lit 3 * x_l2 + phi * x_l)
    | 3%nat => constant * (x3 / sq l - x2 / l + phi / lit 2 * (x_l2 - x_l))
    | _ => lit 0
    end.

  (** model_part.py 839-847, [set_z_rot_shape_functions] *)
  Definition z_rot_shape (l phi x : T) (k : nat) : T :=
    let constant := lit 1 / (lit 1 + phi) in
    match k with
    | 0%nat => constant * (lit 6 * sq x / cube l - lit 6 * x / sq l - phi / l)
    | 1%nat => constant * (lit 1 + lit 3 * sq x / sq l - lit 4 * x / l + phi / lit 2 * (lit 1 / l - lit 2 * x / sq l))
    | 2%nat => constant * (- lit 6 * sq x / cube l + lit 6 * x / sq l + phi / l)
    | 3%nat => constant * (lit 3 * sq x / sq l - lit 2 * x / l + phi / lit 2 * (lit 2 * x / sq l - lit 1 / l))
    | _ => lit 0
    end.

  (** model_part.py 849-874, [calculate_local_forces_at_x]; [k] is the local stiffness matrix, [u] the local
      displacements *)
  Definition local_forces (k : nat -> nat -> T) (l phi x : T) (u : nat -> T) : T * T * T :=
    let f_nodes i := sumn 6 (fun j => k i j * u j) in
    let f_el i := if Nat.ltb i 3 then f_nodes i else - f_nodes i in
    let (n1, n2) := normal_shape l x in
    let idx k := match k with 0%nat => 1%nat | 1%nat => 2%nat | 2%nat => 4%nat | _ => 5%nat end in
    (n1 * f_el 0%nat + n2 * f_el 3%nat,
     sumn 4 (fun k => y_shape l phi x k * f_el (idx k)),
     sumn 4 (fun k => z_rot_shape l phi x k * f_el (idx k))).

  (** model_part.py 876-902, [calculate_strain]; for a moment of 0 numpy's quotient is infinite and its
      reciprocal contributes 0 *)
  Definition beam_strain (b : beam) (h y : T) (phi x : T) (u : nat -> T) : T * T :=
    let '(n, _, m) := local_forces (beam_stiffness b phi) (b_l b) phi x u in
    let strain_normal := n / (b_E b * b_A b) in
    let over_radius a := if neqb m (lit 0) then lit 0 else a / (b_E b * b_I b / m) in
    (strain_normal + over_radius (h - y), strain_normal - over_radius y).

  (** ** rail and hinge *)

  (** [numpy.sqrt(square(xdiff) + square(ydiff) + square(zdiff))] (track.py 51-57) *)
  Definition distance3 (p q : tri T) : T :=
    nsqrt (sq (tx q - tx p) + sq (ty q - ty p) + sq (tr q - tr p)).
  (** track.py 51-57: distances of consecutive nodes *)
  Fixpoint consecutive_distances (ns : list (tri T)) : list T :=
    match ns with
    | p :: r => match r with q :: _ => distance3 p q :: consecutive_distances r | [] => [] end
    | [] => []
    end.

  (** track.py 43-64, [Rail.calculate_length_rail]: [old] is the length before the call *)
  Definition calculate_length_rail (old : option T) (coords : list (tri T)) : res (option T) :=
    match consecutive_distances coords with
    | [] => Ok old
    | d0 :: r => if forallb (fun d => np_isclose d0 d) (d0 :: r) then Ok (Some d0) else Err ErrInvalidRail
    end.

  (** track.py 176-194, [Hinge.calculate_hinge_stiffness]; in the last branch the exception is constructed but not
      raised, so the old stiffness stays *)
  Definition hinge_stiffness (old : option T) (E I l f : T) : option T :=
    if (lit 0 <=? f) && nltb f (lit 1) then Some (lit 3 * E * I * f / ((lit 1 - f) * l))
    else if np_isclose f (lit 1) then Some (lit (10 ^ 30))
    else old.

  (** ** element forces *)

  (** global_system.py 574-588: the force of a two-node element from the nodal displacements; [rot] is the rotation
      matrix stored in the model part, whose inverse is its transpose *)
  Definition element_force (k rot : nat -> nat -> T) (u : nat -> T) (i : nat) : T :=
    let local_u j := sumn 6 (fun m => mtrans rot j m * u m) in
    let force j := sumn 6 (fun m => k j m * local_u m) in
    (force i - force (i + 3)%nat) / lit 2.

  (** the rotation matrix a rod or beam part holds once its elements (given by their end points) have been assembled:
      utils.py 286-288 sets it anew for every element of the loop 326-329, so the last element's stays; [None]
      without elements *)
  Definition stored_rotation (elements : list ((T * T) * (T * T))) : option (nat -> nat -> T) :=
    match elements with
    | [] => None
    | e :: r => Some (rotation_matrix (calculate_rotation1 (last r e)))
    end.

  (** global_system.py 546-590, [calculate_force_in_elements], for the elements of one part at one time step:
      [us] are the nodal displacements of the elements, [mask] the active directions of the part and [k] its
      (reshaped) stiffness matrix.  Simplified: an element belongs to one part with a stiffness matrix. *)
  Definition element_forces (k : nat -> nat -> T) (mask : tri bool) (elements : list ((T * T) * (T * T)))
      (us : list (nat -> T)) : list (res (list T)) :=
    match stored_rotation elements with
    | None => []
    | Some rot =>
        map (fun u => assign_force_row
                        (flat_map (fun d => if tget mask d then [element_force k rot u (match d with DX => 0 | DY => 1 | DR => 2 end)] else [])
                                  all_dirs) (tlist mask)) us
    end.
End Element.

Arguments beam T : clear implicits.
