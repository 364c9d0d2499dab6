(** * Model of analytical_solutions/: the reference solutions the repository compares its results with

    [winkler.py] is not in this file.  Writing the results to json is left out. *)

From Coq Require Import Reals List Bool ZArith Arith.
From Verif Require Import Num PyBase Model_Element Model_Accumulation Model_Misc.
Import ListNotations.

Section Analytic.
  Context {T : Type} `{Num T} `{Trig T} `{ExpLog T}.
  Local Open Scope num_scope.

  (** [x ** 2], [x ** 3] and [x ** 4] (simple_supported.py 55-58 and 138) *)
  Definition pow2 (x : T) : T := x * x.
  (** simple_supported.py 169 *)
  Definition pow3 (x : T) : T := x * x * x.
  (** simple_supported.py 138 *)
  Definition pow4 (x : T) : T := x * x * x * x.

  (** the points of the beam, simple_supported.py 40, 126, 249 and 380, cantilever_beam.py 61.  [len / size] with [size = 0] is not
      a number that can be converted to an integer *)
  Definition beam_points (size len : T) : res (list T) :=
    if neqb size (lit 0) then Err ErrOther else linspace (lit 0) len (nceil (len / size)%num + 1)%Z.

  (** ** simple_supported.py 6-76, [SimpleSupportEulerStatic] *)

  (** simple_supported.py 53-58: the deflection at one coordinate; [u] is zero where neither case holds (line 41) *)
  Definition static_deflection (EI len force x_load coord : T) : T :=
    let a := x_load in
    let b := len - a in
    if (lit 0 <=? coord) && (coord <=? x_load) then
      force * b * coord / (lit 6 * len * EI) * (pow2 len - pow2 b - pow2 coord)
    else if coord <=? len then
      force * a * (len - coord) / (lit 6 * len * EI) * (pow2 len - pow2 a - pow2 (len - coord))
    else lit 0.

  (** simple_supported.py 25-60: coordinates and deflections *)
  Definition static_beam (size E I len force x_load : T) : res (list T * list T) :=
    do x <- beam_points size len ;
    Ok (x, map (static_deflection (E * I) len force x_load) x).

  (** ** simple_supported.py 79-171, [SimpleSupportEulerNoDamping] *)

  (** simple_supported.py 132-139 and 255-264 (line 261), moving_vehicle.py 80-87: [eigen_freq] *)
  Definition beam_frequency (EI mass len : T) (n : nat) : T :=
    nofnat n * nofnat n * pow2 npi * nsqrt (EI / (mass * pow4 len)).
  (** simple_supported.py 141-148, 266-273 and 403-410: [mode_shape] at one point *)
  Definition beam_mode (len : T) (n : nat) (x : T) : T := nsin (nofnat n * npi / len * x).

  (** [eig_shape[int((len(self.x) - 1) / 2)] * self.force] (simple_supported.py 165, 294 and 428) *)
  Definition middle_force (len force : T) (x : list T) (n : nat) : res T :=
    do s <- at_idx (map (beam_mode len n) x) (Nat.div (List.length x - 1) 2) ;
    Ok (s * force).

  (** the loop over the modes [range(1, n)]: the sum of [f k v] over [k = 1, ..., n - 1], where [v] is the force on mode [k]
      (simple_supported.py 158-167, 283-297 and 421-431) *)
  Fixpoint sum_modes (n : nat) (force : nat -> res T) (f : nat -> T -> T) : res T :=
    match n with
    | 0%nat | 1%nat => Ok (lit 0)
    | S k => do aux <- sum_modes k force f ; do v <- force k ; Ok (aux + f k v)
    end.

  (** simple_supported.py 150-171: displacement of point [x] at time [t] *)
  Definition undamped_at (n : nat) (EI mass len force : T) (pts : list T) (x t : T) : res T :=
    do aux <- sum_modes n (middle_force len force pts)
      (fun k v => v / pow4 (nofnat k) * (lit 1 - ncos (beam_frequency EI mass len k * t)) * beam_mode len k x) ;
    Ok (lit 2 * pow3 len / (pow4 npi * EI) * aux).

  (** simple_supported.py 108-171: points and, for each point, the displacements at the times *)
  Definition undamped_beam (n : nat) (size E I rho A len force : T) (time : list T) : res (list T * list (list T)) :=
    do x <- beam_points size len ;
    do u <- mapr (fun p => mapr (undamped_at n (E * I) (rho * A) len force x p) time) x ;
    Ok (x, u).

  (** ** simple_supported.py 193-302, [SimpleSupportEulerWithDamping] *)

  (** simple_supported.py 255-264: damping ratio of mode [n] *)
  Definition mode_ratio (c0 c1 eig : T) : T := c0 / (lit 2 * eig) + c1 * eig / lit 2.

  (** the loop over the modes where a term may be nan ([None]): a sum with nan is nan (simple_supported.py 283-297) *)
  Fixpoint sum_modes_nan (n : nat) (force : nat -> res T) (f : nat -> T -> option T) : res (option T) :=
    match n with
    | 0%nat | 1%nat => Ok (Some (lit 0))
    | S k => do aux <- sum_modes_nan k force f ; do v <- force k ;
             Ok (match aux, f k v with Some a, Some b => Some (a + b) | _, _ => None end)
    end.

  (** simple_supported.py 255-264 and 285-297: the term of one mode.  For a ratio of one or more [sqrt(1 - qsi ** 2)] is nan or the
      quotient by it is, so that the term is nan; for a frequency of zero the quotients are nan *)
  Definition damped_term (EI mass len c0 c1 : T) (k : nat) (v x t : T) : option T :=
    let eig := beam_frequency EI mass len k in
    if neqb eig (lit 0) then None else
    let qsi := mode_ratio c0 c1 eig in
    if lit 1 - pow2 qsi <=? lit 0 then None else
    let eig_d := eig * nsqrt (lit 1 - pow2 qsi) in
    let m := mass * len / lit 2 in
    let stiff := pow2 eig * m in
    Some (v / stiff * (lit 1 - nexp (- qsi * eig * t) *
            (ncos (eig_d * t) + qsi / nsqrt (lit 1 - pow2 qsi) * nsin (eig_d * t))) * beam_mode len k x).

  (** simple_supported.py 275-302 *)
  Definition damped_at (n : nat) (EI mass len force c0 c1 : T) (pts : list T) (x t : T) : res (option T) :=
    sum_modes_nan n (middle_force len force pts) (fun k v => damped_term EI mass len c0 c1 k v x t).

  (** simple_supported.py 229-302 *)
  Definition damped_beam (n : nat) (size E I rho A len force c0 c1 : T) (time : list T) : res (list T * list (list (option T))) :=
    do x <- beam_points size len ;
    do u <- mapr (fun p => mapr (damped_at n (E * I) (rho * A) len force c0 c1 x p) time) x ;
    Ok (x, u).

  (** ** simple_supported.py 324-460, [SimpleSupportTimoshenkoNoDamping] *)

  (** simple_supported.py 457-460, [find_omega] *)
  Definition find_omega (E G k r len omega : T) (n : nat) : T :=
    let q := nofnat n * npi * r / len in
    (lit 1 - pow2 omega) - pow2 omega * pow2 q * (lit 1 + E / (k * G)) + pow4 omega * pow4 q * E / (k * G).

  (** simple_supported.py 387-401: the frequency from the root [omega n] that [scipy.optimize.root] returned (the search is not
      modelled) *)
  Definition shear_frequency (omega : nat -> T) (EI mass len : T) (n : nat) : T := omega n * beam_frequency EI mass len n.

  (** simple_supported.py 376: [phi] *)
  Definition shear_phi (E G k I A len : T) : T := lit 12 / pow2 len * (E * I / (k * G * A)).

  (** simple_supported.py 412-436: displacement and velocity of a point *)
  Definition shear_at (n : nat) (omega : nat -> T) (EI mass len phi force : T) (pts : list T) (x t : T) : res (T * T) :=
    let eig := shear_frequency omega EI mass len in
    do aux <- sum_modes n (middle_force len force pts)
      (fun k v => v / pow4 (nofnat k) * (lit 1 - ncos (eig k * t)) * beam_mode len k x) ;
    do aux_v <- sum_modes n (middle_force len force pts)
      (fun k v => v / pow4 (nofnat k) * eig k * nsin (eig k * t) * beam_mode len k x) ;
    Ok (lit 2 * pow3 len * (lit 1 + phi) / (pow4 npi * EI) * aux, lit 2 * pow3 len * (lit 1 + phi) / (pow4 npi * EI) * aux_v).

  (** simple_supported.py 354-436: points, displacements and velocities *)
  Definition shear_beam (n : nat) (omega : nat -> T) (size E G k I rho A len force : T) (time : list T) : res (list T * list (list (T * T))) :=
    do x <- beam_points size len ;
    do u <- mapr (fun p => mapr (shear_at n omega (E * I) (rho * A) len (shear_phi E G k I A len) force x p) time) x ;
    Ok (x, u).

  (** ** cantilever_beam.py 7-160, [PulseLoadNoDamping] *)

  (** [numpy.cosh] and [numpy.sinh] (cantilever_beam.py 89-91) *)
  Definition ncosh (x : T) : T := (nexp x + nexp (- x)) / lit 2.
  (** cantilever_beam.py 89-91 *)
  Definition nsinh (x : T) : T := (nexp x - nexp (- x)) / lit 2.

  (** cantilever_beam.py 158-160, [find_eigen] *)
  Definition find_eigen (a_L : T) : T := lit 1 + ncos a_L * ncosh a_L.

  (** cantilever_beam.py 68-83: wave number and frequency of a mode from the root that [scipy.optimize.root] returned (the
      search is not modelled) *)
  Definition clamped_wave (root len : T) : T := root / len.
  (** cantilever_beam.py 82 *)
  Definition clamped_frequency (EI mass len a : T) : T := pow2 (a * len) * nsqrt (EI / (mass * pow4 len)).

  (** cantilever_beam.py 85-92 (and 99-101): the shape of a mode *)
  Definition clamped_mode (len a x : T) : T :=
    ncos (a * x) - ncosh (a * x) -
    (ncos (a * len) + ncosh (a * len)) / (nsin (a * len) + nsinh (a * len)) * (nsin (a * x) - nsinh (a * x)).

  (** cantilever_beam.py 94-103, [mass_modal]: [int_steps] points *)
  Definition clamped_mass (steps : nat) (mass len a : T) : T :=
    let x := linspace_nat (lit 0) len steps in
    mass * trapezoid (map (fun p => pow2 (clamped_mode len a p)) x) x.

  (** cantilever_beam.py 105-137: displacement and velocity of a point; [root k] is the root found for mode [k], [last] the last point *)
  Definition clamped_at (n steps : nat) (root : nat -> T) (EI mass len force last x t : T) : T * T :=
    let term f := sumn (n - 1) (fun i =>
      let a := clamped_wave (root (S i)) len in
      let eig := clamped_frequency EI mass len a in
      let stiff := pow2 eig * clamped_mass steps mass len a in
      clamped_mode len a last * force / stiff * f eig * clamped_mode len a x) in
    (term (fun eig => lit 1 - ncos (eig * t)), term (fun eig => lit 1 + eig * nsin (eig * t))).

  (** cantilever_beam.py 43-137: points, displacements and velocities; [eig_shape[-1]] of no points raises *)
  Definition clamped_beam (n steps : nat) (root : nat -> T) (size E I rho A len force : T) (time : list T)
    : res (list T * list (list (T * T))) :=
    do x <- beam_points size len ;
    match rev x with
    | [] => if Nat.leb n 1 || (match time with [] => true | _ => false end) then Ok ([], []) else Err ErrIndex
    | last :: _ => Ok (x, map (fun p => map (clamped_at n steps root (E * I) (rho * A) len force last p) time) x)
    end.

  (** ** beam_with_hinge.py 2-52 *)

  (** beam_with_hinge.py 19-26 *)
  Definition hinge_left (left_l EI load x : T) : T := load * pow2 x / (lit 6 * EI) * (lit 3 * left_l - x).
  (** beam_with_hinge.py 28-37 *)
  Definition hinge_right (left_l right_l EI load x : T) : T :=
    let load_at_hinge := (lit 1 - x / right_l) * load in
    load_at_hinge * pow3 left_l / (lit 3 * EI).
  (** beam_with_hinge.py 39-52, [calculate_max_disp] *)
  Definition hinge_deflection (left_l right_l EI load x : T) : T :=
    if nltb (lit 0) x && nltb x left_l then hinge_left left_l EI load x
    else if (left_l <=? x) && (x <=? right_l + left_l) then hinge_right left_l right_l EI load (x - left_l)
    else lit 0.

  (** ** analytical_wave_prop.py 7-85, [OneDimWavePropagation] *)

  (** [(-1) ** k] (analytical_wave_prop.py 75-78) *)
  Definition alternate (k : nat) : T := if Nat.even k then lit 1 else - lit 1.
  (** analytical_wave_prop.py 74 *)
  Definition wave_lambda (len : T) (k : nat) : T := (lit 2 * nofnat k - lit 1) * npi / (lit 2 * len).
  (** analytical_wave_prop.py 55: wave speed *)
  Definition wave_speed (K rho : T) : T := nsqrt (K / rho).

  (** analytical_wave_prop.py 69-83: displacement, pressure and velocity at depth [x] and time [t] *)
  Definition wave_at (n : nat) (rho K p0 len x t : T) : T * T * T :=
    let c := wave_speed K rho in
    let terms f := sumn (n - 1) (fun i => f (S i)) in
    let w k := pow2 (lit 2 * nofnat k - lit 1) in
    let summation := terms (fun k => alternate k / w k * nsin (wave_lambda len k * x) * ncos (wave_lambda len k * c * t)) in
    let summation_p := terms (fun k => alternate k * wave_lambda len k / w k * ncos (wave_lambda len k * x) * ncos (wave_lambda len k * c * t)) in
    let summation_v := terms (fun k => - (alternate k * wave_lambda len k * c / w k * nsin (wave_lambda len k * x) * nsin (wave_lambda len k * c * t))) in
    (p0 / K * (x + lit 8 * len / pow2 npi * summation),
     p0 / K * (lit 1 + lit 8 * len / pow2 npi * summation_p) * K,
     p0 / K * (lit 8 * len / pow2 npi * summation_v)).

  (** analytical_wave_prop.py 58-60: without given times the times are computed *)
  Definition wave_times (cycles : nat) (rho K len : T) (time : option (list T)) : res (list T) :=
    match time with
    | Some t => Ok t
    | None => let c := wave_speed K rho in linspace (lit 0) (nofnat cycles * len / c) (nceil (c / len)%num * 10)%Z
    end.
  (** analytical_wave_prop.py 49-85: for every point the values at all times; [nb_ele] is the number of points *)
  Definition wave_solution (n cycles nb_ele : nat) (rho K p0 len : T) (time : option (list T)) : res (list T * list (list (T * T * T))) :=
    do t <- wave_times cycles rho K len time ;
    Ok (t, map (fun x => map (wave_at n rho K p0 len x) t) (linspace_nat (lit 0) len nb_ele)).

  (** ** moving_vehicle.py 4-148, [TwoDofVehicle] *)

  (** what is carried from step to step: displacement, velocity and acceleration of beam and vehicle (moving_vehicle.py 98-99, 108
      and 138-144) *)
  Record vstate := mkV { v_disp : T * T; v_vel : T * T; v_acc : T * T }.

  (** vehicle and beam (moving_vehicle.py 45-78) *)
  Record vehicle := mkVehicle { vh_mv : T; vh_mw : T; vh_speed : T; vh_k : T; vh_c : T; vh_EI : T; vh_mass : T; vh_len : T }.

  (** moving_vehicle.py 113-119: the constants of the scheme for [beta] = 1/4 and [gamma] = 1/2 *)
  Record vconst := mkConst { q1 : T; q2 : T; q3 : T; q4 : T; q5 : T; q6 : T }.
  (** moving_vehicle.py 113-119 *)
  Definition vehicle_constants (delta_t : T) : vconst :=
    let beta := lit 1 / lit 4 in
    let gamma := lit 1 / lit 2 in
    mkConst (lit 1 / (beta * pow2 delta_t)) (lit 1 / (beta * delta_t)) (lit 1 / (lit 2 * beta) - lit 1)
            (gamma / (beta * delta_t)) (lit 1 - gamma / beta) ((lit 1 - gamma / (lit 2 * beta)) * delta_t).

  (** moving_vehicle.py 123-144: one time step.  [numpy.linalg.inv] of a singular matrix raises *)
  Definition vehicle_step (h : vehicle) (dt : T) (s : vstate) (time : T) : res vstate :=
    let a := vehicle_constants dt in
    let eig := beam_frequency (vh_EI h) (vh_mass h) (vh_len h) 1 in
    let sin := nsin (npi * vh_speed h * time / vh_len h) in
    let k11 := q1 a * (vh_mass h * vh_len h / lit 2 + vh_mw h * pow2 sin) + vh_mass h * vh_len h / lit 2 * pow2 eig + vh_k h * pow2 sin in
    let k12 := - vh_k h * sin in
    let k21 := - vh_k h * sin - vh_c h * q4 a * sin in
    let k22 := q1 a * vh_mv h + vh_k h + vh_c h * q4 a in
    let '(r0, r1) := v_disp s in
    let '(v0, v1) := v_vel s in
    let '(c0, c1) := v_acc s in
    let f1 := (vh_mv h + vh_mw h) * ndec 981 2 * sin +
              (q1 a * r0 + q2 a * v0 + q3 a * c0) * (vh_mass h * vh_len h / lit 2 + vh_mw h * pow2 sin) in
    let f2 := - vh_mv h * (- q1 a * r1 - q2 a * v1 - q3 a * c1) -
              vh_c h * (- q4 a * r1 + q5 a * v1 + q6 a * c1 - (- q4 a * r0 + q5 a * v0 + q6 a * c0) * sin) in
    let det := k11 * k22 - k12 * k21 in
    if neqb det (lit 0) then Err ErrOther else
    let d0 := (k22 * f1 - k12 * f2) / det in
    let d1 := (k11 * f2 - k21 * f1) / det in
    Ok (mkV (d0, d1)
            (q4 a * (d0 - r0) + q5 a * v0 + q6 a * c0, q4 a * (d1 - r1) + q5 a * v1 + q6 a * c1)
            (q1 a * (d0 - r0) - q2 a * v0 - q3 a * c0, q1 a * (d1 - r1) - q2 a * v1 - q3 a * c1)).

  (** moving_vehicle.py 122-144: the states at the given times, after state [s] *)
  Fixpoint vehicle_run (h : vehicle) (dt : T) (s : vstate) (times : list T) : res (list vstate) :=
    match times with
    | [] => Ok []
    | t :: r => do s' <- vehicle_step h dt s t ; do q <- vehicle_run h dt s' r ; Ok (s' :: q)
    end.

  (** moving_vehicle.py 89-148, [compute]: times and states.  [self.time[1]] raises when there are fewer than two times, and a
      speed or time step of zero raises before that (the model has the error of no times) *)
  Definition vehicle_compute (h : vehicle) (t_step : T) : res (list T * list vstate) :=
    let time_max := vh_len h / vh_speed h in
    do time <- linspace (lit 0) time_max (ntrunc (time_max / t_step)) ;
    match time with
    | t0 :: ((t1 :: _) as r) =>
        let s0 := mkV (lit 0, lit 0) (lit 0, lit 0) (lit 0, lit 0) in
        do q <- vehicle_run h (t1 - t0) s0 r ; Ok (time, s0 :: q)
    | _ => Err ErrIndex
    end.
End Analytic.

Arguments vstate T : clear implicits.
Arguments vehicle T : clear implicits.
Arguments vconst T : clear implicits.
