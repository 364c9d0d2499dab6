(** * Vocabulary for statements about beams, rods and vehicles as continuous systems

    Nothing of this file refers to the model; the statements are those of a textbook. *)

From Coq Require Import Reals List Arith.
Import ListNotations.
Local Open Scope R_scope.

(** [g] is the derivative of [f] *)
Definition derivative (f g : R -> R) : Prop := forall x, derivable_pt_lim f x (g x).

(** ** Static bending of a beam with bending stiffness [EI] *)

(** deflection, slope, curvature and third derivative of a part of a beam that carries no load *)
Definition free_part (w w1 w2 w3 : R -> R) : Prop :=
  derivative w w1 /\ derivative w1 w2 /\ derivative w2 w3 /\ derivative w3 (fun _ => 0).

(** [u] is the deflection of a beam from 0 to [len], supported at both ends (no deflection, no moment), under the force [force]
    at [a]: left and right of the force the beam is free of load; at the force deflection, slope and moment agree and the shear
    force jumps by the force *)
Definition supported_static (EI len a force : R) (u : R -> R) : Prop :=
  exists l l1 l2 l3 r r1 r2 r3,
    free_part l l1 l2 l3 /\ free_part r r1 r2 r3 /\
    l 0 = 0 /\ EI * l2 0 = 0 /\ r len = 0 /\ EI * r2 len = 0 /\
    l a = r a /\ l1 a = r1 a /\ EI * l2 a = EI * r2 a /\ EI * r3 a - EI * l3 a = force /\
    (forall x, 0 <= x <= a -> u x = l x) /\ (forall x, a <= x <= len -> u x = r x).

(** the same for a beam that is clamped at 0 and has a free end at [len] *)
Definition clamped_static (EI len a force : R) (u : R -> R) : Prop :=
  exists l l1 l2 l3 r r1 r2 r3,
    free_part l l1 l2 l3 /\ free_part r r1 r2 r3 /\
    l 0 = 0 /\ l1 0 = 0 /\ EI * r2 len = 0 /\ EI * r3 len = 0 /\
    l a = r a /\ l1 a = r1 a /\ EI * l2 a = EI * r2 a /\ EI * r3 a - EI * l3 a = force /\
    (forall x, 0 <= x <= a -> u x = l x) /\ (forall x, a <= x <= len -> u x = r x).

(** ** Motion.  A motion gives the displacement of every point [x] at every time [t] *)

(** derivatives of a motion in time and along the beam *)
Definition in_time (w v : R -> R -> R) : Prop := forall x, derivative (fun t => w x t) (fun t => v x t).
Definition along_beam (w v : R -> R -> R) : Prop := forall t, derivative (fun x => w x t) (fun x => v x t).

(** the beam has mass [m] per length and bending stiffness [EI]; damping is [c0] times the mass plus [c1] times the stiffness;
    [q x t] is the load per length.  [w2] and [w3] are curvature and third derivative, [v] is the velocity *)
Definition beam_motion (m EI c0 c1 : R) (q w v w1 w2 w3 : R -> R -> R) : Prop :=
  exists a w4 w4t, in_time w v /\ in_time v a /\ along_beam w w1 /\ along_beam w1 w2 /\ along_beam w2 w3 /\ along_beam w3 w4 /\ in_time w4 w4t /\
    forall x t, m * a x t + c0 * m * v x t + c1 * EI * w4t x t + EI * w4 x t = q x t.

(** starts at rest without displacement *)
Definition starts_at_rest (w v : R -> R -> R) : Prop := forall x, w x 0 = 0 /\ v x 0 = 0.

(** no deflection and no moment at both ends *)
Definition simply_supported (len : R) (w w2 : R -> R -> R) : Prop :=
  forall t, w 0 t = 0 /\ w2 0 t = 0 /\ w len t = 0 /\ w2 len t = 0.

(** sum of [f 1, ..., f n] *)
Fixpoint sum_to (n : nat) (f : nat -> R) : R := match n with O => 0 | S k => sum_to k f + f (S k) end.

(** the first [n] terms of the sine series of a force [force] concentrated at [x0] *)
Definition point_load (n : nat) (len force x0 x : R) : R :=
  2 * force / len * sum_to n (fun k => sin (INR k * PI * x0 / len) * sin (INR k * PI * x / len)).

(** ** Shear beams *)

(** deflection [w] and rotation [r] of a freely vibrating beam with shear deformation: density [rho], area [A], Young's modulus [E],
    second moment of area [I] and shear stiffness [kG] per area *)
Definition shear_beam_motion (rho A E I kG : R) (w r : R -> R -> R) : Prop :=
  exists wt wtt wx wxx rt rtt rx rxx,
    in_time w wt /\ in_time wt wtt /\ along_beam w wx /\ along_beam wx wxx /\
    in_time r rt /\ in_time rt rtt /\ along_beam r rx /\ along_beam rx rxx /\
    (forall x t, rho * A * wtt x t = kG * A * (wxx x t - rx x t)) /\
    (forall x t, rho * I * rtt x t = E * I * rxx x t + kG * A * (wx x t - r x t)).

(** ** Shapes of a beam that is clamped at 0 and free at [len]: [f] with wave number [a] *)
Definition clamped_shape (len a : R) (f : R -> R) : Prop :=
  exists f1 f2 f3, derivative f f1 /\ derivative f1 f2 /\ derivative f2 f3 /\ derivative f3 (fun x => a ^ 4 * f x) /\
    f 0 = 0 /\ f1 0 = 0 /\ f2 len = 0 /\ f3 len = 0.

(** the ends of a clamped beam in motion *)
Definition clamped_free (len : R) (w w1 w2 w3 : R -> R -> R) : Prop :=
  forall t, w 0 t = 0 /\ w1 0 t = 0 /\ w2 len t = 0 /\ w3 len t = 0.

(** ** Rods: displacement [u], velocity [v] and pressure [p] of a rod with density [rho] and modulus [K] *)
Definition rod_motion (rho K : R) (u v p : R -> R -> R) : Prop :=
  exists a ux uxx, in_time u v /\ in_time v a /\ along_beam u ux /\ along_beam ux uxx /\
    (forall x t, p x t = K * ux x t) /\ (forall x t, rho * a x t = K * uxx x t).

(** ** A vehicle on a beam (first mode of the beam only) *)

(** constant average acceleration over a time step [dt] *)
Definition average_acceleration (dt d v a d' v' a' : R) : Prop :=
  d' = d + dt * v + dt * dt / 4 * (a + a') /\ v' = v + dt / 2 * (a + a').

(** force in spring [k] and damper [c] between the vehicle ([y], velocity [y1]) and the beam below it, whose mid-span moves by [q] with velocity [q1];
    [s] is the shape of the first mode at the vehicle *)
Definition suspension (k c s y y1 q q1 : R) : R := k * (y - q * s) + c * (y1 - q1 * s).
(** the sprung mass [mv] with acceleration [y2] carries the force of the suspension *)
Definition sprung_mass (mv force y2 : R) : Prop := mv * y2 + force = 0.
(** the beam (modal mass [M], frequency [w]) carries the weight of vehicle and wheel, the inertia of the wheel and the force of the suspension *)
Definition beam_mode_equation (M w mv mw g s force q q2 : R) : Prop :=
  M * q2 + M * (w * w) * q = ((mv + mw) * g - mw * (q2 * s) + force) * s.

(** ** Frequencies *)

(** natural frequency [k] of a simply supported beam with bending stiffness [EI] and mass [m] per length, and the damping ratio at frequency [w] *)
Definition natural_frequency (EI m len : R) (k : nat) : R := (INR k * PI / len) ^ 2 * sqrt (EI / m).
Definition damping_ratio (c0 c1 w : R) : R := c0 / (2 * w) + c1 * w / 2.

(** points with equal distances from 0 to [len]: the smallest number of intervals of at most [size] *)
Definition equal_points (size len : R) (x : list R) : Prop :=
  exists n, INR n - 1 < len / size <= INR n /\ length x = S n /\ forall i, (i <= n)%nat -> nth i x 0 = INR i * len / INR n.
(** the point in the middle of a list, rounded down *)
Definition middle_point (x : list R) : R := nth (Nat.div (length x - 1) 2) x 0.
