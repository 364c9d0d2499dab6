(** * Model of rose/utils/Kalman_Filter.py *)

From Coq Require Import Reals List Bool ZArith Arith.
From Verif Require Import Num PyBase Model_Accumulation.
Import ListNotations.

Section Kalman.
  Context {T : Type} `{Num T}.
  Local Open Scope num_scope.

  (** ** arrays of shape (2,) and (2, 2), as used on lines 32-45, 109, 130-133, 154, 166, 173 and 182 *)
  Record v2 := V2 { v_1 : T; v_2 : T }.
  (** arrays of shape (2, 2), lines 32-45 *)
  Record m22 := M22 { m_11 : T; m_12 : T; m_21 : T; m_22 : T }.
  (** lines 109 and 173: sums, differences and multiples of arrays, element by element *)
  Definition vadd (a b : v2) : v2 := V2 (v_1 a + v_1 b) (v_2 a + v_2 b).
  (** line 173 *)
  Definition vsub (a b : v2) : v2 := V2 (v_1 a - v_1 b) (v_2 a - v_2 b).
  (** line 109 *)
  Definition vscale (a : v2) (u : T) : v2 := V2 (v_1 a * u) (v_2 a * u).
  (** lines 109 and 154 *)
  Definition madd (a b : m22) : m22 := M22 (m_11 a + m_11 b) (m_12 a + m_12 b) (m_21 a + m_21 b) (m_22 a + m_22 b).
  (** line 182 *)
  Definition msub (a b : m22) : m22 := M22 (m_11 a - m_11 b) (m_12 a - m_12 b) (m_21 a - m_21 b) (m_22 a - m_22 b).
  (** line 133: [a * b], element by element *)
  Definition mtimes (a b : m22) : m22 := M22 (m_11 a * m_11 b) (m_12 a * m_12 b) (m_21 a * m_21 b) (m_22 a * m_22 b).
  (** lines 109 and 130: [a.dot(x)], [a.dot(b)], [a.T]; line 182: [np.identity(2)] *)
  Definition mvec (a : m22) (x : v2) : v2 := V2 (m_11 a * v_1 x + m_12 a * v_2 x) (m_21 a * v_1 x + m_22 a * v_2 x).
  (** lines 130, 154 and 182 *)
  Definition mdot (a b : m22) : m22 :=
    M22 (m_11 a * m_11 b + m_12 a * m_21 b) (m_11 a * m_12 b + m_12 a * m_22 b)
        (m_21 a * m_11 b + m_22 a * m_21 b) (m_21 a * m_12 b + m_22 a * m_22 b).
  (** lines 130 and 154: [a.T] *)
  Definition mtrans (a : m22) : m22 := M22 (m_11 a) (m_21 a) (m_12 a) (m_22 a).
  (** line 182: [np.identity(2)] *)
  Definition ident : m22 := M22 (lit 1) (lit 0) (lit 0) (lit 1).

  (** ** the filter *)

  (** Kalman_Filter.py 16-50: the attributes that are used; [w], [Qr] and [zk] are always zero.  [k_times] are the time steps
      given to [initialise_control_matrices], [None] before; [k_A] to [k_C] are [_A], [_B], [_H] and [_C] *)
  Record filter := { k_x : v2; k_P : m22; k_u : T; k_independent : bool; k_times : option (list T);
                     k_A : m22; k_B : v2; k_H : m22; k_C : m22; k_R : m22; k_K : m22; k_Y : v2;
                     k_updated_x : list v2; k_updated_P : list m22 }.

  (** lines 115-126 and 138-149 *)
  Definition covariance (independent : bool) (s1 s2 : T) : m22 :=
    if independent then M22 (s1 * s1) (lit 0) (lit 0) (s2 * s2) else M22 (s1 * s1) (s1 * s2) (s1 * s2) (s2 * s2).
  (** lines 20-24: placeholders before the first use *)
  Definition zero22 : m22 := M22 (lit 0) (lit 0) (lit 0) (lit 0).
  (** lines 32-37 and 90-96 *)
  Definition predict_A (dt : T) : m22 := M22 (lit 1) dt (lit 0) (lit 1).
  (** lines 32-37 and 90-96 *)
  Definition predict_B (dt : T) : v2 := V2 (lit 1 / lit 2 * (dt * dt)) dt.

  (** lines 6-53 *)
  Definition new_filter (x0 : v2) (u s1 s2 dt : T) (independent : bool) : filter :=
    let A := predict_A dt in
    let H := mtimes A ident in
    let P := covariance independent s1 s2 in
    {| k_x := x0; k_P := P; k_u := u; k_independent := independent; k_times := None; k_A := A; k_B := predict_B dt; k_H := H; k_C := H;
       k_R := zero22; k_K := zero22; k_Y := V2 (lit 0) (lit 0); k_updated_x := [x0]; k_updated_P := [P] |}.

  (** lines 55-74 *)
  Definition initialise_control_matrices (times : list T) (k : filter) : filter :=
    {| k_x := k_x k; k_P := k_P k; k_u := k_u k; k_independent := k_independent k; k_times := Some times; k_A := k_A k; k_B := k_B k; k_H := k_H k; k_C := k_C k;
       k_R := k_R k; k_K := k_K k; k_Y := k_Y k; k_updated_x := k_updated_x k; k_updated_P := k_updated_P k |}.
  (** lines 79-88 and 93-104: the same matrices *)
  Definition set_matrices (dt : T) (k : filter) : filter :=
    {| k_x := k_x k; k_P := k_P k; k_u := k_u k; k_independent := k_independent k; k_times := k_times k; k_A := predict_A dt; k_B := predict_B dt; k_H := ident; k_C := ident;
       k_R := k_R k; k_K := k_K k; k_Y := k_Y k; k_updated_x := k_updated_x k; k_updated_P := k_updated_P k |}.
  (** lines 76-88; raises when the time steps have not been given or there are too few *)
  Definition update_control_matrices_by_index (i : nat) (k : filter) : res filter :=
    match k_times k with
    | None => Err ErrIndex
    | Some times => do dt <- at_idx times i ; Ok (set_matrices dt k)
    end.
  (** lines 90-104 *)
  Definition update_control_matrices (dt : T) (k : filter) : filter := set_matrices dt k.

  (** lines 106-113 *)
  Definition state_matrix (k : filter) : filter :=
    {| k_x := vadd (mvec (k_A k) (k_x k)) (vscale (k_B k) (k_u k)); k_P := k_P k; k_u := k_u k; k_independent := k_independent k; k_times := k_times k;
       k_A := k_A k; k_B := k_B k; k_H := k_H k; k_C := k_C k; k_R := k_R k; k_K := k_K k; k_Y := k_Y k; k_updated_x := k_updated_x k; k_updated_P := k_updated_P k |}.

  (** lines 128-136 *)
  Definition set_P (P : m22) (k : filter) : filter :=
    {| k_x := k_x k; k_P := P; k_u := k_u k; k_independent := k_independent k; k_times := k_times k; k_A := k_A k; k_B := k_B k; k_H := k_H k; k_C := k_C k;
       k_R := k_R k; k_K := k_K k; k_Y := k_Y k; k_updated_x := k_updated_x k; k_updated_P := k_updated_P k |}.
  (** lines 128-136 *)
  Definition predict_process_cov_matrix (k : filter) : filter :=
    let P := mdot (mdot (k_A k) (k_P k)) (mtrans (k_A k)) in
    set_P (if k_independent k then mtimes P ident else P) k.

  (** lines 138-149 *)
  Definition error_covariance_measures (s1 s2 : T) (k : filter) : filter :=
    {| k_x := k_x k; k_P := k_P k; k_u := k_u k; k_independent := k_independent k; k_times := k_times k; k_A := k_A k; k_B := k_B k; k_H := k_H k; k_C := k_C k;
       k_R := covariance (k_independent k) s1 s2; k_K := k_K k; k_Y := k_Y k; k_updated_x := k_updated_x k; k_updated_P := k_updated_P k |}.

  (** lines 151-158: the division is element by element; [0 / 0] is nan and replaced by zero, another division by zero is
      infinite ([None]: not modelled further) *)
  Definition gain_entry (num den : T) : option T :=
    if neqb den (lit 0) then (if neqb num (lit 0) then Some (lit 0) else None) else Some (num / den).
  (** lines 151-158 *)
  Definition kalman_gain (k : filter) : option filter :=
    let N := mdot (k_P k) (mtrans (k_H k)) in
    let D := madd (mdot (mdot (k_H k) (k_P k)) (mtrans (k_H k))) (k_R k) in
    match gain_entry (m_11 N) (m_11 D), gain_entry (m_12 N) (m_12 D), gain_entry (m_21 N) (m_21 D), gain_entry (m_22 N) (m_22 D) with
    | Some a, Some b, Some c, Some d =>
        Some {| k_x := k_x k; k_P := k_P k; k_u := k_u k; k_independent := k_independent k; k_times := k_times k; k_A := k_A k; k_B := k_B k; k_H := k_H k; k_C := k_C k;
                k_R := k_R k; k_K := M22 a b c d; k_Y := k_Y k; k_updated_x := k_updated_x k; k_updated_P := k_updated_P k |}
    | _, _, _, _ => None
    end.

  (** lines 160-168 *)
  Definition new_observation (y : v2) (k : filter) : filter :=
    {| k_x := k_x k; k_P := k_P k; k_u := k_u k; k_independent := k_independent k; k_times := k_times k; k_A := k_A k; k_B := k_B k; k_H := k_H k; k_C := k_C k;
       k_R := k_R k; k_K := k_K k; k_Y := mvec (k_C k) y; k_updated_x := k_updated_x k; k_updated_P := k_updated_P k |}.

  (** lines 170-177 *)
  Definition predicted_state (k : filter) : filter :=
    let x := vadd (k_x k) (mvec (k_K k) (vsub (k_Y k) (mvec (k_H k) (k_x k)))) in
    {| k_x := x; k_P := k_P k; k_u := k_u k; k_independent := k_independent k; k_times := k_times k; k_A := k_A k; k_B := k_B k; k_H := k_H k; k_C := k_C k;
       k_R := k_R k; k_K := k_K k; k_Y := k_Y k; k_updated_x := k_updated_x k ++ [x]; k_updated_P := k_updated_P k |}.

  (** lines 179-186 *)
  Definition update_process_covariance_matrix (k : filter) : filter :=
    let P := mdot (msub ident (mdot (k_K k) (k_H k))) (k_P k) in
    {| k_x := k_x k; k_P := P; k_u := k_u k; k_independent := k_independent k; k_times := k_times k; k_A := k_A k; k_B := k_B k; k_H := k_H k; k_C := k_C k;
       k_R := k_R k; k_K := k_K k; k_Y := k_Y k; k_updated_x := k_updated_x k; k_updated_P := k_updated_P k ++ [P] |}.

  (** one pass of the loop of lines 210-221, with the time step given ([update_control_matrices], line 212), by its index
      (line 213) or left as it is *)
  Definition finish_step (s1 s2 : T) (y : v2) (k : filter) : option filter :=
    match kalman_gain (error_covariance_measures s1 s2 (predict_process_cov_matrix (state_matrix k))) with
    | Some k => Some (update_process_covariance_matrix (predicted_state (new_observation y k)))
    | None => None
    end.
  (** lines 210-221 with [update_control_matrices] *)
  Definition step (dt s1 s2 : T) (y : v2) (k : filter) : option filter := finish_step s1 s2 y (update_control_matrices dt k).
  (** lines 210-221 with [update_control_matrices_by_index] *)
  Definition step_by_index (i : nat) (s1 s2 : T) (y : v2) (k : filter) : res (option filter) :=
    do k <- update_control_matrices_by_index i k ; Ok (finish_step s1 s2 y k).

  (** the loop of lines 210-221: all measurement errors equal in the code, here one pair for each measurement *)
  Fixpoint run (l : list (T * T * T * v2)) (k : filter) : option filter :=
    match l with
    | [] => Some k
    | (dt, s1, s2, y) :: r => match step dt s1 s2 y k with Some k => run r k | None => None end
    end.
  (** the same with the time step of the constructor, without line 213 *)
  Fixpoint run_fixed (l : list (T * T * v2)) (k : filter) : option filter :=
    match l with
    | [] => Some k
    | (s1, s2, y) :: r => match finish_step s1 s2 y k with Some k => run_fixed r k | None => None end
    end.
  (** the same by index, as on lines 210-213: the measurements after the first use the time steps [i], [i + 1], ... *)
  Fixpoint run_by_index (i : nat) (l : list (T * T * v2)) (k : filter) : res (option filter) :=
    match l with
    | [] => Ok (Some k)
    | (s1, s2, y) :: r =>
        do o <- step_by_index i s1 s2 y k ;
        match o with Some k => run_by_index (S i) r k | None => Ok None end
    end.
End Kalman.
Arguments v2 T : clear implicits.
Arguments m22 T : clear implicits.
Arguments filter T : clear implicits.
