(** * What the Kalman filter should do, stated on real numbers *)

From Coq Require Import Reals List.
From Verif Require Import Model_Kalman.
Import ListNotations.
Local Open Scope R_scope.

Definition between (a b x : R) : Prop := Rmin a b <= x <= Rmax a b.

(** One quantity predicted as [xp] with variance [pp] and measured as [y] with variance [r]: the estimate is the mean weighted by
    the other's variance; with no uncertainty in either the prediction is kept. *)
Record fused (xp pp y r x p : R) : Prop :=
  { fu_weighted : (pp + r) * x = r * xp + pp * y;
    fu_variance : (pp + r) * p = pp * r;
    fu_certain : pp + r = 0 -> x = xp /\ p = 0;
    fu_between : between xp y x;
    fu_nonneg : 0 <= p;
    fu_smaller : p <= Rmin pp r }.

(** the gain: share of the measurement in the estimate *)
Definition is_gain (pp r k : R) : Prop := (pp + r) * k = pp /\ (pp + r = 0 -> k = 0) /\ 0 <= k <= 1.

(** Position and velocity with a constant acceleration [u] for the time [dt]. *)
Definition moved (dt u x v : R) : R := x + dt * v + dt * dt / 2 * u.
Definition sped (dt u v : R) : R := v + dt * u.
(** The variance of the moved position when position and velocity are independent. *)
Definition moved_var (dt px pv : R) : R := px + dt * dt * pv.

(** one step of the filter for independent quantities, from estimate [x], [P] to [x'], [P'] with gain [K] *)
Definition independent_step (u dt s1 s2 : R) (y x : v2 R) (P : m22 R) (x' : v2 R) (P' : m22 R) : Prop :=
  fused (moved dt u (v_1 x) (v_2 x)) (moved_var dt (m_11 P) (m_22 P)) (v_1 y) (s1 * s1) (v_1 x') (m_11 P') /\
  fused (sped dt u (v_2 x)) (m_22 P) (v_2 y) (s2 * s2) (v_2 x') (m_22 P') /\
  m_12 P' = 0 /\ m_21 P' = 0.
Definition independent_gain (dt s1 s2 : R) (P K : m22 R) : Prop :=
  is_gain (moved_var dt (m_11 P) (m_22 P)) (s1 * s1) (m_11 K) /\ is_gain (m_22 P) (s2 * s2) (m_22 K) /\ m_12 K = 0 /\ m_21 K = 0.

(** The 2 by 2 system [K S = P] of the optimal gain (the observation matrix is the identity). *)
Definition optimal_gain (P Q K : m22 R) : Prop :=
  let S := fun f : m22 R -> R => f P + f Q in
  m_11 K * S m_11 + m_12 K * S m_21 = m_11 P /\ m_11 K * S m_12 + m_12 K * S m_22 = m_12 P /\
  m_21 K * S m_11 + m_22 K * S m_21 = m_21 P /\ m_21 K * S m_12 + m_22 K * S m_22 = m_22 P.
Definition symmetric22 (P : m22 R) : Prop := m_12 P = m_21 P.

(** the covariance after moving for the time [dt]: [A P A'] with [A = [[1, dt], [0, 1]]] *)
Definition moved_cov (dt : R) (P : m22 R) : m22 R :=
  M22 (m_11 P + dt * m_21 P + dt * (m_12 P + dt * m_22 P)) (m_12 P + dt * m_22 P) (m_21 P + dt * m_22 P) (m_22 P).

(** standard deviations [s1], [s2] of independent or fully dependent quantities *)
Definition covariance_of (independent : bool) (s1 s2 : R) : m22 R :=
  let c := if independent then 0 else s1 * s2 in M22 (s1 * s1) c c (s2 * s2).

(** What the filter does instead of solving [K S = P]: every entry of [P] is divided by the entry of [S] (zero for [0 / 0]). *)
Definition elementwise_gain (P Q K : m22 R) : Prop :=
  forall f : m22 R -> R, In f [m_11; m_12; m_21; m_22] -> (f P + f Q) * f K = f P /\ (f P + f Q = 0 -> f K = 0).
(** [P' = (I - K) P] *)
Definition corrected (P K P' : m22 R) : Prop :=
  m_11 P' = (1 - m_11 K) * m_11 P - m_12 K * m_21 P /\ m_12 P' = (1 - m_11 K) * m_12 P - m_12 K * m_22 P /\
  m_21 P' = (1 - m_22 K) * m_21 P - m_21 K * m_11 P /\ m_22 P' = (1 - m_22 K) * m_22 P - m_21 K * m_12 P.
