(** * Vocabulary for the energy of a train on a track *)

From Coq Require Import Reals List Bool Arith.
From Verif Require Import Num PyBase Model_Geometry Model_System Model_Element Model_Moving Model_Coupled Spec_System Spec_Element Spec_Moving Spec_Coupled Model_Track Spec_Track
  Spec_Analytic Spec_Motion.
Import ListNotations.
Local Open Scope R_scope.

(** the numbers 0, ..., n-1 of a vector as a list *)
Definition listed (n : nat) (x : nat -> R) : list R := map x (seq 0 n).

(** energy of the contact at penetration [d]: the integral of the force (d/G)^p over the penetration *)
Definition contact_energy (G p d : R) : R := if Rlt_dec 0 d then G / (p + 1) * Rpower (d / G) (p + 1) else 0.

(** penetration of wheel [w] *)
Definition depth (ia : interaction R) (u : list R) (w : nat) : R := penetration (nth w (ia_irr ia) 0) (wheel_gap ia u w).

(** the forces that do not come from the wheels: on the track only where no wheel stands *)
Definition other_force (ia : interaction R) (F track : list R) (k : nat) : R :=
  if in_dec Nat.eq_dec k (touched (ia_contacts ia)) then 0 else if (k <? length track)%nat then nth k track 0 else nth k F 0.

(** the wheels roll within their elements: the degrees of freedom stay, the shape factors and the irregularities change with the
    given rates *)
Definition rolls (ia : R -> interaction R) (shape_rate : R -> nat -> nat -> R) (irr_rate : R -> nat -> R) : Prop :=
  (forall t, ia_train_dofs (ia t) = ia_train_dofs (ia 0) /\ ia_static (ia t) = ia_static (ia 0) /\ ia_G (ia t) = ia_G (ia 0) /\ ia_pow (ia t) = ia_pow (ia 0) /\
     map cn_dofs (ia_contacts (ia t)) = map cn_dofs (ia_contacts (ia 0))) /\
  (forall w j, (w < length (ia_train_dofs (ia 0%R)))%nat -> (j < 4)%nat -> derivative (fun t => nth j (cn_shape (nth w (ia_contacts (ia t)) (mkContact [] []))) 0) (fun t => shape_rate t w j)) /\
  (forall w, (w < length (ia_train_dofs (ia 0%R)))%nat -> derivative (fun t => nth w (ia_irr (ia t)) 0) (fun t => irr_rate t w)).

(** a motion under the forces that the coupled model computes: at every time the vector of the track may have been changed under
    the wheels by earlier evaluations *)
Definition driven (n : nat) (s : gsys R) (ia : R -> interaction R) (F track : list R) (u v a : R -> nat -> R) : Prop :=
  exists f, motion n s f u v a /\
    forall t, exists tr F' tr', length tr = length track /\ (forall k, ~ In k (touched (ia_contacts (ia t))) -> nth k tr 0 = nth k track 0) /\
      update_contact (ia t) (listed n (u t)) F tr = Ok (F', tr') /\ forall i, (i < n)%nat -> f t i = nth i F' 0.

(** kinetic energy, spring energy and contact energy of all wheels, and the potential of the other forces *)
Definition total_energy (n : nat) (s : gsys R) (ia : interaction R) (F track : list R) (u v : nat -> R) : R :=
  (quad n (me (gM s)) v + quad n (me (gK s)) u) / 2
  + sumn (length (ia_train_dofs ia)) (fun w => contact_energy (ia_G ia) (ia_pow ia) (depth ia (listed n u) w))
  - work n (other_force ia F track) u.

(** contact force at penetration [d] *)
Definition contact_push (G p d : R) : R := if Rlt_dec 0 d then Rpower (d / G) p else 0.

(** rate at which the rail under wheel [w] rises because the wheel moves along it *)
Definition uphill (ia : interaction R) (rate : nat -> nat -> R) (u : nat -> R) (n w : nat) : R :=
  sumn 4 (fun j => value_at (listed n u) (nth j (cn_dofs (nth w (ia_contacts ia) (mkContact [] []))) None) * rate w j).
