(** * Vocabulary for models written in other units of mass and time *)

From Coq Require Import Reals List Bool Arith.
From Verif Require Import Num PyBase Model_Geometry Model_System Model_Element Model_Track Spec_System Spec_Element Spec_Track.
Import ListNotations.
Local Open Scope R_scope.

(** [mu] is the number of new units of mass in one old unit of mass, [th] the number of old units of time in one new unit of time;
    with tonnes in place of kilograms [mu] is 1/1000, with milliseconds in place of seconds [th] is 1/1000.  Lengths keep their
    unit.  A force, which is a mass times a length over a time squared, is multiplied by [force_unit mu th] *)
Definition force_unit (mu th : R) : R := mu * (th * th).

(** the same beam: Young's modulus and the end springs have forces, the density has a mass *)
Definition beam_in (mu th : R) (b : beam R) : beam R :=
  mkBeam (force_unit mu th * b_E b) (b_nu b) (mu * b_rho b) (b_A b) (b_I b) (b_shear_factor b) (b_l b)
         (option_map (Rmult (force_unit mu th)) (b_s1 b)) (option_map (Rmult (force_unit mu th)) (b_s2 b)).

(** the same class: a spring stiffness has a force, a damper a force times a time *)
Definition kind_in (mu th : R) (k : kind R) : kind R :=
  match k with
  | KRod s c m => KRod (option_map (Rmult (force_unit mu th)) s) (option_map (Rmult (mu * th)) c) (option_map (Rmult mu) m)
  | KBeam b => KBeam (beam_in mu th b)
  | KRail b => KRail (beam_in mu th b)
  | KPoint m => KPoint (mu * m)
  end.
Definition part_in (mu th : R) (p : epart R) : epart R := mkPart (kind_in mu th (ep_kind p)) (ep_nodes p) (ep_els p).

(** the same load *)
Definition load_in (mu th : R) (l : load R) : load R :=
  mkLoad (ld_flag l) (ld_nodes l) (map (fun v => T3 (force_unit mu th * tx v) (force_unit mu th * ty v) (force_unit mu th * tr v)) (ld_vals l)).

(** the same Rayleigh damping: the ratio has no unit, the frequencies are per time *)
Definition damping_in (th : R) (da : damping R) : damping R := mkDamping (da_on da) (da_ratio da) (th * da_one da) (th * da_two da).

(** direction [d] of node [p] moves by one, nothing else moves *)
Definition lone (p : nat) (d : dir) (q : nat) (e : dir) : R :=
  match d, e with DX, DX | DY, DY | DR, DR => if Nat.eqb p q then 1 else 0 | _, _ => 0 end.
(** the stiffness and the mass that the parts of a model give to direction [d] of node [p] *)
Definition own_stiffness (ns : list (node R)) (ps : list (epart R)) (p : nat) (d : dir) : R :=
  nsum (map (fun a => part_form aux_stiffness ns (lone p d) (settled ns a)) ps).
Definition own_mass (ns : list (node R)) (ps : list (epart R)) (p : nat) (d : dir) : R :=
  nsum (map (fun a => part_form aux_mass ns (lone p d) (settled ns a)) ps).

(** a value that is above 1e-8 in the new unit exactly when it is above 1e-8 in the old one, where one old unit is [c] new units *)
Definition same_side (c v : R) : Prop := 1 / 100000000 < Rabs v <-> 1 / 100000000 < c * Rabs v.
(** so it is for the stiffness and the mass of every direction of every node *)
Definition well_scaled (mu th : R) (ns : list (node R)) (ps : list (epart R)) : Prop :=
  forall p d, (p < length ns)%nat -> same_side (force_unit mu th) (own_stiffness ns ps p d) /\ same_side mu (own_mass ns ps p d).
