(** * Vocabulary for the vertical balance of a track *)

From Coq Require Import Reals List Bool Arith.
From Verif Require Import Num PyBase Model_Geometry Model_System Model_Element Model_Mesh Model_Track Spec_System Spec_Element Spec_Track.
Import ListNotations.
Local Open Scope R_scope.

(** the sum of the vertical components of a vector on the degrees of freedom, over all nodes *)
Definition vertical (ns : list (node R)) (f : nat -> R) : R := nsum (map (fun p => field_of ns f p DY) (seq 0 (length ns))).

(** a coefficient that is not set counts as zero *)
Definition or_zero (o : option R) : R := match o with Some v => v | None => 0 end.

(** spring forces of the soil: stiffness (or damping) times the vertical displacement (or velocity) of the sleeper, added up *)
Definition soil_sum (t : track R) (k : R) (u : nat -> dir -> R) : R := nsum (map (fun e => k * u (fst e) DY) (tk_soil_els t)).

(** vertical momentum of the track for velocities [v]: a rail element of length [l] moves with the mean velocity of its bent axis,
    a rail pad with the mean of its ends, a sleeper with its node, and the soil with a third of the velocity of the sleeper, as its
    lower end is at rest *)
Definition momentum (t : track R) (l : R) (rail : beam R) (pad sleeper soil : R) (v : nat -> dir -> R) : R :=
  nsum (map (fun e => b_rho rail * b_A rail * l *
                 ((v (fst e) DY + v (snd e) DY) / 2 + l * (v (fst e) DR - v (snd e) DR) / 12)) (tk_rail_els t)) +
  nsum (map (fun e => pad * ((v (fst e) DY + v (snd e) DY) / 2)) (tk_pad_els t)) +
  nsum (map (fun i => sleeper * v i DY) (tk_sleepers t)) +
  nsum (map (fun e => soil * (v (fst e) DY / 3)) (tk_soil_els t)).

(** the vertical loads of load conditions, added up: values of conditions that act vertically *)
Definition total_load (ls : list (load R)) : R :=
  nsum (map (fun l => if ty (ld_flag l) then nsum (map (fun v => ty v) (ld_vals l)) else 0) ls).

(** rails and sleepers can move vertically, the lower ends of the soil cannot *)
Definition stands (t : track R) (ns : list (node R)) : Prop :=
  (forall p, In p (tk_rail_nodes t) \/ In p (tk_sleepers t) -> number_of ns p DY <> None) /\
  (forall e, In e (tk_soil_els t) -> number_of ns (snd e) DY = None).
