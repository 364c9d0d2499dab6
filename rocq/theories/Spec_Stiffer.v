(** * Vocabulary for comparing models of different stiffness *)

From Coq Require Import Reals List Bool Arith.
From Verif Require Import Num PyBase Model_Geometry Model_System Model_Element Model_Track Spec_System Spec_Element Spec_Track.
Import ListNotations.
Local Open Scope R_scope.

(** work of the loads in a displacement: every value times the displacement of its node in its direction, for the directions in which the load
    condition acts *)
Definition load_work (ls : list (load R)) (u : nat -> dir -> R) : R :=
  nsum (map (fun l => nsum (map (fun q => nsum (map (fun d => if tget (ld_flag l) d then tget (snd q) d * u (fst q) d else 0) [DX; DY; DR]))
                                (combine (ld_nodes l) (ld_vals l)))) ls).

(** the same beam of a material that is at least as stiff *)
Definition stiffer_rail (b b' : beam R) : Prop :=
  b_E b <= b_E b' /\ b_nu b' = b_nu b /\ b_rho b' = b_rho b /\ b_A b' = b_A b /\ b_I b' = b_I b /\ b_shear_factor b' = b_shear_factor b /\
  b_l b' = b_l b /\ b_s1 b' = b_s1 b /\ b_s2 b' = b_s2 b.
(** a spring (stiffness, damping, mass) that is at least as stiff and has the same mass *)
Definition stiffer_rod (v v' : R * option R * option R) : Prop := fst (fst v) <= fst (fst v') /\ snd v' = snd v.

(** a single vertical load on one node *)
Definition one_load (p : nat) (P : R) : list (load R) := [mkLoad (T3 false true false) [p] [T3 0 P 0]].
(** a load with all values multiplied by [a] *)
Definition times (a : R) (l : load R) : load R := mkLoad (ld_flag l) (ld_nodes l) (map (fun v => T3 (a * tx v) (a * ty v) (a * tr v)) (ld_vals l)).
