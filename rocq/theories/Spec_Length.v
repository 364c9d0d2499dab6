(** * Vocabulary for models written in another unit of length *)

From Coq Require Import Reals List Bool Arith.
From Verif Require Import Num PyBase Model_Geometry Model_System Model_Element Model_Track Spec_System Spec_Element Spec_Track Spec_Units.
Import ListNotations.
Local Open Scope R_scope.

(** [la] is the number of new units of length in one old unit of length; with millimetres in place of metres it is 1000.  Masses and
    times keep their units, so forces are multiplied by [la] and moments by its square *)

(** the same nodes *)
Definition point_at (la : R) (c : tri R) : tri R := T3 (la * tx c) (la * ty c) (la * tr c).
Definition node_at_length (la : R) (n : node R) : node R := mkNode (n_id n) (n_index n) (n_dof n) (point_at la (n_coord n)) (n_flag n) (n_parts n).
Definition mesh_at (la : R) (ns : list (node R)) : list (node R) := map (node_at_length la) ns.

(** the same beam: Young's modulus is a force over an area, the density a mass over a volume; the springs at the ends are moments *)
Definition beam_at (la : R) (b : beam R) : beam R :=
  mkBeam (b_E b / la) (b_nu b) (b_rho b / (la * la * la)) (la * la * b_A b) (la * la * la * la * b_I b) (b_shear_factor b) (la * b_l b)
         (option_map (Rmult (la * la)) (b_s1 b)) (option_map (Rmult (la * la)) (b_s2 b)).
(** the same part: springs, dampers and masses have no lengths *)
Definition kind_at (la : R) (k : kind R) : kind R := match k with KBeam b => KBeam (beam_at la b) | KRail b => KRail (beam_at la b) | _ => k end.
Definition part_at (la : R) (p : epart R) : epart R := mkPart (kind_at la (ep_kind p)) (ep_nodes p) (ep_els p).

(** the same load: two forces and a moment *)
Definition load_at (la : R) (l : load R) : load R :=
  mkLoad (ld_flag l) (ld_nodes l) (map (fun v => T3 (la * tx v) (la * ty v) (la * la * tr v)) (ld_vals l)).

(** a rotation has no unit; what works on it, a moment, has one length more than a force *)
Definition lever (la : R) (d : dir) : R := match d with DR => la | _ => 1 end.
(** what a displacement in direction [d] is multiplied by *)
Definition stretch (la : R) (d : dir) : R := match d with DR => 1 | _ => la end.

(** values that the code compares with 1e-8 are on the same side of it in both units: the horizontal extent of the elements, and the
    stiffness and the mass of the rotations *)
Definition clear_lengths (la : R) (ns : list (node R)) (ps : list (epart R)) : Prop :=
  (forall p e, In p ps -> In e (ep_els p) -> same_side la (fst (xy ns (snd e)) - fst (xy ns (fst e)))) /\
  (forall q, (q < length ns)%nat -> same_side (la * la) (own_stiffness ns ps q DR) /\ same_side (la * la) (own_mass ns ps q DR)).

(** all nodes of a rail have the same distance from the next one *)
Definition even_rail (ns : list (node R)) (p : epart R) : Prop :=
  match ep_kind p with
  | KRail _ => exists l, forall k i j a b, nth_error (ep_nodes p) k = Some i -> nth_error (ep_nodes p) (S k) = Some j -> nth_error ns i = Some a -> nth_error ns j = Some b ->
      dist3 (n_coord a) (n_coord b) = l
  | _ => True
  end.
