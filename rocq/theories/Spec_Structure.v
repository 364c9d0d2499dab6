(** * Vocabulary for the vertical balance of tracks of any shape *)

From Coq Require Import Reals List Bool ZArith Arith.
From Verif Require Import Num PyBase Model_Geometry Model_System Model_Element Model_Accumulation Model_Mesh Spec_Mesh Model_Track Spec_System Spec_Element Spec_Track Spec_Generated Spec_Balance.
Import ListNotations.
Local Open Scope R_scope.

(** an element that lies flat and runs to the right *)
Definition level (ns : list (node R)) (e : nat * nat) : Prop :=
  snd (xy ns (fst e)) = snd (xy ns (snd e)) /\ fst (xy ns (fst e)) < fst (xy ns (snd e)).
(** an element whose ends are above each other *)
Definition plumb (ns : list (node R)) (e : nat * nat) : Prop :=
  fst (xy ns (fst e)) = fst (xy ns (snd e)) /\ snd (xy ns (fst e)) <> snd (xy ns (snd e)).

(** beams lie flat and springs stand upright *)
Definition upright (ns : list (node R)) (p : epart R) : Prop :=
  match ep_kind p with
  | KRod _ _ _ => forall e, In e (ep_els p) -> plumb ns e
  | KBeam _ | KRail _ => forall e, In e (ep_els p) -> level ns e
  | KPoint _ => True
  end.

(** the ends of beams can move vertically *)
Definition beams_free (ns : list (node R)) (p : epart R) : Prop :=
  match ep_kind p with
  | KBeam _ | KRail _ => forall e, In e (ep_els p) -> number_of ns (fst e) DY <> None /\ number_of ns (snd e) DY <> None
  | _ => True
  end.

(** the vertical motion of the free end of an element whose other end is held; nothing for elements that do not end on the ground *)
Definition above_ground (ns : list (node R)) (u : nat -> dir -> R) (e : nat * nat) : R :=
  match number_of ns (fst e) DY, number_of ns (snd e) DY with
  | Some _, None => u (fst e) DY
  | None, Some _ => u (snd e) DY
  | _, _ => 0
  end.

(** forces on the ground: stiffness (damping) of each spring that ends on the ground times the displacement (velocity) above it *)
Definition ground_springs (ns : list (node R)) (u : nat -> dir -> R) (p : epart R) : R :=
  match ep_kind p with KRod k _ _ => nsum (map (fun e => or_zero k * above_ground ns u e) (ep_els p)) | _ => 0 end.
Definition ground_dampers (ns : list (node R)) (v : nat -> dir -> R) (p : epart R) : R :=
  match ep_kind p with KRod _ c _ => nsum (map (fun e => or_zero c * above_ground ns v e) (ep_els p)) | _ => 0 end.

(** mean velocity of a spring: the mean of its ends, or a third of the velocity of the free end when the other one is held *)
Definition spring_velocity (ns : list (node R)) (v : nat -> dir -> R) (e : nat * nat) : R :=
  match number_of ns (fst e) DY, number_of ns (snd e) DY with
  | Some _, Some _ => (v (fst e) DY + v (snd e) DY) / 2
  | Some _, None => v (fst e) DY / 3
  | None, Some _ => v (snd e) DY / 3
  | None, None => 0
  end.

(** vertical momentum of a part: beam elements of length [b_l] move with the mean velocity of their bent axis (C119_axis), points with
    their node *)
Definition part_momentum (ns : list (node R)) (v : nat -> dir -> R) (p : epart R) : R :=
  match ep_kind p with
  | KRod _ _ m => nsum (map (fun e => or_zero m * spring_velocity ns v e) (ep_els p))
  | KBeam b | KRail b => nsum (map (fun e => b_rho b * b_A b * b_l b *
      ((v (fst e) DY + v (snd e) DY) / 2 + b_l b * (v (fst e) DR - v (snd e) DR) / 12)) (ep_els p))
  | KPoint m => nsum (map (fun i => m * v i DY) (ep_nodes p))
  end.

(** a quantity of all parts; the length of rail elements is the one found in the mesh *)
Definition all_parts (ns : list (node R)) (f : epart R -> R) (ps : list (epart R)) : R := nsum (map (fun p => f (settled ns p)) ps).

(** ** tracks joined from segments *)

(** the segments: at least one sleeper each and soil of some depth, together at least two sleepers *)
Definition segments (specs : list (nat * R)) : Prop :=
  (forall n depth, In (n, depth) specs -> (1 <= n)%nat /\ 1 / 1000000000 < depth) /\ (2 <= sleeper_count specs)%nat.

(** tracks created one after the other and joined, as in the scripts (run_rose/demo.py 77-94); new nodes get the next unused identity *)
Definition joins (h : tri Z -> Z) (specs : list (nat * R)) (d : R) (r : nat) (j : joined) (c : heap R) (mesh : list nat) : Prop :=
  exists ts els, create_tracks h 0 specs d r = Ok ts /\
    combine_horizontal_tracks h (heap_of ts) (length (flat_map tk_objects ts)) ts d r = Ok (j, c, mesh, els).

(** the mesh of a joined track: the listed node objects, numbered in this order (rose/pre_process/mesh_utils.py 361-363) *)
Definition joined_mesh (c : heap R) (mesh : list nat) : list (node R) :=
  reorder_node_ids (map (fun i => new_node i (tx (c i)) (ty (c i)) (tr (c i))) mesh).

(** springs with stiffness, damping and mass *)
Definition springs (v : R * option R * option R) (nodes : list nat) (els : list (nat * nat)) : epart R :=
  mkPart (KRod (Some (fst (fst v))) (snd (fst v)) (snd v)) nodes els.
(** the model parts of a joined track as the scripts set them up (run_rose/demo.py 90-148): rail, rail pads, sleepers and the soil of
    each segment with its own values *)
Definition joined_parts (j : joined) (rail : beam R) (pad : R * option R * option R) (sleeper : R) (soils : list (R * option R * option R)) : list (epart R) :=
  mkPart (KRail rail) (jn_rail_nodes j) (jn_rail_els j) :: springs pad (jn_pad_nodes j) (jn_pad_els j) :: mkPart (KPoint sleeper) (jn_sleepers j) [] ::
  map (fun q => springs (snd q) (fst (fst q)) (snd (fst q))) (combine (jn_soil j) soils).
(** the constraint at the sides (run_rose/demo.py 138-139) *)
Definition joined_sides (j : joined) : list nat * tri bool := ([hd 0%nat (jn_rail_nodes j); last (jn_rail_nodes j) 0%nat], T3 false true true).

(** the constraints at the bottom of the soil of each segment (run_rose/demo.py 97) and at the sides *)
Definition script_constraints (j : joined) (c : heap R) (cs : list (list nat * tri bool)) : Prop :=
  exists bottoms, mapr (fun part => bottom_boundary c (map (fun e => [fst e; snd e]) (snd part))) (jn_soil j) = Ok bottoms /\
    cs = joined_sides j :: map fixed_nodes bottoms.

(** rails and sleepers can move vertically, the lower ends of the soil cannot *)
Definition joined_stands (j : joined) (ns : list (node R)) : Prop :=
  (forall p, In p (jn_rail_nodes j) \/ In p (jn_sleepers j) -> number_of ns p DY <> None) /\
  (forall part e, In part (jn_soil j) -> In e (snd part) -> number_of ns (snd e) DY = None).

(** forces of the soil: for each segment its own stiffness (or damping) times the vertical motion of its sleepers *)
Definition soils_sum (j : joined) (soils : list (R * option R * option R)) (value : R * option R * option R -> R) (u : nat -> dir -> R) : R :=
  nsum (map (fun q => nsum (map (fun e => value (snd q) * u (fst e) DY) (snd (fst q)))) (combine (jn_soil j) soils)).
Definition stiffness_of (v : R * option R * option R) : R := fst (fst v).
Definition damping_of (v : R * option R * option R) : R := or_zero (snd (fst v)).
Definition mass_of (v : R * option R * option R) : R := or_zero (snd v).

(** vertical momentum of a joined track with rail elements of length [l]; the soil moves with a third of the velocity of the sleeper, as
    its lower end is at rest *)
Definition joined_momentum (j : joined) (l : R) (rail : beam R) (pad : R * option R * option R) (sleeper : R) (soils : list (R * option R * option R))
    (v : nat -> dir -> R) : R :=
  nsum (map (fun e => b_rho rail * b_A rail * l *
                 ((v (fst e) DY + v (snd e) DY) / 2 + l * (v (fst e) DR - v (snd e) DR) / 12)) (jn_rail_els j)) +
  nsum (map (fun e => mass_of pad * ((v (fst e) DY + v (snd e) DY) / 2)) (jn_pad_els j)) +
  nsum (map (fun i => sleeper * v i DY) (jn_sleepers j)) +
  soils_sum j soils (fun s => mass_of s / 3) v.

(** ** a hinge in the rail *)

(** a hinge at [x] is at the rail node with number [i], with at least two rail elements on each side; the node is the first one that the
    code takes for lying at [x] *)
Definition hinge_at (c : heap R) (nodes : list nat) (x : R) (i : nat) : Prop :=
  (2 <= i)%nat /\ (i + 3 <= length nodes)%nat /\ near (tx (c (nth i nodes 0%nat))) x /\ forall q, (q < i)%nat -> ~ near (tx (c (nth q nodes 0%nat))) x.
