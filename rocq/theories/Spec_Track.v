(** * Vocabulary for statements about whole systems *)

From Coq Require Import Reals List Bool Arith.
From Verif Require Import Num PyBase Model_Geometry Model_System Model_Element Model_Track Spec_System Spec_Element.
Import ListNotations.
Local Open Scope R_scope.

(** a displacement field gives every node, by its position in the mesh, a displacement along x, along y and a rotation.  The
    field of a solution [x] of a system: degrees of freedom without a number do not move *)
Definition field_of (ns : list (node R)) (x : nat -> R) (p : nat) (d : dir) : R :=
  match number_of ns p d with Some k => x k | None => 0 end.

(** the point of node [p] in the plane *)
Definition xy (ns : list (node R)) (p : nat) : R * R :=
  match nth_error ns p with Some n => (tx (n_coord n), ty (n_coord n)) | None => (0, 0) end.

(** components along and across an axis at angle [a] *)
Definition along (a v w : R) : R := cos a * v - sin a * w.
Definition across (a v w : R) : R := sin a * v + cos a * w.

(** the six displacements of the element from node [p] to node [q], in the axes of the element *)
Definition local6 (a : R) (u : nat -> dir -> R) (p q : nat) : nat -> R :=
  vec6 (along a (u p DX) (u p DY)) (across a (u p DX) (u p DY)) (u p DR)
       (along a (u q DX) (u q DY)) (across a (u q DX) (u q DY)) (u q DR).
(** the two displacements along the axis *)
Definition local2 (a : R) (u : nat -> dir -> R) (p q : nat) : nat -> R :=
  fun i => match i with O => along a (u p DX) (u p DY) | _ => along a (u q DX) (u q DY) end.

(** quadratic form of one element of a part with element matrix [m] *)
Definition element_form (k : kind R) (m : nat -> nat -> R) (a : R) (u : nat -> dir -> R) (p q : nat) : R :=
  match k with
  | KRod _ _ _ => quad 2 m (local2 a u p q)
  | KBeam _ | KRail _ => quad 6 m (local6 a u p q)
  | KPoint _ => 0
  end.

(** quadratic form of a part: the sum over its elements, or over its nodes when it consists of points *)
Definition part_form (aux : kind R -> option (nat -> nat -> R)) (ns : list (node R)) (u : nat -> dir -> R) (p : epart R) : R :=
  match aux (ep_kind p) with
  | None => 0
  | Some m =>
      match ep_kind p with
      | KPoint _ => nsum (map (fun i => m 0%nat 0%nat * (u i DY * u i DY)) (ep_nodes p))
      | k => nsum (map (fun e => element_form k m (calculate_rotation1 (xy ns (fst e), xy ns (snd e))) u (fst e) (snd e)) (ep_els p))
      end
  end.

(** a rail takes the distance of its first two nodes as element length *)
Definition settled (ns : list (node R)) (p : epart R) : epart R :=
  match ep_kind p, ep_nodes p with
  | KRail b, i :: j :: _ =>
      match nth_error ns i, nth_error ns j with
      | Some m, Some n =>
          mkPart (KRail (mkBeam (b_E b) (b_nu b) (b_rho b) (b_A b) (b_I b) (b_shear_factor b) (dist3 (n_coord m) (n_coord n)) (b_s1 b) (b_s2 b)))
                 (ep_nodes p) (ep_els p)
      | _, _ => p
      end
  | _, _ => p
  end.

(** points have nodes only, other parts have elements (the validation of the parts asks for this, C14) *)
Definition shaped (p : epart R) : Prop :=
  match ep_kind p with KPoint _ => ep_els p = [] | _ => ep_els p <> [] end.

(** physically sensible values *)
Definition opt_nonneg (o : option R) : Prop := match o with Some v => 0 <= v | None => True end.
Definition sound_beam (b : beam R) : Prop :=
  0 < b_E b /\ 0 < b_I b /\ 0 < b_A b /\ 0 < b_l b /\ - 1 < b_nu b /\ 0 <= b_rho b.
Definition sound (p : epart R) : Prop :=
  match ep_kind p with
  | KRod s c m => opt_nonneg s /\ opt_nonneg c /\ opt_nonneg m
  | KBeam b | KRail b => sound_beam b
  | KPoint m => 0 <= m
  end.

(** ** mass *)

(** all nodes of the part move by (ex, ey) without rotation; points need the vertical component only *)
Definition moves (u : nat -> dir -> R) (ex ey : R) (p : epart R) : Prop :=
  match ep_kind p with
  | KPoint _ => forall i, In i (ep_nodes p) -> u i DY = ey
  | KRod _ _ None => True
  | KRod _ _ (Some _) => forall e i, In e (ep_els p) -> i = fst e \/ i = snd e -> u i DX = ex /\ u i DY = ey
  | KBeam _ | KRail _ => forall e i, In e (ep_els p) -> i = fst e \/ i = snd e -> u i DX = ex /\ u i DY = ey /\ u i DR = 0
  end.

(** twice the kinetic energy of a part that moves with velocity (ex, ey): a beam has density times area times length per
    element, a point counts vertically only and a rod counts along its axis only *)
Definition moving_mass (ns : list (node R)) (ex ey : R) (p : epart R) : R :=
  match ep_kind p with
  | KPoint m => INR (length (ep_nodes p)) * m * (ey * ey)
  | KRod _ _ None => 0
  | KRod _ _ (Some m) =>
      nsum (map (fun e => let v := along (calculate_rotation1 (xy ns (fst e), xy ns (snd e))) ex ey in m * (v * v)) (ep_els p))
  | KBeam b | KRail b => INR (length (ep_els p)) * (b_rho b * b_A b * b_l b) * (ex * ex + ey * ey)
  end.
