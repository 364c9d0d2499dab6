(** * Vocabulary for statements about moving loads *)

From Coq Require Import Reals List Bool Arith.
From Verif Require Import Num PyBase Model_Geometry Model_System Model_Element Model_Moving Spec_Element.
Import ListNotations.
Local Open Scope R_scope.

(** linear ramp over [n] steps, then the full load *)
Definition ramp (load : R) (n t : nat) : R :=
  if Nat.ltb t n then load * INR t / INR (n - 1) else load.

(** the values of a list rise strictly *)
Definition rising (l : list R) : Prop := forall i, (S i < length l)%nat -> nth i l 0 < nth (S i) l 0.

(** distance travelled up to step [t] *)
Definition travelled (time velocities : list R) (start : R) (t : nat) : R :=
  start + sumn t (fun i => (nth (S i) time 0 - nth i time 0) * nth i velocities 0).

(** position along the track of node [k] *)
Definition at_node (coords : list (tri R)) (k : nat) : tri R := nth k coords (T3 0 0 0).
Definition node_position (coords : list (tri R)) (k : nat) : R :=
  sumn k (fun i => dist3 (at_node coords i) (at_node coords (S i))).
Definition track_length (coords : list (tri R)) : R := node_position coords (length coords - 1).

(** [P] is the point of the track at distance [s] from its first node *)
Definition at_distance (coords : list (tri R)) (s : R) (P : tri R) : Prop :=
  exists k a, (S k < length coords)%nat /\ 0 <= a <= 1 /\
    s = node_position coords k + a * dist3 (at_node coords k) (at_node coords (S k)) /\
    tx P = tx (at_node coords k) + a * (tx (at_node coords (S k)) - tx (at_node coords k)) /\
    ty P = ty (at_node coords k) + a * (ty (at_node coords (S k)) - ty (at_node coords k)).

(** element [k] belongs to part [p], the parts having the given numbers of elements in track order *)
Definition owner (sizes : list nat) (k p : nat) : Prop :=
  (p < length sizes)%nat /\ (list_sum (firstn p sizes) <= k < list_sum (firstn (S p) sizes))%nat.

(** an element history that stays or moves to the next element in every step *)
Definition stepwise (els : list nat) : Prop :=
  forall t, (S t < length els)%nat -> nth (S t) els 0%nat = nth t els 0%nat \/ nth (S t) els 0%nat = S (nth t els 0%nat).

(** the element direction is found exactly: not within 1e-9 of vertical unless exactly vertical *)
Definition clear_direction (p q : tri R) : Prop :=
  1 / 1000000000 * Rmax (Rabs (tx q)) (Rabs (tx p)) < Rabs (tx q - tx p) \/ tx q = tx p.

(** resultants of nodal forces: force in x and y, and moment about the point [o] *)
Definition total (v : list R) : R := sumn (length v) (fun i => nth i v 0).
Definition total_moment (coords : list (tri R)) (o : R * R) (fx fy mz : list R) : R :=
  sumn (length coords) (fun i => nth i mz 0 + (tx (at_node coords i) - fst o) * nth i fy 0
                                 - (ty (at_node coords i) - snd o) * nth i fx 0).
(** moment about [o] of the load [f] acting at [P] *)
Definition load_moment (P : tri R) (o : R * R) (f : tri R) : R :=
  tr f + (tx P - fst o) * ty f - (ty P - snd o) * tx f.

(** nodal forces equivalent to the load [f] acting at [P] *)
Definition equivalent (coords : list (tri R)) (fx fy mz : list R) (P f : tri R) : Prop :=
  total fx = tx f /\ total fy = ty f /\ forall o, total_moment coords o fx fy mz = load_moment P o f.

(** elements joining consecutive nodes *)
Definition chain (n : nat) : list (nat * nat) := map (fun k => (k, S k)) (seq 0 n).

(** ** a moving load on a track *)

(** one length of element [k] *)
Definition element_length (coords : list (tri R)) (k : nat) : R := dist3 (at_node coords k) (at_node coords (S k)).

(** where the load starts *)
Definition start_of (m : moving_input R) : R := match mi_start m with Some s => s | None => 0 end.

(** the load components that act at step [t] if the load is on the track *)
Definition ramped (m : moving_input R) (t : nat) : tri R :=
  let comp p := match p with Some q => ramp q (mi_n_ini m) t | None => 0 end in
  T3 (comp (mi_x m)) (comp (mi_y m)) (comp (mi_z m)).

(** track in a vertical plane with elements of positive length joining consecutive nodes *)
Definition plain_track (m : moving_input R) : Prop :=
  let coords := mi_coords m in let n := length coords in
  (2 <= n)%nat /\ mi_elements m = chain (n - 1) /\
  forall k, (S k < n)%nat -> tr (at_node coords (S k)) = tr (at_node coords k) /\
    0 < element_length coords k /\ clear_direction (at_node coords k) (at_node coords (S k)).

(** the load starts on the track, runs forward, and does not pass an element in a single step *)
Definition slow_run (m : moving_input R) : Prop :=
  length (mi_velocities m) = length (mi_time m) /\ mi_time m <> [] /\ (mi_n_ini m <= length (mi_time m))%nat /\
  0 <= start_of m < track_length (mi_coords m) /\
  forall t, (S t < length (mi_time m))%nat ->
    let step := (nth (S t) (mi_time m) 0 - nth t (mi_time m) 0) * nth t (mi_velocities m) 0 in
    0 <= step /\ forall k, (S k < length (mi_coords m))%nat -> step <= element_length (mi_coords m) k.

(** the beams are those of the contact parts: right element length, parts non-empty and in track order; the load
    starts on the first or the second part *)
Definition right_parts (m : moving_input R) (beams : list (R * R)) : Prop :=
  match mi_sizes m with
  | None => exists l phi, nth_error beams 0 = Some (l, phi) /\ 1 + phi <> 0 /\
              forall k, (S k < length (mi_coords m))%nat -> element_length (mi_coords m) k = l
  | Some sizes => (forall s, In s sizes -> (1 <= s)%nat) /\ list_sum sizes = (length (mi_coords m) - 1)%nat /\
      start_of m < node_position (mi_coords m) (list_sum (firstn 2 sizes)) /\
      forall k p, owner sizes k p -> exists phi, nth_error beams p = Some (element_length (mi_coords m) k, phi) /\ 1 + phi <> 0
  end.

(** a force or a moment, not both *)
Definition force_or_moment (m : moving_input R) : Prop := mi_z m = None \/ (mi_x m = None /\ mi_y m = None).

(** one step of the load is not longer than any element and not backward *)
Definition small_step (nodes : list R) (a b : R) : Prop :=
  0 <= b - a /\ forall k, (S k < length nodes)%nat -> b - a <= nth (S k) nodes 0 - nth k nodes 0.

(** element [e] contains position [s], the last element also what lies beyond the track *)
Definition contains (nodes : list R) (e : nat) (s : R) : Prop :=
  (S e < length nodes)%nat /\ nth e nodes 0 <= s /\ (s <= nth (S e) nodes 0 \/ S (S e) = length nodes).

(** a load on the element from node [i] to node [j], at distance [x] from node [i], that is at the point [P] *)
Definition on_element (coords : list (tri R)) (l phi : R) (i j : nat) (x : R) (P : tri R) : Prop :=
  let p := at_node coords i in let q := at_node coords j in
  (i < length coords)%nat /\ (j < length coords)%nat /\
  l = plane_dist (tx p, ty p) (tx q, ty q) /\ 0 < l /\ 1 + phi <> 0 /\ clear_direction p q /\
  tx P = tx p + x / l * (tx q - tx p) /\ ty P = ty p + x / l * (ty q - ty p).

(** the force vectors have an entry per node *)
Definition sized (n : nat) (st : mstate R) : Prop :=
  length (st_x st) = n /\ length (st_y st) = n /\ length (st_z st) = n.

(** the nodal values a static load condition prescribes at step [t] *)
Definition static_values (c : condition R) (t : nat) : list (tri R) :=
  match k_load c with
  | Static mx my mz => map (fun i => T3 (mx i t) (my i t) (mz i t)) (seq 0 (length (k_nodes c)))
  | Moving _ _ _ => []
  end.
Definition is_static (c : condition R) : Prop := exists mx my mz, k_load c = Static mx my mz.
