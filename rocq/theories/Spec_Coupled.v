(** * Vocabulary for statements about the coupled system *)

From Coq Require Import Reals List Bool Arith.
From Verif Require Import Num PyBase Model_Geometry Model_System Model_Element Model_Moving Model_Coupled Spec_Element Spec_Moving.
Import ListNotations.
Local Open Scope R_scope.

(** penetration of a wheel into the rail: rail surface minus wheel *)
Definition penetration (irregularity du : R) : R := - irregularity - du.

(** what the wheels put on degree of freedom [k]: all wheels with their shape factors, in the order of the wheels *)
Definition contributions (cs : list (contact R)) (loads : list R) (k : nat) : list R :=
  flat_map (fun cl => flat_map (fun p => match fst p with
                                          | Some i => if Nat.eqb i k then [snd p * snd cl] else []
                                          | None => [] end) (combine (cn_dofs (fst cl)) (cn_shape (fst cl)))) (combine cs loads).

(** the degrees of freedom under the wheels, with repetitions *)
Definition touched (cs : list (contact R)) : list nat :=
  flat_map (fun c => flat_map (fun o => match o with Some i => [i] | None => [] end) (cn_dofs c)) cs.

(** a contact has four degrees of freedom and four factors *)
Definition four (c : contact R) : Prop := length (cn_dofs c) = 4%nat /\ length (cn_shape c) = 4%nat.

(** a contact on an element of length [l] at distance [x] with active vertical degrees of freedom [i] and [j] *)
Definition on_rail (c : contact R) (i j : nat) : Prop :=
  exists l phi x ri rj, l <> 0 /\ 1 + phi <> 0 /\ cn_dofs c = [Some i; ri; Some j; rj] /\ cn_shape c = map (y_shape l phi x) (seq 0 4).

(** displacement of the rail at a contact: interpolation of the four values, a fixed degree of freedom being zero *)
Definition value_at (u : list R) (o : option nat) : R := match o with Some i => nth i u 0 | None => 0 end.
Definition rail_at (u : list R) (c : contact R) : R := sumn 4 (fun j => value_at u (nth j (cn_dofs c) None) * nth j (cn_shape c) 0).

(** displacement of wheel [w] relative to the rail, from the static state *)
Definition wheel_gap (ia : interaction R) (u : list R) (w : nat) : R :=
  nth (nth w (ia_train_dofs ia) 0%nat) u 0 + nth w (ia_static ia) 0 - rail_at u (nth w (ia_contacts ia) (mkContact [] [])).

(** the data of a time step belong to a model with [nt] degrees of freedom of the track followed by those of the
    train, [n] in all *)
Definition fits (ia : interaction R) (nt n : nat) : Prop :=
  ia_G ia <> 0 /\ (nt <= n)%nat /\ length (ia_contacts ia) = length (ia_train_dofs ia) /\
  length (ia_static ia) = length (ia_train_dofs ia) /\ length (ia_irr ia) = length (ia_train_dofs ia) /\
  (forall c, In c (ia_contacts ia) -> four c) /\ (forall i, In i (touched (ia_contacts ia)) -> (i < nt)%nat) /\
  NoDup (ia_train_dofs ia) /\ (forall i, In i (ia_train_dofs ia) -> (nt <= i < n)%nat).

(** consecutive elements of a polyline: element [i] joins listed node [i] to listed node [i+1] *)
Definition polyline (nodes : list nat) (elements : list (nat * nat)) : Prop :=
  length nodes = S (length elements) /\
  forall i e, nth_error elements i = Some e -> nth_error nodes i = Some (fst e) /\ nth_error nodes (S i) = Some (snd e).

(** a position before all or beyond all rail nodes by more than single precision round-off *)
Definition float32_eps : R := / 2 ^ 23.
Definition outside (rail : list R) (d : R) : Prop := (forall x, In x rail -> d < x - float32_eps) \/ (forall x, In x rail -> x + float32_eps < d).

(** rail on the line y = z = 0 with nodes at the given x coordinates *)
Definition line (xs : list R) : list (tri R) := map (fun x => T3 x 0 0) xs.
