(** * Vocabulary for statements about rail defects and wheel flats *)

From Coq Require Import Reals List ZArith.
Import ListNotations.
Local Open Scope R_scope.

(** the rail profile: the polyline through the points of the list *)
Definition on_segment (a b p : R * R) : Prop :=
  exists t, 0 <= t <= 1 /\ fst p = (1 - t) * fst a + t * fst b /\ snd p = (1 - t) * snd a + t * snd b.
Inductive on_profile : list (R * R) -> R * R -> Prop :=
| on_first a b r p : on_segment a b p -> on_profile (a :: b :: r) p
| on_later a r p : on_profile r p -> on_profile (a :: r) p.

(** the profile runs from left to right (vertical steps are allowed) *)
Fixpoint rightwards (vs : list (R * R)) : Prop :=
  match vs with
  | a :: ((b :: _) as r) => fst a <= fst b /\ rightwards r
  | _ => True
  end.

(** the profile of a track from [first] to [last] with a defect starting at [start] *)
Definition profile (first last start : R) (local : list (R * R)) : list (R * R) :=
  [(first, 0)] ++ map (fun p => (fst p + start, snd p)) local ++ [(last, 0)].

(** a point touches the wheel with centre [c] and the given radius from below; the wheel is clear of the point: it would
    have to move down to touch it *)
Definition distance (p q : R * R) : R := sqrt ((fst p - fst q) ^ 2 + (snd p - snd q) ^ 2).
Definition touches (radius : R) (c p : R * R) : Prop := distance c p = radius /\ snd p <= snd c.
Definition clear (radius : R) (c p : R * R) : Prop := radius <= distance c p /\ (Rabs (fst p - fst c) <= radius -> snd p <= snd c).

(** between two positions [a] and [b] the wheel completes a revolution: it passes a multiple of the circumference *)
Definition passes (circumference a b : R) : Prop := exists k : Z, a <= IZR k * circumference < b.
