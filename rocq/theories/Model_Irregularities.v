(** * Model of rose/model/irregularities.py: rail defects and wheel flats ([RailIrregularities] is in Model_Train.v) *)

From Coq Require Import Reals List Bool ZArith Arith.
From Verif Require Import Num PyBase Model_Element.
Import ListNotations.

(** numpy [arcsin], for arguments between -1 and 1 (numpy gives nan for others) (irregularities.py 132) *)
Class ArcSin (T : Type) := { narcsin : T -> T }.
#[global] Instance RArcSin : ArcSin R := {| narcsin := asin |}.

Section Irregularities.
  Context {T : Type} `{Num T} `{Trig T} `{ArcSin T}.
  Local Open Scope num_scope.

  (** [max] of two numbers, irregularities.py 100-104 *)
  Definition nmax (a b : T) : T := if a <=? b then b else a.

  (** irregularities.py 30-36: the vertices of the profile, with the ends of the track added at height zero *)
  Definition defect_vertices (first last start : T) (local : list (T * T)) : list (T * T) :=
    (first, lit 0) :: map (fun p => (fst p + start, snd p)) local ++ [(last, lit 0)].

  (** irregularities.py 44-56: candidate height of the wheel at [x] on a vertex, [None] is minus infinity *)
  Definition vertex_height (radius x : T) (v : T * T) : option T :=
    let dx := x - fst v in
    if nabs dx <=? radius then Some (snd v + nsqrt (nmax (lit 0) (sq radius - sq dx)) - radius) else None.

  (** irregularities.py 58-98: candidate height on the segment between two consecutive vertices.  For a segment of length
      zero numpy divides by zero: the normal is nan, and comparisons with nan are false *)
  Definition segment_height (radius x : T) (a b : T * T) : option T :=
    let dx := fst b - fst a in
    let dy := snd b - snd a in
    let len := nsqrt (sq dx + sq dy) in
    if neqb len (lit 0) then None
    else
      let nx := - dy / len in
      let ny := dx / len in
      let seg_start := fst a + nx * radius in
      let seg_end := fst b + nx * radius in
      let slope := if neqb dx (lit 0) then lit 0 else dy / dx in
      if (seg_start <=? x) && (x <=? seg_end)
      then Some (snd a + ny * radius + slope * (x - seg_start) - radius)
      else None.
  (** irregularities.py 58-98 for all segments *)
  Fixpoint segment_heights (radius x : T) (vs : list (T * T)) : list (option T) :=
    match vs with
    | a :: ((b :: _) as r) => segment_height radius x a b :: segment_heights radius x r
    | _ => []
    end.

  (** irregularities.py 100-104: the largest candidate; [None] is minus infinity *)
  Definition omax (a b : option T) : option T :=
    match a, b with
    | None, b => b
    | a, None => a
    | Some a, Some b => Some (nmax a b)
    end.
  (** irregularities.py 40-104 for one position *)
  Definition wheel_height (radius : T) (vs : list (T * T)) (x : T) : option T :=
    fold_left omax (map (vertex_height radius x) vs ++ segment_heights radius x vs) None.

  (** irregularities.py 15-104, [RailDefect.__init__]; an irregularity [None] is (plus) infinite *)
  Definition rail_defect (x_track : list T) (diameter : T) (local : list (T * T)) (start : T) : res (list (option T)) :=
    match x_track with
    | [] => Err ErrIndex
    | first :: _ =>
        let radius := diameter / lit 2 in
        let vs := defect_vertices first (last x_track first) start local in
        Ok (map (fun x => option_map nopp (wheel_height radius vs x)) x_track)
    end.

  (** irregularities.py 106-163, [WheelFlat.__init__]; [rng seed 0] is the first number of [default_rng(seed).random]; the
      positions are floats (for integers numpy would round the irregularity to an integer) *)
  Definition flat_height (diameter flatness : T) : T :=
    let half_angle := narcsin (flatness / diameter) in
    diameter / lit 2 - diameter / lit 2 * ncos half_angle.
  (** irregularities.py 155-159: the samples at which a revolution is completed *)
  Fixpoint flat_indices (tmp : list Z) (is : list nat) : list nat :=
    match is with
    | [] => []
    | i :: r => if Z.ltb (nth (i - 1) tmp 0%Z) (nth i tmp 0%Z) then i :: flat_indices tmp r else flat_indices tmp r
    end.
  (** irregularities.py 106-163 *)
  Definition wheel_flat (rng : nat -> nat -> T) (x : list T) (diameter flatness : T) (start : option T) (seed : nat) : res (list T) :=
    let circumference := npi * diameter in
    let height := flat_height diameter flatness in
    let x := match start with
             | None => map (fun p => p + rng seed 0%nat * circumference) x
             | Some s => map (fun p => p - s) x
             end in
    let tmp := map (fun p => nceil (p / circumference)) x in
    let idx := flat_indices tmp (seq 1 (length tmp - 2)) in
    match idx with
    | [] => Err ErrIndex        (* an empty array of floats is no index *)
    | _ => Ok (fold_left (fun l i => lset l i (- height)) idx (repeat (lit 0) (length x)))
    end.
End Irregularities.
