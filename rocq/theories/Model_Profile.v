(** * Model of profiles along the track: rose/post_processing/plot_profile.py

    Drawing is not modelled: the model returns the three lists that are drawn (distance, mean and standard deviation). *)

From Coq Require Import List Bool ZArith Arith.
From Verif Require Import Num PyBase Model_Accumulation.
Import ListNotations.

Section Profile.
  Context {T : Type} `{Num T}.
  Local Open Scope num_scope.

  (** plot_profile.py 16-17, [compute_distance]: coordinates are pairs *)
  Definition compute_distance (a b : T * T) : T :=
    nsqrt ((fst a - fst b) * (fst a - fst b) + (snd a - snd b) * (snd a - snd b)).

  (** [numpy.cumsum] after a value (plot_profile.py 28) *)
  Fixpoint cumulate (s : T) (l : list T) : list T :=
    match l with
    | [] => []
    | a :: r => (s + a) :: cumulate (s + a) r
    end.
  (** lengths of the steps between consecutive coordinates (plot_profile.py 27-28) *)
  Fixpoint step_lengths (coords : list (T * T)) : list T :=
    match coords with
    | a :: ((b :: _) as r) => compute_distance b a :: step_lengths r
    | _ => []
    end.
  (** plot_profile.py 19-32, [compute_cumulative_distance]: without coordinates the differences have no second axis *)
  Definition compute_cumulative_distance (coords : list (T * T)) : res (list T) :=
    match coords with
    | [] => Err ErrIndex
    | _ :: _ => Ok (lit 0 :: cumulate (lit 0) (step_lengths coords))
    end.

  (** [numpy.average] with weights: other numbers of weights raise [TypeError], weights that add up to zero [ZeroDivisionError]
      (plot_profile.py 43-44) *)
  Definition np_average (values weights : list T) : res T :=
    if negb (Nat.eqb (length values) (length weights)) then Err ErrType
    else if neqb (nsum weights) (lit 0) then Err ErrZeroDivision
    else Ok (nsum (map (fun p => fst p * snd p) (combine values weights)) / nsum weights).
  (** plot_profile.py 34-46, [weighted_avg_and_std]; the square root of a negative variance (negative weights) is NaN and not modelled *)
  Definition weighted_avg_and_std (values weights : list T) : res (T * T) :=
    do average <- np_average values weights ;
    do variance <- np_average (map (fun v => (v - average) * (v - average)) values) weights ;
    Ok (average, nsqrt variance).

  (** [numpy.argmin]: the first smallest (plot_profile.py 51, 84 and 119) *)
  Fixpoint argmin_after (k best : nat) (bv : T) (l : list T) : nat :=
    match l with
    | [] => best
    | x :: r => if nltb x bv then argmin_after (S k) k x r else argmin_after (S k) best bv r
    end.
  (** [numpy.argmin] of a list; an empty one raises (plot_profile.py 51, 84 and 119) *)
  Definition argmin_list (l : list T) : res nat :=
    match l with [] => Err ErrValue | x :: r => Ok (argmin_after 1 0 x r) end.
  (** plot_profile.py 49-52, [find_nearest] *)
  Definition find_nearest (l : list T) (v : T) : res (T * nat) :=
    do i <- argmin_list (map (fun a => nabs (a - v)) l) ;
    do a <- at_idx l i ;
    Ok (a, i).

  (** a segment: its scenarios (values in time and probability) and its coordinates (plot_profile.py 92-101; dictionaries keep the order
      in which their entries were added, and the coordinates of a segment are those under the same name) *)
  Record segment := mkSegment { sg_scenarios : list (list T * T); sg_coords : list (T * T) }.

  (** plot_profile.py 92-98: mean and standard deviation of a segment at a time index *)
  Definition segment_values (t : nat) (s : segment) : res (T * T) :=
    do values <- mapr (fun sc => at_idx (fst sc) t) (sg_scenarios s) ;
    weighted_avg_and_std values (map snd (sg_scenarios s)).

  (** plot_profile.py 104-130: how a segment is joined to the coordinates so far.  The second coordinate of the segment is taken for
      its last one (lines 116-117); a segment with fewer than two raises *)
  Definition join_coords (coords seg : list (T * T)) : res (list (T * T)) :=
    match coords with
    | [] => Ok seg
    | first :: _ =>
        let last := last coords first in
        do a <- at_idx seg 0 ;
        do b <- at_idx seg 1 ;
        do closest <- argmin_list [compute_distance a first; compute_distance a last; compute_distance b first; compute_distance b last] ;
        Ok match closest with
           | 0 => rev coords ++ seg
           | 1 => coords ++ seg
           | 2 => rev coords ++ rev seg
           | _ => coords ++ rev seg
           end
    end.

  (** the lists built up by the loop over the segments: means, standard deviations and coordinates (plot_profile.py 86-90) *)
  Record profile := mkProfile { pf_mean : list T; pf_std : list T; pf_coords : list (T * T) }.
  (** plot_profile.py 92-130, the loop over the segments *)
  Fixpoint add_segments (t : nat) (p : profile) (segs : list segment) : res profile :=
    match segs with
    | [] => Ok p
    | s :: r =>
        do q <- segment_values t s ;
        let n := length (sg_coords s) in
        do coords <- join_coords (pf_coords p) (sg_coords s) ;
        add_segments t (mkProfile (pf_mean p ++ repeat (fst q) n) (pf_std p ++ repeat (snd q) n) coords) r
    end.
  (** plot_profile.py 82-133, one data set: the profile at the time nearest to [time], and the distances along it *)
  Definition make_profile (times : list T) (time : T) (segs : list segment) : res (profile * list T) :=
    do t <- argmin_list (map (fun a => nabs (a - time)) times) ;
    do p <- add_segments t (mkProfile [] [] []) segs ;
    do dist <- compute_cumulative_distance (pf_coords p) ;
    Ok (p, dist).
End Profile.

Arguments segment T : clear implicits.
Arguments profile T : clear implicits.
