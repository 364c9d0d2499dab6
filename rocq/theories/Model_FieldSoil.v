(** * Model of the scripts with a random field of soil: run_rose/demo_rf.py 297-309 and 127-130, run_rose/demo_semi_rigid_rf.py 321-329 and 141-144 *)

From Coq Require Import List Bool ZArith Arith.
From Verif Require Import Num PyBase Model_Accumulation Model_Misc Model_Demo.
Import ListNotations.

Section Field.
  Context {T : Type} `{Num T} `{ExpLog T}.
  Local Open Scope num_scope.
  (** [gs.SRF] (random_field.py 35-39): any function of the variance, length scale, angles, mean, seed and nodes *)
  Context (srf : T -> T -> T -> T -> Z -> list T -> list T).

  (** [np.linspace(0, n, n) * 0.6], demo_rf.py 303-308 and demo_semi_rigid_rf.py 327-328 *)
  Definition field_nodes (n : nat) : list T := map (fun x => x * ndec 6 1) (linspace_nat (lit 0) (nofnat n) n).
  (** one call of [create_rf] in demo_rf.py 303-308: variation 0.25, length scale 20, angle 0, seed 14, not log-normal *)
  Definition script_field (mean : T) (n : nat) : option (list T) := create_rf srf mean (ndec 25 2) (lit 20) (lit 0) (field_nodes n) 14 false.
  (** demo_rf.py 303-309 (one entry of [ms] in demo_semi_rigid_rf.py 327-328): a field for each stretch, given by its mean and its
      number of sleepers, one after the other ([np.hstack]) *)
  Fixpoint stacked (ms : list (T * nat)) : option (list T) :=
    match ms with
    | [] => Some []
    | (mean, n) :: r =>
        match script_field mean n, stacked r with
        | Some a, Some b => Some (a ++ b)
        | _, _ => None
        end
    end.

  (** demo_rf.py 127-130: part [idx] of the soil gets the values number [idx].  Simplified: the parts are given by their number *)
  Definition assign_soil (parts : nat) (soil : list T * list T) : res (list (T * T)) :=
    mapr (fun idx => do k <- at_idx (fst soil) idx ; do c <- at_idx (snd soil) idx ; Ok (k, c)) (seq 0 parts).

  (** demo_rf.py 297-309, 338-342 and 127-130: the soil of a track with one segment for each of [n] sleepers.  Stretches have a mean
      stiffness, a mean damping and a number of sleepers; a field that is not a number raises *)
  Definition field_soil (n : nat) (stretches : list (T * T * nat)) : res (list (T * T)) :=
    match stacked (map (fun s => (fst (fst s), snd s)) stretches), stacked (map (fun s => (snd (fst s), snd s)) stretches) with
    | Some ks, Some cs => assign_soil n (soil_parameters (ndec 6 1 * lit 1) ks cs)
    | _, _ => Err ErrOther
    end.
End Field.
