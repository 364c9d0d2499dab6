(** * Vocabulary for statements about generated trains *)

From Coq Require Import Reals List Bool ZArith Arith.
From Verif Require Import Num PyBase Model_Train Model_DefaultTrains Spec_Train.
Import ListNotations.
Local Open Scope R_scope.

(** vehicle [i] occupies an interval of its length around its position; no two vehicles overlap *)
Definition no_overlap (positions lengths : list R) : Prop :=
  length lengths = length positions /\
  forall i j, (i < length positions)%nat -> (j < length positions)%nat -> i <> j ->
    (nth i lengths 0 + nth j lengths 0) / 2 <= Rabs (nth i positions 0 - nth j positions 0).

(** bogie [b] has position [x] seen from one of its carts *)
Definition seen_at (g : generated R) (b : nat) (x : R) : Prop :=
  exists q c i, nth_error (tn_carts (gn_train g)) q = Some c /\ nth_error (ct_bogies c) i = Some b /\
    x = nth q (gn_positions g) 0 + nth i (ct_bogie_distances c) 0.

(** sum of the distribution factors of bogie [b] over all carts on it *)
Definition carried (tn : train R) (b : nat) : R :=
  nsum (map (fun c => sumn (length (ct_bogies c)) (fun i => if Nat.eqb (nth i (ct_bogies c) 0%nat) b then weight (ct_factor c) i else 0)) (tn_carts tn)).

(** distances that lie symmetrically about the centre *)
Definition symmetric (ds : list R) : Prop := map Ropp ds = rev ds.
