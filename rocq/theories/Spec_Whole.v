(** * Vocabulary for the vertical balance of a train on a track *)

From Coq Require Import Reals List Bool Arith ZArith.
From Verif Require Import Num PyBase Model_Geometry Model_System Model_Element Model_Mesh Model_Track Model_Coupled Model_Moving Model_Train Model_TrainMesh
  Spec_System Spec_Element Spec_Train Spec_TrainMesh Spec_TrainSystem Spec_Track Spec_Balance.
Import ListNotations.
Local Open Scope R_scope.

(** all parts of a train whose bogies are listed by [bs] *)
Definition parts_of (tn : train R) (bs : list nat) : list part :=
  map PCart (seq 0 (length (tn_carts tn))) ++ flat_map (fun b => PBogie b :: map (PWheel b) (seq 0 (n_wheels tn b))) bs.

(** the vertical value of a part in a vector on the degrees of freedom of the train *)
Definition part_value (st : tstate R) (f : nat -> R) (p : part) : R := match number_of_part st p DY with Some k => f k | None => 0 end.

(** the sum over all parts *)
Definition over_parts (tn : train R) (bs : list nat) (f : part -> R) : R := nsum (map f (parts_of tn bs)).

(** vertical momentum of the train: mass times velocity of carts, bogies and wheels *)
Definition train_momentum (tn : train R) (bs : list nat) (st : tstate R) (v : nat -> R) : R :=
  over_parts tn bs (fun p => own_mass tn p DY * part_value st v p).

(** the springs of every cart and every bogie are placed evenly about its centre *)
Definition even_springs (tn : train R) : Prop :=
  forall c, In c (tn_carts tn) -> imbalance (ct_factor c) (ct_bogie_distances c) (length (ct_bogies c)) = 0 /\
    forall b, In b (ct_bogies c) -> imbalance (bg_factor (bogie_of tn b)) (bg_wheel_distances (bogie_of tn b)) (n_wheels tn b) = 0.

(** every part keeps its vertical direction *)
Definition parts_free (tn : train R) (st : tstate R) : Prop := forall p, is_part tn p -> number_of_part st p DY <> None.

(** a wheel stands between two nodes of the rail: it acts on the vertical direction and the rotation of both *)
Definition between (t : track R) (ns : list (node R)) (c : contact R) : Prop :=
  exists p q l phi x, In p (tk_rail_nodes t) /\ In q (tk_rail_nodes t) /\ l <> 0 /\ 1 + phi <> 0 /\
    cn_dofs c = [number_of ns p DY; number_of ns p DR; number_of ns q DY; number_of ns q DR] /\ cn_shape c = map (y_shape l phi x) (seq 0 4).

(** the contacts belong to wheels of the train, whose numbers follow the [nt] numbers of the track *)
Definition wheels_of (tn : train R) (st : tstate R) (nt : nat) (ks : list nat) : Prop :=
  forall k, In k ks -> exists b i j, is_part tn (PWheel b i) /\ number_of_part st (PWheel b i) DY = Some j /\ k = (nt + j)%nat.

(** the vertical components of a vector on all degrees of freedom, those of the track and those of the train behind them *)
Definition whole (ns : list (node R)) (tn : train R) (bs : list nat) (st : tstate R) (nt : nat) (f : nat -> R) : R :=
  vertical ns f + over_parts tn bs (part_value st (fun i => f (nt + i)%nat)).
