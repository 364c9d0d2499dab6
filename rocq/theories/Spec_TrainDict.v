(** * Vocabulary for statements about trains described by one vehicle *)

From Coq Require Import Reals List Arith.
From Verif Require Import Num PyBase Model_Train Model_DefaultTrains.
Import ListNotations.
Local Open Scope R_scope.

(** A train of vehicles of one kind: all carts alike, all bogies alike, all wheels alike; every bogie is under one cart, in the order of
    the carts; no cart or bogie has distribution factors of its own *)
Record one_kind (g : generated R) : Prop := {
  ok_carts : forall c c', In c (tn_carts (gn_train g)) -> In c' (tn_carts (gn_train g)) ->
    ct_mass c = ct_mass c' /\ ct_inertia c = ct_inertia c' /\ ct_k c = ct_k c' /\ ct_c c = ct_c c' /\ ct_bogie_distances c = ct_bogie_distances c';
  ok_plain : forall c, In c (tn_carts (gn_train g)) -> ct_factor c = [] /\ length (ct_bogies c) = length (ct_bogie_distances c);
  ok_own : flat_map (@ct_bogies R) (tn_carts (gn_train g)) = seq 0 (length (tn_bogies (gn_train g)));
  ok_bogies : forall b b', In b (tn_bogies (gn_train g)) -> In b' (tn_bogies (gn_train g)) -> b = b';
  ok_wheels : forall b, In b (tn_bogies (gn_train g)) -> bg_factor b = [] /\ length (bg_wheels b) = length (bg_wheel_distances b) /\
    forall w w', In w (bg_wheels b) -> In w' (bg_wheels b) -> w = w';
  ok_lengths : length (gn_lengths g) = length (tn_carts (gn_train g)) /\ forall l l', In l (gn_lengths g) -> In l' (gn_lengths g) -> l = l';
  ok_places : length (gn_positions g) = length (tn_carts (gn_train g));
  ok_bogie_lengths : length (gn_bogie_lengths g) = length (tn_bogies (gn_train g)) /\ forall l l', In l (gn_bogie_lengths g) -> In l' (gn_bogie_lengths g) -> l = l' }.

(** there is a wheel under every bogie and a bogie under every cart, and there is a cart *)
Definition on_wheels (g : generated R) : Prop :=
  tn_carts (gn_train g) <> [] /\ (forall c, In c (tn_carts (gn_train g)) -> ct_bogies c <> []) /\ (forall b, In b (tn_bogies (gn_train g)) -> bg_wheels b <> []).
