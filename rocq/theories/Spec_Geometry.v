(** * Vocabulary for statements about nodes and meshes (independent of the model functions) *)

From Coq Require Import Reals List ZArith.
From Verif Require Import Num PyBase.
Import ListNotations.
Local Open Scope R_scope.

(** two points coincide when no coordinate differs by more than 1e-9 *)
Definition coincide (a b : tri R) : Prop :=
  forall d, Rabs (tget a d - tget b d) <= 1 / 1000000000.

(** no two entries at different positions are related by [P] *)
Definition pairwise_not {A} (P : A -> A -> Prop) (l : list A) : Prop :=
  forall i j a b, i <> j -> nth_error l i = Some a -> nth_error l j = Some b -> ~ P a b.

Definition is_prefix {A} (p l : list A) : Prop := exists r, l = p ++ r.

Definition injective {A B} (f : A -> B) : Prop := forall x y, f x = f y -> x = y.

(** coordinates rounded to nine decimals (in units of 1e-9) *)
Definition rounded9 (c : tri R) : tri Z := T3 (round9 (tx c)) (round9 (ty c)) (round9 (tr c)).

(** [v] restricted to the directions selected by [f], in the order x, y, rotation *)
Definition selected {A} (f : tri bool) (v : tri A) : list A :=
  (if tx f then [tx v] else []) ++ (if ty f then [ty v] else []) ++ (if tr f then [tr v] else []).
