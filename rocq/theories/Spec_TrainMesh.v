(** * Vocabulary for the nodes of a train *)

From Coq Require Import Reals List.
From Verif Require Import Num PyBase Model_Geometry Model_System Model_Element Model_Moving Model_Train Model_TrainMesh.
Import ListNotations.
Local Open Scope R_scope.

(** the parts a train consists of: its carts, the bogies of its carts and the wheels of these *)
Definition is_part (tn : train R) (p : part) : Prop :=
  let in_train b := exists c, In c (tn_carts tn) /\ In b (ct_bogies c) in
  match p with
  | PCart i => (i < length (tn_carts tn))%nat
  | PBogie b => in_train b
  | PWheel b k => in_train b /\ (k < length (bg_wheels (bogie_of tn b)))%nat
  end.

(** height at which a part is drawn *)
Definition level (p : part) : R := match p with PCart _ => 2 | PBogie _ => 1 | PWheel _ _ => 0 end.

(** different parts of one kind do not start at the same place *)
Definition parts_apart (tn : train R) (x : part -> R) : Prop :=
  forall p q, is_part tn p -> is_part tn q -> p <> q -> level p = level q -> 1 / 1000000000 < Rabs (x p - x q).

(** the numbers of a part, given those of the carts and of the bogies with their wheels *)
Definition part_numbers (carts : list (nat * nat)) (bogies : list (nat * bdof)) (p : part) : tri (option nat) :=
  match p with
  | PCart i => match nth_error carts i with Some (y, r) => T3 None (Some y) (Some r) | None => T3 None None None end
  | PBogie b => match dof_of b bogies with Some d => T3 None (Some (bd_y d)) (Some (bd_r d)) | None => T3 None None None end
  | PWheel b k => match dof_of b bogies with Some d => T3 None (nth_error (bd_wheels d) k) None | None => T3 None None None end
  end.

(** numbers raised by [nt] *)
Definition raised (nt : nat) (d : tri (option nat)) : tri (option nat) :=
  let f := option_map (fun k => (k + nt)%nat) in T3 (f (tx d)) (f (ty d)) (f (tr d)).

(** the identities of the nodes in the mesh have been given out *)
Definition sound (st : tstate R) : Prop := forall id, In id (ts_mesh st) -> (id < ts_next st)%nat.

(** parts of one kind start at the same place or clearly not *)
Definition same_place (x : part -> R) (p q : part) : Prop := level p = level q /\ x p = x q.
Definition aligned (tn : train R) (x : part -> R) : Prop :=
  forall p q, is_part tn p -> is_part tn q -> level p = level q -> x p = x q \/ 1 / 1000000000 < Rabs (x p - x q).
