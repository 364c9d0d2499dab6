(** * Vocabulary for the equations of a train *)

From Coq Require Import Reals List.
From Verif Require Import Num PyBase Model_Geometry Model_System Model_Element Model_Moving Model_Train Model_TrainMesh.
Import ListNotations.
Local Open Scope R_scope.

(** the mass of a part, and for the rotation its inertia *)
Definition own_mass (tn : train R) (p : part) (d : dir) : R :=
  match p, d with
  | PCart i, DY => match nth_error (tn_carts tn) i with Some c => ct_mass c | None => 0 end
  | PCart i, DR => match nth_error (tn_carts tn) i with Some c => ct_inertia c | None => 0 end
  | PBogie b, DY => bg_mass (bogie_of tn b)
  | PBogie b, DR => bg_inertia (bogie_of tn b)
  | PWheel b k, DY => nth k (bg_wheels (bogie_of tn b)) 0
  | _, _ => 0
  end.
(** the directions in which parts move *)
Definition moves (p : part) (d : dir) : Prop := match p, d with PWheel _ _, DY => True | PWheel _ _, _ => False | _, DX => False | _, _ => True end.

(** the number of a part *)
Definition number_of_part (st : tstate R) (p : part) (d : dir) : option nat := tget (n_dof (ts_store st (ts_node st p))) d.
(** not taken for zero by [numpy.isclose] *)
Definition noticed (v : R) : Prop := 1 / 100000000 < Rabs v.
