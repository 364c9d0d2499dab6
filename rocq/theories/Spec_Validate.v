(** * What a complete model part is *)

From Coq Require Import Reals List Bool Arith.
From Verif Require Import Num PyBase Model_Validate.
Import ListNotations.

Definition given {A} (o : option A) : Prop := exists x, o = Some x.
Definition at_least_one (o : option nat) : Prop := exists n, o = Some n /\ (0 < n)%nat.

Definition complete_material (m : material R) : Prop := given (m_E m) /\ given (m_nu m) /\ given (m_rho m).
(** the height is optional, but the neutral axis must lie within it *)
Definition complete_section (s : section R) : Prop :=
  given (s_area s) /\ given (s_I s) /\ given (s_shear s) /\
  (forall h n, s_height s = Some h -> s_neutral s = Some n -> (n <= h)%R).

Definition complete (p : part R) : Prop :=
  match p with
  | PBase z => given (z_nodes z) /\ given (z_elements z)
  | PRod k z => given k /\ at_least_one (z_nodes z) /\ at_least_one (z_elements z)
  | PBeam m s z =>
      (exists m', m = Some m' /\ complete_material m') /\ (exists s', s = Some s' /\ complete_section s') /\
      at_least_one (z_nodes z) /\ at_least_one (z_elements z)
  end.
