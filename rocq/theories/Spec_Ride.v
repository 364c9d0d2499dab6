(** * Vocabulary for a train on a structure of any shape *)

From Coq Require Import Reals List Bool Arith ZArith.
From Verif Require Import Num PyBase Model_Geometry Model_System Model_Element Model_Mesh Model_Track Model_Coupled Model_CoupledSystem Model_Moving Model_Train Model_TrainMesh
  Model_TrainSystem Spec_System Spec_Element Spec_Train Spec_TrainMesh Spec_TrainSystem Spec_Track Spec_Balance Spec_ContactEnergy Model_Hinge Spec_Structure Spec_Whole Spec_Coupled.
Import ListNotations.
Local Open Scope R_scope.

(** a wheel stands between two of the given nodes: it acts on the vertical direction and the rotation of both *)
Definition on_rail (rn : list nat) (ns : list (node R)) (c : contact R) : Prop :=
  exists p q l phi x, In p rn /\ In q rn /\ l <> 0 /\ 1 + phi <> 0 /\
    cn_dofs c = [number_of ns p DY; number_of ns p DR; number_of ns q DY; number_of ns q DR] /\ cn_shape c = map (y_shape l phi x) (seq 0 4).

(** a train that is set up: its parts start apart, the listed bogies are all its bogies, its springs are given and placed evenly, and
    every part can move vertically *)
Record set_up (h : tri Z -> Z) (tn : train R) (x : part -> R) (st0 st : tstate R) (sv : gsys R) (nv : nat) (bs : list nat) : Prop := mkSetUp {
  su_sound : Spec_TrainMesh.sound st0;
  su_apart : parts_apart tn x;
  su_done : train_initialise h tn x st0 = Ok (sv, st, nv);
  su_bogies : lists_bogies tn bs;
  su_complete : complete tn;
  su_even : even_springs tn;
  su_free : parts_free tn st }.

(** the wheels of the train stand on the rail, no two on a common degree of freedom *)
Record wheels_on (rn : list nat) (ns : list (node R)) (nt : nat) (tn : train R) (st : tstate R) (nv : nat) (ia : interaction R) : Prop := mkWheelsOn {
  wo_coefficient : 0 < ia_G ia;
  wo_power : forall z, ia_pow ia <> IZR z;
  wo_fits : fits ia nt (nt + nv);
  wo_apart : NoDup (touched (ia_contacts ia));
  wo_rail : forall c, In c (ia_contacts ia) -> on_rail rn ns c;
  wo_wheels : wheels_of tn st nt (ia_train_dofs ia) }.

(** the vectors of the loads: [track] on the track, [F] on both, its part for the train being the weight *)
Definition load_vectors (nt nv : nat) (sv : gsys R) (F track : list R) : Prop :=
  length track = nt /\ length F = (nt + nv)%nat /\ forall i, (i < nv)%nat -> nth (nt + i) F 0 = nth i (gF sv) 0.

(** what Rayleigh damping takes from a momentum [P] over springs with the force [spring] *)
Definition rayleigh_loss (da : damping R) (P spring : R) : R :=
  if da_on da then let a1 := 2 * da_ratio da / (da_one da + da_two da) in da_one da * da_two da * a1 * P + a1 * spring else 0.

(** a structure of level beams, upright springs and point masses, in which the given nodes can move vertically *)
Record structure (ns0 : list (node R)) (ps : list (epart R)) (ns : list (node R)) (rn : list nat) : Prop := mkStructure {
  sr_shaped : Forall shaped ps;
  sr_sound : Forall (fun p => sound (settled ns0 p)) ps;
  sr_upright : Forall (upright ns0) ps;
  sr_beams : Forall (beams_free ns) ps;
  sr_rail : forall p, In p rn -> number_of ns p DY <> None }.

(** a track joined from segments as in the scripts, with the parts [ps]: either as it is or with a hinge in the rail *)
Definition joined_or_hinged (c : heap R) (j : joined) (rail : beam R) (pad : R * option R * option R) (sleeper : R) (soils : list (R * option R * option R)) (ps : list (epart R)) : Prop :=
  ps = joined_parts j rail pad sleeper soils \/
  exists len mass f x0 i, hinge_at c (jn_rail_nodes j) x0 i /\
    semi_rigid_parts rail (tl (joined_parts j rail pad sleeper soils)) c (jn_rail_nodes j) (jn_rail_els j) len mass f x0 = Ok ps.
