(** * Model of rose/pre_process/mesh_utils.py 162-184 (a hinge from its fixity factor) and its use in run_rose/demo_semi_rigid.py *)

From Coq Require Import List Bool ZArith Arith.
From Verif Require Import Num PyBase Model_Geometry Model_System Model_Element Model_Moving Model_Coupled Model_Mesh Model_Track.
Import ListNotations.

Section Hinge.
  Context {T : Type} `{Num T} `{Trig T}.
  Local Open Scope num_scope.

  (** a hinge: mass and rotational stiffness (track.py 137-141) *)
  Record hinge := mkHinge { hg_mass : T; hg_stiffness : T }.

  (** mesh_utils.py 162-184, [create_hinge_model_part], for a rail with nodes [nodes], elements [els], modulus [E], inertia [I] and
      element length [l]: the [length_element] that [create_horizontal_track] has set (mesh_utils.py 265), not that of the
      elements.  Numbers are Python floats.  A factor outside the range leaves the stiffness [None] (track.py 188-194), which
      raises when it is halved (mesh_utils.py 134-137) or when no element was found (mesh_utils.py 145) *)
  Definition create_hinge (c : heap T) (nodes : list nat) (els : list (nat * nat)) (E I l mass fixity_factor x : T)
    : res (((list nat * list (nat * nat)) * list (hinge_part T) * (list nat * list (nat * nat))) * hinge) :=
    if (lit 0 <=? fixity_factor) && nltb fixity_factor (lit 1) && neqb ((lit 1 - fixity_factor) * l) (lit 0) then Err ErrZeroDivision
    else match hinge_stiffness None E I l fixity_factor with
    | None => match find_at c x 0 nodes with None => Err ErrOther | Some _ => Err ErrType end
    | Some k => do parts <- add_semi_rigid_hinge c nodes els k x ; Ok (parts, mkHinge mass k)
    end.

  (** mesh_utils.py 142-159: the rail parts that replace the rail with the beam data [b] *)
  Definition hinged_rail (b : beam T) (r : (list nat * list (nat * nat)) * list (hinge_part T) * (list nat * list (nat * nat))) : list (epart T) :=
    let '(first, at_hinge, second) := r in
    let springs s1 s2 := mkBeam (b_E b) (b_nu b) (b_rho b) (b_A b) (b_I b) (b_shear_factor b) (b_l b) s1 s2 in
    mkPart (KRail b) (fst first) (snd first)
      :: map (fun p => mkPart (KRail (springs (hp_spring1 p) (hp_spring2 p))) [fst (hp_element p); snd (hp_element p)] [hp_element p]) at_hinge
      ++ [mkPart (KRail b) (fst second) (snd second)].

  (** demo_semi_rigid.py 112 and 158-161: the element parts of the model; [others] are rail pads, sleepers and soil.  The hinge that
      line 112 receives is not among them *)
  Definition semi_rigid_parts (b : beam T) (others : list (epart T)) (c : heap T) (nodes : list nat) (els : list (nat * nat)) (l mass fixity_factor x : T)
    : res (list (epart T)) :=
    do r <- create_hinge c nodes els (b_E b) (b_I b) l mass fixity_factor x ;
    Ok (hinged_rail b (fst r) ++ others).
End Hinge.

Arguments hinge T : clear implicits.
