(** * Model of the track of the demonstration scripts: run_rose/demo.py 24-52 and 77-148

    [materials] and the lines that set up the track are the same in demo_rf.py, demo_semi_rigid.py and demo_semi_rigid_rf.py; the
    scripts with a hinge divide the rail afterwards ([Model_Hinge]) *)

From Coq Require Import List Bool ZArith Arith.
From Verif Require Import Num PyBase Model_Geometry Model_System Model_Element Model_Accumulation Model_Mesh Model_Track Model_Demo Model_FieldSoil.
Import ListNotations.

Section DemoTrack.
  Context {T : Type} `{Num T}.
  Local Open Scope num_scope.

  (** ** demo.py 24-52, [materials] *)

  (** demo.py 27-32 and 108-119: the rail; its end springs keep their default [np.inf] and the length of its elements is found in
      the mesh *)
  Definition demo_rail : beam T :=
    mkBeam (lit 210000000000) (lit 0) (lit 7860) (ndec 696 5) (ndec 224 7) (lit 0) (lit 0) None None.
  (** demo.py 40-42 and 121-123: stiffness, damping and mass of the rail pads *)
  Definition demo_pad_stiffness : T := lit 750000000.
  Definition demo_pad_damping : T := lit 750000.   (* demo.py 42 *)
  Definition demo_pad_mass : T := lit 5.           (* demo.py 40 *)
  (** demo.py 45 and 125: mass of a sleeper *)
  Definition demo_sleeper_mass : T := lit 140.
  (** demo.py 35-37 and 172-175: Rayleigh damping of the coupled model *)
  Definition demo_damping : damping T := mkDamping true (ndec 2 2) (ndec 6283 3) (ndec 12566 2).

  (** ** demo.py 77-148: the track *)

  (** the parts of the joined track, its nodes, the parts with elements and the constraints (demo.py 90-148) *)
  Record demo_model := mkDemoModel {
    dm_joined : joined; dm_nodes : list (node T); dm_parts : list (epart T); dm_constraints : list (list nat * tri bool) }.

  (** demo.py 127-129 for one part of the soil; its mass is not set *)
  Definition soil_part (part : list nat * list (nat * nat)) (v : T * T) : epart T :=
    mkPart (KRod (Some (fst v)) (Some (snd v)) None) (fst part) (snd part).

  (** demo.py 138-139: the side boundaries; [nodes[0]] of an empty list raises *)
  Definition demo_sides (rail_nodes : list nat) : res (list nat * tri bool) :=
    match rail_nodes with
    | [] => Err ErrIndex
    | n :: q => Ok ([n; last rail_nodes 0%nat], T3 false true true)
    end.

  (** demo.py 12-21 and 77-148 with [r] the number of rail elements per sleeper (line 19: 2 in demo.py, 1 in the other scripts).  A
      negative number of sleepers counts as none ([range]).  Simplified: the model parts are listed as parts with elements and as
      constraints instead of in one list (demo.py 146-148); the order within both is kept *)
  Definition demo_track (h : tri Z -> Z) (r : nat) (nb_sleeper : list Z) (fact : T) (stiffness damping : list T) : res demo_model :=
    do g <- demo_geometry nb_sleeper fact ;
    let '(n_sleepers, distance) := g in
    do ts <- create_tracks h 0 (map (fun n => (Z.to_nat n, lit 1)) n_sleepers) distance r ;
    do q <- combine_horizontal_tracks h (heap_of ts) (length (flat_map tk_objects ts)) ts distance r ;
    let '(j, c, mesh, _) := q in
    do bottoms <- mapr (fun part => bottom_boundary c (map (fun e => [fst e; snd e]) (snd part))) (jn_soil j) ;
    do soils <- assign_soil (length (jn_soil j)) (soil_parameters distance stiffness damping) ;
    do sides <- demo_sides (jn_rail_nodes j) ;
    Ok (mkDemoModel j
         (reorder_node_ids (map (fun i => new_node i (tx (c i)) (ty (c i)) (tr (c i))) mesh))
         (mkPart (KRail demo_rail) (jn_rail_nodes j) (jn_rail_els j) ::
          mkPart (KRod (Some demo_pad_stiffness) (Some demo_pad_damping) (Some demo_pad_mass)) (jn_pad_nodes j) (jn_pad_els j) ::
          mkPart (KPoint demo_sleeper_mass) (jn_sleepers j) [] ::
          map (fun q => soil_part (fst q) (snd q)) (combine (jn_soil j) soils))
         (sides :: map (fun b => (b, T3 false false false)) bottoms)).
End DemoTrack.

Arguments demo_model T : clear implicits.
