(** * Model of the equations of a train: initialise of rose/model/train_model.py with the matrices and the removal of empty rows *)

From Coq Require Import List Bool ZArith Arith.
From Verif Require Import Num PyBase Model_Geometry Model_System Model_Element Model_Moving Model_Train Model_TrainMesh.
Import ListNotations.

Section TrainSystem.
  Context {T : Type} `{Num T}.
  Local Open Scope num_scope.

  (** a number at the node of a part (train_model.py 42-45, 231-236, 250-269, 453-458 and 472-493).  Numbers that are missing would be used by
      numpy as a new axis; [initialise_ndof] has numbered every part before *)
  Definition number_at (st : tstate T) (p : part) (d : dir) : nat :=
    match tget (n_dof (ts_store st (ts_node st p))) d with Some k => k | None => 0%nat end.
  (** the numbers that the carts find at their nodes (train_model.py 453-458 and 472-493) *)
  Definition read_carts (tn : train T) (st : tstate T) : list (nat * nat) :=
    map (fun i => (number_at st (PCart i) DY, number_at st (PCart i) DR)) (seq 0 (length (tn_carts tn))).
  (** the numbers that the bogies find at their nodes and those of their wheels (train_model.py 231-241 and 250-269) *)
  Definition read_bogies (tn : train T) (st : tstate T) : list (nat * bdof) :=
    map (fun b => (b, mkBdof (number_at st (PBogie b) DY) (number_at st (PBogie b) DR)
                        (map (fun k => number_at st (PWheel b k) DY) (seq 0 (length (bg_wheels (bogie_of tn b)))))))
        (unique_by Nat.eqb [] (flat_map ct_bogies (tn_carts tn))).

  (** train_model.py 843-855 and 804-815: matrices and force vector before rows are removed; [bs] are the bogies found by
      [__get_bogies] *)
  Definition train_system (tn : train T) (cd : list (nat * nat)) (bd : list (nat * bdof)) (bs : list nat) : gsys T :=
    let n := train_total_n_dof tn in
    mkSys (mkMat n n (train_stiffness tn cd bd bs)) (mkMat n n (train_mass tn cd bd)) (mkMat n n (train_damping tn cd bd bs))
          (map (train_static_force tn cd bd) (seq 0 n)).

  (** the changed nodes are the objects themselves (global_system.py 230-250) *)
  Definition write_back (s : store T) (mesh : list nat) (ns : list (node T)) : store T :=
    fold_left (fun s e => upd s (fst e) (snd e)) (combine mesh ns) s.

  (** train_model.py 891-927, [TrainModel.initialise] up to the solver, with 929-939, [trim_global_matrices]: the equations, the nodes
      and [total_n_dof].  Static loads and irregularities are in Model_Train.v.  A number outside the matrices would raise ([IndexError]); the
      numbers are below [total_n_dof] *)
  Definition train_initialise (h : tri Z -> Z) (tn : train T) (x : part -> T) (st0 : tstate T) : res (gsys T * tstate T * nat) :=
    let st := initialise_nodes h tn x st0 in
    let bs := get_bogies tn (fun b => x (PBogie b)) in
    do t <- trim_all (train_system tn (read_carts tn st) (read_bogies tn st) bs) (map (ts_store st) (ts_mesh st)) ;
    let '(s, ns, n) := t in
    Ok (s, mkTstate (write_back (ts_store st) (ts_mesh st) ns) (ts_next st) (ts_mesh st) (ts_node st), n).

  (** train_track_interaction.py 342-353, [CoupledTrainTrack.initialise_ndof] *)
  Definition coupled_ndof (nt : nat) (st : tstate T) (n : nat) : tstate T * nat :=
    (mkTstate (shift_train nt st) (ts_next st) (ts_mesh st) (ts_node st), (nt + n)%nat).
End TrainSystem.
