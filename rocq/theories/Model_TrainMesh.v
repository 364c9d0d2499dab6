(** * Model of the nodes of a train: set_mesh, calculate_active_n_dof and reset_mesh of rose/model/train_model.py with node objects *)

From Coq Require Import List Bool ZArith Arith.
From Verif Require Import Num PyBase Model_Geometry Model_System Model_Element Model_Moving Model_Train.
Import ListNotations.

Section TrainMesh.
  Context {T : Type} `{Num T}.
  Local Open Scope num_scope.

  (** ** a mesh of node objects *)

  (** the dictionary lookup of geometry.py 251 as in [dict_find], with the objects in a store: a stored key that equals [n] is changed *)
  Fixpoint find_key (h : tri Z -> Z) (s : store T) (stored : list nat) (n : nat) : option (store T) :=
    match stored with
    | [] => None
    | k :: r =>
        if Nat.eqb k n then Some s
        else if Z.eqb (h (node_key (s k))) (h (node_key (s n))) then
          let (b, k') := node_eq (s k) (s n) in
          if b then Some (upd s k k') else find_key h s r n
        else find_key h s r n
    end.
  (** geometry.py 251: one key *)
  Definition insert_key (h : tri Z -> Z) (sm : store T * list nat) (n : nat) : store T * list nat :=
    match find_key h (fst sm) (snd sm) n with Some s' => (s', snd sm) | None => (fst sm, snd sm ++ [n]) end.
  (** geometry.py 243-251, [Mesh.add_unique_nodes_to_mesh] *)
  Definition add_nodes (h : tri Z -> Z) (s : store T) (mesh ns : list nat) : store T * list nat :=
    fold_left (insert_key h) (mesh ++ ns) (s, []).

  (** ** the parts of a train *)

  (** a part object: a cart by its place in the train, a bogie by its identity, a wheel by its bogie and its place there
      (train_model.py 14-29, 135-152 and 358-375) *)
  Inductive part := PCart (i : nat) | PBogie (b : nat) | PWheel (b k : nat).
  (** identity of part objects (model only: Python has it built in; train_model.py 634-662) *)
  Definition part_eqb (p q : part) : bool :=
    match p, q with
    | PCart i, PCart j => Nat.eqb i j
    | PBogie b, PBogie c => Nat.eqb b c
    | PWheel b k, PWheel c l => Nat.eqb b c && Nat.eqb k l
    | _, _ => false
    end.

  (** node objects, the next free identity, the nodes of the train's mesh and the attribute [nodes] of every part, which has one node
      (train_model.py 69, 171 and 394) *)
  Record tstate := mkTstate { ts_store : store T; ts_next : nat; ts_mesh : list nat; ts_node : part -> nat }.

  (** train_model.py 69-70, 171-174 and 394-397: a new node for a part *)
  Definition new_part_node (h : tri Z -> Z) (p : part) (x y : T) (st : tstate) : tstate :=
    let n := ts_next st in
    let s := upd (ts_store st) n (new_node n x y (lit 0)) in
    let (s, m) := add_nodes h s (ts_mesh st) [n] in
    mkTstate s (S n) m (fun q => if part_eqb q p then n else ts_node st q).

  (** train_model.py 59-70, [Wheel.set_mesh]; [x p] is the first of the distances of a part *)
  Definition wheel_set_mesh (h : tri Z -> Z) (x : part -> T) (b : nat) (st : tstate) (k : nat) : tstate :=
    new_part_node h (PWheel b k) (x (PWheel b k)) (lit 0) st.
  (** train_model.py 161-178, [Bogie.set_mesh] *)
  Definition bogie_set_mesh (h : tri Z -> Z) (tn : train T) (x : part -> T) (st : tstate) (b : nat) : tstate :=
    fold_left (wheel_set_mesh h x b) (seq 0 (length (bg_wheels (bogie_of tn b)))) (new_part_node h (PBogie b) (x (PBogie b)) (lit 1) st).
  (** train_model.py 384-401, [Cart.set_mesh] *)
  Definition cart_set_mesh (h : tri Z -> Z) (tn : train T) (x : part -> T) (st : tstate) (ic : nat * cart T) : tstate :=
    fold_left (bogie_set_mesh h tn x) (ct_bogies (snd ic)) (new_part_node h (PCart (fst ic)) (x (PCart (fst ic))) (lit 2) st).
  (** the carts with their places (train_model.py 621-632) *)
  Definition numbered_carts (tn : train T) : list (nat * cart T) := combine (seq 0 (length (tn_carts tn))) (tn_carts tn).
  (** train_model.py 621-632, [TrainModel.set_mesh] *)
  Definition set_mesh (h : tri Z -> Z) (tn : train T) (x : part -> T) (st : tstate) : tstate :=
    fold_left (cart_set_mesh h tn x) (numbered_carts tn) st.

  (** train_model.py 81, 188 and 410: the node of a part is added to the mesh *)
  Definition add_part_node (h : tri Z -> Z) (p : part) (st : tstate) : tstate :=
    let (s, m) := add_nodes h (ts_store st) (ts_mesh st) [ts_node st p] in mkTstate s (ts_next st) m (ts_node st).
  (** train_model.py 72-81, [Wheel.reset_mesh] *)
  Definition wheel_reset_mesh (h : tri Z -> Z) (b : nat) (st : tstate) (k : nat) : tstate := add_part_node h (PWheel b k) st.
  (** train_model.py 180-192, [Bogie.reset_mesh] *)
  Definition bogie_reset_mesh (h : tri Z -> Z) (tn : train T) (st : tstate) (b : nat) : tstate :=
    fold_left (wheel_reset_mesh h b) (seq 0 (length (bg_wheels (bogie_of tn b)))) (add_part_node h (PBogie b) st).
  (** train_model.py 403-416, [Cart.reset_mesh] *)
  Definition cart_reset_mesh (h : tri Z -> Z) (tn : train T) (st : tstate) (ic : nat * cart T) : tstate :=
    fold_left (bogie_reset_mesh h tn) (ct_bogies (snd ic)) (add_part_node h (PCart (fst ic)) st).
  (** train_model.py 859-873, [TrainModel.reset_mesh] *)
  Definition reset_mesh (h : tri Z -> Z) (tn : train T) (st : tstate) : tstate :=
    fold_left (cart_reset_mesh h tn) (numbered_carts tn) (mkTstate (ts_store st) (ts_next st) [] (ts_node st)).

  (** ** numbers *)

  (** an entry of [index_dof] of a node object (train_model.py 92, 208-211 and 429-432) *)
  Definition set_number (d : dir) (i : nat) (n : node T) : node T :=
    mkNode (n_id n) (n_index n) (tset (n_dof n) d (Some i)) (n_coord n) (n_flag n) (n_parts n).
  (** the same in the store (train_model.py 92, 208-211 and 429-432) *)
  Definition number_node (s : store T) (id : nat) (d : dir) (i : nat) : store T := upd s id (set_number d i (s id)).

  (** train_model.py 83-95, [Wheel.calculate_active_n_dof] *)
  Definition wheel_number (nd : part -> nat) (b : nat) (si : store T * nat) (k : nat) : store T * nat :=
    let (s, i) := si in (number_node s (nd (PWheel b k)) DY i, S i).
  (** train_model.py 195-222, [Bogie.calculate_active_n_dof] *)
  Definition bogie_number (tn : train T) (nd : part -> nat) (si : store T * nat) (b : nat) : store T * nat :=
    let (s, i) := si in
    match n_dof (s (nd (PBogie b))) with
    | T3 None None None =>
        let s := number_node s (nd (PBogie b)) DY i in
        let s := number_node s (nd (PBogie b)) DR (S i) in
        fold_left (wheel_number nd b) (seq 0 (length (bg_wheels (bogie_of tn b)))) (s, S (S i))
    | _ => (s, i)
    end.
  (** train_model.py 418-444, [Cart.calculate_active_n_dof] *)
  Definition cart_number (tn : train T) (nd : part -> nat) (si : store T * nat) (ic : nat * cart T) : store T * nat :=
    let (s, i) := si in
    let s := number_node s (nd (PCart (fst ic))) DY i in
    let s := number_node s (nd (PCart (fst ic))) DR (S i) in
    fold_left (bogie_number tn nd) (ct_bogies (snd ic)) (s, S (S i)).
  (** train_model.py 672-682, [TrainModel.initialise_ndof] *)
  Definition number_train (tn : train T) (st : tstate) : tstate :=
    mkTstate (fst (fold_left (cart_number tn (ts_node st)) (numbered_carts tn) (ts_store st, 0%nat))) (ts_next st) (ts_mesh st) (ts_node st).

  (** train_model.py 891-916, [TrainModel.initialise]: what concerns the nodes, before empty rows are removed from the matrices *)
  Definition initialise_nodes (h : tri Z -> Z) (tn : train T) (x : part -> T) (st : tstate) : tstate :=
    reset_mesh h tn (number_train tn (set_mesh h tn x st)).

  (** train_track_interaction.py 342-346, [CoupledTrainTrack.initialise_ndof]: the nodes of the train behind those of the track *)
  Definition shift_node (nt : nat) (s : store T) (id : nat) : store T :=
    upd s id (let n := s id in mkNode (n_id n) (n_index n) (let f := option_map (fun k => k + nt)%nat in T3 (f (tx (n_dof n))) (f (ty (n_dof n))) (f (tr (n_dof n)))) (n_coord n) (n_flag n) (n_parts n)).
  (** train_track_interaction.py 342-346 *)
  Definition shift_train (nt : nat) (st : tstate) : store T := fold_left (shift_node nt) (ts_mesh st) (ts_store st).
End TrainMesh.

Arguments tstate T : clear implicits.
