(** * Model of rose/model/geometry.py *)

From Coq Require Import List Bool ZArith Arith.
From Verif Require Import Num PyBase.
Import ListNotations.

Section Geometry.
  Context {T : Type} `{Num T}.
  Local Open Scope num_scope.

  (** geometry.py 24-37, [Node.__init__].  [n_id] is the object identity (CPython [id]); model parts
      are represented by their identities; result arrays are outputs of [assign_result] below. *)
  Record node := mkNode {
    n_id : nat;
    n_index : option nat;          (* self.index *)
    n_dof : tri (option nat);      (* self.index_dof *)
    n_coord : tri T;               (* self.coordinates *)
    n_flag : tri bool;             (* self.x_disp_dof, self.y_disp_dof, self.z_rot_dof *)
    n_parts : list nat             (* self.model_parts *)
  }.

  (** geometry.py 24-37, a fresh node *)
  Definition new_node (id : nat) (x y z : T) : node :=
    mkNode id None (T3 None None None) (T3 x y z) (T3 true true true) [].

  (** geometry.py 39-52, [Node.set_dof] (indices other than 0, 1, 2 are ignored) *)
  Definition set_dof (n : node) (dof_idx : nat) (active : bool) : node :=
    match dof_idx with
    | 0%nat => mkNode (n_id n) (n_index n) (n_dof n) (n_coord n) (tset (n_flag n) DX active) (n_parts n)
    | 1%nat => mkNode (n_id n) (n_index n) (n_dof n) (n_coord n) (tset (n_flag n) DY active) (n_parts n)
    | 2%nat => mkNode (n_id n) (n_index n) (n_dof n) (n_coord n) (tset (n_flag n) DR active) (n_parts n)
    | _ => n
    end.

  (** geometry.py 99-102: the coordinate loop of [Node.__eq__] *)
  Definition coords_equal (a b : tri T) : bool :=
    negb (nltb (ndec 1 9) (nabs (tx a - tx b))) &&
    negb (nltb (ndec 1 9) (nabs (ty a - ty b))) &&
    negb (nltb (ndec 1 9) (nabs (tr a - tr b))).

  (** geometry.py 107-108: [self.index_dof[mask] = other.index_dof[mask]], mask = other is not None *)
  Definition merge_idx (self other : option nat) : option nat :=
    match other with Some k => Some k | None => self end.

  (** geometry.py 87-117, [Node.__eq__]: the answer and the mutated [self] *)
  Definition node_eq (self other : node) : bool * node :=
    if coords_equal (n_coord self) (n_coord other) then
      (true,
       mkNode (n_id self) (n_index self)
              (tmap2 merge_idx (n_dof self) (n_dof other))
              (n_coord self)
              (tmap2 orb (n_flag self) (n_flag other))
              (n_parts self ++ n_parts other))
    else (false, self).

  (** geometry.py 119-126, [Node.__hash__]: the tuple of rounded coordinates; Python's tuple hash is
      the argument [h], an arbitrary function of that tuple. *)
  Definition node_key (n : node) : tri Z :=
    T3 (round9 (tx (n_coord n))) (round9 (ty (n_coord n))) (round9 (tr (n_coord n))).

  (** geometry.py 128-135, [Node.ndof] *)
  Definition ndof (n : node) : nat := count_true (tlist (n_flag n)).

  (** CPython dict lookup of [n] among the stored keys (in insertion order): a stored key matches when
      it is the same object, or has the same hash and [stored == n]; the comparison mutates [stored] (geometry.py 251) *)
  Fixpoint dict_find (h : tri Z -> Z) (stored : list node) (n : node) : option (list node) :=
    match stored with
    | [] => None
    | s :: r =>
        if Nat.eqb (n_id s) (n_id n) then Some (s :: r)
        else if Z.eqb (h (node_key s)) (h (node_key n)) then
          let (b, s') := node_eq s n in
          if b then Some (s' :: r)
          else match dict_find h r n with Some r' => Some (s' :: r') | None => None end
        else match dict_find h r n with Some r' => Some (s :: r') | None => None end
    end.

  (** insertion of one key by [dict.fromkeys] (geometry.py 251) *)
  Definition dict_insert (h : tri Z -> Z) (stored : list node) (n : node) : list node :=
    match dict_find h stored n with Some st => st | None => stored ++ [n] end.

  (** geometry.py 251: [dict.fromkeys] of a list of nodes *)
  Definition dict_fromkeys (h : tri Z -> Z) (ns : list node) : list node :=
    fold_left (dict_insert h) ns [].

  (** geometry.py 243-251, [Mesh.add_unique_nodes_to_mesh] *)
  Definition add_unique_nodes (h : tri Z -> Z) (mesh ns : list node) : list node :=
    dict_fromkeys h (mesh ++ ns).

  (** geometry.py 219-220 and 243-251: a new mesh after a history of calls, one per batch of nodes *)
  Definition mesh_of (h : tri Z -> Z) (batches : list (list node)) : list node :=
    fold_left (add_unique_nodes h) batches [].

  (** geometry.py 253-260, [Mesh.fast_add_nodes_to_mesh] *)
  Definition fast_add_nodes (mesh ns : list node) : list node := mesh ++ ns.

  (** geometry.py 231: [node.index = i] *)
  Definition set_index (n : node) (i : nat) : node :=
    mkNode (n_id n) (Some i) (n_dof n) (n_coord n) (n_flag n) (n_parts n).

  (** geometry.py 223-231, [Mesh.reorder_node_ids] ([enumerate] from [i]) *)
  Fixpoint reorder_from (i : nat) (ns : list node) : list node :=
    match ns with [] => [] | n :: r => set_index n i :: reorder_from (S i) r end.
  (** geometry.py 223-231 *)
  Definition reorder_node_ids (ns : list node) : list node := reorder_from 0 ns.

  (** geometry.py 150-157, [Element.__init__]; nodes are references (identities) into a store *)
  Record element := mkElement {
    e_id : nat;
    e_index : option nat;
    e_nodes : list nat;
    e_parts : list nat
  }.

  (** the heap of node objects (geometry.py 150-157) *)
  Definition store := nat -> node.
  (** assignment to the attributes of one node object, geometry.py 105-117 and 193 *)
  Definition upd (s : store) (i : nat) (n : node) : store := fun j => if Nat.eqb j i then n else s j.

  (** CPython [n in items] (items on the left of [==]); the comparison mutates the item (geometry.py 168) *)
  Fixpoint node_in (s : store) (items : list nat) (n : nat) : bool * store :=
    match items with
    | [] => (false, s)
    | x :: r =>
        if Nat.eqb x n then (true, s)
        else let (b, x') := node_eq (s x) (s n) in
             if b then (true, upd s x x') else node_in s r n
    end.

  (** geometry.py 167-169: the loop of [Element.__eq__] *)
  Fixpoint all_nodes_in (s : store) (ns items : list nat) : bool * store :=
    match ns with
    | [] => (true, s)
    | n :: r => let (b, s') := node_in s items n in
                if b then all_nodes_in s' r items else (false, s')
    end.

  (** geometry.py 159-173, [Element.__eq__]; [list(set(..))] is modelled by [nodup] (the order of a
      Python set is unspecified, only membership is meaningful) *)
  Definition element_eq (s : store) (self other : element) : bool * store * element :=
    let (b, s') := all_nodes_in s (e_nodes self) (e_nodes other) in
    if b then (true, s', mkElement (e_id self) (e_index self) (e_nodes self)
                                   (nodup Nat.eq_dec (e_parts self ++ e_parts other)))
    else (false, s', self).

  (** geometry.py 175-182, [Element.__hash__]: hash of the tuple of node hashes, in node order *)
  Definition element_hash (h : tri Z -> Z) (he : list Z -> Z) (s : store) (e : element) : Z :=
    he (map (fun i => h (node_key (s i))) (e_nodes e)).

  (** geometry.py 269: CPython dict lookup of an element *)
  Fixpoint edict_find (h : tri Z -> Z) (he : list Z -> Z) (s : store) (stored : list element) (e : element)
    : option (list element) * store :=
    match stored with
    | [] => (None, s)
    | x :: r =>
        if Nat.eqb (e_id x) (e_id e) then (Some (x :: r), s)
        else if Z.eqb (element_hash h he s x) (element_hash h he s e) then
          let '(b, s', x') := element_eq s x e in
          if b then (Some (x' :: r), s')
          else let (o, s'') := edict_find h he s' r e in
               (match o with Some r' => Some (x' :: r') | None => None end, s'')
        else let (o, s'') := edict_find h he s r e in
             (match o with Some r' => Some (x :: r') | None => None end, s'')
    end.

  (** geometry.py 269: insertion of one element by [dict.fromkeys] *)
  Definition edict_insert (h : tri Z -> Z) (he : list Z -> Z) (st : list element * store) (e : element)
    : list element * store :=
    let (stored, s) := st in
    match edict_find h he s stored e with
    | (Some l, s') => (l, s')
    | (None, s') => (stored ++ [e], s')
    end.

  (** geometry.py 262-269, [Mesh.add_unique_elements_to_mesh] *)
  Definition add_unique_elements (h : tri Z -> Z) (he : list Z -> Z) (s : store)
             (mesh es : list element) : list element * store :=
    fold_left (edict_insert h he) (mesh ++ es) ([], s).

  (** geometry.py 241: [element.index = i] *)
  Definition e_set_index (e : element) (i : nat) : element :=
    mkElement (e_id e) (Some i) (e_nodes e) (e_parts e).

  (** geometry.py 233-241, [Mesh.reorder_element_ids] *)
  Fixpoint e_reorder_from (i : nat) (es : list element) : list element :=
    match es with [] => [] | e :: r => e_set_index e i :: e_reorder_from (S i) r end.
  (** geometry.py 233-241 *)
  Definition reorder_element_ids (es : list element) : list element := e_reorder_from 0 es.

  (** geometry.py 193: [node.model_parts.append(part)] *)
  Definition add_part_to_node (n : node) (p : nat) : node :=
    mkNode (n_id n) (n_index n) (n_dof n) (n_coord n) (n_flag n) (n_parts n ++ [p]).

  (** geometry.py 184-194, [Element.add_model_part] *)
  Definition add_model_part (s : store) (e : element) (p : nat) : store * element :=
    if memb p (e_parts e) then (s, e)
    else (fold_left (fun s i => upd s i (add_part_to_node (s i) p)) (e_nodes e) s,
          mkElement (e_id e) (e_index e) (e_nodes e) (e_parts e ++ [p])).

  (** one row of [arr[:, mask] = vals]: [base] is the row before, numpy broadcasts a single column (geometry.py 74-85 and 207) *)
  Fixpoint put_masked (base : list T) (mask : list bool) (vals : list T) : list T :=
    match base, mask with
    | b :: br, true :: mr => match vals with v :: vr => v :: put_masked br mr vr | [] => b :: br end
    | b :: br, false :: mr => b :: put_masked br mr vals
    | l, _ => l
    end.
  (** geometry.py 74-85 and 207: the assignment raises if the number of columns does not fit *)
  Definition masked_assign (base : list T) (mask : list bool) (vals : list T) : res (list T) :=
    if Nat.eqb (length vals) (count_true mask) then Ok (put_masked base mask vals)
    else match vals with
         | [v] => Ok (put_masked base mask (repeat v (count_true mask)))
         | _ => Err ErrValue
         end.

  (** geometry.py 54-85, [Node.assign_result], one time step of one quantity.  [base] is the row
      before assignment: zeros for displacements, velocities, accelerations (70-72) and the
      uninitialised memory of [np.empty] for the force (84). *)
  Definition assign_row (base : list T) (n : node) (row : list T) : res (list T) :=
    masked_assign base (tlist (n_flag n)) row.
  (** geometry.py 70-72: one row of [numpy.zeros] *)
  Definition zero_row : list T := [lit 0; lit 0; lit 0].

  (** global_system.py 616: [list(node.index_dof[node.index_dof != None])] *)
  Definition node_ids_dofs (n : node) : list nat :=
    flat_map (fun o => match o with Some k => [k] | None => [] end) (tlist (n_dof n)).

  (** global_system.py 608-623, one time step: the solver row is a function of the column number *)
  Definition assign_result_to_node (base : list T) (n : node) (solver_row : nat -> T) : res (list T) :=
    assign_row base n (map solver_row (node_ids_dofs n)).

  (** geometry.py 196-207, [Element.assign_force], one time step *)
  Definition assign_force_row (force : list T) (mask : list bool) : res (list T) :=
    masked_assign zero_row mask force.
End Geometry.

Arguments node T : clear implicits.
Arguments store T : clear implicits.
