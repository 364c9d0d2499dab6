(** * Model of the global system: rose/model/global_system.py and the matrix helpers of rose/model/utils.py *)

From Coq Require Import List Bool ZArith Arith.
From Verif Require Import Num PyBase Model_Geometry.
Import ListNotations.

Section System.
  Context {T : Type} `{Num T}.
  Local Open Scope num_scope.

  (** a dense or sparse matrix: number of rows and columns and the entries (only entries inside the
      shape are meaningful) (global_system.py 355-374) *)
  Record mat := mkMat { mr : nat; mc : nat; me : nat -> nat -> T }.

  (** scipy [lil_matrix((n, n))] / [numpy.zeros] (global_system.py 364-371) *)
  Definition mzero (r c : nat) : mat := mkMat r c (fun _ _ => lit 0).

  (** [m[r, c] = v] (utils.py 88-118) *)
  Definition mset (m : nat -> nat -> T) (r c : nat) (v : T) : nat -> nat -> T :=
    fun i j => if Nat.eqb i r && Nat.eqb j c then v else m i j.

  (** [m.diagonal()] (global_system.py 297-300) *)
  Definition mdiag (m : mat) : list T := map (fun i => me m i i) (seq 0 (Nat.min (mr m) (mc m))).

  (** ** degree of freedom numbering *)

  (** model_part.py 162-188 and global_system.py 417-439: assignment of [index_dof] *)
  Definition with_dof (n : node T) (d : tri (option nat)) : node T :=
    mkNode (n_id n) (n_index n) d (n_coord n) (n_flag n) (n_parts n).
  (** assignment of the three direction attributes, model_part.py 162-188 *)
  Definition with_flag (n : node T) (f : tri bool) : node T :=
    mkNode (n_id n) (n_index n) (n_dof n) (n_coord n) f (n_parts n).

  (** global_system.py 424-434, the loop of [initialise_ndof] ([index_dof] is the counter) *)
  Fixpoint number_from (index_dof : nat) (ns : list (node T)) : list (node T) :=
    match ns with
    | [] => []
    | n :: r => with_dof n (T3 (Some index_dof) (Some (S index_dof)) (Some (S (S index_dof))))
                :: number_from (S (S (S index_dof))) r
    end.

  (** global_system.py 417-439, [GlobalSystem.initialise_ndof]: numbered nodes and [total_n_dof]
      ([ndof + len(node.index_dof)] per node; the update of model parts is [update_dof_indices]) *)
  Definition initialise_ndof (ns : list (node T)) : list (node T) * nat :=
    (number_from 0 ns, fold_left (fun ndof n => (ndof + length (tlist (n_dof n)))%nat) ns 0%nat).

  (** model_part.py 190-212, [ModelPart.update_dof_indices]: mask and indices.  [part_nodes] are the
      node objects of the part, [flag] the part's own active directions. *)
  Definition part_mask (flag : tri bool) (part_nodes : list (node T)) : list bool :=
    flat_map (fun n => map (fun d => tget flag d && match tget (n_dof n) d with Some _ => true | None => false end)%bool
                           all_dirs) part_nodes.
  (** model_part.py 190-212: the indices *)
  Definition part_dof_indices (flag : tri bool) (part_nodes : list (node T)) : list nat :=
    flat_map (fun n => flat_map (fun d => if tget flag d then match tget (n_dof n) d with Some k => [k] | None => [] end
                                          else []) all_dirs) part_nodes.

  (** model_part.py 181-188, [ModelPart.calculate_total_n_dof] (the three-dimensional flags are always False) *)
  Definition part_total_n_dof (flag : tri bool) (part_nodes : list (node T)) : nat :=
    (length part_nodes * count_true (tlist flag))%nat.

  (** ** deletion of rows and columns *)

  (** utils.py 143-146: [mask = ones(n); mask[idx] = False]; an index outside the axis raises IndexError.
      Indices are natural numbers (numpy's negative indices never occur: the indices come from
      [numpy.where] and from dof numbers). *)
  Definition delete_mask (n : nat) (idx : list nat) : res (list bool) :=
    if forallb (fun i => Nat.ltb i n) idx
    then Ok (fold_left (fun m i => lset m i false) idx (repeat true n))
    else Err ErrIndex.

  (** positions of [True] in a mask: the rows kept by [mat[mask]] (utils.py 121-161) *)
  Fixpoint kept_from (i : nat) (mask : list bool) : list nat :=
    match mask with
    | [] => []
    | b :: r => if b then i :: kept_from (S i) r else kept_from (S i) r
    end.

  (** utils.py 147 and 153: [mat[mask]] *)
  Definition take_rows (m : mat) (rows : list nat) : mat :=
    mkMat (length rows) (mc m) (fun i j => me m (nth i rows 0%nat) j).
  (** utils.py 147 and 159: [mat[:, mask]] *)
  Definition take_cols (m : mat) (cols : list nat) : mat :=
    mkMat (mr m) (length cols) (fun i j => me m i (nth j cols 0%nat)).

  (** utils.py 121-161, [delete_from_lil] on a matrix *)
  Definition delete_from_lil (m : mat) (row_indices col_indices : list nat) : res mat :=
    match row_indices, col_indices with
    | _ :: _, _ :: _ =>
        do rmask <- delete_mask (mr m) row_indices;
        do cmask <- delete_mask (mc m) col_indices;
        Ok (take_cols (take_rows m (kept_from 0 rmask)) (kept_from 0 cmask))
    | _ :: _, [] => do rmask <- delete_mask (mr m) row_indices; Ok (take_rows m (kept_from 0 rmask))
    | [], _ :: _ => do cmask <- delete_mask (mc m) col_indices; Ok (take_cols m (kept_from 0 cmask))
    | [], [] => Ok m
    end.

  (** utils.py 148-152 on a one-dimensional array *)
  Definition delete_from_vec (v : list T) (row_indices : list nat) : res (list T) :=
    match row_indices with
    | _ :: _ => do mask <- delete_mask (length v) row_indices;
                Ok (map (fun i => nth i v (lit 0)) (kept_from 0 mask))
    | [] => Ok v
    end.

  (** the global matrices and force vector (global_system.py 355-374) *)
  Record gsys := mkSys { gK : mat; gM : mat; gC : mat; gF : list T }.

  (** global_system.py 196-219, [trim_global_matrices_on_indices] *)
  Definition trim_on_indices (s : gsys) (rows cols : list nat) : res gsys :=
    do k <- delete_from_lil (gK s) rows cols;
    do m <- delete_from_lil (gM s) rows cols;
    do c <- delete_from_lil (gC s) rows cols;
    do f <- delete_from_vec (gF s) rows;
    Ok (mkSys k m c f).

  (** global_system.py 239-250: one direction of a node in [recalculate_dof] *)
  Definition recalc_dir (removed : list nat) (j : nat) (o : option nat) (flag : bool) : nat * option nat * bool :=
    match o with
    | Some k => if memb k removed then (j, None, false) else (S j, Some j, flag)
    | None => (j, None, false)
    end.

  (** global_system.py 230-250: one node of [recalculate_dof] *)
  Definition recalc_node (removed : list nat) (j : nat) (n : node T) : nat * node T :=
    match n_dof n with
    | T3 None None None => (j, with_flag n (T3 false false false))
    | T3 ox oy or_ =>
        let '(j1, ix, fx) := recalc_dir removed j ox (tx (n_flag n)) in
        let '(j2, iy, fy) := recalc_dir removed j1 oy (ty (n_flag n)) in
        let '(j3, ir, fr) := recalc_dir removed j2 or_ (tr (n_flag n)) in
        (j3, with_flag (with_dof n (T3 ix iy ir)) (T3 fx fy fr))
    end.

  (** global_system.py 221-257, [recalculate_dof]: counter over the mesh nodes *)
  Fixpoint recalc_from (removed : list nat) (j : nat) (ns : list (node T)) : nat * list (node T) :=
    match ns with
    | [] => (j, [])
    | n :: r => let (j1, n') := recalc_node removed j n in
                let (j2, r') := recalc_from removed j1 r in (j2, n' :: r')
    end.
  (** global_system.py 221-257: the loop over all nodes *)
  Definition recalculate_dof (removed : list nat) (ns : list (node T)) : list (node T) * nat :=
    let (j, ns') := recalc_from removed 0 ns in (ns', j).

  (** global_system.py 269-285: numbers of the inactive directions of one node *)
  Definition constrained_of (n : node T) : list nat :=
    flat_map (fun d => if tget (n_flag n) d then [] else match tget (n_dof n) d with Some k => [k] | None => [] end) all_dirs.

  (** global_system.py 259-287, [__get_constrained_indices] (last node first) *)
  Definition constrained_indices (ns : list (node T)) : list nat := flat_map constrained_of (rev ns).

  (** model_part.py 957-965, [ConstraintModelPart.set_constraint_condition]; a constraint is the list of
      its nodes (positions in the mesh) and its three flags *)
  Definition apply_constraint (ns : list (node T)) (c : list nat * tri bool) : list (node T) :=
    fold_left (fun ns p => match nth_error ns p with Some n => lset ns p (with_flag n (snd c)) | None => ns end) (fst c) ns.

  (** sorted list without repetitions, [numpy.unique] (global_system.py 306) *)
  Fixpoint insert_unique (x : nat) (l : list nat) : list nat :=
    match l with
    | [] => [x]
    | y :: r => if Nat.ltb x y then x :: l else if Nat.eqb x y then l else y :: insert_unique x r
    end.
  (** global_system.py 306: [numpy.unique] *)
  Definition np_unique (l : list nat) : list nat := fold_right insert_unique [] l.

  (** [numpy.where(numpy.isclose(v, 0))[0]] (global_system.py 297-300) *)
  Fixpoint where_zero_from (i : nat) (v : list T) : list nat :=
    match v with
    | [] => []
    | x :: r => if np_isclose x (lit 0) then i :: where_zero_from (S i) r else where_zero_from (S i) r
    end.

  (** global_system.py 296-306: the obsolete indices, in decreasing order *)
  Definition obsolete_indices (s : gsys) (ns : list (node T)) : list nat :=
    rev (np_unique (constrained_indices ns ++ rev (where_zero_from 0 (mdiag (gM s))) ++ rev (where_zero_from 0 (mdiag (gK s))))).

  (** global_system.py 289-312, [trim_all_global_matrices]: system, mesh nodes and [total_n_dof] *)
  Definition trim_all (s : gsys) (ns : list (node T)) : res (gsys * list (node T) * nat) :=
    let obs := obsolete_indices s ns in
    do s' <- trim_on_indices s obs obs;
    let (ns', n) := recalculate_dof obs ns in
    Ok (s', ns', n).

  (** a history of trims: each list of indices is removed with [trim_global_matrices_on_indices] and
      [recalculate_dof] (global_system.py 308-312; train_model.py 929-939) *)
  Fixpoint trim_history (s : gsys) (ns : list (node T)) (n : nat) (rs : list (list nat)) : res (gsys * list (node T) * nat) :=
    match rs with
    | [] => Ok (s, ns, n)
    | r :: rs' => do s' <- trim_on_indices s r r;
                  let (ns', n') := recalculate_dof r ns in trim_history s' ns' n' rs'
    end.

  (** ** reshaping of element matrices *)

  (** utils.py 88-118, [reshape_aux_matrix]: the nested loops over nodes and directions, as the list of
      visited index quadruples; the matrix is assumed to have the size the code expects *)
  Definition reshape_loop (n_nodes : nat) (dofs : list bool) : list (nat * nat * nat * nat) :=
    flat_map (fun i => flat_map (fun j => flat_map (fun k =>
      if nth k dofs false then
        flat_map (fun l => if nth l dofs false then [(i, j, k, l)] else []) (seq 0 (length dofs))
      else []) (seq 0 (length dofs))) (seq 0 n_nodes)) (seq 0 n_nodes).

  (** utils.py 88-118: the resulting matrix *)
  Definition reshape_aux_matrix (n_nodes : nat) (dofs : list bool) (aux : nat -> nat -> T) : mat :=
    let nd := length dofs in
    let s := count_true dofs in
    mkMat (n_nodes * nd) (n_nodes * nd)
      (fold_left (fun m q => let '(i, j, k, l) := q in
                   mset m (i * nd + k) (j * nd + l)
                        (aux (i * s + count_true (firstn k dofs))%nat (j * s + count_true (firstn l dofs))%nat))
                 (reshape_loop n_nodes dofs) (fun _ _ => lit 0)).

  (** ** assembly *)

  (** utils.py 323-326: [global_matrix.tocoo()]: the stored (non-zero) entries *)
  Definition to_coo (m : mat) : list (nat * nat * T) :=
    flat_map (fun i => flat_map (fun j => if neqb (me m i j) (lit 0) then [] else [(i, j, me m i j)])
                                (seq 0 (mc m))) (seq 0 (mr m)).

  (** utils.py 341-352 (elements) and 356-365 (nodes): non-zero entries of one local matrix, placed at the
      global numbers [dofs] ([dofs] is complete: assembly happens after [initialise_ndof]) *)
  Definition local_coo (dofs : list nat) (aux : nat -> nat -> T) : list (nat * nat * T) :=
    flat_map (fun il => flat_map (fun jl =>
       if neqb (aux il jl) (lit 0) then [] else [(nth il dofs 0%nat, nth jl dofs 0%nat, aux il jl)])
       (seq 0 (length dofs))) (seq 0 (length dofs)).

  (** scipy [coo_matrix]: duplicate entries are summed (utils.py 364) *)
  Definition coo_entry (l : list (nat * nat * T)) (i j : nat) : T :=
    nsum (map (fun e => let '(r, c, v) := e in if Nat.eqb r i && Nat.eqb c j then v else lit 0) l).

  (** utils.py 297-369, [add_aux_matrix_to_global]: [contribs] are the (rotated) local matrices of the
      elements (or the matrix of each node) with their global numbers; an index outside the matrix raises *)
  Definition add_to_global (g : mat) (contribs : list (list nat * (nat -> nat -> T))) : res mat :=
    let l := to_coo g ++ flat_map (fun c => local_coo (fst c) (snd c)) contribs in
    if forallb (fun e => let '(r, c, _) := e in Nat.ltb r (mr g) && Nat.ltb c (mc g)) l
    then Ok (mkMat (mr g) (mc g) (coo_entry l))
    else Err ErrValue.

  (** ** forces *)

  (** numpy [force[idx] += vals]: all reads happen before the writes, repeated indices: last write wins (global_system.py 179-194) *)
  Fixpoint write_all (f : list T) (idx : list nat) (vals : list T) : list T :=
    match idx, vals with
    | i :: ir, v :: vr => write_all (lset f i v) ir vr
    | _, _ => f
    end.
  (** global_system.py 179-194 *)
  Definition fancy_iadd (f : list T) (idx : list nat) (vals : list T) : list T :=
    write_all f idx (map (fun p => nth (fst p) f (lit 0) + snd p) (combine idx vals)).

  (** boolean mask selection (global_system.py 179-194) *)
  Fixpoint select {A} (mask : list bool) (l : list A) : list A :=
    match mask, l with
    | b :: mr, x :: r => if b then x :: select mr r else select mr r
    | _, _ => []
    end.

  (** global_system.py 179-194, [__add_condition_to_global].  A condition at a time step: its flags, its node
      objects and per node the three force components *)
  Record cond := mkCond { c_flag : tri bool; c_nodes : list (node T); c_vals : list (tri T) }.

  (** global_system.py 179-194 for one condition *)
  Definition add_condition (f : list T) (c : cond) : list T :=
    let dof_indices := part_dof_indices (c_flag c) (c_nodes c) in
    let cond_force_vector := flat_map (fun v => tlist v) (c_vals c) in
    fancy_iadd f dof_indices (select (part_mask (c_flag c) (c_nodes c)) cond_force_vector).

  (** global_system.py 495-515, [update_time_step_rhs]: zero vector, then every load condition.
      [conds] are the conditions after their [update_force(t)]. *)
  Definition rhs (n : nat) (conds : list cond) : list T :=
    fold_left add_condition conds (repeat (lit 0) n).

  (** ** Rayleigh damping *)

  (** global_system.py 376-389 *)
  Definition rayleigh_factors (xi w1 w2 : T) : T * T :=
    let constant := lit 2 * xi / (w1 + w2) in
    (w1 * w2 * constant, constant).

  (** global_system.py 391-415, [calculate_rayleigh_damping] *)
  Definition rayleigh_damping (is_rayleigh : bool) (xi w1 w2 : T) (s : gsys) : gsys :=
    if is_rayleigh then
      let (a0, a1) := rayleigh_factors xi w1 w2 in
      mkSys (gK s) (gM s)
            (mkMat (mr (gC s)) (mc (gC s)) (fun i j => me (gC s) i j + (me (gM s) i j * a0 + me (gK s) i j * a1)))
            (gF s)
    else s.

  (** ** stages *)

  (** [numpy.diff] (global_system.py 447) *)
  Fixpoint np_diff (l : list T) : list T :=
    match l with
    | a :: r => match r with b :: _ => (b - a) :: np_diff r | [] => [] end
    | [] => []
    end.

  (** [round(decimals=15)], in units of 1e-15 (global_system.py 448) *)
  Definition round15 (x : T) : Z := nround (x * lit (10 ^ 15)).

  (** indices of first occurrences ([numpy.unique(.., return_index=True)[1]], sorted) (global_system.py 448) *)
  Fixpoint first_idx_from (i : nat) (seen : list Z) (l : list Z) : list nat :=
    match l with
    | [] => []
    | z :: r => if existsb (Z.eqb z) seen then first_idx_from (S i) seen r
                else i :: first_idx_from (S i) (z :: seen) r
    end.

  (** global_system.py 441-449, [set_stage_time_ids] *)
  Definition stage_time_ids (time : list T) : list nat :=
    first_idx_from 0 [] (map round15 (np_diff time)) ++ [(length time - 1)%nat].
End System.

Arguments mat T : clear implicits.
Arguments gsys T : clear implicits.
Arguments cond T : clear implicits.
