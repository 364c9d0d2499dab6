(** * Model of rose/pre_process/mesh_utils.py *)

From Coq Require Import List Bool ZArith Arith.
From Verif Require Import Num PyBase Model_Geometry Model_System Model_Element Model_Coupled.
Import ListNotations.

Section Mesh.
  Context {T : Type} `{Num T}.
  Local Open Scope num_scope.

  (** ** generated track *)

  (** An element is the pair of its nodes (object identities); its index is its position in the element list of the
      mesh (geometry.py 233-241).  [tk_objects] are all node objects created by the call; the other lists refer to
      them by identity, except [tk_mesh], the node list of the mesh. *)
  Record track := mkTrack {
    tk_objects : list (node T);
    tk_rail_nodes : list nat; tk_rail_els : list (nat * nat); tk_rail_length : T;
    tk_pad_nodes : list nat; tk_pad_els : list (nat * nat);
    tk_sleepers : list nat;
    tk_soil_nodes : list nat; tk_soil_els : list (nat * nat);
    tk_mesh : list (node T); tk_mesh_els : list (nat * nat) }.

  (** [[p[2 * i], p[2 * i + 1]] for i in range(n)]: elements of a list of points taken two by two (mesh_utils.py 187-290) *)
  Definition point_pairs (p : list nat) (n : nat) : list (nat * nat) :=
    map (fun i => (nth (i * 2) p 0%nat, nth (i * 2 + 1) p 0%nat)) (seq 0 n).

  (** mesh_utils.py 187-289, [create_horizontal_track]; objects get the identities [base], [base + 1], ...  A track with
      sleepers but without rail elements per sleeper raises (line 217). *)
  Definition create_horizontal_track (h : tri Z -> Z) (base n : nat) (d depth : T) (r : nat) : res track :=
    if Nat.eqb r 0 && negb (Nat.eqb n 0) then Err ErrIndex
    else
      let nr := (n * r)%nat in
      let rail := map (fun i => new_node (base + i) (nofnat i * d / nofnat r) (lit 0) (lit 0)) (seq 0 nr) in
      let none := new_node 0 (lit 0) (lit 0) (lit 0) in
      let sleeper i := new_node (base + nr + i) (nofnat i * d) (- lit 1) (lit 0) in
      let points_rail_pad := flat_map (fun i => [nth (i * r) rail none; sleeper i]) (seq 0 n) in
      let nodes_sleeper := map (fun i => nth (i * 2 + 1) points_rail_pad none) (seq 0 n) in
      let bottom i := let s := nth (i * 2 + 1) points_rail_pad none in
                      new_node (base + nr + n + i) (tx (n_coord s)) (ty (n_coord s) - depth) (lit 0) in
      let points_soil := flat_map (fun i => [nth (i * 2 + 1) points_rail_pad none; bottom i]) (seq 0 n) in
      let no_disp := map (fun i => nth (i * 2 + 1) points_soil none) (seq 0 n) in
      let ids := map (@n_id T) in
      let rail_els := map (fun i => ((base + i)%nat, (base + (i + 1))%nat)) (seq 0 (nr - 1)) in
      let pad_els := point_pairs (ids points_rail_pad) n in
      let soil_els := point_pairs (ids points_soil) n in
      Ok (mkTrack (rail ++ map sleeper (seq 0 n) ++ map bottom (seq 0 n))
            (ids rail) rail_els d
            (ids points_rail_pad) pad_els (ids nodes_sleeper) (ids points_soil) soil_els
            (reorder_node_ids (mesh_of h [rail; points_rail_pad; nodes_sleeper; points_soil; no_disp]))
            (rail_els ++ pad_els ++ soil_els)).

  (** several tracks made one after the other, with the numbers of sleepers and soil depths [specs] (mesh_utils.py 187-290) *)
  Fixpoint create_tracks (h : tri Z -> Z) (base : nat) (specs : list (nat * T)) (d : T) (r : nat) : res (list track) :=
    match specs with
    | [] => Ok []
    | (n, depth) :: q =>
        do t <- create_horizontal_track h base n d depth r ;
        do ts <- create_tracks h (base + length (tk_objects t)) q d r ;
        Ok (t :: ts)
    end.

  (** ** joining tracks *)

  (** coordinates of the node objects (geometry.py 24-37) *)
  Definition heap := nat -> tri T.
  (** assignment of the coordinates of one node, mesh_utils.py 319-320 *)
  Definition hset (c : heap) (i : nat) (v : tri T) : heap := fun j => if Nat.eqb j i then v else c j.

  (** the heap after [create_tracks] (mesh_utils.py 187-290) *)
  Definition heap_of (ts : list track) : heap :=
    fun i => match find (fun n => Nat.eqb (n_id n) i) (flat_map tk_objects ts) with
             | Some n => n_coord n | None => T3 (lit 0) (lit 0) (lit 0) end.

  (** mesh_utils.py 313-320: all nodes of a mesh are moved by the largest x of the mesh before it, plus [d] (the meshes
      have no node in common, so the largest x is read once) *)
  Definition move_mesh (c : heap) (dx : T) (m : list nat) : heap :=
    fold_left (fun c i => hset c i (T3 (tx (c i) + dx) (ty (c i)) (tr (c i)))) m c.
  (** mesh_utils.py 310-320: the loop over the meshes *)
  Fixpoint move_meshes (c : heap) (prev : list nat) (meshes : list (list nat)) (d : T) : res heap :=
    match meshes with
    | [] => Ok c
    | m :: q => do lx <- max_of (map (fun i => tx (c i)) prev) ;
                move_meshes (move_mesh c (lx + d) m) m q d
    end.

  (** [numpy.linspace(a, b, r + 1)[1:-1]] (mesh_utils.py 333) *)
  Definition in_between (a b : tri T) (r : nat) : list (tri T) :=
    map (fun i => let at_ p q := nofnat i * ((q - p) / nofnat r) + p in
                  T3 (at_ (tx a) (tx b)) (at_ (ty a) (ty b)) (at_ (tr a) (tr b))) (seq 1 (r - 1)).

  (** consecutive pairs of a list (mesh_utils.py 337-340) *)
  Fixpoint chain (l : list nat) : list (nat * nat) :=
    match l with
    | a :: q => match q with b :: _ => (a, b) :: chain q | [] => [] end
    | [] => []
    end.

  (** what the joined track consists of (mesh_utils.py 347-363) *)
  Record joined := mkJoined {
    jn_rail_nodes : list nat; jn_rail_els : list (nat * nat); jn_sleepers : list nat;
    jn_pad_nodes : list nat; jn_pad_els : list (nat * nat); jn_soil : list (list nat * list (nat * nat)) }.
  (** mesh_utils.py 326-331: the first track, before joining *)
  Definition joined_of (t : track) : joined :=
    mkJoined (tk_rail_nodes t) (tk_rail_els t) (tk_sleepers t) (tk_pad_nodes t) (tk_pad_els t)
             [(tk_soil_nodes t, tk_soil_els t)].

  (** mesh_utils.py 327-357: one track is put behind what was joined before; [fresh] is the next object identity.
      [nodes[-1]] of an empty list raises.  The result has the heap, the nodes and elements added to the mesh and the next
      identity *)
  Definition join_track (c : heap) (fresh r : nat) (j : joined) (t : track) : res (joined * heap * list nat * list (nat * nat) * nat) :=
    match rev (jn_rail_nodes j), tk_rail_nodes t with
    | a :: _, b :: _ =>
        let mid := in_between (c a) (c b) r in
        let new_nodes := seq fresh (length mid) in
        let c := fold_left (fun c p => hset c (fst p) (snd p)) (combine new_nodes mid) c in
        let connecting := chain (a :: new_nodes ++ [b]) in
        Ok (mkJoined (jn_rail_nodes j ++ new_nodes ++ tk_rail_nodes t)
                     (jn_rail_els j ++ connecting ++ tk_rail_els t)
                     (jn_sleepers j ++ tk_sleepers t)
                     (jn_pad_nodes j ++ tk_pad_nodes t) (jn_pad_els j ++ tk_pad_els t)
                     (jn_soil j ++ [(tk_soil_nodes t, tk_soil_els t)]),
            c, new_nodes, connecting, (fresh + length mid)%nat)
    | _, _ => Err ErrIndex
    end.
  (** mesh_utils.py 327-357: the loop over the tracks *)
  Fixpoint join_tracks (c : heap) (fresh r : nat) (j : joined) (ts : list track) (added : list nat) (els : list (nat * nat))
    : res (joined * heap * list nat * list (nat * nat)) :=
    match ts with
    | [] => Ok (j, c, added, els)
    | t :: q => do s <- join_track c fresh r j t ;
                let '(j', c', ns, es, fresh') := s in join_tracks c' fresh' r j' q (added ++ ns) (els ++ es)
    end.

  (** mesh_utils.py 292-367, [combine_horizontal_tracks]: the joined parts, the coordinates and the nodes and elements of
      the global mesh.  [fresh] is the first unused identity.  Simplified: the meshes have no coinciding elements, so
      [add_unique_elements_to_mesh] appends them; there is at least one track (otherwise line 359 raises) *)
  Definition combine_horizontal_tracks (h : tri Z -> Z) (c : heap) (fresh : nat) (ts : list track) (d : T) (r : nat)
    : res (joined * heap * list nat * list (nat * nat)) :=
    match ts with
    | [] => Err ErrIndex
    | t :: q =>
        let meshes := map (fun t => map (@n_id T) (tk_mesh t)) ts in
        do c <- move_meshes c (hd [] meshes) (tl meshes) d ;
        let object i := new_node i (tx (c i)) (ty (c i)) (tr (c i)) in
        let nodes := map (@n_id T) (mesh_of h (map (map object) meshes)) in
        do s <- join_tracks c fresh r (joined_of t) q [] [] ;
        let '(j, c, added, es) := s in
        Ok (j, c, nodes ++ added, flat_map tk_mesh_els ts ++ es)
    end.

  (** ** hinge *)

  (** mesh_utils.py 98-110: position of the first rail node at [x] *)
  Fixpoint find_at (c : heap) (x : T) (i : nat) (nodes : list nat) : option (nat * nat) :=
    match nodes with
    | [] => None
    | n :: q => if np_isclose (tx (c n)) x then Some (i, n) else find_at c x (S i) q
    end.

  (** removal of the item at position [i] (the nodes and the elements of a rail are pairwise different, so that
      [list.remove], which removes the first equal item, removes the item itself) (mesh_utils.py 79-160) *)
  Definition remove_at {A} (i : nat) (l : list A) : list A := firstn i l ++ skipn (S i) l.

  (** a rail part of one element at the hinge, with its end springs ([None]: not set, infinite) (mesh_utils.py 79-160) *)
  Record hinge_part := mkHingePart { hp_element : nat * nat; hp_spring1 : option T; hp_spring2 : option T }.

  (** the same node: coordinates within the tolerance of [Node.__eq__] (geometry.py 87-117; mesh_utils.py 79-160) *)
  Definition same_node (c : heap) (a b : nat) : bool := coords_equal (c a) (c b).

  (** mesh_utils.py 117-142: reverse iteration; [idx] counts from the end, [rest] is the reversed list of the elements
      still to be visited, [kept] the elements that stay (in order), [removed] the last value of [removed_el_idx] *)
  Fixpoint hinge_loop (c : heap) (hinge : nat) (k : T) (idx : nat) (rest kept : list (nat * nat)) (removed : option nat) (parts : list hinge_part)
    : list (nat * nat) * option nat * list hinge_part :=
    match rest with
    | [] => (kept, removed, parts)
    | e :: q =>
        if same_node c (fst e) hinge || same_node c (snd e) hinge then
          let p := mkHingePart e (if same_node c hinge (fst e) then Some (k / lit 2) else None)
                                 (if same_node c hinge (snd e) then Some (k / lit 2) else None) in
          hinge_loop c hinge k (S idx) q kept (Some idx) (parts ++ [p])
        else hinge_loop c hinge k (S idx) q (e :: kept) removed parts
    end.

  (** [[l[i] for i in range(a, b)]]: an index beyond the end raises (mesh_utils.py 79-160) *)
  Definition take_range {A} (l : list A) (a b : nat) : res (list A) :=
    if Nat.leb b (length l) || Nat.leb b a then Ok (firstn (b - a) (skipn a l)) else Err ErrIndex.

  (** mesh_utils.py 79-159, [add_semi_rigid_hinge_at_x] for a rail with nodes [nodes] and elements [els] and a hinge of
      rotational stiffness [k] (a number): the rail part before (nodes, elements), the parts at the hinge and the rail
      part after it.  The mesh is valid (lines 91-94).  An element list without the hinge node gives [None + 1], a
      TypeError. *)
  Definition add_semi_rigid_hinge (c : heap) (nodes : list nat) (els : list (nat * nat)) (k x : T)
    : res ((list nat * list (nat * nat)) * list hinge_part * (list nat * list (nat * nat))) :=
    match find_at c x 0 nodes with
    | None => Err ErrOther
    | Some (removed_node, hinge) =>
        let nodes := remove_at removed_node nodes in
        let '(els, removed, parts) := hinge_loop c hinge k 0 (rev els) [] None [] in
        match removed with
        | None => Err ErrType
        | Some idx =>
            let removed_el := Z.to_nat (Z.of_nat (length els) - Z.of_nat idx + 1) in
            do e1 <- take_range els 0 removed_el ;
            do n1 <- take_range nodes 0 removed_node ;
            do e2 <- take_range els removed_el (length els) ;
            do n2 <- take_range nodes removed_node (length nodes) ;
            Ok ((n1, e1), rev parts, (n2, e2))
        end
    end.

  (** ** boundary at the bottom *)

  (** mesh_utils.py 56-76, [add_no_displacement_boundary_to_bottom]: [sorted] is stable, so the first of the lowest
      nodes; an element without nodes raises *)
  Fixpoint lowest (c : heap) (best : nat) (ns : list nat) : nat :=
    match ns with [] => best | n :: q => if nltb (ty (c n)) (ty (c best)) then lowest c n q else lowest c best q end.
  (** mesh_utils.py 56-76 for all elements *)
  Fixpoint bottom_boundary (c : heap) (els : list (list nat)) : res (list nat) :=
    match els with
    | [] => Ok []
    | [] :: _ => Err ErrIndex
    | (n :: ns) :: q => do r <- bottom_boundary c q ; Ok (lowest c n ns :: r)
    end.
End Mesh.

Arguments track T : clear implicits.
Arguments heap T : clear implicits.
Arguments hinge_part T : clear implicits.
