(** * Property theorems C01-C05, C09, C10 (nodes, elements, mesh, nodal results) *)

From Coq Require Import Reals List Bool ZArith Arith Lra.
From Verif Require Import Num PyBase Model_Geometry Spec_Geometry Proofs_Geometry Proofs_Elements.
Import ListNotations.
Local Open Scope R_scope.

(** C01: comparing two nodes answers "within 1e-9 in every coordinate"; a negative answer changes
    nothing; a positive answer merges the other node's active directions, dof numbers and parts. *)
Theorem C01_node_compare (a b : node R) :
  (fst (node_eq a b) = true <-> coincide (n_coord a) (n_coord b)) /\
  (fst (node_eq a b) = false -> snd (node_eq a b) = a) /\
  (fst (node_eq a b) = true ->
     n_id (snd (node_eq a b)) = n_id a /\
     n_index (snd (node_eq a b)) = n_index a /\
     n_coord (snd (node_eq a b)) = n_coord a /\
     n_parts (snd (node_eq a b)) = n_parts a ++ n_parts b /\
     forall d,
       tget (n_flag (snd (node_eq a b))) d = (tget (n_flag a) d || tget (n_flag b) d)%bool /\
       (forall k, tget (n_dof b) d = Some k -> tget (n_dof (snd (node_eq a b))) d = Some k) /\
       (tget (n_dof b) d = None -> tget (n_dof (snd (node_eq a b))) d = tget (n_dof a) d)).
Proof. exact (node_compare a b). Qed.
Print Assumptions C01_node_compare.

Example C01_case :
  fst (node_eq (new_node 0 1 2 3) (new_node 1 (1 + 1 / 2000000000) 2 3)) = true /\
  fst (node_eq (new_node 0 1 2 3) (new_node 1 (1 + 1 / 400000000) 2 3)) = false.
Proof.
  split.
  - apply C01_node_compare. intros []; simpl; apply Rabs_le; lra.
  - destruct (fst (node_eq _ _)) eqn:e; auto. apply (proj1 (C01_node_compare _ _)) in e.
    specialize (e DX). simpl in e. unfold Rabs in e. destruct (Rcase_abs _) in e; lra.
Qed.

(** C02: for every hash function and every history of calls on a new mesh: at most one node per rounded
    position, every node passed is represented, nothing else is stored, the stored order is the order
    of first appearance (the old list is a prefix of the new one) and re-adding stored objects changes nothing. *)
Theorem C02_mesh_nodes (h : tri Z -> Z) (batches : list (list (node R))) :
  (forall a b, In a (concat batches) -> In b (concat batches) -> n_id a = n_id b -> n_coord a = n_coord b) ->
  NoDup (map (fun n => rounded9 (n_coord n)) (mesh_of h batches)) /\
  (forall n, In n (concat batches) -> exists s, In s (mesh_of h batches) /\ coincide (n_coord s) (n_coord n)) /\
  (injective h -> forall n, In n (concat batches) ->
     exists s, In s (mesh_of h batches) /\ rounded9 (n_coord s) = rounded9 (n_coord n)) /\
  (forall s, In s (mesh_of h batches) -> exists n, In n (concat batches) /\ n_id n = n_id s /\ n_coord n = n_coord s) /\
  (forall new, is_prefix (map (@n_id R) (mesh_of h batches)) (map (@n_id R) (mesh_of h (batches ++ [new])))) /\
  (forall again, (forall n, In n again -> exists s, In s (mesh_of h batches) /\ n_id s = n_id n /\ n_coord s = n_coord n) ->
     mesh_of h (batches ++ [again]) = mesh_of h batches).
Proof. exact (mesh_invariant h batches). Qed.
Print Assumptions C02_mesh_nodes.

Example C02_case :
  let batches := [[new_node 0 0 0 0; new_node 1 1 0 0]; [new_node 2 1 0 0; new_node 1 1 0 0; new_node 3 2 0 0]] in
  forall a b : node R, In a (concat batches) -> In b (concat batches) -> n_id a = n_id b -> n_coord a = n_coord b.
Proof.
  intros batches a b ha hb. simpl in ha, hb.
  repeat (destruct ha as [<-|ha]); try contradiction;
    repeat (destruct hb as [<-|hb]); try contradiction; simpl; intros; auto; discriminate.
Qed.

(** C02: no active direction and no model part of a passed node is lost *)
Theorem C02_mesh_nodes_merge (h : tri Z -> Z) (batches : list (list (node R))) :
  NoDup (map (@n_id R) (concat batches)) ->
  forall n, In n (concat batches) ->
  exists s, In s (mesh_of h batches) /\ coincide (n_coord s) (n_coord n) /\
            (forall d, tget (n_flag n) d = true -> tget (n_flag s) d = true) /\ incl (n_parts n) (n_parts s).
Proof. exact (mesh_no_loss h batches). Qed.
Print Assumptions C02_mesh_nodes_merge.

Example C02_merge_case :
  NoDup (map (@n_id R) (concat [[new_node 0 0 0 0; new_node 1 1 0 0]; [set_dof (new_node 2 1 0 0) 2 false]])).
Proof. repeat constructor; simpl; intuition discriminate. Qed.

(** C03 (full statement refuted): a hash function that separates two neighbouring rounded positions
    keeps two nodes that compare equal. *)
Theorem C03_equal_nodes_once_refuted (h : tri Z -> Z) :
  h (T3 0%Z 0%Z 0%Z) <> h (T3 1%Z 0%Z 0%Z) ->
  exists ns, ~ pairwise_not (fun a b => coincide (n_coord a) (n_coord b)) (add_unique_nodes h [] ns).
Proof. exact (equal_nodes_once_refuted h). Qed.
Print Assumptions C03_equal_nodes_once_refuted.

Example C03_refuted_case : let h := fun k : tri Z => tx k in h (T3 0%Z 0%Z 0%Z) <> h (T3 1%Z 0%Z 0%Z).
Proof. discriminate. Qed.

(** C03 (partial): it holds when coincident input nodes round to the same position.
    Missing: coincident nodes on different sides of a rounding boundary, see the refutation. *)
Theorem C03_equal_nodes_once_partial (h : tri Z -> Z) (batches : list (list (node R))) :
  (forall a b, In a (concat batches) -> In b (concat batches) ->
     coincide (n_coord a) (n_coord b) -> rounded9 (n_coord a) = rounded9 (n_coord b)) ->
  pairwise_not (fun a b => coincide (n_coord a) (n_coord b)) (mesh_of h batches).
Proof. exact (equal_nodes_once_grid h batches). Qed.
Print Assumptions C03_equal_nodes_once_partial.

Example C03_partial_case :
  let batches := [[new_node 0 0 0 0; new_node 1 1 0 0]; [new_node 2 1 0 0]] in
  forall a b : node R, In a (concat batches) -> In b (concat batches) ->
     coincide (n_coord a) (n_coord b) -> rounded9 (n_coord a) = rounded9 (n_coord b).
Proof.
  intros batches a b ha hb hc. specialize (hc DX). simpl in ha, hb.
  repeat (destruct ha as [<-|ha]); try contradiction;
    repeat (destruct hb as [<-|hb]); try contradiction; simpl in *; auto;
    exfalso; unfold Rabs in hc; destruct (Rcase_abs _) in hc; lra.
Qed.

(** C04: renumbering gives node (element) number i the index i, changes nothing else, and is idempotent. *)
Theorem C04_renumber_nodes (ns : list (node R)) :
  length (reorder_node_ids ns) = length ns /\
  (forall i n, nth_error ns i = Some n ->
     nth_error (reorder_node_ids ns) i =
     Some (mkNode (n_id n) (Some i) (n_dof n) (n_coord n) (n_flag n) (n_parts n))) /\
  map (@n_index R) (reorder_node_ids ns) = map Some (seq 0 (length ns)) /\
  reorder_node_ids (reorder_node_ids ns) = reorder_node_ids ns.
Proof. exact (reorder_nodes ns). Qed.
Print Assumptions C04_renumber_nodes.

Theorem C04_renumber_elements (es : list element) :
  length (reorder_element_ids es) = length es /\
  (forall i e, nth_error es i = Some e ->
     nth_error (reorder_element_ids es) i = Some (mkElement (e_id e) (Some i) (e_nodes e) (e_parts e))) /\
  map e_index (reorder_element_ids es) = map Some (seq 0 (length es)) /\
  reorder_element_ids (reorder_element_ids es) = reorder_element_ids es.
Proof. exact (reorder_elements es). Qed.
Print Assumptions C04_renumber_elements.

(** C05 (partial): for every hash function, no two stored elements have the same nodes in the same order;
    nothing foreign is stored; every passed element is represented and keeps its parts.
    Missing: elements on the same nodes in another order, see the refutation. *)
Theorem C05_elements_once_partial (h : tri Z -> Z) (he : list Z -> Z) (s : store R) (mesh es : list element) :
  (forall a b, In a (mesh ++ es) -> In b (mesh ++ es) -> e_id a = e_id b -> e_nodes a = e_nodes b) ->
  let stored := fst (add_unique_elements h he s mesh es) in
  let ends e := map (fun i => rounded9 (n_coord (s i))) (e_nodes e) in
  NoDup (map ends stored) /\
  (forall x, In x stored -> exists e, In e (mesh ++ es) /\ e_id e = e_id x /\ e_nodes e = e_nodes x) /\
  (forall e, In e (mesh ++ es) -> exists x, In x stored /\
       forall n, In n (e_nodes x) -> exists y, In y (e_nodes e) /\ coincide (n_coord (s y)) (n_coord (s n))) /\
  (injective h -> injective he -> forall e, In e (mesh ++ es) -> exists x, In x stored /\ ends x = ends e) /\
  (NoDup (map e_id (mesh ++ es)) -> forall e, In e (mesh ++ es) -> exists x, In x stored /\ incl (e_parts e) (e_parts x)).
Proof. exact (elements_once h he s mesh es). Qed.
Print Assumptions C05_elements_once_partial.

Example C05_case : forall a b, In a ([fwd] ++ [bwd; fwd]) -> In b ([fwd] ++ [bwd; fwd]) -> e_id a = e_id b -> e_nodes a = e_nodes b.
Proof.
  intros a b ha hb. simpl in ha, hb.
  repeat (destruct ha as [<-|ha]); try contradiction;
    repeat (destruct hb as [<-|hb]); try contradiction; simpl; intros; auto; discriminate.
Qed.

(** C05 (full statement refuted): an element and the same element with its nodes reversed compare equal
    but both stay in the mesh whenever the hash functions have no collisions. *)
Theorem C05_elements_once_refuted (h : tri Z -> Z) (he : list Z -> Z) :
  injective h -> injective he ->
  exists s a b, e_nodes b = rev (e_nodes a) /\ fst (fst (element_eq s a b)) = true /\
                fst (add_unique_elements h he s [] [a; b]) = [a; b].
Proof.
  intros hi hie. exists two_nodes, fwd, bwd. split; [reflexivity|].
  destruct (reversed_element_kept h he hi hie). split; assumption.
Qed.
Print Assumptions C05_elements_once_refuted.

(** C05: attaching a model part to an element records it once on the element and once on each of its nodes,
    touches no other node, and is idempotent. *)
Theorem C05_attach_part (s : store R) (e : element) (p : nat) :
  NoDup (e_nodes e) ->
  let (s', e') := add_model_part s e p in
  e_id e' = e_id e /\ e_index e' = e_index e /\ e_nodes e' = e_nodes e /\
  (In p (e_parts e) -> s' = s /\ e' = e) /\
  (~ In p (e_parts e) ->
     e_parts e' = e_parts e ++ [p] /\
     (forall i, In i (e_nodes e) -> n_parts (s' i) = n_parts (s i) ++ [p]) /\
     (forall i, ~ In i (e_nodes e) -> n_parts (s' i) = n_parts (s i))) /\
  (forall i, n_id (s' i) = n_id (s i) /\ n_index (s' i) = n_index (s i) /\ n_dof (s' i) = n_dof (s i) /\
             n_coord (s' i) = n_coord (s i) /\ n_flag (s' i) = n_flag (s i)) /\
  (add_model_part s' e' p = (s', e')).
Proof. exact (add_model_part_spec s e p). Qed.
Print Assumptions C05_attach_part.

(** C09: each active direction of a node receives the solver column with that direction's dof number;
    inactive directions of displacements, velocities and accelerations are zero. *)
Theorem C09_nodal_results (n : node R) (solver_row : nat -> R) :
  (forall d, tget (n_flag n) d = true <-> tget (n_dof n) d <> None) ->
  exists out : tri R,
    assign_result_to_node zero_row n solver_row = Ok (tlist out) /\
    (forall d k, tget (n_flag n) d = true -> tget (n_dof n) d = Some k -> tget out d = solver_row k) /\
    (forall d, tget (n_flag n) d = false -> tget out d = 0).
Proof.
  intros hf. destruct (assign_result_spec (T3 0 0 0) n solver_row hf) as [out [h1 [h2 h3]]].
  exists out. split; [exact h1|]. split; [exact h2|]. intros d hd. rewrite (h3 d hd). destruct d; reflexivity.
Qed.
Print Assumptions C09_nodal_results.

Example C09_case :
  let n := mkNode 0 (Some 4%nat) (T3 (Some 7%nat) None (Some 8%nat)) (T3 1 2 3) (T3 true false true) [] : node R in
  (forall d, tget (n_flag n) d = true <-> tget (n_dof n) d <> None).
Proof. intros n []; simpl; split; congruence. Qed.

(** C09: element forces scattered with a mask read back as given, zero elsewhere *)
Theorem C09_element_force (force : list R) (mask : tri bool) :
  length force = count_true (tlist mask) ->
  exists out : tri R,
    assign_force_row force (tlist mask) = Ok (tlist out) /\
    (forall d, tget mask d = false -> tget out d = 0) /\
    selected mask out = force.
Proof. exact (assign_force_spec force mask). Qed.
Print Assumptions C09_element_force.

Example C09_force_case : length [5; 6] = count_true (tlist (T3 true false true)).
Proof. reflexivity. Qed.

(** C09: a wrong number of result columns is rejected; a single column is used for every active direction *)
Theorem C09_wrong_columns (base : tri R) (n : node R) (row : list R) :
  let active := length (filter (fun d => tget (n_flag n) d) [DX; DY; DR]) in
  (length row <> active -> length row <> 1%nat -> assign_row (tlist base) n row = Err ErrValue) /\
  (forall v, row = [v] -> exists out : tri R, assign_row (tlist base) n row = Ok (tlist out) /\
     forall d, tget out d = if tget (n_flag n) d then v else tget base d).
Proof.
  destruct n as [id ix dof co [fx fy fr] pa], base as [bx byy br]. cbn [n_flag]. split.
  - intros h1 h2. unfold assign_row, masked_assign. cbn [n_flag].
    replace (Nat.eqb (length row) (count_true (tlist (T3 fx fy fr)))) with false.
    + destruct row as [|v [|w row]]; [reflexivity|cbn in h2; congruence|reflexivity].
    + symmetry. apply Nat.eqb_neq. intros e. apply h1. rewrite e. destruct fx, fy, fr; reflexivity.
  - intros v ->. exists (T3 (if fx then v else bx) (if fy then v else byy) (if fr then v else br)).
    split; [destruct fx, fy, fr; reflexivity|]. intros []; reflexivity.
Qed.
Print Assumptions C09_wrong_columns.

Example C09_wrong_case :
  let n := mkNode 0 None (T3 (Some 0%nat) (Some 1%nat) (Some 2%nat)) (T3 0 0 0) (T3 true true true) [] : node R in
  length [5; 6] <> length (filter (fun d => tget (n_flag n) d) [DX; DY; DR]) /\ length [5; 6] <> 1%nat.
Proof. cbn. split; discriminate. Qed.

(** C10 (partial): in active directions the nodal force is the solver's force, whatever the memory
    content of the freshly allocated array.  Missing: inactive directions, see the refutation. *)
Theorem C10_nodal_force_partial (memory : tri R) (n : node R) (solver_row : nat -> R) :
  (forall d, tget (n_flag n) d = true <-> tget (n_dof n) d <> None) ->
  exists out : tri R,
    assign_result_to_node (tlist memory) n solver_row = Ok (tlist out) /\
    (forall d k, tget (n_flag n) d = true -> tget (n_dof n) d = Some k -> tget out d = solver_row k) /\
    (forall d, tget (n_flag n) d = false -> tget out d = tget memory d).
Proof. exact (assign_result_spec memory n solver_row). Qed.
Print Assumptions C10_nodal_force_partial.

(** C10 (full statement refuted): the force array is not cleared, so an inactive direction reports
    whatever was in memory. *)
Theorem C10_nodal_force_zero_refuted :
  exists (memory : tri R) (n : node R) (d : dir) (out : tri R),
    (forall d, tget (n_flag n) d = true <-> tget (n_dof n) d <> None) /\
    tget (n_flag n) d = false /\
    assign_result_to_node (tlist memory) n (fun _ => 0) = Ok (tlist out) /\ tget out d <> 0.
Proof.
  exists (T3 7 7 7), (mkNode 0 None (T3 None (Some 0%nat) None) (T3 0 0 0) (T3 false true false) []), DX, (T3 7 0 7).
  repeat split; try (destruct d; simpl; congruence). simpl. lra.
Qed.
Print Assumptions C10_nodal_force_zero_refuted.
