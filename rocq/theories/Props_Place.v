(** * C144: where a model lies does not matter *)

From Coq Require Import Reals List Bool ZArith Arith Lia Lra Psatz.
From Verif Require Import Num PyBase Model_Geometry Model_System Spec_System Model_Element Spec_Element Proofs_Element Model_Accumulation Proofs_Accumulation
  Model_Track Spec_Track Proofs_Track Model_Moving Proofs_Load Spec_Geometry Proofs_Geometry Spec_Place.
Import ListNotations.
Local Open Scope R_scope.

Definition rmap {A B} (f : A -> B) (x : res A) : res B := match x with Ok a => Ok (f a) | Err e => Err e end.

Lemma rotation_moved v (p q : tri R) :
  calculate_rotation1 ((tx (moved v p), ty (moved v p)), (tx (moved v q), ty (moved v q))) = calculate_rotation1 ((tx p, ty p), (tx q, ty q)).
Proof.
  unfold calculate_rotation1, moved. cbn [tx ty]. rnum.
  replace (tx q + tx v - (tx p + tx v)) with (tx q - tx p) by ring. replace (ty q + ty v - (ty p + ty v)) with (ty q - ty p) by ring.
  replace (nltb (tx q + tx v) (tx p + tx v)) with (nltb (tx q) (tx p)); [reflexivity|].
  destruct (nltbP (tx q) (tx p)), (nltbP (tx q + tx v) (tx p + tx v)); try reflexivity; lra.
Qed.

Lemma distance_moved v (p q : tri R) : distance3 (moved v p) (moved v q) = distance3 p q.
Proof. unfold distance3, moved. cbn [tx ty tr]. rnum. f_equal. f_equal; [f_equal|]; unfold sq; rnum; ring. Qed.

Lemma distances_moved v (l : list (tri R)) : consecutive_distances (map (moved v) l) = consecutive_distances l.
Proof. induction l as [|p l IH]; [reflexivity|]. destruct l as [|q l]; [reflexivity|]. cbn [map consecutive_distances] in *. rewrite distance_moved. f_equal. exact IH. Qed.

Lemma node_at_moved v ns p : node_at (moved_mesh v ns) p = rmap (moved_node v) (node_at ns p).
Proof. unfold node_at, at_idx, moved_mesh. rewrite nth_error_map. destruct (nth_error ns p); reflexivity. Qed.

Lemma nodes_moved v ns l : mapr (node_at (moved_mesh v ns)) l = rmap (map (moved_node v)) (mapr (node_at ns) l).
Proof.
  induction l as [|p l IH]; [reflexivity|]. cbn [mapr]. rewrite node_at_moved, IH. destruct (node_at ns p); [|reflexivity]. cbn [rbind rmap].
  destruct (mapr (node_at ns) l); reflexivity.
Qed.

Lemma initialize_part_moved v ns p : initialize_part (moved_mesh v ns) p = initialize_part ns p.
Proof.
  unfold initialize_part. destruct (ep_kind p); try reflexivity. rewrite nodes_moved. destruct (mapr (node_at ns) (ep_nodes p)) as [nodes|e]; [|reflexivity]. cbn [rbind rmap].
  unfold calculate_length_rail. replace (map (@n_coord R) (map (moved_node v) nodes)) with (map (moved v) (map (@n_coord R) nodes)) by (rewrite !map_map; reflexivity).
  rewrite distances_moved. reflexivity.
Qed.

Lemma number_moved v k ns : number_from k (moved_mesh v ns) = moved_mesh v (number_from k ns).
Proof. revert k. induction ns as [|n ns IH]; intros k; [reflexivity|]. cbn [moved_mesh map number_from]. f_equal. apply IH. Qed.

Lemma ndof_moved v ns : initialise_ndof (moved_mesh v ns) = (moved_mesh v (fst (initialise_ndof ns)), snd (initialise_ndof ns)).
Proof.
  unfold initialise_ndof. cbn [fst snd]. rewrite number_moved. f_equal. generalize 0%nat. induction ns as [|n ns IH]; intros k; [reflexivity|]. cbn [moved_mesh map fold_left]. apply IH.
Qed.

Lemma contributions_moved v ns p aux : contributions (moved_mesh v ns) p aux = contributions ns p aux.
Proof.
  unfold contributions. destruct (ep_els p) as [|e0 es].
  - apply mapr_ext. intros i. rewrite node_at_moved. destruct (node_at ns i); reflexivity.
  - apply mapr_ext. intros e. rewrite !node_at_moved. destruct (node_at ns (fst e)) as [a|]; [|reflexivity]. cbn [rbind rmap]. destruct (node_at ns (snd e)) as [b|]; [|reflexivity]. cbn [rbind rmap].
    change (node_numbers (moved_node v a)) with (node_numbers a). change (node_numbers (moved_node v b)) with (node_numbers b).
    destruct (node_numbers a); [|reflexivity]. cbn [rbind]. destruct (node_numbers b); [|reflexivity]. cbn [rbind]. f_equal. f_equal.
    unfold rotated. destruct (ep_kind p); try reflexivity; unfold rotate_aux_matrix; cbn [moved_node n_coord]; rewrite rotation_moved; reflexivity.
Qed.

Lemma add_part_moved v ns s p : add_part (moved_mesh v ns) s p = add_part ns s p.
Proof.
  assert (h : forall g aux, add_matrix (moved_mesh v ns) p g aux = add_matrix ns p g aux) by (intros g [a|]; cbn [add_matrix]; [rewrite contributions_moved|]; reflexivity).
  unfold add_part. rewrite !h. reflexivity.
Qed.

Lemma add_parts_moved v ns ps s : add_parts (moved_mesh v ns) s ps = add_parts ns s ps.
Proof.
  revert s. induction ps as [|p ps IH]; intros s; [reflexivity|]. cbn [add_parts]. rewrite add_part_moved. destruct (add_part ns s p); [|reflexivity]. cbn [rbind]. apply IH.
Qed.

Lemma flat_map_map {A B C} (f : A -> B) (g : B -> list C) l : flat_map g (map f l) = flat_map (fun a => g (f a)) l.
Proof. induction l as [|a l IH]; [reflexivity|]. cbn. rewrite IH. reflexivity. Qed.

Lemma conditions_moved v ns ls f : rbind (mapr (load_cond (moved_mesh v ns)) ls) (fun c => Ok (fold_left add_condition c f)) =
  rbind (mapr (load_cond ns) ls) (fun c => Ok (fold_left add_condition c f)).
Proof.
  revert f. induction ls as [|l ls IH]; intros f; [reflexivity|]. cbn [mapr]. unfold load_cond at 1 3. rewrite nodes_moved. destruct (mapr (node_at ns) (ld_nodes l)) as [nodes|e]; [|reflexivity]. cbn [rbind rmap].
  pose proof (IH (add_condition f (mkCond (ld_flag l) nodes (ld_vals l)))) as g.
  destruct (mapr (load_cond (moved_mesh v ns)) ls) as [c1|e1], (mapr (load_cond ns) ls) as [c2|e2]; cbn [rbind fold_left] in *; try congruence.
  rewrite <- g. unfold add_condition at 2 4. cbn [c_flag c_nodes c_vals]. unfold part_dof_indices, part_mask. rewrite !flat_map_map. reflexivity.
Qed.

Lemma assemble_moved v ns ps ls : assemble_system (moved_mesh v ns) ps ls = rmap (fun r => (fst r, moved_mesh v (snd r))) (assemble_system ns ps ls).
Proof.
  unfold assemble_system. rewrite (mapr_ext _ (initialize_part ns)) by (intros; apply initialize_part_moved). destruct (mapr (initialize_part ns) ps) as [ps'|e]; [|reflexivity]. cbn [rbind].
  rewrite ndof_moved. destruct (initialise_ndof ns) as [ms n]. cbn [fst snd]. rewrite add_parts_moved. destruct (add_parts ms (zero_system n) ps') as [s|e]; [|reflexivity]. cbn [rbind].
  pose proof (conditions_moved v ms ls (gF s)) as g. destruct (mapr (load_cond (moved_mesh v ms)) ls), (mapr (load_cond ms) ls); cbn [rbind rmap] in *; try congruence.
  injection g as ->. reflexivity.
Qed.

Lemma lset_map {A B} (f : A -> B) l p a : lset (map f l) p (f a) = map f (lset l p a).
Proof. revert p. induction l as [|x l IH]; intros [|p]; cbn; try reflexivity. f_equal. apply IH. Qed.

Lemma constraint_moved v c ns : apply_constraint (moved_mesh v ns) c = moved_mesh v (apply_constraint ns c).
Proof.
  destruct c as [l t]. unfold apply_constraint. cbn [fst snd]. revert ns. induction l as [|p l IH]; intros ns; [reflexivity|]. cbn [fold_left]. unfold moved_mesh at 1 2 4. rewrite nth_error_map.
  destruct (nth_error ns p) as [n|]; cbn [option_map]; [|apply IH]. change (with_flag (moved_node v n) t) with (moved_node v (with_flag n t)). rewrite lset_map. apply IH.
Qed.

Lemma constraints_moved v cs ns : fold_left apply_constraint cs (moved_mesh v ns) = moved_mesh v (fold_left apply_constraint cs ns).
Proof. revert ns. induction cs as [|c cs IH]; intros ns; [reflexivity|]. cbn [fold_left]. rewrite constraint_moved. apply IH. Qed.

Lemma recalc_moved v rem ns j : recalc_from rem j (moved_mesh v ns) = (fst (recalc_from rem j ns), moved_mesh v (snd (recalc_from rem j ns))).
Proof.
  revert j. induction ns as [|n ns IH]; intros j; [reflexivity|]. cbn [moved_mesh map recalc_from].
  assert (h : recalc_node rem j (moved_node v n) = (fst (recalc_node rem j n), moved_node v (snd (recalc_node rem j n)))).
  { unfold recalc_node. cbn [moved_node n_dof n_flag]. destruct (n_dof n) as [[x|] [y|] [z|]]; cbn [recalc_dir];
      repeat match goal with |- context [memb ?a ?b] => destruct (memb a b) end; reflexivity. }
  rewrite h. destruct (recalc_node rem j n) as [j1 n1]. cbn [fst snd]. fold (moved_mesh v ns). rewrite IH. destruct (recalc_from rem j1 ns). reflexivity.
Qed.

Lemma trim_moved v (s : gsys R) ns : trim_all s (moved_mesh v ns) = rmap (fun r => (fst (fst r), moved_mesh v (snd (fst r)), snd r)) (trim_all s ns).
Proof.
  unfold trim_all. assert (h : obsolete_indices s (moved_mesh v ns) = obsolete_indices s ns).
  { unfold obsolete_indices, constrained_indices, moved_mesh. rewrite <- map_rev, flat_map_map. reflexivity. }
  rewrite h. destruct (trim_on_indices s (obsolete_indices s ns) (obsolete_indices s ns)); [|reflexivity]. cbn [rbind]. unfold recalculate_dof. rewrite recalc_moved.
  destruct (recalc_from (obsolete_indices s ns) 0 ns). reflexivity.
Qed.

(** C144: a model that is laid somewhere else has the same matrices, forces and numbers of degrees of freedom, and fails with the
    same error when it fails *)
Theorem C144_system v ns ps ls cs da : initialise_system (moved_mesh v ns) ps ls cs da =
  match initialise_system ns ps ls cs da with
  | Ok (s, ns', n) => Ok (s, moved_mesh v ns', n)
  | Err e => Err e
  end.
Proof.
  unfold initialise_system. rewrite assemble_moved. destruct (assemble_system ns ps ls) as [[s ms]|e]; [|reflexivity]. cbn [rbind rmap fst snd].
  rewrite constraints_moved, trim_moved. destruct (trim_all s (fold_left apply_constraint cs ms)) as [[[s' ns'] n]|e]; reflexivity.
Qed.
Print Assumptions C144_system.

(** ** moving loads *)

Lemma interp_moved (xs ys : list R) c v : length ys = length xs -> (2 <= length xs)%nat -> interp1 xs (map (fun y => y + c) ys) v = interp1 xs ys v + c.
Proof.
  intros hl h2. unfold interp1. set (hi := Nat.max 1 (Nat.min (searchsorted xs v) (length xs - 1))).
  assert (hh : (1 <= hi < length xs)%nat) by (unfold hi; lia). clearbody hi.
  assert (e : forall k, (k < length xs)%nat -> nth k (map (fun y => y + c) ys) (lit 0) = nth k ys (lit 0) + c).
  { intros k hk. rewrite (nth_indep _ (lit 0) (lit 0 + c)) by (rewrite map_length; lia). apply (map_nth (fun y => y + c)). }
  rewrite !e by lia. rnum. replace (nth hi ys 0 + c - (nth (hi - 1) ys 0 + c)) with (nth hi ys 0 - nth (hi - 1) ys 0) by ring. ring.
Qed.

Lemma moved_coord v (cum : list R) l d : length cum = length l -> (2 <= length l)%nat -> moving_coord cum (map (moved v) l) d = moved v (moving_coord cum l d).
Proof.
  intros h1 h2. unfold moving_coord, moved. cbn [tx ty tr]. f_equal.
  - rewrite <- interp_moved by (rewrite ?map_length; lia). f_equal. rewrite !map_map. reflexivity.
  - rewrite <- interp_moved by (rewrite ?map_length; lia). f_equal. rewrite !map_map. reflexivity.
  - rewrite <- interp_moved by (rewrite ?map_length; lia). f_equal. rewrite !map_map. reflexivity.
Qed.

Lemma distances_length (l : list (tri R)) : length (consecutive_distances l) = (length l - 1)%nat.
Proof. induction l as [|p l IH]; [reflexivity|]. destruct l as [|q l]; [reflexivity|]. cbn [consecutive_distances length] in *. rewrite IH. lia. Qed.
Lemma cumsum_length a (l : list R) : length (cumsum_from a l) = length l.
Proof. revert a. induction l as [|x l IH]; intros a; [reflexivity|]. cbn. rewrite IH. reflexivity. Qed.

Lemma combine_map_r {A B C} (f : B -> C) (l : list A) k : combine l (map f k) = map (fun p => (fst p, f (snd p))) (combine l k).
Proof. revert k. induction l as [|a l IH]; intros [|b k]; cbn; try reflexivity. rewrite IH. reflexivity. Qed.

(** C144: on a track that is laid somewhere else, a moving load is at the same place of the same element at every step *)
Theorem C144_moving v (m : moving_input R) :
  (2 <= length (mi_coords m))%nat -> (forall e, In e (mi_elements m) -> (fst e < length (mi_coords m))%nat) ->
  moving_initialize (moved_input v m) = moving_initialize m.
Proof.
  intros h2 he. unfold moving_initialize. cbn [moved_input mi_coords mi_elements mi_sizes mi_time mi_velocities mi_start mi_x mi_y mi_z mi_n_ini].
  unfold cum_distances_nodes. rewrite distances_moved. fold (cum_distances_nodes (mi_coords m)). set (cum := cum_distances_nodes (mi_coords m)).
  assert (hc : length cum = length (mi_coords m)) by (unfold cum, cum_distances_nodes, cumsum; cbn [length]; rewrite cumsum_length, distances_length; lia).
  destruct (cum_distance_from_velocity (mi_time m) (mi_velocities m)) as [tr0|e]; [|reflexivity]. cbn [rbind].
  match goal with |- context [set_active_elements ?a ?b ?c] => destruct (set_active_elements a b c) as [els|e] eqn:ea end; [|reflexivity]. cbn [rbind].
  destruct (component_history (mi_x m) (length (mi_time m)) (mi_n_ini m)); [|reflexivity]. cbn [rbind].
  destruct (component_history (mi_y m) (length (mi_time m)) (mi_n_ini m)); [|reflexivity]. cbn [rbind].
  destruct (component_history (mi_z m) (length (mi_time m)) (mi_n_ini m)); [|reflexivity]. cbn [rbind].
  match goal with |- rbind ?x _ = rbind ?x _ => destruct x end; [|reflexivity]. cbn [rbind]. do 2 f_equal.
  rewrite (map_ext _ (fun d => moved v (moving_coord cum (mi_coords m) d))) by (intros d; apply moved_coord; assumption).
  rewrite <- (map_map (moving_coord cum (mi_coords m)) (moved v)), combine_map_r, map_map. apply map_ext_in. intros [e c] hin. cbn [fst snd].
  apply in_combine_l in hin. unfold set_active_elements in ea. match type of ea with (if ?b then _ else _) = _ => destruct b eqn:eb end; [|discriminate].
  injection ea as <-. apply in_map_iff in hin. destruct hin as [z [<- hz]]. rewrite forallb_forall in eb. specialize (eb z hz). apply andb_prop in eb. destruct eb as [b1 b2].
  apply Z.leb_le in b1. apply Z.ltb_lt in b2.
  assert (hk : (fst (nth (Z.to_nat z) (mi_elements m) (0, 0)%nat) < length (mi_coords m))%nat) by (apply he, nth_In; lia).
  rewrite (nth_indep _ _ (moved v (T3 (lit 0) (lit 0) (lit 0)))) by (rewrite map_length; exact hk). rewrite map_nth. apply distance_moved.
Qed.
Print Assumptions C144_moving.

Lemma point_rotation_moved v (p q : tri R) : near_origin p q -> near_origin (moved v p) (moved v q) ->
  calculate_point_rotation (tx (moved v p), ty (moved v p)) (tx (moved v q), ty (moved v q)) = calculate_point_rotation (tx p, ty p) (tx q, ty q).
Proof.
  assert (b : forall a c, near_origin a c -> math_isclose (tx c) (tx a) = neqb (tx c) (tx a)).
  { intros a c h. pose proof (math_isclose_spec (tx c) (tx a)) as g. destruct (neqbP (tx c) (tx a)) as [e|ne].
    - apply g. rewrite e, Rminus_diag_eq by reflexivity. rewrite Rabs_R0. pose proof (Rmax_l (Rabs (tx a)) (Rabs (tx a))). pose proof (Rabs_pos (tx a)). lra.
    - destruct (math_isclose (tx c) (tx a)); [|reflexivity]. destruct g as [g _]. specialize (g eq_refl). destruct h as [h|h]; [congruence|lra]. }
  intros h1 h2. unfold calculate_point_rotation. rewrite (b _ _ h1), (b _ _ h2). unfold moved. cbn [tx ty]. rnum.
  replace (tx q + tx v - (tx p + tx v)) with (tx q - tx p) by ring. replace (ty q + ty v - (ty p + ty v)) with (ty q - ty p) by ring.
  destruct (neqbP (tx q) (tx p)) as [e|ne], (neqbP (tx q + tx v) (tx p + tx v)) as [e2|ne2]; [reflexivity|exfalso; apply ne2; lra|exfalso; apply ne; lra|].
  destruct (nltbP (tx q) (tx p)), (nltbP (tx q + tx v) (tx p + tx v)); try reflexivity; lra.
Qed.

(** C144: and it acts with the same forces on the nodes, unless the track lies so far from the origin that the coordinates of the
    ends of its elements agree in nine digits *)
Theorem C144_forces v (m : moving_input R) d beams st t :
  (forall i j a b, In (i, j) (mv_nodes d) -> nth_error (mi_coords m) i = Some a -> nth_error (mi_coords m) j = Some b -> near_origin a b /\ near_origin (moved v a) (moved v b)) ->
  moving_update (moved_input v m) d beams st t = moving_update m d beams st t.
Proof.
  intros h. unfold moving_update. destruct (nth_error (mv_nodes d) t) as [[i j]|] eqn:e; [|reflexivity]. destruct (nth_error (mv_x d) t); [|reflexivity]. destruct (nth_error (mv_y d) t); [|reflexivity].
  destruct (nth_error (mv_z d) t); [|reflexivity]. destruct (nth_error (mv_local d) t); [|reflexivity]. destruct (nth_error (mv_part d) t) as [k|]; [|reflexivity].
  cbn [moved_input mi_coords]. rewrite !nth_error_map. destruct (nth_error (mi_coords m) i) as [a|] eqn:ei; [|reflexivity]. destruct (nth_error (mi_coords m) j) as [b|] eqn:ej; [|reflexivity]. cbn [option_map].
  destruct (nth_error beams k) as [[l phi]|]; [|reflexivity]. destruct (h i j a b (nth_error_In _ _ e) ei ej) as [h1 h2].
  unfold distribute. rewrite (point_rotation_moved v a b h1 h2). reflexivity.
Qed.
Print Assumptions C144_forces.

(** the claim in full does not hold: an element that rises 4 m over 3 m is taken for an upright one when it lies 4 million
    kilometres away, and a vertical load at its middle then has no moments on its nodes *)
Theorem C144_far_refuted : exists v (m : moving_input R) d beams st t st1 st2,
  moving_initialize m = Ok d /\ moving_initialize (moved_input v m) = Ok d /\ moving_update m d beams st t = Ok st1 /\ moving_update (moved_input v m) d beams st t = Ok st2 /\ nth 0 (st_z st1) 0 <> 0 /\ nth 0 (st_z st2) 0 = 0.
Proof.
  set (m := mkMovingInput [T3 0 0 0; T3 3 4 0] ((0, 1)%nat :: nil) None (0 :: nil) (0 :: nil) (Some (5 / 2)) None (Some (-1)) None 0).
  set (v := T3 4000000000 0 0).
  assert (e5 : distance3 (T3 0 0 0) (T3 3 4 0) = 5).
  { unfold distance3, sq. cbn [tx ty tr]. rnum. replace ((3 - 0) * (3 - 0) + (4 - 0) * (4 - 0) + (0 - 0) * (0 - 0)) with (5 * 5) by ring. apply sqrt_square. lra. }
  assert (hi : exists d, moving_initialize m = Ok d /\ mv_nodes d = ((0, 1)%nat :: nil) /\ mv_x d = (0 :: nil) /\ mv_y d = (-1 :: nil) /\ mv_z d = (0 :: nil) /\ mv_part d = (0%nat :: nil) /\ mv_local d = (5 / 2 :: nil)).
  { unfold moving_initialize, m. cbn [mi_coords mi_elements mi_sizes mi_time mi_velocities mi_start mi_x mi_y mi_z mi_n_ini].
    unfold cum_distances_nodes, cumsum. cbn [consecutive_distances cumsum_from]. rewrite e5. cbn [cum_distance_from_velocity np_diff removelast length Nat.eqb combine map cumsum cumsum_from rbind]. rnum.
    unfold set_active_elements, get_first_element_idx. cbn [map nth]. rnum.
    assert (n1 : nltb 0 (0 - (0 + 5 / 2)) = false) by (destruct (nltbP 0 (0 - (0 + 5 / 2))); [lra|reflexivity]).
    assert (n2 : nltb 0 (0 + 5 - (0 + 5 / 2)) = true) by (destruct (nltbP 0 (0 + 5 - (0 + 5 / 2))); [reflexivity|lra]).

    assert (n3 : nltb (0 + 5) (0 + 5 / 2) = false) by (destruct (nltbP (0 + 5) (0 + 5 / 2)); [lra|reflexivity]).
    assert (n4 : nltb (0 + 5 / 2) 0 = false) by (destruct (nltbP (0 + 5 / 2) 0); [lra|reflexivity]).
    assert (n5 : nltb 0 (0 + 5 / 2) = true) by (destruct (nltbP 0 (0 + 5 / 2)); [reflexivity|lra]).
    rewrite n1, n2. cbn -[moving_coord distance3 filer_location filter_data_outside_range]. eexists. split; [reflexivity|]. cbn [mv_nodes mv_x mv_y mv_z mv_part mv_local].
    unfold filter_data_outside_range, filer_location. cbn [map combine fst snd]. rnum. rewrite !n3, !n4. repeat (split; [reflexivity || (f_equal; ring)|]).
    unfold moving_coord, interp1, searchsorted. cbn [filter]. rewrite ?n3, ?n5. cbn [length Nat.min Nat.max Nat.sub nth map tx ty tr combine fst snd].
    f_equal. unfold distance3, sq. cbn [tx ty tr]. rnum.
    match goal with |- sqrt ?a = _ => replace a with ((5 / 2) * (5 / 2)) by field end. apply sqrt_square. lra. }
  destruct hi as [d [hd [d1 [d2 [d3 [d4 [d5 d6]]]]]]].
  set (st := mkMState (0 :: 0 :: nil) (0 :: 0 :: nil) (0 :: 0 :: nil) (0, 0) (0, 0) (0, 0)).
  set (f1 := distribute 5 0 (0, 0) (3, 4) 0 1 (5 / 2) (T3 0 (-1) 0) st).
  set (f2 := distribute 5 0 (0 + 4000000000, 0 + 0) (3 + 4000000000, 4 + 0) 0 1 (5 / 2) (T3 0 (-1) 0) st).
  exists v, m, d, ((5, 0) :: nil), st, 0%nat, f1, f2. split; [exact hd|]. split; [rewrite C144_moving; [exact hd|cbn; lia|intros e [<-|[]]; cbn; lia]|].
  split; [unfold moving_update; rewrite d1, d2, d3, d4, d5, d6; reflexivity|]. split; [unfold moving_update; rewrite d1, d2, d3, d4, d5, d6; reflexivity|].
  assert (z : forall p q, nth 0 (st_z (distribute 5 0 p q 0 1 (5 / 2) (T3 0 (-1) 0) st)) 0 = - cos (calculate_point_rotation p q) * (5 / 8)).
  { intros p q. set (a := calculate_point_rotation p q). unfold distribute. fold a.
    rewrite !rotate_scalar_val. cbn [tx ty tr st_x st_y st_z st map w_normal w_shear w_moment].
    assert (z0 : is_zero 0 = true) by (apply is_zero_spec; reflexivity).
    rewrite z0. cbn [fst snd tadd iadd]. rnum.
    destruct (is_zero (- sin a * 0 + cos a * -1)) eqn:ez.
    - apply is_zero_spec in ez. cbn [fst snd tadd iadd nth lset]. unfold iadd. cbn. rnum. nra.
    - cbn [fst snd tadd]. unfold iadd, y_shape, sq, cube. cbn. rnum. field. }
  unfold f1, f2. rewrite !z. split.
  - assert (h : cos (calculate_point_rotation (0, 0) (3, 4)) = 3 / 5).
    { destruct (point_rotation_spec (0, 0) (3, 4)) as [g _]. destruct g as [g _]; [cbn [fst snd]; rewrite Rabs_R0, Rminus_0_r, Rabs_right, Rmax_left by lra; lra|].
      cbn [fst snd] in g. unfold plane_dist in g. cbn [fst snd] in g. replace ((3 - 0) * (3 - 0) + (4 - 0) * (4 - 0)) with (5 * 5) in g by ring. rewrite sqrt_square in g by lra. lra. }
    rewrite h. lra.
  - assert (h : calculate_point_rotation (0 + 4000000000, 0 + 0) (3 + 4000000000, 4 + 0) = PI / 2).
    { unfold calculate_point_rotation. replace (math_isclose (3 + 4000000000) (0 + 4000000000)) with true; [rnum; rewrite nsign_pos by lra; change (PI / 2 * 1 = PI / 2); field|].
      symmetry. apply math_isclose_spec. rewrite !Rabs_right by lra. rewrite Rmax_left by lra. lra. }
    rewrite h, cos_PI2. ring.
Qed.
Print Assumptions C144_far_refuted.

(** ** meshes *)

Lemma coords_equal_at (a b : tri R) : coords_equal a b = true <->
  Rabs (tx a - tx b) <= 1 / 1000000000 /\ Rabs (ty a - ty b) <= 1 / 1000000000 /\ Rabs (tr a - tr b) <= 1 / 1000000000.
Proof.
  rewrite Proofs_Geometry.coords_equal_spec. split; [intros h; split; [exact (h DX)|split; [exact (h DY)|exact (h DR)]]|]. intros [h1 [h2 h3]] [| |]; assumption.
Qed.

Lemma coords_equal_moved v (a b : tri R) : coords_equal (moved v a) (moved v b) = coords_equal a b.
Proof.
  assert (e : coords_equal (moved v a) (moved v b) = true <-> coords_equal a b = true).
  { rewrite !coords_equal_at. unfold moved. cbn [tx ty tr]. replace (tx a + tx v - (tx b + tx v)) with (tx a - tx b) by ring.
    replace (ty a + ty v - (ty b + ty v)) with (ty a - ty b) by ring. replace (tr a + tr v - (tr b + tr v)) with (tr a - tr b) by ring. tauto. }
  destruct (coords_equal (moved v a) (moved v b)), (coords_equal a b); try reflexivity; [symmetry; apply e; reflexivity|apply e; reflexivity].
Qed.

Lemma node_eq_moved v (s n : node R) : node_eq (moved_node v s) (moved_node v n) = (fst (node_eq s n), moved_node v (snd (node_eq s n))).
Proof.
  unfold node_eq. change (n_coord (moved_node v s)) with (moved v (n_coord s)). change (n_coord (moved_node v n)) with (moved v (n_coord n)). rewrite coords_equal_moved.
  destruct (coords_equal (n_coord s) (n_coord n)); reflexivity.
Qed.

Lemma find_moved h v n stored : (forall s, In s stored -> distinct_or_same (n_coord s) (n_coord n)) ->
  dict_find h (moved_mesh v stored) (moved_node v n) = option_map (moved_mesh v) (dict_find h stored n).
Proof.
  induction stored as [|s r IH]; intros hd; [reflexivity|]. change (moved_mesh v (s :: r)) with (moved_node v s :: moved_mesh v r). cbn [dict_find].
  change (n_id (moved_node v s)) with (n_id s). change (n_id (moved_node v n)) with (n_id n). destruct (Nat.eqb (n_id s) (n_id n)); [reflexivity|].
  rewrite (IH (fun s' hs => hd s' (or_intror hs))), node_eq_moved.
  destruct (hd s (or_introl eq_refl)) as [e|far].
  - assert (k1 : node_key (moved_node v s) = node_key (moved_node v n)) by (unfold node_key, moved_node; cbn [n_coord]; rewrite e; reflexivity).
    assert (k2 : node_key s = node_key n) by (unfold node_key; rewrite e; reflexivity).
    assert (c : coords_equal (n_coord s) (n_coord n) = true) by (apply coords_equal_at; rewrite e, !Rminus_diag_eq, Rabs_R0 by reflexivity; lra).
    rewrite k1, k2, !Z.eqb_refl. unfold node_eq. rewrite c. reflexivity.
  - assert (c : coords_equal (n_coord s) (n_coord n) = false).
    { destruct (coords_equal (n_coord s) (n_coord n)) eqn:e; [|reflexivity]. apply coords_equal_at in e. lra. }
    unfold node_eq. rewrite c. cbn [fst snd]. destruct (Z.eqb (h (node_key (moved_node v s))) _), (Z.eqb (h (node_key s)) _), (dict_find h r n); reflexivity.
Qed.

Lemma find_coords h n stored st (P : tri R -> Prop) : (forall s, In s stored -> P (n_coord s)) -> dict_find h stored n = Some st -> forall s, In s st -> P (n_coord s).
Proof.
  revert st. induction stored as [|s r IH]; intros st hp e; cbn [dict_find] in e; [discriminate|].
  assert (IH' : forall st', dict_find h r n = Some st' -> forall s', In s' st' -> P (n_coord s')) by (intros st' e'; apply (IH st'); [intros; apply hp; right; assumption|exact e']).
  destruct (Nat.eqb (n_id s) (n_id n)); [injection e as <-; exact hp|].
  assert (hs : P (n_coord s)) by (apply hp; left; reflexivity). unfold node_eq in e.
  destruct (Z.eqb (h (node_key s)) (h (node_key n))), (coords_equal (n_coord s) (n_coord n)), (dict_find h r n) as [r'|]; try discriminate; injection e as <-;
    intros s' [<-|hin]; try exact hs; try (apply hp; right; exact hin); exact (IH' r' eq_refl s' hin).
Qed.

Section Mesh.
  Variables (h : tri Z -> Z) (v : tri R) (pool : list (tri R)).
  Hypothesis clear : forall a b, In a pool -> In b pool -> distinct_or_same a b.

  Lemma insert_moved stored n : (forall s, In s stored -> In (n_coord s) pool) -> In (n_coord n) pool ->
    dict_insert h (moved_mesh v stored) (moved_node v n) = moved_mesh v (dict_insert h stored n) /\ forall s, In s (dict_insert h stored n) -> In (n_coord s) pool.
  Proof using clear.
    intros hs hn. unfold dict_insert. rewrite find_moved by (intros s hin; apply clear; [apply hs; exact hin|exact hn]). destruct (dict_find h stored n) as [st|] eqn:e; cbn [option_map].
    - split; [reflexivity|]. exact (find_coords h n stored st (fun c => In c pool) hs e).
    - split; [unfold moved_mesh; rewrite map_app; reflexivity|]. intros s hin. apply in_app_or in hin. destruct hin as [hin|[<-|[]]]; [apply hs; exact hin|exact hn].
  Qed.

  Lemma fold_moved ns stored : (forall s, In s stored -> In (n_coord s) pool) -> (forall n, In n ns -> In (n_coord n) pool) ->
    fold_left (dict_insert h) (moved_mesh v ns) (moved_mesh v stored) = moved_mesh v (fold_left (dict_insert h) ns stored) /\ forall s, In s (fold_left (dict_insert h) ns stored) -> In (n_coord s) pool.
  Proof using clear.
    revert stored. induction ns as [|n ns IH]; intros stored hs hn; [split; [reflexivity|exact hs]|]. cbn [moved_mesh map fold_left]. fold (moved_mesh v ns).
    destruct (insert_moved stored n hs (hn n (or_introl eq_refl))) as [e g]. fold (moved_mesh v stored) in *. rewrite e. apply IH; [exact g|intros m hm; apply hn; right; exact hm].
  Qed.

  Lemma batches_moved bs mesh : (forall s, In s mesh -> In (n_coord s) pool) -> (forall b n, In b bs -> In n b -> In (n_coord n) pool) ->
    fold_left (add_unique_nodes h) (map (moved_mesh v) bs) (moved_mesh v mesh) = moved_mesh v (fold_left (add_unique_nodes h) bs mesh).
  Proof using clear.
    revert mesh. induction bs as [|b bs IH]; intros mesh hm hb; [reflexivity|]. cbn [map fold_left]. unfold add_unique_nodes at 2 4, dict_fromkeys.
    destruct (fold_moved (mesh ++ b) [] ltac:(intros s [])) as [e g].
    { intros n hn. apply in_app_or in hn. destruct hn as [hn|hn]; [apply hm; exact hn|exact (hb b n (or_introl eq_refl) hn)]. }
    replace (moved_mesh v mesh ++ moved_mesh v b) with (moved_mesh v (mesh ++ b)) by (unfold moved_mesh; apply map_app). change (@nil (node R)) with (moved_mesh v []) at 1. rewrite e.
    apply IH; [exact g|intros b' n hb' hn; exact (hb b' n (or_intror hb') hn)].
  Qed.
End Mesh.

(** C144: the same nodes are merged when they are added to a mesh, for nodes that are at the same place or more than 1e-9 apart *)
Theorem C144_mesh h v batches :
  (forall b c m n, In b batches -> In c batches -> In m b -> In n c -> distinct_or_same (n_coord m) (n_coord n)) ->
  mesh_of h (map (moved_mesh v) batches) = moved_mesh v (mesh_of h batches).
Proof.
  intros hc. unfold mesh_of. change (@nil (node R)) with (moved_mesh v []) at 1. apply (batches_moved h v (map (@n_coord R) (concat batches))).
  - intros a b ha hb. apply in_map_iff in ha. destruct ha as [m [<- hm]]. apply in_map_iff in hb. destruct hb as [n [<- hn]].
    apply in_concat in hm. destruct hm as [b1 [b2 b3]]. apply in_concat in hn. destruct hn as [c1 [c2 c3]]. exact (hc b1 c1 m n b2 c2 b3 c3).
  - intros s [].
  - intros b n hb hn. apply in_map. apply in_concat. exists b. split; assumption.
Qed.
Print Assumptions C144_mesh.

(** the claim in full does not hold: two nodes 4e-10 apart are merged at the origin but not when they lie 3e-10 further, because
    their rounded coordinates differ there *)
Theorem C144_merge_refuted : exists h v (batches : list (list (node R))),
  length (mesh_of h batches) = 1%nat /\ length (mesh_of h (map (moved_mesh v) batches)) = 2%nat.
Proof.
  set (a := new_node 0 0 0 0 : node R). set (b := new_node 1 (4 / 10000000000) 0 0 : node R).
  exists (fun k => tx k), (T3 (3 / 10000000000) 0 0), [[a; b]]. 

  assert (k1 : node_key a = T3 0%Z 0%Z 0%Z) by (unfold node_key, a; cbn [new_node n_coord tx ty tr]; rewrite (round9_val 0 0) by (rewrite Rabs_right; lra); reflexivity).
  assert (k2 : node_key b = T3 0%Z 0%Z 0%Z).
  { unfold node_key, b. cbn [new_node n_coord tx ty tr]. rewrite (round9_val (4 / 10000000000) 0) by (rewrite Rabs_right; lra). rewrite (round9_val 0 0) by (rewrite Rabs_right; lra). reflexivity. }
  split.
  - unfold mesh_of, add_unique_nodes, dict_fromkeys. cbn [fold_left app dict_insert dict_find]. unfold dict_insert at 1. unfold dict_insert. cbn [dict_find app].
    change (Nat.eqb (n_id a) (n_id b)) with false. cbv iota. rewrite k1, k2. cbn [tx Z.eqb]. unfold node_eq.
    assert (c : coords_equal (n_coord a) (n_coord b) = true) by (apply coords_equal_at; unfold a, b; cbn [new_node n_coord tx ty tr]; rewrite (Rminus_diag_eq 0 0 eq_refl), Rabs_R0; split; [rewrite Rabs_left; lra|split; lra]).
    rewrite c. reflexivity.
  - set (v := T3 (3 / 10000000000) 0 0).
    assert (q1 : tx (node_key (moved_node v a)) = 0%Z) by (unfold node_key, v, moved_node, moved, a; cbn [new_node n_coord tx ty tr]; apply round9_val; rewrite Rabs_right; lra).
    assert (q2 : tx (node_key (moved_node v b)) = 1%Z) by (unfold node_key, v, moved_node, moved, b; cbn [new_node n_coord tx ty tr]; apply round9_val; rewrite Rabs_left; lra).
    unfold mesh_of, add_unique_nodes, dict_fromkeys. cbn [map moved_mesh fold_left app]. unfold dict_insert at 2. cbn [dict_find app]. unfold dict_insert. cbn [dict_find].
    change (Nat.eqb (n_id (moved_node v a)) (n_id (moved_node v b))) with false. cbv iota. rewrite q1, q2. reflexivity.
Qed.
Print Assumptions C144_merge_refuted.

(** a sloping rail of two elements on a spring, 100 km east of the origin and 20 m up, under a load that runs over it *)
Definition case_rails : list (tri R) := [T3 0 0 0; T3 1 (1 / 10) 0; T3 2 (1 / 5) 0].
Example C144_case : let v := T3 100000 20 0 in let m := mkMovingInput case_rails [(0, 1); (1, 2)]%nat None [0; 1; 2] [1 / 2; 1 / 2; 1 / 2] (Some (1 / 4)) None (Some (-60000)) None 0%nat in
  moving_initialize (moved_input v m) = moving_initialize m /\
  (forall a b, In a case_rails -> In b case_rails -> distinct_or_same a b /\ near_origin a b /\ near_origin (moved v a) (moved v b)).
Proof.
  cbv zeta. split; [apply C144_moving; [cbn; lia|intros e [<-|[<-|[]]]; cbn; lia]|].
  assert (g : forall x y, 0 <= x <= 2 -> 0 <= y <= 2 -> 1 <= Rabs (y - x) -> 1 / 1000000000 * Rmax (Rabs (y + 100000)) (Rabs (x + 100000)) < Rabs (y - x) /\ 1 / 1000000000 * Rmax (Rabs y) (Rabs x) < Rabs (y - x)).
  { intros x y hx hy hd. rewrite !(Rabs_right (_ + _)), (Rabs_right y), (Rabs_right x) by lra. split; [assert (q : Rmax (y + 100000) (x + 100000) <= 100002) by (apply Rmax_lub; lra); lra|assert (q : Rmax y x <= 2) by (apply Rmax_lub; lra); lra]. }
  assert (k : forall a b, 0 <= tx a <= 2 -> 0 <= tx b <= 2 -> 1 <= Rabs (tx b - tx a) -> distinct_or_same a b /\ near_origin a b /\ near_origin (moved (T3 100000 20 0) a) (moved (T3 100000 20 0) b)).
  { intros a b ha hb hd. destruct (g _ _ ha hb hd) as [g1 g2]. split; [right; left; rewrite Rabs_minus_sym; lra|]. split; [right; exact g2|]. right. cbn [moved tx].
    replace (tx b + 100000 - (tx a + 100000)) with (tx b - tx a) by ring. exact g1. }
  assert (same : forall a, distinct_or_same a a /\ near_origin a a /\ near_origin (moved (T3 100000 20 0) a) (moved (T3 100000 20 0) a)) by (intros a; repeat split; left; reflexivity).
  intros a b [<-|[<-|[<-|[]]]] [<-|[<-|[<-|[]]]]; try apply same; apply k; cbn [tx]; try lra; first [rewrite Rabs_right by lra; lra|rewrite Rabs_left by lra; lra].
Qed.
