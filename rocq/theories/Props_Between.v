(** * C151: a moving load between two nodes acts like a load on a node of its own *)

From Coq Require Import Reals List Bool ZArith Arith FunctionalExtensionality Lia Lra.
From Verif Require Import Num PyBase Model_Geometry Model_System Spec_System Proofs_Dof Proofs_System Model_Element Spec_Element
  Proofs_Elements Proofs_Element Proofs_Beam Proofs_Force Model_Moving Spec_Moving Proofs_Load Proofs_Between Model_Accumulation Proofs_Accumulation Model_Coupled Model_Mesh Spec_Mesh Model_Track Spec_Track Spec_Generated Proofs_Track
  Proofs_Assembly Props_Track Spec_Analytic Spec_Motion Proofs_Motion Spec_Chain Proofs_Chain Spec_Renumber Proofs_Renumber Spec_Balance Proofs_Balance Spec_Structure Proofs_Structure Proofs_Line
  Spec_Stiffer Proofs_Stiffer Props_Stiffer Spec_Halves Props_Halves Spec_Between.
Import ListNotations.
Local Open Scope R_scope.

(** ** the work of force vectors *)

Definition dot (a u : list R) : R := nsum (map (fun q => fst q * snd q) (combine a u)).

Lemma dot_cons x a y u : dot (x :: a) (y :: u) = x * y + dot a u.
Proof. reflexivity. Qed.

Lemma dot_iadd a u k v : (k < length a)%nat -> (k < length u)%nat -> dot (iadd a k v) u = dot a u + v * nth k u 0.
Proof.
  revert u k. induction a as [|x a IH]; intros u k h1 h2; [cbn in h1; lia|]. destruct u as [|y u]; [cbn in h2; lia|].
  destruct k as [|k]; unfold iadd in *; cbn [nth lset].
  - rewrite !dot_cons. rnum. ring.
  - rewrite !dot_cons, IH by (cbn in h1, h2; lia). ring.
Qed.

Lemma dot_zero (a u : list R) : dot (map (fun _ : R => 0) a) u = 0.
Proof.
  revert u. induction a as [|x a IH]; intros [|y u]; try reflexivity. cbn [map]. rewrite dot_cons, IH. ring.
Qed.

Lemma moving_work nodes st v : sized (length nodes) st ->
  load_work [moving_load nodes st] v = dot (st_x st) (map (fun k => v k DX) nodes) + dot (st_y st) (map (fun k => v k DY) nodes) + dot (st_z st) (map (fun k => v k DR) nodes).
Proof.
  destruct st as [X Y Z a b c]. unfold sized, load_work, moving_load, vals_of. cbn [st_x st_y st_z ld_flag ld_nodes ld_vals map]. intros [h1 [h2 h3]].
  cbn [nsum]. rnum. rewrite Rplus_0_r. revert X Y Z h1 h2 h3. induction nodes as [|k nodes IH]; intros [|x X] [|y Y] [|z Z] h1 h2 h3; try discriminate.
  - unfold dot. cbn. rnum. ring.
  - cbn [length] in h1, h2, h3. cbn [combine map nsum fst snd tget tx ty tr]. rewrite !dot_cons. cbn [combine map fst snd] in IH. rnum. rewrite IH by lia. ring.
Qed.

Lemma nth_dof nodes k p (v : nat -> dir -> R) d : nth_error nodes k = Some p -> nth k (map (fun q => v q d) nodes) 0 = v p d.
Proof. intros h. apply nth_error_nth. rewrite nth_error_map, h. reflexivity. Qed.

(** the rotation of an element that goes to the right *)
Lemma level_rotation p q : fst p < fst q -> snd p = snd q -> 1 / 1000000000 * Rmax (Rabs (fst q)) (Rabs (fst p)) < Rabs (fst q - fst p) -> calculate_point_rotation p q = 0.
Proof.
  destruct p as [x1 y1], q as [x2 y2]. cbn [fst snd]. intros h -> hc. unfold calculate_point_rotation. destruct (math_isclose x2 x1) eqn:e; [apply math_isclose_spec in e; lra|].
  destruct (nltbP x2 x1) as [hl|_]; [lra|]. rnum. replace ((y2 - y2) / (x2 - x1)) with 0 by (field; lra). change (0 + atan 0 = 0). rewrite atan_0. ring.
Qed.

(** The forces that a moving load puts on the two nodes do the same work in every displacement as the load itself in the displacement of the bent beam. *)
Theorem C151_work m d beams nodes ns b i j x f t st st' v :
  moving_update m d beams st t = Ok st' -> stands m d beams nodes ns b i j x f t -> sized (length nodes) st -> right_of ns i j -> 0 < b_l b -> b_shear_factor b <= 0 -> ty f = 0 \/ tr f = 0 ->
  load_work [moving_load nodes st'] v = tx f * bent b v i j x DX + ty f * bent b v i j x DY + tr f * bent b v i j x DR.
Proof.
  intros hu [ki [kj [k [e1 [e2 [e3 [e4 [e5 [e6 [e7 [e8 [e9 [e10 [e11 [e12 e13]]]]]]]]]]]]]]] [z1 [z2 z3]] [hr1 hr2] hl hs hf.
  assert (li : (ki < length nodes)%nat) by (apply nth_error_Some; congruence). assert (lj : (kj < length nodes)%nat) by (apply nth_error_Some; congruence).
  unfold moving_update in hu. rewrite e1, e4, e5, e6, e7, e8 in hu.
  destruct (nth_error (mi_coords m) ki) as [a|] eqn:ea; [|apply nth_error_None in ea; lia]. destruct (nth_error (mi_coords m) kj) as [c|] eqn:ec; [|apply nth_error_None in ec; lia].
  rewrite e9 in hu. unfold at_node in e11, e12, e13. rewrite (nth_error_nth _ _ _ ea) in e11, e13. rewrite (nth_error_nth _ _ _ ec) in e12, e13.
  assert (ht : timoshenko_factor 0 b = 0) by (unfold timoshenko_factor; rnum; destruct (nltbP 0 (b_shear_factor b)); [lra|reflexivity]). rewrite ht in hu.
  assert (hrot : calculate_point_rotation (tx a, ty a) (tx c, ty c) = 0).
  { rewrite <- e11, <- e12 in hr1, hr2. cbn [fst snd] in hr1, hr2. apply level_rotation; cbn [fst snd]; [exact hr1|exact hr2|]. destruct e13 as [q|q]; [exact q|lra]. }
  injection hu as <-. unfold distribute. rewrite hrot. cbv zeta. rewrite !rotate_scalar_val. rnum. rewrite Ropp_0, cos_0, sin_0. cbn [tx ty tr fst snd].
  rewrite moving_work by (unfold sized; cbn [st_x st_y st_z]; rewrite !iadd_length, !map_length; repeat split; assumption).
  cbn [st_x st_y st_z]. rewrite !dot_iadd by (rewrite ?iadd_length, ?map_length; lia).
  change (@lit R RNum 0) with 0. rewrite !dot_zero. rewrite !(nth_dof _ _ _ v _ e2), !(nth_dof _ _ _ v _ e3).
  destruct (C148_shapes b v i j x hl hs) as [q1 q2]. rewrite <- q1, <- q2. unfold bent, interp, tadd, normal_shape. cbn [fst snd].
  replace (1 * tx f + 0 * ty f) with (tx f) by ring. replace (- 0 * tx f + 1 * ty f) with (ty f) by ring.
  destruct (is_zeroP (tx f)) as [g1|g1], (is_zeroP (ty f)) as [g2|g2], (is_zeroP (tr f)) as [g3|g3]; try (exfalso; destruct hf; contradiction); cbn [fst snd]; rewrite ?g1, ?g2, ?g3; rnum; field; lra.
Qed.
Print Assumptions C151_work.

Lemma full_work c f v : load_work [full_load c f] v = tx f * v c DX + ty f * v c DY + tr f * v c DR.
Proof. unfold load_work, full_load. cbn [map nsum combine ld_flag ld_nodes ld_vals fst snd tget tx ty tr]. rnum. ring. Qed.

(** A moving load that stands between the nodes of a level beam moves all nodes exactly as far as a load of the same components on a node of its own. *)
Theorem C151_own_node mi d beams nodes t st st' f ns m ps b i j p q ls cs cs2 da da2 s1 ns1 k1 s2 ns2 k2 x y : let c := length ns in
  moving_update mi d beams st t = Ok st' -> stands mi d beams nodes ns b i j p f t -> sized (length nodes) st -> NoDup nodes -> ty f = 0 \/ tr f = 0 ->
  initialise_system ns (ps ++ [one_beam b i j]) (ls ++ [moving_load nodes st']) cs da = Ok (s1, ns1, k1) ->
  initialise_system (ns ++ [m]) (ps ++ [one_beam (piece b p) i c; one_beam (piece b q) c j]) (ls ++ [full_load c f]) cs2 da2 = Ok (s2, ns2, k2) ->
  Forall shaped ps -> Forall (fun p => sound (settled ns p)) ps -> Forall (within ns) ps -> (i < c)%nat /\ (j < c)%nat ->
  right_of (ns ++ [m]) i c /\ right_of (ns ++ [m]) c j -> 0 < p /\ 0 < q /\ b_l b = p + q -> fixed_ends b -> sound_beam b -> b_shear_factor b <= 0 -> Forall plain_load ls -> same_freedom ns1 ns2 c ->
  in_balance s2 k2 y -> (forall k d, (k < c)%nat -> field_of ns1 x k d = field_of ns2 y k d) -> in_balance s1 k1 x.
Proof.
  intros c hu hst hz hn hf h1 h2 a1 a2 a3 a4 a5 a6 a7 a8 hsf a9 a10 hy hx.
  assert (hr : right_of ns i j) by exact (whole_level ns m i j a4 a5).
  assert (hz' : length (vals_of st') = length nodes).
  { destruct hst as [ki [kj [k [e1 [e2 [e3 [e4 [e5 [e6 [e7 [e8 [e9 _]]]]]]]]]]]]. unfold moving_update in hu. rewrite e1, e4, e5, e6, e7, e8, e9 in hu.
    destruct (nth_error (mi_coords mi) ki); [|discriminate]. destruct (nth_error (mi_coords mi) kj); [|discriminate]. injection hu as <-. destruct hz as [z1 [z2 z3]].
    unfold vals_of, distribute. cbn [st_x st_y st_z]. rewrite map_length, !combine_length, !iadd_length, !map_length. lia. }
  assert (p1 : Forall plain_load (ls ++ [moving_load nodes st'])) by (apply Forall_app; split; [exact a9|constructor; [split; [exact hn|exact hz']|constructor]]).
  assert (p2 : Forall plain_load (ls ++ [full_load c f])) by (apply Forall_app; split; [exact a9|constructor; [split; [constructor; [intros []|constructor]|reflexivity]|constructor]]).
  apply (whole_from_cut ns m ps b i j p q _ _ cs cs2 da da2 s1 s2 ns1 ns2 k1 k2 h1 h2 a1 a2 a3 a4 a5 a6 a7 a8 p1 p2 a10 y x); [|exact hy|exact hx].
  intros v. rewrite !work_app, full_work, (C151_work mi d beams nodes ns b i j p f t st st' v hu hst hz hr); [|lra|exact hsf|exact hf].
  rewrite (loads_more ls c (with_cut ns b i j p v) v).
  - f_equal. unfold with_cut. fold c. rewrite Nat.eqb_refl. reflexivity.
  - intros l0 k hl0 hk. apply (loads_in_range _ _ _ _ _ _ _ _ h1 l0 k); [apply in_or_app; left; exact hl0|exact hk].
  - intros. apply with_cut_old. assumption.
Qed.
Print Assumptions C151_own_node.

(** ** where the load stands *)

(** At every step at which a moving load is on the track it stands on one of the beams, as far from its first node as it has travelled beyond that node,
    with the components that act at that step. *)
Theorem C151_stands (m : moving_input R) (bs : list (beam R)) (nodes : list nat) (ns : list (node R)) : let beams := map (fun b => (b_l b, timoshenko_factor 0 b)) bs in let coords := mi_coords m in
  plain_track m -> slow_run m -> right_parts m beams -> length coords = length nodes -> (forall k i, nth_error nodes k = Some i -> (tx (at_node coords k), ty (at_node coords k)) = xy ns i) ->
  exists d, moving_initialize m = Ok d /\
  forall t, (t < length (mi_time m))%nat -> let s := travelled (mi_time m) (mi_velocities m) (start_of m) t in s <= track_length coords ->
  exists e b i j, nth_error nodes e = Some i /\ nth_error nodes (S e) = Some j /\ In b bs /\ b_l b = element_length coords e /\ node_position coords e <= s <= node_position coords (S e) /\
    stands m d beams nodes ns b i j (s - node_position coords e) (ramped m t) t.
Proof.
  intros beams coords h1 h2 h3 h4 h5. destruct (moving_fields m beams h1 h2 h3) as [d [hd hf]]. exists d. split; [exact hd|]. intros t ht s hs.
  destruct (hf t ht hs) as [e [k [phi [a1 [a2 [a3 [a4 [a5 [a6 [a7 [a8 a9]]]]]]]]]]]. fold coords in a1, a2, a9. fold s in a2, a7.
  assert (q1 : exists i, nth_error nodes e = Some i) by (destruct (nth_error nodes e) eqn:q; [eauto|apply nth_error_None in q; lia]).
  assert (q2 : exists j, nth_error nodes (S e) = Some j) by (destruct (nth_error nodes (S e)) eqn:q; [eauto|apply nth_error_None in q; lia]).
  destruct q1 as [i q1]. destruct q2 as [j q2]. pose proof a9 as a10. unfold beams in a10. rewrite nth_error_map in a10. destruct (nth_error bs k) as [b|] eqn:eb; [|discriminate]. injection a10 as eb1 eb2.
  exists e, b, i, j. split; [exact q1|]. split; [exact q2|]. split; [exact (nth_error_In _ _ eb)|]. split; [exact eb1|]. split; [exact a2|].
  exists e, (S e), k. repeat (split; [assumption|]). split; [rewrite a9, <- eb1, <- eb2; reflexivity|]. split; [exact h4|]. split; [apply h5; exact q1|]. split; [apply h5; exact q2|].
  destruct h1 as [_ [_ h1]]. apply (h1 e a1).
Qed.
Print Assumptions C151_stands.

(** ** a case *)

(** a load [P] that stands in the middle of the cantilever *)
Definition standing (P : R) : moving_input R := mkMovingInput [T3 0 0 0; T3 2 0 0] [(0, 1)%nat] None [0] [0] (Some 1) None (Some P) None 0.
Definition at_rest : mstate R := mkMState [0; 0] [0; 0] [0; 0] (0, 0) (0, 0) (0, 0).

Lemma standing_starts P : exists d, moving_initialize (standing P) = Ok d /\ mv_nodes d = [(0, 1)%nat] /\ mv_x d = [0] /\ mv_y d = [P] /\ mv_z d = [0] /\ mv_part d = [0%nat] /\ mv_local d = [1].
Proof.
  assert (e2 : distance3 (T3 0 0 0) (T3 2 0 0) = 2).
  { unfold distance3, sq. cbn [tx ty tr]. rnum. replace ((2 - 0) * (2 - 0) + (0 - 0) * (0 - 0) + (0 - 0) * (0 - 0)) with (2 * 2) by ring. apply sqrt_square. lra. }
  unfold moving_initialize, standing. cbn [mi_coords mi_elements mi_sizes mi_time mi_velocities mi_start mi_x mi_y mi_z mi_n_ini].
  unfold cum_distances_nodes, cumsum. cbn [consecutive_distances cumsum_from]. rewrite e2. cbn [cum_distance_from_velocity np_diff removelast length Nat.eqb combine map cumsum cumsum_from rbind]. rnum.
  unfold set_active_elements, get_first_element_idx. cbn [map nth]. rnum.
  assert (n1 : nltb 0 (0 - (0 + 1)) = false) by (destruct (nltbP 0 (0 - (0 + 1))); [lra|reflexivity]).
  assert (n2 : nltb 0 (0 + 2 - (0 + 1)) = true) by (destruct (nltbP 0 (0 + 2 - (0 + 1))); [reflexivity|lra]).
  assert (n3 : nltb (0 + 2) (0 + 1) = false) by (destruct (nltbP (0 + 2) (0 + 1)); [lra|reflexivity]).
  assert (n4 : nltb (0 + 1) 0 = false) by (destruct (nltbP (0 + 1) 0); [lra|reflexivity]).
  assert (n5 : nltb 0 (0 + 1) = true) by (destruct (nltbP 0 (0 + 1)); [reflexivity|lra]).
  rewrite n1, n2. cbn -[moving_coord distance3 filer_location filter_data_outside_range]. eexists. split; [reflexivity|]. cbn [mv_nodes mv_x mv_y mv_z mv_part mv_local].
  unfold filter_data_outside_range, filer_location. cbn [map combine fst snd]. rnum. rewrite !n3, !n4. repeat (split; [reflexivity || (f_equal; ring)|]).
  unfold moving_coord, interp1, searchsorted. cbn [filter]. rewrite ?n3, ?n5. cbn [length Nat.min Nat.max Nat.sub nth map tx ty tr combine fst snd].
  f_equal. unfold distance3, sq. cbn [tx ty tr]. rnum.
  match goal with |- sqrt ?a = _ => replace a with (1 * 1) by field end. apply sqrt_square. lra.
Qed.

(** the cantilever with the moving load in its middle, between its nodes *)
Example C151_case P : exists d st' s1 ns1 k1 x s2 ns2 k2 y, let b := bar 2 in let f := T3 0 P 0 in
  moving_initialize (standing P) = Ok d /\ moving_update (standing P) d [(2, 0)] at_rest 0 = Ok st' /\ stands (standing P) d [(2, 0)] [0; 1]%nat cantilever b 0 1 1 f 0 /\
  initialise_system cantilever ([] ++ [one_beam b 0 1]) ([] ++ [moving_load [0; 1]%nat st']) clamp_left undamped = Ok (s1, ns1, k1) /\
  initialise_system (cantilever ++ [middle]) ([] ++ [one_beam (piece b 1) 0 2; one_beam (piece b 1) 2 1]) ([] ++ [full_load 2 f]) clamp_left undamped = Ok (s2, ns2, k2) /\
  same_freedom ns1 ns2 2 /\ in_balance s2 k2 y /\ (forall k d, (k < 2)%nat -> field_of ns1 x k d = field_of ns2 y k d) /\ in_balance s1 k1 x /\
  field_of ns2 y 2 DY = P / 3 /\ field_of ns1 x 1 DY = P * 5 / 6 /\ field_of ns1 x 1 DR = P / 2.
Proof.
  destruct (standing_starts P) as [d [hd [d1 [d2 [d3 [d4 [d5 d6]]]]]]].
  assert (hst : stands (standing P) d [(2, 0)] [0; 1]%nat cantilever (bar 2) 0 1 1 (T3 0 P 0) 0).
  { exists 0%nat, 1%nat, 0%nat. rewrite d1, d2, d3, d4, d5, d6. cbn [nth_error standing mi_coords length tx ty tr at_node nth bar b_l].
    assert (ht : timoshenko_factor 0 (bar 2) = 0) by (unfold timoshenko_factor; cbn [bar b_shear_factor]; rnum; destruct (nltbP 0 0); [lra|reflexivity]).
    fold (bar 2). rewrite ht. repeat (split; [reflexivity|]). left. cbn [tx]. rewrite Rminus_0_r, Rabs_R0, Rabs_right, Rmax_left by lra. lra. }
  set (st' := distribute 2 0 (0, 0) (2, 0) 0 1 1 (T3 0 P 0) at_rest).
  assert (hu : moving_update (standing P) d [(2, 0)] at_rest 0 = Ok st') by (unfold moving_update; rewrite d1, d2, d3, d4, d5, d6; reflexivity).
  destruct cantilever_nodes as [n1 [n2 n3]]. cbn [app].
  assert (r1 : exists s1 ns1 k1, initialise_system cantilever [one_beam (bar 2) 0 1] [moving_load [0; 1]%nat st'] clamp_left undamped = Ok (s1, ns1, k1)).
  { apply initialise_ok; [intros p [<-|[]]; eexists; reflexivity|intros p i [<-|[]] hi; cbn in hi; cbn; lia|intros l i [<-|[]] hi; cbn [moving_load ld_nodes In] in hi; cbn; lia]. }
  assert (r2 : exists s2 ns2 k2, initialise_system (cantilever ++ [middle]) [one_beam (piece (bar 2) 1) 0 2; one_beam (piece (bar 2) 1) 2 1] [full_load 2 (T3 0 P 0)] clamp_left undamped = Ok (s2, ns2, k2)).
  { apply initialise_ok; [intros p [<-|[<-|[]]]; eexists; reflexivity|intros p i [<-|[<-|[]]] hi; cbn in hi; cbn; lia|intros l i [<-|[]] hi; cbn in hi; cbn; lia]. }
  destruct r1 as [s1 [ns1 [k1 h1]]]. destruct r2 as [s2 [ns2 [k2 h2]]].
  assert (shb : Forall shaped [one_beam (piece (bar 2) 1) 0 2; one_beam (piece (bar 2) 1) 2 1]) by (constructor; [discriminate|constructor; [discriminate|constructor]]).
  assert (so : Forall (fun p => sound (settled (cantilever ++ [middle]) p)) [one_beam (piece (bar 2) 1) 0 2; one_beam (piece (bar 2) 1) 2 1]) by (constructor; [apply (bar_sound 1); lra|constructor; [apply (bar_sound 1); lra|constructor]]).
  assert (pl : Forall plain_load [full_load 2 (T3 0 P 0)]) by (constructor; [split; [constructor; [intros []|constructor]|reflexivity]|constructor]).
  pose proof (free_whole _ _ _ _ h1) as f1. pose proof (free_cut _ _ _ _ h2) as f2.
  set (v := fun (p : nat) (d : dir) => match p, d with 1%nat, DY => P * 5 / 6 | 1%nat, DR => P / 2 | 2%nat, DY => P / 3 | 2%nat, DR => P / 2 | _, _ => 0 end).
  set (w := fun (p : nat) (d : dir) => match p with 2%nat => 0 | _ => v p d end).
  destruct (initialise_inv _ _ _ _ _ _ _ _ h1) as [s0 [_ [e0 _]]]. destruct (initialise_kept _ _ _ _ _ _ _ _ _ h1 e0) as [_ [hn _]].
  destruct (initialise_inv _ _ _ _ _ _ _ _ h2) as [t0 [_ [e2 _]]]. destruct (initialise_kept _ _ _ _ _ _ _ _ _ h2 e2) as [_ [hn2 _]].
  assert (fw : forall p d, field_of ns1 (vector_of ns1 w) p d = w p d).
  { apply (vector_field ns1 k1 _ hn). intros p d0 hd0. destruct p as [|[|[|p]]]; [destruct d0; reflexivity| |destruct d0; reflexivity|destruct d0; reflexivity]. exfalso. apply f1 in hd0; [discriminate|lia]. }
  assert (fv : forall p d, field_of ns2 (vector_of ns2 v) p d = v p d).
  { apply (vector_field ns2 k2 _ hn2). intros p d0 hd0. destruct p as [|[|[|p]]]; [destruct d0; reflexivity| | |destruct d0; reflexivity]; exfalso; apply f2 in hd0; [discriminate|lia|discriminate|lia]. }
  assert (sf : same_freedom ns1 ns2 2).
  { split; [intros p d0 hp; rewrite (f1 p d0 hp), (f2 p d0) by lia; reflexivity|]. intros d0 hd0. apply f2 in hd0; [discriminate|lia]. }
  assert (hxy : forall k d, (k < 2)%nat -> field_of ns1 (vector_of ns1 w) k d = field_of ns2 (vector_of ns2 v) k d).
  { intros k d0 hk. rewrite fw, fv. destruct k as [|[|k]]; [reflexivity|reflexivity|lia]. }
  assert (hb : in_balance s2 k2 (vector_of ns2 v)).
  { apply (weak_balance (cantilever ++ [middle]) _ shb so _ _ _ s2 ns2 k2 _ h2 pl). intros y.
    assert (z : forall d, field_of ns2 y 0 d = 0) by (intros d0; unfold field_of; rewrite (proj2 (f2 0%nat d0 ltac:(lia)) eq_refl); reflexivity).
    unfold mutual. cbn [map nsum]. change (settled (cantilever ++ [middle]) (one_beam (piece (bar 2) 1) 0 2)) with (one_beam (bar 1) 0 2). change (settled (cantilever ++ [middle]) (one_beam (piece (bar 2) 1) 2 1)) with (one_beam (bar 1) 2 1).
    rewrite !(level_form (cantilever ++ [middle]) (bar 1) 0 2 _ n1), !(level_form (cantilever ++ [middle]) (bar 1) 2 1 _ n2) by (try (split; reflexivity); apply bar_sound; lra).
    rewrite full_work, !fv, !z. unfold v, beam_energy, shear_area. cbn [tx ty tr bar b_E b_nu b_rho b_A b_I b_shear_factor b_l]. destruct (Rlt_dec 0 0) as [q|_]; [lra|]. rnum. field. }
  exists d, st', s1, ns1, k1, (vector_of ns1 w), s2, ns2, k2, (vector_of ns2 v). cbv zeta. split; [exact hd|]. split; [exact hu|]. split; [exact hst|]. split; [exact h1|]. split; [exact h2|]. split; [exact sf|]. split; [exact hb|]. split; [exact hxy|].
  split; [|split; [apply fv|split; [apply fw|apply fw]]].
  apply (C151_own_node (standing P) d [(2, 0)] [0; 1]%nat 0 at_rest st' (T3 0 P 0) cantilever middle [] (bar 2) 0 1 1 1 [] clamp_left clamp_left undamped undamped s1 ns1 k1 s2 ns2 k2 (vector_of ns1 w) (vector_of ns2 v) hu hst);
    try exact hb; try exact hxy; try exact sf; try exact h1; try exact h2; try (constructor; fail).
  - repeat split.
  - constructor; [intros [q|[]]; discriminate|constructor; [intros []|constructor]].
  - right. reflexivity.
  - cbn. lia.
  - split; [exact n1|exact n2].
  - cbn. lra.
  - split; reflexivity.
  - apply bar_sound. lra.
  - cbn. lra.
Qed.

(** the cantilever is a track on which the load can stand *)
Example C151_stands_case P : let m := standing P in let beams := map (fun b => (b_l b, timoshenko_factor 0 b)) [bar 2] in
  plain_track m /\ slow_run m /\ right_parts m beams /\ length (mi_coords m) = length [0; 1]%nat /\ (forall k i, nth_error [0; 1]%nat k = Some i -> (tx (at_node (mi_coords m) k), ty (at_node (mi_coords m) k)) = xy cantilever i) /\
  travelled (mi_time m) (mi_velocities m) (start_of m) 0 = 1 /\ track_length (mi_coords m) = 2 /\ ramped m 0 = T3 0 P 0.
Proof.
  cbv zeta.
  assert (e2 : element_length (mi_coords (standing P)) 0 = 2).
  { unfold element_length, at_node, standing. cbn [mi_coords nth]. unfold dist3. cbn [tx ty tr]. match goal with |- sqrt ?a = _ => replace a with (2 * 2) by ring end. apply sqrt_square. lra. }
  assert (hL : track_length (mi_coords (standing P)) = 2).
  { unfold track_length. change (length (mi_coords (standing P)) - 1)%nat with 1%nat. unfold node_position. cbn [sumn]. rnum. fold (element_length (mi_coords (standing P)) 0). rewrite e2. ring. }
  split; [|split; [|split; [|split; [reflexivity|split; [|split; [|split; [exact hL|]]]]]]].
  - split; [cbn; lia|]. split; [reflexivity|]. intros k hk. cbn [standing mi_coords length] in hk. assert (k = 0%nat) as -> by lia. split; [reflexivity|]. rewrite e2. split; [lra|]. left.
    unfold at_node, standing. cbn [mi_coords nth tx]. rewrite Rminus_0_r, Rabs_R0, Rabs_right, Rmax_left by lra. lra.
  - split; [reflexivity|]. split; [discriminate|]. split; [cbn; lia|]. split; [rewrite hL; unfold start_of; cbn [standing mi_start]; lra|]. intros t ht. cbn [standing mi_time length] in ht. lia.
  - unfold right_parts. cbn [standing mi_sizes]. exists 2, 0. split; [|split; [lra|]].
    + cbn [map nth_error]. unfold timoshenko_factor. cbn [bar b_shear_factor b_l]. rnum. destruct (nltbP 0 0); [lra|reflexivity].
    + intros k hk. cbn [length] in hk. assert (k = 0%nat) as -> by (cbn in hk; lia). exact e2.
  - intros [|[|k]] i h; cbn in h; [injection h as <-; reflexivity|injection h as <-; reflexivity|destruct k; discriminate].
  - unfold travelled, start_of. cbn [standing mi_start sumn]. rnum. ring.
  - unfold ramped, ramp. cbn [standing mi_x mi_y mi_z mi_n_ini Nat.ltb Nat.leb]. reflexivity.
Qed.
