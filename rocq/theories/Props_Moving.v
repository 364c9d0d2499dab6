(** * Properties of load conditions (C27 - C32, C34) *)

From Coq Require Import Reals List Bool ZArith Arith Lia Lra Psatz.
From Verif Require Import Num PyBase Model_Geometry Model_System Model_Element Model_Moving
  Spec_System Spec_Element Spec_Moving Proofs_System Proofs_Element Proofs_Beam Proofs_Moving Proofs_Contact Proofs_Load.
Import ListNotations.
Local Open Scope R_scope.

(** ** C27: a load is ramped up linearly and then held *)

Theorem C27_ramp (p : R) (N n : nat) : (n <= N)%nat ->
  exists h, load_history p N n = Ok h /\ length h = N /\
    (forall t, (t < n)%nat -> nth t h 0 = p * INR t / INR (n - 1)) /\
    (forall t, (n <= t < N)%nat -> nth t h 0 = p) /\
    ((2 <= n)%nat -> nth 0 h 0 = 0 /\ nth (n - 1) h 0 = p).
Proof.
  intros hn. destruct (load_history_spec p N n hn) as [h [h1 [h2 h3]]]. exists h. split; [auto|]. split; [auto|].
  assert (e : forall t, (t < n)%nat -> nth t h 0 = p * INR t / INR (n - 1)).
  { intros t ht. rewrite h3 by lia. unfold ramp. destruct (Nat.ltb_spec t n); [reflexivity|lia]. }
  split; [exact e|]. split.
  - intros t ht. rewrite h3 by lia. unfold ramp. destruct (Nat.ltb_spec t n); [lia|reflexivity].
  - intros h4. rewrite !e by lia. assert (INR (n - 1) <> 0) by (apply not_0_INR; lia). split; simpl; field; auto.
Qed.
Print Assumptions C27_ramp.

(** a calculation shorter than the initialisation phase is refused *)
Theorem C27_too_short (p : R) (N n : nat) : (N < n)%nat -> n <> 1%nat -> load_history p N n = Err ErrValue.
Proof. exact (load_history_short p N n). Qed.
Print Assumptions C27_too_short.

(** an absent component is no load *)
Theorem C27_absent (N n : nat) : component_history (@None R) N n = Ok (repeat 0 N).
Proof. reflexivity. Qed.
Print Assumptions C27_absent.

Example C27_case : exists h, load_history 10 5 3 = Ok h /\ h = [0; 5; 10; 10; 10].
Proof. eexists. split; [reflexivity|]. cbn. rnum. repeat (f_equal; try lra). Qed.

(** ** C28: the nodal forces are statically equivalent to the load *)

(** on an element of any orientation: for a load without moment, and for a load without transverse force *)
Theorem C28_static_equivalence_partial (coords : list (tri R)) (l phi : R) (i j : nat) (x : R) (P f : tri R) (st : mstate R) :
  on_element coords l phi i j x P -> sized (length coords) st ->
  let p := at_node coords i in let q := at_node coords j in
  tr f = 0 \/ (tx q - tx p) * ty f = (ty q - ty p) * tx f ->
  let st' := distribute l phi (tx p, ty p) (tx q, ty q) i j x f st in
  sized (length coords) st' /\ equivalent coords (st_x st') (st_y st') (st_z st') P f /\
  forall k, k <> i -> k <> j -> nth k (st_x st') 0 = 0 /\ nth k (st_y st') 0 = 0 /\ nth k (st_z st') 0 = 0.
Proof.
  intros [h1 [h2 [h3 [h4 [h5 [h6 [h7 h8]]]]]]] [s1 [s2 s3]] p q hc st'.
  destruct (distribute_equiv coords l phi x i j f st P h1 h2 s1 s2 s3 h3 h4 h5 h6 h7 h8) as [o1 [o2 [o3 [o4 o5]]]].
  fold p q in o1, o2, o3, o4, o5. fold st' in o1, o2, o3, o4, o5.
  split; [repeat split; auto|]. split; [|exact o5].
  replace (effective (calculate_point_rotation (tx p, ty p) (tx q, ty q)) f) with f in o4; [exact o4|].
  symmetry. unfold effective. rewrite rotate_scalar_val. cbn [tx ty tr].
  set (a := calculate_point_rotation (tx p, ty p) (tx q, ty q)).
  destruct hc as [hc|hc]; [destruct (is_zeroP (tr f)); [rewrite orb_true_r; reflexivity|contradiction]|].
  destruct (direction p q h6) as [d1 d2]. fold a in d1, d2.
  change (l = plane_dist (tx p, ty p) (tx q, ty q)) in h3. rewrite <- h3 in d1, d2.
  destruct (is_zeroP (- sin a * tx f + cos a * ty f)) as [|hn]; [reflexivity|]. exfalso. apply hn.
  apply (Rmult_eq_reg_l l); [|lra]. rewrite Rmult_0_r.
  transitivity (l * cos a * ty f - l * sin a * tx f); [ring|]. rewrite d1, d2, hc. ring.
Qed.
Print Assumptions C28_static_equivalence_partial.

(** with both a transverse force and a moment, the nodal forces are equivalent to the axial force and twice the moment:
    the transverse force is lost *)
Theorem C28_combined_load (coords : list (tri R)) (l phi : R) (i j : nat) (x : R) (P f : tri R) (st : mstate R) :
  on_element coords l phi i j x P -> sized (length coords) st ->
  let p := at_node coords i in let q := at_node coords j in
  let ux := (tx q - tx p) / l in let uy := (ty q - ty p) / l in
  tr f <> 0 -> ux * ty f - uy * tx f <> 0 ->
  let st' := distribute l phi (tx p, ty p) (tx q, ty q) i j x f st in
  let axial := ux * tx f + uy * ty f in
  equivalent coords (st_x st') (st_y st') (st_z st') P (T3 (axial * ux) (axial * uy) (2 * tr f)).
Proof.
  intros [h1 [h2 [h3 [h4 [h5 [h6 [h7 h8]]]]]]] [s1 [s2 s3]] p q ux uy hm hv st' axial.
  destruct (distribute_equiv coords l phi x i j f st P h1 h2 s1 s2 s3 h3 h4 h5 h6 h7 h8) as [_ [_ [_ [o4 _]]]].
  fold p q in o4. fold st' in o4.
  match type of o4 with equivalent _ _ _ _ _ ?A => replace A with (T3 (axial * ux) (axial * uy) (2 * tr f)) in o4; [exact o4|] end.
  set (a := calculate_point_rotation (tx p, ty p) (tx q, ty q)).
  destruct (direction p q h6) as [d1 d2]. fold a in d1, d2.
  change (l = plane_dist (tx p, ty p) (tx q, ty q)) in h3. rewrite <- h3 in d1, d2.
  assert (e1 : ux = cos a) by (unfold ux; rewrite <- d1; field; lra).
  assert (e2 : uy = sin a) by (unfold uy; rewrite <- d2; field; lra).
  unfold effective. rewrite !rotate_scalar_val. cbn [tx ty tr]. rewrite cos_neg, sin_neg. unfold axial. rewrite e1, e2.
  destruct (is_zeroP (tr f)) as [|]; [contradiction|].
  destruct (is_zeroP (- sin a * tx f + cos a * ty f)) as [hz|hz]; [exfalso; apply hv; rewrite e1, e2; lra|].
  cbn [orb]. f_equal; ring.
Qed.
Print Assumptions C28_combined_load.

Definition C28_nodes : list (tri R) := [T3 0 0 0; T3 1 0 0].
Example C28_case_setup : on_element C28_nodes 1 0 0 1 (1 / 2) (T3 (1 / 2) 0 0).
Proof.
  unfold on_element, C28_nodes, at_node, plane_dist, clear_direction. cbn [nth length tx ty tr fst snd].
  split; [lia|]. split; [lia|].
  split; [replace ((1 - 0) * (1 - 0) + (0 - 0) * (0 - 0)) with 1 by ring; symmetry; apply sqrt_1|].
  split; [lra|]. split; [lra|]. split; [left; rewrite Rabs_R0, Rminus_0_r, Rabs_R1, Rmax_left by lra; lra|]. split; field.
Qed.

(** the claim in full does not hold *)
Theorem C28_combined_load_refuted : exists coords l phi i j x P f st,
  on_element coords l phi i j x P /\ sized (length coords) st /\
  let st' := distribute l phi (tx (at_node coords i), ty (at_node coords i)) (tx (at_node coords j), ty (at_node coords j)) i j x f st in
  ~ equivalent coords (st_x st') (st_y st') (st_z st') P f.
Proof.
  exists C28_nodes, 1, 0, 0%nat, 1%nat, (1 / 2), (T3 (1 / 2) 0 0), (T3 0 1 1).
  exists (mkMState [0; 0] [0; 0] [0; 0] (0, 0) (0, 0) (0, 0)).
  split; [exact C28_case_setup|]. split; [repeat split|].
  pose proof (C28_combined_load C28_nodes 1 0 0 1 (1 / 2) (T3 (1 / 2) 0 0) (T3 0 1 1)
    (mkMState [0; 0] [0; 0] [0; 0] (0, 0) (0, 0) (0, 0)) C28_case_setup ltac:(repeat split)) as h.
  cbv zeta in h. cbn [tx ty tr] in h. cbv zeta. intros [_ [hy _]]. cbn [ty] in hy.
  destruct h as [_ [h _]].
  - lra.
  - unfold C28_nodes, at_node. cbn [nth tx ty]. lra.
  - cbn [ty] in h. rewrite h in hy. unfold C28_nodes, at_node in hy. cbn [nth tx ty] in hy. lra.
Qed.
Print Assumptions C28_combined_load_refuted.

(** the whole moving load on a track: at every time step the nodal forces are equivalent to the ramped load at the
    point of the track it has travelled to, and to no load once it has left the track *)
Theorem C28_moving_load_partial (m : moving_input R) (beams : list (R * R)) :
  plain_track m -> slow_run m -> right_parts m beams -> force_or_moment m ->
  let n := length (mi_coords m) in let L := track_length (mi_coords m) in
  exists d, moving_initialize m = Ok d /\
  forall t st, (t < length (mi_time m))%nat -> sized n st ->
  exists st', moving_update m d beams st t = Ok st' /\ sized n st' /\
    let s := travelled (mi_time m) (mi_velocities m) (start_of m) t in
    exists P, at_distance (mi_coords m) (Rmin s L) P /\
      (s <= L -> equivalent (mi_coords m) (st_x st') (st_y st') (st_z st') P (ramped m t)) /\
      (L < s -> equivalent (mi_coords m) (st_x st') (st_y st') (st_z st') P (T3 0 0 0)).
Proof.
  intros h1 h2 h3 h4 n L. destruct (moving_load_spec m beams h1 h2 h3 h4) as [d [d1 d2]].
  exists d. split; [exact d1|]. intros t st ht [s1 [s2 s3]].
  destruct (d2 t st ht s1 s2 s3) as [st' [e1 [e2 [e3 [e4 e5]]]]]. exists st'. split; [exact e1|]. split; [repeat split; auto|]. exact e5.
Qed.
Print Assumptions C28_moving_load_partial.

Definition C28_track : moving_input R :=
  mkMovingInput [T3 0 0 0; T3 1 0 0; T3 2 0 0; T3 4 0 0] (chain 3) (Some [2%nat; 1%nat]) [0; 1; 2; 3; 4] [1; 1; 1; 1; 1]
    (Some (1 / 2)) None (Some (- 10)) None 2.
Lemma dist3_x (a b : R) : a <= b -> dist3 (T3 a 0 0) (T3 b 0 0) = b - a.
Proof.
  intros h. unfold dist3. cbn [tx ty tr]. replace ((b - a) * (b - a) + (0 - 0) * (0 - 0) + (0 - 0) * (0 - 0)) with ((b - a) * (b - a)) by ring.
  apply sqrt_square. lra.
Qed.
Example C28_track_case : plain_track C28_track /\ slow_run C28_track /\ right_parts C28_track [(1, 0); (2, 0)] /\ force_or_moment C28_track.
Proof.
  assert (hel : element_length (mi_coords C28_track) 0 = 1 /\ element_length (mi_coords C28_track) 1 = 1 /\ element_length (mi_coords C28_track) 2 = 2).
  { unfold element_length, at_node, C28_track. cbn [mi_coords nth]. rewrite !dist3_x by lra. repeat split; lra. }
  destruct hel as [e0 [e1 e2]].
  assert (hp : node_position (mi_coords C28_track) 3 = 4).
  { rewrite !node_position_S, e0, e1, e2. unfold node_position. cbn. rnum. ring. }
  split; [|split; [|split]].
  - split; [simpl; lia|]. split; [reflexivity|]. intros k hk. cbn [C28_track mi_coords length] in hk.
    assert (hk' : k = 0%nat \/ k = 1%nat \/ k = 2%nat) by lia.
    destruct hk' as [->|[->| ->]]; (split; [reflexivity|]; split; [lra|left]);
      unfold at_node, C28_track; cbn [mi_coords nth tx ty tr]; rewrite ?Rabs_R0, ?Rabs_right by lra; rewrite Rmax_left by lra; lra.
  - unfold slow_run. cbn [C28_track mi_velocities mi_time mi_n_ini start_of mi_start]. split; [reflexivity|]. split; [discriminate|]. split; [simpl; lia|].
    split; [unfold track_length; change (length (mi_coords C28_track) - 1)%nat with 3%nat; rewrite hp; lra|].
    intros t ht. cbn [length] in ht. change (length (mi_coords C28_track)) with 4%nat.
    assert (hst : (nth (S t) [0; 1; 2; 3; 4] 0 - nth t [0; 1; 2; 3; 4] 0) * nth t [1; 1; 1; 1; 1] 0 = 1).
    { assert (ht' : t = 0%nat \/ t = 1%nat \/ t = 2%nat \/ t = 3%nat) by lia. destruct ht' as [->|[->|[->| ->]]]; cbn [nth]; lra. }
    cbv zeta. rewrite hst. split; [lra|]. intros k hk. change (mi_coords (mkMovingInput _ _ _ _ _ _ _ _ _ _)) with (mi_coords C28_track).
    assert (hk' : k = 0%nat \/ k = 1%nat \/ k = 2%nat) by lia. destruct hk' as [->|[->| ->]]; rewrite ?e0, ?e1, ?e2; lra.
  - unfold right_parts. cbn [C28_track mi_sizes]. split; [intros s [<-|[<-|[]]]; lia|]. split; [reflexivity|].
    split; [change (list_sum (firstn 2 [2%nat; 1%nat])) with 3%nat; change (mi_coords (mkMovingInput _ _ _ _ _ _ _ _ _ _)) with (mi_coords C28_track); rewrite hp; unfold start_of; cbn; lra|].
    change (mi_coords (mkMovingInput _ _ _ _ _ _ _ _ _ _)) with (mi_coords C28_track).
    intros k p [h1 h2]. cbn [length] in h1. exists 0. destruct p as [|[|p]]; [| |lia].
    + cbn in h2. assert (hk : k = 0%nat \/ k = 1%nat) by lia. destruct hk as [->| ->]; rewrite ?e0, ?e1; split; auto; lra.
    + cbn in h2. assert (k = 2%nat) by lia. subst. rewrite e2. split; auto; lra.
  - left. reflexivity.
Qed.

(** ** C29: the contact element contains the load *)

(** for a load that starts on the track, runs forward and does not pass an element in a single step *)
Theorem C29_contact_element_partial (nodes forces : list R) :
  rising nodes -> (2 <= length nodes)%nat -> forces <> [] ->
  nth 0 nodes 0 <= nth 0 forces 0 < nth (length nodes - 1) nodes 0 ->
  (forall t, (S t < length forces)%nat -> small_step nodes (nth t forces 0) (nth (S t) forces 0)) ->
  exists els, set_active_elements (length nodes - 1) nodes forces = Ok els /\ length els = length forces /\
    (forall t, (t < length forces)%nat -> contains nodes (nth t els 0%nat) (nth t forces 0)) /\ stepwise els.
Proof.
  intros h1 h2 h3 h4 h5. destruct (set_active_spec nodes forces h1 h2 h3 h4 h5) as [els [e1 [e2 [e3 [_ e5]]]]].
  exists els. auto.
Qed.
Print Assumptions C29_contact_element_partial.

(** a load starting before the first node is refused *)
Theorem C29_before_track (nodes forces : list R) n : rising nodes -> forces <> [] ->
  nth 0 forces 0 < nth 0 nodes 0 -> set_active_elements n nodes forces = Err ErrValue.
Proof. exact (set_active_before nodes forces n). Qed.
Print Assumptions C29_before_track.

(** a load starting at the last node, or beyond, is put on the first element *)
Theorem C29_at_end (nodes : list R) f n : rising nodes -> (2 <= length nodes)%nat -> (1 <= n)%nat ->
  nth (length nodes - 1) nodes 0 <= f -> set_active_elements n nodes [f] = Ok [0%nat].
Proof. exact (set_active_beyond nodes f n). Qed.
Print Assumptions C29_at_end.

Definition C29_nodes : list R := [0; 1; 2; 3].
Lemma C29_rising : rising C29_nodes.
Proof. intros i hi. unfold C29_nodes in *. simpl in hi. do 3 (destruct i as [|i]; [cbn [nth]; lra|]). lia. Qed.

Example C29_case : (forall t, (S t < 3)%nat -> small_step C29_nodes (nth t [1 / 2; 3 / 2; 2] 0) (nth (S t) [1 / 2; 3 / 2; 2] 0)).
Proof.
  intros t ht. destruct t as [|[|t]]; [| |lia]; (split; [cbn [nth]; lra|]); intros k hk; simpl in hk;
    do 3 (destruct k as [|k]; [unfold C29_nodes; cbn [nth]; lra|]); lia.
Qed.

(** the claim in full does not hold: a load starting at the end of the track, a load that passes an element in one
    step, and a load that runs backward *)
Theorem C29_end_refuted : exists nodes forces els,
  rising nodes /\ (forall t, (t < length forces)%nat -> nth 0 nodes 0 <= nth t forces 0 <= nth (length nodes - 1) nodes 0) /\
  set_active_elements (length nodes - 1) nodes forces = Ok els /\
  ~ contains nodes (nth 0 els 0%nat) (nth 0 forces 0).
Proof.
  exists C29_nodes, [3], [0%nat]. split; [exact C29_rising|].
  split; [intros t ht; destruct t; [cbn; lra|simpl in ht; lia]|].
  split; [apply set_active_beyond; [exact C29_rising|simpl; lia|simpl; lia|cbn; lra]|].
  intros [_ [_ [h|h]]]; [cbn in h; lra|discriminate h].
Qed.
Print Assumptions C29_end_refuted.

Lemma C29_run (a b : R) (e : nat) : 0 <= a < 1 -> (e = if nltb 1 b then 1%nat else 0%nat) ->
  set_active_elements 3 C29_nodes [a; b] = Ok [0%nat; e].
Proof.
  intros ha he. unfold set_active_elements. change (nth 0 [a; b] (lit 0)) with a.
  rewrite (first_element_on C29_nodes a 0 C29_rising) by (simpl; try lia; cbn; lra).
  cbn [active_rows]. change (Z.to_nat (Z.of_nat 0 + 1)) with 1%nat. unfold C29_nodes. cbn [nth length]. change (@lit R RNum 0) with 0.
  destruct (nltbP 1 a); [lra|]. rewrite andb_false_r. change (Z.to_nat (Z.of_nat 0 + 1)) with 1%nat. cbn [nth].
  rewrite he. destruct (nltbP 1 b); reflexivity.
Qed.

Theorem C29_fast_load_refuted : exists nodes forces els,
  rising nodes /\ (forall t, (S t < length forces)%nat -> nth t forces 0 <= nth (S t) forces 0) /\
  (forall t, (t < length forces)%nat -> nth 0 nodes 0 <= nth t forces 0 < nth (length nodes - 1) nodes 0) /\
  set_active_elements (length nodes - 1) nodes forces = Ok els /\
  ~ contains nodes (nth 1 els 0%nat) (nth 1 forces 0).
Proof.
  exists C29_nodes, [0; 5 / 2], [0%nat; 1%nat]. split; [exact C29_rising|].
  split; [intros t ht; destruct t; [cbn; lra|simpl in ht; lia]|].
  split; [intros t ht; destruct t as [|[|t]]; [cbn; lra|cbn; lra|simpl in ht; lia]|].
  split; [apply C29_run; [lra|destruct (nltbP 1 (5 / 2)); [reflexivity|lra]]|].
  intros [_ [_ [h|h]]]; [cbn in h; lra|discriminate h].
Qed.
Print Assumptions C29_fast_load_refuted.

Theorem C29_backward_load_refuted : exists nodes forces els,
  rising nodes /\ (forall t, (S t < length forces)%nat -> Rabs (nth (S t) forces 0 - nth t forces 0) <= 1) /\
  (forall t, (t < length forces)%nat -> nth 0 nodes 0 <= nth t forces 0 < nth (length nodes - 1) nodes 0) /\
  set_active_elements (length nodes - 1) nodes forces = Ok els /\
  exists t, (t < length forces)%nat /\ ~ contains nodes (nth t els 0%nat) (nth t forces 0).
Proof.
  exists C29_nodes, [3 / 2; 1 / 2], [1%nat; 1%nat]. split; [exact C29_rising|].
  split; [intros t ht; destruct t; [cbn; rewrite Rabs_left by lra; lra|simpl in ht; lia]|].
  split; [intros t ht; destruct t as [|[|t]]; [cbn; lra|cbn; lra|simpl in ht; lia]|].
  split.
  - unfold set_active_elements. change (nth 0 [3 / 2; 1 / 2] (lit 0)) with (3 / 2).
    rewrite (first_element_on C29_nodes (3 / 2) 1 C29_rising) by (simpl; try lia; cbn; lra).
    cbn [active_rows]. change (Z.to_nat (Z.of_nat 1 + 1)) with 2%nat. unfold C29_nodes. cbn [nth length]. change (@lit R RNum 0) with 0.
    destruct (nltbP 2 (3 / 2)); [lra|]. rewrite andb_false_r. change (Z.to_nat (Z.of_nat 1 + 1)) with 2%nat. cbn [nth].
    destruct (nltbP 2 (1 / 2)); [lra|]. rewrite andb_false_r. reflexivity.
  - exists 1%nat. split; [simpl; lia|]. intros [_ [h _]]. cbn in h. lra.
Qed.
Print Assumptions C29_backward_load_refuted.

(** ** C30: a load outside the track acts nowhere *)

Theorem C30_filter (data positions : list R) (lower upper : R) : length data = length positions ->
  length (filter_data_outside_range data positions lower upper) = length positions /\
  forall t, (t < length positions)%nat ->
    (lower <= nth t positions 0 <= upper -> nth t (filter_data_outside_range data positions lower upper) 0 = nth t data 0) /\
    (nth t positions 0 < lower \/ upper < nth t positions 0 -> nth t (filter_data_outside_range data positions lower upper) 0 = 0).
Proof. exact (filter_data_spec data positions lower upper). Qed.
Print Assumptions C30_filter.

(** the location is the nearest one on the track *)
Theorem C30_location (positions : list R) (lower upper : R) : lower <= upper ->
  length (filer_location positions lower upper) = length positions /\
  forall t, (t < length positions)%nat ->
    let x := nth t positions 0 in let y := nth t (filer_location positions lower upper) 0 in
    lower <= y <= upper /\ forall z, lower <= z <= upper -> Rabs (x - y) <= Rabs (x - z).
Proof.
  intros h. destruct (filer_location_spec positions lower upper h) as [h1 h2]. split; [exact h1|].
  intros t ht x y. unfold y. rewrite h2 by auto. fold x. unfold Rmax, Rmin.
  destruct (Rle_dec upper x); match goal with |- context [Rle_dec ?a ?b] => destruct (Rle_dec a b) end;
    (split; [lra|]; intros z hz; unfold Rabs; destruct (Rcase_abs _); destruct (Rcase_abs _); lra).
Qed.
Print Assumptions C30_location.

Example C30_case : filter_data_outside_range [1; 2; 3] [-1; 5; 11] 0 10 = [0; 2; 0] /\ filer_location [-1; 5; 11] 0 10 = [0; 5; 10].
Proof.
  unfold filter_data_outside_range, filer_location. cbn [map combine fst snd]. change (@lit R RNum 0) with 0.
  repeat match goal with |- context [nltb ?a ?b] => destruct (nltbP a b); try lra end. auto.
Qed.

(** ** C31: the model part of the contact element *)

Theorem C31_contact_part_partial (sizes els : list nat) : sizes <> [] ->
  (forall s, In s sizes -> (1 <= s)%nat) -> stepwise els ->
  (forall e, In e els -> (e < list_sum sizes)%nat) ->
  (* the load starts on the first or the second part *)
  (nth 0 els 0 < list_sum (firstn 2 sizes))%nat ->
  exists ps, contact_parts sizes els = Ok ps /\ length ps = length els /\
    forall t, (t < length els)%nat -> owner sizes (nth t els 0%nat) (nth t ps 0%nat).
Proof. exact (contact_parts_spec sizes els). Qed.
Print Assumptions C31_contact_part_partial.

(** the part that owns an element is unique *)
Theorem C31_owner_unique sizes k p q : owner sizes k p -> owner sizes k q -> p = q.
Proof. exact (owner_unique sizes k p q). Qed.
Print Assumptions C31_owner_unique.

Example C31_case : contact_parts [2; 1; 3]%nat [1; 1; 2; 3; 4]%nat = Ok [0; 0; 1; 2; 2]%nat.
Proof. reflexivity. Qed.

(** the claim in full does not hold: a load that starts on the third part *)
Theorem C31_third_part_refuted : exists sizes els ps,
  (forall s, In s sizes -> (1 <= s)%nat) /\ stepwise els /\ (forall e, In e els -> (e < list_sum sizes)%nat) /\
  contact_parts sizes els = Ok ps /\ ~ owner sizes (nth 0 els 0%nat) (nth 0 ps 0%nat).
Proof.
  exists [1; 1; 1]%nat, [2]%nat, [1]%nat. split; [intros s [<-|[<-|[<-|[]]]]; lia|].
  split; [intros t ht; simpl in ht; lia|]. split; [intros e [<-|[]]; simpl; lia|]. split; [reflexivity|].
  intros [_ h]. simpl in h. lia.
Qed.
Print Assumptions C31_third_part_refuted.

(** ** C32: the force vector of a time step depends only on that time step *)

Theorem C32_history_independent (n : nat) (cs cs' : list (condition R)) (ts : list nat) (t : nat) :
  evaluate_history n cs ts = Ok cs' ->
  match update_time_step_rhs n cs' t, update_time_step_rhs n cs t with
  | Ok (f', _), Ok (f, _) => f' = f
  | Err e', Err e => e' = e
  | _, _ => False
  end.
Proof. intros h. apply rhs_indep. exact (history_related n cs ts cs' h). Qed.
Print Assumptions C32_history_independent.

(** what it is for static loads: every condition counts once *)
Theorem C32_static_value (n : nat) (cs : list (condition R)) t :
  (forall c, In c cs -> is_static c /\ sized (length (k_nodes c)) (k_state c) /\
     NoDup (part_dof_indices (k_flag c) (k_nodes c)) /\ forall i, In i (part_dof_indices (k_flag c) (k_nodes c)) -> (i < n)%nat) ->
  exists f cs', update_time_step_rhs n cs t = Ok (f, cs') /\ length f = n /\
    forall k, nth k f 0 = nsum (map (fun c => cond_force (mkCond (k_flag c) (k_nodes c) (static_values c t)) k) cs).
Proof. exact (static_value n cs t). Qed.
Print Assumptions C32_static_value.

Definition C32_node (i : nat) : node R := mkNode i (Some i) (T3 (Some (3 * i)%nat) (Some (3 * i + 1)%nat) (Some (3 * i + 2)%nat)) (T3 (INR i) 0 0) (T3 true true true) [].
Definition C32_cond : condition R :=
  mkCondition (T3 false true false) [C32_node 0; C32_node 1] (Static (fun _ _ => 0) (fun i t => INR (i + t)) (fun _ _ => 0))
    (mkMState [0; 0] [0; 0] [0; 0] (0, 0) (0, 0) (0, 0)).
Example C32_case : exists cs' f cs'', evaluate_history 6 [C32_cond; C32_cond] [2; 0; 2]%nat = Ok cs' /\
  update_time_step_rhs 6 cs' 1 = Ok (f, cs'') /\ f = [0; 2; 0; 0; 4; 0].
Proof.
  eexists. eexists. eexists. split; [reflexivity|]. split; [reflexivity|].
  cbn. rnum. repeat (f_equal; try lra).
Qed.

(** ** C34: travelled distance is accumulated speed *)

Theorem C34_load_distance (time v : list R) : length v = length time -> time <> [] ->
  exists h, cum_distance_from_velocity time v = Ok h /\ length h = length time /\
    forall t, (t < length time)%nat -> nth t h 0 = travelled time v 0 t.
Proof. exact (cum_distance_spec time v). Qed.
Print Assumptions C34_load_distance.

Theorem C34_train_distance (time v : list R) (carts : list (R * list (R * list R))) :
  length v = length time -> time <> [] ->
  exists hs, train_distances time v carts = Ok hs /\ length hs = length carts /\
  forall i cd bogies, nth_error carts i = Some (cd, bogies) ->
    exists ch bhs, nth_error hs i = Some (ch, bhs) /\ length ch = length time /\ length bhs = length bogies /\
      (forall t, (t < length time)%nat -> nth t ch 0 = travelled time v cd t) /\
      forall j bd wheels, nth_error bogies j = Some (bd, wheels) ->
        exists bh whs, nth_error bhs j = Some (bh, whs) /\ length bh = length time /\ length whs = length wheels /\
          (forall t, (t < length time)%nat -> nth t bh 0 = travelled time v (cd + bd) t) /\
          forall k wd, nth_error wheels k = Some wd ->
            exists wh, nth_error whs k = Some wh /\ length wh = length time /\
              forall t, (t < length time)%nat -> nth t wh 0 = travelled time v (cd + bd + wd) t.
Proof. exact (train_distance_spec time v carts). Qed.
Print Assumptions C34_train_distance.

(** consequences: start, growth per step, monotone, constant spacing, equal for equal starts *)
Theorem C34_travelled (time v : list R) (s s' : R) :
  travelled time v s 0 = s /\
  (forall t, travelled time v s (S t) - travelled time v s t = nth t v 0 * (nth (S t) time 0 - nth t time 0)) /\
  (forall t, 0 <= nth t v 0 -> nth t time 0 <= nth (S t) time 0 -> travelled time v s t <= travelled time v s (S t)) /\
  (forall t, travelled time v s' t - travelled time v s t = s' - s).
Proof.
  split; [unfold travelled; cbn; rnum; ring|]. split; [intros t; rewrite travelled_step; ring|].
  split; [intros t h1 h2; rewrite travelled_step; nra|]. intros t. unfold travelled. ring.
Qed.
Print Assumptions C34_travelled.

(** histories of different length are refused by both *)
Theorem C34_lengths (time v : list R) carts : (length v - 1 <> length time - 1)%nat ->
  cum_distance_from_velocity time v = Err ErrValue /\ train_distances time v carts = Err ErrValue.
Proof.
  intros h. split; [exact (cum_distance_mismatch time v h)|].
  unfold train_distances. rewrite np_diff_length, removelast_length. destruct (Nat.eqb_spec (length v - 1) (length time - 1)); [contradiction|reflexivity].
Qed.
Print Assumptions C34_lengths.

Example C34_case : exists h, cum_distance_from_velocity [0; 1; 3] [2; 4; 7] = Ok h /\ h = [0; 2; 10].
Proof. eexists. split; [reflexivity|]. cbn. rnum. repeat (f_equal; try lra). Qed.
