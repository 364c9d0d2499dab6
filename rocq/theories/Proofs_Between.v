(** * What a moving load stores per step (for C151) *)

From Coq Require Import Reals List Bool ZArith Arith Lia Lra Psatz.
From Verif Require Import Num PyBase Model_Geometry Model_System Model_Element Model_Moving
  Spec_System Spec_Element Spec_Moving Proofs_System Proofs_Element Proofs_Beam Proofs_Moving Proofs_Contact Proofs_Load.
Import ListNotations.
Local Open Scope R_scope.

(** what [moving_initialize] stores for every step at which the load is on the track *)
Lemma moving_fields (m : moving_input R) (beams : list (R * R)) :
  plain_track m -> slow_run m -> right_parts m beams ->
  let n := length (mi_coords m) in let L := track_length (mi_coords m) in
  exists d, moving_initialize m = Ok d /\
  forall t, (t < length (mi_time m))%nat -> let s := travelled (mi_time m) (mi_velocities m) (start_of m) t in s <= L ->
  exists e k phi, (S e < n)%nat /\ node_position (mi_coords m) e <= s <= node_position (mi_coords m) (S e) /\
    nth_error (mv_nodes d) t = Some (e, S e) /\ nth_error (mv_x d) t = Some (tx (ramped m t)) /\ nth_error (mv_y d) t = Some (ty (ramped m t)) /\ nth_error (mv_z d) t = Some (tr (ramped m t)) /\
    nth_error (mv_local d) t = Some (s - node_position (mi_coords m) e) /\ nth_error (mv_part d) t = Some k /\ nth_error beams k = Some (element_length (mi_coords m) e, phi).
Proof.
  intros [hn [hch htr]] [hv [hne [hini [hstart hstep]]]] hparts n L.
  set (coords := mi_coords m) in *. fold n in hn, hch, htr, hstep.
  assert (hcne : coords <> []) by (intros e; unfold n in hn; rewrite e in hn; simpl in hn; lia).
  assert (hpos : forall k, (S k < length coords)%nat -> 0 < element_length coords k) by (intros k hk; apply (htr k hk)).
  pose proof (track_rising coords hcne hpos) as hr.
  destruct (cum_nodes_spec coords hcne) as [n1 n2]. fold n in n1, n2.
  destruct (cum_distance_spec (mi_time m) (mi_velocities m) hv hne) as [h0 [c1 [c2 c3]]].
  unfold moving_initialize. fold coords. rewrite c1. cbn [rbind]. fold (start_of m).
  change (match mi_start m with Some s => s | None => lit 0 end) with (start_of m).
  set (N := length (mi_time m)) in *.
  assert (hN : (0 < N)%nat) by (unfold N; destruct (mi_time m); [congruence|simpl; lia]).
  set (cf := map (fun d : R => nadd d (start_of m)) h0).
  assert (f1 : length cf = N) by (unfold cf; rewrite map_length; auto).
  set (s := travelled (mi_time m) (mi_velocities m) (start_of m)).
  assert (f2 : forall t, (t < N)%nat -> nth t cf 0 = s t).
  { intros t ht. unfold cf. rewrite (nth_map0 _ _ t 0) by lia. rewrite c3 by auto. unfold s, travelled. rnum. ring. }
  assert (hs0 : forall t, s (S t) = s t + (nth (S t) (mi_time m) 0 - nth t (mi_time m) 0) * nth t (mi_velocities m) 0)
    by (intros; apply travelled_step).
  assert (hcf : cf <> []) by (intros e; rewrite e in f1; simpl in f1; lia).
  assert (hL : L = nth (length (cum_distances_nodes coords) - 1) (cum_distances_nodes coords) 0).
  { rewrite n1, n2 by lia. reflexivity. }
  assert (hs00 : s 0%nat = start_of m) by (unfold s, travelled; cbn; rnum; ring).
  destruct (set_active_spec (cum_distances_nodes coords) cf hr) as [els [a1 [a2 [a3 [a4 a5]]]]].
  { rewrite n1. auto. }
  { auto. }
  { rewrite <- hL, n2, f2 by lia. rewrite hs00. change (node_position coords 0) with 0. exact hstart. }
  { intros t ht. rewrite f1 in ht. rewrite !f2 by lia. rewrite hs0. split.
    - pose proof (proj1 (hstep t ht)). cbv zeta in *. lra.
    - intros k hk. rewrite n1 in hk. rewrite !n2 by lia. rewrite node_position_S.
      pose proof (proj2 (hstep t ht) k hk) as hh. cbv zeta in hh. lra. }
  rewrite n1 in a1. rewrite hch. unfold chain at 1. rewrite map_length, seq_length. rewrite a1. cbn [rbind].
  destruct (component_history_spec (mi_x m) N (mi_n_ini m) hini) as [hx [x1 [x2 x3]]].
  destruct (component_history_spec (mi_y m) N (mi_n_ini m) hini) as [hy [y1 [y2 y3]]].
  destruct (component_history_spec (mi_z m) N (mi_n_ini m) hini) as [hz [z1 [z2 z3]]].
  rewrite x1, y1, z1. cbn [rbind]. change (@lit R RNum 0) with 0.
  assert (hlast : last (cum_distances_nodes coords) 0 = L).
  { rewrite hL. generalize (cum_distances_nodes coords). clear. intros l. induction l as [|a l IH]; auto.
    destruct l as [|b l]; auto. change (last (a :: b :: l) 0) with (last (b :: l) 0). rewrite IH.
    cbn [length]. replace (S (S (length l)) - 1)%nat with (S (length l)) by lia. replace (S (length l) - 1)%nat with (length l) by lia. reflexivity. }
  rewrite hlast. rewrite n2 by lia. change (node_position coords 0) with 0.
  assert (hL0 : 0 <= L) by (unfold L; lra).
  set (dist := filer_location cf 0 L).
  destruct (filer_location_spec cf 0 L hL0) as [d1 d2]. fold dist in d1, d2. rewrite f1 in d1, d2.
  destruct (filter_data_spec hx cf 0 L ltac:(lia)) as [u1 u2]. destruct (filter_data_spec hy cf 0 L ltac:(lia)) as [v1 v2].
  destruct (filter_data_spec hz cf 0 L ltac:(lia)) as [w1 w2]. rewrite f1 in u1, u2, v1, v2, w1, w2.
  set (fx := filter_data_outside_range hx cf 0 L) in *. set (fy := filter_data_outside_range hy cf 0 L) in *.
  set (fz := filter_data_outside_range hz cf 0 L) in *.
  rewrite f1 in a2, a5.
  assert (hel : forall t, (t < N)%nat -> contains (cum_distances_nodes coords) (nth t els 0%nat) (s t)).
  { intros t ht. rewrite <- f2 by auto. auto. }
  (* the load never runs backward *)
  assert (hs1 : forall t, (t < N)%nat -> 0 <= s t).
  { induction t as [|t IHt]; intros ht; [rewrite hs00; lra|]. rewrite hs0.
    pose proof (proj1 (hstep t ht)). cbv zeta in *. specialize (IHt ltac:(lia)). lra. }
  assert (hdist : forall t, (t < N)%nat -> nth t dist 0 = Rmin (s t) L).
  { intros t ht. rewrite d2, f2 by auto. specialize (hs1 t ht). rewrite Rmin_comm. apply Rmax_right. apply Rmin_glb; auto. }
  assert (hseg : forall t, (t < N)%nat -> let e := nth t els 0%nat in (S e < n)%nat /\
      node_position coords e <= nth t dist 0 <= node_position coords (S e)).
  { intros t ht e. destruct (hel t ht) as [e1 [e2 e3]]. fold e in e1, e2, e3. rewrite n1 in e1, e3. rewrite n2 in e2 by lia. rewrite n2 in e3 by lia.
    split; auto. rewrite hdist by auto.
    assert (hle : node_position coords e <= L).
    { pose proof (rising_le (cum_distances_nodes coords) e (n - 1) hr ltac:(lia) ltac:(lia)) as q. rewrite !n2 in q by lia. exact q. }
    split; [apply Rmin_glb; auto|]. destruct e3 as [e3|e3].
    - apply Rle_trans with (s t); auto. apply Rmin_l.
    - apply Rle_trans with L; [apply Rmin_r|]. unfold L, track_length. fold coords n. replace (n - 1)%nat with (S e) by lia. lra. }
  (* contact parts *)
  assert (hp : exists ps, (match mi_sizes m with Some s => contact_parts s els | None => Ok (repeat 0%nat N) end) = Ok ps /\ length ps = N /\
     forall t, (t < N)%nat -> exists phi, nth_error beams (nth t ps 0%nat) = Some (element_length coords (nth t els 0%nat), phi) /\ 1 + phi <> 0).
  { unfold right_parts in hparts. fold coords n in hparts. destruct (mi_sizes m) as [sizes|].
    - destruct hparts as [p1 [p2 [p3 p4]]].
      assert (hse : sizes <> []) by (intros e; rewrite e in p2; simpl in p2; lia).
      assert (hin : forall e, In e els -> (e < list_sum sizes)%nat).
      { intros e he. apply (In_nth _ _ 0%nat) in he. destruct he as [t [ht <-]]. destruct (hseg t ltac:(lia)) as [q _]. lia. }
      destruct (contact_parts_spec sizes els hse p1 a3 hin) as [ps [q1 [q2 q3]]].
      { destruct (Nat.lt_ge_cases (nth 0 els 0%nat) (list_sum (firstn 2 sizes))) as [|hge]; auto. exfalso.
        destruct (hel 0%nat hN) as [e1 [e2 _]]. rewrite n1 in e1. rewrite hs00 in e2. rewrite n2 in e2 by lia.
        pose proof (rising_le (cum_distances_nodes coords) _ (nth 0 els 0%nat) hr hge ltac:(lia)) as q. rewrite !n2 in q by lia. lra. }
      exists ps. split; [exact q1|]. split; [lia|]. intros t ht. apply p4. apply q3. lia.
    - destruct hparts as [l [phi [p1 [p2 p3]]]]. exists (repeat 0%nat N). split; [reflexivity|]. split; [apply repeat_length|].
      intros t ht. exists phi. rewrite nth_repeat0 by auto. destruct (hseg t ht) as [q _]. rewrite p3 by auto. auto. }
  destruct hp as [ps [p1 [p2 p3]]]. rewrite p1. cbn [rbind]. eexists. split; [reflexivity|].
  intros t ht hh. fold s in hh |- *. cbn [mv_nodes mv_x mv_y mv_z mv_local mv_part].
  rewrite contact_nodes_spec by auto.
  destruct (hseg t ht) as [g1 g2]. set (e := nth t els 0%nat) in *.
  assert (k1 : nth_error (map (fun e0 => nth e0 (chain (n - 1)) (0, 0)%nat) els) t = Some (e, S e)).
  { rewrite (map_nth_error _ _ _ (nth_err els t 0%nat ltac:(lia))). fold e. rewrite chain_nth by lia. reflexivity. }
  assert (k2 : nth_error (map (fun ec => distance3 (nth (fst (nth (fst ec) (chain (n - 1)) (0, 0)%nat)) coords (T3 0 0 0)) (snd ec))
      (combine els (map (moving_coord (cum_distances_nodes coords) coords) dist))) t = Some (nth t dist 0 - node_position coords e)).
  { assert (hlen : length els = length (map (moving_coord (cum_distances_nodes coords) coords) dist)) by (rewrite map_length; lia).
    rewrite (nth_err _ t 0) by (rewrite map_length, combine_length; lia).
    rewrite (nth_combine_map _ _ _ t 0%nat (T3 0 0 0)) by (auto; lia). cbn [fst snd]. fold e. rewrite chain_nth by lia. cbn [fst].
    f_equal. rewrite (nth_indep (map (moving_coord (cum_distances_nodes coords) coords) dist) (T3 0 0 0) (moving_coord (cum_distances_nodes coords) coords 0)) by (rewrite map_length; lia).
    rewrite map_nth.
    apply (moving_coord_spec coords (nth t dist 0) e hn hpos g1 g2). }
  destruct (p3 t ht) as [phi [b1 b2]]. fold e in b1.
  assert (hdt : nth t dist 0 = s t) by (rewrite hdist by auto; apply Rmin_left; exact hh). rewrite hdt in g2, k2.
  exists e, (nth t ps 0%nat), phi. split; [exact g1|]. split; [exact g2|]. split; [exact k1|].
  rewrite (nth_err fx t 0), (nth_err fy t 0), (nth_err fz t 0), (nth_err ps t 0%nat) by lia.
  rewrite (proj1 (u2 t ht)), (proj1 (v2 t ht)), (proj1 (w2 t ht)) by (rewrite ?f2 by auto; auto). rewrite x3, y3, z3 by auto.
  split; [reflexivity|]. split; [reflexivity|]. split; [reflexivity|]. split; [exact k2|]. split; [reflexivity|exact b1].
Qed.
