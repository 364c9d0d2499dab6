(** * The matrices of a generated horizontal track *)

From Coq Require Import Reals List Bool ZArith Arith Lia Lra Psatz.
From Verif Require Import Num PyBase Model_Geometry Model_System Spec_System Proofs_Dof Proofs_System Model_Element Spec_Element
  Proofs_Elements Proofs_Element Proofs_Beam Proofs_Force Model_Accumulation Proofs_Accumulation Proofs_Geometry Model_Coupled Model_Mesh Proofs_Mesh
  Model_Track Spec_Track Proofs_Track Proofs_Assembly.
Import ListNotations.
Local Open Scope R_scope.

(** ** sums of terms that are not negative *)

Lemma nsum_nonneg_zero {A} (f : A -> R) l : (forall a, In a l -> 0 <= f a) -> nsum (map f l) = 0 -> forall a, In a l -> f a = 0.
Proof.
  induction l as [|b l IH]; intros h e a ha; [destruct ha|]. cbn [map nsum] in e. rnum.
  assert (h1 : 0 <= f b) by (apply h; left; reflexivity).
  assert (h2 : 0 <= nsum (map f l)) by (apply nsum_nonneg, Forall_map, Forall_forall; intros x hx; apply h; right; exact hx).
  change (f b + nsum (map f l) = 0) in e. destruct ha as [<-|ha]; [lra|]. apply IH; [intros; apply h; right; assumption|lra|exact ha].
Qed.

Lemma square_zero c (v : R) : 0 < c -> c * (v * v) = 0 -> v = 0.
Proof. intros hc e. destruct (Req_dec v 0) as [|ne]; [assumption|]. apply sqr_gt in ne. nra. Qed.

Section Generated.
  Variables (n r : nat) (d depth : R).
  Hypothesis hn : (2 <= n)%nat.
  Hypothesis hr : (1 <= r)%nat.
  Hypothesis hd : 1 / 1000000000 < d / INR r.
  Hypothesis hdepth : 1 / 1000000000 < depth.
  Variables (b : beam R) (kp ks m : R) (cp mp cs ms : option R).
  Hypothesis hf : fixed_ends b.
  Hypothesis hE : 0 < b_E b.
  Hypothesis hI : 0 < b_I b.
  Hypothesis hA : 0 < b_A b.
  Hypothesis hnu : - 1 < b_nu b.
  Hypothesis hrho : 0 <= b_rho b.
  Hypothesis hkp : 0 < kp.
  Hypothesis hks : 0 < ks.
  Hypothesis hm : 0 <= m.
  Hypothesis hcp : opt_nonneg cp.
  Hypothesis hmp : opt_nonneg mp.
  Hypothesis hcs : opt_nonneg cs.
  Hypothesis hms : opt_nonneg ms.

  Let nr := (n * r)%nat.
  Let t := the_track 0 n r d depth.
  Let ns := tk_mesh t.
  Let l := d / INR r.
  Let b' := mkBeam (b_E b) (b_nu b) (b_rho b) (b_A b) (b_I b) (b_shear_factor b) l (b_s1 b) (b_s2 b).
  Let parts := [mkPart (KRail b) (tk_rail_nodes t) (tk_rail_els t);
                mkPart (KRod (Some kp) cp mp) (tk_pad_nodes t) (tk_pad_els t);
                mkPart (KPoint m) (tk_sleepers t) [];
                mkPart (KRod (Some ks) cs ms) (tk_soil_nodes t) (tk_soil_els t)].

  Lemma rails_two : (2 <= nr)%nat.
  Proof. unfold nr. nia. Qed.
  Lemma lpos : 0 < l.
  Proof. unfold l. lra. Qed.

  Lemma mesh_length : length ns = (nr + n + n)%nat.
  Proof.
    unfold ns, t, the_track. cbn [tk_mesh]. unfold reorder_node_ids. rewrite reorder_from_length.
    unfold track_nodes. rewrite !app_length, !map_length, !seq_length. fold nr. lia.
  Qed.

  Lemma nth_mapseq {A} (f : nat -> A) k i : (i < k)%nat -> nth_error (map f (seq 0 k)) i = Some (f i).
  Proof. intros h. rewrite nth_error_map. rewrite (nth_error_nth' _ 0%nat) by (rewrite seq_length; lia). rewrite seq_nth by lia. reflexivity. Qed.

  Lemma mesh_nth i a : nth_error (track_nodes 0 n r d depth) i = Some a -> nth_error ns i = Some (set_index a i).
  Proof. intros h. unfold ns, t, the_track. cbn [tk_mesh]. unfold reorder_node_ids. rewrite reorder_from_nth, h. reflexivity. Qed.
  Lemma mesh_rail i : (i < nr)%nat -> nth_error ns i = Some (set_index (rail_node 0 r d i) i).
  Proof. intros h. apply mesh_nth. unfold track_nodes. rewrite nth_error_app1 by (rewrite map_length, seq_length; exact h). apply nth_mapseq. exact h. Qed.
  Lemma mesh_sleeper i : (i < n)%nat -> nth_error ns (nr + i) = Some (set_index (sleeper_node 0 n r d i) (nr + i)).
  Proof.
    intros h. apply mesh_nth. unfold track_nodes. rewrite nth_error_app2; rewrite map_length, seq_length; fold nr; [|lia].
    rewrite nth_error_app1 by (rewrite map_length, seq_length; lia). replace (nr + i - nr)%nat with i by lia. apply nth_mapseq. exact h.
  Qed.
  Lemma mesh_bottom i : (i < n)%nat -> nth_error ns (nr + n + i) = Some (set_index (bottom_node 0 n r d depth i) (nr + n + i)).
  Proof.
    intros h. apply mesh_nth. unfold track_nodes. rewrite nth_error_app2; rewrite map_length, seq_length; fold nr; [|lia].
    rewrite nth_error_app2; rewrite map_length, seq_length; [|lia]. replace (nr + n + i - nr - n)%nat with i by lia. apply nth_mapseq. exact h.
  Qed.
  Lemma xy_rail i : (i < nr)%nat -> xy ns i = (INR i * d / INR r, 0).
  Proof. intros h. unfold xy. rewrite mesh_rail by exact h. reflexivity. Qed.
  Lemma xy_sleeper i : (i < n)%nat -> xy ns (nr + i) = (INR i * d, -1).
  Proof. intros h. unfold xy. rewrite mesh_sleeper by exact h. reflexivity. Qed.
  Lemma xy_bottom i : (i < n)%nat -> xy ns (nr + n + i) = (INR i * d, -1 - depth).
  Proof. intros h. unfold xy. rewrite mesh_bottom by exact h. reflexivity. Qed.

  Lemma INR_r : 0 < INR r.
  Proof. apply lt_0_INR. lia. Qed.
  Lemma pad_x i : INR (i * r) * d / INR r = INR i * d.
  Proof. rewrite mult_INR. pose proof INR_r. field. lra. Qed.

  Lemma all_active p e : (p < length ns)%nat -> active ns p e = true.
  Proof.
    intros h. rewrite mesh_length in h. unfold active. destruct (Nat.lt_ge_cases p nr) as [c|c]; [rewrite mesh_rail by exact c; destruct e; reflexivity|].
    destruct (Nat.lt_ge_cases p (nr + n)) as [c2|c2].
    - replace p with (nr + (p - nr))%nat by lia. rewrite mesh_sleeper by lia. destruct e; reflexivity.
    - replace p with (nr + n + (p - nr - n))%nat by lia. rewrite mesh_bottom by lia. destruct e; reflexivity.
  Qed.

  (** ** directions of the elements *)

  Lemma rail_angle i : (S i < nr)%nat -> calculate_rotation1 (xy ns i, xy ns (i + 1)) = 0.
  Proof.
    intros h. rewrite !xy_rail by lia. apply rotation1_right. rewrite plus_INR. cbn [INR]. pose proof INR_r. pose proof lpos as hl.
    replace ((INR i + 1) * d / INR r) with (INR i * d / INR r + l) by (unfold l; field; lra). lra.
  Qed.
  Lemma pad_angle i : (i < n)%nat -> calculate_rotation1 (xy ns (i * r), xy ns (nr + i)) = - (PI / 2).
  Proof.
    intros h. rewrite xy_rail by (unfold nr; nia). rewrite pad_x, xy_sleeper by exact h. rewrite rotation1_vertical by lra. destruct (Rlt_dec 0 (-1)); [lra|reflexivity].
  Qed.
  Lemma soil_angle i : (i < n)%nat -> calculate_rotation1 (xy ns (nr + i), xy ns (nr + n + i)) = - (PI / 2).
  Proof.
    intros h. rewrite xy_sleeper, xy_bottom by exact h. rewrite rotation1_vertical by lra. destruct (Rlt_dec (-1) (-1 - depth)); [lra|reflexivity].
  Qed.
  Lemma along_down v w : along (- (PI / 2)) v w = w.
  Proof. unfold along. rewrite cos_neg, sin_neg, cos_PI2, sin_PI2. ring. Qed.

  (** ** the rail takes its length from the nodes *)

  Lemma rail_dist i : (S i < nr)%nat -> dist3 (n_coord (rail_node 0 r d i)) (n_coord (rail_node 0 r d (i + 1))) = l.
  Proof.
    intros h. unfold dist3, rail_node, new_node. cbn [n_coord tx ty tr]. rewrite plus_INR. cbn [INR]. pose proof INR_r. pose proof lpos as hl.
    replace (((INR i + 1) * d / INR r - INR i * d / INR r) * ((INR i + 1) * d / INR r - INR i * d / INR r) + (0 - 0) * (0 - 0) + (0 - 0) * (0 - 0)) with (Rsqr l) by (unfold l, Rsqr; field; lra).
    apply sqrt_Rsqr. lra.
  Qed.

  Lemma seq_two : exists q, seq 0 nr = 0%nat :: 1%nat :: q.
  Proof. pose proof rails_two. destruct nr as [|[|k]]; [lia|lia|]. eexists. reflexivity. Qed.

  Lemma settled_rail : settled ns (mkPart (KRail b) (tk_rail_nodes t) (tk_rail_els t)) = mkPart (KRail b') (tk_rail_nodes t) (tk_rail_els t).
  Proof.
    unfold settled. cbn [ep_kind ep_nodes ep_els]. change (tk_rail_nodes t) with (seq 0 nr). destruct seq_two as [q e]. rewrite e.
    pose proof rails_two. rewrite !mesh_rail by lia.
    assert (e0 : dist3 (n_coord (set_index (rail_node 0 r d 0) 0)) (n_coord (set_index (rail_node 0 r d 1) 1)) = l) by exact (rail_dist 0 ltac:(lia)).
    rewrite e0. reflexivity.
  Qed.

  Lemma mapr_all (q : list nat) (f : nat -> node R) : (forall i, In i q -> nth_error ns i = Some (f i)) -> mapr (node_at ns) q = Ok (map f q).
  Proof. intros h. apply mapr_map. intros i hi. apply at_idx_ok. apply h. exact hi. Qed.

  Lemma rail_initialises : exists p', initialize_part ns (mkPart (KRail b) (tk_rail_nodes t) (tk_rail_els t)) = Ok p'.
  Proof.
    unfold initialize_part. cbn [ep_kind ep_nodes ep_els]. change (tk_rail_nodes t) with (seq 0 nr).
    rewrite (mapr_all _ (fun i => set_index (rail_node 0 r d i) i)) by (intros i hi; apply in_seq in hi; apply mesh_rail; lia). cbn [rbind].
    rewrite map_map. pose proof rails_two as h2.
    destruct (rail_length_spec (Some (b_l b)) (map (fun i => n_coord (set_index (rail_node 0 r d i) i)) (seq 0 nr))) as [_ h].
    destruct (h (n_coord (rail_node 0 r d 0)) (n_coord (rail_node 0 r d (0 + 1)))) as [h1 _]; [rewrite nth_mapseq by lia; reflexivity|rewrite nth_mapseq by lia; reflexivity|].
    rewrite h1; [cbn [rbind]; eexists; reflexivity|]. clear h h1. intros i u v hu hv.
    assert (hi : (S i < nr)%nat).
    { assert (g : nth_error (map (fun i => n_coord (set_index (rail_node 0 r d i) i)) (seq 0 nr)) (S i) <> None) by congruence.
      apply nth_error_Some in g. rewrite map_length, seq_length in g. exact g. }
    rewrite nth_mapseq in hu, hv by lia. replace (S i) with (i + 1)%nat in hv by lia.
    assert (eu : n_coord (rail_node 0 r d i) = u) by exact (f_equal (fun o => match o with Some x => x | None => u end) hu).
    assert (ev : n_coord (rail_node 0 r d (i + 1)) = v) by exact (f_equal (fun o => match o with Some x => x | None => v end) hv).
    rewrite <- eu, <- ev.
    rewrite !rail_dist by lia. replace (l - l) with 0 by ring. rewrite Rabs_R0. pose proof lpos. lra.
  Qed.

  (** ** stiffness energy *)

  Lemma b_sound : sound_beam b'.
  Proof. unfold sound_beam, b'. cbn. pose proof lpos. auto 10. Qed.
  Let phi := timoshenko_factor 0 b'.
  Definition rail_energy (u : nat -> dir -> R) (i : nat) : R :=
    let g := u i DY - u (i + 1)%nat DY + l * (u i DR + u (i + 1)%nat DR) / 2 in
    b_E b * b_A b / l * ((u (i + 1)%nat DX - u i DX) * (u (i + 1)%nat DX - u i DX)) +
    b_E b * b_I b / l * ((u (i + 1)%nat DR - u i DR) * (u (i + 1)%nat DR - u i DR)) +
    12 * (b_E b * b_I b) / ((1 + phi) * (l * l * l)) * (g * g).
  Definition pad_energy (u : nat -> dir -> R) (i : nat) : R := kp * ((u (nr + i)%nat DY - u (i * r)%nat DY) * (u (nr + i)%nat DY - u (i * r)%nat DY)).
  Definition soil_energy (u : nat -> dir -> R) (i : nat) : R :=
    ks * ((u (nr + n + i)%nat DY - u (nr + i)%nat DY) * (u (nr + n + i)%nat DY - u (nr + i)%nat DY)).

  Lemma track_energy u :
    nsum (map (fun p => part_form aux_stiffness ns u (settled ns p)) parts) =
    nsum (map (rail_energy u) (seq 0 (nr - 1))) + nsum (map (pad_energy u) (seq 0 n)) + nsum (map (soil_energy u) (seq 0 n)).
  Proof.
    unfold parts. cbn [map nsum]. rewrite settled_rail. unfold settled. cbn [ep_kind]. unfold part_form. cbn [ep_kind ep_els ep_nodes aux_stiffness rod_spring].
    assert (e1 : nsum (map (fun e => element_form (KRail b') (beam_stiffness b' (timoshenko_factor (lit 0) b')) (calculate_rotation1 (xy ns (fst e), xy ns (snd e))) u (fst e) (snd e)) (tk_rail_els t))
                 = nsum (map (rail_energy u) (seq 0 (nr - 1)))).
    { change (tk_rail_els t) with (map (fun i => ((0 + i)%nat, (0 + (i + 1))%nat)) (seq 0 (nr - 1))). rewrite map_map. apply nsum_map_ext. intros i hi. apply in_seq in hi.
      cbn [fst snd Nat.add element_form]. rewrite rail_angle by lia. pose proof (timoshenko_nonneg b' b_sound) as hphi.
      destruct (beam_fixed_spec b' (timoshenko_factor 0 b') hf hE hI hA lpos hphi) as [_ [_ [_ [_ hz]]]].
      change (timoshenko_factor (lit 0) b') with (timoshenko_factor 0 b'). rewrite hz. unfold local6, along, across. cbn [vec6]. rewrite cos_0, sin_0.
      unfold rail_energy. fold phi. unfold b'. cbn [b_E b_A b_I b_l]. f_equal; [f_equal|]; f_equal; ring. }
    assert (e2 : forall k c w q, element_form (KRod (Some k) c w) q = fun a u i j => quad 2 q (local2 a u i j)) by reflexivity.
    assert (e3 : forall k (f g : nat -> nat), (forall i, (i < n)%nat -> calculate_rotation1 (xy ns (f i), xy ns (g i)) = - (PI / 2)) ->
       nsum (map (fun e => quad 2 (mset (mset (mset (mset zeros 0 0 k) 1 0 (nopp k)) 0 1 (nopp k)) 1 1 k)
                  (local2 (calculate_rotation1 (xy ns (fst e), xy ns (snd e))) u (fst e) (snd e))) (map (fun i => (f i, g i)) (seq 0 n)))
       = nsum (map (fun i => k * ((u (g i) DY - u (f i) DY) * (u (g i) DY - u (f i) DY))) (seq 0 n))).
    { intros k f g ha. rewrite map_map. apply nsum_map_ext. intros i hi. apply in_seq in hi. cbn [fst snd]. rewrite ha by lia.
      destruct (rod_spring_spec k _ eq_refl) as [_ [q _]]. cbn [rod_spring] in q. rewrite q. cbn [local2]. rewrite !along_down. reflexivity. }
    rewrite e1. rewrite !e2.
    change (tk_pad_els t) with (map (fun i => ((0 + i * r)%nat, (0 + nr + i)%nat)) (seq 0 n)).
    change (tk_soil_els t) with (map (fun i => ((0 + nr + i)%nat, (0 + nr + n + i)%nat)) (seq 0 n)).
    rewrite (e3 kp (fun i => (0 + i * r)%nat) (fun i => (0 + nr + i)%nat)) by (intros i hi; apply pad_angle; exact hi).
    rewrite (e3 ks (fun i => (0 + nr + i)%nat) (fun i => (0 + nr + n + i)%nat)) by (intros i hi; apply soil_angle; exact hi).
    assert (e4 : nsum (map (fun i => one_by_one (lit 0) 0%nat 0%nat * (u i DY * u i DY)) (tk_sleepers t)) = 0).
    { induction (tk_sleepers t) as [|x q IH]; [reflexivity|]. cbn [map nsum]. rewrite IH. cbn. rnum. ring. }
    rewrite e4. unfold pad_energy, soil_energy. cbn [Nat.add]. rnum. ring.
  Qed.

  Lemma phi_nonneg : 0 <= phi.
  Proof. exact (timoshenko_nonneg b' b_sound). Qed.
  Lemma rail_coefficients : 0 < b_E b * b_A b / l /\ 0 < b_E b * b_I b / l /\ 0 < 12 * (b_E b * b_I b) / ((1 + phi) * (l * l * l)).
  Proof.
    pose proof lpos as hl. pose proof phi_nonneg as hp. pose proof (Rmult_lt_0_compat _ _ hE hA) as h1. pose proof (Rmult_lt_0_compat _ _ hE hI) as h2.
    split; [apply Rdiv_lt_0_compat; assumption|]. split; [apply Rdiv_lt_0_compat; assumption|].
    apply Rdiv_lt_0_compat; [lra|]. apply Rmult_lt_0_compat; [lra|]. apply Rmult_lt_0_compat; [apply Rmult_lt_0_compat; assumption|assumption].
  Qed.
  Lemma scaled_square c v : 0 <= c -> 0 <= c * (v * v).
  Proof. intros h. apply Rmult_le_pos; [exact h|]. apply Rle_0_sqr. Qed.
  Lemma rail_energy_nonneg u i : 0 <= rail_energy u i.
  Proof.
    destruct rail_coefficients as [h1 [h2 h3]]. unfold rail_energy. cbv zeta.
    apply Rplus_le_le_0_compat; [apply Rplus_le_le_0_compat|]; apply scaled_square; lra.
  Qed.
  Lemma rail_energy_zero u i : rail_energy u i = 0 ->
    u (i + 1)%nat DX = u i DX /\ u (i + 1)%nat DR = u i DR /\ u (i + 1)%nat DY = u i DY + l * u i DR.
  Proof.
    destruct rail_coefficients as [h1 [h2 h3]]. unfold rail_energy. cbv zeta.
    set (v1 := u (i + 1)%nat DX - u i DX). set (v2 := u (i + 1)%nat DR - u i DR). set (v3 := u i DY - u (i + 1)%nat DY + l * (u i DR + u (i + 1)%nat DR) / 2). intros e.
    pose proof (scaled_square _ v1 (Rlt_le _ _ h1)) as g1. pose proof (scaled_square _ v2 (Rlt_le _ _ h2)) as g2. pose proof (scaled_square _ v3 (Rlt_le _ _ h3)) as g3.
    assert (z1 : v1 = 0) by (apply (square_zero _ _ h1); lra). assert (z2 : v2 = 0) by (apply (square_zero _ _ h2); lra). assert (z3 : v3 = 0) by (apply (square_zero _ _ h3); lra).
    unfold v1, v2, v3 in *. split; [lra|]. split; [lra|]. replace (u (i + 1)%nat DR) with (u i DR) in z3 by lra. lra.
  Qed.

  (** a field without energy whose bottom does not move and whose rail is held along x at one node is zero on the track *)
  Lemma no_energy u :
    nsum (map (fun p => part_form aux_stiffness ns u (settled ns p)) parts) = 0 ->
    (forall i, (i < n)%nat -> u (nr + n + i)%nat DY = 0) -> (exists j, (j < nr)%nat /\ u j DX = 0) ->
    (forall i e, (i < nr)%nat -> u i e = 0) /\ (forall i, (i < n)%nat -> u (nr + i)%nat DY = 0).
  Proof.
    intros e hb [j [hj hx]]. rewrite track_energy in e.
    assert (p1 : 0 <= nsum (map (rail_energy u) (seq 0 (nr - 1)))) by (apply nsum_nonneg, Forall_map, Forall_forall; intros; apply rail_energy_nonneg).
    assert (p2 : 0 <= nsum (map (pad_energy u) (seq 0 n))) by (apply nsum_nonneg, Forall_map, Forall_forall; intros; apply scaled_square; lra).
    assert (p3 : 0 <= nsum (map (soil_energy u) (seq 0 n))) by (apply nsum_nonneg, Forall_map, Forall_forall; intros; apply scaled_square; lra).
    assert (z1 : forall i, (S i < nr)%nat -> rail_energy u i = 0).
    { intros i hi. apply (nsum_nonneg_zero (rail_energy u) (seq 0 (nr - 1))); [intros; apply rail_energy_nonneg|lra|apply in_seq; lia]. }
    assert (z2 : forall i, (i < n)%nat -> u (nr + i)%nat DY = u (i * r)%nat DY).
    { intros i hi. assert (g : pad_energy u i = 0) by (apply (nsum_nonneg_zero (pad_energy u) (seq 0 n)); [intros; apply scaled_square; lra|lra|apply in_seq; lia]).
      apply (square_zero kp) in g; [lra|exact hkp]. }
    assert (z3 : forall i, (i < n)%nat -> u (nr + i)%nat DY = 0).
    { intros i hi. assert (g : soil_energy u i = 0) by (apply (nsum_nonneg_zero (soil_energy u) (seq 0 n)); [intros; apply scaled_square; lra|lra|apply in_seq; lia]).
      apply (square_zero ks) in g; [|exact hks]. rewrite (hb i hi) in g. lra. }
    split; [|exact z3].
    assert (c : forall i, (i < nr)%nat -> u i DX = u 0%nat DX /\ u i DR = u 0%nat DR /\ u i DY = u 0%nat DY + INR i * (l * u 0%nat DR)).
    { induction i as [|i IH]; intros hi; [cbn; split; [reflexivity|split; [reflexivity|ring]]|].
      destruct IH as [i1 [i2 i3]]; [lia|]. destruct (rail_energy_zero u i (z1 i hi)) as [g1 [g2 g3]]. replace (i + 1)%nat with (S i) in * by lia.
      rewrite g1, g2, g3, i1, i2, i3, S_INR. split; [reflexivity|split; [reflexivity|ring]]. }
    assert (y0 : u 0%nat DY = 0) by (rewrite <- (z3 0%nat) by lia; rewrite (z2 0%nat) by lia; reflexivity).
    assert (hr2 : (r < nr)%nat) by (unfold nr; nia).
    assert (yr : u r DY = 0) by (rewrite <- (z3 1%nat) by lia; rewrite (z2 1%nat) by lia; f_equal; lia).
    assert (x0 : u 0%nat DX = 0) by (destruct (c j hj) as [g _]; lra).
    assert (r0 : u 0%nat DR = 0).
    { destruct (c r hr2) as [_ [_ g]]. rewrite yr, y0 in g. assert (g' : INR r * (l * u 0%nat DR) = 0) by lra.
      apply Rmult_integral in g'. destruct g' as [g'|g']; [pose proof INR_r; lra|]. apply Rmult_integral in g'. destruct g' as [g'|g']; [pose proof lpos; lra|exact g']. }
    intros i e' hi. destruct (c i hi) as [g1 [g2 g3]]. destruct e'; [rewrite g1; exact x0|rewrite g3, y0, r0; ring|rewrite g2; exact r0].
  Qed.

  (** ** degrees of freedom that no element uses *)

  Lemma unit_other p e q e' : p <> q -> unit_field p e q e' = 0.
  Proof. intros h. unfold unit_field. destruct (Nat.eqb_spec (3 * p + dir_idx e) (3 * q + dir_idx e')) as [g|g]; [|reflexivity]. exfalso. destruct e, e'; cbn in g; lia. Qed.
  Lemma unit_direction p e q e' : e <> e' -> unit_field p e q e' = 0.
  Proof. intros h. unfold unit_field. destruct (Nat.eqb_spec (3 * p + dir_idx e) (3 * q + dir_idx e')) as [g|g]; [|reflexivity]. exfalso. apply h. destruct e, e'; cbn in g; try reflexivity; lia. Qed.

  Lemma nsum_zero {A} (f : A -> R) q : (forall a, In a q -> f a = 0) -> nsum (map f q) = 0.
  Proof. induction q as [|a q IH]; intros h; [reflexivity|]. cbn [map nsum]. rewrite IH by (intros; apply h; right; assumption). rewrite (h a (or_introl eq_refl)). rnum. ring. Qed.

  Lemma unused p e : (nr <= p)%nat -> e <> DY -> nsum (map (fun a => part_form aux_stiffness ns (unit_field p e) (settled ns a)) parts) = 0.
  Proof.
    intros hp he. rewrite track_energy. rewrite !nsum_zero; [rnum; ring| | |]; intros i hi; apply in_seq in hi.
    - unfold soil_energy. rewrite !unit_direction by exact he. ring.
    - unfold pad_energy. rewrite !unit_direction by exact he. ring.
    - unfold rail_energy. cbv zeta. rewrite !unit_other by lia. unfold Rdiv. ring.
  Qed.

  Lemma parts_shaped : Forall shaped parts.
  Proof.
    unfold parts. pose proof rails_two. repeat constructor; unfold shaped; cbn [ep_kind ep_els].
    - change (tk_rail_els t) with (map (fun i => ((0 + i)%nat, (0 + (i + 1))%nat)) (seq 0 (nr - 1))). destruct (nr - 1)%nat eqn:e; [lia|]. discriminate.
    - change (tk_pad_els t) with (map (fun i => ((0 + i * r)%nat, (0 + nr + i)%nat)) (seq 0 n)). destruct n; [lia|]. discriminate.
    - change (tk_soil_els t) with (map (fun i => ((0 + nr + i)%nat, (0 + nr + n + i)%nat)) (seq 0 n)). destruct n; [lia|]. discriminate.
  Qed.
  Lemma parts_sound : Forall (fun p => sound (settled ns p)) parts.
  Proof.
    unfold parts. constructor; [rewrite settled_rail; exact b_sound|]. constructor; [cbn; repeat split; [lra|assumption|assumption]|]. constructor; [exact hm|]. constructor; [cbn; repeat split; [lra|assumption|assumption]|constructor].
  Qed.

  Lemma unused_removed ls cs0 da s ns' k p e : initialise_system ns parts ls cs0 da = Ok (s, ns', k) -> (nr <= p)%nat -> e <> DY -> number_of ns' p e = None.
  Proof.
    intros h hp he. destruct (initialise_inv _ _ _ _ _ _ _ _ h) as [s0 [_ [e0 _]]]. destruct (initialise_kept _ _ _ _ _ _ _ _ _ h e0) as [hl [_ [hk _]]].
    destruct (number_of ns' p e) as [i|] eqn:ei; [|reflexivity]. exfalso.
    assert (hb : (p < length ns)%nat) by (rewrite <- hl; eapply number_of_bound; eauto).
    destruct (assemble_diag ns parts ls s0 _ p e parts_shaped e0 hb) as [k1 _]. rewrite unused in k1 by assumption.
    destruct (hk p e hb) as [g _]. destruct g as [_ [_ g]]; [congruence|]. change (match e with DX => 0%nat | DY => 1%nat | DR => 2%nat end) with (dir_idx e) in g.
    rewrite k1, Rabs_R0 in g. lra.
  Qed.

  Lemma track_definite ls cs0 da s ns' k x : initialise_system ns parts ls cs0 da = Ok (s, ns', k) ->
    (forall i, (i < n)%nat -> number_of ns' (nr + n + i) DY = None) -> (exists j, (j < nr)%nat /\ number_of ns' j DX = None) ->
    quad k (me (gK s)) x = 0 -> forall i, (i < k)%nat -> x i = 0.
  Proof.
    intros h hb [j [hj hx]] e i hi. destruct (initialise_inv _ _ _ _ _ _ _ _ h) as [s0 [_ [e0 _]]]. destruct (initialise_kept _ _ _ _ _ _ _ _ _ h e0) as [hl [hnum [_ _]]].
    destruct (initialise_energy _ _ _ _ _ _ _ _ x parts_shaped h) as [he _]. rewrite he in e.
    destruct (no_energy (field_of ns' x) e) as [z1 z2].
    - intros q hq. unfold field_of. rewrite (hb q hq). reflexivity.
    - exists j. split; [exact hj|]. unfold field_of. rewrite hx. reflexivity.
    - assert (hin : In i (all_numbers ns')) by (rewrite hnum; apply in_seq; lia). apply all_numbers_In in hin. destruct hin as [p [f hp]].
      assert (hb' : (p < length ns)%nat) by (rewrite <- hl; eapply number_of_bound; eauto). rewrite mesh_length in hb'.
      assert (hv : field_of ns' x p f = x i) by (unfold field_of; rewrite hp; reflexivity). rewrite <- hv.
      destruct (Nat.lt_ge_cases p nr) as [c|c]; [apply z1; exact c|].
      assert (hf' : f = DY).
      { destruct f; [|reflexivity|]; rewrite (unused_removed _ _ _ _ _ _ p _ h c) in hp by discriminate; discriminate. }
      subst f. destruct (Nat.lt_ge_cases p (nr + n)) as [c2|c2].
      + replace p with (nr + (p - nr))%nat by lia. apply z2. lia.
      + replace p with (nr + n + (p - nr - n))%nat in hp by lia. rewrite hb in hp by lia. discriminate.
  Qed.

  Lemma track_initialises ls cs0 da : (forall q i, In q ls -> In i (ld_nodes q) -> (i < length ns)%nat) ->
    exists s ns' k, initialise_system ns parts ls cs0 da = Ok (s, ns', k).
  Proof.
    intros hls. apply initialise_ok; [| |exact hls].
    - intros p [<-|[<-|[<-|[<-|[]]]]]; [exact rail_initialises| | |]; eexists; reflexivity.
    - pose proof rails_two. intros p i hp hi. rewrite mesh_length. unfold part_refs in hi.
      assert (g1 : forall e, In e (tk_rail_els t) -> (fst e < nr)%nat /\ (snd e < nr)%nat).
      { change (tk_rail_els t) with (map (fun i => ((0 + i)%nat, (0 + (i + 1))%nat)) (seq 0 (nr - 1))). intros e he. apply in_map_iff in he. destruct he as [q [<- hq]]. apply in_seq in hq. cbn. lia. }
      assert (g2 : forall e, In e (tk_pad_els t) -> (fst e < nr + n)%nat /\ (snd e < nr + n)%nat).
      { change (tk_pad_els t) with (map (fun i => ((0 + i * r)%nat, (0 + nr + i)%nat)) (seq 0 n)). intros e he. apply in_map_iff in he. destruct he as [q [<- hq]]. apply in_seq in hq.
        cbn. assert (q * r < nr)%nat by (unfold nr; nia). lia. }
      assert (g3 : forall e, In e (tk_soil_els t) -> (fst e < nr + n + n)%nat /\ (snd e < nr + n + n)%nat).
      { change (tk_soil_els t) with (map (fun i => ((0 + nr + i)%nat, (0 + nr + n + i)%nat)) (seq 0 n)). intros e he. apply in_map_iff in he. destruct he as [q [<- hq]]. apply in_seq in hq. cbn. lia. }
      assert (g : forall (es : list (nat * nat)) nodes q, es <> [] -> (forall e, In e es -> (fst e < q)%nat /\ (snd e < q)%nat) ->
         In i (match es with [] => nodes | e1 :: es1 => flat_map (fun e => [fst e; snd e]) (e1 :: es1) end) -> (i < q)%nat).
      { intros es nodes q hne hq hin. destruct es as [|e es]; [congruence|]. apply in_flat_map in hin. destruct hin as [e' [h1 h2]]. destruct (hq e' h1).
        destruct h2 as [<-|[<-|[]]]; assumption. }
      pose proof parts_shaped as hsh. rewrite Forall_forall in hsh. specialize (hsh p hp).
      destruct hp as [<-|[<-|[<-|[<-|[]]]]]; unfold shaped in hsh; cbn [ep_kind ep_els ep_nodes] in hsh, hi.
      + specialize (g (tk_rail_els t) (tk_rail_nodes t) nr hsh g1 hi). lia.
      + specialize (g (tk_pad_els t) (tk_pad_nodes t) (nr + n)%nat hsh g2 hi). lia.
      + change (tk_sleepers t) with (seq (0 + nr) n) in hi. apply in_seq in hi. lia.
      + specialize (g (tk_soil_els t) (tk_soil_nodes t) (nr + n + n)%nat hsh g3 hi). lia.
  Qed.

  (** ** without a boundary at the side *)

  Definition slide (ns' : list (node R)) (j : nat) : R :=
    if existsb (fun i => match number_of ns' i DX with Some k => Nat.eqb k j | None => false end) (seq 0 nr) then 1 else 0.

  Lemma slides ns' k p e : numbered ns' k -> (forall i, (i < nr)%nat -> number_of ns' i DX <> None) ->
    field_of ns' (slide ns') p e = match e with DX => if Nat.ltb p nr then 1 else 0 | _ => 0 end.
  Proof.
    intros hnum hx. unfold field_of. destruct (number_of ns' p e) as [j|] eqn:ej.
    - unfold slide. destruct (existsb _ _) eqn:ex.
      + apply existsb_exists in ex. destruct ex as [i [hi g]]. apply in_seq in hi. destruct (number_of ns' i DX) as [k'|] eqn:ek; [|discriminate]. apply Nat.eqb_eq in g. subst k'.
        destruct (numbered_inj _ _ _ _ _ _ _ hnum ej ek) as [-> ->]. destruct (Nat.ltb_spec i nr); [reflexivity|lia].
      + destruct e; [|reflexivity|reflexivity]. destruct (Nat.ltb_spec p nr) as [c|c]; [|reflexivity]. exfalso.
        assert (g : existsb (fun i => match number_of ns' i DX with Some k => Nat.eqb k j | None => false end) (seq 0 nr) = true); [|congruence].
        apply existsb_exists. exists p. split; [apply in_seq; lia|]. rewrite ej. apply Nat.eqb_refl.
    - destruct e; [|reflexivity|reflexivity]. destruct (Nat.ltb_spec p nr) as [c|c]; [|reflexivity]. exfalso. exact (hx p c ej).
  Qed.

  Lemma track_slides ls cs0 da s ns' k : initialise_system ns parts ls cs0 da = Ok (s, ns', k) ->
    (forall i, (i < nr)%nat -> number_of ns' i DX <> None) ->
    exists x, quad k (me (gK s)) x = 0 /\ exists i, (i < k)%nat /\ x i = 1.
  Proof.
    intros h hx. destruct (initialise_inv _ _ _ _ _ _ _ _ h) as [s0 [_ [e0 _]]]. destruct (initialise_kept _ _ _ _ _ _ _ _ _ h e0) as [hl [hnum [_ _]]].
    exists (slide ns'). destruct (initialise_energy _ _ _ _ _ _ _ _ (slide ns') parts_shaped h) as [he _]. split.
    - rewrite he, track_energy. rewrite !nsum_zero; [rnum; ring| | |]; intros i hi; apply in_seq in hi.
      + unfold soil_energy. rewrite !(slides ns' k) by assumption. ring.
      + unfold pad_energy. rewrite !(slides ns' k) by assumption. ring.
      + unfold rail_energy. cbv zeta. rewrite !(slides ns' k) by assumption.
        destruct (Nat.ltb_spec i nr); [|lia]. destruct (Nat.ltb_spec (i + 1) nr); [|lia]. unfold Rdiv. ring.
    - pose proof rails_two. destruct (number_of ns' 0 DX) as [j|] eqn:ej; [|exfalso; apply (hx 0%nat); [lia|exact ej]].
      exists j. split.
      + assert (g : In j (all_numbers ns')) by (apply all_numbers_In; eauto). rewrite hnum in g. apply in_seq in g. lia.
      + pose proof (slides ns' k 0 DX hnum hx) as g. unfold field_of in g. rewrite ej in g. rewrite g. destruct (Nat.ltb_spec 0 nr); [reflexivity|lia].
  Qed.

  Lemma nsum_ge {A} (f : A -> R) q a : (forall c, In c q -> 0 <= f c) -> In a q -> f a <= nsum (map f q).
  Proof.
    induction q as [|c q IH]; intros h ha; [destruct ha|]. cbn [map nsum]. rnum. change (f a <= f c + nsum (map f q)).
    assert (h1 : 0 <= f c) by (apply h; left; reflexivity).
    assert (h2 : 0 <= nsum (map f q)) by (apply nsum_nonneg, Forall_map, Forall_forall; intros; apply h; right; assumption).
    destruct ha as [<-|ha]; [lra|]. assert (f a <= nsum (map f q)); [apply IH; [intros; apply h; right; assumption|exact ha]|lra].
  Qed.

  (** an element that ends at rail node [p] *)
  Lemma rail_at p : (p < nr)%nat -> exists i, (S i < nr)%nat /\ (p = i \/ p = i + 1)%nat.
  Proof. intros h. pose proof rails_two. destruct p as [|p]; [exists 0%nat|exists p]; lia. Qed.

  Lemma stiffness_diag p : (p < nr)%nat ->
    b_E b * b_A b / l <= nsum (map (fun a => part_form aux_stiffness ns (unit_field p DX) (settled ns a)) parts).
  Proof.
    intros hp. rewrite track_energy. destruct (rail_at p hp) as [i [hi hpi]].
    assert (p1 : rail_energy (unit_field p DX) i <= nsum (map (rail_energy (unit_field p DX)) (seq 0 (nr - 1)))).
    { apply (nsum_ge (rail_energy (unit_field p DX))); [intros; apply rail_energy_nonneg|apply in_seq; lia]. }
    assert (p2 : 0 <= nsum (map (pad_energy (unit_field p DX)) (seq 0 n))) by (apply nsum_nonneg, Forall_map, Forall_forall; intros; apply scaled_square; lra).
    assert (p3 : 0 <= nsum (map (soil_energy (unit_field p DX)) (seq 0 n))) by (apply nsum_nonneg, Forall_map, Forall_forall; intros; apply scaled_square; lra).
    assert (e : rail_energy (unit_field p DX) i = b_E b * b_A b / l).
    { unfold rail_energy. cbv zeta. rewrite !(unit_direction p DX _ DY), !(unit_direction p DX _ DR) by discriminate.
      assert (e1 : unit_field p DX p DX = 1) by (unfold unit_field; rewrite Nat.eqb_refl; reflexivity).
      destruct hpi as [-> | ->]; rewrite e1, unit_other by lia; unfold Rdiv; ring. }
    lra.
  Qed.

  Lemma mass_diag p : (p < nr)%nat ->
    b_rho b * b_A b * l / 3 <= nsum (map (fun a => part_form aux_mass ns (unit_field p DX) (settled ns a)) parts).
  Proof.
    intros hp. destruct (rail_at p hp) as [i [hi hpi]].
    assert (hmass : aux_mass = aux_stiffness \/ aux_mass = aux_mass \/ aux_mass = aux_damping) by auto.
    assert (g : part_form aux_mass ns (unit_field p DX) (settled ns (mkPart (KRail b) (tk_rail_nodes t) (tk_rail_els t)))
              <= nsum (map (fun a => part_form aux_mass ns (unit_field p DX) (settled ns a)) parts)).
    { apply (nsum_ge (fun a => part_form aux_mass ns (unit_field p DX) (settled ns a))); [|left; reflexivity].
      intros a ha. apply part_form_nonneg; [exact hmass|]. pose proof parts_sound as hs. rewrite Forall_forall in hs. apply hs. exact ha. }
    eapply Rle_trans; [|exact g]. clear g. rewrite settled_rail. unfold part_form. cbn [ep_kind ep_els aux_mass].
    change (timoshenko_factor (lit 0) b') with phi.
    set (f := fun e => element_form (KRail b') (beam_mass b' phi) (calculate_rotation1 (xy ns (fst e), xy ns (snd e))) (unit_field p DX) (fst e) (snd e)).
    assert (g : f (i, (i + 1)%nat) <= nsum (map f (tk_rail_els t))).
    { apply (nsum_ge f).
      - intros e _. unfold f. cbn [element_form]. exact (proj2 (aux_forms (KRail b') b_sound aux_mass hmass _ eq_refl) _).
      - change (tk_rail_els t) with (map (fun i => ((0 + i)%nat, (0 + (i + 1))%nat)) (seq 0 (nr - 1))). apply in_map_iff. exists i. split; [reflexivity|apply in_seq; lia]. }
    eapply Rle_trans; [|exact g]. apply Req_le. unfold f. cbn [fst snd element_form]. rewrite rail_angle by exact hi. clear g. clear f.
    pose proof phi_nonneg as hphi.
    assert (e1 : unit_field p DX p DX = 1) by (unfold unit_field; rewrite Nat.eqb_refl; reflexivity).
    assert (e2 : forall j, (j = 0 \/ j = 3)%nat -> beam_mass b' phi j j = b_rho b * b_A b * l / 3).
    { intros j hj. rewrite beam_mass_entries by (destruct hj; lia). unfold mass_entries. destruct (Req_EM_T phi 0) as [z|z].
      - destruct hj as [-> | ->]; cbn [trans_entries b_rho b_A b_l b']; field; lra.
      - destruct hj as [-> | ->]; cbn [trans_entries rot_entries b_rho b_A b_l b_I b']; field; pose proof lpos; lra. }
    destruct hpi as [hpi|hpi].
    - rewrite <- (e2 0%nat) by (left; reflexivity). rewrite <- (quad_unit 6 _ 0%nat) by lia. apply quad_ext_vec. intros j hj.
      unfold local6, along, across. rewrite cos_0, sin_0. rewrite !(unit_direction p DX _ DY), !(unit_direction p DX _ DR) by discriminate.
      subst p. rewrite e1. rewrite (unit_other i DX (i + 1)) by lia.
      do 6 (destruct j as [|j]; [cbn; ring|]). lia.
    - rewrite <- (e2 3%nat) by (right; reflexivity). rewrite <- (quad_unit 6 _ 3%nat) by lia. apply quad_ext_vec. intros j hj.
      unfold local6, along, across. rewrite cos_0, sin_0. rewrite !(unit_direction p DX _ DY), !(unit_direction p DX _ DR) by discriminate.
      subst p. rewrite e1. rewrite (unit_other (i + 1) DX i) by lia.
      do 6 (destruct j as [|j]; [cbn; ring|]). lia.
  Qed.

  Lemma rail_kept ls cs0 da s ns' k p : initialise_system ns parts ls cs0 da = Ok (s, ns', k) -> (p < nr)%nat ->
    1 / 100000000 < b_E b * b_A b / l -> 1 / 100000000 < b_rho b * b_A b * l / 3 ->
    (number_of ns' p DX <> None <-> flag_after cs0 p DX true = true).
  Proof.
    intros h hp h1 h2. destruct (initialise_inv _ _ _ _ _ _ _ _ h) as [s0 [_ [e0 _]]]. destruct (initialise_kept _ _ _ _ _ _ _ _ _ h e0) as [hl [_ [hk _]]].
    assert (hb : (p < length ns)%nat) by (rewrite mesh_length; lia). specialize (hk p DX hb). cbv zeta in hk. rewrite hk. rewrite all_active by exact hb.
    destruct (assemble_diag ns parts ls s0 _ p DX parts_shaped e0 hb) as [k1 k2]. cbn [dir_idx] in k1, k2. rewrite k1, k2.
    pose proof (stiffness_diag p hp). pose proof (mass_diag p hp). split; [tauto|]. intros g. split; [exact g|].
    rewrite !Rabs_right by lra. lra.
  Qed.
End Generated.
