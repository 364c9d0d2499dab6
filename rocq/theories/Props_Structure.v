(** * Tracks of any shape: the ground carries the load (C125); joined tracks are well posed (C126) *)

From Coq Require Import Reals List Bool ZArith Arith Permutation Lia Lra.
From Verif Require Import Num PyBase Model_Geometry Model_System Spec_System Proofs_Dof Proofs_System Model_Element Spec_Element
  Proofs_Elements Proofs_Element Proofs_Beam Proofs_Force Model_Accumulation Proofs_Accumulation Proofs_Geometry Model_Coupled Model_Mesh Spec_Mesh Proofs_Mesh Proofs_Hinge
  Proofs_Join Props_Mesh Model_Track Spec_Track Spec_Generated Proofs_Track Proofs_Assembly Proofs_Generated Props_Generated Spec_Analytic Spec_Motion Proofs_Motion
  Spec_Chain Proofs_Chain Spec_Renumber Proofs_Renumber Spec_Balance Proofs_Balance Props_Balance Spec_Structure Proofs_Structure Proofs_Line Model_Hinge Spec_Geometry.
Import ListNotations.
Local Open Scope R_scope.

(** ** C125 *)

(** In static equilibrium of any model of level beams, upright springs and point masses, the vertical loads add up to the forces of the
    springs that end on the ground, however the model bends *)
Theorem C125_static ns ps ls cs da s ns' k x :
  Forall shaped ps -> Forall (fun p => sound (settled ns p)) ps -> Forall (upright ns) ps ->
  initialise_system ns ps ls cs da = Ok (s, ns', k) -> Forall (beams_free ns') ps ->
  Forall plain_load ls -> (forall l i, In l ls -> In i (ld_nodes l) -> number_of ns' i DY <> None) ->
  in_balance s k x ->
  total_load ls = all_parts ns (ground_springs ns' (field_of ns' x)) ps.
Proof.
  intros h1 h2 h3 hi h4 hp hl hb. destruct (initialise_inv _ _ _ _ _ _ _ _ hi) as [s0 [_ [e0 _]]]. destruct (initialise_kept _ _ _ _ _ _ _ _ _ hi e0) as [_ [hnum _]].
  rewrite <- (loads_total _ _ _ _ _ _ _ _ hi hp hl). rewrite <- (vertical_ext ns' k (mulv k (me (gK s)) x) _ hnum hb).
  exact (structure_stiffness ns ps ls cs da s ns' k h1 h2 h3 hi h4 x).
Qed.
Print Assumptions C125_static.

(** In motion the vertical momentum of such a model changes by the loads minus the spring and damper forces on the ground, and with
    Rayleigh damping by its mass and stiffness terms *)
Theorem C125_momentum ns ps ls cs da s ns' k f u v a :
  Forall shaped ps -> Forall (fun p => sound (settled ns p)) ps -> Forall (upright ns) ps ->
  initialise_system ns ps ls cs da = Ok (s, ns', k) -> Forall (beams_free ns') ps -> motion k s f u v a ->
  let P v := all_parts ns (part_momentum ns' (field_of ns' v)) ps in
  let spring u := all_parts ns (ground_springs ns' (field_of ns' u)) ps in
  derivative (fun t => P (v t))
    (fun t => vertical ns' (f t) - spring (u t) - all_parts ns (ground_dampers ns' (field_of ns' (v t))) ps -
       (if da_on da then let a1 := 2 * da_ratio da / (da_one da + da_two da) in da_one da * da_two da * a1 * P (v t) + a1 * spring (v t) else 0)).
Proof.
  intros h1 h2 h3 hi h4 [hu [hv he]]. cbv zeta.
  destruct (initialise_inv _ _ _ _ _ _ _ _ hi) as [s0 [_ [e0 _]]]. destruct (initialise_kept _ _ _ _ _ _ _ _ _ hi e0) as [_ [hnum _]].
  pose proof (structure_stiffness ns ps ls cs da s ns' k h1 h2 h3 hi h4) as g1. pose proof (structure_mass ns ps ls cs da s ns' k h1 h2 h3 hi h4) as g2.
  pose proof (structure_damping ns ps ls cs da s ns' k h1 h2 h3 hi h4) as g3.
  apply (derivative_ext (fun t => vertical ns' (mulv k (me (gM s)) (v t))) _ (fun t => vertical ns' (mulv k (me (gM s)) (a t)))).
  - intros t1. apply g2.
  - intros t1. assert (e : vertical ns' (f t1) = vertical ns' (mulv k (me (gM s)) (a t1)) + vertical ns' (mulv k (me (gC s)) (v t1)) + vertical ns' (mulv k (me (gK s)) (u t1))).
    { rewrite <- !vertical_add. symmetry. apply (vertical_ext ns' k); [exact hnum|]. intros i hlt. apply he. exact hlt. }
    rewrite e, g1, g3. destruct (da_on da); [unfold rayleigh_factors; rnum|]; ring.
  - apply derivative_vertical; [exact hv|exact hnum].
Qed.
Print Assumptions C125_momentum.

(** ** joined tracks *)

Lemma two_places gap d x specs : 0 < gap -> 0 < d -> (forall n depth, In (n, depth) specs -> (1 <= n)%nat /\ 1 / 1000000000 < depth) -> (2 <= sleeper_count specs)%nat ->
  exists x1 x2 q, sleeper_places gap d x specs = x1 :: x2 :: q /\ x1 < x2.
Proof.
  intros hg hd hs hc. destruct specs as [|[n1 e1] specs]; [cbn in hc; lia|]. destruct (hs n1 e1 (or_introl eq_refl)) as [h1 _].
  destruct n1 as [|[|n1]]; [lia| |].
  - destruct specs as [|[n2 e2] specs]; [cbn in hc; lia|]. destruct (hs n2 e2 (or_intror (or_introl eq_refl))) as [h2 _]. destruct n2 as [|n2]; [lia|].
    cbn [sleeper_places seq map app]. eexists. eexists. eexists. split; [reflexivity|]. cbn. lra.
  - cbn [sleeper_places seq map app]. eexists. eexists. eexists. split; [reflexivity|]. cbn. lra.
Qed.

Record line (c : heap R) (N : nat) (l : R) (j : joined) : Prop := mkLine {
  ln_long : (2 <= length (jn_rail_nodes j))%nat;
  ln_rail : forall i, (i < length (jn_rail_nodes j))%nat -> c (nth i (jn_rail_nodes j) 0%nat) = T3 (INR i * l) 0 0;
  ln_line : in_line (jn_rail_nodes j) (jn_rail_els j);
  ln_pads : forall p q, In (p, q) (jn_pad_els j) -> In p (jn_rail_nodes j) /\ In q (jn_sleepers j) /\ tx (c p) = tx (c q);
  ln_sleepers : forall q, In q (jn_sleepers j) -> ty (c q) = -1 /\ exists p, In (p, q) (jn_pad_els j);
  ln_soil : forall part, In part (jn_soil j) -> snd part <> [] /\ forall p q, In (p, q) (snd part) -> In p (jn_sleepers j) /\ tx (c q) = tx (c p) /\ ty (c q) < -1;
  ln_some : jn_pad_els j <> [];
  ln_below : forall p, In p (jn_rail_nodes j) \/ In p (jn_sleepers j) \/ (exists part e, In part (jn_soil j) /\ In e (snd part) /\ p = snd e) <-> (p < N)%nat;
  ln_on : forall q, In q (jn_sleepers j) -> exists part p', In part (jn_soil j) /\ In (q, p') (snd part);
  ln_two : exists q1 q2, In q1 (jn_sleepers j) /\ In q2 (jn_sleepers j) /\ tx (c q1) <> tx (c q2) }.

Lemma joined_line h specs d r j c mesh : (1 <= r)%nat -> 1 / 1000000000 < d / INR r -> segments specs -> joins h specs d r j c mesh ->
  mesh = seq 0 (length mesh) /\ length (jn_soil j) = length specs /\ line c (length mesh) (d / INR r) j.
Proof.
  intros hr hd [hs hc] [ts [els [ht hj]]]. rewrite (create_tracks_spec r d hr hd h 0 specs hs) in ht. injection ht as <-.
  assert (hne : specs <> []) by (intros ->; cbn in hc; lia).
  assert (hf : length (flat_map tk_objects (tracks_of r d 0 specs)) = total r specs).
  { rewrite <- (map_length (@n_id R)), (tracks_ids r d hr), seq_length. reflexivity. }
  assert (hm : mesh = seq 0 (length mesh)).
  { destruct (combine_spec r d hr hd h 0 specs (length (flat_map tk_objects (tracks_of r d 0 specs))) hs hne) as [j1 [c1 [es [e1 _]]]]; [rewrite hf; lia|].
    rewrite e1 in hj. injection hj as _ _ <- _. rewrite hf. rewrite <- seq_app. rewrite seq_length. reflexivity. }
  destruct (C52_joined_tracks_partial h 0 specs d r (length (flat_map tk_objects (tracks_of r d 0 specs))) hr hd hne hs) as [ts [et [hlt g]]].
  rewrite (create_tracks_spec r d hr hd h 0 specs hs) in et. injection et as <-. destruct g as [j2 [c2 [m2 [els2 [e2 [r1 [r2 [r3 [s1 [p1 [p2 [_ [o1 [o2 [_ [pm _]]]]]]]]]]]]]]]].
  { intros t n ht hn. rewrite hf. assert (hin : In (n_id n) (seq 0 (total r specs))).
    { rewrite <- (tracks_ids r d hr). apply in_map. apply in_flat_map. exists t. auto. }
    apply in_seq in hin. lia. }
  rewrite e2 in hj. injection hj as -> -> -> ->.
  assert (hl : 0 < d / INR r) by lra. assert (hir : 1 <= INR r) by (change 1 with (INR 1); apply le_INR; lia).
  assert (hdr : d = d / INR r * INR r) by (field; lra). assert (hdp : 0 < d) by (rewrite hdr; apply Rmult_lt_0_compat; lra).
  assert (hgap : 0 < 2 * d - d / INR r) by nra.
  assert (hin : forall p, In p (jn_rail_nodes j ++ jn_sleepers j ++ map snd (flat_map snd (jn_soil j))) <-> (p < length mesh)%nat).
  { intros p. split; intros q; [apply (Permutation_in p (Permutation_sym pm)) in q; rewrite hm in q; apply in_seq in q; lia|].
    apply (Permutation_in p pm). rewrite hm. apply in_seq. lia. }
  destruct (two_places (2 * d - d / INR r) d 0 specs hgap hdp hs hc) as [x1 [x2 [xs [ex hx]]]]. rewrite ex in s1. cbn [map] in s1.
  destruct (jn_sleepers j) as [|q1 [|q2 qs]] eqn:eq; [discriminate|discriminate|]. rewrite <- eq in *.
  assert (c1 : c q1 = T3 x1 (-1) 0 /\ c q2 = T3 x2 (-1) 0) by (rewrite eq in s1; cbn [map] in s1; injection s1 as c1 c2 _; auto). destruct c1 as [c1 c2].
  split; [exact hm|]. split; [clear - o2; induction o2; cbn; congruence|]. constructor.
  - rewrite r1. nia.
  - exact r2.
  - exact r3.
  - intros p q hpq. destruct (p2 p q hpq) as [k1 k2]. split; [exact k1|]. split; [|exact k2]. rewrite <- p1. exact (in_map snd _ _ hpq).
  - intros q hq. split.
    + assert (g : In (c q) (map c (jn_sleepers j))) by (apply in_map; exact hq). rewrite s1 in g. change (In (c q) (map (fun x => T3 x (-1) 0) (x1 :: x2 :: xs))) in g.
      apply in_map_iff in g. destruct g as [x [<- _]]. reflexivity.
    + rewrite <- p1 in hq. apply in_map_iff in hq. destruct hq as [[p q'] [e hq]]. cbn in e. subst q'. eauto.
  - intros part hp. assert (g : exists spec, In spec specs /\ length (snd part) = fst spec /\ forall a b, In (a, b) (snd part) -> c b = T3 (tx (c a)) (-1 - snd spec) 0).
    { clear - o2 hp. induction o2 as [|a b q1 q2 [h1 [_ h2]] _ IH]; [destruct hp|]. destruct hp as [<-|hp]; [exists b; split; [left; reflexivity|auto]|].
      destruct (IH hp) as [spec [h3 h4]]. exists spec. split; [right; exact h3|exact h4]. }
    destruct g as [[n depth] [g1 [g2 g3]]]. destruct (hs n depth g1) as [g4 g5]. cbn [fst snd] in *. split; [intros z; rewrite z in g2; cbn in g2; lia|].
    intros p q hpq. specialize (g3 p q hpq). split; [|rewrite g3; cbn; split; [reflexivity|lra]].
    rewrite <- o1. change p with (fst (p, q)). apply in_map. apply in_flat_map. eauto.
  - intros z. rewrite z in p1. rewrite eq in p1. discriminate.
  - intros p. rewrite <- hin, !in_app_iff. split; (intros [q|[q|q]]; [auto|auto|right; right]).
    + destruct q as [part [e [k1 [k2 ->]]]]. apply in_map. apply in_flat_map. eauto.
    + apply in_map_iff in q. destruct q as [e [<- q]]. apply in_flat_map in q. destruct q as [part [k1 k2]]. eauto.
  - intros q hq. rewrite <- o1 in hq. apply in_map_iff in hq. destruct hq as [[a p'] [e hq]]. cbn in e. subst a. apply in_flat_map in hq. destruct hq as [part [k1 k2]]. eauto.
  - exists q1, q2. rewrite eq. split; [left; reflexivity|]. split; [right; left; reflexivity|]. rewrite c1, c2. cbn. lra.
Qed.

Section Joined.
  Variables (c : heap R) (N : nat) (l : R) (j : joined).
  Hypothesis hline : line c N l j.
  Hypothesis hl : 0 < l.
  Variables (rail : beam R) (pad : R * option R * option R) (sleeper : R) (soils : list (R * option R * option R)).
  Hypothesis hrail : good_rail rail.
  Hypothesis hpad : good_rod pad.
  Hypothesis hsl : 0 <= sleeper.
  Hypothesis hsoils : Forall good_rod soils.
  Hypothesis hcount : length soils = length (jn_soil j).
  Variables (ls : list (load R)) (cs : list (list nat * tri bool)) (da : damping R) (s : gsys R) (ns' : list (node R)) (k : nat).
  Let ns := joined_mesh c (seq 0 N).
  Let parts := joined_parts j rail pad sleeper soils.
  Hypothesis hi : initialise_system ns parts ls cs da = Ok (s, ns', k).
  Hypothesis hst : joined_stands j ns'.

  Lemma unsettled v nodes els : settled ns (springs v nodes els) = springs v nodes els.
  Proof. reflexivity. Qed.
  Lemma joined_shaped : Forall shaped parts.
  Proof. destruct hline. eapply line_shaped; eassumption. Qed.
  Lemma joined_sound : Forall (fun p => sound (settled ns p)) parts.
  Proof. destruct hline. eapply line_sound; eassumption. Qed.
  Lemma joined_upright : Forall (upright ns) parts.
  Proof. destruct hline. eapply line_upright; eassumption. Qed.
  Lemma joined_free : Forall (beams_free ns') parts.
  Proof.
    unfold parts, joined_parts. constructor; [|constructor; [exact I|constructor; [exact I|]]].
    - intros e he. cbn [ep_els] in he. destruct hline as [h1 h2 h3]. destruct h3 as [h4 h5]. destruct (In_nth_error _ _ he) as [i e1].
      assert (hlt : (i < length (jn_rail_els j))%nat) by (apply nth_error_Some; congruence). rewrite h5 in e1 by lia. injection e1 as <-. cbn [fst snd].
      split; apply hst; left; apply nth_In; lia.
    - apply Forall_map, Forall_forall. intros q _. exact I.
  Qed.
  Lemma soil_ends q e : In q (combine (jn_soil j) soils) -> In e (snd (fst q)) -> number_of ns' (fst e) DY <> None /\ number_of ns' (snd e) DY = None.
  Proof.
    intros hq he. destruct q as [part v]. apply in_combine_l in hq. cbn [fst snd] in *. split; [|exact (proj2 hst part e hq he)]. apply hst. right.
    destruct e as [p q]. exact (proj1 (proj2 (ln_soil _ _ _ _ hline part hq) p q he)).
  Qed.
  Lemma pad_ends e : In e (jn_pad_els j) -> number_of ns' (fst e) DY <> None /\ number_of ns' (snd e) DY <> None.
  Proof. intros he. destruct e as [p q]. destruct (ln_pads _ _ _ _ hline p q he) as [h1 [h2 _]]. split; apply hst; auto. Qed.

  Lemma joined_springs u : all_parts ns (ground_springs ns' u) parts = soils_sum j soils stiffness_of u.
  Proof.
    unfold all_parts, parts, joined_parts. cbn [map nsum]. rewrite !unsettled. rewrite map_map.
    assert (e1 : ground_springs ns' u (settled ns (mkPart (KRail rail) (jn_rail_nodes j) (jn_rail_els j))) = 0).
    { pose proof (settled_kind ns (mkPart (KRail rail) (jn_rail_nodes j) (jn_rail_els j))) as g. unfold ground_springs. cbn [ep_kind] in g. destruct (ep_kind (settled ns _)); try contradiction; reflexivity. }
    rewrite e1. assert (e2 : ground_springs ns' u (springs pad (jn_pad_nodes j) (jn_pad_els j)) = 0).
    { unfold ground_springs, springs. cbn [ep_kind ep_els]. apply sum_none. intros e he. destruct (pad_ends e he) as [g1 g2]. unfold above_ground.
      destruct (number_of ns' (fst e) DY); [|congruence]. destruct (number_of ns' (snd e) DY); [|congruence]. ring. }
    rewrite e2. unfold soils_sum. rewrite (nsum_map_ext (fun q => ground_springs ns' u (settled ns (springs (snd q) (fst (fst q)) (snd (fst q))))) (fun q => nsum (map (fun e => stiffness_of (snd q) * u (fst e) DY) (snd (fst q))))).
    - cbn. rnum. ring.
    - intros q hq. rewrite unsettled. unfold ground_springs, springs. cbn [ep_kind ep_els or_zero]. apply nsum_map_ext. intros e he. destruct (soil_ends q e hq he) as [g1 g2].
      unfold above_ground. rewrite g2. destruct (number_of ns' (fst e) DY); [reflexivity|congruence].
  Qed.
  Lemma joined_dampers u : all_parts ns (ground_dampers ns' u) parts = soils_sum j soils damping_of u.
  Proof.
    unfold all_parts, parts, joined_parts. cbn [map nsum]. rewrite !unsettled. rewrite map_map.
    assert (e1 : ground_dampers ns' u (settled ns (mkPart (KRail rail) (jn_rail_nodes j) (jn_rail_els j))) = 0).
    { pose proof (settled_kind ns (mkPart (KRail rail) (jn_rail_nodes j) (jn_rail_els j))) as g. unfold ground_dampers. cbn [ep_kind] in g. destruct (ep_kind (settled ns _)); try contradiction; reflexivity. }
    rewrite e1. assert (e2 : ground_dampers ns' u (springs pad (jn_pad_nodes j) (jn_pad_els j)) = 0).
    { unfold ground_dampers, springs. cbn [ep_kind ep_els]. apply sum_none. intros e he. destruct (pad_ends e he) as [g1 g2]. unfold above_ground.
      destruct (number_of ns' (fst e) DY); [|congruence]. destruct (number_of ns' (snd e) DY); [|congruence]. ring. }
    rewrite e2. unfold soils_sum. rewrite (nsum_map_ext (fun q => ground_dampers ns' u (settled ns (springs (snd q) (fst (fst q)) (snd (fst q))))) (fun q => nsum (map (fun e => damping_of (snd q) * u (fst e) DY) (snd (fst q))))).
    - cbn. rnum. ring.
    - intros q hq. rewrite unsettled. unfold ground_dampers, springs. cbn [ep_kind ep_els]. apply nsum_map_ext. intros e he. destruct (soil_ends q e hq he) as [g1 g2].
      unfold above_ground. rewrite g2. destruct (number_of ns' (fst e) DY); [reflexivity|congruence].
  Qed.
  Lemma joined_moves v : all_parts ns (part_momentum ns' v) parts = joined_momentum j l rail pad sleeper soils v.
  Proof.
    unfold all_parts, parts, joined_parts. cbn [map nsum]. rewrite !unsettled. rewrite map_map.
    assert (e0 : settled ns (mkPart (KRail rail) (jn_rail_nodes j) (jn_rail_els j)) =
      mkPart (KRail (mkBeam (b_E rail) (b_nu rail) (b_rho rail) (b_A rail) (b_I rail) (b_shear_factor rail) l (b_s1 rail) (b_s2 rail))) (jn_rail_nodes j) (jn_rail_els j)).
    { destruct hline. eapply line_settled; eassumption. }
    rewrite e0. clear e0. unfold joined_momentum, soils_sum. unfold part_momentum at 1 2 3. cbn [springs ep_kind ep_els ep_nodes settled b_rho b_A b_l].
    rewrite (nsum_map_ext (fun e => or_zero (snd pad) * spring_velocity ns' v e) (fun e => mass_of pad * ((v (fst e) DY + v (snd e) DY) / 2))).
    2:{ intros e he. destruct (pad_ends e he) as [g1 g2]. unfold spring_velocity, mass_of. destruct (number_of ns' (fst e) DY); [|congruence]. destruct (number_of ns' (snd e) DY); [|congruence]. reflexivity. }
    rewrite (nsum_map_ext (fun q => part_momentum ns' v (settled ns (springs (snd q) (fst (fst q)) (snd (fst q))))) (fun q => nsum (map (fun e => mass_of (snd q) / 3 * v (fst e) DY) (snd (fst q))))).
    - rnum. ring.
    - intros q hq. rewrite unsettled. unfold part_momentum, springs. cbn [ep_kind ep_els]. apply nsum_map_ext. intros e he. destruct (soil_ends q e hq he) as [g1 g2].
      unfold spring_velocity, mass_of. rewrite g2. destruct (number_of ns' (fst e) DY); [unfold Rdiv; ring|congruence].
  Qed.
End Joined.

(** Tracks joined from segments with soil of their own: in static equilibrium the vertical loads on rail and sleepers add up to the
    soil forces of all segments, stiffness of the segment times displacement of its sleepers *)
Theorem C125_joined h specs d r j c mesh rail pad sleeper soils ls cs da s ns' k x :
  (1 <= r)%nat -> 1 / 1000000000 < d / INR r -> segments specs -> joins h specs d r j c mesh ->
  good_rail rail -> good_rod pad -> 0 <= sleeper -> Forall good_rod soils -> length soils = length specs ->
  initialise_system (joined_mesh c mesh) (joined_parts j rail pad sleeper soils) ls cs da = Ok (s, ns', k) -> joined_stands j ns' ->
  Forall plain_load ls -> (forall l i, In l ls -> In i (ld_nodes l) -> In i (jn_rail_nodes j) \/ In i (jn_sleepers j)) ->
  in_balance s k x ->
  total_load ls = soils_sum j soils stiffness_of (field_of ns' x).
Proof.
  intros hr hd hsp hj hrail hpad hsl hsoils hc hi hst hp hloads hb. destruct (joined_line h specs d r j c mesh hr hd hsp hj) as [hm [hlen hline]].
  rewrite hm in hi. rewrite <- hlen in hc. assert (hl : 0 < d / INR r) by lra.
  rewrite <- (joined_springs c (length mesh) (d / INR r) j hline rail pad sleeper soils ns' hst).
  apply (C125_static _ _ ls cs da s ns' k x ltac:(eapply joined_shaped; eassumption) ltac:(eapply joined_sound; eassumption)
    ltac:(eapply joined_upright; eassumption) hi ltac:(eapply joined_free; eassumption) hp); [|exact hb].
  intros q i h1 h2. apply hst. exact (hloads q i h1 h2).
Qed.
Print Assumptions C125_joined.

(** In motion: the vertical momentum of a joined track changes by the loads minus the spring and damper forces of the soil of all
    segments, and with Rayleigh damping by its mass and stiffness terms *)
Theorem C125_joined_momentum h specs d r j c mesh rail pad sleeper soils ls cs da s ns' k f u v a :
  (1 <= r)%nat -> 1 / 1000000000 < d / INR r -> segments specs -> joins h specs d r j c mesh ->
  good_rail rail -> good_rod pad -> 0 <= sleeper -> Forall good_rod soils -> length soils = length specs ->
  initialise_system (joined_mesh c mesh) (joined_parts j rail pad sleeper soils) ls cs da = Ok (s, ns', k) -> joined_stands j ns' ->
  motion k s f u v a ->
  let P v := joined_momentum j (d / INR r) rail pad sleeper soils (field_of ns' v) in
  let spring u := soils_sum j soils stiffness_of (field_of ns' u) in
  derivative (fun t => P (v t))
    (fun t => vertical ns' (f t) - spring (u t) - soils_sum j soils damping_of (field_of ns' (v t)) -
       (if da_on da then let a1 := 2 * da_ratio da / (da_one da + da_two da) in da_one da * da_two da * a1 * P (v t) + a1 * spring (v t) else 0)).
Proof.
  intros hr hd hsp hj hrail hpad hsl hsoils hc hi hst hmo. destruct (joined_line h specs d r j c mesh hr hd hsp hj) as [hm [hlen hline]].
  rewrite hm in hi. rewrite <- hlen in hc. assert (hl : 0 < d / INR r) by lra. cbv zeta.
  pose proof (C125_momentum _ _ ls cs da s ns' k f u v a ltac:(eapply joined_shaped; eassumption) ltac:(eapply joined_sound; eassumption)
    ltac:(eapply joined_upright; eassumption) hi ltac:(eapply joined_free; eassumption) hmo) as g. cbv zeta in g.
  assert (g1 : forall u, all_parts (joined_mesh c (seq 0 (length mesh))) (ground_springs ns' u) (joined_parts j rail pad sleeper soils) = soils_sum j soils stiffness_of u)
    by (intros; eapply joined_springs; eassumption).
  assert (g2 : forall u, all_parts (joined_mesh c (seq 0 (length mesh))) (ground_dampers ns' u) (joined_parts j rail pad sleeper soils) = soils_sum j soils damping_of u)
    by (intros; eapply joined_dampers; eassumption).
  assert (g3 : forall v, all_parts (joined_mesh c (seq 0 (length mesh))) (part_momentum ns' v) (joined_parts j rail pad sleeper soils) = joined_momentum j (d / INR r) rail pad sleeper soils v)
    by (intros; eapply joined_moves; eassumption).
  refine (derivative_ext _ _ _ _ _ _ g); intros t1; [apply g3|]. rewrite !g1, !g2, !g3. reflexivity.
Qed.
Print Assumptions C125_joined_momentum.

(** ** joined tracks with a hinge in the rail *)

Definition with_length (b : beam R) (l : R) : beam R :=
  mkBeam (b_E b) (b_nu b) (b_rho b) (b_A b) (b_I b) (b_shear_factor b) l (b_s1 b) (b_s2 b).

Lemma piece_settled c N l j b p p' q els i : line c N l j -> 0 < l -> (S i < length (jn_rail_nodes j))%nat ->
  p = nth i (jn_rail_nodes j) 0%nat -> p' = nth (S i) (jn_rail_nodes j) 0%nat ->
  settled (joined_mesh c (seq 0 N)) (mkPart (KRail b) (p :: p' :: q) els) = mkPart (KRail (with_length b l)) (p :: p' :: q) els.
Proof.
  intros hl h0 hi -> ->. unfold settled. cbn [ep_kind ep_nodes ep_els].
  assert (hN : forall i, (i < length (jn_rail_nodes j))%nat -> (nth i (jn_rail_nodes j) 0 < N)%nat).
  { intros i' h. apply (ln_below _ _ _ _ hl). left. apply nth_In. exact h. }
  assert (g : forall p, (p < N)%nat -> nth_error (joined_mesh c (seq 0 N)) p = Some (set_index (new_node p (tx (c p)) (ty (c p)) (tr (c p))) p)) by (intros; eapply line_nth; eassumption).
  rewrite !g by (apply hN; lia). cbn [set_index new_node n_coord]. rewrite !(ln_rail _ _ _ _ hl) by lia. cbn [tx ty tr].
  assert (e : dist3 (c (nth i (jn_rail_nodes j) 0%nat)) (c (nth (S i) (jn_rail_nodes j) 0%nat)) = l).
  { rewrite !(ln_rail _ _ _ _ hl) by lia. unfold dist3. cbn [tx ty tr]. rewrite S_INR. transitivity (sqrt (Rsqr l)); [f_equal; unfold Rsqr; ring|apply sqrt_Rsqr; lra]. }
  rewrite !(ln_rail _ _ _ _ hl) in e by lia.
  rewrite e. reflexivity.
Qed.

Lemma hinge_here c N l j x0 i : line c N l j -> 1 / 1000000000 < l -> hinge_at c (jn_rail_nodes j) x0 i ->
  exists n1 e1 ea eb n2 e2, jn_rail_els j = e1 ++ [ea; eb] ++ e2 /\ e1 <> [] /\ e2 <> [] /\
    length e1 = (i - 1)%nat /\
    (forall kh, add_semi_rigid_hinge c (jn_rail_nodes j) (jn_rail_els j) kh x0 =
       Ok ((n1, e1), [mkHingePart ea None (Some (kh / 2)); mkHingePart eb (Some (kh / 2)) None], (n2, e2))) /\
    forall b, let ns := joined_mesh c (seq 0 N) in let long n e := settled ns (mkPart (KRail b) n e) = mkPart (KRail (with_length b l)) n e in
      (long n1 e1 /\ long [fst ea; snd ea] [ea] /\ long [fst eb; snd eb] [eb] /\ long n2 e2) /\
      Forall (fun n => (2 <= length n)%nat /\ exists l1 l2, jn_rail_nodes j = l1 ++ n ++ l2) [n1; [fst ea; snd ea]; [fst eb; snd eb]; n2].
Proof.
  intros hl h0 [hi1 [hi2 [hi3 hi4]]]. set (rn := jn_rail_nodes j) in *. assert (hlp : 0 < l) by lra.
  destruct (nth_split rn 0%nat (n := i)) as [l1 [l2 [er hl1]]]; [lia|]. set (hh := nth i rn 0%nat) in *.
  destruct l2 as [|pb [|pb2 after]]; [exfalso; rewrite er, app_length in hi2; cbn in hi2; lia|exfalso; rewrite er, app_length in hi2; cbn in hi2; lia|].
  destruct l1 as [|p0 [|p1 l1]]; [cbn in hl1; lia|cbn in hl1; lia|].
  assert (hlast : exists before a, p0 :: p1 :: l1 = before ++ [a]). { destruct (@exists_last _ (p0 :: p1 :: l1)) as [q [a e]]; [discriminate|]. eauto. }
  destruct hlast as [before [a ea]].
  assert (hlb : length before = (i - 1)%nat). { pose proof (f_equal (@length nat) ea) as g. rewrite app_length in g. cbn [length] in g, hl1. lia. }
  assert (er' : rn = (before ++ [a]) ++ hh :: pb :: pb2 :: after) by (rewrite er, ea; reflexivity).
  assert (na : nth (i - 1) rn 0%nat = a). { rewrite er', <- app_assoc, app_nth2 by lia. replace (i - 1 - length before)%nat with 0%nat by lia. reflexivity. }
  assert (nb : nth (S i) rn 0%nat = pb). { rewrite er, app_nth2 by lia. replace (S i - length (p0 :: p1 :: l1))%nat with 1%nat by (cbn [length] in *; lia). reflexivity. }
  assert (nb2 : nth (S (S i)) rn 0%nat = pb2). { rewrite er, app_nth2 by lia. replace (S (S i) - length (p0 :: p1 :: l1))%nat with 2%nat by (cbn [length] in *; lia). reflexivity. }
  assert (n0 : nth 0 rn 0%nat = p0 /\ nth 1 rn 0%nat = p1) by (rewrite er; split; reflexivity). destruct n0 as [n0 n1].
  pose proof (ln_line _ _ _ _ hl) as hline. fold rn in hline.
  assert (hnot : forall n, In n (before ++ [a]) -> ~ near (tx (c n)) x0).
  { intros n hn. destruct (In_nth _ n 0%nat hn) as [q [q1 q2]]. rewrite <- q2. rewrite <- (app_nth1 _ (hh :: pb :: pb2 :: after) 0%nat q1), <- er'. apply hi4. rewrite app_length in q1. cbn [length] in q1. lia. }
  assert (hapart : forall n, In n ((before ++ [a]) ++ pb :: pb2 :: after) -> ~ coincide (c n) (c hh)).
  { assert (g : forall q, (q < length rn)%nat -> q <> i -> ~ coincide (c (nth q rn 0%nat)) (c hh)).
    { intros q hq hne hco. unfold hh in hco. unfold rn in hco. rewrite !(ln_rail _ _ _ _ hl) in hco by (fold rn; lia). specialize (hco DX). cbn [tget tx] in hco. rewrite <- Rmult_minus_distr_r, Rabs_mult, (Rabs_right l) in hco by lra.
      assert (1 <= Rabs (INR q - INR i)).
      { destruct (Nat.lt_ge_cases q i) as [hlt|hge].
        - rewrite Rabs_left1, Ropp_minus_distr by (apply Rle_minus, le_INR; lia). rewrite <- minus_INR by lia. change 1 with (INR 1). apply le_INR. lia.
        - rewrite Rabs_right by (apply Rge_minus, Rle_ge, le_INR; lia). rewrite <- minus_INR by lia. change 1 with (INR 1). apply le_INR. lia. }
      nra. }
    intros n hn. apply in_app_or in hn. destruct hn as [hn|hn].
    - destruct (In_nth _ n 0%nat hn) as [q [q1 q2]]. rewrite <- q2. rewrite <- (app_nth1 _ (hh :: pb :: pb2 :: after) 0%nat q1), <- er'. rewrite app_length in q1. cbn [length] in q1. apply g; lia.
    - destruct (In_nth _ n 0%nat hn) as [q [q1 q2]]. rewrite <- q2. replace (nth q (pb :: pb2 :: after) 0%nat) with (nth (S i + q) rn 0%nat).
      + apply g; [|lia]. rewrite er, app_length. cbn [length] in q1, hl1 |- *. lia.
      + rewrite er, app_nth2 by lia. replace (S i + q - length (p0 :: p1 :: l1))%nat with (S q) by (cbn [length] in *; lia). reflexivity. }
  rewrite er' in hline.
  assert (g : forall kh, add_semi_rigid_hinge c rn (jn_rail_els j) kh x0 = Ok ((before ++ [a], chain (before ++ [a])), [mkHingePart (a, hh) None (Some (kh / 2)); mkHingePart (hh, pb) (Some (kh / 2)) None],
    (pb :: pb2 :: after, chain (pb :: pb2 :: after))) /\ jn_rail_els j = chain (before ++ [a]) ++ [(a, hh); (hh, pb)] ++ chain (pb :: pb2 :: after)).
  { intros kh. destruct (C53_hinge_interior_partial c before (pb2 :: after) a hh pb (jn_rail_els j) kh x0 hline hi3 hnot hapart) as [e1 [e2 [g1 [g2 [g3 g4]]]]].
    apply line_is_chain in g2. apply line_is_chain in g3. subst e1 e2. rewrite <- er' in g4. auto. }
  exists (before ++ [a]), (chain (before ++ [a])), (a, hh), (hh, pb), (pb :: pb2 :: after), (chain (pb :: pb2 :: after)). split; [apply (g 0)|]. split; [rewrite <- ea; discriminate|]. split; [discriminate|].
  split; [rewrite Proofs_Hinge.chain_length, app_length; cbn [length]; lia|]. split; [intros kh; apply g|]. intros b. cbv zeta. cbn [fst snd]. split.
  2:{ fold rn. constructor; [|constructor; [|constructor; [|constructor; [|constructor]]]]; (split; [rewrite <- ?ea; cbn [length]; lia|]).
    - exists [], (hh :: pb :: pb2 :: after). exact er'.
    - exists before, (pb :: pb2 :: after). rewrite er', <- app_assoc. reflexivity.
    - exists (before ++ [a]), (pb2 :: after). exact er'.
    - exists ((before ++ [a]) ++ [hh]), []. rewrite er', app_nil_r, <- (app_assoc _ [hh]). reflexivity. }
  rewrite <- ea. split; [|split; [|split]].
  - apply (piece_settled c N l j b p0 p1 l1 _ 0 hl hlp); fold rn; congruence || lia.
  - apply (piece_settled c N l j _ a hh [] _ (i - 1) hl hlp); fold rn; try (replace (S (i - 1)) with i by lia); congruence || lia.
  - apply (piece_settled c N l j _ hh pb [] _ i hl hlp); fold rn; congruence || lia.
  - apply (piece_settled c N l j b pb pb2 after _ (S i) hl hlp); fold rn; congruence || lia.
Qed.

Lemma hinged_pieces c N l j rail others len mass f x0 i ps : line c N l j -> 1 / 1000000000 < l -> hinge_at c (jn_rail_nodes j) x0 i ->
  semi_rigid_parts rail others c (jn_rail_nodes j) (jn_rail_els j) len mass f x0 = Ok ps ->
  exists n1 e1 ea eb n2 e2 s1 s2, jn_rail_els j = e1 ++ [ea; eb] ++ e2 /\ e1 <> [] /\ e2 <> [] /\
    let piece b n e := mkPart (KRail b) n e in
    let springs s s' := mkBeam (b_E rail) (b_nu rail) (b_rho rail) (b_A rail) (b_I rail) (b_shear_factor rail) (b_l rail) s s' in
    let hinged := [piece rail n1 e1; piece (springs s1 s2) [fst ea; snd ea] [ea]; piece (springs s2 s1) [fst eb; snd eb] [eb]; piece rail n2 e2] in
    let hinged' := [piece (with_length rail l) n1 e1; piece (with_length (springs s1 s2) l) [fst ea; snd ea] [ea]; piece (with_length (springs s2 s1) l) [fst eb; snd eb] [eb];
      piece (with_length rail l) n2 e2] in
    ps = hinged ++ others /\ map (settled (joined_mesh c (seq 0 N))) hinged = hinged'.
Proof.
  intros hl h0 hat hs. destruct (hinge_here c N l j x0 i hl h0 hat) as [n1 [e1 [ea [eb [n2 [e2 [g1 [g2 [g3 [_ [g4 g5]]]]]]]]]]]. cbv zeta in g5.
  unfold semi_rigid_parts in hs. apply rbind_ok in hs. destruct hs as [[r hg] [hs0 hs]]. injection hs as <-. cbn [fst].
  unfold create_hinge in hs0. destruct (_ && _)%bool; [discriminate|]. destruct (hinge_stiffness None (b_E rail) (b_I rail) len f) as [kh|]; [|destruct (find_at _ _ _ _); discriminate].
  apply rbind_ok in hs0. destruct hs0 as [r' [hs0 hs1]]. injection hs1 as -> _. rewrite g4 in hs0. injection hs0 as <-.
  exists n1, e1, ea, eb, n2, e2, None, (Some (kh / 2)). split; [exact g1|]. split; [exact g2|]. split; [exact g3|].
  cbv zeta. split; [reflexivity|]. cbn [map]. destruct (g5 rail) as [[q1 [_ [_ q4]]] _]. rewrite q1, q4.
  destruct (g5 (mkBeam (b_E rail) (b_nu rail) (b_rho rail) (b_A rail) (b_I rail) (b_shear_factor rail) (b_l rail) None (Some (kh / 2)))) as [[_ [q2 _]] _]. rewrite q2.
  destruct (g5 (mkBeam (b_E rail) (b_nu rail) (b_rho rail) (b_A rail) (b_I rail) (b_shear_factor rail) (b_l rail) (Some (kh / 2)) None)) as [[_ [_ [q3 _]]] _]. rewrite q3.
  reflexivity.
Qed.

(** a hinge can be made there from every fixity factor between 0 and 1 *)
Lemma hinge_made c N l j rail others len mass f x0 i : line c N l j -> 1 / 1000000000 < l -> hinge_at c (jn_rail_nodes j) x0 i -> 0 < len -> 0 <= f <= 1 ->
  exists ps, semi_rigid_parts rail others c (jn_rail_nodes j) (jn_rail_els j) len mass f x0 = Ok ps.
Proof.
  intros hl h0 hat hlen hf. destruct (hinge_here c N l j x0 i hl h0 hat) as [n1 [e1 [ea [eb [n2 [e2 [_ [_ [_ [_ [g4 _]]]]]]]]]]].
  unfold semi_rigid_parts, create_hinge, hinge_stiffness. rnum. destruct (RlebP 0 f); [|lra]. destruct (nltbP f 1) as [h1|h1]; cbn [andb].
  - destruct (neqbP ((1 - f) * len) 0) as [z|z]; [exfalso; assert (0 < (1 - f) * len) by (apply Rmult_lt_0_compat; lra); lra|]. rewrite g4. cbn [rbind fst]. eauto.
  - assert (hc : np_isclose f 1 = true). { apply np_isclose_near. unfold near. replace (f - 1) with 0 by lra. rewrite Rabs_R0, Rabs_R1. lra. }
    revert hc. rnum. intros hc. rewrite hc, g4. cbn [rbind fst]. eauto.
Qed.

Section Hinged.
  Variables (c : heap R) (N : nat) (l : R) (j : joined).
  Hypothesis hline : line c N l j.
  Hypothesis hl : 1 / 1000000000 < l.
  Variables (rail : beam R) (pad : R * option R * option R) (sleeper : R) (soils : list (R * option R * option R)).
  Hypothesis hrail : good_rail rail.
  Hypothesis hpad : good_rod pad.
  Hypothesis hsl : 0 <= sleeper.
  Hypothesis hsoils : Forall good_rod soils.
  Hypothesis hcount : length soils = length (jn_soil j).
  Variables (len mass f x0 : R) (i : nat) (ps : list (epart R)).
  Hypothesis hat : hinge_at c (jn_rail_nodes j) x0 i.
  Let others := tl (joined_parts j rail pad sleeper soils).
  Hypothesis hps : semi_rigid_parts rail others c (jn_rail_nodes j) (jn_rail_els j) len mass f x0 = Ok ps.
  Variable ns' : list (node R).
  Hypothesis hst : joined_stands j ns'.
  Let ns := joined_mesh c (seq 0 N).

  Lemma hl0 : 0 < l.
  Proof. lra. Qed.
  Lemma others_of : joined_parts j rail pad sleeper soils = mkPart (KRail rail) (jn_rail_nodes j) (jn_rail_els j) :: others.
  Proof. reflexivity. Qed.
  Lemma hinged_shaped : Forall shaped ps.
  Proof.
    destruct (hinged_pieces c N l j rail others len mass f x0 i ps hline hl hat hps) as [n1 [e1 [ea [eb [n2 [e2 [s1 [s2 [g1 [g2 [g3 [-> g4]]]]]]]]]]]]. apply Forall_app. split.
    - repeat constructor; assumption || discriminate.
    - assert (g : Forall shaped (joined_parts j rail pad sleeper soils)) by (eapply joined_shaped; eassumption || apply hl0). rewrite others_of in g. exact (Forall_inv_tail g).
  Qed.
  Lemma hinged_sound : Forall (fun p => sound (settled ns p)) ps.
  Proof.
    destruct (hinged_pieces c N l j rail others len mass f x0 i ps hline hl hat hps) as [n1 [e1 [ea [eb [n2 [e2 [s1 [s2 [g1 [g2 [g3 [-> g4]]]]]]]]]]]]. apply Forall_app. split.
    - apply (Forall_map (settled ns) sound). fold ns in g4. rewrite g4. destruct hrail as [_ h]. pose proof hl0. apply Forall_forall. intros p hp. destruct hp as [<-|[<-|[<-|[<-|[]]]]]; cbn; unfold sound_beam; cbn; tauto.
    - assert (g : Forall (fun p => sound (settled ns p)) (joined_parts j rail pad sleeper soils)) by (eapply joined_sound; eassumption || apply hl0). rewrite others_of in g. exact (Forall_inv_tail g).
  Qed.
  Lemma hinged_level e : In e (jn_rail_els j) -> level ns e /\ number_of ns' (fst e) DY <> None /\ number_of ns' (snd e) DY <> None.
  Proof.
    intros he. assert (g : Forall (upright ns) (joined_parts j rail pad sleeper soils)) by (eapply joined_upright; eassumption || apply hl0). apply Forall_inv in g.
    assert (g' : Forall (beams_free ns') (joined_parts j rail pad sleeper soils)) by (eapply joined_free; eassumption). apply Forall_inv in g'. split; [apply g|apply g']; exact he.
  Qed.
  Lemma hinged_upright : Forall (upright ns) ps.
  Proof.
    destruct (hinged_pieces c N l j rail others len mass f x0 i ps hline hl hat hps) as [n1 [e1 [ea [eb [n2 [e2 [s1 [s2 [g1 [g2 [g3 [-> g4]]]]]]]]]]]]. apply Forall_app. split.
    - apply Forall_forall. intros p hp. destruct hp as [<-|[<-|[<-|[<-|[]]]]]; cbn; intros e he; apply hinged_level; rewrite g1, !in_app_iff; cbn; tauto.
    - assert (g : Forall (upright ns) (joined_parts j rail pad sleeper soils)) by (eapply joined_upright; eassumption || apply hl0). rewrite others_of in g. exact (Forall_inv_tail g).
  Qed.
  Lemma hinged_free : Forall (beams_free ns') ps.
  Proof.
    destruct (hinged_pieces c N l j rail others len mass f x0 i ps hline hl hat hps) as [n1 [e1 [ea [eb [n2 [e2 [s1 [s2 [g1 [g2 [g3 [-> g4]]]]]]]]]]]]. apply Forall_app. split.
    - apply Forall_forall. intros p hp. destruct hp as [<-|[<-|[<-|[<-|[]]]]]; cbn; intros e he; apply hinged_level; rewrite g1, !in_app_iff; cbn; tauto.
    - assert (g : Forall (beams_free ns') (joined_parts j rail pad sleeper soils)) by (eapply joined_free; eassumption). rewrite others_of in g. exact (Forall_inv_tail g).
  Qed.
  Lemma all_of (q : epart R -> R) a b : all_parts ns q (a ++ b) = nsum (map q (map (settled ns) a)) + all_parts ns q b.
  Proof. unfold all_parts. rewrite map_app, nsum_app, map_map. reflexivity. Qed.
  Lemma rail_settled : settled ns (mkPart (KRail rail) (jn_rail_nodes j) (jn_rail_els j)) = mkPart (KRail (with_length rail l)) (jn_rail_nodes j) (jn_rail_els j).
  Proof. pose proof hl0. destruct hline. eapply line_settled; eassumption. Qed.
  Lemma hinged_quantity (q : epart R -> R) :
    (forall n1 e1 ea eb n2 e2 s1 s2, jn_rail_els j = e1 ++ [ea; eb] ++ e2 ->
      let beam s s' := mkBeam (b_E rail) (b_nu rail) (b_rho rail) (b_A rail) (b_I rail) (b_shear_factor rail) l s s' in
      q (mkPart (KRail (with_length rail l)) n1 e1) + q (mkPart (KRail (beam s1 s2)) [fst ea; snd ea] [ea]) + q (mkPart (KRail (beam s2 s1)) [fst eb; snd eb] [eb]) +
      q (mkPart (KRail (with_length rail l)) n2 e2) = q (mkPart (KRail (with_length rail l)) (jn_rail_nodes j) (jn_rail_els j))) ->
    all_parts ns q ps = all_parts ns q (joined_parts j rail pad sleeper soils).
  Proof.
    intros h. destruct (hinged_pieces c N l j rail others len mass f x0 i ps hline hl hat hps) as [n1 [e1 [ea [eb [n2 [e2 [s1 [s2 [g1 [g2 [g3 [-> g4]]]]]]]]]]]]. cbv zeta in g4.
    rewrite all_of. fold ns in g4. rewrite g4. rewrite others_of. change (mkPart (KRail rail) (jn_rail_nodes j) (jn_rail_els j) :: others) with ([mkPart (KRail rail) (jn_rail_nodes j) (jn_rail_els j)] ++ others).
    rewrite all_of. f_equal. cbn [map]. rewrite rail_settled. specialize (h n1 e1 ea eb n2 e2 s1 s2 g1). cbv zeta in h. cbn [nsum fold_right map]. unfold with_length at 2 3. cbn [b_E b_nu b_rho b_A b_I b_shear_factor b_s1 b_s2]. rnum. lra.
  Qed.
  Lemma hinged_springs u : all_parts ns (ground_springs ns' u) ps = soils_sum j soils stiffness_of u.
  Proof. rewrite hinged_quantity; [eapply joined_springs; eassumption|]. intros. unfold ground_springs. cbn [ep_kind]. rnum. ring. Qed.
  Lemma hinged_dampers u : all_parts ns (ground_dampers ns' u) ps = soils_sum j soils damping_of u.
  Proof. rewrite hinged_quantity; [eapply joined_dampers; eassumption|]. intros. unfold ground_dampers. cbn [ep_kind]. rnum. ring. Qed.
  Lemma hinged_moves v : all_parts ns (part_momentum ns' v) ps = joined_momentum j l rail pad sleeper soils v.
  Proof.
    rewrite hinged_quantity; [eapply joined_moves; eassumption || apply hl0|]. intros n1 e1 ea eb n2 e2 s1 s2 e. unfold part_momentum. cbn [ep_kind ep_els b_rho b_A b_l with_length].
    rewrite e, !map_app, !nsum_app. cbn [map nsum fold_right]. rnum. ring.
  Qed.
End Hinged.

(** The joined track with a hinge in the rail (run_rose/demo_semi_rigid.py 73-190): in static equilibrium the soil carries the loads as well,
    whatever the stiffness of the hinge *)
Theorem C125_hinged h specs d r j c mesh rail pad sleeper soils len mass f x0 i ps ls cs da s ns' k x :
  (1 <= r)%nat -> 1 / 1000000000 < d / INR r -> segments specs -> joins h specs d r j c mesh ->
  good_rail rail -> good_rod pad -> 0 <= sleeper -> Forall good_rod soils -> length soils = length specs ->
  hinge_at c (jn_rail_nodes j) x0 i ->
  semi_rigid_parts rail (tl (joined_parts j rail pad sleeper soils)) c (jn_rail_nodes j) (jn_rail_els j) len mass f x0 = Ok ps ->
  initialise_system (joined_mesh c mesh) ps ls cs da = Ok (s, ns', k) -> joined_stands j ns' ->
  Forall plain_load ls -> (forall l i, In l ls -> In i (ld_nodes l) -> In i (jn_rail_nodes j) \/ In i (jn_sleepers j)) ->
  in_balance s k x ->
  total_load ls = soils_sum j soils stiffness_of (field_of ns' x).
Proof.
  intros hr hd hsp hj hrail hpad hsl hsoils hc hat hps hi hst hp hloads hb. destruct (joined_line h specs d r j c mesh hr hd hsp hj) as [hm [hlen hline]].
  rewrite hm in hi. rewrite <- hlen in hc.
  assert (g : all_parts (joined_mesh c (seq 0 (length mesh))) (ground_springs ns' (field_of ns' x)) ps = soils_sum j soils stiffness_of (field_of ns' x)) by (eapply hinged_springs; eassumption).
  rewrite <- g. apply (C125_static _ _ ls cs da s ns' k x ltac:(eapply hinged_shaped; eassumption) ltac:(eapply hinged_sound; eassumption)
    ltac:(eapply hinged_upright; eassumption) hi ltac:(eapply hinged_free; eassumption) hp); [|exact hb].
  intros q i0 h1 h2. apply hst. exact (hloads q i0 h1 h2).
Qed.
Print Assumptions C125_hinged.

(** Its momentum, which is that of the same track without the hinge, changes by the same forces *)
Theorem C125_hinged_momentum h specs d r j c mesh rail pad sleeper soils len mass fx x0 i ps ls cs da s ns' k f u v a :
  (1 <= r)%nat -> 1 / 1000000000 < d / INR r -> segments specs -> joins h specs d r j c mesh ->
  good_rail rail -> good_rod pad -> 0 <= sleeper -> Forall good_rod soils -> length soils = length specs ->
  hinge_at c (jn_rail_nodes j) x0 i ->
  semi_rigid_parts rail (tl (joined_parts j rail pad sleeper soils)) c (jn_rail_nodes j) (jn_rail_els j) len mass fx x0 = Ok ps ->
  initialise_system (joined_mesh c mesh) ps ls cs da = Ok (s, ns', k) -> joined_stands j ns' ->
  motion k s f u v a ->
  let P v := joined_momentum j (d / INR r) rail pad sleeper soils (field_of ns' v) in
  let spring u := soils_sum j soils stiffness_of (field_of ns' u) in
  derivative (fun t => P (v t))
    (fun t => vertical ns' (f t) - spring (u t) - soils_sum j soils damping_of (field_of ns' (v t)) -
       (if da_on da then let a1 := 2 * da_ratio da / (da_one da + da_two da) in da_one da * da_two da * a1 * P (v t) + a1 * spring (v t) else 0)).
Proof.
  intros hr hd hsp hj hrail hpad hsl hsoils hc hat hps hi hst hmo. destruct (joined_line h specs d r j c mesh hr hd hsp hj) as [hm [hlen hline]].
  rewrite hm in hi. rewrite <- hlen in hc. cbv zeta.
  pose proof (C125_momentum _ _ ls cs da s ns' k f u v a ltac:(eapply hinged_shaped; eassumption) ltac:(eapply hinged_sound; eassumption)
    ltac:(eapply hinged_upright; eassumption) hi ltac:(eapply hinged_free; eassumption) hmo) as g. cbv zeta in g.
  assert (g1 : forall u, all_parts (joined_mesh c (seq 0 (length mesh))) (ground_springs ns' u) ps = soils_sum j soils stiffness_of u) by (intros; eapply hinged_springs; eassumption).
  assert (g2 : forall u, all_parts (joined_mesh c (seq 0 (length mesh))) (ground_dampers ns' u) ps = soils_sum j soils damping_of u) by (intros; eapply hinged_dampers; eassumption).
  assert (g3 : forall v, all_parts (joined_mesh c (seq 0 (length mesh))) (part_momentum ns' v) ps = joined_momentum j (d / INR r) rail pad sleeper soils v) by (intros; eapply hinged_moves; eassumption).
  refine (derivative_ext _ _ _ _ _ _ g); intros t1; [apply g3|]. rewrite !g1, !g2, !g3. reflexivity.
Qed.
Print Assumptions C125_hinged_momentum.

(** ** the constraints of the scripts *)

Lemma bottom_all (c : heap R) (els : list (nat * nat)) : (forall p q, In (p, q) els -> ty (c q) < ty (c p)) ->
  bottom_boundary c (map (fun e => [fst e; snd e]) els) = Ok (map snd els).
Proof.
  induction els as [|[p q] els IH]; intros h; [reflexivity|]. cbn [map bottom_boundary fst snd]. rewrite IH by (intros; apply h; right; assumption). cbn [rbind].
  rewrite lowest_two by (apply h; left; reflexivity). reflexivity.
Qed.
Lemma line_bottoms c N l j : line c N l j -> mapr (fun part => bottom_boundary c (map (fun e => [fst e; snd e]) (snd part))) (jn_soil j) = Ok (map (fun part => map snd (snd part)) (jn_soil j)).
Proof.
  intros hl. apply mapr_map. intros part hp. apply bottom_all. intros p q hpq. destruct (ln_soil _ _ _ _ hl part hp) as [_ g]. destruct (g p q hpq) as [g1 [_ g2]].
  destruct (ln_sleepers _ _ _ _ hl p g1) as [g3 _]. lra.
Qed.
Lemma flag_kept cs p e : (forall c, In c cs -> In p (fst c) -> tget (snd c) e = true) -> flag_after cs p e true = true.
Proof.
  unfold flag_after. induction cs as [|c cs IH]; intros h; [reflexivity|]. cbn [fold_left]. destruct (memb p (fst c)) eqn:em; [|apply IH; intros; apply h; [right|]; assumption].
  rewrite h; [apply IH; intros; apply h; [right|]; assumption|left; reflexivity|apply memb_In; exact em].
Qed.
Lemma sides_rail c N l j p : line c N l j -> In p (fst (joined_sides j)) -> In p (jn_rail_nodes j).
Proof.
  intros hl. pose proof (ln_long _ _ _ _ hl) as h. unfold joined_sides. cbn [fst]. intros [<-|[<-|[]]].
  - destruct (jn_rail_nodes j); [cbn in h; lia|left; reflexivity].
  - destruct (@exists_last _ (jn_rail_nodes j)) as [q [a ->]]; [intros z; rewrite z in h; cbn in h; lia|]. rewrite last_last. apply in_or_app. right. left. reflexivity.
Qed.
Lemma line_heights c N l j : line c N l j -> (forall p, In p (jn_rail_nodes j) -> ty (c p) = 0) /\ (forall p, In p (jn_sleepers j) -> ty (c p) = -1) /\
  (forall part e, In part (jn_soil j) -> In e (snd part) -> ty (c (snd e)) < -1).
Proof.
  intros hl. split; [|split].
  - intros p hp. destruct (In_nth _ p 0%nat hp) as [i [h1 h2]]. pose proof (ln_rail _ _ _ _ hl i h1) as g. rewrite h2 in g. rewrite g. reflexivity.
  - intros p hp. apply (ln_sleepers _ _ _ _ hl p hp).
  - intros part [p q] h1 h2. destruct (ln_soil _ _ _ _ hl part h1) as [_ g]. destruct (g p q h2) as [_ [_ g3]]. exact g3.
Qed.

Lemma joined_held c N l j ps ls cs da s ns' k : line c N l j -> script_constraints j c cs ->
  initialise_system (joined_mesh c (seq 0 N)) ps ls cs da = Ok (s, ns', k) ->
  (forall part e, In part (jn_soil j) -> In e (snd part) -> number_of ns' (snd e) DY = None) /\ (exists p, In p (jn_rail_nodes j) /\ number_of ns' p DX = None) /\
  (forall p, In p (jn_rail_nodes j) \/ In p (jn_sleepers j) -> flag_after cs p DY true = true).
Proof.
  intros hl [bottoms [hb ->]] hi. rewrite (line_bottoms c N l j hl) in hb. injection hb as <-.
  destruct (initialise_inv _ _ _ _ _ _ _ _ hi) as [s0 [_ [e0 _]]]. destruct (initialise_kept _ _ _ _ _ _ _ _ _ hi e0) as [hlen [_ [hk _]]].
  assert (hN : length (joined_mesh c (seq 0 N)) = N) by (unfold joined_mesh, reorder_node_ids; rewrite reorder_from_length, map_length, seq_length; reflexivity).
  destruct (line_heights c N l j hl) as [y1 [y2 y3]].
  assert (hin : forall q p, In q (map fixed_nodes (map (fun part => map snd (snd part)) (jn_soil j))) -> In p (fst q) ->
    snd q = T3 false false false /\ exists part e, In part (jn_soil j) /\ In e (snd part) /\ p = snd e).
  { intros q p hq hp. apply in_map_iff in hq. destruct hq as [b [<- hq]]. apply in_map_iff in hq. destruct hq as [part [<- hq]]. cbn [fixed_nodes fst snd] in *. split; [reflexivity|].
    apply in_map_iff in hp. destruct hp as [e [<- he]]. eauto. }
  split; [|split].
  - intros part e h1 h2. destruct (number_of ns' (snd e) DY) as [i|] eqn:ei; [|reflexivity]. exfalso.
    assert (hr : (snd e < N)%nat) by (apply (ln_below _ _ _ _ hl); right; right; eauto).
    destruct (hk (snd e) DY) as [g _]; [rewrite hN; exact hr|]. destruct g as [g _]; [congruence|]. rewrite flag_held in g; [discriminate| |].
    + intros q [<-|hq] hp; [|destruct (hin q _ hq hp) as [-> _]; reflexivity]. exfalso. apply (sides_rail c N l j _ hl) in hp. apply y1 in hp. pose proof (y3 part e h1 h2). lra.
    + right. exists (fixed_nodes (map snd (snd part))). split; [right; apply in_map; apply in_map_iff; exists part; auto|]. cbn [fixed_nodes fst]. apply in_map. exact h2.
  - exists (hd 0%nat (jn_rail_nodes j)). assert (hh : In (hd 0%nat (jn_rail_nodes j)) (fst (joined_sides j))) by (left; reflexivity).
    pose proof (sides_rail c N l j _ hl hh) as hr. split; [exact hr|]. destruct (number_of ns' (hd 0%nat (jn_rail_nodes j)) DX) as [i|] eqn:ei; [|reflexivity]. exfalso.
    destruct (hk (hd 0%nat (jn_rail_nodes j)) DX) as [g _]; [rewrite hN; apply (ln_below _ _ _ _ hl); left; exact hr|]. destruct g as [g _]; [congruence|]. rewrite flag_held in g; [discriminate| |].
    + intros q [<-|hq] hp; [reflexivity|destruct (hin q _ hq hp) as [-> _]; reflexivity].
    + right. exists (joined_sides j). split; [left; reflexivity|exact hh].
  - intros p hp. apply flag_kept. intros q [<-|hq] hpq; [reflexivity|]. exfalso. destruct (hin q p hq hpq) as [_ [part [e [h1 [h2 ->]]]]]. pose proof (y3 part e h1 h2) as g.
    destruct hp as [hp|hp]; [apply y1 in hp|apply y2 in hp]; lra.
Qed.

(** With these constraints, and values above the tolerance below which the code takes them for zero, the joined track stands: rails and
    sleepers keep their vertical direction and the lower ends of the soil lose it *)
Theorem C125_scripts h specs d r j c mesh rail pad sleeper soils ls cs da s ns' k :
  (1 <= r)%nat -> 1 / 1000000000 < d / INR r -> segments specs -> joins h specs d r j c mesh ->
  good_rail rail -> good_rod pad -> Forall good_rod soils -> length soils = length specs ->
  script_constraints j c cs ->
  initialise_system (joined_mesh c mesh) (joined_parts j rail pad sleeper soils) ls cs da = Ok (s, ns', k) ->
  let l := d / INR r in let tol := 1 / 100000000 in
  tol < 12 * (b_E rail * b_I rail) / ((1 + shear_ratio l rail) * (l * l * l)) -> tol < b_rho rail * b_A rail * l / 3 -> tol < fst (fst pad) -> tol < sleeper ->
  joined_stands j ns'.
Proof.
  intros hr hd hsp hj hrail hpad hsoils hc hcs hi l tol h1 h2 h3 h4. destruct (joined_line h specs d r j c mesh hr hd hsp hj) as [hm [hlen hline]].
  rewrite hm in hi. rewrite <- hlen in hc. fold l in hline. assert (hl : 0 < l) by (unfold l; lra).
  destruct (joined_held c _ l j _ ls cs da s ns' k hline hcs hi) as [g1 [_ g3]].
  assert (hphi : shear_ratio l rail = timoshenko_factor 0 (mkBeam (b_E rail) (b_nu rail) (b_rho rail) (b_A rail) (b_I rail) (b_shear_factor rail) l (b_s1 rail) (b_s2 rail))).
  { symmetry. destruct hrail as [q1 q2]. rewrite (factor_is_ratio l) by (try exact hl; unfold good_beam, fixed_ends in *; cbn; tauto). reflexivity. }
  rewrite hphi in h1. split; [|exact g1]. intros p hp. assert (hs0 : 0 <= sleeper) by (unfold tol in h4; lra). destruct hline.
  refine (proj2 (_ : number_of ns' p DY <> None <-> flag_after cs p DY true = true) (g3 p hp)).
  eapply line_kept; eassumption.
Qed.
Print Assumptions C125_scripts.

(** The joined track of the scripts under any vertical loads on rails and sleepers: tracks can be created and joined, the model can be
    initialised, and whenever it is in equilibrium the soil of all segments carries the loads *)
Theorem C125_total h specs d r rail pad sleeper soils ls da :
  (1 <= r)%nat -> 1 / 1000000000 < d / INR r -> segments specs ->
  good_rail rail -> good_rod pad -> Forall good_rod soils -> length soils = length specs ->
  let l := d / INR r in let tol := 1 / 100000000 in
  tol < 12 * (b_E rail * b_I rail) / ((1 + shear_ratio l rail) * (l * l * l)) -> tol < b_rho rail * b_A rail * l / 3 -> tol < fst (fst pad) -> tol < sleeper ->
  exists j c mesh cs, joins h specs d r j c mesh /\ script_constraints j c cs /\
    (Forall plain_load ls -> (forall l i, In l ls -> In i (ld_nodes l) -> In i (jn_rail_nodes j) \/ In i (jn_sleepers j)) ->
     exists s ns' k, initialise_system (joined_mesh c mesh) (joined_parts j rail pad sleeper soils) ls cs da = Ok (s, ns', k) /\ joined_stands j ns' /\
       forall x, in_balance s k x -> soils_sum j soils stiffness_of (field_of ns' x) = total_load ls).
Proof.
  intros hr hd hsp hrail hpad hsoils hc l tol h1 h2 h3 h4.
  assert (hj : exists j c mesh, joins h specs d r j c mesh).
  { destruct hsp as [hs hc0]. assert (hne : specs <> []) by (intros ->; cbn in hc0; lia).
    destruct (combine_spec r d hr hd h 0 specs (length (flat_map tk_objects (tracks_of r d 0 specs))) hs hne) as [j [c [es [e1 _]]]].
    - rewrite <- (map_length (@n_id R)), (tracks_ids r d hr), seq_length. lia.
    - exists j, c. eexists. exists (tracks_of r d 0 specs). eexists. split; [apply create_tracks_spec; assumption|exact e1]. }
  destruct hj as [j [c [mesh hj]]]. pose proof (joined_line h specs d r j c mesh hr hd hsp hj) as [hm [hlen hline]].
  exists j, c, mesh. eexists. split; [exact hj|].
  assert (hcs : script_constraints j c (joined_sides j :: map fixed_nodes (map (fun part => map snd (snd part)) (jn_soil j)))).
  { eexists. split; [exact (line_bottoms c _ _ j hline)|reflexivity]. }
  split; [exact hcs|]. intros hp hls. set (cs := joined_sides j :: map fixed_nodes (map (fun part => map snd (snd part)) (jn_soil j))) in *.
  assert (hl : 0 < d / INR r) by lra. assert (hs0 : 0 <= sleeper) by (unfold tol in h4; lra). assert (hc' : length soils = length (jn_soil j)) by congruence.
  assert (hi : exists s ns' k, initialise_system (joined_mesh c mesh) (joined_parts j rail pad sleeper soils) ls cs da = Ok (s, ns', k)).
  { rewrite hm. pose proof hline as hline'. destruct hline. eapply line_initialises; try eassumption. intros q i q1 q2. apply (ln_below _ _ _ _ hline'). specialize (hls q i q1 q2). tauto. }
  destruct hi as [s [ns' [k hi]]]. exists s, ns', k. split; [exact hi|].
  assert (hst : joined_stands j ns') by (eapply C125_scripts; eassumption). split; [exact hst|]. intros x hx. symmetry. eapply C125_joined; eassumption.
Qed.
Print Assumptions C125_total.

(** ** C126 *)

(** A track joined from segments whose bottom cannot move vertically and whose rail is held along x at some node: whatever other
    constraints, loads and damping it has, the stiffness has positive energy for every displacement but zero *)
Theorem C126_definite h specs d r j c mesh rail pad sleeper soils ls cs da s ns' k :
  (1 <= r)%nat -> 1 / 1000000000 < d / INR r -> segments specs -> joins h specs d r j c mesh ->
  good_rail rail -> good_rod pad -> 0 <= sleeper -> Forall good_rod soils -> length soils = length specs ->
  initialise_system (joined_mesh c mesh) (joined_parts j rail pad sleeper soils) ls cs da = Ok (s, ns', k) ->
  (forall part e, In part (jn_soil j) -> In e (snd part) -> number_of ns' (snd e) DY = None) -> (exists i, In i (jn_rail_nodes j) /\ number_of ns' i DX = None) ->
  pos_def k (me (gK s)).
Proof.
  intros hr hd hsp hj hrail hpad hsl hsoils hc hi hb hx. destruct (joined_line h specs d r j c mesh hr hd hsp hj) as [hm [hlen hline]].
  rewrite hm in hi. rewrite <- hlen in hc. assert (hl : 0 < d / INR r) by lra.
  intros x [i [hlt hxi]].
  assert (hsound : Forall (fun p => sound (settled (joined_mesh c (seq 0 (length mesh))) p)) (joined_parts j rail pad sleeper soils)) by (eapply joined_sound; eassumption).
  assert (hshape : Forall shaped (joined_parts j rail pad sleeper soils)) by (eapply joined_shaped; eassumption).
  assert (g : 0 <= quad k (me (gK s)) x).
  { destruct (initialise_energy _ _ _ _ _ _ _ _ x hshape hi) as [-> _]. apply nsum_nonneg, Forall_map, Forall_forall. intros p hp. rewrite Forall_forall in hsound.
    apply part_form_nonneg; [left; reflexivity|apply hsound; exact hp]. }
  destruct (Req_dec (quad k (me (gK s)) x) 0) as [e|ne]; [|lra]. exfalso. apply hxi. destruct hline. eapply line_definite; eassumption.
Qed.
Print Assumptions C126_definite.

(** The joined track of the scripts, constrained at the bottom of all segments and at both ends of the rail: it can be created and
    initialised for all loads on nodes of the mesh, and the stiffness, alone or with mass and damping in any proportion, is definite.
    In particular static equilibrium and every step of the implicit solvers have one solution only *)
Theorem C126_well_posed h specs d r rail pad sleeper soils ls da :
  (1 <= r)%nat -> 1 / 1000000000 < d / INR r -> segments specs ->
  good_rail rail -> good_rod pad -> 0 <= sleeper -> Forall good_rod soils -> length soils = length specs ->
  (da_on da = true -> 0 <= da_ratio da /\ 0 < da_one da /\ 0 < da_two da) ->
  exists j c mesh cs, joins h specs d r j c mesh /\ script_constraints j c cs /\
    ((forall l i, In l ls -> In i (ld_nodes l) -> (i < length mesh)%nat) ->
     exists s ns' k, initialise_system (joined_mesh c mesh) (joined_parts j rail pad sleeper soils) ls cs da = Ok (s, ns', k) /\
     forall a m c, 0 < a -> 0 <= m -> 0 <= c ->
      let mat i j := a * me (gK s) i j + m * me (gM s) i j + c * me (gC s) i j in
      pos_def k mat /\ (forall x y, (forall i, (i < k)%nat -> mulv k mat x i = mulv k mat y i) -> forall i, (i < k)%nat -> x i = y i)).
Proof.
  intros hr hd hsp hrail hpad hsl hsoils hc hda.
  assert (hj : exists j c mesh, joins h specs d r j c mesh).
  { destruct hsp as [hs hc0]. assert (hne : specs <> []) by (intros ->; cbn in hc0; lia).
    destruct (combine_spec r d hr hd h 0 specs (length (flat_map tk_objects (tracks_of r d 0 specs))) hs hne) as [j [c [es [e1 _]]]].
    - rewrite <- (map_length (@n_id R)), (tracks_ids r d hr), seq_length. lia.
    - exists j, c. eexists. exists (tracks_of r d 0 specs). eexists. split; [apply create_tracks_spec; assumption|exact e1]. }
  destruct hj as [j [c [mesh hj]]]. pose proof (joined_line h specs d r j c mesh hr hd hsp hj) as [hm [hlen hline]].
  exists j, c, mesh. eexists. split; [exact hj|].
  assert (hcs : script_constraints j c (joined_sides j :: map fixed_nodes (map (fun part => map snd (snd part)) (jn_soil j)))).
  { eexists. split; [exact (line_bottoms c _ _ j hline)|reflexivity]. }
  split; [exact hcs|]. intros hls. set (cs := joined_sides j :: map fixed_nodes (map (fun part => map snd (snd part)) (jn_soil j))) in *.
  assert (hl : 0 < d / INR r) by lra. assert (hc' : length soils = length (jn_soil j)) by congruence.
  assert (hi : exists s ns' k, initialise_system (joined_mesh c mesh) (joined_parts j rail pad sleeper soils) ls cs da = Ok (s, ns', k)).
  { rewrite hm. pose proof hline as hline'. destruct hline. eapply line_initialises; try eassumption. }
  destruct hi as [s [ns' [k hi]]]. exists s, ns', k. split; [exact hi|].
  assert (hsound : Forall (fun p => sound (settled (joined_mesh c (seq 0 (length mesh))) p)) (joined_parts j rail pad sleeper soils)) by (eapply joined_sound; eassumption).
  assert (hshape : Forall shaped (joined_parts j rail pad sleeper soils)) by (eapply joined_shaped; eassumption).
  pose proof hi as hi'. rewrite hm in hi'.
  destruct (joined_held c _ (d / INR r) j _ ls cs da s ns' k hline hcs hi') as [g1 [g2 _]].
  assert (hK : pos_def k (me (gK s))) by (eapply C126_definite; eassumption).
  destruct (initialise_psd _ _ _ _ _ _ _ _ hshape hsound hda hi') as [_ [hM hC]].
  intros a m0 c0 ha hm0 hc0 mat. assert (hmat : pos_def k mat) by (apply pos_def_sum; assumption).
  split; [exact hmat|]. intros x y. exact (pos_def_injective k mat x y hmat).
Qed.
Print Assumptions C126_well_posed.

(** ** cases that meet the hypotheses *)

(** three segments of three, one and two sleepers at 0.6 with two rail elements each, on soils of their own *)
Definition case_specs : list (nat * R) := [(3%nat, 1); (1%nat, 2); (2%nat, 3 / 2)].
Definition case_soils : list (R * option R * option R) := [(200000000, Some 10000, Some 0); (50000000, None, None); (100000000, Some 30000, Some 20)].
Definition case_rail : beam R := mkBeam 210000000000 (3 / 10) 7860 (69 / 10000) (2337 / 100000000) 0 0 None None.
Definition case_pad : R * option R * option R := (750000000, Some 750000, Some 5).

Lemma case_values : good_rail case_rail /\ good_rod case_pad /\ Forall good_rod case_soils /\ segments case_specs /\ 1 / 1000000000 < 6 / 10 / INR 2 /\
  let l := 6 / 10 / INR 2 in let tol := 1 / 100000000 in
  tol < 12 * (b_E case_rail * b_I case_rail) / ((1 + shear_ratio l case_rail) * (l * l * l)) /\ tol < b_rho case_rail * b_A case_rail * l / 3 /\ tol < fst (fst case_pad) /\ tol < 140.
Proof.
  assert (e : INR 2 = 2) by (cbn; lra). rewrite e. clear e. cbv zeta.
  split; [unfold good_rail, fixed_ends; cbn; repeat split; lra|]. split; [unfold good_rod, opt_nonneg; cbn; repeat split; lra|].
  split; [repeat constructor; unfold opt_nonneg; cbn; lra|].
  split. { split; [|cbn; lia]. intros n depth [h|[h|[h|[]]]]; injection h as <- <-; split; lia || lra. }
  split; [lra|]. split; [unfold shear_ratio; cbn [case_rail b_E b_I b_shear_factor]; destruct (Rlt_dec 0 0); lra|].
  split; [cbn [case_rail b_rho b_A]; lra|]. cbn [case_pad fst]. lra.
Qed.

Lemma joined_rail_length h specs d r : (1 <= r)%nat -> 1 / 1000000000 < d / INR r -> segments specs ->
  exists j c mesh, joins h specs d r j c mesh /\ length (jn_rail_nodes j) = (sleeper_count specs * r + (length specs - 1) * (r - 1))%nat.
Proof.
  intros hr hd [hs hc]. assert (hne : specs <> []) by (intros ->; cbn in hc; lia).
  assert (hf : length (flat_map tk_objects (tracks_of r d 0 specs)) = total r specs).
  { rewrite <- (map_length (@n_id R)), (tracks_ids r d hr), seq_length. reflexivity. }
  destruct (C52_joined_tracks_partial h 0 specs d r (length (flat_map tk_objects (tracks_of r d 0 specs))) hr hd hne hs) as [ts [et [hlt g]]].
  pose proof (create_tracks_spec r d hr hd h 0 specs hs) as et'. rewrite et in et'. injection et' as ->.
  destruct g as [j [c [mesh [els [e2 [r1 _]]]]]].
  { intros t n ht hn. rewrite hf. assert (hin : In (n_id n) (seq 0 (total r specs))).
    { rewrite <- (tracks_ids r d hr). apply in_map. apply in_flat_map. exists t. auto. }
    apply in_seq in hin. lia. }
  exists j, c, mesh. split; [exists (tracks_of r d 0 specs), els; auto|exact r1].
Qed.

(** loads of 60 kN on two rail nodes and of 1 kN on a sleeper are carried by the soil *)
Example C125_case h : exists j c mesh cs, joins h case_specs (6 / 10) 2 j c mesh /\ script_constraints j c cs /\
  forall p q z, In p (jn_rail_nodes j) -> In q (jn_rail_nodes j) -> p <> q -> In z (jn_sleepers j) ->
  let ls := [mkLoad (T3 false true false) [p; q] [T3 0 (-60000) 0; T3 0 (-60000) 0]; mkLoad (T3 false true true) [z] [T3 0 (-1000) 5]] in
  exists s ns' k, initialise_system (joined_mesh c mesh) (joined_parts j case_rail case_pad 140 case_soils) ls cs (mkDamping false 0 0 0) = Ok (s, ns', k) /\
    forall x, in_balance s k x -> soils_sum j case_soils stiffness_of (field_of ns' x) = -121000.
Proof.
  destruct case_values as [h1 [h2 [h3 [h4 [h5 [h6 [h7 [h8 h9]]]]]]]].
  destruct (C125_total h case_specs (6 / 10) 2 case_rail case_pad 140 case_soils [] (mkDamping false 0 0 0) ltac:(lia) h5 h4 h1 h2 h3 eq_refl h6 h7 h8 h9) as [j [c [mesh [cs [g1 [g2 _]]]]]].
  exists j, c, mesh, cs. split; [exact g1|]. split; [exact g2|]. intros p q z hp hq hpq hz ls.
  destruct (C125_total h case_specs (6 / 10) 2 case_rail case_pad 140 case_soils ls (mkDamping false 0 0 0) ltac:(lia) h5 h4 h1 h2 h3 eq_refl h6 h7 h8 h9) as [j' [c' [mesh' [cs' [k1 [k2 k3]]]]]].
  assert (e : j' = j /\ c' = c /\ mesh' = mesh /\ cs' = cs).
  { destruct g1 as [t1 [es1 [q1 q2]]]. destruct k1 as [t2 [es2 [q3 q4]]]. rewrite q1 in q3. injection q3 as <-. rewrite q2 in q4. injection q4 as <- <- <- _. repeat (split; [reflexivity|]).
    destruct g2 as [b1 [q5 ->]]. destruct k2 as [b2 [q6 ->]]. rewrite q5 in q6. injection q6 as <-. reflexivity. }
  destruct e as [-> [-> [-> ->]]]. destruct k3 as [s [ns' [k [m1 [_ m2]]]]].
  - unfold ls. constructor; [|constructor; [|constructor]]; (split; [|reflexivity]); cbn [ld_nodes]; repeat constructor; cbn; intuition.
  - intros l0 i [<-|[<-|[]]] hi; cbn [ld_nodes] in hi; cbn in hi; intuition (subst; auto).
  - exists s, ns', k. split; [exact m1|]. intros x hx. rewrite (m2 x hx). unfold ls, total_load. cbn -[IZR]. rnum. lra.
Qed.

(** a hinge at 1.2, the fifth rail node, with fixity 0.7 can be made in this track *)
Example C125_hinge_case h : exists j c mesh ps, joins h case_specs (6 / 10) 2 j c mesh /\ hinge_at c (jn_rail_nodes j) (12 / 10) 4 /\
  semi_rigid_parts case_rail (tl (joined_parts j case_rail case_pad 140 case_soils)) c (jn_rail_nodes j) (jn_rail_els j) (6 / 10) 100 (7 / 10) (12 / 10) = Ok ps.
Proof.
  destruct case_values as [_ [_ [_ [hsp [hd _]]]]]. destruct (joined_rail_length h case_specs (6 / 10) 2 ltac:(lia) hd hsp) as [j [c [mesh [hj hlen]]]].
  destruct (joined_line h case_specs (6 / 10) 2 j c mesh ltac:(lia) hd hsp hj) as [_ [_ hline]]. change (length (jn_rail_nodes j) = 14%nat) in hlen.
  assert (hat : hinge_at c (jn_rail_nodes j) (12 / 10) 4).
  { unfold hinge_at, near. rewrite hlen. split; [lia|]. split; [lia|]. rewrite (ln_rail _ _ _ _ hline) by lia. cbn [tx]. split.
    - replace (INR 4 * (6 / 10 / INR 2) - 12 / 10) with 0 by (cbn; lra). rewrite Rabs_R0. rewrite Rabs_right; lra.
    - intros q hq. rewrite (ln_rail _ _ _ _ hline) by lia. cbn [tx]. rewrite (Rabs_right (12 / 10)) by lra.
      destruct q as [|[|[|[|q]]]]; [| | | |lia]; cbn -[IZR]; rewrite Rabs_left; lra. }
  destruct (hinge_made c (length mesh) (6 / 10 / INR 2) j case_rail (tl (joined_parts j case_rail case_pad 140 case_soils)) (6 / 10) 100 (7 / 10) (12 / 10) 4 hline hd hat ltac:(lra) ltac:(lra)) as [ps hps].
  exists j, c, mesh, ps. auto.
Qed.

(** C126 applies to this track *)
Example C126_case h : exists j c mesh cs, joins h case_specs (6 / 10) 2 j c mesh /\ script_constraints j c cs /\
  exists s ns' k, initialise_system (joined_mesh c mesh) (joined_parts j case_rail case_pad 140 case_soils) [] cs (mkDamping true (1 / 50) 2 300) = Ok (s, ns', k) /\ pos_def k (me (gK s)).
Proof.
  destruct case_values as [h1 [h2 [h3 [h4 [h5 _]]]]].
  destruct (C126_well_posed h case_specs (6 / 10) 2 case_rail case_pad 140 case_soils [] (mkDamping true (1 / 50) 2 300) ltac:(lia) h5 h4 h1 h2 ltac:(lra) h3 eq_refl) as [j [c [mesh [cs [g1 [g2 g3]]]]]].
  { intros _. cbn. lra. }
  exists j, c, mesh, cs. split; [exact g1|]. split; [exact g2|]. destruct g3 as [s [ns' [k [m1 m2]]]]; [intros l i []|]. exists s, ns', k. split; [exact m1|].
  destruct (m2 1 0 0 ltac:(lra) ltac:(lra) ltac:(lra)) as [m3 _]. intros x hx. specialize (m3 x hx).
  rewrite (quad_ext k _ (me (gK s)) x) in m3; [exact m3|]. intros a b _ _. ring.
Qed.
