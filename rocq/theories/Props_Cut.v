(** * How a track is cut into segments does not matter (C133) *)

From Coq Require Import Reals List Bool ZArith Arith Lia Lra Permutation.
From Verif Require Import Num PyBase Model_Geometry Model_System Spec_System Proofs_Dof Proofs_System Model_Element Spec_Element
  Proofs_Elements Proofs_Element Proofs_Beam Model_Accumulation Proofs_Accumulation Model_Coupled Model_Mesh Spec_Mesh Proofs_Mesh Proofs_Join Props_Mesh Model_Track Spec_Track Spec_Generated Proofs_Track
  Proofs_Assembly Proofs_Generated Props_Generated Spec_Analytic Spec_Motion Proofs_Motion Spec_Chain Proofs_Chain Spec_Renumber Proofs_Renumber Spec_Balance Proofs_Balance Props_Balance
  Spec_Structure Proofs_Structure Proofs_Line Props_Structure Spec_Stiffer Proofs_Stiffer Props_Stiffer Spec_Cut Proofs_Cut.
Import ListNotations.
Local Open Scope R_scope.

(** ** one rail element per sleeper *)

(** Two tracks of the same soil under every sleeper, cut into segments in different ways: their meshes have as many nodes, and every node
    of one has a partner at the same place in the other *)
Theorem C133_same_places h specs specs' d j j' c c' mesh mesh' (soils soils' : list (R * option R * option R)) :
  1 / 1000000000 < d -> segments specs -> segments specs' -> joins h specs d 1 j c mesh -> joins h specs' d 1 j' c' mesh' ->
  length soils = length specs -> length soils' = length specs' -> per_sleeper specs soils = per_sleeper specs' soils' ->
  length mesh' = length mesh /\
  exists f, matched f j j' /\ (forall p, (length mesh <= p)%nat -> f p = p) /\ forall p, (p < length mesh)%nat -> (f p < length mesh)%nat /\ c' (f p) = c p.
Proof.
  intros hd hs hs' hj hj' h1 h2 e. assert (hd1 : 1 / 1000000000 < d / INR 1) by (cbn [INR]; lra).
  pose proof (joins_laid h specs d 1 j c mesh ltac:(lia) hd1 hs hj) as la. pose proof (joins_laid h specs' d 1 j' c' mesh' ltac:(lia) hd1 hs' hj') as la'.
  split; [symmetry; eapply (cut_size d specs specs'); eassumption|].
  assert (g : exists f, matched f j j' /\ (forall p, (length mesh <= p)%nat -> f p = p)) by (eapply (cut_matched d specs specs'); eassumption). destruct g as [f [f1 f2]].
  exists f. split; [exact f1|]. split; [exact f2|]. intros p hp. eapply (f_place d specs specs'); eassumption.
Qed.
Print Assumptions C133_same_places.

(** With the constraints of the scripts both are the same model: they have the same degrees of freedom, the same stiffness, mass and damping
    between them and, under the same loads, the same forces *)
Theorem C133_same_model h specs specs' d j j' c c' mesh mesh' cs cs' f rail pad sleeper soils soils' ls da :
  1 / 1000000000 < d -> segments specs -> segments specs' -> joins h specs d 1 j c mesh -> joins h specs' d 1 j' c' mesh' ->
  script_constraints j c cs -> script_constraints j' c' cs' ->
  good_rail rail -> good_rod pad -> 0 <= sleeper -> Forall good_rod soils -> Forall good_rod soils' ->
  length soils = length specs -> length soils' = length specs' -> per_sleeper specs soils = per_sleeper specs' soils' ->
  matched f j j' -> (forall p, (length mesh <= p)%nat -> f p = p) ->
  Forall plain_load ls -> (forall l i, In l ls -> In i (ld_nodes l) -> (i < length mesh)%nat) ->
  exists s ns' s2 ms' k,
    initialise_system (joined_mesh c mesh) (joined_parts j rail pad sleeper soils) ls cs da = Ok (s, ns', k) /\
    initialise_system (joined_mesh c' mesh') (joined_parts j' rail pad sleeper soils') (map (renumbered_load f) ls) cs' da = Ok (s2, ms', k) /\
    (forall p e, (p < length mesh)%nat -> (number_of ns' p e <> None <-> number_of ms' (f p) e <> None)) /\
    forall p e q g i i2 i' i2', number_of ns' p e = Some i -> number_of ns' q g = Some i2 -> number_of ms' (f p) e = Some i' -> number_of ms' (f q) g = Some i2' ->
      me (gK s2) i' i2' = me (gK s) i i2 /\ me (gM s2) i' i2' = me (gM s) i i2 /\ me (gC s2) i' i2' = me (gC s) i i2 /\ nth i' (gF s2) 0 = nth i (gF s) 0.
Proof.
  intros hd hs hs' hj hj' hcs hcs' hrail hpad hsl hso hso' h1 h2 e hf hout hpl hls. assert (hd1 : 1 / 1000000000 < d / INR 1) by (cbn [INR]; lra).
  pose proof (joins_laid h specs d 1 j c mesh ltac:(lia) hd1 hs hj) as la. pose proof (joins_laid h specs' d 1 j' c' mesh' ltac:(lia) hd1 hs' hj') as la'.
  destruct (joined_line h specs d 1 j c mesh ltac:(lia) hd1 hs hj) as [hm [hn hline]]. destruct (joined_line h specs' d 1 j' c' mesh' ltac:(lia) hd1 hs' hj') as [hm' [hn' hline']].
  assert (hl : 0 < d / INR 1) by lra. assert (k1 : length soils = length (jn_soil j)) by congruence. assert (k2 : length soils' = length (jn_soil j')) by congruence.
  rewrite hm, hm'. rewrite !seq_length.
  assert (hi : exists s ns' k, initialise_system (joined_mesh c (seq 0 (length mesh))) (joined_parts j rail pad sleeper soils) ls cs da = Ok (s, ns', k)).
  { pose proof hline as hline0. destruct hline0. eapply line_initialises; eassumption. }
  assert (hi' : exists s ns' k, initialise_system (joined_mesh c' (seq 0 (length mesh'))) (joined_parts j' rail pad sleeper soils') [] cs' da = Ok (s, ns', k)).
  { pose proof hline' as hline0. destruct hline0. eapply line_initialises; try eassumption. intros q i []. }
  destruct hi as [s [ns' [k hi]]]. destruct hi' as [s0 [n0 [k0 hi']]].
  pose proof (fun ps ls0 => f_constraints d specs specs' j j' c c' mesh mesh' hs la soils soils' h1 h2 f hf rail pad sleeper cs cs' ps ls0 da hcs hcs' hline hline') as hcon.
  assert (hi1 : initialise_system (joined_mesh c (seq 0 (length mesh))) (joined_parts j rail pad sleeper soils) ls [joined_sides j; fixed_nodes (soil_ends j)] da = Ok (s, ns', k)).
  { rewrite <- hi. symmetry. apply (hcon [] ls). }
  destruct (same_system f (joined_mesh c (seq 0 (length mesh))) (joined_mesh c' (seq 0 (length mesh'))) (joined_parts j rail pad sleeper soils) (joined_parts j' rail pad sleeper soils') ls (map (renumbered_load f) ls)
    [joined_sides j; fixed_nodes (soil_ends j)] da s ns' k) as [s2 [ms' [g1 [g2 g3]]]]; try assumption.
  - eapply joined_shaped; eassumption.
  - eapply joined_sound; eassumption.
  - eapply laid_within; eassumption.
  - eapply (f_mesh d specs specs'); eassumption.
  - apply Permutation_refl.
  - intros aux u ha. eapply (f_totals d specs specs'); eassumption.
  - intros q hq. eexists. exact (first_ok _ _ _ _ _ _ _ _ hi' q hq).
  - eapply laid_within; eassumption.
  - eapply joined_shaped; eassumption.
  - eapply joined_sound; eassumption.
  - exists s, ns', s2, ms', k. split; [exact hi|]. split; [rewrite (proj1 (hcon _ _)); exact g1|]. rewrite line_length in g2. split; [exact g2|exact g3].
Qed.
Print Assumptions C133_same_model.

(** So the answers are the same: in static equilibrium matched nodes have the same displacements and rotations, and motions of one
    track are motions of the other *)
Theorem C133_same_answers h specs specs' d j j' c c' mesh mesh' cs cs' f rail pad sleeper soils soils' ls da s ns' k s2 ms' k2 :
  1 / 1000000000 < d -> segments specs -> segments specs' -> joins h specs d 1 j c mesh -> joins h specs' d 1 j' c' mesh' ->
  script_constraints j c cs -> script_constraints j' c' cs' ->
  good_rail rail -> good_rod pad -> 0 <= sleeper -> Forall good_rod soils -> Forall good_rod soils' ->
  length soils = length specs -> length soils' = length specs' -> per_sleeper specs soils = per_sleeper specs' soils' ->
  matched f j j' -> (forall p, (length mesh <= p)%nat -> f p = p) -> Forall plain_load ls ->
  initialise_system (joined_mesh c mesh) (joined_parts j rail pad sleeper soils) ls cs da = Ok (s, ns', k) ->
  initialise_system (joined_mesh c' mesh') (joined_parts j' rail pad sleeper soils') (map (renumbered_load f) ls) cs' da = Ok (s2, ms', k2) ->
  (forall x y, in_balance s k x -> in_balance s2 k2 y -> forall p e, (p < length mesh)%nat -> field_of ms' y (f p) e = field_of ns' x p e) /\
  (forall g u v a g2 u2 v2 a2,
    (forall p e i i2, number_of ns' p e = Some i -> number_of ms' (f p) e = Some i2 -> forall t, g2 t i2 = g t i /\ u2 t i2 = u t i /\ v2 t i2 = v t i /\ a2 t i2 = a t i) ->
    motion k s g u v a -> motion k2 s2 g2 u2 v2 a2).
Proof.
  intros hd hs hs' hj hj' hcs hcs' hrail hpad hsl hso hso' h1 h2 e hf hout hpl hi hi2. assert (hd1 : 1 / 1000000000 < d / INR 1) by (cbn [INR]; lra).
  pose proof (joins_laid h specs d 1 j c mesh ltac:(lia) hd1 hs hj) as la. pose proof (joins_laid h specs' d 1 j' c' mesh' ltac:(lia) hd1 hs' hj') as la'.
  destruct (joined_line h specs d 1 j c mesh ltac:(lia) hd1 hs hj) as [hm [hn hline]]. destruct (joined_line h specs' d 1 j' c' mesh' ltac:(lia) hd1 hs' hj') as [hm' [hn' hline']].
  assert (hl : 0 < d / INR 1) by lra. assert (k1 : length soils = length (jn_soil j)) by congruence. assert (q2 : length soils' = length (jn_soil j')) by congruence.
  assert (hls : forall l i, In l ls -> In i (ld_nodes l) -> (i < length mesh)%nat).
  { intros l i hl0 hi0. pose proof (loads_in_range _ _ _ _ _ _ _ _ hi l i hl0 hi0) as g. rewrite hm, line_length in g. exact g. }
  destruct (C133_same_model h specs specs' d j j' c c' mesh mesh' cs cs' f rail pad sleeper soils soils' ls da hd hs hs' hj hj' hcs hcs' hrail hpad hsl hso hso' h1 h2 e hf hout hpl hls) as [t [n1 [t2 [m1 [k0 [e1 [e2 [g1 g2]]]]]]]].
  rewrite hi in e1. rewrite hi2 in e2. injection e1 as <- <- <-. injection e2 as <- <- ->.
  pose proof hi as hi0. pose proof hi2 as hi20. rewrite hm in hi0. rewrite hm' in hi20.
  pose proof (fun ps ls0 => f_constraints d specs specs' j j' c c' mesh mesh' hs la soils soils' h1 h2 f hf rail pad sleeper cs cs' ps ls0 da hcs hcs' hline hline') as hcon.
  rewrite (proj2 (hcon [] ls)) in hi0. rewrite (proj1 (hcon _ _)) in hi20.
  assert (sh1 : Forall shaped (joined_parts j rail pad sleeper soils)) by (eapply joined_shaped; eassumption).
  assert (sh2 : Forall shaped (joined_parts j' rail pad sleeper soils')) by (eapply joined_shaped; eassumption).
  assert (so1 : Forall (fun p => sound (settled (joined_mesh c (seq 0 (length mesh))) p)) (joined_parts j rail pad sleeper soils)) by (eapply joined_sound; eassumption).
  assert (so2 : Forall (fun p => sound (settled (joined_mesh c' (seq 0 (length mesh'))) p)) (joined_parts j' rail pad sleeper soils')) by (eapply joined_sound; eassumption).
  assert (wi : Forall (within (joined_mesh c (seq 0 (length mesh)))) (joined_parts j rail pad sleeper soils)) by (eapply laid_within; eassumption).
  assert (fm : renumbered_mesh f (joined_mesh c (seq 0 (length mesh))) (joined_mesh c' (seq 0 (length mesh')))) by (eapply (f_mesh d specs specs'); eassumption).
  assert (ft : forall aux u, is_aux aux -> nsum (map (fun p => part_form aux (joined_mesh c' (seq 0 (length mesh'))) u (settled (joined_mesh c' (seq 0 (length mesh'))) p)) (joined_parts j' rail pad sleeper soils')) =
     nsum (map (fun p => part_form aux (joined_mesh c (seq 0 (length mesh))) (fun i d => u (f i) d) (settled (joined_mesh c (seq 0 (length mesh))) p)) (joined_parts j rail pad sleeper soils))).
  { intros aux u ha. eapply (f_totals d specs specs'); eassumption. }
  split.
  - intros x y hx hy p e0 hp.
    destruct (initialise_inv _ _ _ _ _ _ _ _ hi0) as [z0 [_ [ez _]]]. destruct (initialise_kept _ _ _ _ _ _ _ _ _ hi0 ez) as [hl0 [hnum _]].
    destruct (initialise_inv _ _ _ _ _ _ _ _ hi20) as [z1 [_ [ez1 _]]]. destruct (initialise_kept _ _ _ _ _ _ _ _ _ hi20 ez1) as [hl1 [hnum1 _]].
    assert (hdef : pos_def k (me (gK s))).
    { pose proof hi as hx0. rewrite hm in hx0. destruct (joined_held c _ (d / INR 1) j _ ls cs da s ns' k hline hcs hx0) as [b1 [b2 _]]. exact (C126_definite h specs d 1 j c mesh rail pad sleeper soils ls cs da s ns' k ltac:(lia) hd1 hs hj hrail hpad hsl hso h1 hi b1 b2). }
    eapply (answer_same f (joined_mesh c (seq 0 (length mesh))) (joined_mesh c' (seq 0 (length mesh'))) k s s2); try eassumption.
    + rewrite line_length. exact g1.
    + intros z w hzw p0 d0 i i2 n0 n2. assert (m : mulv k (me (gK s2)) w i2 = mulv k (me (gK s)) z i /\ mulv k (me (gM s2)) w i2 = mulv k (me (gM s)) z i /\ mulv k (me (gC s2)) w i2 = mulv k (me (gC s)) z i) by (eapply mulv_same; eassumption). apply m.
    + intros p0 d0 i i2 n0 n2. apply (g2 p0 d0 p0 d0 i i i2 i2 n0 n0 n2 n2).
    + intros p0 d0 i n0. assert (g : In i (all_numbers ms')) by (apply all_numbers_In; eauto). rewrite hnum1 in g. apply in_seq in g. lia.
    + rewrite line_length. exact hp.
  - intros g u v a ga ua va aa hag hmo. eapply (motion_same f); try eassumption.
Qed.
Print Assumptions C133_same_answers.

(** ** more rail elements per sleeper *)

(** With two or more rail elements per sleeper it does matter: every cut moves the rest of the track by a part of the sleeper distance.  A
    track of as many sleepers in one segment has its last sleeper at another place and a shorter rail *)
Theorem C133_cut_refuted h n1 n2 depth d r : (1 <= n1)%nat -> (1 <= n2)%nat -> 1 / 1000000000 < depth -> (2 <= r)%nat -> 1 / 1000000000 < d / INR r ->
  exists j c mesh j' c' mesh', joins h [((n1 + n2)%nat, depth)] d r j c mesh /\ joins h [(n1, depth); (n2, depth)] d r j' c' mesh' /\
    (forall A (soil : A), per_sleeper [((n1 + n2)%nat, depth)] [soil] = per_sleeper [(n1, depth); (n2, depth)] [soil; soil]) /\
    (length (jn_rail_nodes j) < length (jn_rail_nodes j'))%nat /\
    tx (c' (nth (n1 + n2 - 1) (jn_sleepers j') 0%nat)) - tx (c (nth (n1 + n2 - 1) (jn_sleepers j) 0%nat)) = d - d / INR r /\ 0 < d - d / INR r.
Proof.
  intros h1 h2 hdep hr hd. assert (hr1 : (1 <= r)%nat) by lia.
  assert (s1 : segments [((n1 + n2)%nat, depth)]) by (split; [intros n x [e|[]]; injection e as <- <-; split; [lia|exact hdep]|cbn; lia]).
  assert (s2 : segments [(n1, depth); (n2, depth)]) by (split; [intros n x [e|[e|[]]]; injection e as <- <-; split; [lia|exact hdep|lia|exact hdep]|cbn; lia]).
  destruct (joins_exist h _ d r ltac:(lia) hd s1) as [j [c [mesh hj]]]. destruct (joins_exist h _ d r ltac:(lia) hd s2) as [j' [c' [mesh' hj']]].
  exists j, c, mesh, j', c', mesh'. split; [exact hj|]. split; [exact hj'|].
  pose proof (joins_laid _ _ _ _ _ _ _ hr1 hd s1 hj) as la. pose proof (joins_laid _ _ _ _ _ _ _ hr1 hd s2 hj') as la'.
  split; [intros A soil; unfold per_sleeper; cbn [combine flat_map fst snd]; rewrite !app_nil_r; apply repeat_app|].
  split; [rewrite (la_long _ _ _ _ _ _ la), (la_long _ _ _ _ _ _ la'); unfold sleeper_count; cbn [map fst list_sum fold_right length]; nia|].
  assert (hr2 : 2 <= INR r) by (change 2 with (INR 2); apply le_INR; lia).
  assert (he : forall (c : heap R) (l : list nat) i, c (nth i l 0%nat) = nth i (map c l) (c 0%nat)) by (intros; symmetry; apply map_nth).
  split.
  - rewrite !he, (la_sleepers _ _ _ _ _ _ la), (la_sleepers _ _ _ _ _ _ la'). cbn [sleeper_places]. rewrite !app_nil_r, map_app, !map_map.
    rewrite (app_nth2 _ _ (c' 0%nat)) by (rewrite map_length, seq_length; lia). rewrite map_length, seq_length.
    rewrite (nth_indep _ (c' 0%nat) (T3 (0 + INR (n1 - 1) * d + (2 * d - d / INR r) + INR 0 * d) (-1) 0)) by (rewrite map_length, seq_length; lia).
    rewrite (nth_indep _ (c 0%nat) (T3 (0 + INR 0 * d) (-1) 0)) by (rewrite map_length, seq_length; lia).
    rewrite (map_nth (fun i => T3 (0 + INR (n1 - 1) * d + (2 * d - d / INR r) + INR i * d) (-1) 0)). rewrite (map_nth (fun i => T3 (0 + INR i * d) (-1) 0)).
    rewrite !seq_nth by lia. cbn [tx Nat.add]. rewrite !minus_INR, plus_INR by lia. cbn [INR]. field. lra.
  - assert (e : d = d / INR r * INR r) by (field; lra). rewrite e at 1. nra.
Qed.
Print Assumptions C133_cut_refuted.

(** A track of segments of one sleeper, as in the scripts with a random field (run_rose/demo_rf.py 302, run_rose/demo_semi_rigid_rf.py 326):
    with one rail element per sleeper, as there, the sleepers lie at the distance asked for; with [r] of them they lie further apart *)
Theorem C133_one_by_one h depths d r : (2 <= length depths)%nat -> (forall x, In x depths -> 1 / 1000000000 < x) -> (1 <= r)%nat -> 1 / 1000000000 < d / INR r ->
  exists j c mesh, joins h (map (fun x => (1%nat, x)) depths) d r j c mesh /\ length (jn_sleepers j) = length depths /\
    forall i, (i < length depths)%nat -> tx (c (nth i (jn_sleepers j) 0%nat)) = INR i * (d + (d - d / INR r)).
Proof.
  intros hlen hdep hr1 hd. assert (hr0 : 0 < INR r) by (apply lt_0_INR; lia).
  assert (hc : sleeper_count (map (fun x => (1%nat, x)) depths) = length depths) by (unfold sleeper_count; rewrite map_map; cbn [fst]; clear; induction depths as [|a l IH]; [reflexivity|]; cbn [map list_sum fold_right length]; change (1 + list_sum (map (fun _ : R => 1%nat) l) = S (length l))%nat; rewrite IH; reflexivity).
  assert (hs : segments (map (fun x => (1%nat, x)) depths)).
  { split; [|rewrite hc; exact hlen]. intros n x hin. apply in_map_iff in hin. destruct hin as [y [e hy]]. injection e as <- <-. split; [lia|apply hdep; exact hy]. }
  destruct (joins_exist h _ d r ltac:(lia) hd hs) as [j [c [mesh hj]]]. exists j, c, mesh. split; [exact hj|]. pose proof (joins_laid _ _ _ _ _ _ _ hr1 hd hs hj) as la.
  pose proof (la_sleepers _ _ _ _ _ _ la) as hsl.
  assert (hp : forall x0, sleeper_places (2 * d - d / INR r) d x0 (map (fun x => (1%nat, x)) depths) = map (fun i => x0 + INR i * (d + (d - d / INR r))) (seq 0 (length depths))).
  { clear - hr0. induction depths as [|a l IH]; intros x0; [reflexivity|]. cbn [map sleeper_places length seq app]. rewrite IH. f_equal; [cbn [INR]; ring|]. rewrite <- seq_shift, map_map. apply map_ext. intros i.
    rewrite S_INR. cbn [INR Nat.sub]. field. lra. }
  rewrite hp in hsl. assert (hl : length (jn_sleepers j) = length depths) by (apply (f_equal (@length _)) in hsl; rewrite !map_length, seq_length in hsl; exact hsl).
  split; [exact hl|]. intros i hi. assert (e : c (nth i (jn_sleepers j) 0%nat) = nth i (map c (jn_sleepers j)) (c 0%nat)) by (symmetry; apply map_nth).
  rewrite e, hsl, map_map. rewrite (nth_indep _ (c 0%nat) (T3 (0 + INR 0 * (d + (d - d / INR r))) (-1) 0)) by (rewrite map_length, seq_length; exact hi).
  rewrite (map_nth (fun i => T3 (0 + INR i * (d + (d - d / INR r))) (-1) 0)). rewrite seq_nth by exact hi. cbn [tx Nat.add]. ring.
Qed.
Print Assumptions C133_one_by_one.

(** ** a case that meets the hypotheses *)

(** six sleepers: two segments on two soils, or six segments of one sleeper *)
Definition cut_soft : R * option R * option R := (50000000, Some 30000, None).
Definition cut_hard : R * option R * option R := (200000000, Some 20000, Some 10).
Example C133_case h : exists j c mesh cs j' c' mesh' cs' f,
  joins h [(4%nat, 1); (2%nat, 3 / 2)] (6 / 10) 1 j c mesh /\
  joins h [(1%nat, 1); (1%nat, 1); (1%nat, 1); (1%nat, 1); (1%nat, 3 / 2); (1%nat, 3 / 2)] (6 / 10) 1 j' c' mesh' /\ script_constraints j c cs /\ script_constraints j' c' cs' /\
  matched f j j' /\ (forall p, (length mesh <= p)%nat -> f p = p) /\
  forall q, In q (jn_rail_nodes j) ->
  exists s ns' s2 ms' k x y,
    initialise_system (joined_mesh c mesh) (joined_parts j case_rail case_pad 140 [cut_soft; cut_hard]) (one_load q (-60000)) cs (mkDamping true (1 / 50) 2 300) = Ok (s, ns', k) /\
    initialise_system (joined_mesh c' mesh') (joined_parts j' case_rail case_pad 140 [cut_soft; cut_soft; cut_soft; cut_soft; cut_hard; cut_hard]) (one_load (f q) (-60000)) cs' (mkDamping true (1 / 50) 2 300) = Ok (s2, ms', k) /\
    in_balance s k x /\ in_balance s2 k y /\ forall p e, (p < length mesh)%nat -> field_of ms' y (f p) e = field_of ns' x p e.
Proof.
  destruct case_values as [h1 [h2 _]].
  assert (v1 : good_rod cut_soft) by (unfold good_rod, opt_nonneg, cut_soft; cbn; repeat split; lra). assert (v2 : good_rod cut_hard) by (unfold good_rod, opt_nonneg, cut_hard; cbn; repeat split; lra).
  set (specs := [(4%nat, 1); (2%nat, 3 / 2)]). set (specs' := [(1%nat, 1); (1%nat, 1); (1%nat, 1); (1%nat, 1); (1%nat, 3 / 2); (1%nat, 3 / 2)]).
  set (soils := [cut_soft; cut_hard]). set (soils' := [cut_soft; cut_soft; cut_soft; cut_soft; cut_hard; cut_hard]).
  assert (s1 : segments specs) by (split; [intros n x hin; unfold specs in hin; destruct hin as [e|[e|[]]]; injection e as <- <-; split; lia || lra|cbn; lia]).
  assert (s2 : segments specs') by (split; [intros n x hin; unfold specs' in hin; destruct hin as [e|[e|[e|[e|[e|[e|[]]]]]]]; injection e as <- <-; split; lia || lra|cbn; lia]).
  assert (hd : 1 / 1000000000 < 6 / 10 / INR 1) by (cbn; lra). assert (hd0 : 1 / 1000000000 < 6 / 10) by lra.
  assert (f1 : Forall good_rod soils) by (repeat (apply Forall_cons; [exact v1 || exact v2|]); apply Forall_nil). assert (f2 : Forall good_rod soils') by (repeat (apply Forall_cons; [exact v1 || exact v2|]); apply Forall_nil).
  set (da := mkDamping true (1 / 50) 2 300). assert (hda : da_on da = true -> 0 <= da_ratio da /\ 0 < da_one da /\ 0 < da_two da) by (intros _; cbn; lra).
  pose proof (fun ls => C131_one_answer h specs (6 / 10) 1 case_rail case_pad 140 soils ls da ltac:(lia) hd s1 h1 h2 ltac:(lra) f1 eq_refl hda) as w1.
  pose proof (fun ls => C131_one_answer h specs' (6 / 10) 1 case_rail case_pad 140 soils' ls da ltac:(lia) hd s2 h1 h2 ltac:(lra) f2 eq_refl hda) as w2.
  destruct (w1 []) as [j [c [mesh [cs [hj [hcs _]]]]]]. destruct (w2 []) as [j' [c' [mesh' [cs' [hj' [hcs' _]]]]]].
  assert (u1 : forall ls, (forall l i, In l ls -> In i (ld_nodes l) -> (i < length mesh)%nat) -> exists s ns' k, initialise_system (joined_mesh c mesh) (joined_parts j case_rail case_pad 140 soils) ls cs da = Ok (s, ns', k) /\ exists x, in_balance s k x).
  { intros ls hls. destruct (w1 ls) as [j0 [c0 [mesh0 [cs0 [k1 [k2 k3]]]]]].
    assert (e : j0 = j /\ c0 = c /\ mesh0 = mesh /\ cs0 = cs).
    { destruct hj as [t1 [es1 [q1 q2]]]. destruct k1 as [t2 [es2 [q3 q4]]]. rewrite q1 in q3. injection q3 as <-. rewrite q2 in q4. injection q4 as <- <- <- _. repeat (split; [reflexivity|]).
      destruct hcs as [b1 [q5 ->]]. destruct k2 as [b2 [q6 ->]]. rewrite q5 in q6. injection q6 as <-. reflexivity. }
    destruct e as [-> [-> [-> ->]]]. destruct (k3 hls) as [s [ns' [k [m1 [[x [m2 _]] _]]]]]. exists s, ns', k. split; [exact m1|eauto]. }
  assert (u2 : forall ls, (forall l i, In l ls -> In i (ld_nodes l) -> (i < length mesh')%nat) -> exists s ns' k, initialise_system (joined_mesh c' mesh') (joined_parts j' case_rail case_pad 140 soils') ls cs' da = Ok (s, ns', k) /\ exists x, in_balance s k x).
  { intros ls hls. destruct (w2 ls) as [j0 [c0 [mesh0 [cs0 [k1 [k2 k3]]]]]].
    assert (e : j0 = j' /\ c0 = c' /\ mesh0 = mesh' /\ cs0 = cs').
    { destruct hj' as [t1 [es1 [q1 q2]]]. destruct k1 as [t2 [es2 [q3 q4]]]. rewrite q1 in q3. injection q3 as <-. rewrite q2 in q4. injection q4 as <- <- <- _. repeat (split; [reflexivity|]).
      destruct hcs' as [b1 [q5 ->]]. destruct k2 as [b2 [q6 ->]]. rewrite q5 in q6. injection q6 as <-. reflexivity. }
    destruct e as [-> [-> [-> ->]]]. destruct (k3 hls) as [s [ns' [k [m1 [[x [m2 _]] _]]]]]. exists s, ns', k. split; [exact m1|eauto]. }
  assert (hper : per_sleeper specs soils = per_sleeper specs' soils') by reflexivity.
  destruct (C133_same_places h specs specs' (6 / 10) j j' c c' mesh mesh' soils soils' hd0 s1 s2 hj hj' eq_refl eq_refl hper) as [hsize [f [hf [hout hplace]]]].
  exists j, c, mesh, cs, j', c', mesh', cs', f. split; [exact hj|]. split; [exact hj'|]. split; [exact hcs|]. split; [exact hcs'|]. split; [exact hf|]. split; [exact hout|]. intros q hq.
  assert (hqm : (q < length mesh)%nat) by (apply (ln_below _ _ _ _ (proj2 (proj2 (joined_line h specs (6 / 10) 1 j c mesh ltac:(lia) hd s1 hj)))); left; exact hq).
  assert (r1 : forall l i, In l (one_load q (-60000)) -> In i (ld_nodes l) -> (i < length mesh)%nat) by (intros l i [<-|[]] [<-|[]]; exact hqm).
  assert (r2 : forall l i, In l (one_load (f q) (-60000)) -> In i (ld_nodes l) -> (i < length mesh')%nat) by (intros l i [<-|[]] [<-|[]]; rewrite hsize; apply (hplace q hqm)).
  assert (pl : Forall plain_load (one_load q (-60000))) by (repeat constructor; cbn; intuition).
  destruct (u1 _ r1) as [s [ns' [k [i1 [x hx]]]]]. destruct (u2 _ r2) as [z [ms' [k2 [i2 [y hy]]]]].
  change (one_load (f q) (-60000)) with (map (renumbered_load f) (one_load q (-60000))) in i2.
  assert (ek : k2 = k).
  { destruct (C133_same_model h specs specs' (6 / 10) j j' c c' mesh mesh' cs cs' f case_rail case_pad 140 soils soils' (one_load q (-60000)) da hd0 s1 s2 hj hj' hcs hcs' h1 h2 ltac:(lra) f1 f2 eq_refl eq_refl hper hf hout pl r1) as [a1 [a2 [a3 [a4 [a5 [b1 [b2 _]]]]]]].
    rewrite i1 in b1. rewrite i2 in b2. congruence. }
  subst k2. exists s, ns', z, ms', k, x, y. split; [exact i1|]. split; [exact i2|]. split; [exact hx|]. split; [exact hy|].
  exact (proj1 (C133_same_answers h specs specs' (6 / 10) j j' c c' mesh mesh' cs cs' f case_rail case_pad 140 soils soils' (one_load q (-60000)) da s ns' k z ms' k hd0 s1 s2 hj hj' hcs hcs' h1 h2 ltac:(lra) f1 f2 eq_refl eq_refl hper hf hout pl i1 i2) x y hx hy).
Qed.
