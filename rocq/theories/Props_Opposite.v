(** * Tracks whose segments are laid in the opposite order (C140) *)

From Coq Require Import Reals List Bool ZArith Arith Lia Lra Permutation.
From Verif Require Import Num PyBase Model_Geometry Model_System Spec_System Proofs_Dof Proofs_System Model_Element Spec_Element
  Proofs_Elements Proofs_Element Proofs_Beam Model_Accumulation Proofs_Accumulation Model_Coupled Model_Mesh Spec_Mesh Proofs_Mesh Proofs_Join Props_Mesh Model_Track Spec_Track Spec_Generated Proofs_Track
  Proofs_Assembly Proofs_Generated Props_Generated Spec_Analytic Spec_Motion Proofs_Motion Spec_Chain Proofs_Chain Spec_Renumber Proofs_Renumber Spec_Balance Proofs_Balance Props_Balance
  Spec_Structure Proofs_Structure Proofs_Line Props_Structure Spec_Stiffer Proofs_Stiffer Props_Stiffer Spec_Cut Proofs_Cut Props_Cut Spec_Turn Proofs_Turn Spec_Mirror Proofs_Mirror Props_Mirror Spec_Opposite Proofs_Opposite.
Import ListNotations.
Local Open Scope R_scope.

(** segments in the opposite order have the opposite order of soil under the sleepers *)
Lemma per_sleeper_rev {A} (specs : list (nat * R)) (soils : list A) : length soils = length specs -> per_sleeper (rev specs) (rev soils) = rev (per_sleeper specs soils).
Proof.
  intros h. unfold per_sleeper. rewrite <- rev_combine by congruence. generalize (combine specs soils). induction l as [|x l IH]; [reflexivity|]. cbn [rev flat_map]. rewrite flat_map_app, rev_app_distr, IH. f_equal.
  cbn [flat_map]. rewrite app_nil_r. generalize (fst (fst x)). intros k. generalize (snd (fst x), snd x). intros v. clear. symmetry.
  assert (g : forall n, repeat v n ++ [v] = v :: repeat v n) by (induction n as [|n IHn]; [reflexivity|]; cbn; rewrite IHn; reflexivity).
  induction k as [|k IH]; [reflexivity|]. cbn [repeat rev]. rewrite IH. apply g.
Qed.

(** Two tracks with one rail element per sleeper whose sleepers lie on the same soil in the opposite order, such as a track and the track of
    the same segments in the opposite order: every node of one is seen, in a mirror in the middle of the track, at the place of a node of the
    other *)
Theorem C140_opposite h specs specs' d j j' c c' mesh mesh' (soils soils' : list (R * option R * option R)) :
  1 / 1000000000 < d -> segments specs -> segments specs' -> joins h specs d 1 j c mesh -> joins h specs' d 1 j' c' mesh' ->
  length soils = length specs -> length soils' = length specs' -> per_sleeper specs' soils' = rev (per_sleeper specs soils) ->
  length mesh' = length mesh /\
  exists f, opposed f j j' /\ (forall p, (length mesh <= p)%nat -> f p = p) /\
    forall p, (p < length mesh)%nat -> (f p < length mesh)%nat /\ c' (f p) = T3 (INR (sleeper_count specs - 1) * d - tx (c p)) (ty (c p)) (tr (c p)).
Proof.
  intros hd hs hs' hj hj' h1 h2 e. assert (hd1 : 1 / 1000000000 < d / INR 1) by (cbn [INR]; lra).
  pose proof (joins_laid h specs d 1 j c mesh ltac:(lia) hd1 hs hj) as la. pose proof (joins_laid h specs' d 1 j' c' mesh' ltac:(lia) hd1 hs' hj') as la'.
  split; [symmetry; exact (op_size d specs specs' j j' c c' mesh mesh' hs hs' la la' soils soils' h1 h2 e)|].
  destruct (op_matched d specs specs' j j' c c' mesh mesh' hs hs' la la' soils soils' h1 h2 e) as [f [f1 f2]].
  exists f. split; [exact f1|]. split; [exact f2|]. exact (of_place d specs specs' j j' c c' mesh mesh' hs hs' la la' soils soils' h1 h2 e f f1).
Qed.
Print Assumptions C140_opposite.

(** Under mirrored loads at opposite places such tracks answer in opposite ways: in static equilibrium opposite nodes have the same
    vertical displacement and opposite rotations and displacements along the rail, and the mirrored motions of one track are motions of the
    other *)
Theorem C140_track h specs specs' d j j' c c' mesh mesh' cs cs' f rail pad sleeper soils soils' ls da s ns' k s2 ms' k2 :
  1 / 100000000 < d -> segments specs -> segments specs' -> joins h specs d 1 j c mesh -> joins h specs' d 1 j' c' mesh' ->
  script_constraints j c cs -> script_constraints j' c' cs' ->
  good_rail rail -> good_rod pad -> 0 <= sleeper -> Forall good_rod soils -> Forall good_rod soils' ->
  length soils = length specs -> length soils' = length specs' -> per_sleeper specs' soils' = rev (per_sleeper specs soils) ->
  opposed f j j' -> (forall p, (length mesh <= p)%nat -> f p = p) -> Forall plain_load ls ->
  initialise_system (joined_mesh c mesh) (joined_parts j rail pad sleeper soils) ls cs da = Ok (s, ns', k) ->
  initialise_system (joined_mesh c' mesh') (joined_parts j' rail pad sleeper soils') (map (fun l => renumbered_load f (mirrored_load l)) ls) cs' da = Ok (s2, ms', k2) ->
  k2 = k /\
  (forall x y, in_balance s k x -> in_balance s2 k2 y -> forall p e, (p < length mesh)%nat -> field_of ms' y (f p) e = side e * field_of ns' x p e) /\
  (forall g u v b g2 u2 v2 b2,
    (forall p e i i2, number_of ns' p e = Some i -> number_of ms' (f p) e = Some i2 -> forall t,
       g2 t i2 = side e * g t i /\ u2 t i2 = side e * u t i /\ v2 t i2 = side e * v t i /\ b2 t i2 = side e * b t i) ->
    motion k s g u v b -> motion k2 s2 g2 u2 v2 b2).
Proof.
  intros hdc hs hs' hj hj' hcs hcs' hrail hpad hsl hso hso' h1 h2 e hf hout hpl hi hi2. assert (hd1 : 1 / 1000000000 < d / INR 1) by (cbn [INR]; lra).
  pose proof (joins_laid h specs d 1 j c mesh ltac:(lia) hd1 hs hj) as la. pose proof (joins_laid h specs' d 1 j' c' mesh' ltac:(lia) hd1 hs' hj') as la'.
  destruct (joined_line h specs d 1 j c mesh ltac:(lia) hd1 hs hj) as [hm [hn hline]]. destruct (joined_line h specs' d 1 j' c' mesh' ltac:(lia) hd1 hs' hj') as [hm' [hn' hline']].
  assert (hl : 0 < d / INR 1) by lra. assert (k1 : length soils = length (jn_soil j)) by congruence. assert (q2 : length soils' = length (jn_soil j')) by congruence.
  assert (hdef : pos_def k (me (gK s))).
  { pose proof hi as hx0. rewrite hm in hx0. destruct (joined_held c _ (d / INR 1) j _ ls cs da s ns' k hline hcs hx0) as [b1 [b2 _]]. exact (C126_definite h specs d 1 j c mesh rail pad sleeper soils ls cs da s ns' k ltac:(lia) hd1 hs hj hrail hpad hsl hso h1 hi b1 b2). }
  rewrite hm in hi. rewrite hm' in hi2.
  assert (sh1 : Forall shaped (joined_parts j rail pad sleeper soils)) by (eapply joined_shaped; eassumption).
  assert (sh2 : Forall shaped (joined_parts j' rail pad sleeper soils')) by (eapply joined_shaped; eassumption).
  assert (so1 : Forall (fun p => sound (settled (joined_mesh c (seq 0 (length mesh))) p)) (joined_parts j rail pad sleeper soils)) by (eapply joined_sound; eassumption).
  assert (so2 : Forall (fun p => sound (settled (joined_mesh c' (seq 0 (length mesh'))) p)) (joined_parts j' rail pad sleeper soils')) by (eapply joined_sound; eassumption).
  assert (wi : Forall (within (joined_mesh c (seq 0 (length mesh)))) (joined_parts j rail pad sleeper soils)) by (eapply laid_within; eassumption).
  assert (hss : b_s1 rail = b_s2 rail) by (destruct hrail as [[r1 r2] _]; congruence).
  set (a := INR (sleeper_count specs - 1) * d).
  assert (st : Forall (mirrorable (joined_mesh c (seq 0 (length mesh)))) (joined_parts j rail pad sleeper soils)) by (eapply of_mirrorable; eassumption).
  assert (fm : renumbered_mesh f (mirrored a (joined_mesh c (seq 0 (length mesh)))) (joined_mesh c' (seq 0 (length mesh')))) by exact (of_mesh d specs specs' j j' c c' mesh mesh' hs hs' la la' soils soils' h1 h2 e f hf hout).
  assert (ft : forall aux u, is_aux aux -> nsum (map (fun p => part_form aux (joined_mesh c' (seq 0 (length mesh'))) u (settled (joined_mesh c' (seq 0 (length mesh'))) p)) (joined_parts j' rail pad sleeper soils')) =
     nsum (map (fun p => part_form aux (mirrored a (joined_mesh c (seq 0 (length mesh)))) (fun i d => u (f i) d) (settled (mirrored a (joined_mesh c (seq 0 (length mesh)))) p)) (joined_parts j rail pad sleeper soils))).
  { intros aux u ha. unfold a. eapply (of_totals d specs specs'); eassumption. }
  assert (hcon1 : forall ns0, initialise_system ns0 (joined_parts j rail pad sleeper soils) (map mirrored_load ls) cs da = initialise_system ns0 (joined_parts j rail pad sleeper soils) (map mirrored_load ls) [joined_sides j; fixed_nodes (soil_ends j)] da).
  { assert (g : _ /\ _) by (eapply (of_constraints d specs specs' j j' c c' mesh mesh') with (ps := []) (cs := cs) (cs' := cs') (rail := rail) (pad := pad) (sleeper := sleeper) (soils := soils); eassumption). apply g. }
  assert (hcon2 : forall ps l, initialise_system (joined_mesh c' (seq 0 (length mesh'))) ps l cs' da = initialise_system (joined_mesh c' (seq 0 (length mesh'))) ps l (map (renumbered_constraint f) [joined_sides j; fixed_nodes (soil_ends j)]) da).
  { intros ps l. assert (g : _ /\ _) by (eapply (of_constraints d specs specs' j j' c c' mesh mesh') with (ps := ps) (cs := cs) (cs' := cs') (rail := rail) (pad := pad) (sleeper := sleeper) (soils := soils); eassumption). apply g. }
  destruct (run_flip a _ _ ls cs da s ns' k wi hi) as [s1 [ns1 [m r1]]].
  pose proof (size_flip a _ _ ls cs da s ns' k sh1 wi st hi s1 ns1 m r1) as em. subst m.
  pose proof (flip_definite a _ _ ls cs da s ns' k s1 ns1 k sh1 wi st hi r1 hdef) as hdef1.
  pose proof (fun x => flip_balance a _ _ ls cs da s ns' k s1 ns1 k sh1 so1 wi st hpl hi r1 x) as hbal.
  pose proof (image_field a _ _ ls cs da s ns' k s1 ns1 k sh1 wi st hi r1) as him.
  pose proof (image_at a _ _ ls cs da s ns' k s1 ns1 k sh1 wi st hi r1) as hat.
  pose proof (fun g u v b g2 u2 v2 b2 => C140_same_motion a _ _ ls cs da s ns' k s1 ns1 k g u v b g2 u2 v2 b2 hi r1 sh1 so1 wi st) as hmo.
  pose proof r1 as r1'. rewrite hcon1 in r1'. rewrite <- map_map in hi2. rewrite hcon2 in hi2.
  set (ns := joined_mesh c (seq 0 (length mesh))) in *. set (ms := joined_mesh c' (seq 0 (length mesh'))) in *.
  assert (wi1 : Forall (within (mirrored a ns)) (joined_parts j rail pad sleeper soils)) by (apply Forall_forall; intros p hin; apply within_flip; exact (proj1 (Forall_forall _ _) wi p hin)).
  pose proof (sounds2 a ns _ so1) as so1'.
  assert (hpl1 : Forall plain_load (map mirrored_load ls)).
  { apply Forall_map. eapply Forall_impl; [|exact hpl]. intros l [g1 g2]. split; cbn [mirrored_load ld_nodes ld_vals]; [exact g1|rewrite map_length; exact g2]. }
  pose proof (size_same f (mirrored a ns) ms _ _ _ _ _ da s1 ns1 k fm ft sh2 sh1 wi1 r1' s2 ms' k2 hi2) as ek. subst k2.
  pose proof (number_same f (mirrored a ns) ms _ _ _ _ _ da s1 ns1 k fm ft sh2 sh1 wi1 r1' s2 ms' k hi2) as hnum.
  assert (ln : length (mirrored a ns) = length mesh) by (unfold mirrored, ns; rewrite map_length; apply line_length).
  split; [reflexivity|]. split.
  - intros x y hx hy p e0 hp. rewrite <- him.
    destruct (initialise_inv _ _ _ _ _ _ _ _ r1') as [z0 [_ [ez _]]]. destruct (initialise_kept _ _ _ _ _ _ _ _ _ r1' ez) as [hl0 [hnum0 _]].
    destruct (initialise_inv _ _ _ _ _ _ _ _ hi2) as [z1 [_ [ez1 _]]]. destruct (initialise_kept _ _ _ _ _ _ _ _ _ hi2 ez1) as [hl1 [hnum1 _]].
    refine (answer_same f (mirrored a ns) ms k s1 s2 ns1 ms' _ y hnum0 hl0 hl1 fm hnum _ _ _ hdef1 (hbal x hx) hy p e0 _).
    + intros z w hzw p0 d0 i i2 n0 n2. exact (proj1 (mulv_same f (mirrored a ns) ms _ _ _ _ _ da s1 ns1 k fm ft sh2 so2 sh1 so1' wi1 r1' s2 ms' k hi2 z w p0 d0 i i2 hzw n0 n2)).
    + intros p0 d0 i i2 n0 n2. eapply (force_same f (mirrored a ns) ms); try eassumption. apply Permutation_refl.
    + intros p0 d0 i n0. exact (proj1 (below _ _ _ _ _ _ _ _ hi2 p0 d0 i n0)).
    + rewrite ln. exact hp.
  - intros g u v b g2 u2 v2 b2 hag hm0.
    refine (motion_same f (mirrored a ns) ms _ _ _ _ _ da s1 ns1 k fm ft sh2 so2 sh1 so1' wi1 r1' s2 ms' k hi2 (fun t => image ns' ns1 (g t)) (fun t => image ns' ns1 (u t)) (fun t => image ns' ns1 (v t)) (fun t => image ns' ns1 (b t)) _ _ _ _ _ _).
    + intros p0 d0 i1 i2 n0 n2 t. destruct (number_of ns' p0 d0) as [i|] eqn:ei.
      * rewrite !(hat _ p0 d0 i i1 ei n0). exact (hag p0 d0 i i2 ei n2 t).
      * apply (flip_none a _ _ ls cs da s ns' k s1 ns1 k sh1 wi st hi r1) in ei. congruence.
    + refine (hmo g u v b _ _ _ _ _ hm0). intros p0 d0 i i1 n0 n1 t. rewrite !(hat _ p0 d0 i i1 n0 n1). auto.
Qed.
Print Assumptions C140_track.

(** ** more rail elements per sleeper *)

(** With two or more rail elements per sleeper a track is not its own mirror image, even if it is made of a single segment: the rail starts
    above the first sleeper and ends behind the last one.  No place of the mirror takes rail and sleepers to rail and sleepers *)
Theorem C140_track_refuted h n depth d r : (2 <= n)%nat -> 1 / 1000000000 < depth -> (2 <= r)%nat -> 1 / 1000000000 < d / INR r ->
  exists j c mesh, joins h [(n, depth)] d r j c mesh /\
    ~ exists a f, opposed f j j /\ forall p, (p < length mesh)%nat -> c (f p) = T3 (a - tx (c p)) (ty (c p)) (tr (c p)).
Proof.
  intros hn hdep hr hd. assert (hr1 : (1 <= r)%nat) by lia. assert (hnr : (1 <= n * r)%nat) by nia. assert (hs : segments [(n, depth)]) by (split; [intros n0 x [e|[]]; injection e as <- <-; split; [lia|exact hdep]|cbn; lia]).
  destruct (joins_exist h _ d r hr1 hd hs) as [j [c [mesh hj]]]. exists j, c, mesh. split; [exact hj|].
  pose proof (joins_laid _ _ _ _ _ _ _ hr1 hd hs hj) as la. intros [a [f [[e1 [e2 _]] hp]]].
  pose proof (la_long _ _ _ _ _ _ la) as hl. unfold sleeper_count in hl. cbn [map fst list_sum fold_right length] in hl.
  pose proof (la_sleepers _ _ _ _ _ _ la) as hsl. cbn [sleeper_places] in hsl. rewrite app_nil_r, map_map in hsl.
  assert (hk : length (jn_sleepers j) = n) by (apply (f_equal (@length _)) in hsl; rewrite !map_length, seq_length in hsl; exact hsl).
  assert (inside : forall p, In p (jn_rail_nodes j) \/ In p (jn_sleepers j) -> (p < length mesh)%nat).
  { intros p h0. assert (g : In p (jn_rail_nodes j ++ jn_sleepers j ++ soil_ends j)) by (rewrite !in_app_iff; tauto). apply (Permutation_in _ (la_all _ _ _ _ _ _ la)), in_seq in g. lia. }
  assert (swap : forall l, map f l = rev l -> (1 <= length l)%nat -> f (nth 0 l 0%nat) = nth (length l - 1) l 0%nat).
  { intros l e hpos. rewrite <- (map_nth f), e, (nth_indep _ (f 0%nat) 0%nat) by (rewrite rev_length; lia). rewrite rev_nth by lia. f_equal. }
  assert (place : forall i, (i < n)%nat -> c (nth i (jn_sleepers j) 0%nat) = T3 (0 + INR i * d) (-1) 0).
  { intros i hi. rewrite <- (map_nth c), hsl. rewrite (nth_indep _ (c 0%nat) (T3 (0 + INR 0 * d) (-1) 0)) by (rewrite map_length, seq_length; exact hi).
    rewrite (map_nth (fun i => T3 (0 + INR i * d) (-1) 0)), seq_nth by exact hi. reflexivity. }
  assert (hr2 : 2 <= INR r) by (change 2 with (INR 2); apply le_INR; lia).
  assert (x1 : INR (n * r - 1) * (d / INR r) = a).
  { pose proof (hp (nth 0 (jn_rail_nodes j) 0%nat) ltac:(apply inside; left; apply nth_In; nia)) as g. rewrite swap in g by (assumption || nia).
    rewrite !(la_rail _ _ _ _ _ _ la) in g by nia. cbn [tx ty tr INR] in g. injection g as g. replace (length (jn_rail_nodes j) - 1)%nat with (n * r - 1)%nat in g by lia. rewrite g. ring. }
  assert (x2 : INR (n - 1) * d = a).
  { pose proof (hp (nth 0 (jn_sleepers j) 0%nat) ltac:(apply inside; right; apply nth_In; lia)) as g. rewrite swap in g by (assumption || lia).
    rewrite !place in g by lia. cbn [tx ty tr INR] in g. injection g as g. rewrite hk in g. lra. }
  assert (hd0 : 0 < d / INR r) by lra. assert (e : d = d / INR r * INR r) by (field; lra).
  rewrite minus_INR in x1 by exact hnr. rewrite minus_INR in x2 by lia. rewrite mult_INR in x1. change (INR 1) with 1 in *. rewrite <- x1 in x2. clear - x2 hd0 e hr2.
  set (y := d / INR r) in *. rewrite e in x2. assert (h : (INR r - 1) * y = 0) by lra. nra.
Qed.
Print Assumptions C140_track_refuted.

(** ** a case that meets the hypotheses *)

(** four sleepers on a soft and two on a hard soil, and the same track seen from the other side *)
Example C140_track_case h : exists j c mesh cs j' c' mesh' cs' f,
  joins h [(4%nat, 1); (2%nat, 3 / 2)] (6 / 10) 1 j c mesh /\ joins h [(2%nat, 3 / 2); (4%nat, 1)] (6 / 10) 1 j' c' mesh' /\ script_constraints j c cs /\ script_constraints j' c' cs' /\
  opposed f j j' /\ (forall p, (length mesh <= p)%nat -> f p = p) /\
  forall q, In q (jn_rail_nodes j) ->
  exists s ns' s2 ms' k x y,
    initialise_system (joined_mesh c mesh) (joined_parts j case_rail case_pad 140 [cut_soft; cut_hard]) (one_load q (-60000)) cs (mkDamping true (1 / 50) 2 300) = Ok (s, ns', k) /\
    initialise_system (joined_mesh c' mesh') (joined_parts j' case_rail case_pad 140 [cut_hard; cut_soft]) (map (fun l => renumbered_load f (mirrored_load l)) (one_load q (-60000))) cs' (mkDamping true (1 / 50) 2 300) = Ok (s2, ms', k) /\
    in_balance s k x /\ in_balance s2 k y /\ forall p, (p < length mesh)%nat -> field_of ms' y (f p) DY = field_of ns' x p DY /\ field_of ms' y (f p) DR = - field_of ns' x p DR.
Proof.
  destruct case_values as [h1 [h2 _]].
  assert (v1 : good_rod cut_soft) by (unfold good_rod, opt_nonneg, cut_soft; cbn; repeat split; lra). assert (v2 : good_rod cut_hard) by (unfold good_rod, opt_nonneg, cut_hard; cbn; repeat split; lra).
  set (specs := [(4%nat, 1); (2%nat, 3 / 2)]). set (specs' := [(2%nat, 3 / 2); (4%nat, 1)]).
  set (soils := [cut_soft; cut_hard]). set (soils' := [cut_hard; cut_soft]).
  assert (s1 : segments specs) by (split; [intros n x hin; unfold specs in hin; destruct hin as [e|[e|[]]]; injection e as <- <-; split; lia || lra|cbn; lia]).
  assert (s2 : segments specs') by (split; [intros n x hin; unfold specs' in hin; destruct hin as [e|[e|[]]]; injection e as <- <-; split; lia || lra|cbn; lia]).
  assert (hd : 1 / 1000000000 < 6 / 10 / INR 1) by (cbn; lra). assert (hd0 : 1 / 1000000000 < 6 / 10) by lra. assert (hd2 : 1 / 100000000 < 6 / 10) by lra.
  assert (f1 : Forall good_rod soils) by (repeat (apply Forall_cons; [exact v1 || exact v2|]); apply Forall_nil). assert (f2 : Forall good_rod soils') by (repeat (apply Forall_cons; [exact v1 || exact v2|]); apply Forall_nil).
  set (da := mkDamping true (1 / 50) 2 300). assert (hda : da_on da = true -> 0 <= da_ratio da /\ 0 < da_one da /\ 0 < da_two da) by (intros _; cbn; lra).
  pose proof (fun ls => C131_one_answer h specs (6 / 10) 1 case_rail case_pad 140 soils ls da ltac:(lia) hd s1 h1 h2 ltac:(lra) f1 eq_refl hda) as w1.
  pose proof (fun ls => C131_one_answer h specs' (6 / 10) 1 case_rail case_pad 140 soils' ls da ltac:(lia) hd s2 h1 h2 ltac:(lra) f2 eq_refl hda) as w2.
  destruct (w1 []) as [j [c [mesh [cs [hj [hcs _]]]]]]. destruct (w2 []) as [j' [c' [mesh' [cs' [hj' [hcs' _]]]]]].
  assert (u1 : forall ls, (forall l i, In l ls -> In i (ld_nodes l) -> (i < length mesh)%nat) -> exists s ns' k, initialise_system (joined_mesh c mesh) (joined_parts j case_rail case_pad 140 soils) ls cs da = Ok (s, ns', k) /\ exists x, in_balance s k x).
  { intros ls hls. destruct (w1 ls) as [j0 [c0 [mesh0 [cs0 [k1 [k2 k3]]]]]].
    assert (e : j0 = j /\ c0 = c /\ mesh0 = mesh /\ cs0 = cs).
    { destruct hj as [t1 [es1 [q1 q2]]]. destruct k1 as [t2 [es2 [q3 q4]]]. rewrite q1 in q3. injection q3 as <-. rewrite q2 in q4. injection q4 as <- <- <- _. repeat (split; [reflexivity|]).
      destruct hcs as [b1 [q5 ->]]. destruct k2 as [b2 [q6 ->]]. rewrite q5 in q6. injection q6 as <-. reflexivity. }
    destruct e as [-> [-> [-> ->]]]. destruct (k3 hls) as [s [ns' [k [m1 [[x [m2 _]] _]]]]]. exists s, ns', k. split; [exact m1|eauto]. }
  assert (u2 : forall ls, (forall l i, In l ls -> In i (ld_nodes l) -> (i < length mesh')%nat) -> exists s ns' k, initialise_system (joined_mesh c' mesh') (joined_parts j' case_rail case_pad 140 soils') ls cs' da = Ok (s, ns', k) /\ exists x, in_balance s k x).
  { intros ls hls. destruct (w2 ls) as [j0 [c0 [mesh0 [cs0 [k1 [k2 k3]]]]]].
    assert (e : j0 = j' /\ c0 = c' /\ mesh0 = mesh' /\ cs0 = cs').
    { destruct hj' as [t1 [es1 [q1 q2]]]. destruct k1 as [t2 [es2 [q3 q4]]]. rewrite q1 in q3. injection q3 as <-. rewrite q2 in q4. injection q4 as <- <- <- _. repeat (split; [reflexivity|]).
      destruct hcs' as [b1 [q5 ->]]. destruct k2 as [b2 [q6 ->]]. rewrite q5 in q6. injection q6 as <-. reflexivity. }
    destruct e as [-> [-> [-> ->]]]. destruct (k3 hls) as [s [ns' [k [m1 [[x [m2 _]] _]]]]]. exists s, ns', k. split; [exact m1|eauto]. }
  assert (hper : per_sleeper specs' soils' = rev (per_sleeper specs soils)) by exact (per_sleeper_rev specs soils eq_refl).
  destruct (C140_opposite h specs specs' (6 / 10) j j' c c' mesh mesh' soils soils' hd0 s1 s2 hj hj' eq_refl eq_refl hper) as [hsize [f [hf [hout hplace]]]].
  exists j, c, mesh, cs, j', c', mesh', cs', f. split; [exact hj|]. split; [exact hj'|]. split; [exact hcs|]. split; [exact hcs'|]. split; [exact hf|]. split; [exact hout|]. intros q hq.
  assert (hqm : (q < length mesh)%nat) by (apply (ln_below _ _ _ _ (proj2 (proj2 (joined_line h specs (6 / 10) 1 j c mesh ltac:(lia) hd s1 hj)))); left; exact hq).
  assert (r1 : forall l i, In l (one_load q (-60000)) -> In i (ld_nodes l) -> (i < length mesh)%nat) by (intros l i [<-|[]] [<-|[]]; exact hqm).
  assert (r2 : forall l i, In l (map (fun l => renumbered_load f (mirrored_load l)) (one_load q (-60000))) -> In i (ld_nodes l) -> (i < length mesh')%nat) by (intros l i [<-|[]] [<-|[]]; rewrite hsize; apply (hplace q hqm)).
  assert (pl : Forall plain_load (one_load q (-60000))) by (repeat constructor; cbn; intuition).
  destruct (u1 _ r1) as [s [ns' [k [i1 [x hx]]]]]. destruct (u2 _ r2) as [z [ms' [k2 [i2 [y hy]]]]].
  destruct (C140_track h specs specs' (6 / 10) j j' c c' mesh mesh' cs cs' f case_rail case_pad 140 soils soils' (one_load q (-60000)) da s ns' k z ms' k2 hd2 s1 s2 hj hj' hcs hcs' h1 h2 ltac:(lra) f1 f2 eq_refl eq_refl hper hf hout pl i1 i2) as [ek [ans _]].
  subst k2. exists s, ns', z, ms', k, x, y. split; [exact i1|]. split; [exact i2|]. split; [exact hx|]. split; [exact hy|]. intros p hp.
  rewrite (ans x y hx hy p DY hp), (ans x y hx hy p DR hp). cbn [side]. split; ring.
Qed.
