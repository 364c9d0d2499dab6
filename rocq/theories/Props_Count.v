(** * C135: which directions of a track are calculated, how many there are and in which order *)

From Coq Require Import Reals List Bool ZArith Arith Lia Lra Psatz Permutation.
From Verif Require Import Num PyBase Model_Geometry Model_System Spec_System Proofs_Dof Proofs_System Model_Element Spec_Element Spec_Chain
  Proofs_Elements Proofs_Element Proofs_Beam Proofs_Force Model_Accumulation Proofs_Accumulation Proofs_Geometry Model_Coupled Model_Mesh Spec_Mesh Proofs_Mesh Proofs_Join Props_Mesh
  Model_Track Spec_Track Spec_Generated Proofs_Track Proofs_Assembly Proofs_Generated Props_Generated Proofs_Chain Spec_Balance Proofs_Balance Spec_Structure Proofs_Structure Proofs_Line Props_Structure
  Spec_Cut Proofs_Cut Spec_Count Proofs_Count Model_Train Model_DefaultTrains Model_TrainDict.
Import ListNotations.
Local Open Scope R_scope.

(** In the scripts' track the free directions are exactly those that are calculated: those that have a number in the system *)
Theorem C135_directions h specs d r j c mesh rail pad sleeper soils ls cs da s ns' k :
  (1 <= r)%nat -> 1 / 1000000000 < d / INR r -> segments specs -> joins h specs d r j c mesh ->
  good_rail rail -> good_rod pad -> Forall good_rod soils -> length soils = length specs ->
  script_constraints j c cs ->
  initialise_system (joined_mesh c mesh) (joined_parts j rail pad sleeper soils) ls cs da = Ok (s, ns', k) ->
  above_tolerance (d / INR r) rail -> 1 / 100000000 < fst (fst pad) -> 1 / 100000000 < sleeper ->
  forall p e, number_of ns' p e <> None <-> free_to_move j p e.
Proof.
  intros hr hd hsp hj hrail hpad hsoils hc hcs hi [t1 [t2 [t3 [t4 t5]]]] t6 t7 p e.
  pose proof (joins_laid h specs d r j c mesh hr hd hsp hj) as hla.
  destruct (joined_line h specs d r j c mesh hr hd hsp hj) as [hm [hlen hline]].
  rewrite hm in hi. rewrite <- hlen in hc. set (l := d / INR r) in *. assert (hl : 0 < l) by (unfold l in *; lra). assert (hs0 : 0 <= sleeper) by lra.
  assert (hphi : shear_ratio l rail = timoshenko_factor 0 (mkBeam (b_E rail) (b_nu rail) (b_rho rail) (b_A rail) (b_I rail) (b_shear_factor rail) l (b_s1 rail) (b_s2 rail))).
  { symmetry. destruct hrail as [q1 q2]. rewrite (factor_is_ratio l) by (try exact hl; unfold good_beam, fixed_ends in *; cbn; tauto). reflexivity. }
  rewrite hphi in t3.
  destruct (joined_held c _ l j _ ls cs da s ns' k hline hcs hi) as [g1 [_ g3]].
  destruct (line_heights c _ l j hline) as [y1 [y2 y3]].
  assert (hlen' : length ns' = length mesh).
  { destruct (initialise_inv _ _ _ _ _ _ _ _ hi) as [s0 [_ [e0 _]]]. destruct (initialise_kept _ _ _ _ _ _ _ _ _ hi e0) as [hl' _]. rewrite hl'. unfold joined_mesh, reorder_node_ids. rewrite reorder_from_length, map_length, seq_length. reflexivity. }
  assert (hflag : In p (jn_rail_nodes j) -> (flag_after cs p e true = true <-> (e = DX -> p <> List.hd 0%nat (jn_rail_nodes j) /\ p <> last (jn_rail_nodes j) 0%nat))).
  { intros hp. destruct hcs as [bottoms [hb ->]]. rewrite (line_bottoms c _ l j hline) in hb. injection hb as <-.
    assert (hin : forall q, In q (map fixed_nodes (map (fun part => map snd (snd part)) (jn_soil j))) -> ~ In p (fst q)).
    { intros q hq hpq. apply in_map_iff in hq. destruct hq as [b [<- hq]]. apply in_map_iff in hq. destruct hq as [part [<- hq]]. cbn [fixed_nodes fst snd] in *.
      apply in_map_iff in hpq. destruct hpq as [e' [hpe he']]. pose proof (y3 part e' hq he') as w. rewrite hpe in w. pose proof (y1 p hp). lra. }
    split.
    - intros hf -> . assert (hn : ~ In p (fst (joined_sides j))).
      { intros hside. rewrite flag_held in hf; [discriminate| |].
        - intros q [<-|hq] hpq; [reflexivity|]. exfalso. exact (hin q hq hpq).
        - right. exists (joined_sides j). split; [left; reflexivity|exact hside]. }
      cbn [joined_sides fst In] in hn. split; intros z; apply hn; [left|right; left]; symmetry; exact z.
    - intros hf. apply flag_kept. intros q [<-|hq] hpq; [|exfalso; exact (hin q hq hpq)].
      destruct e; [|reflexivity|reflexivity]. destruct (hf eq_refl) as [z1 z2]. cbn [joined_sides fst In] in hpq. destruct hpq as [z|[z|[]]]; symmetry in z; contradiction. }
  split.
  - intros hnum. assert (hp : (p < length mesh)%nat). { destruct (number_of ns' p e) eqn:en; [|congruence]. rewrite <- hlen'. eapply number_of_bound; eauto. }
    apply (ln_below _ _ _ _ hline) in hp. destruct hp as [hp|hp].
    + left. split; [exact hp|]. apply hflag; [exact hp|]. refine (proj1 (_ : number_of ns' p e <> None <-> flag_after cs p e true = true) hnum).
      eapply (rail_kept c _ l j rail pad sleeper soils hl hrail hpad hs0 hsoils hc hline); [exact hi|exact hp| |]; destruct e; cbn [least_stiffness least_mass b_rho b_A b_l]; assumption.
    + assert (hnr : ~ In p (jn_rail_nodes j)).
      { intros z. apply y1 in z. destruct hp as [hp|[part [e' [w1 [w2 ->]]]]]; [apply y2 in hp|pose proof (y3 part e' w1 w2)]; lra. }
      assert (he : e = DY). { destruct e; [|reflexivity|]; exfalso; apply hnum; destruct hline; eapply line_unused_removed; try eassumption; discriminate. }
      subst e. destruct hp as [hp|[part [e' [w1 [w2 ->]]]]]; [right; auto|]. exfalso. apply hnum. exact (g1 part e' w1 w2).
  - intros [[hp hf]|[hp ->]].
    + apply hflag in hf; [|exact hp]. refine (proj2 (_ : number_of ns' p e <> None <-> flag_after cs p e true = true) hf).
      eapply (rail_kept c _ l j rail pad sleeper soils hl hrail hpad hs0 hsoils hc hline); [exact hi|exact hp| |]; destruct e; cbn [least_stiffness least_mass b_rho b_A b_l]; assumption.
    + refine (proj2 (_ : number_of ns' p DY <> None <-> flag_after cs p DY true = true) (g3 p (or_intror hp))). clear hflag. destruct hline. eapply line_kept; try eassumption. right. exact hp.
Qed.
Print Assumptions C135_directions.

(** lemmas for counting *)
Lemma held_rail ns' j p : (forall e, number_of ns' p e <> None <-> free_to_move j p e) -> In p (jn_rail_nodes j) -> ~ In p (jn_sleepers j) ->
  held_numbers ns' p = if (Nat.eqb p (hd 0%nat (jn_rail_nodes j)) || Nat.eqb p (last (jn_rail_nodes j) 0%nat))%bool then 2%nat else 3%nat.
Proof.
  intros h hp hs. assert (hy : number_of ns' p DY <> None) by (apply h; left; split; [exact hp|discriminate]). assert (hr : number_of ns' p DR <> None) by (apply h; left; split; [exact hp|discriminate]).
  unfold held_numbers. cbn [filter]. destruct (number_of ns' p DY); [|congruence]. destruct (number_of ns' p DR); [|congruence].
  destruct (Nat.eqb_spec p (hd 0%nat (jn_rail_nodes j))) as [z|z]; cbn [orb].
  - destruct (number_of ns' p DX) eqn:ex; [|reflexivity]. exfalso. assert (g : number_of ns' p DX <> None) by congruence. apply h in g. destruct g as [[_ g]|[g _]]; [destruct (g eq_refl); contradiction|contradiction].
  - destruct (Nat.eqb_spec p (last (jn_rail_nodes j) 0%nat)) as [w|w].
    + destruct (number_of ns' p DX) eqn:ex; [|reflexivity]. exfalso. assert (g : number_of ns' p DX <> None) by congruence. apply h in g. destruct g as [[_ g]|[g _]]; [destruct (g eq_refl); contradiction|contradiction].
    + assert (g : number_of ns' p DX <> None) by (apply h; left; split; [exact hp|intros _; split; assumption]). destruct (number_of ns' p DX); [reflexivity|congruence].
Qed.
Lemma held_sleeper ns' j p : (forall e, number_of ns' p e <> None <-> free_to_move j p e) -> In p (jn_sleepers j) -> ~ In p (jn_rail_nodes j) -> held_numbers ns' p = 1%nat.
Proof.
  intros h hp hr. assert (hy : number_of ns' p DY <> None) by (apply h; right; auto).
  assert (hn : forall e, e <> DY -> number_of ns' p e = None).
  { intros e he. destruct (number_of ns' p e) eqn:en; [|reflexivity]. exfalso. assert (g : number_of ns' p e <> None) by congruence. apply h in g. destruct g as [[g _]|[_ g]]; contradiction. }
  unfold held_numbers. cbn [filter]. rewrite (hn DX), (hn DR) by discriminate. destruct (number_of ns' p DY); [reflexivity|congruence].
Qed.
Lemma held_end ns' j p : (forall e, number_of ns' p e <> None <-> free_to_move j p e) -> ~ In p (jn_sleepers j) -> ~ In p (jn_rail_nodes j) -> held_numbers ns' p = 0%nat.
Proof.
  intros h hp hr. assert (hn : forall e, number_of ns' p e = None).
  { intros e. destruct (number_of ns' p e) eqn:en; [|reflexivity]. exfalso. assert (g : number_of ns' p e <> None) by congruence. apply h in g. destruct g as [[g _]|[g _]]; contradiction. }
  unfold held_numbers. cbn [filter]. rewrite !hn. reflexivity.
Qed.

Lemma ends_once (l : list nat) : NoDup l -> (2 <= length l)%nat ->
  (list_sum (map (fun p => if (Nat.eqb p (hd 0%nat l) || Nat.eqb p (last l 0%nat))%bool then 2 else 3) l) = 3 * length l - 2)%nat.
Proof.
  intros hn hl. destruct l as [|a q]; [cbn in hl; lia|]. destruct (@exists_last _ q) as [m [b ->]]; [intros ->; cbn in hl; lia|]. cbn [hd].
  change (a :: m ++ [b]) with ((a :: m) ++ [b]) at 1. rewrite last_last. cbn [app map]. cbn [list_sum fold_right]. rewrite Nat.eqb_refl. cbn [orb]. rewrite map_app. cbn [map].
  change (fold_right Nat.add 0%nat) with list_sum. rewrite list_sum_app. cbn [list_sum fold_right]. rewrite Nat.eqb_refl, orb_true_r.
  inversion hn as [|? ? n1 n2]; subst. apply NoDup_remove in n2. rewrite app_nil_r in n2. destruct n2 as [_ n2].
  assert (g : forall m', incl m' m -> list_sum (map (fun p => if (Nat.eqb p a || Nat.eqb p b)%bool then 2%nat else 3%nat) m') = (3 * length m')%nat).
  { induction m' as [|x m' IH]; intros hi; [reflexivity|]. cbn [map list_sum fold_right length]. change (fold_right Nat.add 0%nat) with list_sum. rewrite IH by (intros z hz; apply hi; right; exact hz).
    assert (hx : In x m) by (apply hi; left; reflexivity).
    destruct (Nat.eqb_spec x a) as [->|_]; [exfalso; apply n1; apply in_or_app; left; exact hx|]. destruct (Nat.eqb_spec x b) as [->|_]; [contradiction|]. cbn [orb]. lia. }
  rewrite (g m) by apply incl_refl. cbn [length]. rewrite app_length. cbn [length]. lia.
Qed.

Lemma nodup_left (l q : list nat) : NoDup (l ++ q) -> NoDup l.
Proof.
  induction l as [|a l IH]; intros h; [apply NoDup_nil|]. cbn [app] in h. inversion h as [|? ? h1 h2]; subst. apply NoDup_cons; [|exact (IH h2)]. intros z. apply h1. apply in_or_app. left. exact z.
Qed.
Lemma places_count gap d specs : forall x, length (sleeper_places gap d x specs) = sleeper_count specs.
Proof.
  unfold sleeper_count. induction specs as [|[n depth] q IH]; intros x; [reflexivity|]. cbn [sleeper_places map fst]. rewrite app_length, map_length, seq_length, IH. reflexivity.
Qed.

(** How many there are: three for each node of the rail and one for each sleeper, less the two ends of the rail *)
Theorem C135_count h specs d r j c mesh rail pad sleeper soils ls cs da s ns' k :
  (1 <= r)%nat -> 1 / 1000000000 < d / INR r -> segments specs -> joins h specs d r j c mesh ->
  good_rail rail -> good_rod pad -> Forall good_rod soils -> length soils = length specs ->
  script_constraints j c cs ->
  initialise_system (joined_mesh c mesh) (joined_parts j rail pad sleeper soils) ls cs da = Ok (s, ns', k) ->
  above_tolerance (d / INR r) rail -> 1 / 100000000 < fst (fst pad) -> 1 / 100000000 < sleeper ->
  (k = 3 * (sleeper_count specs * r + (length specs - 1) * (r - 1)) + sleeper_count specs - 2)%nat.
Proof.
  intros hr hd hsp hj hrail hpad hsoils hc hcs hi t5 t6 t7.
  pose proof (C135_directions h specs d r j c mesh rail pad sleeper soils ls cs da s ns' k hr hd hsp hj hrail hpad hsoils hc hcs hi t5 t6 t7) as hfree.
  pose proof (joins_laid h specs d r j c mesh hr hd hsp hj) as hla. destruct (joined_line h specs d r j c mesh hr hd hsp hj) as [hm [hlen hline]].
  assert (hmesh : length ns' = length mesh).
  { destruct (initialise_inv _ _ _ _ _ _ _ _ hi) as [s0 [_ [e0 _]]]. destruct (initialise_kept _ _ _ _ _ _ _ _ _ hi e0) as [hl' _]. rewrite hl'. unfold joined_mesh, reorder_node_ids. rewrite reorder_from_length, map_length. reflexivity. }
  assert (hnum : numbered ns' k).
  { destruct (initialise_inv _ _ _ _ _ _ _ _ hi) as [s0 [_ [e0 _]]]. destruct (initialise_kept _ _ _ _ _ _ _ _ _ hi e0) as [_ [hn _]]. exact hn. }
  assert (hk : k = length (all_numbers ns')) by (rewrite hnum, seq_length; reflexivity). rewrite hk, numbers_length, hmesh.
  pose proof (la_all _ _ _ _ _ _ hla) as hp. rewrite <- (sum_perm _ _ _ hp), !map_app, !list_sum_app.
  assert (hnd : NoDup (jn_rail_nodes j ++ jn_sleepers j ++ soil_ends j)) by (eapply Permutation_NoDup; [apply Permutation_sym; exact hp|apply seq_NoDup]).
  assert (hrs : forall p, In p (jn_rail_nodes j) -> ~ In p (jn_sleepers j)) by (intros p a b; destruct (line_heights c _ _ j hline) as [y1 [y2 _]]; apply y1 in a; apply y2 in b; lra).
  assert (hends : forall p, In p (soil_ends j) -> ty (c p) < -1).
  { intros p hpe. unfold soil_ends in hpe. apply in_map_iff in hpe. destruct hpe as [e [<- he]]. apply in_flat_map in he. destruct he as [part [a b]]. destruct (line_heights c _ _ j hline) as [_ [_ y3]]. exact (y3 part e a b). }
  rewrite (map_ext_in (held_numbers ns') (fun p => if (Nat.eqb p (List.hd 0%nat (jn_rail_nodes j)) || Nat.eqb p (last (jn_rail_nodes j) 0%nat))%bool then 2%nat else 3%nat) (jn_rail_nodes j))
    by (intros p hpr; apply held_rail; [intros e; apply hfree|exact hpr|apply hrs; exact hpr]).
  rewrite ends_once by (apply (ln_long _ _ _ _ hline) || exact (nodup_left _ _ hnd)).
  rewrite (map_ext_in (held_numbers ns') (fun _ => 1%nat) (jn_sleepers j)) by (intros p hps; eapply held_sleeper; [intros e; apply hfree|exact hps|intros z; exact (hrs p z hps)]).
  rewrite (map_ext_in (held_numbers ns') (fun _ => 0%nat) (soil_ends j))
    by (intros p hpe; eapply held_end; [intros e; apply hfree| |]; intros z; destruct (line_heights c _ _ j hline) as [y1 [y2 _]]; [apply y2 in z|apply y1 in z]; apply hends in hpe; lra).
  assert (s1 : forall l : list nat, list_sum (map (fun _ => 1%nat) l) = length l) by (induction l as [|a q IH]; [reflexivity|]; cbn in *; unfold list_sum in *; lia).
  assert (s0 : forall l : list nat, list_sum (map (fun _ => 0%nat) l) = 0%nat) by (induction l as [|a q IH]; [reflexivity|]; cbn in *; unfold list_sum in *; lia).
  rewrite s1, s0. rewrite (la_long _ _ _ _ _ _ hla).
  assert (hsl : length (jn_sleepers j) = sleeper_count specs).
  { rewrite <- (map_length c), (la_sleepers _ _ _ _ _ _ hla), map_length. apply places_count. }
  pose proof (ln_long _ _ _ _ hline). rewrite (la_long _ _ _ _ _ _ hla) in *. lia.
Qed.
Print Assumptions C135_count.

(** In which order: node after node of the mesh and, at one node, along x before vertical before rotation *)
Theorem C135_order h specs d r j c mesh rail pad sleeper soils ls cs da s ns' k :
  (1 <= r)%nat -> 1 / 1000000000 < d / INR r -> segments specs -> joins h specs d r j c mesh ->
  initialise_system (joined_mesh c mesh) (joined_parts j rail pad sleeper soils) ls cs da = Ok (s, ns', k) ->
  forall p e i q f i', number_of ns' p e = Some i -> number_of ns' q f = Some i' ->
    (i < i')%nat <-> (p < q)%nat \/ (p = q /\ (direction_order e < direction_order f)%nat).
Proof.
  intros hr hd hsp hj hi.
  assert (hnum : numbered ns' k).
  { destruct (initialise_inv _ _ _ _ _ _ _ _ hi) as [s0 [_ [e0 _]]]. destruct (initialise_kept _ _ _ _ _ _ _ _ _ hi e0) as [_ [hn _]]. exact hn. }
  assert (hin : forall p e i, number_of ns' p e = Some i -> (held_before ns' p <= i < held_before ns' (S p))%nat).
  { intros p e i h1. pose proof (number_is ns' k p e i hnum h1) as h2. unfold held_before at 2. rewrite seq_S, map_app, list_sum_app. cbn [Nat.add map list_sum fold_right]. fold (held_before ns' p).
    assert (g : (place_in_node ns' p e < held_numbers ns' p)%nat); [|lia].
    unfold place_in_node, held_numbers. destruct e; cbn [filter]; rewrite h1; repeat match goal with |- context [number_of ns' p ?x] => destruct (number_of ns' p x) end; cbn [length]; lia. }
  assert (hmono : forall p q, (p <= q)%nat -> (held_before ns' p <= held_before ns' q)%nat).
  { intros p q hpq. unfold held_before. replace q with (p + (q - p))%nat by lia. rewrite seq_app, map_app, list_sum_app. lia. }
  assert (hlt : forall p e i q f i', number_of ns' p e = Some i -> number_of ns' q f = Some i' -> (p < q)%nat -> (i < i')%nat).
  { intros p e i q f i' h1 h2 hpq. apply hin in h1. apply hin in h2. pose proof (hmono (S p) q hpq). lia. }
  intros p e i q f i' h1 h2. destruct (Nat.lt_trichotomy p q) as [g|[<-|g]].
  - pose proof (hlt _ _ _ _ _ _ h1 h2 g). intuition lia.
  - pose proof (number_is ns' k p e i hnum h1) as w1. pose proof (number_is ns' k p f i' hnum h2) as w2. unfold place_in_node in w1, w2.
    assert (g : (i < i')%nat <-> (direction_order e < direction_order f)%nat); [|intuition lia].
    destruct e, f; cbn [filter direction_order] in *; rewrite ?h1, ?h2 in *; repeat match goal with H : context [number_of ns' p ?x] |- _ => destruct (number_of ns' p x) end; cbn [length] in *; lia.
  - pose proof (hlt _ _ _ _ _ _ h2 h1 g). intuition lia.
Qed.
Print Assumptions C135_order.

Lemma one_segment h n depth d r j c mesh : (1 <= r)%nat -> 1 / 1000000000 < d / INR r -> segments [(n, depth)] -> joins h [(n, depth)] d r j c mesh ->
  jn_rail_nodes j = seq 0 (n * r) /\ jn_sleepers j = seq (n * r) n.
Proof.
  intros hr hd [hs _] [ts [els [ht hj]]]. rewrite (create_tracks_spec r d hr hd h 0 [(n, depth)] hs) in ht. injection ht as <-.
  cbn [tracks_of combine_horizontal_tracks map List.tl List.hd move_meshes rbind join_tracks] in hj. injection hj as <- _ _ _. split; reflexivity.
Qed.
Lemma before_S ns p : held_before ns (S p) = (held_before ns p + held_numbers ns p)%nat.
Proof. unfold held_before. rewrite seq_S, map_app, list_sum_app. cbn [Nat.add map list_sum fold_right]. lia. Qed.

(** Which number has which direction, for a track of one segment: the nodes of the rail come first, from left to right, then the sleepers *)
Theorem C135_columns h n depth d r j c mesh rail pad sleeper soil ls cs da s ns' k :
  (1 <= r)%nat -> 1 / 1000000000 < d / INR r -> segments [(n, depth)] -> joins h [(n, depth)] d r j c mesh ->
  good_rail rail -> good_rod pad -> good_rod soil -> script_constraints j c cs ->
  initialise_system (joined_mesh c mesh) (joined_parts j rail pad sleeper [soil]) ls cs da = Ok (s, ns', k) ->
  above_tolerance (d / INR r) rail -> 1 / 100000000 < fst (fst pad) -> 1 / 100000000 < sleeper ->
  let N := (n * r)%nat in
  (forall i, (i < N - 1)%nat -> number_of ns' (nth i (jn_rail_nodes j) 0%nat) DY = Some (3 * i)%nat /\ number_of ns' (nth i (jn_rail_nodes j) 0%nat) DR = Some (3 * i + 1)%nat) /\
  (forall i, (0 < i < N - 1)%nat -> number_of ns' (nth i (jn_rail_nodes j) 0%nat) DX = Some (3 * i - 1)%nat) /\
  number_of ns' (last (jn_rail_nodes j) 0%nat) DY = Some (3 * N - 4)%nat /\ number_of ns' (last (jn_rail_nodes j) 0%nat) DR = Some (3 * N - 3)%nat /\
  (forall i, (i < n)%nat -> number_of ns' (nth i (jn_sleepers j) 0%nat) DY = Some (3 * N - 2 + i)%nat).
Proof.
  intros hr hd hsp hj hrail hpad hsoil hcs hi t5 t6 t7 N.
  assert (hfree : forall p e, number_of ns' p e <> None <-> free_to_move j p e).
  { exact (C135_directions h [(n, depth)] d r j c mesh rail pad sleeper [soil] ls cs da s ns' k hr hd hsp hj hrail hpad (Forall_cons soil hsoil (Forall_nil _)) eq_refl hcs hi t5 t6 t7). }
  destruct (one_segment h n depth d r j c mesh hr hd hsp hj) as [e1 e2]. fold N in e1, e2.
  assert (hnum : numbered ns' k).
  { destruct (initialise_inv _ _ _ _ _ _ _ _ hi) as [s0 [_ [e0 _]]]. destruct (initialise_kept _ _ _ _ _ _ _ _ _ hi e0) as [_ [hn _]]. exact hn. }
  assert (hN : (2 <= N)%nat). { destruct (joined_line h _ d r j c mesh hr hd hsp hj) as [_ [_ hline]]. pose proof (ln_long _ _ _ _ hline) as g. rewrite e1, seq_length in g. exact g. }
  assert (hhd : List.hd 0%nat (jn_rail_nodes j) = 0%nat) by (rewrite e1; destruct N; reflexivity).
  assert (hla : last (jn_rail_nodes j) 0%nat = (N - 1)%nat) by (rewrite e1; replace N with (S (N - 1)) at 1 by lia; rewrite seq_S, last_last; lia).
  assert (hr1 : forall p, In p (jn_rail_nodes j) <-> (p < N)%nat) by (intros p; rewrite e1, in_seq; lia).
  assert (hs1 : forall p, In p (jn_sleepers j) <-> (N <= p < N + n)%nat) by (intros p; rewrite e2, in_seq; lia).
  assert (h0 : held_numbers ns' 0 = 2%nat). { rewrite (held_rail ns' j) by (try (intros e; apply hfree); rewrite ?hr1, ?hs1; lia). rewrite hhd. reflexivity. }
  assert (hm : forall p, (0 < p < N - 1)%nat -> held_numbers ns' p = 3%nat).
  { intros p hp. rewrite (held_rail ns' j) by (try (intros e; apply hfree); rewrite ?hr1, ?hs1; lia). rewrite hhd, hla. destruct (Nat.eqb_spec p 0); [lia|]. destruct (Nat.eqb_spec p (N - 1)); [lia|reflexivity]. }
  assert (he : held_numbers ns' (N - 1) = 2%nat). { rewrite (held_rail ns' j) by (try (intros e; apply hfree); rewrite ?hr1, ?hs1; lia). rewrite hla, Nat.eqb_refl, orb_true_r. reflexivity. }
  assert (hs : forall p, (N <= p < N + n)%nat -> held_numbers ns' p = 1%nat).
  { intros p hp. eapply held_sleeper; [intros e; apply hfree| |]; rewrite ?hr1, ?hs1; lia. }
  assert (b1 : forall p, (0 < p <= N - 1)%nat -> held_before ns' p = (3 * p - 1)%nat).
  { induction p as [|p IH]; intros hp; [lia|]. rewrite before_S. destruct p as [|p]; [rewrite h0; reflexivity|]. rewrite IH, hm by lia. lia. }
  assert (b2 : forall i, (i <= n)%nat -> held_before ns' (N + i) = (3 * N - 2 + i)%nat).
  { induction i as [|i IH]; intros hin.
    - rewrite Nat.add_0_r. replace N with (S (N - 1)) at 1 by lia. rewrite before_S, he, b1 by lia. lia.
    - rewrite Nat.add_succ_r, before_S, IH, hs by lia. lia. }
  assert (hval : forall p e, free_to_move j p e -> number_of ns' p e = Some (held_before ns' p + place_in_node ns' p e)%nat).
  { intros p e hf. apply hfree in hf. destruct (number_of ns' p e) as [i|] eqn:ei; [|congruence]. f_equal. eapply number_is; eassumption. }
  assert (hx : forall p, (0 < p < N - 1)%nat -> free_to_move j p DX) by (intros p hp; left; rewrite hr1, hhd, hla; split; [lia|intros _; lia]).
  assert (hno : forall p, ~ free_to_move j p DX -> number_of ns' p DX = None) by (intros p hp; destruct (number_of ns' p DX) eqn:en; [exfalso; apply hp; apply hfree; congruence|reflexivity]).
  assert (hn0 : number_of ns' 0 DX = None) by (apply hno; intros [[_ g]|[_ g]]; [destruct (g eq_refl); congruence|discriminate]).
  assert (hnl : number_of ns' (N - 1) DX = None) by (apply hno; intros [[_ g]|[_ g]]; [destruct (g eq_refl); congruence|discriminate]).
  assert (hyr : forall p e, (p < N)%nat -> e <> DX -> free_to_move j p e) by (intros p e hp hne; left; rewrite hr1; split; [exact hp|congruence]).
  assert (hi1 : forall i, (i < N)%nat -> nth i (jn_rail_nodes j) 0%nat = i) by (intros i hlt; rewrite e1, seq_nth by exact hlt; reflexivity).
  split; [|split; [|split; [|split]]].
  - intros i hlt. rewrite hi1 by lia. rewrite !hval by (apply hyr; [lia|discriminate]). unfold place_in_node. cbn [filter].
    assert (hy : number_of ns' i DY <> None) by (apply hfree; apply hyr; [lia|discriminate]). destruct (number_of ns' i DY); [|congruence].
    destruct i as [|i]; [rewrite hn0; cbn; split; reflexivity|].
    assert (hxx : number_of ns' (S i) DX <> None) by (apply hfree; apply hx; lia). destruct (number_of ns' (S i) DX); [|congruence]. rewrite b1 by lia. cbn [length]. split; f_equal; lia.
  - intros i hlt. rewrite hi1 by lia. rewrite hval by (apply hx; lia). unfold place_in_node. cbn [filter length]. rewrite b1 by lia. f_equal. lia.
  - rewrite hla, hval by (apply hyr; [lia|discriminate]). unfold place_in_node. cbn [filter]. rewrite hnl, b1 by lia. cbn [length]. f_equal. lia.
  - rewrite hla, hval by (apply hyr; [lia|discriminate]). unfold place_in_node. cbn [filter].
    assert (hy : number_of ns' (N - 1) DY <> None) by (apply hfree; apply hyr; [lia|discriminate]). destruct (number_of ns' (N - 1) DY); [|congruence]. rewrite hnl, b1 by lia. cbn [length]. f_equal. lia.
  - intros i hlt. rewrite e2, seq_nth by exact hlt. assert (hf : free_to_move j (N + i) DY) by (right; rewrite hs1; split; [lia|reflexivity]). rewrite hval by exact hf. unfold place_in_node. cbn [filter].
    assert (hq : number_of ns' (N + i) DX = None) by (apply hno; intros [[g _]|[_ g]]; [apply hr1 in g; lia|discriminate]). rewrite hq, b2 by lia. cbn [length]. f_equal. lia.
Qed.
Print Assumptions C135_columns.

(** ** cases *)

(** three segments of six sleepers on three soils, two rail elements from sleeper to sleeper *)
Example C135_case h : exists j c mesh cs, joins h case_specs (6 / 10) 2 j c mesh /\ script_constraints j c cs /\
  exists s ns' k, initialise_system (joined_mesh c mesh) (joined_parts j case_rail case_pad 140 case_soils) [] cs (mkDamping true (1 / 50) 2 300) = Ok (s, ns', k) /\
    above_tolerance (6 / 10 / INR 2) case_rail /\ k = 46%nat.
Proof.
  destruct case_values as [h1 [h2 [h3 [h4 [h5 [h6 [h7 _]]]]]]].
  destruct (C126_well_posed h case_specs (6 / 10) 2 case_rail case_pad 140 case_soils [] (mkDamping true (1 / 50) 2 300) ltac:(lia) h5 h4 h1 h2 ltac:(lra) h3 eq_refl) as [j [c [mesh [cs [g1 [g2 g3]]]]]].
  { intros _. cbn. lra. }
  destruct g3 as [s [ns' [k [hi _]]]]; [intros l i []|]. exists j, c, mesh, cs. split; [exact g1|]. split; [exact g2|]. exists s, ns', k. split; [exact hi|].
  assert (ha : above_tolerance (6 / 10 / INR 2) case_rail).
  { split; [|split; [|split; [exact h6|split; [exact h7|]]]]; replace (INR 2) with 2 by (cbn; lra); cbn [case_rail b_E b_A b_I b_rho]; lra. }
  split; [exact ha|].
  exact (C135_count h case_specs (6 / 10) 2 j c mesh case_rail case_pad 140 case_soils [] cs _ s ns' k ltac:(lia) h5 h4 g1 h1 h2 h3 eq_refl g2 hi ha ltac:(cbn; lra) ltac:(lra)).
Qed.

(** The track and train of run_rose/run_optimisation.py 19-68: 798 directions of the track come before the ten of the train, so that the
    number 807 whose displacement is fitted (line 340) is that of the last wheel of the last bogie *)
Definition optimisation_rail : beam R := mkBeam 210000000000 0 7860 (696 / 1000) (224 / 10000000) 0 0 None None.
Definition optimisation_train : train_dict R :=
  mkTrainDict [-125 / 100; 125 / 100] 2 [-10; 10] 28 [2655 / 100 + 14] 3500 6000 75500 310 128800 4800000 2708000 250 64000.
Theorem C135_optimisation h soil da : good_rod soil -> (da_on da = true -> 0 <= da_ratio da /\ 0 < da_one da /\ 0 < da_two da) ->
  exists j c mesh cs s ns' k, joins h [(200%nat, 1)] (6 / 10) 1 j c mesh /\ script_constraints j c cs /\
    initialise_system (joined_mesh c mesh) (joined_parts j optimisation_rail case_pad 140 [soil]) [] cs da = Ok (s, ns', k) /\
    let '(_, st, total) := initialise_train_ndof (gn_train (dict_train optimisation_train)) in
    (k + total = 808)%nat /\ exists b, dof_of 1 st = Some b /\ length (bd_wheels b) = 2%nat /\ (k + nth 1 (bd_wheels b) 0 = 807)%nat.
Proof.
  intros hsoil hda.
  assert (h1 : good_rail optimisation_rail) by (unfold good_rail, fixed_ends; cbn; repeat split; lra).
  assert (h2 : good_rod case_pad) by (unfold good_rod, opt_nonneg; cbn; repeat split; lra).
  assert (h3 : Forall good_rod [soil]) by (apply Forall_cons; [exact hsoil|apply Forall_nil]).
  assert (h4 : segments [(200%nat, 1)]) by (split; [intros n depth [e|[]]; injection e as <- <-; split; lia || lra|cbn; lia]).
  assert (h5 : 1 / 1000000000 < 6 / 10 / INR 1) by (cbn; lra).
  destruct (C126_well_posed h [(200%nat, 1)] (6 / 10) 1 optimisation_rail case_pad 140 [soil] [] da ltac:(lia) h5 h4 h1 h2 ltac:(lra) h3 eq_refl hda) as [j [c [mesh [cs [g1 [g2 g3]]]]]].
  destruct g3 as [s [ns' [k [hi _]]]]; [intros l i []|]. exists j, c, mesh, cs, s, ns', k. split; [exact g1|]. split; [exact g2|]. split; [exact hi|].
  assert (ha : above_tolerance (6 / 10 / INR 1) optimisation_rail).
  { unfold above_tolerance, shear_ratio. replace (INR 1) with 1 by reflexivity. cbn [optimisation_rail b_E b_A b_I b_rho b_shear_factor]. destruct (Rlt_dec 0 0); repeat split; lra. }
  assert (hk : k = 798%nat) by exact (C135_count h [(200%nat, 1)] (6 / 10) 1 j c mesh optimisation_rail case_pad 140 [soil] [] cs da s ns' k ltac:(lia) h5 h4 g1 h1 h2 h3 eq_refl g2 hi ha ltac:(cbn; lra) ltac:(lra)).
  clear - hk. cbn -[Nat.add]. split; [subst k; reflexivity|]. eexists. split; [reflexivity|]. split; [reflexivity|]. subst k. reflexivity.
Qed.
Print Assumptions C135_optimisation.
