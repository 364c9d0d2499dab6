(** * Proofs about settlement accumulation: periods and continued calculations *)

From Coq Require Import Reals List Bool ZArith Arith Lia Lra Psatz.
From Verif Require Import Num PyBase Model_Element Model_Moving Model_Coupled Model_Accumulation Spec_Accumulation
  Proofs_System Proofs_Moving Proofs_Coupled Proofs_Accumulation Proofs_Classes Proofs_Settle Proofs_LiSelig.
Import ListNotations.
Local Open Scope R_scope.

Ltac okinj h := match type of h with Ok ?x = Ok ?y => assert (y = x) by congruence; clear h; subst y end.

(** ** adding a previous settlement *)

Lemma add_column_row (disp : list (list R)) prev out i : add_column disp prev = Ok out -> (i < length disp)%nat -> (i < length prev)%nat ->
  (i < length out)%nat /\ nth i out [] = map (fun x => x + nth i prev 0) (nth i disp []).
Proof.
  unfold add_column. intros h h1 h2. destruct (Nat.eqb_spec (length disp) (length prev)) as [e|e].
  - okinj h. rewrite map_length, combine_length. split; [lia|].
    rewrite (nth_map_d _ _ _ ([], 0)) by (rewrite combine_length; lia). rewrite combine_nth by exact e. reflexivity.
  - destruct disp as [|r0 [|r1 disp]]; [cbn in h1; lia| |].
    + destruct prev as [|p0 [|p1 prev]]; [cbn in h2; lia|cbn in e; lia|]. okinj h. rewrite map_length. split; [exact h2|].
      rewrite (nth_map_d _ _ _ 0) by exact h2. cbn [length] in h1. replace i with 0%nat by lia. reflexivity.
    + destruct prev as [|p0 [|p1 prev]]; [cbn in h2; lia| |discriminate]. okinj h. rewrite map_length. split; [exact h1|]. cbn [length] in h2. replace i with 0%nat by lia. reflexivity.
Qed.
Lemma add_column_rows (disp : list (list R)) prev out : add_column disp prev = Ok out ->
  length disp = length prev \/ (length prev = 1%nat /\ length out = length disp) \/ (length disp = 1%nat /\ length out = length prev).
Proof.
  unfold add_column. intros h. destruct (Nat.eqb_spec (length disp) (length prev)) as [e|e]; [auto|]. right.
  destruct disp as [|r0 [|r1 disp]].
  - destruct prev as [|p0 [|p1 prev]]; try discriminate. okinj h. left. split; reflexivity.
  - destruct prev as [|p0 [|p1 prev]]; try (cbn in e; lia); okinj h; right; rewrite map_length; auto.
  - destruct prev as [|p0 [|p1 prev]]; try discriminate. okinj h. left. rewrite map_length. auto.
Qed.
Lemma last_default {A} (l : list A) a b : l <> [] -> last l a = last l b.
Proof. intros h. rewrite (nth_last l a a h), (nth_last l a b h). reflexivity. Qed.
Lemma last_column_nth (disp : list (list R)) prev i : last_column disp = Ok prev -> (i < length disp)%nat ->
  (i < length prev)%nat /\ nth i disp [] <> [] /\ nth i prev 0 = last (nth i disp []) 0.
Proof.
  intros h hi. pose proof (mapr_length _ _ _ h) as hl. pose proof (mapr_nth _ _ _ i [] 0 h hi) as h1. cbv beta in h1. split; [lia|].
  destruct (nth i disp []) as [|x r] eqn:e; [discriminate|]. split; [discriminate|]. assert (e2 : nth i prev 0 = last (x :: r) x) by congruence. rewrite e2. apply last_default. discriminate.
Qed.

(** ** one calculation with one of the two laws *)

Definition engine_disp (e : engine R) : option (list (list R)) :=
  match e with EVarandas _ st => option_map vs_disp st | ELiSelig _ st => option_map ls_disp st end.
Definition engine_sound (e : engine R) : Prop :=
  match e with EVarandas v st => sound_varandas v /\ match st with None => True | Some s => forall l, In l (vs_load s) -> 0 <= fst l end | ELiSelig _ _ => True end.

(** force peaks (kN) of the trains at a node *)
Definition node_peaks (tf : traffic R) (node : nat) (forces : list R) : Prop :=
  length forces = length (tf_forces tf) /\
  forall t, (t < length forces)%nat -> (node < length (nth t (tf_forces tf) []))%nat /\
    exists p, is_peak (nth node (nth t (tf_forces tf) []) []) p /\ nth t forces 0 = p / 1000.

(** the settlements of a period, before those of earlier periods are added *)
Inductive raw_rows (tf : traffic R) (nodes : list nat) (raw : list (list R)) : engine R -> engine R -> Prop :=
| raw_varandas v st st' start : length start = length nodes ->
    (forall i, (i < length nodes)%nat -> exists forces,
       node_peaks tf (nth i nodes 0%nat) forces /\
       varandas_node v tf forces (nth i start (0, [])) = Ok (nth i raw [], nth i (vs_load st') (0, []))) ->
    length (vs_load st') = length nodes ->
    (start = map (fun _ => (0, repeat 0 (length (tf_cycles tf)))) nodes \/ exists s, st = Some s /\ start = vs_load s /\ forall l, In l start -> (length (tf_cycles tf) <= length (snd l))%nat) ->
    raw_rows tf nodes raw (EVarandas v st) (EVarandas v (Some st'))
| raw_liselig li st st' all : mapr (soil_layers (li_last li)) (li_soils li) = Ok all ->
    (forall i, (i < length nodes)%nat -> liselig_node li all tf (nth i nodes 0%nat) = Ok (nth i raw [])) ->
    raw_rows tf nodes raw (ELiSelig li st) (ELiSelig li (Some st')).

Lemma node_forces_spec tf peak node forces : mapr peaks (tf_forces tf) = Ok peak -> node_forces peak node = Ok forces -> node_peaks tf node forces.
Proof.
  intros h1 h2. pose proof (mapr_length _ _ _ h1) as l1. pose proof (mapr_length _ _ _ h2) as l2. split; [lia|].
  intros t ht. pose proof (mapr_nth _ _ _ t [] [] h1 ltac:(lia)) as p1. pose proof (mapr_nth _ _ _ t [] 0 h2 ltac:(lia)) as p2. cbv beta in p2. unbind p2.
  destruct (at_idx_nth _ _ _ 0 hv) as [a1 a2]. unfold peaks in p1. pose proof (mapr_length _ _ _ p1) as l3. split; [lia|].
  pose proof (mapr_nth _ _ _ node [] 0 p1 ltac:(lia)) as p3. cbv beta in p3. rewrite a2 in p3. exists v. split; [apply peak_spec; exact p3|]. match type of p2 with Ok ?x = Ok ?y => change (y = x); congruence end.
Qed.

Lemma engine_step e tf nb idx reload e' nodes disp : engine_settlement e tf nb idx reload = Ok (e', nodes, disp) ->
  nodes = chosen_nodes nb idx /\ engine_disp e' = Some disp /\
  exists raw, length raw = length nodes /\ raw_rows tf nodes raw e e' /\
    (if reload then exists d0 prev, engine_disp e = Some d0 /\ last_column d0 = Ok prev /\ add_column raw prev = Ok disp else disp = raw) /\
    (reload = false -> forall v st, e = EVarandas v st -> exists st', e' = EVarandas v (Some st') /\
       forall i, (i < length nodes)%nat -> exists forces, node_peaks tf (nth i nodes 0%nat) forces /\
         varandas_node v tf forces (0, repeat 0 (length (tf_cycles tf))) = Ok (nth i raw [], nth i (vs_load st') (0, []))) /\
    (reload = true -> forall v st, e = EVarandas v st -> exists s st', st = Some s /\ e' = EVarandas v (Some st') /\ length (vs_load s) = length nodes /\
       forall i, (i < length nodes)%nat -> exists forces, node_peaks tf (nth i nodes 0%nat) forces /\
         varandas_node v tf forces (nth i (vs_load s) (0, [])) = Ok (nth i raw [], nth i (vs_load st') (0, []))).
Proof.
  intros h. destruct e as [v st|li st]; cbn [engine_settlement] in h; unbind h; match type of h with Ok (?a, ?b, ?c) = _ => assert (e' = a /\ nodes = b /\ disp = c) as [-> [-> ->]] by (repeat split; congruence); clear h end.
  - unfold varandas_settlement in hv. unbind hv. unbind hv. unbind hv. unbind hv. unbind hv. unbind hv. okinj hv. cbn [vs_nodes vs_disp engine_disp option_map].
    split; [reflexivity|]. split; [reflexivity|]. set (nodes := chosen_nodes nb idx) in *.
    pose proof (mapr_length _ _ _ hv2) as hl2.
    assert (hl3 : length v4 = length nodes).
    { destruct reload, st as [s|]; try (okinj hv3; apply map_length).
      destruct (Nat.eqb_spec (length (vs_load s)) (length nodes)) as [e|e]; [|discriminate]. destruct (forallb _ _); [|discriminate]. cbn [andb] in hv3. okinj hv3. exact e. }
    pose proof (mapr_length _ _ _ hv4) as hl4. rewrite combine_length, hl2, hl3, Nat.min_id in hl4.
    assert (hrow : forall i, (i < length nodes)%nat -> node_peaks tf (nth i nodes 0%nat) (nth i v3 []) /\ varandas_node v tf (nth i v3 []) (nth i v4 (0, [])) = Ok (nth i (map fst v5) [], nth i (map snd v5) (0, []))).
    { intros i hi. split.
      - apply (node_forces_spec tf v2); [exact hv1|]. exact (mapr_nth _ _ _ i 0%nat [] hv2 hi).
      - pose proof (mapr_nth _ _ _ i ([], (0, [])) ([], (0, [])) hv4 ltac:(rewrite combine_length; lia)) as h1. cbv beta in h1. rewrite combine_nth in h1 by lia. cbn [fst snd] in h1.
        rewrite h1. rewrite !(nth_map_d _ _ _ ([], (0, []))) by lia. destruct (nth i v5 ([], (0, []))). reflexivity. }
    exists (map fst v5). split; [rewrite map_length; exact hl4|]. split; [|split; [|split]].
    + apply (raw_varandas tf nodes (map fst v5) v st _ v4).
      * exact hl3.
      * intros i hi. exists (nth i v3 []). apply hrow. exact hi.
      * cbn [vs_load]. rewrite map_length. exact hl4.
      * destruct reload, st as [s|]; try (okinj hv3; left; reflexivity). right. exists s. split; [reflexivity|].
        destruct (Nat.eqb_spec (length (vs_load s)) (length nodes)) as [e|e]; [|discriminate]. destruct (forallb _ _) eqn:ef; [|discriminate]. cbn [andb] in hv3. okinj hv3. split; [reflexivity|].
        intros l hl. rewrite forallb_forall in ef. specialize (ef l hl). apply Nat.leb_le in ef. exact ef.
    + destruct reload.
      * destruct st as [s|]; [|discriminate]. exists (vs_disp s), v1. split; [reflexivity|]. split; [exact hv0|exact hv5].
      * okinj hv5. reflexivity.
    + intros -> v' st0 e. assert (v' = v) by congruence. subst v'. eexists. split; [reflexivity|]. intros i hi. exists (nth i v3 []). destruct (hrow i hi) as [r1 r2]. split; [exact r1|].
      assert (hv4' : nth i v4 (0, []) = (0, repeat 0 (length (tf_cycles tf)))).
      { destruct st as [s|]; okinj hv3; rewrite (nth_map_d _ _ _ 0%nat) by exact hi; reflexivity. }
      rewrite <- hv4'. exact r2.
    + intros -> v' st0 e. assert (v' = v /\ st0 = st) as [-> ->] by (split; congruence). destruct st as [s|]; [|discriminate]. exists s. eexists. split; [reflexivity|]. split; [reflexivity|].
      destruct (Nat.eqb_spec (length (vs_load s)) (length nodes)) as [e'|e']; [|discriminate]. split; [exact e'|]. destruct (forallb _ _) eqn:ef; [|discriminate]. cbn [andb] in hv3. okinj hv3.
      intros i hi. exists (nth i v3 []). apply hrow. exact hi.
  - unfold liselig_settlement in hv. unbind hv. unbind hv. destruct (_ && _) eqn:eb in hv; [|discriminate]. unbind hv. unbind hv. okinj hv. cbn [ls_nodes ls_disp engine_disp option_map].
    split; [reflexivity|]. split; [reflexivity|]. set (nodes := chosen_nodes nb idx) in *. pose proof (mapr_length _ _ _ hv2) as hl. exists v2. split; [exact hl|]. split; [|split; [|split]].
    + apply (raw_liselig _ _ _ _ _ _ v1); [exact hv1|]. intros i hi. exact (mapr_nth _ _ _ i 0%nat [] hv2 hi).
    + destruct reload.
      * destruct st as [s|]; [|discriminate]. exists (ls_disp s), v0. split; [reflexivity|]. split; [exact hv0|exact hv3].
      * okinj hv3. reflexivity.
    + intros _ v st0 e. discriminate.
    + intros _ v st0 e. discriminate.
Qed.

(** lengths of the settlements of a period *)
Lemma liselig_node_length li all tf node row : liselig_node li all tf node = Ok row -> length row = length (tf_time tf) /\ row <> [] /\ nth 0 row 0 = 0.
Proof.
  intros h. unfold liselig_node in h. unbind h. unbind h. unbind h.
  match type of h with match ?t with _ => _ end = _ => set (total := t) in h end.
  assert (htot : length total = length (tf_time tf)) by (unfold total; rewrite map_length, seq_length; reflexivity).
  destruct total as [|d0 rest]; [discriminate|]. okinj h. split; [rewrite map_length; exact htot|]. split; [discriminate|]. cbn. rnum. lra.
Qed.
Lemma raw_length trains s e steps tf top N K nodes raw en en' i : reads trains s e steps tf top N K -> raw_rows tf nodes raw en en' -> (i < length nodes)%nat -> length (nth i raw []) = K.
Proof.
  intros hr h hi. inversion h as [v st st' start h1 h2 h3 h4 h5|li st st' all h1 h2 h3]; subst.
  - destruct (h2 i hi) as [forces [_ hn]]. destruct (varandas_node_spec _ _ _ _ _ _ _ _ _ _ _ _ hr hn) as [tp [_ [hl _]]]. exact hl.
  - destruct (liselig_node_length _ _ _ _ _ (h2 i hi)) as [hl _]. rewrite hl. eapply reads_time_length. exact hr.
Qed.

(** ** settlements of a period never decrease *)

Lemma node_peaks_top tf node forces top : node_peaks tf node forces -> max_of forces = Ok top -> 0 <= top.
Proof.
  intros [_ h] hm. apply max_of_ok in hm. destruct hm as [hm _]. destruct (In_nth _ _ 0 hm) as [t [ht e]]. destruct (h t ht) as [_ [p [[[f [_ hp]] _] e2]]].
  rewrite <- e, e2, <- hp. pose proof (Rabs_pos f). lra.
Qed.
Lemma varandas_settling trains s e steps tf top N K v node forces load out : reads trains s e steps tf top N K -> sound_varandas v -> node_peaks tf node forces -> 0 <= fst load ->
  varandas_node v tf forces load = Ok out -> settling (fst out) /\ 0 <= fst (snd out).
Proof.
  intros hr hs hp hl hn. destruct (varandas_node_spec _ _ _ _ _ _ _ _ _ _ _ _ hr hn) as [tp [h1 [h2 [h3 h4]]]]. pose proof (node_peaks_top _ _ _ _ hp h1) as htp.
  pose proof (cycle_nonneg v tp hs htp) as hc. pose proof (history_monotone v (linspace_nat 0 tp 100) (tf_cycles tf) forces hc (tf_count tf) (fst load) (snd load) 0 hl) as [m1 m2].
  rewrite (reads_count_length _ _ _ _ _ _ _ _ hr) in m1, m2. pose proof (rd_KN _ _ _ _ _ _ _ _ hr) as hKN. fold (node_history v tf forces tp load) in m1, m2.
  split; [split|].
  - rewrite h2. intros i hi. rewrite h3 by exact hi. pose proof (stored_bounds N K i ltac:(lia) hi) as hb. specialize (m1 (Z.to_nat (nth i (stored N K) 0%Z)) ltac:(lia)). lra.
  - rewrite h2. intros i j hij. rewrite !h3 by lia. pose proof (stored_bounds N K i ltac:(lia) ltac:(lia)) as hb. pose proof (stored_bounds N K j ltac:(lia) ltac:(lia)) as hb2.
    assert (Z.to_nat (nth i (stored N K) 0%Z) <= Z.to_nat (nth j (stored N K) 0%Z) < N)%nat.
    { destruct (Nat.eq_dec i j) as [->|hne]; [lia|]. pose proof (stored_step N K i j). lia. }
    specialize (m2 _ _ H). lra.
  - rewrite h4. apply (final_load_nonneg v (linspace_nat 0 tp 100) (tf_cycles tf) forces hc). exact hl.
Qed.

Lemma sum_nonneg_map {A} (f : A -> R) l : (forall a, In a l -> 0 <= f a) -> 0 <= nsum (map f l).
Proof. intros h. apply nsum_nonneg. apply Forall_forall. intros x hx. apply in_map_iff in hx. destruct hx as [a [<- ha]]. auto. Qed.

Lemma liselig_settling trains s e steps tf top N K li all node row : reads trains s e steps tf top N K -> sound_soils li ->
  (forall t, In t trains -> 0 <= per_day t /\ 1 <= per_day t * (e - s)) ->
  mapr (soil_layers (li_last li)) (li_soils li) = Ok all -> liselig_node li all tf node = Ok row -> settling row.
Proof.
  intros hr [ht hs] hl hall hn. pose proof (rd_cycles _ _ _ _ _ _ _ _ hr) as hcyc. pose proof (rd_day _ _ _ _ _ _ _ _ hr) as hday.
  assert (hb : 0 <= before_of li tf).
  { unfold before_of. apply Rmult_le_pos; [|exact ht]. apply Rmult_le_pos; [|lra]. rewrite hday. apply sum_nonneg_map. intros t htr. apply hl. exact htr. }
  assert (hc : forall c, In c (tf_cycles tf) -> 1 <= c). { intros c hin. rewrite hcyc in hin. apply in_map_iff in hin. destruct hin as [t [<- htr]]. apply hl. exact htr. }
  destruct (liselig_node_spec li all tf node row hn) as [id_s [layers [n1 [n2 [hK [hlen hspec]]]]]].
  - rewrite (rd_forces _ _ _ _ _ _ _ _ hr), hcyc, !map_length. reflexivity.
  - exact hb.
  - intros c hin. specialize (hc c hin). lra.
  - cbv zeta in *. set (K' := length (tf_time tf)) in *.
    assert (hlay : exists sl, In sl (li_soils li) /\ soil_layers (li_last li) sl = Ok layers).
    { destruct (nth_err_inv _ _ layers _ n2) as [i1 i2]. pose proof (mapr_length _ _ _ hall) as hla.
      exists (nth id_s (li_soils li) {| so_names := []; so_gamma := []; so_phi := []; so_cohesion := []; so_top := [] |}). split; [apply nth_In; lia|].
      rewrite (mapr_nth _ _ _ id_s {| so_names := []; so_gamma := []; so_phi := []; so_cohesion := []; so_top := [] |} layers hall) by lia. rewrite i2. reflexivity. }
    destruct hlay as [sl [s1 s2]]. destruct (hs sl s1) as [s3 s4]. destruct (soil_layers_spec _ _ _ s3 s2) as [l1 l2].
    destruct hspec as [devs [d1 [d2 d3]]]; [intros i hi; apply (s4 i); [lia|apply l2; exact hi]|].
    assert (hly : forall ly, In ly layers -> 0 <= ly_a ly /\ 0 <= ly_b ly /\ 0 <= ly_thickness ly).
    { intros ly hin. destruct (In_nth _ _ layer0 hin) as [i [hi <-]]. destruct (l2 i hi) as [c1 [c2 [c3 _]]]. apply soil_class_sound in c1. split; [apply c1|]. split; [apply c1|]. rewrite c2. apply Rabs_pos. }
    assert (hmono : forall i j, (i <= j < K')%nat -> nth i row 0 <= nth j row 0).
    { intros i j hij. rewrite !d3 by lia. apply Rplus_le_compat_r. apply node_law_monotone; rewrite ?map_length; try lia; [exact hly|].
      intros t ht'. rewrite !(nth_map0 _ _ _ 0) by exact ht'. specialize (hc (nth t (tf_cycles tf) 0) (nth_In _ _ ht')). split; [apply loads_at_pos; lia || lra|apply loads_at_monotone; lia || lra]. }
    assert (h0 : nth 0 row 0 = 0) by (apply (liselig_node_length _ _ _ _ _ hn)).
    split; rewrite hlen; [|exact hmono]. intros i hi. apply Rle_trans with (nth 0 row 0); [lra|apply hmono; lia].
Qed.

(** ** one period *)

Lemma stage_step a s a' : do_stage a s = Ok a' -> exists tf nb top N K e' nodes disp r,
  reads (sg_trains s) (sg_start s) (sg_end s) (ac_steps a) tf top N K /\
  (forall t, In t (sg_trains s) -> length (tt_forces t) = nb) /\
  engine_settlement (ac_engine a) tf nb (sg_idx s) (sg_reload s) = Ok (e', nodes, disp) /\
  create_results (ac_results a) (tf_time tf) nodes disp (sg_reload s) = Ok r /\
  a' = {| ac_engine := e'; ac_steps := ac_steps a; ac_traffic := Some (tf, nb); ac_results := Some r |}.
Proof.
  intros h. unfold do_stage in h. unbind h. unfold set_traffic in hv. unbind hv. okinj hv. destruct v0 as [tf nb]. unfold read_traffic in hv0.
  destruct (map _ (sg_trains s)) as [|n rest] eqn:em; [discriminate|]. destruct (forallb (Nat.eqb n) rest) eqn:ef; [|discriminate]. unbind hv0.
  assert (v = tf /\ n = nb) as [-> ->] by (split; congruence). destruct (read_info_ok _ _ _ _ _ hv) as [top [N [K hr]]].
  unfold calculate_settlement in h. cbn [ac_traffic ac_engine ac_results ac_steps] in h. unbind h. destruct v as [[e' nodes] disp]. unbind h. okinj h.
  exists tf, nb, top, N, K, e', nodes, disp, v. split; [exact hr|]. split; [|split; [exact hv1|split; [exact hv2|reflexivity]]].
  intros t ht. apply (in_map (fun t => length (tt_forces t))) in ht. rewrite em in ht. destruct ht as [ht|ht]; [symmetry; exact ht|].
  rewrite forallb_forall in ef. specialize (ef _ ht). apply Nat.eqb_eq in ef. symmetry. exact ef.
Qed.
Lemma results_fresh (prev : option (results R)) time nodes disp r : create_results prev time nodes disp false = Ok r ->
  rs_nodes r = nodes /\ rs_time r = time /\ length (rs_disp r) = length nodes /\ forall i, (i < length nodes)%nat -> (i < length disp)%nat /\ nth i (rs_disp r) [] = nth i disp [].
Proof.
  intros h. unfold create_results in h. unbind h. okinj h. cbn [rs_nodes rs_time rs_disp]. pose proof (mapr_length _ _ _ hv) as hl. rewrite seq_length in hl.
  split; [reflexivity|]. split; [reflexivity|]. split; [exact hl|]. intros i hi. pose proof (mapr_nth _ _ _ i 0%nat [] hv ltac:(rewrite seq_length; exact hi)) as h1.
  rewrite seq_nth in h1 by exact hi. destruct (at_idx_nth _ _ _ [] h1) as [a1 a2]. split; [exact a1|]. symmetry. exact a2.
Qed.
Lemma results_continued (prev : option (results R)) time nodes disp r : create_results prev time nodes disp true = Ok r ->
  exists p, prev = Some p /\ rs_nodes r = nodes /\ rs_time r = rs_time p ++ time /\ length (rs_disp r) = length nodes /\
  forall i, (i < length nodes)%nat -> (i < length (rs_disp p))%nat /\ (i < length disp)%nat /\ nth i (rs_disp r) [] = nth i (rs_disp p) [] ++ nth i disp [].
Proof.
  intros h. unfold create_results in h. destruct prev as [p|]; [|discriminate]. exists p. split; [reflexivity|]. unbind h. okinj h. cbn [rs_nodes rs_time rs_disp].
  pose proof (mapr_length _ _ _ hv) as hl. rewrite seq_length in hl. split; [reflexivity|]. split; [reflexivity|]. split; [exact hl|]. intros i hi.
  pose proof (mapr_nth _ _ _ i 0%nat [] hv ltac:(rewrite seq_length; exact hi)) as h1. cbv beta in h1. rewrite seq_nth in h1 by exact hi. cbn [Nat.add] in h1. unbind h1. unbind h1.
  destruct (at_idx_nth _ _ _ [] hv0) as [a1 a2]. destruct (at_idx_nth _ _ _ [] hv1) as [b1 b2]. split; [exact a1|]. split; [exact b1|]. rewrite a2, b2. congruence.
Qed.

(** ** the results and the state of the law belong together *)

Definition linked (a : accumulation R) : Prop :=
  match ac_results a with
  | None => True
  | Some r =>
      length (rs_disp r) = length (rs_nodes r) /\
      (forall i, (i < length (rs_disp r))%nat -> length (nth i (rs_disp r) []) = length (rs_time r)) /\
      exists d, engine_disp (ac_engine a) = Some d /\
        forall i, (i < length (rs_disp r))%nat -> (i < length d)%nat /\ (nth i d [] <> [] -> nth i (rs_disp r) [] <> [] /\ last (nth i d []) 0 = last (nth i (rs_disp r) []) 0)
  end.

(** the new part of a continued calculation *)
Lemma continued_rows a s a' : linked a -> do_stage a s = Ok a' -> sg_reload s = true ->
  exists r r' tf top N K nodes raw, ac_results a = Some r /\ ac_results a' = Some r' /\
    reads (sg_trains s) (sg_start s) (sg_end s) (ac_steps a) tf top N K /\
    raw_rows tf nodes raw (ac_engine a) (ac_engine a') /\ rs_nodes r' = nodes /\ rs_time r' = rs_time r ++ tf_time tf /\
    length (rs_disp r') = length nodes /\ length raw = length nodes /\
    forall i, (i < length nodes)%nat -> (i < length (rs_disp r))%nat /\ length (nth i raw []) = K /\ nth i (rs_disp r) [] <> [] /\
      nth i (rs_disp r') [] = nth i (rs_disp r) [] ++ map (fun x => x + last (nth i (rs_disp r) []) 0) (nth i raw []).
Proof.
  intros hl h hre. destruct (stage_step _ _ _ h) as [tf [nb [top [N [K [e' [nodes [disp [r' [h1 [h2 [h3 [h4 h5]]]]]]]]]]]]]. rewrite hre in *.
  destruct (results_continued _ _ _ _ _ h4) as [r [q1 [q2 [q3 [q4 q5]]]]]. destruct (engine_step _ _ _ _ _ _ _ _ h3) as [e1 [e2 [raw [e3 [e4 [[d0 [prev [e5 [e6 e7]]]] _]]]]]].
  exists r, r', tf, top, N, K, nodes, raw. subst a'. cbn [ac_results ac_engine]. split; [exact q1|]. split; [reflexivity|]. split; [exact h1|]. split; [exact e4|]. split; [exact q2|]. split; [exact q3|].
  split; [exact q4|]. split; [exact e3|]. intros i hi. destruct (q5 i hi) as [p1 [p2 p3]]. split; [exact p1|]. split; [eapply raw_length; eassumption|].
  unfold linked in hl. rewrite q1 in hl. destruct hl as [l1 [l2 [d [l3 l4]]]]. assert (d = d0) by congruence. subst d. destruct (l4 i p1) as [m1 m2].
  destruct (last_column_nth _ _ i e6 m1) as [n1 [n2 n3]]. destruct (m2 n2) as [m3 m4]. split; [exact m3|].
  destruct (add_column_row _ _ _ i e7) as [o1 o2]; [lia|exact n1|]. rewrite p3, o2. f_equal. apply map_ext. intros x. rewrite n3, m4. reflexivity.
Qed.
Lemma varandas_continued a v st s a' : linked a -> ac_engine a = EVarandas v st -> do_stage a s = Ok a' -> sg_reload s = true ->
  exists r r' tf top N K raw s0 st', ac_results a = Some r /\ ac_results a' = Some r' /\
    reads (sg_trains s) (sg_start s) (sg_end s) (ac_steps a) tf top N K /\ rs_time r' = rs_time r ++ tf_time tf /\
    st = Some s0 /\ ac_engine a' = EVarandas v (Some st') /\ length (vs_load s0) = length (rs_nodes r') /\ length (rs_disp r') = length (rs_nodes r') /\
    forall i, (i < length (rs_nodes r'))%nat -> (i < length (rs_disp r))%nat /\ length (nth i raw []) = K /\ nth i (rs_disp r) [] <> [] /\
      nth i (rs_disp r') [] = nth i (rs_disp r) [] ++ map (fun x => x + last (nth i (rs_disp r) []) 0) (nth i raw []) /\
      exists forces, node_peaks tf (nth i (rs_nodes r') 0%nat) forces /\
        varandas_node v tf forces (nth i (vs_load s0) (0, [])) = Ok (nth i raw [], nth i (vs_load st') (0, [])).
Proof.
  intros hl he h hre. destruct (stage_step _ _ _ h) as [tf [nb [top [N [K [e' [nodes [disp [r' [h1 [h2 [h3 [h4 h5]]]]]]]]]]]]]. rewrite hre in *.
  destruct (results_continued _ _ _ _ _ h4) as [r [q1 [q2 [q3 [q4 q5]]]]]. destruct (engine_step _ _ _ _ _ _ _ _ h3) as [e1 [e2 [raw [e3 [e4 [[d0 [prev [e5 [e6 e7]]]] [_ e8]]]]]]].
  destruct (e8 eq_refl v st he) as [s0 [st' [k1 [k2 [k3 k4]]]]].
  exists r, r', tf, top, N, K, raw, s0, st'. subst a'. cbn [ac_results ac_engine]. rewrite q2. split; [exact q1|]. split; [reflexivity|]. split; [exact h1|]. split; [exact q3|]. split; [exact k1|]. split; [exact k2|]. split; [exact k3|].
  split; [exact q4|]. intros i hi. destruct (q5 i hi) as [p1 [p2 p3]]. split; [exact p1|]. split; [eapply raw_length; eassumption|].
  unfold linked in hl. rewrite q1 in hl. destruct hl as [l1 [l2 [d [l3 l4]]]]. assert (d = d0) by congruence. subst d. destruct (l4 i p1) as [m1 m2].
  destruct (last_column_nth _ _ i e6 m1) as [n1 [n2 n3]]. destruct (m2 n2) as [m3 m4]. split; [exact m3|].
  destruct (add_column_row _ _ _ i e7) as [o1 o2]; [lia|exact n1|]. split; [rewrite p3, o2; f_equal; apply map_ext; intros x; rewrite n3, m4; reflexivity|]. apply k4. exact hi.
Qed.
Lemma fresh_rows a s a' : do_stage a s = Ok a' -> sg_reload s = false ->
  exists r' tf top N K nodes raw, ac_results a' = Some r' /\
    reads (sg_trains s) (sg_start s) (sg_end s) (ac_steps a) tf top N K /\
    raw_rows tf nodes raw (ac_engine a) (ac_engine a') /\ rs_nodes r' = nodes /\ rs_time r' = tf_time tf /\
    length (rs_disp r') = length nodes /\ length raw = length nodes /\
    (forall i, (i < length nodes)%nat -> length (nth i raw []) = K /\ nth i (rs_disp r') [] = nth i raw []) /\
    (forall v st, ac_engine a = EVarandas v st -> exists st', ac_engine a' = EVarandas v (Some st') /\
       forall i, (i < length nodes)%nat -> exists forces, node_peaks tf (nth i nodes 0%nat) forces /\
         varandas_node v tf forces (0, repeat 0 (length (tf_cycles tf))) = Ok (nth i raw [], nth i (vs_load st') (0, []))).
Proof.
  intros h hre. destruct (stage_step _ _ _ h) as [tf [nb [top [N [K [e' [nodes [disp [r' [h1 [h2 [h3 [h4 h5]]]]]]]]]]]]]. rewrite hre in *.
  destruct (results_fresh _ _ _ _ _ h4) as [q2 [q3 [q4 q5]]]. destruct (engine_step _ _ _ _ _ _ _ _ h3) as [e1 [e2 [raw [e3 [e4 [e5 [e6 _]]]]]]]. subst disp.
  exists r', tf, top, N, K, nodes, raw. subst a'. cbn [ac_results ac_engine]. split; [reflexivity|]. split; [exact h1|]. split; [exact e4|]. split; [exact q2|]. split; [exact q3|].
  split; [exact q4|]. split; [exact e3|]. split; [|exact (e6 eq_refl)]. intros i hi. destruct (q5 i hi) as [p1 p2]. split; [eapply raw_length; eassumption|exact p2].
Qed.

Lemma last_app {A} (l r : list A) d : r <> [] -> last (l ++ r) d = last r d.
Proof. intros h. destruct (exists_last h) as [q [x ->]]. rewrite app_assoc, !last_last. reflexivity. Qed.
Lemma engine_disp_after a s a' : do_stage a s = Ok a' -> exists d, engine_disp (ac_engine a') = Some d /\
  forall r', ac_results a' = Some r' -> forall i, (i < length (rs_disp r'))%nat -> (i < length d)%nat /\ exists old, nth i (rs_disp r') [] = old ++ nth i d [].
Proof.
  intros h. destruct (stage_step _ _ _ h) as [tf [nb [top [N [K [e' [nodes [disp [r' [h1 [h2 [h3 [h4 h5]]]]]]]]]]]]]. destruct (engine_step _ _ _ _ _ _ _ _ h3) as [e1 [e2 _]].
  exists disp. subst a'. cbn [ac_engine ac_results]. split; [exact e2|]. intros r0 hr0 i hi. assert (r0 = r') by congruence. subst r0. destruct (sg_reload s).
  - destruct (results_continued _ _ _ _ _ h4) as [r [q1 [q2 [q3 [q4 q5]]]]]. rewrite q4 in hi. destruct (q5 i hi) as [p1 [p2 p3]]. split; [exact p2|]. eexists. exact p3.
  - destruct (results_fresh _ _ _ _ _ h4) as [q2 [q3 [q4 q5]]]. rewrite q4 in hi. destruct (q5 i hi) as [p1 p2]. split; [exact p1|]. exists []. exact p2.
Qed.
Lemma linked_step a s a' : linked a -> do_stage a s = Ok a' -> linked a'.
Proof.
  intros hl h. destruct (engine_disp_after _ _ _ h) as [d [d1 d2]]. unfold linked. destruct (ac_results a') as [r'|] eqn:er; [|exact I].
  assert (hd : forall i, (i < length (rs_disp r'))%nat -> (i < length d)%nat /\ (nth i d [] <> [] -> nth i (rs_disp r') [] <> [] /\ last (nth i d []) 0 = last (nth i (rs_disp r') []) 0)).
  { intros i hi. destruct (d2 r' eq_refl i hi) as [p1 [old p2]]. split; [exact p1|]. intros hne. rewrite p2. split.
    - intros e. apply app_eq_nil in e. apply hne. apply e.
    - symmetry. apply last_app. exact hne. }
  destruct (sg_reload s) eqn:es.
  - destruct (continued_rows _ _ _ hl h es) as [r [r2 [tf [top [N [K [nodes [raw [c1 [c2 [c3 [c4 [c5 [c6 [c7 [c8 c9]]]]]]]]]]]]]]]].
    assert (r2 = r') by congruence. subst r2. split; [rewrite c5; exact c7|]. split; [|exists d; split; [exact d1|exact hd]].
    intros i hi. rewrite c7 in hi. destruct (c9 i hi) as [p1 [p2 [p3 p4]]]. rewrite p4, c6, !app_length, map_length, p2. unfold linked in hl. rewrite c1 in hl. destruct hl as [_ [l2 _]].
    rewrite l2 by exact p1. rewrite (reads_time_length _ _ _ _ _ _ _ _ c3). reflexivity.
  - destruct (fresh_rows _ _ _ h es) as [r2 [tf [top [N [K [nodes [raw [c2 [c3 [c4 [c5 [c6 [c7 [c8 [c9 _]]]]]]]]]]]]]]].
    assert (r2 = r') by congruence. subst r2. split; [rewrite c5; exact c7|]. split; [|exists d; split; [exact d1|exact hd]].
    intros i hi. rewrite c7 in hi. destruct (c9 i hi) as [p1 p2]. rewrite p2, p1, c6. symmetry. exact (reads_time_length _ _ _ _ _ _ _ _ c3).
Qed.
Lemma linked_stages l : forall a a', linked a -> do_stages a l = Ok a' -> linked a'.
Proof. induction l as [|s l IH]; intros a a' hl h; cbn [do_stages] in h; [assert (a' = a) by congruence; subst; exact hl|]. unbind h. apply (IH v); [eapply linked_step; eassumption|exact h]. Qed.

(** ** settlements never decrease *)

Definition stage_fine (e : engine R) (s : stage) : Prop :=
  match e with
  | EVarandas v _ => True
  | ELiSelig li _ => sound_soils li /\ forall t, In t (sg_trains s) -> 0 <= per_day t /\ 1 <= loads s t
  end.
Lemma raw_settling trains s e steps tf top N K nodes raw en en' : reads trains s e steps tf top N K -> raw_rows tf nodes raw en en' -> engine_sound en ->
  stage_fine en {| sg_trains := trains; sg_end := e; sg_start := s; sg_idx := []; sg_reload := false |} ->
  (forall i, (i < length nodes)%nat -> settling (nth i raw [])) /\ engine_sound en'.
Proof.
  intros hr h hs hf. inversion h as [v st st' start h1 h2 h3 h4 h5|li st st' all h1 h2 h3]; subst.
  - cbn [engine_sound] in *. destruct hs as [hs1 hs2].
    assert (hstart : forall i, (i < length nodes)%nat -> 0 <= fst (nth i start (0, []))).
    { intros i hi. destruct h4 as [->|[s0 [-> [-> _]]]]; [rewrite (nth_map_d _ _ _ 0%nat) by exact hi; cbn; lra|]. apply hs2. apply nth_In. lia. }
    assert (hboth : forall i, (i < length nodes)%nat -> settling (nth i raw []) /\ 0 <= fst (nth i (vs_load st') (0, []))).
    { intros i hi. destruct (h2 i hi) as [forces [hp hn]]. exact (varandas_settling _ _ _ _ _ _ _ _ _ _ _ _ _ hr hs1 hp (hstart i hi) hn). }
    split; [intros i hi; apply hboth; exact hi|]. split; [exact hs1|]. intros l hl. destruct (In_nth _ _ (0, []) hl) as [i [hi <-]]. apply hboth. lia.
  - cbn [engine_sound stage_fine sg_trains] in *. destruct hf as [hf1 hf2]. split; [|exact I]. intros i hi. eapply liselig_settling; try eassumption. apply h2. exact hi.
Qed.
Lemma settling_app (old raw : list R) : old <> [] -> settling old -> settling raw -> settling (old ++ map (fun x => x + last old 0) raw).
Proof.
  intros hne [o1 o2] [r1 r2]. assert (ho : (0 < length old)%nat) by (destruct old; [congruence|cbn; lia]). rewrite (nth_last old 0 0 hne).
  assert (hnth : forall i, (i < length old + length raw)%nat -> nth i (old ++ map (fun x => x + nth (length old - 1) old 0) raw) 0 = if (i <? length old)%nat then nth i old 0 else nth (i - length old) raw 0 + nth (length old - 1) old 0).
  { intros i hi. destruct (Nat.ltb_spec i (length old)) as [c|c]; [apply app_nth1; exact c|]. rewrite app_nth2 by exact c. apply (nth_map0 (fun x => x + nth (length old - 1) old 0) raw _ 0). lia. }
  pose proof (o1 (length old - 1)%nat ltac:(lia)) as ol. unfold settling. rewrite app_length, map_length. split.
  - intros i hi. rewrite hnth by exact hi. destruct (Nat.ltb_spec i (length old)) as [c|c]; [apply o1; exact c|]. specialize (r1 (i - length old)%nat ltac:(lia)). lra.
  - intros i j hij. rewrite !hnth by lia. destruct (Nat.ltb_spec i (length old)) as [c|c], (Nat.ltb_spec j (length old)) as [c2|c2]; try lia.
    + apply o2. lia.
    + specialize (r1 (j - length old)%nat ltac:(lia)). specialize (o2 i (length old - 1)%nat ltac:(lia)). lra.
    + specialize (r2 (i - length old)%nat (j - length old)%nat ltac:(lia)). lra.
Qed.

Definition settled (a : accumulation R) : Prop :=
  engine_sound (ac_engine a) /\ match ac_results a with None => True | Some r => forall i, (i < length (rs_disp r))%nat -> settling (nth i (rs_disp r) []) end.
Lemma stage_fine_same en en' tf nodes raw s : raw_rows tf nodes raw en en' -> stage_fine en s -> stage_fine en' s.
Proof. intros h. inversion h; subst; cbn; auto. Qed.
Lemma settled_step a s a' : linked a -> settled a -> stage_fine (ac_engine a) s -> do_stage a s = Ok a' -> settled a' /\ forall s', stage_fine (ac_engine a) s' -> stage_fine (ac_engine a') s'.
Proof.
  intros hl [hs1 hs2] hf h. destruct (sg_reload s) eqn:es.
  - destruct (continued_rows _ _ _ hl h es) as [r [r2 [tf [top [N [K [nodes [raw [c1 [c2 [c3 [c4 [c5 [c6 [c7 [c8 c9]]]]]]]]]]]]]]]].
    destruct (raw_settling _ _ _ _ _ _ _ _ _ _ _ _ c3 c4 hs1) as [w1 w2]; [destruct (ac_engine a); exact hf|]. split; [|intros s' hs'; eapply stage_fine_same; eassumption]. split; [exact w2|]. rewrite c2.
    intros i hi. rewrite c7 in hi. destruct (c9 i hi) as [p1 [p2 [p3 p4]]]. rewrite p4. rewrite c1 in hs2. apply settling_app; [exact p3|apply hs2; exact p1|apply w1; exact hi].
  - destruct (fresh_rows _ _ _ h es) as [r2 [tf [top [N [K [nodes [raw [c2 [c3 [c4 [c5 [c6 [c7 [c8 [c9 _]]]]]]]]]]]]]]].
    destruct (raw_settling _ _ _ _ _ _ _ _ _ _ _ _ c3 c4 hs1) as [w1 w2]; [destruct (ac_engine a); exact hf|]. split; [|intros s' hs'; eapply stage_fine_same; eassumption]. split; [exact w2|]. rewrite c2.
    intros i hi. rewrite c7 in hi. destruct (c9 i hi) as [p1 p2]. rewrite p2. apply w1. exact hi.
Qed.
Lemma settled_stages l : forall a a', linked a -> settled a -> (forall s, In s l -> stage_fine (ac_engine a) s) -> do_stages a l = Ok a' -> settled a'.
Proof.
  induction l as [|s l IH]; intros a a' hl hs hf h; cbn [do_stages] in h; [assert (a' = a) by congruence; subst; exact hs|]. unbind h.
  destruct (settled_step a s v hl hs (hf s (or_introl eq_refl)) hv) as [s1 s2]. apply (IH v); [eapply linked_step; eassumption|exact s1| |exact h]. intros s' hs'. apply s2. apply hf. right. exact hs'.
Qed.
