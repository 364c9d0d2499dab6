(** * Proofs about settlement accumulation: calculations with given traffic *)

From Coq Require Import Reals List Bool ZArith Arith Lia Lra Psatz.
From Verif Require Import Num PyBase Model_Element Model_Moving Model_Coupled Model_Accumulation Spec_Accumulation
  Proofs_System Proofs_Moving Proofs_Coupled Proofs_Accumulation Proofs_Classes Proofs_Settle Proofs_LiSelig Proofs_Stages.
Import ListNotations.
Local Open Scope R_scope.

Lemma reference_n0 v n0 : reference_cycles v n0 -> n0_of v = n0.
Proof.
  intros h. unfold reference_cycles in h. unfold n0_of. rewrite (trunc_unique _ (Z.of_nat (S n0))); [lia| |rewrite <- INR_IZR_INZ; exact h].
  pose proof (pos_INR (S n0)). lra.
Qed.
Lemma is_peak_unique l p q : is_peak l p -> is_peak l q -> p = q.
Proof. intros [[f [hf ef]] h1] [[g [hg eg]] h2]. specialize (h1 g hg). specialize (h2 f hf). lra. Qed.
Lemma max_shear_unique q a z d d' : is_max_shear q a z d -> is_max_shear q a z d' -> d = d'.
Proof. intros [[k [hk e]] h1] [[k' [hk' e']] h2]. specialize (h1 k' hk'). specialize (h2 k hk). lra. Qed.

(** ** forces of a node *)

Lemma peaks_of_trains trains s e steps tf top N K node forces : reads trains s e steps tf top N K -> node_peaks tf node forces ->
  length forces = length trains /\ forall t p, (t < length trains)%nat -> node_peak (nth t trains train0) node p -> nth t forces 0 = p / 1000.
Proof.
  intros hr [h1 h2]. rewrite (rd_forces _ _ _ _ _ _ _ _ hr) in h1, h2. rewrite map_length in h1. split; [exact h1|]. intros t p ht [row [n1 n2]].
  destruct (h2 t ltac:(lia)) as [m1 [q [m2 m3]]]. rewrite (nth_map_d _ _ _ train0) in m2 by exact ht. destruct (nth_err_inv _ _ [] _ n1) as [_ n3]. rewrite n3 in m2.
  rewrite (is_peak_unique _ _ _ n2 m2). exact m3.
Qed.
Lemma count_le trains s e steps tf top N K c : reads trains s e steps tf top N K -> s <= c -> INR N <= c -> forall nb, In nb (tf_count tf) -> nb <= c.
Proof.
  intros hr h1 h2 nb hn. rewrite (rd_count _ _ _ _ _ _ _ _ hr) in hn. destruct (In_nth _ _ 0 hn) as [i [hi e1]]. rewrite ls_length in hi.
  destruct (Nat.eq_dec N 1) as [->|hN].
  - replace i with 0%nat in e1 by lia. cbn in e1. lra.
  - rewrite ls_nth in e1 by lia. replace (Z.of_nat N - 1)%Z with (Z.of_nat (N - 1)) in e1 by lia. rewrite <- INR_IZR_INZ in e1.
    assert (hp : 0 < INR (N - 1)) by (apply lt_0_INR; lia). set (x := INR i / INR (N - 1)). replace (INR i * (INR (N - 1) - s) / INR (N - 1)) with (x * (INR (N - 1) - s)) in e1 by (unfold x; field; lra).
    assert (0 <= x) by (unfold x, Rdiv; apply Rmult_le_pos; [apply pos_INR|left; apply Rinv_0_lt_compat; exact hp]).
    assert (x <= 1). { unfold x. apply (Rmult_le_reg_r (INR (N - 1))); [exact hp|]. unfold Rdiv. rewrite Rmult_assoc, Rinv_l by lra. rewrite Rmult_1_l, Rmult_1_r. apply le_INR. lia. }
    assert (INR (N - 1) <= c) by (assert (INR (N - 1) <= INR N) by (apply le_INR; lia); lra). nra.
Qed.

(** ** success *)

Lemma max_of_total (l : list R) : l <> [] -> exists m, max_of l = Ok m.
Proof. intros h. destruct (max_of_spec l h) as [m [h1 _]]. eauto. Qed.
Lemma read_total trains s e steps nb : trains <> [] -> (forall t, In t trains -> length (tt_forces t) = nb) -> (1 <= steps)%nat ->
  (exists t, In t trains /\ -1 < per_day t * (e - s)) -> exists tf, read_traffic trains e s steps = Ok (tf, nb).
Proof.
  intros h1 h2 h3 [t0 [ht0 hlt]]. unfold read_traffic.
  destruct trains as [|t1 trains]; [congruence|]. cbn [map]. rewrite (h2 t1) by (left; reflexivity).
  assert (hf : forallb (Nat.eqb nb) (map (fun t => length (tt_forces t)) trains) = true).
  { apply forallb_forall. intros x hx. apply in_map_iff in hx. destruct hx as [t [<- ht]]. apply Nat.eqb_eq. symmetry. apply h2. right. exact ht. }
  rewrite hf. unfold read_train_info. set (tr := t1 :: trains) in *.
  set (cyc := map (fun aux => nmul aux (nsub e s)) (map (fun t => nmul (nmul (tt_per_hour t) (tt_hours t)) (tt_axles t)) tr)).
  destruct (max_of_total cyc) as [m hm]; [unfold cyc, tr; discriminate|]. rewrite hm. cbn [rbind]. destruct (Nat.eqb_spec steps 0) as [z|z]; [lia|].
  assert (hm1 : -1 < m). { apply max_of_ok in hm. destruct hm as [_ hm]. specialize (hm (per_day t0 * (e - s))). assert (In (per_day t0 * (e - s)) cyc); [|lra || (specialize (hm H); lra)]. unfold cyc. rewrite map_map. apply (in_map (fun t => per_day t * (e - s))). exact ht0. }
  assert (hz : forall x, -1 < x -> (0 <= ntrunc x)%Z).
  { intros x hx. destruct (Rle_lt_dec 0 x) as [c|c]; [apply trunc_nonneg; exact c|]. unfold ntrunc. destruct (nlebP (lit 0) x) as [c'|c']; [rnum; lra|]. unfold nceil. rnum.
    destruct (nfloor_spec (- x)) as [f1 f2]. assert (IZR (nfloor (- x)) < IZR 1) by lra. apply lt_IZR in H. lia. }
  assert (hk : (0 <= ntrunc (m / nofnat steps)%num)%Z).
  { apply hz. rewrite nofnat_R. rnum. assert (hs : 1 <= INR steps) by (apply (le_INR 1); exact h3). destruct (Rle_lt_dec 0 m) as [c|c].
    - assert (0 <= m / INR steps) by (unfold Rdiv; apply Rmult_le_pos; [exact c|left; apply Rinv_0_lt_compat; lra]). lra.
    - apply (Rmult_lt_reg_r (INR steps)); [lra|]. unfold Rdiv. rewrite Rmult_assoc, Rinv_l by lra. lra. }
  unfold linspace. destruct (Z.ltb_spec (ntrunc (m / nofnat steps)%num) 0) as [c|c]; [lia|]. destruct (Z.ltb_spec (ntrunc m) 0) as [c2|c2]; [specialize (hz m hm1); lia|].
  cbn [rbind]. eexists. reflexivity.
Qed.
Lemma varandas_total v st steps s nb : sg_reload s = false -> (1 <= steps)%nat -> sg_trains s <> [] ->
  (forall t, In t (sg_trains s) -> length (tt_forces t) = nb /\ forall row, In row (tt_forces t) -> row <> []) ->
  (exists t, In t (sg_trains s) /\ -1 < loads s t) -> (forall i, In i (sg_idx s) -> (i < nb)%nat) ->
  forall res, exists a, do_stage {| ac_engine := EVarandas v st; ac_steps := steps; ac_traffic := None; ac_results := res |} s = Ok a.
Proof.
  intros h1 h2 h3 h4 h5 h6 res. destruct (read_total (sg_trains s) (sg_start s) (sg_end s) steps nb h3 (fun t ht => proj1 (h4 t ht)) h2 h5) as [tf htf].
  unfold do_stage, set_traffic. cbn [ac_steps ac_engine ac_results]. rewrite htf. cbn [rbind]. unfold calculate_settlement. cbn [ac_traffic ac_engine ac_results ac_steps]. rewrite h1.
  assert (hread : exists top N K, reads (sg_trains s) (sg_start s) (sg_end s) steps tf top N K).
  { unfold read_traffic in htf. destruct (map _ (sg_trains s)) as [|n rest]; [discriminate|]. destruct (forallb _ _); [|discriminate]. unbind htf. assert (v0 = tf) by congruence. subst v0. apply read_info_ok. exact hv. }
  destruct hread as [top [N [K hr]]]. pose proof (rd_forces _ _ _ _ _ _ _ _ hr) as hfo.
  assert (hnodes : forall i, In i (chosen_nodes nb (sg_idx s)) -> (i < nb)%nat).
  { unfold chosen_nodes. destruct (sg_idx s) as [|i0 idx]; [intros i hi; apply in_seq in hi; lia|exact h6]. }
  destruct (mapr_ok peaks (tf_forces tf) []) as [pk hpk].
  { intros t ht. rewrite hfo in *. rewrite map_length in ht. rewrite (nth_map_d _ _ _ train0) by exact ht. unfold peaks. apply (mapr_ok _ _ []). intros i hi. apply max_of_total.
    intros e. apply map_eq_nil in e. destruct (h4 (nth t (sg_trains s) train0) (nth_In _ _ ht)) as [_ hrow]. apply (hrow _ (nth_In _ [] hi)). exact e. }
  destruct (mapr_ok (node_forces pk) (chosen_nodes nb (sg_idx s)) 0%nat) as [fo hfo2].
  { intros i hi. unfold node_forces. apply (mapr_ok _ _ []). intros t ht. pose proof (mapr_length _ _ _ hpk) as hl. pose proof (mapr_nth _ _ _ t [] [] hpk ltac:(lia)) as hp.
    unfold peaks in hp. pose proof (mapr_length _ _ _ hp) as hl2. rewrite hfo in hl, hl2. rewrite map_length in hl. rewrite (nth_map_d _ _ _ train0) in hl2 by lia.
    destruct (h4 (nth t (sg_trains s) train0)) as [hn _]; [apply nth_In; lia|]. specialize (hnodes _ (nth_In _ 0%nat hi)).
    unfold at_idx. rewrite (nth_err _ _ 0) by lia. cbn [rbind]. eexists. reflexivity. }
  destruct (mapr_ok (fun p => varandas_node v tf (fst p) (snd p)) (combine fo (map (fun _ => (lit 0, repeat (lit 0) (length (tf_cycles tf)))) (chosen_nodes nb (sg_idx s)))) ([], (0, []))) as [out hout].
  { intros i hi. rewrite combine_length in hi. set (q := nth i (combine fo _) _).
    assert (hq : fst q = nth i fo []). { unfold q. rewrite combine_nth by (rewrite map_length; exact (mapr_length _ _ _ hfo2)). reflexivity. }
    unfold varandas_node. rewrite hq. destruct (max_of_total (nth i fo [])) as [m hm].
    - pose proof (mapr_length _ _ _ hfo2) as hl. pose proof (mapr_nth _ _ _ i 0%nat [] hfo2 ltac:(lia)) as hn. pose proof (mapr_length _ _ _ hn) as hl2. pose proof (mapr_length _ _ _ hpk) as hl3. rewrite hfo, map_length in hl3.
      intros e. rewrite e in hl2. cbn in hl2. destruct (sg_trains s); [congruence|]. cbn in hl3. lia.
    - rewrite hm. cbn [rbind]. destruct (run_cycles _ _ _ _ _ _ _ _ _ _) as [[d h'] m']. eexists. reflexivity. }
  cbn [engine_settlement]. unfold varandas_settlement. cbn [rbind]. rewrite hpk. cbn [rbind]. rewrite hfo2. cbn [rbind].
  rewrite hout. cbn [rbind vs_nodes vs_disp]. unfold create_results.
  destruct (mapr_ok (at_idx (map fst out)) (seq 0 (length (chosen_nodes nb (sg_idx s)))) 0%nat) as [rows hrows].
  { intros i hi. rewrite seq_length in hi. rewrite seq_nth by exact hi. cbn [Nat.add]. unfold at_idx. rewrite (nth_err _ _ []); [eexists; reflexivity|].
    pose proof (mapr_length _ _ _ hout) as hl. pose proof (mapr_length _ _ _ hfo2) as hl2. rewrite combine_length, map_length in hl. rewrite map_length. lia. }
  rewrite hrows. cbn [rbind]. eexists. reflexivity.
Qed.

(** ** what the traffic determines *)

Lemma reads_top trains s e steps steps' tf tf' top top' N N' K K' : reads trains s e steps tf top N K -> reads trains s e steps' tf' top' N' K' -> top = top' /\ N = N'.
Proof.
  intros h h'. destruct (rd_top _ _ _ _ _ _ _ _ h) as [a1 a2]. destruct (rd_top _ _ _ _ _ _ _ _ h') as [b1 b2].
  rewrite (rd_cycles _ _ _ _ _ _ _ _ h) in a1, a2. rewrite (rd_cycles _ _ _ _ _ _ _ _ h') in b1, b2.
  assert (top = top') as -> by (specialize (a2 _ b1); specialize (b2 _ a1); lra). split; [reflexivity|].
  pose proof (rd_N _ _ _ _ _ _ _ _ h). pose proof (rd_N _ _ _ _ _ _ _ _ h'). lia.
Qed.
Lemma reads_unique trains s e steps tf tf' top top' N N' K K' : reads trains s e steps tf top N K -> reads trains s e steps tf' top' N' K' -> tf = tf'.
Proof.
  intros h h'. destruct (reads_top _ _ _ _ _ _ _ _ _ _ _ _ _ h h') as [-> ->].
  assert (K = K') as -> by (pose proof (rd_K _ _ _ _ _ _ _ _ h); pose proof (rd_K _ _ _ _ _ _ _ _ h'); lia).
  destruct h as [a1 a2 a3 _ _ _ a4 a5 a6 a7 _ _], h' as [b1 b2 b3 _ _ _ b4 b5 b6 b7 _ _]. destruct tf, tf'; cbn in *. congruence.
Qed.
Lemma reads_cycles_length trains s e steps tf top N K : reads trains s e steps tf top N K -> length (tf_cycles tf) = length trains.
Proof. intros h. rewrite (rd_cycles _ _ _ _ _ _ _ _ h). apply map_length. Qed.
Lemma top_whole trains s e steps tf top N K : reads trains s e steps tf top N K -> (1 <= N)%nat -> INR N <= top < INR N + 1.
Proof.
  intros h hN. pose proof (rd_N _ _ _ _ _ _ _ _ h) as e1. destruct (Rle_lt_dec 0 top) as [c|c].
  - destruct (trunc_nonneg _ c) as [a1 a2]. rewrite e1, <- INR_IZR_INZ in a2. lra.
  - pose proof (trunc_neg _ c). lia.
Qed.
Lemma node_peaks_unique tf node f f' : node_peaks tf node f -> node_peaks tf node f' -> f = f'.
Proof.
  intros [a1 a2] [b1 b2]. apply (nth_ext _ _ 0 0); [lia|]. intros t ht. destruct (a2 t ht) as [_ [p [p1 p2]]]. destruct (b2 t ltac:(lia)) as [_ [q [q1 q2]]].
  rewrite (is_peak_unique _ _ _ p1 q1) in p2. lra.
Qed.
Lemma count_linspace N : (1 <= N)%nat -> linspace_nat 0 (IZR (Z.of_nat N - 1)) N = map INR (seq 0 N).
Proof.
  intros h. apply (nth_ext _ _ 0 0); [rewrite ls_length, map_length, seq_length; reflexivity|]. rewrite ls_length. intros i hi.
  rewrite (nth_map_d _ _ _ 0%nat) by (rewrite seq_length; exact hi). rewrite seq_nth by exact hi. cbn [Nat.add]. destruct (Nat.eq_dec N 1) as [->|hN].
  - replace i with 0%nat by lia. reflexivity.
  - rewrite ls_nth by lia. replace (Z.of_nat N - 1)%Z with (Z.of_nat (N - 1)) by lia. rewrite <- INR_IZR_INZ. field. apply not_0_INR. lia.
Qed.

(** ** one type of train *)

Lemma history_length v F cs fs count : forall h ms acc, length (history v F cs fs count h ms acc) = length count.
Proof. induction count as [|nb count IH]; intros h ms acc; [reflexivity|]. cbn [history]. destruct (cycle_trains v F nb cs fs ms h acc) as [[h' ms'] a']. cbn [length]. rewrite IH. reflexivity. Qed.
Lemma max_single (f top : R) : max_of [f] = Ok top -> top = f.
Proof. intros h. apply max_of_ok in h. destruct h as [[h|[]] _]. congruence. Qed.

Lemma single_run v n0 t s e steps tf top N K p f load out : reference_cycles v n0 -> 0 < va_F0 v -> reads [t] s e steps tf top N K ->
  f = p / 1000 -> 0 < p -> s <= per_day t * (e - s) -> (1 <= N)%nat -> varandas_node v tf [f] load = Ok out ->
  forall n, (load = (0, [0]) /\ n = 0%nat \/ load = (INR n - 1, [f]) /\ (1 <= n)%nat) ->
  length (fst out) = K /\
  (forall j, (j < K)%nat -> nth j (fst out) 0 = load_settlement v n0 f * (weights (va_beta v) (n + S (Z.to_nat (nth j (stored N K) 0%Z))) - weights (va_beta v) n)) /\
  snd out = (INR (n + N) - 1, [f]).
Proof.
  intros hn0 hF0 hr hf hp hs hN hv n hn. destruct (varandas_node_spec _ _ _ _ _ _ _ _ _ _ _ _ hr hv) as [tp [h1 [h2 [h3 h4]]]]. split; [exact h2|].
  apply max_single in h1. subst tp. pose proof (top_whole _ _ _ _ _ _ _ _ hr hN) as htop. destruct (rd_top _ _ _ _ _ _ _ _ hr) as [q1 _]. rewrite (rd_cycles _ _ _ _ _ _ _ _ hr) in q1. destruct q1 as [q1|[]]. set (c := per_day t * (e - s)) in *. rewrite <- q1 in *.
  pose proof (count_le _ _ _ _ _ _ _ _ c hr hs (proj1 htop)) as hcount. pose proof (rd_cycles _ _ _ _ _ _ _ _ hr) as ecy. cbn [map] in ecy. fold c in ecy.
  assert (hlen : length (tf_count tf) = N) by (rewrite (rd_count _ _ _ _ _ _ _ _ hr); apply ls_length).
  assert (hf0 : 0 < f) by (rewrite hf; unfold Rdiv; apply Rmult_lt_0_compat; lra).
  assert (hb : forall j, (j < K)%nat -> (Z.to_nat (nth j (stored N K) 0%Z) < N)%nat).
  { intros j hj. pose proof (rd_KN _ _ _ _ _ _ _ _ hr). destruct (stored_bounds N K j); lia. }
  assert (hu : 1000 * unit_settlement (va_alpha v) (va_beta v) (va_gamma v) (va_F0 v) (n0_of v) f / 1000 = load_settlement v n0 f) by (unfold load_settlement; rewrite (reference_n0 _ _ hn0); field).
  unfold node_history in h3. rewrite ecy in h3, h4. destruct hn as [[-> ->]|[-> hn]]; cbn [fst snd] in h3, h4.
  - destruct (single_fresh v f hF0 ltac:(lra) c f (tf_count tf) hf0 hcount ltac:(lia)) as [g1 g2]. cbv zeta beta in g1, g2. split.
    + intros j hj. rewrite h3 by exact hj. rewrite g1 by (rewrite hlen; apply hb; exact hj). rewrite weights_0. rewrite <- hu. cbn [Nat.add]. field.
    + rewrite h4, g2. rewrite hlen. cbn [Nat.add]. rewrite minus_INR by exact hN. reflexivity.
  - destruct n as [|n]; [lia|]. replace (INR (S n) - 1) with (INR n) in * by (rewrite S_INR; ring).
    destruct (single_continued v f hF0 ltac:(lra) c f f (tf_count tf) n 0 (Rle_refl f) hcount) as [g1 g2]. cbv zeta beta in g1, g2. split.
    + intros j hj. rewrite h3 by exact hj. rewrite g1 by (rewrite hlen; apply hb; exact hj). rewrite <- hu. field.
    + rewrite h4, g2. rewrite hlen. f_equal. replace (S n + N)%nat with (S (n + N)) by lia. rewrite S_INR. ring.
Qed.

(** ** a calculation from the start *)

Lemma varandas_fresh a0 v st s a r : ac_engine a0 = EVarandas v st -> sg_reload s = false -> do_stage a0 s = Ok a -> ac_results a = Some r ->
  exists tf top N K st', reads (sg_trains s) (sg_start s) (sg_end s) (ac_steps a0) tf top N K /\ rs_time r = tf_time tf /\ length (rs_time r) = K /\
    ac_engine a = EVarandas v (Some st') /\ length (rs_disp r) = length (rs_nodes r) /\
    forall i, (i < length (rs_nodes r))%nat -> exists forces, node_peaks tf (nth i (rs_nodes r) 0%nat) forces /\
      varandas_node v tf forces (0, repeat 0 (length (sg_trains s))) = Ok (nth i (rs_disp r) [], nth i (vs_load st') (0, [])).
Proof.
  intros he hre h hr. destruct (fresh_rows _ _ _ h hre) as [r2 [tf [top [N [K [nodes [raw [c2 [c3 [c4 [c5 [c6 [c7 [c8 [c9 c10]]]]]]]]]]]]]]].
  assert (r2 = r) by congruence. subst r2. destruct (c10 v st he) as [st' [d1 d2]]. exists tf, top, N, K, st'. split; [exact c3|]. split; [exact c6|]. split.
  - rewrite c6, (rd_time _ _ _ _ _ _ _ _ c3). apply ls_length.
  - split; [exact d1|]. rewrite c5 in *. split; [exact c7|]. intros i hi. destruct (d2 i hi) as [fo [e1 e2]]. exists fo. split; [exact e1|].
    destruct (c9 i hi) as [_ ->]. rewrite <- (reads_cycles_length _ _ _ _ _ _ _ _ c3). exact e2.
Qed.
Lemma single_peak tf t s e steps top N K node forces p : reads [t] s e steps tf top N K -> node_peaks tf node forces -> node_peak t node p -> forces = [p / 1000].
Proof.
  intros h1 h2 h3. destruct (peaks_of_trains _ _ _ _ _ _ _ _ _ _ h1 h2) as [a b]. cbn [length] in *. specialize (b 0%nat p ltac:(lia) h3). destruct forces as [|f [|g l]]; cbn in a; try lia. cbn in b. congruence.
Qed.

(** ** reported cycles *)

Definition reported (N K j : nat) : nat := Z.to_nat (nth j (stored N K) 0%Z).
Lemma reported_first N K : (K <= N)%nat -> reported N K 0 = 0%nat.
Proof.
  intros h. unfold reported. destruct (Nat.eq_dec K 0) as [->|h0]; [reflexivity|]. destruct (Nat.eq_dec K 1) as [->|h1]; [rewrite stored_one; reflexivity|].
  rewrite stored_nth by lia. cbn [INR]. replace (0 * INR (N - 1) / INR (K - 1)) with 0 by (unfold Rdiv; ring). rewrite ntrunc_0. reflexivity.
Qed.
Lemma reported_lt N K i j : (K <= N)%nat -> (i < j < K)%nat -> (reported N K i < reported N K j)%nat.
Proof. intros h hij. unfold reported. destruct (stored_step N K i j); lia. Qed.
Lemma reported_bound N K j : (K <= N)%nat -> (j < K)%nat -> (reported N K j < N)%nat.
Proof. intros h hj. unfold reported. destruct (stored_bounds N K j); lia. Qed.
Lemma reported_last N K : (2 <= K <= N)%nat -> reported N K (K - 1) = (N - 1)%nat.
Proof. intros h. unfold reported. rewrite stored_last by exact h. lia. Qed.
Lemma reported_all N j : (j < N)%nat -> reported N N j = j.
Proof. intros h. unfold reported. rewrite stored_all by exact h. lia. Qed.

(** ** Li and Selig *)

Lemma shear_pos q a z x : 0 < q -> 0 < a -> 0 < z -> 0 < shear q a z x.
Proof.
  intros hq ha hz. unfold shear. pose proof PI_RGT_0 as hp. apply Rmult_lt_0_compat.
  - unfold Rdiv. apply Rmult_lt_0_compat; [apply Rabs_pos_lt; lra|apply Rinv_0_lt_compat; exact hp].
  - apply Rabs_pos_lt. assert (hi : (x - a) / z < (x + a) / z) by (unfold Rdiv; apply Rmult_lt_compat_r; [apply Rinv_0_lt_compat; exact hz|lra]).
    pose proof (atan_increasing _ _ hi) as h1. pose proof (atan_bound ((x + a) / z)) as h2. pose proof (atan_bound ((x - a) / z)) as h3.
    assert (0 < sin (seen_angle a z x)) by (apply sin_gt_0; unfold seen_angle; lra). lra.
Qed.
Lemma liselig_total li steps s nb all : sg_reload s = false -> (1 <= steps)%nat -> sg_trains s <> [] ->
  (forall t, In t (sg_trains s) -> length (tt_forces t) = nb /\ forall row, In row (tt_forces t) -> row <> []) ->
  (exists t, In t (sg_trains s) /\ INR steps <= loads s t) -> (forall i, In i (chosen_nodes nb (sg_idx s)) -> (i < nb)%nat /\ exists id, nth_error (li_soil_id li) i = Some id /\ (id < length all)%nat) ->
  mapr (soil_layers (li_last li)) (li_soils li) = Ok all -> exists a, do_stage (new_accumulation (ELiSelig li None) steps) s = Ok a.
Proof.
  intros h1 h2 h3 h4 h5 h6 h7.
  assert (hs : 1 <= INR steps) by (apply (le_INR 1); exact h2).
  destruct (read_total (sg_trains s) (sg_start s) (sg_end s) steps nb h3 (fun t ht => proj1 (h4 t ht)) h2) as [tf htf]; [destruct h5 as [t [t1 t2]]; exists t; unfold loads in t2; split; [exact t1|lra]|].
  unfold do_stage, set_traffic, new_accumulation. cbn [ac_steps ac_engine ac_results]. rewrite htf. cbn [rbind]. unfold calculate_settlement. cbn [ac_traffic ac_engine ac_results ac_steps]. rewrite h1.
  assert (hread : exists top N K, reads (sg_trains s) (sg_start s) (sg_end s) steps tf top N K).
  { unfold read_traffic in htf. destruct (map _ (sg_trains s)) as [|n rest]; [discriminate|]. destruct (forallb _ _); [|discriminate]. unbind htf. assert (v = tf) by congruence. subst v. apply read_info_ok. exact hv. }
  destruct hread as [top [N [K hr]]]. pose proof (rd_forces _ _ _ _ _ _ _ _ hr) as hfo. pose proof (rd_cycles _ _ _ _ _ _ _ _ hr) as hcy.
  assert (hK1 : (1 <= length (tf_time tf))%nat).
  { rewrite (rd_time _ _ _ _ _ _ _ _ hr), ls_length. destruct h5 as [t [t1 t2]]. destruct (rd_top _ _ _ _ _ _ _ _ hr) as [_ hm]. assert (INR steps <= top) by (eapply Rle_trans; [exact t2|apply hm; rewrite hcy; apply (in_map (fun t => per_day t * (sg_end s - sg_start s))); exact t1]).
    assert (1 <= top / INR steps) by (apply (Rmult_le_reg_r (INR steps)); [lra|]; unfold Rdiv; rewrite Rmult_assoc, Rinv_l by lra; lra).
    destruct (trunc_nonneg (top / INR steps) ltac:(lra)) as [k1 k2]. rewrite (rd_K _ _ _ _ _ _ _ _ hr) in k2. destruct K; [cbn in k2; lra|lia]. }
  cbn [engine_settlement]. unfold liselig_settlement. cbn [rbind]. rewrite h7. cbn [rbind fst snd]. rewrite !Nat.leb_refl. cbn [andb].
  destruct (mapr_ok (liselig_node li all tf) (chosen_nodes nb (sg_idx s)) 0%nat) as [out hout].
  { intros i hi. destruct (h6 _ (nth_In _ 0%nat hi)) as [n1 [id [n2 n3]]]. set (node := nth i (chosen_nodes nb (sg_idx s)) 0%nat) in *. unfold liselig_node. unfold at_idx at 1. rewrite n2. cbn [rbind]. unfold at_idx at 1.
    rewrite (nth_err _ _ []) by exact n3. cbn [rbind]. set (lys := nth id all []).
    match goal with |- exists b, rbind (mapr ?f ?l) _ = _ => destruct (mapr_ok f l ([], 0)) as [rows hrows] end.
    - intros k hk. rewrite combine_length, hfo, hcy, !map_length in hk. rewrite Nat.min_id in hk. rewrite combine_nth by (rewrite hfo, hcy, !map_length; reflexivity). cbn [fst snd].
      rewrite hfo. rewrite (nth_map_d _ _ _ train0) by lia. destruct (h4 _ (nth_In _ train0 hk)) as [g1 g2]. unfold at_idx. rewrite (nth_err _ _ []) by lia. cbn [rbind].
      unfold train_settlement. destruct (max_of_total (map nabs (nth node (tt_forces (nth k (sg_trains s) train0)) []))) as [m hm].
      + intros e. apply map_eq_nil in e. eapply g2; [|exact e]. apply nth_In. lia.
      + rewrite hm. cbn [rbind]. match goal with |- exists b, rbind (mapr ?f ?l) _ = _ => destruct (mapr_ok f l layer0) as [dv hdv]; [intros q hq; apply dev_stress_ok|rewrite hdv] end. cbn [rbind]. eexists. reflexivity.
    - rewrite hrows. cbn [rbind]. destruct (length (tf_time tf)) as [|k]; [lia|]. cbn [seq map]. eexists. reflexivity. }
  rewrite hout. cbn [rbind ls_nodes ls_disp]. unfold create_results.
  destruct (mapr_ok (at_idx out) (seq 0 (length (chosen_nodes nb (sg_idx s)))) 0%nat) as [rows hrows].
  { intros i hi. rewrite seq_length in hi. rewrite seq_nth by exact hi. cbn [Nat.add]. unfold at_idx. rewrite (nth_err _ _ []); [eexists; reflexivity|]. pose proof (mapr_length _ _ _ hout). lia. }
  rewrite hrows. cbn [rbind]. eexists. reflexivity.
Qed.

Lemma nsum_combine {A B} (g : A * B -> R) l1 : forall (l2 : list B) d1 d2, length l1 = length l2 -> nsum (map g (combine l1 l2)) = sumn (length l1) (fun i => g (nth i l1 d1, nth i l2 d2)).
Proof.
  induction l1 as [|a l1 IH]; intros l2 d1 d2 h; [reflexivity|]. destruct l2 as [|b l2]; [discriminate|]. cbn [combine map length]. rewrite sumn_head. cbn [nsum fold_right nth].
  change (nsum (g (a, b) :: map g (combine l1 l2))) with (g (a, b) + nsum (map g (combine l1 l2))). rewrite (IH l2 d1 d2) by (cbn in h; lia). reflexivity.
Qed.
Lemma node_law_profile layers devs ns n : length devs = length ns -> (forall t, (t < length devs)%nat -> length (nth t devs []) = length layers) -> (forall t, (t < length devs)%nat -> nth t ns 0 = n t) ->
  node_law layers devs ns = profile_law layers devs n.
Proof.
  intros h1 h2 h3. unfold node_law, profile_law. rewrite (nsum_combine _ _ _ [] 0) by exact h1. apply sumn_ext. intros t ht. cbn [fst snd].
  rewrite (nsum_combine _ _ _ layer0 0) by (symmetry; apply h2; exact ht). apply sumn_ext. intros i hi. cbn [fst snd]. rewrite h3 by exact ht. reflexivity.
Qed.
Lemma mapr_nth_error {A B} (f : A -> res B) l out i b : mapr f l = Ok out -> nth_error out i = Some b -> exists a, nth_error l i = Some a /\ f a = Ok b.
Proof.
  revert out i. induction l as [|a l IH]; intros out i h hb; cbn [mapr] in h.
  - assert (out = []) as -> by congruence. destruct i; discriminate.
  - unbind h. unbind h. okinj h. destruct i as [|i]; cbn [nth_error] in hb |- *; [exists a; split; [reflexivity|congruence]|]. apply (IH v0 i); assumption.
Qed.

(** the values of one calculation, for the law of Li and Selig *)
Lemma liselig_values li all tf s steps top N K node row : sound_soils li -> mapr (soil_layers (li_last li)) (li_soils li) = Ok all ->
  reads (sg_trains s) (sg_start s) (sg_end s) steps tf top N K -> (forall t, In t (sg_trains s) -> 0 <= per_day t) ->
  (forall t, In t (sg_trains s) -> 0 < nsum (map per_day (sg_trains s)) * 365 * li_t_ini li + loads s t) ->
  liselig_node li all tf node = Ok row ->
  exists layers devs, node_layers li node layers /\ node_stresses li (sg_trains s) node layers devs /\ length row = K /\
    forall j, (j < K)%nat -> nth j row 0 =
      profile_law layers devs (fun t => loads_before li s K j (nth t (sg_trains s) train0)) - profile_law layers devs (fun t => loads_before li s K 0 (nth t (sg_trains s) train0)).
Proof.
  intros [hti hso] hall hr hday hload hrow. pose proof (rd_cycles _ _ _ _ _ _ _ _ hr) as hcy. pose proof (rd_forces _ _ _ _ _ _ _ _ hr) as hfo. pose proof (rd_day _ _ _ _ _ _ _ _ hr) as hdy.
  assert (hb : before_of li tf = nsum (map per_day (sg_trains s)) * 365 * li_t_ini li) by (unfold before_of; rewrite hdy; reflexivity).
  assert (hb0 : 0 <= before_of li tf). { rewrite hb. apply Rmult_le_pos; [|exact hti]. apply Rmult_le_pos; [|lra]. apply nsum_nonneg. apply Forall_forall. intros x hx. apply in_map_iff in hx. destruct hx as [t [<- ht]]. apply hday. exact ht. }
  destruct (liselig_node_spec li all tf node row hrow) as [id [layers [h1 [h2 [h3 [h4 h5]]]]]].
  { rewrite hcy, hfo, !map_length. reflexivity. }
  { exact hb0. }
  { intros c hc. rewrite hcy in hc. apply in_map_iff in hc. destruct hc as [t [<- ht]]. rewrite hb. apply hload. exact ht. }
  destruct (mapr_nth_error _ _ _ _ _ hall h2) as [so [g1 g2]]. destruct (hso so (nth_error_In _ _ g1)) as [k1 k2]. destruct (soil_layers_spec _ _ _ k1 g2) as [k3 k4].
  assert (hpos : forall i, (i < length layers)%nat -> 0 < ly_strength (nth i layers layer0)) by (intros i hi; apply (k2 i); [lia|apply k4; exact hi]).
  destruct (h5 hpos) as [devs [e1 [e2 e3]]]. rewrite hcy, map_length in e1.
  assert (hK : length (tf_time tf) = K) by (rewrite (rd_time _ _ _ _ _ _ _ _ hr); apply ls_length). rewrite hK in *.
  assert (hst : node_stresses li (sg_trains s) node layers devs).
  { split; [exact e1|]. intros t ht. destruct (e2 t ltac:(lia)) as [p1 [peak [p2 [p3 p4]]]]. split; [exact p3|]. exists peak. rewrite hfo in p1, p2. rewrite (nth_map_d _ _ _ train0) in p1, p2 by exact ht.
    split; [|exact p4]. exists (nth node (tt_forces (nth t (sg_trains s) train0)) []). split; [apply nth_err; exact p1|exact p2]. }
  exists layers, devs. split; [exists id, so; split; [exact h1|]; split; [exact g1|]; split; [exact k3|exact k4]|]. split; [exact hst|]. split; [exact h4|]. intros j hj. rewrite e3 by exact hj.
  assert (hn : forall j', node_law layers devs (map (loads_at (before_of li tf) K j') (tf_cycles tf)) = profile_law layers devs (fun t => loads_before li s K j' (nth t (sg_trains s) train0))).
  { intros j'. apply node_law_profile.
    - rewrite map_length, hcy, map_length. exact e1.
    - intros t ht. destruct hst as [_ hst]. apply hst. lia.
    - intros t ht. rewrite (nth_map_d _ _ _ 0) by (rewrite hcy, map_length; lia). rewrite hcy, (nth_map_d _ _ _ train0) by lia. unfold loads_at, loads_before. rewrite hb. unfold loads, Rdiv. ring. }
  rewrite !hn. reflexivity.
Qed.
Lemma layers_unique li node l l' : sound_soils li -> node_layers li node l -> node_layers li node l' -> l = l'.
Proof.
  intros [_ hs] [id [so [a1 [a2 [a3 a4]]]]] [id' [so' [b1 [b2 [b3 b4]]]]]. assert (id' = id) by congruence. subst. assert (so' = so) by congruence. subst.
  apply (nth_ext _ _ layer0 layer0); [lia|]. intros i hi. specialize (a4 i hi). specialize (b4 i ltac:(lia)). destruct a4 as [c1 [c2 [c3 c4]]]. destruct b4 as [d1 [d2 [d3 d4]]].
  destruct (nth i l layer0), (nth i l' layer0). cbn in *. pose proof (soil_class_unique _ _ _ c1 d1) as e. subst. congruence.
Qed.
Lemma stresses_unique li trains node layers d d' : node_stresses li trains node layers d -> node_stresses li trains node layers d' -> d = d'.
Proof.
  intros [a1 a2] [b1 b2]. apply (nth_ext _ _ [] []); [lia|]. intros t ht. destruct (a2 t ltac:(lia)) as [c1 [p [c2 c3]]]. destruct (b2 t ltac:(lia)) as [e1 [q [e2 e3]]].
  apply (nth_ext _ _ 0 0); [lia|]. intros i hi. assert (p = q) as ->. { destruct c2 as [r1 [x1 x2]], e2 as [r2 [y1 y2]]. assert (r2 = r1) by congruence. subst. eapply is_peak_unique; eassumption. }
  eapply max_shear_unique; [apply c3; lia|apply e3; lia].
Qed.

(** ** one period, fresh or continued *)

Lemma varandas_reach v k l : forall a0 a, (exists st, ac_engine a0 = EVarandas v st) -> ac_steps a0 = k -> do_stages a0 l = Ok a -> (exists st, ac_engine a = EVarandas v st) /\ ac_steps a = k.
Proof.
  induction l as [|s l IH]; intros a0 a h hk h1; cbn [do_stages] in h1; [assert (a0 = a) by congruence; subst; auto|]. unbind h1. apply (IH v0 a); [| |exact h1].
  - destruct (stage_step _ _ _ hv) as [tf [nb [top [N [K [e' [nodes [disp [r' [_ [_ [h3 [_ ->]]]]]]]]]]]]]. cbn [ac_engine]. destruct (engine_step _ _ _ _ _ _ _ _ h3) as [_ [_ [raw [_ [h4 _]]]]]. destruct h as [st he]. rewrite he in h4. inversion h4; subst. eauto.
  - destruct (stage_step _ _ _ hv) as [tf [nb [top [N [K [e' [nodes [disp [r' [_ [_ [_ [_ ->]]]]]]]]]]]]]. exact hk.
Qed.
Lemma liselig_reach li l : forall a0 a, (exists st, ac_engine a0 = ELiSelig li st) -> do_stages a0 l = Ok a -> exists st, ac_engine a = ELiSelig li st.
Proof.
  induction l as [|s l IH]; intros a0 a h h1; cbn [do_stages] in h1; [assert (a0 = a) by congruence; subst; auto|]. unbind h1. apply (IH v a); [|exact h1].
  destruct (stage_step _ _ _ hv) as [tf [nb [top [N [K [e' [nodes [disp [r' [_ [_ [h3 [_ ->]]]]]]]]]]]]]. cbn [ac_engine]. destruct (engine_step _ _ _ _ _ _ _ _ h3) as [_ [_ [raw [_ [h4 _]]]]]. destruct h as [st he]. rewrite he in h4. inversion h4; subst. eauto.
Qed.
Lemma period_rows a0 s a r : linked a0 -> do_stage a0 s = Ok a -> ac_results a = Some r ->
  exists tf top N K raw, reads (sg_trains s) (sg_start s) (sg_end s) (ac_steps a0) tf top N K /\ raw_rows tf (rs_nodes r) raw (ac_engine a0) (ac_engine a) /\
    rs_time r = rs_time (earlier a0 s) ++ tf_time tf /\ length (tf_time tf) = K /\ length (rs_disp r) = length (rs_nodes r) /\ (sg_reload s = true -> ac_results a0 = Some (earlier a0 s)) /\
    forall i, (i < length (rs_nodes r))%nat -> length (nth i raw []) = K /\ length (earlier_row a0 s i) = length (rs_time (earlier a0 s)) /\
      (sg_reload s = true -> (i < length (rs_disp (earlier a0 s)))%nat /\ earlier_row a0 s i <> []) /\
      nth i (rs_disp r) [] = earlier_row a0 s i ++ map (fun x => x + last (earlier_row a0 s i) 0) (nth i raw []).
Proof.
  intros hl h hr. unfold earlier_row, earlier. destruct (sg_reload s) eqn:es.
  - destruct (continued_rows _ _ _ hl h es) as [r0 [r2 [tf [top [N [K [nodes [raw [c1 [c2 [c3 [c4 [c5 [c6 [c7 [c8 c9]]]]]]]]]]]]]]]]. assert (r2 = r) by congruence. subst r2. rewrite c1, c5.
    exists tf, top, N, K, raw. split; [exact c3|]. split; [exact c4|]. split; [exact c6|]. split; [rewrite (rd_time _ _ _ _ _ _ _ _ c3); apply ls_length|]. split; [exact c7|]. split; [reflexivity|]. intros i hi. destruct (c9 i hi) as [p1 [p2 [p3 p4]]].
    split; [exact p2|]. unfold linked in hl. rewrite c1 in hl. destruct hl as [_ [hl _]]. split; [apply hl; exact p1|]. split; [auto|exact p4].
  - destruct (fresh_rows _ _ _ h es) as [r2 [tf [top [N [K [nodes [raw [c2 [c3 [c4 [c5 [c6 [c7 [c8 [c9 _]]]]]]]]]]]]]]]. assert (r2 = r) by congruence. subst r2. rewrite c5.
    exists tf, top, N, K, raw. split; [exact c3|]. split; [exact c4|]. cbn [rs_time rs_disp app]. split; [exact c6|]. split; [rewrite (rd_time _ _ _ _ _ _ _ _ c3); apply ls_length|]. split; [exact c7|]. split; [discriminate|]. intros i hi. destruct (c9 i hi) as [p1 p2].
    split; [exact p1|]. replace (nth i [] []) with (@nil R) by (destruct i; reflexivity). split; [reflexivity|]. split; [discriminate|]. cbn [app last]. rewrite p2. rewrite (map_ext _ (fun x => x)) by (intros; apply Rplus_0_r). symmetry. apply map_id.
Qed.
Lemma varandas_period a0 v st s a r : linked a0 -> ac_engine a0 = EVarandas v st -> do_stage a0 s = Ok a -> ac_results a = Some r ->
  exists tf top N K, reads (sg_trains s) (sg_start s) (sg_end s) (ac_steps a0) tf top N K /\ rs_time r = rs_time (earlier a0 s) ++ tf_time tf /\ length (tf_time tf) = K /\
    forall i, (i < length (rs_nodes r))%nat -> exists raw forces tp,
      length raw = K /\ length (earlier_row a0 s i) = length (rs_time (earlier a0 s)) /\ nth i (rs_disp r) [] = earlier_row a0 s i ++ map (fun x => x + last (earlier_row a0 s i) 0) raw /\
      node_peaks tf (nth i (rs_nodes r) 0%nat) forces /\ max_of forces = Ok tp /\
      forall j, (j < K)%nat -> nth j raw 0 = nth (reported N K j)
        (node_history v tf forces tp (if sg_reload s then match st with Some s0 => nth i (vs_load s0) (0, []) | None => (0, []) end else (0, repeat 0 (length (sg_trains s))))) 0 / 1000.
Proof.
  intros hl he h hr. destruct (period_rows _ _ _ _ hl h hr) as [tf [top [N [K [raw [h1 [h2 [h3 [h4 [h5 [h6 h7]]]]]]]]]]]. exists tf, top, N, K. split; [exact h1|]. split; [exact h3|]. split; [exact h4|]. intros i hi.
  destruct (h7 i hi) as [g1 [g2 [g3 g4]]]. destruct (sg_reload s) eqn:es.
  - destruct (varandas_continued _ _ _ _ _ hl he h es) as [r0 [r' [tf' [top' [N' [K' [raw' [s0 [st' [c1 [c2 [c3 [c4 [c5 [c6 [c7 [c8 c9]]]]]]]]]]]]]]]]]. assert (r' = r) by congruence. subst r'.
    pose proof (reads_unique _ _ _ _ _ _ _ _ _ _ _ _ h1 c3) as ->. destruct (c9 i hi) as [p1 [p2 [p3 [p4 [fo [p5 p6]]]]]].
    destruct (varandas_node_spec _ _ _ _ _ _ _ _ _ _ _ _ h1 p6) as [tp [k1 [k2 [k3 _]]]]. cbn [fst] in k2, k3. exists (nth i raw' []), fo, tp. split; [exact k2|]. split; [exact g2|]. subst st.
    split; [rewrite p4; unfold earlier_row, earlier; rewrite es, c1; reflexivity|]. split; [exact p5|]. split; [exact k1|exact k3].
  - destruct (varandas_fresh _ _ _ _ _ _ he es h hr) as [tf' [top' [N' [K' [st' [c1 [c2 [c3 [c4 [c5 c6]]]]]]]]]]. pose proof (reads_unique _ _ _ _ _ _ _ _ _ _ _ _ h1 c1) as ->. destruct (c6 i hi) as [fo [p5 p6]].
    destruct (varandas_node_spec _ _ _ _ _ _ _ _ _ _ _ _ h1 p6) as [tp [k1 [k2 [k3 _]]]]. cbn [fst] in k2, k3. exists (nth i (rs_disp r) []), fo, tp. split; [exact k2|]. split; [exact g2|].
    split; [|split; [exact p5|split; [exact k1|exact k3]]]. unfold earlier_row, earlier. rewrite es. cbn [rs_disp]. replace (nth i [] []) with (@nil R) by (destruct i; reflexivity). cbn [app last].
    rewrite (map_ext _ (fun x => x)) by (intros; apply Rplus_0_r). symmetry. apply map_id.
Qed.
Lemma liselig_period a0 li st s a r : linked a0 -> ac_engine a0 = ELiSelig li st -> sound_soils li -> (forall t, In t (sg_trains s) -> 0 <= per_day t) ->
  (forall t, In t (sg_trains s) -> 0 < nsum (map per_day (sg_trains s)) * 365 * li_t_ini li + loads s t) -> do_stage a0 s = Ok a -> ac_results a = Some r ->
  exists tf K, rs_time r = rs_time (earlier a0 s) ++ tf_time tf /\ length (tf_time tf) = K /\
    forall i, (i < length (rs_nodes r))%nat -> exists raw layers devs, node_layers li (nth i (rs_nodes r) 0%nat) layers /\ node_stresses li (sg_trains s) (nth i (rs_nodes r) 0%nat) layers devs /\
      length raw = K /\ length (earlier_row a0 s i) = length (rs_time (earlier a0 s)) /\ nth i (rs_disp r) [] = earlier_row a0 s i ++ map (fun x => x + last (earlier_row a0 s i) 0) raw /\
      forall j, (j < K)%nat -> nth j raw 0 =
        profile_law layers devs (fun t => loads_before li s K j (nth t (sg_trains s) train0)) - profile_law layers devs (fun t => loads_before li s K 0 (nth t (sg_trains s) train0)).
Proof.
  intros hl he hs hd hld h hr. destruct (period_rows _ _ _ _ hl h hr) as [tf [top [N [K [raw [h1 [h2 [h3 [h4 [h5 [h6 h7]]]]]]]]]]]. rewrite he in h2. inversion h2 as [|li' st0 st' all k1 k2 k3 k4]; subst. exists tf, (length (tf_time tf)). split; [exact h3|]. split; [reflexivity|].
  intros i hi. destruct (h7 i hi) as [g1 [g2 [g3 g4]]]. destruct (liselig_values li all tf s _ top N _ _ _ hs k1 h1 hd hld (k2 i hi)) as [lys [dv [e1 [e2 [e3 e4]]]]].
  exists (nth i raw []), lys, dv. split; [exact e1|]. split; [exact e2|]. split; [exact e3|]. split; [exact g2|]. split; [exact g4|exact e4].
Qed.

Lemma period_nodes a0 s a r : do_stage a0 s = Ok a -> ac_results a = Some r -> exists nb, sg_trains s <> [] /\ (forall t, In t (sg_trains s) -> length (tt_forces t) = nb) /\ rs_nodes r = chosen_nodes nb (sg_idx s).
Proof.
  intros h hr. destruct (stage_step _ _ _ h) as [tf [nb [top [N [K [e' [nodes [disp [r' [h1 [h2 [h3 [h4 ->]]]]]]]]]]]]]. cbn in hr. assert (r' = r) by congruence. subst r'. exists nb. split.
  - destruct (rd_top _ _ _ _ _ _ _ _ h1) as [q _]. rewrite (rd_cycles _ _ _ _ _ _ _ _ h1) in q. intros e. rewrite e in q. destruct q.
  - split; [exact h2|]. destruct (engine_step _ _ _ _ _ _ _ _ h3) as [<- _]. destruct (sg_reload s); [destruct (results_continued _ _ _ _ _ h4) as [? [_ [-> _]]]; reflexivity|destruct (results_fresh _ _ _ _ _ h4) as [-> _]; reflexivity].
Qed.
Lemma same_nodes a0 b0 s a b ra rb : do_stage a0 s = Ok a -> do_stage b0 s = Ok b -> ac_results a = Some ra -> ac_results b = Some rb -> rs_nodes ra = rs_nodes rb.
Proof.
  intros h1 h2 h3 h4. destruct (period_nodes _ _ _ _ h1 h3) as [n [p1 [p2 ->]]]. destruct (period_nodes _ _ _ _ h2 h4) as [m [q1 [q2 ->]]]. destruct (sg_trains s) as [|t l]; [congruence|].
  rewrite <- (p2 t), <- (q2 t) by (left; reflexivity). reflexivity.
Qed.

(** ** continuing is possible *)

Lemma cycle_maxs_length v F nb cs : forall fs ms h acc, length (snd (fst (cycle_trains v F nb cs fs ms h acc))) = length ms.
Proof.
  induction cs as [|c cs IH]; intros fs ms h acc; [reflexivity|]. destruct fs as [|f fs]; [reflexivity|]. destruct ms as [|m ms]; [reflexivity|]. cbn [cycle_trains]. destruct (nleb nb c).
  - match goal with |- context [cycle_trains v F nb cs fs ms ?h ?a] => specialize (IH fs ms h a); destruct (cycle_trains v F nb cs fs ms h a) as [[h' m'] a'] end. cbn in IH |- *. congruence.
  - specialize (IH fs ms h acc). destruct (cycle_trains v F nb cs fs ms h acc) as [[h' m'] a']. cbn in IH |- *. congruence.
Qed.
Lemma final_load_length v F cs fs count : forall h ms, length (snd (final_load v F cs fs count h ms)) = length ms.
Proof.
  induction count as [|nb count IH]; intros h ms; [reflexivity|]. cbn [final_load]. pose proof (cycle_maxs_length v F nb cs fs ms h 0) as e. destruct (cycle_trains v F nb cs fs ms h 0) as [[h' m'] a']. cbn in e. rewrite IH. exact e.
Qed.
Lemma varandas_state v st steps s a r : sg_reload s = false -> do_stage {| ac_engine := EVarandas v st; ac_steps := steps; ac_traffic := None; ac_results := None |} s = Ok a -> ac_results a = Some r -> (1 <= length (rs_time r))%nat ->
  exists s0, ac_engine a = EVarandas v (Some s0) /\ length (vs_load s0) = length (rs_nodes r) /\ (forall l, In l (vs_load s0) -> length (snd l) = length (sg_trains s)) /\
    length (vs_disp s0) = length (rs_nodes r) /\ (forall row, In row (vs_disp s0) -> row <> []) /\ length (rs_disp r) = length (rs_nodes r).
Proof.
  intros hre h hr hK. destruct (stage_step _ _ _ h) as [tf [nb [top [N [K [e' [nodes [disp [r' [h1 [h2 [h3 [h4 h5]]]]]]]]]]]]]. rewrite hre in *. cbn [ac_engine ac_results ac_steps] in *. subst a. cbn [ac_results ac_engine] in *. assert (r' = r) by congruence. subst r'.
  destruct (results_fresh _ _ _ _ _ h4) as [q2 [q3 [q4 q5]]]. destruct (engine_step _ _ _ _ _ _ _ _ h3) as [e1 [e2 [raw [e3 [e4 [-> [e6 _]]]]]]]. inversion e4 as [v' st0 st' start g1 g2 g3 g4|]; subst.
  exists st'. split; [reflexivity|]. split; [exact g3|]. destruct (e6 eq_refl v st eq_refl) as [st2 [w1 w2]]. assert (st2 = st') by congruence. subst st2. split.
  - intros l hlin. destruct (In_nth _ _ (0, []) hlin) as [i [hi <-]]. rewrite g3 in hi. destruct (w2 i hi) as [fo [x1 x2]]. destruct (varandas_node_spec _ _ _ _ _ _ _ _ _ _ _ _ h1 x2) as [tp [_ [_ [_ k4]]]]. cbn [snd] in k4. rewrite k4, final_load_length. cbn [snd]. rewrite repeat_length. apply (reads_cycles_length _ _ _ _ _ _ _ _ h1).
  - cbn [engine_disp option_map] in e2. assert (vs_disp st' = raw) as -> by congruence. split; [exact e3|]. split; [|exact q4]. intros row hrow e. destruct (In_nth _ _ [] hrow) as [i [hi <-]]. rewrite e3 in hi.
    pose proof (raw_length _ _ _ _ _ _ _ _ _ _ _ _ i h1 e4 hi) as hlen. rewrite e in hlen. cbn in hlen. rewrite q3, (rd_time _ _ _ _ _ _ _ _ h1), ls_length in hK. lia.
Qed.
Lemma varandas_again a0 v s0 s nb r0 : linked a0 -> ac_engine a0 = EVarandas v (Some s0) -> ac_results a0 = Some r0 -> sg_reload s = true -> (1 <= ac_steps a0)%nat -> sg_trains s <> [] ->
  (forall t, In t (sg_trains s) -> length (tt_forces t) = nb /\ forall row, In row (tt_forces t) -> row <> []) ->
  (exists t, In t (sg_trains s) /\ -1 < loads s t) -> (forall i, In i (sg_idx s) -> (i < nb)%nat) -> let nodes := chosen_nodes nb (sg_idx s) in
  length (vs_load s0) = length nodes -> (forall l, In l (vs_load s0) -> (length (sg_trains s) <= length (snd l))%nat) -> length (vs_disp s0) = length nodes -> (forall row, In row (vs_disp s0) -> row <> []) ->
  (length nodes <= length (rs_disp r0))%nat -> exists a, do_stage a0 s = Ok a.
Proof.
  intros hli he hres h1 h2 h3 h4 h5 h6 nodes n1 n2 n3 n4 n5. destruct (read_total (sg_trains s) (sg_start s) (sg_end s) (ac_steps a0) nb h3 (fun t ht => proj1 (h4 t ht)) h2 h5) as [tf htf].
  unfold do_stage, set_traffic. rewrite htf. cbn [rbind]. unfold calculate_settlement. cbn [ac_traffic ac_engine ac_results ac_steps]. rewrite h1, he, hres.
  assert (hread : exists top N K, reads (sg_trains s) (sg_start s) (sg_end s) (ac_steps a0) tf top N K).
  { unfold read_traffic in htf. destruct (map _ (sg_trains s)) as [|n rest]; [discriminate|]. destruct (forallb _ _); [|discriminate]. unbind htf. assert (v0 = tf) by congruence. subst v0. apply read_info_ok. exact hv. }
  destruct hread as [top [N [K hr]]]. pose proof (rd_forces _ _ _ _ _ _ _ _ hr) as hfo. pose proof (reads_cycles_length _ _ _ _ _ _ _ _ hr) as hcl.
  assert (hnodes : forall i, In i nodes -> (i < nb)%nat).
  { unfold nodes, chosen_nodes. destruct (sg_idx s) as [|i0 idx]; [intros i hi; apply in_seq in hi; lia|exact h6]. }
  destruct (mapr_ok (fun row : list R => match row with [] => Err ErrIndex | x :: _ => Ok (last row x) end) (vs_disp s0) []) as [prev hprev].
  { intros i hi. specialize (n4 _ (nth_In _ [] hi)). destruct (nth i (vs_disp s0) []) as [|x l]; [congruence|]. eexists. reflexivity. }
  destruct (mapr_ok peaks (tf_forces tf) []) as [pk hpk].
  { intros t ht. rewrite hfo in *. rewrite map_length in ht. rewrite (nth_map_d _ _ _ train0) by exact ht. unfold peaks. apply (mapr_ok _ _ []). intros i hi. apply max_of_total.
    intros e. apply map_eq_nil in e. destruct (h4 (nth t (sg_trains s) train0) (nth_In _ _ ht)) as [_ hrow]. apply (hrow _ (nth_In _ [] hi)). exact e. }
  destruct (mapr_ok (node_forces pk) nodes 0%nat) as [fo hfo2].
  { intros i hi. unfold node_forces. apply (mapr_ok _ _ []). intros t ht. pose proof (mapr_length _ _ _ hpk) as hl. pose proof (mapr_nth _ _ _ t [] [] hpk ltac:(lia)) as hp.
    unfold peaks in hp. pose proof (mapr_length _ _ _ hp) as hl2. rewrite hfo in hl, hl2. rewrite map_length in hl. rewrite (nth_map_d _ _ _ train0) in hl2 by lia.
    destruct (h4 (nth t (sg_trains s) train0)) as [hn _]; [apply nth_In; lia|]. specialize (hnodes _ (nth_In _ 0%nat hi)).
    unfold at_idx. rewrite (nth_err _ _ 0) by lia. cbn [rbind]. eexists. reflexivity. }
  destruct (mapr_ok (fun p => varandas_node v tf (fst p) (snd p)) (combine fo (vs_load s0)) ([], (0, []))) as [out hout].
  { intros i hi. rewrite combine_length in hi. set (q := nth i (combine fo _) _). pose proof (mapr_length _ _ _ hfo2) as hl.
    assert (hq : fst q = nth i fo []). { unfold q. rewrite combine_nth by lia. reflexivity. }
    unfold varandas_node. rewrite hq. destruct (max_of_total (nth i fo [])) as [m hm].
    - pose proof (mapr_nth _ _ _ i 0%nat [] hfo2 ltac:(lia)) as hn. pose proof (mapr_length _ _ _ hn) as hl2. pose proof (mapr_length _ _ _ hpk) as hl3. rewrite hfo, map_length in hl3.
      intros e. rewrite e in hl2. cbn in hl2. destruct (sg_trains s); [congruence|]. cbn in hl3. lia.
    - rewrite hm. cbn [rbind]. destruct (run_cycles _ _ _ _ _ _ _ _ _ _) as [[d h'] m']. eexists. reflexivity. }
  assert (hlout : length out = length nodes) by (pose proof (mapr_length _ _ _ hout) as hl; pose proof (mapr_length _ _ _ hfo2) as hl2; rewrite combine_length in hl; lia).
  cbn [engine_settlement]. unfold varandas_settlement, last_column. rewrite hprev. cbn [rbind]. rewrite hpk. cbn [rbind]. fold nodes. rewrite hfo2. cbn [rbind]. rewrite hcl.
  assert (hb : Nat.eqb (length (vs_load s0)) (length nodes) && forallb (fun l => Nat.leb (length (sg_trains s)) (length (snd l))) (vs_load s0) = true).
  { rewrite n1, Nat.eqb_refl. cbn [andb]. apply forallb_forall. intros l hin. apply Nat.leb_le. apply n2. exact hin. }
  rewrite hb. cbn [rbind]. rewrite hout. cbn [rbind]. unfold add_column. pose proof (mapr_length _ _ _ hprev) as hlp. rewrite map_length, hlout, hlp, n3, Nat.eqb_refl. cbn [rbind vs_nodes vs_disp]. unfold create_results.
  match goal with |- context [mapr ?f ?l] => destruct (mapr_ok f l 0%nat) as [rows hrows] end.
  { intros i hi. rewrite seq_length in hi. rewrite seq_nth by exact hi. cbn [Nat.add]. unfold at_idx at 1. rewrite (nth_err _ _ []) by lia. cbn [rbind]. unfold at_idx. rewrite (nth_err _ _ []) by (rewrite map_length, combine_length, map_length; lia). eexists. reflexivity. }
  rewrite hrows. cbn [rbind]. eexists. reflexivity.
Qed.
