(** * Proofs about settlement accumulation: the law of Li and Selig *)

From Coq Require Import Reals List Bool ZArith Arith Lia Lra Psatz.
From Coq Require String.
From Verif Require Import Num PyBase Model_Element Model_Moving Model_Coupled Model_Accumulation Spec_Accumulation
  Proofs_System Proofs_Moving Proofs_Coupled Proofs_Accumulation Proofs_Classes.
Import ListNotations.
Local Open Scope R_scope.

(** ** stress under a strip *)

Lemma strip_stress_shear (q a z x : R) : strip_stress q a z x = shear q a z x.
Proof.
  unfold strip_stress, shear, seen_angle. rnum. cbv zeta. cbn [nsin ncos natan npi RTrig]. unfold sq. rnum.
  set (t1 := atan ((x + a) / z)). set (t2 := atan ((x - a) / z)). pose proof (sin2_cos2 t1) as p1. pose proof (sin2_cos2 t2) as p2. unfold Rsqr in p1, p2.
  set (k := q / PI). match goal with |- context [sqrt ?y] => set (r := y) end.
  assert (hr : r = Rsqr (k * sin (t1 - t2))).
  { unfold r, Rsqr. rewrite sin_minus. set (s1 := sin t1) in *. set (c1 := cos t1) in *. set (s2 := sin t2) in *. set (c2 := cos t2) in *.
    assert (e1 : s1 * s1 = 1 - c1 * c1) by lra. assert (e2 : s2 * s2 = 1 - c2 * c2) by lra.
    replace ((k * (t1 - t2 - s1 * c1 + s2 * c2) - k * (t1 - t2 + s1 * c1 - s2 * c2)) / 2) with (- k * (s1 * c1 - s2 * c2)) by field.
    transitivity (k * k * (c1 * c1 * (s1 * s1) + c2 * c2 * (s2 * s2) - 2 * (s1 * c1 * s2 * c2) + (c2 * c2 - c1 * c1) * (c2 * c2 - c1 * c1))); [ring|].
    transitivity (k * k * (s1 * s1 * (c2 * c2) + c1 * c1 * (s2 * s2) - 2 * (s1 * c2 * c1 * s2))); [|ring]. rewrite e1, e2. ring. }
  assert (hk : Rabs k = Rabs q / PI) by (unfold k, Rdiv; rewrite Rabs_mult, Rabs_inv, (Rabs_right PI) by (left; apply PI_RGT_0); reflexivity).
  rewrite hr, sqrt_Rsqr_abs, Rabs_mult, hk. field. apply PI_neq0.
Qed.
Lemma shear_nonneg q a z x : 0 <= shear q a z x.
Proof.
  unfold shear. apply Rmult_le_pos; [|apply Rabs_pos]. unfold Rdiv. apply Rmult_le_pos; [apply Rabs_pos|]. left. apply Rinv_0_lt_compat, PI_RGT_0.
Qed.
Lemma dev_stress_spec q a z d : dev_stress q a z = Ok d -> is_max_shear q a z d.
Proof.
  intros h. apply max_of_ok in h. destruct h as [h1 h2].
  assert (hp : forall k, (k < 100)%nat -> nth k (linspace_nat (lit (-10) * a)%num (lit 10 * a)%num 100) 0 = position a k).
  { intros k hk. rewrite ls_nth by lia. unfold position. rnum. replace (INR (100 - 1)) with 99 by (cbn; lra). field. }
  split.
  - apply in_map_iff in h1. destruct h1 as [x [e hx]]. destruct (In_nth _ _ 0 hx) as [k [hk ek]]. rewrite ls_length in hk. exists k. split; [exact hk|].
    rewrite <- hp by exact hk. rewrite ek, <- e. apply strip_stress_shear.
  - intros k hk. rewrite <- hp by exact hk. rewrite <- strip_stress_shear. apply h2. apply in_map. apply nth_In. rewrite ls_length. exact hk.
Qed.
Lemma dev_stress_ok q a z : exists d, dev_stress q a z = Ok d.
Proof.
  unfold dev_stress. destruct (max_of_spec (map (strip_stress q a z) (linspace_nat (lit (-10) * a)%num (lit 10 * a)%num 100))) as [d [h _]]; [|exists d; exact h].
  intros e. apply (f_equal (@length R)) in e. rewrite map_length, ls_length in e. discriminate.
Qed.
Lemma max_shear_nonneg q a z d : is_max_shear q a z d -> 0 <= d.
Proof. intros [[k [_ ->]] _]. apply shear_nonneg. Qed.

(** ** layers *)

Lemma abs_diff_length (l : list R) : length (abs_diff l) = (length l - 1)%nat.
Proof. induction l as [|a [|b l] IH]; try reflexivity. change (abs_diff (a :: b :: l)) with (nabs (nsub b a) :: abs_diff (b :: l)). cbn [length] in *. rewrite IH. lia. Qed.
Lemma abs_diff_nth (l : list R) : forall i, (S i < length l)%nat -> nth i (abs_diff l) 0 = Rabs (nth (S i) l 0 - nth i l 0).
Proof.
  induction l as [|a [|b l] IH]; intros i hi; try (cbn in hi; lia). change (abs_diff (a :: b :: l)) with (nabs (nsub b a) :: abs_diff (b :: l)).
  destruct i as [|i]; [cbn [nth]; apply nabs_R|]. cbn [nth]. rewrite IH by (cbn in *; lia). reflexivity.
Qed.
Lemma zip_layers_nth ps ts zs gs phs cs d : forall i, (i < length ps)%nat -> length ts = length ps -> length zs = length ps -> length gs = length ps ->
  length phs = length ps -> length cs = length ps ->
  length (zip_layers ps ts zs gs phs cs) = length ps /\
  nth i (zip_layers ps ts zs gs phs cs) d =
  {| ly_a := fst (fst (nth i ps (0, 0, 0))); ly_b := snd (fst (nth i ps (0, 0, 0))); ly_m := snd (nth i ps (0, 0, 0)); ly_thickness := nth i ts 0; ly_mid := nth i zs 0;
     ly_strength := strength (nth i gs 0) (nth i zs 0) (nth i phs 0) (nth i cs 0) |}.
Proof.
  revert ts zs gs phs cs. induction ps as [|[[a b] m] ps IH]; intros ts zs gs phs cs i hi h1 h2 h3 h4 h5; [cbn in hi; lia|].
  destruct ts as [|t ts], zs as [|z zs], gs as [|g gs], phs as [|ph phs], cs as [|c cs]; cbn in h1, h2, h3, h4, h5; try lia. cbn [zip_layers length].
  destruct i as [|i].
  - destruct ps as [|p ps].
    + split; [|reflexivity]. cbn. destruct ts; [|cbn in h1; lia]. reflexivity.
    + destruct (IH ts zs gs phs cs 0%nat) as [i1 i2]; try lia; [cbn; lia|]. split; [rewrite i1; reflexivity|reflexivity].
  - destruct (IH ts zs gs phs cs i) as [i1 i2]; try lia; [cbn in hi; lia|]. split; [rewrite i1; reflexivity|]. cbn [nth]. exact i2.
Qed.
Lemma soil_layers_spec last s lys : complete s -> soil_layers last s = Ok lys ->
  length lys = length (so_names s) /\ forall i, (i < length lys)%nat -> is_layer last s i (nth i lys layer0).
Proof.
  intros [c0 [c1 [c2 [c3 c4]]]] h. unfold soil_layers in h. unbind h. unbind h. match type of h with Ok ?x = Ok ?y => assert (y = x) as -> by congruence end.
  unfold z_middles in hv0. destruct (so_top s) as [|z0 zs] eqn:et; [discriminate|]. rewrite <- et in hv0.
  match type of hv0 with Ok ?x = Ok ?y => assert (y = x) as -> by congruence end. clear hv0 h.
  assert (htop : length (so_top s) = length (so_names s)) by (rewrite et; exact c4).
  pose proof (mapr_length _ _ _ hv) as hl. assert (hth : length (thicknesses last s) = length (so_names s)).
  { unfold thicknesses. rewrite abs_diff_length, app_length, et. cbn [length] in *. lia. }
  assert (hlen : forall i, (i < length (so_names s))%nat -> _) by (intros i hi; refine (zip_layers_nth v (thicknesses last s) (map (fun q => nadd (nabs (nsub (fst q) z0)) (ndiv (snd q) (lit 2))) (combine (so_top s) (thicknesses last s))) (so_gamma s) (so_phi s) (so_cohesion s) layer0 i _ _ _ _ _ _); rewrite ?map_length, ?combine_length, ?hth, ?et; cbn [length] in *; lia).
  split.
  - destruct (hlen 0%nat ltac:(lia)) as [h1 _]. rewrite h1. exact hl.
  - intros i hi. destruct (hlen 0%nat ltac:(lia)) as [h1 _]. rewrite h1, hl in hi. destruct (hlen i hi) as [_ h2]. rewrite h2. clear hlen h1 h2.
    assert (eth : nth i (thicknesses last s) 0 = Rabs (layer_bottom last s i - nth i (so_top s) 0)).
    { unfold thicknesses, layer_bottom. rewrite abs_diff_nth by (rewrite app_length, htop; cbn [length]; lia). rewrite (app_nth1 (so_top s) [last] 0 (n := i)) by (rewrite htop; exact hi). reflexivity. }
    assert (emid : nth i (map (fun q => nadd (nabs (nsub (fst q) z0)) (ndiv (snd q) (lit 2))) (combine (so_top s) (thicknesses last s))) 0
                 = Rabs (nth i (so_top s) 0 - nth 0 (so_top s) 0) + nth i (thicknesses last s) 0 / 2).
    { rewrite (nth_map0 _ _ _ (0, 0)) by (rewrite combine_length, hth, htop; lia).
      rewrite combine_nth by (rewrite hth, htop; reflexivity). cbn [fst snd]. rewrite nabs_R. rewrite et at 3. reflexivity. }
    unfold is_layer. cbn [ly_a ly_b ly_m ly_thickness ly_mid ly_strength]. split; [|split; [exact eth|split; [exact emid|]]].
    + apply classify_spec. rewrite (mapr_nth _ _ _ i String.EmptyString (0, 0, 0) hv hi). destruct (nth i v (0, 0, 0)) as [[a b] m]. reflexivity.
    + unfold strength, tan. reflexivity.
Qed.

(** ** the law *)

Lemma layer_settlement_law ly d n : 0 <= d -> 0 < ly_strength ly -> 0 < n -> layer_settlement ly d n = power_law ly d n.
Proof.
  intros h1 h2 h3. unfold layer_settlement, power_law. rnum. assert (0 <= d / ly_strength ly) by (unfold Rdiv; apply Rmult_le_pos; [exact h1|left; apply Rinv_0_lt_compat; exact h2]).
  rewrite !pw_power, (power_pos n) by lra. reflexivity.
Qed.
Lemma power_law_monotone ly d n n' : 0 <= ly_a ly -> 0 <= ly_b ly -> 0 <= ly_thickness ly -> 0 < n <= n' -> power_law ly d n <= power_law ly d n'.
Proof.
  intros h1 h2 h3 h4. unfold power_law. pose proof (Rle_Rpower_l n n' (ly_b ly) h2 h4) as h5. pose proof (power_nonneg (d / ly_strength ly) (ly_m ly)) as h6.
  apply Rmult_le_compat_r; [exact h3|]. apply Rmult_le_compat_l; [apply Rmult_le_pos; assumption|exact h5].
Qed.

(** settlement of a node, without the initial value, after the numbers of loads [ns] of the trains *)
Definition node_law (layers : list (layer R)) (devs : list (list R)) (ns : list R) : R :=
  nsum (map (fun q => nsum (map (fun p => power_law (fst p) (snd p) (snd q)) (combine layers (fst q)))) (combine devs ns)).
Definition loads_at (before : R) (K j : nat) (c : R) : R := 1 + before + INR j * (c - 1) / INR (K - 1).

Lemma nth_map_d {A B} (f : A -> B) l i a b : (i < length l)%nat -> nth i (map f l) b = f (nth i l a).
Proof. intros h. rewrite (nth_indep _ b (f a)) by (rewrite map_length; exact h). apply map_nth. Qed.

Definition before_of (li : liselig R) (tf : traffic R) : R := nsum (tf_cycles_day tf) * 365 * li_t_ini li.
Definition load_stress (li : liselig R) (peak : R) : R := peak / (li_length li * li_width li) / 1000.

(** the peak force of train [t] at a node, the shear stresses in the layers *)
Definition train_devs (li : liselig R) (layers : list (layer R)) (force : list R) (devs : list R) : Prop :=
  exists peak, is_peak force peak /\ length devs = length layers /\
    forall i, (i < length layers)%nat -> is_max_shear (load_stress li peak) (li_width li / 2) (ly_mid (nth i layers layer0)) (nth i devs 0).

Lemma peak_spec (force : list R) p : max_of (map nabs force) = Ok p -> is_peak force p.
Proof.
  intros h. apply max_of_ok in h. destruct h as [h1 h2]. split.
  - apply in_map_iff in h1. destruct h1 as [f [e hf]]. exists f. split; [exact hf|]. rewrite <- e. symmetry. apply nabs_R.
  - intros f hf. rewrite <- nabs_R. apply h2. apply in_map. exact hf.
Qed.
Lemma loads_at_ls before K j c : (j < K)%nat -> nth j (linspace_nat (1 + before) (before + c) K) 0 = loads_at before K j c.
Proof.
  intros h. unfold loads_at. destruct (Nat.eq_dec K 1) as [->|hk].
  - replace j with 0%nat by lia. cbn. unfold Rdiv. ring.
  - rewrite ls_nth by lia. unfold Rdiv. ring.
Qed.
Lemma loads_at_pos before K j c : (j < K)%nat -> 0 <= before -> 0 < before + c -> 0 < loads_at before K j c.
Proof.
  intros h h1 h2. unfold loads_at. destruct (Nat.eq_dec K 1) as [->|hk].
  - replace j with 0%nat by lia. cbn [INR]. unfold Rdiv. rewrite Rmult_0_l, Rmult_0_l. lra.
  - assert (hK : 0 < INR (K - 1)) by (apply lt_0_INR; lia). set (x := INR j / INR (K - 1)). replace (INR j * (c - 1) / INR (K - 1)) with (x * (c - 1)) by (unfold x; field; lra).
    assert (0 <= x) by (unfold x, Rdiv; apply Rmult_le_pos; [apply pos_INR|left; apply Rinv_0_lt_compat; exact hK]).
    assert (x <= 1). { unfold x. apply (Rmult_le_reg_r (INR (K - 1))); [exact hK|]. unfold Rdiv. rewrite Rmult_assoc, Rinv_l by lra. rewrite Rmult_1_l, Rmult_1_r. apply le_INR. lia. }
    destruct (Rle_lt_dec 1 c); nra.
Qed.

Section Node.
  Variables (li : liselig R) (layers : list (layer R)) (tf : traffic R) (node : nat) (K : nat).
  Hypothesis strong : forall i, (i < length layers)%nat -> 0 < ly_strength (nth i layers layer0).
  Let before := before_of li tf.

  Lemma train_settlement_spec force c row : 0 <= before -> 0 < before + c ->
    train_settlement li layers force (tf_cycles_day tf) c K = Ok row ->
    exists devs, train_devs li layers force devs /\ length row = K /\
      forall j, (j < K)%nat -> nth j row 0 = nsum (map (fun p => power_law (fst p) (snd p) (loads_at before K j c)) (combine layers devs)).
  Proof.
    intros hb hc h. unfold train_settlement in h. unbind h. unbind h. match type of h with Ok ?x = Ok ?y => assert (y = x) as -> by congruence end. clear h.
    pose proof (mapr_length _ _ _ hv0) as hl.
    assert (hmax : forall i, (i < length layers)%nat -> is_max_shear (load_stress li v) (li_width li / 2) (ly_mid (nth i layers layer0)) (nth i v0 0)).
    { intros i hi. apply dev_stress_spec. exact (mapr_nth _ _ _ i layer0 0 hv0 hi). }
    exists v0. split; [exists v; split; [apply peak_spec; exact hv|split; [exact hl|exact hmax]]|].
    split; [rewrite map_length; apply ls_length|]. intros j hj. rewrite (nth_map0 _ _ _ 0) by (rewrite ls_length; exact hj).
    rnum. change (nsum (tf_cycles_day tf) * 365 * li_t_ini li) with before. rewrite loads_at_ls by exact hj.
    apply nsum_map_ext. intros [ly d] hp. cbn [fst snd]. destruct (In_nth _ _ (layer0, 0) hp) as [i [hi e]]. rewrite combine_length, hl, Nat.min_id in hi. rewrite combine_nth in e by (symmetry; exact hl).
    assert (ly = nth i layers layer0 /\ d = nth i v0 0) as [-> ->] by (split; congruence).
    apply layer_settlement_law; [eapply max_shear_nonneg; apply hmax; exact hi|apply strong; exact hi|]. apply loads_at_pos; assumption.
  Qed.
End Node.

(** ** one node *)

Lemma liselig_node_spec li all tf node row : liselig_node li all tf node = Ok row ->
  let K := length (tf_time tf) in
  let before := before_of li tf in
  length (tf_forces tf) = length (tf_cycles tf) ->
  0 <= before -> (forall c, In c (tf_cycles tf) -> 0 < before + c) ->
  exists id_s layers, nth_error (li_soil_id li) node = Some id_s /\ nth_error all id_s = Some layers /\ (1 <= K)%nat /\ length row = K /\
    ((forall i, (i < length layers)%nat -> 0 < ly_strength (nth i layers layer0)) ->
     exists devs, length devs = length (tf_cycles tf) /\
       (forall t, (t < length devs)%nat -> (node < length (nth t (tf_forces tf) []))%nat /\ train_devs li layers (nth node (nth t (tf_forces tf) []) []) (nth t devs [])) /\
       forall j, (j < K)%nat -> nth j row 0 = node_law layers devs (map (loads_at before K j) (tf_cycles tf)) - node_law layers devs (map (loads_at before K 0) (tf_cycles tf))).
Proof.
  intros h K before hlen hb hc. unfold liselig_node in h. unbind h. unbind h. unbind h. apply at_idx_ok in hv, hv0. exists v, v0. split; [exact hv|]. split; [exact hv0|].
  set (total := map (fun j => nsum (map (fun row => nth j row (lit 0)) v1)) (seq 0 (length (tf_time tf)))) in h.
  assert (htot : length total = K) by (unfold total; rewrite map_length, seq_length; reflexivity).
  destruct total as [|d0 rest] eqn:et; [discriminate|]. match type of h with Ok ?x = Ok ?y => assert (y = x) as -> by congruence end.
  assert (hK : (1 <= K)%nat) by (cbn [length] in htot; lia). split; [exact hK|]. split; [rewrite map_length; exact htot|]. intros hs.
  pose proof (mapr_length _ _ _ hv1) as hl. rewrite combine_length, hlen, Nat.min_id in hl.
  assert (hrow : forall t, (t < length (tf_cycles tf))%nat -> exists devs, (node < length (nth t (tf_forces tf) []))%nat /\ train_devs li v0 (nth node (nth t (tf_forces tf) []) []) devs /\
     length (nth t v1 []) = K /\ forall j, (j < K)%nat -> nth j (nth t v1 []) 0 = nsum (map (fun p => power_law (fst p) (snd p) (loads_at before K j (nth t (tf_cycles tf) 0))) (combine v0 devs))).
  { intros t ht. assert (h1 := mapr_nth _ _ _ t ([], 0) [] hv1 ltac:(rewrite combine_length; lia)). cbv beta in h1. rewrite combine_nth in h1 by exact hlen. cbn [fst snd] in h1.
    unbind h1. destruct (at_idx_nth _ _ _ [] hv2) as [n1 n2]. destruct (train_settlement_spec li v0 tf K hs v2 (nth t (tf_cycles tf) 0) (nth t v1 [])) as [devs [d1 [d2 d3]]]; try assumption.
    - apply hc. apply nth_In. exact ht.
    - exists devs. split; [exact n1|]. rewrite n2. auto. }
  assert (hdevs : exists devs, length devs = length (tf_cycles tf) /\ forall t, (t < length (tf_cycles tf))%nat -> (node < length (nth t (tf_forces tf) []))%nat /\ train_devs li v0 (nth node (nth t (tf_forces tf) []) []) (nth t devs []) /\
     forall j, (j < K)%nat -> nth j (nth t v1 []) 0 = nsum (map (fun p => power_law (fst p) (snd p) (loads_at before K j (nth t (tf_cycles tf) 0))) (combine v0 (nth t devs [])))).
  { assert (gen : forall n, (n <= length (tf_cycles tf))%nat -> exists devs, length devs = n /\ forall t, (t < n)%nat -> (node < length (nth t (tf_forces tf) []))%nat /\ train_devs li v0 (nth node (nth t (tf_forces tf) []) []) (nth t devs []) /\
     forall j, (j < K)%nat -> nth j (nth t v1 []) 0 = nsum (map (fun p => power_law (fst p) (snd p) (loads_at before K j (nth t (tf_cycles tf) 0))) (combine v0 (nth t devs [])))).
    { induction n as [|n IH]; intros hn; [exists []; split; [reflexivity|intros; lia]|]. destruct IH as [devs [l1 l2]]; [lia|]. destruct (hrow n) as [dv [r1 [r2 [_ r3]]]]; [lia|].
      exists (devs ++ [dv]). split; [rewrite app_length; cbn; lia|]. intros t ht. destruct (Nat.eq_dec t n) as [->|hne].
      - rewrite app_nth2 by lia. rewrite l1, Nat.sub_diag. cbn [nth]. auto.
      - rewrite app_nth1 by lia. apply l2. lia. }
    apply gen. lia. }
  destruct hdevs as [devs [l1 l2]]. exists devs. split; [exact l1|]. split; [intros t ht; rewrite l1 in ht; destruct (l2 t ht) as [a1 [a2 _]]; auto|].
  assert (htotal : forall j, (j < K)%nat -> nth j (d0 :: rest) 0 = node_law v0 devs (map (loads_at before K j) (tf_cycles tf))).
  { intros j hj. rewrite <- et. unfold total. rewrite (nth_map0 _ _ _ 0%nat) by (rewrite seq_length; exact hj). rewrite seq_nth by exact hj. cbn [Nat.add]. unfold node_law.
    f_equal. apply (nth_ext _ _ 0 0).
    - rewrite !map_length, combine_length, map_length. lia.
    - rewrite map_length, hl. intros t ht. rewrite (nth_map0 _ _ _ []) by lia. change (@lit R RNum 0) with 0.
      rewrite (nth_map0 _ _ _ ([], 0)) by (rewrite combine_length, map_length; lia). rewrite combine_nth by (rewrite map_length; lia). cbn [fst snd].
      rewrite (nth_map0 _ _ _ 0) by exact ht. destruct (l2 t ht) as [_ [_ a3]]. apply a3. exact hj. }
  intros j hj. rewrite (nth_map0 _ _ _ 0) by (rewrite htot; exact hj). rnum. rewrite htotal by exact hj. rewrite <- (htotal 0%nat) by lia. reflexivity.
Qed.

(** settlements never decrease if every train has at least one load *)
Lemma node_law_monotone layers devs (ns ns' : list R) : length ns = length devs -> length ns' = length devs ->
  (forall ly, In ly layers -> 0 <= ly_a ly /\ 0 <= ly_b ly /\ 0 <= ly_thickness ly) ->
  (forall t, (t < length ns)%nat -> 0 < nth t ns 0 <= nth t ns' 0) -> node_law layers devs ns <= node_law layers devs ns'.
Proof.
  intros h1 h2 hl. unfold node_law. revert ns ns' h1 h2. induction devs as [|d devs IH]; intros ns ns' h1 h2 h3.
  - cbn. lra.
  - destruct ns as [|n ns], ns' as [|n' ns']; cbn in h1, h2; try lia. cbn [combine map nsum]. rnum. cbn [fst snd]. apply Rplus_le_compat.
    + assert (h4 := h3 0%nat ltac:(cbn; lia)). cbn [nth] in h4. clear IH h3. revert d. induction layers as [|ly layers IHl]; intros d; [cbn; lra|].
      destruct d as [|x d]; [cbn; lra|]. cbn [combine map nsum fst snd]. rnum. destruct (hl ly (or_introl eq_refl)) as [b1 [b2 b3]]. apply Rplus_le_compat; [apply power_law_monotone; assumption|].
      apply IHl. intros ly' hly'. apply hl. right. exact hly'.
    + apply IH; [lia|lia|]. intros t ht. apply (h3 (S t)). cbn. lia.
Qed.
Lemma loads_at_monotone before K i j c : (i <= j < K)%nat -> 1 <= c -> loads_at before K i c <= loads_at before K j c.
Proof.
  intros h hc. unfold loads_at. destruct (Nat.eq_dec K 1) as [->|hk]; [replace i with 0%nat by lia; replace j with 0%nat by lia; lra|].
  assert (hK : 0 < INR (K - 1)) by (apply lt_0_INR; lia). assert (INR i <= INR j) by (apply le_INR; lia).
  apply Rplus_le_compat_l. unfold Rdiv. apply Rmult_le_compat_r; [left; apply Rinv_0_lt_compat; exact hK|]. apply Rmult_le_compat_r; lra.
Qed.
