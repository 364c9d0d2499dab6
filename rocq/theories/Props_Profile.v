(** * Properties of profiles along the track (C91) *)

From Coq Require Import Reals List Bool ZArith Arith Lia Lra Permutation.
From Verif Require Import Num PyBase Model_Accumulation Model_Profile Spec_Profile Proofs_System Proofs_Accumulation.
Import ListNotations.
Local Open Scope R_scope.

Lemma nsum_by0 (l : list R) : nsum l = sumn (length l) (fun i => nth i l 0).
Proof.
  rewrite <- nsum_map_seq. f_equal. apply (nth_ext _ _ 0 0); [rewrite map_length, seq_length; reflexivity|].
  intros i hi. rewrite (nth_indep (map _ _) 0 (nth (length l) l 0)) by (rewrite map_length, seq_length; exact hi).
  rewrite (map_nth (fun i => nth i l 0)), seq_nth by exact hi. reflexivity.
Qed.
Lemma nsum_products (values weights : list R) : length values = length weights ->
  nsum (map (fun p => (fst p * snd p)%num) (combine values weights)) = sumn (length values) (fun i => nth i values 0 * nth i weights 0).
Proof.
  intros h. rewrite nsum_by0, map_length, combine_length, <- h, Nat.min_id. apply sumn_ext. intros i hi.
  rewrite (nth_indep _ 0 ((fun p : R * R => (fst p * snd p)%num) (0, 0))) by (rewrite map_length, combine_length; lia).
  rewrite (map_nth (fun p : R * R => (fst p * snd p)%num)), combine_nth by exact h. reflexivity.
Qed.

Lemma weights_positive values weights : are_weights values weights -> 0 < sumn (length weights) (fun i => nth i weights 0).
Proof.
  intros [_ [h0 [w [hin hw]]]]. rewrite <- nsum_by0. clear values. induction weights as [|x l ih]; [destruct hin|]. cbn [nsum]. rnum.
  assert (hl : 0 <= nsum l) by (apply nsum_nonneg; apply Forall_forall; intros y hy; apply h0; right; exact hy). pose proof (h0 x (or_introl eq_refl)).
  destruct hin as [->|hin]; [lra|]. specialize (ih ltac:(intros y hy; apply h0; right; exact hy) hin). lra.
Qed.

Lemma average_spec values weights : length values = length weights -> sumn (length weights) (fun i => nth i weights 0) <> 0 -> np_average values weights = Ok (weighted_mean values weights).
Proof.
  intros hl h. unfold np_average. rewrite <- hl, Nat.eqb_refl. cbn [negb]. destruct (neqbP (nsum weights) (lit 0)) as [e|_]; [rewrite nsum_by0 in e; contradiction|].
  rewrite nsum_products by exact hl. rewrite nsum_by0. reflexivity.
Qed.

(** the mean over the scenarios and the standard deviation: weighted with the probabilities *)
Theorem C91_mean values weights : are_weights values weights ->
  weighted_avg_and_std values weights = Ok (weighted_mean values weights, sqrt (weighted_variance values weights)).
Proof.
  intros h. pose proof (weights_positive _ _ h) as hp. destruct h as [hl [h0 _]]. unfold weighted_avg_and_std. rewrite average_spec by (auto; lra). cbn [rbind].
  rewrite average_spec by (rewrite ?map_length; auto; lra). cbn [rbind]. do 2 f_equal. change (@nsqrt R RNum) with sqrt. f_equal. unfold weighted_mean at 1, weighted_variance. rewrite map_length. f_equal. apply sumn_ext. intros i hi. f_equal.
  rewrite (nth_indep _ 0 ((fun v => ((v - weighted_mean values weights) * (v - weighted_mean values weights))%num) 0)) by (rewrite map_length; exact hi).
  rewrite (map_nth (fun v => ((v - weighted_mean values weights) * (v - weighted_mean values weights))%num)). rnum. ring.
Qed.
Print Assumptions C91_mean.

(** the mean lies between the scenarios; the variance is not negative, and zero only if all scenarios that can happen agree *)
Theorem C91_range values weights lo up : are_weights values weights -> (forall v, In v values -> lo <= v <= up) ->
  lo <= weighted_mean values weights <= up.
Proof.
  intros h hv. pose proof (weights_positive _ _ h) as hp. destruct h as [hl [h0 _]]. unfold weighted_mean.
  assert (hw : forall i, (i < length values)%nat -> 0 <= nth i weights 0) by (intros i hi; apply h0, nth_In; lia).
  assert (hb : forall i, (i < length values)%nat -> lo <= nth i values 0 <= up) by (intros i hi; apply hv, nth_In; exact hi).
  assert (a : forall n, (n <= length values)%nat -> lo * sumn n (fun i => nth i weights 0) <= sumn n (fun i => nth i values 0 * nth i weights 0) <= up * sumn n (fun i => nth i weights 0)).
  { induction n as [|n ih]; intros hn; [cbn [sumn]; rnum; lra|]. specialize (ih ltac:(lia)). cbn [sumn]. rnum. specialize (hw n ltac:(lia)). specialize (hb n ltac:(lia)). nra. }
  specialize (a (length values) (Nat.le_refl _)). rewrite hl in a at 1 3 4. rewrite hl in *. split.
  - apply (Rmult_le_reg_r (sumn (length weights) (fun i => nth i weights 0))); [exact hp|]. unfold Rdiv. rewrite Rmult_assoc, Rinv_l, Rmult_1_r by lra. apply a.
  - apply (Rmult_le_reg_r (sumn (length weights) (fun i => nth i weights 0))); [exact hp|]. unfold Rdiv. rewrite Rmult_assoc, Rinv_l, Rmult_1_r by lra. apply a.
Qed.
Print Assumptions C91_range.

Lemma sumn_zero_terms n (f : nat -> R) : (forall i, (i < n)%nat -> 0 <= f i) -> sumn n f = 0 -> forall i, (i < n)%nat -> f i = 0.
Proof.
  induction n as [|n ih]; intros h0 h i hi; [lia|]. cbn [sumn] in h. change (sumn n f + f n = 0) in h.
  assert (hs : 0 <= sumn n f) by (apply sumn_nonneg; intros; apply h0; lia). pose proof (h0 n ltac:(lia)).
  destruct (Nat.eq_dec i n) as [->|hn]; [lra|]. apply ih; [intros; apply h0; lia|lra|lia].
Qed.

Theorem C91_spread values weights : are_weights values weights ->
  0 <= weighted_variance values weights /\
  (weighted_variance values weights = 0 <-> forall i, (i < length values)%nat -> 0 < nth i weights 0 -> nth i values 0 = weighted_mean values weights).
Proof.
  intros h. pose proof (weights_positive _ _ h) as hp. destruct h as [hl [h0 _]].
  assert (ht : forall i, (i < length values)%nat -> 0 <= (nth i values 0 - weighted_mean values weights) ^ 2 * nth i weights 0).
  { intros i hi. apply Rmult_le_pos; [apply pow2_ge_0|apply h0, nth_In; lia]. }
  unfold weighted_variance. split; [apply Rmult_le_pos; [apply sumn_nonneg; exact ht|left; apply Rinv_0_lt_compat; exact hp]|]. split.
  - intros hz i hi hw. assert (hs : sumn (length values) (fun i => (nth i values 0 - weighted_mean values weights) ^ 2 * nth i weights 0) = 0).
    { apply (Rmult_eq_reg_r (/ sumn (length weights) (fun i => nth i weights 0))); [rewrite Rmult_0_l; exact hz|apply Rinv_neq_0_compat; lra]. }
    pose proof (sumn_zero_terms _ _ ht hs i hi) as e. cbn beta in e. apply Rmult_integral in e. destruct e as [e|e]; [|lra]. cbn [pow] in e. rewrite Rmult_1_r in e. apply Rmult_integral in e. destruct e; lra.
  - intros hv. rewrite sumn_0; [unfold Rdiv; ring|]. intros i hi. destruct (Rlt_dec 0 (nth i weights 0)) as [g|g]; [rewrite (hv i hi g); ring|].
    assert (hn : 0 <= nth i weights 0) by (apply h0, nth_In; lia). replace (nth i weights 0) with 0 by lra. ring.
Qed.
Print Assumptions C91_spread.

(** only the ratios of the weights count *)
Theorem C91_ratios values weights c : are_weights values weights -> 0 < c ->
  weighted_avg_and_std values (map (Rmult c) weights) = weighted_avg_and_std values weights.
Proof.
  intros h hc. rewrite (C91_mean values weights h). pose proof (weights_positive _ _ h) as hp. destruct h as [hl [h0 [w [hin hw]]]].
  assert (h' : are_weights values (map (Rmult c) weights)).
  { split; [rewrite map_length; exact hl|]. split; [|exists (c * w); split; [apply in_map; exact hin|apply Rmult_lt_0_compat; assumption]].
    intros x hx. apply in_map_iff in hx. destruct hx as [y [<- hy]]. apply Rmult_le_pos; [lra|apply h0; exact hy]. }
  rewrite (C91_mean _ _ h').
  assert (hn : forall i, nth i (map (Rmult c) weights) 0 = c * nth i weights 0) by (intros i; rewrite <- (Rmult_0_r c) at 1; apply (map_nth (Rmult c))).
  assert (hs : forall n (f : nat -> R), sumn n (fun i => f i * nth i (map (Rmult c) weights) 0) = c * sumn n (fun i => f i * nth i weights 0)).
  { intros n f. rewrite <- sumn_scal. apply sumn_ext. intros i _. rewrite hn. ring. }
  assert (hsum : sumn (length (map (Rmult c) weights)) (fun i => nth i (map (Rmult c) weights) 0) = c * sumn (length weights) (fun i => nth i weights 0)).
  { rewrite map_length, <- sumn_scal. apply sumn_ext. intros i _. apply hn. }
  assert (hm : weighted_mean values (map (Rmult c) weights) = weighted_mean values weights) by (unfold weighted_mean; rewrite hsum, hs; field; lra).
  do 2 f_equal; [exact hm|]. f_equal. unfold weighted_variance. rewrite hm, hsum, (hs _ (fun i => (nth i values 0 - weighted_mean values weights) ^ 2)). field. lra.
Qed.
Print Assumptions C91_ratios.

(** probabilities that are all zero, or none at all, are rejected *)
Theorem C91_no_weights values weights : length values = length weights -> (forall w, In w weights -> w = 0) -> weighted_avg_and_std values weights = Err ErrZeroDivision.
Proof.
  intros hl h. unfold weighted_avg_and_std, np_average. rewrite <- hl, Nat.eqb_refl. cbn [negb]. destruct (neqbP (nsum weights) (lit 0)) as [_|e]; [reflexivity|].
  exfalso. apply e. rewrite nsum_by0. apply sumn_0. intros i hi. apply h, nth_In. exact hi.
Qed.
Print Assumptions C91_no_weights.

(** ** the nearest time *)

Lemma argmin_after_spec (l : list R) : forall k best bv (f : nat -> R), f best = bv -> (best < k)%nat -> (forall i, (i < length l)%nat -> f (k + i)%nat = nth i l 0) ->
  (forall i, (i < k)%nat -> bv <= f i) -> (forall i, (i < best)%nat -> bv < f i) ->
  let m := argmin_after k best bv l in (m < k + length l)%nat /\ (forall i, (i < k + length l)%nat -> f m <= f i) /\ (forall i, (i < m)%nat -> f m < f i).
Proof.
  induction l as [|x l ih]; intros k best bv f hb hk hf h1 h2; cbn [argmin_after length]; cbv zeta.
  - rewrite Nat.add_0_r. subst bv. auto.
  - pose proof (hf 0%nat ltac:(cbn; lia)) as hx. rewrite Nat.add_0_r in hx. cbn [nth] in hx.
    assert (hf' : forall i, (i < length l)%nat -> f (S k + i)%nat = nth i l 0) by (intros i hi; specialize (hf (S i) ltac:(cbn; lia)); cbn [nth] in hf; rewrite <- hf; f_equal; lia).
    replace (k + S (length l))%nat with (S k + length l)%nat by lia.
    destruct (nltbP x bv) as [g|g].
    + apply ih; auto.
      * intros i hi. destruct (Nat.eq_dec i k) as [->|hn]; [rewrite hx; lra|]. specialize (h1 i ltac:(lia)). lra.
      * intros i hi. specialize (h1 i hi). lra.
    + apply ih; auto. intros i hi. destruct (Nat.eq_dec i k) as [->|hn]; [rewrite hx; lra|]. apply h1. lia.
Qed.

Lemma argmin_list_spec (l : list R) m : argmin_list l = Ok m -> (m < length l)%nat /\ (forall i, (i < length l)%nat -> nth m l 0 <= nth i l 0) /\ (forall i, (i < m)%nat -> nth m l 0 < nth i l 0).
Proof.
  destruct l as [|x l]; [discriminate|]. intros h. injection h as <-.
  apply (argmin_after_spec l 1 0 x (fun i => nth i (x :: l) 0)); auto; [intros i hi; replace i with 0%nat by lia; cbn; lra|intros i hi; lia].
Qed.

Lemma nearest_spec (times : list R) time t : argmin_list (map (fun a => nabs (a - time)%num) times) = Ok t -> nearest_index times time t.
Proof.
  intros h. apply argmin_list_spec in h. rewrite map_length in h. destruct h as [h1 [h2 h3]].
  assert (hn : forall i, (i < length times)%nat -> nth i (map (fun a => nabs (a - time)%num) times) 0 = Rabs (nth i times 0 - time)).
  { intros i hi. rewrite (nth_indep _ 0 ((fun a => nabs (a - time)%num) 0)) by (rewrite map_length; exact hi). rewrite (map_nth (fun a => nabs (a - time)%num)). rewrite nabs_R. reflexivity. }
  split; [exact h1|]. split; intros i hi.
  - specialize (h2 i hi). rewrite !hn in h2 by assumption. exact h2.
  - specialize (h3 i hi). rewrite !hn in h3 by lia. exact h3.
Qed.

(** the nearest entry of a list, the first of several *)
Theorem C91_nearest (l : list R) v : (l <> [] -> exists i, find_nearest l v = Ok (nth i l 0, i) /\ nearest_index l v i) /\ (l = [] -> find_nearest l v = Err ErrValue).
Proof.
  split; [|intros ->; reflexivity]. intros hl. unfold find_nearest. destruct (argmin_list _) as [i|e] eqn:e1.
  - pose proof (nearest_spec _ _ _ e1) as hn. exists i. split; [|exact hn]. cbn [rbind]. unfold at_idx. rewrite (nth_error_nth' l 0 (proj1 hn)). reflexivity.
  - destruct l; [contradiction|discriminate].
Qed.
Print Assumptions C91_nearest.

(** ** the distances *)

Lemma sumn_first n (f : nat -> R) : sumn (S n) f = f 0%nat + sumn n (fun i => f (S i)).
Proof. induction n as [|n ih]; [cbn; rnum; ring|]. cbn [sumn] in *. rnum. rewrite ih. ring. Qed.
Lemma cumulate_spec (l : list R) : forall s i, (i <= length l)%nat -> nth i (s :: cumulate s l) 0 = s + sumn i (fun k => nth k l 0).
Proof.
  induction l as [|a l ih]; intros s [|i] hi; cbn [length] in hi; try lia; try (cbn [nth sumn]; rnum; ring).
  cbn [cumulate]. change (nth (S i) (s :: (s + a)%num :: cumulate (s + a)%num l) 0) with (nth i ((s + a)%num :: cumulate (s + a)%num l) 0).
  rewrite ih by lia. rewrite sumn_first. rnum. cbn [nth]. ring.
Qed.
Lemma cumulate_length (l : list R) s : length (cumulate s l) = length l.
Proof. revert s. induction l as [|a l ih]; intros s; [reflexivity|]. cbn. rewrite ih. reflexivity. Qed.
Lemma step_lengths_spec (coords : list (R * R)) : length (step_lengths coords) = (length coords - 1)%nat /\
  forall i d, (S i < length coords)%nat -> nth i (step_lengths coords) 0 = straight (nth (S i) coords d) (nth i coords d).
Proof.
  induction coords as [|a [|b r] ih]; [split; [reflexivity|intros; cbn in *; lia]|split; [reflexivity|intros; cbn in *; lia]|].
  destruct ih as [h1 h2]. split; [cbn [step_lengths length] in *; rewrite h1; lia|]. intros [|i] d hi.
  - cbn [step_lengths nth]. unfold compute_distance, straight. rnum. change (@nsqrt R RNum) with sqrt. f_equal. ring.
  - change (nth (S i) (step_lengths (a :: b :: r)) 0) with (nth i (step_lengths (b :: r)) 0). rewrite (h2 i d) by (cbn in *; lia). reflexivity.
Qed.

(** the distance starts at zero and grows by the straight distance of consecutive coordinates; it never decreases *)
Theorem C91_distance (coords : list (R * R)) : coords <> [] -> exists dist, compute_cumulative_distance coords = Ok dist /\ length dist = length coords /\ nth 0 dist 0 = 0 /\
  (forall i d, (S i < length coords)%nat -> nth (S i) dist 0 = nth i dist 0 + straight (nth (S i) coords d) (nth i coords d)) /\
  (forall i j, (i <= j < length coords)%nat -> nth i dist 0 <= nth j dist 0).
Proof.
  intros hc. destruct coords as [|a c]; [contradiction|]. eexists. split; [reflexivity|]. destruct (step_lengths_spec (a :: c)) as [h1 h2]. set (l := step_lengths (a :: c)) in *.
  assert (hl : length (lit 0 :: cumulate (lit 0) l) = length (a :: c)) by (cbn [length] in *; rewrite cumulate_length; lia). split; [exact hl|]. split; [reflexivity|].
  assert (hs : forall i d, (S i < length (a :: c))%nat -> nth (S i) (lit 0 :: cumulate (lit 0) l) 0 = nth i (lit 0 :: cumulate (lit 0) l) 0 + straight (nth (S i) (a :: c) d) (nth i (a :: c) d)).
  { intros i d hi. rewrite !cumulate_spec by (cbn [length] in *; lia). cbn [sumn]. rnum. rewrite (h2 i d) by exact hi. ring. }
  split; [exact hs|]. intros i j [hij hj]. induction hij as [|j hij ih]; [lra|]. specialize (ih ltac:(lia)). rewrite (hs j (0, 0)) by exact hj. pose proof (sqrt_pos ((fst (nth (S j) (a :: c) (0, 0)) - fst (nth j (a :: c) (0, 0))) ^ 2 + (snd (nth (S j) (a :: c) (0, 0)) - snd (nth j (a :: c) (0, 0))) ^ 2)). unfold straight. lra.
Qed.
Print Assumptions C91_distance.

(** ** the whole profile *)

Lemma segment_values_spec t (s : segment R) : (forall sc, In sc (sg_scenarios s) -> (t < length (fst sc))%nat) ->
  are_weights (map (fun sc => nth t (fst sc) 0) (sg_scenarios s)) (map snd (sg_scenarios s)) ->
  exists m d, segment_values t s = Ok (m, d) /\ segment_has t s m d.
Proof.
  intros ht hw. unfold segment_values. rewrite (mapr_map _ (fun sc => nth t (fst sc) 0)).
  - cbn [rbind]. rewrite C91_mean by exact hw. do 2 eexists. split; [reflexivity|]. split; reflexivity.
  - intros sc hsc. unfold at_idx. rewrite (nth_error_nth' (fst sc) 0 (ht sc hsc)). reflexivity.
Qed.

Lemma straight_zero a : straight a a = 0.
Proof. unfold straight. replace ((fst a - fst a) ^ 2 + (snd a - snd a) ^ 2) with 0 by ring. apply sqrt_0. Qed.
Lemma square_pos x : x <> 0 -> 0 < x ^ 2.
Proof. intros h. replace (x ^ 2) with (Rsqr x) by (unfold Rsqr; ring). apply Rsqr_pos_lt. exact h. Qed.
Lemma straight_pos a b : a <> b -> 0 < straight a b.
Proof.
  intros h. unfold straight. apply sqrt_lt_R0. destruct a as [a1 a2], b as [b1 b2]. cbn [fst snd]. destruct (Req_dec a1 b1) as [e|e].
  - destruct (Req_dec a2 b2) as [e'|e']; [subst; contradiction|]. subst. assert (0 < (a2 - b2) ^ 2) by (apply square_pos; lra). pose proof (pow2_ge_0 (b1 - b1)). lra.
  - assert (0 < (a1 - b1) ^ 2) by (apply square_pos; lra). pose proof (pow2_ge_0 (a2 - b2)). lra.
Qed.
Lemma compute_straight a b : compute_distance a b = straight a b.
Proof. unfold compute_distance, straight. rnum. change (@nsqrt R RNum) with sqrt. f_equal. ring. Qed.

Lemma join_end first coords stop b c : last (first :: coords) first = stop -> stop <> first -> join_coords (first :: coords) (stop :: b :: c) = Ok ((first :: coords) ++ stop :: b :: c).
Proof.
  intros hl hne. unfold join_coords. rewrite hl. cbn [at_idx nth_error rbind]. rewrite !compute_straight, straight_zero. pose proof (straight_pos _ _ hne) as hp.
  unfold argmin_list, argmin_after. destruct (nltbP 0 (straight stop first)) as [_|g]; [|lra].
  assert (h0 : forall x y, 0 <= straight x y) by (intros; apply sqrt_pos).
  destruct (nltbP (straight b first) 0) as [g|_]; [specialize (h0 b first); lra|]. destruct (nltbP (straight b stop) 0) as [g|_]; [specialize (h0 b stop); lra|]. reflexivity.
Qed.

Lemma last_app_cons {A} (l : list A) x r d e : last (l ++ x :: r) d = last (x :: r) e.
Proof.
  induction l as [|y l ih].
  - cbn [app]. revert x. induction r as [|z r ihr]; intros x; [reflexivity|]. change (last (z :: r) d = last (z :: r) e). apply ihr.
  - cbn [app]. destruct (l ++ x :: r) eqn:e1; [destruct l; discriminate|]. rewrite <- e1 in *. rewrite <- ih. rewrite e1. reflexivity.
Qed.

Lemma add_along t (segs : list (segment R)) : forall first coords stop means stds, (forall s, In s segs -> usable t s) ->
  last (first :: coords) first = stop -> along first stop segs ->
  exists vals, length vals = length segs /\ (forall i s md, nth_error segs i = Some s -> nth_error vals i = Some md -> segment_has t s (fst md) (snd md)) /\
    add_segments t (mkProfile means stds (first :: coords)) segs =
    Ok (mkProfile (means ++ flat_map (fun q => repeat (fst (snd q)) (length (sg_coords (fst q)))) (combine segs vals))
                  (stds ++ flat_map (fun q => repeat (snd (snd q)) (length (sg_coords (fst q)))) (combine segs vals))
                  ((first :: coords) ++ flat_map (fun s => sg_coords s) segs)).
Proof.
  induction segs as [|s segs ih]; intros first coords stop means stds hu hl ha.
  - exists []. split; [reflexivity|]. split; [intros [|i]; discriminate|]. cbn [add_segments combine flat_map]. rewrite !app_nil_r. reflexivity.
  - destruct ha as [b [c [e1 [e2 e3]]]]. destruct (hu s (or_introl eq_refl)) as [u1 u2]. destruct (segment_values_spec t s u1 u2) as [m [d [h1 h2]]].
    destruct (ih first (coords ++ sg_coords s) (last (b :: c) b) (means ++ repeat m (length (sg_coords s))) (stds ++ repeat d (length (sg_coords s)))) as [vals [v1 [v2 v3]]];
      [intros; apply hu; right; assumption|rewrite e1; change (first :: coords ++ stop :: b :: c) with ((first :: coords) ++ stop :: b :: c); rewrite (last_app_cons _ stop (b :: c) _ b); reflexivity|exact e3|].
    exists ((m, d) :: vals). split; [cbn; congruence|]. split.
    + intros [|i] s' md a1 a2; cbn in a1, a2; [injection a1 as <-; injection a2 as <-; exact h2|]. apply (v2 i); assumption.
    + cbn [add_segments]. rewrite h1. cbn [rbind pf_coords pf_mean pf_std fst snd]. assert (hj : join_coords (first :: coords) (sg_coords s) = Ok ((first :: coords) ++ sg_coords s)) by (rewrite e1; apply join_end; assumption). rewrite hj. cbn [rbind].
      change ((first :: coords) ++ sg_coords s) with (first :: coords ++ sg_coords s). rewrite v3. cbn [combine flat_map fst snd]. rewrite <- !app_assoc. cbn [app]. rewrite <- !app_assoc. reflexivity.
Qed.

(** in a track listed from one end every coordinate carries the values of its segment at the time nearest to the requested one.
    Missing: segments listed in another order or direction *)
Theorem C91_profile_partial times time (segs : list (segment R)) t : segs <> [] -> nearest_index times time t -> (forall s, In s segs -> usable t s) -> listed_along segs ->
  exists p dist vals, make_profile times time segs = Ok (p, dist) /\ length vals = length segs /\
    (forall i s md, nth_error segs i = Some s -> nth_error vals i = Some md -> segment_has t s (fst md) (snd md)) /\
    pf_coords p = flat_map (fun s => sg_coords s) segs /\
    combine (pf_coords p) (combine (pf_mean p) (pf_std p)) = flat_map (fun q => map (fun c => (c, snd q)) (sg_coords (fst q))) (combine segs vals) /\
    length (pf_mean p) = length (pf_coords p) /\ length (pf_std p) = length (pf_coords p) /\
    compute_cumulative_distance (pf_coords p) = Ok dist.
Proof.
  intros hne hn hu hl. destruct segs as [|s segs]; [contradiction|]. destruct hl as [a [c [e1 e2]]].
  destruct (hu s (or_introl eq_refl)) as [u1 u2]. destruct (segment_values_spec t s u1 u2) as [m [d [h1 h2]]].
  destruct (add_along t segs a c (last (a :: c) a) (repeat m (length (sg_coords s))) (repeat d (length (sg_coords s)))) as [vals [v1 [v2 v3]]]; [intros; apply hu; right; assumption|reflexivity|exact e2|].
  assert (ht : argmin_list (map (fun x => nabs (x - time)%num) times) = Ok t).
  { destruct (argmin_list _) as [t'|e] eqn:e3; [|destruct times; [destruct hn as [h _]; cbn in h; lia|discriminate]]. apply nearest_spec in e3. f_equal.
    destruct hn as [n1 [n2 n3]], e3 as [m1 [m2 m3]]. destruct (Nat.lt_trichotomy t t') as [g|[g|g]]; [|congruence|].
    - specialize (m3 t g). specialize (n2 t' m1). lra.
    - specialize (n3 t' g). specialize (m2 t n1). lra. }
  destruct (C91_distance (flat_map (fun s => sg_coords s) (s :: segs))) as [dist [q1 _]]; [cbn [flat_map]; rewrite e1; discriminate|].
  set (vs := (m, d) :: vals) in *. assert (hcomb : forall ss ws, length ws = length ss ->
     combine (flat_map (fun s : segment R => sg_coords s) ss) (combine (flat_map (fun q : segment R * (R * R) => repeat (fst (snd q)) (length (sg_coords (fst q)))) (combine ss ws)) (flat_map (fun q : segment R * (R * R) => repeat (snd (snd q)) (length (sg_coords (fst q)))) (combine ss ws)))
     = flat_map (fun q => map (fun c => (c, snd q)) (sg_coords (fst q))) (combine ss ws)
     /\ length (flat_map (fun q : segment R * (R * R) => repeat (fst (snd q)) (length (sg_coords (fst q)))) (combine ss ws)) = length (flat_map (fun s : segment R => sg_coords s) ss)
     /\ length (flat_map (fun q : segment R * (R * R) => repeat (snd (snd q)) (length (sg_coords (fst q)))) (combine ss ws)) = length (flat_map (fun s : segment R => sg_coords s) ss)).
  { clear. induction ss as [|s ss ih]; intros [|[m d] ws] hl; try discriminate; [auto|]. injection hl as hl. destruct (ih ws hl) as [i1 [i2 i3]]. cbn [combine flat_map fst snd]. rewrite !app_length, !repeat_length, i2, i3. split; [|auto].
    rewrite <- i1. induction (sg_coords s) as [|x l il]; [reflexivity|]. cbn [length repeat app combine map]. f_equal. exact il. }
  destruct (hcomb (s :: segs) vs ltac:(cbn; congruence)) as [g1 [g2 g3]].
  exists (mkProfile (flat_map (fun q => repeat (fst (snd q)) (length (sg_coords (fst q)))) (combine (s :: segs) vs)) (flat_map (fun q => repeat (snd (snd q)) (length (sg_coords (fst q)))) (combine (s :: segs) vs)) (flat_map (fun s => sg_coords s) (s :: segs))), dist, vs.
  split.
  - unfold make_profile. rewrite ht. cbn [rbind]. cbn [add_segments]. rewrite h1. cbn [rbind pf_coords pf_mean pf_std fst snd join_coords app]. rewrite e1 in *. rewrite v3. cbn [rbind pf_coords].
    cbn [flat_map] in q1. rewrite e1 in q1. rewrite q1. cbn [rbind]. unfold vs. cbn [combine flat_map fst snd]. rewrite e1. reflexivity.
  - split; [cbn; congruence|]. split; [intros [|i] s' md a1 a2; cbn in a1, a2; [injection a1 as <-; injection a2 as <-; exact h2|]; apply (v2 i); assumption|]. auto.
Qed.
Print Assumptions C91_profile_partial.

(** in any order the profile has one mean and one standard deviation for each coordinate; the coordinates are those of the segments, up to
    their order, and the means are in the order of the segments *)
Theorem C91_counts times time (segs : list (segment R)) p dist : make_profile times time segs = Ok (p, dist) ->
  Permutation (pf_coords p) (flat_map (fun s => sg_coords s) segs) /\
  length (pf_mean p) = length (pf_coords p) /\ length (pf_std p) = length (pf_coords p) /\ length dist = length (pf_coords p) /\
  exists t, nearest_index times time t.
Proof.
  intros h. unfold make_profile in h. apply rbind_ok in h. destruct h as [t [ht h]]. apply rbind_ok in h. destruct h as [q [hq h]]. apply rbind_ok in h. destruct h as [ds [hd h]]. injection h as -> ->.
  assert (hj : forall coords seg out, join_coords coords seg = Ok out -> Permutation out (coords ++ seg)).
  { intros coords seg out hj. unfold join_coords in hj. destruct coords as [|f coords]; [injection hj as <-; reflexivity|]. apply rbind_ok in hj. destruct hj as [a [_ hj]]. apply rbind_ok in hj. destruct hj as [b [_ hj]].
    apply rbind_ok in hj. destruct hj as [k [_ hj]]. assert (hinj : forall A (x y : A), Ok x = Ok y -> x = y) by congruence. apply hinj in hj. subst out. destruct k as [|[|[|k]]]; [|reflexivity| |]; try (apply Permutation_app; [try reflexivity; symmetry; apply Permutation_rev|try reflexivity; symmetry; apply Permutation_rev]). }
  assert (ha : forall segs p0 p, add_segments t p0 segs = Ok p -> length (pf_mean p0) = length (pf_coords p0) -> length (pf_std p0) = length (pf_coords p0) ->
      Permutation (pf_coords p) (pf_coords p0 ++ flat_map (fun s => sg_coords s) segs) /\ length (pf_mean p) = length (pf_coords p) /\ length (pf_std p) = length (pf_coords p)).
  { clear hq. induction segs0 as [|s r ih]; intros p0 p1 h l1 l2; cbn [add_segments] in h; [injection h as <-; cbn [flat_map]; rewrite app_nil_r; auto|].
    apply rbind_ok in h. destruct h as [md [_ h]]. apply rbind_ok in h. destruct h as [cc [hcc h]]. pose proof (hj _ _ _ hcc) as hp. pose proof (Permutation_length hp) as hlen. rewrite app_length in hlen.
    destruct (ih _ _ h) as [i1 [i2 i3]]; cbn [pf_mean pf_std pf_coords]; [rewrite app_length, repeat_length; lia|rewrite app_length, repeat_length; lia|]. cbn [pf_coords] in i1.
    split; [|auto]. rewrite i1, hp. cbn [flat_map]. rewrite app_assoc. reflexivity. }
  destruct (ha _ _ _ hq eq_refl eq_refl) as [a1 [a2 a3]]. cbn [pf_coords app] in a1. split; [exact a1|]. split; [exact a2|]. split; [exact a3|]. split; [|exists t; apply nearest_spec; exact ht].
  destruct (pf_coords p) as [|x c] eqn:e; [discriminate|]. destruct (C91_distance (x :: c)) as [d' [d1 [d2 _]]]; [discriminate|]. rewrite hd in d1. injection d1 as <-. exact d2.
Qed.
Print Assumptions C91_counts.

Lemma join_start first coords b c : join_coords (first :: coords) (first :: b :: c) = Ok (rev (first :: coords) ++ first :: b :: c).
Proof.
  unfold join_coords. cbn [at_idx nth_error rbind]. rewrite !compute_straight, straight_zero. assert (h0 : forall x y, 0 <= straight x y) by (intros; apply sqrt_pos).
  unfold argmin_list, argmin_after. repeat match goal with |- context [nltb ?x 0] => destruct (nltbP x 0) as [g|_]; [exfalso; match type of g with straight ?u ?v < 0 => specialize (h0 u v); lra end|] end. reflexivity.
Qed.

Lemma add_segments_app t segs s p : forall p0, add_segments t p0 (segs ++ [s]) = Ok p ->
  exists q m, add_segments t p0 segs = Ok q /\ segment_values t s = Ok m /\ join_coords (pf_coords q) (sg_coords s) = Ok (pf_coords p).
Proof.
  induction segs as [|x segs ih]; intros p0 h; cbn [app add_segments] in *.
  - apply rbind_ok in h. destruct h as [m [h1 h]]. apply rbind_ok in h. destruct h as [cc [h2 h]]. injection h as <-. exists p0, m. auto.
  - apply rbind_ok in h. destruct h as [m [h1 h]]. apply rbind_ok in h. destruct h as [cc [h2 h]]. rewrite h1, h2. cbn [rbind]. apply ih. exact h.
Qed.
Lemma last_rev {A} (x : A) l d : last (rev (x :: l)) d = x.
Proof. cbn [rev]. apply last_last. Qed.

(** A further segment of two coordinates is joined to the profile of the others where the gap is smallest: profile and segment are turned
    round or not, and the gap is the smallest of those between one of the ends of the profile and one of the ends of the segment *)
Theorem C91_join times time (segs : list (segment R)) s a b q dq p dist d : make_profile times time segs = Ok (q, dq) ->
  make_profile times time (segs ++ [s]) = Ok (p, dist) -> sg_coords s = [a; b] ->
  exists l r, pf_coords p = l ++ r /\ (l = pf_coords q \/ l = rev (pf_coords q)) /\ (r = [a; b] \/ r = [b; a]) /\
    forall e e', In e [hd d (pf_coords q); last (pf_coords q) d] -> In e' [a; b] -> straight (last l d) (hd d r) <= straight e e'.
Proof.
  intros h1 h2 hs. unfold make_profile in h1, h2. apply rbind_ok in h1. destruct h1 as [t [ht h1]]. rewrite ht in h2. cbn [rbind] in h2.
  apply rbind_ok in h1. destruct h1 as [q' [hq h1]]. apply rbind_ok in h1. destruct h1 as [ds [hd1 h1]]. injection h1 as -> ->.
  apply rbind_ok in h2. destruct h2 as [p' [hp h2]]. apply rbind_ok in h2. destruct h2 as [ds' [hd2 h2]]. injection h2 as -> ->.
  apply add_segments_app in hp. destruct hp as [q1 [m [g1 [_ g2]]]]. rewrite hq in g1. injection g1 as <-. rewrite hs in g2. clear hq hs hd2 ht.
  destruct (pf_coords q) as [|f c] eqn:e; [discriminate|]. clear e hd1. unfold join_coords in g2. cbn [at_idx nth_error rbind] in g2. apply rbind_ok in g2. destruct g2 as [k [hk g2]].
  assert (hinj : forall A (x y : A), Ok x = Ok y -> x = y) by congruence. apply hinj in g2. rewrite !compute_straight in hk. apply argmin_list_spec in hk. destruct hk as [hlt [hk _]]. cbn [length] in hlt.
  assert (hd0 : last (f :: c) d = last (f :: c) f). { destruct (exists_last (l := f :: c)) as [l' [z ->]]; [discriminate|]. rewrite !last_last. reflexivity. }
  assert (sym : forall u v, straight u v = straight v u) by (intros; unfold straight; f_equal; ring).
  pose proof (hk 0%nat ltac:(cbn; lia)) as k0. pose proof (hk 1%nat ltac:(cbn; lia)) as k1. pose proof (hk 2%nat ltac:(cbn; lia)) as k2. pose proof (hk 3%nat ltac:(cbn; lia)) as k3.
  assert (all : forall v, (v <= straight a f -> v <= straight a (last (f :: c) f) -> v <= straight b f -> v <= straight b (last (f :: c) f) ->
     forall e e', In e [hd d (f :: c); last (f :: c) d] -> In e' [a; b] -> v <= straight e e')).
  { intros v v0 v1 v2 v3 x y hx hy. rewrite hd0 in hx. rewrite sym. cbn [hd] in hx. destruct hx as [<-|[<-|[]]], hy as [<-|[<-|[]]]; assumption. }
  cbn [nth] in k0, k1, k2, k3. destruct k as [|[|[|k]]]; rewrite <- g2.
  - exists (rev (f :: c)), [a; b]. split; [reflexivity|]. split; [auto|]. split; [auto|]. rewrite last_rev. cbn [hd]. rewrite (sym f a). apply all; assumption.
  - exists (f :: c), [a; b]. split; [reflexivity|]. split; [auto|]. split; [auto|]. intros x y hx hy. replace (straight (last (f :: c) d) (hd d [a; b])) with (straight a (last (f :: c) f)) by (rewrite hd0; apply sym). apply all; assumption.
  - exists (rev (f :: c)), [b; a]. split; [reflexivity|]. split; [auto|]. split; [auto|]. rewrite last_rev. cbn [hd]. rewrite (sym f b). apply all; assumption.
  - exists (f :: c), [b; a]. split; [reflexivity|]. split; [auto|]. split; [auto|]. intros x y hx hy. replace (straight (last (f :: c) d) (hd d [b; a])) with (straight b (last (f :: c) f)) by (rewrite hd0; apply sym).
    destruct k as [|k].
    + apply all; assumption.
    + lia.
Qed.
Print Assumptions C91_join.

(** one scenario with certainty *)
Definition certain (v : R) (coords : list (R * R)) : segment R := mkSegment [([v], 1)] coords.
Lemma certain_values v coords : segment_values 0 (certain v coords) = Ok (v, 0).
Proof.
  unfold segment_values, certain. cbn [sg_scenarios mapr at_idx fst nth_error rbind map snd]. rewrite C91_mean.
  - assert (hm : weighted_mean [v] [1] = v) by (unfold weighted_mean; cbn; rnum; field). do 2 f_equal; [exact hm|]. unfold weighted_variance. rewrite hm. cbn. rnum. match goal with |- sqrt ?x = 0 => replace x with 0 by field end. apply sqrt_0.
  - split; [reflexivity|]. split; [intros w [<-|[]]; lra|exists 1; split; [left; reflexivity|lra]].
Qed.

Example C91_join_case : exists q dq p dist, make_profile [0] 0 [certain 1 [(0, 0); (1, 0)]] = Ok (q, dq) /\ pf_coords q = [(0, 0); (1, 0)] /\
  make_profile [0] 0 ([certain 1 [(0, 0); (1, 0)]] ++ [certain 2 [(1, 0); (2, 0)]]) = Ok (p, dist) /\ pf_coords p = [(0, 0); (1, 0); (1, 0); (2, 0)].
Proof.
  unfold make_profile. cbn [map argmin_list argmin_after rbind add_segments app]. rewrite !certain_values. cbn [rbind fst snd certain sg_coords pf_coords length repeat app].
  change (join_coords (@nil (R * R)) [(0, 0); (1, 0)]) with (Ok [(0, 0); (1, 0)]). cbn [rbind pf_coords pf_mean pf_std app].
  assert (j1 : join_coords [(0, 0); (1, 0)] [(1, 0); (2, 0)] = Ok [(0, 0); (1, 0); (1, 0); (2, 0)]) by (apply (join_end (0, 0) [(1, 0)] (1, 0) (2, 0) []); [reflexivity|intros e; injection e; lra]).
  rewrite j1. cbn [rbind pf_coords pf_mean pf_std app compute_cumulative_distance]. do 4 eexists. split; [reflexivity|]. split; [reflexivity|]. split; reflexivity.
Qed.

(** a third segment at the beginning of the track turns the coordinates round but not the values: the end of the second segment gets the
    value of the first *)
Theorem C91_turned_refuted : exists p dist, make_profile [0] 0 [certain 1 [(0, 0); (1, 0)]; certain 2 [(1, 0); (2, 0)]; certain 3 [(0, 0); (-1, 0)]] = Ok (p, dist) /\
  In ((2, 0), 1) (combine (pf_coords p) (pf_mean p)) /\ ~ In ((2, 0), 2) (combine (pf_coords p) (pf_mean p)).
Proof.
  unfold make_profile. cbn [map argmin_list argmin_after rbind add_segments]. rewrite !certain_values. cbn [rbind fst snd certain sg_coords pf_coords length repeat app].
  change (join_coords (@nil (R * R)) [(0, 0); (1, 0)]) with (Ok [(0, 0); (1, 0)]). cbn [rbind pf_coords pf_mean pf_std app].
  assert (j1 : join_coords [(0, 0); (1, 0)] [(1, 0); (2, 0)] = Ok [(0, 0); (1, 0); (1, 0); (2, 0)]) by (apply (join_end (0, 0) [(1, 0)] (1, 0) (2, 0) []); [reflexivity|intros e; injection e; lra]).
  rewrite j1. cbn [rbind pf_coords pf_mean pf_std app].
  assert (j2 : join_coords [(0, 0); (1, 0); (1, 0); (2, 0)] [(0, 0); (-1, 0)] = Ok [(2, 0); (1, 0); (1, 0); (0, 0); (0, 0); (-1, 0)]) by (apply (join_start (0, 0) [(1, 0); (1, 0); (2, 0)] (-1, 0) [])).
  rewrite j2. cbn [rbind pf_coords pf_mean pf_std app compute_cumulative_distance]. do 2 eexists. split; [reflexivity|]. cbn [pf_coords pf_mean combine]. split; [left; reflexivity|].
  intros h. repeat (destruct h as [h|h]; [injection h; lra|]). destruct h.
Qed.
Print Assumptions C91_turned_refuted.

(** the second coordinate is taken for the last one: a segment whose last coordinate is the end of the track so far is not turned round,
    and the profile jumps *)
Theorem C91_jump_refuted : exists p dist, make_profile [0] 0 [certain 1 [(0, 0); (4, 0)]; certain 2 [(4, 1); (8, 1); (8, 0); (4, 0)]] = Ok (p, dist) /\
  pf_coords p = [(0, 0); (4, 0); (4, 1); (8, 1); (8, 0); (4, 0)].
Proof.
  unfold make_profile. cbn [map argmin_list argmin_after rbind add_segments]. rewrite !certain_values. cbn [rbind fst snd certain sg_coords pf_coords join_coords length repeat app].
  cbn [last at_idx nth_error rbind]. rewrite !compute_straight.
  assert (h1 : straight (4, 1) (4, 0) = 1) by (unfold straight; cbn [fst snd]; replace ((4 - 4) ^ 2 + (1 - 0) ^ 2) with 1 by ring; apply sqrt_1).
  assert (h2 : 1 < straight (4, 1) (0, 0)) by (unfold straight; cbn [fst snd]; rewrite <- sqrt_1 at 1; apply sqrt_lt_1; lra).
  assert (h3 : 1 < straight (8, 1) (0, 0)) by (unfold straight; cbn [fst snd]; rewrite <- sqrt_1 at 1; apply sqrt_lt_1; lra).
  assert (h4 : 1 < straight (8, 1) (4, 0)) by (unfold straight; cbn [fst snd]; rewrite <- sqrt_1 at 1; apply sqrt_lt_1; lra).
  unfold argmin_list, argmin_after. rewrite h1. destruct (nltbP 1 (straight (4, 1) (0, 0))) as [_|g]; [|lra]. destruct (nltbP (straight (8, 1) (0, 0)) 1) as [g|_]; [lra|]. destruct (nltbP (straight (8, 1) (4, 0)) 1) as [g|_]; [lra|].
  cbn [rbind app pf_coords compute_cumulative_distance]. do 2 eexists. split; reflexivity.
Qed.
Print Assumptions C91_jump_refuted.

Example C91_case : let segs := [mkSegment [([1; 2], 1 / 4); ([3; 4], 3 / 4)] [(0, 0); (1, 0)]; mkSegment [([5; 6], 1)] [(1, 0); (2, 1); (3, 1)]] in
  nearest_index [0; 10] 8 1 /\ (forall s, In s segs -> usable 1 s) /\ listed_along segs /\ weighted_mean [2; 4] [1 / 4; 3 / 4] = 7 / 2.
Proof.
  cbv zeta. split; [|split; [|split]].
  - split; [cbn; lia|]. split; intros [|[|i]] hi; cbn in *; try lia; rewrite ?Rabs_pos_eq, ?Rabs_left1 by lra; try lra.
  - intros s [<-|[<-|[]]]; (split; [cbn; intros sc hsc; repeat (destruct hsc as [<-|hsc]; [cbn; lia|]); destruct hsc|]);
      (split; [reflexivity|]; split; [cbn; intros w hw; repeat (destruct hw as [<-|hw]; [lra|]); destruct hw|]).
    + exists (1 / 4). split; [left; reflexivity|lra].
    + exists 1. split; [left; reflexivity|lra].
  - exists (0, 0), [(1, 0)]. split; [reflexivity|]. exists (2, 1), [(3, 1)]. split; [reflexivity|]. split; [intros e; injection e; lra|]. exact I.
  - unfold weighted_mean. cbn. rnum. field.
Qed.
