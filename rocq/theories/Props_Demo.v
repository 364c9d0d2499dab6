(** * C114: time and motion in the demonstration scripts *)

From Coq Require Import Reals List Bool ZArith Arith Lia Lra Sorted.
From Verif Require Import Num PyBase Model_Geometry Model_System Model_Element Model_Moving Model_Coupled Model_Accumulation Model_Demo
  Spec_System Spec_Moving Spec_Demo Proofs_System Proofs_Moving Proofs_Accumulation Props_Moving.
Import ListNotations.
Local Open Scope R_scope.

(** ** the times *)

Lemma nth_map_z {A} (f : A -> Z) l i d : (i < length l)%nat -> nth i (map f l) 0%Z = f (nth i l d).
Proof. intros h. rewrite (nth_indep _ 0%Z (f d)) by (rewrite map_length; exact h). apply map_nth. Qed.


(** C114: the times cover the initialisation and the running time, equally spaced each *)
Theorem C114_times (d : time_data R) m n : td_n_ini d = Z.of_nat (S m) -> td_n_calc d = Z.of_nat (S n) -> (1 <= m)%nat -> (1 <= n)%nat ->
  exists ini time, demo_time d = Ok (ini, time) /\ length ini = S m /\ length time = S (m + n) /\
    (forall k, (k <= m)%nat -> nth k ini 0 = nth k time 0) /\
    (forall k, (k <= m + n)%nat -> nth k time 0 = two_phases m n (td_tot_ini d) (td_tot_calc d) k) /\
    nth 0 time 0 = 0 /\ nth (m + n) time 0 = td_tot_ini d + td_tot_calc d.
Proof.
  destruct d as [a ni b nc]. cbn [td_tot_ini td_n_ini td_tot_calc td_n_calc]. intros -> -> hm hn. unfold demo_time. cbn [td_tot_ini td_n_ini td_tot_calc td_n_calc].
  assert (e : forall x y k, linspace x y (Z.of_nat k) = Ok (linspace_nat x y k)) by (intros; apply linspace_ok; split; [lia|]; rewrite Nat2Z.id; reflexivity).
  rewrite e. cbn [rbind]. pose proof (ls_length 0 a (S m)) as hl. pose proof (ls_last 0 a (S m) ltac:(lia)) as hlast.
  assert (hlt : last (linspace_nat (lit 0) a (S m)) (lit 0) = a).
  { rewrite <- hlast at 2. change (lit 0) with 0. clear. generalize (S m). intros k. destruct k as [|[|k]]; [reflexivity|reflexivity|]. unfold linspace_nat.
    rewrite last_last. rewrite app_nth2 by (rewrite map_length, seq_length; lia). rewrite map_length, seq_length. replace (S (S k) - 1 - S k)%nat with 0%nat by lia. reflexivity. }
  change (lit 0) with 0 in *. rewrite hlt, e. cbn [rbind].
  assert (hne : exists x l, linspace_nat 0 a (S m) = x :: l) by (destruct (linspace_nat 0 a (S m)) as [|x l]; [discriminate hl|eauto]).
  destruct hne as [x [l hxl]]. rewrite hxl. rewrite <- hxl. eexists _, _. split; [reflexivity|]. split; [exact hl|].
  pose proof (ls_length a (a + b) (S n)) as hl2.
  assert (hlen : length (linspace_nat 0 a (S m) ++ skipn 1 (linspace_nat a (nadd a b) (S n))) = S (m + n)) by (rnum; rewrite app_length, skipn_length, hl, hl2; lia).
  split; [exact hlen|].
  assert (hk : forall k, (k <= m)%nat -> nth k (linspace_nat 0 a (S m) ++ skipn 1 (linspace_nat a (nadd a b) (S n))) 0 = nth k (linspace_nat 0 a (S m)) 0) by (intros k h; apply app_nth1; lia).
  assert (hall : forall k, (k <= m + n)%nat -> nth k (linspace_nat 0 a (S m) ++ skipn 1 (linspace_nat a (nadd a b) (S n))) 0 = two_phases m n a b k).
  { intros k h. unfold two_phases. destruct (Nat.leb_spec k m) as [h'|h'].
    - rewrite hk by assumption. rewrite ls_nth by lia. replace (S m - 1)%nat with m by lia. unfold Rdiv. ring.
    - rewrite app_nth2 by lia. rewrite hl. assert (hs : forall j (l : list R), nth j (skipn 1 l) 0 = nth (S j) l 0) by (intros j [|y l']; [destruct j|]; reflexivity).
      rewrite hs. rnum. rewrite ls_nth by lia. replace (S (k - S m)) with (k - m)%nat by lia. replace (S n - 1)%nat with n by lia. unfold Rdiv. ring. }
  split; [intros k h; symmetry; apply hk; exact h|]. split; [exact hall|]. assert (INR m <> 0 /\ INR n <> 0) by (split; apply not_0_INR; lia). split.
  - rewrite hall by lia. unfold two_phases. cbn [Nat.leb INR]. unfold Rdiv. ring.
  - rewrite hall by lia. unfold two_phases. destruct (Nat.leb_spec (m + n) m); [lia|]. replace (m + n - m)%nat with n by lia. field. tauto.
Qed.
Print Assumptions C114_times.

(** C114: fewer than two calculation times: nothing is calculated after the initialisation, whatever the running time *)
Theorem C114_nothing (d : time_data R) ini : linspace 0 (td_tot_ini d) (td_n_ini d) = Ok ini -> ini <> [] -> (0 <= td_n_calc d <= 1)%Z -> demo_time d = Ok (ini, ini).
Proof.
  intros h hne hc. unfold demo_time. change (lit 0) with 0. rewrite h. cbn [rbind]. destruct ini as [|x l]; [contradiction|].
  assert (hl : forall y z, exists c, linspace y z (td_n_calc d) = Ok c /\ skipn 1 c = []).
  { intros y z. destruct (Z.eq_dec (td_n_calc d) 0) as [->|h0]; [exists []; split; reflexivity|]. replace (td_n_calc d) with 1%Z by lia. exists [y]. split; reflexivity. }
  destruct (hl (last (x :: l) 0) (nadd (last (x :: l) 0) (td_tot_calc d))) as [c [-> hc2]]. cbn [rbind]. rewrite hc2, app_nil_r. reflexivity.
Qed.
Print Assumptions C114_nothing.

(** sizes of the steps *)
Lemma phase_step m n a b k : (1 <= m)%nat -> (1 <= n)%nat -> two_phases m n a b (S k) - two_phases m n a b k = if (k <? m)%nat then a / INR m else b / INR n.
Proof.
  intros hm hn. assert (INR m <> 0 /\ INR n <> 0) as [h1 h2] by (split; apply not_0_INR; lia). unfold two_phases.
  destruct (Nat.leb_spec (S k) m) as [h|h]; destruct (Nat.leb_spec k m) as [h'|h']; destruct (Nat.ltb_spec k m) as [h''|h'']; try lia.
  - rewrite S_INR. field. exact h1.
  - assert (k = m) by lia. subst k. replace (S m - m)%nat with 1%nat by lia. cbn [INR]. field. tauto.
  - replace (S k - m)%nat with (S (k - m)) by lia. rewrite S_INR. field. exact h2.
Qed.

(** C114: asked for a time step, the script calculates with a longer one, though by little when the steps are many *)
Theorem C114_step (running step : R) d N : 0 < step -> time_integration running step = Ok d -> td_n_calc d = Z.of_nat (S N) -> (1 <= N)%nat ->
  exists ini time, demo_time d = Ok (ini, time) /\ length ini = 5%nat /\ length time = (5 + N)%nat /\ nth 4 time 0 = 1 / 10000 /\ nth (4 + N) time 0 = 1 / 10000 + running /\
    forall k, (4 <= k)%nat -> (k < 4 + N)%nat -> nth (S k) time 0 - nth k time 0 = running / INR N /\ step < running / INR N < step * (1 + 2 / INR N).
Proof.
  intros hs e hn hN. unfold time_integration in e. destruct (neqbP step (lit 0)) as [h0|h0]; [rnum; lra|]. injection e as e. subst d. cbn [td_n_calc] in hn.
  set (d := mkTimeData (ndec 1 4) 5 running (ntrunc (ndiv running step))).
  destruct (C114_times d 4 N eq_refl hn ltac:(lia) hN) as [ini [time [h1 [h2 [h3 [h4 [h5 [h6 h7]]]]]]]].
  assert (ha : td_tot_ini d = 1 / 10000) by (unfold d; cbn [td_tot_ini]; rewrite ndec_R; reflexivity).
  exists ini, time. split; [exact h1|]. split; [exact h2|]. split; [rewrite h3; lia|]. rewrite ha in *. split; [|split].
  - rewrite h5 by lia. unfold two_phases. cbn. lra.
  - exact h7.
  - intros k hk1 hk2. rewrite !h5 by lia. rewrite phase_step by lia. destruct (Nat.ltb_spec k 4); [lia|]. split; [reflexivity|].
    cbn [td_tot_calc d].
    assert (hr : 0 <= running / step).
    { destruct (Rle_dec 0 (running / step)) as [h|h]; [exact h|]. apply Rnot_le_lt, trunc_neg in h. rnum. change (ndiv running step) with (running / step) in hn. lia. }
    destruct (trunc_nonneg _ hr) as [_ [q1 q2]]. change (ndiv running step) with (running / step) in hn. rewrite hn, <- INR_IZR_INZ, S_INR in q1, q2.
    assert (hp : 0 < INR N) by (apply lt_0_INR; lia).
    assert (r1 : (INR N + 1) * step <= running) by (apply (Rmult_le_compat_r step) in q1; [|lra]; replace (running / step * step) with running in q1 by (field; lra); exact q1).
    assert (r2 : running < (INR N + 1 + 1) * step) by (apply (Rmult_lt_compat_r step) in q2; [|lra]; replace (running / step * step) with running in q2 by (field; lra); exact q2).
    split; apply (Rmult_lt_reg_r (INR N)); try exact hp; (replace (running / INR N * INR N) with running by (field; lra)); [nra|].
    replace (step * (1 + 2 / INR N) * INR N) with (step * (INR N + 2)) by (field; lra). nra.
Qed.
Print Assumptions C114_step.

Theorem C114_step_refuted : exists (running step : R) d ini time, 0 < step /\ time_integration running step = Ok d /\ demo_time d = Ok (ini, time) /\ running = 2 * step /\
  nth 5 time 0 - nth 4 time 0 = 2 * step.
Proof.
  destruct (C114_step 2 1 (mkTimeData (ndec 1 4) 5 2 (ntrunc (ndiv 2 1))) 1) as [ini [time [h1 [h2 [h3 [h4 [h5 h6]]]]]]].
  - lra.
  - unfold time_integration. destruct (neqbP 1 (lit 0)) as [h|h]; [rnum; lra|]. reflexivity.
  - cbn [td_n_calc]. rnum. replace (2 / 1) with (INR 2) by (cbn; field). apply trunc_INR.
  - lia.
  - exists 2, 1, (mkTimeData (ndec 1 4) 5 2 (ntrunc (ndiv 2 1))), ini, time. split; [lra|]. split; [|split; [exact h1|split; [lra|]]].
    + unfold time_integration. destruct (neqbP 1 (lit 0)) as [h|h]; [rnum; lra|]. reflexivity.
    + destruct (h6 4%nat ltac:(lia) ltac:(lia)) as [-> _]. cbn. field.
Qed.
Print Assumptions C114_step_refuted.

(** ** the motion *)

Lemma velocities_at (ini time : list R) v k : (length ini <= length time)%nat -> (k < length time)%nat ->
  nth k (demo_velocities ini time v) 0 = if (k <? length ini)%nat then 0 else v.
Proof.
  intros h hk. unfold demo_velocities. rewrite repeat_length, Nat.min_l by exact h. destruct (Nat.ltb_spec k (length ini)) as [h'|h'].
  - rewrite app_nth1 by (rewrite repeat_length; lia). apply nth_repeat.
  - rewrite app_nth2 by (rewrite repeat_length; lia). rewrite repeat_length.
    assert (g : forall j c (x : R), nth j (skipn (length ini) (repeat x c)) 0 = nth (length ini + j) (repeat x c) 0).
    { intros j c x. rewrite <- (firstn_skipn (length ini) (repeat x c)) at 2. destruct (Nat.le_gt_cases (length ini) c) as [q|q].
      - rewrite app_nth2 by (rewrite firstn_length, repeat_length; lia). rewrite firstn_length, repeat_length, Nat.min_l by exact q. f_equal. lia.
      - rewrite skipn_all2 by (rewrite repeat_length; lia). rewrite app_nil_r. rewrite nth_overflow with (n := (length ini + j)%nat) by (rewrite firstn_length, repeat_length; lia). destruct j; reflexivity. }
    rewrite g. replace (length ini + (k - length ini))%nat with k by lia. rewrite (nth_indep _ 0 (nmul (lit 1) v)) by (rewrite repeat_length; lia). rewrite nth_repeat. rnum. ring.
Qed.
Lemma velocities_length (ini time : list R) v : (length ini <= length time)%nat -> length (demo_velocities ini time v) = length time.
Proof. intros h. unfold demo_velocities. rewrite app_length, skipn_length, !repeat_length. lia. Qed.

Lemma phases_grow m n a b j k : (1 <= m)%nat -> (1 <= n)%nat -> 0 <= a -> 0 <= b -> (j <= k)%nat -> two_phases m n a b j <= two_phases m n a b k.
Proof.
  intros hm hn ha hb h. induction h as [|k h IH]; [lra|]. pose proof (phase_step m n a b k hm hn) as e.
  assert (0 < INR m /\ 0 < INR n) as [p1 p2] by (split; apply lt_0_INR; lia).
  assert (0 <= a / INR m) by (apply Rmult_le_pos; [lra|]; left; apply Rinv_0_lt_compat; lra).
  assert (0 <= b / INR n) by (apply Rmult_le_pos; [lra|]; left; apply Rinv_0_lt_compat; lra).
  destruct (k <? m)%nat; lra.
Qed.

(** C114: every part of the train stands until one calculation step after the initialisation and runs with its speed then *)
Theorem C114_motion (d : time_data R) m n v s ini time : td_n_ini d = Z.of_nat (S m) -> td_n_calc d = Z.of_nat (S n) -> (1 <= m)%nat -> (1 <= n)%nat ->
  0 <= td_tot_ini d -> 0 <= td_tot_calc d -> demo_time d = Ok (ini, time) ->
  length (demo_velocities ini time v) = length time /\
  (forall k, (k < length time)%nat -> travelled time (demo_velocities ini time v) s k = s + way (td_tot_ini d + td_tot_calc d / INR n) v (nth k time 0)) /\
  travelled time (demo_velocities ini time v) s (m + n) = s + v * (td_tot_calc d - td_tot_calc d / INR n).
Proof.
  intros hi hc hm hn ha hb e. destruct (C114_times d m n hi hc hm hn) as [ini' [time' [e' [h2 [h3 [_ [h5 [_ h7]]]]]]]]. rewrite e in e'. injection e' as <- <-.
  assert (hle : (length ini <= length time)%nat) by lia. split; [apply velocities_length; exact hle|].
  assert (ht : td_tot_ini d + td_tot_calc d / INR n = two_phases m n (td_tot_ini d) (td_tot_calc d) (S m)).
  { unfold two_phases. destruct (Nat.leb_spec (S m) m); [lia|]. replace (S m - m)%nat with 1%nat by lia. cbn [INR]. unfold Rdiv. ring. }
  assert (hall : forall k, (k < length time)%nat -> travelled time (demo_velocities ini time v) s k = s + way (td_tot_ini d + td_tot_calc d / INR n) v (nth k time 0)).
  { induction k as [|k IH]; intros hk.
    - unfold travelled, way. cbn [sumn]. rewrite h5 by lia. rewrite ht. pose proof (phases_grow m n _ _ 0 (S m) hm hn ha hb ltac:(lia)). rewrite Rmax_left by lra. rnum. ring.
    - rewrite (travelled_step time). rewrite IH by lia. rewrite velocities_at by lia. rewrite h2. unfold way. rewrite ht. rewrite !h5 by lia. destruct (Nat.ltb_spec k (S m)) as [q|q].
      + pose proof (phases_grow m n _ _ k (S m) hm hn ha hb ltac:(lia)). pose proof (phases_grow m n _ _ (S k) (S m) hm hn ha hb ltac:(lia)). rewrite !Rmax_left by lra. ring.
      + pose proof (phases_grow m n _ _ (S m) k hm hn ha hb ltac:(lia)). pose proof (phases_grow m n _ _ (S m) (S k) hm hn ha hb ltac:(lia)). rewrite !Rmax_right by lra. ring. }
  split; [exact hall|]. rewrite hall by lia. rewrite h7. unfold way. f_equal.
  assert (h1n : 0 < INR n) by (apply lt_0_INR; lia). assert (1 <= INR n) by (change 1 with (INR 1); apply le_INR; lia).
  assert (td_tot_calc d / INR n <= td_tot_calc d). { apply (Rmult_le_reg_r (INR n)); [exact h1n|]. replace (td_tot_calc d / INR n * INR n) with (td_tot_calc d) by (field; lra). nra. }
  rewrite Rmax_right by lra. ring.
Qed.
Print Assumptions C114_motion.

(** C114 as promised, a train that runs from the end of the initialisation, is false: two calculation times and the train never moves *)
Theorem C114_motion_refuted : exists (d : time_data R) ini time, demo_time d = Ok (ini, time) /\ td_tot_ini d = 1 /\ td_tot_calc d = 1 /\ nth 2 time 0 = 2 /\
  travelled time (demo_velocities ini time 40) 0 2 = 0 /\ way 1 40 2 = 40.
Proof.
  set (d := mkTimeData 1 2 1 2). destruct (C114_times d 1 1 eq_refl eq_refl ltac:(lia) ltac:(lia)) as [ini [time [h1 [h2 [h3 [h4 [h5 [h6 h7]]]]]]]].
  destruct (C114_motion d 1 1 40 0 ini time eq_refl eq_refl ltac:(lia) ltac:(lia) ltac:(cbn; lra) ltac:(cbn; lra) h1) as [_ [_ h]].
  exists d, ini, time. split; [exact h1|]. split; [reflexivity|]. split; [reflexivity|]. cbn in h7, h. split; [rewrite h7; lra|]. split; [rewrite h; field|]. unfold way. rewrite Rmax_right; lra.
Qed.
Print Assumptions C114_motion_refuted.

(** C114: giving another speed to a train that was set up with a speed of more than 1e-10 is the same as setting it up with that speed;
    a train set up standing stays standing *)
Theorem C114_speed (ini time : list R) v w : (length ini <= length time)%nat ->
  (1 / 10000000000 < v -> change_velocity (demo_velocities ini time v) w = demo_velocities ini time w) /\
  (v <= 1 / 10000000000 -> change_velocity (demo_velocities ini time v) w = demo_velocities ini time v).
Proof.
  intros h. assert (g : length (change_velocity (demo_velocities ini time v) w) = length time) by (unfold change_velocity; rewrite map_length; apply velocities_length; exact h).
  assert (f : forall x, length x = length time -> (forall k, (k < length time)%nat -> nth k (change_velocity (demo_velocities ini time v) w) 0 = nth k x 0) -> change_velocity (demo_velocities ini time v) w = x).
  { intros x hx he. apply (nth_ext _ _ 0 0); [congruence|]. rewrite g. exact he. }
  assert (q : forall k, (k < length time)%nat -> nth k (change_velocity (demo_velocities ini time v) w) 0 = if (k <? length ini)%nat then 0 else if nltb (ndec 1 10) v then w else v).
  { intros k hk. unfold change_velocity. rewrite (nth_map0 _ _ _ 0) by (rewrite velocities_length by exact h; exact hk). rewrite velocities_at by assumption. destruct (k <? length ini)%nat; [|reflexivity].
    destruct (nltbP (ndec 1 10) 0) as [z|z]; [|reflexivity]. rewrite ndec_R in z. exfalso. change (10 ^ 10)%Z with 10000000000%Z in z. lra. }
  split; intros hv; apply f; try (apply velocities_length; exact h); intros k hk; rewrite q by exact hk; rewrite velocities_at by assumption; destruct (k <? length ini)%nat; try reflexivity;
    destruct (nltbP (ndec 1 10) v) as [z|z]; try reflexivity; rewrite ndec_R in z; change (10 ^ 10)%Z with 10000000000%Z in z; lra.
Qed.
Print Assumptions C114_speed.

(** ** stages *)

(** C114: when the two step sizes differ by more than rounding, the calculation has two stages, of which the second starts at the end
    of the initialisation; otherwise one *)
Theorem C114_stages (d : time_data R) m n ini time : td_n_ini d = Z.of_nat (S m) -> td_n_calc d = Z.of_nat (S n) -> (1 <= m)%nat -> (1 <= n)%nat ->
  demo_time d = Ok (ini, time) ->
  stage_time_ids time = if Z.eqb (round15 (td_tot_ini d / INR m)) (round15 (td_tot_calc d / INR n)) then [0%nat; (m + n)%nat] else [0%nat; m; (m + n)%nat].
Proof.
  intros hi hc hm hn e. destruct (C114_times d m n hi hc hm hn) as [ini' [time' [e' [h2 [h3 [_ [h5 _]]]]]]]. rewrite e in e'. injection e' as <- <-.
  unfold stage_time_ids. rewrite h3. replace (S (m + n) - 1)%nat with (m + n)%nat by lia.
  set (x := round15 (td_tot_ini d / INR m)). set (y := round15 (td_tot_calc d / INR n)).
  assert (hd : map round15 (np_diff time) = repeat x m ++ repeat y n).
  { assert (hl : length (np_diff time) = (m + n)%nat) by (rewrite Proofs_Moving.np_diff_length, h3; lia).
    apply (nth_ext _ _ 0%Z 0%Z); [rewrite map_length, app_length, !repeat_length; exact hl|]. rewrite map_length, hl. intros k hk.
    rewrite (nth_map_z _ _ _ 0) by lia. rewrite Proofs_Moving.np_diff_nth by lia. rewrite !h5 by lia. rewrite phase_step by assumption. destruct (Nat.ltb_spec k m) as [q|q].
    - rewrite app_nth1 by (rewrite repeat_length; exact q). rewrite (nth_indep _ 0%Z x) by (rewrite repeat_length; exact q). rewrite nth_repeat. reflexivity.
    - rewrite app_nth2 by (rewrite repeat_length; exact q). rewrite repeat_length. rewrite (nth_indep _ 0%Z y) by (rewrite repeat_length; lia). rewrite nth_repeat. reflexivity. }
  rewrite hd. clear - hm hn.
  assert (skip : forall c z i seen l, existsb (Z.eqb z) seen = true -> first_idx_from i seen (repeat z c ++ l) = first_idx_from (i + c) seen l).
  { induction c as [|c IH]; intros z i seen l hz; [cbn; f_equal; lia|]. cbn [repeat app first_idx_from]. rewrite hz. rewrite IH by exact hz. f_equal. lia. }
  destruct m as [|m]; [lia|]. cbn [repeat app first_idx_from existsb]. rewrite skip by (cbn; rewrite Z.eqb_refl; reflexivity).
  destruct n as [|n]; [lia|]. cbn [repeat first_idx_from existsb]. rewrite orb_false_r.
  rewrite <- (app_nil_r (repeat y n)). destruct (Z.eqb_spec y x) as [q|q]; destruct (Z.eqb_spec x y) as [p|p]; try congruence.
  - rewrite skip by (cbn; rewrite q, Z.eqb_refl; reflexivity). reflexivity.
  - rewrite skip by (cbn; rewrite Z.eqb_refl; reflexivity). reflexivity.
Qed.
Print Assumptions C114_stages.

(** ** segments *)

(** C114: taking every [f]-th sleeper keeps the length of a segment and the stiffness and damping of its soil when [f] divides the
    number of sleepers *)
Theorem C114_segments (ns : list nat) f s c : (1 <= f)%nat -> (forall n, In n ns -> Nat.divide f n) -> length s = length ns -> length c = length ns ->
  exists ks dist, demo_geometry (map Z.of_nat ns) (INR f) = Ok (ks, dist) /\ length ks = length ns /\
    forall i, (i < length ns)%nat ->
      IZR (nth i ks 0%Z) * dist = INR (nth i ns 0%nat) * (6 / 10) /\
      IZR (nth i ks 0%Z) * nth i (fst (soil_parameters dist s c)) 0 = INR (nth i ns 0%nat) * (6 / 10) * nth i s 0 /\
      IZR (nth i ks 0%Z) * nth i (snd (soil_parameters dist s c)) 0 = INR (nth i ns 0%nat) * (6 / 10) * nth i c 0.
Proof.
  intros hf hd hs hc. assert (hp : 0 < INR f) by (apply lt_0_INR; lia). unfold demo_geometry. destruct (neqbP (INR f) (lit 0)) as [q|q]; [rnum; lra|]. cbn [andb].
  eexists _, _. split; [reflexivity|]. split; [rewrite !map_length; reflexivity|]. intros i hi.
  rewrite (nth_map_z _ _ _ 0%Z) by (rewrite map_length; exact hi). rewrite (nth_map_z _ _ _ 0%nat) by exact hi.
  destruct (hd (nth i ns 0%nat) (nth_In ns 0%nat hi)) as [z hz].
  assert (e : IZR (ntrunc (ndiv (lit (Z.of_nat (nth i ns 0%nat))) (INR f))) * INR f = INR (nth i ns 0%nat)).
  { replace (ndiv (lit (Z.of_nat (nth i ns 0%nat))) (INR f)) with (INR z).
    - rewrite trunc_INR, <- INR_IZR_INZ, <- mult_INR, hz. reflexivity.
    - rnum. rewrite <- INR_IZR_INZ, hz, mult_INR. field. lra. }
  cbn [soil_parameters fst snd]. rewrite !(nth_map0 _ _ _ 0) by lia. rewrite ndec_R. change (10 ^ 1)%Z with 10%Z. rnum.
  set (k := IZR (ntrunc _)) in *. clearbody k. split; [|split].
  - rewrite <- e. ring.
  - rewrite <- e. ring.
  - rewrite <- e. ring.
Qed.
Print Assumptions C114_segments.

(** with a remainder the segment becomes shorter: 5 sleepers with factor 2 make 2 sleepers at 1.2 m *)
Theorem C114_segments_refuted : exists ks dist, demo_geometry [5%Z] (2 : R) = Ok (ks, dist) /\ IZR (nth 0 ks 0%Z) * dist = 24 / 10 /\ 5 * (6 / 10) = 3.
Proof.
  unfold demo_geometry. destruct (neqbP (2 : R) (lit 0)) as [q|q]; [rnum; lra|]. cbn [andb]. eexists _, _. split; [reflexivity|]. cbn [map nth].
  assert (e : ntrunc (ndiv (lit 5) 2) = 2%Z) by (apply trunc_unique; rnum; lra). rewrite e, ndec_R. change (10 ^ 1)%Z with 10%Z. rnum. split; field.
Qed.
Print Assumptions C114_segments_refuted.

(** the demonstration itself: 14 s in steps of 0.25 ms *)
Example C114_case : exists d ini time, time_integration 14 (1 / 4000) = Ok d /\ demo_time d = Ok (ini, time) /\ td_n_calc d = 56000%Z.
Proof.
  assert (e : time_integration 14 (1 / 4000) = Ok (mkTimeData (ndec 1 4) 5 14 56000)).
  { unfold time_integration. destruct (neqbP (1 / 4000) (lit 0)) as [q|q]; [rnum; lra|]. f_equal. f_equal. apply trunc_unique; rnum; lra. }
  assert (h : exists N, Z.of_nat (S N) = 56000%Z /\ (1 <= N)%nat) by (exists (Z.to_nat 55999); lia). destruct h as [N [hN hN2]].
  destruct (C114_times (mkTimeData (ndec 1 4) 5 14 56000) 4 N eq_refl (eq_sym hN) ltac:(lia) hN2) as [ini [time [h1 _]]].
  eexists _, ini, time. split; [exact e|]. split; [exact h1|reflexivity].
Qed.
