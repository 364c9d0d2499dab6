(** * Properties C64, C65 and C79: particle swarm optimisation *)

From Coq Require Import Reals List Bool ZArith Arith Lia Lra Psatz.
From Verif Require Import Num PyBase Model_Swarm Spec_Swarm Proofs_System Proofs_Accumulation Proofs_Swarm.
Import ListNotations.
Local Open Scope R_scope.

(** ** data of the examples: one particle on a line that starts with velocity 1 *)
Definition ex_draw (i : nat) : R := 1.
Definition ex_bounds : list (R * R) := [(-10, 10)].
Definition square (x : list R) : R := nth 0 x 0 * nth 0 x 0.
Lemma ex_positions cost x k : (k < 2)%nat -> -9 <= x <= 9 -> X cost ex_draw ex_bounds 1 1 [x] k 0 = [x + INR k / 2].
Proof.
  intros hk hx. destruct k as [|[|k]]; [|clear hk|lia]. { cbn. f_equal. lra. }
  rewrite X_S. unfold pos_of, vel_of. cbn [seq map]. f_equal. unfold new_pos, new_vel, clamp, V. cbn [traj fst snd seq map nth ex_bounds]. rewrite L_S. unfold L. cbn [traj snd app map seq X fst].
  replace (X cost ex_draw ex_bounds 1 1 [x] 0 0) with [x] by reflexivity. rewrite track_one. cbn [fst nth]. unfold ex_draw, uniform_pm1. rnum.
  rewrite Rmin_right by (cbn; lra). rewrite Rmax_right by (cbn; lra). cbn [INR]. lra.
Qed.

(** ** C64: bounds and best position *)

(** the optimisation runs iff there are enough bounds, or nothing to do *)
Theorem C64_runs cost draw x0 bounds P K : (length x0 <= length bounds)%nat \/ P = 0%nat \/ K = 0%nat <-> exists s, pso cost draw x0 bounds P K = Ok s.
Proof.
  split.
  - intros [h|[h|h]].
    + destruct (pso_spec cost draw bounds (length x0) P x0 K eq_refl h) as [s [h1 _]]. eauto.
    + unfold pso. rewrite empty_iterations by exact h. eauto.
    + subst K. unfold pso. cbn. eauto.
  - intros [s h]. destruct (le_lt_dec (length x0) (length bounds)) as [c|c]; [left; exact c|]. destruct (Nat.eq_dec P 0) as [|hP]; [tauto|]. destruct (Nat.eq_dec K 0) as [|hK]; [tauto|].
    rewrite (pso_short cost draw bounds (length x0) P) in h by (try reflexivity; try assumption; lia). discriminate.
Qed.
Print Assumptions C64_runs.
Theorem C64_too_few_bounds cost draw x0 bounds P K : (length bounds < length x0)%nat -> (0 < P)%nat -> (0 < K)%nat -> pso cost draw x0 bounds P K = Err ErrIndex.
Proof. intros. apply (pso_short cost draw bounds (length x0) P); auto. Qed.
Print Assumptions C64_too_few_bounds.

(** every iteration evaluates every particle, the first one at the start position *)
Theorem C64_evaluations cost draw x0 bounds P K s : pso cost draw x0 bounds P K = Ok s ->
  length (sw_log s) = (K * P)%nat /\ (forall x, In x (sw_log s) -> length x = length x0) /\ ((0 < K)%nat -> forall j, (j < P)%nat -> nth j (sw_log s) [] = x0).
Proof.
  intros h. destruct (pso_inv _ _ _ (length x0) _ _ _ _ eq_refl h) as [_ [_ [h1 _]]]. rewrite h1. split; [apply L_length|]. split.
  - intros x hx. apply L_in in hx. destruct hx as [k [j [_ [_ ->]]]]. apply X_length. reflexivity.
  - intros hK j hj. exact (L_nth cost draw bounds (length x0) P x0 0 j K [] hK hj).
Qed.
Print Assumptions C64_evaluations.

(** all evaluated positions are within the bounds, if the start position is *)
Theorem C64_within_partial cost draw x0 bounds P K s : pso cost draw x0 bounds P K = Ok s ->
  (forall b, In b bounds -> fst b <= snd b) -> within bounds x0 -> forall x, In x (sw_log s) -> within bounds x.
Proof.
  intros h hb h0 x hx. destruct (pso_inv _ _ _ (length x0) _ _ _ _ eq_refl h) as [_ [_ [h1 _]]]. rewrite h1 in hx. apply L_in in hx. destruct hx as [k [j [_ [hj ->]]]].
  apply within_bounds; try assumption; try reflexivity. intros i hi. destruct (le_lt_dec (length bounds) i) as [c|c]; [rewrite nth_overflow by exact c; cbn; lra|apply hb, nth_In, c].
Qed.
Print Assumptions C64_within_partial.
(** after the first evaluation of each particle all positions are within the bounds, wherever the start is *)
Theorem C64_later_within cost draw x0 bounds P K s : pso cost draw x0 bounds P K = Ok s ->
  (forall b, In b bounds -> fst b <= snd b) -> forall k, (P <= k < K * P)%nat -> within bounds (nth k (sw_log s) []).
Proof.
  intros h hb k hk. destruct (pso_inv _ _ _ (length x0) _ _ _ _ eq_refl h) as [_ [_ [h1 _]]]. rewrite h1. assert (hP : P <> 0%nat) by lia.
  pose proof (Nat.div_mod k P hP) as e. pose proof (Nat.mod_upper_bound k P hP) as hm. set (q := (k / P)%nat) in *. set (r := (k mod P)%nat) in *. replace k with (q * P + r)%nat by lia.
  assert (hq : (1 <= q < K)%nat) by nia. rewrite L_nth by lia. destruct q as [|q]; [lia|]. intros i hi. rewrite X_length in hi by reflexivity. rewrite X_S. unfold pos_of. rewrite map_seq_nth by exact hi. unfold new_pos, clamp.
  set (b := nth i bounds (0, 0)). assert (hbb : fst b <= snd b). { unfold b. destruct (le_lt_dec (length bounds) i) as [c|c]; [rewrite nth_overflow by exact c; cbn; lra|apply hb, nth_In, c]. }
  set (y := _ + _). unfold Rmax, Rmin. destruct (Rle_dec (snd b) y); destruct (Rle_dec _ _); lra.
Qed.
Print Assumptions C64_later_within.
Theorem C64_start_refuted : exists cost draw x0 bounds P K s, pso cost draw x0 bounds P K = Ok s /\ (forall b, In b bounds -> fst b <= snd b) /\ exists x, In x (sw_log s) /\ ~ within bounds x.
Proof.
  exists square, ex_draw, [20], ex_bounds, 1%nat, 1%nat. destruct (proj1 (C64_runs square ex_draw [20] ex_bounds 1 1)) as [s hs]; [left; cbn; lia|]. exists s. split; [exact hs|]. split; [intros b [<-|[]]; cbn; lra|].
  destruct (C64_evaluations _ _ _ _ _ _ _ hs) as [h1 [_ h3]]. exists [20]. split; [rewrite <- (h3 ltac:(lia) 0%nat ltac:(lia)); apply nth_In; lia|]. intros h. specialize (h 0%nat ltac:(cbn; lia)). cbn in h. lra.
Qed.
Print Assumptions C64_start_refuted.

(** the printed position is the first evaluated position with the smallest cost, and the printed error is its cost; the cost
    function must never have the value -1, which marks that nothing has been evaluated yet *)
Theorem C64_best cost draw x0 bounds P K s : pso cost draw x0 bounds P K = Ok s -> (0 < P)%nat -> (0 < K)%nat -> (forall x, cost x <> -1) ->
  is_best cost (sw_log s) (sw_best s) /\ sw_err s = cost (sw_best s).
Proof.
  intros h hP hK hc. destruct (pso_inv _ _ _ (length x0) _ _ _ _ eq_refl h) as [_ [h1 [h2 _]]]. unfold tracked in h1.
  assert (hne : sw_log s <> []). { intros e. rewrite h2 in e. apply (f_equal (@length _)) in e. rewrite L_length in e. cbn in e. nia. }
  rewrite (f_equal fst h1 : sw_best s = _), (f_equal snd h1 : sw_err s = _). split; [apply track_best; [exact hne|intros; apply hc]|apply track_in; exact hne].
Qed.
Print Assumptions C64_best.
Theorem C64_nothing cost draw x0 bounds P K s : pso cost draw x0 bounds P K = Ok s -> P = 0%nat \/ K = 0%nat -> sw_best s = [] /\ sw_err s = -1 /\ sw_log s = [].
Proof.
  intros h hz. destruct (pso_inv _ _ _ (length x0) _ _ _ _ eq_refl h) as [_ [h1 [h2 _]]]. assert (e : sw_log s = []) by (apply length_zero_iff_nil; rewrite h2, L_length; nia).
  unfold tracked in h1. rewrite e in h1. cbn in h1. repeat split; [exact (f_equal fst h1)|exact (f_equal snd h1)|exact e].
Qed.
Print Assumptions C64_nothing.
Example C64_case : exists s, pso square ex_draw [1] ex_bounds 1 2 = Ok s /\ (forall x, square x <> -1) /\ sw_log s = [[1]; [3 / 2]] /\ within ex_bounds [1].
Proof.
  destruct (proj1 (C64_runs square ex_draw [1] ex_bounds 1 2)) as [s hs]; [left; cbn; lia|]. exists s. split; [exact hs|]. split; [intros x; unfold square; nra|]. split.
  - destruct (pso_inv _ _ _ 1%nat _ [1] _ _ eq_refl hs) as [_ [_ [h _]]]. rewrite h, !L_S. unfold L. cbn [traj snd seq map app]. rewrite !ex_positions by (try lia; lra). cbn [INR]. f_equal; [f_equal; lra|do 2 f_equal; lra].
  - intros i hi. cbn in hi. destruct i; [|lia]. cbn. lra.
Qed.
(** with the value -1 a worse position is returned *)
Theorem C64_sentinel_refuted : exists cost draw x0 bounds P K s, pso cost draw x0 bounds P K = Ok s /\ exists x, In x (sw_log s) /\ cost x < sw_err s.
Proof.
  set (cost := fun x => if Req_EM_T (nth 0 x 0) 0 then -1 else 5). exists cost, ex_draw, [0], ex_bounds, 1%nat, 2%nat.
  destruct (proj1 (C64_runs cost ex_draw [0] ex_bounds 1 2)) as [s hs]; [left; cbn; lia|]. exists s. split; [exact hs|].
  destruct (pso_inv _ _ _ 1%nat _ [0] _ _ eq_refl hs) as [_ [h1 [h _]]]. rewrite !L_S in h. unfold L in h. cbn [traj snd seq map app] in h. rewrite !ex_positions in h by (try lia; lra). cbn [INR] in h.
  assert (c0 : cost [0 + 0 / 2] = -1). { unfold cost. cbn [nth]. destruct (Req_EM_T _ 0) as [e|e]; [reflexivity|]. exfalso. apply e. lra. }
  assert (c1 : cost [0 + 1 / 2] = 5). { unfold cost. cbn [nth]. destruct (Req_EM_T _ 0) as [e|e]; [lra|reflexivity]. }
  exists [0 + 0 / 2]. rewrite h. split; [left; reflexivity|]. unfold tracked in h1. rewrite h in h1. change [[0 + 0 / 2]; [0 + 1 / 2]] with ([[0 + 0 / 2]] ++ [[0 + 1 / 2]]) in h1. rewrite track_snoc, track_one in h1. cbn [snd] in h1. rewrite c0, sentinel, orb_true_r in h1.
  rewrite (f_equal snd h1 : sw_err s = _). cbn [snd]. rewrite c0, c1. lra.
Qed.
Print Assumptions C64_sentinel_refuted.

(** ** C65: personal best *)

(** from the first iteration on, what a particle remembers as its best position is its current position *)
Theorem C65_current cost draw x0 bounds P K s : pso cost draw x0 bounds P K = Ok s -> (0 < K)%nat -> length (sw_particles s) = P /\
  forall j p, particle_of s j p -> exists x, position_of s p x /\ remembered s p x.
Proof.
  intros h hK. destruct (pso_inv _ _ _ (length x0) _ _ _ _ eq_refl h) as [[h1 h2] _]. split; [exact h1|]. intros j p hp. assert (hj : (j < P)%nat) by (rewrite <- h1; eapply some_lt; exact hp).
  destruct (h2 j hj) as [q [q1 [q2 [q3 [q4 [q5 [q6 [q7 _]]]]]]]]. unfold particle_of in hp. assert (p = q) by congruence. subst q. exists (X cost draw bounds (length x0) P x0 K j). unfold position_of, remembered.
  rewrite q4 by (unfold H; destruct K; [lia|discriminate]). rewrite q2. auto.
Qed.
Print Assumptions C65_current.
(** its personal best error is right: the smallest cost of the positions at which it was evaluated *)
Theorem C65_error cost draw x0 bounds P K s : pso cost draw x0 bounds P K = Ok s -> (0 < K)%nat -> (forall x, cost x <> -1) -> forall j p, particle_of s j p ->
  (exists k, (k < K)%nat /\ p_err_best p = cost (nth (k * P + j) (sw_log s) [])) /\ forall k, (k < K)%nat -> p_err_best p <= cost (nth (k * P + j) (sw_log s) []).
Proof.
  intros h hK hc j p hp. destruct (pso_inv _ _ _ (length x0) _ _ _ _ eq_refl h) as [[h1 h2] [_ [h3 _]]]. assert (hj : (j < P)%nat) by (rewrite <- h1; eapply some_lt; exact hp).
  destruct (h2 j hj) as [q [q1 [_ [_ [_ [q5 _]]]]]]. unfold particle_of in hp. assert (p = q) by congruence. subst q. rewrite q5, h3.
  assert (hne : H cost draw bounds (length x0) P x0 K j <> []) by (unfold H; destruct K; [lia|discriminate]).
  destruct (track_in cost _ hne) as [t1 t2]. destruct (track_best cost _ hne (fun x _ => hc x)) as [b [a [e1 [e2 e3]]]]. rewrite t2. split.
  - unfold H in t1 at 2. apply in_map_iff in t1. destruct t1 as [k [ek hk]]. apply in_seq in hk. exists k. split; [lia|]. rewrite L_nth by lia. congruence.
  - intros k hk. rewrite L_nth by lia. assert (hin : In (X cost draw bounds (length x0) P x0 k j) (H cost draw bounds (length x0) P x0 K j)) by (unfold H; apply in_map_iff; exists k; split; [reflexivity|apply in_seq; lia]).
    rewrite e1 in hin. apply in_app_or in hin. destruct hin as [hin|[hin|hin]]; [specialize (e2 _ hin); lra|rewrite <- hin; lra|apply e3; exact hin].
Qed.
Print Assumptions C65_error.
(** so the claim is wrong: the remembered position is not the one at which the remembered error was evaluated *)
Theorem C65_refuted : exists cost draw x0 bounds P K s p x, pso cost draw x0 bounds P K = Ok s /\ (forall x, 0 <= cost x) /\ particle_of s 0 p /\ remembered s p x /\
  p_err_best p = cost x0 /\ p_err_best p < cost x.
Proof.
  exists square, ex_draw, [1], ex_bounds, 1%nat, 1%nat. destruct (proj1 (C64_runs square ex_draw [1] ex_bounds 1 1)) as [s hs]; [left; cbn; lia|].
  destruct (pso_inv _ _ _ 1%nat _ [1] _ _ eq_refl hs) as [[h1 h2] _]. destruct (h2 0%nat ltac:(lia)) as [q [q1 [q2 [q3 [q4 [q5 [q6 _]]]]]]]. exists s, q, [3 / 2]. split; [exact hs|]. split; [intros x; unfold square; nra|]. split; [exact q1|].
  unfold remembered. rewrite q4 by discriminate. cbn [Nat.mul] in *. rewrite q6. rewrite ex_positions by (try lia; lra). cbn [INR]. split; [do 2 f_equal; lra|].
  rewrite q5. unfold H. cbn [seq map]. rewrite ex_positions by (try lia; lra). rewrite track_one. cbn [snd INR]. unfold square. cbn [nth]. split; lra.
Qed.
Print Assumptions C65_refuted.

(** ** C79: motion *)

Theorem C79_motion cost draw x0 bounds P K s : pso cost draw x0 bounds P K = Ok s -> (0 < P)%nat -> (forall x, cost x <> -1) ->
  exists pos vel g, motion draw x0 bounds P pos vel g /\
    (forall k j, (k < K)%nat -> (j < P)%nat -> nth (k * P + j) (sw_log s) [] = map (pos k j) (seq 0 (length x0))) /\
    (forall k, (k < K)%nat -> is_best cost (firstn (S k * P) (sw_log s)) (g k)) /\
    (forall j p, particle_of s j p -> position_of s p (map (pos K j) (seq 0 (length x0)))).
Proof.
  intros h hP hc. destruct (pso_inv _ _ _ (length x0) _ _ _ _ eq_refl h) as [[h1 h2] [_ [h3 _]]]. eexists; eexists; eexists. split; [apply (trajectory cost); reflexivity|]. split; [|split].
  - intros k j hk hj. rewrite h3, L_nth by assumption. rewrite <- (X_length cost draw bounds (length x0) P x0 k j eq_refl) at 2. rewrite map_seq_id. reflexivity.
  - intros k hk. rewrite h3.
    assert (e : forall m, firstn (S k * P) (L cost draw bounds (length x0) P x0 (S k + m)) = L cost draw bounds (length x0) P x0 (S k)).
    { induction m as [|m ih]; [rewrite Nat.add_0_r; apply firstn_all2; rewrite L_length; lia|]. rewrite Nat.add_succ_r, L_S, firstn_app. rewrite L_length. replace (S k * P - (S k + m) * P)%nat with 0%nat by nia. cbn [firstn]. rewrite app_nil_r. exact ih. }
    replace K with (S k + (K - S k))%nat by lia. rewrite e. apply track_best; [|intros; apply hc]. intros e'. apply (f_equal (@length _)) in e'. rewrite L_length in e'. cbn in e'. nia.
  - intros j p hp. assert (hj : (j < P)%nat) by (rewrite <- h1; eapply some_lt; exact hp). destruct (h2 j hj) as [q [q1 [q2 [_ [_ [_ [q6 _]]]]]]]. unfold particle_of in hp. assert (p = q) by congruence. subst q.
    unfold position_of. rewrite q2, q6. f_equal. rewrite <- (X_length cost draw bounds (length x0) P x0 K j eq_refl) at 2. rewrite map_seq_id. reflexivity.
Qed.
Print Assumptions C79_motion.
