(** * Properties C67 and C68: the Kalman filter *)

From Coq Require Import Reals List Bool ZArith Arith Lia Lra Psatz.
From Verif Require Import Num PyBase Model_Accumulation Model_Kalman Spec_Kalman Proofs_System Proofs_Accumulation Proofs_Kalman.
Import ListNotations.
Local Open Scope R_scope.

(** ** C67: independent measurements *)

(** every run succeeds, records one estimate for each measurement after the initial one, and every step is the weighted mean *)
Theorem C67_run x0 u s1 s2 dt0 l : exists k, run l (new_filter x0 u s1 s2 dt0 true) = Some k /\
  length (k_updated_x k) = S (length l) /\ length (k_updated_P k) = S (length l) /\
  nth 0 (k_updated_x k) (k_x k) = x0 /\ nth 0 (k_updated_P k) (k_P k) = covariance_of true s1 s2 /\
  nth (length l) (k_updated_x k) x0 = k_x k /\ nth (length l) (k_updated_P k) (covariance_of true s1 s2) = k_P k /\
  forall j d, (j < length l)%nat -> let '(dt, r1, r2, y) := nth j l d in
    independent_step u dt r1 r2 y (nth j (k_updated_x k) x0) (nth j (k_updated_P k) (k_P k)) (nth (S j) (k_updated_x k) x0) (nth (S j) (k_updated_P k) (k_P k)).
Proof.
  destruct (run_spec l _ (new_valid x0 u s1 s2 dt0)) as [k [lx [lp [h1 [h2 [[q1 [q2 [q3 [q4 [q5 q6]]]]] [h4 h5]]]]]]]. exists k. split; [exact h1|].
  cbn [new_filter k_updated_x k_updated_P k_x k_P k_u app covariance] in q1, q2, h2, q5, q6. change (M22 (s1 * s1)%num (lit 0) (lit 0) (s2 * s2)%num) with (covariance_of true s1 s2) in *. rewrite q1, q2. cbn [length]. rewrite q3, q4.
  assert (hl : forall A (a d : A) m n, length m = n -> nth n (a :: m) d = last (a :: m) a).
  { clear. intros A a d m n h. subst n. revert a. induction m as [|b m IH]; intros a; [reflexivity|]. change (nth (length m) (b :: m) d = last (b :: m) a). rewrite IH. destruct m; [reflexivity|]. rewrite !last_cons2. reflexivity. }
  repeat split; [rewrite (hl _ _ _ _ _ q3); exact q5|rewrite (hl _ _ _ _ _ q4); exact q6|].
  intros j d hj. exact (chain_nth u l x0 _ lx lp h2 j d x0 (k_P k) hj).
Qed.
Print Assumptions C67_run.

(** the gain of the last step of any run *)
Theorem C67_gain x0 u s1 s2 dt0 l dt r1 r2 y k : run (l ++ [(dt, r1, r2, y)]) (new_filter x0 u s1 s2 dt0 true) = Some k ->
  independent_gain dt r1 r2 (nth (length l) (k_updated_P k) (k_P k)) (k_K k).
Proof.
  rewrite run_app. destruct (C67_run x0 u s1 s2 dt0 l) as [k0 [h1 [_ [h2 [_ [_ [_ [h3 _]]]]]]]]. rewrite h1. cbn [run].
  destruct (run_spec l _ (new_valid x0 u s1 s2 dt0)) as [k0' [lx [lp [h1' [_ [_ [_ hv]]]]]]]. rewrite h1 in h1'. injection h1' as <-.
  destruct (step_spec dt r1 r2 y k0 hv) as [k' [e [_ [hg [_ [hP _]]]]]]. rewrite e. intros E. injection E as <-. rewrite hP, app_nth1 by lia.
  rewrite (nth_indep _ _ (covariance_of true s1 s2)) by lia. rewrite h3. exact hg.
Qed.
Print Assumptions C67_gain.

(** with a constant time step, and with given time steps *)
Theorem C67_constant_time_step x0 u s1 s2 dt independent l :
  run_fixed l (new_filter x0 u s1 s2 dt independent) = run (map (fun '(r1, r2, y) => (dt, r1, r2, y)) l) (new_filter x0 u s1 s2 dt independent).
Proof. apply run_fixed_run, new_mats. Qed.
Print Assumptions C67_constant_time_step.
Theorem C67_given_time_steps x0 u s1 s2 dt times l :
  let k0 := initialise_control_matrices times (new_filter x0 u s1 s2 dt true) in
  ((length l <= length times)%nat -> run_by_index 0 l k0 =
     Ok (option_map (initialise_control_matrices times) (run (map (fun '(dt, (r1, r2, y)) => (dt, r1, r2, y)) (combine times l)) (new_filter x0 u s1 s2 dt true)))) /\
  ((length times < length l)%nat -> run_by_index 0 l k0 = Err ErrIndex) /\
  (l <> [] -> run_by_index 0 l (new_filter x0 u s1 s2 dt true) = Err ErrIndex).
Proof.
  cbv zeta. split; [|split].
  - intros h. rewrite (run_by_index_run times) by (try reflexivity; lia). cbn [skipn]. rewrite initialise_run. reflexivity.
  - intros h. apply (run_by_index_short times); [|reflexivity|lia|destruct l; [cbn in h; lia|discriminate]]. destruct (new_valid x0 u s1 s2 dt) as [? [? [? [? ?]]]]. repeat split; assumption.
  - intros h. destruct l as [|[[r1 r2] y] r]; [contradiction|]. reflexivity.
Qed.
Print Assumptions C67_given_time_steps.

(** example: a position known to 2 and measured with error 1, at rest: 4/5 of the measurement, variance 4/5 *)
Example C67_example : exists k, run [(1, 1, 1, V2 5 0)] (new_filter (V2 0 0) 0 2 0 1 true) = Some k /\ v_1 (k_x k) = 4 /\ v_2 (k_x k) = 0 /\ m_11 (k_P k) = 4 / 5.
Proof.
  destruct (C67_run (V2 0 0) 0 2 0 1 [(1, 1, 1, V2 5 0)]) as [k [h1 [_ [_ [h3 [h4 [h5 [h6 h]]]]]]]]. exists k. split; [exact h1|]. specialize (h 0%nat (1, 1, 1, V2 5 0) (le_n _)). cbn [nth length] in *.
  destruct h as [ha [hb _]]. cbn [length] in h5, h6.
  assert (e1 : nth 0 (k_updated_x k) (V2 0 0) = V2 0 0). { rewrite <- h3. destruct (k_updated_x k); reflexivity. }
  rewrite e1, h4 in *. destruct ha as [a1 a2 _ _ _ _], hb as [b1 _ _ _ _ _]. rewrite h5 in *.
  assert (e2 : nth 1 (k_updated_P k) (k_P k) = k_P k). { destruct (k_updated_P k) as [|? [|? ?]]; try reflexivity. exact h6. }
  rewrite e2 in *. unfold moved, sped, moved_var, covariance_of in *. cbn in *. repeat split; lra.
Qed.

(** ** C68: dependent measurements *)

(** for independent quantities the gain is optimal *)
Theorem C68_independent_partial x0 u s1 s2 dt0 l dt r1 r2 y k : run (l ++ [(dt, r1, r2, y)]) (new_filter x0 u s1 s2 dt0 true) = Some k ->
  let P := nth (length l) (k_updated_P k) (k_P k) in
  optimal_gain (M22 (moved_var dt (m_11 P) (m_22 P)) 0 0 (m_22 P)) (covariance_of true r1 r2) (k_K k) /\ symmetric22 (k_P k).
Proof.
  intros h P. pose proof (C67_gain _ _ _ _ _ _ _ _ _ _ _ h) as [[h1 _] [[h2 _] [h3 h4]]]. fold P in h1, h2. split.
  - unfold optimal_gain, covariance_of. cbn. rewrite h3, h4. repeat split; lra.
  - destruct (run_spec (l ++ [(dt, r1, r2, y)]) _ (new_valid x0 u s1 s2 dt0)) as [k' [_ [_ [e [_ [_ [_ [_ [v1 [v2 _]]]]]]]]]]. rewrite h in e. injection e as <-. unfold symmetric22. congruence.
Qed.
Print Assumptions C68_independent_partial.

(** for dependent quantities every step divides entry by entry *)
Theorem C68_elementwise dt s1 s2 y k k' : k_independent k = false -> step dt s1 s2 y k = Some k' ->
  elementwise_gain (moved_cov dt (k_P k)) (covariance_of false s1 s2) (k_K k') /\
  (let xp := moved dt (k_u k) (v_1 (k_x k)) (v_2 (k_x k)) in let vp := sped dt (k_u k) (v_2 (k_x k)) in let K := k_K k' in
   v_1 (k_x k') = xp + (m_11 K * (v_1 y - xp) + m_12 K * (v_2 y - vp)) /\ v_2 (k_x k') = vp + (m_21 K * (v_1 y - xp) + m_22 K * (v_2 y - vp)) /\
   corrected (moved_cov dt (k_P k)) K (k_P k')) /\
  k_updated_x k' = k_updated_x k ++ [k_x k'] /\ k_updated_P k' = k_updated_P k ++ [k_P k'] /\ k_independent k' = false /\ k_u k' = k_u k.
Proof. apply dependent_step_ok. Qed.
Print Assumptions C68_elementwise.

(** so the gain of the first step is never optimal *)
Theorem C68_gain_refuted x0 u p1 p2 dt0 dt s1 s2 y : 0 < p1 -> 0 < p2 -> 0 < s1 -> 0 < s2 -> 0 <= dt ->
  exists k, step dt s1 s2 y (new_filter x0 u p1 p2 dt0 false) = Some k /\
    ~ optimal_gain (moved_cov dt (covariance_of false p1 p2)) (covariance_of false s1 s2) (k_K k).
Proof.
  intros h1 h2 h3 h4 h5. destruct (dependent_first dt s1 s2 y x0 u p1 p2 dt0 h1 h2 h3 h4 h5) as [k h]. exists k. split; [exact h|].
  destruct (C68_elementwise _ _ _ _ (new_filter x0 u p1 p2 dt0 false) _ eq_refl h) as [he _]. change (k_P (new_filter x0 u p1 p2 dt0 false)) with (covariance_of false p1 p2) in he. intros [o1 _].
  destruct (he m_11) as [e1 _]; [cbn; auto|]. destruct (he m_12) as [e2 _]; [cbn; auto|]. unfold moved_cov, covariance_of in *. cbn in e1, e2, o1. nra.
Qed.
Print Assumptions C68_gain_refuted.

(** and the corrected covariance need not be symmetric, and has a negative variance *)
Theorem C68_symmetric_refuted : exists k, run [(0, 1, 1, V2 0 0)] (new_filter (V2 0 0) 0 2 1 0 false) = Some k /\ ~ symmetric22 (k_P k) /\ m_11 (k_P k) < 0 /\ m_22 (k_P k) < 0.
Proof.
  destruct (dependent_first 0 1 1 (V2 0 0) (V2 0 0) 0 2 1 0) as [k h]; try lra. exists k. split; [cbn [run]; rewrite h; reflexivity|].
  destruct (C68_elementwise _ _ _ _ (new_filter (V2 0 0) 0 2 1 0 false) _ eq_refl h) as [he [[_ [_ [c1 [c2 [c3 c4]]]]] _]]. change (k_P (new_filter (V2 0 0) 0 2 1 0 false)) with (covariance_of false 2 1) in he, c1, c2, c3, c4.
  destruct (he m_11) as [e1 _]; [cbn; auto|]. destruct (he m_12) as [e2 _]; [cbn; auto|]. destruct (he m_21) as [e3 _]; [cbn; auto|]. destruct (he m_22) as [e4 _]; [cbn; auto|].
  unfold symmetric22. unfold moved_cov, covariance_of in *. cbn in e1, e2, e3, e4, c1, c2, c3, c4. rewrite c1, c2, c3, c4. repeat split; lra.
Qed.
Print Assumptions C68_symmetric_refuted.
