(** * Proofs about the Kalman filter *)

From Coq Require Import Reals List Bool ZArith Arith Lia Lra Psatz.
From Verif Require Import Num PyBase Model_Accumulation Model_Kalman Spec_Kalman Proofs_System Proofs_Accumulation.
Import ListNotations.
Local Open Scope R_scope.

Definition valid (k : filter R) : Prop := k_independent k = true /\ m_12 (k_P k) = 0 /\ m_21 (k_P k) = 0 /\ 0 <= m_11 (k_P k) /\ 0 <= m_22 (k_P k).

Lemma gain_entry_some num den : (den = 0 -> num = 0) -> exists g, gain_entry num den = Some g /\ den * g = num /\ (den = 0 -> g = 0).
Proof.
  intros h. unfold gain_entry. destruct (neqbP den (lit 0)) as [c|c].
  - destruct (neqbP num (lit 0)) as [d|d]; [|exfalso; apply d, h, c]. exists 0. rnum. split; [reflexivity|]. split; [rewrite d; ring|reflexivity].
  - exists (num / den). rnum. split; [reflexivity|]. split; [field; exact c|intros e; contradiction].
Qed.
Lemma is_gain_ok pp r k : 0 <= pp -> 0 <= r -> (pp + r) * k = pp -> (pp + r = 0 -> k = 0) -> is_gain pp r k.
Proof.
  intros hp hr h h0. split; [exact h|]. split; [exact h0|]. destruct (Req_dec (pp + r) 0) as [c|c]; [rewrite (h0 c); lra|].
  assert (hs : 0 < pp + r) by lra. split; nra.
Qed.
Lemma fused_ok xp pp y r k : 0 <= pp -> 0 <= r -> is_gain pp r k -> fused xp pp y r (xp + k * (y - xp)) ((1 - k) * pp).
Proof.
  intros hp hr [h [h0 hk]]. assert (e : pp * (1 - k) = r * k) by lra. constructor.
  - replace ((pp + r) * (xp + k * (y - xp))) with ((pp + r) * xp + (pp + r) * k * (y - xp)) by ring. rewrite h. ring.
  - replace ((pp + r) * ((1 - k) * pp)) with ((pp + r - (pp + r) * k) * pp) by ring. rewrite h. ring.
  - intros c. rewrite (h0 c). split; [ring|]. assert (pp = 0) by lra. subst pp. ring.
  - unfold between, Rmin, Rmax. destruct (Rle_dec xp y); [assert (0 <= k * (y - xp)) by (apply Rmult_le_pos; lra); assert (0 <= (1 - k) * (y - xp)) by (apply Rmult_le_pos; lra)|
    assert (0 <= k * (xp - y)) by (apply Rmult_le_pos; lra); assert (0 <= (1 - k) * (xp - y)) by (apply Rmult_le_pos; lra)]; lra.
  - apply Rmult_le_pos; lra.
  - assert (0 <= k * pp) by (apply Rmult_le_pos; lra). assert (0 <= (1 - k) * r) by (apply Rmult_le_pos; lra). apply Rmin_glb; lra.
Qed.

(** the matrices for the time step [dt] *)
Definition mats (dt : R) (k : filter R) : Prop := k_A k = predict_A dt /\ k_B k = predict_B dt /\ k_H k = ident /\ k_C k = ident.
Lemma fused_eq xp pp y r x p xp' pp' x' p' : fused xp pp y r x p -> xp = xp' -> pp = pp' -> x = x' -> p = p' -> fused xp' pp' y r x' p'.
Proof. intros; subst; assumption. Qed.

Definition step_rel (dt s1 s2 : R) (y : v2 R) (k k' : filter R) : Prop :=
  independent_step (k_u k) dt s1 s2 y (k_x k) (k_P k) (k_x k') (k_P k') /\ independent_gain dt s1 s2 (k_P k) (k_K k') /\
  k_updated_x k' = k_updated_x k ++ [k_x k'] /\ k_updated_P k' = k_updated_P k ++ [k_P k'] /\
  k_u k' = k_u k /\ k_times k' = k_times k /\ mats dt k' /\ valid k'.
Lemma finish_spec dt s1 s2 y k : valid k -> mats dt k -> exists k', finish_step s1 s2 y k = Some k' /\ step_rel dt s1 s2 y k k'.
Proof.
  intros [hi [h12 [h21 [h11 h22]]]] [mA [mB [mH mC]]]. destruct k as [x P u ind times A B H C Q K Y lx lp]. cbn in hi, h12, h21, h11, h22, mA, mB, mH, mC |- *. subst ind A B H C. destruct P as [p11 p12 p21 p22]. cbn in h12, h21, h11, h22. subst p12 p21.
  unfold finish_step, kalman_gain. cbn.
  set (pp := moved_var dt p11 p22). assert (hpp : 0 <= pp) by (unfold pp, moved_var; nra). assert (hs1 : 0 <= s1 * s1) by nra. assert (hs2 : 0 <= s2 * s2) by nra.
  repeat match goal with |- context [gain_entry ?a ?b] => let n := fresh "n" in let d := fresh "d" in set (n := a); set (d := b); let g := fresh "g" in let e := fresh "e" in let h := fresh "h" in let z := fresh "z" in
     destruct (gain_entry_some n d) as [g [e [h z]]]; [subst n d; rnum; unfold moved_var in *; nra|rewrite e; clear e; subst n d] end.
  eexists. split; [reflexivity|]. unfold step_rel. cbn [k_u k_x k_P k_K k_updated_x k_updated_P k_times predicted_state new_observation update_process_covariance_matrix k_Y k_C k_H].
  assert (ga : is_gain pp (s1 * s1) g). { apply is_gain_ok; try assumption; unfold pp, moved_var; [|intros c; apply z]; rnum; lra. }
  assert (gd : is_gain p22 (s2 * s2) g2). { apply is_gain_ok; try assumption; [|intros c; apply z2]; rnum; lra. }
  assert (zb : g0 = 0) by (apply z0; rnum; ring). assert (zc : g1 = 0) by (apply z1; rnum; ring). clear h h0 h1 h2 z z0 z1 z2. subst g0 g1.
  assert (fx : fused (moved dt u (v_1 x) (v_2 x)) pp (v_1 y) (s1 * s1) (moved dt u (v_1 x) (v_2 x) + g * (v_1 y - moved dt u (v_1 x) (v_2 x))) ((1 - g) * pp)) by (apply fused_ok; assumption).
  assert (fv : fused (sped dt u (v_2 x)) p22 (v_2 y) (s2 * s2) (sped dt u (v_2 x) + g2 * (v_2 y - sped dt u (v_2 x))) ((1 - g2) * p22)) by (apply fused_ok; assumption).
  split.
  { unfold independent_step. cbn. split; [|split; [|split]]; [apply (fused_eq _ _ _ _ _ _ _ _ _ _ fx)|apply (fused_eq _ _ _ _ _ _ _ _ _ _ fv)| |]; unfold moved, sped, pp, moved_var; rnum; try reflexivity; try field. }
  split. { unfold independent_gain. cbn. auto. }
  repeat split; try reflexivity.
  - cbn. rnum. field.
  - cbn. rnum. field.
  - pose proof (fu_nonneg _ _ _ _ _ _ fx) as hh. cbn. unfold pp, moved_var in hh. rnum. lra.
  - pose proof (fu_nonneg _ _ _ _ _ _ fv) as hh. cbn. rnum. lra.
Qed.
Lemma set_mats dt k : mats dt (set_matrices dt k). Proof. repeat split; reflexivity. Qed.
Lemma step_spec dt s1 s2 y k : valid k -> exists k', step dt s1 s2 y k = Some k' /\ step_rel dt s1 s2 y k k'.
Proof. intros hv. destruct (finish_spec dt s1 s2 y (set_matrices dt k)) as [k' [h1 h2]]; [destruct hv as [? [? [? [? ?]]]]; repeat split; assumption|apply set_mats|]. exists k'. split; [exact h1|exact h2]. Qed.
Lemma new_valid x0 u s1 s2 dt : valid (new_filter x0 u s1 s2 dt true).
Proof. unfold valid, new_filter, covariance. cbn. rnum. repeat split; nra. Qed.
Lemma new_mats x0 u s1 s2 dt b : mats dt (new_filter x0 u s1 s2 dt b).
Proof. unfold mats, new_filter, mtimes, predict_A, ident. cbn. rnum. repeat split; f_equal; ring. Qed.

(** the history of a filter *)
Definition hist_ok (k : filter R) (lx : list (v2 R)) (lp : list (m22 R)) (k' : filter R) (n : nat) : Prop :=
  k_updated_x k' = k_updated_x k ++ lx /\ k_updated_P k' = k_updated_P k ++ lp /\ length lx = n /\ length lp = n /\ last (k_x k :: lx) (k_x k) = k_x k' /\ last (k_P k :: lp) (k_P k) = k_P k'.
Fixpoint chain (u : R) (l : list (R * R * R * v2 R)) (x : v2 R) (P : m22 R) (lx : list (v2 R)) (lp : list (m22 R)) : Prop :=
  match l, lx, lp with
  | [], [], [] => True
  | (dt, s1, s2, y) :: r, x' :: rx, P' :: rp => independent_step u dt s1 s2 y x P x' P' /\ chain u r x' P' rx rp
  | _, _, _ => False
  end.
Lemma last_cons2 {A} (a b d : A) l : last (a :: b :: l) d = last (b :: l) a.
Proof. change (last (b :: l) d = last (b :: l) a). revert b. induction l as [|c l IH]; intros b; [reflexivity|]. exact (IH c). Qed.
Lemma run_spec l : forall k, valid k -> exists k' lx lp, run l k = Some k' /\ chain (k_u k) l (k_x k) (k_P k) lx lp /\ hist_ok k lx lp k' (length l) /\ k_u k' = k_u k /\ valid k'.
Proof.
  induction l as [|[[[dt s1] s2] y] r IH]; intros k hv.
  - exists k, [], []. cbn. unfold hist_ok. rewrite !app_nil_r. auto 10.
  - destruct (step_spec dt s1 s2 y k hv) as [k1 [h1 [i1 [_ [i3 [i4 [i5 [_ [_ hv1]]]]]]]]]. destruct (IH k1 hv1) as [k' [lx [lp [j1 [j2 [[q1 [q2 [q3 [q4 [q5 q6]]]]] [j4 j5]]]]]]].
    exists k', (k_x k1 :: lx), (k_P k1 :: lp). cbn [run]. rewrite h1. split; [exact j1|]. split; [cbn; rewrite <- i5; split; [rewrite i5; exact i1|exact j2]|].
    split; [|split; [congruence|exact j5]]. unfold hist_ok. rewrite q1, q2, i3, i4, <- !app_assoc. cbn [length]. rewrite q3, q4, !last_cons2. 
    repeat split; try reflexivity; [rewrite <- q5|rewrite <- q6]; [destruct lx|destruct lp]; try reflexivity; rewrite !last_cons2; reflexivity.
Qed.
Lemma chain_nth u l : forall x P lx lp, chain u l x P lx lp -> forall j d dx dP, (j < length l)%nat ->
  let '(dt, s1, s2, y) := nth j l d in independent_step u dt s1 s2 y (nth j (x :: lx) dx) (nth j (P :: lp) dP) (nth (S j) (x :: lx) dx) (nth (S j) (P :: lp) dP).
Proof.
  induction l as [|[[[dt s1] s2] y] r IH]; intros x P [|x' lx] [|P' lp] h j d dx dP hj; try (cbn in hj; lia); try contradiction.
  destruct h as [h1 h2]. destruct j as [|j]; [exact h1|]. exact (IH x' P' lx lp h2 j d dx dP (proj2 (Nat.succ_lt_mono _ _) hj)).
Qed.
Lemma run_app a b k : run (a ++ b) k = match run a k with Some k => run b k | None => None end.
Proof. revert k. induction a as [|[[[dt s1] s2] y] r IH]; intros k; [reflexivity|]. cbn. destruct (step dt s1 s2 y k); [apply IH|reflexivity]. Qed.

(** the other ways of choosing the time step *)
Lemma mats_set dt k : mats dt k -> set_matrices dt k = k.
Proof. intros [h1 [h2 [h3 h4]]]. destruct k. cbn in *. subst. reflexivity. Qed.
Lemma finish_mats dt s1 s2 y k k' : mats dt k -> finish_step s1 s2 y k = Some k' -> mats dt k' /\ k_times k' = k_times k.
Proof.
  unfold finish_step, kalman_gain. intros h. destruct (gain_entry _ _); [|discriminate]. destruct (gain_entry _ _); [|discriminate]. destruct (gain_entry _ _); [|discriminate]. destruct (gain_entry _ _); [|discriminate].
  intros e. injection e as <-. destruct k. exact (conj h eq_refl).
Qed.
Lemma run_fixed_run dt l : forall k, mats dt k -> run_fixed l k = run (map (fun '(s1, s2, y) => (dt, s1, s2, y)) l) k.
Proof.
  induction l as [|[[s1 s2] y] r IH]; intros k h; [reflexivity|]. cbn [run_fixed map run]. unfold step, update_control_matrices. rewrite (mats_set dt k h).
  destruct (finish_step s1 s2 y k) as [k'|] eqn:e; [|reflexivity]. apply IH, (finish_mats _ _ _ _ _ _ h e).
Qed.
Lemma run_by_index_run times l : forall k i, k_times k = Some times -> (i + length l <= length times)%nat ->
  run_by_index i l k = Ok (run (map (fun '(dt, (s1, s2, y)) => (dt, s1, s2, y)) (combine (skipn i times) l)) k).
Proof.
  induction l as [|[[s1 s2] y] r IH]; intros k i h hl. { cbn. destruct (skipn i times); reflexivity. }
  cbn [length] in hl. destruct (skipn i times) as [|dt ts] eqn:e. { apply (f_equal (@length R)) in e. rewrite skipn_length in e. cbn in e. lia. }
  assert (e1 : nth_error times i = Some dt). { rewrite <- (firstn_skipn i times), e. rewrite nth_error_app2 by (rewrite firstn_length; lia). rewrite firstn_length, Nat.min_l by lia. rewrite Nat.sub_diag. reflexivity. }
  assert (e2 : skipn (S i) times = ts). { replace (S i) with (1 + i)%nat by lia. clear - e. revert times e. induction i as [|i IH]; intros [|t times] e; try discriminate; [cbn in e; injection e as _ <-; reflexivity|]. cbn in e. apply (IH times e). }
  cbn [run_by_index combine map run]. unfold step_by_index, update_control_matrices_by_index. rewrite h. unfold at_idx. rewrite e1. cbn [rbind]. unfold step, update_control_matrices.
  destruct (finish_step s1 s2 y (set_matrices dt k)) as [k'|] eqn:e3; [|reflexivity]. rewrite <- e2. apply IH; [|lia]. rewrite (proj2 (finish_mats _ _ _ _ _ _ (set_mats dt k) e3)). exact h.
Qed.
Lemma run_by_index_short times l : forall k i, valid k -> k_times k = Some times -> (length times < i + length l)%nat -> l <> [] -> run_by_index i l k = Err ErrIndex.
Proof.
  induction l as [|[[s1 s2] y] r IH]; intros k i hv h hl hne; [contradiction|]. cbn [length] in hl. cbn [run_by_index]. unfold step_by_index, update_control_matrices_by_index. rewrite h. unfold at_idx.
  destruct (nth_error times i) as [dt|] eqn:e; [|reflexivity]. cbn [rbind]. assert (hi : (i < length times)%nat) by (apply nth_error_Some; congruence).
  destruct (step_spec dt s1 s2 y k hv) as [k' [h1 [_ [_ [_ [_ [_ [h2 [_ hv']]]]]]]]]. unfold step, update_control_matrices in h1. rewrite h1. apply IH; [exact hv'|congruence|lia|]. destruct r; [cbn in hl; lia|discriminate].
Qed.

Lemma initialise_run times l : forall k, run l (initialise_control_matrices times k) = option_map (initialise_control_matrices times) (run l k).
Proof.
  induction l as [|[[[dt s1] s2] y] r IH]; intros k; [reflexivity|]. cbn [run].
  assert (e : step dt s1 s2 y (initialise_control_matrices times k) = option_map (initialise_control_matrices times) (step dt s1 s2 y k)).
  { unfold step, finish_step. destruct k as [x P u ind ts A B H C Q K Y lx lp]. unfold kalman_gain. destruct ind; cbn -[gain_entry]; (destruct (gain_entry _ _); [|reflexivity]; destruct (gain_entry _ _); [|reflexivity]; destruct (gain_entry _ _); [|reflexivity]; destruct (gain_entry _ _); reflexivity). }
  rewrite e. destruct (step dt s1 s2 y k); [apply IH|reflexivity].
Qed.

(** dependent quantities *)
Lemma gain_entry_inv num den g : gain_entry num den = Some g -> den * g = num /\ (den = 0 -> g = 0).
Proof.
  unfold gain_entry. destruct (neqbP den (lit 0)) as [c|c].
  - destruct (neqbP num (lit 0)) as [d|d]; [|discriminate]. intros e. injection e as <-. rnum. split; [rewrite d; ring|reflexivity].
  - intros e. injection e as <-. rnum. split; [field; exact c|intros e; contradiction].
Qed.
Lemma gain_entry_pos num den : 0 < den -> gain_entry num den = Some (num / den).
Proof. intros h. unfold gain_entry. destruct (neqbP den (lit 0)) as [c|c]; [exfalso; rnum; lra|reflexivity]. Qed.
Lemma dependent_step_ok dt s1 s2 y k k' : k_independent k = false -> step dt s1 s2 y k = Some k' ->
  elementwise_gain (moved_cov dt (k_P k)) (covariance_of false s1 s2) (k_K k') /\
  (let xp := moved dt (k_u k) (v_1 (k_x k)) (v_2 (k_x k)) in let vp := sped dt (k_u k) (v_2 (k_x k)) in let K := k_K k' in
   v_1 (k_x k') = xp + (m_11 K * (v_1 y - xp) + m_12 K * (v_2 y - vp)) /\ v_2 (k_x k') = vp + (m_21 K * (v_1 y - xp) + m_22 K * (v_2 y - vp)) /\
   corrected (moved_cov dt (k_P k)) K (k_P k')) /\
  k_updated_x k' = k_updated_x k ++ [k_x k'] /\ k_updated_P k' = k_updated_P k ++ [k_P k'] /\ k_independent k' = false /\ k_u k' = k_u k.
Proof.
  intros hi. destruct k as [x P u ind times A B H C Q K Y lx lp]. cbn in hi. subst ind. destruct P as [a b c d].
  unfold step, finish_step, kalman_gain. cbn -[gain_entry].
  repeat match goal with |- context [gain_entry ?n ?d] => let e := fresh "e" in destruct (gain_entry n d) eqn:e; [apply gain_entry_inv in e; destruct e|intros hh; discriminate hh] end.
  intros E. injection E as <-. split; [|unfold corrected, moved_cov, moved, sped; cbn; rnum; repeat split; field].
  intros f hf. unfold covariance_of, moved_cov. cbn in hf. destruct hf as [<-|[<-|[<-|[<-|[]]]]]; cbn; rnum; (split; [lra|]);
  intros hh; match goal with hz : _ |- _ => apply hz; lra end.
Qed.
Lemma dependent_first dt s1 s2 y x0 u p1 p2 dt0 : 0 < p1 -> 0 < p2 -> 0 < s1 -> 0 < s2 -> 0 <= dt -> exists k', step dt s1 s2 y (new_filter x0 u p1 p2 dt0 false) = Some k'.
Proof.
  intros h1 h2 h3 h4 h5. unfold step, finish_step, kalman_gain. cbn -[gain_entry]. assert (0 < p1 * p1) by nra. assert (0 < p2 * p2) by nra. assert (0 < s1 * s1) by nra. assert (0 < s2 * s2) by nra. assert (0 < p1 * p2) by nra. assert (0 < s1 * s2) by nra.
  assert (0 <= dt * (p1 * p2)) by nra. assert (0 <= dt * (p2 * p2)) by nra. assert (0 <= dt * dt * (p2 * p2)) by nra.
  rewrite !gain_entry_pos by (rnum; nra). eexists. reflexivity.
Qed.
