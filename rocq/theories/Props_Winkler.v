(** * Properties of the analytical solution for a force that moves onto another foundation *)

From Coq Require Import Reals List Bool ZArith Arith Lia Lra Psatz Sorted.
From Coquelicot Require Import Complex.
From Verif Require Import Num PyBase Model_Element Model_Analytic Spec_Analytic Model_Winkler Spec_Winkler Proofs_Winkler Proofs_Approach Proofs_Bar.
Import ListNotations.
Local Open Scope R_scope.

Lemma slow_critical E I rho k1 k2 v : slow_enough E I rho k1 k2 v -> 0 < E * I /\ v < critical_speed (E * I) rho k1 k2.
Proof.
  intros [hE [hI [hr [h1 [h2 [hv hs]]]]]]. assert (hEI : 0 < E * I) by (apply Rmult_lt_0_compat; assumption).
  split; [exact hEI|]. apply critical_iff; try assumption; lra.
Qed.
Lemma nth_error_map1 {A B} (f : A -> B) l i : nth_error (map f l) i = match nth_error l i with Some a => Some (f a) | None => None end.
Proof. revert i. induction l as [|a l ih]; intros [|i]; cbn; auto. Qed.
Lemma nth_error_seq0 n j : (j < n)%nat -> nth_error (seq 0 n) j = Some j.
Proof. intros h. rewrite (nth_error_nth' (seq 0 n) 0%nat) by (rewrite seq_length; exact h). rewrite seq_nth by exact h. reflexivity. Qed.
Lemma solution_entry nb a w i j q : nth_error (w_qsi w) i = Some q -> (j < length (w_tau w))%nat ->
  row_column (map (fun q => map (displacement_at nb a w q) (seq 0 (length (w_tau w)))) (w_qsi w)) i j = Some (displacement_at nb a w q j).
Proof. intros hi hj. unfold row_column. rewrite nth_error_map1, hi, nth_error_map1, nth_error_seq0 by exact hj. reflexivity. Qed.

(** C105.  Before the force has reached the change of stiffness, the displacements are those of an endless beam on the two foundations under
    a force that comes with constant speed *)
Theorem C105_before nb a x v E I rho k1 k2 P :
  slow_enough E I rho k1 k2 v -> x <> [] -> StronglySorted Rle x ->
  exists rows, winkler_solution nb a x v E I rho [k1; k2] P = Ok (Some (map (fun p => p / v) x, x, rows)) /\
  exists u, approaching (E * I) rho k1 k2 P v u /\
    forall i j xi xj, nth_error x i = Some xi -> nth_error x j = Some xj -> xj < 0 -> row_column rows i j = Some (u xi (xj / v)).
Proof.
  intros hs hx hsort. destruct (slow_critical _ _ _ _ _ _ hs) as [hEI hcr]. destruct hs as [hE [hI [hr [h1 [h2 [hv _]]]]]].
  unfold winkler_solution. rewrite (parameters_ok x v E I rho k1 k2 P hEI hr h1 h2 hv hcr hx). cbn [rbind].
  set (w := the_w (E * I) rho k1 k2 v P x (p_h rho k1 * (last x 0 / v))).
  eexists. split; [reflexivity|].
  exists (fun y t => time_low_at w (p_ka (E * I) rho k1 * y) (p_h rho k1 * t)). split; [apply the_w_approaching; assumption|].
  intros i j xi xj hi hj hneg.
  assert (hq : nth_error (w_qsi w) i = Some (p_ka (E * I) rho k1 * xi)) by (unfold w, the_w; cbn [w_qsi]; rewrite nth_error_map1, hi; reflexivity).
  assert (ht : nth_error (w_tau w) j = Some (p_h rho k1 * (xj / v))) by (unfold w, the_w; cbn [w_tau]; rewrite !nth_error_map1, hj; reflexivity).
  rewrite (solution_entry nb a w i j _ hq) by (apply nth_error_Some; rewrite ht; discriminate). f_equal.
  destruct (p_pos (E * I) rho k1 v hEI hr h1 hv) as [_ [hh _]].
  assert (hd : xj / v < 0) by (apply (Rmult_lt_reg_r v); [exact hv|]; replace (xj / v * v) with xj by (field; lra); lra).
  assert (hneg' : p_h rho k1 * (xj / v) < 0) by nra.
  assert (hst : StronglySorted Rle (w_tau w)).
  { unfold w, the_w. cbn [w_tau]. apply map_sorted; [intros; apply Rmult_le_compat_l; lra|]. apply map_sorted; [|exact hsort].
    intros; apply Rmult_le_compat_r; [apply Rlt_le, Rinv_0_lt_compat; exact hv|assumption]. }
  unfold displacement_at. rewrite ht, (sorted_negative _ _ _ hst ht hneg').
  destruct (nlebP (lit 0) (p_h rho k1 * (xj / v))) as [k|k]; rnum; [exfalso; lra|]. cbn [andb]. ring.
Qed.
Print Assumptions C105_before.

Example C105_before_case : slow_enough 2 1 1 1 3 1 /\ [-3; -1; 0; 2] <> [] /\ StronglySorted Rle [-3; -1; 0; 2] /\ (-3 < 0)%R.
Proof.
  split; [unfold slow_enough; repeat split; lra|]. split; [discriminate|]. split; [|lra].
  repeat (constructor; [|repeat (constructor; [lra|]); constructor]). constructor.
Qed.

(** C105.  A force faster than the waves of either foundation and a list of stiffnesses that has not two entries end the program *)
Theorem C105_rejected nb a x v E I rho k P :
  (forall k1 k2, k = [k1; k2] -> 0 < E * I /\ 0 < rho /\ 0 < k1 /\ 0 < k2 /\ 0 < v /\ (4 * k1 * (E * I) < rho ^ 2 * v ^ 4 \/ 4 * k2 * (E * I) < rho ^ 2 * v ^ 4)) ->
  exists e, winkler_solution nb a x v E I rho k P = Err e.
Proof.
  intros h. unfold winkler_solution, winkler_parameters.
  destruct k as [|k1 [|k2 [|k3 k]]]; try (eexists; reflexivity).
  destruct (h k1 k2 eq_refl) as [hEI [hr [h1 [h2 [hv hc]]]]]. rnum.
  destruct (nltbP (critical_speed (E * I) rho k1 k2) v) as [g|g]; [eexists; reflexivity|]. exfalso.
  assert (critical_speed (E * I) rho k1 k2 < v) by (apply critical_iff; try assumption; lra). lra.
Qed.
Print Assumptions C105_rejected.
Example C105_rejected_case : 0 < 1 * 1 /\ 0 < 1 /\ 0 < 1 /\ 0 < 2 /\ 0 < 3 /\ (4 * 1 * (1 * 1) < 1 ^ 2 * 3 ^ 4 \/ 4 * 2 * (1 * 1) < 1 ^ 2 * 3 ^ 4).
Proof. repeat split; lra. Qed.

(** C105.  At the critical speed itself of a first foundation that is not the stiffer one, the check lets the force pass, and there is no
    number among the displacements *)
Theorem C105_critical_refuted nb a x E I rho k1 k2 v P :
  0 < E * I -> 0 < rho -> 0 < k1 -> k1 <= k2 -> 0 < v -> rho ^ 2 * v ^ 4 = 4 * k1 * (E * I) -> x <> [] ->
  winkler_solution nb a x v E I rho [k1; k2] P = Ok None.
Proof.
  intros hEI hr h1 h2 hv hc hx. unfold winkler_solution, winkler_parameters. rnum.
  destruct (nltbP (critical_speed (E * I) rho k1 k2) v) as [g|g].
  { exfalso. apply critical_iff in g; try assumption; try lra. assert (4 * k1 * (E * I) <= 4 * k2 * (E * I)) by nra. lra. }
  fold (p_beta (E * I) rho). fold (p_h rho k1). fold (p_alpha (E * I) rho k1 v).
  destruct (rev (map (fun t => p_h rho k1 * t) (map (fun p => p / v) x))) as [|z0 r] eqn:er.
  { exfalso. apply (f_equal (@length R)) in er. rewrite rev_length, !map_length in er. destruct x; [contradiction|discriminate]. }
  destruct (neqbP (4 - pow4 (p_alpha (E * I) rho k1 v)) 0) as [z|z]; [reflexivity|]. exfalso. apply z.
  clear er. set (EI := E * I) in *. clearbody EI. pose proof (p_alpha4 EI rho k1 v hEI hr h1 hv) as e.
  assert (e' : v * v * v * v * rho * rho / EI = 4 * k1) by (replace (v * v * v * v * rho * rho) with (rho ^ 2 * v ^ 4) by ring; rewrite hc; field; lra).
  rewrite e' in e. assert (pow4 (p_alpha EI rho k1 v) = 4) by nra. lra.
Qed.
Print Assumptions C105_critical_refuted.
Example C105_critical_case : 0 < 1 * 1 /\ 0 < 2 /\ 0 < 1 /\ 1 <= 5 /\ 0 < 1 /\ 2 ^ 2 * 1 ^ 4 = 4 * 1 * (1 * 1) /\ [-1; 1] <> ([] : list R).
Proof. repeat split; try lra. discriminate. Qed.

Lemma power_grows (n : nat) a b : 0 < a -> a < b -> a ^ S n < b ^ S n.
Proof.
  intros ha hb. induction n as [|n ih]; [cbn; lra|]. change (a ^ S (S n)) with (a * a ^ S n). change (b ^ S (S n)) with (b * b ^ S n).
  pose proof (pow_lt a (S n) ha). nra.
Qed.
Lemma power_unique (n : nat) a b : (0 < n)%nat -> 0 < a -> 0 < b -> a ^ n = b ^ n -> a = b.
Proof.
  intros hn ha hb e. destruct (Rtotal_order a b) as [l|[l|l]]; [|exact l|]; exfalso.
  - destruct n as [|n]; [lia|]. pose proof (power_grows n a b ha l). lra.
  - destruct n as [|n]; [lia|]. pose proof (power_grows n b a hb ltac:(lra)). lra.
Qed.
(** the entries of the times that are not negative *)
Lemma late_entry nb a x v E I rho k1 k2 P i j xi xj : slow_enough E I rho k1 k2 v -> StronglySorted Rlt x ->
  nth_error x i = Some xi -> nth_error x j = Some xj -> 0 <= xj ->
  let w := the_w (E * I) rho k1 k2 v P x (p_h rho k1 * (last x 0 / v)) in
  row_column (map (fun q => map (displacement_at nb a w q) (seq 0 (length (w_tau w)))) (w_qsi w)) i j =
  Some (inverse_series nb a (2 * p_h rho k1 * (last x 0 / v))
          (fun s => fst (if Rle_dec xi 0 then U1 w s 0 (p_ka (E * I) rho k1 * xi) else U2 w s 0 (p_ka (E * I) rho k1 * xi))) (p_h rho k1 * (xj / v))).
Proof.
  intros hs hsort hi hj hpos w. destruct (slow_critical _ _ _ _ _ _ hs) as [hEI hcr]. destruct hs as [hE [hI [hr [h1 [h2 [hv _]]]]]].
  destruct (p_pos (E * I) rho k1 v hEI hr h1 hv) as [_ [hh [hka _]]].
  assert (hq : nth_error (w_qsi w) i = Some (p_ka (E * I) rho k1 * xi)) by (unfold w, the_w; cbn [w_qsi]; rewrite nth_error_map1, hi; reflexivity).
  assert (ht : nth_error (w_tau w) j = Some (p_h rho k1 * (xj / v))) by (unfold w, the_w; cbn [w_tau]; rewrite !nth_error_map1, hj; reflexivity).
  rewrite (solution_entry nb a w i j _ hq) by (apply nth_error_Some; rewrite ht; discriminate). f_equal.
  assert (hi' : 0 < / v) by (apply Rinv_0_lt_compat; exact hv).
  assert (hd : 0 <= xj / v) by (unfold Rdiv; nra).
  assert (hpos' : 0 <= p_h rho k1 * (xj / v)) by nra.
  assert (hst : StronglySorted Rlt (w_tau w)).
  { unfold w, the_w. cbn [w_tau]. apply map_strict; [intros; apply Rmult_lt_compat_l; lra|]. apply map_strict; [|exact hsort].
    intros b c hbc. unfold Rdiv. apply Rmult_lt_compat_r; assumption. }
  destruct (strict_place _ _ _ hst ht) as [f1 f2].
  unfold displacement_at. rewrite ht, (no_negative_column _ _ _ (strict_weak _ hst) ht hpos'), f1, f2, Nat.eqb_refl.
  destruct (nlebP (lit 0) (p_h rho k1 * (xj / v))) as [k|k]; [|exfalso; rnum; lra]. cbn [andb length]. rewrite nofnat_R, high_value. rnum. cbn [INR].
  rewrite Rplus_0_l, Rmult_1_l. replace (w_period w) with (2 * p_h rho k1 * (last x 0 / v)) by (unfold w, the_w; cbn [w_period]; ring).
  unfold inverse_series. assert (cond : forall s, fst (if Rle_dec (p_ka (E * I) rho k1 * xi) 0 then U1 w s 0 (p_ka (E * I) rho k1 * xi) else U2 w s 0 (p_ka (E * I) rho k1 * xi)) =
    fst (if Rle_dec xi 0 then U1 w s 0 (p_ka (E * I) rho k1 * xi) else U2 w s 0 (p_ka (E * I) rho k1 * xi))).
  { intros s. destruct (Rle_dec (p_ka (E * I) rho k1 * xi) 0), (Rle_dec xi 0); try reflexivity; exfalso; nra. }
  rewrite cond. f_equal. f_equal. apply sumn_ext. intros k0 hk0. rewrite cond. reflexivity.
Qed.

(** C106.  After the force has reached the change of stiffness, the displacements are the partial sums of the inverse of a Laplace transform; the
    transform solves the transformed equation of the beam, which moves on from where it was at time zero; slope, moment and shear force are
    continuous at the change of stiffness; but the deflection is continuous there only if there is no change of stiffness *)
Theorem C106_transform nb a x v E I rho k1 k2 P h ka :
  slow_enough E I rho k1 k2 v -> x <> [] -> StronglySorted Rlt x -> 0 < h -> rho * h ^ 2 = k1 -> 0 < ka -> E * I * ka ^ 4 = k1 ->
  exists rows, winkler_solution nb a x v E I rho [k1; k2] P = Ok (Some (map (fun p => p / v) x, x, rows)) /\
  exists (wl wm wr : nat -> R -> R -> R) (vl vr : R -> R -> R) (U1 U2 : C -> nat -> R -> C),
    approaching_pieces (E * I) rho k1 k2 P v wl wm wr /\
    (forall y, derivative (wl 0%nat y) (vl y)) /\ (forall y, derivative (wr 0%nat y) (vr y)) /\
    (forall s, 0 < fst s -> no_pole (rho ^ 2 * v ^ 4 / (E * I * k1)) (k2 / k1) s ->
       transformed_beam s k1 k2 P v h ka (wl 0%nat) (wr 0%nat) vl vr (U1 s) (U2 s) /\
       (P <> 0 -> (U1 s 0%nat 0 = U2 s 0%nat 0 <-> k1 = k2))) /\
    forall i j xi xj, nth_error x i = Some xi -> nth_error x j = Some xj -> 0 <= xj ->
      row_column rows i j = Some (inverse_series nb a (2 * h * (last x 0 / v))
                                    (fun s => fst (if Rle_dec xi 0 then U1 s 0%nat (ka * xi) else U2 s 0%nat (ka * xi))) (h * (xj / v))).
Proof.
  intros hs hx hsort hh eh hka eka. destruct (slow_critical _ _ _ _ _ _ hs) as [hEI hcr]. pose proof hs as [hE [hI [hr [h1 [h2 [hv _]]]]]].
  destruct (p_pos (E * I) rho k1 v hEI hr h1 hv) as [_ [hh' [hka' _]]].
  assert (e1 : h = p_h rho k1).
  { apply (power_unique 2); [lia|exact hh|exact hh'|]. apply (Rmult_eq_reg_l rho); [|lra]. rewrite eh. symmetry. apply (p_e2 (E * I) rho k1 v); assumption. }
  assert (e2 : ka = p_ka (E * I) rho k1).
  { apply (power_unique 4); [lia|exact hka|exact hka'|]. apply (Rmult_eq_reg_l (E * I)); [|lra]. rewrite eka. symmetry. apply (p_e1 (E * I) rho k1 v); assumption. }
  unfold winkler_solution. rewrite (parameters_ok x v E I rho k1 k2 P hEI hr h1 h2 hv hcr hx). cbn [rbind].
  set (w := the_w (E * I) rho k1 k2 v P x (p_h rho k1 * (last x 0 / v))).
  eexists. split; [reflexivity|].
  pose proof (the_w_set (E * I) rho k1 k2 v P hEI hr h1 h2 hv hcr x (p_h rho k1 * (last x 0 / v))) as hw. fold w in hw.
  exists (fun n => waves n 0 (behind w h ka ++ home w h ka)), (fun n => waves n 0 (ahead w h ka ++ home w h ka)), (fun n => waves n 0 (away w h ka)).
  exists (waves 0 1 (behind w h ka ++ home w h ka)), (waves 0 1 (away w h ka)).
  exists (U1 w), (U2 w).
  assert (ha : w_alpha w * h = ka * v) by (rewrite e1, e2; apply (p_e3 (E * I) rho k1 v); assumption).
  assert (hF : E * I * ka ^ 3 * w_F w = P) by (rewrite e2; apply (p_e4 (E * I) rho k1 v P); assumption).
  assert (hrat : w_ratio w = k2 / k1) by reflexivity.
  split; [|split; [|split; [|split]]].
  - apply low_pieces; try assumption. rewrite hrat. field. lra.
  - intros y. apply waves_t.
  - intros y. apply waves_t.
  - intros s hs0 hp.
    assert (hp' : no_pole (pow4 (w_alpha w)) (w_ratio w) s).
    { replace (pow4 (w_alpha w)) with (rho ^ 2 * v ^ 4 / (E * I * k1)); [exact hp|]. pose proof (p_alpha4 (E * I) rho k1 v hEI hr h1 hv) as e4.
      change (w_alpha w) with (p_alpha (E * I) rho k1 v). apply (Rmult_eq_reg_r k1); [|lra]. rewrite e4. clear - hEI h1. set (EI := E * I) in *. clearbody EI. field. lra. }
    split.
    + destruct hp' as [g1 [g2 g3]]. destruct (pole_a w hw s g1) as [na nb']. pose proof (pole_f w hw s g2) as nf.
      split; [|split; [|split; [|split]]].
      * exact (U1_piece w hw s hs0 na nb' h ka hh hka).
      * pose proof (U2_piece w hw s hs0 na nb' nf h ka hh hka) as u.
        replace (P * ka / k1) with (w_F w); [replace (v * ka / h) with (w_alpha w); [exact u|]|].
        -- apply (Rmult_eq_reg_r h); [|lra]. rewrite ha. field. lra.
        -- rewrite <- hF. rewrite <- eka. clear - hEI hka. set (EI := E * I) in *. clearbody EI. generalize (w_F w). intros F. field. split; lra.
      * intros n hn. exact (joint_smooth w hw s hs0 n hn).
      * exact (U1_left w hw s hs0).
      * exact (U2_right w hw s hs0).
    + intros hP. assert (nF : w_F w <> 0) by (intros z; rewrite z in hF; apply hP; rewrite <- hF; ring).
      pose proof (gap_eq w hw s hs0 hp') as ge. destruct (gap_zero w hw s hs0 hp' nF) as [z1 z2]. split.
      * intros e. assert (gz : gap w s = RtoC 0) by (rewrite <- ge, e; ring). apply z1 in gz. rewrite hrat in gz.
        apply (Rmult_eq_reg_r (/ k1)); [|apply Rinv_neq_0_compat; lra]. fold (k2 / k1). rewrite gz. apply Rinv_r. lra.
      * intros e. assert (gz : gap w s = RtoC 0) by (apply z2; rewrite hrat, e; apply Rinv_r; lra). rewrite gz in ge.
        transitivity (U1 w s 0 0 - U2 w s 0 0 + U2 w s 0 0)%C; [ring|]. rewrite ge. ring.
  - intros i j xi xj hi hj hpos. rewrite e1, e2. exact (late_entry nb a x v E I rho k1 k2 P i j xi xj hs hsort hi hj hpos).
Qed.
Print Assumptions C106_transform.

Example C106_transform_case : slow_enough 1 1 1 1 3 1 /\ [-1; 0; 2] <> [] /\ StronglySorted Rlt [-1; 0; 2] /\ 1 * 1 ^ 2 = 1 /\ 1 * 1 * 1 ^ 4 = 1 /\
  0 < fst (RtoC 2) /\ no_pole (1 ^ 2 * 1 ^ 4 / (1 * 1 * 1)) (3 / 1) (RtoC 2).
Proof.
  split; [unfold slow_enough; repeat split; lra|]. split; [discriminate|]. split; [|split; [ring|split; [ring|split; [cbn; lra|]]]].
  - repeat (constructor; [|repeat (constructor; [lra|]); constructor]). constructor.
  - apply no_pole_real; lra.
Qed.

Lemma cderivative_continuous f g : cderivative f g -> forall eta, 0 < eta -> exists d, 0 < d /\ forall y, 0 < y < d -> Rabs (fst (f y) - fst (f 0)) < eta.
Proof.
  intros [h _] eta he. assert (hc : continuity_pt (fun x => fst (f x)) 0) by (apply derivable_continuous_pt; exists (fst (g 0)); apply h).
  destruct (hc eta he) as [d [hd hy]]. exists d. split; [exact hd|]. intros y hy0. specialize (hy y).
  apply hy. split; [split; [exact Logic.I|lra]|]. cbn. unfold R_dist. rewrite Rabs_pos_eq; lra.
Qed.
(** C106.  The displacements jump at the change of stiffness: between the place zero and places however near on the right of it they differ by more than a
    fixed amount, although the beam is not broken there *)
Theorem C106_jump_refuted E I rho k1 k2 v P L :
  slow_enough E I rho k1 k2 v -> k1 <> k2 -> P <> 0 -> 0 < L ->
  exists a d e0, (a = 1 \/ a = 2 \/ a = 3 \/ a = 4) /\ 0 < d /\ 0 < e0 /\ forall e, 0 < e < e0 ->
    exists rows u0 ue, winkler_solution 1 a [0; e; L] v E I rho [k1; k2] P = Ok (Some ([0 / v; e / v; L / v], [0; e; L], rows)) /\
      row_column rows 0 2 = Some u0 /\ row_column rows 1 2 = Some ue /\ d < Rabs (ue - u0).
Proof.
  intros hs hk hP hL. destruct (slow_critical _ _ _ _ _ _ hs) as [hEI hcr]. pose proof hs as [hE [hI [hr [h1 [h2 [hv _]]]]]].
  destruct (p_pos (E * I) rho k1 v hEI hr h1 hv) as [_ [hh [hka _]]].
  set (w0 := the_w (E * I) rho k1 k2 v P [] (p_h rho k1 * (L / v))).
  pose proof (the_w_set (E * I) rho k1 k2 v P hEI hr h1 h2 hv hcr [] (p_h rho k1 * (L / v))) as hw. fold w0 in hw.
  assert (nF : w_F w0 <> 0).
  { intros z. pose proof (p_e4 (E * I) rho k1 v P hEI hr h1 hv) as e4. change (p_F (E * I) rho k1 P) with (w_F w0) in e4. rewrite z in e4. apply hP. rewrite <- e4. ring. }
  assert (nr : w_ratio w0 <> 1).
  { change (w_ratio w0) with (k2 / k1). intros z. apply hk. apply (Rmult_eq_reg_r (/ k1)); [|apply Rinv_neq_0_compat; lra]. fold (k2 / k1). rewrite z. apply Rinv_r. lra. }
  destruct (seen w0 hw nF nr) as [a [ha hg]].
  assert (pa : 0 < a) by (destruct ha as [->|[->|[->| ->]]]; lra).
  assert (hp : no_pole (pow4 (w_alpha w0)) (w_ratio w0) (RtoC a)).
  { apply no_pole_real; [apply al4; exact hw|change (w_ratio w0) with (k2 / k1); apply Rdiv_lt_0_compat; assumption|exact pa]. }
  assert (hre : 0 < fst (RtoC a)) by (cbn; exact pa).
  rewrite <- (gap_eq w0 hw (RtoC a) hre hp) in hg.
  set (c := exp (a * (p_h rho k1 * (L / v))) / (2 * p_h rho k1 * (L / v))).
  assert (hLv : 0 < L / v) by (apply Rdiv_lt_0_compat; assumption).
  assert (hc : 0 < c) by (apply Rdiv_lt_0_compat; [apply exp_pos|apply Rmult_lt_0_compat; [apply Rmult_lt_0_compat; [lra|exact hh]|exact hLv]]).
  set (g := Rabs (fst (U1 w0 (RtoC a) 0%nat 0) - fst (U2 w0 (RtoC a) 0%nat 0))).
  assert (hgp : 0 < g).
  { apply Rabs_pos_lt. intros z. apply hg. exact z. }
  destruct (cderivative_continuous (U2 w0 (RtoC a) 0%nat) (U2 w0 (RtoC a) 1%nat) (esum_derivative 0 _) (g / 2) ltac:(lra)) as [e1 [he1 hcont]].
  exists a, (c * (g / 2)), (Rmin L (e1 / p_ka (E * I) rho k1)).
  split; [exact ha|]. split; [apply Rmult_lt_0_compat; lra|]. split; [apply Rmin_pos; [exact hL|apply Rdiv_lt_0_compat; assumption]|].
  intros e [he hem]. assert (heL : e < L) by (eapply Rlt_le_trans; [exact hem|apply Rmin_l]).
  assert (hee : p_ka (E * I) rho k1 * e < e1).
  { assert (e < e1 / p_ka (E * I) rho k1) by (eapply Rlt_le_trans; [exact hem|apply Rmin_r]).
    replace e1 with (p_ka (E * I) rho k1 * (e1 / p_ka (E * I) rho k1)) by (field; lra). apply Rmult_lt_compat_l; assumption. }
  assert (hsort : StronglySorted Rlt [0; e; L]) by (repeat (constructor; [|repeat (constructor; [lra|]); constructor]); constructor).
  set (w := the_w (E * I) rho k1 k2 v P [0; e; L] (p_h rho k1 * (L / v))).
  destruct (same_U (E * I) rho k1 k2 v P [0; e; L] [] (p_h rho k1 * (L / v))) as [s1 s2]. fold w in s1, s2. fold w0 in s1, s2.
  unfold winkler_solution. rewrite (parameters_ok [0; e; L] v E I rho k1 k2 P hEI hr h1 h2 hv hcr ltac:(discriminate)). cbn [rbind].
  pose proof (late_entry 1 a [0; e; L] v E I rho k1 k2 P 0 2 0 L hs hsort eq_refl eq_refl (Rlt_le _ _ hL)) as r0.
  pose proof (late_entry 1 a [0; e; L] v E I rho k1 k2 P 1 2 e L hs hsort eq_refl eq_refl (Rlt_le _ _ hL)) as r1.
  cbv zeta in r0, r1. change (last [0; e; L] 0) with L in *. fold w in r0, r1 |- *.
  eexists; eexists; eexists. split; [reflexivity|]. split; [exact r0|]. split; [exact r1|].
  assert (one : forall T U t, inverse_series 1 a T U t = exp (a * t) / T * U (RtoC a)).
  { intros T U t. unfold inverse_series. change (sumn (1 - 1) _) with 0. unfold Rdiv. transitivity (exp (a * t) * / T * U (RtoC a) * (2 * / 2)); [ring|]. rewrite Rinv_r by lra. ring. }
  rewrite !one. fold c. destruct (Rle_dec 0 0) as [z0|z0]; [|exfalso; lra]. destruct (Rle_dec e 0) as [z1|z1]; [exfalso; lra|]. rewrite Rmult_0_r, s1, s2.
  specialize (hcont (p_ka (E * I) rho k1 * e) ltac:(nra)).
  rewrite <- Rmult_minus_distr_l, Rabs_mult, (Rabs_pos_eq c) by lra. apply Rmult_lt_compat_l; [exact hc|].
  set (p := fst (U2 w0 (RtoC a) 0%nat (p_ka (E * I) rho k1 * e))) in *. set (q := fst (U2 w0 (RtoC a) 0%nat 0)) in *. set (r := fst (U1 w0 (RtoC a) 0%nat 0)) in *.
  unfold g in *. clearbody p q r. revert hcont. unfold Rabs. repeat destruct Rcase_abs; lra.
Qed.
Print Assumptions C106_jump_refuted.
Example C106_jump_case : slow_enough 1 1 1 1 3 1 /\ 1 <> 3 /\ 2 <> 0 /\ 0 < 5.
Proof. split; [unfold slow_enough; repeat split; lra|]. lra. Qed.

(** the entries of the negative times *)
Lemma early_entry nb a x v E I rho k1 k2 P i j xi xj : slow_enough E I rho k1 k2 v -> StronglySorted Rle x ->
  nth_error x i = Some xi -> nth_error x j = Some xj -> xj < 0 ->
  let w := the_w (E * I) rho k1 k2 v P x (p_h rho k1 * (last x 0 / v)) in
  row_column (map (fun q => map (displacement_at nb a w q) (seq 0 (length (w_tau w)))) (w_qsi w)) i j =
  Some (time_low_at w (p_ka (E * I) rho k1 * xi) (p_h rho k1 * (xj / v))).
Proof.
  intros hs hsort hi hj hneg w. destruct (slow_critical _ _ _ _ _ _ hs) as [hEI hcr]. destruct hs as [hE [hI [hr [h1 [h2 [hv _]]]]]].
  assert (hq : nth_error (w_qsi w) i = Some (p_ka (E * I) rho k1 * xi)) by (unfold w, the_w; cbn [w_qsi]; rewrite nth_error_map1, hi; reflexivity).
  assert (ht : nth_error (w_tau w) j = Some (p_h rho k1 * (xj / v))) by (unfold w, the_w; cbn [w_tau]; rewrite !nth_error_map1, hj; reflexivity).
  rewrite (solution_entry nb a w i j _ hq) by (apply nth_error_Some; rewrite ht; discriminate). f_equal.
  destruct (p_pos (E * I) rho k1 v hEI hr h1 hv) as [_ [hh _]].
  assert (hd : xj / v < 0) by (apply (Rmult_lt_reg_r v); [exact hv|]; replace (xj / v * v) with xj by (field; lra); lra).
  assert (hneg' : p_h rho k1 * (xj / v) < 0) by nra.
  assert (hst : StronglySorted Rle (w_tau w)).
  { unfold w, the_w. cbn [w_tau]. apply map_sorted; [intros; apply Rmult_le_compat_l; lra|]. apply map_sorted; [|exact hsort].
    intros; apply Rmult_le_compat_r; [apply Rlt_le, Rinv_0_lt_compat; exact hv|assumption]. }
  unfold displacement_at. rewrite ht, (sorted_negative _ _ _ hst ht hneg').
  destruct (nlebP (lit 0) (p_h rho k1 * (xj / v))) as [k|k]; rnum; [exfalso; lra|]. cbn [andb]. ring.
Qed.

(** C107.  What is found for a place and a time does not depend on the other places that are asked for; after the force has reached the change of
    stiffness, this needs the same last place *)
Theorem C107_grid nb a x x' v E I rho k1 k2 P :
  slow_enough E I rho k1 k2 v -> x <> [] -> x' <> [] -> StronglySorted Rlt x -> StronglySorted Rlt x' ->
  exists rows rows', winkler_solution nb a x v E I rho [k1; k2] P = Ok (Some (map (fun p => p / v) x, x, rows)) /\
    winkler_solution nb a x' v E I rho [k1; k2] P = Ok (Some (map (fun p => p / v) x', x', rows')) /\
    forall i j i' j' p q, nth_error x i = Some p -> nth_error x' i' = Some p -> nth_error x j = Some q -> nth_error x' j' = Some q ->
      q < 0 \/ last x 0 = last x' 0 -> exists u, row_column rows i j = Some u /\ row_column rows' i' j' = Some u.
Proof.
  intros hs hx hx' hst hst'. destruct (slow_critical _ _ _ _ _ _ hs) as [hEI hcr]. pose proof hs as [hE [hI [hr [h1 [h2 [hv _]]]]]].
  unfold winkler_solution. rewrite (parameters_ok x v E I rho k1 k2 P hEI hr h1 h2 hv hcr hx), (parameters_ok x' v E I rho k1 k2 P hEI hr h1 h2 hv hcr hx'). cbn [rbind].
  eexists; eexists. split; [reflexivity|]. split; [reflexivity|]. intros i j i' j' p q hi hi' hj hj' hc.
  destruct (Rlt_le_dec q 0) as [l|l].
  - rewrite (early_entry nb a x v E I rho k1 k2 P i j p q hs (strict_weak _ hst) hi hj l), (early_entry nb a x' v E I rho k1 k2 P i' j' p q hs (strict_weak _ hst') hi' hj' l).
    eexists. split; [reflexivity|]. apply (f_equal Some). exact (f_equal (fun g => g (p_ka (E * I) rho k1 * p) (p_h rho k1 * (q / v))) (same_low (E * I) rho k1 k2 v P x' x _ _)).
  - assert (e : last x 0 = last x' 0) by (destruct hc; [lra|assumption]).
    rewrite (late_entry nb a x v E I rho k1 k2 P i j p q hs hst hi hj l), (late_entry nb a x' v E I rho k1 k2 P i' j' p q hs hst' hi' hj' l).
    eexists. split; [reflexivity|]. rewrite <- e.
    destruct (same_U (E * I) rho k1 k2 v P x' x (p_h rho k1 * (last x 0 / v))) as [-> ->]. reflexivity.
Qed.
Print Assumptions C107_grid.
Example C107_grid_case : slow_enough 2 1 1 1 3 1 /\ StronglySorted Rlt [-1; 0; 2] /\ StronglySorted Rlt [-3; -1; 1; 2] /\
  nth_error [-1; 0; 2] 0 = Some (-1) /\ nth_error [-3; -1; 1; 2] 1 = Some (-1) /\ last [-1; 0; 2] 0 = last [-3; -1; 1; 2] 0.
Proof.
  split; [unfold slow_enough; repeat split; lra|]. split; [|split; [|repeat split]];
  repeat (constructor; [|repeat (constructor; [lra|]); constructor]); constructor.
Qed.

(** C107.  If both foundations are the same, the deflection found before the force reaches zero depends only on the distance from the force *)
Theorem C107_uniform v E I rho k P :
  slow_enough E I rho k k v ->
  exists f, (P <> 0 -> f 0 <> 0) /\
    forall nb a x, x <> [] -> StronglySorted Rle x ->
    exists rows, winkler_solution nb a x v E I rho [k; k] P = Ok (Some (map (fun p => p / v) x, x, rows)) /\
      forall i j xi xj, nth_error x i = Some xi -> nth_error x j = Some xj -> xj < 0 -> row_column rows i j = Some (f (Rabs (xi - xj))).
Proof.
  intros hs. destruct (slow_critical _ _ _ _ _ _ hs) as [hEI hcr]. pose proof hs as [hE [hI [hr [h1 [h2 [hv _]]]]]].
  destruct (p_pos (E * I) rho k v hEI hr h1 hv) as [_ [hh [hka _]]].
  assert (hw : forall x l, well_set (the_w (E * I) rho k k v P x l)) by (intros; apply the_w_set; assumption).
  assert (h1r : forall x l, w_ratio (the_w (E * I) rho k k v P x l) = 1) by (intros; apply Rinv_r; lra).
  exists (fun d => profile (the_w (E * I) rho k k v P [] 0) (p_ka (E * I) rho k * d)). split.
  - intros hP. rewrite Rmult_0_r. apply profile_zero; [apply hw|]. intros z. pose proof (p_e4 (E * I) rho k v P hEI hr h1 hv) as e4.
    change (p_F (E * I) rho k P) with (w_F (the_w (E * I) rho k k v P [] 0)) in e4. rewrite z in e4. apply hP. rewrite <- e4. ring.
  - intros nb a x hx hsort. unfold winkler_solution. rewrite (parameters_ok x v E I rho k k P hEI hr h1 h2 hv hcr hx). cbn [rbind].
    eexists. split; [reflexivity|]. intros i j xi xj hi hj l.
    rewrite (early_entry nb a x v E I rho k k P i j xi xj hs hsort hi hj l). apply (f_equal Some). cbv zeta.
    rewrite (same_low _ _ _ _ _ _ x [] _ 0). assert (hd : xj / v < 0) by (apply (Rmult_lt_reg_r v); [exact hv|]; replace (xj / v * v) with xj by (field; lra); lra).
    rewrite (low_uniform _ (hw [] 0) (h1r [] 0)) by nra. f_equal.
    rewrite <- (Rabs_pos_eq (p_ka (E * I) rho k)) at 2 by lra. rewrite <- Rabs_mult. f_equal.
    change (w_alpha (the_w (E * I) rho k k v P [] 0)) with (p_alpha (E * I) rho k v). pose proof (p_e3 (E * I) rho k v hEI hr h1 hv) as e3.
    transitivity (p_ka (E * I) rho k * xi - p_alpha (E * I) rho k v * p_h rho k * (xj / v)); [ring|]. rewrite e3. field. lra.
Qed.
Print Assumptions C107_uniform.
Example C107_uniform_case : slow_enough 2 3 5 7 7 1 /\ [-3; -1; 0; 2] <> [] /\ StronglySorted Rle [-3; -1; 0; 2] /\ (-1 < 0)%R.
Proof.
  split; [unfold slow_enough; repeat split; lra|]. split; [discriminate|]. split; [|lra].
  repeat (constructor; [|repeat (constructor; [lra|]); constructor]). constructor.
Qed.

(** C107.  The places must be in increasing order: for the places one and minus one, the deflection at minus one when the force is there is given as
    zero, and in the other order it is not *)
Theorem C107_order_refuted nb a v E I rho k P :
  slow_enough E I rho k k v -> P <> 0 ->
  exists rows rows' u, winkler_solution nb a [1; -1] v E I rho [k; k] P = Ok (Some ([1 / v; -1 / v], [1; -1], rows)) /\
    winkler_solution nb a [-1; 1] v E I rho [k; k] P = Ok (Some ([-1 / v; 1 / v], [-1; 1], rows')) /\
    row_column rows 1 1 = Some 0 /\ row_column rows' 0 0 = Some u /\ u <> 0.
Proof.
  intros hs hP. destruct (C107_uniform v E I rho k P hs) as [f [f0 hf]].
  assert (hsort : StronglySorted Rle [-1; 1]) by (repeat (constructor; [|repeat (constructor; [lra|]); constructor]); constructor).
  destruct (hf nb a [-1; 1] ltac:(discriminate) hsort) as [rows' [e' he']].
  destruct (slow_critical _ _ _ _ _ _ hs) as [hEI hcr]. pose proof hs as [hE [hI [hr [h1 [h2 [hv _]]]]]].
  unfold winkler_solution at 1. rewrite (parameters_ok [1; -1] v E I rho k k P hEI hr h1 h2 hv hcr ltac:(discriminate)). cbn [rbind].
  set (w := the_w (E * I) rho k k v P [1; -1] (p_h rho k * (last [1; -1] 0 / v))).
  eexists; exists rows', (f (Rabs (-1 - -1))). split; [reflexivity|]. split; [exact e'|]. split; [|split; [apply he'; [reflexivity|reflexivity|lra]|]].
  - destruct (p_pos (E * I) rho k v hEI hr h1 hv) as [_ [hh _]].
    assert (hi : 0 < / v) by (apply Rinv_0_lt_compat; exact hv).
    assert (t1 : 0 < p_h rho k * (1 / v)) by (apply Rmult_lt_0_compat; [exact hh|]; unfold Rdiv; lra).
    assert (t2 : p_h rho k * (-1 / v) < 0) by (unfold Rdiv; nra).
    rewrite (solution_entry nb a w 1 1 (p_ka (E * I) rho k * -1)) by (try reflexivity; cbn; lia). f_equal.
    unfold displacement_at. change (w_tau w) with [p_h rho k * (1 / v); p_h rho k * (-1 / v)]. cbn [filter].
    destruct (nltbP (p_h rho k * (1 / v)) (lit 0)) as [g|g]; [exfalso; rnum; lra|].
    destruct (nltbP (p_h rho k * (-1 / v)) (lit 0)) as [g'|g']; [|exfalso; rnum; lra]. cbn [nth_error].
    destruct (nlebP (lit 0) (p_h rho k * (-1 / v))) as [b|b]; [exfalso; rnum; lra|]. cbn [andb]. rnum. ring.
  - replace (-1 - -1) with 0 by ring. rewrite Rabs_R0. exact (f0 hP).
Qed.
Print Assumptions C107_order_refuted.
Example C107_order_case : slow_enough 2 3 5 7 7 1 /\ 4 <> 0.
Proof. split; [unfold slow_enough; repeat split; lra|lra]. Qed.
