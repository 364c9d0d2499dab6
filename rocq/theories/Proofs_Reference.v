(** * Proofs about the remaining reference solutions *)

From Coq Require Import Reals List Bool ZArith Arith Lia Lra Psatz.
From Coquelicot Require Import Coquelicot.
From Verif Require Import Num PyBase Model_Element Model_Accumulation Spec_Accumulation Proofs_Accumulation Model_Misc Model_Analytic Spec_Analytic Proofs_Analytic.
Import ListNotations.
Local Open Scope R_scope.

(** ** the beam with shear *)

Definition shear_g (omega : nat -> R) (EI mass len phi force x0 : R) (k : nat) (t : R) : R :=
  (1 + phi) * undamped_amp EI mass len force x0 k * (1 - cos (omega k * beam_frequency EI mass len k * t)).
Definition shear_g1 (omega : nat -> R) (EI mass len phi force x0 : R) (k : nat) (t : R) : R :=
  (1 + phi) * undamped_amp EI mass len force x0 k * (omega k * beam_frequency EI mass len k * sin (omega k * beam_frequency EI mass len k * t)).

Lemma shear_at_ok n omega EI mass len phi force N x t : 0 < EI -> 0 < mass -> 0 < len ->
  shear_at n omega EI mass len phi force (linspace_nat 0 len (S N)) x t =
  Ok (sines (n - 1) len (shear_g omega EI mass len phi force (load_point (linspace_nat 0 len (S N)))) x t,
      sines (n - 1) len (shear_g1 omega EI mass len phi force (load_point (linspace_nat 0 len (S N)))) x t).
Proof.
  intros h1 h2 h3. unfold shear_at. cbv zeta. set (x0 := load_point (linspace_nat 0 len (S N))).
  rewrite !(sum_modes_ok _ _ (fun k => sin (wave_number len k * x0) * force)) by (intros; apply middle_force_ok).
  cbn [rbind]. unfold sines. rewrite !sum_to_scal. apply f_equal. apply f_equal2; apply sum_to_ext; intros k hk;
  unfold shear_g, shear_g1, shear_frequency, undamped_amp, beam_mode, pow4, pow3, pow2; rewrite !nofnat_R; cbn [nmul nadd ndiv nsub lit RNum npi nsin ncos RTrig];
  assert (hk0 : 0 < INR k) by (apply lt_0_INR; lia); pose proof PI_RGT_0; unfold wave_number;
  generalize (sin (INR k * PI / len * x0)), (sin (INR k * PI / len * x)), (omega k * beam_frequency EI mass len k).
  - intros s1 s2 o. generalize (cos (o * t)). intros s3. field. lra.
  - intros s1 s2 o. generalize (sin (o * t)). intros s3. field. lra.
Qed.
Lemma shear_beam_ok n omega size E G kk I rho A len force time : 0 < size -> 0 < E * I -> 0 < rho * A -> 0 < len ->
  exists N, intervals size len N /\ let x := linspace_nat 0 len (S N) in
    let g := shear_g omega (E * I) (rho * A) len (shear_phi E G kk I A len) force (load_point x) in
    let g1 := shear_g1 omega (E * I) (rho * A) len (shear_phi E G kk I A len) force (load_point x) in
    shear_beam n omega size E G kk I rho A len force time =
    Ok (x, map (fun p => map (fun t => (sines (n - 1) len g p t, sines (n - 1) len g1 p t)) time) x).
Proof.
  intros h1 h2 h3 h4. destruct (beam_points_ok size len h1 h4) as [N [hN hp]]. exists N. split; [exact hN|]. intros x g g1. unfold shear_beam. rewrite hp. cbn [rbind].
  fold x. rewrite (mapr_ok _ (fun p => map (fun t => (sines (n - 1) len g p t, sines (n - 1) len g1 p t)) time)); [reflexivity|].
  intros p _. apply mapr_ok. intros t _. apply shear_at_ok; assumption.
Qed.
(** the frequencies *)
Lemma shear_vibrates rho A E I G kk len w n : 0 < rho -> 0 < A -> 0 < E -> 0 < I -> 0 < kk * G -> 0 < len -> (1 <= n)%nat ->
  find_omega E G kk (sqrt (I / A)) len w n = 0 ->
  let f := w * beam_frequency (E * I) (rho * A) len n in let a := wave_number len n in
  exists b, shear_beam_motion rho A E I (kk * G) (fun x t => sin (a * x) * cos (f * t)) (fun x t => b * cos (a * x) * cos (f * t)).
Proof.
  intros hr hA hE hI hG hl hn hw f a.
  assert (ha : 0 < a) by (apply wave_number_pos; assumption).
  assert (hf : rho * A * (f * f) = w * w * (E * I * a ^ 4)).
  { unfold f, a. rewrite <- (frequency_square (E * I) (rho * A) len n) by (try apply Rmult_lt_0_compat; assumption). ring. }
  assert (hd : E * I * a ^ 4 - rho * A * (f * f) - rho * I * (1 + E / (kk * G)) * a ^ 2 * (f * f) + rho * rho * I / (kk * G) * (f * f) * (f * f) = 0).
  { revert hw. unfold find_omega, pow2, pow4. rewrite nofnat_R. cbn [nmul nadd ndiv nsub lit RNum npi RTrig].
    assert (e : INR n * PI * sqrt (I / A) / len = a * sqrt (I / A)) by (unfold a, wave_number; field; lra). rewrite !e.
    assert (hs : sqrt (I / A) * sqrt (I / A) = I / A) by (apply sqrt_sqrt; left; apply Rdiv_lt_0_compat; assumption).
    set (r := sqrt (I / A)) in *. intros hw.
    assert (hff : f * f = w * w * (E * I * a ^ 4) / (rho * A)) by (rewrite <- hf; field; lra).
    transitivity (E * I * a ^ 4 * (1 - w * w - w * w * (a * a * (I / A)) * (1 + E / (kk * G)) + w * w * w * w * (a * a * a * a * (I / A) * (I / A)) * E / (kk * G))).
    - rewrite hff. field. repeat split; nra.
    - rewrite <- hs. transitivity (E * I * a ^ 4 * 0); [|ring]. rewrite <- hw. f_equal. unfold Rdiv. ring. }
  exists (a - rho * (f * f) / (kk * G * a)). set (b := a - rho * (f * f) / (kk * G * a)).
  exists (fun x t => sin (a * x) * (- f * sin (f * t))), (fun x t => sin (a * x) * (- f * f * cos (f * t))), (fun x t => a * cos (a * x) * cos (f * t)), (fun x t => - a * a * sin (a * x) * cos (f * t)),
    (fun x t => b * cos (a * x) * (- f * sin (f * t))), (fun x t => b * cos (a * x) * (- f * f * cos (f * t))), (fun x t => - b * a * sin (a * x) * cos (f * t)), (fun x t => - b * a * a * cos (a * x) * cos (f * t)).
  assert (hb : b * (kk * G * a) = kk * G * a * a - rho * (f * f)) by (unfold b; field; repeat split; nra).
  clearbody f b. repeat (split; [intros x t; apply is_derive_Reals; auto_derive; [exact Logic.I|]; ring|]). split; intros x t.
  - transitivity (- A * sin (a * x) * cos (f * t) * (rho * (f * f))); [ring|]. replace (rho * (f * f)) with (kk * G * a * a - b * (kk * G * a)) by lra. ring.
  - apply (Rmult_eq_reg_r (kk * G * a)); [|nra].
    transitivity (- cos (a * x) * cos (f * t) * (rho * I * (f * f)) * (b * (kk * G * a))); [ring|].
    transitivity (cos (a * x) * cos (f * t) * (- E * I * a * a * (b * (kk * G * a)) + kk * G * A * (a * (kk * G * a) - b * (kk * G * a)))); [|ring].
    rewrite hb. assert (hd' : kk * G * (E * I * a ^ 4 - rho * A * (f * f) - rho * I * (1 + E / (kk * G)) * a ^ 2 * (f * f) + rho * rho * I / (kk * G) * (f * f) * (f * f)) = 0) by (rewrite hd; ring).
    assert (hd2 : kk * G * E * I * a ^ 4 - kk * G * rho * A * (f * f) - rho * I * (kk * G + E) * a ^ 2 * (f * f) + rho * rho * I * (f * f) * (f * f) = 0) by (rewrite <- hd'; field; nra).
    apply Rminus_diag_uniq. transitivity (cos (a * x) * cos (f * t) * (kk * G * E * I * a ^ 4 - kk * G * rho * A * (f * f) - rho * I * (kk * G + E) * a ^ 2 * (f * f) + rho * rho * I * (f * f) * (f * f))); [ring|].
    rewrite hd2. ring.
Qed.

(** ** the clamped beam *)

Definition shape0 (a r x : R) : R := cos (a * x) - (exp (a * x) + exp (- (a * x))) / 2 - r * (sin (a * x) - (exp (a * x) - exp (- (a * x))) / 2).
Definition shape1 (a r x : R) : R := a * (- sin (a * x) - (exp (a * x) - exp (- (a * x))) / 2 - r * (cos (a * x) - (exp (a * x) + exp (- (a * x))) / 2)).
Definition shape2 (a r x : R) : R := a * a * (- cos (a * x) - (exp (a * x) + exp (- (a * x))) / 2 - r * (- sin (a * x) - (exp (a * x) - exp (- (a * x))) / 2)).
Definition shape3 (a r x : R) : R := a * a * a * (sin (a * x) - (exp (a * x) - exp (- (a * x))) / 2 - r * (- cos (a * x) - (exp (a * x) + exp (- (a * x))) / 2)).
Lemma shape_d0 a r : derivative (shape0 a r) (shape1 a r).
Proof. intros x. apply is_derive_Reals. unfold shape0, shape1. auto_derive; [exact Logic.I|]. field. Qed.
Lemma shape_d1 a r : derivative (shape1 a r) (shape2 a r).
Proof. intros x. apply is_derive_Reals. unfold shape1, shape2. auto_derive; [exact Logic.I|]. field. Qed.
Lemma shape_d2 a r : derivative (shape2 a r) (shape3 a r).
Proof. intros x. apply is_derive_Reals. unfold shape2, shape3. auto_derive; [exact Logic.I|]. field. Qed.
Lemma shape_d3 a r : derivative (shape3 a r) (fun x => a ^ 4 * shape0 a r x).
Proof. intros x. apply is_derive_Reals. unfold shape3, shape0. auto_derive; [exact Logic.I|]. field. Qed.

Definition clamp_ratio (z : R) : R := (cos z + (exp z + exp (- z)) / 2) / (sin z + (exp z - exp (- z)) / 2).
Lemma cosh_ge z : 0 <= (exp z + exp (- z)) / 2 - 1.
Proof.
  pose proof (exp_pos z) as h1. pose proof (exp_pos (- z)) as h2. assert (h3 : exp z * exp (- z) = 1) by (rewrite <- exp_plus, Rplus_opp_r; apply exp_0).
  set (A := exp z) in *. set (B := exp (- z)) in *. assert (2 <= A + B); [|lra]. apply Rnot_lt_le. intros h.
  assert ((A + B) * (A + B) < 2 * 2) by (apply Rmult_le_0_lt_compat; lra). pose proof (Rle_0_sqr (A - B)) as h4. unfold Rsqr in h4. lra.
Qed.
Lemma cosh_gt z : 0 < z -> 0 < (exp z + exp (- z)) / 2 - 1.
Proof.
  intros hz. destruct (Rle_lt_or_eq_dec _ _ (cosh_ge z)) as [h|h]; [exact h|]. exfalso.
  pose proof (exp_pos (- z)) as h2. assert (h3 : exp z * exp (- z) = 1) by (rewrite <- exp_plus, Rplus_opp_r; apply exp_0).
  assert (h5 : 1 < exp z) by (rewrite <- exp_0; apply exp_increasing; lra). assert (e : exp (- z) = 2 - exp z) by lra. rewrite e in h3. nra.
Qed.
Lemma sinh_gt z : 0 < z -> z < (exp z - exp (- z)) / 2.
Proof.
  intros hz. set (f := fun x => (exp x - exp (- x)) / 2 - x).
  assert (hd : forall x, is_derive f x ((exp x + exp (- x)) / 2 - 1)) by (intros x; unfold f; auto_derive; [exact Logic.I|]; field).
  destruct (MVT_gen f 0 z (fun x => (exp x + exp (- x)) / 2 - 1)) as [c [[hc1 hc2] he]].
  - intros x _. apply hd.
  - intros x _. apply (derivable_continuous_pt). exists ((exp x + exp (- x)) / 2 - 1). apply is_derive_Reals. apply hd.
  - rewrite Rmin_left in hc1 by lra. rewrite Rmax_right in hc2 by lra.
    assert (e0 : f 0 = 0) by (unfold f; rewrite Ropp_0, exp_0; field).
    assert (hz0 : 0 <= f z).
    { pose proof (cosh_ge c).
      assert (0 <= ((exp c + exp (- c)) / 2 - 1) * (z - 0)) by (apply Rmult_le_pos; lra). lra. }
    destruct (Rle_lt_or_eq_dec _ _ hz0) as [h|h]; [unfold f in h; lra|]. exfalso.
    (* the derivative is positive away from zero *)
    destruct (MVT_gen f (z / 2) z (fun x => (exp x + exp (- x)) / 2 - 1)) as [d [[hd1 hd2] hed]].
    + intros x _. apply hd.
    + intros x _. apply (derivable_continuous_pt). exists ((exp x + exp (- x)) / 2 - 1). apply is_derive_Reals. apply hd.
    + rewrite Rmin_left in hd1 by lra. rewrite Rmax_right in hd2 by lra.
      pose proof (cosh_gt d ltac:(lra)) as hdp.
      assert (0 < ((exp d + exp (- d)) / 2 - 1) * (z - z / 2)) by (apply Rmult_lt_0_compat; lra).
      destruct (MVT_gen f 0 (z / 2) (fun x => (exp x + exp (- x)) / 2 - 1)) as [b [[hb1 hb2] heb]].
      * intros x _. apply hd.
      * intros x _. apply (derivable_continuous_pt). exists ((exp x + exp (- x)) / 2 - 1). apply is_derive_Reals. apply hd.
      * rewrite Rmin_left in hb1 by lra. rewrite Rmax_right in hb2 by lra.
        pose proof (cosh_ge b).
        assert (0 <= ((exp b + exp (- b)) / 2 - 1) * (z / 2 - 0)) by (apply Rmult_le_pos; lra). lra.
Qed.
Lemma clamp_den z : 0 < z -> 0 < sin z + (exp z - exp (- z)) / 2.
Proof.
  intros hz. pose proof (sinh_gt z hz). destruct (Rle_dec z 1) as [h|h].
  - pose proof (sin_gt_0 z hz ltac:(pose proof PI2_1; pose proof PI2_RGT_0; lra)). lra.
  - pose proof (SIN_bound z). lra.
Qed.
Lemma cosh_sinh_sq z : ((exp z + exp (- z)) / 2) * ((exp z + exp (- z)) / 2) = 1 + ((exp z - exp (- z)) / 2) * ((exp z - exp (- z)) / 2).
Proof. assert (e : exp z * exp (- z) = 1) by (rewrite <- exp_plus, Rplus_opp_r; apply exp_0). nra. Qed.
Lemma mode_shape0 len a x : clamped_mode len a x = shape0 a (clamp_ratio (a * len)) x.
Proof. reflexivity. Qed.

Lemma shape_is_clamped len z : 0 < len -> 0 < z -> find_eigen z = 0 -> clamped_shape len (z / len) (shape0 (z / len) (clamp_ratio z)).
Proof.
  intros hl hz he. set (a := z / len). assert (ha : a * len = z) by (unfold a; field; lra). pose proof (clamp_den z hz) as hd.
  exists (shape1 a (clamp_ratio z)), (shape2 a (clamp_ratio z)), (shape3 a (clamp_ratio z)).
  split; [apply shape_d0|]. split; [apply shape_d1|]. split; [apply shape_d2|]. split; [apply shape_d3|].
  split; [|split; [|split]].
  - unfold shape0. rewrite Rmult_0_r, Ropp_0, cos_0, sin_0, exp_0. field.
  - unfold shape1. rewrite Rmult_0_r, Ropp_0, cos_0, sin_0, exp_0. field.
  - unfold shape2, clamp_ratio. rewrite ha. field. lra.
  - unfold shape3, clamp_ratio. rewrite ha. 
    assert (e : 1 + cos z * ((exp z + exp (- z)) / 2) = 0) by (exact he). pose proof (sin2_cos2 z) as e2. unfold Rsqr in e2. pose proof (cosh_sinh_sq z) as e3.
    set (C := (exp z + exp (- z)) / 2) in *. set (S' := (exp z - exp (- z)) / 2) in *.
    transitivity (a * a * a * ((sin z * sin z - S' * S' + (cos z + C) * (cos z + C)) / (sin z + S'))); [field; lra|].
    replace (sin z * sin z - S' * S' + (cos z + C) * (cos z + C)) with (0 : R); [field; lra|]. 
    transitivity ((sin z * sin z + cos z * cos z - 1) + (C * C - 1 - S' * S') + 2 * (1 + cos z * C)); [rewrite e, e2, e3; ring|ring].
Qed.
Lemma shape_tip len z : 0 < len -> 0 < z -> find_eigen z = 0 -> shape0 (z / len) (clamp_ratio z) len <> 0.
Proof.
  intros hl hz he h. assert (ha : z / len * len = z) by (field; lra). pose proof (clamp_den z hz) as hd. pose proof (sinh_gt z hz) as hsg.
  unfold shape0, clamp_ratio in h. rewrite ha in h.
  assert (e : 1 + cos z * ((exp z + exp (- z)) / 2) = 0) by (exact he). pose proof (sin2_cos2 z) as e2. unfold Rsqr in e2. pose proof (cosh_sinh_sq z) as e3.
  set (C := (exp z + exp (- z)) / 2) in *. set (S' := (exp z - exp (- z)) / 2) in *.
  assert (h' : cos z * S' - C * sin z = 0).
  { transitivity ((cos z - C - (cos z + C) / (sin z + S') * (sin z - S')) * (sin z + S') / 2); [field; lra|]. rewrite h. field. }
  assert (hs : 0 < S') by lra.
  (* squares *)
  assert (k1 : (cos z * cos z) * (C * C) = 1) by (replace ((cos z * cos z) * (C * C)) with ((cos z * C) * (cos z * C)) by ring; replace (cos z * C) with (-1) by lra; ring).
  assert (k2 : (cos z * cos z) * (S' * S') = (C * C) * (sin z * sin z)) by (replace ((cos z * cos z) * (S' * S')) with ((cos z * S') * (cos z * S')) by ring; replace (cos z * S') with (C * sin z) by lra; ring).
  assert (k3 : 1 < C * C) by nra.
  replace (S' * S') with (C * C - 1) in k2 by lra. replace (sin z * sin z) with (1 - cos z * cos z) in k2 by lra. 
  assert (k4 : cos z * cos z + C * C = 2) by lra. nra.
Qed.

Lemma trapezoidal_last n top f : 0 < top -> (forall x, 0 <= f x) -> 0 < f top -> (1 <= n)%nat -> 0 < trapezoidal n top f.
Proof.
  intros h hf hf1 hn. unfold trapezoidal. assert (h1 : 0 < INR n) by (apply lt_0_INR; lia). set (N := INR n) in *. assert (eN : N = INR n) by reflexivity. clearbody N.
  destruct n as [|n]; [lia|]. cbn [sumn]. rnum.
  assert (hst : 0 < top / N) by (apply Rdiv_lt_0_compat; assumption).
  assert (0 <= sumn n (fun k => top / N * (f (INR k * top / N) + f (INR (S k) * top / N)) / 2)).
  { apply sumn_nonneg. intros k _. pose proof (hf (INR k * top / N)). pose proof (hf (INR (S k) * top / N)). nra. }
  assert (e : INR (S n) * top / N = top) by (rewrite <- eN; field; lra). rewrite e. pose proof (hf (INR n * top / N)). nra.
Qed.
Lemma clamped_mass_value steps mass len a : (2 <= steps)%nat ->
  clamped_mass steps mass len a = mass * trapezoidal (steps - 1) len (fun x => shape0 a (clamp_ratio (a * len)) x * shape0 a (clamp_ratio (a * len)) x).
Proof.
  intros hs. unfold clamped_mass. destruct steps as [|s]; [lia|]. replace (S s - 1)%nat with s by lia.
  change (@lit R RNum 0) with 0. cbv zeta. rewrite trapezoid_rule by lia. reflexivity.
Qed.
Lemma clamped_frequency_sq EI mass len z : 0 < EI -> 0 < mass -> 0 < len ->
  mass * (clamped_frequency EI mass len (z / len) * clamped_frequency EI mass len (z / len)) = EI * (z / len) ^ 4.
Proof.
  intros h1 h2 h3. unfold clamped_frequency, pow2, pow4. cbn [nmul ndiv nsqrt RNum].
  assert (e : 0 < EI / (mass * (len * len * len * len))) by (apply Rdiv_lt_0_compat; [assumption|]; repeat apply Rmult_lt_0_compat; assumption).
  set (q := EI / (mass * (len * len * len * len))) in *.
  transitivity (mass * ((z / len * len) ^ 4) * (sqrt q * sqrt q)); [ring|]. rewrite sqrt_sqrt by lra. unfold q. field. lra.
Qed.

Definition root_shape (len : R) (root : nat -> R) (k : nat) (x : R) : R := shape0 (root k / len) (clamp_ratio (root k)) x.
Definition shape_norm (steps : nat) (len : R) (root : nat -> R) (k : nat) : R :=
  trapezoidal (steps - 1) len (fun x => root_shape len root k x * root_shape len root k x).
Definition clamped_amp (steps : nat) (EI len force : R) (root : nat -> R) (k : nat) : R :=
  force * root_shape len root k len / (EI * (root k / len) ^ 4 * shape_norm steps len root k).
Definition clamped_w (n steps : nat) (root : nat -> R) (EI mass len force x t : R) : R :=
  sum_to (n - 1) (fun k => clamped_amp steps EI len force root k * (1 - cos (clamped_frequency EI mass len (root k / len) * t)) * root_shape len root k x).
Definition clamped_v (n steps : nat) (root : nat -> R) (EI mass len force x t : R) : R :=
  sum_to (n - 1) (fun k => clamped_amp steps EI len force root k * (clamped_frequency EI mass len (root k / len) * sin (clamped_frequency EI mass len (root k / len) * t)) * root_shape len root k x).
Definition clamped_mean (n steps : nat) (root : nat -> R) (EI len force x : R) : R :=
  sum_to (n - 1) (fun k => clamped_amp steps EI len force root k * root_shape len root k x).

Lemma shape_norm_pos steps len root k : (2 <= steps)%nat -> 0 < len -> 0 < root k -> find_eigen (root k) = 0 -> 0 < shape_norm steps len root k.
Proof.
  intros h1 h2 h3 h4. apply trapezoidal_last; [exact h2| |  |lia].
  - intros x. apply Rle_0_sqr.
  - pose proof (shape_tip len (root k) h2 h3 h4) as e. change (root_shape len root k len <> 0) in e. apply Rsqr_pos_lt in e. exact e.
Qed.
Lemma clamped_at_ok n steps root EI mass len force x t : 0 < EI -> 0 < mass -> 0 < len -> (2 <= steps)%nat ->
  (forall k, (1 <= k < n)%nat -> 0 < root k /\ find_eigen (root k) = 0) ->
  clamped_at n steps root EI mass len force len x t =
  (clamped_w n steps root EI mass len force x t, clamped_v n steps root EI mass len force x t + clamped_mean n steps root EI len force x).
Proof.
  intros h1 h2 h3 hs hr. unfold clamped_at. cbv zeta.
  assert (hamp : forall k, (1 <= k < n)%nat -> forall y, clamped_mode len (clamped_wave (root k) len) len * force /
    (pow2 (clamped_frequency EI mass len (clamped_wave (root k) len)) * clamped_mass steps mass len (clamped_wave (root k) len)) * y * clamped_mode len (clamped_wave (root k) len) x =
    clamped_amp steps EI len force root k * y * root_shape len root k x).
  { intros k hk y. destruct (hr k hk) as [hz he]. unfold clamped_wave. change (@ndiv R RNum) with Rdiv. rewrite !mode_shape0.
    assert (ha : root k / len * len = root k) by (field; lra). rewrite clamped_mass_value by exact hs. rewrite ha.
    change (shape0 (root k / len) (clamp_ratio (root k)) x) with (root_shape len root k x). change (shape0 (root k / len) (clamp_ratio (root k)) len) with (root_shape len root k len).
    change (trapezoidal (steps - 1) len (fun x0 => shape0 (root k / len) (clamp_ratio (root k)) x0 * shape0 (root k / len) (clamp_ratio (root k)) x0)) with (shape_norm steps len root k).
    pose proof (shape_norm_pos steps len root k hs h3 hz he) as hN. pose proof (clamped_frequency_sq EI mass len (root k) h1 h2 h3) as hf.
    unfold clamped_amp, pow2. cbn [nmul RNum].
    replace (clamped_frequency EI mass len (root k / len) * clamped_frequency EI mass len (root k / len) * (mass * shape_norm steps len root k)) with (EI * (root k / len) ^ 4 * shape_norm steps len root k) by (rewrite <- hf; ring).
    replace (root_shape len root k len * force) with (force * root_shape len root k len) by ring. reflexivity. }
  pose proof (sumn_sum_to (n - 1)) as st. apply f_equal2.
  - unfold clamped_w. rewrite <- st. apply sumn_ext. intros i hi. apply (hamp (S i) ltac:(lia)).
  - unfold clamped_v, clamped_mean. rewrite sum_to_add. rewrite <- st. apply sumn_ext. intros i hi.
    etransitivity; [apply (hamp (S i) ltac:(lia))|]. unfold clamped_wave. cbn [nadd nmul ndiv lit RNum nsin RTrig]. ring.
Qed.

Lemma clamped_motion n steps root EI mass len force : 0 < EI -> 0 < mass -> 0 < len -> (2 <= steps)%nat ->
  (forall k, (1 <= k < n)%nat -> 0 < root k /\ find_eigen (root k) = 0) ->
  exists w1 w2 w3, beam_motion mass EI 0 0 (fun x _ => sum_to (n - 1) (fun k => force * root_shape len root k len * root_shape len root k x / shape_norm steps len root k))
    (clamped_w n steps root EI mass len force) (clamped_v n steps root EI mass len force) w1 w2 w3 /\
    starts_at_rest (clamped_w n steps root EI mass len force) (clamped_v n steps root EI mass len force) /\
    clamped_free len (clamped_w n steps root EI mass len force) w1 w2 w3.
Proof.
  intros h1 h2 h3 hs hr. set (C := clamped_amp steps EI len force root). set (om := fun k => clamped_frequency EI mass len (root k / len)).
  set (A := fun k => root k / len). set (r := fun k => clamp_ratio (root k)).
  set (part := fun (f : R -> R -> R -> R) x t => sum_to (n - 1) (fun k => C k * (1 - cos (om k * t)) * f (A k) (r k) x)).
  assert (hd : forall f g, (forall a b, derivative (f a b) (g a b)) -> along_beam (part f) (part g)).
  { intros f g h t. unfold part. apply (sum_to_derivative (n - 1) (fun k x => C k * (1 - cos (om k * t)) * f (A k) (r k) x) (fun k x => C k * (1 - cos (om k * t)) * g (A k) (r k) x)).
    intros k x. exact (derivable_pt_lim_scal (f (A k) (r k)) (C k * (1 - cos (om k * t))) x _ (h (A k) (r k) x)). }
  exists (part shape1), (part shape2), (part shape3). split; [|split].
  - exists (fun x t => sum_to (n - 1) (fun k => C k * (om k * om k * cos (om k * t)) * shape0 (A k) (r k) x)), (part (fun a b x => a ^ 4 * shape0 a b x)),
      (fun x t => sum_to (n - 1) (fun k => C k * (om k * sin (om k * t)) * (A k ^ 4 * shape0 (A k) (r k) x))).
    split; [|split; [|split; [|split; [|split; [|split; [|split]]]]]].
    + intros x. apply (sum_to_derivative (n - 1) (fun k t => C k * (1 - cos (om k * t)) * shape0 (A k) (r k) x) (fun k t => C k * (om k * sin (om k * t)) * shape0 (A k) (r k) x)).
      intros k t. apply is_derive_Reals. auto_derive; [exact Logic.I|]. ring.
    + intros x. apply (sum_to_derivative (n - 1) (fun k t => C k * (om k * sin (om k * t)) * shape0 (A k) (r k) x) (fun k t => C k * (om k * om k * cos (om k * t)) * shape0 (A k) (r k) x)).
      intros k t. apply is_derive_Reals. auto_derive; [exact Logic.I|]. ring.
    + apply (hd shape0 shape1 shape_d0).
    + apply (hd shape1 shape2 shape_d1).
    + apply (hd shape2 shape3 shape_d2).
    + apply (hd shape3 _ shape_d3).
    + intros x. apply (sum_to_derivative (n - 1) (fun k t => C k * (1 - cos (om k * t)) * (A k ^ 4 * shape0 (A k) (r k) x)) (fun k t => C k * (om k * sin (om k * t)) * (A k ^ 4 * shape0 (A k) (r k) x))).
      intros k t. apply is_derive_Reals. auto_derive; [exact Logic.I|]. ring.
    + intros x t. unfold part, clamped_v. rewrite !sum_to_scal, !sum_to_add. apply sum_to_ext. intros k hk.
      destruct (hr k ltac:(lia)) as [hz he]. pose proof (clamped_frequency_sq EI mass len (root k) h1 h2 h3) as hf.
      pose proof (shape_norm_pos steps len root k hs h3 hz he) as hN.
      change (shape0 (A k) (r k) x) with (root_shape len root k x). fold (om k) (C k) (A k) in hf |- *.
      assert (hA : 0 < A k) by (apply Rdiv_lt_0_compat; assumption).
      transitivity (C k * (EI * A k ^ 4) * root_shape len root k x).
      * transitivity (C k * (mass * (om k * om k)) * cos (om k * t) * root_shape len root k x + C k * (EI * A k ^ 4) * (1 - cos (om k * t)) * root_shape len root k x); [ring|]. rewrite hf. ring.
      * unfold C, clamped_amp. fold (A k). field. repeat split; lra.
  - intros x. unfold clamped_w, clamped_v. split; apply sum_to_zero; intros k hk; rewrite Rmult_0_r, ?cos_0, ?sin_0; ring.
  - assert (he : forall k, (1 <= k <= n - 1)%nat -> shape0 (A k) (r k) 0 = 0 /\ shape1 (A k) (r k) 0 = 0 /\ shape2 (A k) (r k) len = 0 /\ shape3 (A k) (r k) len = 0).
    { intros k hk. destruct (hr k ltac:(lia)) as [hz he]. destruct (shape_is_clamped len (root k) h3 hz he) as [f1 [f2 [f3 [d0 [d1 [d2 [_ [b0 [b1 [b2 b3]]]]]]]]]].
      fold (A k) (r k) in d0, b0.
      assert (e1 : forall x, f1 x = shape1 (A k) (r k) x) by (intros x; exact (uniqueness_limite _ _ _ _ (d0 x) (shape_d0 _ _ x))).
      assert (e2 : forall x, f2 x = shape2 (A k) (r k) x) by (intros x; refine (uniqueness_limite _ _ _ _ (d1 x) _); apply (derivative_ext (shape1 (A k) (r k)) f1 (shape2 (A k) (r k)) (shape2 (A k) (r k)) (fun y => eq_sym (e1 y)) (fun y => eq_refl) (shape_d1 _ _) x)).
      assert (e3 : forall x, f3 x = shape3 (A k) (r k) x) by (intros x; refine (uniqueness_limite _ _ _ _ (d2 x) _); apply (derivative_ext (shape2 (A k) (r k)) f2 (shape3 (A k) (r k)) (shape3 (A k) (r k)) (fun y => eq_sym (e2 y)) (fun y => eq_refl) (shape_d2 _ _) x)).
      rewrite <- e1, <- e2, <- e3. auto. }
    intros t. unfold part, clamped_w. repeat split; apply sum_to_zero; intros k hk; destruct (he k hk) as [q0 [q1 [q2 q3]]].
    + change (root_shape len root k 0) with (shape0 (A k) (r k) 0). rewrite q0. ring.
    + rewrite q1. ring.
    + rewrite q2. ring.
    + rewrite q3. ring.
Qed.
Lemma clamped_beam_ok n steps root size E I rho A len force time : 0 < size -> 0 < E * I -> 0 < rho * A -> 0 < len -> (2 <= steps)%nat ->
  (forall k, (1 <= k < n)%nat -> 0 < root k /\ find_eigen (root k) = 0) ->
  exists N, intervals size len N /\ let x := linspace_nat 0 len (S N) in
    clamped_beam n steps root size E I rho A len force time =
    Ok (x, map (fun p => map (fun t => (clamped_w n steps root (E * I) (rho * A) len force p t, clamped_v n steps root (E * I) (rho * A) len force p t + clamped_mean n steps root (E * I) len force p)) time) x).
Proof.
  intros h1 h2 h3 h4 hs hr. destruct (beam_points_ok size len h1 h4) as [N [hN hp]]. exists N. split; [exact hN|]. intros x. unfold clamped_beam. rewrite hp. cbn [rbind]. fold x.
  pose proof (intervals_pos size len N h1 h4 hN) as hN1.
  assert (hlast : exists l, rev x = len :: l).
  { unfold x, linspace_nat. destruct N as [|N]; [lia|]. rewrite rev_app_distr. eexists. reflexivity. }
  destruct hlast as [l ->]. f_equal. f_equal. apply map_ext. intros p. apply map_ext. intros t. apply clamped_at_ok; assumption.
Qed.
Lemma clamped_mean_tip n steps root EI len force : 0 < EI -> 0 < len -> (2 <= steps)%nat -> (2 <= n)%nat -> 0 < force ->
  (forall k, (1 <= k < n)%nat -> 0 < root k /\ find_eigen (root k) = 0) -> 0 < clamped_mean n steps root EI len force len.
Proof.
  intros h1 h2 hs hn hf hr. unfold clamped_mean. apply sum_to_pos; [lia|]. intros k hk. destruct (hr k ltac:(lia)) as [hz he].
  pose proof (shape_norm_pos steps len root k hs h2 hz he) as hN. pose proof (shape_tip len (root k) h2 hz he) as ht. change (root_shape len root k len <> 0) in ht.
  apply Rsqr_pos_lt in ht. unfold Rsqr in ht. unfold clamped_amp. set (q := root_shape len root k len) in *.
  assert (hA : 0 < root k / len) by (apply Rdiv_lt_0_compat; assumption). assert (hA4 : 0 < (root k / len) ^ 4) by (apply pow_lt; exact hA).
  replace (force * q / (EI * (root k / len) ^ 4 * shape_norm steps len root k) * q) with (force * (q * q) / (EI * (root k / len) ^ 4 * shape_norm steps len root k)) by (field; repeat split; lra).
  apply Rdiv_lt_0_compat; [apply Rmult_lt_0_compat; assumption|]. apply Rmult_lt_0_compat; [apply Rmult_lt_0_compat|]; assumption.
Qed.
(** the characteristic equation has a solution *)
Lemma eigen_exists : exists z, PI / 2 <= z <= PI /\ find_eigen z = 0.
Proof.
  assert (hcont : continuity (fun x => - (1 + cos x * ((exp x + exp (- x)) / 2)))).
  { apply derivable_continuous. intros x. eexists. apply is_derive_Reals. auto_derive; [exact Logic.I|reflexivity]. }
  pose proof PI_RGT_0 as hpi.
  destruct (IVT (fun x => - (1 + cos x * ((exp x + exp (- x)) / 2))) (PI / 2) PI hcont ltac:(lra)) as [z [hz he]].
  - rewrite cos_PI2. lra.
  - rewrite cos_PI. pose proof (cosh_gt PI hpi). lra.
  - exists z. split; [exact hz|]. change (1 + cos z * ((exp z + exp (- z)) / 2) = 0). lra.
Qed.

(** ** the rod *)

Definition lam (len : R) (k : nat) : R := (2 * INR k - 1) * PI / (2 * len).
Definition sgn (k : nat) : R := if Nat.even k then 1 else - (1).
Definition wave_w (k : nat) : R := (2 * INR k - 1) * (2 * INR k - 1).
Definition wave_u (n : nat) (c K p0 len x t : R) : R :=
  p0 / K * (x + 8 * len / (PI * PI) * sum_to (n - 1) (fun k => sgn k / wave_w k * sin (lam len k * x) * cos (lam len k * c * t))).
Definition wave_p (n : nat) (c K p0 len x t : R) : R :=
  p0 / K * (1 + 8 * len / (PI * PI) * sum_to (n - 1) (fun k => sgn k * lam len k / wave_w k * cos (lam len k * x) * cos (lam len k * c * t))) * K.
Definition wave_v (n : nat) (c K p0 len x t : R) : R :=
  p0 / K * (8 * len / (PI * PI) * sum_to (n - 1) (fun k => - (sgn k * lam len k * c / wave_w k * sin (lam len k * x) * sin (lam len k * c * t)))).
Lemma wave_at_value n rho K p0 len x t : wave_at n rho K p0 len x t =
  (wave_u n (sqrt (K / rho)) K p0 len x t, wave_p n (sqrt (K / rho)) K p0 len x t, wave_v n (sqrt (K / rho)) K p0 len x t).
Proof.
  unfold wave_at. cbv zeta. unfold wave_u, wave_p, wave_v.
  assert (el : forall k, wave_lambda len k = lam len k) by (intros k; unfold wave_lambda; rewrite nofnat_R; reflexivity).
  assert (ew : forall k, pow2 (nsub (nmul (lit 2) (nofnat k)) (lit 1)) = wave_w k) by (intros k; unfold pow2, wave_w; rewrite !nofnat_R; reflexivity).
  assert (ea : forall k, alternate k = sgn k) by reflexivity.
  change (wave_speed K rho) with (sqrt (K / rho)). rewrite <- !sumn_sum_to.
  apply f_equal2; [apply f_equal2|].
  - refine (f_equal (fun s => p0 / K * (x + 8 * len / (PI * PI) * s)) (sumn_ext _ _ _ _)). intros i _. cbv beta. rewrite !el, ew, ea. reflexivity.
  - refine (f_equal (fun s => p0 / K * (1 + 8 * len / (PI * PI) * s) * K) (sumn_ext _ _ _ _)). intros i _. cbv beta. rewrite !el, ew, ea. reflexivity.
  - refine (f_equal (fun s => p0 / K * (8 * len / (PI * PI) * s)) (sumn_ext _ _ _ _)). intros i _. cbv beta. rewrite !el, ew, ea. reflexivity.
Qed.

Lemma wave_motion n rho K p0 len : 0 < rho -> 0 < K -> 0 < len ->
  let c := sqrt (K / rho) in rod_motion rho K (wave_u n c K p0 len) (wave_v n c K p0 len) (wave_p n c K p0 len).
Proof.
  intros h1 h2 h3 c. assert (hc : rho * (c * c) = K) by (unfold c; rewrite sqrt_sqrt by (left; apply Rdiv_lt_0_compat; assumption); field; lra).
  clearbody c. set (m := (n - 1)%nat). set (b := 8 * len / (PI * PI)).
  assert (ht : forall (f g : nat -> R -> R), (forall k, derivative (f k) (g k)) -> forall q r s, derivative (fun t => q * (r + s * sum_to m (fun k => f k t))) (fun t => q * (s * sum_to m (fun k => g k t)))).
  { intros f g h q r s t. pose proof (sum_to_derivative m f g h t) as d.
    pose proof (derivable_pt_lim_scal _ q t _ (derivable_pt_lim_plus _ _ t _ _ (derivable_pt_lim_const r t) (derivable_pt_lim_scal _ s t _ d))) as dd.
    eapply deriv_eq; [exact dd|]. ring. }
  exists (fun x t => p0 / K * (b * sum_to m (fun k => - (sgn k * lam len k * c / wave_w k * sin (lam len k * x) * (lam len k * c * cos (lam len k * c * t)))))),
    (fun x t => p0 / K * (1 + b * sum_to m (fun k => sgn k * lam len k / wave_w k * cos (lam len k * x) * cos (lam len k * c * t)))),
    (fun x t => p0 / K * (b * sum_to m (fun k => sgn k * lam len k / wave_w k * (- lam len k * sin (lam len k * x)) * cos (lam len k * c * t)))).
  split; [|split; [|split; [|split; [|split]]]].
  - intros x. unfold wave_u, wave_v. apply (ht (fun k t => sgn k / wave_w k * sin (lam len k * x) * cos (lam len k * c * t))
      (fun k t => - (sgn k * lam len k * c / wave_w k * sin (lam len k * x) * sin (lam len k * c * t)))).
    intros k t. apply is_derive_Reals. auto_derive; [exact Logic.I|]. unfold Rdiv. ring.
  - intros x. unfold wave_v.
    refine (derivative_ext (fun t => p0 / K * (0 + b * sum_to m (fun k => - (sgn k * lam len k * c / wave_w k * sin (lam len k * x) * sin (lam len k * c * t))))) _ _ _ _ (fun t => eq_refl) (ht _ _ _ (p0 / K) 0 b)).
    + intros t. rewrite Rplus_0_l. reflexivity.
    + intros k t. apply is_derive_Reals. auto_derive; [exact Logic.I|]. unfold Rdiv. ring.
  - intros t. unfold wave_u. intros x.
    assert (d : derivative (fun y => sum_to m (fun k => sgn k / wave_w k * sin (lam len k * y) * cos (lam len k * c * t)))
       (fun y => sum_to m (fun k => sgn k * lam len k / wave_w k * cos (lam len k * y) * cos (lam len k * c * t)))).
    { apply (sum_to_derivative m (fun k y => sgn k / wave_w k * sin (lam len k * y) * cos (lam len k * c * t)) (fun k y => sgn k * lam len k / wave_w k * cos (lam len k * y) * cos (lam len k * c * t))).
      intros k y. apply is_derive_Reals. auto_derive; [exact Logic.I|]. unfold Rdiv. ring. }
    pose proof (derivable_pt_lim_scal _ (p0 / K) x _ (derivable_pt_lim_plus _ _ x _ _ (derivable_pt_lim_id x) (derivable_pt_lim_scal _ b x _ (d x)))) as dd. exact dd.
  - intros t. apply (ht (fun k y => sgn k * lam len k / wave_w k * cos (lam len k * y) * cos (lam len k * c * t)) (fun k y => sgn k * lam len k / wave_w k * (- lam len k * sin (lam len k * y)) * cos (lam len k * c * t))).
    intros k y. apply is_derive_Reals. auto_derive; [exact Logic.I|]. unfold Rdiv. ring.
  - intros x t. unfold wave_p. fold m b. ring.
  - intros x t. rewrite <- hc.
    transitivity (p0 / (rho * (c * c)) * b * (rho * sum_to m (fun k => - (sgn k * lam len k * c / wave_w k * sin (lam len k * x) * (lam len k * c * cos (lam len k * c * t)))))); [ring|].
    transitivity (p0 / (rho * (c * c)) * b * (rho * (c * c) * sum_to m (fun k => sgn k * lam len k / wave_w k * (- lam len k * sin (lam len k * x)) * cos (lam len k * c * t)))); [|ring].
    f_equal. rewrite !sum_to_scal. apply sum_to_ext. intros k _. unfold Rdiv. ring.
Qed.
Lemma cos_odd_half len k : 0 < len -> (1 <= k)%nat -> cos (lam len k * len) = 0.
Proof.
  intros hl hk. apply cos_eq_0_1. exists (Z.of_nat (k - 1)). rewrite <- INR_IZR_INZ, minus_INR by exact hk. unfold lam. cbn [INR]. field. lra.
Qed.
Lemma sin_odd_half len k : 0 < len -> (1 <= k)%nat -> sin (lam len k * len) = - sgn k.
Proof.
  intros hl hk. destruct k as [|k]; [lia|]. clear hk.
  replace (lam len (S k) * len) with (PI / 2 + INR k * PI) by (unfold lam; rewrite S_INR; field; lra).
  unfold sgn. rewrite Nat.even_succ. rewrite <- Nat.negb_even.
  assert (h : sin (PI / 2 + INR k * PI) = if Nat.even k then 1 else - (1)).
  { induction k as [|k IH]; [cbn [INR Nat.even]; rewrite Rmult_0_l, Rplus_0_r; apply sin_PI2|].
    rewrite S_INR. replace (PI / 2 + (INR k + 1) * PI) with (PI / 2 + INR k * PI + PI) by ring. rewrite neg_sin, IH, Nat.even_succ, <- Nat.negb_even.
    destruct (Nat.even k); cbn [negb]; ring. }
  rewrite h. destruct (Nat.even k); cbn [negb]; ring.
Qed.
Lemma wave_ends n rho K p0 len : 0 < rho -> 0 < K -> 0 < len -> let c := sqrt (K / rho) in forall t,
  wave_u n c K p0 len 0 t = 0 /\ wave_p n c K p0 len len t = p0 /\ (forall x, wave_v n c K p0 len x 0 = 0).
Proof.
  intros h1 h2 h3 c t. unfold wave_u, wave_p, wave_v. split; [|split].
  - rewrite sum_to_zero; [ring|]. intros k _. rewrite Rmult_0_r, sin_0. ring.
  - rewrite sum_to_zero; [pose proof PI_RGT_0; field; repeat split; lra|]. intros k hk. rewrite cos_odd_half by (try assumption; lia). ring.
  - intros x. rewrite sum_to_zero; [ring|]. intros k _. rewrite Rmult_0_r, sin_0. ring.
Qed.
Lemma wave_period n rho K p0 len x t : 0 < rho -> 0 < K -> 0 < len -> let c := sqrt (K / rho) in
  wave_u n c K p0 len x (t + 4 * len / c) = wave_u n c K p0 len x t.
Proof.
  intros h1 h2 h3 c. assert (hc : 0 < c) by (apply sqrt_lt_R0; apply Rdiv_lt_0_compat; assumption). clearbody c. unfold wave_u. f_equal. f_equal. f_equal.
  apply sum_to_ext. intros k hk. f_equal.
  replace (lam len k * c * (t + 4 * len / c)) with (lam len k * c * t + 2 * INR (2 * k - 1) * PI); [apply cos_period|].
  rewrite minus_INR, mult_INR by lia. unfold lam. cbn [INR]. field. lra.
Qed.
(** at the loaded end the displacement at the start *)
Lemma wave_start_end n rho K p0 len : 0 < rho -> 0 < K -> 0 < len -> let c := sqrt (K / rho) in
  wave_u n c K p0 len len 0 = p0 * len / K * (1 - 8 / (PI * PI) * sum_to (n - 1) (fun k => 1 / wave_w k)).
Proof.
  intros h1 h2 h3 c. unfold wave_u. pose proof PI_RGT_0.
  rewrite (sum_to_ext _ _ (fun k => - 1 * (1 / wave_w k))).
  - rewrite <- sum_to_scal. field. split; lra.
  - intros k hk. rewrite sin_odd_half by (try assumption; lia). rewrite Rmult_0_r, cos_0. unfold sgn.
    destruct (Nat.even k); unfold Rdiv; ring.
Qed.

(** ** the vehicle *)

Lemma vehicle_solve k11 k12 k21 k22 f1 f2 : k11 * k22 - k12 * k21 <> 0 ->
  k11 * ((k22 * f1 - k12 * f2) / (k11 * k22 - k12 * k21)) + k12 * ((k11 * f2 - k21 * f1) / (k11 * k22 - k12 * k21)) = f1 /\
  k21 * ((k22 * f1 - k12 * f2) / (k11 * k22 - k12 * k21)) + k22 * ((k11 * f2 - k21 * f1) / (k11 * k22 - k12 * k21)) = f2.
Proof. intros h. split; field; exact h. Qed.

Definition step_shape (h : vehicle R) (t : R) : R := sin (PI * vh_speed h * t / vh_len h).
Definition first_frequency (h : vehicle R) : R := beam_frequency (vh_EI h) (vh_mass h) (vh_len h) 1.

Definition step_relation (h : vehicle R) (dt : R) (s s' : vstate R) (t : R) : Prop :=
  let sh := step_shape h t in
  let '(q, y) := v_disp s in let '(q1, y1) := v_vel s in let '(q2, y2) := v_acc s in
  let '(q', y') := v_disp s' in let '(q1', y1') := v_vel s' in let '(q2', y2') := v_acc s' in
  average_acceleration dt q q1 q2 q' q1' q2' /\ average_acceleration dt y y1 y2 y' y1' y2' /\
  sprung_mass (vh_mv h) (suspension (vh_k h) (vh_c h) sh y' y1' q' q1') y2' /\
  beam_mode_equation (vh_mass h * vh_len h / 2) (first_frequency h) (vh_mv h) (vh_mw h) (981 / 100) sh (suspension (vh_k h) 0 sh y' y1' q' q1') q' q2'.

Lemma vehicle_step_ok h dt s t s' : dt <> 0 -> vehicle_step h dt s t = Ok s' -> step_relation h dt s s' t.
Proof.
  intros hdt. unfold vehicle_step, step_relation. destruct s as [[r0 r1] [v0 v1] [c0 c1]]. cbn [v_disp v_vel v_acc]. cbv zeta.
  change (nsin (ndiv (nmul (nmul npi (vh_speed h)) t) (vh_len h))) with (step_shape h t). set (sh := step_shape h t).
  fold (first_frequency h). set (w := first_frequency h).
  assert (ea : vehicle_constants dt = mkConst (4 / (dt * dt)) (4 / dt) 1 (2 / dt) (-1) 0).
  { unfold vehicle_constants, pow2. rnum. f_equal; field; try exact hdt. }
  rewrite ea. cbn [q1 q2 q3 q4 q5 q6]. unfold pow2. rewrite ndec_R. rnum. change (IZR (10 ^ 2)) with 100.
  match goal with |- context [neqb (?a * ?b - ?c * ?d) _] => set (k11 := a); set (k22 := b); set (k21 := d); set (k12 := c) end.
  match goal with |- context [neqb ?d ?z] => destruct (neqbP d z) as [e|hd]; [discriminate|] end.
  match goal with |- Ok (mkV ((k22 * ?a - k12 * ?b) / _, _) _ _) = _ -> _ => set (f1 := a); set (f2 := b) end.
  destruct (vehicle_solve k11 k12 k21 k22 f1 f2 hd) as [E1 E2].
  set (d0 := (k22 * f1 - k12 * f2) / (k11 * k22 - k12 * k21)) in *. set (d1 := (k11 * f2 - k21 * f1) / (k11 * k22 - k12 * k21)) in *. clearbody d0 d1.
  intros e. injection e as <-. cbn [v_disp v_vel v_acc]. split; [|split; [|split]].
  - split; field; exact hdt.
  - split; field; exact hdt.
  - unfold sprung_mass, suspension. apply Rminus_diag_eq in E2. transitivity (k21 * d0 + k22 * d1 - f2); [unfold k21, k22, f2; ring|exact E2].
  - unfold beam_mode_equation, suspension. apply Rminus_diag_uniq. apply Rminus_diag_eq in E1. transitivity (k11 * d0 + k12 * d1 - f1); [unfold k11, k12, f1; ring|exact E1].
Qed.

Lemma vehicle_step_total h dt s t : 0 < dt -> 0 < vh_mv h -> 0 <= vh_mw h -> 0 <= vh_k h -> 0 <= vh_c h -> 0 < vh_mass h -> 0 < vh_len h ->
  exists s', vehicle_step h dt s t = Ok s'.
Proof.
  intros hdt h1 h2 h3 h4 h5 h6. unfold vehicle_step. destruct s as [[r0 r1] [v0 v1] [c0 c1]]. cbn [v_disp v_vel v_acc]. cbv zeta.
  change (nsin (ndiv (nmul (nmul npi (vh_speed h)) t) (vh_len h))) with (step_shape h t). set (sh := step_shape h t).
  fold (first_frequency h). set (w := first_frequency h).
  assert (ea : vehicle_constants dt = mkConst (4 / (dt * dt)) (4 / dt) 1 (2 / dt) (-1) 0).
  { unfold vehicle_constants, pow2. rnum. f_equal; field; lra. }
  rewrite ea. cbn [q1 q2 q3 q4 q5 q6]. unfold pow2. rnum.
  match goal with |- context [neqb ?d ?z] => destruct (neqbP d z) as [e|hd]; [exfalso|eexists; reflexivity] end.
  assert (k1 : 0 < 4 / (dt * dt)) by (apply Rdiv_lt_0_compat; nra). assert (k2 : 0 < 2 / dt) by (apply Rdiv_lt_0_compat; lra).
  assert (k3 : 0 < vh_mass h * vh_len h / 2) by (apply Rdiv_lt_0_compat; nra).
  revert e. set (M := vh_mass h * vh_len h / 2) in *. set (a1 := 4 / (dt * dt)) in *. set (a4 := 2 / dt) in *. intros e.
  assert (k4 : 0 <= sh * sh) by (apply Rle_0_sqr). assert (k5 : 0 <= w * w) by (apply Rle_0_sqr).
  assert (g1 : 0 < a1 * (M + vh_mw h * (sh * sh)) + M * (w * w)).
  { assert (0 <= vh_mw h * (sh * sh)) by (apply Rmult_le_pos; assumption). assert (0 <= M * (w * w)) by (apply Rmult_le_pos; lra). assert (0 < a1 * (M + vh_mw h * (sh * sh))) by (apply Rmult_lt_0_compat; lra). lra. }
  assert (g2 : 0 < a1 * vh_mv h) by (apply Rmult_lt_0_compat; assumption).
  assert (g3 : 0 <= vh_c h * a4) by (apply Rmult_le_pos; lra).
  set (P := a1 * (M + vh_mw h * (sh * sh)) + M * (w * w)) in *. set (Q := a1 * vh_mv h) in *. set (c4 := vh_c h * a4) in *.
  assert (e' : P * (Q + vh_k h + c4) + vh_k h * (sh * sh) * Q = 0) by (rewrite <- e; ring).
  assert (0 < P * (Q + vh_k h + c4)) by (apply Rmult_lt_0_compat; lra). assert (0 <= vh_k h * (sh * sh) * Q) by (apply Rmult_le_pos; [apply Rmult_le_pos; assumption|lra]). lra.
Qed.

Lemma vehicle_run_ok h dt : dt <> 0 -> forall times s states, vehicle_run h dt s times = Ok states ->
  length states = length times /\
  forall i, (i < length times)%nat -> step_relation h dt (nth i (s :: states) s) (nth i states s) (nth i times 0).
Proof.
  intros hdt. induction times as [|t times IH]; intros s states hr.
  - cbn in hr. injection hr as <-. split; [reflexivity|]. intros i hi. cbn in hi. lia.
  - cbn [vehicle_run] in hr. apply rbind_ok in hr. destruct hr as [s' [hs hr]]. apply rbind_ok in hr. destruct hr as [q [hq hr]]. injection hr as <-.
    destruct (IH _ _ hq) as [hl hi]. split; [cbn; lia|]. intros [|i] hi'.
    + cbn [nth]. apply vehicle_step_ok; assumption.
    + cbn in hi'. specialize (hi i ltac:(lia)). change (step_relation h dt (nth i (s' :: q) s) (nth i q s) (nth i times 0)).
      rewrite (nth_indep (s' :: q) s s') by (cbn; lia). rewrite (nth_indep q s s') by lia. exact hi.
Qed.
Lemma vehicle_run_total h dt times : 0 < dt -> 0 < vh_mv h -> 0 <= vh_mw h -> 0 <= vh_k h -> 0 <= vh_c h -> 0 < vh_mass h -> 0 < vh_len h ->
  forall s, exists q, vehicle_run h dt s times = Ok q.
Proof.
  intros h0 h1 h2 h3 h4 h5 h6. induction times as [|t times IH]; intros s; [eexists; reflexivity|]. cbn [vehicle_run].
  destruct (vehicle_step_total h dt s t h0 h1 h2 h3 h4 h5 h6) as [s' ->]. cbn [rbind]. destruct (IH s') as [q ->]. eexists. reflexivity.
Qed.
