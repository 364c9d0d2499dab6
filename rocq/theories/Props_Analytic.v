(** * C96 and C98 to C101: the reference solutions for beams *)

From Coq Require Import Reals List Bool ZArith Arith Lia Lra Psatz.
From Coquelicot Require Import Coquelicot.
From Verif Require Import Num PyBase Model_Element Model_Accumulation Spec_Accumulation Proofs_Accumulation Model_Misc Model_Analytic Spec_Analytic Proofs_Analytic Proofs_Reference.
Import ListNotations.
Local Open Scope R_scope.

Lemma points_equal size len N : 0 < size -> 0 < len -> intervals size len N -> equal_points size len (linspace_nat 0 len (S N)).
Proof.
  intros h1 h2 h. exists N. pose proof (intervals_pos size len N h1 h2 h). split; [exact h|]. split; [apply ls_length|]. intros i hi. apply points_nth; assumption.
Qed.

(** ** C96 *)

(** the deflections are those of the beam on two supports under the force, at points that divide the beam evenly; the conditions determine them *)
Theorem C96_static size E I len force a : 0 < size -> 0 < E * I -> 0 < len -> 0 <= a <= len ->
  exists x u, static_beam size E I len force a = Ok (x, u) /\ equal_points size len x /\ length u = length x /\
    (exists w, supported_static (E * I) len a force w) /\
    forall w, supported_static (E * I) len a force w -> forall i, (i < length x)%nat -> nth i u 0 = w (nth i x 0).
Proof.
  intros h1 h2 h3 h4. destruct (beam_points_ok size len h1 h3) as [N [hN hp]]. unfold static_beam. rewrite hp. cbn [rbind].
  eexists _, _. split; [reflexivity|]. split; [apply points_equal; assumption|]. split; [apply map_length|].
  pose proof (static_solves (E * I) len force a h2 h3 h4) as hs. split; [eexists; exact hs|].
  intros w hw i hi. pose proof (intervals_pos size len N h1 h3 hN). rewrite ls_length in hi.
  rewrite (nth_indep _ 0 (static_deflection (nmul E I) len force a 0)) by (rewrite map_length, ls_length; exact hi). rewrite map_nth.
  apply (supported_unique (E * I) len force a _ _ h2 h3 h4 hs hw).
  rewrite points_nth by lia. assert (hI : 0 < INR N) by (apply lt_0_INR; lia). assert (INR i <= INR N) by (apply le_INR; lia). pose proof (pos_INR i).
  assert (hq : 0 <= INR i / INR N <= 1). { split; [apply Rmult_le_pos; [assumption|left; apply Rinv_0_lt_compat; exact hI]|]. apply (Rmult_le_reg_r (INR N)); [exact hI|]. unfold Rdiv. rewrite Rmult_assoc, Rinv_l; lra. }
  replace (INR i * len / INR N) with (INR i / INR N * len) by (field; lra). nra.
Qed.
Print Assumptions C96_static.
Example C96_static_example : 0 < 1/2 /\ 0 < 3 * 2 /\ 0 < 4 /\ 0 <= 1 <= 4.
Proof. lra. Qed.

(** a force at one point deflects a second point as much as the same force at the second point deflects the first *)
Theorem C96_reciprocal size E I len force i j : 0 < size -> 0 < E * I -> 0 < len ->
  exists x, (forall a, exists u, static_beam size E I len force a = Ok (x, u)) /\
    ((i < length x)%nat -> (j < length x)%nat -> forall u v,
      static_beam size E I len force (nth i x 0) = Ok (x, u) -> static_beam size E I len force (nth j x 0) = Ok (x, v) -> nth j u 0 = nth i v 0).
Proof.
  intros h1 h2 h3. destruct (beam_points_ok size len h1 h3) as [N [hN hp]]. unfold static_beam. rewrite hp. cbn [rbind].
  exists (linspace_nat 0 len (S N)). split; [intros a; eexists; reflexivity|]. intros hi hj u v hu hv.
  assert (hinj : forall (A B : Type) (a : A) (b c : B), Ok (a, b) = Ok (a, c) -> c = b) by congruence. apply hinj in hu, hv. subst u v.
  set (x := linspace_nat 0 len (S N)) in *.
  rewrite (nth_indep _ 0 (static_deflection (nmul E I) len force (nth i x 0) 0)) by (rewrite map_length; exact hj).
  rewrite (nth_indep (map _ x) 0 (static_deflection (nmul E I) len force (nth j x 0) 0)) by (rewrite map_length; exact hi). rewrite !map_nth.
  assert (hr : forall k, (k < length x)%nat -> 0 <= nth k x 0 <= len).
  { intros k hk. unfold x in *. rewrite ls_length in hk. pose proof (intervals_pos size len N h1 h3 hN). rewrite points_nth by lia.
    assert (hI : 0 < INR N) by (apply lt_0_INR; lia). assert (INR k <= INR N) by (apply le_INR; lia). pose proof (pos_INR k).
    assert (hq : 0 <= INR k / INR N <= 1). { split; [apply Rmult_le_pos; [assumption|left; apply Rinv_0_lt_compat; exact hI]|]. apply (Rmult_le_reg_r (INR N)); [exact hI|]. unfold Rdiv. rewrite Rmult_assoc, Rinv_l; lra. }
    replace (INR k * len / INR N) with (INR k / INR N * len) by (field; lra). nra. }
  pose proof (hr i hi) as ri. pose proof (hr j hj) as rj. revert ri rj. generalize (nth i x 0), (nth j x 0). intros a b ri rj.
  change (nmul E I) with (E * I). clear hp. revert h2. generalize (E * I). intros EI h2. destruct (Rle_dec a b) as [h|h].
  - destruct (static_value EI len force a b h2 h3) as [_ e1]. destruct (static_value EI len force b a h2 h3) as [e2 _].
    rewrite e1, e2 by lra. unfold static_left, static_right. field. lra.
  - destruct (static_value EI len force a b h2 h3) as [e1 _]. destruct (static_value EI len force b a h2 h3) as [_ e2].
    rewrite e1, e2 by lra. unfold static_left, static_right. field. lra.
Qed.
Print Assumptions C96_reciprocal.

(** refuted: a force beyond the end of the beam is not refused; the support at the end is then reported to move *)
Theorem C96_outside_refuted : forall size E I len force a, 0 < size -> 0 < E * I -> 0 < len -> len < a -> force <> 0 ->
  exists x u, static_beam size E I len force a = Ok (x, u) /\ nth (length x - 1) x 0 = len /\ nth (length x - 1) u 0 <> 0.
Proof.
  intros size E I len force a h1 h2 h3 h4 h5. destruct (beam_points_ok size len h1 h3) as [N [hN hp]]. unfold static_beam. rewrite hp. cbn [rbind].
  eexists _, _. split; [reflexivity|]. pose proof (intervals_pos size len N h1 h3 hN) as hN1. rewrite ls_length. replace (S N - 1)%nat with N by lia.
  assert (hI : 0 < INR N) by (apply lt_0_INR; lia).
  assert (e : nth N (linspace_nat 0 len (S N)) 0 = len) by (rewrite points_nth by lia; field; lra). split; [exact e|].
  rewrite (nth_indep _ 0 (static_deflection (nmul E I) len force a 0)) by (rewrite map_length, ls_length; lia). rewrite map_nth, e.
  destruct (static_value (E * I) len force a len h2 h3) as [e1 _]. change (nmul E I) with (E * I). rewrite e1 by lra. clear e1 e hp. revert h2. generalize (E * I). intros EI h2. unfold static_left.
  replace (force * (len - a) * len / (6 * len * EI) * (len * len - (len - a) * (len - a) - len * len)) with (force * ((a - len) ^ 3 / (6 * EI))) by (field; lra).
  apply Rmult_integral_contrapositive. split; [exact h5|]. apply Rgt_not_eq. apply Rdiv_lt_0_compat; [apply pow_lt; lra|lra].
Qed.
Print Assumptions C96_outside_refuted.

(** ** C98 *)

(** without damping the displacements are those of a motion of the beam: it starts at rest, keeps its ends on the supports and obeys the equation of
    motion under the first [n - 1] terms of the sine series of the force at the middle point of the list of points *)
Theorem C98_undamped n size E I rho A len force time : 0 < size -> 0 < E * I -> 0 < rho * A -> 0 < len ->
  exists x u, undamped_beam n size E I rho A len force time = Ok (x, u) /\ equal_points size len x /\ length u = length x /\
    exists w v w1 w2 w3,
      beam_motion (rho * A) (E * I) 0 0 (fun y _ => point_load (n - 1) len force (middle_point x) y) w v w1 w2 w3 /\
      starts_at_rest w v /\ simply_supported len w w2 /\
      forall i j, (i < length x)%nat -> (j < length time)%nat -> nth j (nth i u []) 0 = w (nth i x 0) (nth j time 0).
Proof.
  intros h1 h2 h3 h4. destruct (undamped_beam_ok n size E I rho A len force time h1 h2 h3 h4) as [N [hN e]]. cbv zeta in e.
  eexists _, _. split; [exact e|]. split; [apply points_equal; assumption|]. split; [apply map_length|].
  destruct (undamped_motion (n - 1) (E * I) (rho * A) len force (load_point (linspace_nat 0 len (S N))) h2 h3 h4) as [v [w1 [w2 [w3 [k1 [k2 k3]]]]]].
  eexists _, v, w1, w2, w3. split; [exact k1|]. split; [exact k2|]. split; [exact k3|]. intros i j hi hj. apply table_nth; assumption.
Qed.
Print Assumptions C98_undamped.
Example C98_undamped_example : 0 < 1/10 /\ 0 < 210 * (1/100) /\ 0 < 78 * (1/10) /\ 0 < 10.
Proof. lra. Qed.

(** the force stands at mid-span exactly when the number of intervals is even; otherwise it stands half an interval before *)
Theorem C98_middle size len x n : 0 < size -> 0 < len -> equal_points size len x -> length x = S n ->
  middle_point x = if Nat.even n then len / 2 else len / 2 - len / INR n / 2.
Proof.
  intros h1 h2 [m [hm [hl hx]]] e. assert (m = n) by lia. subst m. pose proof (intervals_pos size len n h1 h2 hm) as hn.
  assert (hI : 0 < INR n) by (apply lt_0_INR; lia). unfold middle_point. rewrite hl. replace (S n - 1)%nat with n by lia.
  rewrite hx by (apply Nat.div_le_upper_bound; lia). destruct (Nat.even n) eqn:ev.
  - apply Nat.even_spec in ev. destruct ev as [k ->]. replace (2 * k)%nat with (k * 2)%nat by lia. rewrite Nat.div_mul by lia. rewrite mult_INR in *. cbn [INR] in *. field; repeat split; lra.
  - assert (od : Nat.odd n = true) by (rewrite <- Nat.negb_even, ev; reflexivity). apply Nat.odd_spec in od. destruct od as [k ->].
    replace (2 * k + 1)%nat with (1 + k * 2)%nat by lia. rewrite Nat.div_add by lia. change (1 / 2)%nat with 0%nat. rewrite Nat.add_0_l.
    rewrite plus_INR, mult_INR in *. cbn [INR] in *. field. lra.
Qed.
Print Assumptions C98_middle.

(** refuted: that the beam moves under a force "in the middle" whatever the element size: with one element the force is taken at a support *)
Theorem C98_middle_refuted : forall n E I rho A len force time, 0 < E * I -> 0 < rho * A -> 0 < len ->
  exists x u, undamped_beam n len E I rho A len force time = Ok (x, u) /\ forall i j, nth j (nth i u []) 0 = 0.
Proof.
  intros n E I rho A len force time h2 h3 h4. destruct (undamped_beam_ok n len E I rho A len force time h4 h2 h3 h4) as [N [hN e]]. cbv zeta in e.
  eexists _, _. split; [exact e|]. assert (hN1 : N = 1%nat).
  { pose proof (intervals_pos len len N h4 h4 hN). destruct hN as [k1 k2]. replace (len / len) with 1 in * by (field; lra). destruct N as [|[|N]]; [lia|reflexivity|].
    rewrite !S_INR in k1. pose proof (pos_INR N). lra. }
  subst N. intros i j. set (x := linspace_nat 0 len 2).
  assert (z : forall p t, sines (n - 1) len (undamped_g (E * I) (rho * A) len force (load_point x)) p t = 0).
  { intros p t. unfold sines. apply sum_to_zero. intros k hk. unfold undamped_g, undamped_amp, load_point, x. cbn [linspace_nat length Nat.sub Nat.div Nat.divmod fst nth seq map app].
    rewrite nofnat_R. rnum. replace (INR 0 * ((len - 0) / nofnat 1) + 0) with 0 by (cbn [INR]; ring). rewrite Rmult_0_r, sin_0. ring. }
  destruct (le_lt_dec (length x) i) as [hi|hi].
  - rewrite (nth_overflow (map _ x) []) by (rewrite map_length; exact hi). destruct j; reflexivity.
  - rewrite (nth_indep _ [] ((fun p => map (sines (n - 1) len (undamped_g (E * I) (rho * A) len force (load_point x)) p) time) 0)) by (rewrite map_length; exact hi).
    rewrite (map_nth (fun p => map (sines (n - 1) len (undamped_g (E * I) (rho * A) len force (load_point x)) p) time)).
    destruct (le_lt_dec (length time) j) as [hj|hj]; [apply nth_overflow; rewrite map_length; exact hj|].
    rewrite (nth_indep _ 0 (sines (n - 1) len (undamped_g (E * I) (rho * A) len force (load_point x)) (nth i x 0) 0)) by (rewrite map_length; exact hj). rewrite map_nth. apply z.
Qed.
Print Assumptions C98_middle_refuted.

(** refuted: that [n] is the number of modes: with one mode nothing moves, the last mode is left out *)
Theorem C98_modes_refuted : forall size E I rho A len force time, 0 < size -> 0 < E * I -> 0 < rho * A -> 0 < len ->
  exists x u, undamped_beam 1 size E I rho A len force time = Ok (x, u) /\ forall i j, nth j (nth i u []) 0 = 0.
Proof.
  intros size E I rho A len force time h1 h2 h3 h4. destruct (undamped_beam_ok 1 size E I rho A len force time h1 h2 h3 h4) as [N [hN e]]. cbv zeta in e.
  eexists _, _. split; [exact e|]. intros i j. set (x := linspace_nat 0 len (S N)). unfold sines. cbn [Nat.sub sum_to].
  assert (g : forall (xs : list R) i, nth i (map (fun _ => map (fun _ : R => 0) time) xs) [] = map (fun _ => 0) time \/ nth i (map (fun _ : R => map (fun _ : R => 0) time) xs) [] = []).
  { induction xs as [|y xs IH]; intros [|k]; cbn; auto. }
  destruct (g x i) as [-> | ->]; [|destruct j; reflexivity]. clear. revert j. induction time as [|t l IH]; intros [|j]; cbn; auto.
Qed.
Print Assumptions C98_modes_refuted.
Example C98_refuted_example : 0 < 2 * 3 /\ 0 < 5 * 1 /\ 0 < 7.
Proof. lra. Qed.

(** ** C99 *)

Lemma ratio_is EI m len c0 c1 k : 0 < EI -> 0 < m -> 0 < len -> ratio_of EI m len c0 c1 k = damping_ratio c0 c1 (natural_frequency EI m len k).
Proof. intros h1 h2 h3. unfold ratio_of, damping_ratio, natural_frequency. rewrite frequency_value by assumption. reflexivity. Qed.

(** with damping: the same for the equation of motion with damping by mass and by stiffness, as long as every mode is damped less than critically *)
Theorem C99_damped n size E I rho A len force c0 c1 time : 0 < size -> 0 < E * I -> 0 < rho * A -> 0 < len ->
  (forall k, (1 <= k < n)%nat -> -1 < damping_ratio c0 c1 (natural_frequency (E * I) (rho * A) len k) < 1) ->
  exists x u, damped_beam n size E I rho A len force c0 c1 time = Ok (x, u) /\ equal_points size len x /\ length u = length x /\
    exists w v w1 w2 w3,
      beam_motion (rho * A) (E * I) c0 c1 (fun y _ => point_load (n - 1) len force (middle_point x) y) w v w1 w2 w3 /\
      starts_at_rest w v /\ simply_supported len w w2 /\
      forall i j, (i < length x)%nat -> (j < length time)%nat -> nth j (nth i u []) None = Some (w (nth i x 0) (nth j time 0)).
Proof.
  intros h1 h2 h3 h4 hr. destruct (beam_points_ok size len h1 h4) as [N [hN hp]]. set (x := linspace_nat 0 len (S N)) in *.
  assert (hr' : forall k, (1 <= k < n)%nat -> -1 < ratio_of (E * I) (rho * A) len c0 c1 k < 1) by (intros k hk; rewrite ratio_is by assumption; apply hr; exact hk).
  pose proof (damped_beam_eq n size E I rho A len force c0 c1 time (fun p t => Some (sines (n - 1) len (damped_g (E * I) (rho * A) len force (load_point x) c0 c1) p t)) h1 h4 N hp) as e.
  specialize (e ltac:(intros p t; apply damped_at_ok; assumption)). fold x in e.
  eexists _, _. split; [exact e|]. split; [apply points_equal; assumption|]. split; [apply map_length|].
  destruct (damped_motion (n - 1) (E * I) (rho * A) len force (load_point x) c0 c1 h2 h3 h4) as [v [w1 [w2 [w3 [k1 [k2 k3]]]]]]; [intros k hk; apply hr'; lia|].
  eexists _, v, w1, w2, w3. split; [exact k1|]. split; [exact k2|]. split; [exact k3|]. intros i j hi hj.
  exact (table_nth (fun p t => Some (sines (n - 1) len (damped_g (E * I) (rho * A) len force (load_point x) c0 c1) p t)) None x time i j hi hj).
Qed.
Print Assumptions C99_damped.
Example C99_damped_example : forall k n, (1 <= k < n)%nat -> -1 < damping_ratio 1 0 (natural_frequency 1 1 PI k) < 1.
Proof.
  intros k n hk. assert (hk1 : 1 <= INR k) by (change 1 with (INR 1); apply le_INR; lia). pose proof PI_RGT_0.
  unfold damping_ratio, natural_frequency. replace (INR k * PI / PI) with (INR k) by (field; lra). replace (1 / 1) with 1 by field. rewrite sqrt_1, Rmult_1_r.
  replace (0 * INR k ^ 2 / 2) with 0 by field. rewrite Rplus_0_r. assert (h2 : 1 <= INR k ^ 2) by nra.
  assert (0 < 1 / (2 * INR k ^ 2)) by (apply Rdiv_lt_0_compat; lra). split; [lra|]. apply (Rmult_lt_reg_r (2 * INR k ^ 2)); [lra|]. unfold Rdiv. rewrite Rmult_assoc, Rinv_l; lra.
Qed.

(** one mode that is damped critically or more, and no number at all is reported *)
Theorem C99_overdamped n size E I rho A len force c0 c1 time k : 0 < size -> 0 < E * I -> 0 < rho * A -> 0 < len -> (1 <= k < n)%nat ->
  ~ (-1 < damping_ratio c0 c1 (natural_frequency (E * I) (rho * A) len k) < 1) ->
  exists x u, damped_beam n size E I rho A len force c0 c1 time = Ok (x, u) /\ length u = length x /\
    forall i j, (i < length x)%nat -> (j < length time)%nat -> nth_error (nth i u []) j = Some None.
Proof.
  intros h1 h2 h3 h4 hk hr. destruct (beam_points_ok size len h1 h4) as [N [hN hp]]. set (x := linspace_nat 0 len (S N)) in *.
  rewrite <- ratio_is in hr by assumption.
  pose proof (damped_beam_eq n size E I rho A len force c0 c1 time (fun p t => None) h1 h4 N hp) as e.
  specialize (e ltac:(intros p t; apply (damped_at_none n (E * I) (rho * A) len force c0 c1 N p t k); assumption)). fold x in e.
  eexists _, _. split; [exact e|]. split; [apply map_length|]. intros i j hi hj.
  pose proof (table_row (fun _ _ => @None R) x time i hi) as er. cbv beta in er. rewrite er. rewrite nth_error_map. rewrite (nth_error_nth' time 0 hj). reflexivity.
Qed.
Print Assumptions C99_overdamped.

(** refuted: that more modes give a better solution.  With damping by stiffness, from some number of modes on no number is reported *)
Theorem C99_many_modes_refuted : forall size E I rho A len force c0 c1 time, 0 < size -> 0 < E * I -> 0 < rho * A -> 0 < len -> 0 <= c0 -> 0 < c1 ->
  exists n0, forall n, (n0 <= n)%nat ->
    exists x u, damped_beam n size E I rho A len force c0 c1 time = Ok (x, u) /\ length u = length x /\
      forall i j, (i < length x)%nat -> (j < length time)%nat -> nth_error (nth i u []) j = Some None.
Proof.
  intros size E I rho A len force c0 c1 time h1 h2 h3 h4 hc0 hc1.
  set (q := (PI / len) ^ 2 * sqrt (E * I / (rho * A))). assert (hq : 0 < q).
  { apply Rmult_lt_0_compat; [apply pow_lt; apply Rdiv_lt_0_compat; [apply PI_RGT_0|exact h4]|apply sqrt_lt_R0; apply Rdiv_lt_0_compat; assumption]. }
  assert (hex : exists k, 2 / (c1 * q) < INR k).
  { destruct (archimed (2 / (c1 * q))) as [hup _]. assert (h0 : 0 < 2 / (c1 * q)) by (apply Rdiv_lt_0_compat; [lra|apply Rmult_lt_0_compat; assumption]).
    exists (Z.to_nat (up (2 / (c1 * q)))). rewrite INR_IZR_INZ, Z2Nat.id; [lra|]. apply le_IZR. lra. }
  destruct hex as [k hk]. exists (S (S k)). intros n hn.
  apply (C99_overdamped n size E I rho A len force c0 c1 time (S k)); try assumption; [lia|]. intros [_ hr]. revert hr. apply Rle_not_lt.
  assert (hS : 1 <= INR (S k)) by (rewrite S_INR; pose proof (pos_INR k); lra).
  assert (hw : natural_frequency (E * I) (rho * A) len (S k) = INR (S k) ^ 2 * q) by (unfold natural_frequency, q; field; lra).
  unfold damping_ratio. rewrite hw. assert (hp : 0 < INR (S k) ^ 2 * q) by (apply Rmult_lt_0_compat; [apply pow_lt; lra|exact hq]).
  assert (g1 : 0 <= c0 / (2 * (INR (S k) ^ 2 * q))) by (apply Rmult_le_pos; [exact hc0|left; apply Rinv_0_lt_compat; lra]).
  assert (g2 : 2 < INR (S k) * (c1 * q)).
  { assert (hcq : 0 < c1 * q) by (apply Rmult_lt_0_compat; assumption). apply (Rmult_lt_compat_r (c1 * q)) in hk; [|exact hcq].
    replace (2 / (c1 * q) * (c1 * q)) with 2 in hk by (field; split; lra). rewrite S_INR. lra. }
  assert (g3 : INR (S k) * (c1 * q) <= INR (S k) ^ 2 * (c1 * q)) by (apply Rmult_le_compat_r; [left; apply Rmult_lt_0_compat; assumption|nra]).
  lra.
Qed.
Print Assumptions C99_many_modes_refuted.
Example C99_refuted_example : 0 < 1/10 /\ 0 < 2 * 3 /\ 0 < 5 * 1 /\ 0 < 7 /\ 0 <= 0 /\ 0 < 1/1000.
Proof. lra. Qed.

(** ** C100 *)

(** the deflection of a simply supported beam (without shear) under the load [q] *)
Definition bends_under (EI len : R) (q s : R -> R) : Prop :=
  exists s1 s2 s3 s4, derivative s s1 /\ derivative s1 s2 /\ derivative s2 s3 /\ derivative s3 s4 /\ (forall x, EI * s4 x = q x) /\
    s 0 = 0 /\ s2 0 = 0 /\ s len = 0 /\ s2 len = 0.

Lemma sine_bends EI len c k : 0 < EI -> 0 < len -> (1 <= k)%nat ->
  bends_under EI len (fun x => c * sin (wave_number len k * x)) (fun x => c / (EI * wave_number len k ^ 4) * sin (wave_number len k * x)).
Proof.
  intros h1 h2 hk. pose proof (wave_number_pos len k h2 hk) as ha. pose proof (wave_number_end len k h2) as he. set (a := wave_number len k) in *. set (d := c / (EI * a ^ 4)).
  exists (fun x => d * (a * cos (a * x))), (fun x => d * (- a * a * sin (a * x))), (fun x => d * (- a * a * a * cos (a * x))), (fun x => d * (a * a * a * a * sin (a * x))).
  do 4 (split; [intros x; apply is_derive_Reals; auto_derive; [exact Logic.I|]; ring|]). split.
  - intros x. unfold d. field. lra.
  - rewrite !Rmult_0_r, sin_0, he, sin_multiple. repeat split; ring.
Qed.

(** with shear deformation: displacement and velocity belong to one motion that starts at rest with its ends on the supports.  It is a sum of modes; each
    swings, about [1 + phi] times the deflection of the beam without shear under its share of the force, with a natural frequency of the beam with shear, provided
    the roots the solver returned are exact *)
Theorem C100_shear n omega size E G kk I rho A len force time : 0 < size -> 0 < E -> 0 < I -> 0 < rho -> 0 < A -> 0 < kk * G -> 0 < len ->
  (forall k, (1 <= k < n)%nat -> find_omega E G kk (sqrt (I / A)) len (omega k) k = 0) ->
  exists x u, shear_beam n omega size E G kk I rho A len force time = Ok (x, u) /\ equal_points size len x /\ length u = length x /\
    exists w v s freq, in_time w v /\ starts_at_rest w v /\ (forall t, w 0 t = 0 /\ w len t = 0) /\
      (forall y t, w y t = sum_to (n - 1) (fun k => (1 + 12 * (E * I) / (len ^ 2 * (kk * G * A))) * s k y * (1 - cos (freq k * t)))) /\
      (forall k, (1 <= k < n)%nat ->
        bends_under (E * I) len (fun y => 2 * force / len * sin (INR k * PI / len * middle_point x) * sin (INR k * PI / len * y)) (s k) /\
        exists b, shear_beam_motion rho A E I (kk * G) (fun y t => sin (INR k * PI / len * y) * cos (freq k * t)) (fun y t => b * cos (INR k * PI / len * y) * cos (freq k * t))) /\
      forall i j, (i < length x)%nat -> (j < length time)%nat ->
        nth j (nth i u []) (0, 0) = (w (nth i x 0) (nth j time 0), v (nth i x 0) (nth j time 0)).
Proof.
  intros h1 hE hI hrho hA hG h4 hroot. assert (h2 : 0 < E * I) by (apply Rmult_lt_0_compat; assumption). assert (h3 : 0 < rho * A) by (apply Rmult_lt_0_compat; assumption).
  destruct (shear_beam_ok n omega size E G kk I rho A len force time h1 h2 h3 h4) as [N [hN e]]. cbv zeta in e.
  set (x := linspace_nat 0 len (S N)) in *. set (phi := shear_phi E G kk I A len) in *.
  assert (hphi : 12 * (E * I) / (len ^ 2 * (kk * G * A)) = phi).
  { unfold phi, shear_phi, pow2. rnum. assert (kk <> 0 /\ G <> 0) by (split; intros z; rewrite z in hG; lra). field. repeat split; try lra; tauto. }
  eexists _, _. split; [exact e|]. split; [apply points_equal; assumption|]. split; [apply map_length|].
  exists (sines (n - 1) len (shear_g omega (E * I) (rho * A) len phi force (load_point x))), (sines (n - 1) len (shear_g1 omega (E * I) (rho * A) len phi force (load_point x))),
    (fun k y => 2 * force / len * sin (wave_number len k * load_point x) / (E * I * wave_number len k ^ 4) * sin (wave_number len k * y)),
    (fun k => omega k * beam_frequency (E * I) (rho * A) len k).
  split; [|split; [|split; [|split; [|split]]]].
  - apply sines_in_time. intros k t. unfold shear_g, shear_g1. apply osc_deriv.
  - intros y. unfold sines, shear_g, shear_g1. split; apply sum_to_zero; intros k hk; rewrite Rmult_0_r, ?cos_0, ?sin_0; ring.
  - intros t. unfold sines. split; apply sum_to_zero; intros k hk; rewrite ?Rmult_0_r, ?sin_0, ?wave_number_end, ?sin_multiple by assumption; ring.
  - intros y t. rewrite hphi. unfold sines. apply sum_to_ext. intros k hk. unfold shear_g, undamped_amp. pose proof (wave_number_pos len k h4 ltac:(lia)). field. repeat split; lra.
  - intros k hk. split; [apply sine_bends; try assumption; lia|]. apply (shear_vibrates rho A E I G kk len (omega k) k); try assumption; [lia|]. apply hroot. exact hk.
  - intros i j hi hj. exact (table_nth (fun p t => (sines (n - 1) len (shear_g omega (E * I) (rho * A) len phi force (load_point x)) p t, sines (n - 1) len (shear_g1 omega (E * I) (rho * A) len phi force (load_point x)) p t)) (0, 0) x time i j hi hj).
Qed.
Print Assumptions C100_shear.
Example C100_shear_example : forall k, (1 <= k < 2)%nat -> find_omega 1 1 1 (sqrt (1 / 1)) PI ((sqrt 5 - 1) / 2) k = 0.
Proof.
  intros k hk. assert (k = 1%nat) by lia. subst k. unfold find_omega, pow2, pow4. rewrite nofnat_R. cbn [INR]. rnum. replace (1 / 1) with 1 by field. rewrite sqrt_1.
  change (npi : R) with PI. pose proof PI_RGT_0. replace (1 * PI * 1 / PI) with 1 by (field; lra). assert (h : sqrt 5 * sqrt 5 = 5) by (apply sqrt_sqrt; lra).
  set (s := sqrt 5) in *. replace (1 * 1) with 1 by ring. assert (e : (s - 1) / 2 * ((s - 1) / 2) = (3 - s) / 2) by (transitivity ((s * s - 2 * s + 1) / 4); [field|rewrite h; field]).
  replace ((s - 1) / 2 * ((s - 1) / 2) * ((s - 1) / 2) * ((s - 1) / 2)) with (((s - 1) / 2 * ((s - 1) / 2)) * ((s - 1) / 2 * ((s - 1) / 2))) by ring. rewrite e.
  transitivity ((s * s - 5) / 4); [field|rewrite h; field].
Qed.
