(** * C101 to C104: the reference solutions for the clamped beam, the rod, the beam with a hinge and the vehicle *)

From Coq Require Import Reals List Bool ZArith Arith Lia Lra Psatz.
From Coquelicot Require Import Coquelicot.
From Verif Require Import Num PyBase Model_Element Model_Accumulation Spec_Accumulation Proofs_Accumulation Model_Misc Model_Analytic Spec_Analytic Proofs_Analytic Proofs_Reference Props_Analytic.
Import ListNotations.
Local Open Scope R_scope.

(** ** C101 *)

(** displacements of the clamped beam: a motion that starts at rest, is clamped at one end and free at the other, and obeys the equation of motion under a load
    that is a sum over shapes of such a beam, provided the solver's roots are exact *)
Theorem C101_clamped n steps root size E I rho A len force time : 0 < size -> 0 < E * I -> 0 < rho * A -> 0 < len -> (2 <= steps)%nat ->
  (forall k, (1 <= k < n)%nat -> 0 < root k /\ 1 + cos (root k) * cosh (root k) = 0) ->
  exists x u, clamped_beam n steps root size E I rho A len force time = Ok (x, u) /\ equal_points size len x /\ length u = length x /\
    exists w v w1 w2 w3 f,
      (forall k, (1 <= k < n)%nat -> clamped_shape len (root k / len) (f k) /\ f k len <> 0) /\
      beam_motion (rho * A) (E * I) 0 0 (fun y _ => sum_to (n - 1) (fun k => force * f k len * f k y / trapezoidal (steps - 1) len (fun z => f k z * f k z))) w v w1 w2 w3 /\
      starts_at_rest w v /\ clamped_free len w w1 w2 w3 /\
      forall i j, (i < length x)%nat -> (j < length time)%nat -> fst (nth j (nth i u []) (0, 0)) = w (nth i x 0) (nth j time 0).
Proof.
  intros h1 h2 h3 h4 hs hr. destruct (clamped_beam_ok n steps root size E I rho A len force time h1 h2 h3 h4 hs hr) as [N [hN e]]. cbv zeta in e. set (x := linspace_nat 0 len (S N)) in *.
  eexists _, _. split; [exact e|]. split; [apply points_equal; assumption|]. split; [apply map_length|].
  destruct (clamped_motion n steps root (E * I) (rho * A) len force h2 h3 h4 hs hr) as [w1 [w2 [w3 [k1 [k2 k3]]]]].
  eexists _, _, w1, w2, w3, (root_shape len root). split; [|split; [exact k1|split; [exact k2|split; [exact k3|]]]].
  - intros k hk. destruct (hr k hk) as [hz he]. split; [apply shape_is_clamped; assumption|apply shape_tip; assumption].
  - intros i j hi hj. pose proof (table_nth (fun p t => (clamped_w n steps root (E * I) (rho * A) len force p t, clamped_v n steps root (E * I) (rho * A) len force p t + clamped_mean n steps root (E * I) len force p)) (0, 0) x time i j hi hj) as et.
    cbv beta in et. rewrite et. reflexivity.
Qed.
Print Assumptions C101_clamped.
Example C101_clamped_example : exists z, forall k, (1 <= k < 2)%nat -> 0 < z /\ 1 + cos z * cosh z = 0.
Proof. destruct eigen_exists as [z [[h1 h2] h]]. exists z. intros k _. pose proof PI_RGT_0. split; [lra|exact h]. Qed.

(** refuted: that the reported velocity is the velocity of the displacement: the free end of a beam at rest is reported to move *)
Theorem C101_velocity_refuted : forall n steps root size E I rho A len force, 0 < size -> 0 < E * I -> 0 < rho * A -> 0 < len -> (2 <= steps)%nat -> (2 <= n)%nat -> 0 < force ->
  (forall k, (1 <= k < n)%nat -> 0 < root k /\ 1 + cos (root k) * cosh (root k) = 0) ->
  exists x u, clamped_beam n steps root size E I rho A len force [0] = Ok (x, u) /\
    nth (length x - 1) x 0 = len /\ fst (nth 0 (nth (length x - 1) u []) (0, 0)) = 0 /\ 0 < snd (nth 0 (nth (length x - 1) u []) (0, 0)).
Proof.
  intros n steps root size E I rho A len force h1 h2 h3 h4 hs hn hf hr.
  destruct (clamped_beam_ok n steps root size E I rho A len force [0] h1 h2 h3 h4 hs hr) as [N [hN e]]. cbv zeta in e. pose proof (intervals_pos size len N h1 h4 hN) as hN1.
  set (x := linspace_nat 0 len (S N)) in *. eexists _, _. split; [exact e|]. assert (hl : length x = S N) by apply ls_length. rewrite hl. replace (S N - 1)%nat with N by lia.
  assert (ex : nth N x 0 = len) by (unfold x; rewrite points_nth by lia; assert (0 < INR N) by (apply lt_0_INR; lia); field; lra). split; [exact ex|].
  pose proof (table_nth (fun p t => (clamped_w n steps root (E * I) (rho * A) len force p t, clamped_v n steps root (E * I) (rho * A) len force p t + clamped_mean n steps root (E * I) len force p)) (0, 0) x [0] N 0 ltac:(lia) ltac:(cbn; lia)) as et.
  cbv beta in et. rewrite et, ex. cbn [nth fst snd].
  destruct (clamped_motion n steps root (E * I) (rho * A) len force h2 h3 h4 hs hr) as [w1 [w2 [w3 [_ [k2 _]]]]]. destruct (k2 len) as [z1 z2]. rewrite z1, z2. split; [reflexivity|].
  pose proof (clamped_mean_tip n steps root (E * I) len force h2 h4 hs hn hf hr). lra.
Qed.
Print Assumptions C101_velocity_refuted.

(** ** C102 *)

(** the rod: displacement, pressure and velocity belong to one motion; the rod is held at 0, has the given pressure at the other end, starts with velocity
    zero and repeats after the wave has travelled four lengths *)
Theorem C102_rod n cycles points rho K p0 len time : 0 < rho -> 0 < K -> 0 < len -> (2 <= points)%nat ->
  exists u v p, rod_motion rho K u v p /\ (forall t, u 0 t = 0) /\ (forall t, p len t = p0) /\ (forall x, v x 0 = 0) /\
    (forall x t, u x (t + 4 * len / sqrt (K / rho)) = u x t) /\
    forall ts tab, wave_solution n cycles points rho K p0 len time = Ok (ts, tab) ->
      (forall l, time = Some l -> ts = l) /\ length tab = points /\
      forall i j, (i < points)%nat -> (j < length ts)%nat ->
        let x := INR i * len / INR (points - 1) in let t := nth j ts 0 in
        nth j (nth i tab []) (0, 0, 0) = (u x t, p x t, v x t).
Proof.
  intros h1 h2 h3 hp. set (c := sqrt (K / rho)).
  exists (wave_u n c K p0 len), (wave_v n c K p0 len), (wave_p n c K p0 len).
  split; [apply wave_motion; assumption|]. split; [intros t; apply (wave_ends n rho K p0 len h1 h2 h3 t)|]. split; [intros t; apply (wave_ends n rho K p0 len h1 h2 h3 t)|].
  split; [intros x; apply (wave_ends n rho K p0 len h1 h2 h3 0)|]. split; [intros x t; apply (wave_period n rho K p0 len x t h1 h2 h3)|].
  intros ts tab hr. unfold wave_solution in hr. apply rbind_ok in hr. destruct hr as [t [ht hr]].
  assert (hinj : forall (A B : Type) (a b : A) (c d : B), Ok (a, c) = Ok (b, d) -> b = a /\ d = c) by (intros ? ? ? ? ? ? q; injection q; auto).
  apply hinj in hr. destruct hr as [-> ->]. split; [intros l hl; subst time; cbn in ht; congruence|]. split; [rewrite map_length; apply ls_length|].
  intros i j hi hj x tt. rewrite (table_nth (wave_at n rho K p0 len) (0, 0, 0) (linspace_nat 0 len points) t i j) by (try rewrite ls_length; assumption).
  rewrite wave_at_value. fold c. rewrite ls_nth by assumption. rewrite Rplus_0_l, Rminus_0_r. reflexivity.
Qed.
Print Assumptions C102_rod.
Example C102_rod_example : 0 < 1000 /\ 0 < 20000000 /\ 0 < 1 /\ (2 <= 11)%nat.
Proof. repeat split; try lra; lia. Qed.

(** the times the code chooses itself: from zero, over the given number of wave travels *)
Theorem C102_times n cycles points rho K p0 len ts tab : 0 < rho -> 0 < K -> 0 < len ->
  wave_solution n cycles points rho K p0 len None = Ok (ts, tab) ->
  (2 <= length ts)%nat /\ nth 0 ts 0 = 0 /\ nth (length ts - 1) ts 0 = INR cycles * len / sqrt (K / rho).
Proof.
  intros h1 h2 h3 hr. unfold wave_solution in hr. apply rbind_ok in hr. destruct hr as [t [ht hr]].
  assert (hinj : forall (A B : Type) (a b : A) (c d : B), Ok (a, c) = Ok (b, d) -> b = a /\ d = c) by (intros ? ? ? ? ? ? q; injection q; auto).
  apply hinj in hr. destruct hr as [-> _]. unfold wave_times in ht. change (wave_speed K rho) with (sqrt (K / rho)) in ht. cbv zeta in ht. apply linspace_ok in ht. destruct ht as [hz ->].
  set (c := sqrt (K / rho)) in *. assert (hc : 0 < c) by (apply sqrt_lt_R0; apply Rdiv_lt_0_compat; assumption).
  assert (hq : 0 < c / len) by (apply Rdiv_lt_0_compat; assumption).
  assert (hk : (1 <= nceil (c / len)%R)%Z).
  { assert (hf : IZR (nceil (c / len)) - 1 < c / len <= IZR (nceil (c / len))) by (unfold nceil; pose proof (nfloor_spec (- (c / len))); cbn [nopp RNum]; rewrite opp_IZR; lra).
    assert ((0 < nceil (c / len)%R)%Z) by (apply lt_IZR; lra). lia. }
  change (ndiv c len) with (c / len) in *. set (m := nceil (c / len)) in *. rewrite ls_length. split; [lia|]. split; [apply ls_first; lia|]. rewrite ls_last by lia. rewrite nofnat_R. reflexivity.
Qed.
Print Assumptions C102_times.

(** refuted: that the rod starts without displacement; [nb_terms] sums one term less, and with one or two the loaded end starts displaced *)
Theorem C102_start_refuted : forall rho K p0 len, 0 < rho -> 0 < K -> 0 < len -> p0 <> 0 -> forall n, (n = 1 \/ n = 2)%nat ->
  exists tab, wave_solution n 10 2 rho K p0 len (Some [0]) = Ok ([0], tab) /\ fst (fst (nth 0 (nth 1 tab []) (0, 0, 0))) <> 0.
Proof.
  intros rho K p0 len h1 h2 h3 hp n hn. eexists. split; [reflexivity|].
  rewrite (table_nth (wave_at n rho K p0 len) (0, 0, 0) (linspace_nat 0 len 2) [0] 1 0) by (cbn; lia).
  rewrite wave_at_value. cbn [fst]. change (nth 0 [0] 0) with 0. change (nth 1 (linspace_nat 0 len 2) 0) with len. rewrite (wave_start_end n rho K p0 len h1 h2 h3).
  assert (hk : p0 * len / K <> 0). { unfold Rdiv. apply Rmult_integral_contrapositive. split; [apply Rmult_integral_contrapositive; split; lra|]. apply Rinv_neq_0_compat. lra. }
  apply Rmult_integral_contrapositive. split; [exact hk|].
  assert (h9 : 9 < PI * PI) by (pose proof PI2_3_2 as h; pose proof PI2_RGT_0; nra).
  destruct hn as [-> | ->]; cbn [Nat.sub sum_to]; [lra|]. unfold wave_w. cbn [INR].
  replace (0 + 1 / ((2 * 1 - 1) * (2 * 1 - 1))) with 1 by field. rewrite Rmult_1_r.
  assert (8 / (PI * PI) < 1). { apply (Rmult_lt_reg_r (PI * PI)); [lra|]. unfold Rdiv. rewrite Rmult_assoc, Rinv_l by lra. lra. } lra.
Qed.
Print Assumptions C102_start_refuted.

(** ** C103 *)

(** beam with a hinge: for a force on the clamped part the deflection of the clamped beam's end under the force; beyond the hinge that under
    the force the right part, resting on hinge and support, passes on to the hinge *)
Theorem C103_hinge left_l right_l EI load x : 0 < left_l -> 0 < right_l -> 0 < EI ->
  (0 <= x <= left_l -> (exists u, clamped_static EI left_l x load u) /\ forall u, clamped_static EI left_l x load u -> hinge_deflection left_l right_l EI load x = u left_l) /\
  (left_l <= x <= left_l + right_l -> forall hinge support, hinge + support = load -> support * right_l = load * (x - left_l) ->
     (exists u, clamped_static EI left_l left_l hinge u) /\ forall u, clamped_static EI left_l left_l hinge u -> hinge_deflection left_l right_l EI load x = u left_l) /\
  (x < 0 \/ left_l + right_l < x -> hinge_deflection left_l right_l EI load x = 0).
Proof.
  intros h1 h2 h3. unfold hinge_deflection, hinge_left, hinge_right, pow2, pow3. rnum. split; [|split].
  - intros hx. destruct (clamped_solves EI left_l load x h3 hx) as [_ hs]. split; [eexists; exact hs|]. intros u hu.
    rewrite (clamped_unique EI left_l load x u h3 hx hu left_l ltac:(lra)). unfold clamped_left, clamped_right.
    destruct (nltbP 0 x), (nltbP x left_l); cbn [andb]; rnum; try lra.
    + destruct (Rle_dec left_l x); [lra|]. field. lra.
    + assert (x = left_l) by lra. subst x. destruct (RlebP left_l left_l); [|lra]. destruct (RlebP left_l (right_l + left_l)); [|lra]. cbn [andb].
      destruct (Rle_dec left_l left_l); [|lra]. field. lra.
    + assert (x = 0) by lra. subst x. destruct (RlebP left_l 0); [lra|]. cbn [andb]. destruct (Rle_dec left_l 0); [lra|]. field. lra.
  - intros hx hinge support e1 e2. destruct (clamped_solves EI left_l hinge left_l h3 ltac:(lra)) as [_ hs]. split; [eexists; exact hs|]. intros u hu.
    rewrite (clamped_unique EI left_l hinge left_l u h3 ltac:(lra) hu left_l ltac:(lra)). unfold clamped_left. destruct (Rle_dec left_l left_l); [|lra].
    assert (eh : hinge = (1 - (x - left_l) / right_l) * load).
    { apply (Rmult_eq_reg_r right_l); [|lra]. replace (hinge * right_l) with (load * right_l - support * right_l) by (rewrite <- e1; ring). rewrite e2. field. lra. }
    destruct (nltbP 0 x), (nltbP x left_l); cbn [andb]; rnum; try lra.
    destruct (RlebP left_l x); [|lra]. destruct (RlebP x (right_l + left_l)); [|lra]. cbn [andb]. rewrite eh. field. lra.
  - intros hx. destruct (nltbP 0 x), (nltbP x left_l); cbn [andb]; rnum; try lra; destruct (RlebP left_l x), (RlebP x (right_l + left_l)); cbn [andb]; try lra; reflexivity.
Qed.
Print Assumptions C103_hinge.
Example C103_hinge_example : 0 < 3 /\ 0 < 2 /\ 0 < 5 /\ 3 <= 4 <= 3 + 2 /\ 3 + 3 = 6 /\ 3 * 2 = 6 * (4 - 3).
Proof. lra. Qed.

(** ** C104 *)

Definition beam_of (p : R * R) : R := fst p.
Definition body_of (p : R * R) : R := snd p.

(** every state of the vehicle: constant average acceleration from the state before, balance of the sprung mass with spring and damper, balance of the beam with
    the force of the spring alone (that is, of the whole suspension when there is no damper) *)
Theorem C104_vehicle h t_step times states : 0 < vh_len h -> 0 < vh_EI h -> 0 < vh_mass h -> vh_speed h <> 0 ->
  vehicle_compute h t_step = Ok (times, states) ->
  length states = length times /\ (2 <= length times)%nat /\
  v_disp (nth 0 states (mkV (1, 1) (1, 1) (1, 1))) = (0, 0) /\ v_vel (nth 0 states (mkV (1, 1) (1, 1) (1, 1))) = (0, 0) /\
  (forall i, (i < length times)%nat -> nth i times 0 = INR i * (vh_len h / vh_speed h) / INR (length times - 1)) /\
  forall i, (S i < length times)%nat -> forall d,
    let dt := vh_len h / vh_speed h / INR (length times - 1) in
    let s := sin (PI * (vh_speed h * nth (S i) times 0) / vh_len h) in
    let a := nth i states d in let b := nth (S i) states d in
    average_acceleration dt (beam_of (v_disp a)) (beam_of (v_vel a)) (beam_of (v_acc a)) (beam_of (v_disp b)) (beam_of (v_vel b)) (beam_of (v_acc b)) /\
    average_acceleration dt (body_of (v_disp a)) (body_of (v_vel a)) (body_of (v_acc a)) (body_of (v_disp b)) (body_of (v_vel b)) (body_of (v_acc b)) /\
    sprung_mass (vh_mv h) (suspension (vh_k h) (vh_c h) s (body_of (v_disp b)) (body_of (v_vel b)) (beam_of (v_disp b)) (beam_of (v_vel b))) (body_of (v_acc b)) /\
    beam_mode_equation (vh_mass h * vh_len h / 2) (natural_frequency (vh_EI h) (vh_mass h) (vh_len h) 1) (vh_mv h) (vh_mw h) (981 / 100) s
      (suspension (vh_k h) 0 s (body_of (v_disp b)) (body_of (v_vel b)) (beam_of (v_disp b)) (beam_of (v_vel b))) (beam_of (v_disp b)) (beam_of (v_acc b)).
Proof.
  intros h1 h2 h3 h4 hr. unfold vehicle_compute in hr. cbv zeta in hr. apply rbind_ok in hr. destruct hr as [ts [ht hr]].
  apply linspace_ok in ht. destruct ht as [hz hts]. change (ndiv (vh_len h) (vh_speed h)) with (vh_len h / vh_speed h) in *. set (T := vh_len h / vh_speed h) in *.
  set (m := Z.to_nat (ntrunc (ndiv T t_step))) in *.
  assert (hl : length ts = m) by (rewrite hts; apply ls_length).
  destruct ts as [|t0 [|t1 r]]; try discriminate. apply rbind_ok in hr. destruct hr as [q [hq hr]].
  assert (hinj : forall (A B : Type) (a b : A) (c d : B), Ok (a, c) = Ok (b, d) -> b = a /\ d = c) by (intros ? ? ? ? ? ? e; injection e; auto).
  apply hinj in hr. destruct hr as [-> ->]. cbn [length] in hl.
  assert (hm : (2 <= m)%nat) by lia. assert (hM : 0 < INR (m - 1)) by (apply lt_0_INR; lia).
  assert (hn : forall i, (i < m)%nat -> nth i (t0 :: t1 :: r) 0 = INR i * T / INR (m - 1)).
  { intros i hi. rewrite hts. rewrite ls_nth by lia. change (@lit R RNum 0) with 0. rewrite Rplus_0_l, Rminus_0_r. reflexivity. }
  assert (edt : nsub t1 t0 = T / INR (m - 1)).
  { pose proof (hn 0%nat ltac:(lia)) as e0. pose proof (hn 1%nat ltac:(lia)) as e1. cbn [nth INR] in e0, e1. rewrite e0, e1. rnum. field. lra. }
  rewrite edt in hq. assert (hT : T <> 0) by (unfold T, Rdiv; apply Rmult_integral_contrapositive; split; [lra|apply Rinv_neq_0_compat; exact h4]).
  assert (hdt : T / INR (m - 1) <> 0) by (unfold Rdiv; apply Rmult_integral_contrapositive; split; [exact hT|apply Rinv_neq_0_compat; lra]).
  destruct (vehicle_run_ok h (T / INR (m - 1)) hdt (t1 :: r) _ q hq) as [hlq hstep].
  cbn [length] in *. rewrite hlq. replace (S (S (length r))) with m by lia.
  split; [reflexivity|]. split; [lia|]. split; [reflexivity|]. split; [reflexivity|]. split; [exact hn|].
  intros i hi d. cbv zeta. change (nth (S i) (t0 :: t1 :: r) 0) with (nth i (t1 :: r) 0).
  specialize (hstep i ltac:(lia)). set (s0 := mkV (lit 0, lit 0) (lit 0, lit 0) (lit 0, lit 0)) in *.
  change (nth (S i) (s0 :: q) d) with (nth i q d). rewrite (nth_indep (s0 :: q) d s0) by (cbn [length]; lia). rewrite (nth_indep q d s0) by lia.
  unfold step_relation, step_shape, first_frequency in hstep. rewrite frequency_value in hstep by assumption. cbv zeta in hstep.
  replace (PI * vh_speed h * nth i (t1 :: r) 0 / vh_len h) with (PI * (vh_speed h * nth i (t1 :: r) 0) / vh_len h) in hstep by (field; lra).
  destruct (v_disp (nth i (s0 :: q) s0)), (v_vel (nth i (s0 :: q) s0)), (v_acc (nth i (s0 :: q) s0)), (v_disp (nth i q s0)), (v_vel (nth i q s0)), (v_acc (nth i q s0)).
  exact hstep.
Qed.
Print Assumptions C104_vehicle.

(** for a vehicle with positive masses the calculation succeeds whenever the crossing lasts two requested steps or more, and its time step is always larger than the requested one *)
Theorem C104_runs h t_step : 0 < vh_mv h -> 0 <= vh_mw h -> 0 <= vh_k h -> 0 <= vh_c h -> 0 < vh_mass h -> 0 < vh_len h -> 0 < vh_speed h -> 0 < t_step ->
  2 * t_step <= vh_len h / vh_speed h ->
  exists times states, vehicle_compute h t_step = Ok (times, states) /\ INR (length times) * t_step <= vh_len h / vh_speed h /\
    t_step < nth 1 times 0 - nth 0 times 0.
Proof.
  intros h1 h2 h3 h4 h5 h6 h7 h8 h9. unfold vehicle_compute. cbv zeta. change (ndiv (vh_len h) (vh_speed h)) with (vh_len h / vh_speed h). set (T := vh_len h / vh_speed h) in *.
  assert (hq : 2 <= T / t_step) by (apply (Rmult_le_reg_r t_step); [exact h8|]; unfold Rdiv; rewrite Rmult_assoc, Rinv_l; lra).
  change (ndiv T t_step) with (T / t_step). 
  assert (hf : IZR (ntrunc (T / t_step)) <= T / t_step < IZR (ntrunc (T / t_step)) + 1).
  { unfold ntrunc. rnum. destruct (RlebP 0 (T / t_step)); [|lra]. apply nfloor_spec. }
  assert (hz : (2 <= ntrunc (T / t_step)%R)%Z).
  { assert (1 < IZR (ntrunc (T / t_step))) by lra. assert ((1 < ntrunc (T / t_step)%R)%Z) by (apply lt_IZR; lra). lia. }
  set (m := Z.to_nat (ntrunc (T / t_step))). assert (hm : (2 <= m)%nat) by (unfold m; lia).
  assert (hI : INR m <= T / t_step) by (unfold m; rewrite INR_IZR_INZ, Z2Nat.id by lia; lra).
  assert (hIt : INR m * t_step <= T). { apply (Rmult_le_compat_r t_step) in hI; [|lra]. unfold Rdiv in hI. rewrite Rmult_assoc, Rinv_l in hI; lra. }
  assert (el : linspace (lit 0) T (ntrunc (T / t_step)) = Ok (linspace_nat (lit 0) T m)) by (apply linspace_ok; split; [lia|reflexivity]).
  rewrite el. cbn [rbind]. pose proof (ls_length 0 T m) as hl. change (@lit R RNum 0) with 0.
  assert (hM : 0 < INR (m - 1)) by (apply lt_0_INR; lia).
  pose proof (ls_nth 0 T m 0 hm ltac:(lia)) as e0. pose proof (ls_nth 0 T m 1 hm ltac:(lia)) as e1.
  destruct (linspace_nat 0 T m) as [|t0 [|t1 r]] eqn:els; cbn [length] in hl; try lia.
  cbn [nth] in e0, e1. assert (ed : t1 - t0 = T / INR (m - 1)) by (rewrite e0, e1; cbn [INR]; field; lra).
  assert (hT : 0 < T) by lra. assert (hdt : 0 < t1 - t0) by (rewrite ed; apply Rdiv_lt_0_compat; assumption).
  destruct (vehicle_run_total h (t1 - t0) (t1 :: r) hdt h1 h2 h3 h4 h5 h6 (mkV (0, 0) (0, 0) (0, 0))) as [q hq'].
  change (nsub t1 t0) with (t1 - t0). rewrite hq'. cbn [rbind]. eexists _, _. split; [reflexivity|]. cbn [length]. rewrite hl. split; [exact hIt|]. cbn [nth]. rewrite ed.
  assert (em : INR m = INR (m - 1) + 1) by (rewrite minus_INR by lia; cbn [INR]; lra).
  apply (Rmult_lt_reg_r (INR (m - 1))); [exact hM|]. replace (T / INR (m - 1) * INR (m - 1)) with T by (field; lra). rewrite em in hIt. lra.
Qed.
Print Assumptions C104_runs.
Example C104_runs_example : let h := mkVehicle 3 2 25 7 1 11 13 50 in 0 < vh_mv h /\ 0 <= vh_mw h /\ 0 <= vh_k h /\ 0 <= vh_c h /\ 0 < vh_mass h /\ 0 < vh_len h /\ 0 < vh_speed h /\ 2 * (1 / 10) <= vh_len h / vh_speed h.
Proof. cbn. lra. Qed.

(** refuted: that what the damper takes from the vehicle reaches the beam.  With a damper the beam's balance with the whole suspension fails at mid-span *)
Theorem C104_damper_refuted : forall h, 0 < vh_mv h -> 0 <= vh_mw h -> 0 <= vh_k h -> 0 < vh_c h -> 0 < vh_EI h -> 0 < vh_mass h -> 0 < vh_len h -> 0 < vh_speed h ->
  exists t_step times states, vehicle_compute h t_step = Ok (times, states) /\ length times = 3%nat /\
    let b := nth 1 states (mkV (0, 0) (0, 0) (0, 0)) in
    vh_speed h * nth 1 times 0 = vh_len h / 2 /\
    ~ beam_mode_equation (vh_mass h * vh_len h / 2) (natural_frequency (vh_EI h) (vh_mass h) (vh_len h) 1) (vh_mv h) (vh_mw h) (981 / 100) 1
        (suspension (vh_k h) (vh_c h) 1 (body_of (v_disp b)) (body_of (v_vel b)) (beam_of (v_disp b)) (beam_of (v_vel b))) (beam_of (v_disp b)) (beam_of (v_acc b)).
Proof.
  intros h h1 h2 h3 h4 h5 h6 h7 h8. set (T := vh_len h / vh_speed h). assert (hT : 0 < T) by (apply Rdiv_lt_0_compat; assumption). exists (T / 3).
  destruct (C104_runs h (T / 3) h1 h2 h3 ltac:(lra) h6 h7 h8 ltac:(lra) ltac:(fold T; lra)) as [times [states [hr _]]]. exists times, states. split; [exact hr|].
  assert (hl : length times = 3%nat).
  { pose proof hr as hr'. unfold vehicle_compute in hr'. cbv zeta in hr'. apply rbind_ok in hr'. destruct hr' as [ts [ht hr']]. apply linspace_ok in ht. destruct ht as [hz hts].
    change (ndiv (vh_len h) (vh_speed h)) with T in hts. change (ndiv T (T / 3)) with (T / (T / 3)) in hts. replace (T / (T / 3)) with 3 in hts by (field; lra).
    replace (ntrunc 3) with 3%Z in hts. 2:{ unfold ntrunc. rnum. destruct (RlebP 0 3); [|lra]. symmetry. apply nfloor_unique. lra. }
    destruct ts as [|t0 [|t1 r]]; try discriminate. apply rbind_ok in hr'. destruct hr' as [q [_ hr']].
    assert (hinj : forall (A B : Type) (a b : A) (c d : B), Ok (a, c) = Ok (b, d) -> b = a /\ d = c) by (intros ? ? ? ? ? ? e; injection e; auto).
    apply hinj in hr'. destruct hr' as [-> _]. rewrite hts. apply ls_length. }
  split; [exact hl|]. destruct (C104_vehicle h (T / 3) times states h7 h5 h6 ltac:(lra) hr) as [_ [_ [z1 [z2 [hts hst]]]]].
  specialize (hst 0%nat ltac:(lia) (mkV (0, 0) (0, 0) (0, 0))). cbv zeta in hst. rewrite hl in hst, hts. cbn [Nat.sub] in hst, hts.
  assert (et : vh_speed h * nth 1 times 0 = vh_len h / 2) by (rewrite hts by lia; cbn [INR]; field; lra).
  intros b. split; [exact et|]. rewrite et in hst. replace (PI * (vh_len h / 2) / vh_len h) with (PI / 2) in hst by (field; lra). rewrite sin_PI2 in hst. fold b in hst.
  set (a := nth 0 states (mkV (0, 0) (0, 0) (0, 0))) in *.
  assert (hs2 : exists s0 rest, states = s0 :: rest). { destruct states; [|eauto]. cbn in z1. injection z1. intros. lra. }
  destruct hs2 as [s0 [rest es]]. assert (ea : a = s0) by (unfold a; rewrite es; reflexivity). rewrite es in z1, z2. cbn [nth] in z1, z2. rewrite <- ea in z1, z2.
  assert (z3 : v_acc a = (0, 0)).
  { pose proof hr as hr'. unfold vehicle_compute in hr'. cbv zeta in hr'. apply rbind_ok in hr'. destruct hr' as [ts [ht hr']].
    destruct ts as [|t0 [|t1 r]]; try discriminate. apply rbind_ok in hr'. destruct hr' as [q [_ hr']].
    assert (hinj : forall (A B : Type) (a b : A) (c d : B), Ok (a, c) = Ok (b, d) -> b = a /\ d = c) by (intros ? ? ? ? ? ? e; injection e; auto).
    apply hinj in hr'. destruct hr' as [_ e]. unfold a. rewrite e. reflexivity. }
  rewrite z1, z2, z3 in hst. unfold beam_of, body_of in hst |- *. cbn [fst snd] in hst.
  destruct (v_disp b) as [q y], (v_vel b) as [qd yd], (v_acc b) as [qdd ydd]. cbn [fst snd] in *.
  destruct hst as [[a1 a2] [[b1 b2] [hsm hbm]]]. intros hfull. unfold beam_mode_equation, suspension, sprung_mass in *.
  (* the damper force vanishes, so both move alike, so the body has no acceleration *)
  assert (dz : vh_c h * (yd - qd * 1) = 0) by lra.
  assert (dz' : yd = qd) by (apply Rmult_integral in dz; destruct dz; lra).
  set (dt := vh_len h / vh_speed h / INR 2) in *. assert (hdt : 0 < dt) by (unfold dt; apply Rdiv_lt_0_compat; [exact hT|cbn [INR]; lra]).
  assert (acc : ydd = qdd) by (apply (Rmult_eq_reg_l (dt / 2)); lra).
  assert (dis : y = q) by (rewrite b1, a1, acc; reflexivity).
  assert (hy : vh_mv h * ydd = 0) by (rewrite dis, dz' in hsm; lra).
  assert (hy0 : ydd = 0) by (apply Rmult_integral in hy; destruct hy; lra).
  assert (hq0 : q = 0) by (rewrite a1, <- acc, hy0; ring).
  rewrite dis, hq0, <- acc, hy0 in hbm. lra.
Qed.
Print Assumptions C104_damper_refuted.
Example C104_refuted_example : let h := mkVehicle 3 2 25 7 1 11 13 50 in 0 < vh_mv h /\ 0 <= vh_mw h /\ 0 <= vh_k h /\ 0 < vh_c h /\ 0 < vh_EI h /\ 0 < vh_mass h /\ 0 < vh_len h /\ 0 < vh_speed h.
Proof. cbn. lra. Qed.
