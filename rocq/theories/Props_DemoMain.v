(** * Property C138: the demonstration scripts calculate their trains *)

From Coq Require Import String.
From Coq Require Import Reals List Bool ZArith Arith Lia Lra.
From Verif Require Import Num PyBase Model_Accumulation Model_Moving Model_Train Model_Coupled Model_Demo Model_DefaultTrains Model_DemoMain
  Spec_Moving Spec_Coupled Spec_Demo Spec_DefaultTrains Proofs_System Proofs_Moving Proofs_Accumulation Proofs_Coupled Proofs_DefaultTrains
  Props_Moving Props_Coupled Props_DefaultTrains Props_Demo.
Import ListNotations.
Local Open Scope R_scope.

(** the time step of the scripts *)
Definition script_step : R := 25 / 100000.

Lemma setup_exists (start step : R) carts c : 0 < step -> 2 * step <= dc_running c -> (dc_type c = SPRINTER_SLT -> (2 <= carts)%nat) ->
  exists g d ini time n, set_train (dc_type c) start carts = Ok g /\ demo_time d = Ok (ini, time) /\ td_tot_ini d = 1 / 10000 /\ td_tot_calc d = dc_running c /\
    td_n_ini d = Z.of_nat 5 /\ td_n_calc d = Z.of_nat (S n) /\ (1 <= n)%nat /\
    demo_setup start step carts c = Ok (mkSetup g ini time (demo_velocities ini time (dc_speed c))).
Proof.
  intros hs hr ht. destruct (proj2 (C54_total (dc_type c) start carts) ht) as [g hg].
  set (d := mkTimeData (ndec 1 4) 5 (dc_running c) (ntrunc (ndiv (dc_running c) step))).
  assert (hd : time_integration (dc_running c) step = Ok d). { unfold time_integration. destruct (neqbP step (lit 0)) as [h|h]; [rnum; lra|]. reflexivity. }
  assert (hq : 2 <= dc_running c / step). { apply (Rmult_le_reg_r step); [lra|]. unfold Rdiv. rewrite Rmult_assoc, Rinv_l by lra. lra. }
  destruct (trunc_nonneg (ndiv (dc_running c) step)) as [t1 t2]; [rnum; lra|]. rnum.
  assert (h2 : (1 < ntrunc (dc_running c / step)%R)%Z). { apply lt_IZR. lra. }
  set (n := Z.to_nat (ntrunc (dc_running c / step)%R - 1)).
  assert (hn : td_n_calc d = Z.of_nat (S n)). { unfold d, n. cbn [td_n_calc]. rnum. lia. }
  assert (hn1 : (1 <= n)%nat) by (unfold n; lia).
  destruct (C114_times d 4 n eq_refl hn ltac:(lia) hn1) as [ini [time [h1 _]]].
  exists g, d, ini, time, n. split; [exact hg|]. split; [exact h1|]. split; [unfold d; cbn [td_tot_ini]; rewrite ndec_R; reflexivity|]. split; [reflexivity|]. split; [reflexivity|]. split; [exact hn|]. split; [exact hn1|].
  unfold demo_setup. rewrite hd. cbn [rbind]. rewrite h1. cbn [rbind fst snd]. rewrite hg. reflexivity.
Qed.

(** ** a train has its own file, calculated from its own settings, as long as no train before it failed *)
Theorem C138_files {A} (calculate : demo_case R -> setup R -> res A) start step carts cases files e : demo_main calculate start step carts cases = (files, e) ->
  Forall2 (fun f c => fst f = train_name (dc_type c) /\ exists s, demo_setup start step carts c = Ok s /\ calculate c s = Ok (snd f)) files (firstn (List.length files) cases) /\
  (e = None -> List.length files = List.length cases) /\
  (forall x, e = Some x -> exists c, nth_error cases (List.length files) = Some c /\ (demo_setup start step carts c = Err x \/ exists s, demo_setup start step carts c = Ok s /\ calculate c s = Err x)).
Proof.
  revert files e. induction cases as [|c cases IH]; intros files e h; cbn [demo_main] in h.
  - injection h as <- <-. cbn. split; [constructor|]. split; [reflexivity|]. intros x hx. discriminate.
  - destruct (demo_setup start step carts c) as [s|x] eqn:es; cbn [rbind] in h.
    + destruct (calculate c s) as [a|x] eqn:ea.
      * destruct (demo_main calculate start step carts cases) as [fs e'] eqn:em. injection h as <- <-. destruct (IH fs e' eq_refl) as [i1 [i2 i3]]. cbn [List.length firstn nth_error]. split; [|split].
        -- constructor; [|exact i1]. cbn [fst snd]. split; [reflexivity|]. exists s. auto.
        -- intros hn. f_equal. exact (i2 hn).
        -- exact i3.
      * injection h as <- <-. cbn. split; [constructor|]. split; [discriminate|]. intros y hy. injection hy as <-. exists c. split; [reflexivity|]. right. exists s. auto.
    + injection h as <- <-. cbn. split; [constructor|]. split; [discriminate|]. intros y hy. injection hy as <-. exists c. split; [reflexivity|]. left. exact es.
Qed.
Print Assumptions C138_files.

(** ** the scripts end at their second train: no file is ever written but that of the first one *)
Theorem C138_stops_refuted {A} (calculate : demo_case R -> setup R -> res A) start : exists c s, nth_error demo_cases 0 = Some c /\ demo_setup start script_step 1 c = Ok s /\
  demo_main calculate start script_step 1 demo_cases = match calculate c s with Ok a => ([("DOUBLEDEKKER"%string, a)], Some ErrValue) | Err e => ([], Some e) end.
Proof.
  set (c := mkCase DOUBLEDEKKER (ndiv (lit 140) (ndec 36 1)) (lit 14) : demo_case R).
  destruct (setup_exists start script_step 1 c) as [g [d [ini [time [n [h1 [h2 [h3 [h4 [h5 [h6 [h7 h8]]]]]]]]]]]].
  - unfold script_step. lra.
  - unfold c, script_step. cbn [dc_running]. rnum. lra.
  - discriminate.
  - exists c. eexists. split; [reflexivity|]. split; [exact h8|]. unfold demo_cases. cbv zeta. cbn [demo_main]. fold c. rewrite h8. cbn [rbind].
    destruct (calculate c _) as [a|e]; [|reflexivity].
    assert (hf : forall sp rt, exists e, demo_setup start script_step 1 (mkCase SPRINTER_SLT sp rt) = Err e /\ (2 * script_step <= rt -> e = ErrValue)).
    { intros sp rt. unfold demo_setup. cbn [dc_type dc_running]. destruct (time_integration rt script_step) as [d'|] eqn:ed; cbn [rbind].
      - destruct (demo_time d') as [t|] eqn:et; cbn [rbind].
        + rewrite (C54_one_cart start 1) by lia. cbn [rbind]. eauto.
        + eexists. split; [reflexivity|]. intros hr. destruct (setup_exists start script_step 2 (mkCase SPRINTER_SLT sp rt)) as [g' [d2 [i2 [t2 [n2 [q1 [q2 [q3 [q4 [q5 [q6 [q7 q8]]]]]]]]]]]]; [unfold script_step; lra|exact hr|cbn; lia|].
          unfold demo_setup in q8. cbn [dc_running] in q8. rewrite ed in q8. cbn [rbind] in q8. rewrite et in q8. discriminate.
      - exfalso. unfold time_integration in ed. destruct (neqbP script_step (lit 0)) as [h|h]; [unfold script_step in h; rnum; lra|discriminate]. }
    destruct (hf (ndiv (lit 140) (ndec 36 1)) (lit 14)) as [e [he hv]]. rewrite he. cbn [rbind]. rewrite (hv ltac:(unfold script_step; rnum; lra)). reflexivity.
Qed.
Print Assumptions C138_stops_refuted.

(** ** the other trains: on the track at all times *)

Lemma in_histories time v (layout : list (R * list (R * list R))) hs w x : List.length v = List.length time -> time <> [] -> train_distances time v layout = Ok hs ->
  In w (flat_map (fun cart => flat_map snd (snd cart)) hs) -> In x w ->
  exists cd bogies bd wheels wd t, In (cd, bogies) layout /\ In (bd, wheels) bogies /\ In wd wheels /\ (t < List.length time)%nat /\ x = travelled time v (cd + bd + wd) t.
Proof.
  intros hl ht hs0 hw hx. destruct (C34_train_distance time v layout hl ht) as [hs' [e1 [e2 e3]]]. assert (hs' = hs) by congruence. subst hs'.
  apply in_flat_map in hw. destruct hw as [[ch bhs] [q1 q2]]. cbn [snd] in q2. apply in_flat_map in q2. destruct q2 as [[bh whs] [q2 q3]]. cbn [snd] in q3.
  apply In_nth_error in q1. destruct q1 as [i q1]. assert (hi : (i < List.length layout)%nat) by (rewrite <- e2; apply nth_error_Some; congruence).
  destruct (nth_error layout i) as [[cd bogies]|] eqn:ei; [|apply nth_error_None in ei; lia]. destruct (e3 i cd bogies ei) as [ch' [bhs' [f1 [f2 [f3 [f4 f5]]]]]]. assert (ch' = ch /\ bhs' = bhs) as [-> ->] by (split; congruence).
  apply In_nth_error in q2. destruct q2 as [j q2]. assert (hj : (j < List.length bogies)%nat) by (rewrite <- f3; apply nth_error_Some; congruence).
  destruct (nth_error bogies j) as [[bd wheels]|] eqn:ej; [|apply nth_error_None in ej; lia]. destruct (f5 j bd wheels ej) as [bh' [whs' [g1 [g2 [g3 [g4 g5]]]]]]. assert (bh' = bh /\ whs' = whs) as [-> ->] by (split; congruence).
  apply In_nth_error in q3. destruct q3 as [k q3]. assert (hk : (k < List.length wheels)%nat) by (rewrite <- g3; apply nth_error_Some; congruence).
  destruct (nth_error wheels k) as [wd|] eqn:ek; [|apply nth_error_None in ek; lia]. destruct (g5 k wd ek) as [wh [r1 [r2 r3]]]. assert (wh = w) by congruence. subst wh.
  apply In_nth_error in hx. destruct hx as [t hx]. assert (hlt : (t < List.length w)%nat) by (apply nth_error_Some; congruence). rewrite r2 in hlt.
  exists cd, bogies, bd, wheels, wd, t. split; [eapply nth_error_In; exact ei|]. split; [eapply nth_error_In; exact ej|]. split; [eapply nth_error_In; exact ek|]. split; [exact hlt|].
  rewrite <- r3 by exact hlt. symmetry. apply nth_error_nth. exact hx.
Qed.

Lemma histories_filled time v (layout : list (R * list (R * list R))) hs : List.length v = List.length time -> time <> [] -> train_distances time v layout = Ok hs ->
  forall w, In w (flat_map (fun cart => flat_map snd (snd cart)) hs) -> w <> [].
Proof.
  intros hl ht hs0 w hw ->. destruct (C34_train_distance time v layout hl ht) as [hs' [e1 [e2 e3]]]. assert (hs' = hs) by congruence. subst hs'.
  apply in_flat_map in hw. destruct hw as [[ch bhs] [x1 x2]]. cbn [snd] in x2. apply in_flat_map in x2. destruct x2 as [[bh whs] [x2 x3]]. cbn [snd] in x3.
  apply In_nth_error in x1. destruct x1 as [i x1]. assert (hi : (i < List.length layout)%nat) by (rewrite <- e2; apply nth_error_Some; congruence).
  destruct (nth_error layout i) as [[cd bogies]|] eqn:ei; [|apply nth_error_None in ei; lia]. destruct (e3 i cd bogies ei) as [ch' [bhs' [f1 [f2 [f3 [f4 f5]]]]]]. assert (bhs' = bhs) by congruence. subst bhs'.
  apply In_nth_error in x2. destruct x2 as [j x2]. assert (hj : (j < List.length bogies)%nat) by (rewrite <- f3; apply nth_error_Some; congruence).
  destruct (nth_error bogies j) as [[bd wheels]|] eqn:ej; [|apply nth_error_None in ej; lia]. destruct (f5 j bd wheels ej) as [bh' [whs' [g1 [g2 [g3 [g4 g5]]]]]]. assert (whs' = whs) by congruence. subst whs'.
  apply In_nth_error in x3. destruct x3 as [k x3]. assert (hk : (k < List.length wheels)%nat) by (rewrite <- g3; apply nth_error_Some; congruence).
  destruct (nth_error wheels k) as [wd|] eqn:ek; [|apply nth_error_None in ek; lia]. destruct (g5 k wd ek) as [wh [r1 [r2 r3]]]. assert (wh = []) by congruence. subst wh. cbn in r2. destruct time; [contradiction|discriminate].
Qed.

(** half the length of the longest vehicle *)
Definition half_longest : R := 1365 / 100.
Lemma one_cart_offsets ty (start : R) g cd bogies bd wheels wd : ty <> SPRINTER_SLT -> set_train ty start 1 = Ok g ->
  In (cd, bogies) (train_layout g) -> In (bd, wheels) bogies -> In wd wheels -> start - half_longest <= cd + bd + wd <= start + half_longest.
Proof.
  intros hne hg h1 h2 h3. unfold half_longest.
  destruct ty; cbn [set_train] in hg; try contradiction; injection hg as <-; cbn in h1; destruct h1 as [h1|[]]; injection h1 as <- <-; cbn in h2; destruct h2 as [h2|[h2|[]]]; injection h2 as <- <-; cbn in h3; destruct h3 as [<-|[<-|[]]]; rewrite ?ndec_R; rnum; cbn; lra.
Qed.

(** a train of one cart on a rail from [a] to [b] is accepted if it starts half a vehicle behind [a] and its way ends half a vehicle before [b] *)
Theorem C138_on_track (start step : R) c rail a b : 0 < step -> 2 * step <= dc_running c -> 0 <= dc_speed c -> dc_type c <> SPRINTER_SLT ->
  In a rail -> In b rail -> a + half_longest <= start -> start + dc_speed c * dc_running c + half_longest <= b ->
  exists s, demo_setup start step 1 c = Ok s /\ demo_check rail s = Ok tt /\
    (exists ws, wheel_histories s = Ok ws /\ forall w x, In w ws -> In x w -> a <= x <= b).
Proof.
  intros hs hr hv hty ha hb h1 h2. destruct (setup_exists start step 1 c hs hr) as [g [d [ini [time [n [q1 [q2 [q3 [q4 [q5 [q6 [q7 q8]]]]]]]]]]]]; [intros; contradiction|].
  eexists. split; [exact q8|]. destruct (C114_times d 4 n q5 q6 ltac:(lia) q7) as [ini' [time' [t1 [t2 [t3 [t4 [t5 [t6 t7]]]]]]]]. assert (ini' = ini /\ time' = time) as [-> ->] by (split; congruence).
  destruct (C114_motion d 4 n (dc_speed c) 0 ini time q5 q6 ltac:(lia) q7 ltac:(lra) ltac:(rewrite q4; lra) q2) as [m1 [m2 _]].
  assert (hne : time <> []) by (intros e; rewrite e in t3; cbn in t3; lia).
  destruct (C34_train_distance time (demo_velocities ini time (dc_speed c)) (train_layout g) m1 hne) as [hs' [e1 [e2 e3]]].
  assert (hw : wheel_histories (mkSetup g ini time (demo_velocities ini time (dc_speed c))) = Ok (flat_map (fun cart => flat_map snd (snd cart)) hs')).
  { unfold wheel_histories. cbn [su_time su_velocities su_train]. rewrite e1. reflexivity. }
  assert (hn0 : 0 < INR n) by (apply lt_0_INR; lia).
  assert (hin : forall w x, In w (flat_map (fun cart => flat_map snd (snd cart)) hs') -> In x w -> a <= x <= b).
  { intros w x w1 w2. destruct (in_histories _ _ _ _ _ _ m1 hne e1 w1 w2) as [cd [bogies [bd [wheels [wd [t [p1 [p2 [p3 [p4 ->]]]]]]]]]].
    pose proof (one_cart_offsets _ _ _ _ _ _ _ _ hty q1 p1 p2 p3) as ho.
    assert (tr : travelled time (demo_velocities ini time (dc_speed c)) (cd + bd + wd) t = (cd + bd + wd) + way (td_tot_ini d + td_tot_calc d / INR n) (dc_speed c) (nth t time 0)).
    { destruct (C34_travelled time (demo_velocities ini time (dc_speed c)) 0 (cd + bd + wd)) as [_ [_ [_ z]]]. specialize (z t). rewrite (m2 t p4) in z. lra. }
    rewrite tr. unfold way. assert (hle : nth t time 0 <= td_tot_ini d + td_tot_calc d).
    { rewrite t5 by lia. rewrite <- t7, t5 by lia. apply phases_grow; [lia|exact q7|lra|rewrite q4; lra|lia]. }
    assert (hdn : 0 <= dc_running c / INR n) by (apply Rmult_le_pos; [lra|]; left; apply Rinv_0_lt_compat; exact hn0).
    rewrite q4 in *. set (m := Rmax 0 (nth t time 0 - (td_tot_ini d + dc_running c / INR n))).
    assert (hm : 0 <= m <= dc_running c). { unfold m. split; [apply Rmax_l|]. apply Rmax_lub; lra. }
    assert (0 <= dc_speed c * m <= dc_speed c * dc_running c) by (split; [apply Rmult_le_pos; lra|apply Rmult_le_compat_l; lra]). lra. }
  split; [|exists (flat_map (fun cart => flat_map snd (snd cart)) hs'); split; [exact hw|exact hin]].
  unfold demo_check. rewrite hw. cbn [rbind]. apply (proj2 (C46_check rail _ ltac:(intros e; rewrite e in ha; destruct ha) (histories_filled _ _ _ _ m1 hne e1))).
  intros w x w1 w2 ho. destruct (hin w x w1 w2) as [l1 l2]. assert (0 < float32_eps) by (unfold float32_eps; apply Rinv_0_lt_compat; apply pow_lt; lra). destruct ho as [ho|ho]; [specialize (ho a ha)|specialize (ho b hb)]; lra.
Qed.
Print Assumptions C138_on_track.

(** ** the trains of the scripts on their rail of 599.4 m: all but the second are set up and stay on it *)
Theorem C138_scripts rail c : In 0 rail -> In (5994 / 10) rail -> In c demo_cases -> dc_type c <> SPRINTER_SLT ->
  exists s, demo_setup 20 script_step 1 c = Ok s /\ demo_check rail s = Ok tt.
Proof.
  intros h1 h2 hc hn.
  assert (hd : dc_speed c = 140 / (36 / 10) /\ dc_running c = 14 \/ dc_speed c = 80 / (36 / 10) /\ dc_running c = 23).
  { unfold demo_cases in hc. cbv zeta in hc. rewrite ndec_R in hc. cbn [In] in hc. repeat (destruct hc as [<-|hc]; [cbn [dc_speed dc_running]; rnum; cbn; (left; split; lra) || (right; split; lra)|]). destruct hc. }
  assert (hb : 2 * script_step <= dc_running c /\ 0 <= dc_speed c /\ 20 + dc_speed c * dc_running c + half_longest <= 5994 / 10) by (unfold script_step, half_longest; destruct hd as [[-> ->]|[-> ->]]; lra).
  destruct hb as [b1 [b2 b3]]. assert (b4 : 0 < script_step) by (unfold script_step; lra). assert (b5 : 0 + half_longest <= 20) by (unfold half_longest; lra).
  destruct (C138_on_track 20 script_step c rail 0 (5994 / 10) b4 b1 b2 hn h1 h2 b5 b3) as [s [s1 [s2 _]]]. exists s. auto.
Qed.
Print Assumptions C138_scripts.

(** ** with two carts the second train is set up, but stands with its last wheels 4.755 m before the rail and is rejected *)
Theorem C138_two_carts_refuted rail c : (forall x, In x rail -> 0 <= x) -> rail <> [] -> dc_type c = SPRINTER_SLT -> 2 * script_step <= dc_running c ->
  exists s, demo_setup 20 script_step 2 c = Ok s /\ demo_check rail s = Err ErrValue.
Proof.
  intros h1 h2 hty hr. destruct (setup_exists 20 script_step 2 c ltac:(unfold script_step; lra) hr ltac:(lia)) as [g [d [ini [time [n [q1 [q2 [q3 [q4 [q5 [q6 [q7 q8]]]]]]]]]]]].
  eexists. split; [exact q8|]. assert (hv : (List.length ini <= List.length time)%nat /\ time <> []).
  { destruct (C114_times d 4 n q5 q6 ltac:(lia) q7) as [ini' [time' [t1 [t2 [t3 _]]]]]. assert (ini' = ini /\ time' = time) as [-> ->] by (split; congruence). split; [lia|]. intros e. rewrite e in t3. cbn in t3. lia. }
  destruct hv as [hv hne]. pose proof (velocities_length ini time (dc_speed c) hv) as m1.
  destruct (C34_train_distance time (demo_velocities ini time (dc_speed c)) (train_layout g) m1 hne) as [hs' [e1 [e2 e3]]].
  unfold demo_check, wheel_histories. cbn [su_time su_velocities su_train]. rewrite e1. cbn [rbind].
  apply (proj1 (C46_check rail _ h2 (histories_filled _ _ _ _ m1 hne e1))).
  rewrite hty in q1. cbn [set_train slt_train Nat.ltb Nat.leb] in q1. injection q1 as <-.
  destruct (e3 1%nat _ _ eq_refl) as [ch [bhs [f1 [f2 [f3 [f4 f5]]]]]]. destruct (f5 1%nat _ _ eq_refl) as [bh [whs [g1 [g2 [g3 [g4 g5]]]]]]. destruct (g5 0%nat _ eq_refl) as [wh [r1 [r2 r3]]].
  exists wh, (nth 0 wh 0). split; [|split].
  - apply in_flat_map. exists (ch, bhs). split; [eapply nth_error_In; exact f1|]. cbn [snd]. apply in_flat_map. exists (bh, whs). split; [eapply nth_error_In; exact g1|]. cbn [snd]. eapply nth_error_In. exact r1.
  - apply nth_In. rewrite r2. destruct time; [contradiction|cbn; lia].
  - left. intros x hx. rewrite r3 by (destruct time; [contradiction|cbn; lia]). rewrite (proj1 (C34_travelled _ _ _ 0)). specialize (h1 x hx).
    assert (he : float32_eps < 1) by (unfold float32_eps; simpl; lra).
    cbn. rewrite ?ndec_R. rnum. cbn. lra.
Qed.
Print Assumptions C138_two_carts_refuted.

(** ** the six trains, in km/h and s, and their files: no two trains share a file *)
Theorem C138_names : (forall a b, train_name a = train_name b -> a = b) /\
  map (fun c : demo_case R => (train_name (dc_type c), (dc_speed c * (36 / 10), dc_running c))) demo_cases =
  [("DOUBLEDEKKER", (140, 14)); ("SPRINTER_SLT", (140, 14)); ("SPRINTER_SGM", (140, 14)); ("CARGO_TAPPS", (80, 23)); ("TRAXX", (80, 23)); ("BR189", (80, 23))]%string.
Proof.
  split.
  - intros a b h. destruct a, b; try reflexivity; discriminate.
  - unfold demo_cases. cbv zeta. rewrite ndec_R. cbn [map train_name dc_type dc_speed dc_running]. rnum. cbn.
    replace (140 / (36 / 10) * (36 / 10)) with 140 by field. replace (80 / (36 / 10) * (36 / 10)) with 80 by field. reflexivity.
Qed.
Print Assumptions C138_names.

Example C138_case : exists c s, nth_error demo_cases 3 = Some c /\ dc_type c = CARGO_TAPPS /\ demo_setup 20 script_step 1 c = Ok s /\ demo_check (map (fun k => INR k * (6 / 10)) (seq 0 1000)) s = Ok tt.
Proof.
  eexists. destruct (C138_scripts (map (fun k => INR k * (6 / 10)) (seq 0 1000)) (mkCase CARGO_TAPPS (ndiv (lit 80) (ndec 36 1)) (lit 23))) as [s [s1 s2]].
  - apply in_map_iff. exists 0%nat. split; [cbn; lra|]. apply in_seq. lia.
  - apply in_map_iff. exists 999%nat. split; [rewrite INR_IZR_INZ; change (Z.of_nat 999) with 999%Z; lra|]. apply in_seq. lia.
  - right. right. right. left. reflexivity.
  - discriminate.
  - exists s. split; [reflexivity|]. split; [reflexivity|]. split; [exact s1|exact s2].
Qed.
