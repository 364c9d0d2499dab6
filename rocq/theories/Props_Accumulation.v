(** * Properties C59-C63 and C76-C78: settlement under repeated loading *)

From Coq Require Import Ascii String.
From Coq Require Import Reals List Bool ZArith Arith Lia Lra Psatz.
From Verif Require Import Num PyBase Model_Element Model_Moving Model_Coupled Model_Accumulation Spec_Accumulation
  Proofs_System Proofs_Moving Proofs_Coupled Proofs_Accumulation Proofs_Classes Proofs_Settle Proofs_LiSelig Proofs_Stages Proofs_Runs.
Import ListNotations.
Local Open Scope R_scope.

(** ** data of the examples *)

(** a type with [c] load cycles per day, and the same force history (N) at the nodes with the given peaks *)
Definition ex_train (c : R) (peaks : list R) : train_type R := {| tt_per_hour := c; tt_hours := 1; tt_axles := 1; tt_forces := map (fun p => [0; - p]) peaks |}.
Definition ex_stage (trains : list (train_type R)) (e s : R) (reload : bool) : stage := {| sg_trains := trains; sg_end := e; sg_start := s; sg_idx := []; sg_reload := reload |}.
Definition ex_varandas : varandas R := {| va_alpha := 6 / 10; va_beta := 82 / 100; va_gamma := 10; va_N0 := 1000000; va_F0 := 50 |}.
Lemma ex_varandas_sound : sound_varandas ex_varandas.
Proof. unfold sound_varandas, ex_varandas. cbn. lra. Qed.
Lemma ex_peak c peaks node : (node < length peaks)%nat -> 0 <= nth node peaks 0 -> node_peak (ex_train c peaks) node (nth node peaks 0).
Proof.
  intros h h0. exists [0; - nth node peaks 0]. split.
  - cbn [ex_train tt_forces]. rewrite (nth_err _ _ []) by (rewrite map_length; exact h). rewrite (nth_map_d _ _ _ 0) by exact h. reflexivity.
  - split.
    + exists (- nth node peaks 0). split; [right; left; reflexivity|]. rewrite Rabs_Ropp. apply Rabs_pos_eq. exact h0.
    + intros f [<-|[<-|[]]]; [rewrite Rabs_R0; exact h0|]. rewrite Rabs_Ropp, Rabs_pos_eq by exact h0. lra.
Qed.
Lemma ex_run v st steps res trains e s nb : (1 <= steps)%nat -> (forall t, In t trains -> exists c p, t = ex_train c p /\ length p = nb) ->
  (exists c p, In (ex_train c p) trains /\ -1 < c * (e - s)) ->
  exists a r, do_stage {| ac_engine := EVarandas v st; ac_steps := steps; ac_traffic := None; ac_results := res |} (ex_stage trains e s false) = Ok a /\
    ac_results a = Some r /\ rs_nodes r = seq 0 nb.
Proof.
  intros h1 h2 [c [p [h3 h4]]]. destruct (varandas_total v st steps (ex_stage trains e s false) nb eq_refl h1) with (res := res) as [a ha].
  - cbn. intros ->. destruct h3.
  - cbn. intros t ht. destruct (h2 t ht) as [c' [p' [-> hp']]]. cbn [ex_train tt_forces]. rewrite map_length. split; [exact hp'|]. intros row hr. apply in_map_iff in hr. destruct hr as [x [<- _]]. discriminate.
  - exists (ex_train c p). split; [exact h3|]. unfold loads, per_day. cbn. lra.
  - cbn. intros i [].
  - destruct (stage_step _ _ _ ha) as [tf [nb' [top [N [K [e' [nodes [disp [r [g1 [g2 [g3 [g4 ->]]]]]]]]]]]]]. exists {| ac_engine := e'; ac_steps := steps; ac_traffic := Some (tf, nb'); ac_results := Some r |}, r. split; [exact ha|]. split; [reflexivity|].
    destruct (results_fresh _ _ _ _ _ g4) as [-> _]. destruct (engine_step _ _ _ _ _ _ _ _ g3) as [-> _]. cbn [ex_stage sg_idx chosen_nodes]. f_equal. destruct (h2 _ h3) as [c' [p' [q1 q2]]]. rewrite <- (g2 _ h3), q1. cbn. rewrite map_length. exact q2.
Qed.

(** ** C59: settlements never decrease *)

Theorem C59_varandas v steps l a r : sound_varandas v -> do_stages (new_accumulation (EVarandas v None) steps) l = Ok a -> ac_results a = Some r ->
  forall row, In row (rs_disp r) -> settling row.
Proof.
  intros hv h hr row hrow. destruct (settled_stages l (new_accumulation (EVarandas v None) steps) a) as [_ g]; [exact I| | |exact h|].
  - split; [split; [exact hv|exact I]|exact I].
  - intros s _. exact I.
  - rewrite hr in g. destruct (In_nth _ _ [] hrow) as [i [hi <-]]. apply g. exact hi.
Qed.
Print Assumptions C59_varandas.

(** the condition of at least one load of each type in each period is needed: [C59_idle_refuted] *)
Theorem C59_liselig_partial li steps l a r : sound_soils li ->
  (forall s, In s l -> forall t, In t (sg_trains s) -> 0 <= per_day t /\ 1 <= loads s t) ->
  do_stages (new_accumulation (ELiSelig li None) steps) l = Ok a -> ac_results a = Some r ->
  forall row, In row (rs_disp r) -> settling row.
Proof.
  intros hv hl h hr row hrow. destruct (settled_stages l (new_accumulation (ELiSelig li None) steps) a) as [_ g]; [exact I| | |exact h|].
  - split; exact I.
  - intros s hs. split; [exact hv|]. apply hl. exact hs.
  - rewrite hr in g. destruct (In_nth _ _ [] hrow) as [i [hi <-]]. apply g. exact hi.
Qed.
Print Assumptions C59_liselig_partial.

(** a profile of one clay layer of 2 m *)
Definition ex_soil : soil R := {| so_names := [String.String (Ascii.ascii_of_nat 107) String.EmptyString]; so_gamma := [0]; so_phi := [0]; so_cohesion := [1]; so_top := [0] |}.
Definition ex_liselig (t_ini : R) : liselig R := {| li_soils := [ex_soil]; li_soil_id := [0%nat]; li_width := 2; li_length := 1 / 2; li_t_ini := t_ini; li_last := - 2 |}.
Definition ex_layer : layer R := {| ly_a := 11 / 10; ly_b := 16 / 100; ly_m := 20 / 10; ly_thickness := 2; ly_mid := 1; ly_strength := 1 |}.
Lemma ex_layers t_ini : mapr (soil_layers (li_last (ex_liselig t_ini))) (li_soils (ex_liselig t_ini)) = Ok [[ex_layer]].
Proof.
  cbn [ex_liselig li_soils li_last mapr]. unfold soil_layers, ex_soil, z_middles, thicknesses. cbn [so_names so_top so_gamma so_phi so_cohesion mapr].
  replace (classify (String.String (Ascii.ascii_of_nat 107) String.EmptyString)) with (Ok (11 / 10, 16 / 100, 20 / 10)).
  - cbn [rbind app abs_diff combine map fst snd zip_layers]. unfold ex_layer, strength. rnum. rewrite !nabs_R. do 3 f_equal.
    assert (e1 : Rabs (- 2 - 0) = 2) by (unfold Rabs; destruct (Rcase_abs (- 2 - 0)); lra). assert (e2 : Rabs (0 - 0) = 0) by (rewrite Rminus_0_r; apply Rabs_R0).
    rewrite e1, e2. f_equal; lra.
  - unfold classify. cbn. unfold ndec. cbn. rnum. repeat f_equal; lra.
Qed.
Lemma ex_soil_sound t_ini : 0 <= t_ini -> sound_soils (ex_liselig t_ini).
Proof.
  intros h. split; [exact h|]. intros s [<-|[]]. split.
  - unfold complete, ex_soil. cbn. lia.
  - intros i ly hi [_ [_ [_ e]]]. cbn in hi. replace i with 0%nat in e by lia. cbn in e. rewrite e. lra.
Qed.
Lemma ex_liselig_run t_ini steps trains e s : (1 <= steps)%nat -> (forall t, In t trains -> exists c p, t = ex_train c [p]) ->
  (exists c p, In (ex_train c p) trains /\ INR steps <= c * (e - s)) ->
  exists a r, do_stage (new_accumulation (ELiSelig (ex_liselig t_ini) None) steps) (ex_stage trains e s false) = Ok a /\ ac_results a = Some r /\ rs_nodes r = [0%nat].
Proof.
  intros h1 h2 [c [p [h3 h4]]]. destruct (liselig_total (ex_liselig t_ini) steps (ex_stage trains e s false) 1 [[ex_layer]] eq_refl h1) as [a ha].
  - cbn. intros ->. destruct h3.
  - cbn. intros t ht. destruct (h2 t ht) as [c' [p' ->]]. cbn. split; [reflexivity|]. intros row [<-|[]]. discriminate.
  - exists (ex_train c p). split; [exact h3|]. unfold loads, per_day. cbn. lra.
  - cbn. intros i [<-|[]]. split; [lia|]. exists 0%nat. split; [reflexivity|lia].
  - apply ex_layers.
  - destruct (stage_step _ _ _ ha) as [tf [nb' [top [N [K [e' [nodes [disp [r [g1 [g2 [g3 [g4 ->]]]]]]]]]]]]]. eexists. exists r. split; [exact ha|]. split; [reflexivity|].
    destruct (results_fresh _ _ _ _ _ g4) as [-> _]. destruct (engine_step _ _ _ _ _ _ _ _ g3) as [-> _]. cbn [ex_stage sg_idx chosen_nodes].
    destruct (h2 _ h3) as [c' [p' q1]]. rewrite <- (g2 _ h3), q1. reflexivity.
Qed.

(** the two periods of the examples: 10 days with 100 loads per day, and 5 more days; the hypotheses of the theorems hold and
    the calculations succeed *)
Example C59_varandas_case : exists a r, do_stages (new_accumulation (EVarandas ex_varandas None) 7) [ex_stage [ex_train 100 [50000; 0]] 10 0 false] = Ok a /\ ac_results a = Some r /\ rs_nodes r = [0; 1]%nat.
Proof.
  destruct (ex_run ex_varandas None 7 None [ex_train 100 [50000; 0]] 10 0 2) as [a [r [h1 [h2 h3]]]]; [lia| |exists 100, [50000; 0]; split; [left; reflexivity|lra]|].
  - intros t [<-|[]]. exists 100, [50000; 0]. split; reflexivity.
  - exists a, r. cbn [do_stages]. unfold new_accumulation. rewrite h1. repeat split; assumption.
Qed.
Example C59_liselig_case : sound_soils (ex_liselig 1) /\ exists a r, do_stages (new_accumulation (ELiSelig (ex_liselig 1) None) 7) [ex_stage [ex_train 100 [50000]] 10 0 false] = Ok a /\ ac_results a = Some r /\ rs_nodes r = [0%nat].
Proof.
  split; [apply ex_soil_sound; lra|]. destruct (ex_liselig_run 1 7 [ex_train 100 [50000]] 10 0) as [a [r [h1 [h2 h3]]]]; [lia| |exists 100, [50000]; split; [left; reflexivity|cbn; lra]|].
  - intros t [<-|[]]. exists 100, 50000. reflexivity.
  - exists a, r. cbn [do_stages]. rewrite h1. repeat split; assumption.
Qed.

(** ** C76: the law of Li and Selig *)

Theorem C76_liselig_law li steps s a r : sound_soils li -> sg_reload s = false ->
  (forall t, In t (sg_trains s) -> 0 <= per_day t /\ 0 < nsum (map per_day (sg_trains s)) * 365 * li_t_ini li + loads s t) ->
  do_stage (new_accumulation (ELiSelig li None) steps) s = Ok a -> ac_results a = Some r ->
  let K := length (rs_time r) in
  forall i, (i < length (rs_nodes r))%nat -> exists layers devs,
    node_layers li (nth i (rs_nodes r) 0%nat) layers /\ node_stresses li (sg_trains s) (nth i (rs_nodes r) 0%nat) layers devs /\
    length (nth i (rs_disp r) []) = K /\
    forall j, (j < K)%nat ->
      nth j (nth i (rs_disp r) []) 0 = profile_law layers devs (fun t => loads_before li s K j (nth t (sg_trains s) train0)) -
                                       profile_law layers devs (fun t => loads_before li s K 0 (nth t (sg_trains s) train0)).
Proof.
  intros hs hre hl h hr K0 i hi. destruct (fresh_rows _ _ _ h hre) as [r2 [tf [top [N [K [nodes [raw [c2 [c3 [c4 [c5 [c6 [c7 [c8 [c9 _]]]]]]]]]]]]]]].
  assert (r2 = r) by congruence. subst r2. cbn in c4. inversion c4 as [|li' st st' all h1 h2 h3 h4]; subst. destruct (c9 i hi) as [_ ->].
  assert (hK : K0 = K) by (unfold K0; rewrite c6, (rd_time _ _ _ _ _ _ _ _ c3); apply ls_length). rewrite hK.
  apply (liselig_values li all tf s _ top N K _ _ hs h1 c3); [intros t ht; apply hl; exact ht|intros t ht; apply hl; exact ht|apply h2; exact hi].
Qed.
Print Assumptions C76_liselig_law.
(** the hypotheses hold in [C59_liselig_case] *)

(** without the condition on the loads the settlements can be negative: a type that does not run in the period, but has forces,
    lifts the track *)
Theorem C59_idle_refuted : exists li trains a r, sound_soils li /\ (forall t, In t trains -> 0 <= per_day t) /\
  do_stage (new_accumulation (ELiSelig li None) 1) (ex_stage trains 1 0 false) = Ok a /\ ac_results a = Some r /\
  exists j, (j < length (rs_time r))%nat /\ nth j (nth 0 (rs_disp r) []) 0 < 0.
Proof.
  set (trains := [ex_train 4 [0]; ex_train 0 [1000]]). set (li := ex_liselig (1 / 365)).
  destruct (ex_liselig_run (1 / 365) 1 trains 1 0) as [a [r [h1 [h2 h3]]]]; [lia| |exists 4, [0]; split; [left; reflexivity|cbn; lra]|].
  { intros t [<-|[<-|[]]]; eexists; eexists; reflexivity. }
  exists li, trains, a, r. split; [apply ex_soil_sound; lra|]. split; [intros t [<-|[<-|[]]]; unfold per_day; cbn; lra|]. split; [exact h1|]. split; [exact h2|].
  destruct (C76_liselig_law li 1 (ex_stage trains 1 0 false) a r) with (i := 0%nat) as [layers [devs [g1 [g2 [g3 g4]]]]].
  - apply ex_soil_sound. lra.
  - reflexivity.
  - intros t [<-|[<-|[]]]; unfold loads, per_day; cbn; rnum; lra.
  - exact h1.
  - exact h2.
  - rewrite h3. cbn. lia.
  - rewrite h3 in *. cbn [nth] in *.
    assert (hly : layers = [ex_layer]).
    { apply (layers_unique li 0); [apply ex_soil_sound; lra|exact g1|]. exists 0%nat, ex_soil. split; [reflexivity|]. split; [reflexivity|]. split; [reflexivity|].
      pose proof (ex_layers (1 / 365)) as he. cbn [ex_liselig li_soils li_last mapr] in he. unbind he. cbn [rbind] in he. assert (v = [ex_layer]) by congruence. subst v.
      apply (soil_layers_spec (- 2) ex_soil [ex_layer]); [|exact hv]. unfold complete, ex_soil. cbn. lia. }
    subst layers. assert (hK : length (rs_time r) = 4%nat).
    { destruct (stage_step _ _ _ h1) as [tf [nb [top [N [K [e' [nodes [disp [r' [q1 [q2 [q3 [q4 q5]]]]]]]]]]]]]. subst a. cbn in h2. assert (r' = r) by congruence. subst r'.
      destruct (results_fresh _ _ _ _ _ q4) as [_ [-> _]]. rewrite (rd_time _ _ _ _ _ _ _ _ q1), ls_length. pose proof (rd_K _ _ _ _ _ _ _ _ q1) as eK. destruct (rd_top _ _ _ _ _ _ _ _ q1) as [t1 t2]. rewrite (rd_cycles _ _ _ _ _ _ _ _ q1) in t1, t2.
      cbn in t1, t2. assert (top = 4). { destruct t1 as [t1|[t1|[]]]; [unfold per_day in t1; cbn in t1; lra|]. specialize (t2 _ (or_introl eq_refl)). unfold per_day in t1, t2. cbn in t1, t2. lra. }
      subst top. assert (INR 4 = 4) as e4 by (cbn; lra). change (ac_steps _) with 1%nat in eK. assert (e5 : 4 / INR 1 = INR 4) by (cbn; lra). rewrite e5, trunc_INR in eK. lia. }
    rewrite hK in *. exists 3%nat. split; [lia|]. rewrite g4 by lia. destruct g2 as [d1 d2]. cbn in d1. unfold profile_law. rewrite d1. cbn [length sumn].
    destruct (d2 0%nat ltac:(cbn; lia)) as [_ [p [p1 p2]]]. destruct (d2 1%nat ltac:(cbn; lia)) as [_ [q [q1 q2]]]. specialize (p2 0%nat ltac:(cbn; lia)). specialize (q2 0%nat ltac:(cbn; lia)). cbn [nth] in *.
    assert (p = 0). { destruct p1 as [row [x1 x2]]. destruct (ex_peak 4 [0] 0 ltac:(cbn; lia) ltac:(cbn; lra)) as [row' [y1 y2]]. assert (row' = row) by (cbn in *; congruence). subst. eapply is_peak_unique; [exact x2|exact y2]. }
    assert (q = 1000). { destruct q1 as [row [x1 x2]]. destruct (ex_peak 0 [1000] 0 ltac:(cbn; lia) ltac:(cbn; lra)) as [row' [y1 y2]]. assert (row' = row) by (cbn in *; congruence). subst. eapply is_peak_unique; [exact x2|exact y2]. }
    subst p q. assert (e0 : nth 0 (nth 0 devs []) 0 = 0). { destruct p2 as [[k [_ ->]] _]. unfold shear. replace (0 / (li_length li * li_width li) / 1000) with 0 by (unfold Rdiv; ring). rewrite Rabs_R0. unfold Rdiv. ring. }
    assert (e1 : 0 < nth 0 (nth 1 devs []) 0).
    { destruct q2 as [_ q2]. eapply Rlt_le_trans; [|apply (q2 0%nat); lia]. cbn. apply shear_pos; lra. }
    set (d := nth 0 (nth 1 devs []) 0) in *. rewrite e0. unfold power_law at 1 3. cbn [ex_layer ly_a ly_m ly_b ly_thickness ly_strength].
    assert (ez : power (0 / 1) (20 / 10) = 0). { unfold power. destruct (Req_EM_T (0 / 1) 0); [|lra]. destruct (Req_EM_T (20 / 10) 0); [lra|reflexivity]. }
    rewrite ez. unfold loads_before. cbn [ex_stage sg_trains sg_end sg_start]. unfold power_law, trains, li. cbn [ex_layer ly_a ly_m ly_b ly_thickness ly_strength map nsum fold_right ex_liselig li_t_ini nth].
    unfold loads, per_day. cbn [ex_train tt_per_hour tt_hours tt_axles ex_stage sg_end sg_start]. rnum.
    replace (INR 0 / INR (4 - 1)) with 0 by (cbn; unfold Rdiv; ring). replace (INR 3 / INR (4 - 1)) with 1 by (cbn; field).
    assert (hlt : Rpower 4 (16 / 100) < Rpower 5 (16 / 100)) by (apply Rlt_Rpower_l; lra).
    assert (hd : 0 < power (d / 1) (20 / 10)) by (rewrite power_pos by (unfold Rdiv; rewrite Rinv_1, Rmult_1_r; exact e1); apply Rpower_pos).
    replace ((4 * 1 * 1 + (0 * 1 * 1 + 0)) * 365 * (1 / 365) + 1 + 1 * (0 * 1 * 1 * (1 - 0) - 1)) with 4 by field.
    replace ((4 * 1 * 1 + (0 * 1 * 1 + 0)) * 365 * (1 / 365) + 1 + 0 * (0 * 1 * 1 * (1 - 0) - 1)) with 5 by field. nra.
Qed.
Print Assumptions C59_idle_refuted.

(** ** C77: the Varandas law for traffic of one type *)

(** with [N] loads in the period, report [j] is after load [f j + 1], and the loads have weights [1, 1/2^beta, 1/3^beta, ...] *)
Theorem C77_varandas_law v n0 steps t e s0 idx a r : reference_cycles v n0 -> 0 < va_F0 v ->
  do_stage (new_accumulation (EVarandas v None) steps) {| sg_trains := [t]; sg_end := e; sg_start := s0; sg_idx := idx; sg_reload := false |} = Ok a -> ac_results a = Some r ->
  s0 <= per_day t * (e - s0) -> (1 <= length (rs_time r))%nat ->
  exists N f, INR N <= per_day t * (e - s0) < INR N + 1 /\
    let K := length (rs_time r) in
    f 0%nat = 0%nat /\ (forall i j, (i < j < K)%nat -> (f i < f j)%nat) /\ (forall j, (j < K)%nat -> (f j < N)%nat) /\ ((2 <= K)%nat -> f (K - 1)%nat = (N - 1)%nat) /\
    forall i p, (i < length (rs_nodes r))%nat -> node_peak t (nth i (rs_nodes r) 0%nat) p -> 0 < p ->
      length (nth i (rs_disp r) []) = K /\
      forall j, (j < K)%nat -> nth j (nth i (rs_disp r) []) 0 = load_settlement v n0 (p / 1000) * weights (va_beta v) (S (f j)).
Proof.
  intros hn0 hF0 h hr hs hK. destruct (varandas_fresh (new_accumulation (EVarandas v None) steps) v None {| sg_trains := [t]; sg_end := e; sg_start := s0; sg_idx := idx; sg_reload := false |} a r eq_refl eq_refl h hr) as [tf [top [N [K [st' [h1 [h2 [h3 [h4 [h5 h6]]]]]]]]]]. rewrite h3 in *. cbn [sg_trains sg_start sg_end] in h1.
  pose proof (rd_KN _ _ _ _ _ _ _ _ h1) as hKN. exists N, (reported N K). pose proof (top_whole _ _ _ _ _ _ _ _ h1 ltac:(lia)) as ht. destruct (rd_top _ _ _ _ _ _ _ _ h1) as [q1 _]. rewrite (rd_cycles _ _ _ _ _ _ _ _ h1) in q1. destruct q1 as [<-|[]].
  split; [exact ht|]. cbv zeta. split; [apply reported_first; exact hKN|]. split; [intros; apply reported_lt; assumption|]. split; [intros; apply reported_bound; assumption|]. split; [intros; apply reported_last; lia|].
  intros i p hi hp hp0. destruct (h6 i hi) as [fo [g1 g2]]. pose proof (single_peak _ _ _ _ _ _ _ _ _ _ _ h1 g1 hp) as ->.
  destruct (single_run v n0 t _ _ _ tf _ N K p (p / 1000) (0, [0]) _ hn0 hF0 h1 eq_refl hp0 hs ltac:(lia) g2 0%nat) as [k1 [k2 k3]]; [left; split; reflexivity|]. cbn [fst] in k1, k2. split; [exact k1|].
  intros j hj. rewrite k2 by exact hj. rewrite weights_0. unfold reported. cbn [Nat.add]. ring.
Qed.
Print Assumptions C77_varandas_law.
Example C77_case : reference_cycles ex_varandas (Z.to_nat 999999) /\ exists a r, do_stage (new_accumulation (EVarandas ex_varandas None) 7) (ex_stage [ex_train 100 [50000; 20000]] 10 0 false) = Ok a /\
  ac_results a = Some r /\ rs_nodes r = [0; 1]%nat /\ node_peak (ex_train 100 [50000; 20000]) 1 20000.
Proof.
  split.
  - unfold reference_cycles, ex_varandas. cbn [va_N0]. rewrite S_INR, INR_IZR_INZ, Z2Nat.id by lia. lra.
  - destruct (ex_run ex_varandas None 7 None [ex_train 100 [50000; 20000]] 10 0 2) as [a [r [h1 [h2 h3]]]]; [lia| |exists 100, [50000; 20000]; split; [left; reflexivity|lra]|].
    + intros t [<-|[]]. exists 100, [50000; 20000]. split; reflexivity.
    + exists a, r. split; [exact h1|]. split; [exact h2|]. split; [exact h3|]. apply (ex_peak 100 [50000; 20000] 1); cbn; [lia|lra].
Qed.

(** ** C60: number of loads *)

Lemma several_values v n0 st steps res s a r (cs : list nat) : reference_cycles v n0 -> 0 < va_F0 v -> sg_reload s = false -> sg_start s = 0 ->
  map (loads s) (sg_trains s) = map INR cs ->
  do_stage {| ac_engine := EVarandas v st; ac_steps := steps; ac_traffic := None; ac_results := res |} s = Ok a -> ac_results a = Some r ->
  forall N, In N cs -> (forall c, In c cs -> (c <= N)%nat) -> (2 <= length (rs_time r) \/ length (rs_time r) = 1 /\ N = 1)%nat ->
  forall i ps F, (i < length (rs_nodes r))%nat -> length ps = length (sg_trains s) ->
  (forall k, (k < length ps)%nat -> node_peak (nth k (sg_trains s) train0) (nth i (rs_nodes r) 0%nat) (nth k ps 0) /\ 0 < nth k ps 0) ->
  In F ps -> (forall p, In p ps -> p <= F) ->
  last (nth i (rs_disp r) []) 0 =
  load_settlement v n0 (F / 1000) * (INR (length cs) - 1 + weights (va_beta v) (1 + list_sum (map (fun c => Nat.min (N - 1) c) cs))).
Proof.
  intros hn0 hF0 hre hs0 hcs h hr N hN hmax hK i ps F hi hps hpk hF hFm.
  destruct (varandas_fresh {| ac_engine := EVarandas v st; ac_steps := steps; ac_traffic := None; ac_results := res |} v st s a r eq_refl hre h hr) as [tf [top [N' [K [st' [h1 [h2 [h3 [h4 [h5 h6]]]]]]]]]]. rewrite h3 in *.
  destruct (h6 i hi) as [fo [g1 g2]]. destruct (peaks_of_trains _ _ _ _ _ _ _ _ _ _ h1 g1) as [f1 f2]. destruct (rd_top _ _ _ _ _ _ _ _ h1) as [t1 t2].
  assert (hcy : tf_cycles tf = map INR cs) by (rewrite (rd_cycles _ _ _ _ _ _ _ _ h1), <- hcs; reflexivity). rewrite hcy in t1, t2.
  assert (top = INR N) as ->. { apply Rle_antisym; [|apply t2; apply in_map; exact hN]. apply in_map_iff in t1. destruct t1 as [c [<- hc]]. apply le_INR. apply hmax. exact hc. }
  assert (N' = N) as -> by (pose proof (rd_N _ _ _ _ _ _ _ _ h1) as e; rewrite trunc_INR in e; lia).
  pose proof (rd_KN _ _ _ _ _ _ _ _ h1) as hKN. destruct (varandas_node_spec _ _ _ _ _ _ _ _ _ _ _ _ h1 g2) as [tp [k1 [k2 [k3 k4]]]]. cbn [fst] in k2, k3.
  assert (hfo : forall k, (k < length fo)%nat -> nth k fo 0 = nth k ps 0 / 1000). { intros k hk. apply f2; [lia|]. apply hpk. lia. }
  assert (hpos : forall f, In f fo -> 0 < f). { intros f hf. destruct (In_nth _ _ 0 hf) as [k [hk <-]]. rewrite hfo by exact hk. unfold Rdiv. apply Rmult_lt_0_compat; [apply hpk; lia|lra]. }
  assert (tp = F / 1000) as ->.
  { apply max_of_ok in k1. destruct k1 as [a1 a2]. apply Rle_antisym.
    - destruct (In_nth _ _ 0 a1) as [k [hk <-]]. rewrite hfo by exact hk. unfold Rdiv. apply Rmult_le_compat_r; [lra|]. apply hFm. apply nth_In. lia.
    - destruct (In_nth _ _ 0 hF) as [k [hk <-]]. rewrite <- hfo by lia. apply a2. apply nth_In. lia. }
  assert (hF0' : 0 <= F / 1000). { destruct (In_nth _ _ 0 hF) as [k [hk <-]]. destruct (hpk k hk) as [_ b]. unfold Rdiv. apply Rmult_le_pos; lra. }
  assert (hcl : length cs = length (sg_trains s)) by (apply (f_equal (@length R)) in hcs; rewrite !map_length in hcs; lia).
  pose proof (several v (F / 1000) hF0 hF0' cs fo N ltac:(lia) hpos ltac:(lia)) as hse. cbv zeta in hse.
  rewrite (reference_n0 _ _ hn0) in hse.
  assert (hlast : last (nth i (rs_disp r) []) 0 = nth (K - 1) (nth i (rs_disp r) []) 0) by (rewrite (nth_last _ 0), k2; [reflexivity|intros e; rewrite e in k2; cbn in k2; lia]).
  rewrite hlast, k3 by lia. assert (hidx : Z.to_nat (nth (K - 1) (stored N K) 0%Z) = (N - 1)%nat).
  { destruct hK as [hK|[-> ->]]; [apply (reported_last N K); lia|]. rewrite stored_one. reflexivity. }
  rewrite hidx. unfold node_history. rewrite hcy, (rd_count _ _ _ _ _ _ _ _ h1), hs0, count_linspace by lia. cbn [fst snd]. rewrite <- hcl. rewrite counting_map in hse. rewrite hse. unfold load_settlement. field.
Qed.

(** what happens: with a start at time zero and whole numbers [cs] of cycles, each type contributes [1 + min (N - 1) c] loads,
    where [N] is the largest of the [cs]: one load too many unless [c = N]; all loads count with the largest force [F], and the
    first loads of all types have weight one *)
Theorem C60_count v n0 steps s a r (cs : list nat) : reference_cycles v n0 -> 0 < va_F0 v -> sg_reload s = false -> sg_start s = 0 ->
  map (loads s) (sg_trains s) = map INR cs ->
  do_stage (new_accumulation (EVarandas v None) steps) s = Ok a -> ac_results a = Some r -> (2 <= length (rs_time r))%nat ->
  forall N, In N cs -> (forall c, In c cs -> (c <= N)%nat) ->
  forall i ps F, (i < length (rs_nodes r))%nat -> length ps = length (sg_trains s) ->
  (forall k, (k < length ps)%nat -> node_peak (nth k (sg_trains s) train0) (nth i (rs_nodes r) 0%nat) (nth k ps 0) /\ 0 < nth k ps 0) ->
  In F ps -> (forall p, In p ps -> p <= F) ->
  last (nth i (rs_disp r) []) 0 =
  load_settlement v n0 (F / 1000) * (INR (length cs) - 1 + weights (va_beta v) (1 + list_sum (map (fun c => Nat.min (N - 1) c) cs))).
Proof. intros. eapply several_values; eauto. Qed.
Print Assumptions C60_count.

(** when all types have the same whole number of cycles, the number of loads is the number of cycles of all types together *)
Theorem C60_equal_partial v n0 steps s a r N : reference_cycles v n0 -> 0 < va_F0 v -> sg_reload s = false -> sg_start s = 0 ->
  (forall t, In t (sg_trains s) -> loads s t = INR N) ->
  do_stage (new_accumulation (EVarandas v None) steps) s = Ok a -> ac_results a = Some r -> (2 <= length (rs_time r))%nat ->
  let m := length (sg_trains s) in
  forall i ps F, (i < length (rs_nodes r))%nat -> length ps = m ->
  (forall k, (k < length ps)%nat -> node_peak (nth k (sg_trains s) train0) (nth i (rs_nodes r) 0%nat) (nth k ps 0) /\ 0 < nth k ps 0) ->
  In F ps -> (forall p, In p ps -> p <= F) ->
  last (nth i (rs_disp r) []) 0 = load_settlement v n0 (F / 1000) * (INR m - 1 + weights (va_beta v) (1 + m * (N - 1))).
Proof.
  intros h1 h2 h3 h4 h5 h6 h7 h8 m i ps F h9 h10 h11 h12 h13. rewrite (C60_count v n0 steps s a r (repeat N m)) with (N := N) (ps := ps) (F := F); try assumption.
  - rewrite repeat_length. do 4 f_equal. clearbody m. clear. induction m as [|m IH]; [reflexivity|]. cbn [repeat map]. change (list_sum (Nat.min (N - 1) N :: ?l)) with (Nat.min (N - 1) N + list_sum l)%nat. rewrite IH. lia.
  - unfold m. clear - h5. induction (sg_trains s) as [|t l IH]; [reflexivity|]. cbn [map length repeat]. rewrite h5 by (left; reflexivity). f_equal. apply IH. intros. apply h5. right. assumption.
  - assert (hm : (1 <= m)%nat) by (rewrite <- h10; destruct ps; [destruct h12|cbn; lia]). destruct m; [lia|]. left. reflexivity.
  - intros c hc. apply repeat_spec in hc. lia.
Qed.
Print Assumptions C60_equal_partial.
Lemma run_length a0 s a r N : do_stage a0 s = Ok a -> ac_results a = Some r -> ac_steps a0 = 1%nat -> sg_reload s = false ->
  (exists t, In t (sg_trains s) /\ loads s t = INR N) -> (forall t, In t (sg_trains s) -> loads s t <= INR N) -> length (rs_time r) = N.
Proof.
  intros h2 h3 h0 h1 [t [ht e]] hm. destruct (fresh_rows _ _ _ h2 h1) as [r2 [tf [top [N' [K [nodes [raw [c2 [c3 [c4 [c5 [c6 _]]]]]]]]]]]]. assert (r2 = r) by congruence. subst r2.
  rewrite c6, (rd_time _ _ _ _ _ _ _ _ c3), ls_length. pose proof (rd_K _ _ _ _ _ _ _ _ c3) as eK. destruct (rd_top _ _ _ _ _ _ _ _ c3) as [t1 t2]. rewrite (rd_cycles _ _ _ _ _ _ _ _ c3) in t1, t2.
  assert (top = INR N) as ->. { apply Rle_antisym; [|rewrite <- e; apply t2; apply (in_map (loads s)); exact ht]. apply in_map_iff in t1. destruct t1 as [t' [<- ht']]. apply hm. exact ht'. }
  rewrite h0 in eK. replace (INR N / INR 1) with (INR N) in eK by (cbn; field). rewrite trunc_INR in eK. lia.
Qed.
Lemma load_settlement_pos v n0 F : sound_varandas v -> 0 < va_gamma v -> reference_cycles v n0 -> 0 < F -> 0 < load_settlement v n0 F.
Proof.
  intros [h1 [h2 [h3 h4]]] hg [h5 h6] hF. apply unit_pos; try lra. destruct n0; [cbn in h6; lra|lia].
Qed.
Lemma ex_loads c p e s reload trains : loads (ex_stage trains e s reload) (ex_train c p) = c * (e - s).
Proof. unfold loads, per_day. cbn. ring. Qed.

Example C60_case : exists a r, do_stage (new_accumulation (EVarandas ex_varandas None) 1) (ex_stage [ex_train 3 [50000]; ex_train 2 [20000]] 1 0 false) = Ok a /\ ac_results a = Some r /\
  rs_nodes r = [0%nat] /\ length (rs_time r) = 3%nat /\ map (loads (ex_stage [ex_train 3 [50000]; ex_train 2 [20000]] 1 0 false)) [ex_train 3 [50000]; ex_train 2 [20000]] = map INR [3; 2]%nat.
Proof.
  destruct (ex_run ex_varandas None 1 None [ex_train 3 [50000]; ex_train 2 [20000]] 1 0 1) as [a [r [h1 [h2 h3]]]]; [lia| |exists 3, [50000]; split; [left; reflexivity|lra]|].
  - intros t [<-|[<-|[]]]; eexists; eexists; split; reflexivity.
  - exists a, r. split; [exact h1|]. split; [exact h2|]. split; [exact h3|]. split.
    + apply (run_length _ _ _ _ 3 h1 h2 eq_refl eq_refl).
      * exists (ex_train 3 [50000]). split; [left; reflexivity|]. rewrite ex_loads. cbn. lra.
      * intros t [<-|[<-|[]]]; rewrite ex_loads; cbn; lra.
    + cbn [map]. rewrite !ex_loads. cbn. f_equal; [lra|f_equal; lra].
Qed.

(** a type that does not run adds a load: the settlement of the same traffic with and without it differs *)
Theorem C60_idle_refuted v n0 : sound_varandas v -> 0 < va_gamma v -> reference_cycles v n0 ->
  exists t idle a r a' r', loads (ex_stage [] 1 0 false) t = 2 /\ loads (ex_stage [] 1 0 false) idle = 0 /\
    do_stage (new_accumulation (EVarandas v None) 1) (ex_stage [t] 1 0 false) = Ok a /\ ac_results a = Some r /\
    do_stage (new_accumulation (EVarandas v None) 1) (ex_stage [t; idle] 1 0 false) = Ok a' /\ ac_results a' = Some r' /\
    0 < load_settlement v n0 1 /\ last (nth 0 (rs_disp r') []) 0 = last (nth 0 (rs_disp r) []) 0 + load_settlement v n0 1.
Proof.
  intros hv hg hn0. set (t := ex_train 2 [1000]). set (idle := ex_train 0 [1000]). exists t, idle.
  destruct (ex_run v None 1 None [t] 1 0 1) as [a [r [h1 [h2 h3]]]]; [lia|intros x [<-|[]]; eexists; eexists; split; reflexivity|exists 2, [1000]; split; [left; reflexivity|lra]|].
  destruct (ex_run v None 1 None [t; idle] 1 0 1) as [a' [r' [h1' [h2' h3']]]]; [lia|intros x [<-|[<-|[]]]; eexists; eexists; split; reflexivity|exists 2, [1000]; split; [left; reflexivity|lra]|].
  exists a, r, a', r'. split; [unfold t; rewrite ex_loads; lra|]. split; [unfold idle; rewrite ex_loads; lra|]. split; [exact h1|]. split; [exact h2|]. split; [exact h1'|]. split; [exact h2'|].
  assert (hp1 : node_peak t 0 1000) by (apply (ex_peak 2 [1000] 0); cbn; [lia|lra]). assert (hp2 : node_peak idle 0 1000) by (apply (ex_peak 0 [1000] 0); cbn; [lia|lra]).
  assert (hF0 : 0 < va_F0 v) by (destruct hv as [_ [_ [hv _]]]; exact hv).
  assert (e1 : last (nth 0 (rs_disp r) []) 0 = load_settlement v n0 1 * (INR 1 - 1 + weights (va_beta v) 2)).
  { replace 1 with (1000 / 1000) at 1 by field. apply (several_values v n0 None 1 None (ex_stage [t] 1 0 false) a r [2%nat] hn0 hF0 eq_refl eq_refl) with (N := 2%nat) (ps := [1000]); try assumption.
    - cbn [map ex_stage sg_trains]. unfold t. rewrite ex_loads. cbn. f_equal. lra.
    - left; reflexivity.
    - intros c [<-|[]]; lia.
    - left. rewrite (run_length _ _ _ _ 2 h1 h2 eq_refl eq_refl); [lia| |].
      + exists t. split; [left; reflexivity|]. unfold t. rewrite ex_loads. cbn. lra.
      + intros x [<-|[]]. unfold t. rewrite ex_loads. cbn. lra.
    - rewrite h3. cbn. lia.
    - reflexivity.
    - intros k hk. cbn in hk. replace k with 0%nat by lia. rewrite h3. cbn [seq nth ex_stage sg_trains]. split; [exact hp1|lra].
    - left; reflexivity.
    - intros p [<-|[]]; lra. }
  assert (e2 : last (nth 0 (rs_disp r') []) 0 = load_settlement v n0 1 * (INR 2 - 1 + weights (va_beta v) 2)).
  { replace 1 with (1000 / 1000) at 1 by field. apply (several_values v n0 None 1 None (ex_stage [t; idle] 1 0 false) a' r' [2%nat; 0%nat] hn0 hF0 eq_refl eq_refl) with (N := 2%nat) (ps := [1000; 1000]); try assumption.
    - cbn [map ex_stage sg_trains]. unfold t, idle. rewrite !ex_loads. cbn. f_equal; [lra|f_equal; lra].
    - left; reflexivity.
    - intros c [<-|[<-|[]]]; lia.
    - left. rewrite (run_length _ _ _ _ 2 h1' h2' eq_refl eq_refl); [lia| |].
      + exists t. split; [left; reflexivity|]. unfold t. rewrite ex_loads. cbn. lra.
      + intros x [<-|[<-|[]]]; unfold t, idle; rewrite ex_loads; cbn; lra.
    - rewrite h3'. cbn. lia.
    - reflexivity.
    - intros k hk. cbn in hk. rewrite h3'. destruct k as [|[|k]]; [| |lia]; cbn [seq nth ex_stage sg_trains]; (split; [assumption|lra]).
    - left; reflexivity.
    - intros p [<-|[<-|[]]]; lra. }
  split; [apply load_settlement_pos; try assumption; lra|]. rewrite e1, e2. replace (INR 2) with 2 by (cbn; lra). replace (INR 1) with 1 by reflexivity. ring.
Qed.
Print Assumptions C60_idle_refuted.


(** a type without force adds a load too: here of one cycle, next to one cycle of a type with force *)
Theorem C60_no_force_refuted v n0 : sound_varandas v -> 0 < va_gamma v -> reference_cycles v n0 ->
  exists t quiet a r a' r', loads (ex_stage [] 1 0 false) t = 1 /\ tt_forces quiet = [[0; - 0]] /\
    do_stage (new_accumulation (EVarandas v None) 1) (ex_stage [t] 1 0 false) = Ok a /\ ac_results a = Some r /\
    do_stage (new_accumulation (EVarandas v None) 1) (ex_stage [t; quiet] 1 0 false) = Ok a' /\ ac_results a' = Some r' /\
    last (nth 0 (rs_disp r) []) 0 = load_settlement v n0 1 /\
    last (nth 0 (rs_disp r') []) 0 = load_settlement v n0 1 * (1 + Rpower (1 / 2) (va_beta v)) /\
    last (nth 0 (rs_disp r) []) 0 < last (nth 0 (rs_disp r') []) 0.
Proof.
  intros hv hg hn0. set (t := ex_train 1 [1000]). set (idle := ex_train 1 [0]). exists t, idle.
  destruct (ex_run v None 1 None [t] 1 0 1) as [a [r [h1 [h2 h3]]]]; [lia|intros x [<-|[]]; eexists; eexists; split; reflexivity|exists 1, [1000]; split; [left; reflexivity|lra]|].
  destruct (ex_run v None 1 None [t; idle] 1 0 1) as [a' [r' [h1' [h2' h3']]]]; [lia|intros x [<-|[<-|[]]]; eexists; eexists; split; reflexivity|exists 1, [1000]; split; [left; reflexivity|lra]|].
  exists a, r, a', r'. split; [unfold t; rewrite ex_loads; lra|]. split; [reflexivity|]. split; [exact h1|]. split; [exact h2|]. split; [exact h1'|]. split; [exact h2'|].
  assert (hp1 : node_peak t 0 1000) by (apply (ex_peak 1 [1000] 0); cbn; [lia|lra]). assert (hp2 : node_peak idle 0 0) by (apply (ex_peak 1 [0] 0); cbn; [lia|lra]).
  assert (hF0 : 0 < va_F0 v) by (destruct hv as [_ [_ [hv _]]]; exact hv). pose proof (load_settlement_pos v n0 1 hv hg hn0 ltac:(lra)) as hu.
  assert (e1 : last (nth 0 (rs_disp r) []) 0 = load_settlement v n0 1).
  { replace (load_settlement v n0 1) with (load_settlement v n0 (1000 / 1000) * (INR 1 - 1 + weights (va_beta v) 1)) by (rewrite weights_1; replace (1000 / 1000) with 1 by field; cbn [INR]; ring).
    apply (several_values v n0 None 1 None (ex_stage [t] 1 0 false) a r [1%nat] hn0 hF0 eq_refl eq_refl) with (N := 1%nat) (ps := [1000]); try assumption.
    - cbn [map ex_stage sg_trains]. unfold t. rewrite ex_loads. cbn. f_equal. lra.
    - left; reflexivity.
    - intros c [<-|[]]; lia.
    - right. split; [|reflexivity]. apply (run_length _ _ _ _ 1 h1 h2 eq_refl eq_refl).
      + exists t. split; [left; reflexivity|]. unfold t. rewrite ex_loads. cbn. lra.
      + intros x [<-|[]]. unfold t. rewrite ex_loads. cbn. lra.
    - rewrite h3. cbn. lia.
    - reflexivity.
    - intros k hk. cbn in hk. replace k with 0%nat by lia. rewrite h3. cbn [seq nth ex_stage sg_trains]. split; [exact hp1|lra].
    - left; reflexivity.
    - intros p [<-|[]]; lra. }
  assert (e2 : last (nth 0 (rs_disp r') []) 0 = load_settlement v n0 1 * (1 + Rpower (1 / 2) (va_beta v))).
  { destruct (varandas_fresh {| ac_engine := EVarandas v None; ac_steps := 1; ac_traffic := None; ac_results := None |} v None (ex_stage [t; idle] 1 0 false) a' r' eq_refl eq_refl h1' h2') as [tf [top [N [K [st' [q1 [q2 [q3 [q4 [q5 q6]]]]]]]]]].
    cbn [ex_stage sg_trains sg_start sg_end ac_steps] in q1, q6.
    assert (hK : K = 1%nat). { rewrite <- q3. apply (run_length _ _ _ _ 1 h1' h2' eq_refl eq_refl); [exists t; split; [left; reflexivity|]; unfold t; rewrite ex_loads; cbn; lra|]. intros x [<-|[<-|[]]]; unfold t, idle; rewrite ex_loads; cbn; lra. }
    rewrite hK in *. rewrite h3' in q6. destruct (q6 0%nat ltac:(cbn; lia)) as [fo [f1 f2]]. cbn [seq nth] in f1. destruct (peaks_of_trains _ _ _ _ _ _ _ _ _ _ q1 f1) as [p1 p2].
    assert (fo = [1; 0]) as ->. { apply (nth_ext _ _ 0 0); [exact p1|]. cbn in p1. intros k hk. destruct k as [|[|k]]; [| |lia]; cbn [nth]; [rewrite (p2 0%nat 1000)|rewrite (p2 1%nat 0)]; cbn [length nth]; try lia; try assumption; lra. }
    destruct (varandas_node_spec _ _ _ _ _ _ _ _ _ _ _ _ q1 f2) as [tp [k1 [k2 [k3 _]]]]. cbn [fst] in k2, k3.
    assert (tp = 1) as ->. { apply max_of_ok in k1. destruct k1 as [[<-|[<-|[]]] k1]; [reflexivity|]. specialize (k1 1 (or_introl eq_refl)). lra. }
    destruct (rd_top _ _ _ _ _ _ _ _ q1) as [t1 _]. pose proof (rd_cycles _ _ _ _ _ _ _ _ q1) as hcy. cbn [map] in hcy. replace (per_day t * (1 - 0)) with 1 in hcy by (unfold t, per_day; cbn; ring). replace (per_day idle * (1 - 0)) with 1 in hcy by (unfold idle, per_day; cbn; ring).
    rewrite hcy in t1. assert (top = 1) by (destruct t1 as [<-|[<-|[]]]; reflexivity). subst top. assert (N = 1%nat) as -> by (pose proof (rd_N _ _ _ _ _ _ _ _ q1) as eN; change 1 with (INR 1) in eN; rewrite trunc_INR in eN; lia).
    rewrite (nth_last _ 0) by (intros e; rewrite e in k2; cbn in k2; lia). rewrite k2, k3 by lia. rewrite stored_one. cbn [Z.to_nat nth Nat.sub]. unfold node_history. rewrite hcy, (rd_count _ _ _ _ _ _ _ _ q1).
    set (F := linspace_nat 0 1 100). cbn [linspace_nat history fst snd length repeat cycle_trains].
    assert (l01 : nleb 0 1 = true) by (destruct (nlebP 0 1); [reflexivity|rnum; lra]). assert (l10 : nleb 1 0 = false) by (destruct (nlebP 1 0); [rnum; lra|reflexivity]). assert (l00 : nleb 0 0 = true) by (destruct (nlebP 0 0); [reflexivity|rnum; lra]).
    assert (g01 : nltb 0 1 = true) by (destruct (nltbP 0 1); [reflexivity|rnum; lra]). assert (g00 : nltb 0 0 = false) by (destruct (nltbP 0 0); [rnum; lra|reflexivity]).
    rewrite !l01, !l10, !l00, ?g01, ?g00. cbn [nth]. replace (nadd 0 (lit 1)) with (INR 1) by (rnum; cbn; ring).
    pose proof (cycle_at v 1 hF0 ltac:(lra) 0) as c0. pose proof (cycle_at v 1 hF0 ltac:(lra) 1) as c1. cbv zeta in c0, c1. change (INR 0) with 0 in c0. fold F in c0, c1. rewrite c0, c1. rewrite (weights_S _ 1), (weights_1 _), weights_0, (reference_n0 _ _ hn0). unfold load_settlement. rnum. replace (INR 2) with 2 by (cbn; lra). field. }
  split; [exact e1|]. split; [exact e2|]. rewrite e1, e2. pose proof (Rpower_pos (1 / 2) (va_beta v)). nra.
Qed.
Print Assumptions C60_no_force_refuted.

(** the same traffic in a period that starts later gives less settlement: of the two loads of the day from 3 to 4 only one counts *)
Theorem C60_start_refuted v n0 : sound_varandas v -> 0 < va_gamma v -> reference_cycles v n0 ->
  exists t a r a' r', loads (ex_stage [] 1 0 false) t = 2 /\ loads (ex_stage [] 4 3 false) t = 2 /\
    do_stage (new_accumulation (EVarandas v None) 1) (ex_stage [t] 1 0 false) = Ok a /\ ac_results a = Some r /\
    do_stage (new_accumulation (EVarandas v None) 1) (ex_stage [t] 4 3 false) = Ok a' /\ ac_results a' = Some r' /\
    last (nth 0 (rs_disp r) []) 0 = load_settlement v n0 1 * (1 + Rpower (1 / 2) (va_beta v)) /\
    last (nth 0 (rs_disp r') []) 0 = load_settlement v n0 1 /\
    last (nth 0 (rs_disp r') []) 0 < last (nth 0 (rs_disp r) []) 0.
Proof.
  intros hv hg hn0. set (t := ex_train 2 [1000]). exists t.
  destruct (ex_run v None 1 None [t] 1 0 1) as [a [r [h1 [h2 h3]]]]; [lia|intros x [<-|[]]; eexists; eexists; split; reflexivity|exists 2, [1000]; split; [left; reflexivity|lra]|].
  destruct (ex_run v None 1 None [t] 4 3 1) as [a' [r' [h1' [h2' h3']]]]; [lia|intros x [<-|[]]; eexists; eexists; split; reflexivity|exists 2, [1000]; split; [left; reflexivity|lra]|].
  exists a, r, a', r'. split; [unfold t; rewrite ex_loads; lra|]. split; [unfold t; rewrite ex_loads; lra|]. split; [exact h1|]. split; [exact h2|]. split; [exact h1'|]. split; [exact h2'|].
  assert (hp1 : node_peak t 0 1000) by (apply (ex_peak 2 [1000] 0); cbn; [lia|lra]).
  assert (hF0 : 0 < va_F0 v) by (destruct hv as [_ [_ [hv _]]]; exact hv). pose proof (load_settlement_pos v n0 1 hv hg hn0 ltac:(lra)) as hu.
  assert (e1 : last (nth 0 (rs_disp r) []) 0 = load_settlement v n0 1 * (1 + Rpower (1 / 2) (va_beta v))).
  { replace (load_settlement v n0 1 * (1 + Rpower (1 / 2) (va_beta v))) with (load_settlement v n0 (1000 / 1000) * (INR 1 - 1 + weights (va_beta v) 2)) by (rewrite (weights_S _ 1), weights_1; replace (1000 / 1000) with 1 by field; replace (INR 2) with 2 by (cbn; lra); replace (INR 1) with 1 by reflexivity; ring).
    apply (several_values v n0 None 1 None (ex_stage [t] 1 0 false) a r [2%nat] hn0 hF0 eq_refl eq_refl) with (N := 2%nat) (ps := [1000]); try assumption.
    - cbn [map ex_stage sg_trains]. unfold t. rewrite ex_loads. cbn. f_equal. lra.
    - left; reflexivity.
    - intros c [<-|[]]; lia.
    - left. rewrite (run_length _ _ _ _ 2 h1 h2 eq_refl eq_refl); [lia| |].
      + exists t. split; [left; reflexivity|]. unfold t. rewrite ex_loads. cbn. lra.
      + intros x [<-|[]]. unfold t. rewrite ex_loads. cbn. lra.
    - rewrite h3. cbn. lia.
    - reflexivity.
    - intros k hk. cbn in hk. replace k with 0%nat by lia. rewrite h3. cbn [seq nth ex_stage sg_trains]. split; [exact hp1|lra].
    - left; reflexivity.
    - intros p [<-|[]]; lra. }
  assert (e2 : last (nth 0 (rs_disp r') []) 0 = load_settlement v n0 1).
  { destruct (varandas_fresh {| ac_engine := EVarandas v None; ac_steps := 1; ac_traffic := None; ac_results := None |} v None (ex_stage [t] 4 3 false) a' r' eq_refl eq_refl h1' h2') as [tf [top [N [K [st' [q1 [q2 [q3 [q4 [q5 q6]]]]]]]]]].
    cbn [ex_stage sg_trains sg_start sg_end ac_steps] in q1, q6.
    assert (hK : K = 2%nat). { rewrite <- q3. apply (run_length _ _ _ _ 2 h1' h2' eq_refl eq_refl); [exists t; split; [left; reflexivity|]; unfold t; rewrite ex_loads; cbn; lra|]. intros x [<-|[]]; unfold t; rewrite ex_loads; cbn; lra. }
    rewrite hK in *. rewrite h3' in q6. destruct (q6 0%nat ltac:(cbn; lia)) as [fo [f1 f2]]. cbn [seq nth] in f1. rewrite (single_peak _ _ _ _ _ _ _ _ _ _ _ q1 f1 hp1) in f2.
    destruct (varandas_node_spec _ _ _ _ _ _ _ _ _ _ _ _ q1 f2) as [tp [k1 [k2 [k3 _]]]]. cbn [fst] in k2, k3. apply max_single in k1. replace (1000 / 1000) with 1 in * by field. subst tp.
    destruct (rd_top _ _ _ _ _ _ _ _ q1) as [t1 _]. pose proof (rd_cycles _ _ _ _ _ _ _ _ q1) as hcy. cbn [map] in hcy. replace (per_day t * (4 - 3)) with 2 in hcy by (unfold t, per_day; cbn; ring).
    rewrite hcy in t1. assert (top = 2) by (destruct t1 as [<-|[]]; reflexivity). subst top. assert (N = 2%nat) as -> by (pose proof (rd_N _ _ _ _ _ _ _ _ q1) as eN; replace 2 with (INR 2) in eN by (cbn; lra); rewrite trunc_INR in eN; lia).
    rewrite (nth_last _ 0) by (intros e; rewrite e in k2; cbn in k2; lia). rewrite k2, k3 by lia. rewrite stored_last by lia. cbn [Z.to_nat nth Nat.sub Z.of_nat Pos.of_succ_nat Pos.to_nat Pos.iter_op]. unfold node_history. rewrite hcy, (rd_count _ _ _ _ _ _ _ _ q1).
    set (F := linspace_nat 0 1 100). cbn [linspace_nat seq map app history fst snd length repeat cycle_trains]. set (n1 := nadd (nmul (nofnat 0) _) _). assert (hn1 : n1 = 3) by (unfold n1; rewrite nofnat_R; rnum; cbn; ring).
    assert (l32 : nleb n1 2 = false) by (rewrite hn1; destruct (nlebP 3 2) as [c|c]; [exfalso; clear - c; rnum; lra|reflexivity]). assert (l12 : nleb (IZR (Z.of_nat 2 - 1)) 2 = true) by (change (IZR (Z.of_nat 2 - 1)) with 1; destruct (nlebP 1 2) as [c|c]; [reflexivity|exfalso; clear - c; rnum; lra]).
    assert (l10 : nleb 1 0 = false) by (destruct (nlebP 1 0); [rnum; lra|reflexivity]). assert (g01 : nltb 0 1 = true) by (destruct (nltbP 0 1); [reflexivity|rnum; lra]).
    rewrite !l32, !l12, !l10, ?g01. change (Pos.to_nat 1) with 1%nat. cbn [nth].
    pose proof (cycle_at v 1 hF0 ltac:(lra) 0) as c0. cbv zeta in c0. change (INR 0) with 0 in c0. fold F in c0. rewrite c0. rewrite (weights_1 _), weights_0, (reference_n0 _ _ hn0). unfold load_settlement. rnum. field. }
  split; [exact e1|]. split; [exact e2|]. rewrite e1, e2. pose proof (Rpower_pos (1 / 2) (va_beta v)). nra.
Qed.
Print Assumptions C60_start_refuted.

(** ** C61: the reporting interval *)

(** the reports with interval [k] are among those with interval 1, in order, and end with the last one *)
Theorem C61_varandas v k0 l a0 k s a b ra rb : do_stages (new_accumulation (EVarandas v None) k0) l = Ok a0 ->
  do_stage (with_steps a0 k) s = Ok a -> do_stage (with_steps a0 1) s = Ok b -> ac_results a = Some ra -> ac_results b = Some rb ->
  let old := rs_time (earlier a0 s) in
  exists ta tb f, rs_time ra = old ++ ta /\ rs_time rb = old ++ tb /\ rs_nodes ra = rs_nodes rb /\
    (forall j j', (j < j' < length ta)%nat -> (f j < f j')%nat) /\ (forall j, (j < length ta)%nat -> (f j < length tb)%nat) /\
    ((2 <= length ta)%nat -> f (length ta - 1)%nat = (length tb - 1)%nat) /\
    forall i j, (i < length (rs_nodes ra))%nat -> (j < length ta)%nat ->
      nth (length old + j) (nth i (rs_disp ra) []) 0 = nth (length old + f j) (nth i (rs_disp rb) []) 0.
Proof.
  intros h0 h1 h2 h3 h4 old. destruct (varandas_reach v k0 l (new_accumulation (EVarandas v None) k0) a0) as [[st he] _]; [exists None; reflexivity|reflexivity|exact h0|].
  assert (hl : linked a0) by (eapply linked_stages; [|exact h0]; exact I).
  destruct (varandas_period (with_steps a0 k) v st s a ra hl he h1 h3) as [tf [top [N [K [p1 [p2 [p3 p4]]]]]]].
  destruct (varandas_period (with_steps a0 1) v st s b rb hl he h2 h4) as [tf' [top' [N' [K' [q1 [q2 [q3 q4]]]]]]]. cbn [with_steps ac_steps] in p1, q1.
  destruct (reads_top _ _ _ _ _ _ _ _ _ _ _ _ _ p1 q1) as [<- <-]. pose proof (rd_KN _ _ _ _ _ _ _ _ p1) as hKN.
  assert (K' = N) as ->. { pose proof (rd_K _ _ _ _ _ _ _ _ q1) as e1. replace (top / INR 1) with top in e1 by (cbn; field). rewrite (rd_N _ _ _ _ _ _ _ _ p1) in e1. lia. }
  pose proof (same_nodes _ _ _ _ _ _ _ h1 h2 h3 h4) as hn. exists (tf_time tf), (tf_time tf'), (reported N K). change (earlier (with_steps a0 k) s) with (earlier a0 s) in p2. change (earlier (with_steps a0 1) s) with (earlier a0 s) in q2.
  rewrite p3, q3. split; [exact p2|]. split; [exact q2|]. split; [exact hn|]. split; [intros; apply reported_lt; assumption|]. split; [intros; apply reported_bound; assumption|]. split; [intros; apply reported_last; lia|].
  intros i j hi hj. destruct (p4 i hi) as [raw [fo [tp [a1 [a2 [a3 [a4 [a5 a6]]]]]]]]. rewrite hn in hi. destruct (q4 i hi) as [raw' [fo' [tp' [b1 [b2 [b3 [b4 [b5 b6]]]]]]]]. rewrite hn in *.
  change (earlier_row (with_steps a0 k) s i) with (earlier_row a0 s i) in *. change (earlier_row (with_steps a0 1) s i) with (earlier_row a0 s i) in *. change (earlier (with_steps a0 k) s) with (earlier a0 s) in *. change (earlier (with_steps a0 1) s) with (earlier a0 s) in *. fold old in a2, b2.
  rewrite a3, b3. rewrite <- a2. rewrite !app_nth2_plus. pose proof (reported_bound N K j hKN hj) as hb.
  rewrite !(nth_map_d _ _ _ 0) by lia. f_equal. rewrite a6 by exact hj. rewrite b6 by exact hb. rewrite (reported_all N) by exact hb.
  assert (fo' = fo). { apply (node_peaks_unique tf (nth i (rs_nodes rb) 0%nat)); [|exact a4]. unfold node_peaks in b4 |- *. rewrite (rd_forces _ _ _ _ _ _ _ _ p1). rewrite (rd_forces _ _ _ _ _ _ _ _ q1) in b4. exact b4. }
  subst fo'. assert (tp' = tp) by congruence. subst tp'. unfold node_history. rewrite (rd_cycles _ _ _ _ _ _ _ _ p1), (rd_cycles _ _ _ _ _ _ _ _ q1), (rd_count _ _ _ _ _ _ _ _ p1), (rd_count _ _ _ _ _ _ _ _ q1). reflexivity.
Qed.
Print Assumptions C61_varandas.
Example C61_case : exists a ra b rb, let a0 := new_accumulation (EVarandas ex_varandas None) 7 in do_stages a0 [] = Ok a0 /\
  do_stage (with_steps a0 7) (ex_stage [ex_train 100 [50000; 0]] 10 0 false) = Ok a /\ ac_results a = Some ra /\ do_stage (with_steps a0 1) (ex_stage [ex_train 100 [50000; 0]] 10 0 false) = Ok b /\ ac_results b = Some rb.
Proof.
  destruct (ex_run ex_varandas None 7 None [ex_train 100 [50000; 0]] 10 0 2) as [a [ra [h1 [h2 h3]]]]; [lia|intros t [<-|[]]; exists 100, [50000; 0]; split; reflexivity|exists 100, [50000; 0]; split; [left; reflexivity|lra]|].
  destruct (ex_run ex_varandas None 1 None [ex_train 100 [50000; 0]] 10 0 2) as [b [rb [g1 [g2 g3]]]]; [lia|intros t [<-|[]]; exists 100, [50000; 0]; split; reflexivity|exists 100, [50000; 0]; split; [left; reflexivity|lra]|].
  exists a, ra, b, rb. cbv zeta. repeat split; assumption.
Qed.

(** the new settlements depend only on the fraction of the period that has passed; the fraction of the last report is one *)
Theorem C61_liselig li k0 l a0 k k' s a b ra rb : sound_soils li ->
  (forall t, In t (sg_trains s) -> 0 <= per_day t /\ 0 < nsum (map per_day (sg_trains s)) * 365 * li_t_ini li + loads s t) ->
  do_stages (new_accumulation (ELiSelig li None) k0) l = Ok a0 ->
  do_stage (with_steps a0 k) s = Ok a -> do_stage (with_steps a0 k') s = Ok b -> ac_results a = Some ra -> ac_results b = Some rb ->
  let old := rs_time (earlier a0 s) in
  exists ta tb, rs_time ra = old ++ ta /\ rs_time rb = old ++ tb /\ rs_nodes ra = rs_nodes rb /\
    forall i j j', (i < length (rs_nodes ra))%nat -> (2 <= length ta)%nat -> (2 <= length tb)%nat -> (j < length ta)%nat -> (j' < length tb)%nat ->
      INR j / INR (length ta - 1) = INR j' / INR (length tb - 1) ->
      nth (length old + j) (nth i (rs_disp ra) []) 0 = nth (length old + j') (nth i (rs_disp rb) []) 0.
Proof.
  intros hs hd h0 h1 h2 h3 h4 old. destruct (liselig_reach li l (new_accumulation (ELiSelig li None) k0) a0) as [st he]; [exists None; reflexivity|exact h0|].
  assert (hl : linked a0) by (eapply linked_stages; [|exact h0]; exact I).
  destruct (liselig_period (with_steps a0 k) li st s a ra hl he hs (fun t ht => proj1 (hd t ht)) (fun t ht => proj2 (hd t ht)) h1 h3) as [tf [K [p2 [p3 p4]]]].
  destruct (liselig_period (with_steps a0 k') li st s b rb hl he hs (fun t ht => proj1 (hd t ht)) (fun t ht => proj2 (hd t ht)) h2 h4) as [tf' [K' [q2 [q3 q4]]]].
  pose proof (same_nodes _ _ _ _ _ _ _ h1 h2 h3 h4) as hn. exists (tf_time tf), (tf_time tf'). rewrite p3, q3. split; [exact p2|]. split; [exact q2|]. split; [exact hn|].
  intros i j j' hi hK hK' hj hj' hf. destruct (p4 i hi) as [raw [ly [dv [a1 [a2 [a3 [a4 [a5 a6]]]]]]]]. rewrite hn in hi. destruct (q4 i hi) as [raw' [ly' [dv' [b1 [b2 [b3 [b4 [b5 b6]]]]]]]]. rewrite hn in *.
  change (earlier_row (with_steps a0 k) s i) with (earlier_row a0 s i) in *. change (earlier_row (with_steps a0 k') s i) with (earlier_row a0 s i) in *. change (earlier (with_steps a0 k) s) with (earlier a0 s) in *. change (earlier (with_steps a0 k') s) with (earlier a0 s) in *. fold old in a4, b4.
  rewrite a5, b5. rewrite <- a4. rewrite !app_nth2_plus. rewrite !(nth_map_d _ _ _ 0) by lia. f_equal. rewrite a6, b6 by assumption.
  rewrite (layers_unique _ _ _ _ hs b1 a1) in *. rewrite (stresses_unique _ _ _ _ _ _ b2 a2).
  f_equal; unfold profile_law; apply sumn_ext; intros t _; apply sumn_ext; intros x _; f_equal; unfold loads_before; [rewrite hf; reflexivity|]. cbn [INR]. unfold Rdiv. ring.
Qed.
Print Assumptions C61_liselig.
(** the hypotheses hold in [C59_liselig_case], with any two intervals *)

(** ** C62: continuing *)

(** every report of every node has a time, after any sequence of periods *)
Theorem C62_lengths e k l a r : do_stages (new_accumulation e k) l = Ok a -> ac_results a = Some r ->
  length (rs_disp r) = length (rs_nodes r) /\ forall row, In row (rs_disp r) -> length row = length (rs_time r).
Proof.
  intros h hr. assert (hl : linked a) by (eapply linked_stages; [|exact h]; exact I). unfold linked in hl. rewrite hr in hl. destruct hl as [h1 [h2 _]]. split; [exact h1|].
  intros row hrow. destruct (In_nth _ _ [] hrow) as [i [hi <-]]. apply h2. exact hi.
Qed.
Print Assumptions C62_lengths.

(** times and settlements are appended, the latter to those of the node at the same place in the list of nodes.  Partial: if the
    period is continued for other nodes, these are the settlements of other nodes, see [C62_other_nodes_refuted] *)
Theorem C62_appends_partial e k l a0 r0 s a r : do_stages (new_accumulation e k) l = Ok a0 -> ac_results a0 = Some r0 ->
  sg_reload s = true -> do_stage a0 s = Ok a -> ac_results a = Some r ->
  exists time, rs_time r = rs_time r0 ++ time /\ (length (rs_nodes r) <= length (rs_nodes r0))%nat /\
    forall i, (i < length (rs_nodes r))%nat -> nth i (rs_disp r0) [] <> [] /\
      exists new, nth i (rs_disp r) [] = nth i (rs_disp r0) [] ++ new /\ length new = length time /\
        ((exists v st, e = EVarandas v st /\ sound_varandas v /\ st = None) -> forall x, In x new -> last (nth i (rs_disp r0) []) 0 <= x) /\
        ((exists li st, e = ELiSelig li st) -> nth 0 new 0 = last (nth i (rs_disp r0) []) 0).
Proof.
  intros h0 hr0 hre h hr. assert (hl : linked a0) by (eapply linked_stages; [|exact h0]; exact I). pose proof hl as hl'. unfold linked in hl'. rewrite hr0 in hl'. destruct hl' as [l1 _].
  destruct (period_rows _ _ _ _ hl h hr) as [tf [top [N [K [raw [h1 [h2 [h3 [h4 [h5 [h6 h7]]]]]]]]]]]. specialize (h6 hre). assert (er : earlier a0 s = r0) by congruence. rewrite er in *. unfold earlier_row in h7. rewrite er in h7. exists (tf_time tf). split; [exact h3|]. split.
  - rewrite <- l1. destruct (rs_nodes r) as [|n0 ns] eqn:en; [cbn; lia|]. assert (hi : (length ns < length (n0 :: ns))%nat) by (cbn; lia). destruct (h7 _ hi) as [_ [_ [g3 _]]]. destruct (g3 hre) as [g3' _]. cbn [length]. lia.
  - intros i hi. destruct (h7 i hi) as [g1 [g2 [g3 g4]]]. destruct (g3 hre) as [_ g5]. split; [exact g5|]. eexists. split; [exact g4|]. split; [rewrite map_length; lia|]. split.
    + intros [v [st [-> [hv ->]]]] x hx. apply in_map_iff in hx. destruct hx as [y [<- hy]]. destruct (In_nth _ _ 0 hy) as [j [hj <-]].
      assert (hs : settled a0) by (apply (settled_stages l (new_accumulation (EVarandas v None) k) a0); [exact I|split; [split; [exact hv|exact I]|exact I]|intros; exact I|exact h0]).
      destruct hs as [hs _]. destruct (varandas_reach v k l (new_accumulation (EVarandas v None) k) a0) as [[st he] _]; [exists None; reflexivity|reflexivity|exact h0|].
      destruct (raw_settling _ _ _ _ _ _ _ _ _ _ _ _ h1 h2 hs) as [w _]; [rewrite he; exact I|]. destruct (w i hi) as [w1 _]. specialize (w1 j hj). lra.
    + intros [li [st ->]]. destruct (liselig_reach li l (new_accumulation (ELiSelig li st) k) a0) as [st2 he]; [exists st; reflexivity|exact h0|]. rewrite he in h2. inversion h2 as [|li' st0 st' all k1 k2 k3 k4]; subst.
      destruct (liselig_node_length _ _ _ _ _ (k2 i hi)) as [m1 [m2 m3]]. rewrite (nth_map_d _ _ _ 0); [|destruct (nth i raw []); [congruence|cbn; lia]]. rewrite m3. ring.
Qed.
Print Assumptions C62_appends_partial.

(** continuing with the traffic of one type is the same as one longer period: load [f j + 1] of the second period is load
    [N1 + f j + 1] in the law of [C77_varandas_law] *)
Theorem C62_uninterrupted v n0 steps t e1 s1 e2 s2 idx a1 r1 a2 r2 : reference_cycles v n0 -> 0 < va_F0 v ->
  do_stage (new_accumulation (EVarandas v None) steps) {| sg_trains := [t]; sg_end := e1; sg_start := s1; sg_idx := idx; sg_reload := false |} = Ok a1 -> ac_results a1 = Some r1 ->
  do_stage a1 {| sg_trains := [t]; sg_end := e2; sg_start := s2; sg_idx := idx; sg_reload := true |} = Ok a2 -> ac_results a2 = Some r2 ->
  s1 <= per_day t * (e1 - s1) -> s2 <= per_day t * (e2 - s2) -> (2 <= length (rs_time r1))%nat -> (1 <= length (rs_time r2) - length (rs_time r1))%nat ->
  exists N1 N2 f, INR N1 <= per_day t * (e1 - s1) < INR N1 + 1 /\ INR N2 <= per_day t * (e2 - s2) < INR N2 + 1 /\
    let K1 := length (rs_time r1) in let K2 := (length (rs_time r2) - K1)%nat in
    (forall i j, (i < j < K2)%nat -> (f i < f j)%nat) /\ (forall j, (j < K2)%nat -> (f j < N2)%nat) /\ ((2 <= K2)%nat -> f (K2 - 1)%nat = (N2 - 1)%nat) /\
    rs_nodes r2 = rs_nodes r1 /\
    forall i p, (i < length (rs_nodes r2))%nat -> node_peak t (nth i (rs_nodes r2) 0%nat) p -> 0 < p ->
      forall j, (j < K2)%nat -> nth (K1 + j) (nth i (rs_disp r2) []) 0 = load_settlement v n0 (p / 1000) * weights (va_beta v) (N1 + S (f j)).
Proof.
  intros hn0 hF0 h1 hr1 h2 hr2 hs1 hs2 hK1 hK2. set (st1 := {| sg_trains := [t]; sg_end := e1; sg_start := s1; sg_idx := idx; sg_reload := false |}) in *. set (st2 := {| sg_trains := [t]; sg_end := e2; sg_start := s2; sg_idx := idx; sg_reload := true |}) in *.
  destruct (varandas_fresh (new_accumulation (EVarandas v None) steps) v None st1 a1 r1 eq_refl eq_refl h1 hr1) as [tf [top [N [K [s0 [p1 [p2 [p3 [p4 [p5 p6]]]]]]]]]]. cbn [st1 sg_trains sg_start sg_end] in p1.
  assert (hl : linked a1) by (eapply linked_step; [|exact h1]; exact I).
  destruct (varandas_continued a1 v (Some s0) st2 a2 hl p4 h2 eq_refl) as [r [r' [tf' [top' [N' [K' [raw [s0' [s2' [c1 [c2 [c3 [c4 [c5 [c6 [c7 [c8 c9]]]]]]]]]]]]]]]]]. assert (r = r1) by congruence. assert (r' = r2) by congruence. subst r r'. assert (s0' = s0) by congruence. subst s0'. cbn [st2 sg_trains sg_start sg_end] in c3.
  assert (hlen : (length (rs_time r2) - length (rs_time r1) = K')%nat) by (rewrite c4, app_length, (rd_time _ _ _ _ _ _ _ _ c3), ls_length; lia). rewrite hlen in *. rewrite p3 in *.
  pose proof (rd_KN _ _ _ _ _ _ _ _ p1) as hKN. pose proof (rd_KN _ _ _ _ _ _ _ _ c3) as hKN'. pose proof (top_whole _ _ _ _ _ _ _ _ p1 ltac:(lia)) as ht. pose proof (top_whole _ _ _ _ _ _ _ _ c3 ltac:(lia)) as ht'.
  destruct (rd_top _ _ _ _ _ _ _ _ p1) as [q1 _]. rewrite (rd_cycles _ _ _ _ _ _ _ _ p1) in q1. destruct q1 as [<-|[]]. destruct (rd_top _ _ _ _ _ _ _ _ c3) as [q1 _]. rewrite (rd_cycles _ _ _ _ _ _ _ _ c3) in q1. destruct q1 as [<-|[]].
  exists N, N', (reported N' K'). split; [exact ht|]. split; [exact ht'|]. cbv zeta. rewrite hlen. split; [intros; apply reported_lt; assumption|]. split; [intros; apply reported_bound; assumption|]. split; [intros; apply reported_last; lia|].
  assert (hnodes : rs_nodes r2 = rs_nodes r1).
  { destruct (period_nodes _ _ _ _ h1 hr1) as [n1 [_ [n2 ->]]]. destruct (period_nodes _ _ _ _ h2 hr2) as [m1 [_ [m2 ->]]]. rewrite <- (n2 t), <- (m2 t) by (left; reflexivity). reflexivity. }
  split; [exact hnodes|]. intros i p hi hp hp0 j hj. destruct (c9 i hi) as [g1 [g2 [g3 [g4 [fo [g5 g6]]]]]]. pose proof (single_peak _ _ _ _ _ _ _ _ _ _ _ c3 g5 hp) as ->.
  rewrite hnodes in hi, hp. destruct (p6 i hi) as [fo1 [g7 g8]]. pose proof (single_peak _ _ _ _ _ _ _ _ _ _ _ p1 g7 hp) as ->.
  destruct (single_run v n0 t _ _ _ tf _ N K p (p / 1000) (0, [0]) _ hn0 hF0 p1 eq_refl hp0 hs1 ltac:(lia) g8 0%nat) as [k1 [k2 k3]]; [left; split; reflexivity|]. cbn [fst snd] in k1, k2, k3. rewrite k3 in g6. cbn [Nat.add] in g6.
  destruct (single_run v n0 t _ _ _ tf' _ N' K' p (p / 1000) _ _ hn0 hF0 c3 eq_refl hp0 hs2 ltac:(lia) g6 N) as [k4 [k5 k6]]; [right; split; [reflexivity|lia]|]. cbn [fst snd] in k4, k5.
  rewrite g4. rewrite <- k1. rewrite app_nth2_plus. rewrite (nth_map_d _ _ _ 0) by lia. rewrite k5 by exact hj. rewrite (nth_last _ 0) by exact g3. rewrite k1, k2 by lia. rewrite weights_0. cbn [Nat.add].
  assert (hlast : Z.to_nat (nth (K - 1) (stored N K) 0%Z) = (N - 1)%nat) by (apply (reported_last N K); lia). rewrite hlast. replace (S (N - 1)) with N by lia. unfold reported. ring.
Qed.
Print Assumptions C62_uninterrupted.

Definition ex_stage_at (trains : list (train_type R)) (e s : R) (idx : list nat) (reload : bool) : stage := {| sg_trains := trains; sg_end := e; sg_start := s; sg_idx := idx; sg_reload := reload |}.
(** two periods of one day with two loads each, the second continuing the first, for the node [i] and then the node [j] *)
Lemma ex_continued v i j : (i < 2)%nat -> (j < 2)%nat -> exists a1 r1 a2 r2, let t := ex_train 2 [1000; 0] in
  do_stage (new_accumulation (EVarandas v None) 1) (ex_stage_at [t] 1 0 [i] false) = Ok a1 /\ ac_results a1 = Some r1 /\ rs_nodes r1 = [i] /\ length (rs_time r1) = 2%nat /\
  do_stage a1 (ex_stage_at [t] 2 1 [j] true) = Ok a2 /\ ac_results a2 = Some r2 /\ rs_nodes r2 = [j].
Proof.
  intros hi hj. set (t := ex_train 2 [1000; 0]). assert (hrows : forall x, In x [t] -> length (tt_forces x) = 2%nat /\ forall row, In row (tt_forces x) -> row <> []).
  { intros x [<-|[]]. cbn. split; [reflexivity|]. intros row [<-|[<-|[]]]; discriminate. }
  destruct (varandas_total v None 1 (ex_stage_at [t] 1 0 [i] false) 2 eq_refl) with (res := @None (results R)) as [a1 h1]; [lia|discriminate|exact hrows| | |].
  { exists t. split; [left; reflexivity|]. unfold loads, per_day. cbn. lra. } { cbn. intros x [<-|[]]. exact hi. }
  assert (exists r1, ac_results a1 = Some r1) as [r1 hr1]. { destruct (stage_step _ _ _ h1) as [tf [nb [top [N [K [e' [nodes [disp [r [_ [_ [_ [_ ->]]]]]]]]]]]]]. exists r. reflexivity. }
  assert (hn1 : rs_nodes r1 = [i]) by (destruct (period_nodes _ _ _ _ h1 hr1) as [n1 [_ [n2 ->]]]; reflexivity).
  assert (hK : length (rs_time r1) = 2%nat).
  { apply (run_length _ _ _ _ 2 h1 hr1 eq_refl eq_refl); [exists t; split; [left; reflexivity|]|intros x [<-|[]]]; unfold loads, per_day; cbn; lra. }
  destruct (varandas_state v None 1 (ex_stage_at [t] 1 0 [i] false) a1 r1 eq_refl h1 hr1 ltac:(lia)) as [s0 [p1 [p2 [p3 [p4 [p5 p6]]]]]]. rewrite hn1 in *.
  destruct (varandas_again a1 v s0 (ex_stage_at [t] 2 1 [j] true) 2 r1) as [a2 h2]; try assumption; try reflexivity.
  - eapply linked_step; [|exact h1]. exact I.
  - destruct (stage_step _ _ _ h1) as [tf [nb [top [N [K [e' [nodes [disp [r [_ [_ [_ [_ ->]]]]]]]]]]]]]. cbn. lia.
  - discriminate.
  - exists t. split; [left; reflexivity|]. unfold loads, per_day. cbn. lra.
  - cbn. intros x [<-|[]]. exact hj.
  - intros l hl. rewrite (p3 l hl). cbn. lia.
  - cbn in p6 |- *. lia.
  - assert (exists r2, ac_results a2 = Some r2) as [r2 hr2]. { destruct (stage_step _ _ _ h2) as [tf [nb [top [N [K [e' [nodes [disp [r [_ [_ [_ [_ ->]]]]]]]]]]]]]. exists r. reflexivity. }
    exists a1, r1, a2, r2. cbv zeta. repeat split; try assumption. destruct (period_nodes _ _ _ _ h2 hr2) as [n1 [_ [n2 ->]]]. reflexivity.
Qed.
Example C62_case : exists a1 r1 a2 r2, do_stages (new_accumulation (EVarandas ex_varandas None) 1) [ex_stage_at [ex_train 2 [1000; 0]] 1 0 [0%nat] false] = Ok a1 /\ ac_results a1 = Some r1 /\
  do_stage a1 (ex_stage_at [ex_train 2 [1000; 0]] 2 1 [0%nat] true) = Ok a2 /\ ac_results a2 = Some r2 /\ rs_nodes r1 = [0%nat] /\ rs_nodes r2 = rs_nodes r1.
Proof.
  destruct (ex_continued ex_varandas 0 0) as [a1 [r1 [a2 [r2 [h1 [h2 [h3 [h4 [h5 [h6 h7]]]]]]]]]]; [lia|lia|]. exists a1, r1, a2, r2. cbn [do_stages]. rewrite h1. cbn [rbind]. repeat split; try assumption. congruence.
Qed.

(** a Li and Selig model keeps room for the train types of its first calculation: with more types a later period fails *)
Theorem C62_more_trains_refuted li steps s0 a0 s : do_stage (new_accumulation (ELiSelig li None) steps) s0 = Ok a0 ->
  (length (sg_trains s0) < length (sg_trains s))%nat -> forall a, do_stage a0 s <> Ok a.
Proof.
  intros h hl a h'. unfold do_stage in h, h'.
  assert (hcount : forall trains e st k tf nb, read_traffic trains e st k = Ok (tf, nb) -> length (tf_cycles tf) = length trains).
  { intros trains e st k tf nb hh. unfold read_traffic in hh. destruct (map _ trains) as [|n rest]; [discriminate|]. destruct (forallb _ _); [|discriminate]. unbind hh. assert (v = tf) as -> by congruence.
    destruct (read_info_ok _ _ _ _ _ hv) as [top [N [K hr]]]. rewrite (rd_cycles _ _ _ _ _ _ _ _ hr). apply map_length. }
  apply rbind_ok in h. destruct h as [b [hb h]]. unfold set_traffic in hb. apply rbind_ok in hb. destruct hb as [[tf nb] [ht hb]]. injection hb as <-.
  unfold calculate_settlement in h. cbn [ac_traffic ac_engine new_accumulation engine_settlement] in h. apply rbind_ok in h. destruct h as [[[e nodes] disp] [he h]].
  apply rbind_ok in he. destruct he as [st [hs he]]. injection he as <- _ _. apply rbind_ok in h. destruct h as [r [_ h]]. injection h as <-.
  apply rbind_ok in h'. destruct h' as [b [hb h']]. unfold set_traffic in hb. apply rbind_ok in hb. destruct hb as [[tf' nb'] [ht' hb]]. injection hb as <-.
  unfold calculate_settlement in h'. cbn [ac_traffic ac_engine engine_settlement] in h'. apply rbind_ok in h'. destruct h' as [x [he h']]. apply rbind_ok in he. destruct he as [st' [hs' _]].
  unfold liselig_settlement in hs, hs'. apply rbind_ok in hs. destruct hs as [p [_ hs]]. apply rbind_ok in hs. destruct hs as [ls [_ hs]].
  destruct (_ && _)%bool in hs; [|discriminate]. apply rbind_ok in hs. destruct hs as [out [_ hs]]. apply rbind_ok in hs. destruct hs as [dd [_ hs]]. injection hs as <-.
  apply rbind_ok in hs'. destruct hs' as [p' [_ hs']]. apply rbind_ok in hs'. destruct hs' as [ls' [_ hs']]. cbn [ls_shape fst snd] in hs'.
  destruct (Nat.leb_spec (length (tf_cycles tf')) (length (tf_cycles tf))) as [c|c]; [|rewrite Bool.andb_false_r in hs'; discriminate].
  rewrite (hcount _ _ _ _ _ _ ht), (hcount _ _ _ _ _ _ ht') in c. lia.
Qed.
Print Assumptions C62_more_trains_refuted.

(** continuing for another node is accepted: its settlements start with those of the node of the first period, although its
    force is zero *)
Theorem C62_other_nodes_refuted v n0 : sound_varandas v -> 0 < va_gamma v -> reference_cycles v n0 ->
  exists t a1 r1 a2 r2, node_peak t 1 0 /\
    do_stage (new_accumulation (EVarandas v None) 1) (ex_stage_at [t] 1 0 [0%nat] false) = Ok a1 /\ ac_results a1 = Some r1 /\ rs_nodes r1 = [0%nat] /\
    do_stage a1 (ex_stage_at [t] 2 1 [1%nat] true) = Ok a2 /\ ac_results a2 = Some r2 /\ rs_nodes r2 = [1%nat] /\
    nth 0 (nth 0 (rs_disp r2) []) 0 = nth 0 (nth 0 (rs_disp r1) []) 0 /\ 0 < nth 0 (nth 0 (rs_disp r2) []) 0.
Proof.
  intros hv hg hn0. destruct (ex_continued v 0 1) as [a1 [r1 [a2 [r2 [h1 [h2 [h3 [h4 [h5 [h6 h7]]]]]]]]]]; [lia|lia|]. set (t := ex_train 2 [1000; 0]) in *. exists t, a1, r1, a2, r2.
  split; [apply (ex_peak 2 [1000; 0] 1); cbn; [lia|lra]|]. repeat (split; [assumption|]).
  assert (hF0 : 0 < va_F0 v) by (destruct hv as [_ [_ [hv _]]]; exact hv).
  destruct (C77_varandas_law v n0 1 t 1 0 [0%nat] a1 r1 hn0 hF0 h1 h2) as [N [f [_ [f0 [_ [_ [_ hval]]]]]]]; [unfold per_day; cbn; lra|lia|]. rewrite h3 in hval.
  destruct (hval 0%nat 1000 ltac:(cbn; lia)) as [w1 w2]; [apply (ex_peak 2 [1000; 0] 0); cbn; [lia|lra]|lra|]. specialize (w2 0%nat ltac:(lia)). rewrite f0, weights_1 in w2.
  destruct (C62_appends_partial (EVarandas v None) 1 [ex_stage_at [t] 1 0 [0%nat] false] a1 r1 (ex_stage_at [t] 2 1 [1%nat] true) a2 r2) as [time [_ [_ happ]]]; [cbn [do_stages]; rewrite h1; reflexivity|exact h2|reflexivity|exact h5|exact h6|].
  rewrite h7 in happ. destruct (happ 0%nat ltac:(cbn; lia)) as [_ [new [e _]]]. rewrite e. rewrite app_nth1 by lia. split; [reflexivity|]. rewrite w2.
  pose proof (load_settlement_pos v n0 (1000 / 1000) hv hg hn0 ltac:(lra)). lra.
Qed.
Print Assumptions C62_other_nodes_refuted.

(** ** C63: reading traffic *)

Theorem C63_iff trains e s steps : (1 <= steps)%nat ->
  (exists out, read_traffic trains e s steps = Ok out) <->
  trains <> [] /\ (forall t u, In t trains -> In u trains -> length (tt_forces t) = length (tt_forces u)) /\ exists t, In t trains /\ -1 < per_day t * (e - s).
Proof.
  intros hk. split.
  - intros [[tf nb] h]. unfold read_traffic in h. destruct (map _ trains) as [|n rest] eqn:em; [discriminate|]. destruct (forallb _ _) eqn:ef; [|discriminate]. unbind h.
    destruct (read_info_ok _ _ _ _ _ hv) as [top [N [K hr]]]. assert (hn : trains <> []) by (intros ->; discriminate). split; [exact hn|].
    assert (hall : forall t, In t trains -> length (tt_forces t) = n).
    { intros t ht. apply (in_map (fun t => length (tt_forces t))) in ht. rewrite em in ht. destruct ht as [<-|ht]; [reflexivity|]. rewrite forallb_forall in ef. specialize (ef _ ht). apply Nat.eqb_eq in ef. lia. }
    split; [intros t u ht hu; rewrite (hall t ht), (hall u hu); reflexivity|]. destruct (rd_top _ _ _ _ _ _ _ _ hr) as [q1 _]. rewrite (rd_cycles _ _ _ _ _ _ _ _ hr) in q1. apply in_map_iff in q1. destruct q1 as [t [e1 ht]]. exists t. split; [exact ht|]. rewrite e1.
    destruct (Rlt_le_dec (-1) top) as [c|c]; [exact c|]. exfalso. pose proof (rd_N _ _ _ _ _ _ _ _ hr) as eN. unfold ntrunc in eN. destruct (nlebP (lit 0) top) as [c'|c']; [rnum; lra|]. unfold nceil in eN. rnum. destruct (nfloor_spec (- top)) as [f1 f2].
    assert (IZR 0 < IZR (nfloor (- top))) by lra. apply lt_IZR in H. lia.
  - intros [h1 [h2 h3]]. destruct trains as [|t0 l]; [congruence|]. destruct (read_total (t0 :: l) s e steps (length (tt_forces t0)) h1) as [tf htf]; [intros t ht; apply h2; [exact ht|left; reflexivity]|exact hk|exact h3|]. eexists. exact htf.
Qed.
Print Assumptions C63_iff.

(** the errors, and the numbers of cycles *)
Theorem C63_rejects trains e s steps : trains = [] \/ (exists t u, In t trains /\ In u trains /\ length (tt_forces t) <> length (tt_forces u)) -> read_traffic trains e s steps = Err ErrValue.
Proof.
  unfold read_traffic. intros [->|[t [u [ht [hu hne]]]]]; [reflexivity|]. destruct (map _ trains) as [|n rest] eqn:em; [reflexivity|]. destruct (forallb _ _) eqn:ef; [|reflexivity]. exfalso. apply hne.
  assert (hall : forall t, In t trains -> length (tt_forces t) = n).
  { intros x hx. apply (in_map (fun t => length (tt_forces t))) in hx. rewrite em in hx. destruct hx as [<-|hx]; [reflexivity|]. rewrite forallb_forall in ef. specialize (ef _ hx). apply Nat.eqb_eq in ef. lia. }
  rewrite (hall t ht), (hall u hu). reflexivity.
Qed.
Print Assumptions C63_rejects.
Theorem C63_cycles trains e s steps tf nb : read_traffic trains e s steps = Ok (tf, nb) ->
  (forall t, In t trains -> length (tt_forces t) = nb) /\ length (tf_cycles tf) = length trains /\ length (tf_cycles_day tf) = length trains /\ tf_forces tf = map tt_forces trains /\
  forall k, (k < length trains)%nat -> let t := nth k trains train0 in
    nth k (tf_cycles_day tf) 0 = tt_per_hour t * tt_hours t * tt_axles t /\ nth k (tf_cycles tf) 0 = tt_per_hour t * tt_hours t * tt_axles t * (e - s).
Proof.
  intros h. unfold read_traffic in h. destruct (map _ trains) as [|n rest] eqn:em; [discriminate|]. destruct (forallb _ _) eqn:ef; [|discriminate]. unbind h. assert (v = tf /\ n = nb) as [-> ->] by (split; congruence).
  destruct (read_info_ok _ _ _ _ _ hv) as [top [N [K hr]]]. split.
  { intros x hx. apply (in_map (fun t => length (tt_forces t))) in hx. rewrite em in hx. destruct hx as [<-|hx]; [reflexivity|]. rewrite forallb_forall in ef. specialize (ef _ hx). apply Nat.eqb_eq in ef. lia. }
  rewrite (rd_cycles _ _ _ _ _ _ _ _ hr), (rd_day _ _ _ _ _ _ _ _ hr). rewrite !map_length. split; [reflexivity|]. split; [reflexivity|]. split; [apply (rd_forces _ _ _ _ _ _ _ _ hr)|].
  intros k hk. rewrite !(nth_map_d _ _ _ train0) by exact hk. split; reflexivity.
Qed.
Print Assumptions C63_cycles.
Example C63_case : (exists out, read_traffic [ex_train 3 [1; 2]; ex_train 0 [3; 4]] 10 4 5 = Ok out) /\ read_traffic [ex_train 3 [1; 2]; ex_train 0 [3]] 10 4 5 = Err ErrValue.
Proof.
  split.
  - apply C63_iff; [lia|]. split; [discriminate|]. split; [intros t u [<-|[<-|[]]] [<-|[<-|[]]]; reflexivity|]. exists (ex_train 3 [1; 2]). split; [left; reflexivity|]. unfold per_day. cbn. lra.
  - apply C63_rejects. right. exists (ex_train 3 [1; 2]), (ex_train 0 [3]). repeat split; [left; reflexivity|right; left; reflexivity|discriminate].
Qed.
(** a period that ends before it starts is rejected too, although the node counts agree *)
Theorem C63_backwards_refuted : exists trains e s steps, (1 <= steps)%nat /\ trains <> [] /\ (forall t u, In t trains -> In u trains -> length (tt_forces t) = length (tt_forces u)) /\ ~ exists out, read_traffic trains e s steps = Ok out.
Proof.
  exists [ex_train 3 [1]], 0, 1, 1%nat. split; [lia|]. split; [discriminate|]. split; [intros t u [<-|[]] [<-|[]]; reflexivity|]. rewrite C63_iff by lia. intros [_ [_ [t [[<-|[]] h]]]]. unfold per_day in h. cbn in h. lra.
Qed.
Print Assumptions C63_backwards_refuted.

(** before the traffic has been read there is nothing to calculate *)
Theorem C63_unread e steps idx reload : calculate_settlement (new_accumulation e steps) idx reload = Err ErrAttribute.
Proof. reflexivity. Qed.
Print Assumptions C63_unread.

(** ** C78: soil classes *)

Theorem C78_classes name p : classify name = Ok p <-> soil_class name p.
Proof. apply classify_spec. Qed.
Print Assumptions C78_classes.
Theorem C78_unknown name : (forall p, ~ soil_class name p) -> classify name = Err ErrValue.
Proof. apply classify_unknown. Qed.
Print Assumptions C78_unknown.
Theorem C78_one_class name p q : soil_class name p -> soil_class name q -> p = q.
Proof. apply soil_class_unique. Qed.
Print Assumptions C78_one_class.
(** one unknown layer, in whichever profile, stops the calculation *)
Theorem C78_stops a s li st so name : ac_engine a = ELiSelig li st -> In so (li_soils li) -> In name (so_names so) -> (forall p, ~ soil_class name p) -> forall a', do_stage a s <> Ok a'.
Proof.
  intros he hso hname hun a' h. destruct (stage_step _ _ _ h) as [tf [nb [top [N [K [e' [nodes [disp [r [_ [_ [hset _]]]]]]]]]]]]. rewrite he in hset. unfold engine_settlement in hset. unbind hset.
  unfold liselig_settlement in hv. unbind hv. unbind hv. destruct (In_nth _ _ so hso) as [i [hi hn]]. pose proof (mapr_nth _ _ _ i so [] hv1 hi) as hl. rewrite hn in hl. unfold soil_layers in hl. unbind hl.
  destruct (In_nth _ _ String.EmptyString hname) as [k [hk hnk]]. pose proof (mapr_nth _ _ _ k String.EmptyString (0, 0, 0) hv2 hk) as hc. rewrite hnk, (classify_unknown _ hun) in hc. discriminate.
Qed.
Print Assumptions C78_stops.
(** a name with two underscores, and an unknown class *)
Example C78_case : soil_class (String.append "H_Rk_" "k&v") (12 / 10, 18 / 100, 24 / 10) /\ forall p, ~ soil_class "H_Rk_x" p.
Proof.
  split.
  - exists "k&v"%string. split.
    + split; [cbn; intuition discriminate|]. right. exists "H_Rk"%string. reflexivity.
    + unfold soil_table. cbn [In]. tauto.
  - intros p h. rewrite <- classify_spec, classify_table in h. unfold soil_table in h. cbn in h. discriminate.
Qed.
