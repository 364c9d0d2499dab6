(** * One answer, and a stiffer track never goes deeper under its load (C131) *)

From Coq Require Import Reals List Bool ZArith Arith FunctionalExtensionality Lia Lra.
From Verif Require Import Num PyBase Model_Geometry Model_System Spec_System Proofs_Dof Proofs_System Model_Element Spec_Element
  Proofs_Elements Proofs_Element Proofs_Beam Model_Accumulation Proofs_Accumulation Model_Coupled Model_Mesh Spec_Mesh Model_Track Spec_Track Spec_Generated Proofs_Track
  Proofs_Assembly Proofs_Generated Props_Generated Spec_Analytic Spec_Motion Proofs_Motion Spec_Chain Proofs_Chain Spec_Renumber Proofs_Renumber Spec_Balance Proofs_Balance Props_Balance
  Spec_Structure Proofs_Structure Proofs_Line Props_Structure Spec_Stiffer Proofs_Stiffer.
Import ListNotations.
Local Open Scope R_scope.

(** ** exactly one answer *)

(** The joined track of the scripts, constrained at the bottom of all segments and at both ends of the rail: for all loads on its nodes
    static equilibrium has exactly one answer, and so has every system of stiffness, mass and damping in any proportion, for all right
    hand sides *)
Theorem C131_one_answer h specs d r rail pad sleeper soils ls da :
  (1 <= r)%nat -> 1 / 1000000000 < d / INR r -> segments specs ->
  good_rail rail -> good_rod pad -> 0 <= sleeper -> Forall good_rod soils -> length soils = length specs ->
  (da_on da = true -> 0 <= da_ratio da /\ 0 < da_one da /\ 0 < da_two da) ->
  exists j c mesh cs, joins h specs d r j c mesh /\ script_constraints j c cs /\
    ((forall l i, In l ls -> In i (ld_nodes l) -> (i < length mesh)%nat) ->
     exists s ns' k, initialise_system (joined_mesh c mesh) (joined_parts j rail pad sleeper soils) ls cs da = Ok (s, ns', k) /\
     (exists x, in_balance s k x /\ forall y, in_balance s k y -> forall i, (i < k)%nat -> y i = x i) /\
     forall a m c f, 0 < a -> 0 <= m -> 0 <= c ->
      let mat i j := a * me (gK s) i j + m * me (gM s) i j + c * me (gC s) i j in
      exists x, (forall i, (i < k)%nat -> mulv k mat x i = f i) /\
        forall y, (forall i, (i < k)%nat -> mulv k mat y i = f i) -> forall i, (i < k)%nat -> y i = x i).
Proof.
  intros hr hd hsp h1 h2 h3 h4 h5 h6. destruct (C126_well_posed h specs d r rail pad sleeper soils ls da hr hd hsp h1 h2 h3 h4 h5 h6) as [j [c [mesh [cs [g1 [g2 g3]]]]]].
  exists j, c, mesh, cs. split; [exact g1|]. split; [exact g2|]. intros hl. destruct (g3 hl) as [s [ns' [k [hi hp]]]]. exists s, ns', k. split; [exact hi|].
  assert (g : forall a m c f, 0 < a -> 0 <= m -> 0 <= c ->
      let mat i j := a * me (gK s) i j + m * me (gM s) i j + c * me (gC s) i j in
      exists x, (forall i, (i < k)%nat -> mulv k mat x i = f i) /\
        forall y, (forall i, (i < k)%nat -> mulv k mat y i = f i) -> forall i, (i < k)%nat -> y i = x i).
  { intros a m c0 f ha hm hc mat. destruct (hp a m c0 ha hm hc) as [q1 q2]. destruct (definite_solves k _ q1 f) as [x hx]. exists x. split; [exact hx|].
    intros y hy. apply q2. intros i hlt. transitivity (f i); [exact (hy i hlt)|symmetry; exact (hx i hlt)]. }
  split; [|exact g]. destruct (g 1 0 0 (fun i => nth i (gF s) 0) ltac:(lra) ltac:(lra) ltac:(lra)) as [x [q1 q2]].
  assert (e : forall y i, mulv k (fun i j => 1 * me (gK s) i j + 0 * me (gM s) i j + 0 * me (gC s) i j) y i = mulv k (me (gK s)) y i) by (intros; unfold mulv; apply sumn_ext; intros; ring).
  exists x. split; [intros i hlt; rewrite <- e; apply q1; exact hlt|]. intros y hy. apply q2. intros i hlt. rewrite e. apply hy. exact hlt.
Qed.
Print Assumptions C131_one_answer.

(** ** stiffer models *)

(** Two models on the same nodes under the same loads. If in every displacement the second stores at least the energy of the first, and no
    direction moves in the second that is held in the first, then the loads do not do more work on the second. *)
Theorem C131_stiffer ns ps ps' ls cs cs' da da' s1 ns1 k1 s2 ns2 k2 x1 x2 :
  Forall shaped ps -> Forall (fun p => sound (settled ns p)) ps -> Forall shaped ps' -> Forall (fun p => sound (settled ns p)) ps' ->
  Forall plain_load ls ->
  initialise_system ns ps ls cs da = Ok (s1, ns1, k1) -> initialise_system ns ps' ls cs' da' = Ok (s2, ns2, k2) ->
  (forall u, nsum (map (fun p => part_form aux_stiffness ns u (settled ns p)) ps) <= nsum (map (fun p => part_form aux_stiffness ns u (settled ns p)) ps')) ->
  (forall p d, number_of ns1 p d = None -> number_of ns2 p d = None) ->
  in_balance s1 k1 x1 -> in_balance s2 k2 x2 ->
  0 <= load_work ls (field_of ns2 x2) <= load_work ls (field_of ns1 x1).
Proof.
  intros a1 a2 b1 b2 hp hi1 hi2 he hd hx1 hx2.
  destruct (initialise_sym _ _ _ _ _ _ _ _ a1 a2 hi1) as [hs _].
  destruct (initialise_inv _ _ _ _ _ _ _ _ hi1) as [s0 [_ [e0 _]]]. destruct (initialise_kept _ _ _ _ _ _ _ _ _ hi1 e0) as [_ [hnum _]].
  assert (w2 : work k2 (fun i => nth i (gF s2) 0) x2 = quad k2 (me (gK s2)) x2) by (rewrite quad_work; apply work_ext; [intros; symmetry; apply hx2; assumption|reflexivity]).
  pose proof (initialise_energy _ _ _ _ _ _ _ _ x2 b1 hi2) as [q2 _]. cbv zeta in q2.
  rewrite (forces_work _ _ _ _ _ _ _ _ x2 hi2 hp), q2 in w2.
  set (y := vector_of ns1 (field_of ns2 x2)).
  assert (ey : field_of ns1 y = field_of ns2 x2).
  { extensionality p. extensionality d. apply (vector_field ns1 k1); [exact hnum|]. intros p0 d0 h0. unfold field_of. rewrite (hd _ _ h0). reflexivity. }
  assert (hpsd : psd k1 (me (gK s1))).
  { intros z. pose proof (initialise_energy _ _ _ _ _ _ _ _ z a1 hi1) as [-> _]. apply nsum_nonneg, Forall_map, Forall_forall. intros p hpi. rewrite Forall_forall in a2.
    apply part_form_nonneg; [left; reflexivity|apply a2; exact hpi]. }
  pose proof (least_work k1 (me (gK s1)) (fun i => nth i (gF s1) 0) x1 y hs hpsd hx1) as g.
  pose proof (initialise_energy _ _ _ _ _ _ _ _ y a1 hi1) as [q1 _]. cbv zeta in q1.
  rewrite (forces_work _ _ _ _ _ _ _ _ y hi1 hp), (forces_work _ _ _ _ _ _ _ _ x1 hi1 hp), q1, ey in g. specialize (he (field_of ns2 x2)). rewrite <- w2 in he. split; [|lra].
  rewrite w2. apply nsum_nonneg, Forall_map, Forall_forall. intros p hpi. rewrite Forall_forall in b2. apply part_form_nonneg; [left; reflexivity|apply b2; exact hpi].
Qed.
Print Assumptions C131_stiffer.

(** ** joined tracks of the scripts *)

Lemma stiffer_good b b' : good_rail b -> stiffer_rail b b' -> good_rail b'.
Proof.
  intros [[h1 h2] h] [e1 [e2 [e3 [e4 [e5 [e6 [e7 [e8 e9]]]]]]]]. unfold good_rail, fixed_ends. rewrite e2, e3, e4, e5, e8, e9. repeat split; tauto || lra.
Qed.
Definition railed (b : beam R) (l : R) : beam R := mkBeam (b_E b) (b_nu b) (b_rho b) (b_A b) (b_I b) (b_shear_factor b) l (b_s1 b) (b_s2 b).
Lemma stiffer_factor b b' l : 0 < l -> good_rail b -> stiffer_rail b b' -> timoshenko_factor 0 (railed b' l) = timoshenko_factor 0 (railed b l).
Proof.
  intros hl [_ [g1 [g2 [g3 [g4 g5]]]]] [e1 [e2 [e3 [e4 [e5 [e6 _]]]]]]. unfold timoshenko_factor, shear_modulus, railed, sq. cbn [b_E b_nu b_A b_I b_shear_factor b_l]. rnum. rewrite e2, e4, e5, e6.
  destruct (nltbP 0 (b_shear_factor b)); [|reflexivity]. field. repeat split; lra.
Qed.
Lemma line_energy_stiffer b b' l u e : 0 < l -> good_rail b -> stiffer_rail b b' -> line_energy l b u e <= line_energy l b' u e.
Proof.
  intros hl hg hs. pose proof (stiffer_factor b b' l hl hg hs) as ef. unfold line_energy. cbv zeta.
  change (mkBeam (b_E b') (b_nu b') (b_rho b') (b_A b') (b_I b') (b_shear_factor b') l (b_s1 b') (b_s2 b')) with (railed b' l).
  change (mkBeam (b_E b) (b_nu b) (b_rho b) (b_A b) (b_I b) (b_shear_factor b) l (b_s1 b) (b_s2 b)) with (railed b l). rewrite ef.
  assert (hphi : 0 <= timoshenko_factor 0 (railed b l)). { apply timoshenko_nonneg. destruct hg as [_ hg]. unfold sound_beam, railed. cbn. tauto. }
  destruct hg as [_ [g1 [g2 [g3 _]]]]. destruct hs as [e1 [_ [_ [e4 [e5 _]]]]]. rewrite e4, e5.
  set (v1 := u (snd e) DX - u (fst e) DX). set (v2 := u (snd e) DR - u (fst e) DR). set (v3 := _ + l * _ / 2). set (phi := timoshenko_factor 0 (railed b l)) in *.
  assert (q : forall a v, 0 <= a -> b_E b * a * (v * v) <= b_E b' * a * (v * v)).
  { intros a v ha. apply Rmult_le_compat_r; [apply Rle_0_sqr|]. apply Rmult_le_compat_r; assumption. }
  assert (hl3 : 0 < (1 + phi) * (l * l * l)) by (apply Rmult_lt_0_compat; [lra|repeat apply Rmult_lt_0_compat; assumption]).
  pose proof (q (b_A b / l) v1 ltac:(apply Rlt_le, Rdiv_lt_0_compat; assumption)) as m1. pose proof (q (b_I b / l) v2 ltac:(apply Rlt_le, Rdiv_lt_0_compat; assumption)) as m2.
  pose proof (q (12 * b_I b / ((1 + phi) * (l * l * l))) v3 ltac:(apply Rlt_le, Rdiv_lt_0_compat; lra)) as m3.
  unfold Rdiv in *. nra.
Qed.
Lemma nsum_le {A} (f g : A -> R) l : (forall a, In a l -> f a <= g a) -> nsum (map f l) <= nsum (map g l).
Proof.
  induction l as [|a l IH]; intros h; cbn [map nsum]; rnum; [lra|]. pose proof (h a (or_introl eq_refl)). specialize (IH (fun b hb => h b (or_intror hb))). lra.
Qed.

Lemma same_length {A B} (q : A -> B -> Prop) l l' : Forall2 q l l' -> length l = length l'.
Proof. intros h. induction h; cbn; congruence. Qed.

Section Stiffer.
  Variables (c : heap R) (N : nat) (l : R) (j : joined).
  Hypothesis hline : line c N l j.
  Hypothesis hl : 0 < l.
  Variables (rail rail' : beam R) (pad pad' : R * option R * option R) (sleeper : R) (soils soils' : list (R * option R * option R)).
  Hypothesis hrail : good_rail rail.
  Hypothesis hpad : good_rod pad.
  Hypothesis hpad' : good_rod pad'.
  Hypothesis hsl : 0 <= sleeper.
  Hypothesis hsoils : Forall good_rod soils.
  Hypothesis hsoils' : Forall good_rod soils'.
  Hypothesis hcount : length soils = length (jn_soil j).
  Hypothesis srail : stiffer_rail rail rail'.
  Hypothesis spad : stiffer_rod pad pad'.
  Hypothesis ssoils : Forall2 stiffer_rod soils soils'.
  Let ns := joined_mesh c (seq 0 N).
  Let parts := joined_parts j rail pad sleeper soils.
  Let parts' := joined_parts j rail' pad' sleeper soils'.

  Lemma stiffer_count : length soils' = length (jn_soil j).
  Proof. rewrite <- hcount. symmetry. exact (same_length _ _ _ ssoils). Qed.

  Lemma soils_energy u : nsum (map (fun q => nsum (map (spring_energy (fst (fst (snd q))) u) (snd (fst q)))) (combine (jn_soil j) soils)) <=
    nsum (map (fun q => nsum (map (spring_energy (fst (fst (snd q))) u) (snd (fst q)))) (combine (jn_soil j) soils')).
  Proof.
    generalize (jn_soil j) as ps. clear - ssoils. revert ssoils. generalize soils soils'. clear. intros q q' hf. induction hf as [|v v' q q' hv _ IH]; intros ps; [destruct ps; cbn; lra|]. destruct ps as [|p ps]; [cbn; lra|].
    cbn [combine map nsum fst snd]. specialize (IH ps). rnum. apply Rplus_le_compat; [|exact IH]. apply nsum_le. intros e _. unfold spring_energy.
    apply Rmult_le_compat_r; [apply Rle_0_sqr|apply hv].
  Qed.
  Lemma joined_energy u : nsum (map (fun p => part_form aux_stiffness ns u (settled ns p)) parts) <= nsum (map (fun p => part_form aux_stiffness ns u (settled ns p)) parts').
  Proof.
    pose proof (stiffer_good _ _ hrail srail) as hr'. pose proof stiffer_count as hc'.
    assert (g : nsum (map (fun p => part_form aux_stiffness ns u (settled ns p)) parts) = nsum (map (line_energy l rail u) (jn_rail_els j)) + nsum (map (spring_energy (fst (fst pad)) u) (jn_pad_els j)) +
      nsum (map (fun q => nsum (map (spring_energy (fst (fst (snd q))) u) (snd (fst q)))) (combine (jn_soil j) soils))) by (destruct hline; eapply line_total; eassumption).
    assert (g' : nsum (map (fun p => part_form aux_stiffness ns u (settled ns p)) parts') = nsum (map (line_energy l rail' u) (jn_rail_els j)) + nsum (map (spring_energy (fst (fst pad')) u) (jn_pad_els j)) +
      nsum (map (fun q => nsum (map (spring_energy (fst (fst (snd q))) u) (snd (fst q)))) (combine (jn_soil j) soils'))) by (destruct hline; eapply line_total; eassumption).
    rewrite g, g'. apply Rplus_le_compat; [apply Rplus_le_compat|apply soils_energy].
    - apply nsum_le. intros e _. apply line_energy_stiffer; assumption.
    - apply nsum_le. intros e _. unfold spring_energy. apply Rmult_le_compat_r; [apply Rle_0_sqr|apply spad].
  Qed.

  (** the masses are the same *)
  Lemma joined_masses u : nsum (map (fun p => part_form aux_mass ns u (settled ns p)) parts') = nsum (map (fun p => part_form aux_mass ns u (settled ns p)) parts).
  Proof.
    unfold parts, parts', joined_parts. cbn [map nsum]. rewrite !map_map. rnum. f_equal; [|f_equal; [|f_equal]].
    - assert (e : settled ns (mkPart (KRail rail) (jn_rail_nodes j) (jn_rail_els j)) = mkPart (KRail (railed rail l)) (jn_rail_nodes j) (jn_rail_els j)) by (destruct hline; eapply line_settled; eassumption).
      assert (e' : settled ns (mkPart (KRail rail') (jn_rail_nodes j) (jn_rail_els j)) = mkPart (KRail (railed rail' l)) (jn_rail_nodes j) (jn_rail_els j)) by (destruct hline; eapply line_settled; eassumption).
      rewrite e, e'. unfold part_form. cbn [ep_kind ep_els aux_mass element_form]. apply nsum_map_ext. intros a _.
      assert (em : beam_mass (railed rail' l) (timoshenko_factor (lit 0) (railed rail' l)) = beam_mass (railed rail l) (timoshenko_factor (lit 0) (railed rail l))).
      { rnum. rewrite (stiffer_factor rail rail' l hl hrail srail). destruct srail as [_ [_ [e3 [e4 [e5 _]]]]]. unfold beam_mass, trans_mass, rot_mass, railed. cbn [b_rho b_A b_I b_l]. rewrite e3, e4, e5. reflexivity. }
      rewrite em. reflexivity.
    - destruct spad as [_ e]. unfold springs. destruct pad as [[k0 c0] m0], pad' as [[k1 c1] m1]. cbn [fst snd] in *. subst m1. reflexivity.
    - generalize (jn_soil j) as ps. clear - ssoils. revert ssoils. generalize soils soils'. clear. intros q q' hf. induction hf as [|v v' q q' hv _ IH]; intros ps; [destruct ps; reflexivity|]. destruct ps as [|p ps]; [reflexivity|].
      cbn [combine map nsum fst snd]. rewrite (IH ps). f_equal. destruct hv as [_ e]. unfold springs. destruct v as [[k0 c0] m0], v' as [[k1 c1] m1]. cbn [fst snd] in *. subst m1. reflexivity.
  Qed.

  Let tol : R := 1 / 100000000.
  Hypothesis tall : tol < 12 * (b_E rail * b_I rail) / ((1 + timoshenko_factor 0 (railed rail l)) * (l * l * l)).
  Hypothesis tlong : tol < b_E rail * b_A rail / l.
  Hypothesis tturn : tol < b_E rail * b_I rail / l.
  Hypothesis tpad : tol < fst (fst pad).

  Lemma rail_kept p e : In p (jn_rail_nodes j) -> tol < nsum (map (fun a => part_form aux_stiffness ns (unit_field p e) (settled ns a)) parts).
  Proof.
    intros hp. assert (hn : exists e, In e (jn_rail_els j) /\ fst e <> snd e /\ (p = fst e \/ p = snd e)) by (destruct hline; eapply rail_neighbour; eassumption).
    destruct hn as [a [ha [hne hpa]]].
    assert (g : nsum (map (fun a => part_form aux_stiffness ns (unit_field p e) (settled ns a)) parts) = nsum (map (line_energy l rail (unit_field p e)) (jn_rail_els j)) + nsum (map (spring_energy (fst (fst pad)) (unit_field p e)) (jn_pad_els j)) +
      nsum (map (fun q => nsum (map (spring_energy (fst (fst (snd q))) (unit_field p e)) (snd (fst q)))) (combine (jn_soil j) soils))) by (destruct hline; eapply line_total; eassumption).
    rewrite g. clear g.
    pose proof (nsum_ge (line_energy l rail (unit_field p e)) (jn_rail_els j) a ltac:(intros; apply line_energy_nonneg; assumption) ha) as g1.
    pose proof (sum_nonneg (spring_energy (fst (fst pad)) (unit_field p e)) (jn_pad_els j) ltac:(intros; apply spring_energy_nonneg, Rlt_le, hpad)) as g2.
    assert (g3 : 0 <= nsum (map (fun q => nsum (map (spring_energy (fst (fst (snd q))) (unit_field p e)) (snd (fst q)))) (combine (jn_soil j) soils))).
    { apply sum_nonneg. intros [x v] hq. apply in_combine_r in hq. rewrite Forall_forall in hsoils. apply sum_nonneg. intros b _. apply spring_energy_nonneg, Rlt_le, (hsoils v hq). }
    cut (tol < line_energy l rail (unit_field p e) a); [lra|]. clear g1 g2 g3. unfold line_energy. cbv zeta. fold (railed rail l).
    set (phi := timoshenko_factor 0 (railed rail l)) in *.
    assert (hphi : 0 <= phi). { apply timoshenko_nonneg. destruct hrail as [_ hg]. unfold sound_beam, railed. cbn. tauto. }
    assert (hq : forall k v, 0 < k -> 0 <= k * (v * v)) by (intros; apply Rmult_le_pos; [lra|apply Rle_0_sqr]).
    assert (t0 : 0 < tol) by (unfold tol; lra).
    destruct e.
    - rewrite !(unit_across p DX _ DY), !(unit_across p DX _ DR) by discriminate. destruct hpa as [-> | ->]; rewrite unit_at, unit_elsewhere by congruence; unfold Rdiv in *; nra.
    - rewrite !(unit_across p DY _ DX), !(unit_across p DY _ DR) by discriminate. destruct hpa as [-> | ->]; rewrite unit_at, unit_elsewhere by congruence; unfold Rdiv in *; nra.
    - rewrite !(unit_across p DR _ DX), !(unit_across p DR _ DY) by discriminate. set (k3 := 12 * _ / _) in *.
      destruct hpa as [-> | ->]; rewrite unit_at, unit_elsewhere by congruence; [pose proof (hq k3 (0 - 0 + l * (1 + 0) / 2) ltac:(lra))|pose proof (hq k3 (0 - 0 + l * (0 + 1) / 2) ltac:(lra))]; lra.
  Qed.
  Lemma stiffer_dofs ls cs da da' s1 ns1 k1 s2 ns2 k2 p d : script_constraints j c cs ->
    initialise_system ns parts ls cs da = Ok (s1, ns1, k1) -> initialise_system ns parts' ls cs da' = Ok (s2, ns2, k2) ->
    number_of ns1 p d = None -> number_of ns2 p d = None.
  Proof.
    intros hcs hi1 hi2 hno. destruct (number_of ns2 p d) as [i|] eqn:e2; [|reflexivity]. exfalso.
    pose proof (stiffer_good _ _ hrail srail) as hr'. pose proof stiffer_count as hc'.
    destruct (initialise_inv _ _ _ _ _ _ _ _ hi1) as [z1 [_ [e1 _]]]. destruct (initialise_kept _ _ _ _ _ _ _ _ _ hi1 e1) as [hl1 [_ [hk1 _]]].
    destruct (initialise_inv _ _ _ _ _ _ _ _ hi2) as [z2 [_ [e3 _]]]. destruct (initialise_kept _ _ _ _ _ _ _ _ _ hi2 e3) as [hl2 [_ [hk2 _]]].
    assert (hp : (p < length ns)%nat) by (rewrite <- hl2; eapply number_of_bound; eauto).
    assert (hsh : Forall shaped parts) by (eapply joined_shaped; eassumption). assert (hsh' : Forall shaped parts') by (eapply joined_shaped; eassumption).
    destruct (assemble_diag ns parts ls z1 _ p d hsh e1 hp) as [d1 m1]. destruct (assemble_diag ns parts' ls z2 _ p d hsh' e3 hp) as [d2 m2].
    assert (hN : (p < N)%nat) by (replace N with (length ns); [exact hp|destruct hline; eapply line_length; eassumption]).
    destruct (hk1 p d hp) as [_ g1]. destruct (hk2 p d hp) as [g2 _]. destruct g2 as [q1 [q2 q3]]; [congruence|]. cbv zeta in *.
    change (match d with DX => 0%nat | DY => 1%nat | DR => 2%nat end) with (dir_idx d) in *. rewrite m2, joined_masses in q2. rewrite d1, m1 in g1.
    apply g1; [|exact hno]. split; [exact q1|]. split; [exact q2|]. fold tol.
    cut (tol < nsum (map (fun a => part_form aux_stiffness ns (unit_field p d) (settled ns a)) parts)); [intros g; rewrite Rabs_right; unfold tol in *; lra|].
    destruct (in_dec Nat.eq_dec p (jn_rail_nodes j)) as [hr|hr]; [apply rail_kept; exact hr|].
    assert (hd : d = DY).
    { destruct d; [|reflexivity|]; exfalso.
      - assert (g : number_of ns2 p DX = None) by (destruct hline; eapply line_unused_removed; eassumption || discriminate). congruence.
      - assert (g : number_of ns2 p DR = None) by (destruct hline; eapply line_unused_removed; eassumption || discriminate). congruence. }
    subst d. destruct (proj2 (ln_below _ _ _ _ hline p) hN) as [h|[h|h]]; [contradiction| |].
    - assert (g : fst (fst pad) <= nsum (map (fun a => part_form aux_stiffness ns (unit_field p DY) (settled ns a)) parts) /\
        sleeper <= nsum (map (fun a => part_form aux_mass ns (unit_field p DY) (settled ns a)) parts)) by (destruct hline; eapply line_sleeper; eassumption). lra.
    - destruct h as [part [e [h1 [h2 ->]]]]. destruct (joined_held c N l j _ ls cs da' s2 ns2 k2 hline hcs hi2) as [g _]. rewrite (g part e h1 h2) in e2. discriminate.
  Qed.
End Stiffer.

(** Tracks of the scripts joined from segments, with the stiffnesses of the rail (in bending, along the rail and in rotation) and of the pads
    above the tolerance of the solver: if the rail, the pads or the soil of any segment become stiffer and the masses stay the same, the work
    of the same loads does not increase, and it is never negative *)
Theorem C131_joined h specs d r j c mesh cs rail rail' pad pad' sleeper soils soils' ls da da' s1 ns1 k1 s2 ns2 k2 x1 x2 :
  (1 <= r)%nat -> 1 / 1000000000 < d / INR r -> segments specs -> joins h specs d r j c mesh -> script_constraints j c cs ->
  good_rail rail -> good_rod pad -> good_rod pad' -> 0 <= sleeper -> Forall good_rod soils -> Forall good_rod soils' -> length soils = length specs ->
  stiffer_rail rail rail' -> stiffer_rod pad pad' -> Forall2 stiffer_rod soils soils' ->
  (let l := d / INR r in let tol := 1 / 100000000 in
   tol < 12 * (b_E rail * b_I rail) / ((1 + shear_ratio l rail) * (l * l * l)) /\ tol < b_E rail * b_A rail / l /\ tol < b_E rail * b_I rail / l /\ tol < fst (fst pad)) ->
  initialise_system (joined_mesh c mesh) (joined_parts j rail pad sleeper soils) ls cs da = Ok (s1, ns1, k1) ->
  initialise_system (joined_mesh c mesh) (joined_parts j rail' pad' sleeper soils') ls cs da' = Ok (s2, ns2, k2) ->
  Forall plain_load ls -> in_balance s1 k1 x1 -> in_balance s2 k2 x2 ->
  0 <= load_work ls (field_of ns2 x2) <= load_work ls (field_of ns1 x1).
Proof.
  intros hr hd hsp hj hcs h1 h2 h2' h3 h4 h4' h5 t1 t2 t3 htol hi1 hi2 hp hx1 hx2. destruct (joined_line h specs d r j c mesh hr hd hsp hj) as [hm [hlen hline]].
  rewrite hm in hi1, hi2. rewrite <- hlen in h5. assert (hl : 0 < d / INR r) by lra.
  pose proof (stiffer_good _ _ h1 t1) as h1'. pose proof (stiffer_count j soils soils' h5 t3) as h5'.
  cbv zeta in htol. destruct htol as [q1 [q2 [q3 q4]]].
  assert (hphi : shear_ratio (d / INR r) rail = timoshenko_factor 0 (railed rail (d / INR r))).
  { symmetry. destruct h1 as [g1 g2]. rewrite (factor_is_ratio (d / INR r)) by (try exact hl; unfold good_beam, fixed_ends, railed in *; cbn; tauto). reflexivity. }
  rewrite hphi in q1.
  apply (C131_stiffer (joined_mesh c (seq 0 (length mesh))) (joined_parts j rail pad sleeper soils) (joined_parts j rail' pad' sleeper soils') ls cs cs da da' s1 ns1 k1 s2 ns2 k2 x1 x2); try assumption.
  - eapply joined_shaped; eassumption.
  - eapply joined_sound; eassumption.
  - eapply joined_shaped; eassumption.
  - eapply joined_sound; eassumption.
  - intros u. apply (joined_energy c (length mesh) (d / INR r) j hline hl); assumption.
  - intros p e. apply (stiffer_dofs c (length mesh) (d / INR r) j hline hl rail rail' pad pad' sleeper soils soils') with (ls := ls) (cs := cs) (da := da) (da' := da') (s1 := s1) (k1 := k1) (s2 := s2) (k2 := k2); assumption.
Qed.
Print Assumptions C131_joined.

(** ** one load *)

Lemma one_load_plain p P : Forall plain_load (one_load p P).
Proof. constructor; [|constructor]. split; [|reflexivity]. cbn. constructor; [intros []|constructor]. Qed.
Lemma one_load_work p P u : load_work (one_load p P) u = P * u p DY.
Proof. unfold load_work, one_load. cbn. rnum. ring. Qed.
Lemma one_load_force p P : nsum (map (fun l => load_force l p DY) (one_load p P)) = P.
Proof. unfold load_force, one_load. cbn. rewrite Nat.eqb_refl. cbn. rnum. ring. Qed.

Lemma classic_zero k (x : nat -> R) : (forall i, (i < k)%nat -> x i = 0) \/ exists i, (i < k)%nat /\ x i <> 0.
Proof.
  induction k as [|k [h|[i [h1 h2]]]]; [left; intros; lia| |right; exists i; split; [lia|exact h2]].
  destruct (Req_dec (x k) 0) as [e|e]; [left|right; exists k; split; [lia|exact e]]. intros i hi. destruct (Nat.eq_dec i k) as [->|]; [exact e|apply h; lia].
Qed.

(** A single vertical load on the rail or on a sleeper moves the node it acts on in its own direction, and with a stiffer rail, stiffer
    pads or stiffer soil that node does not move further *)
Theorem C131_under_load h specs d r j c mesh cs rail rail' pad pad' sleeper soils soils' da da' s1 ns1 k1 s2 ns2 k2 x1 x2 p P :
  (1 <= r)%nat -> 1 / 1000000000 < d / INR r -> segments specs -> joins h specs d r j c mesh -> script_constraints j c cs ->
  good_rail rail -> good_rod pad -> good_rod pad' -> 0 <= sleeper -> Forall good_rod soils -> Forall good_rod soils' -> length soils = length specs ->
  stiffer_rail rail rail' -> stiffer_rod pad pad' -> Forall2 stiffer_rod soils soils' ->
  (let l := d / INR r in let tol := 1 / 100000000 in
   tol < 12 * (b_E rail * b_I rail) / ((1 + shear_ratio l rail) * (l * l * l)) /\ tol < b_E rail * b_A rail / l /\ tol < b_E rail * b_I rail / l /\ tol < fst (fst pad)) ->
  initialise_system (joined_mesh c mesh) (joined_parts j rail pad sleeper soils) (one_load p P) cs da = Ok (s1, ns1, k1) ->
  initialise_system (joined_mesh c mesh) (joined_parts j rail' pad' sleeper soils') (one_load p P) cs da' = Ok (s2, ns2, k2) ->
  number_of ns2 p DY <> None -> P <> 0 -> in_balance s1 k1 x1 -> in_balance s2 k2 x2 ->
  let u1 := field_of ns1 x1 p DY in let u2 := field_of ns2 x2 p DY in
  0 < P * u2 /\ P * u2 <= P * u1 /\ Rabs u2 <= Rabs u1.
Proof.
  intros hr hd hsp hj hcs h1 h2 h2' h3 h4 h4' h5 t1 t2 t3 htol hi1 hi2 hno hP hx1 hx2 u1 u2.
  pose proof (C131_joined h specs d r j c mesh cs rail rail' pad pad' sleeper soils soils' (one_load p P) da da' s1 ns1 k1 s2 ns2 k2 x1 x2 hr hd hsp hj hcs h1 h2 h2' h3 h4 h4' h5 t1 t2 t3 htol hi1 hi2
    (one_load_plain p P) hx1 hx2) as [g1 g2]. rewrite one_load_work in g1. rewrite (one_load_work p P (field_of ns2 x2)), (one_load_work p P (field_of ns1 x1)) in g2. fold u2 in g1. fold u1 u2 in g2.
  assert (g : 0 < P * u2).
  { destruct (joined_line h specs d r j c mesh hr hd hsp hj) as [hm [hlen hline]]. pose proof hi2 as hi3. rewrite hm in hi3. destruct (joined_held c _ _ j _ _ cs da' s2 ns2 k2 hline hcs hi3) as [b1 [b2 _]].
    assert (hc' : length soils' = length specs) by (rewrite <- h5; symmetry; exact (same_length _ _ _ t3)).
    pose proof (C126_definite h specs d r j c mesh rail' pad' sleeper soils' (one_load p P) cs da' s2 ns2 k2 hr hd hsp hj (stiffer_good _ _ h1 t1) h2' h3 h4' hc' hi2 b1 b2) as hpd.
    destruct (number_of ns2 p DY) as [i|] eqn:ei; [|congruence].
    assert (ew : P * u2 = quad k2 (me (gK s2)) x2).
    { unfold u2. rewrite <- one_load_work, <- (forces_work _ _ _ _ _ _ _ _ x2 hi2 (one_load_plain p P)), quad_work. apply work_ext; [intros; symmetry; apply hx2; assumption|reflexivity]. }
    rewrite ew. apply hpd. destruct (initialise_inv _ _ _ _ _ _ _ _ hi2) as [s0 [_ [e0 _]]]. destruct (initialise_kept _ _ _ _ _ _ _ _ _ hi2 e0) as [_ [hnum _]].
    assert (hlt : (i < k2)%nat). { assert (hin : In i (all_numbers ns2)) by (apply all_numbers_In; eauto). rewrite hnum in hin. apply in_seq in hin. lia. }
    destruct (classic_zero k2 x2) as [hz|hz]; [|exact hz]. exfalso. apply hP.
    rewrite <- (one_load_force p P). rewrite <- (plain_forces _ _ _ _ _ _ _ _ hi2 (loads_in_range _ _ _ _ _ _ _ _ hi2) (one_load_plain p P) p DY i ei). rewrite <- (hx2 i hlt).
    unfold mulv. apply sumn_0. intros q hq. rewrite (hz q hq). ring. }
  split; [exact g|]. split; [exact g2|]. destruct (Rtotal_order P 0) as [n|[n|n]]; [|contradiction|].
  - assert (u2 < 0) by nra. assert (u1 <= u2) by nra. rewrite !Rabs_left by lra. lra.
  - assert (0 < u2) by nra. assert (u2 <= u1) by nra. rewrite !Rabs_right by lra. lra.
Qed.
Print Assumptions C131_under_load.

(** ** without the tolerances the claim fails *)

(** a mass on one upright spring of stiffness [k]; its foot is held *)
Definition post : list (node R) := [mkNode 0 (Some 0%nat) (T3 None None None) (T3 0 0 0) (T3 true true true) []; mkNode 1 (Some 1%nat) (T3 None None None) (T3 0 (-1) 0) (T3 true true true) []].
Definition post_parts (k : R) : list (epart R) := [springs (k, None, Some 3) [0; 1]%nat [(0, 1)]%nat].
Definition post_held : list (list nat * tri bool) := [([1%nat], T3 false false false)].
Definition undamped : damping R := mkDamping false 0 0 0.

Lemma post_energy k u : nsum (map (fun p => part_form aux_stiffness post u (settled post p)) (post_parts k)) = k * ((u 1%nat DY - u 0%nat DY) * (u 1%nat DY - u 0%nat DY)).
Proof.
  cbn [post_parts map nsum]. change (settled post (springs (k, None, Some 3) [0; 1]%nat [(0, 1)]%nat)) with (springs (k, None, Some 3) [0; 1]%nat [(0, 1)]%nat).
  unfold part_form, springs. cbn [ep_kind ep_els aux_stiffness element_form rod_spring fst snd map nsum].
  pose proof (rod_spring_form post k _ u (0, 1)%nat eq_refl) as g. cbn [fst snd] in g. rewrite g; [rnum; ring|]. split; cbn; lra.
Qed.
Lemma post_mass k u : nsum (map (fun p => part_form aux_mass post u (settled post p)) (post_parts k)) =
  (u 0%nat DY * u 0%nat DY + u 0%nat DY * u 1%nat DY + u 1%nat DY * u 1%nat DY).
Proof.
  cbn [post_parts map nsum]. change (settled post (springs (k, None, Some 3) [0; 1]%nat [(0, 1)]%nat)) with (springs (k, None, Some 3) [0; 1]%nat [(0, 1)]%nat).
  unfold part_form, springs. cbn [ep_kind ep_els aux_mass element_form rod_mass fst snd map nsum].
  pose proof (rod_mass_form post 3 _ u (0, 1)%nat eq_refl) as g. cbn [fst snd] in g. rewrite g; [rnum; field|]. split; cbn; lra.
Qed.
Lemma post_starts k P : 0 < k -> exists s ns' n, initialise_system post (post_parts k) (one_load 0 P) post_held undamped = Ok (s, ns', n) /\
  (forall p d, number_of ns' p d <> None <-> p = 0%nat /\ d = DY /\ 1 / 100000000 < k).
Proof.
  intros hk. assert (h : exists s ns' n, initialise_system post (post_parts k) (one_load 0 P) post_held undamped = Ok (s, ns', n)).
  { apply initialise_ok.
    - intros p [<-|[]]. eexists. reflexivity.
    - intros p i [<-|[]] hi. cbn in hi. destruct hi as [<-|[<-|[]]]; cbn; lia.
    - intros l i [<-|[]] hi. cbn in hi. destruct hi as [<-|[]]. cbn. lia. }
  destruct h as [s [ns' [n hi]]]. exists s, ns', n. split; [exact hi|]. intros p d.
  destruct (initialise_inv _ _ _ _ _ _ _ _ hi) as [s0 [_ [e0 _]]]. destruct (initialise_kept _ _ _ _ _ _ _ _ _ hi e0) as [hl [_ [hkept _]]].
  destruct (Nat.lt_ge_cases p 2) as [hp|hp].
  2:{ split; [|intros [-> _]; lia]. intros g. exfalso. destruct (number_of ns' p d) eqn:e; [|congruence]. apply number_of_bound in e. rewrite hl in e. cbn in e. lia. }
  rewrite (hkept p d hp). destruct (assemble_diag post (post_parts k) _ s0 _ p d ltac:(repeat constructor; discriminate) e0 hp) as [q1 q2].
  cbv zeta. change (match d with DX => 0%nat | DY => 1%nat | DR => 2%nat end) with (dir_idx d). rewrite q1, q2, post_energy, post_mass.
  destruct p as [|[|p]]; [| |lia].
  - destruct d.
    + rewrite !unit_across by discriminate. split; [intros [_ [g _]]|intros [_ [g _]]; discriminate]. exfalso. replace (0 * 0 + 0 * 0 + 0 * 0) with 0 in g by ring. rewrite Rabs_R0 in g. lra.
    + rewrite unit_at, !unit_elsewhere by lia. replace (1 * 1 + 1 * 0 + 0 * 0) with 1 by ring. replace (k * ((0 - 1) * (0 - 1))) with k by ring. rewrite Rabs_R1, Rabs_right by lra.
      split; [intros [_ [_ g]]; auto|intros [_ [_ g]]]. split; [reflexivity|]. split; lra.
    + rewrite !unit_across by discriminate. split; [intros [_ [g _]]|intros [_ [g _]]; discriminate]. exfalso. replace (0 * 0 + 0 * 0 + 0 * 0) with 0 in g by ring. rewrite Rabs_R0 in g. lra.
  - split; [|intros [g _]; lia]. intros [g _]. destruct d; discriminate.
Qed.

(** A spring so soft that its node is left out (1e-9 N/m): the node stays where it is under its load, while on a spring of 1 N/m with the
    same mass it moves; the stiffer spring gives way further *)
Theorem C131_trim_refuted : exists ns ps ps' ls cs da s1 ns1 k1 s2 ns2 k2 x1 x2,
  Forall shaped ps /\ Forall (fun p => sound (settled ns p)) ps /\ Forall shaped ps' /\ Forall (fun p => sound (settled ns p)) ps' /\ Forall plain_load ls /\
  initialise_system ns ps ls cs da = Ok (s1, ns1, k1) /\ initialise_system ns ps' ls cs da = Ok (s2, ns2, k2) /\
  (forall u, nsum (map (fun p => part_form aux_stiffness ns u (settled ns p)) ps) <= nsum (map (fun p => part_form aux_stiffness ns u (settled ns p)) ps')) /\
  (forall u, nsum (map (fun p => part_form aux_mass ns u (settled ns p)) ps) = nsum (map (fun p => part_form aux_mass ns u (settled ns p)) ps')) /\
  in_balance s1 k1 x1 /\ in_balance s2 k2 x2 /\
  load_work ls (field_of ns1 x1) = 0 /\ 1 <= load_work ls (field_of ns2 x2).
Proof.
  destruct (post_starts (1 / 1000000000) (-1) ltac:(lra)) as [s1 [ns1 [k1 [hi1 hd1]]]]. destruct (post_starts 1 (-1) ltac:(lra)) as [s2 [ns2 [k2 [hi2 hd2]]]].
  assert (hsh : forall k, Forall shaped (post_parts k)) by (intros; repeat constructor; discriminate).
  assert (hso : forall k, 0 < k -> Forall (fun p => sound (settled post p)) (post_parts k)) by (intros k hk; constructor; [|constructor]; cbn; repeat split; lra).
  destruct (initialise_inv _ _ _ _ _ _ _ _ hi1) as [z1 [_ [e1 _]]]. destruct (initialise_kept _ _ _ _ _ _ _ _ _ hi1 e1) as [_ [hn1 _]].
  destruct (initialise_inv _ _ _ _ _ _ _ _ hi2) as [z2 [_ [e2 _]]]. destruct (initialise_kept _ _ _ _ _ _ _ _ _ hi2 e2) as [_ [hn2 _]].
  assert (hnone : forall p d, number_of ns1 p d = None).
  { intros p d. destruct (number_of ns1 p d) eqn:e; [|reflexivity]. destruct (hd1 p d) as [g _]. destruct g as [_ [_ g]]; [congruence|]. lra. }
  assert (hpd : pos_def k2 (me (gK s2))).
  { intros x [i [hlt hx]]. pose proof (initialise_energy _ _ _ _ _ _ _ _ x (hsh 1) hi2) as [-> _]. rewrite post_energy.
    assert (hin : In i (all_numbers ns2)) by (rewrite hn2; apply in_seq; lia). apply all_numbers_In in hin. destruct hin as [p [d hp]].
    destruct (hd2 p d) as [g _]. destruct g as [-> [-> _]]; [congruence|]. unfold field_of. rewrite hp.
    destruct (number_of ns2 1 DY) eqn:e'; [destruct (hd2 1%nat DY) as [g _]; destruct g as [g _]; [congruence|lia]|]. nra. }
  destruct (definite_solves k2 _ hpd (fun i => nth i (gF s2) 0)) as [x2 hx2].
  exists post, (post_parts (1 / 1000000000)), (post_parts 1), (one_load 0 (-1)), post_held, undamped, s1, ns1, k1, s2, ns2, k2, (fun _ => 0), x2.
  split; [apply hsh|]. split; [apply hso; lra|]. split; [apply hsh|]. split; [apply hso; lra|]. split; [apply one_load_plain|]. split; [exact hi1|]. split; [exact hi2|].
  split; [intros u; rewrite !post_energy; pose proof (Rle_0_sqr (u 1%nat DY - u 0%nat DY)) as g; unfold Rsqr in g; nra|]. split; [intros u; rewrite !post_mass; reflexivity|].
  split. { intros i hi. exfalso. assert (hin : In i (all_numbers ns1)) by (rewrite hn1; apply in_seq; lia). apply all_numbers_In in hin. destruct hin as [p [d hp]]. rewrite hnone in hp. discriminate. }
  split; [exact hx2|]. split; [rewrite one_load_work; unfold field_of; rewrite hnone; ring|].
  set (v := fun (p : nat) (d : dir) => if Nat.eqb p 0 then match d with DY => -1 | _ => 0 end else 0).
  assert (ev : field_of ns2 (vector_of ns2 v) = v).
  { extensionality p. extensionality d. apply (vector_field ns2 k2 _ hn2). intros p0 d0 h0. unfold v. destruct (Nat.eqb_spec p0 0) as [->|]; [|reflexivity]. destruct d0; try reflexivity.
    exfalso. destruct (hd2 0%nat DY) as [_ g]. apply g; [|exact h0]. repeat split; lra. }
  destruct (initialise_sym _ _ _ _ _ _ _ _ (hsh 1) (hso 1 ltac:(lra)) hi2) as [hs _].
  assert (hpsd : psd k2 (me (gK s2))).
  { intros z. pose proof (initialise_energy _ _ _ _ _ _ _ _ z (hsh 1) hi2) as [-> _]. rewrite post_energy. pose proof (Rle_0_sqr (field_of ns2 z 1%nat DY - field_of ns2 z 0%nat DY)) as g. unfold Rsqr in g. lra. }
  pose proof (least_work k2 _ (fun i => nth i (gF s2) 0) x2 (vector_of ns2 v) hs hpsd hx2) as g.
  rewrite !(forces_work _ _ _ _ _ _ _ _ _ hi2 (one_load_plain 0 (-1))) in g. pose proof (initialise_energy _ _ _ _ _ _ _ _ (vector_of ns2 v) (hsh 1) hi2) as [q _]. cbv zeta in q. rewrite q, post_energy, ev in g.
  rewrite (one_load_work 0 (-1) v) in g. unfold v in g. cbn [Nat.eqb] in g. lra.
Qed.
Print Assumptions C131_trim_refuted.

(** ** a case that meets the hypotheses *)

(** the three segments of C125 with a stiffer rail, pads and soil: under a wheel of 60 kN on any rail node the track has one answer before and
    after, the node under the wheel goes down, and not further after the change *)
Definition stiff_rail : beam R := mkBeam 215000000000 (3 / 10) 7860 (69 / 10000) (2337 / 100000000) 0 0 None None.
Definition stiff_pad : R * option R * option R := (900000000, Some 600000, Some 5).
Definition stiff_soils : list (R * option R * option R) := [(200000000, Some 10000, Some 0); (80000000, Some 20000, None); (150000000, Some 30000, Some 20)].

Example C131_case h : exists j c mesh cs, joins h case_specs (6 / 10) 2 j c mesh /\ script_constraints j c cs /\
  forall p, In p (jn_rail_nodes j) -> exists s1 ns1 k1 x1 s2 ns2 k2 x2,
    initialise_system (joined_mesh c mesh) (joined_parts j case_rail case_pad 140 case_soils) (one_load p (-60000)) cs undamped = Ok (s1, ns1, k1) /\
    initialise_system (joined_mesh c mesh) (joined_parts j stiff_rail stiff_pad 140 stiff_soils) (one_load p (-60000)) cs undamped = Ok (s2, ns2, k2) /\
    in_balance s1 k1 x1 /\ in_balance s2 k2 x2 /\ field_of ns1 x1 p DY <= field_of ns2 x2 p DY < 0.
Proof.
  destruct case_values as [h1 [h2 [h3 [h4 [h5 [h6 [h7 [h8 h9]]]]]]]]. cbv zeta in h6, h7.
  assert (e2 : INR 2 = 2) by (cbn; lra).
  assert (t1 : stiffer_rail case_rail stiff_rail) by (unfold stiffer_rail; cbn; repeat split; lra).
  assert (t2 : stiffer_rod case_pad stiff_pad) by (unfold stiffer_rod; cbn; split; [lra|reflexivity]).
  assert (t3 : Forall2 stiffer_rod case_soils stiff_soils) by (repeat constructor; cbn; lra).
  assert (h2' : good_rod stiff_pad) by (unfold good_rod, opt_nonneg; cbn; repeat split; lra).
  assert (h3' : Forall good_rod stiff_soils) by (repeat constructor; unfold opt_nonneg; cbn; lra).
  pose proof (stiffer_good _ _ h1 t1) as h1'.
  destruct (C131_one_answer h case_specs (6 / 10) 2 case_rail case_pad 140 case_soils [] undamped ltac:(lia) h5 h4 h1 h2 ltac:(lra) h3 eq_refl ltac:(discriminate)) as [j [c [mesh [cs [g1 [g2 _]]]]]].
  exists j, c, mesh, cs. split; [exact g1|]. split; [exact g2|]. intros p hp.
  assert (hsame : forall j' c' mesh' cs', joins h case_specs (6 / 10) 2 j' c' mesh' -> script_constraints j' c' cs' -> j' = j /\ c' = c /\ mesh' = mesh /\ cs' = cs).
  { intros j' c' mesh' cs' [t [es [q3 q4]]] [b [q5 ->]]. destruct g1 as [t' [es' [q1 q2]]]. destruct g2 as [b' [q6 ->]]. rewrite q1 in q3. injection q3 as <-. rewrite q2 in q4. injection q4 as <- <- <- _.
    rewrite q6 in q5. injection q5 as <-. auto. }
  destruct (joined_line h case_specs (6 / 10) 2 j c mesh ltac:(lia) h5 h4 g1) as [_ [_ hline]].
  assert (hls : forall l i, In l (one_load p (-60000)) -> In i (ld_nodes l) -> (i < length mesh)%nat).
  { intros l i [<-|[]] [<-|[]]. apply (ln_below _ _ _ _ hline). left. exact hp. }
  destruct (C131_one_answer h case_specs (6 / 10) 2 case_rail case_pad 140 case_soils (one_load p (-60000)) undamped ltac:(lia) h5 h4 h1 h2 ltac:(lra) h3 eq_refl ltac:(discriminate)) as [j1 [c1 [m1 [cs1 [a1 [a2 a3]]]]]].
  destruct (hsame _ _ _ _ a1 a2) as [-> [-> [-> ->]]]. destruct (a3 hls) as [s1 [ns1 [k1 [hi1 [[x1 [hx1 _]] _]]]]].
  destruct (C131_one_answer h case_specs (6 / 10) 2 stiff_rail stiff_pad 140 stiff_soils (one_load p (-60000)) undamped ltac:(lia) h5 h4 h1' h2' ltac:(lra) h3' eq_refl ltac:(discriminate)) as [j2 [c2 [m2 [cs2 [b1 [b2 b3]]]]]].
  destruct (hsame _ _ _ _ b1 b2) as [-> [-> [-> ->]]]. destruct (b3 hls) as [s2 [ns2 [k2 [hi2 [[x2 [hx2 _]] _]]]]].
  exists s1, ns1, k1, x1, s2, ns2, k2, x2. split; [exact hi1|]. split; [exact hi2|]. split; [exact hx1|]. split; [exact hx2|].
  assert (hst : joined_stands j ns2).
  { apply (C125_scripts h case_specs (6 / 10) 2 j c mesh stiff_rail stiff_pad 140 stiff_soils _ cs undamped s2 ns2 k2 ltac:(lia) h5 h4 g1 h1' h2' h3' eq_refl g2 hi2).
    - rewrite e2. unfold shear_ratio. cbn [stiff_rail b_E b_I b_shear_factor]. destruct (Rlt_dec 0 0); lra.
    - rewrite e2. cbn [stiff_rail b_rho b_A]. lra.
    - cbn [stiff_pad fst]. lra.
    - lra. }
  destruct (C131_under_load h case_specs (6 / 10) 2 j c mesh cs case_rail stiff_rail case_pad stiff_pad 140 case_soils stiff_soils undamped undamped s1 ns1 k1 s2 ns2 k2 x1 x2 p (-60000)
    ltac:(lia) h5 h4 g1 g2 h1 h2 h2' ltac:(lra) h3 h3' eq_refl t1 t2 t3) as [q1 [q2 _]]; try assumption.
  - cbv zeta. split; [exact h6|]. rewrite e2. cbn [case_rail case_pad b_E b_A b_I fst]. repeat split; lra.
  - apply hst. left. exact hp.
  - lra.
  - lra.
Qed.

(** ** reciprocity and superposition (C132) *)

Section Weak.
  Variables (ns : list (node R)) (ps : list (epart R)).
  Hypothesis hsh : Forall shaped ps.
  Hypothesis hso : Forall (fun p => sound (settled ns p)) ps.
  Let T (u : nat -> dir -> R) : R := nsum (map (fun p => part_form aux_stiffness ns u (settled ns p)) ps).
  Definition mutual (u v : nat -> dir -> R) : R := (T u + T v - T (fun p d => u p d - v p d)) / 2.

  Lemma mutual_work ls cs da s ns' k x y : initialise_system ns ps ls cs da = Ok (s, ns', k) -> work k (mulv k (me (gK s)) x) y = mutual (field_of ns' x) (field_of ns' y).
  Proof.
    intros hi. destruct (initialise_sym _ _ _ _ _ _ _ _ hsh hso hi) as [hs _]. pose proof (quad_difference k _ x y hs) as g.
    pose proof (initialise_energy _ _ _ _ _ _ _ _ x hsh hi) as [q1 _]. pose proof (initialise_energy _ _ _ _ _ _ _ _ y hsh hi) as [q2 _].
    pose proof (initialise_energy _ _ _ _ _ _ _ _ (fun i => x i - y i) hsh hi) as [q3 _]. cbv zeta in q1, q2, q3. rewrite q1, q2, q3 in g. unfold mutual. fold (T (field_of ns' x)) (T (field_of ns' y)) in g.
    assert (e : field_of ns' (fun i => x i - y i) = fun p d => field_of ns' x p d - field_of ns' y p d).
    { extensionality p. extensionality d. unfold field_of. destruct (number_of ns' p d); ring. }
    rewrite e in g. fold (T (fun p d => field_of ns' x p d - field_of ns' y p d)) in g. lra.
  Qed.
  Lemma same_dofs ls ls' cs da da' s1 ns1 k1 s2 ns2 k2 p d : initialise_system ns ps ls cs da = Ok (s1, ns1, k1) -> initialise_system ns ps ls' cs da' = Ok (s2, ns2, k2) ->
    number_of ns1 p d = None -> number_of ns2 p d = None.
  Proof.
    intros hi1 hi2 hno. destruct (number_of ns2 p d) as [i|] eqn:e2; [|reflexivity]. exfalso.
    destruct (initialise_inv _ _ _ _ _ _ _ _ hi1) as [z1 [_ [e1 _]]]. destruct (initialise_kept _ _ _ _ _ _ _ _ _ hi1 e1) as [hl1 [_ [hk1 _]]].
    destruct (initialise_inv _ _ _ _ _ _ _ _ hi2) as [z2 [_ [e3 _]]]. destruct (initialise_kept _ _ _ _ _ _ _ _ _ hi2 e3) as [hl2 [_ [hk2 _]]].
    assert (hp : (p < length ns)%nat) by (rewrite <- hl2; eapply number_of_bound; eauto).
    destruct (assemble_diag ns ps ls z1 _ p d hsh e1 hp) as [d1 m1]. destruct (assemble_diag ns ps ls' z2 _ p d hsh e3 hp) as [d2 m2].
    destruct (hk1 p d hp) as [_ g1]. destruct (hk2 p d hp) as [g2 _]. cbv zeta in *. change (match d with DX => 0%nat | DY => 1%nat | DR => 2%nat end) with (dir_idx d) in *.
    apply g1; [|exact hno]. rewrite d1, m1, <- d2, <- m2. apply g2. congruence.
  Qed.
  (** static equilibrium in terms of work: the displacement answers every motion of the free directions with the work of the loads *)
  Lemma balance_weak ls cs da s ns' k x : initialise_system ns ps ls cs da = Ok (s, ns', k) -> Forall plain_load ls -> in_balance s k x ->
    forall v, (forall p d, number_of ns' p d = None -> v p d = 0) -> mutual (field_of ns' x) v = load_work ls v.
  Proof.
    intros hi hp hx v hv. destruct (initialise_inv _ _ _ _ _ _ _ _ hi) as [z [_ [e _]]]. destruct (initialise_kept _ _ _ _ _ _ _ _ _ hi e) as [_ [hn _]].
    assert (ev : field_of ns' (vector_of ns' v) = v) by (extensionality p; extensionality d; apply (vector_field ns' k _ hn hv)).
    rewrite <- ev, <- (mutual_work _ _ _ _ _ _ x (vector_of ns' v) hi), <- (forces_work _ _ _ _ _ _ _ _ _ hi hp). apply work_ext; [intros i hlt; apply hx; exact hlt|reflexivity].
  Qed.
  Lemma weak_balance ls cs da s ns' k x : initialise_system ns ps ls cs da = Ok (s, ns', k) -> Forall plain_load ls ->
    (forall y, mutual (field_of ns' x) (field_of ns' y) = load_work ls (field_of ns' y)) -> in_balance s k x.
  Proof.
    intros hi hp h i hlt. specialize (h (fun a => if Nat.eqb i a then 1 else 0)). rewrite <- (mutual_work _ _ _ _ _ _ _ _ hi), <- (forces_work _ _ _ _ _ _ _ _ _ hi hp) in h. unfold work in h.
    assert (g : forall f, sumn k (fun a => f a * (if Nat.eqb i a then 1 else 0)) = f i).
    { intros f. rewrite (sumn_ext k _ (fun a => if Nat.eqb i a then f a else 0)) by (intros a _; destruct (Nat.eqb i a); ring). apply (Proofs_System.sumn_pick k f i hlt). }
    rewrite !g in h. exact h.
  Qed.
End Weak.

(** Two sets of loads on the same model: the work of the first in the displacement under the second is the work of the second in the
    displacement under the first *)
Theorem C132_reciprocal ns ps ls ls' cs da da' s1 ns1 k1 s2 ns2 k2 x1 x2 :
  Forall shaped ps -> Forall (fun p => sound (settled ns p)) ps -> Forall plain_load ls -> Forall plain_load ls' ->
  initialise_system ns ps ls cs da = Ok (s1, ns1, k1) -> initialise_system ns ps ls' cs da' = Ok (s2, ns2, k2) ->
  in_balance s1 k1 x1 -> in_balance s2 k2 x2 ->
  load_work ls (field_of ns2 x2) = load_work ls' (field_of ns1 x1).
Proof.
  intros h1 h2 p1 p2 hi1 hi2 hx1 hx2.
  rewrite <- (balance_weak ns ps h1 h2 ls cs da s1 ns1 k1 x1 hi1 p1 hx1 (field_of ns2 x2)).
  2:{ intros p d h. unfold field_of. rewrite (same_dofs ns ps h1 ls ls' cs da da' s1 ns1 k1 s2 ns2 k2 p d hi1 hi2 h). reflexivity. }
  rewrite <- (balance_weak ns ps h1 h2 ls' cs da' s2 ns2 k2 x2 hi2 p2 hx2 (field_of ns1 x1)).
  2:{ intros p d h. unfold field_of. rewrite (same_dofs ns ps h1 ls' ls cs da' da s2 ns2 k2 s1 ns1 k1 p d hi2 hi1 h). reflexivity. }
  destruct (initialise_inv _ _ _ _ _ _ _ _ hi1) as [z [_ [e _]]]. destruct (initialise_kept _ _ _ _ _ _ _ _ _ hi1 e) as [_ [hn _]].
  assert (ev : field_of ns1 (vector_of ns1 (field_of ns2 x2)) = field_of ns2 x2).
  { extensionality p. extensionality d. apply (vector_field ns1 k1 _ hn). intros p0 d0 h. unfold field_of. rewrite (same_dofs ns ps h1 ls ls' cs da da' s1 ns1 k1 s2 ns2 k2 p0 d0 hi1 hi2 h). reflexivity. }
  rewrite <- ev. rewrite <- !(mutual_work ns ps h1 h2 _ _ _ _ _ _ _ _ hi1). apply work_sym. apply (initialise_sym _ _ _ _ _ _ _ _ h1 h2 hi1).
Qed.
Print Assumptions C132_reciprocal.

Lemma times_plain a ls : Forall plain_load ls -> Forall plain_load (map (times a) ls).
Proof. intros h. apply Forall_map. apply (Forall_impl _ (P := plain_load)); [|exact h]. intros l [h1 h2]. split; [exact h1|]. cbn [times ld_vals ld_nodes]. rewrite map_length. exact h2. Qed.
Lemma load_work_app ls ls' u : load_work (ls ++ ls') u = load_work ls u + load_work ls' u.
Proof. unfold load_work. rewrite map_app, nsum_app. reflexivity. Qed.
Lemma load_work_times a ls u : load_work (map (times a) ls) u = a * load_work ls u.
Proof.
  unfold load_work. rewrite map_map, <- nsum_map_scal. apply nsum_map_ext. intros l _. cbn [times ld_flag ld_nodes ld_vals].
  set (F := fun q : nat * tri R => nsum (map (fun d => if tget (ld_flag l) d then tget (snd q) d * u (fst q) d else 0) [DX; DY; DR])).
  assert (hF : forall i v, F (i, T3 (a * tx v) (a * ty v) (a * tr v)) = a * F (i, v)).
  { intros i v. unfold F. cbn [fst snd map nsum tget tx ty tr]. rnum. destruct (tx (ld_flag l)), (ty (ld_flag l)), (tr (ld_flag l)); ring. }
  clearbody F. generalize (ld_nodes l) as q. generalize (ld_vals l) as vs. induction vs as [|v vs IH]; intros q; destruct q as [|i q]; cbn [combine map nsum]; rnum; try ring.
  rewrite (IH q), hF. ring.
Qed.

(** Loads add up: the displacements under two sets of loads, each multiplied by a number, are together an answer to both sets of loads
    multiplied by these numbers *)
Theorem C132_superposed ns ps ls ls' a b cs da da' da'' s1 ns1 k1 s2 ns2 k2 s3 ns3 k3 x1 x2 :
  Forall shaped ps -> Forall (fun p => sound (settled ns p)) ps -> Forall plain_load ls -> Forall plain_load ls' ->
  initialise_system ns ps ls cs da = Ok (s1, ns1, k1) -> initialise_system ns ps ls' cs da' = Ok (s2, ns2, k2) ->
  initialise_system ns ps (map (times a) ls ++ map (times b) ls') cs da'' = Ok (s3, ns3, k3) ->
  in_balance s1 k1 x1 -> in_balance s2 k2 x2 ->
  exists x3, in_balance s3 k3 x3 /\ forall p d, field_of ns3 x3 p d = a * field_of ns1 x1 p d + b * field_of ns2 x2 p d.
Proof.
  intros h1 h2 p1 p2 hi1 hi2 hi3 hx1 hx2.
  set (ls3 := map (times a) ls ++ map (times b) ls') in *. assert (p3 : Forall plain_load ls3) by (apply Forall_app; split; apply times_plain; assumption).
  destruct (initialise_inv _ _ _ _ _ _ _ _ hi3) as [z [_ [e _]]]. destruct (initialise_kept _ _ _ _ _ _ _ _ _ hi3 e) as [_ [hn _]].
  assert (o1 : forall p d, number_of ns3 p d = None -> field_of ns1 x1 p d = 0).
  { intros p d h. unfold field_of. rewrite (same_dofs ns ps h1 ls3 ls cs da'' da s3 ns3 k3 s1 ns1 k1 p d hi3 hi1 h). reflexivity. }
  assert (o2 : forall p d, number_of ns3 p d = None -> field_of ns2 x2 p d = 0).
  { intros p d h. unfold field_of. rewrite (same_dofs ns ps h1 ls3 ls' cs da'' da' s3 ns3 k3 s2 ns2 k2 p d hi3 hi2 h). reflexivity. }
  set (y1 := vector_of ns3 (field_of ns1 x1)). set (y2 := vector_of ns3 (field_of ns2 x2)).
  assert (v1 : field_of ns3 y1 = field_of ns1 x1) by (extensionality p; extensionality d; apply (vector_field ns3 k3 _ hn o1)).
  assert (v2 : field_of ns3 y2 = field_of ns2 x2) by (extensionality p; extensionality d; apply (vector_field ns3 k3 _ hn o2)).
  exists (fun i => a * y1 i + b * y2 i). split.
  - apply (weak_balance ns ps h1 h2 ls3 cs da'' s3 ns3 k3 _ hi3 p3). intros y. rewrite <- (mutual_work ns ps h1 h2 _ _ _ _ _ _ _ _ hi3).
    assert (g : work k3 (mulv k3 (me (gK s3)) (fun i => a * y1 i + b * y2 i)) y = a * work k3 (mulv k3 (me (gK s3)) y1) y + b * work k3 (mulv k3 (me (gK s3)) y2) y).
    { unfold work. rewrite <- !sumn_scal, <- sumn_add. apply sumn_ext. intros i _. unfold mulv.
      rewrite (sumn_ext k3 (fun j => me (gK s3) i j * (a * y1 j + b * y2 j)) (fun j => a * (me (gK s3) i j * y1 j) + b * (me (gK s3) i j * y2 j))) by (intros; ring).
      rewrite sumn_add, !sumn_scal. ring. }
    rewrite g, !(mutual_work ns ps h1 h2 _ _ _ _ _ _ _ _ hi3), v1, v2.
    assert (o : forall p d, number_of ns3 p d = None -> field_of ns3 y p d = 0) by (intros p d h; unfold field_of; rewrite h; reflexivity).
    rewrite (balance_weak ns ps h1 h2 ls cs da s1 ns1 k1 x1 hi1 p1 hx1 (field_of ns3 y)) by (intros p d h; apply o, (same_dofs ns ps h1 ls ls3 cs da da'' s1 ns1 k1 s3 ns3 k3 p d hi1 hi3 h)).
    rewrite (balance_weak ns ps h1 h2 ls' cs da' s2 ns2 k2 x2 hi2 p2 hx2 (field_of ns3 y)) by (intros p d h; apply o, (same_dofs ns ps h1 ls' ls3 cs da' da'' s2 ns2 k2 s3 ns3 k3 p d hi2 hi3 h)).
    unfold ls3. rewrite load_work_app, !load_work_times. reflexivity.
  - intros p d. rewrite <- v1, <- v2. unfold field_of. destruct (number_of ns3 p d); ring.
Qed.
Print Assumptions C132_superposed.

(** On a track of the scripts, the deflection at one place under a wheel at another is the deflection there under the wheel here, for every
    pair of nodes of rail and sleepers *)
Theorem C132_joined h specs d r j c mesh cs rail pad sleeper soils da s1 ns1 k1 s2 ns2 k2 x1 x2 p q P :
  (1 <= r)%nat -> 1 / 1000000000 < d / INR r -> segments specs -> joins h specs d r j c mesh ->
  good_rail rail -> good_rod pad -> 0 <= sleeper -> Forall good_rod soils -> length soils = length specs -> P <> 0 ->
  initialise_system (joined_mesh c mesh) (joined_parts j rail pad sleeper soils) (one_load p P) cs da = Ok (s1, ns1, k1) ->
  initialise_system (joined_mesh c mesh) (joined_parts j rail pad sleeper soils) (one_load q P) cs da = Ok (s2, ns2, k2) ->
  in_balance s1 k1 x1 -> in_balance s2 k2 x2 ->
  field_of ns1 x1 q DY = field_of ns2 x2 p DY.
Proof.
  intros hr hd hsp hj h1 h2 h3 h4 h5 hP hi1 hi2 hx1 hx2. destruct (joined_line h specs d r j c mesh hr hd hsp hj) as [hm [hlen hline]].
  rewrite hm in hi1, hi2. rewrite <- hlen in h5. assert (hl : 0 < d / INR r) by lra.
  assert (g : load_work (one_load p P) (field_of ns2 x2) = load_work (one_load q P) (field_of ns1 x1)).
  { apply (C132_reciprocal (joined_mesh c (seq 0 (length mesh))) (joined_parts j rail pad sleeper soils) _ _ cs da da s1 ns1 k1 s2 ns2 k2 x1 x2); try assumption; try apply one_load_plain.
    - eapply joined_shaped; eassumption.
    - eapply joined_sound; eassumption. }
  rewrite (one_load_work p), (one_load_work q) in g. apply (Rmult_eq_reg_l P); [symmetry; exact g|exact hP].
Qed.
Print Assumptions C132_joined.

(** in the track of C131_case a wheel of 60 kN can stand on any two rail nodes, and the two deflections are the same *)
Example C132_case h : exists j c mesh cs, joins h case_specs (6 / 10) 2 j c mesh /\ script_constraints j c cs /\
  forall p q, In p (jn_rail_nodes j) -> In q (jn_rail_nodes j) -> exists s1 ns1 k1 x1 s2 ns2 k2 x2,
    initialise_system (joined_mesh c mesh) (joined_parts j case_rail case_pad 140 case_soils) (one_load p (-60000)) cs undamped = Ok (s1, ns1, k1) /\
    initialise_system (joined_mesh c mesh) (joined_parts j case_rail case_pad 140 case_soils) (one_load q (-60000)) cs undamped = Ok (s2, ns2, k2) /\
    in_balance s1 k1 x1 /\ in_balance s2 k2 x2 /\ field_of ns1 x1 q DY = field_of ns2 x2 p DY.
Proof.
  destruct case_values as [h1 [h2 [h3 [h4 [h5 _]]]]]. destruct (C131_case h) as [j [c [mesh [cs [g1 [g2 g3]]]]]]. exists j, c, mesh, cs. split; [exact g1|]. split; [exact g2|]. intros p q hp hq.
  destruct (g3 p hp) as [s1 [ns1 [k1 [x1 [_ [_ [_ [_ [a1 [_ [a2 _]]]]]]]]]]]. destruct (g3 q hq) as [s2 [ns2 [k2 [x2 [_ [_ [_ [_ [b1 [_ [b2 _]]]]]]]]]]].
  exists s1, ns1, k1, x1, s2, ns2, k2, x2. split; [exact a1|]. split; [exact b1|]. split; [exact a2|]. split; [exact b2|].
  apply (C132_joined h case_specs (6 / 10) 2 j c mesh cs case_rail case_pad 140 case_soils undamped s1 ns1 k1 s2 ns2 k2 x1 x2 p q (-60000) ltac:(lia) h5 h4 g1 h1 h2 ltac:(lra) h3 eq_refl ltac:(lra) a1 b1 a2 b2).
Qed.
