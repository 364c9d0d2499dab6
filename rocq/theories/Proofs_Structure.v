(** * Vertical balance of tracks of any shape *)

From Coq Require Import Reals List Bool ZArith Arith Lia Lra Psatz.
From Verif Require Import Num PyBase Model_Geometry Model_System Spec_System Proofs_Dof Proofs_System Model_Element Spec_Element
  Proofs_Elements Proofs_Element Proofs_Beam Proofs_Force Model_Accumulation Proofs_Accumulation Proofs_Geometry
  Model_Track Spec_Track Proofs_Track Proofs_Assembly Proofs_Chain Spec_Balance Proofs_Balance Spec_Structure.
Import ListNotations.
Local Open Scope R_scope.

Lemma sum_none {A} (f : A -> R) q : (forall a, In a q -> f a = 0) -> nsum (map f q) = 0.
Proof. induction q as [|a q IH]; intros h; [reflexivity|]. cbn [map nsum]. rewrite IH by (intros; apply h; right; assumption). rewrite (h a (or_introl eq_refl)). rnum. ring. Qed.

(** ** angles of flat and upright elements *)

Lemma level_angle ns e : level ns e -> calculate_rotation1 (xy ns (fst e), xy ns (snd e)) = 0.
Proof.
  intros [h1 h2]. destruct (xy ns (fst e)) as [x1 y1]. destruct (xy ns (snd e)) as [x2 y2]. cbn [fst snd] in *. subst y2. apply rotation1_right. lra.
Qed.
Lemma plumb_angle ns e : plumb ns e -> exists s, (s = 1 \/ s = -1) /\ forall v w, along (calculate_rotation1 (xy ns (fst e), xy ns (snd e))) v w = s * w.
Proof.
  intros [h1 h2]. destruct (xy ns (fst e)) as [x1 y1]. destruct (xy ns (snd e)) as [x2 y2]. cbn [fst snd] in *. subst x2. rewrite rotation1_vertical by exact h2.
  destruct (Rlt_dec y1 y2); [exists (-1)|exists 1]; (split; [auto|]); intros v w; unfold along.
  - rewrite cos_PI2, sin_PI2. ring.
  - rewrite cos_neg, sin_neg, cos_PI2, sin_PI2. ring.
Qed.

(** ** what a rigid vertical motion meets *)

Lemma beam_mass_lift (b : beam R) phi a : b_l b <> 0 -> 0 <= phi ->
  mulv 6 (beam_mass b phi) a 1%nat + mulv 6 (beam_mass b phi) a 4%nat =
  b_rho b * b_A b * b_l b * ((a 1%nat + a 4%nat) / 2 + b_l b * (a 2%nat - a 5%nat) / 12).
Proof.
  intros hl hphi.
  unfold mulv. rewrite (sumn_ext 6 (fun j => beam_mass b phi 1 j * a j) (fun j => mass_entries b phi 1 j * a j)) by (intros j hj; rewrite beam_mass_entries by lia; reflexivity).
  rewrite (sumn_ext 6 (fun j => beam_mass b phi 4 j * a j) (fun j => mass_entries b phi 4 j * a j)) by (intros j hj; rewrite beam_mass_entries by lia; reflexivity).
  unfold mass_entries. cbn [sumn trans_entries rot_entries]. rnum. destruct (Req_EM_T phi 0) as [z|z]; [subst phi|]; field; lra.
Qed.

Section Structure.
  Variables (ns : list (node R)) (ps : list (epart R)) (ls : list (load R)) (cs : list (list nat * tri bool)) (da : damping R)
            (s : gsys R) (ns' : list (node R)) (k : nat).
  Hypothesis hshape : Forall shaped ps.
  Hypothesis hsound : Forall (fun p => sound (settled ns p)) ps.
  Hypothesis hup : Forall (upright ns) ps.
  Hypothesis hinit : initialise_system ns ps ls cs da = Ok (s, ns', k).
  Hypothesis hfree : Forall (beams_free ns') ps.

  Let w := field_of ns' (lift ns').

  Lemma structure_numbers : length ns' = length ns /\ numbered ns' k.
  Proof. destruct (initialise_inv _ _ _ _ _ _ _ _ hinit) as [s0 [_ [e0 _]]]. destruct (initialise_kept _ _ _ _ _ _ _ _ _ hinit e0) as [hl [hnum _]]. auto. Qed.

  Lemma lifted p e : w p e = match e with DY => match number_of ns' p DY with Some _ => 1 | None => 0 end | _ => 0 end.
  Proof. unfold w. destruct structure_numbers as [_ hnum]. apply (lift_field _ k). exact hnum. Qed.
  Lemma rests x p : number_of ns' p DY = None -> field_of ns' x p DY = 0.
  Proof. intros h. unfold field_of. rewrite h. reflexivity. Qed.

  Lemma settled_els p : ep_els (settled ns p) = ep_els p /\ ep_nodes (settled ns p) = ep_nodes p.
  Proof. unfold settled. destruct (ep_kind p); auto. destruct (ep_nodes p) as [|i [|j q]] eqn:e; auto. destruct (nth_error ns i); auto. destruct (nth_error ns j); auto. Qed.
  Lemma settled_kind p : match ep_kind p, ep_kind (settled ns p) with
    | KRod a b c, KRod a' b' c' => a = a' /\ b = b' /\ c = c' | KBeam b, KBeam b' => b = b' | KPoint m, KPoint m' => m = m' | KRail _, KRail _ => True | _, _ => False end.
  Proof.
    unfold settled. destruct (ep_kind p) eqn:ek; try (rewrite ek; auto). destruct (ep_nodes p) as [|i [|j q]] eqn:e; try (rewrite ek; exact I).
    destruct (nth_error ns i); [|rewrite ek; exact I]. destruct (nth_error ns j); [|rewrite ek; exact I]. exact I.
  Qed.
  Lemma settled_upright p : upright ns p -> upright ns (settled ns p).
  Proof.
    intros h. pose proof (settled_kind p) as hk. destruct (settled_els p) as [he _]. unfold upright in *. rewrite he. destruct (ep_kind p), (ep_kind (settled ns p)); auto; contradiction.
  Qed.
  Lemma settled_free p : beams_free ns' p -> beams_free ns' (settled ns p).
  Proof.
    intros h. pose proof (settled_kind p) as hk. destruct (settled_els p) as [he _]. unfold beams_free in *. rewrite he. destruct (ep_kind p), (ep_kind (settled ns p)); auto; contradiction.
  Qed.

  (** ** polarisation, part by part *)
  Variable x : nat -> R.
  Let u := field_of ns' x.
  Let v := field_of ns' (fun i => x i + lift ns' i).
  Lemma summed p e : v p e = u p e + w p e.
  Proof. unfold v, u, w, field_of. destruct (number_of ns' p e); ring. Qed.

  (** a beam *)
  Let six a (y : nat -> dir -> R) (e : nat * nat) := local6 a y (fst e) (snd e).
  Lemma six_level y e j : (j < 6)%nat -> six 0 y e j = vec6 (y (fst e) DX) (y (fst e) DY) (y (fst e) DR) (y (snd e) DX) (y (snd e) DY) (y (snd e) DR) j.
  Proof. intros hj. unfold six, local6, along, across. rewrite cos_0, sin_0. do 6 (destruct j as [|j]; [cbn [vec6]; ring|]). lia. Qed.

  Lemma beam_lift m e : msym 6 m -> number_of ns' (fst e) DY <> None /\ number_of ns' (snd e) DY <> None ->
    quad 6 m (six 0 v e) = quad 6 m (six 0 u e) + quad 6 m (six 0 w e) + 2 * (mulv 6 m (six 0 u e) 1%nat + mulv 6 m (six 0 u e) 4%nat).
  Proof.
    intros hs [h1 h2]. rewrite (quad_ext_vec 6 _ (six 0 v e) (fun j => six 0 u e j + six 0 w e j)).
    2:{ intros j hj. rewrite !six_level by exact hj. rewrite !summed. do 6 (destruct j as [|j]; [reflexivity|]). lia. }
    rewrite (quad_plus 6) by exact hs. f_equal. f_equal. rewrite (sumn_ext 6 _ (fun i => vec6 0 1 0 0 1 0 i * mulv 6 m (six 0 u e) i)).
    - cbn [sumn vec6]. rnum. ring.
    - intros j hj. rewrite six_level by exact hj. rewrite !lifted. destruct (number_of ns' (fst e) DY); [|congruence]. destruct (number_of ns' (snd e) DY); [|congruence].
      do 6 (destruct j as [|j]; [reflexivity|]). lia.
  Qed.
  Lemma beam_still b phi e : 0 < b_E b -> 0 < b_I b -> 0 < b_A b -> 0 < b_l b -> 0 <= phi -> number_of ns' (fst e) DY <> None /\ number_of ns' (snd e) DY <> None ->
    quad 6 (beam_stiffness b phi) (six 0 v e) = quad 6 (beam_stiffness b phi) (six 0 u e) + quad 6 (beam_stiffness b phi) (six 0 w e) + 2 * 0.
  Proof.
    intros hE hI hA hl hp hf. assert (hs : msym 6 (beam_stiffness b phi)) by (apply stiffness_sym; assumption). rewrite beam_lift by assumption. f_equal. f_equal.
    transitivity (sumn 6 (fun i => vec6 0 1 0 0 1 0 i * mulv 6 (beam_stiffness b phi) (six 0 u e) i)); [cbn [sumn vec6]; rnum; ring|].
    transitivity (sumn 6 (fun i => six 0 u e i * mulv 6 (beam_stiffness b phi) (vec6 0 1 0 0 1 0) i)).
    - unfold mulv. rewrite (sumn_ext 6 _ (fun i => sumn 6 (fun j => vec6 0 1 0 0 1 0 i * (beam_stiffness b phi i j * six 0 u e j)))) by (intros i hi; rewrite <- sumn_scal; reflexivity).
      rewrite sumn_swap. apply sumn_ext. intros j hj. rewrite <- sumn_scal. apply sumn_ext. intros i hi. rewrite (hs i j) by assumption. rnum. ring.
    - apply sumn_0. intros i hi. rewrite stiffness_translation by assumption. rnum. ring.
  Qed.

  (** a spring *)
  Lemma spring_lift c e : plumb ns e ->
    let st y := c * ((y (snd e) DY - y (fst e) DY) * (y (snd e) DY - y (fst e) DY)) in
    st v = st u + st w + 2 * (c * above_ground ns' u e).
  Proof.
    intros _ st. unfold st, above_ground. rewrite !summed, !lifted. destruct (number_of ns' (fst e) DY) eqn:e1; destruct (number_of ns' (snd e) DY) eqn:e2.
    - ring.
    - unfold u. rewrite (rests x (snd e) e2). ring.
    - unfold u. rewrite (rests x (fst e) e1). ring.
    - ring.
  Qed.
  Lemma rod_lift c e : let ms y := c / 3 * (y (fst e) DY * y (fst e) DY + y (fst e) DY * y (snd e) DY + y (snd e) DY * y (snd e) DY) in
    ms v = ms u + ms w + 2 * (c * spring_velocity ns' u e).
  Proof.
    intros ms. unfold ms, spring_velocity. rewrite !summed, !lifted. destruct (number_of ns' (fst e) DY) eqn:e1; destruct (number_of ns' (snd e) DY) eqn:e2.
    - field.
    - unfold u. rewrite (rests x (snd e) e2). field.
    - unfold u. rewrite (rests x (fst e) e1). field.
    - field.
  Qed.

  Lemma rod_spring_form c m y e : rod_spring (Some c) = Some m -> plumb ns e ->
    quad 2 m (local2 (calculate_rotation1 (xy ns (fst e), xy ns (snd e))) y (fst e) (snd e)) = c * ((y (snd e) DY - y (fst e) DY) * (y (snd e) DY - y (fst e) DY)).
  Proof.
    intros em hp. destruct (plumb_angle ns e hp) as [sg [hsg ha]]. destruct (rod_spring_spec c m em) as [_ [q _]]. rewrite q. cbn [local2]. rewrite !ha. destruct hsg as [-> | ->]; ring.
  Qed.
  Lemma rod_mass_form c m y e : rod_mass (Some c) = Some m -> plumb ns e ->
    quad 2 m (local2 (calculate_rotation1 (xy ns (fst e), xy ns (snd e))) y (fst e) (snd e)) =
    c / 3 * (y (fst e) DY * y (fst e) DY + y (fst e) DY * y (snd e) DY + y (snd e) DY * y (snd e) DY).
  Proof.
    intros em hp. destruct (plumb_angle ns e hp) as [sg [hsg ha]]. rewrite (rod_mass_quad c m _ em). cbn [local2]. rewrite !ha. destruct hsg as [-> | ->]; field.
  Qed.

  Lemma part_stiffness p : upright ns p -> beams_free ns' p -> sound p ->
    part_form aux_stiffness ns v p = part_form aux_stiffness ns u p + part_form aux_stiffness ns w p + 2 * ground_springs ns' u p.
  Proof.
    unfold upright, beams_free, sound, part_form, ground_springs. destruct (ep_kind p) as [o c m|b|b|m]; cbn [aux_stiffness].
    - intros hu _ _. destruct o as [o|]; cbn [or_zero].
      + destruct (rod_spring (Some o)) as [m'|] eqn:em; [|discriminate].
        apply (polar_sum (fun y e => element_form (KRod (Some o) c m) m' (calculate_rotation1 (xy ns (fst e), xy ns (snd e))) y (fst e) (snd e))).
        intros e he. cbn [element_form]. rewrite !(rod_spring_form o m') by auto. apply spring_lift. auto.
      + cbn [rod_spring]. rewrite sum_none by (intros e he; rnum; ring). ring.
    - intros hu hf [h1 [h2 [h3 [h4 [h5 h6]]]]].
      assert (hp : 0 <= timoshenko_factor (lit 0) b) by (apply timoshenko_nonneg; unfold sound_beam; auto 10).
      rewrite <- (sum_none (fun _ : nat * nat => 0) (ep_els p)) by reflexivity.
      apply (polar_sum (fun y e => element_form (KBeam b) (beam_stiffness b (timoshenko_factor (lit 0) b)) (calculate_rotation1 (xy ns (fst e), xy ns (snd e))) y (fst e) (snd e))).
      intros e he. cbn [element_form]. rewrite (level_angle ns e) by auto. apply beam_still; auto.
    - intros hu hf [h1 [h2 [h3 [h4 [h5 h6]]]]].
      assert (hp : 0 <= timoshenko_factor (lit 0) b) by (apply timoshenko_nonneg; unfold sound_beam; auto 10).
      rewrite <- (sum_none (fun _ : nat * nat => 0) (ep_els p)) by reflexivity.
      apply (polar_sum (fun y e => element_form (KRail b) (beam_stiffness b (timoshenko_factor (lit 0) b)) (calculate_rotation1 (xy ns (fst e), xy ns (snd e))) y (fst e) (snd e))).
      intros e he. cbn [element_form]. rewrite (level_angle ns e) by auto. apply beam_still; auto.
    - intros _ _ _. assert (g : forall y : nat -> dir -> R, nsum (map (fun i => one_by_one (lit 0) 0%nat 0%nat * (y i DY * y i DY)) (ep_nodes p)) = 0) by (intros y; apply sum_none; intros i _; cbn; rnum; ring).
      rewrite !g. ring.
  Qed.

  Lemma part_damping p : upright ns p -> beams_free ns' p -> sound p ->
    part_form aux_damping ns v p = part_form aux_damping ns u p + part_form aux_damping ns w p + 2 * ground_dampers ns' u p.
  Proof.
    assert (gb : forall a y (els : list (nat * nat)), nsum (map (fun e => quad 6 (@beam_damping R _) (local6 (a e) y (fst e) (snd e))) els) = 0).
    { intros a y els. apply sum_none. intros e _. unfold quad, beam_damping, zeros. apply sumn_0. intros i _. apply sumn_0. intros j _. rnum. ring. }
    unfold upright, beams_free, sound, part_form, ground_dampers. destruct (ep_kind p) as [o c m|b|b|m]; cbn [aux_damping].
    - intros hu _ _. destruct c as [c|]; cbn [or_zero].
      + destruct (rod_spring (Some c)) as [m'|] eqn:em; [|discriminate].
        apply (polar_sum (fun y e => element_form (KRod o (Some c) m) m' (calculate_rotation1 (xy ns (fst e), xy ns (snd e))) y (fst e) (snd e))).
        intros e he. cbn [element_form]. rewrite !(rod_spring_form c m') by auto. apply spring_lift. auto.
      + cbn [rod_spring]. rewrite sum_none by (intros e he; rnum; ring). ring.
    - intros _ _ _. cbn [element_form]. rewrite !(gb (fun e => calculate_rotation1 (xy ns (fst e), xy ns (snd e)))). ring.
    - intros _ _ _. cbn [element_form]. rewrite !(gb (fun e => calculate_rotation1 (xy ns (fst e), xy ns (snd e)))). ring.
    - intros _ _ _. assert (g : forall y : nat -> dir -> R, nsum (map (fun i => one_by_one (lit 0) 0%nat 0%nat * (y i DY * y i DY)) (ep_nodes p)) = 0) by (intros y; apply sum_none; intros i _; cbn; rnum; ring).
      rewrite !g. ring.
  Qed.

  Lemma part_mass p : upright ns p -> beams_free ns' p -> sound p ->
    part_form aux_mass ns v p = part_form aux_mass ns u p + part_form aux_mass ns w p + 2 * part_momentum ns' u p.
  Proof.
    unfold upright, beams_free, sound, part_form, part_momentum. destruct (ep_kind p) as [o c m|b|b|m]; cbn [aux_mass].
    - intros hu _ _. destruct m as [m|]; cbn [or_zero].
      + destruct (rod_mass (Some m)) as [m'|] eqn:em; [|discriminate].
        apply (polar_sum (fun y e => element_form (KRod o c (Some m)) m' (calculate_rotation1 (xy ns (fst e), xy ns (snd e))) y (fst e) (snd e))).
        intros e he. cbn [element_form]. rewrite !(rod_mass_form m m') by auto. apply rod_lift.
      + cbn [rod_mass]. rewrite sum_none by (intros e he; rnum; ring). ring.
    - intros hu hf [h1 [h2 [h3 [h4 [h5 h6]]]]].
      assert (hp : 0 <= timoshenko_factor (lit 0) b) by (apply timoshenko_nonneg; unfold sound_beam; auto 10).
      apply (polar_sum (fun y e => element_form (KBeam b) (beam_mass b (timoshenko_factor (lit 0) b)) (calculate_rotation1 (xy ns (fst e), xy ns (snd e))) y (fst e) (snd e))).
      intros e he. cbn [element_form]. rewrite (level_angle ns e) by auto. etransitivity; [exact (beam_lift _ e (beam_mass_sym _ _) (hf e he))|]. f_equal. f_equal.
      rewrite beam_mass_lift by lra. rewrite !six_level by lia. reflexivity.
    - intros hu hf [h1 [h2 [h3 [h4 [h5 h6]]]]].
      assert (hp : 0 <= timoshenko_factor (lit 0) b) by (apply timoshenko_nonneg; unfold sound_beam; auto 10).
      apply (polar_sum (fun y e => element_form (KRail b) (beam_mass b (timoshenko_factor (lit 0) b)) (calculate_rotation1 (xy ns (fst e), xy ns (snd e))) y (fst e) (snd e))).
      intros e he. cbn [element_form]. rewrite (level_angle ns e) by auto. etransitivity; [exact (beam_lift _ e (beam_mass_sym _ _) (hf e he))|]. f_equal. f_equal.
      rewrite beam_mass_lift by lra. rewrite !six_level by lia. reflexivity.
    - intros _ _ _. apply (polar_sum (fun y i => one_by_one m 0%nat 0%nat * (y i DY * y i DY))). intros i _. cbn. rewrite summed, lifted.
      destruct (number_of ns' i DY) eqn:ei; [ring|]. unfold u. rewrite (rests x i ei). ring.
  Qed.

  (** ** all parts *)
  Lemma polar_all aux g : (forall p, upright ns p -> beams_free ns' p -> sound p ->
      part_form aux ns v p = part_form aux ns u p + part_form aux ns w p + 2 * g p) ->
    nsum (map (fun p => part_form aux ns v (settled ns p)) ps) =
    nsum (map (fun p => part_form aux ns u (settled ns p)) ps) + nsum (map (fun p => part_form aux ns w (settled ns p)) ps) + 2 * all_parts ns g ps.
  Proof.
    intros h. unfold all_parts. apply (polar_sum (fun y p => part_form aux ns y (settled ns p)) (fun p => g (settled ns p)) u w v).
    intros p hin. rewrite Forall_forall in hup, hfree, hsound. apply h; [apply settled_upright; auto|apply settled_free; auto|auto].
  Qed.

  Lemma structure_sym : msym k (me (gK s)) /\ msym k (me (gM s)) /\ msym k (me (gC s)).
  Proof. exact (initialise_sym _ _ _ _ _ _ _ _ hshape hsound hinit). Qed.
  Lemma structure_form a (Q : (nat -> dir -> R) -> R) g : msym k a -> (forall y, quad k a y = Q (field_of ns' y)) ->
    Q v = Q u + Q w + 2 * g -> vertical ns' (mulv k a x) = g.
  Proof.
    intros hs hq e. destruct structure_numbers as [_ hnum]. rewrite <- (vertical_work ns' k) by exact hnum.
    pose proof (quad_plus k a x (lift ns') hs) as h. rewrite !hq in h. fold u v w in h. lra.
  Qed.

  Lemma structure_stiffness : vertical ns' (mulv k (me (gK s)) x) = all_parts ns (ground_springs ns' u) ps.
  Proof.
    apply (structure_form _ (fun y => nsum (map (fun p => part_form aux_stiffness ns y (settled ns p)) ps))).
    - apply structure_sym.
    - intros y. apply (initialise_energy _ _ _ _ _ _ _ _ y hshape hinit).
    - apply polar_all. exact part_stiffness.
  Qed.
  Lemma structure_mass : vertical ns' (mulv k (me (gM s)) x) = all_parts ns (part_momentum ns' u) ps.
  Proof.
    apply (structure_form _ (fun y => nsum (map (fun p => part_form aux_mass ns y (settled ns p)) ps))).
    - apply structure_sym.
    - intros y. apply (initialise_energy _ _ _ _ _ _ _ _ y hshape hinit).
    - apply polar_all. exact part_mass.
  Qed.
  Lemma structure_damping : vertical ns' (mulv k (me (gC s)) x) = all_parts ns (ground_dampers ns' u) ps +
    (if da_on da then let (a0, a1) := rayleigh_factors (da_ratio da) (da_one da) (da_two da) in
       a0 * all_parts ns (part_momentum ns' u) ps + a1 * all_parts ns (ground_springs ns' u) ps else 0).
  Proof.
    apply (structure_form _ (fun y => nsum (map (fun p => part_form aux_damping ns y (settled ns p)) ps) +
      (if da_on da then let (a0, a1) := rayleigh_factors (da_ratio da) (da_one da) (da_two da) in
        a0 * nsum (map (fun p => part_form aux_mass ns y (settled ns p)) ps) + a1 * nsum (map (fun p => part_form aux_stiffness ns y (settled ns p)) ps) else 0))).
    - apply structure_sym.
    - intros y. apply (initialise_energy _ _ _ _ _ _ _ _ y hshape hinit).
    - rewrite (polar_all _ _ part_damping), (polar_all _ _ part_mass), (polar_all _ _ part_stiffness). destruct (da_on da); [destruct (rayleigh_factors _ _ _)|]; ring.
  Qed.
End Structure.
