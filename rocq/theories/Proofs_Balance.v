(** * Vertical balance of a generated track *)

From Coq Require Import Reals List Bool ZArith Arith Lia Lra Psatz.
From Verif Require Import Num PyBase Model_Geometry Model_System Spec_System Proofs_Dof Proofs_System Model_Element Spec_Element
  Proofs_Elements Proofs_Element Proofs_Beam Proofs_Force Model_Accumulation Proofs_Accumulation Proofs_Geometry Model_Coupled Model_Mesh Proofs_Mesh Proofs_Hinge
  Model_Track Spec_Track Spec_Generated Proofs_Track Proofs_Assembly Proofs_Generated Spec_Analytic Spec_Motion Proofs_Motion Spec_Chain Proofs_Chain
  Spec_Renumber Proofs_Renumber Spec_Balance.
Import ListNotations.
Local Open Scope R_scope.

(** ** a unit motion of all vertical directions *)

Definition lift (ns : list (node R)) (j : nat) : R :=
  if existsb (fun i => match number_of ns i DY with Some k => Nat.eqb k j | None => false end) (seq 0 (length ns)) then 1 else 0.

Lemma lift_field ns k p e : numbered ns k ->
  field_of ns (lift ns) p e = match e with DY => match number_of ns p DY with Some _ => 1 | None => 0 end | _ => 0 end.
Proof.
  intros hnum. unfold field_of. destruct (number_of ns p e) as [j|] eqn:ej.
  - unfold lift. destruct (existsb _ _) eqn:ex.
    + apply existsb_exists in ex. destruct ex as [i [hi g]]. destruct (number_of ns i DY) as [k'|] eqn:ek; [|discriminate]. apply Nat.eqb_eq in g. subst k'.
      destruct (numbered_inj _ _ _ _ _ _ _ hnum ej ek) as [-> ->]. rewrite ek. reflexivity.
    + destruct e; [reflexivity| |reflexivity]. exfalso.
      assert (g : existsb (fun i => match number_of ns i DY with Some k => Nat.eqb k j | None => false end) (seq 0 (length ns)) = true); [|congruence].
      apply existsb_exists. exists p. split; [apply in_seq; pose proof (number_of_bound _ _ _ _ ej); lia|]. rewrite ej. apply Nat.eqb_refl.
  - destruct e; [reflexivity|rewrite ej; reflexivity|reflexivity].
Qed.

Lemma vertical_work ns k f : numbered ns k -> sumn k (fun i => lift ns i * f i) = vertical ns f.
Proof.
  intros hnum. rewrite (dsum_numbers ns k _ hnum). unfold dsum, vertical. rewrite nsum_map_seq. apply sumn_ext. intros p hp.
  pose proof (lift_field ns k p DX hnum) as a. pose proof (lift_field ns k p DY hnum) as b. pose proof (lift_field ns k p DR hnum) as c. unfold field_of in *.
  destruct (number_of ns p DX), (number_of ns p DY), (number_of ns p DR); rewrite ?a, ?b, ?c; rnum; ring.
Qed.

Lemma polar_sum {A} (F : (nat -> dir -> R) -> A -> R) (G : A -> R) u w s q :
  (forall a, In a q -> F s a = F u a + F w a + 2 * G a) ->
  nsum (map (F s) q) = nsum (map (F u) q) + nsum (map (F w) q) + 2 * nsum (map G q).
Proof.
  induction q as [|a q IH]; intros h; cbn [map nsum]; rnum; [ring|]. rewrite IH by (intros; apply h; right; assumption). rewrite (h a) by (left; reflexivity). ring.
Qed.

Lemma seq_from c a : seq (0 + c) a = map (fun i => (c + i)%nat) (seq 0 a).
Proof.
  cbn [Nat.add]. assert (g : forall a s, map (fun i => (c + i)%nat) (seq s a) = seq (c + s) a).
  { clear a. induction a as [|a IH]; intros s; [reflexivity|]. cbn [seq map]. rewrite IH. do 2 f_equal. lia. }
  rewrite g. f_equal. lia.
Qed.

Section Balance.
  Variables (n r : nat) (d depth : R).
  Hypothesis hn : (2 <= n)%nat.
  Hypothesis hr : (1 <= r)%nat.
  Hypothesis hd : 1 / 1000000000 < d / INR r.
  Hypothesis hdepth : 1 / 1000000000 < depth.
  Variables (b : beam R) (kp ks m : R) (cp mp cs ms : option R).
  Hypothesis hf : fixed_ends b.
  Hypothesis hE : 0 < b_E b.
  Hypothesis hI : 0 < b_I b.
  Hypothesis hA : 0 < b_A b.
  Hypothesis hnu : - 1 < b_nu b.
  Hypothesis hrho : 0 <= b_rho b.
  Hypothesis hkp : 0 < kp.
  Hypothesis hks : 0 < ks.
  Hypothesis hm : 0 <= m.
  Hypothesis hcp : opt_nonneg cp.
  Hypothesis hmp : opt_nonneg mp.
  Hypothesis hcs : opt_nonneg cs.
  Hypothesis hms : opt_nonneg ms.

  Let nr := (n * r)%nat.
  Let t := the_track 0 n r d depth.
  Let ns := tk_mesh t.
  Let l := d / INR r.
  Let b' := mkBeam (b_E b) (b_nu b) (b_rho b) (b_A b) (b_I b) (b_shear_factor b) l (b_s1 b) (b_s2 b).
  Let phi := timoshenko_factor 0 b'.
  Let parts := [mkPart (KRail b) (tk_rail_nodes t) (tk_rail_els t);
                mkPart (KRod (Some kp) cp mp) (tk_pad_nodes t) (tk_pad_els t);
                mkPart (KPoint m) (tk_sleepers t) [];
                mkPart (KRod (Some ks) cs ms) (tk_soil_nodes t) (tk_soil_els t)].

  (** ** what each element contributes *)

  Lemma rail_settles : settled ns (mkPart (KRail b) (tk_rail_nodes t) (tk_rail_els t)) = mkPart (KRail b') (tk_rail_nodes t) (tk_rail_els t).
  Proof. exact (settled_rail n r d depth hn hr hd b). Qed.

  Let six (u : nat -> dir -> R) (i : nat) : nat -> R :=
    vec6 (u i DX) (u i DY) (u i DR) (u (i + 1)%nat DX) (u (i + 1)%nat DY) (u (i + 1)%nat DR).
  Let rod_mass_form (c : R) (p q : nat) (u : nat -> dir -> R) : R := c / 3 * (u p DY * u p DY + u p DY * u q DY + u q DY * u q DY).
  Let stretch_form (c : R) (p q : nat) (u : nat -> dir -> R) : R := c * ((u q DY - u p DY) * (u q DY - u p DY)).

  Lemma rod_mass_quad c a v : rod_mass (Some c) = Some a -> quad 2 a v = c / 3 * (v 0%nat * v 0%nat + v 0%nat * v 1%nat + v 1%nat * v 1%nat).
  Proof. intros e. injection e as <-. unfold quad. cbn. unfold mscale. cbn. rnum. field. Qed.

  Lemma track_mass u :
    nsum (map (fun p => part_form aux_mass ns u (settled ns p)) parts) =
    nsum (map (fun i => quad 6 (beam_mass b' phi) (six u i)) (seq 0 (nr - 1))) + nsum (map (fun i => rod_mass_form (or_zero mp) (i * r) (nr + i) u) (seq 0 n)) +
    nsum (map (fun i => m * (u (nr + i)%nat DY * u (nr + i)%nat DY)) (seq 0 n)) + nsum (map (fun i => rod_mass_form (or_zero ms) (nr + i) (nr + n + i) u) (seq 0 n)).
  Proof.
    unfold parts. cbn [map nsum]. rewrite rail_settles.
    assert (e1 : part_form aux_mass ns u (mkPart (KRail b') (tk_rail_nodes t) (tk_rail_els t)) = nsum (map (fun i => quad 6 (beam_mass b' phi) (six u i)) (seq 0 (nr - 1)))).
    { unfold part_form. cbn [ep_kind ep_els aux_mass]. change (tk_rail_els t) with (map (fun i => ((0 + i)%nat, (0 + (i + 1))%nat)) (seq 0 (nr - 1))). rewrite map_map.
      apply nsum_map_ext. intros i hi. apply in_seq in hi. cbn [fst snd Nat.add element_form]. unfold ns, t. rewrite (rail_angle n r d depth) by (assumption || (fold nr; lia)).
      change (timoshenko_factor (lit 0) b') with phi. apply quad_ext_vec. intros j hj. unfold local6, six, along, across. rewrite cos_0, sin_0.
      do 6 (destruct j as [|j]; [cbn [vec6]; ring|]). lia. }
    assert (e2 : forall k c o nd (f g : nat -> nat), (forall i, (i < n)%nat -> calculate_rotation1 (xy ns (f i), xy ns (g i)) = - (PI / 2)) ->
       part_form aux_mass ns u (settled ns (mkPart (KRod k c o) nd (map (fun i => (f i, g i)) (seq 0 n)))) = nsum (map (fun i => rod_mass_form (or_zero o) (f i) (g i) u) (seq 0 n))).
    { intros k c o nd f g ha. unfold settled. cbn [ep_kind]. unfold part_form. cbn [ep_kind ep_els aux_mass]. destruct o as [o|].
      - destruct (rod_mass (Some o)) as [a|] eqn:ea; [|discriminate]. rewrite map_map. apply nsum_map_ext. intros i hi. apply in_seq in hi. cbn [fst snd element_form].
        rewrite ha by lia. rewrite (rod_mass_quad o a _ ea). cbn [local2]. rewrite !along_down. reflexivity.
      - cbn [rod_mass]. induction (seq 0 n) as [|i q IH]; [reflexivity|]. cbn [map nsum]. rewrite <- IH. unfold rod_mass_form. cbn [or_zero]. rnum. field. }
    rewrite e1.
    change (tk_pad_els t) with (map (fun i => ((0 + i * r)%nat, (0 + nr + i)%nat)) (seq 0 n)).
    change (tk_soil_els t) with (map (fun i => ((0 + nr + i)%nat, (0 + nr + n + i)%nat)) (seq 0 n)).
    rewrite (e2 (Some kp) cp mp _ (fun i => (0 + i * r)%nat) (fun i => (0 + nr + i)%nat)) by (intros i hi; apply (pad_angle n r d depth); assumption).
    rewrite (e2 (Some ks) cs ms _ (fun i => (0 + nr + i)%nat) (fun i => (0 + nr + n + i)%nat)) by (intros i hi; apply (soil_angle n r d depth); assumption).
    assert (e4 : part_form aux_mass ns u (settled ns (mkPart (KPoint m) (tk_sleepers t) [])) = nsum (map (fun i => m * (u (nr + i)%nat DY * u (nr + i)%nat DY)) (seq 0 n))).
    { unfold settled. cbn [ep_kind]. unfold part_form. cbn [ep_kind ep_nodes aux_mass]. change (tk_sleepers t) with (seq (0 + nr) n).
      rewrite seq_from, map_map. apply nsum_map_ext. intros i _. reflexivity. }
    rewrite e4. cbn [Nat.add]. rnum. ring.
  Qed.

  Lemma track_damping u :
    nsum (map (fun p => part_form aux_damping ns u (settled ns p)) parts) =
    nsum (map (fun i => stretch_form (or_zero cp) (i * r) (nr + i) u) (seq 0 n)) + nsum (map (fun i => stretch_form (or_zero cs) (nr + i) (nr + n + i) u) (seq 0 n)).
  Proof.
    unfold parts. cbn [map nsum]. rewrite rail_settles.
    assert (e1 : part_form aux_damping ns u (mkPart (KRail b') (tk_rail_nodes t) (tk_rail_els t)) = 0).
    { unfold part_form. cbn [ep_kind ep_els aux_damping]. apply nsum_zero. intros e _. cbn [element_form]. unfold quad, beam_damping, zeros. apply sumn_0. intros i _. apply sumn_0. intros j _. rnum. ring. }
    assert (e2 : forall k c o nd (f g : nat -> nat), (forall i, (i < n)%nat -> calculate_rotation1 (xy ns (f i), xy ns (g i)) = - (PI / 2)) ->
       part_form aux_damping ns u (settled ns (mkPart (KRod k c o) nd (map (fun i => (f i, g i)) (seq 0 n)))) = nsum (map (fun i => stretch_form (or_zero c) (f i) (g i) u) (seq 0 n))).
    { intros k c o nd f g ha. unfold settled. cbn [ep_kind]. unfold part_form. cbn [ep_kind ep_els aux_damping]. destruct c as [c|].
      - destruct (rod_spring (Some c)) as [a|] eqn:ea; [|discriminate]. rewrite map_map. apply nsum_map_ext. intros i hi. apply in_seq in hi. cbn [fst snd element_form].
        rewrite ha by lia. destruct (rod_spring_spec c a ea) as [_ [q _]]. rewrite q. cbn [local2]. rewrite !along_down. reflexivity.
      - cbn [rod_spring]. induction (seq 0 n) as [|i q IH]; [reflexivity|]. cbn [map nsum]. rewrite <- IH. unfold stretch_form. cbn [or_zero]. rnum. ring. }
    rewrite e1.
    change (tk_pad_els t) with (map (fun i => ((0 + i * r)%nat, (0 + nr + i)%nat)) (seq 0 n)).
    change (tk_soil_els t) with (map (fun i => ((0 + nr + i)%nat, (0 + nr + n + i)%nat)) (seq 0 n)).
    rewrite (e2 (Some kp) cp mp _ (fun i => (0 + i * r)%nat) (fun i => (0 + nr + i)%nat)) by (intros i hi; apply (pad_angle n r d depth); assumption).
    rewrite (e2 (Some ks) cs ms _ (fun i => (0 + nr + i)%nat) (fun i => (0 + nr + n + i)%nat)) by (intros i hi; apply (soil_angle n r d depth); assumption).
    assert (e4 : part_form aux_damping ns u (settled ns (mkPart (KPoint m) (tk_sleepers t) [])) = 0).
    { unfold settled. cbn [ep_kind]. unfold part_form. cbn [ep_kind ep_nodes aux_damping]. apply nsum_zero. intros i _. cbn. rnum. ring. }
    rewrite e4. cbn [Nat.add]. rnum. ring.
  Qed.

  (** ** the vertical directions of rails and sleepers are kept *)

  Lemma b_sound' : sound_beam b'.
  Proof. assert (0 < l) by (unfold l; lra). unfold sound_beam, b'. cbn. auto 10. Qed.
  Lemma phi_pos : 0 <= phi.
  Proof. exact (timoshenko_nonneg b' b_sound'). Qed.

  Lemma opt_zero o : opt_nonneg o -> 0 <= or_zero o.
  Proof. destruct o; cbn; intros; lra. Qed.
  Lemma rod_mass_nonneg c p q u : 0 <= c -> 0 <= rod_mass_form c p q u.
  Proof. intros h. unfold rod_mass_form. apply Rmult_le_pos; [lra|]. nra. Qed.
  Lemma rail_mass_nonneg v : 0 <= quad 6 (beam_mass b' phi) v.
  Proof. apply beam_mass_psd; cbn; try lra; [unfold l; lra|exact phi_pos]. Qed.
  Lemma unit_same p e : unit_field p e p e = 1.
  Proof. unfold unit_field. rewrite Nat.eqb_refl. reflexivity. Qed.

  Lemma unit_off p e q e' : p <> q -> unit_field p e q e' = 0.
  Proof. intros h. unfold unit_field. destruct (Nat.eqb_spec (3 * p + dir_idx e) (3 * q + dir_idx e')); [|reflexivity]. destruct e, e'; cbn [dir_idx] in *; lia. Qed.
  Lemma unit_dir p e q e' : e <> e' -> unit_field p e q e' = 0.
  Proof. intros h. unfold unit_field. destruct (Nat.eqb_spec (3 * p + dir_idx e) (3 * q + dir_idx e')); [|reflexivity]. destruct e, e'; cbn [dir_idx] in *; try congruence; lia. Qed.

  Lemma rail_stiff_diag p : (p < nr)%nat ->
    12 * (b_E b * b_I b) / ((1 + phi) * (l * l * l)) <= nsum (map (fun a => part_form aux_stiffness ns (unit_field p DY) (settled ns a)) parts).
  Proof.
    intros hp. unfold parts, ns, t. rewrite (track_energy n r d depth hn hr hd hdepth b kp ks m cp mp cs ms hf hE hI hA hnu hrho). fold nr.
    destruct (rail_at n r hn hr p hp) as [i [hi hpi]]. fold nr in hi.
    assert (p1 : rail_energy r d b (unit_field p DY) i <= nsum (map (rail_energy r d b (unit_field p DY)) (seq 0 (nr - 1)))).
    { apply (nsum_ge (rail_energy r d b (unit_field p DY))); [intros; apply (rail_energy_nonneg r d hd b hE hI hA hnu hrho)|apply in_seq; lia]. }
    assert (p2 : 0 <= nsum (map (pad_energy n r kp (unit_field p DY)) (seq 0 n))) by (apply nsum_nonneg, Forall_map, Forall_forall; intros; apply scaled_square; lra).
    assert (p3 : 0 <= nsum (map (soil_energy n r ks (unit_field p DY)) (seq 0 n))) by (apply nsum_nonneg, Forall_map, Forall_forall; intros; apply scaled_square; lra).
    assert (e : rail_energy r d b (unit_field p DY) i = 12 * (b_E b * b_I b) / ((1 + phi) * (l * l * l))).
    { unfold rail_energy. cbv zeta. fold l. fold b'. fold phi. rewrite !(unit_dir p DY _ DX), !(unit_dir p DY _ DR) by discriminate.
      destruct hpi as [-> | ->]; rewrite unit_same, unit_off by lia; unfold Rdiv; ring. }
    lra.
  Qed.

  Lemma rail_mass_diag p : (p < nr)%nat ->
    b_rho b * b_A b * l / 3 <= nsum (map (fun a => part_form aux_mass ns (unit_field p DY) (settled ns a)) parts).
  Proof.
    intros hp. rewrite track_mass. destruct (rail_at n r hn hr p hp) as [i [hi hpi]]. fold nr in hi. set (u := unit_field p DY).
    assert (p1 : quad 6 (beam_mass b' phi) (six u i) <= nsum (map (fun i => quad 6 (beam_mass b' phi) (six u i)) (seq 0 (nr - 1)))).
    { apply (nsum_ge (fun i => quad 6 (beam_mass b' phi) (six u i))); [intros; apply rail_mass_nonneg|apply in_seq; lia]. }
    assert (p2 : 0 <= nsum (map (fun i => rod_mass_form (or_zero mp) (i * r) (nr + i) u) (seq 0 n))) by (apply nsum_nonneg, Forall_map, Forall_forall; intros; apply rod_mass_nonneg, opt_zero; assumption).
    assert (p3 : 0 <= nsum (map (fun i => rod_mass_form (or_zero ms) (nr + i) (nr + n + i) u) (seq 0 n))) by (apply nsum_nonneg, Forall_map, Forall_forall; intros; apply rod_mass_nonneg, opt_zero; assumption).
    assert (p4 : 0 <= nsum (map (fun i => m * (u (nr + i)%nat DY * u (nr + i)%nat DY)) (seq 0 n))) by (apply nsum_nonneg, Forall_map, Forall_forall; intros; apply scaled_square; exact hm).
    assert (p5 : b_rho b * b_A b * l / 3 <= quad 6 (beam_mass b' phi) (six u i)); [|lra]. clear p1 p2 p3 p4.
    pose proof phi_pos as hphi. assert (hl : 0 < l) by (unfold l; lra).
    assert (e2 : forall j, (j = 1 \/ j = 4)%nat -> b_rho b * b_A b * l / 3 <= beam_mass b' phi j j).
    { intros j hj. rewrite beam_mass_entries by (destruct hj; lia). unfold mass_entries.
      assert (q1 : trans_entries (b_l b') phi j j * (b_rho b' * b_A b' * b_l b' / (210 * ((1 + phi) * (1 + phi)))) =
                   b_rho b * b_A b * l / 3 + b_rho b * b_A b * l * ((7 * phi + 8) / (210 * ((1 + phi) * (1 + phi))))).
      { clearbody phi. destruct hj as [-> | ->]; cbn [trans_entries b_rho b_A b_l b']; field; lra. }
      rewrite q1.
      assert (q2 : 0 <= b_rho b * b_A b * l * ((7 * phi + 8) / (210 * ((1 + phi) * (1 + phi))))).
      { apply Rmult_le_pos; [apply Rmult_le_pos; [apply Rmult_le_pos|]; lra|]. apply Rle_mult_inv_pos; [lra|]. nra. }
      destruct (Req_EM_T phi 0) as [z|z]; [lra|].
      assert (q3 : 0 <= rot_entries (b_l b') phi j j * (b_rho b' * b_I b' / (30 * ((1 + phi) * (1 + phi)) * b_l b'))).
      { apply Rmult_le_pos; [destruct hj as [-> | ->]; cbn [rot_entries]; lra|]. cbn [b_rho b_I b_l b']. apply Rle_mult_inv_pos; [apply Rmult_le_pos; lra|].
        apply Rmult_lt_0_compat; [|exact hl]. apply Rmult_lt_0_compat; [lra|]. apply Rmult_lt_0_compat; lra. }
      lra. }
    unfold u. destruct hpi as [hpi|hpi].
    - eapply Rle_trans; [apply (e2 1%nat); left; reflexivity|]. apply Req_le. rewrite <- (quad_unit 6 _ 1%nat) by lia. apply quad_ext_vec. intros j hj.
      unfold six. rewrite !(unit_dir p DY _ DX), !(unit_dir p DY _ DR) by discriminate.
      subst p. rewrite unit_same. rewrite (unit_off i DY (i + 1)) by lia.
      do 6 (destruct j as [|j]; [cbn; ring|]). lia.
    - eapply Rle_trans; [apply (e2 4%nat); right; reflexivity|]. apply Req_le. rewrite <- (quad_unit 6 _ 4%nat) by lia. apply quad_ext_vec. intros j hj.
      unfold six. rewrite !(unit_dir p DY _ DX), !(unit_dir p DY _ DR) by discriminate.
      subst p. rewrite unit_same. rewrite (unit_off (i + 1) DY i) by lia.
      do 6 (destruct j as [|j]; [cbn; ring|]). lia.
  Qed.

  Lemma sleeper_diag i : (i < n)%nat ->
    kp <= nsum (map (fun a => part_form aux_stiffness ns (unit_field (nr + i) DY) (settled ns a)) parts) /\
    m <= nsum (map (fun a => part_form aux_mass ns (unit_field (nr + i) DY) (settled ns a)) parts).
  Proof.
    intros hi. set (u := unit_field (nr + i) DY). split.
    - unfold parts, ns, t. rewrite (track_energy n r d depth hn hr hd hdepth b kp ks m cp mp cs ms hf hE hI hA hnu hrho). fold nr.
      assert (p1 : 0 <= nsum (map (rail_energy r d b u) (seq 0 (nr - 1)))) by (apply nsum_nonneg, Forall_map, Forall_forall; intros; apply (rail_energy_nonneg r d hd b hE hI hA hnu hrho)).
      assert (p2 : pad_energy n r kp u i <= nsum (map (pad_energy n r kp u) (seq 0 n))) by (apply (nsum_ge (pad_energy n r kp u)); [intros; apply scaled_square; lra|apply in_seq; lia]).
      assert (p3 : 0 <= nsum (map (soil_energy n r ks u) (seq 0 n))) by (apply nsum_nonneg, Forall_map, Forall_forall; intros; apply scaled_square; lra).
      assert (e : pad_energy n r kp u i = kp).
      { unfold pad_energy, u. fold nr. rewrite unit_same, unit_off by (unfold nr; nia). ring. }
      lra.
    - rewrite track_mass.
      assert (p1 : 0 <= nsum (map (fun i => quad 6 (beam_mass b' phi) (six u i)) (seq 0 (nr - 1)))) by (apply nsum_nonneg, Forall_map, Forall_forall; intros; apply rail_mass_nonneg).
      assert (p2 : 0 <= nsum (map (fun i => rod_mass_form (or_zero mp) (i * r) (nr + i) u) (seq 0 n))) by (apply nsum_nonneg, Forall_map, Forall_forall; intros; apply rod_mass_nonneg, opt_zero; assumption).
      assert (p3 : 0 <= nsum (map (fun i => rod_mass_form (or_zero ms) (nr + i) (nr + n + i) u) (seq 0 n))) by (apply nsum_nonneg, Forall_map, Forall_forall; intros; apply rod_mass_nonneg, opt_zero; assumption).
      assert (p4 : m * (u (nr + i)%nat DY * u (nr + i)%nat DY) <= nsum (map (fun i => m * (u (nr + i)%nat DY * u (nr + i)%nat DY)) (seq 0 n))).
      { apply (nsum_ge (fun i => m * (u (nr + i)%nat DY * u (nr + i)%nat DY))); [intros; apply scaled_square; exact hm|apply in_seq; lia]. }
      unfold u in p4 at 1 2. rewrite unit_same in p4. lra.
  Qed.

  Lemma vertical_kept ls cs0 da s ns' k p : initialise_system ns parts ls cs0 da = Ok (s, ns', k) -> (p < nr + n)%nat ->
    1 / 100000000 < 12 * (b_E b * b_I b) / ((1 + phi) * (l * l * l)) -> 1 / 100000000 < b_rho b * b_A b * l / 3 ->
    1 / 100000000 < kp -> 1 / 100000000 < m ->
    (number_of ns' p DY <> None <-> flag_after cs0 p DY true = true).
  Proof.
    intros h hp h1 h2 h3 h4. destruct (initialise_inv _ _ _ _ _ _ _ _ h) as [s0 [_ [e0 _]]]. destruct (initialise_kept _ _ _ _ _ _ _ _ _ h e0) as [hl [_ [hk _]]].
    assert (hlen : length ns = (nr + n + n)%nat) by (apply (mesh_length n r d depth); assumption).
    assert (hb : (p < length ns)%nat) by (rewrite hlen; lia). specialize (hk p DY hb). cbv zeta in hk. rewrite hk.
    assert (ha : active ns p DY = true) by (apply (all_active n r d depth); assumption). rewrite ha.
    destruct (assemble_diag ns parts ls s0 _ p DY (parts_shaped n r d depth hn hr b kp ks m cp mp cs ms) e0 hb) as [k1 k2]. cbn [dir_idx] in k1, k2. rewrite k1, k2.
    split; [tauto|]. intros g. split; [exact g|].
    destruct (Nat.lt_ge_cases p nr) as [c|c].
    - pose proof (rail_stiff_diag p c). pose proof (rail_mass_diag p c). rewrite !Rabs_right by lra. lra.
    - destruct (sleeper_diag (p - nr)) as [g1 g2]; [lia|]. replace (nr + (p - nr))%nat with p in g1, g2 by lia. rewrite !Rabs_right by lra. lra.
  Qed.

  (** ** virtual work of a unit vertical motion *)
  Variables (ls : list (load R)) (cs0 : list (list nat * tri bool)) (da : damping R) (s : gsys R) (ns' : list (node R)) (k : nat).
  Hypothesis hinit : initialise_system ns parts ls cs0 da = Ok (s, ns', k).
  Hypothesis hfree : forall p, (p < nr + n)%nat -> number_of ns' p DY <> None.
  Hypothesis hheld : forall i, (i < n)%nat -> number_of ns' (nr + n + i)%nat DY = None.

  Let w := field_of ns' (lift ns').

  Lemma balance_numbers : length ns' = (nr + n + n)%nat /\ numbered ns' k.
  Proof.
    destruct (initialise_inv _ _ _ _ _ _ _ _ hinit) as [s0 [_ [e0 _]]]. destruct (initialise_kept _ _ _ _ _ _ _ _ _ hinit e0) as [hl [hnum _]].
    rewrite hl. split; [apply (mesh_length n r d depth); assumption|exact hnum].
  Qed.
  Lemma w_free p : (p < nr + n)%nat -> w p DY = 1.
  Proof. intros hp. destruct balance_numbers as [_ hnum]. unfold w. rewrite (lift_field _ k) by exact hnum. specialize (hfree p hp). destruct (number_of ns' p DY); [reflexivity|congruence]. Qed.
  Lemma w_held i : (i < n)%nat -> w (nr + n + i)%nat DY = 0.
  Proof. intros hi. destruct balance_numbers as [_ hnum]. unfold w. rewrite (lift_field _ k) by exact hnum. rewrite (hheld i hi). reflexivity. Qed.
  Lemma w_other p : w p DX = 0 /\ w p DR = 0.
  Proof. destruct balance_numbers as [_ hnum]. unfold w. rewrite !(lift_field _ k) by exact hnum. auto. Qed.
  Lemma field_plus x y p e : field_of ns' (fun i => x i + y i) p e = field_of ns' x p e + field_of ns' y p e.
  Proof. unfold field_of. destruct (number_of ns' p e); ring. Qed.
  Lemma held_field x i : (i < n)%nat -> field_of ns' x (nr + n + i)%nat DY = 0.
  Proof. intros hi. unfold field_of. rewrite (hheld i hi). reflexivity. Qed.

  Lemma bshaped : Forall shaped parts.
  Proof. exact (parts_shaped n r d depth hn hr b kp ks m cp mp cs ms). Qed.
  Lemma bsound : Forall (fun p => sound (settled ns p)) parts.
  Proof. apply (parts_sound n r d depth); assumption. Qed.
  Lemma bsym : msym k (me (gK s)) /\ msym k (me (gM s)) /\ msym k (me (gC s)).
  Proof. exact (initialise_sym _ _ _ _ _ _ _ _ bshaped bsound hinit). Qed.

  (** the vertical components of the product of a matrix with [x], when twice the matrix's form is polarised *)
  Lemma vertical_form a (Q : (nat -> dir -> R) -> R) x g : msym k a -> (forall y, quad k a y = Q (field_of ns' y)) ->
    Q (field_of ns' (fun i => x i + lift ns' i)) = Q (field_of ns' x) + Q w + 2 * g -> vertical ns' (mulv k a x) = g.
  Proof.
    intros hs hq e. destruct balance_numbers as [_ hnum]. rewrite <- (vertical_work ns' k) by exact hnum.
    pose proof (quad_plus k a x (lift ns') hs) as h. rewrite !hq in h. fold w in h. lra.
  Qed.

  Lemma polar_stiffness x : let u := field_of ns' x in let v := field_of ns' (fun i => x i + lift ns' i) in
    let Q u := nsum (map (fun p => part_form aux_stiffness ns u (settled ns p)) parts) in
    Q v = Q u + Q w + 2 * nsum (map (fun i => ks * u (nr + i)%nat DY) (seq 0 n)).
  Proof.
    intros u v Q. unfold Q, parts, ns, t. rewrite !(track_energy n r d depth hn hr hd hdepth b kp ks m cp mp cs ms hf hE hI hA hnu hrho).
    assert (ev : forall p e, v p e = u p e + w p e) by (intros; apply field_plus).
    rewrite (polar_sum (rail_energy r d b) (fun _ => 0) u w v), (polar_sum (pad_energy n r kp) (fun _ => 0) u w v), (polar_sum (soil_energy n r ks) (fun i => ks * u (nr + i)%nat DY) u w v).
    - rewrite !(nsum_zero (fun _ : nat => 0)) by reflexivity. ring.
    - intros i hi. apply in_seq in hi. unfold soil_energy. fold nr. rewrite !ev, w_held by lia. rewrite (w_free (nr + i)) by lia. unfold u. rewrite !held_field by lia. ring.
    - intros i hi. apply in_seq in hi. unfold pad_energy. fold nr. rewrite !ev, !w_free by (unfold nr; nia). ring.
    - intros i hi. apply in_seq in hi. unfold rail_energy. fold l. fold b'. fold phi. cbv zeta. rewrite !ev, !w_free by (fold nr in hi; lia).
      destruct (w_other i) as [-> ->]. destruct (w_other (i + 1)) as [-> ->]. unfold Rdiv. ring.
  Qed.

  Lemma polar_damping x : let u := field_of ns' x in let v := field_of ns' (fun i => x i + lift ns' i) in
    let Q u := nsum (map (fun p => part_form aux_damping ns u (settled ns p)) parts) in
    Q v = Q u + Q w + 2 * nsum (map (fun i => or_zero cs * u (nr + i)%nat DY) (seq 0 n)).
  Proof.
    intros u v Q. unfold Q. rewrite !track_damping.
    assert (ev : forall p e, v p e = u p e + w p e) by (intros; apply field_plus).
    rewrite (polar_sum (fun u i => stretch_form (or_zero cp) (i * r) (nr + i) u) (fun _ => 0) u w v),
      (polar_sum (fun u i => stretch_form (or_zero cs) (nr + i) (nr + n + i) u) (fun i => or_zero cs * u (nr + i)%nat DY) u w v).
    - rewrite !(nsum_zero (fun _ : nat => 0)) by reflexivity. ring.
    - intros i hi. apply in_seq in hi. unfold stretch_form. rewrite !ev, w_held by lia. rewrite (w_free (nr + i)) by lia. unfold u. rewrite !held_field by lia. ring.
    - intros i hi. apply in_seq in hi. unfold stretch_form. rewrite !ev, !w_free by (unfold nr; nia). ring.
  Qed.

  (** a lift of a whole beam element meets the mass of the element *)
  Lemma rail_lift a : mulv 6 (beam_mass b' phi) a 1%nat + mulv 6 (beam_mass b' phi) a 4%nat =
    b_rho b * b_A b * l * ((a 1%nat + a 4%nat) / 2 + l * (a 2%nat - a 5%nat) / 12).
  Proof.
    assert (hl : 0 < l) by (unfold l; lra).
    assert (hphi : 0 <= phi) by (apply timoshenko_nonneg; unfold sound_beam, b'; cbn; auto 10).
    unfold mulv. rewrite (sumn_ext 6 (fun j => beam_mass b' phi 1 j * a j) (fun j => mass_entries b' phi 1 j * a j)) by (intros j hj; rewrite beam_mass_entries by lia; reflexivity).
    rewrite (sumn_ext 6 (fun j => beam_mass b' phi 4 j * a j) (fun j => mass_entries b' phi 4 j * a j)) by (intros j hj; rewrite beam_mass_entries by lia; reflexivity).
    clearbody phi. unfold mass_entries. cbn [sumn trans_entries rot_entries b_rho b_A b_l b_I b']. rnum.
    destruct (Req_EM_T phi 0) as [z|z]; [subst phi|]; field; lra.
  Qed.

  Lemma polar_mass x : let u := field_of ns' x in let v := field_of ns' (fun i => x i + lift ns' i) in
    let Q u := nsum (map (fun p => part_form aux_mass ns u (settled ns p)) parts) in
    Q v = Q u + Q w + 2 * momentum t l b (or_zero mp) m (or_zero ms) u.
  Proof.
    intros u v Q. unfold Q. rewrite !track_mass.
    assert (ev : forall p e, v p e = u p e + w p e) by (intros; apply field_plus).
    rewrite (polar_sum (fun u i => quad 6 (beam_mass b' phi) (six u i))
        (fun i => b_rho b * b_A b * l * ((u i DY + u (i + 1)%nat DY) / 2 + l * (u i DR - u (i + 1)%nat DR) / 12)) u w v),
      (polar_sum (fun u i => rod_mass_form (or_zero mp) (i * r) (nr + i) u) (fun i => or_zero mp * ((u (i * r)%nat DY + u (nr + i)%nat DY) / 2)) u w v),
      (polar_sum (fun u i => m * (u (nr + i)%nat DY * u (nr + i)%nat DY)) (fun i => m * u (nr + i)%nat DY) u w v),
      (polar_sum (fun u i => rod_mass_form (or_zero ms) (nr + i) (nr + n + i) u) (fun i => or_zero ms * (u (nr + i)%nat DY / 3)) u w v).
    - unfold momentum. change (tk_rail_els t) with (map (fun i => ((0 + i)%nat, (0 + (i + 1))%nat)) (seq 0 (nr - 1))).
      change (tk_pad_els t) with (map (fun i => ((0 + i * r)%nat, (0 + nr + i)%nat)) (seq 0 n)).
      change (tk_soil_els t) with (map (fun i => ((0 + nr + i)%nat, (0 + nr + n + i)%nat)) (seq 0 n)).
      change (tk_sleepers t) with (seq (0 + nr) n). rewrite seq_from, !map_map. cbn [fst snd Nat.add]. ring.
    - intros i hi. apply in_seq in hi. unfold rod_mass_form. rewrite !ev, w_held by lia. rewrite (w_free (nr + i)) by lia. unfold u. rewrite !held_field by lia. field.
    - intros i hi. apply in_seq in hi. rewrite !ev, w_free by lia. ring.
    - intros i hi. apply in_seq in hi. unfold rod_mass_form. rewrite !ev, !w_free by (unfold nr; nia). field.
    - intros i hi. apply in_seq in hi.
      rewrite (quad_ext_vec 6 _ (six v i) (fun j => six u i j + six w i j)).
      2:{ intros j hj. unfold six. rewrite !ev. do 6 (destruct j as [|j]; [reflexivity|]). lia. }
      rewrite (quad_plus 6) by apply beam_mass_sym. f_equal. f_equal. 
      transitivity (mulv 6 (beam_mass b' phi) (six u i) 1 + mulv 6 (beam_mass b' phi) (six u i) 4); [|exact (rail_lift (six u i))].
      unfold six at 1. cbn [sumn vec6]. rewrite !w_free by lia. destruct (w_other i) as [-> ->]. destruct (w_other (i + 1)) as [-> ->]. rnum. ring.
  Qed.

  Lemma soil_sum_seq c u : soil_sum t c u = nsum (map (fun i => c * u (nr + i)%nat DY) (seq 0 n)).
  Proof. unfold soil_sum. change (tk_soil_els t) with (map (fun i => ((0 + nr + i)%nat, (0 + nr + n + i)%nat)) (seq 0 n)). rewrite map_map. reflexivity. Qed.

  Lemma vertical_stiffness x : vertical ns' (mulv k (me (gK s)) x) = soil_sum t ks (field_of ns' x).
  Proof.
    rewrite soil_sum_seq. apply (vertical_form _ (fun u => nsum (map (fun p => part_form aux_stiffness ns u (settled ns p)) parts))).
    - apply bsym.
    - intros y. apply (initialise_energy _ _ _ _ _ _ _ _ y bshaped hinit).
    - apply polar_stiffness.
  Qed.
  Lemma vertical_mass x : vertical ns' (mulv k (me (gM s)) x) = momentum t l b (or_zero mp) m (or_zero ms) (field_of ns' x).
  Proof.
    apply (vertical_form _ (fun u => nsum (map (fun p => part_form aux_mass ns u (settled ns p)) parts))).
    - apply bsym.
    - intros y. apply (initialise_energy _ _ _ _ _ _ _ _ y bshaped hinit).
    - apply polar_mass.
  Qed.
  Lemma vertical_damping x : vertical ns' (mulv k (me (gC s)) x) = soil_sum t (or_zero cs) (field_of ns' x) +
    (if da_on da then let (a0, a1) := rayleigh_factors (da_ratio da) (da_one da) (da_two da) in
       a0 * momentum t l b (or_zero mp) m (or_zero ms) (field_of ns' x) + a1 * soil_sum t ks (field_of ns' x) else 0).
  Proof.
    rewrite !soil_sum_seq. apply (vertical_form _ (fun u => nsum (map (fun p => part_form aux_damping ns u (settled ns p)) parts) +
      (if da_on da then let (a0, a1) := rayleigh_factors (da_ratio da) (da_one da) (da_two da) in
        a0 * nsum (map (fun p => part_form aux_mass ns u (settled ns p)) parts) + a1 * nsum (map (fun p => part_form aux_stiffness ns u (settled ns p)) parts) else 0))).
    - apply bsym.
    - intros y. apply (initialise_energy _ _ _ _ _ _ _ _ y bshaped hinit).
    - pose proof (polar_damping x) as e1. pose proof (polar_mass x) as e2. pose proof (polar_stiffness x) as e3. cbv zeta in *.
      rewrite e1, e2, e3. destruct (da_on da); [destruct (rayleigh_factors _ _ _)|]; ring.
  Qed.
End Balance.
