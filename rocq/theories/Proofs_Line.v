(** * The matrices of tracks joined from segments *)

From Coq Require Import Reals List Bool ZArith Arith Lia Lra Psatz.
From Verif Require Import Num PyBase Model_Geometry Model_System Spec_System Proofs_Dof Proofs_System Model_Element Spec_Element
  Proofs_Elements Proofs_Element Proofs_Beam Proofs_Force Model_Accumulation Proofs_Accumulation Proofs_Geometry Model_Coupled Model_Mesh Spec_Mesh Proofs_Mesh
  Model_Track Spec_Track Spec_Generated Proofs_Track Proofs_Assembly Proofs_Generated Proofs_Chain Spec_Balance Proofs_Balance Spec_Structure Proofs_Structure.
Import ListNotations.
Local Open Scope R_scope.

Lemma unit_at p e : unit_field p e p e = 1.
Proof. unfold unit_field. rewrite Nat.eqb_refl. reflexivity. Qed.
Lemma unit_elsewhere p e q e' : p <> q -> unit_field p e q e' = 0.
Proof. intros h. unfold unit_field. destruct (Nat.eqb_spec (3 * p + dir_idx e) (3 * q + dir_idx e')); [|reflexivity]. destruct e, e'; cbn [dir_idx] in *; lia. Qed.
Lemma unit_across p e q e' : e <> e' -> unit_field p e q e' = 0.
Proof. intros h. unfold unit_field. destruct (Nat.eqb_spec (3 * p + dir_idx e) (3 * q + dir_idx e')); [|reflexivity]. destruct e, e'; cbn [dir_idx] in *; try congruence; lia. Qed.

Lemma nth_of_seq {A} (f : nat -> A) k i : (i < k)%nat -> nth_error (map f (seq 0 k)) i = Some (f i).
Proof. intros h. rewrite nth_error_map. rewrite (nth_error_nth' _ 0%nat) by (rewrite seq_length; lia). rewrite seq_nth by lia. reflexivity. Qed.
Lemma nonneg_square c (v : R) : 0 <= c -> 0 <= c * (v * v).
Proof. intros h. apply Rmult_le_pos; [exact h|]. apply Rle_0_sqr. Qed.

(** vertical entries of the mass of a beam *)
Lemma beam_mass_vertical (b : beam R) phi j : 0 < b_l b -> 0 <= phi -> 0 < b_A b -> 0 < b_I b -> 0 <= b_rho b -> (j = 1 \/ j = 4)%nat ->
  b_rho b * b_A b * b_l b / 3 <= beam_mass b phi j j.
Proof.
  intros hl hphi hA hI hrho hj. rewrite beam_mass_entries by (destruct hj; lia). unfold mass_entries.
  assert (q1 : trans_entries (b_l b) phi j j * (b_rho b * b_A b * b_l b / (210 * ((1 + phi) * (1 + phi)))) =
               b_rho b * b_A b * b_l b / 3 + b_rho b * b_A b * b_l b * ((7 * phi + 8) / (210 * ((1 + phi) * (1 + phi))))).
  { destruct hj as [-> | ->]; cbn [trans_entries]; field; lra. }
  rewrite q1.
  assert (q2 : 0 <= b_rho b * b_A b * b_l b * ((7 * phi + 8) / (210 * ((1 + phi) * (1 + phi))))).
  { apply Rmult_le_pos; [apply Rmult_le_pos; [apply Rmult_le_pos|]; lra|]. apply Rle_mult_inv_pos; [lra|]. nra. }
  destruct (Req_EM_T phi 0) as [z|z]; [lra|].
  assert (q3 : 0 <= rot_entries (b_l b) phi j j * (b_rho b * b_I b / (30 * ((1 + phi) * (1 + phi)) * b_l b))).
  { apply Rmult_le_pos; [destruct hj as [-> | ->]; cbn [rot_entries]; lra|]. apply Rle_mult_inv_pos; [apply Rmult_le_pos; lra|].
    apply Rmult_lt_0_compat; [|exact hl]. apply Rmult_lt_0_compat; [lra|]. apply Rmult_lt_0_compat; lra. }
  lra.
Qed.

Section Line.
  Variables (c : heap R) (N : nat) (l : R) (j : joined).
  Variables (b : beam R) (pad : R * option R * option R) (m : R) (soils : list (R * option R * option R)).
  Let rn := jn_rail_nodes j.
  Let ns := joined_mesh c (seq 0 N).
  Let parts := joined_parts j b pad m soils.
  Hypothesis hl : 0 < l.
  Hypothesis hb : good_rail b.
  Hypothesis hpad : good_rod pad.
  Hypothesis hm : 0 <= m.
  Hypothesis hsoils : Forall good_rod soils.
  Hypothesis hcount : length soils = length (jn_soil j).
  (* the line of the rail *)
  Hypothesis hlong : (2 <= length rn)%nat.
  Hypothesis hrail : forall i, (i < length rn)%nat -> c (nth i rn 0%nat) = T3 (INR i * l) 0 0.
  Hypothesis hline : in_line rn (jn_rail_els j).
  (* sleepers below the rail, soil below sleepers *)
  Hypothesis hpads : forall p q, In (p, q) (jn_pad_els j) -> In p rn /\ In q (jn_sleepers j) /\ tx (c p) = tx (c q).
  Hypothesis hsleepers : forall q, In q (jn_sleepers j) -> ty (c q) = -1 /\ exists p, In (p, q) (jn_pad_els j).
  Hypothesis hsoil : forall part, In part (jn_soil j) -> snd part <> [] /\ forall p q, In (p, q) (snd part) -> In p (jn_sleepers j) /\ tx (c q) = tx (c p) /\ ty (c q) < -1.
  Hypothesis hsome : jn_pad_els j <> [].
  (* the mesh *)
  Hypothesis hbelow : forall p, In p rn \/ In p (jn_sleepers j) \/ (exists part e, In part (jn_soil j) /\ In e (snd part) /\ p = snd e) <-> (p < N)%nat.

  Lemma line_length : length ns = N.
  Proof. unfold ns, joined_mesh, reorder_node_ids. rewrite reorder_from_length, map_length, seq_length. reflexivity. Qed.
  Lemma line_nth p : (p < N)%nat -> nth_error ns p = Some (set_index (new_node p (tx (c p)) (ty (c p)) (tr (c p))) p).
  Proof. intros h. unfold ns, joined_mesh, reorder_node_ids. rewrite reorder_from_nth. rewrite (nth_of_seq (fun i => new_node i (tx (c i)) (ty (c i)) (tr (c i)))) by exact h. reflexivity. Qed.
  Lemma line_xy p : (p < N)%nat -> xy ns p = (tx (c p), ty (c p)).
  Proof. intros h. unfold xy. rewrite line_nth by exact h. reflexivity. Qed.
  Lemma line_active p e : (p < length ns)%nat -> active ns p e = true.
  Proof. intros h. rewrite line_length in h. unfold active. rewrite line_nth by exact h. destruct e; reflexivity. Qed.

  Lemma in_rail p : In p rn -> exists i, (i < length rn)%nat /\ p = nth i rn 0%nat.
  Proof. intros h. destruct (In_nth rn p 0%nat h) as [i [h1 h2]]. exists i. auto. Qed.
  Lemma rail_point p : In p rn -> exists i, (i < length rn)%nat /\ p = nth i rn 0%nat /\ c p = T3 (INR i * l) 0 0.
  Proof. intros h. destruct (in_rail p h) as [i [h1 h2]]. exists i. split; [exact h1|]. split; [exact h2|]. subst p. apply hrail. exact h1. Qed.
  Lemma rail_distinct i k : (i < length rn)%nat -> (k < length rn)%nat -> nth i rn 0%nat = nth k rn 0%nat -> i = k.
  Proof.
    intros h1 h2 e. pose proof (hrail i h1) as e1. rewrite e, (hrail k h2) in e1. injection e1 as e1. assert (INR k = INR i) by nra. symmetry. apply INR_eq. exact H.
  Qed.
  Lemma range_rail p : In p rn -> (p < N)%nat.
  Proof. intros h. apply hbelow. auto. Qed.
  Lemma range_sleeper p : In p (jn_sleepers j) -> (p < N)%nat.
  Proof. intros h. apply hbelow. auto. Qed.
  Lemma range_bottom part e : In part (jn_soil j) -> In e (snd part) -> (snd e < N)%nat.
  Proof. intros h1 h2. apply hbelow. right. right. eauto. Qed.
  Lemma rail_or_sleeper p q : In p rn -> In q (jn_sleepers j) -> p <> q.
  Proof. intros h1 h2 e. subst q. destruct (rail_point p h1) as [i [_ [_ e1]]]. destruct (hsleepers p h2) as [e2 _]. rewrite e1 in e2. cbn in e2. lra. Qed.

  Lemma rail_els e : In e (jn_rail_els j) <-> exists i, (S i < length rn)%nat /\ e = (nth i rn 0%nat, nth (S i) rn 0%nat).
  Proof.
    destruct hline as [h1 h2]. fold rn in h1, h2. split.
    - intros h. destruct (In_nth_error _ _ h) as [i hi]. assert (hlt : (i < length (jn_rail_els j))%nat) by (apply nth_error_Some; congruence).
      assert (S i < length rn)%nat by lia. exists i. split; [assumption|]. rewrite h2 in hi by assumption. congruence.
    - intros [i [hi ->]]. apply (nth_error_In _ i). apply h2. exact hi.
  Qed.

  (** ** the shape *)
  Lemma line_level e : In e (jn_rail_els j) -> level ns e.
  Proof.
    intros h. apply rail_els in h. destruct h as [i [hi ->]]. cbn [fst snd]. unfold level. cbn [fst snd].
    rewrite !line_xy by (apply range_rail, nth_In; lia). rewrite !hrail by lia. cbn [fst snd tx ty]. split; [reflexivity|]. rewrite S_INR. nra.
  Qed.
  Lemma pads_plumb e : In e (jn_pad_els j) -> plumb ns e.
  Proof.
    intros h. destruct e as [p q]. destruct (hpads p q h) as [h1 [h2 h3]]. unfold plumb. cbn [fst snd].
    rewrite !line_xy by (first [apply range_rail; assumption|apply range_sleeper; assumption]). cbn [fst snd]. split; [exact h3|].
    destruct (rail_point p h1) as [i [_ [_ e1]]]. destruct (hsleepers q h2) as [e2 _]. rewrite e1, e2. cbn. lra.
  Qed.
  Lemma soil_plumb part e : In part (jn_soil j) -> In e (snd part) -> plumb ns e.
  Proof.
    intros h1 h. pose proof (range_bottom part e h1 h) as hr. destruct e as [p q]. destruct (hsoil part h1) as [_ g]. destruct (g p q h) as [g1 [g2 g3]]. unfold plumb. cbn [fst snd] in *.
    rewrite !line_xy by (first [exact hr|apply range_sleeper; assumption]). cbn [fst snd]. split; [auto|]. destruct (hsleepers p g1) as [e2 _]. lra.
  Qed.
  Lemma in_soils q : In q (combine (jn_soil j) soils) -> In (fst q) (jn_soil j) /\ good_rod (snd q).
  Proof. destruct q as [a v]. intros h. split; [exact (in_combine_l _ _ _ _ h)|]. rewrite Forall_forall in hsoils. apply hsoils. exact (in_combine_r _ _ _ _ h). Qed.
  Lemma with_soil part : In part (jn_soil j) -> exists v, In (part, v) (combine (jn_soil j) soils).
  Proof.
    clear - hcount. revert hcount. generalize soils. induction (jn_soil j) as [|a q IH]; intros [|v vs] hc h; try discriminate; [destruct h|].
    destruct h as [<-|h]; [exists v; left; reflexivity|]. destruct (IH vs) as [w hw]; [cbn in hc; lia|exact h|]. exists w. right. exact hw.
  Qed.

  Lemma line_upright : Forall (upright ns) parts.
  Proof.
    unfold parts, joined_parts. constructor; [|constructor; [|constructor]].
    - intros e. apply line_level.
    - intros e. apply pads_plumb.
    - exact I.
    - apply Forall_map, Forall_forall. intros q hq. destruct (in_soils q hq) as [h1 _]. intros e. apply soil_plumb. exact h1.
  Qed.
  Lemma line_shaped : Forall shaped parts.
  Proof.
    unfold parts, joined_parts. constructor; [|constructor; [|constructor]].
    - unfold shaped. cbn [ep_kind ep_els]. intros e. assert (h : In (nth 0 rn 0%nat, nth 1 rn 0%nat) (jn_rail_els j)) by (apply rail_els; exists 0%nat; split; [lia|reflexivity]). rewrite e in h. destruct h.
    - exact hsome.
    - reflexivity.
    - apply Forall_map, Forall_forall. intros q hq. destruct (in_soils q hq) as [h1 _]. destruct (hsoil _ h1) as [h _]. exact h.
  Qed.

  Let b' := mkBeam (b_E b) (b_nu b) (b_rho b) (b_A b) (b_I b) (b_shear_factor b) l (b_s1 b) (b_s2 b).
  Lemma rail_two : exists q, rn = nth 0 rn 0%nat :: nth 1 rn 0%nat :: q.
  Proof. destruct rn as [|x [|y q]]; cbn [length] in hlong; try lia. exists q. reflexivity. Qed.
  Lemma line_dist i : (S i < length rn)%nat -> dist3 (c (nth i rn 0%nat)) (c (nth (S i) rn 0%nat)) = l.
  Proof.
    intros h. rewrite !hrail by lia. unfold dist3. cbn [tx ty tr]. rewrite S_INR. transitivity (sqrt (Rsqr l)); [f_equal; unfold Rsqr; ring|apply sqrt_Rsqr; lra].
  Qed.
  Lemma line_settled : settled ns (mkPart (KRail b) (jn_rail_nodes j) (jn_rail_els j)) = mkPart (KRail b') (jn_rail_nodes j) (jn_rail_els j).
  Proof.
    unfold settled. cbn [ep_kind ep_nodes ep_els]. fold rn. destruct rail_two as [q e].
    assert (r0 : (nth 0 rn 0 < N)%nat) by (apply range_rail, nth_In; lia). assert (r1 : (nth 1 rn 0 < N)%nat) by (apply range_rail, nth_In; lia).
    rewrite e at 1. rewrite (line_nth _ r0), (line_nth _ r1).
    assert (e0 : dist3 (n_coord (set_index (new_node (nth 0 rn 0%nat) (tx (c (nth 0 rn 0%nat))) (ty (c (nth 0 rn 0%nat))) (tr (c (nth 0 rn 0%nat)))) (nth 0 rn 0%nat)))
      (n_coord (set_index (new_node (nth 1 rn 0%nat) (tx (c (nth 1 rn 0%nat))) (ty (c (nth 1 rn 0%nat))) (tr (c (nth 1 rn 0%nat)))) (nth 1 rn 0%nat))) = l).
    { rewrite <- (line_dist 0) by lia. unfold dist3. cbn. reflexivity. }
    rewrite e0. reflexivity.
  Qed.
  Lemma line_beam : sound_beam b' /\ fixed_ends b'.
  Proof. destruct hb as [h1 [h2 [h3 [h4 [h5 h6]]]]]. unfold sound_beam, b', fixed_ends in *. cbn. auto 10. Qed.
  Lemma springs_settled v nodes els : settled ns (springs v nodes els) = springs v nodes els.
  Proof. reflexivity. Qed.
  Lemma springs_sound v nodes els : good_rod v -> sound (springs v nodes els).
  Proof. intros [h1 [h2 h3]]. unfold sound, springs. cbn. repeat split; [lra|assumption|assumption]. Qed.
  Lemma line_sound : Forall (fun p => sound (settled ns p)) parts.
  Proof.
    unfold parts, joined_parts. constructor; [rewrite line_settled; apply line_beam|]. constructor; [apply springs_sound; exact hpad|]. constructor; [exact hm|].
    apply Forall_map, Forall_forall. intros q hq. destruct (in_soils q hq) as [_ h]. apply springs_sound. exact h.
  Qed.

  Lemma line_initialises ls cs da : (forall q i, In q ls -> In i (ld_nodes q) -> (i < N)%nat) -> exists s ns' k, initialise_system ns parts ls cs da = Ok (s, ns', k).
  Proof.
    intros hls. apply initialise_ok; [| |rewrite line_length; exact hls].
    - unfold parts, joined_parts. intros p hp. destruct hp as [<-|[<-|[<-|hp]]]; try (eexists; reflexivity).
      + unfold initialize_part. cbn [ep_kind ep_nodes ep_els]. fold rn.
        assert (em : mapr (node_at ns) rn = Ok (map (fun p => set_index (new_node p (tx (c p)) (ty (c p)) (tr (c p))) p) rn)).
        { apply mapr_map. intros p hp. apply at_idx_ok. apply line_nth. apply range_rail. exact hp. }
        rewrite em. cbn [rbind]. rewrite map_map.
        set (co := fun p => n_coord (set_index (new_node p (tx (c p)) (ty (c p)) (tr (c p))) p)).
        assert (ec : forall i, (i < length rn)%nat -> nth_error (map co rn) i = Some (co (nth i rn 0%nat))).
        { intros i hi. rewrite nth_error_map. rewrite (nth_error_nth' rn 0%nat hi). reflexivity. }
        assert (ed : forall i, (S i < length rn)%nat -> dist3 (co (nth i rn 0%nat)) (co (nth (S i) rn 0%nat)) = l) by (intros i hi; rewrite <- (line_dist i hi); reflexivity).
        destruct (rail_length_spec (Some (b_l b)) (map co rn)) as [_ h].
        destruct (h (co (nth 0 rn 0%nat)) (co (nth 1 rn 0%nat)) (ec 0%nat ltac:(lia)) (ec 1%nat ltac:(lia))) as [h1 _].
        change (fun x => n_coord (set_index (new_node x (tx (c x)) (ty (c x)) (tr (c x))) x)) with co.
        rewrite h1; [cbn [rbind]; eexists; reflexivity|]. clear h h1. intros i u v hu hv.
        assert (hi : (S i < length rn)%nat) by (rewrite <- (map_length co rn); apply nth_error_Some; congruence).
        rewrite ec in hu, hv by lia. injection hu as <-. injection hv as <-. rewrite !ed by lia. replace (l - l) with 0 by ring. rewrite Rabs_R0. lra.
      + apply in_map_iff in hp. destruct hp as [q [<- _]]. eexists. reflexivity.
    - intros p i hp hi. rewrite line_length. unfold part_refs in hi.
      assert (g : forall (es : list (nat * nat)) nodes, es <> [] -> (forall e, In e es -> (fst e < N)%nat /\ (snd e < N)%nat) ->
         In i (match es with [] => nodes | e1 :: es1 => flat_map (fun e => [fst e; snd e]) (e1 :: es1) end) -> (i < N)%nat).
      { intros es nodes hne hq hin. destruct es as [|e es]; [congruence|]. apply in_flat_map in hin. destruct hin as [e' [h1 h2]]. destruct (hq e' h1).
        destruct h2 as [<-|[<-|[]]]; assumption. }
      pose proof line_shaped as hsh. rewrite Forall_forall in hsh. specialize (hsh p hp). unfold parts, joined_parts in hp.
      destruct hp as [<-|[<-|[<-|hp]]]; unfold shaped, springs in hsh; cbn [ep_kind ep_els ep_nodes springs] in hsh, hi.
      + refine (g _ _ hsh _ hi). intros e he. apply rail_els in he. destruct he as [k [hk ->]]. cbn [fst snd]. split; apply range_rail, nth_In; lia.
      + refine (g _ _ hsh _ hi). intros [p q] he. destruct (hpads p q he) as [h1 [h2 _]]. split; [apply range_rail|apply range_sleeper]; assumption.
      + apply range_sleeper. exact hi.
      + apply in_map_iff in hp. destruct hp as [q [<- hq]]. destruct (in_soils q hq) as [h1 _]. cbn [springs ep_els ep_kind ep_nodes] in hsh, hi. refine (g _ _ hsh _ hi).
        intros e he. split; [|exact (range_bottom _ _ h1 he)]. destruct e as [p q']. destruct (hsoil _ h1) as [_ h2]. destruct (h2 p q' he) as [h3 _]. apply range_sleeper. exact h3.
  Qed.

  (** ** stiffness energy *)
  Let phi := timoshenko_factor 0 b'.
  Lemma line_phi : 0 <= phi.
  Proof. apply timoshenko_nonneg. apply line_beam. Qed.
  Definition line_energy (u : nat -> dir -> R) (e : nat * nat) : R :=
    let g := u (fst e) DY - u (snd e) DY + l * (u (fst e) DR + u (snd e) DR) / 2 in
    b_E b * b_A b / l * ((u (snd e) DX - u (fst e) DX) * (u (snd e) DX - u (fst e) DX)) +
    b_E b * b_I b / l * ((u (snd e) DR - u (fst e) DR) * (u (snd e) DR - u (fst e) DR)) +
    12 * (b_E b * b_I b) / ((1 + phi) * (l * l * l)) * (g * g).
  Definition spring_energy (k : R) (u : nat -> dir -> R) (e : nat * nat) : R := k * ((u (snd e) DY - u (fst e) DY) * (u (snd e) DY - u (fst e) DY)).

  Lemma rail_form u : part_form aux_stiffness ns u (mkPart (KRail b') (jn_rail_nodes j) (jn_rail_els j)) = nsum (map (line_energy u) (jn_rail_els j)).
  Proof.
    unfold part_form. cbn [ep_kind ep_els aux_stiffness element_form]. apply nsum_map_ext. intros e he. rewrite (level_angle ns e) by (apply line_level; exact he).
    destruct line_beam as [hsb hf]. pose proof line_phi as hp. pose proof hsb as [q1 [q2 [q3 [q4 _]]]].
    destruct (beam_fixed_spec b' phi hf q1 q2 q3 q4 hp) as [_ [_ [_ [_ hz]]]]. change (timoshenko_factor (lit 0) b') with phi. rewrite hz.
    unfold local6, along, across. cbn [vec6]. rewrite cos_0, sin_0. unfold line_energy, b'. cbn [b_E b_A b_I b_l]. cbv zeta. f_equal; [f_equal|]; f_equal; ring.
  Qed.
  Lemma spring_form v nodes els u : (forall e, In e els -> plumb ns e) -> part_form aux_stiffness ns u (springs v nodes els) = nsum (map (spring_energy (fst (fst v)) u) els).
  Proof.
    intros h. unfold part_form, springs. cbn [ep_kind ep_els aux_stiffness element_form rod_spring]. apply nsum_map_ext. intros e he. exact (rod_spring_form ns _ _ u e eq_refl (h e he)).
  Qed.
  Lemma line_total u : nsum (map (fun p => part_form aux_stiffness ns u (settled ns p)) parts) =
    nsum (map (line_energy u) (jn_rail_els j)) + nsum (map (spring_energy (fst (fst pad)) u) (jn_pad_els j)) +
    nsum (map (fun q => nsum (map (spring_energy (fst (fst (snd q))) u) (snd (fst q)))) (combine (jn_soil j) soils)).
  Proof.
    unfold parts, joined_parts. cbn [map nsum]. rewrite line_settled, springs_settled. rewrite rail_form, spring_form by apply pads_plumb. rewrite map_map.
    assert (e1 : part_form aux_stiffness ns u (settled ns (mkPart (KPoint m) (jn_sleepers j) [])) = 0).
    { unfold settled, part_form. cbn [ep_kind ep_nodes aux_stiffness]. apply sum_none. intros i _. cbn. rnum. ring. }
    rewrite e1. rewrite (nsum_map_ext (fun q => part_form aux_stiffness ns u (settled ns (springs (snd q) (fst (fst q)) (snd (fst q))))) (fun q => nsum (map (spring_energy (fst (fst (snd q))) u) (snd (fst q))))).
    - rnum. ring.
    - intros q hq. destruct (in_soils q hq) as [h1 _]. rewrite springs_settled. apply spring_form. intros e. apply soil_plumb. exact h1.
  Qed.

  Lemma line_coefficients : 0 < b_E b * b_A b / l /\ 0 < b_E b * b_I b / l /\ 0 < 12 * (b_E b * b_I b) / ((1 + phi) * (l * l * l)).
  Proof.
    destruct hb as [_ [hE [hI [hA _]]]]. pose proof line_phi as hp. pose proof (Rmult_lt_0_compat _ _ hE hA) as h1. pose proof (Rmult_lt_0_compat _ _ hE hI) as h2.
    split; [apply Rdiv_lt_0_compat; assumption|]. split; [apply Rdiv_lt_0_compat; assumption|].
    apply Rdiv_lt_0_compat; [lra|]. apply Rmult_lt_0_compat; [lra|]. apply Rmult_lt_0_compat; [apply Rmult_lt_0_compat; assumption|assumption].
  Qed.
  Lemma line_energy_nonneg u e : 0 <= line_energy u e.
  Proof.
    destruct line_coefficients as [h1 [h2 h3]]. unfold line_energy. cbv zeta.
    apply Rplus_le_le_0_compat; [apply Rplus_le_le_0_compat|]; apply nonneg_square; lra.
  Qed.
  Lemma spring_energy_nonneg k u e : 0 <= k -> 0 <= spring_energy k u e.
  Proof. intros h. apply nonneg_square. exact h. Qed.
  Lemma sum_nonneg {A} (f : A -> R) q : (forall a, In a q -> 0 <= f a) -> 0 <= nsum (map f q).
  Proof. intros h. apply nsum_nonneg, Forall_map, Forall_forall. exact h. Qed.
  Lemma soil_total_nonneg u : 0 <= nsum (map (fun q => nsum (map (spring_energy (fst (fst (snd q))) u) (snd (fst q)))) (combine (jn_soil j) soils)).
  Proof. apply sum_nonneg. intros q hq. apply sum_nonneg. intros e _. apply spring_energy_nonneg. destruct (in_soils q hq) as [_ [h _]]. lra. Qed.

  Lemma line_energy_zero u e : line_energy u e = 0 -> u (snd e) DX = u (fst e) DX /\ u (snd e) DR = u (fst e) DR /\ u (snd e) DY = u (fst e) DY + l * u (fst e) DR.
  Proof.
    destruct line_coefficients as [h1 [h2 h3]]. unfold line_energy. cbv zeta.
    set (v1 := u (snd e) DX - u (fst e) DX). set (v2 := u (snd e) DR - u (fst e) DR). set (v3 := u (fst e) DY - u (snd e) DY + l * (u (fst e) DR + u (snd e) DR) / 2). intros z.
    pose proof (nonneg_square _ v1 (Rlt_le _ _ h1)) as g1. pose proof (nonneg_square _ v2 (Rlt_le _ _ h2)) as g2. pose proof (nonneg_square _ v3 (Rlt_le _ _ h3)) as g3.
    assert (z1 : v1 = 0) by (apply (square_zero _ _ h1); lra). assert (z2 : v2 = 0) by (apply (square_zero _ _ h2); lra). assert (z3 : v3 = 0) by (apply (square_zero _ _ h3); lra).
    unfold v1, v2, v3 in *. split; [lra|]. split; [lra|]. replace (u (snd e) DR) with (u (fst e) DR) in z3 by lra. lra.
  Qed.

  (** a rail that moves like a rigid body, on sleepers at rest, and is held along x at one node is at rest *)
  Lemma line_still u :
    (forall i, (S i < length rn)%nat -> u (nth (S i) rn 0%nat) DX = u (nth i rn 0%nat) DX /\ u (nth (S i) rn 0%nat) DR = u (nth i rn 0%nat) DR /\
       u (nth (S i) rn 0%nat) DY = u (nth i rn 0%nat) DY + l * u (nth i rn 0%nat) DR) ->
    (forall p q, In (p, q) (jn_pad_els j) -> u q DY = u p DY) -> (forall q, In q (jn_sleepers j) -> u q DY = 0) -> (exists p, In p rn /\ u p DX = 0) ->
    (exists q1 q2, In q1 (jn_sleepers j) /\ In q2 (jn_sleepers j) /\ tx (c q1) <> tx (c q2)) ->
    forall p e, In p rn -> u p e = 0.
  Proof.
    intros z1 z2 z3 [p0 [hp0 hx0]] [s1 [s2 [hs1 [hs2 hdif]]]].
    set (f0 := nth 0 rn 0%nat).
    assert (r : forall i, (i < length rn)%nat -> u (nth i rn 0%nat) DX = u f0 DX /\ u (nth i rn 0%nat) DR = u f0 DR /\ u (nth i rn 0%nat) DY = u f0 DY + INR i * (l * u f0 DR)).
    { induction i as [|i IH]; intros hi; [fold f0; cbn; split; [reflexivity|split; [reflexivity|ring]]|].
      destruct IH as [i1 [i2 i3]]; [lia|]. destruct (z1 i hi) as [g1 [g2 g3]].
      rewrite g1, g2, g3, i1, i2, i3, S_INR. split; [reflexivity|split; [reflexivity|ring]]. }
    assert (k : forall q, In q (jn_sleepers j) -> u f0 DY + tx (c q) * u f0 DR = 0).
    { intros q hq. destruct (hsleepers q hq) as [_ [p hp]]. destruct (hpads p q hp) as [h1 [_ h3]]. destruct (rail_point p h1) as [i [hi [hpi hc]]].
      destruct (r i hi) as [_ [_ g]]. rewrite <- hpi in g. rewrite <- (z2 p q hp), (z3 q hq) in g. rewrite <- h3, hc. cbn [tx]. lra. }
    assert (d0 : u f0 DR = 0). { pose proof (k s1 hs1). pose proof (k s2 hs2). assert (g : (tx (c s1) - tx (c s2)) * u f0 DR = 0) by lra. apply Rmult_integral in g. destruct g; lra. }
    assert (y0 : u f0 DY = 0) by (pose proof (k s1 hs1) as g; rewrite d0 in g; lra).
    assert (x0 : u f0 DX = 0) by (destruct (in_rail p0 hp0) as [i [hi ->]]; destruct (r i hi) as [g _]; lra).
    intros p e' hp. destruct (in_rail p hp) as [i [hi ->]]. destruct (r i hi) as [g1 [g2 g3]]. destruct e'; [rewrite g1; exact x0|rewrite g3, y0, d0; ring|rewrite g2; exact d0].
  Qed.

  (** springs without energy on a bottom that does not move *)
  Lemma line_supports u :
    nsum (map (spring_energy (fst (fst pad)) u) (jn_pad_els j)) = 0 -> nsum (map (fun q => nsum (map (spring_energy (fst (fst (snd q))) u) (snd (fst q)))) (combine (jn_soil j) soils)) = 0 ->
    (forall part e, In part (jn_soil j) -> In e (snd part) -> u (snd e) DY = 0) ->
    (forall q, In q (jn_sleepers j) -> exists part p', In part (jn_soil j) /\ In (q, p') (snd part)) ->
    (forall p q, In (p, q) (jn_pad_els j) -> u q DY = u p DY) /\ (forall q, In q (jn_sleepers j) -> u q DY = 0).
  Proof.
    intros ez1 ez2 hbot hon. assert (hkp : 0 < fst (fst pad)) by apply hpad.
    assert (z2 : forall p q, In (p, q) (jn_pad_els j) -> u q DY = u p DY).
    { intros p q hpq. assert (g : spring_energy (fst (fst pad)) u (p, q) = 0) by (apply (nsum_nonneg_zero (spring_energy (fst (fst pad)) u) (jn_pad_els j)); [intros; apply spring_energy_nonneg; lra|lra|exact hpq]).
      apply (square_zero (fst (fst pad))) in g; [cbn [fst snd] in g; lra|exact hkp]. }
    assert (z3 : forall q, In q (jn_sleepers j) -> u q DY = 0).
    { intros q hq. destruct (hon q hq) as [part [p' [k1 k2]]]. destruct (with_soil part k1) as [v hv]. destruct (in_soils _ hv) as [_ hg]. cbn [snd] in hg.
      assert (g : nsum (map (spring_energy (fst (fst v)) u) (snd part)) = 0).
      { apply (nsum_nonneg_zero (fun q => nsum (map (spring_energy (fst (fst (snd q))) u) (snd (fst q)))) (combine (jn_soil j) soils)) with (a := (part, v)); [|lra|exact hv].
        intros q' hq'. apply sum_nonneg. intros e' _. apply spring_energy_nonneg. destruct (in_soils q' hq') as [_ [h _]]. lra. }
      assert (g2 : spring_energy (fst (fst v)) u (q, p') = 0).
      { apply (nsum_nonneg_zero (spring_energy (fst (fst v)) u) (snd part)); [|exact g|exact k2]. intros. apply spring_energy_nonneg. destruct hg as [h _]. lra. }
      apply (square_zero (fst (fst v))) in g2; [|apply hg]. cbn [fst snd] in g2. pose proof (hbot part (q, p') k1 k2) as g3. cbn [snd] in g3. lra. }
    split; assumption.
  Qed.

  (** a field without energy whose bottom does not move and whose rail is held along x at one node is zero on rail and sleepers *)
  Lemma line_no_energy u :
    nsum (map (fun p => part_form aux_stiffness ns u (settled ns p)) parts) = 0 ->
    (forall part e, In part (jn_soil j) -> In e (snd part) -> u (snd e) DY = 0) -> (exists p, In p rn /\ u p DX = 0) ->
    (forall q, In q (jn_sleepers j) -> exists part p', In part (jn_soil j) /\ In (q, p') (snd part)) ->
    (exists q1 q2, In q1 (jn_sleepers j) /\ In q2 (jn_sleepers j) /\ tx (c q1) <> tx (c q2)) ->
    (forall p e, In p rn -> u p e = 0) /\ (forall q, In q (jn_sleepers j) -> u q DY = 0).
  Proof.
    intros e hbot [p0 [hp0 hx0]] hon [s1 [s2 [hs1 [hs2 hdif]]]]. rewrite line_total in e.
    assert (n1 : 0 <= nsum (map (line_energy u) (jn_rail_els j))) by (apply sum_nonneg; intros; apply line_energy_nonneg).
    assert (hkp : 0 < fst (fst pad)) by apply hpad.
    assert (n2 : 0 <= nsum (map (spring_energy (fst (fst pad)) u) (jn_pad_els j))) by (apply sum_nonneg; intros; apply spring_energy_nonneg; lra).
    pose proof (soil_total_nonneg u) as n3.
    assert (z1 : forall i, (S i < length rn)%nat -> line_energy u (nth i rn 0%nat, nth (S i) rn 0%nat) = 0).
    { intros i hi. apply (nsum_nonneg_zero (line_energy u) (jn_rail_els j)); [intros; apply line_energy_nonneg|lra|]. apply rail_els. exists i. auto. }
    destruct (line_supports u) as [z2 z3]; [lra|lra|exact hbot|exact hon|].
    split; [|exact z3]. apply line_still; [|exact z2|exact z3|eauto|exists s1, s2; auto].
    intros i hi. exact (line_energy_zero u _ (z1 i hi)).
  Qed.

  (** ** degrees of freedom that are kept *)

  Lemma line_unused p e : ~ In p rn -> e <> DY -> nsum (map (fun a => part_form aux_stiffness ns (unit_field p e) (settled ns a)) parts) = 0.
  Proof.
    intros hp he. rewrite line_total. rewrite !sum_none; [rnum; ring| | |].
    - intros q _. apply sum_none. intros i _. unfold spring_energy. rewrite !unit_across by exact he. ring.
    - intros i _. unfold spring_energy. rewrite !unit_across by exact he. ring.
    - intros i hi. apply rail_els in hi. destruct hi as [k [hk ->]]. unfold line_energy. cbv zeta. cbn [fst snd].
      rewrite !unit_elsewhere by (intros q; apply hp; rewrite q; apply nth_In; lia). unfold Rdiv. ring.
  Qed.
  Lemma line_unused_removed ls cs da s ns' k p e : initialise_system ns parts ls cs da = Ok (s, ns', k) -> ~ In p rn -> e <> DY -> number_of ns' p e = None.
  Proof.
    intros h hp he. destruct (initialise_inv _ _ _ _ _ _ _ _ h) as [s0 [_ [e0 _]]]. destruct (initialise_kept _ _ _ _ _ _ _ _ _ h e0) as [hl' [_ [hk _]]].
    destruct (number_of ns' p e) as [i|] eqn:ei; [|reflexivity]. exfalso.
    assert (hr : (p < length ns)%nat) by (rewrite <- hl'; eapply number_of_bound; eauto).
    destruct (assemble_diag ns parts ls s0 _ p e line_shaped e0 hr) as [k1 _]. rewrite line_unused in k1 by assumption.
    destruct (hk p e hr) as [g _]. destruct g as [_ [_ g]]; [congruence|]. change (match e with DX => 0%nat | DY => 1%nat | DR => 2%nat end) with (dir_idx e) in g.
    rewrite k1, Rabs_R0 in g. lra.
  Qed.

  Lemma line_definite ls cs da s ns' k x : initialise_system ns parts ls cs da = Ok (s, ns', k) ->
    (forall part e, In part (jn_soil j) -> In e (snd part) -> number_of ns' (snd e) DY = None) -> (exists p, In p rn /\ number_of ns' p DX = None) ->
    (forall q, In q (jn_sleepers j) -> exists part p', In part (jn_soil j) /\ In (q, p') (snd part)) ->
    (exists q1 q2, In q1 (jn_sleepers j) /\ In q2 (jn_sleepers j) /\ tx (c q1) <> tx (c q2)) ->
    quad k (me (gK s)) x = 0 -> forall i, (i < k)%nat -> x i = 0.
  Proof.
    intros h hbot [p0 [hp0 hx]] hon htwo e i hi. destruct (initialise_inv _ _ _ _ _ _ _ _ h) as [s0 [_ [e0 _]]]. destruct (initialise_kept _ _ _ _ _ _ _ _ _ h e0) as [hl' [hnum [_ _]]].
    destruct (initialise_energy _ _ _ _ _ _ _ _ x line_shaped h) as [he _]. rewrite he in e.
    destruct (line_no_energy (field_of ns' x) e) as [z1 z2]; try assumption.
    - intros part q h1 h2. unfold field_of. rewrite (hbot part q h1 h2). reflexivity.
    - exists p0. split; [exact hp0|]. unfold field_of. rewrite hx. reflexivity.
    - assert (hin : In i (all_numbers ns')) by (rewrite hnum; apply in_seq; lia). apply all_numbers_In in hin. destruct hin as [p [f hp]].
      assert (hr : (p < N)%nat) by (rewrite <- line_length, <- hl'; eapply number_of_bound; eauto).
      assert (hv : field_of ns' x p f = x i) by (unfold field_of; rewrite hp; reflexivity). rewrite <- hv.
      destruct (in_dec Nat.eq_dec p rn) as [q|q]; [apply z1; exact q|].
      assert (hf' : f = DY). { destruct f; [|reflexivity|]; rewrite (line_unused_removed _ _ _ _ _ _ p _ h q) in hp by discriminate; discriminate. }
      subst f. apply hbelow in hr. destruct hr as [hr|[hr|[part [e' [h1 [h2 ->]]]]]]; [contradiction|apply z2; exact hr|]. rewrite (hbot part e' h1 h2) in hp. discriminate.
  Qed.

  (** contribution of one part to a diagonal entry *)
  Lemma part_below aux u p : aux = aux_stiffness \/ aux = aux_mass \/ aux = aux_damping -> In p parts ->
    part_form aux ns u (settled ns p) <= nsum (map (fun a => part_form aux ns u (settled ns a)) parts).
  Proof.
    intros ha hp. apply (nsum_ge (fun a => part_form aux ns u (settled ns a))); [|exact hp]. intros a hin. apply part_form_nonneg; [exact ha|].
    pose proof line_sound as hs. rewrite Forall_forall in hs. apply hs. exact hin.
  Qed.
  Lemma rail_neighbour p : In p rn -> exists e, In e (jn_rail_els j) /\ fst e <> snd e /\ (p = fst e \/ p = snd e).
  Proof.
    intros h. destruct (in_rail p h) as [i [hi ->]]. destruct (Nat.lt_ge_cases (S i) (length rn)) as [g|g].
    - exists (nth i rn 0%nat, nth (S i) rn 0%nat). split; [apply rail_els; eauto|]. split; [cbn; intros z; apply rail_distinct in z; lia|left; reflexivity].
    - exists (nth (i - 1) rn 0%nat, nth (S (i - 1)) rn 0%nat). split; [apply rail_els; exists (i - 1)%nat; split; [lia|reflexivity]|].
      split; [cbn [fst snd]; intros z; apply rail_distinct in z; lia|right; cbn [snd]; f_equal; lia].
  Qed.
  Lemma line_rail_stiff p : In p rn -> 12 * (b_E b * b_I b) / ((1 + phi) * (l * l * l)) <= nsum (map (fun a => part_form aux_stiffness ns (unit_field p DY) (settled ns a)) parts).
  Proof.
    intros hp. destruct (rail_neighbour p hp) as [e [he [hne hpe]]].
    eapply Rle_trans; [|apply (part_below aux_stiffness (unit_field p DY) (mkPart (KRail b) (jn_rail_nodes j) (jn_rail_els j))); [auto|left; reflexivity]].
    rewrite line_settled, rail_form. eapply Rle_trans; [|apply (nsum_ge (line_energy (unit_field p DY)) (jn_rail_els j) e); [intros; apply line_energy_nonneg|exact he]].
    apply Req_le. unfold line_energy. cbv zeta. rewrite !(unit_across p DY _ DX), !(unit_across p DY _ DR) by discriminate.
    destruct hpe as [-> | ->]; rewrite unit_at, unit_elsewhere by congruence; unfold Rdiv; ring.
  Qed.
  Lemma line_rail_mass p : In p rn -> b_rho b * b_A b * l / 3 <= nsum (map (fun a => part_form aux_mass ns (unit_field p DY) (settled ns a)) parts).
  Proof.
    intros hp. destruct (rail_neighbour p hp) as [e [he [hne hpe]]].
    eapply Rle_trans; [|apply (part_below aux_mass (unit_field p DY) (mkPart (KRail b) (jn_rail_nodes j) (jn_rail_els j))); [auto|left; reflexivity]].
    rewrite line_settled. unfold part_form. cbn [ep_kind ep_els aux_mass element_form]. change (timoshenko_factor (lit 0) b') with phi.
    destruct line_beam as [[q1 [q2 [q3 [q4 [q5 q6]]]]] _]. pose proof line_phi as hphi.
    eapply Rle_trans; [|apply (nsum_ge (fun e => quad 6 (beam_mass b' phi) (local6 (calculate_rotation1 (xy ns (fst e), xy ns (snd e))) (unit_field p DY) (fst e) (snd e))) (jn_rail_els j) e);
      [intros; apply beam_mass_psd; try assumption; lra|exact he]].
    rewrite (level_angle ns e) by (apply line_level; exact he).
    assert (g : forall i, (i = 1 \/ i = 4)%nat -> (forall k, (k < 6)%nat -> local6 0 (unit_field p DY) (fst e) (snd e) k = if Nat.eqb i k then 1 else 0) ->
      b_rho b * b_A b * l / 3 <= quad 6 (beam_mass b' phi) (local6 0 (unit_field p DY) (fst e) (snd e))).
    { intros i hi hk. rewrite (quad_ext_vec 6 _ _ (fun k => if Nat.eqb i k then 1 else 0)) by exact hk. rewrite quad_unit by (destruct hi; lia).
      exact (beam_mass_vertical b' phi i q4 hphi q3 q2 q6 hi). }
    destruct hpe as [hpe|hpe]; [apply (g 1%nat)|apply (g 4%nat)]; auto; intros k hk; unfold local6, along, across; rewrite cos_0, sin_0;
      rewrite !(unit_across p DY _ DX), !(unit_across p DY _ DR) by discriminate; subst p; rewrite unit_at, unit_elsewhere by congruence;
      do 6 (destruct k as [|k]; [cbn; ring|]); lia.
  Qed.
  Lemma line_sleeper q : In q (jn_sleepers j) ->
    fst (fst pad) <= nsum (map (fun a => part_form aux_stiffness ns (unit_field q DY) (settled ns a)) parts) /\
    m <= nsum (map (fun a => part_form aux_mass ns (unit_field q DY) (settled ns a)) parts).
  Proof.
    intros hq. split.
    - destruct (hsleepers q hq) as [_ [p hp]].
      eapply Rle_trans; [|apply (part_below aux_stiffness (unit_field q DY) (springs pad (jn_pad_nodes j) (jn_pad_els j))); [auto|right; left; reflexivity]].
      rewrite springs_settled, spring_form by apply pads_plumb. assert (hkp : 0 < fst (fst pad)) by apply hpad.
      eapply Rle_trans; [|apply (nsum_ge (spring_energy (fst (fst pad)) (unit_field q DY)) (jn_pad_els j) (p, q)); [intros; apply spring_energy_nonneg; lra|exact hp]].
      apply Req_le. unfold spring_energy. cbn [fst snd]. destruct (hpads p q hp) as [h1 _]. rewrite unit_at, unit_elsewhere by (apply not_eq_sym, rail_or_sleeper; assumption). ring.
    - eapply Rle_trans; [|apply (part_below aux_mass (unit_field q DY) (mkPart (KPoint m) (jn_sleepers j) [])); [auto|right; right; left; reflexivity]].
      unfold settled, part_form. cbn [ep_kind ep_nodes aux_mass].
      eapply Rle_trans; [|apply (nsum_ge (fun i => one_by_one m 0%nat 0%nat * (unit_field q DY i DY * unit_field q DY i DY)) (jn_sleepers j) q); [intros; cbn; apply nonneg_square; exact hm|exact hq]].
      rewrite unit_at. cbn. lra.
  Qed.
  Lemma line_kept ls cs da s ns' k p : initialise_system ns parts ls cs da = Ok (s, ns', k) -> In p rn \/ In p (jn_sleepers j) ->
    1 / 100000000 < 12 * (b_E b * b_I b) / ((1 + phi) * (l * l * l)) -> 1 / 100000000 < b_rho b * b_A b * l / 3 -> 1 / 100000000 < fst (fst pad) -> 1 / 100000000 < m ->
    (number_of ns' p DY <> None <-> flag_after cs p DY true = true).
  Proof.
    intros h hp h1 h2 h3 h4. destruct (initialise_inv _ _ _ _ _ _ _ _ h) as [s0 [_ [e0 _]]]. destruct (initialise_kept _ _ _ _ _ _ _ _ _ h e0) as [hl' [_ [hk _]]].
    assert (hr : (p < length ns)%nat) by (rewrite line_length; apply hbelow; tauto). specialize (hk p DY hr). cbv zeta in hk. rewrite hk.
    rewrite (line_active p DY hr).
    destruct (assemble_diag ns parts ls s0 _ p DY line_shaped e0 hr) as [k1 k2]. cbn [dir_idx] in k1, k2. rewrite k1, k2.
    split; [tauto|]. intros g. split; [exact g|].
    destruct hp as [hp|hp].
    - pose proof (line_rail_stiff p hp). pose proof (line_rail_mass p hp). rewrite !Rabs_right by lra. lra.
    - destruct (line_sleeper p hp) as [g1 g2]. rewrite !Rabs_right by lra. lra.
  Qed.
End Line.
