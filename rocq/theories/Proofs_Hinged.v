(** * The matrices of tracks with a hinge in the rail *)

From Coq Require Import Reals List Bool ZArith Arith Lia Lra Psatz FunctionalExtensionality.
From Verif Require Import Num PyBase Model_Geometry Model_System Spec_System Proofs_Dof Proofs_System Model_Element Spec_Element
  Proofs_Elements Proofs_Element Proofs_Beam Proofs_Force Model_Accumulation Proofs_Accumulation Proofs_Geometry Model_Coupled Model_Mesh Spec_Mesh Proofs_Mesh
  Model_Track Spec_Track Spec_Generated Proofs_Track Proofs_Assembly Proofs_Generated Proofs_Chain Spec_Balance Proofs_Balance Spec_Structure Proofs_Structure Proofs_Line
  Props_Structure Model_Hinge Spec_Hinged.
Import ListNotations.
Local Open Scope R_scope.

(** ** an element with one fixed end and any fixity at the other *)

Lemma one_sided (a x y : R) : 0 <= a <= 1 -> x * x + a * (x * y) + a * (y * y) = 0 -> x = 0 /\ (0 < a -> y = 0).
Proof.
  intros h e. assert (g : (x + a * y / 2) * (x + a * y / 2) + a * (1 - a / 4) * (y * y) = 0) by (rewrite <- e; field).
  pose proof (Rle_0_sqr (x + a * y / 2)) as g1. unfold Rsqr in g1. pose proof (Rle_0_sqr y) as g2. unfold Rsqr in g2.
  assert (g3 : 0 <= a * (1 - a / 4)) by (apply Rmult_le_pos; lra). assert (g4 : 0 <= a * (1 - a / 4) * (y * y)) by (apply Rmult_le_pos; assumption).
  assert (z1 : x + a * y / 2 = 0) by (apply (square_zero 1); lra).
  destruct (Req_dec a 0) as [->|na]; [split; lra|]. assert (g5 : 0 < a * (1 - a / 4)) by (apply Rmult_lt_0_compat; lra).
  assert (y = 0) by (apply (square_zero (a * (1 - a / 4))); lra). subst y. split; [lra|auto].
Qed.

Section OneSided.
  Variables (EA l EI phi a : R) (u : nat -> R).
  Hypothesis hA : 0 < EA.
  Hypothesis hl : 0 < l.
  Hypothesis hI : 0 < EI.
  Hypothesis hp : 0 <= phi.
  Hypothesis ha : 0 <= a <= 1.

  Lemma side_coefficients : 0 < EA / l /\ 0 < 12 * EI / ((1 + phi) * l * (4 - a)) /\ 0 <= 3 * phi * EI / ((1 + phi) * l * (4 - a)).
  Proof.
    assert (hd : 0 < (1 + phi) * l * (4 - a)) by (repeat apply Rmult_lt_0_compat; lra).
    split; [apply Rdiv_lt_0_compat; assumption|]. split; [apply Rdiv_lt_0_compat; lra|]. apply Rle_mult_inv_pos; [|exact hd]. apply Rmult_le_pos; [|lra]. lra.
  Qed.
  Lemma axial_nonneg : 0 <= EA / l * ((u 3%nat - u 0%nat) * (u 3%nat - u 0%nat)).
  Proof. destruct side_coefficients as [h _]. apply nonneg_square. lra. Qed.

  Lemma rigid_first : quad 6 (stiff_entries EA l EI phi 1 a) u = 0 ->
    u 3%nat = u 0%nat /\ u 4%nat = u 1%nat + l * u 2%nat /\ (0 < a -> u 5%nat = u 2%nat).
  Proof.
    intros e. rewrite stiff_energy in e by lra. cbv zeta in e. rewrite !Rmult_1_l in e.
    destruct side_coefficients as [c1 [c2 c3]]. pose proof axial_nonneg as n1. set (p1 := u 2%nat + (u 1%nat - u 4%nat) / l) in e. set (p2 := u 5%nat + (u 1%nat - u 4%nat) / l) in e.
    destruct (Proofs_Element.form_nonneg 1 a p1 p2 ltac:(lra) ha) as [n2 _]. destruct (Proofs_Element.form_nonneg 1 a (u 2%nat) (u 5%nat) ltac:(lra) ha) as [_ n3]. rewrite !Rmult_1_l in n2, n3.
    assert (m2 : 0 <= 12 * EI / ((1 + phi) * l * (4 - a)) * (p1 * p1 + a * (p1 * p2) + a * (p2 * p2))) by (apply Rmult_le_pos; lra).
    assert (m3 : 0 <= 3 * phi * EI / ((1 + phi) * l * (4 - a)) * (u 2%nat * u 2%nat - 2 * a * (u 2%nat * u 5%nat) + a * (u 5%nat * u 5%nat))) by (apply Rmult_le_pos; lra).
    assert (z1 : u 3%nat - u 0%nat = 0) by (apply (square_zero (EA / l)); lra).
    assert (z2 : p1 * p1 + a * (p1 * p2) + a * (p2 * p2) = 0).
    { assert (g : 12 * EI / ((1 + phi) * l * (4 - a)) * (p1 * p1 + a * (p1 * p2) + a * (p2 * p2)) = 0) by lra. apply Rmult_integral in g. destruct g; lra. }
    destruct (one_sided a p1 p2 ha z2) as [q1 q2]. unfold p1, p2 in *.
    assert (w : u 4%nat = u 1%nat + l * u 2%nat). { assert (k : l * (u 2%nat + (u 1%nat - u 4%nat) / l) = 0) by (rewrite q1; ring). replace (l * (u 2%nat + (u 1%nat - u 4%nat) / l)) with (l * u 2%nat + u 1%nat - u 4%nat) in k by (field; lra). lra. }
    split; [lra|]. split; [exact w|]. intros h. specialize (q2 h). lra.
  Qed.
  Lemma rigid_second : quad 6 (stiff_entries EA l EI phi a 1) u = 0 ->
    u 3%nat = u 0%nat /\ u 4%nat = u 1%nat + l * u 5%nat /\ (0 < a -> u 2%nat = u 5%nat).
  Proof.
    intros e. rewrite stiff_energy in e by lra. cbv zeta in e. rewrite !Rmult_1_l, !Rmult_1_r in e.
    destruct side_coefficients as [c1 [c2 c3]]. pose proof axial_nonneg as n1. set (p1 := u 2%nat + (u 1%nat - u 4%nat) / l) in e. set (p2 := u 5%nat + (u 1%nat - u 4%nat) / l) in e.
    destruct (Proofs_Element.form_nonneg a 1 p1 p2 ha ltac:(lra)) as [n2 _]. destruct (Proofs_Element.form_nonneg a 1 (u 2%nat) (u 5%nat) ha ltac:(lra)) as [_ n3]. rewrite !Rmult_1_l, !Rmult_1_r in n2, n3.
    assert (m2 : 0 <= 12 * EI / ((1 + phi) * l * (4 - a)) * (a * (p1 * p1) + a * (p1 * p2) + p2 * p2)) by (apply Rmult_le_pos; lra).
    assert (m3 : 0 <= 3 * phi * EI / ((1 + phi) * l * (4 - a)) * (a * (u 2%nat * u 2%nat) - 2 * a * (u 2%nat * u 5%nat) + u 5%nat * u 5%nat)) by (apply Rmult_le_pos; lra).
    assert (z1 : u 3%nat - u 0%nat = 0) by (apply (square_zero (EA / l)); lra).
    assert (z2 : p2 * p2 + a * (p2 * p1) + a * (p1 * p1) = 0).
    { assert (g : 12 * EI / ((1 + phi) * l * (4 - a)) * (a * (p1 * p1) + a * (p1 * p2) + p2 * p2) = 0) by lra. apply Rmult_integral in g. destruct g; lra. }
    destruct (one_sided a p2 p1 ha z2) as [q1 q2]. unfold p1, p2 in *.
    assert (w : u 4%nat = u 1%nat + l * u 5%nat). { assert (k : l * (u 5%nat + (u 1%nat - u 4%nat) / l) = 0) by (rewrite q1; ring). replace (l * (u 5%nat + (u 1%nat - u 4%nat) / l)) with (l * u 5%nat + u 1%nat - u 4%nat) in k by (field; lra). lra. }
    split; [lra|]. split; [exact w|]. intros h. specialize (q2 h). lra.
  Qed.
  (** stiffness against a vertical displacement of either end *)
  Lemma side_stiff a1 a2 k : (a1 = 1 /\ a2 = a \/ a1 = a /\ a2 = 1) -> (k = 1 \/ k = 4)%nat -> 3 * EI / ((1 + phi) * (l * l * l)) <= stiff_entries EA l EI phi a1 a2 k k.
  Proof.
    intros h hk. assert (c0 : 0 < EI / ((1 + phi) * (l * l * l))) by (apply Rdiv_lt_0_compat; [lra|repeat apply Rmult_lt_0_compat; lra]).
    assert (g : stiff_entries EA l EI phi a1 a2 k k = 12 * ((1 + 2 * a) / (4 - a)) * (EI / ((1 + phi) * (l * l * l)))).
    { destruct h as [[-> ->]|[-> ->]]; destruct hk as [-> | ->]; cbn [stiff_entries]; field; nra. }
    rewrite g. assert (g2 : 1 / 4 <= (1 + 2 * a) / (4 - a)).
    { apply (Rmult_le_reg_r (4 - a)); [lra|]. replace ((1 + 2 * a) / (4 - a) * (4 - a)) with (1 + 2 * a) by (field; lra). lra. }
    replace (3 * EI / ((1 + phi) * (l * l * l))) with (12 * (1 / 4) * (EI / ((1 + phi) * (l * l * l)))) by (field; nra).
    apply Rmult_le_compat_r; lra.
  Qed.
End OneSided.

Lemma fixity_none EI l : fixity (T := R) EI l None = 1.
Proof. cbn. rnum. field. Qed.
Lemma fixity_some EI l s : 0 < EI -> 0 < l -> 0 <= s -> (s = 0 -> fixity EI l (Some s) = 0) /\ (0 < s -> 0 < fixity EI l (Some s)).
Proof.
  intros h1 h2 h3. cbn [fixity]. rnum. destruct (nltbP 0 s) as [h|h]; split; intros g; try lra.
  assert (0 < s * l) by (apply Rmult_lt_0_compat; assumption). assert (0 < 3 * EI / (s * l)) by (apply Rdiv_lt_0_compat; lra). apply Rdiv_lt_0_compat; lra.
Qed.

(** the vector with given values at the numbered degrees of freedom *)
Definition gather (ns : list (node R)) (w : nat -> dir -> R) (q : nat) : R :=
  match find (fun pd => match number_of ns (fst pd) (snd pd) with Some k => Nat.eqb k q | None => false end) (list_prod (seq 0 (length ns)) [DX; DY; DR]) with
  | Some pd => w (fst pd) (snd pd) | None => 0 end.
Lemma gather_field ns k w : numbered ns k -> (forall p d, number_of ns p d = None -> w p d = 0) -> field_of ns (gather ns w) = w.
Proof.
  intros hnum h. apply functional_extensionality. intros p. apply functional_extensionality. intros d. unfold field_of. destruct (number_of ns p d) as [q|] eqn:en; [|symmetry; apply h; exact en].
  unfold gather. destruct (find _ _) as [[p' d']|] eqn:ef.
  - apply find_some in ef. destruct ef as [_ g]. cbn [fst snd] in *. destruct (number_of ns p' d') as [q'|] eqn:en'; [|discriminate]. apply Nat.eqb_eq in g. subst q'.
    destruct (numbered_inj _ _ _ _ _ _ _ hnum en en') as [-> ->]. reflexivity.
  - exfalso. assert (hin : In (p, d) (list_prod (seq 0 (length ns)) [DX; DY; DR])).
    { apply in_prod; [apply in_seq; split; [lia|]; eapply number_of_bound; eauto|destruct d; cbn [In]; auto]. }
    pose proof (find_none _ _ ef _ hin) as g. cbn [fst snd] in g. rewrite en, Nat.eqb_refl in g. discriminate.
Qed.

Section HingedTrack.
  Variables (c : heap R) (N : nat) (l : R) (j : joined).
  Hypothesis hline : line c N l j.
  Hypothesis hl : 1 / 1000000000 < l.
  Variables (rail : beam R) (pad : R * option R * option R) (sleeper : R) (soils : list (R * option R * option R)).
  Hypothesis hrail : good_rail rail.
  Hypothesis hpad : good_rod pad.
  Hypothesis hsl : 0 <= sleeper.
  Hypothesis hsoils : Forall good_rod soils.
  Hypothesis hcount : length soils = length (jn_soil j).
  Variables (len mass f x0 : R) (i : nat) (ps : list (epart R)).
  Hypothesis hat : hinge_at c (jn_rail_nodes j) x0 i.
  Hypothesis hlen : 0 < len.
  Hypothesis hf : 0 <= f.
  Let rn := jn_rail_nodes j.
  Let others := tl (joined_parts j rail pad sleeper soils).
  Hypothesis hps : semi_rigid_parts rail others c rn (jn_rail_els j) len mass f x0 = Ok ps.
  Let ns := joined_mesh c (seq 0 N).
  Let EA := b_E rail * b_A rail.
  Let EI := b_E rail * b_I rail.
  Let bm s s' := mkBeam (b_E rail) (b_nu rail) (b_rho rail) (b_A rail) (b_I rail) (b_shear_factor rail) l s s'.
  Let phi := timoshenko_factor 0 (with_length rail l).

  Lemma h_l : 0 < l.
  Proof. lra. Qed.
  Lemma h_EA : 0 < EA.
  Proof. destruct hrail as [_ [h1 [_ [h3 _]]]]. apply Rmult_lt_0_compat; assumption. Qed.
  Lemma h_EI : 0 < EI.
  Proof. destruct hrail as [_ [h1 [h2 _]]]. apply Rmult_lt_0_compat; assumption. Qed.
  Lemma h_sound s s' : sound_beam (bm s s').
  Proof. destruct hrail as [_ h]. pose proof h_l. unfold sound_beam. cbn. tauto. Qed.
  Lemma h_phi : 0 <= phi.
  Proof. apply timoshenko_nonneg. destruct hrail as [_ h]. pose proof h_l. unfold sound_beam. cbn. tauto. Qed.
  Lemma h_rail : with_length rail l = bm None None.
  Proof. destruct hrail as [[h1 h2] _]. unfold with_length, bm. rewrite h1, h2. reflexivity. Qed.

  (** the parts of the rail and the fixity at the hinge *)
  Lemma h_pieces : exists n1 e1 ea eb n2 e2 s,
    (f = 0 -> fixity EI l (Some s) = 0) /\ (0 < f -> 0 < fixity EI l (Some s)) /\
    jn_rail_els j = e1 ++ [ea; eb] ++ e2 /\ length e1 = (i - 1)%nat /\
    Forall (fun n => (2 <= length n)%nat /\ exists l1 l2, rn = l1 ++ n ++ l2) [n1; [fst ea; snd ea]; [fst eb; snd eb]; n2] /\
    exists pieces, ps = pieces ++ others /\ map (@ep_nodes R) pieces = [n1; [fst ea; snd ea]; [fst eb; snd eb]; n2] /\ Forall (fun p => exists b, ep_kind p = KRail b) pieces /\
    map (settled ns) pieces = [mkPart (KRail (bm None None)) n1 e1; mkPart (KRail (bm None (Some s))) [fst ea; snd ea] [ea]; mkPart (KRail (bm (Some s) None)) [fst eb; snd eb] [eb];
      mkPart (KRail (bm None None)) n2 e2].
  Proof.
    destruct (hinge_here c N l j x0 i hline hl hat) as [n1 [e1 [ea [eb [n2 [e2 [g1 [g2 [g3 [g0 [g4 g5]]]]]]]]]]]. cbv zeta in g5.
    pose proof hps as hs. unfold semi_rigid_parts in hs. apply rbind_ok in hs. destruct hs as [[r hg] [hs0 hs]]. injection hs as <-. cbn [fst].
    unfold create_hinge in hs0. destruct (_ && _)%bool eqn:e0; [discriminate|]. destruct (hinge_stiffness None (b_E rail) (b_I rail) len f) as [kh|] eqn:ek; [|destruct (find_at _ _ _ _); discriminate].
    apply rbind_ok in hs0. destruct hs0 as [r' [hs0 hs1]]. injection hs1 as -> _. unfold rn in hs0. rewrite g4 in hs0. injection hs0 as <-.
    pose proof h_EI as hEI. pose proof h_l as hl0.
    assert (hk : 0 <= kh / 2 /\ (f = 0 -> kh / 2 = 0) /\ (0 < f -> 0 < kh / 2)).
    { unfold hinge_stiffness in ek. revert ek. rnum. destruct (RlebP 0 f); [|lra]. destruct (nltbP f 1) as [h1|h1]; cbn [andb].
      - intros ek. injection ek as <-. assert (hd : 0 < (1 - f) * len) by (apply Rmult_lt_0_compat; lra).
        replace (3 * b_E rail * b_I rail * f) with (3 * EI * f) by (unfold EI; ring). split; [|split].
        + apply Rmult_le_pos; [|lra]. apply Rle_mult_inv_pos; [|exact hd]. apply Rmult_le_pos; lra.
        + intros ->. unfold Rdiv. ring.
        + intros hf0. apply Rdiv_lt_0_compat; [|lra]. apply Rdiv_lt_0_compat; [|exact hd]. apply Rmult_lt_0_compat; lra.
      - destruct (np_isclose f 1); [|discriminate]. intros ek. injection ek as <-. assert (hz : 0 < IZR (10 ^ 30)) by (apply IZR_lt; reflexivity).
        split; [|split]; intros; try lra; apply Rlt_le || idtac; apply Rdiv_lt_0_compat; assumption || lra. }
    destruct hk as [k1 [k2 k3]]. destruct (fixity_some EI l (kh / 2) hEI hl0 k1) as [q1 q2].
    exists n1, e1, ea, eb, n2, e2, (kh / 2). split; [auto|]. split; [auto|]. split; [exact g1|]. split; [exact g0|].
    split; [apply (g5 rail)|].
    exists (hinged_rail rail (n1, e1, [mkHingePart ea None (Some (kh / 2)); mkHingePart eb (Some (kh / 2)) None], (n2, e2))). split; [reflexivity|]. split; [reflexivity|].
    split; [repeat constructor; eexists; reflexivity|]. unfold hinged_rail. cbn [map app fst snd hp_element hp_spring1 hp_spring2].
    destruct (g5 rail) as [[p1 [_ [_ p4]]] _]. fold ns in p1, p4. rewrite p1, p4, h_rail.
    destruct (g5 (mkBeam (b_E rail) (b_nu rail) (b_rho rail) (b_A rail) (b_I rail) (b_shear_factor rail) (b_l rail) None (Some (kh / 2)))) as [[_ [p2 _]] _]. fold ns in p2. rewrite p2.
    destruct (g5 (mkBeam (b_E rail) (b_nu rail) (b_rho rail) (b_A rail) (b_I rail) (b_shear_factor rail) (b_l rail) (Some (kh / 2)) None)) as [[_ [_ [p3 _]]] _]. fold ns in p3. rewrite p3.
    reflexivity.
  Qed.

  Lemma h_level e : In e (jn_rail_els j) -> level ns e.
  Proof. intros he. assert (g : Forall (upright ns) (joined_parts j rail pad sleeper soils)) by (eapply joined_upright; eassumption || apply h_l). apply Forall_inv in g. apply g. exact he. Qed.
  Lemma h_sounds : Forall (fun p => sound (settled ns p)) ps.
  Proof. eapply hinged_sound with (sleeper := sleeper); eassumption. Qed.
  Lemma h_shaped : Forall shaped ps.
  Proof. eapply hinged_shaped with (sleeper := sleeper); eassumption. Qed.
  Lemma h_in k : (k < length rn)%nat -> In (nth k rn 0%nat) rn.
  Proof. apply nth_In. Qed.
  Lemma h_range p : In p rn -> (p < N)%nat.
  Proof. intros h. apply (ln_below _ _ _ _ hline). auto. Qed.
  Lemma h_els e : In e (jn_rail_els j) <-> exists k, (S k < length rn)%nat /\ e = (nth k rn 0%nat, nth (S k) rn 0%nat).
  Proof. destruct hline. eapply rail_els; eassumption. Qed.
  Lemma h_length : length ns = N.
  Proof. apply line_length. Qed.

  (** ** initialisation *)
  Lemma h_initialises ls cs da : (forall q p, In q ls -> In p (ld_nodes q) -> (p < N)%nat) -> exists s ns' k, initialise_system ns ps ls cs da = Ok (s, ns', k).
  Proof.
    intros hls. pose proof h_l as hl0.
    destruct h_pieces as [n1 [e1 [ea [eb [n2 [e2 [s [_ [_ [g1 [g2 [g3 [pieces [g4 [g5 [g6 g7]]]]]]]]]]]]]]]].
    apply initialise_ok; [| |rewrite h_length; exact hls].
    - intros p hp. rewrite g4 in hp. apply in_app_or in hp. destruct hp as [hp|hp].
      + rewrite Forall_forall in g6. destruct (g6 p hp) as [b hb]. assert (hn : In (ep_nodes p) (map (@ep_nodes R) pieces)) by (apply in_map; exact hp). rewrite g5 in hn.
        rewrite Forall_forall in g3. destruct (g3 _ hn) as [h2 [l1 [l2 er]]]. unfold initialize_part. rewrite hb. set (nodes := ep_nodes p) in *.
        assert (hnr : forall q, (q < length nodes)%nat -> nth q nodes 0%nat = nth (length l1 + q) rn 0%nat /\ (length l1 + q < length rn)%nat).
        { intros q hq. rewrite er. rewrite app_nth2 by lia. replace (length l1 + q - length l1)%nat with q by lia. rewrite app_nth1 by exact hq. rewrite !app_length. split; [reflexivity|lia]. }
        assert (em : mapr (node_at ns) nodes = Ok (map (fun p => set_index (new_node p (tx (c p)) (ty (c p)) (tr (c p))) p) nodes)).
        { apply mapr_map. intros q hq. apply at_idx_ok. eapply line_nth. apply h_range. rewrite er. apply in_or_app. right. apply in_or_app. left. exact hq. }
        rewrite em. cbn [rbind]. rewrite map_map.
        set (co := fun p => n_coord (set_index (new_node p (tx (c p)) (ty (c p)) (tr (c p))) p)).
        assert (ec : forall q, (q < length nodes)%nat -> nth_error (map co nodes) q = Some (co (nth q nodes 0%nat))).
        { intros q hq. rewrite nth_error_map. rewrite (nth_error_nth' nodes 0%nat hq). reflexivity. }
        assert (ed : forall q, (S q < length nodes)%nat -> dist3 (co (nth q nodes 0%nat)) (co (nth (S q) nodes 0%nat)) = l).
        { intros q hq. destruct (hnr q ltac:(lia)) as [-> b1]. destruct (hnr (S q) ltac:(lia)) as [-> b2]. unfold co. cbn [n_coord set_index new_node].
          rewrite !(ln_rail _ _ _ _ hline) by assumption. unfold dist3. cbn [tx ty tr]. rewrite !plus_INR, S_INR. transitivity (sqrt (Rsqr l)); [f_equal; unfold Rsqr; ring|apply sqrt_Rsqr; lra]. }
        destruct (rail_length_spec (Some (b_l b)) (map co nodes)) as [_ h].
        destruct (h (co (nth 0 nodes 0%nat)) (co (nth 1 nodes 0%nat)) (ec 0%nat ltac:(lia)) (ec 1%nat ltac:(lia))) as [h1 _].
        change (fun x => n_coord (set_index (new_node x (tx (c x)) (ty (c x)) (tr (c x))) x)) with co.
        rewrite h1; [cbn [rbind]; eexists; reflexivity|]. clear h h1. intros q u v hu hv.
        assert (hq : (S q < length nodes)%nat) by (rewrite <- (map_length co nodes); apply nth_error_Some; congruence).
        rewrite ec in hu, hv by lia. injection hu as <-. injection hv as <-. rewrite !ed by lia. replace (l - l) with 0 by ring. rewrite Rabs_R0. lra.
      + destruct hp as [<-|[<-|hp]]; try (eexists; reflexivity). apply in_map_iff in hp. destruct hp as [q [<- _]]. eexists. reflexivity.
    - intros p q hp hq. rewrite h_length. rewrite g4 in hp. apply in_app_or in hp. destruct hp as [hp|hp].
      + assert (hs : In (settled ns p) (map (settled ns) pieces)) by (apply in_map; exact hp). destruct (settled_els ns p) as [w1 w2].
        assert (hel : forall e, In e (ep_els p) -> In e (jn_rail_els j)).
        { intros e he. rewrite <- w1 in he. rewrite g7 in hs. rewrite g1, !in_app_iff. destruct hs as [hs|[hs|[hs|[hs|[]]]]]; rewrite <- hs in he; cbn [ep_els In] in he; cbn [In]; tauto. }
        assert (hnd : forall q, In q (ep_nodes p) -> In q rn).
        { intros q' hq'. assert (hn : In (ep_nodes p) (map (@ep_nodes R) pieces)) by (apply in_map; exact hp). rewrite g5 in hn. rewrite Forall_forall in g3. destruct (g3 _ hn) as [_ [l1 [l2 er]]].
          rewrite er. apply in_or_app. right. apply in_or_app. left. exact hq'. }
        unfold part_refs in hq. destruct (ep_els p) as [|e es] eqn:ee; [apply h_range, hnd; exact hq|]. rewrite <- ee in hq, hel. apply in_flat_map in hq. destruct hq as [e' [h1 h2]].
        apply hel, h_els in h1. destruct h1 as [k [hk ->]]. destruct h2 as [<-|[<-|[]]]; cbn [fst snd]; apply h_range, h_in; lia.
      + assert (g : forall (es : list (nat * nat)) nodes, es <> [] -> (forall e, In e es -> (fst e < N)%nat /\ (snd e < N)%nat) ->
           In q (match es with [] => nodes | e1 :: es1 => flat_map (fun e => [fst e; snd e]) (e1 :: es1) end) -> (q < N)%nat).
        { intros es nodes hne hh hin. destruct es as [|e es]; [congruence|]. apply in_flat_map in hin. destruct hin as [e' [h1 h2]]. destruct (hh e' h1).
          destruct h2 as [<-|[<-|[]]]; assumption. }
        destruct hline as [_ _ _ lp lsl lso lsome lb _ _]. unfold part_refs in hq. destruct hp as [<-|[<-|hp]]; cbn [springs ep_els ep_nodes] in hq.
        * refine (g _ _ lsome _ hq). intros [p q'] he. destruct (lp p q' he) as [h1 [h2 _]]. cbn. split; apply lb; auto.
        * apply lb. auto.
        * apply in_map_iff in hp. destruct hp as [[part v] [<- hv]]. apply in_combine_l in hv. cbn [springs ep_els ep_nodes fst snd] in hq. destruct (lso part hv) as [h0 h1]. refine (g _ _ h0 _ hq).
          intros [p q'] he. destruct (h1 p q' he) as [h2 _]. cbn. split; apply lb; [auto|]. right. right. exists part, (p, q'). auto.
  Qed.

  (** ** stiffness energy *)
  Definition bent (s s' : option R) (u : nat -> dir -> R) (e : nat * nat) : R :=
    quad 6 (stiff_entries EA l EI phi (fixity EI l s) (fixity EI l s')) (local6 0 u (fst e) (snd e)).
  Definition springs_energy (u : nat -> dir -> R) : R :=
    nsum (map (spring_energy (fst (fst pad)) u) (jn_pad_els j)) + nsum (map (fun q => nsum (map (spring_energy (fst (fst (snd q))) u) (snd (fst q)))) (combine (jn_soil j) soils)).

  Lemma bent_nonneg s s' u e : 0 <= bent s s' u e.
  Proof. apply stiff_psd; [apply h_EA|apply h_l|apply h_EI|apply h_phi| |]; apply fixity_range; apply h_EI || apply h_l. Qed.
  Lemma h_form s s' n es u : (forall e, In e es -> In e (jn_rail_els j)) -> part_form aux_stiffness ns u (mkPart (KRail (bm s s')) n es) = nsum (map (bent s s' u) es).
  Proof.
    intros h. unfold part_form. cbn [ep_kind ep_els aux_stiffness element_form]. apply nsum_map_ext. intros e he. rewrite (level_angle ns e) by (apply h_level, h; exact he).
    change (timoshenko_factor (lit 0) (bm s s')) with phi. unfold bent. apply quad_ext. intros p q hp hq. destruct (h_sound s s') as [h1 [h2 [h3 [h4 _]]]].
    exact (entries (bm s s') phi h1 h2 h4 h_phi p q hp hq).
  Qed.
  Lemma h_others u : nsum (map (fun p => part_form aux_stiffness ns u (settled ns p)) others) = springs_energy u.
  Proof.
    pose proof h_l as hl0. pose proof hline as hline'. destruct hline'.
    assert (g : nsum (map (fun p => part_form aux_stiffness ns u (settled ns p)) (joined_parts j rail pad sleeper soils)) =
      nsum (map (line_energy l rail u) (jn_rail_els j)) + nsum (map (spring_energy (fst (fst pad)) u) (jn_pad_els j)) +
      nsum (map (fun q => nsum (map (spring_energy (fst (fst (snd q))) u) (snd (fst q)))) (combine (jn_soil j) soils))) by (eapply line_total; eassumption).
    change (joined_parts j rail pad sleeper soils) with (mkPart (KRail rail) (jn_rail_nodes j) (jn_rail_els j) :: others) in g. cbn [map nsum fold_right] in g.
    assert (g1 : part_form aux_stiffness ns u (settled ns (mkPart (KRail rail) (jn_rail_nodes j) (jn_rail_els j))) = nsum (map (line_energy l rail u) (jn_rail_els j))).
    { assert (g0 : settled ns (mkPart (KRail rail) (jn_rail_nodes j) (jn_rail_els j)) = mkPart (KRail (with_length rail l)) (jn_rail_nodes j) (jn_rail_els j)) by (eapply line_settled; eassumption).
      rewrite g0. eapply rail_form; eassumption. }
    unfold springs_energy. rewrite g1 in g. rnum. lra.
  Qed.

  (** the elements of the rail by position *)
  Definition placed (e1 : list (nat * nat)) (ea eb : nat * nat) (e2 : list (nat * nat)) : Prop :=
    (forall k, (S k < length rn)%nat -> let e := (nth k rn 0%nat, nth (S k) rn 0%nat) in
       ((S k < i)%nat -> In e e1) /\ (S k = i -> e = ea) /\ (k = i -> e = eb) /\ ((i < k)%nat -> In e e2)) /\
    (forall e, In e e1 -> exists k, (S k < i)%nat /\ (S k < length rn)%nat /\ e = (nth k rn 0%nat, nth (S k) rn 0%nat)) /\
    (forall e, In e e2 -> exists k, (i < k)%nat /\ (S k < length rn)%nat /\ e = (nth k rn 0%nat, nth (S k) rn 0%nat)).
  Lemma h_placed e1 ea eb e2 : jn_rail_els j = e1 ++ [ea; eb] ++ e2 -> length e1 = (i - 1)%nat -> placed e1 ea eb e2.
  Proof.
    intros h1 h2. destruct hat as [t1 [t2 _]]. destruct (ln_line _ _ _ _ hline) as [l1 l2]. fold rn in l1, l2, t2.
    assert (f1 : forall k, (k < length e1)%nat -> nth_error (jn_rail_els j) k = nth_error e1 k) by (intros k hk; rewrite h1; apply nth_error_app1; exact hk).
    assert (f2 : forall k, nth_error (jn_rail_els j) (length e1 + k) = nth_error ([ea; eb] ++ e2) k).
    { intros k. rewrite h1. rewrite nth_error_app2 by lia. f_equal. lia. }
    assert (fl : length (jn_rail_els j) = (length e1 + 2 + length e2)%nat) by (rewrite h1, !app_length; cbn; lia).
    split; [|split].
    - intros k hk e. pose proof (l2 k hk) as g. fold e in g. repeat split; intros hc.
      + rewrite f1 in g by lia. exact (nth_error_In _ _ g).
      + replace k with (length e1 + 0)%nat in g by lia. rewrite f2 in g. cbn in g. congruence.
      + replace k with (length e1 + 1)%nat in g by lia. rewrite f2 in g. cbn in g. congruence.
      + replace k with (length e1 + (2 + (k - 2 - length e1)))%nat in g by lia. rewrite f2 in g. cbn [app nth_error Nat.add] in g. exact (nth_error_In _ _ g).
    - intros e he. destruct (In_nth_error _ _ he) as [k hk]. assert (hlt : (k < length e1)%nat) by (apply nth_error_Some; congruence). exists k.
      rewrite <- f1 in hk by exact hlt. assert (S k < length rn)%nat by lia. rewrite l2 in hk by assumption. split; [lia|]. split; [assumption|congruence].
    - intros e he. destruct (In_nth_error _ _ he) as [k hk]. assert (hlt : (k < length e2)%nat) by (apply nth_error_Some; congruence). exists (length e1 + (2 + k))%nat.
      assert (hk' : nth_error (jn_rail_els j) (length e1 + (2 + k)) = Some e) by (rewrite f2; exact hk).
      assert (S (length e1 + (2 + k)) < length rn)%nat by lia. rewrite l2 in hk' by assumption. split; [lia|]. split; [assumption|congruence].
  Qed.

  (** the energy of the whole track *)
  Lemma h_total : exists e1 ea eb e2 s,
    (f = 0 -> fixity EI l (Some s) = 0) /\ (0 < f -> 0 < fixity EI l (Some s)) /\ placed e1 ea eb e2 /\
    forall u, nsum (map (fun p => part_form aux_stiffness ns u (settled ns p)) ps) =
      nsum (map (bent None None u) e1) + bent None (Some s) u ea + bent (Some s) None u eb + nsum (map (bent None None u) e2) + springs_energy u.
  Proof.
    destruct h_pieces as [n1 [e1 [ea [eb [n2 [e2 [s [h1 [h2 [g1 [g2 [g3 [pieces [g4 [g5 [g6 g7]]]]]]]]]]]]]]]].
    exists e1, ea, eb, e2, s. split; [exact h1|]. split; [exact h2|]. split; [apply h_placed; assumption|]. intros u.
    rewrite g4, map_app, nsum_app, h_others. rewrite <- (map_map (settled ns) (part_form aux_stiffness ns u)), g7. cbn [map nsum fold_right].
    rewrite !h_form by (intros e he; rewrite g1, !in_app_iff; cbn [In] in *; tauto). cbn [map nsum fold_right]. rnum. ring.
  Qed.

  Lemma springs_energy_nonneg u : 0 <= nsum (map (spring_energy (fst (fst pad)) u) (jn_pad_els j)) /\
    0 <= nsum (map (fun q => nsum (map (spring_energy (fst (fst (snd q))) u) (snd (fst q)))) (combine (jn_soil j) soils)).
  Proof.
    split; [apply sum_nonneg; intros; apply spring_energy_nonneg; destruct hpad as [h _]; lra|]. eapply soil_total_nonneg; eassumption.
  Qed.

  (** ** a field without energy *)

  Lemma h_no_energy u :
    nsum (map (fun p => part_form aux_stiffness ns u (settled ns p)) ps) = 0 ->
    (forall part e, In part (jn_soil j) -> In e (snd part) -> u (snd e) DY = 0) ->
    ((forall p q, In (p, q) (jn_pad_els j) -> u q DY = u p DY) /\ (forall q, In q (jn_sleepers j) -> u q DY = 0)) /\
    forall k, (S k < length rn)%nat -> let p := nth k rn 0%nat in let q := nth (S k) rn 0%nat in
      u q DX = u p DX /\ (k <> i -> u q DY = u p DY + l * u p DR) /\ (S k <> i -> u q DY = u p DY + l * u q DR) /\
      ((S k <> i /\ k <> i) \/ 0 < f -> u q DR = u p DR).
  Proof.
    intros e hbot. destruct h_total as [e1 [ea [eb [e2 [s [_ [h2 [[h3 _] h4]]]]]]]]. rewrite h4 in e.
    assert (n1 : 0 <= nsum (map (bent None None u) e1)) by (apply sum_nonneg; intros; apply bent_nonneg).
    assert (n2 : 0 <= nsum (map (bent None None u) e2)) by (apply sum_nonneg; intros; apply bent_nonneg).
    pose proof (bent_nonneg None (Some s) u ea) as n3. pose proof (bent_nonneg (Some s) None u eb) as n4. destruct (springs_energy_nonneg u) as [n5 n6]. unfold springs_energy in e.
    split.
    - destruct (line_supports j pad soils hpad hsoils hcount u); [lra|lra|exact hbot|exact (ln_on _ _ _ _ hline)|]. split; assumption.
    - intros k hk p q. specialize (h3 k hk). cbv zeta in h3. fold p q in h3. destruct h3 as [q1 [q2 [q3 q4]]].
      pose proof h_EA as hA. pose proof h_EI as hI. pose proof h_l as hl0. pose proof h_phi as hphi.
      assert (full : bent None None u (p, q) = 0 -> u q DX = u p DX /\ u q DY = u p DY + l * u p DR /\ u q DR = u p DR).
      { intros z. unfold bent in z. rewrite fixity_none in z. destruct (rigid_first EA l EI phi 1 _ hA hl0 hI hphi ltac:(lra) z) as [r1 [r2 r3]].
        unfold local6, along, across in r1, r2, r3. cbn [vec6 fst snd] in r1, r2, r3. rewrite cos_0, sin_0 in r1, r2. split; [lra|]. split; [lra|]. apply r3. lra. }
      assert (cases : (S k < i \/ i < k)%nat \/ S k = i \/ k = i) by lia. destruct cases as [hc|[hc|hc]].
      + destruct full as [r1 [r2 r3]]; [|split; [exact r1|]; split; [auto|]; split; [rewrite r3; auto|auto]].
        destruct hc as [hc|hc]; [apply (nsum_nonneg_zero (bent None None u) e1)|apply (nsum_nonneg_zero (bent None None u) e2)]; auto; try lra; intros; apply bent_nonneg.
      + assert (z : bent None (Some s) u (p, q) = 0) by (rewrite (q2 hc); lra). unfold bent in z. rewrite fixity_none in z.
        destruct (rigid_first EA l EI phi _ _ hA hl0 hI hphi (fixity_range EI l (Some s) hI hl0) z) as [r1 [r2 r3]].
        unfold local6, along, across in r1, r2, r3. cbn [vec6 fst snd] in r1, r2, r3. rewrite cos_0, sin_0 in r1, r2. split; [lra|]. split; [intros _; lra|]. split; [intros z'; contradiction|].
        intros [[z' _]|hf0]; [contradiction|]. apply r3. apply h2. exact hf0.
      + assert (z : bent (Some s) None u (p, q) = 0) by (rewrite (q3 hc); lra). unfold bent in z. rewrite fixity_none in z.
        destruct (rigid_second EA l EI phi _ _ hA hl0 hI hphi (fixity_range EI l (Some s) hI hl0) z) as [r1 [r2 r3]].
        unfold local6, along, across in r1, r2, r3. cbn [vec6 fst snd] in r1, r2, r3. rewrite cos_0, sin_0 in r1, r2. split; [lra|]. split; [intros z'; contradiction|]. split; [intros _; lra|].
        intros [[_ z']|hf0]; [contradiction|]. symmetry. apply r3. apply h2. exact hf0.
  Qed.

  (** with some stiffness in the hinge the rail is at rest *)
  Lemma h_still u : 0 < f ->
    nsum (map (fun p => part_form aux_stiffness ns u (settled ns p)) ps) = 0 ->
    (forall part e, In part (jn_soil j) -> In e (snd part) -> u (snd e) DY = 0) -> (exists p, In p rn /\ u p DX = 0) ->
    (forall p e, In p rn -> u p e = 0) /\ (forall q, In q (jn_sleepers j) -> u q DY = 0).
  Proof.
    intros hf0 e hbot hx. destruct (h_no_energy u e hbot) as [[z2 z3] z1]. split; [|exact z3].
    pose proof h_l as hl0. pose proof hline as hline'. destruct hline'. eapply line_still; try eassumption.
    intros k hk. destruct (z1 k hk) as [r1 [r2 [r3 r4]]]. split; [exact r1|]. split; [apply r4; auto|]. destruct (Nat.eq_dec k i) as [->|hk']; [|apply r2; exact hk'].
    fold rn. rewrite <- (r4 (or_intror hf0)). apply r3. lia.
  Qed.

  (** shape of a field without energy on both sides of the hinge *)
  Lemma h_pieces_straight u :
    (forall k, (S k < length rn)%nat -> let p := nth k rn 0%nat in let q := nth (S k) rn 0%nat in
      u q DX = u p DX /\ (k <> i -> u q DY = u p DY + l * u p DR) /\ (S k <> i -> u q DY = u p DY + l * u q DR) /\
      ((S k <> i /\ k <> i) \/ 0 < f -> u q DR = u p DR)) ->
    let at_ k d := u (nth k rn 0%nat) d in
    (forall k, (k < length rn)%nat -> at_ k DX = at_ 0%nat DX) /\
    (forall k, (k < i)%nat -> at_ k DR = at_ 0%nat DR) /\ (forall k, (k <= i)%nat -> at_ k DY = at_ 0%nat DY + INR k * l * at_ 0%nat DR) /\
    (forall k, (i < k < length rn)%nat -> at_ k DR = at_ (S i) DR) /\ (forall k, (i <= k < length rn)%nat -> at_ k DY = at_ i DY + (INR k - INR i) * l * at_ (S i) DR).
  Proof.
    intros z1 at_. destruct hat as [t1 [t2 _]]. fold rn in t2.
    assert (a1 : forall k, (k < length rn)%nat -> at_ k DX = at_ 0%nat DX).
    { induction k as [|k IH]; intros hk; [reflexivity|]. destruct (z1 k hk) as [r1 _]. fold (at_ (S k) DX) (at_ k DX) in r1. rewrite r1. apply IH. lia. }
    assert (a2 : forall k, (k < i)%nat -> at_ k DR = at_ 0%nat DR).
    { induction k as [|k IH]; intros hk; [reflexivity|]. destruct (z1 k ltac:(lia)) as [_ [_ [_ r]]]. fold (at_ (S k) DR) (at_ k DR) in r. rewrite r by lia. apply IH. lia. }
    assert (a3 : forall k, (k <= i)%nat -> at_ k DY = at_ 0%nat DY + INR k * l * at_ 0%nat DR).
    { induction k as [|k IH]; intros hk; [cbn; ring|]. destruct (z1 k ltac:(lia)) as [_ [r _]]. fold (at_ (S k) DY) (at_ k DY) (at_ k DR) in r. rewrite r by lia. rewrite IH, (a2 k), S_INR by lia. ring. }
    assert (a4 : forall k, (S i + k < length rn)%nat -> at_ (S i + k)%nat DR = at_ (S i) DR).
    { induction k as [|k IH]; intros hk; [f_equal; lia|]. destruct (z1 (S i + k)%nat ltac:(lia)) as [_ [_ [_ r]]]. fold (at_ (S (S i + k)) DR) (at_ (S i + k)%nat DR) in r.
      replace (S i + S k)%nat with (S (S i + k)) by lia. rewrite r by lia. apply IH. lia. }
    assert (a5 : forall k, (i + k < length rn)%nat -> at_ (i + k)%nat DY = at_ i DY + INR k * l * at_ (S i) DR).
    { induction k as [|k IH]; intros hk; [replace (i + 0)%nat with i by lia; cbn; ring|]. destruct (z1 (i + k)%nat ltac:(lia)) as [_ [_ [r _]]].
      fold (at_ (S (i + k)) DY) (at_ (i + k)%nat DY) (at_ (S (i + k)) DR) in r. replace (i + S k)%nat with (S (i + k)) by lia. rewrite r by lia. rewrite IH by lia.
      replace (S (i + k)) with (S i + k)%nat by lia. rewrite a4, S_INR by lia. ring. }
    split; [exact a1|]. split; [exact a2|]. split; [exact a3|]. split; intros k hk.
    - replace k with (S i + (k - S i))%nat by lia. apply a4. lia.
    - replace k with (i + (k - i))%nat at 1 by lia. rewrite a5 by lia. rewrite minus_INR by lia. reflexivity.
  Qed.

  Lemma h_x k : (k < length rn)%nat -> tx (c (nth k rn 0%nat)) = INR k * l.
  Proof. intros hk. unfold rn. rewrite (ln_rail _ _ _ _ hline k hk). reflexivity. Qed.
  (** without stiffness in the hinge the two pieces are at rest when they rest on the sleepers *)
  Lemma h_still_free u :
    nsum (map (fun p => part_form aux_stiffness ns u (settled ns p)) ps) = 0 ->
    (forall part e, In part (jn_soil j) -> In e (snd part) -> u (snd e) DY = 0) -> (exists p, In p rn /\ u p DX = 0) ->
    rests_apart c (jn_sleepers j) (tx (c (nth i rn 0%nat))) -> u (nth i rn 0%nat) DR = 0 ->
    (forall p e, In p rn -> u p e = 0) /\ (forall q, In q (jn_sleepers j) -> u q DY = 0).
  Proof.
    intros e hbot [p0 [hp0 hx0]] [s1 [s2 [s3 [hs1 [hs2 [hs3 [hne hside]]]]]]] hrot. destruct (h_no_energy u e hbot) as [[z2 z3] z1]. split; [|exact z3].
    destruct (h_pieces_straight u z1) as [b1 [b2 [b3 [b4 b5]]]]. cbv zeta in b1, b2, b3, b4, b5. destruct hat as [t1 [t2 _]]. fold rn in t2.
    pose proof h_l as hl0. rewrite (h_x i) in hside by lia.
    set (Y := u (nth 0 rn 0%nat) DY) in *. set (A := u (nth 0 rn 0%nat) DR) in *. set (B := u (nth (S i) rn 0%nat) DR) in *. set (H := u (nth i rn 0%nat) DY) in *.
    assert (place : forall q, In q (jn_sleepers j) -> exists k, (k < length rn)%nat /\ tx (c q) = INR k * l /\ u (nth k rn 0%nat) DY = 0).
    { intros q hq. destruct (ln_sleepers _ _ _ _ hline q hq) as [_ [p hp]]. destruct (ln_pads _ _ _ _ hline p q hp) as [h1 [_ h3]]. destruct (In_nth _ p 0%nat h1) as [k [hk ek]].
      fold rn in hk, ek. exists k. split; [exact hk|]. rewrite <- h3, <- ek. rewrite (h_x k hk). split; [reflexivity|]. rewrite ek, <- (z2 p q hp). apply z3. exact hq. }
    destruct (place s1 hs1) as [k1 [m1 [x1 y1]]]. destruct (place s2 hs2) as [k2 [m2 [x2 y2]]]. destruct (place s3 hs3) as [k3 [m3 [x3 y3]]]. rewrite x1, x2, x3 in hside. rewrite x1, x2 in hne.
    assert (le : forall a b, INR a * l <= INR b * l -> (a <= b)%nat) by (intros a b g; apply INR_le; apply (Rmult_le_reg_r l); assumption).
    assert (lt : forall a b, INR a * l < INR b * l -> (a < b)%nat) by (intros a b g; apply INR_lt; apply (Rmult_lt_reg_r l); assumption).
    assert (zero : Y = 0 /\ A = 0 /\ B = 0 /\ H = 0).
    { destruct hside as [[c1 [c2 c3]]|[c1 [c2 c3]]].
      - apply le in c1. apply le in c2. apply lt in c3. rewrite b3 in y1, y2 by assumption. rewrite b5 in y3 by lia.
        assert (zA : A = 0). { assert (g : (INR k1 * l - INR k2 * l) * A = 0) by lra. apply Rmult_integral in g. destruct g; lra. }
        assert (zY : Y = 0) by (rewrite zA in y1; lra). assert (zH : H = 0) by (unfold H; rewrite (b3 i) by lia; rewrite zA, zY; ring).
        apply lt_INR in c3. assert (g : (INR k3 - INR i) * l * B = 0) by lra. apply Rmult_integral in g. destruct g as [g|g]; [|auto]. apply Rmult_integral in g. destruct g; lra.
      - apply le in c1. apply le in c2. apply lt in c3. rewrite b5 in y1, y2 by lia. rewrite b3 in y3 by lia.
        assert (zB : B = 0). { assert (g : (INR k1 * l - INR k2 * l) * B = 0) by lra. apply Rmult_integral in g. destruct g; lra. }
        assert (zH : H = 0) by (rewrite zB in y1; lra). pose proof (b3 i ltac:(lia)) as hH. fold H in hH. rewrite zH in hH.
        apply lt_INR in c3. assert (g : (INR i - INR k3) * l * A = 0) by lra. apply Rmult_integral in g.
        assert (zA : A = 0) by (destruct g as [g|g]; [apply Rmult_integral in g; destruct g; lra|exact g]). rewrite zA in hH. split; [lra|]. auto. }
    destruct zero as [zY [zA [zB zH]]].
    assert (zX : u (nth 0 rn 0%nat) DX = 0) by (destruct (In_nth _ p0 0%nat hp0) as [k [hk ek]]; rewrite <- (b1 k hk), ek; exact hx0).
    intros p d hp. destruct (In_nth _ p 0%nat hp) as [k [hk <-]]. destruct d.
    - rewrite b1 by exact hk. exact zX.
    - destruct (Nat.le_gt_cases k i) as [g|g]; [rewrite b3 by exact g; rewrite zY, zA; ring|rewrite b5 by lia; rewrite zH, zB; ring].
    - assert (cases : (k < i \/ k = i \/ i < k)%nat) by lia. destruct cases as [g|[g|g]]; [rewrite b2 by exact g; exact zA|subst k; exact hrot|rewrite b4 by lia; exact zB].
  Qed.

  (** ** degrees of freedom that are removed *)

  Lemma bent_values s s' u e : bent s s' u e =
    let a1 := fixity EI l s in let a2 := fixity EI l s' in
    let p1 := u (fst e) DR + (u (fst e) DY - u (snd e) DY) / l in let p2 := u (snd e) DR + (u (fst e) DY - u (snd e) DY) / l in
    EA / l * ((u (snd e) DX - u (fst e) DX) * (u (snd e) DX - u (fst e) DX)) +
    12 * EI / ((1 + phi) * l * (4 - a1 * a2)) * (a1 * (p1 * p1) + a1 * a2 * (p1 * p2) + a2 * (p2 * p2)) +
    3 * phi * EI / ((1 + phi) * l * (4 - a1 * a2)) * (a1 * (u (fst e) DR * u (fst e) DR) - 2 * (a1 * a2) * (u (fst e) DR * u (snd e) DR) + a2 * (u (snd e) DR * u (snd e) DR)).
  Proof.
    pose proof (fixity_range EI l s h_EI h_l) as r1. pose proof (fixity_range EI l s' h_EI h_l) as r2. pose proof h_phi as hphi. pose proof h_l as hl0.
    unfold bent. cbv zeta. set (a1 := fixity EI l s) in *. set (a2 := fixity EI l s') in *. rewrite stiff_energy by nra. cbv zeta. unfold local6, along, across. cbn [vec6]. rewrite cos_0, sin_0.
    replace (1 * u (fst e) DX - 0 * u (fst e) DY) with (u (fst e) DX) by ring. replace (1 * u (snd e) DX - 0 * u (snd e) DY) with (u (snd e) DX) by ring.
    replace (0 * u (fst e) DX + 1 * u (fst e) DY) with (u (fst e) DY) by ring. replace (0 * u (snd e) DX + 1 * u (snd e) DY) with (u (snd e) DY) by ring. reflexivity.
  Qed.
  Lemma bent_elsewhere s s' p d e : p <> fst e -> p <> snd e -> bent s s' (unit_field p d) e = 0.
  Proof. intros h1 h2. rewrite bent_values. cbv zeta. rewrite !unit_elsewhere by assumption. unfold Rdiv. ring. Qed.
  Lemma springs_across p d : d <> DY -> springs_energy (unit_field p d) = 0.
  Proof.
    intros hd. unfold springs_energy. rewrite !sum_none; [rnum; ring| |].
    - intros q _. apply sum_none. intros e _. unfold spring_energy. rewrite !unit_across by exact hd. ring.
    - intros e _. unfold spring_energy. rewrite !unit_across by exact hd. ring.
  Qed.
  Lemma rn_distinct a b : (a < length rn)%nat -> (b < length rn)%nat -> nth a rn 0%nat = nth b rn 0%nat -> a = b.
  Proof.
    intros h1 h2 e. pose proof (h_x a h1) as e1. rewrite e, (h_x b h2) in e1.
    pose proof h_l. assert (INR b = INR a) by nra. symmetry. apply INR_eq. assumption.
  Qed.
  Lemma h_unused p d : ~ In p rn -> d <> DY -> nsum (map (fun q => part_form aux_stiffness ns (unit_field p d) (settled ns q)) ps) = 0.
  Proof.
    intros hp hd. destruct h_total as [e1 [ea [eb [e2 [s [_ [_ [[h3 [h5 h6]] h4]]]]]]]]. rewrite h4, springs_across by exact hd. destruct hat as [t1 [t2 _]]. fold rn in t2.
    assert (away : forall k, (k < length rn)%nat -> p <> nth k rn 0%nat) by (intros k hk z; apply hp; rewrite z; apply h_in; exact hk).
    destruct (h3 (i - 1)%nat ltac:(lia)) as [_ [qa _]]. rewrite <- qa by lia. destruct (h3 i ltac:(lia)) as [_ [_ [qb _]]]. rewrite <- qb by reflexivity.
    rewrite !sum_none; [rewrite !bent_elsewhere by (cbn [fst snd]; apply away; lia); rnum; ring| |].
    - intros e he. destruct (h6 e he) as [k [_ [hk ->]]]. apply bent_elsewhere; cbn [fst snd]; apply away; lia.
    - intros e he. destruct (h5 e he) as [k [_ [hk ->]]]. apply bent_elsewhere; cbn [fst snd]; apply away; lia.
  Qed.
  Lemma h_loose : f = 0 -> nsum (map (fun q => part_form aux_stiffness ns (unit_field (nth i rn 0%nat) DR) (settled ns q)) ps) = 0.
  Proof.
    intros hf0. destruct h_total as [e1 [ea [eb [e2 [s [h1 [_ [[h3 [h5 h6]] h4]]]]]]]]. rewrite h4, springs_across by discriminate. destruct hat as [t1 [t2 _]]. fold rn in t2.
    assert (away : forall k, (k < length rn)%nat -> k <> i -> nth i rn 0%nat <> nth k rn 0%nat) by (intros k hk hki z; apply rn_distinct in z; lia).
    destruct (h3 (i - 1)%nat ltac:(lia)) as [_ [qa _]]. rewrite <- qa by lia. destruct (h3 i ltac:(lia)) as [_ [_ [qb _]]]. rewrite <- qb by reflexivity.
    rewrite !sum_none.
    - rewrite !bent_values. cbv zeta. cbn [fst snd]. rewrite (h1 hf0). replace (S (i - 1)) with i by lia.
      rewrite !(unit_across (nth i rn 0%nat) DR _ DX), !(unit_across (nth i rn 0%nat) DR _ DY) by discriminate.
      rewrite (unit_elsewhere _ _ (nth (i - 1) rn 0%nat)) by (apply away; lia). rewrite (unit_elsewhere _ _ (nth (S i) rn 0%nat)) by (apply away; lia). unfold Rdiv. rnum. ring.
    - intros e he. destruct (h6 e he) as [k [hki [hk ->]]]. apply bent_elsewhere; cbn [fst snd]; apply away; lia.
    - intros e he. destruct (h5 e he) as [k [hki [hk ->]]]. apply bent_elsewhere; cbn [fst snd]; apply away; lia.
  Qed.
  Lemma h_removed ls cs da s ns' k p d : initialise_system ns ps ls cs da = Ok (s, ns', k) ->
    nsum (map (fun q => part_form aux_stiffness ns (unit_field p d) (settled ns q)) ps) = 0 -> number_of ns' p d = None.
  Proof.
    intros h h0. destruct (initialise_inv _ _ _ _ _ _ _ _ h) as [s0 [_ [e0 _]]]. destruct (initialise_kept _ _ _ _ _ _ _ _ _ h e0) as [hl' [_ [hk _]]].
    destruct (number_of ns' p d) as [q|] eqn:ei; [|reflexivity]. exfalso.
    assert (hr : (p < length ns)%nat) by (rewrite <- hl'; eapply number_of_bound; eauto).
    destruct (assemble_diag ns ps ls s0 _ p d h_shaped e0 hr) as [k1 _]. rewrite h0 in k1.
    destruct (hk p d hr) as [g _]. destruct g as [_ [_ g]]; [congruence|]. change (match d with DX => 0%nat | DY => 1%nat | DR => 2%nat end) with (dir_idx d) in g.
    rewrite k1, Rabs_R0 in g. lra.
  Qed.

  (** ** definiteness *)
  Lemma h_definite ls cs da s ns' k x : initialise_system ns ps ls cs da = Ok (s, ns', k) ->
    (forall part e, In part (jn_soil j) -> In e (snd part) -> number_of ns' (snd e) DY = None) -> (exists p, In p rn /\ number_of ns' p DX = None) ->
    0 < f \/ rests_apart c (jn_sleepers j) (tx (c (nth i rn 0%nat))) ->
    quad k (me (gK s)) x = 0 -> forall q, (q < k)%nat -> x q = 0.
  Proof.
    intros h hbot [p0 [hp0 hx]] hsup e q hq. destruct (initialise_inv _ _ _ _ _ _ _ _ h) as [s0 [_ [e0 _]]]. destruct (initialise_kept _ _ _ _ _ _ _ _ _ h e0) as [hl' [hnum [_ _]]].
    destruct (initialise_energy _ _ _ _ _ _ _ _ x h_shaped h) as [he _]. rewrite he in e.
    assert (b1 : forall part e, In part (jn_soil j) -> In e (snd part) -> field_of ns' x (snd e) DY = 0) by (intros part a h1 h2; unfold field_of; rewrite (hbot part a h1 h2); reflexivity).
    assert (b2 : exists p, In p rn /\ field_of ns' x p DX = 0) by (exists p0; split; [exact hp0|]; unfold field_of; rewrite hx; reflexivity).
    assert (b3 : (forall p d, In p rn -> field_of ns' x p d = 0) /\ (forall p, In p (jn_sleepers j) -> field_of ns' x p DY = 0)).
    { destruct (Rle_lt_or_eq_dec 0 f hf) as [hf0|hf0]; [apply h_still; assumption|]. destruct hsup as [hsup|hsup]; [lra|]. apply h_still_free; try assumption.
      unfold field_of. rewrite (h_removed _ _ _ _ _ _ _ DR h); [reflexivity|]. apply h_loose. symmetry. exact hf0. }
    destruct b3 as [z1 z2].
    assert (hin : In q (all_numbers ns')) by (rewrite hnum; apply in_seq; lia). apply all_numbers_In in hin. destruct hin as [p [d hp]].
    assert (hr : (p < N)%nat) by (rewrite <- h_length, <- hl'; eapply number_of_bound; eauto).
    assert (hv : field_of ns' x p d = x q) by (unfold field_of; rewrite hp; reflexivity). rewrite <- hv.
    destruct (in_dec Nat.eq_dec p rn) as [g|g]; [apply z1; exact g|].
    assert (hd : d = DY). { destruct d; [|reflexivity|]; rewrite (h_removed _ _ _ _ _ _ p _ h) in hp by (apply h_unused; [exact g|discriminate]); discriminate. }
    subst d. apply (ln_below _ _ _ _ hline) in hr. destruct hr as [hr|[hr|[part [e' [h1 [h2 ->]]]]]]; [contradiction|apply z2; exact hr|]. rewrite (hbot part e' h1 h2) in hp. discriminate.
  Qed.

  (** ** degrees of freedom that are kept *)

  Lemma h_piece_of k : (S k < length rn)%nat -> let e := (nth k rn 0%nat, nth (S k) rn 0%nat) in
    exists p s s' n es, In p ps /\ settled ns p = mkPart (KRail (bm s s')) n es /\ (s = None \/ k = i) /\ (s' = None \/ S k = i) /\ In e es /\ (forall e, In e es -> In e (jn_rail_els j)).
  Proof.
    intros hk e. destruct h_pieces as [n1 [e1 [ea [eb [n2 [e2 [s [_ [_ [g1 [g2 [g3 [pieces [g4 [g5 [g6 g7]]]]]]]]]]]]]]]].
    destruct (h_placed e1 ea eb e2 g1 g2) as [h3 _]. specialize (h3 k hk). cbv zeta in h3. fold e in h3. destruct h3 as [q1 [q2 [q3 q4]]].
    assert (hin : forall q, In q (map (settled ns) pieces) -> exists p, In p ps /\ settled ns p = q).
    { intros q hq. apply in_map_iff in hq. destruct hq as [p [hp1 hp2]]. exists p. split; [rewrite g4; apply in_or_app; left; exact hp2|exact hp1]. }
    rewrite g7 in hin. assert (cases : (S k < i \/ S k = i \/ k = i \/ i < k)%nat) by lia. destruct cases as [hc|[hc|[hc|hc]]].
    - destruct (hin _ (or_introl eq_refl)) as [p [p1 p2]]. exists p, None, None, n1, e1. repeat split; auto. intros e' he'. rewrite g1, !in_app_iff. auto.
    - destruct (hin _ (or_intror (or_introl eq_refl))) as [p [p1 p2]]. exists p, None, (Some s), [fst ea; snd ea], [ea]. repeat split; auto; [left; symmetry; auto|]. intros e' [<-|[]]. rewrite g1, !in_app_iff. cbn [In]. auto.
    - destruct (hin _ (or_intror (or_intror (or_introl eq_refl)))) as [p [p1 p2]]. exists p, (Some s), None, [fst eb; snd eb], [eb]. repeat split; auto; [left; symmetry; auto|]. intros e' [<-|[]]. rewrite g1, !in_app_iff. cbn [In]. auto.
    - destruct (hin _ (or_intror (or_intror (or_intror (or_introl eq_refl))))) as [p [p1 p2]]. exists p, None, None, n2, e2. repeat split; auto. intros e' he'. rewrite g1, !in_app_iff. auto.
  Qed.
  Lemma h_below aux u p : aux = aux_stiffness \/ aux = aux_mass \/ aux = aux_damping -> In p ps ->
    part_form aux ns u (settled ns p) <= nsum (map (fun q => part_form aux ns u (settled ns q)) ps).
  Proof.
    intros ha hp. apply (nsum_ge (fun q => part_form aux ns u (settled ns q))); [|exact hp]. intros q hin. apply part_form_nonneg; [exact ha|].
    pose proof h_sounds as hs. rewrite Forall_forall in hs. apply hs. exact hin.
  Qed.
  (** an element of the rail at a node *)
  Lemma h_element p : In p rn -> exists k, (S k < length rn)%nat /\ (p = nth k rn 0%nat \/ p = nth (S k) rn 0%nat).
  Proof.
    intros hp. destruct (In_nth _ p 0%nat hp) as [k [hk <-]]. destruct hat as [t1 [t2 _]]. fold rn in t2. destruct (Nat.lt_ge_cases (S k) (length rn)) as [g|g]; [exists k; auto|].
    exists (k - 1)%nat. split; [lia|]. right. f_equal. lia.
  Qed.
  Lemma unit_local p d k m : (S k < length rn)%nat -> (p = nth k rn 0%nat /\ m = dir_idx d \/ p = nth (S k) rn 0%nat /\ m = (3 + dir_idx d)%nat) ->
    forall q, (q < 6)%nat -> local6 0 (unit_field p d) (nth k rn 0%nat) (nth (S k) rn 0%nat) q = if Nat.eqb m q then 1 else 0.
  Proof.
    intros hk hp q hq. assert (hne : nth k rn 0%nat <> nth (S k) rn 0%nat) by (intros z; apply rn_distinct in z; lia).
    assert (v : forall r d', unit_field p d r d' = if Nat.eqb p r then match d, d' with DX, DX | DY, DY | DR, DR => 1 | _, _ => 0 end else 0).
    { intros r d'. destruct (Nat.eqb_spec p r) as [->|hpr]; [|apply unit_elsewhere; exact hpr]. destruct d, d'; try apply unit_at; apply unit_across; discriminate. }
    unfold local6, along, across. rewrite cos_0, sin_0, !v.
    destruct hp as [[-> ->]|[-> ->]]; rewrite Nat.eqb_refl; [rewrite (proj2 (Nat.eqb_neq _ _) hne)|rewrite (proj2 (Nat.eqb_neq _ _) (not_eq_sym hne))];
      destruct d; do 6 (destruct q as [|q]; [cbn; ring|]); lia.
  Qed.
  Lemma h_diag_el k p d m : (S k < length rn)%nat -> (p = nth k rn 0%nat /\ m = dir_idx d \/ p = nth (S k) rn 0%nat /\ m = (3 + dir_idx d)%nat) ->
    exists s s', (s = None \/ k = i) /\ (s' = None \/ S k = i) /\
    stiff_entries EA l EI phi (fixity EI l s) (fixity EI l s') m m <= nsum (map (fun q => part_form aux_stiffness ns (unit_field p d) (settled ns q)) ps) /\
    beam_mass (bm None None) phi m m <= nsum (map (fun q => part_form aux_mass ns (unit_field p d) (settled ns q)) ps).
  Proof.
    intros hk hpm. destruct (h_piece_of k hk) as [a [s [s' [n [es [h1 [h2 [h3 [h3' [h4 h5]]]]]]]]]]. exists s, s'. split; [exact h3|]. split; [exact h3'|]. pose proof (unit_local p d k m hk hpm) as hu.
    assert (hm6 : (m < 6)%nat) by (destruct hpm as [[_ ->]|[_ ->]]; destruct d; cbn; lia). set (e := (nth k rn 0%nat, nth (S k) rn 0%nat)) in *. split.
    - eapply Rle_trans; [|apply (h_below aux_stiffness (unit_field p d) a); auto]. rewrite h2, h_form by exact h5.
      eapply Rle_trans; [|apply (nsum_ge (bent s s' (unit_field p d)) es e); [intros; apply bent_nonneg|exact h4]]. apply Req_le. unfold bent. cbn [e fst snd].
      rewrite (quad_ext_vec 6 _ _ _ hu). symmetry. apply quad_unit. exact hm6.
    - eapply Rle_trans; [|apply (h_below aux_mass (unit_field p d) a); auto]. rewrite h2. unfold part_form. cbn [ep_kind ep_els aux_mass element_form]. change (timoshenko_factor (lit 0) (bm s s')) with phi.
      destruct (h_sound s s') as [q1 [q2 [q3 [q4 [q5 q6]]]]]. pose proof h_phi as hphi.
      eapply Rle_trans; [|apply (nsum_ge (fun e => quad 6 (beam_mass (bm s s') phi) (local6 (calculate_rotation1 (xy ns (fst e), xy ns (snd e))) (unit_field p d) (fst e) (snd e))) es e);
        [intros; apply beam_mass_psd; try assumption; lra|exact h4]].
      rewrite (level_angle ns e) by (apply h_level, h5; exact h4). unfold e. cbn [fst snd]. rewrite (quad_ext_vec 6 _ _ _ hu), quad_unit by exact hm6. apply Req_le. reflexivity.
  Qed.
  Lemma h_diag p d : In p rn -> exists s s' m, (s = None \/ s' = None) /\ (m = dir_idx d \/ m = (3 + dir_idx d)%nat) /\
    stiff_entries EA l EI phi (fixity EI l s) (fixity EI l s') m m <= nsum (map (fun q => part_form aux_stiffness ns (unit_field p d) (settled ns q)) ps) /\
    beam_mass (bm None None) phi m m <= nsum (map (fun q => part_form aux_mass ns (unit_field p d) (settled ns q)) ps).
  Proof.
    intros hp. destruct (h_element p hp) as [k [hk hpk]].
    assert (hm : exists m, (m = dir_idx d \/ m = (3 + dir_idx d)%nat) /\ (p = nth k rn 0%nat /\ m = dir_idx d \/ p = nth (S k) rn 0%nat /\ m = (3 + dir_idx d)%nat)) by (destruct hpk; [exists (dir_idx d)|exists (3 + dir_idx d)%nat]; auto).
    destruct hm as [m [hm hpm]]. destruct (h_diag_el k p d m hk hpm) as [s [s' [h1 [h2 h3]]]]. exists s, s', m. split; [|split; [exact hm|exact h3]].
    destruct h1 as [h1|h1]; [auto|]. destruct h2 as [h2|h2]; [auto|lia].
  Qed.
  Lemma h_sleeper q : In q (jn_sleepers j) ->
    fst (fst pad) <= nsum (map (fun p => part_form aux_stiffness ns (unit_field q DY) (settled ns p)) ps) /\
    sleeper <= nsum (map (fun p => part_form aux_mass ns (unit_field q DY) (settled ns p)) ps).
  Proof.
    intros hq. destruct h_pieces as [n1 [e1 [ea [eb [n2 [e2 [s [_ [_ [g1 [g2 [g3 [pieces [g4 _]]]]]]]]]]]]]].
    assert (hin : forall p, In p others -> In p ps) by (intros p hp; rewrite g4; apply in_or_app; right; exact hp). destruct (line_heights _ _ _ _ hline) as [y1 [y2 _]]. split.
    - destruct (ln_sleepers _ _ _ _ hline q hq) as [_ [p hp]].
      eapply Rle_trans; [|apply (h_below aux_stiffness (unit_field q DY) (springs pad (jn_pad_nodes j) (jn_pad_els j))); [auto|apply hin; left; reflexivity]].
      assert (hkp : 0 < fst (fst pad)) by apply hpad.
      assert (hform : part_form aux_stiffness ns (unit_field q DY) (settled ns (springs pad (jn_pad_nodes j) (jn_pad_els j))) = nsum (map (spring_energy (fst (fst pad)) (unit_field q DY)) (jn_pad_els j))).
      { apply (spring_form c N). assert (g : Forall (upright ns) (joined_parts j rail pad sleeper soils)) by (eapply joined_upright; eassumption || apply h_l). exact (Forall_inv (Forall_inv_tail g)). }
      rewrite hform. eapply Rle_trans; [|apply (nsum_ge (spring_energy (fst (fst pad)) (unit_field q DY)) (jn_pad_els j) (p, q)); [intros; apply spring_energy_nonneg; lra|exact hp]].
      apply Req_le. unfold spring_energy. cbn [fst snd]. destruct (ln_pads _ _ _ _ hline p q hp) as [h1 _]. rewrite unit_at, unit_elsewhere; [ring|].
      intros z. subst p. apply y1 in h1. apply y2 in hq. lra.
    - eapply Rle_trans; [|apply (h_below aux_mass (unit_field q DY) (mkPart (KPoint sleeper) (jn_sleepers j) [])); [auto|apply hin; right; left; reflexivity]].
      unfold settled, part_form. cbn [ep_kind ep_nodes aux_mass].
      eapply Rle_trans; [|apply (nsum_ge (fun i => one_by_one sleeper 0%nat 0%nat * (unit_field q DY i DY * unit_field q DY i DY)) (jn_sleepers j) q); [intros; cbn; apply nonneg_square; exact hsl|exact hq]].
      rewrite unit_at. cbn. lra.
  Qed.
  Lemma h_kept_at ls cs da s ns' k p d : initialise_system ns ps ls cs da = Ok (s, ns', k) -> (p < N)%nat -> flag_after cs p d true = true ->
    1 / 100000000 < nsum (map (fun q => part_form aux_stiffness ns (unit_field p d) (settled ns q)) ps) ->
    1 / 100000000 < nsum (map (fun q => part_form aux_mass ns (unit_field p d) (settled ns q)) ps) -> number_of ns' p d <> None.
  Proof.
    intros h hp hflag h1 h2. destruct (initialise_inv _ _ _ _ _ _ _ _ h) as [s0 [_ [e0 _]]]. destruct (initialise_kept _ _ _ _ _ _ _ _ _ h e0) as [hl' [_ [hk _]]].
    assert (hr : (p < length ns)%nat) by (rewrite h_length; exact hp). specialize (hk p d hr). cbv zeta in hk. apply hk.
    assert (ha : active ns p d = true) by (eapply line_active; exact hr). rewrite ha.
    destruct (assemble_diag ns ps ls s0 _ p d h_shaped e0 hr) as [k1 k2]. change (match d with DX => 0%nat | DY => 1%nat | DR => 2%nat end) with (dir_idx d). rewrite k1, k2.
    split; [exact hflag|]. rewrite !Rabs_right by lra. lra.
  Qed.
  Lemma h_kept ls cs da s ns' k p : initialise_system ns ps ls cs da = Ok (s, ns', k) -> In p rn \/ In p (jn_sleepers j) -> flag_after cs p DY true = true ->
    1 / 100000000 < 3 * EI / ((1 + phi) * (l * l * l)) -> 1 / 100000000 < b_rho rail * b_A rail * l / 3 -> 1 / 100000000 < fst (fst pad) -> 1 / 100000000 < sleeper ->
    number_of ns' p DY <> None.
  Proof.
    intros h hp hflag h1 h2 h3 h4. assert (hr : (p < N)%nat) by (apply (ln_below _ _ _ _ hline); tauto). eapply h_kept_at; try eassumption; destruct hp as [hp|hp].
    - destruct (h_diag p DY hp) as [s1 [s2 [m [q1 [q2 [q3 _]]]]]]. eapply Rlt_le_trans; [exact h1|]. eapply Rle_trans; [|exact q3].
      destruct q1 as [-> | ->]; rewrite fixity_none.
      + eapply (side_stiff EA l EI phi (fixity EI l s2)); [apply h_l|apply h_EI|apply h_phi|apply fixity_range; apply h_EI || apply h_l|auto|exact q2].
      + eapply (side_stiff EA l EI phi (fixity EI l s1)); [apply h_l|apply h_EI|apply h_phi|apply fixity_range; apply h_EI || apply h_l|auto|exact q2].
    - destruct (h_sleeper p hp). lra.
    - destruct (h_diag p DY hp) as [s1 [s2 [m [_ [q2 [_ q4]]]]]]. eapply Rlt_le_trans; [exact h2|]. eapply Rle_trans; [|exact q4]. destruct (h_sound None None) as [b1 [b2 [b3 [b4 [b5 b6]]]]].
      exact (beam_mass_vertical (bm None None) phi m b4 h_phi b3 b2 b6 q2).
    - destruct (h_sleeper p hp). lra.
  Qed.

  (** ** a free end of the rail behind a hinge without stiffness *)
  Let xh := tx (c (nth i rn 0%nat)).
  Definition swing (p : nat) (d : dir) : R :=
    if in_dec Nat.eq_dec p rn then if Rlt_dec xh (tx (c p)) then match d with DX => 0 | DY => tx (c p) - xh | DR => 1 end else 0 else 0.
  Lemma swing_left k d : (k <= i)%nat -> swing (nth k rn 0%nat) d = 0.
  Proof.
    intros hk. destruct hat as [t1 [t2 _]]. fold rn in t2. unfold swing. destruct (in_dec _ _ _); [|reflexivity]. destruct (Rlt_dec _ _) as [g|g]; [|reflexivity]. exfalso.
    unfold xh in g. rewrite !h_x in g by lia. pose proof h_l. apply le_INR in hk. assert (INR k * l <= INR i * l) by (apply Rmult_le_compat_r; lra). lra.
  Qed.
  Lemma swing_right k d : (i < k < length rn)%nat -> swing (nth k rn 0%nat) d = match d with DX => 0 | DY => (INR k - INR i) * l | DR => 1 end.
  Proof.
    intros hk. destruct hat as [t1 [t2 _]]. fold rn in t2. unfold swing. destruct (in_dec _ _ _) as [hin|hin]; [|exfalso; apply hin, h_in; lia].
    unfold xh. rewrite !h_x by lia. destruct (Rlt_dec _ _) as [g|g]; [destruct d; ring|]. exfalso. apply g. apply Rmult_lt_compat_r; [apply h_l|apply lt_INR; lia].
  Qed.
  Lemma swing_free : phi = 0 -> f = 0 -> (forall q, In q (jn_sleepers j) -> tx (c q) <= xh) ->
    nsum (map (fun q => part_form aux_stiffness ns swing (settled ns q)) ps) = 0.
  Proof.
    intros hphi hf0 hsleep. destruct h_total as [e1 [ea [eb [e2 [s [h1 [_ [[h3 [h5 h6]] h4]]]]]]]]. rewrite h4. destruct hat as [t1 [t2 _]]. fold rn in t2. pose proof h_l as hl0. destruct (line_heights _ _ _ _ hline) as [y1 [y2 y3]].
    destruct (h3 (i - 1)%nat ltac:(lia)) as [_ [qa _]]. rewrite <- qa by lia. destruct (h3 i ltac:(lia)) as [_ [_ [qb _]]]. rewrite <- qb by reflexivity.
    assert (sl : forall q d, In q (jn_sleepers j) -> swing q d = 0).
    { intros q d hq. unfold swing. destruct (in_dec _ _ _) as [hin|]; [|reflexivity]. apply y1 in hin. apply y2 in hq. lra. }
    assert (e0 : springs_energy swing = 0).
    { unfold springs_energy. rewrite !sum_none; [rnum; ring| |].
      - intros q hq. destruct q as [part v]. apply in_combine_l in hq. apply sum_none. intros e he. cbn [fst] in he. unfold spring_energy. destruct (ln_soil _ _ _ _ hline part hq) as [_ g].
        destruct e as [p p']. destruct (g p p' he) as [g1 [g2 g3]]. cbn [fst snd]. rewrite (sl p) by exact g1.
        assert (z : swing p' DY = 0). { unfold swing. destruct (in_dec _ _ _) as [hin|]; [|reflexivity]. apply y1 in hin. lra. } rewrite z. ring.
      - intros [p q] he. destruct (ln_pads _ _ _ _ hline p q he) as [g1 [g2 g3]]. unfold spring_energy. cbn [fst snd]. rewrite (sl q) by exact g2.
        assert (z : swing p DY = 0). { unfold swing. destruct (in_dec _ _ _) as [hin|]; [|reflexivity]. destruct (Rlt_dec _ _) as [g|]; [|reflexivity]. apply hsleep in g2. lra. } rewrite z. ring. }
    rewrite e0. rewrite !sum_none.
    - rewrite !bent_values. cbv zeta. cbn [fst snd]. rewrite (h1 hf0), hphi. replace (S (i - 1)) with i by lia. rewrite !(swing_left (i - 1)), !(swing_left i), !swing_right by lia. rewrite S_INR.
      replace ((INR i + 1 - INR i) * l) with l by ring. replace (1 + (0 - l) / l) with 0 by (field; lra). unfold Rdiv. rnum. ring.
    - intros e he. destruct (h6 e he) as [k [hki [hk ->]]]. rewrite bent_values. cbv zeta. cbn [fst snd]. rewrite hphi, !swing_right by lia. rewrite S_INR.
      replace (1 + ((INR k - INR i) * l - (INR k + 1 - INR i) * l) / l) with 0 by (field; lra). unfold Rdiv. ring.
    - intros e he. destruct (h5 e he) as [k [hki [hk ->]]]. rewrite bent_values. cbv zeta. cbn [fst snd]. rewrite !swing_left by lia. unfold Rdiv. ring.
  Qed.
  Lemma h_turns ls cs da s ns' k q : initialise_system ns ps ls cs da = Ok (s, ns', k) -> phi = 0 -> (i < q < length rn)%nat -> flag_after cs (nth q rn 0%nat) DR true = true ->
    1 / 100000000 < 3 * EI / l -> 1 / 100000000 < b_rho rail * b_A rail * (l * l * l) / 105 -> number_of ns' (nth q rn 0%nat) DR <> None.
  Proof.
    intros h hphi hq hflag h1 h2. pose proof h_l as hl0. pose proof h_EI as hEI. destruct (h_diag_el (q - 1) (nth q rn 0%nat) DR 5) as [s1 [s2 [_ [g2 [g3 g4]]]]]; [lia|right; split; [f_equal; lia|reflexivity]|].
    destruct g2 as [-> |g2]; [|lia]. rewrite fixity_none in g3. pose proof (fixity_range EI l s1 hEI hl0) as ha. set (a := fixity EI l s1) in *. rewrite hphi in g3, g4.
    eapply h_kept_at; try eassumption.
    - apply h_range, h_in. lia.
    - eapply Rlt_le_trans; [exact h1|]. eapply Rle_trans; [|exact g3]. cbn [stiff_entries].
      match goal with |- _ <= ?r => replace r with (12 * EI / l * (1 / (4 - a))) by (field; nra) end.
      assert (g5 : 1 / 4 <= 1 / (4 - a)) by (apply Rmult_le_compat_l; [lra|apply Rinv_le_contravar; lra]).
      assert (g6 : 0 < 12 * EI / l) by (apply Rdiv_lt_0_compat; lra). replace (3 * EI / l) with (12 * EI / l * (1 / 4)) by (field; lra). apply Rmult_le_compat_l; lra.
    - eapply Rlt_le_trans; [exact h2|]. eapply Rle_trans; [|exact g4]. rewrite beam_mass_entries by lia. unfold mass_entries. destruct (Req_EM_T 0 0) as [_|z]; [|contradiction z; reflexivity].
      cbn [trans_entries bm b_l b_rho b_A]. apply Req_le. field.
  Qed.
  Lemma h_mechanism ls cs da s ns' k : initialise_system ns ps ls cs da = Ok (s, ns', k) -> phi = 0 -> f = 0 -> (forall q, In q (jn_sleepers j) -> tx (c q) <= xh) ->
    (forall p d, In p rn -> d <> DX -> flag_after cs p d true = true) ->
    1 / 100000000 < 3 * EI / (l * l * l) -> 1 / 100000000 < b_rho rail * b_A rail * l / 3 -> 1 / 100000000 < fst (fst pad) -> 1 / 100000000 < sleeper ->
    1 / 100000000 < 3 * EI / l -> 1 / 100000000 < b_rho rail * b_A rail * (l * l * l) / 105 ->
    exists x, (exists q, (q < k)%nat /\ x q <> 0) /\ quad k (me (gK s)) x = 0.
  Proof.
    intros h hphi hf0 hsleep hflag h1 h2 h3 h4 h5 h6. destruct hat as [t1 [t2 _]]. fold rn in t2. pose proof h_l as hl0.
    destruct (initialise_inv _ _ _ _ _ _ _ _ h) as [s0 [_ [e0 _]]]. destruct (initialise_kept _ _ _ _ _ _ _ _ _ h e0) as [_ [hnum _]].
    assert (kept : forall q d, (i < q < length rn)%nat -> d <> DX -> number_of ns' (nth q rn 0%nat) d <> None).
    { intros q d hq hd. destruct d; [contradiction hd; reflexivity| |].
      - eapply h_kept; try eassumption; [left; apply h_in; lia|apply hflag; [apply h_in; lia|discriminate]|rewrite hphi; replace ((1 + 0) * (l * l * l)) with (l * l * l) by ring; exact h1].
      - eapply h_turns; try eassumption. apply hflag; [apply h_in; lia|discriminate]. }
    assert (back : field_of ns' (gather ns' swing) = swing).
    { apply (gather_field ns' k); [exact hnum|]. intros p d hp. destruct (in_dec Nat.eq_dec p rn) as [hin|hin]; [|unfold swing; destruct (in_dec _ _ _); [contradiction|reflexivity]].
      destruct (In_nth _ p 0%nat hin) as [q [hq <-]]. destruct (Nat.le_gt_cases q i) as [g|g]; [apply swing_left; exact g|]. rewrite swing_right by lia.
      destruct d; [reflexivity| |]; exfalso; refine (kept q _ _ _ hp); try lia; discriminate. }
    exists (gather ns' swing). split.
    - destruct (number_of ns' (nth (S i) rn 0%nat) DR) as [q|] eqn:en; [|exfalso; refine (kept (S i) DR _ _ en); [lia|discriminate]].
      exists q. split; [eapply numbered_lt; eassumption|]. assert (v : field_of ns' (gather ns' swing) (nth (S i) rn 0%nat) DR = 1) by (rewrite back; apply swing_right; lia).
      unfold field_of in v. rewrite en in v. rewrite v. lra.
    - destruct (initialise_energy _ _ _ _ _ _ _ _ (gather ns' swing) h_shaped h) as [-> _]. rewrite back. apply swing_free; assumption.
  Qed.
End HingedTrack.
