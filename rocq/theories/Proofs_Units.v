(** * Lemmas about models written in other units of mass and time *)

From Coq Require Import Reals List Bool ZArith Arith Lia Lra.
From Verif Require Import Num PyBase Model_Geometry Model_System Spec_System Proofs_Dof Proofs_System Model_Element Spec_Element
  Proofs_Elements Proofs_Element Proofs_Beam Proofs_Force Model_Accumulation Proofs_Accumulation Model_Track Spec_Track Proofs_Track Proofs_Assembly
  Spec_Analytic Spec_Motion Proofs_Motion Spec_Chain Proofs_Chain Proofs_Moving Spec_Renumber Proofs_Renumber Spec_Units.
Import ListNotations.
Local Open Scope R_scope.

Lemma ratio c a b : c <> 0 -> c * a / (c * b) = a / b.
Proof. intros h. unfold Rdiv. rewrite Rinv_mult. transitivity (c * / c * (a * / b)); [ring|rewrite Rinv_r by exact h; ring]. Qed.

Section Units.
  Variables (mu th : R).
  Hypothesis mu_pos : 0 < mu.
  Hypothesis th_pos : 0 < th.
  Let ka := force_unit mu th.

  Lemma ka_pos : 0 < ka.
  Proof. unfold ka, force_unit. apply Rmult_lt_0_compat; [exact mu_pos|]. apply Rmult_lt_0_compat; exact th_pos. Qed.

  Lemma factor_in b : timoshenko_factor (lit 0) (beam_in mu th b) = timoshenko_factor (lit 0) b.
  Proof.
    pose proof ka_pos as hk. unfold timoshenko_factor, shear_modulus, beam_in, sq. cbn [b_E b_nu b_rho b_A b_I b_shear_factor b_l]. fold ka. destruct (nltb _ _); [|reflexivity]. rnum.
    match goal with |- ?a / ?b = ?c / ?d => replace a with (ka * c) by ring; replace b with (ka * d) by (unfold Rdiv; ring) end. apply ratio. lra.
  Qed.

  Lemma fixity_in EI l s : fixity (ka * EI) l (option_map (Rmult ka) s) = fixity EI l s.
  Proof.
    pose proof ka_pos as hk. destruct s as [s|]; [|reflexivity]. unfold fixity. cbn [option_map].
    assert (e : nltb (lit 0) (ka * s) = nltb (lit 0) s).
    { destruct (nltbP (lit 0) (ka * s)) as [h|h], (nltbP (lit 0) s) as [g|g]; try reflexivity; exfalso; change (lit 0) with (IZR 0) in *.
      - apply g. apply (Rmult_lt_reg_l ka); [exact hk|]. rewrite Rmult_0_r. exact h.
      - apply h. apply Rmult_lt_0_compat; assumption. }
    rewrite e. destruct (nltb (lit 0) s); [|reflexivity]. rnum.
    replace (3 * (ka * EI) / (ka * s * l)) with (3 * EI / (s * l)); [reflexivity|]. rewrite <- (ratio ka (3 * EI) (s * l)) by lra. f_equal; ring.
  Qed.

  Lemma stiffness_in b phi i j : (i < 6)%nat -> (j < 6)%nat -> beam_stiffness (beam_in mu th b) phi i j = ka * beam_stiffness b phi i j.
  Proof.
    intros hi hj. unfold beam_stiffness. cbv zeta. rewrite !reshape_all3 by assumption. cbn [beam_in b_E b_nu b_rho b_A b_I b_shear_factor b_l b_s1 b_s2]. fold ka.
    change (@nmul R RNum) with Rmult. rewrite (Rmult_assoc ka (b_E b) (b_I b)). rewrite !fixity_in. unfold mscale. rnum. unfold Rdiv. ring.
  Qed.

  Lemma mass_in b phi i j : (i < 6)%nat -> (j < 6)%nat -> beam_mass (beam_in mu th b) phi i j = mu * beam_mass b phi i j.
  Proof.
    intros hi hj.
    assert (t : trans_mass (beam_in mu th b) phi i j = mu * trans_mass b phi i j).
    { unfold trans_mass. cbv zeta. cbn [beam_in b_E b_nu b_rho b_A b_I b_shear_factor b_l b_s1 b_s2]. unfold mscale. rnum. unfold Rdiv. ring. }
    assert (r : rot_mass (beam_in mu th b) phi i j = mu * rot_mass b phi i j).
    { unfold rot_mass. cbv zeta. cbn [beam_in b_E b_nu b_rho b_A b_I b_shear_factor b_l b_s1 b_s2]. unfold mscale. rnum. unfold Rdiv. ring. }
    unfold beam_mass. destruct (negb _); rewrite ?t, ?r; rnum; ring.
  Qed.

  (** the unit of a matrix *)
  Definition has_unit (aux : kind R -> option (nat -> nat -> R)) (c : R) : Prop :=
    aux = aux_stiffness /\ c = ka \/ aux = aux_mass /\ c = mu \/ aux = aux_damping /\ c = mu * th.

  Definition times (c : R) (o o' : option (nat -> nat -> R)) : Prop :=
    match o, o' with
    | Some m, Some m' => forall i j, (i < 6)%nat -> (j < 6)%nat -> m' i j = c * m i j
    | None, None => True
    | _, _ => False
    end.

  Lemma aux_in aux c k : has_unit aux c -> times c (aux k) (aux (kind_in mu th k)).
  Proof.
    intros [[-> ->]|[[-> ->]|[-> ->]]]; destruct k as [s d m|b|b|m]; cbn [kind_in aux_stiffness aux_mass aux_damping].
    - destruct s as [s|]; cbn; [|exact I]. intros i j _ _. unfold mset, zeros. repeat destruct (_ && _)%bool; fold ka; rnum; ring.
    - intros i j hi hj. rewrite factor_in. apply stiffness_in; assumption.
    - intros i j hi hj. rewrite factor_in. apply stiffness_in; assumption.
    - intros i j _ _. unfold one_by_one, mset, zeros. destruct (_ && _)%bool; rnum; ring.
    - destruct m as [m|]; cbn; [|exact I]. intros i j _ _. unfold mscale, mset, zeros. repeat destruct (_ && _)%bool; rnum; unfold Rdiv; ring.
    - intros i j hi hj. rewrite factor_in. apply mass_in; assumption.
    - intros i j hi hj. rewrite factor_in. apply mass_in; assumption.
    - intros i j _ _. unfold one_by_one, mset, zeros. destruct (_ && _)%bool; rnum; ring.
    - destruct d as [d|]; cbn; [|exact I]. intros i j _ _. unfold mset, zeros. repeat destruct (_ && _)%bool; rnum; ring.
    - intros i j _ _. unfold beam_damping, zeros. rnum. ring.
    - intros i j _ _. unfold beam_damping, zeros. rnum. ring.
    - intros i j _ _. unfold one_by_one, mset, zeros. destruct (_ && _)%bool; rnum; ring.
  Qed.

  Lemma quad_times k c m m' u : (k <= 6)%nat -> (forall i j, (i < 6)%nat -> (j < 6)%nat -> m' i j = c * m i j) -> quad k m' u = c * quad k m u.
  Proof.
    intros hk h. unfold quad. rewrite <- sumn_scal. apply sumn_ext. intros i hi. rewrite <- sumn_scal. apply sumn_ext. intros j hj. rewrite h by lia. ring.
  Qed.

  Lemma nsum_scal {A} c (f : A -> R) l : nsum (map (fun a => c * f a) l) = c * nsum (map f l).
  Proof. induction l as [|a l IH]; cbn [map nsum]; rnum; [ring|]. rewrite IH. ring. Qed.

  Lemma form_in aux c ns u p : has_unit aux c -> part_form aux ns u (part_in mu th p) = c * part_form aux ns u p.
  Proof.
    intros ha. pose proof (aux_in aux c (ep_kind p) ha) as h. unfold part_form. cbn [part_in ep_kind ep_nodes ep_els].
    destruct (aux (ep_kind p)) as [m|], (aux (kind_in mu th (ep_kind p))) as [m'|]; cbn [times] in h; try contradiction; [|ring].
    destruct (ep_kind p); cbn [kind_in]; rewrite <- nsum_scal; apply nsum_map_ext; intros e _; cbn [element_form]; try (apply quad_times; [lia|exact h]).
    rewrite h by lia. ring.
  Qed.

  Lemma settled_in ns p : settled ns (part_in mu th p) = part_in mu th (settled ns p).
  Proof.
    unfold settled, part_in. destruct p as [k nodes els]. cbn [ep_kind ep_nodes ep_els]. destruct k; try reflexivity. cbn [kind_in].
    destruct nodes as [|i [|j l]]; try reflexivity. destruct (nth_error ns i), (nth_error ns j); reflexivity.
  Qed.

  Lemma init_in ns p p1 : initialize_part ns p = Ok p1 -> exists p2, initialize_part ns (part_in mu th p) = Ok p2.
  Proof.
    unfold initialize_part, part_in. destruct p as [k nodes els]. cbn [ep_kind ep_nodes ep_els]. destruct k; cbn [kind_in]; try (intros _; eexists; reflexivity).
    intros h. unbind h. rewrite hv. cbn [rbind]. cbn [beam_in b_l]. unbind h. rewrite hv0. cbn [rbind]. destruct v0; eexists; reflexivity.
  Qed.

  Lemma sound_in p : sound p -> sound (part_in mu th p).
  Proof.
    pose proof ka_pos as hk. assert (o : forall c s, 0 < c -> opt_nonneg s -> opt_nonneg (option_map (Rmult c) s)) by (intros c [s|] hc; cbn; [intros hs; apply Rmult_le_pos; lra|trivial]).
    assert (b0 : forall b, sound_beam b -> sound_beam (beam_in mu th b)).
    { intros b [h1 [h2 [h3 [h4 [h5 h6]]]]]. unfold sound_beam. cbn [beam_in b_E b_nu b_rho b_A b_I b_l]. fold ka. repeat split; try assumption; [apply Rmult_lt_0_compat; assumption|apply Rmult_le_pos; lra]. }
    unfold sound. destruct p as [k nodes els]. cbn [part_in ep_kind]. destruct k; cbn [kind_in]; auto.
    - intros [h1 [h2 h3]]. split; [apply o; [exact hk|exact h1]|]. split; [apply o; [apply Rmult_lt_0_compat; assumption|exact h2]|apply o; [exact mu_pos|exact h3]].
    - intros h. apply Rmult_le_pos; lra.
  Qed.

  Lemma shaped_in p : shaped p -> shaped (part_in mu th p).
  Proof. unfold shaped. destruct p as [k nodes els]. cbn [part_in ep_kind ep_els]. destruct k; auto. Qed.

  Lemma where_zero_ext l l' : forall i, length l = length l' -> (forall k, (k < length l)%nat -> np_isclose (nth k l 0) (lit 0) = np_isclose (nth k l' 0) (lit 0)) -> where_zero_from i l = where_zero_from i l'.
  Proof.
    revert l'. induction l as [|x l IH]; intros [|y l'] i hl h; try discriminate; [reflexivity|]. cbn [where_zero_from].
    pose proof (h 0%nat ltac:(cbn; lia)) as h0. cbn [nth] in h0. rewrite h0. rewrite (IH l' (S i)) by (try (cbn in hl; lia); intros k hk; apply (h (S k)); cbn; lia). reflexivity.
  Qed.

  Variables (ns : list (node R)) (ps : list (epart R)) (ls : list (load R)) (cs : list (list nat * tri bool)) (da : damping R).
  Variables (s : gsys R) (ns' : list (node R)) (n : nat).
  Hypothesis shapes : Forall shaped ps.
  Hypothesis sounds : Forall (fun p => sound (settled ns p)) ps.
  Hypothesis inside : Forall (within ns) ps.
  Hypothesis clear_values : well_scaled mu th ns ps.
  Hypothesis run : initialise_system ns ps ls cs da = Ok (s, ns', n).
  Let qs := map (part_in mu th) ps.
  Let ks := map (load_in mu th) ls.
  Let db := damping_in th da.

  Lemma shapes_in : Forall shaped qs.
  Proof. apply Forall_forall. intros q hq. apply in_map_iff in hq. destruct hq as [p [<- hp]]. apply shaped_in. exact (proj1 (Forall_forall _ _) shapes p hp). Qed.
  Lemma sounds_in : Forall (fun p => sound (settled ns p)) qs.
  Proof. apply Forall_forall. intros q hq. apply in_map_iff in hq. destruct hq as [p [<- hp]]. rewrite settled_in. apply sound_in. exact (proj1 (Forall_forall _ _) sounds p hp). Qed.

  Lemma total_in aux c u : has_unit aux c -> nsum (map (fun p => part_form aux ns u (settled ns p)) qs) = c * nsum (map (fun p => part_form aux ns u (settled ns p)) ps).
  Proof. intros ha. unfold qs. rewrite map_map, <- nsum_scal. apply nsum_map_ext. intros p _. rewrite settled_in. apply form_in. exact ha. Qed.

  Lemma run_in : exists s2 ms' m, initialise_system ns qs ks cs db = Ok (s2, ms', m).
  Proof.
    apply initialise_ok.
    - intros q hq. apply in_map_iff in hq. destruct hq as [p [<- hp]]. exact (init_in ns p _ (first_ok _ _ _ _ _ _ _ _ run p hp)).
    - intros q i hq hi. apply in_map_iff in hq. destruct hq as [p [<- hp]]. exact (within_refs ns p (proj1 (Forall_forall _ _) inside p hp) i hi).
    - intros l i hl hi. apply in_map_iff in hl. destruct hl as [l0 [<- hl]]. exact (loads_in_range _ _ _ _ _ _ _ _ run l0 i hl hi).
  Qed.

  Variables (s2 : gsys R) (ms' : list (node R)) (m : nat).
  Hypothesis run2 : initialise_system ns qs ks cs db = Ok (s2, ms', m).

  Lemma lone_unit p d q e : lone p d q e = unit_field p d q e.
  Proof.
    unfold lone, unit_field. destruct (Nat.eqb_spec (3 * p + dir_idx d) (3 * q + dir_idx e)) as [h|h], d, e; cbn [dir_idx] in h; try (exfalso; lia); try reflexivity;
      destruct (Nat.eqb_spec p q); try reflexivity; exfalso; lia.
  Qed.

  Lemma form_ext aux u v p : (forall q e, u q e = v q e) -> part_form aux ns u p = part_form aux ns v p.
  Proof.
    intros h. unfold part_form. destruct (aux (ep_kind p)) as [k|]; [|reflexivity].
    destruct (ep_kind p); apply nsum_map_ext; intros e _; try (cbn [element_form]; unfold local2, local6; rewrite !h; reflexivity).
  Qed.

  Lemma same_zero c x : 0 < c -> same_side c x -> np_isclose (c * x) (lit 0) = np_isclose x (lit 0).
  Proof.
    intros hc h. apply eq_true_iff_eq. change (lit 0) with (IZR 0). rewrite !np_isclose_0_spec. unfold same_side in h. rewrite Rabs_mult, (Rabs_right c) by lra.
    split; intros g; apply Rnot_lt_le; intros hh; apply h in hh; lra.
  Qed.

  Lemma nodes_in : ms' = ns' /\ m = n.
  Proof.
    pose proof ka_pos as hk. destruct (initialise_inv _ _ _ _ _ _ _ _ run) as [s0 [st [e0 [q0 [t0 _]]]]]. destruct (initialise_inv _ _ _ _ _ _ _ _ run2) as [s1 [st1 [e1 [q1 [t1 _]]]]].
    unfold trim_all in t0, t1.
    assert (e : obsolete_indices s1 (fold_left apply_constraint cs (number_from 0 ns)) = obsolete_indices s0 (fold_left apply_constraint cs (number_from 0 ns))).
    { assert (dg : forall k, (k < 3 * length ns)%nat -> me (gK s1) k k = ka * me (gK s0) k k /\ same_side ka (me (gK s0) k k) /\ me (gM s1) k k = mu * me (gM s0) k k /\ same_side mu (me (gM s0) k k)).
      { intros k hkn. assert (hp : exists p d, (p < length ns)%nat /\ k = (3 * p + dir_idx d)%nat).
        { exists (k / 3)%nat. pose proof (Nat.div_mod k 3 ltac:(lia)) as hd0. pose proof (Nat.mod_upper_bound k 3 ltac:(lia)) as hm.
          assert (hq : (k / 3 < length ns)%nat) by (apply Nat.div_lt_upper_bound; lia).
          destruct (k mod 3) as [|[|[|x]]] eqn:er; [exists DX|exists DY|exists DR|exfalso; lia]; cbn [dir_idx]; split; try exact hq; lia. }
        destruct hp as [p [d [hp ->]]]. destruct (assemble_diag ns ps ls s0 _ p d shapes e0 hp) as [a1 a2]. destruct (assemble_diag ns qs ks s1 _ p d shapes_in e1 hp) as [b1 b2].
        rewrite (total_in aux_stiffness ka) in b1 by (left; split; reflexivity). rewrite (total_in aux_mass mu) in b2 by (right; left; split; reflexivity).
        destruct (clear_values p d hp) as [c1 c2]. unfold own_stiffness, own_mass in c1, c2.
        rewrite (nsum_map_ext (fun a => part_form aux_stiffness ns (lone p d) (settled ns a)) (fun a => part_form aux_stiffness ns (unit_field p d) (settled ns a))) in c1 by (intros; apply form_ext; apply lone_unit).
        rewrite (nsum_map_ext (fun a => part_form aux_mass ns (lone p d) (settled ns a)) (fun a => part_form aux_mass ns (unit_field p d) (settled ns a))) in c2 by (intros; apply form_ext; apply lone_unit).
        rewrite b1, b2, a1, a2. auto. }
      destruct q0 as [k1 [k2 [k3 [k4 _]]]]. destruct q1 as [l1 [l2 [l3 [l4 _]]]].
      assert (dm : forall (a b : mat R) c, mr a = (3 * length ns)%nat -> mc a = (3 * length ns)%nat -> mr b = (3 * length ns)%nat -> mc b = (3 * length ns)%nat -> 0 < c ->
        (forall k, (k < 3 * length ns)%nat -> me b k k = c * me a k k /\ same_side c (me a k k)) -> where_zero_from 0 (mdiag b) = where_zero_from 0 (mdiag a)).
      { intros a b c g1 g2 g3 g4 hc hd. unfold mdiag. rewrite g1, g2, g3, g4, Nat.min_id. apply where_zero_ext; [rewrite !map_length; reflexivity|].
        intros k hk0. rewrite map_length, seq_length in hk0. rewrite !(nth_map0 _ _ k 0%nat) by (rewrite seq_length; exact hk0). rewrite seq_nth by exact hk0. cbn [plus]. destruct (hd k hk0) as [-> h2]. apply same_zero; assumption. }
      unfold obsolete_indices. rewrite (dm (gK s0) (gK s1) ka), (dm (gM s0) (gM s1) mu); try assumption; [reflexivity| |]; intros k hkn; destruct (dg k hkn) as [g1 [g2 [g3 g4]]]; split; assumption. }
    rewrite e in t1. unbind t0. unbind t1. destruct (recalculate_dof _ _) as [l k]. injection t0 as _ <- <-. injection t1 as _ <- <-. split; reflexivity.
  Qed.

  Lemma quad_in x : quad n (me (gK s2)) x = ka * quad n (me (gK s)) x /\ quad n (me (gM s2)) x = mu * quad n (me (gM s)) x /\ quad n (me (gC s2)) x = mu * th * quad n (me (gC s)) x.
  Proof.
    destruct nodes_in as [e1 e2]. pose proof run2 as h2. rewrite e1, e2 in h2.
    destruct (initialise_energy _ _ _ _ _ _ _ _ x shapes run) as [-> [-> ->]]. destruct (initialise_energy _ _ _ _ _ _ _ _ x shapes_in h2) as [-> [-> ->]].
    rewrite (total_in aux_stiffness ka) by (left; split; reflexivity). rewrite (total_in aux_mass mu) by (right; left; split; reflexivity). rewrite (total_in aux_damping (mu * th)) by (right; right; split; reflexivity).
    split; [reflexivity|]. split; [reflexivity|]. unfold db, damping_in. cbn [da_on da_ratio da_one da_two]. destruct (da_on da); [|ring]. unfold rayleigh_factors. rnum.
    match goal with |- context [?a / (th * ?b + th * ?c)] => replace (a / (th * b + th * c)) with (/ th * (a / (b + c))) by (rewrite <- Rmult_plus_distr_l; unfold Rdiv; rewrite Rinv_mult; ring) end.
    unfold ka, force_unit. set (q := 2 * _ / _). clearbody q. field. lra.
  Qed.

  Lemma entry_in i j : (i < n)%nat -> (j < n)%nat -> me (gK s2) i j = ka * me (gK s) i j /\ me (gM s2) i j = mu * me (gM s) i j /\ me (gC s2) i j = mu * th * me (gC s) i j.
  Proof.
    intros hi hj. destruct nodes_in as [e1 e2]. pose proof run2 as h2. rewrite e1, e2 in h2.
    destruct (initialise_sym _ _ _ _ _ _ _ _ shapes sounds run) as [y1 [y2 y3]]. destruct (initialise_sym _ _ _ _ _ _ _ _ shapes_in sounds_in h2) as [z1 [z2 z3]].
    rewrite !(quad_pair n) by assumption. destruct (quad_in (unit_vec i)) as [-> [-> ->]]. destruct (quad_in (unit_vec j)) as [-> [-> ->]]. destruct (quad_in (fun k => unit_vec i k + unit_vec j k)) as [-> [-> ->]].
    unfold Rdiv. split; [ring|]. split; ring.
  Qed.

  Lemma force_in i : Forall plain_load ls -> (i < n)%nat -> nth i (gF s2) 0 = ka * nth i (gF s) 0.
  Proof.
    intros plain hi. destruct nodes_in as [e1 e2]. pose proof run2 as h2. rewrite e1, e2 in h2.
    destruct (initialise_inv _ _ _ _ _ _ _ _ run) as [s0 [_ [e0 _]]]. destruct (initialise_kept _ _ _ _ _ _ _ _ _ run e0) as [hl [hn _]].
    assert (g : In i (all_numbers ns')) by (rewrite hn; apply in_seq; lia). apply all_numbers_In in g. destruct g as [p [d hq]].
    rewrite (plain_forces _ _ _ _ _ _ _ _ run (loads_in_range _ _ _ _ _ _ _ _ run) plain p d i hq).
    assert (plain2 : Forall plain_load ks).
    { apply Forall_forall. intros l hl0. apply in_map_iff in hl0. destruct hl0 as [l0 [<- hl0]]. destruct (proj1 (Forall_forall _ _) plain l0 hl0) as [g1 g2].
      split; cbn [load_in ld_nodes ld_vals]; [exact g1|rewrite map_length; exact g2]. }
    rewrite (plain_forces _ _ _ _ _ _ _ _ h2 (loads_in_range _ _ _ _ _ _ _ _ h2) plain2 p d i hq). unfold ks. rewrite map_map, <- nsum_scal. apply nsum_map_ext. intros l _.
    unfold load_force, load_in. cbn [ld_nodes ld_flag ld_vals]. fold ka. generalize (ld_vals l). generalize (ld_nodes l).
    induction l0 as [|x l0 IH']; intros vs; [cbn; rnum; ring|]. destruct vs as [|v vs]; [cbn; rnum; ring|]. cbn [map combine nsum fst snd]. rewrite IH'. rnum. rewrite Rmult_plus_distr_l. f_equal.
    destruct (tget (ld_flag l) d && Nat.eqb x p)%bool; [destruct d; cbn; ring|ring].
  Qed.

  Lemma mulv_in x i : (i < n)%nat -> mulv n (me (gK s2)) x i = ka * mulv n (me (gK s)) x i /\ mulv n (me (gM s2)) x i = mu * mulv n (me (gM s)) x i /\ mulv n (me (gC s2)) x i = mu * th * mulv n (me (gC s)) x i.
  Proof.
    intros hi. unfold mulv. rewrite <- !sumn_scal. refine (conj _ (conj _ _)); apply sumn_ext; intros j hj; destruct (entry_in i j hi hj) as [h1 [h2 h3]]; rewrite ?h1, ?h2, ?h3; ring.
  Qed.

  Lemma derivative_in (f g : R -> R) : derivative f g -> derivative (fun t => f (th * t)) (fun t => th * g (th * t)).
  Proof.
    intros h t. replace (th * g (th * t)) with (g (th * t) * (th * 1)) by ring.
    apply (derivable_pt_lim_comp (fun t => th * t) f t (th * 1) (g (th * t))); [apply (derivable_pt_lim_scal id th t 1); apply derivable_pt_lim_id|apply h].
  Qed.

  Lemma motion_in g u v b : motion n s g u v b ->
    motion n s2 (fun t i => ka * g (th * t) i) (fun t i => u (th * t) i) (fun t i => th * v (th * t) i) (fun t i => th * th * b (th * t) i).
  Proof.
    intros [m1 [m2 m3]]. split; [|split].
    - intros i hi. apply (derivative_in (fun t => u t i) (fun t => v t i)). apply m1. exact hi.
    - intros i hi. intros t. replace (th * th * b (th * t) i) with (th * (th * b (th * t) i)) by ring. apply (derivable_pt_lim_scal (fun t => v (th * t) i) th t). apply (derivative_in (fun t => v t i) (fun t => b t i)). apply m2. exact hi.
    - intros t i hi. rewrite <- (m3 (th * t) i hi). destruct (mulv_in (fun i => th * th * b (th * t) i) i hi) as [_ [-> _]]. destruct (mulv_in (fun i => th * v (th * t) i) i hi) as [_ [_ ->]]. destruct (mulv_in (fun i => u (th * t) i) i hi) as [-> _].
      rewrite !mulv_scaled. change (fun i => b (th * t) i) with (b (th * t)). change (fun i => v (th * t) i) with (v (th * t)). change (fun i => u (th * t) i) with (u (th * t)). unfold ka, force_unit. ring.
  Qed.
End Units.
