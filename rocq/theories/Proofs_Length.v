(** * Lemmas about models written in another unit of length *)

From Coq Require Import Reals List Bool ZArith Arith Lia Lra.
From Verif Require Import Num PyBase Model_Geometry Model_System Spec_System Proofs_Dof Proofs_System Model_Element Spec_Element
  Proofs_Elements Proofs_Element Proofs_Beam Proofs_Force Model_Accumulation Proofs_Accumulation Model_Track Spec_Track Proofs_Track Proofs_Assembly
  Spec_Analytic Spec_Motion Proofs_Motion Spec_Chain Proofs_Chain Proofs_Moving Spec_Renumber Proofs_Renumber Spec_Units Proofs_Units Spec_Stiffer Proofs_Stiffer Spec_Length.
Import ListNotations.
Local Open Scope R_scope.

Section Length.
  Variable la : R.
  Hypothesis la_pos : 0 < la.

  Lemma factor_at b : timoshenko_factor (lit 0) (beam_at la b) = timoshenko_factor (lit 0) b.
  Proof.
    unfold timoshenko_factor, shear_modulus, beam_at, sq. cbn [b_E b_nu b_rho b_A b_I b_shear_factor b_l]. destruct (nltb _ _); [|reflexivity]. rnum.
    match goal with |- ?a / ?b = ?c / ?d => replace a with ((la * la * la) * c) by (field; lra); replace b with ((la * la * la) * d) end; [apply ratio; intros e; apply Rmult_integral in e; destruct e as [e|e]; [apply Rmult_integral in e; lra|lra]|].
    unfold Rdiv. set (z := / (2 * (1 + b_nu b))). clearbody z. field. lra.
  Qed.

  Lemma fixity_at E I l s : fixity (E / la * (la * la * la * la * I)) (la * l) (option_map (Rmult (la * la)) s) = fixity (E * I) l s.
  Proof.
    assert (hk : 0 < la * la) by (apply Rmult_lt_0_compat; exact la_pos). replace (E / la * (la * la * la * la * I)) with (la * la * la * (E * I)) by (field; lra).
    destruct s as [s|]; [|reflexivity]. unfold fixity. cbn [option_map].
    assert (e : nltb (lit 0) (la * la * s) = nltb (lit 0) s).
    { destruct (nltbP (lit 0) (la * la * s)) as [h|h], (nltbP (lit 0) s) as [g|g]; try reflexivity; exfalso; change (lit 0) with (IZR 0) in *.
      - apply g. apply (Rmult_lt_reg_l (la * la)); [exact hk|]. rewrite Rmult_0_r. exact h.
      - apply h. apply Rmult_lt_0_compat; assumption. }
    rewrite e. destruct (nltb (lit 0) s); [|reflexivity]. rnum.
    replace (3 * (la * la * la * (E * I)) / (la * la * s * (la * l))) with (3 * (E * I) / (s * l)); [reflexivity|]. rewrite <- (ratio (la * la * la) (3 * (E * I)) (s * l)) by (apply Rgt_not_eq, Rmult_lt_0_compat; assumption). f_equal; ring.
  Qed.

  (** the factor of row [i] *)
  Definition row (i : nat) : R := match i with 2%nat | 5%nat => la | _ => 1 end.

  Lemma stiffness_at b phi i j : b_I b <> 0 -> b_l b <> 0 -> (i < 6)%nat -> (j < 6)%nat -> beam_stiffness (beam_at la b) phi i j = row i * row j * beam_stiffness b phi i j.
  Proof.
    intros hI hl hi hj. unfold beam_stiffness. cbv zeta. rewrite !reshape_all3 by assumption. cbn [beam_at b_E b_nu b_rho b_A b_I b_shear_factor b_l b_s1 b_s2].
    change (@nmul R RNum) with Rmult. change (@ndiv R RNum) with Rdiv. change (@nadd R RNum) with Rplus. rewrite !fixity_at. set (rg := rigid_mat _ _). clearbody rg. unfold mscale.
    assert (c : b_E b / la * (la * la * la * la * b_I b) / ((lit 1 + phi) * cube (la * b_l b)) = b_E b * b_I b / ((lit 1 + phi) * cube (b_l b))).
    { unfold cube. rnum. replace (b_E b / la * (la * la * la * la * b_I b)) with (la * la * la * (b_E b * b_I b)) by (field; lra).
      replace ((1 + phi) * (la * b_l b * (la * b_l b) * (la * b_l b))) with (la * la * la * ((1 + phi) * (b_l b * b_l b * b_l b))) by ring.
      apply ratio. apply Rgt_not_eq. repeat apply Rmult_lt_0_compat; assumption. }
    rewrite c. set (q := b_E b * b_I b / _). clearbody q. clear c.
    do 6 (destruct i as [|i]; [do 6 (destruct j as [|j]; [unfold row, sq; cbn; rnum; field; lra|]); lia|]); lia.
  Qed.

  Lemma mass_at b phi i j : b_l b <> 0 -> (i < 6)%nat -> (j < 6)%nat -> beam_mass (beam_at la b) phi i j = row i * row j * beam_mass b phi i j.
  Proof.
    intros hl hi hj.
    assert (t : trans_mass (beam_at la b) phi i j = row i * row j * trans_mass b phi i j).
    { unfold trans_mass. cbv zeta. unfold mscale. rewrite !reshape_all3 by assumption. cbn [beam_at b_E b_nu b_rho b_A b_I b_shear_factor b_l b_s1 b_s2].
      change (@nmul R RNum) with Rmult. change (@ndiv R RNum) with Rdiv. change (@nadd R RNum) with Rplus. replace (b_rho b / (la * la * la) * (la * la * b_A b) * (la * b_l b)) with (b_rho b * b_A b * b_l b) by (field; lra).
      set (q := b_rho b * b_A b * b_l b / _). clearbody q.
      do 6 (destruct i as [|i]; [do 6 (destruct j as [|j]; [unfold row, sq; cbn; rnum; field; lra|]); lia|]); lia. }
    assert (r : rot_mass (beam_at la b) phi i j = row i * row j * rot_mass b phi i j).
    { unfold rot_mass. cbv zeta. unfold mscale. rewrite !reshape_all3 by assumption. cbn [beam_at b_E b_nu b_rho b_A b_I b_shear_factor b_l b_s1 b_s2].
      assert (c : b_rho b / (la * la * la) * (la * la * la * la * b_I b) / (lit 30 * sq (lit 1 + phi) * (la * b_l b)) = b_rho b * b_I b / (lit 30 * sq (lit 1 + phi) * b_l b)).
      { unfold sq. rnum. replace (b_rho b / (la * la * la) * (la * la * la * la * b_I b)) with (la * (b_rho b * b_I b)) by (field; lra).
        replace (30 * ((1 + phi) * (1 + phi)) * (la * b_l b)) with (la * (30 * ((1 + phi) * (1 + phi)) * b_l b)) by ring. apply ratio. lra. }
      change (@nmul R RNum) with Rmult in *. change (@ndiv R RNum) with Rdiv in *. change (@nadd R RNum) with Rplus in *. rewrite c. set (q := b_rho b * b_I b / _). clearbody q. clear c t.
      do 6 (destruct i as [|i]; [do 6 (destruct j as [|j]; [unfold row, sq; cbn; rnum; ring|]); lia|]); lia. }
    unfold beam_mass. destruct (negb _); rewrite ?t, ?r; rnum; ring.
  Qed.

  (** ** geometry *)

  Lemma near_at c x : 0 < c -> same_side c x -> np_isclose (c * x) (lit 0) = np_isclose x (lit 0).
  Proof using Type.
    intros hc h. apply eq_true_iff_eq. change (lit 0) with (IZR 0). rewrite !np_isclose_0_spec. unfold same_side in h. rewrite Rabs_mult, (Rabs_right c) by lra.
    split; intros g; apply Rnot_lt_le; intros hh; apply h in hh; lra.
  Qed.

  Lemma sign_at x : nsign (la * x) = nsign x.
  Proof using la_pos.
    destruct (Rtotal_order x 0) as [h|[->|h]].
    - rewrite !nsign_neg; [reflexivity|exact h|]. rewrite <- (Rmult_0_r la). apply Rmult_lt_compat_l; assumption.
    - rewrite Rmult_0_r. reflexivity.
    - rewrite !nsign_pos; [reflexivity|exact h|]. apply Rmult_lt_0_compat; assumption.
  Qed.

  Lemma angle_at p q : same_side la (fst q - fst p) -> calculate_rotation1 ((la * fst p, la * snd p), (la * fst q, la * snd q)) = calculate_rotation1 (p, q).
  Proof using la_pos.
    destruct p as [x1 y1], q as [x2 y2]. cbn [fst snd]. intros h. unfold calculate_rotation1. change (@nsub R RNum) with Rminus.
    rewrite <- !Rmult_minus_distr_l, sign_at, (near_at la (x2 - x1)) by assumption.
    assert (e : nltb (la * x2) (la * x1) = nltb x2 x1).
    { destruct (nltbP (la * x2) (la * x1)) as [g|g], (nltbP x2 x1) as [k|k]; try reflexivity; exfalso; [apply k; apply (Rmult_lt_reg_l la); assumption|apply g; apply Rmult_lt_compat_l; assumption]. }
    rewrite e. change (@ndiv R RNum) with Rdiv. rewrite ratio by lra. reflexivity.
  Qed.

  Lemma nth_at ns p : nth_error (mesh_at la ns) p = option_map (node_at_length la) (nth_error ns p).
  Proof using Type. apply nth_error_map. Qed.

  Lemma xy_at ns p : xy (mesh_at la ns) p = (la * fst (xy ns p), la * snd (xy ns p)).
  Proof using Type. unfold xy. rewrite nth_at. destruct (nth_error ns p); cbn [option_map node_at_length n_coord point_at tx ty fst snd]; [reflexivity|]. rewrite Rmult_0_r. reflexivity. Qed.

  Lemma dist_at p q : dist3 (point_at la p) (point_at la q) = la * dist3 p q.
  Proof using la_pos.
    unfold dist3, point_at. cbn [tx ty tr]. set (z := (tx q - tx p) * (tx q - tx p) + _ + _). replace (la * sqrt z) with (sqrt (la * la) * sqrt z) by (rewrite (sqrt_square la) by lra; reflexivity).
    rewrite <- sqrt_mult_alt by (apply Rlt_le, Rmult_lt_0_compat; assumption). f_equal. unfold z. ring.
  Qed.

  Lemma settled_at ns p : settled (mesh_at la ns) (part_at la p) = part_at la (settled ns p).
  Proof using la_pos.
    unfold settled, part_at. destruct p as [k nodes els]. cbn [ep_kind ep_nodes ep_els]. destruct k; try reflexivity. cbn [kind_at].
    destruct nodes as [|i [|j l]]; try reflexivity. rewrite !nth_at. destruct (nth_error ns i), (nth_error ns j); cbn [option_map]; try reflexivity.
    cbn [node_at_length n_coord ep_kind ep_nodes ep_els kind_at]. rewrite dist_at. reflexivity.
  Qed.

  Lemma settled_els ns (p : epart R) : ep_els (settled ns p) = ep_els p.
  Proof using Type. unfold settled. destruct p as [k nodes els]. cbn [ep_kind ep_nodes ep_els]. destruct k; try reflexivity. destruct nodes as [|i [|j l]]; try reflexivity. destruct (nth_error ns i), (nth_error ns j); reflexivity. Qed.

  (** ** forms *)

  Definition levered (w : nat -> dir -> R) (q : nat) (d : dir) : R := lever la d * w q d.

  Lemma quad_rows (m m' : nat -> nat -> R) x y : (forall i j, (i < 6)%nat -> (j < 6)%nat -> m' i j = row i * row j * m i j) -> (forall i, (i < 6)%nat -> y i = row i * x i) -> quad 6 m' x = quad 6 m y.
  Proof using Type. intros h e. unfold quad. apply sumn_ext. intros i hi. apply sumn_ext. intros j hj. rewrite h, !e by assumption. ring. Qed.

  Lemma beam_rows aux b m m' k k' : is_aux aux -> sound_beam b -> k = KBeam b /\ k' = KBeam (beam_at la b) \/ k = KRail b /\ k' = KRail (beam_at la b) ->
    aux k = Some m -> aux k' = Some m' -> forall i j, (i < 6)%nat -> (j < 6)%nat -> m' i j = row i * row j * m i j.
  Proof using la_pos.
    intros ha [h1 [h2 [h3 [h4 _]]]] hk e e' i j hi hj. destruct ha as [-> | [-> | ->]]; destruct hk as [[-> ->]|[-> ->]]; cbn [aux_stiffness aux_mass aux_damping] in e, e'; injection e as <-; injection e' as <-;
      rewrite ?factor_at; try (apply stiffness_at; try assumption; lra); try (apply mass_at; try assumption; lra); unfold beam_damping, zeros; rnum; ring.
  Qed.

  Lemma levered_local6 a w p q i : (i < 6)%nat -> local6 a (levered w) p q i = row i * local6 a w p q i.
  Proof using Type. intros hi. unfold local6, levered, lever, along, across. do 6 (destruct i as [|i]; [cbn [vec6 row]; ring|]). lia. Qed.

  Lemma form_at aux ns w p : is_aux aux -> sound p -> (forall e, In e (ep_els p) -> same_side la (fst (xy ns (snd e)) - fst (xy ns (fst e)))) ->
    part_form aux (mesh_at la ns) w (part_at la p) = part_form aux ns (levered w) p.
  Proof using la_pos.
    intros ha ho hc. unfold part_form, sound in *. destruct p as [k nodes els]. cbn [part_at ep_kind ep_nodes ep_els] in *.
    assert (hx : forall q, levered w q DX = w q DX) by (intros; unfold levered, lever; ring). assert (hy : forall q, levered w q DY = w q DY) by (intros; unfold levered, lever; ring).
    destruct k as [s c m|b|b|m]; cbn [kind_at].
    - destruct (aux _); [|reflexivity]. apply nsum_map_ext. intros e he. rewrite !xy_at, angle_at by (apply hc; exact he). cbn [element_form]. unfold local2. rewrite !hx, !hy. reflexivity.
    - destruct (aux (KBeam b)) as [m|] eqn:e1, (aux (KBeam (beam_at la b))) as [m'|] eqn:e2; try (exfalso; destruct ha as [-> | [-> | ->]]; discriminate).
      apply nsum_map_ext. intros e he. rewrite !xy_at, angle_at by (apply hc; exact he). cbn [element_form]. apply quad_rows; [exact (beam_rows aux b m m' _ _ ha ho (or_introl (conj eq_refl eq_refl)) e1 e2)|]. intros i hi. apply levered_local6. exact hi.
    - destruct (aux (KRail b)) as [m|] eqn:e1, (aux (KRail (beam_at la b))) as [m'|] eqn:e2; try (exfalso; destruct ha as [-> | [-> | ->]]; discriminate).
      apply nsum_map_ext. intros e he. rewrite !xy_at, angle_at by (apply hc; exact he). cbn [element_form]. apply quad_rows; [exact (beam_rows aux b m m' _ _ ha ho (or_intror (conj eq_refl eq_refl)) e1 e2)|]. intros i hi. apply levered_local6. exact hi.
    - destruct (aux _); [|reflexivity]. apply nsum_map_ext. intros i _. rewrite hy. reflexivity.
  Qed.

  Lemma form_same aux ns u v p : (forall q e, u q e = v q e) -> part_form aux ns u p = part_form aux ns v p.
  Proof using Type.
    intros h. unfold part_form. destruct (aux (ep_kind p)) as [k|]; [|reflexivity].
    destruct (ep_kind p); apply nsum_map_ext; intros e _; try (cbn [element_form]; unfold local2, local6; rewrite !h; reflexivity).
  Qed.

  Lemma form_times aux ns c u p : part_form aux ns (fun q d => c * u q d) p = c * c * part_form aux ns u p.
  Proof using Type.
    assert (hs : forall (A : Type) (f g : A -> R) l, (forall a, In a l -> f a = c * c * g a) -> nsum (map f l) = c * c * nsum (map g l)).
    { intros A f g l h. induction l as [|a l IH]; cbn [map nsum]; rnum; [ring|]. rewrite (h a (or_introl eq_refl)), IH by (intros; apply h; right; assumption). ring. }
    assert (hq : forall k m x y, (forall i, (i < k)%nat -> y i = c * x i) -> quad k m y = c * c * quad k m x).
    { intros k m x y h. unfold quad. rewrite <- sumn_scal. apply sumn_ext. intros i hi. rewrite <- sumn_scal. apply sumn_ext. intros j hj. rewrite !h by assumption. ring. }
    unfold part_form. destruct (aux (ep_kind p)) as [m|]; [|ring].
    destruct (ep_kind p); apply hs; intros e _; cbn [element_form]; try (apply hq; intros i hi; unfold local6, along, across; do 6 (destruct i as [|i]; [cbn [vec6]; ring|]); lia); [|ring].
    apply hq. intros i hi. unfold local2, along. destruct i; ring.
  Qed.

  (** ** numbering *)

  Lemma number_at k ns : number_from k (mesh_at la ns) = mesh_at la (number_from k ns).
  Proof using Type. revert k. induction ns as [|n ns IH]; intros k; [reflexivity|]. cbn [mesh_at map number_from]. f_equal. apply IH. Qed.

  Lemma number_of_at ns p d : number_of (mesh_at la ns) p d = number_of ns p d.
  Proof using Type. unfold number_of. rewrite nth_at. destruct (nth_error ns p); reflexivity. Qed.

  Lemma lset_at (l : list (node R)) p a : lset (mesh_at la l) p (node_at_length la a) = mesh_at la (lset l p a).
  Proof using Type. revert p. induction l as [|x l IH]; intros [|p]; cbn; try reflexivity. f_equal. apply IH. Qed.

  Lemma constraint_at c ns : apply_constraint (mesh_at la ns) c = mesh_at la (apply_constraint ns c).
  Proof using Type.
    destruct c as [l t]. unfold apply_constraint. cbn [fst snd]. revert ns. induction l as [|p l IH]; intros ns; [reflexivity|]. cbn [fold_left]. rewrite nth_at.
    destruct (nth_error ns p) as [n|]; cbn [option_map]; [|apply IH]. change (with_flag (node_at_length la n) t) with (node_at_length la (with_flag n t)). rewrite lset_at. apply IH.
  Qed.

  Lemma constraints_at cs ns : fold_left apply_constraint cs (mesh_at la ns) = mesh_at la (fold_left apply_constraint cs ns).
  Proof using Type. revert ns. induction cs as [|c cs IH]; intros ns; [reflexivity|]. cbn [fold_left]. rewrite constraint_at. apply IH. Qed.

  Lemma recalc_at rem ns j : recalc_from rem j (mesh_at la ns) = (fst (recalc_from rem j ns), mesh_at la (snd (recalc_from rem j ns))).
  Proof using Type.
    revert j. induction ns as [|n ns IH]; intros j; [reflexivity|]. cbn [mesh_at map recalc_from].
    assert (h : recalc_node rem j (node_at_length la n) = (fst (recalc_node rem j n), node_at_length la (snd (recalc_node rem j n)))).
    { unfold recalc_node. cbn [node_at_length n_dof n_flag]. destruct (n_dof n) as [[x|] [y|] [z|]]; cbn [recalc_dir];
        repeat match goal with |- context [memb ?a ?b] => destruct (memb a b) end; reflexivity. }
    rewrite h. destruct (recalc_node rem j n) as [j1 n1]. cbn [fst snd]. fold (mesh_at la ns). rewrite IH. destruct (recalc_from rem j1 ns). reflexivity.
  Qed.

  Lemma constrained_at ns : constrained_indices (mesh_at la ns) = constrained_indices ns.
  Proof using Type.
    unfold constrained_indices, mesh_at. rewrite <- map_rev. induction (rev ns) as [|n l IH]; [reflexivity|]. cbn [map flat_map]. rewrite IH. reflexivity.
  Qed.

  Lemma rail_distances ns l : forall nodes d, mapr (node_at ns) nodes = Ok l ->
    (forall k i j a b, nth_error nodes k = Some i -> nth_error nodes (S k) = Some j -> nth_error ns i = Some a -> nth_error ns j = Some b -> dist3 (n_coord a) (n_coord b) = d) ->
    forall z, In z (consecutive_distances (map (@n_coord R) l)) -> z = d.
  Proof using Type.
    induction l as [|a l IH]; intros nodes d h hd z hz; [destruct hz|]. destruct l as [|b l]; [destruct hz|].
    destruct nodes as [|i nodes]; [discriminate|]. cbn [mapr] in h. unbind h. unbind h. injection h as -> ->. destruct nodes as [|j nodes]; [discriminate|]. pose proof hv0 as hv1. cbn [mapr] in hv0. unbind hv0. unbind hv0. injection hv0 as -> ->.
    cbn [map consecutive_distances] in hz. destruct hz as [<-|hz].
    - rewrite distance3_R. apply (hd 0%nat i j); try reflexivity; apply at_idx_ok; assumption.
    - apply (IH (j :: nodes) d hv1); [|exact hz]. intros k i' j' a' b' g1 g2. apply (hd (S k)); [exact g1|exact g2].
  Qed.

  Lemma nodes_at ns l : mapr (node_at (mesh_at la ns)) l = match mapr (node_at ns) l with Ok v => Ok (mesh_at la v) | Err e => Err e end.
  Proof using Type.
    induction l as [|p l IH]; [reflexivity|]. cbn [mapr]. unfold node_at at 1 3, at_idx. rewrite nth_at, IH. destruct (nth_error ns p); cbn [option_map rbind]; [|reflexivity].
    destruct (mapr (node_at ns) l); reflexivity.
  Qed.

  Lemma init_at ns p p1 : even_rail ns p -> initialize_part ns p = Ok p1 -> exists p2, initialize_part (mesh_at la ns) (part_at la p) = Ok p2.
  Proof using la_pos.
    unfold initialize_part, part_at, even_rail. destruct p as [k nodes els]. cbn [ep_kind ep_nodes ep_els]. destruct k; cbn [kind_at]; try (intros _ _; eexists; reflexivity).
    intros [d hd] h. rewrite nodes_at. unbind h. rewrite hv. cbn [rbind]. pose proof (rail_distances ns v nodes d hv hd) as hz. clear h.
    unfold calculate_length_rail. assert (hz2 : forall z, In z (consecutive_distances (map (@n_coord R) (mesh_at la v))) -> z = la * d).
    { revert hz. clear - la_pos. intros hz z h. assert (e : consecutive_distances (map (@n_coord R) (mesh_at la v)) = map (Rmult la) (consecutive_distances (map (@n_coord R) v))).
      { clear - la_pos. induction v as [|a v IH]; [reflexivity|]. destruct v as [|b v]; [reflexivity|]. cbn [mesh_at map consecutive_distances] in *. rewrite IH. f_equal. rewrite !distance3_R. apply dist_at. }
      rewrite e in h. apply in_map_iff in h. destruct h as [y [<- hy]]. rewrite (hz y hy). reflexivity. }
    destruct (consecutive_distances (map (@n_coord R) (mesh_at la v))) as [|d0 r] eqn:ed; [cbn [rbind]; eexists; reflexivity|].
    assert (g : forallb (fun d1 => np_isclose d0 d1) (d0 :: r) = true).
    { apply forallb_forall. intros x hx. rewrite (hz2 x hx), (hz2 d0 (or_introl eq_refl)). apply np_isclose_spec. rewrite (Rminus_diag_eq _ _ eq_refl), Rabs_R0. pose proof (Rabs_pos (la * d)). lra. }
    rewrite g. cbn [rbind]. eexists. reflexivity.
  Qed.

  Lemma sound_at p : sound p -> sound (part_at la p).
  Proof using la_pos.
    assert (b0 : forall b, sound_beam b -> sound_beam (beam_at la b)).
    { intros b [h1 [h2 [h3 [h4 [h5 h6]]]]]. unfold sound_beam. cbn [beam_at b_E b_nu b_rho b_A b_I b_l].
      assert (0 < / la) by (apply Rinv_0_lt_compat; exact la_pos). assert (h7 : 0 < la * la * la) by (repeat apply Rmult_lt_0_compat; assumption).
      repeat split; try assumption; try (repeat apply Rmult_lt_0_compat; assumption). apply Rmult_le_pos; [exact h6|]. apply Rlt_le, Rinv_0_lt_compat. exact h7. }
    unfold sound. destruct p as [k nodes els]. cbn [part_at ep_kind]. destruct k; cbn [kind_at]; auto.
  Qed.

  Lemma shaped_at p : shaped p -> shaped (part_at la p).
  Proof using Type. unfold shaped. destruct p as [k nodes els]. cbn [part_at ep_kind ep_els]. destruct k; auto. Qed.

  (** ** systems *)

  Variables (ns : list (node R)) (ps : list (epart R)) (ls : list (load R)) (cs : list (list nat * tri bool)) (da : damping R).
  Variables (s : gsys R) (ns' : list (node R)) (n : nat).
  Hypothesis shapes : Forall shaped ps.
  Hypothesis sounds : Forall (fun p => sound (settled ns p)) ps.
  Hypothesis clear_values : clear_lengths la ns ps.
  Hypothesis run : initialise_system ns ps ls cs da = Ok (s, ns', n).
  Let ms := mesh_at la ns.
  Let qs := map (part_at la) ps.
  Let ks := map (load_at la) ls.

  Lemma shapes_at : Forall shaped qs.
  Proof using shapes. apply Forall_forall. intros q hq. apply in_map_iff in hq. destruct hq as [p [<- hp]]. apply shaped_at. exact (proj1 (Forall_forall _ _) shapes p hp). Qed.
  Lemma sounds_at : Forall (fun p => sound (settled ms p)) qs.
  Proof using sounds la_pos. apply Forall_forall. intros q hq. apply in_map_iff in hq. destruct hq as [p [<- hp]]. unfold ms. rewrite settled_at. apply sound_at. exact (proj1 (Forall_forall _ _) sounds p hp). Qed.

  Lemma total_at aux w : is_aux aux -> nsum (map (fun p => part_form aux ms w (settled ms p)) qs) = nsum (map (fun p => part_form aux ns (levered w) (settled ns p)) ps).
  Proof using sounds clear_values la_pos.
    intros ha. unfold qs, ms. rewrite map_map. apply nsum_map_ext. intros p hp. rewrite settled_at. apply form_at; [exact ha|exact (proj1 (Forall_forall _ _) sounds p hp)|].
    rewrite settled_els. intros e he. exact (proj1 clear_values p e hp he).
  Qed.

  Lemma run_at : Forall (within ns) ps -> Forall (even_rail ns) ps -> exists s2 ms' m, initialise_system ms qs ks cs da = Ok (s2, ms', m).
  Proof using run la_pos.
    intros inside even. apply initialise_ok.
    - intros q hq. apply in_map_iff in hq. destruct hq as [p [<- hp]]. exact (init_at ns p _ (proj1 (Forall_forall _ _) even p hp) (first_ok _ _ _ _ _ _ _ _ run p hp)).
    - intros q i hq hi. apply in_map_iff in hq. destruct hq as [p [<- hp]]. unfold ms, mesh_at. rewrite map_length. exact (within_refs ns p (proj1 (Forall_forall _ _) inside p hp) i hi).
    - intros l i hl hi. apply in_map_iff in hl. destruct hl as [l0 [<- hl]]. unfold ms, mesh_at. rewrite map_length. exact (loads_in_range _ _ _ _ _ _ _ _ run l0 i hl hi).
  Qed.

  Variables (s2 : gsys R) (ms' : list (node R)) (m : nat).
  Hypothesis run2 : initialise_system ms qs ks cs da = Ok (s2, ms', m).

  Lemma levered_unit p d q e : levered (unit_field p d) q e = lever la d * unit_field p d q e.
  Proof using Type.
    unfold levered, unit_field. destruct (Nat.eqb_spec (3 * p + dir_idx d) (3 * q + dir_idx e)) as [h|h]; [|ring]. assert (e = d) as -> by (destruct d, e; cbn in h; try reflexivity; lia). reflexivity.
  Qed.

  Lemma same_nodes : ms' = mesh_at la ns' /\ m = n.
  Proof using shapes sounds clear_values run run2 la_pos.
    destruct (initialise_inv _ _ _ _ _ _ _ _ run) as [s0 [st [e0 [q0 [t0 _]]]]]. destruct (initialise_inv _ _ _ _ _ _ _ _ run2) as [s1 [st1 [e1 [q1 [t1 _]]]]].
    assert (hlen : length ms = length ns) by (unfold ms, mesh_at; apply map_length). rewrite hlen in q1.
    unfold ms in t1. rewrite number_at, constraints_at in t1. set (cn := fold_left apply_constraint cs (number_from 0 ns)) in *. unfold trim_all in t0, t1.
    assert (e : obsolete_indices s1 (mesh_at la cn) = obsolete_indices s0 cn).
    { assert (dg : forall k, (k < 3 * length ns)%nat -> np_isclose (me (gK s1) k k) (lit 0) = np_isclose (me (gK s0) k k) (lit 0) /\ np_isclose (me (gM s1) k k) (lit 0) = np_isclose (me (gM s0) k k) (lit 0)).
      { intros k hkn. assert (hp : exists p d, (p < length ns)%nat /\ k = (3 * p + dir_idx d)%nat).
        { exists (k / 3)%nat. pose proof (Nat.div_mod k 3 ltac:(lia)) as hd0. pose proof (Nat.mod_upper_bound k 3 ltac:(lia)) as hm.
          assert (hq : (k / 3 < length ns)%nat) by (apply Nat.div_lt_upper_bound; lia).
          destruct (k mod 3) as [|[|[|x]]] eqn:er; [exists DX|exists DY|exists DR|exfalso; lia]; cbn [dir_idx]; split; try exact hq; lia. }
        destruct hp as [p [d [hp ->]]]. destruct (assemble_diag ns ps ls s0 _ p d shapes e0 hp) as [a1 a2]. destruct (assemble_diag ms qs ks s1 _ p d shapes_at e1 ltac:(lia)) as [b1 b2].
        rewrite total_at in b1 by (left; reflexivity). rewrite total_at in b2 by (right; left; reflexivity).
        assert (sc : forall aux, nsum (map (fun a => part_form aux ns (levered (unit_field p d)) (settled ns a)) ps) = lever la d * lever la d * nsum (map (fun a => part_form aux ns (unit_field p d) (settled ns a)) ps)).
        { intros aux. rewrite <- nsum_scal. apply nsum_map_ext. intros a _. rewrite <- form_times. apply form_same. intros q e. apply levered_unit. }
        rewrite sc in b1, b2. rewrite b1, b2, <- a1, <- a2.
        assert (one : forall x, np_isclose (1 * 1 * x) (lit 0) = np_isclose x (lit 0)) by (intros x; replace (1 * 1 * x) with x by ring; reflexivity).
        destruct d; cbn [lever]; [split; apply one|split; apply one|].
        destruct (proj2 clear_values p hp) as [c1 c2]. unfold own_stiffness, own_mass in c1, c2.
        rewrite (nsum_map_ext (fun a => part_form aux_stiffness ns (lone p DR) (settled ns a)) (fun a => part_form aux_stiffness ns (unit_field p DR) (settled ns a))) in c1 by (intros; apply form_same; apply lone_unit).
        rewrite (nsum_map_ext (fun a => part_form aux_mass ns (lone p DR) (settled ns a)) (fun a => part_form aux_mass ns (unit_field p DR) (settled ns a))) in c2 by (intros; apply form_same; apply lone_unit).
        rewrite <- a1 in c1. rewrite <- a2 in c2. split; apply near_at; try assumption; apply Rmult_lt_0_compat; exact la_pos. }
      destruct q0 as [k1 [k2 [k3 [k4 _]]]]. destruct q1 as [l1 [l2 [l3 [l4 _]]]].
      assert (dm : forall (a b : mat R), mr a = (3 * length ns)%nat -> mc a = (3 * length ns)%nat -> mr b = (3 * length ns)%nat -> mc b = (3 * length ns)%nat ->
        (forall k, (k < 3 * length ns)%nat -> np_isclose (me b k k) (lit 0) = np_isclose (me a k k) (lit 0)) -> where_zero_from 0 (mdiag b) = where_zero_from 0 (mdiag a)).
      { intros a b g1 g2 g3 g4 hd. unfold mdiag. rewrite g1, g2, g3, g4, Nat.min_id. apply where_zero_ext; [rewrite !map_length; reflexivity|].
        intros k hk0. rewrite map_length, seq_length in hk0. rewrite !(nth_map0 _ _ k 0%nat) by (rewrite seq_length; exact hk0). rewrite seq_nth by exact hk0. cbn [plus]. exact (hd k hk0). }
      unfold obsolete_indices. rewrite constrained_at. rewrite (dm (gK s0) (gK s1)), (dm (gM s0) (gM s1)); try assumption; [reflexivity| |]; intros k hkn; destruct (dg k hkn) as [g1 g2]; assumption. }
    rewrite e in t1. unbind t0. unbind t1. unfold recalculate_dof in t0, t1. rewrite recalc_at in t1. destruct (recalc_from _ _ cn) as [l k]. cbn [fst snd] in t1. injection t0 as _ <- <-. injection t1 as _ <- <-. split; reflexivity.
  Qed.

  (** the lever of degree of freedom [i] *)
  Definition arm (i : nat) : R := vector_of ns' (fun p d => match number_of ns' p d with Some _ => lever la d | None => 0 end) i.

  Lemma kept_numbers : numbered ns' n.
  Proof using run. destruct (initialise_inv _ _ _ _ _ _ _ _ run) as [s0 [_ [e0 _]]]. destruct (initialise_kept _ _ _ _ _ _ _ _ _ run e0) as [_ [hn _]]. exact hn. Qed.

  Lemma arm_at p d i : number_of ns' p d = Some i -> arm i = lever la d.
  Proof using run.
    intros h. pose proof (vector_field ns' n (fun p d => match number_of ns' p d with Some _ => lever la d | None => 0 end) kept_numbers) as g.
    assert (z : forall q e, number_of ns' q e = None -> match number_of ns' q e with Some _ => lever la e | None => 0 end = 0) by (intros q e he; rewrite he; reflexivity).
    specialize (g z p d). unfold field_of in g. rewrite h in g. exact g.
  Qed.

  Lemma some_place i : (i < n)%nat -> exists p d, number_of ns' p d = Some i.
  Proof using run. intros hi. assert (g : In i (all_numbers ns')) by (rewrite kept_numbers; apply in_seq; lia). apply all_numbers_In in g. exact g. Qed.

  Lemma levered_field x p d : levered (field_of (mesh_at la ns') x) p d = field_of ns' (fun i => arm i * x i) p d.
  Proof using run. unfold levered, field_of. rewrite number_of_at. destruct (number_of ns' p d) as [i|] eqn:e; [rewrite (arm_at p d i e); reflexivity|ring]. Qed.

  Lemma quad_at x : quad n (me (gK s2)) x = quad n (me (gK s)) (fun i => arm i * x i) /\ quad n (me (gM s2)) x = quad n (me (gM s)) (fun i => arm i * x i) /\
    quad n (me (gC s2)) x = quad n (me (gC s)) (fun i => arm i * x i).
  Proof using shapes sounds clear_values run run2 la_pos.
    destruct same_nodes as [e1 e2]. pose proof run2 as h2. rewrite e1, e2 in h2.
    destruct (initialise_energy _ _ _ _ _ _ _ _ (fun i => arm i * x i) shapes run) as [-> [-> ->]]. destruct (initialise_energy _ _ _ _ _ _ _ _ x shapes_at h2) as [-> [-> ->]].
    assert (e : forall aux, is_aux aux -> nsum (map (fun p => part_form aux ms (field_of (mesh_at la ns') x) (settled ms p)) qs) = nsum (map (fun p => part_form aux ns (field_of ns' (fun i => arm i * x i)) (settled ns p)) ps)).
    { intros aux ha. rewrite total_at by exact ha. apply nsum_map_ext. intros p _. apply form_same. intros q d. apply levered_field. }
    rewrite (e aux_stiffness (or_introl eq_refl)), (e aux_mass (or_intror (or_introl eq_refl))), (e aux_damping (or_intror (or_intror eq_refl))). split; [reflexivity|]. split; reflexivity.
  Qed.

  Lemma arm_entry (a b : nat -> nat -> R) i j : msym n a -> msym n b -> (forall x, quad n b x = quad n a (fun i => arm i * x i)) -> (i < n)%nat -> (j < n)%nat -> b i j = arm i * arm j * a i j.
  Proof using Type.
    intros ha hb h hi hj. set (c := fun i j => arm i * arm j * a i j). assert (hc : msym n c) by (intros u v hu hv; unfold c; rewrite (ha u v hu hv); ring).
    assert (hq : forall x, quad n b x = quad n c x).
    { intros x. rewrite h. unfold quad, c. apply sumn_ext. intros u hu. apply sumn_ext. intros v hv. ring. }
    change (b i j = c i j). rewrite (quad_pair n b i j hb hi hj), (quad_pair n c i j hc hi hj), !hq. reflexivity.
  Qed.

  Lemma entry_at i j : (i < n)%nat -> (j < n)%nat -> me (gK s2) i j = arm i * arm j * me (gK s) i j /\ me (gM s2) i j = arm i * arm j * me (gM s) i j /\ me (gC s2) i j = arm i * arm j * me (gC s) i j.
  Proof using shapes sounds clear_values run run2 la_pos.
    intros hi hj. destruct same_nodes as [e1 e2]. pose proof run2 as h2. rewrite e1, e2 in h2.
    destruct (initialise_sym _ _ _ _ _ _ _ _ shapes sounds run) as [y1 [y2 y3]]. destruct (initialise_sym _ _ _ _ _ _ _ _ shapes_at sounds_at h2) as [z1 [z2 z3]].
    split; [|split]; apply arm_entry; try assumption; intros x; apply quad_at.
  Qed.

  Lemma force_at i : Forall plain_load ls -> (i < n)%nat -> nth i (gF s2) 0 = la * arm i * nth i (gF s) 0.
  Proof using shapes sounds clear_values run run2 la_pos.
    intros plain hi. destruct same_nodes as [e1 e2]. pose proof run2 as h2. rewrite e1, e2 in h2. destruct (some_place i hi) as [p [d hq]]. rewrite (arm_at p d i hq).
    rewrite (plain_forces _ _ _ _ _ _ _ _ run (loads_in_range _ _ _ _ _ _ _ _ run) plain p d i hq).
    assert (plain2 : Forall plain_load ks).
    { apply Forall_forall. intros l hl0. apply in_map_iff in hl0. destruct hl0 as [l0 [<- hl0]]. destruct (proj1 (Forall_forall _ _) plain l0 hl0) as [g1 g2].
      split; cbn [load_at ld_nodes ld_vals]; [exact g1|rewrite map_length; exact g2]. }
    rewrite (plain_forces _ _ _ _ _ _ _ _ h2 (loads_in_range _ _ _ _ _ _ _ _ h2) plain2 p d i) by (rewrite number_of_at; exact hq). unfold ks. rewrite map_map, <- nsum_scal. apply nsum_map_ext. intros l _.
    unfold load_force, load_at. cbn [ld_nodes ld_flag ld_vals]. generalize (ld_vals l). generalize (ld_nodes l).
    induction l0 as [|x l0 IH']; intros vs; [cbn; rnum; ring|]. destruct vs as [|v vs]; [cbn; rnum; ring|]. cbn [map combine nsum fst snd]. rewrite IH'. rnum. rewrite Rmult_plus_distr_l. f_equal.
    destruct (tget (ld_flag l) d && Nat.eqb x p)%bool; [destruct d; cbn; ring|ring].
  Qed.

  (** [y] is [x] in the new unit *)
  Lemma mulv_at x y i : (forall p d k, number_of ns' p d = Some k -> y k = stretch la d * x k) -> (i < n)%nat ->
    mulv n (me (gK s2)) y i = la * arm i * mulv n (me (gK s)) x i /\ mulv n (me (gM s2)) y i = la * arm i * mulv n (me (gM s)) x i /\ mulv n (me (gC s2)) y i = la * arm i * mulv n (me (gC s)) x i.
  Proof using shapes sounds clear_values run run2 la_pos.
    intros hy hi. assert (e : forall j, (j < n)%nat -> arm j * y j = la * x j).
    { intros j hj. destruct (some_place j hj) as [p [d hq]]. rewrite (arm_at p d j hq), (hy p d j hq). destruct d; cbn; ring. }
    unfold mulv. rewrite <- !sumn_scal. refine (conj _ (conj _ _)); apply sumn_ext; intros j hj; destruct (entry_at i j hi hj) as [h1 [h2 h3]]; rewrite ?h1, ?h2, ?h3;
      [transitivity (arm i * me (gK s) i j * (arm j * y j))|transitivity (arm i * me (gM s) i j * (arm j * y j))|transitivity (arm i * me (gC s) i j * (arm j * y j))]; try ring; rewrite (e j hj); ring.
  Qed.

  Lemma arm_pos i : (i < n)%nat -> 0 < arm i.
  Proof using run la_pos. intros hi. destruct (some_place i hi) as [p [d hq]]. rewrite (arm_at p d i hq). destruct d; cbn; lra. Qed.

  Lemma motion_at g u v b g2 u2 v2 b2 :
    (forall t p d i, number_of ns' p d = Some i -> g2 t i = la * lever la d * g t i /\ u2 t i = stretch la d * u t i /\ v2 t i = stretch la d * v t i /\ b2 t i = stretch la d * b t i) ->
    motion n s g u v b -> motion n s2 g2 u2 v2 b2.
  Proof using shapes sounds clear_values run run2 la_pos.
    intros h [m1 [m2 m3]]. split; [|split].
    - intros i hi. destruct (some_place i hi) as [p [d hq]]. apply (derivative_ext (fun t => stretch la d * u t i) _ (fun t => stretch la d * v t i)); try (intros t; destruct (h t p d i hq) as [_ [g1 [g3 _]]]; symmetry; assumption).
      intros t. apply (derivable_pt_lim_scal (fun t => u t i) (stretch la d) t). apply m1. exact hi.
    - intros i hi. destruct (some_place i hi) as [p [d hq]]. apply (derivative_ext (fun t => stretch la d * v t i) _ (fun t => stretch la d * b t i)); try (intros t; destruct (h t p d i hq) as [_ [_ [g1 g3]]]; symmetry; assumption).
      intros t. apply (derivable_pt_lim_scal (fun t => v t i) (stretch la d) t). apply m2. exact hi.
    - intros t i hi. destruct (some_place i hi) as [p [d hq]]. destruct (h t p d i hq) as [-> _]. rewrite <- (m3 t i hi), <- (arm_at p d i hq).
      destruct (mulv_at (b t) (b2 t) i ltac:(intros q e k hk; apply (h t q e k hk)) hi) as [_ [-> _]]. destruct (mulv_at (v t) (v2 t) i ltac:(intros q e k hk; apply (h t q e k hk)) hi) as [_ [_ ->]].
      destruct (mulv_at (u t) (u2 t) i ltac:(intros q e k hk; apply (h t q e k hk)) hi) as [-> _]. ring.
  Qed.
End Length.
