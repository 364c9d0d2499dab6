(** * Lemmas about mirrored models *)

From Coq Require Import Reals List Bool ZArith Arith Lia Lra Permutation.
From Verif Require Import Num PyBase Model_Geometry Model_System Spec_System Proofs_Dof Proofs_System Model_Element Spec_Element
  Proofs_Elements Proofs_Element Proofs_Beam Proofs_Force Model_Accumulation Proofs_Accumulation Model_Track Spec_Track Proofs_Track Proofs_Assembly
  Spec_Analytic Spec_Motion Proofs_Motion Spec_Chain Proofs_Chain Spec_Renumber Proofs_Renumber Spec_Turn Proofs_Turn Spec_Mirror.
Import ListNotations.
Local Open Scope R_scope.

(** ** the angle *)
Definition facing (a b : R) : Prop := cos b = - cos a /\ sin b = sin a.
Definition counter (a b : R) : Prop := cos b = cos a /\ sin b = - sin a.

Definition flip (a : R) (p : R * R) : R * R := (a - fst p, snd p).

Lemma angle_clear_flip a p q : 1 / 100000000 < Rabs (fst q - fst p) -> facing (calculate_rotation1 (p, q)) (calculate_rotation1 (flip a p, flip a q)).
Proof.
  destruct p as [x1 y1], q as [x2 y2]. unfold flip. cbn [fst snd]. intros hd. unfold calculate_rotation1. rnum.
  assert (n1 : np_isclose (x2 - x1) 0 = false). { destruct (np_isclose (x2 - x1) 0) eqn:e; [|reflexivity]. apply np_isclose_0_spec in e. lra. }
  assert (n2 : np_isclose (a - x2 - (a - x1)) 0 = false). { destruct (np_isclose (a - x2 - (a - x1)) 0) eqn:e; [|reflexivity]. apply np_isclose_0_spec in e. replace (a - x2 - (a - x1)) with (- (x2 - x1)) in e by ring. rewrite Rabs_Ropp in e. lra. }
  rewrite n1, n2. assert (ne : x2 - x1 <> 0) by (intros e; rewrite e, Rabs_R0 in hd; lra).
  replace ((y2 - y1) / (a - x2 - (a - x1))) with (- ((y2 - y1) / (x2 - x1))) by (field; lra). set (t := (y2 - y1) / (x2 - x1)).
  match goal with |- context [natan ?x] => change (natan x) with (atan x) end. match goal with |- context [natan ?x] => change (natan x) with (atan x) end. change npi with PI. rewrite atan_opp. unfold facing.
  destruct (nltbP x2 x1), (nltbP (a - x2) (a - x1)); try lra.
  - replace (0 + PI + atan t) with (atan t + PI) by ring. rewrite !neg_cos, !neg_sin. replace (0 + - atan t) with (- atan t) by ring. rewrite cos_neg, sin_neg. split; ring.
  - replace (0 + PI + - atan t) with (- atan t + PI) by ring. rewrite !neg_cos, !neg_sin. replace (0 + atan t) with (atan t) by ring. rewrite cos_neg, sin_neg. split; ring.
Qed.

Lemma angle_straight a p q : straight p q -> facing (calculate_rotation1 (p, q)) (calculate_rotation1 (flip a p, flip a q)).
Proof.
  destruct p as [x1 y1], q as [x2 y2]. unfold straight. cbn [fst snd]. intros [[-> ne]|[[-> ne]|h]].
  - unfold flip. cbn [fst snd]. rewrite !rotation1_vertical by congruence. destruct (Rlt_dec y1 y2); split; rewrite ?cos_neg, ?sin_neg, ?cos_PI2, ?sin_PI2; ring.
  - unfold flip. cbn [fst snd]. destruct (Rlt_dec x1 x2).
    + destruct (angle_flat_lt (a - x2) y1 (a - x1) ltac:(lra)) as [h1 h2]. rewrite (rotation1_right (a - x2)) in h1 by lra. rewrite (rotation1_right (a - x2)) in h2 by lra. rewrite (rotation1_right x1 x2) by lra. rewrite cos_0, sin_0 in *. split; rewrite ?cos_0, ?sin_0; lra.
    + destruct (angle_flat_lt x2 y1 x1 ltac:(lra)) as [h1 h2]. rewrite (rotation1_right x2) in h1 by lra. rewrite (rotation1_right x2) in h2 by lra. rewrite (rotation1_right (a - x1)) by lra. rewrite cos_0, sin_0 in *. split; rewrite ?cos_0, ?sin_0; lra.
  - apply angle_clear_flip. exact h.
Qed.

Lemma angle_any a p q : facing (calculate_rotation1 (p, q)) (calculate_rotation1 (flip a p, flip a q)) \/ counter (calculate_rotation1 (p, q)) (calculate_rotation1 (flip a p, flip a q)).
Proof.
  destruct (Rlt_dec (1 / 100000000) (Rabs (fst q - fst p))) as [h|h]; [left; apply angle_clear_flip; exact h|].
  destruct p as [x1 y1], q as [x2 y2]. cbn [fst snd] in h. destruct (Req_dec x1 x2) as [->|nx].
  - destruct (Req_dec y1 y2) as [->|ny].
    + right. unfold flip. cbn [fst snd]. rewrite !rotation1_right by lra. split; rewrite ?cos_0, ?sin_0; ring.
    + left. apply angle_straight. left. cbn [fst snd]. split; [reflexivity|congruence].
  - destruct (Req_dec y1 y2) as [->|ny]; [left; apply angle_straight; right; left; cbn [fst snd]; split; [reflexivity|congruence]|]. right.
    unfold flip, calculate_rotation1. cbn [fst snd]. rnum.
    assert (n1 : np_isclose (x2 - x1) 0 = true) by (apply np_isclose_0_spec; lra).
    assert (n2 : np_isclose (a - x2 - (a - x1)) 0 = true) by (apply np_isclose_0_spec; replace (a - x2 - (a - x1)) with (- (x2 - x1)) by ring; rewrite Rabs_Ropp; lra).
    rewrite n1, n2. set (w := nsign (y2 - y1)). assert (hw : w = 1 \/ w = -1) by (unfold w; destruct (Rlt_dec y1 y2); [left; apply nsign_pos; lra|right; apply nsign_neg; lra]).
    change npi with PI. assert (c0 : cos (PI / 2 * w) = 0) by (destruct hw as [-> | ->]; [rewrite Rmult_1_r; apply cos_PI2|replace (PI / 2 * -1) with (- (PI / 2)) by field; rewrite cos_neg; apply cos_PI2]).
    unfold counter. destruct (nltbP x2 x1), (nltbP (a - x2) (a - x1)); try lra; rewrite !neg_cos, !neg_sin, !c0; split; ring.
Qed.

(** ** the form of a mirrored element *)
Definition seen (u : nat -> dir -> R) : nat -> dir -> R := fun p d => side d * u p d.
Definition bend_sign (i : nat) : R := match i with 0%nat | 3%nat => 1 | _ => -1 end.
Definition bend_same (m : nat -> nat -> R) : Prop := forall i j, (i < 6)%nat -> (j < 6)%nat -> bend_sign i * bend_sign j * m i j = m i j.

Lemma side_side d : side d * side d = 1.
Proof. destruct d; cbn; ring. Qed.

Lemma quad_bend m v : bend_same m -> quad 6 m (fun i => bend_sign i * v i) = quad 6 m v.
Proof.
  intros h. unfold quad. apply sumn_ext. intros i hi. apply sumn_ext. intros j hj. rewrite <- (h i j hi hj) at 2. ring.
Qed.

Lemma mass_bend b phi : bend_same (beam_mass b phi).
Proof.
  intros i j hi hj. rewrite !beam_mass_entries by assumption. unfold mass_entries. destruct (Req_EM_T phi 0).
  - rewrite !Rplus_0_r, <- Rmult_assoc. f_equal.
    do 6 (destruct i as [|i]; [do 6 (destruct j as [|j]; [cbn [bend_sign trans_entries]; field|]); lia|]); lia.
  - rewrite Rmult_plus_distr_l, <- !Rmult_assoc. f_equal; f_equal.
    + do 6 (destruct i as [|i]; [do 6 (destruct j as [|j]; [cbn [bend_sign trans_entries]; field|]); lia|]); lia.
    + do 6 (destruct i as [|i]; [do 6 (destruct j as [|j]; [cbn [bend_sign rot_entries]; ring|]); lia|]); lia.
Qed.

Lemma stiffness_bend b phi : bend_same (beam_stiffness b phi).
Proof.
  intros i j hi hj. unfold beam_stiffness. rewrite !reshape_all3 by assumption. unfold mscale. rnum. rewrite <- Rmult_assoc. f_equal. unfold rigid_mat.
  do 6 (destruct i as [|i]; [do 6 (destruct j as [|j]; [cbn; rnum; try reflexivity; unfold Rdiv; ring|]); lia|]); lia.
Qed.

Lemma damping_bend : bend_same (@beam_damping R RNum).
Proof. intros i j _ _. unfold beam_damping, zeros. rnum. ring. Qed.

Lemma local6_flip a b u p q i : facing a b -> (i < 6)%nat -> local6 b (seen u) p q i = bend_sign i * local6 a u p q i.
Proof.
  unfold local6, along, across, seen. intros [h1 h2] hi. do 6 (destruct i as [|i]; [cbn [vec6 bend_sign side]; rewrite ?h1, ?h2; ring|]). lia.
Qed.

Lemma local2_flip a b u p q : facing a b \/ counter a b -> exists c, (c = 1 \/ c = -1) /\ forall i, local2 b (seen u) p q i = c * local2 a u p q i.
Proof.
  unfold local2, along, seen. intros [[h1 h2]|[h1 h2]]; [exists 1|exists (-1)]; (split; [auto|]); intros i; cbn [side]; rewrite h1, h2; destruct i; ring.
Qed.

Section Mesh.
  Variables (a : R) (ns : list (node R)).

  Lemma xy_in p : (p < length ns)%nat -> xy (mirrored a ns) p = flip a (xy ns p).
  Proof.
    intros h. unfold xy, mirrored. rewrite nth_error_map. destruct (nth_error ns p) eqn:e; [reflexivity|]. apply nth_error_None in e. lia.
  Qed.

  Lemma form_flip aux u k m e : is_aux aux -> aux k = Some m -> (fst e < length ns)%nat -> (snd e < length ns)%nat ->
    (forall b, k = KBeam b \/ k = KRail b -> straight (xy ns (fst e)) (xy ns (snd e))) ->
    element_form k m (calculate_rotation1 (xy (mirrored a ns) (fst e), xy (mirrored a ns) (snd e))) (seen u) (fst e) (snd e) =
    element_form k m (calculate_rotation1 (xy ns (fst e), xy ns (snd e))) u (fst e) (snd e).
  Proof.
    intros ha hm h1 h2 hs. rewrite !xy_in by assumption.
    assert (big : forall b, k = KBeam b \/ k = KRail b -> quad 6 m (local6 (calculate_rotation1 (flip a (xy ns (fst e)), flip a (xy ns (snd e)))) (seen u) (fst e) (snd e)) =
      quad 6 m (local6 (calculate_rotation1 (xy ns (fst e), xy ns (snd e))) u (fst e) (snd e))).
    { intros b hk. assert (hb : bend_same m) by (destruct ha as [-> | [-> | -> ]]; destruct hk; subst k; injection hm as <-; try apply stiffness_bend; try apply mass_bend; apply damping_bend).
      etransitivity; [|apply (quad_bend m _ hb)]. apply quad_ext_vec. intros i hi. apply local6_flip; [apply angle_straight; exact (hs b hk)|exact hi]. }
    destruct k as [s c w|b|b|w]; cbn [element_form]; [|apply (big b); auto|apply (big b); auto|reflexivity].
    destruct (local2_flip _ _ u (fst e) (snd e) (angle_any a (xy ns (fst e)) (xy ns (snd e)))) as [t [ht e1]].
    assert (tt : t * t = 1) by (destruct ht; subst t; ring).
    unfold quad. apply sumn_ext. intros i _. apply sumn_ext. intros j _. rewrite !e1.
    match goal with |- t * ?x * ?y * (t * ?z) = _ => transitivity (t * t * (x * y * z)); [ring|rewrite tt; ring] end.
  Qed.

  Lemma part_flip aux u p : is_aux aux -> within ns p -> mirrorable ns p -> part_form aux (mirrored a ns) (seen u) p = part_form aux ns u p.
  Proof.
    intros ha hw hm. unfold part_form. destruct (aux (ep_kind p)) as [m|] eqn:em; [|reflexivity].
    assert (g : nsum (map (fun e => element_form (ep_kind p) m (calculate_rotation1 (xy (mirrored a ns) (fst e), xy (mirrored a ns) (snd e))) (seen u) (fst e) (snd e)) (ep_els p)) =
      nsum (map (fun e => element_form (ep_kind p) m (calculate_rotation1 (xy ns (fst e), xy ns (snd e))) u (fst e) (snd e)) (ep_els p))).
    { apply nsum_map_ext. intros e he. apply (form_flip aux); [exact ha|exact em|apply hw; right; exists e; auto|apply hw; right; exists e; auto|].
      intros b hk. unfold mirrorable in hm. destruct hk as [hk|hk]; rewrite hk in hm; apply hm; exact he. }
    destruct (ep_kind p); try exact g. apply nsum_map_ext. intros i _. unfold seen. cbn [side]. ring.
  Qed.

  Lemma dist_flip c c' : dist3 (T3 (a - tx c) (ty c) (tr c)) (T3 (a - tx c') (ty c') (tr c')) = dist3 c c'.
  Proof. unfold dist3. cbn [tx ty tr]. f_equal. ring. Qed.

  Lemma settled_flip p : settled (mirrored a ns) p = settled ns p.
  Proof.
    unfold settled. destruct (ep_kind p); try reflexivity. destruct (ep_nodes p) as [|i [|j l]]; try reflexivity. unfold mirrored. rewrite !nth_error_map.
    destruct (nth_error ns i), (nth_error ns j); cbn [option_map]; try reflexivity. cbn [mirror_node n_coord]. rewrite dist_flip. reflexivity.
  Qed.

  Lemma within_flip p : within ns p -> within (mirrored a ns) p.
  Proof. unfold within, mirrored. intros h i hi. rewrite map_length. apply h. exact hi. Qed.
  Lemma mirrorable_settled p : mirrorable ns p -> mirrorable ns (settled ns p).
  Proof.
    intros h. unfold settled. destruct (ep_kind p) eqn:ek; try exact h. destruct (ep_nodes p) as [|i [|j l]]; try exact h. destruct (nth_error ns i), (nth_error ns j); try exact h.
    unfold mirrorable in *. rewrite ek in h. cbn [ep_kind ep_els]. exact h.
  Qed.

  Lemma consecutive_flip (l : list (tri R)) : consecutive_distances (map (fun c => T3 (a - tx c) (ty c) (tr c)) l) = consecutive_distances l.
  Proof.
    induction l as [|c l IH]; [reflexivity|]. destruct l as [|c' l]; [reflexivity|]. cbn [map] in *. cbn [consecutive_distances] in *. f_equal; [|exact IH].
    unfold distance3. cbn [tx ty tr]. unfold sq. rnum. f_equal. ring.
  Qed.

  Lemma init_flip p p1 : initialize_part ns p = Ok p1 -> exists p2, initialize_part (mirrored a ns) p = Ok p2.
  Proof.
    intros h. unfold initialize_part in *. destruct (ep_kind p); try (eexists; reflexivity). unbind h. unbind h.
    assert (e : mapr (node_at (mirrored a ns)) (ep_nodes p) = Ok (map (mirror_node a) v)).
    { clear - hv. revert v hv. induction (ep_nodes p) as [|i l IH]; intros o h; [injection h as <-; reflexivity|]. cbn [mapr] in *. unbind h. unbind h. injection h as <-. rewrite (IH _ hv0).
      unfold node_at in *. apply at_idx_ok in hv. assert (q : at_idx (mirrored a ns) i = Ok (mirror_node a v)) by (apply at_idx_ok; unfold mirrored; rewrite nth_error_map, hv; reflexivity). rewrite q. reflexivity. }
    rewrite e. cbn [rbind]. rewrite map_map. cbn [mirror_node n_coord]. rewrite <- (map_map (@n_coord R) (fun c => T3 (a - tx c) (ty c) (tr c))). unfold calculate_length_rail in *. rewrite consecutive_flip.
    rewrite hv0. cbn [rbind]. destruct v0; eexists; reflexivity.
  Qed.
End Mesh.

Lemma signed_pair n m i j x y : msym n m -> (i < n)%nat -> (j < n)%nat ->
  quad n m (fun k => x * unit_vec i k + y * unit_vec j k) - quad n m (fun k => x * unit_vec i k) - quad n m (fun k => y * unit_vec j k) = 2 * (x * y * m i j).
Proof.
  intros hs hi hj.
  assert (w : forall a b, (a < n)%nat -> (b < n)%nat -> work n (mulv n m (unit_vec a)) (unit_vec b) = m b a).
  { intros a b ha hb. unfold work, mulv, unit_vec. rewrite (sumn_ext n _ (fun k => if Nat.eqb b k then m k a else 0)); [apply (sumn_pick n (fun k => m k a)); exact hb|].
    intros k hk. rewrite (sumn_ext n _ (fun q => if Nat.eqb a q then m k q else 0)) by (intros q hq; destruct (Nat.eqb a q); ring).
    rewrite (sumn_pick n (fun q => m k q)) by exact ha. destruct (Nat.eqb b k); ring. }
  assert (w2 : forall a b c e, (a < n)%nat -> (b < n)%nat -> work n (mulv n m (fun k => c * unit_vec a k)) (fun k => e * unit_vec b k) = c * e * m b a).
  { intros a b c e ha hb. rewrite <- (w a b ha hb). unfold work. rewrite <- sumn_scal. apply sumn_ext. intros k _. rewrite mulv_scaled. ring. }
  rewrite !quad_work.
  rewrite (work_ext n (mulv n m (fun k => x * unit_vec i k + y * unit_vec j k)) (fun k => x * unit_vec i k + y * unit_vec j k)
    (fun k => mulv n m (fun k => x * unit_vec i k) k + mulv n m (fun k => y * unit_vec j k) k) (fun k => x * unit_vec i k + y * unit_vec j k)) by (intros; try apply mulv_sum; reflexivity).
  rewrite work_add, (work_swap n (mulv n m (fun k => x * unit_vec i k)) (fun k => x * unit_vec i k + y * unit_vec j k)), (work_swap n (mulv n m (fun k => y * unit_vec j k)) (fun k => x * unit_vec i k + y * unit_vec j k)), !work_add.
  rewrite !(work_swap n (fun k => _ * unit_vec _ k) (mulv _ _ _)). rewrite !w2 by assumption. rewrite (hs j i) by assumption. ring.
Qed.

Lemma derivative_scale c (f g : R -> R) : derivative f g -> derivative (fun t => c * f t) (fun t => c * g t).
Proof. intros h t. apply (derivable_pt_lim_scal f c t (g t)). apply h. Qed.

(** ** the system *)
Section Systems.
  Variables (a : R) (ns : list (node R)) (ps : list (epart R)) (ls : list (load R)) (cs : list (list nat * tri bool)) (da : damping R).
  Variables (s : gsys R) (ns' : list (node R)) (n : nat).
  Hypothesis shapes : Forall shaped ps.
  Hypothesis sounds : Forall (fun p => sound (settled ns p)) ps.
  Hypothesis inside : Forall (within ns) ps.
  Hypothesis straight_parts : Forall (mirrorable ns) ps.
  Hypothesis run : initialise_system ns ps ls cs da = Ok (s, ns', n).

  Let ms := mirrored a ns.
  Let ks := map mirrored_load ls.

  Lemma same_length : length ms = length ns.
  Proof. apply map_length. Qed.

  Lemma total_flip aux u : is_aux aux -> nsum (map (fun p => part_form aux ms (seen u) (settled ms p)) ps) = nsum (map (fun p => part_form aux ns u (settled ns p)) ps).
  Proof.
    intros ha. apply nsum_map_ext. intros p hp. rewrite Forall_forall in inside, straight_parts. unfold ms. rewrite settled_flip.
    apply part_flip; [exact ha|apply settled_within; apply inside; exact hp|apply mirrorable_settled; apply straight_parts; exact hp].
  Qed.

  Lemma run_flip : exists s2 ms' m, initialise_system ms ps ks cs da = Ok (s2, ms', m).
  Proof.
    apply initialise_ok.
    - intros p hp. exact (init_flip a ns p _ (first_ok _ _ _ _ _ _ _ _ run p hp)).
    - intros p i hp hi. rewrite Forall_forall in inside. rewrite same_length. exact (within_refs ns p (inside p hp) i hi).
    - intros l i hl hi. apply in_map_iff in hl. destruct hl as [l0 [<- hl]]. rewrite same_length. exact (loads_in_range _ _ _ _ _ _ _ _ run l0 i hl hi).
  Qed.

  Variables (s2 : gsys R) (ms' : list (node R)) (m : nat).
  Hypothesis run2 : initialise_system ms ps ks cs da = Ok (s2, ms', m).

  Lemma sounds2 : Forall (fun p => sound (settled ms p)) ps.
  Proof. apply Forall_forall. intros p hp. unfold ms. rewrite settled_flip. rewrite Forall_forall in sounds. apply sounds. exact hp. Qed.

  Lemma unit_seen p d q e : side d * unit_field p d q e = seen (unit_field p d) q e.
  Proof.
    unfold seen, unit_field. destruct (Nat.eqb_spec (3 * p + dir_idx d) (3 * q + dir_idx e)) as [h|h]; [|ring].
    assert (d = e) as -> by (destruct d, e; cbn in h; try reflexivity; exfalso; lia). reflexivity.
  Qed.

  Lemma form_sign aux x u p : is_aux aux -> x * x = 1 -> part_form aux ms (fun i d => x * u i d) p = part_form aux ms u p.
  Proof.
    intros ha hx. unfold part_form. destruct (aux (ep_kind p)) as [k|]; [|reflexivity].
    assert (g : forall t e, element_form t k (calculate_rotation1 (xy ms (fst e), xy ms (snd e))) (fun i d => x * u i d) (fst e) (snd e) = element_form t k (calculate_rotation1 (xy ms (fst e), xy ms (snd e))) u (fst e) (snd e)).
    { intros t e. assert (q6 : forall c, quad 6 k (local6 c (fun i d => x * u i d) (fst e) (snd e)) = quad 6 k (local6 c u (fst e) (snd e))).
      { intros c. unfold quad. apply sumn_ext. intros i hi. apply sumn_ext. intros j hj.
        assert (w : forall z, (z < 6)%nat -> local6 c (fun i d => x * u i d) (fst e) (snd e) z = x * local6 c u (fst e) (snd e) z) by (intros z hz; unfold local6, along, across; do 6 (destruct z as [|z]; [cbn [vec6]; ring|]); lia).
        rewrite !w by assumption. match goal with |- x * ?y * ?v * (x * ?z) = _ => transitivity (x * x * (y * v * z)); [ring|rewrite hx; ring] end. }
      destruct t; cbn [element_form]; try apply q6; [|reflexivity]. unfold quad. apply sumn_ext. intros i hi. apply sumn_ext. intros j hj. unfold local2, along. destruct i, j;
        match goal with |- _ * ?v * _ = ?y * ?v * ?z => transitivity (x * x * (y * v * z)); [ring|rewrite hx; ring] end. }
    destruct (ep_kind p); try (apply nsum_map_ext; intros e _; apply g). apply nsum_map_ext. intros i _. transitivity (k 0%nat 0%nat * (x * x * (u i DY * u i DY))); [ring|rewrite hx; ring].
  Qed.

  Lemma number_flip p d : (p < length ns)%nat -> (number_of ns' p d <> None <-> number_of ms' p d <> None).
  Proof.
    intros hp. destruct (initialise_inv _ _ _ _ _ _ _ _ run) as [s0 [_ [e0 _]]]. destruct (initialise_inv _ _ _ _ _ _ _ _ run2) as [s1 [_ [e1 _]]].
    destruct (initialise_kept _ _ _ _ _ _ _ _ _ run e0) as [_ [_ [k1 _]]]. destruct (initialise_kept _ _ _ _ _ _ _ _ _ run2 e1) as [_ [_ [k2 _]]].
    assert (hq : (p < length ms)%nat) by (rewrite same_length; exact hp).
    rewrite (k1 p d hp), (k2 p d hq). cbv zeta.
    assert (ea : active ms p d = active ns p d) by (unfold active, ms, mirrored; rewrite nth_error_map; destruct (nth_error ns p); reflexivity). rewrite ea.
    destruct (assemble_diag ns ps ls s0 _ p d shapes e0 hp) as [a1 a2]. destruct (assemble_diag ms ps ks s1 _ p d shapes e1 hq) as [b1 b2].
    assert (x : forall aux, is_aux aux -> nsum (map (fun q => part_form aux ms (unit_field p d) (settled ms q)) ps) = nsum (map (fun q => part_form aux ns (unit_field p d) (settled ns q)) ps)).
    { intros aux ha. rewrite <- total_flip by exact ha. apply nsum_map_ext. intros q hq'. rewrite <- (form_sign aux (side d) (unit_field p d) _ ha (side_side d)).
      rewrite Forall_forall in inside. apply form_within; [unfold ms; rewrite settled_flip; apply within_flip; apply settled_within; apply inside; exact hq'|]. intros i e _. apply unit_seen. }
    rewrite x, <- a1 in b1 by (left; reflexivity). rewrite x, <- a2 in b2 by (right; left; reflexivity). clear a1 a2 x k1 k2.
    replace (3 * p + match d with DX => 0 | DY => 1 | DR => 2 end)%nat with (3 * p + dir_idx d)%nat by (destruct d; reflexivity).
    rewrite b1, b2. reflexivity.
  Qed.

  (** vectors with mirrored fields *)
  Definition mirror_vec (x y : nat -> R) : Prop := forall p d i j, number_of ns' p d = Some i -> number_of ms' p d = Some j -> y j = side d * x i.

  Lemma field_flip x y : mirror_vec x y -> forall p d, (p < length ns)%nat -> field_of ms' y p d = seen (field_of ns' x) p d.
  Proof.
    intros h p d hp. pose proof (number_flip p d hp) as hn. specialize (h p d). unfold field_of, seen.
    destruct (number_of ns' p d) as [i|], (number_of ms' p d) as [j|].
    - apply h; reflexivity.
    - exfalso. exact (proj1 hn ltac:(discriminate) eq_refl).
    - exfalso. exact (proj2 hn ltac:(discriminate) eq_refl).
    - ring.
  Qed.

  Lemma quad_flip x y : mirror_vec x y -> quad m (me (gK s2)) y = quad n (me (gK s)) x /\ quad m (me (gM s2)) y = quad n (me (gM s)) x /\ quad m (me (gC s2)) y = quad n (me (gC s)) x.
  Proof.
    intros h. destruct (initialise_energy _ _ _ _ _ _ _ _ x shapes run) as [-> [-> ->]]. destruct (initialise_energy _ _ _ _ _ _ _ _ y shapes run2) as [-> [-> ->]].
    assert (g : forall aux, is_aux aux -> nsum (map (fun p => part_form aux ms (field_of ms' y) (settled ms p)) ps) = nsum (map (fun p => part_form aux ns (field_of ns' x) (settled ns p)) ps)).
    { intros aux ha. rewrite <- total_flip by exact ha. apply nsum_map_ext. intros p hp. pose proof (proj1 (Forall_forall _ _) inside p hp) as hin. apply form_within.
      - unfold ms. rewrite settled_flip. apply within_flip. apply settled_within. exact hin.
      - intros i d hi. rewrite same_length in hi. apply (field_flip x y h i d hi). }
    rewrite !g by (unfold is_aux; auto). auto.
  Qed.

  Lemma unit_flip p d i j : number_of ns' p d = Some i -> number_of ms' p d = Some j -> mirror_vec (unit_vec i) (fun k => side d * unit_vec j k).
  Proof.
    intros h1 h2 q e k l h3 h4. unfold unit_vec. destruct (Nat.eqb_spec i k) as [->|ne], (Nat.eqb_spec j l) as [->|ne2].
    - destruct (numbers_inj _ _ _ _ _ _ _ _ run _ _ _ _ _ h1 h3) as [_ ->]. reflexivity.
    - exfalso. destruct (numbers_inj _ _ _ _ _ _ _ _ run _ _ _ _ _ h1 h3) as [-> ->]. congruence.
    - exfalso. destruct (numbers_inj _ _ _ _ _ _ _ _ run2 _ _ _ _ _ h2 h4) as [-> ->]. congruence.
    - ring.
  Qed.

  Lemma entry_flip p d q e i j i' j' : number_of ns' p d = Some i -> number_of ns' q e = Some j -> number_of ms' p d = Some i' -> number_of ms' q e = Some j' ->
    me (gK s2) i' j' = side d * side e * me (gK s) i j /\ me (gM s2) i' j' = side d * side e * me (gM s) i j /\ me (gC s2) i' j' = side d * side e * me (gC s) i j.
  Proof.
    intros h1 h2 h3 h4. pose proof (unit_flip _ _ _ _ h1 h3) as u1. pose proof (unit_flip _ _ _ _ h2 h4) as u2.
    assert (u3 : mirror_vec (fun k => unit_vec i k + unit_vec j k) (fun k => side d * unit_vec i' k + side e * unit_vec j' k)).
    { intros x y k l g1 g2. rewrite (u1 x y k l g1 g2), (u2 x y k l g1 g2). ring. }
    destruct (initialise_sym _ _ _ _ _ _ _ _ shapes sounds run) as [y1 [y2 y3]]. destruct (initialise_sym _ _ _ _ _ _ _ _ shapes sounds2 run2) as [z1 [z2 z3]].
    destruct (below _ _ _ _ _ _ _ _ run _ _ _ h1) as [bi _]. destruct (below _ _ _ _ _ _ _ _ run _ _ _ h2) as [bj _].
    destruct (below _ _ _ _ _ _ _ _ run2 _ _ _ h3) as [bi' _]. destruct (below _ _ _ _ _ _ _ _ run2 _ _ _ h4) as [bj' _].
    destruct (quad_flip _ _ u1) as [a1 [a2 a3]]. destruct (quad_flip _ _ u2) as [b1 [b2 b3]]. destruct (quad_flip _ _ u3) as [c1 [c2 c3]].
    assert (w : forall M M', msym m M' -> msym n M -> quad m M' (fun k => side d * unit_vec i' k) = quad n M (unit_vec i) -> quad m M' (fun k => side e * unit_vec j' k) = quad n M (unit_vec j) ->
      quad m M' (fun k => side d * unit_vec i' k + side e * unit_vec j' k) = quad n M (fun k => unit_vec i k + unit_vec j k) -> M' i' j' = side d * side e * M i j).
    { intros M M' q1 q2 g1 g2 g3. rewrite (quad_pair n M i j q2 bi bj), <- g1, <- g2, <- g3. rewrite (signed_pair m M' i' j' (side d) (side e) q1 bi' bj').
      transitivity (side d * side d * (side e * side e) * M' i' j'); [rewrite !side_side; ring|field]. }
    refine (conj _ (conj _ _)); [apply (w (me (gK s)))|apply (w (me (gM s)))|apply (w (me (gC s)))]; assumption.
  Qed.

  Lemma sum_flip g h : (forall p d i j, number_of ns' p d = Some i -> number_of ms' p d = Some j -> g i = h j) -> sumn n g = sumn m h.
  Proof.
    intros hg. destruct (initialise_inv _ _ _ _ _ _ _ _ run) as [s0 [_ [e0 _]]]. destruct (initialise_kept _ _ _ _ _ _ _ _ _ run e0) as [hl [hn _]].
    destruct (initialise_inv _ _ _ _ _ _ _ _ run2) as [s1 [_ [e1 _]]]. destruct (initialise_kept _ _ _ _ _ _ _ _ _ run2 e1) as [hl2 [hn2 _]].
    rewrite (dsum_numbers ns' n g hn), (dsum_numbers ms' m h hn2), hl, hl2, same_length. apply dsum_ext. intros p d hp.
    pose proof (number_flip p d hp) as hs. specialize (hg p d). destruct (number_of ns' p d) as [i|], (number_of ms' p d) as [j|]; auto.
    - exfalso. exact (proj1 hs ltac:(discriminate) eq_refl).
    - exfalso. exact (proj2 hs ltac:(discriminate) eq_refl).
  Qed.

  Lemma size_flip : m = n.
  Proof.
    assert (h : sumn n (fun _ => 1) = sumn m (fun _ => 1)) by (apply sum_flip; reflexivity).
    assert (g : forall k, sumn k (fun _ => 1) = INR k) by (induction k as [|k IH]; [reflexivity|]; cbn [sumn]; rewrite IH, S_INR; rnum; reflexivity).
    rewrite !g in h. symmetry. apply INR_eq. exact h.
  Qed.

  Lemma force_flip p d i j : Forall plain_load ls -> number_of ns' p d = Some i -> number_of ms' p d = Some j -> nth j (gF s2) 0 = side d * nth i (gF s) 0.
  Proof.
    intros plain h1 h2. rewrite (plain_forces _ _ _ _ _ _ _ _ run (loads_in_range _ _ _ _ _ _ _ _ run) plain p d i h1).
    assert (plain2 : Forall plain_load ks).
    { apply Forall_forall. intros l hl. apply in_map_iff in hl. destruct hl as [l0 [<- hl]]. rewrite Forall_forall in plain. destruct (plain l0 hl) as [g1 g2].
      split; cbn [mirrored_load ld_nodes ld_vals]; [exact g1|rewrite map_length; exact g2]. }
    rewrite (plain_forces _ _ _ _ _ _ _ _ run2 (loads_in_range _ _ _ _ _ _ _ _ run2) plain2 p d j h2). unfold ks. rewrite map_map.
    clear. induction ls as [|l r IH]; [cbn; rnum; ring|]. cbn [map nsum]. rewrite IH. rnum. rewrite Rmult_plus_distr_l. f_equal.
    unfold load_force, mirrored_load. cbn [ld_nodes ld_flag ld_vals]. generalize (ld_vals l). generalize (ld_nodes l).
    induction l0 as [|x l0 IH']; intros vs; [cbn; rnum; ring|]. destruct vs as [|v vs]; [cbn; rnum; ring|]. cbn [map combine nsum fst snd]. rewrite IH'. rnum. rewrite Rmult_plus_distr_l. f_equal.
    destruct (tget (ld_flag l) d && Nat.eqb x p)%bool; [destruct d; cbn; ring|ring].
  Qed.

  Lemma place_flip j : (j < m)%nat -> exists p d i, number_of ns' p d = Some i /\ number_of ms' p d = Some j.
  Proof.
    intros hj. destruct (initialise_inv _ _ _ _ _ _ _ _ run2) as [s0 [_ [e0 _]]]. destruct (initialise_kept _ _ _ _ _ _ _ _ _ run2 e0) as [hl [hn _]].
    assert (g : In j (all_numbers ms')) by (rewrite hn; apply in_seq; lia). apply all_numbers_In in g. destruct g as [p [d hq]].
    destruct (below _ _ _ _ _ _ _ _ run2 _ _ _ hq) as [_ hb]. rewrite same_length in hb.
    destruct (number_of ns' p d) as [i|] eqn:ei; [exists p, d, i; auto|]. exfalso. apply (proj2 (number_flip p d hb)); congruence.
  Qed.

  Lemma mulv_flip x y p d i j : mirror_vec x y -> number_of ns' p d = Some i -> number_of ms' p d = Some j ->
    mulv m (me (gK s2)) y j = side d * mulv n (me (gK s)) x i /\ mulv m (me (gM s2)) y j = side d * mulv n (me (gM s)) x i /\ mulv m (me (gC s2)) y j = side d * mulv n (me (gC s)) x i.
  Proof.
    intros h h1 h2. unfold mulv. rewrite <- !sumn_scal. refine (conj _ (conj _ _)); symmetry; apply sum_flip; intros q e k l h3 h4;
      destruct (entry_flip _ _ _ _ _ _ _ _ h1 h3 h2 h4) as [e1 [e2 e3]]; rewrite ?e1, ?e2, ?e3, (h _ _ _ _ h3 h4);
      match goal with |- ?c * (?A * ?b) = ?c * ?z * ?A * (?z * ?b) => transitivity (c * (A * b) * (z * z)); [rewrite side_side; ring|ring] end.
  Qed.

  Lemma motion_flip g u v b g2 u2 v2 b2 :
    (forall p d i j, number_of ns' p d = Some i -> number_of ms' p d = Some j -> forall t, g2 t j = side d * g t i /\ u2 t j = side d * u t i /\ v2 t j = side d * v t i /\ b2 t j = side d * b t i) ->
    motion n s g u v b -> motion m s2 g2 u2 v2 b2.
  Proof.
    intros he [mu [mv mb]].
    assert (pl : forall j, (j < m)%nat -> exists p d i, number_of ns' p d = Some i /\ number_of ms' p d = Some j /\ (i < n)%nat).
    { intros j hj. destruct (place_flip j hj) as [p [d [i [h3 h4]]]]. exists p, d, i. split; [exact h3|]. split; [exact h4|]. apply (below _ _ _ _ _ _ _ _ run p d i h3). }
    split; [|split].
    - intros j hj. destruct (pl j hj) as [p [d [i [h3 [h4 hi]]]]]. apply (derivative_ext (fun t => side d * u t i) _ (fun t => side d * v t i)); [| |apply derivative_scale; apply mu; exact hi];
        intros t; destruct (he p d i j h3 h4 t) as [e1 [e2 [e3 e4]]]; congruence.
    - intros j hj. destruct (pl j hj) as [p [d [i [h3 [h4 hi]]]]]. apply (derivative_ext (fun t => side d * v t i) _ (fun t => side d * b t i)); [| |apply derivative_scale; apply mv; exact hi];
        intros t; destruct (he p d i j h3 h4 t) as [e1 [e2 [e3 e4]]]; congruence.
    - intros t j hj. destruct (pl j hj) as [p [d [i [h3 [h4 hi]]]]]. destruct (he p d i j h3 h4 t) as [-> _]. rewrite <- (mb t i hi).
      destruct (mulv_flip (b t) (b2 t) p d i j) as [_ [w1 _]]; [intros p0 d0 i0 j0 x y; apply (he p0 d0 i0 j0 x y t)|exact h3|exact h4|].
      destruct (mulv_flip (v t) (v2 t) p d i j) as [_ [_ w2]]; [intros p0 d0 i0 j0 x y; apply (he p0 d0 i0 j0 x y t)|exact h3|exact h4|].
      destruct (mulv_flip (u t) (u2 t) p d i j) as [w3 _]; [intros p0 d0 i0 j0 x y; apply (he p0 d0 i0 j0 x y t)|exact h3|exact h4|].
      rewrite w1, w2, w3. ring.
  Qed.
End Systems.
