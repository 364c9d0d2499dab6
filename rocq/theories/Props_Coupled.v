(** * Properties of the coupled train-track system (C41 - C48, C72 - C74) *)

From Coq Require Import Reals List Bool ZArith Arith Lia Lra Psatz.
From Verif Require Import Num PyBase Model_Geometry Model_System Model_Element Model_Moving Model_Coupled
  Spec_System Spec_Element Spec_Moving Spec_Coupled Proofs_System Proofs_Moving Proofs_Contact Proofs_Load Proofs_Coupled.
Import ListNotations.
Local Open Scope R_scope.

Definition no_contact : contact R := mkContact [] [].

(** ** C41: contact forces on the track *)

(** for all wheels: of several values on one degree of freedom the value of the last wheel stays *)
Theorem C41_force_vector (ia : interaction R) (u F track : list R) : fits ia (length track) (length F) -> length u = length F ->
  exists F' track' fs, update_contact ia u F track = Ok (F', track') /\ length F' = length F /\ length track' = length track /\
    length fs = length (ia_train_dofs ia) /\
    (forall w, (w < length (ia_train_dofs ia))%nat -> contact_force (ia_G ia) (ia_pow ia) (nth w (ia_irr ia) 0) (wheel_gap ia u w) = Ok (nth w fs 0)) /\
    (forall w, (w < length (ia_train_dofs ia))%nat ->
       let d := nth w (ia_train_dofs ia) 0%nat in nth d F' 0 = nth d F 0 + nth w fs 0) /\
    (forall k, (length track <= k)%nat -> ~ In k (ia_train_dofs ia) -> nth k F' 0 = nth k F 0) /\
    (forall k, nth k track' 0 = last (contributions (ia_contacts ia) (map Ropp fs) k) (nth k track 0)) /\
    (forall k, (k < length track)%nat -> nth k F' 0 = nth k track' 0).
Proof. exact (update_contact_spec ia u F track). Qed.
Print Assumptions C41_force_vector.

(** missing in full: wheels sharing a degree of freedom.  Without sharing the vertical nodal forces of the wheels add
    up to minus the contact forces, and their work in any displacement is that of the contact force on the rail *)
Theorem C41_transfer_partial (ia : interaction R) (u F track : list R) :
  fits ia (length track) (length F) -> length u = length F -> NoDup (touched (ia_contacts ia)) ->
  exists F' track' fs, update_contact ia u F track = Ok (F', track') /\ length fs = length (ia_train_dofs ia) /\
    forall w, (w < length (ia_train_dofs ia))%nat ->
      contact_force (ia_G ia) (ia_pow ia) (nth w (ia_irr ia) 0) (wheel_gap ia u w) = Ok (nth w fs 0) /\
      let c := nth w (ia_contacts ia) no_contact in
      (forall i j, on_rail c i j -> nth i F' 0 + nth j F' 0 = - nth w fs 0) /\
      (forall v, sumn 4 (fun k => value_at F' (nth k (cn_dofs c) None) * value_at v (nth k (cn_dofs c) None)) = - nth w fs 0 * rail_at v c).
Proof.
  intros hf hu hd. destruct (update_contact_spec ia u F track hf hu) as [F' [track' [fs [h1 [h2 [h3 [h4 [h5 [h6 [h7 [h8 h9]]]]]]]]]]].
  exists F', track', fs. split; [exact h1|]. split; [exact h4|]. intros w hw. split; [apply h5; auto|].
  destruct hf as [hG [hnt [c1 [c2 [c3 [c4 [c5 [c6 c7]]]]]]]]. set (c := nth w (ia_contacts ia) no_contact).
  assert (hv : forall j i, (j < 4)%nat -> nth j (cn_dofs c) None = Some i -> nth i F' 0 = - (nth j (cn_shape c) 0 * nth w fs 0)).
  { intros j i hj hi. rewrite h9.
    - rewrite h8. rewrite (distinct_contribution _ _ w j i); auto; [|rewrite map_length; lia|lia]. cbn [last].
      rewrite (nth_map0 _ fs w 0) by lia. fold no_contact. fold c. ring.
    - apply c5. unfold touched. apply in_flat_map. exists c. split; [apply nth_In; lia|]. apply in_flat_map. exists (Some i). split; [|left; reflexivity].
      rewrite <- hi. apply nth_In. destruct (c4 c) as [e _]; [apply nth_In; lia|]. lia. }
  split.
  - intros i j [l [phi [x [ri [rj [hl [hp [e1 e2]]]]]]]]. rewrite (hv 0%nat i), (hv 2%nat j) by (try lia; rewrite e1; reflexivity).
    rewrite e2. cbn [map seq nth]. unfold y_shape, sq, cube. rnum. field. auto.
  - intros v. unfold rail_at. rewrite <- sumn_scal. apply sumn_ext. intros k hk. unfold value_at. destruct (nth k (cn_dofs c) None) as [i|] eqn:e.
    + rewrite (hv k i hk e). ring.
    + ring.
Qed.
Print Assumptions C41_transfer_partial.

(** the totals, for the vertical degrees of freedom [vi w] and [vj w] of the contact element of each wheel *)
Theorem C41_total_partial (ia : interaction R) (u F track : list R) (vi vj : nat -> nat) :
  fits ia (length track) (length F) -> length u = length F -> NoDup (touched (ia_contacts ia)) ->
  (forall w, (w < length (ia_train_dofs ia))%nat -> on_rail (nth w (ia_contacts ia) no_contact) (vi w) (vj w)) ->
  exists F' track' fs, update_contact ia u F track = Ok (F', track') /\ length fs = length (ia_train_dofs ia) /\
    (forall w, (w < length (ia_train_dofs ia))%nat -> contact_force (ia_G ia) (ia_pow ia) (nth w (ia_irr ia) 0) (wheel_gap ia u w) = Ok (nth w fs 0)) /\
    sumn (length fs) (fun w => nth (vi w) F' 0 + nth (vj w) F' 0) = - sumn (length fs) (fun w => nth w fs 0).
Proof.
  intros h1 h2 h3 h4. destruct (C41_transfer_partial ia u F track h1 h2 h3) as [F' [t' [fs [e1 [e2 e3]]]]].
  exists F', t', fs. split; [exact e1|]. split; [exact e2|]. split; [intros w hw; apply e3; auto|].
  replace (- sumn (length fs) (fun w => nth w fs 0)) with (-1 * sumn (length fs) (fun w => nth w fs 0)) by ring.
  rewrite <- sumn_scal. apply sumn_ext. intros w hw. rewrite e2 in hw. destruct (e3 w hw) as [_ [a _]]. rewrite (a (vi w) (vj w)); [ring|apply h4; auto].
Qed.
Print Assumptions C41_total_partial.

(** two wheels on one element: the force of the first wheel is lost *)
Definition half_contact : contact R := mkContact [Some 0%nat; Some 1%nat; Some 2%nat; Some 3%nat] (map (y_shape 1 0 (1 / 2)) (seq 0 4)).
Definition two_wheels : interaction R := mkInteraction [half_contact; half_contact] [4%nat; 5%nat] [0; 0] [0; 0] 1 (3 / 2).
Lemma two_wheels_fit : fits two_wheels 4 6.
Proof.
  unfold fits, two_wheels. cbn [ia_G ia_contacts ia_train_dofs ia_static ia_irr length].
  split; [lra|]. split; [lia|]. split; [reflexivity|]. split; [reflexivity|]. split; [reflexivity|]. split; [|split; [|split]].
  - intros c [<-|[<-|[]]]; split; reflexivity.
  - intros i hi. cbn in hi. intuition lia.
  - repeat constructor; simpl; intuition lia.
  - intros i [<-|[<-|[]]]; lia.
Qed.
Theorem C41_shared_refuted : exists F' track' fs, update_contact two_wheels [0; 0; 0; 0; -1; -1] [0; 0; 0; 0; 0; 0] [0; 0; 0; 0] = Ok (F', track') /\
  fs = [1; 1] /\
  (forall w, (w < 2)%nat -> contact_force 1 (3 / 2) 0 (wheel_gap two_wheels [0; 0; 0; 0; -1; -1] w) = Ok (nth w fs 0)) /\
  nth 0 F' 0 + nth 2 F' 0 = -1 /\ -1 <> - (nth 0 fs 0 + nth 1 fs 0).
Proof.
  destruct (update_contact_spec two_wheels [0; 0; 0; 0; -1; -1] [0; 0; 0; 0; 0; 0] [0; 0; 0; 0] two_wheels_fit eq_refl)
    as [F' [track' [fs [h1 [h2 [h3 [h4 [h5 [h6 [h7 [h8 h9]]]]]]]]]]].
  exists F', track', fs. split; [exact h1|].
  assert (hg : forall w, (w < 2)%nat -> wheel_gap two_wheels [0; 0; 0; 0; -1; -1] w = -1).
  { intros w hw. unfold wheel_gap, rail_at, value_at, two_wheels, half_contact. destruct w as [|[|w]]; [| |lia]; cbn; rnum; ring. }
  assert (hc : contact_force 1 (3 / 2) 0 (-1) = Ok 1).
  { rewrite contact_law; [|lra|exact not_integer_32]. unfold penetration. destruct (Rlt_dec 0 (- 0 - -1)); [|exfalso; lra].
    f_equal. replace ((- 0 - -1) / 1) with 1 by field. unfold Rpower. rewrite ln_1, Rmult_0_r. apply exp_0. }
  assert (hfs : fs = [1; 1]).
  { destruct fs as [|f0 [|f1 [|]]]; try discriminate h4. pose proof (h5 0%nat ltac:(simpl; lia)) as a. pose proof (h5 1%nat ltac:(simpl; lia)) as b.
    rewrite hg in a, b by lia. change (nth 0 (ia_irr two_wheels) 0) with 0 in a. change (nth 1 (ia_irr two_wheels) 0) with 0 in b.
    change (ia_G two_wheels) with 1 in a, b. change (ia_pow two_wheels) with (3/2) in a, b. rewrite hc in a, b. injection a as a. injection b as b. cbn in a, b. congruence. }
  split; [exact hfs|]. split.
  { intros w hw. rewrite hg by auto. rewrite hc, hfs. destruct w as [|[|w]]; [reflexivity|reflexivity|lia]. }
  subst fs. split; [|cbn; lra]. rewrite !h9, !h8 by (simpl; lia).
  unfold contributions, two_wheels, half_contact, y_shape, sq, cube. cbn. rnum. lra.
Qed.
Print Assumptions C41_shared_refuted.

Example C41_case : NoDup (touched [half_contact]) /\ on_rail half_contact 0 2.
Proof.
  split; [repeat constructor; simpl; intuition lia|]. exists 1, 0, (1 / 2), (Some 1%nat), (Some 3%nat). repeat split; lra.
Qed.

(** ** C42: contact law *)

Theorem C42_hertz (G irregularity du : R) : 0 < G ->
  let d := penetration irregularity du in
  exists f, contact_force G (3 / 2) irregularity du = Ok f /\ 0 <= f /\
    (d <= 0 -> f = 0) /\ (0 < d -> f = Rpower (d / G) (3 / 2) /\ 0 < f).
Proof.
  intros hG d. rewrite (contact_law G (3 / 2) _ _ hG not_integer_32). fold d. eexists. split; [reflexivity|].
  assert (hp : 0 < Rpower (d / G) (3 / 2)) by (unfold Rpower; apply exp_pos).
  destruct (Rlt_dec 0 d); repeat split; auto; try lra.
Qed.
Print Assumptions C42_hertz.

Theorem C42_continuous_increasing (G : R) : 0 < G ->
  exists f : R -> R, (forall i du, contact_force G (3 / 2) i du = Ok (f (penetration i du))) /\ continuity f /\
    (forall a b, 0 <= a < b -> f a < f b) /\ (forall a b, a <= b -> f a <= f b).
Proof.
  intros hG. exists (fun d => hertz (d / G)).
  assert (hd : forall d, (0 < d <-> 0 < d / G)).
  { intros d. split; intros h; [apply Rdiv_lt_0_compat; auto|]. replace d with (d / G * G) by (field; lra). apply Rmult_lt_0_compat; auto. }
  assert (hlt : forall a b, a < b -> a / G < b / G) by (intros; unfold Rdiv; apply Rmult_lt_compat_r; auto; apply Rinv_0_lt_compat; auto).
  assert (hinc : forall a b, 0 <= a < b -> hertz (a / G) < hertz (b / G)).
  { intros a b [h1 h2]. rewrite !hertz_eq. assert (hb : 0 < b / G) by (apply (proj1 (hd b)); lra). destruct (Rlt_dec 0 (b / G)); [|contradiction].
    destruct (Rlt_dec 0 (a / G)) as [ha|ha]; [|unfold Rpower; apply exp_pos]. apply rpower_lt; [lra|]. auto. }
  split; [|split; [|split]].
  - intros i du. rewrite (contact_law G (3 / 2) _ _ hG not_integer_32). f_equal. rewrite hertz_eq. specialize (hd (penetration i du)).
    destruct (Rlt_dec 0 (penetration i du)), (Rlt_dec 0 (penetration i du / G)); tauto.
  - intros x. apply (continuity_pt_comp (fun d => d / G) hertz x); [|apply hertz_continuous].
    apply (continuity_pt_mult (fun d => d) (fun _ => / G) x); [apply derivable_continuous_pt, derivable_pt_id|apply continuity_pt_const; intros a b; reflexivity].
  - exact hinc.
  - intros a b [h|h]; [|subst; lra]. destruct (Rle_lt_dec 0 a) as [ha|ha]; [left; apply hinc; auto|].
    rewrite (hertz_eq (a / G)). destruct (Rlt_dec 0 (a / G)) as [hc|hc]; [apply (proj2 (hd a)) in hc; lra|].
    rewrite hertz_eq. destruct (Rlt_dec 0 (b / G)); [left; unfold Rpower; apply exp_pos|lra].
Qed.
Print Assumptions C42_continuous_increasing.

(** other exponents that are not integers *)
Theorem C42_other_exponents_partial (G p irregularity du : R) : 0 < G -> (forall z, p <> IZR z) ->
  let d := penetration irregularity du in
  exists f, contact_force G p irregularity du = Ok f /\ 0 <= f /\ (d <= 0 -> f = 0) /\ (0 < d -> f = Rpower (d / G) p).
Proof.
  intros hG hp d. rewrite (contact_law G p _ _ hG hp). fold d. eexists. split; [reflexivity|].
  assert (0 < Rpower (d / G) p) by (unfold Rpower; apply exp_pos). destruct (Rlt_dec 0 d); repeat split; auto; try lra.
Qed.
Print Assumptions C42_other_exponents_partial.

(** a quadratic law pulls whenever wheel and rail are separated; a linear law pushes *)
Theorem C42_quadratic_refuted (G irregularity du : R) : 0 < G -> penetration irregularity du < 0 ->
  exists f, contact_force G 2 irregularity du = Ok f /\ f < 0.
Proof. exact (contact_even G irregularity du). Qed.
Print Assumptions C42_quadratic_refuted.
Theorem C42_linear_refuted (G irregularity du : R) : 0 < G ->
  contact_force G 1 irregularity du = Ok (Rabs (penetration irregularity du) / G).
Proof. exact (contact_odd G irregularity du). Qed.
Print Assumptions C42_linear_refuted.

Example C42_case : exists f, contact_force 1 (3 / 2) 0 (-4) = Ok f /\ f = 8.
Proof.
  rewrite contact_law; [|lra|exact not_integer_32]. eexists. split; [reflexivity|]. unfold penetration. destruct (Rlt_dec 0 (- 0 - -4)); [|exfalso; lra].
  replace ((- 0 - -4) / 1) with 4 by field. pose proof (hertz_eq 4) as h. destruct (Rlt_dec 0 4); [|exfalso; lra]. rewrite <- h.
  unfold hertz. rewrite Rabs_right by lra. replace ((4 + 4) / 2) with (Rsqr 2) by (unfold Rsqr; lra). rewrite sqrt_Rsqr by lra. unfold Rsqr. lra.
Qed.

(** a zero coefficient raises *)
Theorem C42_zero_coefficient (p irregularity du : R) : contact_force 0 p irregularity du = Err ErrZeroDivision.
Proof. unfold contact_force. destruct (neqbP 0 (lit 0)) as [e|e]; [reflexivity|]. exfalso. apply e. reflexivity. Qed.
Print Assumptions C42_zero_coefficient.

(** ** C43: static contact *)

Theorem C43_static (G p load : R) : 0 < G -> 0 < p -> load <= 0 ->
  exists s, static_deformation G p load = Ok s /\ contact_force G p 0 s = Ok (Rabs load).
Proof. exact (static_contact G p load). Qed.
Print Assumptions C43_static.

(** in the coupled model: wheels that follow the rail, no irregularity *)
Theorem C43_equilibrium (ia : interaction R) (u F track loads : list R) :
  fits ia (length track) (length F) -> length u = length F -> 0 < ia_G ia -> 0 < ia_pow ia ->
  (forall w, (w < length (ia_train_dofs ia))%nat -> nth w loads 0 <= 0 /\
     static_deformation (ia_G ia) (ia_pow ia) (nth w loads 0) = Ok (nth w (ia_static ia) 0) /\ nth w (ia_irr ia) 0 = 0 /\
     nth (nth w (ia_train_dofs ia) 0%nat) u 0 = rail_at u (nth w (ia_contacts ia) no_contact)) ->
  exists F' track', update_contact ia u F track = Ok (F', track') /\
    forall w, (w < length (ia_train_dofs ia))%nat -> let d := nth w (ia_train_dofs ia) 0%nat in nth d F' 0 = nth d F 0 + Rabs (nth w loads 0).
Proof.
  intros hf hu hG hp h. destruct (update_contact_spec ia u F track hf hu) as [F' [track' [fs [h1 [h2 [h3 [h4 [h5 [h6 _]]]]]]]]].
  exists F', track'. split; [exact h1|]. intros w hw. cbv zeta. rewrite (h6 w hw). destruct (h w hw) as [a [b [c d]]].
  pose proof (h5 w hw) as e. unfold wheel_gap in e. fold no_contact in e. rewrite d, c in e.
  destruct (static_contact (ia_G ia) (ia_pow ia) (nth w loads 0) hG hp a) as [s [s1 s2]]. rewrite s1 in b. injection b as b. subst s.
  match type of e with contact_force _ _ _ ?x = _ => replace x with (nth w (ia_static ia) 0) in e by ring end. rewrite s2 in e. injection e as e. rewrite e. reflexivity.
Qed.
Print Assumptions C43_equilibrium.

(** without a contact power there is no static contact *)
Theorem C43_no_power (G load : R) : exists e, static_deformation G 0 load = Err e.
Proof. unfold static_deformation. destruct (neqbP 0 (lit 0)) as [e|e]; [eexists; reflexivity|exfalso; apply e; reflexivity]. Qed.
Print Assumptions C43_no_power.

Example C43_case : exists s, static_deformation 1 2 (-4) = Ok s /\ contact_force 1 2 0 s = Ok (Rabs (-4)).
Proof. apply C43_static; lra. Qed.

(** ** C44: blocks and numbering *)

Theorem C44_blocks nt ntot (track train : mat R) :
  (nt <= ntot)%nat -> mr track = nt -> mc track = nt -> mr train = (ntot - nt)%nat -> mc train = (ntot - nt)%nat ->
  exists m, combine_matrices nt ntot track train = Ok m /\ mr m = ntot /\ mc m = ntot /\
    (forall i j, (i < nt)%nat -> (j < nt)%nat -> me m i j = me track i j) /\
    (forall i j, (i < ntot - nt)%nat -> (j < ntot - nt)%nat -> me m (nt + i) (nt + j) = me train i j) /\
    (forall i j, (i < nt <= j)%nat \/ (j < nt <= i)%nat -> me m i j = 0).
Proof. exact (combine_matrices_spec nt ntot track train). Qed.
Print Assumptions C44_blocks.

Theorem C44_mismatch nt ntot (track train : mat R) : (nt <= ntot)%nat ->
  mr track <> nt \/ mc track <> nt \/ mr train <> (ntot - nt)%nat \/ mc train <> (ntot - nt)%nat -> combine_matrices nt ntot track train = Err ErrValue.
Proof. exact (combine_matrices_mismatch nt ntot track train). Qed.
Print Assumptions C44_mismatch.

(** force vector and initial displacements *)
Theorem C44_vectors (F track train : list R) : length F = (length track + length train)%nat ->
  combine_rhs F track train (length track) = Ok (track ++ train) /\
  combine_solution (length track + length train) (length track) track train = Ok (track ++ train).
Proof.
  intros h. split; [apply combine_rhs_spec; auto|]. unfold combine_solution. apply combine_rhs_spec. apply repeat_length.
Qed.
Print Assumptions C44_vectors.

(** shifted numbers: every train node reads its own entries, no number is one of the track *)
Theorem C44_numbers (ns : list (node R)) (track train : list R) q n d i :
  nth_error ns q = Some n -> tget (n_dof n) d = Some i ->
  exists n', nth_error (shift_dofs (length track) ns) q = Some n' /\ tget (n_dof n') d = Some (i + length track)%nat /\
    (length track <= i + length track)%nat /\ nth (i + length track) (track ++ train) 0 = nth i train 0 /\
    n_coord n' = n_coord n /\ n_flag n' = n_flag n.
Proof.
  intros h1 h2. unfold shift_dofs. rewrite (map_nth_error _ _ _ h1). eexists. split; [reflexivity|].
  unfold with_dof. cbn [n_dof n_coord n_flag]. split; [|split; [lia|split; [|auto]]].
  - destruct d; cbn [tget tx ty tr] in *; rewrite h2; reflexivity.
  - rewrite app_nth2 by lia. f_equal. lia.
Qed.
Print Assumptions C44_numbers.

Theorem C44_inactive (ns : list (node R)) nt q n d :
  nth_error ns q = Some n -> tget (n_dof n) d = None ->
  exists n', nth_error (shift_dofs nt ns) q = Some n' /\ tget (n_dof n') d = None.
Proof.
  intros h1 h2. unfold shift_dofs. rewrite (map_nth_error _ _ _ h1). eexists. split; [reflexivity|].
  unfold with_dof. cbn [n_dof]. destruct d; cbn [tget tx ty tr] in *; rewrite h2; reflexivity.
Qed.
Print Assumptions C44_inactive.

Example C44_case : exists m, combine_matrices 1 3 (mkMat 1 1 (fun _ _ => 5)) (mkMat 2 2 (fun i j => INR (i + j))) = Ok m /\ me m 2 1%nat = 1 /\ me m 0%nat 0%nat = 5 /\ me m 0%nat 2%nat = 0.
Proof. eexists. split; [reflexivity|]. cbn. auto. Qed.

(** ** C45: local position of a wheel *)

(** on a rail along the x axis, starting anywhere; a wheel that does not run backward.  Missing: rails at another
    height, see below *)
Theorem C45_local_position_partial (distances : list R) (first : list (tri R)) :
  first <> [] -> length distances = length first ->
  (forall p, In p first -> ty p = 0 /\ tr p = 0) ->
  (forall t, (S t < length first)%nat -> tx (at_node first t) <= tx (at_node first (S t))) ->
  length (wheel_node_dist distances first) = length first /\
  forall t, (t < length first)%nat -> nth t (wheel_node_dist distances first) 0 = nth t distances 0 - tx (at_node first t).
Proof. exact (wheel_node_dist_spec distances first). Qed.
Print Assumptions C45_local_position_partial.

(** the factors used at that position are those of the beam of the contact element *)
Theorem C45_shape_factors (before after : list (option (R * R))) l phi x : (forall p, In p after -> p = None) ->
  rail_shape (before ++ Some (l, phi) :: after) x = map (y_shape l phi x) (seq 0 4).
Proof.
  intros h. unfold rail_shape. rewrite fold_left_app. cbn [fold_left]. generalize (map (y_shape l phi x) (seq 0 4)). induction after as [|a after IH]; intros v; auto.
  cbn [fold_left]. rewrite (h a) by (left; reflexivity). apply IH. intros p hp. apply h. right. auto.
Qed.
Print Assumptions C45_shape_factors.

(** the degrees of freedom are y and rotation of the two nodes of the contact element *)
Theorem C45_indices (elements : list (node R * node R)) (els : list nat) t e a b :
  (forall k, In k els -> (k < length elements)%nat) -> nth_error els t = Some e -> nth_error elements e = Some (a, b) ->
  nth_error (track_global_indices elements els) t = Some [ty (n_dof a); tr (n_dof a); ty (n_dof b); tr (n_dof b)].
Proof.
  intros hr. revert t. induction els as [|k els IH]; intros t h1 h2; [destruct t; discriminate|]. unfold track_global_indices in *. cbn [flat_map].
  destruct (nth_error elements k) as [[p q]|] eqn:e1.
  - destruct t as [|t]; cbn [app nth_error] in *; [injection h1 as ->; congruence|]. apply IH; auto. intros; apply hr; right; auto.
  - apply nth_error_None in e1. specialize (hr k (or_introl eq_refl)). lia.
Qed.
Print Assumptions C45_indices.

(** on a level rail at another height the position is wrong *)
Theorem C45_height_refuted : exists first, (forall p, In p first -> ty p = 4 /\ tr p = 0) /\
  nth 0 (wheel_node_dist [3] first) 0 <> 3 - tx (at_node first 0).
Proof.
  exists [T3 3 4 0]. split; [intros p [<-|[]]; auto|]. unfold wheel_node_dist, cum_distances_nodes, at_node, distance3, sq. cbn [consecutive_distances cumsum cumsum_from combine map nth fst snd tx ty tr].
  rewrite nsign_pos by lra. rnum. match goal with |- context [sqrt ?a] => replace a with (Rsqr 5) by (unfold Rsqr; lra) end. rewrite sqrt_Rsqr by lra. lra.
Qed.
Print Assumptions C45_height_refuted.

Example C45_case : (forall p, In p (line [-2; -1; 1]) -> ty p = 0 /\ tr p = 0) /\
  (forall t, (S t < 3)%nat -> tx (at_node (line [-2; -1; 1]) t) <= tx (at_node (line [-2; -1; 1]) (S t))).
Proof. split; [intros p [<-|[<-|[<-|[]]]]; auto|]. intros [|[|t]] ht; [cbn; lra|cbn; lra|lia]. Qed.

(** ** C46: trains outside the track *)

Theorem C46_check (rail : list R) (wheels : list (list R)) : rail <> [] -> (forall w, In w wheels -> w <> []) ->
  (check_train_position rail wheels = Err ErrValue <-> exists w d, In w wheels /\ In d w /\ outside rail d) /\
  (check_train_position rail wheels = Ok tt <-> forall w d, In w wheels -> In d w -> ~ outside rail d).
Proof.
  intros h1 h2. destruct (check_position_spec rail wheels h1 h2) as [[h3 h4]|[h3 h4]]; rewrite h3; split; split; intros h; try discriminate; auto.
  - destruct h4 as [w [d [a [b c]]]]. exfalso. exact (h w d a b c).
  - destruct h as [w [d [a [b c]]]]. exfalso. exact (h4 w d a b c).
Qed.
Print Assumptions C46_check.

Example C46_case : check_train_position [0; 1; 2] [[0; 2]; [1]] = Ok tt /\ check_train_position [0; 1; 2] [[1; 3]] = Err ErrValue.
Proof.
  assert (he : 0 < float32_eps < 1). { unfold float32_eps. split; [apply Rinv_0_lt_compat; lra|]. lra. }
  split.
  - apply (C46_check [0; 1; 2] [[0; 2]; [1]]); [discriminate|intros w [<-|[<-|[]]]; discriminate|].
    intros w d hw hd [h|h]; pose proof (h 0 ltac:(simpl; auto)) as a; pose proof (h 2 ltac:(simpl; auto)) as b; destruct hw as [<-|[<-|[]]]; cbn in hd; intuition; subst; lra.
  - apply (C46_check [0; 1; 2] [[1; 3]]); [discriminate|intros w [<-|[]]; discriminate|].
    exists [1; 3], 3. split; [left; auto|]. split; [right; left; auto|]. right. intros x [<-|[<-|[<-|[]]]]; lra.
Qed.

(** ** C47: node list of the wheel loads *)

(** a rail of one part *)
Theorem C47_single_part_partial nodes elements : polyline nodes elements ->
  polyline (fst (wheel_load_lists [(nodes, elements)])) (snd (wheel_load_lists [(nodes, elements)])).
Proof. unfold wheel_load_lists. cbn [flat_map fst snd]. rewrite !app_nil_r. auto. Qed.
Print Assumptions C47_single_part_partial.

(** every rail of several parts has too many nodes in its list *)
Theorem C47_several_parts_refuted (parts : list (list nat * list (nat * nat))) :
  (forall p, In p parts -> polyline (fst p) (snd p)) -> (2 <= length parts)%nat ->
  ~ polyline (fst (wheel_load_lists parts)) (snd (wheel_load_lists parts)).
Proof. intros h1 h2 [h3 _]. rewrite (polyline_parts parts h1) in h3. lia. Qed.
Print Assumptions C47_several_parts_refuted.

Example C47_case : wheel_load_lists [([0; 1; 2]%nat, [(0, 1); (1, 2)]%nat); ([2; 3]%nat, [(2, 3)]%nat)] = ([0; 1; 2; 2; 3]%nat, [(0, 1); (1, 2); (2, 3)]%nat).
Proof. reflexivity. Qed.

(** ** C48: history independence *)

(** within a time step *)
Theorem C48_trials nt n (ia : nat -> interaction R) t (us : list (list R)) s s' u : fits (ia t) nt n ->
  run nt ia s (map (Trial t) us) = Ok s' ->
  match coupled_iteration (ia t) s' u, coupled_iteration (ia t) s u with
  | Ok (f', _), Ok (f, _) => f' = f
  | Err e', Err e => e' = e
  | _, _ => False
  end.
Proof.
  intros h1 h2. pose proof (trials_independent nt n ia t us s s' u h1 h2) as h. unfold iteration_value in h.
  destruct (coupled_iteration (ia t) s' u) as [[f' q']|e']; destruct (coupled_iteration (ia t) s u) as [[f q]|e]; cbn in h; congruence.
Qed.
Print Assumptions C48_trials.

(** whatever time steps and trials came before *)
Theorem C48_history nt (ia : nat -> interaction R) (es : list (event R)) s s' t u : length (cs_F s) = (nt + length (cs_train s))%nat ->
  run nt ia s es = Ok s' ->
  (do s1 <- coupled_time_step nt s' t ; do q <- coupled_iteration (ia t) s1 u ; Ok (fst q)) =
  (do s1 <- coupled_time_step nt s t ; do q <- coupled_iteration (ia t) s1 u ; Ok (fst q)).
Proof. exact (run_independent nt ia es s s' t u). Qed.
Print Assumptions C48_history.

(** [update_force_vector] changes the vector it starts from: every call adds the contact force again *)
Theorem C48_in_place_refuted : exists s F1 s1 F2 s2 u,
  coupled_update two_wheels s u = Ok (F1, s1) /\ coupled_update two_wheels s1 u = Ok (F2, s2) /\ nth 4 F1 0 = 1 /\ nth 4 F2 0 = 2.
Proof.
  set (u := [0; 0; 0; 0; -1; -1]). set (s := mkCState [] [0; 0; 0; 0] [0; 0] [0; 0; 0; 0; 0; 0] : cstate R).
  assert (hg : wheel_gap two_wheels u 0 = -1).
  { unfold wheel_gap, rail_at, value_at, two_wheels, half_contact, u. cbn; rnum; ring. }
  assert (hc : contact_force 1 (3 / 2) 0 (-1) = Ok 1).
  { rewrite contact_law; [|lra|exact not_integer_32]. unfold penetration. destruct (Rlt_dec 0 (- 0 - -1)); [|exfalso; lra].
    f_equal. replace ((- 0 - -1) / 1) with 1 by field. unfold Rpower. rewrite ln_1, Rmult_0_r. apply exp_0. }
  assert (step : forall F track, length F = 6%nat -> length track = 4%nat -> exists F' track', update_contact two_wheels u F track = Ok (F', track') /\
     length F' = 6%nat /\ length track' = 4%nat /\ nth 4 F' 0 = nth 4 F 0 + 1).
  { intros F track hF ht. destruct (update_contact_spec two_wheels u F track) as [F' [track' [fs [h1 [h2 [h3 [h4 [h5 [h6 _]]]]]]]]].
    - rewrite hF, ht. exact two_wheels_fit.
    - rewrite hF. reflexivity.
    - exists F', track'. split; [exact h1|]. split; [lia|]. split; [lia|]. pose proof (h6 0%nat ltac:(simpl; lia)) as a. cbn in a. rewrite a.
      pose proof (h5 0%nat ltac:(simpl; lia)) as b. rewrite hg in b. change (ia_G two_wheels) with 1 in b. change (ia_pow two_wheels) with (3 / 2) in b.
      change (nth 0 (ia_irr two_wheels) 0) with 0 in b. rewrite hc in b. injection b as b. cbn in b. rewrite <- b. reflexivity. }
  destruct (step (cs_F s) (cs_track s) eq_refl eq_refl) as [F1 [t1 [a1 [a2 [a3 a4]]]]]. destruct (step F1 t1 a2 a3) as [F2 [t2 [b1 [b2 [b3 b4]]]]].
  exists s, F1, (mkCState [] t1 [0; 0] F1), F2, (mkCState [] t2 [0; 0] F2), u.
  unfold coupled_update. rewrite a1. cbn [rbind fst snd cs_F cs_track cs_conds cs_train s]. rewrite b1. split; [reflexivity|]. split; [reflexivity|].
  cbn in a4. split; lra.
Qed.
Print Assumptions C48_in_place_refuted.

Example C48_case : fits two_wheels 4 6.
Proof. exact two_wheels_fit. Qed.

(** ** C72: reported interaction forces *)

(** for the force vector of the last iteration: weight plus contact force on the wheels *)
Theorem C72_interaction (ia : interaction R) (g : R) (masses u F track : list R) :
  fits ia (length track) (length F) -> length u = length F -> length masses = length (ia_train_dofs ia) ->
  (forall w, (w < length (ia_train_dofs ia))%nat -> nth (nth w (ia_train_dofs ia) 0%nat) F 0 = - nth w masses 0 * g) ->
  exists F' track' r, update_contact ia u F track = Ok (F', track') /\ interaction_forces g masses F' (ia_train_dofs ia) = Ok r /\
    length r = length masses /\
    forall w, (w < length masses)%nat -> contact_force (ia_G ia) (ia_pow ia) (nth w (ia_irr ia) 0) (wheel_gap ia u w) = Ok (- nth w r 0).
Proof.
  intros hf hu hm hw. destruct (update_contact_spec ia u F track hf hu) as [F' [track' [fs [h1 [h2 [h3 [h4 [h5 [h6 _]]]]]]]]].
  destruct hf as [hG [hnt [c1 [c2 [c3 [c4 [c5 [c6 c7]]]]]]]].
  destruct (interaction_forces_spec g masses F' (ia_train_dofs ia)) as [r [r1 [r2 r3]]]; [intros i hi; rewrite h2; apply c7; auto|auto|].
  exists F', track', r. split; [exact h1|]. split; [exact r1|]. split; [lia|]. intros w hwl. rewrite hm in hwl. rewrite (h5 w hwl), (r3 w hwl), (h6 w hwl), (hw w hwl). f_equal. ring.
Qed.
Print Assumptions C72_interaction.

Example C72_case : forall w, (w < 2)%nat -> nth (nth w (ia_train_dofs two_wheels) 0%nat) [0; 0; 0; 0; -2 * 10; -2 * 10] 0 = - nth w [2; 2] 0 * 10.
Proof. intros [|[|w]] h; [cbn; lra|cbn; lra|lia]. Qed.

(** ** C73: contact element of a wheel *)

(** exactly: the contact element is that of the wheel position shifted by the start of the rail *)
Theorem C73_shifted (xs distances : list R) : rising xs -> (2 <= length xs)%nat -> distances <> [] ->
  0 <= nth 0 distances 0 < nth (length xs - 1) xs 0 - nth 0 xs 0 ->
  (forall t, (S t < length distances)%nat -> small_step xs (nth t distances 0) (nth (S t) distances 0)) ->
  exists els, set_active_elements (length xs - 1) (cum_distances_nodes (line xs)) distances = Ok els /\ length els = length distances /\
    forall t, (t < length distances)%nat -> contains xs (nth t els 0%nat) (nth t distances 0 + nth 0 xs 0).
Proof. exact (wheel_element xs distances). Qed.
Print Assumptions C73_shifted.

Theorem C73_origin_partial (xs distances : list R) : rising xs -> (2 <= length xs)%nat -> distances <> [] -> nth 0 xs 0 = 0 ->
  0 <= nth 0 distances 0 < nth (length xs - 1) xs 0 ->
  (forall t, (S t < length distances)%nat -> small_step xs (nth t distances 0) (nth (S t) distances 0)) ->
  exists els, set_active_elements (length xs - 1) (cum_distances_nodes (line xs)) distances = Ok els /\ length els = length distances /\
    forall t, (t < length distances)%nat -> contains xs (nth t els 0%nat) (nth t distances 0).
Proof.
  intros h1 h2 h3 h0 h4 h5. destruct (wheel_element xs distances h1 h2 h3) as [els [e1 [e2 e3]]]; [rewrite h0; lra|auto|].
  exists els. split; [auto|]. split; [auto|]. intros t ht. specialize (e3 t ht). rewrite h0, Rplus_0_r in e3. exact e3.
Qed.
Print Assumptions C73_origin_partial.

(** a rail from x = 1 to x = 4: the wheel at 3/2 is put on the second element, at local position -1/2 *)
Theorem C73_start_refuted : exists els, set_active_elements 3 (cum_distances_nodes (line [1; 2; 3; 4])) [3 / 2] = Ok els /\
  ~ contains [1; 2; 3; 4] (nth 0 els 0%nat) (3 / 2) /\
  wheel_node_dist [3 / 2] (map (fun e => at_node (line [1; 2; 3; 4]) e) els) = [- (1 / 2)].
Proof.
  assert (hr : rising [1; 2; 3; 4]). { intros i hi. simpl in hi. do 3 (destruct i as [|i]; [cbn; lra|]). lia. }
  destruct (wheel_element [1; 2; 3; 4] [3 / 2] hr) as [els [e1 [e2 e3]]]; [simpl; lia|discriminate|cbn; lra|intros t ht; simpl in ht; lia|].
  exists els. split; [exact e1|]. destruct els as [|e [|]]; try discriminate. specialize (e3 0%nat ltac:(simpl; lia)). cbn [nth] in e3.
  destruct e3 as [a [b c]]. assert (he : e = 1%nat).
  { destruct e as [|[|[|e]]]; cbn in *; auto; [destruct c; [lra|discriminate]|lra|lia]. }
  subst e. split.
  - cbn [nth]. intros [_ [h _]]. cbn in h. lra.
  - destruct (wheel_node_dist_spec [3 / 2] (map (fun e => at_node (line [1; 2; 3; 4]) e) [1%nat])) as [l1 l2].
    + discriminate.
    + reflexivity.
    + intros p [<-|[]]. rewrite line_nth by (simpl; lia). auto.
    + intros t ht. simpl in ht. lia.
    + specialize (l2 0%nat ltac:(simpl; lia)). destruct (wheel_node_dist _ _) as [|x [|]]; try discriminate. f_equal. cbn in l2. rewrite l2. lra.
Qed.
Print Assumptions C73_start_refuted.

Example C73_case : rising [0; 1; 2] /\ small_step [0; 1; 2] (1 / 4) (5 / 4).
Proof.
  split; [intros i hi; simpl in hi; do 2 (destruct i as [|i]; [cbn; lra|]); lia|]. split; [lra|]. intros k hk. simpl in hk.
  do 2 (destruct k as [|k]; [cbn; lra|]). lia.
Qed.

(** ** C74: other loads on the track *)

(** loads elsewhere are kept *)
Theorem C74_elsewhere_partial (ia : interaction R) (u F track : list R) F' track' k : fits ia (length track) (length F) -> length u = length F ->
  update_contact ia u F track = Ok (F', track') -> (k < length track)%nat -> ~ In k (touched (ia_contacts ia)) -> nth k F' 0 = nth k track 0.
Proof.
  intros hf hu h hk hn. destruct (update_contact_spec ia u F track hf hu) as [F1 [t1 [fs [h1 [_ [_ [h4 [_ [_ [_ [h8 h9]]]]]]]]]]].
  rewrite h in h1. injection h1 as <- <-. rewrite h9, h8 by auto. destruct hf as [_ [_ [c1 [_ [_ [c4 _]]]]]].
  apply (contributions_nil (ia_contacts ia) (map Ropp fs) k) in hn; [|rewrite map_length; lia|auto]. rewrite hn. reflexivity.
Qed.
Print Assumptions C74_elsewhere_partial.

(** under a wheel they are dropped: the result does not depend on them *)
Theorem C74_under_wheel_refuted (ia : interaction R) (u F track1 track2 : list R) F1 F2 t1 t2 k :
  fits ia (length track1) (length F) -> length track1 = length track2 -> length u = length F ->
  update_contact ia u F track1 = Ok (F1, t1) -> update_contact ia u F track2 = Ok (F2, t2) ->
  In k (touched (ia_contacts ia)) -> nth k F1 0 = nth k F2 0.
Proof.
  intros hf hl hu e1 e2 hk. destruct (update_contact_spec ia u F track1 hf hu) as [G1 [s1 [fs [h1 [_ [_ [h4 [h5 [_ [_ [h8 h9]]]]]]]]]]].
  rewrite hl in hf. destruct (update_contact_spec ia u F track2 hf hu) as [G2 [s2 [gs [g1 [_ [_ [g4 [g5 [_ [_ [g8 g9]]]]]]]]]]].
  rewrite e1 in h1. injection h1 as <- <-. rewrite e2 in g1. injection g1 as <- <-.
  assert (hfs : fs = gs). { apply (nth_ext _ _ 0 0); [lia|]. intros w hw. rewrite h4 in hw. pose proof (h5 w hw) as a. rewrite (g5 w hw) in a. injection a as a. auto. }
  subst gs. destruct hf as [_ [_ [c1 [_ [_ [c4 [c5 _]]]]]]]. pose proof (c5 k hk). rewrite h9, g9, h8, g8 by lia. apply last_default.
  intros hc. apply (contributions_nil (ia_contacts ia) (map Ropp fs) k) in hc; [contradiction|rewrite map_length; lia|auto].
Qed.
Print Assumptions C74_under_wheel_refuted.
