(** * C145: moving a model as one rigid body takes no force *)

From Coq Require Import Reals List Bool ZArith Arith Lia Lra Psatz Classical.
From Verif Require Import Num PyBase Model_Geometry Model_System Spec_System Proofs_Dof Proofs_System Model_Element Spec_Element
  Proofs_Elements Proofs_Element Proofs_Beam Proofs_Force Model_Accumulation Proofs_Accumulation Model_Track Spec_Track
  Proofs_Track Proofs_Assembly Props_Element Props_Track Spec_Analytic Spec_Motion Proofs_Motion Spec_Stiffer Proofs_Stiffer
  Spec_Turn Proofs_Turn Props_Turn Props_Mirror Spec_Rigid Props_Sudden Spec_Chain.
Import ListNotations.
Local Open Scope R_scope.

Lemma nsum_zero {A} (f : A -> R) l : (forall x, In x l -> f x = 0) -> nsum (map f l) = 0.
Proof. induction l as [|x l IH]; intros h; [reflexivity|]. cbn [map nsum]. rewrite (h x (or_introl eq_refl)), IH by (intros; apply h; right; assumption). rnum. ring. Qed.

Lemma level_angle (x1 x2 y : R) : let a := calculate_rotation1 ((x1, y), (x2, y)) in sin a = 0 /\ cos a * (x2 - x1) = Rabs (x2 - x1).
Proof.
  cbv zeta. destruct (Rle_dec x1 x2) as [h|h].
  - rewrite rotation1_right by exact h. rewrite sin_0, cos_0, Rabs_right by lra. split; ring.
  - destruct (angle_flat_lt x2 y x1 ltac:(lra)) as [h1 h2]. rewrite (rotation1_right x2) in h1, h2 by lra. rewrite cos_0 in h1. rewrite sin_0 in h2. rewrite Rabs_left by lra. split; [lra|]. nra.
Qed.

Lemma quad_null n m x : (forall i, (i < n)%nat -> mulv n m x i = 0) -> quad n m x = 0.
Proof. intros h. rewrite quad_work. unfold work. apply sumn_0. intros i hi. rewrite (h i hi). ring. Qed.

(** ** energy *)

(** C145: a model whose level beams and level or upright rods follow a rigid body stores no energy and its dampers none either *)
Theorem C145_no_energy ns a b t u p : sound p -> carried ns a b t u p -> part_form aux_stiffness ns u p = 0 /\ part_form aux_damping ns u p = 0.
Proof.
  unfold sound, carried. destruct p as [k nodes els]. cbn [ep_kind ep_els]. intros hs hc.
  assert (rod : forall v m e, rod_spring (Some v) = Some m ->
    (fst (xy ns (fst e)) = fst (xy ns (snd e)) /\ snd (xy ns (fst e)) <> snd (xy ns (snd e)) /\ follows ns a b t u (fst e) DY /\ follows ns a b t u (snd e) DY \/
     snd (xy ns (fst e)) = snd (xy ns (snd e)) /\ follows ns a b t u (fst e) DX /\ follows ns a b t u (snd e) DX) ->
    quad 2 m (local2 (calculate_rotation1 (xy ns (fst e), xy ns (snd e))) u (fst e) (snd e)) = 0).
  { intros v m e hm h. destruct (rod_spring_spec v m hm) as [_ [q _]]. rewrite q. cbn [local2]. unfold along. destruct (xy ns (fst e)) as [x1 y1] eqn:e1, (xy ns (snd e)) as [x2 y2] eqn:e2. cbn [fst snd] in h.
    unfold follows in h. rewrite e1, e2 in h. cbn [rigid_at fst snd] in h. destruct h as [[-> [ne [f1 f2]]]|[-> [f1 f2]]].
    - assert (c0 : cos (calculate_rotation1 ((x2, y1), (x2, y2))) = 0).
      { rewrite rotation1_vertical by exact ne. destruct (Rlt_dec y1 y2); rewrite ?cos_neg; apply cos_PI2. }
      rewrite c0, f1, f2. ring.
    - destruct (level_angle x1 x2 y2) as [s0 _]. cbv zeta in s0. rewrite s0, f1, f2. ring. }
  assert (beam : forall g, sound_beam g -> (fixed_ends g \/ b_shear_factor g <= 0) /\ (forall e, In e els ->
      snd (xy ns (fst e)) = snd (xy ns (snd e)) /\ Rabs (fst (xy ns (snd e)) - fst (xy ns (fst e))) = b_l g /\ forall d, follows ns a b t u (fst e) d /\ follows ns a b t u (snd e) d) ->
    forall e, In e els -> quad 6 (beam_stiffness g (timoshenko_factor 0 g)) (local6 (calculate_rotation1 (xy ns (fst e), xy ns (snd e))) u (fst e) (snd e)) = 0).
  { intros g hg [hf he] e hin. destruct (he e hin) as [hy [hx hd]]. pose proof (hd DX) as [x1 x2]. pose proof (hd DY) as [y1 y2]. pose proof (hd DR) as [r1 r2]. unfold follows in x1, x2, y1, y2, r1, r2.
    destruct (xy ns (fst e)) as [p1 q1], (xy ns (snd e)) as [p2 q2]. cbn [fst snd rigid_at] in *. subst q2. destruct (level_angle p1 p2 q1) as [s0 c0]. cbv zeta in s0, c0. set (w := calculate_rotation1 ((p1, q1), (p2, q1))) in *.
    assert (hr : rigid_motion (b_l g) (local6 w u (fst e) (snd e))).
    { unfold rigid_motion, local6, along, across. cbn [vec6]. rewrite s0, x1, x2, y1, y2, r1, r2. split; [ring|]. split; [reflexivity|]. rewrite <- hx, <- c0. ring. }
    pose proof (timoshenko_nonneg g hg) as hphi. destruct hg as [hE [hI [hA [hl [hn hrho]]]]]. apply quad_null.
    destruct hf as [hf|hf].
    - destruct (C17_beam_stiffness g (timoshenko_factor 0 g) hf hE hI hA hl hphi) as [_ [_ [z _]]]. exact (z _ hr).
    - destruct (C18_semi_rigid_partial g (timoshenko_factor 0 g) hE hI hA hl hphi) as [_ [_ [_ [z _]]]]. apply z; [|exact hr].
      destruct (C17_shear_factor g hE hI hA hl hn) as [_ [z0 _]]. exact (z0 hf). }
  destruct (C85_element_energy ns u (mkPart k nodes els) (0, 0)%nat) as [_ [_ [_ [z1 z2]]]]. cbn [ep_kind ep_els] in z1, z2.
  destruct k as [sk sc sm|g|g|m].
  - unfold part_form. cbn [ep_kind ep_els aux_stiffness aux_damping]. split.
    + destruct sk as [v|]; [|reflexivity]. cbn [rod_spring]. apply nsum_zero. intros e he. cbn [element_form]. exact (rod v _ e eq_refl (hc e he)).
    + destruct sc as [v|]; [|reflexivity]. cbn [rod_spring]. apply nsum_zero. intros e he. cbn [element_form]. exact (rod v _ e eq_refl (hc e he)).
  - split; [|apply (z1 g); left; reflexivity]. unfold part_form. cbn [ep_kind ep_els aux_stiffness]. apply nsum_zero. intros e he. cbn [element_form]. exact (beam g hs hc e he).
  - split; [|apply (z1 g); right; reflexivity]. unfold part_form. cbn [ep_kind ep_els aux_stiffness]. apply nsum_zero. intros e he. cbn [element_form]. exact (beam g hs hc e he).
  - apply (z2 m). reflexivity.
Qed.
Print Assumptions C145_no_energy.

(** C145: parts of any shape store no energy when they are moved without turning *)
Theorem C145_displaced ns a b u p : sound p -> displaced a b u p -> part_form aux_stiffness ns u p = 0 /\ part_form aux_damping ns u p = 0.
Proof.
  unfold sound, displaced. destruct p as [k nodes els]. cbn [ep_kind ep_els]. intros hs hc.
  assert (rod : forall w v m e, rod_spring (Some v) = Some m -> u (fst e) DX = a /\ u (fst e) DY = b /\ u (snd e) DX = a /\ u (snd e) DY = b -> quad 2 m (local2 w u (fst e) (snd e)) = 0).
  { intros w v m e hm [h1 [h2 [h3 h4]]]. destruct (rod_spring_spec v m hm) as [_ [q _]]. rewrite q. cbn [local2]. rewrite h1, h2, h3, h4. ring. }
  assert (beam : forall w g e, sound_beam g -> u (fst e) DX = a /\ u (fst e) DY = b /\ u (fst e) DR = 0 /\ u (snd e) DX = a /\ u (snd e) DY = b /\ u (snd e) DR = 0 ->
    quad 6 (beam_stiffness g (timoshenko_factor 0 g)) (local6 w u (fst e) (snd e)) = 0).
  { intros w g e hg [h1 [h2 [h3 [h4 [h5 h6]]]]]. pose proof (timoshenko_nonneg g hg) as hphi. destruct hg as [hE [hI [hA [hl _]]]]. apply quad_null. unfold local6. rewrite h1, h2, h3, h4, h5, h6.
    destruct (C18_semi_rigid_partial g (timoshenko_factor 0 g) hE hI hA hl hphi) as [_ [_ [z _]]]. intros i hi. apply z. exact hi. }
  destruct (C85_element_energy ns u (mkPart k nodes els) (0, 0)%nat) as [_ [_ [_ [z1 z2]]]]. cbn [ep_kind ep_els] in z1, z2.
  destruct k as [sk sc sm|g|g|m].
  - unfold part_form. cbn [ep_kind ep_els aux_stiffness aux_damping]. split.
    + destruct sk as [v|]; [|reflexivity]. cbn [rod_spring]. apply nsum_zero. intros e he. cbn [element_form]. exact (rod _ v _ e eq_refl (hc e he)).
    + destruct sc as [v|]; [|reflexivity]. cbn [rod_spring]. apply nsum_zero. intros e he. cbn [element_form]. exact (rod _ v _ e eq_refl (hc e he)).
  - split; [|apply (z1 g); left; reflexivity]. unfold part_form. cbn [ep_kind ep_els aux_stiffness]. apply nsum_zero. intros e he. cbn [element_form]. exact (beam _ g e hs (hc e he)).
  - split; [|apply (z1 g); right; reflexivity]. unfold part_form. cbn [ep_kind ep_els aux_stiffness]. apply nsum_zero. intros e he. cbn [element_form]. exact (beam _ g e hs (hc e he)).
  - apply (z2 m). reflexivity.
Qed.
Print Assumptions C145_displaced.

(** ** forces *)

(** C145: in the assembled system such a motion takes no elastic force at any degree of freedom, and no damping force without
    Rayleigh damping *)
Theorem C145_no_force ns ps ls cs da s ns' n a b t x :
  initialise_system ns ps ls cs da = Ok (s, ns', n) ->
  Forall shaped ps -> Forall (fun p => sound (settled ns p)) ps -> (da_on da = true -> 0 <= da_ratio da /\ 0 < da_one da /\ 0 < da_two da) ->
  Forall (fun p => carried ns a b t (field_of ns' x) (settled ns p) \/ displaced a b (field_of ns' x) (settled ns p)) ps ->
  forall i, (i < n)%nat -> mulv n (me (gK s)) x i = 0 /\ (da_on da = false -> mulv n (me (gC s)) x i = 0).
Proof.
  intros h hs ho hda hc. destruct (C85_symmetric_semidefinite _ _ _ _ _ _ _ _ h hs ho hda) as [[sk [sm sc]] [pk [pm pc]]].
  assert (z : forall p, In p ps -> part_form aux_stiffness ns (field_of ns' x) (settled ns p) = 0 /\ part_form aux_damping ns (field_of ns' x) (settled ns p) = 0).
  { intros p hp. rewrite Forall_forall in hc, ho. destruct (hc p hp) as [g|g]; [exact (C145_no_energy _ _ _ _ _ _ (ho p hp) g)|exact (C145_displaced _ _ _ _ _ (ho p hp) g)]. }
  destruct (initialise_energy _ _ _ _ _ _ _ _ x hs h) as [q1 [_ q3]]. cbv zeta in q1, q3. rewrite nsum_zero in q1 by (intros p hp; apply z; exact hp).
  assert (null : forall m, msym n m -> psd n m -> quad n m x = 0 -> forall i, (i < n)%nat -> mulv n m x i = 0).
  { intros m hm hp hq i hi. pose proof (cauchy n m x (fun k => if Nat.eqb i k then 1 else 0) hm hp) as g. rewrite hq in g.
    assert (e : work n (mulv n m x) (fun k => if Nat.eqb i k then 1 else 0) = mulv n m x i).
    { unfold work. rewrite <- (sumn_pick n (mulv n m x) i hi). apply sumn_ext. intros k _. destruct (Nat.eqb i k); ring. }
    rewrite e in g. nra. }
  intros i hi. split; [exact (null _ sk pk q1 i hi)|]. intros hoff. rewrite hoff in q3. rewrite nsum_zero in q3 by (intros p hp; apply z; exact hp).
  apply (null _ sc pc); [rewrite q3; ring|exact hi].
Qed.
Print Assumptions C145_no_force.

(** C145: a free model is in balance only under forces that do no work in rigid motions, and without damping its forces change its
    momentum along them: the resultant and the moment of the forces are those of mass times acceleration *)
Theorem C145_resultant ns ps ls cs da s ns' n a b t x :
  initialise_system ns ps ls cs da = Ok (s, ns', n) ->
  Forall shaped ps -> Forall (fun p => sound (settled ns p)) ps -> (da_on da = true -> 0 <= da_ratio da /\ 0 < da_one da /\ 0 < da_two da) ->
  Forall (fun p => carried ns a b t (field_of ns' x) (settled ns p) \/ displaced a b (field_of ns' x) (settled ns p)) ps ->
  (forall y, in_balance s n y -> work n (fun i => nth i (gF s) 0) x = 0) /\
  (da_on da = false -> forall f u v acc r, motion n s f u v acc -> work n (mulv n (me (gM s)) (acc r)) x = work n (f r) x).
Proof.
  intros h hs ho hda hc. pose proof (C145_no_force _ _ _ _ _ _ _ _ _ _ _ _ h hs ho hda hc) as z. destruct (C85_symmetric_semidefinite _ _ _ _ _ _ _ _ h hs ho hda) as [[sk [sm sc]] _].
  assert (null : forall m y, msym n m -> (forall i, (i < n)%nat -> mulv n m x i = 0) -> work n (mulv n m y) x = 0).
  { intros m y hm h0. rewrite (work_sym n m y x hm). unfold work. apply sumn_0. intros i hi. rewrite (h0 i hi). ring. }
  split.
  - intros y hy. rewrite (work_ext n _ x (mulv n (me (gK s)) y) x (fun i hi => eq_sym (hy i hi)) (fun _ _ => eq_refl)). apply null; [exact sk|intros i hi; apply z; exact hi].
  - intros hoff f u v acc r [_ [_ hm]].
    rewrite (work_ext n (f r) x (fun i => mulv n (me (gM s)) (acc r) i + (mulv n (me (gC s)) (v r) i + mulv n (me (gK s)) (u r) i)) x).
    2: { intros i hi. rewrite <- (hm r i hi). ring. } 2: { reflexivity. }
    rewrite work_add, work_add. rewrite (null (me (gC s)) (v r) sc) by (intros i hi; apply z; assumption). rewrite (null (me (gK s)) (u r) sk) by (intros i hi; apply z; exact hi). ring.
Qed.
Print Assumptions C145_resultant.

(** ** a beam of two nodes *)

Definition beam_nodes (x y : R) : list (node R) := [new_node 0 0 0 0; new_node 1 x y 0].

Section Two.
  Variables (x y : R).
  Let w := calculate_rotation1 (xy (beam_nodes x y) 0, xy (beam_nodes x y) 1).
  Hypothesis straight_up : cos w = 1 /\ sin w = 0 \/ cos w = 0 /\ sin w = 1.
  Let p := leaning (0, 1)%nat.

  Lemma two_stiffness u : part_form aux_stiffness (beam_nodes x y) u p =
    (along w (u 1%nat DX) (u 1%nat DY) - along w (u 0%nat DX) (u 0%nat DY)) * (along w (u 1%nat DX) (u 1%nat DY) - along w (u 0%nat DX) (u 0%nat DY)) +
    (u 1%nat DR - u 0%nat DR) * (u 1%nat DR - u 0%nat DR) +
    12 * ((across w (u 0%nat DX) (u 0%nat DY) - across w (u 1%nat DX) (u 1%nat DY) + (u 0%nat DR + u 1%nat DR) / 2) *
          (across w (u 0%nat DX) (u 0%nat DY) - across w (u 1%nat DX) (u 1%nat DY) + (u 0%nat DR + u 1%nat DR) / 2)).
  Proof using Type.
    destruct (C85_element_energy (beam_nodes x y) u p (0, 1)%nat) as [_ [_ [h _]]]. cbn [fst snd] in h. fold w in h.
    rewrite (h _ (or_introl eq_refl) eq_refl); [|split; reflexivity|repeat split; cbn; lra].
    unfold timoshenko_factor. cbn [b_shear_factor b_E b_A b_I b_l]. rnum. destruct (nltbP 0 0); [lra|]. field.
  Qed.

  Lemma two_mass u : part_form aux_mass (beam_nodes x y) u p = quad 6 (mass_entries (mkBeam 1 0 420 1 1 0 1 None None) 0) (local6 w u 0 1).
  Proof using Type.
    unfold part_form, p, leaning. cbn [ep_kind ep_els aux_mass map nsum fst snd element_form]. fold w. unfold timoshenko_factor. cbn [b_shear_factor]. rnum. destruct (nltbP 0 0); [lra|].
    rewrite Rplus_0_r. unfold quad. apply sumn_ext. intros i hi. apply sumn_ext. intros j hj. rewrite beam_mass_entries by assumption. reflexivity.
  Qed.

  Lemma two_system : exists s ns' n, initialise_system (beam_nodes x y) [p] [] [] no_damping = Ok (s, ns', n) /\ numbered ns' n /\
    forall q d, number_of ns' q d = None <-> (2 <= q)%nat.
  Proof using straight_up.
    set (mn := beam_nodes x y).
    assert (r : exists s ns' n, initialise_system mn [p] [] [] no_damping = Ok (s, ns', n)).
    { apply initialise_ok.
      - intros a [<-|[]]. eexists. reflexivity.
      - intros a i [<-|[]] hi. cbn in hi. cbn. lia.
      - intros l i []. }
    destruct r as [s [ns' [n h]]]. exists s, ns', n. split; [exact h|].
    assert (hs : Forall shaped [p]) by (constructor; [discriminate|constructor]).
    destruct (initialise_inv _ _ _ _ _ _ _ _ h) as [s0 [_ [e0 _]]]. destruct (initialise_kept _ _ _ _ _ _ _ _ _ h e0) as [hl [hn [hk _]]].
    split; [exact hn|].
    intros q d. split.
    - intros e. destruct (le_lt_dec 2 q) as [g|g]; [exact g|exfalso]. revert e. apply (hk q d); [cbn; lia|]. split; [destruct q as [|[|q]]; [| |lia]; destruct d; reflexivity|].
      destruct (assemble_diag mn [p] [] s0 _ q d hs e0 ltac:(cbn; lia)) as [q1 q2]. cbn [map nsum] in q1, q2.
      change (settled mn p) with p in q1, q2. unfold mn in q1, q2. rewrite two_stiffness in q1. rewrite two_mass in q2.
      replace (3 * q + match d with DX => 0 | DY => 1 | DR => 2 end)%nat with (3 * q + dir_idx d)%nat by (destruct d; reflexivity). rewrite q1, q2. clear q1 q2.
      unfold local6, along, across. destruct straight_up as [[c1 c2]|[c1 c2]]; rewrite c1, c2; unfold quad, mass_entries; (destruct (Req_EM_T 0 0) as [_|ne]; [|contradiction]); cbn [sumn b_l b_rho b_A];
      (destruct q as [|[|q]]; [| |lia]); destruct d; unfold unit_field; cbn [vec6 trans_entries Nat.eqb Nat.mul Nat.add dir_idx]; rnum; split; rewrite Rabs_right; lra.
    - intros g. destruct (number_of ns' q d) as [k|] eqn:e; [|reflexivity]. pose proof (number_of_bound _ _ _ _ e) as hb. rewrite hl in hb. cbn in hb. lia.
  Qed.
End Two.

Lemma level_two : cos (calculate_rotation1 (xy (beam_nodes 1 0) 0, xy (beam_nodes 1 0) 1)) = 1 /\ sin (calculate_rotation1 (xy (beam_nodes 1 0) 0, xy (beam_nodes 1 0) 1)) = 0.
Proof. cbn [xy beam_nodes nth_error new_node n_coord tx ty]. rewrite rotation1_right by lra. split; [apply cos_0|apply sin_0]. Qed.

Lemma upright_two : cos (calculate_rotation1 (xy (beam_nodes 0 1) 0, xy (beam_nodes 0 1) 1)) = 0 /\ sin (calculate_rotation1 (xy (beam_nodes 0 1) 0, xy (beam_nodes 0 1) 1)) = 1.
Proof.
  cbn [xy beam_nodes nth_error new_node n_coord tx ty]. rewrite rotation1_vertical by lra. destruct (Rlt_dec 0 1) as [_|n]; [|lra]. split; [apply cos_PI2|apply sin_PI2].
Qed.

(** the small turn of the two nodes about the first one *)
Definition turned_field (x y : R) (q : nat) (d : dir) : R := if (q <? 2)%nat then rigid_at 0 0 1 (xy (beam_nodes x y) q) d else 0.

(** C145: an upright beam resists being turned as a rigid body: the turn by a small angle about its lower end stores energy *)
Theorem C145_upright_refuted : exists ns ps s ns' n x,
  initialise_system ns ps [] [] no_damping = Ok (s, ns', n) /\ Forall shaped ps /\ Forall (fun p => sound (settled ns p)) ps /\
  (forall p, In p ps -> forall e, In e (ep_els p) -> forall d, follows ns 0 0 1 (field_of ns' x) (fst e) d /\ follows ns 0 0 1 (field_of ns' x) (snd e) d) /\
  quad n (me (gK s)) x = 48 /\ exists i, (i < n)%nat /\ mulv n (me (gK s)) x i <> 0.
Proof.
  destruct (two_system 0 1 (or_intror upright_two)) as [s [ns' [n [h [hn hk]]]]].
  set (v := turned_field 0 1). assert (hv : forall q d, field_of ns' (vector_of ns' v) q d = v q d).
  { intros q d. apply (vector_field _ n); [exact hn|]. intros q' d' e. apply hk in e. unfold v, turned_field. rewrite (proj2 (Nat.ltb_ge q' 2) e). reflexivity. }
  assert (hs : Forall shaped [leaning (0, 1)%nat]) by (constructor; [discriminate|constructor]).
  exists (beam_nodes 0 1), [leaning (0, 1)%nat], s, ns', n, (vector_of ns' v). split; [exact h|]. split; [exact hs|].
  split; [constructor; [repeat split; cbn; lra|constructor]|]. split.
  { intros p [<-|[]] e [<-|[]] d. unfold follows. rewrite !hv. split; reflexivity. }
  assert (hq : quad n (me (gK s)) (vector_of ns' v) = 48).
  { destruct (initialise_energy _ _ _ _ _ _ _ _ (vector_of ns' v) hs h) as [-> _]. cbn [map nsum]. change (settled (beam_nodes 0 1) (leaning (0, 1)%nat)) with (leaning (0, 1)%nat).
    rewrite two_stiffness, !hv. destruct upright_two as [c1 c2]. unfold along, across. rewrite c1, c2. unfold v, turned_field. cbn [Nat.ltb Nat.leb rigid_at xy beam_nodes nth_error new_node n_coord tx ty fst snd]. rnum. field. }
  split; [exact hq|].
  apply not_all_not_ex. intros none. assert (z : quad n (me (gK s)) (vector_of ns' v) = 0).
  { rewrite quad_work. unfold work. apply sumn_0. intros i hi. destruct (Req_dec (mulv n (me (gK s)) (vector_of ns' v) i) 0) as [e|e]; [rewrite e; ring|exfalso; exact (none i (conj hi e))]. }
  lra.
Qed.
Print Assumptions C145_upright_refuted.

(** a level beam of two nodes turned about its first end: none of its six directions is dropped and the turn is not zero *)
Example C145_case : exists s ns' n x,
  initialise_system (beam_nodes 1 0) [leaning (0, 1)%nat] [] [] no_damping = Ok (s, ns', n) /\ Forall shaped [leaning (0, 1)%nat] /\
  Forall (fun p => sound (settled (beam_nodes 1 0) p)) [leaning (0, 1)%nat] /\ carried (beam_nodes 1 0) 0 0 1 (field_of ns' x) (settled (beam_nodes 1 0) (leaning (0, 1)%nat)) /\
  field_of ns' x 1%nat DY = 1 /\ field_of ns' x 1%nat DR = 1.
Proof.
  destruct (two_system 1 0 (or_introl level_two)) as [s [ns' [n [h [hn hk]]]]].
  set (v := turned_field 1 0). assert (hv : forall q d, field_of ns' (vector_of ns' v) q d = v q d).
  { intros q d. apply (vector_field _ n); [exact hn|]. intros q' d' e. apply hk in e. unfold v, turned_field. rewrite (proj2 (Nat.ltb_ge q' 2) e). reflexivity. }
  exists s, ns', n, (vector_of ns' v). split; [exact h|]. split; [constructor; [discriminate|constructor]|].
  split; [constructor; [repeat split; cbn; lra|constructor]|]. split; [|rewrite !hv; unfold v, turned_field; cbn [Nat.ltb Nat.leb rigid_at xy beam_nodes nth_error new_node n_coord tx ty fst snd]; split; rnum; ring].
  change (settled (beam_nodes 1 0) (leaning (0, 1)%nat)) with (leaning (0, 1)%nat). unfold carried, leaning. cbn [ep_kind ep_els]. split; [right; cbn; lra|].
  intros e [<-|[]]. cbn [fst snd xy beam_nodes nth_error new_node n_coord tx ty b_l]. split; [reflexivity|]. split; [rewrite Rabs_right; rnum; lra|].
  intros d. unfold follows. rewrite !hv. split; reflexivity.
Qed.
