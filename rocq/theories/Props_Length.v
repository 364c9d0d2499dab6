(** * C146: the unit of length does not matter *)

From Coq Require Import Reals List Bool ZArith Arith Lia Lra.
From Verif Require Import Num PyBase Model_Geometry Model_System Spec_System Proofs_Dof Proofs_System Model_Element Spec_Element
  Proofs_Elements Proofs_Element Proofs_Beam Proofs_Force Model_Accumulation Proofs_Accumulation Model_Track Spec_Track Proofs_Track Proofs_Assembly Props_Track
  Spec_Analytic Spec_Motion Proofs_Motion Spec_Chain Proofs_Chain Spec_Renumber Proofs_Renumber Spec_Units Proofs_Units Props_Units Spec_Stiffer Proofs_Stiffer Spec_Length Proofs_Length.
Import ListNotations.
Local Open Scope R_scope.

(** a model written in another unit of length is initialised as well; its nodes have the same degrees of freedom, and every entry of
    the matrices and every force is the old one in the new unit *)
Theorem C146_same_system la (ns : list (node R)) ps ls cs da s ns' n :
  0 < la -> initialise_system ns ps ls cs da = Ok (s, ns', n) ->
  Forall shaped ps -> Forall (fun p => sound (settled ns p)) ps -> Forall (within ns) ps -> Forall (even_rail ns) ps -> Forall plain_load ls -> clear_lengths la ns ps ->
  exists s2, initialise_system (mesh_at la ns) (map (part_at la) ps) (map (load_at la) ls) cs da = Ok (s2, mesh_at la ns', n) /\
    (forall p d i, number_of ns' p d = Some i -> nth i (gF s2) 0 = la * lever la d * nth i (gF s) 0) /\
    forall p d i q e j, number_of ns' p d = Some i -> number_of ns' q e = Some j ->
      me (gK s2) i j = lever la d * lever la e * me (gK s) i j /\ me (gM s2) i j = lever la d * lever la e * me (gM s) i j /\ me (gC s2) i j = lever la d * lever la e * me (gC s) i j.
Proof.
  intros hl h hs ho hw he hp hc. destruct (run_at la hl ns ps ls cs da s ns' n h hw he) as [s2 [ms' [m h2]]].
  destruct (same_nodes la hl ns ps ls cs da s ns' n hs ho hc h s2 ms' m h2) as [-> ->]. exists s2. split; [exact h2|].
  assert (hb : forall p d i, number_of ns' p d = Some i -> (i < n)%nat).
  { intros p d i hi. assert (g : In i (all_numbers ns')) by (apply all_numbers_In; eauto). rewrite (kept_numbers ns ps ls cs da s ns' n h) in g. apply in_seq in g. lia. }
  split.
  - intros p d i hi. rewrite <- (arm_at la ns ps ls cs da s ns' n h p d i hi). exact (force_at la hl ns ps ls cs da s ns' n hs ho hc h s2 _ n h2 i hp (hb _ _ _ hi)).
  - intros p d i q e j hi hj. rewrite <- (arm_at la ns ps ls cs da s ns' n h p d i hi), <- (arm_at la ns ps ls cs da s ns' n h q e j hj).
    exact (entry_at la hl ns ps ls cs da s ns' n hs ho hc h s2 _ n h2 i j (hb _ _ _ hi) (hb _ _ _ hj)).
Qed.
Print Assumptions C146_same_system.

(** so displacements are in balance with the loads exactly when they are so in the new unit; rotations are the same *)
Theorem C146_same_balance la (ns : list (node R)) ps ls cs da s ns' n s2 ms' m x y :
  0 < la -> initialise_system ns ps ls cs da = Ok (s, ns', n) ->
  initialise_system (mesh_at la ns) (map (part_at la) ps) (map (load_at la) ls) cs da = Ok (s2, ms', m) ->
  Forall shaped ps -> Forall (fun p => sound (settled ns p)) ps -> Forall plain_load ls -> clear_lengths la ns ps ->
  (forall p d, field_of ms' y p d = stretch la d * field_of ns' x p d) -> (in_balance s n x <-> in_balance s2 m y).
Proof.
  intros hl h h2 hs ho hp hc hy. destruct (same_nodes la hl ns ps ls cs da s ns' n hs ho hc h s2 ms' m h2) as [-> ->].
  assert (hyk : forall p d k, number_of ns' p d = Some k -> y k = stretch la d * x k).
  { intros p d k hk. specialize (hy p d). unfold field_of in hy. rewrite number_of_at, hk in hy. exact hy. }
  split; intros g i hi; destruct (mulv_at la hl ns ps ls cs da s ns' n hs ho hc h s2 _ n h2 x y i hyk hi) as [e _]; pose proof (force_at la hl ns ps ls cs da s ns' n hs ho hc h s2 _ n h2 i hp hi) as ef.
  - rewrite e, ef, g by exact hi. reflexivity.
  - pose proof (arm_pos la hl ns ps ls cs da s ns' n h i hi) as ha. apply (Rmult_eq_reg_l (la * arm la ns' i)); [|apply Rgt_not_eq, Rmult_lt_0_compat; assumption]. rewrite <- e, <- ef. apply g. exact hi.
Qed.
Print Assumptions C146_same_balance.

(** and so is the motion: forces, displacements, velocities and accelerations have their new units *)
Theorem C146_same_motion la (ns : list (node R)) ps ls cs da s ns' n s2 ms' m g u v b g2 u2 v2 b2 :
  0 < la -> initialise_system ns ps ls cs da = Ok (s, ns', n) ->
  initialise_system (mesh_at la ns) (map (part_at la) ps) (map (load_at la) ls) cs da = Ok (s2, ms', m) ->
  Forall shaped ps -> Forall (fun p => sound (settled ns p)) ps -> clear_lengths la ns ps ->
  (forall t p d, field_of ms' (g2 t) p d = la * lever la d * field_of ns' (g t) p d /\ field_of ms' (u2 t) p d = stretch la d * field_of ns' (u t) p d /\
     field_of ms' (v2 t) p d = stretch la d * field_of ns' (v t) p d /\ field_of ms' (b2 t) p d = stretch la d * field_of ns' (b t) p d) ->
  motion n s g u v b -> motion m s2 g2 u2 v2 b2.
Proof.
  intros hl h h2 hs ho hc hf. destruct (same_nodes la hl ns ps ls cs da s ns' n hs ho hc h s2 ms' m h2) as [-> ->].
  apply (motion_at la hl ns ps ls cs da s ns' n hs ho hc h s2 _ n h2). intros t p d i hi. specialize (hf t p d). unfold field_of in hf. rewrite number_of_at, hi in hf. exact hf.
Qed.
Print Assumptions C146_same_motion.

(** ** a level beam of length [l], Young's modulus [E] and density [r], with unit area and second moment of area *)
Definition slab (l E r : R) : epart R := mkPart (KBeam (mkBeam E 0 r 1 1 0 l None None)) [0; 1]%nat [(0, 1)]%nat.
Definition slab_nodes (l : R) : list (node R) := [new_node 0 0 0 0; new_node 1 l 0 0].

Lemma slab_angle l : 0 < l -> calculate_rotation1 (xy (slab_nodes l) 0, xy (slab_nodes l) 1) = 0.
Proof. intros h. cbn [xy slab_nodes nth_error new_node n_coord tx ty]. apply rotation1_right. lra. Qed.

Lemma slab_own l E r p d : (p < 2)%nat -> 0 < l -> 0 < E -> 0 <= r ->
  own_stiffness (slab_nodes l) [slab l E r] p d = match d with DX => E / l | DY => 12 * E / (l * l * l) | DR => 4 * E / l end /\
  own_mass (slab_nodes l) [slab l E r] p d = match d with DX => r * l / 3 | DY => 13 / 35 * (r * l) | DR => r * (l * l * l) / 105 end.
Proof.
  intros hp hl hE hr. unfold own_stiffness, own_mass. cbn [map nsum]. change (settled (slab_nodes l) (slab l E r)) with (slab l E r).
  assert (t0 : timoshenko_factor 0 (mkBeam E 0 r 1 1 0 l None None) = 0) by (unfold timoshenko_factor; cbn [b_shear_factor]; rnum; destruct (nltbP 0 0); [lra|reflexivity]).
  split.
  - destruct (C85_element_energy (slab_nodes l) (lone p d) (slab l E r) (0, 1)%nat) as [_ [_ [h _]]]. cbn [fst snd] in h. rewrite slab_angle in h by exact hl.
    rewrite (h _ (or_introl eq_refl) eq_refl); [|split; reflexivity|repeat split; cbn; lra]. rewrite t0. cbn [b_E b_A b_I b_l]. unfold along, across. rewrite cos_0, sin_0. rnum.
    destruct p as [|[|p]]; [| |lia]; destruct d; cbn; field; lra.
  - unfold part_form, slab. cbn [ep_kind ep_els aux_mass map nsum fst snd element_form]. rewrite slab_angle by exact hl. change (lit 0) with 0. rewrite t0. rnum. rewrite !Rplus_0_r.
    rewrite (quad_ext6 _ (mass_entries (mkBeam E 0 r 1 1 0 l None None) 0)) by (intros; apply beam_mass_entries; assumption).
    unfold quad, mass_entries. destruct (Req_EM_T 0 0) as [_|ne]; [|contradiction]. cbn [sumn b_l b_rho b_A]. unfold local6, along, across. rewrite cos_0, sin_0.
    destruct p as [|[|p]]; [| |lia]; destruct d; cbn; field.
Qed.

Lemma slab_runs l E r ls cs da : (forall f i, In f ls -> In i (ld_nodes f) -> (i < 2)%nat) -> exists s ns' n, initialise_system (slab_nodes l) [slab l E r] ls cs da = Ok (s, ns', n).
Proof. intros hl. apply initialise_ok; [|intros p i [<-|[]]; cbn; intuition lia|exact hl]. intros p [<-|[]]. eexists. reflexivity. Qed.

(** a degree of freedom that nothing constrains is kept when its own mass and its own stiffness are above 1e-8 *)
Lemma kept_own (ns : list (node R)) ps ls da s ns' n p d : initialise_system ns ps ls [] da = Ok (s, ns', n) -> Forall shaped ps -> (p < length ns)%nat -> active ns p d = true ->
  (number_of ns' p d <> None <-> 1 / 100000000 < Rabs (own_mass ns ps p d) /\ 1 / 100000000 < Rabs (own_stiffness ns ps p d)).
Proof.
  intros h hs hp ha. destruct (initialise_inv _ _ _ _ _ _ _ _ h) as [s0 [_ [e0 _]]]. destruct (initialise_kept _ _ _ _ _ _ _ _ _ h e0) as [_ [_ [hk _]]].
  rewrite (hk p d hp). cbv zeta.
  destruct (assemble_diag ns ps ls s0 (number_from 0 ns) p d hs e0 hp) as [q1 q2].
  replace (3 * p + match d with DX => 0 | DY => 1 | DR => 2 end)%nat with (3 * p + dir_idx d)%nat by (destruct d; reflexivity). rewrite q1, q2. unfold own_stiffness, own_mass.
  rewrite (nsum_map_ext (fun a => part_form aux_stiffness ns (unit_field p d) (settled ns a)) (fun a => part_form aux_stiffness ns (lone p d) (settled ns a))) by (intros; apply form_same; intros; symmetry; apply lone_unit).
  rewrite (nsum_map_ext (fun a => part_form aux_mass ns (unit_field p d) (settled ns a)) (fun a => part_form aux_mass ns (lone p d) (settled ns a))) by (intros; apply form_same; intros; symmetry; apply lone_unit).
  rewrite ha. cbn [flag_after fold_left]. tauto.
Qed.

Lemma slab_new la l E r p : 0 < la -> 1 / 100000000 < l -> 1 / 100000000 < la * l -> 0 < E -> 0 <= r ->
  own_stiffness (mesh_at la (slab_nodes l)) (map (part_at la) [slab l E r]) p DR = la * la * own_stiffness (slab_nodes l) [slab l E r] p DR /\
  own_mass (mesh_at la (slab_nodes l)) (map (part_at la) [slab l E r]) p DR = la * la * own_mass (slab_nodes l) [slab l E r] p DR.
Proof.
  intros hla h1 h2 hE hr. unfold own_stiffness, own_mass. cbn [map nsum]. rewrite settled_at by exact hla. change (settled (slab_nodes l) (slab l E r)) with (slab l E r). rnum. rewrite !Rplus_0_r.
  assert (hx : forall e, In e (ep_els (slab l E r)) -> same_side la (fst (xy (slab_nodes l) (snd e)) - fst (xy (slab_nodes l) (fst e)))).
  { intros e [<-|[]]. cbn. unfold same_side. rewrite Rabs_right by lra. rewrite Rminus_0_r. tauto. }
  assert (hs : sound (slab l E r)) by (repeat split; cbn; lra).
  rewrite !(form_at la hla) by (try assumption; unfold is_aux; tauto).
  split; rewrite <- form_times; apply form_same; intros q d; unfold levered, lone, lever; destruct d; cbn; rewrite ?Rmult_0_r; try reflexivity; destruct (Nat.eqb q p); cbn; ring.
Qed.

(** the code compares the masses and stiffnesses with 1e-8 whatever their unit is: for every other unit of length there is a beam whose
    ends can rotate in one unit and cannot in the other, although its length is above that value in both *)
Theorem C146_same_system_refuted la : 0 < la -> la <> 1 ->
  exists l E r s ns' n s2 ms' n2, 0 < E /\ 0 < r /\ 1 / 100000000 < l /\ 1 / 100000000 < la * l /\
    initialise_system (slab_nodes l) [slab l E r] [] [] no_damping = Ok (s, ns', n) /\
    initialise_system (mesh_at la (slab_nodes l)) (map (part_at la) [slab l E r]) [] [] no_damping = Ok (s2, ms', n2) /\
    ~ (number_of ns' 0 DR <> None <-> number_of ms' 0 DR <> None).
Proof.
  intros hl hne. assert (hi : 0 < / la) by (apply Rinv_0_lt_compat; exact hl).
  set (l := 1 + / la). assert (l1 : 1 < l) by (unfold l; lra). assert (l2 : la * l = la + 1) by (unfold l; field; lra).
  assert (h2 : 0 < la * la) by (apply Rmult_lt_0_compat; exact hl). assert (n2 : la * la <> 1) by (intros e; assert (e3 : (la - 1) * (la + 1) = 0) by lra; apply Rmult_integral in e3; lra).
  destruct (other_side (la * la) h2 n2) as [x [x1 x2]].
  assert (l3 : 0 < l * l * l) by (repeat apply Rmult_lt_0_compat; lra).
  set (E := l * (1 + / (la * la))). assert (i2 : 0 < / (la * la)) by (apply Rinv_0_lt_compat; exact h2). assert (hE : 0 < E) by (apply Rmult_lt_0_compat; lra).
  set (r := 105 * x / (l * l * l)). assert (hr : 0 < r) by (apply Rdiv_lt_0_compat; [lra|exact l3]).
  destruct (slab_runs l E r [] [] no_damping) as [s [ns' [n h]]]; [intros f i []|].
  assert (w : Forall (within (slab_nodes l)) [slab l E r]) by (constructor; [|constructor]; intros i [hj|[e [hj hk]]]; cbn in *; intuition (subst; cbn in *; lia)).
  destruct (run_at la hl (slab_nodes l) [slab l E r] [] [] no_damping s ns' n h w) as [s2 [ms' [m h3]]]; [constructor; [exact I|constructor]|].
  exists l, E, r, s, ns', n, s2, ms', m. split; [exact hE|]. split; [exact hr|]. split; [lra|]. split; [lra|]. split; [exact h|]. split; [exact h3|].
  assert (sh : Forall shaped [slab l E r]) by (constructor; [discriminate|constructor]). assert (sh2 : Forall shaped (map (part_at la) [slab l E r])) by (constructor; [discriminate|constructor]).
  rewrite (kept_own _ _ _ _ _ _ _ 0%nat DR h sh) by (cbn; auto with arith). rewrite (kept_own _ _ _ _ _ _ _ 0%nat DR h3 sh2) by (cbn; auto with arith).
  destruct (slab_new la l E r 0%nat hl) as [-> ->]; [lra|lra|exact hE|lra|].
  destruct (slab_own l E r 0%nat DR) as [-> ->]; [lia|lra|exact hE|lra|].
  replace (r * (l * l * l) / 105) with x by (unfold r; field; lra). replace (4 * E / l) with (4 * (1 + / (la * la))) by (unfold E; field; lra).
  replace (la * la * (4 * (1 + / (la * la)))) with (4 * (la * la + 1)) by (field; lra). rewrite !(Rabs_right (4 * _)) by lra.
  assert (1 / 100000000 < 4 * (1 + / (la * la))) by lra. assert (1 / 100000000 < 4 * (la * la + 1)) by lra. tauto.
Qed.
Print Assumptions C146_same_system_refuted.

(** a beam of 2 m with a density of 2400 kg/m3 and a Young's modulus of 30 GPa, with a force and a moment on its end and Rayleigh
    damping, in metres and in millimetres *)
Example C146_case : exists s ns' n,
  let ls := [mkLoad (T3 false true true) [1%nat] [T3 0 500 20]] in let da := mkDamping true (1 / 20) 10 200 in let ps := [slab 2 30000000000 2400] in
  initialise_system (slab_nodes 2) ps ls [] da = Ok (s, ns', n) /\ number_of ns' 1%nat DR <> None /\
  Forall shaped ps /\ Forall (fun p => sound (settled (slab_nodes 2) p)) ps /\ Forall (within (slab_nodes 2)) ps /\ Forall (even_rail (slab_nodes 2)) ps /\ Forall plain_load ls /\
  clear_lengths 1000 (slab_nodes 2) ps.
Proof.
  cbv zeta. set (ls := [mkLoad (T3 false true true) [1%nat] [T3 0 500 20]]). destruct (slab_runs 2 30000000000 2400 ls [] (mkDamping true (1 / 20) 10 200)) as [s [ns' [n h]]].
  { intros l i [<-|[]] [<-|[]]. lia. }
  assert (sh : Forall shaped [slab 2 30000000000 2400]) by (constructor; [discriminate|constructor]).
  exists s, ns', n. split; [exact h|]. split.
  { rewrite (kept_own _ _ _ _ _ _ _ 1%nat DR h sh) by (cbn; auto with arith). destruct (slab_own 2 30000000000 2400 1%nat DR) as [-> ->]; [lia|lra|lra|lra|]. rewrite !Rabs_right by lra. lra. }
  split; [exact sh|]. split; [constructor; [repeat split; cbn; lra|constructor]|].
  split; [constructor; [|constructor]; intros i [hi|[e [hi hj]]]; cbn in *; intuition (subst; cbn in *; lia)|]. split; [constructor; [exact I|constructor]|].
  split; [constructor; [|constructor]; split; [constructor; [intros []|constructor]|reflexivity]|].
  split.
  - intros p e [<-|[]] [<-|[]]. cbn. unfold same_side. rewrite Rabs_right; lra.
  - intros q hq. destruct (slab_own 2 30000000000 2400 q DR) as [-> ->]; [exact hq|lra|lra|lra|]. unfold same_side. rewrite !Rabs_right by lra. lra.
Qed.
