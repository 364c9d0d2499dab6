(** * Motions of a system: energy (C108), uniqueness, superposition and reciprocity of the response (C109) *)

From Coq Require Import Reals List Bool ZArith Arith Lia Lra.
From Verif Require Import Num PyBase Model_Geometry Model_System Spec_System Proofs_Dof Proofs_System Model_Element Spec_Element
  Proofs_Elements Proofs_Element Proofs_Beam Proofs_Force Model_Accumulation Proofs_Accumulation Model_Coupled Model_Mesh Model_Track Spec_Track Spec_Generated
  Proofs_Track Proofs_Assembly Proofs_Mesh Proofs_Generated Props_Track Props_Generated Spec_Analytic Spec_Motion Proofs_Motion.
Import ListNotations.
Local Open Scope R_scope.

(** ** C108: energy *)

Lemma energy_of_matrices (ns : list (node R)) ps ls cs da s ns' n u v : initialise_system ns ps ls cs da = Ok (s, ns', n) -> Forall shaped ps ->
  stored_energy ns ns' ps u v = (quad n (me (gM s)) v + quad n (me (gK s)) u) / 2.
Proof.
  intros h hs. destruct (C85_energy ns ps ls cs da s ns' n u h hs) as [k1 _]. destruct (C85_energy ns ps ls cs da s ns' n v h hs) as [_ [k2 _]].
  unfold stored_energy. rewrite k1, k2. reflexivity.
Qed.

(** the energy of the elements changes by the power of the loads minus what the damping takes, and the damping never gives *)
Theorem C108_power (ns : list (node R)) ps ls cs da s ns' n f u v a :
  initialise_system ns ps ls cs da = Ok (s, ns', n) ->
  Forall shaped ps -> Forall (fun p => sound (settled ns p)) ps -> (da_on da = true -> 0 <= da_ratio da /\ 0 < da_one da /\ 0 < da_two da) ->
  motion n s f u v a ->
  exists loss, derivative (fun t => stored_energy ns ns' ps (u t) (v t)) (fun t => work n (f t) (v t) - loss t) /\
    (forall t, 0 <= loss t) /\ (undamped ps da -> forall t, loss t = 0) /\ (forall t, 0 <= stored_energy ns ns' ps (u t) (v t)).
Proof.
  intros h hs ho hd hm. destruct (C85_symmetric_semidefinite _ _ _ _ _ _ _ _ h hs ho hd) as [[sk [sm sc]] [pk [pm pc]]].
  exists (fun t => quad n (me (gC s)) (v t)). split; [|split; [|split]].
  - apply (derivative_ext (fun t => (quad n (me (gM s)) (v t) + quad n (me (gK s)) (u t)) / 2) _ (fun t => work n (f t) (v t) - quad n (me (gC s)) (v t)));
      [intros t; symmetry; apply (energy_of_matrices _ _ _ _ _ _ _ _ _ _ h hs)|reflexivity|apply (power n s sk sm f u v a hm)].
  - intros t. apply pc.
  - intros [hoff hrods] t. destruct (C85_energy _ _ _ _ _ _ _ _ (v t) h hs) as [_ [_ ->]]. rewrite hoff, Rplus_0_r.
    clear - hrods hs. induction ps as [|p ps IH]; [reflexivity|]. inversion_clear hrods. inversion_clear hs. cbn [map nsum]. rewrite IH by assumption. rnum. rewrite Rplus_0_r. clear IH H0 H2.
    assert (ek : match ep_kind (settled ns p) with KRod _ (Some c) _ => c = 0 | _ => True end).
    { unfold settled. destruct (ep_kind p) as [k c m|b|b|m] eqn:ek; destruct (ep_nodes p) as [|i [|j l]]; rewrite ?ek; auto.
      destruct (nth_error ns i), (nth_error ns j); cbn; rewrite ?ek; auto. }
    destruct (ep_kind (settled ns p)) as [k [c|] m|b|b|m] eqn:es.
    + subst c. unfold part_form. rewrite es. cbn [aux_damping]. generalize (ep_els (settled ns p)). intros l. unfold rod_spring.
      induction l as [|e l IH]; [reflexivity|]. cbn [map nsum]. rewrite IH. cbn [element_form]. destruct (rod_spring_spec 0 _ eq_refl) as [_ [q _]]. unfold rod_spring in q. rewrite q. rnum. ring.
    + unfold part_form. rewrite es. reflexivity.
    + destruct (C85_element_energy ns (field_of ns' (v t)) (settled ns p) (0, 0)%nat) as [_ [_ [_ [g _]]]]. apply (g b). left. exact es.
    + destruct (C85_element_energy ns (field_of ns' (v t)) (settled ns p) (0, 0)%nat) as [_ [_ [_ [g _]]]]. apply (g b). right. exact es.
    + destruct (C85_element_energy ns (field_of ns' (v t)) (settled ns p) (0, 0)%nat) as [_ [_ [_ [_ g]]]]. apply (g m es).
  - intros t. rewrite (energy_of_matrices _ _ _ _ _ _ _ _ _ _ h hs). specialize (pk (u t)). specialize (pm (v t)). lra.
Qed.
Print Assumptions C108_power.

(** without load between two times the energy does not grow; without damping it stays the same *)
Theorem C108_free_motion (ns : list (node R)) ps ls cs da s ns' n f u v a t1 t2 :
  initialise_system ns ps ls cs da = Ok (s, ns', n) ->
  Forall shaped ps -> Forall (fun p => sound (settled ns p)) ps -> (da_on da = true -> 0 <= da_ratio da /\ 0 < da_one da /\ 0 < da_two da) ->
  motion n s f u v a -> t1 <= t2 -> (forall t i, t1 <= t <= t2 -> (i < n)%nat -> f t i = 0) ->
  stored_energy ns ns' ps (u t2) (v t2) <= stored_energy ns ns' ps (u t1) (v t1) /\
  (undamped ps da -> stored_energy ns ns' ps (u t2) (v t2) = stored_energy ns ns' ps (u t1) (v t1)).
Proof.
  intros h hs ho hd hm h12 hf. destruct (C108_power _ _ _ _ _ _ _ _ _ _ _ _ h hs ho hd hm) as [loss [d [hl [hu _]]]].
  assert (hw : forall t, t1 < t < t2 -> work n (f t) (v t) = 0) by (intros t ht; apply sumn_0; intros i hi; rewrite hf by (lra || exact hi); ring).
  split.
  - apply (not_growing _ _ _ _ d h12). intros t ht. rewrite hw by exact ht. specialize (hl t). lra.
  - intros hund. apply (constant_between _ _ _ _ d h12). intros t ht. rewrite hw, (hu hund) by exact ht. ring.
Qed.
Print Assumptions C108_free_motion.

(** a rod of stiffness 1 and mass 1 whose first node is held swings with frequency sqrt 3: a free motion without damping *)
Lemma rod_alone : exists s ns' k, initialise_system two_nodes [a_rod] [] [([0%nat], T3 false false false)] no_damping = Ok (s, ns', k) /\ k = 1%nat /\
  me (gK s) 0%nat 0%nat = 1 /\ me (gM s) 0%nat 0%nat = 1 / 3 /\ me (gC s) 0%nat 0%nat = 0.
Proof.
  destruct (rod_runs two_nodes [([0%nat], T3 false false false)] eq_refl) as [s [ns' [k h]]]. exists s, ns', k. split; [exact h|].
  destruct (initialise_inv _ _ _ _ _ _ _ _ h) as [s0 [_ [e0 _]]]. destruct (initialise_kept _ _ _ _ _ _ _ _ _ h e0) as [hl [hn [hk _]]].
  assert (h0 : forall d, number_of ns' 0 d = None).
  { intros d. destruct (number_of ns' 0 d) eqn:e; [|reflexivity]. exfalso. destruct (hk 0%nat d) as [g _]; [cbn; lia|]. destruct g as [g _]; [congruence|]. destruct d; discriminate. }
  destruct (rod_diag _ _ _ 1%nat eq_refl e0) as [d1 d2]; [lia|].
  assert (h1 : number_of ns' 1 DX <> None).
  { apply (hk 1%nat DX); [cbn; lia|]. split; [reflexivity|]. cbn in d1, d2. cbn. rewrite d1, d2. rewrite !Rabs_right by lra. lra. }
  assert (hother : forall d, d <> DX -> number_of ns' 1 d = None).
  { intros d hd. destruct (number_of ns' 1 d) eqn:e; [|reflexivity]. exfalso. destruct (hk 1%nat d) as [g _]; [cbn; lia|]. destruct g as [_ [_ g]]; [congruence|].
    destruct (assemble_diag two_nodes [a_rod] [] s0 (number_from 0 two_nodes) 1%nat d) as [q1 _]; [constructor; [discriminate|constructor]|exact e0|cbn; lia|].
    assert (q : me (gK s0) (3 * 1 + match d with DX => 0 | DY => 1 | DR => 2 end)%nat (3 * 1 + match d with DX => 0 | DY => 1 | DR => 2 end)%nat = 0).
    { replace (match d with DX => 0 | DY => 1 | DR => 2 end)%nat with (dir_idx d) by (destruct d; reflexivity). rewrite q1. clear q1.
      cbn [map nsum]. unfold settled, a_rod, part_form. cbn [ep_kind ep_nodes ep_els aux_stiffness map nsum fst snd element_form].
      assert (er : calculate_rotation1 (xy two_nodes 0, xy two_nodes 1) = 0) by (apply (rotation1_right 0 1 0); lra).
      destruct (rod_spring_spec 1 _ eq_refl) as [_ [q _]]. cbn [rod_spring] in *. rewrite q. cbn [local2]. rewrite er. unfold along. rewrite cos_0, sin_0. unfold unit_field.
      destruct d; [contradiction| |]; cbn; rnum; ring. }
    rewrite q, Rabs_R0 in g. lra. }
  destruct (number_of ns' 1 DX) as [j|] eqn:ej; [|congruence].
  assert (ek : [j] = seq 0 k).
  { rewrite <- hn. unfold all_numbers. destruct ns' as [|a [|b [|c l]]]; try discriminate. 
    pose proof (h0 DX). pose proof (h0 DY). pose proof (h0 DR). pose proof (hother DY ltac:(discriminate)). pose proof (hother DR ltac:(discriminate)).
    unfold number_of in *. cbn in *. destruct (n_dof a) as [a1 a2 a3], (n_dof b) as [b1 b2 b3]. cbn in *. subst. reflexivity. }
  destruct k as [|[|k]]; [discriminate| |discriminate]. injection ek as ->. split; [reflexivity|].
  pose proof (C85_energy two_nodes [a_rod] [] _ no_damping s ns' 1%nat (fun _ => 1) h) as [g1 [g2 g3]]; [constructor; [discriminate|constructor]|].
  assert (ef : forall p d, field_of ns' (fun _ => 1) p d = unit_field 1 DX p d).
  { intros p d. unfold field_of, unit_field. destruct p as [|[|p]]; [rewrite h0; destruct d; reflexivity| |].
    - destruct d; [rewrite ej; reflexivity|rewrite hother by discriminate; reflexivity|rewrite hother by discriminate; reflexivity].
    - unfold number_of. destruct (nth_error ns' (S (S p))) eqn:e; [|destruct (Nat.eqb_spec (3 * 1 + dir_idx DX) (3 * S (S p) + dir_idx d)); [cbn in *; lia|reflexivity]]. assert (S (S p) < length ns')%nat by (apply nth_error_Some; congruence). rewrite hl in H. cbn in H. lia. }
  assert (er : calculate_rotation1 (xy two_nodes 0, xy two_nodes 1) = 0) by (apply (rotation1_right 0 1 0); lra).
  unfold quad in g1, g2, g3. cbn [sumn map nsum] in g1, g2, g3. unfold settled, a_rod, part_form in g1, g2, g3.
  cbn [ep_kind ep_nodes ep_els aux_stiffness aux_mass aux_damping map nsum fst snd element_form] in g1, g2, g3. rewrite er in g1, g2.
  destruct (rod_spring_spec 1 _ eq_refl) as [_ [q1 _]]. destruct (rod_mass_spec 1 _ eq_refl) as [_ [_ [q2 _]]]. cbn [rod_spring rod_mass] in *. rnum.
  rewrite q1 in g1. rewrite q2 in g2. cbn [local2] in g1, g2. rewrite !ef in g1, g2. unfold along, unit_field in g1, g2. rewrite cos_0, sin_0 in g1, g2. cbn in g1, g2, g3. lra.
Qed.

Example C108_case : exists s ns' n, initialise_system two_nodes [a_rod] [] [([0%nat], T3 false false false)] no_damping = Ok (s, ns', n) /\
  Forall shaped [a_rod] /\ Forall (fun p => sound (settled two_nodes p)) [a_rod] /\ undamped [a_rod] no_damping /\
  motion n s (fun _ _ => 0) (fun t _ => cos (sqrt 3 * t)) (fun t _ => - sqrt 3 * sin (sqrt 3 * t)) (fun t _ => - 3 * cos (sqrt 3 * t)).
Proof.
  destruct rod_alone as [s [ns' [k [h [-> [ek [em ec]]]]]]]. exists s, ns', 1%nat. split; [exact h|]. split; [constructor; [discriminate|constructor]|].
  split; [repeat constructor; cbn; lra|]. split; [split; [reflexivity|repeat constructor]|].
  assert (hsq : sqrt 3 * sqrt 3 = 3) by (apply sqrt_sqrt; lra).
  assert (hin : forall t, derivable_pt_lim (fun t => sqrt 3 * t) t (sqrt 3)).
  { intros t. pose proof (derivable_pt_lim_scal (fun t => t) (sqrt 3) t 1 (derivable_pt_lim_id t)) as g. rewrite Rmult_1_r in g. exact g. }
  split; [|split].
  - intros i _ t. replace (- sqrt 3 * sin (sqrt 3 * t)) with (- sin (sqrt 3 * t) * sqrt 3) by ring. apply (derivable_pt_lim_comp (fun t => sqrt 3 * t) cos); [apply hin|apply derivable_pt_lim_cos].
  - intros i _ t. replace (-3 * cos (sqrt 3 * t)) with (- sqrt 3 * (cos (sqrt 3 * t) * sqrt 3)) by (transitivity (- (sqrt 3 * sqrt 3) * cos (sqrt 3 * t)); [lra|rewrite hsq; lra]).
    apply (derivable_pt_lim_scal (fun t => sin (sqrt 3 * t))). apply (derivable_pt_lim_comp (fun t => sqrt 3 * t) sin); [apply hin|apply derivable_pt_lim_sin].
  - intros t i hi. assert (i = 0)%nat as -> by lia. unfold mulv. cbn [sumn]. rewrite ek, em, ec. rnum. field.
Qed.

(** ** C109: the response *)

(** Betti: the forces of one static state work along the displacements of another as much as the other way round *)
Theorem C109_reciprocal (ns : list (node R)) ps ls cs da s ns' n f u g v :
  initialise_system ns ps ls cs da = Ok (s, ns', n) -> Forall shaped ps -> Forall (fun p => sound (settled ns p)) ps ->
  (forall i, (i < n)%nat -> mulv n (me (gK s)) u i = f i) -> (forall i, (i < n)%nat -> mulv n (me (gK s)) v i = g i) ->
  work n f v = work n g u.
Proof.
  intros h hs ho hu hv. assert (sk : msym n (me (gK s))) by exact (proj1 (initialise_sym _ _ _ _ _ _ _ _ hs ho h)).
  rewrite <- (work_ext n (mulv n (me (gK s)) u) v f v hu (fun _ _ => eq_refl)), <- (work_ext n (mulv n (me (gK s)) v) u g u hv (fun _ _ => eq_refl)). apply work_sym. exact sk.
Qed.
Print Assumptions C109_reciprocal.

(** Maxwell: the displacement of a degree of freedom under a unit force on another is that of the other under a unit force on it *)
Theorem C109_maxwell (ns : list (node R)) ps ls cs da s ns' n i j u v :
  initialise_system ns ps ls cs da = Ok (s, ns', n) -> Forall shaped ps -> Forall (fun p => sound (settled ns p)) ps -> (i < n)%nat -> (j < n)%nat ->
  (forall k, (k < n)%nat -> mulv n (me (gK s)) u k = if Nat.eqb i k then 1 else 0) -> (forall k, (k < n)%nat -> mulv n (me (gK s)) v k = if Nat.eqb j k then 1 else 0) ->
  v i = u j.
Proof.
  intros h hs ho hi hj hu hv.
  pose proof (C109_reciprocal _ _ _ _ _ _ _ _ (fun k => if Nat.eqb i k then 1 else 0) u (fun k => if Nat.eqb j k then 1 else 0) v h hs ho hu hv) as e.
  assert (p : forall q x, (q < n)%nat -> work n (fun k => if Nat.eqb q k then 1 else 0) x = x q).
  { intros q x hq. unfold work. rewrite <- (sumn_pick n x q hq). apply sumn_ext. intros k hk. destruct (Nat.eqb q k); ring. }
  rewrite !p in e by assumption. exact e.
Qed.
Print Assumptions C109_maxwell.

(** superposition: combined loads have combined motions *)
Theorem C109_superposition (n : nat) (s : gsys R) c1 c2 f1 u1 v1 a1 f2 u2 v2 a2 : motion n s f1 u1 v1 a1 -> motion n s f2 u2 v2 a2 ->
  motion n s (fun t i => c1 * f1 t i + c2 * f2 t i) (fun t i => c1 * u1 t i + c2 * u2 t i) (fun t i => c1 * v1 t i + c2 * v2 t i) (fun t i => c1 * a1 t i + c2 * a2 t i).
Proof. apply motion_combined. Qed.
Print Assumptions C109_superposition.

(** on a track that is held as in C87 there is at most one motion from a state under given loads *)
Theorem C109_unique h n r (d depth : R) t rail pad sleeper soil ls cs da s ns' k f1 u1 v1 a1 f2 u2 v2 a2 t0 t1 :
  (2 <= n)%nat -> (1 <= r)%nat -> 1 / 1000000000 < d / INR r -> 1 / 1000000000 < depth ->
  create_horizontal_track h 0 n d depth r = Ok t -> good_rail rail -> good_rod pad -> 0 <= sleeper -> good_rod soil ->
  (da_on da = true -> 0 <= da_ratio da /\ 0 < da_one da /\ 0 < da_two da) ->
  initialise_system (tk_mesh t) (track_parts t rail pad sleeper soil) ls cs da = Ok (s, ns', k) ->
  (forall e, In e (tk_soil_els t) -> number_of ns' (snd e) DY = None) -> (exists i, In i (tk_rail_nodes t) /\ number_of ns' i DX = None) ->
  motion k s f1 u1 v1 a1 -> motion k s f2 u2 v2 a2 -> t0 <= t1 ->
  (forall i, (i < k)%nat -> u1 t0 i = u2 t0 i /\ v1 t0 i = v2 t0 i) -> (forall x i, t0 <= x <= t1 -> (i < k)%nat -> f1 x i = f2 x i) ->
  forall i, (i < k)%nat -> u1 t1 i = u2 t1 i.
Proof.
  intros hn hr hd hdep ht hrail hpad hs hsoil hda hi hb hside m1 m2 h01 hstate hload.
  pose proof (C87_definite _ _ _ _ _ _ _ _ _ _ _ _ _ _ _ _ hn hr hd hdep ht hrail hpad hs hsoil hi hb hside) as pk.
  pose proof hrail as [b1 [b2 [b3 [b4 [b5 b6]]]]]. pose proof hpad as [p1 [p2 p3]]. pose proof hsoil as [s1 [s2 s3]].
  apply created in ht; try assumption. subst t.
  assert (hsound : Forall (fun p => sound (settled (tk_mesh (the_track 0 n r d depth)) p)) (track_parts (the_track 0 n r d depth) rail pad sleeper soil))
    by (apply (parts_sound n r d depth); assumption).
  assert (hshape : Forall shaped (track_parts (the_track 0 n r d depth) rail pad sleeper soil)) by (apply (parts_shaped n r d depth); assumption).
  pose proof (motion_diff k s _ _ _ _ _ _ _ _ m1 m2) as md.
  destruct (C108_free_motion _ _ _ _ _ _ _ _ _ _ _ _ t0 t1 hi hshape hsound hda md h01) as [g _].
  { intros x i hx hk. rewrite (hload x i hx hk). ring. }
  rewrite !(energy_of_matrices _ _ _ _ _ _ _ _ _ _ hi hshape) in g. cbv beta in g.
  destruct (C85_symmetric_semidefinite _ _ _ _ _ _ _ _ hi hshape hsound hda) as [_ [_ [pm _]]].
  assert (z : forall m, quad k m (fun _ => 0) = 0) by (intros m; unfold quad; apply sumn_0; intros; apply sumn_0; intros; ring).
  rewrite (quad_ext_vec k (me (gM s)) (fun i => v1 t0 i - v2 t0 i) (fun _ => 0)) in g by (intros i hk; rewrite (proj2 (hstate i hk)); ring).
  rewrite (quad_ext_vec k (me (gK s)) (fun i => u1 t0 i - u2 t0 i) (fun _ => 0)) in g by (intros i hk; rewrite (proj1 (hstate i hk)); ring).
  rewrite !z in g. specialize (pm (fun i => v1 t1 i - v2 t1 i)).
  intros i hk. destruct (Req_dec (u1 t1 i) (u2 t1 i)) as [|ne]; [assumption|]. exfalso.
  assert (0 < quad k (me (gK s)) (fun i => u1 t1 i - u2 t1 i)) by (apply pk; exists i; split; [exact hk|lra]). lra.
Qed.
Print Assumptions C109_unique.

(** every system has motions: any shape [x] may swing as sin t, under the load that this takes; for the rod that is held at one
    end a unit force moves the other end by one *)
Example C109_case : (forall n (s : gsys R) x,
    let f t i := - sin t * mulv n (me (gM s)) x i + cos t * mulv n (me (gC s)) x i + sin t * mulv n (me (gK s)) x i in
    motion n s f (fun t i => sin t * x i) (fun t i => cos t * x i) (fun t i => - sin t * x i)) /\
  exists s ns' n, initialise_system two_nodes [a_rod] [] [([0%nat], T3 false false false)] no_damping = Ok (s, ns', n) /\ (0 < n)%nat /\
    forall k, (k < n)%nat -> mulv n (me (gK s)) (fun _ => 1) k = if Nat.eqb 0 k then 1 else 0.
Proof.
  split.
  - intros n s x f. split; [|split].
    + intros i _ t. pose proof (derivable_pt_lim_mult sin (fun _ => x i) t (cos t) 0 (derivable_pt_lim_sin t) (derivable_pt_lim_const _ t)) as g.
      replace (cos t * x i) with (cos t * x i + sin t * 0) by ring. exact g.
    + intros i _ t. pose proof (derivable_pt_lim_mult cos (fun _ => x i) t (- sin t) 0 (derivable_pt_lim_cos t) (derivable_pt_lim_const _ t)) as g.
      replace (- sin t * x i) with (- sin t * x i + cos t * 0) by ring. exact g.
    + intros t i _. rewrite !mulv_scaled. reflexivity.
  - destruct rod_alone as [s [ns' [k [h [-> [ek _]]]]]]. exists s, ns', 1%nat. split; [exact h|]. split; [lia|]. intros k hk. assert (k = 0)%nat as -> by lia.
    unfold mulv. cbn [sumn Nat.eqb]. rewrite ek. rnum. ring.
Qed.
