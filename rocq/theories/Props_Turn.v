(** * The direction in which elements are written (C111) *)

From Coq Require Import Reals List Bool ZArith Arith Lia Lra Permutation.
From Verif Require Import Num PyBase Model_Geometry Model_System Spec_System Proofs_Dof Proofs_System Model_Element Spec_Element
  Proofs_Elements Proofs_Element Proofs_Beam Proofs_Force Model_Accumulation Proofs_Accumulation Model_Track Spec_Track
  Proofs_Track Proofs_Assembly Props_Track Spec_Analytic Spec_Motion Proofs_Motion Spec_Renumber Proofs_Renumber Spec_Turn Proofs_Turn.
Import ListNotations.
Local Open Scope R_scope.

Lemma same_mesh (ns : list (node R)) : renumbered_mesh (fun p => p) ns ns.
Proof. split; [reflexivity|]. split; [auto|]. intros p. destruct (nth_error ns p); auto. Qed.

Lemma same_loads (ls : list (load R)) : map (renumbered_load (fun p => p)) ls = ls.
Proof. rewrite <- (map_id ls) at 2. apply map_ext. intros [a b c]. unfold renumbered_load. cbn. rewrite map_id. reflexivity. Qed.
Lemma same_constraints cs : map (renumbered_constraint (fun p => p)) cs = cs.
Proof. rewrite <- (map_id cs) at 2. apply map_ext. intros [a b]. unfold renumbered_constraint. cbn. rewrite map_id. reflexivity. Qed.

Lemma turned_in ns ps qs q : Forall2 (turned_part ns) ps qs -> In q qs -> exists p, In p ps /\ turned_part ns p q.
Proof.
  intros h. induction h as [|a b l l' h hs IH]; intros hq; [destruct hq|]. destruct hq as [<-|hq]; [exists a; split; [left; reflexivity|exact h]|].
  destruct (IH hq) as [p [h1 h2]]. exists p. split; [right; exact h1|exact h2].
Qed.

Lemma turned_els (ns : list (node R)) k l l' : Forall2 (fun e e' : nat * nat => e' = e \/ e' = (snd e, fst e) /\ turnable ns k e) l l' ->
  forall e', In e' l' -> exists e, In e l /\ (e' = e \/ e' = (snd e, fst e)).
Proof.
  intros h. induction h as [|a b l l' h hs IH]; intros e' hq; [destruct hq|]. destruct hq as [<-|hq]; [exists a; split; [left; reflexivity|tauto]|].
  destruct (IH e' hq) as [p [h1 h2]]. exists p. split; [right; exact h1|exact h2].
Qed.

Section Parts.
  Variables (ns : list (node R)) (ps qs : list (epart R)).
  Hypothesis turned : Forall2 (turned_part ns) ps qs.

  Lemma turned_total aux u : is_aux aux -> nsum (map (fun p => part_form aux ns u (settled ns p)) qs) = nsum (map (fun p => part_form aux ns u (settled ns p)) ps).
  Proof.
    intros ha. induction turned as [|p q l l' h hs IH]; [reflexivity|]. cbn [map nsum]. rewrite (IH hs), (turned_form aux ns u _ _ ha (turned_settled _ _ _ h)). reflexivity.
  Qed.

  Lemma turned_init : (forall p, In p ps -> exists p1, initialize_part ns p = Ok p1) -> forall q, In q qs -> exists q1, initialize_part ns q = Ok q1.
  Proof.
    intros h q hq. destruct (turned_in _ _ _ _ turned hq) as [p [hp [hk [hn _]]]]. destruct (h p hp) as [p1 h1]. unfold initialize_part in *. rewrite hk, hn.
    destruct (ep_kind p); try (eexists; reflexivity). unbind h1. unbind h1. rewrite hv. cbn [rbind]. rewrite hv0. cbn [rbind]. destruct v0; eexists; reflexivity.
  Qed.

  Lemma turned_within : Forall (within ns) ps -> Forall (within ns) qs.
  Proof.
    intros h. apply Forall_forall. intros q hq. destruct (turned_in _ _ _ _ turned hq) as [p [hp [hk [hn he]]]]. rewrite Forall_forall in h. specialize (h p hp).
    intros i [hi|[e' [h1 h2]]]; apply h; [left; rewrite <- hn; exact hi|right]. destruct (turned_els _ _ _ _ he e' h1) as [e [h3 [-> | ->]]]; exists e; split; auto. cbn in h2. tauto.
  Qed.

  Lemma turned_shaped : Forall shaped ps -> Forall shaped qs.
  Proof.
    intros h. apply Forall_forall. intros q hq. destruct (turned_in _ _ _ _ turned hq) as [p [hp [hk [hn he]]]]. rewrite Forall_forall in h. specialize (h p hp).
    unfold shaped in *. rewrite hk. destruct (ep_kind p); inversion he; congruence.
  Qed.

  Lemma turned_sound : Forall (fun p => sound (settled ns p)) ps -> Forall (fun p => sound (settled ns p)) qs.
  Proof.
    intros h. apply Forall_forall. intros q hq. destruct (turned_in _ _ _ _ turned hq) as [p [hp ht]]. rewrite Forall_forall in h. specialize (h p hp).
    destruct (turned_settled _ _ _ ht) as [hk _]. unfold sound in *. rewrite hk. exact h.
  Qed.
End Parts.

(** a model in which elements are written from the other end is initialised as well; it has as many degrees of freedom, of the
    same nodes and directions, and the same entries for them *)
Theorem C111_same_system (ns : list (node R)) ps qs ls cs da s ns' n :
  initialise_system ns ps ls cs da = Ok (s, ns', n) ->
  Forall shaped ps -> Forall (fun p => sound (settled ns p)) ps -> Forall (within ns) ps -> Forall plain_load ls -> Forall2 (turned_part ns) ps qs ->
  exists s2 ms', initialise_system ns qs ls cs da = Ok (s2, ms', n) /\
    (forall p d, (p < length ns)%nat -> (number_of ns' p d <> None <-> number_of ms' p d <> None)) /\
    forall p d q e i j i' j', number_of ns' p d = Some i -> number_of ns' q e = Some j -> number_of ms' p d = Some i' -> number_of ms' q e = Some j' ->
      me (gK s2) i' j' = me (gK s) i j /\ me (gM s2) i' j' = me (gM s) i j /\ me (gC s2) i' j' = me (gC s) i j /\ nth i' (gF s2) 0 = nth i (gF s) 0.
Proof.
  intros h hs ho hw hp ht.
  pose proof (same_system (fun p => p) ns ns ps qs ls ls cs da s ns' n h hs ho hw hp (same_mesh ns)) as g. rewrite same_loads, same_constraints in g. apply g.
  - apply Permutation_refl.
  - intros aux u ha. exact (turned_total ns ps qs ht aux u ha).
  - apply (turned_init ns ps qs ht). intros p hin. exists (settled ns p). exact (first_ok _ _ _ _ _ _ _ _ h p hin).
  - exact (turned_within ns ps qs ht hw).
  - exact (turned_shaped ns ps qs ht hs).
  - exact (turned_sound ns ps qs ht ho).
Qed.
Print Assumptions C111_same_system.

(** and it moves in the same way *)
Theorem C111_same_motion (ns : list (node R)) ps qs ls cs da s ns' n s2 ms' m g u v a g2 u2 v2 a2 :
  initialise_system ns ps ls cs da = Ok (s, ns', n) -> initialise_system ns qs ls cs da = Ok (s2, ms', m) ->
  Forall shaped ps -> Forall (fun p => sound (settled ns p)) ps -> Forall (within ns) ps -> Forall2 (turned_part ns) ps qs ->
  (forall p d i j, number_of ns' p d = Some i -> number_of ms' p d = Some j -> forall t, g2 t j = g t i /\ u2 t j = u t i /\ v2 t j = v t i /\ a2 t j = a t i) ->
  motion n s g u v a -> motion m s2 g2 u2 v2 a2.
Proof.
  intros h h2 hs ho hw ht. rewrite <- (same_constraints cs) in h2. eapply (motion_same (fun p => p) ns ns ps qs); try eassumption.
  - apply same_mesh.
  - intros aux x ha. exact (turned_total ns ps qs ht aux x ha).
  - exact (turned_shaped ns ps qs ht hs).
  - exact (turned_sound ns ps qs ht ho).
Qed.
Print Assumptions C111_same_motion.

(** the rod and the rail of C85, both written from the other end *)
Example C111_case : Forall2 (turned_part two_nodes) [a_rod; a_beam; a_point]
    [mkPart (KRod (Some 1) None (Some 1)) [0; 1]%nat [(1, 0)]%nat; mkPart (KRail (mkBeam 210 (3 / 10) 8 2 3 (1 / 2) 4 None None)) [0; 1]%nat [(1, 0)]%nat; a_point] /\
  (exists s ns' n, initialise_system two_nodes [a_rod; a_beam; a_point] [] [] no_damping = Ok (s, ns', n)) /\
  Forall shaped [a_rod; a_beam; a_point] /\ Forall (fun p => sound (settled two_nodes p)) [a_rod; a_beam; a_point] /\ Forall (within two_nodes) [a_rod; a_beam; a_point].
Proof.
  assert (el : dist3 (T3 0 0 0) (T3 1 0 0) = 1).
  { unfold dist3. cbn [tx ty tr]. replace ((1 - 0) * (1 - 0) + (0 - 0) * (0 - 0) + (0 - 0) * (0 - 0)) with 1 by ring. apply sqrt_1. }
  split.
  - constructor; [|constructor; [|constructor; [|constructor]]].
    + split; [reflexivity|]. split; [reflexivity|]. constructor; [right; split; [reflexivity|exact I]|constructor].
    + split; [reflexivity|]. split; [reflexivity|]. constructor; [right; split; [reflexivity|]|constructor]. split; [reflexivity|]. right. cbn. rewrite Rabs_right; lra.
    + split; [reflexivity|]. split; [reflexivity|]. constructor.
  - split; [apply mixed_runs|]. split; [repeat constructor; cbn; congruence|]. split; [repeat constructor; cbn; lra|].
    apply Forall_forall. intros p [<-|[<-|[<-|[]]]] i [hi|[e [he hi]]]; cbn in *; try lia; destruct he as [<-|[]]; cbn in hi; lia.
Qed.

(** a beam that is nearly but not exactly upright gets the same axis from both ends, although the axis should turn round: written
    from the other end, the stiffness between the displacement along x and the rotation of a node has the opposite sign *)
Definition leaning_nodes : list (node R) := [new_node 0 0 0 0; new_node 1 (1 / 1000000000) 1 0].
Definition leaning (e : nat * nat) : epart R := mkPart (KBeam (mkBeam 1 0 420 1 1 0 1 None None)) [0; 1]%nat [e].

Lemma leaning_angle : calculate_rotation1 (xy leaning_nodes 0, xy leaning_nodes 1) = PI / 2 /\ calculate_rotation1 (xy leaning_nodes 1, xy leaning_nodes 0) = PI / 2.
Proof.
  cbn [xy leaning_nodes nth_error new_node n_coord tx ty]. unfold calculate_rotation1. rnum.
  assert (n1 : np_isclose (1 / 1000000000 - 0) 0 = true) by (apply np_isclose_0_spec; rewrite Rabs_right; lra).
  assert (n2 : np_isclose (0 - 1 / 1000000000) 0 = true) by (apply np_isclose_0_spec; rewrite Rabs_left; lra).
  rewrite n1, n2. destruct (nltbP (1 / 1000000000) 0); [lra|]. destruct (nltbP 0 (1 / 1000000000)); [|lra].
  rewrite (nsign_pos (1 - 0)), (nsign_neg (0 - 1)) by lra. split; [change (PI / 2 * 1 = PI / 2)|change (PI / 2 * -1 + PI = PI / 2)]; field.
Qed.

Lemma leaning_stiffness u p q : ((p, q) = (0, 1) \/ (p, q) = (1, 0))%nat ->
  part_form aux_stiffness leaning_nodes u (leaning (p, q)) =
  (u q DY - u p DY) * (u q DY - u p DY) + (u q DR - u p DR) * (u q DR - u p DR) +
  12 * ((u p DX - u q DX + (u p DR + u q DR) / 2) * (u p DX - u q DX + (u p DR + u q DR) / 2)).
Proof.
  intros hpq. destruct (C85_element_energy leaning_nodes u (leaning (p, q)) (p, q)) as [_ [_ [h _]]]. cbn [fst snd] in h.
  assert (ea : calculate_rotation1 (xy leaning_nodes p, xy leaning_nodes q) = PI / 2).
  { destruct leaning_angle. destruct hpq as [e|e]; injection e as -> ->; assumption. }
  rewrite ea in h. rewrite (h _ (or_introl eq_refl) eq_refl); [|split; reflexivity|repeat split; cbn; lra].
  unfold timoshenko_factor. cbn [b_shear_factor b_E b_A b_I b_l]. rnum. destruct (nltbP 0 0); [lra|]. unfold along, across. rewrite cos_PI2, sin_PI2. field.
Qed.

Lemma leaning_mass u p q : ((p, q) = (0, 1) \/ (p, q) = (1, 0))%nat ->
  part_form aux_mass leaning_nodes u (leaning (p, q)) = quad 6 (mass_entries (mkBeam 1 0 420 1 1 0 1 None None) 0) (vec6 (- u p DY) (u p DX) (u p DR) (- u q DY) (u q DX) (u q DR)).
Proof.
  intros hpq.
  assert (ea : calculate_rotation1 (xy leaning_nodes p, xy leaning_nodes q) = PI / 2).
  { destruct leaning_angle. destruct hpq as [e|e]; injection e as -> ->; assumption. }
  unfold part_form, leaning. cbn [ep_kind ep_els aux_mass map nsum fst snd element_form]. rewrite ea. unfold timoshenko_factor. cbn [b_shear_factor]. rnum. destruct (nltbP 0 0); [lra|].
  rewrite Rplus_0_r. unfold quad. apply sumn_ext. intros i hi. apply sumn_ext. intros j hj. rewrite beam_mass_entries by assumption.
  unfold local6, along, across. rewrite cos_PI2, sin_PI2. 
  do 6 (destruct i as [|i]; [do 6 (destruct j as [|j]; [cbn [vec6]; ring|]); lia|]); lia.
Qed.

Lemma leaning_system p q : ((p, q) = (0, 1) \/ (p, q) = (1, 0))%nat ->
  exists s ns' n, initialise_system leaning_nodes [leaning (p, q)] [] [] no_damping = Ok (s, ns', n) /\
    exists i j, number_of ns' 0 DX = Some i /\ number_of ns' 0 DR = Some j /\ me (gK s) i j = if Nat.eqb p 0 then 6 else - 6.
Proof.
  intros hpq.
  assert (r : exists s ns' n, initialise_system leaning_nodes [leaning (p, q)] [] [] no_damping = Ok (s, ns', n)).
  { apply initialise_ok.
    - intros a [<-|[]]. eexists. reflexivity.
    - intros a i [<-|[]] hi. cbn in hi. cbn. destruct hpq as [e|e]; injection e as -> ->; lia.
    - intros l i []. }
  destruct r as [s [ns' [n h]]]. exists s, ns', n. split; [exact h|].
  assert (hs : Forall shaped [leaning (p, q)]) by (constructor; [discriminate|constructor]).
  assert (ho : Forall (fun a => sound (settled leaning_nodes a)) [leaning (p, q)]) by (constructor; [repeat split; cbn; lra|constructor]).
  destruct (initialise_inv _ _ _ _ _ _ _ _ h) as [s0 [_ [e0 _]]]. destruct (initialise_kept _ _ _ _ _ _ _ _ _ h e0) as [hl [hn [hk _]]].
  assert (kept : forall d, (d = DX \/ d = DR) -> number_of ns' 0 d <> None).
  { intros d hd. apply (hk 0%nat d); [cbn; lia|]. split; [destruct hd; subst d; reflexivity|].
    destruct (assemble_diag leaning_nodes [leaning (p, q)] [] s0 _ 0%nat d hs e0 ltac:(cbn; lia)) as [q1 q2]. cbn [map nsum] in q1, q2.
    change (settled leaning_nodes (leaning (p, q))) with (leaning (p, q)) in q1, q2. rewrite leaning_stiffness in q1 by exact hpq. rewrite leaning_mass in q2 by exact hpq.
    replace (3 * 0 + match d with DX => 0 | DY => 1 | DR => 2 end)%nat with (3 * 0 + dir_idx d)%nat by (destruct d; reflexivity). rewrite q1, q2. clear q1 q2.
    unfold quad, mass_entries. destruct (Req_EM_T 0 0) as [_|ne]; [|contradiction]. cbn [sumn b_l b_rho b_A].
    destruct hpq as [e|e]; injection e as -> ->; destruct hd; subst d; unfold unit_field; cbn [vec6 trans_entries Nat.eqb Nat.mul Nat.add dir_idx]; rnum; split; rewrite Rabs_right; lra. }
  destruct (number_of ns' 0 DX) as [i|] eqn:ei; [|exfalso; apply (kept DX); auto].
  destruct (number_of ns' 0 DR) as [j|] eqn:ej; [|exfalso; apply (kept DR); auto].
  exists i, j. split; [reflexivity|]. split; [reflexivity|].
  assert (below : forall d k, number_of ns' 0 d = Some k -> (k < n)%nat).
  { intros d k hd. assert (g : In k (all_numbers ns')) by (apply all_numbers_In; eauto). rewrite hn in g. apply in_seq in g. lia. }
  pose proof (initialise_sym _ _ _ _ _ _ _ _ hs ho h) as [sk _].
  rewrite (quad_pair n _ i j sk (below _ _ ei) (below _ _ ej)).
  destruct (initialise_energy _ _ _ _ _ _ _ _ (fun k => unit_vec i k + unit_vec j k) hs h) as [-> _].
  destruct (initialise_energy _ _ _ _ _ _ _ _ (unit_vec i) hs h) as [-> _]. destruct (initialise_energy _ _ _ _ _ _ _ _ (unit_vec j) hs h) as [-> _].
  cbn [map nsum]. change (settled leaning_nodes (leaning (p, q))) with (leaning (p, q)). rewrite !leaning_stiffness by exact hpq.
  assert (inj : forall a d b e k, number_of ns' a d = Some k -> number_of ns' b e = Some k -> a = b /\ d = e) by (intros; eapply numbered_inj; eassumption).
  assert (f1 : forall a d, field_of ns' (unit_vec i) a d = unit_field 0 DX a d).
  { intros a d. unfold field_of, unit_field, unit_vec. destruct (number_of ns' a d) as [k|] eqn:ek.
    - destruct (Nat.eqb_spec i k) as [->|ne]; [destruct (inj _ _ _ _ _ ei ek) as [<- <-]; reflexivity|].
      destruct (Nat.eqb_spec (3 * 0 + dir_idx DX) (3 * a + dir_idx d)) as [e|]; [|reflexivity]. exfalso. destruct d; cbn in e; try lia. assert (a = 0)%nat as -> by lia. congruence.
    - destruct (Nat.eqb_spec (3 * 0 + dir_idx DX) (3 * a + dir_idx d)) as [e|]; [|reflexivity]. exfalso. destruct d; cbn in e; try lia. assert (a = 0)%nat as -> by lia. congruence. }
  assert (f2 : forall a d, field_of ns' (unit_vec j) a d = unit_field 0 DR a d).
  { intros a d. unfold field_of, unit_field, unit_vec. destruct (number_of ns' a d) as [k|] eqn:ek.
    - destruct (Nat.eqb_spec j k) as [->|ne]; [destruct (inj _ _ _ _ _ ej ek) as [<- <-]; reflexivity|].
      destruct (Nat.eqb_spec (3 * 0 + dir_idx DR) (3 * a + dir_idx d)) as [e|]; [|reflexivity]. exfalso. destruct d; cbn in e; try lia. assert (a = 0)%nat as -> by lia. congruence.
    - destruct (Nat.eqb_spec (3 * 0 + dir_idx DR) (3 * a + dir_idx d)) as [e|]; [|reflexivity]. exfalso. destruct d; cbn in e; try lia. assert (a = 0)%nat as -> by lia. congruence. }
  assert (f3 : forall a d, field_of ns' (fun k => unit_vec i k + unit_vec j k) a d = unit_field 0 DX a d + unit_field 0 DR a d).
  { intros a d. rewrite <- f1, <- f2. unfold field_of. destruct (number_of ns' a d); ring. }
  rewrite !f3, !f1, !f2. destruct hpq as [e|e]; injection e as -> ->; unfold unit_field; cbn [Nat.eqb Nat.mul Nat.add dir_idx]; rnum; field.
Qed.

Theorem C111_leaning_refuted : exists (ns : list (node R)) p q s ns' n s2 ms' m i j i' j',
  initialise_system ns [p] [] [] no_damping = Ok (s, ns', n) /\ initialise_system ns [q] [] [] no_damping = Ok (s2, ms', m) /\
  shaped p /\ sound p /\ ep_kind q = ep_kind p /\ ep_nodes q = ep_nodes p /\ ep_els q = map (fun e => (snd e, fst e)) (ep_els p) /\
  number_of ns' 0 DX = Some i /\ number_of ns' 0 DR = Some j /\ number_of ms' 0 DX = Some i' /\ number_of ms' 0 DR = Some j' /\
  me (gK s) i j = 6 /\ me (gK s2) i' j' = - 6.
Proof.
  destruct (leaning_system 0 1 (or_introl eq_refl)) as [s [ns' [n [h1 [i [j [e1 [e2 e3]]]]]]]].
  destruct (leaning_system 1 0 (or_intror eq_refl)) as [s2 [ms' [m [h2 [i' [j' [e4 [e5 e6]]]]]]]].
  exists leaning_nodes, (leaning (0, 1)%nat), (leaning (1, 0)%nat), s, ns', n, s2, ms', m, i, j, i', j'.
  split; [exact h1|]. split; [exact h2|]. split; [discriminate|]. split; [repeat split; cbn; lra|]. split; [reflexivity|]. split; [reflexivity|]. split; [reflexivity|]. auto 10.
Qed.
Print Assumptions C111_leaning_refuted.
