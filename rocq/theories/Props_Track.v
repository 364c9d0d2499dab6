(** * Properties of whole systems: repeated initialisation (C84), energy and sign of the matrices (C85), total mass (C86) *)

From Coq Require Import Reals List Bool ZArith Arith Lia Lra.
From Verif Require Import Num PyBase Model_Geometry Model_System Spec_System Proofs_Dof Proofs_System Model_Element Spec_Element
  Proofs_Elements Proofs_Element Proofs_Beam Proofs_Force Model_Accumulation Proofs_Accumulation Model_Track Spec_Track Proofs_Track Proofs_Assembly.
Import ListNotations.
Local Open Scope R_scope.

(** ** C84: initialising again *)

Lemma listed_iff cs p : listed cs p = false <-> ~ exists c, In c cs /\ In p (fst c).
Proof.
  unfold listed. split.
  - intros h [c [h1 h2]]. assert (e : existsb (fun c => memb p (fst c)) cs = true); [|congruence].
    apply existsb_exists. exists c. split; [exact h1|]. apply memb_In. exact h2.
  - intros h. destruct (existsb _ cs) eqn:e; [|reflexivity]. exfalso. apply h. apply existsb_exists in e. destruct e as [c [h1 h2]].
    exists c. split; [exact h1|]. apply memb_In. exact h2.
Qed.

Lemma active_flags (a b : list (node R)) : map (@n_flag R) a = map (@n_flag R) b -> forall p d, active a p d = active b p d.
Proof.
  intros h p d. unfold active. assert (e : nth_error (map (@n_flag R) a) p = nth_error (map (@n_flag R) b) p) by (rewrite h; reflexivity).
  rewrite !nth_error_map in e. destruct (nth_error a p), (nth_error b p); cbn in e; congruence.
Qed.

(** the same model, initialised again on nodes with the flags that the first run left behind: same matrices, same numbers *)
Theorem C84_run_again (ns ms : list (node R)) ps ls cs da s ns1 n :
  initialise_system ns ps ls cs da = Ok (s, ns1, n) ->
  map (@n_coord R) ms = map (@n_coord R) ns -> map (@n_flag R) ms = map (@n_flag R) ns1 ->
  exists ms', initialise_system ms ps ls cs da = Ok (s, ms', n) /\
    map (@n_dof R) ms' = map (@n_dof R) ns1 /\ map (@n_flag R) ms' = map (@n_flag R) ns1.
Proof.
  intros h hc hf. destruct (initialise_inv _ _ _ _ _ _ _ _ h) as [s0 [_ [e0 _]]].
  destruct (initialise_kept _ _ _ _ _ _ _ _ _ h e0) as [hl [_ [hk [ha _]]]].
  destruct (rerun_core ns ms ps ls cs da s ns1 n h (eq_sym hc)) as [ms' [h1 h2]].
  - intros p d hp hlist. rewrite (active_flags ms ns1 hf). specialize (hk p d hp). cbv zeta in hk. rewrite flag_after_unlisted in hk by exact hlist.
    specialize (ha p d). destruct (number_of ns1 p d) as [k|] eqn:ek.
    + left. destruct hk as [hk _]. destruct hk as [-> _]; [congruence|]. apply ha. congruence.
    + destruct (active ns p d) eqn:ea; [right; auto|left]. destruct (active ns1 p d) eqn:e1; [|reflexivity]. exfalso. apply ha; reflexivity.
  - exists ms'. split; [exact h1|]. clear - h2. induction h2 as [|a b l m [e1 e2] h IH]; [auto|]. destruct IH as [i1 i2]. cbn. rewrite e1, e2, i1, i2. auto.
Qed.
Print Assumptions C84_run_again.

(** in particular on the nodes of the first run themselves, and on those nodes after [clean_model] *)
Theorem C84_run_again_cleaned (ns : list (node R)) ps ls cs da s ns1 n :
  initialise_system ns ps ls cs da = Ok (s, ns1, n) ->
  (exists ns2, initialise_system ns1 ps ls cs da = Ok (s, ns2, n) /\ map (@n_dof R) ns2 = map (@n_dof R) ns1 /\ map (@n_flag R) ns2 = map (@n_flag R) ns1) /\
  (exists ns2, initialise_system (clean_nodes ns1) ps ls cs da = Ok (s, ns2, n) /\ map (@n_dof R) ns2 = map (@n_dof R) ns1 /\ map (@n_flag R) ns2 = map (@n_flag R) ns1).
Proof.
  intros h. destruct (initialise_inv _ _ _ _ _ _ _ _ h) as [s0 [_ [e0 _]]].
  destruct (initialise_kept _ _ _ _ _ _ _ _ _ h e0) as [hl [_ [_ [_ hid]]]].
  assert (hc : map (@n_coord R) ns1 = map (@n_coord R) ns).
  { apply (nth_ext _ _ (T3 0 0 0) (T3 0 0 0)); rewrite !map_length; [exact hl|]. intros i hi. rewrite hl in hi.
    destruct (nth_error ns i) as [a|] eqn:ea; [|apply nth_error_None in ea; lia]. destruct (hid i a ea) as [b [eb [_ [_ [ec _]]]]].
    rewrite (nth_error_nth (map (@n_coord R) ns) i _ (map_nth_error _ _ _ ea)), (nth_error_nth (map (@n_coord R) ns1) i _ (map_nth_error _ _ _ eb)).
    symmetry. exact ec. }
  split; apply (C84_run_again ns _ ps ls cs da s ns1 n h); auto; unfold clean_nodes; rewrite map_map; cbn; auto.
Qed.
Print Assumptions C84_run_again_cleaned.

(** a cleaned model keeps coordinates and directions and forgets the numbers and the parts *)
Theorem C84_cleaned (ns : list (node R)) : map (@n_coord R) (clean_nodes ns) = map (@n_coord R) ns /\ map (@n_flag R) (clean_nodes ns) = map (@n_flag R) ns /\
  map (@n_index R) (clean_nodes ns) = map (@n_index R) ns /\ forall i a, nth_error (clean_nodes ns) i = Some a -> tx (n_dof a) = None /\ ty (n_dof a) = None /\ tr (n_dof a) = None /\ n_parts a = [].
Proof.
  unfold clean_nodes. rewrite !map_map. cbn. repeat split; try reflexivity; apply nth_error_In in H; apply in_map_iff in H; destruct H as [b [<- _]]; reflexivity.
Qed.
Print Assumptions C84_cleaned.

(** Full statement: a model that is changed and initialised again on the same nodes gives what it gives on fresh nodes.  Proved
    when every degree of freedom that the first run removed is removed by the fresh run too, was not active at the start, or
    has its node in a constraint of the changed model *)
Theorem C84_changed_partial (ns : list (node R)) ps1 ls1 cs1 da1 s1 ns1 n1 ps ls cs da s ns2 n :
  initialise_system ns ps1 ls1 cs1 da1 = Ok (s1, ns1, n1) -> initialise_system ns ps ls cs da = Ok (s, ns2, n) ->
  (forall p d, number_of ns1 p d = None -> active ns p d = true -> (exists c, In c cs /\ In p (fst c)) \/ number_of ns2 p d = None) ->
  (forall p d, number_of ns1 p d <> None -> active ns p d = true) ->
  exists ms, initialise_system ns1 ps ls cs da = Ok (s, ms, n) /\ map (@n_dof R) ms = map (@n_dof R) ns2 /\ map (@n_flag R) ms = map (@n_flag R) ns2.
Proof.
  intros h1 h2 hr hfree. destruct (initialise_inv _ _ _ _ _ _ _ _ h1) as [s0 [_ [e0 _]]].
  destruct (initialise_kept _ _ _ _ _ _ _ _ _ h1 e0) as [hl [_ [_ [ha hid]]]].
  destruct (rerun_core ns ns1 ps ls cs da s ns2 n h2) as [ms [g1 g2]].
  - apply (nth_ext _ _ (T3 0 0 0) (T3 0 0 0)); rewrite !map_length; [congruence|]. intros i hi.
    destruct (nth_error ns i) as [a|] eqn:ea; [|apply nth_error_None in ea; lia]. destruct (hid i a ea) as [b [eb [_ [_ [ec _]]]]].
    rewrite (nth_error_nth (map (@n_coord R) ns) i _ (map_nth_error _ _ _ ea)), (nth_error_nth (map (@n_coord R) ns1) i _ (map_nth_error _ _ _ eb)). exact ec.
  - intros p d hp hlist. apply listed_iff in hlist. specialize (ha p d). destruct (number_of ns1 p d) as [k|] eqn:ek.
    + left. rewrite (hfree p d) by congruence. apply ha. congruence.
    + assert (e1 : active ns1 p d = false) by (destruct (active ns1 p d); [exfalso; apply ha; reflexivity|reflexivity]).
      rewrite e1. destruct (active ns p d) eqn:ea; [|left; reflexivity]. right. split; [reflexivity|]. destruct (hr p d ek ea) as [hc|hc]; [contradiction|exact hc].
  - exists ms. split; [exact g1|]. clear - g2. induction g2 as [|a b l m [e1 e2] h IH]; [auto|]. destruct IH as [i1 i2]. cbn. rewrite e1, e2, i1, i2. auto.
Qed.
Print Assumptions C84_changed_partial.

(** a degree of freedom that was removed comes back only if a constraint of the changed model lists its node *)
Theorem C84_stays_removed (ns ns1 : list (node R)) ps1 ls1 cs1 da1 s1 n1 ps ls cs da s ns2 n p d :
  initialise_system ns ps1 ls1 cs1 da1 = Ok (s1, ns1, n1) -> initialise_system ns1 ps ls cs da = Ok (s, ns2, n) ->
  number_of ns1 p d = None -> (forall c, In c cs -> ~ In p (fst c)) -> number_of ns2 p d = None.
Proof.
  intros h1 h2 hn hc. destruct (initialise_inv _ _ _ _ _ _ _ _ h1) as [s0 [_ [e0 _]]]. destruct (initialise_inv _ _ _ _ _ _ _ _ h2) as [s3 [_ [e3 _]]].
  destruct (initialise_kept _ _ _ _ _ _ _ _ _ h1 e0) as [hl [_ [_ [ha _]]]].
  destruct (initialise_kept _ _ _ _ _ _ _ _ _ h2 e3) as [hl2 [_ [hk [_ _]]]].
  destruct (number_of ns2 p d) as [k|] eqn:ek; [|reflexivity]. exfalso.
  assert (hp : (p < length ns1)%nat) by (rewrite <- hl2; eapply number_of_bound; eauto).
  specialize (hk p d hp). cbv zeta in hk. rewrite flag_after_unlisted in hk by (apply listed_iff; intros [c [c1 c2]]; exact (hc c c1 c2)).
  destruct hk as [hk _]. destruct hk as [hact _]; [congruence|]. apply ha in hact. contradiction.
Qed.
Print Assumptions C84_stays_removed.

(** a rod of stiffness 1 and mass 1 from (0,0) to (1,0) *)
Definition two_nodes : list (node R) := [new_node 0 0 0 0; new_node 1 1 0 0].
Definition a_rod : epart R := mkPart (KRod (Some 1) None (Some 1)) [0; 1]%nat [(0, 1)]%nat.
Definition no_damping : damping R := mkDamping false 0 0 0.

Lemma rod_runs ns cs : map (@n_coord R) ns = map (@n_coord R) two_nodes -> exists s ns' n, initialise_system ns [a_rod] [] cs no_damping = Ok (s, ns', n).
Proof.
  intros hc. assert (hl : length ns = 2%nat) by (rewrite <- (map_length (@n_coord R)), hc; reflexivity). apply initialise_ok.
  - intros p [<-|[]]. eexists. reflexivity.
  - intros p i [<-|[]] hi. cbn in hi. lia.
  - intros l i [].
Qed.

Lemma rod_diag ns s ns1 p : map (@n_coord R) ns = map (@n_coord R) two_nodes -> assemble_system ns [a_rod] [] = Ok (s, ns1) -> (p < 2)%nat ->
  me (gK s) (3 * p + dir_idx DX)%nat (3 * p + dir_idx DX)%nat = 1 /\ me (gM s) (3 * p + dir_idx DX)%nat (3 * p + dir_idx DX)%nat = 1 / 3.
Proof.
  intros hc h hp. assert (hl : length ns = 2%nat) by (rewrite <- (map_length (@n_coord R)), hc; reflexivity).
  destruct (assemble_diag ns [a_rod] [] s ns1 p DX) as [k1 k2]; [constructor; [discriminate|constructor]|exact h|lia|].
  rewrite k1, k2. clear k1 k2. cbn [map nsum]. unfold settled, a_rod, part_form. cbn [ep_kind ep_nodes ep_els aux_stiffness aux_mass map nsum fst snd element_form].
  assert (e : calculate_rotation1 (xy ns 0, xy ns 1) = 0).
  { replace (xy ns 0) with (0, 0); [replace (xy ns 1) with (1, 0); [apply rotation1_right; lra|]|];
      destruct ns as [|a [|b [|c ns]]]; try discriminate; injection hc as c1 c2; unfold xy; cbn [nth_error]; rewrite ?c1, ?c2; reflexivity. }
  destruct (rod_spring_spec 1 _ eq_refl) as [_ [q1 _]]. destruct (rod_mass_spec 1 _ eq_refl) as [_ [_ [q2 _]]].
  cbn [rod_spring rod_mass]. rnum. cbn [rod_spring rod_mass] in q1, q2. rewrite q1, q2. cbn [local2]. rewrite e. unfold along. rewrite cos_0, sin_0.
  unfold unit_field. destruct p as [|[|p]]; [| |lia]; cbn; split; field.
Qed.

(** the full statement fails: node 1 was fixed in the first run and is free in the changed model, which has no constraints.  On
    the nodes of the first run, also after [clean_model], the node stays fixed *)
Theorem C84_changed_refuted :
  exists s1 ns1 n1 s ns2 n s3 ns3 n3,
    initialise_system two_nodes [a_rod] [] [([1%nat], T3 false true true)] no_damping = Ok (s1, ns1, n1) /\
    initialise_system two_nodes [a_rod] [] [] no_damping = Ok (s, ns2, n) /\ number_of ns2 1 DX <> None /\
    initialise_system (clean_nodes ns1) [a_rod] [] [] no_damping = Ok (s3, ns3, n3) /\ number_of ns3 1 DX = None.
Proof.
  destruct (rod_runs two_nodes [([1%nat], T3 false true true)] eq_refl) as [s1 [ns1 [n1 h1]]].
  destruct (rod_runs two_nodes [] eq_refl) as [s [ns2 [n h2]]].
  destruct (initialise_inv _ _ _ _ _ _ _ _ h1) as [a1 [_ [e1 _]]]. destruct (initialise_kept _ _ _ _ _ _ _ _ _ h1 e1) as [hl [_ [hk1 [ha1 hid]]]].
  assert (hc : map (@n_coord R) (clean_nodes ns1) = map (@n_coord R) two_nodes).
  { destruct (hid 0%nat _ eq_refl) as [b0 [eb0 [_ [_ [c0 _]]]]]. destruct (hid 1%nat _ eq_refl) as [b1 [eb1 [_ [_ [c1 _]]]]].
    destruct ns1 as [|x [|y [|z l]]]; try discriminate. cbn in eb0, eb1. injection eb0 as <-. injection eb1 as <-. cbn in *. rewrite <- c0, <- c1. reflexivity. }
  destruct (rod_runs (clean_nodes ns1) [] hc) as [s3 [ns3 [n3 h3]]].
  exists s1, ns1, n1, s, ns2, n, s3, ns3, n3. split; [exact h1|]. split; [exact h2|].
  destruct (initialise_inv _ _ _ _ _ _ _ _ h2) as [a2 [_ [e2 _]]]. destruct (initialise_kept _ _ _ _ _ _ _ _ _ h2 e2) as [_ [_ [hk2 _]]].
  destruct (initialise_inv _ _ _ _ _ _ _ _ h3) as [a3 [_ [e3 _]]]. destruct (initialise_kept _ _ _ _ _ _ _ _ _ h3 e3) as [_ [_ [hk3 _]]].
  split; [|split; [exact h3|]].
  - apply (hk2 1%nat DX); [cbn; lia|]. split; [reflexivity|]. destruct (rod_diag _ _ _ 1%nat eq_refl e2) as [d1 d2]; [lia|]. cbn in d1, d2. cbn. rewrite d1, d2.
    rewrite !Rabs_right by lra. lra.
  - destruct (number_of ns3 1 DX) as [k|] eqn:ek; [|reflexivity]. exfalso.
    destruct (hk3 1%nat DX) as [g _]; [unfold clean_nodes; rewrite map_length, hl; cbn; lia|]. destruct g as [g _]; [congruence|]. cbn [flag_after fold_left] in g.
    assert (g' : active ns1 1 DX = true).
    { rewrite <- g. apply active_flags. unfold clean_nodes. rewrite map_map. reflexivity. }
    apply ha1 in g'. apply (hk1 1%nat DX) in g'; [|cbn; lia]. destruct g' as [g' _]. discriminate.
Qed.
Print Assumptions C84_changed_refuted.

(** the hypotheses of [C84_run_again] and [C84_changed_partial] can be met: the same rod, the second time with a constraint
    that frees node 1 *)
Example C84_case : exists s1 ns1 n1 s ns2 n,
  initialise_system two_nodes [a_rod] [] [([1%nat], T3 false true true)] no_damping = Ok (s1, ns1, n1) /\
  initialise_system two_nodes [a_rod] [] [([1%nat], T3 true true true)] no_damping = Ok (s, ns2, n) /\
  (forall p d, number_of ns1 p d = None -> active two_nodes p d = true -> (exists c, In c [([1%nat], T3 true true true)] /\ In p (fst c)) \/ number_of ns2 p d = None) /\
  (forall p d, number_of ns1 p d <> None -> active two_nodes p d = true).
Proof.
  destruct (rod_runs two_nodes [([1%nat], T3 false true true)] eq_refl) as [s1 [ns1 [n1 h1]]].
  destruct (rod_runs two_nodes [([1%nat], T3 true true true)] eq_refl) as [s [ns2 [n h2]]].
  exists s1, ns1, n1, s, ns2, n. split; [exact h1|]. split; [exact h2|].
  destruct (initialise_inv _ _ _ _ _ _ _ _ h1) as [a1 [_ [e1 _]]]. destruct (initialise_kept _ _ _ _ _ _ _ _ _ h1 e1) as [hl [_ [hk1 _]]].
  destruct (initialise_inv _ _ _ _ _ _ _ _ h2) as [a2 [_ [e2 _]]]. destruct (initialise_kept _ _ _ _ _ _ _ _ _ h2 e2) as [_ [_ [hk2 _]]].
  rewrite e1 in e2. injection e2 as <-.
  assert (hact : forall p d, (p < 2)%nat -> active two_nodes p d = true).
  { intros [|[|p]] d hp; [| |lia]; destruct d; reflexivity. }
  split.
  - intros p d hn ha. assert (hp : (p < 2)%nat).
    { unfold active in ha. destruct (nth_error two_nodes p) eqn:e; [|discriminate]. change 2%nat with (length two_nodes). apply nth_error_Some. congruence. }
    destruct p as [|[|p]]; [right|left; exists ([1%nat], T3 true true true); cbn; auto|lia].
    destruct (number_of ns2 0 d) as [k|] eqn:ek; [|reflexivity]. exfalso. specialize (hk1 0%nat d hp). specialize (hk2 0%nat d hp). cbv zeta in hk1, hk2.
    cbn [flag_after fold_left fst memb] in hk1, hk2. apply hk1; [|exact hn]. apply hk2. congruence.
  - intros p d hn. apply hact. change 2%nat with (length two_nodes). rewrite <- hl. destruct (number_of ns1 p d) eqn:e; [|congruence]. eapply number_of_bound; eauto.
Qed.

(** ** C85: symmetry, sign and energy of the matrices of an initialised system *)

(** whatever rods, beams, rails and points the system consists of, and whatever constraints and loads it has *)
Theorem C85_symmetric_semidefinite (ns : list (node R)) ps ls cs da s ns' n :
  initialise_system ns ps ls cs da = Ok (s, ns', n) ->
  Forall shaped ps -> Forall (fun p => sound (settled ns p)) ps -> (da_on da = true -> 0 <= da_ratio da /\ 0 < da_one da /\ 0 < da_two da) ->
  (msym n (me (gK s)) /\ msym n (me (gM s)) /\ msym n (me (gC s))) /\
  (psd n (me (gK s)) /\ psd n (me (gM s)) /\ psd n (me (gC s))).
Proof.
  intros h hs ho hd. split; [exact (initialise_sym _ _ _ _ _ _ _ _ hs ho h)|exact (initialise_psd _ _ _ _ _ _ _ _ hs ho hd h)].
Qed.
Print Assumptions C85_symmetric_semidefinite.

(** the quadratic forms are the sums of those of the elements, in the displacements of their nodes; a degree of freedom that
    was removed has displacement zero *)
Theorem C85_energy (ns : list (node R)) ps ls cs da s ns' n x :
  initialise_system ns ps ls cs da = Ok (s, ns', n) -> Forall shaped ps ->
  let total aux := nsum (map (fun p => part_form aux ns (field_of ns' x) (settled ns p)) ps) in
  quad n (me (gK s)) x = total aux_stiffness /\ quad n (me (gM s)) x = total aux_mass /\
  quad n (me (gC s)) x = total aux_damping +
    (if da_on da then let (a0, a1) := rayleigh_factors (da_ratio da) (da_one da) (da_two da) in a0 * total aux_mass + a1 * total aux_stiffness else 0).
Proof. intros h hs. exact (initialise_energy _ _ _ _ _ _ _ _ x hs h). Qed.
Print Assumptions C85_energy.

(** what the elements contribute *)
Theorem C85_element_energy (ns : list (node R)) u p e :
  let a := calculate_rotation1 (xy ns (fst e), xy ns (snd e)) in
  let stretch := along a (u (snd e) DX) (u (snd e) DY) - along a (u (fst e) DX) (u (fst e) DY) in
  (forall k c m, ep_kind p = KRod (Some k) c m -> ep_els p = [e] -> part_form aux_stiffness ns u p = k * (stretch * stretch)) /\
  (forall k c m, ep_kind p = KRod k (Some c) m -> ep_els p = [e] -> part_form aux_damping ns u p = c * (stretch * stretch)) /\
  (forall b, ep_kind p = KBeam b \/ ep_kind p = KRail b -> ep_els p = [e] -> fixed_ends b -> sound_beam b ->
     let l := b_l b in let across1 := across a (u (fst e) DX) (u (fst e) DY) in let across2 := across a (u (snd e) DX) (u (snd e) DY) in
     let t1 := u (fst e) DR in let t2 := u (snd e) DR in let g := across1 - across2 + l * (t1 + t2) / 2 in
     part_form aux_stiffness ns u p = b_E b * b_A b / l * (stretch * stretch) + b_E b * b_I b / l * ((t2 - t1) * (t2 - t1)) +
       12 * (b_E b * b_I b) / ((1 + timoshenko_factor 0 b) * (l * l * l)) * (g * g)) /\
  (forall b, ep_kind p = KBeam b \/ ep_kind p = KRail b -> part_form aux_damping ns u p = 0) /\
  (forall m, ep_kind p = KPoint m -> part_form aux_stiffness ns u p = 0 /\ part_form aux_damping ns u p = 0).
Proof.
  intros a stretch. split; [|split; [|split; [|split]]].
  - intros k c m e1 e2. unfold part_form. rewrite e1, e2. cbn [aux_stiffness map nsum element_form]. destruct (rod_spring_spec k _ eq_refl) as [_ [q _]]. cbn [rod_spring] in *.
    rewrite q. cbn [local2]. fold a. rnum. unfold stretch. ring.
  - intros k c m e1 e2. unfold part_form. rewrite e1, e2. cbn [aux_damping map nsum element_form]. destruct (rod_spring_spec c _ eq_refl) as [_ [q _]]. cbn [rod_spring] in *.
    rewrite q. cbn [local2]. fold a. rnum. unfold stretch. ring.
  - intros b hk he hf hb l across1 across2 t1 t2 g. pose proof (timoshenko_nonneg b hb) as hphi. destruct hb as [hE [hI [hA [hl _]]]].
    destruct (beam_fixed_spec b (timoshenko_factor 0 b) hf hE hI hA hl hphi) as [_ [_ [_ [_ hz]]]].
    unfold part_form. destruct hk as [hk|hk]; rewrite hk, he; cbn [aux_stiffness map nsum element_form]; fold a; rnum; rewrite Rplus_0_r; apply (hz (local6 a u (fst e) (snd e))).
  - intros b hk.
    assert (g : forall l : list (nat * nat), nsum (map (fun e => quad 6 beam_damping (local6 (calculate_rotation1 (xy ns (fst e), xy ns (snd e))) u (fst e) (snd e))) l) = 0).
    { induction l as [|x l IH]; [reflexivity|]. cbn [map nsum]. rewrite IH. rnum. change (quad 6 beam_damping ?v) with (quad 6 (fun _ _ => 0) v). rewrite quad_zero. ring. }
    unfold part_form. destruct hk as [hk|hk]; rewrite hk; apply g.
  - intros m hk. unfold part_form. rewrite hk. cbn [aux_stiffness aux_damping].
    assert (g : nsum (map (fun i => one_by_one (lit 0) 0%nat 0%nat * (u i DY * u i DY)) (ep_nodes p)) = 0).
    { induction (ep_nodes p) as [|x l IH]; [reflexivity|]. cbn [map nsum]. rewrite IH. cbn. rnum. ring. }
    split; exact g.
Qed.
Print Assumptions C85_element_energy.

(** a beam and a point mass beside the rod *)
Definition a_beam : epart R := mkPart (KRail (mkBeam 210 (3 / 10) 8 2 3 (1 / 2) 4 None None)) [0; 1]%nat [(0, 1)]%nat.
Definition a_point : epart R := mkPart (KPoint 5) [1%nat] [].

Lemma mixed_runs cs da : exists s ns' n, initialise_system two_nodes [a_rod; a_beam; a_point] [] cs da = Ok (s, ns', n).
Proof.
  apply initialise_ok.
  - intros p [<-|[<-|[<-|[]]]]; [eexists; reflexivity| |eexists; reflexivity].
    unfold initialize_part, a_beam. cbn [ep_kind ep_nodes]. cbn [mapr node_at two_nodes at_idx nth_error rbind].
    destruct (rail_length_spec (Some 4) (map (@n_coord R) two_nodes)) as [_ h]. destruct (h (T3 0 0 0) (T3 1 0 0) eq_refl eq_refl) as [h1 _].
    change (map (@n_coord R) two_nodes) with [T3 0 0 0; T3 1 0 0] in *. cbn [map n_coord new_node b_l]. rewrite h1; [eexists; reflexivity|].
    intros [|i] a b ha hb; [|destruct i; discriminate]. injection ha as <-. injection hb as <-.
    rewrite Rminus_diag_eq, Rabs_R0 by reflexivity. pose proof (sqrt_pos ((tx (T3 1 0 0) - tx (T3 0 0 0)) * (tx (T3 1 0 0) - tx (T3 0 0 0)) +
      (ty (T3 1 0 0) - ty (T3 0 0 0)) * (ty (T3 1 0 0) - ty (T3 0 0 0)) + (tr (T3 1 0 0) - tr (T3 0 0 0)) * (tr (T3 1 0 0) - tr (T3 0 0 0)))) as hp.
    unfold dist3. lra.
  - intros p i [<-|[<-|[<-|[]]]] hi; cbn in hi; cbn; lia.
  - intros l i [].
Qed.

Example C85_case : exists s ns' n,
  initialise_system two_nodes [a_rod; a_beam; a_point] [] [([0%nat], T3 false false false)] (mkDamping true (1 / 20) 2 500) = Ok (s, ns', n) /\
  Forall shaped [a_rod; a_beam; a_point] /\ Forall (fun p => sound (settled two_nodes p)) [a_rod; a_beam; a_point] /\
  0 <= 1 / 20 /\ 0 < 2 /\ 0 < 500 /\ exists b, settled two_nodes a_beam = mkPart (KRail b) [0; 1]%nat [(0, 1)]%nat /\ b_l b = 1.
Proof.
  destruct (mixed_runs [([0%nat], T3 false false false)] (mkDamping true (1 / 20) 2 500)) as [s [ns' [n h]]]. exists s, ns', n. split; [exact h|].
  assert (el : dist3 (T3 0 0 0) (T3 1 0 0) = 1).
  { unfold dist3. cbn [tx ty tr]. replace ((1 - 0) * (1 - 0) + (0 - 0) * (0 - 0) + (0 - 0) * (0 - 0)) with 1 by ring. apply sqrt_1. }
  split; [repeat constructor; cbn; congruence|]. split.
  - repeat constructor; cbn; lra.
  - split; [lra|]. split; [lra|]. split; [lra|]. eexists. split; [reflexivity|]. cbn. exact el.
Qed.

(** ** C86: total mass *)

(** twice the kinetic energy of a uniform velocity is the mass of the system times the squared velocity, whatever the
    number, directions and lengths of the elements *)
Theorem C86_total_mass (ns : list (node R)) ps ls cs da s ns' n x ex ey :
  initialise_system ns ps ls cs da = Ok (s, ns', n) -> Forall shaped ps -> Forall (fun p => sound (settled ns p)) ps ->
  Forall (moves (field_of ns' x) ex ey) ps ->
  quad n (me (gM s)) x = nsum (map (fun p => moving_mass ns ex ey (settled ns p)) ps).
Proof.
  intros h hs ho hm. destruct (initialise_energy _ _ _ _ _ _ _ _ x hs h) as [_ [-> _]]. apply nsum_map_ext. intros p hp.
  rewrite Forall_forall in ho, hm. specialize (ho p hp). specialize (hm p hp). set (u := field_of ns' x) in *.
  assert (hm' : moves u ex ey (settled ns p)).
  { clear - hm. unfold moves, settled in *. destruct p as [k np ep]; cbn [ep_kind ep_nodes ep_els] in *. destruct k; auto. destruct np as [|i [|j l]]; auto.
    destruct (nth_error ns i), (nth_error ns j); auto. }
  clear hm. set (q := settled ns p) in *. clearbody q. unfold part_form, moving_mass, moves, sound in *.
  assert (hbeam : forall b es, sound_beam b -> (forall e i, In e es -> i = fst e \/ i = snd e -> u i DX = ex /\ u i DY = ey /\ u i DR = 0) ->
    nsum (map (fun e => quad 6 (beam_mass b (timoshenko_factor 0 b)) (local6 (calculate_rotation1 (xy ns (fst e), xy ns (snd e))) u (fst e) (snd e))) es)
    = INR (length es) * (b_rho b * b_A b * b_l b) * (ex * ex + ey * ey)).
  { intros b es hb. pose proof (timoshenko_nonneg b hb) as hphi. destruct hb as [_ [_ [_ [hl _]]]].
    induction es as [|e es IH]; intros hu; [cbn; ring|]. cbn [map nsum]. rewrite IH by (intros; eapply hu; [right|]; eassumption).
    change (length (e :: es)) with (S (length es)). rewrite S_INR.
    destruct (hu e (fst e) (or_introl eq_refl) (or_introl eq_refl)) as [f1 [f2 f3]]. destruct (hu e (snd e) (or_introl eq_refl) (or_intror eq_refl)) as [g1 [g2 g3]].
    set (a := calculate_rotation1 _).
    rewrite (quad_ext_vec 6 _ _ (rigid6 (b_l b) (along a ex ey) (across a ex ey) 0)).
    - rewrite beam_mass_rigid by lra. cbv zeta. pose proof (cs1 a) as hcs. rnum. unfold along, across.
      replace ((cos a * ex - sin a * ey) * (cos a * ex - sin a * ey)) with (ex * ex * (cos a * cos a) - 2 * ex * ey * cos a * sin a + ey * ey * (sin a * sin a)) by ring.
      replace ((sin a * ex + cos a * ey) * (sin a * ex + cos a * ey)) with (ex * ex * (sin a * sin a) + 2 * ex * ey * cos a * sin a + ey * ey * (cos a * cos a)) by ring.
      replace (cos a * cos a) with (1 - sin a * sin a) by lra. ring.
    - intros i hi. unfold local6, rigid6. rewrite f1, f2, f3, g1, g2, g3. do 6 (destruct i as [|i]; [cbn [vec6]; ring|]). lia. }
  destruct (ep_kind q) as [k c [w|]|b|b|w]; cbn [aux_mass rod_mass].
  - apply nsum_map_ext. intros e he. cbn [element_form]. destruct (rod_mass_spec w _ eq_refl) as [_ [_ [hq _]]]. cbn [rod_mass] in hq. rewrite hq. cbn [local2].
    destruct (hm' e (fst e) he (or_introl eq_refl)) as [f1 f2]. destruct (hm' e (snd e) he (or_intror eq_refl)) as [g1 g2]. rewrite f1, f2, g1, g2. cbv zeta. field.
  - reflexivity.
  - cbn [element_form]. apply hbeam; assumption.
  - cbn [element_form]. apply hbeam; assumption.
  - assert (g : forall l, (forall i, In i l -> u i DY = ey) -> nsum (map (fun i => w * (u i DY * u i DY)) l) = INR (length l) * w * (ey * ey)).
    { induction l as [|i l IH]; intros hl; [cbn; ring|]. cbn [map nsum]. rewrite IH by (intros; apply hl; right; assumption). rewrite (hl i (or_introl eq_refl)).
      change (length (i :: l)) with (S (length l)). rewrite S_INR. rnum. ring. }
    exact (g _ hm').
Qed.
Print Assumptions C86_total_mass.

Lemma rod_diag_y ns s ns1 p : map (@n_coord R) ns = map (@n_coord R) two_nodes -> assemble_system ns [a_rod] [] = Ok (s, ns1) -> (p < 2)%nat ->
  me (gK s) (3 * p + dir_idx DY)%nat (3 * p + dir_idx DY)%nat = 0 /\ me (gM s) (3 * p + dir_idx DY)%nat (3 * p + dir_idx DY)%nat = 0.
Proof.
  intros hc h hp. assert (hl : length ns = 2%nat) by (rewrite <- (map_length (@n_coord R)), hc; reflexivity).
  destruct (assemble_diag ns [a_rod] [] s ns1 p DY) as [k1 k2]; [constructor; [discriminate|constructor]|exact h|lia|].
  rewrite k1, k2. clear k1 k2. cbn [map nsum]. unfold settled, a_rod, part_form. cbn [ep_kind ep_nodes ep_els aux_stiffness aux_mass map nsum fst snd element_form].
  assert (e : calculate_rotation1 (xy ns 0, xy ns 1) = 0).
  { replace (xy ns 0) with (0, 0); [replace (xy ns 1) with (1, 0); [apply rotation1_right; lra|]|];
      destruct ns as [|a [|b [|c ns]]]; try discriminate; injection hc as c1 c2; unfold xy; cbn [nth_error]; rewrite ?c1, ?c2; reflexivity. }
  destruct (rod_spring_spec 1 _ eq_refl) as [_ [q1 _]]. destruct (rod_mass_spec 1 _ eq_refl) as [_ [_ [q2 _]]].
  cbn [rod_spring rod_mass]. rnum. cbn [rod_spring rod_mass] in q1, q2. rewrite q1, q2. cbn [local2]. rewrite e. unfold along. rewrite cos_0, sin_0.
  unfold unit_field. destruct p as [|[|p]]; [| |lia]; cbn; split; field.
Qed.

(** the rod of mass 1 moving along x: both nodes keep their degree of freedom along x and lose the one along y *)
Example C86_case : exists s ns' n,
  initialise_system two_nodes [a_rod] [] [] no_damping = Ok (s, ns', n) /\ Forall shaped [a_rod] /\
  Forall (fun p => sound (settled two_nodes p)) [a_rod] /\ Forall (moves (field_of ns' (fun _ => 1)) 1 0) [a_rod] /\
  quad n (me (gM s)) (fun _ => 1) = 1.
Proof.
  destruct (rod_runs two_nodes [] eq_refl) as [s [ns' [n h]]]. exists s, ns', n.
  assert (hs : Forall shaped [a_rod]) by (repeat constructor; cbn; congruence).
  assert (ho : Forall (fun p => sound (settled two_nodes p)) [a_rod]) by (repeat constructor; cbn; lra).
  destruct (initialise_inv _ _ _ _ _ _ _ _ h) as [a2 [_ [e2 _]]]. destruct (initialise_kept _ _ _ _ _ _ _ _ _ h e2) as [_ [_ [hk2 _]]].
  assert (hx : forall p, (p < 2)%nat -> field_of ns' (fun _ => 1) p DX = 1 /\ field_of ns' (fun _ => 1) p DY = 0).
  { intros p hp. unfold field_of. split.
    - destruct (number_of ns' p DX) eqn:e; [reflexivity|]. exfalso. revert e. apply (hk2 p DX); [exact hp|].
      cbn [flag_after fold_left]. split; [destruct p as [|[|p]]; [reflexivity|reflexivity|lia]|].
      destruct (rod_diag _ _ _ p eq_refl e2 hp) as [d1 d2]. cbn [dir_idx] in d1, d2. rewrite d1, d2. rewrite !Rabs_right by lra. lra.
    - destruct (number_of ns' p DY) eqn:e; [|reflexivity]. exfalso. destruct (hk2 p DY hp) as [g _]. destruct g as [_ g]; [congruence|].
      destruct (rod_diag_y _ _ _ p eq_refl e2 hp) as [d1 d2]. cbn [dir_idx] in d1, d2. cbv zeta in g. rewrite d1, d2 in g. rewrite Rabs_R0 in g. lra. }
  assert (hm : Forall (moves (field_of ns' (fun _ => 1)) 1 0) [a_rod]).
  { constructor; [|constructor]. cbn. intros e i [<-|[]] [-> | ->]; apply hx; cbn; lia. }
  split; [exact h|]. split; [exact hs|]. split; [exact ho|]. split; [exact hm|].
  rewrite (C86_total_mass _ _ _ _ _ _ _ _ _ 1 0 h hs ho hm). cbn [map nsum]. unfold settled, a_rod, moving_mass. cbn [ep_kind ep_els ep_nodes map nsum fst snd].
  replace (xy two_nodes 0) with (0, 0) by reflexivity. replace (xy two_nodes 1) with (1, 0) by reflexivity. rewrite rotation1_right by lra.
  unfold along. rewrite cos_0, sin_0. rnum. ring.
Qed.
