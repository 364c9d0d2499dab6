(** * C147: holding more of a model never makes it softer *)

From Coq Require Import Reals List Bool ZArith Arith FunctionalExtensionality Lia Lra.
From Verif Require Import Num PyBase Model_Geometry Model_System Spec_System Proofs_Dof Proofs_System Model_Element Spec_Element
  Proofs_Elements Proofs_Element Proofs_Beam Model_Accumulation Proofs_Accumulation Model_Coupled Model_Mesh Spec_Mesh Model_Track Spec_Track Spec_Generated Proofs_Track
  Proofs_Assembly Proofs_Generated Props_Generated Spec_Analytic Spec_Motion Proofs_Motion Spec_Chain Proofs_Chain Spec_Renumber Proofs_Renumber Spec_Balance Proofs_Balance Spec_Structure Proofs_Structure Proofs_Line Spec_Stiffer Proofs_Stiffer Props_Stiffer Props_Sudden Spec_Held.
Import ListNotations.
Local Open Scope R_scope.

Lemma flag_app cs c p d f : flag_after (cs ++ [c]) p d f = if memb p (fst c) then tget (snd c) d else flag_after cs p d f.
Proof. unfold flag_after. rewrite fold_left_app. reflexivity. Qed.

Lemma flag_more ns cs c p d : lets_nothing_go ns cs c ->
  (flag_after (cs ++ [c]) p d (active ns p d) = true <-> flag_after cs p d (active ns p d) = true /\ ~ holds c p d).
Proof.
  intros hn. rewrite flag_app. destruct (memb p (fst c)) eqn:e.
  - apply memb_In in e. specialize (hn p d e). unfold holds in *. destruct (flag_after cs p d (active ns p d)), (tget (snd c) d); intuition congruence.
  - assert (ne : ~ In p (fst c)) by (intros g; apply memb_In in g; congruence). unfold holds. intuition.
Qed.

Lemma rayleigh_entry on r w1 w2 (s s' : gsys R) i j i' j' :
  me (gK s') i' j' = me (gK s) i j -> me (gM s') i' j' = me (gM s) i j -> me (gC s') i' j' = me (gC s) i j ->
  me (gC (rayleigh_damping on r w1 w2 s')) i' j' = me (gC (rayleigh_damping on r w1 w2 s)) i j.
Proof. intros h1 h2 h3. unfold rayleigh_damping. destruct on; [|exact h3]. destruct (rayleigh_factors r w1 w2) as [a b]. cbn. rewrite h1, h2, h3. reflexivity. Qed.
Lemma rayleigh_same on r w1 w2 (s : gsys R) : gK (rayleigh_damping on r w1 w2 s) = gK s /\ gM (rayleigh_damping on r w1 w2 s) = gM s /\ gF (rayleigh_damping on r w1 w2 s) = gF s.
Proof. unfold rayleigh_damping. destruct on; [|auto]. destruct (rayleigh_factors r w1 w2). auto. Qed.

(** a model with one more constraint is initialised as well; it loses exactly the directions that the constraint holds, and the others have
    the stiffness, mass, damping and forces they had *)
Theorem C147_loses ns ps ls cs c da s1 ns1 k1 : initialise_system ns ps ls cs da = Ok (s1, ns1, k1) -> lets_nothing_go ns cs c ->
  exists s2 ns2 k2, initialise_system ns ps ls (cs ++ [c]) da = Ok (s2, ns2, k2) /\
    (forall p d, number_of ns2 p d <> None <-> number_of ns1 p d <> None /\ ~ holds c p d) /\
    (forall p d i i', number_of ns1 p d = Some i -> number_of ns2 p d = Some i' -> nth_error (gF s2) i' = nth_error (gF s1) i) /\
    forall p d q e i j i' j', number_of ns1 p d = Some i -> number_of ns1 q e = Some j -> number_of ns2 p d = Some i' -> number_of ns2 q e = Some j' ->
      me (gK s2) i' j' = me (gK s1) i j /\ me (gM s2) i' j' = me (gM s1) i j /\ me (gC s2) i' j' = me (gC s1) i j.
Proof.
  intros h hn. destruct (initialise_inv _ _ _ _ _ _ _ _ h) as [s0 [st [e0 [hs [ht es]]]]]. destruct (initialise_kept _ _ _ _ _ _ _ _ _ h e0) as [hl [_ [hk _]]].
  destruct (constrained_trim s0 (number_from 0 ns) cs _ hs (from_numbered ns)) as [s' [m [k [g1 [_ [_ [_ [_ [_ g7]]]]]]]]]. rewrite ht in g1. injection g1 as <- <- <-.
  destruct (constrained_trim s0 (number_from 0 ns) (cs ++ [c]) _ hs (from_numbered ns)) as [st2 [ns2 [k2 [g1 [_ [_ [_ [_ [_ g72]]]]]]]]].
  assert (h2 : initialise_system ns ps ls (cs ++ [c]) da = Ok (rayleigh_damping (da_on da) (da_ratio da) (da_one da) (da_two da) st2, ns2, k2)).
  { unfold initialise_system. rewrite e0. cbn [rbind]. rewrite g1. reflexivity. }
  destruct (initialise_kept _ _ _ _ _ _ _ _ _ h2 e0) as [hl2 [_ [hk2 _]]].
  eexists _, _, _. split; [exact h2|].
  assert (at0 : forall p d i, number_of ns1 p d = Some i -> number_of (number_from 0 ns) p d = Some (3 * p + dir_idx d)%nat).
  { intros p d i hi. apply number_of_bound in hi. rewrite hl in hi. rewrite number_of_from by exact hi. destruct d; reflexivity. }
  split; [|split].
  - intros p d. destruct (Nat.lt_ge_cases p (length ns)) as [hp|hp].
    + rewrite (hk2 p d hp), (hk p d hp). cbv zeta. rewrite flag_more by exact hn. tauto.
    + assert (b1 : number_of ns1 p d = None) by (destruct (number_of ns1 p d) eqn:e; [apply number_of_bound in e; lia|reflexivity]).
      assert (b2 : number_of ns2 p d = None) by (destruct (number_of ns2 p d) eqn:e; [apply number_of_bound in e; lia|reflexivity]). rewrite b1, b2. tauto.
  - intros p d i i' hi hi'. rewrite es, !(proj2 (proj2 (rayleigh_same _ _ _ _ _))).
    destruct (g7 p d p d _ _ i i (at0 _ _ _ hi) hi (at0 _ _ _ hi) hi) as [a1 _]. destruct (g72 p d p d _ _ i' i' (at0 _ _ _ hi) hi' (at0 _ _ _ hi) hi') as [a2 _]. congruence.
  - intros p d q e i j i' j' hi hj hi' hj'.
    destruct (g7 p d q e _ _ i j (at0 _ _ _ hi) hi (at0 _ _ _ hj) hj) as [_ [a1 [a2 a3]]]. destruct (g72 p d q e _ _ i' j' (at0 _ _ _ hi) hi' (at0 _ _ _ hj) hj') as [_ [b1 [b2 b3]]].
    assert (x1 : me (gK st2) i' j' = me (gK st) i j) by congruence. assert (x2 : me (gM st2) i' j' = me (gM st) i j) by congruence. assert (x3 : me (gC st2) i' j' = me (gC st) i j) by congruence.
    rewrite es. destruct (rayleigh_same (da_on da) (da_ratio da) (da_one da) (da_two da) st2) as [-> [-> _]]. destruct (rayleigh_same (da_on da) (da_ratio da) (da_one da) (da_two da) st) as [-> [-> _]].
    split; [exact x1|]. split; [exact x2|]. apply rayleigh_entry; assumption.
Qed.
Print Assumptions C147_loses.

Section Held.
  Variables (ns : list (node R)) (ps : list (epart R)) (ls : list (load R)) (cs : list (list nat * tri bool)) (c : list nat * tri bool) (da : damping R) (s1 s2 : gsys R) (ns1 ns2 : list (node R)) (k1 k2 : nat).
  Hypothesis run1 : initialise_system ns ps ls cs da = Ok (s1, ns1, k1).
  Hypothesis run2 : initialise_system ns ps ls (cs ++ [c]) da = Ok (s2, ns2, k2).
  Hypothesis nothing : lets_nothing_go ns cs c.

  Lemma fewer p d : number_of ns1 p d = None -> number_of ns2 p d = None.
  Proof using run1 run2 nothing.
    intros h. destruct (C147_loses _ _ _ _ _ _ _ _ _ run1 nothing) as [s [ns' [k [r [hk _]]]]]. rewrite run2 in r. injection r as <- <- <-.
    destruct (number_of ns2 p d) eqn:e; [|reflexivity]. exfalso. assert (g : number_of ns2 p d <> None) by congruence. apply hk in g. tauto.
  Qed.
  (** the displacements of the held model are displacements of the other *)
  Lemma same_field y : field_of ns1 (vector_of ns1 (field_of ns2 y)) = field_of ns2 y.
  Proof using run1 run2 nothing.
    destruct (initialise_inv _ _ _ _ _ _ _ _ run1) as [s0 [_ [e0 _]]]. destruct (initialise_kept _ _ _ _ _ _ _ _ _ run1 e0) as [_ [hn _]].
    extensionality p. extensionality d. apply (vector_field ns1 k1 _ hn). intros p0 d0 h. unfold field_of. rewrite (fewer _ _ h). reflexivity.
  Qed.
  Lemma same_quads y : Forall shaped ps -> let x := vector_of ns1 (field_of ns2 y) in
    quad k2 (me (gK s2)) y = quad k1 (me (gK s1)) x /\ quad k2 (me (gM s2)) y = quad k1 (me (gM s1)) x /\ quad k2 (me (gC s2)) y = quad k1 (me (gC s1)) x.
  Proof using run1 run2 nothing.
    intros hs x. pose proof (initialise_energy _ _ _ _ _ _ _ _ x hs run1) as g. pose proof (initialise_energy _ _ _ _ _ _ _ _ y hs run2) as g2. unfold x in g. rewrite same_field in g. cbv zeta in g, g2. fold x in g.
    destruct g as [-> [-> ->]]. exact g2.
  Qed.
  Lemma not_zero y : (exists i, (i < k2)%nat /\ y i <> 0) -> exists i, (i < k1)%nat /\ vector_of ns1 (field_of ns2 y) i <> 0.
  Proof using run1 run2 nothing.
    intros [i [hi hy]]. destruct (initialise_inv _ _ _ _ _ _ _ _ run2) as [s0 [_ [e0 _]]]. destruct (initialise_kept _ _ _ _ _ _ _ _ _ run2 e0) as [_ [hn2 _]].
    assert (g : In i (all_numbers ns2)) by (rewrite hn2; apply in_seq; lia). apply all_numbers_In in g. destruct g as [p [d hp]].
    assert (f : field_of ns1 (vector_of ns1 (field_of ns2 y)) p d = y i) by (rewrite same_field; unfold field_of; rewrite hp; reflexivity).
    unfold field_of at 1 in f. destruct (number_of ns1 p d) as [j|] eqn:e; [|congruence]. exists j. split; [|congruence].
    destruct (initialise_inv _ _ _ _ _ _ _ _ run1) as [s3 [_ [e3 _]]]. destruct (initialise_kept _ _ _ _ _ _ _ _ _ run1 e3) as [_ [hn1 _]].
    assert (g : In j (all_numbers ns1)) by (apply all_numbers_In; eauto). rewrite hn1 in g. apply in_seq in g. lia.
  Qed.
End Held.

(** what bounds the energies of a model from below bounds those of the held model: it does not lose its stiffness, none of its frequencies
    falls below the lowest one it had, and static equilibrium keeps its single answer *)
Theorem C147_no_slower ns ps ls cs c da s1 ns1 k1 s2 ns2 k2 : initialise_system ns ps ls cs da = Ok (s1, ns1, k1) -> initialise_system ns ps ls (cs ++ [c]) da = Ok (s2, ns2, k2) ->
  lets_nothing_go ns cs c -> Forall shaped ps ->
  (forall w, (forall x, w * quad k1 (me (gM s1)) x <= quad k1 (me (gK s1)) x) -> forall y, w * quad k2 (me (gM s2)) y <= quad k2 (me (gK s2)) y) /\
  (forall w, (forall x, w * quad k1 (me (gM s1)) x <= quad k1 (me (gC s1)) x) -> forall y, w * quad k2 (me (gM s2)) y <= quad k2 (me (gC s2)) y) /\
  (pos_def k1 (me (gK s1)) -> pos_def k2 (me (gK s2)) /\ exists y, in_balance s2 k2 y /\ forall z, in_balance s2 k2 z -> forall i, (i < k2)%nat -> z i = y i).
Proof.
  intros h1 h2 hn hs. pose proof (fun y => same_quads ns ps ls cs c da s1 s2 ns1 ns2 k1 k2 h1 h2 hn y hs) as q. cbv zeta in q.
  split; [|split].
  - intros w hw y. destruct (q y) as [-> [-> _]]. apply hw.
  - intros w hw y. destruct (q y) as [_ [-> ->]]. apply hw.
  - intros hp. assert (hp2 : pos_def k2 (me (gK s2))).
    { intros y hy. destruct (q y) as [-> _]. apply hp. exact (not_zero ns ps ls cs c da s1 s2 ns1 ns2 k1 k2 h1 h2 hn y hy). }
    split; [exact hp2|]. destruct (definite_solves k2 _ hp2 (fun i => nth i (gF s2) 0)) as [y hy]. exists y. split; [exact hy|]. intros z hz i hi.
    destruct (classic_zero k2 (fun i => z i - y i)) as [g|g]; [specialize (g i hi); lra|]. exfalso. specialize (hp2 _ g). rewrite quad_work in hp2.
    assert (e : work k2 (mulv k2 (me (gK s2)) (fun i => z i - y i)) (fun i => z i - y i) = 0); [|lra].
    unfold work. apply sumn_0. intros a ha. rewrite mulv_diff, hz, hy by exact ha. ring.
Qed.
Print Assumptions C147_no_slower.

(** at rest the loads of the held model do not go deeper, taken together; a single load does not go deeper *)
Theorem C147_no_softer ns ps ls cs c da s1 ns1 k1 s2 ns2 k2 x y : initialise_system ns ps ls cs da = Ok (s1, ns1, k1) -> initialise_system ns ps ls (cs ++ [c]) da = Ok (s2, ns2, k2) ->
  lets_nothing_go ns cs c -> Forall shaped ps -> Forall (fun p => sound (settled ns p)) ps -> Forall plain_load ls -> in_balance s1 k1 x -> in_balance s2 k2 y ->
  0 <= load_work ls (field_of ns2 y) <= load_work ls (field_of ns1 x) /\
  forall p P, ls = one_load p P -> P <> 0 -> 0 <= P * field_of ns2 y p DY /\ Rabs (field_of ns2 y p DY) <= Rabs (field_of ns1 x p DY).
Proof.
  intros h1 h2 hn hs ho hp hx hy.
  assert (g : 0 <= load_work ls (field_of ns2 y) <= load_work ls (field_of ns1 x)).
  { apply (C131_stiffer ns ps ps ls cs (cs ++ [c]) da da s1 ns1 k1 s2 ns2 k2 x y); try assumption; [intros; lra|]. intros p d. exact (fewer ns ps ls cs c da s1 s2 ns1 ns2 k1 k2 h1 h2 hn p d). }
  split; [exact g|]. intros p P -> hP. rewrite !one_load_work in g. destruct g as [g1 g2]. split; [exact g1|].
  assert (hp0 : 0 < Rabs P) by (apply Rabs_pos_lt; exact hP). apply (Rmult_le_reg_l (Rabs P)); [exact hp0|]. rewrite <- !Rabs_mult. rewrite !Rabs_right by lra. exact g2.
Qed.
Print Assumptions C147_no_softer.

(** a constraint on what does not move anyway changes nothing: the model at rest stays as it is *)
Theorem C147_unmoved ns ps ls cs c da s1 ns1 k1 s2 ns2 k2 x : initialise_system ns ps ls cs da = Ok (s1, ns1, k1) -> initialise_system ns ps ls (cs ++ [c]) da = Ok (s2, ns2, k2) ->
  lets_nothing_go ns cs c -> Forall shaped ps -> Forall (fun p => sound (settled ns p)) ps -> Forall plain_load ls -> in_balance s1 k1 x ->
  (forall p d, holds c p d -> field_of ns1 x p d = 0) ->
  exists y, in_balance s2 k2 y /\ forall p d, field_of ns2 y p d = field_of ns1 x p d.
Proof.
  intros h1 h2 hn hs ho hp hx h0. exists (vector_of ns2 (field_of ns1 x)).
  destruct (initialise_inv _ _ _ _ _ _ _ _ h2) as [s0 [_ [e0 _]]]. destruct (initialise_kept _ _ _ _ _ _ _ _ _ h2 e0) as [_ [hn2 _]].
  assert (f : forall p d, field_of ns2 (vector_of ns2 (field_of ns1 x)) p d = field_of ns1 x p d).
  { apply (vector_field ns2 k2 _ hn2). intros p d hd. destruct (C147_loses _ _ _ _ _ _ _ _ _ h1 hn) as [s [ns' [k [r [hk _]]]]]. rewrite h2 in r. injection r as <- <- <-.
    destruct (number_of ns1 p d) as [i|] eqn:e; [|unfold field_of; rewrite e; reflexivity]. apply h0. unfold holds. specialize (hk p d). rewrite e, hd in hk.
    destruct (in_dec Nat.eq_dec p (fst c)) as [a|a], (tget (snd c) d) eqn:b; auto; exfalso; apply (proj2 hk); try reflexivity; (split; [discriminate|]); unfold holds; intros [u v]; congruence. }
  split; [|exact f]. apply (weak_balance ns ps hs ho ls (cs ++ [c]) da s2 ns2 k2); [exact h2|exact hp|].
  intros z. replace (field_of ns2 (vector_of ns2 (field_of ns1 x))) with (field_of ns1 x) by (extensionality p; extensionality d; symmetry; apply f).
  apply (balance_weak ns ps hs ho ls cs da s1 ns1 k1 x h1 hp hx). intros p d hd. unfold field_of. rewrite (fewer ns ps ls cs c da s1 s2 ns1 ns2 k1 k2 h1 h2 hn p d hd). reflexivity.
Qed.
Print Assumptions C147_unmoved.

(** ** a later constraint can let go *)

(** The foot of the post is held in all directions; a second constraint that holds it only sideways takes the first one away, and then
    nothing carries the load *)
Theorem C147_released_refuted P : P <> 0 -> exists s1 ns1 k1 x s2 ns2 k2, let c := ([1%nat], T3 false true false) in
  initialise_system post (post_parts 1) (one_load 0 P) post_held undamped = Ok (s1, ns1, k1) /\ in_balance s1 k1 x /\
  initialise_system post (post_parts 1) (one_load 0 P) (post_held ++ [c]) undamped = Ok (s2, ns2, k2) /\
  number_of ns1 1 DY = None /\ number_of ns2 1 DY <> None /\ forall y, ~ in_balance s2 k2 y.
Proof.
  intros hP. destruct (C143_reached P hP) as [s1 [ns1 [k1 [f [u [v [a [x [h1 [_ [_ [_ [hx _]]]]]]]]]]]]].
  set (c := ([1%nat], T3 false true false)).
  assert (r : exists s2 ns2 k2, initialise_system post (post_parts 1) (one_load 0 P) (post_held ++ [c]) undamped = Ok (s2, ns2, k2)).
  { apply initialise_ok; [intros p [<-|[]]; eexists; reflexivity|intros p i [<-|[]] hi; cbn in hi; cbn; lia|intros l i [<-|[]] hi; cbn in hi; cbn; lia]. }
  destruct r as [s2 [ns2 [k2 h2]]]. exists s1, ns1, k1, x, s2, ns2, k2. cbv zeta. split; [exact h1|]. split; [exact hx|]. split; [exact h2|].
  assert (sh : Forall shaped (post_parts 1)) by (repeat constructor; discriminate).
  assert (so : Forall (fun p => sound (settled post p)) (post_parts 1)) by (constructor; [|constructor]; cbn; repeat split; lra).
  split.
  { destruct (number_of ns1 1 DY) eqn:e; [|reflexivity]. exfalso. destruct (initialise_inv _ _ _ _ _ _ _ _ h1) as [s0 [_ [e0 _]]]. destruct (initialise_kept _ _ _ _ _ _ _ _ _ h1 e0) as [_ [_ [hk _]]].
    assert (g : number_of ns1 1 DY <> None) by congruence. apply (hk 1%nat DY) in g; [|cbn; lia]. destruct g as [g _]. discriminate. }
  assert (free : forall p, (p < 2)%nat -> number_of ns2 p DY <> None).
  { intros p hp. destruct (initialise_inv _ _ _ _ _ _ _ _ h2) as [s0 [_ [e0 _]]]. destruct (initialise_kept _ _ _ _ _ _ _ _ _ h2 e0) as [_ [_ [hk _]]]. rewrite (hk p DY hp).
    destruct (assemble_diag post (post_parts 1) _ s0 _ p DY sh e0 hp) as [q1 q2]. cbv zeta. cbn [dir_idx] in q1, q2. rewrite q1, q2, post_energy, post_mass.
    split; [destruct p as [|[|p]]; [reflexivity|reflexivity|lia]|].
    destruct p as [|[|p]]; [| |lia]; rewrite unit_at, !unit_elsewhere by lia; split; rewrite Rabs_right; lra. }
  split; [apply free; lia|]. intros y hy.
  pose proof (balance_weak post (post_parts 1) sh so _ _ _ s2 ns2 k2 y h2 (one_load_plain 0 P) hy (fun p d => match d with DY => if Nat.ltb p 2 then 1 else 0 | _ => 0 end)) as g.
  unfold mutual in g. rewrite !post_energy, one_load_work in g. cbn in g. apply hP. rewrite Rmult_1_r in g. rewrite <- g; [field|].
  intros p [| |] hd; try reflexivity. destruct (Nat.leb_spec p 1) as [hp|hp]; [|reflexivity]. exfalso. apply Nat.lt_succ_r in hp. exact (free p hp hd).
Qed.
Print Assumptions C147_released_refuted.

(** ** a case *)

(** three nodes above each other with two springs; the foot is held, and the middle is held as well or not *)
Definition stack : list (node R) := post ++ [mkNode 2 (Some 2%nat) (T3 None None None) (T3 0 (-2) 0) (T3 true true true) []].
Definition stack_parts : list (epart R) := [springs (1, None, Some 3) [0; 1; 2]%nat [(0, 1); (1, 2)]%nat].
Definition stack_held : list (list nat * tri bool) := [([2%nat], T3 false false false)].

Lemma stack_energy u : nsum (map (fun p => part_form aux_stiffness stack u (settled stack p)) stack_parts) =
  (u 1%nat DY - u 0%nat DY) * (u 1%nat DY - u 0%nat DY) + (u 2%nat DY - u 1%nat DY) * (u 2%nat DY - u 1%nat DY).
Proof.
  cbn [stack_parts map nsum]. change (settled stack (springs (1, None, Some 3) [0; 1; 2]%nat [(0, 1); (1, 2)]%nat)) with (springs (1, None, Some 3) [0; 1; 2]%nat [(0, 1); (1, 2)]%nat).
  unfold part_form, springs. cbn [ep_kind ep_els aux_stiffness element_form rod_spring fst snd map nsum].
  pose proof (rod_spring_form stack 1 _ u (0, 1)%nat eq_refl) as g. pose proof (rod_spring_form stack 1 _ u (1, 2)%nat eq_refl) as g2. cbn [fst snd] in g, g2. rewrite g, g2; [rnum; ring|split; cbn; lra|split; cbn; lra].
Qed.
Lemma stack_mass u : nsum (map (fun p => part_form aux_mass stack u (settled stack p)) stack_parts) =
  (u 0%nat DY * u 0%nat DY + u 0%nat DY * u 1%nat DY + u 1%nat DY * u 1%nat DY) + (u 1%nat DY * u 1%nat DY + u 1%nat DY * u 2%nat DY + u 2%nat DY * u 2%nat DY).
Proof.
  cbn [stack_parts map nsum]. change (settled stack (springs (1, None, Some 3) [0; 1; 2]%nat [(0, 1); (1, 2)]%nat)) with (springs (1, None, Some 3) [0; 1; 2]%nat [(0, 1); (1, 2)]%nat).
  unfold part_form, springs. cbn [ep_kind ep_els aux_mass element_form rod_mass fst snd map nsum].
  pose proof (rod_mass_form stack 3 _ u (0, 1)%nat eq_refl) as g. pose proof (rod_mass_form stack 3 _ u (1, 2)%nat eq_refl) as g2. cbn [fst snd] in g, g2. rewrite g, g2; [rnum; field|split; cbn; lra|split; cbn; lra].
Qed.

Lemma stack_rests P cs v : (forall d, flag_after cs 2 d true = false) -> flag_after cs 0 DY true = true -> (flag_after cs 1 DY true = false -> v 1%nat DY = 0) ->
  (forall p d, d <> DY -> v p d = 0) -> (forall p d, (2 <= p)%nat -> v p d = 0) -> v 0%nat DY - v 1%nat DY = P -> (flag_after cs 1 DY true = true -> v 1%nat DY = P) ->
  exists s ns' k x, initialise_system stack stack_parts (one_load 0 P) cs undamped = Ok (s, ns', k) /\ in_balance s k x /\ forall p d, field_of ns' x p d = v p d.
Proof.
  intros f2 f0 f1 vd vp v01 v1.
  assert (r : exists s ns' k, initialise_system stack stack_parts (one_load 0 P) cs undamped = Ok (s, ns', k)).
  { apply initialise_ok; [intros p [<-|[]]; eexists; reflexivity|intros p i [<-|[]] hi; cbn in hi; cbn; intuition (subst; lia)|intros l i [<-|[]] hi; cbn in hi; cbn; intuition (subst; lia)]. }
  destruct r as [s [ns' [k h]]]. exists s, ns', k, (vector_of ns' v).
  assert (sh : Forall shaped stack_parts) by (repeat constructor; discriminate). assert (so : Forall (fun p => sound (settled stack p)) stack_parts) by (constructor; [|constructor]; cbn; repeat split; lra).
  destruct (initialise_inv _ _ _ _ _ _ _ _ h) as [s0 [_ [e0 _]]]. destruct (initialise_kept _ _ _ _ _ _ _ _ _ h e0) as [hl [hn [hk _]]].
  assert (free : forall p, (p < 2)%nat -> flag_after cs p DY true = true -> number_of ns' p DY <> None).
  { intros p hp fp. apply (hk p DY); [cbn; lia|]. destruct (assemble_diag stack stack_parts _ s0 _ p DY sh e0 ltac:(cbn; lia)) as [q1 q2]. cbv zeta. cbn [dir_idx] in q1, q2. rewrite q1, q2, stack_energy, stack_mass.
    split; [destruct p as [|[|p]]; [exact fp|exact fp|lia]|].
    destruct p as [|[|p]]; [| |lia]; rewrite unit_at, !unit_elsewhere by lia; split; rewrite Rabs_right; lra. }
  assert (fv : forall p d, field_of ns' (vector_of ns' v) p d = v p d).
  { apply (vector_field ns' k _ hn). intros p d hd. destruct d; [apply vd; discriminate| |apply vd; discriminate].
    destruct p as [|[|p]]; [| |apply vp; lia].
    - exfalso. exact (free 0%nat ltac:(lia) f0 hd).
    - destruct (flag_after cs 1 DY true) eqn:e; [|auto]. exfalso. exact (free 1%nat ltac:(lia) e hd). }
  split; [exact h|]. split; [|exact fv].
  apply (weak_balance stack stack_parts sh so _ _ _ s ns' k _ h (one_load_plain 0 P)). intros y. unfold mutual. rewrite !stack_energy, one_load_work, !fv.
  assert (held : forall p, (p < 3)%nat -> flag_after cs p DY true = false -> field_of ns' y p DY = 0).
  { intros p hp fp. unfold field_of. destruct (number_of ns' p DY) eqn:e; [|reflexivity]. exfalso. assert (g : number_of ns' p DY <> None) by congruence. apply (hk p DY) in g; [|exact hp]. destruct g as [g _].
    destruct p as [|[|[|p]]]; [| | |lia]; cbn in g; congruence. }
  rewrite (held 2%nat ltac:(lia) (f2 DY)), (vp 2%nat DY) by lia.
  destruct (flag_after cs 1 DY true) eqn:e.
  - specialize (v1 eq_refl). replace (v 0%nat DY) with (2 * P) by lra. rewrite v1. field.
  - specialize (f1 eq_refl). rewrite (held 1%nat ltac:(lia) e), f1. replace (v 0%nat DY) with P by lra. field.
Qed.

(** under a load of 5 N the top goes down by 10 m when only the foot is held, and by 5 m when the middle is held as well *)
Example C147_case : exists s1 ns1 k1 x s2 ns2 k2 y, let c := ([1%nat], T3 true false true) in
  initialise_system stack stack_parts (one_load 0 (-5)) stack_held undamped = Ok (s1, ns1, k1) /\ in_balance s1 k1 x /\ field_of ns1 x 0 DY = -10 /\
  initialise_system stack stack_parts (one_load 0 (-5)) (stack_held ++ [c]) undamped = Ok (s2, ns2, k2) /\ in_balance s2 k2 y /\ field_of ns2 y 0 DY = -5 /\
  lets_nothing_go stack stack_held c /\ Forall shaped stack_parts /\ Forall (fun p => sound (settled stack p)) stack_parts /\ Forall plain_load (one_load 0 (-5)).
Proof.
  destruct (stack_rests (-5) stack_held (fun p d => match p, d with 0%nat, DY => -10 | 1%nat, DY => -5 | _, _ => 0 end)) as [s1 [ns1 [k1 [x [h1 [b1 f1]]]]]].
  1:{ intros []; reflexivity. } 1:{ reflexivity. } 1:{ discriminate. } 1:{ intros [|[|p]] []; congruence. } 1:{ intros [|[|p]] d hp; try lia. reflexivity. } 1:{ lra. } 1:{ reflexivity. }
  destruct (stack_rests (-5) (stack_held ++ [([1%nat], T3 true false true)]) (fun p d => match p, d with 0%nat, DY => -5 | _, _ => 0 end)) as [s2 [ns2 [k2 [y [h2 [b2 f2]]]]]].
  1:{ intros []; reflexivity. } 1:{ reflexivity. } 1:{ reflexivity. } 1:{ intros [|p] []; congruence. } 1:{ intros [|p] d hp; try lia. reflexivity. } 1:{ lra. } 1:{ discriminate. }
  exists s1, ns1, k1, x, s2, ns2, k2, y. cbv zeta. split; [exact h1|]. split; [exact b1|]. split; [apply f1|]. split; [exact h2|]. split; [exact b2|]. split; [apply f2|].
  split; [intros p d [<-|[]] g; destruct d; discriminate|]. split; [repeat constructor; discriminate|]. split; [constructor; [|constructor]; cbn; repeat split; lra|apply one_load_plain].
Qed.
