(** * Properties of the soil matrices that the demonstration writes (C123) *)

From Coq Require Import Reals String List Bool ZArith Arith Lia Lra.
From Verif Require Import Num PyBase Model_Geometry Model_System Model_Element Model_Moving Model_Accumulation Model_Mesh Model_Run Model_CoupledRun Model_DemoResults Model_Track
  Spec_Geometry Spec_System Spec_Element Spec_Run Spec_CoupledRun Spec_DemoResults Spec_Track
  Proofs_Elements Proofs_Dof Proofs_System Proofs_Element Proofs_Accumulation Proofs_Force Proofs_Mesh Proofs_Run Proofs_CoupledRun Proofs_Track Proofs_Assembly Proofs_Generated Proofs_Chain
  Props_Generated Spec_Generated Spec_Renumber Spec_Chain Spec_Motion Spec_Balance Proofs_Balance Props_Balance Props_DemoResults.
Import ListNotations.
Local Open Scope R_scope.

Lemma quad_diagonal n m j k x : (j < n)%nat -> quad n (mset m j j (m j j + k)) x = quad n m x + k * (x j * x j).
Proof.
  intros hj. rewrite (quad_ext n _ (fun a b => m a b + (if Nat.eqb j a && Nat.eqb j b then k else 0))).
  2:{ intros a b _ _. unfold mset. rewrite (Nat.eqb_sym a j), (Nat.eqb_sym b j). destruct (Nat.eqb_spec j a) as [<-|]; destruct (Nat.eqb_spec j b) as [<-|]; cbn [andb]; rnum; ring. }
  rewrite quad_add. f_equal. unfold quad. rewrite (sumn_ext n _ (fun a => if Nat.eqb j a then k * (x j * x j) else 0)).
  - apply (sumn_pick n (fun _ => k * (x j * x j))). exact hj.
  - intros a _. destruct (Nat.eqb_spec j a) as [<-|ne].
    + rewrite (sumn_ext n _ (fun b => if Nat.eqb j b then k * (x j * x b) else 0)); [apply (sumn_pick n (fun b => k * (x j * x b))); exact hj|].
      intros b _. destruct (Nat.eqb j b); cbn [andb]; rnum; ring.
    + apply sumn_0. intros b _. cbn [andb]. rnum. ring.
Qed.

(** what the matrices hold after some springs *)
Definition holds (track : list (node R)) (size : nat) (l : list ((R * R) * (nat * nat))) (st : (nat -> nat -> R) * (nat -> nat -> R) * list nat) : Prop :=
  (forall x, quad size (fst (fst st)) x = nsum (map (fun q => fst (fst q) * (field_of track x (fst (snd q)) DY * field_of track x (fst (snd q)) DY)) l)) /\
  (forall x, quad size (snd (fst st)) x = nsum (map (fun q => snd (fst q) * (field_of track x (fst (snd q)) DY * field_of track x (fst (snd q)) DY)) l)) /\
  (forall i j, i <> j -> fst (fst st) i j = 0 /\ snd (fst st) i j = 0) /\
  map (fun q => number_of track (fst (snd q)) DY) l = map Some (snd st) /\ Forall (fun j => (j < size)%nat) (snd st).

Lemma add_soil_holds track es size l st st' k c e p m : holds track size l st -> nth_error es e = Some m -> ml_nodes m = [fst p; snd p] ->
  @add_soil R _ track es size st (Some k) (Some c) e = Ok st' -> holds track size (l ++ [((k, c), p)]) st'.
Proof.
  intros [h1 [h2 [h3 [h4 h5]]]] he hm h. destruct st as [[sk sc] idx]. cbn [fst snd] in *. unfold add_soil in h. apply rbind_ok in h. destruct h as [m' [q1 h]]. apply at_idx_ok in q1. rewrite he in q1. injection q1 as <-.
  apply rbind_ok in h. destruct h as [i [q2 h]]. rewrite hm in q2. injection q2 as <-. apply rbind_ok in h. destruct h as [n [q3 h]]. apply at_idx_ok in q3.
  destruct (ty (n_dof n)) as [j|] eqn:ej; [|discriminate]. destruct (Nat.ltb_spec j size) as [hj|]; [|discriminate]. destruct (Nat.ltb_spec (length idx) size); [|discriminate]. injection h as <-. cbn [fst snd].
  assert (hn : number_of track (fst p) DY = Some j) by (unfold number_of; rewrite q3; exact ej).
  assert (hf : forall x, field_of track x (fst p) DY = x j) by (intros x; unfold field_of; rewrite hn; reflexivity).
  unfold holds. cbn [fst snd]. split; [|split; [|split; [|split]]].
  - intros x. rewrite map_app, nsum_app, <- h1. change (@nadd R RNum) with Rplus. rewrite quad_diagonal by exact hj. cbn [map nsum fst snd]. rewrite hf. rnum. ring.
  - intros x. rewrite map_app, nsum_app, <- h2. change (@nadd R RNum) with Rplus. rewrite quad_diagonal by exact hj. cbn [map nsum fst snd]. rewrite hf. rnum. ring.
  - intros a b hab. unfold mset. destruct (Nat.eqb_spec a j) as [->|]; [|cbn [andb]; apply h3; exact hab]. destruct (Nat.eqb_spec b j) as [->|]; [congruence|]. cbn [andb]. apply h3. exact hab.
  - rewrite !map_app, h4. cbn [map fst snd]. rewrite hn. reflexivity.
  - apply Forall_app. split; [exact h5|]. constructor; [exact hj|constructor].
Qed.
Lemma add_elements_holds track es size k c : forall els ps, Forall2 (fun q e => exists m, nth_error es q = Some m /\ ml_nodes m = [fst e; snd e]) els ps ->
  forall l st st', holds track size l st -> @add_elements R _ track es size (Some k) (Some c) els st = Ok st' -> holds track size (l ++ map (pair (k, c)) ps) st'.
Proof.
  intros els ps hf. induction hf as [|e p els ps [m [he hm]] hf IH]; intros l st st' h0 h.
  - injection h as <-. rewrite app_nil_r. exact h0.
  - cbn [add_elements] in h. apply rbind_ok in h. destruct h as [st1 [e1 h]]. pose proof (add_soil_holds _ _ _ _ _ _ _ _ _ _ _ h0 he hm e1) as h1. specialize (IH _ _ _ h1 h).
    cbn [map]. rewrite <- app_assoc in IH. exact IH.
Qed.
Lemma soil_holds track es size ps qs st : soil_parts es ps qs -> @soil_matrices R _ track es size ps = Ok st -> holds track size (soil_springs qs) st.
Proof.
  unfold soil_parts, soil_matrices. set (soils := filter w_soil ps). clearbody soils.
  assert (gen : forall soils qs, Forall2 (fun p q => laid_out es p (snd q) /\ w_stiffness p = Some (fst (fst q)) /\ w_damping p = Some (snd (fst q))) soils qs ->
    forall l st st', holds track size l st -> Model_DemoResults.add_parts track es size soils st = Ok st' -> holds track size (l ++ soil_springs qs) st').
  { clear. intros soils qs hf. induction hf as [|p q soils qs [hl [hk hc]] hf IH]; intros l st st' h0 h.
    - injection h as <-. cbn. rewrite app_nil_r. exact h0.
    - cbn [Model_DemoResults.add_parts] in h. apply rbind_ok in h. destruct h as [st1 [e1 h]]. rewrite hk, hc in e1. destruct hl as [_ hl]. pose proof (add_elements_holds _ _ _ _ _ _ _ hl _ _ _ h0 e1) as h1.
      specialize (IH _ _ _ h1 h). unfold soil_springs in *. cbn [flat_map]. rewrite <- app_assoc in IH. destruct q as [[k c] els]. exact IH. }
  intros hf h. apply (gen _ _ hf [] _ _) in h; [exact h|]. unfold holds. cbn. rnum. split; [|split; [|split; [|split]]].
  - intros x. unfold quad. apply sumn_0. intros a _. apply sumn_0. intros b _. rnum. ring.
  - intros x. unfold quad. apply sumn_0. intros a _. apply sumn_0. intros b _. rnum. ring.
  - intros i j _. split; reflexivity.
  - reflexivity.
  - constructor.
Qed.

(** C123: the written soil matrices are diagonal and belong to springs and dampers between the sleepers and the ground: one for each element
    of each soil part, with the stiffness and damping of its part.  The written numbers are those of the sleepers on soil *)
Theorem C123_soil segment time_out velocities outputs ns' es ps c s file w ids sk sc idx qs : soil_parts es ps qs ->
  demo_write_results segment time_out velocities outputs ns' es ps c s = Ok (file, w, ids, (sk, sc, idx)) -> let n := mr (gK s) in
  (forall x, quad n sk x = nsum (map (fun q => fst (fst q) * (field_of ns' x (fst (snd q)) DY * field_of ns' x (fst (snd q)) DY)) (soil_springs qs))) /\
  (forall x, quad n sc x = nsum (map (fun q => snd (fst q) * (field_of ns' x (fst (snd q)) DY * field_of ns' x (fst (snd q)) DY)) (soil_springs qs))) /\
  (forall i j, i <> j -> sk i j = 0 /\ sc i j = 0) /\
  (forall j, In j idx <-> exists q, In q (soil_springs qs) /\ number_of ns' (fst (snd q)) DY = Some j) /\
  length idx = length (soil_springs qs) /\ (length idx <= n)%nat.
Proof.
  intros hq h n. unfold demo_write_results in h. apply rbind_ok in h. destruct h as [w' [_ h]]. apply rbind_ok in h. destruct h as [m [hm h]]. injection h as _ _ _ ->.
  destruct (soil_holds _ _ _ _ _ _ hq hm) as [h1 [h2 [h3 [h4 h5]]]]. cbn [fst snd] in *. split; [exact h1|]. split; [exact h2|]. split; [exact h3|]. split; [|split].
  - intros j. split.
    + intros hj. assert (hs : In (Some j) (map Some idx)) by (apply in_map; exact hj). rewrite <- h4 in hs. apply in_map_iff in hs. destruct hs as [q [e1 e2]]. eauto.
    + intros [q [e1 e2]]. assert (hs : In (Some j) (map (fun q => number_of ns' (fst (snd q)) DY) (soil_springs qs))) by (apply in_map_iff; eauto). rewrite h4 in hs. apply in_map_iff in hs. destruct hs as [j' [e3 e4]]. congruence.
  - rewrite <- (map_length Some), <- h4, map_length. reflexivity.
  - clear -hm n. unfold soil_matrices in hm. fold n in hm.
    assert (one : forall st k c e st', (length (snd st) <= n)%nat -> @add_soil R _ ns' es n st k c e = Ok st' -> (length (snd st') <= n)%nat).
    { intros [[a b] l] k c e st' hl h. unfold add_soil in h. do 3 (apply rbind_ok in h; destruct h as [? [_ h]]). destruct (ty _); [|discriminate]. destruct (Nat.ltb _ n); [|discriminate]. destruct k, c; try discriminate.
      destruct (Nat.ltb_spec (length l) n); [|discriminate]. injection h as <-. cbn [snd]. rewrite app_length. cbn. lia. }
    assert (many : forall k c els st st', (length (snd st) <= n)%nat -> @add_elements R _ ns' es n k c els st = Ok st' -> (length (snd st') <= n)%nat).
    { intros k c. induction els as [|e els IH]; intros st st' hl h; [injection h as <-; exact hl|]. cbn [add_elements] in h. apply rbind_ok in h. destruct h as [st1 [e1 h]]. eauto. }
    assert (all : forall l st st', (length (snd st) <= n)%nat -> @Model_DemoResults.add_parts R _ ns' es n l st = Ok st' -> (length (snd st') <= n)%nat).
    { induction l as [|p l IH]; intros st st' hl h; [injection h as <-; exact hl|]. cbn [Model_DemoResults.add_parts] in h. apply rbind_ok in h. destruct h as [st1 [e1 h]]. eauto. }
    refine (all _ _ _ _ hm). apply Nat.le_0_l.
Qed.
Print Assumptions C123_soil.

Definition soil_epart (q : (R * R) * list (nat * nat)) : Model_Track.epart R :=
  mkPart (KRod (Some (fst (fst q))) (Some (snd (fst q))) None) (flat_map (fun e => [fst e; snd e]) (snd q)) (snd q).

Lemma soil_form ns ns' x q : (forall e, In e (snd q) -> goes_down ns e /\ number_of ns' (snd e) DY = None) -> let u := field_of ns' x in
  part_form aux_stiffness ns u (settled ns (soil_epart q)) = nsum (map (fun s => fst (fst s) * (u (fst (snd s)) DY * u (fst (snd s)) DY)) (map (pair (fst q)) (snd q))) /\
  part_form aux_damping ns u (settled ns (soil_epart q)) = nsum (map (fun s => snd (fst s) * (u (fst (snd s)) DY * u (fst (snd s)) DY)) (map (pair (fst q)) (snd q))) /\
  part_form aux_mass ns u (settled ns (soil_epart q)) = 0.
Proof.
  intros hq u. unfold settled, soil_epart. cbn [ep_kind]. unfold part_form. cbn [ep_kind ep_els aux_stiffness aux_damping aux_mass].
  assert (hz : forall k m e, In e (snd q) -> rod_spring (Some k) = Some m -> quad 2 m (local2 (calculate_rotation1 (xy ns (fst e), xy ns (snd e))) u (fst e) (snd e)) = k * (u (fst e) DY * u (fst e) DY)).
  { intros k m e he hm. destruct (hq e he) as [[a [b [h1 [h2 [h3 h4]]]]] hb]. unfold xy. rewrite h1, h2, h3. rewrite rotation1_vertical by lra. destruct (Rlt_dec (ty (n_coord a)) (ty (n_coord b))); [lra|].
    destruct (rod_spring_spec k m hm) as [_ [q0 _]]. rewrite q0. cbn [local2]. rewrite !along_down. assert (h0 : u (snd e) DY = 0) by (unfold u, field_of; rewrite hb; reflexivity). rewrite h0. ring. }
  split; [|split; [|reflexivity]].
  - destruct (rod_spring (Some (fst (fst q)))) as [m|] eqn:em; [|discriminate]. rewrite map_map. apply nsum_map_ext. intros e he. cbn [element_form fst snd]. exact (hz _ _ _ he em).
  - destruct (rod_spring (Some (snd (fst q)))) as [m|] eqn:em; [|discriminate]. rewrite map_map. apply nsum_map_ext. intros e he. cbn [element_form fst snd]. exact (hz _ _ _ he em).
Qed.

(** C123: the written stiffness and damping matrices minus the written soil matrices are those of the track without soil *)
Theorem C123_rest ns others qs ls cs da s ns' n segment time_out velocities outputs es ps c file w ids sk sc idx :
  initialise_system ns (others ++ map soil_epart qs) ls cs da = Ok (s, ns', n) -> Forall shaped (others ++ map soil_epart qs) ->
  (forall q e, In q qs -> In e (snd q) -> goes_down ns e /\ number_of ns' (snd e) DY = None) -> soil_parts es ps qs ->
  demo_write_results segment time_out velocities outputs ns' es ps c s = Ok (file, w, ids, (sk, sc, idx)) ->
  forall x, let total aux l := nsum (map (fun p => part_form aux ns (field_of ns' x) (settled ns p)) l) in
  quad n (fun i j => me (gK s) i j - sk i j) x = total aux_stiffness others /\
  quad n (fun i j => me (gC s) i j - sc i j) x = total aux_damping others +
    (if da_on da then let (a0, a1) := rayleigh_factors (da_ratio da) (da_one da) (da_two da) in a0 * total aux_mass others + a1 * (total aux_stiffness others + quad n sk x) else 0).
Proof.
  intros hi hs hq hp hw x total. destruct (initialise_entries _ _ _ _ _ _ _ _ hi) as [s0 [st [_ [est [[hsq _] _]]]]].
  assert (hn : mr (gK s) = n) by (rewrite est; unfold rayleigh_damping; destruct (da_on da); [destruct (rayleigh_factors _ _ _)|]; exact hsq).
  destruct (C123_soil _ _ _ _ _ _ _ _ _ _ _ _ _ _ _ _ hp hw) as [k1 [k2 _]]. rewrite hn in k1, k2. destruct (initialise_energy _ _ _ _ _ _ _ _ x hs hi) as [e1 [e2 e3]].
  assert (split_sum : forall aux f, (forall q, In q qs -> part_form aux ns (field_of ns' x) (settled ns (soil_epart q)) = nsum (map f (map (pair (fst q)) (snd q)))) ->
    nsum (map (fun p => part_form aux ns (field_of ns' x) (settled ns p)) (others ++ map soil_epart qs)) = total aux others + nsum (map f (soil_springs qs))).
  { intros aux f h. rewrite map_app, nsum_app. unfold total. f_equal. clear -h. induction qs as [|q qs IH]; [reflexivity|]. cbn [map nsum]. unfold soil_springs in *. cbn [flat_map]. rewrite map_app, nsum_app.
    rewrite (h q) by (left; reflexivity). rewrite IH by (intros; apply h; right; assumption). reflexivity. }
  assert (f1 := split_sum aux_stiffness _ (fun q hin => proj1 (soil_form ns ns' x q (fun e => hq q e hin)))).
  assert (f2 := split_sum aux_damping _ (fun q hin => proj1 (proj2 (soil_form ns ns' x q (fun e => hq q e hin))))).
  assert (f3 : nsum (map (fun p => part_form aux_mass ns (field_of ns' x) (settled ns p)) (others ++ map soil_epart qs)) = total aux_mass others).
  { rewrite map_app, nsum_app. fold (total aux_mass others). assert (z : nsum (map (fun p => part_form aux_mass ns (field_of ns' x) (settled ns p)) (map soil_epart qs)) = 0); [|lra].
    apply nsum_zero. intros p hin. apply in_map_iff in hin. destruct hin as [q [<- hin]]. exact (proj2 (proj2 (soil_form ns ns' x q (fun e => hq q e hin)))). }
  rewrite f1 in e1, e3. rewrite f2, f3 in e3. rewrite <- k1 in e1, e3. rewrite <- k2 in e3.
  assert (sub : forall a b, quad n (fun i j => a i j - b i j) x = quad n a x - quad n b x).
  { intros a b. assert (h := quad_add n (fun i j => a i j - b i j) b x). rewrite (quad_ext n _ a) in h by (intros; ring). lra. }
  rewrite !sub, e1, e3. split; [ring|]. destruct (da_on da); [destruct (rayleigh_factors _ _ _)|]; ring.
Qed.
Print Assumptions C123_rest.

Lemma same_form n a b : msym n a -> msym n b -> (forall x, quad n a x = quad n b x) -> forall i j, (i < n)%nat -> (j < n)%nat -> a i j = b i j.
Proof.
  intros ha hb h i j hi hj. set (e k := fun q => if Nat.eqb k q then 1 else 0).
  assert (row : forall m, msym n m -> quad n m (fun q => e i q + e j q) = m i i + m j j + 2 * m j i).
  { intros m hm. rewrite quad_plus by exact hm. unfold e at 1 2. rewrite !quad_unit by assumption. f_equal. f_equal.
    rewrite (sumn_ext n _ (fun q => if Nat.eqb j q then mulv n m (e i) q else 0)) by (intros q _; unfold e at 1; destruct (Nat.eqb j q); ring).
    rewrite (sumn_pick n (fun q => mulv n m (e i) q)) by exact hj. unfold mulv. rewrite (sumn_ext n _ (fun q => if Nat.eqb i q then m j q else 0)) by (intros q _; unfold e; destruct (Nat.eqb i q); rnum; ring).
    apply (sumn_pick n (fun q => m j q)). exact hi. }
  pose proof (h (fun q => e i q + e j q)) as h0. rewrite !row in h0 by assumption. pose proof (h (e i)) as h1. pose proof (h (e j)) as h2. unfold e in h1, h2. rewrite !quad_unit in h1, h2 by assumption.
  rewrite (ha i j), (hb i j) by assumption. lra.
Qed.

(** C123: what remains does not depend on the soil.  Two tracks that differ only in the values of their soil parts have the same written
    stiffness without soil, and without Rayleigh damping the same written damping without soil *)
Theorem C123_independent ns others qs qs' ls cs da s s' ns' n segment time_out velocities outputs es ps c file w ids sk sc idx
    segment' time_out' velocities' outputs' es' ps' c' file' w' ids' sk' sc' idx' :
  initialise_system ns (others ++ map soil_epart qs) ls cs da = Ok (s, ns', n) -> initialise_system ns (others ++ map soil_epart qs') ls cs da = Ok (s', ns', n) ->
  Forall shaped (others ++ map soil_epart qs) -> Forall (fun p => sound (settled ns p)) (others ++ map soil_epart qs) ->
  Forall shaped (others ++ map soil_epart qs') -> Forall (fun p => sound (settled ns p)) (others ++ map soil_epart qs') ->
  (forall q e, In q (qs ++ qs') -> In e (snd q) -> goes_down ns e /\ number_of ns' (snd e) DY = None) -> soil_parts es ps qs -> soil_parts es' ps' qs' ->
  demo_write_results segment time_out velocities outputs ns' es ps c s = Ok (file, w, ids, (sk, sc, idx)) ->
  demo_write_results segment' time_out' velocities' outputs' ns' es' ps' c' s' = Ok (file', w', ids', (sk', sc', idx')) ->
  forall i j, (i < n)%nat -> (j < n)%nat -> me (gK s) i j - sk i j = me (gK s') i j - sk' i j /\
    (da_on da = false -> me (gC s) i j - sc i j = me (gC s') i j - sc' i j).
Proof.
  intros hi hi' hs ho hs' ho' hq hp hp' hw hw' i j li lj.
  assert (hq1 : forall q e, In q qs -> In e (snd q) -> goes_down ns e /\ number_of ns' (snd e) DY = None) by (intros q e h1; apply hq; apply in_or_app; auto).
  assert (hq2 : forall q e, In q qs' -> In e (snd q) -> goes_down ns e /\ number_of ns' (snd e) DY = None) by (intros q e h1; apply hq; apply in_or_app; auto).
  pose proof (C123_rest _ _ _ _ _ _ _ _ _ _ _ _ _ _ _ _ _ _ _ _ _ _ hi hs hq1 hp hw) as r1. pose proof (C123_rest _ _ _ _ _ _ _ _ _ _ _ _ _ _ _ _ _ _ _ _ _ _ hi' hs' hq2 hp' hw') as r2.
  destruct (initialise_sym _ _ _ _ _ _ _ _ hs ho hi) as [y1 [y2 y3]]. destruct (initialise_sym _ _ _ _ _ _ _ _ hs' ho' hi') as [z1 [z2 z3]].
  destruct (C123_soil _ _ _ _ _ _ _ _ _ _ _ _ _ _ _ _ hp hw) as [_ [_ [d1 _]]]. destruct (C123_soil _ _ _ _ _ _ _ _ _ _ _ _ _ _ _ _ hp' hw') as [_ [_ [d2 _]]].
  assert (sub : forall a b, msym n a -> (forall i j, i <> j -> b i j = 0) -> msym n (fun i j => a i j - b i j)).
  { intros a b ha hb p q h1 h2. rewrite (ha p q) by assumption. destruct (Nat.eq_dec p q) as [->|ne]; [reflexivity|]. rewrite !hb by congruence. reflexivity. }
  split.
  - apply (same_form n (fun i j => me (gK s) i j - sk i j) (fun i j => me (gK s') i j - sk' i j)); try assumption.
    + apply sub; [assumption|]. intros a b hab. apply (d1 _ _ hab).
    + apply sub; [assumption|]. intros a b hab. apply (d2 _ _ hab).
    + intros x. destruct (r1 x) as [-> _]. destruct (r2 x) as [-> _]. reflexivity.
  - intros off. apply (same_form n (fun i j => me (gC s) i j - sc i j) (fun i j => me (gC s') i j - sc' i j)); try assumption.
    + apply sub; [assumption|]. intros a b hab. apply (d1 _ _ hab).
    + apply sub; [assumption|]. intros a b hab. apply (d2 _ _ hab).
    + intros x. destruct (r1 x) as [_ ->]. destruct (r2 x) as [_ ->]. rewrite off. reflexivity.
Qed.
Print Assumptions C123_independent.

Lemma add_elements_ok track es size k c : forall els ps, Forall2 (fun q e => exists m, nth_error es q = Some m /\ ml_nodes m = [fst e; snd e]) els ps ->
  Forall (fun e => exists j, number_of track (fst e) DY = Some j /\ (j < size)%nat) ps -> forall st, (length (snd st) + length ps <= size)%nat ->
  exists st', @add_elements R _ track es size (Some k) (Some c) els st = Ok st' /\ length (snd st') = (length (snd st) + length ps)%nat.
Proof.
  intros els ps hf. induction hf as [|e p els ps [m [he hm]] hf IH]; intros hn st hl.
  - exists st. split; [reflexivity|]. cbn [length]. lia.
  - inversion hn as [|? ? [j [hj hlt]] hn']; subst. cbn [length] in hl. destruct st as [[sk sc] idx]. cbn [snd] in hl. cbn [add_elements]. unfold add_soil at 1, at_idx. rewrite he. cbn [rbind]. rewrite hm. cbn [nth_error rbind].
    unfold number_of in hj. destruct (nth_error track (fst p)) as [n|]; [|discriminate]. cbn [rbind]. cbn [tget] in hj. rewrite hj. destruct (Nat.ltb_spec j size); [|lia]. destruct (Nat.ltb_spec (length idx) size); [|lia]. cbn [rbind].
    destruct (IH hn' (mset sk j j (sk j j + k)%num, mset sc j j (sc j j + c)%num, idx ++ [j])) as [st' [e1 e2]]; [cbn [snd]; rewrite app_length; cbn [length]; lia|].
    exists st'. split; [exact e1|]. rewrite e2. cbn [snd length]. rewrite app_length. cbn [length]. lia.
Qed.
Lemma soil_ok track es size ps qs : soil_parts es ps qs -> Forall (fun q => exists j, number_of track (fst (snd q)) DY = Some j /\ (j < size)%nat) (soil_springs qs) ->
  (length (soil_springs qs) <= size)%nat -> exists st, @soil_matrices R _ track es size ps = Ok st.
Proof.
  unfold soil_parts, soil_matrices. set (soils := filter w_soil ps). clearbody soils. intros hf.
  assert (gen : Forall (fun q => exists j, number_of track (fst (snd q)) DY = Some j /\ (j < size)%nat) (soil_springs qs) -> forall st, (length (snd st) + length (soil_springs qs) <= size)%nat ->
    exists st', @Model_DemoResults.add_parts R _ track es size soils st = Ok st').
  { induction hf as [|p q soils qs [hl [hk hc]] hf IH]; intros hn st hlen; [eexists; reflexivity|]. unfold soil_springs in hn, hlen. cbn [flat_map] in hn, hlen. apply Forall_app in hn. destruct hn as [hn1 hn2]. rewrite app_length, map_length in hlen.
    cbn [Model_DemoResults.add_parts]. rewrite hk, hc. destruct hl as [_ hl].
    assert (hn1' : Forall (fun e => exists j, number_of track (fst e) DY = Some j /\ (j < size)%nat) (snd q)) by (apply Forall_forall; intros e he; apply (proj1 (Forall_forall _ _) hn1 (fst q, e)); apply in_map; exact he).
    destruct (add_elements_ok track es size (fst (fst q)) (snd (fst q)) _ _ hl hn1' st) as [st1 [e1 e2]]; [lia|]. rewrite e1. cbn [rbind]. apply IH; [exact hn2|]. unfold soil_springs. lia. }
  intros hn hlen. apply gen; [exact hn|]. exact hlen.
Qed.

(** C123: writing ends when the series are there, all sleepers on soil have a number and there are no more soil elements than numbers *)
Theorem C123_ends segment time_out velocities outputs ns' es ps c s qs w v : soil_parts es ps qs ->
  mapr (at_idx velocities) outputs = Ok v -> write_series 1 (Ok (time_out, v)) ns' ps (Ok (soil_nodes ps, soil_elements ps)) c = Ok w ->
  (forall q, In q (soil_springs qs) -> exists j, number_of ns' (fst (snd q)) DY = Some j /\ (j < mr (gK s))%nat) -> (length (soil_springs qs) <= mr (gK s))%nat ->
  exists m, demo_write_results segment time_out velocities outputs ns' es ps c s = Ok (String.append segment ".pickle", w, soil_ids 0 ps, m).
Proof.
  intros hp hv hw hn hl. unfold demo_write_results. rewrite hv. cbn [rbind]. rewrite hw. cbn [rbind]. destruct (soil_ok ns' es (mr (gK s)) ps qs hp) as [m hm]; [apply Forall_forall; exact hn|exact hl|].
  rewrite hm. cbn [rbind]. eauto.
Qed.
Print Assumptions C123_ends.

(** C123: it needs a stiffness, a damping and numbered sleepers: with an element whose soil part lacks one of them nothing is written *)
Theorem C123_needs segment time_out velocities outputs ns' es ps c s r p els : demo_write_results segment time_out velocities outputs ns' es ps c s = Ok r ->
  In p ps -> w_soil p = true -> laid_out es p els -> els <> [] ->
  w_stiffness p <> None /\ w_damping p <> None /\ Forall (fun e => exists j, number_of ns' (fst e) DY = Some j /\ (j < mr (gK s))%nat) els.
Proof.
  intros h hin hsoil [_ hl] hne. unfold demo_write_results in h. apply rbind_ok in h. destruct h as [w [_ h]]. apply rbind_ok in h. destruct h as [m [h _]].
  unfold soil_matrices in h. assert (hf : In p (filter w_soil ps)) by (apply filter_In; auto). clear hin. set (size := mr (gK s)) in *. clearbody size. clear s w r c outputs velocities time_out segment.
  revert h. generalize (fun _ _ : nat => @lit R RNum 0, fun _ _ : nat => @lit R RNum 0, @nil nat). revert hf. generalize (filter w_soil ps). intros soils. induction soils as [|p' soils IH]; intros hf st h; [destruct hf|].
  cbn [Model_DemoResults.add_parts] in h. apply rbind_ok in h. destruct h as [st1 [e1 h]]. destruct hf as [->|hf]; [|exact (IH hf _ h)]. clear IH h.
  assert (gen : forall els' ps', Forall2 (fun q e => exists m, nth_error es q = Some m /\ ml_nodes m = [fst e; snd e]) els' ps' -> forall st st1, @add_elements R _ ns' es size (w_stiffness p) (w_damping p) els' st = Ok st1 ->
    Forall (fun e => w_stiffness p <> None /\ w_damping p <> None /\ exists j, number_of ns' (fst e) DY = Some j /\ (j < size)%nat) ps').
  { clear. intros els' ps' hf. induction hf as [|e q els' ps' [m [he hm]] hf IH]; intros st st1 h; [constructor|]. cbn [add_elements] in h. apply rbind_ok in h. destruct h as [st2 [e1 h]]. constructor; [|exact (IH _ _ h)].
    destruct st as [[sk sc] idx]. unfold add_soil in e1. apply rbind_ok in e1. destruct e1 as [m' [q1 e1]]. apply at_idx_ok in q1. rewrite he in q1. injection q1 as <-.
    apply rbind_ok in e1. destruct e1 as [i [q2 e1]]. rewrite hm in q2. injection q2 as <-. apply rbind_ok in e1. destruct e1 as [n [q3 e1]]. apply at_idx_ok in q3.
    destruct (ty (n_dof n)) as [j|] eqn:ej; [|discriminate]. destruct (Nat.ltb_spec j size) as [hj|]; [|discriminate]. destruct (w_stiffness p); [|discriminate]. destruct (w_damping p); [|discriminate].
    split; [discriminate|]. split; [discriminate|]. exists j. split; [unfold number_of; rewrite q3; exact ej|exact hj]. }
  pose proof (gen _ _ hl _ _ e1) as hg. destruct els as [|e els]; [congruence|]. inversion hg as [|? ? [g1 [g2 _]] _]; subst. split; [exact g1|]. split; [exact g2|]. apply (Forall_impl _ (fun a h => proj2 (proj2 h)) hg).
Qed.
Print Assumptions C123_needs.

Lemma nodup_map {A B} (f : A -> B) l : (forall a b, In a l -> In b l -> f a = f b -> a = b) -> NoDup l -> NoDup (map f l).
Proof.
  intros h hn. induction hn as [|a l ha hn IH]; [constructor|]. cbn [map]. constructor; [|apply IH; intros; apply h; try right; assumption].
  intros hin. apply in_map_iff in hin. destruct hin as [b [e hb]]. apply ha. rewrite <- (h b a); [exact hb|right; exact hb|left; reflexivity|exact e].
Qed.

(** C123: the track of the scripts with one segment.  The soil matrices can be written; they are those of its springs, and the stiffness without
    them is the stiffness of rail, pads and sleepers *)
Theorem C123_generated h n r (d depth : R) rail pad sleeper k0 c0 ls da es soil :
  (2 <= n)%nat -> (1 <= r)%nat -> 1 / 1000000000 < d / INR r -> 1 / 1000000000 < depth ->
  good_rail rail -> good_rod pad -> 0 < k0 -> 0 <= c0 -> (da_on da = true -> 0 <= da_ratio da /\ 0 < da_one da /\ 0 < da_two da) ->
  let l := d / INR r in let tol := 1 / 100000000 in
  tol < 12 * (b_E rail * b_I rail) / ((1 + shear_ratio l rail) * (l * l * l)) -> tol < b_rho rail * b_A rail * l / 3 -> tol < fst (fst pad) -> tol < sleeper ->
  Forall plain_load ls -> (forall l i, In l ls -> In i (ld_nodes l) -> (i < n * r + n)%nat) ->
  exists t bottom s ns' k, create_horizontal_track h 0 n d depth r = Ok t /\
    bottom_boundary (mesh_coord (tk_mesh t)) (map (fun e => [fst e; snd e]) (tk_soil_els t)) = Ok bottom /\
    let rest := [mkPart (KRail rail) (tk_rail_nodes t) (tk_rail_els t); mkPart (KRod (Some (fst (fst pad))) (snd (fst pad)) (snd pad)) (tk_pad_nodes t) (tk_pad_els t);
                 mkPart (KPoint sleeper) (tk_sleepers t) []] in
    initialise_system (tk_mesh t) (rest ++ [mkPart (KRod (Some k0) (Some c0) None) (tk_soil_nodes t) (tk_soil_els t)]) ls [side_boundary t; fixed_nodes bottom] da = Ok (s, ns', k) /\
    (laid_out es soil (tk_soil_els t) -> w_soil soil = true -> w_stiffness soil = Some k0 -> w_damping soil = Some c0 ->
     forall segment time_out velocities outputs ps c w v, filter w_soil ps = [soil] -> mapr (at_idx velocities) outputs = Ok v ->
     write_series 1 (Ok (time_out, v)) ns' ps (Ok (soil_nodes ps, soil_elements ps)) c = Ok w ->
     exists sk sc idx, demo_write_results segment time_out velocities outputs ns' es ps c s = Ok (String.append segment ".pickle", w, soil_ids 0 ps, (sk, sc, idx)) /\ length idx = n /\
     forall x, quad k sk x = nsum (map (fun p => k0 * (field_of ns' x p DY * field_of ns' x p DY)) (tk_sleepers t)) /\
       quad k sc x = nsum (map (fun p => c0 * (field_of ns' x p DY * field_of ns' x p DY)) (tk_sleepers t)) /\
       quad k (fun i j => me (gK s) i j - sk i j) x = nsum (map (fun p => part_form aux_stiffness (tk_mesh t) (field_of ns' x) (settled (tk_mesh t) p)) rest)).
Proof.
  intros hn hr hd hdep hrail hpad hk hc hda l tol h1 h2 h3 h4 hp hls.
  destruct (C119_total h n r d depth rail pad sleeper (k0, Some c0, None) ls da hn hr hd hdep hrail hpad) as [t [bottom [s [ns' [k [e1 [e2 [e3 [hst _]]]]]]]]]; try assumption.
  { split; [exact hk|]. split; [exact hc|exact I]. }
  exists t, bottom, s, ns', k. split; [exact e1|]. split; [exact e2|]. intros rest. split; [exact e3|]. intros hl hs1 hs2 hs3 segment time_out velocities outputs ps c w v hf hv hw.
  set (qs := [((k0, c0), tk_soil_els t)]).
  assert (hsp : soil_parts es ps qs) by (unfold soil_parts; rewrite hf; constructor; [|constructor]; split; [exact hl|]; split; assumption).
  pose proof (created _ _ _ _ _ _ hr hd hdep e1) as et.
  assert (hsq : mr (gK s) = k).
  { destruct (initialise_entries _ _ _ _ _ _ _ _ e3) as [s0 [st [_ [est [[hsq _] _]]]]]. rewrite est; unfold rayleigh_damping; destruct (da_on da); [destruct (rayleigh_factors _ _ _)|]; exact hsq. }
  destruct (initialise_entries _ _ _ _ _ _ _ _ e3) as [_ [_ [_ [_ [_ [hnum _]]]]]].
  assert (hsoil : tk_soil_els t = map (fun i => ((n * r + i)%nat, (n * r + n + i)%nat)) (seq 0 n)) by (subst t; reflexivity).
  assert (hsl : tk_sleepers t = map fst (tk_soil_els t)).
  { rewrite hsoil, map_map. subst t. change (tk_sleepers (the_track 0 n r d depth)) with (seq (0 + n * r) n). rewrite seq_from. reflexivity. }
  assert (hsprings : soil_springs qs = map (pair (k0, c0)) (tk_soil_els t)) by (unfold soil_springs, qs; cbn [flat_map fst snd]; apply app_nil_r).
  assert (hnb : forall e, In e (tk_soil_els t) -> exists j, number_of ns' (fst e) DY = Some j /\ (j < k)%nat).
  { intros e he. destruct (number_of ns' (fst e) DY) as [j|] eqn:ej; [exists j; split; [reflexivity|]; exact (numbered_lt _ _ _ _ _ hnum ej)|]. exfalso. destruct hst as [hst _]. apply (hst (fst e)); [|exact ej]. right. rewrite hsl. apply in_map. exact he. }
  assert (hlen : (n <= k)%nat).
  { rewrite <- (seq_length k 0). assert (hn0 : n = length (map (fun i => number_of ns' (n * r + i) DY) (seq 0 n))) by (rewrite map_length, seq_length; reflexivity). rewrite hn0 at 1. rewrite <- (map_length (@Some nat) (seq 0 k)).
    apply NoDup_incl_length.
    - apply nodup_map; [|apply seq_NoDup]. intros a b ha hb hab. apply in_seq in ha, hb. destruct (hnb ((n * r + a)%nat, (n * r + n + a)%nat)) as [j [hj _]]; [rewrite hsoil; apply in_map_iff; exists a; split; [reflexivity|apply in_seq; lia]|].
      cbn [fst] in hj. rewrite hj in hab. symmetry in hab. destruct (numbered_inj _ _ _ _ _ _ _ hnum hj hab) as [q _]. lia.
    - intros o ho. apply in_map_iff in ho. destruct ho as [a [<- ha]]. destruct (hnb ((n * r + a)%nat, (n * r + n + a)%nat)) as [j [hj hjk]]; [rewrite hsoil; apply in_map_iff; exists a; split; [reflexivity|exact ha]|].
      cbn [fst] in hj. rewrite hj. apply in_map. apply in_seq. lia. }
  destruct (C123_ends segment time_out velocities outputs ns' es ps c s qs w v hsp hv hw) as [[[sk sc] idx] hdone].
  { intros q hq. rewrite hsprings in hq. apply in_map_iff in hq. destruct hq as [e [<- he]]. cbn [fst snd]. rewrite hsq. apply hnb. exact he. }
  { rewrite hsprings, map_length, hsoil, map_length, seq_length, hsq. exact hlen. }
  exists sk, sc, idx. split; [exact hdone|].
  destruct (C123_soil _ _ _ _ _ _ _ _ _ _ _ _ _ _ _ _ hsp hdone) as [k1 [k2 [_ [_ [k3 _]]]]]. rewrite hsq in k1, k2. rewrite hsprings in k1, k2, k3.
  split; [rewrite k3, map_length, hsoil, map_length, seq_length; reflexivity|]. intros x.
  split; [rewrite k1, hsl, !map_map; reflexivity|]. split; [rewrite k2, hsl, !map_map; reflexivity|].
  assert (hg : exists q, soil_epart ((k0, c0), tk_soil_els t) = mkPart (KRod (Some k0) (Some c0) None) q (tk_soil_els t) /\ q = tk_soil_nodes t).
  { eexists. split; [reflexivity|]. cbn [snd]. rewrite hsoil. subst t. change (tk_soil_nodes (the_track 0 n r d depth)) with (flat_map (fun i => [(n * r + i)%nat; (n * r + n + i)%nat]) (seq 0 n)).
    clear. induction (seq 0 n) as [|i q IH]; [reflexivity|]. cbn [map flat_map fst snd]. rewrite IH. reflexivity. }
  destruct hg as [q [hg ->]].
  refine (proj1 (C123_rest (tk_mesh t) rest qs ls [side_boundary t; fixed_nodes bottom] da s ns' k segment time_out velocities outputs es ps c _ w _ sk sc idx _ _ _ hsp hdone x)).
  - unfold qs. cbn [map]. rewrite hg. exact e3.
  - unfold qs. cbn [map]. rewrite hg. change (Forall shaped (track_parts t rail pad sleeper (k0, Some c0, None))). subst t. apply (parts_shaped n r d depth); assumption.
  - intros q e [<-|[]] he. cbn [snd] in he. split; [|exact (proj2 hst e he)]. rewrite hsoil in he. apply in_map_iff in he. destruct he as [i [<- hi]]. apply in_seq in hi. unfold goes_down. cbn [fst snd]. rewrite et.
    rewrite mesh_sleeper, mesh_bottom by (try lia; assumption). eexists _, _. split; [reflexivity|]. split; [reflexivity|]. cbn. split; [reflexivity|lra].
Qed.
Print Assumptions C123_generated.

(** two sleepers at 0.6 with a load of 60 kN on the rail meet the hypotheses, with results of a single time *)
Example C123_case :
  let rail := mkBeam 210000000000 (3 / 10) 7860 (69 / 10000) (2337 / 100000000) 0 0 None None in
  let ls := [mkLoad (T3 false true false) [1]%nat [T3 0 (-60000) 0]] in
  let l := (6 / 10) / INR 1 in let tol := 1 / 100000000 in
  let es := map (fun e => mkMelem [fst e; snd e] []) [(0, 1); (0, 2); (1, 3); (2, 4); (3, 5)]%nat in
  let soil := mkW true [2; 4; 3; 5]%nat [3; 4]%nat (Some 200000000) (Some 10000) in
  let ps := [mkW false [0; 1]%nat [0]%nat None None; mkW false [0; 2; 1; 3]%nat [1; 2]%nat (Some 750000000) (Some 750000); mkW false [2; 3]%nat [] None None; soil] in
  let c := mkCoupled [] (repeat [mkNodal [0; -1; 0] [0; 0; 0] [0; 0; 0] [0; 0; 0]] 6) [] (repeat (Some [[1; 2; 3]]) 5) in
  (2 <= 2)%nat /\ (1 <= 1)%nat /\ 1 / 1000000000 < l /\ 1 / 1000000000 < 1 /\ good_rail rail /\ good_rod (750000000, Some 750000, None) /\
  tol < 12 * (b_E rail * b_I rail) / ((1 + shear_ratio l rail) * (l * l * l)) /\ tol < b_rho rail * b_A rail * l / 3 /\
  Forall plain_load ls /\ (forall l i, In l ls -> In i (ld_nodes l) -> (i < 2 * 1 + 2)%nat) /\
  (forall h t, create_horizontal_track h 0 2 (6 / 10) 1 1 = Ok t -> laid_out es soil (tk_soil_els t)) /\ filter w_soil ps = [soil] /\ mapr (at_idx [10; 11]) [1]%nat = Ok [11] /\
  (forall ns', length ns' = 6%nat -> exists w, write_series 1 (Ok ([3], [11])) ns' ps (Ok (soil_nodes ps, soil_elements ps)) c = Ok w).
Proof.
  cbv zeta. assert (e : INR 1 = 1) by reflexivity. rewrite e.
  split; [lia|]. split; [lia|]. split; [lra|]. split; [lra|]. split; [unfold good_rail, fixed_ends; cbn; repeat split; lra|]. split; [unfold good_rod, opt_nonneg; cbn; repeat split; lra|].
  split; [unfold shear_ratio; cbn [b_E b_I b_shear_factor]; destruct (Rlt_dec 0 0); lra|]. split; [cbn [b_rho b_A]; lra|].
  split; [repeat constructor; cbn; intuition lia|]. split; [intros q i [<-|[]]; cbn; intuition lia|].
  split; [|split; [reflexivity|split; [reflexivity|]]].
  - intros h t ht. apply created in ht; [|lia|rewrite e; lra|lra]. subst t. split; [reflexivity|]. change (tk_soil_els (the_track 0 2 (6 / 10) 1 1)) with [(2, 4); (3, 5)]%nat || change (tk_soil_els (the_track 0 2 1 (6 / 10) 1)) with [(2, 4); (3, 5)]%nat.
    repeat (constructor; [eexists; split; reflexivity|]). constructor.
  - intros ns' hl. destruct ns' as [|n0 [|n1 [|n2 [|n3 [|n4 [|n5 [|]]]]]]]; try discriminate. eexists. reflexivity.
Qed.
