(** * C142: the track that the demonstration scripts set up can be calculated, and its soil carries the load *)

From Coq Require Import Reals List Bool ZArith Arith Lia Lra Psatz Permutation.
From Verif Require Import Num PyBase Model_Geometry Model_System Spec_System Proofs_Dof Proofs_System Model_Element Spec_Element Spec_Chain
  Proofs_Elements Proofs_Element Proofs_Beam Proofs_Force Model_Accumulation Proofs_Accumulation Proofs_Geometry Model_Coupled Model_Mesh Spec_Mesh Proofs_Mesh Proofs_Join Props_Mesh
  Model_Track Spec_Track Spec_Generated Proofs_Track Proofs_Assembly Proofs_Generated Props_Generated Proofs_Chain Spec_Renumber Proofs_Renumber Spec_Balance Proofs_Balance Spec_Structure Proofs_Structure Proofs_Line Props_Structure
  Spec_Stiffer Proofs_Stiffer Props_Stiffer Spec_Cut Proofs_Cut Spec_Count Proofs_Count Props_Count Proofs_Moving Model_Demo Model_FieldSoil Model_DemoTrack Spec_DemoTrack.
Import ListNotations.
Local Open Scope R_scope.

(** ** the values of [materials] *)

Definition pad_values : R * option R * option R := (demo_pad_stiffness, Some demo_pad_damping, Some demo_pad_mass).

Lemma area_R : @b_A R demo_rail = 696 / 100000.
Proof. unfold demo_rail. cbn [b_A]. rewrite ndec_R. reflexivity. Qed.
Lemma inertia_R : @b_I R demo_rail = 224 / 10000000.
Proof. unfold demo_rail. cbn [b_I]. rewrite ndec_R. reflexivity. Qed.

Lemma demo_rail_good : good_rail demo_rail.
Proof. unfold good_rail, fixed_ends. rewrite area_R, inertia_R. cbn. repeat split; rnum; lra. Qed.
Lemma pad_good : good_rod pad_values.
Proof. unfold good_rod, opt_nonneg, pad_values, demo_pad_stiffness, demo_pad_damping, demo_pad_mass. cbn. repeat split; rnum; lra. Qed.

Lemma mass_ok : 0 <= @demo_sleeper_mass R _ /\ 1 / 100000000 < @demo_sleeper_mass R _.
Proof. unfold demo_sleeper_mass. rnum. lra. Qed.
Lemma pad_above : 1 / 100000000 < fst (fst pad_values).
Proof. unfold pad_values, demo_pad_stiffness. cbn [fst]. rnum. lra. Qed.

Lemma demo_above l : 1 / 100 <= l <= 1000 -> above_tolerance l demo_rail.
Proof.
  intros [h1 h2]. assert (l2 : 1 / 10000 <= l * l <= 1000000) by nra. assert (l3 : 1 / 1000000 <= l * l * l <= 1000000000) by nra.
  unfold above_tolerance, shear_ratio. rewrite area_R, inertia_R. cbn [b_E b_rho b_shear_factor demo_rail]. rnum. destruct (Rlt_dec 0 (IZR 0)) as [q|_]; [lra|].
  assert (big : forall a b x, 0 < b -> 0 < x -> a * x < b -> a < b / x).
  { intros a b x hb hx g. apply Rmult_lt_reg_r with x; [exact hx|]. unfold Rdiv. rewrite Rmult_assoc, Rinv_l by lra. lra. }
  repeat split; try (apply big; lra); lra.
Qed.

(** ** the values of the soil *)

Lemma at_place {A} (l : list A) i d : (i < length l)%nat -> at_idx l i = Ok (nth i l d).
Proof. intros h. unfold at_idx. rewrite (nth_error_nth' l d h). reflexivity. Qed.
Lemma nsum_times {A} c (f : A -> R) l : nsum (map (fun a => c * f a) l) = c * nsum (map f l).
Proof. induction l as [|a l IH]; cbn [map nsum]; rnum; [ring|]. rewrite IH. ring. Qed.

Definition soil_at (d : R) (stiffness damping : list R) (i : nat) : R * R := (nth i stiffness 0 * d, nth i damping 0 * d).

Lemma soil_given d n stiffness damping : (n <= length stiffness)%nat -> (n <= length damping)%nat ->
  assign_soil n (soil_parameters d stiffness damping) = Ok (map (soil_at d stiffness damping) (seq 0 n)).
Proof.
  intros h1 h2. unfold assign_soil, soil_parameters. cbn [fst snd]. apply mapr_map. intros i hi. apply in_seq in hi.
  rewrite (at_place _ i 0), (at_place (map _ damping) i 0) by (rewrite map_length; lia). cbn [rbind]. rewrite !(nth_map0 _ _ i 0) by lia. reflexivity.
Qed.

Lemma soil_missing d n stiffness damping : (length stiffness < n)%nat \/ (length damping < n)%nat ->
  assign_soil n (soil_parameters d stiffness damping) = Err ErrIndex.
Proof.
  intros h. unfold assign_soil, soil_parameters. cbn [fst snd].
  assert (g : forall m k, (length stiffness < k + m)%nat \/ (length damping < k + m)%nat -> (k <= length stiffness)%nat -> (k <= length damping)%nat ->
    mapr (fun idx => do k <- at_idx (map (fun s => nmul s d) stiffness) idx ; do c <- at_idx (map (fun s => nmul s d) damping) idx ; Ok (k, c)) (seq k m) = Err ErrIndex).
  { induction m as [|m IH]; intros k g1 g2 g3; [lia|]. cbn [seq mapr].
    destruct (Nat.eq_dec k (length stiffness)) as [e|e].
    - unfold at_idx at 1. rewrite (proj2 (nth_error_None _ _)) by (rewrite map_length; lia). reflexivity.
    - rewrite (at_place _ k 0) by (rewrite map_length; lia). cbn [rbind]. destruct (Nat.eq_dec k (length damping)) as [e2|e2].
      + unfold at_idx at 1. rewrite (proj2 (nth_error_None _ _)) by (rewrite map_length; lia). reflexivity.
      + rewrite (at_place _ k 0) by (rewrite map_length; lia). cbn [rbind]. rewrite IH by lia. reflexivity. }
  apply g; cbn; lia.
Qed.

Lemma force_of d (parts : list (list nat * list (nat * nat))) (u : nat -> dir -> R) damping : forall stiffness, (length parts <= length stiffness)%nat ->
  nsum (map (fun q => nsum (map (fun e => stiffness_of (snd q) * u (fst e) DY) (snd (fst q))))
    (combine parts (map (fun i => let v := soil_at d stiffness damping i in (fst v, Some (snd v), @None R)) (seq 0 (length parts))))) = soil_force d (map snd parts) stiffness u.
Proof.
  revert damping. induction parts as [|p q IH]; intros damping stiffness hl; [reflexivity|]. destruct stiffness as [|s stiffness]; [cbn in hl; lia|].
  cbn [length seq map combine nsum fold_right]. unfold soil_force. cbn [map combine]. fold (soil_force d (map snd q) stiffness u).
  change (nsum (?a :: ?l)) with (nadd a (nsum l)).
  rewrite <- seq_shift, map_map. cbn [fst snd soil_at stiffness_of nth].
  match goal with |- context [combine q ?l] => replace l with (map (fun x => let v := soil_at d stiffness (tl damping) x in (fst v, Some (snd v), @None R)) (seq 0 (length q))) end.
  2: { apply map_ext. intros i. cbn [soil_at fst snd nth]. destruct damping as [|c damping]; [destruct i|]; reflexivity. }
  specialize (IH (tl damping) stiffness ltac:(cbn in hl; lia)). cbv zeta in IH |- *. unfold soil_force in IH. rnum. rewrite IH. f_equal.
  apply nsum_times.
Qed.

(** ** what the script sets up *)

Definition demo_specs (ms : list nat) : list (nat * R) := map (fun m => (m, 1)) ms.
Definition demo_soils (d : R) (n : nat) (stiffness damping : list R) : list (R * option R * option R) :=
  map (fun i => let v := soil_at d stiffness damping i in (fst v, Some (snd v), None)) (seq 0 n).

Lemma specs_count ms : sleeper_count (demo_specs ms) = list_sum ms.
Proof. unfold sleeper_count, demo_specs. rewrite map_map, map_id. reflexivity. Qed.

Lemma geometry_is fact nb ms : 0 < fact -> Forall2 (whole_groups fact) nb ms -> demo_geometry nb fact = Ok (map Z.of_nat ms, 6 / 10 * fact).
Proof.
  intros hf hg. unfold demo_geometry. destruct (neqbP fact (lit 0)) as [q|_]; [rnum; lra|]. cbn [andb]. f_equal. f_equal.
  - induction hg as [|n m nb ms h1 h2 IH]; [reflexivity|]. cbn [map]. f_equal; [|exact IH]. unfold whole_groups in h1. unfold ntrunc. pose proof (pos_INR m) as hp.
    match goal with |- context [nleb ?a ?b] => destruct (nlebP a b) as [_|g] end; [|rnum; lra]. rnum. apply nfloor_unique. rewrite <- INR_IZR_INZ. exact h1.
Qed.

Lemma groups_length fact nb ms : Forall2 (whole_groups fact) nb ms -> length ms = length nb.
Proof. intros g. induction g; cbn; congruence. Qed.

Lemma segments_ok ms : (forall m, In m ms -> (1 <= m)%nat) -> (2 <= list_sum ms)%nat -> segments (demo_specs ms).
Proof.
  intros h1 h2. split; [|rewrite specs_count; exact h2]. intros n depth hin. apply in_map_iff in hin. destruct hin as [m [e hm]]. injection e as <- <-. split; [apply h1; exact hm|lra].
Qed.

Lemma soils_good d n stiffness damping : 0 < d -> (n <= length stiffness)%nat -> Forall (fun k => 0 < k) stiffness -> Forall (fun c => 0 <= c) damping ->
  Forall good_rod (demo_soils d n stiffness damping).
Proof.
  intros hd hn hs hc. apply Forall_forall. intros v hv. apply in_map_iff in hv. destruct hv as [i [<- hi]]. apply in_seq in hi. unfold good_rod, opt_nonneg, soil_at. cbn [fst snd].
  rewrite Forall_forall in hs, hc. split; [|split; [|exact I]].
  - apply Rmult_lt_0_compat; [|exact hd]. apply hs. apply nth_In. lia.
  - apply Rmult_le_pos; [|lra]. destruct (Nat.lt_ge_cases i (length damping)) as [g|g]; [apply hc, nth_In; exact g|]. rewrite nth_overflow by exact g. lra.
Qed.

Lemma demo_is h r nb fact ms stiffness damping j c mesh cs : 0 < fact -> Forall2 (whole_groups fact) nb ms -> (2 <= list_sum ms)%nat ->
  (length nb <= length stiffness)%nat -> (length nb <= length damping)%nat -> length (jn_soil j) = length nb -> jn_rail_nodes j <> [] ->
  joins h (demo_specs ms) (6 / 10 * fact) r j c mesh -> script_constraints j c cs ->
  demo_track h r nb fact stiffness damping =
    Ok (mkDemoModel j (joined_mesh c mesh) (joined_parts j demo_rail pad_values demo_sleeper_mass (demo_soils (6 / 10 * fact) (length nb) stiffness damping)) cs).
Proof.
  intros hf hg hs h1 h2 hn hr [ts [els [e1 e2]]] [bottoms [e3 ->]]. unfold demo_track. rewrite (geometry_is fact nb ms hf hg). cbn [rbind].
  replace (map (fun n => (Z.to_nat n, lit 1)) (map Z.of_nat ms)) with (demo_specs ms) by (rewrite map_map; apply map_ext; intros m; rewrite Nat2Z.id; reflexivity).
  rewrite e1. cbn [rbind]. rewrite e2. cbn [rbind]. rewrite e3. cbn [rbind]. rewrite hn, soil_given by assumption. cbn [rbind]. unfold demo_sides.
  destruct (jn_rail_nodes j) as [|n q] eqn:er; [congruence|]. cbn [rbind]. unfold joined_parts, joined_sides, joined_mesh, springs, pad_values, demo_soils. rewrite er. cbn [hd fst snd].
  do 4 f_equal. do 3 f_equal. clear. generalize (seq 0 (length nb)). generalize (jn_soil j).
  intros l. induction l as [|p l IH]; intros [|i s]; try reflexivity. cbn [map combine]. f_equal. apply IH.
Qed.

Section Set_up.
  Context (h : tri Z -> Z) (r : nat) (nb : list Z) (fact : R) (ms : list nat) (stiffness damping : list R).
  Let d := 6 / 10 * fact.
  Hypothesis hr : (1 <= r)%nat.
  Hypothesis hd : 1 / 100 <= d / INR r <= 1000.
  Hypothesis hg : Forall2 (whole_groups fact) nb ms.
  Hypothesis hm : forall m, In m ms -> (1 <= m)%nat.
  Hypothesis hs : (2 <= list_sum ms)%nat.
  Hypothesis h1 : (length nb <= length stiffness)%nat.
  Hypothesis h2 : (length nb <= length damping)%nat.
  Hypothesis h3 : Forall (fun k => 0 < k) stiffness.
  Hypothesis h4 : Forall (fun c => 0 <= c) damping.

  Let soils := demo_soils d (length nb) stiffness damping.

  Lemma r_pos : 0 < INR r.
  Proof using hr. clear - hr. apply lt_0_INR. lia. Qed.
  Lemma fact_pos : 0 < fact.
  Proof using hr hd.
    pose proof r_pos as g. unfold d in hd. destruct hd as [g1 _]. apply Rmult_le_compat_r with (r := INR r) in g1; [|lra]. unfold Rdiv in g1 at 2. rewrite Rmult_assoc, Rinv_l in g1 by lra.
    rewrite Rmult_1_r in g1. nra.
  Qed.
  Lemma specs_length : length (demo_specs ms) = length nb.
  Proof. unfold demo_specs. rewrite map_length. exact (groups_length fact nb ms hg). Qed.
  Lemma soils_length : length soils = length (demo_specs ms).
  Proof. unfold soils, demo_soils. rewrite map_length, seq_length, specs_length. reflexivity. Qed.

  Lemma built : exists j c mesh cs, joins h (demo_specs ms) d r j c mesh /\ script_constraints j c cs /\
    length (jn_soil j) = length nb /\ jn_rail_nodes j <> [].
  Proof using hr hd hg hm hs.
    clear h1 h2 h3 h4 soils. assert (hd' : 1 / 1000000000 < d / INR r) by lra.
    destruct (C126_well_posed h (demo_specs ms) d r demo_rail pad_values demo_sleeper_mass (repeat (1, None, None) (length (demo_specs ms))) [] (mkDamping false 0 0 0) hr hd' (segments_ok ms hm hs) demo_rail_good pad_good
      (proj1 mass_ok)) as [j [c [mesh [cs [g1 [g2 g3]]]]]].
    - apply Forall_forall. intros v hv. apply repeat_spec in hv. subst v. unfold good_rod, opt_nonneg. cbn. repeat split; lra.
    - apply repeat_length.
    - cbn. intros e. discriminate e.
    - exists j, c, mesh, cs. split; [exact g1|]. split; [exact g2|].
      destruct (joined_line h _ d r j c mesh hr hd' (segments_ok ms hm hs) g1) as [_ [hlen hl]]. split; [rewrite hlen; apply specs_length|].
      intros e. pose proof (ln_long _ _ _ _ hl) as g. rewrite e in g. cbn in g. lia.
  Qed.

  Lemma set_up : exists j c mesh cs, joins h (demo_specs ms) d r j c mesh /\ script_constraints j c cs /\
    demo_track h r nb fact stiffness damping = Ok (mkDemoModel j (joined_mesh c mesh) (joined_parts j demo_rail pad_values demo_sleeper_mass soils) cs).
  Proof.
    destruct built as [j [c [mesh [cs [g1 [g2 [g3 g4]]]]]]]. exists j, c, mesh, cs. split; [exact g1|]. split; [exact g2|].
    exact (demo_is h r nb fact ms stiffness damping j c mesh cs fact_pos hg hs h1 h2 g3 g4 g1 g2).
  Qed.
End Set_up.

(** ** what is built *)

(** C142: the track is built; it has the expected number of sleepers, each segment its own and each sleeper one element of soil under it,
    one metre deep; neighbouring sleepers of a segment are [d] apart *)
Theorem C142_built h r nb fact ms stiffness damping : let d := 6 / 10 * fact in
  (1 <= r)%nat -> 1 / 100 <= d / INR r <= 1000 -> Forall2 (whole_groups fact) nb ms -> (forall m, In m ms -> (1 <= m)%nat) -> (2 <= list_sum ms)%nat ->
  (length nb <= length stiffness)%nat -> (length nb <= length damping)%nat ->
  exists t, demo_track h r nb fact stiffness damping = Ok t /\
    let j := dm_joined t in
    length (jn_sleepers j) = list_sum ms /\
    Forall2 (fun part m => length (snd part) = m /\ forall a b, In (a, b) (snd part) -> xy (dm_nodes t) b = (fst (xy (dm_nodes t) a), -2)) (jn_soil j) ms /\
    map fst (flat_map snd (jn_soil j)) = jn_sleepers j /\
    map (xy (dm_nodes t)) (jn_sleepers j) = map (fun x => (x, -1)) (sleeper_places (2 * d - d / INR r) d 0 (demo_specs ms)).
Proof.
  intros d hr hd hg hm hs h1 h2. destruct (set_up h r nb fact ms stiffness damping hr hd hg hm hs h1 h2) as [j [c [mesh [cs [g1 [g2 g3]]]]]].
  eexists. split; [exact g3|]. cbn [dm_joined dm_nodes]. assert (hd' : 1 / 1000000000 < d / INR r) by lra.
  pose proof (joins_laid h _ d r j c mesh hr hd' (segments_ok ms hm hs) g1) as hl.
  assert (hxy : forall p, (p < length mesh)%nat -> xy (joined_mesh c mesh) p = (tx (c p), ty (c p))).
  { intros p hp. rewrite (la_mesh _ _ _ _ _ _ hl). unfold joined_mesh, xy, reorder_node_ids. rewrite reorder_from_nth, nth_error_map.
    rewrite (nth_error_nth' _ 0%nat) by (rewrite seq_length; exact hp). rewrite seq_nth by exact hp. reflexivity. }
  assert (hin : forall p, In p (jn_sleepers j) \/ In p (soil_ends j) -> (p < length mesh)%nat).
  { intros p hp. assert (g : In p (seq 0 (length mesh))); [|apply in_seq in g; lia]. apply (Permutation_in _ (la_all _ _ _ _ _ _ hl)). apply in_or_app. right. apply in_or_app. exact hp. }
  assert (hsl : map (xy (joined_mesh c mesh)) (jn_sleepers j) = map (fun x => (x, -1)) (sleeper_places (2 * d - d / INR r) d 0 (demo_specs ms))).
  { transitivity (map (fun q => (tx q, ty q)) (map c (jn_sleepers j))).
    - rewrite map_map. apply map_ext_in. intros p hp. apply hxy, hin. left. exact hp.
    - rewrite (la_sleepers _ _ _ _ _ _ hl), map_map. reflexivity. }
  split; [|split; [|split; [exact (la_under _ _ _ _ _ _ hl)|exact hsl]]].
  - rewrite <- (la_under _ _ _ _ _ _ hl), map_length. pose proof (la_soil _ _ _ _ _ _ hl) as g. clear - g. unfold demo_specs in g. revert g. generalize (jn_soil j).
    induction ms as [|m q IH]; intros l g; inversion g as [|part spec l' q' k1 k2 e1 e2]; subst; [reflexivity|]. cbn [flat_map]. rewrite app_length, (IH _ k2). destruct k1 as [k1 _]. cbn [fst] in k1. rewrite k1. reflexivity.
  - pose proof (la_soil _ _ _ _ _ _ hl) as g. pose proof (la_under _ _ _ _ _ _ hl) as g'.
    assert (hp : forall part e, In part (jn_soil j) -> In e (snd part) -> (fst e < length mesh)%nat /\ (snd e < length mesh)%nat).
    { intros part e k1 k2. split; apply hin; [left; rewrite <- g'|right; unfold soil_ends]; apply in_map, in_flat_map; eauto. }
    clear - g hp hxy. unfold demo_specs in g. revert g hp. generalize (jn_soil j).
    induction ms as [|m q IH]; intros l g hp; inversion g as [|part spec l' q' k1 k2 e1 e2]; subst; [constructor|]. constructor; [|apply IH; [exact k2|intros part' e p1 p2; apply (hp part' e); [right; exact p1|exact p2]]].
    destruct k1 as [k1 [_ k3]]. split; [exact k1|]. intros a b hab. destruct (hp part (a, b) (or_introl eq_refl) hab) as [p1 p2]. cbn [fst snd] in p1, p2, k3. rewrite !hxy by assumption. rewrite (k3 a b hab). cbn. f_equal. lra.
Qed.
Print Assumptions C142_built.

(** ** what can be calculated *)

(** C142: the system of this track has three numbers for each node of the rail (two at its ends) and one for each sleeper, exactly for the
    directions that are free; the position of rest under any loads exists and is unique, and so is the answer of every equation that the
    solvers solve *)
Theorem C142_answers h r nb fact ms stiffness damping ls da t : let d := 6 / 10 * fact in
  (1 <= r)%nat -> 1 / 100 <= d / INR r <= 1000 -> Forall2 (whole_groups fact) nb ms -> (forall m, In m ms -> (1 <= m)%nat) -> (2 <= list_sum ms)%nat ->
  (length nb <= length stiffness)%nat -> (length nb <= length damping)%nat -> Forall (fun k => 0 < k) stiffness -> Forall (fun c => 0 <= c) damping ->
  (da_on da = true -> 0 <= da_ratio da /\ 0 < da_one da /\ 0 < da_two da) ->
  demo_track h r nb fact stiffness damping = Ok t -> (forall l i, In l ls -> In i (ld_nodes l) -> (i < length (dm_nodes t))%nat) ->
  exists s ns' k, initialise_system (dm_nodes t) (dm_parts t) ls (dm_constraints t) da = Ok (s, ns', k) /\
    (k = 3 * (list_sum ms * r + (length ms - 1) * (r - 1)) + list_sum ms - 2)%nat /\
    (forall p e, number_of ns' p e <> None <-> free_to_move (dm_joined t) p e) /\
    (exists x, in_balance s k x /\ forall y, in_balance s k y -> forall i, (i < k)%nat -> y i = x i) /\
    (forall a m c f, 0 < a -> 0 <= m -> 0 <= c ->
      let mat i j := a * me (gK s) i j + m * me (gM s) i j + c * me (gC s) i j in
      exists x, (forall i, (i < k)%nat -> mulv k mat x i = f i) /\
        forall y, (forall i, (i < k)%nat -> mulv k mat y i = f i) -> forall i, (i < k)%nat -> y i = x i).
Proof.
  intros d hr hd hg hm hs h1 h2 h3 h4 hda ht hl. destruct (set_up h r nb fact ms stiffness damping hr hd hg hm hs h1 h2) as [j [c [mesh [cs [g1 [g2 g3]]]]]].
  rewrite g3 in ht. injection ht as <-. cbn [dm_nodes dm_parts dm_constraints dm_joined] in *. fold d in g1, g3.
  pose proof (fact_pos r fact hr hd) as hf. assert (hd' : 1 / 1000000000 < d / INR r) by lra. assert (hd0 : 0 < d) by (unfold d; lra).
  pose proof (segments_ok ms hm hs) as hseg. pose proof (soils_good d _ _ _ hd0 h1 h3 h4) as hso. pose proof (soils_length nb fact ms stiffness damping hg) as hsl. fold d in hsl.
  destruct (C131_one_answer h (demo_specs ms) d r demo_rail pad_values demo_sleeper_mass (demo_soils d (length nb) stiffness damping) ls da hr hd' hseg demo_rail_good pad_good
    (proj1 mass_ok) hso hsl hda) as [j' [c' [mesh' [cs' [k1 [k2 k3]]]]]].
  assert (e : j' = j /\ c' = c /\ mesh' = mesh /\ cs' = cs).
  { destruct g1 as [ts [els [a1 a2]]], k1 as [ts' [els' [b1 b2]]]. rewrite a1 in b1. injection b1 as <-. rewrite a2 in b2. injection b2 as <- <- <- _.
    destruct g2 as [bo [a3 ->]], k2 as [bo' [b3 ->]]. rewrite a3 in b3. injection b3 as <-. auto. }
  destruct e as [-> [-> [-> ->]]]. destruct k3 as [s [ns' [k [k3 [k4 k5]]]]].
  { intros l i q1 q2. specialize (hl l i q1 q2). unfold joined_mesh, reorder_node_ids in hl. rewrite reorder_from_length, map_length in hl. exact hl. }
  exists s, ns', k. split; [exact k3|].
  pose proof (C135_count h _ d r j c mesh _ _ _ _ ls cs da s ns' k hr hd' hseg g1 demo_rail_good pad_good hso hsl g2 k3 (demo_above _ hd) pad_above (proj2 mass_ok)) as hk.
  rewrite specs_count in hk. unfold demo_specs in hk. rewrite map_length in hk. split; [exact hk|].
  split; [|split; [exact k4|exact k5]].
  exact (C135_directions h _ d r j c mesh _ _ _ _ ls cs da s ns' k hr hd' hseg g1 demo_rail_good pad_good hso hsl g2 k3 (demo_above _ hd) pad_above (proj2 mass_ok)).
Qed.
Print Assumptions C142_answers.

(** C142: at rest the soil carries the whole load: for each segment its stiffness per metre times the distance of sleepers times what its
    sleepers move *)
Theorem C142_carries h r nb fact ms stiffness damping ls da t s ns' k x : let d := 6 / 10 * fact in
  (1 <= r)%nat -> 1 / 100 <= d / INR r <= 1000 -> Forall2 (whole_groups fact) nb ms -> (forall m, In m ms -> (1 <= m)%nat) -> (2 <= list_sum ms)%nat ->
  (length nb <= length stiffness)%nat -> (length nb <= length damping)%nat -> Forall (fun k => 0 < k) stiffness -> Forall (fun c => 0 <= c) damping ->
  demo_track h r nb fact stiffness damping = Ok t -> initialise_system (dm_nodes t) (dm_parts t) ls (dm_constraints t) da = Ok (s, ns', k) ->
  Forall plain_load ls -> (forall l i, In l ls -> In i (ld_nodes l) -> In i (jn_rail_nodes (dm_joined t)) \/ In i (jn_sleepers (dm_joined t))) ->
  in_balance s k x ->
  total_load ls = soil_force d (map snd (jn_soil (dm_joined t))) stiffness (field_of ns' x).
Proof.
  intros d hr hd hg hm hs h1 h2 h3 h4 ht hi hp hl hb. destruct (set_up h r nb fact ms stiffness damping hr hd hg hm hs h1 h2) as [j [c [mesh [cs [g1 [g2 g3]]]]]].
  rewrite g3 in ht. injection ht as <-. cbn [dm_nodes dm_parts dm_constraints dm_joined] in *. fold d in g1, g3, hi.
  pose proof (fact_pos r fact hr hd) as hf. assert (hd' : 1 / 1000000000 < d / INR r) by lra. assert (hd0 : 0 < d) by (unfold d; lra).
  pose proof (segments_ok ms hm hs) as hseg. pose proof (soils_good d _ _ _ hd0 h1 h3 h4) as hso. pose proof (soils_length nb fact ms stiffness damping hg) as hsl. fold d in hsl.
  destruct (demo_above _ hd) as [_ [_ [t3 [t4 _]]]].
  pose proof (C125_scripts h _ d r j c mesh _ _ _ _ ls cs da s ns' k hr hd' hseg g1 demo_rail_good pad_good hso hsl g2 hi t3 t4 pad_above (proj2 mass_ok)) as hst.
  rewrite (C125_joined h _ d r j c mesh _ _ _ _ ls cs da s ns' k x hr hd' hseg g1 demo_rail_good pad_good (proj1 mass_ok) hso hsl hi hst hp hl hb).
  destruct (joined_line h _ d r j c mesh hr hd' hseg g1) as [_ [hlen _]]. rewrite (specs_length nb fact ms hg) in hlen.
  unfold soils_sum, demo_soils. rewrite <- hlen. apply force_of. rewrite hlen. exact h1.
Qed.
Print Assumptions C142_carries.

(** ** which values of the soil are used *)

(** C142: values of the soil after those of the last segment are not used *)
Theorem C142_extra h r nb fact ms stiffness damping stiffness' damping' : let d := 6 / 10 * fact in
  (1 <= r)%nat -> 1 / 100 <= d / INR r <= 1000 -> Forall2 (whole_groups fact) nb ms -> (forall m, In m ms -> (1 <= m)%nat) -> (2 <= list_sum ms)%nat ->
  length stiffness = length nb -> length damping = length nb ->
  demo_track h r nb fact (stiffness ++ stiffness') (damping ++ damping') = demo_track h r nb fact stiffness damping.
Proof.
  intros d hr hd hg hm hs h1 h2. destruct (built h r nb fact ms hr hd hg hm hs) as [j [c [mesh [cs [g1 [g2 [g3 g4]]]]]]]. pose proof (fact_pos r fact hr hd) as hf.
  rewrite (demo_is h r nb fact ms (stiffness ++ stiffness') (damping ++ damping') j c mesh cs), (demo_is h r nb fact ms stiffness damping j c mesh cs); try assumption; try (rewrite ?app_length; lia).
  do 3 f_equal. unfold demo_soils. apply map_ext_in. intros i hi. apply in_seq in hi. unfold soil_at. rewrite !app_nth1 by lia. reflexivity.
Qed.
Print Assumptions C142_extra.

(** C142: with fewer values of the soil than segments the script ends with an IndexError *)
Theorem C142_too_few h r nb fact ms stiffness damping : let d := 6 / 10 * fact in
  (1 <= r)%nat -> 1 / 100 <= d / INR r <= 1000 -> Forall2 (whole_groups fact) nb ms -> (forall m, In m ms -> (1 <= m)%nat) -> (2 <= list_sum ms)%nat ->
  (length stiffness < length nb)%nat \/ (length damping < length nb)%nat ->
  demo_track h r nb fact stiffness damping = Err ErrIndex.
Proof.
  intros d hr hd hg hm hs hfew. destruct (built h r nb fact ms hr hd hg hm hs) as [j [c [mesh [cs [[ts [els [e1 e2]]] [[bottoms [e3 _]] [g3 _]]]]]]]. pose proof (fact_pos r fact hr hd) as hf.
  unfold demo_track. rewrite (geometry_is fact nb ms hf hg). cbn [rbind].
  replace (map (fun n => (Z.to_nat n, lit 1)) (map Z.of_nat ms)) with (demo_specs ms) by (rewrite map_map; apply map_ext; intros m; rewrite Nat2Z.id; reflexivity).
  rewrite e1. cbn [rbind]. rewrite e2. cbn [rbind]. rewrite e3. cbn [rbind]. rewrite g3, soil_missing by exact hfew. reflexivity.
Qed.
Print Assumptions C142_too_few.

(** ** segments without sleepers *)

Lemma empty_rail h base specs d r ts depth : create_tracks h base specs d r = Ok ts -> In (0%nat, depth) specs -> exists t, In t ts /\ tk_rail_nodes (T := R) t = [].
Proof.
  revert base ts. induction specs as [|[n z] q IH]; intros base ts e hin; [destruct hin|]. cbn [create_tracks] in e.
  destruct (create_horizontal_track h base n d z r) as [t|] eqn:et; [|discriminate e]. cbn [rbind] in e.
  destruct (create_tracks h (base + length (tk_objects t)) q d r) as [ts'|] eqn:eq; [|discriminate e]. cbn [rbind] in e. injection e as <-. destruct hin as [hin|hin].
  - injection hin as -> ->. exists t. split; [left; reflexivity|]. unfold create_horizontal_track in et. rewrite Nat.eqb_refl, andb_false_r in et. injection et as <-. reflexivity.
  - destruct (IH _ _ eq hin) as [t' [k1 k2]]. exists t'. split; [right; exact k1|exact k2].
Qed.

Lemma join_fails r (ts : list (track R)) : forall c fresh j added els, (exists t, In t ts /\ tk_rail_nodes t = []) \/ (jn_rail_nodes j = [] /\ ts <> []) ->
  join_tracks c fresh r j ts added els = Err ErrIndex.
Proof.
  induction ts as [|t q IH]; intros c fresh j added els hg; [destruct hg as [[t [[] _]]|[_ g]]; congruence|]. cbn [join_tracks]. unfold join_track.
  destruct (rev (jn_rail_nodes j)) as [|a l] eqn:ej; [reflexivity|]. destruct (tk_rail_nodes t) as [|b l'] eqn:et; [reflexivity|]. cbn [rbind]. apply IH. left.
  destruct hg as [[t' [[<-|k1] k2]]|[k1 _]]; [congruence|eauto|]. rewrite k1 in ej. discriminate ej.
Qed.

(** C142: a segment with fewer sleepers than one group is not modelled as empty: the script ends with an error *)
Theorem C142_empty_segment h r nb fact ms stiffness damping : 0 < fact -> Forall2 (whole_groups fact) nb ms -> In 0%nat ms ->
  exists e, demo_track h r nb fact stiffness damping = Err e.
Proof.
  intros hf hg hin. unfold demo_track. rewrite (geometry_is fact nb ms hf hg). cbn [rbind].
  replace (map (fun n => (Z.to_nat n, lit 1)) (map Z.of_nat ms)) with (demo_specs ms) by (rewrite map_map; apply map_ext; intros m; rewrite Nat2Z.id; reflexivity).
  destruct (create_tracks h 0 (demo_specs ms) (6 / 10 * fact) r) as [ts|e] eqn:et; [|eexists; reflexivity]. cbn [rbind].
  destruct (empty_rail h 0 (demo_specs ms) (6 / 10 * fact) r ts 1 et ltac:(apply in_map_iff; exists 0%nat; auto)) as [t [k1 k2]].
  unfold combine_horizontal_tracks. destruct ts as [|t0 q]; [destruct k1|]. destruct (move_meshes _ _ _ _) as [c|e]; [|eexists; reflexivity]. cbn [rbind].
  destruct q as [|t1 q].
  - destruct k1 as [->|[]]. cbn [join_tracks rbind]. cbn [jn_rail_nodes joined_of jn_soil]. rewrite k2.
    destruct (mapr _ _) as [b|e]; [|eexists; reflexivity]. cbn [rbind]. destruct (assign_soil _ _) as [v|e]; [|eexists; reflexivity]. cbn [rbind demo_sides]. eexists. reflexivity.
  - rewrite join_fails; [eexists; reflexivity|]. destruct k1 as [<-|k1]; [right; split; [exact k2|discriminate]|left; eauto].
Qed.
Print Assumptions C142_empty_segment.

(** ** the script as it is *)

(** C142: the main of demo.py: two segments of 500 sleepers with two rail elements per sleeper.  The track is built, has 7001 numbers and
    one position of rest under any loads on its nodes; the 501st sleeper (the first of the second segment) lies 0.9 m behind the 500th *)
Theorem C142_demo h ls : exists t, demo_track h 2 [500; 500]%Z 1 [132000000; 2140000000] [30000; 20000] = Ok t /\
  nth 499 (map (fun p => fst (xy (dm_nodes t) p)) (jn_sleepers (dm_joined t))) 0 = 2994 / 10 /\
  nth 500 (map (fun p => fst (xy (dm_nodes t) p)) (jn_sleepers (dm_joined t))) 0 = 3003 / 10 /\
  ((forall l i, In l ls -> In i (ld_nodes l) -> (i < length (dm_nodes t))%nat) ->
   exists s ns' k, initialise_system (dm_nodes t) (dm_parts t) ls (dm_constraints t) demo_damping = Ok (s, ns', k) /\ Z.of_nat k = 7001%Z /\
     (exists x, in_balance s k x /\ forall y, in_balance s k y -> forall i, (i < k)%nat -> y i = x i) /\
     (Forall plain_load ls -> (forall l i, In l ls -> In i (ld_nodes l) -> In i (jn_rail_nodes (dm_joined t)) \/ In i (jn_sleepers (dm_joined t))) ->
      forall x, in_balance s k x ->
      exists first second, map snd (jn_soil (dm_joined t)) = [first; second] /\ length first = 500%nat /\ length second = 500%nat /\
      total_load ls = 79200000 * nsum (map (fun e => field_of ns' x (fst e) DY) first) + 1284000000 * nsum (map (fun e => field_of ns' x (fst e) DY) second))).
Proof.
  assert (hg : Forall2 (whole_groups 1) [500; 500]%Z [500; 500]%nat).
  { assert (g : whole_groups 1 500 500) by (unfold whole_groups; rewrite (INR_IZR_INZ 500); change (Z.of_nat 500) with 500%Z; lra). constructor; [exact g|constructor; [exact g|constructor]]. }
  assert (hd : 1 / 100 <= 6 / 10 * 1 / INR 2 <= 1000) by (cbn; lra). assert (hm : forall m, In m [500; 500]%nat -> (1 <= m)%nat) by (intros m [<-|[<-|[]]]; lia).
  assert (hs : (2 <= list_sum [500; 500])%nat) by (cbn [list_sum fold_right]; lia).
  destruct (C142_built h 2 _ 1 _ [132000000; 2140000000] [30000; 20000] ltac:(lia) hd hg hm hs ltac:(cbn; lia) ltac:(cbn; lia)) as [t [e1 [e2 [e3 [e4 e5]]]]].
  exists t. split; [exact e1|].
  assert (e6 : map (fun p => fst (xy (dm_nodes t) p)) (jn_sleepers (dm_joined t)) = sleeper_places (2 * (6 / 10 * 1) - 6 / 10 * 1 / INR 2) (6 / 10 * 1) 0 (demo_specs [500; 500]%nat)).
  { rewrite <- (map_map (xy (dm_nodes t)) fst), e5, map_map, map_id. reflexivity. }
  rewrite e6. cbn [demo_specs map sleeper_places]. 
  assert (hl : forall x, length (map (fun i => x + INR i * (6 / 10 * 1)) (seq 0 500)) = 500%nat) by (intros x; rewrite map_length, seq_length; reflexivity).
  split; [|split].
  - rewrite app_nth1 by (rewrite hl; lia). rewrite (nth_map0 _ _ _ 0%nat) by (rewrite seq_length; lia). rewrite seq_nth by lia. rewrite INR_IZR_INZ. change (Z.of_nat (0 + 499)) with 499%Z. lra.
  - rewrite app_nth2 by (rewrite hl; lia). rewrite hl, Nat.sub_diag. rewrite app_nth1 by (rewrite hl; lia). rewrite (nth_map0 _ _ _ 0%nat) by (rewrite seq_length; lia). rewrite seq_nth by lia.
    rewrite !INR_IZR_INZ. change (Z.of_nat (0 + 0)) with 0%Z. change (Z.of_nat (500 - 1)) with 499%Z. change (Z.of_nat 2) with 2%Z. lra.
  - intros hld. assert (h3 : Forall (fun k => 0 < k) [132000000; 2140000000]) by (repeat constructor; lra). assert (h4 : Forall (fun c => 0 <= c) [30000; 20000]) by (repeat constructor; lra).
    destruct (C142_answers h 2 _ 1 _ [132000000; 2140000000] [30000; 20000] ls demo_damping t ltac:(lia) hd hg hm hs ltac:(cbn; lia) ltac:(cbn; lia) h3 h4
      ltac:(intros _; unfold demo_damping; cbn [da_ratio da_one da_two]; rewrite !ndec_R; cbn; lra) e1 hld) as [s [ns' [k [k1 [k2 [_ [k3 _]]]]]]].
    exists s, ns', k. split; [exact k1|]. split; [rewrite k2; cbn [list_sum fold_right length]; lia|]. split; [exact k3|].
    intros hp hon x hb. pose proof (C142_carries h 2 _ 1 _ [132000000; 2140000000] [30000; 20000] ls demo_damping t s ns' k x ltac:(lia) hd hg hm hs ltac:(cbn; lia) ltac:(cbn; lia) h3 h4 e1 k1 hp hon hb) as g.
    destruct (jn_soil (dm_joined t)) as [|p1 [|p2 [|p3 q]]]; inversion e3 as [|a b l l' [a1 _] a2 a3]; subst; inversion a2 as [|a' b' m m' [b1 _] b2 b3]; subst; [|inversion b2].
    exists (snd p1), (snd p2). split; [reflexivity|]. split; [exact a1|]. split; [exact b1|].
    rewrite g. unfold soil_force. cbn [map combine nsum fst snd]. rnum. lra.
Qed.
Print Assumptions C142_demo.

(** the hypotheses can be met with other numbers too: groups of four sleepers; a segment of three sleepers has no whole group *)
Example C142_case h : (exists t, demo_track h 1 [10; 5]%Z 4 [200000000; 100000000; 1] [10000; 0] = Ok t /\ length (jn_sleepers (dm_joined t)) = 3%nat) /\
  demo_track h 1 [10; 5]%Z 4 [200000000] [10000; 0] = Err ErrIndex /\
  (exists e, demo_track h 1 [10; 3]%Z 4 [200000000; 100000000] [10000; 0] = Err e).
Proof.
  assert (g : whole_groups 4 10 2 /\ whole_groups 4 5 1 /\ whole_groups 4 3 0) by (unfold whole_groups; cbn; lra). destruct g as [g1 [g2 g3]].
  assert (hg : Forall2 (whole_groups 4) [10; 5]%Z [2; 1]%nat) by (constructor; [exact g1|constructor; [exact g2|constructor]]).
  assert (hd : 1 / 100 <= 6 / 10 * 4 / INR 1 <= 1000) by (cbn; lra). assert (hm : forall m, In m [2; 1]%nat -> (1 <= m)%nat) by (intros m [<-|[<-|[]]]; lia).
  split; [|split].
  - destruct (C142_built h 1 _ 4 _ [200000000; 100000000; 1] [10000; 0] ltac:(lia) hd hg hm ltac:(cbn; lia) ltac:(cbn; lia) ltac:(cbn; lia)) as [t [e1 [e2 _]]].
    exists t. split; [exact e1|exact e2].
  - apply (C142_too_few h 1 _ 4 _ [200000000] [10000; 0] ltac:(lia) hd hg hm ltac:(cbn; lia)). left. cbn. lia.
  - apply (C142_empty_segment h 1 [10; 3]%Z 4 [2; 0]%nat); [lra| |right; left; reflexivity]. constructor; [exact g1|constructor; [exact g3|constructor]].
Qed.
