(** * Proofs about the initialisation of a whole system *)

From Coq Require Import Reals List Bool ZArith Arith Lia Lra.
From Verif Require Import Num PyBase Model_Geometry Model_System Spec_System Proofs_Dof Proofs_System Model_Element Model_Accumulation
  Proofs_Accumulation Model_Track.
Import ListNotations.
Local Open Scope R_scope.

(** ** the assembly depends on coordinates and numbers only *)

Definition alike (a b : node R) : Prop := n_coord a = n_coord b /\ n_dof a = n_dof b.

Lemma mapr_ext {A B} (f g : A -> res B) l : (forall a, f a = g a) -> mapr f l = mapr g l.
Proof. intros h. induction l as [|a l IH]; [reflexivity|]. cbn. rewrite h, IH. reflexivity. Qed.

Lemma node_at_alike ns ms p : Forall2 alike ns ms ->
  (exists a b, node_at ns p = Ok a /\ node_at ms p = Ok b /\ alike a b) \/ (exists e, node_at ns p = Err e /\ node_at ms p = Err e).
Proof.
  intros h. unfold node_at, at_idx. destruct (nth_error ns p) as [a|] eqn:e.
  - destruct (Forall2_nth _ _ _ _ _ h e) as [b [hb hab]]. rewrite hb. left. eauto.
  - rewrite (Forall2_nth_none _ _ _ _ h e). right. eauto.
Qed.

Lemma nodes_at_alike ns ms ps : Forall2 alike ns ms ->
  (exists a b, mapr (node_at ns) ps = Ok a /\ mapr (node_at ms) ps = Ok b /\ Forall2 alike a b) \/
  (exists e, mapr (node_at ns) ps = Err e /\ mapr (node_at ms) ps = Err e).
Proof.
  intros h. induction ps as [|p ps IH]; cbn; [left; exists [], []; auto|].
  destruct (node_at_alike ns ms p h) as [[a [b [ea [eb hab]]]]|[e [ea eb]]]; rewrite ea, eb; cbn; [|right; eauto].
  destruct IH as [[l [m [el [em hl]]]]|[e [el em]]]; rewrite el, em; cbn; [left; exists (a :: l), (b :: m); auto|right; eauto].
Qed.

Lemma alike_coords l m : Forall2 alike l m -> map (@n_coord R) l = map (@n_coord R) m.
Proof. induction 1 as [|a b l m h1 h2 IH]; [reflexivity|]. cbn. destruct h1 as [-> _]. f_equal. exact IH. Qed.

Lemma initialize_part_coords ns ms p : map (@n_coord R) ns = map (@n_coord R) ms -> initialize_part ns p = initialize_part ms p.
Proof.
  intros h. unfold initialize_part. destruct (ep_kind p) as [| |b|]; try reflexivity.
  assert (e : (do nodes <- mapr (node_at ns) (ep_nodes p) ; Ok (map (@n_coord R) nodes))
              = (do nodes <- mapr (node_at ms) (ep_nodes p) ; Ok (map (@n_coord R) nodes))).
  { induction (ep_nodes p) as [|i l IH]; [reflexivity|]. cbn.
    assert (e1 : (do a <- node_at ns i ; Ok (n_coord a)) = (do a <- node_at ms i ; Ok (n_coord a))).
    { unfold node_at, at_idx. assert (e : nth_error (map (@n_coord R) ns) i = nth_error (map (@n_coord R) ms) i) by (rewrite h; reflexivity).
      rewrite !nth_error_map in e. destruct (nth_error ns i), (nth_error ms i); cbn in *; congruence. }
    destruct (node_at ns i) as [a|x], (node_at ms i) as [b'|y]; cbn in *; try congruence.
    injection e1 as e1. destruct (mapr (node_at ns) l), (mapr (node_at ms) l); cbn in *; try congruence. }
  destruct (mapr (node_at ns) (ep_nodes p)), (mapr (node_at ms) (ep_nodes p)); cbn in *; congruence.
Qed.

Lemma contributions_alike ns ms p aux : Forall2 alike ns ms -> contributions ns p aux = contributions ms p aux.
Proof.
  intros h. unfold contributions. destruct (ep_els p).
  - apply mapr_ext. intros i. destruct (node_at_alike ns ms i h) as [[a [b [ea [eb [hc hd]]]]]|[e [ea eb]]]; rewrite ea, eb; cbn; [|reflexivity].
    unfold node_numbers. rewrite hd. reflexivity.
  - apply mapr_ext. intros i. destruct (node_at_alike ns ms (fst i) h) as [[a [b [ea [eb [hc hd]]]]]|[e [ea eb]]]; rewrite ea, eb; cbn; [|reflexivity].
    destruct (node_at_alike ns ms (snd i) h) as [[a' [b' [ea' [eb' [hc' hd']]]]]|[e [ea' eb']]]; rewrite ea', eb'; cbn; [|reflexivity].
    unfold node_numbers. rewrite hd, hd'. unfold rotated. rewrite hc, hc'. reflexivity.
Qed.

Lemma add_parts_alike ns ms s ps : Forall2 alike ns ms -> add_parts ns s ps = add_parts ms s ps.
Proof.
  intros h. revert s. induction ps as [|p ps IH]; intros s; [reflexivity|]. cbn.
  assert (e : add_part ns s p = add_part ms s p).
  { unfold add_part, add_matrix. destruct (aux_stiffness (ep_kind p)), (aux_mass (ep_kind p)), (aux_damping (ep_kind p));
      rewrite ?(contributions_alike ns ms) by exact h; reflexivity. }
  rewrite e. destruct (add_part ms s p); cbn; [apply IH|reflexivity].
Qed.

Lemma flat_map_alike {A} (f : node R -> list A) l m : Forall2 alike l m -> (forall a b, alike a b -> f a = f b) -> flat_map f l = flat_map f m.
Proof. intros h hf. induction h as [|a b l m hd h IH]; [reflexivity|]. cbn [flat_map]. rewrite (hf a b hd), IH. reflexivity. Qed.

Lemma add_condition_alike f flag l m vals : Forall2 alike l m -> add_condition f (mkCond flag l vals) = add_condition f (mkCond flag m vals).
Proof.
  intros h. unfold add_condition. cbn [c_flag c_nodes c_vals].
  assert (e1 : part_dof_indices flag l = part_dof_indices flag m).
  { unfold part_dof_indices. apply (flat_map_alike _ _ _ h). intros a b [_ hd]. rewrite hd. reflexivity. }
  assert (e2 : part_mask flag l = part_mask flag m).
  { unfold part_mask. apply (flat_map_alike _ _ _ h). intros a b [_ hd]. rewrite hd. reflexivity. }
  rewrite e1, e2. reflexivity.
Qed.

Lemma loads_alike ns ms f ls : Forall2 alike ns ms ->
  (do conds <- mapr (load_cond ns) ls ; Ok (fold_left add_condition conds f)) = (do conds <- mapr (load_cond ms) ls ; Ok (fold_left add_condition conds f)).
Proof.
  intros h. revert f. induction ls as [|l ls IH]; intros f; [reflexivity|]. cbn [mapr].
  unfold load_cond at 1 3. destruct (nodes_at_alike ns ms (ld_nodes l) h) as [[a [b [ea [eb hab]]]]|[e [ea eb]]]; rewrite ea, eb; cbn [rbind]; [|reflexivity].
  specialize (IH (add_condition f (mkCond (ld_flag l) a (ld_vals l)))).
  destruct (mapr (load_cond ns) ls), (mapr (load_cond ms) ls); cbn [rbind fold_left] in *; try congruence.
  rewrite <- (add_condition_alike f (ld_flag l) a b (ld_vals l) hab). exact IH.
Qed.

Lemma number_from_alike s (ns ms : list (node R)) : map (@n_coord R) ns = map (@n_coord R) ms -> Forall2 alike (number_from s ns) (number_from s ms).
Proof.
  revert s ms. induction ns as [|n ns IH]; intros s [|m ms] h; cbn in h; try discriminate; [constructor|].
  injection h as h1 h2. cbn. constructor; [|apply IH; exact h2]. split; [exact h1|reflexivity].
Qed.

Lemma assemble_coords ns ms ps ls s ns1 : map (@n_coord R) ns = map (@n_coord R) ms ->
  assemble_system ns ps ls = Ok (s, ns1) -> assemble_system ms ps ls = Ok (s, number_from 0 ms) /\ ns1 = number_from 0 ns.
Proof.
  intros h e. unfold assemble_system in *.
  rewrite (mapr_ext _ _ ps (fun p => initialize_part_coords ns ms p h)) in e.
  destruct (mapr (initialize_part ms) ps) as [ps'|]; [|discriminate]. cbn [rbind] in *. unfold initialise_ndof in *. rewrite total_ndof in *.
  assert (hl : length ns = length ms) by (rewrite <- (map_length (@n_coord R) ns), h, map_length; reflexivity).
  pose proof (number_from_alike 0 ns ms h) as ha. rewrite (add_parts_alike _ _ _ _ ha), hl in e.
  destruct (add_parts (number_from 0 ms) (zero_system (0 + 3 * length ms)) ps') as [s0|]; [|discriminate]. cbn [rbind] in *.
  pose proof (loads_alike _ _ (gF s0) ls ha) as el.
  destruct (mapr (load_cond (number_from 0 ns)) ls) as [c1|]; [|discriminate].
  destruct (mapr (load_cond (number_from 0 ms)) ls) as [c2|]; [|discriminate]. cbn [rbind] in *. injection el as el. injection e as <- <-.
  rewrite el. auto.
Qed.

(** ** shape of the assembled system *)

Lemma add_to_global_shape g cs (g' : mat R) : add_to_global g cs = Ok g' -> mr g' = mr g /\ mc g' = mc g.
Proof. unfold add_to_global. destruct (forallb _ _); [|discriminate]. intros e. injection e as <-. auto. Qed.

Lemma add_matrix_shape ns p g aux (g' : mat R) : add_matrix ns p g aux = Ok g' -> mr g' = mr g /\ mc g' = mc g.
Proof.
  unfold add_matrix. destruct aux; [|intros e; injection e as <-; auto]. intros e. unbind e. eapply add_to_global_shape; eauto.
Qed.

Lemma add_parts_square ns ps n s s' : square n s -> add_parts ns s ps = Ok s' -> square n s'.
Proof.
  revert s. induction ps as [|p ps IH]; intros s hs e; cbn in e; [injection e as <-; exact hs|].
  unbind e. apply (IH v); [|exact e]. unfold add_part in hv. unbind hv. unbind hv. unbind hv. injection hv as <-.
  apply add_matrix_shape in hv0, hv1, hv2. unfold square in *. cbn. intuition congruence.
Qed.

Lemma add_condition_length (f : list R) c : length (add_condition f c) = length f.
Proof. unfold add_condition, fancy_iadd. apply write_all_length. Qed.
Lemma add_conditions_length (cs : list (cond R)) f : length (fold_left add_condition cs f) = length f.
Proof. revert f. induction cs as [|c cs IH]; intros f; cbn; [reflexivity|]. rewrite IH. apply add_condition_length. Qed.

Lemma assemble_shape ns ps ls s ns1 : assemble_system ns ps ls = Ok (s, ns1) ->
  square (3 * length ns) s /\ ns1 = number_from 0 ns /\ numbered ns1 (3 * length ns).
Proof.
  intros e. destruct (assemble_coords ns ns ps ls s ns1 eq_refl e) as [_ en]. split; [|split; [exact en|]].
  - unfold assemble_system in e. unbind e. unfold initialise_ndof in e. rewrite total_ndof in e. unbind e. unbind e. injection e as <- <-.
    apply (add_parts_square _ _ (3 * length ns)) in hv0; [|unfold square; cbn; rewrite repeat_length; auto 10].
    unfold square in *. cbn. rewrite add_conditions_length. tauto.
  - rewrite en. unfold numbered. rewrite number_from_all. reflexivity.
Qed.

(** ** a second initialisation *)

Lemma insert_unique_sorted x l : Sorted.StronglySorted lt l -> Sorted.StronglySorted lt (insert_unique x l).
Proof.
  intros h. induction h as [|y l h IH hf]; cbn [insert_unique]; [constructor; constructor|].
  destruct (Nat.ltb_spec x y); [|destruct (Nat.eqb_spec x y)].
  - constructor; [constructor; auto|]. constructor; [assumption|]. rewrite Forall_forall in *. intros z hz. specialize (hf z hz). lia.
  - constructor; auto.
  - constructor; [exact IH|]. rewrite Forall_forall in *. intros z hz. apply insert_unique_In in hz. destruct hz as [->|hz]; [lia|auto].
Qed.
Lemma np_unique_sorted l : Sorted.StronglySorted lt (np_unique l).
Proof. induction l as [|x l IH]; [constructor|]. apply insert_unique_sorted, IH. Qed.

Lemma sorted_eq (a b : list nat) : Sorted.StronglySorted lt a -> Sorted.StronglySorted lt b -> (forall k, In k a <-> In k b) -> a = b.
Proof.
  intros ha. revert b. induction ha as [|x a ha IH hx]; intros b hb h.
  - destruct b as [|y b]; [reflexivity|]. destruct (proj2 (h y) (or_introl eq_refl)).
  - destruct hb as [|y b hb hy]; [destruct (proj1 (h x) (or_introl eq_refl))|]. rewrite Forall_forall in hx, hy.
    assert (x = y).
    { destruct (proj1 (h x) (or_introl eq_refl)) as [->|h1]; [reflexivity|]. destruct (proj2 (h y) (or_introl eq_refl)) as [->|h2]; [reflexivity|].
      specialize (hy x h1). specialize (hx y h2). lia. }
    subst y. f_equal. apply IH; [exact hb|]. intros k. split; intros hk.
    + destruct (proj1 (h k) (or_intror hk)) as [->|]; [specialize (hx k hk); lia|assumption].
    + destruct (proj2 (h k) (or_intror hk)) as [->|]; [specialize (hy k hk); lia|assumption].
Qed.

Lemma np_unique_eq a b : (forall k, In k a <-> In k b) -> np_unique a = np_unique b.
Proof. intros h. apply sorted_eq; try apply np_unique_sorted. intros k. rewrite !np_unique_In. apply h. Qed.

Lemma obsolete_eq (s : gsys R) a b : (forall k, In k (obsolete_indices s a) <-> In k (obsolete_indices s b)) -> obsolete_indices s a = obsolete_indices s b.
Proof.
  unfold obsolete_indices. intros h. f_equal. apply sorted_eq; try apply np_unique_sorted. intros k. specialize (h k). rewrite <- !in_rev in h. exact h.
Qed.

(** nodes with the same numbers, and the same flags where the number is kept *)
Definition kept_alike (removed : list nat) (a b : node R) : Prop :=
  n_dof a = n_dof b /\ forall d k, tget (n_dof a) d = Some k -> ~ In k removed -> tget (n_flag a) d = tget (n_flag b) d.

Lemma recalc_alike removed l m j : Forall2 (kept_alike removed) l m ->
  fst (recalc_from removed j l) = fst (recalc_from removed j m) /\
  Forall2 (fun a b => n_dof a = n_dof b /\ n_flag a = n_flag b) (snd (recalc_from removed j l)) (snd (recalc_from removed j m)).
Proof.
  intros h. revert j. induction h as [|a b l m h1 h2 IH]; intros j; [cbn; auto|]. cbn [recalc_from].
  assert (e : fst (recalc_node removed j a) = fst (recalc_node removed j b) /\
              n_dof (snd (recalc_node removed j a)) = n_dof (snd (recalc_node removed j b)) /\
              n_flag (snd (recalc_node removed j a)) = n_flag (snd (recalc_node removed j b))).
  { destruct h1 as [hd hf]. destruct a as [i1 x1 d1 c1 f1 p1], b as [i2 x2 d2 c2 f2 p2]. cbn [n_dof n_flag] in *. subst d2.
    destruct d1 as [ox oy oz], f1 as [fx fy fz], f2 as [gx gy gz].
    assert (hdir : forall d j o, tget (T3 ox oy oz) d = o -> recalc_dir removed j o (tget (T3 fx fy fz) d) = recalc_dir removed j o (tget (T3 gx gy gz) d)).
    { intros d j' o ho. destruct o as [k|]; [|reflexivity]. cbn. destruct (memb k removed) eqn:em; [reflexivity|].
      apply memb_false in em. rewrite (hf d k ho em). reflexivity. }
    pose proof (fun j => hdir DX j ox eq_refl) as hx. pose proof (fun j => hdir DY j oy eq_refl) as hy. pose proof (fun j => hdir DR j oz eq_refl) as hz.
    cbn [tget tx ty tr] in hx, hy, hz. unfold recalc_node. cbn [n_dof n_flag tx ty tr].
    destruct ox as [kx|]; [|destruct oy as [ky|]; [|destruct oz as [kz|]; [|cbn; auto]]];
      rewrite hx; destruct (recalc_dir removed j _ gx) as [[j1 ix] fx'];
      rewrite hy; destruct (recalc_dir removed j1 _ gy) as [[j2 iy] fy'];
      rewrite hz; destruct (recalc_dir removed j2 _ gz) as [[j3 iz] fz']; cbn; auto. }
  destruct (recalc_node removed j a) as [ja a'], (recalc_node removed j b) as [jb b']. cbn [fst snd] in e. destruct e as [<- e].
  specialize (IH ja). destruct (recalc_from removed ja l) as [jl l'], (recalc_from removed ja m) as [jm m']. cbn [fst snd] in *.
  destruct IH as [<- IH]. split; [reflexivity|]. constructor; assumption.
Qed.

Definition listed (cs : list (list nat * tri bool)) (p : nat) : bool := existsb (fun c => memb p (fst c)) cs.

Lemma flag_after_listed cs p d f g : listed cs p = true -> flag_after cs p d f = flag_after cs p d g.
Proof.
  unfold flag_after. revert f g. induction cs as [|c cs IH]; intros f g h; [discriminate|]. cbn in *.
  destruct (memb p (fst c)); [reflexivity|]. apply IH. exact h.
Qed.
Lemma flag_after_unlisted cs p d f : listed cs p = false -> flag_after cs p d f = f.
Proof.
  unfold flag_after. revert f. induction cs as [|c cs IH]; intros f h; [reflexivity|]. cbn in *.
  destruct (memb p (fst c)); [discriminate|]. apply IH. exact h.
Qed.

Lemma number_of_from (ns : list (node R)) p d : (p < length ns)%nat -> number_of (number_from 0 ns) p d = Some (3 * p + match d with DX => 0 | DY => 1 | DR => 2 end)%nat.
Proof.
  intros hp. unfold number_of. destruct (nth_error ns p) as [n|] eqn:e; [|apply nth_error_None in e; lia].
  rewrite (number_from_nth _ _ _ _ e). destruct d; cbn; f_equal; lia.
Qed.
Lemma active_from (ns : list (node R)) s p d : active (number_from s ns) p d = active ns p d.
Proof.
  unfold active. destruct (nth_error ns p) as [n|] eqn:e.
  - rewrite (number_from_nth _ _ _ _ e). reflexivity.
  - rewrite (proj2 (nth_error_None (number_from s ns) p)); [reflexivity|]. rewrite number_from_length. apply nth_error_None. exact e.
Qed.

Lemma Forall2_of_nth {A B} (P : A -> B -> Prop) l m : length l = length m ->
  (forall p a b, nth_error l p = Some a -> nth_error m p = Some b -> P a b) -> Forall2 P l m.
Proof.
  revert m. induction l as [|a l IH]; intros [|b m] hl h; cbn in hl; try discriminate; constructor.
  - apply (h 0%nat); reflexivity.
  - apply IH; [lia|]. intros p x y hx hy. apply (h (S p)); assumption.
Qed.

Lemma number_of_bound (ns : list (node R)) p d k : number_of ns p d = Some k -> (p < length ns)%nat.
Proof. unfold number_of. destruct (nth_error ns p) eqn:e; [|discriminate]. intros _. apply nth_error_Some. congruence. Qed.

Lemma initialise_inv ns ps ls cs da s ns' n : initialise_system ns ps ls cs da = Ok (s, ns', n) ->
  exists s0 st, assemble_system ns ps ls = Ok (s0, number_from 0 ns) /\ square (3 * length ns) s0 /\
    trim_all s0 (fold_left apply_constraint cs (number_from 0 ns)) = Ok (st, ns', n) /\
    s = rayleigh_damping (da_on da) (da_ratio da) (da_one da) (da_two da) st.
Proof.
  intros e. unfold initialise_system in e. unbind e. destruct v as [s0 ns1]. destruct (assemble_shape _ _ _ _ _ hv) as [h1 [-> h3]].
  unbind e. destruct v as [[st ns2] n2]. injection e as <- <- <-. exists s0, st. auto.
Qed.

Lemma from_numbered (ns : list (node R)) : numbered (number_from 0 ns) (3 * length ns).
Proof. unfold numbered. rewrite number_from_all. reflexivity. Qed.

(** what remains, after constraints *)
Lemma initialise_kept ns ps ls cs da s ns' n s0 : initialise_system ns ps ls cs da = Ok (s, ns', n) -> assemble_system ns ps ls = Ok (s0, number_from 0 ns) ->
  length ns' = length ns /\ numbered ns' n /\
  (forall p d, (p < length ns)%nat ->
     let k := (3 * p + match d with DX => 0 | DY => 1 | DR => 2 end)%nat in
     (number_of ns' p d <> None <-> flag_after cs p d (active ns p d) = true /\ 1 / 100000000 < Rabs (me (gM s0) k k) /\ 1 / 100000000 < Rabs (me (gK s0) k k))) /\
  (forall p d, active ns' p d = true <-> number_of ns' p d <> None) /\
  (forall p a, nth_error ns p = Some a -> exists b, nth_error ns' p = Some b /\ same_identity a b).
Proof.
  intros h e0. destruct (initialise_inv _ _ _ _ _ _ _ _ h) as [s1 [st [e1 [hs [ht _]]]]]. rewrite e0 in e1. injection e1 as <-.
  destruct (constrained_trim s0 (number_from 0 ns) cs _ hs (from_numbered ns)) as [s' [m [k [g1 [g2 [g3 [g4 [g5 [g6 g7]]]]]]]]].
  rewrite ht in g1. injection g1 as <- <- <-.
  destruct (constraints_spec cs (number_from 0 ns)) as [c1 [c2 [c3 c4]]]. rewrite number_from_length in c1.
  assert (hid : length ns' = length ns /\ forall p a, nth_error ns p = Some a -> exists b, nth_error ns' p = Some b /\ same_identity a b).
  { unfold trim_all in ht. unbind ht. set (ob := obsolete_indices _ _) in *.
    pose proof (recalc_spec ob (fold_left apply_constraint cs (number_from 0 ns)) (3 * length ns)) as hr.
    destruct (recalculate_dof ob (fold_left apply_constraint cs (number_from 0 ns))) as [n2 k2]. injection ht as -> -> ->.
    destruct hr as [_ [r2 [_ [_ [_ [_ r7]]]]]]; [unfold numbered; rewrite c4; apply from_numbered|].
    split; [congruence|]. intros p a ha.
    assert (hc : forall cs' (l : list (node R)) a', nth_error l p = Some a' -> exists b, nth_error (fold_left apply_constraint cs' l) p = Some b /\ same_identity a' b).
    { clear. induction cs' as [|c cs' IH]; intros l a' hl; cbn; [exists a'; repeat split; auto|].
      destruct (apply_constraint_spec l c) as [_ [_ [_ g]]]. destruct (g p a' hl) as [b [hb [hi _]]].
      destruct (IH _ _ hb) as [b2 [hb2 hi2]]. exists b2. split; [exact hb2|]. destruct hi as [? [? [? ?]]], hi2 as [? [? [? ?]]]. repeat split; congruence. }
    destruct (hc cs _ _ (number_from_nth ns 0 p a ha)) as [b [hb hi]]. destruct (r7 p b hb) as [b2 [hb2 hi2]]. exists b2. split; [exact hb2|].
    destruct hi as [? [? [? ?]]], hi2 as [? [? [? ?]]]. cbn in *. repeat split; congruence. }
  destruct hid as [hl hid]. split; [exact hl|]. split; [exact g3|]. split; [|split; [exact g6|exact hid]].
  intros p d hp k. rewrite (g4 p d k) by (apply number_of_from; exact hp). rewrite active_from. reflexivity.
Qed.

Lemma rerun_core ns ms ps ls cs da s ns' n :
  initialise_system ns ps ls cs da = Ok (s, ns', n) -> map (@n_coord R) ns = map (@n_coord R) ms ->
  (forall p d, (p < length ns)%nat -> listed cs p = false ->
     active ms p d = active ns p d \/ (active ns p d = true /\ number_of ns' p d = None)) ->
  exists ms', initialise_system ms ps ls cs da = Ok (s, ms', n) /\
    Forall2 (fun a b => n_dof a = n_dof b /\ n_flag a = n_flag b) ns' ms'.
Proof.
  intros h hc hk. destruct (initialise_inv _ _ _ _ _ _ _ _ h) as [s0 [st [e1 [hs [ht es]]]]].
  destruct (initialise_kept _ _ _ _ _ _ _ _ _ h e1) as [_ [_ [hkept _]]].
  destruct (assemble_coords ns ms ps ls _ _ hc e1) as [e2 _].
  assert (hl : length ns = length ms) by (rewrite <- (map_length (@n_coord R) ns), hc, map_length; reflexivity).
  set (a := fold_left apply_constraint cs (number_from 0 ns)) in *.
  set (b := fold_left apply_constraint cs (number_from 0 ms)) in *.
  destruct (constraints_spec cs (number_from 0 ns)) as [a1 [a2 [a3 a4]]]. destruct (constraints_spec cs (number_from 0 ms)) as [b1 [b2 [b3 b4]]].
  fold a in a1, a2, a3, a4. fold b in b1, b2, b3, b4. rewrite number_from_length in a1, a2, b1, b2.
  assert (na : numbered a (3 * length ns)) by (unfold numbered; rewrite a4; apply from_numbered).
  assert (nb : numbered b (3 * length ns)) by (unfold numbered; rewrite b4, hl; apply from_numbered).
  assert (hn : forall p d, number_of a p d = number_of b p d).
  { intros p d. rewrite a3, b3. destruct (Nat.lt_ge_cases p (length ns)) as [hp|hp].
    - rewrite !number_of_from by lia. reflexivity.
    - unfold number_of. rewrite !(proj2 (nth_error_None _ p)) by (rewrite number_from_length; lia). reflexivity. }
  (* the flags agree, or the degree of freedom goes anyway *)
  assert (hact : forall p d k, number_of a p d = Some k -> active a p d = active b p d \/
     (In k (obsolete_indices s0 a) /\ In k (obsolete_indices s0 b))).
  { intros p d k ek. assert (hp : (p < length ns)%nat) by (rewrite a3 in ek; apply number_of_bound in ek; rewrite number_from_length in ek; exact ek).
    rewrite a2, b2 by lia. rewrite !active_from. destruct (listed cs p) eqn:elist; [left; apply flag_after_listed; exact elist|].
    rewrite !flag_after_unlisted by exact elist. destruct (hk p d hp elist) as [->|[ht1 ht2]]; [left; reflexivity|right].
    pose proof ek as ek2. rewrite a3, number_of_from in ek by exact hp. injection ek as <-.
    specialize (hkept p d hp). cbv zeta in hkept. rewrite flag_after_unlisted in hkept by exact elist.
    set (k := (3 * p + _)%nat) in *.
    assert (hz : Rabs (me (gM s0) k k) <= 1 / 100000000 \/ Rabs (me (gK s0) k k) <= 1 / 100000000).
    { destruct (Rle_lt_dec (Rabs (me (gM s0) k k)) (1 / 100000000)) as [|g1]; [left; assumption|].
      destruct (Rle_lt_dec (Rabs (me (gK s0) k k)) (1 / 100000000)) as [|g2]; [right; assumption|].
      exfalso. apply hkept; auto. }
    split; [apply (obsolete_In s0 a _ p d k hs na ek2)|apply (obsolete_In s0 b _ p d k hs nb)]; [| rewrite <- hn; exact ek2 |]; tauto. }
  assert (hob : obsolete_indices s0 b = obsolete_indices s0 a).
  { apply obsolete_eq. intros k. destruct (Nat.lt_ge_cases k (3 * length ns)) as [hlt|hge].
    - assert (hex : exists p d, number_of a p d = Some k).
      { apply all_numbers_In. rewrite na. apply in_seq. lia. }
      destruct hex as [p [d ek]]. destruct (hact p d k ek) as [ea|[g1 g2]]; [|tauto].
      rewrite (obsolete_In s0 a _ p d k hs na ek), (obsolete_In s0 b _ p d k hs nb) by (rewrite <- hn; exact ek). rewrite ea. tauto.
    - split; intros hi; [apply (obsolete_lt s0 b _ k hs nb) in hi|apply (obsolete_lt s0 a _ k hs na) in hi]; lia. }
  unfold initialise_system. rewrite e2. cbn [rbind]. fold b. unfold trim_all in *. rewrite hob.
  unbind ht. set (ob := obsolete_indices s0 a) in *. rewrite hv. cbn [rbind].
  assert (hka : Forall2 (kept_alike ob) a b).
  { apply Forall2_of_nth; [lia|]. intros p x y hx hy.
    assert (hd : n_dof x = n_dof y).
    { pose proof (fun d => hn p d) as g. unfold number_of in g. rewrite hx, hy in g. pose proof (g DX). pose proof (g DY). pose proof (g DR).
      destruct (n_dof x), (n_dof y). cbn in *. congruence. }
    split; [exact hd|]. intros d k ed hnk. assert (ek : number_of a p d = Some k) by (unfold number_of; rewrite hx; exact ed).
    destruct (hact p d k ek) as [g|[g _]]; [|contradiction]. unfold active in g. rewrite hx, hy in g. exact g. }
  pose proof (recalc_alike ob a b 0 hka) as [g1 g2]. unfold recalculate_dof in *.
  destruct (recalc_from ob 0 a) as [ja la], (recalc_from ob 0 b) as [jb lb]. cbn [fst snd] in *. subst jb.
  injection ht as -> -> ->. exists lb. cbn [rbind]. rewrite es. auto.
Qed.
