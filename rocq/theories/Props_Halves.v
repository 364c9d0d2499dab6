(** * C148: cutting a beam in two does not change a model at rest *)

From Coq Require Import Reals List Bool ZArith Arith FunctionalExtensionality Lia Lra.
From Verif Require Import Num PyBase Model_Geometry Model_System Spec_System Proofs_Dof Proofs_System Model_Element Spec_Element
  Proofs_Elements Proofs_Element Proofs_Beam Proofs_Force Model_Accumulation Proofs_Accumulation Model_Coupled Model_Mesh Spec_Mesh Model_Track Spec_Track Spec_Generated Proofs_Track
  Proofs_Assembly Props_Track Spec_Analytic Spec_Motion Proofs_Motion Spec_Chain Proofs_Chain Spec_Renumber Proofs_Renumber Spec_Balance Proofs_Balance Spec_Structure Proofs_Structure Proofs_Line
  Spec_Stiffer Proofs_Stiffer Props_Stiffer Spec_Halves.
Import ListNotations.
Local Open Scope R_scope.

(** ** the energy of a beam and of its pieces *)

Definition beam_energy (b : beam R) (l x1 y1 t1 x2 y2 t2 : R) : R :=
  b_E b * b_A b / l * ((x2 - x1) * (x2 - x1)) + b_E b * b_I b / l * ((t2 - t1) * (t2 - t1)) +
  12 * (b_E b * b_I b) / (l * l * l + shear_area b * l) * ((y1 - y2 + l * (t1 + t2) / 2) * (y1 - y2 + l * (t1 + t2) / 2)).

Lemma shear_area_nonneg b : sound_beam b -> 0 <= shear_area b.
Proof.
  intros [_ [hI [hA [_ [hn _]]]]]. unfold shear_area. destruct (Rlt_dec 0 (b_shear_factor b)) as [h|_]; [|lra].
  apply Rlt_le, Rdiv_lt_0_compat; [apply Rmult_lt_0_compat; [lra|exact hI]|apply Rmult_lt_0_compat; assumption].
Qed.

Lemma level_form (ns : list (node R)) b i j u : right_of ns i j -> fixed_ends b -> sound_beam b ->
  part_form aux_stiffness ns u (one_beam b i j) = beam_energy b (b_l b) (u i DX) (u i DY) (u i DR) (u j DX) (u j DY) (u j DR).
Proof.
  intros [hx hy] hf hb. destruct (C85_element_energy ns u (one_beam b i j) (i, j)) as [_ [_ [h _]]]. cbn [fst snd] in h.
  assert (ha : calculate_rotation1 (xy ns i, xy ns j) = 0).
  { destruct (xy ns i) as [x1 y1], (xy ns j) as [x2 y2]. cbn [fst snd] in hx, hy. subst y2. apply rotation1_right. lra. }
  rewrite ha in h. rewrite (h b (or_introl eq_refl) eq_refl hf hb). unfold along, across. rewrite cos_0, sin_0. unfold beam_energy.
  assert (e : (1 + timoshenko_factor 0 b) * (b_l b * b_l b * b_l b) = b_l b * b_l b * b_l b + shear_area b * b_l b).
  { destruct hb as [hE [hI [hA [hl [hn _]]]]]. unfold timoshenko_factor, shear_area, shear_modulus, sq. rnum. destruct (nltbP 0 (b_shear_factor b)), (Rlt_dec 0 (b_shear_factor b)); try contradiction; [|ring]. field. repeat split; lra. }
  rewrite e. ring.
Qed.

(** what the two pieces hold more than the whole, when the place of the cut is not where the whole beam has it *)
Definition extra (b : beam R) (p q dx dy dt : R) : R := beam_energy b p 0 0 0 dx dy dt + beam_energy b q dx dy dt 0 0 0.

Lemma extra_0 b p q : extra b p q 0 0 0 = 0.
Proof. unfold extra, beam_energy. unfold Rdiv. ring. Qed.

Lemma pieces_energy b p q u i j m : 0 < p -> 0 < q -> sound_beam b -> b_l b = p + q ->
  beam_energy b p (u i DX) (u i DY) (u i DR) (u m DX) (u m DY) (u m DR) + beam_energy b q (u m DX) (u m DY) (u m DR) (u j DX) (u j DY) (u j DR) =
  beam_energy b (p + q) (u i DX) (u i DY) (u i DR) (u j DX) (u j DY) (u j DR) +
  extra b p q (u m DX - bent b u i j p DX) (u m DY - bent b u i j p DY) (u m DR - bent b u i j p DR).
Proof.
  intros hp hq hb hl. pose proof (shear_area_nonneg b hb) as hk. unfold bent, extra, beam_energy. rewrite hl. set (k := shear_area b) in *.
  set (x1 := u i DX). set (y1 := u i DY). set (t1 := u i DR). set (x2 := u j DX). set (y2 := u j DY). set (t2 := u j DR). set (x := u m DX). set (y := u m DY). set (t := u m DR).
  assert (n1 : p * p + k <> 0) by nra. assert (n2 : q * q + k <> 0) by nra. assert (n3 : (p + q) * (p + q) + k <> 0) by nra.
  replace (p * p * p + k * p) with (p * (p * p + k)) by ring. replace (q * q * q + k * q) with (q * (q * q + k)) by ring.
  replace ((p + q) * (p + q) * (p + q) + k * (p + q)) with ((p + q) * ((p + q) * (p + q) + k)) by ring.
  field. repeat split; lra.
Qed.

(** ** a further node *)

Lemma xy_more (ns ms : list (node R)) i : (i < length ns)%nat -> xy (ns ++ ms) i = xy ns i.
Proof. intros h. unfold xy. rewrite nth_error_app1 by exact h. reflexivity. Qed.

Lemma settled_more (ns ms : list (node R)) p : within ns p -> settled (ns ++ ms) p = settled ns p.
Proof.
  intros h. unfold settled. destruct (ep_kind p); try reflexivity. destruct (ep_nodes p) as [|i [|j l]] eqn:e; try reflexivity.
  rewrite !nth_error_app1; [reflexivity| |]; apply h; left; rewrite e; cbn; auto.
Qed.

Lemma settled_refs (ns : list (node R)) p : ep_nodes (settled ns p) = ep_nodes p /\ ep_els (settled ns p) = ep_els p.
Proof. unfold settled. destruct p as [k nodes els]. cbn [ep_kind ep_nodes ep_els]. destruct k; try (split; reflexivity). destruct nodes as [|i [|j l]]; try (split; reflexivity). destruct (nth_error ns i), (nth_error ns j); split; reflexivity. Qed.

Lemma form_more aux (ns ms : list (node R)) p u v : within ns p -> (forall i d, (i < length ns)%nat -> u i d = v i d) ->
  part_form aux (ns ++ ms) u (settled (ns ++ ms) p) = part_form aux ns v (settled ns p).
Proof.
  intros hw hu. rewrite settled_more by exact hw. destruct (settled_refs ns p) as [r1 r2]. unfold part_form. destruct (aux (ep_kind (settled ns p))) as [m|]; [|reflexivity]. rewrite r1, r2.
  assert (he : forall e, In e (ep_els p) -> (fst e < length ns)%nat /\ (snd e < length ns)%nat) by (intros e he; split; apply hw; right; exists e; auto).
  destruct (ep_kind (settled ns p)); apply nsum_map_ext; intros e h; cbn [element_form].
  - destruct (he e h). rewrite !xy_more by assumption. unfold local2. rewrite !hu by assumption. reflexivity.
  - destruct (he e h). rewrite !xy_more by assumption. unfold local6. rewrite !hu by assumption. reflexivity.
  - destruct (he e h). rewrite !xy_more by assumption. unfold local6. rewrite !hu by assumption. reflexivity.
  - rewrite hu; [reflexivity|]. apply hw. left. exact h.
Qed.

Lemma loads_more ls n (u v : nat -> dir -> R) : (forall l i, In l ls -> In i (ld_nodes l) -> (i < n)%nat) -> (forall i d, (i < n)%nat -> u i d = v i d) -> load_work ls u = load_work ls v.
Proof.
  intros hl hu. unfold load_work. apply nsum_map_ext. intros l h. apply nsum_map_ext. intros [i t] hq. apply in_combine_l in hq. apply nsum_map_ext. intros d _. cbn [fst snd].
  rewrite hu by (eapply hl; eassumption). reflexivity.
Qed.

Section Cut.
  Variables (ns : list (node R)) (m : node R) (ps : list (epart R)) (b : beam R) (i j : nat) (p q : R).
  Let c := length ns.
  Let ns' := ns ++ [m].
  (** the model with the beam in one piece and in two *)
  Let whole := ps ++ [one_beam b i j].
  Let cut := ps ++ [one_beam (piece b p) i c; one_beam (piece b q) c j].
  Hypothesis inside : Forall (within ns) ps.
  Hypothesis ends : (i < c)%nat /\ (j < c)%nat.
  Hypothesis level : right_of ns' i c /\ right_of ns' c j.
  Hypothesis lengths : 0 < p /\ 0 < q /\ b_l b = p + q.
  Hypothesis fixed : fixed_ends b.
  Hypothesis sensible : sound_beam b.

  Let total (l : list (node R)) (k : list (epart R)) u := nsum (map (fun p => part_form aux_stiffness l u (settled l p)) k).

  Lemma nsum_app (l k : list R) : nsum (l ++ k) = nsum l + nsum k.
  Proof using Type. induction l as [|a l IH]; cbn [app nsum]; rnum; [ring|rewrite IH; ring]. Qed.

  Lemma whole_level : right_of ns i j.
  Proof using level ends. destruct level as [[h1 h2] [h3 h4]], ends as [e1 e2]. unfold ns' in *. rewrite (xy_more ns [m] i e1) in h1, h2. rewrite (xy_more ns [m] j e2) in h3, h4. split; [lra|congruence]. Qed.

  Lemma piece_sound l : 0 < l -> sound_beam (piece b l).
  Proof using sensible. intros h. destruct sensible as [h1 [h2 [h3 [h4 [h5 h6]]]]]. repeat split; cbn; assumption. Qed.

  Lemma total_cut u v : (forall k d, (k < c)%nat -> u k d = v k d) ->
    total ns' cut u = total ns whole v + extra b p q (u c DX - bent b u i j p DX) (u c DY - bent b u i j p DY) (u c DR - bent b u i j p DR).
  Proof using inside ends level lengths fixed sensible.
    intros hu. destruct level as [l1 l2], lengths as [hp [hq hl]], ends as [e1 e2]. unfold total, cut, whole. rewrite !map_app, !nsum_app. cbn [map nsum].
    change (settled ns' (one_beam (piece b p) i c)) with (one_beam (piece b p) i c). change (settled ns' (one_beam (piece b q) c j)) with (one_beam (piece b q) c j). change (settled ns (one_beam b i j)) with (one_beam b i j).
    rewrite (level_form ns' (piece b p) i c u l1 fixed (piece_sound p hp)), (level_form ns' (piece b q) c j u l2 fixed (piece_sound q hq)), (level_form ns b i j v whole_level fixed sensible).
    rewrite <- !(hu i) by exact e1. rewrite <- !(hu j) by exact e2. rewrite hl.
    pose proof (pieces_energy b p q u i j c hp hq sensible hl) as g.
    change (beam_energy (piece b p) (b_l (piece b p))) with (beam_energy b p). change (beam_energy (piece b q) (b_l (piece b q))) with (beam_energy b q).
    rewrite (nsum_map_ext (fun a => part_form aux_stiffness ns' u (settled ns' a)) (fun a => part_form aux_stiffness ns v (settled ns a)) ps).
    - rnum. rewrite !Rplus_0_r. rewrite g. ring.
    - intros a ha. apply form_more; [exact (proj1 (Forall_forall _ _) inside a ha)|exact hu].
  Qed.

  Lemma bent_diff u v x d : bent b (fun k e => u k e - v k e) i j x d = bent b u i j x d - bent b v i j x d.
  Proof using Type. unfold bent, Rdiv. destruct d; ring. Qed.

  (** a displacement of the whole beam is one of its pieces, the cut being where the whole beam has its place *)
  Lemma mutual_cut u v u0 v0 : (forall k d, (k < c)%nat -> u k d = u0 k d) -> (forall k d, (k < c)%nat -> v k d = v0 k d) -> (forall d, v c d = bent b v i j p d) ->
    mutual ns' cut u v = mutual ns whole u0 v0 /\ mutual ns' cut v u = mutual ns whole v0 u0.
  Proof using inside ends level lengths fixed sensible.
    intros hu hv hc. unfold mutual.
    fold (total ns' cut u) (total ns' cut v) (total ns' cut (fun p d => u p d - v p d)) (total ns' cut (fun p d => v p d - u p d)) (total ns whole u0) (total ns whole v0) (total ns whole (fun p d => u0 p d - v0 p d)) (total ns whole (fun p d => v0 p d - u0 p d)).
    rewrite (total_cut u u0 hu), (total_cut v v0 hv), (total_cut (fun k d => u k d - v k d) (fun k d => u0 k d - v0 k d)), (total_cut (fun k d => v k d - u k d) (fun k d => v0 k d - u0 k d)) by (intros; rewrite hu, hv by assumption; reflexivity).
    rewrite !bent_diff, !hc.
    replace (bent b v i j p DX - bent b v i j p DX) with 0 by ring. replace (bent b v i j p DY - bent b v i j p DY) with 0 by ring. replace (bent b v i j p DR - bent b v i j p DR) with 0 by ring. rewrite extra_0.
    replace (u c DX - bent b v i j p DX - (bent b u i j p DX - bent b v i j p DX)) with (u c DX - bent b u i j p DX) by ring.
    replace (u c DY - bent b v i j p DY - (bent b u i j p DY - bent b v i j p DY)) with (u c DY - bent b u i j p DY) by ring.
    replace (u c DR - bent b v i j p DR - (bent b u i j p DR - bent b v i j p DR)) with (u c DR - bent b u i j p DR) by ring.
    replace (bent b v i j p DX - u c DX - (bent b v i j p DX - bent b u i j p DX)) with (- (u c DX - bent b u i j p DX)) by ring.
    replace (bent b v i j p DY - u c DY - (bent b v i j p DY - bent b u i j p DY)) with (- (u c DY - bent b u i j p DY)) by ring.
    replace (bent b v i j p DR - u c DR - (bent b v i j p DR - bent b u i j p DR)) with (- (u c DR - bent b u i j p DR)) by ring.
    set (dx := u c DX - bent b u i j p DX). set (dy := u c DY - bent b u i j p DY). set (dt := u c DR - bent b u i j p DR).
    assert (en : extra b p q (- dx) (- dy) (- dt) = extra b p q dx dy dt) by (unfold extra, beam_energy, Rdiv; ring). rewrite en. split; field.
  Qed.
End Cut.

(** ** the model at rest *)

Section Rest.
  Variables (ns : list (node R)) (m : node R) (ps : list (epart R)) (b : beam R) (i j : nat) (p q : R) (ls ls2 : list (load R)) (cs cs2 : list (list nat * tri bool)) (da da2 : damping R).
  Variables (s1 s2 : gsys R) (ns1 ns2 : list (node R)) (k1 k2 : nat).
  Let c := length ns.
  Hypothesis run1 : initialise_system ns (ps ++ [one_beam b i j]) ls cs da = Ok (s1, ns1, k1).
  Hypothesis run2 : initialise_system (ns ++ [m]) (ps ++ [one_beam (piece b p) i c; one_beam (piece b q) c j]) ls2 cs2 da2 = Ok (s2, ns2, k2).
  Hypothesis shapes : Forall shaped ps.
  Hypothesis sounds : Forall (fun p => sound (settled ns p)) ps.
  Hypothesis inside : Forall (within ns) ps.
  Hypothesis ends : (i < c)%nat /\ (j < c)%nat.
  Hypothesis level : right_of (ns ++ [m]) i c /\ right_of (ns ++ [m]) c j.
  Hypothesis lengths : 0 < p /\ 0 < q /\ b_l b = p + q.
  Hypothesis fixed : fixed_ends b.
  Hypothesis sensible : sound_beam b.
  Hypothesis plain : Forall plain_load ls.
  Hypothesis plain2 : Forall plain_load ls2.
  Hypothesis freedom : same_freedom ns1 ns2 c.

  Lemma sh1 : Forall shaped (ps ++ [one_beam b i j]).
  Proof using shapes. apply Forall_app. split; [exact shapes|constructor; [discriminate|constructor]]. Qed.
  Lemma sh2 : Forall shaped (ps ++ [one_beam (piece b p) i c; one_beam (piece b q) c j]).
  Proof using shapes. apply Forall_app. split; [exact shapes|constructor; [discriminate|constructor; [discriminate|constructor]]]. Qed.
  Lemma so1 : Forall (fun p => sound (settled ns p)) (ps ++ [one_beam b i j]).
  Proof using sounds sensible. apply Forall_app. split; [exact sounds|constructor; [exact sensible|constructor]]. Qed.
  Lemma so2 : Forall (fun p => sound (settled (ns ++ [m]) p)) (ps ++ [one_beam (piece b p) i c; one_beam (piece b q) c j]).
  Proof using sounds inside sensible lengths.
    apply Forall_app. split.
    - apply Forall_forall. intros a ha. rewrite settled_more by exact (proj1 (Forall_forall _ _) inside a ha). exact (proj1 (Forall_forall _ _) sounds a ha).
    - destruct lengths as [hp [hq _]]. constructor; [exact (piece_sound b sensible p hp)|constructor; [exact (piece_sound b sensible q hq)|constructor]].
  Qed.
  Lemma few1 k d : (c <= k)%nat -> number_of ns1 k d = None.
  Proof using run1. intros h. destruct (initialise_inv _ _ _ _ _ _ _ _ run1) as [s0 [_ [e0 _]]]. destruct (initialise_kept _ _ _ _ _ _ _ _ _ run1 e0) as [hl _]. destruct (number_of ns1 k d) eqn:e; [|reflexivity]. apply number_of_bound in e. unfold c in h. clear - e h hl. lia. Qed.
  Lemma few2 k d : (S c <= k)%nat -> number_of ns2 k d = None.
  Proof using run2.
    intros h. destruct (initialise_inv _ _ _ _ _ _ _ _ run2) as [s0 [_ [e0 _]]]. destruct (initialise_kept _ _ _ _ _ _ _ _ _ run2 e0) as [hl _]. rewrite app_length in hl. cbn [length] in hl.
    destruct (number_of ns2 k d) eqn:e; [|reflexivity]. apply number_of_bound in e. unfold c in h. clear - e h hl. lia.
  Qed.

  (** a displacement with the cut where the whole beam has it *)
  Definition with_cut (u : nat -> dir -> R) (k : nat) (d : dir) : R := if Nat.eqb k c then bent b u i j p d else u k d.
  Lemma with_cut_old u k d : (k < c)%nat -> with_cut u k d = u k d.
  Proof using Type. intros h. unfold with_cut. destruct (Nat.eqb_spec k c) as [e|_]; [clear - e h; lia|reflexivity]. Qed.
  Lemma with_cut_new u d : with_cut u c d = bent b (with_cut u) i j p d.
  Proof using ends. destruct ends as [e1 e2]. unfold with_cut at 1. rewrite Nat.eqb_refl. unfold bent. rewrite !(with_cut_old u i), !(with_cut_old u j) by assumption. reflexivity. Qed.
  Lemma with_cut_free x k d : number_of ns2 k d = None -> with_cut (field_of ns1 x) k d = 0.
  Proof using run1 freedom.
    intros h. destruct freedom as [f1 f2]. destruct (Nat.lt_trichotomy k c) as [hk|[->|hk]].
    - rewrite with_cut_old by exact hk. apply f1 in h; [|exact hk]. unfold field_of. rewrite h. reflexivity.
    - exfalso. exact (f2 d h).
    - unfold with_cut. destruct (Nat.eqb_spec k c) as [e|_]; [clear - e hk; lia|]. unfold field_of. rewrite few1 by (clear - hk; lia). reflexivity.
  Qed.

  Lemma whole_from_cut y x : (forall v, load_work ls2 (with_cut v) = load_work ls v) -> in_balance s2 k2 y -> (forall k d, (k < c)%nat -> field_of ns1 x k d = field_of ns2 y k d) -> in_balance s1 k1 x.
  Proof using All.
    intros hw hy hx. apply (weak_balance ns (ps ++ [one_beam b i j]) sh1 so1 ls cs da s1 ns1 k1 x run1 plain). intros z.
    pose proof (balance_weak (ns ++ [m]) _ sh2 so2 ls2 cs2 da2 s2 ns2 k2 y run2 plain2 hy (with_cut (field_of ns1 z)) (with_cut_free z)) as g.
    pose proof (proj1 (mutual_cut ns m ps b i j p q inside ends level lengths fixed sensible (field_of ns2 y) (with_cut (field_of ns1 z)) (field_of ns1 x) (field_of ns1 z)
      (fun k d h => eq_sym (hx k d h)) (fun k d h => with_cut_old _ k d h) (with_cut_new _))) as e.
    etransitivity; [symmetry; exact e|]. etransitivity; [exact g|]. apply hw.
  Qed.

  Lemma cut_from_whole x : ls2 = ls -> in_balance s1 k1 x -> exists y, in_balance s2 k2 y /\ (forall k d, (k < c)%nat -> field_of ns2 y k d = field_of ns1 x k d) /\ forall d, field_of ns2 y c d = bent b (field_of ns1 x) i j p d.
  Proof using All.
    intros hls hx. set (y := vector_of ns2 (with_cut (field_of ns1 x))). exists y.
    destruct (initialise_inv _ _ _ _ _ _ _ _ run2) as [s0 [_ [e0 _]]]. destruct (initialise_kept _ _ _ _ _ _ _ _ _ run2 e0) as [_ [hn _]].
    assert (f : forall k d, field_of ns2 y k d = with_cut (field_of ns1 x) k d) by (apply (vector_field ns2 k2 _ hn); apply with_cut_free).
    split; [|split].
    - apply (weak_balance (ns ++ [m]) _ sh2 so2 ls2 cs2 da2 s2 ns2 k2 y run2 plain2). intros z. rewrite hls.
      set (w := fun k d => if Nat.ltb k c then field_of ns2 z k d else 0).
      assert (hw : forall k d, (k < c)%nat -> field_of ns2 z k d = w k d) by (intros k d h; unfold w; destruct (Nat.ltb_spec k c); [reflexivity|lia]).
      replace (field_of ns2 y) with (with_cut (field_of ns1 x)) by (extensionality k; extensionality d; symmetry; apply f).
      etransitivity; [exact (proj2 (mutual_cut ns m ps b i j p q inside ends level lengths fixed sensible (field_of ns2 z) (with_cut (field_of ns1 x)) w (field_of ns1 x) hw (fun k d h => with_cut_old _ k d h) (with_cut_new _)))|].
      rewrite (balance_weak ns _ sh1 so1 ls cs da s1 ns1 k1 x run1 plain hx w).
      + apply (loads_more ls c); [exact (loads_in_range _ _ _ _ _ _ _ _ run1)|]. intros k d h. symmetry. apply hw. exact h.
      + intros k d h. unfold w. destruct (Nat.ltb_spec k c) as [hk|_]; [|reflexivity]. apply (proj1 freedom) in h; [|exact hk]. unfold field_of. rewrite h. reflexivity.
    - intros k d h. rewrite f. apply with_cut_old. exact h.
    - intros d. rewrite f. unfold with_cut. rewrite Nat.eqb_refl. reflexivity.
  Qed.
End Rest.

(** A level beam of a model is cut in two at a new node, anywhere between its ends; the loads are on the other nodes, the same directions are
    calculated.  What is at rest with the beam in two pieces is at rest with the beam in one piece. *)
Theorem C148_joined_again ns m ps b i j p q ls cs cs2 da da2 s1 ns1 k1 s2 ns2 k2 x y : let c := length ns in
  initialise_system ns (ps ++ [one_beam b i j]) ls cs da = Ok (s1, ns1, k1) ->
  initialise_system (ns ++ [m]) (ps ++ [one_beam (piece b p) i c; one_beam (piece b q) c j]) ls cs2 da2 = Ok (s2, ns2, k2) ->
  Forall shaped ps -> Forall (fun p => sound (settled ns p)) ps -> Forall (within ns) ps -> (i < c)%nat /\ (j < c)%nat ->
  right_of (ns ++ [m]) i c /\ right_of (ns ++ [m]) c j -> 0 < p /\ 0 < q /\ b_l b = p + q -> fixed_ends b -> sound_beam b -> Forall plain_load ls -> same_freedom ns1 ns2 c ->
  in_balance s2 k2 y -> (forall k d, (k < c)%nat -> field_of ns1 x k d = field_of ns2 y k d) -> in_balance s1 k1 x.
Proof.
  intros c h1 h2 a1 a2 a3 a4 a5 a6 a7 a8 a9 a10 hy hx. apply (whole_from_cut ns m ps b i j p q ls ls cs cs2 da da2 s1 s2 ns1 ns2 k1 k2 h1 h2 a1 a2 a3 a4 a5 a6 a7 a8 a9 a9 a10 y x); [|exact hy|exact hx].
  intros v. apply (loads_more ls c); [exact (loads_in_range _ _ _ _ _ _ _ _ h1)|]. intros. apply with_cut_old. assumption.
Qed.
Print Assumptions C148_joined_again.

(** And what is at rest in one piece is so in two: all nodes stay where they are, and the new node shows how the beam is bent between its ends. *)
Theorem C148_cut ns m ps b i j p q ls cs cs2 da da2 s1 ns1 k1 s2 ns2 k2 x : let c := length ns in
  initialise_system ns (ps ++ [one_beam b i j]) ls cs da = Ok (s1, ns1, k1) ->
  initialise_system (ns ++ [m]) (ps ++ [one_beam (piece b p) i c; one_beam (piece b q) c j]) ls cs2 da2 = Ok (s2, ns2, k2) ->
  Forall shaped ps -> Forall (fun p => sound (settled ns p)) ps -> Forall (within ns) ps -> (i < c)%nat /\ (j < c)%nat ->
  right_of (ns ++ [m]) i c /\ right_of (ns ++ [m]) c j -> 0 < p /\ 0 < q /\ b_l b = p + q -> fixed_ends b -> sound_beam b -> Forall plain_load ls -> same_freedom ns1 ns2 c ->
  in_balance s1 k1 x -> exists y, in_balance s2 k2 y /\ (forall k d, (k < c)%nat -> field_of ns2 y k d = field_of ns1 x k d) /\ forall d, field_of ns2 y c d = bent b (field_of ns1 x) i j p d.
Proof. intros c h1 h2 a1 a2 a3 a4 a5 a6 a7 a8 a9 a10 hx. exact (cut_from_whole ns m ps b i j p q ls ls cs cs2 da da2 s1 s2 ns1 ns2 k1 k2 h1 h2 a1 a2 a3 a4 a5 a6 a7 a8 a9 a9 a10 x eq_refl hx). Qed.
Print Assumptions C148_cut.

(** ** loads between the nodes *)

(** without shear deformation the shape functions of the code are the bent beam, displacement and rotation *)
Theorem C148_shapes b u i j x : 0 < b_l b -> b_shear_factor b <= 0 ->
  interp (y_shape (b_l b) 0 x) (u i DY) (u i DR) (u j DY) (u j DR) = bent b u i j x DY /\
  interp (z_rot_shape (b_l b) 0 x) (u i DY) (u i DR) (u j DY) (u j DR) = bent b u i j x DR.
Proof.
  intros hl hs. unfold bent, shear_area. destruct (Rlt_dec 0 (b_shear_factor b)) as [h|_]; [lra|]. unfold interp, y_shape, z_rot_shape, sq, cube. rnum. set (l := b_l b) in *. split; field; lra.
Qed.
Print Assumptions C148_shapes.

(** with shear deformation they are not, for beams of any length but 1 *)
Theorem C148_shapes_refuted l : 0 < l -> l <> 1 -> exists b u x, sound_beam b /\ b_l b = l /\ 0 < x < l /\
  interp (y_shape l (timoshenko_factor 0 b) x) (u 0%nat DY) (u 0%nat DR) (u 1%nat DY) (u 1%nat DR) <> bent b u 0 1 x DY.
Proof.
  intros hl hne. exists (mkBeam 1 0 1 1 1 1 l None None), (fun p d => match p, d with 0%nat, DR => 1 | _, _ => 0 end), (l / 2).
  split; [repeat split; cbn; lra|]. split; [reflexivity|]. split; [lra|].
  unfold bent, shear_area, timoshenko_factor, shear_modulus. cbn [b_E b_nu b_rho b_A b_I b_shear_factor b_l]. rnum. destruct (nltbP 0 1); [|lra]. destruct (Rlt_dec 0 1); [|lra].
  unfold interp, y_shape, sq, cube. rnum. intros e.
  assert (h2 : 0 < l * l) by (apply Rmult_lt_0_compat; exact hl).
  apply (f_equal (fun z => z * (l * l + 24))) in e. apply hne.
  match type of e with ?a = ?c => replace a with (l * l * l / 8 + 3) in e by (field; split; nra); replace c with (l * l * l / 8 + 3 * l) in e by (field; split; nra) end.
  lra.
Qed.
Print Assumptions C148_shapes_refuted.

Lemma shared_work l x P i j v : load_work [shared_load l x P i j] v = P * interp (y_shape l 0 x) (v i DY) (v i DR) (v j DY) (v j DR).
Proof. unfold load_work, shared_load, interp. cbn [map nsum combine ld_flag ld_nodes ld_vals fst snd tget tx ty tr]. rnum. ring. Qed.

Lemma work_app ls ks v : load_work (ls ++ ks) v = load_work ls v + load_work ks v.
Proof. unfold load_work. rewrite map_app. apply nsum_app. Qed.

(** A load on a beam between its nodes, given to the nodes by the shape functions, moves all nodes exactly as far as the same load on a node of its own. *)
Theorem C148_load_between ns m ps b i j p q ls P cs cs2 da da2 s1 ns1 k1 s2 ns2 k2 x y : let c := length ns in
  initialise_system ns (ps ++ [one_beam b i j]) (ls ++ [shared_load (b_l b) p P i j]) cs da = Ok (s1, ns1, k1) ->
  initialise_system (ns ++ [m]) (ps ++ [one_beam (piece b p) i c; one_beam (piece b q) c j]) (ls ++ one_load c P) cs2 da2 = Ok (s2, ns2, k2) ->
  Forall shaped ps -> Forall (fun p => sound (settled ns p)) ps -> Forall (within ns) ps -> (i < c)%nat /\ (j < c)%nat ->
  right_of (ns ++ [m]) i c /\ right_of (ns ++ [m]) c j -> 0 < p /\ 0 < q /\ b_l b = p + q -> fixed_ends b -> sound_beam b -> b_shear_factor b <= 0 -> Forall plain_load ls -> same_freedom ns1 ns2 c ->
  in_balance s2 k2 y -> (forall k d, (k < c)%nat -> field_of ns1 x k d = field_of ns2 y k d) -> in_balance s1 k1 x.
Proof.
  intros c h1 h2 a1 a2 a3 a4 a5 a6 a7 a8 hsf a9 a10 hy hx.
  assert (hij : i <> j) by (intros ->; destruct (whole_level ns m j j a4 a5) as [z _]; lra).
  assert (p1 : Forall plain_load (ls ++ [shared_load (b_l b) p P i j])) by (apply Forall_app; split; [exact a9|constructor; [split; [constructor; [intros [z|[]]; congruence|constructor; [intros []|constructor]]|reflexivity]|constructor]]).
  assert (p2 : Forall plain_load (ls ++ one_load c P)) by (apply Forall_app; split; [exact a9|apply one_load_plain]).
  apply (whole_from_cut ns m ps b i j p q _ _ cs cs2 da da2 s1 s2 ns1 ns2 k1 k2 h1 h2 a1 a2 a3 a4 a5 a6 a7 a8 p1 p2 a10 y x); [|exact hy|exact hx].
  intros v. rewrite !work_app, one_load_work, shared_work. destruct (C148_shapes b v i j p) as [e _]; [lra|exact hsf|]. rewrite e.
  rewrite (loads_more ls c (with_cut ns b i j p v) v).
  - f_equal. f_equal. unfold with_cut. rewrite Nat.eqb_refl. reflexivity.
  - intros l0 k hl0 hk. apply (loads_in_range _ _ _ _ _ _ _ _ h1 l0 k); [apply in_or_app; left; exact hl0|exact hk].
  - intros. apply with_cut_old. assumption.
Qed.
Print Assumptions C148_load_between.

(** ** a case *)

(** a bar of steel-like proportions in small numbers: every stiffness is 1 *)
Definition bar (l : R) : beam R := mkBeam 1 0 420 1 1 0 l None None.

Lemma bar_sound l : 0 < l -> sound_beam (bar l).
Proof. intros h. repeat split; cbn; lra. Qed.

Lemma bar_mass (ns : list (node R)) l i j u : right_of ns i j ->
  part_form aux_mass ns u (one_beam (bar l) i j) = quad 6 (mass_entries (bar l) 0) (vec6 (u i DX) (u i DY) (u i DR) (u j DX) (u j DY) (u j DR)).
Proof.
  intros [hx hy]. unfold part_form, one_beam. cbn [ep_kind ep_els aux_mass map nsum fst snd element_form]. unfold timoshenko_factor. cbn [b_shear_factor bar]. rnum. destruct (nltbP 0 0); [lra|]. rewrite Rplus_0_r.
  assert (ha : calculate_rotation1 (xy ns i, xy ns j) = 0).
  { destruct (xy ns i) as [x1 y1], (xy ns j) as [x2 y2]. cbn [fst snd] in hx, hy. subst y2. apply rotation1_right. lra. }
  rewrite ha. unfold quad. apply sumn_ext. intros a ha1. apply sumn_ext. intros a2 ha2. rewrite beam_mass_entries by assumption.
  assert (e : forall k, local6 0 u i j k = vec6 (u i DX) (u i DY) (u i DR) (u j DX) (u j DY) (u j DR) k).
  { intros k. unfold local6, along, across. rewrite cos_0, sin_0. do 6 (destruct k as [|k]; [cbn [vec6]; ring|]). reflexivity. }
  rewrite !e. reflexivity.
Qed.

Lemma bar_diag (ns : list (node R)) l i j p d : i <> j -> 1 <= l <= 2 -> right_of ns i j ->
  let k := part_form aux_stiffness ns (unit_field p d) (one_beam (bar l) i j) in let m := part_form aux_mass ns (unit_field p d) (one_beam (bar l) i j) in
  0 <= k /\ 0 <= m /\ (p = i \/ p = j -> 1 / 10 < k /\ 1 / 10 < m).
Proof.
  intros hij hl hr. cbv zeta. rewrite level_form, bar_mass by (try exact hr; try (split; reflexivity); apply bar_sound; lra).
  unfold beam_energy, quad, mass_entries, shear_area. cbn [bar b_E b_nu b_rho b_A b_I b_shear_factor b_l]. destruct (Rlt_dec 0 0) as [z|_]; [lra|]. destruct (Req_EM_T 0 0) as [_|z]; [|contradiction].
  assert (i1 : 1 / 2 <= / l <= 1). { split; [replace (1 / 2) with (/ 2) by field; apply Rinv_le_contravar; lra|rewrite <- Rinv_1; apply Rinv_le_contravar; lra]. }
  replace (l * l * l + 0 * l) with (l * l * l) by ring. assert (i3 : / (l * l * l) = / l * / l * / l) by (field; lra). unfold Rdiv. rewrite i3.
  set (w := / l) in *. assert (lw : l * w = 1) by (unfold w; field; lra). assert (w2 : 1 / 4 <= w * w) by nra. assert (w3 : 1 / 8 <= w * w * w) by nra. assert (l2 : 1 <= l * l) by nra. assert (l3 : 1 <= l * l * l) by nra.
  destruct (Nat.eq_dec p i) as [->|ni]; [|destruct (Nat.eq_dec p j) as [->|nj]].
  - rewrite !(unit_elsewhere i d j) by exact hij. destruct d; rewrite !unit_at, !unit_across by discriminate; cbn [sumn vec6 trans_entries]; rnum; unfold Rdiv; replace (/ (210 * ((1 + 0) * (1 + 0)))) with (/ 210) by (f_equal; ring).
    + split; [nra|]. split; [lra|]. intros _. split; lra.
    + split; [nra|]. split; [lra|]. intros _. split; lra.
    + assert (e : 12 * (1 * 1) * (w * w * w) * ((0 - 0 + l * (1 + 0) * / 2) * (0 - 0 + l * (1 + 0) * / 2)) = 3 * w * (l * w) * (l * w)) by field. rewrite e, lw.
      split; [nra|]. split; [nra|]. intros _. split; nra.
  - rewrite !(unit_elsewhere j d i) by congruence. destruct d; rewrite !unit_at, !unit_across by discriminate; cbn [sumn vec6 trans_entries]; rnum; unfold Rdiv; replace (/ (210 * ((1 + 0) * (1 + 0)))) with (/ 210) by (f_equal; ring).
    + split; [nra|]. split; [lra|]. intros _. split; lra.
    + split; [nra|]. split; [lra|]. intros _. split; lra.
    + assert (e : 12 * (1 * 1) * (w * w * w) * ((0 - 0 + l * (0 + 1) * / 2) * (0 - 0 + l * (0 + 1) * / 2)) = 3 * w * (l * w) * (l * w)) by field. rewrite e, lw.
      split; [nra|]. split; [nra|]. intros _. split; nra.
  - rewrite !(unit_elsewhere p d i), !(unit_elsewhere p d j) by assumption. cbn [sumn vec6]; rnum. split; [lra|]. split; [lra|]. intros [h|h]; contradiction.
Qed.

(** a cantilever of 2 m, clamped on the left, with a force at its free end; cut in its middle *)
Definition cantilever : list (node R) := [new_node 0 0 0 0; new_node 1 2 0 0].
Definition clamp_left : list (list nat * tri bool) := [([0%nat], T3 false false false)].

Lemma cantilever_nodes : right_of (cantilever ++ [new_node 2 1 0 0]) 0 2 /\ right_of (cantilever ++ [new_node 2 1 0 0]) 2 1 /\ right_of cantilever 0 1.
Proof. unfold right_of. cbn. lra. Qed.

Lemma clamped (ns : list (node R)) ps ls s ns' k p d : initialise_system ns ps ls clamp_left undamped = Ok (s, ns', k) -> Forall shaped ps -> (p < length ns)%nat -> active ns p d = true ->
  (forall aux, aux = aux_stiffness \/ aux = aux_mass -> 1 / 10 < nsum (map (fun a => part_form aux ns (unit_field p d) (settled ns a)) ps)) -> (number_of ns' p d = None <-> p = 0%nat).
Proof.
  intros h hs hp ha hd. destruct (initialise_inv _ _ _ _ _ _ _ _ h) as [s0 [_ [e0 _]]]. destruct (initialise_kept _ _ _ _ _ _ _ _ _ h e0) as [_ [_ [hk _]]].
  destruct (assemble_diag ns ps _ s0 _ p d hs e0 hp) as [q1 q2]. specialize (hk p d hp). cbv zeta in hk. change (match d with DX => 0%nat | DY => 1%nat | DR => 2%nat end) with (dir_idx d) in hk. rewrite q1, q2, ha in hk.
  pose proof (hd _ (or_introl eq_refl)) as d1. pose proof (hd _ (or_intror eq_refl)) as d2. rewrite !Rabs_right in hk by lra.
  assert (f : flag_after clamp_left p d true = true <-> p <> 0%nat).
  { destruct p as [|p]; [split; [destruct d; discriminate|intros z; contradiction]|split; [discriminate|reflexivity]]. }
  destruct (Nat.eq_dec p 0) as [->|np].
  - split; [reflexivity|intros _]. destruct (number_of ns' 0 d) eqn:e; [|reflexivity]. exfalso. assert (g : Some n <> None) by discriminate. apply hk in g. destruct g as [g _]. apply f in g. contradiction.
  - split; [|contradiction]. intros e. exfalso. apply (proj2 hk); [|exact e]. split; [apply f; exact np|lra].
Qed.

Definition middle : node R := new_node 2 1 0 0.

Lemma free_whole ls s1 ns1 k1 : initialise_system cantilever [one_beam (bar 2) 0 1] ls clamp_left undamped = Ok (s1, ns1, k1) -> forall p d, (p < 2)%nat -> (number_of ns1 p d = None <-> p = 0%nat).
Proof.
  intros h1 p d hp. destruct cantilever_nodes as [n1 [n2 n3]].
  assert (sh1 : Forall shaped [one_beam (bar 2) 0 1]) by (constructor; [discriminate|constructor]).
  apply (clamped cantilever [one_beam (bar 2) 0 1] ls s1 ns1 k1 p d h1 sh1 hp); [destruct p as [|[|p]]; [| |lia]; destruct d; reflexivity|].
  intros aux haux. cbn [map nsum]. change (settled cantilever (one_beam (bar 2) 0 1)) with (one_beam (bar 2) 0 1). rnum. rewrite Rplus_0_r.
  destruct (bar_diag cantilever 2 0 1 p d) as [_ [_ g]]; [lia|lra|exact n3|]. assert (hp2 : p = 0%nat \/ p = 1%nat) by lia. specialize (g hp2). destruct haux as [-> | ->]; tauto.
Qed.

Lemma free_cut ls s2 ns2 k2 : initialise_system (cantilever ++ [middle]) [one_beam (piece (bar 2) 1) 0 2; one_beam (piece (bar 2) 1) 2 1] ls clamp_left undamped = Ok (s2, ns2, k2) ->
  forall p d, (p < 3)%nat -> (number_of ns2 p d = None <-> p = 0%nat).
Proof.
  intros h2 p d hp. destruct cantilever_nodes as [n1 [n2 n3]].
  assert (shb : Forall shaped [one_beam (piece (bar 2) 1) 0 2; one_beam (piece (bar 2) 1) 2 1]) by (constructor; [discriminate|constructor; [discriminate|constructor]]).
  apply (clamped (cantilever ++ [middle]) _ ls s2 ns2 k2 p d h2 shb hp); [destruct p as [|[|[|p]]]; [| | |lia]; destruct d; reflexivity|].
  intros aux haux. cbn [map nsum]. change (settled (cantilever ++ [middle]) (one_beam (piece (bar 2) 1) 0 2)) with (one_beam (bar 1) 0 2). change (settled (cantilever ++ [middle]) (one_beam (piece (bar 2) 1) 2 1)) with (one_beam (bar 1) 2 1). rnum. rewrite Rplus_0_r.
  destruct (bar_diag (cantilever ++ [middle]) 1 0 2 p d) as [a1 [a2 a3]]; [lia|lra|exact n1|]. destruct (bar_diag (cantilever ++ [middle]) 1 2 1 p d) as [b1 [b2 b3]]; [lia|lra|exact n2|].
  assert (hp2 : (p = 0%nat \/ p = 2%nat) \/ p = 1%nat) by lia. destruct hp2 as [hp2|hp2].
  - specialize (a3 hp2). destruct haux as [-> | ->]; lra.
  - specialize (b3 (or_intror hp2)). destruct haux as [-> | ->]; lra.
Qed.

Example C148_case P : exists s1 ns1 k1 x s2 ns2 k2, let m := new_node 2 1 0 0 in let b := bar 2 in
  initialise_system cantilever ([] ++ [one_beam b 0 1]) (one_load 1 P) clamp_left undamped = Ok (s1, ns1, k1) /\
  initialise_system (cantilever ++ [m]) ([] ++ [one_beam (piece b 1) 0 2; one_beam (piece b 1) 2 1]) (one_load 1 P) clamp_left undamped = Ok (s2, ns2, k2) /\
  right_of (cantilever ++ [m]) 0 2 /\ right_of (cantilever ++ [m]) 2 1 /\ b_l b = 1 + 1 /\ fixed_ends b /\ sound_beam b /\ Forall plain_load (one_load 1 P) /\ same_freedom ns1 ns2 2 /\
  in_balance s1 k1 x /\ field_of ns1 x 1 DY = P * 8 / 3 /\ bent b (field_of ns1 x) 0 1 1 DY = P * 5 / 6.
Proof.
  destruct cantilever_nodes as [n1 [n2 n3]]. cbn [app]. set (m := new_node 2 1 0 0) in *.
  assert (r1 : exists s1 ns1 k1, initialise_system cantilever [one_beam (bar 2) 0 1] (one_load 1 P) clamp_left undamped = Ok (s1, ns1, k1)).
  { apply initialise_ok; [intros p [<-|[]]; eexists; reflexivity|intros p i [<-|[]] hi; cbn in hi; cbn; lia|intros l i [<-|[]] hi; cbn in hi; cbn; lia]. }
  assert (r2 : exists s2 ns2 k2, initialise_system (cantilever ++ [m]) [one_beam (piece (bar 2) 1) 0 2; one_beam (piece (bar 2) 1) 2 1] (one_load 1 P) clamp_left undamped = Ok (s2, ns2, k2)).
  { apply initialise_ok; [intros p [<-|[<-|[]]]; eexists; reflexivity|intros p i [<-|[<-|[]]] hi; cbn in hi; cbn; lia|intros l i [<-|[]] hi; cbn in hi; cbn; lia]. }
  destruct r1 as [s1 [ns1 [k1 h1]]]. destruct r2 as [s2 [ns2 [k2 h2]]].
  assert (sh1 : Forall shaped [one_beam (bar 2) 0 1]) by (constructor; [discriminate|constructor]).
  assert (shb : Forall shaped [one_beam (piece (bar 2) 1) 0 2; one_beam (piece (bar 2) 1) 2 1]) by (constructor; [discriminate|constructor; [discriminate|constructor]]).
  assert (so : Forall (fun p => sound (settled cantilever p)) [one_beam (bar 2) 0 1]) by (constructor; [apply (bar_sound 2); lra|constructor]).
  pose proof (free_whole _ _ _ _ h1) as f1. pose proof (free_cut _ _ _ _ h2) as f2.
  set (v := fun (p : nat) (d : dir) => match p, d with 1%nat, DY => P * 8 / 3 | 1%nat, DR => 2 * P | _, _ => 0 end).
  destruct (initialise_inv _ _ _ _ _ _ _ _ h1) as [s0 [_ [e0 _]]]. destruct (initialise_kept _ _ _ _ _ _ _ _ _ h1 e0) as [hl [hn _]].
  assert (fv : forall p d, field_of ns1 (vector_of ns1 v) p d = v p d).
  { apply (vector_field ns1 k1 _ hn). intros p d hd. destruct p as [|[|p]]; [destruct d; reflexivity| |destruct d; reflexivity]. exfalso. apply f1 in hd; [discriminate|lia]. }
  exists s1, ns1, k1, (vector_of ns1 v), s2, ns2, k2. cbv zeta. split; [exact h1|]. split; [exact h2|]. split; [exact n1|]. split; [exact n2|]. split; [cbn; lra|]. split; [split; reflexivity|]. split; [apply bar_sound; lra|]. split; [apply one_load_plain|].
  split; [|split; [|split]].
  - split; [intros p d hp; rewrite (f1 p d hp), (f2 p d) by lia; reflexivity|]. intros d hd. apply f2 in hd; [discriminate|lia].
  - apply (weak_balance cantilever [one_beam (bar 2) 0 1] sh1 so _ _ _ s1 ns1 k1 _ h1 (one_load_plain 1 P)). intros y.
    assert (z : forall d, field_of ns1 y 0 d = 0) by (intros d; unfold field_of; rewrite (proj2 (f1 0%nat d ltac:(lia)) eq_refl); reflexivity).
    unfold mutual. cbn [map nsum]. change (settled cantilever (one_beam (bar 2) 0 1)) with (one_beam (bar 2) 0 1). rewrite !(level_form cantilever (bar 2) 0 1 _ n3) by (try (split; reflexivity); apply bar_sound; lra).
    rewrite one_load_work, !fv, !z. unfold v, beam_energy, shear_area. cbn [bar b_E b_nu b_rho b_A b_I b_shear_factor b_l]. destruct (Rlt_dec 0 0) as [q|_]; [lra|]. rnum. field.
  - apply fv.
  - unfold bent. rewrite !fv. unfold v, shear_area. cbn [bar b_E b_nu b_rho b_A b_I b_shear_factor b_l]. destruct (Rlt_dec 0 0) as [q|_]; [lra|]. field.
Qed.

(** the cantilever with the force in its middle, between its nodes *)
Example C148_load_case P : exists s1 ns1 k1 x s2 ns2 k2 y, let b := bar 2 in
  initialise_system cantilever ([] ++ [one_beam b 0 1]) ([] ++ [shared_load (b_l b) 1 P 0 1]) clamp_left undamped = Ok (s1, ns1, k1) /\
  initialise_system (cantilever ++ [middle]) ([] ++ [one_beam (piece b 1) 0 2; one_beam (piece b 1) 2 1]) ([] ++ one_load 2 P) clamp_left undamped = Ok (s2, ns2, k2) /\
  b_shear_factor b <= 0 /\ same_freedom ns1 ns2 2 /\ in_balance s2 k2 y /\ (forall k d, (k < 2)%nat -> field_of ns1 x k d = field_of ns2 y k d) /\ in_balance s1 k1 x /\
  field_of ns2 y 2 DY = P / 3 /\ field_of ns1 x 1 DY = P * 5 / 6 /\ field_of ns1 x 1 DR = P / 2.
Proof.
  destruct cantilever_nodes as [n1 [n2 n3]]. cbn [app].
  assert (r1 : exists s1 ns1 k1, initialise_system cantilever [one_beam (bar 2) 0 1] [shared_load (b_l (bar 2)) 1 P 0 1] clamp_left undamped = Ok (s1, ns1, k1)).
  { apply initialise_ok; [intros p [<-|[]]; eexists; reflexivity|intros p i [<-|[]] hi; cbn in hi; cbn; lia|intros l i [<-|[]] hi; cbn in hi; cbn; lia]. }
  assert (r2 : exists s2 ns2 k2, initialise_system (cantilever ++ [middle]) [one_beam (piece (bar 2) 1) 0 2; one_beam (piece (bar 2) 1) 2 1] (one_load 2 P) clamp_left undamped = Ok (s2, ns2, k2)).
  { apply initialise_ok; [intros p [<-|[<-|[]]]; eexists; reflexivity|intros p i [<-|[<-|[]]] hi; cbn in hi; cbn; lia|intros l i [<-|[]] hi; cbn in hi; cbn; lia]. }
  destruct r1 as [s1 [ns1 [k1 h1]]]. destruct r2 as [s2 [ns2 [k2 h2]]].
  assert (shb : Forall shaped [one_beam (piece (bar 2) 1) 0 2; one_beam (piece (bar 2) 1) 2 1]) by (constructor; [discriminate|constructor; [discriminate|constructor]]).
  assert (so : Forall (fun p => sound (settled (cantilever ++ [middle]) p)) [one_beam (piece (bar 2) 1) 0 2; one_beam (piece (bar 2) 1) 2 1]) by (constructor; [apply (bar_sound 1); lra|constructor; [apply (bar_sound 1); lra|constructor]]).
  pose proof (free_whole _ _ _ _ h1) as f1. pose proof (free_cut _ _ _ _ h2) as f2.
  set (v := fun (p : nat) (d : dir) => match p, d with 1%nat, DY => P * 5 / 6 | 1%nat, DR => P / 2 | 2%nat, DY => P / 3 | 2%nat, DR => P / 2 | _, _ => 0 end).
  set (w := fun (p : nat) (d : dir) => match p with 2%nat => 0 | _ => v p d end).
  destruct (initialise_inv _ _ _ _ _ _ _ _ h1) as [s0 [_ [e0 _]]]. destruct (initialise_kept _ _ _ _ _ _ _ _ _ h1 e0) as [_ [hn _]].
  destruct (initialise_inv _ _ _ _ _ _ _ _ h2) as [t0 [_ [e2 _]]]. destruct (initialise_kept _ _ _ _ _ _ _ _ _ h2 e2) as [_ [hn2 _]].
  assert (fw : forall p d, field_of ns1 (vector_of ns1 w) p d = w p d).
  { apply (vector_field ns1 k1 _ hn). intros p d hd. destruct p as [|[|[|p]]]; [destruct d; reflexivity| |destruct d; reflexivity|destruct d; reflexivity]. exfalso. apply f1 in hd; [discriminate|lia]. }
  assert (fv : forall p d, field_of ns2 (vector_of ns2 v) p d = v p d).
  { apply (vector_field ns2 k2 _ hn2). intros p d hd. destruct p as [|[|[|p]]]; [destruct d; reflexivity| | |destruct d; reflexivity]; exfalso; apply f2 in hd; [discriminate|lia|discriminate|lia]. }
  assert (sf : same_freedom ns1 ns2 2).
  { split; [intros p d hp; rewrite (f1 p d hp), (f2 p d) by lia; reflexivity|]. intros d hd. apply f2 in hd; [discriminate|lia]. }
  assert (hxy : forall k d, (k < 2)%nat -> field_of ns1 (vector_of ns1 w) k d = field_of ns2 (vector_of ns2 v) k d).
  { intros k d hk. rewrite fw, fv. destruct k as [|[|k]]; [reflexivity|reflexivity|lia]. }
  assert (hb : in_balance s2 k2 (vector_of ns2 v)).
  { apply (weak_balance (cantilever ++ [middle]) _ shb so _ _ _ s2 ns2 k2 _ h2 (one_load_plain 2 P)). intros y.
    assert (z : forall d, field_of ns2 y 0 d = 0) by (intros d; unfold field_of; rewrite (proj2 (f2 0%nat d ltac:(lia)) eq_refl); reflexivity).
    unfold mutual. cbn [map nsum]. change (settled (cantilever ++ [middle]) (one_beam (piece (bar 2) 1) 0 2)) with (one_beam (bar 1) 0 2). change (settled (cantilever ++ [middle]) (one_beam (piece (bar 2) 1) 2 1)) with (one_beam (bar 1) 2 1).
    rewrite !(level_form (cantilever ++ [middle]) (bar 1) 0 2 _ n1), !(level_form (cantilever ++ [middle]) (bar 1) 2 1 _ n2) by (try (split; reflexivity); apply bar_sound; lra).
    rewrite one_load_work, !fv, !z. unfold v, beam_energy, shear_area. cbn [bar b_E b_nu b_rho b_A b_I b_shear_factor b_l]. destruct (Rlt_dec 0 0) as [q|_]; [lra|]. rnum. field. }
  exists s1, ns1, k1, (vector_of ns1 w), s2, ns2, k2, (vector_of ns2 v). cbv zeta. split; [exact h1|]. split; [exact h2|]. split; [cbn; lra|]. split; [exact sf|]. split; [exact hb|]. split; [exact hxy|].
  split; [|split; [apply fv|split; [apply fw|apply fw]]].
  apply (C148_load_between cantilever middle [] (bar 2) 0 1 1 1 [] P clamp_left clamp_left undamped undamped s1 ns1 k1 s2 ns2 k2 (vector_of ns1 w) (vector_of ns2 v) h1 h2); try exact hb; try exact hxy; try exact sf; try (constructor; fail).
  - cbn. lia.
  - split; [exact n1|exact n2].
  - cbn. lra.
  - split; reflexivity.
  - apply bar_sound. lra.
  - cbn. lra.
Qed.
