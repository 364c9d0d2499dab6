(** * Lemmas for tracks whose segments are laid in the opposite order *)

From Coq Require Import Reals List Bool ZArith Arith Lia Lra Permutation.
From Verif Require Import Num PyBase Model_Geometry Model_System Spec_System Proofs_Dof Proofs_System Model_Element Spec_Element
  Proofs_Elements Proofs_Element Proofs_Beam Model_Accumulation Proofs_Accumulation Model_Coupled Model_Mesh Spec_Mesh Proofs_Mesh Proofs_Join Props_Mesh Model_Track Spec_Track Spec_Generated Proofs_Track
  Proofs_Assembly Proofs_Generated Props_Generated Spec_Analytic Spec_Motion Proofs_Motion Spec_Chain Proofs_Chain Spec_Renumber Proofs_Renumber Spec_Balance Proofs_Balance Props_Balance
  Spec_Structure Proofs_Structure Proofs_Line Props_Structure Spec_Stiffer Proofs_Stiffer Props_Stiffer Spec_Cut Proofs_Cut Spec_Turn Proofs_Turn Spec_Mirror Proofs_Mirror Props_Mirror Spec_Opposite.
Import ListNotations.
Local Open Scope R_scope.

Lemma rev_line d n : rev (map (fun i => INR i * d) (seq 0 n)) = map (fun i => INR (n - 1) * d - INR i * d) (seq 0 n).
Proof.
  apply (List.nth_ext _ _ 0 0); [rewrite rev_length, !map_length; reflexivity|]. intros i hi. rewrite rev_length, map_length, seq_length in hi.
  rewrite rev_nth by (rewrite map_length, seq_length; exact hi). rewrite map_length, seq_length.
  rewrite (nth_indep _ 0 (INR 0 * d)) by (rewrite map_length, seq_length; lia). rewrite (map_nth (fun i => INR i * d)).
  rewrite (nth_indep _ 0 (INR (n - 1) * d - INR 0 * d)) by (rewrite map_length, seq_length; lia). rewrite (map_nth (fun i => INR (n - 1) * d - INR i * d)).
  rewrite !seq_nth by lia. cbn [Nat.add]. replace (n - S i)%nat with (n - 1 - i)%nat by lia. rewrite minus_INR by lia. ring.
Qed.

Lemma rev_combine {A B} (l : list A) (m : list B) : length l = length m -> rev (combine l m) = combine (rev l) (rev m).
Proof.
  revert m. induction l as [|x l IH]; intros [|y m] h; try discriminate; [reflexivity|]. cbn [combine rev]. rewrite IH by (cbn in h; congruence).
  assert (g : forall (l1 l2 : list A) (m1 m2 : list B), length l1 = length m1 -> combine (l1 ++ l2) (m1 ++ m2) = combine l1 m1 ++ combine l2 m2).
  { induction l1 as [|u l1 IH1]; intros l2 [|v m1] m2 e; try discriminate; [reflexivity|]. cbn. rewrite IH1 by (cbn in e; congruence). reflexivity. }
  rewrite g by (rewrite !rev_length; cbn in h; congruence). reflexivity.
Qed.

Lemma held_perm cs cs2 p : Forall2 (fun c c2 : list nat * tri bool => Permutation (fst c) (fst c2) /\ snd c = snd c2) cs cs2 -> held cs p = held cs2 p.
Proof.
  intros h. unfold held. generalize (@None (tri bool)). induction h as [|c c2 l l2 [h1 h2] hs IH]; intros o; [reflexivity|]. cbn [fold_left].
  replace (existsb (Nat.eqb p) (fst c2)) with (existsb (Nat.eqb p) (fst c)); [rewrite h2; apply IH|]. clear - h1. induction h1; cbn; [reflexivity|congruence| |congruence].
  rewrite !orb_assoc. f_equal. apply orb_comm.
Qed.

Lemma Forall2_len {A B} (P : A -> B -> Prop) l m : Forall2 P l m -> length l = length m.
Proof. induction 1; cbn; congruence. Qed.

Section Opposite.
  Variables (d : R) (specs specs' : list (nat * R)) (j j' : joined) (c c' : heap R) (mesh mesh' : list nat).
  Hypothesis hd : 1 / 1000000000 < d / INR 1.
  Hypothesis hseg : segments specs.
  Hypothesis hseg' : segments specs'.
  Hypothesis la : laid specs d 1 j c mesh.
  Hypothesis la' : laid specs' d 1 j' c' mesh'.
  Variables (soils soils' : list (R * option R * option R)).
  Hypothesis hlen : length soils = length specs.
  Hypothesis hlen' : length soils' = length specs'.
  Hypothesis same : per_sleeper specs' soils' = rev (per_sleeper specs soils).

  Let a := INR (sleeper_count specs - 1) * d.
  Let mir (t : tri R) : tri R := T3 (a - tx t) (ty t) (tr t).

  Lemma op_d : 0 < d / INR 1.
  Proof. lra. Qed.
  Lemma op_count : sleeper_count specs' = sleeper_count specs.
  Proof. rewrite <- (per_count specs soils hlen), <- (per_count specs' soils' hlen'), same. apply rev_length. Qed.
  Lemma op_long : length (jn_rail_nodes j) = sleeper_count specs /\ length (jn_rail_nodes j') = sleeper_count specs.
  Proof. rewrite (la_long _ _ _ _ _ _ la), (la_long _ _ _ _ _ _ la'), op_count. lia. Qed.
  Lemma rail_places specs0 j0 c0 mesh0 : laid specs0 d 1 j0 c0 mesh0 -> length (jn_rail_nodes j0) = sleeper_count specs ->
    map c0 (jn_rail_nodes j0) = map (fun x => T3 x 0 0) (map (fun i => INR i * d) (seq 0 (sleeper_count specs))).
  Proof.
    intros l0 hl. apply (List.nth_ext _ _ (c0 0%nat) (T3 0 0 0)); [rewrite !map_length, seq_length; exact hl|]. intros i hi. rewrite map_length in hi. rewrite map_nth, (la_rail _ _ _ _ _ _ l0) by exact hi.
    rewrite map_map. rewrite (nth_indep _ (T3 0 0 0) (T3 (INR 0 * d) 0 0)) by (rewrite map_length, seq_length; lia). rewrite (map_nth (fun i => T3 (INR i * d) 0 0)), seq_nth by lia. cbn [Nat.add INR]. unfold Rdiv. rewrite Rinv_1, Rmult_1_r. reflexivity.
  Qed.
  Lemma op_rail : map (fun p => mir (c p)) (jn_rail_nodes j) = map c' (rev (jn_rail_nodes j')).
  Proof.
    destruct op_long as [l1 l2]. rewrite map_rev, (rail_places _ _ _ _ la' l2), <- map_rev, rev_line. rewrite <- (map_map c mir), (rail_places _ _ _ _ la l1), !map_map. reflexivity.
  Qed.
  Lemma sleeper_line specs0 j0 c0 mesh0 : segments specs0 -> laid specs0 d 1 j0 c0 mesh0 -> sleeper_count specs0 = sleeper_count specs ->
    map c0 (jn_sleepers j0) = map (fun x => T3 x (-1) 0) (map (fun i => INR i * d) (seq 0 (sleeper_count specs))).
  Proof.
    intros s0 l0 e. rewrite (la_sleepers _ _ _ _ _ _ l0), places_one by apply s0. rewrite e, !map_map. apply map_ext. intros i. rewrite Rplus_0_l. reflexivity.
  Qed.
  Lemma op_sleepers : map (fun p => mir (c p)) (jn_sleepers j) = map c' (rev (jn_sleepers j')).
  Proof.
    rewrite map_rev, (sleeper_line _ _ _ _ hseg' la' op_count), <- map_rev, rev_line. rewrite <- (map_map c mir), (sleeper_line _ _ _ _ hseg la eq_refl), !map_map. reflexivity.
  Qed.
  Lemma op_ends : map (fun p => mir (c p)) (soil_ends j) = map c' (rev (soil_ends j')).
  Proof.
    rewrite <- (map_map c mir), map_rev. unfold soil_ends. rewrite (soil_depths c _ _ _ (la_soil _ _ _ _ _ _ la)), (soil_depths c' _ _ _ (la_soil _ _ _ _ _ _ la')).
    rewrite <- map_rev. rewrite (la_under _ _ _ _ _ _ la), (la_under _ _ _ _ _ _ la'), <- (per_depth specs soils hlen), <- (per_depth specs' soils' hlen'), same.
    assert (n1 : length (jn_sleepers j) = sleeper_count specs) by (pose proof (f_equal (@length _) (sleeper_line _ _ _ _ hseg la eq_refl)) as e; rewrite !map_length, seq_length in e; exact e).
    assert (n2 : length (jn_sleepers j') = sleeper_count specs) by (pose proof (f_equal (@length _) (sleeper_line _ _ _ _ hseg' la' op_count)) as e; rewrite !map_length, seq_length in e; exact e).
    rewrite rev_combine by (rewrite !map_length, rev_length, per_count by exact hlen; exact n2). rewrite map_rev, rev_involutive, <- map_rev.
    assert (e : map (fun p => tx (c' p)) (rev (jn_sleepers j')) = map (fun p => a - tx (c p)) (jn_sleepers j)).
    { pose proof (f_equal (map (@tx R)) op_sleepers) as e. rewrite !map_map in e. cbn [mir tx] in e. symmetry. exact e. }
    rewrite e, map_map. generalize (map fst (per_sleeper specs soils)). generalize (jn_sleepers j). intros l. induction l as [|p l IH]; intros [|v vs]; try reflexivity. cbn [map combine fst snd]. rewrite IH. reflexivity.
  Qed.
  Lemma op_nodes : map (fun p => mir (c p)) (jn_rail_nodes j ++ jn_sleepers j ++ soil_ends j) = map c' (rev (jn_rail_nodes j') ++ rev (jn_sleepers j') ++ rev (soil_ends j')).
  Proof. rewrite !map_app, op_rail, op_sleepers, op_ends. reflexivity. Qed.
  Lemma op_all' : Permutation (rev (jn_rail_nodes j') ++ rev (jn_sleepers j') ++ rev (soil_ends j')) (seq 0 (length mesh')).
  Proof.
    eapply Permutation_trans; [|exact (la_all _ _ _ _ _ _ la')]. repeat apply Permutation_app; apply Permutation_sym, Permutation_rev.
  Qed.
  Lemma op_size : length mesh = length mesh'.
  Proof.
    pose proof (Permutation_length (la_all _ _ _ _ _ _ la)) as e1. pose proof (Permutation_length op_all') as e2. rewrite seq_length in e1, e2.
    pose proof (f_equal (@length _) op_nodes) as e. rewrite !map_length in e. congruence.
  Qed.

  Lemma op_matched : exists f, opposed f j j' /\ (forall p, (length mesh <= p)%nat -> f p = p).
  Proof.
    pose proof op_all' as h'. rewrite <- op_size in h'.
    destruct (match_lists (length mesh) _ _ (la_all _ _ _ _ _ _ la) h') as [f [f1 [f2 [f3 f4]]]]. exists f. split; [|exact f4].
    rewrite !map_app in f1. destruct op_long as [l1 l2]. apply app_split in f1; [|rewrite map_length, rev_length; congruence]. destruct f1 as [f0 f1].
    apply app_split in f1; [|rewrite map_length; pose proof (f_equal (@length _) op_sleepers) as e; rewrite !map_length in e; exact e]. destruct f1 as [g1 g2].
    split; [exact f0|]. split; [exact g1|]. split; [exact g2|exact f2].
  Qed.

  Variable f : nat -> nat.
  Hypothesis hf : opposed f j j'.
  Hypothesis hout : forall p, (length mesh <= p)%nat -> f p = p.
  Let ns := joined_mesh c (seq 0 (length mesh)).
  Let ms := joined_mesh c' (seq 0 (length mesh')).

  Lemma of_all : map f (jn_rail_nodes j ++ jn_sleepers j ++ soil_ends j) = rev (jn_rail_nodes j') ++ rev (jn_sleepers j') ++ rev (soil_ends j').
  Proof. destruct hf as [e1 [e2 [e3 _]]]. rewrite !map_app, e1, e2, e3. reflexivity. Qed.
  Lemma of_place p : (p < length mesh)%nat -> (f p < length mesh)%nat /\ c' (f p) = mir (c p).
  Proof.
    intros hp. assert (hin : In p (jn_rail_nodes j ++ jn_sleepers j ++ soil_ends j)) by (apply (Permutation_in _ (Permutation_sym (la_all _ _ _ _ _ _ la))), in_seq; lia).
    split.
    - assert (g : In (f p) (rev (jn_rail_nodes j') ++ rev (jn_sleepers j') ++ rev (soil_ends j'))) by (rewrite <- of_all; apply in_map; exact hin).
      apply (Permutation_in _ op_all'), in_seq in g. rewrite op_size. lia.
    - pose proof op_nodes as e. rewrite <- of_all, map_map in e. clear - e hin. revert hin e. generalize (jn_rail_nodes j ++ jn_sleepers j ++ soil_ends j).
      induction l as [|x l IH]; intros hin e; [destruct hin|]. cbn [map] in e. injection e as e1 e2. destruct hin as [->|hin]; [symmetry; exact e1|apply IH; assumption].
  Qed.
  Lemma of_mesh : renumbered_mesh f (mirrored a ns) ms.
  Proof.
    unfold ns, ms. split; [unfold mirrored; rewrite map_length, !line_length; symmetry; exact op_size|]. split; [apply hf|]. intros p. unfold mirrored. rewrite nth_error_map.
    destruct (Nat.lt_ge_cases p (length mesh)) as [hp|hp].
    - destruct (of_place p hp) as [g1 g2]. rewrite (line_nth c _ p hp). rewrite (line_nth c' (length mesh') (f p)) by (rewrite <- op_size; exact g1). rewrite g2. split; reflexivity.
    - rewrite hout by exact hp.
      assert (e1 : nth_error (joined_mesh c (seq 0 (length mesh))) p = None) by (apply nth_error_None; rewrite line_length; exact hp).
      assert (e2 : nth_error (joined_mesh c' (seq 0 (length mesh'))) p = None) by (apply nth_error_None; rewrite line_length, <- op_size; exact hp).
      rewrite e1, e2. exact I.
  Qed.

  (** the elements *)
  Let fe (e : nat * nat) : nat * nat := (f (fst e), f (snd e)).
  Lemma of_rail_els : map fe (jn_rail_els j) = rev (map (fun e => (snd e, fst e)) (jn_rail_els j')).
  Proof.
    destruct (la_line _ _ _ _ _ _ la) as [l1 l2]. destruct (la_line _ _ _ _ _ _ la') as [k1 k2]. destruct op_long as [n1 n2]. destruct hf as [e1 _].
    apply (List.nth_ext _ _ (fe (0, 0)%nat) (0, 0)%nat); [rewrite rev_length, !map_length; lia|]. intros i hi. rewrite map_length in hi. rewrite map_nth.
    rewrite rev_nth by (rewrite map_length; lia). rewrite map_length. change (0, 0)%nat with ((fun e : nat * nat => (snd e, fst e)) (0, 0)%nat) at 2. rewrite map_nth.
    rewrite (nth_error_nth _ _ _ (l2 i ltac:(lia))), (nth_error_nth _ _ _ (k2 (length (jn_rail_els j') - S i)%nat ltac:(lia))). unfold fe. cbn [fst snd].
    assert (g : forall q, (q < sleeper_count specs)%nat -> f (nth q (jn_rail_nodes j) 0%nat) = nth (sleeper_count specs - S q) (jn_rail_nodes j') 0%nat).
    { intros q hq. rewrite <- (map_nth f), e1. rewrite (nth_indep _ (f 0%nat) 0%nat) by (rewrite rev_length; lia). rewrite rev_nth by lia. rewrite n2. reflexivity. }
    rewrite !g by lia. f_equal; f_equal; lia.
  Qed.
  Lemma orange_pad e : In e (jn_pad_els j) -> (fst e < length mesh)%nat /\ (snd e < length mesh)%nat.
  Proof.
    destruct e as [x y]. intros h. assert (g : forall p, In p (jn_rail_nodes j ++ jn_sleepers j ++ soil_ends j) -> (p < length mesh)%nat).
    { intros p hp. apply (Permutation_in _ (la_all _ _ _ _ _ _ la)), in_seq in hp. lia. }
    split; apply g; apply in_or_app; [left; apply (la_above _ _ _ _ _ _ la x y h)|right; apply in_or_app; left; rewrite <- (la_pads _ _ _ _ _ _ la); exact (in_map snd _ _ h)].
  Qed.
  Lemma of_pad_els : map fe (jn_pad_els j) = rev (jn_pad_els j').
  Proof.
    assert (e2 : map snd (map fe (jn_pad_els j)) = map snd (rev (jn_pad_els j'))).
    { rewrite map_rev, (la_pads _ _ _ _ _ _ la'), map_map. change (fun x => snd (fe x)) with (fun x : nat * nat => f (snd x)). rewrite <- (map_map snd f), (la_pads _ _ _ _ _ _ la). apply hf. }
    apply pairs_ext; [|exact e2]. rewrite map_map. unfold fe. cbn [fst].
    assert (h' : forall x y, In (x, y) (rev (jn_pad_els j')) -> In x (jn_rail_nodes j') /\ tx (c' x) = tx (c' y)) by (intros x y hin; apply (la_above _ _ _ _ _ _ la'); apply in_rev; exact hin).
    assert (h : forall e, In e (jn_pad_els j) -> In (f (fst e)) (jn_rail_nodes j') /\ tx (c' (f (fst e))) = tx (c' (f (snd e)))).
    { intros [x y] he. destruct (orange_pad (x, y) he) as [r1 r2]. cbn [fst snd] in *. rewrite (proj2 (of_place x r1)), (proj2 (of_place y r2)).
      destruct (la_above _ _ _ _ _ _ la x y he) as [g1 g2]. split; [|cbn [mir tx]; rewrite g2; reflexivity]. destruct hf as [e1 _]. apply in_rev. rewrite <- e1. apply in_map. exact g1. }
    pose proof (same_distinct c' _ _ op_d (la_rail _ _ _ _ _ _ la')) as hu. clear - e2 h h' hu. revert e2 h h'. generalize (jn_pad_els j) (rev (jn_pad_els j')).
    induction l as [|[x y] l IH]; intros [|[x' y'] l'] e2 h h'; try discriminate; [reflexivity|]. cbn [map fst snd fe] in *. injection e2 as e0 e2. f_equal.
    - destruct (h (x, y) (or_introl eq_refl)) as [g1 g2]. destruct (h' x' y' (or_introl eq_refl)) as [g3 g4]. cbn [fst snd] in *. apply hu; [exact g1|exact g3|]. rewrite g2, g4, e0. reflexivity.
    - apply IH; [exact e2|intros; apply h; right; assumption|intros; apply h'; right; assumption].
  Qed.
  Lemma of_soil_els : map fe (flat_map snd (jn_soil j)) = rev (flat_map snd (jn_soil j')).
  Proof.
    destruct hf as [_ [e1 [e2 _]]]. unfold soil_ends in e2. apply pairs_ext.
    - rewrite map_rev, (la_under _ _ _ _ _ _ la'), <- e1, <- (la_under _ _ _ _ _ _ la), !map_map. reflexivity.
    - rewrite map_rev, <- e2, !map_map. reflexivity.
  Qed.
  Lemma of_soil_list : rev (soil_list (jn_soil j') soils') = map (fun q => (fe (fst q), snd q)) (soil_list (jn_soil j) soils).
  Proof.
    rewrite (soil_values _ _ _ _ (la_soil _ _ _ _ _ _ la) hlen), (soil_values _ _ _ _ (la_soil _ _ _ _ _ _ la') hlen'), same. rewrite <- combine_map, of_soil_els.
    rewrite rev_combine; [rewrite map_rev, rev_involutive; reflexivity|]. rewrite map_length, rev_length, per_count by exact hlen.
    pose proof (f_equal (@length _) (la_under _ _ _ _ _ _ la')) as e. rewrite map_length in e. rewrite e.
    pose proof (f_equal (@length _) (sleeper_line _ _ _ _ hseg' la' op_count)) as e2. rewrite !map_length, seq_length in e2. exact e2.
  Qed.

  (** the parts *)
  Hypothesis hclear : 1 / 100000000 < d.
  Hypothesis hline : line c (length mesh) (d / INR 1) j.
  Hypothesis hline' : line c' (length mesh') (d / INR 1) j'.
  Variables (rail : beam R) (pad : R * option R * option R) (sleeper : R).
  Hypothesis hrail : b_s1 rail = b_s2 rail.
  Let parts := joined_parts j rail pad sleeper soils.
  Let parts' := joined_parts j' rail pad sleeper soils'.

  Lemma rail_spread e : In e (jn_rail_els j') -> fst (xy ms (snd e)) - fst (xy ms (fst e)) = d.
  Proof.
    intros he. destruct (la_line _ _ _ _ _ _ la') as [h1 h2]. destruct (In_nth_error _ _ he) as [q hq]. assert (hlt : (q < length (jn_rail_els j'))%nat) by (apply nth_error_Some; congruence).
    rewrite h2 in hq by lia. injection hq as <-. cbn [fst snd].
    assert (g : forall i, (i < length (jn_rail_nodes j'))%nat -> fst (xy ms (nth i (jn_rail_nodes j') 0%nat)) = INR i * d).
    { intros i hi. unfold ms. rewrite line_xy; [cbn [fst]; rewrite (la_rail _ _ _ _ _ _ la') by exact hi; cbn [tx INR]; field|].
      assert (h : In (nth i (jn_rail_nodes j') 0%nat) (jn_rail_nodes j' ++ jn_sleepers j' ++ soil_ends j')) by (apply in_or_app; left; apply nth_In; exact hi).
      apply (Permutation_in _ (la_all _ _ _ _ _ _ la')), in_seq in h. lia. }
    rewrite !g by lia. rewrite S_INR. ring.
  Qed.

  Lemma of_totals aux u : is_aux aux ->
    nsum (map (fun p => part_form aux ms u (settled ms p)) parts') = nsum (map (fun p => part_form aux (mirrored a ns) (fun i e => u (f i) e) (settled (mirrored a ns) p)) parts).
  Proof.
    intros ha. pose proof of_mesh as hm. pose proof of_rail_els as er. pose proof of_pad_els as ep. pose proof of_soil_list as es. destruct hf as [r1 [r2 _]]. unfold parts, parts', joined_parts. cbn [map nsum]. rewrite !map_map.
    f_equal; [|f_equal; [|f_equal]].
    - apply (image_form a f ns ms); [exact hm|exact ha| |].
      + unfold ns, ms. rewrite (line_settled c (length mesh) (d / INR 1) j rail soils), (line_settled c' (length mesh') (d / INR 1) j' rail soils'); [reflexivity|..]; try exact op_d;
          first [exact (ln_long _ _ _ _ hline)|exact (ln_long _ _ _ _ hline')|exact (ln_rail _ _ _ _ hline)|exact (ln_rail _ _ _ _ hline')|exact (ln_line _ _ _ _ hline)|exact (ln_line _ _ _ _ hline')
            |exact (ln_pads _ _ _ _ hline)|exact (ln_pads _ _ _ _ hline')|exact (ln_below _ _ _ _ hline)|exact (ln_below _ _ _ _ hline')|rewrite hlen; symmetry; exact (Forall2_len _ _ _ (la_soil _ _ _ _ _ _ la))|rewrite hlen'; symmetry; exact (Forall2_len _ _ _ (la_soil _ _ _ _ _ _ la'))].
      + cbn [ep_kind ep_els]. exists (rev (jn_rail_els j')). split; [|apply Permutation_rev]. unfold fe in er. rewrite er, <- map_rev.
        assert (g : forall e, In e (rev (jn_rail_els j')) -> turnable ms (KRail rail) (snd e, fst e)).
        { intros e he. apply in_rev in he. split; [exact hrail|]. right. cbn [fst snd]. pose proof (rail_spread e he) as h. rewrite <- Rabs_Ropp. replace (- (fst (xy ms (fst e)) - fst (xy ms (snd e)))) with d by lra. rewrite Rabs_right; lra. }
        revert g. generalize (rev (jn_rail_els j')). induction l as [|e l IH]; intros g; constructor; [|apply IH; intros; apply g; right; assumption].
        right. split; [destruct e; reflexivity|apply g; left; reflexivity].
    - change (settled ms (springs pad (jn_pad_nodes j') (jn_pad_els j'))) with (springs pad (jn_pad_nodes j') (jn_pad_els j')).
      change (settled (mirrored a ns) (springs pad (jn_pad_nodes j) (jn_pad_els j))) with (springs pad (jn_pad_nodes j) (jn_pad_els j)).
      rewrite !springs_split. rewrite (nsum_perm _ _ (Permutation_map _ (Permutation_rev (jn_pad_els j')))). rewrite <- ep, map_map. apply nsum_map_ext. intros e _.
      apply (same_form f _ ms hm). split; [reflexivity|]. split; [reflexivity|apply Permutation_refl].
    - apply (image_form a f ns ms); [exact hm|exact ha|reflexivity|]. cbn [ep_kind ep_nodes]. rewrite r2. apply Permutation_rev.
    - rewrite !soils_split. rewrite (nsum_perm _ _ (Permutation_map _ (Permutation_rev (soil_list (jn_soil j') soils')))), es, map_map. apply nsum_map_ext. intros [[x y] v] _. cbn [fst snd fe].
      apply (same_form f _ ms hm). split; [reflexivity|]. split; [reflexivity|apply Permutation_refl].
  Qed.

  Lemma of_mirrorable : Forall (mirrorable ns) parts.
  Proof.
    unfold parts, joined_parts. constructor; [|constructor; [exact I|constructor; [exact I|]]].
    - intros e he. destruct (la_line _ _ _ _ _ _ la) as [h1 h2]. cbn [ep_els] in he. destruct (In_nth_error _ _ he) as [q hq]. assert (hlt : (q < length (jn_rail_els j))%nat) by (apply nth_error_Some; congruence).
      rewrite h2 in hq by lia. injection hq as <-. cbn [fst snd]. right. left.
      assert (g : forall i, (i < length (jn_rail_nodes j))%nat -> xy ns (nth i (jn_rail_nodes j) 0%nat) = (INR i * d, 0)).
      { intros i hi. unfold ns. rewrite line_xy; [rewrite (la_rail _ _ _ _ _ _ la) by exact hi; cbn [tx ty INR]; f_equal; field|].
        assert (h : In (nth i (jn_rail_nodes j) 0%nat) (jn_rail_nodes j ++ jn_sleepers j ++ soil_ends j)) by (apply in_or_app; left; apply nth_In; exact hi).
        apply (Permutation_in _ (la_all _ _ _ _ _ _ la)), in_seq in h. lia. }
      rewrite !g by lia. cbn [fst snd]. rewrite S_INR. split; [reflexivity|]. nra.
    - apply Forall_map, Forall_forall. intros q _. exact I.
  Qed.

  (** the constraints *)
  Lemma of_sides : Forall2 (fun c c2 : list nat * tri bool => Permutation (fst c) (fst c2) /\ snd c = snd c2)
    [joined_sides j'; fixed_nodes (soil_ends j')] (map (renumbered_constraint f) [joined_sides j; fixed_nodes (soil_ends j)]).
  Proof.
    pose proof (la_long _ _ _ _ _ _ la) as hl. destruct hseg as [_ hc]. destruct hf as [e [_ [e2 _]]]. cbn [map]. constructor; [|constructor; [|constructor]].
    - split; [|reflexivity]. unfold renumbered_constraint, joined_sides. cbn [fst snd map].
      replace (jn_rail_nodes j') with (rev (map f (jn_rail_nodes j))) by (rewrite e; apply rev_involutive).
      destruct (jn_rail_nodes j) as [|x l] eqn:er; [cbn in hl; lia|]. cbn [List.hd].
      assert (last_rev : forall (k : list nat) z, last (rev (z :: k)) 0%nat = z) by (intros k z; cbn [rev]; apply last_last).
      assert (hd_rev : forall (k : list nat) z, List.hd 0%nat (rev (z :: k)) = last (z :: k) 0%nat).
      { intros k z. rewrite <- (rev_involutive (z :: k)) at 2. remember (rev (z :: k)) as t eqn:et. destruct t as [|w t]; [apply (f_equal (@length _)) in et; rewrite rev_length in et; discriminate|]. rewrite last_rev. reflexivity. }
      cbn [map]. rewrite last_rev, hd_rev.
      assert (lm : forall k z, last (f z :: map f k) 0%nat = f (last (z :: k) 0%nat)).
      { clear. induction k as [|b k IH]; intros z; [reflexivity|]. change (last (f b :: map f k) 0%nat = f (last (b :: k) 0%nat)). apply IH. }
      rewrite lm. apply perm_swap.
    - split; [|reflexivity]. unfold renumbered_constraint, fixed_nodes. cbn [fst snd]. rewrite e2. apply Permutation_rev.
  Qed.
  Lemma of_constraints cs cs' ps ls da : script_constraints j c cs -> script_constraints j' c' cs' ->
    initialise_system ms ps ls cs' da = initialise_system ms ps ls (map (renumbered_constraint f) [joined_sides j; fixed_nodes (soil_ends j)]) da /\
    (forall ns0 : list (node R), initialise_system ns0 parts ls cs da = initialise_system ns0 parts ls [joined_sides j; fixed_nodes (soil_ends j)] da).
  Proof.
    intros [b [h1 ->]] [b' [h2 ->]]. rewrite (line_bottoms c _ _ j hline) in h1. rewrite (line_bottoms c' _ _ j' hline') in h2. injection h1 as <-. injection h2 as <-.
    split; [|intros ns0]; rewrite !constraints_concat, !flat_ends; [|reflexivity]. apply held_alike. intros p. apply held_perm. exact of_sides.
  Qed.
End Opposite.

(** ** the mirrored system *)
Section Flip.
  Variables (a : R) (ns : list (node R)) (ps : list (epart R)) (ls : list (load R)) (cs : list (list nat * tri bool)) (da : damping R).
  Variables (s : gsys R) (ns' : list (node R)) (n : nat) (s1 : gsys R) (ns1 : list (node R)) (m : nat).
  Hypothesis shapes : Forall shaped ps.
  Hypothesis sounds : Forall (fun p => sound (settled ns p)) ps.
  Hypothesis inside : Forall (within ns) ps.
  Hypothesis straight_parts : Forall (mirrorable ns) ps.
  Hypothesis plain : Forall plain_load ls.
  Hypothesis run : initialise_system ns ps ls cs da = Ok (s, ns', n).
  Hypothesis run1 : initialise_system (mirrored a ns) ps (map mirrored_load ls) cs da = Ok (s1, ns1, m).

  Lemma flip_none p e : number_of ns' p e = None <-> number_of ns1 p e = None.
  Proof.
    assert (len : length (mirrored a ns) = length ns) by apply map_length.
    pose proof (number_flip a ns ps ls cs da s ns' n shapes inside straight_parts run s1 ns1 m run1 p e) as h.
    destruct (number_of ns' p e) as [i|] eqn:e1, (number_of ns1 p e) as [j|] eqn:e2; try tauto; (split; [try discriminate|try discriminate]); intros _; exfalso.
    - pose proof (proj2 (below _ _ _ _ _ _ _ _ run p e i e1)) as hb. apply (proj1 (h hb)); congruence.
    - pose proof (proj2 (below _ _ _ _ _ _ _ _ run1 p e j e2)) as hb. rewrite len in hb. apply (proj2 (h hb)); congruence.
  Qed.

  (** the mirrored vector *)
  Definition image (x : nat -> R) : nat -> R := vector_of ns1 (fun p e => side e * field_of ns' x p e).
  Lemma image_field x p e : field_of ns1 (image x) p e = side e * field_of ns' x p e.
  Proof.
    destruct (initialise_inv _ _ _ _ _ _ _ _ run1) as [z [_ [ez _]]]. destruct (initialise_kept _ _ _ _ _ _ _ _ _ run1 ez) as [_ [hnum _]].
    apply (vector_field ns1 m (fun p e => side e * field_of ns' x p e) hnum). intros q d hq. apply flip_none in hq. unfold field_of. rewrite hq. ring.
  Qed.
  Lemma image_at x p e i j : number_of ns' p e = Some i -> number_of ns1 p e = Some j -> image x j = side e * x i.
  Proof. intros h1 h2. pose proof (image_field x p e) as h. unfold field_of in h. rewrite h1, h2 in h. exact h. Qed.

  Lemma flip_balance x : in_balance s n x -> in_balance s1 m (image x).
  Proof.
    intros hx j hj. destruct (place_flip a ns ps ls cs da s ns' n shapes inside straight_parts run s1 ns1 m run1 j hj) as [p [d [i [h1 h2]]]].
    destruct (mulv_flip a ns ps ls cs da s ns' n shapes sounds inside straight_parts run s1 ns1 m run1 x (image x) p d i j) as [-> _]; [intros q e k l; apply image_at|exact h1|exact h2|].
    rewrite (hx i (proj1 (below _ _ _ _ _ _ _ _ run p d i h1))). symmetry. exact (force_flip a ns ps ls cs da s ns' n run s1 ns1 m run1 p d i j plain h1 h2).
  Qed.

  Lemma flip_definite : pos_def n (me (gK s)) -> pos_def m (me (gK s1)).
  Proof.
    intros hp y [j [hj hy]].
    destruct (initialise_inv _ _ _ _ _ _ _ _ run) as [z [_ [ez _]]]. destruct (initialise_kept _ _ _ _ _ _ _ _ _ run ez) as [_ [hnum _]].
    set (x := vector_of ns' (fun p e => side e * field_of ns1 y p e)).
    assert (hx : forall p e, field_of ns' x p e = side e * field_of ns1 y p e).
    { apply (vector_field ns' n (fun p e => side e * field_of ns1 y p e) hnum). intros q d hq. apply flip_none in hq. unfold field_of. rewrite hq. ring. }
    assert (hm : mirror_vec ns' ns1 x y).
    { intros p d i k h1 h2. specialize (hx p d). unfold field_of in hx. rewrite h1, h2 in hx. rewrite hx, <- Rmult_assoc, side_side. ring. }
    destruct (quad_flip a ns ps ls cs da s ns' n shapes inside straight_parts run s1 ns1 m run1 x y hm) as [-> _]. apply hp.
    destruct (place_flip a ns ps ls cs da s ns' n shapes inside straight_parts run s1 ns1 m run1 j hj) as [p [d [i [h1 h2]]]]. exists i. split; [exact (proj1 (below _ _ _ _ _ _ _ _ run p d i h1))|].
    intros e0. apply hy. rewrite (hm p d i j h1 h2), e0. ring.
  Qed.
End Flip.
