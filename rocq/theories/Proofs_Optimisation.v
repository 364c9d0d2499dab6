(** * Proofs about fitting parameters *)

From Coq Require Import String.
From Coq Require Import Reals List Bool ZArith Arith Lia Lra.
From Verif Require Import Num PyBase Model_System Model_Coupled Model_Accumulation Model_Optimisation Spec_Accumulation Spec_Optimisation
  Proofs_System Proofs_Moving Proofs_Coupled Proofs_Accumulation Proofs_Runs Proofs_Swarm.
Import ListNotations.
Local Open Scope R_scope.

Section Opt.
  Context {M : Type}.
  Implicit Types (m : model R M) (o : optimisation R M).

  (** ** writing the parameters *)

  Definition write_one (params : list R) (idx : nat) (name : string) m (i : nat) : option (model R M) :=
    match nth_error (md_parts m) idx, nth_error params i with
    | Some a, Some v => Some {| md_parts := lset (md_parts m) idx (setattr a name v); md_rest := md_rest m |}
    | _, _ => None
    end.
  Fixpoint write_flat (params : list R) (slots : list (nat * string)) m (i : nat) : model R M * nat * option err :=
    match slots with
    | [] => (m, i, None)
    | (idx, name) :: l => match write_one params idx name m i with Some m => write_flat params l m (S i) | None => (m, i, Some ErrIndex) end
    end.
  Definition slots (l : list (nat * opart)) : list (nat * string) := flat_map (fun q => map (pair (fst q)) (opart_names (snd q))) l.
  Lemma write_flat_app params a b m i : write_flat params (a ++ b) m i = match write_flat params a m i with (m, i, None) => write_flat params b m i | out => out end.
  Proof. revert m i. induction a as [|[idx name] a ih]; intros m i; cbn; [reflexivity|]. destruct (write_one params idx name m i); [apply ih|reflexivity]. Qed.
  Lemma write_names_flat params idx names m i : write_names params idx names m i = write_flat params (map (pair idx) names) m i.
  Proof. revert m i. induction names as [|name l ih]; intros m i; cbn; [reflexivity|]. unfold write_one. destruct (nth_error (md_parts m) idx); [|reflexivity]. destruct (nth_error params i); [apply ih|reflexivity]. Qed.
  Lemma write_parts_flat params l m i : write_parts params l m i = write_flat params (slots l) m i.
  Proof.
    revert m i. induction l as [|[idx p] l ih]; intros m i; cbn; [reflexivity|]. rewrite write_flat_app, write_names_flat. cbn [fst snd].
    destruct (write_flat params (map (pair idx) (opart_names p)) m i) as [[m' i'] [e|]]; [reflexivity|apply ih].
  Qed.

  Lemma write_flat_ok params l m : (forall j name, In (j, name) l -> (j < length (md_parts m))%nat) -> (length l <= length params)%nat ->
    exists m', write_flat params l m 0 = (m', length l, None) /\ md_rest m' = md_rest m /\ length (md_parts m') = length (md_parts m) /\
    forall j a0 a, nth_error (md_parts m) j = Some a0 -> nth_error (md_parts m') j = Some a -> forall name,
      (forall i v, nth_error l i = Some (j, name) -> (forall i', nth_error l i' = Some (j, name) -> (i' <= i)%nat) -> nth_error params i = Some v -> a name = Some v) /\
      ((forall i, nth_error l i <> Some (j, name)) -> a name = a0 name).
  Proof.
    intros hj. induction l as [|[j1 n1] l ih] using rev_ind; intros hl.
    - exists m. split; [reflexivity|]. repeat split.
      + intros i v h. destruct i; discriminate.
      + intros _. congruence.
    - rewrite app_length in hl. cbn [length] in hl. destruct ih as [m1 [h1 [h2 [h3 h4]]]]; [intros j nm h; apply (hj j nm); apply in_or_app; left; exact h|lia|].
      rewrite write_flat_app, h1. cbn [write_flat]. unfold write_one. assert (hj1 : (j1 < length (md_parts m1))%nat) by (rewrite h3; apply (hj j1 n1); apply in_or_app; right; left; reflexivity).
      destruct (nth_error (md_parts m1) j1) as [a1|] eqn:ea; [|apply nth_error_None in ea; lia]. destruct (nth_error params (length l)) as [v1|] eqn:ev; [|apply nth_error_None in ev; lia].
      eexists. split; [rewrite app_length, Nat.add_1_r; reflexivity|]. cbn [md_rest md_parts]. split; [exact h2|]. split; [rewrite lset_length; exact h3|].
      intros j a0 a e0 e nm. assert (last : nth_error (l ++ [(j1, n1)]) (length l) = Some (j1, n1)) by (rewrite nth_error_app2 by lia; rewrite Nat.sub_diag; reflexivity).
      assert (cases : forall i q, nth_error (l ++ [(j1, n1)]) i = Some q -> (i < length l)%nat /\ nth_error l i = Some q \/ i = length l /\ q = (j1, n1)).
      { intros i q h. destruct (lt_eq_lt_dec i (length l)) as [[c|c]|c].
        - left. split; [exact c|]. rewrite nth_error_app1 in h by exact c. exact h.
        - right. subst i. split; [reflexivity|congruence].
        - rewrite nth_error_app2 in h by lia. destruct (i - length l)%nat as [|k] eqn:ek; [lia|]. destruct k; discriminate. }
      destruct (Nat.eq_dec j j1) as [->|ne].
      + rewrite lset_nth_same in e by exact hj1. assert (a = setattr a1 n1 v1) as -> by congruence. unfold setattr. destruct (String.eqb_spec nm n1) as [->|nn].
        * split; [|intros h; exfalso; exact (h _ last)]. intros i v hi hmax hv. destruct (cases i _ hi) as [[c _]|[c _]]; [specialize (hmax _ last); lia|]. subst i. congruence.
        * destruct (h4 j1 a0 a1 e0 ea nm) as [p1 p2]. split.
          -- intros i v hi hmax hv. destruct (cases i _ hi) as [[c hi']|[_ c]]; [|congruence]. apply (p1 i v hi'); [|exact hv]. intros i' hi''. apply hmax. rewrite nth_error_app1; [exact hi''|]. apply nth_error_Some. congruence.
          -- intros h. apply p2. intros i hi. apply (h i). rewrite nth_error_app1; [exact hi|]. apply nth_error_Some. congruence.
      + rewrite lset_nth_other in e by congruence. destruct (h4 j a0 a e0 e nm) as [p1 p2]. split.
        * intros i v hi hmax hv. destruct (cases i _ hi) as [[c hi']|[_ c]]; [|congruence]. apply (p1 i v hi'); [|exact hv]. intros i' hi''. apply hmax. rewrite nth_error_app1; [exact hi''|]. apply nth_error_Some. congruence.
        * intros h. apply p2. intros i hi. apply (h i). rewrite nth_error_app1; [exact hi|]. apply nth_error_Some. congruence.
  Qed.
  Lemma write_flat_short params l m : (forall j name, In (j, name) l -> (j < length (md_parts m))%nat) -> (length params < length l)%nat ->
    exists m' i, write_flat params l m 0 = (m', i, Some ErrIndex).
  Proof.
    intros hj hl. rewrite <- (firstn_skipn (length params) l). rewrite write_flat_app. destruct (write_flat_ok params (firstn (length params) l) m) as [m1 [h1 _]].
    - intros j nm h. apply (hj j nm). rewrite <- (firstn_skipn (length params) l). apply in_or_app. left. exact h.
    - rewrite firstn_length. lia.
    - rewrite h1. rewrite firstn_length, Nat.min_l by lia. destruct (skipn (length params) l) as [|[j nm] r] eqn:e.
      + apply (f_equal (@length _)) in e. rewrite skipn_length in e. cbn in e. lia.
      + cbn [write_flat]. unfold write_one. replace (nth_error params (length params)) with (@None R) by (symmetry; apply nth_error_None; lia). destruct (nth_error (md_parts m1) j); eauto.
  Qed.

  (** ** indices of the parts *)

  Lemma index_of_spec refs r i : index_of refs r = Ok i -> nth_error refs i = Some r.
  Proof.
    revert i. induction refs as [|x l ih]; intros i; cbn; [discriminate|]. destruct (Nat.eqb_spec x r) as [->|ne].
    - intros h. assert (i = 0%nat) as -> by congruence. reflexivity.
    - intros h. unbind h. assert (i = S v) as -> by congruence. apply ih. exact hv.
  Qed.
  Lemma index_of_none refs r : ~ In r refs -> index_of refs r = Err ErrValue.
  Proof. induction refs as [|x l ih]; intros h; cbn; [reflexivity|]. destruct (Nat.eqb_spec x r) as [->|ne]; [exfalso; apply h; left; reflexivity|]. rewrite ih; [reflexivity|]. intros k. apply h. right. exact k. Qed.
  Lemma index_of_ok refs r : In r refs -> exists i, index_of refs r = Ok i.
  Proof. induction refs as [|x l ih]; [intros []|]. cbn. destruct (Nat.eqb_spec x r) as [->|ne]; [eauto|]. intros [e|h]; [congruence|]. destruct (ih h) as [i ->]. cbn. eauto. Qed.

  Lemma slots_length ind (parts : list opart) : length ind = length parts -> length (slots (combine ind parts)) = parameter_count parts.
  Proof.
    unfold slots, parameter_count. revert ind. induction parts as [|p parts ih]; intros [|j ind] h; try discriminate; [reflexivity|]. cbn [combine flat_map map]. rewrite app_length, map_length, ih by (cbn in h; lia). reflexivity.
  Qed.
  Lemma slots_nth refs ind (parts : list opart) : NoDup refs -> Forall2 (fun p j => index_of refs (opart_ref p) = Ok j) parts ind ->
    forall i j name, nth_error (slots (combine ind parts)) i = Some (j, name) <-> belongs refs parts i j name.
  Proof.
    intros hd. induction 1 as [|p j0 parts ind h1 h2 ih]; intros i j name.
    - unfold slots. cbn. split; [destruct i; discriminate|]. intros [k [l [p [hk _]]]]. destruct k; discriminate.
    - unfold slots. cbn [combine flat_map fst snd]. fold (slots (combine ind parts)). set (a := map (pair j0) (opart_names p)). assert (la : length a = length (opart_names p)) by apply map_length.
      apply index_of_spec in h1. split.
      + intros h. destruct (le_lt_dec (length a) i) as [c|c].
        * rewrite nth_error_app2 in h by exact c. apply ih in h. destruct h as [k [l [q [q1 [q2 [q3 q4]]]]]]. exists (S k), l, q. repeat split; try assumption. cbn [firstn map]. change (list_sum (?x :: ?y)) with (x + list_sum y)%nat. lia.
        * rewrite nth_error_app1 in h by exact c. unfold a in h. rewrite nth_error_map in h. destruct (nth_error (opart_names p) i) as [nm|] eqn:e; [|discriminate]. cbn in h. assert (j = j0 /\ name = nm) as [-> ->] by (split; congruence).
          exists 0%nat, i, p. repeat split; try assumption.
      + intros [k [l [q [q1 [q2 [q3 q4]]]]]]. destruct k as [|k].
        * cbn in q1. assert (q = p) by congruence. subst q. cbn in q4. subst i. assert (hl : (l < length a)%nat) by (rewrite la; apply nth_error_Some; congruence). rewrite nth_error_app1 by exact hl. unfold a. rewrite nth_error_map, q3. cbn.
          do 2 f_equal. refine (proj1 (NoDup_nth_error refs) hd j0 j _ _); [apply nth_error_Some; congruence|congruence].
        * cbn in q1. cbn [firstn map] in q4. change (list_sum (?x :: ?y)) with (x + list_sum y)%nat in q4. rewrite nth_error_app2 by lia. apply ih. exists k, l, q. repeat split; try assumption. lia.
  Qed.
  Lemma slots_range refs ind (parts : list opart) j name : Forall2 (fun p j => index_of refs (opart_ref p) = Ok j) parts ind -> In (j, name) (slots (combine ind parts)) -> (j < length refs)%nat.
  Proof.
    intros h. unfold slots. induction h as [|p j0 parts ind h1 h2 ih]; [intros []|]. cbn [combine flat_map fst snd]. intros hin. apply in_app_or in hin. destruct hin as [hin|hin]; [|exact (ih hin)].
    apply in_map_iff in hin. destruct hin as [nm [e _]]. assert (j = j0) as -> by congruence. apply index_of_spec in h1. apply nth_error_Some. congruence.
  Qed.

  (** ** evaluations *)

  (** the parts of the optimisation that evaluations do not change *)
  Definition same_setup o o' : Prop := opt_original o' = opt_original o /\ opt_indices o' = opt_indices o /\ opt_parts o' = opt_parts o /\ opt_results o' = opt_results o /\ opt_observations o' = opt_observations o.
  Lemma residual_setup main get b params o : same_setup o (fst (residual_function main get b params o)).
  Proof.
    unfold residual_function. cbv zeta. destruct (write_parts _ _ _ _) as [[m i] [e|]]; [repeat split|]. destruct (main m) as [m' [e|]]; [repeat split|].
    match goal with |- context [match ?x with Ok _ => _ | Err _ => _ end] => destruct x as [[d line]|e] end; repeat split.
  Qed.
  Lemma residual_same main get b params o o' : same_setup o o' ->
    snd (residual_function main get b params o') = snd (residual_function main get b params o) /\ opt_model (fst (residual_function main get b params o')) = opt_model (fst (residual_function main get b params o)).
  Proof.
    intros [e1 [e2 [e3 [e4 e5]]]]. unfold residual_function. cbv zeta. cbn [reset_model set_model opt_indices opt_parts opt_model opt_results opt_observations]. rewrite e1, e2, e3, e4, e5.
    destruct (write_parts _ _ _ _) as [[m i] [e|]]; [split; reflexivity|]. destruct (main m) as [m' [e|]]; [split; reflexivity|].
    match goal with |- context [match ?x with Ok _ => _ | Err _ => _ end] => destruct x as [[d line]|e] end; split; reflexivity.
  Qed.

  (** ** results *)

  Lemma mapr_range l n : (forall t, In t l -> (t < n)%nat) -> mapr (fun t => if Nat.ltb t n then Ok t else Err ErrIndex) l = Ok l.
  Proof. intros h. rewrite (mapr_map _ (fun t => t)); [rewrite map_id; reflexivity|]. intros t ht. specialize (h t ht). destruct (Nat.ltb_spec t n); [reflexivity|lia]. Qed.
  Lemma select_ok a r : selectable a r -> select a (mres_steps r) (mres_indices r) = Ok (map (fun t => map (me a t) (mres_indices r)) (mres_steps r)).
  Proof. intros [h1 [h2 h3]]. unfold select. rewrite mapr_range by exact h2. cbn [rbind]. rewrite mapr_range by exact h3. reflexivity. Qed.
  Lemma peak_of (l : list R) : l <> [] -> exists p, max_of (map nabs l) = Ok p /\ is_peak l p.
  Proof.
    intros h. destruct (max_of_total (map nabs l)) as [p hp]; [destruct l; [congruence|discriminate]|]. exists p. split; [exact hp|]. destruct (max_of_ok _ _ hp) as [q1 q2]. split.
    - apply in_map_iff in q1. destruct q1 as [f [e hf]]. exists f. split; [exact hf|]. rewrite <- nabs_R. exact e.
    - intros f hf. rewrite <- nabs_R. apply q2. apply in_map. exact hf.
  Qed.
  Lemma column_peaks_ok a r : selectable a r -> exists row, column_peaks (length (mres_indices r)) (map (fun t => map (me a t) (mres_indices r)) (mres_steps r)) = Ok row /\
    length row = length (mres_indices r) /\ forall c, (c < length (mres_indices r))%nat -> is_peak (column a (mres_steps r) (nth c (mres_indices r) 0%nat)) (nth c row 0).
  Proof.
    intros [h1 _]. unfold column_peaks.
    assert (key : forall c, (c < length (mres_indices r))%nat -> map (fun row => nabs (nth c row (lit 0))) (map (fun t => map (me a t) (mres_indices r)) (mres_steps r)) = map nabs (column a (mres_steps r) (nth c (mres_indices r) 0%nat))).
    { intros c hc. rewrite map_map. unfold column. rewrite map_map. apply map_ext. intros t. change (lit 0) with 0. rewrite (nth_map0 _ _ _ 0%nat) by exact hc. reflexivity. }
    destruct (mapr_ok (fun c => max_of (map (fun row => nabs (nth c row (lit 0))) (map (fun t => map (me a t) (mres_indices r)) (mres_steps r)))) (seq 0 (length (mres_indices r))) 0%nat) as [row hrow].
    { intros c hc. rewrite seq_length in hc. rewrite seq_nth by exact hc. cbn [Nat.add]. rewrite key by exact hc. destruct (peak_of (column a (mres_steps r) (nth c (mres_indices r) 0%nat))) as [p [hp _]]; [unfold column; destruct (mres_steps r); [congruence|discriminate]|eauto]. }
    exists row. split; [exact hrow|]. pose proof (mapr_length _ _ _ hrow) as hl. rewrite seq_length in hl. split; [exact hl|]. intros c hc.
    pose proof (mapr_nth _ _ _ c 0%nat 0 hrow ltac:(rewrite seq_length; exact hc)) as e. cbv beta in e. rewrite seq_nth in e by exact hc. cbn [Nat.add] in e. rewrite key in e by exact hc.
    destruct (peak_of (column a (mres_steps r) (nth c (mres_indices r) 0%nat))) as [p [hp hpk]]; [unfold column; destruct (mres_steps r); [congruence|discriminate]|]. replace (nth c row 0) with p by congruence. exact hpk.
  Qed.
  Lemma one_result_ok (get : model R M -> string -> res (mat R)) m r name a : mres_function r = None -> get m name = Ok a -> selectable a r -> exists row, one_result get true m r name = Ok row /\
    length row = length (mres_indices r) /\ forall c, (c < length (mres_indices r))%nat -> is_peak (column a (mres_steps r) (nth c (mres_indices r) 0%nat)) (nth c row 0).
  Proof. intros h1 h2 h3. unfold one_result. rewrite h2. cbn [rbind]. rewrite (select_ok a r h3). cbn [rbind]. rewrite h1. apply column_peaks_ok. exact h3. Qed.
  Lemma stack_ok (rows : list (list R)) n : (forall row, In row rows -> length row = n) -> stack rows = Ok rows.
  Proof.
    intros h. destruct rows as [|r l]; [reflexivity|]. unfold stack. replace (forallb _ l) with true; [reflexivity|]. symmetry. apply forallb_forall. intros x hx. apply Nat.eqb_eq.
    rewrite (h r (or_introl eq_refl)), (h x (or_intror hx)). reflexivity.
  Qed.
End Opt.
