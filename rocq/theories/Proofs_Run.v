(** * Proofs about running a calculation *)

From Coq Require Import Reals List Bool ZArith Arith Lia Lra Sorted.
From Verif Require Import Num PyBase Model_Geometry Model_System Model_Accumulation Model_Run Spec_System Spec_Run Proofs_Dof Proofs_System Proofs_Elements Proofs_Accumulation.
Import ListNotations.
Local Open Scope R_scope.

Lemma mapr_error {A B} (f : A -> res B) l out i a : mapr f l = Ok out -> nth_error l i = Some a -> exists b, nth_error out i = Some b /\ f a = Ok b.
Proof.
  intros h. apply mapr_spec in h. revert i. induction h as [|x y xs ys h1 h2 ih]; intros i hi; [destruct i; discriminate|].
  destruct i; cbn in *; [injection hi as <-; eauto|auto].
Qed.
Lemma mapr_in_ok {A B} (f : A -> res B) l : (forall a, In a l -> exists b, f a = Ok b) -> exists out, mapr f l = Ok out.
Proof.
  induction l as [|a l ih]; intros h; [exists []; reflexivity|]. destruct (h a (or_introl eq_refl)) as [b hb]. destruct ih as [q hq]; [intros; apply h; right; assumption|].
  exists (b :: q). cbn. rewrite hb. cbn. rewrite hq. reflexivity.
Qed.

Section Filling.
  Variable step : R -> nat -> row R -> res (row R).

  Lemma fill_spec n : forall dt a rows rows', fill_steps step dt a n rows = Ok rows' ->
    length rows' = length rows /\ (forall j, (j <= a \/ a + n < j)%nat -> nth_error rows' j = nth_error rows j) /\
    (forall i, (a <= i < a + n)%nat -> exists r r', nth_error rows' i = Some r /\ nth_error rows' (S i) = Some r' /\ step dt (S i) r = Ok r').
  Proof.
    induction n as [|n ih]; intros dt a rows rows' h; cbn [fill_steps] in h.
    - injection h as <-. split; [reflexivity|]. split; [reflexivity|]. intros i hi. lia.
    - apply rbind_ok in h. destruct h as [r [hr h]]. apply rbind_ok in h. destruct h as [r' [hs h]]. destruct (Nat.ltb_spec (S a) (length rows)) as [c|c]; [|discriminate].
      apply ih in h. destruct h as [h1 [h2 h3]]. rewrite lset_length in h1. split; [exact h1|]. split.
      + intros j hj. destruct (Nat.eq_dec j (S a)) as [->|hne]; [lia|]. rewrite h2 by lia. apply lset_nth_other. lia.
      + intros i hi. destruct (Nat.eq_dec i a) as [->|hne]; [|apply h3; lia].
        exists r, r'. split; [rewrite h2 by lia; rewrite lset_nth_other by lia; unfold at_idx in hr; destruct (nth_error rows a); congruence|].
        split; [rewrite h2 by lia; apply lset_nth_same; exact c|exact hs].
  Qed.

  Hypothesis total : forall dt t r, exists r', step dt t r = Ok r'.
  Lemma fill_total n : forall dt a rows, (a + n < length rows)%nat -> exists rows', fill_steps step dt a n rows = Ok rows'.
  Proof.
    induction n as [|n ih]; intros dt a rows h; cbn [fill_steps]; [eauto|]. unfold at_idx.
    destruct (nth_error rows a) as [r|] eqn:e; [|apply nth_error_None in e; lia]. cbn [rbind]. destruct (total dt (S a) r) as [r' ->]. cbn [rbind].
    destruct (Nat.ltb_spec (S a) (length rows)) as [c|c]; [|lia]. apply ih. rewrite lset_length. lia.
  Qed.
End Filling.

Lemma calculate_spec step time a b rows rows' : (a < b)%nat -> solver_calculate step time a b rows = Ok rows' ->
  length rows' = length rows /\ (forall j, (j <= a \/ b < j)%nat -> nth_error rows' j = nth_error rows j) /\
  (forall i, (a <= i < b)%nat -> exists r r', nth_error rows' i = Some r /\ nth_error rows' (S i) = Some r' /\ step (mean_step time a b) (S i) r = Ok r').
Proof.
  intros hab h. unfold solver_calculate in h. apply rbind_ok in h. destruct h as [ta [ha h]]. apply rbind_ok in h. destruct h as [tb [hb h]].
  destruct (at_idx_nth _ _ _ 0 ha) as [_ ha']. destruct (at_idx_nth _ _ _ 0 hb) as [_ hb'].
  assert (e : ndiv (nsub tb ta) (nofnat (b - a)) = mean_step time a b) by (unfold mean_step; rewrite ha', hb', nofnat_R; reflexivity).
  apply fill_spec in h. rewrite e in h. replace (a + (b - a))%nat with b in h by lia. exact h.
Qed.

Lemma assigned_spec memory ns rows out : assign_results_to_nodes (tlist memory) ns rows = Ok out -> (forall n, In n ns -> flags_match n) ->
  length out = length ns /\ forall p n, nth_error ns p = Some n -> exists o, nth_error out p = Some o /\ length o = length rows /\
    forall i r, nth_error rows i = Some r -> exists x, nth_error o i = Some x /\ agrees_with_row n r x.
Proof.
  intros h hf. assert (h' : mapr (fun n => mapr (nodal_result (tlist memory) n) rows) ns = Ok out) by (destruct ns; [discriminate|exact h]). clear h.
  split; [apply mapr_length in h'; exact h'|]. intros p n hp. destruct (mapr_error _ _ _ _ _ h' hp) as [o [ho e]]. exists o. split; [exact ho|]. split; [apply mapr_length in e; exact e|].
  intros i r hi. destruct (mapr_error _ _ _ _ _ e hi) as [x [hx ex]]. exists x. split; [exact hx|].
  specialize (hf n (nth_error_In _ _ hp)).
  destruct (assign_result_spec (T3 0 0 0) n (columns (rw_u r)) hf) as [u [u1 [u2 u3]]]. destruct (assign_result_spec (T3 0 0 0) n (columns (rw_v r)) hf) as [v [v1 [v2 v3]]].
  destruct (assign_result_spec (T3 0 0 0) n (columns (rw_a r)) hf) as [a [a1 [a2 a3]]]. destruct (assign_result_spec memory n (columns (rw_f r)) hf) as [f [f1 [f2 f3]]].
  unfold nodal_result in ex. change (@zero_row R RNum) with (tlist (T3 0 0 0)) in ex. rewrite u1, v1, a1, f1 in ex. cbn [rbind] in ex. injection ex as <-.
  exists u, v, a, f. split; [reflexivity|]. intros d. destruct (tget (n_dof n) d) as [k|] eqn:ed.
  - assert (hd : tget (n_flag n) d = true) by (apply hf; congruence). split; [apply u2; assumption|]. split; [apply v2; assumption|]. split; [apply a2; assumption|apply f2; assumption].
  - assert (hd : tget (n_flag n) d = false) by (destruct (tget (n_flag n) d) eqn:eq; [apply hf in eq; congruence|reflexivity]).
    rewrite (u3 d hd), (v3 d hd), (a3 d hd). destruct d; repeat split; reflexivity.
Qed.

Lemma assigned_total memory ns rows : ns <> [] -> (forall n, In n ns -> flags_match n) -> exists out, assign_results_to_nodes (tlist memory) ns rows = Ok out.
Proof.
  intros hne hf. destruct (mapr_in_ok (fun n => mapr (nodal_result (tlist memory) n) rows) ns) as [out e].
  - intros n hn. apply mapr_in_ok. intros r _. specialize (hf n hn). unfold nodal_result.
    change (@zero_row R RNum) with (tlist (T3 0 0 0)).
    destruct (assign_result_spec (T3 0 0 0) n (columns (rw_u r)) hf) as [u [-> _]]. destruct (assign_result_spec (T3 0 0 0) n (columns (rw_v r)) hf) as [v [-> _]].
    destruct (assign_result_spec (T3 0 0 0) n (columns (rw_a r)) hf) as [a [-> _]]. destruct (assign_result_spec memory n (columns (rw_f r)) hf) as [f [-> _]]. eexists. reflexivity.
  - exists out. destruct ns; [congruence|exact e].
Qed.

Definition chosen (kind : solver_type) (dynamic static : R -> nat -> row R -> res (row R)) := match kind with Static => static | _ => dynamic end.

Lemma run_spec kind dynamic static time memory ns : kind <> OtherType -> (forall n, In n ns -> flags_match n) ->
  forall ids rows out rows' out' a, StronglySorted lt (a :: ids) -> (last (a :: ids) 0 < length rows)%nat ->
  run_stages kind dynamic static time (tlist memory) ns (a :: ids) rows out = Ok (rows', out') ->
  length rows' = length rows /\ (forall j, (j <= a)%nat -> nth_error rows' j = nth_error rows j) /\
  (forall i, (a <= i < last (a :: ids) 0)%nat -> exists p q r r', neighbours (a :: ids) p q /\ (p <= i < q)%nat /\
     nth_error rows' i = Some r /\ nth_error rows' (S i) = Some r' /\ chosen kind dynamic static (mean_step time p q) (S i) r = Ok r') /\
  (ids <> [] -> exists o, out' = Some o /\ assign_results_to_nodes (tlist memory) ns rows' = Ok o).
Proof.
  intros hk hf. induction ids as [|b ids ih]; intros rows out rows' out' a hs hl h.
  - cbn [run_stages] in h. injection h as <- <-. split; [reflexivity|]. split; [reflexivity|]. split; [intros i hi; cbn in hi; lia|congruence].
  - cbn [run_stages] in h. apply rbind_ok in h. destruct h as [q [hq h]]. unfold calculate_stage in hq. apply rbind_ok in hq. destruct hq as [rows1 [h1 hq]].
    apply rbind_ok in hq. destruct hq as [o1 [ho hq]]. injection hq as <-. cbn [fst snd] in h.
    assert (hc : solver_calculate (chosen kind dynamic static) time a b rows = Ok rows1) by (destruct kind; [exact h1|exact h1|congruence]). clear h1.
    inversion hs as [|? ? hs' hall]; subst. assert (hab : (a < b)%nat) by (inversion hall; assumption).
    destruct (calculate_spec _ _ _ _ _ _ hab hc) as [c1 [c2 c3]].
    assert (hl1 : (last (b :: ids) 0 < length rows1)%nat) by (rewrite c1; exact hl).
    destruct (ih rows1 (Some o1) rows' out' b hs' hl1 h) as [i1 [i2 [i3 i4]]].
    split; [congruence|]. split; [intros j hj; rewrite i2 by lia; apply c2; lia|]. split.
    + intros i hi. destruct (Nat.lt_ge_cases i b) as [c|c].
      * destruct (c3 i ltac:(lia)) as [r [r' [g1 [g2 g3]]]]. exists a, b, r, r'. split; [exists [], ids; reflexivity|]. split; [lia|]. rewrite !i2 by lia. auto.
      * destruct (i3 i) as [p [q [r [r' [[l1 [l2 el]] [g2 g3]]]]]]; [change (last (a :: b :: ids) 0%nat) with (last (b :: ids) 0%nat) in hi; lia|]. exists p, q, r, r'. split; [exists (a :: l1), l2; rewrite el; reflexivity|]. auto.
    + intros _. destruct ids as [|c ids]; [|apply i4; discriminate]. cbn [run_stages] in h. injection h as <- <-. eauto.
Qed.

Lemma run_total kind dynamic static time memory ns : (kind <> OtherType -> forall dt t r, exists r', chosen kind dynamic static dt t r = Ok r') ->
  ns <> [] -> (forall n, In n ns -> flags_match n) ->
  forall ids rows out a, StronglySorted lt (a :: ids) -> (last (a :: ids) 0 < length rows)%nat -> length time = length rows ->
  exists rows' out', run_stages kind dynamic static time (tlist memory) ns (a :: ids) rows out = Ok (rows', out').
Proof.
  intros ht hne hf. induction ids as [|b ids ih]; intros rows out a hs hl hlen; [cbn [run_stages]; eauto|].
  inversion hs as [|? ? hs' hall]; subst. assert (hab : (a < b)%nat) by (inversion hall; assumption).
  assert (hbl : (b <= last (b :: ids) 0)%nat).
  { clear - hs'. revert b hs'. induction ids as [|c ids ih]; intros b hs; [cbn; lia|]. inversion hs as [|? ? hs' hall]; subst. specialize (ih c hs'). inversion hall; subst. change (last (b :: c :: ids) 0%nat) with (last (c :: ids) 0%nat). lia. }
  change (last (a :: b :: ids) 0%nat) with (last (b :: ids) 0%nat) in hl.
  assert (hc : kind <> OtherType -> exists rows1, solver_calculate (chosen kind dynamic static) time a b rows = Ok rows1 /\ length rows1 = length rows).
  { intros hk. unfold solver_calculate, at_idx. destruct (nth_error time a) eqn:e1; [|apply nth_error_None in e1; lia]. destruct (nth_error time b) eqn:e2; [|apply nth_error_None in e2; lia]. cbn [rbind].
    match goal with |- context [fill_steps ?s ?dt ?a ?n ?r] => destruct (fill_total s (ht hk) n dt a r) as [rows1 e] end; [lia|]. exists rows1. split; [exact e|]. apply fill_spec in e. tauto. }
  cbn [run_stages]. unfold calculate_stage.
  assert (hx : exists rows1, match kind with Dynamic => solver_calculate dynamic time a b rows | Static => solver_calculate static time a b rows | OtherType => Ok rows end = Ok rows1 /\ length rows1 = length rows).
  { destruct kind; [apply hc; discriminate|apply hc; discriminate|eauto]. }
  destruct hx as [rows1 [e l1]]. rewrite e. cbn [rbind]. destruct (assigned_total memory ns rows1 hne hf) as [o ->]. cbn [rbind fst snd]. apply ih; [exact hs'|lia|lia].
Qed.
