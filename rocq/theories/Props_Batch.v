(** * Properties of collecting the results of a batch (C92, C93) *)

From Coq Require Import Reals List Bool ZArith Arith Lia Lra String Ascii Permutation.
From Verif Require Import Num PyBase Model_Accumulation Model_Batch Spec_Batch Proofs_System Proofs_Accumulation.
Import ListNotations.
Local Open Scope R_scope.
Local Notation length := List.length.

(** ** dictionaries *)

Lemma dget_dset_same {V} k (v : V) d : dget k (dset k v d) = Ok v.
Proof. induction d as [|[a w] d ih]; cbn; [rewrite String.eqb_refl; reflexivity|]. destruct (String.eqb a k) eqn:e; cbn; rewrite e; [reflexivity|exact ih]. Qed.
Lemma dget_dset_other {V} k j (v : V) d : j <> k -> dget j (dset k v d) = dget j d.
Proof.
  intros h. induction d as [|[a w] d ih]; cbn; [destruct (String.eqb_spec k j); congruence|]. destruct (String.eqb_spec a k) as [->|e]; cbn; [destruct (String.eqb_spec k j); congruence|].
  destruct (String.eqb a j); [reflexivity|exact ih].
Qed.
Lemma dmem_dget {V} k (d : dict V) : dmem k d = true <-> exists v, dget k d = Ok v.
Proof. induction d as [|[a w] d ih]; cbn; [split; [discriminate|intros [v h]; discriminate]|]. destruct (String.eqb a k); cbn; [split; eauto|exact ih]. Qed.
Lemma dset_keys {V} k (v : V) d : map fst (dset k v d) = if dmem k d then map fst d else map fst d ++ [k].
Proof. induction d as [|[a w] d ih]; cbn; [reflexivity|]. destruct (String.eqb a k); cbn; [reflexivity|]. rewrite ih. destruct (dmem k d); reflexivity. Qed.
Lemma dmem_in {V} k (d : dict V) : dmem k d = true <-> In k (map fst d).
Proof. induction d as [|[a w] d ih]; cbn; [split; [discriminate|tauto]|]. rewrite orb_true_iff, ih, String.eqb_eq. tauto. Qed.
Lemma dget_in {V} k (v : V) d : dget k d = Ok v -> In (k, v) d.
Proof. induction d as [|[a w] d ih]; cbn; [discriminate|]. destruct (String.eqb_spec a k) as [->|e]; [intros h; injection h as ->; auto|auto]. Qed.
Lemma in_dget {V} k (v : V) d : NoDup (map fst d) -> In (k, v) d -> dget k d = Ok v.
Proof.
  induction d as [|[a w] d ih]; cbn; [tauto|]. intros hd [h|h]; [injection h as -> ->; rewrite String.eqb_refl; reflexivity|]. inversion hd as [|? ? h1 h2]; subst.
  destruct (String.eqb_spec a k) as [->|e]; [exfalso; apply h1; apply in_map_iff; exists (k, v); auto|auto].
Qed.

(** ** the loop over the files *)

Definition seen (seg : string) (rs : list (file R)) : Prop := exists f, In f rs /\ fl_segment f = seg.

Definition holds (s : sos R) (rs : list (file R)) (b : batch R) : Prop :=
  (forall seg, seen seg rs -> dget seg (bt_weighted b) = Ok (weighted_sum s (last_run seg rs)) /\
     exists d, dget seg (bt_data b) = Ok d /\ forall sce, dget sce d =
       match newest sce (last_run seg rs) with Some f => Ok (fl_value f, probability s seg sce) | None => Err ErrOther end) /\
  map fst (bt_weighted b) = map fst (bt_data b) /\ (forall seg, In seg (map fst (bt_data b)) -> seen seg rs).

Lemma last_run_segment seg rs f : In f (last_run seg rs) -> fl_segment f = seg.
Proof.
  assert (hh : forall rs f, In f (head_run seg rs) -> fl_segment f = seg).
  { clear. induction rs as [|g rs ih]; cbn; [tauto|]. intros f. destruct (String.eqb_spec (fl_segment g) seg) as [e|e]; [|intros []]. intros [<-|h]; [exact e|apply ih; exact h]. }
  induction rs as [|g rs ih]; cbn; [tauto|]. destruct (String.eqb_spec (fl_segment g) seg) as [e|e]; [|exact ih]. intros [<-|h]; [exact e|apply (hh rs); exact h].
Qed.

Lemma holds_step s rs b f prev : known s f -> fl_segment f <> EmptyString -> prev = match rs with [] => EmptyString | g :: _ => fl_segment g end ->
  holds s rs b -> exists b', add_file s prev b f = Ok b' /\ holds s (f :: rs) b' /\
    map fst (bt_weighted b') = if dmem (fl_segment f) (bt_weighted b) then map fst (bt_weighted b) else map fst (bt_weighted b) ++ [fl_segment f].
Proof.
  intros [d0 [v0 [k1 k2]]] hne hp [h1 [h2 h3]]. unfold add_file. rewrite k1. cbn [rbind]. rewrite k2. cbn [rbind].
  assert (hprob : fst v0 / lit 100 = probability s (fl_segment f) (fl_scenario f)) by (unfold probability; rewrite k1, k2; reflexivity).
  change (fst v0 / lit 100)%num with (fst v0 / lit 100). rewrite hprob. set (p := probability s (fl_segment f) (fl_scenario f)).
  assert (hlr : forall seg, seg <> fl_segment f -> last_run seg (f :: rs) = last_run seg rs) by (intros seg hs; cbn [last_run]; destruct (String.eqb_spec (fl_segment f) seg); [congruence|reflexivity]).
  assert (hsn : forall seg, seg <> fl_segment f -> seen seg (f :: rs) -> seen seg rs) by (intros seg hs [g [[<-|hg] e]]; [congruence|exists g; auto]).
  assert (hmemeq : dmem (fl_segment f) (bt_weighted b) = dmem (fl_segment f) (bt_data b)).
  { apply eq_true_iff_eq. rewrite !dmem_in, h2. reflexivity. }
  destruct (String.eqb_spec prev (fl_segment f)) as [e|e].
  - (* the run goes on *)
    destruct rs as [|g rs]; [congruence|]. assert (hg : fl_segment g = fl_segment f) by congruence.
    destruct (h1 (fl_segment f)) as [w1 [d [w2 w3]]]; [exists g; split; [left; reflexivity|exact hg]|]. rewrite w2. cbn [rbind]. rewrite w1. cbn [rbind].
    assert (hrun : last_run (fl_segment f) (f :: g :: rs) = f :: last_run (fl_segment f) (g :: rs)) by (cbn [last_run head_run]; rewrite hg, String.eqb_refl; reflexivity).
    assert (hmem : dmem (fl_segment f) (bt_weighted b) = true) by (apply dmem_dget; eauto). assert (hmem' : dmem (fl_segment f) (bt_data b) = true) by (apply dmem_dget; eauto).
    eexists. split; [reflexivity|]. cbn [bt_data bt_weighted]. split; [|rewrite dset_keys; reflexivity]. split; [|split].
    + intros seg hs. destruct (string_dec seg (fl_segment f)) as [->|hn].
      * cbn [bt_data bt_weighted]. rewrite !dget_dset_same. rewrite hrun. split; [f_equal; unfold weighted_sum; cbn [map nsum]; fold p; rnum; ring|].
        eexists. split; [reflexivity|]. intros sce. unfold newest. cbn [find]. destruct (String.eqb_spec (fl_scenario f) sce) as [<-|hne']; [rewrite dget_dset_same; reflexivity|]. rewrite dget_dset_other by congruence. apply w3.
      * cbn [bt_data bt_weighted]. rewrite !dget_dset_other by exact hn. rewrite hlr by exact hn. apply h1. apply hsn; assumption.
    + cbn [bt_data bt_weighted]. rewrite !dset_keys, hmem, hmem'. exact h2.
    + cbn [bt_data]. rewrite dset_keys, hmem'. intros seg hs. destruct (h3 seg hs) as [q [q1 q2]]. exists q. split; [right; exact q1|exact q2].
  - (* a new run *)
    cbn [bt_data bt_weighted]. rewrite !dget_dset_same. cbn [rbind].
    assert (hrun : last_run (fl_segment f) (f :: rs) = [f]).
    { cbn [last_run]. rewrite String.eqb_refl. f_equal. destruct rs as [|g rs]; [reflexivity|]. cbn [head_run]. destruct (String.eqb_spec (fl_segment g) (fl_segment f)); [congruence|reflexivity]. }
    eexists. split; [reflexivity|]. cbn [bt_data bt_weighted].
    assert (hk : forall V (x y : V) (d : dict V), map fst (dset (fl_segment f) x (dset (fl_segment f) y d)) = if dmem (fl_segment f) d then map fst d else map fst d ++ [fl_segment f]).
    { intros V x y d. rewrite dset_keys. assert (hm : dmem (fl_segment f) (dset (fl_segment f) y d) = true) by (apply dmem_dget; rewrite dget_dset_same; eauto). rewrite hm. apply dset_keys. }
    split; [|apply hk]. split; [|split].
    + intros seg hs. destruct (string_dec seg (fl_segment f)) as [->|hn].
      * cbn [bt_data bt_weighted]. rewrite !dget_dset_same. rewrite hrun. split; [f_equal; unfold weighted_sum; cbn [map nsum]; fold p; rnum; ring|].
        eexists. split; [reflexivity|]. intros sce. unfold newest. cbn [find]. destruct (String.eqb_spec (fl_scenario f) sce) as [<-|hne']; [rewrite dget_dset_same; reflexivity|]. rewrite dget_dset_other by congruence. reflexivity.
      * cbn [bt_data bt_weighted]. rewrite !dget_dset_other by exact hn. rewrite hlr by exact hn. apply h1. apply hsn; assumption.
    + cbn [bt_data bt_weighted]. rewrite !hk, hmemeq, h2. reflexivity.
    + cbn [bt_data]. rewrite hk. intros seg hs. match type of hs with context [if ?x then _ else _] => destruct x end.
      * destruct (h3 seg hs) as [q [q1 q2]]. exists q. split; [right; exact q1|exact q2].
      * apply in_app_iff in hs. destruct hs as [hs|[<-|[]]]; [destruct (h3 seg hs) as [q [q1 q2]]; exists q; split; [right; exact q1|exact q2]|exists f; split; [left; reflexivity|reflexivity]].
Qed.

Lemma first_seen_ext names s1 s2 : (forall x, existsb (String.eqb x) s1 = existsb (String.eqb x) s2) -> first_seen names s1 = first_seen names s2.
Proof. revert s1 s2. induction names as [|a r ih]; intros s1 s2 h; [reflexivity|]. cbn. rewrite h. destruct (existsb _ s2); [apply ih; exact h|]. f_equal. apply ih. intros x. cbn. rewrite h. reflexivity. Qed.

Lemma holds_all s fs : forall rs prev b, (forall f, In f fs -> known s f /\ fl_segment f <> EmptyString) -> prev = match rs with [] => EmptyString | g :: _ => fl_segment g end ->
  holds s rs b -> exists b', add_files s prev b fs = Ok b' /\ holds s (rev fs ++ rs) b' /\ map fst (bt_weighted b') = map fst (bt_weighted b) ++ first_seen (map (fun f => fl_segment f) fs) (map fst (bt_weighted b)).
Proof.
  induction fs as [|f fs ih]; intros rs prev b hk hp hb; [exists b; split; [reflexivity|split; [exact hb|cbn; rewrite app_nil_r; reflexivity]]|].
  destruct (hk f (or_introl eq_refl)) as [k1 k2]. destruct (holds_step s rs b f prev k1 k2 hp hb) as [b1 [e1 [e2 e3]]].
  destruct (ih (f :: rs) (fl_segment f) b1) as [b2 [g1 [g2 g3]]]; [intros; apply hk; right; assumption|reflexivity|exact e2|].
  exists b2. cbn [add_files]. rewrite e1. cbn [rbind]. split; [exact g1|]. split; [cbn [rev]; rewrite <- app_assoc; exact g2|]. rewrite g3, e3. cbn [map first_seen].
  assert (hm : existsb (String.eqb (fl_segment f)) (map fst (bt_weighted b)) = dmem (fl_segment f) (bt_weighted b)).
  { apply eq_true_iff_eq. rewrite dmem_in, existsb_exists. split; [intros [x [x1 x2]]; apply String.eqb_eq in x2; congruence|intros h; exists (fl_segment f); split; [exact h|apply String.eqb_refl]]. }
  rewrite hm. destruct (dmem (fl_segment f) (bt_weighted b)); [reflexivity|]. rewrite <- app_assoc. cbn [app]. do 2 f_equal. apply first_seen_ext. intros x. rewrite existsb_app. cbn. rewrite orb_false_r, orb_comm. reflexivity.
Qed.

(** ** C92: what the batch holds, whatever the order of the files *)

(** for every segment the files counted are those listed last without a file of another segment in between *)
Theorem C92_held s fs : (forall f, In f fs -> known s f /\ fl_segment f <> EmptyString) ->
  exists b, add_files s EmptyString (mkBatch [] []) fs = Ok b /\
    (forall f, In f fs -> let run := last_run (fl_segment f) (rev fs) in
       dget (fl_segment f) (bt_weighted b) = Ok (weighted_sum s run) /\
       exists d, dget (fl_segment f) (bt_data b) = Ok d /\ forall sce, dget sce d =
         match newest sce run with Some g => Ok (fl_value g, probability s (fl_segment f) sce) | None => Err ErrOther end) /\
    map fst (bt_weighted b) = first_seen (map (fun f => fl_segment f) fs) [] /\ map fst (bt_data b) = first_seen (map (fun f => fl_segment f) fs) [].
Proof.
  intros hk. destruct (holds_all s fs [] EmptyString (mkBatch [] []) hk eq_refl) as [b [e1 [e2 e3]]].
  - split; [intros seg [f [[] _]]|split; [reflexivity|intros seg []]].
  - exists b. rewrite app_nil_r in e2. destruct e2 as [h1 [h2 h3]]. split; [exact e1|]. split; [|split; [exact e3|rewrite <- h2; exact e3]].
    intros f hf run. apply h1. exists f. split; [apply -> in_rev; exact hf|reflexivity].
Qed.
Print Assumptions C92_held.

(** a file of a segment or scenario that the soil data do not know stops the run *)
Theorem C92_unknown s fs f : In f fs -> ~ known s f -> forall prev b b', add_files s prev b fs <> Ok b'.
Proof.
  intros hf hn. induction fs as [|g fs ih]; [destruct hf|]. intros prev b b' h. cbn [add_files] in h. apply rbind_ok in h. destruct h as [b1 [h1 h2]]. destruct hf as [->|hf]; [|exact (ih hf _ _ _ h2)].
  unfold add_file in h1. apply rbind_ok in h1. destruct h1 as [d [d1 h1]]. apply rbind_ok in h1. destruct h1 as [v [v1 h1]]. apply hn. exists d, v. auto.
Qed.
Print Assumptions C92_unknown.

Lemma grouped_tail f fs : grouped (f :: fs) -> grouped fs.
Proof. intros h i j k a b c hl h1 h2 h3. apply (h (S i) (S j) (S k) a b c); [lia|assumption..]. Qed.

Lemma head_run_filter seg rs : (forall j k b c, (j < k)%nat -> nth_error rs j = Some b -> nth_error rs k = Some c -> fl_segment c = seg -> fl_segment b = seg) -> head_run seg rs = of_segment seg rs.
Proof.
  induction rs as [|f rs ih]; intros h; [reflexivity|]. unfold of_segment in *. cbn. destruct (String.eqb_spec (fl_segment f) seg) as [e|e].
  - f_equal. apply ih. intros j k b c hl h1 h2. apply (h (S j) (S k)); [lia|assumption..].
  - symmetry. destruct (filter _ rs) as [|g q] eqn:hq; [reflexivity|]. exfalso. assert (hg : In g (filter (fun g => String.eqb (fl_segment g) seg) rs)) by (rewrite hq; left; reflexivity).
    apply filter_In in hg. destruct hg as [g1 g2]. apply String.eqb_eq in g2. apply In_nth_error in g1. destruct g1 as [k hk]. apply e. exact (h 0%nat (S k) f g ltac:(lia) eq_refl hk g2).
Qed.

Lemma last_run_filter seg rs : grouped rs -> last_run seg rs = of_segment seg rs.
Proof.
  induction rs as [|f rs ih]; intros h; [reflexivity|]. unfold of_segment in *. cbn. destruct (String.eqb_spec (fl_segment f) seg) as [e|e]; [|apply ih; exact (grouped_tail _ _ h)].
  f_equal. apply head_run_filter. intros j k b c hl h1 h2 h3. rewrite <- e. apply (h 0%nat (S j) (S k) f b c); [lia|reflexivity|assumption|assumption|congruence].
Qed.

Lemma nth_error_rev' {A} (l : list A) i a : nth_error (rev l) i = Some a -> (i < length l)%nat /\ nth_error l (length l - S i) = Some a.
Proof.
  intros h. assert (hi : (i < length (rev l))%nat) by (apply nth_error_Some; congruence). rewrite rev_length in hi. split; [exact hi|].
  rewrite (nth_error_nth' _ a) by lia. f_equal. rewrite <- rev_nth by exact hi. apply nth_error_nth with (d := a) in h. exact h.
Qed.

Lemma grouped_rev fs : grouped fs -> grouped (rev fs).
Proof.
  intros h i j k a b c hl h1 h2 h3 he. apply nth_error_rev' in h1, h2, h3. destruct h1 as [i1 h1]. destruct h2 as [i2 h2]. destruct h3 as [i3 h3].
  rewrite (h (length fs - S k)%nat (length fs - S j)%nat (length fs - S i)%nat c b a); [congruence|lia|assumption..|congruence].
Qed.

(** listed segment by segment, every segment gets the sum over all its files, and every scenario its value and probability *)
Theorem C92_weighted_partial s fs b seg : (forall f, In f fs -> known s f /\ fl_segment f <> EmptyString) -> grouped fs -> seen seg fs ->
  add_files s EmptyString (mkBatch [] []) fs = Ok b ->
  dget seg (bt_weighted b) = Ok (weighted_sum s (of_segment seg fs)) /\
  exists d, dget seg (bt_data b) = Ok d /\
    (NoDup (map (fun f => fl_scenario f) (of_segment seg fs)) -> forall f, In f fs -> fl_segment f = seg -> dget (fl_scenario f) d = Ok (fl_value f, probability s seg (fl_scenario f))) /\
    (forall sce, dmem sce d = true -> exists f, In f fs /\ fl_segment f = seg /\ fl_scenario f = sce).
Proof.
  intros hk hg [f0 [hf0 <-]] hb. destruct (C92_held s fs hk) as [b' [e1 [e2 _]]]. assert (b' = b) by congruence. subst b'. clear e1.
  specialize (e2 f0 hf0). cbv zeta in e2. rewrite (last_run_filter _ _ (grouped_rev _ hg)) in e2. destruct e2 as [e2 [d [e3 e4]]].
  assert (hrev : of_segment (fl_segment f0) (rev fs) = rev (of_segment (fl_segment f0) fs)).
  { unfold of_segment. clear. induction fs as [|g fs ih]; [reflexivity|]. cbn. rewrite filter_app, ih. cbn. destruct (String.eqb (fl_segment g) (fl_segment f0)); [reflexivity|apply app_nil_r]. }
  rewrite hrev in e2, e4. split; [|exists d; split; [exact e3|split]].
  - rewrite e2. f_equal. unfold weighted_sum. apply nsum_perm. apply Permutation_map. symmetry. apply Permutation_rev.
  - intros hd f hf he. rewrite e4. unfold newest.
    assert (hin : In f (rev (of_segment (fl_segment f0) fs))) by (apply -> in_rev; apply filter_In; split; [exact hf|apply String.eqb_eq; exact he]).
    destruct (find _ _) as [g|] eqn:hfd; [|exfalso; apply find_none with (x := f) in hfd; [rewrite String.eqb_refl in hfd; discriminate|exact hin]].
    apply find_some in hfd. destruct hfd as [g1 g2]. apply String.eqb_eq in g2. apply in_rev in g1, hin.
    assert (g = f); [|subst g; reflexivity]. clear -hd g1 g2 hin. induction (of_segment (fl_segment f0) fs) as [|q r ih]; [destruct g1|]. cbn in hd. inversion hd as [|? ? n1 n2]; subst.
    destruct g1 as [->|g1], hin as [->|hin]; [reflexivity|exfalso; apply n1; rewrite g2; apply in_map with (f := fun f => fl_scenario f); exact hin|exfalso; apply n1; rewrite <- g2; apply in_map with (f := fun f => fl_scenario f); exact g1|apply ih; assumption].
  - intros sce hm. apply dmem_dget in hm. destruct hm as [v hv]. rewrite e4 in hv. unfold newest in hv. destruct (find _ _) as [g|] eqn:hfd; [|discriminate]. apply find_some in hfd. destruct hfd as [g1 g2]. apply in_rev in g1. apply filter_In in g1.
    exists g. split; [apply g1|]. split; [apply String.eqb_eq; apply g1|apply String.eqb_eq; exact g2].
Qed.
Print Assumptions C92_weighted_partial.

(** probabilities of 100 % in all: the weighted value lies between the values of the scenarios *)
Theorem C92_between_partial s fs b seg lo hi : (forall f, In f fs -> known s f /\ fl_segment f <> EmptyString) -> grouped fs -> seen seg fs ->
  add_files s EmptyString (mkBatch [] []) fs = Ok b ->
  (forall f, In f fs -> fl_segment f = seg -> 0 <= probability s seg (fl_scenario f) /\ lo <= fl_value f <= hi) ->
  nsum (map (fun f => probability s seg (fl_scenario f)) (of_segment seg fs)) = 1 ->
  exists w, dget seg (bt_weighted b) = Ok w /\ lo <= w <= hi.
Proof.
  intros hk hg hs hb hv hp. destruct (C92_weighted_partial s fs b seg hk hg hs hb) as [e _]. eexists. split; [exact e|]. unfold weighted_sum.
  assert (hall : forall f, In f (of_segment seg fs) -> fl_segment f = seg /\ 0 <= probability s seg (fl_scenario f) /\ lo <= fl_value f <= hi).
  { intros f hf. apply filter_In in hf. destruct hf as [f1 f2]. apply String.eqb_eq in f2. split; [exact f2|apply hv; assumption]. }
  rewrite <- (Rmult_1_r lo), <- (Rmult_1_r hi), <- hp. clear -hall. induction (of_segment seg fs) as [|f r ih]; [cbn; lra|]. cbn [map nsum]. rnum.
  destruct ih as [i1 i2]; [intros; apply hall; right; assumption|]. destruct (hall f (or_introl eq_refl)) as [-> [p1 [p2 p3]]].
  pose proof (Rmult_le_compat_r _ _ _ p1 p2). pose proof (Rmult_le_compat_r _ _ _ p1 p3). lra.
Qed.
Print Assumptions C92_between_partial.

(** ** the order matters: a segment that comes back loses what was collected before *)

Definition demo_sos : sos R := [("segment1"%string, [("scenario1"%string, (60, [(0, 0); (1, 0)])); ("scenario2"%string, (40, [(0, 0); (1, 0)]))]);
                                ("segment2"%string, [("scenario1"%string, (100, [(2, 0)]))])].

Theorem C92_order_refuted : exists b, add_files demo_sos EmptyString (mkBatch [] [])
    [mkFile "segment1" "scenario1" 10; mkFile "segment2" "scenario1" 5; mkFile "segment1" "scenario2" 20] = Ok b /\
  (exists w, dget "segment1" (bt_weighted b) = Ok w /\ w = 8) /\ weighted_sum demo_sos [mkFile "segment1" "scenario1" 10; mkFile "segment1" "scenario2" 20] = 14 /\
  exists d, dget "segment1" (bt_data b) = Ok d /\ dmem "scenario1" d = false.
Proof.
  eexists. split; [reflexivity|]. split; [eexists; split; [reflexivity|cbn; rnum; lra]|]. split; [unfold weighted_sum, probability; cbn; rnum; lra|]. eexists. split; reflexivity.
Qed.
Print Assumptions C92_order_refuted.

(** a scenario listed twice counts twice in the weighted value and once in the results *)
Theorem C92_twice_refuted : exists b, add_files demo_sos EmptyString (mkBatch [] [])
    [mkFile "segment2" "scenario1" 5; mkFile "segment2" "scenario1" 5] = Ok b /\ (exists w, dget "segment2" (bt_weighted b) = Ok w /\ w = 10) /\
    exists d, dget "segment2" (bt_data b) = Ok d /\ length d = 1%nat.
Proof. eexists. split; [reflexivity|]. split; [eexists; split; [reflexivity|cbn; rnum; lra]|]. eexists. split; reflexivity. Qed.
Print Assumptions C92_twice_refuted.

Example C92_case : let fs := [mkFile "segment1" "scenario1" 10; mkFile "segment1" "scenario2" 20; mkFile "segment2" "scenario1" 5] in
  (forall f, In f fs -> known demo_sos f /\ fl_segment f <> EmptyString) /\ grouped fs /\ seen "segment1" fs /\
  nsum (map (fun f => probability demo_sos "segment1" (fl_scenario f)) (of_segment "segment1" fs)) = 1 /\
  exists b, add_files demo_sos EmptyString (mkBatch [] []) fs = Ok b /\ exists w, dget "segment1" (bt_weighted b) = Ok w /\ w = 14.
Proof.
  cbv zeta. split; [|split; [|split; [|split]]].
  - intros f [<-|[<-|[<-|[]]]]; (split; [|discriminate]); do 2 eexists; split; reflexivity.
  - intros i j k a b c hl h1 h2 h3 he. destruct i as [|[|[|i]]]; [| | |destruct i; discriminate]; (destruct j as [|[|[|j]]]; [lia| | |destruct j; discriminate]); (destruct k as [|[|[|k]]]; [lia|lia| |destruct k; discriminate]); try lia; injection h1 as <-; injection h3 as <-; discriminate.
  - eexists. split; [left; reflexivity|reflexivity].
  - unfold probability; cbn; rnum; lra.
  - eexists. split; [reflexivity|]. eexists. split; [reflexivity|]. cbn; rnum; lra.
Qed.

(** the values computed anew from the results *)
Theorem C92_recomputed (data : dict (dict (R * R))) seg d : dget seg data = Ok d -> dget seg (weighted_values data) = Ok (nsum (map (fun sc => fst (snd sc) * snd (snd sc)) d)).
Proof.
  assert (hf : forall (d : dict (R * R)) a, fold_left (fun acc sc => nadd acc (nmul (fst (snd sc)) (snd (snd sc)))) d a = a + nsum (map (fun sc => fst (snd sc) * snd (snd sc)) d)).
  { clear. induction d as [|q d ih]; intros a; cbn [fold_left map nsum]; [rnum; ring|]. rewrite ih. rnum. ring. }
  unfold weighted_values. induction data as [|[k v] data ih]; [discriminate|]. cbn [dget map fst snd]. destruct (String.eqb k seg); [|exact ih]. intros h. injection h as ->. rewrite hf. f_equal. rnum. ring.
Qed.
Print Assumptions C92_recomputed.

(** ** C93: the lines written for the map *)

Lemma dset_nodup {V} k (v : V) d : NoDup (map fst d) -> NoDup (map fst (dset k v d)).
Proof.
  intros h. rewrite dset_keys. destruct (dmem k d) eqn:e; [exact h|]. apply (Permutation_NoDup (Permutation_cons_append _ k)). constructor; [|exact h]. rewrite <- dmem_in. congruence.
Qed.
Lemma add_files_nodup s fs : forall prev b b', NoDup (map fst (bt_weighted b)) -> add_files s prev b fs = Ok b' -> NoDup (map fst (bt_weighted b')).
Proof.
  induction fs as [|f fs ih]; intros prev b b' hd h; cbn [add_files] in h; [injection h as <-; exact hd|]. apply rbind_ok in h. destruct h as [b1 [h1 h]]. refine (ih _ _ _ _ h). clear h ih.
  unfold add_file in h1. apply rbind_ok in h1. destruct h1 as [d [d1 h1]]. apply rbind_ok in h1. destruct h1 as [v [v1 h1]]. cbv zeta in h1. apply rbind_ok in h1. destruct h1 as [d2 [_ h1]]. apply rbind_ok in h1. destruct h1 as [w2 [_ h1]].
  injection h1 as <-. cbn [bt_weighted]. apply dset_nodup. destruct (String.eqb prev (fl_segment f)); [exact hd|]. cbn [bt_weighted]. apply dset_nodup. exact hd.
Qed.

(** every line carries the value of its segment and a coordinate of that segment *)
Theorem C93_lines_right s fs b coords c seg w : get_batch s fs = Ok (b, coords) -> NoDup (map fst s) -> In (c, seg, w) (gis_rows coords (bt_weighted b)) ->
  dget seg (bt_weighted b) = Ok w /\ exists name first rest, dget seg s = Ok ((name, first) :: rest) /\ In c (snd first).
Proof.
  intros h hs hi. unfold get_batch in h. apply rbind_ok in h. destruct h as [b' [h1 h]]. apply rbind_ok in h. destruct h as [c' [h2 h]]. injection h as -> ->.
  assert (hd : NoDup (map fst (bt_weighted b))) by (apply (add_files_nodup s fs EmptyString (mkBatch [] []) b (NoDup_nil _) h1)). clear h1.
  unfold gis_rows in hi. apply in_flat_map in hi. destruct hi as [[[k cs] [k' w']] [q1 q2]]. cbn [fst snd] in q2. destruct (String.eqb_spec k k') as [->|]; [|destruct q2].
  apply in_map_iff in q2. destruct q2 as [c0 [q2 q3]]. injection q2 as -> -> ->. split; [apply in_dget; [exact hd|exact (in_combine_r _ _ _ _ q1)]|].
  apply in_combine_l in q1. revert coords h2 q1. induction s as [|[a v] s ih]; intros coords h2 q1; cbn [batch_coordinates] in h2; [injection h2 as <-; destruct q1|]. cbn in hs. inversion hs as [|? ? n1 n2]; subst.
  destruct (dmem a (bt_data b)).
  - destruct v as [|[nm first] rest]; [discriminate|]. apply rbind_ok in h2. destruct h2 as [cc [h2 h3]]. injection h3 as <-. cbn [dget]. destruct q1 as [q1|q1].
    + injection q1 as -> <-. rewrite String.eqb_refl. exists nm, first, rest. auto.
    + destruct (ih n2 cc h2 q1) as [n3 [f3 [r3 [g1 g2]]]]. destruct (String.eqb_spec a seg) as [->|]; [exfalso; apply n1; apply in_map_iff; apply dget_in in g1; exists (seg, (n3, f3) :: r3); auto|eauto].
  - cbn [dget]. destruct (ih n2 coords h2 q1) as [n3 [f3 [r3 [g1 g2]]]]. destruct (String.eqb_spec a seg) as [->|]; [exfalso; apply n1; apply in_map_iff; apply dget_in in g1; exists (seg, (n3, f3) :: r3); auto|eauto].
Qed.
Print Assumptions C93_lines_right.

Lemma coordinates_keys (s : sos R) data coords : batch_coordinates s data = Ok coords -> map fst coords = filter (fun k => dmem k data) (map fst s) /\
  forall k v nm first rest, In (k, v) s -> dmem k data = true -> v = (nm, first) :: rest -> In (k, snd first) coords.
Proof.
  revert coords. induction s as [|[a v] s ih]; intros coords h; cbn [batch_coordinates] in h; [injection h as <-; split; [reflexivity|intros ? ? ? ? ? []]|]. cbn [map filter fst]. destruct (dmem a data) eqn:e.
  - destruct v as [|[nm first] rest]; [discriminate|]. apply rbind_ok in h. destruct h as [cc [h1 h2]]. injection h2 as <-. destruct (ih cc h1) as [i1 i2]. split; [cbn; rewrite i1; reflexivity|].
    intros k v nm' first' rest' [hi|hi] hm hv; [injection hi as <- <-; injection hv as -> -> ->; left; reflexivity|right; exact (i2 _ _ _ _ _ hi hm hv)].
  - destruct (ih coords h) as [i1 i2]. split; [exact i1|]. intros k v' nm' first' rest' [hi|hi] hm hv; [injection hi as <- <-; congruence|exact (i2 _ _ _ _ _ hi hm hv)].
Qed.

Lemma combine_same_keys {A B} (l : list (string * A)) (m : list (string * B)) k a b : map fst l = map fst m -> NoDup (map fst l) -> In (k, a) l -> In (k, b) m -> In ((k, a), (k, b)) (combine l m).
Proof.
  revert m. induction l as [|[x u] l ih]; intros [|[y w] m] he hd hl hm; try (destruct hl; fail); try discriminate. cbn in he. injection he as -> he. cbn in hd. inversion hd as [|? ? n1 n2]; subst. cbn [combine].
  destruct hl as [hl|hl], hm as [hm|hm].
  - injection hl as -> ->. injection hm as ->. left. reflexivity.
  - injection hl as -> ->. exfalso. apply n1. rewrite he. apply in_map_iff. exists (k, b). auto.
  - injection hm as -> ->. exfalso. apply n1. apply in_map_iff. exists (k, a). auto.
  - right. apply ih; assumption.
Qed.

(** with the segments listed in the order of the soil data, every coordinate of every segment with results gets its line *)
Theorem C93_complete_partial s fs b coords seg nm first rest c w : (forall f, In f fs -> known s f /\ fl_segment f <> EmptyString) ->
  get_batch s fs = Ok (b, coords) -> NoDup (map fst s) -> first_seen (map (fun f => fl_segment f) fs) [] = filter (fun k => existsb (fun f => String.eqb (fl_segment f) k) fs) (map fst s) ->
  dget seg (bt_weighted b) = Ok w -> dget seg s = Ok ((nm, first) :: rest) -> In c (snd first) -> In (c, seg, w) (gis_rows coords (bt_weighted b)).
Proof.
  intros hk h hs ho hw hg hc. unfold get_batch in h. apply rbind_ok in h. destruct h as [b' [h1 h]]. apply rbind_ok in h. destruct h as [c' [h2 h]]. injection h as -> ->.
  destruct (C92_held s fs hk) as [b2 [e1 [e2 [e3 e4]]]]. assert (b2 = b) by congruence. subst b2. clear e1.
  destruct (coordinates_keys _ _ _ h2) as [q1 q2].
  assert (hmem : forall k, dmem k (bt_data b) = existsb (fun f => String.eqb (fl_segment f) k) fs).
  { intros k. apply eq_true_iff_eq. rewrite existsb_exists. split.
    - intros hm. destruct (holds_all s fs [] EmptyString (mkBatch [] []) hk eq_refl) as [b3 [g1 [g2 _]]]; [split; [intros ? [? [[] _]]|split; [reflexivity|intros ? []]]|].
      assert (b3 = b) by congruence. subst b3. apply dmem_in in hm. destruct g2 as [_ [_ g2]]. destruct (g2 k hm) as [f [f1 f2]]. rewrite app_nil_r in f1. apply in_rev in f1. exists f. split; [exact f1|apply String.eqb_eq; exact f2].
    - intros [f [f1 f2]]. apply String.eqb_eq in f2. subst k. destruct (e2 f f1) as [_ [d [hd _]]]. apply dmem_dget. eauto. }
  assert (hkeys : map fst coords = map fst (bt_weighted b)) by (rewrite q1, e3, ho; apply filter_ext; exact hmem).
  assert (hwin := dget_in _ _ _ hw). assert (hsm : dmem seg (bt_data b) = true) by (apply dmem_in; rewrite e4, <- e3; apply in_map_iff; exists (seg, w); auto).
  unfold gis_rows. apply in_flat_map. exists ((seg, snd first), (seg, w)). split.
  - apply combine_same_keys; [exact hkeys|rewrite hkeys; exact (add_files_nodup s fs EmptyString (mkBatch [] []) b (NoDup_nil _) h1)|exact (q2 _ _ _ _ _ (dget_in _ _ _ hg) hsm eq_refl)|exact hwin].
  - cbn [fst snd]. rewrite String.eqb_refl. apply in_map_iff. exists c. auto.
Qed.
Print Assumptions C93_complete_partial.

(** in another order segments are left out without a word: here every one of them *)
Theorem C93_order_refuted : exists b coords, get_batch demo_sos [mkFile "segment2" "scenario1" 5; mkFile "segment1" "scenario1" 10] = Ok (b, coords) /\
  length (bt_weighted b) = 2%nat /\ length coords = 2%nat /\ gis_rows coords (bt_weighted b) = [].
Proof. do 2 eexists. split; [reflexivity|]. repeat split; reflexivity. Qed.
Print Assumptions C93_order_refuted.

Example C93_case : let fs := [mkFile "segment1" "scenario1" 10; mkFile "segment1" "scenario2" 20; mkFile "segment2" "scenario1" 5] in
  NoDup (map fst demo_sos) /\ first_seen (map (fun f => fl_segment f) fs) [] = filter (fun k => existsb (fun f => String.eqb (fl_segment f) k) fs) (map fst demo_sos) /\
  exists b coords, get_batch demo_sos fs = Ok (b, coords) /\ length (gis_rows coords (bt_weighted b)) = 3%nat.
Proof. cbv zeta. split; [repeat constructor; cbn; intuition discriminate|]. split; [reflexivity|]. do 2 eexists. split; reflexivity. Qed.

(** ** C94: segment and scenario read from the name of a file *)

Lemma split_join parts : parts <> [] -> (forall p, In p parts -> no_underscore p) -> split_underscore (join_parts parts) = parts.
Proof.
  assert (h1 : forall a, no_underscore a -> split_underscore a = [a]).
  { induction a as [|c a ih]; [reflexivity|]. intros [h1 h2]. cbn [split_underscore]. destruct (Ascii.eqb_spec c "_"%char); [congruence|]. rewrite (ih h2). reflexivity. }
  assert (h2 : forall a q, no_underscore a -> split_underscore (append a (String "_"%char q)) = a :: split_underscore q).
  { induction a as [|c a ih]; intros q; [reflexivity|]. intros [g1 g2]. cbn [append split_underscore]. destruct (Ascii.eqb_spec c "_"%char); [congruence|]. rewrite (ih q g2). reflexivity. }
  induction parts as [|a r ih]; intros hn hp; [congruence|]. destruct r as [|b r]; [apply h1; apply hp; left; reflexivity|].
  change (join_parts (a :: b :: r)) with (append a (String "_"%char (join_parts (b :: r)))). rewrite h2 by (apply hp; left; reflexivity). f_equal. apply ih; [discriminate|]. intros p hpp. apply hp. right. exact hpp.
Qed.

Lemma fold_fst (l : list string) acc : fst (fold_left (fun acc part => (if contains "segment" (lower part) then part else fst acc, if contains "scenario" (lower part) then part else snd acc)) l acc) =
  fold_left (fun a part => if contains "segment" (lower part) then part else a) l (fst acc).
Proof. revert acc. induction l as [|p l ih]; intros acc; [reflexivity|]. cbn [fold_left]. rewrite ih. reflexivity. Qed.
Lemma fold_snd (l : list string) acc : snd (fold_left (fun acc part => (if contains "segment" (lower part) then part else fst acc, if contains "scenario" (lower part) then part else snd acc)) l acc) =
  fold_left (fun a part => if contains "scenario" (lower part) then part else a) l (snd acc).
Proof. revert acc. induction l as [|p l ih]; intros acc; [reflexivity|]. cbn [fold_left]. rewrite ih. reflexivity. Qed.
Lemma fold_last (g : string -> bool) a x b e : g x = true -> (forall p, In p b -> g p = false) -> fold_left (fun a part => if g part then part else a) (a ++ x :: b) e = x.
Proof.
  intros hx hb. rewrite fold_left_app. cbn [fold_left]. rewrite hx. clear hx. induction b as [|p b ih]; [reflexivity|]. cbn [fold_left]. rewrite (hb p) by (left; reflexivity). apply ih. intros q hq. apply hb. right. exact hq.
Qed.
Lemma fold_none (g : string -> bool) b e : (forall p, In p b -> g p = false) -> fold_left (fun a part => if g part then part else a) b e = e.
Proof. intros hb. induction b as [|p b ih]; [reflexivity|]. cbn [fold_left]. rewrite (hb p) by (left; reflexivity). apply ih. intros q hq. apply hb. right. exact hq. Qed.

(** the last part of the name in which the word occurs, in whatever case *)
Theorem C94_segment a x b : (forall p, In p (a ++ x :: b) -> no_underscore p) -> contains "segment" (lower x) = true -> (forall p, In p b -> contains "segment" (lower p) = false) ->
  fst (segment_and_scenario (join_parts (a ++ x :: b))) = x.
Proof. intros hn hx hb. unfold segment_and_scenario. rewrite split_join by (try assumption; destruct a; discriminate). rewrite fold_fst. exact (fold_last (fun p => contains "segment" (lower p)) a x b _ hx hb). Qed.
Print Assumptions C94_segment.
Theorem C94_scenario a x b : (forall p, In p (a ++ x :: b) -> no_underscore p) -> contains "scenario" (lower x) = true -> (forall p, In p b -> contains "scenario" (lower p) = false) ->
  snd (segment_and_scenario (join_parts (a ++ x :: b))) = x.
Proof. intros hn hx hb. unfold segment_and_scenario. rewrite split_join by (try assumption; destruct a; discriminate). rewrite fold_snd. exact (fold_last (fun p => contains "scenario" (lower p)) a x b _ hx hb). Qed.
Print Assumptions C94_scenario.
(** no such part: empty names *)
Theorem C94_neither parts : parts <> [] -> (forall p, In p parts -> no_underscore p) ->
  (forall p, In p parts -> contains "segment" (lower p) = false /\ contains "scenario" (lower p) = false) -> segment_and_scenario (join_parts parts) = (EmptyString, EmptyString).
Proof.
  intros h0 hn hp. rewrite (surjective_pairing (segment_and_scenario _)). unfold segment_and_scenario. rewrite split_join by assumption. rewrite fold_fst, fold_snd.
  f_equal; [apply (fold_none (fun p => contains "segment" (lower p)))|apply (fold_none (fun p => contains "scenario" (lower p)))]; intros p h; apply hp; exact h.
Qed.
Print Assumptions C94_neither.

(** the word occurs in a name exactly when the name is some text, the word and some text *)
Theorem C94_word w s : contains w s = true <-> exists a b, s = append a (append w b).
Proof.
  assert (hp : forall s, String.prefix w s = true <-> exists b, s = append w b).
  { clear. induction w as [|c w ih]; intros s; [cbn; split; [eauto|destruct s; reflexivity]|]. destruct s as [|d s]; cbn; [split; [discriminate|intros [b h]; discriminate]|].
    destruct (ascii_dec c d) as [->|e]; [rewrite ih; split; intros [b h]; exists b; congruence|split; [discriminate|intros [b h]; congruence]]. }
  induction s as [|c s ih]; cbn [contains]; rewrite orb_true_iff, hp.
  - split; [intros [[b h]|h]; [exists EmptyString, b; exact h|discriminate]|intros [[|d a] [b h]]; [left; exists b; exact h|discriminate]].
  - rewrite ih. split; [intros [[b h]|[a [b h]]]; [exists EmptyString, b; exact h|exists (String c a), b; cbn; congruence]|]. intros [[|d a] [b h]]; [left; exists b; exact h|right; exists a, b; cbn in h; congruence].
Qed.
Print Assumptions C94_word.

(** the scenario at the end of the name keeps the extension of the file, which no soil data know *)
Theorem C94_extension_refuted : segment_and_scenario "res_Segment 1001_scenario 1.json" = ("Segment 1001"%string, "scenario 1.json"%string).
Proof. reflexivity. Qed.
Print Assumptions C94_extension_refuted.

Example C94_case : segment_and_scenario (join_parts (["res"%string; "Segment 1001"%string] ++ "scenario 1"%string :: ["70.json"%string])) = ("Segment 1001"%string, "scenario 1"%string).
Proof. reflexivity. Qed.

(** results of a calculation carry exactly three parts in their name *)
Theorem C94_three_parts parts seg sce : parts <> [] -> (forall p, In p parts -> no_underscore p) ->
  (name_parts (join_parts parts) = Ok (seg, sce) <-> exists pre, parts = [pre; seg; sce]).
Proof.
  intros h0 hn. unfold name_parts. rewrite split_join by assumption. destruct parts as [|a [|b [|c [|d r]]]]; (split; [intros h; try discriminate|intros [pre h]; try discriminate]).
  - injection h as -> ->. exists a. reflexivity.
  - injection h as -> -> ->. reflexivity.
Qed.
Print Assumptions C94_three_parts.

(** the number of scenarios is written for every coordinate of every segment *)
Theorem C93_scenario_counts (s : sos R) rows : scenario_rows s = Ok rows ->
  forall c seg n, In (c, seg, n) rows <-> exists nm first rest, In (seg, (nm, first) :: rest) s /\ In c (snd first) /\ n = S (length rest).
Proof.
  revert rows. induction s as [|[k v] s ih]; intros rows h c seg n; cbn [scenario_rows] in h; [injection h as <-; split; [intros []|intros [? [? [? [[] _]]]]]|].
  destruct v as [|[nm first] rest]; [discriminate|]. apply rbind_ok in h. destruct h as [q [h1 h2]]. injection h2 as <-. rewrite in_app_iff, (ih q h1). split.
  - intros [hi|[nm' [f' [r' [g1 g2]]]]]; [|exists nm', f', r'; split; [right; exact g1|exact g2]]. apply in_map_iff in hi. destruct hi as [c0 [e hi]]. injection e as -> -> <-. exists nm, first, rest. split; [left; reflexivity|split; [exact hi|reflexivity]].
  - intros [nm' [f' [r' [[g1|g1] g2]]]]; [|right; exists nm', f', r'; auto]. injection g1 as -> -> -> ->. left. apply in_map_iff. exists c. destruct g2 as [g2 ->]. auto.
Qed.
Print Assumptions C93_scenario_counts.
Example C93_counts_case : exists rows, scenario_rows demo_sos = Ok rows /\ In ((1, 0), "segment1"%string, 2%nat) rows /\ length rows = 3%nat.
Proof. eexists. split; [reflexivity|]. split; [cbn; auto|reflexivity]. Qed.

(** ** C95: the dynamic stiffness of a node *)

Lemma max_abs_spec (l : list R) m : max_abs l = Ok m -> (forall x, In x l -> Rabs x <= m) /\ exists x, In x l /\ m = Rabs x.
Proof.
  destruct l as [|a l]; [discriminate|]. cbn [max_abs]. intros h. injection h as <-. revert a.
  assert (hgen : forall l b, (b <= fold_left (fun acc x => if nleb acc (nabs x) then nabs x else acc) l b /\ (forall x, In x l -> Rabs x <= fold_left (fun acc x => if nleb acc (nabs x) then nabs x else acc) l b)) /\
     (fold_left (fun acc x => if nleb acc (nabs x) then nabs x else acc) l b = b \/ exists x, In x l /\ fold_left (fun acc x => if nleb acc (nabs x) then nabs x else acc) l b = Rabs x)).
  { clear. induction l as [|x l ih]; intros b; cbn [fold_left]; [split; [split; [lra|intros ? []]|auto]|]. destruct (ih (if nleb b (nabs x) then nabs x else b)) as [[i1 i2] i3]. rewrite nabs_R in *.
    destruct (nlebP b (Rabs x)) as [e|e]; (split; [split|]).
    - lra.
    - intros y [<-|hy]; [exact i1|exact (i2 y hy)].
    - right. destruct i3 as [->|[y [y1 y2]]]; [exists x; split; [left; reflexivity|reflexivity]|exists y; split; [right; exact y1|exact y2]].
    - exact i1.
    - intros y [<-|hy]; [lra|exact (i2 y hy)].
    - destruct i3 as [i3|[y [y1 y2]]]; [left; exact i3|right; exists y; split; [right; exact y1|exact y2]]. }
  intros a. destruct (hgen l (nabs a)) as [[i1 i2] i3]. rewrite nabs_R in *. split; [intros x [<-|hx]; [exact i1|exact (i2 x hx)]|].
  destruct i3 as [i3|[x [x1 x2]]]; [exists a; split; [left; reflexivity|exact i3]|exists x; split; [right; exact x1|exact x2]].
Qed.

(** the largest force over the largest displacement, whenever they occur *)
Theorem C95_stiffness (u f : list R) k : dynamic_stiffness u f = Ok (Some k) ->
  exists u0 f0, In u0 u /\ In f0 f /\ (forall x, In x u -> Rabs x <= Rabs u0) /\ (forall x, In x f -> Rabs x <= Rabs f0) /\ u0 <> 0 /\ k = Rabs f0 / Rabs u0 /\ 0 <= k.
Proof.
  unfold dynamic_stiffness. intros h. apply rbind_ok in h. destruct h as [du [h1 h]]. apply rbind_ok in h. destruct h as [df [h2 h]]. apply max_abs_spec in h1, h2.
  destruct h1 as [a1 [u0 [a2 ->]]]. destruct h2 as [b1 [f0 [b2 ->]]]. destruct (neqbP (Rabs u0) (lit 0)) as [e|e]; [discriminate|]. injection h as <-. exists u0, f0.
  assert (hu : u0 <> 0) by (intros ->; apply e; rewrite Rabs_R0; reflexivity). assert (hp : 0 < Rabs u0) by (apply Rabs_pos_lt; exact hu).
  repeat split; try assumption. apply Rmult_le_pos; [apply Rabs_pos|left; apply Rinv_0_lt_compat; exact hp].
Qed.
Print Assumptions C95_stiffness.

(** of a spring it is the stiffness of the spring, whatever the history *)
Theorem C95_spring (u : list R) k0 : (exists x, In x u /\ x <> 0) -> dynamic_stiffness u (map (fun x => k0 * x) u) = Ok (Some (Rabs k0)).
Proof.
  intros [x0 [hx0 hn]]. unfold dynamic_stiffness. destruct (max_abs u) as [du|] eqn:h1; [|destruct u; [destruct hx0|discriminate]]. destruct (max_abs (map (fun x => k0 * x) u)) as [df|] eqn:h2; [|destruct u; [destruct hx0|discriminate]].
  cbn [rbind]. apply max_abs_spec in h1, h2. destruct h1 as [a1 [u0 [a2 ->]]]. destruct h2 as [b1 [f0 [b2 ->]]]. assert (hp : 0 < Rabs u0) by (apply Rlt_le_trans with (Rabs x0); [apply Rabs_pos_lt; exact hn|apply a1; exact hx0]).
  destruct (neqbP (Rabs u0) (lit 0)) as [e|e]; [exfalso; change (@lit R RNum 0) with 0 in e; lra|]. do 2 f_equal. apply in_map_iff in b2. destruct b2 as [y [<- hy]].
  assert (hge : Rabs (k0 * u0) <= Rabs (k0 * y)) by (apply b1; apply in_map_iff; exists u0; auto). rewrite !Rabs_mult in *. assert (hle := a1 y hy).
  assert (heq : Rabs k0 * Rabs y = Rabs k0 * Rabs u0) by (apply Rle_antisym; [apply Rmult_le_compat_l; [apply Rabs_pos|exact hle]|exact hge]). rewrite heq. rnum. field. lra.
Qed.
Print Assumptions C95_spring.
Example C95_case : dynamic_stiffness [0; -2; 1] [0; -6; 3] = Ok (Some 3).
Proof. assert (h := C95_spring [0; -2; 1] 3). cbn [map] in h. rewrite Rabs_right in h by lra. rewrite <- h; [|exists 1; split; [cbn; auto|lra]]. repeat (f_equal; try lra). Qed.
