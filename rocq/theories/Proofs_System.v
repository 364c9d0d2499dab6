From Coq Require Import Reals List Bool ZArith Arith Lia Lra Permutation.
From Verif Require Import Num PyBase Model_Geometry Model_System Spec_System Proofs_Dof.
Import ListNotations.

(** ** trimming of all obsolete degrees of freedom (C08) *)

Lemma insert_unique_In x l y : In y (insert_unique x l) <-> y = x \/ In y l.
Proof.
  induction l as [|z l IH]; simpl; [intuition|].
  destruct (Nat.ltb_spec x z); simpl; [intuition|].
  destruct (Nat.eqb_spec x z); simpl; [subst; intuition|]. rewrite IH. intuition.
Qed.

Lemma np_unique_In l y : In y (np_unique l) <-> In y l.
Proof. induction l as [|x l IH]; simpl; [tauto|]. rewrite insert_unique_In, IH. intuition. Qed.

Lemma where_zero_In (v : list R) s k :
  In k (where_zero_from s v) <-> (s <= k)%nat /\ exists x, nth_error v (k - s) = Some x /\ (Rabs x <= 1 / 100000000)%R.
Proof.
  revert s. induction v as [|x v IH]; intros s; cbn [where_zero_from].
  - split; [intros []|]. intros [_ [y [h _]]]. destruct (k - s)%nat; discriminate.
  - assert (hc : forall b, np_isclose x 0%R = b -> (b = true <-> (Rabs x <= 1 / 100000000)%R)).
    { intros b <-. apply np_isclose_0_spec. }
    change (@lit R RNum 0) with 0%R.
    destruct (np_isclose x 0%R) eqn:e; specialize (hc _ eq_refl); cbn [In]; rewrite IH; split.
    + intros [<-|[h1 [y [h2 h3]]]].
      * split; auto. exists x. rewrite Nat.sub_diag. simpl. split; auto. apply hc. reflexivity.
      * split; [lia|]. exists y. replace (k - s)%nat with (S (k - S s)) by lia. auto.
    + intros [h1 [y [h2 h3]]]. destruct (Nat.eq_dec s k); auto. right. split; [lia|]. exists y.
      replace (k - s)%nat with (S (k - S s)) in h2 by lia. auto.
    + intros [h1 [y [h2 h3]]]. split; [lia|]. exists y. replace (k - s)%nat with (S (k - S s)) by lia. auto.
    + intros [h1 [y [h2 h3]]]. destruct (Nat.eq_dec s k) as [->|ne].
      * rewrite Nat.sub_diag in h2. simpl in h2. injection h2 as <-. apply hc in h3. discriminate.
      * split; [lia|]. exists y. replace (k - s)%nat with (S (k - S s)) in h2 by lia. auto.
Qed.

Lemma mdiag_nth (m : mat R) n k : mr m = n -> mc m = n -> (k < n)%nat -> nth_error (mdiag m) k = Some (me m k k).
Proof.
  intros h1 h2 hk. unfold mdiag. rewrite h1, h2, Nat.min_id, nth_error_map.
  assert (hs : nth_error (seq 0 n) k = Some k).
  { rewrite (nth_error_nth' _ 0%nat) by (rewrite seq_length; assumption). rewrite seq_nth by assumption. reflexivity. }
  rewrite hs. reflexivity.
Qed.

Lemma mdiag_where (m : mat R) n k :
  mr m = n -> mc m = n ->
  (In k (where_zero_from 0 (mdiag m)) <-> (k < n)%nat /\ (Rabs (me m k k) <= 1 / 100000000)%R).
Proof.
  intros h1 h2. rewrite where_zero_In. rewrite Nat.sub_0_r. split.
  - intros [_ [x [hx hr]]].
    assert (hk : (k < n)%nat).
    { assert (hl : (k < length (mdiag m))%nat) by (apply nth_error_Some; rewrite hx; discriminate).
      unfold mdiag in hl. rewrite map_length, seq_length, h1, h2, Nat.min_id in hl. assumption. }
    rewrite (mdiag_nth m n k h1 h2 hk) in hx. injection hx as <-. auto.
  - intros [hk hr]. split; [lia|]. eexists. split; [apply (mdiag_nth m n k h1 h2 hk)|assumption].
Qed.

Lemma constrained_In (ns : list (node R)) k :
  In k (constrained_indices ns) <-> exists p d, number_of ns p d = Some k /\ active ns p d = false.
Proof.
  unfold constrained_indices. rewrite in_flat_map. split.
  - intros [x [hx hk]]. apply in_rev in hx. apply In_nth_error in hx. destruct hx as [p hp].
    unfold constrained_of in hk. apply in_flat_map in hk. destruct hk as [d [_ hk]].
    exists p, d. unfold number_of, active. rewrite hp.
    destruct (tget (n_flag x) d); [destruct hk|]. destruct (tget (n_dof x) d); [destruct hk as [-> | []]; auto|destruct hk].
  - intros [p [d [h1 h2]]]. unfold number_of, active in *. destruct (nth_error ns p) as [x|] eqn:ex; [|discriminate].
    exists x. rewrite <- in_rev. split; [eapply nth_error_In; eauto|]. unfold constrained_of. apply in_flat_map.
    exists d. split; [destruct d; simpl; auto|]. rewrite h2, h1. simpl. auto.
Qed.

Lemma numbered_inj (ns : list (node R)) n p d q e k :
  numbered ns n -> number_of ns p d = Some k -> number_of ns q e = Some k -> p = q /\ d = e.
Proof.
  intros hn h1 h2. unfold numbered in hn. rewrite all_numbers_opts in hn.
  assert (g : forall os s m a b k, somes os = seq s m -> nth_error os a = Some (Some k) -> nth_error os b = Some (Some k) -> a = b).
  { clear. intros os. induction os as [|o os IH]; intros s m a b k hs ha hb; [destruct a; discriminate|].
    assert (hin : forall c, nth_error os c = Some (Some k) -> In k (somes os)).
    { intros c hc. unfold somes. apply in_flat_map. exists (Some k). split; [eapply nth_error_In; eauto|simpl; auto]. }
    destruct o as [z|].
    - simpl in hs. destruct m as [|m]; [discriminate|]. simpl in hs. injection hs as -> hs.
      destruct a as [|a], b as [|b]; simpl in *; auto.
      + injection ha as ->. pose proof (hin b hb) as hi. rewrite hs in hi. apply in_seq in hi. lia.
      + injection hb as ->. pose proof (hin a ha) as hi. rewrite hs in hi. apply in_seq in hi. lia.
      + f_equal. eapply IH; eauto.
    - destruct a as [|a], b as [|b]; simpl in *; try discriminate. f_equal. eapply IH; eauto. }
  rewrite opts_nth in h1, h2.
  destruct (nth_error (opts ns) (3 * p + dir_idx d)) as [o1|] eqn:e1; [|discriminate].
  destruct (nth_error (opts ns) (3 * q + dir_idx e)) as [o2|] eqn:e2; [|discriminate]. subst.
  pose proof (g _ _ _ _ _ _ hn e1 e2). destruct d, e; simpl in *; split; auto; lia.
Qed.

Lemma obsolete_In (s : gsys R) (ns : list (node R)) n p d k :
  square n s -> numbered ns n -> number_of ns p d = Some k ->
  (In k (obsolete_indices s ns) <->
   active ns p d = false \/ (Rabs (me (gM s) k k) <= 1 / 100000000)%R \/ (Rabs (me (gK s) k k) <= 1 / 100000000)%R).
Proof.
  intros [a1 [a2 [a3 [a4 _]]]] hn hk. pose proof (numbered_lt _ _ _ _ _ hn hk) as hlt.
  unfold obsolete_indices. rewrite <- in_rev, np_unique_In, !in_app_iff, <- !in_rev, constrained_In.
  rewrite !(mdiag_where _ n) by assumption. split.
  - intros [[q [e [h1 h2]]]|[[_ h]|[_ h]]]; auto.
    destruct (numbered_inj _ _ _ _ _ _ _ hn hk h1) as [<- <-]. auto.
  - intros [h|[h|h]]; auto. left. eauto.
Qed.

Lemma obsolete_lt (s : gsys R) (ns : list (node R)) n k :
  square n s -> numbered ns n -> In k (obsolete_indices s ns) -> (k < n)%nat.
Proof.
  intros [a1 [a2 [a3 [a4 _]]]] hn. unfold obsolete_indices.
  rewrite <- in_rev, np_unique_In, !in_app_iff, <- !in_rev, constrained_In, !(mdiag_where _ n) by assumption.
  intros [[q [e [h1 h2]]]|[[h _]|[h _]]]; auto. eapply numbered_lt; eauto.
Qed.

Lemma trim_all_spec (s : gsys R) (ns : list (node R)) (n : nat) :
  square n s -> numbered ns n ->
  exists s' ns' n', trim_all s ns = Ok (s', ns', n') /\ square n' s' /\ numbered ns' n' /\
    (forall p d k, number_of ns p d = Some k ->
       (number_of ns' p d <> None <->
        active ns p d = true /\ (1 / 100000000 < Rabs (me (gM s) k k))%R /\ (1 / 100000000 < Rabs (me (gK s) k k))%R)) /\
    (forall p d, number_of ns p d = None -> number_of ns' p d = None) /\
    (forall p d, active ns' p d = true <-> number_of ns' p d <> None) /\
    (forall p d q e k l k' l', number_of ns p d = Some k -> number_of ns' p d = Some k' ->
       number_of ns q e = Some l -> number_of ns' q e = Some l' ->
       nth_error (gF s') k' = nth_error (gF s) k /\
       me (gK s') k' l' = me (gK s) k l /\ me (gM s') k' l' = me (gM s) k l /\ me (gC s') k' l' = me (gC s) k l).
Proof.
  intros hs hn. unfold trim_all.
  assert (hlt : forall k, In k (obsolete_indices s ns) -> (k < n)%nat) by (intros; eapply obsolete_lt; eauto).
  destruct (trim_consistent s ns n (obsolete_indices s ns) hs hn hlt) as [s' [e1 h]].
  rewrite e1. cbn [rbind]. destruct (recalculate_dof (obsolete_indices s ns) ns) as [ns' n'].
  destruct h as [h1 [h2 [h3 [h4 [h5 h6]]]]].
  exists s', ns', n'. split; [reflexivity|]. split; auto. split; auto.
  assert (hdec : forall k, In k (obsolete_indices s ns) \/ ~ In k (obsolete_indices s ns)).
  { intros k. destruct (memb k (obsolete_indices s ns)) eqn:e; [left; apply memb_In|right; apply memb_false]; assumption. }
  split; [|split; [|split]].
  - intros p d k hk. pose proof (obsolete_In s ns n p d k hs hn hk) as ho. destruct (hdec k) as [hin|hout].
    + destruct (h4 p d k hk hin) as [-> _]. split; [congruence|]. intros [g1 [g2 g3]]. exfalso.
      apply ho in hin. destruct hin as [hi|[hi|hi]]; [congruence|lra|lra].
    + destruct (h6 p d k hk hout) as [k' [-> _]]. split; [|congruence]. intros _. repeat split.
      * destruct (active ns p d); auto. exfalso. apply hout, ho. auto.
      * apply Rnot_le_lt. intros hc. apply hout, ho. auto.
      * apply Rnot_le_lt. intros hc. apply hout, ho. auto.
  - intros p d hk. apply (h5 p d hk).
  - intros p d. destruct (number_of ns p d) as [k|] eqn:ek.
    + destruct (hdec k) as [hin|hout].
      * destruct (h4 p d k ek hin) as [-> ->]. split; congruence.
      * destruct (h6 p d k ek hout) as [k' [-> [_ [-> _]]]]. split; [congruence|]. intros _.
        destruct (active ns p d) eqn:ea; auto. exfalso. apply hout.
        apply (obsolete_In s ns n p d k hs hn ek). auto.
    + destruct (h5 p d ek) as [-> ->]. split; congruence.
  - intros p d q e k l k' l' hk hk' hl hl'.
    destruct (hdec k) as [hin|hout]; [destruct (h4 p d k hk hin); congruence|].
    destruct (h6 p d k hk hout) as [k2 [e2 [_ [_ [hf hm]]]]]. assert (k2 = k') by congruence. subst k2.
    split; auto. apply (hm q e l l' hl hl').
Qed.

Lemma apply_constraint_spec (ns : list (node R)) (c : list nat * tri bool) :
  length (apply_constraint ns c) = length ns /\
  (forall p d, (p < length ns)%nat ->
     active (apply_constraint ns c) p d = if memb p (fst c) then tget (snd c) d else active ns p d) /\
  (forall p d, number_of (apply_constraint ns c) p d = number_of ns p d) /\
  (forall p a, nth_error ns p = Some a -> exists b, nth_error (apply_constraint ns c) p = Some b /\ same_identity a b /\ n_dof a = n_dof b).
Proof.
  unfold apply_constraint. destruct c as [ps f]. cbn [fst snd]. revert ns.
  induction ps as [|q ps IH]; intros ns; cbn [fold_left].
  - repeat split; auto. intros p a h. exists a. repeat split; auto.
  - set (ns1 := match nth_error ns q with Some n => lset ns q (with_flag n f) | None => ns end).
    destruct (IH ns1) as [h1 [h2 [h3 h4]]].
    assert (g0 : length ns1 = length ns) by (unfold ns1; destruct (nth_error ns q); auto; apply lset_length).
    assert (gn : forall p a, nth_error ns p = Some a -> nth_error ns1 p = Some (if Nat.eqb p q then with_flag a f else a)).
    { intros p a ha. unfold ns1. destruct (Nat.eqb_spec p q) as [->|ne].
      - rewrite ha. apply lset_nth_same. apply nth_error_Some. rewrite ha. discriminate.
      - destruct (nth_error ns q); auto. rewrite lset_nth_other; auto. }
    assert (gnone : forall p, nth_error ns p = None -> nth_error ns1 p = None).
    { intros p hp. apply nth_error_None. rewrite g0. apply nth_error_None. assumption. }
    split; [congruence|]. split; [|split].
    + intros p d hp. rewrite h2 by congruence. unfold memb at 2. simpl. fold (memb p ps).
      destruct (memb p ps); [rewrite orb_true_r; reflexivity|]. rewrite orb_false_r.
      unfold active. destruct (nth_error ns p) as [a|] eqn:ea; [|apply nth_error_None in ea; lia].
      rewrite (gn p a ea). destruct (Nat.eqb p q); reflexivity.
    + intros p d. rewrite h3. unfold number_of. destruct (nth_error ns p) as [a|] eqn:ea.
      * rewrite (gn p a ea). destruct (Nat.eqb p q); reflexivity.
      * rewrite (gnone p ea). reflexivity.
    + intros p a ha. destruct (h4 p _ (gn p a ha)) as [b [hb [hs hd]]]. exists b. split; auto.
      destruct (Nat.eqb p q); auto.
Qed.

Lemma constraints_spec (cs : list (list nat * tri bool)) (ns : list (node R)) :
  let ns1 := fold_left apply_constraint cs ns in
  length ns1 = length ns /\
  (forall p d, (p < length ns)%nat -> active ns1 p d = flag_after cs p d (active ns p d)) /\
  (forall p d, number_of ns1 p d = number_of ns p d) /\ all_numbers ns1 = all_numbers ns.
Proof.
  cbv zeta. revert ns. induction cs as [|c cs IH]; intros ns; cbn [fold_left]; [repeat split; auto|].
  destruct (apply_constraint_spec ns c) as [h1 [h2 [h3 h4]]].
  destruct (IH (apply_constraint ns c)) as [g1 [g2 [g3 g4]]].
  split; [congruence|]. split; [|split].
  - intros p d hp. rewrite g2 by congruence. unfold flag_after. cbn [fold_left]. rewrite h2 by assumption. reflexivity.
  - intros p d. rewrite g3. apply h3.
  - rewrite g4. rewrite !all_numbers_opts. f_equal. unfold opts.
    assert (hf : forall l l' : list (node R), length l' = length l ->
              (forall p a, nth_error l p = Some a -> exists b, nth_error l' p = Some b /\ n_dof a = n_dof b) ->
              flat_map (fun n => tlist (n_dof n)) l' = flat_map (fun n => tlist (n_dof n)) l).
    { clear. induction l as [|x l IH]; intros [|y l'] hl hh; simpl in hl; try discriminate; auto.
      cbn [flat_map]. destruct (hh 0%nat x eq_refl) as [b [hb hd]]. simpl in hb. injection hb as ->. rewrite hd. f_equal.
      apply IH; [lia|]. intros p a ha. apply (hh (S p) a ha). }
    apply hf; auto. intros p a ha. destruct (h4 p a ha) as [b [hb [_ hd]]]. eauto.
Qed.

(** ** reshaping (C11) *)

Lemma fold_mset_miss {A} (qs : list A) (r c : A -> nat) (v : A -> R) m0 a b :
  (forall q, In q qs -> ~ (r q = a /\ c q = b)) ->
  fold_left (fun m q => mset m (r q) (c q) (v q)) qs m0 a b = m0 a b.
Proof.
  revert m0. induction qs as [|q qs IH]; intros m0 h; simpl; auto.
  rewrite IH by (intros; apply h; simpl; auto). unfold mset.
  destruct (Nat.eqb_spec a (r q)), (Nat.eqb_spec b (c q)); simpl; auto. exfalso. apply (h q); simpl; auto.
Qed.

Lemma fold_mset_hit {A} (qs : list A) (r c : A -> nat) (v : A -> R) m0 a b x :
  (exists q, In q qs /\ r q = a /\ c q = b) ->
  (forall q, In q qs -> r q = a -> c q = b -> v q = x) ->
  fold_left (fun m q => mset m (r q) (c q) (v q)) qs m0 a b = x.
Proof.
  revert m0. induction qs as [|q qs IH]; intros m0 [q0 [h1 [h2 h3]]] hv; [destruct h1|]. simpl.
  destruct (existsb (fun q => Nat.eqb (r q) a && Nat.eqb (c q) b)%bool qs) eqn:e.
  - apply existsb_exists in e. destruct e as [q1 [g1 g2]]. apply andb_true_iff in g2. destruct g2 as [g2 g3].
    apply Nat.eqb_eq in g2, g3. apply IH; [eauto|]. intros; apply hv; simpl; auto.
  - rewrite fold_mset_miss.
    + assert (hq : r q = a /\ c q = b).
      { destruct h1 as [->|h1]; auto. exfalso.
        assert (hc : existsb (fun q => Nat.eqb (r q) a && Nat.eqb (c q) b)%bool qs = true).
        { apply existsb_exists. exists q0. split; auto. rewrite h2, h3, !Nat.eqb_refl. reflexivity. }
        congruence. }
      destruct hq as [hq1 hq2]. unfold mset. rewrite hq1, hq2, !Nat.eqb_refl. simpl. apply hv; simpl; auto.
    + intros q1 g1 [g2 g3].
      assert (hc : existsb (fun q => Nat.eqb (r q) a && Nat.eqb (c q) b)%bool qs = true).
      { apply existsb_exists. exists q1. split; auto. rewrite g2, g3, !Nat.eqb_refl. reflexivity. }
      congruence.
Qed.

Lemma reshape_loop_In n dofs i j k l :
  In (i, j, k, l) (reshape_loop n dofs) <->
  (i < n)%nat /\ (j < n)%nat /\ (k < length dofs)%nat /\ (l < length dofs)%nat /\ nth k dofs false = true /\ nth l dofs false = true.
Proof.
  unfold reshape_loop. rewrite in_flat_map. split.
  - intros [i' [hi h]]. apply in_flat_map in h. destruct h as [j' [hj h]].
    apply in_flat_map in h. destruct h as [k' [hk h]]. destruct (nth k' dofs false) eqn:ek; [|destruct h].
    apply in_flat_map in h. destruct h as [l' [hl h]]. destruct (nth l' dofs false) eqn:el; [|destruct h].
    destruct h as [h|[]]. injection h as -> -> -> ->. apply in_seq in hi, hj, hk, hl. repeat split; auto; lia.
  - intros [hi [hj [hk [hl [ek el]]]]]. exists i. split; [apply in_seq; lia|].
    apply in_flat_map. exists j. split; [apply in_seq; lia|]. apply in_flat_map. exists k. split; [apply in_seq; lia|].
    rewrite ek. apply in_flat_map. exists l. split; [apply in_seq; lia|]. rewrite el. simpl. auto.
Qed.

Lemma div_mod_unique3 d i k i' k' : (k < d)%nat -> (k' < d)%nat -> (i * d + k = i' * d + k')%nat -> i = i' /\ k = k'.
Proof.
  intros h1 h2 h. assert (hi : i = i').
  { assert (e1 : ((i * d + k) / d = i)%nat) by (rewrite Nat.div_add_l, Nat.div_small by lia; lia).
    assert (e2 : ((i' * d + k') / d = i')%nat) by (rewrite Nat.div_add_l, Nat.div_small by lia; lia).
    congruence. }
  split; auto. subst. lia.
Qed.

Lemma reshape_spec (n_nodes : nat) (dofs : list bool) (aux : nat -> nat -> R) :
  let nd := length dofs in
  let m := reshape_aux_matrix n_nodes dofs aux in
  mr m = (n_nodes * nd)%nat /\ mc m = (n_nodes * nd)%nat /\
  (forall i j k l, (i < n_nodes)%nat -> (j < n_nodes)%nat -> (k < nd)%nat -> (l < nd)%nat ->
     me m (i * nd + k) (j * nd + l) =
     if (nth k dofs false && nth l dofs false)%bool
     then aux (i * count_true dofs + active_before dofs k)%nat (j * count_true dofs + active_before dofs l)%nat
     else 0%R).
Proof.
  intros nd m. split; [reflexivity|]. split; [reflexivity|]. intros i j k l hi hj hk hl.
  unfold m, reshape_aux_matrix. cbn [me]. fold nd.
  set (r := fun q : nat * nat * nat * nat => let '(i, j, k, l) := q in (i * nd + k)%nat).
  set (c := fun q : nat * nat * nat * nat => let '(i, j, k, l) := q in (j * nd + l)%nat).
  set (v := fun q : nat * nat * nat * nat => let '(i, j, k, l) := q in
     aux (i * count_true dofs + count_true (firstn k dofs))%nat (j * count_true dofs + count_true (firstn l dofs))%nat).
  assert (hext : forall qs m0, fold_left (fun m q => let '(i, j, k, l) := q in
                   mset m (i * nd + k) (j * nd + l)
                        (aux (i * count_true dofs + count_true (firstn k dofs))%nat (j * count_true dofs + count_true (firstn l dofs))%nat)) qs m0
         = fold_left (fun m q => mset m (r q) (c q) (v q)) qs m0).
  { induction qs as [|[[[i0 j0] k0] l0] qs IH]; intros m0; simpl; auto. }
  rewrite hext.
  destruct (nth k dofs false && nth l dofs false)%bool eqn:e.
  - apply andb_true_iff in e. destruct e as [e1 e2]. apply fold_mset_hit.
    + exists (i, j, k, l). split; [|split; reflexivity]. apply reshape_loop_In. auto 10.
    + intros [[[i0 j0] k0] l0] hq h1 h2. apply reshape_loop_In in hq. destruct hq as [_ [_ [q3 [q4 _]]]].
      unfold r, c in h1, h2. destruct (div_mod_unique3 nd i0 k0 i k q3 hk h1) as [-> ->].
      destruct (div_mod_unique3 nd j0 l0 j l q4 hl h2) as [-> ->]. reflexivity.
  - apply fold_mset_miss. intros [[[i0 j0] k0] l0] hq [h1 h2]. apply reshape_loop_In in hq.
    destruct hq as [_ [_ [q3 [q4 [q5 q6]]]]].
    unfold r, c in h1, h2. destruct (div_mod_unique3 nd i0 k0 i k q3 hk h1) as [-> ->].
    destruct (div_mod_unique3 nd j0 l0 j l q4 hl h2) as [-> ->]. rewrite q5, q6 in e. discriminate.
Qed.

Lemma index_split n nd a : (a < n * nd)%nat -> exists i k, (i < n)%nat /\ (k < nd)%nat /\ a = (i * nd + k)%nat.
Proof.
  intros h. assert (nd <> 0)%nat by (intros ->; lia). exists (a / nd)%nat, (a mod nd)%nat.
  split; [apply Nat.div_lt_upper_bound; lia|]. split; [apply Nat.mod_upper_bound; assumption|].
  rewrite Nat.mul_comm. apply Nat.div_mod. assumption.
Qed.

Lemma reshape_all_active (n_nodes : nat) (dofs : list bool) (aux : nat -> nat -> R) :
  forallb (fun b => b) dofs = true ->
  forall a b, (a < n_nodes * length dofs)%nat -> (b < n_nodes * length dofs)%nat ->
    me (reshape_aux_matrix n_nodes dofs aux) a b = aux a b.
Proof.
  intros hall a b ha hb. rewrite forallb_forall in hall.
  assert (hc : forall l, (forall x, In x l -> x = true) -> count_true l = length l).
  { induction l as [|x l IH]; intros hl; simpl; auto. rewrite (hl x) by (simpl; auto).
    rewrite IH; auto. intros; apply hl; simpl; auto. }
  destruct (index_split _ _ _ ha) as [i [k [hi [hk ->]]]]. destruct (index_split _ _ _ hb) as [j [l [hj [hl ->]]]].
  destruct (reshape_spec n_nodes dofs aux) as [_ [_ ->]]; auto.
  assert (hn : forall k, (k < length dofs)%nat -> nth k dofs false = true) by (intros; apply hall, nth_In; assumption).
  rewrite !hn by assumption. unfold active_before. cbn [andb].
  assert (hf : forall k, (k < length dofs)%nat -> count_true (firstn k dofs) = k).
  { intros k0 hk0. rewrite hc, firstn_length, Nat.min_l; [reflexivity|lia|].
    intros x hx. apply hall. rewrite <- (firstn_skipn k0 dofs). apply in_app_iff. left. exact hx. }
  rewrite !hf, (hc dofs) by assumption. reflexivity.
Qed.

Lemma reshape_symmetric (n_nodes : nat) (dofs : list bool) (aux : nat -> nat -> R) :
  msym (n_nodes * count_true dofs) aux ->
  msym (n_nodes * length dofs) (me (reshape_aux_matrix n_nodes dofs aux)).
Proof.
  intros hs a b ha hb.
  destruct (index_split _ _ _ ha) as [i [k [hi [hk ->]]]]. destruct (index_split _ _ _ hb) as [j [l [hj [hl ->]]]].
  destruct (reshape_spec n_nodes dofs aux) as [_ [_ h]]. rewrite !h by auto. rewrite (andb_comm (nth l dofs false)).
  destruct (nth k dofs false && nth l dofs false)%bool eqn:e; auto. apply andb_true_iff in e. destruct e as [e1 e2].
  assert (hb2 : forall k, (k < length dofs)%nat -> nth k dofs false = true -> (active_before dofs k < count_true dofs)%nat).
  { clear. unfold active_before. induction dofs as [|b d IH]; intros k hk hn; simpl in *; [lia|].
    destruct k as [|k]; simpl in *; [subst; lia|]. assert (hk2 : (k < length d)%nat) by lia. pose proof (IH k hk2 hn). lia. }
  pose proof (hb2 k hk e1). pose proof (hb2 l hl e2).
  assert (hlt : forall i c n b : nat, (i < n)%nat -> (b < c)%nat -> (i * c + b < n * c)%nat) by (intros; nia).
  apply hs; apply hlt; assumption.
Qed.

(** ** assembly (C12) *)

Local Open Scope R_scope.

Lemma nsum_flat_map {A B} (g : B -> R) (f : A -> list B) l :
  nsum (map g (flat_map f l)) = nsum (map (fun a => nsum (map g (f a))) l).
Proof.
  induction l as [|a l IH]; simpl; auto. rewrite map_app, nsum_app, IH. reflexivity.
Qed.

Lemma nsum_map_ext {A} (f g : A -> R) l : (forall a, In a l -> f a = g a) -> nsum (map f l) = nsum (map g l).
Proof. intros h. f_equal. apply map_ext_in. assumption. Qed.

Lemma coo_entry_app (a b : list (nat * nat * R)) i j : coo_entry (a ++ b) i j = coo_entry a i j + coo_entry b i j.
Proof. unfold coo_entry. rewrite map_app. apply nsum_app. Qed.

Definition hit (i j : nat) (e : nat * nat * R) : R :=
  let '(r, c, v) := e in if (Nat.eqb r i && Nat.eqb c j)%bool then v else 0.

Lemma hit_zero_or i j (b : bool) (r c : nat) (v : R) :
  (b = true <-> v = 0) -> nsum (map (hit i j) (if b then [] else [(r, c, v)])) = hit i j (r, c, v).
Proof.
  intros h. destruct b; simpl; rnum.
  - rewrite (proj1 h eq_refl). destruct (_ && _)%bool; reflexivity.
  - lra.
Qed.

Lemma neqb_0 (v : R) : neqb v 0 = true <-> v = 0.
Proof. destruct (neqbP v 0); split; auto; congruence. Qed.

Lemma coo_entry_to_coo (m : mat R) i j :
  (i < mr m)%nat -> (j < mc m)%nat -> coo_entry (to_coo m) i j = me m i j.
Proof.
  intros hi hj. change (coo_entry (to_coo m) i j) with (nsum (map (hit i j) (to_coo m))).
  unfold to_coo. rewrite nsum_flat_map, nsum_map_seq.
  rewrite (sumn_single _ i); [|assumption|].
  - rewrite nsum_flat_map, nsum_map_seq. rewrite (sumn_single _ j); [|assumption|].
    + rewrite hit_zero_or by apply neqb_0. simpl. rewrite !Nat.eqb_refl. reflexivity.
    + intros q _ hq. rewrite hit_zero_or by apply neqb_0. simpl.
      destruct (Nat.eqb_spec q j); [contradiction|]. rewrite andb_false_r. reflexivity.
  - intros p _ hp. rewrite nsum_flat_map, nsum_map_seq. apply sumn_0. intros q _.
    rewrite hit_zero_or by apply neqb_0. simpl. destruct (Nat.eqb_spec p i); [contradiction|]. reflexivity.
Qed.

Lemma coo_entry_local dofs (a : nat -> nat -> R) i j : coo_entry (local_coo dofs a) i j = local_entry dofs a i j.
Proof.
  change (coo_entry (local_coo dofs a) i j) with (nsum (map (hit i j) (local_coo dofs a))).
  unfold local_coo, local_entry. rewrite nsum_flat_map, nsum_map_seq. apply sumn_ext. intros p _.
  rewrite nsum_flat_map, nsum_map_seq. apply sumn_ext. intros q _. rewrite hit_zero_or by apply neqb_0. reflexivity.
Qed.

Lemma coo_entry_flat (cs : list (list nat * (nat -> nat -> R))) i j :
  coo_entry (flat_map (fun c => local_coo (fst c) (snd c)) cs) i j
  = nsum (map (fun c => local_entry (fst c) (snd c) i j) cs).
Proof.
  induction cs as [|c cs IH]; simpl; auto. rewrite coo_entry_app, coo_entry_local, IH. reflexivity.
Qed.

Lemma assembly_spec (g : mat R) (contribs : list (list nat * (nat -> nat -> R))) :
  (forall c k, In c contribs -> In k (fst c) -> (k < mr g)%nat /\ (k < mc g)%nat) ->
  exists g', add_to_global g contribs = Ok g' /\ mr g' = mr g /\ mc g' = mc g /\
    forall i j, (i < mr g)%nat -> (j < mc g)%nat ->
      me g' i j = me g i j + nsum (map (fun c => local_entry (fst c) (snd c) i j) contribs).
Proof.
  intros h. unfold add_to_global.
  assert (hok : forallb (fun e : nat * nat * R => let '(r, c, _) := e in (Nat.ltb r (mr g) && Nat.ltb c (mc g))%bool)
            (to_coo g ++ flat_map (fun c => local_coo (fst c) (snd c)) contribs) = true).
  { apply forallb_forall. intros [[r c] v] he. apply andb_true_iff. rewrite !Nat.ltb_lt.
    apply in_app_iff in he. destruct he as [he|he].
    - unfold to_coo in he. apply in_flat_map in he. destruct he as [i [hi he]].
      apply in_flat_map in he. destruct he as [j [hj he]]. apply in_seq in hi, hj.
      destruct (neqb _ _); [destruct he|]. destruct he as [he|[]]. injection he as <- <- _. lia.
    - apply in_flat_map in he. destruct he as [x [hx he]]. unfold local_coo in he.
      apply in_flat_map in he. destruct he as [i [hi he]]. apply in_flat_map in he. destruct he as [j [hj he]].
      apply in_seq in hi, hj. destruct (neqb _ _); [destruct he|]. destruct he as [he|[]]. injection he as <- <- _.
      split; [apply (h x)|apply (h x)]; auto; apply nth_In; lia. }
  rewrite hok. eexists. split; [reflexivity|]. split; [reflexivity|]. split; [reflexivity|].
  intros i j hi hj. cbn [me]. rewrite coo_entry_app, coo_entry_to_coo, coo_entry_flat by assumption. reflexivity.
Qed.

Lemma nsum_perm (a b : list R) : Permutation a b -> nsum a = nsum b.
Proof. induction 1; simpl; rnum; lra. Qed.

Lemma assembly_order (g : mat R) (c1 c2 : list (list nat * (nat -> nat -> R))) g1 g2 :
  Permutation c1 c2 ->
  (forall c k, In c c1 -> In k (fst c) -> (k < mr g)%nat /\ (k < mc g)%nat) ->
  add_to_global g c1 = Ok g1 -> add_to_global g c2 = Ok g2 ->
  forall i j, (i < mr g)%nat -> (j < mc g)%nat -> me g1 i j = me g2 i j.
Proof.
  intros hp h h1 h2 i j hi hj.
  destruct (assembly_spec g c1 h) as [x1 [e1 [_ [_ s1]]]].
  assert (h' : forall c k, In c c2 -> In k (fst c) -> (k < mr g)%nat /\ (k < mc g)%nat).
  { intros c k hc. apply h. eapply Permutation_in; [apply Permutation_sym; eassumption|assumption]. }
  destruct (assembly_spec g c2 h') as [x2 [e2 [_ [_ s2]]]].
  assert (x1 = g1) by congruence. assert (x2 = g2) by congruence. subst.
  rewrite s1, s2 by assumption. f_equal. apply nsum_perm. apply Permutation_map. assumption.
Qed.

Lemma local_entry_sym dofs a i j : msym (length dofs) a -> local_entry dofs a i j = local_entry dofs a j i.
Proof.
  intros hs. unfold local_entry. rewrite sumn_swap. apply sumn_ext. intros p hp. apply sumn_ext. intros q hq.
  rewrite andb_comm. rewrite (hs p q) by assumption. reflexivity.
Qed.

Lemma assembly_sym (g : mat R) contribs g' :
  mr g = mc g ->
  (forall c k, In c contribs -> In k (fst c) -> (k < mr g)%nat) ->
  add_to_global g contribs = Ok g' ->
  msym (mr g) (me g) -> (forall c, In c contribs -> msym (length (fst c)) (snd c)) ->
  msym (mr g) (me g').
Proof.
  intros hsq h h1 hg hc i j hi hj.
  destruct (assembly_spec g contribs) as [x1 [e1 [_ [_ s1]]]].
  { intros c k a b. rewrite <- hsq. split; eapply h; eauto. }
  assert (x1 = g') by congruence. subst.
  rewrite !s1 by congruence. rewrite (hg i j) by assumption. f_equal.
  apply nsum_map_ext. intros c hin. apply local_entry_sym. apply hc. assumption.
Qed.

(** superposition of quadratic forms *)

Lemma sumn_pick n (f : nat -> R) k : (k < n)%nat -> sumn n (fun i => if Nat.eqb k i then f i else 0) = f k.
Proof.
  intros h. rewrite (sumn_single _ k); [rewrite Nat.eqb_refl; reflexivity|assumption|].
  intros i _ hi. destruct (Nat.eqb_spec k i); congruence.
Qed.

Lemma sumn_scal_r n c (f : nat -> R) : sumn n (fun i => f i * c) = sumn n f * c.
Proof. rewrite Rmult_comm, <- sumn_scal. apply sumn_ext. intros. ring. Qed.

Lemma quad_local n dofs a x :
  (forall k, In k dofs -> (k < n)%nat) ->
  quad n (local_entry dofs a) x = quad (length dofs) a (fun p => x (nth p dofs 0%nat)).
Proof.
  intros h. unfold quad, local_entry.
  transitivity (sumn n (fun i => sumn n (fun j => sumn (length dofs) (fun p => sumn (length dofs) (fun q =>
    if Nat.eqb (nth p dofs 0%nat) i then (if Nat.eqb (nth q dofs 0%nat) j then x i * a p q * x j else 0) else 0))))).
  { apply sumn_ext; intros i _. apply sumn_ext; intros j _.
    rewrite <- sumn_scal, <- sumn_scal_r. apply sumn_ext; intros p _.
    rewrite <- sumn_scal, <- sumn_scal_r. apply sumn_ext; intros q _.
    destruct (Nat.eqb (nth p dofs 0%nat) i), (Nat.eqb (nth q dofs 0%nat) j); simpl; ring. }
  transitivity (sumn (length dofs) (fun p => sumn (length dofs) (fun q => sumn n (fun i => sumn n (fun j =>
    if Nat.eqb (nth p dofs 0%nat) i then (if Nat.eqb (nth q dofs 0%nat) j then x i * a p q * x j else 0) else 0))))).
  { transitivity (sumn n (fun i => sumn (length dofs) (fun p => sumn n (fun j => sumn (length dofs) (fun q =>
      if Nat.eqb (nth p dofs 0%nat) i then (if Nat.eqb (nth q dofs 0%nat) j then x i * a p q * x j else 0) else 0))))).
    { apply sumn_ext; intros i _. apply sumn_swap. }
    rewrite sumn_swap. apply sumn_ext; intros p _.
    transitivity (sumn n (fun i => sumn (length dofs) (fun q => sumn n (fun j =>
      if Nat.eqb (nth p dofs 0%nat) i then (if Nat.eqb (nth q dofs 0%nat) j then x i * a p q * x j else 0) else 0)))).
    { apply sumn_ext; intros i _. apply sumn_swap. }
    apply sumn_swap. }
  apply sumn_ext; intros p hp. apply sumn_ext; intros q hq.
  rewrite (sumn_ext n _ (fun i => if Nat.eqb (nth p dofs 0%nat) i then x i * a p q * x (nth q dofs 0%nat) else 0)).
  - apply (sumn_pick n (fun i => x i * a p q * x (nth q dofs 0%nat))). apply h, nth_In. assumption.
  - intros i _. destruct (Nat.eqb (nth p dofs 0%nat) i).
    + apply (sumn_pick n (fun j => x i * a p q * x j)). apply h, nth_In. assumption.
    + apply sumn_0. reflexivity.
Qed.

Lemma quad_ext n a b x : (forall i j, (i < n)%nat -> (j < n)%nat -> a i j = b i j) -> quad n a x = quad n b x.
Proof. intros h. unfold quad. apply sumn_ext; intros. apply sumn_ext; intros. rewrite h; auto. Qed.

Lemma quad_add n a b x : quad n (fun i j => a i j + b i j) x = quad n a x + quad n b x.
Proof.
  unfold quad. rewrite <- sumn_add. apply sumn_ext; intros i _. rewrite <- sumn_add. apply sumn_ext; intros j _. ring.
Qed.

Lemma quad_scal n c a x : quad n (fun i j => c * a i j) x = c * quad n a x.
Proof.
  unfold quad. rewrite <- sumn_scal. apply sumn_ext; intros i _. rewrite <- sumn_scal. apply sumn_ext; intros j _. ring.
Qed.

Lemma quad_zero n x : quad n (fun _ _ => 0) x = 0.
Proof. unfold quad. apply sumn_0; intros. apply sumn_0; intros. ring. Qed.

Lemma quad_nsum n (cs : list (list nat * (nat -> nat -> R))) x :
  (forall c k, In c cs -> In k (fst c) -> (k < n)%nat) ->
  quad n (fun i j => nsum (map (fun c => local_entry (fst c) (snd c) i j) cs)) x
  = nsum (map (fun c => quad (length (fst c)) (snd c) (fun p => x (nth p (fst c) 0%nat))) cs).
Proof.
  induction cs as [|c cs IH]; intros h; simpl; rnum; [apply quad_zero|].
  rewrite quad_add, IH by (intros; eapply h; simpl; eauto). f_equal.
  apply quad_local. intros k hk. apply (h c); simpl; auto.
Qed.

Lemma assembly_energy (g : mat R) contribs g' x :
  mr g = mc g ->
  (forall c k, In c contribs -> In k (fst c) -> (k < mr g)%nat) ->
  add_to_global g contribs = Ok g' ->
  quad (mr g) (me g') x = quad (mr g) (me g) x
    + nsum (map (fun c => quad (length (fst c)) (snd c) (fun p => x (nth p (fst c) 0%nat))) contribs).
Proof.
  intros hsq h h1. destruct (assembly_spec g contribs) as [x1 [e1 [_ [_ s1]]]].
  { intros c k a b. rewrite <- hsq. split; eapply h; eauto. }
  assert (x1 = g') by congruence. subst.
  rewrite <- (quad_nsum (mr g)) by assumption. rewrite <- quad_add. apply quad_ext. intros i j hi hj. apply s1; congruence.
Qed.

Lemma assembly_psd (g : mat R) contribs g' :
  mr g = mc g ->
  (forall c k, In c contribs -> In k (fst c) -> (k < mr g)%nat) ->
  add_to_global g contribs = Ok g' ->
  psd (mr g) (me g) -> (forall c, In c contribs -> psd (length (fst c)) (snd c)) -> psd (mr g) (me g').
Proof.
  intros hsq h h1 hg hc x. rewrite (assembly_energy g contribs g' x hsq h h1). specialize (hg x).
  assert (0 <= nsum (map (fun c => quad (length (fst c)) (snd c) (fun p => x (nth p (fst c) 0%nat))) contribs)).
  { apply nsum_nonneg. apply Forall_forall. intros y hy. apply in_map_iff in hy. destruct hy as [c [<- hin]].
    apply hc. assumption. }
  lra.
Qed.

(** ** forces (C33) *)

Lemma nth_lset (f : list R) i k v : (i < length f)%nat -> nth k (lset f i v) 0 = if Nat.eqb i k then v else nth k f 0.
Proof.
  revert i k. induction f as [|x f IH]; intros i k hi; simpl in hi; [lia|].
  destruct i as [|i], k as [|k]; simpl; auto. apply IH. lia.
Qed.

Lemma write_all_length (idx : list nat) (f vals : list R) : length (write_all f idx vals) = length f.
Proof.
  revert f vals. induction idx as [|i idx IH]; intros f [|v vals]; simpl; auto. rewrite IH. apply lset_length.
Qed.

Definition at_index (k : nat) (p : nat * R) : R := if Nat.eqb (fst p) k then snd p else 0.

Lemma write_all_nth (idx : list nat) (f vals : list R) k :
  NoDup idx -> length vals = length idx -> (forall i, In i idx -> (i < length f)%nat) ->
  nth k (write_all f idx vals) 0 = nsum (map (at_index k) (combine idx vals)) + (if memb k idx then 0 else nth k f 0).
Proof.
  revert f vals. induction idx as [|i idx IH]; intros f vals hd hl hi.
  - destruct vals; [|discriminate]. simpl. rnum. lra.
  - destruct vals as [|v vals]; [discriminate|]. inversion hd; subst. simpl in hl. cbn [write_all combine map nsum].
    rewrite IH; auto; [|rewrite lset_length; intros; apply hi; simpl; auto].
    rewrite nth_lset by (apply hi; simpl; auto).
    change (memb k (i :: idx)) with (Nat.eqb k i || memb k idx)%bool. unfold at_index at 2. cbn [fst snd]. rnum.
    rewrite (Nat.eqb_sym k i). destruct (Nat.eqb_spec i k) as [->|ne]; simpl.
    + apply memb_false in H1. rewrite H1. lra.
    + destruct (memb k idx); lra.
Qed.

Lemma fancy_iadd_nth (f : list R) (idx : list nat) (vals : list R) k :
  NoDup idx -> length vals = length idx -> (forall i, In i idx -> (i < length f)%nat) ->
  nth k (fancy_iadd f idx vals) 0 = nth k f 0 + nsum (map (at_index k) (combine idx vals)).
Proof.
  intros hd hl hi. unfold fancy_iadd. rewrite write_all_nth; auto; [|rewrite map_length, combine_length; lia].
  assert (g : forall idx vals, length vals = length idx -> NoDup idx ->
    nsum (map (at_index k) (combine idx (map (fun p => nth (fst p) f (lit 0) + snd p) (combine idx vals))))
    = nsum (map (at_index k) (combine idx vals)) + (if memb k idx then nth k f 0 else 0)).
  { clear. induction idx as [|i idx IH]; intros vals hl hd; destruct vals as [|v vals]; try discriminate; simpl; rnum; [lra|].
    simpl in hl. inversion hd; subst. change (memb k (i :: idx)) with (Nat.eqb k i || memb k idx)%bool.
    rewrite IH by (auto; lia). rewrite (Nat.eqb_sym k i). unfold at_index at 1 3. simpl.
    destruct (Nat.eqb_spec i k) as [->|ne]; simpl; [|lra].
    apply memb_false in H1. rewrite H1. lra. }
  change (@nadd R RNum) with Rplus in *. rewrite g by auto. destruct (memb k idx); lra.
Qed.

Lemma select_app {A} (m1 m2 : list bool) (l1 l2 : list A) :
  length m1 = length l1 -> select (m1 ++ m2) (l1 ++ l2) = select m1 l1 ++ select m2 l2.
Proof.
  revert l1. induction m1 as [|b m1 IH]; intros [|x l1] h; simpl in *; try discriminate; auto.
  rewrite IH by lia. destruct b; reflexivity.
Qed.

Lemma combine_app {A B} (a1 a2 : list A) (b1 b2 : list B) :
  length a1 = length b1 -> combine (a1 ++ a2) (b1 ++ b2) = combine a1 b1 ++ combine a2 b2.
Proof.
  revert b1. induction a1 as [|x a1 IH]; intros [|y b1] h; simpl in *; try discriminate; auto. rewrite IH by lia. reflexivity.
Qed.

Lemma select_node_length (flag : tri bool) (n : node R) (v : tri R) :
  length (flat_map (fun d => if tget flag d then match tget (n_dof n) d with Some k => [k] | None => [] end else []) all_dirs)
  = length (select (map (fun d => tget flag d && match tget (n_dof n) d with Some _ => true | None => false end)%bool all_dirs) (tlist v)).
Proof.
  destruct flag as [fx fy fr]. destruct n as [i1 i2 [dx dy dr] i4 i5 i6]. simpl.
  destruct fx, fy, fr, dx, dy, dr; reflexivity.
Qed.

Lemma cond_pairs (flag : tri bool) (nodes : list (node R)) (vals : list (tri R)) k :
  length vals = length nodes ->
  length (select (part_mask flag nodes) (flat_map (fun v => tlist v) vals)) = length (part_dof_indices flag nodes) /\
  nsum (map (at_index k) (combine (part_dof_indices flag nodes) (select (part_mask flag nodes) (flat_map (fun v => tlist v) vals))))
  = cond_force (mkCond flag nodes vals) k.
Proof.
  revert vals. induction nodes as [|n nodes IH]; intros [|v vals] hl; try discriminate.
  - split; reflexivity.
  - simpl in hl. destruct (IH vals) as [h1 h2]; [lia|].
    unfold part_mask, part_dof_indices in *. cbn [flat_map].
    rewrite !select_app by reflexivity. rewrite combine_app by apply select_node_length.
    split; [rewrite !app_length, h1, <- select_node_length; reflexivity|].
    rewrite map_app, nsum_app, h2. unfold cond_force. cbn [c_flag c_nodes c_vals combine map nsum]. rnum. f_equal.
    destruct flag as [fx fy fr]. destruct n as [i1 i2 [dx dy dr] i4 i5 i6]. destruct v. simpl; rnum.
    destruct fx, fy, fr, dx, dy, dr; simpl; unfold at_index; simpl; rnum;
      repeat match goal with |- context [Nat.eqb ?a ?b] => destruct (Nat.eqb a b) end; lra.
Qed.

Lemma rhs_spec (n : nat) (conds : list (cond R)) :
  (forall c, In c conds -> length (c_vals c) = length (c_nodes c) /\ NoDup (part_dof_indices (c_flag c) (c_nodes c)) /\
     forall i, In i (part_dof_indices (c_flag c) (c_nodes c)) -> (i < n)%nat) ->
  length (rhs n conds) = n /\
  forall k, nth k (rhs n conds) 0 = nsum (map (fun c => cond_force c k) conds).
Proof.
  unfold rhs. intros h.
  assert (g : forall cs f, (forall c, In c cs -> length (c_vals c) = length (c_nodes c) /\ NoDup (part_dof_indices (c_flag c) (c_nodes c)) /\
     forall i, In i (part_dof_indices (c_flag c) (c_nodes c)) -> (i < length f)%nat) ->
     length (fold_left add_condition cs f) = length f /\
     forall k, nth k (fold_left add_condition cs f) 0 = nth k f 0 + nsum (map (fun c => cond_force c k) cs)).
  { induction cs as [|c cs IH]; intros f hc; cbn [fold_left map nsum]; rnum.
    - split; auto. intros; lra.
    - destruct (hc c) as [h1 [h2 h3]]; [simpl; auto|].
      assert (hlen : length (add_condition f c) = length f) by (unfold add_condition, fancy_iadd; apply write_all_length).
      destruct (IH (add_condition f c)) as [g1 g2].
      { intros c' hin. rewrite hlen. apply hc. simpl; auto. }
      split; [congruence|]. intros k. rewrite g2. unfold add_condition.
      destruct (cond_pairs (c_flag c) (c_nodes c) (c_vals c) k h1) as [p1 p2].
      rewrite fancy_iadd_nth by assumption. rewrite p2. destruct c; simpl. lra. }
  destruct (g conds (repeat (lit 0) n)) as [g1 g2].
  { intros c hc. rewrite repeat_length. apply h. assumption. }
  rewrite repeat_length in g1. split; auto. intros k. rewrite g2.
  assert (nth k (repeat (@lit R _ 0) n) 0 = 0).
  { clear. revert k. induction n; destruct k; simpl; auto. }
  rewrite H. lra.
Qed.

(** ** Rayleigh damping (C50) *)

Lemma rayleigh_ratio (xi w1 w2 : R) :
  0 <= xi -> 0 < w1 -> 0 < w2 ->
  let a0 := fst (rayleigh_factors xi w1 w2) in
  let a1 := snd (rayleigh_factors xi w1 w2) in
  0 <= a0 /\ 0 <= a1 /\
  (a0 + a1 * (w1 * w1)) / (2 * w1) = xi /\ (a0 + a1 * (w2 * w2)) / (2 * w2) = xi /\
  (forall w, 0 < w -> (a0 + a1 * (w * w)) / (2 * w) - xi = xi * ((w - w1) * (w - w2)) / (w * (w1 + w2))).
Proof.
  intros hx h1 h2. simpl. rnum.
  assert (hs : 0 < w1 + w2) by lra.
  assert (hc : 0 <= 2 * xi / (w1 + w2)) by (apply Rmult_le_pos; [lra|]; left; apply Rinv_0_lt_compat; assumption).
  split; [apply Rmult_le_pos; [nra|assumption]|]. split; [assumption|].
  split; [field; lra|]. split; [field; lra|]. intros w hw. field. lra.
Qed.

Lemma rayleigh_between (xi w1 w2 w : R) :
  0 <= xi -> 0 < w1 -> w1 <= w2 ->
  let a0 := fst (rayleigh_factors xi w1 w2) in
  let a1 := snd (rayleigh_factors xi w1 w2) in
  (w1 <= w <= w2 -> (a0 + a1 * (w * w)) / (2 * w) <= xi) /\
  (0 < w <= w1 \/ w2 <= w -> xi <= (a0 + a1 * (w * w)) / (2 * w)).
Proof.
  intros hx h1 h2 a0 a1. assert (hw2 : 0 < w2) by lra.
  destruct (rayleigh_ratio xi w1 w2 hx h1 hw2) as [_ [_ [_ [_ h]]]]. fold a0 a1 in h. split.
  - intros [g1 g2]. assert (hw : 0 < w) by lra. specialize (h w hw).
    assert (hd : 0 < w * (w1 + w2)) by nra.
    assert (xi * ((w - w1) * (w - w2)) / (w * (w1 + w2)) <= 0).
    { apply Rmult_le_reg_r with (w * (w1 + w2)); auto. unfold Rdiv. rewrite Rmult_assoc, Rinv_l by lra.
      assert ((w - w1) * (w - w2) <= 0) by nra. nra. }
    lra.
  - intros hw'. assert (hw : 0 < w) by lra. specialize (h w hw).
    assert (hd : 0 < w * (w1 + w2)) by nra.
    assert (0 <= xi * ((w - w1) * (w - w2)) / (w * (w1 + w2))).
    { apply Rmult_le_pos; [|left; apply Rinv_0_lt_compat; assumption].
      assert (0 <= (w - w1) * (w - w2)) by (destruct hw'; nra). nra. }
    lra.
Qed.

Lemma rayleigh_matrix (xi w1 w2 : R) (s : gsys R) :
  gK (rayleigh_damping true xi w1 w2 s) = gK s /\ gM (rayleigh_damping true xi w1 w2 s) = gM s /\
  gF (rayleigh_damping true xi w1 w2 s) = gF s /\
  mr (gC (rayleigh_damping true xi w1 w2 s)) = mr (gC s) /\ mc (gC (rayleigh_damping true xi w1 w2 s)) = mc (gC s) /\
  (forall i j, me (gC (rayleigh_damping true xi w1 w2 s)) i j =
     me (gC s) i j + (fst (rayleigh_factors xi w1 w2) * me (gM s) i j + snd (rayleigh_factors xi w1 w2) * me (gK s) i j)).
Proof. repeat split. intros i j. simpl. rnum. ring. Qed.

(** ** stages (C49) *)

Lemma first_idx_In (l : list Z) s seen k :
  In k (first_idx_from s seen l) <->
  (s <= k)%nat /\ exists z, nth_error l (k - s) = Some z /\ ~ In z seen /\ forall q, (q < k - s)%nat -> nth_error l q <> Some z.
Proof.
  revert s seen. induction l as [|z l IH]; intros s seen.
  - simpl. split; [tauto|]. intros [_ [z [h _]]]. destruct (k - s)%nat; discriminate.
  - cbn [first_idx_from].
    assert (hmem : existsb (Z.eqb z) seen = true <-> In z seen).
    { rewrite existsb_exists. split; [intros [y [h1 h2]]; apply Z.eqb_eq in h2; subst; auto|].
      intros h; exists z; split; auto. apply Z.eqb_refl. }
    destruct (existsb (Z.eqb z) seen) eqn:e.
    + assert (hz : In z seen) by (apply hmem; reflexivity). rewrite IH. split.
      * intros [h1 [y [h2 [h3 h4]]]]. split; [lia|]. exists y. replace (k - s)%nat with (S (k - S s)) by lia.
        split; auto. split; auto. intros [|q] hq; simpl; [congruence|]. apply h4. lia.
      * intros [h1 [y [h2 [h3 h4]]]]. destruct (Nat.eq_dec k s) as [->|ne].
        { rewrite Nat.sub_diag in h2. simpl in h2. congruence. }
        split; [lia|]. exists y. replace (k - s)%nat with (S (k - S s)) in h2, h4 by lia. split; auto. split; auto.
        intros q hq. apply (h4 (S q)). lia.
    + assert (hz : ~ In z seen) by (intros hc; apply hmem in hc; congruence). cbn [In]. rewrite IH. split.
      * intros [<-|[h1 [y [h2 [h3 h4]]]]].
        { split; auto. exists z. rewrite Nat.sub_diag. split; auto. split; auto. intros q hq; lia. }
        split; [lia|]. exists y. replace (k - s)%nat with (S (k - S s)) by lia. split; auto.
        split; [intros hc; apply h3; simpl; auto|]. intros [|q] hq; simpl.
        { intros hc. injection hc as ->. apply h3. simpl; auto. }
        apply h4. lia.
      * intros [h1 [y [h2 [h3 h4]]]]. destruct (Nat.eq_dec s k) as [->|ne]; auto. right. split; [lia|]. exists y.
        replace (k - s)%nat with (S (k - S s)) in h2, h4 by lia. split; auto.
        split; [|intros q hq; apply (h4 (S q)); lia].
        intros [->|hc]; auto. apply (h4 0%nat); [lia|reflexivity].
Qed.

Lemma first_idx_sorted (l : list Z) s seen : Sorted.StronglySorted lt (first_idx_from s seen l).
Proof.
  revert s seen. induction l as [|z l IH]; intros s seen; simpl; [constructor|].
  destruct (existsb (Z.eqb z) seen); auto. constructor; auto. apply Forall_forall. intros x hx.
  apply first_idx_In in hx. lia.
Qed.

Lemma np_diff_length (l : list R) : length (np_diff l) = (length l - 1)%nat.
Proof. induction l as [|a [|b l] IH]; auto. cbn [np_diff length] in *. rewrite IH. lia. Qed.

Lemma np_diff_nth (l : list R) i : (S i < length l)%nat -> nth_error (np_diff l) i = Some (nth (S i) l 0 - nth i l 0).
Proof.
  revert i. induction l as [|a [|b l] IH]; intros i h; try (simpl in h; lia).
  destruct i as [|i]; [reflexivity|]. cbn [np_diff nth_error]. rewrite IH by (simpl in *; lia). reflexivity.
Qed.

Lemma round15_close (x y : R) : round15 x = round15 y -> Rabs (x - y) <= 1 / 1000000000000000.
Proof.
  unfold round15. intros h. pose proof (nround_near (x * 1000000000000000)) as h1. pose proof (nround_near (y * 1000000000000000)) as h2.
  change (nmul x (lit (10 ^ 15))) with (x * 1000000000000000) in h. change (nmul y (lit (10 ^ 15))) with (y * 1000000000000000) in h.
  rewrite h in h1. revert h1 h2. generalize (nround (y * 1000000000000000)). intros z h1 h2.
  apply Rabs_le. unfold Rabs in h1, h2. destruct (Rcase_abs _) in h1; destruct (Rcase_abs _) in h2; lra.
Qed.

(** the step sizes (rounded to 1e-15) of the time array *)
Definition steps15 (time : list R) : list Z := map round15 (np_diff time).

Lemma stage_ids_spec (time : list R) :
  (2 <= length time)%nat ->
  let ids := stage_time_ids time in
  Sorted.StronglySorted lt ids /\ hd_error ids = Some 0%nat /\ last ids 0%nat = (length time - 1)%nat /\
  (forall k, In k ids <-> k = (length time - 1)%nat \/ ((k < length time - 1)%nat /\
      forall q, (q < k)%nat -> nth_error (steps15 time) q <> nth_error (steps15 time) k)).
Proof.
  intros h ids. unfold ids, stage_time_ids. fold (steps15 time).
  assert (hl : length (steps15 time) = (length time - 1)%nat) by (unfold steps15; rewrite map_length; apply np_diff_length).
  assert (hin : forall k, In k (first_idx_from 0 [] (steps15 time)) <-> (k < length time - 1)%nat /\
      forall q, (q < k)%nat -> nth_error (steps15 time) q <> nth_error (steps15 time) k).
  { intros k. rewrite first_idx_In, Nat.sub_0_r. split.
    - intros [_ [z [h1 [_ h2]]]]. split; [rewrite <- hl; apply nth_error_Some; congruence|]. rewrite h1. assumption.
    - intros [h1 h2]. split; [lia|]. destruct (nth_error (steps15 time) k) as [z|] eqn:e.
      + exists z. split; [reflexivity|]. split; auto.
      + apply nth_error_None in e. lia. }
  split; [|split; [|split]].
  - assert (g : forall l m, Sorted.StronglySorted lt l -> (forall x, In x l -> (x < m)%nat) -> Sorted.StronglySorted lt (l ++ [m])).
    { clear. induction l as [|x l IH]; intros m hs hm; simpl; [constructor; constructor|].
      inversion hs; subst. constructor; [apply IH; auto; intros; apply hm; simpl; auto|].
      apply Forall_forall. intros y hy. apply in_app_iff in hy. destruct hy as [hy|[<-|[]]].
      - rewrite Forall_forall in H2. auto.
      - apply hm. simpl; auto. }
    apply g; [apply first_idx_sorted|]. intros x hx. apply hin in hx. lia.
  - destruct (steps15 time) as [|z r]; [simpl in hl; lia|]. reflexivity.
  - apply last_last.
  - intros k. rewrite in_app_iff, hin. simpl. intuition.
Qed.

Lemma stage_constant (time : list R) :
  (2 <= length time)%nat ->
  (forall i j k, (i <= j <= k)%nat -> (k < length time - 1)%nat ->
     nth_error (steps15 time) i = nth_error (steps15 time) k -> nth_error (steps15 time) j = nth_error (steps15 time) i) ->
  forall a b i j, (forall k, In k (stage_time_ids time) -> (k <= a)%nat \/ (b <= k)%nat) ->
    (a <= i < b)%nat -> (a <= j < b)%nat -> (b <= length time - 1)%nat ->
    Rabs ((nth (S i) time 0 - nth i time 0) - (nth (S j) time 0 - nth j time 0)) <= 1 / 1000000000000000.
Proof.
  intros h hc a b i j hab hi hj hb.
  destruct (stage_ids_spec time h) as [_ [_ [_ hin]]].
  assert (hl : length (steps15 time) = (length time - 1)%nat) by (unfold steps15; rewrite map_length; apply np_diff_length).
  assert (g : forall m, (a + m < b)%nat -> nth_error (steps15 time) (a + m) = nth_error (steps15 time) a).
  { induction m as [|m IH]; intros hm; [rewrite Nat.add_0_r; reflexivity|].
    assert (IHm : nth_error (steps15 time) (a + m) = nth_error (steps15 time) a) by (apply IH; lia).
    assert (hd : forall n z, (exists q, (q < n)%nat /\ nth_error (steps15 time) q = Some z) \/ forall q, (q < n)%nat -> nth_error (steps15 time) q <> Some z).
    { clear. induction n as [|n IHn]; intros z; [right; intros; lia|].
      destruct (IHn z) as [[q [h1 h2]]|hn]; [left; exists q; split; auto|].
      destruct (nth_error (steps15 time) n) as [y|] eqn:e; [destruct (Z.eq_dec y z) as [->|ne]|].
      - left. exists n. auto.
      - right. intros q hq. destruct (Nat.eq_dec q n) as [->|]; [congruence|apply hn; lia].
      - right. intros q hq. destruct (Nat.eq_dec q n) as [->|]; [congruence|apply hn; lia]. }
    destruct (nth_error (steps15 time) (a + S m)) as [z|] eqn:ez; [|apply nth_error_None in ez; lia].
    destruct (hd (a + S m)%nat z) as [[q [hq1 hq2]]|hno].
    - rewrite <- IHm, <- ez. destruct (le_lt_dec q (a + m)) as [hle|]; [|lia].
      assert (e1 : nth_error (steps15 time) (a + m) = nth_error (steps15 time) q).
      { apply (hc q (a + m)%nat (a + S m)%nat); [lia|lia|congruence]. }
      congruence.
    - exfalso. assert (hk : In (a + S m)%nat (stage_time_ids time)).
      { apply hin. right. split; [lia|]. intros q hq. rewrite ez. apply hno. assumption. }
      apply hab in hk. lia. }
  assert (e : nth_error (steps15 time) i = nth_error (steps15 time) j).
  { pose proof (g (i - a)%nat ltac:(lia)) as g1. pose proof (g (j - a)%nat ltac:(lia)) as g2.
    replace (a + (i - a))%nat with i in g1 by lia. replace (a + (j - a))%nat with j in g2 by lia. congruence. }
  unfold steps15 in e. rewrite !nth_error_map, !np_diff_nth in e by lia. simpl in e. injection e as e.
  apply round15_close. assumption.
Qed.

(** ** statements combined for the properties *)

Lemma trim_history_spec (rs : list (list nat)) (s0 : gsys R) (ns0 : list (node R)) (n0 : nat) :
  square n0 s0 -> numbered ns0 n0 -> in_range n0 rs ->
  exists s ns n, trim_history s0 ns0 n0 rs = Ok (s, ns, n) /\ square n s /\ numbered ns n /\
    (forall p d, number_of ns0 p d = None -> number_of ns p d = None) /\
    (forall p d q e k l, number_of ns p d = Some k -> number_of ns q e = Some l ->
       exists k0 l0, number_of ns0 p d = Some k0 /\ number_of ns0 q e = Some l0 /\
         active ns p d = active ns0 p d /\
         nth_error (gF s) k = nth_error (gF s0) k0 /\
         me (gK s) k l = me (gK s0) k0 l0 /\ me (gM s) k l = me (gM s0) k0 l0 /\ me (gC s) k l = me (gC s0) k0 l0).
Proof.
  revert s0 ns0 n0. induction rs as [|r rs IH]; intros s0 ns0 n0 hs hn hr; cbn [trim_history in_range] in *.
  - exists s0, ns0, n0. split; [reflexivity|]. split; auto. split; auto. split; auto.
    intros p d q e k l hk hl. exists k, l. auto 10.
  - destruct hr as [hr hrs]. destruct (trim_consistent s0 ns0 n0 r hs hn hr) as [s1 [e1 h]]. rewrite e1. cbn [rbind].
    destruct (recalculate_dof r ns0) as [ns1 n1]. destruct h as [h1 [h2 [h3 [h4 [h5 h6]]]]]. subst n1.
    destruct (IH s1 ns1 _ h1 h2 hrs) as [s [ns [n [g1 [g2 [g3 [g4 g5]]]]]]].
    exists s, ns, n. split; auto. split; auto. split; auto. split.
    + intros p d hp. apply g4. apply h5. assumption.
    + intros p d q e k l hk hl. destruct (g5 p d q e k l hk hl) as [k1 [l1 [hk1 [hl1 [ha [hf [hK [hM hC]]]]]]]].
      assert (hex : forall p d k1, number_of ns1 p d = Some k1 -> exists k0, number_of ns0 p d = Some k0 /\ ~ In k0 r).
      { intros p0 d0 k2 hk2. destruct (number_of ns0 p0 d0) as [k0|] eqn:e0.
        - exists k0. split; auto. intros hin. destruct (h4 _ _ _ e0 hin). congruence.
        - destruct (h5 _ _ e0). congruence. }
      destruct (hex _ _ _ hk1) as [k0 [hk0 hk0r]]. destruct (hex _ _ _ hl1) as [l0 [hl0 hl0r]].
      exists k0, l0. split; auto. split; auto.
      destruct (h6 p d k0 hk0 hk0r) as [k' [e' [_ [ha' [hf' hm']]]]]. assert (k' = k1) by congruence. subst k'.
      destruct (hm' q e l0 l1 hl0 hl1) as [m1 [m2 m3]]. repeat split; congruence.
Qed.

Lemma constrained_trim (s : gsys R) (ns : list (node R)) (cs : list (list nat * tri bool)) (n : nat) :
  square n s -> numbered ns n ->
  exists s' ns' n', trim_all s (fold_left apply_constraint cs ns) = Ok (s', ns', n') /\ square n' s' /\ numbered ns' n' /\
    (forall p d k, number_of ns p d = Some k ->
       (number_of ns' p d <> None <->
        flag_after cs p d (active ns p d) = true /\ 1 / 100000000 < Rabs (me (gM s) k k) /\ 1 / 100000000 < Rabs (me (gK s) k k))) /\
    (forall p d, number_of ns p d = None -> number_of ns' p d = None) /\
    (forall p d, active ns' p d = true <-> number_of ns' p d <> None) /\
    (forall p d q e k l k' l', number_of ns p d = Some k -> number_of ns' p d = Some k' ->
       number_of ns q e = Some l -> number_of ns' q e = Some l' ->
       nth_error (gF s') k' = nth_error (gF s) k /\
       me (gK s') k' l' = me (gK s) k l /\ me (gM s') k' l' = me (gM s) k l /\ me (gC s') k' l' = me (gC s) k l).
Proof.
  intros hs hn. destruct (constraints_spec cs ns) as [c1 [c2 [c3 c4]]].
  assert (hn1 : numbered (fold_left apply_constraint cs ns) n) by (unfold numbered; rewrite c4; exact hn).
  destruct (trim_all_spec s _ n hs hn1) as [s' [ns' [n' [h1 [h2 [h3 [h4 [h5 [h6 h7]]]]]]]]].
  exists s', ns', n'. split; auto. split; auto. split; auto. split; [|split; [|split]].
  - intros p d k hk. rewrite <- c2.
    + apply h4. rewrite c3. assumption.
    + unfold number_of in hk. destruct (nth_error ns p) eqn:e; [|discriminate]. apply nth_error_Some. congruence.
  - intros p d hp. apply h5. rewrite c3. assumption.
  - assumption.
  - intros p d q e k l k' l' a1 a2 a3 a4. apply (h7 p d q e k l k' l'); rewrite ?c3; assumption.
Qed.

Lemma mulv_mode n (m k : nat -> nat -> R) (a0 a1 w2 : R) (x : nat -> R) i :
  mulv n k x i = w2 * mulv n m x i ->
  mulv n (fun i j => a0 * m i j + a1 * k i j) x i = (a0 + a1 * w2) * mulv n m x i.
Proof.
  intros h. unfold mulv in *.
  rewrite (sumn_ext n _ (fun j => a0 * (m i j * x j) + a1 * (k i j * x j))) by (intros; ring).
  rewrite sumn_add, !sumn_scal, h. ring.
Qed.

Lemma rayleigh_mode (n : nat) (s : gsys R) (xi w1 w2 w : R) (x : nat -> R) :
  0 <= xi -> 0 < w1 -> 0 < w2 -> (w = w1 \/ w = w2) ->
  (forall i, (i < n)%nat -> mulv n (me (gK s)) x i = (w * w) * mulv n (me (gM s)) x i) ->
  forall i, (i < n)%nat ->
    mulv n (me (gC (rayleigh_damping true xi w1 w2 s))) x i
    = mulv n (me (gC s)) x i + 2 * xi * w * mulv n (me (gM s)) x i.
Proof.
  intros hx h1 h2 hw hm i hi.
  destruct (rayleigh_matrix xi w1 w2 s) as [_ [_ [_ [_ [_ hc]]]]].
  destruct (rayleigh_ratio xi w1 w2 hx h1 h2) as [_ [_ [r1 [r2 _]]]].
  unfold mulv at 1. rewrite (sumn_ext n _ (fun j => me (gC s) i j * x j
     + (fst (rayleigh_factors xi w1 w2) * me (gM s) i j + snd (rayleigh_factors xi w1 w2) * me (gK s) i j) * x j)).
  2:{ intros j _. rewrite hc. ring. }
  rewrite sumn_add. f_equal.
  pose proof (mulv_mode n (me (gM s)) (me (gK s)) (fst (rayleigh_factors xi w1 w2)) (snd (rayleigh_factors xi w1 w2)) (w * w) x i (hm i hi)) as e.
  unfold mulv at 1 in e. rewrite e. f_equal.
  assert (g : forall a b v, 0 < v -> (a + b * (v * v)) / (2 * v) = xi -> a + b * (v * v) = 2 * xi * v).
  { intros a b v hv he. rewrite <- he. field. lra. }
  destruct hw as [->| ->]; apply g; assumption.
Qed.

Lemma rayleigh_psd (n : nat) (s : gsys R) (xi w1 w2 : R) :
  0 <= xi -> 0 < w1 -> 0 < w2 -> psd n (me (gM s)) -> psd n (me (gK s)) -> psd n (me (gC s)) ->
  psd n (me (gC (rayleigh_damping true xi w1 w2 s))).
Proof.
  intros hx h1 h2 hM hK hC x. destruct (rayleigh_matrix xi w1 w2 s) as [_ [_ [_ [_ [_ hc]]]]].
  destruct (rayleigh_ratio xi w1 w2 hx h1 h2) as [p0 [p1 _]].
  rewrite (quad_ext n _ _ x (fun i j _ _ => hc i j)). rewrite quad_add, quad_add, !quad_scal.
  specialize (hM x). specialize (hK x). specialize (hC x).
  apply Rplus_le_le_0_compat; [assumption|]. apply Rplus_le_le_0_compat; apply Rmult_le_pos; assumption.
Qed.

Lemma step_diff (time : list R) i : (S i < length time)%nat -> nth_error (np_diff time) i = Some (step_size time i).
Proof. apply np_diff_nth. Qed.

Lemma stages_spec (time : list R) :
  (2 <= length time)%nat ->
  let ids := stage_time_ids time in
  Sorted.StronglySorted lt ids /\ hd_error ids = Some 0%nat /\ last ids 0%nat = (length time - 1)%nat /\
  ((forall i j, (S i < length time)%nat -> (S j < length time)%nat ->
      step_size time i = step_size time j \/ 1 / 1000000000000000 < Rabs (step_size time i - step_size time j)) ->
   (forall i j k, (i <= j <= k)%nat -> (S k < length time)%nat ->
      step_size time i = step_size time k -> step_size time j = step_size time i) ->
   forall a b, (forall k, In k ids -> (k <= a)%nat \/ (b <= k)%nat) ->
   forall i j, (a <= i < b)%nat -> (a <= j < b)%nat -> (b < length time)%nat ->
     step_size time i = step_size time j).
Proof.
  intros h ids. destruct (stage_ids_spec time h) as [h1 [h2 [h3 _]]]. split; auto. split; auto. split; auto.
  intros hsep hcont a b hab i j hi hj hb.
  assert (hs : forall i, (S i < length time)%nat -> nth_error (steps15 time) i = Some (round15 (step_size time i))).
  { intros m hm. unfold steps15. rewrite nth_error_map, step_diff by assumption. reflexivity. }
  assert (heq : forall i j, (S i < length time)%nat -> (S j < length time)%nat ->
            nth_error (steps15 time) i = nth_error (steps15 time) j -> step_size time i = step_size time j).
  { intros m m' hm hm' e. rewrite !hs in e by assumption. injection e as e. apply round15_close in e.
    destruct (hsep m m' hm hm') as [?|hgt]; auto. exfalso. lra. }
  destruct (hsep i j) as [?|hgt]; try lia; auto. exfalso.
  assert (hle : Rabs (step_size time i - step_size time j) <= 1 / 1000000000000000); [|lra].
  apply (stage_constant time h) with (a := a) (b := b); auto; try lia.
  intros i0 j0 k0 h0 hk0 e0. apply heq in e0; try lia.
  rewrite !hs by lia. f_equal. f_equal. apply (hcont i0 j0 k0); auto; lia.
Qed.

Lemma flag_after_disjoint (cs : list (list nat * tri bool)) p d :
  (forall i j c1 c2, nth_error cs i = Some c1 -> nth_error cs j = Some c2 -> In p (fst c1) -> In p (fst c2) -> i = j) ->
  (flag_after cs p d true = true <-> ~ (exists c, In c cs /\ In p (fst c) /\ tget (snd c) d = false)).
Proof.
  unfold flag_after.
  assert (hno : forall (cs : list (list nat * tri bool)) (f : bool), (forall c, In c cs -> ~ In p (fst c)) ->
     fold_left (fun f c => if memb p (fst c) then tget (snd c) d else f) cs f = f).
  { clear. induction cs as [|c cs IH]; intros f h; cbn [fold_left]; auto.
    assert (e : memb p (fst c) = false) by (apply memb_false; apply h; simpl; auto). rewrite e. apply IH. intros; apply h; simpl; auto. }
  induction cs as [|c cs IH]; intros h; cbn [fold_left].
  - split; auto. intros _ [c [[] _]].
  - destruct (memb p (fst c)) eqn:e.
    + apply memb_In in e. rewrite hno.
      * split.
        -- intros ht [c' [[<-|hin] [h1 h2]]]; [congruence|].
           apply In_nth_error in hin. destruct hin as [j hj].
           pose proof (h 0%nat (S j) c c' eq_refl hj e h1). discriminate.
        -- intros hn. destruct (tget (snd c) d) eqn:et; auto. exfalso. apply hn. exists c. simpl; auto.
      * intros c' hin hp. apply In_nth_error in hin. destruct hin as [j hj].
        pose proof (h 0%nat (S j) c c' eq_refl hj e hp). discriminate.
    + rewrite IH.
      * split; intros hn [c' [hin hc]]; apply hn; exists c'.
        -- destruct hin as [<-|hin]; auto. destruct hc as [hc _]. apply memb_false in e. contradiction.
        -- simpl; auto.
      * intros i j c1 c2 g1 g2 g3 g4. assert (S i = S j); [|lia]. apply (h (S i) (S j) c1 c2); auto.
Qed.

Lemma constrained_trim_disjoint (s : gsys R) (ns : list (node R)) (cs : list (list nat * tri bool)) (n : nat) :
  square n s -> numbered ns n ->
  (forall p d, number_of ns p d <> None -> active ns p d = true) ->
  (forall i j c1 c2 p, nth_error cs i = Some c1 -> nth_error cs j = Some c2 -> In p (fst c1) -> In p (fst c2) -> i = j) ->
  exists s' ns' n', trim_all s (fold_left apply_constraint cs ns) = Ok (s', ns', n') /\
    (forall p d k, number_of ns p d = Some k ->
       (number_of ns' p d <> None <->
        ~ (exists c, In c cs /\ In p (fst c) /\ tget (snd c) d = false) /\
        1 / 100000000 < Rabs (me (gM s) k k) /\ 1 / 100000000 < Rabs (me (gK s) k k))).
Proof.
  intros hs hn ha hd. destruct (constrained_trim s ns cs n hs hn) as [s' [ns' [n' [h1 [_ [_ [h4 _]]]]]]].
  exists s', ns', n'. split; auto. intros p d k hk. rewrite (h4 p d k hk).
  rewrite (ha p d) by congruence. rewrite flag_after_disjoint; [tauto|]. intros i j c1 c2. apply hd.
Qed.

Lemma constraint_overruled :
  exists (s : gsys R) (ns : list (node R)) (cs : list (list nat * tri bool)) n s' ns' n' p d c,
    square n s /\ numbered ns n /\ In c cs /\ In p (fst c) /\ tget (snd c) d = false /\
    trim_all s (fold_left apply_constraint cs ns) = Ok (s', ns', n') /\ number_of ns' p d <> None.
Proof.
  set (s := mkSys (mkMat 3 3 (fun _ _ => 1)) (mkMat 3 3 (fun _ _ => 1)) (mkMat 3 3 (fun _ _ => 1)) [0; 0; 0] : gsys R).
  set (ns := [mkNode 0 (Some 0%nat) (T3 (Some 0) (Some 1) (Some 2))%nat (T3 0 0 0) (T3 true true true) []] : list (node R)).
  set (c := ([0%nat], T3 true false true)).
  set (cs := [c; ([0%nat], T3 false true true)]).
  assert (hs : square 3 s) by (repeat split). assert (hn : numbered ns 3) by reflexivity.
  destruct (constrained_trim s ns cs 3 hs hn) as [s' [ns' [n' [h1 [_ [_ [h4 _]]]]]]].
  exists s, ns, cs, 3%nat, s', ns', n', 0%nat, DY, c. split; auto. split; auto. split; [simpl; auto|].
  split; [simpl; auto|]. split; [reflexivity|]. split; auto.
  apply (h4 0%nat DY 1%nat eq_refl). split; [reflexivity|]. simpl. rewrite Rabs_R1. lra.
Qed.

Lemma survivors_below_order (removed : list nat) (a b : nat) :
  ((a < b)%nat -> ~ In a removed -> (survivors_below removed a < survivors_below removed b)%nat) /\
  (removed = [] -> survivors_below removed a = a) /\
  ((survivors_below removed a <= a)%nat).
Proof.
  split; [apply survivors_below_lt|]. split.
  - intros ->. unfold survivors_below. change (length (survivors a []) = a). rewrite survivors_nil, seq_length. reflexivity.
  - unfold survivors_below.
    assert (g : forall (f : nat -> bool) l, (length (filter f l) <= length l)%nat).
    { intros f l. induction l as [|x l IH]; simpl; [lia|]. destruct (f x); simpl; lia. }
    pose proof (g (fun i => negb (memb i removed)) (seq 0 a)) as h. rewrite seq_length in h. exact h.
Qed.

Lemma delete_order_free (m : mat R) (r1 r2 c1 c2 : list nat) m1 m2 :
  (forall i, In i r1 <-> In i r2) -> (forall j, In j c1 <-> In j c2) ->
  delete_from_lil m r1 c1 = Ok m1 -> delete_from_lil m r2 c2 = Ok m2 ->
  mr m1 = mr m2 /\ mc m1 = mc m2 /\ forall i j, (i < mr m1)%nat -> (j < mc m1)%nat -> me m1 i j = me m2 i j.
Proof.
  intros hr hc h1 h2.
  assert (hm : forall a b, (forall i, In i a <-> In i b) -> forall k, memb k a = memb k b).
  { intros a b hab k. destruct (memb k a) eqn:e1; symmetry; [apply memb_In, hab, memb_In|apply memb_false; rewrite <- hab; apply memb_false]; assumption. }
  assert (hsurv : forall a b n, (forall i, In i a <-> In i b) -> survivors n a = survivors n b).
  { intros a b n hab. unfold survivors. apply filter_ext. intros k. rewrite (hm a b hab). reflexivity. }
  assert (hd : forall n a b, (forall i, In i a <-> In i b) ->
            forall x, delete_mask n a = Ok x -> kept_from 0 x = survivors n b).
  { intros n a b hab x hx. rewrite (delete_mask_kept _ _ _ hx). apply hsurv. assumption. }
  assert (hnil : forall n, kept_from 0 (repeat true n) = seq 0 n).
  { assert (g : forall n s, kept_from s (repeat true n) = seq s n) by (induction n; simpl; intros; f_equal; auto). intros; apply g. }
  assert (key : forall rows cols mm, delete_from_lil m rows cols = Ok mm ->
     mr mm = length (survivors (mr m) rows) /\ mc mm = length (survivors (mc m) cols) /\
     forall i j, (i < mr mm)%nat -> (j < mc mm)%nat ->
       me mm i j = me m (nth i (survivors (mr m) rows) 0%nat) (nth j (survivors (mc m) cols) 0%nat)).
  { intros rows cols mm h. unfold delete_from_lil in h. destruct rows as [|a rows]; destruct cols as [|b cols].
    - injection h as <-. rewrite !survivors_nil, !seq_length. split; [reflexivity|]. split; [reflexivity|].
      intros i j hi hj. rewrite !seq_nth by assumption. reflexivity.
    - destruct (delete_mask (mc m) (b :: cols)) as [x|] eqn:ex; [|discriminate]. injection h as <-.
      rewrite !survivors_nil, !seq_length. cbn [mr mc me take_cols].
      rewrite (hd _ _ (b :: cols) (fun i => iff_refl _) _ ex).
      split; [reflexivity|]. split; [reflexivity|]. intros i j hi hj. rewrite seq_nth by assumption. reflexivity.
    - destruct (delete_mask (mr m) (a :: rows)) as [x|] eqn:ex; [|discriminate]. injection h as <-.
      rewrite !survivors_nil, !seq_length. cbn [mr mc me take_rows].
      rewrite (hd _ _ (a :: rows) (fun i => iff_refl _) _ ex).
      split; [reflexivity|]. split; [reflexivity|]. intros i j hi hj. rewrite seq_nth by assumption. reflexivity.
    - destruct (delete_mask (mr m) (a :: rows)) as [x|] eqn:ex; [|discriminate].
      destruct (delete_mask (mc m) (b :: cols)) as [y|] eqn:ey; [|discriminate]. injection h as <-.
      cbn [mr mc me take_rows take_cols].
      rewrite (hd _ _ (a :: rows) (fun i => iff_refl _) _ ex), (hd _ _ (b :: cols) (fun i => iff_refl _) _ ey).
      split; [reflexivity|]. split; [reflexivity|]. intros; reflexivity. }
  destruct (key _ _ _ h1) as [k1 [k2 k3]]. destruct (key _ _ _ h2) as [l1 [l2 l3]].
  rewrite (hsurv r1 r2 (mr m) hr) in *. rewrite (hsurv c1 c2 (mc m) hc) in *.
  split; [congruence|]. split; [congruence|]. intros i j hi hj. rewrite k3, l3 by congruence. reflexivity.
Qed.

Lemma part_dof_indices_In (flag : tri bool) (nodes : list (node R)) (k : nat) :
  In k (part_dof_indices flag nodes) <-> exists p d, tget flag d = true /\ number_of nodes p d = Some k.
Proof.
  unfold part_dof_indices. rewrite in_flat_map. split.
  - intros [x [hx hk]]. apply In_nth_error in hx. destruct hx as [p hp].
    apply in_flat_map in hk. destruct hk as [d [_ hk]]. exists p, d. unfold number_of. rewrite hp.
    destruct (tget flag d); [|destruct hk]. destruct (tget (n_dof x) d); [destruct hk as [-> | []]; auto|destruct hk].
  - intros [p [d [h1 h2]]]. unfold number_of in h2. destruct (nth_error nodes p) as [x|] eqn:ex; [|discriminate].
    exists x. split; [eapply nth_error_In; eauto|]. apply in_flat_map. exists d. split; [destruct d; simpl; auto|].
    rewrite h1, h2. simpl. auto.
Qed.

Lemma duplicate_node_lost :
  exists (n : nat) (c : cond R) (k : nat),
    length (c_vals c) = length (c_nodes c) /\
    (forall i, In i (part_dof_indices (c_flag c) (c_nodes c)) -> (i < n)%nat) /\
    cond_force c k = 2 /\ nth k (rhs n [c]) 0 = 1.
Proof.
  set (x := mkNode 0 (Some 0%nat) (T3 (Some 0) (Some 1) (Some 2))%nat (T3 0 0 0) (T3 true true true) [] : node R).
  exists 3%nat, (mkCond (T3 false true false) [x; x] [T3 0 1 0; T3 0 1 0]), 1%nat.
  split; [reflexivity|]. split; [simpl; intuition lia|]. split.
  - unfold cond_force. simpl. rnum. lra.
  - simpl. rnum. lra.
Qed.

Lemma round15_int (z : Z) : round15 (IZR z) = (z * 10 ^ 15)%Z.
Proof.
  unfold round15. change (nmul (IZR z) (lit (10 ^ 15))) with (IZR z * IZR (10 ^ 15)). rewrite <- mult_IZR.
  assert (hf : nfloor (IZR (z * 10 ^ 15)) = (z * 10 ^ 15)%Z) by (apply nfloor_unique; lra).
  unfold nround. rewrite hf. rnum.
  destruct (nltbP (IZR (z * 10 ^ 15) - IZR (z * 10 ^ 15)) (1 / 2)) as [h|h]; [reflexivity|]. exfalso. apply h. lra.
Qed.

Lemma returning_step :
  exists (time : list R) (a b i j : nat),
    (forall p q, (p < q < length time)%nat -> nth p time 0 < nth q time 0) /\
    In a (stage_time_ids time) /\ In b (stage_time_ids time) /\
    (forall k, In k (stage_time_ids time) -> (k <= a)%nat \/ (b <= k)%nat) /\
    (a <= i < b)%nat /\ (a <= j < b)%nat /\ (b < length time)%nat /\ step_size time i <> step_size time j.
Proof.
  assert (e : stage_time_ids [0; 1; 3; 4] = [0; 1; 3]%nat).
  { unfold stage_time_ids. cbn [np_diff map].
    replace (1 - 0)%num with (IZR 1) by (rnum; lra). replace (3 - 1)%num with (IZR 2) by (rnum; lra).
    replace (4 - 3)%num with (IZR 1) by (rnum; lra). rewrite !round15_int. reflexivity. }
  exists [0; 1; 3; 4], 1%nat, 3%nat, 1%nat, 2%nat. rewrite e. split; [|split; [|split; [|split; [|split; [|split; [|split]]]]]].
  - intros [|[|[|[|p]]]] [|[|[|[|q]]]] h; simpl in *; try lia; lra.
  - simpl; auto.
  - simpl; auto.
  - intros k hk. simpl in hk. intuition lia.
  - lia.
  - lia.
  - simpl; lia.
  - unfold step_size. simpl. lra.
Qed.

Lemma rayleigh_all (xi w1 w2 : R) :
  0 <= xi -> 0 < w1 -> 0 < w2 ->
  let a0 := fst (rayleigh_factors xi w1 w2) in
  let a1 := snd (rayleigh_factors xi w1 w2) in
  0 <= a0 /\ 0 <= a1 /\
  (a0 + a1 * (w1 * w1)) / (2 * w1) = xi /\ (a0 + a1 * (w2 * w2)) / (2 * w2) = xi /\
  (forall w, w1 <= w <= w2 -> (a0 + a1 * (w * w)) / (2 * w) <= xi) /\
  (forall w, w1 <= w2 -> 0 < w <= w1 \/ w2 <= w -> xi <= (a0 + a1 * (w * w)) / (2 * w)).
Proof.
  intros hx h1 h2 a0 a1. destruct (rayleigh_ratio xi w1 w2 hx h1 h2) as [g1 [g2 [g3 [g4 _]]]].
  repeat (split; [assumption|]). split.
  - intros w hw. apply (rayleigh_between xi w1 w2 w); auto; lra.
  - intros w hle hw. apply (rayleigh_between xi w1 w2 w); auto.
Qed.
