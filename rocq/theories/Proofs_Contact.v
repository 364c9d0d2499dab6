(** * Proofs about the contact element of a moving load (C29, C31) *)

From Coq Require Import Reals List Bool ZArith Arith Lia Lra Psatz.
From Verif Require Import Num PyBase Model_Geometry Model_System Model_Element Model_Moving
  Spec_System Spec_Element Spec_Moving Proofs_System Proofs_Element Proofs_Beam Proofs_Moving.
Import ListNotations.
Local Open Scope R_scope.

Lemma rising_lt (l : list R) i j : rising l -> (i < j)%nat -> (j < length l)%nat -> nth i l 0 < nth j l 0.
Proof.
  intros h hij. induction hij as [|j hij IH]; intros hj.
  - apply h. auto.
  - apply Rlt_trans with (nth j l 0); [apply IH; lia|apply h; lia].
Qed.
Lemma rising_le (l : list R) i j : rising l -> (i <= j)%nat -> (j < length l)%nat -> nth i l 0 <= nth j l 0.
Proof. intros h hij hj. destruct (Nat.eq_dec i j) as [->|]; [lra|]. apply Rlt_le, rising_lt; auto. lia. Qed.

(** a value on the track lies on an element *)
Lemma rising_locate (l : list R) s : rising l -> (2 <= length l)%nat -> nth 0 l 0 <= s < nth (length l - 1) l 0 ->
  exists k, (S k < length l)%nat /\ nth k l 0 <= s < nth (S k) l 0.
Proof.
  intros h hl hs.
  assert (g : forall n, (S n < length l)%nat -> s < nth (S n) l 0 -> exists k, (S k < length l)%nat /\ nth k l 0 <= s < nth (S k) l 0).
  { induction n as [|n IH]; intros h1 h2.
    - exists 0%nat. split; [auto|]. lra.
    - destruct (Rlt_dec s (nth (S n) l 0)); [apply IH; auto; lia|]. exists (S n). split; [auto|]. lra. }
  apply (g (length l - 2)%nat); [lia|]. replace (S (length l - 2)) with (length l - 1)%nat by lia. tauto.
Qed.

Lemma argmin_from_none (l : list (option R)) k best r v : Forall (fun x => x = None) l ->
  argmin_from k best None (l ++ Some v :: r) = argmin_from (S (k + length l)) (k + length l) (Some v) r.
Proof.
  revert k. induction l as [|x l IH]; intros k h.
  - simpl. rewrite Nat.add_0_r. reflexivity.
  - inversion h; subst. simpl. rewrite IH by auto. rewrite <- plus_n_Sm. reflexivity.
Qed.
Lemma argmin_from_all_none (l : list (option R)) k best : Forall (fun x => x = None) l -> argmin_from k best None l = best.
Proof. revert k. induction l as [|x l IH]; intros k h; auto. inversion h; subst. simpl. apply IH. auto. Qed.
Lemma argmin_from_min (l : list (option R)) k best v : (forall x, In (Some x) l -> v <= x) -> argmin_from k best (Some v) l = best.
Proof.
  revert k. induction l as [|x l IH]; intros k h; auto. simpl. destruct x as [x|].
  - destruct (nltbP x v) as [hx|hx]; [specialize (h x (or_introl eq_refl)); lra|]. apply IH. intros; apply h; right; auto.
  - apply IH. intros; apply h; right; auto.
Qed.

Lemma split_nth {A} (l : list A) k d : (k < length l)%nat -> l = firstn k l ++ nth k l d :: skipn (S k) l.
Proof.
  revert k. induction l as [|a l IH]; intros [|k] h; simpl in *; try lia; auto. f_equal. apply IH. lia.
Qed.
Lemma In_firstn_nth {A} (l : list A) k x d : In x (firstn k l) -> exists i, (i < k)%nat /\ (i < length l)%nat /\ x = nth i l d.
Proof.
  revert k. induction l as [|a l IH]; intros [|k] h; simpl in h; try tauto. destruct h as [->|h].
  - exists 0%nat. simpl. repeat split; lia.
  - destruct (IH k h) as [i [h1 [h2 h3]]]. exists (S i). simpl. repeat split; auto; lia.
Qed.
Lemma In_skipn_nth {A} (l : list A) k x d : In x (skipn k l) -> exists i, (k <= i)%nat /\ (i < length l)%nat /\ x = nth i l d.
Proof.
  intros h. apply (In_nth _ _ d) in h. destruct h as [n [h1 h2]]. rewrite skipn_length in h1. rewrite nth_skipn in h2.
  exists (k + n)%nat. repeat split; auto; lia.
Qed.

Definition ahead (first : R) (nodes : list R) : list (option R) :=
  map (fun d => if nltb (lit 0) (d - first) then Some (d - first) else None) nodes.

Lemma ahead_none first nodes : (forall d, In d nodes -> d <= first) -> Forall (fun x => x = None) (ahead first nodes).
Proof.
  intros h. apply Forall_forall. intros x hx. apply in_map_iff in hx. destruct hx as [d [<- hd]].
  change (@lit R RNum 0) with 0. destruct (nltbP 0 (d - first)) as [hh|]; auto. specialize (h d hd). lra.
Qed.

Lemma first_element_on (nodes : list R) s k : rising nodes -> (S k < length nodes)%nat ->
  nth k nodes 0 <= s < nth (S k) nodes 0 -> get_first_element_idx nodes s = Z.of_nat k.
Proof.
  intros h hk hs. unfold get_first_element_idx.
  change (map _ nodes) with (ahead s nodes).
  assert (e : argmin (ahead s nodes) = S k).
  { rewrite (split_nth nodes (S k) 0 hk). unfold ahead at 1. rewrite map_app. cbn [map]. fold (ahead s).
    change (map _ (firstn (S k) nodes)) with (ahead s (firstn (S k) nodes)).
    change (map _ (skipn (S (S k)) nodes)) with (ahead s (skipn (S (S k)) nodes)).
    change (@lit R RNum 0) with 0.
    destruct (nltbP 0 (nth (S k) nodes 0 - s)) as [hp|hp]; [|lra].
    assert (hn : Forall (fun x => x = None) (ahead s (firstn (S k) nodes))).
    { apply ahead_none. intros d hd. destruct (In_firstn_nth _ _ _ 0 hd) as [i [h1 [h2 ->]]].
      apply Rle_trans with (nth k nodes 0); [|lra]. apply rising_le; auto; lia. }
    assert (hl : length (ahead s (firstn (S k) nodes)) = S k).
    { unfold ahead. rewrite map_length, firstn_length. lia. }
    destruct (ahead s (firstn (S k) nodes)) as [|x l] eqn:el; [discriminate|].
    inversion hn; subst. unfold argmin. cbn [app]. rewrite argmin_from_none by auto.
    rewrite argmin_from_min; [simpl in hl; lia|].
    intros x hx. apply in_map_iff in hx. destruct hx as [d [hd hin]].
    destruct (In_skipn_nth _ _ _ 0 hin) as [i [h1 [h2 ->]]]. change (@lit R RNum 0) with 0 in hd.
    destruct (nltbP 0 (nth i nodes 0 - s)); [|discriminate]. injection hd as <-.
    pose proof (rising_lt nodes (S k) i h ltac:(lia) h2). rnum. lra. }
  rewrite e. lia.
Qed.

(** a load that starts before the first node, or at or beyond the last, gets row -1 *)
Lemma first_element_off (nodes : list R) s : rising nodes ->
  s < nth 0 nodes 0 \/ (forall d, In d nodes -> d <= s) -> get_first_element_idx nodes s = (-1)%Z.
Proof.
  intros h hs. unfold get_first_element_idx. change (map _ nodes) with (ahead s nodes).
  assert (e : argmin (ahead s nodes) = 0%nat); [|rewrite e; reflexivity].
  destruct hs as [hs|hs].
  - destruct nodes as [|d r]; [reflexivity|]. cbn [nth] in hs. unfold ahead, argmin. cbn [map].
    change (@lit R RNum 0) with 0. destruct (nltbP 0 (d - s)) as [hp|hp]; [|lra].
    apply argmin_from_min. intros x hx. apply in_map_iff in hx. destruct hx as [y [hy hin]].
    destruct (nltbP 0 (y - s)); [|discriminate]. injection hy as <-.
    apply (In_nth _ _ 0) in hin. destruct hin as [i [hi <-]].
    pose proof (rising_lt (d :: r) 0 (S i) h ltac:(lia) ltac:(simpl; lia)) as hh. cbn [nth] in hh. rnum. lra.
  - pose proof (ahead_none s nodes hs) as hn. destruct (ahead s nodes) as [|x l]; [reflexivity|].
    inversion hn; subst. apply argmin_from_all_none. auto.
Qed.

Lemma active_rows_spec (nodes forces : list R) (i : nat) (prev : R) : rising nodes ->
  contains nodes i prev ->
  (forall t, (t < length forces)%nat -> small_step nodes (nth t (prev :: forces) 0) (nth t forces 0)) ->
  exists els, active_rows nodes (Z.of_nat i) forces = map Z.of_nat els /\ length els = length forces /\
    stepwise (i :: els) /\ forall t, (t < length forces)%nat -> contains nodes (nth t els 0%nat) (nth t forces 0).
Proof.
  intros hr. revert i prev. induction forces as [|f forces IH]; intros i prev hc hs.
  { exists []. split; [reflexivity|]. split; [reflexivity|]. split; [intros t ht; simpl in ht; lia|intros t ht; simpl in ht; lia]. }
  destruct (hs 0%nat ltac:(simpl; lia)) as [s1 s2]. cbn [nth] in s1, s2. destruct hc as [c1 [c2 c3]].
  cbn [active_rows].
  set (i' := if (Z.of_nat i <? Z.of_nat (length nodes) - 2)%Z && nltb (nth (Z.to_nat (Z.of_nat i + 1)) nodes (lit 0)) f
             then S i else i).
  assert (e : (if (Z.of_nat i <? Z.of_nat (length nodes) - 2)%Z && nltb (nth (Z.to_nat (Z.of_nat i + 1)) nodes (lit 0)) f
             then (Z.of_nat i + 1)%Z else Z.of_nat i) = Z.of_nat i').
  { unfold i'. destruct (_ && _); lia. }
  rewrite e.
  assert (hc' : contains nodes i' f).
  { unfold i'. replace (Z.to_nat (Z.of_nat i + 1)) with (S i) by lia. change (@lit R RNum 0) with 0.
    destruct (Z.ltb_spec (Z.of_nat i) (Z.of_nat (length nodes) - 2)) as [hz|hz]; cbn [andb].
    - destruct (nltbP (nth (S i) nodes 0) f) as [hf|hf].
      + split; [lia|]. split; [lra|]. left. specialize (s2 (S i) ltac:(lia)).
        destruct c3 as [c3|c3]; [lra|lia].
      + split; [lia|]. split; [lra|]. left. lra.
    - split; [lia|]. split; [lra|]. right. lia. }
  destruct (IH i' f hc') as [els [e1 [e2 [e3 e4]]]].
  { intros t ht. exact (hs (S t) ltac:(simpl; lia)). }
  exists (i' :: els). cbn [map length]. rewrite e1. split; [reflexivity|]. split; [lia|]. split.
  - intros t ht. destruct t as [|t].
    + cbn [nth]. unfold i'. destruct (_ && _); auto.
    + exact (e3 t ltac:(simpl in *; lia)).
  - intros t ht. destruct t as [|t]; [exact hc'|]. apply (e4 t). simpl in ht. lia.
Qed.

Lemma set_active_spec (nodes forces : list R) : rising nodes -> (2 <= length nodes)%nat -> forces <> [] ->
  nth 0 nodes 0 <= nth 0 forces 0 < nth (length nodes - 1) nodes 0 ->
  (forall t, (S t < length forces)%nat -> small_step nodes (nth t forces 0) (nth (S t) forces 0)) ->
  exists els, set_active_elements (length nodes - 1) nodes forces = Ok els /\ length els = length forces /\
    stepwise els /\ nth 0 forces 0 < nth (S (nth 0 els 0%nat)) nodes 0 /\
    forall t, (t < length forces)%nat -> contains nodes (nth t els 0%nat) (nth t forces 0).
Proof.
  intros hr hl hne h0 hs. destruct (rising_locate nodes _ hr hl h0) as [k [hk hkk]].
  destruct forces as [|f forces]; [congruence|]. cbn [nth] in *.
  pose proof (first_element_on nodes f k hr hk hkk) as hfirst.
  unfold set_active_elements. change (@lit R RNum 0) with 0. cbn [nth]. rewrite hfirst.
  (* the first step stays on the first element *)
  assert (e0 : active_rows nodes (Z.of_nat k) (f :: forces) = Z.of_nat k :: active_rows nodes (Z.of_nat k) forces).
  { cbn [active_rows]. replace (Z.to_nat (Z.of_nat k + 1)) with (S k) by lia. change (@lit R RNum 0) with 0.
    destruct (nltbP (nth (S k) nodes 0) f); [lra|]. rewrite andb_false_r. reflexivity. }
  destruct (active_rows_spec nodes forces k f hr) as [els [e1 [e2 [e3 e4]]]].
  { split; [auto|]. split; [lra|]. left. lra. }
  { intros t ht. destruct t as [|t]; [apply (hs 0%nat); simpl; lia|]. apply (hs (S t)); simpl; lia. }
  rewrite e0, e1.
  assert (hall : forall t, (t < length (f :: forces))%nat -> contains nodes (nth t (k :: els) 0%nat) (nth t (f :: forces) 0)).
  { intros t ht. destruct t as [|t]; [split; [exact hk|]; cbn [nth]; split; [lra|left; lra]|]. apply e4. simpl in ht. lia. }
  change (Z.of_nat k :: map Z.of_nat els) with (map Z.of_nat (k :: els)).
  assert (hf : forallb (fun i => (0 <=? i)%Z && (i <? Z.of_nat (length nodes - 1))%Z) (map Z.of_nat (k :: els)) = true).
  { apply forallb_forall. intros z hz. apply in_map_iff in hz. destruct hz as [n [<- hn]].
    apply (In_nth _ _ 0%nat) in hn. destruct hn as [t [ht <-]]. destruct (hall t ltac:(simpl in *; lia)) as [c1 _].
    apply andb_true_intro. split; [apply Z.leb_le; lia|apply Z.ltb_lt; lia]. }
  rewrite hf. exists (k :: els). split.
  - f_equal. rewrite map_map. rewrite <- (map_id (k :: els)) at 2. apply map_ext. intros; apply Nat2Z.id.
  - split; [simpl; lia|]. split; [exact e3|]. split; [cbn [nth]; lra|exact hall].
Qed.

(** a load that starts before the track is refused *)
Lemma set_active_before (nodes forces : list R) n : rising nodes -> forces <> [] ->
  nth 0 forces 0 < nth 0 nodes 0 -> set_active_elements n nodes forces = Err ErrValue.
Proof.
  intros hr hne h0. destruct forces as [|f forces]; [congruence|]. cbn [nth] in *.
  unfold set_active_elements. change (@lit R RNum 0) with 0. cbn [nth].
  rewrite (first_element_off nodes f hr) by (left; auto). cbn [active_rows].
  change (Z.to_nat (-1 + 1)) with 0%nat. change (@lit R RNum 0) with 0.
  destruct (nltbP (nth 0 nodes 0) f); [lra|]. rewrite andb_false_r. reflexivity.
Qed.

(** a load that starts at or beyond the end of the track is put on the first element *)
Lemma set_active_beyond (nodes : list R) f n : rising nodes -> (2 <= length nodes)%nat -> (1 <= n)%nat ->
  nth (length nodes - 1) nodes 0 <= f -> set_active_elements n nodes [f] = Ok [0%nat].
Proof.
  intros hr hl hn h0. unfold set_active_elements. change (@lit R RNum 0) with 0. cbn [nth].
  rewrite (first_element_off nodes f hr).
  2:{ right. intros d hd. apply (In_nth _ _ 0) in hd. destruct hd as [i [hi <-]].
      apply Rle_trans with (2 := h0). apply rising_le; auto; lia. }
  cbn [active_rows]. change (Z.to_nat (-1 + 1)) with 0%nat. change (@lit R RNum 0) with 0.
  pose proof (rising_lt nodes 0 (length nodes - 1) hr ltac:(lia) ltac:(lia)).
  destruct (nltbP (nth 0 nodes 0) f); [|lra]. rewrite andb_true_r.
  destruct (Z.ltb_spec (-1) (Z.of_nat (length nodes) - 2)); [|lia].
  change (-1 + 1)%Z with 0%Z. cbn [forallb].
  destruct (Z.ltb_spec 0 (Z.of_nat n)); [|lia]. reflexivity.
Qed.

(** ** the model part of the contact element *)

Lemma list_sum_firstn_S (l : list nat) p : (p < length l)%nat -> list_sum (firstn (S p) l) = (list_sum (firstn p l) + nth p l 0)%nat.
Proof.
  revert p. induction l as [|a l IH]; intros p h; simpl in h; [lia|]. destruct p as [|p].
  - simpl. lia.
  - change (list_sum (firstn (S (S p)) (a :: l))) with (a + list_sum (firstn (S p) l))%nat.
    change (list_sum (firstn (S p) (a :: l))) with (a + list_sum (firstn p l))%nat. rewrite IH by lia. cbn [nth]. lia.
Qed.
Lemma list_sum_firstn_mono (l : list nat) p q : (p <= q)%nat -> (list_sum (firstn p l) <= list_sum (firstn q l))%nat.
Proof.
  intros h. induction h as [|q h IH]; auto. apply Nat.le_trans with (1 := IH).
  destruct (Nat.lt_ge_cases q (length l)); [rewrite list_sum_firstn_S by auto; lia|].
  rewrite !firstn_all2 by lia. lia.
Qed.
Lemma list_sum_firstn_all (l : list nat) p : (length l <= p)%nat -> list_sum (firstn p l) = list_sum l.
Proof. intros h. rewrite firstn_all2 by auto. reflexivity. Qed.

Lemma owner_unique sizes k p q : owner sizes k p -> owner sizes k q -> p = q.
Proof.
  intros [h1 h2] [h3 h4]. destruct (Nat.lt_trichotomy p q) as [h|[h|h]]; auto; exfalso.
  - pose proof (list_sum_firstn_mono sizes (S p) q h). lia.
  - pose proof (list_sum_firstn_mono sizes (S q) p h). lia.
Qed.

Lemma parts_loop_spec (sizes els : list nat) mp e0 :
  (forall s, In s sizes -> (1 <= s)%nat) -> stepwise (e0 :: els) -> owner sizes e0 mp ->
  (forall e, In e els -> (e < list_sum sizes)%nat) ->
  exists ps, parts_loop sizes mp (list_sum (firstn (S mp) sizes)) els = Ok ps /\ length ps = length els /\
    forall t, (t < length els)%nat -> owner sizes (nth t els 0%nat) (nth t ps 0%nat).
Proof.
  intros hpos. revert mp e0. induction els as [|e els IH]; intros mp e0 hst ho hr.
  { exists []. repeat split; auto; simpl in *; lia. }
  destruct ho as [o1 o2]. pose proof (hst 0%nat ltac:(simpl; lia)) as h0. cbn [nth] in h0.
  assert (hst' : stepwise (e :: els)) by (intros t ht; apply (hst (S t)); simpl in *; lia).
  cbn [parts_loop]. destruct (Nat.leb_spec (list_sum (firstn (S mp) sizes)) e) as [hle|hlt].
  - assert (he : e = list_sum (firstn (S mp) sizes)) by lia.
    assert (hmp : (S mp < length sizes)%nat).
    { destruct (Nat.lt_ge_cases (S mp) (length sizes)); auto. rewrite list_sum_firstn_all in he by auto.
      specialize (hr e (or_introl eq_refl)). lia. }
    rewrite (nth_err sizes (S mp) 0%nat hmp).
    rewrite <- list_sum_firstn_S by auto.
    assert (hown : owner sizes e (S mp)).
    { split; auto. rewrite (list_sum_firstn_S sizes (S mp)) by auto.
      pose proof (hpos (nth (S mp) sizes 0%nat) (nth_In sizes 0%nat hmp)). lia. }
    destruct (IH (S mp) e hst' hown) as [ps [p1 [p2 p3]]]; [intros; apply hr; right; auto|].
    rewrite p1. cbn [rbind]. exists (S mp :: ps). split; [reflexivity|]. split; [simpl; lia|].
    intros t ht. destruct t as [|t]; [exact hown|]. apply p3. simpl in ht. lia.
  - assert (hown : owner sizes e mp) by (split; auto; lia).
    destruct (IH mp e hst' hown) as [ps [p1 [p2 p3]]]; [intros; apply hr; right; auto|].
    rewrite p1. cbn [rbind]. exists (mp :: ps). split; [reflexivity|]. split; [simpl; lia|].
    intros t ht. destruct t as [|t]; [exact hown|]. apply p3. simpl in ht. lia.
Qed.

Lemma contact_parts_spec (sizes els : list nat) : sizes <> [] ->
  (forall s, In s sizes -> (1 <= s)%nat) -> stepwise els ->
  (forall e, In e els -> (e < list_sum sizes)%nat) ->
  (nth 0 els 0 < list_sum (firstn 2 sizes))%nat ->
  exists ps, contact_parts sizes els = Ok ps /\ length ps = length els /\
    forall t, (t < length els)%nat -> owner sizes (nth t els 0%nat) (nth t ps 0%nat).
Proof.
  intros hne hpos hst hr h2. destruct sizes as [|s0 sizes]; [congruence|].
  unfold contact_parts. destruct els as [|e els]; [exists []; split; [reflexivity|]; split; [reflexivity|]; intros t ht; simpl in ht; lia|].
  cbn [nth] in h2. set (ss := s0 :: sizes) in *.
  assert (hs0 : s0 = list_sum (firstn 1 ss)) by (simpl; lia).
  destruct (Nat.lt_ge_cases e s0) as [hlt|hge].
  - rewrite hs0. apply (parts_loop_spec ss (e :: els) 0 e hpos); auto.
    + intros t ht. destruct t as [|t]; [left; reflexivity|]. apply (hst t). simpl in *. lia.
    + split; [simpl; lia|]. split; [simpl; lia|]. lia.
  - cbn [parts_loop]. rewrite (proj2 (Nat.leb_le s0 e)) by auto.
    assert (hmp : (1 < length ss)%nat).
    { unfold ss in *. destruct sizes as [|s1 sizes]; [simpl in h2; lia|simpl; lia]. }
    rewrite (nth_err ss 1 0%nat hmp). rewrite hs0, <- list_sum_firstn_S by auto.
    assert (hown : owner ss e 1) by (split; [auto|lia]).
    destruct (parts_loop_spec ss els 1 e hpos hst hown) as [ps [p1 [p2 p3]]]; [intros; apply hr; right; auto|].
    rewrite p1. cbn [rbind]. exists (1%nat :: ps). split; [reflexivity|]. split; [simpl; lia|].
    intros t ht. destruct t as [|t]; [exact hown|]. apply p3. simpl in ht. lia.
Qed.

(** ** nodes of the contact element *)

Lemma stepwise_tail e els : stepwise (e :: els) -> stepwise els.
Proof. intros h t ht. apply (h (S t)). simpl. lia. Qed.

(** in a stepwise history the loop index follows the element *)
Lemma stepwise_ge (els : list nat) : forall e0, stepwise (e0 :: els) -> forall e, In e els -> (e0 <= e)%nat.
Proof.
  induction els as [|f els IH]; intros e0 hst e he; [destruct he|].
  pose proof (hst 0%nat ltac:(simpl; lia)) as h0. cbn [nth] in h0.
  destruct he as [->|he]; [lia|]. pose proof (IH f (stepwise_tail _ _ hst) e he). lia.
Qed.

Lemma first_occ_in (els : list nat) : forall seen e, In e (first_occurrences seen els) -> In e els /\ ~ In e seen.
Proof.
  induction els as [|f els IH]; intros seen e h; simpl in h; [destruct h|].
  destruct (memb f seen) eqn:em.
  - destruct (IH _ _ h). split; [right|]; auto.
  - destruct h as [->|h]; [split; [left; auto|apply memb_false; auto]|]. destruct (IH _ _ h) as [h1 h2]. split; [right; auto|]. intros hc. apply h2. right. auto.
Qed.

(** invariant: [done] occurrences have been emitted, the last one being the current element *)
Lemma node_loop_spec (f : nat -> nat * nat) (els : list nat) : forall done cur seen,
  stepwise (cur :: els) -> In cur seen -> (forall s, In s seen -> (s <= cur)%nat) ->
  node_indices_loop (done ++ cur :: first_occurrences seen els) (map f (done ++ cur :: first_occurrences seen els))
    (S (length done)) els = map f els.
Proof.
  induction els as [|e els IH]; intros done cur seen hst hin hmax; [reflexivity|].
  pose proof (hst 0%nat ltac:(simpl; lia)) as h0. cbn [nth] in h0.
  cbn [node_indices_loop first_occurrences map].
  destruct (Nat.eq_dec e cur) as [->|hne].
  - assert (hm : memb cur seen = true) by (apply memb_In; auto). rewrite hm.
    set (u := done ++ cur :: first_occurrences seen els).
    assert (hno : (Nat.ltb (S (length done)) (length u) && Nat.eqb cur (nth (S (length done)) u 0%nat))%bool = false).
    { destruct (Nat.ltb_spec (S (length done)) (length u)) as [hl|hl]; auto. cbn [andb].
      destruct (Nat.eqb_spec cur (nth (S (length done)) u 0%nat)) as [hc|]; auto. exfalso.
      unfold u in hc, hl. rewrite app_nth2 in hc by lia. replace (S (length done) - length done)%nat with 1%nat in hc by lia.
      cbn [nth] in hc. rewrite app_length in hl. simpl in hl.
      destruct (first_occurrences seen els) as [|w ws] eqn:ew; [simpl in hl; lia|]. cbn [nth] in hc. subst w.
      destruct (first_occ_in els seen cur) as [_ hcn]; [rewrite ew; left; auto|]. auto. }
    rewrite hno. f_equal.
    + unfold u. rewrite map_app. rewrite app_nth2 by (rewrite map_length; lia). rewrite map_length, Nat.sub_diag. reflexivity.
    + apply IH; auto. intros t ht. destruct t as [|t]; [exact (hst 1%nat ltac:(simpl in *; lia))|]. exact (hst (S (S t)) ltac:(simpl in *; lia)).
  - assert (he : e = S cur) by lia.
    assert (hm : memb e seen = false) by (apply memb_false; intros hc; specialize (hmax e hc); lia). rewrite hm.
    set (u := done ++ cur :: e :: first_occurrences (e :: seen) els).
    assert (hyes : (Nat.ltb (S (length done)) (length u) && Nat.eqb e (nth (S (length done)) u 0%nat))%bool = true).
    { unfold u. rewrite app_nth2 by lia. replace (S (length done) - length done)%nat with 1%nat by lia. cbn [nth].
      rewrite Nat.eqb_refl, andb_true_r. apply Nat.ltb_lt. rewrite app_length. simpl. lia. }
    rewrite hyes.
    assert (hu : u = (done ++ [cur]) ++ e :: first_occurrences (e :: seen) els) by (unfold u; rewrite <- app_assoc; reflexivity).
    f_equal.
    + rewrite hu, map_app. rewrite app_nth2 by (rewrite map_length, app_length; simpl; lia).
      rewrite map_length, app_length. simpl length. replace (S (length done) - (length done + 1))%nat with 0%nat by lia. reflexivity.
    + rewrite hu. replace (S (S (length done))) with (S (length (done ++ [cur]))) by (rewrite app_length; simpl; lia).
      apply IH; [exact (stepwise_tail _ _ hst)|left; auto|]. intros s [->|hs]; [lia|]. specialize (hmax s hs). lia.
Qed.

Lemma contact_nodes_spec (elements : list (nat * nat)) (els : list nat) : stepwise els ->
  contact_nodes elements els = map (fun e => nth e elements (0, 0)%nat) els.
Proof.
  intros hst. unfold contact_nodes. destruct els as [|e els]; [reflexivity|].
  set (f := fun e => nth e elements (0, 0)%nat).
  assert (hu : first_occurrences [] (e :: els) = e :: first_occurrences [e] els) by reflexivity. rewrite hu.
  assert (hin : In e [e]) by (left; auto).
  assert (hmax : forall s, In s [e] -> (s <= e)%nat) by (intros s [->|[]]; lia).
  pose proof (node_loop_spec f els [] e [e] hst hin hmax) as g. cbn [app length] in g.
  change (map f (e :: els)) with (f e :: map f els). rewrite <- g.
  cbn [node_indices_loop length nth Nat.ltb Nat.leb]. rewrite Nat.eqb_refl. cbn [andb]. reflexivity.
Qed.
