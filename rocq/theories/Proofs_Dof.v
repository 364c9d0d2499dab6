From Coq Require Import Reals List Bool ZArith Arith Lia Lra Sorting.Sorted.
From Verif Require Import Num PyBase Model_Geometry Model_System Spec_System.
Import ListNotations.

(** ** numbering (C06) *)

Lemma number_from_nth (ns : list (node R)) s p n :
  nth_error ns p = Some n ->
  nth_error (number_from s ns) p =
  Some (with_dof n (T3 (Some (s + 3 * p)) (Some (s + 3 * p + 1)) (Some (s + 3 * p + 2)))).
Proof.
  revert s p. induction ns as [|a ns IH]; intros s [|p] hp; simpl in *; try discriminate.
  - injection hp as ->. unfold with_dof. do 3 f_equal; f_equal; lia.
  - rewrite (IH _ p hp). unfold with_dof. do 3 f_equal; f_equal; lia.
Qed.

Lemma number_from_length (ns : list (node R)) s : length (number_from s ns) = length ns.
Proof. revert s; induction ns; simpl; auto. Qed.

Lemma number_from_all (ns : list (node R)) s : all_numbers (number_from s ns) = seq s (3 * length ns).
Proof.
  revert s. induction ns as [|a ns IH]; intros s; [reflexivity|].
  unfold all_numbers in *. cbn [number_from flat_map length].
  rewrite IH. replace (3 * S (length ns)) with (S (S (S (3 * length ns)))) by lia. reflexivity.
Qed.

Lemma total_ndof (ns : list (node R)) k :
  fold_left (fun ndof n => (ndof + length (tlist (n_dof n)))%nat) ns k = (k + 3 * length ns)%nat.
Proof. revert k. induction ns as [|a ns IH]; intros k; cbn [fold_left length tlist]; [lia|]. rewrite IH. cbn. lia. Qed.

Lemma ndof_numbering (ns : list (node R)) :
  let (ns', n) := initialise_ndof ns in
  n = (3 * length ns)%nat /\ length ns' = length ns /\ numbered ns' n /\
  (forall p a, nth_error ns p = Some a ->
     exists b, nth_error ns' p = Some b /\ same_identity a b /\ n_flag b = n_flag a /\
               n_dof b = T3 (Some (3 * p)) (Some (3 * p + 1)) (Some (3 * p + 2))) /\
  (forall p d q e k, number_of ns' p d = Some k -> number_of ns' q e = Some k -> p = q /\ d = e) /\
  (forall k, (k < n)%nat -> exists p d, number_of ns' p d = Some k).
Proof.
  unfold initialise_ndof. rewrite total_ndof. simpl (0 + _).
  assert (hn : forall p a, nth_error ns p = Some a ->
     nth_error (number_from 0 ns) p = Some (with_dof a (T3 (Some (3 * p)) (Some (3 * p + 1)) (Some (3 * p + 2))))).
  { intros p a hp. rewrite (number_from_nth ns 0 p a hp). reflexivity. }
  assert (hnum : forall p d k, number_of (number_from 0 ns) p d = Some k -> k = (3 * p + dir_idx d)%nat /\ (p < length ns)%nat).
  { intros p d k. unfold number_of. destruct (nth_error ns p) as [a|] eqn:ea.
    - rewrite (hn p a ea). intros hk. split.
      + destruct d; simpl in hk; injection hk as <-; simpl; lia.
      + apply nth_error_Some. rewrite ea. discriminate.
    - rewrite (proj2 (nth_error_None (number_from 0 ns) p)); [discriminate|].
      rewrite number_from_length. apply nth_error_None. assumption. }
  repeat split; try lia.
  - apply number_from_length.
  - unfold numbered. rewrite number_from_all. reflexivity.
  - intros p a hp. eexists. split; [apply hn; eassumption|]. repeat split.
  - intros. destruct (hnum _ _ _ H) as [h1 _]. destruct (hnum _ _ _ H0) as [h2 _].
    destruct d, e; simpl in *; lia.
  - intros. destruct (hnum _ _ _ H) as [h1 _]. destruct (hnum _ _ _ H0) as [h2 _].
    destruct d, e; simpl in *; auto; lia.
  - intros k hk. pose proof (Nat.div_mod k 3 ltac:(lia)). pose proof (Nat.mod_upper_bound k 3 ltac:(lia)).
    assert (hq : (k / 3 < length ns)%nat) by (apply Nat.div_lt_upper_bound; lia).
    destruct (nth_error ns (k / 3)) as [a|] eqn:ea; [|apply nth_error_None in ea; lia].
    assert (hm : (k mod 3 = 0 \/ k mod 3 = 1 \/ k mod 3 = 2)%nat) by lia.
    exists (k / 3)%nat, (match k mod 3 with 0%nat => DX | 1%nat => DY | _ => DR end).
    unfold number_of. rewrite (hn _ a ea). destruct hm as [hm|[hm|hm]]; rewrite hm;
      cbn [tget with_dof n_dof tx ty tr]; f_equal; lia.
Qed.

(** ** masks and survivors *)

Lemma fold_lset_nth (idx : list nat) (m : list bool) i :
  nth_error (fold_left (fun m i => lset m i false) idx m) i =
  (if memb i idx then (if Nat.ltb i (length m) then Some false else None) else nth_error m i).
Proof.
  revert m. induction idx as [|a idx IH]; intros m; simpl; [reflexivity|].
  rewrite IH, lset_length. unfold memb in *. simpl.
  destruct (Nat.eqb_spec i a) as [->|ne]; simpl.
  - destruct (existsb (Nat.eqb a) idx); auto. destruct (Nat.ltb_spec a (length m)).
    + apply lset_nth_same. assumption.
    + apply nth_error_None. rewrite lset_length. assumption.
  - destruct (existsb (Nat.eqb i) idx); auto. apply lset_nth_other. auto.
Qed.

Lemma fold_lset_length (idx : list nat) (m : list bool) : length (fold_left (fun m i => lset m i false) idx m) = length m.
Proof. revert m. induction idx; intros m; simpl; auto. rewrite IHidx, lset_length. reflexivity. Qed.

Lemma kept_from_filter (mask : list bool) s :
  kept_from s mask = filter (fun i => nth (i - s) mask false) (seq s (length mask)).
Proof.
  revert s. induction mask as [|b mask IH]; intros s; simpl; [reflexivity|].
  rewrite Nat.sub_diag. rewrite IH.
  assert (he : filter (fun i => nth (i - S s) mask false) (seq (S s) (length mask)) =
               filter (fun i => match (i - s)%nat with 0%nat => b | S m => nth m mask false end) (seq (S s) (length mask))).
  { apply filter_ext_in. intros i hi. apply in_seq in hi. replace (i - s)%nat with (S (i - S s)) by lia. reflexivity. }
  destruct b; rewrite he; reflexivity.
Qed.

Definition survivors (n : nat) (idx : list nat) : list nat := filter (fun i => negb (memb i idx)) (seq 0 n).

Lemma delete_mask_kept n idx mask :
  delete_mask n idx = Ok mask -> kept_from 0 mask = survivors n idx.
Proof.
  unfold delete_mask. destruct (forallb _ idx) eqn:e; [|discriminate]. intros h. injection h as <-.
  rewrite kept_from_filter, fold_lset_length, repeat_length. unfold survivors. apply filter_ext_in.
  intros i hi. apply in_seq in hi. rewrite Nat.sub_0_r.
  pose proof (fold_lset_nth idx (repeat true n) i) as hn.
  rewrite repeat_length in hn. destruct (Nat.ltb_spec i n); [|lia].
  destruct (memb i idx) eqn:em.
  - erewrite nth_error_nth by exact hn. reflexivity.
  - assert (hr : nth_error (repeat true n) i = Some true).
    { clear - H. revert i H. induction n as [|n IH]; intros [|i] hi; simpl; try lia; auto. apply IH. lia. }
    rewrite hr in hn. erewrite nth_error_nth by exact hn. reflexivity.
Qed.

Lemma delete_mask_ok n idx : (forall i, In i idx -> (i < n)%nat) -> exists mask, delete_mask n idx = Ok mask.
Proof.
  intros h. unfold delete_mask. eexists. rewrite (proj2 (forallb_forall _ idx)); [reflexivity|].
  intros i hi. apply Nat.ltb_lt. auto.
Qed.

Lemma delete_mask_err n idx : (exists i, In i idx /\ (n <= i)%nat) -> delete_mask n idx = Err ErrIndex.
Proof.
  intros [i [h1 h2]]. unfold delete_mask. destruct (forallb _ idx) eqn:e; auto.
  rewrite forallb_forall in e. specialize (e i h1). apply Nat.ltb_lt in e. lia.
Qed.

Lemma survivors_nil n : survivors n [] = seq 0 n.
Proof. unfold survivors. generalize 0. induction n as [|n IH]; intros s; simpl; auto. rewrite IH. reflexivity. Qed.

Lemma survivors_split n idx k :
  (k < n)%nat -> memb k idx = false ->
  survivors n idx = survivors k idx ++ k :: filter (fun i => negb (memb i idx)) (seq (S k) (n - k - 1)).
Proof.
  intros hk hm. unfold survivors. replace n with (k + S (n - k - 1))%nat at 1 by lia.
  rewrite seq_app, filter_app. simpl. rewrite hm. reflexivity.
Qed.

Lemma survivors_rank n idx k :
  (k < n)%nat -> ~ In k idx ->
  nth_error (survivors n idx) (survivors_below idx k) = Some k.
Proof.
  intros hk hm. apply memb_false in hm. rewrite (survivors_split n idx k hk hm).
  rewrite nth_error_app2; unfold survivors_below, survivors; [|lia]. rewrite Nat.sub_diag. reflexivity.
Qed.

Lemma survivors_In n idx k : In k (survivors n idx) <-> (k < n)%nat /\ ~ In k idx.
Proof.
  unfold survivors. rewrite filter_In, in_seq, negb_true_iff, memb_false. intuition lia.
Qed.

Lemma survivors_below_S idx k :
  survivors_below idx (S k) = (survivors_below idx k + (if memb k idx then 0 else 1))%nat.
Proof.
  unfold survivors_below. rewrite seq_S, filter_app, app_length. simpl. destruct (memb k idx); simpl; lia.
Qed.

Lemma survivors_below_mono idx a b : (a <= b)%nat -> (survivors_below idx a <= survivors_below idx b)%nat.
Proof. induction 1; auto. rewrite survivors_below_S. lia. Qed.

Lemma survivors_below_lt idx a b : (a < b)%nat -> ~ In a idx -> (survivors_below idx a < survivors_below idx b)%nat.
Proof.
  intros h hm. apply memb_false in hm. assert (h2 : (S a <= b)%nat) by lia.
  pose proof (survivors_below_mono idx _ _ h2) as h3. rewrite survivors_below_S, hm in h3. lia.
Qed.

Lemma survivors_below_inj idx a b : ~ In a idx -> ~ In b idx -> survivors_below idx a = survivors_below idx b -> a = b.
Proof.
  intros ha hb he. destruct (Nat.lt_trichotomy a b) as [h|[h|h]]; auto.
  - pose proof (survivors_below_lt idx a b h ha). lia.
  - pose proof (survivors_below_lt idx b a h hb). lia.
Qed.

(** ** deletion of rows and columns (C13) *)

Lemma delete_lil_spec (m : mat R) (rows cols : list nat) :
  (forall i, In i rows -> (i < mr m)%nat) -> (forall j, In j cols -> (j < mc m)%nat) ->
  exists m', delete_from_lil m rows cols = Ok m' /\
    mr m' = survivors_below rows (mr m) /\ mc m' = survivors_below cols (mc m) /\
    (forall i j, (i < mr m)%nat -> (j < mc m)%nat -> ~ In i rows -> ~ In j cols ->
       me m' (survivors_below rows i) (survivors_below cols j) = me m i j).
Proof.
  intros hr hc. destruct (delete_mask_ok _ _ hr) as [rm hrm]. destruct (delete_mask_ok _ _ hc) as [cm hcm].
  pose proof (delete_mask_kept _ _ _ hrm) as kr. pose proof (delete_mask_kept _ _ _ hcm) as kc.
  assert (sb_nil : forall k, survivors_below [] k = k).
  { intros k. unfold survivors_below. change (filter (fun i => negb (memb i [])) (seq 0 k)) with (survivors k []).
    rewrite survivors_nil, seq_length. reflexivity. }
  assert (nthr : forall i, (i < mr m)%nat -> ~ In i rows -> nth (survivors_below rows i) (survivors (mr m) rows) 0%nat = i).
  { intros i hi hn. apply nth_error_nth. apply survivors_rank; assumption. }
  assert (nthc : forall j, (j < mc m)%nat -> ~ In j cols -> nth (survivors_below cols j) (survivors (mc m) cols) 0%nat = j).
  { intros i hi hn. apply nth_error_nth. apply survivors_rank; assumption. }
  destruct rows as [|r0 rows]; destruct cols as [|c0 cols]; unfold delete_from_lil; cbn [rbind].
  - exists m. rewrite !sb_nil. split; [reflexivity|]. split; [reflexivity|]. split; [reflexivity|]. intros i j _ _ _ _. rewrite !sb_nil. reflexivity.
  - rewrite hcm. cbn [rbind]. eexists. split; [reflexivity|]. cbn [mr mc me take_cols take_rows].
    rewrite kc, sb_nil. repeat split; auto; intros i j hi hj _ hn; rewrite sb_nil, nthc; auto.
  - rewrite hrm. cbn [rbind]. eexists. split; [reflexivity|]. cbn [mr mc me take_cols take_rows].
    rewrite kr, sb_nil. repeat split; auto; intros i j hi hj hn _; rewrite sb_nil, nthr; auto.
  - rewrite hrm, hcm. cbn [rbind]. eexists. split; [reflexivity|]. cbn [mr mc me take_cols take_rows].
    rewrite kr, kc. repeat split; auto; intros i j hi hj hn hn2; rewrite nthr, nthc; auto.
Qed.

Lemma delete_lil_err (m : mat R) (rows cols : list nat) :
  (exists i, In i rows /\ (mr m <= i)%nat) \/ (exists j, In j cols /\ (mc m <= j)%nat) ->
  delete_from_lil m rows cols = Err ErrIndex.
Proof.
  intros h.
  assert (he : forall n idx mask, delete_mask n idx = Ok mask -> forall i, In i idx -> (i < n)%nat).
  { intros n idx mask. unfold delete_mask. destruct (forallb _ idx) eqn:e; [|discriminate]. intros _ i hi.
    rewrite forallb_forall in e. apply Nat.ltb_lt. auto. }
  assert (he2 : forall n idx e, delete_mask n idx = Err e -> e = ErrIndex).
  { intros n idx e. unfold delete_mask. destruct (forallb _ idx); [discriminate|congruence]. }
  destruct rows as [|r0 rows]; destruct cols as [|c0 cols]; unfold delete_from_lil.
  - destruct h as [[i [[] _]]|[i [[] _]]].
  - destruct h as [[i [[] _]]|[i [h1 h2]]]. rewrite delete_mask_err by eauto. reflexivity.
  - destruct h as [[i [h1 h2]]|[i [[] _]]]. rewrite delete_mask_err by eauto. reflexivity.
  - destruct (delete_mask (mr m) (r0 :: rows)) as [rm|e] eqn:er; cbn [rbind]; [|rewrite (he2 _ _ _ er); reflexivity].
    destruct h as [[i [h1 h2]]|[i [h1 h2]]].
    + pose proof (he _ _ _ er i h1). lia.
    + rewrite delete_mask_err by eauto. reflexivity.
Qed.

Lemma delete_vec_spec (v : list R) (rows : list nat) :
  (forall i, In i rows -> (i < length v)%nat) ->
  exists v', delete_from_vec v rows = Ok v' /\ length v' = survivors_below rows (length v) /\
    (forall i x, nth_error v i = Some x -> ~ In i rows -> nth_error v' (survivors_below rows i) = Some x).
Proof.
  intros hr. destruct (delete_mask_ok _ _ hr) as [rm hrm]. pose proof (delete_mask_kept _ _ _ hrm) as kr.
  assert (sb_nil : forall k, survivors_below [] k = k).
  { intros k. unfold survivors_below. change (filter (fun i => negb (memb i [])) (seq 0 k)) with (survivors k []).
    rewrite survivors_nil, seq_length. reflexivity. }
  destruct rows as [|r0 rows]; unfold delete_from_vec.
  - exists v. rewrite sb_nil. repeat split; auto. intros i x hx _. rewrite sb_nil. assumption.
  - rewrite hrm. cbn [rbind]. eexists. split; [reflexivity|]. rewrite map_length, kr. split; [reflexivity|].
    intros i x hx hn. rewrite nth_error_map, survivors_rank; auto.
    + simpl. f_equal. apply nth_error_nth. assumption.
    + apply nth_error_Some. rewrite hx. discriminate.
Qed.

(** ** renumbering (C07) *)

Fixpoint renum (removed : list nat) (j : nat) (os : list (option nat)) : list (option nat) :=
  match os with
  | [] => []
  | None :: r => None :: renum removed j r
  | Some k :: r => if memb k removed then None :: renum removed j r else Some j :: renum removed (S j) r
  end.
Fixpoint rcount (removed : list nat) (os : list (option nat)) : nat :=
  match os with
  | [] => 0
  | None :: r => rcount removed r
  | Some k :: r => if memb k removed then rcount removed r else S (rcount removed r)
  end.

Lemma renum_app removed j a b : renum removed j (a ++ b) = renum removed j a ++ renum removed (j + rcount removed a) b.
Proof.
  revert j. induction a as [|[k|] a IH]; intros j; simpl.
  - f_equal. lia.
  - destruct (memb k removed); simpl; rewrite IH; auto.
    replace (j + S (rcount removed a)) with (S j + rcount removed a) by lia. reflexivity.
  - rewrite IH. reflexivity.
Qed.
Lemma rcount_app removed a b : rcount removed (a ++ b) = (rcount removed a + rcount removed b)%nat.
Proof. induction a as [|[k|] a IH]; simpl; auto. destruct (memb k removed); simpl; lia. Qed.
Lemma renum_length removed j a : length (renum removed j a) = length a.
Proof. revert j. induction a as [|[k|] a IH]; intros j; simpl; auto. destruct (memb k removed); simpl; auto. Qed.

Definition opts (ns : list (node R)) : list (option nat) := flat_map (fun n => tlist (n_dof n)) ns.

Lemma recalc_node_spec removed j (n : node R) :
  let (j', n') := recalc_node removed j n in
  j' = (j + rcount removed (tlist (n_dof n)))%nat /\ tlist (n_dof n') = renum removed j (tlist (n_dof n)) /\
  same_identity n n' /\
  (forall d, tget (n_flag n') d = (tget (n_flag n) d && match tget (n_dof n') d with Some _ => true | None => false end)%bool).
Proof.
  destruct n as [id idx [ox oy or_] c [fx fy fr] ps]. unfold recalc_node, tlist. cbn [n_dof tx ty tr].
  destruct ox as [kx|], oy as [ky|], or_ as [kr|]; cbn;
    repeat match goal with |- context [memb ?k removed] => destruct (memb k removed) end; cbn;
    (split; [lia|split; [reflexivity|split; [repeat split|]]]);
    intros []; cbn; destruct fx, fy, fr; reflexivity.
Qed.

Lemma recalc_from_spec removed j (ns : list (node R)) :
  let (j', ns') := recalc_from removed j ns in
  j' = (j + rcount removed (opts ns))%nat /\ opts ns' = renum removed j (opts ns) /\
  Forall2 (fun n n' => same_identity n n' /\
     forall d, tget (n_flag n') d = (tget (n_flag n) d && match tget (n_dof n') d with Some _ => true | None => false end)%bool) ns ns'.
Proof.
  revert j. induction ns as [|n ns IH]; intros j; cbn [recalc_from].
  - simpl. split; [lia|]. split; auto.
  - pose proof (recalc_node_spec removed j n) as hn. destruct (recalc_node removed j n) as [j1 n'].
    specialize (IH j1). destruct (recalc_from removed j1 ns) as [j2 ns']. 
    destruct hn as [h1 [h2 [h3 h4]]]. destruct IH as [g1 [g2 g3]].
    unfold opts in *. cbn [flat_map]. rewrite rcount_app, renum_app. split; [lia|]. split.
    + rewrite h2, g2. subst j1. reflexivity.
    + constructor; auto.
Qed.

Definition somes (os : list (option nat)) : list nat := flat_map (fun o => match o with Some k => [k] | None => [] end) os.

Lemma all_numbers_opts (ns : list (node R)) : all_numbers ns = somes (opts ns).
Proof.
  unfold all_numbers, somes, opts. induction ns as [|n ns IH]; [reflexivity|]. cbn [flat_map].
  rewrite flat_map_app, IH. reflexivity.
Qed.

Lemma opts_nth (ns : list (node R)) p d :
  number_of ns p d = match nth_error (opts ns) (3 * p + dir_idx d) with Some o => o | None => None end.
Proof.
  unfold number_of, opts. revert p. induction ns as [|n ns IH]; intros p.
  - replace (nth_error (@nil (node R)) p) with (@None (node R)) by (destruct p; reflexivity).
    simpl. destruct (p + (p + (p + 0)) + dir_idx d)%nat; reflexivity.
  - destruct p as [|p].
    + destruct d; reflexivity.
    + cbn [nth_error flat_map tlist app]. replace (3 * S p + dir_idx d)%nat with (S (S (S (3 * p + dir_idx d)))) by lia.
      cbn [nth_error]. apply IH.
Qed.

(** numbers in order: the new number of an entry is the number of survivors below its old number *)
Lemma renum_seq removed os s m j :
  somes os = seq s m ->
  (forall p k, nth_error os p = Some (Some k) ->
     nth_error (renum removed j os) p =
       Some (if memb k removed then None else Some (j + (survivors_below removed k - survivors_below removed s))%nat)
     /\ (s <= k < s + m)%nat) /\
  (forall p, nth_error os p = Some None -> nth_error (renum removed j os) p = Some None) /\
  rcount removed os = (survivors_below removed (s + m) - survivors_below removed s)%nat /\
  somes (renum removed j os) = seq j (rcount removed os).
Proof.
  revert s m j. induction os as [|[k|] os IH]; intros s m j hs; simpl in hs.
  - destruct m; [|discriminate]. rewrite Nat.add_0_r, Nat.sub_diag. repeat split; intros;
      try (destruct p; discriminate).
  - destruct m as [|m]; [discriminate|]. simpl in hs. injection hs as -> hs.
    pose proof (survivors_below_S removed s) as hS.
    pose proof (survivors_below_mono removed s (S s)) as hm1.
    pose proof (survivors_below_mono removed (S s) (S s + m)) as hm2.
    replace (s + S m)%nat with (S s + m)%nat by lia.
    assert (hmono : forall k, (S s <= k)%nat -> (survivors_below removed (S s) <= survivors_below removed k)%nat)
      by (intros; apply survivors_below_mono; assumption).
    destruct (memb s removed) eqn:em.
    + destruct (IH (S s) m j hs) as [h1 [h2 [h3 h4]]].
      cbn [renum rcount somes flat_map]. rewrite em. repeat split.
      * destruct p as [|p]; simpl in H.
        -- injection H as <-. rewrite em. reflexivity.
        -- simpl. destruct (h1 p k H) as [-> hk]. destruct (memb k removed); auto. do 3 f_equal. lia.
      * destruct p as [|p]; simpl in H; [injection H as <-; lia|]. destruct (h1 p k H). lia.
      * destruct p as [|p]; simpl in H; [injection H as <-; lia|]. destruct (h1 p k H). lia.
      * intros [|p] hp; simpl in *; [discriminate|auto].
      * rewrite h3. lia.
      * exact h4.
    + destruct (IH (S s) m (S j) hs) as [h1 [h2 [h3 h4]]].
      cbn [renum rcount somes flat_map]. rewrite em. repeat split.
      * destruct p as [|p]; simpl in H.
        -- injection H as <-. rewrite em. simpl. do 2 f_equal. lia.
        -- simpl. destruct (h1 p k H) as [-> hk]. destruct (memb k removed); auto. do 2 f_equal.
           pose proof (hmono k). lia.
      * destruct p as [|p]; simpl in H; [injection H as <-; lia|]. destruct (h1 p k H). lia.
      * destruct p as [|p]; simpl in H; [injection H as <-; lia|]. destruct (h1 p k H). lia.
      * intros [|p] hp; simpl in *; [discriminate|auto].
      * rewrite h3. lia.
      * simpl. f_equal. exact h4.
  - destruct (IH s m j hs) as [h1 [h2 [h3 h4]]]. cbn [renum rcount somes flat_map]. repeat split.
    + destruct p as [|p]; simpl in H; [discriminate|]. apply (h1 p k H).
    + destruct p as [|p]; simpl in H; [discriminate|]. apply (h1 p k H).
    + destruct p as [|p]; simpl in H; [discriminate|]. apply (h1 p k H).
    + intros [|p] hp; simpl in *; auto.
    + exact h3.
    + exact h4.
Qed.

Lemma Forall2_nth {A B} (P : A -> B -> Prop) l l' p a :
  Forall2 P l l' -> nth_error l p = Some a -> exists b, nth_error l' p = Some b /\ P a b.
Proof.
  intros h. revert p. induction h; intros [|p] hp; simpl in *; try discriminate.
  - injection hp as ->. eauto.
  - eauto.
Qed.
Lemma Forall2_nth_none {A B} (P : A -> B -> Prop) l l' p :
  Forall2 P l l' -> nth_error l p = None -> nth_error l' p = None.
Proof. intros h. revert p. induction h; intros [|p] hp; simpl in *; try discriminate; auto. Qed.

Lemma recalc_spec (removed : list nat) (ns : list (node R)) (n : nat) :
  numbered ns n ->
  let (ns', n') := recalculate_dof removed ns in
  n' = survivors_below removed n /\ length ns' = length ns /\ numbered ns' n' /\
  (forall p d k, number_of ns p d = Some k -> ~ In k removed ->
     number_of ns' p d = Some (survivors_below removed k) /\ active ns' p d = active ns p d) /\
  (forall p d k, number_of ns p d = Some k -> In k removed -> number_of ns' p d = None /\ active ns' p d = false) /\
  (forall p d, number_of ns p d = None -> number_of ns' p d = None /\ active ns' p d = false) /\
  (forall p a, nth_error ns p = Some a -> exists b, nth_error ns' p = Some b /\ same_identity a b).
Proof.
  intros hn. unfold recalculate_dof. pose proof (recalc_from_spec removed 0 ns) as hr.
  destruct (recalc_from removed 0 ns) as [j ns']. destruct hr as [h1 [h2 h3]].
  unfold numbered in hn. rewrite all_numbers_opts in hn.
  destruct (renum_seq removed (opts ns) 0 n 0 hn) as [r1 [r2 [r3 r4]]].
  rewrite r3 in h1. change (survivors_below removed 0) with 0%nat in *. simpl (0 + _) in *. rewrite Nat.sub_0_r in *.
  assert (hact : forall p d, active ns' p d = (active ns p d && match number_of ns' p d with Some _ => true | None => false end)%bool).
  { intros p d. unfold active, number_of. destruct (nth_error ns p) as [a|] eqn:ea.
    - destruct (Forall2_nth _ _ _ _ _ h3 ea) as [b [hb [_ hf]]]. rewrite hb. apply hf.
    - rewrite (Forall2_nth_none _ _ _ _ h3 ea). reflexivity. }
  assert (hsome : forall p d k, number_of ns p d = Some k -> nth_error (opts ns) (3 * p + dir_idx d) = Some (Some k)).
  { intros p d k. rewrite opts_nth. destruct (nth_error (opts ns) (3 * p + dir_idx d)) as [o|]; congruence. }
  split; [lia|]. split; [|split; [|split; [|split; [|split]]]].
  - clear - h3. induction h3; simpl; auto.
  - unfold numbered. rewrite all_numbers_opts, h2, r4, r3. f_equal. lia.
  - intros p d k hk hm. pose proof (r1 _ _ (hsome _ _ _ hk)) as [hx _]. apply memb_false in hm. rewrite hm in hx.
    assert (hk' : number_of ns' p d = Some (survivors_below removed k)).
    { rewrite opts_nth, h2, hx. f_equal. lia. }
    split; auto. rewrite hact, hk', andb_true_r. reflexivity.
  - intros p d k hk hm. pose proof (r1 _ _ (hsome _ _ _ hk)) as [hx _]. apply memb_In in hm. rewrite hm in hx.
    assert (hk' : number_of ns' p d = None) by (rewrite opts_nth, h2, hx; reflexivity).
    split; auto. rewrite hact, hk', andb_false_r. reflexivity.
  - intros p d hk.
    assert (hk' : number_of ns' p d = None).
    { rewrite opts_nth in *. rewrite h2. destruct (nth_error (opts ns) (3 * p + dir_idx d)) as [o|] eqn:eo.
      - subst o. rewrite (r2 _ eo). reflexivity.
      - rewrite (proj2 (nth_error_None _ _)); auto. rewrite renum_length. apply nth_error_None. assumption. }
    split; auto. rewrite hact, hk', andb_false_r. reflexivity.
  - intros p a ha. destruct (Forall2_nth _ _ _ _ _ h3 ha) as [b [hb [hf _]]]. eauto.
Qed.

Lemma all_numbers_In (ns : list (node R)) k : In k (all_numbers ns) <-> exists p d, number_of ns p d = Some k.
Proof.
  unfold all_numbers. rewrite in_flat_map. split.
  - intros [x [hx hk]]. apply In_nth_error in hx. destruct hx as [p hp].
    destruct x as [id idx [ox oy or_] c f ps]. simpl in hk.
    assert (hc : ox = Some k \/ oy = Some k \/ or_ = Some k).
    { destruct ox, oy, or_; simpl in hk; intuition congruence. }
    destruct hc as [ -> | [ -> | -> ] ]; [exists p, DX|exists p, DY|exists p, DR]; unfold number_of; rewrite hp; reflexivity.
  - intros [p [d h]]. unfold number_of in h. destruct (nth_error ns p) as [x|] eqn:ex; [|discriminate].
    exists x. split; [eapply nth_error_In; eauto|].
    destruct x as [id idx [ox oy or_] c f ps]. simpl. rewrite !in_app_iff.
    destruct d; simpl in h; rewrite h; simpl; auto.
Qed.

Lemma numbered_lt (ns : list (node R)) n p d k : numbered ns n -> number_of ns p d = Some k -> (k < n)%nat.
Proof.
  intros hn hk. assert (h : In k (all_numbers ns)) by (apply all_numbers_In; eauto).
  rewrite hn in h. apply in_seq in h. lia.
Qed.

Lemma trim_consistent (s : gsys R) (ns : list (node R)) (n : nat) (removed : list nat) :
  square n s -> numbered ns n -> (forall k, In k removed -> (k < n)%nat) ->
  exists s', trim_on_indices s removed removed = Ok s' /\
  let (ns', n') := recalculate_dof removed ns in
  square n' s' /\ numbered ns' n' /\ n' = survivors_below removed n /\
  (forall p d k, number_of ns p d = Some k -> In k removed -> number_of ns' p d = None /\ active ns' p d = false) /\
  (forall p d, number_of ns p d = None -> number_of ns' p d = None /\ active ns' p d = false) /\
  (forall p d k, number_of ns p d = Some k -> ~ In k removed ->
     exists k', number_of ns' p d = Some k' /\ (k' < n')%nat /\ active ns' p d = active ns p d /\
       nth_error (gF s') k' = nth_error (gF s) k /\
       forall q e l l', number_of ns q e = Some l -> number_of ns' q e = Some l' ->
         me (gK s') k' l' = me (gK s) k l /\ me (gM s') k' l' = me (gM s) k l /\ me (gC s') k' l' = me (gC s) k l).
Proof.
  intros [a1 [a2 [a3 [a4 [a5 [a6 a7]]]]]] hn hr.
  destruct (delete_lil_spec (gK s) removed removed) as [k' [k1 [k2 [k3 k4]]]]; try (intros; rewrite ?a1, ?a2; auto).
  destruct (delete_lil_spec (gM s) removed removed) as [m' [m1 [m2 [m3 m4]]]]; try (intros; rewrite ?a3, ?a4; auto).
  destruct (delete_lil_spec (gC s) removed removed) as [c' [c1 [c2 [c3 c4]]]]; try (intros; rewrite ?a5, ?a6; auto).
  destruct (delete_vec_spec (gF s) removed) as [f' [f1 [f2 f3]]]; try (intros; rewrite ?a7; auto).
  exists (mkSys k' m' c' f'). unfold trim_on_indices. rewrite k1, m1, c1, f1. cbn [rbind]. split; [reflexivity|].
  pose proof (recalc_spec removed ns n hn) as hrec.
  destruct (recalculate_dof removed ns) as [ns' n']. destruct hrec as [r1 [r2 [r3 [r4 [r5 [r6 _]]]]]].
  rewrite a1, a2, a3, a4, a5, a6, a7 in *.
  split; [|split; [|split; [|split; [|split]]]]; auto.
  - unfold square; cbn [gK gM gC gF]. repeat split; congruence.
  - intros p d k hk hm. destruct (r4 p d k hk hm) as [h1 h2]. exists (survivors_below removed k).
    pose proof (numbered_lt ns n p d k hn hk) as hlt.
    split; auto. split; [eapply numbered_lt; eauto|]. split; auto. cbn [gK gM gC gF]. split.
    + destruct (nth_error (gF s) k) as [x|] eqn:ex; [apply f3; assumption|]. apply nth_error_None in ex. lia.
    + intros q e l l' hl hl'. pose proof (numbered_lt ns n q e l hn hl) as hlt2.
      assert (hml : ~ In l removed) by (intros hc; destruct (r5 q e l hl hc); congruence).
      destruct (r4 q e l hl hml) as [h3 _]. assert (l' = survivors_below removed l) by congruence. subst l'.
      repeat split; auto.
Qed.
