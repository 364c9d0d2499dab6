From Coq Require Import Reals List Bool ZArith Arith Lia Lra Psatz Permutation.
From Verif Require Import Num PyBase Model_Geometry Model_System Model_Element Model_Moving Model_Train
  Spec_Geometry Spec_System Spec_Train Proofs_Geometry Proofs_Dof Proofs_System.
Import ListNotations.
Local Open Scope R_scope.

(** ** numbering (C35) *)

Lemma number_wheels_spec i n : number_wheels i n = (seq i n, (i + n)%nat).
Proof.
  revert i. induction n as [|n IH]; intros i; simpl; [rewrite Nat.add_0_r; reflexivity|].
  rewrite IH. f_equal. lia.
Qed.

Lemma dof_of_None b st : dof_of b st = None <-> ~ In b (map fst st).
Proof.
  induction st as [|[c d] st IH]; simpl; [tauto|]. destruct (Nat.eqb_spec b c) as [->|ne].
  - split; [discriminate|tauto].
  - rewrite IH. intuition congruence.
Qed.

Lemma dof_of_In b d st : NoDup (map fst st) -> (dof_of b st = Some d <-> In (b, d) st).
Proof.
  induction st as [|[c e] st IH]; simpl; intros hd; [split; [discriminate|tauto]|]. inversion hd; subst.
  destruct (Nat.eqb_spec b c) as [->|ne].
  - split; [intros h; injection h as <-; auto|]. intros [h|h]; [congruence|].
    exfalso. apply H1. apply (in_map fst) in h. exact h.
  - rewrite IH by assumption. intuition congruence.
Qed.

Definition entry_ok (tn : train R) (e : nat * bdof) : Prop := length (bd_wheels (snd e)) = n_wheels tn (fst e).

Lemma number_bogies_spec (tn : train R) bs st i st' j :
  number_bogies tn st i bs = (st', j) ->
  exists new, st' = st ++ new /\ (i <= j)%nat /\ flat_map (fun e => bogie_numbers (snd e)) new = seq i (j - i) /\
    (forall b, In b (map fst new) <-> In b bs /\ ~ In b (map fst st)) /\ NoDup (map fst new) /\ Forall (entry_ok tn) new.
Proof.
  revert st i. induction bs as [|b bs IH]; intros st i h; cbn [number_bogies] in h.
  - injection h as <- <-. exists []. rewrite app_nil_r, Nat.sub_diag. simpl. repeat split; auto; try constructor; tauto.
  - unfold number_bogie in h. destruct (dof_of b st) as [d|] eqn:e.
    + destruct (IH _ _ h) as [new [h1 [h2 [h3 [h4 [h5 h6]]]]]]. exists new. repeat split; auto.
      * apply h4 in H. simpl. tauto.
      * apply h4 in H. tauto.
      * intros [hb hn]. apply h4. split; [|assumption]. destruct hb as [->|hb]; [|assumption].
        exfalso. apply dof_of_None in hn. congruence.
    + rewrite number_wheels_spec in h. apply dof_of_None in e.
      destruct (IH _ _ h) as [new [h1 [h2 [h3 [h4 [h5 h6]]]]]].
      eexists (_ :: new). split; [rewrite h1, <- app_assoc; reflexivity|]. split; [lia|]. split; [|split; [|split]].
      * cbn [flat_map snd bogie_numbers bd_y bd_r bd_wheels]. rewrite h3.
        change (length (bg_wheels (bogie_of tn b))) with (n_wheels tn b) in *.
        replace (j - i)%nat with (S (S (n_wheels tn b + (j - (S (S i) + n_wheels tn b)))))%nat by lia.
        cbn [seq]. rewrite seq_app. reflexivity.
      * intros b'. cbn [map fst In]. rewrite h4, map_app, in_app_iff. simpl. split.
        -- intros [->|[h7 h8]]; tauto.
        -- intros [[->|h7] h8]; [auto|]. destruct (Nat.eq_dec b b') as [->|ne]; [auto|]. right. split; [assumption|]. tauto.
      * cbn [map fst]. constructor; [|assumption]. rewrite h4, map_app, in_app_iff. simpl. tauto.
      * constructor; [|assumption]. unfold entry_ok, n_wheels. cbn [snd fst bd_wheels]. apply seq_length.
Qed.

Lemma number_carts_spec (tn : train R) cs st i cd st' j :
  number_carts tn st i cs = (cd, st', j) ->
  exists new, st' = st ++ new /\ (i <= j)%nat /\ length cd = length cs /\
    Permutation (train_numbers cd new) (seq i (j - i)) /\
    (forall b, In b (map fst new) <-> In b (flat_map (@ct_bogies R) cs) /\ ~ In b (map fst st)) /\ NoDup (map fst new) /\ Forall (entry_ok tn) new.
Proof.
  revert st i cd st' j. induction cs as [|c cs IH]; intros st i cd st' j h; cbn [number_carts] in h.
  - injection h as <- <- <-. exists []. rewrite app_nil_r, Nat.sub_diag. simpl. repeat split; auto; try constructor; tauto.
  - destruct (number_bogies tn st (S (S i)) (ct_bogies c)) as [st1 i1] eqn:e1.
    destruct (number_carts tn st1 i1 cs) as [[cd2 st2] j2] eqn:e2. injection h as <- <- <-.
    destruct (number_bogies_spec _ _ _ _ _ _ e1) as [n1 [a1 [a2 [a3 [a4 [a5 a6]]]]]].
    destruct (IH _ _ _ _ _ e2) as [n2 [b1 [b2 [b3 [b4 [b5 [b6 b7]]]]]]].
    exists (n1 ++ n2). split; [rewrite b1, a1, app_assoc; reflexivity|]. split; [lia|]. split; [simpl; lia|]. split; [|split; [|split]].
    + unfold train_numbers in *. cbn [flat_map fst snd app]. rewrite flat_map_app, a3.
      replace (j2 - i)%nat with (S (S ((i1 - S (S i)) + (j2 - i1))))%nat by lia. cbn [seq]. constructor. constructor.
      rewrite seq_app. replace (S (S i) + (i1 - S (S i)))%nat with i1 by lia. rewrite <- b4.
      rewrite app_assoc. rewrite (Permutation_app_comm (flat_map (fun p => [fst p; snd p]) cd2) (seq (S (S i)) (i1 - S (S i)))).
      rewrite <- app_assoc. reflexivity.
    + intros b. rewrite map_app, in_app_iff, a4, b5, a1, map_app. cbn [flat_map]. rewrite !in_app_iff, a4.
      split; [tauto|]. intros [[h1|h1] h2]; [tauto|]. destruct (in_dec Nat.eq_dec b (ct_bogies c)); tauto.
    + rewrite map_app. assert (hd : forall b, In b (map fst n1) -> ~ In b (map fst n2)).
      { intros b hb hb2. apply b5 in hb2. apply (proj2 hb2). rewrite a1, map_app, in_app_iff. auto. }
      clear - a5 b6 hd. induction (map fst n1) as [|x l IHl]; simpl; [assumption|]. inversion a5; subst. constructor.
      * rewrite in_app_iff. intros [h|h]; [auto|]. apply (hd x); simpl; auto.
      * apply IHl; auto. intros b hb. apply hd. simpl. auto.
    + apply Forall_app. auto.
Qed.

Lemma ndof_spec (tn : train R) cd st m :
  initialise_train_ndof tn = (cd, st, m) ->
  length cd = length (tn_carts tn) /\ lists_bogies tn (map fst st) /\
  (forall b d, In (b, d) st -> length (bd_wheels d) = n_wheels tn b) /\
  Permutation (train_numbers cd st) (seq 0 m).
Proof.
  intros h. destruct (number_carts_spec _ _ _ _ _ _ _ h) as [new [h1 [h2 [h3 [h4 [h5 [h6 h7]]]]]]].
  simpl in h1. subst st. rewrite Nat.sub_0_r in h4. split; [assumption|]. split; [|split; [|assumption]].
  - split; [assumption|]. intros b. rewrite h5, in_flat_map. simpl. split; [intros [hh _]; exact hh|intros hh; split; auto].
  - intros b d hin. rewrite Forall_forall in h7. exact (h7 _ hin).
Qed.

Lemma numbers_nodup (tn : train R) cd st m : initialise_train_ndof tn = (cd, st, m) -> NoDup (train_numbers cd st).
Proof. intros h. destruct (ndof_spec _ _ _ _ h) as [_ [_ [_ hp]]]. apply (Permutation_NoDup (Permutation_sym hp)). apply seq_NoDup. Qed.

Lemma numbers_lt (tn : train R) cd st m k : initialise_train_ndof tn = (cd, st, m) -> In k (train_numbers cd st) -> (k < m)%nat.
Proof. intros h hk. destruct (ndof_spec _ _ _ _ h) as [_ [_ [_ hp]]]. apply (Permutation_in _ hp) in hk. apply in_seq in hk. lia. Qed.

Lemma list_sum_flat {A B} (f : B -> nat) (g : A -> list B) (l : list A) :
  list_sum (map f (flat_map g l)) = list_sum (map (fun a => list_sum (map f (g a))) l).
Proof. induction l; simpl; auto. rewrite map_app, list_sum_app. lia. Qed.

Lemma list_sum_perm (a b : list nat) : Permutation a b -> list_sum a = list_sum b.
Proof. induction 1; simpl; lia. Qed.

Lemma list_sum_incl (w : nat -> nat) (bs l : list nat) : NoDup bs -> incl bs l -> (list_sum (map w bs) <= list_sum (map w l))%nat.
Proof.
  revert l. induction bs as [|b bs IH]; intros l hd hi; simpl; [lia|]. inversion hd; subst.
  destruct (in_split b l) as [l1 [l2 ->]]; [apply hi; simpl; auto|].
  assert (h : (list_sum (map w bs) <= list_sum (map w (l1 ++ l2)))%nat).
  { apply IH; auto. intros x hx. assert (hx' : In x (l1 ++ b :: l2)) by (apply hi; simpl; auto).
    apply in_app_iff in hx'. apply in_app_iff. simpl in hx'. destruct hx' as [?|[->|?]]; auto. contradiction. }
  rewrite map_app, list_sum_app in *. simpl. lia.
Qed.

Lemma ndof_count (tn : train R) cd st m :
  initialise_train_ndof tn = (cd, st, m) ->
  m = (2 * length (tn_carts tn) + list_sum (map (fun b => 2 + n_wheels tn b) (map fst st)))%nat /\
  (m <= train_total_n_dof tn)%nat /\
  (NoDup (flat_map (@ct_bogies R) (tn_carts tn)) -> m = train_total_n_dof tn).
Proof.
  intros h. destruct (ndof_spec _ _ _ _ h) as [h1 [h2 [h3 h4]]].
  assert (hm : m = (2 * length (tn_carts tn) + list_sum (map (fun b => 2 + n_wheels tn b) (map fst st)))%nat).
  { apply Permutation_length in h4. rewrite seq_length in h4. rewrite <- h4. unfold train_numbers. rewrite app_length. f_equal.
    - rewrite <- h1. clear. induction cd; simpl; auto. simpl in IHcd. lia.
    - rewrite map_map. clear - h3. induction st as [|[b d] st IH]; cbn [flat_map map list_sum fst snd fold_right]; auto.
      rewrite app_length. cbn [bogie_numbers length]. rewrite (h3 b d) by (simpl; auto).
      rewrite IH by (intros; apply h3; simpl; auto). reflexivity. }
  assert (ht : train_total_n_dof tn = (2 * length (tn_carts tn) + list_sum (map (fun b => 2 + n_wheels tn b) (flat_map (@ct_bogies R) (tn_carts tn))))%nat).
  { rewrite list_sum_flat. unfold train_total_n_dof, cart_active_n_dof, bogie_active_n_dof, n_wheels. clear.
    induction (tn_carts tn) as [|c cs IH]; cbn [map list_sum fold_right length]; auto. unfold list_sum in *. rewrite IH. lia. }
  split; [assumption|]. destruct h2 as [hd hb]. split.
  - rewrite hm, ht. apply Nat.add_le_mono_l. apply list_sum_incl; auto. intros b hin. apply hb in hin. apply in_flat_map. exact hin.
  - intros hn. rewrite hm, ht. f_equal. apply list_sum_perm. apply Permutation_map. apply NoDup_Permutation; auto.
    intros b. rewrite hb, in_flat_map. reflexivity.
Qed.

(** bogies and wheels of the train *)

Lemma unique_by_spec {A} (same : A -> A -> bool) seen l :
  (forall a b, In a (seen ++ l) -> In b (seen ++ l) -> (same a b = true <-> a = b)) ->
  NoDup (unique_by same seen l) /\ forall x, In x (unique_by same seen l) <-> In x l /\ ~ In x seen.
Proof.
  revert seen. induction l as [|x l IH]; intros seen h; cbn [unique_by].
  - split; [constructor|]. simpl. tauto.
  - assert (hx : existsb (same x) seen = true <-> In x seen).
    { rewrite existsb_exists. split.
      - intros [y [hy he]]. apply h in he; [congruence| |]; apply in_app_iff; simpl; auto.
      - intros hin. exists x. split; auto. apply h; auto; apply in_app_iff; simpl; auto. }
    destruct (existsb (same x) seen) eqn:e.
    + assert (hin : In x seen) by (apply hx; reflexivity).
      destruct (IH seen) as [g1 g2]; [intros a b ha hb; apply h; apply in_app_iff; [apply in_app_iff in ha|apply in_app_iff in hb]; simpl; tauto|].
      split; auto. intros y. rewrite g2. simpl. split; [tauto|]. intros [[->|?] ?]; tauto.
    + assert (hin : ~ In x seen) by (intros hc; apply hx in hc; discriminate).
      destruct (IH (seen ++ [x])) as [g1 g2].
      { intros a b ha hb. apply h; [rewrite <- app_assoc in ha; exact ha|rewrite <- app_assoc in hb; exact hb]. }
      split.
      * constructor; auto. rewrite g2, in_app_iff. simpl. tauto.
      * intros y. cbn [In]. rewrite g2, in_app_iff. simpl. split.
        -- intros [->|[? ?]]; tauto.
        -- intros [[->|hy] hs]; auto. assert (hdec : x = y \/ x <> y).
           { pose proof (h x y) as hh. rewrite !in_app_iff in hh. simpl in hh. destruct (same x y) eqn:es.
             - left. apply hh; auto.
             - right. intros ->. assert (false = true) by (apply hh; auto). discriminate. }
           destruct hdec as [->|ne]; auto. right. tauto.
Qed.

Lemma same_location (y : R) (a b : R) : coords_equal (T3 a y 0) (T3 b y 0) = true <-> ~ apart a b.
Proof.
  rewrite coords_equal_spec. unfold coincide, apart. cbn [tx ty tr tget]. split.
  - intros h hc. specialize (h DX). cbn [tget tx ty tr] in h. lra.
  - intros h d. destruct d; cbn [tget tx ty tr]; [lra| |]; rewrite Rminus_diag_eq, Rabs_R0 by reflexivity; lra.
Qed.

Lemma get_bogies_spec (tn : train R) (x : nat -> R) :
  (forall a b, In a (flat_map (@ct_bogies R) (tn_carts tn)) -> In b (flat_map (@ct_bogies R) (tn_carts tn)) -> a <> b -> apart (x a) (x b)) ->
  lists_bogies tn (get_bogies tn x).
Proof.
  intros h. destruct (unique_by_spec (fun a b => coords_equal (T3 (x a) (lit 1) (lit 0)) (T3 (x b) (lit 1) (lit 0))) []
    (flat_map (@ct_bogies R) (tn_carts tn))) as [g1 g2].
  - intros a b ha hb. simpl in ha, hb. change (@lit R RNum 0) with 0. rewrite same_location. split.
    + intros hn. destruct (Nat.eq_dec a b); auto. exfalso. apply hn. apply h; auto.
    + intros -> hc. unfold apart in hc. rewrite Rminus_diag_eq, Rabs_R0 in hc by reflexivity. lra.
  - split; [exact g1|]. intros b. unfold get_bogies. rewrite g2, in_flat_map. simpl. split; [intros [hh _]; exact hh|intros hh; split; auto].
Qed.

Lemma get_wheels_spec (tn : train R) (x : nat -> R) (xw : nat * nat -> R) :
  lists_bogies tn (get_bogies tn x) ->
  (forall v w, (exists c, In c (tn_carts tn) /\ In (fst v) (ct_bogies c)) -> (exists c, In c (tn_carts tn) /\ In (fst w) (ct_bogies c)) ->
     (snd v < n_wheels tn (fst v))%nat -> (snd w < n_wheels tn (fst w))%nat -> v <> w -> apart (xw v) (xw w)) ->
  lists_wheels tn (get_wheels tn x xw).
Proof.
  intros [hb1 hb2] h.
  set (all := flat_map (fun b => map (fun i => (b, i)) (seq 0 (length (bg_wheels (bogie_of tn b))))) (get_bogies tn x)).
  assert (hall : forall w, In w all <-> (exists c, In c (tn_carts tn) /\ In (fst w) (ct_bogies c)) /\ (snd w < n_wheels tn (fst w))%nat).
  { intros [b i]. unfold all. rewrite in_flat_map. cbn [fst snd]. split.
    - intros [b' [h1 h2]]. apply in_map_iff in h2. destruct h2 as [i' [h2 h3]]. injection h2 as -> ->. apply in_seq in h3.
      split; [apply hb2; assumption|unfold n_wheels; lia].
    - intros [h1 h2]. exists b. split; [apply hb2; assumption|]. apply in_map_iff. exists i. split; auto. apply in_seq. unfold n_wheels in h2. lia. }
  destruct (unique_by_spec (fun a b => coords_equal (T3 (xw a) (lit 0) (lit 0)) (T3 (xw b) (lit 0) (lit 0))) [] all) as [g1 g2].
  - intros a b ha hb. simpl in ha, hb. change (@lit R RNum 0) with 0. rewrite same_location. apply hall in ha. apply hall in hb. split.
    + intros hn. assert (hdec : a = b \/ a <> b) by (destruct a, b; destruct (Nat.eq_dec n n1), (Nat.eq_dec n0 n2); [left; congruence|right; congruence..]).
      destruct hdec as [|ne]; auto. exfalso. apply hn. apply h; tauto.
    + intros -> hc. unfold apart in hc. rewrite Rminus_diag_eq, Rabs_R0 in hc by reflexivity. lra.
  - split; [exact g1|]. intros b i. unfold get_wheels. fold all. rewrite g2, hall. cbn [fst snd In]. tauto.
Qed.

Lemma nth_error_In_flat {A B} (f : A -> list B) l a x : In a l -> In x (f a) -> In x (flat_map f l).
Proof. intros. apply in_flat_map. eauto. Qed.

Lemma dof_get_entry (tn : train R) cd st m b :
  initialise_train_ndof tn = (cd, st, m) -> (exists c, In c (tn_carts tn) /\ In b (ct_bogies c)) ->
  dof_of b st = Some (dof_get st b) /\ In (b, dof_get st b) st /\ length (bd_wheels (dof_get st b)) = n_wheels tn b.
Proof.
  intros h hb. destruct (ndof_spec _ _ _ _ h) as [h1 [[h2 h2'] [h3 h4]]].
  assert (hin : In b (map fst st)) by (apply h2'; assumption).
  unfold dof_get. destruct (dof_of b st) as [d|] eqn:e.
  - split; auto. assert (hd : In (b, d) st) by (apply dof_of_In; assumption). split; auto.
  - apply dof_of_None in e. contradiction.
Qed.

Lemma entry_numbers (cd : list (nat * nat)) st b d k : In (b, d) st -> In k (bogie_numbers d) -> In k (train_numbers cd st).
Proof. intros h1 h2. unfold train_numbers. apply in_app_iff. right. apply in_flat_map. exists (b, d). auto. Qed.

Lemma NoDup_concat_inj {A} (f : A -> list nat) (l : list A) a b k :
  NoDup (flat_map f l) -> In a l -> In b l -> In k (f a) -> In k (f b) -> a = b.
Proof.
  induction l as [|x l IH]; cbn [flat_map]; intros hd ha hb hka hkb; [destruct ha|].
  assert (hdis : forall k, In k (f x) -> ~ In k (flat_map f l)).
  { clear - hd. induction (f x) as [|y r IHr]; simpl in *; [tauto|]. inversion hd; subst. intros k [->|hk].
    - intros hc. apply H1. apply in_app_iff. auto.
    - apply IHr; assumption. }
  destruct ha as [->|ha], hb as [->|hb]; auto.
  - exfalso. apply (hdis k hka). apply in_flat_map. eauto.
  - exfalso. apply (hdis k hkb). apply in_flat_map. eauto.
  - apply IH; auto. apply NoDup_app_r in hd. assumption.
Qed.

Lemma contact_dofs_spec (tn : train R) cd st m ws :
  initialise_train_ndof tn = (cd, st, m) -> lists_wheels tn ws ->
  length (contact_dofs st ws) = length ws /\ NoDup (contact_dofs st ws) /\
  (forall q b i, nth_error ws q = Some (b, i) -> nth_error (contact_dofs st ws) q = nth_error (bd_wheels (dof_get st b)) i) /\
  (forall k, In k (contact_dofs st ws) <-> exists b d, In (b, d) st /\ In k (bd_wheels d)).
Proof.
  intros h [hw1 hw2].
  assert (hone : forall b i, In (b, i) ws -> exists k, nth_error (bd_wheels (dof_get st b)) i = Some k /\ dof_of b st = Some (dof_get st b) /\ In (b, dof_get st b) st).
  { intros b i hin. apply hw2 in hin. destruct hin as [hb hi]. destruct (dof_get_entry _ _ _ _ _ h hb) as [e1 [e2 e3]].
    destruct (nth_error (bd_wheels (dof_get st b)) i) as [k|] eqn:ek; [eauto|]. apply nth_error_None in ek. lia. }
  assert (hmap : contact_dofs st ws = map (fun w => nth (snd w) (bd_wheels (dof_get st (fst w))) 0%nat) ws).
  { clear hw1 hw2. unfold contact_dofs. induction ws as [|[b i] ws IH]; cbn [flat_map map]; auto.
    destruct (hone b i) as [k [h1 [h2 _]]]; [simpl; auto|]. cbn [fst snd]. rewrite h2, h1. cbn [app].
    rewrite IH by (intros; apply hone; simpl; auto). f_equal. symmetry. apply nth_error_nth. assumption. }
  assert (hnum : NoDup (flat_map (fun e => bogie_numbers (snd e)) st)).
  { pose proof (numbers_nodup _ _ _ _ h) as hn. unfold train_numbers in hn. apply NoDup_app_r in hn. assumption. }
  assert (hkeys : NoDup (map fst st)) by (destruct (ndof_spec _ _ _ _ h) as [_ [[g _] _]]; exact g).
  split; [rewrite hmap, map_length; reflexivity|]. split; [|split].
  - rewrite hmap. clear hmap. assert (hinj : forall v w, In v ws -> In w ws ->
      nth (snd v) (bd_wheels (dof_get st (fst v))) 0%nat = nth (snd w) (bd_wheels (dof_get st (fst w))) 0%nat -> v = w).
    { intros [b i] [c j] hv hw he. cbn [fst snd] in he. destruct (hone _ _ hv) as [k [a1 [a2 a3]]]. destruct (hone _ _ hw) as [k' [b1 [b2 b3]]].
      rewrite (nth_error_nth _ _ _ a1), (nth_error_nth _ _ _ b1) in he. subst k'.
      assert (hbc : (b, dof_get st b) = (c, dof_get st c)).
      { apply (NoDup_concat_inj (fun e => bogie_numbers (snd e)) st _ _ k hnum a3 b3); cbn [snd bogie_numbers In]; right; right; eapply nth_error_In; eassumption. }
      assert (b = c) by congruence. subst c. f_equal.
      assert (hwn : NoDup (bd_wheels (dof_get st b))).
      { apply in_split in a3. destruct a3 as [l1 [l2 e]]. rewrite e in hnum. rewrite flat_map_app in hnum. apply NoDup_app_r in hnum.
        cbn [flat_map snd bogie_numbers app] in hnum. clear - hnum. inversion hnum; subst. inversion H2; subst.
        clear - H4. induction (bd_wheels (dof_get st b)); [constructor|]. simpl in H4. inversion H4; subst. constructor; auto. intros hc. apply H1. apply in_app_iff. auto. }
      apply (proj1 (NoDup_nth_error (bd_wheels (dof_get st b))) hwn); [apply nth_error_Some; congruence|congruence]. }
    clear - hw1 hinj. induction ws as [|w ws IH]; simpl; [constructor|]. inversion hw1; subst. constructor.
    + intros hc. apply in_map_iff in hc. destruct hc as [w' [e hw]]. apply hinj in e; simpl; auto. subst. contradiction.
    + apply IH; auto. intros; apply hinj; simpl; auto.
  - intros q b i hq. rewrite hmap, nth_error_map, hq. cbn [option_map fst snd].
    destruct (hone b i) as [k [a1 _]]; [eapply nth_error_In; eassumption|]. rewrite a1. f_equal. apply nth_error_nth. assumption.
  - intros k. rewrite hmap, in_map_iff. split.
    + intros [[b i] [he hin]]. destruct (hone b i hin) as [k' [a1 [a2 a3]]]. cbn [fst snd] in he. rewrite (nth_error_nth _ _ _ a1) in he. subst k'.
      exists b, (dof_get st b). split; auto. eapply nth_error_In; eassumption.
    + intros [b [d [h1 h2]]]. apply In_nth_error in h2. destruct h2 as [i hi].
      assert (hb : exists c, In c (tn_carts tn) /\ In b (ct_bogies c)).
      { destruct (ndof_spec _ _ _ _ h) as [_ [[_ g] _]]. apply g. apply (in_map fst) in h1. exact h1. }
      assert (hd : dof_get st b = d). { unfold dof_get. apply dof_of_In in h1; auto. rewrite h1. reflexivity. }
      exists (b, i). cbn [fst snd]. rewrite hd. split; [apply nth_error_nth; assumption|]. apply hw2. split; auto.
      destruct (dof_get_entry _ _ _ _ _ h hb) as [_ [_ e3]]. rewrite <- e3, hd. apply nth_error_Some. congruence.
Qed.
