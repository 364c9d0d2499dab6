From Coq Require Import Reals List Bool ZArith Arith Lia Lra.
From Verif Require Import Num PyBase Model_Geometry Spec_Geometry Proofs_Geometry.
Import ListNotations.
Local Open Scope R_scope.

(** ** element dictionary: comparisons never move or renumber node objects *)

Definition steq (s s' : store R) : Prop := forall i, n_id (s' i) = n_id (s i) /\ n_coord (s' i) = n_coord (s i).

Lemma steq_refl s : steq s s. Proof. intros i; auto. Qed.
Lemma steq_sym s s' : steq s s' -> steq s' s.
Proof. intros h i. destruct (h i). auto. Qed.
Lemma steq_trans a b c : steq a b -> steq b c -> steq a c.
Proof. intros h1 h2 i. destruct (h1 i), (h2 i). split; congruence. Qed.

Definition ekey (s : store R) (e : element) : list (tri Z) := map (fun i => node_key (s i)) (e_nodes e).

Lemma ekey_steq s s' e : steq s s' -> ekey s' e = ekey s e.
Proof.
  intros h. unfold ekey. apply map_ext. intros i. unfold node_key. destruct (h i) as [_ ->]. reflexivity.
Qed.

Lemma ehash_ekey h he s e : element_hash h he s e = he (map h (ekey s e)).
Proof. unfold element_hash, ekey. rewrite map_map. reflexivity. Qed.

Definition nmatch (s : store R) (n x : nat) : bool := Nat.eqb x n || coords_equal (n_coord (s x)) (n_coord (s n)).

Lemma nmatch_steq s s' n x : steq s s' -> nmatch s' n x = nmatch s n x.
Proof. intros h. unfold nmatch. destruct (h x) as [_ ->], (h n) as [_ ->]. reflexivity. Qed.

Lemma node_in_spec s items n :
  fst (node_in s items n) = existsb (nmatch s n) items /\ steq s (snd (node_in s items n)).
Proof.
  induction items as [|x r IH]; simpl; [split; auto; apply steq_refl|].
  unfold nmatch at 1. destruct (Nat.eqb x n) eqn:e; simpl; [split; auto; apply steq_refl|].
  pose proof (node_eq_fst (s x) (s n)) as hf.
  pose proof (node_eq_id (s x) (s n)) as hi. pose proof (node_eq_coord (s x) (s n)) as hc.
  destruct (node_eq (s x) (s n)) as [b x']. simpl in *. rewrite <- hf. destruct b; simpl.
  - split; auto. intros j. unfold upd. destruct (Nat.eqb_spec j x); subst; auto.
  - exact IH.
Qed.

Lemma all_nodes_in_spec s ns items :
  fst (all_nodes_in s ns items) = forallb (fun n => existsb (nmatch s n) items) ns /\
  steq s (snd (all_nodes_in s ns items)).
Proof.
  revert s. induction ns as [|n ns IH]; simpl; intros s; [split; auto; apply steq_refl|].
  destruct (node_in_spec s items n) as [h1 h2]. destruct (node_in s items n) as [b s']. simpl in *.
  rewrite <- h1. destruct b; simpl; [|auto].
  destruct (IH s') as [h3 h4]. split; [|eapply steq_trans; eauto].
  rewrite h3. clear - h2. induction ns as [|a ns IH]; simpl; auto. rewrite IH. f_equal. clear IH.
  induction items as [|x items IH2]; simpl; auto. rewrite IH2, (nmatch_steq s s') by assumption. reflexivity.
Qed.

Definition ematch (s : store R) (x e : element) : bool :=
  forallb (fun n => existsb (nmatch s n) (e_nodes e)) (e_nodes x).

Lemma ematch_steq s s' x e : steq s s' -> ematch s' x e = ematch s x e.
Proof.
  intros h. unfold ematch. induction (e_nodes x) as [|n ns IH]; simpl; auto. rewrite IH. f_equal. clear IH.
  induction (e_nodes e) as [|y l IH2]; simpl; auto. rewrite IH2, (nmatch_steq s s') by assumption. reflexivity.
Qed.

Lemma element_eq_spec s x e :
  let '(b, s', x') := element_eq s x e in
  b = ematch s x e /\ steq s s' /\ e_id x' = e_id x /\ e_nodes x' = e_nodes x /\
  e_index x' = e_index x /\ (b = false -> x' = x) /\
  (b = true -> forall p, In p (e_parts x') <-> In p (e_parts x) \/ In p (e_parts e)).
Proof.
  unfold element_eq. destruct (all_nodes_in_spec s (e_nodes x) (e_nodes e)) as [h1 h2].
  destruct (all_nodes_in s (e_nodes x) (e_nodes e)) as [b s']. simpl in *. unfold ematch. rewrite <- h1.
  destruct b; repeat split; auto; try apply h2; try congruence.
  - simpl. rewrite nodup_In, in_app_iff. auto.
  - simpl. rewrite nodup_In, in_app_iff. auto.
Qed.

Lemma ematch_same_key s x e : ekey s x = ekey s e -> ematch s x e = true.
Proof.
  unfold ekey, ematch. intros h. apply forallb_forall. intros n hn.
  assert (hk : In (node_key (s n)) (map (fun i => node_key (s i)) (e_nodes e))).
  { rewrite <- h. apply (in_map (fun i => node_key (s i))). assumption. }
  apply in_map_iff in hk. destruct hk as [y [hy hin]].
  apply existsb_exists. exists y. split; auto. unfold nmatch. apply orb_true_iff. right.
  apply coords_equal_spec. apply key_eq_coincide. assumption.
Qed.

Lemma ematch_nodes s x e :
  ematch s x e = true -> forall n, In n (e_nodes x) -> exists y, In y (e_nodes e) /\ coincide (n_coord (s y)) (n_coord (s n)).
Proof.
  unfold ematch. rewrite forallb_forall. intros h n hn. specialize (h n hn).
  apply existsb_exists in h. destruct h as [y [hy hm]]. exists y. split; auto.
  unfold nmatch in hm. apply orb_true_iff in hm. destruct hm as [hm|hm].
  - apply Nat.eqb_eq in hm. subst. apply coincide_refl.
  - apply coords_equal_spec. assumption.
Qed.

Definition emt (h : tri Z -> Z) (he : list Z -> Z) (s : store R) (x e : element) : bool :=
  Nat.eqb (e_id x) (e_id e) || (Z.eqb (element_hash h he s x) (element_hash h he s e) && ematch s x e).

Definition same_el (a b : element) : Prop :=
  e_id a = e_id b /\ e_nodes a = e_nodes b /\ e_index a = e_index b /\ incl (e_parts a) (e_parts b).

Lemma same_el_refl a : same_el a a. Proof. repeat split; auto. apply incl_refl. Qed.
Lemma same_el_trans a b c : same_el a b -> same_el b c -> same_el a c.
Proof. intros [h1 [h2 [h3 h4]]] [g1 [g2 [g3 g4]]]. repeat split; try congruence. eapply incl_tran; eauto. Qed.

Lemma ehash_steq h he s s' e : steq s s' -> element_hash h he s' e = element_hash h he s e.
Proof. intros hs. rewrite !ehash_ekey, (ekey_steq s s') by assumption. reflexivity. Qed.

Lemma emt_steq h he s s' x e : steq s s' -> emt h he s' x e = emt h he s x e.
Proof. intros hs. unfold emt. rewrite !(ehash_steq h he s s'), (ematch_steq s s') by assumption. reflexivity. Qed.

Lemma emt_same h he s x x' e e' :
  e_id x = e_id x' -> e_nodes x = e_nodes x' -> e_id e = e_id e' -> e_nodes e = e_nodes e' ->
  emt h he s x e = emt h he s x' e'.
Proof. intros h1 h2 h3 h4. unfold emt, element_hash, ematch. rewrite h1, h2, h3, h4. reflexivity. Qed.

Lemma edict_find_spec h he s st e :
  let (o, s') := edict_find h he s st e in
  steq s s' /\
  match o with
  | None => Forall (fun x => emt h he s x e = false) st
  | Some st' => exists st1 x x' st2, st = st1 ++ x :: st2 /\ st' = st1 ++ x' :: st2 /\
                   Forall (fun x => emt h he s x e = false) st1 /\ emt h he s x e = true /\ same_el x x' /\
                   (e_id x <> e_id e -> incl (e_parts e) (e_parts x'))
  end.
Proof.
  revert s. induction st as [|x r IH]; simpl; intros s; [split; auto; apply steq_refl|].
  destruct (Nat.eqb (e_id x) (e_id e)) eqn:ei.
  - split; [apply steq_refl|]. exists [], x, x, r. repeat split; auto; try apply incl_refl.
    + unfold emt. rewrite ei. reflexivity.
    + apply Nat.eqb_eq in ei. contradiction.
  - destruct (Z.eqb (element_hash h he s x) (element_hash h he s e)) eqn:eh.
    + pose proof (element_eq_spec s x e) as hs. destruct (element_eq s x e) as [[b s'] x'].
      destruct hs as [hb [hs [h1 [h2 [h3 [h4 h5]]]]]].
      destruct b.
      * split; auto. exists [], x, x', r. repeat split; auto.
        -- unfold emt. rewrite ei, eh, <- hb. reflexivity.
        -- intros p hp. apply h5; auto.
        -- intros _ p hp. apply h5; auto.
      * specialize (h4 eq_refl). subst x'. specialize (IH s').
        destruct (edict_find h he s' r e) as [o s'']. destruct IH as [IH1 IH2].
        split; [eapply steq_trans; eauto|].
        assert (hx : emt h he s x e = false) by (unfold emt; rewrite ei, eh, <- hb; reflexivity).
        destruct o as [r'|].
        -- destruct IH2 as [st1 [y [y' [st2 [e1 [e2 [e3 [e4 [e5 e6]]]]]]]]].
           exists (x :: st1), y, y', st2. subst. repeat split; auto; try apply e5.
           ++ constructor; auto. eapply Forall_impl; [|exact e3]. simpl. intros a ha.
              rewrite (emt_steq h he s s') in ha by assumption. exact ha.
           ++ rewrite (emt_steq h he s s') in e4 by assumption. exact e4.
        -- constructor; auto. eapply Forall_impl; [|exact IH2]. simpl. intros a ha.
           rewrite (emt_steq h he s s') in ha by assumption. exact ha.
    + specialize (IH s). destruct (edict_find h he s r e) as [o s'']. destruct IH as [IH1 IH2].
      split; auto.
      assert (hx : emt h he s x e = false) by (unfold emt; rewrite ei, eh; reflexivity).
      destruct o as [r'|].
      * destruct IH2 as [st1 [y [y' [st2 [e1 [e2 [e3 [e4 [e5 e6]]]]]]]]].
        exists (x :: st1), y, y', st2. subst. repeat split; auto; try apply e5.
      * constructor; auto.
Qed.

Inductive einv (h : tri Z -> Z) (he : list Z -> Z) (s : store R) : list element -> Prop :=
| einv_nil : einv h he s []
| einv_snoc st e : einv h he s st -> Forall (fun x => emt h he s x e = false) st -> einv h he s (st ++ [e]).

Lemma einv_change h he s s' l l' :
  steq s s' -> Forall2 (fun a b => e_id a = e_id b /\ e_nodes a = e_nodes b) l l' -> einv h he s l -> einv h he s' l'.
Proof.
  intros hst hs hd. revert l' hs. induction hd as [|st n hd IH hf]; intros l' hs.
  - inversion hs. constructor.
  - apply Forall2_app_inv_l in hs. destruct hs as [l1 [l2 [h1 [h2 ->]]]].
    inversion h2 as [|? y ? ? hy hn]; subst. inversion hn; subst.
    constructor; auto.
    clear - hf h1 hy hst. induction h1; constructor.
    + inversion hf; subst. destruct hy, H. rewrite (emt_steq h he s s') by assumption.
      rewrite <- (emt_same h he s x y0 n y); auto.
    + apply IHh1. inversion hf; auto.
Qed.

Lemma Forall2_el_refl (l : list element) : Forall2 (fun a b => e_id a = e_id b /\ e_nodes a = e_nodes b) l l.
Proof. induction l; constructor; auto. Qed.

Lemma edict_insert_spec h he st s e :
  einv h he s st ->
  let (st', s') := edict_insert h he (st, s) e in
  steq s s' /\ einv h he s' st' /\
  (forall x, In x st -> exists x', In x' st' /\ same_el x x') /\
  (forall x', In x' st' -> (exists x, In x st /\ same_el x x') \/ x' = e) /\
  (exists x', In x' st' /\ emt h he s x' e = true /\ (~ In (e_id e) (map e_id st) -> incl (e_parts e) (e_parts x'))) /\
  is_prefix (map e_id st) (map e_id st').
Proof.
  intros hd. unfold edict_insert. pose proof (edict_find_spec h he s st e) as hf.
  destruct (edict_find h he s st e) as [[st'|] s']; destruct hf as [hs hf].
  - destruct hf as [st1 [x [x' [st2 [e1 [e2 [e3 [e4 [e5 e6]]]]]]]]]. subst.
    split; auto. split; [|split; [|split; [|split]]].
    + eapply einv_change; [exact hs| |exact hd]. apply Forall2_app; [apply Forall2_el_refl|].
      constructor; [|apply Forall2_el_refl]. destruct e5 as [? [? _]]. auto.
    + intros y hy. apply in_app_iff in hy. destruct hy as [hy|[<-|hy]].
      * exists y. rewrite in_app_iff. split; auto using same_el_refl.
      * exists x'. rewrite in_app_iff. simpl. auto.
      * exists y. rewrite in_app_iff. simpl. split; auto using same_el_refl.
    + intros y hy. left. apply in_app_iff in hy. destruct hy as [hy|[<-|hy]].
      * exists y. rewrite in_app_iff. split; auto using same_el_refl.
      * exists x. rewrite in_app_iff. simpl. auto.
      * exists y. rewrite in_app_iff. simpl. split; auto using same_el_refl.
    + exists x'. rewrite in_app_iff. simpl. split; auto. destruct e5 as [? [? _]]. split.
      * rewrite (emt_same h he s x' x e e) by auto. assumption.
      * intros hn. apply e6. intros hc. apply hn. rewrite map_app, in_app_iff. simpl. auto.
    + exists []. rewrite app_nil_r, !map_app. simpl. destruct e5 as [-> _]. reflexivity.
  - split; auto. split; [|split; [|split; [|split]]].
    + constructor.
      * eapply einv_change; [exact hs|apply Forall2_el_refl|exact hd].
      * eapply Forall_impl; [|exact hf]. simpl. intros a ha. rewrite (emt_steq h he s s') by assumption. assumption.
    + intros x hx. exists x. rewrite in_app_iff. split; auto using same_el_refl.
    + intros x hx. apply in_app_iff in hx. destruct hx as [hx|[<-|[]]]; auto.
      left. exists x. split; auto using same_el_refl.
    + exists e. rewrite in_app_iff. simpl. split; auto. split.
      * unfold emt. rewrite Nat.eqb_refl. reflexivity.
      * intros _. apply incl_refl.
    + exists [e_id e]. rewrite map_app. reflexivity.
Qed.

Lemma fold_edict_spec h he es st s :
  einv h he s st ->
  let (st', s') := fold_left (edict_insert h he) es (st, s) in
  steq s s' /\ einv h he s' st' /\
  (forall x, In x st -> exists x', In x' st' /\ same_el x x') /\
  (forall x', In x' st' -> exists x, In x (st ++ es) /\ same_el x x') /\
  (forall e, In e es -> exists x', In x' st' /\ emt h he s x' e = true) /\
  (NoDup (map e_id (st ++ es)) -> forall e, In e es -> exists x', In x' st' /\ emt h he s x' e = true /\ incl (e_parts e) (e_parts x')) /\
  is_prefix (map e_id st) (map e_id st').
Proof.
  revert st s. induction es as [|e es IH]; cbn [fold_left]; intros st s hd.
  - split; [apply steq_refl|]. repeat split; auto.
    + intros x hx. exists x. auto using same_el_refl.
    + intros x hx. exists x. rewrite app_nil_r. auto using same_el_refl.
    + intros e [].
    + intros _ e [].
    + apply is_prefix_refl.
  - pose proof (edict_insert_spec h he st s e hd) as hi.
    destruct (edict_insert h he (st, s) e) as [st1 s1].
    destruct hi as [i1 [i2 [i3 [i4 [[xe [i5 [i6 i6']]] i7]]]]].
    specialize (IH st1 s1 i2). destruct (fold_left (edict_insert h he) es (st1, s1)) as [st2 s2].
    destruct IH as [j1 [j2 [j3 [j4 [j5 [j6 j7]]]]]].
    split; [eapply steq_trans; eauto|]. split; auto. split; [|split; [|split; [|split]]].
    + intros x hx. destruct (i3 x hx) as [x1 [hx1 hs1]]. destruct (j3 x1 hx1) as [x2 [hx2 hs2]].
      exists x2. split; auto. eapply same_el_trans; eauto.
    + intros x2 hx2. destruct (j4 x2 hx2) as [x1 [hx1 hs1]]. apply in_app_iff in hx1. destruct hx1 as [hx1|hx1].
      * destruct (i4 x1 hx1) as [[x [hx hs]]| -> ].
        -- exists x. rewrite in_app_iff. split; auto. eapply same_el_trans; eauto.
        -- exists e. rewrite in_app_iff. simpl. auto.
      * exists x1. rewrite in_app_iff. simpl. auto.
    + intros e' [<-|he'].
      * destruct (j3 xe i5) as [x2 [hx2 [g1 [g2 _]]]]. exists x2. split; auto.
        rewrite <- (emt_same h he s xe x2 e e) by auto. assumption.
      * destruct (j5 e' he') as [x' [hx' hm]]. exists x'. split; auto.
        rewrite (emt_steq h he s s1) in hm by assumption. assumption.
    + intros hnd. rewrite map_app in hnd. simpl in hnd. pose proof (NoDup_remove_2 _ _ _ hnd) as hn2.
      rewrite in_app_iff in hn2. intros e' [<-|he'].
      * destruct (j3 xe i5) as [x2 [hx2 [g1 [g2 [g3 g4]]]]]. exists x2. split; auto. split.
        -- rewrite <- (emt_same h he s xe x2 e e) by auto. assumption.
        -- eapply incl_tran; [apply i6'; tauto|exact g4].
      * assert (hnd1 : NoDup (map e_id (st1 ++ es))).
        { rewrite map_app. destruct i7 as [rr hrr]. rewrite hrr.
          assert (hl : rr = [] \/ rr = [e_id e]).
          { clear - hrr i4 i2 hd i3 hn2. 
            assert (hnd1 : NoDup (map e_id st1)).
            { clear - i2. induction i2 as [|st e hd IH hf]; simpl; [constructor|].
              rewrite map_app. simpl. apply NoDup_Add with (a := e_id e) (l := map e_id st).
              - rewrite <- (app_nil_r (map e_id st)) at 1. apply Add_app.
              - split; auto. intros hin. apply in_map_iff in hin. destruct hin as [x [hk hs]].
                rewrite Forall_forall in hf. specialize (hf x hs). unfold emt in hf.
                rewrite hk, Nat.eqb_refl in hf. discriminate. }
            rewrite hrr in hnd1.
            assert (hall : forall a, In a rr -> a = e_id e).
            { intros a ha. assert (hin : In a (map e_id st1)) by (rewrite hrr, in_app_iff; auto).
              apply in_map_iff in hin. destruct hin as [y [hy1 hy2]]. destruct (i4 y hy2) as [[z [hz1 [hz2 _]]]| ->]; auto.
              exfalso. 
              assert (hmem : In a (map e_id st)) by (rewrite <- hy1, <- hz2; apply in_map; assumption).
              apply in_split in hmem. destruct hmem as [q1 [q2 hq]]. rewrite hq, <- app_assoc in hnd1. simpl in hnd1.
              apply NoDup_remove_2 in hnd1. apply hnd1. rewrite !in_app_iff. auto. }
            destruct rr as [|a [|b rr]]; auto.
            - right. f_equal. apply hall. simpl. auto.
            - exfalso. assert (a = b) by (rewrite (hall a), (hall b); simpl; auto). subst b.
              apply NoDup_app_r in hnd1. inversion hnd1 as [|? ? hh _]; subst. apply hh. simpl. auto. }
          destruct hl as [->| -> ].
          - rewrite app_nil_r. apply NoDup_remove_1 in hnd. exact hnd.
          - rewrite <- app_assoc. exact hnd. }
        destruct (j6 hnd1 e' he') as [x' [hx' [hm hp]]]. exists x'. split; auto.
        rewrite (emt_steq h he s s1) in hm by assumption. auto.
    + eapply is_prefix_trans; eauto.
Qed.

Lemma einv_nodup_keys h he s st : einv h he s st -> NoDup (map (ekey s) st).
Proof.
  induction 1 as [|st e hd IH hf]; simpl; [constructor|].
  rewrite map_app. simpl. apply NoDup_Add with (a := ekey s e) (l := map (ekey s) st).
  - rewrite <- (app_nil_r (map (ekey s) st)) at 1. apply Add_app.
  - split; auto. intros hin. apply in_map_iff in hin. destruct hin as [x [hk hs]].
    rewrite Forall_forall in hf. specialize (hf x hs). unfold emt in hf.
    rewrite !ehash_ekey, hk, Z.eqb_refl in hf. rewrite (ematch_same_key s x e hk) in hf.
    rewrite orb_true_r in hf. discriminate.
Qed.

Lemma elements_once (h : tri Z -> Z) (he : list Z -> Z) (s : store R) (mesh es : list element) :
  (forall a b, In a (mesh ++ es) -> In b (mesh ++ es) -> e_id a = e_id b -> e_nodes a = e_nodes b) ->
  let stored := fst (add_unique_elements h he s mesh es) in
  NoDup (map (ekey s) stored) /\
  (forall x, In x stored -> exists e, In e (mesh ++ es) /\ e_id e = e_id x /\ e_nodes e = e_nodes x) /\
  (forall e, In e (mesh ++ es) -> exists x, In x stored /\
       forall n, In n (e_nodes x) -> exists y, In y (e_nodes e) /\ coincide (n_coord (s y)) (n_coord (s n))) /\
  (injective h -> injective he -> forall e, In e (mesh ++ es) -> exists x, In x stored /\ ekey s x = ekey s e) /\
  (NoDup (map e_id (mesh ++ es)) -> forall e, In e (mesh ++ es) -> exists x, In x stored /\ incl (e_parts e) (e_parts x)).
Proof.
  intros hc stored. unfold stored, add_unique_elements.
  pose proof (fold_edict_spec h he (mesh ++ es) [] s (einv_nil h he s)) as hf.
  destruct (fold_left (edict_insert h he) (mesh ++ es) ([], s)) as [st' s']. cbn [fst].
  destruct hf as [f1 [f2 [f3 [f4 [f5 [f6 _]]]]]].
  split; [|split; [|split; [|split]]].
  - apply einv_nodup_keys in f2. rewrite (map_ext (ekey s') (ekey s)) in f2; auto.
    intros e. apply ekey_steq. assumption.
  - intros x hx. destruct (f4 x hx) as [e [he' [g1 [g2 _]]]]. exists e. auto.
  - intros e he'. destruct (f5 e he') as [x [hx hm]]. exists x. split; auto. intros n hn.
    unfold emt in hm. apply orb_true_iff in hm. destruct hm as [hm|hm].
    + apply Nat.eqb_eq in hm. destruct (f4 x hx) as [e0 [he0 [g1 [g2 _]]]]. simpl in he0.
      rewrite <- g2 in hn. rewrite (hc e0 e) in hn by (auto; congruence). exists n. split; auto. apply coincide_refl.
    + apply andb_true_iff in hm. destruct hm as [_ hm]. eapply ematch_nodes; eauto.
  - intros hi hie e he'. destruct (f5 e he') as [x [hx hm]]. exists x. split; auto.
    unfold emt in hm. apply orb_true_iff in hm. destruct hm as [hm|hm].
    + apply Nat.eqb_eq in hm. destruct (f4 x hx) as [e0 [he0 [g1 [g2 _]]]]. simpl in he0.
      unfold ekey. rewrite <- g2, (hc e0 e) by (auto; congruence). reflexivity.
    + apply andb_true_iff in hm. destruct hm as [hm _]. apply Z.eqb_eq in hm. rewrite !ehash_ekey in hm.
      apply hie in hm. clear - hm hi. revert hm. generalize (ekey s x) (ekey s e).
      intros l1. induction l1 as [|a l1 IH]; intros [|b l2]; simpl; intros hh; try discriminate; auto.
      injection hh as h1 h2. f_equal; auto.
  - intros hnd e he'. destruct (f6 hnd e he') as [x [hx [_ hp]]]. exists x. auto.
Qed.

(** reversed element *)
Definition two_nodes : store R := fun i => new_node i (INR i) 0 0.
Definition fwd : element := mkElement 0 None [0%nat; 1%nat] [].
Definition bwd : element := mkElement 1 None [1%nat; 0%nat] [].

Lemma round9_INR k : round9 (INR k) = (Z.of_nat k * 1000000000)%Z.
Proof.
  apply round9_val. rewrite mult_IZR, <- INR_IZR_INZ.
  rewrite Rminus_diag_eq by reflexivity. rewrite Rabs_R0. lra.
Qed.

Lemma round9_0 : round9 0 = 0%Z.
Proof. apply round9_val. rewrite Rabs_right; lra. Qed.

Lemma reversed_element_kept (h : tri Z -> Z) (he : list Z -> Z) :
  injective h -> injective he ->
  fst (add_unique_elements h he two_nodes [] [fwd; bwd]) = [fwd; bwd] /\
  fst (fst (element_eq two_nodes fwd bwd)) = true.
Proof.
  intros hi hie. split.
  - unfold add_unique_elements. simpl. unfold element_hash.
    match goal with |- context [Z.eqb ?a ?b] => destruct (Z.eqb_spec a b) as [e|e] end; [|reflexivity].
    exfalso. apply hie in e. injection e as e _. apply hi in e.
    unfold node_key, two_nodes in e. cbn [n_coord new_node tx ty tr] in e. rewrite !round9_INR, round9_0 in e.
    simpl in e. discriminate.
  - pose proof (element_eq_spec two_nodes fwd bwd) as hs.
    destruct (element_eq two_nodes fwd bwd) as [[b s'] x']. destruct hs as [-> _].
    cbn [fst]. unfold ematch, nmatch. cbn [e_nodes fwd bwd forallb existsb Nat.eqb orb].
    rewrite !orb_true_r. reflexivity.
Qed.

(** ** adding a model part to an element (C05/C06 support) *)

Lemma fold_add_part_spec (l : list nat) (s : store R) p :
  forall i, let s' := fold_left (fun s i => upd s i (add_part_to_node (s i) p)) l s in
  n_id (s' i) = n_id (s i) /\ n_index (s' i) = n_index (s i) /\ n_dof (s' i) = n_dof (s i) /\
  n_coord (s' i) = n_coord (s i) /\ n_flag (s' i) = n_flag (s i) /\
  n_parts (s' i) = n_parts (s i) ++ repeat p (count_occ Nat.eq_dec l i).
Proof.
  revert s. induction l as [|a l IH]; intros s i; simpl.
  - rewrite app_nil_r. auto 10.
  - specialize (IH (upd s a (add_part_to_node (s a) p)) i). simpl in IH.
    destruct IH as [h1 [h2 [h3 [h4 [h5 h6]]]]]. unfold upd in *.
    destruct (Nat.eq_dec a i) as [->|ne].
    + rewrite Nat.eqb_refl in *. simpl in *. rewrite h1, h2, h3, h4, h5, h6, <- app_assoc. simpl. auto 10.
    + destruct (Nat.eqb_spec i a); [congruence|]. rewrite h1, h2, h3, h4, h5, h6. auto 10.
Qed.

Lemma add_model_part_spec (s : store R) (e : element) (p : nat) :
  NoDup (e_nodes e) ->
  let (s', e') := add_model_part s e p in
  e_id e' = e_id e /\ e_index e' = e_index e /\ e_nodes e' = e_nodes e /\
  (In p (e_parts e) -> s' = s /\ e' = e) /\
  (~ In p (e_parts e) ->
     e_parts e' = e_parts e ++ [p] /\
     (forall i, In i (e_nodes e) -> n_parts (s' i) = n_parts (s i) ++ [p]) /\
     (forall i, ~ In i (e_nodes e) -> n_parts (s' i) = n_parts (s i))) /\
  (forall i, n_id (s' i) = n_id (s i) /\ n_index (s' i) = n_index (s i) /\ n_dof (s' i) = n_dof (s i) /\
             n_coord (s' i) = n_coord (s i) /\ n_flag (s' i) = n_flag (s i)) /\
  (add_model_part s' e' p = (s', e')).
Proof.
  intros hnd. unfold add_model_part. destruct (memb p (e_parts e)) eqn:em.
  - apply memb_In in em. repeat split; auto; try contradiction. apply memb_In in em. rewrite em. reflexivity.
  - assert (hn : ~ In p (e_parts e)) by (apply memb_false; assumption).
    cbn [e_id e_index e_nodes e_parts].
    repeat split; auto; try contradiction; try apply fold_add_part_spec.
    + intros i hi. destruct (fold_add_part_spec (e_nodes e) s p i) as [_ [_ [_ [_ [_ ->]]]]].
      f_equal. pose proof (proj1 (NoDup_count_occ' Nat.eq_dec (e_nodes e)) hnd i hi) as ->. reflexivity.
    + intros i hi. destruct (fold_add_part_spec (e_nodes e) s p i) as [_ [_ [_ [_ [_ ->]]]]].
      rewrite (proj1 (count_occ_not_In Nat.eq_dec (e_nodes e) i) hi). simpl. apply app_nil_r.
    + assert (hm : memb p (e_parts e ++ [p]) = true) by (apply memb_In; rewrite in_app_iff; simpl; auto).
      rewrite hm. reflexivity.
Qed.

(** ** results (C09, C10) *)

Lemma assign_result_spec (base : tri R) (n : node R) (row : nat -> R) :
  (forall d, tget (n_flag n) d = true <-> tget (n_dof n) d <> None) ->
  exists out : tri R,
    assign_result_to_node (tlist base) n row = Ok (tlist out) /\
    (forall d k, tget (n_flag n) d = true -> tget (n_dof n) d = Some k -> tget out d = row k) /\
    (forall d, tget (n_flag n) d = false -> tget out d = tget base d).
Proof.
  intros hf. destruct n as [id idx [ix iy ir] c [fx fy fr] ps]. simpl in *.
  pose proof (hf DX) as hx. pose proof (hf DY) as hy. pose proof (hf DR) as hr. simpl in *. clear hf.
  exists (T3 (match ix with Some k => row k | None => tx base end)
             (match iy with Some k => row k | None => ty base end)
             (match ir with Some k => row k | None => tr base end)).
  destruct base as [bx by_ br].
  destruct fx, fy, fr, ix as [kx|], iy as [ky|], ir as [kr|];
    try (exfalso; destruct hx, hy, hr; intuition congruence);
    (split; [reflexivity|split; intros [] ?; simpl; intros; congruence]) ||
    (split; [reflexivity|split; intros []; simpl; intros; congruence]).
Qed.

Lemma assign_force_spec (force : list R) (mask : tri bool) :
  length force = count_true (tlist mask) ->
  exists out : tri R,
    assign_force_row force (tlist mask) = Ok (tlist out) /\
    (forall d, tget mask d = false -> tget out d = 0) /\
    selected mask out = force.
Proof.
  intros hl. destruct mask as [fx fy fr]. unfold assign_force_row, masked_assign.
  rewrite hl, Nat.eqb_refl.
  destruct fx, fy, fr; simpl in *;
    destruct force as [|a [|b [|c [|? ?]]]]; simpl in hl; try discriminate; cbn.
  - exists (T3 a b c). repeat split; auto; intros []; simpl; congruence.
  - exists (T3 a b 0). repeat split; auto; intros []; simpl; congruence.
  - exists (T3 a 0 b). repeat split; auto; intros []; simpl; congruence.
  - exists (T3 a 0 0). repeat split; auto; intros []; simpl; congruence.
  - exists (T3 0 a b). repeat split; auto; intros []; simpl; congruence.
  - exists (T3 0 a 0). repeat split; auto; intros []; simpl; congruence.
  - exists (T3 0 0 a). repeat split; auto; intros []; simpl; congruence.
  - exists (T3 0 0 0). repeat split; auto; intros []; simpl; congruence.
Qed.
