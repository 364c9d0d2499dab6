From Coq Require Import Reals List Bool ZArith Arith Lia Lra.
From Verif Require Import Num PyBase Model_Geometry Spec_Geometry.
Import ListNotations.
Local Open Scope R_scope.

(** ** rounding *)

Lemma nround_val (x : R) (k : Z) : Rabs (x - IZR k) < 1 / 2 -> nround x = k.
Proof.
  intros h. pose proof (nround_near x) as h2.
  assert (h3 : Rabs (IZR (nround x - k)) < 1).
  { rewrite minus_IZR. replace (IZR (nround x) - IZR k) with ((x - IZR k) - (x - IZR (nround x))) by lra.
    eapply Rle_lt_trans; [apply Rabs_triang|]. rewrite Rabs_Ropp. lra. }
  apply Rabs_def2 in h3. destruct h3 as [h4 h5].
  assert (nround x - k < 1)%Z by (apply lt_IZR; lra).
  assert (-1 < nround x - k)%Z by (apply lt_IZR; lra). lia.
Qed.

Lemma round9_val (x : R) (k : Z) : Rabs (x * 1000000000 - IZR k) < 1 / 2 -> round9 x = k.
Proof. intros h. unfold round9. apply nround_val. exact h. Qed.

Lemma round9_eq_close x y : round9 x = round9 y -> Rabs (x - y) <= 1 / 1000000000.
Proof.
  intros h. pose proof (round9_near x) as h1. pose proof (round9_near y) as h2. rewrite h in h1.
  replace (x - y) with ((x - IZR (round9 y) / 1000000000) + (- (y - IZR (round9 y) / 1000000000))) by lra.
  eapply Rle_trans; [apply Rabs_triang|]. rewrite Rabs_Ropp. lra.
Qed.

(** ** node comparison *)

Lemma tol_test (a b : R) :
  negb (nltb (ndec 1 9) (nabs (nsub a b))) = true <-> Rabs (a - b) <= 1 / 1000000000.
Proof.
  rewrite ndec_R, nabs_R. change (nsub a b) with (a - b). change (10 ^ 9)%Z with 1000000000%Z.
  destruct (nltbP (1 / 1000000000) (Rabs (a - b))); simpl; split; intros; auto; try lra; discriminate.
Qed.

Lemma coords_equal_spec (a b : tri R) : coords_equal a b = true <-> coincide a b.
Proof.
  unfold coords_equal. rewrite !andb_true_iff, !tol_test. split.
  - intros [[h1 h2] h3] d. destruct d; assumption.
  - intros h. exact (conj (conj (h DX) (h DY)) (h DR)).
Qed.

Lemma coincide_sym a b : coincide a b -> coincide b a.
Proof. intros h d. rewrite Rabs_minus_sym. apply h. Qed.

Lemma coincide_refl a : coincide a a.
Proof. intros d. rewrite Rminus_diag_eq by reflexivity. rewrite Rabs_R0. lra. Qed.

Lemma coords_equal_sym (a b : tri R) : coords_equal a b = coords_equal b a.
Proof.
  destruct (coords_equal a b) eqn:e1, (coords_equal b a) eqn:e2; auto.
  - apply coords_equal_spec in e1. apply coincide_sym in e1. apply coords_equal_spec in e1. congruence.
  - apply coords_equal_spec in e2. apply coincide_sym in e2. apply coords_equal_spec in e2. congruence.
Qed.

Lemma key_eq_coincide (a b : node R) : node_key a = node_key b -> coincide (n_coord a) (n_coord b).
Proof.
  unfold node_key. intros h. injection h as h1 h2 h3. intros d.
  destruct d; simpl; apply round9_eq_close; assumption.
Qed.

Definition same_or (a b : node R) : node R := if Nat.eqb (n_id a) (n_id b) then a else snd (node_eq a b).

Lemma node_eq_id (a b : node R) : n_id (snd (node_eq a b)) = n_id a.
Proof. unfold node_eq. destruct (coords_equal _ _); reflexivity. Qed.
Lemma node_eq_coord (a b : node R) : n_coord (snd (node_eq a b)) = n_coord a.
Proof. unfold node_eq. destruct (coords_equal _ _); reflexivity. Qed.
Lemma node_eq_key (a b : node R) : node_key (snd (node_eq a b)) = node_key a.
Proof. unfold node_key. rewrite node_eq_coord. reflexivity. Qed.
Lemma node_eq_fst (a b : node R) : fst (node_eq a b) = coords_equal (n_coord a) (n_coord b).
Proof. unfold node_eq. destruct (coords_equal _ _); reflexivity. Qed.
Lemma node_eq_false (a b : node R) : fst (node_eq a b) = false -> snd (node_eq a b) = a.
Proof. unfold node_eq. destruct (coords_equal _ _); simpl; congruence. Qed.
Lemma same_or_id a b : n_id (same_or a b) = n_id a.
Proof. unfold same_or. destruct (Nat.eqb _ _); auto. apply node_eq_id. Qed.
Lemma same_or_coord a b : n_coord (same_or a b) = n_coord a.
Proof. unfold same_or. destruct (Nat.eqb _ _); auto. apply node_eq_coord. Qed.
Lemma same_or_key a b : node_key (same_or a b) = node_key a.
Proof. unfold node_key. rewrite same_or_coord. reflexivity. Qed.

Lemma node_compare (a b : node R) :
  (fst (node_eq a b) = true <-> coincide (n_coord a) (n_coord b)) /\
  (fst (node_eq a b) = false -> snd (node_eq a b) = a) /\
  (fst (node_eq a b) = true ->
     n_id (snd (node_eq a b)) = n_id a /\
     n_index (snd (node_eq a b)) = n_index a /\
     n_coord (snd (node_eq a b)) = n_coord a /\
     n_parts (snd (node_eq a b)) = n_parts a ++ n_parts b /\
     forall d,
       tget (n_flag (snd (node_eq a b))) d = (tget (n_flag a) d || tget (n_flag b) d)%bool /\
       (forall k, tget (n_dof b) d = Some k -> tget (n_dof (snd (node_eq a b))) d = Some k) /\
       (tget (n_dof b) d = None -> tget (n_dof (snd (node_eq a b))) d = tget (n_dof a) d)).
Proof.
  repeat split.
  - rewrite node_eq_fst. apply coords_equal_spec.
  - rewrite node_eq_fst. apply coords_equal_spec.
  - apply node_eq_false.
  - apply node_eq_id.
  - unfold node_eq. destruct (coords_equal _ _); reflexivity.
  - apply node_eq_coord.
  - revert H. unfold node_eq. destruct (coords_equal _ _); simpl; congruence.
  - revert H. unfold node_eq. destruct (coords_equal _ _); simpl; try congruence. destruct d; reflexivity.
  - revert H. unfold node_eq. destruct (coords_equal _ _); simpl; try congruence.
    intros _ k. destruct d; simpl; intros ->; reflexivity.
  - revert H. unfold node_eq. destruct (coords_equal _ _); simpl; try congruence.
    intros _. destruct d; simpl; intros ->; reflexivity.
Qed.

(** ** dictionary insertion *)

Definition dmatch (h : tri Z -> Z) (s n : node R) : bool :=
  Nat.eqb (n_id s) (n_id n) ||
  (Z.eqb (h (node_key s)) (h (node_key n)) && coords_equal (n_coord s) (n_coord n)).

Lemma dict_find_None h st n :
  dict_find h st n = None <-> Forall (fun s => dmatch h s n = false) st.
Proof.
  induction st as [|s st IH]; simpl.
  - split; auto.
  - rewrite (Forall_cons_iff (fun s => dmatch h s n = false)), <- IH. unfold dmatch at 1.
    destruct (Nat.eqb (n_id s) (n_id n)); simpl; [split; [discriminate|intros [? ?]; discriminate]|].
    destruct (Z.eqb _ _); simpl.
    + destruct (node_eq s n) as [b s'] eqn:e. pose proof (node_eq_fst s n) as hf. rewrite e in hf; simpl in hf.
      destruct b; rewrite <- hf.
      * split; [discriminate|intros [? ?]; discriminate].
      * destruct (dict_find h st n); split; intros; auto; try discriminate.
        -- destruct H; discriminate.
    + destruct (dict_find h st n); split; intros; auto; try discriminate. destruct H; discriminate.
Qed.

Lemma dict_find_Some h st n st' :
  dict_find h st n = Some st' ->
  exists st1 s st2, st = st1 ++ s :: st2 /\ Forall (fun s => dmatch h s n = false) st1 /\
                    dmatch h s n = true /\ st' = st1 ++ same_or s n :: st2.
Proof.
  revert st'. induction st as [|s st IH]; simpl; intros st'; [discriminate|].
  unfold same_or.
  destruct (Nat.eqb (n_id s) (n_id n)) eqn:ei.
  - intros hh. injection hh as <-. exists [], s, st. unfold dmatch. rewrite ei. simpl. auto.
  - destruct (Z.eqb (h (node_key s)) (h (node_key n))) eqn:eh.
    + destruct (node_eq s n) as [b s'] eqn:e. pose proof (node_eq_fst s n) as hf. rewrite e in hf; simpl in hf.
      destruct b.
      * intros hh. injection hh as <-. exists [], s, st. unfold dmatch. rewrite ei, eh, <- hf. simpl. rewrite e. auto.
      * destruct (dict_find h st n) as [r'|] eqn:ed; [|discriminate].
        intros hh. injection hh as <-. destruct (IH r' eq_refl) as [st1 [x [st2 [h1 [h2 [h3 h4]]]]]].
        exists (s :: st1), x, st2. subst. repeat split; auto.
        -- constructor; auto. unfold dmatch. rewrite ei, eh, <- hf. reflexivity.
        -- unfold same_or. pose proof (node_eq_false s n) as hh. rewrite e in hh. simpl in hh.
           rewrite hh by auto. reflexivity.
    + destruct (dict_find h st n) as [r'|] eqn:ed; [|discriminate].
      intros hh. injection hh as <-. destruct (IH r' eq_refl) as [st1 [x [st2 [h1 [h2 [h3 h4]]]]]].
      exists (s :: st1), x, st2. subst. repeat split; auto.
      constructor; auto. unfold dmatch. rewrite ei, eh. reflexivity.
Qed.

(** pairwise non-matching (the invariant of a mesh built by the code) *)
Inductive dinv (h : tri Z -> Z) : list (node R) -> Prop :=
| dinv_nil : dinv h []
| dinv_snoc st n : dinv h st -> Forall (fun s => dmatch h s n = false) st -> dinv h (st ++ [n]).

(** same objects: same identity and coordinates *)
Definition same_obj (a b : node R) : Prop := n_id a = n_id b /\ n_coord a = n_coord b.

Lemma dmatch_same h a b a' b' : same_obj a a' -> same_obj b b' -> dmatch h a b = dmatch h a' b'.
Proof. intros [h1 h2] [h3 h4]. unfold dmatch, node_key. rewrite h1, h2, h3, h4. reflexivity. Qed.

Lemma same_obj_or a b : same_obj (same_or a b) a.
Proof. split; [apply same_or_id|apply same_or_coord]. Qed.

Lemma Forall2_same_refl l : Forall2 same_obj l l.
Proof. induction l; constructor; auto. split; reflexivity. Qed.

Lemma dinv_same h l l' : Forall2 same_obj l l' -> dinv h l -> dinv h l'.
Proof.
  intros hs hd. revert l' hs. induction hd as [|st n hd IH hf]; intros l' hs.
  - inversion hs. constructor.
  - apply Forall2_app_inv_l in hs. destruct hs as [l1 [l2 [h1 [h2 ->]]]].
    inversion h2 as [|? y ? ? hy hn]; subst. inversion hn; subst.
    constructor; auto.
    clear - hf h1 hy. induction h1; constructor.
    + inversion hf; subst. erewrite dmatch_same; [eassumption| |].
      * destruct H; split; congruence.
      * destruct hy; split; congruence.
    + apply IHh1. inversion hf; auto.
Qed.

(** what an insertion does to the stored list *)
Lemma dict_insert_cases h st n :
  (Forall (fun s => dmatch h s n = false) st /\ dict_insert h st n = st ++ [n]) \/
  (exists st1 s st2, st = st1 ++ s :: st2 /\ Forall (fun s => dmatch h s n = false) st1 /\ dmatch h s n = true /\
                     dict_insert h st n = st1 ++ same_or s n :: st2).
Proof.
  unfold dict_insert. destruct (dict_find h st n) as [st'|] eqn:e.
  - right. apply dict_find_Some in e. destruct e as [st1 [s [st2 [h1 [h2 [h3 h4]]]]]].
    exists st1, s, st2. auto.
  - left. split; auto. apply dict_find_None. assumption.
Qed.

Lemma dict_insert_dinv h st n : dinv h st -> dinv h (dict_insert h st n).
Proof.
  intros hd. destruct (dict_insert_cases h st n) as [[h1 ->]|[st1 [s [st2 [-> [h2 [h3 ->]]]]]]].
  - constructor; auto.
  - eapply dinv_same; [|exact hd]. apply Forall2_app; [apply Forall2_same_refl|].
    constructor; [|apply Forall2_same_refl]. destruct (same_obj_or s n); split; congruence.
Qed.

Lemma fold_insert_dinv h ns st : dinv h st -> dinv h (fold_left (dict_insert h) ns st).
Proof. revert st. induction ns; simpl; auto using dict_insert_dinv. Qed.

Lemma dict_fromkeys_dinv h ns : dinv h (dict_fromkeys h ns).
Proof. apply fold_insert_dinv. constructor. Qed.

(** re-inserting a mesh that satisfies the invariant changes nothing *)
Lemma fromkeys_dinv h st : dinv h st -> dict_fromkeys h st = st.
Proof.
  unfold dict_fromkeys. induction 1 as [|st n hd IH hf]; [reflexivity|].
  rewrite fold_left_app. simpl. rewrite IH. unfold dict_insert.
  apply dict_find_None in hf. rewrite hf. reflexivity.
Qed.

Lemma dinv_split h l1 a l2 : dinv h (l1 ++ a :: l2) -> Forall (fun s => dmatch h s a = false) l1.
Proof.
  revert l1. induction l2 as [|x l2 IH] using rev_ind; intros l1 hd.
  - inversion hd as [e|st n h1 h2 e]; [destruct l1; discriminate|].
    apply app_inj_tail in e. destruct e; subst. assumption.
  - replace (l1 ++ a :: l2 ++ [x]) with ((l1 ++ a :: l2) ++ [x]) in hd by (rewrite <- app_assoc; reflexivity).
    inversion hd as [e|st n h1 h2 e]; [destruct l1; discriminate|].
    apply app_inj_tail in e. destruct e; subst. apply IH; assumption.
Qed.

(** inserting an object that is already stored *)
Lemma dict_insert_known h st n s :
  dinv h st -> In s st -> same_obj s n -> dict_insert h st n = st.
Proof.
  intros hd hin hs. apply in_split in hin. destruct hin as [l1 [l2 ->]].
  pose proof (dinv_split _ _ _ _ hd) as hf.
  unfold dict_insert.
  assert (hn : Forall (fun x => dmatch h x n = false) l1).
  { eapply Forall_impl; [|exact hf]. simpl. intros a ha. erewrite dmatch_same; [exact ha| |]; split; auto;
    destruct hs; congruence. }
  assert (he : dict_find h (l1 ++ s :: l2) n = Some (l1 ++ s :: l2)).
  { clear hd hf. induction l1 as [|x l1 IH]; simpl.
    - destruct hs as [-> _]. rewrite Nat.eqb_refl. reflexivity.
    - inversion hn as [|? ? hx hn']; subst. unfold dmatch in hx. apply orb_false_iff in hx. destruct hx as [hx1 hx2].
      rewrite hx1. rewrite (IH hn').
      destruct (Z.eqb _ _); auto. simpl in hx2.
      destruct (node_eq x n) as [b x'] eqn:e. pose proof (node_eq_fst x n) as h1. rewrite e in h1. simpl in h1.
      rewrite hx2 in h1. subst b. pose proof (node_eq_false x n) as h2. rewrite e in h2. simpl in h2.
      rewrite h2 by reflexivity. reflexivity. }
  rewrite he. reflexivity.
Qed.

Lemma dinv_nodup_keys h st : dinv h st -> NoDup (map node_key st).
Proof.
  induction 1 as [|st n hd IH hf]; simpl; [constructor|].
  rewrite map_app. simpl.
  apply NoDup_Add with (a := node_key n) (l := map node_key st).
  - rewrite <- (app_nil_r (map node_key st)) at 1. apply Add_app.
  - split; auto. intros hin. apply in_map_iff in hin. destruct hin as [s [hk hs]].
    rewrite Forall_forall in hf. specialize (hf s hs). unfold dmatch in hf.
    rewrite hk, Z.eqb_refl in hf. simpl in hf. apply orb_false_iff in hf. destruct hf as [_ hf].
    pose proof (key_eq_coincide s n hk) as hc. apply coords_equal_spec in hc. congruence.
Qed.

Lemma dinv_nodup_ids h st : dinv h st -> NoDup (map (@n_id R) st).
Proof.
  induction 1 as [|st n hd IH hf]; simpl; [constructor|].
  rewrite map_app. simpl.
  apply NoDup_Add with (a := n_id n) (l := map (@n_id R) st).
  - rewrite <- (app_nil_r (map (@n_id R) st)) at 1. apply Add_app.
  - split; auto. intros hin. apply in_map_iff in hin. destruct hin as [s [hk hs]].
    rewrite Forall_forall in hf. specialize (hf s hs). unfold dmatch in hf.
    rewrite hk, Nat.eqb_refl in hf. discriminate.
Qed.

(** ids of the stored list only grow at the end *)
Lemma dict_insert_prefix h st n : is_prefix (map (@n_id R) st) (map (@n_id R) (dict_insert h st n)).
Proof.
  destruct (dict_insert_cases h st n) as [[_ ->]|[st1 [s [st2 [-> [_ [_ ->]]]]]]].
  - exists [n_id n]. rewrite map_app. reflexivity.
  - exists []. rewrite app_nil_r, !map_app. simpl. rewrite same_or_id. reflexivity.
Qed.

Lemma is_prefix_trans {A} (a b c : list A) : is_prefix a b -> is_prefix b c -> is_prefix a c.
Proof. intros [r ->] [q ->]. exists (r ++ q). rewrite app_assoc. reflexivity. Qed.
Lemma is_prefix_refl {A} (a : list A) : is_prefix a a.
Proof. exists []. rewrite app_nil_r. reflexivity. Qed.

Lemma fold_insert_prefix h ns st :
  is_prefix (map (@n_id R) st) (map (@n_id R) (fold_left (dict_insert h) ns st)).
Proof.
  revert st. induction ns as [|n ns IH]; simpl; intros st; [apply is_prefix_refl|].
  eapply is_prefix_trans; [apply dict_insert_prefix|apply IH].
Qed.

Lemma add_unique_dinv h m ns : dinv h (add_unique_nodes h m ns).
Proof. apply dict_fromkeys_dinv. Qed.

Lemma mesh_of_dinv h batches : dinv h (mesh_of h batches).
Proof.
  unfold mesh_of. assert (g : forall m, dinv h m -> dinv h (fold_left (add_unique_nodes h) batches m)).
  { induction batches; simpl; auto using add_unique_dinv. }
  apply g. constructor.
Qed.

Lemma add_unique_as_fold h m ns : dinv h m -> add_unique_nodes h m ns = fold_left (dict_insert h) ns m.
Proof.
  intros hd. unfold add_unique_nodes, dict_fromkeys. rewrite fold_left_app.
  fold (dict_fromkeys h m). rewrite fromkeys_dinv by assumption. reflexivity.
Qed.

Lemma mesh_of_as_fold h batches : mesh_of h batches = fold_left (dict_insert h) (concat batches) [].
Proof.
  unfold mesh_of. assert (g : forall m, dinv h m ->
    fold_left (add_unique_nodes h) batches m = fold_left (dict_insert h) (concat batches) m).
  { induction batches as [|b bs IH]; simpl; intros m hd; auto.
    rewrite fold_left_app, IH by apply add_unique_dinv. rewrite add_unique_as_fold by assumption. reflexivity. }
  apply g. constructor.
Qed.

(** where the stored nodes come from *)
Lemma fold_insert_origin h ns st s :
  In s (fold_left (dict_insert h) ns st) ->
  (exists o, In o st /\ same_obj o s) \/ (exists o, In o ns /\ same_obj o s).
Proof.
  revert st. induction ns as [|n ns IH]; simpl; intros st hin.
  - left. exists s. split; auto. split; reflexivity.
  - destruct (IH _ hin) as [[o [ho hs]]|[o [ho hs]]]; [|right; exists o; auto].
    destruct (dict_insert_cases h st n) as [[_ e]|[st1 [x [st2 [-> [_ [_ e]]]]]]]; rewrite e in ho.
    + apply in_app_iff in ho. destruct ho as [ho|[<-|[]]].
      * left. exists o; auto.
      * right. exists n; auto.
    + left. apply in_app_iff in ho. destruct ho as [ho|[<-|ho]].
      * exists o. rewrite in_app_iff. auto.
      * exists x. rewrite in_app_iff. split; [simpl; auto|].
        destruct hs as [h1 h2]. rewrite same_or_id in h1. rewrite same_or_coord in h2. split; auto.
      * exists o. rewrite in_app_iff. simpl. auto.
Qed.

(** stored nodes keep their identity and coordinates and only gain active flags and parts *)
Definition grows (a b : node R) : Prop :=
  n_id b = n_id a /\ n_coord b = n_coord a /\
  (forall d, tget (n_flag a) d = true -> tget (n_flag b) d = true) /\ incl (n_parts a) (n_parts b).

Lemma grows_refl a : grows a a.
Proof. repeat split; auto. apply incl_refl. Qed.
Lemma grows_trans a b c : grows a b -> grows b c -> grows a c.
Proof.
  intros [h1 [h2 [h3 h4]]] [g1 [g2 [g3 g4]]]. repeat split; try congruence; auto.
  eapply incl_tran; eauto.
Qed.

Lemma grows_same_or s n : grows s (same_or s n).
Proof.
  unfold same_or. destruct (Nat.eqb _ _); [apply grows_refl|].
  unfold node_eq. destruct (coords_equal _ _); simpl; [|apply grows_refl].
  repeat split; simpl; auto.
  - intros d. destruct d; simpl; intros ->; reflexivity.
  - apply incl_appl, incl_refl.
Qed.

Lemma fold_insert_grows h ns st s :
  In s st -> exists s', In s' (fold_left (dict_insert h) ns st) /\ grows s s'.
Proof.
  revert st s. induction ns as [|n ns IH]; simpl; intros st s hin.
  - exists s. split; auto. apply grows_refl.
  - assert (hs : exists s1, In s1 (dict_insert h st n) /\ grows s s1).
    { destruct (dict_insert_cases h st n) as [[_ ->]|[st1 [x [st2 [-> [_ [_ ->]]]]]]].
      - exists s. rewrite in_app_iff. split; auto. apply grows_refl.
      - apply in_app_iff in hin. destruct hin as [hin|[<-|hin]].
        + exists s. rewrite in_app_iff. split; auto using grows_refl.
        + exists (same_or x n). rewrite in_app_iff. simpl. split; auto using grows_same_or.
        + exists s. rewrite in_app_iff. simpl. split; auto using grows_refl. }
    destruct hs as [s1 [h1 h2]]. destruct (IH _ _ h1) as [s2 [h3 h4]].
    exists s2. split; auto. eapply grows_trans; eauto.
Qed.

Lemma dict_insert_represents h st n :
  (forall s, In s st -> n_id s = n_id n -> n_coord s = n_coord n) ->
  exists s, In s (dict_insert h st n) /\ dmatch h s n = true /\ coincide (n_coord s) (n_coord n) /\
            ((exists o, In o st /\ n_id o = n_id n) \/
             (forall d, tget (n_flag n) d = true -> tget (n_flag s) d = true) /\ incl (n_parts n) (n_parts s)).
Proof.
  intros hc. destruct (dict_insert_cases h st n) as [[_ ->]|[st1 [x [st2 [-> [_ [hm ->]]]]]]].
  - exists n. rewrite in_app_iff. simpl. split; auto. split; [|split; [apply coincide_refl|right; split; auto; apply incl_refl]].
    unfold dmatch. rewrite Nat.eqb_refl. reflexivity.
  - exists (same_or x n). rewrite in_app_iff. simpl. split; auto. split.
    + erewrite dmatch_same; [exact hm| |]; [apply same_obj_or|split; reflexivity].
    + rewrite same_or_coord. unfold dmatch in hm. unfold same_or.
      destruct (Nat.eqb (n_id x) (n_id n)) eqn:ei.
      * apply Nat.eqb_eq in ei. split.
        -- rewrite (hc x); [apply coincide_refl| |assumption]. rewrite in_app_iff. simpl. auto.
        -- left. exists x. rewrite in_app_iff. simpl. auto.
      * simpl in hm. apply andb_true_iff in hm. destruct hm as [_ hm]. split.
        -- apply coords_equal_spec. assumption.
        -- right. unfold node_eq. rewrite hm. simpl. split.
           ++ intros d. destruct d; simpl; intros ->; apply orb_true_r.
           ++ apply incl_appr, incl_refl.
Qed.

Lemma fold_insert_represents h ns st n :
  In n ns ->
  (forall a b, In a (st ++ ns) -> In b (st ++ ns) -> n_id a = n_id b -> n_coord a = n_coord b) ->
  exists s, In s (fold_left (dict_insert h) ns st) /\ dmatch h s n = true /\ coincide (n_coord s) (n_coord n).
Proof.
  revert st. induction ns as [|m ns IH]; simpl; intros st hin hc; [contradiction|].
  destruct hin as [->|hin].
  - destruct (dict_insert_represents h st n) as [s [h1 [h2 [h3 _]]]].
    { intros s hs hi. apply hc; auto; apply in_app_iff; simpl; auto. }
    destruct (fold_insert_grows h ns _ s h1) as [s' [h4 [g1 [g2 _]]]].
    exists s'. split; auto. split.
    + erewrite dmatch_same; [exact h2| |]; split; auto.
    + rewrite g2. assumption.
  - apply IH; auto. intros a b ha hb.
    assert (g : forall x, In x (dict_insert h st m ++ ns) -> exists y, In y (st ++ m :: ns) /\ same_obj y x).
    { intros x hx. apply in_app_iff in hx. destruct hx as [hx|hx].
      - destruct (fold_insert_origin h [m] st x hx) as [[o [ho hs]]|[o [[<-|[]] hs]]].
        + exists o. rewrite in_app_iff. auto.
        + exists m. rewrite in_app_iff. simpl. auto.
      - exists x. rewrite in_app_iff. simpl. split; auto. split; reflexivity. }
    destruct (g a ha) as [a' [ha' [a1 a2]]]. destruct (g b hb) as [b' [hb' [b1 b2]]].
    rewrite <- a2, <- b2, <- a1, <- b1. apply hc; auto.
Qed.

Lemma fold_insert_no_loss h ns st n :
  In n ns -> NoDup (map (@n_id R) (st ++ ns)) ->
  exists s, In s (fold_left (dict_insert h) ns st) /\ coincide (n_coord s) (n_coord n) /\
            (forall d, tget (n_flag n) d = true -> tget (n_flag s) d = true) /\ incl (n_parts n) (n_parts s).
Proof.
  revert st. induction ns as [|m ns IH]; simpl; intros st hin hnd; [contradiction|].
  rewrite map_app in hnd. simpl in hnd.
  pose proof (NoDup_remove_2 _ _ _ hnd) as hn2. rewrite in_app_iff in hn2.
  destruct hin as [->|hin].
  - destruct (dict_insert_represents h st n) as [s [h1 [h2 [h3 h4]]]].
    { intros s hs hi. exfalso. apply hn2. left. rewrite <- hi. apply in_map. assumption. }
    destruct h4 as [[o [ho hi]]|[h4 h5]].
    { exfalso. apply hn2. left. rewrite <- hi. apply in_map. assumption. }
    destruct (fold_insert_grows h ns _ s h1) as [s' [h6 [g1 [g2 [g3 g4]]]]].
    exists s'. split; auto. split; [rewrite g2; assumption|]. split; auto. eapply incl_tran; eauto.
  - apply IH; auto. rewrite map_app.
    destruct (dict_insert_cases h st m) as [[_ e]|[st1 [x [st2 [hst [_ [_ e]]]]]]]; rewrite e.
    + rewrite map_app. simpl. rewrite <- app_assoc. exact hnd.
    + apply NoDup_remove_1 in hnd. rewrite hst in hnd. rewrite map_app in *. simpl in *. rewrite same_or_id. exact hnd.
Qed.

(** ** C02 *)

Lemma mesh_invariant (h : tri Z -> Z) (batches : list (list (node R))) :
  (forall a b, In a (concat batches) -> In b (concat batches) -> n_id a = n_id b -> n_coord a = n_coord b) ->
  NoDup (map node_key (mesh_of h batches)) /\
  (forall n, In n (concat batches) -> exists s, In s (mesh_of h batches) /\ coincide (n_coord s) (n_coord n)) /\
  (injective h -> forall n, In n (concat batches) -> exists s, In s (mesh_of h batches) /\ node_key s = node_key n) /\
  (forall s, In s (mesh_of h batches) -> exists n, In n (concat batches) /\ n_id n = n_id s /\ n_coord n = n_coord s) /\
  (forall new, is_prefix (map (@n_id R) (mesh_of h batches)) (map (@n_id R) (mesh_of h (batches ++ [new])))) /\
  (forall again, (forall n, In n again -> exists s, In s (mesh_of h batches) /\ n_id s = n_id n /\ n_coord s = n_coord n) ->
     mesh_of h (batches ++ [again]) = mesh_of h batches).
Proof.
  intros hc. pose proof (mesh_of_dinv h batches) as hd.
  assert (hrep : forall n, In n (concat batches) -> exists s, In s (mesh_of h batches) /\ dmatch h s n = true /\ coincide (n_coord s) (n_coord n)).
  { intros n hn. rewrite mesh_of_as_fold. apply fold_insert_represents; auto. }
  repeat split.
  - eapply dinv_nodup_keys; eauto.
  - intros n hn. destruct (hrep n hn) as [s [h1 [_ h2]]]. eauto.
  - intros hinj n hn. destruct (hrep n hn) as [s [h1 [h2 h3]]]. exists s. split; auto.
    unfold dmatch in h2. apply orb_true_iff in h2. destruct h2 as [h2|h2].
    + apply Nat.eqb_eq in h2. unfold node_key.
      destruct (fold_insert_origin h (concat batches) [] s) as [[o [[] _]]|[o [ho [hs1 hs2]]]].
      { rewrite <- mesh_of_as_fold. assumption. }
      rewrite <- hs2. rewrite (hc o n); auto. congruence.
    + apply andb_true_iff in h2. destruct h2 as [h2 _]. apply Z.eqb_eq in h2. apply hinj. assumption.
  - intros s hs. rewrite mesh_of_as_fold in hs.
    destruct (fold_insert_origin _ _ _ _ hs) as [[o [[] _]]|[o [ho [hs1 hs2]]]]. eauto.
  - intros new. unfold mesh_of at 2. rewrite fold_left_app. simpl. fold (mesh_of h batches).
    rewrite add_unique_as_fold by assumption. apply fold_insert_prefix.
  - intros again ha. unfold mesh_of at 1. rewrite fold_left_app. simpl. fold (mesh_of h batches).
    rewrite add_unique_as_fold by assumption.
    revert hd ha. generalize (mesh_of h batches). clear. induction again as [|n again IH]; simpl; intros m hd ha; auto.
    destruct (ha n) as [s [h1 [h2 h3]]]; auto.
    rewrite (dict_insert_known h m n s) by (auto; split; auto). apply IH; auto.
Qed.

Lemma mesh_no_loss (h : tri Z -> Z) (batches : list (list (node R))) :
  NoDup (map (@n_id R) (concat batches)) ->
  forall n, In n (concat batches) ->
  exists s, In s (mesh_of h batches) /\ coincide (n_coord s) (n_coord n) /\
            (forall d, tget (n_flag n) d = true -> tget (n_flag s) d = true) /\ incl (n_parts n) (n_parts s).
Proof. intros hnd n hn. rewrite mesh_of_as_fold. apply fold_insert_no_loss; auto. Qed.

(** ** C03 *)

Lemma dinv_pairwise h m :
  dinv h m -> (forall a b, In a m -> In b m -> coincide (n_coord a) (n_coord b) -> node_key a = node_key b) ->
  pairwise_not (fun a b => coincide (n_coord a) (n_coord b)) m.
Proof.
  intros hd hk i j a b hij ha hb hc. pose proof (dinv_nodup_keys _ _ hd) as hnd.
  assert (hka : nth_error (map node_key m) i = Some (node_key a)) by (rewrite nth_error_map, ha; reflexivity).
  assert (hkb : nth_error (map node_key m) j = Some (node_key b)) by (rewrite nth_error_map, hb; reflexivity).
  rewrite (hk a b) in hka by eauto using nth_error_In.
  apply hij. rewrite NoDup_nth_error in hnd. apply hnd.
  - apply nth_error_Some. rewrite hka. discriminate.
  - congruence.
Qed.

Lemma equal_nodes_once_grid (h : tri Z -> Z) (batches : list (list (node R))) :
  (forall a b, In a (concat batches) -> In b (concat batches) -> coincide (n_coord a) (n_coord b) -> node_key a = node_key b) ->
  pairwise_not (fun a b => coincide (n_coord a) (n_coord b)) (mesh_of h batches).
Proof.
  intros hk. apply dinv_pairwise with (h := h); [apply mesh_of_dinv|].
  assert (g : forall s, In s (mesh_of h batches) -> exists n, In n (concat batches) /\ n_coord n = n_coord s).
  { intros s hs. rewrite mesh_of_as_fold in hs.
    destruct (fold_insert_origin _ _ _ _ hs) as [[o [[] _]]|[o [ho [hs1 hs2]]]]. eauto. }
  intros a b ha hb hc. destruct (g a ha) as [a' [h1 h2]]. destruct (g b hb) as [b' [h3 h4]].
  pose proof (hk a' b' h1 h3) as hh. unfold node_key in *. rewrite h2, h4 in hh. auto.
Qed.

Definition straddle_a : node R := new_node 0 (4 / 10000000000) 0 0.
Definition straddle_b : node R := new_node 1 (6 / 10000000000) 0 0.

Lemma straddle_key_a : node_key straddle_a = T3 0%Z 0%Z 0%Z.
Proof.
  unfold node_key, straddle_a; simpl. f_equal; apply round9_val; apply Rabs_def1; lra.
Qed.
Lemma straddle_key_b : node_key straddle_b = T3 1%Z 0%Z 0%Z.
Proof.
  unfold node_key, straddle_b; simpl. f_equal; apply round9_val; apply Rabs_def1; lra.
Qed.
Lemma straddle_coincide : coincide (n_coord straddle_a) (n_coord straddle_b).
Proof. intros d; destruct d; simpl; apply Rabs_le; lra. Qed.

Lemma equal_nodes_once_refuted (h : tri Z -> Z) :
  h (T3 0%Z 0%Z 0%Z) <> h (T3 1%Z 0%Z 0%Z) ->
  exists ns, ~ pairwise_not (fun a b => coincide (n_coord a) (n_coord b)) (add_unique_nodes h [] ns).
Proof.
  intros hh. exists [straddle_a; straddle_b]. intros hp.
  assert (e : add_unique_nodes h [] [straddle_a; straddle_b] = [straddle_a; straddle_b]).
  { unfold add_unique_nodes, dict_fromkeys. simpl. unfold dict_insert at 2. simpl.
    unfold dict_insert. cbn [dict_find straddle_a straddle_b n_id new_node Nat.eqb].
    fold straddle_a straddle_b. rewrite straddle_key_a, straddle_key_b.
    destruct (Z.eqb_spec (h (T3 0%Z 0%Z 0%Z)) (h (T3 1%Z 0%Z 0%Z))); [contradiction|]. reflexivity. }
  rewrite e in hp. apply (hp 0%nat 1%nat straddle_a straddle_b); auto. apply straddle_coincide.
Qed.

(** ** C04 *)

Lemma reorder_from_nth (ns : list (node R)) s i :
  nth_error (reorder_from s ns) i = option_map (fun n => set_index n (s + i)) (nth_error ns i).
Proof.
  revert s i. induction ns as [|n ns IH]; intros s [|i]; simpl; auto.
  - rewrite Nat.add_0_r. reflexivity.
  - rewrite IH. replace (S s + i)%nat with (s + S i)%nat by lia. reflexivity.
Qed.

Lemma reorder_from_length (ns : list (node R)) s : length (reorder_from s ns) = length ns.
Proof. revert s. induction ns; simpl; auto. Qed.

Lemma reorder_nodes (ns : list (node R)) :
  length (reorder_node_ids ns) = length ns /\
  (forall i n, nth_error ns i = Some n ->
     nth_error (reorder_node_ids ns) i =
     Some (mkNode (n_id n) (Some i) (n_dof n) (n_coord n) (n_flag n) (n_parts n))) /\
  map (@n_index R) (reorder_node_ids ns) = map Some (seq 0 (length ns)) /\
  reorder_node_ids (reorder_node_ids ns) = reorder_node_ids ns.
Proof.
  unfold reorder_node_ids. repeat split.
  - apply reorder_from_length.
  - intros i n hn. rewrite reorder_from_nth, hn. reflexivity.
  - generalize 0%nat. induction ns as [|n ns IH]; simpl; intros s; auto. rewrite IH. reflexivity.
  - generalize 0%nat. induction ns as [|n ns IH]; simpl; intros s; auto. rewrite IH. reflexivity.
Qed.

Lemma reorder_elements (es : list element) :
  length (reorder_element_ids es) = length es /\
  (forall i e, nth_error es i = Some e ->
     nth_error (reorder_element_ids es) i = Some (mkElement (e_id e) (Some i) (e_nodes e) (e_parts e))) /\
  map e_index (reorder_element_ids es) = map Some (seq 0 (length es)) /\
  reorder_element_ids (reorder_element_ids es) = reorder_element_ids es.
Proof.
  unfold reorder_element_ids. split; [|split; [|split]].
  - generalize 0%nat. induction es; simpl; auto.
  - assert (g : forall s i e, nth_error es i = Some e -> nth_error (e_reorder_from s es) i = Some (e_set_index e (s + i))).
    { induction es as [|x es IH]; intros s [|i] e; simpl; try discriminate.
      - intros hh. injection hh as ->. rewrite Nat.add_0_r. reflexivity.
      - intros hh. rewrite (IH (S s) i e hh). replace (S s + i)%nat with (s + S i)%nat by lia. reflexivity. }
    intros i e he. apply (g 0%nat i e he).
  - generalize 0%nat. induction es as [|e es IH]; simpl; intros s; auto. rewrite IH. reflexivity.
  - generalize 0%nat. induction es as [|e es IH]; simpl; intros s; auto. rewrite IH. reflexivity.
Qed.
