(** * C116: the nodes of a train *)

From Coq Require Import Reals List Bool ZArith Arith Lia Lra Permutation.
From Verif Require Import Num PyBase Model_Geometry Model_System Model_Element Model_Moving Model_Train Model_TrainMesh
  Spec_System Spec_Train Spec_TrainMesh Proofs_System Proofs_Train Proofs_TrainMesh Props_Train.
Import ListNotations.
Local Open Scope R_scope.

(** C116: whatever nodes there were before, after the train has been initialised every part has a node of its own, the nodes of the train are
    these nodes, each once, and each carries the numbers of its part *)
Theorem C116_nodes (h : tri Z -> Z) (tn : train R) (x : part -> R) (st0 : tstate R) cd bd m :
  sound st0 -> parts_apart tn x -> initialise_train_ndof tn = (cd, bd, m) ->
  let st := initialise_nodes h tn x st0 in
  NoDup (ts_mesh st) /\
  (forall id, In id (ts_mesh st) <-> exists p, is_part tn p /\ ts_node st p = id) /\
  (forall p q, is_part tn p -> is_part tn q -> ts_node st p = ts_node st q -> p = q) /\
  (forall p, is_part tn p -> n_coord (ts_store st (ts_node st p)) = T3 (x p) (level p) 0 /\ n_dof (ts_store st (ts_node st p)) = part_numbers cd bd p) /\
  sound st.
Proof.
  intros hs ha hn st. pose proof (made_set_mesh h tn x st0 hs) as [g1 _ g3 g4 g5 g6]. set (s1 := set_mesh h tn x st0) in *.
  assert (inj : forall p q, is_part tn p -> is_part tn q -> ts_node s1 p = ts_node s1 q -> p = q) by (intros p q hp hq; apply g4; apply visits_spec; assumption).
  assert (ha0 : agree tn (ts_node s1) [] [] (ts_store s1)).
  { intros p hp. rewrite g5 by (apply g3, visits_spec; exact hp). destruct p as [i|b|b k]; cbn [part_numbers dof_of]; try reflexivity. destruct i; reflexivity. }
  pose proof (carts_numbered tn (ts_node s1) inj (tn_carts tn) [] [] (ts_store s1) 0%nat ltac:(intros k c hk; exact hk) ha0) as g. change (number_carts tn [] 0%nat (tn_carts tn)) with (initialise_train_ndof tn) in g. rewrite hn in g. cbn [length app] in g.
  fold (numbered_carts tn) in g. destruct (fold_left (cart_number tn (ts_node s1)) (numbered_carts tn) (ts_store s1, 0%nat)) as [s2 j] eqn:ef. destruct g as [_ [k1 k2]].
  assert (e2 : number_train tn s1 = mkTstate s2 (ts_next s1) (ts_mesh s1) (ts_node s1)) by (unfold number_train; rewrite ef; reflexivity).
  unfold st, initialise_nodes. fold s1. rewrite e2. clear st. rewrite reset_mesh_visits. cbn [ts_store ts_next ts_node].
  assert (hc : forall p, is_part tn p -> n_coord (s2 (ts_node s1 p)) = T3 (x p) (level p) 0) by (intros p hp; rewrite k2; apply g6, visits_spec, hp).
  destruct (reset_all h (visits tn) (mkTstate s2 (ts_next s1) [] (ts_node s1))) as [a1 [a2 [a3 [a4 a5]]]]; cbn [ts_mesh ts_node ts_store ts_next] in *.
  - constructor.
  - intros a b [[]|hA] [[]|hB] hd. apply in_map_iff in hA as [p [<- hp]]. apply in_map_iff in hB as [q [<- hq]]. apply visits_spec in hp, hq. rewrite !hc by assumption. apply (apart_coords tn x); auto. congruence.
  - set (st := fold_left _ _ _) in *. rewrite a1, a3. split; [exact a4|]. split; [|split; [exact inj|split]].
    + intros id. rewrite a5, in_map_iff. split.
      * intros [[]|[p [e hp]]]. exists p. split; [apply visits_spec; exact hp|exact e].
      * intros [p [hp e]]. right. exists p. split; [exact e|apply visits_spec; exact hp].
    + intros p hp. split; [apply hc; exact hp|apply k1; exact hp].
    + intros id hid. rewrite a2. apply a5 in hid as [[]|hid]. apply in_map_iff in hid as [p [<- hp]]. apply g3. exact hp.
Qed.
Print Assumptions C116_nodes.

(** ** every number is at one node *)

Definition slots_of_cart (i : nat) : list (part * dir) := [(PCart i, DY); (PCart i, DR)].
Definition slots_of_bogie (tn : train R) (b : nat) : list (part * dir) := (PBogie b, DY) :: (PBogie b, DR) :: map (fun k => (PWheel b k, DY)) (seq 0 (n_wheels tn b)).
Definition value (cd : list (nat * nat)) (bd : list (nat * bdof)) (pd : part * dir) : nat := match tget (part_numbers cd bd (fst pd)) (snd pd) with Some k => k | None => 0%nat end.

Lemma map_inj_nodup {A} (f : A -> nat) l a b : NoDup (map f l) -> In a l -> In b l -> f a = f b -> a = b.
Proof.
  induction l as [|c l IH]; intros hn ha hb e; [destruct ha|]. cbn [map] in hn. inversion hn as [|? ? h1 h2]; subst.
  destruct ha as [->|ha], hb as [->|hb]; auto; exfalso; apply h1; apply in_map_iff; [exists b|exists a]; auto.
Qed.
Lemma flat_map_nth {A B} (f : A -> list B) (g : nat -> list B) l j : (forall i a, nth_error l i = Some a -> g (j + i)%nat = f a) -> flat_map g (seq j (length l)) = flat_map f l.
Proof.
  revert j. induction l as [|a l IH]; intros j hg; [reflexivity|]. cbn [length seq flat_map]. rewrite (IH (S j)); [f_equal; rewrite <- (hg 0%nat a eq_refl); f_equal; lia|].
  intros i b hb. rewrite <- (hg (S i) b hb). f_equal. lia.
Qed.
Lemma map_flat {A B C} (f : B -> C) (g : A -> list B) l : map f (flat_map g l) = flat_map (fun a => map f (g a)) l.
Proof. induction l as [|a l IH]; [reflexivity|]. cbn [flat_map]. rewrite map_app, IH. reflexivity. Qed.
Lemma flat_map_in {A B} (f g : A -> list B) l : (forall a, In a l -> f a = g a) -> flat_map f l = flat_map g l.
Proof. intros h. induction l as [|a l IH]; [reflexivity|]. cbn [flat_map]. rewrite (h a (or_introl eq_refl)), IH; [reflexivity|]. intros b hb. apply h. right. exact hb. Qed.
Lemma flat_map_mapped {A B C} (f : B -> list C) (g : A -> B) l : flat_map f (map g l) = flat_map (fun a => f (g a)) l.
Proof. induction l as [|a l IH]; [reflexivity|]. cbn. rewrite IH. reflexivity. Qed.

Lemma slots_values (tn : train R) cd bd m : initialise_train_ndof tn = (cd, bd, m) ->
  map (value cd bd) (flat_map slots_of_cart (seq 0 (length cd)) ++ flat_map (slots_of_bogie tn) (map fst bd)) = train_numbers cd bd.
Proof.
  intros h. destruct (ndof_spec tn cd bd m h) as [_ [[hb1 _] [hw _]]]. rewrite map_app, !map_flat. unfold train_numbers. f_equal.
  - apply flat_map_nth. intros i [y r] e. cbn [Nat.add]. unfold value, slots_of_cart. cbn [map fst snd part_numbers]. rewrite e. reflexivity.
  - rewrite flat_map_mapped. apply flat_map_in. intros [b d] hin. cbn [fst snd]. assert (e : dof_of b bd = Some d) by (apply dof_of_In; assumption).
    unfold slots_of_bogie, bogie_numbers, value. cbn [map fst snd part_numbers]. rewrite e. cbn [tget]. do 2 f_equal. rewrite map_map. cbn [fst snd part_numbers]. rewrite e. cbn [tget tset ty].
    rewrite <- (hw b d hin). apply (nth_ext _ _ 0%nat 0%nat); [rewrite map_length, seq_length; reflexivity|]. rewrite map_length, seq_length. intros k hk.
    erewrite (nth_indep (map _ _)) by (rewrite map_length, seq_length; exact hk). rewrite (map_nth (fun k => match nth_error (bd_wheels d) k with Some k0 => k0 | None => 0%nat end) _ 0%nat). rewrite seq_nth by exact hk. cbn [Nat.add].
    rewrite (nth_error_nth' _ 0%nat) by exact hk. reflexivity.
Qed.
Lemma slot_in (tn : train R) cd bd m p d k : initialise_train_ndof tn = (cd, bd, m) -> is_part tn p -> tget (part_numbers cd bd p) d = Some k ->
  In (p, d) (flat_map slots_of_cart (seq 0 (length cd)) ++ flat_map (slots_of_bogie tn) (map fst bd)) /\ value cd bd (p, d) = k.
Proof.
  intros h hp e. split; [|unfold value; cbn [fst snd]; rewrite e; reflexivity]. destruct (ndof_spec tn cd bd m h) as [hc [[_ hb] _]]. apply in_or_app. destruct p as [i|b|b j].
  - left. apply in_flat_map. exists i. split; [apply in_seq; rewrite hc; cbn in hp; lia|]. cbn [part_numbers] in e. destruct (nth_error cd i) as [[y r]|]; destruct d; cbn [tget tx ty tr] in e; try discriminate e; cbn; auto.
  - right. apply in_flat_map. exists b. split; [apply hb; exact hp|]. cbn [part_numbers] in e. destruct (dof_of b bd); destruct d; cbn [tget tx ty tr] in e; try discriminate e; cbn; auto.
  - right. destruct hp as [hp hj]. apply in_flat_map. exists b. split; [apply hb; exact hp|]. cbn [part_numbers] in e. destruct (dof_of b bd); destruct d; cbn [tget tx ty tr] in e; try discriminate e.
    right. right. apply in_map_iff. exists j. split; [reflexivity|]. apply in_seq. unfold n_wheels. lia.
Qed.
Lemma in_slot (tn : train R) cd bd m p d : initialise_train_ndof tn = (cd, bd, m) -> In (p, d) (flat_map slots_of_cart (seq 0 (length cd)) ++ flat_map (slots_of_bogie tn) (map fst bd)) ->
  is_part tn p /\ tget (part_numbers cd bd p) d = Some (value cd bd (p, d)).
Proof.
  intros h hin. destruct (ndof_spec tn cd bd m h) as [hc [[hn hb] [hw _]]]. unfold value. cbn [fst snd]. apply in_app_or in hin as [hin|hin]; apply in_flat_map in hin as [i [hi hin]].
  - apply in_seq in hi. assert (hl : (i < length cd)%nat) by lia. apply nth_error_Some in hl. destruct hin as [q|[q|[]]]; injection q as <- <-; (split; [cbn; lia|]); cbn [part_numbers]; (destruct (nth_error cd i) as [[y r]|]; [reflexivity|congruence]).
  - assert (hp : is_part tn (PBogie i)) by (apply hb; exact hi). destruct (dof_get_entry tn cd bd m i h hp) as [e1 [e2 e3]].
    destruct hin as [q|[q|q]]; [injection q as <- <-; split; [exact hp|]; cbn [part_numbers]; rewrite e1; reflexivity|injection q as <- <-; split; [exact hp|]; cbn [part_numbers]; rewrite e1; reflexivity|].
    apply in_map_iff in q as [k [q hk]]. injection q as <- <-. apply in_seq in hk. split; [split; [exact hp|unfold n_wheels in hk; lia]|]. cbn [part_numbers]. rewrite e1. cbn [tget ty]. rewrite (nth_error_nth' _ 0%nat) by (rewrite e3; lia). reflexivity.
Qed.

(** C116: every number below the number of degrees of freedom is at one node in one direction, and no other numbers are *)
Theorem C116_numbers (h : tri Z -> Z) (tn : train R) (x : part -> R) (st0 : tstate R) cd bd m :
  sound st0 -> parts_apart tn x -> initialise_train_ndof tn = (cd, bd, m) ->
  let st := initialise_nodes h tn x st0 in
  (forall k, (k < m)%nat <-> exists id d, In id (ts_mesh st) /\ tget (n_dof (ts_store st id)) d = Some k) /\
  (forall k id d id' d', In id (ts_mesh st) -> In id' (ts_mesh st) -> tget (n_dof (ts_store st id)) d = Some k -> tget (n_dof (ts_store st id')) d' = Some k -> id = id' /\ d = d').
Proof.
  intros hs ha hn st. destruct (C116_nodes h tn x st0 cd bd m hs ha hn) as [_ [h2 [_ [h4 _]]]]. fold st in h2, h4. pose proof (slots_values tn cd bd m hn) as hv.
  destruct (ndof_spec tn cd bd m hn) as [_ [_ [_ hp]]]. pose proof (numbers_nodup tn cd bd m hn) as hd. rewrite <- hv in hp, hd. split.
  - intros k. split.
    + intros hk. assert (hin : In k (seq 0 m)) by (apply in_seq; lia). apply (Permutation_in _ (Permutation_sym hp)) in hin. apply in_map_iff in hin as [[p d] [e hin]]. destruct (in_slot tn cd bd m p d hn hin) as [q1 q2].
      exists (ts_node st p), d. split; [apply h2; exists p; auto|]. rewrite (proj2 (h4 p q1)), q2. f_equal. exact e.
    + intros [id [d [hid e]]]. apply h2 in hid as [p [hpp <-]]. rewrite (proj2 (h4 p hpp)) in e. destruct (slot_in tn cd bd m p d k hn hpp e) as [q1 q2].
      assert (hin : In k (seq 0 m)) by (apply (Permutation_in _ hp); apply in_map_iff; exists (p, d); auto). apply in_seq in hin. lia.
  - intros k id d id' d' hid hid' e e'. apply h2 in hid as [p [hpp <-]]. apply h2 in hid' as [q [hq <-]]. rewrite (proj2 (h4 p hpp)) in e. rewrite (proj2 (h4 q hq)) in e'.
    destruct (slot_in tn cd bd m p d k hn hpp e) as [a1 a2]. destruct (slot_in tn cd bd m q d' k hn hq e') as [b1 b2].
    assert (ee : (p, d) = (q, d')) by (apply (map_inj_nodup (value cd bd) _ _ _ hd a1 b1); congruence). injection ee as -> ->. auto.
Qed.
Print Assumptions C116_numbers.

(** ** the train behind a track *)

Lemma shift_all nt : forall ids (s : store R), NoDup ids -> forall z,
  n_dof (fold_left (shift_node nt) ids s z) = if in_dec Nat.eq_dec z ids then raised nt (n_dof (s z)) else n_dof (s z).
Proof.
  induction ids as [|i ids IH]; intros s hn z; [reflexivity|]. cbn [fold_left]. inversion hn as [|? ? h1 h2]; subst. rewrite IH by exact h2. unfold shift_node.
  destruct (Nat.eq_dec z i) as [->|d].
  - rewrite upd_same. destruct (in_dec Nat.eq_dec i ids) as [q|q]; [contradiction|]. destruct (in_dec Nat.eq_dec i (i :: ids)) as [q'|q']; [reflexivity|exfalso; apply q'; left; reflexivity].
  - rewrite upd_other by exact d. destruct (in_dec Nat.eq_dec z ids) as [q|q]; destruct (in_dec Nat.eq_dec z (i :: ids)) as [q'|q']; try reflexivity; exfalso; [apply q'; right; exact q|destruct q' as [q'|q']; [exact (d (eq_sym q'))|exact (q q')]].
Qed.
(** C116: when the train is put behind a track with [nt] degrees of freedom, the numbers of every part rise by [nt], once *)
Theorem C116_behind_track (h : tri Z -> Z) (tn : train R) (x : part -> R) (st0 : tstate R) cd bd m nt :
  sound st0 -> parts_apart tn x -> initialise_train_ndof tn = (cd, bd, m) ->
  let st := initialise_nodes h tn x st0 in
  forall p, is_part tn p -> n_dof (shift_train nt st (ts_node st p)) = raised nt (part_numbers cd bd p).
Proof.
  intros hs ha hn st p hp. destruct (C116_nodes h tn x st0 cd bd m hs ha hn) as [h1 [h2 [_ [h4 _]]]]. fold st in h1, h2, h4. unfold shift_train. rewrite shift_all by exact h1.
  destruct (in_dec Nat.eq_dec (ts_node st p) (ts_mesh st)) as [q|q]; [rewrite (proj2 (h4 p hp)); reflexivity|]. exfalso. apply q. apply h2. exists p. auto.
Qed.
Print Assumptions C116_behind_track.

(** ** why the mesh is reset *)

Lemma coords_refl (a : tri R) : coords_equal a a = true.
Proof.
  unfold coords_equal. rnum. rewrite !Rminus_diag_eq, !nabs_R, !Rabs_R0, !ndec_R by reflexivity. change (10 ^ 9)%Z with 1000000000%Z. destruct (nltbP (1 / 1000000000) 0); [lra|reflexivity].
Qed.
Lemma find_key_hit h (s : store R) n k : forall stored, In k stored -> n_coord (s k) = n_coord (s n) ->
  (forall j, In j stored -> j <> n /\ (j <> k -> coords_equal (n_coord (s j)) (n_coord (s n)) = false)) -> find_key h s stored n = Some (upd s k (snd (node_eq (s k) (s n)))).
Proof.
  induction stored as [|j r IH]; intros hk hc hj; [destruct hk|]. cbn [find_key]. destruct (hj j (or_introl eq_refl)) as [d1 d2]. destruct (Nat.eqb_spec j n) as [->|_]; [exfalso; exact (d1 eq_refl)|].
  destruct (Nat.eq_dec j k) as [->|d].
  - unfold node_key. rewrite hc, Z.eqb_refl. unfold node_eq. rewrite hc, coords_refl. reflexivity.
  - assert (g : find_key h s r n = Some (upd s k (snd (node_eq (s k) (s n))))).
    { apply IH; [destruct hk as [hk|hk]; [contradiction|exact hk]|exact hc|intros i hi; apply hj; right; exact hi]. }
    destruct (Z.eqb _ _); [|exact g]. unfold node_eq at 1. rewrite (d2 d). exact g.
Qed.
Lemma add_hit h (s : store R) m n k : NoDup m -> ~ In n m -> In k m -> n_coord (s k) = n_coord (s n) ->
  (forall a b, In a m -> In b m -> a <> b -> coords_equal (n_coord (s a)) (n_coord (s b)) = false) ->
  add_nodes h s m [n] = (upd s k (snd (node_eq (s k) (s n))), m).
Proof.
  intros hd hn hk hc hs. unfold add_nodes. rewrite fold_left_app. rewrite (fold_apart h s m []) by assumption. cbn [app fold_left]. unfold insert_key. cbn [fst snd].
  rewrite (find_key_hit h s n k m hk hc); [reflexivity|]. intros j hj. split; [intros ->; contradiction|]. intros d. rewrite <- hc. apply hs; assumption.
Qed.

Record first_nodes (x : part -> R) (seen : list part) (st : tstate R) (f : part -> nat) : Prop := {
  fn_nodup : NoDup (ts_mesh st);
  fn_mesh : forall id, In id (ts_mesh st) <-> exists p, In p seen /\ f p = id;
  fn_coord : forall p, In p seen -> n_coord (ts_store st (f p)) = T3 (x p) (level p) 0;
  fn_lt : forall p, In p seen -> (f p <= ts_node st p < ts_next st)%nat;
  fn_same : forall p, In p seen -> f p = ts_node st p <-> count_occ part_dec seen p = 1%nat }.

Lemma add_coord h (s : store R) m ns id : n_coord (fst (add_nodes h s m ns) id) = n_coord (s id).
Proof. unfold add_nodes. apply fold_coord. Qed.

Lemma first_step h tn x seen st f p : parts_apart tn x -> (forall q, In q (seen ++ [p]) -> is_part tn q) -> first_nodes x seen st f ->
  first_nodes x (seen ++ [p]) (new_part_node h p (x p) (level p) st) (fun q => if in_dec part_dec q seen then f q else ts_next st).
Proof.
  intros ha hp [h1 h2 h3 h4 h5]. set (N := ts_next st). unfold new_part_node. fold N. set (s := upd (ts_store st) N (new_node N (x p) (level p) (lit 0))).
  assert (hpart : is_part tn p) by (apply hp; apply in_or_app; right; left; reflexivity).
  assert (hseen : forall q, In q seen -> is_part tn q) by (intros q hq; apply hp; apply in_or_app; left; exact hq).
  assert (hsN : n_coord (s N) = T3 (x p) (level p) 0) by (unfold s; rewrite upd_same; reflexivity).
  assert (hmN : forall id, In id (ts_mesh st) -> (id < N)%nat) by (intros id hid; apply h2 in hid as [q [hq <-]]; specialize (h4 q hq); lia).
  assert (hso : forall id, (id < N)%nat -> s id = ts_store st id) by (intros id d; unfold s; apply upd_other; lia).
  assert (hm : forall id, In id (ts_mesh st) -> exists q, In q seen /\ f q = id /\ n_coord (s id) = T3 (x q) (level q) 0).
  { intros id hid. pose proof (hmN id hid). apply h2 in hid as [q [hq <-]]. exists q. split; [exact hq|]. split; [reflexivity|]. rewrite hso by assumption. apply h3, hq. }
  assert (hap : forall a b, In a (ts_mesh st) -> In b (ts_mesh st) -> a <> b -> coords_equal (n_coord (s a)) (n_coord (s b)) = false).
  { intros a b hA hB d. destruct (hm a hA) as [q [q1 [q2 ->]]]. destruct (hm b hB) as [r [r1 [r2 ->]]]. apply (apart_coords tn x); auto. congruence. }
  destruct (in_dec part_dec p seen) as [hin|hin].
  - assert (hfp : In (f p) (ts_mesh st)) by (apply h2; exists p; auto). pose proof (hmN _ hfp) as hlt.
    pose proof (add_hit h s (ts_mesh st) N (f p) h1 ltac:(intros q; specialize (hmN _ q); lia) hfp ltac:(rewrite hsN, hso by exact hlt; apply h3; exact hin) hap) as e. rewrite e.
    assert (hin2 : forall q, In q (seen ++ [p]) <-> In q seen) by (intros q; rewrite in_app_iff; split; [intros [?|[<-|[]]]; assumption|auto]).
    constructor; cbn [ts_mesh ts_store ts_node ts_next].
    + exact h1.
    + intros id. rewrite h2. split; intros [q [q1 q2]]; exists q; (split; [apply hin2; exact q1|]); (destruct (in_dec part_dec q seen) as [?|z]; [exact q2|exfalso; apply z; apply hin2 in q1; exact q1]) || (destruct (in_dec part_dec q seen) as [?|z]; [exact q2|exfalso; apply z; exact q1]).
    + intros q hq. apply hin2 in hq. destruct (in_dec part_dec q seen) as [_|z]; [|contradiction]. pose proof (add_coord h s (ts_mesh st) [N] (f q)) as c. rewrite e in c. cbn [fst] in c. rewrite c.
      rewrite hso by (specialize (h4 q hq); lia). apply h3. exact hq.
    + intros q hq. apply hin2 in hq. destruct (in_dec part_dec q seen) as [_|z]; [|contradiction]. specialize (h4 q hq). destruct (part_eqb q p); lia.
    + intros q hq. apply hin2 in hq. destruct (in_dec part_dec q seen) as [_|z]; [|contradiction]. rewrite count_occ_app. cbn [count_occ]. destruct (part_dec p q) as [->|d].
      * rewrite (proj2 (part_eqb_spec q q) eq_refl). pose proof (proj1 (count_occ_In part_dec seen q) hq). specialize (h4 q hq). split; intros; lia.
      * destruct (part_eqb q p) eqn:ee; [apply part_eqb_spec in ee; congruence|]. rewrite Nat.add_0_r. apply h5. exact hq.
  - assert (hn : ~ In N (ts_mesh st)) by (intros q; specialize (hmN _ q); lia).
    assert (hap2 : forall a b, In a (ts_mesh st ++ [N]) -> In b (ts_mesh st ++ [N]) -> a <> b -> coords_equal (n_coord (s a)) (n_coord (s b)) = false).
    { assert (g : forall a, In a (ts_mesh st ++ [N]) -> exists q, In q (seen ++ [p]) /\ (if in_dec part_dec q seen then f q else N) = a /\ n_coord (s a) = T3 (x q) (level q) 0).
      { intros a hA. apply in_app_or in hA as [hA|[<-|[]]].
        - destruct (hm a hA) as [q [q1 [q2 q3]]]. exists q. split; [apply in_or_app; auto|]. split; [|exact q3]. destruct (in_dec part_dec q seen); [exact q2|contradiction].
        - exists p. split; [apply in_or_app; right; left; reflexivity|]. split; [|exact hsN]. destruct (in_dec part_dec p seen); [contradiction|reflexivity]. }
      intros a b hA hB d. destruct (g a hA) as [q [q1 [q2 ->]]]. destruct (g b hB) as [r [r1 [r2 ->]]]. apply (apart_coords tn x); auto. intros ee. subst r. congruence. }
    rewrite (add_apart h s (ts_mesh st) N hap2 h1). destruct (in_dec Nat.eq_dec N (ts_mesh st)) as [z|_]; [contradiction|].
    assert (hcase : forall q, In q (seen ++ [p]) -> (In q seen /\ q <> p) \/ q = p).
    { intros q hq. apply in_app_or in hq as [hq|[<-|[]]]; [|right; reflexivity]. destruct (part_dec q p) as [->|d]; [right; reflexivity|left; auto]. }
    constructor; cbn [ts_mesh ts_store ts_node ts_next].
    + apply NoDup_rev in h1. rewrite <- (rev_involutive (ts_mesh st ++ [N])). apply NoDup_rev. rewrite rev_app_distr. cbn [rev app]. constructor; [rewrite <- in_rev; exact hn|exact h1].
    + intros id. rewrite in_app_iff, h2. split.
      * intros [[q [q1 q2]]|[<-|[]]].
        -- exists q. split; [apply in_or_app; auto|]. destruct (in_dec part_dec q seen); [exact q2|contradiction].
        -- exists p. split; [apply in_or_app; right; left; reflexivity|]. destruct (in_dec part_dec p seen); [contradiction|reflexivity].
      * intros [q [q1 q2]]. destruct (hcase q q1) as [[g1 g2]| ->]; [left; exists q; split; [exact g1|]; destruct (in_dec part_dec q seen); [exact q2|contradiction]|right; left]. destruct (in_dec part_dec p seen); [contradiction|exact q2].
    + intros q hq. destruct (hcase q hq) as [[g1 g2]| ->]; [destruct (in_dec part_dec q seen) as [_|z]; [|contradiction]; rewrite hso by (specialize (h4 q g1); lia); apply h3; exact g1|]. destruct (in_dec part_dec p seen); [contradiction|exact hsN].
    + intros q hq. destruct (hcase q hq) as [[g1 g2]| ->].
      * destruct (in_dec part_dec q seen) as [_|z]; [|contradiction]. destruct (part_eqb q p) eqn:ee; [apply part_eqb_spec in ee; contradiction|]. specialize (h4 q g1). lia.
      * destruct (in_dec part_dec p seen); [contradiction|]. rewrite (proj2 (part_eqb_spec p p) eq_refl). lia.
    + intros q hq. rewrite count_occ_app. cbn [count_occ]. destruct (hcase q hq) as [[g1 g2]| ->].
      * destruct (in_dec part_dec q seen) as [_|z]; [|contradiction]. destruct (part_eqb q p) eqn:ee; [apply part_eqb_spec in ee; contradiction|]. destruct (part_dec p q); [congruence|]. rewrite Nat.add_0_r. apply h5. exact g1.
      * destruct (in_dec part_dec p seen); [contradiction|]. rewrite (proj2 (part_eqb_spec p p) eq_refl). destruct (part_dec p p); [|contradiction]. rewrite (proj1 (count_occ_not_In part_dec seen p) hin). tauto.
Qed.
Lemma first_all h tn x ps : forall seen st f, parts_apart tn x -> (forall q, In q (seen ++ ps) -> is_part tn q) -> first_nodes x seen st f ->
  exists f', first_nodes x (seen ++ ps) (fold_left (fun st p => new_part_node h p (x p) (level p) st) ps st) f'.
Proof.
  induction ps as [|p ps IH]; intros seen st f ha hp hf; cbn [fold_left]; [exists f; rewrite app_nil_r; exact hf|].
  replace (seen ++ p :: ps) with ((seen ++ [p]) ++ ps) in * by (rewrite <- app_assoc; reflexivity).
  apply (IH (seen ++ [p]) _ (fun q => if in_dec part_dec q seen then f q else ts_next st)); [exact ha|exact hp|]. apply (first_step h tn); [exact ha| |exact hf]. intros q hq. apply hp. apply in_or_app. left. exact hq.
Qed.

Lemma count_flat {A} (dec : forall a b : part, {a = b} + {a <> b}) (g : A -> list part) l p : count_occ dec (flat_map g l) p = list_sum (map (fun a => count_occ dec (g a) p) l).
Proof. induction l as [|a l IH]; [reflexivity|]. cbn [flat_map map list_sum]. rewrite count_occ_app, IH. reflexivity. Qed.
Definition times_used (tn : train R) (b : nat) : nat := count_occ Nat.eq_dec (flat_map (@ct_bogies R) (tn_carts tn)) b.
Lemma count_wheels b k : forall n j, count_occ part_dec (map (PWheel b) (seq j n)) (PWheel b k) = if (j <=? k)%nat && (k <? j + n)%nat then 1%nat else 0%nat.
Proof.
  induction n as [|n IH]; intros j; cbn [seq map count_occ].
  - destruct (Nat.leb_spec j k); [|reflexivity]. destruct (Nat.ltb_spec k (j + 0)); [lia|reflexivity].
  - rewrite IH. destruct (part_dec (PWheel b j) (PWheel b k)) as [e|e].
    + injection e as ->. destruct (Nat.leb_spec (S k) k); [lia|]. destruct (Nat.leb_spec k k); [|lia]. destruct (Nat.ltb_spec k (k + S n)); [reflexivity|lia].
    + assert (j <> k) by congruence. destruct (Nat.leb_spec (S j) k), (Nat.leb_spec j k), (Nat.ltb_spec k (S j + n)), (Nat.ltb_spec k (j + S n)); try lia; reflexivity.
Qed.
Lemma count_visits_bogies tn (p : part) b : (p = PBogie b \/ exists k, p = PWheel b k /\ (k < length (bg_wheels (bogie_of tn b)))%nat) -> forall bs,
  count_occ part_dec (flat_map (fun b => PBogie b :: map (PWheel b) (seq 0 (length (bg_wheels (bogie_of tn b))))) bs) p = count_occ Nat.eq_dec bs b.
Proof.
  intros hp. induction bs as [|c bs IH]; [reflexivity|]. cbn [flat_map]. rewrite count_occ_app, IH. destruct (Nat.eq_dec c b) as [->|d]; [rewrite (count_occ_cons_eq Nat.eq_dec) by reflexivity|rewrite (count_occ_cons_neq Nat.eq_dec) by exact d].
  - cut (count_occ part_dec (PBogie b :: map (PWheel b) (seq 0 (length (bg_wheels (bogie_of tn b))))) p = 1%nat); [intros ->; reflexivity|]. cbn [count_occ]. destruct hp as [->|[k [-> hk]]].
    + destruct (part_dec (PBogie b) (PBogie b)); [|contradiction]. f_equal. apply count_occ_not_In. intros q. apply in_map_iff in q as [? [q _]]. discriminate q.
    + destruct (part_dec (PBogie b) (PWheel b k)) as [e|_]; [discriminate e|]. rewrite count_wheels. cbn [Nat.leb andb Nat.add]. apply Nat.ltb_lt in hk. rewrite hk. reflexivity.
  - cut (count_occ part_dec (PBogie c :: map (PWheel c) (seq 0 (length (bg_wheels (bogie_of tn c))))) p = 0%nat); [intros ->; reflexivity|]. apply count_occ_not_In. intros [q|q].
    + destruct hp as [->|[k [-> _]]]; congruence.
    + apply in_map_iff in q as [? [q _]]. destruct hp as [->|[k [-> _]]]; congruence.
Qed.
Lemma count_visits tn p : is_part tn p -> count_occ part_dec (visits tn) p = match p with PCart _ => 1%nat | PBogie b | PWheel b _ => times_used tn b end.
Proof.
  intros hp. unfold visits, times_used, numbered_carts.
  assert (gb : forall b, (p = PBogie b \/ exists k, p = PWheel b k /\ (k < length (bg_wheels (bogie_of tn b)))%nat) -> forall cs j,
    count_occ part_dec (flat_map (fun ic : nat * cart R => PCart (fst ic) :: flat_map (fun b => PBogie b :: map (PWheel b) (seq 0 (length (bg_wheels (bogie_of tn b))))) (ct_bogies (snd ic))) (combine (seq j (length cs)) cs)) p =
    count_occ Nat.eq_dec (flat_map (@ct_bogies R) cs) b).
  { intros b hb. induction cs as [|c cs IH]; intros j; [reflexivity|]. cbn [length seq combine flat_map fst snd]. rewrite !count_occ_app, IH. f_equal. cbn [count_occ]. rewrite (count_visits_bogies tn p b hb).
    destruct (part_dec (PCart j) p) as [e|_]; [|reflexivity]. destruct hb as [->|[k [-> _]]]; discriminate e. }
  destruct p as [i|b|b k].
  - assert (gc : forall cs j, count_occ part_dec (flat_map (fun ic : nat * cart R => PCart (fst ic) :: flat_map (fun b => PBogie b :: map (PWheel b) (seq 0 (length (bg_wheels (bogie_of tn b))))) (ct_bogies (snd ic))) (combine (seq j (length cs)) cs)) (PCart i) =
      if (j <=? i)%nat && (i <? j + length cs)%nat then 1%nat else 0%nat).
    { induction cs as [|c cs IH]; intros j; cbn [length seq combine flat_map fst snd].
      - change (count_occ part_dec [] (PCart i)) with 0%nat. destruct (Nat.leb_spec j i); [|reflexivity]. destruct (Nat.ltb_spec i (j + 0)); [lia|reflexivity].
      - rewrite count_occ_app, IH. cut (count_occ part_dec (PCart j :: flat_map (fun b => PBogie b :: map (PWheel b) (seq 0 (length (bg_wheels (bogie_of tn b))))) (ct_bogies c)) (PCart i) = if Nat.eqb j i then 1%nat else 0%nat).
        + intros ->. destruct (Nat.eqb_spec j i), (Nat.leb_spec (S j) i), (Nat.leb_spec j i), (Nat.ltb_spec i (S j + length cs)), (Nat.ltb_spec i (j + S (length cs))); try lia; reflexivity.
        + cbn [count_occ]. rewrite (proj1 (count_occ_not_In part_dec (flat_map _ _) (PCart i))).
          * destruct (part_dec (PCart j) (PCart i)) as [e|e]; [injection e as ->; rewrite Nat.eqb_refl; reflexivity|]. destruct (Nat.eqb_spec j i) as [->|_]; [contradiction|reflexivity].
          * intros q. apply in_flat_map in q as [b [_ [q|q]]]; [discriminate q|]. apply in_map_iff in q as [? [q _]]. discriminate q. }
    rewrite gc. cbn in hp. cbn [Nat.leb andb Nat.add]. apply Nat.ltb_lt in hp. rewrite hp. reflexivity.
  - apply gb. left. reflexivity.
  - apply gb. right. exists k. split; [reflexivity|]. apply hp.
Qed.

(** C116: before the mesh is reset, the nodes of the train are not those of a bogie, or of its wheels, that belongs to more than one cart *)
Theorem C116_before_reset (h : tri Z -> Z) (tn : train R) (x : part -> R) (st0 : tstate R) :
  ts_mesh st0 = [] -> parts_apart tn x -> let st := set_mesh h tn x st0 in
  forall p, is_part tn p -> (In (ts_node st p) (ts_mesh st) <-> match p with PCart _ => True | PBogie b | PWheel b _ => times_used tn b = 1%nat end).
Proof.
  intros h0 ha st p hp. destruct (first_all h tn x (visits tn) [] st0 (fun _ => 0%nat) ha) as [f [q1 q2 q3 q4 q5]].
  - intros q hq. apply visits_spec. exact hq.
  - constructor; try (intros; contradiction); rewrite h0; [constructor|]. intros id. split; [intros []|]. intros [q [[] _]].
  - cbn [app] in *. rewrite <- set_mesh_visits in q1, q2, q3, q4, q5. fold st in q1, q2, q3, q4, q5.
    assert (hv : In p (visits tn)) by (apply visits_spec; exact hp). pose proof (made_set_mesh h tn x st0 ltac:(intros id hid; rewrite h0 in hid; destruct hid)) as [_ _ _ _ _ hc]. fold st in hc.
    assert (hin : In (ts_node st p) (ts_mesh st) <-> f p = ts_node st p).
    { rewrite q2. split; [|intros e; exists p; auto]. intros [q [hq e]]. destruct (part_dec q p) as [->|d]; [exact e|]. exfalso.
      pose proof (hc p hv) as c1. pose proof (q3 q hq) as c2. rewrite e in c2. assert (c3 : T3 (x q) (level q) 0 = T3 (x p) (level p) 0) by congruence.
      pose proof (apart_coords tn x q p ha (proj1 (visits_spec tn q) hq) hp d) as c4. rewrite c3, coords_refl in c4. discriminate c4. }
    rewrite hin, (q5 p hv), (count_visits tn p hp). destruct p; tauto.
Qed.
Print Assumptions C116_before_reset.

(** ** parts at the same place *)

Lemma numbers_shape (tn : train R) cd bd m p : initialise_train_ndof tn = (cd, bd, m) -> is_part tn p ->
  exists y, match p with PWheel _ _ => part_numbers cd bd p = T3 None (Some y) None | _ => exists r, part_numbers cd bd p = T3 None (Some y) (Some r) end.
Proof.
  intros h hp. destruct (ndof_spec tn cd bd m h) as [hc _]. destruct p as [i|b|b k]; cbn [part_numbers].
  - cbn in hp. rewrite <- hc in hp. apply nth_error_Some in hp. destruct (nth_error cd i) as [[y r]|]; [|congruence]. exists y, r. reflexivity.
  - destruct (dof_get_entry tn cd bd m b h hp) as [-> _]. eexists _, _. reflexivity.
  - destruct hp as [hp hk]. destruct (dof_get_entry tn cd bd m b h hp) as [-> [_ hl]]. exists (nth k (bd_wheels (dof_get bd b)) 0%nat). rewrite (nth_error_nth' _ 0%nat) by (rewrite hl; exact hk). reflexivity.
Qed.
Lemma merge_numbers (tn : train R) cd bd m p q : initialise_train_ndof tn = (cd, bd, m) -> is_part tn p -> is_part tn q -> level p = level q ->
  tmap2 merge_idx (part_numbers cd bd p) (part_numbers cd bd q) = part_numbers cd bd q.
Proof.
  intros h hp hq hl. destruct (numbers_shape tn cd bd m p h hp) as [y gp]. destruct (numbers_shape tn cd bd m q h hq) as [z gq].
  destruct p, q; cbn [level] in hl; try lra; repeat (match goal with g : exists r, _ |- _ => destruct g as [? g] end); rewrite gp, gq; reflexivity.
Qed.

Section Coincident.
  Variables (h : tri Z -> Z) (tn : train R) (x : part -> R) (cd : list (nat * nat)) (bd : list (nat * bdof)) (m : nat) (nd : part -> nat) (nx : nat).
  Hypotheses (hn : initialise_train_ndof tn = (cd, bd, m)) (ha : aligned tn x) (inj : forall p q, is_part tn p -> is_part tn q -> nd p = nd q -> p = q).

  Record grouped (seen : list part) (st : tstate R) : Prop := {
    gr_node : ts_node st = nd;
    gr_nodup : NoDup (ts_mesh st);
    gr_coord : forall p, is_part tn p -> n_coord (ts_store st (nd p)) = T3 (x p) (level p) 0;
    gr_from : forall id, In id (ts_mesh st) -> exists p, In p seen /\ nd p = id;
    gr_some : forall p, In p seen -> exists q, In q seen /\ same_place x p q /\ In (nd q) (ts_mesh st);
    gr_one : forall p q, is_part tn p -> is_part tn q -> same_place x p q -> In (nd p) (ts_mesh st) -> In (nd q) (ts_mesh st) -> p = q;
    gr_in : forall p, is_part tn p -> In (nd p) (ts_mesh st) -> exists q, In q seen /\ same_place x p q /\ n_dof (ts_store st (nd p)) = part_numbers cd bd q /\ ((exists r, In r seen /\ r <> p /\ same_place x p r) -> q <> p);
    gr_out : forall p, is_part tn p -> ~ In (nd p) (ts_mesh st) -> n_dof (ts_store st (nd p)) = part_numbers cd bd p }.

  Lemma apart_coords2 p q : is_part tn p -> is_part tn q -> ~ same_place x p q -> coords_equal (T3 (x p) (level p) 0) (T3 (x q) (level q) 0) = false.
  Proof.
    intros hp hq hd. unfold coords_equal. cbn [tx ty tr]. rewrite !ndec_R, !nabs_R. rnum. change (10 ^ 9)%Z with 1000000000%Z.
    destruct (Req_dec (level p) (level q)) as [e|e].
    - destruct (ha p q hp hq e) as [e2|e2]; [exfalso; apply hd; split; assumption|]. destruct (nltbP (1 / 1000000000) (Rabs (x p - x q))); [reflexivity|contradiction].
    - destruct (nltbP (1 / 1000000000) (Rabs (level p - level q))) as [l|l]; [rewrite andb_false_r; reflexivity|]. exfalso. apply l.
      destruct p, q; cbn [level] in *; try lra; unfold Rabs; destruct (Rcase_abs _); lra.
  Qed.
  Lemma same_refl p : same_place x p p. Proof. split; reflexivity. Qed.
  Lemma same_sym p q : same_place x p q -> same_place x q p. Proof. intros [h1 h2]; split; congruence. Qed.
  Lemma same_trans p q r : same_place x p q -> same_place x q r -> same_place x p r. Proof. intros [h1 h2] [h3 h4]; split; congruence. Qed.
  Lemma same_dec p q : {same_place x p q} + {~ same_place x p q}.
  Proof. destruct (Req_EM_T (level p) (level q)) as [e|e]; [|right; intros [q1 q2]; exact (e q1)]. destruct (Req_EM_T (x p) (x q)) as [e'|e']; [left; split; assumption|right; intros [q1 q2]; exact (e' q2)]. Qed.

  Lemma grouped_step seen st p : (forall q, In q (seen ++ [p]) -> is_part tn q) -> grouped seen st -> grouped (seen ++ [p]) (add_part_node h p st).
  Proof.
    intros hp [g1 g2 g3 g4 g5 g6 g7 g8]. assert (hpp : is_part tn p) by (apply hp, in_or_app; right; left; reflexivity).
    assert (hs : forall q, In q seen -> is_part tn q) by (intros q hq; apply hp, in_or_app; left; exact hq).
    assert (hap : forall a b, In a (ts_mesh st) -> In b (ts_mesh st) -> a <> b -> coords_equal (n_coord (ts_store st a)) (n_coord (ts_store st b)) = false).
    { intros a b hA hB d. destruct (g4 a hA) as [q [q1 <-]]. destruct (g4 b hB) as [r [r1 <-]]. rewrite !g3 by auto. apply apart_coords2; auto. intros hq. apply d. f_equal. apply g6; auto. }
    assert (inl : forall q, In q seen -> In q (seen ++ [p])) by (intros q hq; apply in_or_app; left; exact hq).
    assert (inp : In p (seen ++ [p])) by (apply in_or_app; right; left; reflexivity).
    assert (cas : forall q, In q (seen ++ [p]) -> In q seen \/ q = p) by (intros q hq; apply in_app_or in hq as [hq|[<-|[]]]; auto).
    unfold add_part_node. rewrite g1. destruct (in_dec Nat.eq_dec (nd p) (ts_mesh st)) as [hin|hin].
    - assert (hps : In p seen). { destruct (g4 _ hin) as [q [q1 q2]]. rewrite <- (inj q p (hs q q1) hpp q2). exact q1. }
      rewrite (add_apart h (ts_store st) (ts_mesh st) (nd p)).
      + destruct (in_dec Nat.eq_dec (nd p) (ts_mesh st)) as [_|z]; [|contradiction].
        assert (cas2 : forall q, In q (seen ++ [p]) -> In q seen) by (intros q hq; destruct (cas q hq) as [?| ->]; assumption).
        constructor; cbn [ts_node ts_mesh ts_store]; auto.
        * intros id hid. destruct (g4 id hid) as [q [q1 q2]]. exists q. auto.
        * intros q hq. destruct (g5 q (cas2 q hq)) as [r [r1 r2]]. exists r. auto.
        * intros q hq hi. destruct (g7 q hq hi) as [r [r1 [r2 [r3 r4]]]]. exists r. split; [apply inl; exact r1|]. split; [exact r2|]. split; [exact r3|]. intros [t [t1 t2]]. apply r4. exists t. auto.
      + intros a b hA hB. apply hap; [apply in_app_or in hA as [hA|[<-|[]]]; assumption|apply in_app_or in hB as [hB|[<-|[]]]; assumption].
      + exact g2.
    - assert (hno : forall q, In q seen -> nd q <> nd p \/ True) by auto. clear hno.
      destruct (List.Exists_dec (fun q => same_place x p q) seen (same_dec p)) as [ex|ex].
      + apply Exists_exists in ex as [q [q1 q2]]. destruct (g5 q q1) as [q0 [r1 [r2 r3]]]. assert (s0 : same_place x p q0) by exact (same_trans _ _ _ q2 r2). assert (hq0 : is_part tn q0) by auto.
        assert (hne : q0 <> p) by (intros ->; contradiction).
        rewrite (add_hit h (ts_store st) (ts_mesh st) (nd p) (nd q0) g2 hin r3); [|rewrite !g3 by assumption; destruct s0 as [-> ->]; reflexivity|exact hap].
        set (s' := upd (ts_store st) (nd q0) (snd (node_eq (ts_store st (nd q0)) (ts_store st (nd p))))).
        assert (hd0 : n_dof (s' (nd q0)) = part_numbers cd bd p).
        { unfold s'. rewrite upd_same. unfold node_eq. rewrite !g3 by assumption. replace (T3 (x p) (level p) 0) with (T3 (x q0) (level q0) 0) by (destruct s0 as [-> ->]; reflexivity). rewrite coords_refl. cbn [snd n_dof].
          rewrite (g8 p hpp hin). destruct (g7 q0 hq0 r3) as [t [t1 [t2 [t3 _]]]]. rewrite t3. apply (merge_numbers tn cd bd m); auto. destruct s0, t2. congruence. }
        assert (hoth : forall r, is_part tn r -> r <> q0 -> s' (nd r) = ts_store st (nd r)) by (intros r hr d; unfold s'; apply upd_other; intros e; apply d; apply inj; assumption).
        constructor; cbn [ts_node ts_mesh ts_store]; auto.
        * intros r hr. destruct (part_dec r q0) as [->|d]; [|rewrite hoth by assumption; apply g3; exact hr]. unfold s'. rewrite upd_same, node_eq_coord. apply g3. exact hr.
        * intros id hid. destruct (g4 id hid) as [r [k1 k2]]. exists r. auto.
        * intros r hr. destruct (cas r hr) as [hr'| ->]; [destruct (g5 r hr') as [t [k1 k2]]; exists t; auto|]. exists q0. auto.
        * intros r hr hi. destruct (part_dec r q0) as [->|d].
          -- exists p. split; [exact inp|]. split; [apply same_sym; exact s0|]. split; [exact hd0|]. intros _ e. exact (hne (eq_sym e)).
          -- rewrite hoth by assumption. destruct (g7 r hr hi) as [t [k1 [k2 [k3 k4]]]]. exists t. split; [apply inl; exact k1|]. split; [exact k2|]. split; [exact k3|]. intros [u [u1 [u2 u3]]]. apply k4. destruct (cas u u1) as [u1'| ->]; [exists u; auto|].
             exfalso. apply d. apply g6; auto. exact (same_trans _ _ _ u3 s0).
        * intros r hr ho. rewrite hoth; [apply g8; assumption|exact hr|]. intros ->. contradiction.
      + assert (hnone : forall q, In q seen -> ~ same_place x p q) by (intros q hq e; apply ex; apply Exists_exists; exists q; auto).
        rewrite (add_apart h (ts_store st) (ts_mesh st) (nd p)).
        * destruct (in_dec Nat.eq_dec (nd p) (ts_mesh st)) as [z|_]; [contradiction|]. assert (hm : forall id, In id (ts_mesh st ++ [nd p]) <-> In id (ts_mesh st) \/ id = nd p) by (intros id; rewrite in_app_iff; cbn; intuition).
          assert (hpin : forall r, is_part tn r -> In (nd r) (ts_mesh st) -> In r seen). { intros r hr hi. destruct (g4 _ hi) as [t [t1 t2]]. rewrite <- (inj t r (hs t t1) hr t2). exact t1. }
          constructor; cbn [ts_node ts_mesh ts_store]; auto.
          -- apply NoDup_rev in g2. rewrite <- (rev_involutive (ts_mesh st ++ [nd p])). apply NoDup_rev. rewrite rev_app_distr. cbn [rev app]. constructor; [rewrite <- in_rev; exact hin|exact g2].
          -- intros id hid. apply hm in hid as [hid| ->]; [destruct (g4 id hid) as [r [k1 k2]]; exists r; auto|exists p; auto].
          -- intros r hr. destruct (cas r hr) as [hr'| ->]; [destruct (g5 r hr') as [t [k1 [k2 k3]]]; exists t; split; [auto|]; split; [exact k2|]; apply hm; auto|]. exists p. split; [exact inp|]. split; [apply same_refl|]. apply hm. auto.
          -- intros r t hr ht hst k1 k2. apply hm in k1 as [k1|k1]; apply hm in k2 as [k2|k2].
             ++ apply g6; auto.
             ++ apply (inj t p ht hpp) in k2. subst t. exfalso. apply (hnone r (hpin r hr k1)). apply same_sym. exact hst.
             ++ apply (inj r p hr hpp) in k1. subst r. exfalso. apply (hnone t (hpin t ht k2)). exact hst.
             ++ apply (inj r p hr hpp) in k1. apply (inj t p ht hpp) in k2. congruence.
          -- intros r hr k. destruct (part_dec r p) as [->|d].
             ++ exists p. split; [exact inp|]. split; [apply same_refl|]. split; [apply g8; assumption|]. intros [t [t1 [t2 t3]]]. exfalso. destruct (cas t t1) as [t1'| ->]; [exact (hnone t t1' t3)|exact (t2 eq_refl)].
             ++ apply hm in k as [k|k]; [|exfalso; apply d; apply inj; assumption]. destruct (g7 r hr k) as [t [k1 [k2 [k3 k4]]]]. exists t. split; [apply inl; exact k1|]. split; [exact k2|]. split; [exact k3|].
                intros [u [u1 [u2 u3]]]. apply k4. destruct (cas u u1) as [u1'| ->]; [exists u; auto|]. exfalso. apply (hnone r (hpin r hr k)). apply same_sym. exact u3.
          -- intros r hr ho. apply g8; [exact hr|]. intros k. apply ho. apply hm. auto.
        * assert (g : forall a, In a (ts_mesh st ++ [nd p]) -> exists q, In q (seen ++ [p]) /\ nd q = a /\ (In a (ts_mesh st) /\ In q seen \/ q = p)).
          { intros a hA. apply in_app_or in hA as [hA|[<-|[]]]; [destruct (g4 a hA) as [q [k1 k2]]; exists q; auto|exists p; auto]. }
          intros a b hA hB d. destruct (g a hA) as [q [q1 [q2 q3]]]. destruct (g b hB) as [r [r1 [r2 r3]]]. destruct q3 as [[q3 q4]| ->]; destruct r3 as [[r3 r4]| ->].
          -- apply hap; assumption.
          -- subst a b. rewrite !g3 by auto. apply apart_coords2; auto. intros e. exact (hnone q q4 (same_sym _ _ e)).
          -- subst a b. rewrite !g3 by auto. apply apart_coords2; auto.
          -- congruence.
        * exact g2.
  Qed.
  Lemma grouped_all ps : forall seen st, (forall q, In q (seen ++ ps) -> is_part tn q) -> grouped seen st -> grouped (seen ++ ps) (fold_left (fun st p => add_part_node h p st) ps st).
  Proof.
    induction ps as [|p ps IH]; intros seen st hp hg; cbn [fold_left]; [rewrite app_nil_r; exact hg|]. replace (seen ++ p :: ps) with ((seen ++ [p]) ++ ps) in * by (rewrite <- app_assoc; reflexivity).
    apply IH; [exact hp|]. apply grouped_step; [|exact hg]. intros q hq. apply hp. apply in_or_app. left. exact hq.
  Qed.
End Coincident.

(** C116: of parts that start at the same place, exactly one has its node among those of the train; this node carries the numbers of another one *)
Theorem C116_coincident (h : tri Z -> Z) (tn : train R) (x : part -> R) (st0 : tstate R) cd bd m :
  sound st0 -> aligned tn x -> initialise_train_ndof tn = (cd, bd, m) ->
  let st := initialise_nodes h tn x st0 in let listed p := In (ts_node st p) (ts_mesh st) in let numbers p := n_dof (ts_store st (ts_node st p)) in
  NoDup (ts_mesh st) /\
  (forall p, is_part tn p -> exists q, is_part tn q /\ same_place x p q /\ listed q) /\
  (forall p q, is_part tn p -> is_part tn q -> same_place x p q -> listed p -> listed q -> p = q) /\
  (forall p, is_part tn p -> listed p -> exists q, is_part tn q /\ same_place x p q /\ numbers p = part_numbers cd bd q /\ ((exists r, is_part tn r /\ r <> p /\ same_place x p r) -> q <> p)) /\
  (forall p, is_part tn p -> ~ listed p -> numbers p = part_numbers cd bd p).
Proof.
  intros hs ha hn st. pose proof (made_set_mesh h tn x st0 hs) as [g1 _ g3 g4 g5 g6]. set (s1 := set_mesh h tn x st0) in *.
  assert (inj : forall p q, is_part tn p -> is_part tn q -> ts_node s1 p = ts_node s1 q -> p = q) by (intros p q hp hq; apply g4; apply visits_spec; assumption).
  assert (ha0 : agree tn (ts_node s1) [] [] (ts_store s1)).
  { intros p hp. rewrite g5 by (apply g3, visits_spec; exact hp). destruct p as [i|b|b k]; cbn [part_numbers dof_of]; try reflexivity. destruct i; reflexivity. }
  pose proof (carts_numbered tn (ts_node s1) inj (tn_carts tn) [] [] (ts_store s1) 0%nat ltac:(intros k c hk; exact hk) ha0) as g. change (number_carts tn [] 0%nat (tn_carts tn)) with (initialise_train_ndof tn) in g. rewrite hn in g. cbn [length app] in g.
  fold (numbered_carts tn) in g. destruct (fold_left (cart_number tn (ts_node s1)) (numbered_carts tn) (ts_store s1, 0%nat)) as [s2 j] eqn:ef. destruct g as [_ [k1 k2]].
  assert (e2 : number_train tn s1 = mkTstate s2 (ts_next s1) (ts_mesh s1) (ts_node s1)) by (unfold number_train; rewrite ef; reflexivity).
  assert (est : st = fold_left (fun st p => add_part_node h p st) (visits tn) (mkTstate s2 (ts_next s1) [] (ts_node s1))) by (unfold st, initialise_nodes; fold s1; rewrite e2, reset_mesh_visits; reflexivity).
  destruct (grouped_all h tn x cd bd m (ts_node s1) hn ha inj (visits tn) [] (mkTstate s2 (ts_next s1) [] (ts_node s1))) as [q1 q2 q3 q4 q5 q6 q7 q8].
  - intros q hq. apply visits_spec. exact hq.
  - constructor; cbn [ts_node ts_mesh ts_store]; try (intros; contradiction); auto; [constructor|intros p hp; rewrite k2; apply g6, visits_spec, hp].
  - cbn [app] in *. rewrite <- est in q1, q2, q3, q4, q5, q6, q7, q8. cbv zeta. rewrite q1. split; [exact q2|]. split; [|split; [exact q6|split; [|exact q8]]].
    + intros p hp. destruct (q5 p (proj2 (visits_spec tn p) hp)) as [q [r1 [r2 r3]]]. exists q. split; [apply visits_spec; exact r1|]. auto.
    + intros p hp hi. destruct (q7 p hp hi) as [q [r1 [r2 [r3 r4]]]]. exists q. split; [apply visits_spec; exact r1|]. split; [exact r2|]. split; [exact r3|].
      intros [t [t1 t2]]. apply r4. exists t. split; [apply visits_spec; exact t1|exact t2].
Qed.
Print Assumptions C116_coincident.

(** C116 as promised, nodes of their own for all parts, is false for bogies at the same place: two carts with a bogie each, above the same point *)
Definition two_carts : train R := mkTrain [mkCart 20 30 6 2 [1] [4] [0%nat]; mkCart 22 31 6 2 [1] [-4] [1%nat]] [shared_bogie; shared_bogie].
Definition two_places (p : part) : R := match p with PCart i => 8 * INR i | PBogie _ => 4 | PWheel _ k => 4 + 2 * INR k end.
Theorem C116_coincident_refuted (h : tri Z -> Z) (st0 : tstate R) : sound st0 -> let st := initialise_nodes h two_carts two_places st0 in
  exists p q, is_part two_carts p /\ is_part two_carts q /\ p <> q /\ ~ In (ts_node st q) (ts_mesh st) /\ In (ts_node st p) (ts_mesh st) /\ n_dof (ts_store st (ts_node st p)) = n_dof (ts_store st (ts_node st q)).
Proof.
  intros hs st. assert (hn : initialise_train_ndof two_carts = ([(0, 1); (6, 7)], [(0, mkBdof 2 3 [4; 5]); (1, mkBdof 8 9 [10; 11])], 12)%nat) by reflexivity.
  assert (hi : forall i j, INR i = INR j \/ 1 / 1000000000 < Rabs (2 * (INR i - INR j))).
  { intros i j. destruct (Nat.eq_dec i j) as [->|d]; [left; reflexivity|right]. assert (1 <= Rabs (INR i - INR j)).
    { rewrite !INR_IZR_INZ, <- minus_IZR, <- abs_IZR. apply IZR_le. lia. }
    rewrite Rabs_mult, (Rabs_right 2) by lra. lra. }
  assert (ha : aligned two_carts two_places).
  { intros p q _ _ hl. destruct p as [i|b|b k], q as [j|c|c l]; cbn [level two_places] in *; try lra.
    - destruct (hi i j) as [->|e]; [left; reflexivity|right]. replace (8 * INR i - 8 * INR j) with (4 * (2 * (INR i - INR j))) by ring. rewrite Rabs_mult, (Rabs_right 4) by lra. lra.
    - destruct (hi k l) as [->|e]; [left; reflexivity|right]. replace (4 + 2 * INR k - (4 + 2 * INR l)) with (2 * (INR k - INR l)) by ring. exact e. }
  destruct (C116_coincident h two_carts two_places st0 _ _ _ hs ha hn) as [_ [h2 [h3 [h4 h5]]]]. change (initialise_nodes h two_carts two_places st0) with st in h2, h3, h4, h5.
  cbv zeta in h2, h3, h4, h5. clearbody st.
  assert (p0 : is_part two_carts (PBogie 0)) by (eexists; split; [left; reflexivity|left; reflexivity]).
  assert (p1 : is_part two_carts (PBogie 1)) by (eexists; split; [right; left; reflexivity|left; reflexivity]).
  assert (hb : forall c, is_part two_carts (PBogie c) -> c = 0%nat \/ c = 1%nat) by (intros c [k [[<-|[<-|[]]] [<-|[]]]]; auto).
  assert (go : forall b c, b <> c -> is_part two_carts (PBogie b) -> is_part two_carts (PBogie c) -> (forall d, is_part two_carts (PBogie d) -> d = b \/ d = c) -> In (ts_node st (PBogie b)) (ts_mesh st) ->
     exists p q, is_part two_carts p /\ is_part two_carts q /\ p <> q /\ ~ In (ts_node st q) (ts_mesh st) /\ In (ts_node st p) (ts_mesh st) /\ n_dof (ts_store st (ts_node st p)) = n_dof (ts_store st (ts_node st q))).
  { intros b c d hb1 hc hall hin. assert (hno : ~ In (ts_node st (PBogie c)) (ts_mesh st)) by (intros hc2; assert (e : PBogie b = PBogie c) by (apply h3; auto; split; reflexivity); congruence).
    exists (PBogie b), (PBogie c). split; [exact hb1|]. split; [exact hc|]. split; [congruence|]. split; [exact hno|]. split; [exact hin|]. rewrite (h5 _ hc hno). destruct (h4 _ hb1 hin) as [q [q1 [[q2 _] [q3 q4]]]]. rewrite q3.
    assert (hq : q <> PBogie b) by (apply q4; exists (PBogie c); split; [exact hc|]; split; [congruence|]; split; reflexivity). destruct q as [i|e|e k]; cbn [level] in q2; try lra. destruct (hall e q1) as [->| ->]; [contradiction|reflexivity]. }
  destruct (h2 _ p0) as [q [q1 [[q2 _] q3]]]. destruct q as [i|e|e k]; cbn [level] in q2; try lra. destruct (hb e q1) as [->| ->].
  - apply (go 0%nat 1%nat); auto.
  - apply (go 1%nat 0%nat); auto. intros d hd. destruct (hb d hd); auto.
Qed.
Print Assumptions C116_coincident_refuted.

(** two carts that share a bogie *)
Definition shared_places (p : part) : R := match p with PCart i => 8 * INR i | PBogie b => 8 * INR b - 4 | PWheel b k => 8 * INR b - 5 + 2 * INR k end.
Example C116_case (h : tri Z -> Z) (st0 : tstate R) : parts_apart shared_train shared_places /\ times_used shared_train 1 = 2%nat /\
  (ts_mesh st0 = [] -> let st := initialise_nodes h shared_train shared_places st0 in
     In (ts_node st (PWheel 1 0)) (ts_mesh st) /\ n_dof (ts_store st (ts_node st (PWheel 1 0))) = T3 None (Some 8%nat) None /\ ~ In (ts_node (set_mesh h shared_train shared_places st0) (PWheel 1 0)) (ts_mesh (set_mesh h shared_train shared_places st0))).
Proof.
  assert (hi : forall i j, i <> j -> 1 <= Rabs (INR i - INR j)) by (intros i j d; rewrite !INR_IZR_INZ, <- minus_IZR, <- abs_IZR; apply IZR_le; lia).
  assert (ha : parts_apart shared_train shared_places).
  { intros p q hp hq hd hl. destruct p as [i|b|b k], q as [j|c|c l]; cbn [level shared_places] in *; try lra.
    - assert (i <> j) by congruence. replace (8 * INR i - 8 * INR j) with (8 * (INR i - INR j)) by ring. rewrite Rabs_mult, (Rabs_right 8) by lra. specialize (hi i j H). lra.
    - assert (b <> c) by congruence. replace (8 * INR b - 4 - (8 * INR c - 4)) with (8 * (INR b - INR c)) by ring. rewrite Rabs_mult, (Rabs_right 8) by lra. specialize (hi b c H). lra.
    - assert (hw : forall b k, is_part shared_train (PWheel b k) -> (k < 2)%nat).
      { intros b' k' [[cc [[<-|[<-|[]]] hb]] hk]; cbn [ct_bogies In] in hb; destruct hb as [<-|[<-|[]]]; exact hk. }
      pose proof (hw b k hp) as hk. pose proof (hw c l hq) as hl2.
      replace (8 * INR b - 5 + 2 * INR k - (8 * INR c - 5 + 2 * INR l)) with (2 * (INR (4 * b + k) - INR (4 * c + l))) by (rewrite !plus_INR, !mult_INR; cbn [INR]; ring).
      rewrite Rabs_mult, (Rabs_right 2) by lra. assert (d : (4 * b + k)%nat <> (4 * c + l)%nat) by (intros e; apply hd; f_equal; lia). specialize (hi _ _ d). lra. }
  split; [exact ha|]. split; [reflexivity|]. intros h0 st. assert (hs : sound st0) by (intros id hid; rewrite h0 in hid; destruct hid).
  assert (hp : is_part shared_train (PWheel 1 0)) by (split; [eexists; split; [left; reflexivity|right; left; reflexivity]|cbn; lia]).
  pose proof (C116_nodes h shared_train shared_places st0 _ _ _ hs ha eq_refl) as g. pose proof (C116_before_reset h shared_train shared_places st0 h0 ha (PWheel 1 0) hp) as g2. cbv zeta in g, g2.
  change (initialise_nodes h shared_train shared_places st0) with st in g. clearbody st. set (s1 := set_mesh h shared_train shared_places st0) in *. clearbody s1.
  destruct g as [_ [h2 [_ [h4 _]]]]. split; [apply h2; exists (PWheel 1 0); split; [exact hp|reflexivity]|]. split; [rewrite (proj2 (h4 _ hp)); reflexivity|].
  intros hin. apply g2 in hin. discriminate hin.
Qed.
