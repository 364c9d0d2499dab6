(** * C117: the equations of a train *)

From Coq Require Import Reals List Bool ZArith Arith Lia Lra Permutation.
From Verif Require Import Num PyBase Model_Geometry Model_System Model_Element Model_Moving Model_Train Model_TrainMesh Model_TrainSystem
  Spec_System Spec_Train Spec_TrainMesh Spec_TrainSystem Proofs_Dof Proofs_System Proofs_Train Proofs_TrainMesh Proofs_TrainSystem Props_Geometry Props_Train Props_TrainMesh.
Import ListNotations.
Local Open Scope R_scope.

Lemma part_moves (tn : train R) cd bd m p d : initialise_train_ndof tn = (cd, bd, m) -> is_part tn p -> (tget (part_numbers cd bd p) d <> None <-> moves p d).
Proof.
  intros h hp. destruct (numbers_shape tn cd bd m p h hp) as [y g]. destruct p as [i|b|b k]; cbn beta iota in g; [destruct g as [r g]|destruct g as [r g]|]; rewrite g; destruct d; cbn; split; intros a; try exact I; try discriminate; try contradiction; exfalso; apply a; reflexivity.
Qed.
Lemma part_mass (tn : train R) cd bd m p d k : initialise_train_ndof tn = (cd, bd, m) -> is_part tn p -> tget (part_numbers cd bd p) d = Some k ->
  train_mass tn cd bd k k = own_mass tn p d /\ train_static_force tn cd bd k = match d with DY => - own_mass tn p d * (981 / 100) | _ => 0 end.
Proof.
  intros h hp e. destruct (C36_mass tn cd bd m h) as [_ [_ [g1 g2]]]. destruct (C37_static_force tn cd bd m h) as [f1 f2]. destruct (ndof_spec tn cd bd m h) as [hc _]. destruct p as [i|b|b j]; cbn [part_numbers] in e.
  - cbn in hp. destruct (nth_error cd i) as [[y r]|] eqn:ec; [|destruct d; discriminate e]. destruct (nth_error (tn_carts tn) i) as [c|] eqn:et; [|apply nth_error_None in et; lia].
    destruct (g1 _ _ _ _ et ec) as [a1 a2]. destruct (f1 _ _ _ _ et ec) as [b1 b2]. destruct d; cbn [tget tx ty tr] in e; try discriminate e; injection e as <-; cbn [own_mass]; rewrite et; split; assumption.
  - destruct (dof_get_entry tn cd bd m b h hp) as [e1 [e2 e3]]. rewrite e1 in e. destruct (g2 _ _ e2) as [a1 [a2 _]]. destruct (f2 _ _ e2) as [b1 [b2 _]]. destruct d; cbn [tget tx ty tr] in e; try discriminate e; injection e as <-; cbn [own_mass]; split; assumption.
  - destruct hp as [hp hj]. destruct (dof_get_entry tn cd bd m b h hp) as [e1 [e2 e3]]. rewrite e1 in e. destruct (g2 _ _ e2) as [_ [_ a3]]. destruct (f2 _ _ e2) as [_ [_ b3]]. destruct d; cbn [tget tx ty tr] in e; try discriminate e. cbn [own_mass].
    split; [apply (a3 j); [exact e|]|apply (b3 j); [exact e|]]; apply nth_error_nth'; exact hj.
Qed.

(** the state of the nodes before rows are removed *)
Lemma before_trim h tn x st0 cd bd m : sound st0 -> parts_apart tn x -> initialise_train_ndof tn = (cd, bd, m) ->
  let st := initialise_nodes h tn x st0 in
  ts_mesh st = map (ts_node st) (unique_by part_eqb [] (visits tn)) /\ numbered (map (ts_store st) (ts_mesh st)) m /\
  (forall p, is_part tn p -> n_flag (ts_store st (ts_node st p)) = T3 true true true).
Proof.
  intros hs ha hn st. destruct (C116_nodes h tn x st0 cd bd m hs ha hn) as [n1 [n2 [n3 [n4 _]]]]. cbv zeta in n1, n2, n3, n4. change (initialise_nodes h tn x st0) with st in n1, n2, n3, n4.
  pose proof (made_set_mesh h tn x st0 hs) as [_ _ _ _ _ g6]. pose proof (set_mesh_free h tn x st0) as gf. set (s1 := set_mesh h tn x st0) in *. set (s2 := number_train tn s1).
  assert (est : st = fold_left (fun st p => add_part_node h p st) (visits tn) (mkTstate (ts_store s2) (ts_next s2) [] (ts_node s2))) by (unfold st, initialise_nodes; fold s1 s2; apply reset_mesh_visits).
  assert (hnd : ts_node s2 = ts_node s1) by reflexivity.
  assert (hc : forall p, is_part tn p -> n_coord (ts_store s2 (ts_node s2 p)) = T3 (x p) (level p) 0).
  { intros p hp. destruct (n4 p hp) as [c _]. rewrite <- g6 by (apply visits_spec; exact hp). unfold s2, number_train. cbn [ts_store ts_node]. generalize (ts_store s1) 0%nat. intros s i.
    assert (gw : forall l b (si : store R * nat) z, n_coord (fst (fold_left (wheel_number (ts_node s1) b) l si) z) = n_coord (fst si z)).
    { induction l as [|k l IH]; intros b [s' i'] z; [reflexivity|]. cbn [fold_left]. rewrite IH. cbn [wheel_number fst]. apply number_node_coord. }
    assert (gb : forall l (si : store R * nat) z, n_coord (fst (fold_left (bogie_number tn (ts_node s1)) l si) z) = n_coord (fst si z)).
    { induction l as [|b l IH]; intros [s' i'] z; [reflexivity|]. cbn [fold_left]. rewrite IH. unfold bogie_number. destruct (n_dof (s' (ts_node s1 (PBogie b)))) as [[|] [|] [|]]; cbn [fst]; try reflexivity. rewrite gw. cbn [fst]. rewrite !number_node_coord. reflexivity. }
    assert (gc : forall l (si : store R * nat) z, n_coord (fst (fold_left (cart_number tn (ts_node s1)) l si) z) = n_coord (fst si z)).
    { induction l as [|b l IH]; intros [s' i'] z; [reflexivity|]. cbn [fold_left]. rewrite IH. unfold cart_number. rewrite gb. cbn [fst]. rewrite !number_node_coord. reflexivity. }
    apply gc. }
  assert (hap : forall a b, (In a [] \/ In a (map (ts_node s2) (visits tn))) -> (In b [] \/ In b (map (ts_node s2) (visits tn))) -> a <> b -> coords_equal (n_coord (ts_store s2 a)) (n_coord (ts_store s2 b)) = false).
  { intros a b [[]|hA] [[]|hB] d. apply in_map_iff in hA as [p [<- hp]]. apply in_map_iff in hB as [q [<- hq]]. apply visits_spec in hp, hq. rewrite !hc by assumption. apply (apart_coords tn x); auto. congruence. }
  pose proof (reset_all h (visits tn) (mkTstate (ts_store s2) (ts_next s2) [] (ts_node s2)) (NoDup_nil _) hap) as [a1 [_ [a3 _]]]. cbv zeta in a1, a3.
  pose proof (reset_order h (visits tn) (mkTstate (ts_store s2) (ts_next s2) [] (ts_node s2)) (NoDup_nil _) hap) as a4. rewrite <- est in a1, a3, a4. cbn [ts_mesh ts_node ts_store app] in a1, a3, a4.
  assert (hm : ts_mesh st = map (ts_node st) (unique_by part_eqb [] (visits tn))).
  { rewrite a4, a3. apply (unique_map part_eqb part_eqb_spec (ts_node s2) (visits tn) []). cbn [app]. intros p q hp hq. rewrite <- a3. apply n3; apply visits_spec; assumption. }
  split; [exact hm|]. split.
  - rewrite hm, map_map. unfold numbered, all_numbers. rewrite <- (order_numbers tn cd bd m hn). rewrite flat_map_mapped. apply flat_map_in. intros p hp. apply (unique_in part_eqb part_eqb_spec) in hp as [hp _]. apply visits_spec in hp. rewrite (proj2 (n4 p hp)). reflexivity.
  - intros p hp. rewrite a1, a3. unfold s2, number_train. cbn [ts_store ts_node]. rewrite carts_free. cbn [fst]. apply gf. exact hp.
Qed.

Lemma system_square (tn : train R) cd bd bs : square (train_total_n_dof tn) (train_system tn cd bd bs).
Proof. repeat (split; [reflexivity|]). unfold train_system. cbn [gF]. rewrite map_length, seq_length. reflexivity. Qed.

(** lists of nodes numbered in their order, with numbers in the same directions *)
Lemma pattern_numbers : forall (l l' : list (node R)) i m m', length l = length l' -> all_numbers l = seq i m -> all_numbers l' = seq i m' ->
  (forall q d, number_of l q d = None <-> number_of l' q d = None) -> m = m' /\ forall q a b, nth_error l q = Some a -> nth_error l' q = Some b -> n_dof a = n_dof b.
Proof.
  induction l as [|a l IH]; intros [|b l'] i m m' hl h1 h2 hp; try discriminate hl.
  - destruct m, m'; try discriminate. split; [reflexivity|]. intros [|q] c d e; discriminate e.
  - injection hl as hl. cbn [all_numbers flat_map] in h1, h2. fold (all_numbers l) in h1. fold (all_numbers l') in h2. pose proof (fun d => hp 0%nat d) as h0. pose proof (fun q => hp (S q)) as hS. unfold number_of in h0. cbn [nth_error] in h0.
    assert (g : exists r, (r <= m)%nat /\ (r <= m')%nat /\ n_dof a = n_dof b /\ all_numbers l = seq (i + r) (m - r) /\ all_numbers l' = seq (i + r) (m' - r)).
    { pose proof (h0 DX) as p1. pose proof (h0 DY) as p2. pose proof (h0 DR) as p3. clear h0 hS hp. destruct (n_dof a) as [a1 a2 a3], (n_dof b) as [b1 b2 b3]. cbn [tget tx ty tr tlist flat_map app] in *.
      assert (st1 : forall (o o' : option nat) (L L' : list nat) j u u', (o = None <-> o' = None) -> (match o with Some k => [k] | None => [] end) ++ L = seq j u -> (match o' with Some k => [k] | None => [] end) ++ L' = seq j u' ->
         exists r, (r <= u)%nat /\ (r <= u')%nat /\ o = o' /\ L = seq (j + r) (u - r) /\ L' = seq (j + r) (u' - r)).
      { intros o o' L L' j u u' ho e1 e2. destruct o as [k|], o' as [k'|]; try (exfalso; destruct ho as [x1 x2]; (discriminate (x1 eq_refl) || discriminate (x2 eq_refl))).
        - destruct u as [|u]; [discriminate e1|]. destruct u' as [|u']; [discriminate e2|]. cbn in e1, e2. injection e1 as -> e1. injection e2 as -> e2. exists 1%nat. split; [lia|]. split; [lia|]. split; [reflexivity|]. rewrite Nat.add_1_r. cbn. rewrite !Nat.sub_0_r. split; assumption.
        - exists 0%nat. rewrite Nat.add_0_r, !Nat.sub_0_r. cbn in e1, e2. split; [lia|]. split; [lia|]. auto. }
      rewrite <- !app_assoc in h1, h2. cbn [app] in h1, h2.
      destruct (st1 _ _ _ _ _ _ _ p1 h1 h2) as [r1 [u1 [v1 [-> [g1 g1']]]]]. destruct (st1 _ _ _ _ _ _ _ p2 g1 g1') as [r2 [u2 [v2 [-> [g2 g2']]]]]. destruct (st1 _ _ _ _ _ _ _ p3 g2 g2') as [r3 [u3 [v3 [-> [g3 g3']]]]].
      exists (r1 + r2 + r3)%nat. split; [lia|]. split; [lia|]. split; [reflexivity|]. replace (m - (r1 + r2 + r3))%nat with (m - r1 - r2 - r3)%nat by lia. replace (m' - (r1 + r2 + r3))%nat with (m' - r1 - r2 - r3)%nat by lia. rewrite !Nat.add_assoc. split; assumption. }
    destruct g as [r [r1 [r2 [e [g1 g2]]]]]. destruct (IH l' (i + r)%nat _ _ hl g1 g2 hS) as [k1 k2]. split; [lia|]. intros [|q] c d e1 e2; cbn [nth_error] in e1, e2; [injection e1 as <-; injection e2 as <-; exact e|exact (k2 q c d e1 e2)].
Qed.
Lemma same_pattern (l l' : list (node R)) m m' : length l = length l' -> numbered l m -> numbered l' m' ->
  (forall q d, number_of l q d = None <-> number_of l' q d = None) -> m = m' /\ forall q a b, nth_error l q = Some a -> nth_error l' q = Some b -> n_dof a = n_dof b.
Proof. intros hl h1 h2. apply (pattern_numbers l l' 0); assumption. Qed.

(** C117: the number of a part is the row of its equation; rows without mass or stiffness are removed with the number *)
Theorem C117_equations (h : tri Z -> Z) (tn : train R) (x : part -> R) (st0 : tstate R) cd bd m :
  sound st0 -> parts_apart tn x -> initialise_train_ndof tn = (cd, bd, m) ->
  exists s st n bs, train_initialise h tn x st0 = Ok (s, st, n) /\ lists_bogies tn bs /\ square n s /\
    (forall p d k, is_part tn p -> tget (part_numbers cd bd p) d = Some k -> (number_of_part st p d <> None <-> noticed (own_mass tn p d) /\ noticed (train_stiffness tn cd bd bs k k))) /\
    (forall p d, is_part tn p -> number_of_part st p d <> None -> moves p d) /\
    (forall k, (k < n)%nat <-> exists p d, is_part tn p /\ number_of_part st p d = Some k) /\
    (forall p d q e k, is_part tn p -> is_part tn q -> number_of_part st p d = Some k -> number_of_part st q e = Some k -> p = q /\ d = e) /\
    (forall p d k, is_part tn p -> number_of_part st p d = Some k ->
       me (gM s) k k = own_mass tn p d /\ nth_error (gF s) k = Some (match d with DY => - own_mass tn p d * (981 / 100) | _ => 0 end)) /\
    (forall p d q e i j k l, is_part tn p -> is_part tn q -> number_of_part st p d = Some i -> number_of_part st q e = Some j ->
       tget (part_numbers cd bd p) d = Some k -> tget (part_numbers cd bd q) e = Some l ->
       me (gK s) i j = train_stiffness tn cd bd bs k l /\ me (gC s) i j = train_damping tn cd bd bs k l /\ me (gM s) i j = train_mass tn cd bd k l) /\
    NoDup (ts_mesh st) /\ (forall id, In id (ts_mesh st) <-> exists p, is_part tn p /\ ts_node st p = id) /\
    (forall p d, is_part tn p -> (tget (n_flag (ts_store st (ts_node st p))) d = true <-> number_of_part st p d <> None)) /\
    ((forall p d k, is_part tn p -> tget (part_numbers cd bd p) d = Some k -> noticed (own_mass tn p d) /\ noticed (train_stiffness tn cd bd bs k k)) ->
       n = m /\ forall p, is_part tn p -> n_dof (ts_store st (ts_node st p)) = part_numbers cd bd p).
Proof.
  intros hs ha hn. destruct (C116_nodes h tn x st0 cd bd m hs ha hn) as [n1 [n2 [n3 [n4 _]]]]. destruct (before_trim h tn x st0 cd bd m hs ha hn) as [b1 [b2 b3]].
  unfold train_initialise. cbv zeta in *. set (st := initialise_nodes h tn x st0) in *. clearbody st.
  rewrite (read_carts_eq tn cd bd m st hn) by (intros p hp; apply n4; exact hp). rewrite (read_bogies_eq tn cd bd m st hn) by (intros p hp; apply n4; exact hp).
  set (bs := get_bogies tn (fun b => x (PBogie b))). assert (hb : lists_bogies tn bs).
  { apply C35_bogies. intros a b hA hB d. apply in_flat_map in hA as [c [c1 c2]]. apply in_flat_map in hB as [c' [c1' c2']]. apply (ha (PBogie a) (PBogie b)); [exists c; auto|exists c'; auto|congruence|reflexivity]. }
  destruct (C36_mass tn cd bd m hn) as [m1 [m2 _]]. destruct (C35_count tn cd bd m hn) as [_ [hmN _]].
  destruct (trim_extra (train_system tn cd bd bs) (map (ts_store st) (ts_mesh st)) m (train_total_n_dof tn) (system_square tn cd bd bs) b2 hmN) as [s [ns [n [t1 [t2 [t3 [t4 [t5 [t6 [t7 [t8 t9]]]]]]]]]]].
  { intros k hk. cbn. apply m2. lia. }
  rewrite t1. cbn [rbind]. set (st' := mkTstate (write_back (ts_store st) (ts_mesh st) ns) (ts_next st) (ts_mesh st) (ts_node st)). exists s, st', n, bs. rewrite map_length in t4.
  assert (pos : forall p, is_part tn p -> exists q nd, nth_error (ts_mesh st) q = Some (ts_node st p) /\ nth_error ns q = Some nd /\ ts_store st' (ts_node st' p) = nd /\
     (forall d, number_of (map (ts_store st) (ts_mesh st)) q d = tget (part_numbers cd bd p) d) /\ (forall d, number_of ns q d = number_of_part st' p d) /\
     (forall d, active (map (ts_store st) (ts_mesh st)) q d = true) /\ (forall d, active ns q d = tget (n_flag (ts_store st' (ts_node st' p))) d)).
  { intros p hp. assert (hin : In (ts_node st p) (ts_mesh st)) by (apply n2; exists p; auto). apply In_nth_error in hin as [q hq]. assert (hq2 : (q < length ns)%nat) by (rewrite t4; apply nth_error_Some; congruence).
    apply nth_error_Some in hq2 as hq3. destruct (nth_error ns q) as [nd|] eqn:en; [|congruence]. assert (ew : ts_store st' (ts_node st' p) = nd) by (unfold st'; cbn [ts_store ts_node]; apply (write_back_nth (ts_mesh st) _ ns q); assumption).
    exists q, nd. split; [exact hq|]. split; [exact en|]. split; [exact ew|]. assert (e0 : nth_error (map (ts_store st) (ts_mesh st)) q = Some (ts_store st (ts_node st p))) by (apply map_nth_error; exact hq).
    split; [intros d; unfold number_of; rewrite e0, (proj2 (n4 p hp)); reflexivity|]. split; [intros d; unfold number_of, number_of_part; rewrite en, ew; reflexivity|]. split; [intros d; unfold active; rewrite e0, (b3 p hp); destruct d; reflexivity|].
    intros d. unfold active. rewrite en, ew. reflexivity. }
  assert (old : forall p d k, is_part tn p -> number_of_part st' p d = Some k -> exists k0, tget (part_numbers cd bd p) d = Some k0).
  { intros p d k hp hk. destruct (pos p hp) as [q [nd [_ [_ [_ [e1 [e2 _]]]]]]]. destruct (tget (part_numbers cd bd p) d) as [k0|] eqn:e; [exists k0; reflexivity|]. rewrite <- e1 in e. apply t6 in e. rewrite e2 in e. congruence. }
  split; [reflexivity|]. split; [exact hb|]. split; [exact t2|]. split; [|split; [|split; [|split; [|split; [|split; [|split; [exact n1|split; [exact n2|split]]]]]]]].
  - intros p d k hp hk. destruct (pos p hp) as [q [nd [_ [_ [_ [e1 [e2 [e3 _]]]]]]]]. rewrite <- e2. rewrite <- e1 in hk. rewrite (t5 q d k hk), e3. rewrite e1 in hk. cbn [train_system gM gK me]. rewrite (proj1 (part_mass tn cd bd m p d k hn hp hk)). tauto.
  - intros p d hp hk. destruct (number_of_part st' p d) as [k|] eqn:e; [|congruence]. destruct (old p d k hp e) as [k0 e0]. apply (part_moves tn cd bd m p d hn hp). congruence.
  - intros k. split.
    + intros hk. assert (hin : In k (all_numbers ns)) by (rewrite t3; apply in_seq; lia). unfold all_numbers in hin. apply in_flat_map in hin as [nd [hnd hk2]]. apply In_nth_error in hnd as [q hq]. apply in_flat_map in hk2 as [o [ho hk2]]. destruct o as [k'|]; [|destruct hk2]. destruct hk2 as [->|[]].
      assert (hd : exists d, tget (n_dof nd) d = Some k) by (destruct (n_dof nd) as [a b c]; cbn in ho; destruct ho as [ho|[ho|[ho|[]]]]; [exists DX|exists DY|exists DR]; exact ho). destruct hd as [d hd].
      assert (hql : (q < length (ts_mesh st))%nat) by (rewrite <- t4; apply nth_error_Some; congruence). apply nth_error_Some in hql. destruct (nth_error (ts_mesh st) q) as [id|] eqn:eid; [|congruence]. apply nth_error_In in eid as hid. apply n2 in hid as [p [hp <-]].
      exists p, d. split; [exact hp|]. unfold number_of_part, st'. cbn [ts_store ts_node]. rewrite (write_back_nth (ts_mesh st) _ ns q _ nd n1 eid hq). exact hd.
    + intros [p [d [hp hk]]]. destruct (pos p hp) as [q [nd [_ [_ [_ [_ [e2 _]]]]]]]. rewrite <- e2 in hk. exact (numbered_lt _ _ _ _ _ t3 hk).
  - intros p d q e k hp hq h1 h2. destruct (pos p hp) as [i [nd [a1 [_ [_ [_ [e2 _]]]]]]]. destruct (pos q hq) as [j [nd' [a1' [_ [_ [_ [e2' _]]]]]]]. rewrite <- e2 in h1. rewrite <- e2' in h2.
    destruct (numbered_inj _ _ _ _ _ _ _ t3 h1 h2) as [-> ->]. split; [|reflexivity]. apply n3; auto. congruence.
  - intros p d k hp hk. destruct (old p d k hp hk) as [k0 e0]. destruct (pos p hp) as [q [nd [_ [_ [_ [e1 [e2 _]]]]]]]. pose proof (part_mass tn cd bd m p d k0 hn hp e0) as [pm pf]. assert (e0' := e0). rewrite <- e1 in e0. rewrite <- e2 in hk.
    destruct (t8 q d q d k0 k0 k k e0 hk e0 hk) as [c1 [_ [c3 _]]]. split; [rewrite c3; exact pm|]. rewrite c1. cbn [train_system gF]. assert (hlt : (k0 < m)%nat) by exact (numbered_lt _ _ _ _ _ b2 e0).
    rewrite (map_nth_error _ _ _ (d := k0)); [rewrite pf; reflexivity|]. rewrite (nth_error_nth' _ 0%nat) by (rewrite seq_length; lia). rewrite seq_nth by lia. reflexivity.
  - intros p d q e i j k l hp hq h1 h2 h3 h4. destruct (pos p hp) as [u [nd [_ [_ [_ [e1 [e2 _]]]]]]]. destruct (pos q hq) as [v [nd' [_ [_ [_ [e1' [e2' _]]]]]]]. rewrite <- e2 in h1. rewrite <- e2' in h2. rewrite <- e1 in h3. rewrite <- e1' in h4.
    destruct (t8 u d v e k l i j h3 h1 h4 h2) as [_ [c2 [c3 c4]]]. split; [exact c2|]. split; [exact c4|exact c3].
  - intros p d hp. destruct (pos p hp) as [q [nd [_ [_ [_ [_ [e2 [_ e4]]]]]]]]. rewrite <- e4, <- e2. apply t7.
  - intros hall. assert (e : length (map (ts_store st) (ts_mesh st)) = length ns) by (rewrite map_length; symmetry; exact t4).
    destruct (same_pattern (map (ts_store st) (ts_mesh st)) ns m n e b2 t3) as [c1 c2].
    { intros q d. destruct (nth_error (ts_mesh st) q) as [id|] eqn:eid.
      - apply nth_error_In in eid as hid. apply n2 in hid as [p [hp <-]]. split; [apply t6|]. intros hnone. destruct (number_of (map (ts_store st) (ts_mesh st)) q d) as [k|] eqn:ek; [|reflexivity]. exfalso.
        assert (e1 : number_of (map (ts_store st) (ts_mesh st)) q d = tget (part_numbers cd bd p) d) by (unfold number_of; rewrite (map_nth_error _ _ _ eid), (proj2 (n4 p hp)); reflexivity).
        rewrite e1 in ek. destruct (hall p d k hp ek) as [a1 a2]. rewrite <- e1 in ek. apply (t5 q d k ek); [|exact hnone]. split; [unfold active; rewrite (map_nth_error _ _ _ eid), (b3 p hp); destruct d; reflexivity|].
        rewrite e1 in ek. cbn [train_system gM gK me]. rewrite (proj1 (part_mass tn cd bd m p d k hn hp ek)). split; assumption.
      - apply nth_error_None in eid. unfold number_of. rewrite (proj2 (nth_error_None (map (ts_store st) (ts_mesh st)) q)) by (rewrite map_length; exact eid). rewrite (proj2 (nth_error_None ns q)) by (rewrite t4; exact eid). tauto. }
    split; [symmetry; exact c1|]. intros p hp. destruct (pos p hp) as [q [nd [a1 [a2 [a3 _]]]]]. rewrite a3. rewrite <- (proj2 (n4 p hp)). symmetry. apply (c2 q); [apply map_nth_error; exact a1|exact a2].
Qed.
Print Assumptions C117_equations.

(** ** the train behind a track *)

Lemma shift_flag nt : forall ids (s : store R) z, n_flag (fold_left (shift_node nt) ids s z) = n_flag (s z).
Proof.
  induction ids as [|i ids IH]; intros s z; [reflexivity|]. cbn [fold_left]. rewrite IH. unfold shift_node, upd. destruct (Nat.eqb_spec z i) as [->|_]; reflexivity.
Qed.
(** C117: behind a track with [nt] degrees of freedom a part finds its results in the columns of its own equations; where it has no equation the result is zero *)
Theorem C117_results (h : tri Z -> Z) (tn : train R) (x : part -> R) (st0 : tstate R) cd bd m nt s st n :
  sound st0 -> parts_apart tn x -> initialise_train_ndof tn = (cd, bd, m) -> train_initialise h tn x st0 = Ok (s, st, n) ->
  let (st', total) := coupled_ndof nt st n in
  total = (nt + n)%nat /\ ts_node st' = ts_node st /\
  forall p row, is_part tn p -> exists out, assign_result_to_node zero_row (ts_store st' (ts_node st' p)) row = Ok (tlist out) /\
    forall d, tget out d = match number_of_part st p d with Some k => row (nt + k)%nat | None => 0 end.
Proof.
  intros hs ha hn hi. destruct (C117_equations h tn x st0 cd bd m hs ha hn) as [s' [st1 [n' [bs [e [_ [_ [_ [_ [_ [_ [_ [_ [hd [hm [hf _]]]]]]]]]]]]]]]].
  rewrite hi in e. injection e as <- <- <-. unfold coupled_ndof. split; [reflexivity|]. split; [reflexivity|]. intros p row hp. cbn [ts_store ts_node]. unfold shift_train.
  set (nd := fold_left (shift_node nt) (ts_mesh st) (ts_store st) (ts_node st p)).
  assert (e1 : n_dof nd = raised nt (n_dof (ts_store st (ts_node st p)))).
  { unfold nd. rewrite shift_all by exact hd. destruct (in_dec Nat.eq_dec (ts_node st p) (ts_mesh st)) as [q|q]; [reflexivity|]. exfalso. apply q, hm. exists p. auto. }
  assert (e2 : n_flag nd = n_flag (ts_store st (ts_node st p))) by apply shift_flag.
  assert (e3 : forall d, tget (n_dof nd) d = option_map (fun k => (k + nt)%nat) (number_of_part st p d)) by (intros d; rewrite e1; unfold number_of_part; destruct d; reflexivity).
  destruct (C09_nodal_results nd row) as [out [o1 [o2 o3]]].
  { intros d. rewrite e2, e3, (hf p d hp). destruct (number_of_part st p d); cbn; split; congruence. }
  exists out. split; [exact o1|]. intros d. specialize (hf p d hp). rewrite <- e2 in hf. destruct (number_of_part st p d) as [k|] eqn:ek.
  - rewrite (o2 d (k + nt)%nat); [f_equal; lia|apply hf; congruence|rewrite e3, ek; reflexivity].
  - apply o3. destruct (tget (n_flag nd) d); [|reflexivity]. exfalso. apply (proj1 hf eq_refl). reflexivity.
Qed.
Print Assumptions C117_results.

(** a train whose carts share a bogie: the matrices have twenty rows at first and sixteen in the end, one for every number of a part *)
Lemma shared_bogies bs : lists_bogies shared_train bs -> bs = [0;1;2]%nat \/ bs = [0;2;1]%nat \/ bs = [1;0;2]%nat \/ bs = [1;2;0]%nat \/ bs = [2;0;1]%nat \/ bs = [2;1;0]%nat.
Proof.
  intros [hn hb]. assert (hi : forall b, In b bs <-> b = 0%nat \/ b = 1%nat \/ b = 2%nat).
  { intros b. rewrite hb. split; [intros [c [[<-|[<-|[]]] hc]]; cbn in hc; lia|]. intros [->|[->| ->]].
    - eexists; split; [left; reflexivity|left; reflexivity].
    - eexists; split; [left; reflexivity|right; left; reflexivity].
    - eexists; split; [right; left; reflexivity|right; left; reflexivity]. }
  assert (hp : Permutation bs [0;1;2]%nat) by (apply NoDup_Permutation; [exact hn|repeat constructor; cbn; lia|intros b; rewrite hi; cbn; split; intros q; lia]).
  pose proof (Permutation_length hp) as hl. destruct bs as [|a [|b [|c [|]]]]; try discriminate hl. pose proof (proj1 (hi a) (or_introl eq_refl)) as ia. pose proof (proj1 (hi b) (or_intror (or_introl eq_refl))) as ib. pose proof (proj1 (hi c) (or_intror (or_intror (or_introl eq_refl)))) as ic.
  inversion hn as [|? ? h1 h2]; subst. inversion h2 as [|? ? h3 h4]; subst. cbn in h1, h3. destruct ia as [->|[->| ->]], ib as [->|[->| ->]], ic as [->|[->| ->]]; tauto.
Qed.
Example C117_case (h : tri Z -> Z) (st0 : tstate R) : sound st0 ->
  train_total_n_dof shared_train = 20%nat /\
  exists s st, train_initialise h shared_train shared_places st0 = Ok (s, st, 16%nat) /\ number_of_part st (PWheel 2 1) DY = Some 15%nat /\ me (gM s) 15 15 = 3 /\ nth_error (gF s) 0 = Some (- 20 * (981 / 100)).
Proof.
  intros hs. split; [reflexivity|]. destruct (C116_case h st0) as [ha _].
  assert (hn : initialise_train_ndof shared_train = ([(0, 1); (10, 11)], [(0, mkBdof 2 3 [4; 5]); (1, mkBdof 6 7 [8; 9]); (2, mkBdof 12 13 [14; 15])], 16)%nat) by reflexivity.
  destruct (C117_equations h shared_train shared_places st0 _ _ _ hs ha hn) as [s [st [n [bs [e [hb [_ [_ [_ [_ [_ [hd [_ [_ [_ [_ hk]]]]]]]]]]]]]]]].
  destruct hk as [-> hk].
  { intros p d k hp hk.
    assert (hB : forall b, (exists c, In c (tn_carts shared_train) /\ In b (ct_bogies c)) -> b = 0%nat \/ b = 1%nat \/ b = 2%nat) by (intros b [c [[<-|[<-|[]]] hc]]; cbn in hc; lia).
    assert (hst : forall j, (j < 16)%nat -> noticed (train_stiffness shared_train [(0, 1); (10, 11)]%nat [(0, mkBdof 2 3 [4; 5]); (1, mkBdof 6 7 [8; 9]); (2, mkBdof 12 13 [14; 15])]%nat bs j j)).
    { intros j hj. apply shared_bogies in hb. unfold noticed.
      destruct hb as [->|[->|[->|[->|[->| ->]]]]]; do 16 (destruct j as [|j]; [cbn -[IZR]; rnum; rewrite Rabs_right; lra|]); lia. }
    split.
    - destruct p as [i|b|b w].
      + cbn in hp. destruct i as [|[|i]]; [| |lia]; destruct d; cbn in hk; try discriminate hk; unfold noticed; cbn; rewrite Rabs_right; lra.
      + destruct (hB b hp) as [->|[->| ->]]; destruct d; cbn in hk; try discriminate hk; unfold noticed; cbn; rewrite Rabs_right; lra.
      + destruct hp as [hp hw]. destruct (hB b hp) as [->|[->| ->]]; cbn in hw; destruct w as [|[|w]]; try lia; destruct d; cbn in hk; try discriminate hk; unfold noticed; cbn; rewrite Rabs_right; lra.
    - apply hst. destruct p as [i|b|b w].
      + cbn in hp. destruct i as [|[|i]]; [| |lia]; destruct d; cbn in hk; try discriminate hk; injection hk as <-; lia.
      + destruct (hB b hp) as [->|[->| ->]]; destruct d; cbn in hk; try discriminate hk; injection hk as <-; lia.
      + destruct hp as [hp hw]. destruct (hB b hp) as [->|[->| ->]]; cbn in hw; destruct w as [|[|w]]; try lia; destruct d; cbn in hk; try discriminate hk; injection hk as <-; lia. }
  exists s, st. split; [exact e|].
  assert (p1 : is_part shared_train (PWheel 2 1)) by (split; [eexists; split; [right; left; reflexivity|right; left; reflexivity]|cbn; lia]).
  assert (p2 : is_part shared_train (PCart 0)) by (cbn; lia).
  assert (n1 : number_of_part st (PWheel 2 1) DY = Some 15%nat) by (unfold number_of_part; rewrite (hk _ p1); reflexivity).
  assert (n2 : number_of_part st (PCart 0) DY = Some 0%nat) by (unfold number_of_part; rewrite (hk _ p2); reflexivity).
  split; [exact n1|]. split; [exact (proj1 (hd _ _ _ p1 n1))|exact (proj2 (hd _ _ _ p2 n2))].
Qed.

(** ** bogies at the same place *)

Definition two_numbered (st : tstate R) : Prop := let f p := ts_store st (ts_node st p) in
  ts_mesh st = map (ts_node st) [PCart 0; PBogie 0; PWheel 0 0; PWheel 0 1; PCart 1] /\ NoDup (ts_mesh st) /\
  n_dof (f (PCart 0)) = T3 None (Some 0%nat) (Some 1%nat) /\ n_dof (f (PCart 1)) = T3 None (Some 6%nat) (Some 7%nat) /\
  (forall b, (b < 2)%nat -> n_dof (f (PBogie b)) = T3 None (Some 8%nat) (Some 9%nat) /\ n_dof (f (PWheel b 0)) = T3 None (Some 10%nat) None /\ n_dof (f (PWheel b 1)) = T3 None (Some 11%nat) None) /\
  (forall p, is_part two_carts p -> n_flag (f p) = T3 true true true).
Lemma two_core h (s2 : store R) nx nd st :
  (forall p q, is_part two_carts p -> is_part two_carts q -> nd p = nd q -> p = q) ->
  (forall p, is_part two_carts p -> n_dof (s2 (nd p)) = part_numbers [(0, 1); (6, 7)]%nat [(0, mkBdof 2 3 [4; 5]); (1, mkBdof 8 9 [10; 11])]%nat p) ->
  (forall p, is_part two_carts p -> n_coord (s2 (nd p)) = T3 (two_places p) (level p) 0) -> (forall p, is_part two_carts p -> n_flag (s2 (nd p)) = T3 true true true) ->
  st = fold_left (fun st p => add_part_node h p st) (visits two_carts) (mkTstate s2 nx [] nd) -> two_numbered st.
Proof.
  intros inj k1 hc hf est. unfold two_numbered. cbv zeta. set (five := [PCart 0; PBogie 0; PWheel 0 0; PWheel 0 1; PCart 1]).
  assert (hvis : visits two_carts = five ++ [PBogie 1; PWheel 1 0; PWheel 1 1]) by reflexivity. pose proof (fun p => proj1 (visits_spec two_carts p)) as hv. rewrite hvis in est, hv.
  assert (h5 : forall p, In p five -> is_part two_carts p) by (intros p hp; apply hv; apply in_or_app; left; exact hp).
  assert (ap : forall p q, In p five -> In q five -> p <> q -> coords_equal (T3 (two_places p) (level p) 0) (T3 (two_places q) (level q) 0) = false).
  { intros p q hp hq d. unfold coords_equal. cbn [tx ty tr]. rewrite !ndec_R, !nabs_R. rnum. change (10 ^ 9)%Z with 1000000000%Z. cbn in hp, hq.
    repeat (destruct hp as [<-|hp]); try contradiction; repeat (destruct hq as [<-|hq]); try contradiction; try congruence; cbn [two_places level INR];
    match goal with |- context [@nltb R RNum ?e (Rabs ?v)] => idtac end;
    repeat match goal with |- context [@nltb R RNum ?e (Rabs ?v)] => let H := fresh in destruct (nltbP e (Rabs v)) as [H|H]; [cbn [negb andb]; try reflexivity; rewrite ?andb_false_r; try reflexivity|] end; exfalso;
    repeat match goal with H : ~ (_ < Rabs ?v) |- _ => apply Rnot_lt_le in H; revert H; unfold Rabs; destruct (Rcase_abs v); intros H end; lra. }
  assert (nd5 : NoDup (map nd five)).
  { assert (NoDup five) by (unfold five; repeat constructor; cbn [In]; intros q; repeat (destruct q as [q|q]; [discriminate q|]); contradiction). clear -H inj h5. induction H as [|p l hp hl IH]; [constructor|]. cbn [map]. constructor; [|apply IH; intros q hq; apply h5; right; exact hq].
    intros hi. apply in_map_iff in hi as [q [hq1 hq2]]. apply inj in hq1; [subst; contradiction|apply h5; right; exact hq2|apply h5; left; reflexivity]. }
  rewrite fold_left_app in est.
  assert (ap2 : forall (s : store R), (forall z, n_coord (s z) = n_coord (s2 z)) -> forall a b, In a (map nd five) -> In b (map nd five) -> a <> b -> coords_equal (n_coord (s a)) (n_coord (s b)) = false).
  { intros s hsc a b hA hB d. apply in_map_iff in hA as [p [<- hp]]. apply in_map_iff in hB as [q [<- hq]]. rewrite !hsc, !hc by auto. apply ap; auto. congruence. }
  pose proof (reset_all h five (mkTstate s2 nx [] nd) (NoDup_nil _)) as r1. pose proof (reset_order h five (mkTstate s2 nx [] nd) (NoDup_nil _)) as r2. cbn [ts_mesh ts_node ts_store app] in r1, r2.
  destruct r1 as [r1 [_ [r3 _]]]; [intros a b [[]|hA] [[]|hB]; apply (ap2 s2 (fun z => eq_refl)); assumption|]. rewrite (unique_every Nat.eqb nat_same) in r2 by (auto). specialize (r2 ltac:(intros a b [[]|hA] [[]|hB]; apply (ap2 s2 (fun z => eq_refl)); assumption)).
  set (st5 := fold_left (fun st p => add_part_node h p st) five _) in *. clearbody st5. destruct st5 as [t5 x5 m5 nd5']. cbn [ts_store ts_node ts_mesh] in r1, r2, r3. subst t5 m5 nd5'.
  (* one coincident part *)
  assert (step : forall (s : store R) nx p q, (forall z, n_coord (s z) = n_coord (s2 z)) -> In q five -> is_part two_carts p -> ~ In p five -> two_places p = two_places q -> level p = level q ->
     add_part_node h p (mkTstate s nx (map nd five) nd) = mkTstate (upd s (nd q) (snd (node_eq (s (nd q)) (s (nd p))))) nx (map nd five) nd).
  { intros s nx0 p q hsc hq hp hno e1 e3. unfold add_part_node. cbn [ts_store ts_mesh ts_node]. rewrite (add_hit h s (map nd five) (nd p) (nd q)); [reflexivity|exact nd5| |apply in_map; exact hq| |apply ap2; exact hsc].
    - intros hi. apply in_map_iff in hi as [r [hr1 hr2]]. apply inj in hr1; [subst; contradiction|auto|exact hp].
    - rewrite !hsc, !hc by auto. rewrite e1, e3. reflexivity. }
  assert (co : forall (s : store R) k v, (forall z, n_coord (s z) = n_coord (s2 z)) -> forall z, n_coord (upd s k (snd (node_eq (s k) v)) z) = n_coord (s2 z)).
  { intros s k v hsc z. unfold upd. destruct (Nat.eqb_spec z k) as [->|_]; [rewrite node_eq_coord; apply hsc|apply hsc]. }
  assert (out : forall p, In p five -> p <> PBogie 1 /\ p <> PWheel 1 0 /\ p <> PWheel 1 1) by (unfold five; cbn [In]; intros p hp; repeat (destruct hp as [<-|hp]); try contradiction; (split; [discriminate|split; discriminate])).
  assert (o1 : ~ In (PBogie 1) five) by (intros q; exact (proj1 (out _ q) eq_refl)). assert (o2 : ~ In (PWheel 1 0) five) by (intros q; exact (proj1 (proj2 (out _ q)) eq_refl)). assert (o3 : ~ In (PWheel 1 1) five) by (intros q; exact (proj2 (proj2 (out _ q)) eq_refl)).
  assert (i1 : is_part two_carts (PBogie 1)) by (apply hv; cbn; tauto). assert (i2 : is_part two_carts (PWheel 1 0)) by (apply hv; cbn; tauto). assert (i3 : is_part two_carts (PWheel 1 1)) by (apply hv; cbn; tauto).
  assert (j0 : is_part two_carts (PCart 0)) by (apply hv; cbn; tauto). assert (j4 : is_part two_carts (PCart 1)) by (apply hv; cbn; tauto).
  assert (j1 : is_part two_carts (PBogie 0)) by (apply hv; cbn; tauto). assert (j2 : is_part two_carts (PWheel 0 0)) by (apply hv; cbn; tauto). assert (j3 : is_part two_carts (PWheel 0 1)) by (apply hv; cbn; tauto).
  cbn [fold_left] in est. rewrite (step s2 _ (PBogie 1) (PBogie 0)) in est; [|intros z; reflexivity|right; left; reflexivity|exact i1|exact o1|reflexivity|reflexivity].
  set (s3 := upd s2 (nd (PBogie 0)) _) in est. assert (c3 : forall z, n_coord (s3 z) = n_coord (s2 z)) by (apply co; reflexivity).
  rewrite (step s3 _ (PWheel 1 0) (PWheel 0 0)) in est; [|exact c3|right; right; left; reflexivity|exact i2|exact o2|reflexivity|reflexivity].
  set (s4 := upd s3 (nd (PWheel 0 0)) _) in est. assert (c4 : forall z, n_coord (s4 z) = n_coord (s2 z)) by (apply co; exact c3).
  rewrite (step s4 _ (PWheel 1 1) (PWheel 0 1)) in est; [|exact c4|right; right; right; left; reflexivity|exact i3|exact o3|reflexivity|reflexivity].
  set (s5 := upd s4 (nd (PWheel 0 1)) _) in est. rewrite est. cbn [ts_mesh ts_node ts_store].
  assert (ne : forall p q, is_part two_carts p -> is_part two_carts q -> p <> q -> nd p <> nd q) by (intros p q hp hq d e; apply d, inj; assumption).
  assert (hit : forall (s : store R) p q, n_coord (s (nd p)) = n_coord (s2 (nd p)) -> n_coord (s (nd q)) = n_coord (s2 (nd q)) -> is_part two_carts p -> is_part two_carts q -> two_places p = two_places q -> level p = level q ->
     n_dof (snd (node_eq (s (nd q)) (s (nd p)))) = tmap2 merge_idx (n_dof (s (nd q))) (n_dof (s (nd p))) /\ n_flag (snd (node_eq (s (nd q)) (s (nd p)))) = tmap2 orb (n_flag (s (nd q))) (n_flag (s (nd p)))).
  { intros s p q e1 e3 hp hq e4 e5. unfold node_eq. rewrite e1, e3, !hc by assumption. rewrite e4, e5, coords_refl. split; reflexivity. }
  assert (v3 : forall p, is_part two_carts p -> p <> PBogie 0 -> s3 (nd p) = s2 (nd p)) by (intros p hp d; apply upd_other, ne; auto).
  assert (v4 : forall p, is_part two_carts p -> p <> PWheel 0 0 -> s4 (nd p) = s3 (nd p)) by (intros p hp d; apply upd_other, ne; auto).
  assert (v5 : forall p, is_part two_carts p -> p <> PWheel 0 1 -> s5 (nd p) = s4 (nd p)) by (intros p hp d; apply upd_other, ne; auto).
  assert (w3 : s3 (nd (PBogie 0)) = snd (node_eq (s2 (nd (PBogie 0))) (s2 (nd (PBogie 1))))) by apply upd_same.
  assert (w4 : s4 (nd (PWheel 0 0)) = snd (node_eq (s3 (nd (PWheel 0 0))) (s3 (nd (PWheel 1 0))))) by apply upd_same.
  assert (w5 : s5 (nd (PWheel 0 1)) = snd (node_eq (s4 (nd (PWheel 0 1))) (s4 (nd (PWheel 1 1))))) by apply upd_same.
  destruct (hit s2 (PBogie 1) (PBogie 0)) as [d3 f3]; auto. destruct (hit s3 (PWheel 1 0) (PWheel 0 0)) as [d4 f4]; auto. destruct (hit s4 (PWheel 1 1) (PWheel 0 1)) as [d5 f5]; auto. rewrite <- w3 in d3, f3. rewrite <- w4 in d4, f4. rewrite <- w5 in d5, f5.
  rewrite !k1 in d3 by assumption. rewrite !v3, !k1 in d4 by (first [assumption|discriminate]). rewrite !v4, !v3, !k1 in d5 by (first [assumption|discriminate]).
  rewrite !hf in f3 by assumption. rewrite !v3, !hf in f4 by (first [assumption|discriminate]). rewrite !v4, !v3, !hf in f5 by (first [assumption|discriminate]).
  split; [reflexivity|]. split; [exact nd5|]. split; [rewrite v5, v4, v3, k1 by (first [assumption|discriminate]); reflexivity|]. split; [rewrite v5, v4, v3, k1 by (first [assumption|discriminate]); reflexivity|]. split.
  - intros b hb. destruct b as [|[|b]]; [| |lia].
    + split; [rewrite v5, v4, d3 by (first [assumption|discriminate]); reflexivity|]. split; [rewrite v5, d4 by (first [assumption|discriminate]); reflexivity|]. rewrite d5. reflexivity.
    + split; [rewrite v5, v4, v3, k1 by (first [assumption|discriminate]); reflexivity|]. split; rewrite v5, v4, v3, k1 by (first [assumption|discriminate]); reflexivity.
  - intros p hp. destruct (part_dec p (PWheel 0 1)) as [->|q1]; [rewrite f5; reflexivity|]. rewrite v5 by assumption. destruct (part_dec p (PWheel 0 0)) as [->|q2]; [rewrite f4; reflexivity|]. rewrite v4 by assumption.
    destruct (part_dec p (PBogie 0)) as [->|q3]; [rewrite f3; reflexivity|]. rewrite v3 by assumption. apply hf. exact hp.
Qed.
Lemma before_reset h tn x st0 cd bd m : sound st0 -> initialise_train_ndof tn = (cd, bd, m) -> exists (s2 : store R) nx nd,
  (forall p q, is_part tn p -> is_part tn q -> nd p = nd q -> p = q) /\ (forall p, is_part tn p -> n_dof (s2 (nd p)) = part_numbers cd bd p) /\
  (forall p, is_part tn p -> n_coord (s2 (nd p)) = T3 (x p) (level p) 0) /\ (forall p, is_part tn p -> n_flag (s2 (nd p)) = T3 true true true) /\
  initialise_nodes h tn x st0 = fold_left (fun st p => add_part_node h p st) (visits tn) (mkTstate s2 nx [] nd).
Proof.
  intros hs hn.
  pose proof (made_set_mesh h tn x st0 hs) as [g1 _ g3 g4 g5 g6]. pose proof (set_mesh_free h tn x st0) as gf. set (s1 := set_mesh h tn x st0) in *.
  assert (inj : forall p q, is_part tn p -> is_part tn q -> ts_node s1 p = ts_node s1 q -> p = q) by (intros p q hp hq; apply g4; apply visits_spec; assumption).
  assert (ha0 : agree tn (ts_node s1) [] [] (ts_store s1)).
  { intros p hp. rewrite g5 by (apply g3, visits_spec; exact hp). destruct p as [i|b|b k]; cbn [part_numbers dof_of]; try reflexivity. destruct i; reflexivity. }
  pose proof (carts_numbered tn (ts_node s1) inj (tn_carts tn) [] [] (ts_store s1) 0%nat ltac:(intros k c hk; exact hk) ha0) as g. change (number_carts tn [] 0%nat (tn_carts tn)) with (initialise_train_ndof tn) in g. rewrite hn in g. cbn [length app] in g.
  pose proof (carts_free tn (ts_node s1) (numbered_carts tn) (ts_store s1, 0%nat)) as gf2.
  fold (numbered_carts tn) in g. destruct (fold_left (cart_number tn (ts_node s1)) (numbered_carts tn) (ts_store s1, 0%nat)) as [s2 j] eqn:ef. destruct g as [_ [k1 k2]]. cbn [fst] in gf2.
  assert (e2 : number_train tn s1 = mkTstate s2 (ts_next s1) (ts_mesh s1) (ts_node s1)) by (unfold number_train; rewrite ef; reflexivity).
  exists s2, (ts_next s1), (ts_node s1). split; [exact inj|]. split; [exact k1|]. split; [intros p hp; rewrite k2; apply g6, visits_spec, hp|]. split; [intros p hp; rewrite gf2; apply gf; exact hp|].
  unfold initialise_nodes; fold s1; rewrite e2, reset_mesh_visits; reflexivity.
Qed.
Lemma two_state h st0 : sound st0 -> two_numbered (initialise_nodes h two_carts two_places st0).
Proof.
  intros hs. assert (hn : initialise_train_ndof two_carts = ([(0, 1); (6, 7)], [(0, mkBdof 2 3 [4; 5]); (1, mkBdof 8 9 [10; 11])], 12)%nat) by reflexivity.
  destruct (before_reset h two_carts two_places st0 _ _ _ hs hn) as [s2 [nx [nd [h1 [h2 [h3 [h4 h5]]]]]]]. exact (two_core h s2 nx nd _ h1 h2 h3 h4 h5).
Qed.

Definition both_bogies : list (nat * bdof) := [(0, mkBdof 8 9 [10; 11]); (1, mkBdof 8 9 [10; 11])]%nat.
Definition two_system : gsys R := train_system two_carts [(0, 1); (6, 7)]%nat both_bogies [0%nat].
Lemma close_zero v : v = 0 -> np_isclose v (lit 0) = true.
Proof. intros ->. apply np_isclose_spec. rnum. rewrite Rminus_diag_eq, Rabs_R0 by reflexivity. lra. Qed.
Lemma close_large v : 1 <= v -> np_isclose v (lit 0) = false.
Proof. intros h. destruct (np_isclose v (lit 0)) eqn:e; [|reflexivity]. apply np_isclose_spec in e. revert e. rnum. rewrite Rminus_0_r, Rabs_R0, Rabs_right by lra. lra. Qed.
Lemma two_masses : where_zero_from 0 (mdiag (gM two_system)) = [2;3;4;5]%nat.
Proof.
  unfold mdiag. cbn -[IZR np_isclose train_mass].
  rewrite (close_large (train_mass two_carts _ _ 0 0)) by (cbn -[IZR]; rnum; lra). rewrite (close_large (train_mass two_carts _ _ 1 1)) by (cbn -[IZR]; rnum; lra).
  rewrite (close_zero (train_mass two_carts _ _ 2 2)) by (cbn -[IZR]; rnum; lra). rewrite (close_zero (train_mass two_carts _ _ 3 3)) by (cbn -[IZR]; rnum; lra).
  rewrite (close_zero (train_mass two_carts _ _ 4 4)) by (cbn -[IZR]; rnum; lra). rewrite (close_zero (train_mass two_carts _ _ 5 5)) by (cbn -[IZR]; rnum; lra).
  rewrite (close_large (train_mass two_carts _ _ 6 6)) by (cbn -[IZR]; rnum; lra). rewrite (close_large (train_mass two_carts _ _ 7 7)) by (cbn -[IZR]; rnum; lra).
  rewrite (close_large (train_mass two_carts _ _ 8 8)) by (cbn -[IZR]; rnum; lra). rewrite (close_large (train_mass two_carts _ _ 9 9)) by (cbn -[IZR]; rnum; lra).
  rewrite (close_large (train_mass two_carts _ _ 10 10)) by (cbn -[IZR]; rnum; lra). rewrite (close_large (train_mass two_carts _ _ 11 11)) by (cbn -[IZR]; rnum; lra). reflexivity.
Qed.
Lemma two_springs : where_zero_from 0 (mdiag (gK two_system)) = [2;3;4;5]%nat.
Proof.
  unfold mdiag. cbn -[IZR np_isclose train_stiffness].
  rewrite (close_large (train_stiffness two_carts _ _ _ 0 0)) by (cbn -[IZR]; rnum; lra). rewrite (close_large (train_stiffness two_carts _ _ _ 1 1)) by (cbn -[IZR]; rnum; lra).
  rewrite (close_zero (train_stiffness two_carts _ _ _ 2 2)) by (cbn -[IZR]; rnum; lra). rewrite (close_zero (train_stiffness two_carts _ _ _ 3 3)) by (cbn -[IZR]; rnum; lra).
  rewrite (close_zero (train_stiffness two_carts _ _ _ 4 4)) by (cbn -[IZR]; rnum; lra). rewrite (close_zero (train_stiffness two_carts _ _ _ 5 5)) by (cbn -[IZR]; rnum; lra).
  rewrite (close_large (train_stiffness two_carts _ _ _ 6 6)) by (cbn -[IZR]; rnum; lra). rewrite (close_large (train_stiffness two_carts _ _ _ 7 7)) by (cbn -[IZR]; rnum; lra).
  rewrite (close_large (train_stiffness two_carts _ _ _ 8 8)) by (cbn -[IZR]; rnum; lra). rewrite (close_large (train_stiffness two_carts _ _ _ 9 9)) by (cbn -[IZR]; rnum; lra).
  rewrite (close_large (train_stiffness two_carts _ _ _ 10 10)) by (cbn -[IZR]; rnum; lra). rewrite (close_large (train_stiffness two_carts _ _ _ 11 11)) by (cbn -[IZR]; rnum; lra). reflexivity.
Qed.
Lemma two_trim (a b c d e : node R) : n_dof a = T3 None (Some 0%nat) (Some 1%nat) -> n_dof b = T3 None (Some 8%nat) (Some 9%nat) -> n_dof c = T3 None (Some 10%nat) None -> n_dof d = T3 None (Some 11%nat) None -> n_dof e = T3 None (Some 6%nat) (Some 7%nat) ->
  Forall (fun n => n_flag n = T3 true true true) [a; b; c; d; e] ->
  exists s a' b' c' d' e', trim_all two_system [a; b; c; d; e] = Ok (s, [a'; b'; c'; d'; e'], 8%nat) /\ mr (gM s) = 8%nat /\ me (gM s) 2 2 = 22 /\ n_dof b' = T3 None (Some 2%nat) (Some 3%nat) /\ n_dof e' = T3 None (Some 6%nat) (Some 7%nat) /\ me (gM s) 6 6 = 3.
Proof.
  intros ha hb hc hd he hf. assert (ho : obsolete_indices two_system [a; b; c; d; e] = [5;4;3;2]%nat).
  { unfold obsolete_indices. rewrite two_masses, two_springs. assert (hz : constrained_indices [a; b; c; d; e] = []).
    { unfold constrained_indices. apply Forall_rev in hf. revert hf. generalize (rev [a; b; c; d; e]). induction l as [|x l IH]; intros hf; [reflexivity|]. inversion hf as [|? ? h1 h2]; subst. cbn [flat_map]. rewrite IH by exact h2. unfold constrained_of. rewrite h1. reflexivity. }
    rewrite hz. reflexivity. }
  unfold trim_all. rewrite ho. unfold recalculate_dof. cbn [recalc_from]. unfold recalc_node. rewrite ha, hb, hc, hd, he. 
  cbn -[IZR two_system]. eexists _, _, _, _, _, _. split; [reflexivity|]. split; [reflexivity|]. split; [reflexivity|]. split; [reflexivity|]. split; reflexivity.
Qed.

Lemma two_found : get_bogies two_carts (fun b => two_places (PBogie b)) = [0%nat].
Proof. unfold get_bogies. cbn [two_carts tn_carts flat_map ct_bogies app unique_by existsb two_places orb]. rewrite coords_refl. reflexivity. Qed.
(** C117 as promised, equations that belong to the parts, is false for bogies at the same place.  Two carts of 20 and 22 with a bogie of 5 each, above the same point:
    no error is raised and the eight numbers fit the eight rows, but the number of the bogie is the row of the second cart, and the number of this cart is the row of a wheel *)
Theorem C117_coincident_refuted (h : tri Z -> Z) (st0 : tstate R) : sound st0 ->
  exists s st, train_initialise h two_carts two_places st0 = Ok (s, st, 8%nat) /\ mr (gM s) = 8%nat /\
    number_of_part st (PBogie 0) DY = Some 2%nat /\ own_mass two_carts (PBogie 0) DY = 5 /\ me (gM s) 2 2 = 22 /\
    number_of_part st (PCart 1) DY = Some 6%nat /\ own_mass two_carts (PCart 1) DY = 22 /\ me (gM s) 6 6 = 3.
Proof.
  intros hs. pose proof (two_state h st0 hs) as g. unfold two_numbered in g. cbv zeta in g. unfold train_initialise. rewrite two_found. set (st := initialise_nodes h two_carts two_places st0) in *. clearbody st. destruct g as [g1 [g2 [g3 [g4 [g5 g6]]]]].
  assert (e1 : read_carts two_carts st = [(0, 1); (6, 7)]%nat) by (unfold read_carts, number_at; cbn [two_carts tn_carts length seq map]; rewrite g3, g4; reflexivity).
  destruct (g5 0%nat) as [b1 [b2 b3]]; [lia|]. destruct (g5 1%nat) as [c1 [c2 c3]]; [lia|].
  assert (e2 : read_bogies two_carts st = both_bogies).
  { unfold read_bogies, number_at. change (unique_by Nat.eqb [] (flat_map (@ct_bogies R) (tn_carts two_carts))) with [0;1]%nat. cbn [map]. change (length (bg_wheels (bogie_of two_carts 0))) with 2%nat. change (length (bg_wheels (bogie_of two_carts 1))) with 2%nat. cbn [seq map]. rewrite b1, b2, b3, c1, c2, c3. reflexivity. }
  rewrite e1, e2. fold two_system. rewrite g1. cbn [map].
  destruct (two_trim (ts_store st (ts_node st (PCart 0))) (ts_store st (ts_node st (PBogie 0))) (ts_store st (ts_node st (PWheel 0 0))) (ts_store st (ts_node st (PWheel 0 1))) (ts_store st (ts_node st (PCart 1)))) as [s [a' [b' [c' [d' [e' [t1 [t2 [t3 [t4 [t5 t6]]]]]]]]]]]; try assumption.
  { assert (hb : exists c, In c (tn_carts two_carts) /\ In 0%nat (ct_bogies c)) by (eexists; split; [left; reflexivity|left; reflexivity]).
    repeat apply Forall_cons; try apply Forall_nil; apply g6; [cbn; lia|exact hb|split; [exact hb|cbn; lia]|split; [exact hb|cbn; lia]|cbn; lia]. }
  rewrite t1. cbn [rbind]. rewrite g1 in g2. set (w := write_back _ _ _). exists s, (mkTstate w (ts_next st) (map (ts_node st) [PCart 0; PBogie 0; PWheel 0 0; PWheel 0 1; PCart 1]) (ts_node st)). split; [reflexivity|]. split; [exact t2|].
  unfold number_of_part. cbn [ts_store ts_node]. split; [|split; [reflexivity|split; [exact t3|split; [|split; [reflexivity|exact t6]]]]].
  - unfold w. rewrite (write_back_nth _ _ [a'; b'; c'; d'; e'] 1 (ts_node st (PBogie 0)) b' g2 eq_refl eq_refl), t4. reflexivity.
  - unfold w. rewrite (write_back_nth _ _ [a'; b'; c'; d'; e'] 4 (ts_node st (PCart 1)) e' g2 eq_refl eq_refl), t5. reflexivity.
Qed.
Print Assumptions C117_coincident_refuted.
