(** * Proofs about generated meshes *)

From Coq Require Import Reals List Bool ZArith Arith Lia Lra Psatz.
From Verif Require Import Num PyBase Model_Geometry Model_System Model_Element Model_Moving Model_Coupled Model_Mesh
  Spec_Geometry Spec_Mesh Proofs_Geometry Proofs_System Proofs_Coupled.
Import ListNotations.
Local Open Scope R_scope.

Lemma nodup_app_left {A} (a b : list A) : NoDup (a ++ b) -> NoDup a.
Proof.
  induction a as [|x a IH]; intros h; [constructor|]. cbn in h. inversion h; subst. constructor; [|auto].
  intros hc. apply H1. apply in_or_app. auto.
Qed.

(** ** insertion of nodes that are apart *)

Definition apart (a b : node R) : Prop := n_id a <> n_id b -> coords_equal (n_coord a) (n_coord b) = false.

Lemma find_old h st n : (forall s, In s st -> apart s n) -> In (n_id n) (map (@n_id R) st) -> dict_find h st n = Some st.
Proof.
  induction st as [|s st IH]; intros h1 h2; [contradiction|]. cbn [dict_find].
  destruct (Nat.eqb_spec (n_id s) (n_id n)) as [e|e]; [reflexivity|].
  assert (hr : dict_find h st n = Some st).
  { apply IH; [intros; apply h1; right; auto|]. destruct h2; [contradiction|auto]. }
  rewrite hr. destruct (Z.eqb _ _); [|reflexivity]. unfold node_eq. rewrite (h1 s (or_introl eq_refl) e). reflexivity.
Qed.

Lemma find_new h st n : (forall s, In s st -> apart s n) -> ~ In (n_id n) (map (@n_id R) st) -> dict_find h st n = None.
Proof.
  induction st as [|s st IH]; intros h1 h2; [reflexivity|]. cbn [dict_find].
  destruct (Nat.eqb_spec (n_id s) (n_id n)) as [e|e]; [exfalso; apply h2; left; auto|].
  assert (hr : dict_find h st n = None).
  { apply IH; [intros; apply h1; right; auto|]. intros hc. apply h2. right. auto. }
  rewrite hr. destruct (Z.eqb _ _); [|reflexivity]. unfold node_eq. rewrite (h1 s (or_introl eq_refl) e). reflexivity.
Qed.

Lemma insert_all_old h ns st : (forall s n, In s st -> In n ns -> apart s n) -> incl (map (@n_id R) ns) (map (@n_id R) st) ->
  fold_left (dict_insert h) ns st = st.
Proof.
  induction ns as [|n ns IH]; intros h1 h2; [reflexivity|]. cbn [fold_left]. unfold dict_insert at 2. rewrite find_old.
  - apply IH; [intros; apply h1; auto; right; auto|]. intros x hx. apply h2. right. auto.
  - intros s hs. apply h1; auto. left. auto.
  - apply h2. left. auto.
Qed.

Lemma insert_all_new h ns st : (forall s n, In s (st ++ ns) -> In n ns -> apart s n) -> NoDup (map (@n_id R) (st ++ ns)) ->
  fold_left (dict_insert h) ns st = st ++ ns.
Proof.
  revert st. induction ns as [|n ns IH]; intros st h1 h2; [cbn; rewrite app_nil_r; reflexivity|]. cbn [fold_left]. unfold dict_insert at 2.
  rewrite find_new.
  - rewrite IH.
    + rewrite <- app_assoc. reflexivity.
    + intros s m hs hm. rewrite <- app_assoc in hs. apply h1; auto. right. auto.
    + rewrite <- app_assoc. exact h2.
  - intros s hs. apply h1; [apply in_or_app; auto|left; auto].
  - rewrite map_app in h2. cbn [map] in h2. apply NoDup_remove_2 in h2. intros hc. apply h2. apply in_or_app. auto.
Qed.

(** ** the nodes of a generated track *)

Section Track.
  Variables (base n r : nat) (d depth : R).
  Hypothesis hr : (1 <= r)%nat.
  Hypothesis hd : 1 / 1000000000 < d / INR r.
  Hypothesis hdepth : 1 / 1000000000 < depth.

  Let nr := (n * r)%nat.
  Definition rail_node (i : nat) : node R := new_node (base + i) (INR i * d / INR r) 0 0.
  Definition sleeper_node (i : nat) : node R := new_node (base + nr + i) (INR i * d) (-1) 0.
  Definition bottom_node (i : nat) : node R := new_node (base + nr + n + i) (INR i * d) (-1 - depth) 0.
  Definition track_nodes : list (node R) :=
    map rail_node (seq 0 nr) ++ map sleeper_node (seq 0 n) ++ map bottom_node (seq 0 n).

  Lemma not_close a b : (exists t, 1 / 1000000000 < Rabs (tget a t - tget b t)) -> coords_equal a b = false.
  Proof.
    intros [t h]. destruct (coords_equal a b) eqn:e; auto. apply coords_equal_spec in e. specialize (e t). lra.
  Qed.

  Lemma spacing i j : i <> j -> forall s, 1 / 1000000000 < s -> 1 / 1000000000 < Rabs (INR i * s - INR j * s).
  Proof.
    intros h s hs. replace (INR i * s - INR j * s) with ((INR i - INR j) * s) by ring. rewrite Rabs_mult, (Rabs_right s) by lra.
    assert (1 <= Rabs (INR i - INR j)).
    { destruct (Nat.lt_ge_cases i j) as [c|c].
      - assert (INR i + 1 <= INR j) by (rewrite <- S_INR; apply le_INR; lia). rewrite Rabs_left; lra.
      - assert (INR j + 1 <= INR i) by (rewrite <- S_INR; apply le_INR; lia). rewrite Rabs_right; lra. }
    nra.
  Qed.

  Lemma rpos : 0 < INR r.
  Proof. apply lt_0_INR. lia. Qed.
  Lemma dbig : 1 / 1000000000 < d.
  Proof.
    pose proof rpos as h. assert (1 <= INR r) by (change 1 with (INR 1); apply le_INR; lia).
    assert (d = d / INR r * INR r) by (field; lra). assert (0 < d / INR r) by lra. nra.
  Qed.

  Lemma rail_rail i j : apart (rail_node i) (rail_node j).
  Proof.
    intros h. apply not_close. exists DX. cbn. cbn in h. replace (INR i * d / INR r) with (INR i * (d / INR r)) by (field; pose proof rpos; lra).
    replace (INR j * d / INR r) with (INR j * (d / INR r)) by (field; pose proof rpos; lra). apply spacing; auto; lia.
  Qed.
  Lemma sleeper_sleeper i j : apart (sleeper_node i) (sleeper_node j).
  Proof. intros h. apply not_close. exists DX. cbn. cbn in h. apply spacing; [lia|apply dbig]. Qed.
  Lemma bottom_bottom i j : apart (bottom_node i) (bottom_node j).
  Proof. intros h. apply not_close. exists DX. cbn. cbn in h. apply spacing; [lia|apply dbig]. Qed.
  Lemma far_y (a b : node R) : ty (n_coord a) - ty (n_coord b) > 1 / 1000000000 -> apart a b /\ apart b a.
  Proof.
    intros h. split; intros _; apply not_close; exists DY; cbn [tget].
    - rewrite Rabs_right; lra.
    - rewrite Rabs_left; lra.
  Qed.

  Lemma track_apart a b : In a track_nodes -> In b track_nodes -> apart a b.
  Proof.
    unfold track_nodes. rewrite !in_app_iff, !in_map_iff.
    intros [[i [<- _]]|[[i [<- _]]|[i [<- _]]]] [[j [<- _]]|[[j [<- _]]|[j [<- _]]]].
    - apply rail_rail.
    - apply (proj1 (far_y (rail_node i) (sleeper_node j) ltac:(cbn; lra))).
    - apply (proj1 (far_y (rail_node i) (bottom_node j) ltac:(cbn; lra))).
    - apply (proj2 (far_y (rail_node j) (sleeper_node i) ltac:(cbn; lra))).
    - apply sleeper_sleeper.
    - apply (proj1 (far_y (sleeper_node i) (bottom_node j) ltac:(cbn; lra))).
    - apply (proj2 (far_y (rail_node j) (bottom_node i) ltac:(cbn; lra))).
    - apply (proj2 (far_y (sleeper_node j) (bottom_node i) ltac:(cbn; lra))).
    - apply bottom_bottom.
  Qed.

  Lemma ids_shift b k : map (fun i => (b + i)%nat) (seq 0 k) = seq b k.
  Proof. apply (nth_ext _ _ 0%nat 0%nat); rewrite map_length, !seq_length; auto.
    intros i hi. rewrite (nth_indep _ 0%nat (b + 0)%nat) by (rewrite map_length, seq_length; auto). rewrite (map_nth (fun i => (b + i)%nat)), !seq_nth by auto. lia. Qed.

  Lemma track_ids : map (@n_id R) track_nodes = seq base (nr + n + n).
  Proof.
    unfold track_nodes. rewrite !map_app, !map_map. cbn. rewrite !ids_shift. rewrite (seq_app (nr + n)), (seq_app nr). rewrite <- app_assoc, Nat.add_assoc. reflexivity.
  Qed.


  Lemma insert_interleaved h (f g : nat -> node R) k st :
    (forall a b, In a (st ++ map f (seq 0 k) ++ map g (seq 0 k)) -> In b (st ++ map f (seq 0 k) ++ map g (seq 0 k)) -> apart a b) ->
    (forall i, (i < k)%nat -> In (n_id (f i)) (map (@n_id R) st)) -> NoDup (map (@n_id R) (st ++ map g (seq 0 k))) ->
    fold_left (dict_insert h) (flat_map (fun i => [f i; g i]) (seq 0 k)) st = st ++ map g (seq 0 k).
  Proof.
    revert st. induction k as [|k IH]; intros st h1 h2 h3; [cbn; rewrite app_nil_r; reflexivity|].
    rewrite seq_S in *. cbn [Nat.add] in *. rewrite flat_map_app, fold_left_app. rewrite !map_app in *. rewrite IH.
    - cbn [flat_map app fold_left map]. unfold dict_insert at 2. rewrite find_old.
      + unfold dict_insert. rewrite find_new.
        * rewrite <- app_assoc. reflexivity.
        * intros s hs. apply h1; rewrite !in_app_iff in *; cbn; tauto.
        * rewrite map_app. rewrite app_assoc in h3. cbn [map] in h3. apply NoDup_remove_2 in h3. rewrite app_nil_r in h3. exact h3.
      + intros s hs. apply h1; rewrite !in_app_iff in *; cbn; tauto.
      + rewrite map_app. apply in_or_app. left. apply h2. lia.
    - intros a b ha hb. apply h1; rewrite !in_app_iff in *; tauto.
    - intros i hi. apply h2. lia.
    - rewrite map_app. rewrite app_assoc in h3. apply nodup_app_left in h3. exact h3.
  Qed.

  Lemma nodup_ids l1 l2 : track_nodes = l1 ++ l2 -> NoDup (map (@n_id R) l1).
  Proof. intros e. apply (nodup_app_left _ (map (@n_id R) l2)). rewrite <- map_app, <- e, track_ids. apply seq_NoDup. Qed.

  Lemma rail_in i : (i < nr)%nat -> In (rail_node i) (map rail_node (seq 0 nr)).
  Proof. intros hi. apply in_map. apply in_seq. lia. Qed.
  Lemma every_rth i : (i < n)%nat -> (i * r < nr)%nat.
  Proof. unfold nr. intros. nia. Qed.

  Lemma track_mesh h :
    mesh_of h [map rail_node (seq 0 nr); flat_map (fun i => [rail_node (i * r); sleeper_node i]) (seq 0 n); map sleeper_node (seq 0 n);
               flat_map (fun i => [sleeper_node i; bottom_node i]) (seq 0 n); map bottom_node (seq 0 n)] = track_nodes.
  Proof.
    rewrite mesh_of_as_fold. cbn [concat]. rewrite app_nil_r, !fold_left_app.
    assert (U : forall a, In a (map rail_node (seq 0 nr)) \/ In a (map sleeper_node (seq 0 n)) \/ In a (map bottom_node (seq 0 n)) -> In a track_nodes).
    { intros a. unfold track_nodes. rewrite !in_app_iff. tauto. }
    assert (hrr : forall a, In a (map (fun i => rail_node (i * r)) (seq 0 n)) -> In a (map rail_node (seq 0 nr))).
    { intros a ha. apply in_map_iff in ha. destruct ha as [i [<- hi]]. apply in_seq in hi. apply rail_in. apply every_rth. lia. }
    assert (n1 : NoDup (map (@n_id R) (map rail_node (seq 0 nr)))) by (apply (nodup_ids _ (map sleeper_node (seq 0 n) ++ map bottom_node (seq 0 n))); reflexivity).
    assert (n2 : NoDup (map (@n_id R) (map rail_node (seq 0 nr) ++ map sleeper_node (seq 0 n)))).
    { apply (nodup_ids _ (map bottom_node (seq 0 n))). rewrite <- app_assoc. reflexivity. }
    assert (n3 : NoDup (map (@n_id R) ((map rail_node (seq 0 nr) ++ map sleeper_node (seq 0 n)) ++ map bottom_node (seq 0 n)))).
    { apply (nodup_ids _ []). rewrite app_nil_r, <- app_assoc. reflexivity. }
    rewrite (insert_all_new h (map rail_node (seq 0 nr)) []); [|intros; apply track_apart; apply U; cbn in *; tauto|exact n1]. cbn [app].
    rewrite (insert_interleaved h (fun i => rail_node (i * r)) sleeper_node).
    2: { intros a b ha hb. apply track_apart; apply U; rewrite !in_app_iff in *; intuition. }
    2: { intros i hi. apply in_map. apply rail_in. apply every_rth. auto. }
    2: exact n2.
    rewrite (insert_all_old h (map sleeper_node (seq 0 n))).
    2: { intros a b ha hb. apply track_apart; apply U; rewrite ?in_app_iff in *; intuition. }
    2: { rewrite map_app. apply incl_appr. apply incl_refl. }
    rewrite (insert_interleaved h sleeper_node bottom_node).
    2: { intros a b ha hb. apply track_apart; apply U; rewrite !in_app_iff in *; intuition. }
    2: { intros i hi. apply in_map. apply in_or_app. right. apply in_map. apply in_seq. lia. }
    2: exact n3.
    rewrite (insert_all_old h (map bottom_node (seq 0 n))).
    - unfold track_nodes. rewrite app_assoc. reflexivity.
    - intros a b ha hb. apply track_apart; apply U; rewrite ?in_app_iff in *; intuition.
    - rewrite map_app. apply incl_appr. apply incl_refl.
  Qed.

  (** ** the parts of a generated track *)

  Definition the_track : track R :=
    mkTrack track_nodes (seq base nr) (map (fun i => ((base + i)%nat, (base + (i + 1))%nat)) (seq 0 (nr - 1))) d
      (flat_map (fun i => [(base + i * r)%nat; (base + nr + i)%nat]) (seq 0 n))
      (map (fun i => ((base + i * r)%nat, (base + nr + i)%nat)) (seq 0 n))
      (seq (base + nr) n)
      (flat_map (fun i => [(base + nr + i)%nat; (base + nr + n + i)%nat]) (seq 0 n))
      (map (fun i => ((base + nr + i)%nat, (base + nr + n + i)%nat)) (seq 0 n))
      (reorder_node_ids track_nodes)
      (map (fun i => ((base + i)%nat, (base + (i + 1))%nat)) (seq 0 (nr - 1)) ++
       map (fun i => ((base + i * r)%nat, (base + nr + i)%nat)) (seq 0 n) ++
       map (fun i => ((base + nr + i)%nat, (base + nr + n + i)%nat)) (seq 0 n)).

  Lemma flat2_nth {A} (f g : nat -> A) k i dflt : (i < k)%nat ->
    nth (i * 2) (flat_map (fun i => [f i; g i]) (seq 0 k)) dflt = f i /\
    nth (i * 2 + 1) (flat_map (fun i => [f i; g i]) (seq 0 k)) dflt = g i.
  Proof.
    assert (hl : forall k, length (flat_map (fun i => [f i; g i]) (seq 0 k)) = (k * 2)%nat).
    { intros m. induction m as [|m IH]; [reflexivity|]. rewrite seq_S, flat_map_app, app_length, IH. cbn. lia. }
    induction k as [|k IH]; intros hi; [lia|]. rewrite seq_S, flat_map_app. cbn [Nat.add flat_map app].
    destruct (Nat.eq_dec i k) as [->|ne].
    - rewrite !app_nth2 by (rewrite hl; lia). rewrite hl. replace (k * 2 - k * 2)%nat with 0%nat by lia. replace (k * 2 + 1 - k * 2)%nat with 1%nat by lia. auto.
    - rewrite !app_nth1 by (rewrite hl; lia). apply IH. lia.
  Qed.

  Lemma flat_map_ext_seq {A} (f g : nat -> list A) k : (forall i, (i < k)%nat -> f i = g i) -> flat_map f (seq 0 k) = flat_map g (seq 0 k).
  Proof. induction k as [|k IH]; intros h; [reflexivity|]. rewrite seq_S, !flat_map_app, IH by auto. cbn. rewrite h by lia. reflexivity. Qed.
  Lemma map_ext_seq {A} (f g : nat -> A) k : (forall i, (i < k)%nat -> f i = g i) -> map f (seq 0 k) = map g (seq 0 k).
  Proof. intros h. apply map_ext_in. intros i hi. apply h. apply in_seq in hi. lia. Qed.
  Lemma map_flat2 {A B} (m : A -> B) (f g : nat -> A) k : map m (flat_map (fun i => [f i; g i]) (seq 0 k)) = flat_map (fun i => [m (f i); m (g i)]) (seq 0 k).
  Proof. induction k as [|k IH]; [reflexivity|]. rewrite seq_S, !flat_map_app, map_app, IH. reflexivity. Qed.

  Lemma create_spec h : create_horizontal_track h base n d depth r = Ok the_track.
  Proof.
    unfold create_horizontal_track. destruct (Nat.eqb_spec r 0) as [e|_]; [lia|]. cbn [andb]. cbv beta zeta. fold nr.
    assert (e1 : map (fun i => new_node (base + i) (nofnat i * d / nofnat r)%num (lit 0) (lit 0)) (seq 0 nr) = map rail_node (seq 0 nr)).
    { apply map_ext_seq. intros i hi. unfold rail_node. rewrite !nofnat_R. reflexivity. }
    rewrite e1. clear e1. set (none := new_node 0 (@lit R RNum 0) (@lit R RNum 0) (@lit R RNum 0)).
    assert (e2 : forall i, new_node (base + nr + i) (nofnat i * d)%num (- lit 1)%num (lit 0) = sleeper_node i).
    { intros i. unfold sleeper_node. rewrite nofnat_R. reflexivity. }
    assert (e3 : flat_map (fun i => [nth (i * r) (map rail_node (seq 0 nr)) none; new_node (base + nr + i) (nofnat i * d)%num (- lit 1)%num (lit 0)]) (seq 0 n) =
                 flat_map (fun i => [rail_node (i * r); sleeper_node i]) (seq 0 n)).
    { apply flat_map_ext_seq. intros i hi. rewrite e2. rewrite (nth_indep _ none (rail_node 0)) by (rewrite map_length, seq_length; apply every_rth; auto).
      rewrite (map_nth rail_node), seq_nth by (apply every_rth; auto). reflexivity. }
    rewrite e3. clear e3.
    set (pads := flat_map (fun i => [rail_node (i * r); sleeper_node i]) (seq 0 n)).
    assert (hp : forall i, (i < n)%nat -> nth (i * 2 + 1) pads none = sleeper_node i).
    { intros i hi. apply (flat2_nth (fun i => rail_node (i * r)) sleeper_node). auto. }
    rewrite (map_ext_seq (fun i => nth (i * 2 + 1) pads none) sleeper_node n hp).
    assert (e4 : forall i, (i < n)%nat -> new_node (base + nr + n + i) (tx (n_coord (nth (i * 2 + 1) pads none))) (ty (n_coord (nth (i * 2 + 1) pads none)) - depth)%num (lit 0) = bottom_node i).
    { intros i hi. rewrite hp by auto. unfold bottom_node, sleeper_node. reflexivity. }
    rewrite (map_ext_seq (fun i => new_node (base + nr + n + i) (tx (n_coord (nth (i * 2 + 1) pads none))) (ty (n_coord (nth (i * 2 + 1) pads none)) - depth)%num (lit 0)) bottom_node n e4).
    rewrite (flat_map_ext_seq (fun i => [nth (i * 2 + 1) pads none; new_node (base + nr + n + i) (tx (n_coord (nth (i * 2 + 1) pads none))) (ty (n_coord (nth (i * 2 + 1) pads none)) - depth)%num (lit 0)])
              (fun i => [sleeper_node i; bottom_node i]) n) by (intros i hi; rewrite e4, hp by auto; reflexivity).
    rewrite (map_ext_seq (fun i => nth (i * 2 + 1) (flat_map (fun i => [sleeper_node i; bottom_node i]) (seq 0 n)) none) bottom_node n) by (intros i hi; apply (flat2_nth sleeper_node bottom_node); auto).
    rewrite (map_ext_seq (fun i => new_node (base + nr + i) (nofnat i * d)%num (- lit 1)%num (lit 0)) sleeper_node n) by auto. unfold pads. clear pads hp e4.
    rewrite (track_mesh h). unfold the_track. f_equal. fold track_nodes.
    rewrite !map_flat2. cbn [n_id rail_node sleeper_node bottom_node new_node].
    rewrite !map_map. cbn [n_id rail_node sleeper_node bottom_node new_node]. rewrite !ids_shift.
    assert (hp : forall f g : nat -> nat, point_pairs (flat_map (fun i => [f i; g i]) (seq 0 n)) n = map (fun i => (f i, g i)) (seq 0 n)).
    { intros f g. unfold point_pairs. apply map_ext_seq. intros i hi. destruct (flat2_nth f g n i 0%nat hi) as [a b]. rewrite a, b. reflexivity. }
    rewrite !hp. reflexivity.
  Qed.
End Track.

