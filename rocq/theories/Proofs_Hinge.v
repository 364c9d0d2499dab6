(** * Proofs about hinges and the bottom boundary *)

From Coq Require Import Reals List Bool ZArith Arith Permutation Lia Lra Psatz.
From Verif Require Import Num PyBase Model_Geometry Model_System Model_Element Model_Moving Model_Coupled Model_Mesh
  Spec_Geometry Spec_Mesh Proofs_Geometry Proofs_System Proofs_Coupled Proofs_Mesh Proofs_Join.
Import ListNotations.
Local Open Scope R_scope.

Lemma np_isclose_near (a b : R) : np_isclose a b = true <-> near a b.
Proof. apply np_isclose_spec. Qed.

Lemma find_at_spec (c : heap R) x l1 : forall h l2 i, (forall n, In n l1 -> ~ near (tx (c n)) x) -> near (tx (c h)) x ->
  find_at c x i (l1 ++ h :: l2) = Some ((i + length l1)%nat, h).
Proof.
  induction l1 as [|n l1 IH]; intros h l2 i h1 h2; cbn [app find_at length].
  - rewrite (proj2 (np_isclose_near _ _) h2). rewrite Nat.add_0_r. reflexivity.
  - destruct (np_isclose (tx (c n)) x) eqn:e; [apply np_isclose_near in e; exfalso; exact (h1 n (or_introl eq_refl) e)|].
    rewrite IH; [f_equal; f_equal; lia|intros; apply h1; right; auto|auto].
Qed.
Lemma find_at_none (c : heap R) x l : forall i, (forall n, In n l -> ~ near (tx (c n)) x) -> find_at c x i l = None.
Proof.
  induction l as [|n l IH]; intros i h1; cbn [find_at]; [reflexivity|].
  destruct (np_isclose (tx (c n)) x) eqn:e; [apply np_isclose_near in e; exfalso; exact (h1 n (or_introl eq_refl) e)|].
  apply IH. intros; apply h1; right; auto.
Qed.

Lemma remove_mid {A} (l1 : list A) a l2 : remove_at (length l1) (l1 ++ a :: l2) = l1 ++ l2.
Proof.
  unfold remove_at. rewrite firstn_app, Nat.sub_diag, firstn_all. cbn [firstn]. rewrite app_nil_r. f_equal.
  rewrite skipn_app. rewrite skipn_all2 by lia. replace (S (length l1) - length l1)%nat with 1%nat by lia. reflexivity.
Qed.

Definition off (c : heap R) (h : nat) (e : nat * nat) : Prop := same_node c (fst e) h = false /\ same_node c (snd e) h = false.

Lemma hinge_skip (c : heap R) h k es : forall idx rest kept rem parts, (forall e, In e es -> off c h e) ->
  hinge_loop c h k idx (es ++ rest) kept rem parts = hinge_loop c h k (idx + length es) rest (rev es ++ kept) rem parts.
Proof.
  induction es as [|e es IH]; intros idx rest kept rem parts h1; cbn [app length rev].
  - rewrite Nat.add_0_r. reflexivity.
  - cbn [hinge_loop]. destruct (h1 e (or_introl eq_refl)) as [-> ->]. cbn [orb]. rewrite IH by (intros; apply h1; right; auto).
    rewrite <- app_assoc. cbn [app]. f_equal. lia.
Qed.

Lemma same_self (c : heap R) h : same_node c h h = true.
Proof. unfold same_node. apply coords_equal_spec. intros t. rewrite Rminus_diag_eq by reflexivity. rewrite Rabs_R0. lra. Qed.

Lemma same_sym (c : heap R) a b : same_node c a b = same_node c b a.
Proof. unfold same_node. apply coords_sym. Qed.

Lemma chain_in l e : In e (chain l) -> In (fst e) l /\ In (snd e) l.
Proof.
  induction l as [|a l IH]; [contradiction|]. destruct l as [|b l]; [contradiction|]. change (chain (a :: b :: l)) with ((a, b) :: chain (b :: l)).
  intros [<-|h]; [cbn; auto|]. destruct (IH h). split; right; auto.
Qed.

Lemma chain_off (c : heap R) h l : (forall n, In n l -> same_node c n h = false) -> forall e, In e (chain l) -> off c h e.
Proof. intros h1 e he. destruct (chain_in l e he). split; apply h1; auto. Qed.

Lemma chain_length l : length (chain l) = (length l - 1)%nat.
Proof. exact (proj1 (chain_spec l)). Qed.

Lemma take_left {A} (a b : list A) : take_range (a ++ b) 0 (length a) = Ok a.
Proof.
  unfold take_range. rewrite app_length. destruct (Nat.leb_spec (length a) (length a + length b)); [|lia]. cbn [orb]. rewrite Nat.sub_0_r. cbn [skipn].
  rewrite firstn_app, Nat.sub_diag, firstn_all. cbn [firstn]. rewrite app_nil_r. reflexivity.
Qed.
Lemma take_right {A} (a b : list A) : take_range (a ++ b) (length a) (length (a ++ b)) = Ok b.
Proof.
  unfold take_range. rewrite Nat.leb_refl. cbn [orb]. rewrite skipn_app, Nat.sub_diag. rewrite skipn_all2 by lia. cbn [app skipn].
  rewrite app_length. replace (length a + length b - length a)%nat with (length b) by lia. rewrite firstn_all. reflexivity.
Qed.

Section Hinge.
  Variables (c : heap R) (k x : R) (h : nat).
  Hypothesis hx : near (tx (c h)) x.

  Lemma hinge_interior l1 a b l2 : (forall n, In n (l1 ++ [a]) -> ~ near (tx (c n)) x) ->
    (forall n, In n ((l1 ++ [a]) ++ b :: l2) -> same_node c n h = false) ->
    add_semi_rigid_hinge c ((l1 ++ [a]) ++ h :: b :: l2) (chain ((l1 ++ [a]) ++ h :: b :: l2)) k x =
    Ok ((l1 ++ [a], chain (l1 ++ [a])), [mkHingePart (a, h) None (Some (k / 2)); mkHingePart (h, b) (Some (k / 2)) None], (b :: l2, chain (b :: l2))).
  Proof.
    intros h1 h2. unfold add_semi_rigid_hinge. rewrite (find_at_spec c x _ h _ 0 h1 hx). cbn [Nat.add].
    rewrite remove_mid. rewrite chain_app. change (chain (h :: b :: l2)) with ((h, b) :: chain (b :: l2)).
    rewrite rev_app_distr. cbn [rev]. rewrite <- !app_assoc. rewrite hinge_skip.
    2:{ intros e he. apply in_rev in he. apply (chain_off c h (b :: l2)); auto. intros n hn. apply h2. apply in_or_app. auto. }
    assert (ha : same_node c a h = false) by (apply h2; apply in_or_app; left; apply in_or_app; right; left; reflexivity).
    assert (hb : same_node c b h = false) by (apply h2; apply in_or_app; right; left; reflexivity).
    cbn [app hinge_loop fst snd]. rewrite !same_self, ha, hb, (same_sym c h a), (same_sym c h b), ha, hb. cbn [orb app].
    rewrite rev_involutive. rewrite <- (app_nil_r (rev (chain (l1 ++ [a])))). rewrite hinge_skip.
    2:{ intros e he. apply in_rev in he. apply (chain_off c h (l1 ++ [a])); auto. intros n hn. apply h2. apply in_or_app. auto. }
    cbn [hinge_loop]. rewrite rev_involutive, !app_nil_r. rewrite rev_length, app_length.
    set (e1 := chain (l1 ++ [a])). set (e2 := chain (b :: l2)).
    replace (Z.to_nat (Z.of_nat (length e1 + length e2) - Z.of_nat (S (0 + length e2)) + 1)) with (length e1) by lia.
    rewrite take_left. cbn [rbind]. replace (l1 ++ a :: b :: l2) with ((l1 ++ [a]) ++ b :: l2) by (rewrite <- app_assoc; reflexivity). rewrite take_left. cbn [rbind]. rewrite <- app_length, take_right. cbn [rbind]. rewrite take_right. cbn [rbind].
    rnum. reflexivity.
  Qed.

  Lemma hinge_first b l2 : (forall n, In n (b :: l2) -> same_node c n h = false) ->
    add_semi_rigid_hinge c (h :: b :: l2) (chain (h :: b :: l2)) k x =
    match chain (b :: l2) with
    | [] => Err ErrIndex
    | e :: es => Ok (([], [e]), [mkHingePart (h, b) (Some (k / 2)) None], (b :: l2, es))
    end.
  Proof.
    intros h2. unfold add_semi_rigid_hinge. pose proof (find_at_spec c x [] h (b :: l2) 0 (fun n (f : In n []) => match f with end) hx) as ef. cbn [app length Nat.add] in ef. rewrite ef.
    pose proof (remove_mid [] h (b :: l2)) as er. cbn [length app] in er. rewrite er.
    change (chain (h :: b :: l2)) with ((h, b) :: chain (b :: l2)). cbn [rev]. rewrite hinge_skip.
    2:{ intros e he. apply in_rev in he. apply (chain_off c h (b :: l2)); auto. }
    assert (hb : same_node c b h = false) by (apply h2; left; reflexivity).
    cbn [hinge_loop fst snd app]. rewrite !same_self, (same_sym c h b), hb. cbn [orb app]. rewrite rev_involutive, !app_nil_r. rewrite rev_length.
    set (e2 := chain (b :: l2)). replace (Z.to_nat (Z.of_nat (length e2) - Z.of_nat (0 + length e2) + 1)) with 1%nat by lia.
    destruct e2 as [|e es]; [reflexivity|]. change (e :: es) with ([e] ++ es). change 1%nat with (length [e]). rewrite take_left. cbn [rbind].
    pose proof (take_left [] (b :: l2)) as t1. cbn [length app] in t1. rewrite t1. cbn [rbind]. rewrite take_right. cbn [rbind].
    pose proof (take_right [] (b :: l2)) as t2. cbn [length app] in t2. cbn [length]. rewrite t2. cbn [rbind]. rnum. reflexivity.
  Qed.

  Lemma hinge_last l1 a : (forall n, In n (l1 ++ [a]) -> ~ near (tx (c n)) x) -> (forall n, In n (l1 ++ [a]) -> same_node c n h = false) ->
    add_semi_rigid_hinge c ((l1 ++ [a]) ++ [h]) (chain ((l1 ++ [a]) ++ [h])) k x = Err ErrIndex.
  Proof.
    intros h1 h2. unfold add_semi_rigid_hinge. rewrite (find_at_spec c x _ h _ 0 h1 hx). cbn [Nat.add].
    rewrite chain_app. cbn [chain]. rewrite rev_app_distr. cbn [rev app].
    assert (ha : same_node c a h = false) by (apply h2; apply in_or_app; right; left; reflexivity).
    cbn [hinge_loop fst snd]. rewrite !same_self, ha, (same_sym c h a), ha. cbn [orb app].
    rewrite <- (app_nil_r (rev (chain (l1 ++ [a])))). rewrite hinge_skip.
    2:{ intros e he. apply in_rev in he. apply (chain_off c h (l1 ++ [a])); auto. }
    cbn [hinge_loop]. rewrite rev_involutive, !app_nil_r. set (e1 := chain (l1 ++ [a])).
    replace (Z.to_nat (Z.of_nat (length e1) - Z.of_nat 0 + 1)) with (S (length e1)) by lia.
    unfold take_range at 1. destruct (Nat.leb_spec (S (length e1)) (length e1)); [lia|]. cbn [Nat.leb orb rbind]. reflexivity.
  Qed.

  Lemma hinge_missing nodes els : (forall n, In n nodes -> ~ near (tx (c n)) x) -> add_semi_rigid_hinge c nodes els k x = Err ErrOther.
  Proof. intros h1. unfold add_semi_rigid_hinge. rewrite (find_at_none c x nodes 0 h1). reflexivity. Qed.
End Hinge.

(** ** boundary *)

Lemma lowest_spec (c : heap R) ns : forall best pre, (forall n, In n pre -> ty (c best) < ty (c n)) ->
  exists p q, pre ++ best :: ns = p ++ lowest c best ns :: q /\ (forall n, In n p -> ty (c (lowest c best ns)) < ty (c n)) /\
    (forall n, In n q -> ty (c (lowest c best ns)) <= ty (c n)).
Proof.
  induction ns as [|n ns IH]; intros best pre h; cbn [lowest].
  - exists pre, []. split; [reflexivity|]. split; [auto|contradiction].
  - destruct (nltbP (ty (c n)) (ty (c best))) as [e|e].
    + destruct (IH n (pre ++ [best])) as [p [q [h1 [h2 h3]]]].
      { intros m hm. apply in_app_iff in hm. destruct hm as [hm|[<-|[]]]; [specialize (h m hm)|]; lra. }
      exists p, q. rewrite <- h1, <- app_assoc. split; [reflexivity|]. split; auto.
    + assert (hgen : forall best pre post, (forall m, In m pre -> ty (c best) < ty (c m)) -> (forall m, In m post -> ty (c best) <= ty (c m)) ->
        exists p q, pre ++ best :: post ++ ns = p ++ lowest c best ns :: q /\ (forall n, In n p -> ty (c (lowest c best ns)) < ty (c n)) /\ (forall n, In n q -> ty (c (lowest c best ns)) <= ty (c n))).
      { clear. induction ns as [|n ns IH]; intros best pre post h1 h2; cbn [lowest].
        - exists pre, post. rewrite app_nil_r. auto.
        - destruct (nltbP (ty (c n)) (ty (c best))) as [e|e].
          + destruct (IH n (pre ++ best :: post) []) as [p [q [k1 [k2 k3]]]].
            * intros m hm. apply in_app_iff in hm. destruct hm as [hm|[<-|hm]]; [specialize (h1 m hm)| |specialize (h2 m hm)]; lra.
            * contradiction.
            * exists p, q. rewrite <- k1, <- app_assoc. auto.
          + destruct (IH best pre (post ++ [n]) h1) as [p [q [k1 [k2 k3]]]].
            * intros m hm. apply in_app_iff in hm. destruct hm as [hm|[<-|[]]]; [apply h2; auto|lra].
            * exists p, q. rewrite <- k1, <- !app_assoc. auto. }
      apply (hgen best pre [n] h). intros m [<-|[]]. lra.
Qed.

Lemma bottom_spec (c : heap R) els : (forall e, In e els -> e <> []) -> exists out, bottom_boundary c els = Ok out /\
  Forall2 (fun e b => exists p q, e = p ++ b :: q /\ (forall n, In n p -> ty (c b) < ty (c n)) /\ (forall n, In n q -> ty (c b) <= ty (c n))) els out.
Proof.
  induction els as [|e els IH]; intros h; [exists []; split; [reflexivity|constructor]|].
  destruct IH as [out [e1 e2]]; [intros; apply h; right; auto|]. destruct e as [|n ns]; [exfalso; exact (h [] (or_introl eq_refl) eq_refl)|].
  cbn [bottom_boundary]. rewrite e1. cbn [rbind]. exists (lowest c n ns :: out). split; [reflexivity|]. constructor; [|exact e2].
  destruct (lowest_spec c ns n []) as [p [q [k1 [k2 k3]]]]; [contradiction|]. exists p, q. auto.
Qed.
Lemma bottom_error (c : heap R) els : In [] els -> bottom_boundary c els = Err ErrIndex.
Proof.
  induction els as [|e els IH]; [contradiction|]. intros h. cbn [bottom_boundary]. destruct e as [|n ns]; [reflexivity|].
  destruct h as [h|h]; [discriminate|]. rewrite (IH h). reflexivity.
Qed.
