(** * Lemmas for the equations of a train *)

From Coq Require Import Reals List Bool ZArith Arith Lia Lra Permutation.
From Verif Require Import Num PyBase Model_Geometry Model_System Model_Element Model_Moving Model_Train Model_TrainMesh Model_TrainSystem
  Spec_System Spec_Train Spec_TrainMesh Spec_TrainSystem Proofs_Dof Proofs_System Proofs_Train Proofs_TrainMesh.
Import ListNotations.
Local Open Scope nat_scope.

(** ** lists without repetitions *)
Section Unique.
  Context {A : Type} (same : A -> A -> bool) (hsame : forall a b, same a b = true <-> a = b).

  Lemma seen_in x seen : existsb (same x) seen = true <-> In x seen.
  Proof. rewrite existsb_exists. split; [intros [y [hy e]]; apply hsame in e; subst; exact hy|]. intros hx. exists x. split; [exact hx|apply hsame; reflexivity]. Qed.
  Lemma unique_app l l' : forall seen, unique_by same seen (l ++ l') = unique_by same seen l ++ unique_by same (seen ++ unique_by same seen l) l'.
  Proof.
    induction l as [|x l IH]; intros seen; cbn [app unique_by]; [rewrite app_nil_r; reflexivity|]. destruct (existsb (same x) seen); [apply IH|]. cbn [app]. rewrite IH, <- app_assoc. reflexivity.
  Qed.
  Lemma unique_none l : forall seen, (forall x, In x l -> In x seen) -> unique_by same seen l = [].
  Proof. induction l as [|x l IH]; intros seen h; cbn [unique_by]; [reflexivity|]. rewrite (proj2 (seen_in x seen)) by (apply h; left; reflexivity). apply IH. intros y hy. apply h. right. exact hy. Qed.
  Lemma unique_every l : forall seen, NoDup l -> (forall x, In x l -> ~ In x seen) -> unique_by same seen l = l.
  Proof.
    induction l as [|x l IH]; intros seen hn h; cbn [unique_by]; [reflexivity|]. inversion hn as [|? ? h1 h2]; subst. destruct (existsb (same x) seen) eqn:e; [apply seen_in in e; exfalso; apply (h x); [left; reflexivity|exact e]|].
    f_equal. apply IH; [exact h2|]. intros y hy hin. apply in_app_or in hin as [hin|[<-|[]]]; [apply (h y); [right; exact hy|exact hin]|contradiction].
  Qed.
  Lemma unique_in l : forall seen x, In x (unique_by same seen l) <-> In x l /\ ~ In x seen.
  Proof.
    induction l as [|y l IH]; intros seen x; cbn [unique_by]; [cbn; tauto|]. destruct (existsb (same y) seen) eqn:e.
    - apply seen_in in e. rewrite IH. cbn [In]. split; [tauto|]. intros [[<-|h] h']; [contradiction|tauto].
    - assert (he : ~ In y seen) by (intros hi; apply seen_in in hi; congruence). cbn [In]. rewrite IH, in_app_iff. cbn [In]. split.
      + intros [<-|[h1 h2]]; [tauto|]. split; [tauto|]. intros h3. apply h2. tauto.
      + intros [[<-|h1] h2]; [tauto|]. destruct (same y x) eqn:e2; [left; apply hsame; exact e2|]. right. split; [exact h1|]. intros [h3|[->|[]]]; [contradiction|]. assert (same x x = true) by (apply hsame; reflexivity). congruence.
  Qed.
  Lemma unique_nodup l : forall seen, NoDup (unique_by same seen l).
  Proof.
    induction l as [|y l IH]; intros seen; cbn [unique_by]; [constructor|]. destruct (existsb (same y) seen); [apply IH|]. constructor; [|apply IH]. rewrite unique_in, in_app_iff. cbn. tauto.
  Qed.
End Unique.
Lemma nat_same a b : Nat.eqb a b = true <-> a = b. Proof. apply Nat.eqb_eq. Qed.
Lemma unique_map {A} (same : A -> A -> bool) (hsame : forall a b, same a b = true <-> a = b) (f : A -> nat) l : forall seen,
  (forall a b, In a (seen ++ l) -> In b (seen ++ l) -> f a = f b -> a = b) -> unique_by Nat.eqb (map f seen) (map f l) = map f (unique_by same seen l).
Proof.
  induction l as [|x l IH]; intros seen inj; cbn [map unique_by]; [reflexivity|].
  assert (e : existsb (Nat.eqb (f x)) (map f seen) = existsb (same x) seen).
  { destruct (existsb (same x) seen) eqn:e1.
    - apply (seen_in same hsame) in e1. apply (seen_in Nat.eqb nat_same). apply in_map. exact e1.
    - destruct (existsb (Nat.eqb (f x)) (map f seen)) eqn:e2; [|reflexivity]. apply (seen_in Nat.eqb nat_same) in e2. apply in_map_iff in e2 as [y [h1 h2]].
      assert (y = x) by (apply inj; [apply in_or_app; left; exact h2|apply in_or_app; right; left; reflexivity|exact h1]). subst y. apply (seen_in same hsame) in h2. congruence. }
  rewrite e. destruct (existsb (same x) seen).
  - apply IH. intros a b ha hb. apply inj; apply in_or_app; [apply in_app_or in ha as [ha|ha]|apply in_app_or in hb as [hb|hb]]; cbn; auto.
  - cbn [map]. f_equal. rewrite <- (IH (seen ++ [x])); [rewrite map_app; reflexivity|]. rewrite <- app_assoc. exact inj.
Qed.

(** ** the order of the mesh *)
Lemma reset_order h ps : forall st, NoDup (ts_mesh st) ->
  (forall a b, (In a (ts_mesh st) \/ In a (map (ts_node st) ps)) -> (In b (ts_mesh st) \/ In b (map (ts_node st) ps)) -> a <> b -> coords_equal (n_coord (ts_store st a)) (n_coord (ts_store st b)) = false) ->
  ts_mesh (fold_left (fun st p => add_part_node h p st) ps st) = ts_mesh st ++ unique_by Nat.eqb (ts_mesh st) (map (ts_node st) ps).
Proof.
  induction ps as [|p ps IH]; intros st hn hs; cbn [fold_left map unique_by]; [rewrite app_nil_r; reflexivity|].
  assert (e : add_part_node h p st = mkTstate (ts_store st) (ts_next st) (if in_dec Nat.eq_dec (ts_node st p) (ts_mesh st) then ts_mesh st else ts_mesh st ++ [ts_node st p]) (ts_node st)).
  { unfold add_part_node. rewrite add_apart; [reflexivity| |exact hn]. intros a b ha hb. apply hs; [apply in_app_or in ha as [ha|[<-|[]]]; [left; exact ha|right; left; reflexivity]|apply in_app_or in hb as [hb|[<-|[]]]; [left; exact hb|right; left; reflexivity]]. }
  rewrite e. destruct (in_dec Nat.eq_dec (ts_node st p) (ts_mesh st)) as [hi|hi].
  - rewrite (proj2 (seen_in Nat.eqb nat_same _ _) hi). rewrite IH; cbn [ts_mesh ts_node ts_store]; [reflexivity|exact hn|]. intros a b ha hb. apply hs; [destruct ha as [ha|ha]|destruct hb as [hb|hb]]; cbn; auto.
  - destruct (existsb (Nat.eqb (ts_node st p)) (ts_mesh st)) eqn:e2; [apply (seen_in Nat.eqb nat_same) in e2; contradiction|]. rewrite IH; cbn [ts_mesh ts_node ts_store].
    + rewrite <- app_assoc. reflexivity.
    + apply NoDup_rev in hn. rewrite <- (rev_involutive (ts_mesh st ++ [ts_node st p])). apply NoDup_rev. rewrite rev_app_distr. cbn [rev app]. constructor; [rewrite <- in_rev; exact hi|exact hn].
    + assert (g : forall a, In a (ts_mesh st ++ [ts_node st p]) \/ In a (map (ts_node st) ps) -> In a (ts_mesh st) \/ In a (map (ts_node st) (p :: ps))).
      { intros a [ha|ha]; [apply in_app_or in ha as [ha|[<-|[]]]; cbn; auto|cbn; auto]. }
      intros a b ha hb. apply hs; apply g; assumption.
Qed.

(** ** numbers in the order of the visits *)
Definition listed_numbers (cd : list (nat * nat)) (bd : list (nat * bdof)) (p : part) : list nat :=
  flat_map (fun o => match o with Some k => [k] | None => [] end) (tlist (part_numbers cd bd p)).
Definition bogie_visits (tn : train R) (b : nat) : list part := PBogie b :: map (PWheel b) (seq 0 (n_wheels tn b)).

Lemma dof_of_none b st : dof_of b st = None <-> ~ In b (map fst st).
Proof.
  induction st as [|[c d] st IH]; cbn [dof_of map fst In]; [tauto|]. destruct (Nat.eqb_spec b c) as [->|e]; [split; [discriminate|tauto]|]. rewrite IH. intuition congruence.
Qed.
Lemma number_bogies_app tn bs : forall bd i, map fst (fst (number_bogies (T := R) tn bd i bs)) = map fst bd ++ unique_by Nat.eqb (map fst bd) bs.
Proof.
  induction bs as [|b bs IH]; intros bd i; cbn [number_bogies unique_by]; [rewrite app_nil_r; reflexivity|]. unfold number_bogie.
  destruct (existsb (Nat.eqb b) (map fst bd)) eqn:e.
  - apply (seen_in Nat.eqb nat_same) in e. destruct (dof_of b bd) as [d|] eqn:e2; [apply IH|]. apply dof_of_none in e2. contradiction.
  - destruct (dof_of b bd) as [d|] eqn:e2.
    + assert (In b (map fst bd)) by (destruct (in_dec Nat.eq_dec b (map fst bd)); [assumption|]; apply dof_of_none in n; congruence). apply (seen_in Nat.eqb nat_same) in H. congruence.
    + rewrite number_wheels_seq. rewrite IH, map_app. cbn [map fst]. rewrite <- app_assoc. reflexivity.
Qed.
Lemma number_carts_app tn cs : forall bd i, map fst (snd (fst (number_carts (T := R) tn bd i cs))) = map fst bd ++ unique_by Nat.eqb (map fst bd) (flat_map (@ct_bogies R) cs).
Proof.
  induction cs as [|c cs IH]; intros bd i; cbn [number_carts flat_map unique_by]; [rewrite app_nil_r; reflexivity|].
  pose proof (number_bogies_app tn (ct_bogies c) bd (S (S i))) as g. destruct (number_bogies tn bd (S (S i)) (ct_bogies c)) as [bd' i']. cbn [fst] in g.
  specialize (IH bd' i'). destruct (number_carts tn bd' i' cs) as [[cd bd''] j]. cbn [fst snd] in *. rewrite IH, g, unique_app, <- app_assoc. reflexivity.
Qed.

Section Order.
  Variables (tn : train R) (cdF : list (nat * nat)) (bdF : list (nat * bdof)).
  Definition extends (bd : list (nat * bdof)) : Prop := forall b d, dof_of b bd = Some d -> dof_of b bdF = Some d.
  Definition covers (j : nat) (seen : list part) (bd : list (nat * bdof)) : Prop :=
    (forall i, In (PCart i) seen -> i < j) /\ (forall b, In (PBogie b) seen <-> In b (map fst bd)) /\ (forall b k, In (PWheel b k) seen <-> In b (map fst bd) /\ k < n_wheels tn b).

  Lemma bogie_visits_nodup b : NoDup (bogie_visits tn b).
  Proof.
    unfold bogie_visits. constructor; [intros h; apply in_map_iff in h as [k [e _]]; discriminate e|]. apply FinFun.Injective_map_NoDup; [intros k l e; injection e; auto|apply seq_NoDup].
  Qed.
  Lemma wheel_numbers b y r i n : dof_of b bdF = Some (mkBdof y r (seq i n)) -> forall m k, k + m = n -> flat_map (listed_numbers cdF bdF) (map (PWheel b) (seq k m)) = seq (i + k) m.
  Proof.
    intros h. induction m as [|m IH]; intros k e; [reflexivity|]. cbn [seq map flat_map]. rewrite IH by lia. unfold listed_numbers. cbn [part_numbers]. rewrite h. cbn [bd_wheels].
    rewrite (nth_error_nth' _ 0) by (rewrite seq_length; lia). rewrite seq_nth by lia. cbn [tlist tx ty tr flat_map app]. f_equal. f_equal. lia.
  Qed.
  Lemma order_bogie bd i b seen j : covers j seen bd -> let (bd', i') := number_bogie tn bd i b in
    extends bd' -> covers j (seen ++ unique_by part_eqb seen (bogie_visits tn b)) bd' /\ i <= i' /\
      flat_map (listed_numbers cdF bdF) (unique_by part_eqb seen (bogie_visits tn b)) = seq i (i' - i).
  Proof.
    intros [h1 [h2 h3]]. unfold number_bogie. destruct (dof_of b bd) as [d|] eqn:e.
    - intros _. assert (hin : In b (map fst bd)) by (destruct (in_dec Nat.eq_dec b (map fst bd)) as [z|z]; [exact z|apply dof_of_none in z; congruence]).
      rewrite (unique_none part_eqb part_eqb_spec).
      + rewrite app_nil_r, Nat.sub_diag. split; [split; [exact h1|split; assumption]|]. split; [lia|reflexivity].
      + intros p [<-|hp]; [apply h2; exact hin|]. apply in_map_iff in hp as [k [<- hk]]. apply in_seq in hk. apply h3. split; [exact hin|lia].
    - rewrite number_wheels_seq. fold (n_wheels tn b). intros hx. apply dof_of_none in e as hno.
      rewrite (unique_every part_eqb part_eqb_spec); [|apply bogie_visits_nodup|].
      + split; [|split; [lia|]].
        * split; [|split].
          -- intros q hq. apply in_app_or in hq as [hq|[hq|hq]]; [apply h1; exact hq|discriminate hq|apply in_map_iff in hq as [k [hq _]]; discriminate hq].
          -- intros c. rewrite in_app_iff, map_app, in_app_iff, h2. cbn [map fst In bogie_visits]. split; [intros [q|[q|q]]; [tauto|injection q as ->; tauto|apply in_map_iff in q as [k [q _]]; discriminate q]|]. intros [q|[->|[]]]; tauto.
          -- intros c k. rewrite in_app_iff, map_app, in_app_iff, h3. cbn [map fst In bogie_visits]. split.
             ++ intros [q|[q|q]]; [tauto|discriminate q|]. apply in_map_iff in q as [k' [q hk]]. injection q as -> ->. apply in_seq in hk. split; [tauto|lia].
             ++ intros [[q|[->|[]]] hk]; [tauto|]. right. right. apply in_map_iff. exists k. split; [reflexivity|]. apply in_seq. lia.
        * assert (hd : dof_of b bdF = Some (mkBdof i (S i) (seq (S (S i)) (n_wheels tn b)))) by (apply hx; rewrite (dof_of_app b bd b) by exact e; rewrite Nat.eqb_refl; reflexivity).
          unfold bogie_visits. cbn [flat_map]. rewrite (wheel_numbers b i (S i) (S (S i)) (n_wheels tn b) hd (n_wheels tn b) 0 eq_refl). unfold listed_numbers at 1. cbn [part_numbers]. rewrite hd. cbn [tlist tx ty tr flat_map app bd_y bd_r].
          replace (S (S i) + n_wheels tn b - i) with (S (S (n_wheels tn b))) by lia. cbn [seq]. rewrite Nat.add_0_r. reflexivity.
      + intros p hp hin. destruct hp as [<-|hp]; [apply h2 in hin; contradiction|]. apply in_map_iff in hp as [k [<- _]]. apply h3 in hin as [hin _]. contradiction.
  Qed.
  Lemma extends_bogies bs : forall bd i, extends (fst (number_bogies tn bd i bs)) -> extends bd.
  Proof.
    induction bs as [|b bs IH]; intros bd i; cbn [number_bogies]; [auto|]. unfold number_bogie. destruct (dof_of b bd) as [d|] eqn:e; [apply IH|]. rewrite number_wheels_seq. intros hx. apply IH in hx.
    intros c d hc. apply hx. rewrite dof_of_app by exact e. destruct (Nat.eqb_spec c b) as [->|_]; [congruence|exact hc].
  Qed.
  Lemma extends_carts cs : forall bd i, extends (snd (fst (number_carts tn bd i cs))) -> extends bd.
  Proof.
    induction cs as [|c cs IH]; intros bd i; cbn [number_carts]; [auto|]. pose proof (extends_bogies (ct_bogies c) bd (S (S i))) as g. destruct (number_bogies tn bd (S (S i)) (ct_bogies c)) as [bd' i']. cbn [fst] in g.
    specialize (IH bd' i'). destruct (number_carts tn bd' i' cs) as [[cd bd''] k]. cbn [fst snd] in *. auto.
  Qed.
  Lemma order_bogies bs : forall bd i seen j, covers j seen bd -> let (bd', i') := number_bogies tn bd i bs in
    extends bd' -> covers j (seen ++ unique_by part_eqb seen (flat_map (bogie_visits tn) bs)) bd' /\ i <= i' /\
      flat_map (listed_numbers cdF bdF) (unique_by part_eqb seen (flat_map (bogie_visits tn) bs)) = seq i (i' - i).
  Proof.
    induction bs as [|b bs IH]; intros bd i seen j hc; cbn [number_bogies flat_map].
    - intros _. cbn [unique_by]. rewrite app_nil_r, Nat.sub_diag. split; [exact hc|]. split; [lia|reflexivity].
    - pose proof (order_bogie bd i b seen j hc) as g. destruct (number_bogie tn bd i b) as [bd1 i1]. pose proof (extends_bogies bs bd1 i1) as gx. specialize (IH bd1 i1).
      destruct (number_bogies tn bd1 i1 bs) as [bd2 i2]. cbn [fst] in gx. intros hx. destruct (g (gx hx)) as [g1 [g2 g3]]. destruct (IH _ j g1 hx) as [k1 [k2 k3]].
      rewrite (unique_app part_eqb). rewrite app_assoc. split; [exact k1|]. split; [lia|]. rewrite flat_map_app, g3, k3. replace i1 with (i + (i1 - i)) at 2 by lia. rewrite <- seq_app. f_equal. lia.
  Qed.
  Lemma order_carts cs : forall bd i seen j, covers j seen bd -> let '(cd, bd', i') := number_carts tn bd i cs in
    extends bd' -> (forall q c, nth_error cd q = Some c -> nth_error cdF (j + q) = Some c) -> i <= i' /\
      flat_map (listed_numbers cdF bdF) (unique_by part_eqb seen (flat_map (fun ic => PCart (fst ic) :: flat_map (bogie_visits tn) (ct_bogies (snd ic))) (combine (seq j (length cs)) cs))) = seq i (i' - i).
  Proof.
    induction cs as [|c cs IH]; intros bd i seen j hc; cbn [number_carts].
    - intros _ _. split; [lia|]. rewrite Nat.sub_diag. reflexivity.
    - assert (hnew : ~ In (PCart j) seen) by (intros hi; apply (proj1 hc) in hi; lia).
      assert (hc1 : covers (S j) (seen ++ [PCart j]) bd).
      { destruct hc as [q1 [q2 q3]]. split; [|split].
        - intros k hk. apply in_app_or in hk as [hk|[hk|[]]]; [apply q1 in hk; lia|injection hk as ->; lia].
        - intros b. rewrite in_app_iff, q2. cbn. intuition discriminate.
        - intros b k. rewrite in_app_iff, q3. cbn. intuition discriminate. }
      pose proof (order_bogies (ct_bogies c) bd (S (S i)) _ _ hc1) as g. destruct (number_bogies tn bd (S (S i)) (ct_bogies c)) as [bd1 i1].
      pose proof (extends_carts cs bd1 i1) as gx. specialize (IH bd1 i1). destruct (number_carts tn bd1 i1 cs) as [[cd bd2] i2]. cbn [fst snd] in gx. intros hx hcd.
      destruct (g (gx hx)) as [g1 [g2 g3]]. destruct (IH _ (S j) g1 hx) as [k1 k2]; [intros q z hz; replace (S j + q) with (j + S q) by lia; apply hcd; exact hz|].
      cbn [length seq combine flat_map fst snd app unique_by]. destruct (existsb (part_eqb (PCart j)) seen) eqn:e; [apply (seen_in part_eqb part_eqb_spec) in e; contradiction|].
      split; [lia|]. rewrite (unique_app part_eqb). cbn [flat_map app]. rewrite flat_map_app, g3, k2. unfold listed_numbers at 1. cbn [part_numbers]. specialize (hcd 0 (i, S i) eq_refl). rewrite Nat.add_0_r in hcd. rewrite hcd. cbn [tlist tx ty tr flat_map app].
      replace i1 with (S (S i) + (i1 - S (S i))) at 2 by lia. rewrite <- seq_app. replace (i2 - i) with (S (S (i1 - S (S i) + (i2 - i1)))) by lia. reflexivity.
  Qed.
End Order.

Lemma order_numbers (tn : train R) cd bd m : initialise_train_ndof tn = (cd, bd, m) -> flat_map (listed_numbers cd bd) (unique_by part_eqb [] (visits tn)) = seq 0 m.
Proof.
  intros h. pose proof (order_carts tn cd bd (tn_carts tn) [] 0 [] 0) as g. change (number_carts tn [] 0 (tn_carts tn)) with (initialise_train_ndof tn) in g. rewrite h in g.
  destruct g as [_ g].
  - split; [intros i []|]. split; [intros b; cbn; tauto|intros b k; cbn; tauto].
  - intros b d e. exact e.
  - intros q c e. exact e.
  - rewrite Nat.sub_0_r in g. exact g.
Qed.
Lemma order_bogie_list (tn : train R) cd bd m : initialise_train_ndof tn = (cd, bd, m) -> map fst bd = unique_by Nat.eqb [] (flat_map (@ct_bogies R) (tn_carts tn)).
Proof. intros h. pose proof (number_carts_app tn (tn_carts tn) [] 0) as g. change (number_carts tn [] 0 (tn_carts tn)) with (initialise_train_ndof tn) in g. rewrite h in g. exact g. Qed.

(** ** removal of rows when the matrices have empty rows behind those of the nodes *)
Definition filler (k : nat) : node R := mkNode 0 None (T3 (Some k) None None) (T3 0%R 0%R 0%R) (T3 true true true) [].

Lemma recalc_app removed (a b : list (node R)) : forall j, recalc_from removed j (a ++ b) =
  let (j1, a') := recalc_from removed j a in let (j2, b') := recalc_from removed j1 b in (j2, a' ++ b').
Proof.
  induction a as [|n a IH]; intros j; cbn [app recalc_from]; [destruct (recalc_from removed j b); reflexivity|]. destruct (recalc_node removed j n) as [j1 n']. rewrite IH.
  destruct (recalc_from removed j1 a) as [j2 a']. destruct (recalc_from removed j2 b) as [j3 b']. reflexivity.
Qed.
Lemma recalc_length removed (a : list (node R)) : forall j, length (snd (recalc_from removed j a)) = length a.
Proof. induction a as [|n a IH]; intros j; cbn [recalc_from]; [reflexivity|]. destruct (recalc_node removed j n) as [j1 n']. specialize (IH j1). destruct (recalc_from removed j1 a). cbn [snd length] in *. lia. Qed.
Lemma recalc_filler removed ks : forall j, (forall k, In k ks -> In k removed) -> fst (recalc_from removed j (map filler ks)) = j.
Proof.
  induction ks as [|k ks IH]; intros j h; cbn [map recalc_from]; [reflexivity|]. unfold recalc_node, filler at 1. cbn [n_dof recalc_dir]. rewrite (proj2 (memb_In k removed) (h k (or_introl eq_refl))).
  specialize (IH j ltac:(intros z hz; apply h; right; exact hz)). destruct (recalc_from removed j (map filler ks)). exact IH.
Qed.
Lemma filler_numbers ks : all_numbers (map filler ks) = ks.
Proof. induction ks as [|k ks IH]; [reflexivity|]. unfold all_numbers in *. cbn [map flat_map]. rewrite IH. reflexivity. Qed.
Lemma filler_obsolete (s : gsys R) ns ks : obsolete_indices s (ns ++ map filler ks) = obsolete_indices s ns.
Proof.
  unfold obsolete_indices, constrained_indices. rewrite rev_app_distr, flat_map_app. replace (flat_map (@constrained_of R) (rev (map filler ks))) with (@nil nat); [reflexivity|].
  rewrite <- map_rev. induction (rev ks) as [|k l IH]; [reflexivity|exact IH].
Qed.
Lemma nth_front {A} (a b : list A) p : p < length a -> nth_error (a ++ b) p = nth_error a p. Proof. intros h. apply nth_error_app1. exact h. Qed.
Lemma number_front (a b : list (node R)) p d : p < length a -> number_of (a ++ b) p d = number_of a p d.
Proof. intros h. unfold number_of. rewrite nth_front by exact h. reflexivity. Qed.
Lemma active_front (a b : list (node R)) p d : p < length a -> active (a ++ b) p d = active a p d.
Proof. intros h. unfold active. rewrite nth_front by exact h. reflexivity. Qed.
Lemma number_some_lt (a : list (node R)) p d k : number_of a p d = Some k -> p < length a.
Proof. unfold number_of. destruct (nth_error a p) eqn:e; [|discriminate]. intros _. apply nth_error_Some. congruence. Qed.

Lemma trim_extra (s : gsys R) (ns : list (node R)) (m N : nat) :
  square N s -> numbered ns m -> m <= N -> (forall k, m <= k < N -> me (gM s) k k = 0%R) ->
  exists s' ns' n', trim_all s ns = Ok (s', ns', n') /\ square n' s' /\ numbered ns' n' /\ length ns' = length ns /\
    (forall p d k, number_of ns p d = Some k -> (number_of ns' p d <> None <-> active ns p d = true /\ noticed (me (gM s) k k) /\ noticed (me (gK s) k k))) /\
    (forall p d, number_of ns p d = None -> number_of ns' p d = None) /\
    (forall p d, active ns' p d = true <-> number_of ns' p d <> None) /\
    (forall p d q e k l k' l', number_of ns p d = Some k -> number_of ns' p d = Some k' -> number_of ns q e = Some l -> number_of ns' q e = Some l' ->
       nth_error (gF s') k' = nth_error (gF s) k /\ me (gK s') k' l' = me (gK s) k l /\ me (gM s') k' l' = me (gM s) k l /\ me (gC s') k' l' = me (gC s) k l) /\
    Forall2 same_identity ns ns'.
Proof.
  intros hsq hnum hmN hz. set (ks := seq m (N - m)). set (ext := ns ++ map filler ks).
  assert (hne : numbered ext N). { unfold numbered, ext, all_numbers. rewrite flat_map_app. change (all_numbers ns ++ all_numbers (map filler ks) = seq 0 N). rewrite hnum, filler_numbers. unfold ks. replace m with (0 + m) at 2 by lia. rewrite <- seq_app. f_equal. lia. }
  destruct (trim_all_spec s ext N hsq hne) as [s' [ns2 [n' [t1 [t2 [t3 [t4 [t5 [t6 t7]]]]]]]]].
  assert (hobs : forall k, In k ks -> In k (obsolete_indices s ns)).
  { intros k hk. apply in_seq in hk as hk'. rewrite <- (filler_obsolete s ns ks). fold ext. assert (e : number_of ext (length ns + (k - m)) DX = Some k).
    { unfold number_of, ext. rewrite nth_error_app2 by lia. replace (length ns + (k - m) - length ns) with (k - m) by lia. rewrite (map_nth_error filler (k - m) ks (d := k)); [reflexivity|]. unfold ks. rewrite (nth_error_nth' _ 0) by (rewrite seq_length; lia). rewrite seq_nth by lia. f_equal. lia. }
    apply (obsolete_In s ext N _ _ k hsq hne e). right. left. rewrite hz by lia. rewrite Rabs_R0. lra. }
  unfold trim_all in t1. unfold ext in t1. rewrite filler_obsolete in t1. unfold trim_all. destruct (trim_on_indices s (obsolete_indices s ns) (obsolete_indices s ns)) as [s0|er]; [|discriminate t1]. cbn [rbind] in *.
  unfold recalculate_dof in *. rewrite recalc_app in t1. pose proof (recalc_length (obsolete_indices s ns) ns 0) as hl. pose proof (recalc_from_spec (obsolete_indices s ns) 0 ns) as hid. destruct (recalc_from (obsolete_indices s ns) 0 ns) as [j ns']. cbn [snd] in hl.
  pose proof (recalc_filler (obsolete_indices s ns) ks j hobs) as hf. destruct (recalc_from (obsolete_indices s ns) j (map filler ks)) as [j2 fs]. cbn [fst] in hf. subst j2. injection t1 as <- <- <-.
  exists s0, ns', j. split; [reflexivity|]. split; [exact t2|].
  assert (fr : forall p d, p < length ns -> number_of (ns' ++ fs) p d = number_of ns' p d) by (intros p d hp; apply number_front; lia).
  assert (fr0 : forall p d, p < length ns -> number_of ext p d = number_of ns p d) by (intros p d hp; apply number_front; exact hp).
  assert (out : forall p d, length ns <= p -> number_of ns' p d = None) by (intros p d hp; unfold number_of; rewrite (proj2 (nth_error_None ns' p)) by lia; reflexivity).
  split; [|split; [exact hl|split; [|split; [|split; [|split]]]]].
  - assert (hfs : all_numbers fs = []).
    { apply incl_l_nil. intros k hk. exfalso. unfold all_numbers in hk. apply in_flat_map in hk as [n [hn hk]]. apply In_nth_error in hn as [q hq]. apply in_flat_map in hk as [o [ho hk]]. destruct o as [k'|]; [|destruct hk]. destruct hk as [->|[]].
      assert (hd : exists d, tget (n_dof n) d = Some k) by (destruct (n_dof n) as [a b c]; cbn in ho; destruct ho as [ho|[ho|[ho|[]]]]; [exists DX|exists DY|exists DR]; exact ho). destruct hd as [d hd].
      assert (e1 : number_of (ns' ++ fs) (length ns + q) d = Some k) by (unfold number_of; rewrite nth_error_app2 by lia; replace (length ns + q - length ns') with q by lia; rewrite hq; exact hd).
      destruct (number_of ext (length ns + q) d) as [k0|] eqn:e0; [|apply t5 in e0; congruence].
      assert (hk0 : In k0 ks). { unfold number_of, ext in e0. rewrite nth_error_app2 in e0 by lia. replace (length ns + q - length ns) with q in e0 by lia. destruct (nth_error (map filler ks) q) as [z|] eqn:ez; [|discriminate e0]. apply nth_error_In in ez. apply in_map_iff in ez as [k1 [<- hk1]]. destruct d; cbn in e0; try discriminate e0. injection e0 as <-. exact hk1. }
      apply in_seq in hk0. destruct (proj1 (t4 _ _ _ e0)) as [_ [hb _]]; [congruence|]. rewrite hz in hb by lia. rewrite Rabs_R0 in hb. lra. }
    unfold numbered, all_numbers in *. rewrite flat_map_app in t3. rewrite hfs, app_nil_r in t3. exact t3.
  - intros p d k hk. pose proof (number_some_lt _ _ _ _ hk) as hp. rewrite <- fr by exact hp. rewrite <- (active_front ns (map filler ks)) by exact hp. fold ext. apply t4. rewrite fr0 by exact hp. exact hk.
  - intros p d hk. destruct (Nat.lt_ge_cases p (length ns)) as [hp|hp]; [|apply out; exact hp]. rewrite <- fr by exact hp. apply t5. rewrite fr0 by exact hp. exact hk.
  - intros p d. destruct (Nat.lt_ge_cases p (length ns)) as [hp|hp].
    + rewrite <- fr by exact hp. rewrite <- (active_front ns' fs) by lia. apply t6.
    + rewrite out by exact hp. unfold active. rewrite (proj2 (nth_error_None ns' p)) by lia. split; [discriminate|congruence].
  - intros p d q e k l k' l' h1 h2 h3 h4. pose proof (number_some_lt _ _ _ _ h1) as hp. pose proof (number_some_lt _ _ _ _ h3) as hq. apply (t7 p d q e); [rewrite fr0 by exact hp|rewrite fr by exact hp|rewrite fr0 by exact hq|rewrite fr by exact hq]; assumption.
  - destruct hid as [_ [_ hid]]. clear -hid. induction hid as [|a b l l' [h _] hl IH]; constructor; assumption.
Qed.

(** ** flags of the nodes *)
Definition free (n : node R) : Prop := n_flag n = T3 true true true.
Lemma insert_free h (sm : store R * list nat) n id : free (fst sm id) -> free (fst (insert_key h sm n) id).
Proof.
  destruct sm as [s m]. unfold insert_key. cbn [fst snd]. intros hf. destruct (find_key h s m n) as [s'|] eqn:e; [|exact hf]. cbn [fst].
  destruct (find_key_cases _ _ _ _ _ e) as [[-> _]|[k [_ [_ [_ ->]]]]]; [exact hf|]. destruct (Nat.eq_dec id k) as [->|d]; [|rewrite upd_other by exact d; exact hf]. rewrite upd_same.
  unfold node_eq. destruct (coords_equal _ _); [|exact hf]. unfold free in *. cbn [snd n_flag]. rewrite hf. destruct (n_flag (s n)); reflexivity.
Qed.
Lemma fold_free h l : forall (sm : store R * list nat) id, free (fst sm id) -> free (fst (fold_left (insert_key h) l sm) id).
Proof. induction l as [|n l IH]; intros sm id hf; [exact hf|]. cbn [fold_left]. apply IH, insert_free, hf. Qed.
Lemma set_mesh_free h tn x st p : is_part tn p -> free (ts_store (set_mesh h tn x st) (ts_node (set_mesh h tn x st) p)).
Proof.
  intros hp. apply visits_spec in hp. rewrite set_mesh_visits. revert p hp. assert (g : forall ps seen st0, (forall p, In p seen -> free (ts_store st0 (ts_node st0 p))) ->
    forall p, In p (seen ++ ps) -> let st := fold_left (fun st p => new_part_node h p (x p) (level p) st) ps st0 in free (ts_store st (ts_node st p))).
  { induction ps as [|q ps IH]; intros seen st0 hs p hp; cbn [fold_left]; [apply hs; rewrite app_nil_r in hp; exact hp|].
    apply (IH (seen ++ [q])); [|rewrite <- app_assoc; exact hp]. intros r hr. unfold new_part_node. destruct (add_nodes h _ (ts_mesh st0) [ts_next st0]) as [s' m'] eqn:e. cbn [ts_store ts_node]. unfold add_nodes in e.
    replace s' with (fst (s', m')) by reflexivity. rewrite <- e. apply fold_free. cbn [fst].
    destruct (part_eqb r q) eqn:er; [rewrite upd_same; reflexivity|]. assert (hrs : In r seen). { apply in_app_or in hr as [hr|[->|[]]]; [exact hr|]. assert (part_eqb r r = true) by (apply part_eqb_spec; reflexivity). congruence. }
    unfold upd. destruct (Nat.eqb (ts_node st0 r) (ts_next st0)); [reflexivity|apply hs; exact hrs]. }
  intros p hp. apply (g (visits tn) []); [intros q []|exact hp].
Qed.
Lemma number_node_free (s : store R) id d i z : n_flag (number_node s id d i z) = n_flag (s z).
Proof. unfold number_node, upd. destruct (Nat.eqb_spec z id) as [->|e]; reflexivity. Qed.
Lemma wheels_free nd b l : forall (si : store R * nat) z, n_flag (fst (fold_left (wheel_number nd b) l si) z) = n_flag (fst si z).
Proof. induction l as [|k l IH]; intros [s i] z; [reflexivity|]. cbn [fold_left]. rewrite IH. cbn [wheel_number fst]. apply number_node_free. Qed.
Lemma bogie_free tn nd (si : store R * nat) b z : n_flag (fst (bogie_number tn nd si b) z) = n_flag (fst si z).
Proof. destruct si as [s i]. unfold bogie_number. destruct (n_dof (s (nd (PBogie b)))) as [[|] [|] [|]]; cbn [fst]; try reflexivity. rewrite wheels_free. cbn [fst]. rewrite !number_node_free. reflexivity. Qed.
Lemma bogies_free tn nd l : forall (si : store R * nat) z, n_flag (fst (fold_left (bogie_number tn nd) l si) z) = n_flag (fst si z).
Proof. induction l as [|k l IH]; intros si z; [reflexivity|]. cbn [fold_left]. rewrite IH. apply bogie_free. Qed.
Lemma carts_free tn nd l : forall (si : store R * nat) z, n_flag (fst (fold_left (cart_number tn nd) l si) z) = n_flag (fst si z).
Proof. induction l as [|k l IH]; intros [s i] z; [reflexivity|]. cbn [fold_left]. rewrite IH. unfold cart_number. rewrite bogies_free. cbn [fst]. rewrite !number_node_free. reflexivity. Qed.

(** ** writing the nodes back *)
Lemma write_back_other (mesh : list nat) : forall (s : store R) ns z, ~ In z mesh -> write_back s mesh ns z = s z.
Proof.
  unfold write_back. induction mesh as [|id mesh IH]; intros s ns z hz; [reflexivity|]. destruct ns as [|n ns]; [reflexivity|]. cbn [combine fold_left fst snd]. rewrite IH by (intros q; apply hz; right; exact q). apply upd_other. intros ->. apply hz. left. reflexivity.
Qed.
Lemma write_back_nth (mesh : list nat) : forall (s : store R) ns q id n, NoDup mesh -> nth_error mesh q = Some id -> nth_error ns q = Some n -> write_back s mesh ns id = n.
Proof.
  induction mesh as [|i mesh IH]; intros s ns q id n hn h1 h2; [destruct q; discriminate h1|]. inversion hn as [|? ? hi hn']; subst. destruct ns as [|n0 ns]; [destruct q; discriminate h2|].
  unfold write_back. cbn [combine fold_left fst snd]. fold (write_back (upd s i n0) mesh ns). destruct q as [|q].
  - injection h1 as ->. injection h2 as ->. rewrite write_back_other by exact hi. apply upd_same.
  - apply (IH _ _ q); assumption.
Qed.

(** ** numbers read from the nodes *)
Lemma read_carts_eq (tn : train R) cd bd m st : initialise_train_ndof tn = (cd, bd, m) ->
  (forall p, is_part tn p -> n_dof (ts_store st (ts_node st p)) = part_numbers cd bd p) -> read_carts tn st = cd.
Proof.
  intros h hp. destruct (ndof_spec tn cd bd m h) as [hc _]. unfold read_carts. rewrite <- hc. apply (nth_ext _ _ (0, 0) (0, 0)); [rewrite map_length, seq_length; reflexivity|]. rewrite map_length, seq_length. intros i hi.
  erewrite (nth_indep (map _ _)) by (rewrite map_length, seq_length; exact hi). rewrite (map_nth (fun i => (number_at st (PCart i) DY, number_at st (PCart i) DR)) _ 0). rewrite seq_nth by exact hi. cbn [Nat.add].
  unfold number_at. rewrite (hp (PCart i)) by (cbn; lia). cbn [part_numbers]. rewrite (nth_error_nth' cd (0, 0) hi). destruct (nth i cd (0, 0)) as [y r]. reflexivity.
Qed.
Lemma read_bogies_eq (tn : train R) cd bd m st : initialise_train_ndof tn = (cd, bd, m) ->
  (forall p, is_part tn p -> n_dof (ts_store st (ts_node st p)) = part_numbers cd bd p) -> read_bogies tn st = bd.
Proof.
  intros h hp. destruct (ndof_spec tn cd bd m h) as [_ [[hn hb] [hw _]]]. unfold read_bogies. rewrite <- (order_bogie_list tn cd bd m h), map_map. transitivity (map (fun e => e) bd); [|apply map_id]. apply map_ext_in. intros [b d] hin. cbn [fst].
  assert (hb' : is_part tn (PBogie b)) by (apply hb; apply (in_map fst) in hin; exact hin). assert (e : dof_of b bd = Some d) by (apply dof_of_In; assumption).
  unfold number_at at 1 2. rewrite (hp _ hb'). cbn [part_numbers]. rewrite e. cbn [tget ty tr]. f_equal. specialize (hw b d hin). unfold n_wheels in hw. destruct d as [y r ws]. cbn [bd_y bd_r bd_wheels] in *. f_equal.
  apply (nth_ext _ _ 0 0); [rewrite map_length, seq_length; symmetry; exact hw|]. rewrite map_length, seq_length. intros k hk.
  erewrite (nth_indep (map _ _)) by (rewrite map_length, seq_length; exact hk). rewrite (map_nth (fun k => number_at st (PWheel b k) DY) _ 0). rewrite seq_nth by exact hk. cbn [Nat.add].
  unfold number_at. rewrite (hp (PWheel b k)) by (split; assumption). cbn [part_numbers]. rewrite e. cbn [tget ty bd_wheels]. rewrite (nth_error_nth' _ 0) by lia. reflexivity.
Qed.
