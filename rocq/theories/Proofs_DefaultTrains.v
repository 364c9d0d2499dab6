(** * Proofs about generated trains *)

From Coq Require Import Reals List Bool ZArith Arith Lia Lra Psatz.
From Verif Require Import Num PyBase Model_Geometry Model_System Model_Element Model_Moving Model_Train Model_DefaultTrains
  Spec_Geometry Spec_Train Spec_DefaultTrains Proofs_Geometry Proofs_System Proofs_Train Proofs_TrainMat Proofs_TrainLoad Props_Train.
Import ListNotations.
Local Open Scope R_scope.

Definition tol : R := 1 / 1000000000.

(** bogies and wheels lie within the vehicle, apart from each other *)
Definition sane (v : vehicle R) : Prop :=
  tol < vh_wheel v /\ vh_wheel v + tol < vh_bogie v /\ vh_bogie v + vh_wheel v + tol < vh_length v / 2 /\ vh_blength v = 2 * vh_wheel v /\
  0 < vh_k v /\ 0 < vh_c v /\ 0 < vh_bk v /\ 0 < vh_bc v.

Ltac sane_tac := unfold sane, tol; cbn [vh_length vh_bogie vh_mass vh_inertia vh_k vh_c vh_wheel vh_bmass vh_binertia vh_bk vh_bc vh_blength vh_wmass]; rewrite ?ndec_R; rnum; cbn; lra.

Lemma sane_all : Forall sane [traxx; br189; double_dekker; sprinter_sgm; icm; cargo_SGNS; cargo_FALNS5; cargo_TAPPS].
Proof.
  repeat constructor; unfold traxx, br189, double_dekker, sprinter_sgm, icm, cargo_SGNS, cargo_FALNS5, cargo_TAPPS;
    sane_tac.
Qed.

Lemma train_cases ty (start : R) nb g : set_train ty start nb = Ok g ->
  (ty = SPRINTER_SLT /\ slt_train start nb = Ok g) \/ (ty <> SPRINTER_SLT /\ exists v, sane v /\ g = vehicle_train v start nb).
Proof.
  pose proof sane_all as hs. repeat (match goal with h : Forall _ (_ :: _) |- _ => inversion h; subst; clear h end).
  destruct ty; cbn [set_train]; intros h; try (left; split; [reflexivity|exact h]; fail); right; (split; [discriminate|]);
    inversion h; subst; eexists; (split; [|reflexivity]); assumption.
Qed.

(** ** positions *)

Lemma behind_length (start len : R) nb : length (behind start len nb) = nb.
Proof. unfold behind. rewrite map_length, seq_length. reflexivity. Qed.
Lemma behind_nth (start len : R) nb i : (i < nb)%nat -> nth i (behind start len nb) 0 = start - INR i * len.
Proof.
  intros h. unfold behind. erewrite nth_indep by (rewrite map_length, seq_length; exact h).
  rewrite (map_nth (fun i => nsub start (nmul (nofnat i) len)) (seq 0 nb) 0%nat). rewrite seq_nth by auto. cbn [Nat.add]. rewrite nofnat_R. reflexivity.
Qed.
Lemma nth_repeat0 (x : R) n i : (i < n)%nat -> nth i (repeat x n) 0 = x.
Proof. revert i. induction n as [|n IH]; intros [|i] h; cbn; try lia; auto. apply IH. lia. Qed.

Lemma behind_clear (start len : R) nb i j : 0 <= len -> (i < nb)%nat -> (j < nb)%nat -> i <> j ->
  len <= Rabs (nth i (behind start len nb) 0 - nth j (behind start len nb) 0).
Proof.
  intros hl hi hj hne. rewrite !behind_nth by auto. replace (start - INR i * len - (start - INR j * len)) with ((INR j - INR i) * len) by ring.
  rewrite Rabs_mult, (Rabs_right len) by lra. assert (1 <= Rabs (INR j - INR i)); [|nra].
  destruct (Nat.lt_ge_cases i j) as [c|c].
  - assert (INR i + 1 <= INR j) by (rewrite <- S_INR; apply le_INR; lia). rewrite Rabs_right; lra.
  - assert (INR j + 1 <= INR i) by (rewrite <- S_INR; apply le_INR; lia). rewrite Rabs_left; lra.
Qed.

Lemma behind_no_overlap (start len : R) nb : 0 <= len -> no_overlap (behind start len nb) (repeat len nb).
Proof.
  intros hl. split; [rewrite repeat_length, behind_length; reflexivity|]. rewrite behind_length. intros i j hi hj hne.
  rewrite !nth_repeat0 by auto. replace ((len + len) / 2) with len by field. apply behind_clear; auto.
Qed.

(** ** places of the bogies *)

Definition writes (g : generated R) : list (nat * R) :=
  flat_map (fun cp => map (fun bd => (fst bd, snd cp + snd bd)) (combine (ct_bogies (fst cp)) (ct_bogie_distances (fst cp))))
    (combine (tn_carts (gn_train g)) (gn_positions g)).

Lemma places_fold g none : bogie_places g none = fold_left (fun x w b => if Nat.eqb b (fst w) then snd w else x b) (writes g) none.
Proof.
  unfold bogie_places, writes. revert none. induction (combine (tn_carts (gn_train g)) (gn_positions g)) as [|cp l IH]; intros none; [reflexivity|].
  cbn [fold_left flat_map]. rewrite fold_left_app, IH. f_equal. generalize (combine (ct_bogies (fst cp)) (ct_bogie_distances (fst cp))). clear. intros l. revert none.
  induction l as [|bd l IH]; intros none; [reflexivity|]. cbn [fold_left map]. rewrite IH. reflexivity.
Qed.

Lemma last_write (ws : list (nat * R)) none b x : In (b, x) ws -> (forall y, In (b, y) ws -> y = x) ->
  fold_left (fun x w b => if Nat.eqb b (fst w) then snd w else x b) ws none b = x.
Proof.
  assert (hd : forall ws none, (forall y, In (b, y) ws -> y = x) -> none b = x -> fold_left (fun (x : nat -> R) w b => if Nat.eqb b (fst w) then snd w else x b) ws none b = x).
  { clear. induction ws as [|[c y] ws IH]; intros none h1 h2; [exact h2|]. cbn [fold_left]. apply IH; [intros; apply h1; right; auto|]. cbn [fst snd].
    destruct (Nat.eqb_spec b c) as [->|ne]; [apply h1; left; reflexivity|exact h2]. }
  revert none. induction ws as [|[c y] ws IH]; intros none h1 h2; [contradiction|]. cbn [fold_left].
  destruct h1 as [h1|h1].
  - inversion h1; subst. apply hd; [intros; apply h2; right; auto|]. cbn [fst snd]. rewrite Nat.eqb_refl. reflexivity.
  - apply IH; auto. intros z hz. apply h2. right. auto.
Qed.

Lemma combine_nth_in {A B} (a : list A) (b : list B) p : In p (combine a b) <-> exists i, nth_error a i = Some (fst p) /\ nth_error b i = Some (snd p).
Proof.
  revert b. induction a as [|x a IH]; intros b; cbn [combine].
  - split; [contradiction|]. intros [i [h _]]. destruct i; discriminate.
  - destruct b as [|y b]; [split; [contradiction|]; intros [i [_ h]]; destruct i; discriminate|]. cbn [In]. rewrite IH. split.
    + intros [<-|[i h]]; [exists 0%nat; auto|exists (S i); auto].
    + intros [[|i] [h1 h2]]; [left; cbn in *; destruct p; cbn in *; congruence|right; exists i; auto].
Qed.

Lemma writes_seen g b x : length (gn_positions g) = length (tn_carts (gn_train g)) ->
  (forall c, In c (tn_carts (gn_train g)) -> length (ct_bogie_distances c) = length (ct_bogies c)) ->
  In (b, x) (writes g) <-> seen_at g b x.
Proof.
  intros hl hd. unfold writes, seen_at. rewrite in_flat_map. split.
  - intros [cp [h1 h2]]. apply in_map_iff in h2. destruct h2 as [bd [e h2]]. apply combine_nth_in in h1, h2. destruct h1 as [q [a1 a2]]. destruct h2 as [i [b1 b2]].
    inversion e; subst. exists q, (fst cp), i. split; [exact a1|]. split; [exact b1|].
    rewrite (nth_error_nth _ _ _ a2), (nth_error_nth _ _ _ b2). reflexivity.
  - intros [q [c [i [h1 [h2 ->]]]]]. assert (hq : (q < length (gn_positions g))%nat) by (rewrite hl; apply nth_error_Some; congruence).
    assert (hi : (i < length (ct_bogie_distances c))%nat) by (rewrite (hd c (nth_error_In _ _ h1)); apply nth_error_Some; congruence).
    exists (c, nth q (gn_positions g) 0). split; [apply combine_nth_in; exists q; split; [exact h1|apply nth_error_nth'; exact hq]|].
    apply in_map_iff. exists (b, nth i (ct_bogie_distances c) 0). split; [reflexivity|]. apply combine_nth_in. exists i. split; [exact h2|apply nth_error_nth'; exact hi].
Qed.

Lemma places_spec g none b x : length (gn_positions g) = length (tn_carts (gn_train g)) ->
  (forall c, In c (tn_carts (gn_train g)) -> length (ct_bogie_distances c) = length (ct_bogies c)) ->
  seen_at g b x -> (forall y, seen_at g b y -> y = x) -> bogie_places g none b = x.
Proof.
  intros hl hd h1 h2. rewrite places_fold. apply last_write; [apply writes_seen; auto|]. intros y hy. apply h2. apply writes_seen; auto.
Qed.

(** ** trains with own bogies *)

Section Vehicle.
  Variables (v : vehicle R) (start : R) (nb : nat).
  Hypothesis hv : sane v.
  Let g := vehicle_train v start nb.

  Lemma v_cart q c : nth_error (tn_carts (gn_train g)) q = Some c <-> (q < nb)%nat /\ c = vehicle_cart v 0 q.
  Proof.
    cbn [g vehicle_train gn_train tn_carts]. rewrite nth_error_map. destruct (Nat.lt_ge_cases q nb) as [h|h].
    - rewrite (nth_error_nth' (seq 0 nb) 0%nat) by (rewrite seq_length; auto). rewrite seq_nth by auto. cbn [option_map Nat.add]. split; [intros e; inversion e; auto|intros [_ ->]; reflexivity].
    - rewrite (proj2 (nth_error_None (seq 0 nb) q)) by (rewrite seq_length; auto). cbn. split; [discriminate|intros [e _]; lia].
  Qed.

  Definition v_place (b : nat) : R := start - INR (b / 2) * vh_length v + (if Nat.even b then - vh_bogie v else vh_bogie v).

  Lemma v_seen b x : seen_at g b x <-> (b < 2 * nb)%nat /\ x = v_place b.
  Proof.
    assert (he : forall q, Nat.even (2 * q) = true /\ Nat.even (2 * q + 1) = false /\ (2 * q / 2 = q)%nat /\ ((2 * q + 1) / 2 = q)%nat).
    { intros q. rewrite Nat.add_comm, !(Nat.mul_comm 2). repeat split.
      - rewrite Nat.mul_comm, Nat.even_mul. reflexivity.
      - rewrite Nat.even_add, Nat.even_mul, orb_true_r. reflexivity.
      - apply Nat.div_mul. lia.
      - rewrite Nat.div_add by lia. reflexivity. }
    unfold seen_at. split.
    - intros [q [c [i [h1 [h2 ->]]]]]. apply v_cart in h1. destruct h1 as [hq ->]. cbn [g vehicle_train gn_positions]. rewrite behind_nth by auto.
      unfold v_place. destruct (he q) as [e1 [e2 [e3 e4]]]. destruct i as [|[|i]]; cbn [vehicle_cart ct_bogies nth_error ct_bogie_distances nth] in *.
      + assert (hb : b = (2 * q)%nat) by (inversion h2; lia). rewrite hb, e1, e3. split; [lia|reflexivity].
      + assert (hb : b = (2 * q + 1)%nat) by (inversion h2; lia). rewrite hb, e2, e4. split; [lia|reflexivity].
      + destruct i; discriminate.
    - intros [hb ->]. set (q := (b / 2)%nat). assert (hq : (q < nb)%nat) by (apply Nat.div_lt_upper_bound; lia).
      exists q, (vehicle_cart v 0 q). destruct (Nat.even b) eqn:eb.
      + exists 0%nat. split; [apply v_cart; auto|]. cbn [g vehicle_train gn_positions]. rewrite behind_nth by auto.
        assert (b = 2 * q)%nat. { apply Nat.even_spec in eb. destruct eb as [k ->]. unfold q. rewrite (Nat.mul_comm 2 k), Nat.div_mul by lia. lia. }
        split; [cbn [vehicle_cart ct_bogies nth_error]; f_equal; lia|]. unfold v_place. rewrite eb. reflexivity.
      + exists 1%nat. split; [apply v_cart; auto|]. cbn [g vehicle_train gn_positions]. rewrite behind_nth by auto.
        assert (b = 2 * q + 1)%nat. { pose proof (Nat.negb_even b) as ho. rewrite eb in ho. symmetry in ho. apply Nat.odd_spec in ho. destruct ho as [k ->]. unfold q. destruct (he k) as [_ [_ [_ ->]]]. reflexivity. }
        split; [cbn [vehicle_cart ct_bogies nth_error]; f_equal; lia|]. unfold v_place. rewrite eb. reflexivity.
  Qed.

  Lemma v_bogie b : (b < 2 * nb)%nat -> bogie_of (gn_train g) b = vehicle_bogie v.
  Proof.
    intros hb. unfold bogie_of. cbn [g vehicle_train gn_train tn_bogies]. rewrite (nth_indep _ _ (vehicle_bogie v)) by (rewrite repeat_length; auto). apply nth_repeat.
  Qed.

  Lemma v_lengths : length (gn_positions g) = length (tn_carts (gn_train g)) /\
    (forall c, In c (tn_carts (gn_train g)) -> length (ct_bogie_distances c) = length (ct_bogies c)).
  Proof.
    split; [cbn [g vehicle_train gn_positions gn_train tn_carts]; rewrite behind_length, map_length, seq_length; reflexivity|].
    intros c hc. apply In_nth_error in hc. destruct hc as [q hc]. apply v_cart in hc. destruct hc as [_ ->]. reflexivity.
  Qed.

  Lemma v_places none b : (b < 2 * nb)%nat -> bogie_places g none b = v_place b.
  Proof.
    intros hb. destruct v_lengths. apply places_spec; auto; [apply v_seen; auto|]. intros y hy. apply v_seen in hy. tauto.
  Qed.

  (** different bogies are at least twice a wheel distance and two tolerances apart *)
  Lemma v_apart a b : a <> b -> 2 * vh_wheel v + 2 * tol < Rabs (v_place a - v_place b).
  Proof.
    intros hne. destruct hv as [h1 [h2 [h3 _]]]. unfold tol in *. unfold v_place.
    assert (ha := Nat.div_mod a 2 ltac:(lia)). assert (hb := Nat.div_mod b 2 ltac:(lia)).
    assert (hda : forall c, (c mod 2 = if Nat.even c then 0 else 1)%nat).
    { intros c. rewrite <- Nat.bit0_mod, Nat.bit0_odd, <- Nat.negb_even. destruct (Nat.even c); reflexivity. }
    rewrite hda in ha, hb. set (qa := (a / 2)%nat) in *. set (qb := (b / 2)%nat) in *.
    destruct (Nat.lt_trichotomy qa qb) as [c|[c|c]].
    - assert (INR qa + 1 <= INR qb) by (rewrite <- S_INR; apply le_INR; lia).
      assert (vh_length v <= (INR qb - INR qa) * vh_length v) by nra.
      destruct (Nat.even a), (Nat.even b); rewrite Rabs_right; lra.
    - rewrite c in *. destruct (Nat.even a), (Nat.even b); try lia; [rewrite Rabs_left|rewrite Rabs_right]; lra.
    - assert (INR qb + 1 <= INR qa) by (rewrite <- S_INR; apply le_INR; lia).
      assert (vh_length v <= (INR qa - INR qb) * vh_length v) by nra.
      destruct (Nat.even a), (Nat.even b); rewrite Rabs_left; lra.
  Qed.
End Vehicle.

(** ** parts of a train, from the places of its bogies *)

Section Parts.
  Variables (g : generated R) (n : nat) (place w : nat -> R).
  Hypothesis hlen : length (gn_positions g) = length (tn_carts (gn_train g)).
  Hypothesis hdis : forall c, In c (tn_carts (gn_train g)) -> length (ct_bogie_distances c) = length (ct_bogies c).
  Hypothesis hseen : forall b x, seen_at g b x <-> (b < n)%nat /\ x = place b.
  Hypothesis hbog : forall b, (b < n)%nat -> length (bg_wheels (bogie_of (gn_train g) b)) = 2%nat /\ bg_wheel_distances (bogie_of (gn_train g) b) = [- w b; w b].
  Hypothesis hw : forall b, (b < n)%nat -> tol < w b.
  Hypothesis hap : forall a b, (a < n)%nat -> (b < n)%nat -> a <> b -> w a + w b + 2 * tol < Rabs (place a - place b).

  Lemma part_places none b : (b < n)%nat -> bogie_places g none b = place b.
  Proof. intros hb. apply places_spec; auto; [apply hseen; auto|]. intros y hy. apply hseen in hy. tauto. Qed.

  Lemma part_in b : (exists c, In c (tn_carts (gn_train g)) /\ In b (ct_bogies c)) <-> (b < n)%nat.
  Proof.
    split.
    - intros [c [h1 h2]]. apply In_nth_error in h1, h2. destruct h1 as [q h1], h2 as [i h2].
      apply (proj1 (hseen b (nth q (gn_positions g) 0 + nth i (ct_bogie_distances c) 0))). exists q, c, i. auto.
    - intros hb. destruct (proj2 (hseen b (place b)) (conj hb eq_refl)) as [q [c [i [h1 [h2 _]]]]]. exists c. split; eapply nth_error_In; eassumption.
  Qed.

  Lemma part_bogies none : lists_bogies (gn_train g) (get_bogies (gn_train g) (bogie_places g none)).
  Proof.
    apply C35_bogies. intros a b ha hb hne. apply in_flat_map in ha, hb. apply part_in in ha, hb. rewrite !part_places by auto.
    pose proof (hap a b ha hb hne). pose proof (hw a ha). pose proof (hw b hb). unfold apart, tol in *. lra.
  Qed.

  Lemma part_wheel none b i : (b < n)%nat -> (i < 2)%nat -> wheel_places g none (b, i) = place b + (if Nat.eqb i 0 then - w b else w b).
  Proof.
    intros hb hi. unfold wheel_places. cbn [fst snd]. rewrite part_places by auto. destruct (hbog b hb) as [_ ->].
    destruct i as [|[|i]]; [reflexivity|reflexivity|lia].
  Qed.

  Lemma part_wheels none : lists_wheels (gn_train g) (get_wheels (gn_train g) (bogie_places g none) (wheel_places g none)).
  Proof.
    apply C35_wheels; [apply part_bogies|]. intros [a i] [b j] ha hb hi hj hne. cbn [fst snd] in *. apply part_in in ha, hb.
    unfold n_wheels in hi, hj. rewrite (proj1 (hbog a ha)) in hi. rewrite (proj1 (hbog b hb)) in hj. rewrite !part_wheel by auto.
    pose proof (hw a ha). pose proof (hw b hb). unfold apart, tol in *. destruct (Nat.eq_dec a b) as [->|hab].
    - destruct i as [|[|i]], j as [|[|j]]; try lia; try congruence; cbn [Nat.eqb]; [rewrite Rabs_left|rewrite Rabs_right]; lra.
    - pose proof (hap a b ha hb hab) as h. assert (hh : forall s, s = - w a \/ s = w a -> forall t, t = - w b \/ t = w b -> 1 / 1000000000 < Rabs (place a + s - (place b + t))).
      { intros s hs t ht. unfold Rabs in *. repeat destruct Rcase_abs; destruct hs, ht; lra. }
      apply hh; [destruct (Nat.eqb i 0); auto|destruct (Nat.eqb j 0); auto].
  Qed.

  Lemma part_count bs : lists_bogies (gn_train g) bs -> length bs = n.
  Proof.
    intros [h1 h2]. rewrite <- (seq_length n 0). apply Nat.le_antisymm; apply NoDup_incl_length; auto using seq_NoDup.
    - intros b hb. apply in_seq. apply h2, part_in in hb. lia.
    - intros b hb. apply in_seq in hb. apply h2, part_in. lia.
  Qed.

  Lemma part_wheel_count ws : lists_wheels (gn_train g) ws -> length ws = (2 * n)%nat.
  Proof.
    intros [h1 h2]. set (all := flat_map (fun b => [(b, 0%nat); (b, 1%nat)]) (seq 0 n)).
    assert (ha : length all = (2 * n)%nat). { unfold all. rewrite <- (seq_length n 0) at 2. induction (seq 0 n); cbn [flat_map app length] in *; lia. }
    assert (hall : forall b i, In (b, i) all <-> (b < n)%nat /\ (i < 2)%nat).
    { intros b i. unfold all. rewrite in_flat_map. split.
      - intros [c [hc [e|[e|[]]]]]; inversion e; subst; apply in_seq in hc; lia.
      - intros [hb hi]. exists b. split; [apply in_seq; lia|]. destruct i as [|[|i]]; [left; reflexivity|right; left; reflexivity|lia]. }
    assert (hnd : NoDup all).
    { unfold all. clear. generalize 0%nat at 3. induction n as [|m IH]; intros s; cbn [seq flat_map app]; [constructor|].
      assert (hn : forall j, ~ In (s, j) (flat_map (fun b => [(b, 0%nat); (b, 1%nat)]) (seq (S s) m))).
      { intros j h. apply in_flat_map in h. destruct h as [c [hc [e|[e|[]]]]]; inversion e; subst; apply in_seq in hc; lia. }
      constructor; [intros [e|h]; [discriminate|exact (hn _ h)]|]. constructor; [apply hn|]. apply IH. }
    rewrite <- ha. assert (hws : forall b i, In (b, i) ws <-> In (b, i) all).
    { intros b i. rewrite h2, hall, part_in. unfold n_wheels. split; intros [a c]; (split; [exact a|]); rewrite (proj1 (hbog b a)) in *; auto. }
    apply Nat.le_antisymm; apply NoDup_incl_length; auto; intros [b i]; apply hws.
  Qed.
End Parts.

(** ** the train with shared bogies *)

Section Slt.
  Variables (start : R) (nb : nat) (g : generated R).
  Hypothesis hg : slt_train start nb = Ok g.

  Lemma slt_enough : (2 <= nb)%nat.
  Proof. unfold slt_train in hg. destruct (Nat.ltb_spec nb 2); [discriminate|auto]. Qed.
  Lemma slt_shape : g = mkGenerated (mkTrain (map (slt_cart nb) (seq 0 nb)) (repeat slt_bogie (nb + 1)))
                         (repeat slt_length nb) (behind start slt_length nb) (repeat (ndec 28 1) (nb + 1)).
  Proof. unfold slt_train in hg. destruct (Nat.ltb nb 2); [discriminate|]. inversion hg. reflexivity. Qed.

  Lemma slt_len : (slt_length : R) = 1557 / 100.
  Proof. unfold slt_length. rewrite ndec_R. rnum. cbn. lra. Qed.

  Lemma s_cart q c : nth_error (tn_carts (gn_train g)) q = Some c <-> (q < nb)%nat /\ c = slt_cart nb q.
  Proof.
    rewrite slt_shape. cbn [gn_train tn_carts]. rewrite nth_error_map. destruct (Nat.lt_ge_cases q nb) as [h|h].
    - rewrite (nth_error_nth' (seq 0 nb) 0%nat) by (rewrite seq_length; auto). rewrite seq_nth by auto. cbn [option_map Nat.add]. split; [intros e; inversion e; auto|intros [_ ->]; reflexivity].
    - rewrite (proj2 (nth_error_None (seq 0 nb) q)) by (rewrite seq_length; auto). cbn. split; [discriminate|intros [e _]; lia].
  Qed.

  Definition s_place (b : nat) : R := start - INR b * (1557 / 100) + 1557 / 200.

  Lemma s_seen b x : seen_at g b x <-> (b < nb + 1)%nat /\ x = s_place b.
  Proof.
    pose proof slt_enough as hn.
    assert (hp : forall q, (q < nb)%nat -> nth q (gn_positions g) 0 = start - INR q * (1557 / 100)).
    { intros q hq. rewrite slt_shape. cbn [gn_positions]. rewrite behind_nth by auto. rewrite slt_len. reflexivity. }
    assert (hd : forall q, nth 0 (ct_bogie_distances (slt_cart nb q)) 0 = 1557 / 200 /\ nth 1 (ct_bogie_distances (slt_cart nb q)) 0 = - (1557 / 200)).
    { intros q. cbn [slt_cart ct_bogie_distances nth]. rewrite slt_len. rnum. lra. }
    unfold seen_at, s_place. split.
    - intros [q [c [i [h1 [h2 ->]]]]]. apply s_cart in h1. destruct h1 as [hq ->]. rewrite hp by auto. destruct (hd q) as [d0 d1].
      destruct i as [|[|i]]; [rewrite d0|rewrite d1|]; cbn [slt_cart ct_bogies nth_error] in h2.
      + inversion h2; subst. split; [lia|lra].
      + inversion h2; subst. split; [lia|]. rewrite plus_INR. cbn [INR]. lra.
      + destruct i; discriminate.
    - intros [hb ->]. destruct (Nat.eq_dec b nb) as [->|ne].
      + exists (nb - 1)%nat, (slt_cart nb (nb - 1)), 1%nat. split; [apply s_cart; split; [lia|reflexivity]|].
        split; [cbn [slt_cart ct_bogies nth_error]; f_equal; lia|]. rewrite hp by lia. rewrite (proj2 (hd _)). rewrite minus_INR by lia. cbn [INR]. lra.
      + exists b, (slt_cart nb b), 0%nat. split; [apply s_cart; split; [lia|reflexivity]|]. split; [reflexivity|]. rewrite hp by lia. rewrite (proj1 (hd _)). lra.
  Qed.

  Lemma s_bogie b : (b < nb + 1)%nat -> bogie_of (gn_train g) b = slt_bogie.
  Proof.
    intros hb. unfold bogie_of. rewrite slt_shape. cbn [gn_train tn_bogies]. rewrite (nth_indep _ _ slt_bogie) by (rewrite repeat_length; auto). apply nth_repeat.
  Qed.

  Lemma s_lengths : length (gn_positions g) = length (tn_carts (gn_train g)) /\
    (forall c, In c (tn_carts (gn_train g)) -> length (ct_bogie_distances c) = length (ct_bogies c)).
  Proof.
    split; [rewrite slt_shape; cbn [gn_positions gn_train tn_carts]; rewrite behind_length, map_length, seq_length; reflexivity|].
    intros c hc. apply In_nth_error in hc. destruct hc as [q hc]. apply s_cart in hc. destruct hc as [_ ->]. reflexivity.
  Qed.

  Lemma s_apart a b : a <> b -> 14 / 10 + 14 / 10 + 2 * tol < Rabs (s_place a - s_place b).
  Proof.
    intros hne. unfold s_place, tol. replace (_ - _) with ((INR b - INR a) * (1557 / 100)) by ring. rewrite Rabs_mult, (Rabs_right (1557 / 100)) by lra.
    assert (1 <= Rabs (INR b - INR a)); [|lra]. destruct (Nat.lt_ge_cases a b) as [c|c].
    - assert (INR a + 1 <= INR b) by (rewrite <- S_INR; apply le_INR; lia). rewrite Rabs_right; lra.
    - assert (INR b + 1 <= INR a) by (rewrite <- S_INR; apply le_INR; lia). rewrite Rabs_left; lra.
  Qed.
End Slt.

(** ** sharing *)

Lemma carried_seq (cart : nat -> cart R) (bs : list (bogie R)) nb b :
  carried (mkTrain (map cart (seq 0 nb)) bs) b =
  sumn nb (fun q => sumn (length (ct_bogies (cart q))) (fun i => if Nat.eqb (nth i (ct_bogies (cart q)) 0%nat) b then weight (ct_factor (cart q)) i else 0)).
Proof. unfold carried. cbn [tn_carts]. rewrite map_map. apply nsum_map_seq. Qed.

Lemma sumn2 (f : nat -> R) : sumn 2 f = f 0%nat + f 1%nat.
Proof. cbn. lra. Qed.

(** cart [q] has the bogies [2 q] and [2 q + 1] for itself *)
Definition own (carts : list (cart R)) : Prop :=
  forall q c, nth_error carts q = Some c -> ct_bogies c = [2 * q; 2 * q + 1]%nat /\ ct_factor c = [].

Lemma own_carried carts bs b : own carts -> (b < 2 * length carts)%nat -> carried (mkTrain carts bs) b = 1.
Proof.
  intros ho hb. destruct carts as [|c0 r]; [cbn in hb; lia|]. set (carts := c0 :: r) in *. set (f := fun q => nth q carts c0).
  assert (he : carts = map f (seq 0 (length carts))).
  { apply (nth_ext _ _ c0 (f 0%nat)); [rewrite map_length, seq_length; reflexivity|]. intros q hq. rewrite (map_nth f (seq 0 (length carts)) 0%nat). rewrite seq_nth by auto. reflexivity. }
  rewrite he. rewrite carried_seq. rewrite (sumn_single _ (b / 2)).
  - assert (hq : (b / 2 < length carts)%nat) by (apply Nat.div_lt_upper_bound; lia). destruct (ho (b / 2)%nat (f (b / 2)%nat)) as [-> ->]; [apply nth_error_nth'; auto|].
    cbn [length]. rewrite sumn2. cbn [nth weight]. pose proof (Nat.div_mod b 2 ltac:(lia)). pose proof (Nat.mod_upper_bound b 2 ltac:(lia)).
    destruct (Nat.eqb_spec (2 * (b / 2)) b), (Nat.eqb_spec (2 * (b / 2) + 1) b); try lia; lra.
  - apply Nat.div_lt_upper_bound; lia.
  - intros q hq hne. destruct (ho q (f q)) as [-> ->]; [apply nth_error_nth'; auto|]. cbn [length]. rewrite sumn2. cbn [nth weight].
    pose proof (Nat.div_mod b 2 ltac:(lia)). pose proof (Nat.mod_upper_bound b 2 ltac:(lia)).
    destruct (Nat.eqb_spec (2 * q) b); [lia|]. destruct (Nat.eqb_spec (2 * q + 1) b); [lia|]. lra.
Qed.

Lemma own_flat carts : own carts -> flat_map (@ct_bogies R) carts = seq 0 (2 * length carts).
Proof.
  intros ho. assert (h : forall carts s, (forall q c, nth_error carts q = Some c -> ct_bogies c = [s + 2 * q; s + 2 * q + 1]%nat) -> flat_map (@ct_bogies R) carts = seq s (2 * length carts)).
  { clear. induction carts as [|c l IH]; intros s h; [reflexivity|]. cbn [flat_map]. rewrite (h 0%nat c eq_refl).
    rewrite (IH (s + 2)%nat); [|intros q d hq; rewrite (h (S q) d hq); f_equal; [|f_equal]; lia].
    replace (2 * length (c :: l))%nat with (S (S (2 * length l)))%nat by (cbn [length]; lia). cbn [seq app].
    f_equal; [lia|]. f_equal; [lia|]. f_equal; lia. }
  apply h. intros q c hq. destruct (ho q c hq) as [-> _]. reflexivity.
Qed.

Lemma vehicle_own (v : vehicle R) start nb : own (tn_carts (gn_train (vehicle_train v start nb))).
Proof. intros q c h. apply v_cart in h. destruct h as [_ ->]. split; reflexivity. Qed.

Lemma slt_carried start nb g b : slt_train start nb = Ok g -> (b < nb + 1)%nat -> carried (gn_train g) b = 1.
Proof.
  intros hg hb. pose proof (slt_enough _ _ _ hg) as hn. rewrite (slt_shape _ _ _ hg). cbn [gn_train]. rewrite carried_seq.
  assert (h5 : (ndec 5 1 : R) = 1 / 2) by (rewrite ndec_R; rnum; cbn; lra).
  rewrite (sumn_ext _ _ (fun q => (if Nat.eqb b q then (if Nat.eqb q 0 then 1 else 1 / 2) else 0) + (if Nat.eqb (S q) b then (if Nat.eqb q (nb - 1) then 1 else 1 / 2) else 0))).
  2: { intros q hq. cbn [slt_cart ct_bogies length]. rewrite sumn2. cbn [nth]. rewrite (Nat.eqb_sym q b). replace (q + 1)%nat with (S q) by lia. f_equal.
    - destruct (Nat.eqb_spec b q); [|reflexivity]. cbn [slt_cart ct_factor]. destruct (Nat.eqb_spec q 0); [cbn [weight nth]; rnum; reflexivity|]. destruct (Nat.eqb q (nb - 1)); cbn [weight nth]; exact h5.
    - destruct (Nat.eqb_spec (S q) b); [|reflexivity]. cbn [slt_cart ct_factor]. destruct (Nat.eqb_spec q 0) as [z|z].
      + destruct (Nat.eqb_spec q (nb - 1)); [lia|]. cbn [weight nth]; exact h5.
      + destruct (Nat.eqb q (nb - 1)); cbn [weight nth]; [rnum; reflexivity|exact h5]. }
  rewrite sumn_add. destruct (Nat.eq_dec b 0) as [->|b0].
  - rewrite sumn_pick by lia. rewrite (sumn_0 nb (fun i => if Nat.eqb (S i) 0 then _ else 0)) by reflexivity. cbn [Nat.eqb]. lra.
  - destruct b as [|b]; [lia|]. rewrite (sumn_ext nb (fun i => if Nat.eqb (S i) (S b) then _ else 0) (fun i => if Nat.eqb b i then (if Nat.eqb i (nb - 1) then 1 else 1 / 2) else 0)).
    2: { intros i hi. cbn [Nat.eqb]. rewrite (Nat.eqb_sym i b). reflexivity. }
    rewrite (sumn_pick nb (fun i => if Nat.eqb i (nb - 1) then 1 else 1 / 2) b) by lia. destruct (Nat.eq_dec (S b) nb) as [e|e].
    + rewrite sumn_0; [|intros i hi; destruct (Nat.eqb_spec (S b) i); [lia|reflexivity]]. destruct (Nat.eqb_spec b (nb - 1)); [lra|lia].
    + rewrite sumn_pick by lia. destruct (Nat.eqb_spec b (nb - 1)); [lia|]. cbn [Nat.eqb]. lra.
Qed.

(** ** cargo trains *)

Lemma cargo_cases lty wty (start : R) nl nw g : build_cargo_train lty wty start nl nw = Ok g ->
  exists l w, locomotive lty = Ok l /\ wagon wty = Ok w /\ sane l /\ sane w /\ (nl <> 0 \/ nw = 0)%nat /\
  g = mkGenerated
        (mkTrain (map (vehicle_cart l 0) (seq 0 nl) ++ map (vehicle_cart w (2 * nl)) (seq 0 nw))
                 (repeat (vehicle_bogie l) (2 * nl) ++ repeat (vehicle_bogie w) (2 * nw)))
        (repeat (vh_length l) nl ++ repeat (vh_length w) nw)
        (behind start (vh_length l) nl ++ map (fun i => start - vh_length l / 2 - vh_length w / 2 - vh_length w * INR i) (seq 0 nw))
        (repeat (vh_blength l) (2 * nl) ++ repeat (vh_blength w) (2 * nw)).
Proof.
  pose proof sane_all as hs. repeat (match goal with h : Forall _ (_ :: _) |- _ => inversion h; subst; clear h end).
  unfold build_cargo_train. intros h. destruct (locomotive lty) as [l|] eqn:el; [|discriminate]. destruct (wagon wty) as [w|] eqn:ew; [|discriminate]. cbv beta iota in h.
  assert (hn : (nl <> 0 \/ nw = 0)%nat) by (destruct (Nat.eqb_spec nl 0), (Nat.eqb_spec nw 0); cbn in h; auto; discriminate).
  exists l, w. split; [reflexivity|]. split; [reflexivity|].
  split; [destruct lty; cbn in el; inversion el; subst; assumption|]. split; [destruct wty; cbn in ew; inversion ew; subst; assumption|].
  split; [exact hn|]. destruct (Nat.eqb nl 0 && negb (Nat.eqb nw 0))%bool; [discriminate|]. 
  cbn [rbind] in h. match type of h with Ok ?x = _ => assert (hg : x = g) by congruence end. rewrite <- hg. cbn [vehicle_train gn_train gn_lengths gn_positions gn_bogie_lengths tn_carts tn_bogies].
  rewrite (map_ext (fun i => nsub (nsub (nsub start (ndiv (vh_length l) (lit 2))) (ndiv (vh_length w) (lit 2))) (nmul (vh_length w) (nofnat i)))
    (fun i => start - vh_length l / 2 - vh_length w / 2 - vh_length w * INR i)); [reflexivity|]. intros i. rewrite nofnat_R. reflexivity.
Qed.

Section Cargo.
  Variables (l w : vehicle R) (start : R) (nl nw : nat).
  Hypothesis hl : sane l.
  Hypothesis hw : sane w.
  Let carts := map (vehicle_cart l 0) (seq 0 nl) ++ map (vehicle_cart w (2 * nl)) (seq 0 nw).
  Let positions := behind start (vh_length l) nl ++ map (fun i => start - vh_length l / 2 - vh_length w / 2 - vh_length w * INR i) (seq 0 nw).

  Lemma c_cart q c : nth_error carts q = Some c ->
    ((q < nl)%nat /\ c = vehicle_cart l 0 q) \/ ((nl <= q < nl + nw)%nat /\ c = vehicle_cart w (2 * nl) (q - nl)).
  Proof.
    unfold carts. intros h. destruct (Nat.lt_ge_cases q nl) as [c0|c0].
    - left. split; [exact c0|]. rewrite nth_error_app1 in h by (rewrite map_length, seq_length; auto).
      rewrite nth_error_map, (nth_error_nth' (seq 0 nl) 0%nat), seq_nth in h by (rewrite ?seq_length; auto). inversion h. reflexivity.
    - right. rewrite nth_error_app2 in h by (rewrite map_length, seq_length; auto). rewrite map_length, seq_length, nth_error_map in h.
      destruct (Nat.lt_ge_cases (q - nl) nw) as [c1|c1].
      + rewrite (nth_error_nth' (seq 0 nw) 0%nat), seq_nth in h by (rewrite ?seq_length; auto). inversion h. split; [lia|reflexivity].
      + rewrite (proj2 (nth_error_None (seq 0 nw) (q - nl))) in h by (rewrite seq_length; auto). discriminate.
  Qed.

  Lemma cargo_own : own carts.
  Proof.
    intros q c h. apply c_cart in h. destruct h as [[h ->]|[h ->]]; cbn [vehicle_cart ct_bogies ct_factor]; split; auto. f_equal; [lia|]. f_equal; lia.
  Qed.

  Lemma cargo_count : length carts = (nl + nw)%nat.
  Proof. unfold carts. rewrite app_length, !map_length, !seq_length. reflexivity. Qed.

  Lemma wagon_pos i : (i < nw)%nat -> nth (nl + i) positions 0 = start - vh_length l / 2 - vh_length w / 2 - vh_length w * INR i.
  Proof.
    intros hi. unfold positions. rewrite app_nth2 by (rewrite behind_length; lia). rewrite behind_length. replace (nl + i - nl)%nat with i by lia.
    set (f := fun i => start - vh_length l / 2 - vh_length w / 2 - vh_length w * INR i).
    rewrite (nth_indep _ 0 (f 0%nat)) by (rewrite map_length, seq_length; auto). rewrite (map_nth f (seq 0 nw) 0%nat), seq_nth by auto. reflexivity.
  Qed.
  Lemma loco_pos i : (i < nl)%nat -> nth i positions 0 = start - INR i * vh_length l.
  Proof. intros hi. unfold positions. rewrite app_nth1 by (rewrite behind_length; lia). apply behind_nth. auto. Qed.
  Lemma pos_count : length positions = (nl + nw)%nat.
  Proof. unfold positions. rewrite app_length, behind_length, map_length, seq_length. reflexivity. Qed.
  Lemma loco_len i : (i < nl)%nat -> nth i (repeat (vh_length l) nl ++ repeat (vh_length w) nw) 0 = vh_length l.
  Proof. intros hi. rewrite app_nth1 by (rewrite repeat_length; auto). apply nth_repeat0. auto. Qed.
  Lemma wagon_len i : (i < nw)%nat -> nth (nl + i) (repeat (vh_length l) nl ++ repeat (vh_length w) nw) 0 = vh_length w.
  Proof. intros hi. rewrite app_nth2 by (rewrite repeat_length; lia). rewrite repeat_length. apply nth_repeat0. lia. Qed.
  Lemma len_pos v : sane v -> 0 < vh_length v.
  Proof. intros h. destruct h as [h1 [h2 [h3 _]]]. unfold tol in *. lra. Qed.

  Lemma cargo_overlap : (2 <= nl)%nat -> (1 <= nw)%nat -> ~ no_overlap positions (repeat (vh_length l) nl ++ repeat (vh_length w) nw).
  Proof.
    intros h2 h1 [_ h]. specialize (h 1%nat (nl + 0)%nat). rewrite pos_count in h. specialize (h ltac:(lia) ltac:(lia) ltac:(lia)).
    rewrite wagon_pos, wagon_len, loco_pos, loco_len in h by lia. cbn [INR] in h. pose proof (len_pos l hl). pose proof (len_pos w hw).
    revert h. apply Rlt_not_le. apply Rabs_def1; lra.
  Qed.

  Lemma cargo_clear : (nl = 1 \/ nw = 0)%nat -> no_overlap positions (repeat (vh_length l) nl ++ repeat (vh_length w) nw).
  Proof.
    intros hc. pose proof (len_pos l hl) as h1. pose proof (len_pos w hw) as h2.
    split; [rewrite app_length, !repeat_length, pos_count; reflexivity|]. rewrite pos_count.
    assert (hs : forall i j, (i < j)%nat -> (j < nl + nw)%nat -> (nth i (repeat (vh_length l) nl ++ repeat (vh_length w) nw) 0 + nth j (repeat (vh_length l) nl ++ repeat (vh_length w) nw) 0) / 2 <= Rabs (nth i positions 0 - nth j positions 0)).
    { intros i j hij hj. destruct (Nat.lt_ge_cases j nl) as [c|c].
      - rewrite !loco_len, !loco_pos by lia. assert (INR i + 1 <= INR j) by (rewrite <- S_INR; apply le_INR; lia). rewrite Rabs_right; nra.
      - destruct hc as [hc|hc]; [|lia]. replace j with (nl + (j - nl))%nat by lia. rewrite wagon_len, wagon_pos by lia. destruct (Nat.lt_ge_cases i nl) as [c1|c1].
        + rewrite loco_len, loco_pos by lia. assert (i = 0)%nat by lia. subst i. cbn [INR]. pose proof (pos_INR (j - nl)). rewrite Rabs_right; nra.
        + replace i with (nl + (i - nl))%nat by lia. rewrite wagon_len, wagon_pos by lia. assert (INR (i - nl) + 1 <= INR (j - nl)) by (rewrite <- S_INR; apply le_INR; lia). rewrite Rabs_right; nra. }
    intros i j hi hj hne. destruct (Nat.lt_ge_cases i j) as [c|c]; [apply hs; auto|]. rewrite Rabs_minus_sym, (Rplus_comm (nth i _ 0)). apply hs; lia.
  Qed.
End Cargo.
