(** * The dictionary of a train describes the whole train (C134) *)

From Coq Require Import Reals List Bool ZArith Arith Lia Lra.
From Verif Require Import Num PyBase Model_Train Model_DefaultTrains Model_TrainDict Spec_TrainDict.
Import ListNotations.
Local Open Scope R_scope.

Local Lemma alike_repeat {A} (l : list A) x : In x l -> (forall a b, In a l -> In b l -> a = b) -> l = repeat x (length l).
Proof.
  intros hx h. assert (g : forall y, In y l -> y = x) by (intros y hy; apply h; assumption). clear - g. induction l as [|a q IH]; [reflexivity|].
  cbn [length repeat]. f_equal; [apply g; left; reflexivity|apply IH; intros y hy; apply g; right; exact hy].
Qed.

Local Lemma map_const {A B} (l : list A) (x : B) : map (fun _ => x) l = repeat x (length l).
Proof. induction l as [|a q IH]; [reflexivity|]. cbn. rewrite IH. reflexivity. Qed.

(** lists of the same length whose concatenation counts up count up themselves *)
Local Lemma counted (m : nat) (ls : list (list nat)) : forall s k, Forall (fun l => length l = m) ls -> concat ls = seq s k ->
  ls = map (fun i => seq (s + i * m) m) (seq 0 (length ls)) /\ k = (length ls * m)%nat.
Proof.
  induction ls as [|l q IH]; intros s k hf he.
  - cbn in he. destruct k; [split; reflexivity|discriminate].
  - apply Forall_cons_iff in hf. destruct hf as [hl hf]. cbn [concat] in he.
    assert (hk : (m <= k)%nat) by (apply (f_equal (@length _)) in he; rewrite app_length, seq_length in he; lia).
    replace k with (m + (k - m))%nat in he by lia. rewrite seq_app in he.
    assert (e : l = seq s m /\ concat q = seq (s + m) (k - m)).
    { split; [apply (f_equal (firstn m)) in he|apply (f_equal (skipn m)) in he].
      - rewrite !firstn_app, seq_length in he. rewrite hl in he. rewrite Nat.sub_diag in he. cbn [firstn] in he. rewrite !app_nil_r in he. rewrite <- hl in he at 1. rewrite firstn_all in he. rewrite he.
        rewrite <- (seq_length m s) at 1. apply firstn_all.
      - rewrite !skipn_app, seq_length in he. rewrite hl in he. rewrite Nat.sub_diag in he. cbn [skipn] in he. rewrite <- hl in he at 1. rewrite skipn_all in he.
        rewrite <- (seq_length m s) in he at 1. rewrite skipn_all in he. exact he. }
    destruct e as [e1 e2]. destruct (IH _ _ hf e2) as [e3 e4]. split; [|cbn [length]; lia].
    cbn [length seq map]. f_equal; [rewrite Nat.mul_0_l, Nat.add_0_r; exact e1|]. rewrite <- seq_shift, map_map. rewrite e3 at 1. apply map_ext. intros i. f_equal. lia.
Qed.

(** A train of vehicles of one kind, whatever they are: the dictionary can be made, and the train built from it is the train again *)
Theorem C134_describes (g : generated R) : one_kind g -> on_wheels g -> exists p, train_class_to_dict g = Ok p /\ dict_train p = g.
Proof.
  intros h [hc [hb hw]]. destruct g as [[cs bs] lens pos blens]. destruct h as [h1 h2 h3 h4 h5 [h6 h6'] h7 [h8 h8']]. cbn [gn_train gn_lengths gn_positions gn_bogie_lengths tn_carts tn_bogies] in *.
  destruct cs as [|c cs']; [contradiction|]. remember (c :: cs') as cs eqn:ecs. assert (hcin : In c cs) by (rewrite ecs; left; reflexivity).
  destruct lens as [|len lens']; [rewrite ecs in h6; discriminate h6|]. remember (len :: lens') as lens eqn:elens.
  pose proof (hb c hcin) as hbc. destruct (ct_bogies c) as [|i is] eqn:ei; [contradiction|]. destruct (h2 c hcin) as [_ hm]. rewrite ei in hm.
  assert (hi : i = 0%nat /\ (0 < length bs)%nat).
  { rewrite ecs in h3. cbn [flat_map] in h3. rewrite ei in h3. destruct bs; cbn in h3; [discriminate|]. injection h3 as -> _. cbn. split; [reflexivity|lia]. }
  destruct hi as [-> hpos]. destruct bs as [|b bs'] eqn:ebs; [cbn in hpos; lia|]. rewrite <- ebs in *. assert (hbin : In b bs) by (rewrite ebs; left; reflexivity).
  assert (eb : bogie_of (mkTrain cs bs) 0 = b) by (unfold bogie_of; cbn [tn_bogies]; rewrite ebs; reflexivity).
  destruct (h5 b hbin) as [hbf [hbw hball]]. pose proof (hw b hbin) as hwb. destruct (bg_wheels b) as [|w ws] eqn:ew; [contradiction|].
  destruct blens as [|bl blens'] eqn:ebl; [rewrite ebs in h8; discriminate|]. rewrite <- ebl in *.
  eexists. split.
  { unfold train_class_to_dict. cbn [gn_train tn_carts gn_lengths]. rewrite ecs at 1. rewrite elens at 1. cbn beta iota. rewrite ei, eb, ew. reflexivity. }
  unfold dict_train. cbn [td_cart_distances td_bogie_distances td_cart_length td_bogie_length gn_positions].
  assert (hfl : Forall (fun l => length l = length (ct_bogie_distances c)) (map (@ct_bogies R) cs)).
  { apply Forall_map, Forall_forall. intros x hx. destruct (h2 x hx) as [_ ->]. destruct (h1 x c hx hcin) as [_ [_ [_ [_ ->]]]]. reflexivity. }
  rewrite flat_map_concat_map in h3. destruct (counted _ _ _ _ hfl h3) as [k1 k2]. rewrite map_length in k1, k2.
  assert (e1 : map (dict_cart (mkTrainDict (bg_wheel_distances b) (nth 0 (gn_bogie_lengths (mkGenerated (mkTrain cs bs) lens pos blens)) (lit 0)) (ct_bogie_distances c) len pos w (bg_mass b) (ct_mass c) (bg_inertia b)
                 (ct_inertia c) (bg_k b) (ct_k c) (bg_c b) (ct_c c))) (seq 0 (length pos)) = cs).
  { unfold dict_cart. cbn [td_mass_cart td_inertia_cart td_sec_stiffness td_sec_damping td_bogie_distances]. rewrite h7.
    assert (g : forall l, (forall x, In x l -> In x cs) -> map (@ct_bogies R) l = map (fun i => seq (0 + i * length (ct_bogie_distances c)) (length (ct_bogie_distances c))) (seq (length cs - length l) (length l)) -> (length l <= length cs)%nat ->
      map (fun i => mkCart (ct_mass c) (ct_inertia c) (ct_k c) (ct_c c) [] (ct_bogie_distances c) (seq (i * length (ct_bogie_distances c)) (length (ct_bogie_distances c)))) (seq (length cs - length l) (length l)) = l).
    { clear k1 h3 hfl. induction l as [|x q IH]; intros hin he hle; [reflexivity|]. cbn [length seq map] in *. injection he as he1 he2.
      replace (S (length cs - S (length q))) with (length cs - length q)%nat in * by lia. rewrite IH; [|intros y hy; apply hin; right; exact hy|exact he2|lia]. f_equal.
      assert (hx : In x cs) by (apply hin; left; reflexivity). destruct (h1 x c hx hcin) as [a1 [a2 [a3 [a4 a5]]]]. destruct (h2 x hx) as [a6 _]. cbn [Nat.add] in he1.
      transitivity (mkCart (ct_mass x) (ct_inertia x) (ct_k x) (ct_c x) (ct_factor x) (ct_bogie_distances x) (ct_bogies x)); [rewrite a1, a2, a3, a4, a5, a6, he1; reflexivity|destruct x; reflexivity]. }
    specialize (g cs (fun x hx => hx)). rewrite Nat.sub_diag in g. apply g; [exact k1|lia]. }
  rewrite e1.
  f_equal.
  - f_equal. rewrite h7, <- k2. transitivity (repeat b (length bs)); [f_equal|symmetry; apply alike_repeat; assumption]. unfold dict_bogie. cbn [td_mass_bogie td_inertia_bogie td_prim_stiffness td_prim_damping td_wheel_distances td_mass_wheel].
    transitivity (mkBogie (bg_mass b) (bg_inertia b) (bg_k b) (bg_c b) (bg_factor b) (bg_wheel_distances b) (bg_wheels b)); [rewrite hbf; f_equal|destruct b; reflexivity].
    rewrite map_const, <- hbw, <- ew. symmetry. apply alike_repeat; [rewrite ew; left; reflexivity|rewrite ew; exact hball].
  - rewrite h7, <- h6. symmetry. apply alike_repeat; [rewrite elens; left; reflexivity|exact h6'].
  - cbn [gn_bogie_lengths]. rewrite h7, <- k2, <- h8. replace (nth 0 blens (lit 0)) with bl by (rewrite ebl; reflexivity). symmetry. apply alike_repeat; [rewrite ebl; left; reflexivity|exact h8'].
Qed.
Print Assumptions C134_describes.

(** and the other way round: a train built from values gives these values back *)
Theorem C134_returns (p : train_dict R) : td_wheel_distances p <> [] -> td_bogie_distances p <> [] -> td_cart_distances p <> [] ->
  train_class_to_dict (dict_train p) = Ok p.
Proof.
  intros h1 h2 h3. destruct p as [wd bl bds cl cds mw mb mc ib ic pk sk pc sc]. cbn [td_wheel_distances td_bogie_distances td_cart_distances] in *.
  destruct wd as [|w wd]; [contradiction|]. destruct bds as [|b bds]; [contradiction|]. destruct cds as [|c cds]; [contradiction|]. reflexivity.
Qed.
Print Assumptions C134_returns.

(** the trains of one kind that the package offers: all but the Sprinter with shared bogies *)
Lemma vehicle_one_kind v start nb : (1 <= nb)%nat -> one_kind (vehicle_train v start nb) /\ on_wheels (vehicle_train v start nb).
Proof.
  intros hn. assert (hrep : forall A (x : A) n a b, In a (repeat x n) -> In b (repeat x n) -> a = b) by (intros A x n a b ha hb; apply repeat_spec in ha, hb; congruence).
  split; [split|]; unfold vehicle_train; cbn [gn_train gn_lengths gn_positions gn_bogie_lengths tn_carts tn_bogies].
  - intros c c' hc hc'. apply in_map_iff in hc, hc'. destruct hc as [i [<- _]]. destruct hc' as [i' [<- _]]. repeat split.
  - intros c hc. apply in_map_iff in hc. destruct hc as [i [<- _]]. repeat split.
  - rewrite repeat_length. rewrite flat_map_concat_map, map_map. clear. induction nb as [|n IH]; [reflexivity|]. rewrite seq_S, map_app, concat_app, IH. cbn [map concat vehicle_cart ct_bogies app].
    replace (2 * S n)%nat with (2 * n + 2)%nat by lia. rewrite seq_app. replace (0 + 2 * (0 + n) + 1)%nat with (S (0 + 2 * n)) by lia. reflexivity.
  - apply hrep.
  - intros b hb. apply repeat_spec in hb. subst b. repeat split. apply hrep.
  - split; [rewrite repeat_length, map_length, seq_length; reflexivity|apply hrep].
  - unfold behind. rewrite !map_length. reflexivity.
  - split; [rewrite !repeat_length; reflexivity|apply hrep].
  - split; [destruct nb; [lia|discriminate]|]. split.
    + intros c hc. apply in_map_iff in hc. destruct hc as [i [<- _]]. discriminate.
    + intros b hb. apply repeat_spec in hb. subst b. discriminate.
Qed.

Theorem C134_offered ty start nb g : ty <> SPRINTER_SLT -> (1 <= nb)%nat -> set_train ty start nb = Ok g ->
  exists p, train_class_to_dict g = Ok p /\ dict_train p = g.
Proof.
  intros hty hn hg. assert (e : exists v, g = vehicle_train v start nb) by (destruct ty; try contradiction; injection hg as <-; eauto).
  destruct e as [v ->]. destruct (vehicle_one_kind v start nb hn) as [h1 h2]. exact (C134_describes _ h1 h2).
Qed.
Print Assumptions C134_offered.

(** Refuted for the Sprinter SLT, where neighbouring carts share a bogie: the train built from the dictionary has twice as many bogies as
    carts, and so more wheels and more weight *)
Theorem C134_shared_refuted start nb : (2 <= nb)%nat -> exists g p, set_train SPRINTER_SLT start nb = Ok g /\ train_class_to_dict g = Ok p /\
  length (tn_bogies (gn_train g)) = (nb + 1)%nat /\ length (tn_bogies (gn_train (dict_train p))) = (2 * nb)%nat /\ (nb + 1 < 2 * nb)%nat.
Proof.
  intros hn. cbn [set_train]. unfold slt_train. destruct (Nat.ltb_spec nb 2) as [hlt|_]; [lia|]. eexists. eexists. split; [reflexivity|]. destruct nb as [|[|n]]; [lia|lia|].
  split; [reflexivity|]. split; [cbn [gn_train tn_bogies]; apply repeat_length|]. split; [|lia].
  unfold dict_train. cbn [gn_train tn_bogies td_cart_distances td_bogie_distances gn_positions]. rewrite repeat_length. unfold behind. rewrite map_length, seq_length. cbn [length slt_cart ct_bogie_distances]. lia.
Qed.
Print Assumptions C134_shared_refuted.

(** Refuted for cargo trains: the wagons are described as locomotives *)
Theorem C134_cargo_refuted lty wty start nl nw g : (1 <= nl)%nat -> (1 <= nw)%nat -> build_cargo_train lty wty start nl nw = Ok g ->
  exists p, train_class_to_dict g = Ok p /\ length (tn_carts (gn_train (dict_train p))) = (nl + nw)%nat /\
    forall i, (nl <= i < nl + nw)%nat -> exists c c', nth_error (tn_carts (gn_train g)) i = Some c /\ nth_error (tn_carts (gn_train (dict_train p))) i = Some c' /\ ct_mass c <> ct_mass c'.
Proof.
  intros hl hw hg. unfold build_cargo_train in hg. destruct (locomotive lty) as [l|] eqn:el; [|discriminate]. destruct (wagon wty) as [v|] eqn:ev; [|discriminate]. cbn [rbind] in hg.
  destruct nl as [|n]; [lia|]. cbn [Nat.eqb andb] in hg. apply (f_equal (fun x => match x with Ok y => y | Err _ => g end)) in hg. cbn beta iota in hg. subst g.
  assert (hm : vh_mass v <> vh_mass l).
  { destruct lty; try discriminate; destruct wty; try discriminate; cbn in el, ev; injection el as <-; injection ev as <-; unfold traxx, br189, cargo_TAPPS, cargo_FALNS5, cargo_SGNS; cbn [vh_mass]; rnum; lra. }
  eexists. split; [unfold train_class_to_dict; cbn [gn_train gn_lengths tn_carts vehicle_train seq map repeat app ct_bogies vehicle_cart]; reflexivity|].
  unfold dict_train. cbn [gn_train tn_carts td_cart_distances gn_positions vehicle_train]. rewrite app_length. unfold behind. rewrite !map_length, !seq_length. split; [reflexivity|].
  intros i hi. exists (vehicle_cart v (2 * S n) (i - S n)). eexists. split; [|split].
  - rewrite nth_error_app2 by (rewrite map_length, seq_length; lia). rewrite map_length, seq_length. rewrite nth_error_map. rewrite (nth_error_nth' _ 0%nat) by (rewrite seq_length; lia). rewrite seq_nth by lia. reflexivity.
  - rewrite nth_error_map. rewrite (nth_error_nth' _ 0%nat) by (rewrite seq_length; lia). rewrite seq_nth by lia. reflexivity.
  - cbn [dict_cart vehicle_cart ct_mass td_mass_cart]. exact hm.
Qed.
Print Assumptions C134_cargo_refuted.

(** without carts there is nothing to describe *)
Theorem C134_empty_refuted ty start g : set_train ty start 0 = Ok g -> train_class_to_dict g = Err ErrIndex.
Proof. intros h. destruct ty; try discriminate; injection h as <-; reflexivity. Qed.
Print Assumptions C134_empty_refuted.

(** a double decker of three carts *)
Example C134_case : exists g p, set_train DOUBLEDEKKER 100 3 = Ok g /\ train_class_to_dict g = Ok p /\ dict_train p = g /\ length (tn_bogies (gn_train g)) = 6%nat /\ td_mass_wheel p = 1500.
Proof.
  eexists. eexists. split; [reflexivity|]. split; [reflexivity|]. split; [reflexivity|]. split; [reflexivity|]. cbn -[IZR]. rnum. lra.
Qed.

(** the train of run_rose/run_optimisation.py 44-71 *)
Example C134_optimisation_case : let p := mkTrainDict [-125 / 100; 125 / 100] 2 [-10; 10] 28 [2655 / 100 + 14] 3500 6000 75500 310 128800 4800000 2708000 250 64000 in
  train_class_to_dict (dict_train p) = Ok p /\ one_kind (dict_train p) /\ on_wheels (dict_train p).
Proof.
  intros p. split; [apply C134_returns; discriminate|].
  assert (hrep : forall A (x : A) n a b, In a (repeat x n) -> In b (repeat x n) -> a = b) by (intros A x n a b ha hb; apply repeat_spec in ha, hb; congruence).
  split; [split|].
  - intros c c' [<-|[]] [<-|[]]. repeat split.
  - intros c [<-|[]]. repeat split.
  - reflexivity.
  - intros b b' hb hb'. exact (hrep _ (dict_bogie p) 2%nat b b' hb hb').
  - intros b hb. apply (repeat_spec 2) in hb. subst b. repeat split. intros w w' [<-|[<-|[]]] [<-|[<-|[]]]; reflexivity.
  - split; [reflexivity|]. intros l l' [<-|[]] [<-|[]]. reflexivity.
  - reflexivity.
  - split; [reflexivity|]. intros l l' hl hl'. exact (hrep _ 2 2%nat l l' hl hl').
  - split; [discriminate|]. split; [intros c [<-|[]]; discriminate|]. intros b hb. apply (repeat_spec 2) in hb. subst b. discriminate.
Qed.
