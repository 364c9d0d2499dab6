(** * Property C139: tracks on a random field of soil *)

From Coq Require Import Reals List Bool ZArith Arith Lia Lra.
From Verif Require Import Num PyBase Model_Geometry Model_Element Model_Mesh Model_Accumulation Model_Misc Model_Demo Model_FieldSoil Spec_Mesh Spec_Structure Spec_Cut Spec_FieldSoil
  Proofs_System Proofs_Accumulation Proofs_Swarm Proofs_Field Proofs_Mesh Proofs_Cut Props_Cut.
Import ListNotations.
Local Open Scope R_scope.

Lemma field_places m : (2 <= m)%nat -> @field_nodes R _ m = map (read_at m) (seq 0 m).
Proof.
  intros h. apply (nth_ext _ _ 0 0); unfold field_nodes; rewrite !map_length, ls_length, ?seq_length; [reflexivity|]. intros j hj.
  rewrite (Proofs_Moving.nth_map0 _ _ _ 0) by (rewrite ls_length; exact hj). rewrite (Proofs_Moving.nth_map0 _ _ _ 0%nat) by (rewrite seq_length; exact hj). rewrite seq_nth by exact hj. cbn [Nat.add].
  rewrite nofnat_R. change (lit 0) with 0. rewrite ls_nth by assumption. unfold read_at. rewrite ndec_R. rnum. cbn [Z.pow Z.pow_pos Pos.iter]. 
  assert (0 < INR (m - 1)) by (apply lt_0_INR; lia). cbn. field. lra.
Qed.

(** ** where the field is read: up to one sleeper distance ahead of the sleeper *)
Theorem C139_place_refuted m j : (2 <= m)%nat -> (j < m)%nat -> nth j (@field_nodes R _ m) 0 = read_at m j /\
  0 <= read_at m j - INR j * (6 / 10) <= 6 / 10 /\ read_at m (m - 1) - INR (m - 1) * (6 / 10) = 6 / 10.
Proof.
  intros h hj. split.
  - rewrite field_places by exact h. rewrite (Proofs_Moving.nth_map0 _ _ _ 0%nat) by (rewrite seq_length; exact hj). rewrite seq_nth by exact hj. reflexivity.
  - assert (hm : 0 < INR (m - 1)) by (apply lt_0_INR; lia). assert (e : INR m = INR (m - 1) + 1) by (rewrite <- S_INR; f_equal; lia).
    assert (q : forall i, read_at m i - INR i * (6 / 10) = 6 / 10 * (INR i / INR (m - 1))) by (intros i; unfold read_at; rewrite e; field; lra). rewrite !q. split.
    + assert (0 <= INR j / INR (m - 1) <= 1). { split; [apply Rmult_le_pos; [apply pos_INR|left; apply Rinv_0_lt_compat; exact hm]|]. apply (Rmult_le_reg_r (INR (m - 1))); [exact hm|]. unfold Rdiv. rewrite Rmult_assoc, Rinv_l by lra. rewrite Rmult_1_r, Rmult_1_l. apply le_INR. lia. } lra.
    + field. lra.
Qed.
Print Assumptions C139_place_refuted.

Section Soil.
  Context (srf : R -> R -> R -> R -> Z -> list R -> list R) (z : R -> R).
  Hypothesis hz : draws srf z.

  Lemma one_field mean m : (2 <= m)%nat -> script_field srf mean m = Some (map (fun j => mean + Rabs mean / 4 * z (read_at m j)) (seq 0 m)).
  Proof.
    intros h. unfold script_field, create_rf, normal_moments. rewrite field_places by exact h. rnum. rewrite hz. f_equal. rewrite map_map. apply map_ext. intros j. f_equal. f_equal.
    unfold sq. rewrite ndec_R. rnum. replace (IZR 25 / IZR (10 ^ 2)) with (1 / 4) by (cbn; lra). change (mean * (1 / 4) * (mean * (1 / 4))) with (Rsqr (mean * (1 / 4))). rewrite sqrt_Rsqr_abs, Rabs_mult, (Rabs_right (1 / 4)) by lra. lra.
  Qed.

  Lemma stack_fields (f : R * R * nat -> R) stretches : (forall s, In s stretches -> (2 <= snd s)%nat) ->
    stacked srf (map (fun s => (f s, snd s)) stretches) = Some (map (fun q => f (fst q) + Rabs (f (fst q)) / 4 * z (read_at (snd (fst q)) (snd q))) (sleepers_of stretches)).
  Proof.
    induction stretches as [|s l IH]; intros h; [reflexivity|]. cbn [map stacked]. rewrite one_field by (apply h; left; reflexivity). rewrite IH by (intros x hx; apply h; right; exact hx).
    unfold sleepers_of. cbn [flat_map]. rewrite map_app, map_map. reflexivity.
  Qed.

  Lemma sleepers_total stretches : length (sleepers_of stretches) = list_sum (map snd stretches).
  Proof. unfold sleepers_of. induction stretches as [|s l IH]; [reflexivity|]. cbn [flat_map map list_sum fold_right]. rewrite app_length, map_length, seq_length, IH. reflexivity. Qed.

  Lemma assigned n (ks cs : list R) : length ks = length cs -> (n <= length ks)%nat -> exists l, assign_soil n (ks, cs) = Ok l /\ length l = n /\
    forall i, (i < n)%nat -> nth i l (0, 0) = (nth i ks 0, nth i cs 0).
  Proof.
    intros e h. unfold assign_soil. cbn [fst snd].
    destruct (mapr_ok (fun idx => do k <- at_idx ks idx ; do c <- at_idx cs idx ; Ok (k, c)) (seq 0 n) 0%nat) as [l hl].
    - intros i hi. rewrite seq_length in hi. rewrite seq_nth by exact hi. cbn [Nat.add]. rewrite (at_nth ks i 0), (at_nth cs i 0) by lia. cbn. eauto.
    - exists l. split; [exact hl|]. pose proof (mapr_length _ _ _ hl) as hn. rewrite seq_length in hn. split; [exact hn|]. intros i hi.
      pose proof (mapr_nth _ _ _ i 0%nat (0, 0) hl ltac:(rewrite seq_length; exact hi)) as q. rewrite seq_nth in q by exact hi. cbn [Nat.add] in q. rewrite (at_nth ks i 0), (at_nth cs i 0) in q by lia. cbn in q. congruence.
  Qed.

  (** ** every sleeper gets the values of its own number in its own stretch *)
  Theorem C139_values n stretches : (forall s, In s stretches -> (2 <= snd s)%nat) -> (n <= list_sum (map snd stretches))%nat ->
    exists soil, field_soil srf n stretches = Ok soil /\ length soil = n /\
    forall i k c m j, (i < n)%nat -> nth_error (sleepers_of stretches) i = Some (k, c, m, j) -> nth_error soil i = Some (varied k (z (read_at m j)), varied c (z (read_at m j))).
  Proof.
    intros h hn. unfold field_soil. rewrite (stack_fields (fun s => fst (fst s)) stretches h), (stack_fields (fun s => snd (fst s)) stretches h). unfold soil_parameters. rewrite !map_map.
    match goal with |- context [assign_soil n (?a, ?b)] => set (ks := a); set (cs := b) end.
    assert (l1 : length ks = list_sum (map snd stretches)) by (unfold ks; rewrite map_length; apply sleepers_total). assert (l2 : length cs = length ks) by (unfold cs, ks; rewrite !map_length; reflexivity).
    destruct (assigned n ks cs ltac:(lia) ltac:(lia)) as [l [a1 [a2 a3]]]. exists l. split; [exact a1|]. split; [exact a2|]. intros i k c m j hi hq.
    rewrite (nth_error_nth' l (0, 0)) by lia. rewrite a3 by exact hi. f_equal.
    assert (e6 : @ndec R _ 6 1 = 6 / 10) by (rewrite ndec_R; cbn; lra).
    f_equal; [unfold ks|unfold cs]; (apply nth_error_nth; rewrite nth_error_map, hq; cbn [option_map fst snd]; f_equal; unfold varied; rewrite e6; rnum; ring).
  Qed.

  (** too few values for the sleepers *)
  Theorem C139_too_few n stretches : (forall s, In s stretches -> (2 <= snd s)%nat) -> (list_sum (map snd stretches) < n)%nat -> field_soil srf n stretches = Err ErrIndex.
  Proof.
    intros h hn. unfold field_soil. rewrite (stack_fields (fun s => fst (fst s)) stretches h), (stack_fields (fun s => snd (fst s)) stretches h). unfold soil_parameters. rewrite !map_map.
    match goal with |- context [assign_soil n (?a, ?b)] => set (ks := a); set (cs := b) end.
    assert (l1 : length ks = list_sum (map snd stretches)) by (unfold ks; rewrite map_length; apply sleepers_total). assert (l2 : length cs = length ks) by (unfold cs, ks; rewrite !map_length; reflexivity).
    clearbody ks cs. unfold assign_soil. cbn [fst snd]. destruct (mapr _ (seq 0 n)) as [l|e] eqn:hl.
    - exfalso. pose proof (mapr_nth _ _ _ (length ks) 0%nat (0, 0) hl ltac:(rewrite seq_length; lia)) as q. rewrite seq_nth in q by lia. cbn [Nat.add] in q. apply rbind_ok in q. destruct q as [x [q _]]. apply at_idx_ok in q. assert (nth_error ks (length ks) = None) by (apply nth_error_None; lia). congruence.
    - f_equal. revert hl. generalize (seq 0 n). intros s. revert e. induction s as [|a s IH]; intros e hl; [discriminate|]. cbn [mapr] in hl. unfold at_idx in hl at 1 2. destruct (nth_error ks a); [|cbn in hl; congruence]. cbn [rbind] in hl. destruct (nth_error cs a); [|cbn in hl; congruence]. cbn [rbind] in hl. destruct (mapr _ s) as [l|e']; [discriminate|]. cbn in hl. injection hl as <-. apply IH. reflexivity.
  Qed.
End Soil.
Print Assumptions C139_values.
Print Assumptions C139_too_few.

(** ** the second stretch repeats the first, and damping repeats stiffness: there is only one random function *)
Theorem C139_repeats_refuted srf z k1 k2 c1 c2 m : draws srf z -> 0 < k1 -> 0 < k2 -> 0 < c1 -> 0 < c2 -> (2 <= m)%nat ->
  exists soil, field_soil srf (m + m) [(k1, c1, m); (k2, c2, m)] = Ok soil /\ length soil = (m + m)%nat /\
  forall j, (j < m)%nat -> exists k c k' c', nth_error soil j = Some (k, c) /\ nth_error soil (m + j) = Some (k', c') /\
    k' / k2 = k / k1 /\ c / c1 = k / k1 /\ c' / c2 = k' / k2.
Proof.
  intros hz h1 h2 h3 h4 hm. destruct (C139_values srf z hz (m + m) [(k1, c1, m); (k2, c2, m)]) as [soil [s1 [s2 s3]]].
  - intros s [<-|[<-|[]]]; exact hm.
  - cbn. lia.
  - exists soil. split; [exact s1|]. split; [exact s2|]. intros j hj.
    assert (q1 : nth_error (sleepers_of [(k1, c1, m); (k2, c2, m)]) j = Some (k1, c1, m, j)).
    { unfold sleepers_of. cbn [flat_map snd]. rewrite nth_error_app1 by (rewrite map_length, seq_length; exact hj). rewrite nth_error_map, (nth_error_nth' _ 0%nat) by (rewrite seq_length; exact hj). rewrite seq_nth by exact hj. reflexivity. }
    assert (q2 : nth_error (sleepers_of [(k1, c1, m); (k2, c2, m)]) (m + j) = Some (k2, c2, m, j)).
    { unfold sleepers_of. cbn [flat_map snd]. rewrite app_nil_r. rewrite nth_error_app2 by (rewrite map_length, seq_length; lia). rewrite map_length, seq_length. replace (m + j - m)%nat with j by lia. rewrite nth_error_map, (nth_error_nth' _ 0%nat) by (rewrite seq_length; exact hj). rewrite seq_nth by exact hj. reflexivity. }
    pose proof (s3 j _ _ _ _ ltac:(lia) q1) as p1. pose proof (s3 (m + j)%nat _ _ _ _ ltac:(lia) q2) as p2. do 4 eexists. split; [exact p1|]. split; [exact p2|].
    unfold varied. rewrite (Rabs_right k1), (Rabs_right k2), (Rabs_right c1), (Rabs_right c2) by lra. split; [|split]; field; lra.
Qed.
Print Assumptions C139_repeats_refuted.

(** ** the soil resists only where the drawn function is above -4 *)
Theorem C139_sign mean z : 0 < mean -> (0 < varied mean z <-> -4 < z).
Proof. intros h. unfold varied. rewrite Rabs_right by lra. split; intros q; [apply Rnot_le_lt; intros c|]; nra. Qed.
Print Assumptions C139_sign.
Theorem C139_negative_refuted mean n : 0 < mean -> (2 <= n)%nat -> exists srf z soil k c, draws srf z /\ field_soil srf n [(mean, mean, n)] = Ok soil /\ nth_error soil 1 = Some (k, c) /\ k < 0 /\ c < 0.
Proof.
  intros hm hn. set (z := fun _ : R => -5). set (srf := fun (variance _ _ m : R) (_ : Z) (l : list R) => map (fun x => m + sqrt variance * z x) l).
  assert (hz : draws srf z) by (intros v m l; reflexivity). destruct (C139_values srf z hz n [(mean, mean, n)]) as [soil [s1 [s2 s3]]].
  - intros s [<-|[]]. exact hn.
  - cbn. lia.
  - exists srf, z, soil. do 2 eexists. split; [exact hz|]. split; [exact s1|]. split.
    + apply (s3 1%nat mean mean n 1%nat); [lia|]. unfold sleepers_of. cbn [flat_map snd]. rewrite app_nil_r, nth_error_map, (nth_error_nth' _ 0%nat) by (rewrite seq_length; lia). rewrite seq_nth by lia. reflexivity.
    + unfold varied, z. rewrite Rabs_right by lra. lra.
Qed.
Print Assumptions C139_negative_refuted.

(** ** on the track of the scripts, soil part [i] is the spring under sleeper [i], which lies at [0.6 i] *)
Theorem C139_track h n : (2 <= n)%nat -> exists j c mesh, joins h (repeat (1%nat, 1) n) (6 / 10) 1 j c mesh /\ length (jn_sleepers j) = n /\ length (jn_soil j) = n /\
  forall i, (i < n)%nat -> exists nodes b, nth_error (jn_soil j) i = Some (nodes, [(nth i (jn_sleepers j) 0%nat, b)]) /\
    tx (c (nth i (jn_sleepers j) 0%nat)) = INR i * (6 / 10) /\ c b = T3 (INR i * (6 / 10)) (-2) 0.
Proof.
  intros hn. destruct (C133_one_by_one h (repeat 1 n) (6 / 10) 1) as [j [c [mesh [h1 [h2 h3]]]]].
  - rewrite repeat_length. exact hn.
  - intros x hx. apply repeat_spec in hx. lra.
  - lia.
  - cbn [INR]. lra.
  - rewrite repeat_length in h2, h3. assert (em : map (fun x : R => (1%nat, x)) (repeat 1 n) = repeat (1%nat, 1) n) by (clear; induction n as [|n IH]; [reflexivity|]; cbn; f_equal; exact IH). rewrite em in h1.
    assert (hseg : segments (repeat (1%nat, 1) n)). { split; [intros a b hin; apply repeat_spec in hin; injection hin as -> ->; split; [lia|lra]|]. unfold sleeper_count. clear - hn. assert (e : forall k, list_sum (map fst (repeat (1%nat, 1) k)) = k) by (induction k as [|k IH]; [reflexivity|]; cbn; f_equal; exact IH). rewrite e. exact hn. }
    exists j, c, mesh. split; [exact h1|]. split; [exact h2|]. pose proof (joins_laid h _ (6 / 10) 1 j c mesh ltac:(lia) ltac:(cbn [INR]; lra) hseg h1) as la.
    pose proof (la_soil _ _ _ _ _ _ la) as hs. pose proof (la_under _ _ _ _ _ _ la) as hu. assert (hl : length (jn_soil j) = n) by (rewrite <- (repeat_length (1%nat, 1) n); clear - hs; induction hs as [|x q ps l _ _ IH]; [reflexivity|]; cbn [length]; rewrite IH; reflexivity). split; [exact hl|].
    assert (ones : forall p, In p (jn_soil j) -> exists a b, snd p = [(a, b)] /\ c b = T3 (tx (c a)) (-2) 0).
    { intros p hp. clear - hs hp. remember (repeat (1%nat, 1) n) as l eqn:el. assert (hall : forall q, In q l -> q = (1%nat, 1)) by (intros q hq; rewrite el in hq; exact (repeat_spec _ _ _ hq)). clear el.
      induction hs as [|x q ps l [q1 [q2 q3]] hs IH]; [destruct hp|]. destruct hp as [<-|hp]; [|apply IH; [exact hp|intros u hu; apply hall; right; exact hu]].
      rewrite (hall q (or_introl eq_refl)) in *. cbn [fst snd] in *. destruct (snd x) as [|[a b] [|y r]]; try discriminate. exists a, b. split; [reflexivity|]. rewrite (q3 a b (or_introl eq_refl)). f_equal. lra. }
    assert (each : forall (l : list (list nat * list (nat * nat))) i, (forall p, In p l -> exists a b, snd p = [(a, b)]) -> forall x, nth_error l i = Some x -> exists b, snd x = [(nth i (map fst (flat_map snd l)) 0%nat, b)]).
    { induction l as [|p l IH]; intros i hp x hx; [destruct i; discriminate|]. destruct (hp p (or_introl eq_refl)) as [a [b e]]. destruct i as [|i]; cbn [nth_error] in hx.
      - injection hx as <-. exists b. cbn [flat_map]. rewrite e. reflexivity.
      - cbn [flat_map]. rewrite e. cbn [app map fst nth]. apply IH; [intros q hq; apply hp; right; exact hq|exact hx]. }
    intros i hi. destruct (nth_error (jn_soil j) i) as [[nodes els]|] eqn:en; [|apply nth_error_None in en; lia].
    destruct (each (jn_soil j) i ltac:(intros p hp; destruct (ones p hp) as [a [b [e _]]]; eauto) _ en) as [b eb]. rewrite hu in eb. cbn [snd] in eb. subst els. exists nodes, b. split; [reflexivity|].
    assert (hx : tx (c (nth i (jn_sleepers j) 0%nat)) = INR i * (6 / 10)) by (rewrite (h3 i hi); cbn [INR]; lra). split; [exact hx|].
    destruct (ones _ (nth_error_In _ _ en)) as [a' [b' [e1 e2]]]. cbn [snd] in e1. injection e1 as ea eb. rewrite <- ea, <- eb, hx in e2. exact e2.
Qed.
Print Assumptions C139_track.

(** ** the scripts: 500 sleepers on soft and 500 on stiff soil; a generator of the assumed kind *)
Example C139_case : exists srf z soil, draws srf z /\ field_soil srf 1000 [(132000000, 30000, 500%nat); (2140000000, 20000, 500%nat)] = Ok soil /\ length soil = 1000%nat /\ -4 < z 1.
Proof.
  set (z := fun x : R => x / 300 - 1). set (srf := fun (variance _ _ m : R) (_ : Z) (l : list R) => map (fun x => m + sqrt variance * z x) l).
  assert (hz : draws srf z) by (intros v m l; reflexivity). destruct (C139_repeats_refuted srf z 132000000 2140000000 30000 20000 500 hz) as [soil [s1 [s2 _]]]; [lra|lra|lra|lra|lia|].
  exists srf, z, soil. split; [exact hz|]. split; [exact s1|]. split; [exact s2|]. unfold z. lra.
Qed.
