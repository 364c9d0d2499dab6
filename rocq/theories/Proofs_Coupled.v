(** * Proofs about the coupled system *)

From Coq Require Import Reals List Bool ZArith Arith Lia Lra Psatz.
From Verif Require Import Num PyBase Model_Geometry Model_System Model_Element Model_Moving Model_Coupled
  Spec_System Spec_Element Spec_Moving Spec_Coupled Proofs_System Proofs_Moving Proofs_Contact Proofs_Load.
Import ListNotations.
Local Open Scope R_scope.

(** ** contact law *)

Lemma npow_pos (x p : R) : 0 < x -> npow x p = Some (Rpower x p).
Proof. intros h. unfold npow, RPow. destruct (nltbP (lit 0) x); [reflexivity|]. rnum. lra. Qed.

Lemma npow_neg (x p : R) : x < 0 -> (forall z, p <> IZR z) -> npow x p = None.
Proof.
  intros h hp. unfold npow, RPow. destruct (nltbP (lit 0) x) as [h1|h1]; [rnum; lra|].
  destruct (neqbP x (lit 0)) as [h2|h2]; [rnum; lra|]. destruct (neqbP p (lit (nfloor p))) as [h3|h3]; [|reflexivity].
  exfalso. exact (hp _ h3).
Qed.

Lemma contact_force_ok (G p i du : R) : G <> 0 ->
  contact_force G p i du = Ok (nsign (penetration i du) * match npow (1 / G * penetration i du) p with Some v => v | None => 0 end).
Proof. intros h. unfold contact_force. destruct (neqbP G (lit 0)) as [e|e]; [exfalso; apply h; exact e|]. reflexivity. Qed.

(** any exponent that is not an integer *)
Lemma contact_law (G p i du : R) : 0 < G -> (forall z, p <> IZR z) ->
  contact_force G p i du = Ok (if Rlt_dec 0 (penetration i du) then Rpower (penetration i du / G) p else 0).
Proof.
  intros hG hp. rewrite contact_force_ok by lra. f_equal. set (d := penetration i du).
  assert (e : 1 / G * d = d / G) by (field; lra). rewrite e.
  destruct (Rlt_dec 0 d) as [h|h].
  - rewrite nsign_pos, npow_pos by (auto; apply Rdiv_lt_0_compat; auto). ring.
  - destruct (Req_dec d 0) as [z|z].
    + rewrite z, nsign_0. ring.
    + rewrite npow_neg; auto; [ring|]. unfold Rdiv. apply Ropp_lt_cancel. rewrite Ropp_0, Ropp_mult_distr_l.
      apply Rmult_lt_0_compat; [lra|]. apply Rinv_0_lt_compat; auto.
Qed.

Lemma not_integer_32 z : 3 / 2 <> IZR z.
Proof. intros h. assert (IZR 3 = IZR (2 * z)) by (rewrite mult_IZR; lra). apply eq_IZR in H. lia. Qed.

Definition hertz (x : R) : R := (x + Rabs x) / 2 * sqrt ((x + Rabs x) / 2).

Lemma pos_part x : (x + Rabs x) / 2 = Rmax x 0.
Proof. unfold Rabs, Rmax. destruct (Rcase_abs x); destruct (Rle_dec x 0); lra. Qed.

Lemma hertz_eq x : hertz x = if Rlt_dec 0 x then Rpower x (3 / 2) else 0.
Proof.
  unfold hertz. rewrite pos_part. destruct (Rlt_dec 0 x) as [h|h].
  - rewrite Rmax_left by lra. replace (3 / 2) with (1 + / 2) by lra. rewrite Rpower_plus, Rpower_1, Rpower_sqrt by auto. reflexivity.
  - rewrite Rmax_right by lra. rewrite sqrt_0. ring.
Qed.

Lemma hertz_continuous : continuity hertz.
Proof.
  intros x. unfold hertz.
  assert (c : continuity_pt (fun x => (x + Rabs x) / 2) x).
  { apply (continuity_pt_mult (plus_fct (fun x => x) Rabs) (fun _ => / 2) x).
    - apply (continuity_pt_plus (fun x => x) Rabs x); [apply derivable_continuous_pt, derivable_pt_id|apply Rcontinuity_abs].
    - apply continuity_pt_const. intros a b. reflexivity. }
  apply (continuity_pt_mult (fun x => (x + Rabs x) / 2) (fun x => sqrt ((x + Rabs x) / 2)) x c).
  apply (continuity_pt_comp (fun x => (x + Rabs x) / 2) sqrt x c). apply continuity_pt_sqrt. rewrite pos_part. apply Rmax_r.
Qed.

Lemma rpower_lt (x y p : R) : 0 < p -> 0 < x < y -> Rpower x p < Rpower y p.
Proof. intros hp [h1 h2]. unfold Rpower. apply exp_increasing. apply Rmult_lt_compat_l; auto. apply ln_increasing; auto. Qed.

(** positive integer exponents *)
Lemma contact_even (G i du : R) : 0 < G -> penetration i du < 0 ->
  exists f, contact_force G 2 i du = Ok f /\ f < 0.
Proof.
  intros hG hd. rewrite contact_force_ok by lra. eexists. split; [reflexivity|].
  rewrite nsign_neg by auto. set (x := 1 / G * penetration i du).
  assert (hx : x < 0). { unfold x. apply Ropp_lt_cancel. rewrite Ropp_0, Ropp_mult_distr_r. apply Rmult_lt_0_compat; [apply Rdiv_lt_0_compat; lra|lra]. }
  unfold npow, RPow. destruct (nltbP (lit 0) x) as [h1|h1]; [rnum; lra|]. destruct (neqbP x (lit 0)) as [h2|h2]; [rnum; lra|].
  assert (e : nfloor 2 = 2%Z). { change (Int_part 2 = 2%Z). unfold Int_part. rewrite <- (tech_up 2 3); [reflexivity|lra|lra]. }
  rewrite e. destruct (neqbP 2 (lit 2)) as [h3|h3]; [|exfalso; apply h3; reflexivity]. cbn [Z.even]. change (@nopp R RNum x) with (- x).
  assert (0 < Rpower (- x) 2) by (unfold Rpower; apply exp_pos). lra.
Qed.

Lemma contact_odd (G i du : R) : 0 < G ->
  contact_force G 1 i du = Ok (Rabs (penetration i du) / G).
Proof.
  intros hG. rewrite contact_force_ok by lra. f_equal. set (d := penetration i du). set (x := 1 / G * d).
  assert (hx : x * G = d) by (unfold x; field; lra). unfold Rabs. destruct (Rcase_abs d) as [hd|hd].
  - assert (hx' : x < 0) by (apply Rmult_lt_reg_r with G; lra).
    rewrite nsign_neg by auto. unfold npow, RPow. destruct (nltbP (lit 0) x) as [h1|h1]; [rnum; lra|]. destruct (neqbP x (lit 0)) as [h2|h2]; [rnum; lra|].
    assert (e : nfloor 1 = 1%Z). { change (Int_part 1 = 1%Z). unfold Int_part. rewrite <- (tech_up 1 2); [reflexivity|lra|lra]. }
    rewrite e. destruct (neqbP 1 (lit 1)) as [h3|h3]; [|exfalso; apply h3; reflexivity]. cbn [Z.even]. change (@nopp R RNum x) with (- x).
    change (@nopp R RNum (Rpower (- x) 1)) with (- Rpower (- x) 1).
    rewrite Rpower_1 by lra. unfold x. field. lra.
  - destruct (Req_dec d 0) as [z|z].
    + rewrite z, nsign_0. unfold Rdiv. ring.
    + clearbody d. assert (hd' : 0 < d) by (destruct hd as [hd|hd]; [exact hd|contradiction]).
      assert (hx' : 0 < x) by (apply Rmult_lt_reg_r with G; lra).
      rewrite nsign_pos, npow_pos by lra. rewrite Rpower_1 by lra. unfold x. field. lra.
Qed.

Lemma static_contact (G p load : R) : 0 < G -> 0 < p -> load <= 0 ->
  exists s, static_deformation G p load = Ok s /\ contact_force G p 0 s = Ok (Rabs load).
Proof.
  intros hG hp hl. unfold static_deformation. destruct (neqbP p (lit 0)) as [e|e]; [change (p = 0) in e; lra|].
  eexists. split; [reflexivity|]. rewrite contact_force_ok by lra. f_equal. unfold penetration. rnum. rewrite nabs_R.
  destruct (Req_dec load 0) as [z|z].
  - subst. rewrite nsign_0, Rabs_R0. match goal with |- nsign ?a * _ = _ => replace a with 0 by ring end. rewrite nsign_0. ring.
  - rewrite (nsign_neg load) by lra. rewrite (npow_pos (Rabs load)) by (apply Rabs_pos_lt; auto).
    set (w := Rpower (Rabs load) (1 / p)). assert (hw : 0 < w) by (unfold w, Rpower; apply exp_pos).
    match goal with |- nsign ?a * _ = _ => replace a with (G * w) by ring end.
    assert (0 < G * w) by (apply Rmult_lt_0_compat; auto). rewrite nsign_pos by auto.
    replace (1 / G * (G * w)) with w by (field; lra). rewrite npow_pos by auto. unfold w. rewrite Rpower_mult.
    replace (1 / p * p) with 1 by (field; lra). rewrite Rpower_1 by (apply Rabs_pos_lt; auto). ring.
Qed.

(** ** forces on the track *)

Lemma last_app_ne {A} (l l' : list A) d : l' <> [] -> last (l ++ l') d = last l' d.
Proof.
  intros h. induction l as [|a l IH]; auto. simpl. destruct (l ++ l') eqn:e; [|exact IH].
  apply app_eq_nil in e. destruct e. contradiction.
Qed.

Lemma last_default {A} (l : list A) d d' : l <> [] -> last l d = last l d'.
Proof. induction l as [|a l IH]; intros h; [contradiction|]. destruct l; auto. simpl. apply IH. discriminate. Qed.

Lemma last_cons {A} (a : A) l d : last (a :: l) d = last l a.
Proof. destruct l as [|b l]; [reflexivity|]. change (last (a :: b :: l) d) with (last (b :: l) d). apply last_default. discriminate. Qed.

Definition writes_at (k : nat) (ws : list (nat * R)) : list R := map snd (filter (fun w => Nat.eqb (fst w) k) ws).

Lemma write_all_last (ws : list (nat * R)) (f : list R) k : (forall w, In w ws -> (fst w < length f)%nat) ->
  nth k (write_all f (map fst ws) (map snd ws)) 0 = last (writes_at k ws) (nth k f 0).
Proof.
  revert f. induction ws as [|[i v] ws IH]; intros f h; [reflexivity|]. cbn [map fst snd write_all].
  rewrite IH by (intros w hw; rewrite lset_length; apply h; simpl; auto).
  rewrite nth_lset by (apply (h (i, v)); simpl; auto). unfold writes_at. cbn [filter fst].
  destruct (Nat.eqb i k); [|reflexivity]. cbn [map snd]. rewrite last_cons. reflexivity.
Qed.

Definition wheel_writes (cs : list (contact R)) (loads : list R) : list (nat * R) :=
  flat_map (fun cl => masked (cn_dofs (fst cl)) (map (fun s => s * snd cl) (cn_shape (fst cl)))) (combine cs loads).

Lemma writes_at_app k a b : writes_at k (a ++ b) = writes_at k a ++ writes_at k b.
Proof.
  unfold writes_at. rewrite <- map_app. f_equal. induction a as [|x a IH]; auto. simpl. destruct (Nat.eqb (fst x) k); simpl; congruence.
Qed.

Lemma wheel_writes_at cs loads k : writes_at k (wheel_writes cs loads) = contributions cs loads k.
Proof.
  unfold wheel_writes, contributions. induction (combine cs loads) as [|[c l] r IH]; auto. cbn [flat_map fst snd].
  rewrite writes_at_app, IH. f_equal. clear. unfold masked. generalize (cn_dofs c), (cn_shape c).
  induction l0 as [|o os IH]; intros [|x xs]; auto. cbn [map combine flat_map fst snd]. rewrite writes_at_app, IH. f_equal.
  destruct o as [i|]; auto. unfold writes_at. cbn [filter fst]. destruct (Nat.eqb i k); reflexivity.
Qed.

(** the written degrees of freedom do not depend on the loads *)
Lemma wheel_writes_dofs cs loads : (length cs <= length loads)%nat -> (forall c, In c cs -> four c) -> map fst (wheel_writes cs loads) = touched cs.
Proof.
  unfold wheel_writes, touched. revert loads. induction cs as [|c cs IH]; intros [|l loads] hl h4; auto; [simpl in hl; lia|].
  cbn [combine flat_map fst snd]. rewrite map_app, IH by (simpl in hl; try lia; intros; apply h4; simpl; auto). f_equal.
  destruct (h4 c (or_introl eq_refl)) as [h1 h2]. destruct c as [ds sh]. cbn [cn_dofs cn_shape] in *. clear - h1 h2.
  unfold masked. assert (e : length ds = length sh) by lia. clear h1 h2. revert sh e.
  induction ds as [|o ds IH]; intros [|x sh] e; try discriminate; auto. cbn [map combine flat_map fst snd]. rewrite map_app, IH by (simpl in e; lia).
  destruct o; reflexivity.
Qed.

Lemma writes_at_nil k ws : writes_at k ws = [] <-> ~ In k (map fst ws).
Proof.
  unfold writes_at. induction ws as [|[i v] ws IH]; simpl; [tauto|]. destruct (Nat.eqb_spec i k); simpl.
  - subst. split; [discriminate|]. intros h. exfalso. auto.
  - rewrite IH. tauto.
Qed.

Lemma contributions_nil cs loads k : (length cs <= length loads)%nat -> (forall c, In c cs -> four c) ->
  (contributions cs loads k = [] <-> ~ In k (touched cs)).
Proof. intros h1 h2. rewrite <- wheel_writes_at, writes_at_nil, wheel_writes_dofs by auto. tauto. Qed.

Lemma set_wheel_load_spec (track : list R) cs loads : (length cs <= length loads)%nat -> (forall c, In c cs -> four c) ->
  (forall i, In i (touched cs) -> (i < length track)%nat) ->
  exists track', set_wheel_load_on_track track cs loads = Ok track' /\ length track' = length track /\
    forall k, nth k track' 0 = last (contributions cs loads k) (nth k track 0).
Proof.
  intros h1 h2 h3. unfold set_wheel_load_on_track. change (flat_map _ (combine cs loads)) with (wheel_writes cs loads).
  assert (hw : forall w, In w (wheel_writes cs loads) -> (fst w < length track)%nat).
  { intros w hw. apply h3. rewrite <- (wheel_writes_dofs cs loads) by auto. apply in_map. auto. }
  replace (forallb _ _) with true by (symmetry; apply forallb_forall; intros w hi; apply Nat.ltb_lt; auto).
  eexists. split; [reflexivity|]. split; [apply write_all_length|]. intros k. rewrite write_all_last by auto. rewrite wheel_writes_at. reflexivity.
Qed.

Lemma set_wheel_load_range (track : list R) cs loads i : (length cs <= length loads)%nat -> (forall c, In c cs -> four c) ->
  In i (touched cs) -> (length track <= i)%nat -> set_wheel_load_on_track track cs loads = Err ErrIndex.
Proof.
  intros h1 h2 h3 h4. unfold set_wheel_load_on_track. change (flat_map _ (combine cs loads)) with (wheel_writes cs loads). destruct (forallb _ _) eqn:e; auto. exfalso.
  rewrite forallb_forall in e. rewrite <- (wheel_writes_dofs cs loads) in h3 by auto. apply in_map_iff in h3. destruct h3 as [w [<- hw]].
  apply e in hw. apply Nat.ltb_lt in hw. lia.
Qed.

Lemma contact_forces_spec (G p : R) (irr du : list R) : G <> 0 -> length irr = length du ->
  exists fs, contact_forces G p irr du = Ok fs /\ length fs = length du /\
    forall w, (w < length du)%nat -> contact_force G p (nth w irr 0) (nth w du 0) = Ok (nth w fs 0).
Proof.
  intros hG. revert du. induction irr as [|i irr IH]; intros [|d du] hl; try discriminate.
  - exists []. repeat split. simpl. lia.
  - cbn [contact_forces]. rewrite contact_force_ok by auto. cbn [rbind].
    destruct (IH du) as [fs [h1 [h2 h3]]]; [simpl in hl; lia|]. rewrite h1. cbn [rbind]. eexists. split; [reflexivity|].
    split; [simpl; lia|]. intros [|w] hw; [cbn [nth]; apply contact_force_ok; auto|]. cbn [nth]. apply h3. simpl in hw. lia.
Qed.

Lemma slice_all (F track : list R) : (length track <= length F)%nat -> slice_assign F 0 (length track) track = Ok (track ++ skipn (length track) F).
Proof. intros h. unfold slice_assign. rewrite Nat.min_l by auto. rewrite Nat.sub_0_r, Nat.eqb_refl. reflexivity. Qed.

Lemma gather_spec (u : list R) idx : (forall i, In i idx -> (i < length u)%nat) -> gather u idx = Ok (map (fun i => nth i u 0) idx).
Proof. intros h. unfold gather. replace (forallb _ _) with true by (symmetry; apply forallb_forall; intros; apply Nat.ltb_lt; auto). reflexivity. Qed.

Lemma disp_at_wheel_spec (u : list R) (c : contact R) : four c -> disp_at_wheel u c = rail_at u c.
Proof.
  destruct c as [ds sh]. intros [h1 h2]. cbn [cn_dofs cn_shape] in *.
  destruct ds as [|d0 [|d1 [|d2 [|d3 [|]]]]]; try discriminate. destruct sh as [|s0 [|s1 [|s2 [|s3 [|]]]]]; try discriminate.
  unfold disp_at_wheel, rail_at. cbn [cn_dofs cn_shape combine map nsum fst snd sumn nth]. unfold value_at.
  destruct d0, d1, d2, d3; rnum; ring.
Qed.

Lemma nsum_zero_at k (l : list (nat * R)) : (forall j x, In (j, x) l -> j <> k) -> nsum (map (at_index k) l) = 0.
Proof.
  induction l as [|[j x] l IH]; intros h; [reflexivity|]. cbn [map nsum]. rewrite IH by (intros; eapply h; simpl; eauto).
  unfold at_index. cbn [fst snd]. destruct (Nat.eqb_spec j k) as [e|e]; [exfalso; exact (h j x (or_introl eq_refl) e)|rnum; ring].
Qed.

Lemma at_index_sum k (idx : list nat) (vals : list R) : NoDup idx -> length vals = length idx ->
  forall w, (w < length idx)%nat -> nth w idx 0%nat = k -> nsum (map (at_index k) (combine idx vals)) = nth w vals 0.
Proof.
  revert vals. induction idx as [|i idx IH]; intros [|v vals] hd hl w hw e; simpl in hw, hl; try lia. inversion hd; subst.
  cbn [combine map nsum]. unfold at_index at 1. cbn [fst snd]. destruct w as [|w].
  - cbn [nth]. rewrite Nat.eqb_refl. rewrite nsum_zero_at; [rnum; ring|]. intros j x hin. intros ->. apply H1. eapply in_combine_l; eauto.
  - cbn [nth] in IH |- *. destruct (Nat.eqb_spec i (nth w idx 0%nat)) as [->|]; [exfalso; apply H1; apply nth_In; lia|].
    rewrite (IH vals) with (w := w) by (auto; lia). rnum. ring.
Qed.

Lemma update_contact_spec (ia : interaction R) (u F track : list R) : fits ia (length track) (length F) -> length u = length F ->
  exists F' track' fs, update_contact ia u F track = Ok (F', track') /\ length F' = length F /\ length track' = length track /\
    length fs = length (ia_train_dofs ia) /\
    (forall w, (w < length (ia_train_dofs ia))%nat -> contact_force (ia_G ia) (ia_pow ia) (nth w (ia_irr ia) 0) (wheel_gap ia u w) = Ok (nth w fs 0)) /\
    (forall w, (w < length (ia_train_dofs ia))%nat ->
       let d := nth w (ia_train_dofs ia) 0%nat in nth d F' 0 = nth d F 0 + nth w fs 0) /\
    (forall k, (length track <= k)%nat -> ~ In k (ia_train_dofs ia) -> nth k F' 0 = nth k F 0) /\
    (forall k, nth k track' 0 = last (contributions (ia_contacts ia) (map Ropp fs) k) (nth k track 0)) /\
    (forall k, (k < length track)%nat -> nth k F' 0 = nth k track' 0).
Proof.
  intros [hG [hnt [c1 [c2 [c3 [c4 [c5 [c6 c7]]]]]]]] hu. unfold update_contact.
  rewrite gather_spec by (intros i hi; rewrite hu; apply c7; auto). cbn [rbind].
  set (du := map (fun p : R * R * R => (fst (fst p) + snd (fst p) - snd p)%num) _).
  assert (hdl : length du = length (ia_train_dofs ia)).
  { unfold du. rewrite map_length, combine_length, combine_length. unfold disp_at_wheels. rewrite !map_length. lia. }
  assert (hdn : forall w, (w < length (ia_train_dofs ia))%nat -> nth w du 0 = wheel_gap ia u w).
  { intros w hw. unfold du. rewrite (nth_map0 _ _ _ (0, 0, 0)) by (rewrite combine_length, combine_length; unfold disp_at_wheels; rewrite !map_length; lia).
    rewrite combine_nth by (rewrite combine_length; unfold disp_at_wheels; rewrite !map_length; lia).
    rewrite combine_nth by (rewrite map_length; lia). cbn [fst snd]. unfold wheel_gap. rnum.
    rewrite (nth_map0 _ (ia_train_dofs ia) w 0%nat) by lia. unfold disp_at_wheels. rewrite (nth_map0 _ (ia_contacts ia) w (mkContact [] [])) by lia. rewrite disp_at_wheel_spec by (apply c4; apply nth_In; lia). reflexivity. }
  destruct (contact_forces_spec (ia_G ia) (ia_pow ia) (ia_irr ia) du hG) as [fs [f1 [f2 f3]]]; [lia|].
  rewrite f1. cbn [rbind]. change (@nopp R RNum) with Ropp.
  destruct (set_wheel_load_spec track (ia_contacts ia) (map Ropp fs)) as [track' [t1 [t2 t3]]]; auto; [rewrite map_length; lia|].
  rewrite t1. cbn [rbind]. assert (hfl : length (fancy_iadd F (ia_train_dofs ia) fs) = length F) by apply write_all_length.
  rewrite slice_all by lia. cbn [rbind]. eexists _, track', fs. split; [reflexivity|].
  assert (hk : forall k, (length track <= k)%nat -> nth k (track' ++ skipn (length track') (fancy_iadd F (ia_train_dofs ia) fs)) 0 =
      nth k F 0 + nsum (map (at_index k) (combine (ia_train_dofs ia) fs))).
  { intros k hk. rewrite app_nth2 by lia. rewrite nth_skipn. replace (length track' + (k - length track'))%nat with k by lia.
    apply fancy_iadd_nth; auto; [lia|]. intros i hi. apply c7. auto. }
  split; [rewrite app_length, skipn_length; lia|]. split; [exact t2|]. split; [lia|]. split; [|split; [|split; [|split]]].
  - intros w hw. rewrite <- hdn by auto. apply f3. lia.
  - intros w hw. rewrite hk by (apply c7; apply nth_In; auto). f_equal. apply at_index_sum; auto; lia.
  - intros k h1 h2. rewrite hk by auto. rewrite nsum_zero_at; [ring|]. intros j x hin ->. apply h2. eapply in_combine_l; eauto.
  - exact t3.
  - intros k h. rewrite app_nth1 by lia. reflexivity.
Qed.

(** ** no wheel shares a degree of freedom *)

Lemma writes_at_nodup k (ws : list (nat * R)) : NoDup (map fst ws) -> forall v, In (k, v) ws -> writes_at k ws = [v].
Proof.
  unfold writes_at. induction ws as [|[i x] ws IH]; intros hd v h; [destruct h|]. destruct h as [e|hin]; cbn [filter fst map] in *.
  - injection e as -> ->. rewrite Nat.eqb_refl. inversion hd; subst. cbn [map snd]. f_equal. apply writes_at_nil. auto.
  - inversion hd; subst. destruct (Nat.eqb_spec i k) as [->|]; [exfalso; apply H1; change k with (fst (k, v)); apply in_map; auto|]. apply IH; auto.
Qed.

Lemma combine_nth_le {A B} (l : list A) (m : list B) w a b : (w < length l)%nat -> (length l <= length m)%nat -> nth w (combine l m) (a, b) = (nth w l a, nth w m b).
Proof. revert m w. induction l as [|x l IH]; intros [|y m] w hw hl; simpl in hw, hl; try lia. destruct w; auto. simpl. apply IH; lia. Qed.

Lemma in_wheel_writes cs loads w j i : (length cs <= length loads)%nat -> (w < length cs)%nat -> four (nth w cs (mkContact [] [])) ->
  (j < 4)%nat -> nth j (cn_dofs (nth w cs (mkContact [] []))) None = Some i ->
  In (i, nth j (cn_shape (nth w cs (mkContact [] []))) 0 * nth w loads 0) (wheel_writes cs loads).
Proof.
  intros h1 h2 h3 h4 h5. unfold wheel_writes. apply in_flat_map. exists (nth w cs (mkContact [] []), nth w loads 0). split.
  - rewrite <- (combine_nth_le cs loads w (mkContact [] []) 0) by lia. apply nth_In. rewrite combine_length. lia.
  - cbn [fst snd]. destruct (nth w cs (mkContact [] [])) as [ds sh]. destruct h3 as [a b]. cbn [cn_dofs cn_shape] in *.
    destruct ds as [|d0 [|d1 [|d2 [|d3 [|]]]]]; try discriminate. destruct sh as [|s0 [|s1 [|s2 [|s3 [|]]]]]; try discriminate.
    unfold masked. cbn [map combine flat_map fst snd]. rewrite !in_app_iff.
    destruct j as [|[|[|[|j]]]]; try lia; cbn [nth] in *; subst; simpl; auto 10.
Qed.

Lemma distinct_contribution cs loads w j i : (length cs <= length loads)%nat -> (forall c, In c cs -> four c) -> NoDup (touched cs) ->
  (w < length cs)%nat -> (j < 4)%nat -> nth j (cn_dofs (nth w cs (mkContact [] []))) None = Some i ->
  contributions cs loads i = [nth j (cn_shape (nth w cs (mkContact [] []))) 0 * nth w loads 0].
Proof.
  intros h1 h2 h3 h4 h5 h6. rewrite <- wheel_writes_at. apply writes_at_nodup.
  - rewrite wheel_writes_dofs; auto.
  - apply in_wheel_writes; auto. apply h2. apply nth_In. auto.
Qed.

(** ** independence of earlier trials *)

Definition agree (cs : list (contact R)) (a b : list R) : Prop := length a = length b /\ forall k, ~ In k (touched cs) -> nth k a 0 = nth k b 0.

Lemma set_wheel_load_agree (a b : list R) cs loads : (length cs <= length loads)%nat -> (forall c, In c cs -> four c) -> agree cs a b ->
  set_wheel_load_on_track a cs loads = set_wheel_load_on_track b cs loads.
Proof.
  intros h1 h2 [h3 h4].
  destruct (forallb (fun i => Nat.ltb i (length a)) (touched cs)) eqn:e.
  - rewrite forallb_forall in e.
    destruct (set_wheel_load_spec a cs loads h1 h2) as [ta [a1 [a2 a3]]]; [intros i hi; apply Nat.ltb_lt; auto|].
    destruct (set_wheel_load_spec b cs loads h1 h2) as [tb [b1 [b2 b3]]]; [intros i hi; rewrite <- h3; apply Nat.ltb_lt; auto|].
    rewrite a1, b1. f_equal. apply (nth_ext _ _ 0 0); [lia|]. intros k hk. rewrite a3, b3.
    destruct (in_dec Nat.eq_dec k (touched cs)) as [hi|hi].
    + apply last_default. intros hc. apply (contributions_nil cs loads k h1 h2) in hc. contradiction.
    + rewrite h4 by auto. reflexivity.
  - assert (exists i, In i (touched cs) /\ (length a <= i)%nat) as [i [hi hl]].
    { clear - e. induction (touched cs) as [|x l IH]; [discriminate|]. simpl in e. destruct (Nat.ltb_spec x (length a)).
      - destruct (IH e) as [i [h1 h2]]. exists i. simpl. auto.
      - exists x. simpl. auto. }
    rewrite (set_wheel_load_range a cs loads i), (set_wheel_load_range b cs loads i); auto. lia.
Qed.

Lemma update_contact_agree ia u F a b nt n : fits ia nt n -> agree (ia_contacts ia) a b -> update_contact ia u F a = update_contact ia u F b.
Proof.
  intros [hG [hnt [c1 [c2 [c3 [c4 _]]]]]] h. unfold update_contact. destruct (gather u (ia_train_dofs ia)) as [uw|e] eqn:hu; [|reflexivity]. cbn [rbind].
  assert (hl : length uw = length (ia_train_dofs ia)).
  { unfold gather in hu. destruct (forallb _ _); [|discriminate]. injection hu as <-. apply map_length. }
  set (du := map _ _). assert (hd : length (ia_irr ia) = length du).
  { unfold du. rewrite map_length, !combine_length. unfold disp_at_wheels. rewrite map_length. lia. }
  destruct (contact_forces_spec (ia_G ia) (ia_pow ia) (ia_irr ia) du hG hd) as [fs [f1 [f2 _]]]. rewrite f1. cbn [rbind].
  rewrite (set_wheel_load_agree a b); auto. rewrite map_length. lia.
Qed.

Lemma update_contact_track ia u F a F' a' nt n : fits ia nt n -> update_contact ia u F a = Ok (F', a') -> agree (ia_contacts ia) a' a.
Proof.
  intros [hG [hnt [c1 [c2 [c3 [c4 _]]]]]] h. unfold update_contact in h. destruct (gather u (ia_train_dofs ia)) as [uw|e] eqn:hu; [|discriminate]. cbn [rbind] in h.
  assert (hl : length uw = length (ia_train_dofs ia)).
  { unfold gather in hu. destruct (forallb _ _); [|discriminate]. injection hu as <-. apply map_length. }
  set (du := map _ _) in h. assert (hd : length (ia_irr ia) = length du).
  { unfold du. rewrite map_length, !combine_length. unfold disp_at_wheels. rewrite map_length. lia. }
  destruct (contact_forces_spec (ia_G ia) (ia_pow ia) (ia_irr ia) du hG hd) as [fs [f1 [f2 _]]]. rewrite f1 in h. cbn [rbind] in h.
  assert (hlf : (length (ia_contacts ia) <= length (map (@nopp R RNum) fs))%nat) by (rewrite map_length; lia).
  destruct (forallb (fun i => Nat.ltb i (length a)) (touched (ia_contacts ia))) eqn:e.
  - rewrite forallb_forall in e. destruct (set_wheel_load_spec a (ia_contacts ia) (map (@nopp R RNum) fs) hlf c4) as [ta [a1 [a2 a3]]]; [intros i hi; apply Nat.ltb_lt; auto|].
    rewrite a1 in h. cbn [rbind] in h. destruct (slice_assign _ 0 _ ta) as [F2|]; [|discriminate]. cbn [rbind] in h. injection h as _ <-.
    split; [exact a2|]. intros k hk. rewrite a3. apply (contributions_nil (ia_contacts ia) (map (@nopp R RNum) fs) k hlf c4) in hk. rewrite hk. reflexivity.
  - assert (exists i, In i (touched (ia_contacts ia)) /\ (length a <= i)%nat) as [i [hi hla]].
    { clear - e. induction (touched (ia_contacts ia)) as [|x l IH]; [discriminate|]. simpl in e. destruct (Nat.ltb_spec x (length a)).
      - destruct (IH e) as [i [h1 h2]]. exists i. simpl. auto.
      - exists x. simpl. auto. }
    rewrite (set_wheel_load_range a _ _ i hlf c4 hi hla) in h. discriminate.
Qed.

Lemma agree_refl cs a : agree cs a a.
Proof. split; auto. Qed.
Lemma agree_trans cs a b c : agree cs a b -> agree cs b c -> agree cs a c.
Proof. intros [h1 h2] [h3 h4]. split; [lia|]. intros k hk. rewrite h2, h4 by auto. reflexivity. Qed.

(** trials within a time step *)
Definition trials (t : nat) (us : list (list R)) : list (event R) := map (Trial t) us.

Lemma trials_agree nt n ia t (us : list (list R)) : fits (ia t) nt n -> forall s s', run nt ia s (trials t us) = Ok s' ->
  cs_F s' = cs_F s /\ cs_conds s' = cs_conds s /\ cs_train s' = cs_train s /\ agree (ia_contacts (ia t)) (cs_track s') (cs_track s).
Proof.
  intros hf. induction us as [|u us IH]; intros s s' h.
  - injection h as <-. repeat split; auto.
  - cbn [trials map run] in h. destruct (coupled_iteration (ia t) s u) as [[F1 s1]|e] eqn:e1; [|discriminate]. cbn [rbind snd] in h.
    destruct (IH s1 s' h) as [a1 [a2 [a3 a4]]]. unfold coupled_iteration in e1.
    destruct (update_contact (ia t) u (cs_F s) (cs_track s)) as [[F2 t2]|e2] eqn:e3; [|discriminate]. cbn [rbind fst snd] in e1. injection e1 as _ <-.
    cbn [cs_F cs_conds cs_train cs_track] in *. repeat split; auto; [|intros k hk].
    + destruct a4 as [a4 _]. rewrite a4. apply (update_contact_track _ _ _ _ _ _ _ _ hf e3).
    + destruct a4 as [_ a4]. rewrite a4 by auto. apply (update_contact_track _ _ _ _ _ _ _ _ hf e3). auto.
Qed.

Definition iteration_value (ia : interaction R) (s : cstate R) (u : list R) : res (list R) := do q <- coupled_iteration ia s u ; Ok (fst q).

Lemma trials_independent nt n ia t (us : list (list R)) s s' u : fits (ia t) nt n -> run nt ia s (trials t us) = Ok s' ->
  iteration_value (ia t) s' u = iteration_value (ia t) s u.
Proof.
  intros hf h. destruct (trials_agree nt n ia t us hf s s' h) as [a1 [a2 [a3 a4]]]. unfold iteration_value, coupled_iteration.
  rewrite a1, (update_contact_agree (ia t) u (cs_F s) _ _ nt n hf a4). destruct (update_contact _ _ _ _) as [[F1 t1]|e]; reflexivity.
Qed.

Lemma slice_assign_length (l : list R) a b v l' : slice_assign l a b v = Ok l' -> length l' = length l.
Proof.
  unfold slice_assign. destruct (Nat.eqb_spec (length v) (Nat.min b (length l) - a)) as [e|e].
  - intros h. injection h as <-. rewrite !app_length, firstn_length, skipn_length. lia.
  - destruct v as [|x [|]]; try discriminate. intros h. injection h as <-. rewrite !app_length, firstn_length, repeat_length, skipn_length. lia.
Qed.

Lemma combine_rhs_length (F track train F' : list R) nt : combine_rhs F track train nt = Ok F' -> length F' = length F.
Proof.
  unfold combine_rhs. destruct (slice_assign F 0 nt track) as [F1|e] eqn:e1; [|discriminate]. cbn [rbind]. intros h.
  apply slice_assign_length in h. apply slice_assign_length in e1. lia.
Qed.

Lemma combine_rhs_spec (F track train : list R) : length F = (length track + length train)%nat ->
  combine_rhs F track train (length track) = Ok (track ++ train).
Proof.
  intros h. unfold combine_rhs. rewrite slice_all by lia. cbn [rbind]. unfold slice_assign.
  rewrite Nat.min_id. rewrite app_length, skipn_length.
  replace (length track + (length F - length track) - length track)%nat with (length train) by lia. rewrite Nat.eqb_refl.
  f_equal. rewrite firstn_app, firstn_all, Nat.sub_diag, firstn_O, app_nil_r. f_equal.
  rewrite skipn_all2 by (rewrite app_length, skipn_length; lia). apply app_nil_r.
Qed.

Lemma rhs_length n (cs : list (cond R)) : length (rhs n cs) = n.
Proof.
  unfold rhs. rewrite <- (repeat_length (@lit R _ 0) n) at 2. generalize (repeat (@lit R _ 0) n).
  induction cs as [|c cs IH]; intros f; auto. cbn [fold_left]. rewrite IH. unfold add_condition, fancy_iadd. apply write_all_length.
Qed.

Lemma run_inv nt ia (es : list (event R)) : forall s s', run nt ia s es = Ok s' ->
  Forall2 related (cs_conds s') (cs_conds s) /\ cs_train s' = cs_train s /\ length (cs_F s') = length (cs_F s).
Proof.
  induction es as [|[t|t u] es IH]; intros s s' h; cbn [run] in h.
  - injection h as <-. split; [apply F2_refl|auto].
  - destruct (coupled_time_step nt s t) as [s1|e] eqn:e1; [|discriminate]. cbn [rbind] in h. destruct (IH s1 s' h) as [a1 [a2 a3]].
    unfold coupled_time_step, update_time_step_rhs in e1. pose proof (update_conditions_indep (cs_conds s) (cs_conds s) t (F2_refl _)) as hu.
    destruct (update_conditions (cs_conds s) t) as [a|e]; cbn [rbind fst snd] in e1; [|discriminate].
    destruct (combine_rhs _ _ _ _) as [F1|e] eqn:e2; cbn [rbind] in e1; [|discriminate]. injection e1 as <-. cbn [cs_conds cs_train cs_F] in *.
    split; [apply (F2_trans _ a); tauto|]. split; [auto|]. apply combine_rhs_length in e2. lia.
  - unfold coupled_iteration in h. destruct (update_contact _ _ _ _) as [[F1 t1]|e]; cbn [rbind fst snd] in h; [|discriminate].
    destruct (IH _ s' h) as [a1 [a2 a3]]. cbn [cs_conds cs_train cs_F] in *. auto.
Qed.

(** one time step and one trial *)
Definition step_value (nt : nat) (ia : interaction R) (s : cstate R) (t : nat) (u : list R) : res (list R) :=
  do s1 <- coupled_time_step nt s t ; iteration_value ia s1 u.

Lemma run_independent nt ia (es : list (event R)) s s' t u : length (cs_F s) = (nt + length (cs_train s))%nat ->
  run nt ia s es = Ok s' -> step_value nt (ia t) s' t u = step_value nt (ia t) s t u.
Proof.
  intros hl h. destruct (run_inv nt ia es s s' h) as [a1 [a2 a3]]. unfold step_value, coupled_time_step.
  pose proof (rhs_indep nt (cs_conds s) (cs_conds s') t a1) as hr.
  assert (hlen : forall c f c', update_time_step_rhs nt c t = Ok (f, c') -> length f = nt).
  { intros c f c' e. unfold update_time_step_rhs in e. destruct (update_conditions c t); cbn [rbind] in e; [|discriminate]. injection e as <- _. apply rhs_length. }
  destruct (update_time_step_rhs nt (cs_conds s') t) as [[f' c']|e'] eqn:e1; destruct (update_time_step_rhs nt (cs_conds s) t) as [[f c]|e] eqn:e2; try tauto.
  - subst f'. cbn [rbind fst snd]. rewrite a2. pose proof (hlen _ _ _ e1) as hf.
    assert (hc : forall F, length F = (nt + length (cs_train s))%nat -> combine_rhs F f (cs_train s) nt = Ok (f ++ cs_train s)).
    { intros F hF. rewrite <- hf. apply combine_rhs_spec. lia. }
    rewrite !hc by lia. cbn [rbind]. unfold iteration_value, coupled_iteration. cbn [cs_F cs_track].
    destruct (update_contact _ _ _ _) as [[F1 t1]|e]; reflexivity.
  - subst. reflexivity.
Qed.

(** ** matrices and numbering *)

Lemma combine_matrices_spec nt ntot (track train : mat R) :
  (nt <= ntot)%nat -> mr track = nt -> mc track = nt -> mr train = (ntot - nt)%nat -> mc train = (ntot - nt)%nat ->
  exists m, combine_matrices nt ntot track train = Ok m /\ mr m = ntot /\ mc m = ntot /\
    (forall i j, (i < nt)%nat -> (j < nt)%nat -> me m i j = me track i j) /\
    (forall i j, (i < ntot - nt)%nat -> (j < ntot - nt)%nat -> me m (nt + i) (nt + j) = me train i j) /\
    (forall i j, (i < nt <= j)%nat \/ (j < nt <= i)%nat -> me m i j = 0).
Proof.
  intros h0 h1 h2 h3 h4. unfold combine_matrices, block_assign. cbn [mr mc mzero me]. rewrite h1, h2, Nat.sub_0_r, Nat.eqb_refl.
  destruct (Nat.leb_spec nt ntot); [|lia]. cbn [andb rbind mr mc me]. rewrite h3, h4, !Nat.eqb_refl, !Nat.leb_refl. cbn [andb].
  eexists. split; [reflexivity|]. cbn [mr mc me]. split; [reflexivity|]. split; [reflexivity|]. split; [|split].
  - intros i j hi hj. destruct (Nat.leb_spec nt i); [lia|]. cbn [andb]. destruct (Nat.ltb_spec i nt); [|lia]. destruct (Nat.ltb_spec j nt); [|lia].
    cbn [Nat.leb andb]. rewrite !Nat.sub_0_r. reflexivity.
  - intros i j hi hj. destruct (Nat.leb_spec nt (nt + i)); [|lia]. destruct (Nat.leb_spec nt (nt + j)); [|lia].
    destruct (Nat.ltb_spec (nt + i) ntot); [|lia]. destruct (Nat.ltb_spec (nt + j) ntot); [|lia]. cbn [andb]. f_equal; lia.
  - intros i j [hi|hi].
    + destruct (Nat.leb_spec nt i); [lia|]. cbn [andb]. destruct (Nat.ltb_spec j nt); [lia|]. rewrite !andb_false_r. reflexivity.
    + destruct (Nat.leb_spec nt j); [lia|]. rewrite !andb_false_r. cbn [andb]. destruct (Nat.ltb_spec i nt); [lia|]. rewrite !andb_false_r. reflexivity.
Qed.

Lemma combine_matrices_mismatch nt ntot (track train : mat R) : (nt <= ntot)%nat ->
  mr track <> nt \/ mc track <> nt \/ mr train <> (ntot - nt)%nat \/ mc train <> (ntot - nt)%nat -> combine_matrices nt ntot track train = Err ErrValue.
Proof.
  intros h0 h. unfold combine_matrices, block_assign. cbn [mr mc mzero me]. rewrite Nat.sub_0_r.
  destruct (Nat.eqb_spec (mr track) nt); [|reflexivity]. destruct (Nat.eqb_spec (mc track) nt); [|reflexivity].
  destruct (Nat.leb_spec nt ntot); [|lia]. cbn [andb rbind mr mc].
  destruct (Nat.eqb_spec (mr train) (ntot - nt)); [|reflexivity]. destruct (Nat.eqb_spec (mc train) (ntot - nt)); [|reflexivity]. exfalso. tauto.
Qed.

(** ** geometry *)

Lemma line_position (first : list (tri R)) t :
  (forall p, In p first -> ty p = 0 /\ tr p = 0) ->
  (forall t, (S t < length first)%nat -> tx (at_node first t) <= tx (at_node first (S t))) -> (t < length first)%nat ->
  node_position first t = tx (at_node first t) - tx (at_node first 0).
Proof.
  intros hline hmono ht. induction t as [|t IH]; [unfold node_position; cbn [sumn]; rnum; ring|].
  unfold node_position in *. rewrite sumn_diff, IH by lia. unfold dist3.
  destruct (hline (at_node first t)) as [a b]; [apply nth_In; lia|]. destruct (hline (at_node first (S t))) as [c d]; [apply nth_In; lia|].
  rewrite a, b, c, d. match goal with |- context [sqrt ?e] => replace e with (Rsqr (tx (at_node first (S t)) - tx (at_node first t))) by (unfold Rsqr; ring) end.
  rewrite sqrt_Rsqr by (specialize (hmono t ht); lra). ring.
Qed.

Lemma wheel_node_dist_spec (distances : list R) (first : list (tri R)) :
  first <> [] -> length distances = length first ->
  (forall p, In p first -> ty p = 0 /\ tr p = 0) ->
  (forall t, (S t < length first)%nat -> tx (at_node first t) <= tx (at_node first (S t))) ->
  length (wheel_node_dist distances first) = length first /\
  forall t, (t < length first)%nat -> nth t (wheel_node_dist distances first) 0 = nth t distances 0 - tx (at_node first t).
Proof.
  intros hne hl hline hmono. destruct (cum_nodes_spec first hne) as [c1 c2].
  destruct first as [|p first']; [contradiction|]. set (first := p :: first') in *.
  unfold wheel_node_dist. cbn [first]. fold first. split.
  - rewrite map_length, combine_length. lia.
  - intros t ht. rewrite (nth_map0 _ _ _ (0, 0)) by (rewrite combine_length; lia). rewrite combine_nth by lia. cbn [fst snd]. rnum.
    rewrite c2 by auto. destruct (hline p (or_introl eq_refl)) as [py pz].
    assert (hi : distance3 (T3 0 0 0) p * nsign (tx p) = tx p).
    { unfold distance3, sq. cbn [tx ty tr]. rnum. rewrite py, pz.
      match goal with |- context [sqrt ?a] => replace a with (Rsqr (tx p)) by (unfold Rsqr; ring) end. rewrite sqrt_Rsqr_abs.
      destruct (Rtotal_order (tx p) 0) as [h|[h|h]]; [rewrite nsign_neg, Rabs_left by auto; ring|rewrite h, Rabs_R0; ring|rewrite nsign_pos, Rabs_right by lra; ring]. }
    rewrite hi. assert (hn : node_position first t = tx (at_node first t) - tx p) by (apply (line_position first t hline hmono ht)).
    rewrite hn. ring.
Qed.

Lemma fold_min (l : list R) (x : R) : In (fold_left nmin l x) (x :: l) /\ forall y, In y (x :: l) -> fold_left nmin l x <= y.
Proof.
  revert x. induction l as [|a l IH]; intros x; cbn [fold_left].
  - split; [left; reflexivity|]. intros y [<-|[]]. lra.
  - destruct (IH (nmin x a)) as [h1 h2]. assert (hn : (nmin x a = x \/ nmin x a = a) /\ nmin x a <= x /\ nmin x a <= a).
    { unfold nmin. destruct (nlebP x a); lra. }
    destruct hn as [hn [hx ha]]. split.
    + destruct h1 as [h1|h1]; [|right; right; exact h1]. rewrite <- h1. destruct hn as [-> | ->]; simpl; auto.
    + assert (h3 : fold_left nmin l (nmin x a) <= nmin x a) by (apply h2; left; reflexivity).
      intros y [<-|[<-|hy]]; [lra|lra|]. apply h2. right. exact hy.
Qed.

Lemma fold_max (l : list R) (x : R) : In (fold_left nmax l x) (x :: l) /\ forall y, In y (x :: l) -> y <= fold_left nmax l x.
Proof.
  revert x. induction l as [|a l IH]; intros x; cbn [fold_left].
  - split; [left; reflexivity|]. intros y [<-|[]]. lra.
  - destruct (IH (nmax x a)) as [h1 h2]. assert (hn : (nmax x a = x \/ nmax x a = a) /\ x <= nmax x a /\ a <= nmax x a).
    { unfold nmax. destruct (nlebP a x); lra. }
    destruct hn as [hn [hx ha]]. split.
    + destruct h1 as [h1|h1]; [|right; right; exact h1]. rewrite <- h1. destruct hn as [-> | ->]; simpl; auto.
    + assert (h3 : nmax x a <= fold_left nmax l (nmax x a)) by (apply h2; left; reflexivity).
      intros y [<-|[<-|hy]]; [lra|lra|]. apply h2. right. exact hy.
Qed.

Lemma min_of_spec (l : list R) : l <> [] -> exists m, min_of l = Ok m /\ In m l /\ forall y, In y l -> m <= y.
Proof. destruct l as [|x l]; [contradiction|]. intros _. eexists. split; [reflexivity|]. apply fold_min. Qed.
Lemma max_of_spec (l : list R) : l <> [] -> exists m, max_of l = Ok m /\ In m l /\ forall y, In y l -> y <= m.
Proof. destruct l as [|x l]; [contradiction|]. intros _. eexists. split; [reflexivity|]. apply fold_max. Qed.

Lemma limits_of_spec (ws : list (list R)) : (forall w, In w ws -> w <> []) -> exists lim, limits_of ws = Ok lim /\
  (forall d, In d lim -> exists w, In w ws /\ In d w) /\
  (forall w d, In w ws -> In d w -> exists a b, In a lim /\ In b lim /\ a <= d <= b).
Proof.
  induction ws as [|w ws IH]; intros h.
  - exists []. split; [reflexivity|]. split; [intros d []|intros w d []].
  - destruct (IH ltac:(intros; apply h; right; auto)) as [lim [l1 [l2 l3]]].
    destruct (min_of_spec w) as [a [a1 [a2 a3]]]; [apply h; left; auto|]. destruct (max_of_spec w) as [b [b1 [b2 b3]]]; [apply h; left; auto|].
    cbn [limits_of]. rewrite a1, b1, l1. cbn [rbind]. eexists. split; [reflexivity|]. split.
    + intros d [<-|[<-|hd]]; [exists w; simpl; auto|exists w; simpl; auto|]. destruct (l2 d hd) as [v [v1 v2]]. exists v. simpl. auto.
    + intros v d [<-|hv] hd; [exists a, b; simpl; repeat split; auto|]. destruct (l3 v d hv hd) as [p [q [h1 [h2 h3]]]]. exists p, q. simpl. auto.
Qed.

Lemma check_position_spec (rail : list R) (ws : list (list R)) : rail <> [] -> (forall w, In w ws -> w <> []) ->
  (check_train_position rail ws = Err ErrValue /\ exists w d, In w ws /\ In d w /\ outside rail d) \/
  (check_train_position rail ws = Ok tt /\ forall w d, In w ws -> In d w -> ~ outside rail d).
Proof.
  intros h1 h2. unfold check_train_position. destruct (min_of_spec rail h1) as [lo [a1 [a2 a3]]]. destruct (max_of_spec rail h1) as [hi [b1 [b2 b3]]].
  destruct (limits_of_spec ws h2) as [lim [l1 [l2 l3]]]. rewrite a1, b1, l1. cbn [rbind]. unfold outside, float32_eps.
  change (@lit R RNum 1 / @lit R RNum (2 ^ 23))%num with (1 / 8388608). change (2 ^ 23) with (2 ^ 23) in *.
  assert (hp : 1 / 8388608 = / 2 ^ 23) by lra. rewrite hp. set (eps := / 2 ^ 23). change (@nsub R RNum lo eps) with (lo - eps). change (@nadd R RNum hi eps) with (hi + eps).
  destruct (existsb (fun d => nltb d (lo - eps)) lim) eqn:e1.
  - left. split; [reflexivity|]. apply existsb_exists in e1. destruct e1 as [d [d1 d2]]. destruct (nltbP d (lo - eps)); [|discriminate].
    destruct (l2 d d1) as [w [w1 w2]]. exists w, d. split; [auto|]. split; [auto|]. left. intros x hx. specialize (a3 x hx). lra.
  - destruct (existsb (fun d => nltb (hi + eps) d) lim) eqn:e2; cbn [orb].
    + left. split; [reflexivity|]. apply existsb_exists in e2. destruct e2 as [d [d1 d2]]. destruct (nltbP (hi + eps) d); [|discriminate].
      destruct (l2 d d1) as [w [w1 w2]]. exists w, d. split; [auto|]. split; [auto|]. right. intros x hx. specialize (b3 x hx). lra.
    + right. split; [reflexivity|]. intros w d hw hd ho. destruct (l3 w d hw hd) as [p [q [p1 [p2 p3]]]].
      assert (hlim : forall y, In y lim -> lo - eps <= y <= hi + eps).
      { intros y hy. split; apply Rnot_lt_le; intros hc.
        - assert (existsb (fun d => nltb d (lo - eps)) lim = true); [|congruence]. apply existsb_exists. exists y. split; auto. destruct (nltbP y (lo - eps)); auto.
        - assert (existsb (fun d => nltb (hi + eps) d) lim = true); [|congruence]. apply existsb_exists. exists y. split; auto. destruct (nltbP (hi + eps) y); auto. }
      pose proof (hlim p p1). pose proof (hlim q p2). destruct ho as [ho|ho]; [specialize (ho lo a2)|specialize (ho hi b2)]; lra.
Qed.

(** ** node lists of the rail *)

Lemma polyline_parts (parts : list (list nat * list (nat * nat))) :
  (forall p, In p parts -> polyline (fst p) (snd p)) ->
  length (fst (wheel_load_lists parts)) = (length (snd (wheel_load_lists parts)) + length parts)%nat.
Proof.
  unfold wheel_load_lists. cbn [fst snd]. induction parts as [|p parts IH]; intros h; auto. cbn [flat_map]. rewrite !app_length, IH by (intros; apply h; simpl; auto).
  destruct (h p (or_introl eq_refl)) as [e _]. simpl length. lia.
Qed.

Lemma interaction_forces_spec (g : R) masses (F : list R) dofs : (forall i, In i dofs -> (i < length F)%nat) -> length masses = length dofs ->
  exists r, interaction_forces g masses F dofs = Ok r /\ length r = length dofs /\
    forall w, (w < length dofs)%nat -> nth w r 0 = - g * nth w masses 0 - nth (nth w dofs 0%nat) F 0.
Proof.
  intros h1 h2. unfold interaction_forces. rewrite gather_spec by auto. cbn [rbind]. eexists. split; [reflexivity|].
  split; [rewrite map_length, combine_length, map_length; lia|]. intros w hw.
  rewrite (nth_map0 _ _ _ (0, 0)) by (rewrite combine_length, map_length; lia). rewrite combine_nth by (rewrite map_length; lia). cbn [fst snd].
  rewrite (nth_map0 _ dofs w 0%nat) by auto. reflexivity.
Qed.

(** ** contact element of a wheel *)

Lemma line_nth xs k : (k < length xs)%nat -> at_node (line xs) k = T3 (nth k xs 0) 0 0.
Proof. intros h. unfold at_node, line. apply (map_nth (fun x => T3 x 0 0)). Qed.

Lemma line_cum xs : rising xs -> xs <> [] -> length (cum_distances_nodes (line xs)) = length xs /\
  forall k, (k < length xs)%nat -> nth k (cum_distances_nodes (line xs)) 0 = nth k xs 0 - nth 0 xs 0.
Proof.
  intros hr hne. assert (hl : length (line xs) = length xs) by apply map_length.
  destruct (cum_nodes_spec (line xs)) as [c1 c2]; [destruct xs; [contradiction|discriminate]|]. split; [lia|]. intros k hk. rewrite c2 by lia.
  rewrite line_position; [| | |lia].
  - rewrite !line_nth by (destruct xs; [contradiction|simpl in *; lia]). reflexivity.
  - intros p hp. apply in_map_iff in hp. destruct hp as [x [<- _]]. auto.
  - intros t ht. rewrite hl in ht. rewrite !line_nth by lia. cbn [tx]. left. apply hr. auto.
Qed.

Lemma wheel_element (xs distances : list R) : rising xs -> (2 <= length xs)%nat -> distances <> [] ->
  0 <= nth 0 distances 0 < nth (length xs - 1) xs 0 - nth 0 xs 0 ->
  (forall t, (S t < length distances)%nat -> small_step xs (nth t distances 0) (nth (S t) distances 0)) ->
  exists els, set_active_elements (length xs - 1) (cum_distances_nodes (line xs)) distances = Ok els /\ length els = length distances /\
    forall t, (t < length distances)%nat -> contains xs (nth t els 0%nat) (nth t distances 0 + nth 0 xs 0).
Proof.
  intros hr h2 hd h0 hs. assert (hne : xs <> []) by (destruct xs; [simpl in h2; lia|discriminate]).
  destruct (line_cum xs hr hne) as [c1 c2]. set (nodes := cum_distances_nodes (line xs)) in *.
  destruct (set_active_spec nodes distances) as [els [e1 [e2 [_ [_ e3]]]]].
  - intros i hi. rewrite !c2 by lia. specialize (hr i ltac:(lia)). lra.
  - lia.
  - assumption.
  - rewrite c1, !c2 by lia. lra.
  - intros t ht. destruct (hs t ht) as [s1 s2]. split; [exact s1|]. intros k hk. rewrite !c2 by lia. specialize (s2 k ltac:(lia)). lra.
  - exists els. rewrite c1 in e1. split; [exact e1|]. split; [exact e2|]. intros t ht. destruct (e3 t ht) as [q1 [q2 q3]].
    split; [lia|]. rewrite c2 in q2 by lia. split; [lra|]. destruct q3 as [q3|q3]; [left|right; lia]. rewrite c2 in q3 by lia. lra.
Qed.
