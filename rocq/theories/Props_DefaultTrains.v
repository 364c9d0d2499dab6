(** * Properties of the generated trains (C54, C55, C75) *)

From Coq Require Import Reals List Bool ZArith Arith Lia Lra Psatz Permutation.
From Verif Require Import Num PyBase Model_Geometry Model_System Model_Element Model_Moving Model_Train Model_DefaultTrains
  Spec_Geometry Spec_System Spec_Train Spec_DefaultTrains Proofs_Geometry Proofs_System Proofs_Train Proofs_TrainMat Proofs_TrainLoad
  Props_Train Proofs_DefaultTrains Proofs_Unbalanced.
Import ListNotations.
Local Open Scope R_scope.

(** ** C54: passenger trains (and all others made by [set_train]) *)

(** consecutive carts are one cart length apart, counted from the start coordinate *)
Theorem C54_positions ty (start : R) nb g : set_train ty start nb = Ok g ->
  length (tn_carts (gn_train g)) = nb /\ length (gn_positions g) = nb /\ length (gn_lengths g) = nb /\
  (exists len, 0 < len /\ forall i, (i < nb)%nat -> nth i (gn_lengths g) 0 = len /\ nth i (gn_positions g) 0 = start - INR i * len) /\
  no_overlap (gn_positions g) (gn_lengths g).
Proof.
  intros h. apply train_cases in h. destruct h as [[_ h]|[_ [v [hv ->]]]].
  - rewrite (slt_shape _ _ _ h). cbn [gn_train tn_carts gn_positions gn_lengths]. rewrite map_length, seq_length, behind_length, repeat_length.
    pose proof slt_len as hl. split; [auto|]. split; [auto|]. split; [auto|]. split; [exists slt_length; split; [lra|]; intros i hi; rewrite behind_nth, nth_repeat0 by auto; auto|apply behind_no_overlap; lra].
  - cbn [vehicle_train gn_train tn_carts gn_positions gn_lengths]. rewrite map_length, seq_length, behind_length, repeat_length.
    pose proof (len_pos v hv). split; [auto|]. split; [auto|]. split; [auto|]. split; [exists (vh_length v); split; [auto|]; intros i hi; rewrite behind_nth, nth_repeat0 by auto; auto|apply behind_no_overlap; lra].
Qed.
Print Assumptions C54_positions.

(** every cart has two bogies and every bogie two equal wheels, symmetrically about the centre; the wheels are the bogie
    length apart *)
Definition symmetric_parts (g : generated R) : Prop :=
  forall c, In c (tn_carts (gn_train g)) ->
    (exists d, 0 < d /\ (ct_bogie_distances c = [- d; d] \/ ct_bogie_distances c = [d; - d])) /\ length (ct_bogies c) = 2%nat /\
    symmetric (ct_bogie_distances c) /\
    forall b, In b (ct_bogies c) ->
      let bg := bogie_of (gn_train g) b in
      symmetric (bg_wheel_distances bg) /\
      (exists w, 0 < w /\ bg_wheel_distances bg = [- w; w] /\ nth b (gn_bogie_lengths g) 0 = 2 * w) /\ (exists m, bg_wheels bg = [m; m]).

Lemma symmetric_two a b : a = - b -> symmetric [a; b].
Proof. intros ->. unfold symmetric. cbn. rewrite Ropp_involutive. reflexivity. Qed.

Lemma nth_repeat_app1 (x y : R) n m b : (b < n)%nat -> nth b (repeat x n ++ repeat y m) 0 = x.
Proof. intros h. rewrite app_nth1 by (rewrite repeat_length; auto). apply nth_repeat0. auto. Qed.

Theorem C54_symmetric ty (start : R) nb g : set_train ty start nb = Ok g -> symmetric_parts g.
Proof.
  intros h c hc. apply train_cases in h. apply In_nth_error in hc. destruct hc as [q hc]. destruct h as [[_ h]|[_ [v [hv ->]]]].
  - pose proof slt_len as hl. pose proof (slt_enough _ _ _ h) as hn. apply (s_cart _ _ _ h) in hc. destruct hc as [hq ->]. cbn [slt_cart ct_bogie_distances ct_bogies].
    split; [exists (slt_length / 2); rnum; split; [lra|right; f_equal; f_equal; lra]|]. split; [reflexivity|].
    split; [apply symmetric_two; rnum; lra|]. intros b hb.
    assert (hb' : (b < nb + 1)%nat) by (destruct hb as [<-|[<-|[]]]; lia). cbv zeta. rewrite (s_bogie _ _ _ h) by exact hb'.
    split; [apply symmetric_two; rnum; lra|].
    split; [|exists 1500; reflexivity]. exists (14 / 10). split; [lra|]. split; [cbn [slt_bogie bg_wheel_distances]; rewrite ndec_R; rnum; cbn; repeat f_equal; lra|].
    rewrite (slt_shape _ _ _ h). cbn [gn_bogie_lengths]. rewrite nth_repeat0 by auto. rewrite ndec_R. rnum. cbn. lra.
  - destruct hv as [h1 [h2 [h3 [h4 _]]]]. unfold tol in *. apply v_cart in hc. destruct hc as [hq ->]. cbn [vehicle_cart ct_bogie_distances ct_bogies].
    split; [exists (vh_bogie v); split; [lra|left; reflexivity]|]. split; [reflexivity|]. split; [apply symmetric_two; rnum; lra|].
    intros b hb. assert (hb' : (b < 2 * nb)%nat) by (destruct hb as [<-|[<-|[]]]; lia). cbv zeta. rewrite (v_bogie v start nb b hb').
    split; [apply symmetric_two; rnum; lra|].
    split; [|exists (vh_wmass v); reflexivity]. exists (vh_wheel v). split; [lra|]. split; [reflexivity|]. cbn [vehicle_train gn_bogie_lengths]. rewrite nth_repeat0 by auto. exact h4.
Qed.
Print Assumptions C54_symmetric.

(** all bogies and wheels are listed once and at the position at which every cart sees them *)
Definition placed (g : generated R) (n : nat) : Prop :=
  forall none,
    let bs := get_bogies (gn_train g) (bogie_places g none) in
    let ws := get_wheels (gn_train g) (bogie_places g none) (wheel_places g none) in
    lists_bogies (gn_train g) bs /\ length bs = n /\ lists_wheels (gn_train g) ws /\ length ws = (2 * n)%nat /\
    forall b, In b bs -> carried (gn_train g) b = 1 /\
      (forall x, seen_at g b x <-> x = bogie_places g none b) /\
      (forall i, (i < 2)%nat -> wheel_places g none (b, i) = bogie_places g none b + nth i (bg_wheel_distances (bogie_of (gn_train g) b)) 0).

Lemma placed_of g n place w :
  length (gn_positions g) = length (tn_carts (gn_train g)) ->
  (forall c, In c (tn_carts (gn_train g)) -> length (ct_bogie_distances c) = length (ct_bogies c)) ->
  (forall b x, seen_at g b x <-> (b < n)%nat /\ x = place b) ->
  (forall b, (b < n)%nat -> length (bg_wheels (bogie_of (gn_train g) b)) = 2%nat /\ bg_wheel_distances (bogie_of (gn_train g) b) = [- w b; w b]) ->
  (forall b, (b < n)%nat -> tol < w b) ->
  (forall a b, (a < n)%nat -> (b < n)%nat -> a <> b -> w a + w b + 2 * tol < Rabs (place a - place b)) ->
  (forall b, (b < n)%nat -> carried (gn_train g) b = 1) -> placed g n.
Proof.
  intros h1 h2 h3 h4 h5 h6 h7 none bs ws.
  assert (hb : lists_bogies (gn_train g) bs) by (eapply part_bogies; eassumption).
  assert (hw : lists_wheels (gn_train g) ws) by (eapply part_wheels; eassumption).
  split; [exact hb|]. split; [eapply part_count; eassumption|]. split; [exact hw|]. split; [eapply part_wheel_count; eassumption|].
  intros b hin. apply hb in hin. apply (part_in g n place h3) in hin. split; [auto|]. split; [|reflexivity].
  intros x. rewrite h3, (part_places g n place h1 h2 h3) by auto. tauto.
Qed.

Theorem C54_parts ty (start : R) nb g : set_train ty start nb = Ok g ->
  placed g (if match ty with SPRINTER_SLT => true | _ => false end then nb + 1 else 2 * nb).
Proof.
  intros h. apply train_cases in h. destruct h as [[-> h]|[hne [v [hv ->]]]].
  - destruct (s_lengths _ _ _ h) as [l1 l2]. apply (placed_of g (nb + 1) (s_place start) (fun _ => 14 / 10)); auto.
    + exact (s_seen _ _ _ h).
    + intros b hb. rewrite (s_bogie _ _ _ h) by exact hb. split; [reflexivity|]. cbn [slt_bogie bg_wheel_distances]; rewrite ndec_R; rnum; cbn; repeat f_equal; lra.
    + intros b hb. unfold tol. lra.
    + intros a b _ _ hab. apply s_apart. exact hab.
    + intros b hb. apply (slt_carried start nb g b h hb).
  - replace (match ty with SPRINTER_SLT => true | _ => false end) with false by (destruct ty; auto; congruence).
    destruct (v_lengths v start nb) as [l1 l2]. apply (placed_of _ (2 * nb) (v_place v start) (fun _ => vh_wheel v)); auto.
    + exact (v_seen v start nb).
    + intros b hb. rewrite (v_bogie v start nb b hb). split; reflexivity.
    + intros b hb. apply hv.
    + intros a b _ _ hab. pose proof (v_apart v start hv a b hab). lra.
    + intros b hb. apply own_carried; [exact (vehicle_own v start nb)|]. rewrite map_length, seq_length. exact hb.
Qed.
Print Assumptions C54_parts.

(** sharing: neighbouring carts of the articulated train have exactly one bogie in common, the carts of all others none *)
Theorem C54_sharing ty (start : R) nb g q c q' c' : set_train ty start nb = Ok g -> (q < q')%nat ->
  nth_error (tn_carts (gn_train g)) q = Some c -> nth_error (tn_carts (gn_train g)) q' = Some c' ->
  if (match ty with SPRINTER_SLT => true | _ => false end) && Nat.eqb q' (S q)
  then exists a b d, ct_bogies c = [a; b] /\ ct_bogies c' = [b; d] /\ a <> b /\ b <> d /\ a <> d
  else forall b, ~ (In b (ct_bogies c) /\ In b (ct_bogies c')).
Proof.
  intros h hq h1 h2. apply train_cases in h. destruct h as [[-> h]|[hne [v [hv ->]]]].
  - apply (s_cart _ _ _ h) in h1, h2. destruct h1 as [q1 ->], h2 as [q2 ->]. cbn [slt_cart ct_bogies andb]. destruct (Nat.eqb_spec q' (S q)) as [->|ne].
    + exists q, (q + 1)%nat, (q + 2)%nat. split; [reflexivity|]. split; [f_equal; [lia|f_equal; lia]|]. lia.
    + intros b [hb1 hb2]. destruct hb1 as [<-|[<-|[]]], hb2 as [e|[e|[]]]; lia.
  - replace (match ty with SPRINTER_SLT => true | _ => false end) with false by (destruct ty; auto; congruence). cbn [andb].
    apply v_cart in h1, h2. destruct h1 as [q1 ->], h2 as [q2 ->]. cbn [vehicle_cart ct_bogies].
    intros b [hb1 hb2]. destruct hb1 as [<-|[<-|[]]], hb2 as [e|[e|[]]]; lia.
Qed.
Print Assumptions C54_sharing.

(** wheels stay within the own cart, except those of the articulated train, whose bogies are at the ends of the carts *)
Theorem C54_inside ty (start : R) nb g q c i b j : set_train ty start nb = Ok g ->
  nth_error (tn_carts (gn_train g)) q = Some c -> nth_error (ct_bogies c) i = Some b -> (j < 2)%nat ->
  if match ty with SPRINTER_SLT => true | _ => false end then Rabs (nth i (ct_bogie_distances c) 0) = nth q (gn_lengths g) 0 / 2
  else Rabs (nth i (ct_bogie_distances c) 0 + nth j (bg_wheel_distances (bogie_of (gn_train g) b)) 0) < nth q (gn_lengths g) 0 / 2.
Proof.
  intros h hc hi hj. apply train_cases in h. destruct h as [[-> h]|[hne [v [hv ->]]]].
  - apply (s_cart _ _ _ h) in hc. destruct hc as [hq ->]. rewrite (slt_shape _ _ _ h). cbn [gn_lengths]. rewrite nth_repeat0 by auto.
    pose proof slt_len as hl. destruct i as [|[|i]]; cbn [slt_cart ct_bogie_distances nth]; rnum; [rewrite Rabs_right; lra|rewrite Rabs_left; lra|].
    cbn [slt_cart ct_bogies nth_error] in hi. destruct i; discriminate.
  - replace (match ty with SPRINTER_SLT => true | _ => false end) with false by (destruct ty; auto; congruence).
    apply v_cart in hc. destruct hc as [hq ->]. cbn [vehicle_cart ct_bogies] in hi. assert (hb : (b < 2 * nb)%nat).
    { destruct i as [|[|i]]; cbn [nth_error] in hi; [inversion hi; lia|inversion hi; lia|destruct i; discriminate]. }
    rewrite (v_bogie v start nb b hb). cbn [vehicle_train gn_lengths]. rewrite nth_repeat0 by auto. destruct hv as [h1 [h2 [h3 _]]]. unfold tol in *.
    apply Rabs_def1; destruct i as [|[|i]]; try (cbn [nth_error] in hi; destruct i; discriminate); destruct j as [|[|j]]; try lia;
      cbn [vehicle_cart ct_bogie_distances vehicle_bogie bg_wheel_distances nth]; rnum; lra.
Qed.
Print Assumptions C54_inside.

(** every number of carts is accepted, except that the articulated train needs two *)
Theorem C54_total ty (start : R) nb :
  (exists g, set_train ty start nb = Ok g) <-> (ty = SPRINTER_SLT -> (2 <= nb)%nat).
Proof.
  destruct ty; cbn [set_train]; try (split; [intros _ e; discriminate|intros _; eexists; reflexivity]).
  unfold slt_train. destruct (Nat.ltb_spec nb 2).
  - split; [intros [g e]; discriminate|]. intros h. specialize (h eq_refl). lia.
  - split; [auto|]. intros _. eexists. reflexivity.
Qed.
Print Assumptions C54_total.

Theorem C54_one_cart (start : R) nb : (nb < 2)%nat -> set_train SPRINTER_SLT start nb = Err ErrValue.
Proof. intros h. cbn [set_train]. unfold slt_train. destruct (Nat.ltb_spec nb 2); [reflexivity|lia]. Qed.
Print Assumptions C54_one_cart.

Example C54_case : exists g, set_train SPRINTER_SLT (30 : R) 3 = Ok g /\ length (tn_carts (gn_train g)) = 3%nat /\
  map (@ct_bogies R) (tn_carts (gn_train g)) = [[0; 1]; [1; 2]; [2; 3]]%nat /\ seen_at g 1 (30 - 1557 / 200).
Proof.
  eexists. split; [reflexivity|]. split; [reflexivity|]. split; [reflexivity|].
  apply (proj2 (s_seen 30 3 _ eq_refl 1 (30 - 1557 / 200))). split; [lia|]. unfold s_place. cbn [INR]. lra.
Qed.

(** ** C55: cargo trains *)

(** one locomotive (or no wagons): the vehicles do not overlap *)
Theorem C55_no_overlap_partial lty wty (start : R) nl nw g : build_cargo_train lty wty start nl nw = Ok g -> (nl = 1 \/ nw = 0)%nat ->
  no_overlap (gn_positions g) (gn_lengths g).
Proof. intros h hn. apply cargo_cases in h. destruct h as [l [w [_ [_ [hl [hw [_ ->]]]]]]]. cbn [gn_positions gn_lengths]. apply cargo_clear; auto. Qed.
Print Assumptions C55_no_overlap_partial.

(** two or more locomotives and at least one wagon: they always overlap *)
Theorem C55_overlap_refuted lty wty (start : R) nl nw g : build_cargo_train lty wty start nl nw = Ok g -> (2 <= nl)%nat -> (1 <= nw)%nat ->
  ~ no_overlap (gn_positions g) (gn_lengths g).
Proof. intros h h1 h2. apply cargo_cases in h. destruct h as [l [w [_ [_ [hl [hw [_ ->]]]]]]]. cbn [gn_positions gn_lengths]. apply cargo_overlap; auto. Qed.
Print Assumptions C55_overlap_refuted.

(** the locomotives are coupled to each other, the wagons to each other and to the first locomotive *)
Theorem C55_positions lty wty (start : R) nl nw g : build_cargo_train lty wty start nl nw = Ok g ->
  length (tn_carts (gn_train g)) = (nl + nw)%nat /\ length (gn_positions g) = (nl + nw)%nat /\ length (gn_lengths g) = (nl + nw)%nat /\
  exists ll lw, 0 < ll /\ 0 < lw /\
    (forall i, (i < nl)%nat -> nth i (gn_lengths g) 0 = ll /\ nth i (gn_positions g) 0 = start - INR i * ll) /\
    (forall i, (i < nw)%nat -> nth (nl + i) (gn_lengths g) 0 = lw /\ nth (nl + i) (gn_positions g) 0 = start - (ll + lw) / 2 - INR i * lw).
Proof.
  intros h. apply cargo_cases in h. destruct h as [l [w [_ [_ [hl [hw [_ ->]]]]]]]. cbn [gn_train tn_carts gn_positions gn_lengths].
  rewrite cargo_count, pos_count, app_length, !repeat_length. split; [reflexivity|]. split; [reflexivity|]. split; [reflexivity|].
  exists (vh_length l), (vh_length w). split; [apply len_pos; auto|]. split; [apply len_pos; auto|]. split; intros i hi.
  - rewrite loco_len, loco_pos by auto. auto.
  - rewrite wagon_len, wagon_pos by auto. split; [reflexivity|lra].
Qed.
Print Assumptions C55_positions.

Lemma cargo_bogie (l w : vehicle R) nl nw (carts : list (cart R)) b : (b < 2 * (nl + nw))%nat ->
  bogie_of (mkTrain carts (repeat (vehicle_bogie l) (2 * nl) ++ repeat (vehicle_bogie w) (2 * nw))) b = if Nat.ltb b (2 * nl) then vehicle_bogie l else vehicle_bogie w.
Proof.
  intros hb. unfold bogie_of. cbn [tn_bogies]. destruct (Nat.ltb_spec b (2 * nl)) as [c|c].
  - rewrite app_nth1 by (rewrite repeat_length; auto). rewrite (nth_indep _ _ (vehicle_bogie l)) by (rewrite repeat_length; auto). apply nth_repeat.
  - rewrite app_nth2 by (rewrite repeat_length; auto). rewrite (nth_indep _ _ (vehicle_bogie w)) by (rewrite !repeat_length; lia). apply nth_repeat.
Qed.

(** the parts of every vehicle are its own and symmetric, whatever the numbers of locomotives and wagons *)
Theorem C55_parts lty wty (start : R) nl nw g : build_cargo_train lty wty start nl nw = Ok g ->
  symmetric_parts g /\ flat_map (@ct_bogies R) (tn_carts (gn_train g)) = seq 0 (2 * (nl + nw)) /\
  forall b, (b < 2 * (nl + nw))%nat -> carried (gn_train g) b = 1.
Proof.
  intros h. apply cargo_cases in h. destruct h as [l [w [_ [_ [hl [hw [_ ->]]]]]]]. split; [|split].
  - intros c hc. apply In_nth_error in hc. destruct hc as [q hc]. cbn [gn_train tn_carts] in hc. apply c_cart in hc.
    assert (hc' : exists v first i, sane v /\ c = vehicle_cart v first i /\ forall b, In b (ct_bogies c) -> (b < 2 * (nl + nw))%nat /\
       (if Nat.ltb b (2 * nl) then vehicle_bogie l else vehicle_bogie w) = vehicle_bogie v /\ nth b (repeat (vh_blength l) (2 * nl) ++ repeat (vh_blength w) (2 * nw)) 0 = vh_blength v).
    { destruct hc as [[hq ->]|[hq ->]].
      - exists l, 0%nat, q. split; [exact hl|]. split; [reflexivity|]. intros b hb. assert (hb' : (b < 2 * nl)%nat) by (destruct hb as [<-|[<-|[]]]; lia).
        split; [lia|]. destruct (Nat.ltb_spec b (2 * nl)); [|lia]. split; [reflexivity|]. rewrite app_nth1 by (rewrite repeat_length; auto). apply nth_repeat0; auto.
      - exists w, (2 * nl)%nat, (q - nl)%nat. split; [exact hw|]. split; [reflexivity|]. intros b hb. assert (hb' : (2 * nl <= b < 2 * (nl + nw))%nat) by (destruct hb as [<-|[<-|[]]]; lia).
        split; [lia|]. destruct (Nat.ltb_spec b (2 * nl)); [lia|]. split; [reflexivity|]. rewrite app_nth2 by (rewrite repeat_length; lia). rewrite repeat_length. apply nth_repeat0; lia. }
    destruct hc' as [v [first [i [hv [-> hb]]]]]. destruct hv as [h1 [h2 [h3 [h4 _]]]]. unfold tol in *. cbn [vehicle_cart ct_bogie_distances ct_bogies] in hb |- *.
    split; [exists (vh_bogie v); split; [lra|left; reflexivity]|]. split; [reflexivity|]. split; [apply symmetric_two; rnum; lra|].
    intros b hin. destruct (hb b hin) as [hb1 [hb2 hb3]]. cbv zeta. cbn [gn_train gn_bogie_lengths]. rewrite cargo_bogie by exact hb1. rewrite hb2, hb3.
    split; [apply symmetric_two; rnum; lra|].
    split; [|exists (vh_wmass v); reflexivity]. exists (vh_wheel v). split; [lra|]. split; [reflexivity|exact h4].
  - cbn [gn_train tn_carts]. rewrite own_flat by apply cargo_own. rewrite cargo_count. reflexivity.
  - intros b hb. cbn [gn_train]. apply own_carried; [apply (cargo_own l w nl nw)|]. rewrite cargo_count. exact hb.
Qed.
Print Assumptions C55_parts.

(** which calls fail: wrong types, or wagons without a locomotive *)
Theorem C55_total lty wty (start : R) nl nw :
  (exists g, build_cargo_train lty wty start nl nw = Ok g) <->
  (lty = TRAXX \/ lty = BR189) /\ (wty = CARGO_TAPPS \/ wty = CARGO_FALNS5 \/ wty = CARGO_SGNS) /\ (nl = 0 -> nw = 0)%nat.
Proof.
  split.
  - intros [g h]. apply cargo_cases in h. destruct h as [l [w [h1 [h2 [_ [_ [h3 _]]]]]]].
    split; [destruct lty; cbn in h1; try discriminate; auto|]. split; [destruct wty; cbn in h2; try discriminate; auto|]. lia.
  - intros [h1 [h2 h3]]. assert (hc : (Nat.eqb nl 0 && negb (Nat.eqb nw 0))%bool = false).
    { destruct (Nat.eqb_spec nl 0) as [c|c]; [|reflexivity]. rewrite (h3 c). reflexivity. }
    unfold build_cargo_train. rewrite hc. destruct h1 as [-> | -> ], h2 as [-> |[-> | -> ]]; eexists; reflexivity.
Qed.
Print Assumptions C55_total.

Example C55_case : exists g, build_cargo_train TRAXX CARGO_TAPPS (0 : R) 1 3 = Ok g /\ length (gn_positions g) = 4%nat.
Proof. eexists. split; [reflexivity|]. reflexivity. Qed.
Example C55_overlap_case : exists g, build_cargo_train TRAXX CARGO_TAPPS (0 : R) 2 1 = Ok g /\ length (gn_positions g) = 3%nat.
Proof. eexists. split; [reflexivity|]. reflexivity. Qed.

(** ** C75: suspension of a generated train *)

Definition generated_by (ty : train_type + train_type * train_type * nat) (start : R) (nb : nat) : res (generated R) :=
  match ty with
  | inl ty => set_train ty start nb
  | inr (lty, wty, nl) => build_cargo_train lty wty start nl nb
  end.

Lemma all_balanced (vc : cart R -> R) (vb : bogie R -> R) (tn : train R) cd st bs (P : R -> Prop) :
  (forall c, In c (tn_carts tn) -> P (vc c) /\ ct_factor c = [] /\ exists d, ct_bogie_distances c = [- d; d] /\ length (ct_bogies c) = 2%nat) ->
  (forall b, In b bs -> P (vb (bogie_of tn b)) /\ bg_factor (bogie_of tn b) = [] /\ length (bd_wheels (dof_get st b)) = 2%nat /\ exists d, bg_wheel_distances (bogie_of tn b) = [- d; d]) ->
  forall b, In b (bodies vc vb tn cd st bs) -> balanced b /\ P (by_k b) /\ by_factors b = [].
Proof.
  intros h1 h2 b hin. unfold bodies in hin. apply in_app_iff in hin. destruct hin as [hin|hin]; apply in_map_iff in hin.
  - destruct hin as [[c p] [<- hin]]. apply in_combine_l in hin. destruct (h1 c hin) as [a [e [d [hd hl]]]]. split; [|split; [exact a|exact e]].
    unfold balanced, offset, imbalance. cbn [cart_body by_lows by_factors by_ds fst snd]. rewrite map_length, hl, e, hd. rewrite sumn2. cbn [weight nth]. lra.
  - destruct hin as [b' [<- hin]]. destruct (h2 b' hin) as [a [e [hl [d hd]]]]. split; [|split; [exact a|exact e]].
    unfold balanced, offset, imbalance. cbn [bogie_body by_lows by_factors by_ds]. rewrite hl, e, hd. rewrite sumn2. cbn [weight nth]. lra.
Qed.

(** every cart and bogie comes from a sane vehicle *)
Lemma generated_parts ty start nb g : generated_by ty start nb = Ok g -> ty <> inl SPRINTER_SLT ->
  (forall c, In c (tn_carts (gn_train g)) -> exists v first i, sane v /\ c = vehicle_cart v first i) /\
  (forall b, (exists c, In c (tn_carts (gn_train g)) /\ In b (ct_bogies c)) -> exists v, sane v /\ bogie_of (gn_train g) b = vehicle_bogie v).
Proof.
  intros h hne. destruct ty as [ty|[[lty wty] nl]]; cbn [generated_by] in h.
  - apply train_cases in h. destruct h as [[-> _]|[_ [v [hv ->]]]]; [congruence|]. split.
    + intros c hc. apply In_nth_error in hc. destruct hc as [q hc]. apply v_cart in hc. destruct hc as [_ ->]. eauto.
    + intros b [c [hc hb]]. apply In_nth_error in hc. destruct hc as [q hc]. apply v_cart in hc. destruct hc as [hq ->]. exists v. split; [exact hv|]. apply v_bogie. destruct hb as [<-|[<-|[]]]; lia.
  - apply cargo_cases in h. destruct h as [l [w [_ [_ [hl [hw [_ ->]]]]]]]. cbn [gn_train tn_carts]. split.
    + intros c hc. apply In_nth_error in hc. destruct hc as [q hc]. apply c_cart in hc. destruct hc as [[_ ->]|[_ ->]]; eauto.
    + intros b [c [hc hb]]. apply In_nth_error in hc. destruct hc as [q hc]. apply c_cart in hc.
      assert (hb' : (b < 2 * (nl + nb))%nat) by (destruct hc as [[hq ->]|[hq ->]]; destruct hb as [<-|[<-|[]]]; lia).
      rewrite cargo_bogie by exact hb'. destruct (Nat.ltb b (2 * nl)); eauto.
Qed.

Lemma generated_complete ty start nb g : generated_by ty start nb = Ok g -> ty <> inl SPRINTER_SLT -> complete (gn_train g).
Proof.
  intros h hne. destruct (generated_parts _ _ _ _ h hne) as [h1 h2]. intros c hc. destruct (h1 c hc) as [v [f [i [_ ->]]]]. split; [left; reflexivity|]. split; [reflexivity|].
  intros b hb. destruct (h2 b) as [v' [_ e]]; [eauto|]. unfold n_wheels. rewrite e. split; [left; reflexivity|reflexivity].
Qed.

(** all trains but the articulated one: the suspension does not resist rigid motion and stores and dissipates energy *)
Theorem C75_suspension_partial ty start nb g cd st m bs n : generated_by ty start nb = Ok g -> ty <> inl SPRINTER_SLT ->
  initialise_train_ndof (gn_train g) = (cd, st, m) -> lists_bogies (gn_train g) bs -> (m <= n)%nat ->
  let K := train_stiffness (gn_train g) cd st bs in
  let C := train_damping (gn_train g) cd st bs in
  psd n K /\ psd n C /\
  forall u a theta, rigid_train (gn_train g) cd st a theta u -> forall i, (i < n)%nat -> mulv n K u i = 0 /\ mulv n C u i = 0.
Proof.
  intros h hne hi hb hn K C. destruct (generated_parts _ _ _ _ h hne) as [h1 h2]. pose proof (generated_complete _ _ _ _ h hne) as hc.
  assert (hwl : forall b, In b bs -> length (bd_wheels (dof_get st b)) = 2%nat).
  { intros b hin. apply hb in hin. destruct (dof_get_entry _ _ _ _ b hi hin) as [_ [_ ->]]. destruct (h2 b hin) as [v [_ e]]. unfold n_wheels. rewrite e. reflexivity. }
  assert (hk : forall b, In b (bodies (@ct_k R) (@bg_k R) (gn_train g) cd st bs) -> balanced b /\ 0 < by_k b /\ by_factors b = []).
  { apply all_balanced.
    - intros c hin. destruct (h1 c hin) as [v [f [i [hv ->]]]]. split; [apply hv|]. split; [reflexivity|]. exists (vh_bogie v). split; reflexivity.
    - intros b hin. destruct (h2 b) as [v [hv e]]; [apply hb; exact hin|]. rewrite (hwl b hin), e. split; [apply hv|]. split; [reflexivity|]. split; [reflexivity|]. exists (vh_wheel v). reflexivity. }
  assert (hcc : forall b, In b (bodies (@ct_c R) (@bg_c R) (gn_train g) cd st bs) -> balanced b /\ 0 < by_k b /\ by_factors b = []).
  { apply all_balanced.
    - intros c hin. destruct (h1 c hin) as [v [f [i [hv ->]]]]. split; [apply hv|]. split; [reflexivity|]. exists (vh_bogie v). split; reflexivity.
    - intros b hin. destruct (h2 b) as [v [hv e]]; [apply hb; exact hin|]. rewrite (hwl b hin), e. split; [apply hv|]. split; [reflexivity|]. split; [reflexivity|]. exists (vh_wheel v). reflexivity. }
  split; [|split].
  - apply (C36_nonnegative_partial _ _ _ m); auto. intros b hin. destruct (hk b hin) as [a1 [a2 a3]]. split; [exact a1|]. split; [lra|]. intros i _. rewrite a3. cbn. lra.
  - apply (C36_dissipation_partial _ _ _ m); auto. intros b hin. destruct (hcc b hin) as [a1 [a2 a3]]. split; [exact a1|]. split; [lra|]. intros i _. rewrite a3. cbn. lra.
  - intros u a theta hr i hin. destruct (C36_springs_partial _ _ _ m bs n hi hb hc hn) as [_ [_ e]]; [intros b hb'; apply hk; exact hb'|]. exact (e u a theta hr i hin).
Qed.
Print Assumptions C75_suspension_partial.

Lemma slt_complete start nb g : slt_train start nb = Ok g -> complete (gn_train g).
Proof.
  intros h c hc. apply In_nth_error in hc. destruct hc as [q hc]. apply (s_cart _ _ _ h) in hc. destruct hc as [hq ->]. split.
  - right. cbn [slt_cart ct_factor ct_bogies]. destruct (Nat.eqb q 0); [reflexivity|]. destruct (Nat.eqb q (nb - 1)); reflexivity.
  - split; [reflexivity|]. intros b hb. assert (hb' : (b < nb + 1)%nat) by (destruct hb as [<-|[<-|[]]]; lia). unfold n_wheels. rewrite (s_bogie _ _ _ h) by exact hb'. split; [left; reflexivity|reflexivity].
Qed.

(** the articulated train, whatever its length: there are displacements with negative elastic energy, and velocities for
    which the dampers generate energy *)
Theorem C75_suspension_refuted (start : R) nb g cd st m bs n : set_train SPRINTER_SLT start nb = Ok g ->
  initialise_train_ndof (gn_train g) = (cd, st, m) -> lists_bogies (gn_train g) bs -> (m <= n)%nat ->
  (exists u, quad n (train_stiffness (gn_train g) cd st bs) u < 0) /\ (exists u, quad n (train_damping (gn_train g) cd st bs) u < 0).
Proof.
  intros h hi hb hn. cbn [set_train] in h. pose proof (slt_complete _ _ _ h) as hc. pose proof (slt_enough _ _ _ h) as hnb. pose proof slt_len as hl.
  assert (h5 : (ndec 5 1 : R) = 1 / 2) by (rewrite ndec_R; rnum; cbn; lra).
  destruct (ndof_spec _ _ _ _ hi) as [hcd _]. assert (hcarts : length (tn_carts (gn_train g)) = nb).
  { rewrite (slt_shape _ _ _ h). cbn [gn_train tn_carts]. rewrite map_length, seq_length. reflexivity. }
  destruct cd as [|p cd]; [cbn in hcd; lia|].
  assert (h0 : nth_error (tn_carts (gn_train g)) 0 = Some (slt_cart nb 0)) by (apply (s_cart _ _ _ h); split; [lia|reflexivity]).
  assert (hin : forall vc vb, In (cart_body vc st (slt_cart nb 0) p) (bodies vc vb (gn_train g) (p :: cd) st bs)).
  { intros vc vb. unfold bodies. apply in_app_iff. left. apply in_map_iff. exists (slt_cart nb 0, p). split; [reflexivity|].
    apply combine_nth_in. exists 0%nat. split; [exact h0|reflexivity]. }
  assert (ho : forall vc, offset (cart_body vc st (slt_cart nb 0) p) <> 0).
  { intros vc. unfold offset, imbalance. cbn [cart_body by_lows by_factors by_ds slt_cart ct_bogies ct_factor ct_bogie_distances map length Nat.eqb]. rewrite sumn2. cbn [weight nth]. rewrite h5, hl. rnum. lra. }
  rewrite stiffness_total, damping_total. split.
  - apply (unbalanced_negative _ _ _ _ _ _ _ hi hb n _ hc hn (hin _ _)); [cbn; rnum; lra|apply ho].
  - apply (unbalanced_negative _ _ _ _ _ _ _ hi hb n _ hc hn (hin _ _)); [cbn; rnum; lra|apply ho].
Qed.
Print Assumptions C75_suspension_refuted.

Example C75_case : exists g, generated_by (inl ICM) 0 2 = Ok g /\ exists cd st m, initialise_train_ndof (gn_train g) = (cd, st, m) /\ m = 20%nat.
Proof. eexists. split; [reflexivity|]. eexists _, _, _. split; reflexivity. Qed.
Example C75_refuted_case : exists g, set_train SPRINTER_SLT (0 : R) 2 = Ok g /\ exists cd st m, initialise_train_ndof (gn_train g) = (cd, st, m) /\ m = 16%nat.
Proof. eexists. split; [reflexivity|]. eexists _, _, _. split; reflexivity. Qed.

(** the wheels of a generated train carry its weight *)
Theorem C75_weight ty start nb g cd st m bs external : generated_by ty start nb = Ok g -> tn_carts (gn_train g) <> [] ->
  initialise_train_ndof (gn_train g) = (cd, st, m) -> lists_bogies (gn_train g) bs ->
  exists l, train_static_load (gn_train g) cd st bs (train_static_force (gn_train g) cd st) external no_loads = Ok l /\
    wheel_total (gn_train g) bs l = external - 981 / 100 * train_weight (gn_train g) bs.
Proof.
  intros h hne hi hb. destruct ty as [[| | | | | | | |]|q] eqn:ety.
  2: { cbn [generated_by set_train] in h. apply (C37_weight _ _ _ m); auto.
    - intros c hc. apply In_nth_error in hc. destruct hc as [q hc]. apply (s_cart _ _ _ h) in hc. destruct hc as [_ ->]. discriminate.
    - intros b hin. apply hb in hin. destruct hin as [c [hc hin]]. apply In_nth_error in hc. destruct hc as [q hc]. apply (s_cart _ _ _ h) in hc. destruct hc as [hq ->].
      assert (hb' : (b < nb + 1)%nat) by (destruct hin as [<-|[<-|[]]]; lia). unfold n_wheels. rewrite (s_bogie _ _ _ h) by exact hb'. cbn. lia. }
  all: (rewrite <- ety in h; destruct (generated_parts _ _ _ _ h ltac:(rewrite ety; discriminate)) as [h1 h2]; apply (C37_weight _ _ _ m); auto;
    [intros c hc; destruct (h1 c hc) as [v [f [i [_ ->]]]]; discriminate
    |intros b hin; destruct (h2 b) as [v [_ e]]; [apply hb; exact hin|]; unfold n_wheels; rewrite e; cbn; lia]).
Qed.
Print Assumptions C75_weight.
