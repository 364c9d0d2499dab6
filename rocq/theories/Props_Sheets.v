(** * Property C88: data of the generated trains *)

From Coq Require Import Reals List Bool ZArith Arith Permutation Lia Lra.
From Verif Require Import Num PyBase Model_Train Model_DefaultTrains Spec_Train Spec_DefaultTrains Spec_Sheets
  Proofs_System Proofs_Train Proofs_DefaultTrains Props_DefaultTrains.
Import ListNotations.
Local Open Scope R_scope.

(** the numbers of a vehicle are those of a sheet *)
Definition vehicle_is (v : vehicle R) (s : sheet) : Prop :=
  vh_length v = sh_length s /\ 2 * vh_bogie v = sh_pivots s /\ vh_mass v = sh_body s /\ vh_inertia v = sh_body_inertia s /\ vh_k v = sh_secondary s /\ vh_c v = sh_secondary_damper s /\
  2 * vh_wheel v = sh_wheelbase s /\ vh_bmass v = sh_frame s /\ vh_binertia v = sh_frame_inertia s /\ vh_bk v = sh_primary s /\ vh_bc v = sh_primary_damper s /\ vh_blength v = sh_wheelbase s /\
  vh_wmass v = sh_wheel s /\ 0 <= vh_bogie v /\ 0 <= vh_wheel v.

Ltac sheet_tac := unfold vehicle_is; cbn [sheet_of sh_length sh_pivots sh_wheelbase sh_body sh_body_inertia sh_secondary sh_secondary_damper sh_frame sh_frame_inertia sh_primary sh_primary_damper sh_wheel
  vh_length vh_bogie vh_mass vh_inertia vh_k vh_c vh_wheel vh_bmass vh_binertia vh_bk vh_bc vh_blength vh_wmass]; rewrite ?ndec_R; rnum; cbn [Z.to_nat Pos.to_nat Pos.iter_op Nat.add pow]; repeat split; lra.

Lemma sheets : vehicle_is double_dekker (sheet_of DOUBLEDEKKER) /\ vehicle_is sprinter_sgm (sheet_of SPRINTER_SGM) /\ vehicle_is icm (sheet_of ICM) /\
  vehicle_is cargo_FALNS5 (sheet_of CARGO_FALNS5) /\ vehicle_is cargo_SGNS (sheet_of CARGO_SGNS) /\ vehicle_is cargo_TAPPS (sheet_of CARGO_TAPPS) /\
  vehicle_is traxx (sheet_of TRAXX) /\ vehicle_is br189 (sheet_of BR189).
Proof.
  unfold traxx, br189, double_dekker, sprinter_sgm, icm, cargo_SGNS, cargo_FALNS5, cargo_TAPPS.
  split; [sheet_tac|]. split; [sheet_tac|]. split; [sheet_tac|]. split; [sheet_tac|]. split; [sheet_tac|]. split; [sheet_tac|]. split; sheet_tac.
Qed.

Lemma two_apart (x y : R) : 0 <= x -> 2 * x = y -> Rabs (x - - x) = y.
Proof. intros h e. replace (x - - x) with (2 * x) by ring. rewrite Rabs_pos_eq; lra. Qed.

Lemma vehicle_bogie_agrees v s : vehicle_is v s -> bogie_agrees s (vehicle_bogie v).
Proof.
  intros (e1&e2&e3&e4&e5&e6&e7&e8&e9&e10&e11&e12&e13&p1&p2). unfold bogie_agrees. cbn [vehicle_bogie bg_mass bg_inertia bg_k bg_c bg_wheels bg_wheel_distances repeat]. rewrite e13.
  repeat (split; [assumption || reflexivity|]). exists (- vh_wheel v), (vh_wheel v). split; [reflexivity|]. apply two_apart; assumption.
Qed.
Lemma vehicle_cart_agrees v s first i : vehicle_is v s -> cart_agrees s (vehicle_cart v first i).
Proof.
  intros (e1&e2&e3&e4&e5&e6&e7&e8&e9&e10&e11&e12&e13&p1&p2). unfold cart_agrees. cbn [vehicle_cart ct_mass ct_inertia ct_k ct_c ct_bogie_distances].
  repeat (split; [assumption|]). exists (- vh_bogie v), (vh_bogie v). split; [reflexivity|]. apply two_apart; assumption.
Qed.

Lemma repeat_error {A} (x : A) n i : (i < n)%nat -> nth_error (repeat x n) i = Some x.
Proof. revert i. induction n as [|n ih]; intros i h; [lia|]. destruct i; [reflexivity|]. cbn. apply ih. lia. Qed.

Lemma vehicle_agrees v s start nb q : vehicle_is v s -> (q < nb)%nat -> agrees s (vehicle_train v start nb) q.
Proof.
  intros hv hq. exists (vehicle_cart v 0 q). split; [apply v_cart; auto|]. split; [apply vehicle_cart_agrees; exact hv|]. split; [cbn [vehicle_train gn_lengths]; rewrite repeat_error by exact hq; f_equal; apply hv|].
  split; [reflexivity|]. intros b hb. assert (hb' : (b < 2 * nb)%nat) by (destruct hb as [<-|[<-|[]]]; lia). rewrite v_bogie by exact hb'. split; [apply vehicle_bogie_agrees; exact hv|].
  cbn [vehicle_train gn_bogie_lengths]. rewrite repeat_error by exact hb'. f_equal. apply hv.
Qed.

(** ** C88 *)

Theorem C88_sheet ty (start : R) nb g q : set_train ty start nb = Ok g -> (q < nb)%nat -> agrees (sheet_of ty) g q.
Proof.
  intros h hq. destruct sheets as (s1&s2&s3&s4&s5&s6&s7&s8).
  destruct ty; cbn [set_train] in h; try (injection h as <-; apply vehicle_agrees; assumption).
  pose proof (slt_enough _ _ _ h) as hn. exists (slt_cart nb q). split; [apply (s_cart _ _ _ h); auto|]. pose proof slt_len as hl.
  assert (hl2 : (slt_length / 2 : R) = 7.785) by (rewrite hl; lra).
  split.
  { unfold cart_agrees. cbn [slt_cart ct_mass ct_inertia ct_k ct_c ct_bogie_distances sheet_of sh_body sh_body_inertia sh_secondary sh_secondary_damper sh_pivots]. rnum.
    repeat (split; [lra|]). exists (slt_length / 2), (- slt_length / 2). split; [reflexivity|]. rewrite hl. rewrite Rabs_left by lra. lra. }
  rewrite (slt_shape _ _ _ h). cbn [gn_lengths gn_bogie_lengths gn_train sheet_of sh_length sh_wheelbase]. split; [rewrite repeat_error by exact hq; f_equal; rewrite hl; lra|]. split; [reflexivity|].
  intros b hb. assert (hb' : (b < nb + 1)%nat) by (destruct hb as [<-|[<-|[]]]; lia). pose proof (s_bogie _ _ _ h b hb') as e. rewrite (slt_shape _ _ _ h) in e. cbn [gn_train] in e. rewrite e.
  split; [|rewrite repeat_error by exact hb'; f_equal; rewrite ndec_R; rnum; cbn; lra].
  unfold bogie_agrees. cbn [slt_bogie bg_mass bg_inertia bg_k bg_c bg_wheels bg_wheel_distances sh_frame sh_frame_inertia sh_primary sh_primary_damper sh_wheel repeat]. rnum.
  repeat (split; [lra || reflexivity|]). exists (- ndec 14 1), (ndec 14 1). split; [reflexivity|]. apply two_apart; rewrite ndec_R; rnum; cbn; lra.
Qed.
Print Assumptions C88_sheet.

(** a cargo train: first the locomotives, then the wagons *)
Theorem C88_cargo lty wty (start : R) nl nw g q : build_cargo_train lty wty start nl nw = Ok g -> (q < nl + nw)%nat ->
  agrees (sheet_of (if Nat.ltb q nl then lty else wty)) g q.
Proof.
  intros h hq. destruct sheets as (s1&s2&s3&s4&s5&s6&s7&s8). apply cargo_cases in h. destruct h as [l [w [hl [hw [_ [_ [_ ->]]]]]]].
  assert (vl : vehicle_is l (sheet_of lty)) by (destruct lty; cbn in hl; inversion hl; subst; assumption).
  assert (vw : vehicle_is w (sheet_of wty)) by (destruct wty; cbn in hw; inversion hw; subst; assumption). clear hl hw.
  assert (hcart : nth_error (map (vehicle_cart l 0) (seq 0 nl) ++ map (vehicle_cart w (2 * nl)) (seq 0 nw)) q = Some (if Nat.ltb q nl then vehicle_cart l 0 q else vehicle_cart w (2 * nl) (q - nl))).
  { destruct (nth_error _ q) as [c|] eqn:e.
    - apply c_cart in e. destruct e as [[a ->]|[a ->]]; destruct (Nat.ltb_spec q nl); try lia; reflexivity.
    - apply nth_error_None in e. rewrite app_length, !map_length, !seq_length in e. lia. }
  eexists. split; [exact hcart|]. cbn [gn_train gn_lengths gn_bogie_lengths tn_carts].
  destruct (Nat.ltb_spec q nl) as [c|c].
  - split; [apply vehicle_cart_agrees; exact vl|]. split; [rewrite nth_error_app1 by (rewrite repeat_length; exact c); rewrite repeat_error by exact c; f_equal; apply vl|]. split; [reflexivity|].
    intros b hb. assert (hb' : (b < 2 * nl)%nat) by (destruct hb as [<-|[<-|[]]]; lia). rewrite cargo_bogie by lia. destruct (Nat.ltb_spec b (2 * nl)); [|lia]. split; [apply vehicle_bogie_agrees; exact vl|].
    rewrite nth_error_app1 by (rewrite repeat_length; exact hb'). rewrite repeat_error by exact hb'. f_equal. apply vl.
  - split; [apply vehicle_cart_agrees; exact vw|]. split; [rewrite nth_error_app2 by (rewrite repeat_length; exact c); rewrite repeat_length, repeat_error by lia; f_equal; apply vw|]. split; [reflexivity|].
    intros b hb. assert (hb' : (2 * nl <= b < 2 * (nl + nw))%nat) by (destruct hb as [<-|[<-|[]]]; lia). rewrite cargo_bogie by lia. destruct (Nat.ltb_spec b (2 * nl)); [lia|]. split; [apply vehicle_bogie_agrees; exact vw|].
    rewrite nth_error_app2 by (rewrite repeat_length; lia). rewrite repeat_length, repeat_error by lia. f_equal. apply vw.
Qed.
Print Assumptions C88_cargo.
Example C88_sheet_case : exists g, set_train ICM (0 : R) 4 = Ok g /\ agrees (sheet_of ICM) g 3.
Proof. eexists. split; [reflexivity|]. apply (C88_sheet ICM 0 4); [reflexivity|lia]. Qed.
Example C88_cargo_case : exists g, build_cargo_train TRAXX CARGO_TAPPS (0 : R) 2 3 = Ok g /\ agrees (sheet_of TRAXX) g 1 /\ agrees (sheet_of CARGO_TAPPS) g 2.
Proof. eexists. split; [reflexivity|]. split; [apply (C88_cargo TRAXX CARGO_TAPPS 0 2 3 _ 1)|apply (C88_cargo TRAXX CARGO_TAPPS 0 2 3 _ 2)]; (reflexivity || lia). Qed.

(** *** weights *)

Lemma sumn_S (n : nat) (f : nat -> R) : sumn (S n) f = sumn n f + f n.
Proof. reflexivity. Qed.
Lemma sumn_const (n : nat) (f : nat -> R) c : (forall i, (i < n)%nat -> f i = c) -> sumn n f = INR n * c.
Proof. induction n as [|n ih]; intros h; [cbn; ring|]. rewrite sumn_S, S_INR, ih, h by (intros; try apply h; lia). ring. Qed.
Lemma sumn_split (a b : nat) (f : nat -> R) : sumn (a + b) f = sumn a f + sumn b (fun i => f (a + i)%nat).
Proof. induction b as [|b ih]; [rewrite Nat.add_0_r; cbn; ring|]. rewrite Nat.add_succ_r, !sumn_S, ih. ring. Qed.

Lemma nth_ext_error {A} (a b : list A) : (forall i, nth_error a i = nth_error b i) -> a = b.
Proof.
  revert b. induction a as [|x a ih]; intros [|y b] h; [reflexivity|specialize (h 0%nat); discriminate|specialize (h 0%nat); discriminate|].
  pose proof (h 0%nat) as h0. injection h0 as ->. f_equal. apply ih. intros i. apply (h (S i)).
Qed.
Lemma nsum_nth (f : nat -> R) n (l : list R) : length l = n -> (forall i, (i < n)%nat -> nth_error l i = Some (f i)) -> nsum l = sumn n f.
Proof.
  intros hl h. rewrite <- (nsum_map_seq f n). f_equal. apply nth_ext_error. intros i. destruct (Nat.lt_ge_cases i n) as [c|c].
  - rewrite h by exact c. rewrite nth_error_map, (nth_error_nth' (seq 0 n) 0%nat) by (rewrite seq_length; exact c). rewrite seq_nth by exact c. reflexivity.
  - rewrite !(proj2 (nth_error_None _ i)); [reflexivity|rewrite map_length, seq_length; exact c|lia].
Qed.

(** weight of a train whose carts and bogies have given masses *)
Lemma weight_by (tn : train R) bs nc nb (cm bm : nat -> R) : lists_bogies tn bs -> length (tn_carts tn) = nc ->
  (forall q c, nth_error (tn_carts tn) q = Some c -> ct_mass c = cm q) ->
  (forall b, (exists c, In c (tn_carts tn) /\ In b (ct_bogies c)) <-> (b < nb)%nat) ->
  (forall b, (b < nb)%nat -> bogie_mass tn b = bm b) ->
  train_weight tn bs = sumn nc cm + sumn nb bm.
Proof.
  intros [hd hb] hl hc hn hm. unfold train_weight. f_equal.
  - apply nsum_nth; [rewrite map_length; exact hl|]. intros q hq. rewrite nth_error_map. destruct (nth_error (tn_carts tn) q) as [c|] eqn:e; [cbn; f_equal; apply hc; exact e|].
    apply nth_error_None in e. lia.
  - rewrite (nsum_perm _ (map (bogie_mass tn) (seq 0 nb))).
    + rewrite nsum_map_seq. apply sumn_ext. exact hm.
    + apply Permutation_map, NoDup_Permutation; [exact hd|apply seq_NoDup|]. intros b. rewrite hb, hn, in_seq. lia.
Qed.

Lemma agrees_bogie_mass s (tn : train R) b : bogie_agrees s (bogie_of tn b) -> bogie_mass tn b = bogie_total s.
Proof. intros (e1&_&_&_&e5&_). unfold bogie_mass, bogie_total. rewrite e1, e5. cbn. rnum. ring. Qed.

(** the weight of a train with own bogies is that of its carts by the sheet *)
Theorem C88_weight ty (start : R) nb g bs : set_train ty start nb = Ok g -> ty <> SPRINTER_SLT -> lists_bogies (gn_train g) bs ->
  train_weight (gn_train g) bs = INR nb * vehicle_total (sheet_of ty).
Proof.
  intros h hne hb. pose proof (fun q => C88_sheet _ _ _ _ q h) as hs.
  assert (ho : exists v, g = vehicle_train v start nb) by (apply train_cases in h; destruct h as [[e _]|[_ [v [_ e]]]]; [congruence|eauto]). destruct ho as [v ev].
  assert (hcb : forall b, (b < 2 * nb)%nat -> exists c, nth_error (tn_carts (gn_train g)) (b / 2) = Some c /\ (b / 2 < nb)%nat /\ In b (ct_bogies c)).
  { intros b hlt. assert (hq : (b / 2 < nb)%nat) by (apply Nat.div_lt_upper_bound; lia). exists (vehicle_cart v 0 (b / 2)). rewrite ev. split; [apply v_cart; auto|]. split; [exact hq|].
    pose proof (Nat.div_mod_eq b 2) as hd. pose proof (Nat.mod_upper_bound b 2 ltac:(lia)). cbn [vehicle_cart ct_bogies In]. lia. }
  rewrite (weight_by _ bs nb (2 * nb) (fun _ => sh_body (sheet_of ty)) (fun _ => bogie_total (sheet_of ty)) hb).
  - rewrite (sumn_const nb _ (sh_body (sheet_of ty))), (sumn_const (2 * nb) _ (bogie_total (sheet_of ty))) by reflexivity. rewrite mult_INR. cbn [INR]. unfold vehicle_total. ring.
  - rewrite ev. cbn [vehicle_train gn_train tn_carts]. rewrite map_length, seq_length. reflexivity.
  - intros q c hq. assert (hlt : (q < nb)%nat) by (rewrite ev in hq; apply v_cart in hq; tauto). destruct (hs q hlt) as [c' [e [a _]]]. rewrite hq in e. injection e as ->. apply a.
  - intros b. split; [|intros hlt; destruct (hcb b hlt) as [c [e [_ hin]]]; exists c; split; [eapply nth_error_In; exact e|exact hin]].
    intros [c [hc hin]]. apply In_nth_error in hc. destruct hc as [q hc]. rewrite ev in hc. apply v_cart in hc. destruct hc as [hq ->]. destruct hin as [<-|[<-|[]]]; lia.
  - intros b hlt. destruct (hcb b hlt) as [c [e [hq hin]]]. destruct (hs _ hq) as [c' [e' [_ [_ [_ a]]]]]. rewrite e in e'. injection e' as <-. apply agrees_bogie_mass. apply a. exact hin.
Qed.
Print Assumptions C88_weight.

(** the articulated train has one bogie more than carts *)
Theorem C88_weight_slt (start : R) nb g bs : set_train SPRINTER_SLT start nb = Ok g -> lists_bogies (gn_train g) bs ->
  train_weight (gn_train g) bs = INR nb * sh_body (sheet_of SPRINTER_SLT) + (INR nb + 1) * bogie_total (sheet_of SPRINTER_SLT).
Proof.
  intros h hb. pose proof (fun q => C88_sheet _ _ _ _ q h) as hs. cbn [set_train] in h. pose proof (slt_enough _ _ _ h) as hn. set (s := sheet_of SPRINTER_SLT) in *.
  assert (hcb : forall b, (b < nb + 1)%nat -> exists q c, nth_error (tn_carts (gn_train g)) q = Some c /\ (q < nb)%nat /\ In b (ct_bogies c)).
  { intros b hlt. exists (min b (nb - 1)), (slt_cart nb (min b (nb - 1))). split; [apply (s_cart _ _ _ h); split; [lia|reflexivity]|]. split; [lia|]. cbn [slt_cart ct_bogies In]. lia. }
  rewrite (weight_by _ bs nb (nb + 1) (fun _ => sh_body s) (fun _ => bogie_total s) hb).
  - rewrite (sumn_const nb _ (sh_body s)), (sumn_const (nb + 1) _ (bogie_total s)) by reflexivity. rewrite plus_INR. cbn [INR]. ring.
  - rewrite (slt_shape _ _ _ h). cbn [gn_train tn_carts]. rewrite map_length, seq_length. reflexivity.
  - intros q c hq. assert (hlt : (q < nb)%nat) by (apply (s_cart _ _ _ h) in hq; tauto). destruct (hs q hlt) as [c' [e [a _]]]. rewrite hq in e. injection e as ->. apply a.
  - intros b. split; [|intros hlt; destruct (hcb b hlt) as [q [c [e [_ hin]]]]; exists c; split; [eapply nth_error_In; exact e|exact hin]].
    intros [c [hc hin]]. apply In_nth_error in hc. destruct hc as [q hc]. apply (s_cart _ _ _ h) in hc. destruct hc as [hq ->]. destruct hin as [<-|[<-|[]]]; lia.
  - intros b hlt. destruct (hcb b hlt) as [q [c [e [hq hin]]]]. destruct (hs _ hq) as [c' [e' [_ [_ [_ a]]]]]. rewrite e in e'. injection e' as <-. apply agrees_bogie_mass. apply a. exact hin.
Qed.
Print Assumptions C88_weight_slt.

(** a cargo train weighs what its locomotives and wagons weigh *)
Theorem C88_weight_cargo lty wty (start : R) nl nw g bs : build_cargo_train lty wty start nl nw = Ok g -> lists_bogies (gn_train g) bs ->
  train_weight (gn_train g) bs = INR nl * vehicle_total (sheet_of lty) + INR nw * vehicle_total (sheet_of wty).
Proof.
  intros h hb. pose proof (fun q => C88_cargo _ _ _ _ _ _ q h) as hs.
  pose proof h as h'. apply cargo_cases in h'. destruct h' as [l [w [_ [_ [_ [_ [_ eg]]]]]]].
  assert (ho : own (tn_carts (gn_train g))) by (rewrite eg; apply cargo_own). assert (hlen : length (tn_carts (gn_train g)) = (nl + nw)%nat) by (rewrite eg; apply cargo_count).
  set (sel := fun q => sheet_of (if Nat.ltb q nl then lty else wty)) in *.
  assert (hcb : forall b, (b < 2 * (nl + nw))%nat -> exists c, nth_error (tn_carts (gn_train g)) (b / 2) = Some c /\ (b / 2 < nl + nw)%nat /\ In b (ct_bogies c)).
  { intros b hlt. assert (hq : (b / 2 < nl + nw)%nat) by (apply Nat.div_lt_upper_bound; lia). destruct (nth_error (tn_carts (gn_train g)) (b / 2)) as [c|] eqn:e; [|apply nth_error_None in e; lia].
    exists c. split; [reflexivity|]. split; [exact hq|]. destruct (ho _ _ e) as [-> _]. pose proof (Nat.div_mod_eq b 2) as hd. pose proof (Nat.mod_upper_bound b 2 ltac:(lia)). cbn [In]. lia. }
  assert (hlt2 : forall b, Nat.ltb (b / 2) nl = Nat.ltb b (2 * nl)).
  { intros b. pose proof (Nat.div_mod_eq b 2) as hd. pose proof (Nat.mod_upper_bound b 2 ltac:(lia)). destruct (Nat.ltb_spec (b / 2) nl), (Nat.ltb_spec b (2 * nl)); reflexivity || lia. }
  rewrite (weight_by _ bs (nl + nw) (2 * (nl + nw)) (fun q => sh_body (sel q)) (fun b => bogie_total (sel (b / 2)%nat)) hb hlen).
  - replace (2 * (nl + nw))%nat with (2 * nl + 2 * nw)%nat by lia. rewrite !sumn_split.
    rewrite (sumn_const nl _ (sh_body (sheet_of lty))), (sumn_const nw _ (sh_body (sheet_of wty))), (sumn_const (2 * nl) _ (bogie_total (sheet_of lty))), (sumn_const (2 * nw) _ (bogie_total (sheet_of wty))).
    + rewrite !mult_INR. cbn [INR]. unfold vehicle_total. ring.
    + intros i hi. unfold sel. rewrite hlt2. destruct (Nat.ltb_spec (2 * nl + i) (2 * nl)); [lia|reflexivity].
    + intros i hi. unfold sel. rewrite hlt2. destruct (Nat.ltb_spec i (2 * nl)); [reflexivity|lia].
    + intros i hi. unfold sel. destruct (Nat.ltb_spec (nl + i) nl); [lia|reflexivity].
    + intros i hi. unfold sel. destruct (Nat.ltb_spec i nl); [reflexivity|lia].
  - intros q c hq. assert (hlt : (q < nl + nw)%nat) by (rewrite <- hlen; apply nth_error_Some; rewrite hq; discriminate). destruct (hs q hlt) as [c' [e [a _]]]. rewrite hq in e. injection e as ->. apply a.
  - intros b. split; [|intros hlt; destruct (hcb b hlt) as [c [e [_ hin]]]; exists c; split; [eapply nth_error_In; exact e|exact hin]].
    intros [c [hc hin]]. apply In_nth_error in hc. destruct hc as [q hc]. assert (hlt : (q < nl + nw)%nat) by (rewrite <- hlen; apply nth_error_Some; rewrite hc; discriminate).
    destruct (ho _ _ hc) as [e _]. rewrite e in hin. destruct hin as [<-|[<-|[]]]; lia.
  - intros b hlt. destruct (hcb b hlt) as [c [e [hq hin]]]. destruct (hs _ hq) as [c' [e' [_ [_ [_ a]]]]]. rewrite e in e'. injection e' as <-. apply agrees_bogie_mass. apply a. exact hin.
Qed.
Print Assumptions C88_weight_cargo.

(** an ICM cart weighs 40 tonnes per rail, a double decker cart 37 *)
Example C88_weight_case : exists g bs, set_train ICM (0 : R) 4 = Ok g /\ lists_bogies (gn_train g) bs /\ train_weight (gn_train g) bs = 160000.
Proof.
  eexists. exists (seq 0 8). split; [reflexivity|]. match goal with |- ?A /\ _ => assert (hb : A) end.
  { split; [apply seq_NoDup|]. intros b. rewrite in_seq. cbn [vehicle_train gn_train tn_carts map seq]. split.
    - intros hb. exists (vehicle_cart icm 0 (b / 2)). pose proof (Nat.div_mod_eq b 2). pose proof (Nat.mod_upper_bound b 2 ltac:(lia)). split; [|cbn [vehicle_cart ct_bogies In]; lia].
      assert (hq : (b / 2 = 0 \/ b / 2 = 1 \/ b / 2 = 2 \/ b / 2 = 3)%nat) by lia. cbn [In]. destruct hq as [-> |[-> |[-> | ->]]]; auto.
    - intros [c [hc hin]]. cbn [In] in hc. destruct hc as [<-|[<-|[<-|[<-|[]]]]]; cbn [vehicle_cart ct_bogies In] in hin; lia. }
  split; [exact hb|]. rewrite (C88_weight ICM 0 4 _ _ eq_refl ltac:(discriminate) hb). unfold vehicle_total, bogie_total. cbn [sheet_of sh_body sh_frame sh_wheel INR]. lra.
Qed.
