(** * Properties C69, C71 and C81: the vibration measure and the soil layering *)

From Coq Require Import Ascii String Reals List Bool ZArith Arith Lia Lra Psatz.
From Verif Require Import Num PyBase Model_System Model_Element Model_Coupled Model_Accumulation Model_Misc Spec_Misc Proofs_System Proofs_Moving Proofs_Accumulation Proofs_LiSelig Proofs_Runs Proofs_Misc.
Import ListNotations.
Local Open Scope R_scope.
Local Notation length := List.length.

(** ** C69: bands and the given signal *)

(** the bands are non-empty, contiguous and disjoint *)
Theorem C69_bands : (forall i, (i < 9)%nat -> edge i < edge (i + 1)) /\ (forall i j f, (i < 9)%nat -> (j < 9)%nat -> in_range i f -> in_range j f -> i = j) /\
  (forall f, 8 / 100 <= f < 63 / 100 <-> exists i, (i < 9)%nat /\ in_range i f).
Proof.
  split; [exact edges_increase|]. split; [exact range_unique|]. intros f. split; [apply range_cover|]. intros [i [hi [h1 h2]]].
  pose proof (edges_mono 0 i ltac:(lia) ltac:(lia)). pose proof (edges_mono (i + 1) 9 ltac:(lia) ltac:(lia)). change (edge 0) with (8 / 100) in *. change (edge 9) with (63 / 100) in *. lra.
Qed.
Print Assumptions C69_bands.

Section Hmax.
  Variable welch : list R -> R -> list R * list R.
  Variable bandpass : list R -> R -> R -> R -> res (list R).

  (** the effective value of each band is the power within the band, and every spectral value is changed by its own band only *)
  Theorem C69_rms store a dx convert store' h : new_hmax welch bandpass store a dx convert = (store', Ok h) ->
    let f := hm_frequency h in
    exists Pxx, welch (nth a store' []) dx = (f, Pxx) /\
    (length f = length Pxx ->
     length (hm_rms_bands h) = 9%nat /\
     (forall i, (i < 9)%nat -> nth i (hm_rms_bands h) 0 = sqrt (sumn (length f) (fun k => if range_dec i (nth k f 0) then factor i (nth k f 0) * nth k Pxx 0 * (nth 1 f 0 - nth 0 f 0) else 0))) /\
     length (hm_Pxx h) = length f /\
     forall k, (k < length f)%nat ->
       (forall i, (i < 9)%nat -> in_range i (nth k f 0) -> nth k (hm_Pxx h) 0 = factor i (nth k f 0) * nth k Pxx 0) /\
       (~ 8 / 100 <= nth k f 0 < 63 / 100 -> nth k (hm_Pxx h) 0 = nth k Pxx 0)).
  Proof.
    unfold new_hmax. destruct (nth_error store a) as [s|] eqn:e; [|discriminate]. set (s' := if convert then _ else s). destruct (welch s' dx) as [f Pxx] eqn:ew. intros E. injection E as <- hh.
    apply rbind_ok in hh. destruct hh as [r [hr hh]]. apply rbind_ok in hh. destruct hh as [ef [he hh]]. injection hh as <-. cbn [hm_frequency hm_rms_bands hm_Pxx]. exists Pxx.
    assert (ha : (a < length store)%nat) by (apply nth_error_Some; congruence). split; [rewrite lset_same by (exact ha); exact ew|]. intros hl.
    assert (h2 : (2 <= length f)%nat). { unfold rms_effective in hr. apply rbind_ok in hr. destruct hr as [x [hx _]]. apply (at_idx_nth _ _ _ 0) in hx. lia. }
    destruct (rms_effective_spec f Pxx hl h2) as [P [v [q1 [q2 [q3 [q4 q5]]]]]]. rewrite hr in q1. injection q1 as ->. cbn [fst snd]. split; [exact q3|]. split; [exact q5|]. split; [exact q2|].
    intros k hk. destruct (q4 k hk) as [z1 z2]. split; [exact z1|]. intros hn. apply z2. intros i hi hr'. apply hn, (proj2 (proj2 C69_bands)). eauto.
  Qed.

  (** without conversion to millimetres the signal is left as it is *)
  Theorem C69_unconverted store a dx store' r : new_hmax welch bandpass store a dx false = (store', r) -> store' = store.
  Proof.
    unfold new_hmax. destruct (nth_error store a) as [s|] eqn:e; [|congruence]. destruct (welch s dx) as [f Pxx]. intros E. injection E as <- _. clear - e. revert a e. induction store as [|x l ih]; intros [|a] e; cbn in *; try congruence. rewrite ih by exact e. reflexivity.
  Qed.
  (** by default the signal of the caller is multiplied by 1000, whatever the outcome *)
  Theorem C69_signal_refuted store a dx store' r : (a < length store)%nat -> new_hmax welch bandpass store a dx true = (store', r) ->
    nth a store' [] = map (fun x => 1000 * x) (nth a store []) /\ forall b, b <> a -> nth b store' [] = nth b store [].
  Proof.
    intros ha. unfold new_hmax. destruct (nth_error store a) as [s|] eqn:e; [|apply nth_error_None in e; lia]. destruct (welch _ dx) as [f Pxx]. intros E. injection E as <- _. rewrite lset_same by exact ha. split.
    - rewrite (nth_error_nth _ _ [] e). apply map_ext. intros x. rnum. ring.
    - intros b hb. clear - hb. revert a b hb. induction store as [|x l ih]; intros [|a] [|b] hb; cbn; try reflexivity; try contradiction. apply ih. congruence.
  Qed.
  (** so calling it again on the same signal gives 1000 times the effective values *)
  Theorem C69_twice_refuted : (forall s dx, welch (map (fun x => 1000 * x) s) dx = (fst (welch s dx), map (fun p => 1000000 * p) (snd (welch s dx)))) ->
    (forall s dx, length (fst (welch s dx)) = length (snd (welch s dx))) ->
    forall store a dx store1 h1 store2 h2, new_hmax welch bandpass store a dx true = (store1, Ok h1) -> new_hmax welch bandpass store1 a dx true = (store2, Ok h2) ->
    forall i, (i < 9)%nat -> nth i (hm_rms_bands h2) 0 = 1000 * nth i (hm_rms_bands h1) 0.
  Proof.
    intros hw hl store a dx store1 h1 store2 h2 e1 e2 i hi.
    assert (ha : (a < length store)%nat). { unfold new_hmax in e1. destruct (nth_error store a) eqn:e; [apply nth_error_Some; congruence|discriminate]. }
    assert (ha1 : (a < length store1)%nat). { unfold new_hmax in e2. destruct (nth_error store1 a) eqn:e; [apply nth_error_Some; congruence|discriminate]. }
    destruct (C69_signal_refuted store1 a dx store2 _ ha1 e2) as [hs _]. destruct (C69_rms _ _ _ _ _ _ e1) as [P1 [w1 r1]]. destruct (C69_rms _ _ _ _ _ _ e2) as [P2 [w2 r2]].
    rewrite hs, hw, w1 in w2. cbn [fst snd] in w2. injection w2 as ef <-. pose proof (hl (nth a store1 []) dx) as hl1. rewrite w1 in hl1. cbn [fst snd] in hl1.
    destruct (r1 hl1) as [_ [q1 _]]. destruct r2 as [_ [q2 _]]; [rewrite map_length, <- ef; exact hl1|]. rewrite q1, q2, <- ef by exact hi.
    replace 1000 with (sqrt (1000000)) by (replace 1000000 with (1000 * 1000) by ring; apply sqrt_square; lra). rewrite <- sqrt_mult_alt by lra. f_equal. rewrite <- sumn_scal. apply sumn_ext. intros k hk. destruct (range_dec _ _); [|rnum; ring].
    rewrite (nth_map_d _ _ _ 0) by (rewrite <- hl1; exact hk). ring.
  Qed.

  (** ** C81: effective values *)

  (** the maximum over the middle metre is at most that over the whole signal *)
  Theorem C81_ordered store a dx convert store' h : new_hmax welch bandpass store a dx convert = (store', Ok h) ->
    length (hm_max_fast h) = 9%nat /\ length (hm_max_fast_Dx h) = 9%nat /\ forall i, (i < 9)%nat -> 0 <= nth i (hm_max_fast_Dx h) 0 <= nth i (hm_max_fast h) 0.
  Proof.
    unfold new_hmax. destruct (nth_error store a) as [s|] eqn:e; [|discriminate]. set (s' := if convert then _ else s). destruct (welch s' dx) as [f Pxx] eqn:ew. intros E. injection E as <- hh.
    apply rbind_ok in hh. destruct hh as [r [hr hh]]. apply rbind_ok in hh. destruct hh as [ef [he hh]]. injection hh as <-. cbn [hm_max_fast hm_max_fast_Dx]. unfold effective_values in he. apply rbind_ok in he. destruct he as [l [hm he]]. injection he as <-. cbn [fst snd].
    pose proof (mapr_length _ _ _ hm) as hl. change (length (combine one_third derivative)) with 9%nat in hl. rewrite !map_length, hl. split; [reflexivity|]. split; [reflexivity|]. intros i hi.
    pose proof (mapr_nth _ _ _ i ((0, 0), 0%nat) (0, 0) hm hi) as q. destruct (nth i (combine one_third derivative) (0, 0, 0%nat)) as [b d]. rewrite !(nth_map_d _ _ _ (0, 0)) by lia. destruct (nth i l (0, 0)) as [m mc]. cbn [fst snd].
    destruct (effective_inv _ _ _ _ _ _ _ q) as [sg [c [_ [_ [k1 [k2 k3]]]]]]. apply max_of_ok in k1. apply max_of_ok in k3. destruct k1 as [_ k1], k3 as [k3 _]. destruct (In_nth _ _ 0 k3) as [j [hj ej]].
    rewrite (mapr_length _ _ _ k2) in hj. pose proof (mapr_nth _ _ _ j 0%Z 0 k2 hj) as z. rewrite ej in z. apply at_int_in in z. rename z into hin.
    split; [|apply k1, hin]. unfold levels in hin. apply in_map_iff in hin. destruct hin as [x [<- _]]. cbn [nsqrt RNum]. apply sqrt_pos.
  Qed.

  (** both are maxima of the level: [N] weights and [M] samples in the middle *)
  Theorem C81_levels store a dx convert store' h N M : new_hmax welch bandpass store a dx convert = (store', Ok h) ->
    0 < dx <= 8 -> INR N <= 8 / dx + 1 < INR N + 1 -> INR M <= 1 / dx < INR M + 1 -> let sig := nth a store' [] in (M <= length sig)%nat ->
    forall i, (i < 9)%nat -> exists s v, bandpass sig (edge i) (edge (i + 1)) dx = Ok s /\ derived i dx s v /\
      is_max (nth i (hm_max_fast h) 0) (level dx N v) (fun k => (k < length v + N - 1)%nat) /\
      is_max (nth i (hm_max_fast_Dx h) 0) (level dx N v) (fun k => ((length sig - M) / 2 <= k < (length sig - M) / 2 + M)%nat).
  Proof.
    intros E hd hN hM. pose proof E as E0. unfold new_hmax in E. destruct (nth_error store a) as [s0|] eqn:e; [|discriminate]. set (s' := if convert then _ else s0) in E. destruct (welch s' dx) as [f Pxx] eqn:ew. injection E as <- hh.
    assert (ha : (a < length store)%nat) by (apply nth_error_Some; congruence). rewrite lset_same by exact ha. cbv zeta. intros hL i hi.
    apply rbind_ok in hh. destruct hh as [r [hr hh]]. apply rbind_ok in hh. destruct hh as [ef [he hh]]. injection hh as <-. cbn [hm_max_fast hm_max_fast_Dx]. unfold effective_values in he. apply rbind_ok in he. destruct he as [l [hm he]]. injection he as <-. cbn [fst snd].
    pose proof (mapr_length _ _ _ hm) as hl. change (length (combine one_third derivative)) with 9%nat in hl.
    pose proof (mapr_nth _ _ _ i ((0, 0), 0%nat) (0, 0) hm hi) as q. change (combine one_third derivative) with the_bands in q. rewrite bands_nth in q by exact hi. rewrite !(nth_map_d _ _ _ (0, 0)) by lia. destruct (nth i l (0, 0)) as [m mc]. cbn [fst snd].
    destruct (effective_inv _ _ _ _ _ _ _ q) as [sg [c [b0 [_ [k1 [k2 k3]]]]]]. rewrite band_nth in b0 by exact hi. cbn [fst snd] in b0. exists sg, (derive dx sg (nth i derivative 0%nat)). split; [exact b0|]. split; [apply derive_derived, hi|].
    assert (h2 : (2 <= N)%nat). { apply INR_le. cbn [INR]. assert (8 / dx >= 1) by (apply Rle_ge; apply (Rmult_le_reg_r dx); [lra|]; unfold Rdiv; rewrite Rmult_assoc, Rinv_l by lra; lra). destruct (le_lt_dec 2 N) as [c'|c']; [apply (le_INR 2) in c'; cbn in c'; lra|]. assert (INR N <= 1) by (apply (le_INR N 1); lia). lra. }
    destruct (levels_spec dx N (derive dx sg (nth i derivative 0%nat)) (proj1 hd) h2 hN) as [l1 l2]. split; [exact (max_is_max _ _ 0 _ _ k1 l1 l2)|].
    rewrite (centre_spec _ _ M (proj1 hd) hM hL) in k2. set (o := ((length s' - M) / 2)%nat) in *. pose proof (mapr_length _ _ _ k2) as lc. rewrite map_length, seq_length in lc.
    assert (hc : forall j, (j < M)%nat -> nth j c 0 = level dx N (derive dx sg (nth i derivative 0%nat)) (o + j)).
    { intros j hj. pose proof (mapr_nth _ _ _ j 0%Z 0 k2 ltac:(rewrite map_length, seq_length; exact hj)) as z. rewrite (nth_map_d _ _ _ 0%nat) in z by (rewrite seq_length; exact hj). rewrite seq_nth in z by exact hj. replace (0 + j)%nat with j in z by lia.
      destruct (le_lt_dec (length (levels dx (derive dx sg (nth i derivative 0%nat)))) (o + j)) as [c0|c0].
      - exfalso. unfold at_int in z. assert (ez : (Z.of_nat (o + j) <? 0)%Z = false) by (apply Z.ltb_ge; lia). rewrite ez, ez, Nat2Z.id in z. apply (at_idx_nth _ _ _ 0) in z. lia.
      - rewrite at_int_nat in z by exact c0. injection z as <-. apply l2. lia. }
    apply max_of_ok in k3. destruct k3 as [m1 m2]. split.
    - destruct (In_nth _ _ 0 m1) as [j [hj ej]]. exists (o + j)%nat. rewrite <- hc by lia. split; [lia|auto].
    - intros k hk. replace k with (o + (k - o))%nat by lia. rewrite <- hc by lia. apply m2, nth_In. lia.
  Qed.

  (** for a signal shorter than the middle, places before the first sample are counted from the end of the level *)
  Theorem C81_short store a dx convert store' h N M : new_hmax welch bandpass store a dx convert = (store', Ok h) ->
    0 < dx <= 8 -> INR N <= 8 / dx + 1 < INR N + 1 -> INR M <= 1 / dx < INR M + 1 -> let sig := nth a store' [] in (length sig < M)%nat ->
    forall i, (i < 9)%nat -> exists s v, bandpass sig (edge i) (edge (i + 1)) dx = Ok s /\ derived i dx s v /\
      let start := ((Z.of_nat (length sig) - Z.of_nat M) / 2)%Z in (start < 0)%Z /\
      is_max (nth i (hm_max_fast_Dx h) 0) (level dx N v) (fun k => (k < length v + N - 1)%nat /\
        exists j, (j < M)%nat /\ (Z.of_nat k = start + Z.of_nat j \/ Z.of_nat k = start + Z.of_nat j + Z.of_nat (length v + N - 1) /\ start + Z.of_nat j < 0)%Z).
  Proof.
    intros E hd hN hM. pose proof E as E0. unfold new_hmax in E. destruct (nth_error store a) as [s0|] eqn:e; [|discriminate]. set (s' := if convert then _ else s0) in E. destruct (welch s' dx) as [f Pxx] eqn:ew. injection E as <- hh.
    assert (ha : (a < length store)%nat) by (apply nth_error_Some; congruence). rewrite lset_same by exact ha. cbv zeta. intros hL i hi.
    apply rbind_ok in hh. destruct hh as [r [hr hh]]. apply rbind_ok in hh. destruct hh as [ef [he hh]]. injection hh as <-. cbn [hm_max_fast hm_max_fast_Dx]. unfold effective_values in he. apply rbind_ok in he. destruct he as [l [hm he]]. injection he as <-. cbn [fst snd].
    pose proof (mapr_length _ _ _ hm) as hl. change (length (combine one_third derivative)) with 9%nat in hl.
    pose proof (mapr_nth _ _ _ i ((0, 0), 0%nat) (0, 0) hm hi) as q. change (combine one_third derivative) with the_bands in q. rewrite bands_nth in q by exact hi. rewrite !(nth_map_d _ _ _ (0, 0)) by lia. destruct (nth i l (0, 0)) as [m mc]. cbn [fst snd].
    destruct (effective_inv _ _ _ _ _ _ _ q) as [sg [c [b0 [_ [k1 [k2 k3]]]]]]. rewrite band_nth in b0 by exact hi. cbn [fst snd] in b0. exists sg, (derive dx sg (nth i derivative 0%nat)). split; [exact b0|]. split; [apply derive_derived, hi|].
    assert (h2 : (2 <= N)%nat). { apply INR_le. cbn [INR]. assert (8 / dx >= 1) by (apply Rle_ge; apply (Rmult_le_reg_r dx); [lra|]; unfold Rdiv; rewrite Rmult_assoc, Rinv_l by lra; lra). destruct (le_lt_dec 2 N) as [c'|c']; [apply (le_INR 2) in c'; cbn in c'; lra|]. assert (INR N <= 1) by (apply (le_INR N 1); lia). lra. }
    destruct (levels_spec dx N (derive dx sg (nth i derivative 0%nat)) (proj1 hd) h2 hN) as [l1 l2].
    rewrite (centre_any _ _ M (proj1 hd) hM) in k2. set (o := ((Z.of_nat (length s') - Z.of_nat M) / 2)%Z) in *. pose proof (mapr_length _ _ _ k2) as lc. rewrite map_length, seq_length in lc.
    assert (ho : (o < 0)%Z) by (apply Z.div_lt_upper_bound; lia). split; [exact ho|].
    set (v := derive dx sg (nth i derivative 0%nat)) in *. set (L := (length v + N - 1)%nat) in *.
    assert (hc : forall j, (j < M)%nat -> exists k, (k < L)%nat /\ nth j c 0 = level dx N v k /\ Z.of_nat k = (if (o + Z.of_nat j <? 0)%Z then o + Z.of_nat j + Z.of_nat L else o + Z.of_nat j)%Z).
    { intros j hj. pose proof (mapr_nth _ _ _ j 0%Z 0 k2 ltac:(rewrite map_length, seq_length; exact hj)) as z. rewrite (nth_map_d _ _ _ 0%nat) in z by (rewrite seq_length; exact hj). rewrite seq_nth in z by exact hj. replace (0 + j)%nat with j in z by lia.
      unfold at_int in z. rewrite l1 in z. set (y := if (o + Z.of_nat j <? 0)%Z then (o + Z.of_nat j + Z.of_nat L)%Z else (o + Z.of_nat j)%Z) in *. cbv zeta in z. destruct (y <? 0)%Z eqn:ey; [discriminate|]. apply Z.ltb_ge in ey.
      apply (at_idx_nth _ _ _ 0) in z. destruct z as [z1 z2]. rewrite l1 in z1. exists (Z.to_nat y). split; [exact z1|]. split; [rewrite <- z2; apply l2; exact z1|apply Z2Nat.id; exact ey]. }
    apply max_of_ok in k3. destruct k3 as [m1 m2]. split.
    - destruct (In_nth _ _ 0 m1) as [j [hj ej]]. destruct (hc j ltac:(lia)) as [k [y1 [y2 y3]]]. exists k. split; [|congruence]. split; [exact y1|]. exists j. split; [lia|].
      destruct (Z.ltb_spec (o + Z.of_nat j) 0); [right; lia|left; lia].
    - intros k [hk [j [hj hjk]]]. destruct (hc j hj) as [k' [y1 [y2 y3]]]. assert (k' = k) as ->. { destruct (Z.ltb_spec (o + Z.of_nat j) 0); lia. }
      rewrite <- y2. apply m2, nth_In. lia.
  Qed.

  (** the measure succeeds for every signal of at least three samples and the length of the middle *)
  Theorem C81_runs store a dx convert M : (a < length store)%nat -> 0 < dx <= 1 -> INR M <= 1 / dx < INR M + 1 -> (M <= length (nth a store []))%nat -> (3 <= length (nth a store []))%nat ->
    (forall s lo hi, exists s', bandpass s lo hi dx = Ok s' /\ length s' = length s) -> (forall s, (2 <= length (fst (welch s dx)))%nat) -> exists store' h, new_hmax welch bandpass store a dx convert = (store', Ok h).
  Proof.
    intros ha hd hM hL h3 hb hw. unfold new_hmax. destruct (nth_error store a) as [s0|] eqn:e; [|apply nth_error_None in e; lia]. rewrite (nth_error_nth _ _ [] e) in hL, h3. set (s' := if convert then map (fun x => (x * lit 1000)%num) s0 else s0).
    assert (hs : length s' = length s0) by (unfold s'; destruct convert; [apply map_length|reflexivity]). pose proof (hw s') as hws. destruct (welch s' dx) as [f Pxx]. cbn [fst] in hws. eexists.
    unfold rms_effective. rewrite (at_idx_get f 1 0), (at_idx_get f 0 0) by lia. cbn [rbind]. unfold effective_values.
    assert (hN : exists N, INR N <= 8 / dx + 1 < INR N + 1).
    { destruct (nfloor_spec (8 / dx + 1)) as [f1 f2]. exists (Z.to_nat (nfloor (8 / dx + 1))). rewrite INR_IZR_INZ, Z2Nat.id; [lra|]. apply le_IZR. assert (0 < 8 / dx) by (apply Rdiv_lt_0_compat; lra). assert (-1 < IZR (nfloor (8 / dx + 1))) by lra. apply (lt_IZR (-1)) in H0. apply IZR_le. lia. }
    destruct hN as [N hN].
    assert (h9 : (9 <= N)%nat). { destruct (le_lt_dec 9 N) as [c'|c']; [exact c'|]. assert (INR N <= 8) by (replace 8 with (INR 8) by (cbn; ring); apply le_INR; lia). assert (8 <= 8 / dx) by (apply (Rmult_le_reg_r dx); [lra|]; unfold Rdiv; rewrite Rmult_assoc, Rinv_l by lra; lra). lra. }
    assert (h1 : (1 <= M)%nat). { destruct M; [|lia]. exfalso. cbn in hM. assert (1 <= 1 / dx) by (apply (Rmult_le_reg_r dx); [lra|]; unfold Rdiv; rewrite Rmult_assoc, Rinv_l by lra; lra). lra. }
    destruct (mapr_ok (fun '(b, d) => effective_value bandpass s' dx b d) (combine one_third derivative) ((0, 0), 0%nat)) as [l hl].
    - intros i hi. change (length (combine one_third derivative)) with 9%nat in hi. change (combine one_third derivative) with the_bands. rewrite bands_nth by exact hi. unfold effective_value. destruct (hb s' (fst (nth i one_third (0, 0))) (snd (nth i one_third (0, 0)))) as [sg [hsg lsg]]. rewrite hsg. cbn [rbind].
      set (v := derive dx sg (nth i derivative 0%nat)). assert (lv : (length sg - 2 <= length v)%nat). { unfold v. pose proof (derive_derived i dx sg hi) as q. unfold derived in q. destruct (i <? 3)%nat; [rewrite q; lia|destruct q as [q _]; rewrite q; lia]. }
      destruct (levels_spec dx N v (proj1 hd) ltac:(lia) hN) as [l1 l2]. assert (vne : v <> []) by (intros c; rewrite c in lv; cbn in lv; lia).
      assert (q : exists r, (do m <- max_of (levels dx v); do c <- mapr (at_int (levels dx v)) (centre (length s') dx); do mc <- max_of c; Ok (m, mc)) = Ok r).
      { destruct (max_of_total (levels dx v)) as [m hm]; [intros c; rewrite c in l1; cbn in l1; lia|]. rewrite hm. cbn [rbind]. rewrite (centre_spec _ _ M (proj1 hd) hM) by lia.
        destruct (mapr_ok (at_int (levels dx v)) (map (fun i => Z.of_nat ((length s' - M) / 2 + i)) (seq 0 M)) 0%Z) as [c hc].
        - intros j hj. rewrite map_length, seq_length in hj. rewrite (nth_map_d _ _ _ 0%nat) by (rewrite seq_length; exact hj). rewrite seq_nth by exact hj. rewrite at_int_nat; [eauto|]. pose proof (Nat.div_mod (length s' - M) 2 ltac:(lia)). pose proof (Nat.mod_upper_bound (length s' - M) 2 ltac:(lia)). lia.
        - rewrite hc. cbn [rbind]. pose proof (mapr_length _ _ _ hc) as lc. rewrite map_length, seq_length in lc. destruct (max_of_total c) as [mc hmc]; [intros z; rewrite z in lc; cbn in lc; lia|]. rewrite hmc. cbn. eauto. }
      destruct q as [r q]. exists r. unfold levels in q. destruct v; [contradiction|exact q].
    - rewrite hl. cbn [rbind]. eexists. reflexivity.
  Qed.
End Hmax.
Print Assumptions C69_rms.
Print Assumptions C69_unconverted.
Print Assumptions C69_signal_refuted.
Print Assumptions C69_twice_refuted.
Print Assumptions C81_ordered.
Print Assumptions C81_levels.
Print Assumptions C81_short.
Print Assumptions C81_runs.

(** example: a spectrum with the power of the first sample at 0 and 0.1, and no filtering *)
Definition ex_welch (s : list R) (dx : R) : list R * list R := ([0; 1 / 10], [nth 0 s 0 * nth 0 s 0; nth 0 s 0 * nth 0 s 0]).
Definition ex_filter (s : list R) (lo hi dx : R) : res (list R) := Ok s.
Example C69_example : exists store1 h1 store2 h2, new_hmax ex_welch ex_filter [[1; 2; 3]] 0 1 true = (store1, Ok h1) /\ new_hmax ex_welch ex_filter store1 0 1 true = (store2, Ok h2) /\
  nth 0 store1 [] = [1000; 2000; 3000] /\ 0 < nth 1 (hm_rms_bands h1) 0 /\ nth 1 (hm_rms_bands h2) 0 <> nth 1 (hm_rms_bands h1) 0.
Proof.
  assert (hb : forall s lo hi, exists s', ex_filter s lo hi 1 = Ok s' /\ length s' = length s) by (intros s lo hi; exists s; auto).
  destruct (C81_runs ex_welch ex_filter [[1; 2; 3]] 0 1 true 1) as [store1 [h1 e1]]; [cbn; lia|lra|cbn; lra|cbn; lia|cbn; lia|exact hb|intros; cbn; lia|].
  destruct (C69_signal_refuted ex_welch ex_filter [[1; 2; 3]] 0 1 store1 _ ltac:(cbn; lia) e1) as [s1 _]. cbn [nth map] in s1. assert (es : nth 0 store1 [] = [1000; 2000; 3000]) by (rewrite s1; repeat (f_equal; try lra)).
  assert (hl : (0 < length store1)%nat) by (destruct store1; [discriminate|cbn; lia]).
  destruct (C81_runs ex_welch ex_filter store1 0 1 true 1) as [store2 [h2 e2]]; [exact hl|lra|cbn; lra|rewrite es; cbn; lia|rewrite es; cbn; lia|exact hb|intros; cbn; lia|].
  exists store1, h1, store2, h2. split; [exact e1|]. split; [exact e2|]. split; [exact es|].
  assert (hp : 0 < nth 1 (hm_rms_bands h1) 0).
  { destruct (C69_rms _ _ _ _ _ _ _ _ e1) as [P [w1 r]]. rewrite es in w1. unfold ex_welch in w1. injection w1 as ef eP. rewrite <- ef, <- eP in r. destruct (r eq_refl) as [_ [q _]]. rewrite q by lia. apply sqrt_lt_R0. cbn [length sumn nth]. unfold factor. cbn [Nat.ltb Nat.leb].
    destruct (range_dec 1 0) as [c|c]; [unfold in_range, edge in c; cbn in c; lra|]. destruct (range_dec 1 (1 / 10)) as [d|d]; [rnum; lra|]. exfalso. apply d. unfold in_range, edge. cbn. lra. }
  split; [exact hp|]. rewrite (C69_twice_refuted ex_welch ex_filter) with (i := 1%nat) (h1 := h1) (store := [[1; 2; 3]]) (a := 0%nat) (dx := 1) (store1 := store1) (store2 := store2); try assumption; try lia; [lra| |reflexivity].
  intros s dx. unfold ex_welch. cbn [fst snd map]. f_equal. destruct s as [|x s]; cbn [map nth]; repeat (f_equal; try ring).
Qed.

(** ** C71: soil layers *)

(** every layer in order, each as thick as the distance to the next top, the half-space last *)
Theorem C71_rows l first n : columns l n -> (0 < n)%nat -> create_layering_for_wolf l first =
  Ok (force_row :: first :: map (fun i => layer_at l i (Str (nth i (wl_top l) 0 - nth (i + 1) (wl_top l) 0))) (seq 0 (n - 1)) ++ [layer_at l (n - 1) (Txt "inf")]).
Proof.
  intros [h1 [h2 [h3 [h4 [h5 h6]]]]] hn. unfold create_layering_for_wolf. rewrite h1.
  rewrite (mapr_map _ (fun i => layer_at l i (Str (nth i (wl_top l) 0 - nth (i + 1) (wl_top l) 0)))) by (intros i hi; apply in_seq in hi; apply layer_row_ok; lia). cbn [rbind].
  rewrite last_row_ok by (intros c; rewrite c in *; cbn in *; lia). cbn [rbind]. rewrite h1, h2, h3, h4, h5. reflexivity.
Qed.
Print Assumptions C71_rows.

(** the thicknesses add up to the depth of the last top *)
Theorem C71_depth l first n rows : columns l n -> (0 < n)%nat -> create_layering_for_wolf l first = Ok rows ->
  nsum (map thickness_of (skipn 2 rows)) = nth 0 (wl_top l) 0 - nth (n - 1) (wl_top l) 0.
Proof.
  intros hc hn h. rewrite (C71_rows l first n hc hn) in h. injection h as <-. cbn [skipn]. rewrite map_app, map_map, nsum_app. cbn [map nsum]. unfold thickness_of at 2. cbn [layer_at number_row nth].
  rewrite (nsum_map_seq _ (n - 1)). rewrite <- (telescope (fun i => nth i (wl_top l) 0) (n - 1)). rnum. rewrite Rplus_0_r, Rplus_0_r. apply sumn_ext. intros i hi. reflexivity.
Qed.
Print Assumptions C71_depth.

(** success needs a layer and long enough columns, nothing else: an empty table raises *)
Theorem C71_succeeds l first : (exists rows, create_layering_for_wolf l first = Ok rows) <->
  wl_name l <> [] /\ (forall c, In c [wl_shear l; wl_poisson l; wl_gamma l; wl_damping l] -> c <> [] /\ (length (wl_name l) - 1 <= length c)%nat) /\ ((1 < length (wl_name l))%nat -> (length (wl_name l) <= length (wl_top l))%nat).
Proof.
  split.
  - intros [rows h]. unfold create_layering_for_wolf in h. apply rbind_ok in h. destruct h as [r [hr h]]. apply rbind_ok in h. destruct h as [la [hla _]].
    unfold last_row in hla. do 5 unbind hla. assert (n1 : wl_name l <> []) by (apply at_last_ok; eauto). assert (n2 : wl_shear l <> []) by (apply at_last_ok; eauto). assert (n3 : wl_poisson l <> []) by (apply at_last_ok; eauto). assert (n4 : wl_gamma l <> []) by (apply at_last_ok; eauto). assert (n5 : wl_damping l <> []) by (apply at_last_ok; eauto).
    assert (hj : forall j, (j < length (wl_name l) - 1)%nat -> (j < length (wl_name l))%nat /\ (j < length (wl_shear l))%nat /\ (j < length (wl_poisson l))%nat /\ (j < length (wl_gamma l))%nat /\ (j < length (wl_damping l))%nat /\ (j + 1 < length (wl_top l))%nat).
    { intros j hj. pose proof (mapr_nth _ _ _ j 0%nat [] hr ltac:(rewrite seq_length; exact hj)) as q. rewrite seq_nth in q by exact hj. exact (layer_row_inv _ _ _ q). }
    split; [exact n1|]. pose proof (hj (length (wl_name l) - 2)%nat) as q. split.
    + intros c hc. cbn in hc. destruct hc as [<-|[<-|[<-|[<-|[]]]]]; (split; [assumption|]); (destruct (le_lt_dec (length (wl_name l)) 1) as [c|c]; [lia|]); destruct q as [? [? [? [? [? ?]]]]]; lia.
    + intros c. destruct q as [? [? [? [? [? ?]]]]]; lia.
  - intros [h1 [h2 h3]]. unfold create_layering_for_wolf. destruct (h2 (wl_shear l)) as [a1 a2]; [cbn; auto|]. destruct (h2 (wl_poisson l)) as [b1 b2]; [cbn; auto|]. destruct (h2 (wl_gamma l)) as [c1 c2]; [cbn; auto|]. destruct (h2 (wl_damping l)) as [d1 d2]; [cbn; auto|].
    rewrite (mapr_map _ (fun i => layer_at l i (Str (nth i (wl_top l) 0 - nth (i + 1) (wl_top l) 0)))) by (intros i hi; apply in_seq in hi; apply layer_row_ok; lia). cbn [rbind]. rewrite last_row_ok by assumption. cbn [rbind]. eauto.
Qed.
Print Assumptions C71_succeeds.

(** columns of different lengths are accepted: the half-space takes the end of each column, not the values of its own layer *)
Theorem C71_uneven_refuted : exists l first rows, create_layering_for_wolf l first = Ok rows /\ length (wl_name l) = 1%nat /\ nth 2 rows [] <> layer_at l 0 (Txt "inf").
Proof.
  exists {| wl_name := ["clay"%string]; wl_shear := [1; 2]; wl_poisson := [3 / 10]; wl_gamma := [20]; wl_damping := [1 / 20]; wl_top := [0] |}, []. eexists. split; [unfold create_layering_for_wolf; rewrite last_row_ok by discriminate; reflexivity|].
  split; [reflexivity|]. cbn. intros E. injection E as E. lra.
Qed.
Print Assumptions C71_uneven_refuted.

(** example: two layers of 3 m and 2 m on a half-space *)
Definition ex_layers : layering R := {| wl_name := ["sand"; "clay"; "sand"]%string; wl_shear := [50; 10; 100]; wl_poisson := [3 / 10; 4 / 10; 3 / 10]; wl_gamma := [20; 18; 20]; wl_damping := [1 / 20; 1 / 20; 1 / 20]; wl_top := [1; -2; -4] |}.
Example C71_example : columns ex_layers 3 /\ exists rows, create_layering_for_wolf ex_layers [] = Ok rows /\ length rows = 5%nat /\ nsum (map thickness_of (skipn 2 rows)) = 5.
Proof.
  split; [repeat split; reflexivity|]. eexists. split; [apply (C71_rows _ _ 3); [repeat split; reflexivity|lia]|]. split; [reflexivity|]. rewrite (C71_depth ex_layers [] 3) by first [repeat split; reflexivity|lia|apply C71_rows; [repeat split; reflexivity|lia]]. cbn. lra.
Qed.
