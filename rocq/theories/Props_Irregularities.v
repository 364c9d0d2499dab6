(** * Properties of rail defects and wheel flats (C57, C58) *)

From Coq Require Import Reals List Bool ZArith Arith Lia Lra Psatz.
From Verif Require Import Num PyBase Model_Element Model_Irregularities Spec_Irregularities Proofs_Irregularities.
Import ListNotations.
Local Open Scope R_scope.

(** ** C57: rail defects *)

Lemma clear_touch r x h p : 0 < r -> (Rabs (fst p - x) <= r -> lift r x p <= h) -> clear r (x, h + r) p.
Proof.
  intros hr h0. unfold clear, distance. cbn [fst snd]. destruct (Rle_dec (Rabs (fst p - x)) r) as [c|c].
  - specialize (h0 c). unfold lift in h0. pose proof (cap_pos r (fst p - x)) as h1. pose proof (cap_sq r (fst p - x) hr c) as h2. split; [|intros _; lra].
    rewrite <- (sqrt_pow2 r) at 1 by lra. apply sqrt_le_1_alt. nra.
  - split; [|intros h1; lra]. rewrite <- (sqrt_pow2 r) at 1 by lra. apply sqrt_le_1_alt.
    assert (h1 : r ^ 2 <= (x - fst p) ^ 2). { rewrite <- (pow2_abs (x - fst p)), Rabs_minus_sym. apply pow_incr. lra. }
    pose proof (pow2_ge_0 (h + r - snd p)). lra.
Qed.
Lemma touch_lift r x h p : 0 < r -> (touches r (x, h + r) p <-> Rabs (fst p - x) <= r /\ lift r x p = h).
Proof.
  intros hr. unfold touches, distance. cbn [fst snd]. split.
  - intros [h1 h2]. assert (h3 : (x - fst p) ^ 2 + (h + r - snd p) ^ 2 = r ^ 2).
    { assert (h3 : sqrt ((x - fst p) ^ 2 + (h + r - snd p) ^ 2) ^ 2 = r ^ 2) by (rewrite h1; reflexivity). rewrite pow2_sqrt in h3; [exact h3|]. pose proof (pow2_ge_0 (x - fst p)). pose proof (pow2_ge_0 (h + r - snd p)). lra. }
    assert (h4 : Rabs (fst p - x) <= r) by (apply Rabs_le; nra). split; [exact h4|]. unfold lift, cap.
    replace (r ^ 2 - (fst p - x) ^ 2) with ((h + r - snd p) ^ 2) by (rewrite <- h3; ring). rewrite sqrt_pow2 by lra. ring.
  - intros [h1 h2]. pose proof (cap_pos r (fst p - x)) as h3. pose proof (cap_sq r (fst p - x) hr h1) as h4. unfold lift in h2. split; [|lra].
    replace (h + r - snd p) with (cap r (fst p - x)) by lra. rewrite h4. replace (_ + _) with (r ^ 2) by ring. apply sqrt_pow2. lra.
Qed.
Lemma clear_lift r x h p : 0 < r -> clear r (x, h + r) p -> Rabs (fst p - x) <= r -> lift r x p <= h.
Proof.
  intros hr [h1 h2] hx. specialize (h2 hx). unfold distance in h1. cbn [fst snd] in *. pose proof (cap_pos r (fst p - x)) as h3. pose proof (cap_sq r (fst p - x) hr hx) as h4.
  assert (h5 : r ^ 2 <= (x - fst p) ^ 2 + (h + r - snd p) ^ 2).
  { rewrite <- (pow2_sqrt ((x - fst p) ^ 2 + (h + r - snd p) ^ 2)); [apply pow_incr; lra|]. pose proof (pow2_ge_0 (x - fst p)). pose proof (pow2_ge_0 (h + r - snd p)). lra. }
  unfold lift. assert (h6 : cap r (fst p - x) <= h + r - snd p) by nra. lra.
Qed.

Lemma profile_shape first last_ start local : defect_vertices first last_ start local = profile first last_ start local.
Proof. reflexivity. Qed.
Lemma profile_length first last_ start local : (2 <= length (profile first last_ start local))%nat.
Proof. unfold profile. cbn [app length]. rewrite app_length. cbn. lia. Qed.
Lemma profile_last first last_ start local d : fst (last (profile first last_ start local) d) = last_.
Proof. unfold profile. rewrite app_assoc, last_last. reflexivity. Qed.

(** at every position the wheel, lowered by the irregularity, is clear of the profile and touches it; this determines the
    irregularity *)
Theorem C57_contact (first : R) (more : list R) diameter local start : 0 < diameter ->
  let x_track := first :: more in
  let rail := profile first (last x_track first) start local in
  rightwards rail ->
  exists irr, rail_defect x_track diameter local start = Ok irr /\ length irr = length x_track /\
    forall i x, nth_error x_track i = Some x -> first <= x <= last x_track first ->
      exists d, nth_error irr i = Some (Some d) /\
        let centre d := (x, diameter / 2 - d) in
        (forall p, on_profile rail p -> clear (diameter / 2) (centre d) p) /\
        (exists p, on_profile rail p /\ touches (diameter / 2) (centre d) p) /\
        (forall d', (forall p, on_profile rail p -> clear (diameter / 2) (centre d') p) ->
                    (exists p, on_profile rail p /\ touches (diameter / 2) (centre d') p) -> d' = d).
Proof.
  intros hd x_track rail hright. eexists. split; [reflexivity|]. split; [apply map_length|]. intros i x hi hx. set (r := diameter / 2). assert (hr : 0 < r) by (unfold r; lra).
  assert (hex : exists p, on_profile rail p /\ Rabs (fst p - x) <= r).
  { destruct (profile_over rail x hright) as [p [h1 h2]]; [apply profile_length|unfold rail; rewrite profile_last; exact hx|].
    exists p. split; [exact h1|]. rewrite h2. replace (x - x) with 0 by ring. rewrite Rabs_R0. lra. }
  destruct (height_spec r rail x hr hright (profile_length _ _ _ _) hex) as [h [h1 [h2 h3]]].
  exists (- h). split.
  - fold x_track. rewrite (map_nth_error _ _ _ hi). f_equal. change (ndiv diameter (lit 2)) with r.
    change (defect_vertices first (last x_track first) start local) with rail. rewrite h1. reflexivity.
  - cbv zeta. assert (hc : forall d', (x, r - d') = (x, - d' + r)) by (intros; f_equal; ring).
    split; [|split].
    + intros p hp. rewrite hc, Ropp_involutive. apply clear_touch; auto.
    + destruct h3 as [p [p1 [p2 p3]]]. exists p. split; [exact p1|]. rewrite hc, Ropp_involutive. apply touch_lift; auto.
    + intros d' hcl [p [p1 p2]]. rewrite hc in p2. apply touch_lift in p2; [|exact hr]. destruct p2 as [p2 p3]. pose proof (h2 p p1 p2) as hle.
      destruct h3 as [q [q1 [q2 q3]]]. specialize (hcl q q1). rewrite hc in hcl. pose proof (clear_lift r x (- d') q hr hcl q2) as hle2. lra.
Qed.
Print Assumptions C57_contact.

(** where the rail is straight within a wheel radius the irregularity is zero *)
Theorem C57_straight (first : R) (more : list R) diameter local start i x irr : 0 < diameter ->
  let x_track := first :: more in
  let rail := profile first (last x_track first) start local in
  rightwards rail -> rail_defect x_track diameter local start = Ok irr ->
  nth_error x_track i = Some x -> first <= x <= last x_track first ->
  (forall p, on_profile rail p -> Rabs (fst p - x) <= diameter / 2 -> snd p = 0) -> nth_error irr i = Some (Some 0).
Proof.
  intros hd x_track rail hright hirr hi hx hflat. destruct (C57_contact first more diameter local start hd hright) as [irr' [e [_ h]]]. fold x_track in e, h. rewrite e in hirr. inversion hirr; subst irr'.
  destruct (h i x hi hx) as [d [h1 [_ [_ h4]]]]. rewrite h1. f_equal. f_equal. symmetry. set (r := diameter / 2) in *. assert (hr : 0 < r) by (unfold r; lra). fold rail in h4.
  assert (hl : forall p, on_profile rail p -> Rabs (fst p - x) <= r -> lift r x p <= 0).
  { intros p hp hpx. unfold lift. rewrite (hflat p hp hpx). pose proof (cap_sq r (fst p - x) hr hpx) as e1. pose proof (cap_pos r (fst p - x)). pose proof (pow2_ge_0 (fst p - x)). nra. }
  apply h4.
  - intros p hp. replace (x, r - 0) with (x, 0 + r) by (f_equal; ring). apply clear_touch; auto.
  - destruct (profile_over rail x hright) as [p [p1 p2]]; [apply profile_length|unfold rail; rewrite profile_last; exact hx|]. exists p. split; [exact p1|].
    replace (x, r - 0) with (x, 0 + r) by (f_equal; ring). apply touch_lift; [exact hr|]. assert (hpx : Rabs (fst p - x) <= r) by (rewrite p2; replace (x - x) with 0 by ring; rewrite Rabs_R0; lra).
    split; [exact hpx|]. unfold lift, cap. rewrite (hflat p p1 hpx), p2. replace (x - x) with 0 by ring. replace (r ^ 2 - 0 ^ 2) with (r ^ 2) by ring. rewrite sqrt_pow2; lra.
Qed.
Print Assumptions C57_straight.

Theorem C57_empty diameter (local : list (R * R)) start : rail_defect [] diameter local start = Err ErrIndex.
Proof. reflexivity. Qed.
Print Assumptions C57_empty.

(** a bump of 2 mm on a track of 10 m *)
Example C57_case : rightwards (profile 0 10 3 [(0, 0); (1, 2 / 1000); (2, 0)]) /\ 0 < 92 / 100 /\ 0 <= 4 <= last [0; 4; 10] 0.
Proof. cbn. lra. Qed.

(** ** C58: wheel flats *)

(** an interior sample is indented exactly if a multiple of the circumference, counted from the start position, is passed
    since the sample before.  The claim misses the last sample (see below) *)
Theorem C58_flat_partial rng x diameter flatness start seed irr : 0 < diameter ->
  wheel_flat rng x diameter flatness start seed = Ok irr ->
  let circumference := PI * diameter in
  let offset := match start with None => rng seed 0%nat * circumference | Some s => - s end in
  let height := diameter / 2 * (1 - cos (asin (flatness / diameter))) in
  length irr = length x /\ nth 0 irr 0 = 0 /\
  forall i, (0 < i)%nat -> (S i < length x)%nat ->
    (passes circumference (nth (i - 1) x 0 + offset) (nth i x 0 + offset) -> nth i irr 0 = - height) /\
    (~ passes circumference (nth (i - 1) x 0 + offset) (nth i x 0 + offset) -> nth i irr 0 = 0).
Proof.
  intros hd h circumference offset height. destruct (flat_spec rng x diameter flatness start seed hd irr h) as [h1 [h2 h3]]. split; [exact h1|]. split; [apply h3; intros [c _]; lia|].
  assert (hh : height = flat_height diameter flatness) by (unfold height, flat_height; rnum; cbn [ncos RTrig narcsin RArcSin]; ring).
  intros i hi hl. split; intros hp.
  - rewrite hh. apply h2. split; [exact hi|]. split; [exact hl|]. exact hp.
  - apply h3. intros [_ [_ c]]. contradiction.
Qed.
Print Assumptions C58_flat_partial.

(** the height of the indentation is the height of the segment cut off by a chord of the flat length *)
Theorem C58_height diameter flatness : 0 < diameter -> 0 <= flatness <= diameter ->
  diameter / 2 * (1 - cos (asin (flatness / diameter))) = diameter / 2 - sqrt ((diameter / 2) ^ 2 - (flatness / 2) ^ 2).
Proof.
  intros hd hl. rewrite <- flat_height_chord by assumption. unfold flat_height. rnum. cbn [ncos RTrig narcsin RArcSin]. ring.
Qed.
Print Assumptions C58_height.

(** once per revolution: if the samples are less than a revolution apart, then every multiple of the circumference passed
    before the last sample indents exactly one sample, and no sample belongs to two multiples *)
Theorem C58_once_partial rng x diameter flatness start seed irr : 0 < diameter ->
  wheel_flat rng x diameter flatness start seed = Ok irr ->
  let circumference := PI * diameter in
  let offset := match start with None => rng seed 0%nat * circumference | Some s => - s end in
  let height := diameter / 2 * (1 - cos (asin (flatness / diameter))) in
  (forall i, (S i < length x)%nat -> nth i x 0 <= nth (S i) x 0 <= nth i x 0 + circumference) ->
  let passed k i := (0 < i)%nat /\ (S i < length x)%nat /\ nth (i - 1) x 0 + offset <= IZR k * circumference < nth i x 0 + offset in
  (forall k, nth 0 x 0 + offset <= IZR k * circumference < nth (length x - 2) x 0 + offset ->
     exists i, passed k i /\ nth i irr 0 = - height /\ forall j, passed k j -> j = i) /\
  (forall i k k', passed k i -> passed k' i -> k = k').
Proof.
  intros hd h circumference offset height hmono passed.
  assert (hc : 0 < circumference) by (unfold circumference; apply Rmult_lt_0_compat; [apply PI_RGT_0|exact hd]).
  assert (hup : forall j i, (i <= j)%nat -> (j < length x)%nat -> nth i x 0 <= nth j x 0).
  { induction j as [|j IH]; intros i hi hj; [replace i with 0%nat by lia; lra|]. destruct (Nat.eq_dec i (S j)) as [->|ne]; [lra|].
    pose proof (IH i ltac:(lia) ltac:(lia)). pose proof (hmono j ltac:(lia)). lra. }
  split.
  - intros k hk. destruct (crossing (fun i => nth i x 0 + offset) (length x - 2) (IZR k * circumference) hk) as [i [h1 h2]].
    assert (hp : passed k i) by (split; [lia|]; split; [lia|exact h2]). exists i. split; [exact hp|]. split.
    + destruct (C58_flat_partial rng x diameter flatness start seed irr hd h) as [_ [_ h4]]. apply (h4 i); [lia|lia|]. exists k. exact h2.
    + intros j [j1 [j2 j3]]. destruct (Nat.lt_trichotomy j i) as [c|[c|c]]; [exfalso|exact c|exfalso].
      * pose proof (hup (i - 1)%nat j ltac:(lia) ltac:(lia)). lra.
      * pose proof (hup (j - 1)%nat i ltac:(lia) ltac:(lia)). lra.
  - intros i k k' [i1 [i2 i3]] [_ [_ i4]]. pose proof (hmono (i - 1)%nat ltac:(lia)) as hm. replace (S (i - 1)) with i in hm by lia.
    assert (h1 : (k < k' + 1)%Z) by (apply lt_IZR; rewrite plus_IZR; nra). assert (h2 : (k' < k + 1)%Z) by (apply lt_IZR; rewrite plus_IZR; nra). lia.
Qed.
Print Assumptions C58_once_partial.

(** the last sample is never indented, even when it completes a revolution *)
Theorem C58_last_refuted rng x diameter flatness start seed irr : 0 < diameter ->
  wheel_flat rng x diameter flatness start seed = Ok irr -> nth (length x - 1) irr 0 = 0.
Proof. intros hd h. destruct (flat_spec rng x diameter flatness start seed hd irr h) as [_ [_ h3]]. apply h3. intros [c1 [c2 _]]. lia. Qed.
Print Assumptions C58_last_refuted.

(** a trajectory within one revolution fails; exactly: the call succeeds if and only if an interior sample is indented *)
Theorem C58_short_refuted rng x diameter flatness start seed : 0 < diameter ->
  let circumference := PI * diameter in
  let offset := match start with None => rng seed 0%nat * circumference | Some s => - s end in
  ((forall i, (0 < i)%nat -> (S i < length x)%nat -> ~ passes circumference (nth (i - 1) x 0 + offset) (nth i x 0 + offset)) ->
   wheel_flat rng x diameter flatness start seed = Err ErrIndex) /\
  ((exists irr, wheel_flat rng x diameter flatness start seed = Ok irr) ->
   exists i, (0 < i)%nat /\ (S i < length x)%nat /\ passes circumference (nth (i - 1) x 0 + offset) (nth i x 0 + offset)) /\
  ((exists i, (0 < i)%nat /\ (S i < length x)%nat /\ passes circumference (nth (i - 1) x 0 + offset) (nth i x 0 + offset)) ->
   exists irr, wheel_flat rng x diameter flatness start seed = Ok irr).
Proof.
  intros hd circumference offset. split; [|split].
  - intros h. apply flat_err; [exact hd|]. intros i [h1 [h2 h3]]. exact (h i h1 h2 h3).
  - intros h. apply (flat_ok rng x diameter flatness start seed hd) in h. exact h.
  - intros h. apply (flat_ok rng x diameter flatness start seed hd). exact h.
Qed.
Print Assumptions C58_short_refuted.

(** circumference one, four samples one revolution apart: revolutions are completed at the second, third and fourth *)
Example C58_case : exists irr, wheel_flat (fun _ _ => 0) [1 / 2; 3 / 2; 5 / 2; 7 / 2] (/ PI) (/ PI) (Some 0) 14 = Ok irr /\
  (forall i, (0 < i < 4)%nat -> passes (PI * / PI) (nth (i - 1) [1 / 2; 3 / 2; 5 / 2; 7 / 2] 0 + - 0) (nth i [1 / 2; 3 / 2; 5 / 2; 7 / 2] 0 + - 0)) /\
  nth 2 irr 0 = - (/ PI / 2) /\ nth 3 irr 0 = 0.
Proof.
  assert (hpi : 0 < PI) by apply PI_RGT_0. assert (hd : 0 < / PI) by (apply Rinv_0_lt_compat; exact hpi). assert (he : PI * / PI = 1) by (field; lra).
  assert (hp : forall i, (0 < i < 4)%nat -> passes (PI * / PI) (nth (i - 1) [1 / 2; 3 / 2; 5 / 2; 7 / 2] 0 + - 0) (nth i [1 / 2; 3 / 2; 5 / 2; 7 / 2] 0 + - 0)).
  { rewrite he. intros i hi. destruct i as [|[|[|[|i]]]]; try lia; cbn [Nat.sub nth]; [exists 1%Z|exists 2%Z|exists 3%Z]; lra. }
  destruct (C58_short_refuted (fun _ _ => 0) [1 / 2; 3 / 2; 5 / 2; 7 / 2] (/ PI) (/ PI) (Some 0) 14 hd) as [_ [_ h]].
  destruct h as [irr h]; [exists 1%nat; split; [lia|]; split; [cbn; lia|]; apply hp; lia|]. exists irr. split; [exact h|]. split; [exact hp|].
  destruct (C58_flat_partial _ _ _ _ _ _ irr hd h) as [_ [_ h2]]. split.
  - destruct (h2 2%nat ltac:(lia) ltac:(cbn; lia)) as [h3 _]. rewrite h3 by (apply hp; lia). replace (/ PI / / PI) with 1 by (field; lra). rewrite asin_1, cos_PI2. lra.
  - exact (C58_last_refuted _ _ _ _ _ _ irr hd h).
Qed.
