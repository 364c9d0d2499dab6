(** * Proofs about the vibration measure and the soil layering *)

From Coq Require Import Ascii String Reals List Bool ZArith Arith Lia Lra Psatz.
From Verif Require Import Num PyBase Model_System Model_Element Model_Coupled Model_Accumulation Model_Misc Spec_Misc Proofs_System Proofs_Moving Proofs_Accumulation Proofs_LiSelig Proofs_Runs.
Import ListNotations.
Local Open Scope R_scope.
Local Notation length := List.length.

(** ** bands *)
Lemma edges_increase i : (i < 9)%nat -> edge i < edge (i + 1).
Proof. intros h. do 9 (destruct i as [|i]; [unfold edge; cbn; lra|]). lia. Qed.
Lemma edges_mono i j : (i <= j)%nat -> (j <= 9)%nat -> edge i <= edge j.
Proof. intros h. induction h as [|j h IH]; intros hj; [lra|]. apply Rle_trans with (edge j); [apply IH; lia|]. pose proof (edges_increase j ltac:(lia)). replace (S j) with (j + 1)%nat by lia. lra. Qed.
Lemma band_nth i d : (i < 9)%nat -> nth i one_third d = (edge i, edge (i + 1)).
Proof. intros h. do 9 (destruct i as [|i]; [unfold edge, ndec; cbn; f_equal; lra|]). lia. Qed.
Lemma derivative_nth i d : (i < 9)%nat -> nth i derivative d = if (i <? 3)%nat then 0%nat else 2%nat.
Proof. intros h. do 9 (destruct i as [|i]; [reflexivity|]). lia. Qed.
Lemma in_band_iff i f : (i < 9)%nat -> in_band (nth i one_third (0, 0)) f = true <-> in_range i f.
Proof. intros h. rewrite band_nth by exact h. unfold in_band, in_range. cbn [fst snd]. rewrite andb_true_iff. destruct (nlebP (edge i) f) as [a|a]; destruct (nltbP f (edge (i + 1))) as [b|b]; intuition (try lra; try discriminate). Qed.
Lemma range_unique i j f : (i < 9)%nat -> (j < 9)%nat -> in_range i f -> in_range j f -> i = j.
Proof.
  intros hi hj [a b] [c d]. destruct (Nat.lt_trichotomy i j) as [h|[h|h]]; [|exact h|]; exfalso.
  - pose proof (edges_mono (i + 1) j ltac:(lia) ltac:(lia)). lra.
  - pose proof (edges_mono (j + 1) i ltac:(lia) ltac:(lia)). lra.
Qed.
Lemma power_pow x n : power x n = x ^ n.
Proof. induction n as [|n IH]; [reflexivity|]. cbn. rewrite IH. reflexivity. Qed.
Lemma factor_power i f : (i < 9)%nat -> power (2 * PI * f) (2 * nth i derivative 0%nat) = factor i f.
Proof. intros h. rewrite power_pow, derivative_nth by exact h. unfold factor. destruct (i <? 3)%nat; reflexivity. Qed.

(** the loop over the bands *)
Definition wgt (bd : (R * R) * nat) (f : R) : R := if in_band (fst bd) f then power (2 * PI * f) (2 * snd bd) else 1.
Fixpoint wgts (bands : list ((R * R) * nat)) (f : R) : R := match bands with [] => 1 | bd :: r => wgts r f * wgt bd f end.
Lemma map_combine {A B C} (g : A -> B -> C) (l : list A) : forall (m : list B) a b c k, length l = length m -> (k < length l)%nat -> nth k (map (fun '(x, y) => g x y) (combine l m)) c = g (nth k l a) (nth k m b).
Proof. induction l as [|x l IH]; intros [|y m] a b c k h hk; cbn in *; try lia. destruct k; [reflexivity|]. apply IH; lia. Qed.
Lemma rms_band_spec freq df Pxx bd : length freq = length Pxx ->
  fst (rms_band freq df Pxx (fst bd) (snd bd)) = map (fun '(f, p) => wgt bd f * p) (combine freq Pxx) /\
  snd (rms_band freq df Pxx (fst bd) (snd bd)) = sqrt (sumn (length freq) (fun k => if in_band (fst bd) (nth k freq 0) then wgt bd (nth k freq 0) * nth k Pxx 0 * df else 0)).
Proof.
  intros hl. unfold rms_band. cbn [fst snd]. assert (e : map (fun '(f, p) => if in_band (fst bd) f then (power (lit 2 * npi * f) (2 * snd bd) * p)%num else p) (combine freq Pxx) = map (fun '(f, p) => wgt bd f * p) (combine freq Pxx)).
  { apply map_ext. intros [f p]. unfold wgt. cbn [npi RTrig]. rnum. destruct (in_band (fst bd) f); [reflexivity|ring]. }
  rewrite e. split; [reflexivity|]. cbn [nsqrt RNum]. f_equal. rewrite (nsum_combine _ _ _ 0 0) by (rewrite map_length, combine_length; lia).
  apply sumn_ext. intros k hk. rewrite (map_combine (fun f p => wgt bd f * p) freq Pxx 0 0) by (try assumption; lia). rnum. destruct (in_band _ _); reflexivity.
Qed.
Lemma rms_loop_spec freq df bands : forall Pxx, length freq = length Pxx -> exists P v, rms_loop freq df Pxx bands = (P, v) /\
  length P = length freq /\ length v = length bands /\ (forall k, (k < length freq)%nat -> nth k P 0 = wgts bands (nth k freq 0) * nth k Pxx 0) /\
  forall i, (i < length bands)%nat -> nth i v 0 = sqrt (sumn (length freq) (fun k => if in_band (fst (nth i bands ((0, 0), 0%nat))) (nth k freq 0) then wgts (firstn (S i) bands) (nth k freq 0) * nth k Pxx 0 * df else 0)).
Proof.
  induction bands as [|[b d] r IH]; intros Pxx hl.
  - exists Pxx, []. cbn. repeat split; auto; try lia. intros. ring.
  - cbn [rms_loop]. destruct (rms_band freq df Pxx b d) as [P1 v1] eqn:e. destruct (rms_band_spec freq df Pxx (b, d) hl) as [s1 s2]. cbn [fst snd] in s1, s2. rewrite e in s1, s2. cbn [fst snd] in s1, s2.
    assert (hP : forall k, (k < length freq)%nat -> nth k P1 0 = wgt (b, d) (nth k freq 0) * nth k Pxx 0). { intros k hk. rewrite s1. apply (map_combine (fun f p => wgt (b, d) f * p)); assumption. }
    assert (hl1 : length freq = length P1) by (rewrite s1, map_length, combine_length; lia).
    destruct (IH P1 hl1) as [P [v [h1 [h2 [h3 [h4 h5]]]]]]. rewrite h1. exists P, (v1 :: v). split; [reflexivity|]. split; [exact h2|]. split; [cbn; lia|]. split.
    + intros k hk. cbn [wgts]. rewrite h4, hP by exact hk. ring.
    + intros [|i] hi.
      * cbn [nth firstn wgts]. rewrite s2. f_equal. apply sumn_ext. intros k hk. cbn [fst]. destruct (in_band b (nth k freq 0)); [ring|reflexivity].
      * cbn [nth]. cbn in hi. rewrite h5 by lia. f_equal. apply sumn_ext. intros k hk. cbn [firstn]. destruct (in_band _ _); [|reflexivity]. change (wgts ((b, d) :: ?l) ?f) with (wgts l f * wgt (b, d) f). rewrite hP by exact hk. ring.
Qed.
Definition the_bands : list ((R * R) * nat) := combine one_third derivative.
Lemma bands_nth i d : (i < 9)%nat -> nth i the_bands d = (nth i one_third (0, 0), nth i derivative 0%nat).
Proof. intros h. do 9 (destruct i as [|i]; [reflexivity|]). lia. Qed.
Lemma wgts_app a b f : wgts (a ++ b) f = wgts b f * wgts a f.
Proof. induction a as [|x a IH]; cbn; [ring|]. rewrite IH. ring. Qed.
Lemma wgts_one l f : (forall bd, In bd l -> in_band (fst bd) f = false) -> wgts l f = 1.
Proof. induction l as [|x l IH]; intros h; [reflexivity|]. cbn. rewrite IH by (intros; apply h; right; assumption). unfold wgt. rewrite h by (left; reflexivity). ring. Qed.
Lemma in_firstn_nth {A} (l : list A) n x d : In x (firstn n l) -> exists i, (i < n)%nat /\ (i < length l)%nat /\ nth i l d = x.
Proof. intros h. destruct (In_nth _ _ d h) as [i [hi e]]. rewrite firstn_length in hi. exists i. split; [lia|]. split; [lia|]. rewrite <- e. clear - hi. revert l n hi. induction i as [|i IH]; intros [|a l] [|n] hi; cbn in *; try lia; [reflexivity|]. apply IH. lia. Qed.
Lemma in_skipn_nth {A} (l : list A) n x d : In x (skipn n l) -> exists i, (n <= i < length l)%nat /\ nth i l d = x.
Proof. revert l. induction n as [|n IH]; intros l h. { destruct (In_nth _ _ d h) as [i [hi e]]. exists i. split; [cbn in hi; lia|exact e]. } destruct l as [|a l]; [contradiction|]. destruct (IH l h) as [i [hi e]]. exists (S i). cbn. split; [lia|exact e]. Qed.
Lemma other_bands i j f : (i < 9)%nat -> (j < 9)%nat -> in_range i f -> i <> j -> in_band (fst (nth j the_bands ((0, 0), 0%nat))) f = false.
Proof. intros hi hj h hn. rewrite bands_nth by exact hj. cbn [fst]. destruct (in_band _ f) eqn:e; [|reflexivity]. apply in_band_iff in e; [|exact hj]. exfalso. apply hn. exact (range_unique i j f hi hj h e). Qed.
Lemma wgt_in i f : (i < 9)%nat -> in_range i f -> wgt (nth i the_bands ((0, 0), 0%nat)) f = factor i f.
Proof. intros hi h. unfold wgt. rewrite bands_nth by exact hi. cbn [fst snd]. rewrite (proj2 (in_band_iff i f hi) h). apply factor_power, hi. Qed.
Lemma bands_firstn i : (i < 9)%nat -> firstn (S i) the_bands = firstn i the_bands ++ [nth i the_bands ((0, 0), 0%nat)].
Proof. intros h. do 9 (destruct i as [|i]; [reflexivity|]). lia. Qed.
Lemma bands_split i : (i < 9)%nat -> the_bands = firstn i the_bands ++ nth i the_bands ((0, 0), 0%nat) :: skipn (S i) the_bands.
Proof. intros h. do 9 (destruct i as [|i]; [reflexivity|]). lia. Qed.
Lemma wgts_upto i f : (i < 9)%nat -> in_range i f -> wgts (firstn (S i) the_bands) f = factor i f.
Proof.
  intros hi h. rewrite bands_firstn by exact hi. rewrite wgts_app. cbn [wgts]. rewrite wgt_in by assumption. rewrite wgts_one; [ring|]. intros bd hb. apply (in_firstn_nth _ _ _ ((0, 0), 0%nat)) in hb. destruct hb as [j [h1 [h2 <-]]]. apply (other_bands i); auto; lia.
Qed.
Lemma wgts_all i f : (i < 9)%nat -> in_range i f -> wgts the_bands f = factor i f.
Proof.
  intros hi h. rewrite (bands_split i) by exact hi. rewrite wgts_app. cbn [wgts]. rewrite wgt_in by assumption. rewrite !wgts_one; [ring| |].
  - intros bd hb. apply (in_firstn_nth _ _ _ ((0, 0), 0%nat)) in hb. destruct hb as [j [h1 [h2 <-]]]. apply (other_bands i); auto; lia.
  - intros bd hb. apply (in_skipn_nth _ _ _ ((0, 0), 0%nat)) in hb. destruct hb as [j [h1 <-]]. change (length the_bands) with 9%nat in h1. apply (other_bands i); auto; lia.
Qed.
Lemma wgts_none f : (forall i, (i < 9)%nat -> ~ in_range i f) -> wgts the_bands f = 1.
Proof.
  intros h. apply wgts_one. intros bd hb. destruct (In_nth _ _ ((0, 0), 0%nat) hb) as [i [hi <-]]. change (length the_bands) with 9%nat in hi. rewrite bands_nth by exact hi. cbn [fst]. destruct (in_band _ f) eqn:e; [|reflexivity]. apply in_band_iff in e; [|exact hi]. exfalso. exact (h i hi e).
Qed.
Lemma range_dec i f : {in_range i f} + {~ in_range i f}.
Proof. unfold in_range. destruct (Rle_dec (edge i) f); [|right; lra]. destruct (Rlt_dec f (edge (i + 1))); [left|right]; lra. Qed.
Lemma range_cover f : edge 0 <= f < edge 9 -> exists i, (i < 9)%nat /\ in_range i f.
Proof.
  intros [h0 h]. assert (hn : forall n, (n <= 9)%nat -> f < edge n -> exists i, (i < 9)%nat /\ in_range i f).
  { induction n as [|n IH]; intros hn hf; [lra|]. destruct (Rlt_dec f (edge n)) as [c|c]; [apply IH; [lia|exact c]|]. exists n. split; [lia|]. unfold in_range. replace (n + 1)%nat with (S n) by lia. lra. }
  exact (hn 9%nat (le_n _) h).
Qed.
Lemma at_idx_get {A} (l : list A) i d : (i < length l)%nat -> at_idx l i = Ok (nth i l d).
Proof. intros h. apply at_idx_ok, nth_error_nth', h. Qed.
Lemma rms_effective_spec freq Pxx : length freq = length Pxx -> (2 <= length freq)%nat -> exists P v, rms_effective freq Pxx = Ok (P, v) /\ length P = length freq /\ length v = 9%nat /\
  (forall k, (k < length freq)%nat -> (forall i, (i < 9)%nat -> in_range i (nth k freq 0) -> nth k P 0 = factor i (nth k freq 0) * nth k Pxx 0) /\ ((forall i, (i < 9)%nat -> ~ in_range i (nth k freq 0)) -> nth k P 0 = nth k Pxx 0)) /\
  forall i, (i < 9)%nat -> nth i v 0 = sqrt (sumn (length freq) (fun k => if range_dec i (nth k freq 0) then factor i (nth k freq 0) * nth k Pxx 0 * (nth 1 freq 0 - nth 0 freq 0) else 0)).
Proof.
  intros hl h2. unfold rms_effective. rewrite (at_idx_get _ 1 0), (at_idx_get _ 0 0) by lia. cbn [rbind]. destruct (rms_loop_spec freq (nth 1 freq 0 - nth 0 freq 0) the_bands Pxx hl) as [P [v [e [l1 [l2 [h3 h4]]]]]].
  change (combine one_third derivative) with the_bands. rnum. rewrite e. exists P, v. split; [reflexivity|]. split; [exact l1|]. split; [exact l2|]. split.
  - intros k hk. split; [intros i hi h|intros h]; rewrite h3 by exact hk; [rewrite (wgts_all i) by assumption; reflexivity|rewrite wgts_none by exact h; ring].
  - intros i hi. rewrite h4 by exact hi. f_equal. apply sumn_ext. intros k hk. rewrite bands_nth by exact hi. cbn [fst]. destruct (range_dec i (nth k freq 0)) as [c|c].
    + rewrite (proj2 (in_band_iff i _ hi) c), wgts_upto by assumption. reflexivity.
    + destruct (in_band _ _) eqn:e'; [|reflexivity]. apply in_band_iff in e'; [contradiction|exact hi].
Qed.

(** ** effective values *)
Lemma diff_length dx x : length (diff dx x) = (length x - 1)%nat.
Proof. induction x as [|a x IH]; [reflexivity|]. destruct x as [|b x]; [reflexivity|]. cbn [diff length] in *. rewrite IH. lia. Qed.
Lemma diff_nth dx x : forall k, (k < length x - 1)%nat -> nth k (diff dx x) 0 = (nth (k + 1) x 0 - nth k x 0) / dx.
Proof.
  induction x as [|a x IH]; intros k hk; [cbn in hk; lia|]. destruct x as [|b x]; [cbn in hk; lia|]. destruct k as [|k]; [reflexivity|]. cbn [diff]. cbn [length] in hk, IH. change (nth (S k) (?h :: ?t) 0) with (nth k t 0) at 1.
  rewrite IH by lia. reflexivity.
Qed.
Lemma derive_derived i dx s : (i < 9)%nat -> derived i dx s (derive dx s (nth i derivative 0%nat)).
Proof.
  intros hi. rewrite derivative_nth by exact hi. unfold derived. destruct (i <? 3)%nat; [reflexivity|]. cbn [derive]. rewrite !diff_length. split; [lia|]. intros k hk. rewrite diff_nth by (rewrite diff_length; lia).
  rewrite !diff_nth by lia. unfold second_difference. replace (k + 1 + 1)%nat with (k + 2)%nat by lia. reflexivity.
Qed.
Lemma sumn_upto k n (f : nat -> R) : sumn (Nat.min (S k) n) f = sumn n (fun i => if (i <=? k)%nat then f i else 0).
Proof.
  induction n as [|n IH]; [rewrite Nat.min_0_r; reflexivity|]. cbn [sumn]. rewrite <- IH. destruct (Nat.leb_spec n k) as [h|h].
  - rewrite !Nat.min_r by lia. reflexivity.
  - rewrite !Nat.min_l by lia. rnum. ring.
Qed.
Lemma convolve_length (a g : list R) : length (convolve a g) = (length a + length g - 1)%nat.
Proof. unfold convolve. rewrite map_length, seq_length. reflexivity. Qed.
Lemma convolve_nth (a g : list R) k : (k < length a + length g - 1)%nat -> nth k (convolve a g) 0 = sumn (length a) (fun i => if (i <=? k)%nat then if (k - i <? length g)%nat then nth i a 0 * nth (k - i) g 0 else 0 else 0).
Proof. intros h. unfold convolve. rewrite (nth_map_d _ _ _ 0%nat) by (rewrite seq_length; exact h). rewrite seq_nth by exact h. rewrite sumn_upto. reflexivity. Qed.
Lemma ksi_count dx N : 0 < dx -> INR N <= 8 / dx + 1 < INR N + 1 -> Z.to_nat (ntrunc (lit 4 * lit 2 / dx + lit 1)%num) = N.
Proof.
  intros hd hN. unfold ntrunc. destruct (nlebP (lit 0) (lit 4 * lit 2 / dx + lit 1)%num) as [c|c].
  - destruct (nfloor_spec (lit 4 * lit 2 / dx + lit 1)%num) as [f1 f2]. set (z := nfloor _) in *. assert (e : z = Z.of_nat N); [|rewrite e; apply Nat2Z.id].
    rnum. replace (4 * 2 / dx) with (8 / dx) in * by (field; lra). rewrite INR_IZR_INZ in hN. assert (IZR z < IZR (Z.of_nat N) + 1) by lra. assert (IZR (Z.of_nat N) < IZR z + 1) by lra.
    rewrite <- (plus_IZR _ 1) in H. rewrite <- (plus_IZR _ 1) in H0. apply lt_IZR in H, H0. lia.
  - exfalso. apply c. rnum. replace (4 * 2 / dx) with (8 / dx) by (field; lra). pose proof (pos_INR N). lra.
Qed.
Lemma weights_spec dx N : 0 < dx -> (2 <= N)%nat -> INR N <= 8 / dx + 1 < INR N + 1 -> length (weights (lit 4) (lit 2) dx) = N /\ forall j, (j < N)%nat -> nth j (weights (lit 4) (lit 2) dx) 0 = decay N j.
Proof.
  intros hd h2 hN. unfold weights, ksi. rewrite (ksi_count dx N hd hN). rewrite !map_length, seq_length. split; [reflexivity|]. intros j hj. rewrite map_map, (nth_map_d _ _ _ 0%nat) by (rewrite seq_length; exact hj). rewrite seq_nth by exact hj.
  destruct (Nat.leb_spec N 1) as [c|c]; [lia|]. unfold decay. rewrite !nofnat_R. cbn [nexp RExpLog]. rnum. replace (4 * 2) with 8 by ring. replace (0 + j)%nat with j by lia. unfold Rdiv. rewrite Rmult_1_l, Rmult_comm. f_equal.
Qed.
Definition levels (dx : R) (v : list R) : list R := map (fun x => nsqrt (x * dx / lit 2)%num) (convolve (map sq v) (weights (lit 4) (lit 2) dx)).
Lemma levels_spec dx N v : 0 < dx -> (2 <= N)%nat -> INR N <= 8 / dx + 1 < INR N + 1 -> length (levels dx v) = (length v + N - 1)%nat /\ forall k, (k < length v + N - 1)%nat -> nth k (levels dx v) 0 = level dx N v k.
Proof.
  intros hd h2 hN. destruct (weights_spec dx N hd h2 hN) as [w1 w2]. unfold levels. rewrite map_length, convolve_length, map_length, w1. split; [reflexivity|]. intros k hk.
  rewrite (nth_map_d _ _ _ 0) by (rewrite convolve_length, map_length, w1; exact hk). rewrite convolve_nth by (rewrite map_length, w1; exact hk). rewrite map_length, w1. unfold level. cbn [nsqrt RNum]. f_equal. rnum. f_equal. f_equal. apply sumn_ext. intros i hi.
  destruct (i <=? k)%nat; [|reflexivity]. destruct (Nat.ltb_spec (k - i) N) as [c|c]; [|reflexivity]. rewrite w2 by exact c. rewrite (nth_map_d _ _ _ 0) by exact hi. unfold sq. rnum. ring.
Qed.
Lemma max_is_max l m d (f : nat -> R) (n : nat) : max_of l = Ok m -> length l = n -> (forall k, (k < n)%nat -> nth k l d = f k) -> is_max m f (fun k => (k < n)%nat).
Proof.
  intros h hl hf. apply max_of_ok in h. destruct h as [h1 h2]. split.
  - destruct (In_nth _ _ d h1) as [k [hk e]]. exists k. rewrite <- hf by lia. split; [lia|auto].
  - intros k hk. rewrite <- hf by exact hk. apply h2, nth_In. lia.
Qed.
Lemma centre_spec n dx M : 0 < dx -> INR M <= 1 / dx < INR M + 1 -> (M <= n)%nat -> centre n dx = map (fun i => Z.of_nat ((n - M) / 2 + i)) (seq 0 M).
Proof.
  intros hd hM hn. unfold centre. destruct (nfloor_spec (lit 1 / dx)%num) as [f1 f2]. set (z := nfloor (lit 1 / dx)%num) in *. assert (e : z = Z.of_nat M).
  { rnum. rewrite INR_IZR_INZ in hM. assert (IZR z < IZR (Z.of_nat M) + 1) by lra. assert (IZR (Z.of_nat M) < IZR z + 1) by lra. rewrite <- (plus_IZR _ 1) in H. rewrite <- (plus_IZR _ 1) in H0. apply lt_IZR in H, H0. lia. }
  clearbody z. subst z. rewrite Nat2Z.id. apply map_ext_in. intros i hi. rewrite Nat2Z.inj_add. f_equal. destruct (nfloor_spec ((nofnat n - lit (Z.of_nat M)) / lit 2)%num) as [g1 g2]. set (y := nfloor ((nofnat n - lit (Z.of_nat M)) / lit 2)%num) in *. clearbody y. unfold nofnat in *. rnum.
  set (q := ((n - M) / 2)%nat). assert (hq : (2 * q <= n - M < 2 * q + 2)%nat). { unfold q. pose proof (Nat.div_mod (n - M) 2 ltac:(lia)). pose proof (Nat.mod_upper_bound (n - M) 2 ltac:(lia)). lia. }
  assert (IZR (2 * y) <= IZR (Z.of_nat n - Z.of_nat M)) by (rewrite mult_IZR, minus_IZR; lra). assert (IZR (Z.of_nat n - Z.of_nat M) < IZR (2 * y + 2)) by (rewrite plus_IZR, mult_IZR, minus_IZR; lra). apply le_IZR in H. apply lt_IZR in H0. lia.
Qed.
Lemma centre_any n dx M : 0 < dx -> INR M <= 1 / dx < INR M + 1 -> centre n dx = map (fun i => ((Z.of_nat n - Z.of_nat M) / 2 + Z.of_nat i)%Z) (seq 0 M).
Proof.
  intros hd hM. unfold centre. destruct (nfloor_spec (lit 1 / dx)%num) as [f1 f2]. set (z := nfloor (lit 1 / dx)%num) in *. assert (e : z = Z.of_nat M).
  { rnum. rewrite INR_IZR_INZ in hM. assert (IZR z < IZR (Z.of_nat M) + 1) by lra. assert (IZR (Z.of_nat M) < IZR z + 1) by lra. rewrite <- (plus_IZR _ 1) in H. rewrite <- (plus_IZR _ 1) in H0. apply lt_IZR in H, H0. lia. }
  clearbody z. subst z. rewrite Nat2Z.id. apply map_ext_in. intros i hi. f_equal. destruct (nfloor_spec ((nofnat n - lit (Z.of_nat M)) / lit 2)%num) as [g1 g2]. set (y := nfloor ((nofnat n - lit (Z.of_nat M)) / lit 2)%num) in *. clearbody y. unfold nofnat in *. rnum.
  assert (IZR (2 * y) <= IZR (Z.of_nat n - Z.of_nat M)) by (rewrite mult_IZR, minus_IZR; lra). assert (IZR (Z.of_nat n - Z.of_nat M) < IZR (2 * y + 2)) by (rewrite plus_IZR, mult_IZR, minus_IZR; lra). apply le_IZR in H. apply lt_IZR in H0.
  apply Z.div_unique with (r := (Z.of_nat n - Z.of_nat M - 2 * y)%Z); lia.
Qed.
Lemma at_int_nat (x : list R) i : (i < length x)%nat -> at_int x (Z.of_nat i) = Ok (nth i x 0).
Proof. intros h. unfold at_int. assert (e : (Z.of_nat i <? 0)%Z = false) by (apply Z.ltb_ge; lia). rewrite e, e, Nat2Z.id. apply at_idx_get, h. Qed.

Lemma at_int_in (x : list R) i a : at_int x i = Ok a -> In a x.
Proof. unfold at_int. set (j := if Z.ltb i 0 then _ else i). cbv zeta. destruct (Z.ltb j 0); [discriminate|]. intros h. apply at_idx_ok in h. exact (nth_error_In _ _ h). Qed.

Section Effective.
  Context (bandpass : list R -> R -> R -> R -> res (list R)).
  Lemma effective_inv signal dx b d m mc : effective_value bandpass signal dx b d = Ok (m, mc) -> exists s c, bandpass signal (fst b) (snd b) dx = Ok s /\ derive dx s d <> [] /\
    max_of (levels dx (derive dx s d)) = Ok m /\ mapr (at_int (levels dx (derive dx s d))) (centre (length signal) dx) = Ok c /\ max_of c = Ok mc.
  Proof.
    unfold effective_value. intros h. apply rbind_ok in h. destruct h as [s [hs h]]. destruct (derive dx s d) as [|a r] eqn:e; [discriminate|]. fold (levels dx (a :: r)) in h. apply rbind_ok in h. destruct h as [m' [hm h]]. apply rbind_ok in h. destruct h as [c [hc h]]. apply rbind_ok in h. destruct h as [mc' [hmc h]]. injection h as <- <-.
    exists s, c. rewrite e. repeat split; try assumption. discriminate.
  Qed.
End Effective.

(** ** soil layers *)
Lemma at_last_spec {A} (x : list A) d : x <> [] -> at_last x = Ok (nth (length x - 1) x d).
Proof. intros h. unfold at_last. destruct (exists_last h) as [l [a e]]. subst x. rewrite rev_app_distr. cbn. f_equal. rewrite app_length, app_nth2 by (cbn; lia). replace (length l + length [a] - 1 - length l)%nat with 0%nat by (cbn; lia). reflexivity. Qed.
Lemma at_last_ok {A} (x : list A) : (exists a, at_last x = Ok a) <-> x <> [].
Proof. split; [intros [a h] ->; discriminate|]. intros h. destruct x as [|b x]; [contradiction|]. rewrite (at_last_spec _ b) by discriminate. eauto. Qed.
Lemma mega_R (x : R) : (x * lit 1000000)%num = 1000000 * x.
Proof. rnum. ring. Qed.
Lemma density_R (x : R) : (x * lit 1000 / ndec 981 2)%num = 1000 * x / (981 / 100).
Proof. unfold ndec. cbn. field. Qed.
Lemma lset_same {A} (l : list A) i v d : (i < length l)%nat -> nth i (lset l i v) d = v.
Proof. revert i. induction l as [|x l IH]; intros [|i] h; cbn in *; try lia; [reflexivity|]. apply IH. lia. Qed.
Lemma layer_row_ok (l : layering R) j : (j < length (wl_name l))%nat -> (j < length (wl_shear l))%nat -> (j < length (wl_poisson l))%nat -> (j < length (wl_gamma l))%nat -> (j < length (wl_damping l))%nat -> (j + 1 < length (wl_top l))%nat ->
  layer_row l j = Ok (layer_at l j (Str (nth j (wl_top l) 0 - nth (j + 1) (wl_top l) 0))).
Proof.
  intros h1 h2 h3 h4 h5 h6. unfold layer_row. rewrite (at_idx_get (wl_name l) j ""%string) by exact h1. rewrite (at_idx_get (wl_shear l) j 0), (at_idx_get (wl_poisson l) j 0), (at_idx_get (wl_gamma l) j 0), (at_idx_get (wl_damping l) j 0), (at_idx_get (wl_top l) j 0), (at_idx_get (wl_top l) (j + 1) 0) by (assumption || lia).
  cbn [rbind]. rewrite mega_R, density_R. reflexivity.
Qed.
Lemma last_row_ok (l : layering R) : wl_name l <> [] -> wl_shear l <> [] -> wl_poisson l <> [] -> wl_gamma l <> [] -> wl_damping l <> [] ->
  last_row l = Ok (number_row (nth (length (wl_name l) - 1) (wl_name l) ""%string) (1000000 * nth (length (wl_shear l) - 1) (wl_shear l) 0) (nth (length (wl_poisson l) - 1) (wl_poisson l) 0)
    (1000 * nth (length (wl_gamma l) - 1) (wl_gamma l) 0 / (981 / 100)) (nth (length (wl_damping l) - 1) (wl_damping l) 0) (Txt "inf")).
Proof.
  intros h1 h2 h3 h4 h5. unfold last_row. rewrite (at_last_spec (wl_name l) ""%string) by exact h1. rewrite (at_last_spec (wl_shear l) 0), (at_last_spec (wl_poisson l) 0), (at_last_spec (wl_gamma l) 0), (at_last_spec (wl_damping l) 0) by assumption.
  cbn [rbind]. rewrite mega_R, density_R. reflexivity.
Qed.
Lemma layer_row_inv (l : layering R) j r : layer_row l j = Ok r -> (j < length (wl_name l))%nat /\ (j < length (wl_shear l))%nat /\ (j < length (wl_poisson l))%nat /\ (j < length (wl_gamma l))%nat /\ (j < length (wl_damping l))%nat /\ (j + 1 < length (wl_top l))%nat.
Proof.
  unfold layer_row. intros h. do 7 unbind h. apply (at_idx_nth _ _ _ ""%string) in hv. repeat match goal with H : at_idx _ _ = Ok _ |- _ => apply (at_idx_nth _ _ _ 0) in H; destruct H end. destruct hv. auto 10.
Qed.
Lemma telescope (f : nat -> R) n : sumn n (fun i => f i - f (i + 1)%nat) = f 0%nat - f n.
Proof. induction n as [|n IH]; cbn [sumn]; [rnum; ring|]. rewrite IH. replace (n + 1)%nat with (S n) by lia. rnum. ring. Qed.
