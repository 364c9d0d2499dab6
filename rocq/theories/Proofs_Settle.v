(** * Proofs about settlement accumulation: closed forms of the Varandas law *)

From Coq Require Import Reals List Bool ZArith Arith Lia Lra Psatz.
From Verif Require Import Num PyBase Model_Element Model_Moving Model_Coupled Model_Accumulation Spec_Accumulation
  Proofs_System Proofs_Moving Proofs_Coupled Proofs_Accumulation.
Import ListNotations.
Local Open Scope R_scope.

(** number of train types with a load in the cycle numbered [nb] *)
Definition active (nb : R) (cycles : list R) : nat := length (filter (fun c => nleb nb c) cycles).

Lemma weights_S beta n : weights beta (S n) = weights beta n + Rpower (1 / INR (S n)) beta.
Proof. reflexivity. Qed.
Lemma weights_0 beta : weights beta 0 = 0.
Proof. reflexivity. Qed.
Lemma weights_1 beta : weights beta 1 = 1.
Proof.
  rewrite weights_S, weights_0. cbn [INR]. replace (1 / 1) with 1 by field. unfold Rpower. rewrite ln_1, Rmult_0_r, exp_0. ring.
Qed.

Section Law.
  Variables (v : varandas R) (top : R).
  Hypothesis hF0 : 0 < va_F0 v.
  Hypothesis htop : 0 <= top.
  Let F := linspace_nat 0 top 100.
  Let beta := va_beta v.
  Let u := 1000 * unit_settlement (va_alpha v) beta (va_gamma v) (va_F0 v) (n0_of v) top.

  Lemma cycle_at n : cycle_settlement v F (INR n) = u * (weights beta (S n) - weights beta n).
  Proof.
    unfold F. rewrite cycle_formula; [|exact htop|apply pos_INR|exact hF0]. rewrite weights_S, S_INR. unfold u, beta. ring.
  Qed.

  (** all types have been at their peak before *)
  Lemma steady_cycle nb cs : forall fs ms n aux, length fs = length cs -> (length cs <= length ms)%nat ->
    (forall i, (i < length cs)%nat -> nth i fs 0 <= nth i ms 0) ->
    cycle_trains v F nb cs fs ms (INR n) aux =
    (INR (n + active nb cs), ms, aux + u * (weights beta (S (n + active nb cs)) - weights beta (S n))).
  Proof.
    induction cs as [|c cs IH]; intros fs ms n aux h1 h2 h3; cbn [cycle_trains].
    - unfold active. cbn [filter length]. rewrite Nat.add_0_r. f_equal. ring.
    - destruct fs as [|f fs]; [cbn in h1; lia|]. destruct ms as [|m ms]; [cbn in h2; lia|]. cbn [length] in h1, h2.
      pose proof (h3 0%nat ltac:(cbn; lia)) as h4. cbn [nth] in h4.
      assert (h5 : forall i, (i < length cs)%nat -> nth i fs 0 <= nth i ms 0) by (intros i hi; apply (h3 (S i)); cbn; lia).
      assert (eM : (if nltb m f then f else m) = m) by (destruct (nltbP m f); [exfalso; lra|reflexivity]).
      assert (eH : (if nleb f m then nadd (INR n) (lit 1) else INR n) = INR (S n)) by (rewrite S_INR; destruct (nlebP f m); [reflexivity|exfalso; lra]).
      unfold active. cbn [filter]. destruct (nleb nb c) eqn:ec.
      + rewrite eH, eM, cycle_at, IH by (lia || assumption). unfold active. cbn [length].
        replace (n + S (length (filter (fun c => nleb nb c) cs)))%nat with (S n + length (filter (fun c => nleb nb c) cs))%nat by lia. f_equal. rnum. ring.
      + rewrite IH by (lia || assumption). reflexivity.
  Qed.
  Lemma steady_history cs fs ms : length fs = length cs -> (length cs <= length ms)%nat ->
    (forall i, (i < length cs)%nat -> nth i fs 0 <= nth i ms 0) ->
    forall count n acc,
    (forall k, (k < length count)%nat ->
       nth k (history v F cs fs count (INR n) ms acc) 0 =
       acc + u * (weights beta (S (n + list_sum (map (fun nb => active nb cs) (firstn (S k) count)))) - weights beta (S n))) /\
    final_load v F cs fs count (INR n) ms = (INR (n + list_sum (map (fun nb => active nb cs) count)), ms).
  Proof.
    intros h1 h2 h3. induction count as [|nb count IH]; intros n acc.
    - split; [intros k hk; cbn in hk; lia|]. cbn. rewrite Nat.add_0_r. reflexivity.
    - cbn [history final_load]. rewrite !steady_cycle by assumption. destruct (IH (n + active nb cs)%nat (acc + u * (weights beta (S (n + active nb cs)) - weights beta (S n)))) as [i1 i2]. split.
      + intros k hk. rewrite firstn_cons. destruct k as [|k]; cbn [nth map].
        * cbn [firstn map]. change (list_sum [active nb cs]) with (active nb cs + 0)%nat. rewrite Nat.add_0_r. reflexivity.
        * rewrite i1 by (cbn in hk; lia). change (list_sum (active nb cs :: ?l)) with (active nb cs + list_sum l)%nat. rewrite Nat.add_assoc. ring.
      + rewrite i2. cbn [map]. change (list_sum (active nb cs :: ?l)) with (active nb cs + list_sum l)%nat. rewrite Nat.add_assoc. reflexivity.
  Qed.

  (** first cycle: all types have a load, and all peaks are new *)
  Lemma first_cycle nb cs : forall fs ms n aux, length fs = length cs -> length ms = length cs ->
    (forall i, (i < length cs)%nat -> nth i ms 0 < nth i fs 0 /\ nb <= nth i cs 0) ->
    cycle_trains v F nb cs fs ms (INR n) aux = (INR n, fs, aux + INR (length cs) * u * (weights beta (S n) - weights beta n)).
  Proof.
    induction cs as [|c cs IH]; intros fs ms n aux h1 h2 h3; cbn [cycle_trains].
    - destruct fs; [|cbn in h1; lia]. destruct ms; [|cbn in h2; lia]. f_equal. cbn. ring.
    - destruct fs as [|f fs]; [cbn in h1; lia|]. destruct ms as [|m ms]; [cbn in h2; lia|]. cbn [length] in h1, h2.
      destruct (h3 0%nat ltac:(cbn; lia)) as [h4 h6]. cbn [nth] in h4, h6.
      assert (h5 : forall i, (i < length cs)%nat -> nth i ms 0 < nth i fs 0 /\ nb <= nth i cs 0) by (intros i hi; apply (h3 (S i)); cbn; lia).
      destruct (nlebP nb c) as [hb|hb]; [|exfalso; lra]. destruct (nltbP m f) as [hb1|hb1]; [|exfalso; lra]. destruct (nlebP f m) as [hb2|hb2]; [exfalso; lra|].
      rewrite cycle_at, IH by (lia || assumption). cbn [length]. rewrite S_INR. f_equal. rnum. ring.
  Qed.

  Lemma list_sum_ones (l : list nat) : (forall x, In x l -> x = 1%nat) -> list_sum l = length l.
  Proof. induction l as [|a l IH]; intros h; [reflexivity|]. change (list_sum (a :: l)) with (a + list_sum l)%nat. rewrite (h a) by (left; reflexivity). cbn [length]. rewrite IH by (intros; apply h; right; assumption). reflexivity. Qed.

  (** one train type *)
  Lemma single_active c count : (forall nb, In nb count -> nb <= c) -> forall k, (k <= length count)%nat ->
    list_sum (map (fun nb => active nb [c]) (firstn k count)) = k.
  Proof.
    intros h k hk. rewrite list_sum_ones.
    - rewrite map_length, firstn_length. lia.
    - intros x hx. apply in_map_iff in hx. destruct hx as [nb [<- hn]]. assert (In nb count) by (rewrite <- (firstn_skipn k count); apply in_or_app; left; exact hn).
      unfold active. cbn [filter]. destruct (nlebP nb c) as [hb|hb]; [reflexivity|]. exfalso. apply hb. auto.
  Qed.
  Lemma single_continued c f m count n acc : f <= m -> (forall nb, In nb count -> nb <= c) ->
    (forall k, (k < length count)%nat -> nth k (history v F [c] [f] count (INR n) [m] acc) 0 = acc + u * (weights beta (S n + S k) - weights beta (S n))) /\
    final_load v F [c] [f] count (INR n) [m] = (INR (n + length count), [m]).
  Proof.
    intros h1 h2. destruct (steady_history [c] [f] [m] eq_refl (le_n _)) with (count := count) (n := n) (acc := acc) as [i1 i2].
    - intros i hi. cbn in hi. destruct i; [exact h1|lia].
    - split.
      + intros k hk. rewrite i1 by exact hk. rewrite single_active by (assumption || lia). replace (S (n + S k)) with (S n + S k)%nat by lia. reflexivity.
      + rewrite i2. rewrite <- (firstn_all count) at 1. rewrite single_active by (assumption || lia). reflexivity.
  Qed.
  Lemma single_fresh c f count : 0 < f -> (forall nb, In nb count -> nb <= c) -> (1 <= length count)%nat ->
    (forall k, (k < length count)%nat -> nth k (history v F [c] [f] count 0 [0] 0) 0 = u * weights beta (S k)) /\
    final_load v F [c] [f] count 0 [0] = (INR (length count - 1), [f]).
  Proof.
    intros h1 h2 h3. destruct count as [|nb count]; [cbn in h3; lia|]. cbn [history final_load].
    assert (hf : forall aux, cycle_trains v F nb [c] [f] [0] (INR 0) aux = (INR 0, [f], aux + INR 1 * u * (weights beta 1 - weights beta 0))).
    { intros aux. apply (first_cycle nb [c] [f] [0]); try reflexivity. intros i hi. cbn in hi. destruct i; [|lia]. cbn [nth]. split; [exact h1|]. apply h2. left. reflexivity. }
    change (INR 0) with 0 in hf. rewrite !hf. rewrite weights_0, weights_1. cbn [INR].
    destruct (single_continued c f f count 0 (0 + 1 * u * (1 - 0)) (Rle_refl f)) as [i1 i2]; [intros; apply h2; right; assumption|]. cbn [INR] in i1, i2. split.
    - intros [|k] hk; cbn [nth]; [rewrite weights_1; ring|]. rewrite i1 by (cbn in hk; lia). rewrite weights_1. replace (1 + S k)%nat with (S (S k)) by lia. ring.
    - rewrite i2. cbn [length]. replace (S (length count) - 1)%nat with (0 + length count)%nat by lia. reflexivity.
  Qed.

  (** several train types from the first day on, with whole numbers of cycles *)
  Fixpoint counting (a n : nat) : list R := match n with O => [] | S n => INR a :: counting (S a) n end.
  Lemma counting_map a n : counting a n = map INR (seq a n).
  Proof. revert a. induction n; intros a; cbn; [reflexivity|]. f_equal. apply IHn. Qed.
  Lemma active_INR k (cs : list nat) : active (INR k) (map INR cs) = length (filter (fun c => Nat.leb k c) cs).
  Proof.
    unfold active. induction cs as [|c cs IH]; [reflexivity|]. cbn [map filter].
    destruct (nlebP (INR k) (INR c)) as [h|h], (Nat.leb_spec k c) as [h'|h']; cbn [length]; try (rewrite IH; reflexivity); exfalso.
    - apply INR_le in h. lia.
    - apply h. apply le_INR. exact h'.
  Qed.
  Lemma active_total (cs : list nat) n : list_sum (map (fun k => length (filter (fun c => Nat.leb k c) cs)) (seq 1 n)) = list_sum (map (fun c => Nat.min n c) cs).
  Proof.
    induction cs as [|c cs IH].
    - cbn [filter length map]. generalize (seq 1 n). intros l. induction l as [|x l IHl]; [reflexivity|]. cbn [map]. change (list_sum (0%nat :: ?l)) with (list_sum l). exact IHl.
    - cbn [map]. change (list_sum (Nat.min n c :: ?l)) with (Nat.min n c + list_sum l)%nat. rewrite <- IH. clear IH. induction n as [|n IHn]; [reflexivity|].
      rewrite seq_S, !map_app, !list_sum_app, IHn. cbn [map filter]. destruct (Nat.leb_spec (1 + n) c) as [h|h]; cbn [length list_sum fold_right]; lia.
  Qed.
  Lemma several (cs : list nat) fs N : length fs = length cs -> (forall f, In f fs -> 0 < f) -> (1 <= N)%nat ->
    nth (N - 1) (history v F (map INR cs) fs (counting 0 N) 0 (repeat 0 (length cs)) 0) 0 =
    u * (INR (length cs) - 1 + weights beta (1 + list_sum (map (fun c => Nat.min (N - 1) c) cs))).
  Proof.
    intros h1 h2 h3. destruct N as [|N]; [lia|]. cbn [counting history]. replace (S N - 1)%nat with N by lia.
    assert (hf : cycle_trains v F (INR 0) (map INR cs) fs (repeat 0 (length cs)) (INR 0) 0 = (INR 0, fs, 0 + INR (length (map INR cs)) * u * (weights beta 1 - weights beta 0))).
    { apply first_cycle; rewrite ?map_length, ?repeat_length; try reflexivity; try exact h1. intros i hi. split.
      - rewrite nth_repeat0 by exact hi. apply h2. apply nth_In. lia.
      - rewrite (nth_map0 _ _ _ 0%nat) by exact hi. apply le_INR. lia. }
    change (INR 0) with 0 in *. rewrite hf. rewrite map_length, weights_0, weights_1. destruct N as [|N].
    - cbn [counting nth history]. cbn [map]. replace (list_sum (map (fun c => Nat.min 0 c) cs)) with 0%nat.
      + rewrite Nat.add_0_r, weights_1. ring.
      + clear. induction cs as [|c cs IH]; [reflexivity|]. cbn [map]. change (list_sum (Nat.min 0 c :: ?l)) with (Nat.min 0 c + list_sum l)%nat. rewrite <- IH. reflexivity.
    - cbn [nth].
      destruct (steady_history (map INR cs) fs fs) with (count := counting 1 (S N)) (n := 0%nat) (acc := 0 + INR (length cs) * u * (1 - 0)) as [i1 _].
      + rewrite map_length. exact h1.
      + rewrite map_length. lia.
      + intros. lra.
      + change (INR 0) with 0 in i1. rewrite i1 by (rewrite counting_map, map_length, seq_length; lia).
        rewrite counting_map, firstn_all2 by (rewrite map_length, seq_length; lia). rewrite map_map.
        rewrite (map_ext (fun k => active (INR k) (map INR cs)) (fun k => length (filter (fun c => Nat.leb k c) cs))) by (intros; apply active_INR).
        rewrite active_total, weights_1. rewrite Nat.add_0_l. change (1 + list_sum ?l)%nat with (S (list_sum l)). ring.
  Qed.
End Law.
