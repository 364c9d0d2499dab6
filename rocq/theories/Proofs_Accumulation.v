(** * Proofs about settlement accumulation: traffic, load cycles and the Varandas law *)

From Coq Require Import Reals List Bool ZArith Arith Lia Lra Psatz Sorted.
From Verif Require Import Num PyBase Model_Element Model_Moving Model_Coupled Model_Accumulation Spec_Accumulation
  Proofs_System Proofs_Moving Proofs_Coupled.
Import ListNotations.
Local Open Scope R_scope.

(** ** lists *)

Lemma mapr_spec {A B} (f : A -> res B) l out : mapr f l = Ok out <-> Forall2 (fun a b => f a = Ok b) l out.
Proof.
  revert out. induction l as [|a l IH]; intros out; cbn.
  - split; [intros h; assert (out = []) by congruence; subst; constructor|intros h; inversion h; reflexivity].
  - destruct (f a) as [b|e] eqn:ea; cbn.
    + destruct (mapr f l) as [q|e] eqn:eq; cbn.
      * split.
        -- intros h. assert (b :: q = out) by congruence. subst out. constructor; [exact ea|]. apply IH. reflexivity.
        -- intros h. inversion h as [|x y xs ys h1 h2]; subst. assert (b = y) by congruence. subst y. apply IH in h2. congruence.
      * split; [discriminate|]. intros h. inversion h as [|x y xs ys h1 h2]; subst. apply IH in h2. discriminate.
    + split; [discriminate|]. intros h. inversion h as [|x y xs ys h1 h2]; subst. congruence.
Qed.
Lemma mapr_length {A B} (f : A -> res B) l out : mapr f l = Ok out -> length out = length l.
Proof. intros h. apply mapr_spec in h. induction h; cbn; congruence. Qed.
Lemma mapr_nth {A B} (f : A -> res B) l out i a b : mapr f l = Ok out -> (i < length l)%nat -> f (nth i l a) = Ok (nth i out b).
Proof.
  intros h. apply mapr_spec in h. revert i. induction h as [|x y xs ys h1 h2 IH]; intros i hi; cbn in hi; [lia|].
  destruct i; cbn; [exact h1|]. apply IH. lia.
Qed.
Lemma mapr_ok {A B} (f : A -> res B) l (d : A) : (forall i, (i < length l)%nat -> exists b, f (nth i l d) = Ok b) -> exists out, mapr f l = Ok out.
Proof.
  induction l as [|a l IH]; intros h; [exists []; reflexivity|].
  destruct (h 0%nat) as [b hb]; [cbn; lia|]. cbn in hb. destruct IH as [q hq]; [intros i hi; apply (h (S i)); cbn; lia|].
  exists (b :: q). cbn. rewrite hb, hq. reflexivity.
Qed.
Lemma mapr_map {A B} (f : A -> res B) (g : A -> B) l : (forall a, In a l -> f a = Ok (g a)) -> mapr f l = Ok (map g l).
Proof. induction l as [|a l IH]; intros h; [reflexivity|]. cbn. rewrite h by (left; reflexivity). cbn. rewrite IH by (intros; apply h; right; auto). reflexivity. Qed.
Lemma at_idx_ok {A} (l : list A) i a : at_idx l i = Ok a <-> nth_error l i = Some a.
Proof. unfold at_idx. destruct (nth_error l i); split; congruence. Qed.
Lemma at_idx_nth {A} (l : list A) i a d : at_idx l i = Ok a -> (i < length l)%nat /\ nth i l d = a.
Proof. intros h. apply at_idx_ok in h. exact (nth_err_inv l i d a h). Qed.
Lemma rbind_ok {A B} (x : res A) (f : A -> res B) b : rbind x f = Ok b -> exists a, x = Ok a /\ f a = Ok b.
Proof. destruct x; cbn; [eauto|discriminate]. Qed.
Ltac unbind h := let a := fresh "v" in let h1 := fresh "hv" in apply rbind_ok in h; destruct h as [a [h1 h]].

Lemma nth_last {A} (l : list A) a d : l <> [] -> last l d = nth (length l - 1) l a.
Proof.
  intros h. destruct (exists_last h) as [q [x ->]]. rewrite last_last, app_length, app_nth2 by (cbn; lia).
  replace (length q + length [x] - 1 - length q)%nat with 0%nat by (cbn; lia). reflexivity.
Qed.

Lemma max_of_ok (l : list R) m : max_of l = Ok m -> In m l /\ forall x, In x l -> x <= m.
Proof.
  intros h. destruct l as [|a l]; [discriminate|]. destruct (max_of_spec (a :: l)) as [m' [h1 [h2 h3]]]; [discriminate|].
  assert (m' = m) by congruence. subst m'. auto.
Qed.

(** ** [numpy.linspace] and [int] *)

Lemma ls_length (a b : R) n : length (linspace_nat a b n) = n.
Proof. destruct n as [|[|n]]; try reflexivity. unfold linspace_nat. rewrite app_length, map_length, seq_length. cbn. lia. Qed.
Lemma ls_nth (a b : R) n i : (2 <= n)%nat -> (i < n)%nat -> nth i (linspace_nat a b n) 0 = a + INR i * (b - a) / INR (n - 1).
Proof.
  intros h1 h2. destruct n as [|[|n]]; try lia. unfold linspace_nat. replace (S (S n) - 1)%nat with (S n) by lia.
  assert (hn : INR (S n) <> 0) by (apply not_0_INR; lia).
  destruct (Nat.eq_dec i (S n)) as [->|hi].
  - rewrite app_nth2 by (rewrite map_length, seq_length; lia). rewrite map_length, seq_length. replace (S n - S n)%nat with 0%nat by lia. cbn [nth]. field. exact hn.
  - rewrite app_nth1 by (rewrite map_length, seq_length; lia). rewrite (nth_map0 _ _ _ 0%nat) by (rewrite seq_length; lia).
    rewrite seq_nth by lia. rewrite !nofnat_R. rnum. cbn [Nat.add]. field. exact hn.
Qed.
Lemma ls_first (a b : R) n : (1 <= n)%nat -> nth 0 (linspace_nat a b n) 0 = a.
Proof. intros h. destruct (Nat.eq_dec n 1) as [->|h']; [reflexivity|]. rewrite ls_nth by lia. cbn [INR]. unfold Rdiv. ring. Qed.
Lemma ls_last (a b : R) n : (2 <= n)%nat -> nth (n - 1) (linspace_nat a b n) 0 = b.
Proof. intros h. rewrite ls_nth by lia. field. apply not_0_INR. lia. Qed.
Lemma linspace_ok (a b : R) k l : linspace a b k = Ok l <-> (0 <= k)%Z /\ l = linspace_nat a b (Z.to_nat k).
Proof. unfold linspace. destruct (Z.ltb_spec k 0); split; try (intros [? ->]); try discriminate; try lia; auto. intros h. split; [lia|congruence]. Qed.

Lemma trunc_nonneg (x : R) : 0 <= x -> (0 <= ntrunc x)%Z /\ IZR (ntrunc x) <= x < IZR (ntrunc x) + 1.
Proof.
  intros h. unfold ntrunc. destruct (nlebP (lit 0) x) as [h'|h']; [|rnum; lra]. destruct (nfloor_spec x) as [h1 h2]. split; [|lra].
  apply le_IZR. assert (IZR (-1) < IZR (nfloor x)) by lra. apply lt_IZR in H. apply IZR_le. lia.
Qed.
Lemma trunc_unique (x : R) z : 0 <= x -> IZR z <= x < IZR z + 1 -> ntrunc x = z.
Proof.
  intros h hz. destruct (trunc_nonneg x h) as [_ h1].
  assert (IZR (ntrunc x) < IZR (z + 1)) by (rewrite plus_IZR; lra). assert (IZR z < IZR (ntrunc x + 1)) by (rewrite plus_IZR; lra).
  apply lt_IZR in H, H0. lia.
Qed.
Lemma trunc_neg (x : R) : x < 0 -> (ntrunc x <= 0)%Z.
Proof.
  intros h. unfold ntrunc. destruct (nlebP (lit 0) x) as [h'|h']; [rnum; lra|]. unfold nceil. rnum. destruct (nfloor_spec (- x)) as [h1 h2].
  assert (IZR (-1) < IZR (nfloor (- x))) by lra. apply lt_IZR in H. lia.
Qed.
Lemma trunc_INR n : ntrunc (INR n) = Z.of_nat n.
Proof. apply trunc_unique; [apply pos_INR|]. rewrite <- INR_IZR_INZ. lra. Qed.

(** ** the indices at which results are stored *)

Definition stored (N K : nat) : list Z := map ntrunc (linspace_nat 0 (IZR (Z.of_nat N - 1)) K).
Lemma stored_length N K : length (stored N K) = K.
Proof. unfold stored. rewrite map_length. apply ls_length. Qed.
Lemma ntrunc_0 : ntrunc (0 : R) = 0%Z.
Proof. apply trunc_unique; lra. Qed.
Lemma stored_nth N K j : (2 <= K <= N)%nat -> (j < K)%nat ->
  nth j (stored N K) 0%Z = ntrunc (INR j * INR (N - 1) / INR (K - 1)).
Proof.
  intros h1 h2. unfold stored. rewrite (nth_indep _ 0%Z (ntrunc (0 : R))) by (rewrite map_length, ls_length; lia). rewrite map_nth. rewrite ls_nth by lia. f_equal.
  replace (Z.of_nat N - 1)%Z with (Z.of_nat (N - 1)) by lia. rewrite <- INR_IZR_INZ. unfold Rdiv. ring.
Qed.
Lemma stored_step N K i j : (2 <= K <= N)%nat -> (i < j < K)%nat ->
  (0 <= nth i (stored N K) 0 < nth j (stored N K) 0)%Z /\ (nth j (stored N K) 0 < Z.of_nat N)%Z.
Proof.
  intros h1 h2. rewrite !stored_nth by lia. set (q := INR (N - 1) / INR (K - 1)).
  assert (hk : 0 < INR (K - 1)) by (apply lt_0_INR; lia). assert (hq : 1 <= q).
  { unfold q. apply (Rmult_le_reg_r (INR (K - 1))); [exact hk|]. unfold Rdiv. rewrite Rmult_assoc, Rinv_l by lra. rewrite Rmult_1_l, Rmult_1_r. apply le_INR. lia. }
  assert (hx : forall k, INR k * INR (N - 1) / INR (K - 1) = INR k * q) by (intros; unfold q, Rdiv; ring). rewrite !hx.
  assert (hi : 0 <= INR i * q) by (apply Rmult_le_pos; [apply pos_INR|lra]). assert (hj : 0 <= INR j * q) by (apply Rmult_le_pos; [apply pos_INR|lra]).
  destruct (trunc_nonneg _ hi) as [a1 a2]. destruct (trunc_nonneg _ hj) as [b1 b2].
  assert (hij : INR i + 1 <= INR j) by (rewrite <- S_INR; apply le_INR; lia).
  assert (hstep : INR i * q + 1 <= INR j * q) by nra.
  assert (hup : INR j * q <= INR (N - 1)).
  { assert (INR j <= INR (K - 1)) by (apply le_INR; lia). replace (INR (N - 1)) with (INR (K - 1) * q) by (unfold q; field; lra). apply Rmult_le_compat_r; lra. }
  split; [split; [exact a1|]|].
  - apply lt_IZR. lra.
  - apply lt_IZR. rewrite <- INR_IZR_INZ. assert (INR (N - 1) = INR N - 1) by (rewrite minus_INR by lia; reflexivity). lra.
Qed.
Lemma stored_one N : stored N 1 = [0%Z].
Proof. unfold stored. cbn. f_equal. apply ntrunc_0. Qed.
Lemma stored_bounds N K j : (1 <= K <= N)%nat -> (j < K)%nat -> (0 <= nth j (stored N K) 0 < Z.of_nat N)%Z.
Proof.
  intros h1 h2. destruct (Nat.eq_dec K 1) as [->|hk].
  - replace j with 0%nat by lia. rewrite stored_one. cbn. lia.
  - destruct j as [|j].
    + destruct (stored_step N K 0 1) as [a b]; lia.
    + destruct (stored_step N K 0 (S j)) as [a b]; lia.
Qed.
Lemma stored_last N K : (2 <= K <= N)%nat -> nth (K - 1) (stored N K) 0%Z = Z.of_nat (N - 1).
Proof.
  intros h. rewrite stored_nth by lia. rewrite <- (trunc_INR (N - 1)). f_equal. field. apply not_0_INR. lia.
Qed.
Lemma stored_all N j : (j < N)%nat -> nth j (stored N N) 0%Z = Z.of_nat j.
Proof.
  intros h. destruct (Nat.eq_dec N 1) as [->|hN]; [rewrite stored_one; replace j with 0%nat by lia; reflexivity|].
  rewrite stored_nth by lia. rewrite <- trunc_INR. f_equal. field. apply not_0_INR. lia.
Qed.

Lemma sorted_nth (l : list Z) : (forall i j, (i < j < length l)%nat -> (nth i l 0 < nth j l 0)%Z) -> StronglySorted Z.lt l.
Proof.
  induction l as [|a l IH]; intros h; constructor.
  - apply IH. intros i j hij. apply (h (S i) (S j)). cbn. lia.
  - apply Forall_forall. intros x hx. destruct (In_nth l x 0%Z hx) as [i [h1 h2]]. specialize (h 0%nat (S i)). cbn in h. rewrite h2 in h. apply h. lia.
Qed.
Lemma stored_sorted N K : (K <= N)%nat -> StronglySorted Z.lt (stored N K).
Proof.
  intros h. apply sorted_nth. rewrite stored_length. intros i j hij. destruct (stored_step N K i j); lia.
Qed.

(** the elements of [l], numbered from [n], whose number is in [index] *)
Fixpoint pick (index : list Z) (n : nat) (l : list R) : list R :=
  match l with
  | [] => []
  | x :: r => if existsb (Z.eqb (Z.of_nat n)) index then x :: pick index (S n) r else pick index (S n) r
  end.
Lemma pick_ext i1 i2 l : forall n, (forall z, (Z.of_nat n <= z)%Z -> In z i1 <-> In z i2) -> pick i1 n l = pick i2 n l.
Proof.
  induction l as [|x l IH]; intros n h; [reflexivity|]. cbn [pick].
  assert (e : existsb (Z.eqb (Z.of_nat n)) i1 = existsb (Z.eqb (Z.of_nat n)) i2).
  { apply Bool.eq_true_iff_eq. rewrite !existsb_exists. split; intros [y [h1 h2]]; exists y; split; auto; apply Z.eqb_eq in h2; subst y; apply h; auto; lia. }
  rewrite e, (IH (S n)) by (intros; apply h; lia). reflexivity.
Qed.
Lemma pick_sorted l : forall index n, StronglySorted Z.lt index -> Forall (fun z => Z.of_nat n <= z < Z.of_nat (n + length l))%Z index ->
  pick index n l = map (fun z => nth (Z.to_nat z - n) l 0) index.
Proof.
  induction l as [|x l IH]; intros index n hs hb.
  - destruct index as [|z index]; [reflexivity|]. inversion hb as [|a b h1 h2]; subst. cbn in h1. lia.
  - cbn [pick]. destruct (existsb (Z.eqb (Z.of_nat n)) index) eqn:e.
    + apply existsb_exists in e. destruct e as [y [h1 h2]]. apply Z.eqb_eq in h2. subst y.
      destruct index as [|z index]; [contradiction|]. inversion hs as [|a b hs1 hs2]; subst. inversion hb as [|a b hb1 hb2]; subst.
      assert (z = Z.of_nat n).
      { destruct h1 as [h1|h1]; [exact h1|]. rewrite Forall_forall in hs2. specialize (hs2 _ h1). lia. }
      subst z. cbn [map]. f_equal.
      * replace (Z.to_nat (Z.of_nat n) - n)%nat with 0%nat by lia. reflexivity.
      * rewrite (pick_ext (Z.of_nat n :: index) index).
        -- rewrite IH; [|exact hs1|].
           ++ apply map_ext_in. intros z hz. rewrite Forall_forall in hs2. specialize (hs2 _ hz). replace (Z.to_nat z - n)%nat with (S (Z.to_nat z - S n)) by lia. reflexivity.
           ++ rewrite Forall_forall in *. intros z hz. specialize (hs2 _ hz). specialize (hb2 _ hz). cbn [length] in hb2. lia.
        -- intros z hz. split; [intros [h|h]; [lia|exact h]|intros h; right; exact h].
    + rewrite IH; [|exact hs|].
      * apply map_ext_in. intros z hz. rewrite Forall_forall in hb. specialize (hb _ hz).
        assert (z <> Z.of_nat n). { intros ->. assert (existsb (Z.eqb (Z.of_nat n)) index = true); [|congruence]. apply existsb_exists. exists (Z.of_nat n). split; [exact hz|apply Z.eqb_refl]. }
        replace (Z.to_nat z - n)%nat with (S (Z.to_nat z - S n)) by lia. reflexivity.
      * rewrite Forall_forall in *. intros z hz. specialize (hb _ hz). cbn [length] in hb.
        assert (z <> Z.of_nat n). { intros ->. assert (existsb (Z.eqb (Z.of_nat n)) index = true); [|congruence]. apply existsb_exists. exists (Z.of_nat n). split; [exact hz|apply Z.eqb_refl]. }
        lia.
Qed.

(** ** load cycles of the Varandas model *)

Section Loads.
  Variables (v : varandas R) (F cycles forces : list R).

  (** settlement (mm) after each cycle *)
  Fixpoint history (count : list R) (h : R) (maxs : list R) (acc : R) : list R :=
    match count with
    | [] => []
    | nb :: count => let '(h, maxs, acc) := cycle_trains v F nb cycles forces maxs h acc in acc :: history count h maxs acc
    end.
  Fixpoint final_load (count : list R) (h : R) (maxs : list R) : R * list R :=
    match count with
    | [] => (h, maxs)
    | nb :: count => let '(h, maxs, _) := cycle_trains v F nb cycles forces maxs h 0 in final_load count h maxs
    end.
  Lemma cycle_trains_aux nb cs fs maxs h aux :
    cycle_trains v F nb cs fs maxs h aux =
    let '(h', maxs', a) := cycle_trains v F nb cs fs maxs h 0 in (h', maxs', aux + a).
  Proof.
    revert fs maxs h aux. induction cs as [|c cs IH]; intros fs maxs h aux; cbn [cycle_trains].
    - f_equal. rnum. lra.
    - destruct fs as [|f fs]; [f_equal; rnum; lra|]. destruct maxs as [|m maxs]; [f_equal; rnum; lra|].
      destruct (nleb nb c).
      + rewrite (IH fs maxs _ (nadd aux _)), (IH fs maxs _ (nadd 0 _)).
        destruct (cycle_trains v F nb cs fs maxs _ 0) as [[h' m'] a]. f_equal. rnum. lra.
      + rewrite IH. destruct (cycle_trains v F nb cs fs maxs h 0) as [[h' m'] a]. reflexivity.
  Qed.
  Lemma history_length count : forall h maxs acc, length (history count h maxs acc) = length count.
  Proof. induction count as [|nb count IH]; intros h maxs acc; [reflexivity|]. cbn. destruct (cycle_trains _ _ _ _ _ _ _ _) as [[h' m'] a]. cbn. f_equal. apply IH. Qed.

  Lemma run_history index count : forall n h maxs aux base disp h' maxs',
    run_cycles v F cycles forces index n count h maxs aux = (disp, h', maxs') ->
    cumsum_from base disp = pick index n (history count h maxs (base + aux)) /\ final_load count h maxs = (h', maxs').
  Proof.
    induction count as [|nb count IH]; intros n h maxs aux base disp h' maxs' e; cbn [run_cycles history final_load] in e |- *.
    - assert (disp = [] /\ h = h' /\ maxs = maxs') as [-> [-> ->]] by (split; [|split]; congruence). split; reflexivity.
    - rewrite (cycle_trains_aux _ _ _ _ _ aux) in e. rewrite (cycle_trains_aux _ _ _ _ _ (base + aux)). destruct (cycle_trains v F nb cycles forces maxs h 0) as [[h1 m1] a].
      destruct (existsb (Z.eqb (Z.of_nat n)) index) eqn:ei.
      + destruct (run_cycles v F cycles forces index (S n) count h1 m1 (lit 0)) as [[d2 h2] m2] eqn:e2.
        assert (disp = (aux + a) :: d2 /\ h2 = h' /\ m2 = maxs') as [-> [-> ->]] by (split; [|split]; congruence).
        destruct (IH _ _ _ _ (base + (aux + a)) _ _ _ e2) as [i1 i2]. split; [|exact i2]. cbn [cumsum_from pick]. rewrite ei.
        rnum. replace (base + aux + a) with (base + (aux + a)) by ring. f_equal. rewrite i1. f_equal. f_equal. ring.
      + destruct (IH _ _ _ _ base _ _ _ e) as [i1 i2]. split; [|exact i2]. cbn [pick]. rewrite ei, i1. f_equal. f_equal. ring.
  Qed.
  Lemma run_exists index count : forall n h maxs aux, exists disp h' maxs', run_cycles v F cycles forces index n count h maxs aux = (disp, h', maxs').
  Proof. intros. destruct (run_cycles _ _ _ _ _ _ _ _ _ _) as [[d h'] m']. eauto. Qed.

  (** contributions are not negative *)
  Hypothesis nonneg : forall h, 0 <= h -> 0 <= cycle_settlement v F h.
  Lemma cycle_trains_nonneg nb cs fs maxs h h' maxs' a : 0 <= h -> cycle_trains v F nb cs fs maxs h 0 = (h', maxs', a) -> 0 <= a /\ h <= h' /\ length maxs' = length maxs.
  Proof.
    revert fs maxs h h' maxs' a. induction cs as [|c cs IH]; intros fs maxs h h' maxs' a hh e; cbn [cycle_trains] in e.
    - assert (a = 0 /\ h = h' /\ maxs = maxs') as [-> [-> ->]] by (split; [|split]; congruence). repeat split; lra || lia.
    - destruct fs as [|f fs]; [assert (a = 0 /\ h = h' /\ maxs = maxs') as [-> [-> ->]] by (split; [|split]; congruence); repeat split; lra || lia|].
      destruct maxs as [|m maxs]; [assert (a = 0 /\ h = h' /\ [] = maxs') as [-> [-> <-]] by (split; [|split]; congruence); repeat split; lra || lia|].
      destruct (nleb nb c).
      + rewrite cycle_trains_aux in e. set (h1 := if nleb f m then nadd h (lit 1) else h) in e.
        assert (hh1 : h <= h1) by (unfold h1; destruct (nleb f m); rnum; lra).
        destruct (cycle_trains v F nb cs fs maxs h1 0) as [[h2 m2] a2] eqn:e2. apply IH in e2; [|lra]. destruct e2 as [i1 [i2 i3]].
        assert (h2 = h' /\ (if nltb m f then f else m) :: m2 = maxs' /\ nadd 0 (cycle_settlement v F h1) + a2 = a) as [-> [<- <-]] by (split; [|split]; congruence).
        specialize (nonneg h1 ltac:(lra)). rnum. cbn [length]. repeat split; lra || lia.
      + destruct (cycle_trains v F nb cs fs maxs h 0) as [[h2 m2] a2] eqn:e2. apply IH in e2; [|lra]. destruct e2 as [i1 [i2 i3]].
        assert (h2 = h' /\ m :: m2 = maxs' /\ a2 = a) as [-> [<- <-]] by (split; [|split]; congruence). cbn [length]. repeat split; lra || lia.
  Qed.
  Lemma history_monotone count : forall h maxs acc, 0 <= h ->
    (forall i, (i < length count)%nat -> acc <= nth i (history count h maxs acc) 0) /\
    (forall i j, (i <= j < length count)%nat -> nth i (history count h maxs acc) 0 <= nth j (history count h maxs acc) 0).
  Proof.
    induction count as [|nb count IH]; intros h maxs acc hh; [split; cbn; intros; lia|]. cbn. rewrite cycle_trains_aux.
    destruct (cycle_trains v F nb cycles forces maxs h 0) as [[h' m'] a] eqn:e. apply cycle_trains_nonneg in e; [|exact hh]. destruct e as [e1 [e2 _]].
    destruct (IH h' m' (acc + a)) as [i1 i2]; [lra|]. split.
    - intros [|i] hi; cbn; [lra|]. specialize (i1 i ltac:(lia)). lra.
    - intros [|i] [|j] hij; cbn; try lia; try lra; [apply i1; lia|apply i2; lia].
  Qed.
  Lemma final_load_nonneg count : forall h maxs, 0 <= h -> 0 <= fst (final_load count h maxs) /\ length (snd (final_load count h maxs)) = length maxs.
  Proof.
    induction count as [|nb count IH]; intros h maxs hh; [split; [exact hh|reflexivity]|]. cbn. destruct (cycle_trains v F nb cycles forces maxs h 0) as [[h' m'] a] eqn:e.
    apply cycle_trains_nonneg in e; [|exact hh]. destruct e as [e1 [e2 e3]]. rewrite <- e3. apply IH. lra.
  Qed.
End Loads.

(** ** powers and the trapezoidal rule *)

Lemma pw_power (x p : R) : 0 <= x -> pw x p = power x p.
Proof.
  intros h. unfold pw, npow, RPow, power. destruct (Req_EM_T x 0) as [e|e].
  - subst x. destruct (nltbP (lit 0) (0 : R)) as [h1|h1]; [rnum; lra|]. destruct (neqbP (0 : R) (lit 0)) as [h2|h2]; [|exfalso; apply h2; reflexivity].
    destruct (neqbP p (lit 0)) as [h3|h3], (Req_EM_T p 0) as [h4|h4]; try reflexivity; exfalso; [apply h4; exact h3|apply h3; exact h4].
  - destruct (nltbP (lit 0) x) as [h1|h1]; [reflexivity|rnum; lra].
Qed.
Lemma power_pos (x p : R) : 0 < x -> power x p = Rpower x p.
Proof. intros h. unfold power. destruct (Req_EM_T x 0); [lra|reflexivity]. Qed.
Lemma Rpower_pos (x p : R) : 0 < Rpower x p.
Proof. apply exp_pos. Qed.
Lemma power_nonneg (x p : R) : 0 <= power x p.
Proof. unfold power. destruct (Req_EM_T x 0); [destruct (Req_EM_T p 0); lra|]. left. apply Rpower_pos. Qed.

Lemma sumn_head n (f : nat -> R) : sumn (S n) f = f 0%nat + sumn n (fun i => f (S i)).
Proof. induction n as [|n IH]; cbn [sumn] in *; [rnum; lra|]. rewrite IH. rnum. lra. Qed.
Lemma sumn_app n m (f : nat -> R) : sumn (n + m) f = sumn n f + sumn m (fun i => f (n + i)%nat).
Proof. induction m as [|m IH]; [rewrite Nat.add_0_r; cbn; rnum; lra|]. rewrite Nat.add_succ_r. cbn [sumn]. rewrite IH. rnum. lra. Qed.

Lemma trapezoid_sum (y x : list R) : length y = length x ->
  trapezoid y x = sumn (length x - 1) (fun k => (nth (S k) x 0 - nth k x 0) * (nth k y 0 + nth (S k) y 0) / 2).
Proof.
  revert y. induction x as [|x0 x IH]; intros y h; destruct y as [|y0 y]; cbn in h; try lia; [reflexivity|].
  destruct x as [|x1 x], y as [|y1 y]; cbn in h; try lia; [reflexivity|].
  change (trapezoid (y0 :: y1 :: y) (x0 :: x1 :: x)) with (nadd (ndiv (nmul (nsub x1 x0) (nadd y0 y1)) (lit 2)) (trapezoid (y1 :: y) (x1 :: x))).
  rewrite IH by (cbn; lia). cbn [length]. replace (S (S (length x)) - 1)%nat with (S (S (length x) - 1)) by lia. rewrite sumn_head. rnum. reflexivity.
Qed.
Lemma trapezoid_rule (n : nat) (top : R) (f : R -> R) : (1 <= n)%nat ->
  trapezoid (map f (linspace_nat 0 top (S n))) (linspace_nat 0 top (S n)) = trapezoidal n top f.
Proof.
  intros hn. rewrite trapezoid_sum by apply map_length. rewrite ls_length. replace (S n - 1)%nat with n by lia. unfold trapezoidal. apply sumn_ext. intros k hk.
  rewrite !(nth_map0 _ _ _ 0) by (rewrite ls_length; lia). rewrite !ls_nth by lia. replace (S n - 1)%nat with n by lia. assert (hnn : INR n <> 0) by (apply not_0_INR; lia).
  replace (0 + INR (S k) * (top - 0) / INR n - (0 + INR k * (top - 0) / INR n)) with (top / INR n) by (rewrite S_INR; field; exact hnn).
  replace (0 + INR k * (top - 0) / INR n) with (INR k * top / INR n) by (field; exact hnn).
  replace (0 + INR (S k) * (top - 0) / INR n) with (INR (S k) * top / INR n) by (field; exact hnn). reflexivity.
Qed.
Lemma trapezoidal_scal n top f c : trapezoidal n top (fun x => f x * c) = trapezoidal n top f * c.
Proof. unfold trapezoidal. rewrite <- sumn_scal_r. apply sumn_ext. intros. unfold Rdiv. ring. Qed.
Lemma trapezoidal_nonneg n top f : 0 <= top -> (forall x, 0 <= x -> 0 <= f x) -> (1 <= n)%nat -> 0 <= trapezoidal n top f.
Proof.
  intros h hf hn. assert (h1 : 0 < INR n) by (apply lt_0_INR; lia). unfold trapezoidal. apply sumn_nonneg. intros k _.
  assert (0 <= f (INR k * top / INR n)). { apply hf. unfold Rdiv. apply Rmult_le_pos; [apply Rmult_le_pos; [apply pos_INR|exact h]|left; apply Rinv_0_lt_compat; exact h1]. }
  assert (0 <= f (INR (S k) * top / INR n)). { apply hf. unfold Rdiv. apply Rmult_le_pos; [apply Rmult_le_pos; [apply pos_INR|exact h]|left; apply Rinv_0_lt_compat; exact h1]. }
  assert (0 <= top / INR n) by (unfold Rdiv; apply Rmult_le_pos; [exact h|left; apply Rinv_0_lt_compat; exact h1]). nra.
Qed.
Lemma trapezoidal_pos n top f : 0 < top -> (forall x, 0 <= x -> 0 <= f x) -> (forall x, 0 < x -> 0 < f x) -> (1 <= n)%nat -> 0 < trapezoidal n top f.
Proof.
  intros h hf hf1 hn. assert (h1 : 0 < INR n) by (apply lt_0_INR; lia). unfold trapezoidal. destruct n as [|n]; [lia|]. cbn [sumn]. rnum. set (N := INR (S n)) at 1 2 4 5 7. assert (eN : N = INR (S n)) by reflexivity. clearbody N. rewrite <- eN in h1.
  assert (hs : 0 < INR (S n) * top / N). { rewrite <- eN. unfold Rdiv. repeat apply Rmult_lt_0_compat; try assumption. apply Rinv_0_lt_compat; exact h1. }
  assert (hpos : forall k, 0 <= INR k * top / N). { intros k. unfold Rdiv. apply Rmult_le_pos; [apply Rmult_le_pos; [apply pos_INR|lra]|left; apply Rinv_0_lt_compat; exact h1]. }
  assert (hq : 0 < top / N) by (unfold Rdiv; apply Rmult_lt_0_compat; [exact h|apply Rinv_0_lt_compat; exact h1]).
  assert (h0 : 0 <= sumn n (fun k => top / N * (f (INR k * top / N) + f (INR (S k) * top / N)) / 2)).
  { apply sumn_nonneg. intros k _. pose proof (hf _ (hpos k)). pose proof (hf _ (hpos (S k))). nra. }
  pose proof (hf _ (hpos n)) as ha. pose proof (hf1 _ hs) as hb. subst N. apply Rplus_le_lt_0_compat; [exact h0|]. apply Rdiv_lt_0_compat; [|lra]. apply Rmult_lt_0_compat; [exact hq|]. lra.
Qed.

(** ** the Varandas constants *)

Definition n0_of (v : varandas R) : nat := Z.to_nat (ntrunc (va_N0 v) - 1).
Lemma va_M_reference (v : varandas R) : 0 < va_F0 v -> va_M v = reference (va_alpha v) (va_beta v) (va_F0 v) (n0_of v).
Proof.
  intros h. unfold va_M, reference, n0_of. rewrite (pw_power (va_F0 v)) by (left; exact h). rewrite power_pos by exact h. rnum. f_equal.
  rewrite nsum_map_seq_gen. apply sumn_ext. intros i _. rewrite nofnat_R. replace (1 + i)%nat with (S i) by lia.
  assert (0 < 1 / INR (S i)) by (unfold Rdiv; rewrite Rmult_1_l; apply Rinv_0_lt_compat, lt_0_INR; lia). rewrite pw_power, power_pos by lra. reflexivity.
Qed.
Lemma weights_pos beta n : (1 <= n)%nat -> 0 < weights beta n.
Proof.
  intros h. unfold weights. destruct n as [|n]; [lia|]. cbn [sumn]. rnum. assert (0 <= sumn n (fun k => Rpower (1 / INR (S k)) beta)) by (apply sumn_nonneg; intros; left; apply Rpower_pos).
  pose proof (Rpower_pos (1 / INR (S n)) beta). lra.
Qed.
Lemma reference_pos alpha beta F0 n0 : -1 < alpha -> (1 <= n0)%nat -> 0 < reference alpha beta F0 n0.
Proof.
  intros h1 h2. unfold reference. apply Rmult_lt_0_compat; [|apply (weights_pos beta n0 h2)]. apply Rdiv_lt_0_compat; [apply Rpower_pos|lra].
Qed.
Lemma cycle_formula (v : varandas R) top h : 0 <= top -> 0 <= h -> 0 < va_F0 v ->
  cycle_settlement v (linspace_nat 0 top 100) h =
  1000 * unit_settlement (va_alpha v) (va_beta v) (va_gamma v) (va_F0 v) (n0_of v) top * Rpower (1 / (h + 1)) (va_beta v).
Proof.
  intros ht hh hF. unfold cycle_settlement, unit_settlement. rewrite va_M_reference by exact hF.
  assert (hw : 0 < 1 / (h + 1)) by (apply Rdiv_lt_0_compat; lra).
  assert (e : map (fun f : R => nmul (pw f (va_alpha v)) (pw (ndiv (lit 1) (nadd h (lit 1))) (va_beta v))) (linspace_nat 0 top 100)
            = map (fun f => power f (va_alpha v) * Rpower (1 / (h + 1)) (va_beta v)) (linspace_nat 0 top 100)).
  { apply map_ext_in. intros f hf. destruct (In_nth _ _ 0 hf) as [i [hi e]]. rewrite ls_length in hi. rewrite ls_nth in e by lia.
    assert (0 <= f). { rewrite <- e, Rplus_0_l. unfold Rdiv. apply Rmult_le_pos; [apply Rmult_le_pos; [apply pos_INR|lra]|left; apply Rinv_0_lt_compat, lt_0_INR; lia]. }
    rnum. rewrite !pw_power by lra. rewrite (power_pos (1 / (h + 1))) by exact hw. reflexivity. }
  rewrite e. change 100%nat with (S 99) at 1 2. rewrite trapezoid_rule by lia. rewrite trapezoidal_scal. rnum.
  set (a := va_gamma v / reference _ _ _ _). set (i := trapezoidal 99 top _). set (w := Rpower _ _). field.
Qed.
Lemma unit_nonneg alpha beta gamma F0 n0 F : -1 < alpha -> 0 <= gamma -> (1 <= n0)%nat -> 0 <= F -> 0 <= unit_settlement alpha beta gamma F0 n0 F.
Proof.
  intros h1 h2 h3 h4. pose proof (reference_pos alpha beta F0 n0 h1 h3) as hr. pose proof (trapezoidal_nonneg 99 F (fun x => power x alpha) h4 (fun x _ => power_nonneg x alpha) ltac:(lia)) as ht.
  unfold unit_settlement, Rdiv. apply Rmult_le_pos; [|lra]. apply Rmult_le_pos; [|exact ht]. apply Rmult_le_pos; [exact h2|left; apply Rinv_0_lt_compat; exact hr].
Qed.
Lemma unit_pos alpha beta gamma F0 n0 F : -1 < alpha -> 0 < gamma -> (1 <= n0)%nat -> 0 < F -> 0 < unit_settlement alpha beta gamma F0 n0 F.
Proof.
  intros h1 h2 h3 h4. pose proof (reference_pos alpha beta F0 n0 h1 h3) as hr.
  assert (ht : 0 < trapezoidal 99 F (fun x => power x alpha)).
  { apply trapezoidal_pos; [exact h4| |intros x hx; rewrite power_pos by exact hx; apply Rpower_pos|lia]. intros. apply power_nonneg. }
  unfold unit_settlement, Rdiv. repeat apply Rmult_lt_0_compat; try lra. apply Rinv_0_lt_compat; exact hr.
Qed.

Lemma n0_pos v : 2 <= va_N0 v -> (1 <= n0_of v)%nat.
Proof.
  intros h. unfold n0_of. assert (h0 : 0 <= va_N0 v) by lra. destruct (trunc_nonneg _ h0) as [h1 h2].
  assert (IZR 1 < IZR (ntrunc (va_N0 v))) by lra. apply lt_IZR in H. lia.
Qed.
Lemma cycle_nonneg (v : varandas R) top : sound_varandas v -> 0 <= top -> forall h, 0 <= h -> 0 <= cycle_settlement v (linspace_nat 0 top 100) h.
Proof.
  intros [h1 [h2 [h3 h4]]] ht h hh. rewrite cycle_formula by assumption.
  apply Rmult_le_pos; [|left; apply Rpower_pos]. apply Rmult_le_pos; [lra|]. apply unit_nonneg; try assumption; [lra|apply n0_pos; exact h4].
Qed.

(** ** reading the traffic *)

Lemma nsub_R (a b : R) : nsub a b = a - b. Proof. reflexivity. Qed.

(** what reading a traffic gives: [N] cycles of the most frequent type, [K] reported values *)
Record reads (trains : list (train_type R)) (s e : R) (steps : nat) (tf : traffic R) (top : R) (N K : nat) : Prop := {
  rd_day : tf_cycles_day tf = map per_day trains;
  rd_cycles : tf_cycles tf = map (fun t => per_day t * (e - s)) trains;
  rd_forces : tf_forces tf = map tt_forces trains;
  rd_top : In top (tf_cycles tf) /\ forall c, In c (tf_cycles tf) -> c <= top;
  rd_N : ntrunc top = Z.of_nat N;
  rd_K : ntrunc (top / INR steps) = Z.of_nat K;
  rd_time : tf_time tf = linspace_nat s e K;
  rd_count : tf_count tf = linspace_nat s (IZR (Z.of_nat N - 1)) N;
  rd_index : tf_index tf = stored N K;
  rd_columns : tf_columns tf = K;
  rd_steps : (1 <= steps)%nat;
  rd_KN : (K <= N)%nat
}.
Lemma trunc_div (x : R) n : (1 <= n)%nat -> (0 <= ntrunc x)%Z -> (ntrunc (x / INR n)%R <= ntrunc x)%Z.
Proof.
  intros hn h. assert (1 <= INR n) by (apply (le_INR 1); lia). destruct (Rle_lt_dec 0 x) as [c|c].
  - assert (h1 : 0 <= x / INR n) by (unfold Rdiv; apply Rmult_le_pos; [exact c|left; apply Rinv_0_lt_compat; lra]).
    assert (h2 : x / INR n <= x). { apply (Rmult_le_reg_r (INR n)); [lra|]. unfold Rdiv. rewrite Rmult_assoc, Rinv_l by lra. nra. }
    destruct (trunc_nonneg _ c) as [a1 a2]. destruct (trunc_nonneg _ h1) as [b1 b2].
    assert (IZR (ntrunc (x / INR n)) < IZR (ntrunc x + 1)) by (rewrite plus_IZR; lra). apply lt_IZR in H0. lia.
  - assert (x / INR n < 0). { unfold Rdiv. apply Ropp_lt_cancel. rewrite Ropp_0, Ropp_mult_distr_l. apply Rmult_lt_0_compat; [lra|apply Rinv_0_lt_compat; lra]. }
    pose proof (trunc_neg _ H0). lia.
Qed.
Lemma read_info_ok trains s e steps tf : read_train_info trains s e steps = Ok tf -> exists top N K, reads trains s e steps tf top N K.
Proof.
  intros h. unfold read_train_info in h. unbind h. destruct (Nat.eqb_spec steps 0) as [z|z]; [discriminate|]. unbind h. unbind h. unbind h.
  apply linspace_ok in hv0, hv1, hv2. destruct hv0 as [k0 ->]. destruct hv1 as [k1 ->]. destruct hv2 as [k2 ->]. rewrite nofnat_R in *. rnum.
  exists v, (Z.to_nat (ntrunc v)), (Z.to_nat (ntrunc (v / INR steps))).
  match type of h with Ok ?x = Ok ?y => assert (y = x) as -> by congruence end.
  assert (hsteps : (1 <= steps)%nat) by lia.
  split; cbn [tf_cycles_day tf_cycles tf_forces tf_time tf_count tf_index tf_columns]; try reflexivity; try (rewrite Z2Nat.id by assumption; reflexivity).
  - rewrite map_map. reflexivity.
  - apply max_of_ok in hv. exact hv.
  - unfold stored. rewrite Z2Nat.id by assumption. reflexivity.
  - exact hsteps.
  - apply Z2Nat.inj_le; try assumption. apply trunc_div; assumption.
Qed.
Lemma reads_count_length trains s e steps tf top N K : reads trains s e steps tf top N K -> length (tf_count tf) = N.
Proof. intros h. rewrite (rd_count _ _ _ _ _ _ _ _ h). apply ls_length. Qed.
Lemma reads_time_length trains s e steps tf top N K : reads trains s e steps tf top N K -> length (tf_time tf) = K.
Proof. intros h. rewrite (rd_time _ _ _ _ _ _ _ _ h). apply ls_length. Qed.

(** ** the Varandas model for one node *)

Definition node_history (v : varandas R) (tf : traffic R) (forces : list R) (top : R) (load : R * list R) : list R :=
  history v (linspace_nat 0 top 100) (tf_cycles tf) forces (tf_count tf) (fst load) (snd load) 0.
Lemma varandas_node_spec v tf trains s e steps ctop N K forces load out : reads trains s e steps tf ctop N K ->
  varandas_node v tf forces load = Ok out ->
  exists top, max_of forces = Ok top /\ length (fst out) = K /\
    (forall j, (j < K)%nat -> nth j (fst out) 0 = nth (Z.to_nat (nth j (stored N K) 0%Z)) (node_history v tf forces top load) 0 / 1000) /\
    snd out = final_load v (linspace_nat 0 top 100) (tf_cycles tf) forces (tf_count tf) (fst load) (snd load).
Proof.
  intros hr h. unfold varandas_node in h. unbind h. exists v0. split; [exact hv|].
  set (F := linspace_nat (lit 0) v0 100) in h. change (lit 0) with (0 : R) in F.
  destruct (run_exists v F (tf_cycles tf) forces (tf_index tf) (tf_count tf) 0%nat (fst load) (snd load) (lit 0)) as [d [h' [m' e1]]]. rewrite e1 in h.
  destruct (run_history _ _ _ _ _ _ _ _ _ _ 0 _ _ _ e1) as [r1 r2].
  assert (hlen : length (history v F (tf_cycles tf) forces (tf_count tf) (fst load) (snd load) (0 + lit 0)) = N) by (rewrite history_length; eapply reads_count_length; exact hr).
  rewrite (rd_index _ _ _ _ _ _ _ _ hr) in r1. rewrite pick_sorted in r1.
  2: apply stored_sorted; exact (rd_KN _ _ _ _ _ _ _ _ hr).
  2: { apply Forall_forall. intros z hz. destruct (In_nth _ _ 0%Z hz) as [j [hj e2]]. rewrite stored_length in hj. rewrite hlen. rewrite <- e2.
       pose proof (rd_KN _ _ _ _ _ _ _ _ hr). pose proof (stored_bounds N K j). lia. }
  assert (hd : length d = K). { apply (f_equal (@length R)) in r1. rewrite cumsum_from_length, map_length, stored_length in r1. exact r1. }
  rewrite (rd_columns _ _ _ _ _ _ _ _ hr), hd, Nat.sub_diag in h. cbn [repeat] in h. rewrite app_nil_r in h.
  match type of h with Ok ?x = Ok ?y => assert (y = x) as -> by congruence end. cbn [fst snd].
  unfold cumsum. change (@lit R RNum 0) with (0 : R). rewrite r1. rewrite map_map, map_length, stored_length. split; [reflexivity|]. split.
  - intros j hj. rewrite (nth_map0 _ _ _ 0%Z) by (rewrite stored_length; exact hj). rewrite Nat.sub_0_r. unfold node_history. fold F. rnum. replace (0 + 0) with 0 by ring. reflexivity.
  - symmetry. exact r2.
Qed.
