(** * Proofs about load conditions *)

From Coq Require Import Reals List Bool ZArith Arith Lia Lra Psatz.
From Verif Require Import Num PyBase Model_Geometry Model_System Model_Element Model_Moving
  Spec_System Spec_Element Spec_Moving Proofs_System Proofs_Element Proofs_Beam.
Import ListNotations.
Local Open Scope R_scope.

(** ** lists *)

Lemma nth_err {A} (l : list A) i d : (i < length l)%nat -> nth_error l i = Some (nth i l d).
Proof. revert i. induction l; destruct i; simpl; intros; try lia; auto. apply IHl. lia. Qed.
Lemma nth_err_inv {A} (l : list A) i d x : nth_error l i = Some x -> (i < length l)%nat /\ nth i l d = x.
Proof.
  intros h. assert (hl : (i < length l)%nat) by (apply nth_error_Some; congruence).
  split; auto. rewrite (nth_err l i d hl) in h. congruence.
Qed.
Lemma nth_map0 {A} (f : A -> R) (l : list A) i a : (i < length l)%nat -> nth i (map f l) 0 = f (nth i l a).
Proof. intros h. rewrite (nth_indep (map f l) 0 (f a)) by (rewrite map_length; auto). apply map_nth. Qed.
Lemma nth_repeat0 {A} (a d : A) n i : (i < n)%nat -> nth i (repeat a n) d = a.
Proof. revert i. induction n; destruct i; simpl; intros; try lia; auto. apply IHn. lia. Qed.
Lemma nth_skipn {A} (l : list A) n i d : nth i (skipn n l) d = nth (n + i) l d.
Proof. revert l. induction n; destruct l; simpl; auto. destruct i; auto. Qed.

(** ** C27: ramp *)

Lemma linspace_length (p : R) n : length (linspace0 p n) = n.
Proof. destruct n as [|[|m]]; auto. unfold linspace0. rewrite app_length, map_length, seq_length. simpl. lia. Qed.

Lemma linspace_nth (p : R) n t : (t < n)%nat -> nth t (linspace0 p n) 0 = p * INR t / INR (n - 1).
Proof.
  intros h. destruct n as [|[|m]]; [lia| |].
  - assert (t = 0)%nat by lia. subst. cbn -[INR]. rnum. simpl. unfold Rdiv. ring.
  - unfold linspace0. replace (S (S m) - 1)%nat with (S m) by lia.
    assert (hm : INR (S m) <> 0) by (apply not_0_INR; lia).
    destruct (Nat.eq_dec t (S m)) as [->|hne].
    + rewrite app_nth2; rewrite map_length, seq_length; [|lia]. rewrite Nat.sub_diag. cbn [nth]. field. exact hm.
    + rewrite app_nth1 by (rewrite map_length, seq_length; lia).
      rewrite (nth_map0 _ _ t 0%nat) by (rewrite seq_length; lia). rewrite seq_nth by lia.
      rewrite !nofnat_R. rnum. simpl (0 + t)%nat. field. exact hm.
Qed.

Lemma load_history_spec (p : R) N n : (n <= N)%nat ->
  exists h, load_history p N n = Ok h /\ length h = N /\ forall t, (t < N)%nat -> nth t h 0 = ramp p n t.
Proof.
  intros hn. unfold load_history. rewrite (proj2 (Nat.leb_le n N)) by auto.
  eexists. split; [reflexivity|]. split.
  - rewrite app_length, skipn_length, repeat_length, linspace_length. lia.
  - intros t ht. unfold ramp. destruct (Nat.ltb_spec t n) as [hl|hl].
    + rewrite app_nth1 by (rewrite linspace_length; auto). apply linspace_nth; auto.
    + rewrite app_nth2 by (rewrite linspace_length; auto). rewrite linspace_length, nth_skipn.
      rewrite nth_repeat0 by lia. rnum. ring.
Qed.

Lemma load_history_short (p : R) N n : (N < n)%nat -> n <> 1%nat -> load_history p N n = Err ErrValue.
Proof.
  intros h h1. unfold load_history. destruct (Nat.leb_spec n N); [lia|]. destruct (Nat.eqb_spec n 1); [lia|]. reflexivity.
Qed.

Lemma component_history_spec (p : option R) N n : (n <= N)%nat ->
  exists h, component_history p N n = Ok h /\ length h = N /\
    forall t, (t < N)%nat -> nth t h 0 = match p with Some q => ramp q n t | None => 0 end.
Proof.
  intros hn. destruct p as [q|]; simpl.
  - apply load_history_spec; auto.
  - eexists. split; [reflexivity|]. split; [apply repeat_length|]. intros t ht. apply nth_repeat0; auto.
Qed.

(** ** C30: load outside the track *)

Lemma filer_location_spec (xs : list R) lo up : lo <= up ->
  length (filer_location xs lo up) = length xs /\
  forall t, (t < length xs)%nat -> nth t (filer_location xs lo up) 0 = Rmax lo (Rmin up (nth t xs 0)).
Proof.
  intros h. unfold filer_location. split; [rewrite !map_length; auto|]. intros t ht.
  rewrite (nth_map0 _ _ t 0) by (rewrite map_length; auto). rewrite (nth_map0 _ _ t 0) by auto.
  unfold Rmax, Rmin.
  destruct (nltbP up (nth t xs 0)); match goal with |- context [nltb ?a ?b] => destruct (nltbP a b) end;
  destruct (Rle_dec up (nth t xs 0)); match goal with |- context [Rle_dec ?a ?b] => destruct (Rle_dec a b) end; lra.
Qed.

Lemma filter_data_spec (data xs : list R) lo up : length data = length xs ->
  length (filter_data_outside_range data xs lo up) = length xs /\
  forall t, (t < length xs)%nat ->
    (lo <= nth t xs 0 <= up -> nth t (filter_data_outside_range data xs lo up) 0 = nth t data 0) /\
    (nth t xs 0 < lo \/ up < nth t xs 0 -> nth t (filter_data_outside_range data xs lo up) 0 = 0).
Proof.
  intros h. unfold filter_data_outside_range.
  assert (hl : length (map (fun dx : R * R => if nltb up (snd dx) then lit 0 else fst dx) (combine data xs)) = length xs)
    by (rewrite map_length, combine_length; lia).
  split; [rewrite map_length, combine_length, hl; lia|]. intros t ht.
  rewrite (nth_map0 _ _ t (0, 0)) by (rewrite combine_length, hl; lia). rewrite combine_nth by auto. cbn [fst snd].
  rewrite (nth_map0 _ _ t (0, 0)) by (rewrite combine_length; lia). rewrite combine_nth by auto. cbn [fst snd].
  change (@lit R RNum 0) with 0.
  split; intros hh; destruct (nltbP (nth t xs 0) lo); destruct (nltbP up (nth t xs 0)); auto; lra.
Qed.

(** ** C34: distances *)

Lemma cumsum_from_length (l : list R) a : length (cumsum_from a l) = length l.
Proof. revert a; induction l; simpl; auto. Qed.
Lemma cumsum_from_nth (l : list R) a t : (t < length l)%nat -> nth t (cumsum_from a l) 0 = a + sumn (S t) (fun i => nth i l 0).
Proof.
  revert a t. induction l as [|x l IH]; intros a t h; simpl in h; [lia|].
  destruct t as [|t].
  - simpl. rnum. ring.
  - cbn [cumsum_from]. change (nth (S t) ((a + x)%num :: cumsum_from (a + x)%num l) 0) with (nth t (cumsum_from (a + x)%num l) 0).
    rewrite IH by lia. rnum.
    assert (e : forall n (f : nat -> R), sumn (S n) f = f 0%nat + sumn n (fun i => f (S i))).
    { induction n as [|n IHn]; intros f; [cbn; rnum; ring|].
      change (sumn (S (S n)) f) with (sumn (S n) f + f (S n)). rewrite IHn.
      change (sumn (S n) (fun i => f (S i))) with (sumn n (fun i => f (S i)) + f (S n)). ring. }
    rewrite (e (S t)). cbn [nth]. ring.
Qed.

Lemma np_diff_length (l : list R) : length (np_diff l) = (length l - 1)%nat.
Proof. induction l as [|a l IH]; auto. destruct l as [|b l]; auto. cbn [np_diff length]. cbn [np_diff] in IH. rewrite IH. simpl. lia. Qed.
Lemma np_diff_nth (l : list R) i : (S i < length l)%nat -> nth i (np_diff l) 0 = nth (S i) l 0 - nth i l 0.
Proof.
  revert i. induction l as [|a l IH]; intros i h; simpl in h; [lia|].
  destruct l as [|b l]; [simpl in h; lia|]. destruct i as [|i]; [reflexivity|].
  change (nth (S i) (np_diff (a :: b :: l)) 0) with (nth i (np_diff (b :: l)) 0). rewrite IH by (simpl in *; lia). reflexivity.
Qed.
Lemma removelast_length {A} (l : list A) : length (removelast l) = (length l - 1)%nat.
Proof. induction l as [|a l IH]; auto. destruct l; auto. cbn [removelast length]. cbn [removelast] in IH. rewrite IH. simpl. lia. Qed.
Lemma removelast_nth {A} (l : list A) i d : (S i < length l)%nat -> nth i (removelast l) d = nth i l d.
Proof.
  revert i. induction l as [|a l IH]; intros i h; simpl in h; [lia|].
  destruct l as [|b l]; [simpl in h; lia|]. destruct i as [|i]; [reflexivity|].
  change (nth (S i) (removelast (a :: b :: l)) d) with (nth i (removelast (b :: l)) d). rewrite IH by (simpl in *; lia). reflexivity.
Qed.

Lemma cum_distance_spec (time v : list R) : length v = length time -> time <> [] ->
  exists h, cum_distance_from_velocity time v = Ok h /\ length h = length time /\
    forall t, (t < length time)%nat -> nth t h 0 = travelled time v 0 t.
Proof.
  intros hl hne. unfold cum_distance_from_velocity. rewrite np_diff_length, removelast_length, hl, Nat.eqb_refl.
  eexists. split; [reflexivity|].
  assert (hp : (0 < length time)%nat) by (destruct time; [congruence|simpl; lia]).
  split.
  - cbn [length]. unfold cumsum. rewrite cumsum_from_length, map_length, combine_length, np_diff_length, removelast_length. lia.
  - intros t ht. unfold travelled. destruct t as [|t]; [cbn; rnum; ring|]. cbn [nth]. unfold cumsum.
    rewrite cumsum_from_nth by (rewrite map_length, combine_length, np_diff_length, removelast_length; lia). change (@lit R RNum 0) with 0. f_equal.
    apply sumn_ext. intros i hi.
    rewrite (nth_map0 _ _ i (0, 0)) by (rewrite combine_length, np_diff_length, removelast_length; lia).
    rewrite combine_nth by (rewrite np_diff_length, removelast_length; lia). cbn [fst snd]. rnum.
    rewrite np_diff_nth, removelast_nth by lia. reflexivity.
Qed.

Lemma cum_distance_mismatch (time v : list R) : (length v - 1 <> length time - 1)%nat ->
  cum_distance_from_velocity time v = Err ErrValue.
Proof.
  intros h. unfold cum_distance_from_velocity. rewrite np_diff_length, removelast_length.
  destruct (Nat.eqb_spec (length time - 1) (length v - 1)); [lia|reflexivity].
Qed.

Lemma cum_nodes_spec (coords : list (tri R)) : coords <> [] ->
  length (cum_distances_nodes coords) = length coords /\
  forall k, (k < length coords)%nat -> nth k (cum_distances_nodes coords) 0 = node_position coords k.
Proof.
  intros hne. unfold cum_distances_nodes, cumsum.
  assert (hl : length (consecutive_distances coords) = (length coords - 1)%nat).
  { clear. induction coords as [|a l IH]; auto. destruct l as [|b l]; auto.
    cbn [consecutive_distances length]. cbn [consecutive_distances] in IH. rewrite IH. simpl. lia. }
  assert (hp : (0 < length coords)%nat) by (destruct coords; [congruence|simpl; lia]).
  split; [cbn [length]; rewrite cumsum_from_length, hl; lia|].
  intros k hk. unfold node_position. destruct k as [|k]; [reflexivity|]. cbn [nth].
  rewrite cumsum_from_nth by lia. change (@lit R RNum 0) with 0. rewrite Rplus_0_l. apply sumn_ext. intros i hi.
  assert (e : nth_error (consecutive_distances coords) i = Some (distance3 (at_node coords i) (at_node coords (S i)))).
  { apply consecutive_nth; unfold at_node; apply nth_err; lia. }
  destruct (nth_err_inv _ _ 0 _ e) as [_ e2]. rewrite e2. reflexivity.
Qed.

Lemma train_distance_spec (time v : list R) (carts : list (R * list (R * list R))) :
  length v = length time -> time <> [] ->
  exists hs, train_distances time v carts = Ok hs /\ length hs = length carts /\
  forall i cd bogies, nth_error carts i = Some (cd, bogies) ->
    exists ch bhs, nth_error hs i = Some (ch, bhs) /\ length ch = length time /\ length bhs = length bogies /\
      (forall t, (t < length time)%nat -> nth t ch 0 = travelled time v cd t) /\
      forall j bd wheels, nth_error bogies j = Some (bd, wheels) ->
        exists bh whs, nth_error bhs j = Some (bh, whs) /\ length bh = length time /\ length whs = length wheels /\
          (forall t, (t < length time)%nat -> nth t bh 0 = travelled time v (cd + bd) t) /\
          forall k wd, nth_error wheels k = Some wd ->
            exists wh, nth_error whs k = Some wh /\ length wh = length time /\
              forall t, (t < length time)%nat -> nth t wh 0 = travelled time v (cd + bd + wd) t.
Proof.
  intros hl hne. unfold train_distances. rewrite np_diff_length, removelast_length, hl, Nat.eqb_refl.
  set (dist := cumsum _).
  assert (hp : (0 < length time)%nat) by (destruct time; [congruence|simpl; lia]).
  assert (hd : length dist = length time).
  { unfold dist, cumsum. rewrite cumsum_from_length. cbn [length]. rewrite map_length, combine_length, np_diff_length, removelast_length. lia. }
  assert (hn : forall t, (t < length time)%nat -> nth t dist 0 = travelled time v 0 t).
  { intros t ht. unfold dist, cumsum. rewrite cumsum_from_nth.
    2:{ cbn [length]. rewrite map_length, combine_length, np_diff_length, removelast_length. lia. }
    change (@lit R RNum 0) with 0. unfold travelled. f_equal.
    assert (e : forall n (f : nat -> R), sumn (S n) f = f 0%nat + sumn n (fun i => f (S i))).
    { induction n as [|n IHn]; intros f; [cbn; rnum; ring|].
      change (sumn (S (S n)) f) with (sumn (S n) f + f (S n)). rewrite IHn.
      change (sumn (S n) (fun i => f (S i))) with (sumn n (fun i => f (S i)) + f (S n)). ring. }
    rewrite e. cbn [nth]. rewrite Rplus_0_l. apply sumn_ext. intros i hi.
    rewrite (nth_map0 _ _ i (0, 0)) by (rewrite combine_length, np_diff_length, removelast_length; lia).
    rewrite combine_nth by (rewrite np_diff_length, removelast_length; lia). cbn [fst snd]. rnum.
    rewrite np_diff_nth, removelast_nth by lia. ring. }
  assert (hs : forall (h : list R) s d, length h = length time ->
     (forall t, (t < length time)%nat -> nth t h 0 = travelled time v s t) ->
     length (shift h d) = length time /\ forall t, (t < length time)%nat -> nth t (shift h d) 0 = travelled time v (s + d) t).
  { intros h s d h1 h2. unfold shift. split; [rewrite map_length; auto|]. intros t ht.
    rewrite (nth_map0 _ _ t 0) by lia. rewrite h2 by auto. unfold travelled. rnum. ring. }
  clearbody dist. eexists. split; [reflexivity|]. split; [apply map_length|].
  intros i cd bogies hi. apply (map_nth_error (fun cart => let ch := shift dist (fst cart) in
            (ch, map (fun bogie => let bh := shift ch (fst bogie) in (bh, map (shift bh) (snd bogie))) (snd cart)))) in hi.
  cbn [fst snd] in hi. eexists. eexists. split; [exact hi|].
  destruct (hs dist 0 cd hd hn) as [c1 c2]. rewrite Rplus_0_l in c2.
  split; [exact c1|]. split; [apply map_length|]. split; [exact c2|].
  intros j bd wheels hj. apply (map_nth_error (fun bogie => let bh := shift (shift dist cd) (fst bogie) in (bh, map (shift bh) (snd bogie)))) in hj.
  cbn [fst snd] in hj. eexists. eexists. split; [exact hj|].
  destruct (hs _ cd bd c1 c2) as [b1 b2].
  split; [exact b1|]. split; [apply map_length|]. split; [exact b2|].
  intros k wd hk. eexists. split; [apply map_nth_error; exact hk|].
  exact (hs _ _ wd b1 b2).
Qed.

Lemma sumn_diff t (f : nat -> R) : sumn (S t) f = sumn t f + f t.
Proof. reflexivity. Qed.

Lemma travelled_step (time v : list R) s t :
  travelled time v s (S t) = travelled time v s t + (nth (S t) time 0 - nth t time 0) * nth t v 0.
Proof. unfold travelled. rewrite sumn_diff. ring. Qed.
