(** * Proofs about the matrices of the coupled system *)

From Coq Require Import Reals List Bool ZArith Arith Lia Lra.
From Verif Require Import Num PyBase Model_Geometry Model_System Spec_System Proofs_System Model_Element Model_Moving Model_Train Model_Coupled Proofs_Coupled Model_Accumulation Proofs_Accumulation
  Model_Track Model_CoupledSystem Spec_CoupledSystem.
Import ListNotations.
Local Open Scope R_scope.

(** ** the blocks *)

(** [m] has the blocks [a] and [b] and nothing else *)
Definition blocks (nt nv : nat) (m a b : mat R) : Prop :=
  mr m = (nt + nv)%nat /\ mc m = (nt + nv)%nat /\
  (forall i j, (i < nt)%nat -> (j < nt)%nat -> me m i j = me a i j) /\
  (forall i j, (i < nv)%nat -> (j < nv)%nat -> me m (nt + i) (nt + j) = me b i j) /\
  (forall i j, (i < nt <= j)%nat \/ (j < nt <= i)%nat -> me m i j = 0).

(** a matrix of that size without entries between track and train *)
Definition apart (nt nv : nat) (m : mat R) : Prop :=
  mr m = (nt + nv)%nat /\ mc m = (nt + nv)%nat /\ (forall i j, (i < nt <= j)%nat \/ (j < nt <= i)%nat -> me m i j = 0).

Lemma blocks_assign nt nv (m a b : mat R) : apart nt nv m -> mr a = nt -> mc a = nt -> mr b = nv -> mc b = nv ->
  exists m1 m2, block_assign m 0 nt a = Ok m1 /\ block_assign m1 nt (nt + nv) b = Ok m2 /\ blocks nt nv m2 a b.
Proof.
  intros [h1 [h2 h3]] ha1 ha2 hb1 hb2. unfold block_assign. rewrite Nat.sub_0_r, ha1, ha2, h1, h2, Nat.eqb_refl.
  destruct (Nat.leb_spec nt (nt + nv)); [|lia]. cbn [andb]. eexists. eexists. split; [reflexivity|]. cbn [mr mc me].
  replace (nt + nv - nt)%nat with nv by lia. rewrite hb1, hb2, !Nat.eqb_refl, !Nat.leb_refl. cbn [andb]. split; [reflexivity|].
  unfold blocks. cbn [mr mc me]. split; [reflexivity|]. split; [reflexivity|]. split; [|split].
  - intros i j hi hj. destruct (Nat.leb_spec nt i); [lia|]. cbn [andb]. destruct (Nat.ltb_spec i nt); [|lia]. destruct (Nat.ltb_spec j nt); [|lia].
    cbn [Nat.leb andb]. rewrite !Nat.sub_0_r. reflexivity.
  - intros i j hi hj. destruct (Nat.leb_spec nt (nt + i)); [|lia]. destruct (Nat.leb_spec nt (nt + j)); [|lia].
    destruct (Nat.ltb_spec (nt + i) (nt + nv)); [|lia]. destruct (Nat.ltb_spec (nt + j) (nt + nv)); [|lia]. cbn [andb]. f_equal; lia.
  - intros i j hij. rewrite <- (h3 i j hij). destruct hij as [hi|hi].
    + destruct (Nat.leb_spec nt i); [lia|]. cbn [andb]. destruct (Nat.ltb_spec j nt); [lia|]. rewrite !andb_false_r. reflexivity.
    + destruct (Nat.leb_spec nt j); [lia|]. rewrite !andb_false_r. cbn [andb]. destruct (Nat.ltb_spec i nt); [lia|]. rewrite !andb_false_r. reflexivity.
Qed.

Lemma combine_system_spec nt nv (s track train : gsys R) :
  apart nt nv (gK s) -> apart nt nv (gM s) -> apart nt nv (gC s) -> length (gF s) = (nt + nv)%nat -> square nt track -> square nv train ->
  exists c, combine_system s nt track train = Ok c /\ blocks nt nv (gK c) (gK track) (gK train) /\ blocks nt nv (gM c) (gM track) (gM train) /\
    blocks nt nv (gC c) (gC track) (gC train) /\ gF c = gF track ++ gF train.
Proof.
  intros hk hm hc hf [a1 [a2 [a3 [a4 [a5 [a6 a7]]]]]] [b1 [b2 [b3 [b4 [b5 [b6 b7]]]]]]. unfold combine_system.
  rewrite (proj1 hk).
  destruct (blocks_assign nt nv (gK s) (gK track) (gK train) hk a1 a2 b1 b2) as [k1 [k2 [e1 [e2 pk]]]].
  destruct (blocks_assign nt nv (gC s) (gC track) (gC train) hc a5 a6 b5 b6) as [c1 [c2 [e3 [e4 pc]]]].
  destruct (blocks_assign nt nv (gM s) (gM track) (gM train) hm a3 a4 b3 b4) as [m1 [m2 [e5 [e6 pm]]]].
  rewrite e1, e3, e5. cbn [rbind]. rewrite e2, e4, e6. cbn [rbind].
  rewrite <- a7, combine_rhs_spec by lia. cbn [rbind]. eexists. split; [reflexivity|]. cbn [gK gM gC gF]. rewrite a7. auto.
Qed.

Lemma zero_apart nt nv : apart nt nv (@mzero R _ (nt + nv) (nt + nv)).
Proof. split; [reflexivity|]. split; [reflexivity|]. intros; reflexivity. Qed.

(** the damping matrix after Rayleigh damping *)
Definition added (da : damping R) (s : gsys R) (i j : nat) : R :=
  if da_on da then fst (rayleigh_factors (da_ratio da) (da_one da) (da_two da)) * me (gM s) i j + snd (rayleigh_factors (da_ratio da) (da_one da) (da_two da)) * me (gK s) i j
  else 0.

Lemma damped_entries (da : damping R) (s : gsys R) :
  let s' := rayleigh_damping (da_on da) (da_ratio da) (da_one da) (da_two da) s in
  gK s' = gK s /\ gM s' = gM s /\ gF s' = gF s /\ mr (gC s') = mr (gC s) /\ mc (gC s') = mc (gC s) /\
  forall i j, me (gC s') i j = me (gC s) i j + added da s i j.
Proof.
  unfold added. destruct (da_on da).
  - destruct (rayleigh_matrix (da_ratio da) (da_one da) (da_two da) s) as [g1 [g2 [g3 [g4 [g5 g6]]]]]. cbn zeta. repeat (split; [assumption|]). exact g6.
  - cbn. repeat (split; [reflexivity|]). intros. lra.
Qed.

Lemma initial_matrices_spec nt nv (da : damping R) (s track train : gsys R) :
  apart nt nv (gK s) -> apart nt nv (gM s) -> apart nt nv (gC s) -> length (gF s) = (nt + nv)%nat -> square nt track -> square nv train ->
  exists c, initial_matrices da s nt track train = Ok c /\ square (nt + nv) c /\ blocks nt nv (gK c) (gK track) (gK train) /\ blocks nt nv (gM c) (gM track) (gM train) /\
    gF c = gF track ++ gF train /\ apart nt nv (gC c) /\
    (forall i j, (i < nt)%nat -> (j < nt)%nat -> me (gC c) i j = me (gC track) i j + added da track i j) /\
    (forall i j, (i < nv)%nat -> (j < nv)%nat -> me (gC c) (nt + i) (nt + j) = me (gC train) i j + added da train i j).
Proof.
  intros hk hm hc hf ha hb. destruct (combine_system_spec nt nv s track train hk hm hc hf ha hb) as [c [e [pk [pm [pc pf]]]]].
  unfold initial_matrices. rewrite e. cbn [rbind]. eexists. split; [reflexivity|].
  destruct (damped_entries da c) as [g1 [g2 [g3 [g4 [g5 g6]]]]]. rewrite g1, g2, g3.
  pose proof pk as [k1 [k2 [k3 [k4 k5]]]]. pose proof pm as [m1 [m2 [m3 [m4 m5]]]]. pose proof pc as [c1 [c2 [c3 [c4 c5]]]].
  split. { unfold square. rewrite g1, g2, g3, g4, g5, k1, k2, m1, m2, c1, c2, pf, app_length.
           destruct ha as [_ [_ [_ [_ [_ [_ h1]]]]]]. destruct hb as [_ [_ [_ [_ [_ [_ h2]]]]]]. lia. }
  split; [exact pk|]. split; [exact pm|]. split; [exact pf|]. split; [|split].
  - unfold apart. rewrite g4, g5. split; [exact c1|]. split; [exact c2|]. intros i j h. rewrite g6, (c5 i j h). unfold added. rewrite (k5 i j h), (m5 i j h).
    destruct (da_on da); lra.
  - intros i j hi hj. rewrite g6, (c3 i j hi hj). unfold added. rewrite (k3 i j hi hj), (m3 i j hi hj). reflexivity.
  - intros i j hi hj. rewrite g6, (c4 i j hi hj). unfold added. rewrite (k4 i j hi hj), (m4 i j hi hj). reflexivity.
Qed.

Lemma apart_blocks nt nv m a b : blocks nt nv m a b -> apart nt nv m.
Proof. intros [h1 [h2 [_ [_ h3]]]]. split; [exact h1|]. split; [exact h2|exact h3]. Qed.

(** ** products with the blocks *)

Lemma mulv_track nt nv (m : nat -> nat -> R) (a : nat -> nat -> R) x y i :
  (forall i j, (i < nt)%nat -> (j < nt)%nat -> m i j = a i j) -> (forall i j, (i < nt <= j)%nat \/ (j < nt <= i)%nat -> m i j = 0) ->
  (i < nt)%nat -> mulv (nt + nv) m (both_moving nt x y) i = mulv nt a x i.
Proof.
  intros h1 h2 hi. unfold mulv. rewrite sumn_app. rewrite (sumn_0 nv); [|intros j hj; rewrite h2 by lia; lra]. rewrite Rplus_0_r.
  apply sumn_ext. intros j hj. rewrite h1 by assumption. unfold both_moving. destruct (Nat.ltb_spec j nt); [reflexivity|lia].
Qed.

Lemma mulv_train nt nv (m : nat -> nat -> R) (b : nat -> nat -> R) x y i :
  (forall i j, (i < nv)%nat -> (j < nv)%nat -> m (nt + i)%nat (nt + j)%nat = b i j) -> (forall i j, (i < nt <= j)%nat \/ (j < nt <= i)%nat -> m i j = 0) ->
  (i < nv)%nat -> mulv (nt + nv) m (both_moving nt x y) (nt + i) = mulv nv b y i.
Proof.
  intros h1 h2 hi. unfold mulv. rewrite sumn_app. rewrite (sumn_0 nt); [|intros j hj; rewrite h2 by lia; lra]. rewrite Rplus_0_l.
  apply sumn_ext. intros j hj. rewrite h1 by assumption. unfold both_moving. destruct (Nat.ltb_spec (nt + j) nt); [lia|]. do 2 f_equal. lia.
Qed.

Lemma mulv_added n (da : damping R) (s : gsys R) (a : nat -> nat -> R) x i :
  mulv n (fun i j => a i j + added da s i j) x i = mulv n a x i +
    (if da_on da then fst (rayleigh_factors (da_ratio da) (da_one da) (da_two da)) * mulv n (me (gM s)) x i
                      + snd (rayleigh_factors (da_ratio da) (da_one da) (da_two da)) * mulv n (me (gK s)) x i else 0).
Proof.
  unfold mulv, added. destruct (da_on da).
  - rewrite <- !sumn_scal, <- !sumn_add. apply sumn_ext. intros. lra.
  - rewrite Rplus_0_r. apply sumn_ext. intros. lra.
Qed.

Lemma added_mode n da (s : gsys R) w x i : damping_asked da -> w = da_one da \/ w = da_two da -> mode n s w x -> (i < n)%nat ->
  fst (rayleigh_factors (da_ratio da) (da_one da) (da_two da)) * mulv n (me (gM s)) x i
  + snd (rayleigh_factors (da_ratio da) (da_one da) (da_two da)) * mulv n (me (gK s)) x i = 2 * da_ratio da * w * mulv n (me (gM s)) x i.
Proof.
  intros [_ [hx [h1 h2]]] hw hm hi. rewrite (hm i hi).
  destruct (rayleigh_ratio _ _ _ hx h1 h2) as [_ [_ [r1 [r2 _]]]]. cbn zeta in r1, r2.
  set (a0 := fst _) in *. set (a1 := snd _) in *.
  assert (e : a0 + a1 * (w * w) = 2 * da_ratio da * w).
  { destruct hw as [-> | -> ]; [rewrite <- r1|rewrite <- r2]; field; lra. }
  rewrite <- e. ring.
Qed.
