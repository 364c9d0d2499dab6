(** * The matrices of the coupled system (C112) *)

From Coq Require Import Reals List Bool ZArith Arith Lia Lra.
From Verif Require Import Num PyBase Model_Geometry Model_System Spec_System Proofs_System Model_Element Model_Moving Model_Train Model_Coupled Proofs_Coupled Model_Accumulation
  Proofs_Accumulation Model_Track Model_CoupledSystem Spec_CoupledSystem Proofs_CoupledSystem.
Import ListNotations.
Local Open Scope R_scope.

Lemma coupled_spec nt nv da (track train : gsys R) : square nt track -> square nv train ->
  exists c, coupled_matrices da track train = Ok c /\ square (nt + nv) c /\ blocks nt nv (gK c) (gK track) (gK train) /\ blocks nt nv (gM c) (gM track) (gM train) /\
    gF c = gF track ++ gF train /\ apart nt nv (gC c) /\
    (forall i j, (i < nt)%nat -> (j < nt)%nat -> me (gC c) i j = me (gC track) i j + added da track i j) /\
    (forall i j, (i < nv)%nat -> (j < nv)%nat -> me (gC c) (nt + i) (nt + j) = me (gC train) i j + added da train i j).
Proof.
  intros ha hb. unfold coupled_matrices. rewrite (proj1 ha), (proj1 hb).
  apply initial_matrices_spec; auto; try apply zero_apart. cbn [zero_system gF]. apply repeat_length.
Qed.

Section Coupled.
  Variables (nt nv : nat) (da : damping R) (track train : gsys R) (c : gsys R).
  Hypothesis track_square : square nt track.
  Hypothesis train_square : square nv train.
  Hypothesis coupled : coupled_matrices da track train = Ok c.

  Let a0 := fst (rayleigh_factors (da_ratio da) (da_one da) (da_two da)).
  Let a1 := snd (rayleigh_factors (da_ratio da) (da_one da) (da_two da)).

  Lemma coupled_inv : square (nt + nv) c /\ blocks nt nv (gK c) (gK track) (gK train) /\ blocks nt nv (gM c) (gM track) (gM train) /\
    gF c = gF track ++ gF train /\ apart nt nv (gC c) /\
    (forall i j, (i < nt)%nat -> (j < nt)%nat -> me (gC c) i j = me (gC track) i j + added da track i j) /\
    (forall i j, (i < nv)%nat -> (j < nv)%nat -> me (gC c) (nt + i) (nt + j) = me (gC train) i j + added da train i j).
  Proof. destruct (coupled_spec nt nv da track train track_square train_square) as [c' [e h]]. rewrite coupled in e. injection e as <-. exact h. Qed.

  Lemma resist_track x y i : (i < nt)%nat -> mulv (nt + nv) (me (gC c)) (both_moving nt x y) i = mulv nt (me (gC track)) x i +
    (if da_on da then a0 * mulv nt (me (gM track)) x i + a1 * mulv nt (me (gK track)) x i else 0).
  Proof.
    intros hi. destruct coupled_inv as [_ [_ [_ [_ [[_ [_ h0]] [h1 h2]]]]]].
    rewrite (mulv_track nt nv _ (fun i j => me (gC track) i j + added da track i j) x y i h1 h0 hi). apply mulv_added.
  Qed.

  Lemma resist_train x y i : (i < nv)%nat -> mulv (nt + nv) (me (gC c)) (both_moving nt x y) (nt + i) = mulv nv (me (gC train)) y i +
    (if da_on da then a0 * mulv nv (me (gM train)) y i + a1 * mulv nv (me (gK train)) y i else 0).
  Proof.
    intros hi. destruct coupled_inv as [_ [_ [_ [_ [[_ [_ h0]] [h1 h2]]]]]].
    rewrite (mulv_train nt nv _ (fun i j => me (gC train) i j + added da train i j) x y i h2 h0 hi). apply mulv_added.
  Qed.
End Coupled.

Lemma quad_mulv n m x : quad n m x = sumn n (fun i => x i * mulv n m x i).
Proof. unfold quad, mulv. apply sumn_ext. intros i hi. rewrite <- sumn_scal. apply sumn_ext. intros. ring. Qed.

(** the same numbers for track and train apart from each other *)
Lemma split_motion nt v i : both_moving nt v (fun j => v (nt + j)%nat) i = v i.
Proof. unfold both_moving. destruct (Nat.ltb_spec i nt); [reflexivity|]. f_equal. lia. Qed.

(** C112: the coupled system exists, has the track first and the train behind; stiffness, mass and forces are those of the two *)
Theorem C112_blocks nt nv da (track train : gsys R) : square nt track -> square nv train ->
  exists c, coupled_matrices da track train = Ok c /\ square (nt + nv) c /\ gF c = gF track ++ gF train /\
    forall x y, (forall i, (i < nt)%nat ->
        mulv (nt + nv) (me (gK c)) (both_moving nt x y) i = mulv nt (me (gK track)) x i /\
        mulv (nt + nv) (me (gM c)) (both_moving nt x y) i = mulv nt (me (gM track)) x i) /\
      (forall i, (i < nv)%nat ->
        mulv (nt + nv) (me (gK c)) (both_moving nt x y) (nt + i) = mulv nv (me (gK train)) y i /\
        mulv (nt + nv) (me (gM c)) (both_moving nt x y) (nt + i) = mulv nv (me (gM train)) y i).
Proof.
  intros ha hb. destruct (coupled_spec nt nv da track train ha hb) as [c [e [h1 [[_ [_ [k1 [k2 k0]]]] [[_ [_ [m1 [m2 m0]]]] [h4 _]]]]]].
  exists c. split; [exact e|]. split; [exact h1|]. split; [exact h4|]. intros x y. split; intros i hi; split.
  - exact (mulv_track nt nv _ _ x y i k1 k0 hi).
  - exact (mulv_track nt nv _ _ x y i m1 m0 hi).
  - exact (mulv_train nt nv _ _ x y i k2 k0 hi).
  - exact (mulv_train nt nv _ _ x y i m2 m0 hi).
Qed.
Print Assumptions C112_blocks.

(** C112: a system that was not damped before: every mode of the track or of the train at one of the two frequencies is damped
    with the given ratio, on top of its dashpots; without the option only the dashpots are there *)
Theorem C112_once nt nv da (track train : gsys R) c x y : square nt track -> square nv train -> coupled_matrices da track train = Ok c ->
  (da_on da = false -> (forall i, (i < nt)%nat -> mulv (nt + nv) (me (gC c)) (both_moving nt x y) i = mulv nt (me (gC track)) x i) /\
                       (forall i, (i < nv)%nat -> mulv (nt + nv) (me (gC c)) (both_moving nt x y) (nt + i) = mulv nv (me (gC train)) y i)) /\
  (damping_asked da -> forall w, w = da_one da \/ w = da_two da ->
     (mode nt track w x -> forall i, (i < nt)%nat ->
        mulv (nt + nv) (me (gC c)) (both_moving nt x y) i = mulv nt (me (gC track)) x i + 2 * da_ratio da * w * mulv nt (me (gM track)) x i) /\
     (mode nv train w y -> forall i, (i < nv)%nat ->
        mulv (nt + nv) (me (gC c)) (both_moving nt x y) (nt + i) = mulv nv (me (gC train)) y i + 2 * da_ratio da * w * mulv nv (me (gM train)) y i)).
Proof.
  intros ha hb e. split.
  - intros ho. split; intros i hi.
    + rewrite (resist_track nt nv da track train c ha hb e x y i hi), ho. lra.
    + rewrite (resist_train nt nv da track train c ha hb e x y i hi), ho. lra.
  - intros hd w hw. pose proof (proj1 hd) as ho. split; intros hm i hi.
    + rewrite (resist_track nt nv da track train c ha hb e x y i hi), ho, (added_mode nt da track w x i hd hw hm hi). reflexivity.
    + rewrite (resist_train nt nv da track train c ha hb e x y i hi), ho, (added_mode nv da train w y i hd hw hm hi). reflexivity.
Qed.
Print Assumptions C112_once.

(** C112: the power that is lost, for all motions: that of the dashpots, and with the option a0 times twice the kinetic energy
    plus a1 times twice the spring energy *)
Theorem C112_power nt nv da (track train : gsys R) c v : square nt track -> square nv train -> coupled_matrices da track train = Ok c ->
  let a0 := 2 * da_ratio da * da_one da * da_two da / (da_one da + da_two da) in
  let a1 := 2 * da_ratio da / (da_one da + da_two da) in
  let vt := v in let vv := fun j => v (nt + j)%nat in
  quad (nt + nv) (me (gC c)) v = quad nt (me (gC track)) vt + quad nv (me (gC train)) vv +
    (if da_on da then a0 * (quad nt (me (gM track)) vt + quad nv (me (gM train)) vv) + a1 * (quad nt (me (gK track)) vt + quad nv (me (gK train)) vv) else 0).
Proof.
  intros ha hb e a0 a1 vt vv.
  assert (f0 : fst (rayleigh_factors (da_ratio da) (da_one da) (da_two da)) = a0) by (unfold rayleigh_factors, a0; cbn [fst]; rnum; unfold Rdiv; ring).
  assert (f1 : snd (rayleigh_factors (da_ratio da) (da_one da) (da_two da)) = a1) by (unfold rayleigh_factors, a1; cbn [snd]; rnum; unfold Rdiv; ring).
  rewrite quad_mulv, sumn_app.
  assert (e1 : forall i, mulv (nt + nv) (me (gC c)) v i = mulv (nt + nv) (me (gC c)) (both_moving nt vt vv) i).
  { intros i. unfold mulv. apply sumn_ext. intros j _. rewrite split_motion. reflexivity. }
  rewrite (sumn_ext nt _ (fun i => vt i * mulv nt (me (gC track)) vt i + (if da_on da then a0 * (vt i * mulv nt (me (gM track)) vt i) + a1 * (vt i * mulv nt (me (gK track)) vt i) else 0))).
  2:{ intros i hi. rewrite e1, (resist_track nt nv da track train c ha hb e vt vv i hi), f0, f1. unfold vt. destruct (da_on da); ring. }
  rewrite (sumn_ext nv _ (fun i => vv i * mulv nv (me (gC train)) vv i + (if da_on da then a0 * (vv i * mulv nv (me (gM train)) vv i) + a1 * (vv i * mulv nv (me (gK train)) vv i) else 0))).
  2:{ intros i hi. rewrite e1, (resist_train nt nv da track train c ha hb e vt vv i hi), f0, f1. unfold vv. destruct (da_on da); ring. }
  rewrite !quad_mulv, !sumn_add. destruct (da_on da).
  - rewrite !sumn_add, !sumn_scal. ring.
  - rewrite (sumn_0 nt (fun _ => 0)), (sumn_0 nv (fun _ => 0)) by reflexivity. ring.
Qed.
Print Assumptions C112_power.

(** C112: so the coupled system never gains power from damping if neither part does *)
Theorem C112_dissipates nt nv da (track train : gsys R) c : square nt track -> square nv train -> coupled_matrices da track train = Ok c ->
  (da_on da = true -> damping_asked da /\ psd nt (me (gM track)) /\ psd nv (me (gM train)) /\ psd nt (me (gK track)) /\ psd nv (me (gK train))) ->
  psd nt (me (gC track)) -> psd nv (me (gC train)) -> psd (nt + nv) (me (gC c)).
Proof.
  intros ha hb e hd h1 h2 v. rewrite (C112_power nt nv da track train c v ha hb e). cbn zeta.
  pose proof (h1 v). pose proof (h2 (fun j => v (nt + j)%nat)). destruct (da_on da); [|lra].
  destruct (hd eq_refl) as [[_ [p1 [p2 p3]]] [q1 [q2 [q3 q4]]]].
  pose proof (q1 v). pose proof (q2 (fun j => v (nt + j)%nat)). pose proof (q3 v). pose proof (q4 (fun j => v (nt + j)%nat)).
  assert (0 < / (da_one da + da_two da)) by (apply Rinv_0_lt_compat; lra).
  assert (0 <= 2 * da_ratio da * da_one da * da_two da / (da_one da + da_two da)).
  { unfold Rdiv. repeat apply Rmult_le_pos; lra. }
  assert (0 <= 2 * da_ratio da / (da_one da + da_two da)) by (unfold Rdiv; repeat apply Rmult_le_pos; lra).
  match goal with |- 0 <= ?a + ?b + (?p * ?q + ?r * ?s) => assert (0 <= p * q) by (apply Rmult_le_pos; lra); assert (0 <= r * s) by (apply Rmult_le_pos; lra) end.
  lra.
Qed.
Print Assumptions C112_dissipates.

(** C112: a track that was given the same damping: its modes are damped with twice the ratio in the coupled system *)
Theorem C112_both_exact nt nv da (s train : gsys R) c x y w : square nt s -> square nv train -> damping_asked da ->
  coupled_matrices da (rayleigh_damping (da_on da) (da_ratio da) (da_one da) (da_two da) s) train = Ok c ->
  w = da_one da \/ w = da_two da -> mode nt s w x -> forall i, (i < nt)%nat ->
  mulv (nt + nv) (me (gC c)) (both_moving nt x y) i = mulv nt (me (gC s)) x i + 2 * (2 * da_ratio da) * w * mulv nt (me (gM s)) x i.
Proof.
  intros ha hb hd e hw hm i hi. destruct (damped_entries da s) as [g1 [g2 [g3 [g4 [g5 g6]]]]].
  set (s' := rayleigh_damping _ _ _ _ s) in *.
  assert (hs : square nt s') by (unfold square; rewrite g1, g2, g3, g4, g5; exact ha).
  assert (hm' : mode nt s' w x) by (unfold mode; rewrite g1, g2; exact hm).
  rewrite (proj1 (proj2 (C112_once nt nv da s' train c x y hs hb e) hd w hw) hm' i hi), g2.
  assert (e2 : mulv nt (me (gC s')) x i = mulv nt (fun i j => me (gC s) i j + added da s i j) x i).
  { unfold mulv. apply sumn_ext. intros j _. rewrite g6. reflexivity. }
  rewrite e2, mulv_added, (proj1 hd), (added_mode nt da s w x i hd hw hm hi). ring.
Qed.
Print Assumptions C112_both_exact.

(** C112: with the option a free motion of the train, which no spring and no dashpot resists, is slowed down by a0 times its mass *)
Theorem C112_free_exact nt nv da (track train : gsys R) c x y : square nt track -> square nv train -> damping_asked da -> coupled_matrices da track train = Ok c ->
  rigid nv train y -> forall i, (i < nv)%nat ->
  mulv (nt + nv) (me (gC c)) (both_moving nt x y) (nt + i) = mulv nv (me (gC train)) y i
    + 2 * da_ratio da * da_one da * da_two da / (da_one da + da_two da) * mulv nv (me (gM train)) y i.
Proof.
  intros ha hb hd e hr i hi. rewrite (resist_train nt nv da track train c ha hb e x y i hi), (proj1 hd), (hr i hi).
  unfold rayleigh_factors. cbn [fst snd]. rnum. unfold Rdiv. ring.
Qed.
Print Assumptions C112_free_exact.

(** one degree of freedom: stiffness, mass and damping *)
Definition single (k m d : R) : gsys R := mkSys (mkMat 1 1 (fun _ _ => k)) (mkMat 1 1 (fun _ _ => m)) (mkMat 1 1 (fun _ _ => d)) [0].
Lemma single_square k m d : square 1 (single k m d).
Proof. repeat split. Qed.

(** C112 is false when both models have the option: ratio 1/2 is asked for, the mode of the track is damped with 1 *)
Theorem C112_both_refuted : exists da (s train c : gsys R), damping_asked da /\ mode 1 s (da_one da) (fun _ => 1) /\
  (forall i j, me (gC s) i j = 0) /\
  coupled_matrices da (rayleigh_damping (da_on da) (da_ratio da) (da_one da) (da_two da) s) train = Ok c /\
  forall y, mulv 2 (me (gC c)) (both_moving 1 (fun _ => 1) y) 0 <> 2 * da_ratio da * da_one da * mulv 1 (me (gM s)) (fun _ => 1) 0.
Proof.
  set (da := mkDamping true (1/2) 1 1). set (s := single 1 1 0). set (train := single 0 2 0).
  assert (hd : damping_asked da) by (unfold damping_asked, da; cbn; lra).
  assert (hm : mode 1 s (da_one da) (fun _ => 1)) by (intros i hi; unfold mulv, s, da; cbn; lra).
  destruct (damped_entries da s) as [g1 [g2 [g3 [g4 [g5 g6]]]]].
  assert (hs : square 1 (rayleigh_damping (da_on da) (da_ratio da) (da_one da) (da_two da) s)).
  { unfold square. rewrite g1, g2, g3, g4, g5. apply single_square. }
  destruct (coupled_spec 1 1 da _ train hs (single_square _ _ _)) as [c [e _]].
  exists da, s, train, c. split; [exact hd|]. split; [exact hm|]. split; [reflexivity|]. split; [exact e|]. intros y.
  assert (hn : (0 < 1)%nat) by lia.
  pose proof (C112_both_exact 1 1 da s train c (fun _ => 1) y (da_one da) (single_square _ _ _) (single_square _ _ _) hd e (or_introl eq_refl) hm 0 hn) as h.
  change (1 + 1)%nat with 2%nat in h. rewrite h. unfold mulv, s, da, single. cbn. lra.
Qed.
Print Assumptions C112_both_refuted.

(** C112: a train without springs and dashpots is damped *)
Theorem C112_free_refuted : exists da (track train c : gsys R), damping_asked da /\ rigid 1 train (fun _ => 1) /\ (forall i j, me (gC train) i j = 0) /\
  coupled_matrices da track train = Ok c /\ forall x, mulv 2 (me (gC c)) (both_moving 1 x (fun _ => 1)) 1 <> 0.
Proof.
  set (da := mkDamping true (1/2) 1 1). set (track := single 1 1 0). set (train := single 0 2 0).
  assert (hd : damping_asked da) by (unfold damping_asked, da; cbn; lra).
  assert (hr : rigid 1 train (fun _ => 1)) by (intros i hi; unfold mulv, train; cbn; lra).
  destruct (coupled_spec 1 1 da track train (single_square _ _ _) (single_square _ _ _)) as [c [e _]].
  exists da, track, train, c. split; [exact hd|]. split; [exact hr|]. split; [reflexivity|]. split; [exact e|]. intros x.
  assert (hn : (0 < 1)%nat) by lia.
  pose proof (C112_free_exact 1 1 da track train c x (fun _ => 1) (single_square _ _ _) (single_square _ _ _) hd e hr 0 hn) as h.
  change (1 + 1)%nat with 2%nat in h. change (1 + 0)%nat with 1%nat in h. rewrite h. unfold mulv, train, da, single. cbn. lra.
Qed.
Print Assumptions C112_free_refuted.

(** ** the initial state once more *)

(** the end of [calculate_initial_state] carried out [k] further times *)
Fixpoint further (da : damping R) nt (track train : gsys R) (k : nat) (s : gsys R) : res (gsys R) :=
  match k with O => Ok s | S k => do s <- further da nt track train k s ; initial_matrices da s nt track train end.

(** C112: asking for the initial state again changes nothing, the damping is not added again *)
Theorem C112_again nt nv da (track train : gsys R) c k : square nt track -> square nv train -> coupled_matrices da track train = Ok c ->
  exists c', further da nt track train k c = Ok c' /\ gF c' = gF c /\
    forall i j, (i < nt + nv)%nat -> (j < nt + nv)%nat -> me (gK c') i j = me (gK c) i j /\ me (gM c') i j = me (gM c) i j /\ me (gC c') i j = me (gC c) i j.
Proof.
  intros ha hb e. destruct (coupled_inv nt nv da track train c ha hb e) as [h1 [h2 [h3 [h4 [h5 [h6 h7]]]]]].
  assert (h : exists c', further da nt track train k c = Ok c' /\ square (nt + nv) c' /\ blocks nt nv (gK c') (gK track) (gK train) /\ blocks nt nv (gM c') (gM track) (gM train) /\
    gF c' = gF track ++ gF train /\ apart nt nv (gC c') /\
    (forall i j, (i < nt)%nat -> (j < nt)%nat -> me (gC c') i j = me (gC track) i j + added da track i j) /\
    (forall i j, (i < nv)%nat -> (j < nv)%nat -> me (gC c') (nt + i) (nt + j) = me (gC train) i j + added da train i j)).
  { induction k as [|k [s [e1 [s1 [s2 [s3 [s4 [s5 _]]]]]]]]; [exists c; split; [reflexivity|]; auto 10|]. cbn [further]. rewrite e1. cbn [rbind].
    apply initial_matrices_spec; auto; [eapply apart_blocks; eassumption|eapply apart_blocks; eassumption|]. exact (proj2 (proj2 (proj2 (proj2 (proj2 (proj2 s1)))))). }
  destruct h as [c' [e1 [s1 [s2 [s3 [s4 [s5 [s6 s7]]]]]]]]. exists c'. split; [exact e1|]. split; [rewrite s4, h4; reflexivity|].
  destruct h2 as [_ [_ [k1 [k2 k0]]]]. destruct h3 as [_ [_ [m1 [m2 m0]]]]. destruct h5 as [_ [_ c0]].
  destruct s2 as [_ [_ [k3 [k4 k5]]]]. destruct s3 as [_ [_ [m3 [m4 m5]]]]. destruct s5 as [_ [_ c5]].
  intros i j hi hj. destruct (Nat.lt_ge_cases i nt) as [li|li]; destruct (Nat.lt_ge_cases j nt) as [lj|lj].
  - rewrite k1, k3, m1, m3, h6, s6 by assumption. auto.
  - rewrite k0, k5, m0, m5, c0, c5 by lia. auto.
  - rewrite k0, k5, m0, m5, c0, c5 by lia. auto.
  - replace i with (nt + (i - nt))%nat by lia. replace j with (nt + (j - nt))%nat by lia. rewrite k2, k4, m2, m4, h7, s7 by lia. auto.
Qed.
Print Assumptions C112_again.

(** a track with one mode of frequency 1 and a car on its spring *)
Example C112_case : let da := mkDamping true (1/50) 1 3 in exists c, square 1 (single 2 2 5) /\ mode 1 (single 2 2 5) 1 (fun _ => 1) /\ damping_asked da /\
  coupled_matrices da (single 2 2 5) (single 18 2 7) = Ok c /\ forall y, mulv 2 (me (gC c)) (both_moving 1 (fun _ => 1) y) 0 = 5 + 2 * (1/50) * 1 * 2.
Proof.
  intros da. destruct (coupled_spec 1 1 da (single 2 2 5) (single 18 2 7) (single_square _ _ _) (single_square _ _ _)) as [c [e _]]. exists c.
  assert (hm : mode 1 (single 2 2 5) 1 (fun _ => 1)) by (intros i hi; unfold mulv; cbn; lra).
  assert (hd : damping_asked da) by (unfold damping_asked, da; cbn; lra).
  split; [apply single_square|]. split; [exact hm|]. split; [exact hd|]. split; [exact e|]. intros y. assert (hn : (0 < 1)%nat) by lia.
  pose proof (proj1 (proj2 (C112_once 1 1 da _ _ c (fun _ => 1) y (single_square _ _ _) (single_square _ _ _) e) hd 1 (or_introl eq_refl)) hm 0%nat hn) as h.
  change (1 + 1)%nat with 2%nat in h. rewrite h. unfold mulv, single. cbn. lra.
Qed.
