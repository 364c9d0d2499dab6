(** * A suspension that is not balanced can have negative energy *)

From Coq Require Import Reals List Bool ZArith Arith Lia Lra Psatz Permutation.
From Verif Require Import Num PyBase Model_Geometry Model_System Model_Element Model_Moving Model_Train
  Spec_Geometry Spec_System Spec_Train Proofs_Geometry Proofs_Dof Proofs_System Proofs_Train Proofs_TrainMat.
Import ListNotations.
Local Open Scope R_scope.

Definition rotations (cd : list (nat * nat)) (st : list (nat * bdof)) : list nat := map snd cd ++ map (fun e => bd_r (snd e)) st.
Definition verticals (cd : list (nat * nat)) (st : list (nat * bdof)) : list nat := map fst cd ++ flat_map (fun e => bd_y (snd e) :: bd_wheels (snd e)) st.

Lemma numbers_split cd st : Permutation (train_numbers cd st) (rotations cd st ++ verticals cd st).
Proof.
  unfold train_numbers, rotations, verticals.
  assert (h1 : Permutation (flat_map (fun p => [fst p; snd p]) cd) (map snd cd ++ map fst cd)).
  { induction cd as [|[y r] cd IH]; [constructor|]. cbn [flat_map map fst snd app]. eapply perm_trans; [apply perm_swap|]. apply perm_skip.
    eapply perm_trans; [apply perm_skip, IH|]. apply Permutation_middle. }
  assert (h2 : Permutation (flat_map (fun e => bogie_numbers (snd e)) st) (map (fun e : nat * bdof => bd_r (snd e)) st ++ flat_map (fun e => bd_y (snd e) :: bd_wheels (snd e)) st)).
  { clear h1. induction st as [|[b d] st IH]; [constructor|]. cbn [flat_map map snd]. unfold bogie_numbers at 1. cbn [app].
    eapply perm_trans; [apply perm_swap|]. apply perm_skip. eapply perm_trans; [apply perm_skip, Permutation_app_head, IH|].
    rewrite !app_comm_cons. rewrite !app_assoc. eapply perm_trans; [apply Permutation_app_tail, Permutation_app_comm|]. rewrite <- !app_assoc. reflexivity. }
  eapply perm_trans; [apply Permutation_app; [exact h1|exact h2]|]. rewrite <- !app_assoc. apply Permutation_app_head. rewrite !app_assoc. apply Permutation_app_tail. apply Permutation_app_comm.
Qed.

Lemma nodup_app_disjoint {A} (a b : list A) x : NoDup (a ++ b) -> In x a -> ~ In x b.
Proof.
  induction a as [|y a IH]; intros h hx; [contradiction|]. inversion h as [|z l hz hl]; subst. destruct hx as [<-|hx].
  - intros hb. apply hz. apply in_app_iff. auto.
  - apply IH; auto.
Qed.
Lemma nodup_app_first {A} (a b : list A) : NoDup (a ++ b) -> NoDup a.
Proof. induction a as [|y a IH]; intros h; [constructor|]. inversion h as [|z l hz hl]; subst. constructor; [|apply IH; auto]. intros hy. apply hz. apply in_app_iff. auto. Qed.

Section Bodies.
  Variables (fc : cart R -> R) (fb : bogie R -> R) (tn : train R) (cd : list (nat * nat)) (st : list (nat * bdof)) (m : nat) (bs : list nat).
  Hypothesis h : initialise_train_ndof tn = (cd, st, m).
  Hypothesis hb : lists_bogies tn bs.

  Lemma bodies_rotations : Permutation (map by_r (bodies fc fb tn cd st bs)) (rotations cd st).
  Proof.
    destruct (ndof_spec _ _ _ _ h) as [h1 [[h2 h2'] [h3 _]]]. unfold bodies, rotations. rewrite map_app, !map_map. cbn [cart_body bogie_body by_r].
    apply Permutation_app.
    - clear - h1. revert h1. generalize (tn_carts tn). induction cd as [|p l IH]; intros [|c cs] e; try discriminate; [constructor|]. cbn [combine map fst snd]. constructor. apply IH. cbn in e. lia.
    - assert (hp : Permutation bs (map fst st)).
      { apply NoDup_Permutation; [apply hb|exact h2|]. intros b. rewrite h2'. apply hb. }
      eapply perm_trans; [apply Permutation_map, hp|]. rewrite map_map. apply Permutation_refl'. apply map_ext_in. intros [b d] hin. cbn [fst snd].
      f_equal. unfold dof_get. rewrite (proj2 (dof_of_In b d st h2) hin). reflexivity.
  Qed.

  Lemma bodies_verticals b : In b (bodies fc fb tn cd st bs) -> In (by_y b) (verticals cd st) /\ forall w, In w (by_lows b) -> In w (verticals cd st).
  Proof.
    intros hin. unfold bodies in hin. apply in_app_iff in hin. unfold verticals. destruct hin as [hin|hin]; apply in_map_iff in hin.
    - destruct hin as [[c p] [<- hin]]. cbn [cart_body by_y by_lows fst snd]. apply in_combine_nth in hin. destruct hin as [q [e1 e2]]. split.
      + apply in_app_iff. left. apply in_map. eapply nth_error_In; eassumption.
      + intros w hw. apply in_map_iff in hw. destruct hw as [b' [<- hb']]. destruct (dof_get_entry _ _ _ _ b' h) as [_ [e3 _]].
        { exists c. split; [eapply nth_error_In; eassumption|exact hb']. }
        apply in_app_iff. right. apply in_flat_map. exists (b', dof_get st b'). split; [exact e3|left; reflexivity].
    - destruct hin as [b' [<- hin]]. cbn [bogie_body by_y by_lows]. apply hb in hin. destruct (dof_get_entry _ _ _ _ b' h hin) as [_ [e3 _]]. split.
      + apply in_app_iff. right. apply in_flat_map. exists (b', dof_get st b'). split; [exact e3|left; reflexivity].
      + intros w hw. apply in_app_iff. right. apply in_flat_map. exists (b', dof_get st b'). split; [exact e3|right; exact hw].
  Qed.

  (** lift the train by one and turn the body with rotation number [r] by [t] *)
  Definition nudge (r : nat) (t : R) (i : nat) : R := if Nat.eqb i r then t else if in_dec Nat.eq_dec i (rotations cd st) then 0 else 1.

  Lemma nudge_body r t b : In b (bodies fc fb tn cd st bs) -> In r (rotations cd st) ->
    body_bil b (nudge r t) (nudge r t) =
    if Nat.eqb (by_r b) r then by_k b * t * (t * sumn (length (by_lows b)) (fun i => weight (by_factors b) i * nth i (by_ds b) 0 ^ 2) + 2 * offset b) else 0.
  Proof.
    intros hin hr. destruct (bodies_verticals b hin) as [v1 v2]. pose proof (Permutation_NoDup (numbers_split cd st) (numbers_nodup _ _ _ _ h)) as hnd.
    assert (hv : forall i, In i (verticals cd st) -> nudge r t i = 1).
    { intros i hi. unfold nudge. destruct (Nat.eqb_spec i r) as [->|ne]; [exfalso; exact (nodup_app_disjoint _ _ _ hnd hr hi)|].
      destruct (in_dec Nat.eq_dec i (rotations cd st)) as [c|c]; [exfalso; exact (nodup_app_disjoint _ _ _ hnd c hi)|reflexivity]. }
    assert (hrb : In (by_r b) (rotations cd st)) by (apply (Permutation_in _ bodies_rotations); apply in_map; exact hin).
    assert (hrv : nudge r t (by_r b) = if Nat.eqb (by_r b) r then t else 0).
    { unfold nudge. destruct (Nat.eqb (by_r b) r); [reflexivity|]. destruct (in_dec Nat.eq_dec (by_r b) (rotations cd st)); [reflexivity|contradiction]. }
    rewrite body_bil_energy, (hv _ v1), hrv. unfold energy, suspension.
    rewrite (sumn_ext _ _ (fun i => by_k b * (nudge r t (by_r b)) ^ 2 * (weight (by_factors b) i * nth i (by_ds b) 0 ^ 2))).
    2: { intros i hi. unfold stretch. rewrite (hv _ v1), (hv (nth i (by_lows b) 0%nat)) by (apply v2, nth_In; exact hi). ring. }
    rewrite sumn_scal, hrv. destruct (Nat.eqb (by_r b) r); ring.
  Qed.

  Lemma unbalanced_negative n b : complete tn -> (m <= n)%nat -> In b (bodies fc fb tn cd st bs) -> 0 < by_k b -> offset b <> 0 ->
    exists u, quad n (total_fill fc fb tn cd st bs) u < 0.
  Proof.
    intros hc hn hin hk ho. set (S0 := sumn (length (by_lows b)) (fun i => weight (by_factors b) i * nth i (by_ds b) 0 ^ 2)).
    set (t := - offset b / (Rabs S0 + 1)). exists (nudge (by_r b) t). rewrite quad_bil, (total_bil _ _ _ _ _ _ _ n _ _ h hb hc hn).
    assert (hrb : In (by_r b) (rotations cd st)) by (apply (Permutation_in _ bodies_rotations); apply in_map; exact hin).
    assert (hnd : NoDup (map by_r (bodies fc fb tn cd st bs))).
    { apply (Permutation_NoDup (Permutation_sym bodies_rotations)). pose proof (Permutation_NoDup (numbers_split cd st) (numbers_nodup _ _ _ _ h)) as hnd. exact (nodup_app_first _ _ hnd). }
    pose proof (fun b' hb' => nudge_body (by_r b) t b' hb' hrb) as hB.
    destruct (in_split _ _ hin) as [l1 [l2 e]]. rewrite e in hnd, hB |- *. rewrite !map_app in hnd |- *. cbn [map] in hnd |- *. rewrite nsum_app. cbn [nsum fold_right].
    change (fold_right nadd (lit 0) ?l) with (nsum l).
    rewrite (nsum_zero (fun b0 => body_bil b0 (nudge (by_r b) t) (nudge (by_r b) t)) l1), (nsum_zero (fun b0 => body_bil b0 (nudge (by_r b) t) (nudge (by_r b) t)) l2).
    - rewrite (hB b) by (apply in_app_iff; right; left; reflexivity). rewrite Nat.eqb_refl. fold S0.
      assert (h1 : 0 < Rabs S0 + 1) by (pose proof (Rabs_pos S0); lra). assert (h2 : Rabs S0 + 1 <> 0) by lra.
      assert (h3 : t * (Rabs S0 + 1) = - offset b) by (unfold t; field; exact h2).
      assert (h4 : t <> 0) by (intros z; rewrite z in h3; apply ho; lra).
      assert (h5 : offset b = - t * (Rabs S0 + 1)) by lra. rewrite h5.
      assert (h6 : S0 <= Rabs S0) by apply Rle_abs.
      assert (h7 : 0 < t * t) by (apply Rsqr_pos_lt in h4; exact h4).
      assert (h8 : 0 < by_k b * (t * t)) by (apply Rmult_lt_0_compat; assumption).
      rnum. replace (0 + (by_k b * t * (t * S0 + 2 * (- t * (Rabs S0 + 1))) + 0)) with (by_k b * (t * t) * (S0 - 2 * (Rabs S0 + 1))) by ring.
      pose proof (Rabs_pos S0). nra.
    - intros b' hb'. rewrite hB by (apply in_app_iff; right; right; exact hb'). destruct (Nat.eqb_spec (by_r b') (by_r b)) as [c|c]; [|reflexivity].
      exfalso. apply NoDup_remove_2 in hnd. apply hnd. rewrite <- c. apply in_app_iff. right. apply in_map. exact hb'.
    - intros b' hb'. rewrite hB by (apply in_app_iff; left; exact hb'). destruct (Nat.eqb_spec (by_r b') (by_r b)) as [c|c]; [|reflexivity].
      exfalso. apply NoDup_remove_2 in hnd. apply hnd. rewrite <- c. apply in_app_iff. left. apply in_map. exact hb'.
  Qed.
End Bodies.
