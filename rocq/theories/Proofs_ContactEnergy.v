(** * Proofs about the energy of a train on a track *)

From Coq Require Import Reals List Bool ZArith Arith Lia Lra Psatz.
From Verif Require Import Num PyBase Model_Geometry Model_System Model_Element Model_Moving Model_Coupled Spec_System Spec_Element Spec_Moving Spec_Coupled Proofs_System Proofs_Moving
  Proofs_Contact Proofs_Load Proofs_Coupled Model_Track Spec_Track Spec_Analytic Spec_Motion Proofs_Motion Spec_ContactEnergy.
Import ListNotations.
Local Open Scope R_scope.

(** ** the contact energy *)

Lemma small_power p eps : 0 < p -> 0 < eps -> exists del, 0 < del /\ forall x, 0 < x < del -> Rpower x p < eps.
Proof.
  intros hp he. exists (Rpower eps (/ p)). split; [unfold Rpower; apply exp_pos|]. intros x [h1 h2].
  pose proof (rpower_lt x (Rpower eps (/ p)) p hp (conj h1 h2)) as h. rewrite Rpower_mult, Rinv_l, Rpower_1 in h by lra. exact h.
Qed.

Lemma contact_energy_derivative G p : 0 < G -> 0 < p -> derivative (contact_energy G p) (contact_push G p).
Proof.
  intros hG hp d. destruct (total_order_T 0 d) as [[hd|hd]|hd].
  - unfold contact_push. destruct (Rlt_dec 0 d) as [_|n]; [|contradiction].
    assert (g : derivable_pt_lim (fun d => G / (p + 1) * Rpower (d / G) (p + 1)) d (Rpower (d / G) p)).
    { assert (hx : 0 < d / G) by (apply Rdiv_lt_0_compat; lra).
      assert (h1 : derivable_pt_lim (fun d => d / G) d (/ G)).
      { pose proof (derivable_pt_lim_scal (fun d => d) (/ G) d 1 (derivable_pt_lim_id d)) as g. intros eps he. destruct (g eps he) as [del h]. exists del. intros k k1 k2. specialize (h k k1 k2).
        unfold mult_real_fct in h. replace ((d + k) / G) with (/ G * (d + k)) by (unfold Rdiv; ring). replace (d / G) with (/ G * d) by (unfold Rdiv; ring). rewrite Rmult_1_r in h. exact h. }
      pose proof (derivable_pt_lim_power (d / G) (p + 1) hx) as h2.
      pose proof (derivable_pt_lim_comp (fun d => d / G) (fun x => Rpower x (p + 1)) d _ _ h1 h2) as h3.
      pose proof (derivable_pt_lim_scal _ (G / (p + 1)) d _ h3) as h4.
      replace (G / (p + 1) * ((p + 1) * Rpower (d / G) (p + 1 - 1) * / G)) with (Rpower (d / G) p) in h4; [exact h4|].
      replace (p + 1 - 1) with p by ring. field. lra. }
    intros eps he. destruct (g eps he) as [del h]. assert (hm : 0 < Rmin del d) by (apply Rmin_glb_lt; [apply cond_pos|exact hd]).
    exists (mkposreal _ hm). intros k k1 k2. cbn in k2. pose proof (Rmin_l del d). pose proof (Rmin_r del d).
    specialize (h k k1 ltac:(lra)). unfold contact_energy. assert (0 < d + k) by (apply Rabs_def2 in k2; lra).
    destruct (Rlt_dec 0 (d + k)); [|contradiction]. destruct (Rlt_dec 0 d); [|contradiction]. exact h.
  - subst d. unfold contact_push. destruct (Rlt_dec 0 0) as [n|_]; [lra|]. intros eps he.
    destruct (small_power p (eps * (p + 1)) hp) as [del [hd h]]; [apply Rmult_lt_0_compat; lra|].
    assert (hm : 0 < G * del) by (apply Rmult_lt_0_compat; lra). exists (mkposreal _ hm). intros k k1 k2. cbn in k2. unfold contact_energy.
    destruct (Rlt_dec 0 0) as [n|_]; [lra|]. rewrite Rplus_0_l. destruct (Rlt_dec 0 k) as [hk|hk].
    + rewrite Rabs_right in k2 by lra. assert (hx : 0 < k / G < del).
      { split; [apply Rdiv_lt_0_compat; lra|]. apply (Rmult_lt_reg_l G); [lra|]. replace (G * (k / G)) with k by (field; lra). exact k2. }
      specialize (h (k / G) hx). rewrite Rpower_plus, Rpower_1 by lra.
      replace ((G / (p + 1) * (Rpower (k / G) p * (k / G)) - 0) / k - 0) with (Rpower (k / G) p / (p + 1)) by (field; lra).
      assert (0 < Rpower (k / G) p) by (unfold Rpower; apply exp_pos). rewrite Rabs_right; [|apply Rle_ge, Rlt_le, Rdiv_lt_0_compat; lra].
      apply (Rmult_lt_reg_r (p + 1)); [lra|]. unfold Rdiv. rewrite Rmult_assoc, Rinv_l by lra. lra.
    + replace ((0 - 0) / k - 0) with 0 by (field; lra). rewrite Rabs_R0. exact he.
  - unfold contact_push. destruct (Rlt_dec 0 d) as [n|_]; [lra|]. intros eps he. assert (hm : 0 < - d) by lra. exists (mkposreal _ hm). intros k k1 k2. cbn in k2.
    apply Rabs_def2 in k2. unfold contact_energy. destruct (Rlt_dec 0 (d + k)); [lra|]. destruct (Rlt_dec 0 d); [lra|].
    replace ((0 - 0) / k - 0) with 0 by (field; exact k1). rewrite Rabs_R0. exact he.
Qed.

Lemma contact_energy_nonneg G p d : 0 < G -> 0 < p -> 0 <= contact_energy G p d.
Proof.
  intros hG hp. unfold contact_energy. destruct (Rlt_dec 0 d); [|lra]. apply Rmult_le_pos; [apply Rlt_le, Rdiv_lt_0_compat; lra|]. unfold Rpower. apply Rlt_le, exp_pos.
Qed.

(** ** sums over the degrees of freedom under the wheels *)

Lemma sum_listed n (g : nat -> R) (l : list nat) : NoDup l -> (forall k, In k l -> (k < n)%nat) ->
  sumn n g = sumn n (fun k => if in_dec Nat.eq_dec k l then 0 else g k) + nsum (map g l).
Proof.
  intros hn. induction hn as [|a l ha hn IH]; intros hb.
  - cbn [map nsum]. rnum. rewrite Rplus_0_r. apply sumn_ext. intros k hk. destruct (in_dec Nat.eq_dec k []) as [[]|]. reflexivity.
  - rewrite IH by (intros k hk; apply hb; right; exact hk). cbn [map nsum]. rnum.
    assert (e : sumn n (fun k => if in_dec Nat.eq_dec k l then 0 else g k) =
                sumn n (fun k => if in_dec Nat.eq_dec k (a :: l) then 0 else g k) + sumn n (fun k => if Nat.eqb a k then g k else 0)).
    { rewrite <- sumn_add. apply sumn_ext. intros k hk. destruct (Nat.eqb_spec a k) as [<-|ne].
      - destruct (in_dec Nat.eq_dec a l); [contradiction|]. destruct (in_dec Nat.eq_dec a (a :: l)) as [|q]; [ring|]. exfalso. apply q. left. reflexivity.
      - destruct (in_dec Nat.eq_dec k l) as [i|i]; destruct (in_dec Nat.eq_dec k (a :: l)) as [j|j]; try ring.
        + exfalso. apply j. right. exact i.
        + destruct j as [j|j]; [congruence|contradiction]. }
    rewrite e, Proofs_System.sumn_pick by (apply hb; left; reflexivity). ring.
Qed.

Lemma nsum_map_app (g : nat -> R) l l' : nsum (map g (l ++ l')) = nsum (map g l) + nsum (map g l').
Proof. induction l as [|a l IH]; cbn; rnum; [ring|]. rewrite IH. rnum. ring. Qed.

Definition active (c : contact R) : list nat := flat_map (fun o => match o with Some i => [i] | None => [] end) (cn_dofs c).

Lemma nsum_active (g : nat -> R) (c : contact R) : four c ->
  nsum (map g (active c)) = sumn 4 (fun j => match nth j (cn_dofs c) None with Some i => g i | None => 0 end).
Proof.
  intros [h _]. unfold active. destruct (cn_dofs c) as [|a [|b [|d [|e [|]]]]]; try discriminate h.
  cbn [flat_map sumn nth]. rewrite !nsum_map_app. destruct a, b, d, e; cbn; rnum; ring.
Qed.

Lemma nsum_touched (g : nat -> R) cs : (forall c, In c cs -> four c) ->
  nsum (map g (touched cs)) = sumn (length cs) (fun w => sumn 4 (fun j => match nth j (cn_dofs (nth w cs (mkContact [] []))) None with Some i => g i | None => 0 end)).
Proof.
  intros h. assert (e : nsum (map g (touched cs)) = nsum (map (fun c => sumn 4 (fun j => match nth j (cn_dofs c) None with Some i => g i | None => 0 end)) cs)).
  { induction cs as [|c cs IH]; [reflexivity|]. unfold touched in *. cbn [flat_map map nsum]. rewrite nsum_map_app. fold (active c). rewrite nsum_active by (apply h; left; reflexivity).
    rewrite IH by (intros; apply h; right; assumption). reflexivity. }
  rewrite e. clear e h. rewrite <- (rev_involutive cs). generalize (rev cs). clear cs. intros cs. induction cs as [|c cs IH]; [reflexivity|].
  cbn [rev]. rewrite app_length, Nat.add_comm. cbn [length Nat.add]. rewrite (sumn_diff (length (rev cs))), map_app.
  assert (ea : forall l l' : list R, nsum (l ++ l') = nsum l + nsum l').
  { intros l l'. induction l as [|x l IHl]; cbn; rnum; [ring|]. rewrite IHl. rnum. ring. }
  rewrite ea, IH. cbn [map nsum]. f_equal.
  - apply sumn_ext. intros w hw. rewrite app_nth1 by exact hw. reflexivity.
  - rewrite app_nth2, Nat.sub_diag by lia. cbn [nth]. rnum. ring.
Qed.

Lemma nsum_list (g : nat -> R) l : nsum (map g l) = sumn (length l) (fun w => g (nth w l 0%nat)).
Proof.
  rewrite <- (rev_involutive l). generalize (rev l). clear l. intros l. induction l as [|c l IH]; [reflexivity|].
  cbn [rev]. rewrite app_length, Nat.add_comm. cbn [length sumn Nat.add]. rewrite nsum_map_app, IH. cbn [map nsum]. rnum. f_equal.
  - apply sumn_ext. intros w hw. rewrite app_nth1 by exact hw. reflexivity.
  - rewrite app_nth2, Nat.sub_diag by lia. cbn [nth]. rnum. ring.
Qed.

Lemma listed_length n x : length (listed n x) = n.
Proof. unfold listed. rewrite map_length, seq_length. reflexivity. Qed.
Lemma listed_nth n x i : (i < n)%nat -> nth i (listed n x) 0 = x i.
Proof. intros h. unfold listed. rewrite (nth_indep _ 0 (x 0%nat)) by (rewrite map_length, seq_length; exact h). rewrite map_nth, seq_nth by exact h. reflexivity. Qed.

(** ** the power of the computed forces *)

Lemma contact_power (ia : interaction R) n (u v : nat -> R) (F track tr F' tr' : list R) :
  0 < ia_G ia -> (forall z, ia_pow ia <> IZR z) -> fits ia (length track) n -> length F = n -> NoDup (touched (ia_contacts ia)) -> length tr = length track ->
  (forall k, ~ In k (touched (ia_contacts ia)) -> nth k tr 0 = nth k track 0) ->
  update_contact ia (listed n u) F tr = Ok (F', tr') ->
  work n (fun i => nth i F' 0) v = work n (other_force ia F track) v +
    sumn (length (ia_train_dofs ia)) (fun w => contact_push (ia_G ia) (ia_pow ia) (depth ia (listed n u) w) *
      (v (nth w (ia_train_dofs ia) 0%nat) - rail_at (listed n v) (nth w (ia_contacts ia) (mkContact [] [])))).
Proof.
  intros hG hp hf hF hnd ht htr e.
  assert (hf' : fits ia (length tr) (length F)) by (rewrite ht, hF; exact hf).
  destruct (update_contact_spec ia (listed n u) F tr hf' ltac:(rewrite listed_length; auto)) as [F1 [t1 [fs [h1 [h2 [h3 [h4 [h5 [h6 [h7 [h8 h9]]]]]]]]]]].
  rewrite h1 in e. injection e as -> ->.
  destruct hf as [_ [hnt [c1 [c2 [c3 [c4 [c5 [c6 c7]]]]]]]].
  assert (hfs : forall w, (w < length (ia_train_dofs ia))%nat -> nth w fs 0 = contact_push (ia_G ia) (ia_pow ia) (depth ia (listed n u) w)).
  { intros w hw. specialize (h5 w hw). rewrite contact_law in h5 by assumption. injection h5 as h5. rewrite <- h5. reflexivity. }
  assert (hv : forall w j i, (w < length (ia_train_dofs ia))%nat -> (j < 4)%nat -> nth j (cn_dofs (nth w (ia_contacts ia) (mkContact [] []))) None = Some i ->
    nth i F' 0 = - (nth j (cn_shape (nth w (ia_contacts ia) (mkContact [] []))) 0 * nth w fs 0) /\ (i < length track)%nat).
  { intros w j i hw hj hi.
    assert (hin : In i (touched (ia_contacts ia))).
    { unfold touched. apply in_flat_map. exists (nth w (ia_contacts ia) (mkContact [] [])). split; [apply nth_In; lia|]. apply in_flat_map. exists (Some i). split; [|left; reflexivity].
      rewrite <- hi. apply nth_In. destruct (c4 (nth w (ia_contacts ia) (mkContact [] []))) as [q _]; [apply nth_In; lia|]. lia. }
    split; [|apply c5; exact hin]. rewrite h9 by (rewrite ht; apply c5; exact hin).
    rewrite h8, (distinct_contribution (ia_contacts ia) (map Ropp fs) w j i ltac:(rewrite map_length; lia) c4 hnd ltac:(lia) hj hi). cbn [last].
    rewrite (nth_indep (map Ropp fs) 0 (- 0)) by (rewrite map_length; lia). rewrite map_nth. ring. }
  set (L := touched (ia_contacts ia) ++ ia_train_dofs ia).
  assert (hL : NoDup L).
  { unfold L. clear -hnd c5 c6 c7. induction hnd as [|a l ha hn IH]; [exact c6|]. cbn. constructor.
    - intros h. apply in_app_or in h. destruct h as [h|h]; [contradiction|]. specialize (c5 a (or_introl eq_refl)). specialize (c7 a h). lia.
    - apply IH. intros i hi. apply c5. right. exact hi. }
  assert (hb : forall k, In k L -> (k < n)%nat).
  { intros k hk. unfold L in hk. apply in_app_or in hk. destruct hk as [hk|hk]; [specialize (c5 k hk); lia|specialize (c7 k hk); lia]. }
  unfold work. rewrite (sum_listed n (fun i => nth i F' 0 * v i) L hL hb), (sum_listed n (fun i => other_force ia F track i * v i) L hL hb).
  assert (hs : forall g, nsum (map g L) = sumn (length (ia_train_dofs ia)) (fun w => sumn 4 (fun j => match nth j (cn_dofs (nth w (ia_contacts ia) (mkContact [] []))) None with Some i => g i | None => 0 end))
    + sumn (length (ia_train_dofs ia)) (fun w => g (nth w (ia_train_dofs ia) 0%nat))).
  { intros g. unfold L. rewrite nsum_map_app, nsum_touched, nsum_list, c1 by exact c4. reflexivity. }
  rewrite !hs.
  assert (e1 : sumn n (fun k => if in_dec Nat.eq_dec k L then 0 else nth k F' 0 * v k) = sumn n (fun k => if in_dec Nat.eq_dec k L then 0 else other_force ia F track k * v k)).
  { apply sumn_ext. intros k hk. destruct (in_dec Nat.eq_dec k L) as [i|i]; [reflexivity|]. f_equal.
    assert (i1 : ~ In k (touched (ia_contacts ia))) by (intros q; apply i; unfold L; apply in_or_app; left; exact q).
    assert (i2 : ~ In k (ia_train_dofs ia)) by (intros q; apply i; unfold L; apply in_or_app; right; exact q).
    unfold other_force. destruct (in_dec Nat.eq_dec k (touched (ia_contacts ia))); [contradiction|]. destruct (Nat.ltb_spec k (length track)) as [l|l].
    - rewrite h9 by lia. rewrite h8. assert (ec : Spec_Coupled.contributions (ia_contacts ia) (map Ropp fs) k = []) by (apply contributions_nil; [rewrite map_length; lia|exact c4|exact i1]).
      rewrite ec. cbn [last]. apply htr. exact i1.
    - apply h7; [lia|exact i2]. }
  rewrite e1.
  assert (e2 : sumn (length (ia_train_dofs ia)) (fun w => sumn 4 (fun j => match nth j (cn_dofs (nth w (ia_contacts ia) (mkContact [] []))) None with Some i => nth i F' 0 * v i | None => 0 end))
             = sumn (length (ia_train_dofs ia)) (fun w => - contact_push (ia_G ia) (ia_pow ia) (depth ia (listed n u) w) * rail_at (listed n v) (nth w (ia_contacts ia) (mkContact [] [])))).
  { apply sumn_ext. intros w hw. unfold rail_at. rewrite <- sumn_scal. apply sumn_ext. intros j hj. unfold value_at.
    destruct (nth j (cn_dofs (nth w (ia_contacts ia) (mkContact [] []))) None) as [i|] eqn:ei; [|ring].
    destruct (hv w j i hw hj ei) as [q1 q2]. rewrite q1, listed_nth, hfs by lia. ring. }
  assert (e3 : sumn (length (ia_train_dofs ia)) (fun w => sumn 4 (fun j => match nth j (cn_dofs (nth w (ia_contacts ia) (mkContact [] []))) None with Some i => other_force ia F track i * v i | None => 0 end)) = 0).
  { apply sumn_0. intros w hw. apply sumn_0. intros j hj. destruct (nth j (cn_dofs (nth w (ia_contacts ia) (mkContact [] []))) None) as [i|] eqn:ei; [|reflexivity].
    unfold other_force. destruct (in_dec Nat.eq_dec i (touched (ia_contacts ia))) as [q|q]; [ring|]. exfalso. apply q.
    unfold touched. apply in_flat_map. exists (nth w (ia_contacts ia) (mkContact [] [])). split; [apply nth_In; lia|]. apply in_flat_map. exists (Some i). split; [|left; reflexivity].
    rewrite <- ei. apply nth_In. destruct (c4 (nth w (ia_contacts ia) (mkContact [] []))) as [q1 _]; [apply nth_In; lia|]. lia. }
  assert (e4 : sumn (length (ia_train_dofs ia)) (fun w => nth (nth w (ia_train_dofs ia) 0%nat) F' 0 * v (nth w (ia_train_dofs ia) 0%nat))
             = sumn (length (ia_train_dofs ia)) (fun w => other_force ia F track (nth w (ia_train_dofs ia) 0%nat) * v (nth w (ia_train_dofs ia) 0%nat))
             + sumn (length (ia_train_dofs ia)) (fun w => contact_push (ia_G ia) (ia_pow ia) (depth ia (listed n u) w) * v (nth w (ia_train_dofs ia) 0%nat))).
  { rewrite <- sumn_add. apply sumn_ext. intros w hw. rewrite (h6 w hw), hfs by exact hw. unfold other_force.
    pose proof (c7 _ (nth_In (ia_train_dofs ia) 0%nat hw)) as hr.
    destruct (in_dec Nat.eq_dec (nth w (ia_train_dofs ia) 0%nat) (touched (ia_contacts ia))) as [q|q]; [specialize (c5 _ q); lia|].
    destruct (Nat.ltb_spec (nth w (ia_train_dofs ia) 0%nat) (length track)); [lia|]. ring. }
  rewrite e2, e3, e4.
  match goal with |- _ = _ + sumn _ ?f => replace (sumn (length (ia_train_dofs ia)) f) with
    (sumn (length (ia_train_dofs ia)) (fun w => - contact_push (ia_G ia) (ia_pow ia) (depth ia (listed n u) w) * rail_at (listed n v) (nth w (ia_contacts ia) (mkContact [] [])))
     + sumn (length (ia_train_dofs ia)) (fun w => contact_push (ia_G ia) (ia_pow ia) (depth ia (listed n u) w) * v (nth w (ia_train_dofs ia) 0%nat)))
    by (rewrite <- sumn_add; apply sumn_ext; intros; ring) end.
  ring.
Qed.
