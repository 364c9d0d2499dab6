(** * The energy of a train on a track (C113) *)

From Coq Require Import Reals List Bool ZArith Arith Lia Lra Psatz.
From Verif Require Import Num PyBase Model_Geometry Model_System Model_Element Model_Moving Model_Coupled Spec_System Spec_Element Spec_Moving Spec_Coupled Proofs_System Proofs_Moving
  Proofs_Contact Proofs_Load Proofs_Coupled Props_Coupled Model_Track Spec_Track Spec_Analytic Spec_Motion Proofs_Motion Spec_ContactEnergy Proofs_ContactEnergy
  Model_CoupledSystem Spec_CoupledSystem Proofs_CoupledSystem Props_CoupledSystem.
Import ListNotations.
Local Open Scope R_scope.

Lemma touched_dofs cs ds : map (@cn_dofs R) cs = map (@cn_dofs R) ds -> touched cs = touched ds.
Proof. unfold touched. intros h. rewrite !flat_map_concat_map. f_equal. rewrite <- !(map_map (@cn_dofs R) (fun l => flat_map _ l)). rewrite h. reflexivity. Qed.

Lemma same_dofs cs ds w : map (@cn_dofs R) cs = map (@cn_dofs R) ds -> cn_dofs (nth w cs (mkContact [] [])) = cn_dofs (nth w ds (mkContact [] [])).
Proof. intros h. change (cn_dofs (nth w cs (mkContact [] []))) with (cn_dofs (nth w cs (mkContact [] []))). rewrite <- !(map_nth (@cn_dofs R)). rewrite h. reflexivity. Qed.

Lemma other_same ia ia' F track k : touched (ia_contacts ia) = touched (ia_contacts ia') -> other_force ia F track k = other_force ia' F track k.
Proof. intros h. unfold other_force. rewrite h. reflexivity. Qed.

Section Rolling.
  Variables (n : nat) (s : gsys R) (ia : R -> interaction R) (rate : R -> nat -> nat -> R) (irr_rate : R -> nat -> R) (F track : list R) (u v a : R -> nat -> R).
  Hypothesis sym_k : msym n (me (gK s)).
  Hypothesis sym_m : msym n (me (gM s)).
  Hypothesis ia_fits : forall t, fits (ia t) (length track) n.
  Hypothesis F_length : length F = n.
  Hypothesis unshared : NoDup (touched (ia_contacts (ia 0))).
  Hypothesis G_pos : 0 < ia_G (ia 0).
  Hypothesis pow_pos : 0 < ia_pow (ia 0).
  Hypothesis pow_broken : forall z, ia_pow (ia 0) <> IZR z.
  Hypothesis rolling : rolls ia rate irr_rate.
  Hypothesis moves : driven n s ia F track u v a.

  Let m := length (ia_train_dofs (ia 0)).

  Lemma same_at t : ia_train_dofs (ia t) = ia_train_dofs (ia 0) /\ ia_static (ia t) = ia_static (ia 0) /\ ia_G (ia t) = ia_G (ia 0) /\ ia_pow (ia t) = ia_pow (ia 0) /\
    map cn_dofs (ia_contacts (ia t)) = map cn_dofs (ia_contacts (ia 0)).
  Proof. exact (proj1 rolling t). Qed.

  Lemma wheel_inside w : (w < m)%nat -> (nth w (ia_train_dofs (ia 0)) 0%nat < n)%nat.
  Proof. intros hw. destruct (ia_fits 0) as [_ [_ [_ [_ [_ [_ [_ [_ h]]]]]]]]. specialize (h _ (nth_In _ 0%nat hw)). lia. Qed.

  Lemma dof_inside w j i : (w < m)%nat -> (j < 4)%nat -> nth j (cn_dofs (nth w (ia_contacts (ia 0)) (mkContact [] []))) None = Some i -> (i < n)%nat.
  Proof.
    intros hw hj hi. destruct (ia_fits 0) as [_ [hn [c1 [_ [_ [c4 [c5 _]]]]]]]. assert (hin : In i (touched (ia_contacts (ia 0)))); [|specialize (c5 i hin); lia].
    unfold touched. apply in_flat_map. exists (nth w (ia_contacts (ia 0)) (mkContact [] [])). split; [apply nth_In; unfold m in hw; lia|]. apply in_flat_map. exists (Some i). split; [|left; reflexivity].
    rewrite <- hi. apply nth_In. destruct (c4 (nth w (ia_contacts (ia 0)) (mkContact [] []))) as [q _]; [apply nth_In; unfold m in hw; lia|]. lia.
  Qed.

  (** the penetration changes with the wheel, the rail, the way along the rail and the irregularity *)
  Lemma depth_rate w : (w < m)%nat -> derivative (fun t => depth (ia t) (listed n (u t)) w)
    (fun t => - irr_rate t w - v t (nth w (ia_train_dofs (ia 0)) 0%nat) + rail_at (listed n (v t)) (nth w (ia_contacts (ia t)) (mkContact [] [])) + uphill (ia t) (rate t) (u t) n w).
  Proof.
    intros hw. destruct moves as [f [[hu _] _]]. destruct rolling as [hs [hr hi]].
    set (d := nth w (ia_train_dofs (ia 0)) 0%nat). set (dofs := cn_dofs (nth w (ia_contacts (ia 0)) (mkContact [] []))).
    apply (derivative_ext
      (fun t => - nth w (ia_irr (ia t)) 0 - (u t d + nth w (ia_static (ia 0)) 0) +
         sumn 4 (fun j => match nth j dofs None with Some i => u t i | None => 0 end * nth j (cn_shape (nth w (ia_contacts (ia t)) (mkContact [] []))) 0)) _
      (fun t => - irr_rate t w - (v t d + 0) +
         sumn 4 (fun j => match nth j dofs None with Some i => v t i | None => 0 end * nth j (cn_shape (nth w (ia_contacts (ia t)) (mkContact [] []))) 0 +
                          match nth j dofs None with Some i => u t i | None => 0 end * rate t w j))).
    - intros t. unfold depth, penetration, wheel_gap, rail_at. destruct (hs t) as [e1 [e2 [_ [_ e5]]]]. rewrite e1, e2. fold d. rewrite (same_dofs _ _ w e5). fold dofs.
      rewrite listed_nth by (apply wheel_inside; exact hw).
      match goal with |- _ + ?x = _ - (_ - ?y) => replace y with x; [ring|] end. apply sumn_ext. intros j hj. f_equal. unfold value_at.
      destruct (nth j dofs None) as [i|] eqn:ei; [|reflexivity]. rewrite listed_nth; [reflexivity|]. exact (dof_inside w j i hw hj ei).
    - intros t. rewrite sumn_add. unfold rail_at, uphill. destruct (hs t) as [_ [_ [_ [_ e5]]]]. rewrite (same_dofs _ _ w e5). fold dofs.
      rewrite (sumn_ext 4 (fun j => value_at (listed n (v t)) (nth j dofs None) * nth j (cn_shape (nth w (ia_contacts (ia t)) (mkContact [] []))) 0)
        (fun j => match nth j dofs None with Some i => v t i | None => 0 end * nth j (cn_shape (nth w (ia_contacts (ia t)) (mkContact [] []))) 0)).
      2:{ intros j hj. f_equal. unfold value_at. destruct (nth j dofs None) as [i|] eqn:ei; [|reflexivity]. rewrite listed_nth; [reflexivity|]. exact (dof_inside w j i hw hj ei). }
      rewrite (sumn_ext 4 (fun j => value_at (listed n (u t)) (nth j dofs None) * rate t w j) (fun j => match nth j dofs None with Some i => u t i | None => 0 end * rate t w j)).
      2:{ intros j hj. f_equal. unfold value_at. destruct (nth j dofs None) as [i|] eqn:ei; [|reflexivity]. rewrite listed_nth; [reflexivity|]. exact (dof_inside w j i hw hj ei). }
      ring.
    - intros t. apply (derivable_pt_lim_plus (fun t => - nth w (ia_irr (ia t)) 0 - (u t d + nth w (ia_static (ia 0)) 0))).
      + apply (derivable_pt_lim_minus (fun t => - nth w (ia_irr (ia t)) 0) (fun t => u t d + nth w (ia_static (ia 0)) 0)).
        * apply (derivable_pt_lim_opp (fun t => nth w (ia_irr (ia t)) 0)). apply hi. exact hw.
        * apply (derivable_pt_lim_plus (fun t => u t d) (fun _ => nth w (ia_static (ia 0)) 0)); [apply hu; apply wheel_inside; exact hw|apply derivable_pt_lim_const].
      + revert t. apply (derivative_sumn 4 (fun t j => match nth j dofs None with Some i => u t i | None => 0 end * nth j (cn_shape (nth w (ia_contacts (ia t)) (mkContact [] []))) 0)).
        intros j hj t. apply (derivable_pt_lim_mult (fun t => match nth j dofs None with Some i => u t i | None => 0 end) (fun t => nth j (cn_shape (nth w (ia_contacts (ia t)) (mkContact [] []))) 0)).
        * destruct (nth j dofs None) as [i|] eqn:ei; [|apply derivable_pt_lim_const]. apply hu. exact (dof_inside w j i hw hj ei).
        * apply hr; [exact hw|exact hj].
  Qed.

  Lemma energy_rate : derivative (fun t => total_energy n s (ia t) F track (u t) (v t))
    (fun t => sumn m (fun w => contact_push (ia_G (ia 0)) (ia_pow (ia 0)) (depth (ia t) (listed n (u t)) w) * (uphill (ia t) (rate t) (u t) n w - irr_rate t w))
              - quad n (me (gC s)) (v t)).
  Proof.
    pose proof moves as [f [hm hf]]. pose proof hm as [hu _].
    set (G := ia_G (ia 0)). set (p := ia_pow (ia 0)).
    pose (D := fun t w => - irr_rate t w - v t (nth w (ia_train_dofs (ia 0)) 0%nat) + rail_at (listed n (v t)) (nth w (ia_contacts (ia t)) (mkContact [] [])) + uphill (ia t) (rate t) (u t) n w).
    apply (derivative_ext
      (fun t => (quad n (me (gM s)) (v t) + quad n (me (gK s)) (u t)) / 2 + sumn m (fun w => contact_energy G p (depth (ia t) (listed n (u t)) w)) - sumn n (fun i => other_force (ia 0) F track i * u t i)) _
      (fun t => work n (f t) (v t) - quad n (me (gC s)) (v t) + sumn m (fun w => contact_push G p (depth (ia t) (listed n (u t)) w) * D t w) - sumn n (fun i => other_force (ia 0) F track i * v t i))).
    - intros t. unfold total_energy. destruct (same_at t) as [e1 [_ [e3 [e4 e5]]]]. rewrite e1, e3, e4. fold G p m. f_equal. unfold work. apply sumn_ext. intros i hi.
      rewrite (other_same (ia t) (ia 0)); [reflexivity|]. apply touched_dofs. exact e5.
    - intros t. destruct (hf t) as [tr [F' [tr' [h1 [h2 [h3 h4]]]]]]. destruct (same_at t) as [e1 [_ [e3 [e4 e5]]]].
      rewrite (work_ext n (f t) (v t) (fun i => nth i F' 0) (v t)) by (auto; intros i hi; apply h4; exact hi).
      rewrite (contact_power (ia t) n (u t) (v t) F track tr F' tr').
      2:{ rewrite e3. exact G_pos. } 2:{ rewrite e4. exact pow_broken. } 2: apply ia_fits. 2: exact F_length. 2:{ rewrite (touched_dofs _ _ e5). exact unshared. }
      2: exact h1. 2: exact h2. 2: exact h3.
      rewrite e1, e3, e4. fold G p m. unfold work.
      rewrite (sumn_ext n (fun i => other_force (ia t) F track i * v t i) (fun i => other_force (ia 0) F track i * v t i)).
      2:{ intros i hi. rewrite (other_same (ia t) (ia 0)); [reflexivity|]. apply touched_dofs. exact e5. }
      match goal with |- ?a + sumn m ?x - ?q + sumn m ?y - ?a = sumn m ?z - ?q => assert (e : sumn m z = sumn m x + sumn m y) by (rewrite <- sumn_add; apply sumn_ext; intros w hw; unfold D; ring) end.
      rewrite e. ring.
    - intros t. apply (derivable_pt_lim_minus (fun t => (quad n (me (gM s)) (v t) + quad n (me (gK s)) (u t)) / 2 + sumn m (fun w => contact_energy G p (depth (ia t) (listed n (u t)) w)))
         (fun t => sumn n (fun i => other_force (ia 0) F track i * u t i))).
      + apply (derivable_pt_lim_plus (fun t => (quad n (me (gM s)) (v t) + quad n (me (gK s)) (u t)) / 2) (fun t => sumn m (fun w => contact_energy G p (depth (ia t) (listed n (u t)) w)))).
        * apply (power n s sym_k sym_m f u v a hm).
        * revert t. apply (derivative_sumn m (fun t w => contact_energy G p (depth (ia t) (listed n (u t)) w))). intros w hw t.
          apply (derivable_pt_lim_comp (fun t => depth (ia t) (listed n (u t)) w) (contact_energy G p)); [apply depth_rate; exact hw|apply contact_energy_derivative; [exact G_pos|exact pow_pos]].
      + revert t. apply (derivative_sumn n (fun t i => other_force (ia 0) F track i * u t i)). intros i hi t. apply (derivable_pt_lim_scal (fun t => u t i)). apply hu. exact hi.
  Qed.
End Rolling.

(** C113: while the wheels stay within their elements, kinetic, spring and contact energy minus the work of the other forces grow by
    what the wheels push uphill along the deformed rail, less what the irregularities take and the damping *)
Theorem C113_rolling n (s : gsys R) (ia : R -> interaction R) rate irr_rate (F track : list R) (u v a : R -> nat -> R) :
  msym n (me (gK s)) -> msym n (me (gM s)) -> (forall t, fits (ia t) (length track) n) -> length F = n -> NoDup (touched (ia_contacts (ia 0))) ->
  0 < ia_G (ia 0) -> 0 < ia_pow (ia 0) -> (forall z, ia_pow (ia 0) <> IZR z) -> rolls ia rate irr_rate -> driven n s ia F track u v a ->
  derivative (fun t => total_energy n s (ia t) F track (u t) (v t))
    (fun t => sumn (length (ia_train_dofs (ia 0))) (fun w => contact_push (ia_G (ia 0)) (ia_pow (ia 0)) (depth (ia t) (listed n (u t)) w) * (uphill (ia t) (rate t) (u t) n w - irr_rate t w))
              - quad n (me (gC s)) (v t)).
Proof. intros. apply (energy_rate n s ia rate irr_rate F track u v a); assumption. Qed.
Print Assumptions C113_rolling.

Lemma stands ia : rolls (fun _ => ia) (fun _ _ _ => 0) (fun _ _ => 0).
Proof. split; [auto|]. split; intros; intros t; apply derivable_pt_lim_const. Qed.

(** C113: a standing train: the energy changes only by damping *)
Theorem C113_standing n (s : gsys R) (ia : interaction R) (F track : list R) (u v a : R -> nat -> R) :
  msym n (me (gK s)) -> msym n (me (gM s)) -> fits ia (length track) n -> length F = n -> NoDup (touched (ia_contacts ia)) ->
  0 < ia_G ia -> 0 < ia_pow ia -> (forall z, ia_pow ia <> IZR z) -> driven n s (fun _ => ia) F track u v a ->
  derivative (fun t => total_energy n s ia F track (u t) (v t)) (fun t => - quad n (me (gC s)) (v t)) /\
  forall t1 t2, t1 <= t2 ->
    (psd n (me (gC s)) -> total_energy n s ia F track (u t2) (v t2) <= total_energy n s ia F track (u t1) (v t1)) /\
    ((forall i j, (i < n)%nat -> (j < n)%nat -> me (gC s) i j = 0) -> total_energy n s ia F track (u t2) (v t2) = total_energy n s ia F track (u t1) (v t1)).
Proof.
  intros hk hm hf hF hn hG hp hz hd.
  assert (h : derivative (fun t => total_energy n s ia F track (u t) (v t)) (fun t => - quad n (me (gC s)) (v t))).
  { pose proof (C113_rolling n s (fun _ => ia) _ _ F track u v a hk hm (fun _ => hf) hF hn hG hp hz (stands ia) hd) as h. refine (derivative_ext _ _ _ _ _ _ h); [reflexivity|].
    intros t. rewrite sumn_0; [ring|]. intros w hw. unfold uphill. rewrite sumn_0; [ring|]. intros. ring. }
  split; [exact h|]. intros t1 t2 h12. split.
  - intros hc. apply (not_growing _ _ _ _ h h12). intros t _. specialize (hc (v t)). lra.
  - intros hc. apply (constant_between _ _ _ _ h h12). intros t _. unfold quad. rewrite sumn_0; [ring|]. intros i hi. apply sumn_0. intros j hj. rewrite hc by assumption. ring.
Qed.
Print Assumptions C113_standing.

Lemma blocks_sym nt nv m a b : blocks nt nv m a b -> msym nt (me a) -> msym nv (me b) -> msym (nt + nv) (me m).
Proof.
  intros [_ [_ [h1 [h2 h3]]]] ha hb i j hi hj. destruct (Nat.lt_ge_cases i nt) as [li|li]; destruct (Nat.lt_ge_cases j nt) as [lj|lj].
  - rewrite !h1 by assumption. apply ha; assumption.
  - rewrite !h3 by lia. reflexivity.
  - rewrite !h3 by lia. reflexivity.
  - replace i with (nt + (i - nt))%nat by lia. replace j with (nt + (j - nt))%nat by lia. rewrite !h2 by lia. apply hb; lia.
Qed.

(** C113 for the matrices of the coupled model: damping asked for or not, the energy of a standing train on a track does not grow *)
Theorem C113_coupled nt nv da (track_s train_s c : gsys R) (ia : interaction R) (F track : list R) (u v a : R -> nat -> R) t1 t2 :
  square nt track_s -> square nv train_s -> coupled_matrices da track_s train_s = Ok c ->
  msym nt (me (gK track_s)) -> msym nt (me (gM track_s)) -> msym nv (me (gK train_s)) -> msym nv (me (gM train_s)) ->
  (da_on da = true -> damping_asked da /\ psd nt (me (gM track_s)) /\ psd nv (me (gM train_s)) /\ psd nt (me (gK track_s)) /\ psd nv (me (gK train_s))) ->
  psd nt (me (gC track_s)) -> psd nv (me (gC train_s)) ->
  length track = nt -> fits ia nt (nt + nv) -> length F = (nt + nv)%nat -> NoDup (touched (ia_contacts ia)) -> 0 < ia_G ia -> ia_pow ia = 3 / 2 ->
  driven (nt + nv) c (fun _ => ia) F track u v a -> t1 <= t2 ->
  total_energy (nt + nv) c ia F track (u t2) (v t2) <= total_energy (nt + nv) c ia F track (u t1) (v t1).
Proof.
  intros ha hb e k1 m1 k2 m2 hd p1 p2 ht hf hF hn hG hp hm h12.
  destruct (coupled_inv nt nv da track_s train_s c ha hb e) as [_ [hk [hM _]]].
  apply (proj2 (C113_standing (nt + nv) c ia F track u v a (blocks_sym _ _ _ _ _ hk k1 k2) (blocks_sym _ _ _ _ _ hM m1 m2) ltac:(rewrite ht; exact hf) hF hn hG ltac:(rewrite hp; lra) ltac:(rewrite hp; exact not_integer_32) hm) t1 t2 h12).
  exact (C112_dissipates nt nv da track_s train_s c ha hb e hd p1 p2).
Qed.
Print Assumptions C113_coupled.

(** C113 is false when two wheels share degrees of freedom: the rail rises under both wheels with speed 1, each of which pushes with
    force 1, but the computed forces take only the power of one of them *)
Theorem C113_shared_refuted : exists u v F' tr', update_contact two_wheels (listed 6 u) [0; 0; 0; 0; 0; 0] [0; 0; 0; 0] = Ok (F', tr') /\
  work 6 (other_force two_wheels [0; 0; 0; 0; 0; 0] [0; 0; 0; 0]) v = 0 /\
  (forall w, (w < 2)%nat -> contact_push 1 (3 / 2) (depth two_wheels (listed 6 u) w) = 1 /\
     v (nth w (ia_train_dofs two_wheels) 0%nat) - rail_at (listed 6 v) (nth w (ia_contacts two_wheels) (mkContact [] [])) = -1) /\
  work 6 (fun i => nth i F' 0) v = -1.
Proof.
  destruct C41_shared_refuted as [F' [tr' [fs [h1 [h2 [h3 [h4 _]]]]]]].
  exists (fun i => if (i <? 4)%nat then 0 else -1), (fun i => if Nat.eqb i 0 then 1 else if Nat.eqb i 2 then 1 else 0), F', tr'. split; [exact h1|]. split; [|split].
  - unfold work, other_force. cbn. lra.
  - assert (hw : forall w, (w < 2)%nat -> depth two_wheels (listed 6 (fun i => if (i <? 4)%nat then 0 else -1)) w = 1).
    { intros w hw. unfold depth, penetration, wheel_gap, rail_at, value_at, two_wheels, half_contact. destruct w as [|[|w]]; [| |lia]; cbn; rnum; ring. }
    intros w h. split.
    + rewrite (hw w h). unfold contact_push. destruct (Rlt_dec 0 1); [|exfalso; lra]. replace (1 / 1) with 1 by field. unfold Rpower. rewrite ln_1, Rmult_0_r. apply exp_0.
    + unfold rail_at, value_at, two_wheels, half_contact. destruct w as [|[|w]]; [| |lia]; cbn; unfold y_shape, sq, cube; cbn; rnum; lra.
  - unfold work. cbn. rnum. lra.
Qed.
Print Assumptions C113_shared_refuted.

(** a wheel in contact with a swinging rail: all masses and stiffnesses 1 *)
Definition unit_system : gsys R := mkSys (mkMat 5 5 (fun i j => if Nat.eqb i j then 1 else 0)) (mkMat 5 5 (fun i j => if Nat.eqb i j then 1 else 0)) (mkMat 5 5 (fun _ _ => 0)) [0; 0; 0; 0; 0].
Definition one_wheel : interaction R := mkInteraction [half_contact] [4%nat] [0] [0] 1 (3 / 2).
Definition weight : list R := [0; 0; 0; 0; - (81 / 32)].
Definition swing (t : R) (i : nat) : R := match i with 0%nat => - (1 / 2) + cos t | 1%nat => - (1 / 8) | 2%nat => - (1 / 2) + cos t | 3%nat => 1 / 8 | _ => - (49 / 32) + cos t end.
Definition swing_v (t : R) (i : nat) : R := match i with 1%nat | 3%nat => 0 | _ => - sin t end.
Definition swing_a (t : R) (i : nat) : R := match i with 1%nat | 3%nat => 0 | _ => - cos t end.

Example C113_case : msym 5 (me (gK unit_system)) /\ fits one_wheel 4 5 /\ NoDup (touched (ia_contacts one_wheel)) /\ driven 5 unit_system (fun _ => one_wheel) weight [0; 0; 0; 0] swing swing_v swing_a /\
  forall t, contact_push 1 (3 / 2) (depth one_wheel (listed 5 (swing t)) 0) = 1.
Proof.
  assert (hf : fits one_wheel 4 5).
  { unfold fits, one_wheel. cbn [ia_G ia_contacts ia_train_dofs ia_static ia_irr length]. split; [lra|]. split; [lia|]. split; [reflexivity|]. split; [reflexivity|]. split; [reflexivity|]. split; [|split; [|split]].
    - intros c [<-|[]]; split; reflexivity.
    - intros i hi. cbn in hi. intuition lia.
    - repeat constructor; simpl; intuition lia.
    - intros i [<-|[]]; lia. }
  assert (hdep : forall t, depth one_wheel (listed 5 (swing t)) 0 = 1).
  { intros t. unfold depth, penetration, wheel_gap, rail_at, value_at, one_wheel, half_contact. cbn. unfold y_shape, sq, cube. cbn. rnum. field. }
  assert (hpush : forall t, contact_push 1 (3 / 2) (depth one_wheel (listed 5 (swing t)) 0) = 1).
  { intros t. rewrite hdep. unfold contact_push. destruct (Rlt_dec 0 1); [|exfalso; lra]. replace (1 / 1) with 1 by field. unfold Rpower. rewrite ln_1, Rmult_0_r. apply exp_0. }
  split; [intros i j _ _; cbn; rewrite Nat.eqb_sym; reflexivity|]. split; [exact hf|]. split; [repeat constructor; simpl; intuition lia|]. split; [|exact hpush].
  exists (fun _ i => match i with 0%nat => - (1 / 2) | 1%nat => - (1 / 8) | 2%nat => - (1 / 2) | 3%nat => 1 / 8 | _ => - (49 / 32) end). split.
  - assert (hc : forall c t, derivable_pt_lim (fun t => c + cos t) t (- sin t)).
    { intros c t. replace (- sin t) with (0 + - sin t) by ring. apply (derivable_pt_lim_plus (fun _ => c) cos); [apply derivable_pt_lim_const|apply derivable_pt_lim_cos]. }
    split; [|split].
    + intros i hi t. destruct i as [|[|[|[|[|i]]]]]; cbn [swing swing_v]; first [apply hc | apply derivable_pt_lim_const | lia].
    + assert (hs : forall t, derivable_pt_lim (fun t => - sin t) t (- cos t)) by (intros t; apply (derivable_pt_lim_opp sin); apply derivable_pt_lim_sin).
      intros i hi t. destruct i as [|[|[|[|[|i]]]]]; cbn [swing_v swing_a]; first [apply hs | apply derivable_pt_lim_const | lia].
    + intros t i hi. unfold mulv. destruct i as [|[|[|[|[|i]]]]]; [..|lia]; cbn; rnum; lra.
  - intros t. destruct (update_contact_spec one_wheel (listed 5 (swing t)) weight [0; 0; 0; 0] hf eq_refl) as [F' [tr' [fs [h1 [h2 [h3 [h4 [h5 [h6 [h7 [h8 h9]]]]]]]]]]].
    exists [0; 0; 0; 0], F', tr'. split; [reflexivity|]. split; [reflexivity|]. split; [exact h1|].
    assert (hfs : fs = [1]).
    { destruct fs as [|f0 [|]]; try discriminate h4. specialize (h5 0%nat ltac:(cbn; lia)). rewrite contact_law in h5 by (cbn; first [lra|exact not_integer_32]).
      cbn [ia_G ia_pow one_wheel] in h5. specialize (hpush t). unfold contact_push, depth in hpush. injection h5 as h5. cbn [nth] in h5. rewrite <- h5. f_equal. exact hpush. }
    subst fs. intros i hi. destruct i as [|[|[|[|[|i]]]]]; [..|lia].
    1-4: rewrite h9, h8 by (cbn; lia); unfold Spec_Coupled.contributions, one_wheel, half_contact, y_shape, sq, cube; cbn; rnum; lra.
    specialize (h6 0%nat ltac:(cbn; lia)). cbn in h6. rewrite h6. lra.
Qed.
