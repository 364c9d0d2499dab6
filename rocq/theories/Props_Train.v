(** * Properties of the train and of the rail irregularities (C35 - C40) *)

From Coq Require Import Reals List Bool ZArith Arith Lia Lra Psatz Permutation.
From Verif Require Import Num PyBase Model_Geometry Model_System Model_Element Model_Moving Model_Train
  Spec_Geometry Spec_System Spec_Train Proofs_Geometry Proofs_Dof Proofs_System Proofs_Train Proofs_TrainMat Proofs_TrainLoad Proofs_Unbalanced.
Import ListNotations.
Local Open Scope R_scope.

(** two carts sharing the middle one of three bogies, two wheels per bogie *)
Definition shared_bogie : bogie R := mkBogie 5 4 8 1 [] [1; -1] [3; 3].
Definition shared_train : train R :=
  mkTrain [mkCart 20 30 6 2 [1; 1/2] [4; -4] [0%nat; 1%nat]; mkCart 22 31 6 2 [1/2; 1] [4; -4] [1%nat; 2%nat]]
          [shared_bogie; shared_bogie; shared_bogie].

(** ** C35: numbering *)

Theorem C35_numbering (tn : train R) cd st m :
  initialise_train_ndof tn = (cd, st, m) ->
  length cd = length (tn_carts tn) /\ lists_bogies tn (map fst st) /\
  (forall b d, In (b, d) st -> length (bd_wheels d) = n_wheels tn b) /\
  Permutation (train_numbers cd st) (seq 0 m).
Proof. exact (ndof_spec tn cd st m). Qed.
Print Assumptions C35_numbering.

(** a shared bogie is counted once in the numbering, but once per cart in the size of the matrices *)
Theorem C35_count (tn : train R) cd st m :
  initialise_train_ndof tn = (cd, st, m) ->
  m = (2 * length (tn_carts tn) + list_sum (map (fun b => 2 + n_wheels tn b) (map fst st)))%nat /\
  (m <= train_total_n_dof tn)%nat /\
  (NoDup (flat_map (@ct_bogies R) (tn_carts tn)) -> m = train_total_n_dof tn).
Proof. exact (ndof_count tn cd st m). Qed.
Print Assumptions C35_count.

(** the train lists every bogie and wheel once, provided that different ones are at different places *)
Theorem C35_bogies (tn : train R) (x : nat -> R) :
  (forall a b, In a (flat_map (@ct_bogies R) (tn_carts tn)) -> In b (flat_map (@ct_bogies R) (tn_carts tn)) -> a <> b -> apart (x a) (x b)) ->
  lists_bogies tn (get_bogies tn x).
Proof. exact (get_bogies_spec tn x). Qed.
Print Assumptions C35_bogies.

Theorem C35_wheels (tn : train R) (x : nat -> R) (xw : nat * nat -> R) :
  lists_bogies tn (get_bogies tn x) ->
  (forall v w, (exists c, In c (tn_carts tn) /\ In (fst v) (ct_bogies c)) -> (exists c, In c (tn_carts tn) /\ In (fst w) (ct_bogies c)) ->
     (snd v < n_wheels tn (fst v))%nat -> (snd w < n_wheels tn (fst w))%nat -> v <> w -> apart (xw v) (xw w)) ->
  lists_wheels tn (get_wheels tn x xw).
Proof. exact (get_wheels_spec tn x xw). Qed.
Print Assumptions C35_wheels.

(** the contact degrees of freedom are those of the wheels, in the order of the wheels *)
Theorem C35_contact (tn : train R) cd st m ws :
  initialise_train_ndof tn = (cd, st, m) -> lists_wheels tn ws ->
  length (contact_dofs st ws) = length ws /\ NoDup (contact_dofs st ws) /\
  (forall q b i, nth_error ws q = Some (b, i) -> nth_error (contact_dofs st ws) q = nth_error (bd_wheels (dof_get st b)) i) /\
  (forall k, In k (contact_dofs st ws) <-> exists b d, In (b, d) st /\ In k (bd_wheels d)).
Proof. exact (contact_dofs_spec tn cd st m ws). Qed.
Print Assumptions C35_contact.

Example C35_case :
  initialise_train_ndof shared_train =
  ([(0, 1); (10, 11)], [(0, mkBdof 2 3 [4; 5]); (1, mkBdof 6 7 [8; 9]); (2, mkBdof 12 13 [14; 15])], 16)%nat
  /\ train_total_n_dof shared_train = 20%nat.
Proof. split; reflexivity. Qed.

Example C35_bogies_case : get_bogies shared_train (fun b => INR b * 8) = [0; 1; 2]%nat.
Proof.
  unfold get_bogies. cbn [shared_train tn_carts flat_map ct_bogies app unique_by existsb orb].
  assert (h : forall a b, (a <> b)%nat -> coords_equal (T3 (INR a * 8) (@lit R _ 1) (@lit R _ 0)) (T3 (INR b * 8) (@lit R _ 1) (@lit R _ 0)) = false).
  { intros a b ne. apply not_true_iff_false. change (@lit R RNum 0) with 0. rewrite same_location. intros hc. apply hc. unfold apart.
    assert (hab : Rabs (INR a - INR b) >= 1).
    { destruct (Nat.lt_trichotomy a b) as [hl|[hl|hl]]; [|lia|]; apply le_INR in hl; rewrite S_INR in hl; unfold Rabs; destruct (Rcase_abs _); lra. }
    replace (INR a * 8 - INR b * 8) with ((INR a - INR b) * 8) by ring. rewrite Rabs_mult, (Rabs_right 8) by lra. lra. }
  assert (hr : forall a, coords_equal (T3 (INR a * 8) (@lit R _ 1) (@lit R _ 0)) (T3 (INR a * 8) (@lit R _ 1) (@lit R _ 0)) = true).
  { intros a. change (@lit R RNum 0) with 0. rewrite same_location. unfold apart. rewrite Rminus_diag_eq, Rabs_R0 by reflexivity. lra. }
  repeat (rewrite ?h, ?hr by lia; cbn [orb existsb app]). reflexivity.
Qed.

(** ** C36: matrices *)

(** the energy for any train: an unbalanced suspension leaves a spurious coupling *)
Theorem C36_energy (tn : train R) cd st m bs n :
  initialise_train_ndof tn = (cd, st, m) -> lists_bogies tn bs -> complete tn -> (m <= n)%nat ->
  (msym n (train_stiffness tn cd st bs) /\
   forall u, quad n (train_stiffness tn cd st bs) u =
     nsum (map (fun b => energy b u + 2 * by_k b * offset b * u (by_y b) * u (by_r b)) (bodies (@ct_k R) (@bg_k R) tn cd st bs))) /\
  (msym n (train_damping tn cd st bs) /\
   forall u, quad n (train_damping tn cd st bs) u =
     nsum (map (fun b => energy b u + 2 * by_k b * offset b * u (by_y b) * u (by_r b)) (bodies (@ct_c R) (@bg_c R) tn cd st bs))).
Proof.
  intros h hb hc hn. rewrite stiffness_total, damping_total.
  destruct (total_energy (@ct_k R) (@bg_k R) tn cd st m bs n h hb hc hn) as [a1 [a2 _]].
  destruct (total_energy (@ct_c R) (@bg_c R) tn cd st m bs n h hb hc hn) as [b1 [b2 _]]. auto.
Qed.
Print Assumptions C36_energy.

(** balanced suspensions (missing in the partial theorem: the others, see below): the energy is that of the springs,
    it is not negative, and a rigid motion of the train causes no force *)
Theorem C36_springs_partial (tn : train R) cd st m bs n :
  initialise_train_ndof tn = (cd, st, m) -> lists_bogies tn bs -> complete tn -> (m <= n)%nat ->
  (forall b, In b (bodies (@ct_k R) (@bg_k R) tn cd st bs) -> balanced b) ->
  (forall u, quad n (train_stiffness tn cd st bs) u = nsum (map (fun b => energy b u) (bodies (@ct_k R) (@bg_k R) tn cd st bs))) /\
  (forall u, quad n (train_damping tn cd st bs) u = nsum (map (fun b => energy b u) (bodies (@ct_c R) (@bg_c R) tn cd st bs))) /\
  (forall u a theta, rigid_train tn cd st a theta u -> forall i, (i < n)%nat ->
     mulv n (train_stiffness tn cd st bs) u i = 0 /\ mulv n (train_damping tn cd st bs) u i = 0).
Proof.
  intros h hb hc hn hbal. rewrite stiffness_total, damping_total.
  assert (hbal2 : forall b, In b (bodies (@ct_c R) (@bg_c R) tn cd st bs) -> balanced b).
  { intros b hin. unfold bodies in hin. apply in_app_iff in hin. destruct hin as [hin|hin]; apply in_map_iff in hin.
    - destruct hin as [cp [<- hin]]. apply (hbal (cart_body (@ct_k R) st (fst cp) (snd cp))). unfold bodies. apply in_app_iff. left. apply in_map_iff. eauto.
    - destruct hin as [b0 [<- hin]]. apply (hbal (bogie_body (@bg_k R) tn st b0)). unfold bodies. apply in_app_iff. right. apply in_map_iff. eauto. }
  destruct (total_energy (@ct_k R) (@bg_k R) tn cd st m bs n h hb hc hn) as [_ [_ a3]]. destruct (a3 hbal) as [a4 a5].
  destruct (total_energy (@ct_c R) (@bg_c R) tn cd st m bs n h hb hc hn) as [_ [_ b3]]. destruct (b3 hbal2) as [b4 b5].
  split; [exact a4|]. split; [exact b4|]. intros u a theta hr i hi. split.
  - apply a5; auto. exact (rigid_relaxed (@ct_k R) (@bg_k R) tn cd st m bs a theta u h hb hr).
  - apply b5; auto. exact (rigid_relaxed (@ct_c R) (@bg_c R) tn cd st m bs a theta u h hb hr).
Qed.
Print Assumptions C36_springs_partial.

Theorem C36_nonnegative_partial (tn : train R) cd st m bs n :
  initialise_train_ndof tn = (cd, st, m) -> lists_bogies tn bs -> complete tn -> (m <= n)%nat ->
  (forall b, In b (bodies (@ct_k R) (@bg_k R) tn cd st bs) ->
     balanced b /\ 0 <= by_k b /\ forall i, (i < length (by_lows b))%nat -> 0 <= weight (by_factors b) i) ->
  psd n (train_stiffness tn cd st bs).
Proof. rewrite stiffness_total. exact (total_psd (@ct_k R) (@bg_k R) tn cd st m bs n). Qed.
Print Assumptions C36_nonnegative_partial.

Theorem C36_dissipation_partial (tn : train R) cd st m bs n :
  initialise_train_ndof tn = (cd, st, m) -> lists_bogies tn bs -> complete tn -> (m <= n)%nat ->
  (forall b, In b (bodies (@ct_c R) (@bg_c R) tn cd st bs) ->
     balanced b /\ 0 <= by_k b /\ forall i, (i < length (by_lows b))%nat -> 0 <= weight (by_factors b) i) ->
  psd n (train_damping tn cd st bs).
Proof. rewrite damping_total. exact (total_psd (@ct_c R) (@bg_c R) tn cd st m bs n). Qed.
Print Assumptions C36_dissipation_partial.

(** with positive suspensions, being balanced is also necessary *)
Theorem C36_nonnegative_iff (tn : train R) cd st m bs n :
  initialise_train_ndof tn = (cd, st, m) -> lists_bogies tn bs -> complete tn -> (m <= n)%nat ->
  ((forall b, In b (bodies (@ct_k R) (@bg_k R) tn cd st bs) -> 0 < by_k b /\ forall i, (i < length (by_lows b))%nat -> 0 <= weight (by_factors b) i) ->
   (psd n (train_stiffness tn cd st bs) <-> forall b, In b (bodies (@ct_k R) (@bg_k R) tn cd st bs) -> balanced b)) /\
  ((forall b, In b (bodies (@ct_c R) (@bg_c R) tn cd st bs) -> 0 < by_k b /\ forall i, (i < length (by_lows b))%nat -> 0 <= weight (by_factors b) i) ->
   (psd n (train_damping tn cd st bs) <-> forall b, In b (bodies (@ct_c R) (@bg_c R) tn cd st bs) -> balanced b)).
Proof.
  intros h hb hc hn. rewrite stiffness_total, damping_total. split; intros hk; split.
  - intros hp b hin. unfold balanced. destruct (Req_dec (offset b) 0) as [e|e]; [exact e|]. destruct (hk b hin) as [k1 _].
    destruct (unbalanced_negative _ _ _ _ _ _ _ h hb n b hc hn hin k1 e) as [u hu]. specialize (hp u). lra.
  - intros hbal. apply (total_psd _ _ _ _ _ _ _ _ h hb hc hn). intros b hin. destruct (hk b hin). split; [auto|]. split; [lra|auto].
  - intros hp b hin. unfold balanced. destruct (Req_dec (offset b) 0) as [e|e]; [exact e|]. destruct (hk b hin) as [k1 _].
    destruct (unbalanced_negative _ _ _ _ _ _ _ h hb n b hc hn hin k1 e) as [u hu]. specialize (hp u). lra.
  - intros hbal. apply (total_psd _ _ _ _ _ _ _ _ h hb hc hn). intros b hin. destruct (hk b hin). split; [auto|]. split; [lra|auto].
Qed.
Print Assumptions C36_nonnegative_iff.

(** the mass matrix *)
Theorem C36_mass (tn : train R) cd st m :
  initialise_train_ndof tn = (cd, st, m) ->
  let M := train_mass tn cd st in
  (forall i j, i <> j -> M i j = 0) /\ (forall k, (m <= k)%nat -> M k k = 0) /\
  (forall q c y r, nth_error (tn_carts tn) q = Some c -> nth_error cd q = Some (y, r) -> M y y = ct_mass c /\ M r r = ct_inertia c) /\
  (forall b d, In (b, d) st -> M (bd_y d) (bd_y d) = bg_mass (bogie_of tn b) /\ M (bd_r d) (bd_r d) = bg_inertia (bogie_of tn b) /\
     forall i k w, nth_error (bd_wheels d) i = Some k -> nth_error (bg_wheels (bogie_of tn b)) i = Some w -> M k k = w).
Proof.
  intros h M. destruct (mass_spec tn cd st m h) as [h1 [h2 h3]]. split; [exact h1|]. split; [exact h3|]. split.
  - intros q c y r hc hp. destruct (in_pairs_cart (@ct_mass R) (@ct_inertia R) (@bg_mass R) (@bg_inertia R) (fun w => w) tn cd st q c (y, r) hc hp) as [a b]. split; apply h2; assumption.
  - intros b d hin. destruct (in_pairs_bogie (@ct_mass R) (@ct_inertia R) (@bg_mass R) (@bg_inertia R) (fun w => w) tn cd st b d hin) as [a1 [a2 a3]].
    split; [apply h2; assumption|]. split; [apply h2; assumption|]. intros i k w hk hw. apply h2. eapply a3; eassumption.
Qed.
Print Assumptions C36_mass.

(** a cart with the distribution factors of the end carts of the default SLT train: the stiffness matrix is indefinite
    and a vertical translation of the whole train causes a moment *)
Definition end_cart_train : train R :=
  mkTrain [mkCart 20 30 6 2 [1; 1/2] [4; -4] [0%nat; 1%nat]] [shared_bogie; shared_bogie].
Theorem C36_unbalanced_refuted : exists (tn : train R) cd st m bs,
  initialise_train_ndof tn = (cd, st, m) /\ lists_bogies tn bs /\ complete tn /\
  (forall b, In b (bodies (@ct_k R) (@bg_k R) tn cd st bs) -> 0 < by_k b /\ forall i, (i < length (by_lows b))%nat -> 0 < weight (by_factors b) i) /\
  ~ psd m (train_stiffness tn cd st bs) /\
  exists u, rigid_train tn cd st 1 0 u /\ exists i, (i < m)%nat /\ mulv m (train_stiffness tn cd st bs) u i <> 0.
Proof.
  assert (h : initialise_train_ndof end_cart_train = ([(0, 1)], [(0, mkBdof 2 3 [4; 5]); (1, mkBdof 6 7 [8; 9])], 10)%nat) by reflexivity.
  assert (hb : lists_bogies end_cart_train [0; 1]%nat).
  { split; [repeat constructor; simpl; intuition lia|]. intros b. split.
    - intros hin. eexists. split; [simpl; left; reflexivity|]. exact hin.
    - intros [c [[<-|[]] hin]]. exact hin. }
  assert (hc : complete end_cart_train).
  { intros c [<-|[]]. simpl. split; [right; reflexivity|]. split; [reflexivity|]. intros b [<-|[<-|[]]]; (split; [left; reflexivity|reflexivity]). }
  exists end_cart_train, [(0, 1)]%nat, [(0, mkBdof 2 3 [4; 5]); (1, mkBdof 6 7 [8; 9])]%nat, 10%nat, [0; 1]%nat.
  split; [exact h|]. split; [exact hb|]. split; [exact hc|]. split.
  { intros b [<-|[<-|[<-|[]]]]; cbn; (split; [lra|]); intros i hi; do 2 (destruct i as [|i]; [lra|]); lia. }
  split.
  - intros hp. set (u := fun k : nat => match k with 0%nat => 1 | 1%nat => -1 / 4 | 2%nat => 2 | 4%nat => 2 | 5%nat => 2 | _ => 0 end).
    specialize (hp u). destruct (C36_energy _ _ _ _ _ 10%nat h hb hc (le_n _)) as [[_ he] _]. rewrite he in hp.
    unfold bodies, energy, suspension, offset, imbalance, stretch in hp. cbn in hp. rnum. lra.
  - exists (fun k => match k with 1%nat | 3%nat | 7%nat => 0 | _ => 1 end). split.
    + exists (fun _ => 0), (fun b => match b with 0%nat => 4 | _ => -4 end). split; [|split].
      * intros [|q] c hq; [|destruct q; discriminate]. injection hq as <-. cbn [ct_bogies ct_bogie_distances].
        intros [|[|i]] b hi; [injection hi as <-; simpl; ring|injection hi as <-; simpl; ring|destruct i; discriminate].
      * intros [|q] p hq; [|destruct q; discriminate]. injection hq as <-. simpl. split; ring.
      * intros b d hd. cbn [dof_of] in hd. destruct (Nat.eqb_spec b 0); [injection hd as <-; subst b|destruct (Nat.eqb_spec b 1); [injection hd as <-; subst b|discriminate]]; cbn [bd_y bd_r bd_wheels].
        -- split; [ring|]. split; [reflexivity|]. intros [|[|i]] w hw; [injection hw as <-; ring|injection hw as <-; ring|destruct i; discriminate].
        -- split; [ring|]. split; [reflexivity|]. intros [|[|i]] w hw; [injection hw as <-; ring|injection hw as <-; ring|destruct i; discriminate].
    + exists 1%nat. split; [lia|]. rewrite stiffness_total, bil_mulv by lia. rewrite (total_bil _ _ _ _ _ _ _ 10%nat _ _ h hb hc (le_n _)).
      unfold bodies, body_bil, offset, imbalance, term, stretch. cbn. rnum. lra.
Qed.
Print Assumptions C36_unbalanced_refuted.

(** a balanced train with positive suspensions satisfies the hypotheses *)
Example C36_case : let tn := mkTrain [mkCart 20 30 6 2 [] [4; -4] [0%nat; 1%nat]] [shared_bogie; shared_bogie] in
  exists cd st m, initialise_train_ndof tn = (cd, st, m) /\ lists_bogies tn [0%nat; 1%nat] /\ complete tn /\
   (forall b, In b (bodies (@ct_k R) (@bg_k R) tn cd st [0%nat; 1%nat]) -> balanced b /\ 0 <= by_k b /\ forall i, (i < length (by_lows b))%nat -> 0 <= weight (by_factors b) i).
Proof.
  cbv zeta. eexists _, _, _. split; [reflexivity|]. split; [|split].
  - split; [repeat constructor; simpl; intuition lia|]. intros b. split.
    + intros hin. eexists. split; [simpl; left; reflexivity|]. exact hin.
    + intros [c [[<-|[]] hin]]. exact hin.
  - intros c [<-|[]]. simpl. split; [left; reflexivity|]. split; [reflexivity|]. intros b [<-|[<-|[]]]; (split; [left; reflexivity|reflexivity]).
  - intros b [<-|[<-|[<-|[]]]]; unfold balanced, offset, imbalance; cbn; rnum; (split; [lra|]); (split; [lra|]); intros; lra.
Qed.

(** ** C37: the weight is carried by the wheels *)

Theorem C37_weight (tn : train R) cd st m bs external :
  initialise_train_ndof tn = (cd, st, m) -> lists_bogies tn bs -> tn_carts tn <> [] -> (forall c, In c (tn_carts tn) -> ct_bogies c <> []) ->
  (forall b, In b bs -> (0 < n_wheels tn b)%nat) ->
  exists l, train_static_load tn cd st bs (train_static_force tn cd st) external no_loads = Ok l /\
    wheel_total tn bs l = external - 981 / 100 * train_weight tn bs.
Proof. exact (weight_conserved tn cd st m bs external). Qed.
Print Assumptions C37_weight.

(** any forces on the carts and bogies are passed on to the wheels *)
Theorem C37_forces (tn : train R) cd st bs force external l' :
  length cd = length (tn_carts tn) -> lists_bogies tn bs -> tn_carts tn <> [] -> (forall c, In c (tn_carts tn) -> ct_bogies c <> []) ->
  (forall b, In b bs -> (0 < n_wheels tn b)%nat) ->
  train_static_load tn cd st bs force external no_loads = Ok l' ->
  wheel_total tn bs l' = external + nsum (map (fun p => force (fst p)) cd) + nsum (map (fun b => force (bd_y (dof_get st b))) bs)
    - gravity * nsum (map (fun b => nsum (bg_wheels (bogie_of tn b))) bs).
Proof. exact (wheel_total_spec tn cd st bs force external l'). Qed.
Print Assumptions C37_forces.

(** the static force vector holds the weights *)
Theorem C37_static_force (tn : train R) cd st m :
  initialise_train_ndof tn = (cd, st, m) ->
  let F := train_static_force tn cd st in
  (forall q c y r, nth_error (tn_carts tn) q = Some c -> nth_error cd q = Some (y, r) -> F y = - ct_mass c * (981 / 100) /\ F r = 0) /\
  (forall b d, In (b, d) st -> F (bd_y d) = - bg_mass (bogie_of tn b) * (981 / 100) /\ F (bd_r d) = 0 /\
     forall i k w, nth_error (bd_wheels d) i = Some k -> nth_error (bg_wheels (bogie_of tn b)) i = Some w -> F k = - w * (981 / 100)).
Proof.
  intros h F. pose proof (static_spec tn cd st m h) as hs. split.
  - intros q c y r hc hp. destruct (in_pairs_cart (fun c => - ct_mass c * gravity) (fun _ => 0) (fun b => - bg_mass b * gravity) (fun _ => 0) (fun w => - w * gravity) tn cd st q c (y, r) hc hp) as [a b].
    rewrite <- gravity_val. split; apply hs; assumption.
  - intros b d hin. destruct (in_pairs_bogie (fun c => - ct_mass c * gravity) (fun _ => 0) (fun b => - bg_mass b * gravity) (fun _ => 0) (fun w => - w * gravity) tn cd st b d hin) as [a1 [a2 a3]].
    rewrite <- gravity_val. split; [apply hs; assumption|]. split; [apply hs; assumption|]. intros i k w hk hw. apply hs. eapply a3; eassumption.
Qed.
Print Assumptions C37_static_force.

(** a train without carts raises *)
Theorem C37_no_carts (bgs : list (bogie R)) cd st bs force external l :
  train_static_load (mkTrain [] bgs) cd st bs force external l = Err ErrZeroDivision.
Proof. reflexivity. Qed.
Print Assumptions C37_no_carts.

Example C37_case : lists_bogies shared_train [0; 1; 2]%nat /\ tn_carts shared_train <> [] /\
  (forall c, In c (tn_carts shared_train) -> ct_bogies c <> []) /\ (forall b, In b [0; 1; 2]%nat -> (0 < n_wheels shared_train b)%nat) /\
  train_weight shared_train [0; 1; 2]%nat = 75.
Proof.
  split; [|split; [discriminate|split; [|split]]].
  - split; [repeat constructor; simpl; intuition lia|]. intros b. split.
    + intros [<-|[<-|[<-|[]]]]; [exists (mkCart 20 30 6 2 [1; 1/2] [4; -4] [0%nat; 1%nat])| exists (mkCart 20 30 6 2 [1; 1/2] [4; -4] [0%nat; 1%nat])
        | exists (mkCart 22 31 6 2 [1/2; 1] [4; -4] [1%nat; 2%nat])]; simpl; auto.
    + intros [c [[<-|[<-|[]]] hin]]; simpl in *; intuition lia.
  - intros c [<-|[<-|[]]]; discriminate.
  - intros b [<-|[<-|[<-|[]]]]; cbn; lia.
  - unfold train_weight, bogie_mass. cbn. rnum. lra.
Qed.

(** ** C38: repeated initialisation *)

(** the exact loads after [n] initialisations of the same train *)
Theorem C38_growth (tn : train R) cd st bs force external n :
  length cd = length (tn_carts tn) -> lists_bogies tn bs -> tn_carts tn <> [] ->
  exists l, train_static_loads n tn cd st bs force external no_loads = Ok l /\
    ((0 < n)%nat -> forall b, In b bs -> ld_bogie l b = Some (force (bd_y (dof_get st b)) + INR n * share tn cd force external b) /\
      forall i, (i < n_wheels tn b)%nat -> ld_wheel l b i = Some (- nth i (bg_wheels (bogie_of tn b)) 0 * gravity +
        (INR n * force (bd_y (dof_get st b)) + INR n * (INR n + 1) / 2 * share tn cd force external b) / INR (n_wheels tn b))).
Proof. exact (repeated_loads tn cd st bs force external n). Qed.
Print Assumptions C38_growth.

(** a wheel keeps its load when nothing rests on it *)
Theorem C38_same_load_partial (tn : train R) cd st bs force external n :
  length cd = length (tn_carts tn) -> lists_bogies tn bs -> tn_carts tn <> [] -> (0 < n)%nat ->
  (forall b, In b bs -> force (bd_y (dof_get st b)) = 0 /\ share tn cd force external b = 0) ->
  exists l1 l, train_static_loads 1 tn cd st bs force external no_loads = Ok l1 /\ train_static_loads n tn cd st bs force external no_loads = Ok l /\
    forall b i, In b bs -> (i < n_wheels tn b)%nat -> ld_wheel l b i = ld_wheel l1 b i.
Proof.
  intros hl hb hc hn h0. destruct (repeated_loads tn cd st bs force external n hl hb hc) as [l [h1 h2]].
  destruct (repeated_loads tn cd st bs force external 1 hl hb hc) as [l1 [g1 g2]]. exists l1, l. split; [assumption|]. split; [assumption|].
  intros b i hin hi. destruct (h2 hn b hin) as [_ a]. destruct (g2 (le_n _) b hin) as [_ a']. rewrite (a i hi), (a' i hi).
  destruct (h0 b hin) as [e1 e2]. rewrite e1, e2. f_equal. unfold Rdiv. ring.
Qed.
Print Assumptions C38_same_load_partial.

Theorem C38_loads_refuted : exists (tn : train R) cd st m bs l1 l2,
  initialise_train_ndof tn = (cd, st, m) /\ lists_bogies tn bs /\
  train_static_loads 1 tn cd st bs (train_static_force tn cd st) 0 no_loads = Ok l1 /\
  train_static_loads 2 tn cd st bs (train_static_force tn cd st) 0 no_loads = Ok l2 /\
  ld_wheel l1 0%nat 0%nat <> ld_wheel l2 0%nat 0%nat.
Proof.
  set (tn := mkTrain [mkCart 1 1 1 1 [] [0] [0%nat]] [mkBogie 1 1 1 1 [] [0] [1]] : train R).
  assert (h : initialise_train_ndof tn = ([(0, 1)], [(0, mkBdof 2 3 [4])], 5)%nat) by reflexivity.
  assert (hb : lists_bogies tn [0]%nat).
  { split; [repeat constructor; simpl; intuition|]. intros b. split.
    - intros hin. eexists. split; [simpl; left; reflexivity|]. exact hin.
    - intros [c [[<-|[]] hin]]. exact hin. }
  set (cd := [(0, 1)]%nat) in *. set (st := [(0, mkBdof 2 3 [4])]%nat) in *.
  assert (hl : length cd = length (tn_carts tn)) by reflexivity. assert (hc : tn_carts tn <> []) by discriminate.
  destruct (repeated_loads tn cd st [0%nat] (train_static_force tn cd st) 0 1 hl hb hc) as [l1 [a1 a2]].
  destruct (repeated_loads tn cd st [0%nat] (train_static_force tn cd st) 0 2 hl hb hc) as [l2 [b1 b2]].
  exists tn, cd, st, 5%nat, [0%nat], l1, l2. split; [exact h|]. split; [exact hb|]. split; [exact a1|]. split; [exact b1|].
  destruct (a2 ltac:(lia) 0%nat (or_introl eq_refl)) as [_ a3]. destruct (b2 ltac:(lia) 0%nat (or_introl eq_refl)) as [_ b3].
  rewrite (a3 0%nat), (b3 0%nat) by (cbn; lia).
  assert (e1 : train_static_force tn cd st (bd_y (dof_get st 0%nat)) = - (981/100)).
  { destruct (C37_static_force tn cd st 5 h) as [_ g]. destruct (g 0%nat (mkBdof 2 3 [4%nat])) as [g1 _]; [left; reflexivity|]. change (dof_get st 0%nat) with (mkBdof 2 3 [4%nat]). rewrite g1. cbn. lra. }
  assert (e2 : share tn cd (train_static_force tn cd st) 0 0%nat = - (981/100)).
  { unfold share. cbn [tn_carts tn cd combine map nsum fst snd ct_bogies count_occ length]. destruct (Nat.eq_dec 0 0); [|congruence].
    destruct (C37_static_force tn cd st 5 h) as [g _]. destruct (g 0%nat _ 0%nat 1%nat eq_refl eq_refl) as [g1 _]. rewrite g1. cbn [ct_mass]. rnum. simpl INR. lra. }
  rewrite e1, e2, gravity_val. change (n_wheels tn 0%nat) with 1%nat. simpl. intros hf. injection hf as hf. lra.
Qed.
Print Assumptions C38_loads_refuted.

(** irregularities: without a generator nothing changes; generated ones are added again *)
Theorem C38_irregularities (nw nt : nat) (g : list (list R)) : length g = nw -> (forall r, In r g -> length r = nt) ->
  initialise_irregularities None nw nt (Some g) = g /\
  initialise_irregularities (Some g) nw nt (Some g) = map (map (fun x => 2 * x)) g /\
  initialise_irregularities (Some g) nw nt None = g.
Proof.
  intros h1 h2. split; [|split; [|reflexivity]].
  - unfold initialise_irregularities. subst nw. change (@lit R RNum 0) with 0. induction g as [|r g IH]; cbn [length repeat combine map]; auto.
    rewrite IH by (intros; apply h2; simpl; auto). f_equal. cbn [fst snd]. assert (hr : length r = nt) by (apply h2; simpl; auto). clear - hr.
    revert nt hr. induction r as [|x r IHr]; intros [|nt] hr; simpl in *; try lia; auto. rewrite IHr by lia. f_equal. rnum. ring.
  - unfold initialise_irregularities. clear. induction g as [|r g IH]; cbn [combine map]; auto. rewrite IH. f_equal. cbn [fst snd].
    induction r as [|x r IHr]; cbn [combine map]; auto. rewrite IHr. f_equal. cbn [fst snd]. rnum. ring.
Qed.
Print Assumptions C38_irregularities.

Theorem C38_irregularities_refuted : exists (g : list (list R)),
  initialise_irregularities (Some (initialise_irregularities None 1 1 (Some g))) 1 1 (Some g) <> initialise_irregularities None 1 1 (Some g).
Proof.
  exists [[1]]. destruct (C38_irregularities 1 1 [[1]] eq_refl) as [h1 [h2 _]]; [intros r [<-|[]]; reflexivity|]. rewrite h1, h2. simpl.
  intros hc. injection hc as hc. lra.
Qed.
Print Assumptions C38_irregularities_refuted.

(** ** C39: initial displacement *)

(** what the returned displacement satisfies, for any exact solution of the reduced system: the force of the imposed
    displacements enters with the wrong sign, so twice that force is missing from equilibrium *)
Theorem C39_residual_partial (K : mat R) (F : list R) n disp dofs K1 F1 u1 u :
  mr K = n -> mc K = n -> length F = n -> NoDup dofs -> length disp = length dofs -> (forall i, In i dofs -> (i < n)%nat) ->
  initial_system K F n disp dofs = Ok (K1, F1) ->
  (forall r, (r < mr K1)%nat -> mulv (mc K1) (me K1) (fun j => nth j u1 0) r = nth r F1 0) ->
  initial_displacement n disp dofs u1 = Ok u ->
  length u = n /\
  (forall q w d, nth_error dofs q = Some w -> nth_error disp q = Some d -> nth w u 0 = d) /\
  (forall r, (r < n)%nat -> ~ In r dofs ->
     mulv n (me K) (fun j => nth j u 0) r = nth r F 0 + 2 * nsum (map (fun wd => me K r (fst wd) * snd wd) (combine dofs disp))).
Proof. exact (initial_residual K F n disp dofs K1 F1 u1 u). Qed.
Print Assumptions C39_residual_partial.

(** with the wheels at rest the result is in equilibrium *)
Theorem C39_wheels_at_rest (K : mat R) (F : list R) n disp dofs K1 F1 u1 u :
  mr K = n -> mc K = n -> length F = n -> NoDup dofs -> length disp = length dofs -> (forall i, In i dofs -> (i < n)%nat) ->
  (forall d, In d disp -> d = 0) ->
  initial_system K F n disp dofs = Ok (K1, F1) ->
  (forall r, (r < mr K1)%nat -> mulv (mc K1) (me K1) (fun j => nth j u1 0) r = nth r F1 0) ->
  initial_displacement n disp dofs u1 = Ok u ->
  forall r, (r < n)%nat -> ~ In r dofs -> mulv n (me K) (fun j => nth j u 0) r = nth r F 0.
Proof.
  intros h1 h2 h3 h4 h5 h6 h0 h7 h8 h9 r hr hn. destruct (initial_residual K F n disp dofs K1 F1 u1 u h1 h2 h3 h4 h5 h6 h7 h8 h9) as [_ [_ h]].
  rewrite (h r hr hn). rewrite nsum_zero; [ring|]. intros [w d] hin. cbn [fst snd]. rewrite (h0 d) by (eapply in_combine_r; eassumption). ring.
Qed.
Print Assumptions C39_wheels_at_rest.

(** a body on one spring whose wheel is moved up by one moves down by one *)
Definition spring_matrix : mat R := mkMat 2 2 (fun i j => if Nat.eqb i j then 1 else -1).
Theorem C39_equilibrium_refuted : exists K1 F1 u1 u,
  initial_system spring_matrix [0; 0] 2 [1] [1%nat] = Ok (K1, F1) /\
  (forall r, (r < mr K1)%nat -> mulv (mc K1) (me K1) (fun j => nth j u1 0) r = nth r F1 0) /\
  initial_displacement 2 [1] [1%nat] u1 = Ok u /\ u = [-1; 1] /\
  mulv 2 (me spring_matrix) (fun j => nth j u 0) 0%nat = -2.
Proof.
  eexists _, _, [-1], [-1; 1]. split; [reflexivity|]. split.
  - intros [|r] hr; [|cbn in hr; lia]. cbn. rnum. ring.
  - split; [reflexivity|]. split; [reflexivity|]. cbn. rnum. ring.
Qed.
Print Assumptions C39_equilibrium_refuted.

(** ** C40: irregularities depend on the position only *)

Theorem C40_by_position (rng : nat -> nat -> R) (x y : list R) f_min f_max N Av omega_c seed irr_x irr_y :
  (0 < N)%nat ->
  rail_irregularities rng x f_min f_max N Av omega_c seed = Ok irr_x ->
  rail_irregularities rng y f_min f_max N Av omega_c seed = Ok irr_y ->
  length irr_x = length x /\
  forall i j p, nth_error x i = Some p -> nth_error y j = Some p -> nth_error irr_x i = nth_error irr_y j /\
    nth_error irr_x i = Some (sumn N (fun n => wave rng f_min f_max N Av omega_c seed n p)).
Proof.
  intros hN h1 h2. rewrite irregularities_spec in h1, h2 by assumption. injection h1 as <-. injection h2 as <-.
  split; [apply map_length|]. intros i j p hi hj. rewrite (map_nth_error _ _ _ hi), (map_nth_error _ _ _ hj). auto.
Qed.
Print Assumptions C40_by_position.

Theorem C40_bounded (rng : nat -> nat -> R) (x : list R) f_min f_max N Av omega_c seed irr :
  (0 < N)%nat -> rail_irregularities rng x f_min f_max N Av omega_c seed = Ok irr ->
  forall v, In v irr -> Rabs v <= sumn N (amplitude f_min f_max N Av omega_c).
Proof.
  intros hN h v hv. rewrite irregularities_spec in h by assumption. injection h as <-. apply in_map_iff in hv. destruct hv as [p [<- _]].
  apply Rabs_sumn. intros n _. unfold wave. rewrite Rabs_mult.
  rewrite (Rabs_right (amplitude _ _ _ _ _ _)) by (apply Rle_ge; apply sqrt_pos).
  rewrite <- (Rmult_1_r (amplitude f_min f_max N Av omega_c n)) at 2. apply Rmult_le_compat_l; [apply sqrt_pos|].
  pose proof (COS_bound (frequency f_min f_max N n * p - rng seed n)). apply Rabs_le. lra.
Qed.
Print Assumptions C40_bounded.

(** all wheels, one row each *)
Theorem C40_all_wheels rng wheels n_time f_min f_max N Av omega_c seed :
  (0 < N)%nat -> (forall d, In d wheels -> length d = n_time) ->
  generate_irregularities rng wheels n_time f_min f_max N Av omega_c seed =
  Ok (map (map (fun p => sumn N (fun n => wave rng f_min f_max N Av omega_c seed n p))) wheels).
Proof. exact (generate_spec rng wheels n_time f_min f_max N Av omega_c seed). Qed.
Print Assumptions C40_all_wheels.

(** no spectrum: without harmonics nothing is generated *)
Theorem C40_no_harmonics rng (x : list R) f_min f_max Av omega_c seed : exists e, rail_irregularities rng x f_min f_max 0 Av omega_c seed = Err e.
Proof. eexists. reflexivity. Qed.
Print Assumptions C40_no_harmonics.

Example C40_case : exists irr, rail_irregularities (fun _ _ => 0) [0; 3; 0] 2 500 4 (1/100) 1 99 = Ok irr /\ length irr = 3%nat /\ nth_error irr 0 = nth_error irr 2.
Proof. rewrite irregularities_spec by lia. eexists. split; [reflexivity|]. split; reflexivity. Qed.
