From Coq Require Import Reals List Bool ZArith Arith Lia Lra Psatz Permutation.
From Verif Require Import Num PyBase Model_Geometry Model_System Model_Element Model_Moving Model_Train
  Spec_Geometry Spec_System Spec_Train Proofs_Geometry Proofs_Dof Proofs_System Proofs_Train Proofs_TrainMat.
Import ListNotations.
Local Open Scope R_scope.

(** ** static loads (C37, C38) *)

Definition base (force : nat -> R) (st : list (nat * bdof)) (b : nat) (o : option R) : R := match o with None => force (bd_y (dof_get st b)) | Some t => t end.

Definition one_share (tn : train R) (force : nat -> R) (external : R) (cp : cart R * (nat * nat)) : R :=
  (force (fst (snd cp)) + external / INR (length (tn_carts tn))) / INR (length (ct_bogies (fst cp))).

Lemma cart_fold_spec force st s (bs : list nat) (l : loads R) :
  let l' := fold_left (fun l b => mkLoads (fun b' => if Nat.eqb b' b then Some (bogie_add_load force (bd_y (dof_get st b)) s (ld_bogie l b)) else ld_bogie l b')
                                  (ld_wheel l)) bs l in
  ld_wheel l' = ld_wheel l /\
  forall b, ld_bogie l' b = if in_dec Nat.eq_dec b bs then Some (base force st b (ld_bogie l b) + INR (count_occ Nat.eq_dec bs b) * s) else ld_bogie l b.
Proof.
  cbv zeta. revert l. induction bs as [|a bs IH]; intros l; cbn [fold_left]; [split; [reflexivity|intros b; simpl; reflexivity]|].
  destruct (IH (mkLoads (fun b' => if Nat.eqb b' a then Some (bogie_add_load force (bd_y (dof_get st a)) s (ld_bogie l a)) else ld_bogie l b') (ld_wheel l))) as [h1 h2].
  split; [rewrite h1; reflexivity|]. intros b. rewrite h2. cbn [ld_bogie count_occ]. destruct (Nat.eqb_spec b a) as [->|ne].
  - destruct (in_dec Nat.eq_dec a (a :: bs)) as [_|hn]; [|exfalso; apply hn; simpl; auto].
    destruct (Nat.eq_dec a a); [|congruence].
    assert (hb : bogie_add_load force (bd_y (dof_get st a)) s (ld_bogie l a) = base force st a (ld_bogie l a) + s) by (unfold bogie_add_load, base; destruct (ld_bogie l a); reflexivity).
    rewrite hb. destruct (in_dec Nat.eq_dec a bs) as [hi|hi].
    + f_equal. cbn [base]. rewrite S_INR. ring.
    + apply (count_occ_not_In Nat.eq_dec) in hi. rewrite hi. simpl. f_equal. ring.
  - destruct (Nat.eq_dec a b); [congruence|].
    destruct (in_dec Nat.eq_dec b bs) as [hi|hi], (in_dec Nat.eq_dec b (a :: bs)) as [hj|hj]; auto.
    + exfalso. apply hj. simpl. auto.
    + exfalso. destruct hj as [?|?]; [congruence|contradiction].
Qed.

Lemma carts_fold_spec (tn : train R) (cps : list (cart R * (nat * nat))) force st external (l : loads R) :
  let l' := fold_left (fun l cn => cart_add_load force st (external / INR (length (tn_carts tn))) (fst cn) (fst (snd cn)) l) cps l in
  ld_wheel l' = ld_wheel l /\
  forall b, ld_bogie l' b = if in_dec Nat.eq_dec b (flat_map (fun cp => ct_bogies (fst cp)) cps)
    then Some (base force st b (ld_bogie l b) + nsum (map (fun cp => INR (count_occ Nat.eq_dec (ct_bogies (fst cp)) b) * one_share tn force external cp) cps))
    else ld_bogie l b.
Proof.
  cbv zeta. revert l. induction cps as [|cp cps IH]; intros l; cbn [fold_left]; [split; [reflexivity|intros b; simpl; reflexivity]|].
  set (l1 := cart_add_load force st (external / INR (length (tn_carts tn))) (fst cp) (fst (snd cp)) l).
  destruct (IH l1) as [h1 h2].
  pose proof (cart_fold_spec force st (one_share tn force external cp) (ct_bogies (fst cp)) l) as hs. cbv zeta in hs.
  assert (e : l1 = fold_left (fun l b => mkLoads (fun b' => if Nat.eqb b' b then Some (bogie_add_load force (bd_y (dof_get st b)) (one_share tn force external cp) (ld_bogie l b)) else ld_bogie l b')
                                  (ld_wheel l)) (ct_bogies (fst cp)) l).
  { unfold l1, cart_add_load, one_share. rewrite nofnat_R. reflexivity. }
  rewrite <- e in hs. destruct hs as [g1 g2].
  split; [rewrite h1, g1; reflexivity|]. intros b. rewrite h2, g2. cbn [flat_map map nsum]. rnum.
  destruct (in_dec Nat.eq_dec b (ct_bogies (fst cp) ++ flat_map (fun cp => ct_bogies (fst cp)) cps)) as [hj|hj].
  - destruct (in_dec Nat.eq_dec b (ct_bogies (fst cp))) as [hi|hi].
    + destruct (in_dec Nat.eq_dec b (flat_map (fun cp => ct_bogies (fst cp)) cps)) as [hk|hk].
      * f_equal. cbn [base]. ring.
      * rewrite (nsum_zero _ cps).
        -- f_equal. ring.
        -- intros cp' hin. assert (hz : count_occ Nat.eq_dec (ct_bogies (fst cp')) b = 0%nat).
           { apply count_occ_not_In. intros hc. apply hk. apply in_flat_map. eauto. }
           rewrite hz. simpl. ring.
    + destruct (in_dec Nat.eq_dec b (flat_map (fun cp => ct_bogies (fst cp)) cps)) as [hk|hk].
      * apply (count_occ_not_In Nat.eq_dec) in hi. rewrite hi. f_equal. simpl. ring.
      * exfalso. apply in_app_iff in hj. tauto.
  - destruct (in_dec Nat.eq_dec b (ct_bogies (fst cp))) as [hi|hi]; [exfalso; apply hj; apply in_app_iff; auto|].
    destruct (in_dec Nat.eq_dec b (flat_map (fun cp => ct_bogies (fst cp)) cps)) as [hk|hk]; [exfalso; apply hj; apply in_app_iff; auto|reflexivity].
Qed.

Definition wbase (tn : train R) (b i : nat) (o : option R) : R := match o with None => - nth i (bg_wheels (bogie_of tn b)) 0 * gravity | Some t => t end.

Lemma distribute_fold_spec (tn : train R) (bs : list nat) (l : loads R) :
  NoDup bs ->
  let l' := fold_left (fun l b => bogie_distribute tn b l) bs l in
  ld_bogie l' = ld_bogie l /\
  forall b i, ld_wheel l' b i = if (if in_dec Nat.eq_dec b bs then Nat.ltb i (n_wheels tn b) else false)
    then Some (wbase tn b i (ld_wheel l b i) + load_of (ld_bogie l b) / INR (n_wheels tn b)) else ld_wheel l b i.
Proof.
  cbv zeta. revert l. induction bs as [|a bs IH]; intros l hd; cbn [fold_left]; [split; [reflexivity|intros b i; simpl; reflexivity]|].
  inversion hd; subst. destruct (IH (bogie_distribute tn a l) H2) as [h1 h2].
  split; [rewrite h1; reflexivity|]. intros b i. rewrite h2. unfold bogie_distribute. cbn [ld_wheel ld_bogie].
  change (length (bg_wheels (bogie_of tn a))) with (n_wheels tn a).
  destruct (Nat.eqb_spec b a) as [->|ne].
  - destruct (in_dec Nat.eq_dec a bs) as [hc|_]; [contradiction|]. destruct (in_dec Nat.eq_dec a (a :: bs)) as [_|hn]; [|exfalso; apply hn; simpl; auto].
    cbn [andb]. destruct (Nat.ltb i (n_wheels tn a)); [|reflexivity]. f_equal. unfold wheel_add_load, wbase, load_of. rewrite nofnat_R.
    destruct (ld_wheel l a i), (ld_bogie l a); reflexivity.
  - cbn [andb]. destruct (in_dec Nat.eq_dec b bs) as [hi|hi], (in_dec Nat.eq_dec b (a :: bs)) as [hj|hj]; auto.
    + exfalso. apply hj. simpl. auto.
    + exfalso. destruct hj as [?|?]; [congruence|contradiction].
Qed.

Lemma static_load_spec (tn : train R) cd st bs force external (l : loads R) :
  length cd = length (tn_carts tn) -> lists_bogies tn bs -> tn_carts tn <> [] ->
  exists l', train_static_load tn cd st bs force external l = Ok l' /\
    (forall b, In b bs -> ld_bogie l' b = Some (base force st b (ld_bogie l b) + share tn cd force external b)) /\
    (forall b i, In b bs -> (i < n_wheels tn b)%nat ->
       ld_wheel l' b i = Some (wbase tn b i (ld_wheel l b i) + (base force st b (ld_bogie l b) + share tn cd force external b) / INR (n_wheels tn b))).
Proof.
  intros hl [hb1 hb2] hc. unfold train_static_load. destruct (tn_carts tn) as [|c0 cs] eqn:ec; [congruence|]. rewrite <- ec in *. clear hc.
  cbv zeta. rewrite nofnat_R.
  pose proof (carts_fold_spec tn (combine (tn_carts tn) cd) force st external l) as hs. cbv zeta in hs.
  change (@ndiv R RNum) with Rdiv.
  set (l1 := fold_left (fun l cn => cart_add_load force st (external / INR (length (tn_carts tn))) (fst cn) (fst (snd cn)) l) (combine (tn_carts tn) cd) l) in *.
  destruct hs as [g1 g2]. pose proof (distribute_fold_spec tn bs l1 hb1) as hd. cbv zeta in hd. destruct hd as [d1 d2].
  assert (hbog : forall b, In b bs -> ld_bogie l1 b = Some (base force st b (ld_bogie l b) + share tn cd force external b)).
  { intros b hin. rewrite g2. destruct (in_dec Nat.eq_dec b (flat_map (fun cp => ct_bogies (fst cp)) (combine (tn_carts tn) cd))) as [_|hn].
    - reflexivity.
    - exfalso. apply hn. apply hb2 in hin. destruct hin as [c [h1 h2]]. apply In_nth_error in h1. destruct h1 as [q hq].
      destruct (nth_error cd q) as [p|] eqn:ep; [|apply nth_error_None in ep; assert (q < length (tn_carts tn))%nat by (apply nth_error_Some; congruence); lia].
      apply in_flat_map. exists (c, p). split; [|assumption]. clear - hq ep.
      revert cd q hq ep. generalize (tn_carts tn). induction l as [|c0 l IH]; intros [|p0 cd] [|q] h1 h2; try discriminate; simpl.
      + injection h1 as ->. injection h2 as ->. auto.
      + right. eapply IH; eassumption. }
  eexists. split; [reflexivity|]. split.
  - intros b hin. rewrite d1. auto.
  - intros b i hin hi. rewrite d2. destruct (in_dec Nat.eq_dec b bs); [|contradiction]. destruct (Nat.ltb_spec i (n_wheels tn b)); [|lia].
    rewrite g1, (hbog b hin). reflexivity.
Qed.

Lemma nsum_map_mul {A} (f : A -> R) c l : nsum (map (fun a => f a * c) l) = nsum (map f l) * c.
Proof. induction l; simpl; rnum; [ring|]. rewrite IHl. ring. Qed.

Lemma nsum_swap {A B} (f : A -> B -> R) (l : list A) (r : list B) :
  nsum (map (fun a => nsum (map (fun b => f a b) r)) l) = nsum (map (fun b => nsum (map (fun a => f a b) l)) r).
Proof.
  induction l as [|a l IH]; cbn [map nsum].
  - symmetry. apply nsum_zero. reflexivity.
  - rewrite IH. rnum. rewrite <- nsum_map_add. reflexivity.
Qed.

Lemma count_total (bs l : list nat) : NoDup bs -> incl l bs -> nsum (map (fun b => INR (count_occ Nat.eq_dec l b)) bs) = INR (length l).
Proof.
  intros hd. induction l as [|a l IH]; intros hi.
  - apply nsum_zero. reflexivity.
  - cbn [length]. rewrite S_INR, <- IH by (intros x hx; apply hi; simpl; auto).
    assert (ha : In a bs) by (apply hi; simpl; auto). clear - hd ha.
    induction bs as [|b bs IHb]; [destruct ha|]. inversion hd; subst. cbn [map nsum count_occ]. rnum.
    destruct (Nat.eq_dec a b) as [->|ne].
    + rewrite S_INR. assert (e : nsum (map (fun b0 => INR (if Nat.eq_dec b b0 then S (count_occ Nat.eq_dec l b0) else count_occ Nat.eq_dec l b0)) bs) = nsum (map (fun b0 => INR (count_occ Nat.eq_dec l b0)) bs)).
      { apply nsum_map_ext. intros x hx. destruct (Nat.eq_dec b x) as [->|]; [contradiction|reflexivity]. }
      rewrite e. ring.
    + destruct ha as [ha|ha]; [congruence|]. specialize (IHb H2 ha). cbn [count_occ] in IHb. rewrite IHb. ring.
Qed.

Lemma shares_total (tn : train R) cd bs force external :
  length cd = length (tn_carts tn) -> lists_bogies tn bs -> tn_carts tn <> [] -> (forall c, In c (tn_carts tn) -> ct_bogies c <> []) ->
  nsum (map (share tn cd force external) bs) = external + nsum (map (fun p => force (fst p)) cd).
Proof.
  intros hl [hb1 hb2] hc hne. unfold share. rewrite nsum_swap.
  transitivity (nsum (map (fun cp => external / INR (length (tn_carts tn)) + force (fst (snd cp))) (combine (tn_carts tn) cd))).
  - apply nsum_map_ext. intros [c p] hin. cbn [fst snd]. rewrite nsum_map_mul.
    assert (hcin : In c (tn_carts tn)) by (eapply in_combine_l; eassumption).
    rewrite count_total; auto.
    + field. split; apply not_0_INR.
      * intros hz. apply hc. destruct (tn_carts tn); [reflexivity|discriminate].
      * intros hz. apply (hne c hcin). destruct (ct_bogies c); [reflexivity|discriminate].
    + intros b hb. apply hb2. eauto.
  - rewrite (nsum_map_add (fun _ : cart R * (nat * nat) => external / INR (length (tn_carts tn)))). f_equal.
    + assert (hk : forall (A : Type) (l : list A) (c : R), nsum (map (fun _ => c) l) = INR (length l) * c).
      { clear. intros A l c. induction l; cbn [map nsum length]; rnum; [simpl; ring|]. rewrite IHl, S_INR. ring. }
      rewrite hk, combine_length, hl, Nat.min_id. field. apply not_0_INR. intros hz. apply hc. destruct (tn_carts tn); [reflexivity|discriminate].
    + clear - hl. revert cd hl. induction (tn_carts tn) as [|c cs IH]; intros [|p cd] hl; simpl in *; try lia; auto. rewrite IH by lia. reflexivity.
Qed.

Lemma wheel_total_spec (tn : train R) cd st bs force external l' :
  length cd = length (tn_carts tn) -> lists_bogies tn bs -> tn_carts tn <> [] -> (forall c, In c (tn_carts tn) -> ct_bogies c <> []) ->
  (forall b, In b bs -> (0 < n_wheels tn b)%nat) ->
  train_static_load tn cd st bs force external no_loads = Ok l' ->
  wheel_total tn bs l' = external + nsum (map (fun p => force (fst p)) cd) + nsum (map (fun b => force (bd_y (dof_get st b))) bs)
    - gravity * nsum (map (fun b => nsum (bg_wheels (bogie_of tn b))) bs).
Proof.
  intros hl hb hc hne hw hs. destruct (static_load_spec tn cd st bs force external no_loads hl hb hc) as [l1 [h1 [_ h3]]].
  assert (l1 = l') by congruence. subst l1. rewrite <- (shares_total tn cd bs force external hl hb hc hne).
  unfold wheel_total. rewrite <- nsum_map_scal, <- nsum_map_add.
  transitivity (nsum (map (fun b => (share tn cd force external b + force (bd_y (dof_get st b))) + - (gravity * nsum (bg_wheels (bogie_of tn b)))) bs)).
  - apply nsum_map_ext. intros b hin.
    transitivity (sumn (n_wheels tn b) (fun i => - gravity * nth i (bg_wheels (bogie_of tn b)) 0 + (force (bd_y (dof_get st b)) + share tn cd force external b) / INR (n_wheels tn b))).
    + apply sumn_ext. intros i hi. rewrite (h3 b i hin hi). cbn [no_loads ld_wheel ld_bogie load_of wbase base]. ring.
    + rewrite sumn_add, sumn_scal. unfold n_wheels at 1. rewrite sumn_repeat.
      assert (hk : forall n (c : R), sumn n (fun _ => c) = INR n * c).
      { clear. induction n; intros c; cbn [sumn]; [simpl; rnum; ring|]. rewrite IHn, S_INR. rnum. ring. }
      rewrite hk. field. apply not_0_INR. specialize (hw b hin). lia.
  - rewrite nsum_map_add. unfold Rminus. f_equal.
    assert (hop : forall (A : Type) (f : A -> R) r, nsum (map (fun a => - f a) r) = - nsum (map f r)).
    { clear. intros A f r. induction r; cbn [map nsum]; rnum; [ring|]. rewrite IHr. ring. }
    exact (hop nat (fun b => gravity * nsum (bg_wheels (bogie_of tn b))) bs).
Qed.

Lemma gravity_val : @gravity R _ = 981 / 100.
Proof. unfold gravity. rewrite ndec_R. reflexivity. Qed.

Lemma static_carts (tn : train R) cd st m : initialise_train_ndof tn = (cd, st, m) ->
  nsum (map (fun p => train_static_force tn cd st (fst p)) cd) = - gravity * nsum (map (@ct_mass R) (tn_carts tn)).
Proof.
  intros h. destruct (ndof_spec _ _ _ _ h) as [hl _].
  assert (hq : forall q c p, nth_error (tn_carts tn) q = Some c -> nth_error cd q = Some p -> train_static_force tn cd st (fst p) = - ct_mass c * gravity).
  { intros q c p h1 h2. apply (static_spec _ _ _ _ h). eapply (in_pairs_cart (fun c => - ct_mass c * gravity)); eassumption. }
  revert hl hq. generalize (train_static_force tn cd st). intros f. generalize (tn_carts tn) as cs. generalize cd. clear.
  induction cd as [|p cd IH]; intros [|c cs] hl hq; simpl in hl; try lia; cbn [map nsum]; rnum; [ring|].
  rewrite (hq 0%nat c p eq_refl eq_refl). rewrite (IH cs); [ring|lia|]. intros q c' p' h1 h2. apply (hq (S q)); assumption.
Qed.

Lemma static_bogies (tn : train R) cd st m bs : initialise_train_ndof tn = (cd, st, m) -> lists_bogies tn bs ->
  nsum (map (fun b => train_static_force tn cd st (bd_y (dof_get st b))) bs) = - gravity * nsum (map (fun b => bg_mass (bogie_of tn b)) bs).
Proof.
  intros h [_ hb]. rewrite <- nsum_map_scal. apply nsum_map_ext. intros b hin. apply hb in hin.
  destruct (dof_get_entry _ _ _ _ _ h hin) as [_ [e2 _]].
  rewrite (static_spec _ _ _ _ h _ _ (proj1 (in_pairs_bogie _ _ _ _ _ tn cd st b _ e2))). ring.
Qed.

Lemma weight_conserved (tn : train R) cd st m bs external :
  initialise_train_ndof tn = (cd, st, m) -> lists_bogies tn bs -> tn_carts tn <> [] -> (forall c, In c (tn_carts tn) -> ct_bogies c <> []) ->
  (forall b, In b bs -> (0 < n_wheels tn b)%nat) ->
  exists l, train_static_load tn cd st bs (train_static_force tn cd st) external no_loads = Ok l /\
    wheel_total tn bs l = external - 981 / 100 * train_weight tn bs.
Proof.
  intros h hb hc hne hw. destruct (ndof_spec _ _ _ _ h) as [hl _].
  destruct (static_load_spec tn cd st bs (train_static_force tn cd st) external no_loads hl hb hc) as [l [h1 _]].
  exists l. split; [assumption|]. rewrite (wheel_total_spec tn cd st bs _ _ _ hl hb hc hne hw h1).
  rewrite (static_carts _ _ _ _ h), (static_bogies _ _ _ _ _ h hb), gravity_val. unfold train_weight, bogie_mass. rewrite nsum_map_add. ring.
Qed.

(** repeated initialisation *)

Lemma repeated_loads (tn : train R) cd st bs force external n :
  length cd = length (tn_carts tn) -> lists_bogies tn bs -> tn_carts tn <> [] ->
  exists l, train_static_loads n tn cd st bs force external no_loads = Ok l /\
    ((0 < n)%nat -> forall b, In b bs -> ld_bogie l b = Some (force (bd_y (dof_get st b)) + INR n * share tn cd force external b) /\
      forall i, (i < n_wheels tn b)%nat -> ld_wheel l b i = Some (- nth i (bg_wheels (bogie_of tn b)) 0 * gravity +
        (INR n * force (bd_y (dof_get st b)) + INR n * (INR n + 1) / 2 * share tn cd force external b) / INR (n_wheels tn b))).
Proof.
  intros hl hb hc.
  assert (g : forall n k l0,
    (forall b, In b bs -> base force st b (ld_bogie l0 b) = force (bd_y (dof_get st b)) + INR k * share tn cd force external b /\
       forall i, (i < n_wheels tn b)%nat -> wbase tn b i (ld_wheel l0 b i) = - nth i (bg_wheels (bogie_of tn b)) 0 * gravity +
        (INR k * force (bd_y (dof_get st b)) + INR k * (INR k + 1) / 2 * share tn cd force external b) / INR (n_wheels tn b)) ->
    exists l, train_static_loads n tn cd st bs force external l0 = Ok l /\ ((0 < n)%nat -> forall b, In b bs -> ld_bogie l b = Some (force (bd_y (dof_get st b)) + INR (k + n) * share tn cd force external b) /\
       forall i, (i < n_wheels tn b)%nat -> ld_wheel l b i = Some (- nth i (bg_wheels (bogie_of tn b)) 0 * gravity +
        (INR (k + n) * force (bd_y (dof_get st b)) + INR (k + n) * (INR (k + n) + 1) / 2 * share tn cd force external b) / INR (n_wheels tn b)))).
  { clear n. induction n as [|n IH]; intros k l0 h0; cbn [train_static_loads]; [eexists; split; [reflexivity|lia]|].
    destruct (static_load_spec tn cd st bs force external l0 hl hb hc) as [l1 [e1 [e2 e3]]]. rewrite e1. cbn [rbind].
    assert (h1 : forall b, In b bs -> ld_bogie l1 b = Some (force (bd_y (dof_get st b)) + INR (S k) * share tn cd force external b) /\
       forall i, (i < n_wheels tn b)%nat -> ld_wheel l1 b i = Some (- nth i (bg_wheels (bogie_of tn b)) 0 * gravity +
        (INR (S k) * force (bd_y (dof_get st b)) + INR (S k) * (INR (S k) + 1) / 2 * share tn cd force external b) / INR (n_wheels tn b))).
    { intros b hin. destruct (h0 b hin) as [a1 a2]. split.
      - rewrite (e2 b hin), a1, S_INR. f_equal. ring.
      - intros i hi. rewrite (e3 b i hin hi), a1, (a2 i hi), S_INR. f_equal. field. apply not_0_INR. lia. }
    destruct (IH (S k) l1) as [l [i1 i2]].
    - intros b hin. destruct (h1 b hin) as [a1 a2]. split; [rewrite a1; reflexivity|]. intros i hi. rewrite (a2 i hi). reflexivity.
    - exists l. split; [assumption|]. intros _. destruct n as [|n].
      + cbn [train_static_loads] in i1. injection i1 as <-. replace (k + 1)%nat with (S k) by lia. assumption.
      + replace (k + S (S n))%nat with (S k + S n)%nat by lia. apply i2. lia. }
  destruct (g n 0%nat no_loads) as [l [h1 h2]]; [|exists l; split; auto].
  intros b hin. cbn [no_loads ld_bogie ld_wheel base wbase]. simpl. split; [ring|]. intros i hi. field. apply not_0_INR. lia.
Qed.

(** ** irregularities (C40, C38) *)

Lemma irr_fold (g : nat -> R -> R) ns (x acc : list R) : length acc = length x ->
  fold_left (fun irr n => map (fun p => fst p + g n (snd p)) (combine irr x)) ns acc
  = map (fun p => fst p + nsum (map (fun n => g n (snd p)) ns)) (combine acc x).
Proof.
  revert acc. induction ns as [|n ns IH]; intros acc h; cbn [fold_left].
  - clear -h. revert x h. induction acc as [|a acc IHa]; intros [|y x] h; simpl in *; try lia; auto. rewrite <- IHa by lia. f_equal. rnum. ring.
  - rewrite IH by (rewrite map_length, combine_length; lia). clear -h. revert x h.
    induction acc as [|a acc IHa]; intros [|y x] h; simpl in *; try lia; auto. rewrite <- IHa by lia. f_equal. rnum. ring.
Qed.

Lemma irregularities_spec (rng : nat -> nat -> R) (x : list R) f_min f_max N Av omega_c seed :
  (0 < N)%nat ->
  rail_irregularities rng x f_min f_max N Av omega_c seed = Ok (map (fun p => sumn N (fun n => wave rng f_min f_max N Av omega_c seed n p)) x).
Proof.
  intros hN. unfold rail_irregularities. destruct N as [|N0]; [lia|]. f_equal. cbv zeta. change (@lit R RNum 0) with 0.
  rewrite nofnat_R.
  pose proof (irr_fold (wave rng f_min f_max (S N0) Av omega_c seed) (seq 0 (S N0)) x (map (fun _ => 0) x) (map_length _ _)) as e.
  transitivity (fold_left (fun irr n => map (fun p => fst p + wave rng f_min f_max (S N0) Av omega_c seed n (snd p)) (combine irr x)) (seq 0 (S N0)) (map (fun _ => 0) x)).
  - apply fold_ext_in. intros irr n _. apply map_ext. intros p. unfold wave, amplitude, psd_value, frequency, frequency_step, spectral, sq. rewrite nofnat_R. rnum. cbn [npi ncos RTrig]. reflexivity.
  - rewrite e. clear e. assert (hs : forall p, nsum (map (fun n => wave rng f_min f_max (S N0) Av omega_c seed n p) (seq 0 (S N0))) = sumn (S N0) (fun n => wave rng f_min f_max (S N0) Av omega_c seed n p)) by (intros; apply nsum_map_seq).
    induction x as [|y x IH]; cbn [map combine]; auto. f_equal; [cbn [fst snd]; rewrite hs; ring|exact IH].
Qed.

Lemma generate_spec rng wheels n_time f_min f_max N Av omega_c seed :
  (0 < N)%nat -> (forall d, In d wheels -> length d = n_time) ->
  generate_irregularities rng wheels n_time f_min f_max N Av omega_c seed =
  Ok (map (map (fun p => sumn N (fun n => wave rng f_min f_max N Av omega_c seed n p))) wheels).
Proof.
  intros hN. induction wheels as [|d wheels IH]; intros h; cbn [generate_irregularities map]; [reflexivity|].
  rewrite irregularities_spec by assumption. cbn [rbind]. rewrite map_length, (h d) by (simpl; auto). rewrite Nat.eqb_refl.
  rewrite IH by (intros; apply h; simpl; auto). reflexivity.
Qed.

Lemma Rabs_sumn n (f g : nat -> R) : (forall i, (i < n)%nat -> Rabs (f i) <= g i) -> Rabs (sumn n f) <= sumn n g.
Proof.
  induction n; intros h; cbn [sumn]; rnum; [rewrite Rabs_R0; lra|].
  eapply Rle_trans; [apply Rabs_triang|]. apply Rplus_le_compat; [apply IHn; intros; apply h; lia|apply h; lia].
Qed.

(** ** initial displacement (C39) *)

Lemma scatter_nth (mask : list bool) (u1 : list R) : forall r, nth r (scatter mask u1) 0 =
  if nth r mask false then nth (count_true (firstn r mask)) u1 0 else 0.
Proof.
  revert u1. induction mask as [|b mask IH]; intros u1 r.
  - destruct r; reflexivity.
  - destruct b; cbn [scatter].
    + destruct u1 as [|a q].
      * destruct r as [|r]; simpl; [reflexivity|]. rewrite IH. destruct (nth r mask false); auto. destruct (count_true _); reflexivity.
      * destruct r as [|r]; simpl; [reflexivity|]. apply IH.
    + destruct r as [|r]; simpl; [reflexivity|]. apply IH.
Qed.

Lemma scatter_length (mask : list bool) (u1 : list R) : length (scatter mask u1) = length mask.
Proof. revert u1. induction mask as [|[|] mask IH]; intros [|a u1]; simpl; auto. Qed.

Lemma mask_nth n idx mask r : delete_mask n idx = Ok mask -> (r < n)%nat -> nth r mask false = negb (memb r idx).
Proof.
  unfold delete_mask. destruct (forallb _ idx); [|discriminate]. intros h hr. injection h as <-.
  pose proof (fold_lset_nth idx (repeat true n) r) as hn. rewrite repeat_length in hn. destruct (Nat.ltb_spec r n); [|lia].
  destruct (memb r idx).
  - erewrite nth_error_nth by exact hn. reflexivity.
  - assert (hr2 : nth_error (repeat true n) r = Some true).
    { clear - H. revert r H. induction n as [|n IH]; intros [|i] hi; simpl; try lia; auto. apply IH. lia. }
    rewrite hr2 in hn. erewrite nth_error_nth by exact hn. reflexivity.
Qed.

Lemma mask_length n idx mask : delete_mask n idx = Ok mask -> length mask = n.
Proof. unfold delete_mask. destruct (forallb _ idx); [|discriminate]. intros h. injection h as <-. rewrite fold_lset_length, repeat_length. reflexivity. Qed.

Lemma count_survivors n idx mask r : delete_mask n idx = Ok mask -> (r <= n)%nat -> count_true (firstn r mask) = survivors_below idx r.
Proof.
  intros h. induction r as [|r IH]; intros hr; [reflexivity|]. rewrite survivors_below_S, <- IH by lia.
  assert (hlen := mask_length _ _ _ h). assert (e : firstn (S r) mask = firstn r mask ++ [nth r mask false]).
  { clear - hlen hr. revert r hr hlen. generalize n. induction mask as [|b mask IHm]; intros n0 r hr hlen; simpl in hlen; [lia|].
    destruct r as [|r]; [reflexivity|]. change (firstn (S (S r)) (b :: mask)) with (b :: firstn (S r) mask).
    rewrite (IHm (length mask) r) by lia. reflexivity. }
  assert (hca : forall a b, count_true (a ++ b) = (count_true a + count_true b)%nat).
  { clear. intros a b. induction a; simpl; auto. rewrite IHa. lia. }
  rewrite e, hca, (mask_nth _ _ _ _ h) by lia. destruct (memb r idx); simpl; lia.
Qed.

Lemma sumn_survivors idx n (g : nat -> R) :
  sumn (survivors_below idx n) g = sumn n (fun j => if memb j idx then 0 else g (survivors_below idx j)).
Proof.
  induction n as [|n IH]; [reflexivity|]. rewrite survivors_below_S. cbn [sumn]. rewrite <- IH. destruct (memb n idx).
  - rewrite Nat.add_0_r. rnum. ring.
  - rewrite Nat.add_1_r. cbn [sumn]. reflexivity.
Qed.

Lemma initial_residual (K : mat R) (F : list R) n disp dofs K1 F1 u1 u :
  mr K = n -> mc K = n -> length F = n -> NoDup dofs -> length disp = length dofs -> (forall i, In i dofs -> (i < n)%nat) ->
  initial_system K F n disp dofs = Ok (K1, F1) ->
  (forall r, (r < mr K1)%nat -> mulv (mc K1) (me K1) (fun j => nth j u1 0) r = nth r F1 0) ->
  initial_displacement n disp dofs u1 = Ok u ->
  length u = n /\
  (forall q w d, nth_error dofs q = Some w -> nth_error disp q = Some d -> nth w u 0 = d) /\
  (forall r, (r < n)%nat -> ~ In r dofs ->
     mulv n (me K) (fun j => nth j u 0) r = nth r F 0 + 2 * nsum (map (fun wd => me K r (fst wd) * snd wd) (combine dofs disp))).
Proof.
  intros hr hc hF hd hl hi hs hsol hu. unfold initial_displacement in hu.
  destruct (delete_mask n dofs) as [mask|] eqn:em; [|discriminate]. cbn [rbind] in hu. injection hu as <-.
  assert (hml := mask_length _ _ _ em).
  assert (hsl : length (scatter mask u1) = n) by (rewrite scatter_length; assumption).
  assert (huc : forall j, nth j (constraint_vector n dofs disp) 0 = nsum (map (at_index j) (combine dofs disp))).
  { intros j. unfold constraint_vector. rewrite write_all_nth; auto; [|rewrite repeat_length; auto].
    change (@lit R RNum 0) with 0. rewrite nth_repeat. destruct (memb j dofs); ring. }
  assert (hun : forall j, nth j (write_all (scatter mask u1) dofs disp) 0 = nsum (map (at_index j) (combine dofs disp)) + (if memb j dofs then 0 else nth j (scatter mask u1) 0)).
  { intros j. apply write_all_nth; auto. rewrite hsl. assumption. }
  assert (hprod : forall r, sumn n (fun j => me K r j * nsum (map (at_index j) (combine dofs disp))) = nsum (map (fun wd => me K r (fst wd) * snd wd) (combine dofs disp))).
  { intros r. clear - hi hl. revert disp hl hi. induction dofs as [|w dofs IH]; intros [|d disp] hl hi; simpl in hl; try lia; cbn [combine map nsum].
    - apply sumn_0. intros. rnum. ring.
    - rewrite <- IH; [|lia|intros; apply hi; simpl; auto]. rnum.
      cbn [fst snd]. rewrite <- (sumn_pick n (fun j => me K r j * d) w) by (apply hi; simpl; auto). rewrite <- sumn_add. apply sumn_ext. intros j _.
      unfold at_index at 1. cbn [fst snd]. destruct (Nat.eqb w j); ring. }
  split; [rewrite write_all_length; assumption|]. split.
  - intros q w d h1 h2. rewrite hun. assert (hm : memb w dofs = true) by (apply memb_In; eapply nth_error_In; eassumption). rewrite hm, Rplus_0_r.
    clear - hd hl h1 h2. revert disp q hl h1 h2. induction dofs as [|a dofs IH]; intros [|e disp] [|q] hl h1 h2; simpl in hl; try lia; try discriminate; cbn [combine map nsum]; inversion hd; subst; rnum.
    + injection h1 as ->. injection h2 as ->. unfold at_index at 1. cbn [fst snd]. rewrite Nat.eqb_refl.
      rewrite nsum_zero; [ring|]. intros [x y] hin. unfold at_index. cbn [fst snd]. destruct (Nat.eqb_spec x w); [|reflexivity].
      subst. exfalso. apply H1. eapply in_combine_l; eassumption.
    + simpl in h1, h2. rewrite (IH H2 disp q); [|lia|assumption|assumption]. unfold at_index. cbn [fst snd].
      destruct (Nat.eqb_spec a w); [|ring]. subst. exfalso. apply H1. eapply nth_error_In; eassumption.
  - intros r hrn hnin. unfold initial_system in hs.
    destruct (delete_lil_spec K dofs dofs) as [K' [k1 [k2 [k3 k4]]]]; [rewrite hr; assumption|rewrite hc; assumption|].
    rewrite k1 in hs. cbn [rbind] in hs.
    set (F' := impose_displacement K F n disp dofs) in *.
    assert (hF'l : length F' = n). { unfold F', impose_displacement, matvec. rewrite map_length, combine_length, map_length, seq_length, hF, hr. apply Nat.min_id. }
    destruct (delete_vec_spec F' dofs) as [V [v1 [v2 v3]]]; [rewrite hF'l; assumption|]. rewrite v1 in hs. cbn [rbind] in hs. injection hs as <- <-.
    assert (hFr : nth_error F' r = Some (nth r F 0 + nsum (map (fun wd => me K r (fst wd) * snd wd) (combine dofs disp)))).
    { unfold F', impose_displacement, matvec. rewrite nth_error_map.
      assert (hcn : forall (a b : list R) i x y, nth_error a i = Some x -> nth_error b i = Some y -> nth_error (combine a b) i = Some (x, y)).
      { clear. induction a as [|p a IH]; intros [|q b] [|i] x y h1 h2; try discriminate; simpl in *; [congruence|]. apply IH; assumption. }
      erewrite (hcn F _ r); [cbn [option_map fst snd]; reflexivity|apply nth_error_nth'; lia|].
      rewrite nth_error_map. assert (hseq : nth_error (seq 0 (mr K)) r = Some r) by (rewrite (nth_error_nth' _ 0%nat) by (rewrite seq_length; lia); rewrite seq_nth by lia; reflexivity).
      rewrite hseq. cbn [option_map]. f_equal. rewrite hc. rewrite <- hprod. apply sumn_ext. intros j _. change (@lit R RNum 0) with 0. rewrite huc. reflexivity. }
    pose proof (v3 r _ hFr hnin) as hV.
    assert (hrow : (survivors_below dofs r < mr K')%nat) by (rewrite k2, hr; apply survivors_below_lt; assumption).
    pose proof (hsol _ hrow) as hsr. rewrite (nth_error_nth _ _ _ hV) in hsr.
    unfold mulv in *. rewrite k3, hc in hsr. rewrite sumn_survivors in hsr.
    rewrite (sumn_ext n _ (fun j => me K r j * nsum (map (at_index j) (combine dofs disp)) + (if memb j dofs then 0 else me K' (survivors_below dofs r) (survivors_below dofs j) * nth (survivors_below dofs j) u1 0))).
    + rewrite sumn_add, hprod, hsr. ring.
    + intros j hj. rewrite hun. destruct (memb j dofs) eqn:ej; [ring|]. rewrite k4; auto; [|rewrite hr; assumption|rewrite hc; assumption|apply memb_false; assumption].
      rewrite scatter_nth, (mask_nth _ _ _ _ em) by assumption. rewrite ej. cbn [negb]. rewrite (count_survivors n dofs) by (auto; lia). ring.
Qed.
