From Coq Require Import Reals List Bool ZArith Arith Lia Lra Psatz Permutation.
From Verif Require Import Num PyBase Model_Geometry Model_System Model_Element Model_Moving Model_Train
  Spec_Geometry Spec_System Spec_Train Proofs_Geometry Proofs_Dof Proofs_System Proofs_Train.
Import ListNotations.
Local Open Scope R_scope.

(** ** stiffness and damping (C36) *)

Definition bil (n : nat) (m : nat -> nat -> R) (x z : nat -> R) : R := sumn n (fun i => sumn n (fun j => x i * m i j * z j)).

Lemma bil_madd n m i j v x z : (i < n)%nat -> (j < n)%nat -> bil n (madd m i j v) x z = bil n m x z + x i * v * z j.
Proof.
  intros hi hj. unfold bil.
  transitivity (sumn n (fun a => sumn n (fun b => x a * m a b * z b) + (if Nat.eqb i a then x a * v * z j else 0))).
  - apply sumn_ext. intros a _. destruct (Nat.eqb_spec i a) as [->|ne].
    + rewrite <- (sumn_pick n (fun b => x a * v * z b) j hj). rewrite <- sumn_add. apply sumn_ext. intros b _.
      unfold madd, mset. rewrite Nat.eqb_refl. cbn [andb]. rnum. rewrite (Nat.eqb_sym b j). destruct (Nat.eqb_spec j b); subst; ring.
    + rewrite Rplus_0_r. apply sumn_ext. intros b _. unfold madd, mset. destruct (Nat.eqb_spec a i); [congruence|]. reflexivity.
  - rewrite sumn_add. f_equal. apply (sumn_pick n (fun a => x a * v * z j) i hi).
Qed.

Lemma bil_entry n m i j : (i < n)%nat -> (j < n)%nat ->
  m i j = bil n m (fun k => if Nat.eqb i k then 1 else 0) (fun k => if Nat.eqb j k then 1 else 0).
Proof.
  intros hi hj. unfold bil. symmetry. rewrite (sumn_single _ i); [|assumption|].
  - rewrite (sumn_single _ j); [|assumption|].
    + rewrite !Nat.eqb_refl. ring.
    + intros b _ hb. destruct (Nat.eqb_spec j b); [congruence|ring].
  - intros a _ ha. apply sumn_0. intros b _. destruct (Nat.eqb_spec i a); [congruence|ring].
Qed.

Lemma bil_mulv n m u i : (i < n)%nat -> mulv n m u i = bil n m (fun k => if Nat.eqb i k then 1 else 0) u.
Proof.
  intros hi. unfold mulv, bil. symmetry. rewrite (sumn_single _ i); [|assumption|].
  - apply sumn_ext. intros j _. rewrite Nat.eqb_refl. ring.
  - intros a _ ha. apply sumn_0. intros b _. destruct (Nat.eqb_spec i a); [congruence|ring].
Qed.

Lemma quad_bil n m x : quad n m x = bil n m x x.
Proof. reflexivity. Qed.

(** the filling common to the four procedures *)
Definition fill (k : R) (factors ds : list R) (y r : nat) (lows : list nat) (nl : nat) (m : nat -> nat -> R) : nat -> nat -> R :=
  let f := check_factors factors nl in
  let m := madd m y y (k * nsum f) in
  fold_left (fun m i =>
    let low := nth i lows 0%nat in let d := nth i ds 0 in let fi := nth i f 0 in
    let m := madd m r r (k * sq d * fi) in
    let m := madd m y low (- k * fi) in
    let m := madd m low y (- k * fi) in
    let m := madd m r low (k * d * fi) in
    let m := madd m low r (k * d * fi) in
    madd m low low (k * fi)) (seq 0 nl) m.

Lemma cart_stiffness_fill (c : cart R) cy cr bys m :
  cart_fill_stiffness c cy cr bys m = fill (ct_k c) (ct_factor c) (ct_bogie_distances c) cy cr bys (length (ct_bogies c)) m.
Proof. reflexivity. Qed.
Lemma cart_damping_fill (c : cart R) cy cr bys m :
  cart_fill_damping c cy cr bys m = fill (ct_c c) (ct_factor c) (ct_bogie_distances c) cy cr bys (length (ct_bogies c)) m.
Proof. reflexivity. Qed.
Lemma bogie_stiffness_fill (b : bogie R) d m :
  bogie_fill_stiffness b d m = fill (bg_k b) (bg_factor b) (bg_wheel_distances b) (bd_y d) (bd_r d) (bd_wheels d) (length (bg_wheels b)) m.
Proof. reflexivity. Qed.
Lemma bogie_damping_fill (b : bogie R) d m :
  bogie_fill_damping b d m = fill (bg_c b) (bg_factor b) (bg_wheel_distances b) (bd_y d) (bd_r d) (bd_wheels d) (length (bg_wheels b)) m.
Proof. reflexivity. Qed.

Lemma sumn_repeat (l : list R) : sumn (length l) (fun i => nth i l 0) = nsum l.
Proof.
  rewrite <- nsum_map_seq. f_equal. induction l as [|a l IH]; simpl; auto. f_equal. rewrite <- seq_shift, map_map. exact IH.
Qed.

Lemma nth_repeat_lt (a : R) n i : (i < n)%nat -> nth i (repeat a n) 0 = a.
Proof. revert i. induction n; intros [|i] hi; simpl; try lia; auto. apply IHn. lia. Qed.

Lemma factors_sum (factors : list R) nl : (factors = [] \/ length factors = nl) ->
  nsum (check_factors factors nl) = sumn nl (weight factors) /\ (forall i, (i < nl)%nat -> nth i (check_factors factors nl) 0 = weight factors i).
Proof.
  intros h. destruct factors as [|f0 fs].
  - cbn [check_factors weight]. change (@lit R RNum 1) with 1. split.
    + rewrite <- sumn_repeat, repeat_length. apply sumn_ext. intros i hi. apply nth_repeat_lt. assumption.
    + intros i hi. apply nth_repeat_lt. assumption.
  - destruct h as [h|h]; [discriminate|]. cbn [check_factors]. split; [|reflexivity].
    rewrite <- h. rewrite <- (sumn_repeat (f0 :: fs)). reflexivity.
Qed.

Lemma factors_sum' (factors : list R) nl : (factors = [] \/ length factors = nl) ->
  nsum (check_factors factors nl) = sumn nl (weight factors).
Proof. intros h. apply factors_sum. assumption. Qed.

Definition term (k : R) (factors ds : list R) (y r : nat) (lows : list nat) (x z : nat -> R) (i : nat) : R :=
  k * weight factors i * stretch x y r (nth i ds 0) (nth i lows 0%nat) * stretch z y r (nth i ds 0) (nth i lows 0%nat).

Lemma fill_bil n k factors ds y r lows nl m x z :
  (y < n)%nat -> (r < n)%nat -> (forall i, (i < nl)%nat -> (nth i lows 0 < n)%nat) -> (factors = [] \/ length factors = nl) ->
  bil n (fill k factors ds y r lows nl m) x z =
  bil n m x z + sumn nl (term k factors ds y r lows x z) + k * imbalance factors ds nl * (x y * z r + x r * z y).
Proof.
  intros hy hr hl hf. destruct (factors_sum factors nl hf) as [f1 f2]. unfold fill. cbv zeta.
  set (f := check_factors factors nl) in *.
  match goal with |- bil n (fold_left ?st _ _) _ _ = _ => set (step := st) end.
  assert (hfold : forall p m, (p <= nl)%nat -> bil n (fold_left step (seq 0 p) m) x z = bil n m x z +
     sumn p (fun i => k * weight factors i * ((nth i ds 0)^2 * x r * z r - x y * z (nth i lows 0%nat) - x (nth i lows 0%nat) * z y
       + nth i ds 0 * (x r * z (nth i lows 0%nat) + x (nth i lows 0%nat) * z r) + x (nth i lows 0%nat) * z (nth i lows 0%nat)))).
  { intros p. induction p as [|p IH]; intros m0 hp; [simpl; rnum; ring|].
    rewrite seq_S, fold_left_app. cbn [fold_left plus]. unfold step at 1. cbv zeta.
    rewrite !bil_madd by (auto; apply hl; lia). rewrite IH by lia. cbn [sumn]. unfold sq. rewrite f2 by lia. rnum. ring. }
  rewrite hfold by lia. rewrite bil_madd by assumption. rewrite f1. unfold imbalance.
  rewrite !Rplus_assoc. f_equal.
  transitivity (sumn nl (fun i => (x y * k * z y) * weight factors i +
    k * weight factors i * ((nth i ds 0)^2 * x r * z r - x y * z (nth i lows 0%nat) - x (nth i lows 0%nat) * z y
       + nth i ds 0 * (x r * z (nth i lows 0%nat) + x (nth i lows 0%nat) * z r) + x (nth i lows 0%nat) * z (nth i lows 0%nat)))).
  { rewrite sumn_add, sumn_scal. rnum. ring. }
  transitivity (sumn nl (fun i => term k factors ds y r lows x z i + (k * (x y * z r + x r * z y)) * (weight factors i * nth i ds 0))).
  { apply sumn_ext. intros i _. unfold term, stretch. ring. }
  rewrite sumn_add, sumn_scal. ring.
Qed.

Definition body_bil (b : body) (x z : nat -> R) : R :=
  sumn (length (by_lows b)) (term (by_k b) (by_factors b) (by_ds b) (by_y b) (by_r b) (by_lows b) x z)
  + by_k b * offset b * (x (by_y b) * z (by_r b) + x (by_r b) * z (by_y b)).

Lemma fold_bodies {A} (step : A -> (nat -> nat -> R) -> nat -> nat -> R) (bd : A -> body) (l : list A) n x z m :
  (forall a m, In a l -> bil n (step a m) x z = bil n m x z + body_bil (bd a) x z) ->
  bil n (fold_left (fun m a => step a m) l m) x z = bil n m x z + nsum (map (fun a => body_bil (bd a) x z) l).
Proof.
  revert m. induction l as [|a l IH]; intros m h; cbn [fold_left map nsum]; [rnum; ring|].
  rewrite IH by (intros; apply h; simpl; auto). rewrite h by (simpl; auto). rnum. ring.
Qed.

Lemma bil_zeros n x z : bil n zeros x z = 0.
Proof. apply sumn_0. intros. apply sumn_0. intros. unfold zeros. change (@lit R RNum 0) with 0. ring. Qed.

Lemma cart_fill_body (tn : train R) cd st m n value c p m0 x z :
  initialise_train_ndof tn = (cd, st, m) -> complete tn -> (m <= n)%nat -> In (c, p) (combine (tn_carts tn) cd) ->
  bil n (fill (value c) (ct_factor c) (ct_bogie_distances c) (fst p) (snd p) (map (fun b => bd_y (dof_get st b)) (ct_bogies c)) (length (ct_bogies c)) m0) x z
  = bil n m0 x z + body_bil (cart_body value st c p) x z.
Proof.
  intros h hc hn hin. assert (hcin : In c (tn_carts tn)) by (eapply in_combine_l; eassumption).
  assert (hp : In p cd) by (eapply in_combine_r; eassumption).
  destruct (hc c hcin) as [c1 [c2 c3]].
  assert (hnum : forall k, In k [fst p; snd p] -> (k < n)%nat).
  { intros k hk. apply (Nat.lt_le_trans _ m); auto. apply (numbers_lt tn cd st m k h). unfold train_numbers. apply in_app_iff. left.
    apply in_flat_map. eauto. }
  rewrite fill_bil; auto; [|apply hnum; simpl; auto|apply hnum; simpl; auto|].
  - unfold body_bil, offset, cart_body. cbn [by_k by_factors by_ds by_y by_r by_lows]. rewrite map_length. ring.
  - intros i hi. rewrite (nth_indep _ 0%nat (bd_y (dof_get st 0%nat))) by (rewrite map_length; assumption).
    rewrite (map_nth (fun b => bd_y (dof_get st b))). apply (Nat.lt_le_trans _ m); auto. apply (numbers_lt tn cd st m _ h).
    assert (hb : exists c', In c' (tn_carts tn) /\ In (nth i (ct_bogies c) 0%nat) (ct_bogies c')) by (exists c; split; auto; apply nth_In; assumption).
    destruct (dof_get_entry _ _ _ _ _ h hb) as [_ [e2 _]]. eapply entry_numbers; [exact e2|]. simpl. auto.
Qed.

Lemma bogie_fill_body (tn : train R) cd st m n value b m0 x z :
  initialise_train_ndof tn = (cd, st, m) -> complete tn -> (m <= n)%nat -> (exists c, In c (tn_carts tn) /\ In b (ct_bogies c)) ->
  bil n (fill (value (bogie_of tn b)) (bg_factor (bogie_of tn b)) (bg_wheel_distances (bogie_of tn b)) (bd_y (dof_get st b)) (bd_r (dof_get st b))
          (bd_wheels (dof_get st b)) (length (bg_wheels (bogie_of tn b))) m0) x z
  = bil n m0 x z + body_bil (bogie_body value tn st b) x z.
Proof.
  intros h hc hn hb. destruct (dof_get_entry _ _ _ _ _ h hb) as [_ [e2 e3]].
  destruct hb as [c [hcin hbin]]. destruct (hc c hcin) as [_ [_ c3]]. destruct (c3 b hbin) as [c4 c5].
  assert (hnum : forall k, In k (bogie_numbers (dof_get st b)) -> (k < n)%nat).
  { intros k hk. apply (Nat.lt_le_trans _ m); auto. apply (numbers_lt tn cd st m k h). eapply entry_numbers; eassumption. }
  rewrite fill_bil; auto; [|apply hnum; simpl; auto|apply hnum; simpl; auto|].
  - unfold body_bil, offset, bogie_body. cbn [by_k by_factors by_ds by_y by_r by_lows]. rewrite e3. unfold n_wheels. ring.
  - intros i hi. apply hnum. simpl. right. right. apply nth_In. rewrite e3. exact hi.
Qed.

Definition total_fill (fc : cart R -> R) (fb : bogie R -> R) (tn : train R) cd st bs : nat -> nat -> R :=
  fold_left (fun m b => fill (fb (bogie_of tn b)) (bg_factor (bogie_of tn b)) (bg_wheel_distances (bogie_of tn b)) (bd_y (dof_get st b)) (bd_r (dof_get st b))
          (bd_wheels (dof_get st b)) (length (bg_wheels (bogie_of tn b))) m) bs
   (fold_left (fun m cn => fill (fc (fst cn)) (ct_factor (fst cn)) (ct_bogie_distances (fst cn)) (fst (snd cn)) (snd (snd cn))
       (map (fun b => bd_y (dof_get st b)) (ct_bogies (fst cn))) (length (ct_bogies (fst cn))) m) (combine (tn_carts tn) cd) zeros).

Lemma stiffness_total (tn : train R) cd st bs : train_stiffness tn cd st bs = total_fill (@ct_k R) (@bg_k R) tn cd st bs.
Proof. reflexivity. Qed.
Lemma damping_total (tn : train R) cd st bs : train_damping tn cd st bs = total_fill (@ct_c R) (@bg_c R) tn cd st bs.
Proof. reflexivity. Qed.

Lemma total_bil (fc : cart R -> R) (fb : bogie R -> R) (tn : train R) cd st m bs n x z :
  initialise_train_ndof tn = (cd, st, m) -> lists_bogies tn bs -> complete tn -> (m <= n)%nat ->
  bil n (total_fill fc fb tn cd st bs) x z = nsum (map (fun b => body_bil b x z) (bodies fc fb tn cd st bs)).
Proof.
  intros h [_ hb] hc hn. unfold total_fill.
  rewrite (fold_bodies (fun b => fill (fb (bogie_of tn b)) (bg_factor (bogie_of tn b)) (bg_wheel_distances (bogie_of tn b)) (bd_y (dof_get st b)) (bd_r (dof_get st b))
          (bd_wheels (dof_get st b)) (length (bg_wheels (bogie_of tn b)))) (bogie_body fb tn st)).
  - rewrite (fold_bodies (fun cn => fill (fc (fst cn)) (ct_factor (fst cn)) (ct_bogie_distances (fst cn)) (fst (snd cn)) (snd (snd cn))
       (map (fun b => bd_y (dof_get st b)) (ct_bogies (fst cn))) (length (ct_bogies (fst cn)))) (fun cp => cart_body fc st (fst cp) (snd cp))).
    + rewrite bil_zeros. unfold bodies. rewrite map_app, nsum_app, !map_map. rnum. ring.
    + intros [c p] m0 hin. cbn [fst snd]. eapply cart_fill_body; eassumption.
  - intros b m0 hin. eapply bogie_fill_body; try eassumption. apply hb. assumption.
Qed.

Lemma body_bil_sym b x z : body_bil b x z = body_bil b z x.
Proof. unfold body_bil. f_equal; [apply sumn_ext; intros; unfold term; ring|ring]. Qed.

Lemma body_bil_energy b u : body_bil b u u = energy b u + 2 * by_k b * offset b * u (by_y b) * u (by_r b).
Proof.
  unfold body_bil, energy, suspension. rewrite (sumn_ext _ (term _ _ _ _ _ _ _ _) (fun i => by_k b * weight (by_factors b) i * stretch u (by_y b) (by_r b) (nth i (by_ds b) 0) (nth i (by_lows b) 0%nat) ^ 2)).
  - ring.
  - intros. unfold term. ring.
Qed.

Lemma body_bil_relaxed b x u : balanced b -> relaxed b u -> body_bil b x u = 0.
Proof.
  intros h1 h2. unfold body_bil, balanced in *. rewrite h1, sumn_0; [ring|]. intros i hi. unfold term. rewrite (h2 i hi). ring.
Qed.

Lemma energy_nonneg b u : 0 <= by_k b -> (forall i, (i < length (by_lows b))%nat -> 0 <= weight (by_factors b) i) -> 0 <= energy b u.
Proof.
  intros h1 h2. unfold energy, suspension. apply sumn_nonneg. intros i hi. apply Rmult_le_pos; [|apply pow2_ge_0].
  apply Rmult_le_pos; auto.
Qed.

Lemma nsum_zero {A} (f : A -> R) l : (forall a, In a l -> f a = 0) -> nsum (map f l) = 0.
Proof. induction l; simpl; intros h; rnum; auto. rewrite h by auto. rewrite IHl by auto. ring. Qed.

Lemma total_energy (fc : cart R -> R) (fb : bogie R -> R) (tn : train R) cd st m bs n :
  initialise_train_ndof tn = (cd, st, m) -> lists_bogies tn bs -> complete tn -> (m <= n)%nat ->
  let K := total_fill fc fb tn cd st bs in
  let B := bodies fc fb tn cd st bs in
  msym n K /\
  (forall u, quad n K u = nsum (map (fun b => energy b u + 2 * by_k b * offset b * u (by_y b) * u (by_r b)) B)) /\
  ((forall b, In b B -> balanced b) ->
     (forall u, quad n K u = nsum (map (fun b => energy b u) B)) /\
     (forall u i, (forall b, In b B -> relaxed b u) -> (i < n)%nat -> mulv n K u i = 0)).
Proof.
  intros h hb hc hn K B. pose proof (fun x z => total_bil fc fb tn cd st m bs n x z h hb hc hn) as ht. fold K B in ht.
  assert (he : forall u, quad n K u = nsum (map (fun b => energy b u + 2 * by_k b * offset b * u (by_y b) * u (by_r b)) B)).
  { intros u. rewrite quad_bil, ht. apply nsum_map_ext. intros b _. apply body_bil_energy. }
  split; [|split].
  - intros i j hi hj. rewrite (bil_entry n K i j), (bil_entry n K j i) by assumption. rewrite !ht. apply nsum_map_ext.
    intros b _. apply body_bil_sym.
  - exact he.
  - intros hbal. split.
    + intros u. rewrite he. apply nsum_map_ext. intros b hin. rewrite (hbal b hin). ring.
    + intros u i hr hi. rewrite bil_mulv by assumption. rewrite ht. apply nsum_zero. intros b hin. apply body_bil_relaxed; auto.
Qed.

Lemma total_psd (fc : cart R -> R) (fb : bogie R -> R) (tn : train R) cd st m bs n :
  initialise_train_ndof tn = (cd, st, m) -> lists_bogies tn bs -> complete tn -> (m <= n)%nat ->
  let B := bodies fc fb tn cd st bs in
  (forall b, In b B -> balanced b /\ 0 <= by_k b /\ forall i, (i < length (by_lows b))%nat -> 0 <= weight (by_factors b) i) ->
  psd n (total_fill fc fb tn cd st bs).
Proof.
  intros h hb hc hn B hB x. destruct (total_energy fc fb tn cd st m bs n h hb hc hn) as [_ [_ h3]].
  destruct h3 as [h4 _]; [intros b hin; apply hB; assumption|]. rewrite h4. apply nsum_nonneg. rewrite Forall_map. apply Forall_forall.
  intros b hin. destruct (hB b hin) as [_ [k1 k2]]. apply energy_nonneg; auto.
Qed.

(** rigid motion relaxes all springs *)
Lemma rigid_relaxed (fc : cart R -> R) (fb : bogie R -> R) (tn : train R) cd st m bs a theta u :
  initialise_train_ndof tn = (cd, st, m) -> lists_bogies tn bs -> rigid_train tn cd st a theta u ->
  forall b, In b (bodies fc fb tn cd st bs) -> relaxed b u.
Proof.
  intros h [_ hb] [xc [xb [r1 [r2 r3]]]] b hin. unfold bodies in hin. apply in_app_iff in hin. destruct hin as [hin|hin].
  - apply in_map_iff in hin. destruct hin as [[c p] [<- hin]]. cbn [fst snd]. apply In_nth_error in hin. destruct hin as [q hq].
    assert (hq2 : nth_error (tn_carts tn) q = Some c /\ nth_error cd q = Some p).
    { clear - hq. revert cd q hq. generalize (tn_carts tn). induction l as [|c0 l IH]; intros [|p0 cd] [|q] hq; try discriminate.
      - injection hq as -> ->. split; reflexivity.
      - exact (IH cd q hq). }
    destruct hq2 as [hqc hqp]. destruct (r2 q p hqp) as [y1 y2].
    intros i hi. unfold cart_body in *. cbn [by_k by_factors by_ds by_y by_r by_lows] in *. rewrite map_length in hi. unfold stretch. rewrite y1, y2.
    destruct (nth_error (ct_bogies c) i) as [b|] eqn:eb; [|apply nth_error_None in eb; lia].
    rewrite (nth_error_nth (map _ _) i _ (map_nth_error (fun b => bd_y (dof_get st b)) i _ eb)).
    assert (hbe : exists c', In c' (tn_carts tn) /\ In b (ct_bogies c')) by (exists c; split; eapply nth_error_In; eassumption).
    destruct (dof_get_entry _ _ _ _ _ h hbe) as [e1 _]. destruct (r3 b _ e1) as [z1 _]. rewrite z1, (r1 q c hqc i b eb). ring.
  - apply in_map_iff in hin. destruct hin as [b' [<- hin]]. apply hb in hin. destruct (dof_get_entry _ _ _ _ _ h hin) as [e1 _].
    destruct (r3 b' _ e1) as [z1 [z2 z3]]. intros i hi. unfold bogie_body in *. cbn [by_k by_factors by_ds by_y by_r by_lows] in *. unfold stretch. rewrite z1, z2.
    destruct (nth_error (bd_wheels (dof_get st b')) i) as [w|] eqn:ew; [|apply nth_error_None in ew; lia].
    rewrite (nth_error_nth _ _ _ ew), (z3 i w ew). ring.
Qed.

(** ** mass matrix and static force *)

Definition all_pairs (vy vr : cart R -> R) (wy wr : bogie R -> R) (ww : R -> R) (tn : train R) (cd : list (nat * nat)) (st : list (nat * bdof)) : list (nat * R) :=
  flat_map (fun cp => [(fst (snd cp), vy (fst cp)); (snd (snd cp), vr (fst cp))]) (combine (tn_carts tn) cd) ++
  flat_map (fun e => (bd_y (snd e), wy (bogie_of tn (fst e))) :: (bd_r (snd e), wr (bogie_of tn (fst e)))
                     :: combine (bd_wheels (snd e)) (map ww (bg_wheels (bogie_of tn (fst e))))) st.

Lemma map_fst_combine {A B} (a : list A) (b : list B) : length a = length b -> map fst (combine a b) = a.
Proof. revert b. induction a; intros [|y b] h; simpl in *; try lia; auto. f_equal. apply IHa. lia. Qed.

Lemma all_pairs_fst vy vr wy wr ww (tn : train R) cd st m :
  initialise_train_ndof tn = (cd, st, m) -> map fst (all_pairs vy vr wy wr ww tn cd st) = train_numbers cd st.
Proof.
  intros h. destruct (ndof_spec _ _ _ _ h) as [h1 [_ [h3 _]]]. unfold all_pairs, train_numbers. rewrite map_app. f_equal.
  - clear - h1. revert cd h1. induction (tn_carts tn) as [|c cs IH]; intros [|p cd] h1; simpl in *; try lia; auto. rewrite IH by lia. reflexivity.
  - clear - h3. induction st as [|[b d] st IH]; cbn [flat_map]; auto. rewrite map_app. cbn [map fst snd bogie_numbers].
    rewrite map_fst_combine by (rewrite map_length; apply h3; simpl; auto). rewrite IH by (intros; apply h3; simpl; auto). reflexivity.
Qed.

Lemma NoDup_fst_fun {A} (l : list (nat * A)) k v v' : NoDup (map fst l) -> In (k, v) l -> In (k, v') l -> v = v'.
Proof.
  induction l as [|[a b] l IH]; simpl; intros hd h1 h2; [tauto|]. inversion hd; subst.
  destruct h1 as [h1|h1], h2 as [h2|h2]; try congruence.
  - injection h1 as -> ->. exfalso. apply H1. apply (in_map fst) in h2. exact h2.
  - injection h2 as -> ->. exfalso. apply H1. apply (in_map fst) in h1. exact h1.
  - apply IH; auto.
Qed.

Lemma fold_vset_spec (P : list (nat * R)) f0 k v :
  (forall v', In (k, v') P -> v' = v) -> (In (k, v) P \/ f0 k = v) -> fold_left (fun f w => vset f (fst w) (snd w)) P f0 k = v.
Proof.
  revert f0. induction P as [|[a b] P IH]; intros f0 h1 h2; cbn [fold_left].
  - destruct h2 as [[]|h2]; assumption.
  - apply IH; [intros; apply h1; simpl; auto|]. cbn [fst snd]. unfold vset. destruct (Nat.eqb_spec k a) as [->|ne].
    + right. apply h1. simpl. auto.
    + destruct h2 as [[h2|h2]|h2]; [congruence|auto|auto].
Qed.

Lemma fold_mset_diag (P : list (nat * R)) m0 i j :
  i <> j -> fold_left (fun m w => mset m (fst w) (fst w) (snd w)) P m0 i j = m0 i j.
Proof. intros ne. apply (fold_mset_miss P fst fst snd). intros q _ [h1 h2]. congruence. Qed.

Lemma fold_mset_same (P : list (nat * R)) m0 k :
  fold_left (fun m w => mset m (fst w) (fst w) (snd w)) P m0 k k = fold_left (fun f w => vset f (fst w) (snd w)) P (fun k => m0 k k) k.
Proof.
  assert (g : forall (P : list (nat * R)) (m : nat -> nat -> R) (f : nat -> R), m k k = f k -> fold_left (fun m w => mset m (fst w) (fst w) (snd w)) P m k k = fold_left (fun f w => vset f (fst w) (snd w)) P f k).
  { clear. induction P as [|[a b] P IH]; intros m f h; cbn [fold_left]; auto. apply IH. unfold mset, vset. cbn [fst snd].
    destruct (Nat.eqb k a); cbn [andb]; auto. }
  apply g. reflexivity.
Qed.

Definition mass_pairs (tn : train R) (cd : list (nat * nat)) (st : list (nat * bdof)) : list (nat * R) :=
  flat_map (fun cn => (fst (snd cn), ct_mass (fst cn)) :: (snd (snd cn), ct_inertia (fst cn)) ::
     flat_map (fun b => (bd_y (dof_get st b), bg_mass (bogie_of tn b)) :: (bd_r (dof_get st b), bg_inertia (bogie_of tn b)) ::
                        combine (bd_wheels (dof_get st b)) (bg_wheels (bogie_of tn b))) (ct_bogies (fst cn))) (combine (tn_carts tn) cd).

Lemma fold_flat {A B C} (step : C -> B -> C) (g : A -> list B) l (c0 : C) :
  fold_left step (flat_map g l) c0 = fold_left (fun c a => fold_left step (g a) c) l c0.
Proof. revert c0. induction l; intros c0; cbn [flat_map fold_left]; auto. rewrite fold_left_app. apply IHl. Qed.

Lemma fold_ext_in {A C} (f g : C -> A -> C) l c0 : (forall c a, In a l -> f c a = g c a) -> fold_left f l c0 = fold_left g l c0.
Proof. revert c0. induction l; intros c0 h; simpl; auto. rewrite h by (simpl; auto). apply IHl. intros; apply h; simpl; auto. Qed.

Lemma train_mass_fold (tn : train R) cd st :
  train_mass tn cd st = fold_left (fun m w => mset m (fst w) (fst w) (snd w)) (mass_pairs tn cd st) zeros.
Proof.
  unfold train_mass, mass_pairs. rewrite fold_flat. apply fold_ext_in. intros m [c [y r]] _. cbn [fst snd].
  unfold cart_fill_mass. cbn [fold_left fst snd]. rewrite fold_flat. apply fold_ext_in. intros m' b _. reflexivity.
Qed.

Definition static_pairs (tn : train R) (cd : list (nat * nat)) (st : list (nat * bdof)) : list (nat * R) :=
  flat_map (fun cn => (fst (snd cn), - ct_mass (fst cn) * gravity) ::
     flat_map (fun b => (bd_y (dof_get st b), - bg_mass (bogie_of tn b) * gravity) ::
                        combine (bd_wheels (dof_get st b)) (map (fun w => - w * gravity) (bg_wheels (bogie_of tn b)))) (ct_bogies (fst cn))) (combine (tn_carts tn) cd).

Lemma fold_combine_map {C} (step : C -> nat * R -> C) (f : R -> R) a b c0 :
  fold_left (fun c w => step c (fst w, f (snd w))) (combine a b) c0 = fold_left step (combine a (map f b)) c0.
Proof. revert b c0. induction a as [|x a IH]; intros [|y b] c0; simpl; auto. Qed.

Lemma train_static_fold (tn : train R) cd st :
  train_static_force tn cd st = fold_left (fun f w => vset f (fst w) (snd w)) (static_pairs tn cd st) (fun _ => 0).
Proof.
  unfold train_static_force, static_pairs. rewrite fold_flat. change (@lit R RNum 0) with 0. apply fold_ext_in. intros m [c [y r]] _. cbn [fst snd].
  unfold cart_fill_static. cbn [fold_left fst snd]. rewrite fold_flat. apply fold_ext_in. intros m' b _.
  unfold bogie_fill_static. cbn [fold_left fst snd].
  rewrite <- (fold_combine_map (fun f w => vset f (fst w) (snd w)) (fun w => - w * gravity)). reflexivity.
Qed.

Lemma in_pairs_cart vy vr wy wr ww (tn : train R) cd st q c p :
  nth_error (tn_carts tn) q = Some c -> nth_error cd q = Some p ->
  In (fst p, vy c) (all_pairs vy vr wy wr ww tn cd st) /\ In (snd p, vr c) (all_pairs vy vr wy wr ww tn cd st).
Proof.
  intros h1 h2. assert (hin : In (c, p) (combine (tn_carts tn) cd)).
  { clear - h1 h2. revert cd q h1 h2. generalize (tn_carts tn). induction l as [|c0 l IH]; intros [|p0 cd] [|q] h1 h2; try discriminate; simpl.
    - injection h1 as ->. injection h2 as ->. auto.
    - right. eapply IH; eassumption. }
  unfold all_pairs. rewrite !in_app_iff. split; left; apply in_flat_map; exists (c, p); (split; [assumption|simpl; auto]).
Qed.

Lemma in_pairs_bogie vy vr wy wr ww (tn : train R) cd st b d :
  In (b, d) st ->
  In (bd_y d, wy (bogie_of tn b)) (all_pairs vy vr wy wr ww tn cd st) /\ In (bd_r d, wr (bogie_of tn b)) (all_pairs vy vr wy wr ww tn cd st) /\
  forall i k w, nth_error (bd_wheels d) i = Some k -> nth_error (bg_wheels (bogie_of tn b)) i = Some w -> In (k, ww w) (all_pairs vy vr wy wr ww tn cd st).
Proof.
  intros h. unfold all_pairs. split; [|split].
  - apply in_app_iff. right. apply in_flat_map. exists (b, d). split; [assumption|simpl; auto].
  - apply in_app_iff. right. apply in_flat_map. exists (b, d). split; [assumption|simpl; auto].
  - intros i k w h1 h2. apply in_app_iff. right. apply in_flat_map. exists (b, d). split; [assumption|]. cbn [fst snd]. right. right.
    clear - h1 h2. revert i h1 h2. generalize (bd_wheels d), (bg_wheels (bogie_of tn b)). induction l as [|a l IH]; intros [|x r] [|i] h1 h2; try discriminate; simpl.
    + injection h1 as ->. injection h2 as ->. auto.
    + right. eapply IH; eassumption.
Qed.

Lemma in_combine_nth {A B} (a : list A) (b : list B) x y : In (x, y) (combine a b) -> exists i, nth_error a i = Some x /\ nth_error b i = Some y.
Proof.
  intros h. apply In_nth_error in h. destruct h as [i h]. exists i. revert b i h.
  induction a as [|u a IH]; intros [|v b] [|i] h; try discriminate; simpl in *.
  - injection h as -> ->. auto.
  - apply IH. assumption.
Qed.

(** the assigned pairs are among the pairs of the train, and all of those are assigned *)
Lemma mass_pairs_incl (tn : train R) cd st m k v :
  initialise_train_ndof tn = (cd, st, m) ->
  (In (k, v) (mass_pairs tn cd st) <-> In (k, v) (all_pairs (@ct_mass R) (@ct_inertia R) (@bg_mass R) (@bg_inertia R) (fun w => w) tn cd st)).
Proof.
  intros h. unfold mass_pairs, all_pairs. rewrite in_app_iff, !in_flat_map. split.
  - intros [[c p] [h1 h2]]. cbn [fst snd In] in h2. destruct h2 as [h2|[h2|h2]].
    + left. exists (c, p). simpl. auto.
    + left. exists (c, p). simpl. auto.
    + right. apply in_flat_map in h2. destruct h2 as [b [h3 h4]].
      assert (hb : exists c', In c' (tn_carts tn) /\ In b (ct_bogies c')) by (exists c; split; [eapply in_combine_l; eassumption|assumption]).
      destruct (dof_get_entry _ _ _ _ _ h hb) as [_ [e2 _]]. exists (b, dof_get st b). split; [assumption|]. cbn [fst snd]. rewrite map_id. exact h4.
  - intros [[[c p] [h1 h2]]|[[b d] [h1 h2]]].
    + exists (c, p). split; [assumption|]. cbn [fst snd In] in *. tauto.
    + destruct (ndof_spec _ _ _ _ h) as [hl [[g1 g2] _]].
      assert (hb : In b (map fst st)) by (apply (in_map fst) in h1; exact h1). apply g2 in hb. destruct hb as [c [hc hb]].
      assert (hd : dof_get st b = d). { unfold dof_get. apply dof_of_In in h1; auto. rewrite h1. reflexivity. }
      apply In_nth_error in hc. destruct hc as [q hq]. destruct (nth_error cd q) as [p|] eqn:ep.
      * exists (c, p). split.
        -- clear - hq ep. revert cd q hq ep. generalize (tn_carts tn). induction l as [|c0 l IH]; intros [|p0 cd] [|q] h1 h2; try discriminate; simpl.
           ++ injection h1 as ->. injection h2 as ->. auto.
           ++ right. eapply IH; eassumption.
        -- cbn [fst snd In]. right. right. apply in_flat_map. exists b. split; [assumption|]. rewrite hd. cbn [fst snd] in h2. rewrite map_id in h2. exact h2.
      * apply nth_error_None in ep. assert (q < length (tn_carts tn))%nat by (apply nth_error_Some; congruence). lia.
Qed.

Lemma mass_spec (tn : train R) cd st m :
  initialise_train_ndof tn = (cd, st, m) ->
  let M := train_mass tn cd st in
  (forall i j, i <> j -> M i j = 0) /\
  (forall k v, In (k, v) (all_pairs (@ct_mass R) (@ct_inertia R) (@bg_mass R) (@bg_inertia R) (fun w => w) tn cd st) -> M k k = v) /\
  (forall k, (m <= k)%nat -> M k k = 0).
Proof.
  intros h M. unfold M. rewrite train_mass_fold. split; [|split].
  - intros i j ne. rewrite fold_mset_diag by assumption. reflexivity.
  - intros k v hin. rewrite fold_mset_same. apply fold_vset_spec.
    + intros v' hin'. apply (mass_pairs_incl _ _ _ _ _ _ h) in hin'.
      pose proof (numbers_nodup _ _ _ _ h) as hn. rewrite <- (all_pairs_fst (@ct_mass R) (@ct_inertia R) (@bg_mass R) (@bg_inertia R) (fun w => w) _ _ _ _ h) in hn.
      eapply NoDup_fst_fun; eassumption.
    + left. apply (mass_pairs_incl _ _ _ _ _ _ h). assumption.
  - intros k hk. rewrite fold_mset_same. apply fold_vset_spec; [|right; reflexivity].
    intros v' hin. apply (mass_pairs_incl _ _ _ _ _ _ h) in hin. apply (in_map fst) in hin. rewrite (all_pairs_fst _ _ _ _ _ _ _ _ _ h) in hin.
    apply (numbers_lt _ _ _ _ _ h) in hin. simpl in hin. lia.
Qed.

Lemma static_spec (tn : train R) cd st m :
  initialise_train_ndof tn = (cd, st, m) ->
  forall k v, In (k, v) (all_pairs (fun c => - ct_mass c * gravity) (fun _ => 0) (fun b => - bg_mass b * gravity) (fun _ => 0) (fun w => - w * gravity) tn cd st) ->
  train_static_force tn cd st k = v.
Proof.
  intros h k v hin. rewrite train_static_fold.
  set (AP := all_pairs (fun c => - ct_mass c * gravity) (fun _ => 0) (fun b => - bg_mass b * gravity) (fun _ => 0) (fun w => - w * gravity) tn cd st) in *.
  pose proof (numbers_nodup _ _ _ _ h) as hn. rewrite <- (all_pairs_fst (fun c => - ct_mass c * gravity) (fun _ => 0) (fun b => - bg_mass b * gravity) (fun _ => 0) (fun w => - w * gravity) _ _ _ _ h) in hn. fold AP in hn.
  assert (hsub : forall k' v', In (k', v') (static_pairs tn cd st) -> In (k', v') AP).
  { clear - h. intros k v. unfold static_pairs, AP, all_pairs. rewrite in_app_iff, !in_flat_map.
    intros [[c p] [h1 h2]]. cbn [fst snd In] in h2. destruct h2 as [h2|h2].
    - left. exists (c, p). simpl. auto.
    - right. apply in_flat_map in h2. destruct h2 as [b [h3 h4]].
      assert (hb : exists c', In c' (tn_carts tn) /\ In b (ct_bogies c')) by (exists c; split; [eapply in_combine_l; eassumption|assumption]).
      destruct (dof_get_entry _ _ _ _ _ h hb) as [_ [e2 _]]. exists (b, dof_get st b). split; [assumption|]. cbn [fst snd In] in *. tauto. }
  apply fold_vset_spec.
  - intros v' hin'. apply hsub in hin'. eapply NoDup_fst_fun; eassumption.
  - unfold AP, all_pairs in hin. rewrite in_app_iff, !in_flat_map in hin. destruct hin as [[[c p] [h1 h2]]|[[b d] [h1 h2]]]; cbn [fst snd In] in h2.
    + destruct h2 as [h2|[h2|[]]]; injection h2 as <- <-.
      * left. unfold static_pairs. apply in_flat_map. exists (c, p). split; [assumption|]. simpl. auto.
      * right. reflexivity.
    + destruct (ndof_spec _ _ _ _ h) as [hl [[g1 g2] _]].
      assert (hb : In b (map fst st)) by (apply (in_map fst) in h1; exact h1). apply g2 in hb. destruct hb as [c [hc hb]].
      assert (hd : dof_get st b = d). { unfold dof_get. apply dof_of_In in h1; auto. rewrite h1. reflexivity. }
      apply In_nth_error in hc. destruct hc as [q hq]. destruct (nth_error cd q) as [p|] eqn:ep; [|apply nth_error_None in ep; assert (q < length (tn_carts tn))%nat by (apply nth_error_Some; congruence); lia].
      assert (hcp : In (c, p) (combine (tn_carts tn) cd)).
      { clear - hq ep. revert cd q hq ep. generalize (tn_carts tn). induction l as [|c0 l IH]; intros [|p0 cd] [|q] h1 h2; try discriminate; simpl.
        - injection h1 as ->. injection h2 as ->. auto.
        - right. eapply IH; eassumption. }
      destruct h2 as [h2|[h2|h2]].
      * left. unfold static_pairs. apply in_flat_map. exists (c, p). split; [assumption|]. right. apply in_flat_map. exists b. split; [assumption|]. rewrite hd. left. assumption.
      * right. congruence.
      * left. unfold static_pairs. apply in_flat_map. exists (c, p). split; [assumption|]. right. apply in_flat_map. exists b. split; [assumption|]. rewrite hd. right. assumption.
Qed.
