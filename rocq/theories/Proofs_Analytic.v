(** * Proofs about the reference solutions *)

From Coq Require Import Reals List Bool ZArith Arith Lia Lra Psatz.
From Coquelicot Require Import Coquelicot.
From Verif Require Import Num PyBase Model_Element Model_Accumulation Proofs_Accumulation Model_Misc Model_Analytic Spec_Analytic.
Import ListNotations.
Local Open Scope R_scope.

(** ** functions with a given derivative *)

Lemma zero_derivative f : derivative f (fun _ => 0) -> forall x y, f x = f y.
Proof.
  intros h. assert (pr : derivable f) by (intros x; exists 0; apply h).
  apply (null_derivative_1 f pr). intros x. apply derive_pt_eq_0. apply h.
Qed.
Lemma same_derivative f g k : derivative f k -> derivative g k -> forall x, f x = g x + (f 0 - g 0).
Proof.
  intros hf hg x. assert (h : derivative (fun x => f x - g x) (fun _ => 0)).
  { intros y. replace 0 with (k y - k y) by ring. exact (derivable_pt_lim_minus f g y _ _ (hf y) (hg y)). }
  pose proof (zero_derivative _ h x 0). cbn in H. lra.
Qed.
Lemma derivative_ext f g h k : (forall x, f x = g x) -> (forall x, h x = k x) -> derivative f h -> derivative g k.
Proof.
  intros e1 e2 hd x. rewrite <- e2. apply is_derive_Reals. apply (is_derive_ext f); [intros; apply e1|]. apply is_derive_Reals. apply hd.
Qed.
Lemma deriv_eq f x a b : derivable_pt_lim f x a -> a = b -> derivable_pt_lim f x b.
Proof. intros h <-. exact h. Qed.

Definition cubic (c0 c1 c2 c3 x : R) : R := c0 + c1 * x + c2 * (x * x) + c3 * (x * x * x).
Lemma cubic_derivative c0 c1 c2 c3 : derivative (cubic c0 c1 c2 c3) (cubic c1 (2 * c2) (3 * c3) 0).
Proof. intros x. apply is_derive_Reals. unfold cubic. auto_derive; [exact I|]. ring. Qed.
Lemma cubic_free c0 c1 c2 c3 :
  free_part (cubic c0 c1 c2 c3) (cubic c1 (2 * c2) (3 * c3) 0) (cubic (2 * c2) (6 * c3) 0 0) (fun _ => 6 * c3).
Proof.
  split; [apply cubic_derivative|]. split; [|split].
  - refine (derivative_ext _ _ _ _ _ _ (cubic_derivative c1 (2 * c2) (3 * c3) 0)); intros y; [reflexivity|]. unfold cubic; ring.
  - refine (derivative_ext _ _ _ _ _ _ (cubic_derivative (2 * c2) (6 * c3) 0 0)); intros y; [reflexivity|]. unfold cubic; ring.
  - intros x. apply derivable_pt_lim_const.
Qed.
(** without load the deflection is a polynomial of degree three *)
Lemma free_is_cubic w w1 w2 w3 : free_part w w1 w2 w3 ->
  (forall x, w x = cubic (w 0) (w1 0) (w2 0 / 2) (w3 0 / 6) x) /\
  (forall x, w1 x = cubic (w1 0) (w2 0) (w3 0 / 2) 0 x) /\ (forall x, w2 x = cubic (w2 0) (w3 0) 0 0 x) /\ (forall x, w3 x = w3 0).
Proof.
  intros [h0 [h1 [h2 h3]]].
  assert (e3 : forall x, w3 x = w3 0) by (intros x; apply (zero_derivative w3 h3)).
  assert (e2 : forall x, w2 x = cubic (w2 0) (w3 0) 0 0 x).
  { intros x. rewrite (same_derivative w2 (cubic (w2 0) (w3 0) 0 0) w3 h2).
    - unfold cubic. ring.
    - refine (derivative_ext _ _ _ _ _ _ (cubic_derivative (w2 0) (w3 0) 0 0)); intros y; [reflexivity|]. rewrite (e3 y); unfold cubic; ring. }
  assert (e1 : forall x, w1 x = cubic (w1 0) (w2 0) (w3 0 / 2) 0 x).
  { intros x. rewrite (same_derivative w1 (cubic (w1 0) (w2 0) (w3 0 / 2) 0) w2 h1).
    - unfold cubic. ring.
    - refine (derivative_ext _ _ _ _ _ _ (cubic_derivative (w1 0) (w2 0) (w3 0 / 2) 0)); intros y; [reflexivity|]. rewrite (e2 y); unfold cubic; field. }
  split; [|auto]. intros x. rewrite (same_derivative w (cubic (w 0) (w1 0) (w2 0 / 2) (w3 0 / 6)) w1 h0).
  - unfold cubic. ring.
  - refine (derivative_ext _ _ _ _ _ _ (cubic_derivative (w 0) (w1 0) (w2 0 / 2) (w3 0 / 6))); intros y; [reflexivity|]. rewrite (e1 y); unfold cubic; field.
Qed.

(** ** the static beam *)

Definition static_left (EI len a force x : R) : R := force * (len - a) * x / (6 * len * EI) * (len * len - (len - a) * (len - a) - x * x).
Definition static_right (EI len a force x : R) : R := force * a * (len - x) / (6 * len * EI) * (len * len - a * a - (len - x) * (len - x)).

Lemma static_meet EI len a force : 0 < EI -> 0 < len -> static_left EI len a force a = static_right EI len a force a.
Proof. intros h1 h2. unfold static_left, static_right. field. lra. Qed.
Lemma static_value EI len force a x : 0 < EI -> 0 < len -> 
  (0 <= x <= a -> static_deflection EI len force a x = static_left EI len a force x) /\
  (0 <= a <= x -> x <= len -> static_deflection EI len force a x = static_right EI len a force x).
Proof.
  intros h1 h2. unfold static_deflection, pow2. rnum.
  split; intros h3; [|intros h4]; destruct (RlebP 0 x), (RlebP x a), (RlebP x len); cbn [andb]; try lra; try reflexivity.
  assert (x = a) by lra. subst x. apply static_meet; assumption.
Qed.
Lemma static_left_cubic EI len a force x : 0 < EI -> 0 < len ->
  let c := force * (len - a) / (6 * len * EI) in
  static_left EI len a force x = cubic 0 (c * (len * len - (len - a) * (len - a))) 0 (- c) x.
Proof. intros h1 h2 c. unfold static_left, cubic, c. field. lra. Qed.
Lemma static_right_cubic EI len a force x : 0 < EI -> 0 < len ->
  let c := force * a / (6 * len * EI) in
  static_right EI len a force x = cubic (- c * len * (a * a)) (c * (2 * (len * len) + a * a)) (- 3 * c * len) c x.
Proof. intros h1 h2 c. unfold static_right, cubic, c. field. lra. Qed.

Lemma static_solves EI len force a : 0 < EI -> 0 < len -> 0 <= a <= len -> supported_static EI len a force (static_deflection EI len force a).
Proof.
  intros h1 h2 h3. set (c := force * (len - a) / (6 * len * EI)). set (d := force * a / (6 * len * EI)).
  exists (cubic 0 (c * (len * len - (len - a) * (len - a))) 0 (- c)), (cubic (c * (len * len - (len - a) * (len - a))) (2 * 0) (3 * - c) 0),
    (cubic (2 * 0) (6 * - c) 0 0), (fun _ => 6 * - c),
    (cubic (- d * len * (a * a)) (d * (2 * (len * len) + a * a)) (- 3 * d * len) d), (cubic (d * (2 * (len * len) + a * a)) (2 * (- 3 * d * len)) (3 * d) 0),
    (cubic (2 * (- 3 * d * len)) (6 * d) 0 0), (fun _ => 6 * d).
  split; [apply cubic_free|]. split; [apply cubic_free|].
  split; [unfold cubic; ring|]. split; [unfold cubic; ring|]. split; [unfold cubic; ring|]. split; [unfold cubic; ring|].
  split. { unfold c, d. rewrite <- static_left_cubic, <- static_right_cubic by assumption. apply static_meet; assumption. }
  split; [unfold cubic, c, d; field; lra|]. split; [unfold cubic, c, d; field; lra|]. split; [unfold c, d; field; lra|].
  split; intros x hx.
  - unfold c. rewrite <- static_left_cubic by assumption. apply static_value; assumption.
  - unfold d. rewrite <- static_right_cubic by assumption. apply (static_value EI len force a x h1 h2); lra.
Qed.

Lemma supported_unique EI len force a u v : 0 < EI -> 0 < len -> 0 <= a <= len -> supported_static EI len a force u -> supported_static EI len a force v ->
  forall x, 0 <= x <= len -> u x = v x.
Proof.
  intros hEI hlen ha hu hv.
  assert (g : forall u, supported_static EI len a force u -> forall x, 0 <= x <= len -> u x = static_deflection EI len force a x).
  { clear u v hu hv. intros u [l [l1 [l2 [l3 [r [r1 [r2 [r3 [hl [hr [b1 [b2 [b3 [b4 [m1 [m2 [m3 [m4 [u1 u2]]]]]]]]]]]]]]]]]]].
    destruct (free_is_cubic _ _ _ _ hl) as [el [el1 [el2 el3]]]. destruct (free_is_cubic _ _ _ _ hr) as [er [er1 [er2 er3]]].
    rewrite (er len) in b3. rewrite (er2 len) in b4. rewrite (el a), (er a) in m1. rewrite (el1 a), (er1 a) in m2. rewrite (el2 a), (er2 a) in m3. rewrite (el3 a), (er3 a) in m4.
    assert (z2 : l2 0 = 0) by (apply (Rmult_eq_reg_l EI); lra). clear b2. rewrite b1, z2 in *.
    assert (z3 : cubic (r2 0) (r3 0) 0 0 len = 0) by (apply (Rmult_eq_reg_l EI); lra). clear b4.
    assert (z4 : cubic 0 (l3 0) 0 0 a = cubic (r2 0) (r3 0) 0 0 a) by (apply (Rmult_eq_reg_l EI); lra). clear m3.
    unfold cubic in *. 
    assert (k1 : r2 0 = - (r3 0 * len)) by lra.
    assert (k2 : r3 0 = l3 0 + force / EI) by (field_simplify_eq; lra).
    assert (k3 : l3 0 * len = - (force / EI * (len - a))). { rewrite k1, k2 in z4. clear - z4. nra. }
    assert (k4 : l3 0 = - (force / EI * (len - a) / len)) by (field_simplify_eq; [field_simplify_eq in k3; lra|lra]).
    assert (k5 : r3 0 = force / EI * a / len) by (rewrite k2, k4; field; lra).
    assert (k6 : r2 0 = - (force / EI * a)) by (rewrite k1, k5; field; lra).
    assert (k7 : l1 0 - r1 0 = - (force / EI * (a * a)) / 2).
    { transitivity (r2 0 * a + (r3 0 - l3 0) / 2 * (a * a)); [lra|]. rewrite k6, k5, k4. field. lra. }
    assert (k8 : r 0 = - (force / EI * (a * a * a) / 6)).
    { transitivity ((l1 0 - r1 0) * a - r2 0 / 2 * (a * a) + (l3 0 - r3 0) / 6 * (a * a * a)); [lra|]. rewrite k7, k6, k5, k4. field. lra. }
    assert (k9 : r1 0 = force / EI * (a * a * a) / 6 / len + force / EI * a * len / 3).
    { apply (Rmult_eq_reg_r len); [|lra]. transitivity (- r 0 - r2 0 / 2 * (len * len) - r3 0 / 6 * (len * len * len)); [lra|]. rewrite k8, k6, k5. field. lra. }
    intros x hx. destruct (Rle_dec x a) as [h|h].
    - rewrite u1 by lra. destruct (static_value EI len force a x hEI hlen) as [e _]. rewrite e by lra. rewrite el. unfold static_left.
      assert (e1 : l1 0 = force / EI * (a * a * a) / 6 / len + force / EI * a * len / 3 - force / EI * (a * a) / 2) by lra.
      rewrite e1, k4. field. lra.
    - rewrite u2 by lra. destruct (static_value EI len force a x hEI hlen) as [_ e]. rewrite e by lra. rewrite er. unfold static_right.
      rewrite k8, k9, k6, k5. field. lra. }
  intros x hx. rewrite (g u hu x hx), (g v hv x hx). reflexivity.
Qed.

(** ** the clamped beam *)

Definition clamped_left (EI a force x : R) : R := force / EI * (a * (x * x) / 2 - x * x * x / 6).
Definition clamped_right (EI a force x : R) : R := force / EI * (a * a) * (3 * x - a) / 6.
Lemma clamped_solves EI len force a : 0 < EI -> 0 <= a <= len ->
  supported_static EI len a 0 (fun _ => 0) /\ clamped_static EI len a force (fun x => if Rle_dec x a then clamped_left EI a force x else clamped_right EI a force x).
Proof.
  intros h1 h2. split.
  - exists (cubic 0 0 0 0), (cubic 0 (2 * 0) (3 * 0) 0), (cubic (2 * 0) (6 * 0) 0 0), (fun _ => 6 * 0), (cubic 0 0 0 0), (cubic 0 (2 * 0) (3 * 0) 0), (cubic (2 * 0) (6 * 0) 0 0), (fun _ => 6 * 0).
    split; [apply cubic_free|]. split; [apply cubic_free|]. unfold cubic. repeat split; intros; ring.
  - set (q := force / EI).
    exists (cubic 0 0 (q * a / 2) (- q / 6)), (cubic 0 (2 * (q * a / 2)) (3 * (- q / 6)) 0), (cubic (2 * (q * a / 2)) (6 * (- q / 6)) 0 0), (fun _ => 6 * (- q / 6)),
      (cubic (- q * (a * a * a) / 6) (q * (a * a) / 2) 0 0), (cubic (q * (a * a) / 2) (2 * 0) (3 * 0) 0), (cubic (2 * 0) (6 * 0) 0 0), (fun _ => 6 * 0).
    split; [apply cubic_free|]. split; [apply cubic_free|]. unfold cubic.
    split; [ring|]. split; [ring|]. split; [ring|]. split; [ring|]. split; [field|]. split; [field|]. split; [f_equal; field|]. split; [unfold q; field; lra|].
    split; intros x hx; unfold clamped_left, clamped_right; fold q; destruct (Rle_dec x a).
    + field.
    + exfalso. lra.
    + assert (x = a) by lra. subst x. field.
    + field.
Qed.
Lemma clamped_unique EI len force a u : 0 < EI -> 0 <= a <= len -> clamped_static EI len a force u ->
  forall x, 0 <= x <= len -> u x = if Rle_dec x a then clamped_left EI a force x else clamped_right EI a force x.
Proof.
  intros hEI ha [l [l1 [l2 [l3 [r [r1 [r2 [r3 [hl [hr [b1 [b2 [b3 [b4 [m1 [m2 [m3 [m4 [u1 u2]]]]]]]]]]]]]]]]]]].
  destruct (free_is_cubic _ _ _ _ hl) as [el [el1 [el2 el3]]]. destruct (free_is_cubic _ _ _ _ hr) as [er [er1 [er2 er3]]].
  rewrite (er2 len) in b3. rewrite (er3 len) in b4. rewrite (el a), (er a) in m1. rewrite (el1 a), (er1 a) in m2. rewrite (el2 a), (er2 a) in m3. rewrite (el3 a), (er3 a) in m4.
  assert (z1 : r3 0 = 0) by (apply (Rmult_eq_reg_l EI); lra). rewrite z1 in *.
  assert (z3 : cubic (r2 0) 0 0 0 len = 0) by (apply (Rmult_eq_reg_l EI); lra). clear b3.
  assert (z4 : cubic (l2 0) (l3 0) 0 0 a = cubic (r2 0) 0 0 0 a) by (apply (Rmult_eq_reg_l EI); lra). clear m3.
  unfold cubic in *. rewrite b1, b2 in *.
  assert (k1 : r2 0 = 0) by lra. rewrite k1 in *.
  assert (k2 : l3 0 = - (force / EI)) by (apply (Rmult_eq_reg_l EI); [|lra]; transitivity (- force); [lra|field; lra]).
  assert (k3 : l2 0 = force / EI * a) by (rewrite k2 in z4; lra).
  assert (k4 : r1 0 = force / EI * (a * a) / 2) by (rewrite k2, k3 in m2; lra).
  assert (k5 : r 0 = - (force / EI) * (a * a * a) / 6) by (rewrite k2, k3, k4 in m1; lra).
  intros x hx. unfold clamped_left, clamped_right. destruct (Rle_dec x a) as [h|h].
  - rewrite u1, el, k2, k3 by lra. field. lra.
  - rewrite u2, er, k4, k5 by lra. field. lra.
Qed.

(** ** sums over modes *)

Lemma sum_to_ext n f g : (forall k, (1 <= k <= n)%nat -> f k = g k) -> sum_to n f = sum_to n g.
Proof. induction n as [|n IH]; intros h; [reflexivity|]. cbn. rewrite IH, h by (lia || (intros; apply h; lia)). reflexivity. Qed.
Lemma sum_to_scal n c f : c * sum_to n f = sum_to n (fun k => c * f k).
Proof. induction n as [|n IH]; cbn; [ring|]. rewrite <- IH. ring. Qed.
Lemma sum_to_add n f g : sum_to n f + sum_to n g = sum_to n (fun k => f k + g k).
Proof. induction n as [|n IH]; cbn; [ring|]. rewrite <- IH. ring. Qed.
Lemma sum_to_zero n f : (forall k, (1 <= k <= n)%nat -> f k = 0) -> sum_to n f = 0.
Proof. induction n as [|n IH]; intros h; [reflexivity|]. cbn. rewrite IH, h by (lia || (intros; apply h; lia)). ring. Qed.
Lemma sum_to_nonneg n f : (forall k, (1 <= k <= n)%nat -> 0 <= f k) -> 0 <= sum_to n f.
Proof. induction n as [|n IH]; intros h; cbn; [lra|]. specialize (IH ltac:(intros; apply h; lia)). specialize (h (S n) ltac:(lia)). lra. Qed.
Lemma sum_to_pos n f : (1 <= n)%nat -> (forall k, (1 <= k <= n)%nat -> 0 < f k) -> 0 < sum_to n f.
Proof.
  intros hn h. destruct n as [|n]; [lia|]. cbn. pose proof (sum_to_nonneg n f ltac:(intros; left; apply h; lia)). specialize (h (S n) ltac:(lia)). lra.
Qed.
Lemma sum_to_derivative n f g : (forall k, derivative (f k) (g k)) -> derivative (fun x => sum_to n (fun k => f k x)) (fun x => sum_to n (fun k => g k x)).
Proof.
  intros h. induction n as [|n IH]; intros x; cbn; [apply derivable_pt_lim_const|].
  exact (derivable_pt_lim_plus (fun x => sum_to n (fun k => f k x)) (f (S n)) x _ _ (IH x) (h (S n) x)).
Qed.
Lemma sumn_sum_to n (f : nat -> R) : sumn n (fun i => f (S i)) = sum_to n f.
Proof. induction n as [|n IH]; [reflexivity|]. cbn [sum_to]. rewrite <- IH. reflexivity. Qed.

(** a sum of sine shapes, each with its own amplitude in time *)
Definition wave_number (len : R) (k : nat) : R := INR k * PI / len.
Definition sines (n : nat) (len : R) (g : nat -> R -> R) (x t : R) : R := sum_to n (fun k => g k t * sin (wave_number len k * x)).

Lemma sines_in_time n len g g1 : (forall k, derivative (g k) (g1 k)) -> in_time (sines n len g) (sines n len g1).
Proof.
  intros h x. unfold sines. apply (sum_to_derivative n (fun k t => g k t * sin (wave_number len k * x)) (fun k t => g1 k t * sin (wave_number len k * x))).
  intros k t. pose proof (derivable_pt_lim_mult (g k) (fun _ => sin (wave_number len k * x)) t _ _ (h k t) (derivable_pt_lim_const _ t)) as d.
  eapply deriv_eq; [exact d|]. cbv beta. ring.
Qed.
Definition part_of (n : nat) (len : R) (g : nat -> R -> R) (f : R -> R) (p : nat) (c : R) (x t : R) : R :=
  sum_to n (fun k => c * wave_number len k ^ p * g k t * f (wave_number len k * x)).
Lemma sines_along n len g :
  along_beam (sines n len g) (part_of n len g cos 1 1) /\ along_beam (part_of n len g cos 1 1) (part_of n len g sin 2 (-1)) /\
  along_beam (part_of n len g sin 2 (-1)) (part_of n len g cos 3 (-1)) /\ along_beam (part_of n len g cos 3 (-1)) (part_of n len g sin 4 1).
Proof.
  assert (ds : forall k x, derivable_pt_lim (fun x => sin (wave_number len k * x)) x (wave_number len k * cos (wave_number len k * x))).
  { intros k x. apply is_derive_Reals. auto_derive; [exact I|]. ring. }
  assert (dc : forall k x, derivable_pt_lim (fun x => cos (wave_number len k * x)) x (- wave_number len k * sin (wave_number len k * x))).
  { intros k x. apply is_derive_Reals. auto_derive; [exact I|]. ring. }
  unfold sines, part_of. repeat split; intros t.
  - apply (sum_to_derivative n (fun k x => g k t * sin (wave_number len k * x)) (fun k x => 1 * wave_number len k ^ 1 * g k t * cos (wave_number len k * x))).
    intros k x. eapply deriv_eq; [apply (derivable_pt_lim_scal (fun x => sin (wave_number len k * x)) (g k t) x _ (ds k x))|]. ring.
  - apply (sum_to_derivative n (fun k x => 1 * wave_number len k ^ 1 * g k t * cos (wave_number len k * x)) (fun k x => -1 * wave_number len k ^ 2 * g k t * sin (wave_number len k * x))).
    intros k x. eapply deriv_eq; [apply (derivable_pt_lim_scal (fun x => cos (wave_number len k * x)) (1 * wave_number len k ^ 1 * g k t) x _ (dc k x))|]. ring.
  - apply (sum_to_derivative n (fun k x => -1 * wave_number len k ^ 2 * g k t * sin (wave_number len k * x)) (fun k x => -1 * wave_number len k ^ 3 * g k t * cos (wave_number len k * x))).
    intros k x. eapply deriv_eq; [apply (derivable_pt_lim_scal (fun x => sin (wave_number len k * x)) (-1 * wave_number len k ^ 2 * g k t) x _ (ds k x))|]. ring.
  - apply (sum_to_derivative n (fun k x => -1 * wave_number len k ^ 3 * g k t * cos (wave_number len k * x)) (fun k x => 1 * wave_number len k ^ 4 * g k t * sin (wave_number len k * x))).
    intros k x. eapply deriv_eq; [apply (derivable_pt_lim_scal (fun x => cos (wave_number len k * x)) (-1 * wave_number len k ^ 3 * g k t) x _ (dc k x))|]. ring.
Qed.
Lemma sin_multiple k : sin (INR k * PI) = 0.
Proof. apply sin_eq_0_1. exists (Z.of_nat k). rewrite INR_IZR_INZ. reflexivity. Qed.
Lemma wave_number_end len k : 0 < len -> wave_number len k * len = INR k * PI.
Proof. intros h. unfold wave_number. field. lra. Qed.

Lemma sines_motion n len m EI c0 c1 g g1 g2 Q : 0 < len ->
  (forall k, derivative (g k) (g1 k)) -> (forall k, derivative (g1 k) (g2 k)) ->
  (forall k t, (1 <= k <= n)%nat -> m * g2 k t + c0 * m * g1 k t + (c1 * EI * g1 k t + EI * g k t) * wave_number len k ^ 4 = Q k) ->
  beam_motion m EI c0 c1 (fun x _ => sum_to n (fun k => Q k * sin (wave_number len k * x)))
    (sines n len g) (sines n len g1) (part_of n len g cos 1 1) (part_of n len g sin 2 (-1)) (part_of n len g cos 3 (-1)) /\
  simply_supported len (sines n len g) (part_of n len g sin 2 (-1)).
Proof.
  intros hl h1 h2 h3. destruct (sines_along n len g) as [a1 [a2 [a3 a4]]]. split.
  - exists (sines n len g2), (part_of n len g sin 4 1), (part_of n len g1 sin 4 1).
    split; [apply sines_in_time; exact h1|]. split; [apply sines_in_time; exact h2|]. do 4 (split; [assumption|]). split.
    + intros x. unfold part_of.
      apply (sum_to_derivative n (fun k t => 1 * wave_number len k ^ 4 * g k t * sin (wave_number len k * x)) (fun k t => 1 * wave_number len k ^ 4 * g1 k t * sin (wave_number len k * x))).
      intros k t. pose proof (derivable_pt_lim_mult (fun t => 1 * wave_number len k ^ 4 * g k t) (fun _ => sin (wave_number len k * x)) t _ _
        (derivable_pt_lim_scal (g k) (1 * wave_number len k ^ 4) t _ (h1 k t)) (derivable_pt_lim_const _ t)) as d.
      eapply deriv_eq; [exact d|]. cbv beta. ring.
    + intros x t. unfold sines, part_of. rewrite !sum_to_scal, !sum_to_add. apply sum_to_ext. intros k hk. rewrite <- (h3 k t hk). ring.
  - intros t. unfold sines, part_of. repeat split; apply sum_to_zero; intros k hk; rewrite ?Rmult_0_r, ?sin_0, ?wave_number_end, ?sin_multiple by assumption; ring.
Qed.

(** ** the points of the beam *)

Definition intervals (size len : R) (n : nat) : Prop := INR n - 1 < len / size <= INR n.
Lemma intervals_pos size len n : 0 < size -> 0 < len -> intervals size len n -> (1 <= n)%nat.
Proof.
  intros h1 h2 [_ h]. destruct n as [|n]; [|lia]. cbn in h. assert (0 < len / size) by (apply Rdiv_lt_0_compat; assumption). lra.
Qed.
Lemma beam_points_ok size len : 0 < size -> 0 < len -> exists n, intervals size len n /\ beam_points size len = Ok (linspace_nat 0 len (S n)).
Proof.
  intros h1 h2. unfold beam_points. destruct (neqbP size (lit 0)) as [e|_]; [cbn in e; lra|]. 
  assert (c : IZR (nceil (len / size)) - 1 < len / size <= IZR (nceil (len / size))).
  { unfold nceil. pose proof (nfloor_spec (- (len / size))) as hf. cbn [nopp RNum]. rewrite opp_IZR. lra. }
  assert (p : 0 < len / size) by (apply Rdiv_lt_0_compat; assumption).
  assert (z : (0 < nceil (len / size)%R)%Z) by (apply lt_IZR; lra).
  exists (Z.to_nat (nceil (len / size))). split.
  - unfold intervals. rewrite INR_IZR_INZ, Z2Nat.id by lia. exact c.
  - apply linspace_ok. cbn [ndiv RNum]. split; [lia|]. f_equal. lia.
Qed.
Lemma points_nth len n i : (1 <= n)%nat -> (i <= n)%nat -> nth i (linspace_nat 0 len (S n)) 0 = INR i * len / INR n.
Proof. intros h1 h2. rewrite ls_nth by lia. replace (S n - 1)%nat with n by lia. rewrite Rminus_0_r, Rplus_0_l. reflexivity. Qed.

Definition load_point (x : list R) : R := nth (Nat.div (List.length x - 1) 2) x 0.
Lemma half_lt n : (Nat.div (S n - 1) 2 < S n)%nat.
Proof. replace (S n - 1)%nat with n by lia. pose proof (Nat.div_le_upper_bound n 2 n ltac:(lia) ltac:(lia)). lia. Qed.
Lemma middle_force_ok len force n k : middle_force len force (linspace_nat 0 len (S n)) k =
  Ok (sin (wave_number len k * load_point (linspace_nat 0 len (S n))) * force).
Proof.
  unfold middle_force, load_point. set (l := linspace_nat 0 len (S n)). assert (hl : List.length l = S n) by (apply ls_length).
  rewrite hl. pose proof (half_lt n) as hh. set (j := Nat.div (S n - 1) 2) in *.
  unfold at_idx. rewrite nth_error_map. rewrite (nth_error_nth' l 0) by lia. cbn [option_map rbind]. unfold beam_mode. rewrite nofnat_R. reflexivity.
Qed.
Lemma load_point_value len n : (1 <= n)%nat -> load_point (linspace_nat 0 len (S n)) = INR (Nat.div n 2) * len / INR n.
Proof.
  intros h. unfold load_point. rewrite ls_length. replace (S n - 1)%nat with n by lia. apply points_nth; [exact h|].
  apply Nat.div_le_upper_bound; lia.
Qed.

(** the sums of the model *)
Lemma sum_modes_ok n force phi f : (forall k, (1 <= k < n)%nat -> force k = Ok (phi k)) -> sum_modes n force f = Ok (sum_to (n - 1) (fun k => f k (phi k))).
Proof.
  intros h. destruct n as [|n]; [reflexivity|]. induction n as [|n IH]; [reflexivity|].
  change (sum_modes (S (S n)) force f) with (do aux <- sum_modes (S n) force f ; do v <- force (S n) ; Ok (nadd aux (f (S n) v))).
  rewrite IH by (intros; apply h; lia). rewrite h by lia. cbn [rbind]. replace (S (S n) - 1)%nat with (S n) by lia. replace (S n - 1)%nat with n by lia. reflexivity.
Qed.
Lemma sum_modes_nan_ok n force phi f g : (forall k, (1 <= k < n)%nat -> force k = Ok (phi k)) -> (forall k, (1 <= k < n)%nat -> f k (phi k) = Some (g k)) ->
  sum_modes_nan n force f = Ok (Some (sum_to (n - 1) g)).
Proof.
  intros h1 h2. destruct n as [|n]; [reflexivity|]. induction n as [|n IH]; [reflexivity|].
  change (sum_modes_nan (S (S n)) force f) with (do aux <- sum_modes_nan (S n) force f ; do v <- force (S n) ;
    Ok (match aux, f (S n) v with Some a, Some b => Some (nadd a b) | _, _ => None end)).
  rewrite IH by (intros; first [apply h1 | apply h2]; lia). rewrite h1 by lia. cbn [rbind]. rewrite h2 by lia.
  replace (S (S n) - 1)%nat with (S n) by lia. replace (S n - 1)%nat with n by lia. reflexivity.
Qed.
Lemma sum_modes_nan_none n force phi f j : (forall k, (1 <= k < n)%nat -> force k = Ok (phi k)) -> (1 <= j < n)%nat -> f j (phi j) = None ->
  sum_modes_nan n force f = Ok None.
Proof.
  intros h1. destruct n as [|n]; [lia|]. induction n as [|n IH]; [lia|]. intros hj hn.
  change (sum_modes_nan (S (S n)) force f) with (do aux <- sum_modes_nan (S n) force f ; do v <- force (S n) ;
    Ok (match aux, f (S n) v with Some a, Some b => Some (nadd a b) | _, _ => None end)).
  assert (hex : exists q, sum_modes_nan (S n) force f = Ok q).
  { clear - h1. induction n as [|n IH]; [eexists; reflexivity|].
    change (sum_modes_nan (S (S n)) force f) with (do aux <- sum_modes_nan (S n) force f ; do v <- force (S n) ;
      Ok (match aux, f (S n) v with Some a, Some b => Some (nadd a b) | _, _ => None end)).
    destruct IH as [q ->]; [intros; apply h1; lia|]. rewrite h1 by lia. cbn [rbind]. eexists. reflexivity. }
  destruct (Nat.eq_dec j (S n)) as [-> | e].
  - destruct hex as [q ->]. rewrite h1 by lia. cbn [rbind]. rewrite hn. destruct q; reflexivity.
  - rewrite IH by (try (intros; apply h1); try assumption; lia). rewrite h1 by lia. reflexivity.
Qed.

(** ** frequencies *)

Lemma wave_number_pos len k : 0 < len -> (1 <= k)%nat -> 0 < wave_number len k.
Proof. intros h hk. unfold wave_number. apply Rdiv_lt_0_compat; [|exact h]. apply Rmult_lt_0_compat; [apply lt_0_INR; lia|apply PI_RGT_0]. Qed.
Lemma frequency_value EI mass len k : 0 < EI -> 0 < mass -> 0 < len -> beam_frequency EI mass len k = wave_number len k ^ 2 * sqrt (EI / mass).
Proof.
  intros h1 h2 h3. unfold beam_frequency, pow2, pow4, wave_number. rewrite nofnat_R. cbn [nmul ndiv nsqrt RNum npi RTrig].
  assert (e : EI / (mass * (len * len * len * len)) = EI / mass / ((len * len) * (len * len))) by (field; lra).
  rewrite e. rewrite sqrt_div_alt by (apply Rmult_lt_0_compat; nra). rewrite sqrt_square by nra. field. lra.
Qed.
Lemma frequency_pos EI mass len k : 0 < EI -> 0 < mass -> 0 < len -> (1 <= k)%nat -> 0 < beam_frequency EI mass len k.
Proof.
  intros h1 h2 h3 hk. rewrite frequency_value by assumption. apply Rmult_lt_0_compat.
  - apply pow_lt. apply wave_number_pos; assumption.
  - apply sqrt_lt_R0. apply Rdiv_lt_0_compat; assumption.
Qed.
Lemma frequency_square EI mass len k : 0 < EI -> 0 < mass -> 0 < len -> mass * (beam_frequency EI mass len k * beam_frequency EI mass len k) = EI * wave_number len k ^ 4.
Proof.
  intros h1 h2 h3. rewrite frequency_value by assumption.
  replace (wave_number len k ^ 2 * sqrt (EI / mass) * (wave_number len k ^ 2 * sqrt (EI / mass))) with (wave_number len k ^ 4 * (sqrt (EI / mass) * sqrt (EI / mass))) by ring.
  rewrite sqrt_sqrt by (left; apply Rdiv_lt_0_compat; assumption). field. lra.
Qed.

(** ** mapr over a table *)
Lemma mapr_ok {A B} (f : A -> res B) (g : A -> B) l : (forall a, In a l -> f a = Ok (g a)) -> mapr f l = Ok (map g l).
Proof. induction l as [|a l IH]; intros h; [reflexivity|]. cbn [mapr map]. rewrite h by (left; reflexivity). cbn [rbind]. rewrite IH by (intros; apply h; right; assumption). reflexivity. Qed.
Lemma table_nth {A} (w : R -> R -> A) (d : A) (xs ts : list R) i j : (i < List.length xs)%nat -> (j < List.length ts)%nat ->
  nth j (nth i (map (fun p => map (w p) ts) xs) []) d = w (nth i xs 0) (nth j ts 0).
Proof.
  intros h1 h2. rewrite (nth_indep _ [] ((fun p => map (w p) ts) 0)) by (rewrite map_length; exact h1).
  rewrite (map_nth (fun p => map (w p) ts)). rewrite (nth_indep _ d (w (nth i xs 0) 0)) by (rewrite map_length; exact h2). apply map_nth.
Qed.

Lemma table_row {A} (w : R -> R -> A) (xs ts : list R) i : (i < List.length xs)%nat -> nth i (map (fun p => map (w p) ts) xs) [] = map (w (nth i xs 0)) ts.
Proof.
  intros h1. rewrite (nth_indep _ [] ((fun p => map (w p) ts) 0)) by (rewrite map_length; exact h1). apply (map_nth (fun p => map (w p) ts)).
Qed.

(** ** the undamped beam *)

Definition undamped_amp (EI mass len force x0 : R) (k : nat) : R := 2 * force / (len * EI) / wave_number len k ^ 4 * sin (wave_number len k * x0).
Definition undamped_g (EI mass len force x0 : R) (k : nat) (t : R) : R := undamped_amp EI mass len force x0 k * (1 - cos (beam_frequency EI mass len k * t)).
Definition undamped_g1 (EI mass len force x0 : R) (k : nat) (t : R) : R :=
  undamped_amp EI mass len force x0 k * (beam_frequency EI mass len k * sin (beam_frequency EI mass len k * t)).
Definition undamped_g2 (EI mass len force x0 : R) (k : nat) (t : R) : R :=
  undamped_amp EI mass len force x0 k * (beam_frequency EI mass len k * beam_frequency EI mass len k * cos (beam_frequency EI mass len k * t)).

Lemma osc_deriv a w t : derivable_pt_lim (fun t => a * (1 - cos (w * t))) t (a * (w * sin (w * t))).
Proof. apply is_derive_Reals. auto_derive; [exact I|]. ring. Qed.
Lemma osc_deriv1 a w t : derivable_pt_lim (fun t => a * (w * sin (w * t))) t (a * (w * w * cos (w * t))).
Proof. apply is_derive_Reals. auto_derive; [exact I|]. ring. Qed.

Lemma amp_value EI mass len force x0 k : 0 < EI -> 0 < len -> (1 <= k)%nat ->
  EI * wave_number len k ^ 4 * undamped_amp EI mass len force x0 k = 2 * force / len * sin (wave_number len k * x0).
Proof. intros h1 h2 hk. unfold undamped_amp. pose proof (wave_number_pos len k h2 hk). field. lra. Qed.

Lemma undamped_at_ok n EI mass len force N x t : 0 < EI -> 0 < mass -> 0 < len ->
  undamped_at n EI mass len force (linspace_nat 0 len (S N)) x t = Ok (sines (n - 1) len (undamped_g EI mass len force (load_point (linspace_nat 0 len (S N)))) x t).
Proof.
  intros h1 h2 h3. unfold undamped_at. set (x0 := load_point (linspace_nat 0 len (S N))).
  rewrite (sum_modes_ok _ _ (fun k => sin (wave_number len k * x0) * force)) by (intros; apply middle_force_ok).
  cbn [rbind]. f_equal. unfold sines. rewrite sum_to_scal. apply sum_to_ext. intros k hk.
  unfold undamped_g, undamped_amp, beam_mode, pow4, pow3, pow2. rewrite !nofnat_R. cbn [nmul ndiv nsub lit RNum npi nsin ncos RTrig].
  assert (hk0 : 0 < INR k) by (apply lt_0_INR; lia). pose proof PI_RGT_0.
  unfold wave_number. generalize (sin (INR k * PI / len * x0)), (sin (INR k * PI / len * x)), (cos (beam_frequency EI mass len k * t)). intros s1 s2 s3. field. lra.
Qed.
Lemma undamped_beam_ok n size E I rho A len force time : 0 < size -> 0 < E * I -> 0 < rho * A -> 0 < len ->
  exists N, intervals size len N /\ let x := linspace_nat 0 len (S N) in
    undamped_beam n size E I rho A len force time =
    Ok (x, map (fun p => map (sines (n - 1) len (undamped_g (E * I) (rho * A) len force (load_point x)) p) time) x).
Proof.
  intros h1 h2 h3 h4. destruct (beam_points_ok size len h1 h4) as [N [hN hp]]. exists N. split; [exact hN|]. intros x. unfold undamped_beam. rewrite hp. cbn [rbind].
  fold x. rewrite (mapr_ok _ (fun p => map (sines (n - 1) len (undamped_g (E * I) (rho * A) len force (load_point x)) p) time)); [reflexivity|].
  intros p _. apply mapr_ok. intros t _. apply undamped_at_ok; assumption.
Qed.
Lemma point_load_sines n len force x0 x : 0 < len -> point_load n len force x0 x = sum_to n (fun k => 2 * force / len * sin (wave_number len k * x0) * sin (wave_number len k * x)).
Proof.
  intros h. unfold point_load. rewrite sum_to_scal. apply sum_to_ext. intros k _. unfold wave_number.
  replace (INR k * PI * x0 / len) with (INR k * PI / len * x0) by (field; lra). replace (INR k * PI * x / len) with (INR k * PI / len * x) by (field; lra). ring.
Qed.
Lemma beam_motion_ext m EI c0 c1 q q' w v w1 w2 w3 : (forall x t, q x t = q' x t) -> beam_motion m EI c0 c1 q w v w1 w2 w3 -> beam_motion m EI c0 c1 q' w v w1 w2 w3.
Proof. intros e [a [b [c [h1 [h2 [h3 [h4 [h5 [h6 [h7 h8]]]]]]]]]]. exists a, b, c. repeat (split; [assumption|]). intros x t. rewrite <- e. apply h8. Qed.

Lemma undamped_motion n EI mass len force x0 : 0 < EI -> 0 < mass -> 0 < len ->
  exists v w1 w2 w3, let w := sines n len (undamped_g EI mass len force x0) in
    beam_motion mass EI 0 0 (fun x _ => point_load n len force x0 x) w v w1 w2 w3 /\ starts_at_rest w v /\ simply_supported len w w2.
Proof.
  intros h1 h2 h3.
  destruct (sines_motion n len mass EI 0 0 (undamped_g EI mass len force x0) (undamped_g1 EI mass len force x0) (undamped_g2 EI mass len force x0)
    (fun k => 2 * force / len * sin (wave_number len k * x0)) h3) as [hm hs].
  - intros k t. apply osc_deriv.
  - intros k t. apply osc_deriv1.
  - intros k t hk. pose proof (amp_value EI mass len force x0 k h1 h3 ltac:(lia)) as e. pose proof (frequency_square EI mass len k h1 h2 h3) as f.
    rewrite <- e. unfold undamped_g, undamped_g1, undamped_g2. revert f. generalize (beam_frequency EI mass len k). intros w f.
    transitivity (undamped_amp EI mass len force x0 k * (mass * (w * w)) * cos (w * t) + EI * wave_number len k ^ 4 * undamped_amp EI mass len force x0 k * (1 - cos (w * t))); [ring|].
    rewrite f. ring.
  - eexists _, _, _, _. cbv zeta. split; [|split; [|exact hs]].
    + eapply beam_motion_ext; [|exact hm]. intros x t. cbn beta. symmetry. apply point_load_sines. exact h3.
    + intros x. unfold sines, undamped_g, undamped_g1. split; apply sum_to_zero; intros k hk; rewrite Rmult_0_r, ?cos_0, ?sin_0; ring.
Qed.

(** ** the damped beam *)

Section Damped.
  Variables EI mass len force x0 c0 c1 : R.
  Hypothesis hEI : 0 < EI.
  Hypothesis hm : 0 < mass.
  Hypothesis hl : 0 < len.
  Let om k := beam_frequency EI mass len k.
  Definition ratio_of (k : nat) : R := c0 / (2 * beam_frequency EI mass len k) + c1 * beam_frequency EI mass len k / 2.
  Let xi := ratio_of.
  Let s k := sqrt (1 - xi k * xi k).
  Definition damped_g (k : nat) (t : R) : R :=
    undamped_amp EI mass len force x0 k *
    (1 - exp (- ratio_of k * beam_frequency EI mass len k * t) *
      (cos (beam_frequency EI mass len k * sqrt (1 - ratio_of k * ratio_of k) * t) +
       ratio_of k / sqrt (1 - ratio_of k * ratio_of k) * sin (beam_frequency EI mass len k * sqrt (1 - ratio_of k * ratio_of k) * t))).
  Definition damped_g1 (k : nat) (t : R) : R :=
    if Rlt_dec 0 (1 - ratio_of k * ratio_of k) then
      undamped_amp EI mass len force x0 k * exp (- xi k * om k * t) * (om k / s k * sin (om k * s k * t))
    else undamped_amp EI mass len force x0 k *
         (- (exp (- xi k * om k * t) * (- om k * s k * sin (om k * s k * t) + xi k / s k * (om k * s k) * cos (om k * s k * t)) -
           xi k * om k * exp (- xi k * om k * t) * (cos (om k * s k * t) + xi k / s k * sin (om k * s k * t)))).
  Definition damped_g2 (k : nat) (t : R) : R :=
    if Rlt_dec 0 (1 - ratio_of k * ratio_of k) then
      undamped_amp EI mass len force x0 k * exp (- xi k * om k * t) * (om k * om k * cos (om k * s k * t) - xi k * om k * (om k / s k) * sin (om k * s k * t))
    else undamped_amp EI mass len force x0 k * - (
         - xi k * om k * exp (- xi k * om k * t) * (- om k * s k * sin (om k * s k * t) + xi k / s k * (om k * s k) * cos (om k * s k * t)) +
         exp (- xi k * om k * t) * (- om k * s k * (om k * s k) * cos (om k * s k * t) - xi k / s k * (om k * s k) * (om k * s k) * sin (om k * s k * t)) -
         (- (xi k * om k) * (xi k * om k) * exp (- xi k * om k * t) * (cos (om k * s k * t) + xi k / s k * sin (om k * s k * t)) +
          xi k * om k * exp (- xi k * om k * t) * (- om k * s k * sin (om k * s k * t) + xi k / s k * (om k * s k) * cos (om k * s k * t)))).

  Lemma damped_d1 k : derivative (damped_g k) (damped_g1 k).
  Proof.
    intros t. unfold damped_g, damped_g1. fold (xi k) (om k) (s k). apply is_derive_Reals. auto_derive; [exact I|].
    destruct (Rlt_dec 0 (1 - xi k * xi k)) as [h|h].
    - assert (hs : s k * s k = 1 - xi k * xi k) by (apply sqrt_sqrt; lra). assert (0 < s k) by (apply sqrt_lt_R0; exact h).
      apply Rmult_eq_reg_r with (s k); [|lra].
      transitivity (undamped_amp EI mass len force x0 k * exp (- xi k * om k * t) * (om k * sin (om k * s k * t)) * (s k * s k + xi k * xi k)).
      + field. lra.
      + rewrite hs. field. lra.
    - ring.
  Qed.
  Lemma damped_d2 k : derivative (damped_g1 k) (damped_g2 k).
  Proof.
    intros t. unfold damped_g1, damped_g2. fold (xi k) (om k) (s k). apply is_derive_Reals.
    destruct (Rlt_dec 0 (1 - xi k * xi k)) as [h|h].
    - assert (0 < s k) by (apply sqrt_lt_R0; exact h). auto_derive; [exact I|]. field. lra.
    - auto_derive; [exact I|]. ring.
  Qed.
  Lemma damped_ode k t : (1 <= k)%nat -> -1 < ratio_of k < 1 ->
    mass * damped_g2 k t + c0 * mass * damped_g1 k t + (c1 * EI * damped_g1 k t + EI * damped_g k t) * wave_number len k ^ 4 =
    2 * force / len * sin (wave_number len k * x0).
  Proof.
    intros hk hr. assert (h : 0 < 1 - xi k * xi k) by (unfold xi; nra).
    rewrite <- (amp_value EI mass len force x0 k hEI hl hk).
    pose proof (frequency_square EI mass len k hEI hm hl) as f. fold (om k) in f. pose proof (frequency_pos EI mass len k hEI hm hl hk) as hp. fold (om k) in hp.
    unfold damped_g, damped_g1, damped_g2. fold (xi k) (om k) (s k). destruct (Rlt_dec 0 (1 - xi k * xi k)) as [_|h']; [|contradiction].
    assert (hs0 : 0 < s k) by (apply sqrt_lt_R0; exact h).
    assert (hx : c0 + c1 * (om k * om k) = 2 * xi k * om k) by (unfold xi, ratio_of; fold (om k); field; lra).
    set (U := undamped_amp EI mass len force x0 k). set (X := exp (- xi k * om k * t)). set (C := cos (om k * s k * t)). set (S' := sin (om k * s k * t)).
    replace (EI * wave_number len k ^ 4 * U) with (mass * (om k * om k) * U) by (rewrite f; ring).
    transitivity (mass * U * (X * (om k * om k * C - xi k * om k * (om k / s k) * S')) + mass * U * (c0 + c1 * (om k * om k)) * (X * (om k / s k * S')) +
      mass * (om k * om k) * (U * (1 - X * (C + xi k / s k * S')))).
    - transitivity (mass * (U * X * (om k * om k * C - xi k * om k * (om k / s k) * S')) + c0 * mass * (U * X * (om k / s k * S')) +
        (EI * wave_number len k ^ 4) * (c1 * (U * X * (om k / s k * S')) + U * (1 - X * (C + xi k / s k * S')))); [ring|]. rewrite <- f. ring.
    - rewrite hx. field. lra.
  Qed.
  Lemma damped_term_ok k x t : (1 <= k)%nat -> -1 < ratio_of k < 1 ->
    damped_term EI mass len c0 c1 k (sin (wave_number len k * x0) * force) x t = Some (damped_g k t * sin (wave_number len k * x)).
  Proof.
    intros hk hr. assert (h : 0 < 1 - xi k * xi k) by (unfold xi; nra).
    pose proof (frequency_square EI mass len k hEI hm hl) as f. pose proof (frequency_pos EI mass len k hEI hm hl hk) as hp.
    unfold damped_term. destruct (neqbP (beam_frequency EI mass len k) (lit 0)) as [e|_]; [change (beam_frequency EI mass len k = 0) in e; lra|].
    change (mode_ratio c0 c1 (beam_frequency EI mass len k)) with (ratio_of k). cbv zeta.
    unfold pow2. cbn [nmul ndiv nsub nadd nopp lit nleb nsqrt RNum nsin ncos RTrig nexp RExpLog].
    destruct (RlebP (1 - ratio_of k * ratio_of k) 0) as [e|_]; [unfold xi in h; lra|].
    f_equal. unfold damped_g, undamped_amp, beam_mode. rewrite nofnat_R. cbn [nmul ndiv RNum npi nsin RTrig]. fold (wave_number len k).
    pose proof (wave_number_pos len k hl hk) as hw.
    set (X := exp (- ratio_of k * beam_frequency EI mass len k * t)). set (Y := cos (beam_frequency EI mass len k * sqrt (1 - ratio_of k * ratio_of k) * t) +
       ratio_of k / sqrt (1 - ratio_of k * ratio_of k) * sin (beam_frequency EI mass len k * sqrt (1 - ratio_of k * ratio_of k) * t)).
    f_equal. f_equal.
    replace (beam_frequency EI mass len k * beam_frequency EI mass len k * (mass * len / 2)) with (EI * wave_number len k ^ 4 * len / 2) by (rewrite <- f; field).
    field. split; [|split]; lra.
  Qed.
  Lemma damped_term_none k v x t : (1 <= k)%nat -> ~ (-1 < ratio_of k < 1) -> damped_term EI mass len c0 c1 k v x t = None.
  Proof.
    intros hk hr. unfold damped_term. destruct (neqb (beam_frequency EI mass len k) (lit 0)); [reflexivity|].
    change (mode_ratio c0 c1 (beam_frequency EI mass len k)) with (ratio_of k). cbv zeta. unfold pow2. cbn [nmul nsub lit nleb RNum].
    destruct (RlebP (1 - ratio_of k * ratio_of k) 0) as [_|e]; [reflexivity|]. exfalso. apply hr. nra.
  Qed.
End Damped.

Lemma damped_motion n EI mass len force x0 c0 c1 : 0 < EI -> 0 < mass -> 0 < len -> (forall k, (1 <= k <= n)%nat -> -1 < ratio_of EI mass len c0 c1 k < 1) ->
  exists v w1 w2 w3, let w := sines n len (damped_g EI mass len force x0 c0 c1) in
    beam_motion mass EI c0 c1 (fun x _ => point_load n len force x0 x) w v w1 w2 w3 /\ starts_at_rest w v /\ simply_supported len w w2.
Proof.
  intros h1 h2 h3 hr.
  destruct (sines_motion n len mass EI c0 c1 (damped_g EI mass len force x0 c0 c1) (damped_g1 EI mass len force x0 c0 c1) (damped_g2 EI mass len force x0 c0 c1)
    (fun k => 2 * force / len * sin (wave_number len k * x0)) h3) as [hm hs].
  - apply damped_d1.
  - apply damped_d2.
  - intros k t hk. apply damped_ode; try assumption; [lia|apply hr; exact hk].
  - eexists _, _, _, _. cbv zeta. split; [|split; [|exact hs]].
    + eapply beam_motion_ext; [|exact hm]. intros x t. cbn beta. symmetry. apply point_load_sines. exact h3.
    + intros x. unfold sines. split; apply sum_to_zero; intros k hk; unfold damped_g, damped_g1.
      * rewrite !Rmult_0_r, exp_0, cos_0, sin_0. ring.
      * destruct (Rlt_dec 0 (1 - ratio_of EI mass len c0 c1 k * ratio_of EI mass len c0 c1 k)) as [e|e]; [|exfalso; specialize (hr k hk); nra].
        rewrite !Rmult_0_r, sin_0. ring.
Qed.
Lemma damped_at_ok n EI mass len force c0 c1 N x t : 0 < EI -> 0 < mass -> 0 < len -> (forall k, (1 <= k < n)%nat -> -1 < ratio_of EI mass len c0 c1 k < 1) ->
  damped_at n EI mass len force c0 c1 (linspace_nat 0 len (S N)) x t =
  Ok (Some (sines (n - 1) len (damped_g EI mass len force (load_point (linspace_nat 0 len (S N))) c0 c1) x t)).
Proof.
  intros h1 h2 h3 hr. unfold damped_at. set (x0 := load_point (linspace_nat 0 len (S N))).
  apply (sum_modes_nan_ok _ _ (fun k => sin (wave_number len k * x0) * force)); [intros; apply middle_force_ok|].
  intros k hk. apply damped_term_ok; try assumption; [lia|]. apply hr. exact hk.
Qed.
Lemma damped_at_none n EI mass len force c0 c1 N x t k : 0 < EI -> 0 < mass -> 0 < len -> (1 <= k < n)%nat -> ~ (-1 < ratio_of EI mass len c0 c1 k < 1) ->
  damped_at n EI mass len force c0 c1 (linspace_nat 0 len (S N)) x t = Ok None.
Proof.
  intros h1 h2 h3 hk hr. unfold damped_at. set (x0 := load_point (linspace_nat 0 len (S N))).
  apply (sum_modes_nan_none _ _ (fun k => sin (wave_number len k * x0) * force) _ k); [intros; apply middle_force_ok|exact hk|].
  apply damped_term_none; [lia|exact hr].
Qed.
Lemma damped_beam_eq n size E I rho A len force c0 c1 time (g : R -> R -> option R) : 0 < size -> 0 < len ->
  forall N, beam_points size len = Ok (linspace_nat 0 len (S N)) ->
  (forall x t, damped_at n (E * I) (rho * A) len force c0 c1 (linspace_nat 0 len (S N)) x t = Ok (g x t)) ->
  damped_beam n size E I rho A len force c0 c1 time = Ok (linspace_nat 0 len (S N), map (fun p => map (g p) time) (linspace_nat 0 len (S N))).
Proof.
  intros h1 h2 N hp hg. unfold damped_beam. rewrite hp. cbn [rbind].
  rewrite (mapr_ok _ (fun p => map (g p) time)); [reflexivity|]. intros p _. apply mapr_ok. intros t _. apply hg.
Qed.
