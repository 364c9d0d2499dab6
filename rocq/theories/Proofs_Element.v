From Coq Require Import Reals List Bool ZArith Arith Lia Lra Psatz.
From Verif Require Import Num PyBase Model_Geometry Model_System Model_Element Spec_System Spec_Element Proofs_System.
Import ListNotations.
Local Open Scope R_scope.

Lemma sqr_ge (x : R) : 0 <= x * x.
Proof. exact (Rle_0_sqr x). Qed.
Lemma sqr_gt (x : R) : x <> 0 -> 0 < x * x.
Proof. intros h. exact (Rsqr_pos_lt x h). Qed.

(** ** rotation (C14, C15, C16) *)

Lemma cs1 (t : R) : cos t * cos t + sin t * sin t = 1.
Proof. pose proof (sin2_cos2 t) as h. unfold Rsqr in h. lra. Qed.

Lemma rotate_scalar_val (t : R) (v : tri R) :
  rotate_scalar t v = T3 (cos t * tx v + sin t * ty v) (- sin t * tx v + cos t * ty v) (tr v).
Proof. unfold rotate_scalar. cbn [tx ty tr]. rnum. simpl. f_equal; ring. Qed.

Lemma rotate_spec (t : R) (v w : tri R) :
  dot2 (rotate_scalar t v) (rotate_scalar t w) = dot2 v w /\
  tr (rotate_scalar t v) = tr v /\
  rotate_scalar (- t) (rotate_scalar t v) = v.
Proof.
  rewrite !rotate_scalar_val. unfold dot2. cbn [tx ty tr].
  pose proof (cs1 t) as h. split; [|split; [reflexivity|]].
  - transitivity ((cos t * cos t + sin t * sin t) * (tx v * tx w + ty v * ty w)); [ring|]. rewrite h. ring.
  - rewrite cos_neg, sin_neg. destruct v as [x y z]. cbn [tx ty tr]. f_equal.
    + transitivity ((cos t * cos t + sin t * sin t) * x); [ring|]. rewrite h. ring.
    + transitivity ((cos t * cos t + sin t * sin t) * y); [ring|]. rewrite h. ring.
Qed.

Lemma rotate_array_spec (ts : list R) (vs : list (tri R)) :
  length ts = length vs ->
  length (rotate_array ts vs) = length vs /\
  (forall i t v, nth_error ts i = Some t -> nth_error vs i = Some v ->
     nth_error (rotate_array ts vs) i = Some (rotate_scalar t v)).
Proof.
  revert vs. induction ts as [|t ts IH]; intros [|v vs] h; try discriminate.
  - split; auto. intros [|i]; discriminate.
  - simpl in h. destruct (IH vs ltac:(lia)) as [h1 h2]. split; [simpl; f_equal; exact h1|].
    intros [|i] t0 v0 ht hv; simpl in ht, hv.
    + injection ht as ->. injection hv as ->. rewrite rotate_scalar_val. reflexivity.
    + apply h2; assumption.
Qed.

Lemma sqrt_ratio (dx dy : R) : dx <> 0 ->
  sqrt (dx * dx + dy * dy) = Rabs dx * sqrt (1 + (dy / dx)²).
Proof.
  intros h. rewrite <- (sqrt_Rsqr_abs dx). rewrite <- sqrt_mult.
  - f_equal. unfold Rsqr. field. assumption.
  - apply Rle_0_sqr.
  - pose proof (Rle_0_sqr (dy / dx)). lra.
Qed.

Lemma atan_dir (dx dy : R) : dx <> 0 ->
  let l := sqrt (dx * dx + dy * dy) in
  l * cos (atan (dy / dx)) = Rabs dx /\ l * sin (atan (dy / dx)) = Rabs dx * (dy / dx).
Proof.
  intros h l. unfold l. rewrite sqrt_ratio, cos_atan, sin_atan by assumption.
  assert (0 < sqrt (1 + (dy / dx)²)) by (apply sqrt_lt_R0; pose proof (Rle_0_sqr (dy / dx)); lra).
  split; field; lra.
Qed.

Lemma atan_angle (dx dy : R) : dx <> 0 ->
  let l := sqrt (dx * dx + dy * dy) in
  let a := (if Rlt_dec dx 0 then PI else 0) + atan (dy / dx) in
  l * cos a = dx /\ l * sin a = dy.
Proof.
  intros h l a. destruct (atan_dir dx dy h) as [h1 h2]. fold l in h1, h2. unfold a.
  destruct (Rlt_dec dx 0) as [hn|hp].
  - rewrite Rplus_comm, neg_cos, neg_sin. rewrite Rabs_left in h1, h2 by assumption.
    split; [lra|]. assert (- dx * (dy / dx) = - dy) by (field; assumption). lra.
  - rewrite Rplus_0_l. rewrite Rabs_right in h1, h2 by lra. split; [lra|].
    rewrite h2. field. assumption.
Qed.

Lemma dist_bounds (dx dy : R) : Rabs dy <= sqrt (dx * dx + dy * dy) <= Rabs dx + Rabs dy.
Proof.
  split.
  - rewrite <- (sqrt_Rsqr_abs dy). apply sqrt_le_1_alt. unfold Rsqr. nra.
  - pose proof (Rabs_pos dx). pose proof (Rabs_pos dy).
    rewrite <- (sqrt_Rsqr (Rabs dx + Rabs dy)) by lra. apply sqrt_le_1_alt. unfold Rsqr.
    assert (Rabs dx * Rabs dx = dx * dx) by (rewrite <- Rabs_mult; apply Rabs_right; nra).
    assert (Rabs dy * Rabs dy = dy * dy) by (rewrite <- Rabs_mult; apply Rabs_right; nra). nra.
Qed.

Lemma dist_dy0 (dx : R) : sqrt (dx * dx + 0 * 0) = Rabs dx.
Proof. replace (dx * dx + 0 * 0) with (Rsqr dx) by (unfold Rsqr; ring). apply sqrt_Rsqr_abs. Qed.

(** the right-angle branch: the error is at most twice the difference of the x coordinates *)
Lemma right_angle (dx dy : R) :
  let l := sqrt (dx * dx + dy * dy) in
  let a := PI / 2 * nsign dy in
  Rabs (l * cos a - dx) <= 2 * Rabs dx /\ Rabs (l * sin a - dy) <= Rabs dx /\
  (0 <= dx -> Rabs (l * cos a - dx) <= Rabs dx).
Proof.
  intros l a. unfold a. pose proof (dist_bounds dx dy) as hb. fold l in hb. pose proof (Rabs_pos dx) as hp.
  destruct (Rtotal_order dy 0) as [h|[h|h]].
  - rewrite nsign_neg by assumption. replace (PI / 2 * -1) with (- (PI / 2)) by lra.
    rewrite cos_neg, sin_neg, cos_PI2, sin_PI2. rewrite (Rabs_left dy) in hb by assumption.
    replace (l * 0 - dx) with (- dx) by lra. rewrite Rabs_Ropp. split; [lra|]. split; [|lra].
    apply Rabs_le. lra.
  - subst dy. rewrite nsign_0. replace (PI / 2 * 0) with 0 by lra. rewrite cos_0, sin_0. unfold l. rewrite dist_dy0.
    replace (Rabs dx * 0 - 0) with 0 by lra. rewrite Rabs_R0. split; [|split; [assumption|]].
    + rewrite Rmult_1_r. apply Rabs_le. pose proof (Rle_abs dx). pose proof (Rle_abs (- dx)). rewrite Rabs_Ropp in *. lra.
    + intros h0. rewrite (Rabs_right dx) by lra. replace (dx * 1 - dx) with 0 by lra. rewrite Rabs_R0. assumption.
  - rewrite nsign_pos by assumption. rewrite Rmult_1_r, cos_PI2, sin_PI2. rewrite (Rabs_right dy) in hb by lra.
    replace (l * 0 - dx) with (- dx) by lra. rewrite Rabs_Ropp. split; [lra|]. split; [|lra].
    apply Rabs_le. lra.
Qed.

Lemma math_isclose_spec (a b : R) :
  math_isclose a b = true <-> Rabs (a - b) <= 1 / 1000000000 * Rmax (Rabs a) (Rabs b).
Proof.
  unfold math_isclose. rewrite !nabs_R, ndec_R.
  assert (e : (if nleb (Rabs a) (Rabs b) then Rabs b else Rabs a) = Rmax (Rabs a) (Rabs b)).
  { destruct (nlebP (Rabs a) (Rabs b)); [rewrite Rmax_right|rewrite Rmax_left]; lra. }
  rewrite e. change (@nsub R RNum a b) with (a - b).
  match goal with |- nleb ?x ?y = true <-> _ => destruct (nlebP x y) as [h|h] end; rnum; simpl in *; split; intros; auto; try discriminate; lra.
Qed.

Lemma point_rotation_spec (p q : R * R) :
  let a := calculate_point_rotation p q in
  let l := plane_dist p q in
  (1 / 1000000000 * Rmax (Rabs (fst q)) (Rabs (fst p)) < Rabs (fst q - fst p) ->
     l * cos a = fst q - fst p /\ l * sin a = snd q - snd p) /\
  (Rabs (fst q - fst p) <= 1 / 1000000000 * Rmax (Rabs (fst q)) (Rabs (fst p)) ->
     Rabs (l * cos a - (fst q - fst p)) <= 2 * Rabs (fst q - fst p) /\
     Rabs (l * sin a - (snd q - snd p)) <= Rabs (fst q - fst p)).
Proof.
  destruct p as [x1 y1], q as [x2 y2]. cbn [fst snd]. unfold plane_dist. cbn [fst snd].
  unfold calculate_point_rotation. pose proof (math_isclose_spec x2 x1) as hm.
  destruct (math_isclose x2 x1) eqn:e.
  - split; [intros hlt; exfalso; assert (ht : true = true) by reflexivity; apply hm in ht; lra|].
    intros _. rnum. simpl. destruct (right_angle (x2 - x1) (y2 - y1)) as [h1 [h2 _]]. split; assumption.
  - split.
    + intros hlt. rnum.
      assert (hd : x2 - x1 <> 0).
      { intros h0. rewrite h0, Rabs_R0 in hlt. pose proof (Rmax_l (Rabs x2) (Rabs x1)). pose proof (Rabs_pos x2). lra. }
      pose proof (atan_angle (x2 - x1) (y2 - y1) hd) as ha. cbv zeta in ha.
      destruct (nltbP x2 x1) as [hx|hx]; destruct (Rlt_dec (x2 - x1) 0) in ha; try lra; simpl.
      * replace (0 + PI) with PI by lra. exact ha.
      * exact ha.
    + intros hle. apply hm in hle. discriminate.
Qed.

Lemma rotation1_spec (p q : R * R) :
  let a := calculate_rotation1 (p, q) in
  let l := plane_dist p q in
  (1 / 100000000 < Rabs (fst q - fst p) ->
     l * cos a = fst q - fst p /\ l * sin a = snd q - snd p) /\
  (0 <= fst q - fst p <= 1 / 100000000 ->
     Rabs (l * cos a - (fst q - fst p)) <= 1 / 100000000 /\
     Rabs (l * sin a - (snd q - snd p)) <= 1 / 100000000).
Proof.
  destruct p as [x1 y1], q as [x2 y2]. cbn [fst snd]. unfold plane_dist. cbn [fst snd].
  unfold calculate_rotation1. pose proof (np_isclose_0_spec (x2 - x1)) as hm.
  change (@nsub R RNum x2 x1) with (x2 - x1). change (@lit R RNum 0) with 0.
  destruct (np_isclose (x2 - x1) 0) eqn:e.
  - split; [intros hlt; exfalso; assert (ht : true = true) by reflexivity; apply hm in ht; lra|].
    intros [h0 h1]. destruct (nltbP x2 x1) as [hx|hx]; [lra|]. rnum. simpl.
    destruct (right_angle (x2 - x1) (y2 - y1)) as [_ [h2 h3]]. specialize (h3 h0). rewrite (Rabs_right (x2 - x1)) in h2, h3 by lra.
    split; eapply Rle_trans; eauto.
  - split.
    + intros hlt. rnum.
      assert (hd : x2 - x1 <> 0) by (intros h0; rewrite h0, Rabs_R0 in hlt; lra).
      pose proof (atan_angle (x2 - x1) (y2 - y1) hd) as ha. cbv zeta in ha.
      destruct (nltbP x2 x1) as [hx|hx]; destruct (Rlt_dec (x2 - x1) 0) in ha; try lra; simpl.
      * replace (0 + PI) with PI by lra. exact ha.
      * exact ha.
    + intros [h0 h1]. rewrite Rabs_right in hm by lra. apply hm in h1. discriminate.
Qed.

Lemma rotation1_flipped :
  let p := (0, 0) in let q := (- (1 / 1000000000), 1) in
  calculate_rotation1 (p, q) = PI / 2 + PI.
Proof.
  cbv zeta. unfold calculate_rotation1.
  change (@nsub R RNum (- (1 / 1000000000)) 0) with (- (1 / 1000000000) - 0).
  change (@nsub R RNum 1 0) with (1 - 0). change (@lit R RNum 0) with 0.
  assert (hm : np_isclose (- (1 / 1000000000) - 0) 0 = true).
  { apply np_isclose_0_spec. apply Rabs_le. lra. }
  rewrite hm. destruct (nltbP (- (1 / 1000000000)) 0) as [h|h]; [|lra].
  rewrite nsign_pos by lra. rnum. simpl. lra.
Qed.

(** ** entries of rotation matrices *)

Lemma rotation_matrix_entries (t : R) i j : (i < 6)%nat -> (j < 6)%nat ->
  rotation_matrix t i j =
  match i, j with
  | 0%nat, 0%nat | 1%nat, 1%nat | 3%nat, 3%nat | 4%nat, 4%nat => cos t
  | 0%nat, 1%nat | 3%nat, 4%nat => sin t
  | 1%nat, 0%nat | 4%nat, 3%nat => - sin t
  | 2%nat, 2%nat | 5%nat, 5%nat => 1
  | _, _ => 0
  end.
Proof.
  intros hi hj.
  do 6 (destruct i as [|i]; [do 6 (destruct j as [|j]; [reflexivity|]); lia|]). lia.
Qed.

(** transpose is the inverse *)
Lemma rotation_matrix_orthogonal (t : R) i j : (i < 6)%nat -> (j < 6)%nat ->
  mmul 6 (rotation_matrix t) (mtrans (rotation_matrix t)) i j = if Nat.eqb i j then 1 else 0.
Proof.
  intros hi hj. pose proof (cs1 t) as h. unfold mmul, mtrans. cbn [sumn]. rewrite !rotation_matrix_entries by lia.
  rnum. do 6 (destruct i as [|i]; [do 6 (destruct j as [|j]; [cbn [Nat.eqb]; nra|]); lia|]). lia.
Qed.

Definition rod_entries (k : R) (i j : nat) : R :=
  match i, j with
  | 0%nat, 0%nat | 3%nat, 3%nat => k
  | 0%nat, 3%nat | 3%nat, 0%nat => - k
  | _, _ => 0
  end.

Lemma rod_reshaped_entries (k : R) m i j : rod_spring (Some k) = Some m -> (i < 6)%nat -> (j < 6)%nat ->
  rod_reshaped m i j = rod_entries k i j.
Proof.
  intros e hi hj. injection e as <-. unfold rod_reshaped.
  do 6 (destruct i as [|i]; [do 6 (destruct j as [|j]; [reflexivity|]); lia|]). lia.
Qed.

(** global stiffness of a rod: the force is along (cos, -sin) *)
Lemma rod_global (k : R) m (p q : R * R) (u : nat -> R) :
  rod_spring (Some k) = Some m ->
  let a := calculate_rotation1 (p, q) in
  let f := mulv 6 (rotate_aux_matrix p q (rod_reshaped m)) u in
  let n := k * (cos a * (u 3%nat - u 0%nat) - sin a * (u 4%nat - u 1%nat)) in
  f 0%nat = - n * cos a /\ f 1%nat = n * sin a /\ f 2%nat = 0 /\
  f 3%nat = n * cos a /\ f 4%nat = - n * sin a /\ f 5%nat = 0.
Proof.
  intros e a f n. unfold f, mulv, rotate_aux_matrix. fold a. unfold mmul, mtrans. cbn [sumn].
  rewrite !(rod_reshaped_entries k m) by (assumption || lia). rewrite !rotation_matrix_entries by lia.
  cbn [rod_entries]. rnum. unfold n. repeat split; ring.
Qed.

(** ** rod (C25) *)

Lemma rod_spring_spec (k : R) m : rod_spring (Some k) = Some m ->
  msym 2 m /\
  (forall u, quad 2 m u = k * ((u 1%nat - u 0%nat) * (u 1%nat - u 0%nat))) /\
  (forall u, mulv 2 m u 0%nat = - (k * (u 1%nat - u 0%nat)) /\ mulv 2 m u 1%nat = k * (u 1%nat - u 0%nat)).
Proof.
  intros e. injection e as <-. split; [|split].
  - intros i j hi hj. destruct i as [|[|i]], j as [|[|j]]; try lia; reflexivity.
  - intros u. unfold quad. simpl. unfold mset, zeros. simpl. rnum. ring.
  - intros u. unfold mulv. simpl. unfold mset, zeros. simpl. rnum. split; ring.
Qed.

Lemma rod_mass_spec (mass : R) m : rod_mass (Some mass) = Some m ->
  msym 2 m /\
  quad 2 m (fun _ => 1) = mass /\
  (forall u, quad 2 m u = mass / 3 * (u 0%nat * u 0%nat + u 0%nat * u 1%nat + u 1%nat * u 1%nat)) /\
  (0 < mass -> forall u, u 0%nat <> 0 \/ u 1%nat <> 0 -> 0 < quad 2 m u).
Proof.
  intros e. injection e as <-.
  assert (hq : forall u, quad 2 (mscale (mass / 6) (mset (mset (mset (mset zeros 0 0 2) 1 0 1) 0 1 1) 1 1 2)) u
               = mass / 3 * (u 0%nat * u 0%nat + u 0%nat * u 1%nat + u 1%nat * u 1%nat)).
  { intros u. unfold quad. simpl. unfold mscale, mset, zeros. simpl. rnum. field. }
  rnum. split; [|split; [|split]].
  - intros i j hi hj. destruct i as [|[|i]], j as [|[|j]]; try lia; reflexivity.
  - rewrite hq. field.
  - exact hq.
  - intros hm u hu. rewrite hq. apply Rmult_lt_0_compat; [lra|].
    pose proof (sqr_ge (u 0%nat + u 1%nat)). pose proof (sqr_ge (u 0%nat)). pose proof (sqr_ge (u 1%nat)).
    destruct hu as [hu|hu]; apply sqr_gt in hu; lra.
Qed.

(** ** beam entries *)

Lemma reshape_all3 (m : nat -> nat -> R) i j : (i < 6)%nat -> (j < 6)%nat ->
  me (reshape_aux_matrix 2 [true; true; true] m) i j = m i j.
Proof. intros. apply reshape_all_active; auto. Qed.

Definition stiff_entries (EA l EI phi a1 a2 : R) (i j : nat) : R :=
  let c := EI / ((1 + phi) * (l * l * l)) in
  let d := 4 - a1 * a2 in
  let axial := EA / l in
  let r := (a1 + a2 + a1 * a2) / d in
  let r1 := (2 * a1 + a1 * a2) / d in
  let r2 := (2 * a2 + a1 * a2) / d in
  match i, j with
  | 0%nat, 0%nat | 3%nat, 3%nat => axial
  | 0%nat, 3%nat | 3%nat, 0%nat => - axial
  | 1%nat, 1%nat | 4%nat, 4%nat => 12 * r * c
  | 1%nat, 4%nat | 4%nat, 1%nat => - 12 * r * c
  | 1%nat, 2%nat | 2%nat, 1%nat => 6 * l * r1 * c
  | 1%nat, 5%nat | 5%nat, 1%nat => 6 * l * r2 * c
  | 2%nat, 4%nat | 4%nat, 2%nat => - 6 * l * r1 * c
  | 4%nat, 5%nat | 5%nat, 4%nat => - 6 * l * r2 * c
  | 2%nat, 2%nat => (4 + phi) * (l * l) * (3 * a1 / d) * c
  | 5%nat, 5%nat => (4 + phi) * (l * l) * (3 * a2 / d) * c
  | 2%nat, 5%nat | 5%nat, 2%nat => (2 - phi) * (l * l) * (3 * a1 * a2 / d) * c
  | _, _ => 0
  end.

Lemma fixity_range (EI l : R) s : 0 < EI -> 0 < l -> 0 <= fixity EI l s <= 1.
Proof.
  intros h1 h2. destruct s as [s|]; cbn [fixity]; rnum.
  - destruct (nltbP 0 s) as [hs|hs]; [|lra].
    assert (0 < 3 * EI / (s * l)) by (apply Rdiv_lt_0_compat; nra).
    split; [apply Rlt_le, Rdiv_lt_0_compat; lra|]. apply (Rmult_le_reg_r (1 + 3 * EI / (s * l))); [lra|].
    unfold Rdiv at 1. rewrite Rmult_assoc, Rinv_l by lra. lra.
  - lra.
Qed.

Lemma beam_stiffness_entries (b : beam R) (phi : R) i j :
  0 < b_E b -> 0 < b_I b -> 0 < b_l b -> 0 <= phi -> (i < 6)%nat -> (j < 6)%nat ->
  beam_stiffness b phi i j =
  stiff_entries (b_E b * b_A b) (b_l b) (b_E b * b_I b) phi
    (fixity (b_E b * b_I b) (b_l b) (b_s1 b)) (fixity (b_E b * b_I b) (b_l b) (b_s2 b)) i j.
Proof.
  intros hE hI hl hp hi hj. unfold beam_stiffness. rewrite reshape_all3 by assumption. unfold mscale.
  pose proof (fixity_range (b_E b * b_I b) (b_l b) (b_s1 b) ltac:(nra) hl) as h1.
  pose proof (fixity_range (b_E b * b_I b) (b_l b) (b_s2 b) ltac:(nra) hl) as h2. revert h1 h2. rnum.
  generalize (fixity (b_E b * b_I b) (b_l b) (b_s1 b)) (fixity (b_E b * b_I b) (b_l b) (b_s2 b)).
  intros a1 a2 h1 h2. assert (hd : 4 - a1 * a2 <> 0) by nra. assert (hq : 1 + phi <> 0) by lra.
  assert (hI' : b_I b <> 0) by lra. assert (hl' : b_l b <> 0) by lra.
  do 6 (destruct i as [|i]; [do 6 (destruct j as [|j]; [cbn; unfold sq, cube; rnum; unfold stiff_entries; field; repeat split; assumption|]); lia|]). lia.
Qed.

(** expansion of the energy of a matrix given by its entries *)
Lemma quad_ext6 (m e : nat -> nat -> R) u : (forall i j, (i < 6)%nat -> (j < 6)%nat -> m i j = e i j) -> quad 6 m u = quad 6 e u.
Proof. intros h. apply quad_ext. exact h. Qed.
Lemma mulv_ext6 (m e : nat -> nat -> R) u i : (forall i j, (i < 6)%nat -> (j < 6)%nat -> m i j = e i j) -> (i < 6)%nat -> mulv 6 m u i = mulv 6 e u i.
Proof. intros h hi. unfold mulv. apply sumn_ext. intros j hj. rewrite h by assumption. reflexivity. Qed.

(** ** beam stiffness (C17, C18) *)

Lemma stiff_entries_sym EA l EI phi a1 a2 i j : stiff_entries EA l EI phi a1 a2 i j = stiff_entries EA l EI phi a1 a2 j i.
Proof. do 6 (destruct i as [|i]; [do 6 (destruct j as [|j]; [reflexivity|]); destruct j; reflexivity|]); destruct i; do 6 (destruct j as [|j]; [reflexivity|]); reflexivity. Qed.

Lemma stiff_energy EA l EI phi a1 a2 (u : nat -> R) :
  l <> 0 -> 1 + phi <> 0 -> 4 - a1 * a2 <> 0 ->
  let p1 := u 2%nat + (u 1%nat - u 4%nat) / l in
  let p2 := u 5%nat + (u 1%nat - u 4%nat) / l in
  quad 6 (stiff_entries EA l EI phi a1 a2) u =
    EA / l * ((u 3%nat - u 0%nat) * (u 3%nat - u 0%nat)) +
    12 * EI / ((1 + phi) * l * (4 - a1 * a2)) * (a1 * (p1 * p1) + a1 * a2 * (p1 * p2) + a2 * (p2 * p2)) +
    3 * phi * EI / ((1 + phi) * l * (4 - a1 * a2)) *
      (a1 * (u 2%nat * u 2%nat) - 2 * (a1 * a2) * (u 2%nat * u 5%nat) + a2 * (u 5%nat * u 5%nat)).
Proof.
  intros h1 h2 h3 p1 p2. unfold quad. cbn [sumn]. cbn [stiff_entries]. rnum. unfold p1, p2. field. auto.
Qed.

Lemma form_nonneg (a1 a2 x y : R) : 0 <= a1 <= 1 -> 0 <= a2 <= 1 ->
  0 <= a1 * (x * x) + a1 * a2 * (x * y) + a2 * (y * y) /\
  0 <= a1 * (x * x) - 2 * (a1 * a2) * (x * y) + a2 * (y * y).
Proof.
  intros h1 h2. pose proof (sqr_ge x) as hx. pose proof (sqr_ge y) as hy.
  assert (h12 : 0 <= a1 * a2) by (apply Rmult_le_pos; lra).
  assert (b1 : a1 * a2 * (x * x) <= a1 * (x * x)) by (apply Rmult_le_compat_r; [assumption|nra]).
  assert (b2 : a1 * a2 * (y * y) <= a2 * (y * y)) by (apply Rmult_le_compat_r; [assumption|nra]).
  split.
  - assert (0 <= a1 * a2 * ((x + y) * (x + y) + x * x + y * y)).
    { apply Rmult_le_pos; [assumption|]. pose proof (sqr_ge (x + y)). lra. }
    lra.
  - assert (0 <= a1 * a2 * ((x - y) * (x - y))).
    { apply Rmult_le_pos; [assumption|]. apply sqr_ge. }
    lra.
Qed.

Lemma stiff_psd EA l EI phi a1 a2 u : 0 < EA -> 0 < l -> 0 < EI -> 0 <= phi -> 0 <= a1 <= 1 -> 0 <= a2 <= 1 ->
  0 <= quad 6 (stiff_entries EA l EI phi a1 a2) u.
Proof.
  intros hA hl hI hp h1 h2. assert (hd : 0 < 4 - a1 * a2) by nra.
  rewrite stiff_energy by nra. cbv zeta.
  set (p1 := u 2%nat + _). set (p2 := u 5%nat + _).
  destruct (form_nonneg a1 a2 p1 p2 h1 h2) as [f1 _]. destruct (form_nonneg a1 a2 (u 2%nat) (u 5%nat) h1 h2) as [_ f2].
  assert (0 < (1 + phi) * l * (4 - a1 * a2)) by (repeat apply Rmult_lt_0_compat; lra).
  apply Rplus_le_le_0_compat; [apply Rplus_le_le_0_compat|]; apply Rmult_le_pos; try assumption.
  - apply Rlt_le, Rdiv_lt_0_compat; lra.
  - apply sqr_ge.
  - apply Rlt_le, Rdiv_lt_0_compat; lra.
  - apply Rmult_le_pos; [nra|]. apply Rlt_le, Rinv_0_lt_compat. assumption.
Qed.

(** fixed ends *)
Lemma stiff_energy_rigid EA l EI phi (u : nat -> R) :
  l <> 0 -> 1 + phi <> 0 ->
  let g := u 1%nat - u 4%nat + l * (u 2%nat + u 5%nat) / 2 in
  quad 6 (stiff_entries EA l EI phi 1 1) u =
    EA / l * ((u 3%nat - u 0%nat) * (u 3%nat - u 0%nat)) +
    EI / l * ((u 5%nat - u 2%nat) * (u 5%nat - u 2%nat)) +
    12 * EI / ((1 + phi) * (l * l * l)) * (g * g).
Proof. intros h1 h2 g. rewrite stiff_energy by lra. cbv zeta. unfold g. field. auto. Qed.

Lemma stiff_rigid_motion EA l EI phi (u : nat -> R) i :
  l <> 0 -> 1 + phi <> 0 -> (i < 6)%nat -> rigid_motion l u -> mulv 6 (stiff_entries EA l EI phi 1 1) u i = 0.
Proof.
  intros h1 h2 hi [e1 [e2 e3]]. unfold mulv. cbn [sumn]. rewrite e1, e2, e3. rnum.
  do 6 (destruct i as [|i]; [cbn [stiff_entries]; field; auto|]). lia.
Qed.

Lemma stiff_zero_energy EA l EI phi (u : nat -> R) :
  0 < EA -> 0 < l -> 0 < EI -> 0 <= phi ->
  quad 6 (stiff_entries EA l EI phi 1 1) u = 0 -> rigid_motion l u.
Proof.
  intros hA hl hI hp hq. rewrite stiff_energy_rigid in hq by lra. cbv zeta in hq.
  set (g := u 1%nat - _ + _) in hq.
  assert (c1 : 0 < EA / l) by (apply Rdiv_lt_0_compat; lra).
  assert (c2 : 0 < EI / l) by (apply Rdiv_lt_0_compat; lra).
  assert (c3 : 0 < 12 * EI / ((1 + phi) * (l * l * l))).
  { apply Rdiv_lt_0_compat; [lra|]. repeat apply Rmult_lt_0_compat; lra. }
  assert (z : forall c x, 0 < c -> 0 <= c * (x * x) /\ (c * (x * x) = 0 -> x = 0)).
  { intros c x hc. split.
    - apply Rmult_le_pos; [lra|apply sqr_ge].
    - intros h. destruct (Req_dec x 0) as [|hx]; auto. apply sqr_gt in hx. nra. }
  destruct (z _ (u 3%nat - u 0%nat) c1) as [z1 z1']. destruct (z _ (u 5%nat - u 2%nat) c2) as [z2 z2'].
  destruct (z _ g c3) as [z3 z3'].
  assert (e1 : u 3%nat - u 0%nat = 0) by (apply z1'; lra).
  assert (e2 : u 5%nat - u 2%nat = 0) by (apply z2'; lra).
  assert (e3 : g = 0) by (apply z3'; lra). unfold g in e3.
  split; [lra|]. split; [lra|]. replace (u 5%nat) with (u 2%nat) in e3 by lra. lra.
Qed.

Section BeamStiffness.
  Variable b : beam R.
  Variable phi : R.
  Hypothesis hE : 0 < b_E b.
  Hypothesis hI : 0 < b_I b.
  Hypothesis hA : 0 < b_A b.
  Hypothesis hl : 0 < b_l b.
  Hypothesis hphi : 0 <= phi.

  Let a1 := fixity (b_E b * b_I b) (b_l b) (b_s1 b).
  Let a2 := fixity (b_E b * b_I b) (b_l b) (b_s2 b).
  Let EI0 : 0 < b_E b * b_I b. Proof. apply Rmult_lt_0_compat; assumption. Qed.
  Let EA0 : 0 < b_E b * b_A b. Proof. apply Rmult_lt_0_compat; assumption. Qed.

  Lemma entries i j : (i < 6)%nat -> (j < 6)%nat ->
    beam_stiffness b phi i j = stiff_entries (b_E b * b_A b) (b_l b) (b_E b * b_I b) phi a1 a2 i j.
  Proof. intros. apply beam_stiffness_entries; assumption. Qed.

  Lemma stiffness_sym : msym 6 (beam_stiffness b phi).
  Proof. intros i j hi hj. rewrite !entries by assumption. apply stiff_entries_sym. Qed.

  Lemma stiffness_psd : psd 6 (beam_stiffness b phi).
  Proof.
    intros u. rewrite (quad_ext6 _ _ u entries). apply stiff_psd; auto; apply fixity_range; auto.
  Qed.

  (** a translation gives no force *)
  Lemma stiffness_translation ux uy i : (i < 6)%nat -> mulv 6 (beam_stiffness b phi) (vec6 ux uy 0 ux uy 0) i = 0.
  Proof.
    intros hi. rewrite (mulv_ext6 _ _ _ i entries hi). unfold mulv. cbn [sumn vec6]. rnum.
    do 6 (destruct i as [|i]; [cbn [stiff_entries]; unfold Rdiv; ring|]). lia.
  Qed.

  Lemma stiffness_energy u :
    let p1 := u 2%nat + (u 1%nat - u 4%nat) / b_l b in
    let p2 := u 5%nat + (u 1%nat - u 4%nat) / b_l b in
    quad 6 (beam_stiffness b phi) u =
      b_E b * b_A b / b_l b * ((u 3%nat - u 0%nat) * (u 3%nat - u 0%nat)) +
      12 * (b_E b * b_I b) / ((1 + phi) * b_l b * (4 - a1 * a2)) * (a1 * (p1 * p1) + a1 * a2 * (p1 * p2) + a2 * (p2 * p2)) +
      3 * phi * (b_E b * b_I b) / ((1 + phi) * b_l b * (4 - a1 * a2)) *
        (a1 * (u 2%nat * u 2%nat) - 2 * (a1 * a2) * (u 2%nat * u 5%nat) + a2 * (u 5%nat * u 5%nat)).
  Proof.
    rewrite (quad_ext6 _ _ u entries).
    assert (h1 : 0 <= a1 <= 1) by (apply fixity_range; assumption).
    assert (h2 : 0 <= a2 <= 1) by (apply fixity_range; assumption). apply stiff_energy; [lra|lra|nra].
  Qed.
End BeamStiffness.

Lemma fixity_none (EI l : R) : fixity EI l None = 1.
Proof. cbn [fixity]. rnum. field. Qed.
Lemma fixity_zero (EI l : R) : fixity EI l (Some 0) = 0.
Proof. cbn [fixity]. rnum. destruct (nltbP 0 0); [lra|reflexivity]. Qed.

Lemma fixed_entries (b : beam R) phi i j : fixed_ends b -> 0 < b_E b -> 0 < b_I b -> 0 < b_l b -> 0 <= phi ->
  (i < 6)%nat -> (j < 6)%nat ->
  beam_stiffness b phi i j = stiff_entries (b_E b * b_A b) (b_l b) (b_E b * b_I b) phi 1 1 i j.
Proof. intros [h1 h2] ? ? ? ? ? ?. rewrite beam_stiffness_entries by assumption. rewrite h1, h2, fixity_none. reflexivity. Qed.

Lemma beam_fixed_spec (b : beam R) phi :
  fixed_ends b -> 0 < b_E b -> 0 < b_I b -> 0 < b_A b -> 0 < b_l b -> 0 <= phi ->
  let k := beam_stiffness b phi in
  msym 6 k /\ psd 6 k /\
  (forall u, rigid_motion (b_l b) u -> forall i, (i < 6)%nat -> mulv 6 k u i = 0) /\
  (forall u, quad 6 k u = 0 -> rigid_motion (b_l b) u) /\
  (forall u, let l := b_l b in let g := u 1%nat - u 4%nat + l * (u 2%nat + u 5%nat) / 2 in
     quad 6 k u = b_E b * b_A b / l * ((u 3%nat - u 0%nat) * (u 3%nat - u 0%nat)) +
       b_E b * b_I b / l * ((u 5%nat - u 2%nat) * (u 5%nat - u 2%nat)) +
       12 * (b_E b * b_I b) / ((1 + phi) * (l * l * l)) * (g * g)).
Proof.
  intros hf hE hI hA hl hp k.
  assert (he : forall i j, (i < 6)%nat -> (j < 6)%nat -> k i j = stiff_entries (b_E b * b_A b) (b_l b) (b_E b * b_I b) phi 1 1 i j)
    by (intros; apply fixed_entries; assumption).
  split; [|split; [|split; [|split]]].
  - apply stiffness_sym; assumption.
  - apply stiffness_psd; assumption.
  - intros u hr i hi. rewrite (mulv_ext6 _ _ u i he hi). apply stiff_rigid_motion; auto; lra.
  - intros u hq. rewrite (quad_ext6 _ _ u he) in hq. apply stiff_zero_energy in hq; auto; apply Rmult_lt_0_compat; assumption.
  - intros u l g. rewrite (quad_ext6 _ _ u he). apply stiff_energy_rigid; unfold l; lra.
Qed.

(** zero rotational stiffness at an end: no end moment there *)
Lemma beam_hinged_spec (b : beam R) phi :
  0 < b_E b -> 0 < b_I b -> 0 < b_l b -> 0 <= phi ->
  (b_s1 b = Some 0 -> forall u, mulv 6 (beam_stiffness b phi) u 2%nat = 0) /\
  (b_s2 b = Some 0 -> forall u, mulv 6 (beam_stiffness b phi) u 5%nat = 0).
Proof.
  intros hE hI hl hp.
  split; intros hs u; unfold mulv; cbn [sumn]; rewrite !beam_stiffness_entries by (assumption || lia);
    rewrite hs, fixity_zero; cbn [stiff_entries]; unfold Rdiv; rnum; ring.
Qed.

(** limits: the spring stiffness grows *)
Lemma fixity_limit (EI l eps : R) : 0 < EI -> 0 < l -> 0 < eps ->
  exists s0, 0 < s0 /\ forall s, s0 < s -> Rabs (fixity EI l (Some s) - 1) < eps.
Proof.
  intros hE hl he. exists (3 * EI / (l * eps)). split; [apply Rdiv_lt_0_compat; nra|].
  intros s hs. assert (h0 : 0 < 3 * EI / (l * eps)) by (apply Rdiv_lt_0_compat; nra).
  cbn [fixity]. rnum. destruct (nltbP 0 s) as [hp|hp]; [|lra].
  set (x := 3 * EI / (s * l)). assert (hx : 0 < x) by (unfold x; apply Rdiv_lt_0_compat; nra).
  assert (hxe : x < eps).
  { unfold x. apply (Rmult_lt_reg_r (s * l)); [nra|]. unfold Rdiv. rewrite Rmult_assoc, Rinv_l by nra.
    apply (Rmult_lt_compat_r (l * eps)) in hs; [|nra]. unfold Rdiv in hs. rewrite Rmult_assoc, Rinv_l in hs by nra. nra. }
  replace (1 / (1 + x) - 1) with (- (x / (1 + x))) by (field; lra). rewrite Rabs_Ropp, Rabs_right.
  - apply Rle_lt_trans with x; [|assumption]. apply (Rmult_le_reg_r (1 + x)); [lra|]. unfold Rdiv. rewrite Rmult_assoc, Rinv_l by lra. nra.
  - apply Rle_ge, Rlt_le, Rdiv_lt_0_compat; lra.
Qed.

(** rigid rotation with springs: no energy without shear deformation *)
Lemma beam_springs_rotation (b : beam R) (u : nat -> R) i :
  0 < b_E b -> 0 < b_I b -> 0 < b_l b -> rigid_motion (b_l b) u -> (i < 6)%nat ->
  mulv 6 (beam_stiffness b 0) u i = 0.
Proof.
  intros hE hI hl [e1 [e2 e3]] hi.
  pose proof (fixity_range (b_E b * b_I b) (b_l b) (b_s1 b) ltac:(nra) hl).
  pose proof (fixity_range (b_E b * b_I b) (b_l b) (b_s2 b) ltac:(nra) hl).
  unfold mulv. cbn [sumn]. rewrite !beam_stiffness_entries by (assumption || lia || lra). rewrite e1, e2, e3. rnum.
  revert H H0. generalize (fixity (b_E b * b_I b) (b_l b) (b_s1 b)) (fixity (b_E b * b_I b) (b_l b) (b_s2 b)).
  intros a1 a2 h1 h2. assert (hd : 4 - a1 * a2 <> 0) by nra. assert (b_l b <> 0) by lra.
  do 6 (destruct i as [|i]; [cbn [stiff_entries]; field; auto|]). lia.
Qed.
