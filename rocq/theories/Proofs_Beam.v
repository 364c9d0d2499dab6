From Coq Require Import Reals List Bool ZArith Arith Lia Lra Psatz.
From Verif Require Import Num PyBase Model_Geometry Model_System Model_Element Spec_System Spec_Element Proofs_System Proofs_Element.
Import ListNotations.
Local Open Scope R_scope.

(** ** beam mass (C19) *)

Definition trans_entries (l phi : R) (i j : nat) : R :=
  let q := phi * phi in
  match i, j with
  | 0%nat, 0%nat | 3%nat, 3%nat => 70 * ((1 + phi) * (1 + phi))
  | 0%nat, 3%nat | 3%nat, 0%nat => 35 * ((1 + phi) * (1 + phi))
  | 1%nat, 1%nat | 4%nat, 4%nat => 70 * q + 147 * phi + 78
  | 1%nat, 4%nat | 4%nat, 1%nat => 35 * q + 63 * phi + 27
  | 1%nat, 2%nat | 2%nat, 1%nat => (35 * q + 77 * phi + 44) * l / 4
  | 1%nat, 5%nat | 5%nat, 1%nat => - (35 * q + 63 * phi + 26) * l / 4
  | 2%nat, 2%nat | 5%nat, 5%nat => (7 * q + 14 * phi + 8) * (l * l / 4)
  | 2%nat, 5%nat | 5%nat, 2%nat => - (7 * q + 14 * phi + 6) * (l * l / 4)
  | 2%nat, 4%nat | 4%nat, 2%nat => (35 * q + 63 * phi + 26) * (l / 4)
  | 4%nat, 5%nat | 5%nat, 4%nat => - (35 * q + 77 * phi + 44) * (l / 4)
  | _, _ => 0
  end.

Definition rot_entries (l phi : R) (i j : nat) : R :=
  let q := phi * phi in
  match i, j with
  | 1%nat, 1%nat | 4%nat, 4%nat => 36
  | 1%nat, 4%nat | 4%nat, 1%nat => - 36
  | 1%nat, 2%nat | 2%nat, 1%nat | 1%nat, 5%nat | 5%nat, 1%nat => - (15 * phi - 3) * l
  | 2%nat, 2%nat | 5%nat, 5%nat => (10 * q + 5 * phi + 4) * (l * l)
  | 2%nat, 5%nat | 5%nat, 2%nat => (5 * q - 5 * phi - 1) * (l * l)
  | 2%nat, 4%nat | 4%nat, 2%nat | 4%nat, 5%nat | 5%nat, 4%nat => (15 * phi - 3) * l
  | _, _ => 0
  end.

Definition mass_entries (b : beam R) (phi : R) (i j : nat) : R :=
  trans_entries (b_l b) phi i j * (b_rho b * b_A b * b_l b / (210 * ((1 + phi) * (1 + phi)))) +
  (if Req_EM_T phi 0 then 0 else rot_entries (b_l b) phi i j * (b_rho b * b_I b / (30 * ((1 + phi) * (1 + phi)) * b_l b))).

Lemma beam_mass_entries (b : beam R) (phi : R) i j : (i < 6)%nat -> (j < 6)%nat ->
  beam_mass b phi i j = mass_entries b phi i j.
Proof.
  intros hi hj. unfold beam_mass, mass_entries, trans_mass, rot_mass. rnum.
  destruct (neqbP phi 0) as [h|h]; destruct (Req_EM_T phi 0); try contradiction; cbn [negb]; unfold mscale;
    rewrite !reshape_all3 by assumption; [rewrite Rplus_0_r; f_equal|f_equal; f_equal];
    do 6 (destruct i as [|i]; [do 6 (destruct j as [|j]; [reflexivity|]); lia|]); lia.
Qed.

Lemma beam_mass_sym (b : beam R) phi : msym 6 (beam_mass b phi).
Proof.
  intros i j hi hj. rewrite !beam_mass_entries by assumption. unfold mass_entries. f_equal.
  - f_equal. do 6 (destruct i as [|i]; [do 6 (destruct j as [|j]; [reflexivity|]); lia|]); lia.
  - destruct (Req_EM_T phi 0); auto. f_equal. do 6 (destruct i as [|i]; [do 6 (destruct j as [|j]; [reflexivity|]); lia|]); lia.
Qed.

Lemma quad_lin6 (e f : nat -> nat -> R) a c u :
  quad 6 (fun i j => e i j * a + f i j * c) u = quad 6 e u * a + quad 6 f u * c.
Proof. unfold quad. cbn [sumn]. rnum. ring. Qed.

(** coefficients of the transverse displacement and of the rotation along the element, in shifted Legendre
    polynomials (up to the factor 1 + phi) *)
Section Energy.
  Variables l phi : R.
  Variable u : nat -> R.
  Let v1 := u 1%nat. Let t1 := u 2%nat. Let v2 := u 4%nat. Let t2 := u 5%nat.
  Let w0 := (1 + phi) * v1.
  Let w1 := - phi * v1 + l * (1 + phi / 2) * t1 + phi * v2 - l * (phi / 2) * t2.
  Let w2 := - 3 * v1 - l * (2 + phi / 2) * t1 + 3 * v2 - l * (1 - phi / 2) * t2.
  Let w3 := 2 * v1 + l * t1 - 2 * v2 + l * t2.
  Let c3 := w3 / 20.
  Let c2 := (w2 + 30 * c3) / 6.
  Let c1 := (w1 + 6 * c2 - 12 * c3) / 2.
  Let c0 := w0 + c1 - c2 + c3.

  Lemma trans_energy :
    quad 6 (trans_entries l phi) u =
    70 * ((1 + phi) * (1 + phi)) * (u 0%nat * u 0%nat + u 0%nat * u 3%nat + u 3%nat * u 3%nat) +
    210 * (c0 * c0 + c1 * c1 / 3 + c2 * c2 / 5 + c3 * c3 / 7).
  Proof.
    unfold quad. cbn [sumn trans_entries]. rnum. unfold c0, c1, c2, c3, w0, w1, w2, w3, v1, t1, v2, t2. field.
  Qed.

  Let r0 := l * (1 + phi) * t1.
  Let r1 := - 6 * v1 - l * (4 + phi) * t1 + 6 * v2 + l * (phi - 2) * t2.
  Let r2 := 6 * v1 + 3 * l * t1 - 6 * v2 + 3 * l * t2.
  Let d2 := r2 / 6.
  Let d1 := (r1 + 6 * d2) / 2.
  Let d0 := r0 + d1 - d2.

  Lemma rot_energy : quad 6 (rot_entries l phi) u = 30 * (d0 * d0 + d1 * d1 / 3 + d2 * d2 / 5).
  Proof.
    unfold quad. cbn [sumn rot_entries]. rnum. unfold d0, d1, d2, r0, r1, r2, v1, t1, v2, t2. field.
  Qed.

  Lemma trans_nonneg : 0 <= quad 6 (trans_entries l phi) u.
  Proof.
    rewrite trans_energy. pose proof (sqr_ge c0). pose proof (sqr_ge c1). pose proof (sqr_ge c2). pose proof (sqr_ge c3).
    assert (0 <= ((1 + phi) * (1 + phi)) * (u 0%nat * u 0%nat + u 0%nat * u 3%nat + u 3%nat * u 3%nat)).
    { apply Rmult_le_pos; [apply sqr_ge|]. pose proof (sqr_ge (u 0%nat + u 3%nat)). pose proof (sqr_ge (u 0%nat)). pose proof (sqr_ge (u 3%nat)). lra. }
    lra.
  Qed.
  Lemma rot_nonneg : 0 <= quad 6 (rot_entries l phi) u.
  Proof. rewrite rot_energy. pose proof (sqr_ge d0). pose proof (sqr_ge d1). pose proof (sqr_ge d2). lra. Qed.
End Energy.

Lemma quad_mass (b : beam R) phi u :
  quad 6 (beam_mass b phi) u =
  quad 6 (trans_entries (b_l b) phi) u * (b_rho b * b_A b * b_l b / (210 * ((1 + phi) * (1 + phi)))) +
  (if Req_EM_T phi 0 then 0 else quad 6 (rot_entries (b_l b) phi) u * (b_rho b * b_I b / (30 * ((1 + phi) * (1 + phi)) * b_l b))).
Proof.
  rewrite (quad_ext6 _ (mass_entries b phi) u) by (intros; apply beam_mass_entries; assumption).
  unfold mass_entries. destruct (Req_EM_T phi 0).
  - rewrite (quad_ext6 _ (fun i j => trans_entries (b_l b) phi i j * (b_rho b * b_A b * b_l b / (210 * ((1 + phi) * (1 + phi)))) + trans_entries (b_l b) phi i j * 0)).
    + rewrite quad_lin6. ring.
    + intros. ring.
  - apply quad_lin6.
Qed.

Lemma beam_mass_psd (b : beam R) phi : 0 <= b_rho b -> 0 <= b_A b -> 0 <= b_I b -> 0 < b_l b -> 0 <= phi -> psd 6 (beam_mass b phi).
Proof.
  intros hr hA hI hl hp u. rewrite quad_mass. assert (0 < (1 + phi) * (1 + phi)) by (apply Rmult_lt_0_compat; lra).
  assert (h0 : forall x y, 0 <= x -> 0 < y -> 0 <= x / y).
  { intros x y hx hy. apply Rmult_le_pos; [assumption|]. apply Rlt_le, Rinv_0_lt_compat. assumption. }
  apply Rplus_le_le_0_compat.
  - apply Rmult_le_pos; [apply trans_nonneg|]. apply h0; [|lra]. repeat apply Rmult_le_pos; lra.
  - destruct (Req_EM_T phi 0); [lra|]. apply Rmult_le_pos; [apply rot_nonneg|]. apply h0; [apply Rmult_le_pos; assumption|]. nra.
Qed.


Lemma beam_mass_rigid (b : beam R) phi ux uy t : b_l b <> 0 -> 1 + phi <> 0 ->
  let m := b_rho b * b_A b * b_l b in
  quad 6 (beam_mass b phi) (rigid6 (b_l b) ux uy t) =
  m * (ux * ux) + m * (uy * uy) + m * b_l b * (uy * t) +
  (m * (b_l b * b_l b) / 3 + (if Req_EM_T phi 0 then 0 else b_rho b * b_I b * b_l b)) * (t * t).
Proof.
  intros hl hp m. rewrite quad_mass. unfold quad. cbn [sumn trans_entries rot_entries rigid6 vec6]. rnum. unfold m.
  destruct (Req_EM_T phi 0); field; repeat split; assumption.
Qed.

(** ** shape functions (C20, C21) *)

Lemma cubic_deriv (a b c d x : R) :
  derivable_pt_lim (fun x => a + b * x + c * (x * x) + d * (x * x * x)) x (b + 2 * c * x + 3 * d * (x * x)).
Proof.
  replace (b + 2 * c * x + 3 * d * (x * x)) with
    (0 + b * 1 + c * (1 * x + x * 1) + d * ((1 * x + x * 1) * x + (x * x) * 1)) by ring.
  repeat apply derivable_pt_lim_plus.
  - apply derivable_pt_lim_const.
  - apply (derivable_pt_lim_scal id). apply derivable_pt_lim_id.
  - apply (derivable_pt_lim_scal (fun x => x * x)). apply (derivable_pt_lim_mult id id); apply derivable_pt_lim_id.
  - apply (derivable_pt_lim_scal (fun x => x * x * x)).
    apply (derivable_pt_lim_mult (fun x => x * x) id).
    + apply (derivable_pt_lim_mult id id); apply derivable_pt_lim_id.
    + apply derivable_pt_lim_id.
Qed.

Lemma deriv_ext (f g : R -> R) x d : (forall y, f y = g y) -> derivable_pt_lim f x d -> derivable_pt_lim g x d.
Proof. intros h hd e he. destruct (hd e he) as [del hdel]. exists del. intros y h0 h1. rewrite <- !h. apply hdel; assumption. Qed.

Ltac cubic_shape a b c d :=
  match goal with |- derivable_pt_lim ?f ?x ?g =>
    replace g with (b + 2 * c * x + 3 * d * (x * x));
    [apply (deriv_ext (fun y => a + b * y + c * (y * y) + d * (y * y * y))); [intros y|apply cubic_deriv]|] end.

Lemma z_rot_is_derivative (l phi x : R) k : l <> 0 -> 1 + phi <> 0 ->
  derivable_pt_lim (fun x => y_shape l phi x k) x (z_rot_shape l phi x k).
Proof.
  intros hl hp. destruct k as [|[|[|[|k]]]]; unfold y_shape, z_rot_shape, sq, cube; rnum.
  - cubic_shape (1 : R) (- phi / (l * (1 + phi))) (- 3 / (l * l * (1 + phi))) (2 / (l * l * l * (1 + phi))); field; auto.
  - cubic_shape (0 : R) ((1 + phi / (2 * l)) / (1 + phi)) ((- 2 / l - phi / (2 * (l * l))) / (1 + phi)) (1 / (l * l * (1 + phi))); field; auto.
  - cubic_shape (0 : R) (phi / (l * (1 + phi))) (3 / (l * l * (1 + phi))) (- 2 / (l * l * l * (1 + phi))); field; auto.
  - cubic_shape (0 : R) (- phi / (2 * l * (1 + phi))) ((- 1 / l + phi / (2 * (l * l))) / (1 + phi)) (1 / (l * l * (1 + phi))); field; auto.
  - apply derivable_pt_lim_const.
Qed.

Lemma y_shape_ends (l phi v1 t1 v2 t2 : R) : l <> 0 -> 1 + phi <> 0 ->
  interp (y_shape l phi 0) v1 t1 v2 t2 = v1 /\ interp (y_shape l phi l) v1 t1 v2 t2 = v2.
Proof. intros hl hp. unfold interp, y_shape, sq, cube. rnum. split; field; auto. Qed.

Lemma y_shape_rigid (l phi x v t : R) : l <> 0 -> 1 + phi <> 0 ->
  interp (y_shape l phi x) v t (v + l * t) t = v + x * t.
Proof. intros hl hp. unfold interp, y_shape, sq, cube. rnum. field; auto. Qed.

Lemma z_rot_rigid (l phi x v t : R) : l <> 0 -> 1 + phi <> 0 ->
  interp (z_rot_shape l phi x) v t (v + l * t) t = t.
Proof. intros hl hp. unfold interp, z_rot_shape, sq, cube. rnum. field; auto. Qed.

Lemma normal_shape_spec (l x u1 u2 : R) : l <> 0 ->
  fst (normal_shape l x) + snd (normal_shape l x) = 1 /\
  fst (normal_shape l x) * u1 + snd (normal_shape l x) * u2 = u1 + x * ((u2 - u1) / l).
Proof. intros hl. cbn. rnum. split; field; auto. Qed.

Lemma y_shape_scaling (l phi x c : R) : l <> 0 -> 1 + phi <> 0 -> c <> 0 ->
  y_shape (c * l) phi (c * x) 0 = y_shape l phi x 0 /\ y_shape (c * l) phi (c * x) 2 = y_shape l phi x 2.
Proof. intros hl hp hc. unfold y_shape, sq, cube. rnum. split; field; auto. Qed.

Lemma y_shape_scaling_rot (l x c : R) : l <> 0 -> c <> 0 ->
  y_shape (c * l) 0 (c * x) 1 = c * y_shape l 0 x 1 /\ y_shape (c * l) 0 (c * x) 3 = c * y_shape l 0 x 3.
Proof. intros hl hc. unfold y_shape, sq, cube. rnum. split; field; auto. Qed.

(** how far the rotation functions are from being scale free *)
Lemma y_shape_scaling_gap (l phi x c : R) : l <> 0 -> 1 + phi <> 0 -> c <> 0 ->
  y_shape (c * l) phi (c * x) 1 - c * y_shape l phi x 1 = (1 - c) * (phi / 2 * (x / l - (x / l) * (x / l)) / (1 + phi)) /\
  y_shape (c * l) phi (c * x) 3 - c * y_shape l phi x 3 = - ((1 - c) * (phi / 2 * (x / l - (x / l) * (x / l)) / (1 + phi))).
Proof. intros hl hp hc. unfold y_shape, sq, cube. rnum. split; field; auto. Qed.

Lemma constant_curvature (l x v t k : R) : l <> 0 ->
  interp (y_shape l 0 x) v t (v + t * l + k * (l * l) / 2) (t + k * l) = v + t * x + k * (x * x) / 2 /\
  interp (z_rot_shape l 0 x) v t (v + t * l + k * (l * l) / 2) (t + k * l) = t + k * x.
Proof. intros hl. unfold interp, y_shape, z_rot_shape, sq, cube. rnum. split; field; auto. Qed.

(** ** internal forces (C22) *)

Lemma local_forces_val (k : nat -> nat -> R) (l phi x : R) u :
  let f i := mulv 6 k u i in
  local_forces k l phi x u =
  ((1 - x / l) * f 0%nat - x / l * f 3%nat,
   y_shape l phi x 0 * f 1%nat + y_shape l phi x 1 * f 2%nat - y_shape l phi x 2 * f 4%nat - y_shape l phi x 3 * f 5%nat,
   z_rot_shape l phi x 0 * f 1%nat + z_rot_shape l phi x 1 * f 2%nat - z_rot_shape l phi x 2 * f 4%nat - z_rot_shape l phi x 3 * f 5%nat).
Proof. intros f. unfold local_forces, normal_shape. cbn -[y_shape z_rot_shape sumn mulv]. unfold f, mulv. cbn [sumn]. rnum. cbn. f_equal; [f_equal|]; ring. Qed.

(** nodal forces of a beam are in equilibrium *)
Lemma nodal_equilibrium (b : beam R) phi u : fixed_ends b -> 0 < b_E b -> 0 < b_I b -> 0 < b_l b -> 0 <= phi ->
  let f i := mulv 6 (beam_stiffness b phi) u i in
  f 0%nat + f 3%nat = 0 /\ f 1%nat + f 4%nat = 0 /\ f 2%nat + f 5%nat + b_l b * f 4%nat = 0.
Proof.
  intros hf hE hI hl hp f. unfold f, mulv. cbn [sumn]. rewrite !fixed_entries by (assumption || lia).
  cbn [stiff_entries]. rnum. assert (b_l b <> 0) by lra. assert (1 + phi <> 0) by lra.
  split; [|split]; field; auto.
Qed.

Lemma internal_equilibrium (b : beam R) phi x u : fixed_ends b -> 0 < b_E b -> 0 < b_I b -> 0 < b_l b -> 0 <= phi ->
  let f i := mulv 6 (beam_stiffness b phi) u i in
  let '(n, v, _) := local_forces (beam_stiffness b phi) (b_l b) phi x u in
  n = f 0%nat /\ n = - f 3%nat /\
  (x = 0 \/ x = b_l b -> v = f 1%nat /\ v = - f 4%nat).
Proof.
  intros hf hE hI hl hp f. rewrite local_forces_val. destruct (nodal_equilibrium b phi u hf hE hI hl hp) as [e1 [e2 _]].
  cbv zeta in e1, e2.
  change (mulv 6 (beam_stiffness b phi) u 0) with (f 0%nat) in *. change (mulv 6 (beam_stiffness b phi) u 3) with (f 3%nat) in *.
  change (mulv 6 (beam_stiffness b phi) u 1) with (f 1%nat) in *. change (mulv 6 (beam_stiffness b phi) u 4) with (f 4%nat) in *.
  assert (b_l b <> 0) by lra. assert (1 + phi <> 0) by lra.
  assert (f3 : f 3%nat = - f 0%nat) by lra. assert (f4 : f 4%nat = - f 1%nat) by lra.
  rewrite f3, f4. split; [field; auto|]. split; [field; auto|]. intros [->| ->]; unfold y_shape, sq, cube; rnum; split; field; auto.
Qed.

Lemma internal_moment (b : beam R) x u : fixed_ends b -> 0 < b_E b -> 0 < b_I b -> 0 < b_l b ->
  let f i := mulv 6 (beam_stiffness b 0) u i in
  let xi := x / b_l b in
  let '(_, v, m) := local_forces (beam_stiffness b 0) (b_l b) 0 x u in
  m = (1 - xi) * f 2%nat - xi * f 5%nat + 3 * xi * (1 - xi) * (f 5%nat - f 2%nat) /\
  v = f 1%nat + x * ((1 - xi) * (1 - xi)) * f 2%nat + x * (xi * (1 - xi)) * f 5%nat.
Proof.
  intros hf hE hI hl f xi. rewrite local_forces_val. destruct (nodal_equilibrium b 0 u hf hE hI hl ltac:(lra)) as [e1 [e2 e3]].
  cbv zeta in e1, e2, e3.
  change (mulv 6 (beam_stiffness b 0) u 1) with (f 1%nat) in *. change (mulv 6 (beam_stiffness b 0) u 2) with (f 2%nat) in *.
  change (mulv 6 (beam_stiffness b 0) u 4) with (f 4%nat) in *. change (mulv 6 (beam_stiffness b 0) u 5) with (f 5%nat) in *. assert (hl' : b_l b <> 0) by lra.
  assert (f4 : f 4%nat = - f 1%nat) by lra.
  assert (f1 : f 1%nat = (f 2%nat + f 5%nat) / b_l b).
  { rewrite f4 in e3. apply (Rmult_eq_reg_l (b_l b)); [|assumption]. replace (b_l b * ((f 2%nat + f 5%nat) / b_l b)) with (f 2%nat + f 5%nat) by (field; assumption). lra. }
  rewrite f4. split; unfold z_rot_shape, y_shape, sq, cube, xi; rnum.
  - rewrite f1. field. assumption.
  - rewrite f1. field. assumption.
Qed.

Lemma beam_strain_val (b : beam R) h y phi x u : b_E b <> 0 -> b_I b <> 0 ->
  let '(n, _, m) := local_forces (beam_stiffness b phi) (b_l b) phi x u in
  beam_strain b h y phi x u =
  (n / (b_E b * b_A b) + (h - y) * m / (b_E b * b_I b), n / (b_E b * b_A b) - y * m / (b_E b * b_I b)).
Proof.
  intros hE hI. unfold beam_strain. destruct (local_forces _ _ _ _ _) as [[n v] m]. rnum.
  destruct (neqbP m 0) as [e|e].
  - subst m. f_equal; unfold Rdiv; ring.
  - unfold Rdiv at 2 5. f_equal; f_equal; field; auto.
Qed.

(** ** hinge (C23) *)

Lemma hinge_spec (old : option R) (E I l f : R) : 0 < E -> 0 < I -> 0 < l -> 0 <= f < 1 ->
  exists s, hinge_stiffness old E I l f = Some s /\ 0 <= s /\ (s = 0 <-> f = 0) /\ fixity (E * I) l (Some s) = f.
Proof.
  intros hE hI hl hf. unfold hinge_stiffness. rnum.
  destruct (RlebP 0 f) as [h0|h0]; [|lra]. destruct (nltbP f 1) as [h1|h1]; [|lra]. cbn [andb].
  exists (3 * E * I * f / ((1 - f) * l)). split; [reflexivity|].
  assert (hd : 0 < (1 - f) * l) by (apply Rmult_lt_0_compat; lra). assert (hEI : 0 < E * I) by nra.
  destruct (Req_dec f 0) as [->|hne].
  - replace (3 * E * I * 0 / ((1 - 0) * l)) with 0 by (field; lra). split; [lra|]. split; [tauto|]. apply fixity_zero.
  - assert (hs : 0 < 3 * E * I * f / ((1 - f) * l)) by (apply Rdiv_lt_0_compat; nra).
    split; [lra|]. split; [split; intros; lra|]. cbn [fixity]. rnum. destruct (nltbP 0 (3 * E * I * f / ((1 - f) * l))); [|contradiction].
    field. repeat split; lra.
Qed.

Lemma hinge_monotone (o1 o2 : option R) (E I l f g s t : R) : 0 < E -> 0 < I -> 0 < l -> 0 <= f < 1 -> 0 <= g < 1 -> f < g ->
  hinge_stiffness o1 E I l f = Some s -> hinge_stiffness o2 E I l g = Some t -> s < t.
Proof.
  intros hE hI hl hf hg hlt. unfold hinge_stiffness. rnum.
  destruct (RlebP 0 f); [|lra]. destruct (nltbP f 1); [|lra]. destruct (RlebP 0 g); [|lra]. destruct (nltbP g 1); [|lra].
  cbn [andb]. intros e1 e2. injection e1 as <-. injection e2 as <-.
  assert (hEI : 0 < E * I) by nra.
  apply (Rmult_lt_reg_r ((1 - f) * l * (1 - g))); [repeat apply Rmult_lt_0_compat; lra|].
  replace (3 * E * I * f / ((1 - f) * l) * ((1 - f) * l * (1 - g))) with (3 * (E * I) * (f * (1 - g))) by (field; lra).
  replace (3 * E * I * g / ((1 - g) * l) * ((1 - f) * l * (1 - g))) with (3 * (E * I) * (g * (1 - f))) by (field; lra).
  apply Rmult_lt_compat_l; nra.
Qed.

(** used with half the stiffness at each of the two beam ends the resulting fixity is f / (2 - f) *)
Lemma hinge_halved (old : option R) (E I l f s : R) : 0 < E -> 0 < I -> 0 < l -> 0 <= f < 1 ->
  hinge_stiffness old E I l f = Some s -> fixity (E * I) l (Some (s / 2)) = f / (2 - f).
Proof.
  intros hE hI hl hf. unfold hinge_stiffness. rnum.
  destruct (RlebP 0 f); [|lra]. destruct (nltbP f 1); [|lra]. cbn [andb]. intros e. injection e as <-.
  assert (hEI : 0 < E * I) by nra.
  destruct (Req_dec f 0) as [->|hne].
  - replace (3 * E * I * 0 / ((1 - 0) * l) / 2) with 0 by (field; lra). rewrite fixity_zero. field.
  - assert (hs : 0 < 3 * E * I * f / ((1 - f) * l) / 2).
    { apply Rdiv_lt_0_compat; [|lra]. apply Rdiv_lt_0_compat; nra. }
    cbn [fixity]. rnum. destruct (nltbP 0 (3 * E * I * f / ((1 - f) * l) / 2)); [|contradiction].
    field. repeat split; try lra.
Qed.

(** ** rail (C24) *)

Lemma consecutive_nth (ns : list (tri R)) i p q :
  nth_error ns i = Some p -> nth_error ns (S i) = Some q -> nth_error (consecutive_distances ns) i = Some (distance3 p q).
Proof.
  revert i. induction ns as [|a ns IH]; intros i h1 h2; [destruct i; discriminate|].
  destruct ns as [|b ns]; [destruct i; simpl in h2; [discriminate|destruct i; discriminate]|].
  destruct i as [|i].
  - simpl in h1, h2. injection h1 as <-. injection h2 as <-. reflexivity.
  - cbn [nth_error] in h1, h2. change (nth_error (consecutive_distances (b :: ns)) i = Some (distance3 p q)). apply IH; assumption.
Qed.
Lemma consecutive_nth_inv (ns : list (tri R)) i d :
  nth_error (consecutive_distances ns) i = Some d ->
  exists p q, nth_error ns i = Some p /\ nth_error ns (S i) = Some q /\ d = distance3 p q.
Proof.
  revert i. induction ns as [|a ns IH]; intros i h; [destruct i; discriminate|].
  destruct ns as [|b ns]; [destruct i; discriminate|].
  destruct i as [|i].
  - simpl in h. injection h as <-. exists a, b. auto.
  - change (nth_error (consecutive_distances (b :: ns)) i = Some d) in h. destruct (IH i h) as [p [q [h1 [h2 h3]]]]. exists p, q. auto.
Qed.


Lemma distance3_R p q : distance3 p q = dist3 p q.
Proof. reflexivity. Qed.

Lemma rail_length_spec (old : option R) (ns : list (tri R)) :
  ((length ns < 2)%nat -> calculate_length_rail old ns = Ok old) /\
  (forall p q, nth_error ns 0 = Some p -> nth_error ns 1 = Some q ->
     let ok := forall i a b, nth_error ns i = Some a -> nth_error ns (S i) = Some b ->
                 Rabs (dist3 p q - dist3 a b) <= 1 / 100000000 + 1 / 100000 * dist3 a b in
     (ok -> calculate_length_rail old ns = Ok (Some (dist3 p q))) /\
     (~ ok -> calculate_length_rail old ns = Err ErrInvalidRail)).
Proof.
  split.
  - intros h. destruct ns as [|a [|b ns]]; try reflexivity. simpl in h. lia.
  - intros p q hp hq ok. pose proof (consecutive_nth ns 0 p q hp hq) as h0.
    unfold calculate_length_rail. remember (consecutive_distances ns) as ds eqn:eds.
    destruct ds as [|d0 r]; [discriminate|]. injection h0 as ->. change (distance3 p q) with (dist3 p q).
    assert (hiff : forallb (fun d => np_isclose (dist3 p q) d) (dist3 p q :: r) = true <-> ok).
    { rewrite forallb_forall. split.
      - intros h i a b ha hb. pose proof (consecutive_nth ns i a b ha hb) as hd. rewrite <- eds in hd.
        apply nth_error_In in hd. change (distance3 a b) with (dist3 a b) in hd. apply h in hd.
        apply np_isclose_spec in hd. rewrite (Rabs_right (dist3 a b)) in hd by (apply Rle_ge, sqrt_pos). exact hd.
      - intros h d hd. change (dist3 p q) with (distance3 p q) in hd. apply In_nth_error in hd. destruct hd as [i hi].
        change (nth_error (distance3 p q :: r) i = Some d) in hi. assert (hi2 : nth_error (consecutive_distances ns) i = Some d) by (rewrite <- eds; exact hi).
        destruct (consecutive_nth_inv ns i d hi2) as [a [b [ha [hb ->]]]].
        apply np_isclose_spec. change (distance3 a b) with (dist3 a b). rewrite (Rabs_right (dist3 a b)) by (apply Rle_ge, sqrt_pos). apply (h i); assumption. }
    destruct (forallb _ _); split; intros h; auto.
    + exfalso. apply h, hiff. reflexivity.
    + apply hiff in h. discriminate.
Qed.

(** ** the springs stiffen (C18) *)

Definition spring_factor (a1 a2 : R) (i j : nat) : R :=
  let d := 4 - a1 * a2 in
  match i, j with
  | 1%nat, 1%nat | 4%nat, 4%nat | 1%nat, 4%nat | 4%nat, 1%nat => (a1 + a2 + a1 * a2) / d
  | 1%nat, 2%nat | 2%nat, 1%nat | 2%nat, 4%nat | 4%nat, 2%nat => (2 * a1 + a1 * a2) / d
  | 1%nat, 5%nat | 5%nat, 1%nat | 4%nat, 5%nat | 5%nat, 4%nat => (2 * a2 + a1 * a2) / d
  | 2%nat, 2%nat => 3 * a1 / d
  | 5%nat, 5%nat => 3 * a2 / d
  | 2%nat, 5%nat | 5%nat, 2%nat => 3 * a1 * a2 / d
  | _, _ => 1
  end.

Lemma stiff_factor EA l EI phi a1 a2 i j : 4 - a1 * a2 <> 0 ->
  stiff_entries EA l EI phi a1 a2 i j = stiff_entries EA l EI phi 1 1 i j * spring_factor a1 a2 i j.
Proof.
  intros hd. set (c := EI / ((1 + phi) * (l * l * l))).
  do 6 (destruct i as [|i]; [do 6 (destruct j as [|j]; [cbn [stiff_entries spring_factor]; fold c; generalize c; intros; unfold Rdiv; try ring; field; assumption|]); destruct j; cbn [stiff_entries spring_factor]; ring|]);
  destruct i; do 6 (destruct j as [|j]; [cbn [stiff_entries spring_factor]; ring|]); cbn [stiff_entries spring_factor]; ring.
Qed.

Lemma spring_factor_close a1 a2 del i j : 0 <= a1 <= 1 -> 0 <= a2 <= 1 -> 1 - a1 <= del -> 1 - a2 <= del ->
  Rabs (spring_factor a1 a2 i j - 1) <= 3 * del.
Proof.
  intros h1 h2 d1 d2. assert (hd : 3 <= 4 - a1 * a2) by nra.
  assert (h12 : 1 - a1 * a2 <= 2 * del) by nra. assert (h0 : 0 <= 1 - a1 * a2) by nra.
  assert (main : forall n, - (9 * del) <= n - (4 - a1 * a2) <= 9 * del -> Rabs (n / (4 - a1 * a2) - 1) <= 3 * del).
  { intros n hn. replace (n / (4 - a1 * a2) - 1) with ((n - (4 - a1 * a2)) / (4 - a1 * a2)) by (field; lra).
    apply Rabs_le. split; [apply (Rmult_le_reg_r (4 - a1 * a2))|apply (Rmult_le_reg_r (4 - a1 * a2))]; try lra;
      unfold Rdiv; rewrite Rmult_assoc, Rinv_l by lra; nra. }
  assert (one : Rabs (1 - 1) <= 3 * del) by (replace (1 - 1) with 0 by ring; rewrite Rabs_R0; lra).
  do 6 (destruct i as [|i]; [do 6 (destruct j as [|j]; [cbn [spring_factor]; first [exact one|apply main; lra]|]); destruct j; exact one|]);
  destruct i; do 6 (destruct j as [|j]; [exact one|]); exact one.
Qed.

Definition with_springs (b : beam R) (s1 s2 : option R) : beam R :=
  mkBeam (b_E b) (b_nu b) (b_rho b) (b_A b) (b_I b) (b_shear_factor b) (b_l b) s1 s2.

Lemma springs_limit (b : beam R) phi i j eps :
  0 < b_E b -> 0 < b_I b -> 0 < b_l b -> 0 <= phi -> (i < 6)%nat -> (j < 6)%nat -> 0 < eps ->
  exists s0, 0 < s0 /\ forall s t, s0 < s -> s0 < t ->
    Rabs (beam_stiffness (with_springs b (Some s) (Some t)) phi i j - beam_stiffness (with_springs b None None) phi i j) < eps.
Proof.
  intros hE hI hl hp hi hj he.
  set (c := stiff_entries (b_E b * b_A b) (b_l b) (b_E b * b_I b) phi 1 1 i j).
  set (del := eps / (4 * (Rabs c + 1))). pose proof (Rabs_pos c) as hc.
  assert (hdel : 0 < del) by (apply Rdiv_lt_0_compat; lra). assert (hEI : 0 < b_E b * b_I b) by nra.
  destruct (fixity_limit (b_E b * b_I b) (b_l b) del hEI hl hdel) as [s0 [hs0 hs]].
  exists s0. split; [assumption|]. intros s t h1 h2.
  rewrite !beam_stiffness_entries by assumption. cbn [with_springs b_E b_A b_I b_l b_s1 b_s2]. rewrite fixity_none. fold c.
  pose proof (fixity_range (b_E b * b_I b) (b_l b) (Some s) hEI hl) as r1. pose proof (fixity_range (b_E b * b_I b) (b_l b) (Some t) hEI hl) as r2.
  specialize (hs s h1) as e1. specialize (hs t h2) as e2. revert r1 r2 e1 e2.
  generalize (fixity (b_E b * b_I b) (b_l b) (Some s)) (fixity (b_E b * b_I b) (b_l b) (Some t)). intros a1 a2 r1 r2 e1 e2.
  rewrite stiff_factor by nra. fold c.
  assert (hf : Rabs (spring_factor a1 a2 i j - 1) <= 3 * del).
  { apply spring_factor_close; auto; apply Rabs_def2 in e1; apply Rabs_def2 in e2; lra. }
  replace (c * spring_factor a1 a2 i j - c) with (c * (spring_factor a1 a2 i j - 1)) by ring. rewrite Rabs_mult.
  apply Rle_lt_trans with (Rabs c * (3 * del)); [apply Rmult_le_compat_l; assumption|].
  unfold del. apply (Rmult_lt_reg_r (4 * (Rabs c + 1))); [lra|].
  replace (Rabs c * (3 * (eps / (4 * (Rabs c + 1)))) * (4 * (Rabs c + 1))) with (3 * (Rabs c * eps)) by (field; lra). nra.
Qed.
