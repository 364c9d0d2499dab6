(** * Properties of elements (C14 - C26) *)

From Coq Require Import Reals List Bool ZArith Arith Lia Lra Psatz.
From Verif Require Import Num PyBase Model_Geometry Model_System Model_Element Model_Validate
  Spec_System Spec_Element Spec_Validate Proofs_System Proofs_Element Proofs_Beam Proofs_Validate.
Import ListNotations.
Local Open Scope R_scope.

(** ** C14: rotating preserves length and is undone by the opposite angle *)

Theorem C14_rotation_isometry (t : R) (v w : tri R) :
  dot2 (rotate_scalar t v) (rotate_scalar t w) = dot2 v w /\
  tr (rotate_scalar t v) = tr v /\
  rotate_scalar (- t) (rotate_scalar t v) = v.
Proof. exact (rotate_spec t v w). Qed.
Print Assumptions C14_rotation_isometry.

(** the sense of rotation, and the list version row by row *)
Theorem C14_rotation_value (t : R) (v : tri R) :
  tx (rotate_scalar t v) = cos t * tx v + sin t * ty v /\ ty (rotate_scalar t v) = cos t * ty v - sin t * tx v.
Proof. rewrite rotate_scalar_val. cbn [tx ty]. split; ring. Qed.
Print Assumptions C14_rotation_value.

Theorem C14_rotation_rows (ts : list R) (vs : list (tri R)) :
  length ts = length vs ->
  length (rotate_array ts vs) = length vs /\
  (forall i t v, nth_error ts i = Some t -> nth_error vs i = Some v ->
     nth_error (rotate_array ts vs) i = Some (rotate_scalar t v)).
Proof. exact (rotate_array_spec ts vs). Qed.
Print Assumptions C14_rotation_rows.

Example C14_case : rotate_scalar (PI / 2) (T3 3 4 5) = T3 4 (- 3) 5.
Proof. rewrite rotate_scalar_val. cbn [tx ty tr]. rewrite cos_PI2, sin_PI2. f_equal; ring. Qed.

(** ** C15: the element angle points from the first node to the second *)

Theorem C15_point_angle (p q : R * R) :
  let a := calculate_point_rotation p q in
  let l := plane_dist p q in
  (1 / 1000000000 * Rmax (Rabs (fst q)) (Rabs (fst p)) < Rabs (fst q - fst p) ->
     l * cos a = fst q - fst p /\ l * sin a = snd q - snd p) /\
  (Rabs (fst q - fst p) <= 1 / 1000000000 * Rmax (Rabs (fst q)) (Rabs (fst p)) ->
     Rabs (l * cos a - (fst q - fst p)) <= 2 * Rabs (fst q - fst p) /\
     Rabs (l * sin a - (snd q - snd p)) <= Rabs (fst q - fst p)).
Proof. exact (point_rotation_spec p q). Qed.
Print Assumptions C15_point_angle.

(** the list version, except when the second point lies at most 1e-8 to the left of the first *)
Theorem C15_list_angle_partial (pqs : list ((R * R) * (R * R))) i p q :
  nth_error pqs i = Some (p, q) ->
  exists a, nth_error (calculate_rotation pqs) i = Some a /\
  let l := plane_dist p q in
  (1 / 100000000 < Rabs (fst q - fst p) ->
     l * cos a = fst q - fst p /\ l * sin a = snd q - snd p) /\
  (0 <= fst q - fst p <= 1 / 100000000 ->
     Rabs (l * cos a - (fst q - fst p)) <= 1 / 100000000 /\
     Rabs (l * sin a - (snd q - snd p)) <= 1 / 100000000).
Proof.
  intros h. exists (calculate_rotation1 (p, q)). split.
  - unfold calculate_rotation. apply map_nth_error. exact h.
  - exact (rotation1_spec p q).
Qed.
Print Assumptions C15_list_angle_partial.

(** an almost vertical element leaning slightly to the left gets the opposite direction *)
Theorem C15_near_vertical_refuted : exists p q : R * R,
  plane_dist p q >= 1 /\ Rabs (fst q - fst p) <= 1 / 100000000 /\
  snd q - snd p = 1 /\ plane_dist p q * sin (calculate_rotation1 (p, q)) <= - 1.
Proof.
  exists (0, 0), (- (1 / 1000000000), 1). rewrite rotation1_flipped, neg_sin, sin_PI2. cbn [fst snd].
  assert (h : 1 <= plane_dist (0, 0) (- (1 / 1000000000), 1)).
  { unfold plane_dist. cbn [fst snd]. rewrite <- sqrt_1 at 1. apply sqrt_le_1_alt. lra. }
  split; [lra|]. split; [apply Rabs_le; lra|]. split; [lra|]. lra.
Qed.
Print Assumptions C15_near_vertical_refuted.

Example C15_case : 1 / 1000000000 * Rmax (Rabs 4) (Rabs 1) < Rabs (4 - 1) /\ plane_dist (1, 1) (4, 5) = 5.
Proof.
  split.
  - rewrite !Rabs_right by lra. rewrite Rmax_left by lra. lra.
  - unfold plane_dist. cbn [fst snd]. replace ((4 - 1) * (4 - 1) + (5 - 1) * (5 - 1)) with (5 * 5) by ring. apply sqrt_square. lra.
Qed.

(** ** C16: a rod resists only elongation *)

(** what the code does: the force acts along the direction (cos a, - sin a), the mirror image of the rod axis *)
Theorem C16_rod_direction (k : R) m (p q : R * R) (u : nat -> R) :
  rod_spring (Some k) = Some m ->
  let a := calculate_rotation1 (p, q) in
  let f := mulv 6 (rotate_aux_matrix p q (rod_reshaped m)) u in
  let n := k * (cos a * (u 3%nat - u 0%nat) - sin a * (u 4%nat - u 1%nat)) in
  f 0%nat = - n * cos a /\ f 1%nat = n * sin a /\ f 2%nat = 0 /\
  f 3%nat = n * cos a /\ f 4%nat = - n * sin a /\ f 5%nat = 0.
Proof. exact (rod_global k m p q u). Qed.
Print Assumptions C16_rod_direction.

(** so the claim holds for horizontal and vertical rods *)
Theorem C16_rod_axis_partial (k : R) m (p q : R * R) (u : nat -> R) :
  rod_spring (Some k) = Some m ->
  p <> q -> fst p = fst q \/ snd p = snd q ->
  let ex := (fst q - fst p) / plane_dist p q in
  let ey := (snd q - snd p) / plane_dist p q in
  let f := mulv 6 (rotate_aux_matrix p q (rod_reshaped m)) u in
  let n := k * ((u 3%nat - u 0%nat) * ex + (u 4%nat - u 1%nat) * ey) in
  f 0%nat = - n * ex /\ f 1%nat = - n * ey /\ f 2%nat = 0 /\ f 3%nat = n * ex /\ f 4%nat = n * ey /\ f 5%nat = 0.
Proof.
  intros hm hne hor ex ey f n.
  destruct (rod_global k m p q u hm) as [f0 [f1 [f2 [f3 [f4 f5]]]]]. fold f in f0, f1, f2, f3, f4, f5.
  set (a := calculate_rotation1 (p, q)) in *.
  assert (h : cos a * cos a = ex * ex /\ sin a * sin a = ey * ey /\ cos a * sin a = 0 /\ ex * ey = 0).
  { destruct p as [x1 y1], q as [x2 y2]. cbn [fst snd] in *. unfold ex, ey, a, plane_dist. cbn [fst snd].
    unfold calculate_rotation1. change (@nsub R RNum x2 x1) with (x2 - x1). change (@nsub R RNum y2 y1) with (y2 - y1).
    change (@lit R RNum 0) with 0.
    destruct hor as [<-|<-].
    - assert (hy : y2 - y1 <> 0) by (intros h; apply hne; f_equal; lra).
      replace (x1 - x1) with 0 by ring. replace (0 * 0 + (y2 - y1) * (y2 - y1)) with (Rsqr (y2 - y1)) by (unfold Rsqr; ring).
      rewrite sqrt_Rsqr_abs.
      assert (hc : np_isclose 0 0 = true) by (apply np_isclose_0_spec; rewrite Rabs_R0; lra). rewrite hc.
      destruct (nltbP x1 x1) as [|_]; [lra|]. rnum. cbn [npi RTrig].
      destruct (Rtotal_order (y2 - y1) 0) as [h|[h|h]]; [|lra|].
      + rewrite nsign_neg, Rabs_left by assumption. replace (PI / 2 * -1) with (- (PI / 2)) by lra.
        rewrite cos_neg, sin_neg, cos_PI2, sin_PI2. repeat split; field; lra.
      + rewrite nsign_pos, Rabs_right by lra. replace (PI / 2 * 1) with (PI / 2) by lra.
        rewrite cos_PI2, sin_PI2. repeat split; field; lra.
    - assert (hx : x2 - x1 <> 0) by (intros h; apply hne; f_equal; lra).
      replace (y1 - y1) with 0 by ring. rewrite dist_dy0.
      assert (hs : nsign (0 : R) = 0) by apply nsign_0.
      replace (natan (ndiv 0 (x2 - x1))) with 0 by (rnum; cbn [natan RTrig]; replace (0 / (x2 - x1)) with 0 by (field; assumption); symmetry; apply atan_0).
      assert (hang : forall c : bool, (if c then (if nltb x2 x1 then nadd (if c then nmul (ndiv npi (lit 2)) (nsign 0) else 0) npi else (if c then nmul (ndiv npi (lit 2)) (nsign 0) else 0))
          else nadd (if nltb x2 x1 then nadd (if c then nmul (ndiv npi (lit 2)) (nsign 0) else 0) npi else (if c then nmul (ndiv npi (lit 2)) (nsign 0) else 0)) 0) = if nltb x2 x1 then PI else 0).
      { intros c. rewrite hs. rnum. cbn [npi RTrig]. destruct c, (nltb x2 x1); lra. }
      rewrite hang. destruct (nltbP x2 x1) as [h|h].
      + rewrite cos_PI, sin_PI, Rabs_left by lra. repeat split; field; lra.
      + rewrite cos_0, sin_0, Rabs_right by lra. repeat split; field; lra. }
  destruct h as [h1 [h2 [h3 h4]]]. rewrite f0, f1, f2, f3, f4, f5. unfold n. clear - h1 h2 h3 h4.
  set (dx := u 3%nat - u 0%nat). set (dy := u 4%nat - u 1%nat).
  split; [|split; [|split; [|split; [|split]]]]; try reflexivity.
  - transitivity (- k * (dx * (cos a * cos a) - dy * (cos a * sin a))); [ring|]. rewrite h1, h3.
    transitivity (- k * (dx * (ex * ex) + dy * (ex * ey))); [rewrite h4; ring|ring].
  - transitivity (- k * (dy * (sin a * sin a) - dx * (cos a * sin a))); [ring|]. rewrite h2, h3.
    transitivity (- k * (dx * (ex * ey) + dy * (ey * ey))); [rewrite h4; ring|ring].
  - transitivity (k * (dx * (cos a * cos a) - dy * (cos a * sin a))); [ring|]. rewrite h1, h3.
    transitivity (k * (dx * (ex * ex) + dy * (ex * ey))); [rewrite h4; ring|ring].
  - transitivity (k * (dy * (sin a * sin a) - dx * (cos a * sin a))); [ring|]. rewrite h2, h3.
    transitivity (k * (dx * (ex * ey) + dy * (ey * ey))); [rewrite h4; ring|ring].
Qed.
Print Assumptions C16_rod_axis_partial.

(** a rod at 45 degrees: moving its end perpendicular to the axis gives a force *)
Theorem C16_inclined_rod_refuted : exists (k : R) m (p q : R * R) (u : nat -> R),
  0 < k /\ rod_spring (Some k) = Some m /\ p <> q /\
  u 0%nat = 0 /\ u 1%nat = 0 /\ u 3%nat * (fst q - fst p) + u 4%nat * (snd q - snd p) = 0 /\
  mulv 6 (rotate_aux_matrix p q (rod_reshaped m)) u 3%nat <> 0.
Proof.
  eexists 1, _, (0, 0), (1, 1), (vec6 0 0 0 (- 1) 1 0). cbn [vec6 fst snd].
  split; [lra|]. split; [reflexivity|]. split; [intros h; injection h; lra|]. split; [reflexivity|]. split; [reflexivity|].
  split; [lra|].
  destruct (rod_global 1 _ (0, 0) (1, 1) (vec6 0 0 0 (- 1) 1 0) eq_refl) as [_ [_ [_ [e _]]]]. rewrite e. cbn [vec6]. clear e.
  destruct (proj1 (rotation1_spec (0, 0) (1, 1))) as [h1 h2].
  { cbn [fst snd]. rewrite Rabs_right by lra. lra. }
  cbn [fst snd] in h1, h2. set (a := calculate_rotation1 _) in *. set (l := plane_dist _ _) in *.
  assert (hl : l <> 0) by (intros h; rewrite h in h1; lra).
  assert (hcs : cos a = sin a) by (apply (Rmult_eq_reg_l l); [lra|assumption]).
  pose proof (cs1 a) as h. rewrite <- hcs in h. rewrite <- hcs. lra.
Qed.
Print Assumptions C16_inclined_rod_refuted.

Example C16_case : (0, 0) <> (0, 2) /\ fst (0, 0) = fst (0, 2) /\ exists m, rod_spring (Some 10) = Some m.
Proof. split; [intros h; injection h; lra|]. split; [reflexivity|]. eexists; reflexivity. Qed.

(** ** C17: beam stiffness *)

Theorem C17_beam_stiffness (b : beam R) (phi : R) :
  fixed_ends b -> 0 < b_E b -> 0 < b_I b -> 0 < b_A b -> 0 < b_l b -> 0 <= phi ->
  let k := beam_stiffness b phi in
  msym 6 k /\ psd 6 k /\
  (forall u, rigid_motion (b_l b) u -> forall i, (i < 6)%nat -> mulv 6 k u i = 0) /\
  (forall u, quad 6 k u = 0 -> rigid_motion (b_l b) u) /\
  (forall u, let l := b_l b in let g := u 1%nat - u 4%nat + l * (u 2%nat + u 5%nat) / 2 in
     quad 6 k u = b_E b * b_A b / l * ((u 3%nat - u 0%nat) * (u 3%nat - u 0%nat)) +
       b_E b * b_I b / l * ((u 5%nat - u 2%nat) * (u 5%nat - u 2%nat)) +
       12 * (b_E b * b_I b) / ((1 + phi) * (l * l * l)) * (g * g)).
Proof. exact (beam_fixed_spec b phi). Qed.
Print Assumptions C17_beam_stiffness.

(** the shear factor the code computes is 12 E I / (G A k l^2), so the theorem applies to it *)
Theorem C17_shear_factor (b : beam R) :
  0 < b_E b -> 0 < b_I b -> 0 < b_A b -> 0 < b_l b -> - 1 < b_nu b ->
  let G := b_E b / (2 * (1 + b_nu b)) in
  (0 < b_shear_factor b -> timoshenko_factor 0 b = 12 * (b_E b * b_I b) / (G * b_A b * b_shear_factor b * (b_l b * b_l b))) /\
  (b_shear_factor b <= 0 -> timoshenko_factor 0 b = 0) /\
  0 <= timoshenko_factor 0 b.
Proof.
  intros hE hI hA hl hn G. assert (hG : 0 < G) by (apply Rdiv_lt_0_compat; lra).
  assert (e : 0 < b_shear_factor b -> timoshenko_factor 0 b = 12 * (b_E b * b_I b) / (G * b_A b * b_shear_factor b * (b_l b * b_l b))).
  { intros hk. unfold timoshenko_factor, shear_modulus, sq. rnum. destruct (nltbP 0 (b_shear_factor b)); [|contradiction].
    unfold G. field. repeat split; lra. }
  assert (z : b_shear_factor b <= 0 -> timoshenko_factor 0 b = 0).
  { intros hk. unfold timoshenko_factor. rnum. destruct (nltbP 0 (b_shear_factor b)); [lra|reflexivity]. }
  clearbody G. split; [exact e|]. split; [exact z|]. destruct (Rlt_dec 0 (b_shear_factor b)) as [h|h].
  - rewrite e by assumption. assert (0 < b_E b * b_I b) by (apply Rmult_lt_0_compat; assumption). apply Rlt_le, Rdiv_lt_0_compat; [lra|]. repeat apply Rmult_lt_0_compat; assumption.
  - rewrite z by lra. lra.
Qed.
Print Assumptions C17_shear_factor.

(** the beam's damping matrix is zero before Rayleigh damping is added *)
Theorem C17_beam_no_damping i j : @beam_damping R _ i j = 0.
Proof. reflexivity. Qed.
Print Assumptions C17_beam_no_damping.

Definition steel : beam R := mkBeam 210 (3 / 10) 8 2 3 (1 / 2) 4 None None.
Example C17_case : fixed_ends steel /\ 0 < b_E steel /\ 0 < b_I steel /\ 0 < b_A steel /\ 0 < b_l steel /\ 0 <= 1 / 10 /\
  rigid_motion (b_l steel) (rigid6 4 1 2 3).
Proof. cbn. repeat split; lra. Qed.

(** ** C18: semi-rigid ends *)

Theorem C18_semi_rigid_partial (b : beam R) (phi : R) :
  0 < b_E b -> 0 < b_I b -> 0 < b_A b -> 0 < b_l b -> 0 <= phi ->
  let k := beam_stiffness b phi in
  msym 6 k /\ psd 6 k /\
  (forall ux uy i, (i < 6)%nat -> mulv 6 k (vec6 ux uy 0 ux uy 0) i = 0) /\
  (phi = 0 -> forall u, rigid_motion (b_l b) u -> forall i, (i < 6)%nat -> mulv 6 k u i = 0) /\
  (b_s1 b = Some 0 -> forall u, mulv 6 k u 2%nat = 0) /\
  (b_s2 b = Some 0 -> forall u, mulv 6 k u 5%nat = 0).
Proof.
  intros hE hI hA hl hp k. split; [apply stiffness_sym; assumption|]. split; [apply stiffness_psd; assumption|].
  split; [apply stiffness_translation; assumption|]. split; [|apply beam_hinged_spec; assumption].
  intros e u hu i hi. unfold k. rewrite e. apply beam_springs_rotation; assumption.
Qed.
Print Assumptions C18_semi_rigid_partial.

(** the energy, with fixity factors 1/(1 + 3 E I/(s l)) *)
Theorem C18_energy (b : beam R) (phi : R) (u : nat -> R) :
  0 < b_E b -> 0 < b_I b -> 0 < b_A b -> 0 < b_l b -> 0 <= phi ->
  let fix_of s := match s with None => 1 | Some s => if Rlt_dec 0 s then 1 / (1 + 3 * (b_E b * b_I b) / (s * b_l b)) else 0 end in
  let a1 := fix_of (b_s1 b) in
  let a2 := fix_of (b_s2 b) in
  let p1 := u 2%nat + (u 1%nat - u 4%nat) / b_l b in
  let p2 := u 5%nat + (u 1%nat - u 4%nat) / b_l b in
  quad 6 (beam_stiffness b phi) u =
    b_E b * b_A b / b_l b * ((u 3%nat - u 0%nat) * (u 3%nat - u 0%nat)) +
    12 * (b_E b * b_I b) / ((1 + phi) * b_l b * (4 - a1 * a2)) * (a1 * (p1 * p1) + a1 * a2 * (p1 * p2) + a2 * (p2 * p2)) +
    3 * phi * (b_E b * b_I b) / ((1 + phi) * b_l b * (4 - a1 * a2)) *
      (a1 * (u 2%nat * u 2%nat) - 2 * (a1 * a2) * (u 2%nat * u 5%nat) + a2 * (u 5%nat * u 5%nat)).
Proof.
  intros hE hI hA hl hp fix_of a1 a2 p1 p2.
  assert (e : forall s, fix_of s = fixity (b_E b * b_I b) (b_l b) s).
  { intros [s|]; [|symmetry; apply fixity_none]. cbn [fixity fix_of]. rnum. destruct (Rlt_dec 0 s), (nltbP 0 s); try lra; reflexivity. }
  unfold a1, a2. rewrite !e. unfold p1, p2. apply stiffness_energy; assumption.
Qed.
Print Assumptions C18_energy.

(** the matrix tends to the fixed-end matrix when the springs stiffen *)
Theorem C18_stiff_limit (b : beam R) phi i j eps :
  0 < b_E b -> 0 < b_I b -> 0 < b_l b -> 0 <= phi -> (i < 6)%nat -> (j < 6)%nat -> 0 < eps ->
  exists s0, 0 < s0 /\ forall s t, s0 < s -> s0 < t ->
    Rabs (beam_stiffness (with_springs b (Some s) (Some t)) phi i j - beam_stiffness (with_springs b None None) phi i j) < eps.
Proof. exact (springs_limit b phi i j eps). Qed.
Print Assumptions C18_stiff_limit.

(** with shear deformation and a spring, a rigid rotation stores energy *)
Theorem C18_rigid_rotation_refuted : exists (b : beam R) (phi : R) (u : nat -> R),
  0 < b_E b /\ 0 < b_I b /\ 0 < b_A b /\ 0 < b_l b /\ 0 <= phi /\ rigid_motion (b_l b) u /\
  0 < quad 6 (beam_stiffness b phi) u.
Proof.
  exists (mkBeam 1 0 1 1 1 1 1 (Some 3) None), 1, (rigid6 1 0 0 1). cbn [b_E b_I b_A b_l b_s1 b_s2].
  split; [lra|]. split; [lra|]. split; [lra|]. split; [lra|]. split; [lra|]. split; [cbn; repeat split; lra|].
  rewrite C18_energy by (cbn; lra). cbn [b_E b_I b_A b_l b_s1 b_s2 rigid6 vec6]. destruct (Rlt_dec 0 3); lra.
Qed.
Print Assumptions C18_rigid_rotation_refuted.

Example C18_case : 0 < b_E (with_springs steel (Some 7) (Some 0)) /\ b_s2 (with_springs steel (Some 7) (Some 0)) = Some 0.
Proof. cbn. split; [lra|reflexivity]. Qed.

(** ** C19: beam mass *)

Theorem C19_mass_symmetric_psd (b : beam R) (phi : R) :
  0 <= b_rho b -> 0 <= b_A b -> 0 <= b_I b -> 0 < b_l b -> 0 <= phi ->
  msym 6 (beam_mass b phi) /\ psd 6 (beam_mass b phi).
Proof. intros. split; [apply beam_mass_sym|apply beam_mass_psd; assumption]. Qed.
Print Assumptions C19_mass_symmetric_psd.

(** twice the kinetic energy of a rigid motion with velocities (ux, uy) and angular velocity t about the first node *)
Theorem C19_rigid_energy (b : beam R) (phi ux uy t : R) :
  0 < b_l b -> 0 <= phi ->
  let m := b_rho b * b_A b * b_l b in
  quad 6 (beam_mass b phi) (rigid6 (b_l b) ux uy t) =
  m * (ux * ux) + m * (uy * uy) + 2 * (m * b_l b / 2) * (uy * t) +
  (m * (b_l b * b_l b) / 3 + (if Req_EM_T phi 0 then 0 else b_rho b * b_I b * b_l b)) * (t * t).
Proof. intros hl hp m. rewrite beam_mass_rigid by lra. fold m. destruct (Req_EM_T phi 0); field. Qed.
Print Assumptions C19_rigid_energy.

Theorem C19_mass_per_metre (b : beam R) : beam_mass_per_meter b = b_rho b * b_A b.
Proof. unfold beam_mass_per_meter. rnum. ring. Qed.
Print Assumptions C19_mass_per_metre.

Example C19_case : quad 6 (beam_mass steel 0) (rigid6 4 1 0 0) = 64 /\ quad 6 (beam_mass steel 1) (rigid6 4 0 0 1) = 64 * 16 / 3 + 96.
Proof. split; [rewrite (C19_rigid_energy steel)|rewrite (C19_rigid_energy steel)]; cbn; try lra; destruct (Req_EM_T _ 0); lra. Qed.

(** ** C20: shape functions *)

Theorem C20_shape_functions (l phi x : R) :
  0 < l -> 0 <= phi ->
  (forall v1 t1 v2 t2, interp (y_shape l phi 0) v1 t1 v2 t2 = v1 /\ interp (y_shape l phi l) v1 t1 v2 t2 = v2) /\
  (forall v t, interp (y_shape l phi x) v t (v + l * t) t = v + x * t) /\
  (forall v t, interp (z_rot_shape l phi x) v t (v + l * t) t = t) /\
  (forall k, derivable_pt_lim (fun x => y_shape l phi x k) x (z_rot_shape l phi x k)) /\
  (forall u1 u2, fst (normal_shape l x) + snd (normal_shape l x) = 1 /\
     fst (normal_shape l x) * u1 + snd (normal_shape l x) * u2 = u1 + x * ((u2 - u1) / l)).
Proof.
  intros hl hp. assert (l <> 0) by lra. assert (1 + phi <> 0) by lra.
  split; [intros; apply y_shape_ends; assumption|]. split; [intros; apply y_shape_rigid; assumption|].
  split; [intros; apply z_rot_rigid; assumption|]. split; [intros; apply z_rot_is_derivative; assumption|].
  intros. apply normal_shape_spec. assumption.
Qed.
Print Assumptions C20_shape_functions.

Example C20_case : y_shape 2 0 1 0 = 1 / 2 /\ y_shape 2 0 1 1 = 1 / 4 /\ y_shape 2 0 1 3 = - (1 / 4).
Proof. unfold y_shape, sq, cube. rnum. repeat split; field. Qed.

(** ** C21: unit of length *)

Theorem C21_scaling_partial (l phi x c : R) :
  0 < l -> 0 <= phi -> 0 < c ->
  y_shape (c * l) phi (c * x) 0 = y_shape l phi x 0 /\ y_shape (c * l) phi (c * x) 2 = y_shape l phi x 2 /\
  (phi = 0 -> y_shape (c * l) phi (c * x) 1 = c * y_shape l phi x 1 /\ y_shape (c * l) phi (c * x) 3 = c * y_shape l phi x 3) /\
  (phi = 0 -> forall v t k,
     interp (y_shape l phi x) v t (v + t * l + k * (l * l) / 2) (t + k * l) = v + t * x + k * (x * x) / 2 /\
     interp (z_rot_shape l phi x) v t (v + t * l + k * (l * l) / 2) (t + k * l) = t + k * x).
Proof.
  intros hl hp hc. destruct (y_shape_scaling l phi x c) as [h1 h2]; try lra. split; [assumption|]. split; [assumption|].
  split; intros ->; [apply y_shape_scaling_rot; lra|]. intros. apply constant_curvature. lra.
Qed.
Print Assumptions C21_scaling_partial.

(** with shear deformation the rotation functions miss a factor l in the shear term *)
Theorem C21_scaling_gap (l phi x c : R) : 0 < l -> 0 <= phi -> 0 < c ->
  y_shape (c * l) phi (c * x) 1 - c * y_shape l phi x 1 = (1 - c) * (phi / 2 * (x / l - (x / l) * (x / l)) / (1 + phi)) /\
  y_shape (c * l) phi (c * x) 3 - c * y_shape l phi x 3 = - ((1 - c) * (phi / 2 * (x / l - (x / l) * (x / l)) / (1 + phi))).
Proof. intros. apply y_shape_scaling_gap; lra. Qed.
Print Assumptions C21_scaling_gap.

Theorem C21_scaling_refuted : exists l phi x c : R, 0 < l /\ 0 < phi /\ 0 < x < l /\ 0 < c /\
  y_shape (c * l) phi (c * x) 1 <> c * y_shape l phi x 1.
Proof.
  exists 1, 1, (1 / 2), 2. do 4 (split; [lra|]). pose proof (proj1 (y_shape_scaling_gap 1 1 (1 / 2) 2 ltac:(lra) ltac:(lra) ltac:(lra))) as h.
  intros e. rewrite e in h. lra.
Qed.
Print Assumptions C21_scaling_refuted.

Theorem C21_constant_curvature_refuted : exists l phi x k : R, 0 < l /\ 0 < phi /\ 0 < x < l /\
  interp (y_shape l phi x) 0 0 (k * (l * l) / 2) (k * l) <> k * (x * x) / 2.
Proof.
  exists 2, 1, 1, 1. do 3 (split; [lra|]). unfold interp, y_shape, sq, cube. rnum. intros h.
  assert (e : 1 / (1 + 1) * (1 + 2 * (1 / 2 * (1 / 2) * (1 / 2)) - 3 * (1 / 2 * (1 / 2)) + 1 * (1 - 1 / 2)) * 0 +
    1 / (1 + 1) * (1 + 1 * 1 * 1 / (2 * 2) - 2 * (1 * 1 / 2) + 1 / 2 * (1 / 2 - 1 / 2 * (1 / 2))) * 0 +
    1 / (1 + 1) * (- 2 * (1 / 2 * (1 / 2) * (1 / 2)) + 3 * (1 / 2 * (1 / 2)) + 1 * (1 / 2)) * (1 * (2 * 2) / 2) +
    1 / (1 + 1) * (1 * 1 * 1 / (2 * 2) - 1 * 1 / 2 + 1 / 2 * (1 / 2 * (1 / 2) - 1 / 2)) * (1 * 2) = 5 / 8) by field.
  lra.
Qed.
Print Assumptions C21_constant_curvature_refuted.

(** ** C22: internal forces *)

Theorem C22_internal_forces_partial (b : beam R) (phi x : R) (u : nat -> R) :
  fixed_ends b -> 0 < b_E b -> 0 < b_I b -> 0 < b_l b -> 0 <= phi ->
  let f i := mulv 6 (beam_stiffness b phi) u i in
  let '(n, v, _) := local_forces (beam_stiffness b phi) (b_l b) phi x u in
  n = f 0%nat /\ n = - f 3%nat /\
  (x = 0 \/ x = b_l b -> v = f 1%nat /\ v = - f 4%nat).
Proof. exact (internal_equilibrium b phi x u). Qed.
Print Assumptions C22_internal_forces_partial.

(** without shear deformation: the moment is the linear one plus an error that vanishes at the ends, and elsewhere
    only when both end moments agree *)
Theorem C22_moment_partial (b : beam R) (x : R) (u : nat -> R) :
  fixed_ends b -> 0 < b_E b -> 0 < b_I b -> 0 < b_l b ->
  let f i := mulv 6 (beam_stiffness b 0) u i in
  let xi := x / b_l b in
  let '(_, v, m) := local_forces (beam_stiffness b 0) (b_l b) 0 x u in
  m = (1 - xi) * f 2%nat - xi * f 5%nat + 3 * xi * (1 - xi) * (f 5%nat - f 2%nat) /\
  v = f 1%nat + x * ((1 - xi) * (1 - xi)) * f 2%nat + x * (xi * (1 - xi)) * f 5%nat.
Proof. exact (internal_moment b x u). Qed.
Print Assumptions C22_moment_partial.

(** the strains are N/EA plus the bending strain at top and bottom *)
Theorem C22_strain (b : beam R) (h y phi x : R) (u : nat -> R) : 0 < b_E b -> 0 < b_I b ->
  let '(n, _, m) := local_forces (beam_stiffness b phi) (b_l b) phi x u in
  beam_strain b h y phi x u =
  (n / (b_E b * b_A b) + (h - y) * m / (b_E b * b_I b), n / (b_E b * b_A b) - y * m / (b_E b * b_I b)).
Proof. intros. apply beam_strain_val; lra. Qed.
Print Assumptions C22_strain.

(** pure bending: the moment changes sign along the element and the shear force is not constant *)
Theorem C22_pure_bending_refuted : exists (b : beam R) (u : nat -> R),
  fixed_ends b /\ 0 < b_E b /\ 0 < b_I b /\ 0 < b_A b /\ 0 < b_l b /\
  (forall x, interp (y_shape (b_l b) 0 x) (u 1%nat) (u 2%nat) (u 4%nat) (u 5%nat) = x * x / 2) /\
  (forall x, snd (local_forces (beam_stiffness b 0) (b_l b) 0 x u) = - 1 + 6 * (x * (1 - x))) /\
  snd (fst (local_forces (beam_stiffness b 0) (b_l b) 0 (1 / 4) u)) <> snd (fst (local_forces (beam_stiffness b 0) (b_l b) 0 0 u)).
Proof.
  exists (mkBeam 1 0 1 1 1 0 1 None None), (vec6 0 0 0 0 (1 / 2) 1).
  set (b := mkBeam 1 0 1 1 1 0 1 None None). set (u := vec6 0 0 0 0 (1 / 2) 1).
  assert (hf : fixed_ends b) by (split; reflexivity).
  assert (f : mulv 6 (beam_stiffness b 0) u 1%nat = 0 /\ mulv 6 (beam_stiffness b 0) u 2%nat = - 1 /\ mulv 6 (beam_stiffness b 0) u 5%nat = 1).
  { unfold mulv. cbn [sumn]. rewrite !fixed_entries by (assumption || lia || (cbn; lra)).
    cbn [stiff_entries u vec6 b b_E b_A b_I b_l]. rnum. split; [|split]; field. }
  destruct f as [f1 [f2 f5]].
  split; [exact hf|]. split; [cbn; lra|]. split; [cbn; lra|]. split; [cbn; lra|]. split; [cbn; lra|]. split; [|split].
  - intros x. unfold interp, y_shape, sq, cube. cbn [u vec6 b b_l]. rnum. field.
  - intros x. pose proof (internal_moment b x u hf ltac:(cbn; lra) ltac:(cbn; lra) ltac:(cbn; lra)) as h.
    destruct (local_forces (beam_stiffness b 0) (b_l b) 0 x u) as [[n v] m]. cbn [snd]. destruct h as [h _]. rewrite h, f2, f5. cbn [b b_l]. field.
  - pose proof (internal_moment b (1 / 4) u hf ltac:(cbn; lra) ltac:(cbn; lra) ltac:(cbn; lra)) as h.
    pose proof (internal_moment b 0 u hf ltac:(cbn; lra) ltac:(cbn; lra) ltac:(cbn; lra)) as h'.
    destruct (local_forces (beam_stiffness b 0) (b_l b) 0 (1 / 4) u) as [[n v] m].
    destruct (local_forces (beam_stiffness b 0) (b_l b) 0 0 u) as [[n' v'] m']. cbn [fst snd].
    destruct h as [_ h]. destruct h' as [_ h']. rewrite h, h', f1, f2, f5. cbn [b b_l]. intros e.
    assert (1 / 4 * ((1 - 1 / 4 / 1) * (1 - 1 / 4 / 1)) * -1 + 1 / 4 * (1 / 4 / 1 * (1 - 1 / 4 / 1)) * 1 = - 6 / 64) by field. lra.
Qed.
Print Assumptions C22_pure_bending_refuted.

Example C22_case : fixed_ends steel /\ 0 < b_E steel /\ 0 < b_I steel /\ 0 < b_l steel /\ 1 <> 0 /\ 1 <> b_l steel.
Proof. cbn. repeat split; lra. Qed.

(** ** C23: hinge stiffness *)

Theorem C23_hinge_fixity (old : option R) (E I l f : R) : 0 < E -> 0 < I -> 0 < l -> 0 <= f < 1 ->
  exists s, hinge_stiffness old E I l f = Some s /\ 0 <= s /\ (s = 0 <-> f = 0) /\
    (forall phi nu rho A k s2 u, 0 < A -> 0 <= phi ->
       let p1 := u 2%nat + (u 1%nat - u 4%nat) / l in
       let b1 := mkBeam E nu rho A I k l (Some s) s2 in
       fixity (E * I) l (b_s1 b1) = f /\
       (s2 = None -> quad 6 (beam_stiffness b1 0) u =
          E * A / l * ((u 3%nat - u 0%nat) * (u 3%nat - u 0%nat)) +
          12 * (E * I) / (l * (4 - f)) *
           (f * (p1 * p1) + f * (p1 * (u 5%nat + (u 1%nat - u 4%nat) / l)) + (u 5%nat + (u 1%nat - u 4%nat) / l) * (u 5%nat + (u 1%nat - u 4%nat) / l)))).
Proof.
  intros hE hI hl hf. destruct (hinge_spec old E I l f hE hI hl hf) as [s [h1 [h2 [h3 h4]]]].
  exists s. split; [assumption|]. split; [assumption|]. split; [assumption|]. intros phi nu rho A k s2 u hA hp p1 b1.
  split; [exact h4|]. intros ->. unfold b1. rewrite stiffness_energy by (cbn; lra).
  cbn [b_E b_A b_I b_l b_s1 b_s2]. rewrite h4, fixity_none. unfold p1. field. lra.
Qed.
Print Assumptions C23_hinge_fixity.

Theorem C23_hinge_monotone (o1 o2 : option R) (E I l f g s t : R) :
  0 < E -> 0 < I -> 0 < l -> 0 <= f < 1 -> 0 <= g < 1 -> f < g ->
  hinge_stiffness o1 E I l f = Some s -> hinge_stiffness o2 E I l g = Some t -> s < t.
Proof. exact (hinge_monotone o1 o2 E I l f g s t). Qed.
Print Assumptions C23_hinge_monotone.

(** f = 1 (up to the closeness tolerance, from above) is treated as rigid *)
Theorem C23_hinge_rigid (old : option R) (E I l f : R) : 1 <= f <= 1 + 1 / 100000 ->
  hinge_stiffness old E I l f = Some (IZR (10 ^ 30)).
Proof.
  intros hf. unfold hinge_stiffness. rnum. destruct (nltbP f 1); [lra|]. rewrite andb_false_r.
  assert (hc : np_isclose f 1 = true). { apply np_isclose_spec. rewrite (Rabs_right 1), Rabs_right by lra. lra. }
  rewrite hc. reflexivity.
Qed.
Print Assumptions C23_hinge_rigid.

(** out-of-range factors are accepted silently: the stiffness keeps its previous value *)
Theorem C23_rejection_refuted : exists (E I l f : R), 0 < E /\ 0 < I /\ 0 < l /\ 1 < f /\
  forall old, hinge_stiffness old E I l f = old.
Proof.
  exists 1, 1, 1, 2. do 4 (split; [lra|]). intros old. unfold hinge_stiffness. rnum.
  destruct (nltbP 2 1); [lra|]. rewrite andb_false_r.
  assert (hc : np_isclose 2 1 = false).
  { destruct (np_isclose 2 1) eqn:e; auto. apply np_isclose_spec in e. rewrite (Rabs_right 1), Rabs_right in e by lra. lra. }
  rewrite hc. reflexivity.
Qed.
Print Assumptions C23_rejection_refuted.

(** two adjacent beam ends sharing a hinge use half the stiffness each: their fixity is f / (2 - f) *)
Theorem C23_hinge_shared (old : option R) (E I l f s : R) : 0 < E -> 0 < I -> 0 < l -> 0 <= f < 1 ->
  hinge_stiffness old E I l f = Some s -> fixity (E * I) l (Some (s / 2)) = f / (2 - f).
Proof. exact (hinge_halved old E I l f s). Qed.
Print Assumptions C23_hinge_shared.

Example C23_case : hinge_stiffness None 2 3 (1 / 2) (1 / 2) = Some 36.
Proof.
  unfold hinge_stiffness. rnum. destruct (RlebP 0 (1 / 2)); [|lra]. destruct (nltbP (1 / 2) 1); [|lra]. cbn [andb]. f_equal. field.
Qed.

(** ** C24: rail length *)

Theorem C24_rail_length (old : option R) (ns : list (tri R)) :
  ((length ns < 2)%nat -> calculate_length_rail old ns = Ok old) /\
  (forall p q, nth_error ns 0 = Some p -> nth_error ns 1 = Some q ->
     let ok := forall i a b, nth_error ns i = Some a -> nth_error ns (S i) = Some b ->
                 Rabs (dist3 p q - dist3 a b) <= 1 / 100000000 + 1 / 100000 * dist3 a b in
     (ok -> calculate_length_rail old ns = Ok (Some (dist3 p q))) /\
     (~ ok -> calculate_length_rail old ns = Err ErrInvalidRail)).
Proof. exact (rail_length_spec old ns). Qed.
Print Assumptions C24_rail_length.

Example C24_case : nth_error [T3 0 0 0; T3 3 4 0; T3 6 8 0] 1 = Some (T3 3 4 0) /\ dist3 (T3 0 0 0) (T3 3 4 0) = 5.
Proof. split; [reflexivity|]. unfold dist3. cbn [tx ty tr]. replace ((3 - 0) * (3 - 0) + (4 - 0) * (4 - 0) + (0 - 0) * (0 - 0)) with (5 * 5) by ring. apply sqrt_square. lra. Qed.

(** ** C25: rod matrices *)

Theorem C25_rod_stiffness (k : R) m : rod_spring (Some k) = Some m ->
  msym 2 m /\
  (forall u, quad 2 m u = k * ((u 1%nat - u 0%nat) * (u 1%nat - u 0%nat))) /\
  (forall u, mulv 2 m u 0%nat = - (k * (u 1%nat - u 0%nat)) /\ mulv 2 m u 1%nat = k * (u 1%nat - u 0%nat)).
Proof. exact (rod_spring_spec k m). Qed.
Print Assumptions C25_rod_stiffness.

Theorem C25_rod_mass (mass : R) m : rod_mass (Some mass) = Some m ->
  msym 2 m /\
  quad 2 m (fun _ => 1) = mass /\
  (forall u, quad 2 m u = mass / 3 * (u 0%nat * u 0%nat + u 0%nat * u 1%nat + u 1%nat * u 1%nat)) /\
  (0 < mass -> forall u, u 0%nat <> 0 \/ u 1%nat <> 0 -> 0 < quad 2 m u).
Proof. exact (rod_mass_spec mass m). Qed.
Print Assumptions C25_rod_mass.

Theorem C25_rod_defined : @rod_spring R _ None = None /\ @rod_mass R _ None = None /\
  (forall k : R, exists m, rod_spring (Some k) = Some m) /\ (forall k : R, exists m, rod_mass (Some k) = Some m).
Proof. split; [reflexivity|]. split; [reflexivity|]. split; intros; eexists; reflexivity. Qed.
Print Assumptions C25_rod_defined.

(** ** C26: validation *)

(** in a process that has not logged an error before *)
Theorem C26_validation_partial (cache : list nat) (ps : list (part R)) :
  ~ In 40%nat cache -> ~ In 50%nat cache ->
  ((exists e, fst (validate_model cache ps) = Err e) <-> ~ Forall complete ps).
Proof.
  intros h4 h5. rewrite validate_err, validate_spec. tauto.
Qed.
Print Assumptions C26_validation_partial.

(** an incomplete model never passes, and complete models pass one after the other as long as nothing went wrong *)
Theorem C26_validation_sound (cache : list nat) (ps : list (part R)) :
  fst (validate_model cache ps) = Ok tt -> Forall complete ps.
Proof. intros h. apply validate_spec in h. tauto. Qed.
Print Assumptions C26_validation_sound.

Theorem C26_validation_sequence (cache : list nat) (models : list (list (part R))) :
  ~ In 40%nat cache -> ~ In 50%nat cache ->
  (forall m, In m models -> Forall complete m) ->
  validate_all cache models = map (fun _ => Ok tt) models.
Proof. exact (validate_all_clean cache models). Qed.
Print Assumptions C26_validation_sequence.

(** an invalid model makes every later model fail, however complete it is *)
Theorem C26_independence_refuted : exists bad good : part R,
  complete good /\ ~ complete bad /\
  validate_all [] [[good]; [bad]; [good]] = [Ok tt; Err ErrNotDefined; Err ErrNotDefined].
Proof.
  exists (PRod None (mkSizes (Some 2%nat) (Some 1%nat))), (PRod (Some 1) (mkSizes (Some 2%nat) (Some 1%nat))).
  split; [|split; [|reflexivity]].
  - cbn. split; [eexists; reflexivity|]. split; eexists; split; try reflexivity; lia.
  - cbn. intros [[x h] _]. discriminate.
Qed.
Print Assumptions C26_independence_refuted.

Example C26_case : complete (PBeam (Some (mkMaterial (Some 1) (Some 1) (Some 1)))
  (Some (mkSection (Some 1) (Some 1) (Some 0) None None)) (mkSizes (Some 3%nat) (Some 2%nat))).
Proof.
  cbn. split; [eexists; split; [reflexivity|]; repeat split; eexists; reflexivity|].
  split; [eexists; split; [reflexivity|]; repeat split; try (eexists; reflexivity); intros; discriminate|].
  split; eexists; split; try reflexivity; lia.
Qed.
