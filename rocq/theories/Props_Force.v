(** * Properties of nodal directions and element forces (C82, C83) *)

From Coq Require Import Reals List Bool ZArith Arith Lia Lra Psatz.
From Verif Require Import Num PyBase Model_Geometry Model_System Model_Element
  Spec_Geometry Spec_System Spec_Element Proofs_Elements Proofs_System Proofs_Element Proofs_Force.
Import ListNotations.
Local Open Scope R_scope.

(** ** C82: switching directions of a node on and off *)

(** direction 0 is x, 1 is y, 2 the rotation; only that direction changes *)
Theorem C82_set_direction (n : node R) (active : bool) :
  let x := set_dof n 0 active in let y := set_dof n 1 active in let r := set_dof n 2 active in
  n_flag x = T3 active (ty (n_flag n)) (tr (n_flag n)) /\
  n_flag y = T3 (tx (n_flag n)) active (tr (n_flag n)) /\
  n_flag r = T3 (tx (n_flag n)) (ty (n_flag n)) active /\
  (forall i, (3 <= i)%nat -> set_dof n i active = n) /\
  (forall i, let m := set_dof n i active in
     n_id m = n_id n /\ n_index m = n_index n /\ n_dof m = n_dof n /\ n_coord m = n_coord n /\ n_parts m = n_parts n).
Proof.
  destruct n as [id ix dof co [fx fy fr] pa]. cbn. split; [reflexivity|]. split; [reflexivity|]. split; [reflexivity|]. split.
  - intros i hi. destruct i as [|[|[|i]]]; try lia. reflexivity.
  - intros i. destruct i as [|[|[|i]]]; repeat split.
Qed.
Print Assumptions C82_set_direction.

(** a fresh node has all three directions; switching one off and on again restores it *)
Theorem C82_count (n : node R) :
  ndof n = length (filter (fun d => tget (n_flag n) d) [DX; DY; DR]) /\
  (forall id x y z, ndof (@new_node R id x y z) = 3%nat) /\
  (forall d, tget (n_flag n) d = true -> S (ndof (set_dof n (match d with DX => 0 | DY => 1 | DR => 2 end) false)) = ndof n) /\
  (forall d, tget (n_flag n) d = true -> set_dof (set_dof n (match d with DX => 0 | DY => 1 | DR => 2 end) false) (match d with DX => 0 | DY => 1 | DR => 2 end) true = n).
Proof.
  destruct n as [id ix dof co [fx fy fr] pa]. split; [destruct fx, fy, fr; reflexivity|]. split; [reflexivity|]. split.
  - intros [] h; cbn in h; subst; cbn; destruct fx || destruct fy || idtac; try destruct fy; try destruct fr; reflexivity.
  - intros [] h; cbn in h; subst; reflexivity.
Qed.
Print Assumptions C82_count.

(** the number of degrees of freedom a part announces is the number of dof numbers it collects from its nodes *)
Theorem C82_part_total (flag : tri bool) (ns : list (node R)) :
  part_total_n_dof flag ns = (length ns * length (filter (fun d => tget flag d) [DX; DY; DR]))%nat /\
  ((forall n d, In n ns -> tget flag d = true -> tget (n_dof n) d <> None) ->
     length (part_dof_indices flag ns) = part_total_n_dof flag ns).
Proof.
  split; [unfold part_total_n_dof; destruct flag as [[] [] []]; reflexivity|]. apply part_indices_length.
Qed.
Print Assumptions C82_part_total.

Example C82_case :
  let n := mkNode 0 (Some 0%nat) (T3 (Some 4%nat) (Some 5%nat) None) (T3 1 2 3) (T3 true true false) [] : node R in
  ndof n = 2%nat /\ tget (n_flag n) DY = true /\
  part_total_n_dof (T3 false true false) [n; n] = 2%nat /\ part_dof_indices (T3 false true false) [n; n] = [5%nat; 5%nat].
Proof. repeat split. Qed.

(** ** C83: forces in elements *)

(** (partial) when all elements of the part have the direction of this one: the reported force is the mean of the forces [f]
    at the two ends, in the axes of the element, where [f] turned into the global axes is what the element contributes to the
    assembled equations; inactive directions are zero.  Missing: parts whose elements have different directions, see the
    refutation. *)
Theorem C83_reported_partial (k : nat -> nat -> R) (mask : tri bool) es us i p q u :
  nth_error es i = Some (p, q) -> nth_error us i = Some u ->
  (forall e, In e es -> calculate_rotation1 e = calculate_rotation1 (p, q)) ->
  let a := calculate_rotation1 (p, q) in
  let g := mulv 6 (rotate_aux_matrix p q k) u in
  exists (out : tri R) (f : nat -> R),
    nth_error (element_forces k mask es us) i = Some (Ok (tlist out)) /\
    g 0%nat = cos a * f 0%nat + sin a * f 1%nat /\ g 1%nat = - sin a * f 0%nat + cos a * f 1%nat /\ g 2%nat = f 2%nat /\
    g 3%nat = cos a * f 3%nat + sin a * f 4%nat /\ g 4%nat = - sin a * f 3%nat + cos a * f 4%nat /\ g 5%nat = f 5%nat /\
    tx out = (if tx mask then (f 0%nat - f 3%nat) / 2 else 0) /\
    ty out = (if ty mask then (f 1%nat - f 4%nat) / 2 else 0) /\
    tr out = (if tr mask then (f 2%nat - f 5%nat) / 2 else 0).
Proof.
  intros he hu hp a g. destruct (element_force_spec k p q u) as [f [g0 [g1 [g2 [g3 [g4 [g5 hf]]]]]]].
  fold a g in g0, g1, g2, g3, g4, g5, hf.
  pose proof (stored_rotation_parallel es (p, q) (nth_error_In _ _ he) hp) as hr. fold a in hr.
  destruct (mask_force k _ u mask es us i hr hu) as [out [h1 [h2 h3]]].
  exists out, f. split; [exact h1|]. do 6 (split; [assumption|]).
  assert (e : forall d, tget out d = if tget mask d then (f (dnum d) - f (dnum d + 3)%nat) / 2 else 0).
  { intros d. destruct (tget mask d) eqn:em; [|apply h3; exact em]. rewrite (h2 d em). apply hf. destruct d; cbn; lia. }
  split; [exact (e DX)|]. split; [exact (e DY)|exact (e DR)].
Qed.
Print Assumptions C83_reported_partial.

(** a rail running from left to right reports normal force, shear force and mean bending moment, in terms of the displacements
    of its ends *)
Theorem C83_rail_partial (b : beam R) (phi : R) es us i p q u :
  fixed_ends b -> 0 < b_E b -> 0 < b_I b -> 0 < b_l b -> 0 <= phi ->
  (forall e, In e es -> fst (fst e) <= fst (snd e) /\ snd (fst e) = snd (snd e)) ->
  nth_error es i = Some (p, q) -> nth_error us i = Some u ->
  let l := b_l b in
  exists out, nth_error (element_forces (beam_stiffness b phi) (T3 true true true) es us) i = Some (Ok (tlist out)) /\
    tx out = b_E b * b_A b / l * (u 0%nat - u 3%nat) /\
    ty out = 12 * (b_E b * b_I b) / ((1 + phi) * (l * l * l)) * (u 1%nat - u 4%nat + l * (u 2%nat + u 5%nat) / 2) /\
    tr out = b_E b * b_I b / l * (u 2%nat - u 5%nat) /\
    (rigid_motion l u -> out = T3 0 0 0).
Proof.
  intros hf hE hI hl hp hes he hu l.
  assert (z : forall e, In e es -> calculate_rotation1 e = 0).
  { intros [[x1 y1] [x2 y2]] hin. destruct (hes _ hin) as [h1 h2]. cbn in h1, h2. subst y2. apply rotation1_right. exact h1. }
  assert (hr : stored_rotation es = Some (rotation_matrix 0)).
  { rewrite (stored_rotation_parallel es (p, q) (nth_error_In _ _ he)).
    - rewrite (z _ (nth_error_In _ _ he)). reflexivity.
    - intros e' h'. rewrite (z _ h'), (z _ (nth_error_In _ _ he)). reflexivity. }
  destruct (mask_force (beam_stiffness b phi) _ u (T3 true true true) es us i hr hu) as [out [h1 [h2 _]]].
  destruct (beam_force_spec b phi u hf hE hI hl hp) as [f0 [f1 f2]]. fold l in f0, f1, f2.
  pose proof (h2 DX eq_refl) as e0. pose proof (h2 DY eq_refl) as e1. pose proof (h2 DR eq_refl) as e2. cbn [dnum tget] in e0, e1, e2.
  rewrite f0 in e0. rewrite f1 in e1. rewrite f2 in e2.
  exists out. split; [exact h1|]. split; [exact e0|]. split; [exact e1|]. split; [exact e2|].
  intros [r1 [r2 r3]]. destruct out as [ox oy orr]. cbn in e0, e1, e2. rewrite r1 in e0. rewrite r2, r3 in e1. rewrite r2 in e2.
  f_equal.
  - rewrite e0. ring.
  - rewrite e1. replace (u 1%nat - (u 1%nat + l * u 2%nat) + l * (u 2%nat + u 2%nat) / 2) with 0 by field. ring.
  - rewrite e2. ring.
Qed.
Print Assumptions C83_rail_partial.

Example C83_rail_case :
  let b := mkBeam 2 0 1 3 5 0 2 None None : beam R in
  fixed_ends b /\ 0 < b_E b /\ 0 < b_I b /\ 0 < b_l b /\
  (forall e, In e [((0, 1), (2, 1)); ((2, 1), (4, 1))] -> fst (fst e) <= fst (snd e) /\ snd (fst e) = snd (snd e)).
Proof. cbn. repeat split; try lra. all: destruct H as [<-|[<-|[]]]; cbn; lra. Qed.

(** rods standing upright (rail pads, ballast and soil springs) report stiffness times elongation, rods lying from left to
    right stiffness times shortening *)
Theorem C83_rods (k : R) m es us i p q u :
  rod_spring (Some k) = Some m ->
  nth_error es i = Some (p, q) -> nth_error us i = Some u ->
  ((forall e, In e es -> fst (fst e) = fst (snd e) /\ snd (fst e) < snd (snd e)) ->
     nth_error (element_forces (rod_reshaped m) (T3 true false false) es us) i = Some (Ok [k * (u 4%nat - u 1%nat); 0; 0])) /\
  ((forall e, In e es -> fst (fst e) = fst (snd e) /\ snd (snd e) < snd (fst e)) ->
     nth_error (element_forces (rod_reshaped m) (T3 true false false) es us) i = Some (Ok [k * (u 1%nat - u 4%nat); 0; 0])) /\
  ((forall e, In e es -> fst (fst e) <= fst (snd e) /\ snd (fst e) = snd (snd e)) ->
     nth_error (element_forces (rod_reshaped m) (T3 true false false) es us) i = Some (Ok [k * (u 0%nat - u 3%nat); 0; 0])).
Proof.
  intros hm he hu. pose proof (nth_error_In _ _ he) as hin.
  assert (gen : forall a v, (forall e, In e es -> calculate_rotation1 e = a) ->
    - (k * (cos a * (u 3%nat - u 0%nat) - sin a * (u 4%nat - u 1%nat))) = v ->
    nth_error (element_forces (rod_reshaped m) (T3 true false false) es us) i = Some (Ok [v; 0; 0])).
  { intros a v z hv. assert (hr : stored_rotation es = Some (rotation_matrix a)).
    { rewrite (stored_rotation_parallel es (p, q) hin).
      - rewrite (z _ hin). reflexivity.
      - intros e' h'. rewrite (z _ h'), (z _ hin). reflexivity. }
    destruct (mask_force (rod_reshaped m) _ u (T3 true false false) es us i hr hu) as [out [h1 [h2 h3]]].
    destruct (rod_force_spec k m a u hm) as [f0 _].
    rewrite h1. pose proof (h2 DX eq_refl) as e0. pose proof (h3 DY eq_refl) as e1. pose proof (h3 DR eq_refl) as e2.
    destruct out as [ox oy orr]. cbn [tget dnum tx ty tr] in e0, e1, e2. rewrite f0, hv in e0. unfold tlist. cbn. rewrite e0, e1, e2. reflexivity. }
  split; [|split]; intros hall.
  - apply (gen (PI / 2)); [|rewrite cos_PI2, sin_PI2; ring].
    intros [[x1 y1] [x2 y2]] h. destruct (hall _ h) as [h1 h2]. cbn in h1, h2. subst x2. rewrite rotation1_vertical by lra.
    destruct (Rlt_dec y1 y2); [reflexivity|lra].
  - apply (gen (- (PI / 2))); [|rewrite cos_neg, sin_neg, cos_PI2, sin_PI2; ring].
    intros [[x1 y1] [x2 y2]] h. destruct (hall _ h) as [h1 h2]. cbn in h1, h2. subst x2. rewrite rotation1_vertical by lra.
    destruct (Rlt_dec y1 y2); [lra|reflexivity].
  - apply (gen 0); [|rewrite cos_0, sin_0; ring].
    intros [[x1 y1] [x2 y2]] h. destruct (hall _ h) as [h1 h2]. cbn in h1, h2. subst y2. apply rotation1_right. exact h1.
Qed.
Print Assumptions C83_rods.

Example C83_rods_case : forall e : (R * R) * (R * R), In e [((0, 2), (0, 1)); ((1, 2), (1, 1))] -> fst (fst e) = fst (snd e) /\ snd (snd e) < snd (fst e).
Proof. intros e [<-|[<-|[]]]; cbn; lra. Qed.

(** the sign depends on the orientation: the same shortening gives opposite forces in a lying and in a standing rod *)
Theorem C83_sign_refuted : exists (k : R) m (u v : nat -> R),
  0 < k /\ rod_spring (Some k) = Some m /\
  u 3%nat - u 0%nat = - 1 /\ v 4%nat - v 1%nat = - 1 /\
  element_forces (rod_reshaped m) (T3 true false false) [((0, 0), (5, 0))] [u] = [Ok [k; 0; 0]] /\
  element_forces (rod_reshaped m) (T3 true false false) [((0, 0), (0, 5))] [v] = [Ok [- k; 0; 0]].
Proof.
  destruct (rod_spring (Some 1)) as [m|] eqn:hm; [|discriminate].
  exists 1, m, (vec6 0 0 0 (- 1) 0 0), (vec6 0 0 0 0 (- 1) 0).
  assert (one : forall es (u : nat -> R) v, nth_error (element_forces (rod_reshaped m) (T3 true false false) es [u]) 0 = Some v ->
    element_forces (rod_reshaped m) (T3 true false false) es [u] = [v]).
  { intros es u v. unfold element_forces. destruct (stored_rotation es); cbn [map nth_error]; [|discriminate]. intros h. injection h as <-. reflexivity. }
  split; [lra|]. split; [exact hm|]. cbn [vec6]. split; [lra|]. split; [lra|]. split; apply one.
  - rewrite (proj2 (proj2 (C83_rods 1 m [((0, 0), (5, 0))] [vec6 0 0 0 (- 1) 0 0] 0 (0, 0) (5, 0) (vec6 0 0 0 (- 1) 0 0) hm eq_refl eq_refl))).
    + cbn [vec6]. do 3 f_equal. ring.
    + intros e [<-|[]]. cbn. lra.
  - rewrite (proj1 (C83_rods 1 m [((0, 0), (0, 5))] [vec6 0 0 0 0 (- 1) 0] 0 (0, 0) (0, 5) (vec6 0 0 0 0 (- 1) 0) hm eq_refl eq_refl)).
    + cbn [vec6]. do 3 f_equal. ring.
    + intros e [<-|[]]. cbn. lra.
Qed.
Print Assumptions C83_sign_refuted.

(** in a part with a lying and a standing rod the force of the first is computed with the direction of the last: stretching the
    first rod reports no force, and moving its end sideways does *)
Theorem C83_mixed_directions_refuted : exists (k : R) m (u v : nat -> R),
  0 < k /\ rod_spring (Some k) = Some m /\
  (u 1%nat = 0 /\ u 4%nat = 0 /\ u 3%nat - u 0%nat = 1) /\ (v 0%nat = 0 /\ v 3%nat = 0 /\ v 4%nat - v 1%nat = 1) /\
  let es := [((0, 0), (5, 0)); ((5, 0), (5, 5))] in
  nth_error (element_forces (rod_reshaped m) (T3 true false false) es [u; u]) 0 = Some (Ok [0; 0; 0]) /\
  nth_error (element_forces (rod_reshaped m) (T3 true false false) es [v; v]) 0 = Some (Ok [k; 0; 0]).
Proof.
  destruct (rod_spring (Some 1)) as [m|] eqn:hm; [|discriminate].
  exists 1, m, (vec6 0 0 0 1 0 0), (vec6 0 0 0 0 1 0). cbn [vec6].
  split; [lra|]. split; [exact hm|]. split; [lra|]. split; [lra|]. cbv zeta.
  set (es := [((0, 0), (5, 0)); ((5, 0), (5, 5))]).
  assert (hr : stored_rotation es = Some (rotation_matrix (PI / 2))).
  { unfold es. cbn [stored_rotation last]. rewrite rotation1_vertical by lra. destruct (Rlt_dec 0 5); [reflexivity|lra]. }
  assert (gen : forall (u : nat -> R) v, u 4%nat - u 1%nat = v ->
    nth_error (element_forces (rod_reshaped m) (T3 true false false) es [u; u]) 0 = Some (Ok [v; 0; 0])).
  { intros u v hv. destruct (mask_force (rod_reshaped m) _ u (T3 true false false) es [u; u] 0 hr eq_refl) as [out [h1 [h2 h3]]].
    destruct (rod_force_spec 1 m (PI / 2) u hm) as [f0 _]. rewrite cos_PI2, sin_PI2 in f0.
    rewrite h1. pose proof (h2 DX eq_refl) as e0. pose proof (h3 DY eq_refl) as e1. pose proof (h3 DR eq_refl) as e2.
    destruct out as [ox oy orr]. cbn [tget dnum tx ty tr] in e0, e1, e2. rewrite f0 in e0. unfold tlist. cbn. rewrite e0, e1, e2. do 3 f_equal. lra. }
  split; apply gen; cbn [vec6]; lra.
Qed.
Print Assumptions C83_mixed_directions_refuted.
