(** * Element forces (C83) and directions of nodes and parts (C82) *)

From Coq Require Import Reals List Bool ZArith Arith Lia Lra Psatz.
From Verif Require Import Num PyBase Model_Geometry Model_System Model_Element
  Spec_Geometry Spec_System Spec_Element Proofs_Elements Proofs_System Proofs_Element.
Import ListNotations.
Local Open Scope R_scope.

Lemma mulv_mmul n (a b : nat -> nat -> R) u i : mulv n (mmul n a b) u i = mulv n a (mulv n b u) i.
Proof.
  unfold mulv, mmul. rnum.
  transitivity (sumn n (fun j => sumn n (fun k => a i k * (b k j * u j)))).
  - apply sumn_ext. intros j hj. rewrite <- sumn_scal_r. apply sumn_ext. intros k hk. rnum. ring.
  - rewrite sumn_swap. apply sumn_ext. intros k hk. rewrite <- sumn_scal. reflexivity.
Qed.

Definition dnum (d : dir) : nat := match d with DX => 0 | DY => 1 | DR => 2 end.

Lemma force_row (f : nat -> R) (mask : tri bool) : exists out : tri R,
  assign_force_row (flat_map (fun d => if tget mask d then [f (match d with DX => 0 | DY => 1 | DR => 2 end)%nat] else []) all_dirs) (tlist mask)
    = Ok (tlist out) /\
  (forall d, tget mask d = true -> tget out d = f (dnum d)) /\ (forall d, tget mask d = false -> tget out d = 0).
Proof.
  exists (T3 (if tx mask then f 0%nat else 0) (if ty mask then f 1%nat else 0) (if tr mask then f 2%nat else 0)).
  destruct mask as [[] [] []]; (split; [reflexivity|]); split; intros [] h; cbn in *; congruence.
Qed.

Lemma last_in {A} (l : list A) d : In (last l d) (d :: l).
Proof.
  induction l as [|a l IH]; [left; reflexivity|]. destruct l as [|b l]; [right; left; reflexivity|].
  cbn [last]. change (last (b :: l) d) with (last (b :: l) d) in *. destruct IH as [h|h]; [left; exact h|right; right; exact h].
Qed.

Lemma stored_rotation_parallel (es : list ((R * R) * (R * R))) e :
  In e es -> (forall e', In e' es -> calculate_rotation1 e' = calculate_rotation1 e) ->
  stored_rotation es = Some (rotation_matrix (calculate_rotation1 e)).
Proof.
  destruct es as [|a es]; intros hi h; [destruct hi|]. cbn [stored_rotation]. rewrite (h _ (last_in es a)). reflexivity.
Qed.

Lemma element_force_spec (k : nat -> nat -> R) (p q : R * R) (u : nat -> R) :
  let a := calculate_rotation1 (p, q) in
  let g := mulv 6 (rotate_aux_matrix p q k) u in
  exists f : nat -> R,
    g 0%nat = cos a * f 0%nat + sin a * f 1%nat /\ g 1%nat = - sin a * f 0%nat + cos a * f 1%nat /\ g 2%nat = f 2%nat /\
    g 3%nat = cos a * f 3%nat + sin a * f 4%nat /\ g 4%nat = - sin a * f 3%nat + cos a * f 4%nat /\ g 5%nat = f 5%nat /\
    forall i, (i < 3)%nat -> element_force k (rotation_matrix a) u i = (f i - f (i + 3)%nat) / 2.
Proof.
  intros a g. exists (mulv 6 k (mulv 6 (mtrans (rotation_matrix a)) u)).
  assert (e : forall i, g i = mulv 6 (rotation_matrix a) (mulv 6 k (mulv 6 (mtrans (rotation_matrix a)) u)) i).
  { intros i. unfold g, rotate_aux_matrix. fold a. rewrite mulv_mmul. unfold mulv at 1 3. apply sumn_ext. intros j hj.
    rewrite mulv_mmul. reflexivity. }
  assert (he : forall i, (i < 3)%nat -> element_force k (rotation_matrix a) u i =
    (mulv 6 k (mulv 6 (mtrans (rotation_matrix a)) u) i - mulv 6 k (mulv 6 (mtrans (rotation_matrix a)) u) (i + 3)%nat) / 2) by reflexivity.
  set (f := mulv 6 k _) in *. clearbody f.
  assert (hr : forall i, (i < 6)%nat -> g i = mulv 6 (fun i j => match i, j with
  | 0%nat, 0%nat | 1%nat, 1%nat | 3%nat, 3%nat | 4%nat, 4%nat => cos a
  | 0%nat, 1%nat | 3%nat, 4%nat => sin a
  | 1%nat, 0%nat | 4%nat, 3%nat => - sin a
  | 2%nat, 2%nat | 5%nat, 5%nat => 1
  | _, _ => 0
  end) f i).
  { intros i hi. rewrite e. apply mulv_ext6; [|exact hi]. intros. apply rotation_matrix_entries; assumption. }
  rewrite !hr by lia. unfold mulv. cbn [sumn]. rnum. repeat split; try ring. exact he.
Qed.

(** ** horizontal and vertical elements *)

Lemma rotation1_right (x1 x2 y : R) : x1 <= x2 -> calculate_rotation1 ((x1, y), (x2, y)) = 0.
Proof.
  intros h. unfold calculate_rotation1. rnum. destruct (nltbP x2 x1); [lra|].
  destruct (np_isclose (x2 - x1) 0).
  - replace (y - y) with 0 by ring. replace (nsign 0) with 0; [field|]. unfold nsign. rnum.
    destruct (nltbP 0 0); [lra|]. reflexivity.
  - unfold Rdiv. replace (y - y) with 0 by ring. rewrite Rmult_0_l. change (0 + atan 0 = 0). rewrite atan_0. ring.
Qed.

Lemma rotation1_vertical (x y1 y2 : R) : y1 <> y2 ->
  calculate_rotation1 ((x, y1), (x, y2)) = if Rlt_dec y1 y2 then PI / 2 else - (PI / 2).
Proof.
  intros h. unfold calculate_rotation1. rnum. destruct (nltbP x x); [lra|]. replace (x - x) with 0 by ring.
  replace (np_isclose 0 0) with true; [|symmetry; apply np_isclose_0_spec; rewrite Rabs_R0; lra].
  destruct (Rlt_dec y1 y2).
  - rewrite nsign_pos by lra. change (PI / 2 * 1 = PI / 2). field.
  - rewrite nsign_neg by lra. change (PI / 2 * -1 = - (PI / 2)). field.
Qed.

Lemma element_force_ext (k e rot : nat -> nat -> R) u i :
  (forall i j, (i < 6)%nat -> (j < 6)%nat -> k i j = e i j) -> (i < 3)%nat -> element_force k rot u i = element_force e rot u i.
Proof.
  intros h hi. unfold element_force. f_equal. f_equal; (apply sumn_ext; intros j hj; rewrite h by lia; reflexivity).
Qed.

Lemma element_force_0 (k : nat -> nat -> R) u i : (i < 3)%nat ->
  element_force k (rotation_matrix 0) u i = (mulv 6 k u i - mulv 6 k u (i + 3)%nat) / 2.
Proof.
  intros hi. assert (e : forall j, (j < 6)%nat -> sumn 6 (fun m => mtrans (rotation_matrix 0) j m * u m) = u j).
  { intros j hj. unfold mtrans. cbn [sumn]. rewrite !rotation_matrix_entries by lia. rewrite sin_0, cos_0. rnum.
    do 6 (destruct j as [|j]; [ring|]). lia. }
  unfold element_force, mulv. rnum. f_equal. f_equal; apply sumn_ext; intros j hj; rewrite <- (e j hj); reflexivity.
Qed.

Lemma beam_force_spec (b : beam R) (phi : R) (u : nat -> R) :
  fixed_ends b -> 0 < b_E b -> 0 < b_I b -> 0 < b_l b -> 0 <= phi ->
  let f := element_force (beam_stiffness b phi) (rotation_matrix 0) u in
  let l := b_l b in
  f 0%nat = b_E b * b_A b / l * (u 0%nat - u 3%nat) /\
  f 1%nat = 12 * (b_E b * b_I b) / ((1 + phi) * (l * l * l)) * (u 1%nat - u 4%nat + l * (u 2%nat + u 5%nat) / 2) /\
  f 2%nat = b_E b * b_I b / l * (u 2%nat - u 5%nat).
Proof.
  intros hf hE hI hl hp f l. unfold f.
  assert (e : forall i, (i < 3)%nat -> element_force (beam_stiffness b phi) (rotation_matrix 0) u i =
    (mulv 6 (stiff_entries (b_E b * b_A b) l (b_E b * b_I b) phi 1 1) u i -
     mulv 6 (stiff_entries (b_E b * b_A b) l (b_E b * b_I b) phi 1 1) u (i + 3)%nat) / 2).
  { intros i hi. rewrite <- element_force_0 by exact hi. apply element_force_ext; [|exact hi].
    intros. apply fixed_entries; assumption. }
  rewrite !e by lia. unfold mulv. cbn [sumn Nat.add]. cbn [stiff_entries]. rnum.
  unfold l. repeat split; field; repeat split; lra.
Qed.

Lemma rod_force_spec (k : R) m (a : R) (u : nat -> R) :
  rod_spring (Some k) = Some m ->
  let f := element_force (rod_reshaped m) (rotation_matrix a) u in
  f 0%nat = - (k * (cos a * (u 3%nat - u 0%nat) - sin a * (u 4%nat - u 1%nat))) /\ f 1%nat = 0 /\ f 2%nat = 0.
Proof.
  intros hm f. unfold f, element_force, mtrans. cbn [sumn Nat.add]. rewrite !(rod_reshaped_entries k m) by (assumption || lia).
  rewrite !rotation_matrix_entries by lia. cbn [rod_entries]. rnum. repeat split; field.
Qed.

Lemma mask_force (k : nat -> nat -> R) rot u (mask : tri bool) es us i :
  stored_rotation es = Some rot -> nth_error us i = Some u ->
  exists out : tri R, nth_error (element_forces k mask es us) i = Some (Ok (tlist out)) /\
    (forall d, tget mask d = true -> tget out d = element_force k rot u (dnum d)) /\ (forall d, tget mask d = false -> tget out d = 0).
Proof.
  intros hr hu. destruct (force_row (element_force k rot u) mask) as [out [h1 h2]]. exists out. split; [|exact h2].
  unfold element_forces. rewrite hr. rewrite nth_error_map, hu. cbn [option_map]. f_equal. exact h1.
Qed.

(** ** directions of nodes and parts *)

Lemma flat_map_len {A B} (f : A -> list B) (l : list A) n : (forall a, In a l -> length (f a) = n) -> length (flat_map f l) = (length l * n)%nat.
Proof.
  intros h. induction l as [|a l IH]; [reflexivity|]. cbn [flat_map length]. rewrite app_length, IH, (h a (or_introl eq_refl)); [reflexivity|].
  intros b hb. apply h. right. exact hb.
Qed.

Lemma part_indices_length (flag : tri bool) (ns : list (node R)) :
  (forall n d, In n ns -> tget flag d = true -> tget (n_dof n) d <> None) ->
  length (part_dof_indices flag ns) = part_total_n_dof flag ns.
Proof.
  intros h. unfold part_dof_indices, part_total_n_dof. apply flat_map_len. intros n hn.
  pose proof (h n DX hn) as hx. pose proof (h n DY hn) as hy. pose proof (h n DR hn) as hr. clear h hn.
  destruct flag as [fx fy fr]. destruct n as [id ix [dx dy dr] co fl pa]. cbn in *.
  destruct fx, fy, fr, dx, dy, dr; cbn; try reflexivity; exfalso;
    first [apply hx; reflexivity | apply hy; reflexivity | apply hr; reflexivity].
Qed.
