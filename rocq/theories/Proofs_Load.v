(** * Proofs about the nodal forces of moving loads (C28, C32) *)

From Coq Require Import Reals List Bool ZArith Arith Lia Lra Psatz.
From Verif Require Import Num PyBase Model_Geometry Model_System Model_Element Model_Moving
  Spec_System Spec_Element Spec_Moving Proofs_System Proofs_Element Proofs_Beam Proofs_Moving Proofs_Contact.
Import ListNotations.
Local Open Scope R_scope.

Lemma is_zero_spec (x : R) : is_zero x = true <-> x = 0.
Proof.
  unfold is_zero. rewrite math_isclose_spec. change (@lit R RNum 0) with 0. rewrite Rminus_0_r, Rabs_R0.
  rewrite Rmax_left by apply Rabs_pos. split.
  - intros h. pose proof (Rabs_pos x). destruct (Req_dec x 0) as [|hx]; auto. pose proof (Rabs_pos_lt x hx). lra.
  - intros ->. rewrite Rabs_R0. lra.
Qed.
Lemma is_zeroP (x : R) : reflect (x = 0) (is_zero x).
Proof. apply iff_reflect. symmetry. apply is_zero_spec. Qed.

Lemma iadd_length (l : list R) i v : length (iadd l i v) = length l.
Proof. apply lset_length. Qed.
Lemma iadd_nth (l : list R) i v k : (i < length l)%nat -> nth k (iadd l i v) 0 = nth k l 0 + (if Nat.eqb i k then v else 0).
Proof.
  intros h. unfold iadd. rewrite nth_lset by auto. change (@lit R RNum 0) with 0. rnum.
  destruct (Nat.eqb_spec i k) as [->|]; ring.
Qed.

Lemma sumn_pick n i (g : nat -> R) v : (i < n)%nat -> sumn n (fun k => g k * (if Nat.eqb i k then v else 0)) = g i * v.
Proof.
  intros h. rewrite (sumn_single n i _ h).
  - rewrite Nat.eqb_refl. reflexivity.
  - intros k hk hne. destruct (Nat.eqb_spec i k); [congruence|]. ring.
Qed.

Lemma zeros_nth (l : list R) k : nth k (map (fun _ => lit 0) l) 0 = 0.
Proof. revert k. induction l; destruct k; simpl; auto. Qed.

(** two nodal values added to a zero vector *)
Definition two (n : nat) (z : list R) (i j : nat) (a b : R) := iadd (iadd z i a) j b.
Lemma two_nth (v : list R) i j a b k : (i < length v)%nat -> (j < length v)%nat ->
  nth k (iadd (iadd (map (fun _ => lit 0) v) i a) j b) 0 = (if Nat.eqb i k then a else 0) + (if Nat.eqb j k then b else 0).
Proof.
  intros hi hj. rewrite iadd_nth by (rewrite iadd_length, map_length; auto). rewrite iadd_nth by (rewrite map_length; auto).
  rewrite zeros_nth. ring.
Qed.
Lemma two_length (v : list R) i j a b : length (iadd (iadd (map (fun _ => lit 0) v) i a) j b) = length v.
Proof. rewrite !iadd_length, map_length. reflexivity. Qed.
Lemma sumn_two n (g : nat -> R) i j a b : (i < n)%nat -> (j < n)%nat ->
  sumn n (fun k => g k * ((if Nat.eqb i k then a else 0) + (if Nat.eqb j k then b else 0))) = g i * a + g j * b.
Proof.
  intros hi hj. rewrite <- (sumn_pick n i g a hi), <- (sumn_pick n j g b hj), <- sumn_add.
  apply sumn_ext. intros k _. ring.
Qed.

(** sums of the shape functions *)
Lemma y_sums (l phi x : R) : l <> 0 -> 1 + phi <> 0 ->
  y_shape l phi x 0 + y_shape l phi x 2 = 1 /\ y_shape l phi x 1 + y_shape l phi x 3 + l * y_shape l phi x 2 = x.
Proof.
  intros hl hp. pose proof (y_shape_rigid l phi x 1 0 hl hp) as h1. pose proof (y_shape_rigid l phi x 0 1 hl hp) as h2.
  unfold interp in *. split; nra.
Qed.
Lemma z_sums (l phi x : R) : l <> 0 -> 1 + phi <> 0 ->
  z_rot_shape l phi x 0 + z_rot_shape l phi x 2 = 0 /\ z_rot_shape l phi x 1 + z_rot_shape l phi x 3 + l * z_rot_shape l phi x 2 = 1.
Proof.
  intros hl hp. pose proof (z_rot_rigid l phi x 1 0 hl hp) as h1. pose proof (z_rot_rigid l phi x 0 1 hl hp) as h2.
  unfold interp in *. split; nra.
Qed.

Lemma direction (p q : tri R) : clear_direction p q ->
  let a := calculate_point_rotation (tx p, ty p) (tx q, ty q) in
  let l := plane_dist (tx p, ty p) (tx q, ty q) in
  l * cos a = tx q - tx p /\ l * sin a = ty q - ty p.
Proof.
  intros h. destruct (point_rotation_spec (tx p, ty p) (tx q, ty q)) as [h1 h2]. cbn [fst snd] in *.
  destruct h as [h|h]; [apply h1; exact h|]. cbv zeta.
  assert (e : Rabs (tx q - tx p) = 0) by (rewrite h, Rminus_diag_eq by auto; apply Rabs_R0).
  destruct h2 as [h3 h4].
  { rewrite e. apply Rmult_le_pos; [lra|]. apply Rle_trans with (Rabs (tx q)); [apply Rabs_pos|apply Rmax_l]. }
  rewrite e in h3, h4. split.
  - apply Rminus_diag_uniq. destruct (Req_dec (plane_dist (tx p, ty p) (tx q, ty q) * cos (calculate_point_rotation (tx p, ty p) (tx q, ty q)) - (tx q - tx p)) 0) as [|hn]; auto.
    apply Rabs_pos_lt in hn. lra.
  - apply Rminus_diag_uniq. destruct (Req_dec (plane_dist (tx p, ty p) (tx q, ty q) * sin (calculate_point_rotation (tx p, ty p) (tx q, ty q)) - (ty q - ty p)) 0) as [|hn]; auto.
    apply Rabs_pos_lt in hn. lra.
Qed.

(** the load that the nodal forces are equivalent to: with both a transverse force and a moment, the transverse force
    is lost and the moment doubled *)
Definition effective (a : R) (f : tri R) : tri R :=
  let r := rotate_scalar a f in
  if (is_zero (ty r) || is_zero (tr r))%bool then f else rotate_scalar (- a) (T3 (tx r) 0 (2 * tr r)).

Lemma distribute_equiv (coords : list (tri R)) (l phi x : R) i j (f : tri R) (st : mstate R) (P : tri R) :
  let p := at_node coords i in let q := at_node coords j in
  let a := calculate_point_rotation (tx p, ty p) (tx q, ty q) in
  (i < length coords)%nat -> (j < length coords)%nat ->
  length (st_x st) = length coords -> length (st_y st) = length coords -> length (st_z st) = length coords ->
  l = plane_dist (tx p, ty p) (tx q, ty q) -> 0 < l -> 1 + phi <> 0 -> clear_direction p q ->
  tx P = tx p + x / l * (tx q - tx p) -> ty P = ty p + x / l * (ty q - ty p) ->
  let st' := distribute l phi (tx p, ty p) (tx q, ty q) i j x f st in
  length (st_x st') = length coords /\ length (st_y st') = length coords /\ length (st_z st') = length coords /\
  equivalent coords (st_x st') (st_y st') (st_z st') P (effective a f) /\
  forall k, k <> i -> k <> j -> nth k (st_x st') 0 = 0 /\ nth k (st_y st') 0 = 0 /\ nth k (st_z st') 0 = 0.
Proof.
  intros p q a hi hj hx hy hz hl hl0 hphi hdir hPx hPy.
  destruct (direction p q hdir) as [dc ds]. fold a in dc, ds. rewrite <- hl in dc, ds.
  assert (hl1 : l <> 0) by lra.
  unfold distribute. cbv zeta. fold a. cbn [st_x st_y st_z w_normal w_shear w_moment].
  set (r := rotate_scalar a f).
  (* the six local nodal values *)
  set (N := if is_zero (tx r) then (lit 0, lit 0) else if is_zero (tx r) then w_normal st else _).
  set (S := tadd _ _). set (M := tadd _ _).
  set (g1 := rotate_scalar _ (T3 (fst N) _ _)). set (g2 := rotate_scalar _ (T3 (snd N) _ _)).
  (* what they add up to *)
  set (V := if (is_zero (ty r) || is_zero (tr r))%bool then ty r else 0).
  set (m := if (is_zero (ty r) || is_zero (tr r))%bool then tr r else 2 * tr r).
  assert (hN : fst N + snd N = tx r).
  { unfold N. destruct (is_zeroP (tx r)) as [->|]; [cbn; ring|]. cbn [fst snd].
    destruct (normal_shape_spec l x 0 0 hl1) as [h _].
    change (tx r * fst (normal_shape l x) + tx r * snd (normal_shape l x) = tx r). rewrite <- Rmult_plus_distr_l, h. ring. }
  destruct (y_sums l phi x hl1 hphi) as [y1 y2]. destruct (z_sums l phi x hl1 hphi) as [z1 z2].
  assert (hS : fst S + snd S = V /\ fst M + snd M + l * snd S = x * V + m).
  { unfold S, M, V, m, tadd. cbn [fst snd].
    destruct (is_zeroP (ty r)) as [e1|e1]; destruct (is_zeroP (tr r)) as [e2|e2]; cbn [fst snd orb]; rnum.
    - rewrite e1, e2. split; ring.
    - rewrite e1. split; [transitivity (tr r * (z_rot_shape l phi x 0 + z_rot_shape l phi x 2)); [ring|rewrite z1; ring]|].
      transitivity (tr r * (z_rot_shape l phi x 1 + z_rot_shape l phi x 3 + l * z_rot_shape l phi x 2)); [ring|rewrite z2; ring].
    - rewrite e2. split; [transitivity (ty r * (y_shape l phi x 0 + y_shape l phi x 2)); [ring|rewrite y1; ring]|].
      transitivity (ty r * (y_shape l phi x 1 + y_shape l phi x 3 + l * y_shape l phi x 2)); [ring|rewrite y2; ring].
    - split; [transitivity (2 * tr r * (z_rot_shape l phi x 0 + z_rot_shape l phi x 2)); [ring|rewrite z1; ring]|].
      transitivity (2 * tr r * (z_rot_shape l phi x 1 + z_rot_shape l phi x 3 + l * z_rot_shape l phi x 2)); [ring|rewrite z2; ring]. }
  destruct hS as [hS hM]. clearbody N S M.
  (* the equivalent load in global directions *)
  assert (he : effective a f = rotate_scalar (- a) (T3 (tx r) V m)).
  { unfold effective. fold r. unfold V, m. destruct (is_zero (ty r) || is_zero (tr r))%bool; auto.
    unfold r. destruct (rotate_spec a f f) as [_ [_ h3]]. rewrite <- h3 at 1. destruct (rotate_scalar a f); reflexivity. }
  rewrite he. rewrite rotate_scalar_val, cos_neg, sin_neg. cbn [tx ty tr].
  assert (e1 : g1 = T3 (cos a * fst N - sin a * fst S) (sin a * fst N + cos a * fst S) (fst M)).
  { unfold g1. change (@nopp R RNum a) with (- a). rewrite rotate_scalar_val, cos_neg, sin_neg. cbn [tx ty tr]. f_equal; ring. }
  assert (e2 : g2 = T3 (cos a * snd N - sin a * snd S) (sin a * snd N + cos a * snd S) (snd M)).
  { unfold g2. change (@nopp R RNum a) with (- a). rewrite rotate_scalar_val, cos_neg, sin_neg. cbn [tx ty tr]. f_equal; ring. }
  rewrite e1, e2. cbn [tx ty tr]. clear g1 g2 e1 e2 he.
  pose proof (cs1 a) as hcs. set (c := cos a) in *. set (s := sin a) in *. clearbody c s.
  rewrite !two_length. split; [auto|]. split; [auto|]. split; [auto|].
  split.
  - split; [|split].
    + unfold total. rewrite two_length, hx. cbn [tx].
      transitivity (1 * (c * fst N - s * fst S) + 1 * (c * snd N - s * snd S)).
      { rewrite <- (sumn_two (length coords) (fun _ => 1) i j) by auto. apply sumn_ext. intros k _. rewrite two_nth by (rewrite hx; auto). ring. }
      rewrite <- hN, <- hS. ring.
    + unfold total. rewrite two_length, hy. cbn [ty].
      transitivity (1 * (s * fst N + c * fst S) + 1 * (s * snd N + c * snd S)).
      { rewrite <- (sumn_two (length coords) (fun _ => 1) i j) by auto. apply sumn_ext. intros k _. rewrite two_nth by (rewrite hy; auto). ring. }
      rewrite <- hN, <- hS. ring.
    + intros o. unfold total_moment, load_moment. cbn [tx ty tr].
      set (X := fun k => tx (at_node coords k)). set (Y := fun k => ty (at_node coords k)).
      transitivity ((1 * fst M + 1 * snd M)
        + ((X i - fst o) * (s * fst N + c * fst S) + (X j - fst o) * (s * snd N + c * snd S))
        - ((Y i - snd o) * (c * fst N - s * fst S) + (Y j - snd o) * (c * snd N - s * snd S))).
      { rewrite <- (sumn_two (length coords) (fun _ => 1) i j (fst M)) by auto.
        rewrite <- (sumn_two (length coords) (fun k => X k - fst o) i j) by auto.
        rewrite <- (sumn_two (length coords) (fun k => Y k - snd o) i j) by auto.
        match goal with |- _ = ?A + ?B - ?C => replace (A + B - C) with (A + B + (-1) * C) by ring end.
        rewrite <- sumn_scal, <- !sumn_add. apply sumn_ext. intros k _.
        rewrite !two_nth by (rewrite ?hx, ?hy, ?hz; auto). unfold X, Y. ring. }
      unfold X, Y. fold p q. rewrite hPx, hPy.
      assert (qx : tx q = tx p + l * c) by lra. assert (qy : ty q = ty p + l * s) by lra. rewrite qx, qy.
      replace (x / l * (tx p + l * c - tx p)) with (x * c) by (field; auto).
      replace (x / l * (ty p + l * s - ty p)) with (x * s) by (field; auto).
      transitivity ((fst M + snd M) + l * snd S * (c * c + s * s) + (tx p - fst o) * (s * (fst N + snd N) + c * (fst S + snd S))
         - (ty p - snd o) * (c * (fst N + snd N) - s * (fst S + snd S))); [ring|].
      rewrite hcs, hN, hS. replace (fst M + snd M + l * snd S * 1) with (x * V + m) by lra.
      transitivity (x * V * (c * c + s * s) + m + (tx p - fst o) * (s * tx r + c * V) - (ty p - snd o) * (c * tx r - s * V)); [rewrite hcs; ring|ring].
  - intros k hki hkj. rewrite !two_nth by (rewrite ?hx, ?hy, ?hz; auto).
    destruct (Nat.eqb_spec i k); [congruence|]. destruct (Nat.eqb_spec j k); [congruence|]. repeat split; ring.
Qed.

(** ** position of the load *)

Lemma count_prefix (p : R -> bool) (l : list R) c : (c <= length l)%nat ->
  (forall i, (i < c)%nat -> p (nth i l 0) = true) -> (forall i, (c <= i)%nat -> (i < length l)%nat -> p (nth i l 0) = false) ->
  length (filter p l) = c.
Proof.
  revert c. induction l as [|a l IH]; intros c hc h1 h2; simpl in hc; [simpl; lia|].
  cbn [filter]. destruct c as [|c].
  - pose proof (h2 0%nat ltac:(lia) ltac:(simpl; lia)) as ha. cbn [nth] in ha. rewrite ha. apply (IH 0%nat); [lia|intros; lia|].
    intros i _ hi. apply (h2 (S i)); simpl; lia.
  - pose proof (h1 0%nat ltac:(lia)) as ha. cbn [nth] in ha. rewrite ha. cbn [length]. f_equal. apply IH; [lia| |].
    + intros i hi. apply (h1 (S i)). lia.
    + intros i h3 h4. apply (h2 (S i)); simpl; lia.
Qed.

Lemma interp1_spec (xs ys : list R) v k : rising xs -> (S k < length xs)%nat -> nth k xs 0 <= v <= nth (S k) xs 0 ->
  interp1 xs ys v = nth k ys 0 + (v - nth k xs 0) / (nth (S k) xs 0 - nth k xs 0) * (nth (S k) ys 0 - nth k ys 0).
Proof.
  intros hr hk hv. unfold interp1. change (@lit R RNum 0) with 0.
  pose proof (hr k hk) as hlt.
  destruct (Req_dec v (nth k xs 0)) as [he|hne].
  - assert (hc : searchsorted xs v = k).
    { unfold searchsorted. apply count_prefix; [lia| |].
      - intros i hi. destruct (nltbP (nth i xs 0) v); auto. pose proof (rising_lt xs i k hr hi ltac:(lia)). lra.
      - intros i h1 h2. destruct (nltbP (nth i xs 0) v); auto. pose proof (rising_le xs k i hr h1 h2). lra. }
    rewrite hc. destruct k as [|k].
    + rewrite Nat.min_l by lia. change (Nat.max 1 0) with 1%nat. change (1 - 1)%nat with 0%nat. rnum. field. lra.
    + rewrite Nat.min_l by lia. rewrite Nat.max_r by lia. replace (S k - 1)%nat with k by lia. rnum.
      pose proof (hr k ltac:(lia)). rewrite he. field. split; lra.
  - assert (hc : searchsorted xs v = S k).
    { unfold searchsorted. apply count_prefix; [lia| |].
      - intros i hi. destruct (nltbP (nth i xs 0) v); auto. pose proof (rising_le xs i k hr ltac:(lia) ltac:(lia)). lra.
      - intros i h1 h2. destruct (nltbP (nth i xs 0) v); auto. pose proof (rising_le xs (S k) i hr h1 h2). lra. }
    rewrite hc. rewrite Nat.min_l by lia. rewrite Nat.max_r by lia. replace (S k - 1)%nat with k by lia. rnum. field. lra.
Qed.

Lemma dist3_segment (p q c : tri R) a : 0 <= a ->
  tx c = tx p + a * (tx q - tx p) -> ty c = ty p + a * (ty q - ty p) -> tr c = tr p + a * (tr q - tr p) ->
  dist3 p c = a * dist3 p q.
Proof.
  intros ha h1 h2 h3. unfold dist3. rewrite h1, h2, h3.
  match goal with |- _ = _ * sqrt ?A => replace (a * sqrt A) with (sqrt (a * a * A)) end.
  - f_equal. ring.
  - rewrite sqrt_mult_alt by nra. rewrite sqrt_square by auto. reflexivity.
Qed.

Lemma node_position_S coords k : node_position coords (S k) = node_position coords k + element_length coords k.
Proof. reflexivity. Qed.

Lemma track_rising (coords : list (tri R)) : coords <> [] ->
  (forall k, (S k < length coords)%nat -> 0 < element_length coords k) -> rising (cum_distances_nodes coords).
Proof.
  intros hne h. destruct (cum_nodes_spec coords hne) as [h1 h2]. intros k hk. rewrite h1 in hk.
  rewrite !h2 by lia. rewrite node_position_S. specialize (h k hk). lra.
Qed.

Lemma nth_map_tri (f : tri R -> R) (l : list (tri R)) k : (k < length l)%nat -> nth k (map f l) 0 = f (at_node l k).
Proof. intros h. apply nth_map0. exact h. Qed.

Lemma moving_coord_spec (coords : list (tri R)) v k : (2 <= length coords)%nat ->
  (forall k, (S k < length coords)%nat -> 0 < element_length coords k) ->
  (S k < length coords)%nat -> node_position coords k <= v <= node_position coords (S k) ->
  let c := moving_coord (cum_distances_nodes coords) coords v in
  let a := (v - node_position coords k) / element_length coords k in
  let p := at_node coords k in let q := at_node coords (S k) in
  0 <= a <= 1 /\ tx c = tx p + a * (tx q - tx p) /\ ty c = ty p + a * (ty q - ty p) /\ tr c = tr p + a * (tr q - tr p) /\
  distance3 p c = v - node_position coords k.
Proof.
  intros hl hpos hk hv c a p q.
  assert (hne : coords <> []) by (destruct coords; simpl in *; [lia|congruence]).
  pose proof (track_rising coords hne hpos) as hr.
  destruct (cum_nodes_spec coords hne) as [n1 n2].
  pose proof (hpos k hk) as hD. rewrite node_position_S in hv.
  assert (ha : 0 <= a <= 1).
  { unfold a. split.
    - apply Rmult_le_pos; [lra|]. apply Rlt_le, Rinv_0_lt_compat. auto.
    - apply (Rmult_le_reg_r (element_length coords k)); auto. unfold Rdiv. rewrite Rmult_assoc, Rinv_l by lra. lra. }
  assert (hi : forall f : tri R -> R, interp1 (cum_distances_nodes coords) (map f coords) v = f p + a * (f q - f p)).
  { intros f. rewrite (interp1_spec _ _ v k hr).
    - rewrite !nth_map_tri by lia. rewrite !n2 by lia. rewrite node_position_S. unfold a. 
      replace (node_position coords k + element_length coords k - node_position coords k) with (element_length coords k) by ring. reflexivity.
    - rewrite n1. auto.
    - rewrite !n2 by lia. rewrite node_position_S. exact hv. }
  assert (e1 : tx c = tx p + a * (tx q - tx p)) by (unfold c, moving_coord; cbn [tx]; apply (hi tx)).
  assert (e2 : ty c = ty p + a * (ty q - ty p)) by (unfold c, moving_coord; cbn [ty]; apply (hi ty)).
  assert (e3 : tr c = tr p + a * (tr q - tr p)) by (unfold c, moving_coord; cbn [tr]; apply (hi tr)).
  repeat split; try tauto.
  rewrite distance3_R. rewrite (dist3_segment p q c a) by tauto.
  change (dist3 p q) with (element_length coords k). unfold a. field. lra.
Qed.

Lemma plane_dist_flat (p q : tri R) : tr q = tr p -> plane_dist (tx p, ty p) (tx q, ty q) = dist3 p q.
Proof. intros h. unfold plane_dist, dist3. cbn [fst snd]. rewrite h. f_equal. ring. Qed.

Lemma effective_single (a : R) (f : tri R) : tr f = 0 \/ (tx f = 0 /\ ty f = 0) -> effective a f = f.
Proof.
  intros h. unfold effective. rewrite rotate_scalar_val. cbn [tx ty tr].
  destruct h as [h|[h1 h2]].
  - destruct (is_zeroP (tr f)); [|contradiction]. rewrite orb_true_r. reflexivity.
  - destruct (is_zeroP (- sin a * tx f + cos a * ty f)) as [|hn]; [reflexivity|]. exfalso. apply hn. rewrite h1, h2. ring.
Qed.

Lemma chain_nth n k : (k < n)%nat -> nth k (chain n) (0, 0)%nat = (k, S k).
Proof.
  intros h. unfold chain. apply nth_error_nth.
  assert (e : nth_error (seq 0 n) k = Some k) by (rewrite (nth_err _ _ 0%nat) by (rewrite seq_length; auto); rewrite seq_nth by auto; reflexivity).
  exact (map_nth_error (fun k => (k, S k)) k (seq 0 n) e).
Qed.

Lemma nth_combine_map {A B C} (f : A * B -> C) (la : list A) (lb : list B) t a b c : length la = length lb -> (t < length la)%nat ->
  nth t (map f (combine la lb)) c = f (nth t la a, nth t lb b).
Proof.
  intros hl ht. rewrite (nth_indep _ c (f (a, b))) by (rewrite map_length, combine_length; lia).
  rewrite map_nth. rewrite combine_nth by auto. reflexivity.
Qed.

(** everything together *)
Lemma moving_load_spec (m : moving_input R) (beams : list (R * R)) :
  plain_track m -> slow_run m -> right_parts m beams -> force_or_moment m ->
  let n := length (mi_coords m) in let L := track_length (mi_coords m) in
  exists d, moving_initialize m = Ok d /\
  forall t st, (t < length (mi_time m))%nat -> length (st_x st) = n -> length (st_y st) = n -> length (st_z st) = n ->
  exists st', moving_update m d beams st t = Ok st' /\
    length (st_x st') = n /\ length (st_y st') = n /\ length (st_z st') = n /\
    let s := travelled (mi_time m) (mi_velocities m) (start_of m) t in
    exists P, at_distance (mi_coords m) (Rmin s L) P /\
      (s <= L -> equivalent (mi_coords m) (st_x st') (st_y st') (st_z st') P (ramped m t)) /\
      (L < s -> equivalent (mi_coords m) (st_x st') (st_y st') (st_z st') P (T3 0 0 0)).
Proof.
  intros [hn [hch htr]] [hv [hne [hini [hstart hstep]]]] hparts hfm n L.
  set (coords := mi_coords m) in *. fold n in hn, hch, htr, hstep.
  assert (hcne : coords <> []) by (intros e; unfold n in hn; rewrite e in hn; simpl in hn; lia).
  assert (hpos : forall k, (S k < length coords)%nat -> 0 < element_length coords k) by (intros k hk; apply (htr k hk)).
  pose proof (track_rising coords hcne hpos) as hr.
  destruct (cum_nodes_spec coords hcne) as [n1 n2]. fold n in n1, n2.
  destruct (cum_distance_spec (mi_time m) (mi_velocities m) hv hne) as [h0 [c1 [c2 c3]]].
  unfold moving_initialize. fold coords. rewrite c1. cbn [rbind]. fold (start_of m).
  change (match mi_start m with Some s => s | None => lit 0 end) with (start_of m).
  set (N := length (mi_time m)) in *.
  assert (hN : (0 < N)%nat) by (unfold N; destruct (mi_time m); [congruence|simpl; lia]).
  set (cf := map (fun d : R => nadd d (start_of m)) h0).
  assert (f1 : length cf = N) by (unfold cf; rewrite map_length; auto).
  set (s := travelled (mi_time m) (mi_velocities m) (start_of m)).
  assert (f2 : forall t, (t < N)%nat -> nth t cf 0 = s t).
  { intros t ht. unfold cf. rewrite (nth_map0 _ _ t 0) by lia. rewrite c3 by auto. unfold s, travelled. rnum. ring. }
  assert (hs0 : forall t, s (S t) = s t + (nth (S t) (mi_time m) 0 - nth t (mi_time m) 0) * nth t (mi_velocities m) 0)
    by (intros; apply travelled_step).
  assert (hcf : cf <> []) by (intros e; rewrite e in f1; simpl in f1; lia).
  assert (hL : L = nth (length (cum_distances_nodes coords) - 1) (cum_distances_nodes coords) 0).
  { rewrite n1, n2 by lia. reflexivity. }
  assert (hs00 : s 0%nat = start_of m) by (unfold s, travelled; cbn; rnum; ring).
  destruct (set_active_spec (cum_distances_nodes coords) cf hr) as [els [a1 [a2 [a3 [a4 a5]]]]].
  { rewrite n1. auto. }
  { auto. }
  { rewrite <- hL, n2, f2 by lia. rewrite hs00. change (node_position coords 0) with 0. exact hstart. }
  { intros t ht. rewrite f1 in ht. rewrite !f2 by lia. rewrite hs0. split.
    - pose proof (proj1 (hstep t ht)). cbv zeta in *. lra.
    - intros k hk. rewrite n1 in hk. rewrite !n2 by lia. rewrite node_position_S.
      pose proof (proj2 (hstep t ht) k hk) as hh. cbv zeta in hh. lra. }
  rewrite n1 in a1. rewrite hch. unfold chain at 1. rewrite map_length, seq_length. rewrite a1. cbn [rbind].
  destruct (component_history_spec (mi_x m) N (mi_n_ini m) hini) as [hx [x1 [x2 x3]]].
  destruct (component_history_spec (mi_y m) N (mi_n_ini m) hini) as [hy [y1 [y2 y3]]].
  destruct (component_history_spec (mi_z m) N (mi_n_ini m) hini) as [hz [z1 [z2 z3]]].
  rewrite x1, y1, z1. cbn [rbind]. change (@lit R RNum 0) with 0.
  assert (hlast : last (cum_distances_nodes coords) 0 = L).
  { rewrite hL. generalize (cum_distances_nodes coords). clear. intros l. induction l as [|a l IH]; auto.
    destruct l as [|b l]; auto. change (last (a :: b :: l) 0) with (last (b :: l) 0). rewrite IH.
    cbn [length]. replace (S (S (length l)) - 1)%nat with (S (length l)) by lia. replace (S (length l) - 1)%nat with (length l) by lia. reflexivity. }
  rewrite hlast. rewrite n2 by lia. change (node_position coords 0) with 0.
  assert (hL0 : 0 <= L) by (unfold L; lra).
  set (dist := filer_location cf 0 L).
  destruct (filer_location_spec cf 0 L hL0) as [d1 d2]. fold dist in d1, d2. rewrite f1 in d1, d2.
  destruct (filter_data_spec hx cf 0 L ltac:(lia)) as [u1 u2]. destruct (filter_data_spec hy cf 0 L ltac:(lia)) as [v1 v2].
  destruct (filter_data_spec hz cf 0 L ltac:(lia)) as [w1 w2]. rewrite f1 in u1, u2, v1, v2, w1, w2.
  set (fx := filter_data_outside_range hx cf 0 L) in *. set (fy := filter_data_outside_range hy cf 0 L) in *.
  set (fz := filter_data_outside_range hz cf 0 L) in *.
  rewrite f1 in a2, a5.
  assert (hel : forall t, (t < N)%nat -> contains (cum_distances_nodes coords) (nth t els 0%nat) (s t)).
  { intros t ht. rewrite <- f2 by auto. auto. }
  (* the load never runs backward *)
  assert (hs1 : forall t, (t < N)%nat -> 0 <= s t).
  { induction t as [|t IHt]; intros ht; [rewrite hs00; lra|]. rewrite hs0.
    pose proof (proj1 (hstep t ht)). cbv zeta in *. specialize (IHt ltac:(lia)). lra. }
  assert (hdist : forall t, (t < N)%nat -> nth t dist 0 = Rmin (s t) L).
  { intros t ht. rewrite d2, f2 by auto. specialize (hs1 t ht). rewrite Rmin_comm. apply Rmax_right. apply Rmin_glb; auto. }
  assert (hseg : forall t, (t < N)%nat -> let e := nth t els 0%nat in (S e < n)%nat /\
      node_position coords e <= nth t dist 0 <= node_position coords (S e)).
  { intros t ht e. destruct (hel t ht) as [e1 [e2 e3]]. fold e in e1, e2, e3. rewrite n1 in e1, e3. rewrite n2 in e2 by lia. rewrite n2 in e3 by lia.
    split; auto. rewrite hdist by auto.
    assert (hle : node_position coords e <= L).
    { pose proof (rising_le (cum_distances_nodes coords) e (n - 1) hr ltac:(lia) ltac:(lia)) as q. rewrite !n2 in q by lia. exact q. }
    split; [apply Rmin_glb; auto|]. destruct e3 as [e3|e3].
    - apply Rle_trans with (s t); auto. apply Rmin_l.
    - apply Rle_trans with L; [apply Rmin_r|]. unfold L, track_length. fold coords n. replace (n - 1)%nat with (S e) by lia. lra. }
  (* contact parts *)
  assert (hp : exists ps, (match mi_sizes m with Some s => contact_parts s els | None => Ok (repeat 0%nat N) end) = Ok ps /\ length ps = N /\
     forall t, (t < N)%nat -> exists phi, nth_error beams (nth t ps 0%nat) = Some (element_length coords (nth t els 0%nat), phi) /\ 1 + phi <> 0).
  { unfold right_parts in hparts. fold coords n in hparts. destruct (mi_sizes m) as [sizes|].
    - destruct hparts as [p1 [p2 [p3 p4]]].
      assert (hse : sizes <> []) by (intros e; rewrite e in p2; simpl in p2; lia).
      assert (hin : forall e, In e els -> (e < list_sum sizes)%nat).
      { intros e he. apply (In_nth _ _ 0%nat) in he. destruct he as [t [ht <-]]. destruct (hseg t ltac:(lia)) as [q _]. lia. }
      destruct (contact_parts_spec sizes els hse p1 a3 hin) as [ps [q1 [q2 q3]]].
      { destruct (Nat.lt_ge_cases (nth 0 els 0%nat) (list_sum (firstn 2 sizes))) as [|hge]; auto. exfalso.
        destruct (hel 0%nat hN) as [e1 [e2 _]]. rewrite n1 in e1. rewrite hs00 in e2. rewrite n2 in e2 by lia.
        pose proof (rising_le (cum_distances_nodes coords) _ (nth 0 els 0%nat) hr hge ltac:(lia)) as q. rewrite !n2 in q by lia. lra. }
      exists ps. split; [exact q1|]. split; [lia|]. intros t ht. apply p4. apply q3. lia.
    - destruct hparts as [l [phi [p1 [p2 p3]]]]. exists (repeat 0%nat N). split; [reflexivity|]. split; [apply repeat_length|].
      intros t ht. exists phi. rewrite nth_repeat0 by auto. destruct (hseg t ht) as [q _]. rewrite p3 by auto. auto. }
  destruct hp as [ps [p1 [p2 p3]]]. rewrite p1. cbn [rbind]. eexists. split; [reflexivity|].
  intros t st ht sx sy sz. unfold moving_update. cbn [mv_nodes mv_x mv_y mv_z mv_local mv_part].
  rewrite contact_nodes_spec by auto.
  destruct (hseg t ht) as [g1 g2]. set (e := nth t els 0%nat) in *.
  assert (k1 : nth_error (map (fun e0 => nth e0 (chain (n - 1)) (0, 0)%nat) els) t = Some (e, S e)).
  { rewrite (map_nth_error _ _ _ (nth_err els t 0%nat ltac:(lia))). fold e. rewrite chain_nth by lia. reflexivity. }
  rewrite k1. rewrite (nth_err fx t 0), (nth_err fy t 0), (nth_err fz t 0), (nth_err ps t 0%nat) by lia.
  assert (k2 : nth_error (map (fun ec => distance3 (nth (fst (nth (fst ec) (chain (n - 1)) (0, 0)%nat)) coords (T3 0 0 0)) (snd ec))
      (combine els (map (moving_coord (cum_distances_nodes coords) coords) dist))) t = Some (nth t dist 0 - node_position coords e)).
  { assert (hlen : length els = length (map (moving_coord (cum_distances_nodes coords) coords) dist)) by (rewrite map_length; lia).
    rewrite (nth_err _ t 0) by (rewrite map_length, combine_length; lia).
    rewrite (nth_combine_map _ _ _ t 0%nat (T3 0 0 0)) by (auto; lia). cbn [fst snd]. fold e. rewrite chain_nth by lia. cbn [fst].
    f_equal. rewrite (nth_indep (map (moving_coord (cum_distances_nodes coords) coords) dist) (T3 0 0 0) (moving_coord (cum_distances_nodes coords) coords 0)) by (rewrite map_length; lia).
    rewrite map_nth.
    apply (moving_coord_spec coords (nth t dist 0) e hn hpos g1 g2). }
  rewrite k2.
  destruct (p3 t ht) as [phi [b1 b2]]. fold e in b1. rewrite b1.
  fold coords. rewrite (nth_err coords e (T3 0 0 0)), (nth_err coords (S e) (T3 0 0 0)) by lia.
  fold (at_node coords e). fold (at_node coords (S e)).
  destruct (moving_coord_spec coords (nth t dist 0) e hn hpos g1 g2) as [r1 [r2 [r3 [r4 _]]]].
  set (P := moving_coord (cum_distances_nodes coords) coords (nth t dist 0)) in *.
  eexists. split; [reflexivity|].
  destruct (htr e g1) as [t1 [t2 t3]].
  destruct (distribute_equiv coords (element_length coords e) phi (nth t dist 0 - node_position coords e) e (S e)
     (T3 (nth t fx 0) (nth t fy 0) (nth t fz 0)) st P) as [o1 [o2 [o3 [o4 _]]]]; auto; try (unfold n in *; lia).
  { symmetry. apply plane_dist_flat. auto. }
  split; [exact o1|]. split; [exact o2|]. split; [exact o3|]. cbv zeta.
  exists P. split.
  { exists e, ((nth t dist 0 - node_position coords e) / element_length coords e). split; [exact g1|]. split; [exact r1|]. split; [|split; auto].
    rewrite <- hdist by auto. change (dist3 (at_node coords e) (at_node coords (S e))) with (element_length coords e). field. lra. }
  assert (hcases : tr (ramped m t) = 0 \/ (tx (ramped m t) = 0 /\ ty (ramped m t) = 0)).
  { unfold ramped. cbn [tx ty tr]. destruct hfm as [->|[-> ->]]; auto. }
  split; intros hh.
  - assert (hf : T3 (nth t fx 0) (nth t fy 0) (nth t fz 0) = ramped m t).
    { unfold ramped. rewrite (proj1 (u2 t ht)), (proj1 (v2 t ht)), (proj1 (w2 t ht)); rewrite ?f2 by auto; auto.
      rewrite x3, y3, z3 by auto. reflexivity. }
    rewrite hf in o4 |- *. rewrite effective_single in o4 by auto. exact o4.
  - assert (hf : T3 (nth t fx 0) (nth t fy 0) (nth t fz 0) = T3 0 0 0).
    { rewrite (proj2 (u2 t ht)), (proj2 (v2 t ht)), (proj2 (w2 t ht)); rewrite ?f2 by auto; auto. }
    rewrite hf in o4 |- *. rewrite effective_single in o4; auto.
Qed.

(** ** C32: independence of what was evaluated before *)

Definition same_shape (a b : mstate R) : Prop :=
  length (st_x a) = length (st_x b) /\ length (st_y a) = length (st_y b) /\ length (st_z a) = length (st_z b).
Definition same_vectors (a b : mstate R) : Prop := st_x a = st_x b /\ st_y a = st_y b /\ st_z a = st_z b.

Lemma map_const_length {A B} (c : B) (l l' : list A) : length l = length l' -> map (fun _ => c) l = map (fun _ => c) l'.
Proof. revert l'. induction l; destruct l'; simpl; intros h; try lia; auto. f_equal. apply IHl. lia. Qed.

Lemma load_update_indep (c : load R) (a b : mstate R) t : same_shape a b ->
  match load_update c a t, load_update c b t with
  | Ok a', Ok b' => same_vectors a' b' /\ same_shape a' a
  | Err e, Err e' => e = e'
  | _, _ => False
  end.
Proof.
  intros [h1 [h2 h3]]. destruct c as [mx my mz|m d beams]; simpl.
  - unfold same_vectors, same_shape, static_update. cbn [st_x st_y st_z]. rewrite h1, h2, h3, !map_length, !seq_length. auto 6.
  - unfold moving_update. destruct (nth_error (mv_nodes d) t) as [[i j]|]; auto.
    do 3 (match goal with |- context [match ?x with Some _ => _ | None => _ end] => destruct x; auto end).
    do 2 (match goal with |- context [match ?x with Some _ => _ | None => _ end] => destruct x; auto end).
    do 3 (match goal with |- context [match ?x with Some _ => _ | None => _ end] => destruct x as [?|]; auto end).
    match goal with |- context [let '(_, _) := ?x in _] => destruct x as [l phi] end.
    unfold same_vectors, same_shape, distribute. cbv zeta. cbn [st_x st_y st_z w_normal w_shear w_moment].
    rewrite (map_const_length (lit 0) _ _ h1), (map_const_length (lit 0) _ _ h2), (map_const_length (lit 0) _ _ h3).
    split.
    + repeat match goal with |- context [is_zero ?x] => destruct (is_zero x) end; auto.
    + rewrite !iadd_length, !map_length. auto.
Qed.

Definition related (c c' : condition R) : Prop :=
  k_flag c = k_flag c' /\ k_nodes c = k_nodes c' /\ k_load c = k_load c' /\ same_shape (k_state c) (k_state c').
Definition equal_conditions (c c' : condition R) : Prop :=
  k_flag c = k_flag c' /\ k_nodes c = k_nodes c' /\ k_load c = k_load c' /\ same_vectors (k_state c) (k_state c').

Lemma update_conditions_indep (cs cs' : list (condition R)) t : Forall2 related cs cs' ->
  match update_conditions cs t, update_conditions cs' t with
  | Ok a, Ok b => Forall2 equal_conditions a b /\ Forall2 related a cs
  | Err e, Err e' => e = e'
  | _, _ => False
  end.
Proof.
  induction 1 as [|c c' cs cs' hc h IH]; simpl; auto.
  destruct hc as [h1 [h2 [h3 h4]]]. pose proof (load_update_indep (k_load c) _ _ t h4) as hu. rewrite <- h3.
  destruct (load_update (k_load c) (k_state c) t) as [s|e]; destruct (load_update (k_load c) (k_state c') t) as [s'|e']; cbn [rbind]; try tauto.
  destruct (update_conditions cs t) as [a|e1]; destruct (update_conditions cs' t) as [b|e2]; cbn [rbind]; try tauto.
  destruct IH as [i1 i2]. destruct hu as [u1 u2]. split; constructor; auto.
  - unfold equal_conditions. cbn [k_flag k_nodes k_load k_state]. auto.
  - unfold related. cbn [k_flag k_nodes k_load k_state]. auto.
Qed.

Lemma related_refl c : related c c.
Proof. unfold related, same_shape. auto 8. Qed.
Lemma related_trans a b c : related a b -> related b c -> related a c.
Proof. unfold related, same_shape. intros [? [? [? [? [? ?]]]]] [? [? [? [? [? ?]]]]]. repeat split; congruence. Qed.
Lemma related_sym a b : related a b -> related b a.
Proof. unfold related, same_shape. intros [? [? [? [? [? ?]]]]]. repeat split; congruence. Qed.
Lemma F2_refl cs : Forall2 related cs cs.
Proof. induction cs; constructor; auto. apply related_refl. Qed.
Lemma F2_trans a b c : Forall2 related a b -> Forall2 related b c -> Forall2 related a c.
Proof.
  intros h. revert c. induction h as [|x y a b hxy h IH]; intros c hc; inversion hc; subst; constructor; auto.
  apply (related_trans _ y); auto.
Qed.
Lemma F2_sym a b : Forall2 related a b -> Forall2 related b a.
Proof. induction 1; constructor; auto. apply related_sym. auto. Qed.

Lemma history_related n (cs : list (condition R)) ts cs' : evaluate_history n cs ts = Ok cs' -> Forall2 related cs' cs.
Proof.
  revert cs. induction ts as [|t ts IH]; intros cs h; simpl in h.
  - injection h as <-. apply F2_refl.
  - unfold update_time_step_rhs in h. pose proof (update_conditions_indep cs cs t (F2_refl cs)) as hu.
    destruct (update_conditions cs t) as [a|e]; cbn [rbind snd] in h; [|discriminate].
    apply (F2_trans _ a); [apply IH; exact h|tauto].
Qed.

Lemma rhs_indep n (cs cs' : list (condition R)) t : Forall2 related cs' cs ->
  match update_time_step_rhs n cs' t, update_time_step_rhs n cs t with
  | Ok (f', _), Ok (f, _) => f' = f
  | Err e', Err e => e' = e
  | _, _ => False
  end.
Proof.
  intros h. unfold update_time_step_rhs. pose proof (update_conditions_indep cs' cs t h) as hu.
  destruct (update_conditions cs' t) as [a|e]; destruct (update_conditions cs t) as [b|e']; cbn [rbind]; try tauto.
  destruct hu as [hu _]. f_equal. induction hu as [|x y a b hxy hu IH]; auto. simpl. f_equal; [|exact IH].
  destruct hxy as [h1 [h2 [_ [h3 [h4 h5]]]]]. unfold vals_of. rewrite h1, h2, h3, h4, h5. reflexivity.
Qed.

(** the value of a static load condition *)
Lemma update_conditions_nth (cs cs' : list (condition R)) t : update_conditions cs t = Ok cs' ->
  Forall2 (fun c c' => k_flag c' = k_flag c /\ k_nodes c' = k_nodes c /\ load_update (k_load c) (k_state c) t = Ok (k_state c')) cs cs'.
Proof.
  revert cs'. induction cs as [|c cs IH]; intros cs' h; simpl in h.
  - injection h as <-. constructor.
  - destruct (load_update (k_load c) (k_state c) t) as [s|] eqn:es; cbn [rbind] in h; [|discriminate].
    destruct (update_conditions cs t) as [r|]; cbn [rbind] in h; [|discriminate]. injection h as <-.
    constructor; auto.
Qed.

Lemma static_value (n : nat) (cs : list (condition R)) t :
  (forall c, In c cs -> is_static c /\ sized (length (k_nodes c)) (k_state c) /\
     NoDup (part_dof_indices (k_flag c) (k_nodes c)) /\ forall i, In i (part_dof_indices (k_flag c) (k_nodes c)) -> (i < n)%nat) ->
  exists f cs', update_time_step_rhs n cs t = Ok (f, cs') /\ length f = n /\
    forall k, nth k f 0 = nsum (map (fun c => cond_force (mkCond (k_flag c) (k_nodes c) (static_values c t)) k) cs).
Proof.
  intros h. unfold update_time_step_rhs.
  assert (hu : exists cs', update_conditions cs t = Ok cs' /\
     map (fun c => mkCond (k_flag c) (k_nodes c) (vals_of (k_state c))) cs' =
     map (fun c => mkCond (k_flag c) (k_nodes c) (static_values c t)) cs).
  { assert (h' : forall c, In c cs -> is_static c /\ sized (length (k_nodes c)) (k_state c)) by (intros c hc; split; apply (h c hc)).
    clear n h. induction cs as [|c cs IH].
    - exists []. auto.
    - destruct IH as [cs' [i1 i2]]; [intros; apply h'; right; auto|].
      destruct (h' c (or_introl eq_refl)) as [[mx [my [mz e]]] [s1 [s2 s3]]].
      cbn [update_conditions]. rewrite e. cbn [load_update rbind]. rewrite i1. cbn [rbind]. eexists. split; [reflexivity|].
      cbn [map k_flag k_nodes k_state]. rewrite i2. f_equal. f_equal. unfold static_values. rewrite e.
      unfold vals_of, static_update. cbn [st_x st_y st_z]. rewrite s1, s2, s3.
      generalize (seq 0 (length (k_nodes c))). intros l. induction l as [|a l IHl]; auto. cbn [map combine fst snd]. f_equal. exact IHl. }
  destruct hu as [cs' [h1 h2]]. rewrite h1. cbn [rbind]. exists (rhs n (map (fun c => mkCond (k_flag c) (k_nodes c) (vals_of (k_state c))) cs')), cs'.
  split; [reflexivity|]. rewrite h2.
  destruct (rhs_spec n (map (fun c => mkCond (k_flag c) (k_nodes c) (static_values c t)) cs)) as [r1 r2].
  { intros c hc. apply in_map_iff in hc. destruct hc as [d [<- hd]]. cbn [c_flag c_nodes c_vals].
    destruct (h d hd) as [[mx [my [mz e]]] [_ [h3 h4]]]. split; [|split; auto].
    unfold static_values. rewrite e, map_length, seq_length. reflexivity. }
  split; auto. intros k. rewrite r2, map_map. reflexivity.
Qed.
