(** * Lemmas about the direction in which an element is written *)

From Coq Require Import Reals List Bool ZArith Arith Lia Lra.
From Verif Require Import Num PyBase Model_Geometry Model_System Spec_System Proofs_Dof Proofs_System Model_Element Spec_Element
  Proofs_Elements Proofs_Element Proofs_Beam Proofs_Force Model_Accumulation Proofs_Accumulation Model_Track Spec_Track Proofs_Track Proofs_Assembly
  Spec_Renumber Proofs_Renumber Spec_Turn.
Import ListNotations.
Local Open Scope R_scope.

(** the other end, and the sign of a component in axes that are turned by half a circle *)
Definition other (i : nat) : nat := match i with 0 => 3 | 1 => 4 | 2 => 5 | 3 => 0 | 4 => 1 | 5 => 2 | _ => i end%nat.
Definition turn_sign (i : nat) : R := match i with 2%nat | 5%nat => 1 | _ => -1 end.

Definition turn_same (m : nat -> nat -> R) : Prop := forall i j, (i < 6)%nat -> (j < 6)%nat -> turn_sign i * turn_sign j * m (other i) (other j) = m i j.

Lemma sum_other (g : nat -> R) : sumn 6 g = sumn 6 (fun i => g (other i)).
Proof. cbn [sumn other]. rnum. ring. Qed.

Lemma quad_turned m v : turn_same m -> quad 6 m (fun i => turn_sign i * v (other i)) = quad 6 m v.
Proof.
  intros h. unfold quad. rewrite sum_other. apply sumn_ext. intros i hi. rewrite sum_other. apply sumn_ext. intros j hj.
  rewrite <- (h i j hi hj).
  assert (e : forall k, (k < 6)%nat -> other (other k) = k /\ turn_sign (other k) = turn_sign k /\ turn_sign k * turn_sign k = 1) by (intros k hk; do 6 (destruct k as [|k]; [cbn; repeat split; ring|]); lia).
  destruct (e i hi) as [e1 [e2 e3]], (e j hj) as [e4 [e5 e6]]. rewrite e1, e2, e4, e5. ring.
Qed.

Lemma mass_turn b phi : turn_same (beam_mass b phi).
Proof.
  intros i j hi hj. rewrite !beam_mass_entries by (assumption || (do 6 (destruct i as [|i]; [cbn; lia|]); lia) || (do 6 (destruct j as [|j]; [cbn; lia|]); lia)).
  unfold mass_entries. destruct (Req_EM_T phi 0).
  - rewrite !Rplus_0_r. rewrite <- Rmult_assoc. f_equal.
    do 6 (destruct i as [|i]; [do 6 (destruct j as [|j]; [cbn [other turn_sign trans_entries]; field|]); lia|]); lia.
  - rewrite Rmult_plus_distr_l, <- !Rmult_assoc. f_equal; f_equal.
    + do 6 (destruct i as [|i]; [do 6 (destruct j as [|j]; [cbn [other turn_sign trans_entries]; field|]); lia|]); lia.
    + do 6 (destruct i as [|i]; [do 6 (destruct j as [|j]; [cbn [other turn_sign rot_entries]; ring|]); lia|]); lia.
Qed.

Lemma stiffness_turn b phi : b_s1 b = b_s2 b -> turn_same (beam_stiffness b phi).
Proof.
  intros hs i j hi hj. unfold beam_stiffness. rewrite !reshape_all3 by (assumption || (do 6 (destruct i as [|i]; [cbn; lia|]); lia) || (do 6 (destruct j as [|j]; [cbn; lia|]); lia)).
  unfold mscale. rewrite hs. set (a := fixity _ _ _). clearbody a. rnum. rewrite <- Rmult_assoc.
  f_equal. unfold rigid_mat.
  assert (e : (a + a + a * a) / (4 - a * a) = (a + a + a * a) * / (4 - a * a)) by reflexivity.
  do 6 (destruct i as [|i]; [do 6 (destruct j as [|j]; [cbn; rnum; try reflexivity; unfold Rdiv; ring|]); lia|]); lia.
Qed.

(** ** the angle *)

Definition opposite (a b : R) : Prop := cos b = - cos a /\ sin b = - sin a.
Definition alike (a b : R) : Prop := cos b = cos a /\ sin b = sin a.

Lemma opposite_pi a : opposite a (a + PI).
Proof. split; [apply neg_cos|apply neg_sin]. Qed.
Lemma opposite_sym a b : opposite a b -> opposite b a.
Proof. intros [h1 h2]. split; lra. Qed.
Lemma alike_sym a b : alike a b -> alike b a.
Proof. intros [h1 h2]. split; lra. Qed.

Lemma slope_turned x1 y1 x2 y2 : x2 - x1 <> 0 -> (y1 - y2) / (x1 - x2) = (y2 - y1) / (x2 - x1).
Proof. intros h. field. split; lra. Qed.

Lemma angle_far_lt (x1 y1 x2 y2 : R) : x1 < x2 -> 1 / 100000000 < Rabs (x2 - x1) ->
  opposite (calculate_rotation1 ((x1, y1), (x2, y2))) (calculate_rotation1 ((x2, y2), (x1, y1))).
Proof.
  intros hx hd. unfold calculate_rotation1. rnum.
  assert (n1 : np_isclose (x2 - x1) 0 = false). { destruct (np_isclose (x2 - x1) 0) eqn:e; [|reflexivity]. apply np_isclose_0_spec in e. lra. }
  assert (n2 : np_isclose (x1 - x2) 0 = false). { destruct (np_isclose (x1 - x2) 0) eqn:e; [|reflexivity]. apply np_isclose_0_spec in e. rewrite Rabs_minus_sym in e. lra. }
  rewrite n1, n2. destruct (nltbP x2 x1); [lra|]. destruct (nltbP x1 x2); [|lra]. rewrite (slope_turned x1 y1 x2 y2) by lra.
  set (t := (y2 - y1) / (x2 - x1)). match goal with |- opposite ?u ?v => replace v with (u + PI) end; [apply opposite_pi|]. change (0 + atan t + PI = 0 + PI + atan t). ring.
Qed.

Lemma angle_near_lt (x1 y1 x2 y2 : R) : x1 < x2 -> Rabs (x2 - x1) <= 1 / 100000000 -> y1 <> y2 ->
  alike (calculate_rotation1 ((x1, y1), (x2, y2))) (calculate_rotation1 ((x2, y2), (x1, y1))).
Proof.
  intros hx hd hy. unfold calculate_rotation1. rnum.
  assert (n1 : np_isclose (x2 - x1) 0 = true) by (apply np_isclose_0_spec; exact hd).
  assert (n2 : np_isclose (x1 - x2) 0 = true) by (apply np_isclose_0_spec; rewrite Rabs_minus_sym; exact hd).
  rewrite n1, n2. destruct (nltbP x2 x1); [lra|]. destruct (nltbP x1 x2); [|lra].
  destruct (Rlt_dec y1 y2).
  - rewrite (nsign_pos (y2 - y1)), (nsign_neg (y1 - y2)) by lra. match goal with |- alike ?u ?v => replace v with u end; [split; reflexivity|]. change (PI / 2 * 1 = PI / 2 * -1 + PI). field.
  - rewrite (nsign_neg (y2 - y1)), (nsign_pos (y1 - y2)) by lra. match goal with |- alike ?u ?v => replace v with (u + 2 * PI) end; [split; [rewrite cos_plus|rewrite sin_plus]; rewrite cos_2PI, sin_2PI; ring|].
    change (PI / 2 * -1 + 2 * PI = PI / 2 * 1 + PI). field.
Qed.

Lemma angle_flat_lt (x1 y x2 : R) : x1 < x2 -> opposite (calculate_rotation1 ((x1, y), (x2, y))) (calculate_rotation1 ((x2, y), (x1, y))).
Proof.
  intros hx. destruct (Rlt_dec (1 / 100000000) (Rabs (x2 - x1))) as [h|h]; [apply angle_far_lt; assumption|].
  rewrite rotation1_right by lra. unfold calculate_rotation1. rnum.
  assert (n2 : np_isclose (x1 - x2) 0 = true) by (apply np_isclose_0_spec; rewrite Rabs_minus_sym; lra).
  rewrite n2. destruct (nltbP x1 x2); [|lra]. replace (y - y) with 0 by ring.
  replace (nsign 0) with 0 by (unfold nsign; rnum; destruct (nltbP 0 0); [lra|reflexivity]).
  match goal with |- opposite 0 ?v => replace v with (0 + PI) end; [apply opposite_pi|]. change (0 + PI = PI / 2 * 0 + PI). field.
Qed.

Lemma angle_turned p q : let a := calculate_rotation1 (p, q) in let b := calculate_rotation1 (q, p) in opposite a b \/ alike a b.
Proof.
  destruct p as [x1 y1], q as [x2 y2]. cbv zeta.
  assert (w : forall x1 y1 x2 y2, x1 < x2 -> opposite (calculate_rotation1 ((x1, y1), (x2, y2))) (calculate_rotation1 ((x2, y2), (x1, y1))) \/
    alike (calculate_rotation1 ((x1, y1), (x2, y2))) (calculate_rotation1 ((x2, y2), (x1, y1)))).
  { clear. intros x1 y1 x2 y2 h. destruct (Req_dec y1 y2) as [->|ne]; [left; apply angle_flat_lt; exact h|].
    destruct (Rlt_dec (1 / 100000000) (Rabs (x2 - x1))) as [g|g]; [left; apply angle_far_lt; assumption|right; apply angle_near_lt; lra]. }
  destruct (Rtotal_order x1 x2) as [h|[->|h]].
  - apply w. exact h.
  - destruct (Req_dec y1 y2) as [->|ne]; [right; split; reflexivity|]. left. rewrite !rotation1_vertical by congruence.
    destruct (Rlt_dec y1 y2), (Rlt_dec y2 y1); try lra; split; rewrite ?cos_neg, ?sin_neg, ?cos_PI2, ?sin_PI2; ring.
  - destruct (w x2 y2 x1 y1 h) as [g|g]; [left; apply opposite_sym; exact g|right; apply alike_sym; exact g].
Qed.

Lemma angle_clear p q : clearly_placed p q -> opposite (calculate_rotation1 (p, q)) (calculate_rotation1 (q, p)).
Proof.
  destruct p as [x1 y1], q as [x2 y2]. unfold clearly_placed. cbn [fst snd]. intros [[-> ne]|h].
  - rewrite !rotation1_vertical by congruence. destruct (Rlt_dec y1 y2), (Rlt_dec y2 y1); try lra; split; rewrite ?cos_neg, ?sin_neg, ?cos_PI2, ?sin_PI2; ring.
  - destruct (Rtotal_order x1 x2) as [g|[->|g]].
    + apply angle_far_lt; assumption.
    + exfalso. replace (x2 - x2) with 0 in h by ring. rewrite Rabs_R0 in h. lra.
    + apply opposite_sym. apply angle_far_lt; [exact g|]. rewrite Rabs_minus_sym. exact h.
Qed.

(** ** the form of a turned element *)

Lemma local2_turned a b u p q : opposite a b \/ alike a b -> exists c, (c = 1 \/ c = -1) /\
  local2 b u q p 0%nat = c * local2 a u p q 1%nat /\ local2 b u q p 1%nat = c * local2 a u p q 0%nat.
Proof.
  unfold local2, along. intros [[h1 h2]|[h1 h2]]; [exists (-1)|exists 1]; (split; [auto|]); rewrite h1, h2; split; ring.
Qed.

Lemma local6_turned a b u p q i : opposite a b -> (i < 6)%nat -> local6 b u q p i = turn_sign i * local6 a u p q (other i).
Proof.
  unfold local6, along, across. intros [h1 h2] hi. do 6 (destruct i as [|i]; [cbn [vec6 other turn_sign]; rewrite ?h1, ?h2; ring|]). lia.
Qed.

Lemma zeros_turn : turn_same (@beam_damping R RNum).
Proof. intros i j _ _. unfold beam_damping, zeros. rnum. ring. Qed.

Lemma form_turned aux ns u k m e : is_aux aux -> aux k = Some m -> turnable ns k e ->
  element_form k m (calculate_rotation1 (xy ns (snd e), xy ns (fst e))) u (snd e) (fst e) = element_form k m (calculate_rotation1 (xy ns (fst e), xy ns (snd e))) u (fst e) (snd e).
Proof.
  intros ha hm ht.
  assert (beams : forall b, (k = KBeam b \/ k = KRail b) -> turn_same m).
  { intros b hk. assert (hs : b_s1 b = b_s2 b) by (destruct hk; subst k; apply ht).
    destruct ha as [-> | [-> | -> ]]; destruct hk; subst k; injection hm as <-; try (apply stiffness_turn; exact hs); try apply mass_turn; apply zeros_turn. }
  assert (big : forall b, (k = KBeam b \/ k = KRail b) -> quad 6 m (local6 (calculate_rotation1 (xy ns (snd e), xy ns (fst e))) u (snd e) (fst e)) = quad 6 m (local6 (calculate_rotation1 (xy ns (fst e), xy ns (snd e))) u (fst e) (snd e))).
  { intros b hk. assert (hp : clearly_placed (xy ns (fst e)) (xy ns (snd e))) by (destruct hk; subst k; apply ht).
    etransitivity; [|apply (quad_turned m _ (beams b hk))]. apply quad_ext_vec. intros i hi. apply local6_turned; [apply angle_clear; exact hp|exact hi]. }
  destruct k as [s c w|b|b|w]; cbn [element_form]; [|apply (big b); auto|apply (big b); auto|reflexivity].
  destruct (local2_turned _ _ u (fst e) (snd e) (angle_turned (xy ns (fst e)) (xy ns (snd e)))) as [t [ht2 [e1 e2]]].
  assert (tt : t * t = 1) by (destruct ht2; subst t; ring).
  destruct ha as [-> | [-> | -> ]]; cbn [aux_stiffness aux_mass aux_damping] in hm.
  - destruct s as [s|]; [|discriminate]. destruct (rod_spring_spec s m hm) as [_ [g _]]. rewrite !g, e1, e2. set (y := local2 _ _ _ _ 0%nat). set (z := local2 _ _ _ _ 1%nat).
    transitivity (s * (t * t * ((y - z) * (y - z)))); [ring|rewrite tt; ring].
  - destruct w as [s'|]; [|discriminate]. destruct (rod_mass_spec s' m hm) as [_ [_ [g _]]]. rewrite !g, e1, e2. set (y := local2 _ _ _ _ 0%nat). set (z := local2 _ _ _ _ 1%nat).
    transitivity (s' / 3 * (t * t * (y * y + y * z + z * z))); [ring|rewrite tt; ring].
  - destruct c as [s'|]; [|discriminate]. destruct (rod_spring_spec s' m hm) as [_ [g _]]. rewrite !g, e1, e2. set (y := local2 _ _ _ _ 0%nat). set (z := local2 _ _ _ _ 1%nat).
    transitivity (s' * (t * t * ((y - z) * (y - z)))); [ring|rewrite tt; ring].
Qed.

(** ** parts *)

Lemma turned_settled ns p q : turned_part ns p q -> turned_part ns (settled ns p) (settled ns q).
Proof.
  intros [hk [hn he]]. unfold settled. rewrite hk, hn. destruct (ep_kind p) eqn:ek; try (split; [congruence|split; [exact hn|rewrite ek; exact he]]).
  destruct (ep_nodes p) as [|i [|j l]] eqn:en; try (split; [congruence|split; [congruence|rewrite ek; exact he]]).
  destruct (nth_error ns i), (nth_error ns j); try (split; [congruence|split; [congruence|rewrite ek; exact he]]).
  split; [reflexivity|]. split; [reflexivity|]. exact he.
Qed.

Lemma turned_form aux ns u p q : is_aux aux -> turned_part ns p q -> part_form aux ns u q = part_form aux ns u p.
Proof.
  intros ha [hk [hn he]]. unfold part_form. rewrite hk. destruct (aux (ep_kind p)) as [m|] eqn:em; [|reflexivity].
  assert (g : nsum (map (fun e => element_form (ep_kind p) m (calculate_rotation1 (xy ns (fst e), xy ns (snd e))) u (fst e) (snd e)) (ep_els q)) =
    nsum (map (fun e => element_form (ep_kind p) m (calculate_rotation1 (xy ns (fst e), xy ns (snd e))) u (fst e) (snd e)) (ep_els p))).
  { induction he as [|e e' l l' h hs IH]; [reflexivity|]. cbn [map nsum]. rewrite IH. f_equal. destruct h as [-> | [-> ht]]; [reflexivity|]. apply (form_turned aux); assumption. }
  destruct (ep_kind p); try exact g. rewrite hn. reflexivity.
Qed.
