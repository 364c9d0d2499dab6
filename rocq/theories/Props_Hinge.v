(** * C115: springs at the ends of beams and the hinge of a rail *)

From Coq Require Import Reals List Bool ZArith Arith Lia Lra Psatz.
From Verif Require Import Num PyBase Model_Geometry Model_System Model_Element Model_Moving Model_Coupled Model_Mesh Model_Track Model_Hinge
  Spec_System Spec_Element Spec_Geometry Spec_Mesh Spec_Hinge Proofs_System Proofs_Element Proofs_Beam Props_Element Props_Mesh.
Import ListNotations.
Local Open Scope R_scope.

(** ** least values *)

Lemma least_ext {A} (P Q : A -> Prop) (f g : A -> R) m : (forall x, P x <-> Q x) -> (forall x, Q x -> f x = g x) -> least P f m -> least Q g m.
Proof.
  intros hp hf [[x [h1 h2]] h3]. split.
  - exists x. split; [apply hp; exact h1|]. rewrite <- hf; [exact h2|apply hp; exact h1].
  - intros y hy. rewrite <- hf by exact hy. apply h3. apply hp. exact hy.
Qed.
Lemma least_unique {A} (P : A -> Prop) (f : A -> R) m m' : least P f m -> least P f m' -> m = m'.
Proof. intros [[x [h1 h2]] h3] [[y [g1 g2]] g3]. specialize (h3 y g1). specialize (g3 x h1). lra. Qed.
Lemma least_swap {A B} (P : A -> Prop) (Q : B -> Prop) (F : A -> B -> R) g h m :
  (forall x, P x -> least Q (F x) (g x)) -> (forall y, Q y -> least P (fun x => F x y) (h y)) -> least P g m -> least Q h m.
Proof.
  intros hg hh [[x [h1 h2]] h3]. destruct (hg x h1) as [[y [q1 q2]] q3]. split.
  - exists y. split; [exact q1|]. destruct (hh y q1) as [[x' [p1 p2]] p3]. pose proof (p3 x h1). pose proof (h3 x' p1). destruct (hg x' p1) as [_ r]. specialize (r y q1). lra.
  - intros y' hy'. destruct (hh y' hy') as [[x' [p1 p2]] p3]. destruct (hg x' p1) as [_ r]. specialize (r y' hy'). specialize (h3 x' p1). lra.
Qed.
Lemma least_sum {A B} (f : A -> R) (g : B -> R) m m' : least (fun _ => True) f m -> least (fun _ => True) g m' -> least (fun _ => True) (fun p => f (fst p) + g (snd p)) (m + m').
Proof.
  intros [[x [_ h2]] h3] [[y [_ g2]] g3]. split.
  - exists (x, y). split; [exact I|]. cbn. lra.
  - intros [x' y'] _. cbn. specialize (h3 x' I). specialize (g3 y' I). lra.
Qed.

(** ** a beam with springs is a beam in series with the springs *)

Definition share (e : R) (s : option R) : R := match s with None => 1 | Some k => k / (k + 3 * e) end.

Lemma series (e x y : R) s1 s2 : 0 < e -> passive s1 -> passive s2 ->
  least (fun p => joined s1 x (fst p) /\ joined s2 y (snd p))
        (fun p => 2 * e * (fst p * fst p + fst p * snd p + snd p * snd p) + spring_energy s1 (x - fst p) + spring_energy s2 (y - snd p))
        (6 * e / (4 - share e s1 * share e s2) * (share e s1 * (x * x) + share e s1 * share e s2 * (x * y) + share e s2 * (y * y))).
Proof.
  intros he. destruct s1 as [s|]; destruct s2 as [t|]; unfold share, joined, spring_energy, passive; intros h1 h2.
  - set (D := 12 * (e * e) + 4 * e * (s + t) + s * t). assert (hD : 0 < D) by (unfold D; nra).
    set (a := (s * x * (4 * e + t) - 2 * e * t * y) / D). set (b := (t * y * (4 * e + s) - 2 * e * s * x) / D).
    assert (hden : 4 - s / (s + 3 * e) * (t / (t + 3 * e)) = 3 * D / ((s + 3 * e) * (t + 3 * e))) by (unfold D; field; lra).
    assert (id : forall a' b', 2 * e * (a' * a' + a' * b' + b' * b') + s / 2 * ((x - a') * (x - a')) + t / 2 * ((y - b') * (y - b')) =
      6 * e / (4 - s / (s + 3 * e) * (t / (t + 3 * e))) * (s / (s + 3 * e) * (x * x) + s / (s + 3 * e) * (t / (t + 3 * e)) * (x * y) + t / (t + 3 * e) * (y * y))
      + (2 * e * ((a' - a) * (a' - a) + (a' - a) * (b' - b) + (b' - b) * (b' - b)) + s / 2 * ((a' - a) * (a' - a)) + t / 2 * ((b' - b) * (b' - b)))).
    { intros a' b'. rewrite hden. unfold a, b, D in *. field. repeat split; lra. }
    split.
    + exists (a, b). split; [cbn; auto|]. cbn [fst snd]. rewrite id. ring.
    + intros [a' b'] _. cbn [fst snd]. rewrite id. assert (0 <= 2 * e * ((a' - a) * (a' - a) + (a' - a) * (b' - b) + (b' - b) * (b' - b))).
      { apply Rmult_le_pos; [lra|]. generalize (a' - a) (b' - b). intros p q. pose proof (Rle_0_sqr (p + q / 2)). pose proof (Rle_0_sqr q). unfold Rsqr in *. lra. }
      pose proof (Rle_0_sqr (a' - a)) as q1. pose proof (Rle_0_sqr (b' - b)) as q2. unfold Rsqr in *. pose proof (Rmult_le_pos (s / 2) _ ltac:(lra) q1). pose proof (Rmult_le_pos (t / 2) _ ltac:(lra) q2). lra.
  - set (a := (s * x - 2 * e * y) / (4 * e + s)).
    assert (id : forall a', 2 * e * (a' * a' + a' * y + y * y) + s / 2 * ((x - a') * (x - a')) =
      6 * e / (4 - s / (s + 3 * e) * 1) * (s / (s + 3 * e) * (x * x) + s / (s + 3 * e) * 1 * (x * y) + 1 * (y * y)) + (2 * e + s / 2) * ((a' - a) * (a' - a))).
    { intros a'. unfold a. field. repeat split; lra. }
    split.
    + exists (a, y). split; [cbn; auto|]. cbn [fst snd]. rewrite id. ring.
    + intros [a' b'] [_ hb]. cbn [fst snd] in *. subst b'. rewrite id. pose proof (Rle_0_sqr (a' - a)) as q1. unfold Rsqr in q1. pose proof (Rmult_le_pos (2 * e + s / 2) _ ltac:(lra) q1). lra.
  - set (b := (t * y - 2 * e * x) / (4 * e + t)).
    assert (id : forall b', 2 * e * (x * x + x * b' + b' * b') + t / 2 * ((y - b') * (y - b')) =
      6 * e / (4 - 1 * (t / (t + 3 * e))) * (1 * (x * x) + 1 * (t / (t + 3 * e)) * (x * y) + t / (t + 3 * e) * (y * y)) + (2 * e + t / 2) * ((b' - b) * (b' - b))).
    { intros b'. unfold b. field. repeat split; lra. }
    split.
    + exists (x, b). split; [cbn; auto|]. cbn [fst snd]. pose proof (id b) as q. rewrite Rplus_0_r. rewrite q. ring.
    + intros [a' b'] [ha _]. cbn [fst snd] in *. subst a'. pose proof (id b') as q. rewrite Rplus_0_r. rewrite q. pose proof (Rle_0_sqr (b' - b)) as q1. unfold Rsqr in q1. pose proof (Rmult_le_pos (2 * e + t / 2) _ ltac:(lra) q1). lra.
  - split.
    + exists (x, y). split; [cbn; auto|]. cbn [fst snd]. field.
    + intros [a' b'] [ha hb]. cbn [fst snd] in *. subst a' b'. right. field.
Qed.

Lemma share_fixity b s : 0 < b_E b -> 0 < b_I b -> 0 < b_l b -> passive s ->
  match s with None => 1 | Some s => if Rlt_dec 0 s then 1 / (1 + 3 * (b_E b * b_I b) / (s * b_l b)) else 0 end = share (b_E b * b_I b / b_l b) s.
Proof.
  intros h1 h2 h3. assert (0 < b_E b * b_I b) by (apply Rmult_lt_0_compat; assumption). destruct s as [s|]; [|reflexivity]. unfold share, passive. intros hs. destruct (Rlt_dec 0 s) as [h|h].
  - field. assert (0 < s * b_l b) by (apply Rmult_lt_0_compat; assumption). repeat split; lra.
  - assert (s = 0) by lra. subst s. field. lra.
Qed.

(** the energy of a beam without shear deformation *)
Lemma bending b u : 0 < b_E b -> 0 < b_I b -> 0 < b_A b -> 0 < b_l b -> passive (b_s1 b) -> passive (b_s2 b) ->
  let e := b_E b * b_I b / b_l b in let x := u 2%nat + (u 1%nat - u 4%nat) / b_l b in let y := u 5%nat + (u 1%nat - u 4%nat) / b_l b in
  quad 6 (beam_stiffness b 0) u / 2 = b_E b * b_A b / b_l b * ((u 3%nat - u 0%nat) * (u 3%nat - u 0%nat)) / 2 +
    6 * e / (4 - share e (b_s1 b) * share e (b_s2 b)) * (share e (b_s1 b) * (x * x) + share e (b_s1 b) * share e (b_s2 b) * (x * y) + share e (b_s2 b) * (y * y)).
Proof.
  intros hE hI hA hl p1 p2 e x y. rewrite C18_energy by (assumption || lra). cbv zeta. rewrite !share_fixity by assumption. fold e x y.
  assert (he : 0 < e) by (unfold e; apply Rdiv_lt_0_compat; [apply Rmult_lt_0_compat|]; assumption).
  assert (hs : forall s, passive s -> 0 <= share e s <= 1).
  { intros [s|]; unfold passive, share; [|intros; lra]. intros h. split; [apply Rmult_le_pos; [lra|]; left; apply Rinv_0_lt_compat; lra|]. apply (Rmult_le_reg_r (s + 3 * e)); [lra|]. replace (s / (s + 3 * e) * (s + 3 * e)) with s by (field; lra). lra. }
  pose proof (hs _ p1). pose proof (hs _ p2). set (a1 := share e (b_s1 b)) in *. set (a2 := share e (b_s2 b)) in *. assert (a1 * a2 <= 1) by nra.
  replace (12 * (b_E b * b_I b) / ((1 + 0) * b_l b * (4 - a1 * a2))) with (12 * e / (4 - a1 * a2)) by (unfold e; field; lra). field. repeat split; lra.
Qed.

(** C115: without shear deformation, a beam with springs at its ends stores the least energy that the beam and its springs can have
    when the ends of the beam turn freely against the nodes *)
Theorem C115_series (b : beam R) (u : nat -> R) : 0 < b_E b -> 0 < b_I b -> 0 < b_A b -> 0 < b_l b -> passive (b_s1 b) -> passive (b_s2 b) ->
  least (fun p => joined (b_s1 b) (u 2%nat) (fst p) /\ joined (b_s2 b) (u 5%nat) (snd p))
        (fun p => quad 6 (beam_stiffness (with_springs b None None) 0) (ends u (fst p) (snd p)) / 2 + spring_energy (b_s1 b) (u 2%nat - fst p) + spring_energy (b_s2 b) (u 5%nat - snd p))
        (quad 6 (beam_stiffness b 0) u / 2).
Proof.
  intros hE hI hA hl p1 p2. rewrite bending by assumption. cbv zeta. set (e := b_E b * b_I b / b_l b). set (c := (u 1%nat - u 4%nat) / b_l b).
  assert (he : 0 < e) by (unfold e; apply Rdiv_lt_0_compat; [apply Rmult_lt_0_compat|]; assumption).
  set (ax := b_E b * b_A b / b_l b * ((u 3%nat - u 0%nat) * (u 3%nat - u 0%nat)) / 2).
  destruct (series e (u 2%nat + c) (u 5%nat + c) (b_s1 b) (b_s2 b) he p1 p2) as [[[a q] [[j1 j2] v]] lo].
  assert (jt : forall s t x, joined s (t + c) (x + c) <-> joined s t x) by (intros [s|] t x; unfold joined; [tauto|]; split; intros; lra).
  assert (f : forall p, quad 6 (beam_stiffness (with_springs b None None) 0) (ends u (fst p) (snd p)) / 2 =
     ax + 2 * e * ((fst p + c) * (fst p + c) + (fst p + c) * (snd p + c) + (snd p + c) * (snd p + c))).
  { intros [x y]. rewrite bending by (cbn; auto). cbv zeta. cbn [with_springs b_E b_I b_A b_l b_s1 b_s2 share ends vec6 fst snd]. fold e c. unfold ax. field. lra. }
  split.
  - exists (a - c, q - c). cbn [fst snd] in *. split; [split; apply jt; replace (a - c + c) with a by ring; replace (q - c + c) with q by ring; assumption|].
    pose proof (f (a - c, q - c)) as g. cbn [fst snd] in g. rewrite g, <- v. replace (a - c + c) with a by ring. replace (q - c + c) with q by ring.
    replace (u 2%nat - (a - c)) with (u 2%nat + c - a) by ring. replace (u 5%nat - (q - c)) with (u 5%nat + c - q) by ring. ring.
  - intros [x y] [k1 k2]. specialize (lo (x + c, y + c)). cbn [fst snd] in *. specialize (lo (conj (proj2 (jt _ _ _) k1) (proj2 (jt _ _ _) k2))).
    pose proof (f (x, y)) as g. cbn [fst snd] in g. rewrite g. replace (u 2%nat + c - (x + c)) with (u 2%nat - x) in lo by ring. replace (u 5%nat + c - (y + c)) with (u 5%nat - y) in lo by ring. lra.
Qed.
Print Assumptions C115_series.

(** ** two beams that meet at a hinge *)

Definition left_of (b : beam R) (s : R) := with_springs b None (Some s).
Definition right_of (b : beam R) (s : R) := with_springs b (Some s) None.
Definition rigid (b : beam R) := with_springs b None None.

Lemma square_least (A B C : R) : 0 <= A -> (A = 0 -> B = 0) -> exists m, least (fun _ : R => True) (fun t => A * (t * t) + B * t + C) m.
Proof.
  intros hA h0. destruct (Req_dec A 0) as [e|e].
  - exists C. rewrite e, (h0 e). split; [exists 0; split; [exact I|ring]|]. intros x _. lra.
  - exists (C - B * B / (4 * A)). split; [exists (- B / (2 * A)); split; [exact I|]; field; exact e|]. intros x _.
    replace (A * (x * x) + B * x + C) with (C - B * B / (4 * A) + A * ((x + B / (2 * A)) * (x + B / (2 * A)))) by (field; exact e).
    pose proof (Rle_0_sqr (x + B / (2 * A))) as q. unfold Rsqr in q. pose proof (Rmult_le_pos A _ ltac:(lra) q). lra.
Qed.

Lemma left_least b s u t : 0 < b_E b -> 0 < b_I b -> 0 < b_A b -> 0 < b_l b -> 0 <= s ->
  least (fun _ => True) (fun x => quad 6 (beam_stiffness (rigid b) 0) (ends u (u 2%nat) x) / 2 + s / 2 * ((t - x) * (t - x))) (quad 6 (beam_stiffness (left_of b s) 0) (ends u (u 2%nat) t) / 2).
Proof.
  intros hE hI hA hl hs. destruct (C115_series (left_of b s) (ends u (u 2%nat) t) hE hI hA hl I hs) as [[[x y] [[h1 h2] h3]] h4].
  cbn [fst snd] in h1, h2, h3. change (x = u 2%nat) in h1. change (with_springs (left_of b s) None None) with (rigid b) in *.
  change (ends (ends u (u 2%nat) t) x y) with (ends u x y) in h3.
  change (quad 6 (beam_stiffness (rigid b) 0) (ends u x y) / 2 + 0 + s / 2 * ((t - y) * (t - y)) = quad 6 (beam_stiffness (left_of b s) 0) (ends u (u 2%nat) t) / 2) in h3. subst x. split.
  - exists y. split; [exact I|]. rewrite <- h3. ring.
  - intros x' _. pose proof (h4 (u 2%nat, x') (conj eq_refl I)) as g. cbn [fst snd] in g. change (ends (ends u (u 2%nat) t) (u 2%nat) x') with (ends u (u 2%nat) x') in g.
    change (quad 6 (beam_stiffness (left_of b s) 0) (ends u (u 2%nat) t) / 2 <= quad 6 (beam_stiffness (rigid b) 0) (ends u (u 2%nat) x') / 2 + 0 + s / 2 * ((t - x') * (t - x'))) in g.
    rewrite Rplus_0_r in g. exact g.
Qed.
Lemma right_least b s u t : 0 < b_E b -> 0 < b_I b -> 0 < b_A b -> 0 < b_l b -> 0 <= s ->
  least (fun _ => True) (fun x => quad 6 (beam_stiffness (rigid b) 0) (ends u x (u 5%nat)) / 2 + s / 2 * ((t - x) * (t - x))) (quad 6 (beam_stiffness (right_of b s) 0) (ends u t (u 5%nat)) / 2).
Proof.
  intros hE hI hA hl hs. destruct (C115_series (right_of b s) (ends u t (u 5%nat)) hE hI hA hl hs I) as [[[x y] [[h1 h2] h3]] h4].
  cbn [fst snd] in h1, h2, h3. change (y = u 5%nat) in h2. change (with_springs (right_of b s) None None) with (rigid b) in *.
  change (ends (ends u t (u 5%nat)) x y) with (ends u x y) in h3.
  change (quad 6 (beam_stiffness (rigid b) 0) (ends u x y) / 2 + s / 2 * ((t - x) * (t - x)) + 0 = quad 6 (beam_stiffness (right_of b s) 0) (ends u t (u 5%nat)) / 2) in h3. subst y. split.
  - exists x. split; [exact I|]. rewrite <- h3. ring.
  - intros x' _. pose proof (h4 (x', u 5%nat) (conj I eq_refl)) as g. cbn [fst snd] in g. change (ends (ends u t (u 5%nat)) x' (u 5%nat)) with (ends u x' (u 5%nat)) in g.
    change (quad 6 (beam_stiffness (right_of b s) 0) (ends u t (u 5%nat)) / 2 <= quad 6 (beam_stiffness (rigid b) 0) (ends u x' (u 5%nat)) / 2 + s / 2 * ((t - x') * (t - x')) + 0) in g.
    rewrite Rplus_0_r in g. exact g.
Qed.

(** C115: two beams that meet in a node with springs of stiffness [s] at their ends there, when nothing else holds the rotation of the
    node: they behave like beams without springs that are joined by one spring of stiffness s/2 *)
Theorem C115_joint (b1 b2 : beam R) (s : R) (u1 u2 : nat -> R) :
  0 < b_E b1 -> 0 < b_I b1 -> 0 < b_A b1 -> 0 < b_l b1 -> 0 < b_E b2 -> 0 < b_I b2 -> 0 < b_A b2 -> 0 < b_l b2 -> 0 <= s ->
  exists m,
    least (fun _ => True) (fun t => quad 6 (beam_stiffness (left_of b1 s) 0) (ends u1 (u1 2%nat) t) / 2 + quad 6 (beam_stiffness (right_of b2 s) 0) (ends u2 t (u2 5%nat)) / 2) m /\
    least (fun _ => True) (fun p => quad 6 (beam_stiffness (rigid b1) 0) (ends u1 (u1 2%nat) (fst p)) / 2 + quad 6 (beam_stiffness (rigid b2) 0) (ends u2 (snd p) (u2 5%nat)) / 2
                                    + s / 2 / 2 * ((fst p - snd p) * (fst p - snd p))) m.
Proof.
  intros hE1 hI1 hA1 hl1 hE2 hI2 hA2 hl2 hs.
  assert (hm : exists m, least (fun _ => True) (fun t => quad 6 (beam_stiffness (left_of b1 s) 0) (ends u1 (u1 2%nat) t) / 2 + quad 6 (beam_stiffness (right_of b2 s) 0) (ends u2 t (u2 5%nat)) / 2) m).
  { set (e1 := b_E b1 * b_I b1 / b_l b1). set (e2 := b_E b2 * b_I b2 / b_l b2).
    assert (p1 : 0 < e1) by (unfold e1; apply Rdiv_lt_0_compat; [apply Rmult_lt_0_compat|]; assumption).
    assert (p2 : 0 < e2) by (unfold e2; apply Rdiv_lt_0_compat; [apply Rmult_lt_0_compat|]; assumption).
    set (c1 := (u1 1%nat - u1 4%nat) / b_l b1). set (c2 := (u2 1%nat - u2 4%nat) / b_l b2).
    assert (hq : forall e, 0 < e -> 0 <= s / (s + 3 * e) < 1).
    { intros e he. split; [apply Rmult_le_pos; [lra|]; left; apply Rinv_0_lt_compat; lra|]. apply (Rmult_lt_reg_r (s + 3 * e)); [lra|]. replace (s / (s + 3 * e) * (s + 3 * e)) with s by (field; lra). lra. }
    pose proof (hq e1 p1) as r1. pose proof (hq e2 p2) as r2. set (q1 := s / (s + 3 * e1)) in *. set (q2 := s / (s + 3 * e2)) in *.
    set (g1 := 6 * e1 / (4 - q1)). set (g2 := 6 * e2 / (4 - q2)).
    assert (w1 : 0 < g1) by (unfold g1; apply Rdiv_lt_0_compat; lra). assert (w2 : 0 < g2) by (unfold g2; apply Rdiv_lt_0_compat; lra).
    set (x := u1 2%nat + c1). set (y := u2 5%nat + c2).
    set (a1 := b_E b1 * b_A b1 / b_l b1 * ((u1 3%nat - u1 0%nat) * (u1 3%nat - u1 0%nat)) / 2). set (a2 := b_E b2 * b_A b2 / b_l b2 * ((u2 3%nat - u2 0%nat) * (u2 3%nat - u2 0%nat)) / 2).
    destruct (square_least (g1 * q1 + g2 * q2) (g1 * q1 * (2 * c1 + x) + g2 * q2 * (2 * c2 + y))
      (a1 + a2 + g1 * (x * x + q1 * (x * c1) + q1 * (c1 * c1)) + g2 * (q2 * (c2 * c2) + q2 * (c2 * y) + y * y))) as [m hm].
    - pose proof (Rmult_le_pos g1 q1 ltac:(lra) ltac:(lra)). pose proof (Rmult_le_pos g2 q2 ltac:(lra) ltac:(lra)). lra.
    - intros h0. pose proof (Rmult_le_pos g1 q1 ltac:(lra) ltac:(lra)). pose proof (Rmult_le_pos g2 q2 ltac:(lra) ltac:(lra)). assert (z1 : g1 * q1 = 0) by lra. assert (z2 : g2 * q2 = 0) by lra. rewrite z1, z2. ring.
    - exists m. refine (least_ext _ _ _ _ _ _ _ hm); [tauto|]. intros t _. rewrite !bending by (cbn; auto). cbv zeta. cbn [left_of right_of with_springs b_E b_I b_A b_l b_s1 b_s2 share ends vec6].
      fold e1 e2 c1 c2. fold q1 q2. fold x y a1 a2. unfold g1, g2. field. lra. }
  destruct hm as [m hm]. exists m. split; [exact hm|].
  refine (least_swap (fun _ => True) (fun _ => True) (fun t p => (quad 6 (beam_stiffness (rigid b1) 0) (ends u1 (u1 2%nat) (fst p)) / 2 + s / 2 * ((t - fst p) * (t - fst p)))
     + (quad 6 (beam_stiffness (rigid b2) 0) (ends u2 (snd p) (u2 5%nat)) / 2 + s / 2 * ((t - snd p) * (t - snd p)))) _ _ m _ _ hm).
  - intros t _. exact (least_sum _ _ _ _ (left_least b1 s u1 t hE1 hI1 hA1 hl1 hs) (right_least b2 s u2 t hE2 hI2 hA2 hl2 hs)).
  - intros [a c] _. cbn [fst snd]. split.
    + exists ((a + c) / 2). split; [exact I|]. field.
    + intros t _. pose proof (Rle_0_sqr (t - (a + c) / 2)) as q. unfold Rsqr in q. pose proof (Rmult_le_pos s _ hs q). lra.
Qed.
Print Assumptions C115_joint.

(** ** the hinge of a rail *)

(** C115: a hinge at an inner rail node made from a fixity factor [f]: the springs of the two rail elements at the node and the mass *)
Theorem C115_springs (c : heap R) (before after : list nat) (a h b : nat) (els : list (nat * nat)) (E Im l mass f x : R) :
  let nodes := (before ++ [a]) ++ h :: b :: after in
  0 < l -> 0 <= f < 1 -> in_line nodes els -> near (tx (c h)) x ->
  (forall n, In n (before ++ [a]) -> ~ near (tx (c n)) x) -> (forall n, In n ((before ++ [a]) ++ b :: after) -> ~ coincide (c n) (c h)) ->
  exists e1 e2, els = e1 ++ [(a, h); (h, b)] ++ e2 /\
    let k := 3 * E * Im * f / ((1 - f) * l) in
    create_hinge c nodes els E Im l mass f x =
      Ok ((before ++ [a], e1), [mkHingePart (a, h) None (Some (k / 2)); mkHingePart (h, b) (Some (k / 2)) None], (b :: after, e2), mkHinge mass k).
Proof.
  intros nodes hl hf h1 h2 h3 h4. destruct (C53_hinge_interior_partial c before after a h b els (3 * E * Im * f / ((1 - f) * l)) x h1 h2 h3 h4) as [e1 [e2 [g1 [_ [_ g2]]]]].
  exists e1, e2. split; [exact g1|]. intros k. assert (hz : neqb ((1 - f) * l) 0 = false).
  { destruct (neqbP ((1 - f) * l) 0) as [z|z]; [exfalso; assert (0 < (1 - f) * l) by (apply Rmult_lt_0_compat; lra); lra|reflexivity]. }
  assert (hs : hinge_stiffness None E Im l f = Some k).
  { unfold hinge_stiffness. rnum. destruct (RlebP 0 f); [|lra]. destruct (nltbP f 1); [|lra]. cbn [andb]. reflexivity. }
  unfold create_hinge. rewrite hs. rnum. rewrite hz, andb_false_r. fold nodes k in g2. rewrite g2. reflexivity.
Qed.
Print Assumptions C115_springs.

(** C115: a factor that is not between 0 and 1 is refused *)
Theorem C115_refused (c : heap R) nodes els (E Im l mass f x : R) : l <> 0 -> f < 0 \/ 1 + 1 / 10000 < f -> exists e, create_hinge c nodes els E Im l mass f x = Err e.
Proof.
  intros hl hf. unfold create_hinge, hinge_stiffness. rnum.
  assert (h : (Rleb 0 f && nltb f 1)%bool = false). { destruct (RlebP 0 f); [|reflexivity]. destruct (nltbP f 1); [lra|reflexivity]. }
  rewrite h. cbn [andb]. assert (hc : np_isclose f 1 = false). { destruct (np_isclose f 1) eqn:e; auto. apply np_isclose_spec in e. rewrite (Rabs_right 1) in e by lra. unfold Rabs in e. destruct (Rcase_abs (f - 1)); lra. }
  rewrite hc. destruct (find_at c x 0 nodes); eauto.
Qed.
Print Assumptions C115_refused.

(** C115: the fixity of a rail end at the hinge when there are [n] rail elements between two sleepers *)
Theorem C115_fixity (E Im d f : R) n : 0 < E -> 0 < Im -> 0 < d -> 0 <= f < 1 -> (1 <= n)%nat ->
  let k := 3 * E * Im * f / ((1 - f) * d) in fixity (E * Im) (d / INR n) (Some (k / 2)) = f / (f + 2 * INR n * (1 - f)).
Proof.
  intros hE hI hd hf hn k. assert (hp : 0 < INR n) by (apply lt_0_INR; lia). cbn [fixity]. rnum. unfold k. destruct (nltbP 0 (3 * E * Im * f / ((1 - f) * d) / 2)) as [h|h].
  - destruct (Req_dec f 0) as [->|h0]; [exfalso; revert h; unfold Rdiv; rewrite Rmult_0_r, !Rmult_0_l; lra|]. field.
    assert (0 < f) by lra. assert (0 < 2 * INR n * (1 - f)) by (apply Rmult_lt_0_compat; lra). repeat split; try lra.
  - destruct (Req_dec f 0) as [->|h0]; [unfold Rdiv; ring|]. exfalso. apply h. apply Rdiv_lt_0_compat; [|lra]. apply Rdiv_lt_0_compat; [|apply Rmult_lt_0_compat; lra].
    apply Rmult_lt_0_compat; [|lra]. apply Rmult_lt_0_compat; [|assumption]. lra.
Qed.
Print Assumptions C115_fixity.

(** C115 as promised, rail ends with the given fixity, is false: 1/2 becomes 1/3 with one rail element between two sleepers and 1/5 with two *)
Theorem C115_fixity_refuted : exists E Im d f, 0 < E /\ 0 < Im /\ 0 < d /\ f = 1 / 2 /\
  fixity (E * Im) d (Some (3 * E * Im * f / ((1 - f) * d) / 2)) = 1 / 3 /\ fixity (E * Im) (d / 2) (Some (3 * E * Im * f / ((1 - f) * d) / 2)) = 1 / 5.
Proof.
  exists 1, 1, 1, (1 / 2). do 4 (split; [lra|]). pose proof (C115_fixity 1 1 1 (1 / 2) 1 ltac:(lra) ltac:(lra) ltac:(lra) ltac:(lra) ltac:(lia)) as h1.
  pose proof (C115_fixity 1 1 1 (1 / 2) 2 ltac:(lra) ltac:(lra) ltac:(lra) ltac:(lra) ltac:(lia)) as h2. cbv zeta in h1, h2. cbn [INR] in h1, h2.
  replace (1 / 1) with 1 in h1 by field. split; [rewrite h1; field|]. replace (1 + 1) with 2 in h2 by ring. rewrite h2. field.
Qed.
Print Assumptions C115_fixity_refuted.

(** C115 as promised, rails that are joined with the stiffness of the hinge, is false: the joint is four times as soft *)
Definition plain : beam R := mkBeam 1 0 1 1 1 0 1 None None.
Theorem C115_joint_refuted : exists u1 u2 m, let k := 3 * b_E plain * b_I plain * (1 / 2) / ((1 - 1 / 2) * b_l plain) in
    least (fun _ => True) (fun t => quad 6 (beam_stiffness (left_of plain (k / 2)) 0) (ends u1 (u1 2%nat) t) / 2 + quad 6 (beam_stiffness (right_of plain (k / 2)) 0) (ends u2 t (u2 5%nat)) / 2) m /\
    forall p, m < quad 6 (beam_stiffness (rigid plain) 0) (ends u1 (u1 2%nat) (fst p)) / 2 + quad 6 (beam_stiffness (rigid plain) 0) (ends u2 (snd p) (u2 5%nat)) / 2
                    + k / 2 * ((fst p - snd p) * (fst p - snd p)).
Proof.
  set (k := 3 * b_E plain * b_I plain * (1 / 2) / ((1 - 1 / 2) * b_l plain)). assert (hk : k = 3) by (unfold k, plain; cbn; field).
  set (u1 := vec6 0 0 0 0 0 0). set (u2 := vec6 0 0 0 0 0 1).
  assert (hp : 0 <= k / 2) by (rewrite hk; lra). pose proof Rlt_0_1 as o. destruct (C115_joint plain plain (k / 2) u1 u2 o o o o o o o o hp) as [m [h1 h2]].
  exists u1, u2, m. cbv zeta. fold k. split; [exact h1|].
  assert (f : forall a c, quad 6 (beam_stiffness (rigid plain) 0) (ends u1 (u1 2%nat) a) / 2 + quad 6 (beam_stiffness (rigid plain) 0) (ends u2 c (u2 5%nat)) / 2 = 2 * (a * a) + 2 * (c * c + c + 1)).
  { intros a c. rewrite !bending by (cbn; auto; lra). cbv zeta. cbn [rigid plain with_springs b_E b_I b_A b_l b_s1 b_s2 share ends vec6 u1 u2]. field. }
  destruct h2 as [_ h2]. specialize (h2 (- (3 / 44), - (19 / 44)) I). cbn [fst snd] in h2. rewrite f, hk in h2. intros [a c]. cbn [fst snd]. rewrite f, hk.
  pose proof (Rle_0_sqr (a + c + 1 / 2)). pose proof (Rle_0_sqr (a - c - 1 / 5)). unfold Rsqr in *. lra.
Qed.
Print Assumptions C115_joint_refuted.

(** C115: the mass of the hinge is not in the model that the demonstration calculates *)
Theorem C115_mass_refuted (b : beam R) others c nodes els l m1 m2 f x : semi_rigid_parts b others c nodes els l m1 f x = semi_rigid_parts b others c nodes els l m2 f x.
Proof.
  unfold semi_rigid_parts, create_hinge. destruct (_ && _)%bool; [reflexivity|]. destruct (hinge_stiffness None (b_E b) (b_I b) l f); [|reflexivity].
  destruct (add_semi_rigid_hinge c nodes els r x); reflexivity.
Qed.
Print Assumptions C115_mass_refuted.

(** a rail with four nodes and a hinge at the second *)
Example C115_case : exists e1 e2 hg, create_hinge C53_points [0; 1; 2; 3]%nat [(0, 1); (1, 2); (2, 3)]%nat 2 3 (1 / 2) 60 (1 / 2) 1 =
  Ok (([0%nat], e1), [mkHingePart (0, 1)%nat None (Some (36 / 2)); mkHingePart (1, 2)%nat (Some (36 / 2)) None], ([2; 3]%nat, e2), hg) /\ hg_mass hg = 60.
Proof.
  destruct C53_example as [h1 [h2 [h3 h4]]].
  destruct (C115_springs C53_points [] [3%nat] 0 1 2 [(0, 1); (1, 2); (2, 3)]%nat 2 3 (1 / 2) 60 (1 / 2) 1 ltac:(lra) ltac:(lra) h1 h2) as [e1 [e2 [_ g]]].
  - intros n [<-|[]]. exact h3.
  - exact h4.
  - exists e1, e2. eexists. cbv zeta in g. replace (3 * 2 * 3 * (1 / 2) / ((1 - 1 / 2) * (1 / 2))) with 36 in g by field. split; [exact g|reflexivity].
Qed.
