(** * Moments of the normal and log-normal distribution *)

From Coq Require Import Reals Lra Psatz Lia.
From Coquelicot Require Import Coquelicot.
From Verif Require Import Spec_Field.
Local Open Scope R_scope.

(** ** integrals over the line *)
Lemma anti_const F G f : antiderivative_of F f -> antiderivative_of G f -> forall x, F x - G x = F 0 - G 0.
Proof.
  intros hF hG. assert (h : forall x, derivable_pt_lim (fun x => F x - G x) x 0).
  { intros x. replace 0 with (f x - f x) by ring. exact (derivable_pt_lim_minus F G x _ _ (hF x) (hG x)). }
  assert (pr : derivable (fun x => F x - G x)) by (intros x; exists 0; apply h).
  assert (k : constant (fun x => F x - G x)). { apply (null_derivative_1 _ pr). intros x. apply derive_pt_eq_0, h. }
  intros x. apply k.
Qed.
Lemma tends_unique F l l' : tends_right F l -> tends_right F l' -> l = l'.
Proof.
  intros h h'. destruct (Req_dec l l') as [|n]; [assumption|]. exfalso. assert (he : 0 < Rabs (l - l') / 2) by (pose proof (Rabs_pos_lt (l - l') ltac:(lra)); lra).
  destruct (h _ he) as [M hM]. destruct (h' _ he) as [M' hM']. specialize (hM (Rmax M M') (Rmax_l _ _)). specialize (hM' (Rmax M M') (Rmax_r _ _)).
  assert (Rabs (l - l') <= Rabs (F (Rmax M M') - l) + Rabs (F (Rmax M M') - l')). { replace (l - l') with (- (F (Rmax M M') - l) + (F (Rmax M M') - l')) by ring. eapply Rle_trans; [apply Rabs_triang|]. rewrite Rabs_Ropp. lra. }
  lra.
Qed.
Lemma tends_ext F G l : (forall x, F x = G x) -> tends_right F l -> tends_right G l.
Proof. intros e h eps he. destruct (h eps he) as [M hM]. exists M. intros x hx. rewrite <- e. apply hM, hx. Qed.
Lemma tends_lin a b F G l m : tends_right F l -> tends_right G m -> tends_right (fun x => a * F x + b * G x) (a * l + b * m).
Proof.
  intros hF hG eps he. set (k := Rabs a + Rabs b + 1). assert (hk : 0 < k) by (unfold k; pose proof (Rabs_pos a); pose proof (Rabs_pos b); lra).
  destruct (hF (eps / k)) as [M hM]; [apply Rdiv_lt_0_compat; lra|]. destruct (hG (eps / k)) as [M' hM']; [apply Rdiv_lt_0_compat; lra|]. exists (Rmax M M'). intros x hx.
  pose proof (Rmax_l M M'). pose proof (Rmax_r M M'). specialize (hM x ltac:(lra)). specialize (hM' x ltac:(lra)).
  replace (a * F x + b * G x - (a * l + b * m)) with (a * (F x - l) + b * (G x - m)) by ring. eapply Rle_lt_trans; [apply Rabs_triang|]. rewrite !Rabs_mult.
  assert (e : eps = k * (eps / k)) by (field; lra). assert (h0 : 0 < eps / k) by (apply Rdiv_lt_0_compat; lra). rewrite e at 1. unfold k at 1. pose proof (Rabs_pos a). pose proof (Rabs_pos b). nra.
Qed.
Lemma tends_shift c F l : tends_right F l -> tends_right (fun x => F (x + c)) l.
Proof. intros h eps he. destruct (h eps he) as [M hM]. exists (M - c). intros x hx. apply hM. lra. Qed.
Lemma total_unique f v w : total f v -> total f w -> v = w.
Proof.
  intros [F [L [U [h1 [h2 [h3 ->]]]]]] [F' [L' [U' [h1' [h2' [h3' ->]]]]]]. pose proof (anti_const F F' f h1 h1') as hc. set (c := F 0 - F' 0) in *.
  assert (U = U' + c). { apply (tends_unique F); [exact h3|]. replace (U' + c) with (1 * U' + 1 * c) by ring. apply (tends_ext (fun x => 1 * F' x + 1 * c)); [intros x; pose proof (hc x); lra|]. apply (tends_lin 1 1 F' (fun _ => c)); [exact h3'|]. intros eps he. exists 0. intros. rewrite Rminus_diag_eq by reflexivity. rewrite Rabs_R0. exact he. }
  assert (L = L' + c). { apply (tends_unique (fun x => F (- x))); [exact h2|]. replace (L' + c) with (1 * L' + 1 * c) by ring. apply (tends_ext (fun x => 1 * F' (- x) + 1 * c)); [intros x; pose proof (hc (- x)); lra|]. apply (tends_lin 1 1 (fun x => F' (- x)) (fun _ => c)); [exact h2'|]. intros eps he. exists 0. intros. rewrite Rminus_diag_eq by reflexivity. rewrite Rabs_R0. exact he. }
  lra.
Qed.
Lemma total_ext f g v w : (forall x, f x = g x) -> v = w -> total f v -> total g w.
Proof. intros e <- [F [L [U [h1 h2]]]]. exists F, L, U. split; [|exact h2]. intros x. rewrite <- e. apply h1. Qed.
Lemma total_lin a b f g v w : total f v -> total g w -> total (fun x => a * f x + b * g x) (a * v + b * w).
Proof.
  intros [F [L [U [h1 [h2 [h3 ->]]]]]] [G [L' [U' [g1 [g2 [g3 ->]]]]]]. exists (fun x => a * F x + b * G x), (a * L + b * L'), (a * U + b * U'). repeat split.
  - intros x. exact (derivable_pt_lim_plus _ _ x _ _ (derivable_pt_lim_scal F a x _ (h1 x)) (derivable_pt_lim_scal G b x _ (g1 x))).
  - exact (tends_lin a b (fun x => F (- x)) (fun x => G (- x)) L L' h2 g2).
  - exact (tends_lin a b F G U U' h3 g3).
  - ring.
Qed.
Lemma total_shift c f v : total f v -> total (fun x => f (x + c)) v.
Proof.
  intros [F [L [U [h1 [h2 [h3 ->]]]]]]. exists (fun x => F (x + c)), L, U. repeat split.
  - intros x. replace (f (x + c)) with (f (x + c) * 1) by ring. apply (derivable_pt_lim_comp (fun x => x + c) F); [|apply h1]. replace 1 with (1 + 0) by ring. apply derivable_pt_lim_plus; [apply derivable_pt_lim_id|apply derivable_pt_lim_const].
  - unfold tends_left. apply (tends_ext (fun x => F (- (x + - c)))); [intros x; f_equal; ring|]. exact (tends_shift (- c) (fun x => F (- x)) L h2).
  - apply tends_shift, h3.
Qed.

(** ** monotone bounded functions have a limit *)
Lemma monotone_limit F B : (forall x y, x <= y -> F x <= F y) -> (forall x, F x <= B) -> exists l, tends_right F l /\ forall x, F x <= l.
Proof.
  intros hm hb. destruct (completeness (fun y => exists x, y = F x)) as [l [h1 h2]].
  - exists B. intros y [x ->]. apply hb.
  - exists (F 0). eauto.
  - exists l. split; [|intros x; apply h1; eauto]. intros eps he. destruct (Classical_Prop.classic (exists M, l - eps < F M)) as [[M hM]|hn].
    + exists M. intros x hx. assert (F x <= l) by (apply h1; eauto). pose proof (hm M x hx). rewrite Rabs_left1 by lra. lra.
    + exfalso. assert (l <= l - eps); [|lra]. apply h2. intros y [x ->]. destruct (Rle_dec (F x) (l - eps)); [assumption|]. exfalso. apply hn. exists x. lra.
Qed.

(** ** the bell curve *)
Lemma bell_pos mu var x : 0 < bell mu var x. Proof. apply exp_pos. Qed.
Lemma bell_derive mu var x : var <> 0 -> derivable_pt_lim (bell mu var) x (bell mu var x * (- (x - mu) / var)).
Proof.
  intros hv. unfold bell. apply (derivable_pt_lim_comp (fun x => - ((x - mu) * (x - mu)) / (2 * var)) exp); [|apply derivable_pt_lim_exp].
  apply is_derive_Reals. auto_derive; [exact I|]. field. exact hv.
Qed.
Lemma bell_continuous mu var (x : R) : var <> 0 -> continuous (bell mu var) x.
Proof. intros hv. apply continuity_pt_filterlim. apply derivable_continuous_pt. exists (bell mu var x * (- (x - mu) / var)). apply bell_derive, hv. Qed.
Lemma bell_bound mu var x : 0 < var -> bell mu var x * (1 + (x - mu) * (x - mu) / (2 * var)) <= 1.
Proof.
  intros hv. unfold bell. set (t := (x - mu) * (x - mu) / (2 * var)). replace (- ((x - mu) * (x - mu)) / (2 * var)) with (- t) by (unfold t; field; lra). rewrite exp_Ropp.
  assert (ht : 0 <= t). { unfold t. apply Rmult_le_pos; [apply Rle_0_sqr|]. apply Rlt_le, Rinv_0_lt_compat. lra. }
  assert (he : 1 + t <= exp t) by (destruct (Req_dec t 0) as [->|n]; [rewrite exp_0; lra|left; apply exp_ineq1; lra]).
  apply (Rmult_le_reg_l (exp t)); [apply exp_pos|]. rewrite <- Rmult_assoc, Rinv_r by (pose proof (exp_pos t); lra). lra.
Qed.
Definition cum (mu var : R) (x : R) : R := RInt (bell mu var) mu x.
Lemma cum_derive mu var : 0 < var -> antiderivative_of (cum mu var) (bell mu var).
Proof.
  intros hv x. apply is_derive_Reals. apply (is_derive_RInt (bell mu var) (cum mu var) mu x).
  - exists (mkposreal 1 Rlt_0_1). intros y _. apply (RInt_correct (bell mu var) mu y). apply (ex_RInt_continuous (bell mu var) mu y). intros z _. apply bell_continuous. lra.
  - apply bell_continuous. lra.
Qed.

Lemma cum_at mu var : cum mu var mu = 0.
Proof. unfold cum. apply (RInt_point mu (bell mu var)). Qed.

(** comparison through derivatives *)
Lemma derive_mono F f : antiderivative_of F f -> (forall x, 0 <= f x) -> forall x y, x <= y -> F x <= F y.
Proof.
  intros hF hf x y h. destruct (Rle_lt_or_eq_dec x y h) as [lt|e]; [|subst; lra]. destruct (MVT_cor2 F f x y lt) as [c [e _]]; [intros c _; apply hF|]. pose proof (hf c). nra.
Qed.
Lemma atan_derive k c : antiderivative_of (fun x => atan (k * (x - c))) (fun x => k / (1 + (k * (x - c)) * (k * (x - c)))).
Proof.
  intros x. apply is_derive_Reals. auto_derive; [exact I|]. unfold Rsqr. pose proof (Rle_0_sqr (k * (x - c))) as q. unfold Rsqr in q. field; repeat split; intros hh; nra.
Qed.
Lemma cum_bound mu var x : 0 < var -> Rabs (cum mu var x) <= sqrt (2 * var) * (PI / 2).
Proof.
  intros hv. set (s := sqrt (2 * var)). assert (hs : 0 < s) by (apply sqrt_lt_R0; lra). assert (hss : s * s = 2 * var) by (apply sqrt_sqrt; lra).
  assert (hd : antiderivative_of (fun x => 1 * (s * atan (/ s * (x - mu))) + -1 * cum mu var x) (fun x => 1 * (s * (/ s / (1 + (/ s * (x - mu)) * (/ s * (x - mu))))) + -1 * bell mu var x)).
  { intros y. apply derivable_pt_lim_plus; apply derivable_pt_lim_scal; [apply derivable_pt_lim_scal, (atan_derive (/ s) mu)|apply cum_derive, hv]. }
  assert (hp : forall y, 0 <= 1 * (s * (/ s / (1 + (/ s * (y - mu)) * (/ s * (y - mu))))) + -1 * bell mu var y).
  { intros y. pose proof (bell_bound mu var y hv) as hb. set (t := (y - mu) * (y - mu) / (2 * var)) in *. replace (/ s * (y - mu) * (/ s * (y - mu))) with t by (unfold t; rewrite <- hss; field; lra).
    assert (ht : 0 <= t). { unfold t. apply Rmult_le_pos; [apply Rle_0_sqr|]. apply Rlt_le, Rinv_0_lt_compat. lra. }
    replace (s * (/ s / (1 + t))) with (/ (1 + t)) by (field; split; lra). assert (bell mu var y <= / (1 + t)); [|lra]. apply (Rmult_le_reg_r (1 + t)); [lra|]. rewrite Rinv_l by lra. exact hb. }
  pose proof (derive_mono _ _ hd hp) as hm. pose proof (derive_mono _ _ (cum_derive mu var hv) (fun y => Rlt_le _ _ (bell_pos mu var y))) as hc. pose proof (cum_at mu var) as h0.
  pose proof (atan_bound (/ s * (x - mu))) as hb. assert (ha0 : atan (/ s * (mu - mu)) = 0) by (rewrite Rminus_diag_eq, Rmult_0_r by reflexivity; apply atan_0).
  destruct (Rle_dec mu x) as [c|c].
  - specialize (hm mu x c). specialize (hc mu x c). cbv beta in hm. rewrite h0 in hm, hc. rewrite ha0 in hm. rewrite Rabs_right by lra. nra.
  - specialize (hm x mu ltac:(lra)). specialize (hc x mu ltac:(lra)). cbv beta in hm. rewrite h0 in hm, hc. rewrite ha0 in hm. rewrite Rabs_left1 by lra. nra.
Qed.
Lemma tends_opp F l : tends_right F l -> tends_right (fun x => - F x) (- l).
Proof. intros h. apply (tends_ext (fun x => -1 * F x + 0 * F x)); [intros; ring|]. replace (- l) with (-1 * l + 0 * l) by ring. apply tends_lin; exact h. Qed.
Lemma bell_total mu var : 0 < var -> exists I, 0 < I /\ total (bell mu var) I.
Proof.
  intros hv. pose proof (derive_mono _ _ (cum_derive mu var hv) (fun y => Rlt_le _ _ (bell_pos mu var y))) as hc.
  destruct (monotone_limit (cum mu var) (sqrt (2 * var) * (PI / 2)) hc) as [U [hU hU']]. { intros x. pose proof (cum_bound mu var x hv). pose proof (Rle_abs (cum mu var x)). lra. }
  destruct (monotone_limit (fun x => - cum mu var (- x)) (sqrt (2 * var) * (PI / 2))) as [L [hL hL']].
  { intros x y h. pose proof (hc (- y) (- x) ltac:(lra)). lra. } { intros x. pose proof (cum_bound mu var (- x) hv). pose proof (Rle_abs (- cum mu var (- x))). rewrite Rabs_Ropp in *. lra. }
  exists (U + L). split.
  - pose proof (hL' (- mu)) as q. rewrite Ropp_involutive, cum_at in q. pose proof (hU' (mu + 1)) as p. destruct (MVT_cor2 (cum mu var) (bell mu var) mu (mu + 1) ltac:(lra)) as [c [e _]]; [intros c _; apply cum_derive, hv|]. rewrite cum_at in e. pose proof (bell_pos mu var c). nra.
  - exists (cum mu var), (- L), U. repeat split; [apply cum_derive, hv| |exact hU|ring]. apply tends_opp in hL. unfold tends_left. apply (tends_ext (fun x => - - cum mu var (- x))); [intros; ring|exact hL].
Qed.

(** ** moments *)
(** multiplying the bell with an exponential moves it *)
Lemma bell_tilt k mu var x : 0 < var -> exp (k * x) * bell mu var x = exp (k * mu + k * k * var / 2) * bell mu var (x + - (k * var)).
Proof. intros hv. unfold bell. rewrite <- !exp_plus. f_equal. field. lra. Qed.
Lemma expectation_exp k mu var : 0 < var -> expectation mu var (fun x => exp (k * x)) (exp (k * mu + k * k * var / 2)).
Proof.
  intros hv. destruct (bell_total mu var hv) as [I [h0 h]]. exists I. split; [exact h0|]. split; [exact h|].
  set (c := exp (k * mu + k * k * var / 2)). apply (total_ext (fun x => c * bell mu var (x + - (k * var)) + 0 * bell mu var x) _ (c * I + 0 * I)); [intros x; rewrite bell_tilt by exact hv; unfold c; ring|ring|].
  apply total_lin; [apply (total_shift (- (k * var)) (bell mu var)), h|exact h].
Qed.
Lemma expectation_lin a b mu var f g v w : expectation mu var f v -> expectation mu var g w -> expectation mu var (fun x => a * f x + b * g x) (a * v + b * w).
Proof.
  intros [I [h0 [h1 h2]]] [J [_ [j1 j2]]]. assert (J = I) by exact (total_unique _ _ _ j1 h1). subst J. exists I. split; [exact h0|]. split; [exact h1|].
  apply (total_ext (fun x => a * (f x * bell mu var x) + b * (g x * bell mu var x)) _ (a * (v * I) + b * (w * I))); [intros; ring|ring|]. apply total_lin; assumption.
Qed.
Lemma expectation_ext mu var f g v w : (forall x, f x = g x) -> v = w -> expectation mu var f v -> expectation mu var g w.
Proof. intros e <- [I [h0 [h1 h2]]]. exists I. split; [exact h0|]. split; [exact h1|]. refine (total_ext _ _ _ _ _ eq_refl h2). intros x. cbn. rewrite e. reflexivity. Qed.
Lemma expectation_unique mu var f v w : expectation mu var f v -> expectation mu var f w -> v = w.
Proof. intros [I [h0 [h1 h2]]] [J [_ [j1 j2]]]. assert (J = I) by exact (total_unique _ _ _ j1 h1). subst J. pose proof (total_unique _ _ _ h2 j2) as e. apply (Rmult_eq_reg_r I); lra. Qed.
Lemma expectation_one mu var : 0 < var -> expectation mu var (fun _ => 1) 1.
Proof. intros hv. destruct (bell_total mu var hv) as [I [h0 h]]. exists I. split; [exact h0|]. split; [exact h|]. apply (total_ext (bell mu var) _ I); [intros; ring|ring|exact h]. Qed.

(** moments of the normal distribution itself *)
Lemma bell_even mu var x : bell mu var (mu + (mu - x)) = bell mu var x.
Proof. unfold bell. f_equal. f_equal. ring. Qed.
Lemma bell_small mu var : 0 < var -> tends_right (bell mu var) 0 /\ tends_right (fun x => (x - mu) * bell mu var x) 0.
Proof.
  intros hv. assert (hq : forall x, (x - mu) * bell mu var x * ((x - mu) * (x - mu)) <= 2 * var * (x - mu) \/ x < mu).
  { intros x. destruct (Rlt_dec x mu) as [c|c]; [right; exact c|left]. pose proof (bell_bound mu var x hv) as hb. pose proof (bell_pos mu var x) as hp. assert (bell mu var x * ((x - mu) * (x - mu)) <= 2 * var).
    { replace (bell mu var x * ((x - mu) * (x - mu))) with (bell mu var x * ((x - mu) * (x - mu) / (2 * var)) * (2 * var)) by (field; lra). assert (bell mu var x * ((x - mu) * (x - mu) / (2 * var)) <= 1) by nra. nra. }
    nra. }
  assert (hs : tends_right (fun x => (x - mu) * bell mu var x) 0).
  { intros eps he. exists (mu + 1 + 2 * var / eps). intros x hx. assert (h2 : 0 < 2 * var / eps) by (apply Rdiv_lt_0_compat; lra). rewrite Rminus_0_r. pose proof (bell_pos mu var x) as hp. assert (hd : 0 < x - mu) by lra. rewrite Rabs_right by nra.
    destruct (hq x) as [q|q]; [|lra]. assert (q' : bell mu var x * (x - mu) * (x - mu) <= 2 * var). { apply (Rmult_le_reg_l (x - mu)); [exact hd|]. lra. }
    assert (2 * var < eps * (x - mu)). { replace (2 * var) with (eps * (2 * var / eps)) by (field; lra). apply Rmult_lt_compat_l; lra. }
    apply (Rmult_lt_reg_r (x - mu)); [exact hd|]. lra. }
  split; [|exact hs]. intros eps he. destruct (hs eps he) as [M hM]. exists (Rmax M (mu + 1)). intros x hx. pose proof (Rmax_l M (mu + 1)). pose proof (Rmax_r M (mu + 1)). specialize (hM x ltac:(lra)). rewrite Rminus_0_r in *. pose proof (bell_pos mu var x). rewrite Rabs_right in * by nra. nra.
Qed.
Lemma bell_small_left mu var : 0 < var -> tends_left (bell mu var) 0 /\ tends_left (fun x => (x - mu) * bell mu var x) 0.
Proof.
  intros hv. destruct (bell_small (- mu) var hv) as [h1 h2]. split.
  - apply (tends_ext (bell (- mu) var)); [|exact h1]. intros x. unfold bell. f_equal. f_equal. ring.
  - apply tends_opp in h2. rewrite Ropp_0 in h2. apply (tends_ext (fun x => - ((x - - mu) * bell (- mu) var x))); [|exact h2]. intros x. unfold bell. replace (- x - mu) with (- (x - - mu)) by ring. rewrite Rmult_opp_opp. ring.
Qed.
Lemma expectation_centred mu var : 0 < var -> expectation mu var (fun x => x - mu) 0.
Proof.
  intros hv. destruct (bell_total mu var hv) as [I [h0 h]]. exists I. split; [exact h0|]. split; [exact h|]. destruct (bell_small mu var hv) as [r _]. destruct (bell_small_left mu var hv) as [l _].
  exists (fun x => - var * bell mu var x), (- var * 0), (- var * 0). repeat split; [| | |ring].
  - intros x. replace ((x - mu) * bell mu var x) with (- var * (bell mu var x * (- (x - mu) / var))) by (field; lra). apply derivable_pt_lim_scal, bell_derive. lra.
  - apply (tends_ext (fun x => - var * bell mu var (- x) + 0 * bell mu var (- x))); [intros; ring|]. replace (- var * 0) with (- var * 0 + 0 * 0) by ring. apply tends_lin; exact l.
  - apply (tends_ext (fun x => - var * bell mu var x + 0 * bell mu var x)); [intros; ring|]. replace (- var * 0) with (- var * 0 + 0 * 0) by ring. apply tends_lin; exact r.
Qed.
Lemma expectation_square mu var : 0 < var -> expectation mu var (fun x => (x - mu) * (x - mu)) var.
Proof.
  intros hv. destruct (bell_total mu var hv) as [I [h0 h]]. exists I. split; [exact h0|]. split; [exact h|]. destruct (bell_small mu var hv) as [_ r]. destruct (bell_small_left mu var hv) as [_ l].
  destruct h as [F [L [U [f1 [f2 [f3 ->]]]]]]. exists (fun x => var * F x + - var * ((x - mu) * bell mu var x)), (var * L + - var * 0), (var * U + - var * 0). repeat split; [| | |ring].
  - intros x. replace ((x - mu) * (x - mu) * bell mu var x) with (var * bell mu var x + - var * (1 * bell mu var x + (x - mu) * (bell mu var x * (- (x - mu) / var)))) by (field; lra).
    apply derivable_pt_lim_plus; apply derivable_pt_lim_scal; [apply f1|]. apply (derivable_pt_lim_mult (fun x => x - mu) (bell mu var)); [|apply bell_derive; lra]. replace 1 with (1 - 0) by ring. apply derivable_pt_lim_minus; [apply derivable_pt_lim_id|apply derivable_pt_lim_const].
  - exact (tends_lin var (- var) (fun x => F (- x)) (fun x => (- x - mu) * bell mu var (- x)) L 0 f2 l).
  - exact (tends_lin var (- var) F (fun x => (x - mu) * bell mu var x) U 0 f3 r).
Qed.
