(** * Proofs about the force moving along a beam on an elastic foundation *)

From Coq Require Import Reals List Bool ZArith Arith Lia Lra Psatz.
From Coquelicot Require Import Coquelicot.
From Verif Require Import Num PyBase Model_Element Model_Accumulation Model_Misc Model_Analytic Spec_Analytic Model_Winkler Spec_Winkler.
Import ListNotations.
Local Open Scope R_scope.

(** ** the model's complex numbers are those of Coquelicot *)
Lemma cadd_C (x y : C) : cadd x y = (x + y)%C. Proof. reflexivity. Qed.
Lemma copp_C (x : C) : copp x = (- x)%C. Proof. reflexivity. Qed.
Lemma csub_C (x y : C) : csub x y = (x - y)%C. Proof. reflexivity. Qed.
Lemma cmul_C (x y : C) : cmul x y = (x * y)%C. Proof. reflexivity. Qed.
Lemma creal_C (x : R) : creal x = RtoC x. Proof. reflexivity. Qed.
Lemma cunit_C : cunit = Ci. Proof. reflexivity. Qed.
Lemma cinv_C (x : C) : cinv x = (/ x)%C.
Proof. unfold cinv, Cinv. destruct x as [a b]. cbn [fst snd]. rnum. f_equal; f_equal; ring. Qed.
Lemma cdiv_C (x y : C) : cdiv x y = (x / y)%C. Proof. unfold cdiv. rewrite cinv_C. reflexivity. Qed.
Fixpoint pw (x : C) (n : nat) : C := match n with 0%nat => 1%C | S n => (x * pw x n)%C end.
Lemma cpow_C (x : C) n : cpow x n = pw x n.
Proof. induction n as [|n ih]; [reflexivity|]. cbn [cpow pw]. rewrite ih. reflexivity. Qed.
Ltac toC := repeat match goal with
  | |- context [cdiv ?a ?b] => rewrite (cdiv_C a b)
  | |- context [cinv ?a] => rewrite (cinv_C a)
  | |- context [cpow ?a ?n] => rewrite (cpow_C a n)
  | |- context [cadd ?a ?b] => change (cadd a b) with (Cplus a b)
  | |- context [csub ?a ?b] => change (csub a b) with (Cminus a b)
  | |- context [copp ?a] => change (copp a) with (Copp a)
  | |- context [cmul ?a ?b] => change (cmul a b) with (Cmult a b)
  | |- context [@cunit R _] => change (@cunit R _) with Ci
  | |- context [creal ?a] => change (creal a) with (RtoC a)
  end.

Lemma Ceq (x y : C) : fst x = fst y -> snd x = snd y -> x = y.
Proof. destruct x, y. cbn. congruence. Qed.
Lemma pw_mult x y n : pw (x * y)%C n = (pw x n * pw y n)%C.
Proof. induction n as [|n ih]; cbn [pw]; [ring|]. rewrite ih. ring. Qed.
Lemma Ci2 : (Ci * Ci)%C = Copp (RtoC 1).
Proof. apply Ceq; cbn; ring. Qed.
Lemma Ci0 : Ci <> 0%C.
Proof. intros e. apply (f_equal snd) in e. cbn in e. lra. Qed.
Lemma Cnz_re (x : C) : fst x <> 0 -> x <> 0%C.
Proof. intros h e. apply h. rewrite e. reflexivity. Qed.
Lemma Cnz_im (x : C) : snd x <> 0 -> x <> 0%C.
Proof. intros h e. apply h. rewrite e. reflexivity. Qed.

(** ** square roots *)
Definition rt (x : C) : C := csqrt x.
Section Root.
  Variable x : C.
  Let r := sqrt (fst x * fst x + snd x * snd x).
  Lemma root_mod : 0 <= r /\ r * r = fst x * fst x + snd x * snd x /\ Rabs (fst x) <= r.
  Proof.
    assert (h : 0 <= fst x * fst x + snd x * snd x) by nra. split; [apply sqrt_pos|]. split; [apply sqrt_sqrt; exact h|].
    rewrite <- (sqrt_Rsqr_abs (fst x)). apply sqrt_le_1; unfold Rsqr; nra.
  Qed.
  Lemma csqrt_parts : rt x = (sqrt ((r + fst x) / 2), if Rlt_dec (snd x) 0 then - sqrt ((r - fst x) / 2) else sqrt ((r - fst x) / 2)).
  Proof. unfold rt, csqrt, r. rnum. destruct (nltbP (snd x) 0), (Rlt_dec (snd x) 0); try contradiction; reflexivity. Qed.
  Lemma csqrt_re : 0 <= fst (rt x).
  Proof. rewrite csqrt_parts. apply sqrt_pos. Qed.
  Lemma csqrt_sqr : (rt x * rt x)%C = x.
  Proof.
    destruct root_mod as [h1 [h2 h3]]. rewrite csqrt_parts. assert (a1 : 0 <= (r + fst x) / 2) by (apply Rabs_le_between in h3; lra). assert (a2 : 0 <= (r - fst x) / 2) by (apply Rabs_le_between in h3; lra).
    assert (hp : sqrt ((r + fst x) / 2) * sqrt ((r - fst x) / 2) = Rabs (snd x) / 2).
    { rewrite <- sqrt_mult by assumption. replace ((r + fst x) / 2 * ((r - fst x) / 2)) with (Rsqr (snd x / 2)) by (unfold Rsqr; nra).
      rewrite sqrt_Rsqr_abs. unfold Rdiv. rewrite Rabs_mult, (Rabs_pos_eq (/ 2)) by lra. reflexivity. }
    apply Ceq; unfold Cmult; cbn [fst snd]; destruct (Rlt_dec (snd x) 0) as [g|g].
    - replace (- sqrt ((r - fst x) / 2) * - sqrt ((r - fst x) / 2)) with (sqrt ((r - fst x) / 2) * sqrt ((r - fst x) / 2)) by ring. rewrite !sqrt_sqrt by assumption. lra.
    - rewrite !sqrt_sqrt by assumption. lra.
    - rewrite Rabs_left in hp by exact g. lra.
    - rewrite Rabs_pos_eq in hp by lra. lra.
  Qed.
  Lemma csqrt_pos : snd x <> 0 \/ 0 < fst x -> 0 < fst (rt x).
  Proof.
    intros h. destruct root_mod as [h1 [h2 h3]]. rewrite csqrt_parts. cbn [fst]. apply sqrt_lt_R0. destruct (Rle_lt_dec (fst x) 0) as [g|g]; [|lra].
    destruct h as [h|h]; [|lra]. assert (- fst x < r); [|lra]. destruct (Rlt_le_dec (- fst x) r) as [k|k]; [exact k|]. exfalso. apply h. nra.
  Qed.
  Lemma csqrt_im : (0 < snd x -> 0 < snd (rt x)) /\ (snd x < 0 -> snd (rt x) < 0).
  Proof.
    assert (k : snd x <> 0 -> 0 < sqrt ((r - fst x) / 2)).
    { intros hx. destruct root_mod as [h1 [h2 h3]]. apply sqrt_lt_R0. destruct (Rle_lt_dec 0 (fst x)) as [g|g]; [|lra].
      assert (fst x < r); [|lra]. destruct (Rlt_le_dec (fst x) r) as [j|j]; [exact j|]. exfalso. apply hx. nra. }
    rewrite csqrt_parts. cbn [snd]. split; intros h; destruct (Rlt_dec (snd x) 0); try lra; apply k in n || specialize (k ltac:(lra)); lra.
  Qed.
End Root.

Lemma csqrt_conj x : snd x <> 0 -> rt (Cconj x) = Cconj (rt x).
Proof.
  intros h. rewrite !csqrt_parts. unfold Cconj. cbn [fst snd]. replace (- snd x * - snd x) with (snd x * snd x) by ring.
  destruct (Rlt_dec (- snd x) 0), (Rlt_dec (snd x) 0); try lra; f_equal; ring.
Qed.
Lemma Cconj_mult x y : Cconj (x * y)%C = (Cconj x * Cconj y)%C.
Proof. apply Ceq; cbn; ring. Qed.
Lemma Cconj_plus x y : Cconj (x + y)%C = (Cconj x + Cconj y)%C.
Proof. apply Ceq; cbn; ring. Qed.
Lemma Cconj_opp x : Cconj (- x)%C = (- Cconj x)%C.
Proof. apply Ceq; cbn; ring. Qed.
Lemma Cconj_real x : Cconj (RtoC x) = RtoC x.
Proof. apply Ceq; cbn; ring. Qed.
Lemma Cconj_inv x : Cconj (/ x)%C = (/ Cconj x)%C.
Proof. apply Ceq; unfold Cconj, Cinv; cbn [fst snd]; replace ((- snd x) ^ 2) with (snd x ^ 2) by ring; unfold Rdiv; ring. Qed.

(** ** exponentials *)
Lemma cexp_parts (z : C) : cexp z = (exp (fst z) * cos (snd z), exp (fst z) * sin (snd z)).
Proof. reflexivity. Qed.
Lemma cexp_plus (x y : C) : cexp (x + y)%C = (cexp x * cexp y)%C.
Proof. rewrite !cexp_parts. unfold Cplus. cbn [fst snd]. rewrite exp_plus, cos_plus, sin_plus. apply Ceq; cbn; ring. Qed.
Lemma cexp_0 : cexp (RtoC 0) = RtoC 1.
Proof. rewrite cexp_parts. cbn [fst snd RtoC]. rewrite exp_0, cos_0, sin_0. apply Ceq; cbn; ring. Qed.
Lemma cexp_conj z : cexp (Cconj z) = Cconj (cexp z).
Proof. rewrite !cexp_parts. unfold Cconj. cbn [fst snd]. rewrite cos_neg, sin_neg. apply Ceq; cbn; ring. Qed.

(** real part of an exponential function *)
Definition er (c z : C) (x : R) : R := fst (c * cexp (z * RtoC x))%C.
Lemma er_parts c z x : er c z x = fst c * (exp (fst z * x) * cos (snd z * x)) - snd c * (exp (fst z * x) * sin (snd z * x)).
Proof.
  unfold er. rewrite cexp_parts. unfold Cmult, RtoC. cbn [fst snd].
  replace (fst z * x - snd z * 0) with (fst z * x) by ring. replace (fst z * 0 + snd z * x) with (snd z * x) by ring. reflexivity.
Qed.
Lemma er_derivative c z : derivative (er c z) (er (c * z)%C z).
Proof.
  intros x. apply is_derive_Reals. apply (is_derive_ext (fun x => fst c * (exp (fst z * x) * cos (snd z * x)) - snd c * (exp (fst z * x) * sin (snd z * x)))); [intros; symmetry; apply er_parts|].
  auto_derive; [exact I|]. rewrite er_parts. unfold Cmult. cbn [fst snd]. ring.
Qed.
Lemma er_bound c z x : Rabs (er c z x) <= (Rabs (fst c) + Rabs (snd c)) * exp (fst z * x).
Proof.
  rewrite er_parts. pose proof (exp_pos (fst z * x)) as he. set (e := exp (fst z * x)) in *. clearbody e.
  pose proof (COS_bound (snd z * x)) as hc. pose proof (SIN_bound (snd z * x)) as hs. set (cc := cos (snd z * x)) in *. set (ss := sin (snd z * x)) in *. clearbody cc ss.
  apply (Rle_trans _ (Rabs (fst c * (e * cc)) + Rabs (snd c * (e * ss)))).
  - unfold Rminus. eapply Rle_trans; [apply Rabs_triang|]. rewrite Rabs_Ropp. lra.
  - rewrite !Rabs_mult, (Rabs_pos_eq e) by lra. assert (h1 : Rabs cc <= 1) by (apply Rabs_le; lra). assert (h2 : Rabs ss <= 1) by (apply Rabs_le; lra).
    pose proof (Rabs_pos (fst c)). pose proof (Rabs_pos (snd c)). pose proof (Rabs_pos cc). pose proof (Rabs_pos ss).
    assert (e * Rabs cc <= e) by nra. assert (e * Rabs ss <= e) by nra. nra.
Qed.

Lemma exp_dies p x e : 0 < e -> 0 < p -> x < ln e / p -> exp (p * x) < e.
Proof.
  intros he hp hx. rewrite <- (exp_ln e he) at 1. apply exp_increasing. apply (Rmult_lt_compat_l p) in hx; [|exact hp]. 
  replace (p * (ln e / p)) with (ln e) in hx by (field; lra). exact hx.
Qed.
Lemma er_left c z : 0 < fst z -> dies_left (er c z).
Proof.
  intros hz eps he. set (K := Rabs (fst c) + Rabs (snd c) + 1).
  assert (hK : 0 < K) by (unfold K; pose proof (Rabs_pos (fst c)); pose proof (Rabs_pos (snd c)); lra).
  exists (ln (eps / K) / fst z). intros x hx. eapply Rle_lt_trans; [apply er_bound|].
  assert (h : exp (fst z * x) < eps / K) by (apply exp_dies; [apply Rdiv_lt_0_compat; assumption|exact hz|exact hx]).
  pose proof (exp_pos (fst z * x)) as hp. apply (Rle_lt_trans _ (K * exp (fst z * x))); [apply Rmult_le_compat_r; [lra|unfold K; lra]|].
  apply (Rmult_lt_compat_l K) in h; [|exact hK]. replace (K * (eps / K)) with eps in h by (field; lra). exact h.
Qed.
Lemma er_right c z : fst z < 0 -> dies_right (er c z).
Proof.
  intros hz eps he. destruct (er_left (Cconj c) (Cconj (- z))%C) with (eps := eps) as [X hX]; [cbn; lra|exact he|].
  exists (- X). intros x hx. specialize (hX (- x) ltac:(lra)). replace (er c z x) with (er (Cconj c) (Cconj (- z))%C (- x)); [exact hX|].
  rewrite !er_parts. unfold Cconj, Copp. cbn [fst snd]. replace (- fst z * - x) with (fst z * x) by ring. replace (- - snd z * - x) with (- (snd z * x)) by ring.
  rewrite cos_neg, sin_neg. ring.
Qed.
Lemma dies_left_plus f g : dies_left f -> dies_left g -> dies_left (fun x => f x + g x).
Proof.
  intros hf hg eps he. destruct (hf (eps / 2) ltac:(lra)) as [X hX]. destruct (hg (eps / 2) ltac:(lra)) as [Y hY]. exists (Rmin X Y). intros x hx.
  specialize (hX x ltac:(pose proof (Rmin_l X Y); lra)). specialize (hY x ltac:(pose proof (Rmin_r X Y); lra)).
  eapply Rle_lt_trans; [apply Rabs_triang|]. lra.
Qed.
Lemma dies_right_plus f g : dies_right f -> dies_right g -> dies_right (fun x => f x + g x).
Proof.
  intros hf hg eps he. destruct (hf (eps / 2) ltac:(lra)) as [X hX]. destruct (hg (eps / 2) ltac:(lra)) as [Y hY]. exists (Rmax X Y). intros x hx.
  specialize (hX x ltac:(pose proof (Rmax_l X Y); lra)). specialize (hY x ltac:(pose proof (Rmax_r X Y); lra)).
  eapply Rle_lt_trans; [apply Rabs_triang|]. lra.
Qed.
Lemma dies_left_ext f g : (forall x, f x = g x) -> dies_left f -> dies_left g.
Proof. intros e h eps he. destruct (h eps he) as [X hX]. exists X. intros x hx. rewrite <- e. apply hX; exact hx. Qed.
Lemma dies_right_ext f g : (forall x, f x = g x) -> dies_right f -> dies_right g.
Proof. intros e h eps he. destruct (h eps he) as [X hX]. exists X. intros x hx. rewrite <- e. apply hX; exact hx. Qed.

(** ** sums of waves: coefficient, exponent in space, exponent in time *)
Definition wave1 := (C * C * C)%type.
Definition wave_value (n m : nat) (q : wave1) (x t : R) : R :=
  let '(c, z, y) := q in fst (c * pw z n * pw y m * cexp (z * RtoC x + y * RtoC t))%C.
Fixpoint waves (n m : nat) (l : list wave1) (x t : R) : R := match l with [] => 0 | q :: r => wave_value n m q x t + waves n m r x t end.

Lemma wave_space n m c z y x t : wave_value n m (c, z, y) x t = er (c * pw z n * pw y m * cexp (y * RtoC t))%C z x.
Proof. unfold wave_value, er. rewrite cexp_plus. f_equal. ring. Qed.
Lemma wave_time n m c z y x t : wave_value n m (c, z, y) x t = er (c * pw z n * pw y m * cexp (z * RtoC x))%C y t.
Proof. unfold wave_value, er. rewrite cexp_plus. f_equal. ring. Qed.
Lemma derivative_ext2 f g h k : (forall x, f x = g x) -> (forall x, h x = k x) -> derivative f h -> derivative g k.
Proof.
  intros e1 e2 hd x. rewrite <- e2. apply is_derive_Reals. apply (is_derive_ext f); [intros; apply e1|]. apply is_derive_Reals. apply hd.
Qed.
Lemma waves_x n m l t : derivative (fun x => waves n m l x t) (fun x => waves (S n) m l x t).
Proof.
  induction l as [|[[c z] y] l ih]; intros x; [cbn; apply derivable_pt_lim_const|]. cbn [waves].
  apply (derivable_pt_lim_plus (fun x => wave_value n m (c, z, y) x t) (fun x => waves n m l x t)); [|apply ih].
  refine (derivative_ext2 _ (fun x => wave_value n m (c, z, y) x t) _ (fun x => wave_value (S n) m (c, z, y) x t) _ _ (er_derivative (c * pw z n * pw y m * cexp (y * RtoC t))%C z) x); intros u; [symmetry; apply wave_space|].
  rewrite wave_space. cbn [pw]. unfold er. f_equal. ring.
Qed.
Lemma waves_t n m l x : derivative (fun t => waves n m l x t) (fun t => waves n (S m) l x t).
Proof.
  induction l as [|[[c z] y] l ih]; intros t; [cbn; apply derivable_pt_lim_const|]. cbn [waves].
  apply (derivable_pt_lim_plus (fun t => wave_value n m (c, z, y) x t) (fun t => waves n m l x t)); [|apply ih].
  refine (derivative_ext2 _ (fun t => wave_value n m (c, z, y) x t) _ (fun t => wave_value n (S m) (c, z, y) x t) _ _ (er_derivative (c * pw z n * pw y m * cexp (z * RtoC x))%C y) t); intros u; [symmetry; apply wave_time|].
  rewrite wave_time. cbn [pw]. unfold er. f_equal. ring.
Qed.
Lemma waves_piece EI rho k l : (forall c z y, In (c, z, y) l -> (RtoC EI * pw z 4 + RtoC rho * pw y 2 + RtoC k = 0)%C) ->
  foundation_piece EI rho k (fun n => waves n 0 l).
Proof.
  intros h. split; [intros n t; apply waves_x|]. exists (waves 0 1 l), (waves 0 2 l). split; [intros x; apply waves_t|]. split; [intros x; apply waves_t|].
  intros x t. induction l as [|[[c z] y] l ih]; [cbn; ring|]. cbn [waves]. specialize (ih (fun c z y hi => h c z y (or_intror hi))).
  assert (e : EI * wave_value 4 0 (c, z, y) x t + rho * wave_value 0 2 (c, z, y) x t + k * wave_value 0 0 (c, z, y) x t = 0); [|lra].
  pose proof (h c z y (or_introl eq_refl)) as hz. unfold wave_value. set (X := cexp (z * RtoC x + y * RtoC t)%C).
  transitivity (fst (c * X * (RtoC EI * pw z 4 + RtoC rho * pw y 2 + RtoC k))%C); [|rewrite hz; cbn; ring].
  cbn [pw]. unfold Cmult, Cplus, RtoC. cbn [fst snd]. ring.
Qed.
Lemma waves_left l t : (forall c z y, In (c, z, y) l -> 0 < fst z) -> dies_left (fun x => waves 0 0 l x t).
Proof.
  induction l as [|[[c z] y] l ih]; intros h; [intros eps he; exists 0; intros; cbn; rewrite Rabs_R0; exact he|]. cbn [waves]. apply dies_left_plus.
  - apply (dies_left_ext (er (c * pw z 0 * pw y 0 * cexp (y * RtoC t))%C z)); [intros x; symmetry; apply wave_space|]. apply er_left. apply (h c z y). left. reflexivity.
  - apply ih. intros c' z' y' hi. apply (h c' z' y'). right. exact hi.
Qed.
Lemma waves_right l t : (forall c z y, In (c, z, y) l -> fst z < 0) -> dies_right (fun x => waves 0 0 l x t).
Proof.
  induction l as [|[[c z] y] l ih]; intros h; [intros eps he; exists 0; intros; cbn; rewrite Rabs_R0; exact he|]. cbn [waves]. apply dies_right_plus.
  - apply (dies_right_ext (er (c * pw z 0 * pw y 0 * cexp (y * RtoC t))%C z)); [intros x; symmetry; apply wave_space|]. apply er_right. apply (h c z y). left. reflexivity.
  - apply ih. intros c' z' y' hi. apply (h c' z' y'). right. exact hi.
Qed.
Lemma waves_past l x : (forall c z y, In (c, z, y) l -> 0 < fst y) -> dies_left (fun t => waves 0 0 l x t).
Proof.
  induction l as [|[[c z] y] l ih]; intros h; [intros eps he; exists 0; intros; cbn; rewrite Rabs_R0; exact he|]. cbn [waves]. apply dies_left_plus.
  - apply (dies_left_ext (er (c * pw z 0 * pw y 0 * cexp (z * RtoC x))%C y)); [intros t; symmetry; apply wave_time|]. apply er_left. apply (h c z y). left. reflexivity.
  - apply ih. intros c' z' y' hi. apply (h c' z' y'). right. exact hi.
Qed.

(** ** the constants *)
Section Constants.
  Variable al : R.
  Hypothesis hal : 0 < al.
  Hypothesis hcr : pow4 al < 4.
  Let sg := sqrt (4 - pow4 al).
  Let za : C := (- (al * al) / 2, sg / 2).

  Lemma sg_pos : 0 < sg.
  Proof. apply sqrt_lt_R0. lra. Qed.
  Lemma sg_sqr : sg * sg = 4 - al * al * al * al.
  Proof. unfold sg. rewrite sqrt_sqrt; [unfold pow4; rnum; ring|lra]. Qed.

  Definition root_a : C := (- rt za)%C.
  Definition root_b : C := (- rt (Cconj za))%C.
  Lemma root_conj : root_b = Cconj root_a.
  Proof. unfold root_a, root_b. rewrite csqrt_conj by (unfold za; cbn [snd]; pose proof sg_pos; lra). apply Ceq; cbn; ring. Qed.
  Lemma root_a_sqr : (root_a * root_a)%C = za.
  Proof. rewrite <- (csqrt_sqr za) at 1. unfold root_a. ring. Qed.
  Lemma root_b_sqr : (root_b * root_b)%C = Cconj za.
  Proof. rewrite <- (csqrt_sqr (Cconj za)) at 1. unfold root_b. ring. Qed.
  Lemma root_a_neg : fst root_a < 0 /\ snd root_a < 0.
  Proof.
    pose proof sg_pos as hs. unfold root_a, Copp. cbn [fst snd].
    assert (h1 : 0 < fst (rt za)) by (apply csqrt_pos; left; unfold za; cbn [snd]; lra).
    assert (h2 : 0 < snd (rt za)) by (apply csqrt_im; unfold za; cbn [snd]; lra). lra.
  Qed.
  Lemma root_b_neg : fst root_b < 0 /\ 0 < snd root_b.
  Proof. rewrite root_conj. destruct root_a_neg as [h1 h2]. unfold Cconj. cbn [fst snd]. lra. Qed.
  (** both satisfy the equation of a wave that travels with the force *)
  Lemma root_a_quartic : (pw root_a 4 + RtoC (al * al) * pw root_a 2 + 1 = 0)%C.
  Proof.
    replace (pw root_a 4) with ((root_a * root_a) * (root_a * root_a))%C by (cbn [pw]; ring). replace (pw root_a 2) with (root_a * root_a)%C by (cbn [pw]; ring).
    rewrite root_a_sqr. unfold za. pose proof sg_sqr as h. apply Ceq; cbn [fst snd RtoC Cmult Cplus]; nra.
  Qed.
  Lemma root_b_quartic : (pw root_b 4 + RtoC (al * al) * pw root_b 2 + 1 = 0)%C.
  Proof.
    replace (pw root_b 4) with ((root_b * root_b) * (root_b * root_b))%C by (cbn [pw]; ring). replace (pw root_b 2) with (root_b * root_b)%C by (cbn [pw]; ring).
    rewrite root_b_sqr. unfold za, Cconj. pose proof sg_sqr as h. apply Ceq; cbn [fst snd RtoC Cmult Cplus]; nra.
  Qed.
  Lemma root_a_nz : root_a <> 0%C.
  Proof. apply Cnz_re. destruct root_a_neg. lra. Qed.
  Lemma root_b_nz : root_b <> 0%C.
  Proof. apply Cnz_re. destruct root_b_neg. lra. Qed.
  Lemma root_diff : (root_a * root_a - root_b * root_b)%C = (Ci * RtoC sg)%C.
  Proof. rewrite root_a_sqr, root_b_sqr. unfold za, Cconj. apply Ceq; cbn [fst snd RtoC Cmult Cplus Cminus Copp Ci]; lra. Qed.
  Definition force_a (F : R) : C := (RtoC F / (2 * Ci * root_a * RtoC sg))%C.
  Definition force_b (F : R) : C := (- root_a / root_b * force_a F)%C.
  Lemma sg_nz : RtoC sg <> 0%C.
  Proof. apply Cnz_re. cbn [fst RtoC]. pose proof sg_pos. lra. Qed.
  Lemma two_nz : RtoC 2 <> 0%C.
  Proof. apply Cnz_re. cbn [fst RtoC]. lra. Qed.
  Lemma slope_zero F : (force_a F * root_a + force_b F * root_b = 0)%C.
  Proof. unfold force_b. field. apply root_b_nz. Qed.
  Lemma shear_force F : (2 * (force_a F * pw root_a 3 + force_b F * pw root_b 3) = RtoC F)%C.
  Proof.
    transitivity (2 * force_a F * root_a * (root_a * root_a - root_b * root_b))%C.
    - unfold force_b. cbn [pw]. field. apply root_b_nz.
    - rewrite root_diff. unfold force_a. field. repeat split; [apply sg_nz|apply root_a_nz|apply Ci0|apply two_nz].
  Qed.
  Lemma force_conj F : force_b F = Cconj (force_a F).
  Proof.
    unfold force_b, force_a, Cdiv. rewrite Cconj_mult, Cconj_inv, !Cconj_mult, !Cconj_real, <- root_conj.
    assert (hc : Cconj Ci = (- Ci)%C) by (apply Ceq; cbn; ring). rewrite hc. field. repeat split; try apply sg_nz; try apply root_a_nz; try apply Ci0; try apply two_nz; try apply root_b_nz.
    intros e. apply Ci0. transitivity (- - Ci)%C; [ring|]. rewrite e. ring.
  Qed.
End Constants.

(** ** exponents of the parts that do not travel with the force *)
Section Exponents.
  Variable g2 : C.                 (* what the fourth power of the exponents is the negative of *)
  Hypothesis hg : snd g2 <> 0 \/ 0 < fst g2.
  Definition ex1 : C := rt (Ci * rt g2)%C.
  Definition ex2 : C := rt (- Ci * rt g2)%C.
  Lemma ex_root_pos : 0 < fst (rt g2).
  Proof. apply csqrt_pos. exact hg. Qed.
  Lemma ex1_pos : 0 < fst ex1.
  Proof. apply csqrt_pos. left. cbn [fst snd Cmult Ci]. pose proof ex_root_pos. lra. Qed.
  Lemma ex2_pos : 0 < fst ex2.
  Proof. apply csqrt_pos. left. cbn [fst snd Cmult Ci Copp]. pose proof ex_root_pos. lra. Qed.
  Lemma ex1_quartic : (pw ex1 4 = - g2)%C.
  Proof.
    replace (pw ex1 4) with ((ex1 * ex1) * (ex1 * ex1))%C by (cbn [pw]; ring). unfold ex1. rewrite csqrt_sqr.
    transitivity ((Ci * Ci) * (rt g2 * rt g2))%C; [ring|]. rewrite Ci2, csqrt_sqr. ring.
  Qed.
  Lemma ex2_quartic : (pw ex2 4 = - g2)%C.
  Proof.
    replace (pw ex2 4) with ((ex2 * ex2) * (ex2 * ex2))%C by (cbn [pw]; ring). unfold ex2. rewrite csqrt_sqr.
    transitivity ((Ci * Ci) * (rt g2 * rt g2))%C; [ring|]. rewrite Ci2, csqrt_sqr. ring.
  Qed.
  Lemma ex_distinct : ex1 <> ex2.
  Proof.
    intros e. assert (h : (ex1 * ex1 = ex2 * ex2)%C) by (rewrite e; reflexivity). unfold ex1, ex2 in h. rewrite !csqrt_sqr in h.
    apply (f_equal snd) in h. cbn [fst snd Cmult Ci Copp] in h. pose proof ex_root_pos. lra.
  Qed.
End Exponents.
Lemma opp_quartic x : pw (- x)%C 4 = pw x 4.
Proof. cbn [pw]. ring. Qed.

(** ** the coefficients at the change of stiffness: five exponents, four conditions *)
Section Joint.
  Variables q r11 r12 r21 r22 A : C.
  Hypothesis h1 : (r11 - r12 <> 0)%C.
  Hypothesis h2 : (r21 - r22 <> 0)%C.
  Hypothesis h3 : (r21 - r11 <> 0)%C.
  Hypothesis h4 : (r22 - r11 <> 0)%C.
  Hypothesis h5 : (r21 - r12 <> 0)%C.
  Hypothesis h6 : (r22 - r12 <> 0)%C.
  Definition jC1 : C := (- ((q - r12) * (q - r22) * (q - r21)) * A / ((r11 - r12) * (r22 - r11) * (r21 - r11)))%C.
  Definition jC2 : C := ((q - r12) * (q - r11) * (q - r22) * A / ((r21 - r22) * (r21 - r12) * (r21 - r11)))%C.
  Definition jD1 : C := ((q - r11) * (q - r22) * (q - r21) * A / ((r22 - r12) * (r21 - r12) * (r11 - r12)))%C.
  Definition jD2 : C := (- ((q - r12) * (q - r11) * (q - r21)) * A / ((r22 - r12) * (r22 - r11) * (r21 - r22)))%C.
  Lemma joint n : (n < 4)%nat -> (A * pw q n + jC1 * pw r11 n + jD1 * pw r12 n = jC2 * pw r21 n + jD2 * pw r22 n)%C.
  Proof.
    intros hn. unfold jC1, jC2, jD1, jD2.
    destruct n as [|[|[|[|n]]]]; [| | | |lia]; cbn [pw]; field; repeat split; assumption.
  Qed.
End Joint.

Lemma minus_sym (x y : C) : (x - y <> 0)%C -> (y - x <> 0)%C.
Proof. intros h e. apply h. transitivity (- (y - x))%C; [ring|]. rewrite e. ring. Qed.
Lemma minus_re (x y : C) : fst x <> fst y -> (x - y <> 0)%C.
Proof. intros h. apply Cnz_re. cbn [fst Cminus Cplus Copp]. lra. Qed.
Lemma minus_ne (x y : C) : x <> y -> (x - y <> 0)%C.
Proof. intros h e. apply h. transitivity (x - y + y)%C; [ring|]. rewrite e. ring. Qed.
