(** * Proofs about the transformed solution after the force has reached the change of stiffness *)

From Coq Require Import Reals List Bool ZArith Arith Lia Lra Psatz Sorted.
From Coquelicot Require Import Coquelicot.
From Verif Require Import Num PyBase Model_Element Model_Accumulation Model_Misc Model_Analytic Spec_Analytic Model_Winkler Spec_Winkler Proofs_Winkler Proofs_Approach.
Import ListNotations.
Local Open Scope R_scope.

(** ** the terms of the second travelling wave are the conjugates of those of the first *)
Lemma Cconj_minus x y : Cconj (x - y)%C = (Cconj x - Cconj y)%C.
Proof. apply Ceq; cbn; ring. Qed.
Lemma Cconj_div x y : Cconj (x / y)%C = (Cconj x / Cconj y)%C.
Proof. unfold Cdiv. rewrite Cconj_mult, Cconj_inv. reflexivity. Qed.
Lemma Cconj_conj x : Cconj (Cconj x) = x.
Proof. apply Ceq; cbn; ring. Qed.
Lemma Cconj_i : Cconj Ci = (- Ci)%C.
Proof. apply Ceq; cbn; ring. Qed.
Lemma Cconj_pw x n : Cconj (pw x n) = pw (Cconj x) n.
Proof. induction n as [|n ih]; cbn [pw]; [apply Ceq; cbn; ring|]. rewrite Cconj_mult, ih. reflexivity. Qed.
Lemma ex_conj (g : C) : snd g <> 0 -> ex1 (Cconj g) = Cconj (ex2 g) /\ ex2 (Cconj g) = Cconj (ex1 g).
Proof.
  intros hg. pose proof (ex_root_pos g (or_introl hg)) as hp. unfold ex1, ex2. rewrite (csqrt_conj g hg).
  split.
  - rewrite <- (csqrt_conj (- Ci * rt g)%C) by (cbn [fst snd Cmult Ci Copp]; lra). apply (f_equal rt). rewrite Cconj_mult, Cconj_opp, Cconj_i. ring.
  - rewrite <- (csqrt_conj (Ci * rt g)%C) by (cbn [fst snd Cmult Ci Copp]; lra). apply (f_equal rt). rewrite Cconj_mult, Cconj_i. ring.
Qed.

Lemma j_swap (q x1 x2 y1 y2 A : C) :
  (x1 - x2 <> 0)%C -> (y1 - y2 <> 0)%C -> (y1 - x1 <> 0)%C -> (y2 - x1 <> 0)%C -> (y1 - x2 <> 0)%C -> (y2 - x2 <> 0)%C ->
  jC1 q x2 x1 y2 y1 A = jD1 q x1 x2 y1 y2 A /\ jC2 q x2 x1 y2 y1 A = jD2 q x1 x2 y1 y2 A.
Proof.
  intros d1 d2 d3 d4 d5 d6. pose proof (minus_sym _ _ d1). pose proof (minus_sym _ _ d2). unfold jC1, jC2, jD1, jD2. split; field; auto 12.
Qed.
Lemma j_conj (q x1 x2 y1 y2 A : C) :
  Cconj (jC1 q x1 x2 y1 y2 A) = jC1 (Cconj q) (Cconj x1) (Cconj x2) (Cconj y1) (Cconj y2) (Cconj A) /\
  Cconj (jC2 q x1 x2 y1 y2 A) = jC2 (Cconj q) (Cconj x1) (Cconj x2) (Cconj y1) (Cconj y2) (Cconj A) /\
  Cconj (jD1 q x1 x2 y1 y2 A) = jD1 (Cconj q) (Cconj x1) (Cconj x2) (Cconj y1) (Cconj y2) (Cconj A) /\
  Cconj (jD2 q x1 x2 y1 y2 A) = jD2 (Cconj q) (Cconj x1) (Cconj x2) (Cconj y1) (Cconj y2) (Cconj A).
Proof.
  unfold jC1, jC2, jD1, jD2. rewrite !Cconj_div, !Cconj_mult, !Cconj_opp, !Cconj_mult, !Cconj_minus.
  exact (conj eq_refl (conj eq_refl (conj eq_refl eq_refl))).
Qed.

Section Conjugates.
  Variable w : wparams R.
  Hypothesis hw : well_set w.
  Notation al := (w_alpha w).
  Notation qa := (w_qa w).
  Notation qb := (w_qb w).
  Notation c := (static_coefficients w).
  Lemma q_conj : qb = Cconj qa.
  Proof. destruct hw as [h1 [h2 [-> [-> _]]]]. apply root_conj. exact h2. Qed.
  Lemma A_conj : (w_B w : C) = Cconj (w_A w).
  Proof. destruct hw as [h1 [h2 [_ [_ [-> [-> _]]]]]]. apply force_conj. exact h2. Qed.
  Lemma grow_conj k : grow w k qb = Cconj (grow w k qa).
  Proof. unfold grow. rewrite q_conj, Cconj_plus, Cconj_mult, !Cconj_pw, !Cconj_real. reflexivity. Qed.
  Lemma grow_im k : snd (grow w k qa) <> 0.
  Proof. pose proof (grow_a w hw k). lra. Qed.
  Lemma r_conj : r1b1 c = Cconj (r1a2 c) /\ r1b2 c = Cconj (r1a1 c) /\ r2b1 c = Cconj (r2a2 c) /\ r2b2 c = Cconj (r2a1 c).
  Proof.
    destruct (exponents w) as [-> [-> [-> [-> [-> [-> [-> ->]]]]]]]. rewrite !grow_conj, !Cconj_opp.
    destruct (ex_conj _ (grow_im 1)) as [-> ->]. destruct (ex_conj _ (grow_im (w_ratio w))) as [-> ->]. 
    exact (conj eq_refl (conj eq_refl (conj eq_refl eq_refl))).
  Qed.
  Lemma coefs_a : C1a c = jC1 qa (r1a1 c) (r1a2 c) (r2a1 c) (r2a2 c) (w_A w) /\ C2a c = jC2 qa (r1a1 c) (r1a2 c) (r2a1 c) (r2a2 c) (w_A w) /\
                D1a c = jD1 qa (r1a1 c) (r1a2 c) (r2a1 c) (r2a2 c) (w_A w) /\ D2a c = jD2 qa (r1a1 c) (r1a2 c) (r2a1 c) (r2a2 c) (w_A w).
  Proof.
    unfold static_coefficients. cbn [r1a1 r1a2 r2a1 r2a2 C1a C2a D1a D2a].
    exact (conj (jC1_eq _ _ _ _ _ _) (conj (jC2_eq _ _ _ _ _ _) (conj (jD1_eq _ _ _ _ _ _) (jD2_eq _ _ _ _ _ _)))).
  Qed.
  Lemma coefs_b : C1b c = jC1 qb (r1b1 c) (r1b2 c) (r2b1 c) (r2b2 c) (w_B w) /\ C2b c = jC2 qb (r1b1 c) (r1b2 c) (r2b1 c) (r2b2 c) (w_B w) /\
                D1b c = jD1 qb (r1b1 c) (r1b2 c) (r2b1 c) (r2b2 c) (w_B w) /\ D2b c = jD2 qb (r1b1 c) (r1b2 c) (r2b1 c) (r2b2 c) (w_B w).
  Proof.
    destruct (differences_b w hw) as [d1 [d2 [d3 [d4 [d5 d6]]]]].
    pose proof (minus_sym _ _ d3) as d3'. pose proof (minus_sym _ _ d4) as d4'. pose proof (minus_sym _ _ d5) as d5'. pose proof (minus_sym _ _ d6) as d6'.
    unfold static_coefficients in *. cbn [r1b1 r1b2 r2b1 r2b2 C1b C2b D1b D2b] in *.
    exact (jb_eq _ _ _ _ _ _ d1 d2 d3 d4 d5 d6 d3' d4' d5' d6').
  Qed.
  Lemma coef_conj : C1b c = Cconj (D1a c) /\ D1b c = Cconj (C1a c) /\ C2b c = Cconj (D2a c) /\ D2b c = Cconj (C2a c).
  Proof.
    destruct coefs_a as [-> [-> [-> ->]]]. destruct coefs_b as [-> [-> [-> ->]]].
    destruct (j_conj qa (r1a1 c) (r1a2 c) (r2a1 c) (r2a2 c) (w_A w)) as [-> [-> [-> ->]]].
    destruct (differences_b w hw) as [d1 [d2 [d3 [d4 [d5 d6]]]]]. destruct r_conj as [e1 [e2 [e3 e4]]].
    rewrite <- e1, <- e2, <- e3, <- e4, <- A_conj, <- q_conj.
    destruct (j_swap qb (r1b1 c) (r1b2 c) (r2b1 c) (r2b2 c) (w_B w) d1 d2 d3 d4 d5 d6) as [s1 s2].
    destruct (j_swap qb (r1b2 c) (r1b1 c) (r2b2 c) (r2b1 c) (w_B w) (minus_sym _ _ d1) (minus_sym _ _ d2) d6 d5 d4 d3) as [s3 s4].
    exact (conj s3 (conj (eq_sym s1) (conj s4 (eq_sym s2)))).
  Qed.
End Conjugates.

(** ** sums of exponentials *)
Ltac eqC := match goal with |- @eq _ ?a ?b => change (@eq C a b) end.
Fixpoint esum (n : nat) (l : list (C * C)) (x : R) : C :=
  match l with [] => RtoC 0 | (c, r) :: l => (c * pw r n * cexp (r * RtoC x) + esum n l x)%C end.
Lemma esum_app n l1 l2 x : esum n (l1 ++ l2) x = (esum n l1 x + esum n l2 x)%C.
Proof. induction l1 as [|[c r] l ih]; cbn [app esum]; [ring|]. rewrite ih. ring. Qed.
Lemma esum_value l x : exp_sum l (creal x) = esum 0 l x.
Proof. induction l as [|[c r] l ih]; cbn [exp_sum esum]; [reflexivity|]. rewrite ih. toC. cbn [pw]. eqC. ring. Qed.
Lemma esum_zero n l : esum n l 0 = exp_moment n l.
Proof.
  induction l as [|[c r] l ih]; cbn [exp_moment esum]; [reflexivity|]. rewrite ih. toC. rewrite cexp_zero by ring. 
  generalize (exp_moment n l : C). intros m. eqC. ring.
Qed.
Lemma er_im c z x : snd (c * cexp (z * RtoC x))%C = er (- Ci * c)%C z x.
Proof. unfold er. generalize (cexp (z * RtoC x)%C : C). intros e. unfold Cmult, Copp, Ci. cbn [fst snd]. ring. Qed.
Lemma cderivative_plus f g f' g' : cderivative f f' -> cderivative g g' -> cderivative (fun x => f x + g x)%C (fun x => f' x + g' x)%C.
Proof. intros [h1 h2] [k1 k2]. split; intros x; [apply (derivable_pt_lim_plus (fun x => fst (f x)) (fun x => fst (g x)))|apply (derivable_pt_lim_plus (fun x => snd (f x)) (fun x => snd (g x)))]; auto. Qed.
Lemma cderivative_exp c z : cderivative (fun x => c * cexp (z * RtoC x))%C (fun x => c * z * cexp (z * RtoC x))%C.
Proof.
  split; [exact (er_derivative c z)|].
  refine (derivative_ext2 (er (- Ci * c)%C z) _ (er (- Ci * c * z)%C z) _ _ _ (er_derivative (- Ci * c)%C z)); intros x; rewrite er_im; [reflexivity|].
  unfold er. do 2 f_equal. ring.
Qed.
Lemma esum_derivative n l : cderivative (esum n l) (esum (S n) l).
Proof.
  induction l as [|[c r] l ih]; [split; intros x; apply derivable_pt_lim_const|]. cbn [esum].
  apply cderivative_plus; [|exact ih]. pose proof (cderivative_exp (c * pw r n)%C r) as h. 
  destruct h as [h1 h2]. split; [refine (derivative_ext2 _ _ _ _ (fun _ => eq_refl) _ h1)|refine (derivative_ext2 _ _ _ _ (fun _ => eq_refl) _ h2)]; intros x; cbn [pw]; do 2 f_equal; ring.
Qed.

(** ** the four conditions at the change of stiffness *)
Lemma vander (r11 r12 r21 r22 Z1 Z2 Z3 Z4 : C) :
  (r11 - r12 <> 0)%C -> (r21 - r22 <> 0)%C -> (r21 - r11 <> 0)%C -> (r22 - r11 <> 0)%C -> (r21 - r12 <> 0)%C -> (r22 - r12 <> 0)%C ->
  forall n, (n < 4)%nat ->
    (nth n [Z1; Z2; Z3; Z4] 0 + coef_E1 r11 r12 r21 r22 Z1 Z2 Z3 Z4 * pw r11 n + coef_G1 r11 r12 r21 r22 Z1 Z2 Z3 Z4 * pw r12 n =
     coef_E2 r11 r12 r21 r22 Z1 Z2 Z3 Z4 * pw r21 n + coef_G2 r11 r12 r21 r22 Z1 Z2 Z3 Z4 * pw r22 n)%C.
Proof.
  intros d1 d2 d3 d4 d5 d6 n hn.
  pose proof (minus_sym _ _ d1). pose proof (minus_sym _ _ d2). pose proof (minus_sym _ _ d3). pose proof (minus_sym _ _ d4). pose proof (minus_sym _ _ d5). pose proof (minus_sym _ _ d6).
  assert (e1 : coef_E1 r11 r12 r21 r22 Z1 Z2 Z3 Z4 = ((r12 * r21 * r22 * Z1 - (r12 * r21 + r12 * r22 + r21 * r22) * Z2 + (r12 + r21 + r22) * Z3 - Z4) / ((r11 - r12) * ((r11 - r21) * (r11 - r22))))%C).
  { unfold coef_E1. toC. eqC. f_equal; [ring|]. f_equal. cbn [pw]. ring. }
  assert (e2 : coef_E2 r11 r12 r21 r22 Z1 Z2 Z3 Z4 = ((r11 * r12 * r22 * Z1 - (r11 * r12 + r11 * r22 + r12 * r22) * Z2 + (r11 + r12 + r22) * Z3 - Z4) / ((r22 - r21) * ((r21 - r11) * (r21 - r12))))%C).
  { unfold coef_E2. toC. eqC. f_equal; [ring|]. f_equal. cbn [pw]. ring. }
  assert (e3 : coef_G1 r11 r12 r21 r22 Z1 Z2 Z3 Z4 = ((r11 * r21 * r22 * Z1 - (r11 * r21 + r11 * r22 + r21 * r22) * Z2 + (r11 + r21 + r22) * Z3 - Z4) / ((r12 - r11) * (r12 - r21) * (r12 - r22)))%C).
  { unfold coef_G1. toC. eqC. f_equal; ring. }
  assert (e4 : coef_G2 r11 r12 r21 r22 Z1 Z2 Z3 Z4 = ((r11 * r12 * r21 * Z1 - (r11 * r12 + r11 * r21 + r12 * r21) * Z2 + (r11 + r12 + r21) * Z3 - Z4) / ((r11 - r22) * (r12 - r22) * (r21 - r22)))%C).
  { unfold coef_G2. toC. eqC. f_equal; ring. }
  rewrite e1, e2, e3, e4. clear e1 e2 e3 e4.
  destruct n as [|[|[|[|n]]]]; [| | | |lia]; cbn [nth pw]; field; auto 20.
Qed.

(** ** the transformed equation *)
Lemma Cconj_exp (r : C) (x : R) : cexp (Cconj r * RtoC x)%C = Cconj (cexp (r * RtoC x)%C).
Proof. rewrite <- cexp_conj. f_equal. rewrite Cconj_mult, Cconj_real. reflexivity. Qed.
Lemma pair_sum (W y s : C) (al : R) : (W * (s + RtoC al * y) + Cconj W * (s + RtoC al * Cconj y) = s * RtoC (2 * fst W) + RtoC (2 * (al * fst (W * y)%C)))%C.
Proof. apply Ceq; unfold Cconj, Cmult, Cplus, RtoC; cbn [fst snd]; ring. Qed.
Lemma fst_conj (x : C) : fst (Cconj x) = fst x.
Proof. reflexivity. Qed.

Section Bar.
  Variable w : wparams R.
  Hypothesis hw : well_set w.
  Variable s : C.
  Hypothesis hs : 0 < fst s.
  Notation al := (w_alpha w).
  Notation qa := (w_qa w).
  Notation qb := (w_qb w).
  Notation c := (static_coefficients w).
  Hypothesis na : (s * s - RtoC (al * al) * pw qa 2 <> 0)%C.
  Hypothesis nb : (s * s - RtoC (al * al) * pw qb 2 <> 0)%C.
  Hypothesis nf : (RtoC (w_ratio w) + s * s + pw s 4 / pw (RtoC al) 4 <> 0)%C.
  Variables h ka : R.
  Hypothesis hh : 0 < h.
  Hypothesis hka : 0 < ka.
  Definition gs (k : R) : C := (RtoC k + s * s)%C.
  Definition p1 : C := bar_root 1 s.
  Definition p2 : C := bar_root (w_ratio w) s.
  Lemma root_sq k : (bar_root k s * bar_root k s)%C = gs k.
  Proof.
    unfold bar_root, gs. change (@csqrt R _ ?x) with (rt x). rewrite csqrt_sqr. toC. cbn [pw]. eqC. ring.
  Qed.
  Lemma gs_ok k : 0 < k -> snd (gs k) <> 0 \/ 0 < fst (gs k).
  Proof.
    intros hk. unfold gs, Cplus, Cmult, RtoC. cbn [fst snd]. destruct (Req_dec (snd s) 0) as [e|e]; [right; rewrite e; nra|left]. nra.
  Qed.
  Definition r11 : C := ex1 (gs 1).
  Definition r12 : C := ex2 (gs 1).
  Definition r21 : C := (- ex1 (gs (w_ratio w)))%C.
  Definition r22 : C := (- ex2 (gs (w_ratio w)))%C.
  Lemma bar_exponents : csqrt (cunit * p1)%cx = r11 /\ csqrt (- cunit * p1)%cx = r12 /\ copp (csqrt (cunit * p2)%cx) = r21 /\ copp (csqrt (- cunit * p2)%cx) = r22.
  Proof.
    assert (e : forall k, bar_root k s = rt (gs k)).
    { intros k. unfold bar_root, gs, rt. f_equal. toC. cbn [pw]. eqC. ring. }
    unfold p1, p2, r11, r12, r21, r22, ex1, ex2. rewrite !e. change (@csqrt R _ ?x) with (rt x). toC.
    exact (conj eq_refl (conj eq_refl (conj eq_refl eq_refl))).
  Qed.
  Lemma bar_signs : 0 < fst r11 /\ 0 < fst r12 /\ fst r21 < 0 /\ fst r22 < 0.
  Proof.
    destruct hw as [_ [_ [_ [_ [_ [_ hr]]]]]]. pose proof (gs_ok 1 Rlt_0_1) as g1. pose proof (gs_ok _ hr) as g2.
    unfold r21, r22. assert (k : forall z : C, 0 < fst z -> fst (- z)%C < 0) by (intros z hz; cbn [fst Copp]; lra).
    split; [apply ex1_pos; exact g1|]. split; [apply ex2_pos; exact g1|]. split; apply k; [apply ex1_pos|apply ex2_pos]; exact g2.
  Qed.
  Lemma bar_differences : (r11 - r12 <> 0)%C /\ (r21 - r22 <> 0)%C /\ (r21 - r11 <> 0)%C /\ (r22 - r11 <> 0)%C /\ (r21 - r12 <> 0)%C /\ (r22 - r12 <> 0)%C.
  Proof.
    destruct hw as [_ [_ [_ [_ [_ [_ hr]]]]]]. destruct bar_signs as [s1 [s2 [s3 s4]]].
    split; [apply minus_ne, ex_distinct, gs_ok, Rlt_0_1|]. split; [apply minus_ne, opp_ne, ex_distinct, gs_ok, hr|].
    split; [apply minus_re; lra|]. split; [apply minus_re; lra|]. split; apply minus_re; lra.
  Qed.
  (** the denominators *)
  Lemma den k (q r : C) : pw r 4 = (- grow w k q)%C -> (s * s - RtoC (al * al) * pw q 2 <> 0)%C -> (gs k + pw r 4 <> 0)%C.
  Proof. intros -> hn e. apply hn. rewrite <- e. unfold gs, grow. cbn [pw]. rewrite RtoC_mult. ring. Qed.
  Lemma den_q (q : C) : (pw q 4 + RtoC (al * al) * pw q 2 + RtoC 1 = 0)%C -> (s * s - RtoC (al * al) * pw q 2 <> 0)%C -> (gs 1 + pw q 4 <> 0)%C.
  Proof. intros e0 hn e. apply hn. transitivity ((gs 1 + pw q 4) - (pw q 4 + RtoC (al * al) * pw q 2 + RtoC 1))%C; [unfold gs; ring|]. rewrite e, e0. ring. Qed.
  Lemma bar_line k (p x d r z : C) (e : C) : (p * p)%C = gs k -> (gs k + pw r 4 <> 0)%C -> pw z 4 = pw r 4 ->
    (bar_term x d p r * pw z 4 * e + gs k * (bar_term x d p r * pw z 0 * e) = x * e * d)%C.
  Proof.
    intros hp hd hz. unfold bar_term. toC. rewrite hz. replace (pw p 2) with (gs k) by (cbn [pw]; rewrite <- hp; ring). change (pw z 0) with (RtoC 1). clear hz.
    set (R4 := pw r 4) in *. clearbody R4. eqC. field. exact hd.
  Qed.
  (** what the transform starts from *)
  Definition st (m : nat) (l : list wave1) (x : R) : R := waves 0 m l (x / ka) 0.
  Lemma start_wave m (a z y : C) x : wave_value 0 m (a, sx ka z, sy w h y) (x / ka) 0 = (al * h) ^ m * fst (a * cexp (z * RtoC x) * pw y m)%C.
  Proof.
    unfold wave_value. replace (sx ka z * RtoC (x / ka) + sy w h y * RtoC 0)%C with (z * RtoC x)%C.
    - rewrite <- fst_scal. f_equal. unfold sy. rewrite pw_scal. cbn [pw]. ring.
    - unfold sx. rewrite RtoC_div by lra. field. apply Cnz_re. cbn [fst RtoC]. lra.
  Qed.
  Notation hm := (home w h ka).
  Notation bh := (behind w h ka).
  Notation aw := (away w h ka).
  Lemma left_terms x :
    (esum 4 (known_left w c s p1) x + gs 1 * esum 0 (known_left w c s p1) x =
     C1a c * cexp (r1a1 c * RtoC x) * (s + RtoC al * - qa) + D1a c * cexp (r1a2 c * RtoC x) * (s + RtoC al * - qa) +
     (C1b c * cexp (r1b1 c * RtoC x) * (s + RtoC al * - qb) + D1b c * cexp (r1b2 c * RtoC x) * (s + RtoC al * - qb)) +
     (w_A w * cexp (- qa * RtoC x) * (s + RtoC al * qa) + w_B w * cexp (- qb * RtoC x) * (s + RtoC al * qb)))%C.
  Proof.
    destruct (quartics w) as [g1 [g2 [g3 [g4 _]]]]. pose proof (root_sq 1) as hp. fold p1 in hp.
    pose proof (wave_qa w hw) as ha. pose proof (wave_qb w hw) as hb.
    pose proof (fun d e => bar_line 1 p1 (C1a c) d (r1a1 c) (r1a1 c) e hp (den _ _ _ g1 na) eq_refl) as l1.
    pose proof (fun d e => bar_line 1 p1 (D1a c) d (r1a2 c) (r1a2 c) e hp (den _ _ _ g2 na) eq_refl) as l2.
    pose proof (fun d e => bar_line 1 p1 (C1b c) d (r1b1 c) (r1b1 c) e hp (den _ _ _ g3 nb) eq_refl) as l3.
    pose proof (fun d e => bar_line 1 p1 (D1b c) d (r1b2 c) (r1b2 c) e hp (den _ _ _ g4 nb) eq_refl) as l4.
    pose proof (fun d e => bar_line 1 p1 (w_A w) d qa (- qa)%C e hp (den_q _ ha na) (opp_quartic _)) as l5.
    pose proof (fun d e => bar_line 1 p1 (w_B w) d qb (- qb)%C e hp (den_q _ hb nb) (opp_quartic _)) as l6.
    unfold known_left. cbn [esum]. toC.
    replace (s + RtoC al * - qa)%C with (s - RtoC al * qa)%C by ring. replace (s + RtoC al * - qb)%C with (s - RtoC al * qb)%C by ring.
    rewrite <- l1, <- l2, <- l3, <- l4, <- l5, <- l6. ring.
  Qed.
  Lemma left_start x :
    (C1a c * cexp (r1a1 c * RtoC x) * (s + RtoC al * - qa) + D1a c * cexp (r1a2 c * RtoC x) * (s + RtoC al * - qa) +
     (C1b c * cexp (r1b1 c * RtoC x) * (s + RtoC al * - qb) + D1b c * cexp (r1b2 c * RtoC x) * (s + RtoC al * - qb)) +
     (w_A w * cexp (- qa * RtoC x) * (s + RtoC al * qa) + w_B w * cexp (- qb * RtoC x) * (s + RtoC al * qb)) =
     s * RtoC (st 0 (bh ++ hm) x) + RtoC (st 1 (bh ++ hm) x / h))%C.
  Proof.
    destruct (r_conj w hw) as [e1 [e2 _]]. destruct (coef_conj w hw) as [f1 [f2 _]]. pose proof (q_conj w hw) as eqq. pose proof (A_conj w hw) as eA.
    unfold st, behind, home. cbn [app waves]. rewrite !start_wave. rewrite e1, e2, f1, f2, eqq, eA, !Cconj_exp.
    replace (- Cconj qa)%C with (Cconj (- qa)%C) by apply Cconj_opp. rewrite !Cconj_exp.
    set (W1 := (C1a c * cexp (r1a1 c * RtoC x))%C : C). set (W2 := (D1a c * cexp (r1a2 c * RtoC x))%C : C). set (W3 := (w_A w * cexp (- qa * RtoC x))%C : C).
    replace (Cconj (C1a c) * Cconj (cexp (r1a1 c * RtoC x)))%C with (Cconj W1) by (unfold W1; apply Cconj_mult).
    replace (Cconj (D1a c) * Cconj (cexp (r1a2 c * RtoC x)))%C with (Cconj W2) by (unfold W2; apply Cconj_mult).
    replace (Cconj (w_A w) * Cconj (cexp (- qa * RtoC x)))%C with (Cconj W3) by (unfold W3; apply Cconj_mult).
    clearbody W1 W2 W3. clear - hh. generalize qa, al. intros y a. change (cplx R) with C in y.
    apply Ceq; unfold Cconj, Copp, Cmult, Cplus, RtoC; cbn [fst snd pw pow]; unfold Cconj, Copp, Cmult, Cplus, RtoC; cbn [fst snd]; field; lra.
  Qed.
  Lemma al_nz : RtoC al <> 0%C.
  Proof. apply Cnz_re. destruct hw as [h1 _]. cbn [fst RtoC]. lra. Qed.
  Lemma right_terms x :
    (esum 4 (known_right w c s p2) x + gs (w_ratio w) * esum 0 (known_right w c s p2) x =
     C2a c * cexp (r2a1 c * RtoC x) * (s + RtoC al * - qa) + D2a c * cexp (r2a2 c * RtoC x) * (s + RtoC al * - qa) +
     (C2b c * cexp (r2b1 c * RtoC x) * (s + RtoC al * - qb) + D2b c * cexp (r2b2 c * RtoC x) * (s + RtoC al * - qb)) +
     passing_force (w_F w) al s x)%C.
  Proof.
    destruct (quartics w) as [_ [_ [_ [_ [g1 [g2 [g3 g4]]]]]]]. pose proof (root_sq (w_ratio w)) as hp. fold p2 in hp.
    pose proof (fun d e => bar_line _ p2 (C2a c) d (r2a1 c) (r2a1 c) e hp (den _ _ _ g1 na) eq_refl) as l1.
    pose proof (fun d e => bar_line _ p2 (D2a c) d (r2a2 c) (r2a2 c) e hp (den _ _ _ g2 na) eq_refl) as l2.
    pose proof (fun d e => bar_line _ p2 (C2b c) d (r2b1 c) (r2b1 c) e hp (den _ _ _ g3 nb) eq_refl) as l3.
    pose proof (fun d e => bar_line _ p2 (D2b c) d (r2b2 c) (r2b2 c) e hp (den _ _ _ g4 nb) eq_refl) as l4.
    assert (l5 : forall e : C, (bar_force (creal (w_F w)) (creal al) s p2 * pw (- s / RtoC al) 4 * e + gs (w_ratio w) * (bar_force (creal (w_F w)) (creal al) s p2 * pw (- s / RtoC al) 0 * e) = RtoC (w_F w) / RtoC al * e)%C).
    { intros e. unfold bar_force. toC. replace (pw p2 2) with (gs (w_ratio w)) by (cbn [pw]; rewrite <- hp; ring).
      assert (e4 : pw (- s / RtoC al)%C 4 = (pw s 4 / pw (RtoC al) 4)%C) by (cbn [pw]; field; apply al_nz).
      rewrite e4. change (pw (- s / RtoC al)%C 0) with (RtoC 1). unfold gs in *. pose proof al_nz as hal.
      set (Q := (pw s 4 / pw (RtoC al) 4)%C) in *. clearbody Q. clear - nf hal. eqC. field. auto. }
    assert (l6 : passing_force (w_F w) al s x = (RtoC (w_F w) / RtoC al * cexp (- s / RtoC al * RtoC x))%C).
    { destruct hw as [h1 _]. unfold passing_force. rewrite RtoC_div by lra. f_equal. rewrite cexp_parts.
      replace (- s / RtoC al * RtoC x)%C with (- s * RtoC (x / al))%C; [reflexivity|]. rewrite RtoC_div by lra. field. apply al_nz. }
    unfold known_right. cbn [esum]. toC.
    replace (s + RtoC al * - qa)%C with (s - RtoC al * qa)%C by ring. replace (s + RtoC al * - qb)%C with (s - RtoC al * qb)%C by ring.
    rewrite l6, <- l1, <- l2, <- l3, <- l4, <- l5. toC. ring.
  Qed.
  Lemma right_start x :
    (C2a c * cexp (r2a1 c * RtoC x) * (s + RtoC al * - qa) + D2a c * cexp (r2a2 c * RtoC x) * (s + RtoC al * - qa) +
     (C2b c * cexp (r2b1 c * RtoC x) * (s + RtoC al * - qb) + D2b c * cexp (r2b2 c * RtoC x) * (s + RtoC al * - qb)) =
     s * RtoC (st 0 aw x) + RtoC (st 1 aw x / h))%C.
  Proof.
    destruct (r_conj w hw) as [_ [_ [e1 e2]]]. destruct (coef_conj w hw) as [_ [_ [f1 f2]]]. pose proof (q_conj w hw) as eqq.
    unfold st, away. cbn [app waves]. rewrite !start_wave. rewrite e1, e2, f1, f2, eqq, !Cconj_exp.
    set (W1 := (C2a c * cexp (r2a1 c * RtoC x))%C : C). set (W2 := (D2a c * cexp (r2a2 c * RtoC x))%C : C).
    replace (Cconj (C2a c) * Cconj (cexp (r2a1 c * RtoC x)))%C with (Cconj W1) by (unfold W1; apply Cconj_mult).
    replace (Cconj (D2a c) * Cconj (cexp (r2a2 c * RtoC x)))%C with (Cconj W2) by (unfold W2; apply Cconj_mult).
    clearbody W1 W2. clear - hh. generalize qa, al. intros y a. change (cplx R) with C in y.
    apply Ceq; unfold Cconj, Copp, Cmult, Cplus, RtoC; cbn [fst snd pw pow]; unfold Cconj, Copp, Cmult, Cplus, RtoC; cbn [fst snd]; field; lra.
  Qed.

  (** the whole *)
  Definition U1 (n : nat) : R -> C := esum n (fst (bar_sums w c s)).
  Definition U2 (n : nat) : R -> C := esum n (snd (bar_sums w c s)).
  Lemma bar_values q : coefficients_bar w c q s = (U1 0 q, U2 0 q).
  Proof. unfold coefficients_bar, U1, U2. destruct (bar_sums w c s) as [l1 l2]. cbn [fst snd]. rewrite !esum_value. reflexivity. Qed.
  Definition zz (n : nat) : C := csub (exp_moment n (match n with O => known_left_181 w c s p1 | _ => known_left w c s p1 end)) (exp_moment n (known_right w c s p2)).
  Lemma bar_lists : exists E1 G1 E2 G2 : C, bar_sums w c s = (known_left w c s p1 ++ [(E1, r11); (G1, r12)], known_right w c s p2 ++ [(E2, r21); (G2, r22)]) /\
    forall n, (n < 4)%nat -> (zz n + E1 * pw r11 n + G1 * pw r12 n = E2 * pw r21 n + G2 * pw r22 n)%C.
  Proof.
    exists (coef_E1 r11 r12 r21 r22 (zz 0) (zz 1) (zz 2) (zz 3)), (coef_G1 r11 r12 r21 r22 (zz 0) (zz 1) (zz 2) (zz 3)),
           (coef_E2 r11 r12 r21 r22 (zz 0) (zz 1) (zz 2) (zz 3)), (coef_G2 r11 r12 r21 r22 (zz 0) (zz 1) (zz 2) (zz 3)).
    split.
    - unfold bar_sums. cbv zeta. change (bar_root (lit 1) s) with p1. change (bar_root (w_ratio w) s) with p2. destruct bar_exponents as [-> [-> [-> ->]]]. reflexivity.
    - intros n hn. destruct bar_differences as [d1 [d2 [d3 [d4 [d5 d6]]]]].
      pose proof (vander r11 r12 r21 r22 (zz 0) (zz 1) (zz 2) (zz 3) d1 d2 d3 d4 d5 d6 n hn) as hv.
      destruct n as [|[|[|[|n]]]]; [exact hv|exact hv|exact hv|exact hv|lia].
  Qed.
  Lemma U1_piece : transformed_piece s 1 (st 0 (bh ++ hm)) (fun x => st 1 (bh ++ hm) x / h) (fun _ => RtoC 0) U1.
  Proof.
    split; [intros n; apply esum_derivative|]. intros x. unfold U1. destruct bar_lists as [E1 [G1 [E2 [G2 [-> _]]]]]. cbn [fst]. rewrite !esum_app.
    rewrite <- left_start, <- left_terms. fold (gs 1). cbn [esum]. unfold r11, r12. rewrite ex1_quartic, ex2_quartic.
    change (pw (ex1 (gs 1)) 0) with (RtoC 1). change (pw (ex2 (gs 1)) 0) with (RtoC 1). ring.
  Qed.
  Lemma U2_piece : transformed_piece s (w_ratio w) (st 0 aw) (fun x => st 1 aw x / h) (passing_force (w_F w) al s) U2.
  Proof.
    split; [intros n; apply esum_derivative|]. intros x. unfold U2. destruct bar_lists as [E1 [G1 [E2 [G2 [-> _]]]]]. cbn [snd]. rewrite !esum_app.
    rewrite <- right_start, <- right_terms. fold (gs (w_ratio w)). cbn [esum]. unfold r21, r22. rewrite !opp_quartic, ex1_quartic, ex2_quartic.
    cbn [pw]. ring.
  Qed.
  Lemma joint_smooth n : (0 < n < 4)%nat -> U1 n 0 = U2 n 0.
  Proof.
    intros hn. unfold U1, U2. destruct bar_lists as [E1 [G1 [E2 [G2 [-> hz]]]]]. cbn [fst snd]. rewrite !esum_app. cbn [esum].
    rewrite !(cexp_zero (_ * RtoC 0)%C) by ring. rewrite !esum_zero. specialize (hz n ltac:(lia)). unfold zz in hz.
    destruct n as [|n]; [lia|]. toC.
    revert hz. toC. generalize (exp_moment (S n) (known_left w c s p1) : C) (exp_moment (S n) (known_right w c s p2) : C). intros m1 m2 hz.
    transitivity (m2 + (m1 - m2 + E1 * pw r11 (S n) + G1 * pw r12 (S n)))%C; [ring|]. rewrite hz. ring.
  Qed.
  Lemma joint_gap : (U1 0 0 - U2 0 0)%C = (bar_term (C1b c) (s - RtoC al * qb)%C p1 (r1b1 c) - bar_term_181 (C1b c) (s - RtoC al * qb)%C p1 (r1b1 c))%C.
  Proof.
    unfold U1, U2. destruct bar_lists as [E1 [G1 [E2 [G2 [-> hz]]]]]. cbn [fst snd]. rewrite !esum_app. cbn [esum].
    rewrite !(cexp_zero (_ * RtoC 0)%C) by ring. rewrite !esum_zero. specialize (hz 0%nat ltac:(lia)). unfold zz in hz.
    assert (e : (exp_moment 0 (known_left w c s p1) - exp_moment 0 (known_left_181 w c s p1) = bar_term (C1b c) (s - RtoC al * qb)%C p1 (r1b1 c) - bar_term_181 (C1b c) (s - RtoC al * qb)%C p1 (r1b1 c))%C).
    { unfold known_left, known_left_181. cbn [exp_moment cpow]. toC. rnum. ring. }
    rewrite <- e. revert hz. toC. generalize (exp_moment 0 (known_left w c s p1) : C) (exp_moment 0 (known_left_181 w c s p1) : C) (exp_moment 0 (known_right w c s p2) : C). intros m1 m0 m2 hz.
    cbn [pw] in *. transitivity (m1 - m0 - (E2 + G2) + (m0 - m2 + E1 * 1 + G1 * 1))%C; [ring|]. rewrite hz. ring.
  Qed.
End Bar.

(** ** decay *)
Lemma esum_left n l : (forall c r, In (c, r) l -> 0 < fst r) -> cdies_left (esum n l).
Proof.
  induction l as [|[c r] l ih]; intros h.
  - split; intros eps he; exists 0; intros x _; cbn [esum fst snd RtoC]; rewrite Rabs_R0; exact he.
  - destruct (ih (fun c r hi => h c r (or_intror hi))) as [i1 i2]. pose proof (h c r (or_introl eq_refl)) as hr. split.
    + apply (dies_left_ext (fun x => er (c * pw r n)%C r x + fst (esum n l x))); [intros; reflexivity|]. apply dies_left_plus; [apply er_left; exact hr|exact i1].
    + apply (dies_left_ext (fun x => er (- Ci * (c * pw r n))%C r x + snd (esum n l x))); [intros x; cbn [esum]; rewrite <- er_im; reflexivity|].
      apply dies_left_plus; [apply er_left; exact hr|exact i2].
Qed.
Lemma esum_right n l : (forall c r, In (c, r) l -> fst r < 0) -> cdies_right (esum n l).
Proof.
  induction l as [|[c r] l ih]; intros h.
  - split; intros eps he; exists 0; intros x _; cbn [esum fst snd RtoC]; rewrite Rabs_R0; exact he.
  - destruct (ih (fun c r hi => h c r (or_intror hi))) as [i1 i2]. pose proof (h c r (or_introl eq_refl)) as hr. split.
    + apply (dies_right_ext (fun x => er (c * pw r n)%C r x + fst (esum n l x))); [intros; reflexivity|]. apply dies_right_plus; [apply er_right; exact hr|exact i1].
    + apply (dies_right_ext (fun x => er (- Ci * (c * pw r n))%C r x + snd (esum n l x))); [intros x; cbn [esum]; rewrite <- er_im; reflexivity|].
      apply dies_right_plus; [apply er_right; exact hr|exact i2].
Qed.
Lemma pair_in (a b x y : C) : (a, b) = (x, y) -> b = y.
Proof. intros e. inversion e. reflexivity. Qed.

(** ** the roots of a quartic with negative real part *)
Lemma Cmult_zero (x y : C) : (x * y = 0)%C -> x = 0%C \/ y = 0%C.
Proof.
  intros e. destruct (Req_dec (fst x) 0) as [a|a]; [destruct (Req_dec (snd x) 0) as [b|b]|].
  - left. apply Ceq; assumption.
  - right. transitivity (/ x * (x * y))%C; [field; apply Cnz_im; exact b|rewrite e; ring].
  - right. transitivity (/ x * (x * y))%C; [field; apply Cnz_re; exact a|rewrite e; ring].
Qed.
Lemma quartic_root (q g : C) : fst q < 0 -> snd g <> 0 \/ 0 < fst g -> (((q - - ex1 g) * (q - - ex2 g) = 0)%C <-> pw q 4 = (- g)%C).
Proof.
  intros hq hg. pose proof (ex1_pos g hg) as h1. pose proof (ex2_pos g hg) as h2.
  assert (e : ((q - - ex1 g) * (q - - ex2 g) * ((q - ex1 g) * (q - ex2 g)) = pw q 4 + g)%C).
  { transitivity (pw q 4 - (ex1 g * ex1 g + ex2 g * ex2 g) * (q * q) + (ex1 g * ex1 g) * (ex2 g * ex2 g))%C; [cbn [pw]; ring|].
    unfold ex1, ex2. rewrite !csqrt_sqr. transitivity (pw q 4 - (Ci * Ci) * (rt g * rt g))%C; [ring|]. rewrite Ci2, csqrt_sqr. ring. }
  assert (n1 : (q - ex1 g <> 0)%C) by (apply minus_re; lra). assert (n2 : (q - ex2 g <> 0)%C) by (apply minus_re; lra).
  split; intros h.
  - rewrite h in e. transitivity ((pw q 4 + g) - g)%C; [ring|]. rewrite <- e. ring.
  - rewrite h in e. assert (e0 : ((q - - ex1 g) * (q - - ex2 g) * ((q - ex1 g) * (q - ex2 g)) = 0)%C) by (rewrite e; ring).
    apply Cmult_zero in e0. destruct e0 as [e0|e0]; [exact e0|]. apply Cmult_zero in e0. destruct e0; contradiction.
Qed.

Section Gap.
  Variable w : wparams R.
  Hypothesis hw : well_set w.
  Notation al := (w_alpha w).
  Notation qa := (w_qa w).
  Notation qb := (w_qb w).
  Notation c := (static_coefficients w).
  Lemma B_nz : w_F w <> 0 -> (w_B w : C) <> RtoC 0.
  Proof.
    intros hF. destruct hw as [h1 [h2 [_ [_ [_ [-> _]]]]]]. pose proof (root_a_nz al h2) as na. pose proof (root_b_nz al h2) as nb. pose proof (sg_nz al h2) as ns.
    assert (hf : RtoC (w_F w) <> 0%C) by (apply Cnz_re; exact hF).
    unfold force_b, force_a. intros e. apply hf.
    transitivity (- (- root_a al / root_b al * (RtoC (w_F w) / (2 * Ci * root_a al * RtoC (sqrt (4 - pow4 al))))) * (2 * Ci * root_b al * RtoC (sqrt (4 - pow4 al))))%C.
    - field. repeat split; try assumption; [exact Ci0|exact two_nz].
    - rewrite e. ring.
  Qed.
  Lemma C1b_zero : w_F w <> 0 -> ((C1b c : C) = RtoC 0 <-> w_ratio w = 1).
  Proof.
    intros hF. destruct (coefs_b w hw) as [-> _]. destruct (differences_b w hw) as [d1 [d2 [d3 [d4 [d5 d6]]]]].
    destruct (neg_signs w hw) as [_ nq]. destruct (left_signs w hw) as [_ [_ [_ l4]]]. pose proof (B_nz hF) as nB.
    assert (n1 : (qb - r1b2 c <> 0)%C) by (apply minus_re; lra).
    pose proof (grow_b w hw (w_ratio w)) as gb. pose proof (quartic_root qb (grow w (w_ratio w) qb) nq (or_introl (Rlt_not_eq _ _ gb))) as hr.
    destruct (exponents w) as [_ [_ [_ [_ [_ [_ [er1 er2]]]]]]]. rewrite <- er1, <- er2 in hr.
    assert (hk : pw qb 4 = (- grow w (w_ratio w) qb)%C <-> w_ratio w = 1).
    { pose proof (wave_qb w hw) as hq. unfold grow. split; intros e.
      - assert (e0 : RtoC (w_ratio w) = RtoC 1).
        { transitivity ((- (- (RtoC (w_ratio w) + pw qb 2 * pw (RtoC al) 2))) - RtoC (al * al) * pw qb 2)%C; [cbn [pw]; rewrite RtoC_mult; ring|]. rewrite <- e.
          transitivity (RtoC 1 - (pw qb 4 + RtoC (al * al) * pw qb 2 + RtoC 1))%C; [ring|rewrite hq; ring]. }
        apply (f_equal fst) in e0. exact e0.
      - rewrite e. transitivity ((pw qb 4 + RtoC (al * al) * pw qb 2 + RtoC 1) - RtoC (al * al) * pw qb 2 - RtoC 1)%C; [ring|]. rewrite hq. cbn [pw]. rewrite RtoC_mult. ring. }
    rewrite <- hk, <- hr. unfold jC1. set (D := ((r1b1 c - r1b2 c) * (r2b2 c - r1b1 c) * (r2b1 c - r1b1 c))%C).
    assert (hD : D <> 0%C) by (unfold D; intros e; apply Cmult_zero in e; destruct e as [e|e]; [apply Cmult_zero in e; destruct e; contradiction|contradiction]).
    split; intros e.
    - assert (e0 : ((qb - r1b2 c) * (w_B w * ((qb - r2b1 c) * (qb - r2b2 c))) = 0)%C).
      { transitivity (- (- ((qb - r1b2 c) * (qb - r2b2 c) * (qb - r2b1 c)) * w_B w / D * D))%C; [field; exact hD|]. rewrite e. ring. }
      apply Cmult_zero in e0. destruct e0 as [e0|e0]; [contradiction|]. apply Cmult_zero in e0. destruct e0 as [e0|e0]; [contradiction|exact e0].
    - transitivity (- (((qb - r2b1 c) * (qb - r2b2 c)) * (qb - r1b2 c) * w_B w) / D)%C; [field; exact hD|]. rewrite e. field. exact hD.
  Qed.
End Gap.

Section Poles.
  Variable w : wparams R.
  Hypothesis hw : well_set w.
  Notation al := (w_alpha w).
  Notation qa := (w_qa w).
  Notation qb := (w_qb w).
  Notation c := (static_coefficients w).
  Lemma q_squares : (pw qa 2 + pw qb 2 = - RtoC (al * al))%C /\ (pw qa 2 * pw qb 2 = 1)%C.
  Proof.
    destruct hw as [h1 [h2 [-> [-> _]]]]. pose proof (sg_sqr al h2) as hsg.
    replace (pw (root_a al) 2) with (root_a al * root_a al)%C by (cbn [pw]; ring). replace (pw (root_b al) 2) with (root_b al * root_b al)%C by (cbn [pw]; ring).
    rewrite root_a_sqr, root_b_sqr. set (g := sqrt (4 - pow4 al)) in *. clearbody g.
    split; apply Ceq; unfold Cconj, Cplus, Cmult, Copp, RtoC; cbn [fst snd]; nra.
  Qed.
  Variable s : C.
  Lemma pole_a : (s * s * (s * s) + RtoC (pow4 al) * (s * s) + RtoC (pow4 al) <> 0)%C ->
    (s * s - RtoC (al * al) * pw qa 2 <> 0)%C /\ (s * s - RtoC (al * al) * pw qb 2 <> 0)%C.
  Proof.
    intros h. destruct q_squares as [e1 e2].
    assert (e : (s * s * (s * s) + RtoC (pow4 al) * (s * s) + RtoC (pow4 al) = (s * s - RtoC (al * al) * pw qa 2) * (s * s - RtoC (al * al) * pw qb 2))%C).
    { transitivity (s * s * (s * s) - RtoC (al * al) * (pw qa 2 + pw qb 2) * (s * s) + RtoC (al * al) * RtoC (al * al) * (pw qa 2 * pw qb 2))%C; [|ring].
      rewrite e1, e2. unfold pow4. rnum. rewrite !RtoC_mult. ring. }
    rewrite e in h. split; intros z; apply h; rewrite z; ring.
  Qed.
  Lemma pole_f : (s * s * (s * s) + RtoC (pow4 al) * (s * s) + RtoC (pow4 al * w_ratio w) <> 0)%C -> (RtoC (w_ratio w) + s * s + pw s 4 / pw (RtoC al) 4 <> 0)%C.
  Proof.
    intros h e. apply h. transitivity (pw (RtoC al) 4 * (RtoC (w_ratio w) + s * s + pw s 4 / pw (RtoC al) 4))%C; [|rewrite e; ring].
    unfold pow4. rnum. rewrite !RtoC_mult. cbn [pw]. field. apply al_nz. exact hw.
  Qed.
  Lemma pole_c : ((2 + s * s) * (2 + s * s) - RtoC (pow4 al) * (2 + s * s) + RtoC (pow4 al) <> 0)%C -> (gs s 1 - pw (r1b1 c) 4 <> 0)%C.
  Proof.
    intros h e. apply h. destruct q_squares as [e1 e2]. destruct (quartics w) as [_ [_ [g3 _]]].
    assert (e0 : (2 + s * s + RtoC (al * al) * pw qb 2 = 0)%C).
    { rewrite <- e, g3. unfold gs, grow. cbn [pw]. rewrite RtoC_mult. replace (RtoC 2) with (1 + 1)%C by (apply Ceq; cbn; ring). ring. }
    transitivity ((2 + s * s + RtoC (al * al) * pw qb 2) * (2 + s * s + RtoC (al * al) * pw qa 2))%C; [|rewrite e0; ring].
    transitivity ((2 + s * s) * (2 + s * s) + RtoC (al * al) * (pw qa 2 + pw qb 2) * (2 + s * s) + RtoC (al * al) * RtoC (al * al) * (pw qa 2 * pw qb 2))%C; [|ring].
    rewrite e1, e2. unfold pow4. rnum. rewrite !RtoC_mult. ring.
  Qed.
  Hypothesis hs : 0 < fst s.
  Hypothesis hp : no_pole (pow4 al) (w_ratio w) s.
  (** the gap in the displacement *)
  Definition gap : C := (- (1 + 1) * C1b c * pw (r1b1 c) 4 * (s - RtoC al * qb) / (gs s 1 * gs s 1 - pw (r1b1 c) 4 * pw (r1b1 c) 4))%C.
  Lemma gap_dens : (gs s 1 + pw (r1b1 c) 4 <> 0)%C /\ (gs s 1 - pw (r1b1 c) 4 <> 0)%C.
  Proof.
    destruct hp as [h1 [h2 h3]]. destruct (pole_a h1) as [na nb]. destruct (quartics w) as [_ [_ [g3 _]]].
    split; [|apply pole_c; exact h3]. apply (den w s 1 qb); assumption.
  Qed.
  Lemma gap_eq : (U1 w s 0 0 - U2 w s 0 0)%C = gap.
  Proof.
    destruct gap_dens as [d1 d2]. destruct hp as [h1 [h2 h3]].
    rewrite (joint_gap w hw s hs). unfold gap, bar_term, bar_term_181. toC.
    replace (pw (p1 s) 2) with (gs s 1) by (cbn [pw]; rewrite <- (root_sq s 1); unfold p1; ring).
    set (Q := pw (r1b1 c) 4) in *. set (g := gs s 1) in *. clearbody Q g.
    replace (g * g - Q * Q)%C with ((g + Q) * (g - Q))%C by ring. eqC. field. split; assumption.
  Qed.
  Lemma gap_zero : w_F w <> 0 -> (gap = 0%C <-> w_ratio w = 1).
  Proof.
    intros hF. rewrite <- (C1b_zero w hw hF). destruct gap_dens as [d1 d2]. destruct (neg_signs w hw) as [_ nq]. destruct (left_signs w hw) as [_ [_ [l3 _]]].
    assert (nr : r1b1 c <> RtoC 0) by (apply Cnz_re; lra).
    assert (n4 : pw (r1b1 c) 4 <> 0%C).
    { cbn [pw]. intros e. do 4 (apply Cmult_zero in e; destruct e as [e|e]; [contradiction|]). apply (f_equal fst) in e. cbn in e. lra. }
    assert (nd : (s - RtoC al * qb <> 0)%C).
    { apply minus_re. rewrite fst_scal. destruct hw as [h1 _]. nra. }
    unfold gap. set (Q := pw (r1b1 c) 4) in *. set (g := gs s 1) in *. clearbody Q g.
    replace (g * g - Q * Q)%C with ((g + Q) * (g - Q))%C by ring.
    assert (nD : ((g + Q) * (g - Q) <> 0)%C) by (intros e; apply Cmult_zero in e; destruct e; contradiction).
    set (D := ((g + Q) * (g - Q))%C) in *. clearbody D.
    assert (n2 : (1 + 1 <> 0)%C) by (apply Cnz_re; cbn; lra).
    split; intros e.
    - assert (e0 : (C1b c * (Q * (s - RtoC al * qb)) = 0)%C).
      { transitivity (- (- (1 + 1) * C1b c * Q * (s - RtoC al * qb) / D) * D / (1 + 1))%C; [field; split; assumption|]. rewrite e. field. exact n2. }
      apply Cmult_zero in e0. destruct e0 as [e0|e0]; [exact e0|]. apply Cmult_zero in e0. destruct e0; contradiction.
    - rewrite e. field. exact nD.
  Qed.
End Poles.

Section Decay.
  Variable w : wparams R.
  Hypothesis hw : well_set w.
  Variable s : C.
  Hypothesis hs : 0 < fst s.
  Lemma U1_left : cdies_left (U1 w s 0).
  Proof.
    unfold U1. destruct (bar_lists w hw s hs) as [E1 [G1 [E2 [G2 [-> _]]]]]. cbn [fst]. apply esum_left. intros x r hi.
    destruct (left_signs w hw) as [l1 [l2 [l3 l4]]]. destruct (bar_signs w hw s hs) as [b1 [b2 _]]. destruct (qa_pos w hw) as [q1 q2].
    unfold known_left in hi. cbn [app In] in hi.
    destruct hi as [e|[e|[e|[e|[e|[e|[e|[e|[]]]]]]]]]; rewrite <- (pair_in _ _ _ _ e); assumption.
  Qed.
  Lemma U2_right : cdies_right (U2 w s 0).
  Proof.
    unfold U2. destruct (bar_lists w hw s hs) as [E1 [G1 [E2 [G2 [-> _]]]]]. cbn [snd]. apply esum_right. intros x r hi.
    destruct (right_signs w hw) as [l1 [l2 [l3 l4]]]. destruct (bar_signs w hw s hs) as [_ [_ [b1 b2]]].
    assert (hf : fst (- s / RtoC (w_alpha w))%C < 0).
    { destruct hw as [h1 _]. replace (- s / RtoC (w_alpha w))%C with (RtoC (- / w_alpha w) * s)%C.
      - rewrite fst_scal. pose proof (Rinv_0_lt_compat _ h1). nra.
      - rewrite RtoC_opp, RtoC_inv by lra. field. apply al_nz. exact hw. }
    unfold known_right in hi. cbn [app In] in hi.
    destruct hi as [e|[e|[e|[e|[e|[e|[e|[]]]]]]]]; rewrite <- (pair_in _ _ _ _ e); try assumption.
    rewrite cdiv_C. exact hf.
  Qed.
End Decay.

(** ** positive numbers are no poles, and the gap is seen for one of four of them *)
Lemma no_pole_real a4 ratio a : 0 < a4 < 4 -> 0 < ratio -> 0 < a -> no_pole a4 ratio (RtoC a).
Proof.
  intros h4 hr ha. assert (0 < a * a) by nra. assert (0 < a4 * ratio) by nra. split; [|split]; apply Cnz_re; unfold Cminus, Copp, Cplus, Cmult, RtoC; cbn [fst snd].
  - assert (0 < a4 * (a * a)) by nra. assert (0 < a * a * (a * a)) by nra. nra.
  - assert (0 < a4 * (a * a)) by nra. assert (0 < a * a * (a * a)) by nra. nra.
  - set (y := a * a) in *. clearbody y. assert (0 < (y + 2 - a4 / 2) * (y + 2 - a4 / 2) + a4 * (4 - a4) / 4); [|nra]. assert (0 < a4 * (4 - a4)) by nra. nra.
Qed.
Lemma re_div (N D : C) : D <> 0%C -> fst (N / D)%C = 0 -> fst (N * Cconj D)%C = 0.
Proof.
  intros hD e. assert (hm : 0 < fst D * fst D + snd D * snd D).
  { destruct (Req_dec (fst D) 0) as [h1|h1]; destruct (Req_dec (snd D) 0) as [h2|h2]; [exfalso; apply hD; apply Ceq; assumption| | |]; nra. }
  assert (e2 : (N * Cconj D = N / D * RtoC (fst D * fst D + snd D * snd D))%C).
  { transitivity (N / D * (D * Cconj D))%C; [field; exact hD|]. f_equal. apply Ceq; unfold Cconj, Cmult, RtoC; cbn [fst snd]; ring. }
  rewrite e2, Cmult_comm, fst_scal, e. ring.
Qed.
Section Seen.
  Variable w : wparams R.
  Hypothesis hw : well_set w.
  Hypothesis hF : w_F w <> 0.
  Hypothesis hk : w_ratio w <> 1.
  Notation al := (w_alpha w).
  Notation qb := (w_qb w).
  Notation c := (static_coefficients w).
  Lemma al4 : 0 < pow4 al < 4.
  Proof. destruct hw as [h1 [h2 _]]. split; [|exact h2]. unfold pow4. rnum. assert (0 < al * al) by nra. nra. Qed.
  Let Wc : C := (- (1 + 1) * C1b c * pw (r1b1 c) 4)%C.
  Let R2 : C := (pw (r1b1 c) 4 * pw (r1b1 c) 4)%C.
  Lemma seen_poly a : 0 < a -> fst (gap w (RtoC a)) = 0 ->
    a * ((1 + a * a) * (1 + a * a)) * fst Wc - (1 + a * a) * (1 + a * a) * fst (RtoC al * Wc * qb)%C - a * fst (Wc * Cconj R2)%C + fst (RtoC al * Wc * qb * Cconj R2)%C = 0.
  Proof.
    intros ha e. assert (hp : no_pole (pow4 al) (w_ratio w) (RtoC a)) by (apply no_pole_real; [apply al4|destruct hw as [_ [_ [_ [_ [_ [_ hr]]]]]]; exact hr|exact ha]).
    destruct (gap_dens w hw (RtoC a) hp) as [d1 d2]. unfold gap in e. apply re_div in e.
    - rewrite <- e. fold Wc. fold R2. unfold gs. generalize Wc R2. intros W Q. generalize qb. intros q. change (cplx R) with C in q.
      unfold Cconj, Cminus, Copp, Cplus, Cmult, RtoC. cbn [fst snd]. ring.
    - replace (gs (RtoC a) 1 * gs (RtoC a) 1 - pw (r1b1 c) 4 * pw (r1b1 c) 4)%C with ((gs (RtoC a) 1 + pw (r1b1 c) 4) * (gs (RtoC a) 1 - pw (r1b1 c) 4))%C by ring.
      intros z. apply Cmult_zero in z. destruct z; contradiction.
  Qed.
  Lemma seen : exists a, (a = 1 \/ a = 2 \/ a = 3 \/ a = 4) /\ fst (gap w (RtoC a)) <> 0.
  Proof.
    destruct (Req_dec (fst (gap w (RtoC 1))) 0) as [e1|n]; [|exists 1; auto]. destruct (Req_dec (fst (gap w (RtoC 2))) 0) as [e2|n]; [|exists 2; auto].
    destruct (Req_dec (fst (gap w (RtoC 3))) 0) as [e3|n]; [|exists 3; auto]. destruct (Req_dec (fst (gap w (RtoC 4))) 0) as [e4|n]; [|exists 4; auto 6].
    exfalso. apply seen_poly in e1; [|lra]. apply seen_poly in e2; [|lra]. apply seen_poly in e3; [|lra]. apply seen_poly in e4; [|lra].
    set (X := fst Wc) in *. set (Y := fst (RtoC al * Wc * qb)%C) in *. set (Z := fst (Wc * Cconj R2)%C) in *. set (V := fst (RtoC al * Wc * qb * Cconj R2)%C) in *.
    assert (hX : X = 0) by (clearbody X Y Z V; lra). assert (hY : Y = 0) by (clearbody X Y Z V; lra). unfold X in hX. unfold Y in hY.
    assert (hq : 0 < snd qb) by (destruct hw as [_ [h2 [_ [-> _]]]]; apply root_b_neg; exact h2). destruct hw as [h1 _].
    assert (hy : al * (snd Wc * snd qb) = 0).
    { transitivity (- fst (RtoC al * Wc * qb)%C + al * (fst Wc * fst qb)); [|rewrite hX, hY; ring]. generalize Wc. intros W. unfold Cmult, RtoC. cbn [fst snd]. ring. }
    assert (hi : snd Wc = 0) by (apply Rmult_integral in hy; destruct hy as [hy|hy]; [lra|]; apply Rmult_integral in hy; destruct hy; [assumption|lra]).
    assert (hW : Wc = 0%C) by (apply Ceq; assumption). unfold Wc in hW.
    destruct (left_signs w hw) as [_ [_ [l3 _]]]. assert (nr : r1b1 c <> RtoC 0) by (apply Cnz_re; lra).
    apply Cmult_zero in hW. destruct hW as [hW|hW].
    - apply Cmult_zero in hW. destruct hW as [hW|hW].
      + apply (f_equal fst) in hW. cbn in hW. lra.
      + apply hk. apply (C1b_zero w hw hF). exact hW.
    - cbn [pw] in hW. do 4 (apply Cmult_zero in hW; destruct hW as [hW|hW]; [contradiction|]). apply (f_equal fst) in hW. cbn in hW. lra.
  Qed.
End Seen.

Lemma high_value nb a w q t : time_high_at nb a w q t =
  inverse_series nb a (w_period w) (fun s => fst (if Rle_dec q 0 then U1 w s 0 q else U2 w s 0 q)) t.
Proof.
  assert (k : forall s : C, bar_at w q s = fst (if Rle_dec q 0 then U1 w s 0 q else U2 w s 0 q)).
  { intros s. unfold bar_at. rewrite bar_values. destruct (nlebP q (lit 0)) as [l|l]; rnum; destruct (Rle_dec q 0) as [l'|l']; try reflexivity; exfalso; lra. }
  unfold time_high_at, inverse_series. rewrite k. cbn [nmul nadd ndiv lit RNum nexp RExpLog]. f_equal. f_equal. apply sumn_ext. intros i hi.
  rewrite k, nofnat_R. cbn [nmul ndiv RNum ncos npi RTrig]. f_equal. f_equal.
  assert (e : (creal a + creal (INR (S i)) * creal PI * cunit / creal (w_period w))%cx = (a, INR (S i) * PI / w_period w)).
  { unfold cdiv, cadd, cmul, cinv, creal, cunit. cbn [fst snd]. rnum. destruct (Req_dec (w_period w) 0) as [z|z].
    - rewrite z. unfold Rdiv. replace (0 * 0 + 0 * 0) with 0 by ring. rewrite Rinv_0. apply Ceq; cbn [fst snd]; ring.
    - apply Ceq; cbn [fst snd]; field; lra. }
  rewrite e. reflexivity.
Qed.

(** the transformed solution does not depend on the positions *)
Lemma same_U EI rho k1 k2 v P x x' last : U1 (the_w EI rho k1 k2 v P x last) = U1 (the_w EI rho k1 k2 v P x' last) /\
  U2 (the_w EI rho k1 k2 v P x last) = U2 (the_w EI rho k1 k2 v P x' last).
Proof. split; reflexivity. Qed.

(** ** one foundation *)
Lemma j_uniform (q x1 x2 y1 y2 A : C) (x : R) :
  (x1 - x2 <> 0)%C -> (y1 - y2 <> 0)%C -> (y1 - x1 <> 0)%C -> (y2 - x1 <> 0)%C -> (y1 - x2 <> 0)%C -> (y2 - x2 <> 0)%C ->
  ((q - y1) * (q - y2) = 0)%C -> jC1 q x1 x2 y1 y2 A = RtoC 0 /\ jD1 q x1 x2 y1 y2 A = RtoC 0 /\
  (jC2 q x1 x2 y1 y2 A * cexp (y1 * RtoC x) + jD2 q x1 x2 y1 y2 A * cexp (y2 * RtoC x) = A * cexp (q * RtoC x))%C.
Proof.
  intros d1 d2 d3 d4 d5 d6 e. pose proof (minus_sym _ _ d1). pose proof (minus_sym _ _ d2). unfold jC1, jC2, jD1, jD2.
  apply Cmult_zero in e.
  assert (e' : q = y1 \/ q = y2).
  { destruct e as [e|e]; [left|right]; [transitivity (q - y1 + y1)%C|transitivity (q - y2 + y2)%C]; try ring; rewrite e; ring. }
  destruct e' as [-> | ->]; (split; [field; auto 12|]); (split; [field; auto 12|]); toC; field; auto 12.
Qed.
Section Uniform.
  Variable w : wparams R.
  Hypothesis hw : well_set w.
  Hypothesis hr : w_ratio w = 1.
  Notation al := (w_alpha w).
  Notation qa := (w_qa w).
  Notation qb := (w_qb w).
  Notation c := (static_coefficients w).
  Definition profile (y : R) : R := fst (w_A w * cexp (qa * RtoC y) + w_B w * cexp (qb * RtoC y))%C.
  Lemma same_quartic (q : C) : (pw q 4 + RtoC (al * al) * pw q 2 + RtoC 1 = 0)%C -> pw q 4 = (- grow w (w_ratio w) q)%C.
  Proof.
    intros hq. unfold grow. rewrite hr. transitivity ((pw q 4 + RtoC (al * al) * pw q 2 + RtoC 1) - RtoC (al * al) * pw q 2 - RtoC 1)%C; [ring|]. rewrite hq. cbn [pw]. rewrite RtoC_mult. ring.
  Qed.
  Lemma uniform_a x : C1a c = RtoC 0 /\ D1a c = RtoC 0 /\ (C2a c * cexp (r2a1 c * RtoC x) + D2a c * cexp (r2a2 c * RtoC x) = w_A w * cexp (qa * RtoC x))%C.
  Proof.
    destruct (coefs_a w) as [-> [-> [-> ->]]]. destruct (differences_a w hw) as [d1 [d2 [d3 [d4 [d5 d6]]]]]. apply j_uniform; try assumption.
    destruct (exponents w) as [_ [_ [_ [_ [-> [-> _]]]]]]. apply quartic_root; [apply (neg_signs w hw)|left; pose proof (grow_a w hw (w_ratio w)); lra|].
    apply same_quartic, wave_qa. exact hw.
  Qed.
  Lemma uniform_b x : C1b c = RtoC 0 /\ D1b c = RtoC 0 /\ (C2b c * cexp (r2b1 c * RtoC x) + D2b c * cexp (r2b2 c * RtoC x) = w_B w * cexp (qb * RtoC x))%C.
  Proof.
    destruct (coefs_b w hw) as [-> [-> [-> ->]]]. destruct (differences_b w hw) as [d1 [d2 [d3 [d4 [d5 d6]]]]]. apply j_uniform; try assumption.
    destruct (exponents w) as [_ [_ [_ [_ [_ [_ [-> ->]]]]]]]. apply quartic_root; [apply (neg_signs w hw)|left; pose proof (grow_b w hw (w_ratio w)); lra|].
    apply same_quartic, wave_qb. exact hw.
  Qed.
  Lemma low_uniform q t : t < 0 -> time_low_at w q t = profile (Rabs (q - al * t)).
  Proof.
    intros ht. unfold time_low_at, coefficients_low. destruct hw as [hal _].
    destruct (uniform_a q) as [z1 [z2 ea]]. destruct (uniform_b q) as [z3 [z4 eb]]. rewrite z1, z2, z3, z4. cbv zeta. toC.
    destruct (nlebP q (lit 0)) as [l|l]; rnum; rewrite ?nabs_R.
    - rewrite <- fst_plus. unfold profile. f_equal. ring.
    - assert (0 < q - al * t) by nra. rewrite Rabs_pos_eq by lra. rewrite ea, eb. unfold profile. f_equal.
      rewrite <- !Cmult_assoc, <- !cexp_plus.
      assert (k : forall z : C, (z * RtoC q + - z * (RtoC al * RtoC t) = z * RtoC (q - al * t))%C) by (intros z; apply Ceq; unfold Cplus, Cmult, Copp, RtoC; cbn [fst snd]; ring).
      rewrite !k. reflexivity.
  Qed.
  Lemma profile_zero : w_F w <> 0 -> profile 0 <> 0.
  Proof.
    intros hF e. unfold profile in e. rewrite !(cexp_zero (_ * RtoC 0)%C) in e by ring. rewrite (A_conj w hw) in e.
    assert (hx : fst (w_A w) = 0).
    { revert e. generalize (w_A w). intros A. change (cplx R) with C in A. unfold Cplus, Cmult, Cconj, RtoC. cbn [fst snd]. lra. }
    pose proof (A_conj w hw) as hc. pose proof (B_nz w hw hF) as nB. destruct hw as [_ [h2 [eqa [_ [eA _]]]]].
    destruct (root_a_neg al h2) as [n1 n2]. pose proof (root_a_nz al h2) as na. pose proof (sg_nz al h2) as ns.
    assert (e2 : (w_A w * root_a al = - Ci * RtoC (w_F w / (2 * sqrt (4 - pow4 al))))%C).
    { rewrite eA. unfold force_a. assert (sqrt (4 - pow4 al) <> 0) by (intros z; apply ns; rewrite z; reflexivity).
      rewrite RtoC_div, RtoC_mult by (apply Rmult_integral_contrapositive; split; lra).
      transitivity (RtoC (w_F w) * (Ci * Ci) * - (1) / (Ci * RtoC 2 * RtoC (sqrt (4 - pow4 al))))%C; [|field; repeat split; try assumption; first [exact Ci0|exact two_nz]].
      replace (Ci * Ci)%C with (- RtoC 1)%C by (apply Ceq; cbn; ring). field. repeat split; try assumption; first [exact Ci0|exact two_nz]. }
    apply (f_equal fst) in e2. revert e2. cbn [fst snd Cmult Copp Ci RtoC]. rewrite hx. intros e2.
    assert (hy : snd (w_A w) = 0) by nra. apply nB. rewrite hc. apply Ceq; cbn [fst snd Cconj RtoC]; [exact hx|rewrite hy; ring].
  Qed.
End Uniform.
Lemma same_low EI rho k1 k2 v P x x' last last' : time_low_at (the_w EI rho k1 k2 v P x last) = time_low_at (the_w EI rho k1 k2 v P x' last').
Proof. reflexivity. Qed.
