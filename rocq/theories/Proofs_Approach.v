(** * Proofs about the solution before and after the force has reached the change of stiffness *)

From Coq Require Import Reals List Bool ZArith Arith Lia Lra Psatz Sorted.
From Coquelicot Require Import Coquelicot.
From Verif Require Import Num PyBase Model_Element Model_Accumulation Model_Misc Model_Analytic Spec_Analytic Model_Winkler Spec_Winkler Proofs_Winkler.
Import ListNotations.
Local Open Scope R_scope.

(** ** the solution before the force reaches the change of stiffness *)
Definition well_set (w : wparams R) : Prop :=
  0 < w_alpha w /\ pow4 (w_alpha w) < 4 /\ w_qa w = root_a (w_alpha w) /\ w_qb w = root_b (w_alpha w) /\
  w_A w = force_a (w_alpha w) (w_F w) /\ w_B w = force_b (w_alpha w) (w_F w) /\ 0 < w_ratio w.

Lemma jC1_eq (q x1 x2 x3 x4 A : C) : coef_C1a q x1 x2 x3 x4 A = jC1 q x1 x2 x3 x4 A.
Proof. unfold coef_C1a, jC1. toC. reflexivity. Qed.
Lemma jC2_eq (q x1 x2 x3 x4 A : C) : coef_C2a q x1 x2 x3 x4 A = jC2 q x1 x2 x3 x4 A.
Proof. unfold coef_C2a, jC2. toC. reflexivity. Qed.
Lemma jD1_eq (q x1 x2 x3 x4 A : C) : coef_D1a q x1 x2 x3 x4 A = jD1 q x1 x2 x3 x4 A.
Proof. unfold coef_D1a, jD1. toC. reflexivity. Qed.
Lemma jD2_eq (q x1 x2 x3 x4 A : C) : coef_D2a q x1 x2 x3 x4 A = jD2 q x1 x2 x3 x4 A.
Proof. unfold coef_D2a, jD2. toC. reflexivity. Qed.
Lemma jb_eq (q x1 x2 x3 x4 A : C) :
  (x1 - x2 <> 0)%C -> (x3 - x4 <> 0)%C -> (x3 - x1 <> 0)%C -> (x4 - x1 <> 0)%C -> (x3 - x2 <> 0)%C -> (x4 - x2 <> 0)%C ->
  (x1 - x3 <> 0)%C -> (x1 - x4 <> 0)%C -> (x2 - x3 <> 0)%C -> (x2 - x4 <> 0)%C ->
  coef_C1b q x1 x2 x3 x4 A = jC1 q x1 x2 x3 x4 A /\ coef_C2b q x1 x2 x3 x4 A = jC2 q x1 x2 x3 x4 A /\
  coef_D1b q x1 x2 x3 x4 A = jD1 q x1 x2 x3 x4 A /\ coef_D2b q x1 x2 x3 x4 A = jD2 q x1 x2 x3 x4 A.
Proof.
  intros. unfold coef_C1b, coef_C2b, coef_D1b, coef_D2b, jC1, jC2, jD1, jD2. toC.
  refine (conj _ (conj _ (conj _ _))); match goal with |- @eq _ ?a ?b => change (@eq C a b) end; field; auto 12.
Qed.

Section Before.
  Variable w : wparams R.
  Hypothesis hw : well_set w.
  Notation al := (w_alpha w).
  Notation qa := (w_qa w).
  Notation qb := (w_qb w).
  Definition grow (k : R) (q : C) : C := (RtoC k + pw q 2 * pw (RtoC al) 2)%C.
  Notation c := (static_coefficients w).

  Lemma grow_a k : 0 < snd (grow k qa).
  Proof.
    destruct hw as [h1 [h2 [-> _]]]. unfold grow. replace (pw (root_a al) 2) with (root_a al * root_a al)%C by (cbn [pw]; ring). rewrite root_a_sqr by assumption.
    cbn [pw]. unfold Cplus, Cmult, RtoC. cbn [fst snd]. pose proof (sg_pos al h2) as hs. ring_simplify. assert (0 < al ^ 2) by nra. nra.
  Qed.
  Lemma grow_b k : snd (grow k qb) < 0.
  Proof.
    destruct hw as [h1 [h2 [_ [-> _]]]]. unfold grow. replace (pw (root_b al) 2) with (root_b al * root_b al)%C by (cbn [pw]; ring). rewrite root_b_sqr by assumption.
    cbn [pw]. unfold Cplus, Cmult, RtoC, Cconj. cbn [fst snd]. pose proof (sg_pos al h2) as hs. ring_simplify. assert (0 < al ^ 2) by nra. nra.
  Qed.
  Lemma exponents : r1a1 c = ex1 (grow 1 qa) /\ r1a2 c = ex2 (grow 1 qa) /\ r1b1 c = ex1 (grow 1 qb) /\ r1b2 c = ex2 (grow 1 qb) /\
    r2a1 c = (- ex1 (grow (w_ratio w) qa))%C /\ r2a2 c = (- ex2 (grow (w_ratio w) qa))%C /\
    r2b1 c = (- ex1 (grow (w_ratio w) qb))%C /\ r2b2 c = (- ex2 (grow (w_ratio w) qb))%C.
  Proof.
    assert (e1 : forall k q, static_root1 k al q = ex1 (grow k q)) by (intros; unfold static_root1, ex1, grow, rt; toC; reflexivity).
    assert (e2 : forall k q, static_root2 k al q = ex2 (grow k q)) by (intros; unfold static_root2, ex2, grow, rt; toC; reflexivity).
    unfold static_coefficients. cbn [r1a1 r1a2 r1b1 r1b2 r2a1 r2a2 r2b1 r2b2]. rewrite !e1, !e2, !copp_C. exact (conj eq_refl (conj eq_refl (conj eq_refl (conj eq_refl (conj eq_refl (conj eq_refl (conj eq_refl eq_refl))))))).
  Qed.
  Lemma left_signs : 0 < fst (r1a1 c) /\ 0 < fst (r1a2 c) /\ 0 < fst (r1b1 c) /\ 0 < fst (r1b2 c).
  Proof.
    destruct exponents as [-> [-> [-> [-> _]]]]. pose proof (grow_a 1) as ha. pose proof (grow_b 1) as hb.
    repeat split; [apply ex1_pos|apply ex2_pos|apply ex1_pos|apply ex2_pos]; left; lra.
  Qed.
  Lemma right_signs : fst (r2a1 c) < 0 /\ fst (r2a2 c) < 0 /\ fst (r2b1 c) < 0 /\ fst (r2b2 c) < 0.
  Proof.
    destruct exponents as [_ [_ [_ [_ [-> [-> [-> ->]]]]]]]. pose proof (grow_a (w_ratio w)) as ha. pose proof (grow_b (w_ratio w)) as hb.
    assert (k : forall z : C, 0 < fst z -> fst (- z)%C < 0) by (intros z hz; cbn [fst Copp]; lra).
    repeat split; apply k; [apply ex1_pos|apply ex2_pos|apply ex1_pos|apply ex2_pos]; left; lra.
  Qed.
  Lemma quartics : (pw (r1a1 c) 4 = - grow 1 qa)%C /\ (pw (r1a2 c) 4 = - grow 1 qa)%C /\ (pw (r1b1 c) 4 = - grow 1 qb)%C /\ (pw (r1b2 c) 4 = - grow 1 qb)%C /\
    (pw (r2a1 c) 4 = - grow (w_ratio w) qa)%C /\ (pw (r2a2 c) 4 = - grow (w_ratio w) qa)%C /\
    (pw (r2b1 c) 4 = - grow (w_ratio w) qb)%C /\ (pw (r2b2 c) 4 = - grow (w_ratio w) qb)%C.
  Proof.
    destruct exponents as [-> [-> [-> [-> [-> [-> [-> ->]]]]]]]. rewrite !opp_quartic.
    exact (conj (ex1_quartic _) (conj (ex2_quartic _) (conj (ex1_quartic _) (conj (ex2_quartic _)
      (conj (ex1_quartic _) (conj (ex2_quartic _) (conj (ex1_quartic _) (ex2_quartic _)))))))).
  Qed.
  Lemma neg_signs : fst qa < 0 /\ fst qb < 0.
  Proof. destruct hw as [h1 [h2 [-> [-> _]]]]. split; [apply root_a_neg|apply root_b_neg]; assumption. Qed.

  Lemma opp_ne (x y : C) : x <> y -> (- x <> - y)%C.
  Proof. intros h e. apply h. transitivity (- - x)%C; [ring|]. rewrite e. ring. Qed.
  Lemma differences_a : (r1a1 c - r1a2 c <> 0)%C /\ (r2a1 c - r2a2 c <> 0)%C /\ (r2a1 c - r1a1 c <> 0)%C /\ (r2a2 c - r1a1 c <> 0)%C /\ (r2a1 c - r1a2 c <> 0)%C /\ (r2a2 c - r1a2 c <> 0)%C.
  Proof.
    destruct left_signs as [l1 [l2 [l3 l4]]]. destruct right_signs as [g1 [g2 [g3 g4]]].
    split; [|split; [|repeat split; apply minus_re; lra]].
    - destruct exponents as [-> [-> _]]. apply minus_ne. apply ex_distinct. left. pose proof (grow_a 1). lra.
    - destruct exponents as [_ [_ [_ [_ [-> [-> _]]]]]]. apply minus_ne, opp_ne. apply ex_distinct. left. pose proof (grow_a (w_ratio w)). lra.
  Qed.
  Lemma differences_b : (r1b1 c - r1b2 c <> 0)%C /\ (r2b1 c - r2b2 c <> 0)%C /\ (r2b1 c - r1b1 c <> 0)%C /\ (r2b2 c - r1b1 c <> 0)%C /\ (r2b1 c - r1b2 c <> 0)%C /\ (r2b2 c - r1b2 c <> 0)%C.
  Proof.
    destruct left_signs as [l1 [l2 [l3 l4]]]. destruct right_signs as [g1 [g2 [g3 g4]]].
    split; [|split; [|repeat split; apply minus_re; lra]].
    - destruct exponents as [_ [_ [-> [-> _]]]]. apply minus_ne. apply ex_distinct. left. pose proof (grow_b 1). lra.
    - destruct exponents as [_ [_ [_ [_ [_ [_ [-> ->]]]]]]]. apply minus_ne, opp_ne. apply ex_distinct. left. pose proof (grow_b (w_ratio w)). lra.
  Qed.

  Lemma joint_a n : (n < 4)%nat -> (w_A w * pw qa n + C1a c * pw (r1a1 c) n + D1a c * pw (r1a2 c) n = C2a c * pw (r2a1 c) n + D2a c * pw (r2a2 c) n)%C.
  Proof.
    intros hn. destruct differences_a as [d1 [d2 [d3 [d4 [d5 d6]]]]].
    assert (e : C1a c = jC1 qa (r1a1 c) (r1a2 c) (r2a1 c) (r2a2 c) (w_A w) /\ C2a c = jC2 qa (r1a1 c) (r1a2 c) (r2a1 c) (r2a2 c) (w_A w) /\
                D1a c = jD1 qa (r1a1 c) (r1a2 c) (r2a1 c) (r2a2 c) (w_A w) /\ D2a c = jD2 qa (r1a1 c) (r1a2 c) (r2a1 c) (r2a2 c) (w_A w)).
    { unfold static_coefficients. cbn [r1a1 r1a2 r2a1 r2a2 C1a C2a D1a D2a].
      exact (conj (jC1_eq _ _ _ _ _ _) (conj (jC2_eq _ _ _ _ _ _) (conj (jD1_eq _ _ _ _ _ _) (jD2_eq _ _ _ _ _ _)))). }
    destruct e as [-> [-> [-> ->]]]. apply joint; assumption.
  Qed.
  Lemma joint_b n : (n < 4)%nat -> (w_B w * pw qb n + C1b c * pw (r1b1 c) n + D1b c * pw (r1b2 c) n = C2b c * pw (r2b1 c) n + D2b c * pw (r2b2 c) n)%C.
  Proof.
    intros hn. destruct differences_b as [d1 [d2 [d3 [d4 [d5 d6]]]]].
    pose proof (minus_sym _ _ d3) as d3'. pose proof (minus_sym _ _ d4) as d4'. pose proof (minus_sym _ _ d5) as d5'. pose proof (minus_sym _ _ d6) as d6'.
    assert (e : C1b c = jC1 qb (r1b1 c) (r1b2 c) (r2b1 c) (r2b2 c) (w_B w) /\ C2b c = jC2 qb (r1b1 c) (r1b2 c) (r2b1 c) (r2b2 c) (w_B w) /\
                D1b c = jD1 qb (r1b1 c) (r1b2 c) (r2b1 c) (r2b2 c) (w_B w) /\ D2b c = jD2 qb (r1b1 c) (r1b2 c) (r2b1 c) (r2b2 c) (w_B w)).
    { unfold static_coefficients in *. cbn [r1b1 r1b2 r2b1 r2b2 C1b C2b D1b D2b] in *.
      exact (jb_eq _ _ _ _ _ _ d1 d2 d3 d4 d5 d6 d3' d4' d5' d6'). }
    destruct e as [-> [-> [-> ->]]]. apply joint; assumption.
  Qed.
End Before.

(** ** the three pieces in the user's units *)
Lemma waves_app n m l1 l2 x t : waves n m (l1 ++ l2) x t = waves n m l1 x t + waves n m l2 x t.
Proof. induction l1 as [|q l1 ih]; cbn [app waves]; [ring|]. rewrite ih. ring. Qed.
Lemma cexp_zero (z : C) : z = RtoC 0 -> cexp z = RtoC 1.
Proof. intros ->. apply cexp_0. Qed.
Lemma fst_plus (x y : C) : fst (x + y)%C = fst x + fst y.
Proof. reflexivity. Qed.
Lemma fst_scal (k : R) (x : C) : fst (RtoC k * x)%C = k * fst x.
Proof. cbn [fst snd Cmult RtoC]. ring. Qed.
Lemma pw_scal (z : C) (k : R) n : pw (z * RtoC k)%C n = (RtoC (k ^ n) * pw z n)%C.
Proof. induction n as [|n ih]; cbn [pw pow]; [ring|]. rewrite ih, RtoC_mult. ring. Qed.

Lemma triple (a b c x y z : C) : (a, b, c) = (x, y, z) -> a = x /\ b = y /\ c = z.
Proof. intros e. inversion e. auto. Qed.

Section Pieces.
  Variable w : wparams R.
  Hypothesis hw : well_set w.
  Variables EI rho k1 k2 P v h ka : R.
  Hypothesis hh : 0 < h.
  Hypothesis hka : 0 < ka.
  Hypothesis hv : 0 < v.
  Hypothesis e1 : EI * ka ^ 4 = k1.
  Hypothesis e2 : rho * h ^ 2 = k1.
  Hypothesis e3 : w_alpha w * h = ka * v.
  Hypothesis e4 : EI * ka ^ 3 * w_F w = P.
  Hypothesis e5 : w_ratio w * k1 = k2.
  Notation al := (w_alpha w).
  Notation qa := (w_qa w).
  Notation qb := (w_qb w).
  Notation c := (static_coefficients w).
  Definition sx (z : C) : C := (z * RtoC ka)%C.
  Definition sy (z : C) : C := (z * RtoC (al * h))%C.
  Definition home : list wave1 :=
    [(C1a c, sx (r1a1 c), sy (- qa)); (D1a c, sx (r1a2 c), sy (- qa)); (C1b c, sx (r1b1 c), sy (- qb)); (D1b c, sx (r1b2 c), sy (- qb))]%C.
  Definition behind : list wave1 := [(w_A w : C, sx (- qa), sy qa); (w_B w : C, sx (- qb), sy qb)]%C.
  Definition ahead : list wave1 := [(w_A w : C, sx qa, sy (- qa)); (w_B w : C, sx qb, sy (- qb))]%C.
  Definition away : list wave1 :=
    [(C2a c, sx (r2a1 c), sy (- qa)); (D2a c, sx (r2a2 c), sy (- qa)); (C2b c, sx (r2b1 c), sy (- qb)); (D2b c, sx (r2b2 c), sy (- qb))]%C.

  Lemma term_eq (z y : C) (k : R) : (pw z 4 + RtoC (al * al) * pw y 2 + RtoC k = 0)%C ->
    (RtoC EI * pw (sx z) 4 + RtoC rho * pw (sy y) 2 + RtoC (k * k1) = 0)%C.
  Proof.
    intros e. unfold sx, sy. rewrite !pw_scal.
    transitivity (RtoC k1 * (pw z 4 + RtoC (al * al) * pw y 2 + RtoC k))%C; [|rewrite e; ring].
    replace ((al * h) ^ 2) with (al * al * h ^ 2) by ring.
    transitivity (RtoC (EI * ka ^ 4) * pw z 4 + RtoC (rho * h ^ 2) * RtoC (al * al) * pw y 2 + RtoC (k * k1))%C; [rewrite !RtoC_mult; ring|].
    rewrite e1, e2, (RtoC_mult k k1). ring.
  Qed.
  Lemma opp_sq (z : C) : pw (- z)%C 2 = pw z 2.
  Proof. cbn [pw]. ring. Qed.
  Lemma grow_eq k (q z : C) : pw z 4 = (- grow w k q)%C -> (pw z 4 + RtoC (al * al) * pw (- q) 2 + RtoC k = 0)%C.
  Proof. intros ->. rewrite opp_sq. unfold grow. cbn [pw]. rewrite RtoC_mult. ring. Qed.
  Lemma piece_home : forall x z y, In (x, z, y) home -> (RtoC EI * pw z 4 + RtoC rho * pw y 2 + RtoC k1 = 0)%C.
  Proof.
    intros x z y hi. replace (RtoC k1) with (RtoC (1 * k1)) by (f_equal; ring).
    destruct (quartics w) as [g1 [g2 [g3 [g4 _]]]].
    destruct hi as [e|[e|[e|[e|[]]]]]; destruct (triple _ _ _ _ _ _ e) as [_ [<- <-]]; apply term_eq, grow_eq; assumption.
  Qed.
  Lemma piece_away : forall x z y, In (x, z, y) away -> (RtoC EI * pw z 4 + RtoC rho * pw y 2 + RtoC k2 = 0)%C.
  Proof.
    intros x z y hi. rewrite <- e5. destruct (quartics w) as [_ [_ [_ [_ [g1 [g2 [g3 g4]]]]]]].
    destruct hi as [e|[e|[e|[e|[]]]]]; destruct (triple _ _ _ _ _ _ e) as [_ [<- <-]]; apply term_eq, grow_eq; assumption.
  Qed.
  Lemma wave_qa : (pw qa 4 + RtoC (al * al) * pw qa 2 + RtoC 1 = 0)%C.
  Proof. destruct hw as [h1 [h2 [-> _]]]. apply root_a_quartic; assumption. Qed.
  Lemma wave_qb : (pw qb 4 + RtoC (al * al) * pw qb 2 + RtoC 1 = 0)%C.
  Proof. destruct hw as [h1 [h2 [_ [-> _]]]]. apply root_b_quartic; assumption. Qed.
  Lemma piece_behind : forall x z y, In (x, z, y) behind -> (RtoC EI * pw z 4 + RtoC rho * pw y 2 + RtoC k1 = 0)%C.
  Proof.
    intros x z y hi. replace (RtoC k1) with (RtoC (1 * k1)) by (f_equal; ring).
    destruct hi as [e|[e|[]]]; destruct (triple _ _ _ _ _ _ e) as [_ [<- <-]]; apply term_eq; rewrite opp_quartic; [exact wave_qa|exact wave_qb].
  Qed.
  Lemma piece_ahead : forall x z y, In (x, z, y) ahead -> (RtoC EI * pw z 4 + RtoC rho * pw y 2 + RtoC k1 = 0)%C.
  Proof.
    intros x z y hi. replace (RtoC k1) with (RtoC (1 * k1)) by (f_equal; ring).
    destruct hi as [e|[e|[]]]; destruct (triple _ _ _ _ _ _ e) as [_ [<- <-]]; apply term_eq; rewrite opp_sq; [exact wave_qa|exact wave_qb].
  Qed.

  (** the force *)
  Lemma at_force_behind n t : waves n 0 behind (v * t) t = (- 1) ^ n * ka ^ n * fst (w_A w * pw qa n + w_B w * pw qb n)%C.
  Proof.
    assert (k : forall (A q : C), wave_value n 0 (A, sx (- q)%C, sy q) (v * t) t = (- 1) ^ n * ka ^ n * fst (A * pw q n)%C).
    { intros A q. unfold wave_value, sx, sy. rewrite cexp_zero; [|rewrite e3, !RtoC_mult; ring]. rewrite <- fst_scal. f_equal.
      rewrite pw_scal. replace (- q)%C with (q * RtoC (- 1))%C by (apply Ceq; cbn [fst snd Cmult Copp RtoC]; ring). rewrite pw_scal, (RtoC_mult ((- 1) ^ n)). cbn [pw]. ring. }
    unfold behind. cbn [waves]. rewrite !k, fst_plus. ring.
  Qed.
  Lemma at_force_ahead n t : waves n 0 ahead (v * t) t = ka ^ n * fst (w_A w * pw qa n + w_B w * pw qb n)%C.
  Proof.
    assert (k : forall (A q : C), wave_value n 0 (A, sx q, sy (- q)%C) (v * t) t = ka ^ n * fst (A * pw q n)%C).
    { intros A q. unfold wave_value, sx, sy. rewrite cexp_zero; [|rewrite e3, !RtoC_mult; ring]. rewrite <- fst_scal. f_equal.
      rewrite pw_scal. cbn [pw]. ring. }
    unfold ahead. cbn [waves]. rewrite !k, fst_plus. ring.
  Qed.
  Lemma force_smooth t n : (n < 3)%nat -> waves n 0 (behind ++ home) (v * t) t = waves n 0 (ahead ++ home) (v * t) t.
  Proof.
    intros hn. rewrite !waves_app, at_force_behind, at_force_ahead. f_equal.
    destruct n as [|[|[|n]]]; [ring| |ring|lia].
    destruct hw as [h1 [h2 [ea [eb [eA [eB _]]]]]]. pose proof (slope_zero al h2 (w_F w)) as hs.
    replace (w_A w * pw qa 1 + w_B w * pw qb 1)%C with (RtoC 0); [cbn [fst RtoC]; ring|]. rewrite ea, eb, eA, eB. rewrite <- hs. cbn [pw]. ring.
  Qed.
  Lemma force_shear t : EI * (waves 3 0 (ahead ++ home) (v * t) t - waves 3 0 (behind ++ home) (v * t) t) = P.
  Proof.
    rewrite !waves_app, at_force_behind, at_force_ahead.
    destruct hw as [h1 [h2 [ea [eb [eA [eB _]]]]]]. pose proof (shear_force al h2 (w_F w)) as hs.
    assert (e : 2 * fst (w_A w * pw qa 3 + w_B w * pw qb 3)%C = w_F w).
    { rewrite ea, eb, eA, eB. rewrite <- fst_scal. change (RtoC 2) with (2 : C). rewrite hs. reflexivity. }
    rewrite <- e4, <- e. set (X := fst (w_A w * pw qa 3 + w_B w * pw qb 3)%C). ring.
  Qed.

  (** the change of stiffness *)
  Lemma at_change n t (x z y : C) : wave_value n 0 (x, sx z, sy y) 0 t = ka ^ n * fst (x * pw z n * cexp (sy y * RtoC t))%C.
  Proof.
    unfold wave_value. replace (sx z * RtoC 0 + sy y * RtoC t)%C with (sy y * RtoC t)%C by ring. rewrite <- fst_scal. f_equal.
    unfold sx. rewrite pw_scal. cbn [pw]. ring.
  Qed.
  Lemma change_smooth t n : (n < 4)%nat -> waves n 0 (ahead ++ home) 0 t = waves n 0 away 0 t.
  Proof.
    intros hn. unfold ahead, home, away. cbn [app waves]. rewrite !at_change.
    set (ta := cexp (sy (- qa)%C * RtoC t)%C : C). set (tb := cexp (sy (- qb)%C * RtoC t)%C : C).
    pose proof (joint_a w hw n hn) as ja. pose proof (joint_b w hw n hn) as jb.
    transitivity (ka ^ n * fst ((w_A w * pw qa n + C1a c * pw (r1a1 c) n + D1a c * pw (r1a2 c) n) * ta + (w_B w * pw qb n + C1b c * pw (r1b1 c) n + D1b c * pw (r1b2 c) n) * tb)%C).
    - rewrite !Cmult_plus_distr_r, !fst_plus. ring.
    - rewrite ja, jb, !Cmult_plus_distr_r, !fst_plus. ring.
  Qed.

  (** far away and long before *)
  Lemma sx_pos (z : C) : 0 < fst z -> 0 < fst (sx z).
  Proof. intros hz. unfold sx. rewrite Cmult_comm, fst_scal. apply Rmult_lt_0_compat; assumption. Qed.
  Lemma sx_neg (z : C) : fst z < 0 -> fst (sx z) < 0.
  Proof. intros hz. unfold sx. rewrite Cmult_comm, fst_scal. nra. Qed.
  Lemma sy_pos (z : C) : 0 < fst z -> 0 < fst (sy z).
  Proof. intros hz. unfold sy. rewrite Cmult_comm, fst_scal. destruct hw as [h1 _]. apply Rmult_lt_0_compat; [apply Rmult_lt_0_compat; assumption|assumption]. Qed.
  Lemma qa_pos : 0 < fst (- qa)%C /\ 0 < fst (- qb)%C.
  Proof. destruct (neg_signs w hw) as [n1 n2]. cbn [fst Copp]. lra. Qed.
  Lemma far_left t : dies_left (fun x => waves 0 0 (behind ++ home) x t).
  Proof.
    apply waves_left. intros x z y hi. destruct qa_pos as [n1 n2]. destruct (left_signs w hw) as [l1 [l2 [l3 l4]]].
    destruct hi as [e|[e|[e|[e|[e|[e|[]]]]]]]; destruct (triple _ _ _ _ _ _ e) as [_ [<- <-]]; apply sx_pos; assumption.
  Qed.
  Lemma far_right t : dies_right (fun x => waves 0 0 away x t).
  Proof.
    apply waves_right. intros x z y hi. destruct (right_signs w hw) as [l1 [l2 [l3 l4]]].
    destruct hi as [e|[e|[e|[e|[]]]]]; destruct (triple _ _ _ _ _ _ e) as [_ [<- <-]]; apply sx_neg; assumption.
  Qed.
  Lemma past_ahead x : dies_left (fun t => waves 0 0 (ahead ++ home) x t).
  Proof.
    apply waves_past. intros a z y hi. destruct qa_pos as [n1 n2].
    destruct hi as [e|[e|[e|[e|[e|[e|[]]]]]]]; destruct (triple _ _ _ _ _ _ e) as [_ [<- <-]]; apply sy_pos; assumption.
  Qed.
  Lemma past_away x : dies_left (fun t => waves 0 0 away x t).
  Proof.
    apply waves_past. intros a z y hi. destruct qa_pos as [n1 n2].
    destruct hi as [e|[e|[e|[e|[]]]]]; destruct (triple _ _ _ _ _ _ e) as [_ [<- <-]]; apply sy_pos; assumption.
  Qed.

  (** the model's values *)
  Lemma low_wave (x t : R) (a r q : C) :
    wave_value 0 0 (a, sx r, sy (- q)%C) x t = fst (a * (cexp (r * RtoC (ka * x)) * cexp (- q * RtoC al * RtoC (h * t))))%C.
  Proof.
    unfold wave_value. rewrite <- cexp_plus. f_equal. unfold sx, sy. cbn [pw].
    replace (r * RtoC (ka * x) + - q * RtoC al * RtoC (h * t))%C with (r * RtoC ka * RtoC x + - q * RtoC (al * h) * RtoC t)%C by (rewrite !RtoC_mult; ring). ring.
  Qed.
  Lemma force_wave (x t e : R) (a q z y : C) : (z * RtoC x + y * RtoC t = q * RtoC e)%C -> wave_value 0 0 (a, z, y) x t = fst (a * cexp (q * RtoC e))%C.
  Proof. intros e0. unfold wave_value. rewrite e0. f_equal. cbn [pw]. ring. Qed.
  Lemma low_home (x t : R) : fst (fst (coefficients_low w c (ka * x) (h * t))) = waves 0 0 home x t.
  Proof.
    unfold home. cbn [waves]. rewrite !low_wave. unfold coefficients_low. cbn [fst]. toC.
    rewrite Rplus_0_r, <- !fst_plus. f_equal. ring.
  Qed.
  Lemma low_away (x t : R) : fst (snd (coefficients_low w c (ka * x) (h * t))) = waves 0 0 away x t.
  Proof.
    unfold away. cbn [waves]. rewrite !low_wave. unfold coefficients_low. cbn [fst snd]. toC.
    rewrite Rplus_0_r, <- !fst_plus. f_equal. ring.
  Qed.
  Lemma low_value (x t : R) : time_low_at w (ka * x) (h * t) =
    if Rle_dec x 0 then (if Rle_dec x (v * t) then waves 0 0 (behind ++ home) x t else waves 0 0 (ahead ++ home) x t) else waves 0 0 away x t.
  Proof.
    unfold time_low_at. pose proof (low_home x t) as l1. pose proof (low_away x t) as l2.
    destruct (coefficients_low w c (ka * x) (h * t)) as [u1 u2]. cbn [fst snd] in l1, l2.
    assert (g : ka * x - w_alpha w * (h * t) = ka * (x - v * t)) by (transitivity (ka * x - w_alpha w * h * t); [ring|rewrite e3; ring]).
    destruct (nlebP (ka * x) (lit 0)) as [k|k]; rnum; destruct (Rle_dec x 0) as [k'|k']; try (exfalso; nra); [|exact l2].
    rewrite g, nabs_R. rewrite l1. destruct (Rle_dec x (v * t)) as [j|j]; rewrite waves_app; f_equal.
    - rewrite Rabs_left1 by nra. unfold behind. cbn [waves].
      assert (ee : forall q : C, (sx (- q) * RtoC x + sy q * RtoC t = q * RtoC (- (ka * (x - v * t))))%C).
      { intros q. unfold sx, sy. rewrite e3. apply Ceq; unfold Cmult, Cplus, Copp, RtoC; cbn [fst snd]; ring. }
      rewrite !(force_wave x t _ _ _ _ _ (ee _)). toC. rewrite fst_plus. ring.
    - rewrite Rabs_pos_eq by nra. unfold ahead. cbn [waves].
      assert (ee : forall q : C, (sx q * RtoC x + sy (- q) * RtoC t = q * RtoC (ka * (x - v * t)))%C).
      { intros q. unfold sx, sy. rewrite e3. apply Ceq; unfold Cmult, Cplus, Copp, RtoC; cbn [fst snd]; ring. }
      rewrite !(force_wave x t _ _ _ _ _ (ee _)). toC. rewrite fst_plus. ring.
  Qed.

  Lemma low_pieces : approaching_pieces EI rho k1 k2 P v (fun n => waves n 0 (behind ++ home)) (fun n => waves n 0 (ahead ++ home)) (fun n => waves n 0 away).
  Proof.
    split; [|split; [|split; [|split; [|split; [|split; [|split]]]]]].
    - apply waves_piece. intros x z y hi. apply in_app_or in hi. destruct hi as [hi|hi]; [exact (piece_behind x z y hi)|exact (piece_home x z y hi)].
    - apply waves_piece. intros x z y hi. apply in_app_or in hi. destruct hi as [hi|hi]; [exact (piece_ahead x z y hi)|exact (piece_home x z y hi)].
    - apply waves_piece. exact piece_away.
    - intros t n hn. apply force_smooth; exact hn.
    - apply force_shear.
    - intros t n hn. apply change_smooth; exact hn.
    - intros t. split; [apply far_left|apply far_right].
    - intros x. split; [apply past_ahead|apply past_away].
  Qed.
  Lemma low_approaching : approaching EI rho k1 k2 P v (fun x t => time_low_at w (ka * x) (h * t)).
  Proof.
    exists (fun n => waves n 0 (behind ++ home)), (fun n => waves n 0 (ahead ++ home)), (fun n => waves n 0 away).
    split; [exact low_pieces|].
    intros x t ht. rewrite low_value. assert (v * t < 0) by nra. destruct (Rle_dec x 0), (Rle_dec x (v * t)); try reflexivity. exfalso; lra.
  Qed.
End Pieces.

(** ** the constants the program computes *)
Lemma sqrt2 x : 0 <= x -> sqrt x * sqrt x = x.
Proof. apply sqrt_sqrt. Qed.
Section Given.
  Variables EI rho k1 k2 v P : R.
  Hypothesis hEI : 0 < EI.
  Hypothesis hrho : 0 < rho.
  Hypothesis hk1 : 0 < k1.
  Hypothesis hk2 : 0 < k2.
  Hypothesis hv : 0 < v.
  Hypothesis hcr : v < critical_speed EI rho k1 k2.
  Definition p_beta := sqrt (EI / rho).
  Definition p_h := sqrt (k1 / rho).
  Definition p_ka := sqrt (p_h / p_beta).
  Definition p_alpha := v / sqrt (p_beta * p_h).
  Definition p_F := P / (rho * (p_h * sqrt p_h) * sqrt p_beta).
  Lemma p_pos : 0 < p_beta /\ 0 < p_h /\ 0 < p_ka /\ 0 < p_alpha.
  Proof.
    assert (b : 0 < p_beta) by (apply sqrt_lt_R0, Rdiv_lt_0_compat; assumption).
    assert (h : 0 < p_h) by (apply sqrt_lt_R0, Rdiv_lt_0_compat; assumption).
    assert (k : 0 < p_ka) by (apply sqrt_lt_R0, Rdiv_lt_0_compat; assumption).
    repeat split; try assumption. apply Rdiv_lt_0_compat; [exact hv|]. apply sqrt_lt_R0, Rmult_lt_0_compat; assumption.
  Qed.
  Lemma p_sq : p_beta * p_beta = EI / rho /\ p_h * p_h = k1 / rho /\ p_ka * p_ka = p_h / p_beta.
  Proof.
    destruct p_pos as [b [h [k _]]].
    split; [|split]; apply sqrt_sqrt, Rlt_le, Rdiv_lt_0_compat; assumption.
  Qed.
  Lemma p_e1 : EI * p_ka ^ 4 = k1.
  Proof.
    destruct p_pos as [b [h [k _]]]. destruct p_sq as [s1 [s2 s3]].
    replace (p_ka ^ 4) with ((p_ka * p_ka) * (p_ka * p_ka)) by ring. rewrite s3.
    replace (p_h / p_beta * (p_h / p_beta)) with ((p_h * p_h) / (p_beta * p_beta)) by (field; lra). rewrite s1, s2. field. lra.
  Qed.
  Lemma p_e2 : rho * p_h ^ 2 = k1.
  Proof. destruct p_sq as [_ [s2 _]]. replace (p_h ^ 2) with (p_h * p_h) by ring. rewrite s2. field. lra. Qed.
  Lemma p_roots : sqrt (p_beta * p_h) = sqrt p_beta * sqrt p_h /\ p_ka = sqrt p_h / sqrt p_beta /\ 0 < sqrt p_beta /\ 0 < sqrt p_h /\
    sqrt p_beta * sqrt p_beta = p_beta /\ sqrt p_h * sqrt p_h = p_h.
  Proof.
    destruct p_pos as [b [h [k _]]]. split; [apply sqrt_mult; lra|]. split; [apply sqrt_div; lra|].
    split; [apply sqrt_lt_R0; exact b|]. split; [apply sqrt_lt_R0; exact h|]. split; apply sqrt_sqrt; lra.
  Qed.
  Lemma p_e3 : p_alpha * p_h = p_ka * v.
  Proof.
    destruct p_roots as [r1 [r2 [r3 [r4 [r5 r6]]]]]. unfold p_alpha. rewrite r1, r2. set (a := sqrt p_beta) in *. set (b := sqrt p_h) in *. clearbody a b.
    rewrite <- r6. field. split; lra.
  Qed.
  Lemma p_e4 : EI * p_ka ^ 3 * p_F = P.
  Proof.
    destruct p_roots as [r1 [r2 [r3 [r4 [r5 r6]]]]]. destruct p_sq as [s1 _]. unfold p_F. rewrite r2. set (a := sqrt p_beta) in *. set (b := sqrt p_h) in *. clearbody a b.
    assert (e : EI = rho * (a * a * (a * a))) by (rewrite r5, s1; field; lra). rewrite e, <- r6. field. repeat split; lra.
  Qed.
  Lemma p_alpha4 : pow4 p_alpha * k1 = v * v * v * v * rho * rho / EI.
  Proof.
    destruct p_roots as [r1 [r2 [r3 [r4 [r5 r6]]]]]. destruct p_sq as [s1 [s2 _]]. unfold p_alpha, pow4. rnum. rewrite r1.
    set (a := sqrt p_beta) in *. set (b := sqrt p_h) in *. clearbody a b.
    assert (e : EI = rho * (a * a * (a * a))) by (rewrite r5, s1; field; lra).
    assert (e' : k1 = rho * (b * b * (b * b))) by (rewrite r6, s2; field; lra).
    rewrite e, e'. field. repeat split; lra.
  Qed.
  Lemma critical4 : forall u, 0 <= u -> u < critical_speed EI rho k1 k2 -> u * u * u * u * rho * rho / EI < 4 * k1 /\ u * u * u * u * rho * rho / EI < 4 * k2.
  Proof.
    intros u hu hc. unfold critical_speed, min2 in hc. rnum.
    assert (k : forall K, 0 < K -> u < sqrt (sqrt (4 * K * EI / (rho * rho))) -> u * u * u * u * rho * rho / EI < 4 * K).
    { intros K hK hs. set (X := 4 * K * EI / (rho * rho)) in *. assert (hX : 0 < X) by (unfold X; apply Rdiv_lt_0_compat; nra).
      set (y := sqrt X) in *. assert (hy : 0 <= y) by apply sqrt_pos. assert (ey : y * y = X) by (apply sqrt_sqrt; lra).
      set (z := sqrt y) in *. assert (hz : 0 <= z) by apply sqrt_pos. assert (ez : z * z = y) by (apply sqrt_sqrt; lra).
      assert (h2 : u * u < y) by nra. assert (h4 : u * u * (u * u) < X) by nra.
      apply (Rmult_lt_reg_r EI); [exact hEI|]. replace (u * u * u * u * rho * rho / EI * EI) with (u * u * (u * u) * (rho * rho)) by (field; lra).
      replace (4 * K * EI) with (X * (rho * rho)) by (unfold X; field; lra). apply Rmult_lt_compat_r; nra. }
    destruct (nltbP k2 k1) as [g|g].
    - specialize (k k2 hk2 hc). lra.
    - specialize (k k1 hk1 hc). lra.
  Qed.
  Lemma p_sub : pow4 p_alpha < 4.
  Proof.
    pose proof p_alpha4 as e. destruct (critical4 v ltac:(lra) hcr) as [h _]. rewrite <- e in h. nra.
  Qed.

  Definition the_w (x : list R) (last : R) : wparams R :=
    mkW EI rho k1 k2 v P x (map (fun p => p / v) x) p_beta p_h p_alpha p_F (map (fun t => p_h * t) (map (fun p => p / v) x))
      (map (fun p => p_ka * p) x) (last * 2) (root_a p_alpha) (root_b p_alpha) (force_a p_alpha p_F) (force_b p_alpha p_F) (k2 / k1).
  Lemma the_w_set x last : well_set (the_w x last).
  Proof.
    destruct p_pos as [_ [_ [_ h]]]. repeat split; try exact h; try exact p_sub. cbn [w_ratio the_w]. apply Rdiv_lt_0_compat; assumption.
  Qed.
  Lemma the_w_approaching x last : approaching EI rho k1 k2 P v (fun y t => time_low_at (the_w x last) (p_ka * y) (p_h * t)).
  Proof.
    destruct p_pos as [_ [hh [hka _]]]. apply low_approaching; try assumption.
    - apply the_w_set.
    - exact p_e1.
    - exact p_e2.
    - exact p_e3.
    - exact p_e4.
    - cbn [w_ratio the_w]. field. lra.
  Qed.
End Given.

Lemma root_a_model (al : R) : copp (csqrt (creal (1 / 2)%R * (copp (creal (pow2 al)) + cunit * creal (sqrt (4 - pow4 al))%R))%cx) = root_a al.
Proof.
  unfold root_a, rt. change (copp ?x) with (Copp x). f_equal. f_equal. apply Ceq; unfold pow2, cmul, cadd, copp, cunit, creal; cbn [fst snd]; rnum; field.
Qed.
Lemma root_b_model (al : R) : copp (csqrt (creal (1 / 2)%R * (copp (creal (pow2 al)) - cunit * creal (sqrt (4 - pow4 al))%R))%cx) = root_b al.
Proof.
  unfold root_b, rt, Cconj. change (copp ?x) with (Copp x). f_equal. f_equal. apply Ceq; unfold pow2, cmul, csub, cadd, copp, cunit, creal; cbn [fst snd]; rnum; field.
Qed.
Lemma parameters_ok x v E I rho k1 k2 P : 0 < E * I -> 0 < rho -> 0 < k1 -> 0 < k2 -> 0 < v -> v < critical_speed (E * I) rho k1 k2 -> x <> [] ->
  winkler_parameters x v E I rho [k1; k2] P = Ok (Some (the_w (E * I) rho k1 k2 v P x (p_h rho k1 * (last x 0 / v)))).
Proof.
  intros hEI hrho hk1 hk2 hv hcr hx. unfold winkler_parameters. rnum.
  destruct (nltbP (critical_speed (E * I) rho k1 k2) v) as [g|g]; [exfalso; lra|].
  fold (p_beta (E * I) rho). fold (p_h rho k1). fold (p_alpha (E * I) rho k1 v). fold (p_ka (E * I) rho k1). fold (p_F (E * I) rho k1 P).
  destruct (rev (map (fun t => p_h rho k1 * t) (map (fun p => p / v) x))) as [|z0 r] eqn:er.
  { exfalso. apply (f_equal (@length R)) in er. rewrite rev_length, !map_length in er. destruct x; [contradiction|discriminate]. }
  destruct (neqbP (4 - pow4 (p_alpha (E * I) rho k1 v)) 0) as [z|z].
  { exfalso. pose proof (p_sub (E * I) rho k1 k2 v hEI hrho hk1 hk2 hv hcr). lra. }
  assert (ez : z0 = p_h rho k1 * (last x 0 / v)).
  { destruct (exists_last hx) as [l [y ->]]. rewrite last_last, !map_app, rev_app_distr in *. cbn in er. injection er as <- _. reflexivity. }
  rewrite <- ez. rewrite root_a_model, root_b_model. do 2 f_equal. unfold the_w. f_equal; unfold force_b, force_a; toC; reflexivity.
Qed.

(** ** columns *)
Lemma sorted_negative (l : list R) j t : StronglySorted Rle l -> nth_error l j = Some t -> t < 0 -> nth_error (filter (fun t => nltb t (lit 0)) l) j = Some t.
Proof.
  revert j. induction l as [|a l ih]; intros j hs hj ht; [destruct j; discriminate|]. inversion hs as [|? ? hs' ha]; subst.
  assert (g : a <= t).
  { destruct j as [|j]; [cbn in hj; injection hj as ->; lra|]. cbn in hj. apply nth_error_In in hj. rewrite Forall_forall in ha. exact (ha t hj). }
  cbn [filter]. destruct (nltbP a (lit 0)) as [k|k]; rnum; [|exfalso; lra]. destruct j as [|j]; [exact hj|]. cbn in *. apply ih; assumption.
Qed.
Lemma map_sorted (f : R -> R) l : (forall a b, a <= b -> f a <= f b) -> StronglySorted Rle l -> StronglySorted Rle (map f l).
Proof.
  intros hf hs. induction hs as [|a l hs ih ha]; cbn [map]; constructor; [exact ih|]. apply Forall_forall. intros y hy. apply in_map_iff in hy. destruct hy as [z [<- hz]].
  apply hf. rewrite Forall_forall in ha. exact (ha z hz).
Qed.
Lemma no_negative_column (l : list R) j t : StronglySorted Rle l -> nth_error l j = Some t -> 0 <= t -> nth_error (filter (fun t => nltb t (lit 0)) l) j = None.
Proof.
  revert j. induction l as [|a l ih]; intros j hs hj ht; [destruct j; discriminate|]. inversion hs as [|? ? hs' ha]; subst.
  assert (nil : 0 <= a -> filter (fun t => nltb t (lit 0)) (a :: l) = []).
  { intros h0. assert (hall : forall y, In y (a :: l) -> 0 <= y).
    { intros y [<-|hy]; [exact h0|]. rewrite Forall_forall in ha. specialize (ha y hy). lra. }
    clear - hall. induction (a :: l) as [|b r ihr]; [reflexivity|]. cbn [filter]. destruct (nltbP b (lit 0)) as [k|k]; rnum.
    - exfalso. specialize (hall b (or_introl eq_refl)). lra.
    - apply ihr. intros y hy. apply hall. right. exact hy. }
  destruct (Rle_lt_dec 0 a) as [h0|h0]; [rewrite nil by exact h0; destruct j; reflexivity|].
  cbn [filter]. destruct (nltbP a (lit 0)) as [k|k]; rnum; [|exfalso; lra].
  destruct j as [|j]; [cbn in hj; injection hj as ->; exfalso; lra|]. cbn in *. apply (ih j); assumption.
Qed.
Lemma strict_weak l : StronglySorted Rlt l -> StronglySorted Rle l.
Proof. intros hs. induction hs as [|a l hs ih ha]; constructor; [exact ih|]. eapply Forall_impl; [|exact ha]. intros; cbn in *; lra. Qed.
Lemma strict_place l j t : StronglySorted Rlt l -> nth_error l j = Some t -> first_place t l = j /\ filter (fun x => neqb x t) l = [t].
Proof.
  revert j. induction l as [|a l ih]; intros j hs hj; [destruct j; discriminate|]. inversion hs as [|? ? hs' ha]; subst. rewrite Forall_forall in ha.
  destruct j as [|j]; cbn [nth_error] in hj.
  - injection hj as ->. cbn [first_place filter]. destruct (neqbP t t) as [_|k]; [|contradiction k; reflexivity]. split; [reflexivity|]. f_equal.
    clear - ha. induction l as [|b r ihr]; [reflexivity|]. cbn [filter]. destruct (neqbP b t) as [k|k].
    + exfalso. specialize (ha b (or_introl eq_refl)). lra.
    + apply ihr. intros y hy. apply ha. right. exact hy.
  - destruct (ih j hs' hj) as [i1 i2]. specialize (ha t (nth_error_In _ _ hj)). cbn [first_place filter].
    destruct (neqbP a t) as [k|_]; [exfalso; lra|]. rewrite i1, i2. split; reflexivity.
Qed.
Lemma map_strict (f : R -> R) l : (forall a b, a < b -> f a < f b) -> StronglySorted Rlt l -> StronglySorted Rlt (map f l).
Proof.
  intros hf hs. induction hs as [|a l hs ih ha]; cbn [map]; constructor; [exact ih|]. apply Forall_forall. intros y hy. apply in_map_iff in hy. destruct hy as [z [<- hz]].
  apply hf. rewrite Forall_forall in ha. exact (ha z hz).
Qed.

(** ** the critical speed *)
Lemma fourth_root u X : 0 <= u -> 0 < X -> (u < sqrt (sqrt X) <-> u * u * (u * u) < X) /\ (sqrt (sqrt X) < u <-> X < u * u * (u * u)).
Proof.
  intros hu hX. set (y := sqrt X) in *. assert (hy : 0 < y) by (apply sqrt_lt_R0; exact hX). assert (ey : y * y = X) by (apply sqrt_sqrt; lra).
  set (z := sqrt y) in *. assert (hz : 0 < z) by (apply sqrt_lt_R0; exact hy). assert (ez : z * z = y) by (apply sqrt_sqrt; lra). clearbody y z. subst y X.
  assert (mono : forall a b, 0 <= a -> a < b -> a * a * (a * a) < b * b * (b * b)).
  { intros a b ha hab. assert (a * a < b * b) by nra. assert (0 <= a * a) by nra. nra. }
  split; split; intros h; try (apply mono; lra).
  - destruct (Rlt_le_dec u z) as [g|[g|g]]; [exact g| |]; exfalso; [apply mono in g; lra|subst; lra].
  - destruct (Rlt_le_dec z u) as [g|[g|g]]; [exact g| |]; exfalso; [apply mono in g; lra|subst; lra].
Qed.
Lemma critical_iff EI rho k1 k2 v : 0 < EI -> 0 < rho -> 0 < k1 -> 0 < k2 -> 0 <= v ->
  (v < critical_speed EI rho k1 k2 <-> rho ^ 2 * v ^ 4 < 4 * k1 * EI /\ rho ^ 2 * v ^ 4 < 4 * k2 * EI) /\
  (critical_speed EI rho k1 k2 < v <-> 4 * k1 * EI < rho ^ 2 * v ^ 4 \/ 4 * k2 * EI < rho ^ 2 * v ^ 4).
Proof.
  intros hEI hr h1 h2 hv. unfold critical_speed, min2. rnum.
  assert (g : forall k, 0 < k -> (v < sqrt (sqrt (4 * k * EI / (rho * rho))) <-> rho ^ 2 * v ^ 4 < 4 * k * EI) /\ (sqrt (sqrt (4 * k * EI / (rho * rho))) < v <-> 4 * k * EI < rho ^ 2 * v ^ 4)).
  { intros k hk. set (X := 4 * k * EI / (rho * rho)). assert (hX : 0 < X) by (unfold X; apply Rdiv_lt_0_compat; nra).
    assert (e : 4 * k * EI = X * (rho * rho)) by (unfold X; field; lra). rewrite e. destruct (fourth_root v X hv hX) as [f1 f2]. rewrite f1, f2.
    replace (rho ^ 2 * v ^ 4) with (v * v * (v * v) * (rho * rho)) by ring. assert (0 < rho * rho) by nra. set (Y := v * v * (v * v)). clearbody X Y.
    split; split; intros h; try (apply Rmult_lt_compat_r; assumption); apply (Rmult_lt_reg_r (rho * rho)); assumption. }
  destruct (g k1 h1) as [a1 a2]. destruct (g k2 h2) as [b1 b2]. destruct (nltbP k2 k1) as [c|c].
  - rewrite b1, b2. assert (4 * k2 * EI < 4 * k1 * EI) by nra. split; split; intros hh; try lra.
  - rewrite a1, a2. assert (4 * k1 * EI <= 4 * k2 * EI) by nra. split; split; intros hh; try lra.
Qed.
