(** * Lemmas about motions of a system *)

From Coq Require Import Reals List Bool ZArith Arith Lia Lra.
From Verif Require Import Num PyBase Model_Geometry Model_System Spec_System Proofs_Dof Proofs_System Model_Element Spec_Element
  Proofs_Elements Proofs_Element Proofs_Beam Proofs_Force Model_Accumulation Proofs_Accumulation Model_Track Spec_Track Proofs_Track Proofs_Assembly
  Spec_Analytic Spec_Motion.
Import ListNotations.
Local Open Scope R_scope.

Lemma derivative_sumn n (f g : R -> nat -> R) : (forall i, (i < n)%nat -> derivative (fun t => f t i) (fun t => g t i)) ->
  derivative (fun t => sumn n (f t)) (fun t => sumn n (g t)).
Proof.
  induction n as [|n IH]; intros h x; cbn [sumn]; rnum.
  - apply derivable_pt_lim_const.
  - apply (derivable_pt_lim_plus (fun t => sumn n (f t)) (fun t => f t n)); [apply IH; intros i hi; apply h; lia|apply h; lia].
Qed.

Lemma derivative_ext (f f' g g' : R -> R) : (forall t, f t = f' t) -> (forall t, g t = g' t) -> derivative f g -> derivative f' g'.
Proof.
  intros hf hg h x. rewrite <- hg. specialize (h x). intros eps he. destruct (h eps he) as [d hd]. exists d. intros k h1 h2. rewrite <- !hf. apply hd; assumption.
Qed.

Lemma mulv_sum n m (x y : nat -> R) i : mulv n m (fun j => x j + y j) i = mulv n m x i + mulv n m y i.
Proof. unfold mulv. rewrite <- sumn_add. apply sumn_ext. intros j hj. ring. Qed.

Lemma mulv_diff n m (x y : nat -> R) i : mulv n m (fun j => x j - y j) i = mulv n m x i - mulv n m y i.
Proof.
  unfold mulv. transitivity (sumn n (fun j => m i j * x j + (-1) * (m i j * y j))); [apply sumn_ext; intros; ring|].
  rewrite sumn_add, sumn_scal. ring.
Qed.

Lemma mulv_scaled n m c (x : nat -> R) i : mulv n m (fun j => c * x j) i = c * mulv n m x i.
Proof. unfold mulv. rewrite <- sumn_scal. apply sumn_ext. intros j hj. ring. Qed.

Lemma work_swap n x y : work n x y = work n y x.
Proof. unfold work. apply sumn_ext. intros. ring. Qed.

Lemma work_add n x y z : work n (fun i => x i + y i) z = work n x z + work n y z.
Proof. unfold work. rewrite <- sumn_add. apply sumn_ext. intros. ring. Qed.

Lemma work_ext n x y x' y' : (forall i, (i < n)%nat -> x i = x' i) -> (forall i, (i < n)%nat -> y i = y' i) -> work n x y = work n x' y'.
Proof. intros h1 h2. unfold work. apply sumn_ext. intros i hi. rewrite h1, h2 by exact hi. reflexivity. Qed.

(** a symmetric matrix works both ways *)
Lemma work_sym n m x y : msym n m -> work n (mulv n m x) y = work n (mulv n m y) x.
Proof.
  intros h. unfold work, mulv.
  transitivity (sumn n (fun i => sumn n (fun j => m i j * x j * y i))); [apply sumn_ext; intros i hi; rewrite sumn_scal_r; reflexivity|].
  rewrite sumn_swap. apply sumn_ext. intros i hi. rewrite <- sumn_scal_r. apply sumn_ext. intros j hj. rewrite (h j i) by assumption. ring.
Qed.

Lemma quad_work n m x : quad n m x = work n (mulv n m x) x.
Proof. rewrite quad_mulv. unfold work. apply sumn_ext. intros. ring. Qed.

Lemma derivative_quad n m (u v : R -> nat -> R) : msym n m -> (forall i, (i < n)%nat -> derivative (fun t => u t i) (fun t => v t i)) ->
  derivative (fun t => quad n m (u t)) (fun t => 2 * work n (mulv n m (u t)) (v t)).
Proof.
  intros hs hu. unfold quad.
  apply (derivative_ext (fun t => sumn n (fun i => sumn n (fun j => u t i * m i j * u t j))) _
          (fun t => sumn n (fun i => sumn n (fun j => v t i * m i j * u t j + u t i * m i j * v t j)))); [reflexivity| |].
  - intros t. transitivity (work n (mulv n m (u t)) (v t) + work n (mulv n m (v t)) (u t)).
    + unfold work. rewrite <- sumn_add. apply sumn_ext. intros i hi. unfold mulv. rewrite <- !sumn_scal_r, <- sumn_add. apply sumn_ext. intros j hj. ring.
    + rewrite (work_sym n m (v t) (u t) hs). ring.
  - apply (derivative_sumn n (fun t i => sumn n (fun j => u t i * m i j * u t j))). intros i hi.
    apply (derivative_sumn n (fun t j => u t i * m i j * u t j)). intros j hj t.
    pose proof (derivable_pt_lim_mult (fun t => u t i * m i j) (fun t => u t j) t (v t i * m i j) (v t j)) as g.
    replace (v t i * m i j * u t j + u t i * m i j * v t j) with (v t i * m i j * u t j + u t i * m i j * v t j) by ring.
    apply g; [|apply hu; exact hj].
    pose proof (derivable_pt_lim_mult (fun t => u t i) (fun _ => m i j) t (v t i) 0) as g1. cbv beta in g1.
    replace (v t i * m i j) with (v t i * m i j + u t i * 0) by ring. apply g1; [apply hu; exact hi|apply derivable_pt_lim_const].
Qed.

(** a function whose derivative is not positive between two times does not grow *)
Lemma not_growing (f g : R -> R) t1 t2 : derivative f g -> t1 <= t2 -> (forall t, t1 < t < t2 -> g t <= 0) -> f t2 <= f t1.
Proof.
  intros h h12 hg. destruct (Req_dec t1 t2) as [->|ne]; [lra|].
  destruct (MVT_cor2 f g t1 t2) as [c [e hc]]; [lra|intros c _; apply h|]. specialize (hg c hc).
  assert (g c * (t2 - t1) <= 0 * (t2 - t1)) by (apply Rmult_le_compat_r; lra). lra.
Qed.

Lemma constant_between (f g : R -> R) t1 t2 : derivative f g -> t1 <= t2 -> (forall t, t1 < t < t2 -> g t = 0) -> f t2 = f t1.
Proof.
  intros h h12 hg. destruct (Req_dec t1 t2) as [->|ne]; [lra|].
  destruct (MVT_cor2 f g t1 t2) as [c [e hc]]; [lra|intros c _; apply h|]. rewrite (hg c hc) in e. lra.
Qed.

Section Given.
  Variables (n : nat) (s : gsys R).
  Hypothesis sym_k : msym n (me (gK s)).
  Hypothesis sym_m : msym n (me (gM s)).

  (** power balance *)
  Lemma power f u v a : motion n s f u v a ->
    derivative (fun t => (quad n (me (gM s)) (v t) + quad n (me (gK s)) (u t)) / 2) (fun t => work n (f t) (v t) - quad n (me (gC s)) (v t)).
  Proof.
    intros [hu [hv he]]. pose proof (derivative_quad n _ v a sym_m hv) as d1. pose proof (derivative_quad n _ u v sym_k hu) as d2.
    apply (derivative_ext (fun t => / 2 * (quad n (me (gM s)) (v t) + quad n (me (gK s)) (u t))) _
      (fun t => / 2 * (2 * work n (mulv n (me (gM s)) (v t)) (a t) + 2 * work n (mulv n (me (gK s)) (u t)) (v t)))).
    - intros t. lra.
    - intros t. rewrite quad_work.
      assert (e : work n (f t) (v t) = work n (mulv n (me (gM s)) (a t)) (v t) + work n (mulv n (me (gC s)) (v t)) (v t) + work n (mulv n (me (gK s)) (u t)) (v t)).
      { rewrite <- !work_add. apply work_ext; [|reflexivity]. intros i hi. rewrite <- (he t i hi). reflexivity. }
      rewrite e, (work_sym n _ (v t) (a t) sym_m). lra.
    - intros t. apply (derivable_pt_lim_scal (fun t => quad n (me (gM s)) (v t) + quad n (me (gK s)) (u t))).
      apply (derivable_pt_lim_plus (fun t => quad n (me (gM s)) (v t)) (fun t => quad n (me (gK s)) (u t))); [apply d1|apply d2].
  Qed.

  (** differences and combinations of motions *)
  Lemma motion_diff f1 u1 v1 a1 f2 u2 v2 a2 : motion n s f1 u1 v1 a1 -> motion n s f2 u2 v2 a2 ->
    motion n s (fun t i => f1 t i - f2 t i) (fun t i => u1 t i - u2 t i) (fun t i => v1 t i - v2 t i) (fun t i => a1 t i - a2 t i).
  Proof.
    intros [hu [hv he]] [gu [gv ge]]. split; [|split].
    - intros i hi t. apply (derivable_pt_lim_minus (fun t => u1 t i) (fun t => u2 t i)); [apply hu|apply gu]; exact hi.
    - intros i hi t. apply (derivable_pt_lim_minus (fun t => v1 t i) (fun t => v2 t i)); [apply hv|apply gv]; exact hi.
    - intros t i hi. rewrite !mulv_diff. rewrite <- (he t i hi), <- (ge t i hi). ring.
  Qed.

  Lemma motion_combined c1 c2 f1 u1 v1 a1 f2 u2 v2 a2 : motion n s f1 u1 v1 a1 -> motion n s f2 u2 v2 a2 ->
    motion n s (fun t i => c1 * f1 t i + c2 * f2 t i) (fun t i => c1 * u1 t i + c2 * u2 t i) (fun t i => c1 * v1 t i + c2 * v2 t i) (fun t i => c1 * a1 t i + c2 * a2 t i).
  Proof.
    intros [hu [hv he]] [gu [gv ge]]. split; [|split].
    - intros i hi t. apply (derivable_pt_lim_plus (fun t => c1 * u1 t i) (fun t => c2 * u2 t i));
        [apply (derivable_pt_lim_scal (fun t => u1 t i)), hu|apply (derivable_pt_lim_scal (fun t => u2 t i)), gu]; exact hi.
    - intros i hi t. apply (derivable_pt_lim_plus (fun t => c1 * v1 t i) (fun t => c2 * v2 t i));
        [apply (derivable_pt_lim_scal (fun t => v1 t i)), hv|apply (derivable_pt_lim_scal (fun t => v2 t i)), gv]; exact hi.
    - intros t i hi. rewrite !mulv_sum, !mulv_scaled. rewrite <- (he t i hi), <- (ge t i hi). ring.
  Qed.
End Given.
