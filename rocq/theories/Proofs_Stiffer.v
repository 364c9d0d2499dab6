(** * Solutions of definite systems, and systems of different stiffness *)

From Coq Require Import Reals List Bool ZArith Arith Lia Lra.
From Verif Require Import Num PyBase Model_Geometry Model_System Spec_System Proofs_Dof Proofs_System Proofs_Generated Model_Element Spec_Element
  Model_Accumulation Model_Track Spec_Track Spec_Generated Proofs_Track Proofs_Assembly Props_Generated Spec_Motion Proofs_Motion Spec_Chain
  Spec_Renumber Proofs_Renumber Spec_Balance Proofs_Balance Props_Balance Spec_Stiffer.
Import ListNotations.
Local Open Scope R_scope.

(** ** definite matrices *)

Lemma sumn_last n (f : nat -> R) : sumn (S n) f = sumn n f + f n.
Proof. reflexivity. Qed.

Section Eliminate.
  Variables (n : nat) (m : nat -> nat -> R).
  Hypothesis hp : pos_def (S n) m.
  Let a := m n n.
  Let rest i j := m i j - m i n * m n j / a.

  Lemma pivot : 0 < a.
  Proof.
    assert (g : 0 < quad (S n) m (fun i => if Nat.eqb n i then 1 else 0)) by (apply hp; exists n; split; [lia|rewrite Nat.eqb_refl; lra]).
    rewrite quad_unit in g by lia. exact g.
  Qed.
  Lemma rest_mulv y i : mulv n rest y i = mulv n m y i - m i n / a * mulv n m y n.
  Proof.
    unfold mulv. rewrite <- sumn_scal. replace (sumn n (fun j => m i j * y j) - sumn n (fun j => m i n / a * (m n j * y j))) with (sumn n (fun j => m i j * y j) + sumn n (fun j => (-1) * (m i n / a * (m n j * y j)))) by (rewrite (sumn_scal n (-1)); ring).
    rewrite <- sumn_add. apply sumn_ext. intros j _. unfold rest, Rdiv. ring.
  Qed.
  Definition extended (y : nat -> R) (v : R) (i : nat) : R := if Nat.eqb n i then v else y i.
  Lemma extended_mulv y v i : mulv (S n) m (extended y v) i = mulv n m y i + m i n * v.
  Proof.
    unfold mulv. rewrite sumn_last. unfold extended at 2. rewrite Nat.eqb_refl. f_equal. apply sumn_ext. intros j hj. unfold extended. destruct (Nat.eqb_spec n j); [lia|reflexivity].
  Qed.
  Lemma rest_definite : pos_def n rest.
  Proof.
    intros y [k [hk hy]]. pose proof pivot as ha. set (v := - (mulv n m y n) / a).
    assert (g : 0 < quad (S n) m (extended y v)) by (apply hp; exists k; split; [lia|]; unfold extended; destruct (Nat.eqb_spec n k); [lia|exact hy]).
    rewrite quad_mulv, sumn_last, extended_mulv in g. fold a in g. replace (mulv n m y n + a * v) with 0 in g by (unfold v; field; lra).
    rewrite quad_mulv. rewrite (sumn_ext n _ (fun i => extended y v i * mulv (S n) m (extended y v) i)); [lra|].
    intros i hi. rewrite extended_mulv, rest_mulv. unfold extended. destruct (Nat.eqb_spec n i); [lia|]. unfold v. field. lra.
  Qed.
  Lemma back_substitute f y : (forall i, (i < n)%nat -> mulv n rest y i = f i - m i n / a * f n) ->
    forall i, (i < S n)%nat -> mulv (S n) m (extended y ((f n - mulv n m y n) / a)) i = f i.
  Proof.
    intros h i hi. pose proof pivot as ha. rewrite extended_mulv. destruct (Nat.eq_dec i n) as [->|ne]; [fold a; field; lra|].
    specialize (h i ltac:(lia)). rewrite rest_mulv in h. replace (mulv n m y i) with (f i - m i n / a * f n + m i n / a * mulv n m y n) by lra. field. lra.
  Qed.
End Eliminate.

Lemma definite_solves n : forall m, pos_def n m -> forall f, exists x, forall i, (i < n)%nat -> mulv n m x i = f i.
Proof.
  induction n as [|n IH]; intros m hp f; [exists (fun _ => 0); intros; lia|].
  destruct (IH _ (rest_definite n m hp) (fun i => f i - m i n / m n n * f n)) as [y hy].
  eexists. exact (back_substitute n m hp f y hy).
Qed.

(** ** least work *)

Lemma quad_difference n m x y : msym n m -> quad n m (fun i => x i - y i) = quad n m x - 2 * work n (mulv n m x) y + quad n m y.
Proof.
  intros hs. rewrite !quad_work. rewrite (work_ext n _ (fun i => x i - y i) (fun i => mulv n m x i - mulv n m y i) (fun i => x i - y i)) by (intros; try apply mulv_diff; reflexivity).
  assert (g : forall a b c d, work n (fun i => a i - b i) (fun i => c i - d i) = work n a c - work n a d - work n b c + work n b d).
  { intros. unfold work. assert (z : forall f g : nat -> R, sumn n f - sumn n g = sumn n (fun i => f i - g i)).
    { intros f g. rewrite (sumn_ext n (fun i => f i - g i) (fun i => f i + (-1) * g i)) by (intros; ring). rewrite sumn_add, sumn_scal. ring. }
    rewrite !z, <- sumn_add. apply sumn_ext. intros. ring. }
  rewrite g, (work_sym n m y x hs). ring.
Qed.
Lemma least_work n m f x y : msym n m -> psd n m -> (forall i, (i < n)%nat -> mulv n m x i = f i) -> 2 * work n f y - quad n m y <= work n f x.
Proof.
  intros hs hp h. pose proof (hp (fun i => x i - y i)) as g. rewrite quad_difference in g by exact hs. rewrite (quad_work n m x) in g.
  rewrite (work_ext n (mulv n m x) x f x), (work_ext n (mulv n m x) y f y) in g by auto. lra.
Qed.

(** ** fields and vectors *)

Definition dirs3 : list dir := [DX; DY; DR].
Definition positions (n : nat) : list (nat * dir) := list_prod (seq 0 n) dirs3.
Definition holds (ns : list (node R)) (i : nat) (q : nat * dir) : bool := match number_of ns (fst q) (snd q) with Some k => Nat.eqb k i | None => false end.
Definition vector_of (ns : list (node R)) (v : nat -> dir -> R) (i : nat) : R :=
  match find (holds ns i) (positions (length ns)) with Some q => v (fst q) (snd q) | None => 0 end.
Lemma vector_field ns n v : numbered ns n -> (forall p d, number_of ns p d = None -> v p d = 0) -> forall p d, field_of ns (vector_of ns v) p d = v p d.
Proof.
  intros hn h0 p d. unfold field_of. destruct (number_of ns p d) as [k|] eqn:e; [|symmetry; apply h0; exact e].
  unfold vector_of. destruct (find (holds ns k) (positions (length ns))) as [[p' d']|] eqn:ef.
  - apply find_some in ef. destruct ef as [_ g]. unfold holds in g. cbn [fst snd] in *. destruct (number_of ns p' d') as [k'|] eqn:e'; [|discriminate]. apply Nat.eqb_eq in g. subst k'.
    destruct (numbered_inj _ _ _ _ _ _ _ hn e e') as [<- <-]. reflexivity.
  - exfalso. assert (g : holds ns k (p, d) = false).
    { apply (find_none _ _ ef). apply in_prod; [apply in_seq; pose proof (number_of_bound _ _ _ _ e); lia|destruct d; cbn; auto]. }
    unfold holds in g. cbn [fst snd] in g. rewrite e, Nat.eqb_refl in g. discriminate.
Qed.

(** the work of the force vector is that of the loads *)
Lemma forces_work ns ps ls cs da s ns' k x : initialise_system ns ps ls cs da = Ok (s, ns', k) -> Forall plain_load ls ->
  work k (fun i => nth i (gF s) 0) x = load_work ls (field_of ns' x).
Proof.
  intros h hp. pose proof (loads_in_range _ _ _ _ _ _ _ _ h) as hb. pose proof (plain_forces _ _ _ _ _ _ _ _ h hb hp) as hf.
  destruct (initialise_inv _ _ _ _ _ _ _ _ h) as [s0 [_ [e0 _]]]. destruct (initialise_kept _ _ _ _ _ _ _ _ _ h e0) as [hl [hnum _]].
  unfold work. rewrite (dsum_numbers ns' k _ hnum).
  transitivity (nsum (map (fun p => nsum (map (fun l => nsum (map (fun d => load_force l p d * field_of ns' x p d) dirs3)) ls)) (seq 0 (length ns')))).
  - unfold dsum. rewrite <- nsum_map_seq. apply nsum_map_ext. intros p _. rewrite nsum_swap. cbn [dirs3 map nsum]. rnum.
    assert (g : forall d, (match number_of ns' p d with Some i => nth i (gF s) 0 * x i | None => 0 end) = nsum (map (fun l => load_force l p d * field_of ns' x p d) ls)).
    { intros d. unfold field_of. destruct (number_of ns' p d) as [i|] eqn:e.
      - rewrite (hf p d i e). clear. induction ls as [|l ls IH]; cbn [map nsum]; rnum; [ring|]. rewrite <- IH. ring.
      - symmetry. apply nsum_zero. intros. ring. }
    rewrite !g. ring.
  - rewrite nsum_swap. unfold load_work. apply nsum_map_ext. intros l hin. unfold load_force.
    transitivity (nsum (map (fun p => nsum (map (fun q => nsum (map (fun d => if (tget (ld_flag l) d && Nat.eqb (fst q) p)%bool then tget (snd q) d * field_of ns' x p d else 0) dirs3)) (combine (ld_nodes l) (ld_vals l)))) (seq 0 (length ns')))).
    { apply nsum_map_ext. intros p _. rewrite nsum_swap. apply nsum_map_ext. intros d _. induction (combine (ld_nodes l) (ld_vals l)) as [|q r IH]; cbn [map nsum]; rnum; [ring|]. rewrite <- IH. destruct (_ && _)%bool; ring. }
    rewrite nsum_swap. apply nsum_map_ext. intros [q v] hq. cbn [fst snd]. apply in_combine_l in hq. specialize (hb l q hin hq). rewrite <- hl in hb. rewrite nsum_swap. apply nsum_map_ext. intros d _.
    destruct (tget (ld_flag l) d); cbn [andb]; [|apply nsum_zero; reflexivity].
    rewrite <- (nsum_pick (length ns') q (tget v d * field_of ns' x q d) hb) at 1. apply nsum_map_ext. intros p _. destruct (Nat.eqb_spec q p) as [->|]; reflexivity.
Qed.
