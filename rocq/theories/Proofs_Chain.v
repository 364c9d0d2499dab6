(** * A straight chain of beam elements under point forces *)

From Coq Require Import Reals List Bool ZArith Arith Lia Lra Psatz.
From Verif Require Import Num PyBase Model_Geometry Model_System Spec_System Proofs_Dof Proofs_System Model_Element Spec_Element
  Proofs_Elements Proofs_Element Proofs_Beam Proofs_Force Model_Accumulation Proofs_Accumulation
  Model_Track Spec_Track Spec_Chain Proofs_Track Proofs_Assembly Proofs_Generated.
Import ListNotations.
Local Open Scope R_scope.

(** ** forms with two arguments *)

Lemma quad_plus n m x y : msym n m ->
  quad n m (fun i => x i + y i) = quad n m x + quad n m y + 2 * sumn n (fun i => y i * mulv n m x i).
Proof.
  intros hs. rewrite !quad_mulv.
  assert (e : forall i, mulv n m (fun i => x i + y i) i = mulv n m x i + mulv n m y i).
  { intros i. unfold mulv. rewrite <- sumn_add. apply sumn_ext. intros. rnum. ring. }
  rewrite (sumn_ext n _ (fun i => (x i * mulv n m x i + y i * mulv n m y i) + (y i * mulv n m x i + x i * mulv n m y i))) by (intros i hi; rewrite e; ring).
  rewrite !sumn_add.
  assert (e2 : sumn n (fun i => x i * mulv n m y i) = sumn n (fun i => y i * mulv n m x i)).
  { unfold mulv. rewrite (sumn_ext n _ (fun i => sumn n (fun j => x i * (m i j * y j)))) by (intros i hi; rewrite <- sumn_scal; reflexivity).
    rewrite sumn_swap. apply sumn_ext. intros j hj. rewrite <- sumn_scal. apply sumn_ext. intros i hi. rewrite (hs i j hi hj). rnum. ring. }
  rewrite e2. rnum. ring.
Qed.

Lemma sumn_nsum n (f : nat -> R) : sumn n f = nsum (map f (seq 0 n)).
Proof. symmetry. apply nsum_map_seq. Qed.

Lemma telescope n (f : nat -> R) : sumn n (fun i => f (i + 1)%nat - f i) = f n - f 0%nat.
Proof. induction n as [|n IH]; cbn [sumn]; rnum; [ring|]. rewrite IH. replace (n + 1)%nat with (S n) by lia. ring. Qed.

Lemma two_slopes n j (a c : R) (f : nat -> R) : (j <= n)%nat ->
  sumn n (fun i => (if Nat.ltb i j then a else c) * (f (i + 1)%nat - f i)) = a * (f j - f 0%nat) + c * (f n - f j).
Proof.
  induction n as [|n IH]; intros hj.
  - replace j with 0%nat by lia. cbn. rnum. ring.
  - cbn [sumn]. replace (n + 1)%nat with (S n) by lia. destruct (Nat.eq_dec j (S n)) as [->|ne].
    + destruct (Nat.ltb_spec n (S n)); [|lia]. rewrite (sumn_ext n _ (fun i => a * (f (i + 1)%nat - f i))).
      * rewrite sumn_scal, telescope. rnum. ring.
      * intros i hi. destruct (Nat.ltb_spec i (S n)); [reflexivity|lia].
    + rewrite IH by lia. destruct (Nat.ltb_spec n j); [lia|]. rnum. ring.
Qed.

(** ** a vector with a given field *)

Definition vec_of (ns : list (node R)) (u : nat -> dir -> R) (k : nat) : R :=
  sumn (length ns) (fun p => nsum (map (fun d => match number_of ns p d with Some j => if Nat.eqb j k then u p d else 0 | None => 0 end) all_dirs)).

Lemma field_vec ns n u p d : numbered ns n -> number_of ns p d <> None -> field_of ns (vec_of ns u) p d = u p d.
Proof.
  intros hn hp. unfold field_of. destruct (number_of ns p d) as [k|] eqn:e; [|congruence]. clear hp. unfold vec_of.
  assert (hb : (p < length ns)%nat) by (eapply number_of_bound; eauto).
  rewrite (sumn_ext _ _ (fun q => if Nat.eqb p q then u p d else 0)); [apply (sumn_pick _ (fun _ => u p d)); exact hb|].
  intros q hq.
  assert (z : forall f, (q <> p \/ f <> d) -> match number_of ns q f with Some j => if Nat.eqb j k then u q f else 0 | None => 0 end = 0).
  { intros f hf. destruct (number_of ns q f) as [j|] eqn:ej; [|reflexivity]. destruct (Nat.eqb_spec j k) as [->|]; [|reflexivity].
    destruct (numbered_inj _ _ _ _ _ _ _ hn ej e) as [-> ->]. tauto. }
  destruct (Nat.eqb_spec p q) as [<-|ne].
  - cbn [all_dirs map nsum]. destruct d; rewrite ?(z DX), ?(z DY), ?(z DR) by (right; discriminate); rewrite e, Nat.eqb_refl; rnum; ring.
  - cbn [all_dirs map nsum]. rewrite !z by (left; congruence). rnum. ring.
Qed.

Section Chain.
  Variables (N : nat) (h : R) (ns : list (node R)) (b : beam R).
  Hypothesis hN : (1 <= N)%nat.
  Hypothesis hh : 0 < h.
  Hypothesis hns : straight_mesh N h ns.
  Hypothesis hb : good_beam h b.

  Let EI := b_E b * b_I b.
  Let EA := b_E b * b_A b.
  Let phi := timoshenko_factor 0 b.
  Let parts := [chain_part N b].

  Lemma chain_length : length ns = S N.
  Proof. exact (proj1 hns). Qed.
  Lemma chain_sound : sound_beam b.
  Proof. destruct hb as [h1 [h2 [h3 [h4 [h5 [h6 h7]]]]]]. unfold sound_beam. rewrite h2. auto 10. Qed.
  Lemma chain_phi : 0 <= phi.
  Proof. exact (timoshenko_nonneg b chain_sound). Qed.
  Lemma EIpos : 0 < EI.
  Proof. destruct hb as [h1 [h2 [h3 [h4 [h5 [h6 h7]]]]]]. apply Rmult_lt_0_compat; assumption. Qed.
  Lemma EApos : 0 < EA.
  Proof. destruct hb as [h1 [h2 [h3 [h4 [h5 [h6 h7]]]]]]. apply Rmult_lt_0_compat; assumption. Qed.

  Lemma chain_angle i : (i < N)%nat -> calculate_rotation1 (xy ns i, xy ns (i + 1)) = 0.
  Proof.
    intros hi. destruct hns as [hl [x0 [y0 hc]]]. unfold xy.
    destruct (nth_error ns i) as [a|] eqn:ea; [|apply nth_error_None in ea; lia].
    destruct (nth_error ns (i + 1)) as [c|] eqn:ec; [|apply nth_error_None in ec; lia].
    destruct (hc i a ea) as [a1 [a2 _]]. destruct (hc _ c ec) as [c1 [c2 _]]. rewrite a1, a2, c1, c2. apply rotation1_right. rewrite plus_INR. cbn [INR]. nra.
  Qed.

  Definition shear_gap (u : nat -> dir -> R) (i : nat) : R := u i DY - u (i + 1)%nat DY + h * (u i DR + u (i + 1)%nat DR) / 2.
  (** twice the energy of element [i], and the form with two fields *)
  Definition chain_form (u v : nat -> dir -> R) (i : nat) : R :=
    EA / h * ((u (i + 1)%nat DX - u i DX) * (v (i + 1)%nat DX - v i DX)) +
    EI / h * ((u (i + 1)%nat DR - u i DR) * (v (i + 1)%nat DR - v i DR)) +
    12 * EI / ((1 + phi) * (h * h * h)) * (shear_gap u i * shear_gap v i).

  Lemma chain_coefficients : 0 < EA / h /\ 0 < EI / h /\ 0 < 12 * EI / ((1 + phi) * (h * h * h)).
  Proof.
    pose proof chain_phi. pose proof EIpos. pose proof EApos. pose proof (Rmult_lt_0_compat _ _ hh hh) as h2. pose proof (Rmult_lt_0_compat _ _ h2 hh) as h3.
    split; [apply Rdiv_lt_0_compat; assumption|]. split; [apply Rdiv_lt_0_compat; assumption|].
    apply Rdiv_lt_0_compat; [lra|]. apply Rmult_lt_0_compat; [lra|exact h3].
  Qed.

  Lemma chain_element u i : (i < N)%nat ->
    quad 6 (beam_stiffness b phi) (local6 0 u i (i + 1)) = chain_form u u i.
  Proof.
    intros hi. destruct hb as [h1 [h2 [h3 [h4 [h5 [h6 h7]]]]]].
    destruct (beam_fixed_spec b phi h1 h3 h4 h5 ltac:(rewrite h2; exact hh) chain_phi) as [_ [_ [_ [_ hz]]]].
    rewrite hz. unfold local6, along, across. cbn [vec6]. rewrite cos_0, sin_0, h2. unfold chain_form, shear_gap, EI, EA. f_equal; [f_equal|]; f_equal; ring.
  Qed.

  Lemma chain_energy u : nsum (map (fun p => part_form aux_stiffness ns u (settled ns p)) parts) = sumn N (chain_form u u).
  Proof.
    unfold parts, chain_part, settled. cbn [map nsum ep_kind ep_nodes]. unfold part_form. cbn [ep_kind ep_els aux_stiffness]. rewrite map_map, sumn_nsum.
    rewrite (nsum_map_ext _ (chain_form u u)); [rnum; ring|]. intros i hi. apply in_seq in hi. cbn [fst snd element_form].
    rewrite chain_angle by lia. apply chain_element. lia.
  Qed.

  Lemma chain_shaped : Forall shaped parts.
  Proof. unfold parts, chain_part. repeat constructor. unfold shaped. cbn [ep_kind ep_els]. destruct N; [lia|discriminate]. Qed.
  Lemma chain_sounds : Forall (fun p => sound (settled ns p)) parts.
  Proof. unfold parts, chain_part. constructor; [exact chain_sound|constructor]. Qed.

  Lemma form_plus u v i : chain_form (fun p d => u p d + v p d) (fun p d => u p d + v p d) i = chain_form u u i + chain_form v v i + 2 * chain_form u v i.
  Proof. unfold chain_form, shear_gap. unfold Rdiv. ring. Qed.
  Lemma form_nonneg u i : 0 <= chain_form u u i.
  Proof.
    destruct chain_coefficients as [c1 [c2 c3]]. unfold chain_form.
    apply Rplus_le_le_0_compat; [apply Rplus_le_le_0_compat|]; apply scaled_square; lra.
  Qed.
  Lemma form_zero u i : chain_form u u i = 0 ->
    u (i + 1)%nat DX = u i DX /\ u (i + 1)%nat DR = u i DR /\ u (i + 1)%nat DY = u i DY + h * u i DR.
  Proof.
    destruct chain_coefficients as [h1 [h2 h3]]. unfold chain_form.
    set (v1 := u (i + 1)%nat DX - u i DX). set (v2 := u (i + 1)%nat DR - u i DR). set (v3 := shear_gap u i). intros e.
    pose proof (scaled_square _ v1 (Rlt_le _ _ h1)) as g1. pose proof (scaled_square _ v2 (Rlt_le _ _ h2)) as g2. pose proof (scaled_square _ v3 (Rlt_le _ _ h3)) as g3.
    assert (z1 : v1 = 0) by (apply (square_zero _ _ h1); lra). assert (z2 : v2 = 0) by (apply (square_zero _ _ h2); lra). assert (z3 : v3 = 0) by (apply (square_zero _ _ h3); lra).
    unfold v1, v2, v3, shear_gap in *. split; [lra|]. split; [lra|]. replace (u (i + 1)%nat DR) with (u i DR) in z3 by lra. lra.
  Qed.
  Lemma form_ext u u' v v' i : (i < N)%nat -> (forall p d, (p <= N)%nat -> u p d = u' p d) -> (forall p d, (p <= N)%nat -> v p d = v' p d) ->
    chain_form u v i = chain_form u' v' i.
  Proof. intros hi h1 h2. unfold chain_form, shear_gap. rewrite !h1, !h2 by lia. reflexivity. Qed.

  (** ** the assembled system *)
  Variables (ls : list (load R)) (cs : list (list nat * tri bool)) (da : damping R) (s : gsys R) (ns' : list (node R)) (k : nat).
  Hypothesis hinit : initialise_system ns parts ls cs da = Ok (s, ns', k).

  Lemma chain_numbers : length ns' = S N /\ numbered ns' k.
  Proof.
    destruct (initialise_inv _ _ _ _ _ _ _ _ hinit) as [s0 [_ [e0 _]]]. destruct (initialise_kept _ _ _ _ _ _ _ _ _ hinit e0) as [hl [hnum _]].
    rewrite hl, chain_length. auto.
  Qed.
  Lemma chain_place i : (i < k)%nat -> exists p d, (p <= N)%nat /\ number_of ns' p d = Some i.
  Proof.
    destruct chain_numbers as [hl hnum]. intros hi. assert (g : In i (all_numbers ns')) by (rewrite hnum; apply in_seq; lia).
    apply all_numbers_In in g. destruct g as [p [d hp]]. exists p, d. split; [|exact hp].
    assert (p < length ns')%nat by (eapply number_of_bound; eauto). lia.
  Qed.
  Lemma chain_below p d i : number_of ns' p d = Some i -> (i < k)%nat.
  Proof. destruct chain_numbers as [_ hnum]. intros hp. assert (g : In i (all_numbers ns')) by (apply all_numbers_In; eauto). rewrite hnum in g. apply in_seq in g. lia. Qed.

  Lemma field_add x y p d : field_of ns' (fun i => x i + y i) p d = field_of ns' x p d + field_of ns' y p d.
  Proof. unfold field_of. destruct (number_of ns' p d); ring. Qed.

  Lemma virtual_work x y : sumn k (fun i => y i * mulv k (me (gK s)) x i) = sumn N (chain_form (field_of ns' x) (field_of ns' y)).
  Proof.
    destruct (initialise_sym _ _ _ _ _ _ _ _ chain_shaped chain_sounds hinit) as [hsym _].
    pose proof (quad_plus k (me (gK s)) x y hsym) as e.
    destruct (initialise_energy _ _ _ _ _ _ _ _ (fun i => x i + y i) chain_shaped hinit) as [e1 _].
    destruct (initialise_energy _ _ _ _ _ _ _ _ x chain_shaped hinit) as [e2 _].
    destruct (initialise_energy _ _ _ _ _ _ _ _ y chain_shaped hinit) as [e3 _].
    rewrite e1, e2, e3, !chain_energy in e. clear e1 e2 e3.
    rewrite (sumn_ext N (chain_form (field_of ns' (fun i => x i + y i)) _)
      (fun i => (chain_form (field_of ns' x) (field_of ns' x) i + chain_form (field_of ns' y) (field_of ns' y) i) + 2 * chain_form (field_of ns' x) (field_of ns' y) i)) in e.
    - rewrite !sumn_add, sumn_scal in e. rnum. lra.
    - intros i hi. rewrite <- form_plus. apply form_ext; [exact hi| |]; intros; apply field_add.
  Qed.

  (** the field of the unit vector of degree of freedom [i] *)
  Lemma mulv_virtual x i p d : number_of ns' p d = Some i ->
    mulv k (me (gK s)) x i = sumn N (chain_form (field_of ns' x) (fun q e => match number_of ns' q e with Some j => if Nat.eqb i j then 1 else 0 | None => 0 end)).
  Proof.
    intros hp. pose proof (virtual_work x (fun j => if Nat.eqb i j then 1 else 0)) as e.
    rewrite (sumn_ext k _ (fun j => if Nat.eqb i j then mulv k (me (gK s)) x j else 0)) in e by (intros j hj; destruct (Nat.eqb i j); ring).
    rewrite sumn_pick in e by (eapply chain_below; eauto). exact e.
  Qed.

  (** a field without energy is a rigid motion *)
  Lemma chain_rigid x : quad k (me (gK s)) x = 0 -> forall p, (p <= N)%nat ->
    field_of ns' x p DX = field_of ns' x 0 DX /\ field_of ns' x p DR = field_of ns' x 0 DR /\
    field_of ns' x p DY = field_of ns' x 0 DY + INR p * (h * field_of ns' x 0 DR).
  Proof.
    intros e. destruct (initialise_energy _ _ _ _ _ _ _ _ x chain_shaped hinit) as [he _]. rewrite e, chain_energy, sumn_nsum in he. symmetry in he.
    set (u := field_of ns' x) in *.
    assert (z : forall i, (i < N)%nat -> chain_form u u i = 0).
    { intros i hi. apply (nsum_nonneg_zero (chain_form u u) (seq 0 N)); [intros; apply form_nonneg|exact he|apply in_seq; lia]. }
    induction p as [|p IH]; intros hp; [cbn; split; [reflexivity|split; [reflexivity|ring]]|].
    destruct IH as [i1 [i2 i3]]; [lia|]. destruct (form_zero u p (z p ltac:(lia))) as [g1 [g2 g3]]. replace (p + 1)%nat with (S p) in * by lia.
    rewrite g1, g2, g3, i1, i2, i3, S_INR. split; [reflexivity|split; [reflexivity|ring]].
  Qed.

  (** solutions are determined when rigid motions are prevented *)
  Lemma chain_unique x y : number_of ns' 0 DX = None -> number_of ns' 0 DY = None -> number_of ns' 0 DR = None \/ number_of ns' N DY = None ->
    (forall i, (i < k)%nat -> mulv k (me (gK s)) x i = mulv k (me (gK s)) y i) -> forall p d, (p <= N)%nat -> field_of ns' x p d = field_of ns' y p d.
  Proof.
    intros hx hy hr e p d hp. set (z := fun i => x i + (-1) * y i).
    assert (hz : quad k (me (gK s)) z = 0).
    { rewrite quad_mulv. apply sumn_0. intros i hi. replace (mulv k (me (gK s)) z i) with (mulv k (me (gK s)) x i - mulv k (me (gK s)) y i); [rewrite (e i hi); ring|].
      unfold mulv, z. rewrite (sumn_ext k (fun j => me (gK s) i j * (x j + -1 * y j)) (fun j => me (gK s) i j * x j + (-1) * (me (gK s) i j * y j))) by (intros; ring).
      rewrite sumn_add, sumn_scal. rnum. ring. }
    assert (hf : forall q f, field_of ns' z q f = field_of ns' x q f - field_of ns' y q f) by (intros q f; unfold field_of, z; destruct (number_of ns' q f); ring).
    assert (x0 : field_of ns' z 0 DX = 0) by (unfold field_of; rewrite hx; reflexivity).
    assert (y0 : field_of ns' z 0 DY = 0) by (unfold field_of; rewrite hy; reflexivity).
    assert (r0 : field_of ns' z 0 DR = 0).
    { destruct hr as [hr|hr]; [unfold field_of; rewrite hr; reflexivity|]. destruct (chain_rigid z hz N ltac:(lia)) as [_ [_ g]].
      assert (yN : field_of ns' z N DY = 0) by (unfold field_of; rewrite hr; reflexivity). rewrite y0, yN in g.
      assert (hn : 0 < INR N) by (apply lt_0_INR; lia). assert (g' : INR N * (h * field_of ns' z 0 DR) = 0) by lra.
      apply Rmult_integral in g'. destruct g' as [g'|g']; [lra|]. apply Rmult_integral in g'. destruct g'; [lra|assumption]. }
    destruct (chain_rigid z hz p hp) as [g1 [g2 g3]]. assert (field_of ns' z p d = 0); [|rewrite hf in *; lra].
    destruct d; [rewrite g1; exact x0|rewrite g3, y0, r0; ring|rewrite g2; exact r0].
  Qed.

  (** a field in balance with the loads is the field of a solution *)
  Lemma chain_solves (u : nat -> dir -> R) (f : nat -> dir -> R) :
    (forall p d, (p <= N)%nat -> number_of ns' p d = None -> u p d = 0) ->
    (forall p d i, number_of ns' p d = Some i -> nth i (gF s) 0 = f p d) ->
    (forall v, (forall p d, (p <= N)%nat -> number_of ns' p d = None -> v p d = 0) -> sumn N (chain_form u v) = dsum (S N) (fun p d => f p d * v p d)) ->
    exists x, (forall i, (i < k)%nat -> mulv k (me (gK s)) x i = nth i (gF s) 0) /\ forall p d, (p <= N)%nat -> field_of ns' x p d = u p d.
  Proof.
    intros h1 h2 h3. destruct chain_numbers as [hl hnum]. exists (vec_of ns' u).
    assert (hf : forall p d, (p <= N)%nat -> field_of ns' (vec_of ns' u) p d = u p d).
    { intros p d hp. destruct (number_of ns' p d) as [i|] eqn:e.
      - apply (field_vec ns' k); [exact hnum|congruence].
      - unfold field_of. rewrite e. symmetry. apply h1; assumption. }
    split; [|exact hf]. intros i hi. destruct (chain_place i hi) as [p [d [hp hpd]]]. rewrite (mulv_virtual _ i p d hpd), (h2 p d i hpd).
    set (v := fun (q : nat) (e : dir) => match number_of ns' q e with Some j => if Nat.eqb i j then 1 else 0 | None => 0 end).
    rewrite (sumn_ext N _ (chain_form u v)) by (intros j hj; apply form_ext; [exact hj| |]; intros; [apply hf; assumption|reflexivity]).
    rewrite h3 by (intros q e hq hn; unfold v; rewrite hn; reflexivity). unfold dsum.
    rewrite (sumn_ext (S N) _ (fun q => if Nat.eqb p q then f p d else 0)); [apply (sumn_pick _ (fun _ => f p d)); lia|].
    intros q hq.
    assert (z : forall e, (q <> p \/ e <> d) -> v q e = 0).
    { intros e he. unfold v. destruct (number_of ns' q e) as [j|] eqn:ej; [|reflexivity]. destruct (Nat.eqb_spec i j) as [<-|]; [|reflexivity].
      destruct (numbered_inj _ _ _ _ _ _ _ hnum ej hpd) as [-> ->]. tauto. }
    assert (o : v p d = 1) by (unfold v; rewrite hpd, Nat.eqb_refl; reflexivity).
    destruct (Nat.eqb_spec p q) as [<-|ne].
    - destruct d; rewrite ?(z DX), ?(z DY), ?(z DR) by (right; discriminate); rewrite o; ring.
    - rewrite !z by (left; congruence). ring.
  Qed.
End Chain.

(** ** the force vector of an assembled system *)

Lemma add_parts_force (ns : list (node R)) ps : forall s s', add_parts ns s ps = Ok s' -> gF s' = gF s.
Proof.
  induction ps as [|p ps IH]; intros s s' e; cbn [add_parts] in e; [injection e as <-; reflexivity|].
  apply rbind_ok in e. destruct e as [s1 [e1 e2]]. rewrite (IH _ _ e2). unfold add_part in e1.
  apply rbind_ok in e1. destruct e1 as [m1 [_ e1]]. apply rbind_ok in e1. destruct e1 as [m2 [_ e1]]. apply rbind_ok in e1. destruct e1 as [m3 [_ e1]].
  injection e1 as <-. reflexivity.
Qed.

Lemma initialise_force (ns : list (node R)) ps ls cs da s ns' n conds : initialise_system ns ps ls cs da = Ok (s, ns', n) ->
  mapr (load_cond (number_from 0 ns)) ls = Ok conds ->
  (forall c, In c conds -> length (c_vals c) = length (c_nodes c) /\ NoDup (part_dof_indices (c_flag c) (c_nodes c)) /\
     forall i, In i (part_dof_indices (c_flag c) (c_nodes c)) -> (i < 3 * length ns)%nat) ->
  forall p d i, number_of ns' p d = Some i -> nth i (gF s) 0 = nsum (map (fun c => cond_force c (3 * p + dir_idx d)) conds).
Proof.
  intros hi hc hok p d i hp.
  destruct (initialise_inv _ _ _ _ _ _ _ _ hi) as [s0 [st [e0 [hsq [ht hs]]]]].
  destruct (initialise_kept _ _ _ _ _ _ _ _ _ hi e0) as [hl [hnum _]].
  destruct (constrained_trim s0 (number_from 0 ns) cs _ hsq (from_numbered ns)) as [s' [m [k [g1 [g2 [g3 [g4 [g5 [g6 g7]]]]]]]]].
  rewrite ht in g1. injection g1 as <- <- <-.
  assert (hb : (p < length ns)%nat) by (rewrite <- hl; eapply number_of_bound; eauto).
  pose proof (number_of_from ns p d hb) as hk.
  destruct (g7 p d p d _ _ _ _ hk hp hk hp) as [hf _].
  assert (e1 : gF s = gF st) by (rewrite hs; unfold rayleigh_damping; destruct (da_on da); [destruct (rayleigh_factors _ _ _)|]; reflexivity).
  rewrite e1. rewrite (nth_error_nth' (gF st) 0) in hf.
  2:{ destruct g2 as [_ [_ [_ [_ [_ [_ ->]]]]]]. assert (g : In i (all_numbers ns')) by (apply all_numbers_In; eauto). rewrite hnum in g. apply in_seq in g. lia. }
  unfold assemble_system in e0. apply rbind_ok in e0. destruct e0 as [ps1 [_ e0]]. unfold initialise_ndof in e0. rewrite total_ndof in e0. cbn [Nat.add] in e0.
  apply rbind_ok in e0. destruct e0 as [s1 [e2 e0]]. rewrite hc in e0. cbn [rbind] in e0. injection e0 as <-. cbn [gF] in hf.
  rewrite (add_parts_force _ _ _ _ e2) in hf. cbn [zero_system gF] in hf.
  destruct (rhs_spec (3 * length ns) conds hok) as [r1 r2]. unfold rhs in r1, r2.
  rewrite (nth_error_nth' _ 0) in hf by (rewrite r1; destruct d; lia). injection hf as ->. rewrite r2. reflexivity.
Qed.

Lemma vertical_force (ns : list (node R)) fs ps cs da s ns' n : initialise_system ns ps (vertical_loads fs) cs da = Ok (s, ns', n) ->
  (forall q, In q fs -> (fst q < length ns)%nat) ->
  forall p d i, number_of ns' p d = Some i ->
    nth i (gF s) 0 = nsum (map (fun q => match d with DY => if Nat.eqb (fst q) p then snd q else 0 | _ => 0 end) fs).
Proof.
  intros hi hb p d i hp.
  set (nd := fun j => match nth_error ns j with Some n => with_dof n (T3 (Some (0 + 3 * j)%nat) (Some (0 + 3 * j + 1)%nat) (Some (0 + 3 * j + 2)%nat)) | None => new_node 0 0 0 0 end).
  assert (hn : forall j, (j < length ns)%nat -> nth_error (number_from 0 ns) j = Some (nd j) /\ n_dof (nd j) = T3 (Some (3 * j)%nat) (Some (3 * j + 1)%nat) (Some (3 * j + 2)%nat)).
  { intros j hj. unfold nd. destruct (nth_error ns j) as [a|] eqn:e; [|apply nth_error_None in e; lia]. split; [apply number_from_nth; exact e|reflexivity]. }
  rewrite (initialise_force _ _ _ _ _ _ _ _ (map (fun q => mkCond (T3 false true false) [nd (fst q)] [T3 0 (snd q) 0]) fs) hi) with (p := p) (d := d).
  - rewrite map_map. apply nsum_map_ext. intros q hq. destruct (hn (fst q) (hb q hq)) as [_ e]. unfold cond_force.
    cbn [c_nodes c_vals c_flag combine map nsum all_dirs fst snd]. rewrite e. cbn [tget andb tx ty tr]. rnum.
    destruct d; cbn [dir_idx].
    + destruct (Nat.eqb_spec (3 * fst q + 1) (3 * p + 0)); [lia|]. ring.
    + destruct (Nat.eqb_spec (3 * fst q + 1) (3 * p + 1)), (Nat.eqb_spec (fst q) p); try lia; ring.
    + destruct (Nat.eqb_spec (3 * fst q + 1) (3 * p + 2)); [lia|]. ring.
  - unfold vertical_loads. clear hi. induction fs as [|q fs IH]; [reflexivity|]. cbn [map mapr]. unfold load_cond at 1. cbn [ld_nodes ld_flag ld_vals mapr].
    unfold node_at. rewrite (proj2 (at_idx_ok _ _ _) (proj1 (hn (fst q) (hb q (or_introl eq_refl))))). cbn [rbind]. rewrite IH by (intros; apply hb; right; assumption). reflexivity.
  - intros c hc. apply in_map_iff in hc. destruct hc as [q [<- hq]]. cbn [c_vals c_nodes c_flag]. split; [reflexivity|].
    destruct (hn (fst q) (hb q hq)) as [_ e]. specialize (hb q hq). unfold part_dof_indices. cbn. rewrite e. cbn. split; [repeat constructor; intros []|].
    intros j [<-|[]]. lia.
  - exact hp.
Qed.

Lemma factor_is_ratio h (b : beam R) : 0 < h -> good_beam h b -> timoshenko_factor 0 b = shear_ratio h b.
Proof.
  intros hh [h1 [h2 [h3 [h4 [h5 [h6 h7]]]]]]. unfold timoshenko_factor, shear_modulus, sq, shear_ratio, shear_stiffness. rnum. rewrite h2.
  destruct (nltbP 0 (b_shear_factor b)) as [c|c]; destruct (Rlt_dec 0 (b_shear_factor b)); try contradiction; [|reflexivity].
  field. repeat split; lra.
Qed.

Section Kept.
  Variables (N : nat) (h : R) (ns : list (node R)) (b : beam R).
  Hypothesis hN : (1 <= N)%nat.
  Hypothesis hh : 0 < h.
  Hypothesis hns : straight_mesh N h ns.
  Hypothesis hb : good_beam h b.
  Let phi := timoshenko_factor 0 b.
  Let parts := [chain_part N b].

  Lemma unit_self p d : unit_field p d p d = 1.
  Proof. unfold unit_field. rewrite Nat.eqb_refl. reflexivity. Qed.
  Lemma unit_off p d q e : p <> q \/ d <> e -> unit_field p d q e = 0.
  Proof.
    intros hc. unfold unit_field. destruct (Nat.eqb_spec (3 * p + dir_idx d) (3 * q + dir_idx e)) as [g|g]; [|reflexivity]. exfalso.
    destruct hc as [hc|hc]; [destruct d, e; cbn in g; lia|]. apply hc. destruct d, e; cbn in g; try reflexivity; lia.
  Qed.

  Lemma element_diag (m : nat -> nat -> R) p d i : quad 6 m (local6 0 (unit_field p d) i (i + 1)) =
    (if Nat.eqb p i then m (dir_idx d) (dir_idx d) else 0) + (if Nat.eqb p (i + 1) then m (3 + dir_idx d)%nat (3 + dir_idx d)%nat else 0).
  Proof.
    destruct (Nat.eqb_spec p i) as [->|c1]; [|destruct (Nat.eqb_spec p (i + 1)) as [->|c2]].
    - destruct (Nat.eqb_spec i (i + 1)); [lia|]. rewrite Rplus_0_r, <- (quad_unit 6 m (dir_idx d)) by (destruct d; cbn; lia). apply quad_ext_vec. intros j hj.
      unfold local6, along, across. rewrite cos_0, sin_0, !(unit_off i d (i + 1)) by (left; lia).
      destruct d; rewrite unit_self, ?(unit_off i DX i DY), ?(unit_off i DX i DR), ?(unit_off i DY i DX), ?(unit_off i DY i DR), ?(unit_off i DR i DX), ?(unit_off i DR i DY) by (right; discriminate);
        do 6 (destruct j as [|j]; [cbn; ring|]); lia.
    - rewrite Rplus_0_l, <- (quad_unit 6 m (3 + dir_idx d)%nat) by (destruct d; cbn; lia). apply quad_ext_vec. intros j hj.
      unfold local6, along, across. rewrite cos_0, sin_0, !(unit_off (i + 1) d i) by (left; lia).
      destruct d; rewrite unit_self, ?(unit_off (i + 1) DX (i + 1) DY), ?(unit_off (i + 1) DX (i + 1) DR), ?(unit_off (i + 1) DY (i + 1) DX), ?(unit_off (i + 1) DY (i + 1) DR), ?(unit_off (i + 1) DR (i + 1) DX), ?(unit_off (i + 1) DR (i + 1) DY) by (right; discriminate);
        do 6 (destruct j as [|j]; [cbn; ring|]); lia.
    - rewrite Rplus_0_r. transitivity (quad 6 m (fun _ => 0)).
      + apply quad_ext_vec. intros j hj. unfold local6, along, across. rewrite !(unit_off p d) by (left; lia). do 6 (destruct j as [|j]; [cbn; ring|]). lia.
      + unfold quad. apply sumn_0. intros a ha. apply sumn_0. intros c hc. ring.
  Qed.

  Lemma chain_diag aux m c p d : aux (KBeam b) = Some m -> m (dir_idx d) (dir_idx d) = c -> m (3 + dir_idx d)%nat (3 + dir_idx d)%nat = c -> (p <= N)%nat ->
    nsum (map (fun a => part_form aux ns (unit_field p d) (settled ns a)) parts) = (if Nat.ltb p N then c else 0) + (if Nat.ltb 0 p then c else 0).
  Proof.
    intros ha h1 h2 hp. unfold parts, chain_part, settled. cbn [map nsum ep_kind ep_nodes]. unfold part_form. cbn [ep_kind ep_els]. rewrite ha. rewrite map_map.
    rewrite (nsum_map_ext _ (fun i => (if Nat.eqb p i then c else 0) + (if Nat.eqb p (i + 1) then c else 0))).
    2:{ intros i hi. apply in_seq in hi. cbn [fst snd element_form]. rewrite (chain_angle N h ns) by (assumption || lia). rewrite element_diag, h1, h2. reflexivity. }
    rewrite nsum_map_seq, sumn_add. rnum. rewrite Rplus_0_r. f_equal.
    - destruct (Nat.ltb_spec p N) as [l|l]; [apply (sumn_pick _ (fun _ => c)); exact l|]. apply sumn_0. intros i hi. destruct (Nat.eqb_spec p i); [lia|reflexivity].
    - destruct (Nat.ltb_spec 0 p) as [l|l].
      + rewrite (sumn_ext N _ (fun i => if Nat.eqb (p - 1) i then c else 0)); [apply (sumn_pick _ (fun _ => c)); lia|]. intros i hi.
        destruct (Nat.eqb_spec p (i + 1)), (Nat.eqb_spec (p - 1) i); try lia; reflexivity.
      + apply sumn_0. intros i hi. destruct (Nat.eqb_spec p (i + 1)); [lia|reflexivity].
  Qed.

  Definition stiff_value (d : dir) : R := beam_stiffness b phi (dir_idx d) (dir_idx d).
  Definition mass_value (d : dir) : R := beam_mass b phi (dir_idx d) (dir_idx d).

  Lemma stiff_values d : beam_stiffness b phi (3 + dir_idx d)%nat (3 + dir_idx d)%nat = stiff_value d /\
    stiff_value DX = b_E b * b_A b / h /\ stiff_value DY = 12 * (b_E b * b_I b) / ((1 + phi) * (h * h * h)) /\
    stiff_value DR = b_E b * b_I b / h + 3 * (b_E b * b_I b) / ((1 + phi) * h).
  Proof.
    destruct hb as [h1 [h2 [h3 [h4 [h5 [h6 h7]]]]]]. pose proof (chain_phi h b hh hb) as hp. fold phi in hp.
    destruct (beam_fixed_spec b phi h1 h3 h4 h5 ltac:(rewrite h2; exact hh) hp) as [_ [_ [_ [_ hz]]]]. rewrite h2 in hz.
    assert (q : forall j, (j < 6)%nat -> beam_stiffness b phi j j = quad 6 (beam_stiffness b phi) (fun i => if Nat.eqb j i then 1 else 0)) by (intros; rewrite quad_unit by assumption; reflexivity).
    unfold stiff_value. split; [|split; [|split]].
    - destruct d; cbn [dir_idx Nat.add]; rewrite !q by lia; rewrite !hz; cbn [Nat.eqb]; field; repeat split; try lra.
    - cbn [dir_idx]. rewrite q by lia. rewrite hz. cbn [Nat.eqb]. field. repeat split; lra.
    - cbn [dir_idx]. rewrite q by lia. rewrite hz. cbn [Nat.eqb]. field. repeat split; lra.
    - cbn [dir_idx]. rewrite q by lia. rewrite hz. cbn [Nat.eqb]. field. repeat split; lra.
  Qed.

  Lemma mass_values d : beam_mass b phi (3 + dir_idx d)%nat (3 + dir_idx d)%nat = mass_value d /\
    b_rho b * b_A b * h / 3 <= mass_value DX /\ b_rho b * b_A b * h / 3 <= mass_value DY /\ b_rho b * b_A b * (h * h * h) / 120 <= mass_value DR.
  Proof.
    destruct hb as [h1 [h2 [h3 [h4 [h5 [h6 h7]]]]]]. pose proof (chain_phi h b hh hb) as hp. fold phi in hp.
    unfold mass_value. rewrite !beam_mass_entries by (destruct d; cbn; lia). unfold mass_entries. rewrite h2. split.
    - destruct d; cbn [dir_idx Nat.add trans_entries rot_entries]; reflexivity.
    - assert (hm : 0 <= b_rho b * b_A b) by (apply Rmult_le_pos; lra).
      assert (hq : 0 < (1 + phi) * (1 + phi)) by (apply Rmult_lt_0_compat; lra).
      assert (hi : 0 <= b_rho b * b_I b / (30 * ((1 + phi) * (1 + phi)) * h)) by (apply Rmult_le_pos; [apply Rmult_le_pos; lra|apply Rlt_le, Rinv_0_lt_compat; apply Rmult_lt_0_compat; lra]).
      set (c := b_rho b * b_I b / (30 * ((1 + phi) * (1 + phi)) * h)) in *. set (m := b_rho b * b_A b) in *.
      assert (hr : forall v, 0 <= v -> 0 <= (if Req_EM_T phi 0 then 0 else v * c)) by (intros v hv; destruct (Req_EM_T phi 0); [lra|apply Rmult_le_pos; assumption]).
      cbn [dir_idx trans_entries rot_entries].
      assert (r1 : 0 <= (if Req_EM_T phi 0 then 0 else 0 * c)) by (apply hr; lra).
      assert (r2 : 0 <= (if Req_EM_T phi 0 then 0 else 36 * c)) by (apply hr; lra).
      assert (r3 : 0 <= (if Req_EM_T phi 0 then 0 else (10 * (phi * phi) + 5 * phi + 4) * (h * h) * c)) by (apply hr; apply Rmult_le_pos; nra).
      split; [|split].
      + replace (70 * ((1 + phi) * (1 + phi)) * (m * h / (210 * ((1 + phi) * (1 + phi))))) with (m * h / 3) by (field; lra). lra.
      + assert (g : m * h / 3 <= (70 * (phi * phi) + 147 * phi + 78) * (m * h / (210 * ((1 + phi) * (1 + phi))))); [|lra].
        replace (m * h / 3) with (70 * ((1 + phi) * (1 + phi)) * (m * h / (210 * ((1 + phi) * (1 + phi))))) by (field; lra).
        apply Rmult_le_compat_r; [|nra]. apply Rmult_le_pos; [nra|apply Rlt_le, Rinv_0_lt_compat; lra].
      + assert (g : m * (h * h * h) / 120 <= (7 * (phi * phi) + 14 * phi + 8) * (h * h / 4) * (m * h / (210 * ((1 + phi) * (1 + phi))))); [|lra].
        replace (m * (h * h * h) / 120) with (7 * ((1 + phi) * (1 + phi)) * (h * h / 4) * (m * h / (210 * ((1 + phi) * (1 + phi))))) by (field; lra).
        apply Rmult_le_compat_r; [apply Rmult_le_pos; [nra|apply Rlt_le, Rinv_0_lt_compat; lra]|]. apply Rmult_le_compat_r; nra.
  Qed.

  Lemma chain_active p d : (p <= N)%nat -> active ns p d = true.
  Proof.
    intros hp. destruct hns as [hl [x0 [y0 hc]]]. unfold active. destruct (nth_error ns p) as [a|] eqn:e; [|apply nth_error_None in e; lia].
    destruct (hc p a e) as [_ [_ ->]]. destruct d; reflexivity.
  Qed.

  (** which degrees of freedom remain, in terms of the diagonals *)
  Lemma chain_remains ls cs da s ns' k p d : initialise_system ns parts ls cs da = Ok (s, ns', k) -> (p <= N)%nat ->
    let times v := (if Nat.ltb p N then v else 0) + (if Nat.ltb 0 p then v else 0) in
    (number_of ns' p d <> None <-> flag_after cs p d true = true /\ 1 / 100000000 < Rabs (times (mass_value d)) /\ 1 / 100000000 < Rabs (times (stiff_value d))).
  Proof.
    intros hi hp times. destruct (initialise_inv _ _ _ _ _ _ _ _ hi) as [s0 [_ [e0 _]]]. destruct (initialise_kept _ _ _ _ _ _ _ _ _ hi e0) as [hl [_ [hk _]]].
    assert (hlen : (p < length ns)%nat) by (rewrite (proj1 hns); lia). specialize (hk p d hlen). cbv zeta in hk. rewrite hk, chain_active by exact hp.
    assert (hsh : Forall shaped parts) by (unfold parts; eapply chain_shaped; eassumption).
    destruct (assemble_diag ns parts ls s0 _ p d hsh e0 hlen) as [k1 k2].
    change (match d with DX => 0%nat | DY => 1%nat | DR => 2%nat end) with (dir_idx d). rewrite k1, k2.
    rewrite (chain_diag aux_stiffness (beam_stiffness b phi) (stiff_value d) p d eq_refl eq_refl (proj1 (stiff_values d)) hp).
    rewrite (chain_diag aux_mass (beam_mass b phi) (mass_value d) p d eq_refl eq_refl (proj1 (mass_values d)) hp). reflexivity.
  Qed.

  Lemma chain_kept ls cs da s ns' k p d : above_tolerance h b -> initialise_system ns parts ls cs da = Ok (s, ns', k) -> (p <= N)%nat ->
    (number_of ns' p d <> None <-> flag_after cs p d true = true).
  Proof.
    intros ha hi hp. rewrite (chain_remains _ _ _ _ _ _ p d hi hp). destruct ha as [a1 [a2 [a3 [a4 a5]]]]. rewrite <- (factor_is_ratio h b hh hb) in a3. fold phi in a3.
    destruct hb as [h1 [h2 [h3 [h4 [h5 [h6 h7]]]]]]. pose proof (chain_phi h b hh hb) as hphi. fold phi in hphi.
    destruct (stiff_values d) as [_ [s1 [s2 s3]]]. destruct (mass_values d) as [_ [m1 [m2 m3]]].
    assert (g : 1 / 100000000 < mass_value d /\ 1 / 100000000 < stiff_value d).
    { destruct d; split; try lra. rewrite s3. assert (0 < 3 * (b_E b * b_I b) / ((1 + phi) * h)); [|lra].
      apply Rdiv_lt_0_compat; [|apply Rmult_lt_0_compat; lra]. apply Rmult_lt_0_compat; [lra|apply Rmult_lt_0_compat; assumption]. }
    destruct g as [g1 g2]. split; [tauto|]. intros hf. split; [exact hf|].
    destruct (Nat.ltb_spec p N), (Nat.ltb_spec 0 p); try lia; rewrite !Rabs_right by lra; lra.
  Qed.
End Kept.

(** ** exact solutions *)

Section Exact.
  Variables (N : nat) (h : R) (b : beam R).
  Hypothesis hN : (1 <= N)%nat.
  Hypothesis hh : 0 < h.
  Hypothesis hb : good_beam h b.
  Let EI := b_E b * b_I b.
  Let phi := timoshenko_factor 0 b.

  (** deflections and rotations that belong to curvatures [m] and third derivatives [q] *)
  Lemma exact_element (u v : nat -> dir -> R) (m q : nat -> R) i :
    u i DX = 0 -> u (i + 1)%nat DX = 0 -> u (i + 1)%nat DR - u i DR = h * (m i + m (i + 1)%nat) / 2 -> m (i + 1)%nat - m i = h * q i ->
    shear_gap h u i = q i * (1 + phi) * (h * h * h) / 12 ->
    chain_form h b u v i = EI * (m (i + 1)%nat * v (i + 1)%nat DR - m i * v i DR) - EI * q i * (v (i + 1)%nat DY - v i DY).
  Proof.
    intros x0 x1 hr hm hg. pose proof (chain_phi h b hh hb) as hp. fold phi in hp. unfold chain_form. rewrite x0, x1, hr, hg. fold phi EI.
    unfold shear_gap. replace (m (i + 1)%nat) with (m i + h * q i) by lra. field. lra.
  Qed.

  Lemma exact_sum (u v : nat -> dir -> R) (m : nat -> R) (j : nat) (ql qr : R) : (j <= N)%nat ->
    (forall p, (p <= N)%nat -> u p DX = 0) ->
    (forall i, (i < N)%nat -> u (i + 1)%nat DR - u i DR = h * (m i + m (i + 1)%nat) / 2 /\
       m (i + 1)%nat - m i = h * (if Nat.ltb i j then ql else qr) /\ shear_gap h u i = (if Nat.ltb i j then ql else qr) * (1 + phi) * (h * h * h) / 12) ->
    sumn N (chain_form h b u v) =
      EI * (m N * v N DR - m 0%nat * v 0%nat DR) - EI * ql * (v j DY - v 0%nat DY) - EI * qr * (v N DY - v j DY).
  Proof.
    intros hj hx he.
    rewrite (sumn_ext N _ (fun i => EI * (m (i + 1)%nat * v (i + 1)%nat DR - m i * v i DR) + (- EI) * ((if Nat.ltb i j then ql else qr) * (v (i + 1)%nat DY - v i DY)))).
    - rewrite sumn_add, !sumn_scal. rewrite (telescope N (fun i => m i * v i DR)), (two_slopes N j ql qr (fun i => v i DY) hj). rnum. ring.
    - intros i hi. destruct (he i hi) as [h1 [h2 h3]]. rewrite (exact_element u v m (fun i => if Nat.ltb i j then ql else qr) i); [rnum; ring|apply hx; lia|apply hx; lia|exact h1|exact h2|exact h3].
  Qed.

  Let len := INR N * h.
  Let at_ (p : nat) := INR p * h.

  (** two supports, force [f] at node [j] *)
  Definition sup_left (j : nat) (f x : R) (d : dir) : R :=
    let c := f * (len - at_ j) / (len * EI) in
    match d with
    | DX => 0
    | DY => c * x / 6 * (len * len - (len - at_ j) * (len - at_ j) - x * x) + c * x * (phi * (h * h) / 12)
    | DR => c / 6 * (len * len - (len - at_ j) * (len - at_ j) - 3 * (x * x))
    end.
  Definition sup_right (j : nat) (f x : R) (d : dir) : R :=
    let c := f * at_ j / (len * EI) in
    match d with
    | DX => 0
    | DY => c * (len - x) / 6 * (len * len - at_ j * at_ j - (len - x) * (len - x)) + c * (len - x) * (phi * (h * h) / 12)
    | DR => c / 6 * (3 * ((len - x) * (len - x)) - len * len + at_ j * at_ j)
    end.
  Definition sup_field (j : nat) (f : R) (p : nat) (d : dir) : R := if Nat.leb p j then sup_left j f (at_ p) d else sup_right j f (at_ p) d.
  Definition sup_moment (j : nat) (f : R) (p : nat) : R :=
    if Nat.leb p j then - (f * (len - at_ j) / (len * EI)) * at_ p else - (f * at_ j / (len * EI)) * (len - at_ p).

  Lemma len_pos : 0 < len.
  Proof. unfold len. apply Rmult_lt_0_compat; [apply lt_0_INR; lia|exact hh]. Qed.
  Lemma EI_pos : 0 < EI.
  Proof. exact (EIpos h b hb). Qed.

  Lemma sup_field_right j f p d : (j <= p)%nat -> sup_field j f p d = sup_right j f (at_ p) d.
  Proof.
    intros hp. unfold sup_field. destruct (Nat.leb_spec p j) as [c|c]; [|reflexivity]. assert (p = j) by lia. subst p.
    pose proof len_pos. pose proof EI_pos. unfold sup_left, sup_right. destruct d; field; lra.
  Qed.
  Lemma sup_moment_right j f p : (j <= p)%nat -> sup_moment j f p = - (f * at_ j / (len * EI)) * (len - at_ p).
  Proof.
    intros hp. unfold sup_moment. destruct (Nat.leb_spec p j) as [c|c]; [|reflexivity]. assert (p = j) by lia. subst p.
    pose proof len_pos. pose proof EI_pos. field. lra.
  Qed.
  Lemma at_next i : at_ (i + 1) = at_ i + h.
  Proof. unfold at_. rewrite plus_INR. cbn [INR]. ring. Qed.

  Lemma sup_balance j f v : (j <= N)%nat -> v 0%nat DY = 0 -> v N DY = 0 -> sumn N (chain_form h b (sup_field j f) v) = f * v j DY.
  Proof.
    intros hj v0 vN. pose proof len_pos as hlen. pose proof EI_pos as hEI.
    rewrite (exact_sum (sup_field j f) v (sup_moment j f) j (- (f * (len - at_ j) / (len * EI))) (f * at_ j / (len * EI)) hj).
    - rewrite sup_moment_right by exact hj. unfold sup_moment. cbn [Nat.leb]. rewrite v0, vN. replace (at_ 0) with 0 by (unfold at_; cbn; ring). replace (at_ N) with len by reflexivity. field. lra.
    - intros p _. unfold sup_field, sup_left, sup_right. destruct (Nat.leb p j); reflexivity.
    - intros i hi. unfold shear_gap. destruct (Nat.ltb_spec i j) as [c|c].
      + unfold sup_field, sup_moment. destruct (Nat.leb_spec i j); [|lia]. destruct (Nat.leb_spec (i + 1) j); [|lia]. unfold sup_left. rewrite at_next.
        split; [|split]; field; lra.
      + rewrite !sup_field_right, !sup_moment_right by lia. unfold sup_right. rewrite at_next. split; [|split]; field; lra.
  Qed.

  (** clamped at the first node, force [f] at node [j] *)
  Definition cl_left (j : nat) (f x : R) (d : dir) : R :=
    match d with
    | DX => 0
    | DY => f / EI * (at_ j * (x * x) / 2 - x * x * x / 6) + f / EI * x * (phi * (h * h) / 12)
    | DR => f / EI * (at_ j * x - x * x / 2)
    end.
  Definition cl_right (j : nat) (f x : R) (d : dir) : R :=
    match d with
    | DX => 0
    | DY => f / EI * (at_ j * at_ j) * (3 * x - at_ j) / 6 + f / EI * at_ j * (phi * (h * h) / 12)
    | DR => f / EI * (at_ j * at_ j) / 2
    end.
  Definition cl_field (j : nat) (f : R) (p : nat) (d : dir) : R := if Nat.leb p j then cl_left j f (at_ p) d else cl_right j f (at_ p) d.
  Definition cl_moment (j : nat) (f : R) (p : nat) : R := if Nat.leb p j then f / EI * (at_ j - at_ p) else 0.

  Lemma cl_field_right j f p d : (j <= p)%nat -> cl_field j f p d = cl_right j f (at_ p) d.
  Proof.
    intros hp. unfold cl_field. destruct (Nat.leb_spec p j) as [c|c]; [|reflexivity]. assert (p = j) by lia. subst p.
    pose proof EI_pos. unfold cl_left, cl_right. destruct d; field; lra.
  Qed.
  Lemma cl_moment_right j f p : (j <= p)%nat -> cl_moment j f p = 0.
  Proof. intros hp. unfold cl_moment. destruct (Nat.leb_spec p j) as [c|c]; [|reflexivity]. assert (p = j) by lia. subst p. ring. Qed.

  Lemma cl_balance j f v : (j <= N)%nat -> v 0%nat DY = 0 -> v 0%nat DR = 0 -> sumn N (chain_form h b (cl_field j f) v) = f * v j DY.
  Proof.
    intros hj v0 r0. pose proof EI_pos as hEI.
    rewrite (exact_sum (cl_field j f) v (cl_moment j f) j (- (f / EI)) 0 hj).
    - rewrite cl_moment_right by exact hj. rewrite v0, r0. field. lra.
    - intros p _. unfold cl_field, cl_left, cl_right. destruct (Nat.leb p j); reflexivity.
    - intros i hi. unfold shear_gap. destruct (Nat.ltb_spec i j) as [c|c].
      + unfold cl_field, cl_moment. destruct (Nat.leb_spec i j); [|lia]. destruct (Nat.leb_spec (i + 1) j); [|lia]. unfold cl_left. rewrite at_next.
        split; [|split]; field; lra.
      + rewrite !cl_field_right, !cl_moment_right by lia. unfold cl_right. rewrite at_next. split; [|split]; field; lra.
  Qed.
End Exact.
