(** * C150: more stiffness and less mass never lower the frequencies *)

From Coq Require Import Reals List Bool ZArith Arith FunctionalExtensionality Lia Lra.
From Verif Require Import Num PyBase Model_Geometry Model_System Spec_System Proofs_Dof Proofs_System Model_Element Spec_Element
  Proofs_Elements Proofs_Element Proofs_Beam Proofs_Force Model_Accumulation Proofs_Accumulation Model_Coupled Model_Mesh Spec_Mesh Model_Track Spec_Track Spec_Generated Proofs_Track
  Proofs_Assembly Props_Track Spec_Analytic Spec_Motion Proofs_Motion Spec_Chain Proofs_Chain Spec_Renumber Proofs_Renumber Spec_Balance Proofs_Balance Spec_Structure Proofs_Structure Proofs_Line
  Spec_Stiffer Proofs_Stiffer Props_Stiffer Spec_Swifter.
Import ListNotations.
Local Open Scope R_scope.

(** ** part by part *)

Lemma swifter_settled ns p p' : swifter p p' -> swifter (settled ns p) (settled ns p').
Proof.
  intros [hn [he hk]]. destruct p as [k nodes els], p' as [k' nodes' els']. cbn [ep_nodes ep_els ep_kind] in *. subst nodes' els'. unfold settled. cbn [ep_nodes ep_els ep_kind].
  destruct k, k'; try contradiction; try (split; [reflexivity|split; [reflexivity|exact hk]]).
  destruct nodes as [|i [|j l]]; try (split; [reflexivity|split; [reflexivity|exact hk]]).
  destruct (nth_error ns i), (nth_error ns j); try (split; [reflexivity|split; [reflexivity|exact hk]]).
  split; [reflexivity|]. split; [reflexivity|]. cbn [ep_kind]. destruct hk as [h1 [h2 [h3 [h4 [h5 [h6 [h7 [h8 h9]]]]]]]]. unfold swifter_beam, fixed_ends in *. cbn. tauto.
Qed.

Lemma swifter_factor b b' : sound_beam b -> sound_beam b' -> swifter_beam b b' -> timoshenko_factor 0 b' = timoshenko_factor 0 b.
Proof.
  intros [g1 [g2 [g3 [g4 [g5 g6]]]]] [g1' _] [_ [_ [_ [_ [e2 [e4 [e5 [e6 e7]]]]]]]]. unfold timoshenko_factor, shear_modulus, sq. rnum. rewrite e2, e4, e5, e6, e7.
  destruct (nltbP 0 (b_shear_factor b)); [|reflexivity]. field. repeat split; lra.
Qed.

Lemma beam_swifter b b' v : sound_beam b -> sound_beam b' -> swifter_beam b b' -> let phi := timoshenko_factor 0 b in
  quad 6 (beam_stiffness b phi) v <= quad 6 (beam_stiffness b' phi) v /\ quad 6 (beam_mass b' phi) v <= quad 6 (beam_mass b phi) v.
Proof.
  intros hb hb' hs phi. pose proof (timoshenko_nonneg b hb) as hphi. fold phi in hphi. destruct hb as [hE [hI [hA [hl [hn hr]]]]]. destruct hb' as [hE' [hI' [hA' [hl' [hn' hr']]]]].
  destruct hs as [e1 [e2 [f1 [f2 [e3 [e4 [e5 [e6 e7]]]]]]]].
  split.
  - destruct (beam_fixed_spec b phi f1 hE hI hA hl hphi) as [_ [_ [_ [_ q1]]]]. destruct (beam_fixed_spec b' phi f2 hE' hI' hA' hl' hphi) as [_ [_ [_ [_ q2]]]]. cbv zeta in q1, q2. rewrite q1, q2, e4, e5, e7.
    set (l := b_l b) in *. set (v1 := v 3%nat - v 0%nat). set (v2 := v 5%nat - v 2%nat). set (v3 := v 1%nat - v 4%nat + l * (v 2%nat + v 5%nat) / 2).
    assert (q : forall a z, 0 <= a -> b_E b * a * (z * z) <= b_E b' * a * (z * z)).
    { intros a z ha. apply Rmult_le_compat_r; [apply Rle_0_sqr|]. apply Rmult_le_compat_r; assumption. }
    assert (hl3 : 0 < (1 + phi) * (l * l * l)) by (apply Rmult_lt_0_compat; [lra|repeat apply Rmult_lt_0_compat; assumption]).
    pose proof (q (b_A b / l) v1 ltac:(apply Rlt_le, Rdiv_lt_0_compat; assumption)) as m1. pose proof (q (b_I b / l) v2 ltac:(apply Rlt_le, Rdiv_lt_0_compat; assumption)) as m2.
    pose proof (q (12 * b_I b / ((1 + phi) * (l * l * l))) v3 ltac:(apply Rlt_le, Rdiv_lt_0_compat; lra)) as m3.
    replace (b_E b * b_A b / l) with (b_E b * (b_A b / l)) by (unfold Rdiv; ring). replace (b_E b' * b_A b / l) with (b_E b' * (b_A b / l)) by (unfold Rdiv; ring).
    replace (b_E b * b_I b / l) with (b_E b * (b_I b / l)) by (unfold Rdiv; ring). replace (b_E b' * b_I b / l) with (b_E b' * (b_I b / l)) by (unfold Rdiv; ring).
    replace (12 * (b_E b * b_I b) / ((1 + phi) * (l * l * l))) with (b_E b * (12 * b_I b / ((1 + phi) * (l * l * l)))) by (unfold Rdiv; ring).
    replace (12 * (b_E b' * b_I b) / ((1 + phi) * (l * l * l))) with (b_E b' * (12 * b_I b / ((1 + phi) * (l * l * l)))) by (unfold Rdiv; ring). lra.
  - rewrite !quad_mass, e4, e5, e7. pose proof (trans_nonneg (b_l b) phi v) as t1. pose proof (rot_nonneg (b_l b) phi v) as t2.
    set (T := quad 6 (trans_entries (b_l b) phi) v) in *. set (U := quad 6 (rot_entries (b_l b) phi) v) in *.
    assert (p2 : 0 < (1 + phi) * (1 + phi)) by (apply Rmult_lt_0_compat; lra).
    set (a := b_A b * b_l b / (210 * ((1 + phi) * (1 + phi)))). assert (ha : 0 <= a) by (apply Rlt_le, Rdiv_lt_0_compat; [apply Rmult_lt_0_compat; assumption|lra]).
    set (c := b_I b / (30 * ((1 + phi) * (1 + phi)) * b_l b)). assert (hc : 0 <= c) by (apply Rlt_le, Rdiv_lt_0_compat; [assumption|apply Rmult_lt_0_compat; [lra|assumption]]).
    assert (m1 : T * (b_rho b' * a) <= T * (b_rho b * a)) by (apply Rmult_le_compat_l; [exact t1|apply Rmult_le_compat_r; assumption]).
    assert (m2 : U * (b_rho b' * c) <= U * (b_rho b * c)) by (apply Rmult_le_compat_l; [exact t2|apply Rmult_le_compat_r; assumption]).
    replace (b_rho b' * b_A b * b_l b / (210 * ((1 + phi) * (1 + phi)))) with (b_rho b' * a) by (unfold a, Rdiv; ring). replace (b_rho b * b_A b * b_l b / (210 * ((1 + phi) * (1 + phi)))) with (b_rho b * a) by (unfold a, Rdiv; ring).
    replace (b_rho b' * b_I b / (30 * ((1 + phi) * (1 + phi)) * b_l b)) with (b_rho b' * c) by (unfold c, Rdiv; ring). replace (b_rho b * b_I b / (30 * ((1 + phi) * (1 + phi)) * b_l b)) with (b_rho b * c) by (unfold c, Rdiv; ring).
    destruct (Req_EM_T phi 0); lra.
Qed.

Definition rods (aux : option R -> option (nat -> nat -> R)) (ns : list (node R)) (o : option R) (u : nat -> dir -> R) (els : list (nat * nat)) : R :=
  match aux o with None => 0 | Some m => nsum (map (fun e => quad 2 m (local2 (calculate_rotation1 (xy ns (fst e), xy ns (snd e))) u (fst e) (snd e))) els) end.

Lemma rods_amount aux ns u els : aux = rod_spring \/ aux = rod_mass -> exists c, 0 <= c /\ forall o, rods aux ns o u els = amount o * c.
Proof.
  intros ha. destruct ha as [-> | ->].
  - exists (nsum (map (fun e => let v := local2 (calculate_rotation1 (xy ns (fst e), xy ns (snd e))) u (fst e) (snd e) in (v 1%nat - v 0%nat) * (v 1%nat - v 0%nat)) els)). split; [apply nsum_nonneg, Forall_map, Forall_forall; intros; apply Rle_0_sqr|].
    intros [x|]; unfold rods; cbn [rod_spring amount]; [|ring]. destruct (rod_spring_spec x _ eq_refl) as [_ [q _]]. induction els as [|e l IH]; cbn [map nsum]; rnum; [ring|]. rewrite IH. etransitivity; [apply f_equal2; [apply q|reflexivity]|]. ring.
  - exists (nsum (map (fun e => let v := local2 (calculate_rotation1 (xy ns (fst e), xy ns (snd e))) u (fst e) (snd e) in (v 0%nat * v 0%nat + v 0%nat * v 1%nat + v 1%nat * v 1%nat) / 3) els)). split; [apply nsum_nonneg, Forall_map, Forall_forall; intros e _; cbv zeta; set (v := local2 _ _ _ _); pose proof (Rle_0_sqr (v 0%nat)); pose proof (Rle_0_sqr (v 1%nat)); pose proof (Rle_0_sqr (v 0%nat + v 1%nat)); unfold Rsqr in *; lra|].
    intros [x|]; unfold rods; cbn [rod_mass amount]; [|ring]. destruct (rod_mass_spec x _ eq_refl) as [_ [_ [q _]]]. induction els as [|e l IH]; cbn [map nsum]; rnum; [ring|]. rewrite IH. etransitivity; [apply f_equal2; [apply q|reflexivity]|]. cbv zeta. field.
Qed.

Lemma form_swifter ns u p p' : sound p -> sound p' -> swifter p p' -> part_form aux_stiffness ns u p <= part_form aux_stiffness ns u p' /\ part_form aux_mass ns u p' <= part_form aux_mass ns u p.
Proof.
  intros hs hs' [hn [he hk]]. destruct p as [k nodes els], p' as [k' nodes' els']. cbn [ep_nodes ep_els] in hn, he. subst nodes' els'. unfold sound in hs, hs'. cbn [ep_kind] in *. unfold part_form. cbn [ep_kind ep_els ep_nodes].
  destruct k as [s c m|b|b|m], k' as [s' c' m'|b'|b'|m']; try contradiction.
  - destruct hk as [h1 h2]. cbn [aux_stiffness aux_mass].
    destruct (rods_amount rod_spring ns u els (or_introl eq_refl)) as [a [ha ea]]. destruct (rods_amount rod_mass ns u els (or_intror eq_refl)) as [d [hd ed]].
    change (rods rod_spring ns s u els <= rods rod_spring ns s' u els /\ rods rod_mass ns m' u els <= rods rod_mass ns m u els). rewrite !ea, !ed. split; apply Rmult_le_compat_r; assumption.
  - cbn [aux_stiffness aux_mass]. change (lit 0) with 0. rnum. rewrite (swifter_factor b b' hs hs' hk). split; apply nsum_le; intros e _; cbn [element_form].
    + match goal with |- quad 6 _ ?v <= _ => exact (proj1 (beam_swifter b b' v hs hs' hk)) end.
    + match goal with |- quad 6 _ ?v <= _ => exact (proj2 (beam_swifter b b' v hs hs' hk)) end.
  - cbn [aux_stiffness aux_mass]. change (lit 0) with 0. rnum. rewrite (swifter_factor b b' hs hs' hk). split; apply nsum_le; intros e _; cbn [element_form].
    + match goal with |- quad 6 _ ?v <= _ => exact (proj1 (beam_swifter b b' v hs hs' hk)) end.
    + match goal with |- quad 6 _ ?v <= _ => exact (proj2 (beam_swifter b b' v hs hs' hk)) end.
  - cbn [aux_stiffness aux_mass]. unfold one_by_one. rnum. split; [lra|]. apply nsum_le. intros i _. cbn. apply Rmult_le_compat_r; [apply Rle_0_sqr|exact hk].
Qed.

Lemma forms_swifter ns u ps ps' : Forall (fun p => sound (settled ns p)) ps -> Forall (fun p => sound (settled ns p)) ps' -> Forall2 swifter ps ps' ->
  nsum (map (fun p => part_form aux_stiffness ns u (settled ns p)) ps) <= nsum (map (fun p => part_form aux_stiffness ns u (settled ns p)) ps') /\
  nsum (map (fun p => part_form aux_mass ns u (settled ns p)) ps') <= nsum (map (fun p => part_form aux_mass ns u (settled ns p)) ps).
Proof.
  intros h1 h2 h. induction h as [|p p' ps ps' hp h IH]; cbn [map nsum]; rnum; [lra|]. inversion h1; subst. inversion h2; subst. destruct IH as [i1 i2]; [assumption|assumption|].
  destruct (form_swifter ns u (settled ns p) (settled ns p')) as [j1 j2]; [assumption|assumption|apply swifter_settled; exact hp|]. lra.
Qed.

Lemma massless_form ns u p : massless p -> part_form aux_mass ns u (settled ns p) = 0.
Proof.
  unfold massless, settled. destruct p as [k nodes els]. cbn [ep_kind]. destruct k as [s c m| | |]; try contradiction. intros h. unfold part_form. cbn [ep_kind ep_els aux_mass].
  destruct (rods_amount rod_mass ns u els (or_intror eq_refl)) as [d [_ ed]]. change (rods rod_mass ns m u els = 0). rewrite ed, h. ring.
Qed.
Lemma only_mass_form ns u p : only_mass p -> part_form aux_stiffness ns u (settled ns p) = 0.
Proof.
  unfold only_mass, settled. destruct p as [k nodes els]. cbn [ep_kind]. destruct k as [s c m| | |m]; try contradiction; intros h; unfold part_form; cbn [ep_kind ep_els ep_nodes aux_stiffness].
  - destruct (rods_amount rod_spring ns u els (or_introl eq_refl)) as [d [_ ed]]. change (rods rod_spring ns s u els = 0). rewrite ed, h. ring.
  - unfold one_by_one. cbn. rnum. induction nodes as [|i l IH]; cbn [map nsum]; rnum; [reflexivity|]. rewrite IH. ring.
Qed.

(** ** model by model *)

Lemma sum_app (l k : list R) : nsum (l ++ k) = nsum l + nsum k.
Proof. induction l as [|a l IH]; cbn [app nsum]; rnum; [ring|rewrite IH; ring]. Qed.
Lemma sum_0 {A} (f : A -> R) l : (forall a, In a l -> f a = 0) -> nsum (map f l) = 0.
Proof. intros h. induction l as [|a l IH]; cbn [map nsum]; rnum; [reflexivity|]. rewrite h, IH; [ring|intros; apply h; right; assumption|left; reflexivity]. Qed.

(** Two models on the same nodes.  The parts of the second are at least as stiff and not heavier, some masses are taken away, some springs without mass are put in, and
    no direction moves in the second that is held in the first.  What bounds the squares of all frequencies of the first from below bounds those of the second. *)
Theorem C150_bound ns ps ps' ms qs ls ls' cs cs' da da' s1 ns1 k1 s2 ns2 k2 :
  initialise_system ns (ps ++ ms) ls cs da = Ok (s1, ns1, k1) -> initialise_system ns (ps' ++ qs) ls' cs' da' = Ok (s2, ns2, k2) ->
  Forall shaped (ps ++ ms) -> Forall (fun p => sound (settled ns p)) (ps ++ ms) -> Forall shaped (ps' ++ qs) -> Forall (fun p => sound (settled ns p)) (ps' ++ qs) ->
  Forall2 swifter ps ps' -> Forall only_mass ms -> Forall massless qs -> (forall p d, number_of ns1 p d = None -> number_of ns2 p d = None) ->
  forall w, 0 <= w -> (forall x, w * quad k1 (me (gM s1)) x <= quad k1 (me (gK s1)) x) ->
  (forall y, w * quad k2 (me (gM s2)) y <= quad k2 (me (gK s2)) y) /\ forall w2 y, swings s2 k2 w2 y -> w <= w2.
Proof.
  intros h1 h2 a1 a2 b1 b2 hs hm hq hd w hw hb.
  assert (g : forall y, w * quad k2 (me (gM s2)) y <= quad k2 (me (gK s2)) y).
  { intros y. set (x := vector_of ns1 (field_of ns2 y)). destruct (initialise_inv _ _ _ _ _ _ _ _ h1) as [s0 [_ [e0 _]]]. destruct (initialise_kept _ _ _ _ _ _ _ _ _ h1 e0) as [_ [hnum _]].
    assert (ex : field_of ns1 x = field_of ns2 y).
    { extensionality p. extensionality d. apply (vector_field ns1 k1); [exact hnum|]. intros p0 d0 h0. unfold field_of. rewrite (hd _ _ h0). reflexivity. }
    specialize (hb x). destruct (initialise_energy _ _ _ _ _ _ _ _ x a1 h1) as [q1 [q2 _]]. destruct (initialise_energy _ _ _ _ _ _ _ _ y b1 h2) as [q3 [q4 _]]. cbv zeta in q1, q2, q3, q4.
    rewrite q1, q2, ex in hb. rewrite q3, q4. rewrite !map_app, !sum_app in hb |- *.
    apply Forall_app in a2, b2. destruct a2 as [a2 a3], b2 as [b2 b3]. destruct (forms_swifter ns (field_of ns2 y) ps ps' a2 b2 hs) as [j1 j2].
    rewrite (sum_0 (fun p => part_form aux_stiffness ns (field_of ns2 y) (settled ns p)) ms) in hb by (intros p hp; apply only_mass_form; exact (proj1 (Forall_forall _ _) hm p hp)).
    rewrite (sum_0 (fun p => part_form aux_mass ns (field_of ns2 y) (settled ns p)) qs) by (intros p hp; apply massless_form; exact (proj1 (Forall_forall _ _) hq p hp)).
    assert (n1 : 0 <= nsum (map (fun p => part_form aux_mass ns (field_of ns2 y) (settled ns p)) ms)).
    { apply nsum_nonneg, Forall_map, Forall_forall. intros p hp. apply part_form_nonneg; [right; left; reflexivity|exact (proj1 (Forall_forall _ _) a3 p hp)]. }
    assert (n2 : 0 <= nsum (map (fun p => part_form aux_stiffness ns (field_of ns2 y) (settled ns p)) qs)).
    { apply nsum_nonneg, Forall_map, Forall_forall. intros p hp. apply part_form_nonneg; [left; reflexivity|exact (proj1 (Forall_forall _ _) b3 p hp)]. }
    set (A := nsum (map (fun p => part_form aux_mass ns (field_of ns2 y) (settled ns p)) ps)) in *. set (B := nsum (map (fun p => part_form aux_mass ns (field_of ns2 y) (settled ns p)) ps')) in *. set (C := nsum (map (fun p => part_form aux_mass ns (field_of ns2 y) (settled ns p)) ms)) in *.
    assert (w * B <= w * A) by (apply Rmult_le_compat_l; assumption). assert (0 <= w * C) by (apply Rmult_le_pos; assumption). lra. }
  split; [exact g|]. intros w2 y [hp hy]. specialize (g y).
  assert (e : quad k2 (me (gK s2)) y = w2 * quad k2 (me (gM s2)) y).
  { rewrite !quad_mulv, <- sumn_scal. apply sumn_ext. intros i hi. rewrite hy by exact hi. rnum. ring. }
  rewrite e in g. apply (Rmult_le_reg_r (quad k2 (me (gM s2)) y)); assumption.
Qed.
Print Assumptions C150_bound.

(** ** a mass on one spring *)

Lemma post_swings k P s ns' n : initialise_system post (post_parts k) (one_load 0 P) post_held undamped = Ok (s, ns', n) -> 1 / 100000000 < k ->
  (forall p d, number_of ns' p d <> None <-> p = 0%nat /\ d = DY /\ 1 / 100000000 < k) -> swings s n k (fun _ => 1) /\ forall x, quad n (me (gK s)) x = k * quad n (me (gM s)) x.
Proof.
  intros hi hk hd. assert (hsh : Forall shaped (post_parts k)) by (repeat constructor; discriminate).
  destruct (initialise_inv _ _ _ _ _ _ _ _ hi) as [z1 [_ [e1 _]]]. destruct (initialise_kept _ _ _ _ _ _ _ _ _ hi e1) as [_ [hn _]].
  assert (foot : forall x, field_of ns' x 1%nat DY = 0).
  { intros x. unfold field_of. destruct (number_of ns' 1 DY) eqn:e'; [|reflexivity]. destruct (hd 1%nat DY) as [g _]. destruct g as [g _]; [congruence|lia]. }
  assert (en : forall x, quad n (me (gK s)) x = k * (field_of ns' x 0%nat DY * field_of ns' x 0%nat DY) /\ quad n (me (gM s)) x = field_of ns' x 0%nat DY * field_of ns' x 0%nat DY).
  { intros x. destruct (initialise_energy _ _ _ _ _ _ _ _ x hsh hi) as [q1 [q2 _]]. cbv zeta in q1, q2. rewrite q1, q2, post_energy, post_mass, foot. split; ring. }
  assert (hm : exists m, number_of ns' 0 DY = Some m) by (destruct (number_of ns' 0 DY) as [m|] eqn:e; [exists m; reflexivity|exfalso; apply (proj2 (hd 0%nat DY)); [repeat split; exact hk|exact e]]).
  destruct hm as [m hm].
  assert (hone : forall i, (i < n)%nat -> i = m).
  { intros i hlt. assert (hin : In i (all_numbers ns')) by (rewrite hn; apply in_seq; lia). apply all_numbers_In in hin. destruct hin as [p [d hp]].
    destruct (hd p d) as [g _]. destruct g as [-> [-> _]]; [congruence|]. congruence. }
  assert (hlt : (m < n)%nat).
  { assert (hin : In m (all_numbers ns')) by (apply all_numbers_In; exists 0%nat, DY; exact hm). rewrite hn in hin. apply in_seq in hin. lia. }
  assert (n1 : n = 1%nat) by (destruct n as [|[|n]]; [lia|reflexivity|pose proof (hone 0%nat ltac:(lia)); pose proof (hone 1%nat ltac:(lia)); lia]).
  split; [|intros x; destruct (en x) as [-> ->]; ring].
  destruct (en (fun _ => 1)) as [u1 u2]. unfold field_of in u1, u2. rewrite hm in u1, u2. split; [rewrite u2; lra|].
  subst n. intros i h. assert (i = 0%nat) by lia. subst i. unfold quad in u1, u2. unfold mulv. revert u1 u2. cbn [sumn]. rnum. intros u1 u2. assert (f1 : me (gM s) 0%nat 0%nat = 1) by lra. assert (f2 : me (gK s) 0%nat 0%nat = k) by lra. rewrite f1, f2. ring.
Qed.

(** A spring so soft that its node is left out (1e-9 N/m) against a spring of 1 N/m with the same mass: the first has no frequencies at all, so every bound holds, and
    the second swings with frequency 1 *)
Theorem C150_trim_refuted : exists ns ps ps' ls cs da s1 ns1 k1 s2 ns2 k2 w w2 y,
  initialise_system ns ps ls cs da = Ok (s1, ns1, k1) /\ initialise_system ns ps' ls cs da = Ok (s2, ns2, k2) /\ Forall shaped ps /\ Forall (fun p => sound (settled ns p)) ps /\
  Forall shaped ps' /\ Forall (fun p => sound (settled ns p)) ps' /\ Forall2 swifter ps ps' /\ 0 <= w /\
  (forall x, w * quad k1 (me (gM s1)) x <= quad k1 (me (gK s1)) x) /\ swings s2 k2 w2 y /\ w2 < w.
Proof.
  destruct (post_starts (1 / 1000000000) 0 ltac:(lra)) as [s1 [ns1 [k1 [hi1 hd1]]]]. destruct (post_starts 1 0 ltac:(lra)) as [s2 [ns2 [k2 [hi2 hd2]]]].
  assert (hsh : forall k, Forall shaped (post_parts k)) by (intros; repeat constructor; discriminate).
  assert (hso : forall k, 0 < k -> Forall (fun p => sound (settled post p)) (post_parts k)) by (intros k hk; constructor; [|constructor]; cbn; repeat split; lra).
  exists post, (post_parts (1 / 1000000000)), (post_parts 1), (one_load 0 0), post_held, undamped, s1, ns1, k1, s2, ns2, k2, 2, 1, (fun _ => 1).
  split; [exact hi1|]. split; [exact hi2|]. split; [apply hsh|]. split; [apply hso; lra|]. split; [apply hsh|]. split; [apply hso; lra|].
  split; [constructor; [split; [reflexivity|split; [reflexivity|cbn; lra]]|constructor]|]. split; [lra|]. split; [|split; [apply (post_swings 1 0 s2 ns2 k2 hi2); [lra|exact hd2]|lra]].
  intros x. destruct (initialise_inv _ _ _ _ _ _ _ _ hi1) as [z1 [_ [e1 _]]]. destruct (initialise_kept _ _ _ _ _ _ _ _ _ hi1 e1) as [_ [hn1 _]].
  assert (k0 : k1 = 0%nat).
  { destruct k1 as [|k]; [reflexivity|exfalso]. assert (hin : In 0%nat (all_numbers ns1)) by (rewrite hn1; apply in_seq; lia). apply all_numbers_In in hin. destruct hin as [p [d hp]].
    destruct (hd1 p d) as [g _]. destruct g as [_ [_ g]]; [congruence|]. lra. }
  subst k1. unfold quad. cbn [sumn]. rnum. lra.
Qed.
Print Assumptions C150_trim_refuted.

(** a mass on a spring of 1 N/m against the same on a spring of 4 N/m: both swing, and every square of a frequency is at least 1 *)
Example C150_case : exists s1 ns1 k1 s2 ns2 k2,
  initialise_system post (post_parts 1 ++ []) (one_load 0 0) post_held undamped = Ok (s1, ns1, k1) /\ initialise_system post (post_parts 4 ++ []) (one_load 0 0) post_held undamped = Ok (s2, ns2, k2) /\
  Forall2 swifter (post_parts 1) (post_parts 4) /\ (forall p d, number_of ns1 p d = None -> number_of ns2 p d = None) /\
  (forall x, 1 * quad k1 (me (gM s1)) x <= quad k1 (me (gK s1)) x) /\ swings s1 k1 1 (fun _ => 1) /\ swings s2 k2 4 (fun _ => 1).
Proof.
  destruct (post_starts 1 0 ltac:(lra)) as [s1 [ns1 [k1 [hi1 hd1]]]]. destruct (post_starts 4 0 ltac:(lra)) as [s2 [ns2 [k2 [hi2 hd2]]]].
  destruct (post_swings 1 0 s1 ns1 k1 hi1 ltac:(lra) hd1) as [w1 q1]. destruct (post_swings 4 0 s2 ns2 k2 hi2 ltac:(lra) hd2) as [w2 _].
  exists s1, ns1, k1, s2, ns2, k2. rewrite !app_nil_r. split; [exact hi1|]. split; [exact hi2|]. split; [constructor; [split; [reflexivity|split; [reflexivity|cbn; lra]]|constructor]|].
  split; [|split; [intros x; rewrite q1; lra|split; assumption]].
  intros p d h. destruct (number_of ns2 p d) eqn:e; [|reflexivity]. exfalso. destruct (hd2 p d) as [g _]. destruct g as [g1 [g2 _]]; [congruence|]. apply (proj2 (hd1 p d)); [split; [exact g1|split; [exact g2|lra]]|exact h].
Qed.
