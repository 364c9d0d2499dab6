(** * Models seen in a mirror (C140) *)

From Coq Require Import Reals List Bool ZArith Arith Lia Lra Permutation.
From Verif Require Import Num PyBase Model_Geometry Model_System Spec_System Proofs_Dof Proofs_System Model_Element Spec_Element
  Proofs_Elements Proofs_Element Proofs_Beam Proofs_Force Model_Accumulation Proofs_Accumulation Model_Track Spec_Track
  Proofs_Track Proofs_Assembly Props_Track Spec_Generated Proofs_Generated Props_Generated Spec_Analytic Spec_Motion Proofs_Motion Spec_Chain Proofs_Chain Spec_Renumber Proofs_Renumber Props_Renumber Spec_Turn Proofs_Turn Props_Turn
  Proofs_Stiffer Spec_Mirror Proofs_Mirror.
Import ListNotations.
Local Open Scope R_scope.

(** a mirrored model is initialised as well; it has as many degrees of freedom, of the same nodes and directions, and the same
    entries for them, where every horizontal displacement, horizontal force, rotation and moment changes its sign *)
Theorem C140_same_system a (ns : list (node R)) ps ls cs da s ns' n :
  initialise_system ns ps ls cs da = Ok (s, ns', n) ->
  Forall shaped ps -> Forall (fun p => sound (settled ns p)) ps -> Forall (within ns) ps -> Forall (mirrorable ns) ps -> Forall plain_load ls ->
  exists s2 ms', initialise_system (mirrored a ns) ps (map mirrored_load ls) cs da = Ok (s2, ms', n) /\
    (forall p d, (p < length ns)%nat -> (number_of ns' p d <> None <-> number_of ms' p d <> None)) /\
    forall p d q e i j i' j', number_of ns' p d = Some i -> number_of ns' q e = Some j -> number_of ms' p d = Some i' -> number_of ms' q e = Some j' ->
      me (gK s2) i' j' = side d * side e * me (gK s) i j /\ me (gM s2) i' j' = side d * side e * me (gM s) i j /\
      me (gC s2) i' j' = side d * side e * me (gC s) i j /\ nth i' (gF s2) 0 = side d * nth i (gF s) 0.
Proof.
  intros h hs ho hw hm hp. destruct (run_flip a ns ps ls cs da s ns' n hw h) as [s2 [ms' [m h2]]].
  rewrite <- (size_flip a ns ps ls cs da s ns' n hs hw hm h s2 ms' m h2). exists s2, ms'. split; [exact h2|].
  split; [intros p d hpd; exact (number_flip a ns ps ls cs da s ns' n hs hw hm h s2 ms' m h2 p d hpd)|].
  intros p d q e i j i' j' g1 g2 g3 g4. destruct (entry_flip a ns ps ls cs da s ns' n hs ho hw hm h s2 ms' m h2 p d q e i j i' j' g1 g2 g3 g4) as [e1 [e2 e3]].
  split; [exact e1|]. split; [exact e2|]. split; [exact e3|]. exact (force_flip a ns ps ls cs da s ns' n h s2 ms' m h2 p d i i' hp g1 g3).
Qed.
Print Assumptions C140_same_system.

(** its motion is the mirrored motion *)
Theorem C140_same_motion a (ns : list (node R)) ps ls cs da s ns' n s2 ms' m g u v b g2 u2 v2 b2 :
  initialise_system ns ps ls cs da = Ok (s, ns', n) -> initialise_system (mirrored a ns) ps (map mirrored_load ls) cs da = Ok (s2, ms', m) ->
  Forall shaped ps -> Forall (fun p => sound (settled ns p)) ps -> Forall (within ns) ps -> Forall (mirrorable ns) ps ->
  (forall p d i j, number_of ns' p d = Some i -> number_of ms' p d = Some j -> forall t,
     g2 t j = side d * g t i /\ u2 t j = side d * u t i /\ v2 t j = side d * v t i /\ b2 t j = side d * b t i) ->
  motion n s g u v b -> motion m s2 g2 u2 v2 b2.
Proof.
  intros h h2 hs ho hw hm. exact (motion_flip a ns ps ls cs da s ns' n hs ho hw hm h s2 ms' m h2 g u v b g2 u2 v2 b2).
Qed.
Print Assumptions C140_same_motion.

(** ** Symmetric models *)

Lemma set_node (l : list (node R)) p t q :
  nth_error (match nth_error l p with Some n => lset l p (with_flag n t) | None => l end) q = if Nat.eqb q p then option_map (fun n => with_flag n t) (nth_error l q) else nth_error l q.
Proof.
  destruct (Nat.eqb_spec q p) as [->|ne].
  - destruct (nth_error l p) as [n|] eqn:e; [|rewrite e; reflexivity]. revert l e. induction p as [|p IH]; intros [|x l] e; cbn in e; try discriminate; [reflexivity|]. cbn. rewrite IH by exact e. reflexivity.
  - destruct (nth_error l p) as [n|] eqn:e; [|reflexivity]. clear e. revert p ne l. induction q as [|q IH]; intros [|p] ne [|x l]; cbn; try reflexivity; [congruence|]. apply IH. congruence.
Qed.

Lemma set_nodes (c : list nat * tri bool) (l : list (node R)) q :
  nth_error (apply_constraint l c) q = if existsb (Nat.eqb q) (fst c) then option_map (fun n => with_flag n (snd c)) (nth_error l q) else nth_error l q.
Proof.
  destruct c as [ps t]. unfold apply_constraint. cbn [fst snd]. revert l. induction ps as [|p ps IH]; intros l; [reflexivity|]. cbn [fold_left existsb]. rewrite IH, set_node.
  destruct (Nat.eqb q p); cbn [orb]; [|reflexivity]. destruct (existsb (Nat.eqb q) ps); [|reflexivity]. destruct (nth_error l q) as [n|]; reflexivity.
Qed.

Lemma held_nodes cs (l : list (node R)) q :
  nth_error (fold_left apply_constraint cs l) q = match held cs q with Some t => option_map (fun n => with_flag n t) (nth_error l q) | None => nth_error l q end.
Proof.
  unfold held. 
  assert (g : forall o l0, nth_error l0 q = match o with Some t => option_map (fun n => with_flag n t) (nth_error l q) | None => nth_error l q end ->
    nth_error (fold_left apply_constraint cs l0) q = match fold_left (fun o c => if existsb (Nat.eqb q) (fst c) then Some (snd c) else o) cs o with Some t => option_map (fun n => with_flag n t) (nth_error l q) | None => nth_error l q end).
  { induction cs as [|c cs IH]; intros o l0 h0; [exact h0|]. cbn [fold_left]. apply IH. rewrite set_nodes, h0. destruct (existsb (Nat.eqb q) (fst c)); [|reflexivity].
    destruct o, (nth_error l q) as [n|]; reflexivity. }
  apply g. reflexivity.
Qed.

Lemma nth_ext {A} (l k : list A) : (forall i, nth_error l i = nth_error k i) -> l = k.
Proof.
  revert k. induction l as [|a l IH]; intros [|b k] h; [reflexivity|specialize (h 0%nat); discriminate|specialize (h 0%nat); discriminate|].
  f_equal; [specialize (h 0%nat); cbn in h; congruence|apply IH; intros i; exact (h (S i))].
Qed.

Lemma held_alike ns ps ls cs cs2 da : (forall p, held cs p = held cs2 p) -> initialise_system (T := R) ns ps ls cs da = initialise_system ns ps ls cs2 da.
Proof.
  intros h. unfold initialise_system. destruct (assemble_system ns ps ls) as [[s l]|e]; [|reflexivity]. cbn [rbind].
  replace (fold_left apply_constraint cs2 l) with (fold_left apply_constraint cs l); [reflexivity|]. apply nth_ext. intros i. rewrite !held_nodes, h. reflexivity.
Qed.

Lemma held_renumbered f cs p : (forall p, f (f p) = p) -> held (map (renumbered_constraint f) cs) (f p) = held cs p.
Proof.
  intros hf. unfold held. generalize (@None (tri bool)). induction cs as [|c cs IH]; intros o; [reflexivity|]. cbn [map fold_left renumbered_constraint fst snd].
  replace (existsb (Nat.eqb (f p)) (map f (fst c))) with (existsb (Nat.eqb p) (fst c)); [apply IH|].
  induction (fst c) as [|x l IH2]; [reflexivity|]. cbn. rewrite IH2. f_equal. destruct (Nat.eqb_spec p x) as [->|ne]; [symmetry; apply Nat.eqb_refl|].
  symmetry. apply Nat.eqb_neq. intros e. apply ne. rewrite <- (hf p), <- (hf x), e. reflexivity.
Qed.

Lemma turnable_kind ns l p e : turnable ns (ep_kind (settled l p)) e <-> turnable ns (ep_kind p) e.
Proof.
  unfold settled. destruct (ep_kind p) eqn:ek; rewrite ?ek; try tauto. destruct (ep_nodes p) as [|i [|j q]]; rewrite ?ek; try tauto.
  destruct (nth_error l i), (nth_error l j); rewrite ?ek; cbn; tauto.
Qed.

Lemma settled_els (ns : list (node R)) p : ep_els (settled ns p) = ep_els p /\ ep_nodes (settled ns p) = ep_nodes p.
Proof.
  unfold settled. destruct (ep_kind p) eqn:ek; auto. destruct (ep_nodes p) as [|i [|j l]] eqn:en; auto. destruct (nth_error ns i), (nth_error ns j); auto.
Qed.

Lemma image_form a f (l : list (node R)) ns p q aux u : renumbered_mesh f (mirrored a l) ns -> is_aux aux ->
  ep_kind (settled ns q) = ep_kind (settled l p) ->
  match ep_kind p with
  | KPoint _ => Permutation (ep_nodes q) (map f (ep_nodes p))
  | k => exists es, Forall2 (fun e e' => e' = e \/ e' = (snd e, fst e) /\ turnable ns k e) (map (fun e => (f (fst e), f (snd e))) (ep_els p)) es /\
           Permutation (ep_els q) es
  end ->
  part_form aux ns u (settled ns q) = part_form aux (mirrored a l) (fun i d => u (f i) d) (settled (mirrored a l) p).
Proof.
  intros hm ha hk he. rewrite settled_flip.
  set (r := mkPart (ep_kind (settled l p)) (map f (ep_nodes p)) (map (fun e => (f (fst e), f (snd e))) (ep_els p))).
  destruct (settled_els l p) as [ep en]. destruct (settled_els ns q) as [eq1 en1].
  rewrite <- (same_form f (mirrored a l) ns hm aux u (settled l p) r); [|split; [reflexivity|split; [cbn; rewrite en; reflexivity|cbn; rewrite ep; apply Permutation_refl]]].
  assert (kinds : (exists m, ep_kind (settled l p) = KPoint m /\ ep_kind p = KPoint m) \/ (forall m, ep_kind (settled l p) <> KPoint m /\ ep_kind p <> KPoint m)).
  { unfold settled. destruct (ep_kind p) as [| | |m] eqn:ek; rewrite ?ek; [right|right|right|left; exists m; auto]; try (intros m; split; congruence).
    destruct (ep_nodes p) as [|i [|j q0]]; rewrite ?ek; try (intros m; split; congruence). destruct (nth_error l i), (nth_error l j); rewrite ?ek; intros m; split; cbn; congruence. }
  destruct kinds as [[m [k1 k2]]|kn].
  - rewrite k2 in he. unfold part_form. subst r. cbn [ep_kind]. rewrite hk, k1. destruct (aux (KPoint m)); [|reflexivity]. cbn [ep_nodes]. rewrite en1. apply nsum_perm. apply Permutation_map. exact he.
  - assert (he2 : exists es, Forall2 (fun e e' => e' = e \/ e' = (snd e, fst e) /\ turnable ns (ep_kind p) e) (map (fun e => (f (fst e), f (snd e))) (ep_els p)) es /\ Permutation (ep_els q) es).
    { destruct (ep_kind p) as [| | |m] eqn:ek; try exact he. exfalso. apply (kn m). reflexivity. }
    destruct he2 as [es [h1 h2]].
    assert (ht : turned_part ns r (mkPart (ep_kind (settled l p)) (map f (ep_nodes p)) es)).
    { split; [reflexivity|]. split; [reflexivity|]. subst r. cbn [ep_els ep_kind]. clear - h1. induction h1 as [|x y l1 l2 h hs IH]; constructor; [|exact IH].
      destruct h as [->|[-> ht]]; [left; reflexivity|right]. split; [reflexivity|apply (turnable_kind ns l p); exact ht]. }
    rewrite <- (turned_form aux ns u _ _ ha ht). unfold part_form. cbn [ep_kind ep_els ep_nodes]. rewrite hk. destruct (aux (ep_kind (settled l p))); [|reflexivity]. rewrite eq1.
    destruct (ep_kind (settled l p)) as [| | |m] eqn:ek; try (apply nsum_perm; apply Permutation_map; exact h2). exfalso. exact (proj1 (kn m) eq_refl).
Qed.

Lemma counterpart_form a f ns p q aux u : renumbered_mesh f (mirrored a ns) ns -> is_aux aux -> counterpart f ns p q ->
  part_form aux ns u (settled ns q) = part_form aux (mirrored a ns) (fun i d => u (f i) d) (settled (mirrored a ns) p).
Proof. intros hm ha [hk he]. exact (image_form a f ns ns p q aux u hm ha hk he). Qed.

Section Symmetric.
  Variables (a : R) (f : nat -> nat) (ns : list (node R)) (ps : list (epart R)) (ls : list (load R)) (cs : list (list nat * tri bool)) (da : damping R).
  Variables (s : gsys R) (ns' : list (node R)) (n : nat).
  Hypothesis run : initialise_system ns ps ls cs da = Ok (s, ns', n).
  Hypothesis shapes : Forall shaped ps.
  Hypothesis sounds : Forall (fun p => sound (settled ns p)) ps.
  Hypothesis inside : Forall (within ns) ps.
  Hypothesis straight_parts : Forall (mirrorable ns) ps.
  Hypothesis sym : symmetric_model a f ns ps cs.

  Lemma self_image : (forall p d, (p < length ns)%nat -> (number_of ns' p d <> None <-> number_of ns' (f p) d <> None)) /\
    forall p d q e i j i' j', number_of ns' p d = Some i -> number_of ns' q e = Some j -> number_of ns' (f p) d = Some i' -> number_of ns' (f q) e = Some j' ->
      me (gK s) i' j' = side d * side e * me (gK s) i j /\ me (gM s) i' j' = side d * side e * me (gM s) i j /\ me (gC s) i' j' = side d * side e * me (gC s) i j.
  Proof.
    destruct sym as [hf [hm [hp hc]]].
    destruct (run_flip a ns ps ls cs da s ns' n inside run) as [s2 [ms' [m h2]]].
    pose proof (number_flip a ns ps ls cs da s ns' n shapes inside straight_parts run s2 ms' m h2) as hn.
    pose proof (entry_flip a ns ps ls cs da s ns' n shapes sounds inside straight_parts run s2 ms' m h2) as he.
    set (ms := mirrored a ns) in *. set (ks := map mirrored_load ls) in *. set (cs2 := map (renumbered_constraint f) cs).
    assert (h3 : initialise_system ms ps ks cs2 da = Ok (s2, ms', m)).
    { rewrite <- h2. apply held_alike. intros p. unfold cs2. rewrite <- (hf p). rewrite held_renumbered by exact hf. rewrite !hc. reflexivity. }
    assert (ec : map (renumbered_constraint f) cs2 = cs).
    { unfold cs2. rewrite map_map. rewrite <- (map_id cs) at 2. apply map_ext. intros [l t]. unfold renumbered_constraint. cbn. rewrite map_map. f_equal. rewrite <- (map_id l) at 2. apply map_ext. exact hf. }
    assert (h4 : initialise_system ns ps ls (map (renumbered_constraint f) cs2) da = Ok (s, ns', n)) by (rewrite ec; exact run).
    assert (forms : forall aux u, is_aux aux -> nsum (map (fun p => part_form aux ns u (settled ns p)) ps) = nsum (map (fun p => part_form aux ms (fun i d => u (f i) d) (settled ms p)) ps)).
    { intros aux u ha. destruct hp as [rs [h5 h6]]. rewrite <- (nsum_perm _ _ (Permutation_map _ h6)). clear - h5 hm ha. revert h5. generalize ps. intros l h5.
      induction h5 as [|p q l l' h hs IH]; [reflexivity|]. cbn [map nsum]. rewrite IH, (counterpart_form a f ns p q aux u hm ha h). reflexivity. }
    assert (inside2 : Forall (within ms) ps) by (apply Forall_forall; intros p hin; apply within_flip; exact (proj1 (Forall_forall _ _) inside p hin)).
    pose proof (number_same f ms ns ps ps ks ls cs2 da s2 ms' m hm forms shapes shapes inside2 h3 s ns' n h4) as hn2.
    pose proof (entry_same f ms ns ps ps ks ls cs2 da s2 ms' m hm forms shapes sounds shapes (sounds2 a ns ps sounds) inside2 h3 s ns' n h4) as he2.
    assert (len : length ms = length ns) by apply map_length.
    split.
    - intros p d hpd. rewrite (hn p d hpd). apply hn2. rewrite len. exact hpd.
    - intros p d q e i j i' j' g1 g2 g3 g4.
      assert (bp : (p < length ns)%nat) by exact (proj2 (below _ _ _ _ _ _ _ _ run p d i g1)). assert (bq : (q < length ns)%nat) by exact (proj2 (below _ _ _ _ _ _ _ _ run q e j g2)).
      destruct (number_of ms' p d) as [i2|] eqn:e1; [|exfalso; apply (proj1 (hn p d bp)); congruence].
      destruct (number_of ms' q e) as [j2|] eqn:e2; [|exfalso; apply (proj1 (hn q e bq)); congruence].
      destruct (he p d q e i j i2 j2 g1 g2 e1 e2) as [x1 [x2 x3]]. destruct (he2 p d q e i2 j2 i' j' e1 e2 g3 g4) as [y1 [y2 y3]].
      rewrite y1, y2, y3. auto.
  Qed.

  Lemma self_sum g h : (forall p d i j, number_of ns' p d = Some i -> number_of ns' (f p) d = Some j -> g i = h j) -> sumn n g = sumn n h.
  Proof.
    intros hg. destruct self_image as [hn _]. destruct sym as [_ [hm _]].
    destruct (initialise_inv _ _ _ _ _ _ _ _ run) as [s0 [_ [e0 _]]]. destruct (initialise_kept _ _ _ _ _ _ _ _ _ run e0) as [hl [hnum _]].
    rewrite (dsum_numbers ns' n g hnum), (dsum_numbers ns' n h hnum), hl. assert (len : length ns = length (mirrored a ns)) by (symmetry; apply map_length).
    symmetry. rewrite (dsum_renumbered f (mirrored a ns) ns hm), <- len. apply dsum_ext. intros p d hp.
    specialize (hn p d hp). specialize (hg p d). destruct (number_of ns' p d) as [i|], (number_of ns' (f p) d) as [j|]; [symmetry; auto| | |reflexivity].
    - exfalso. exact (proj1 hn ltac:(discriminate) eq_refl).
    - exfalso. exact (proj2 hn ltac:(discriminate) eq_refl).
  Qed.

  Lemma self_mulv x y p d i j : (forall p d i j, number_of ns' p d = Some i -> number_of ns' (f p) d = Some j -> y j = side d * x i) ->
    number_of ns' p d = Some i -> number_of ns' (f p) d = Some j ->
    mulv n (me (gK s)) y j = side d * mulv n (me (gK s)) x i /\ mulv n (me (gM s)) y j = side d * mulv n (me (gM s)) x i /\ mulv n (me (gC s)) y j = side d * mulv n (me (gC s)) x i.
  Proof.
    intros h h1 h2. destruct self_image as [_ he]. unfold mulv. rewrite <- !sumn_scal. refine (conj _ (conj _ _)); symmetry; apply self_sum; intros q e k l h3 h4;
      destruct (he _ _ _ _ _ _ _ _ h1 h3 h2 h4) as [e1 [e2 e3]]; rewrite ?e1, ?e2, ?e3, (h _ _ _ _ h3 h4);
      match goal with |- ?c * (?A * ?b) = ?c * ?z * ?A * (?z * ?b) => transitivity (c * (A * b) * (z * z)); [rewrite side_side; ring|ring] end.
  Qed.

  Lemma self_place j : (j < n)%nat -> exists p d i, number_of ns' p d = Some i /\ number_of ns' (f p) d = Some j /\ (i < n)%nat.
  Proof.
    intros hj. destruct self_image as [hi _]. destruct sym as [hf [hm _]].
    destruct (initialise_inv _ _ _ _ _ _ _ _ run) as [s0 [_ [e0 _]]]. destruct (initialise_kept _ _ _ _ _ _ _ _ _ run e0) as [hl [hn _]].
    assert (g : In j (all_numbers ns')) by (rewrite hn; apply in_seq; lia). apply all_numbers_In in g. destruct g as [p [d hq]].
    destruct (below _ _ _ _ _ _ _ _ run _ _ _ hq) as [_ hb]. assert (q : number_of ns' (f p) d <> None) by (apply (proj1 (hi p d hb)); congruence).
    destruct (number_of ns' (f p) d) as [i|] eqn:ei; [|congruence]. exists (f p), d, i. rewrite hf. split; [exact ei|]. split; [exact hq|]. exact (proj1 (below _ _ _ _ _ _ _ _ run _ _ _ ei)).
  Qed.
End Symmetric.

(** a symmetric model under symmetric loads, whose balance is unique, is displaced symmetrically: nodes that are each other's
    mirror image move vertically alike, and horizontally and by rotation in opposite ways *)
Theorem C140_symmetric a f (ns : list (node R)) ps ls cs da s ns' n x :
  initialise_system ns ps ls cs da = Ok (s, ns', n) ->
  Forall shaped ps -> Forall (fun p => sound (settled ns p)) ps -> Forall (within ns) ps -> Forall (mirrorable ns) ps -> Forall plain_load ls ->
  symmetric_model a f ns ps cs -> symmetric_loads f ls ->
  in_balance s n x -> (forall y, in_balance s n y -> forall i, (i < n)%nat -> y i = x i) ->
  forall p d, (p < length ns)%nat -> field_of ns' x (f p) d = side d * field_of ns' x p d.
Proof.
  intros h hs ho hw hm hp hsym hload hx hu p d hpl.
  destruct (self_image a f ns ps ls cs da s ns' n h hs ho hw hm hsym) as [hn he].
  pose proof (self_mulv a f ns ps ls cs da s ns' n h hs ho hw hm hsym) as hmul. pose proof (self_place a f ns ps ls cs da s ns' n h hs ho hw hm hsym) as hpl'.
  destruct (initialise_inv _ _ _ _ _ _ _ _ h) as [s0 [_ [e0 _]]]. destruct (initialise_kept _ _ _ _ _ _ _ _ _ h e0) as [hl [hnum _]].
  pose proof hsym as [hf [hmesh _]].
  assert (out : forall q e, number_of ns' q e <> None -> (q < length ns)%nat).
  { intros q e hq. destruct (number_of ns' q e) as [k|] eqn:ek; [|congruence]. exact (proj2 (below _ _ _ _ _ _ _ _ h _ _ _ ek)). }
  assert (inv : forall q e, number_of ns' q e = None -> number_of ns' (f q) e = None).
  { intros q e hq. destruct (number_of ns' (f q) e) as [k|] eqn:ek; [|reflexivity]. exfalso.
    assert (b : (f q < length ns)%nat) by (apply (out _ e); congruence). apply (proj1 (hn (f q) e b)); [congruence|]. rewrite hf. exact hq. }
  set (y := vector_of ns' (fun q e => side e * field_of ns' x (f q) e)).
  assert (fy : forall q e, field_of ns' y q e = side e * field_of ns' x (f q) e).
  { apply (vector_field ns' n); [exact hnum|]. intros q e hq. unfold field_of. rewrite (inv q e hq). ring. }
  assert (vy : forall q e i j, number_of ns' q e = Some i -> number_of ns' (f q) e = Some j -> y j = side e * x i).
  { intros q e i j g1 g2. pose proof (fy (f q) e) as g. unfold field_of in g. rewrite hf, g1, g2 in g. exact g. }
  assert (by_ : in_balance s n y).
  { intros j hj. destruct (hpl' j hj) as [q [e [i [g1 [g2 hi]]]]]. destruct (hmul x y q e i j vy g1 g2) as [-> _].
    rewrite (hx i hi). rewrite !(plain_forces _ _ _ _ _ _ _ _ h (loads_in_range _ _ _ _ _ _ _ _ h) hp _ _ _ g1), (plain_forces _ _ _ _ _ _ _ _ h (loads_in_range _ _ _ _ _ _ _ _ h) hp _ _ _ g2). symmetry. apply hload. }
  specialize (hu y by_). pose proof (fy p d) as g. destruct (number_of ns' p d) as [i|] eqn:ei.
  - assert (q : number_of ns' (f p) d <> None) by (apply (proj1 (hn p d hpl)); congruence). destruct (number_of ns' (f p) d) as [j|] eqn:ej; [|congruence].
    unfold field_of. rewrite ei, ej. rewrite <- (hu j (proj1 (below _ _ _ _ _ _ _ _ h _ _ _ ej))). exact (vy p d i j ei ej).
  - unfold field_of. rewrite ei, (inv p d ei). ring.
Qed.
Print Assumptions C140_symmetric.

(** the mirror image of a motion of a symmetric model is a motion of the same model under the mirrored load *)
Theorem C140_image a f (ns : list (node R)) ps ls cs da s ns' n g u v b g2 u2 v2 b2 :
  initialise_system ns ps ls cs da = Ok (s, ns', n) ->
  Forall shaped ps -> Forall (fun p => sound (settled ns p)) ps -> Forall (within ns) ps -> Forall (mirrorable ns) ps ->
  symmetric_model a f ns ps cs ->
  (forall p d i j, number_of ns' p d = Some i -> number_of ns' (f p) d = Some j -> forall t,
     g2 t j = side d * g t i /\ u2 t j = side d * u t i /\ v2 t j = side d * v t i /\ b2 t j = side d * b t i) ->
  motion n s g u v b -> motion n s g2 u2 v2 b2.
Proof.
  intros h hs ho hw hm hsym he [mu [mv mb]].
  pose proof (self_mulv a f ns ps ls cs da s ns' n h hs ho hw hm hsym) as hmul. pose proof (self_place a f ns ps ls cs da s ns' n h hs ho hw hm hsym) as pl.
  split; [|split].
  - intros j hj. destruct (pl j hj) as [p [d [i [h3 [h4 hi]]]]]. apply (Proofs_Motion.derivative_ext (fun t => side d * u t i) _ (fun t => side d * v t i)); [| |apply derivative_scale; apply mu; exact hi];
      intros t; destruct (he p d i j h3 h4 t) as [e1 [e2 [e3 e4]]]; congruence.
  - intros j hj. destruct (pl j hj) as [p [d [i [h3 [h4 hi]]]]]. apply (Proofs_Motion.derivative_ext (fun t => side d * v t i) _ (fun t => side d * b t i)); [| |apply derivative_scale; apply mv; exact hi];
      intros t; destruct (he p d i j h3 h4 t) as [e1 [e2 [e3 e4]]]; congruence.
  - intros t j hj. destruct (pl j hj) as [p [d [i [h3 [h4 hi]]]]]. destruct (he p d i j h3 h4 t) as [-> _]. rewrite <- (mb t i hi).
    destruct (hmul (b t) (b2 t) p d i j) as [_ [w1 _]]; [intros p0 d0 i0 j0 x y; apply (he p0 d0 i0 j0 x y t)|exact h3|exact h4|].
    destruct (hmul (v t) (v2 t) p d i j) as [_ [_ w2]]; [intros p0 d0 i0 j0 x y; apply (he p0 d0 i0 j0 x y t)|exact h3|exact h4|].
    destruct (hmul (u t) (u2 t) p d i j) as [w3 _]; [intros p0 d0 i0 j0 x y; apply (he p0 d0 i0 j0 x y t)|exact h3|exact h4|].
    rewrite w1, w2, w3. ring.
Qed.
Print Assumptions C140_image.

(** a beam on two supports, with a mass at both ends and opposite moments on its ends: its ends turn in opposite ways *)
Definition level_beam : epart R := mkPart (KBeam (mkBeam 1 0 420 1 1 0 1 None None)) [0; 1]%nat [(0, 1)]%nat.
Definition end_masses : epart R := mkPart (KPoint 5) [0; 1]%nat [].
Definition end_moments : load R := mkLoad (T3 false false true) [0; 1]%nat [T3 0 0 2; T3 0 0 (-2)].
Definition supports : list (list nat * tri bool) := [([0; 1]%nat, T3 false false true)].

Lemma level_energy u : nsum (map (fun p => part_form aux_stiffness two_nodes u (settled two_nodes p)) [level_beam; end_masses]) =
  (u 1%nat DX - u 0%nat DX) * (u 1%nat DX - u 0%nat DX) + (u 1%nat DR - u 0%nat DR) * (u 1%nat DR - u 0%nat DR) +
  12 * ((u 0%nat DY - u 1%nat DY + (u 0%nat DR + u 1%nat DR) / 2) * (u 0%nat DY - u 1%nat DY + (u 0%nat DR + u 1%nat DR) / 2)).
Proof.
  cbn [map nsum]. change (settled two_nodes level_beam) with level_beam. change (settled two_nodes end_masses) with end_masses.
  destruct (C85_element_energy two_nodes u level_beam (0, 1)%nat) as [_ [_ [h _]]]. cbn [fst snd] in h.
  assert (ea : calculate_rotation1 (xy two_nodes 0, xy two_nodes 1) = 0).
  { cbn [xy two_nodes nth_error new_node n_coord tx ty]. apply rotation1_right. lra. }
  rewrite ea in h. rewrite (h _ (or_introl eq_refl) eq_refl); [|split; reflexivity|repeat split; cbn; lra].
  destruct (C85_element_energy two_nodes u end_masses (0, 1)%nat) as [_ [_ [_ [_ g]]]]. rewrite (proj1 (g 5 eq_refl)).
  unfold timoshenko_factor. cbn [b_shear_factor b_E b_A b_I b_l]. rnum. destruct (nltbP 0 0); [lra|]. unfold along, across. rewrite cos_0, sin_0. field.
Qed.

Example C140_symmetric_case : exists s ns' n x,
  initialise_system two_nodes [level_beam; end_masses] [end_moments] supports no_damping = Ok (s, ns', n) /\
  Forall shaped [level_beam; end_masses] /\ Forall (fun p => sound (settled two_nodes p)) [level_beam; end_masses] /\ Forall (within two_nodes) [level_beam; end_masses] /\
  Forall (mirrorable two_nodes) [level_beam; end_masses] /\ Forall plain_load [end_moments] /\
  symmetric_model 1 other_end two_nodes [level_beam; end_masses] supports /\ symmetric_loads other_end [end_moments] /\
  in_balance s n x /\ (forall y, in_balance s n y -> forall i, (i < n)%nat -> y i = x i) /\
  field_of ns' x 1 DR = - field_of ns' x 0 DR.
Proof.
  assert (r : exists s ns' n, initialise_system two_nodes [level_beam; end_masses] [end_moments] supports no_damping = Ok (s, ns', n)).
  { apply initialise_ok.
    - intros p [<-|[<-|[]]]; eexists; reflexivity.
    - intros p i [<-|[<-|[]]] hi; cbn in hi; cbn; lia.
    - intros l i [<-|[]] hi. cbn in hi. cbn. lia. }
  destruct r as [s [ns' [n h]]]. 
  assert (hs : Forall shaped [level_beam; end_masses]) by (repeat constructor; cbn; congruence).
  assert (ho : Forall (fun p => sound (settled two_nodes p)) [level_beam; end_masses]) by (repeat constructor; cbn; lra).
  assert (hw : Forall (within two_nodes) [level_beam; end_masses]).
  { apply Forall_forall. intros p [<-|[<-|[]]] i [hi|[e [he hi]]]; cbn in *; try lia; destruct he as [<-|[]]; cbn in hi; lia. }
  assert (hm : Forall (mirrorable two_nodes) [level_beam; end_masses]).
  { constructor; [intros e [<-|[]]; right; left; cbn; split; [reflexivity|lra]|constructor; [exact I|constructor]]. }
  assert (hp : Forall plain_load [end_moments]) by (constructor; [split; [repeat constructor; cbn; lia|reflexivity]|constructor]).
  assert (hsym : symmetric_model 1 other_end two_nodes [level_beam; end_masses] supports).
  { split; [intros [|[|p]]; reflexivity|]. split; [|split].
    - split; [reflexivity|]. split; [intros [|[|p]] [|[|q]] e; cbn in e; congruence|].
      intros [|[|p]]; [cbn; split; [f_equal; ring|reflexivity]|cbn; split; [f_equal; ring|reflexivity]|]. cbn. destruct p; exact I.
    - exists [level_beam; end_masses]. split; [|apply Permutation_refl]. constructor; [|constructor; [|constructor]].
      + split; [reflexivity|]. cbn [level_beam ep_kind ep_els map fst snd other_end]. exists [(0, 1)%nat]. split; [|apply Permutation_refl]. constructor; [|constructor]. right. split; [reflexivity|].
        split; [reflexivity|]. right. cbn. rewrite Rabs_left; lra.
      + split; [reflexivity|]. cbn. apply perm_swap.
    - intros [|[|p]]; reflexivity. }
  assert (hload : symmetric_loads other_end [end_moments]).
  { intros [|[|p]] d; destruct d; cbn; rnum; try ring; destruct p; cbn; rnum; ring. }
  destruct (initialise_inv _ _ _ _ _ _ _ _ h) as [s0 [_ [e0 _]]]. destruct (initialise_kept _ _ _ _ _ _ _ _ _ h e0) as [hl [hn [hk _]]].
  assert (only : forall p d, number_of ns' p d <> None -> d = DR /\ (p = 0 \/ p = 1)%nat).
  { intros p d g. assert (hb : (p < 2)%nat) by (destruct (number_of ns' p d) eqn:e; [|congruence]; apply number_of_bound in e; rewrite hl in e; exact e).
    apply (hk p d hb) in g. destruct g as [g _]. split; [|lia]. destruct p as [|[|p]]; [| |lia]; destruct d; cbn in g; congruence. }
  assert (pd : pos_def n (me (gK s))).
  { intros x [i [hi hx]]. destruct (initialise_energy _ _ _ _ _ _ _ _ x hs h) as [-> _]. rewrite level_energy.
    assert (z : forall p d, d <> DR -> field_of ns' x p d = 0).
    { intros p d hd. unfold field_of. destruct (number_of ns' p d) eqn:e; [|reflexivity]. exfalso. apply hd. apply (only p d). congruence. }
    rewrite (z 0%nat DX), (z 1%nat DX), (z 0%nat DY), (z 1%nat DY) by discriminate. assert (g : In i (all_numbers ns')) by (rewrite hn; apply in_seq; lia). apply all_numbers_In in g. destruct g as [p [d hq]].
    destruct (only p d ltac:(congruence)) as [-> hp2]. assert (v : field_of ns' x p DR <> 0) by (unfold field_of; rewrite hq; exact hx).
    assert (v2 : field_of ns' x 0 DR <> 0 \/ field_of ns' x 1 DR <> 0) by (destruct hp2; subst p; auto).
    set (t0 := field_of ns' x 0 DR) in *. set (t1 := field_of ns' x 1 DR) in *.
    replace ((0 - 0) * (0 - 0) + (t1 - t0) * (t1 - t0) + 12 * ((0 - 0 + (t0 + t1) / 2) * (0 - 0 + (t0 + t1) / 2))) with (4 * (t0 * t0 + t0 * t1 + t1 * t1)) by field.
    clearbody t0 t1. clear - v2. destruct v2 as [v2|v2]; pose proof (Rsqr_pos_lt _ v2) as g.
    - replace (4 * (t0 * t0 + t0 * t1 + t1 * t1)) with (3 * Rsqr t0 + Rsqr (t0 + 2 * t1)) by (unfold Rsqr; ring). pose proof (Rle_0_sqr (t0 + 2 * t1)). lra.
    - replace (4 * (t0 * t0 + t0 * t1 + t1 * t1)) with (3 * Rsqr t1 + Rsqr (t1 + 2 * t0)) by (unfold Rsqr; ring). pose proof (Rle_0_sqr (t1 + 2 * t0)). lra. }
  destruct (definite_solves n _ pd (fun i => nth i (gF s) 0)) as [x hx].
  assert (hu : forall y, in_balance s n y -> forall i, (i < n)%nat -> y i = x i).
  { intros y hy. apply (pos_def_injective n (me (gK s)) y x pd). intros i hi. rewrite (hy i hi), (hx i hi). reflexivity. }
  exists s, ns', n, x. do 8 (split; [assumption|]). split; [exact hx|]. split; [exact hu|].
  pose proof (C140_symmetric 1 other_end two_nodes _ _ _ _ _ _ _ x h hs ho hw hm hp hsym hload hx hu 0%nat DR ltac:(cbn; lia)) as g. cbn [other_end side] in g. lra.
Qed.

(** a beam that is nearly but not exactly upright keeps its axis in the mirror: the stiffness between the displacement along x and
    the rotation of its lower node changes its sign there, although both directions turn round *)
Lemma mirrored_angle : calculate_rotation1 (xy (mirrored 0 leaning_nodes) 0, xy (mirrored 0 leaning_nodes) 1) = PI / 2 + PI.
Proof.
  cbn [xy mirrored map mirror_node leaning_nodes nth_error new_node n_coord tx ty]. unfold calculate_rotation1. rnum.
  assert (n1 : np_isclose (0 - 1 / 1000000000 - (0 - 0)) 0 = true) by (apply np_isclose_0_spec; rewrite Rabs_left; lra).
  rewrite n1. destruct (nltbP (0 - 1 / 1000000000) (0 - 0)); [|lra].
  rewrite (nsign_pos (1 - 0)) by lra. change (PI / 2 * 1 + PI = PI / 2 + PI). field.
Qed.

Lemma mirrored_stiffness u : part_form aux_stiffness (mirrored 0 leaning_nodes) u (leaning (0, 1)%nat) =
  (u 1%nat DY - u 0%nat DY) * (u 1%nat DY - u 0%nat DY) + (u 1%nat DR - u 0%nat DR) * (u 1%nat DR - u 0%nat DR) +
  12 * ((u 1%nat DX - u 0%nat DX + (u 0%nat DR + u 1%nat DR) / 2) * (u 1%nat DX - u 0%nat DX + (u 0%nat DR + u 1%nat DR) / 2)).
Proof.
  destruct (C85_element_energy (mirrored 0 leaning_nodes) u (leaning (0, 1)%nat) (0, 1)%nat) as [_ [_ [h _]]]. cbn [fst snd] in h.
  rewrite mirrored_angle in h. rewrite (h _ (or_introl eq_refl) eq_refl); [|split; reflexivity|repeat split; cbn; lra].
  unfold timoshenko_factor. cbn [b_shear_factor b_E b_A b_I b_l]. rnum. destruct (nltbP 0 0); [lra|]. unfold along, across. rewrite neg_cos, neg_sin, cos_PI2, sin_PI2. field.
Qed.

Lemma mirrored_mass u : part_form aux_mass (mirrored 0 leaning_nodes) u (leaning (0, 1)%nat) =
  quad 6 (mass_entries (mkBeam 1 0 420 1 1 0 1 None None) 0) (vec6 (u 0%nat DY) (- u 0%nat DX) (u 0%nat DR) (u 1%nat DY) (- u 1%nat DX) (u 1%nat DR)).
Proof.
  unfold part_form, leaning. cbn [ep_kind ep_els aux_mass map nsum fst snd element_form]. rewrite mirrored_angle. unfold timoshenko_factor. cbn [b_shear_factor]. rnum. destruct (nltbP 0 0); [lra|].
  rewrite Rplus_0_r. unfold quad. apply sumn_ext. intros i hi. apply sumn_ext. intros j hj. rewrite beam_mass_entries by assumption.
  unfold local6, along, across. rewrite neg_cos, neg_sin, cos_PI2, sin_PI2.
  do 6 (destruct i as [|i]; [do 6 (destruct j as [|j]; [cbn [vec6]; ring|]); lia|]); lia.
Qed.

Lemma mirrored_leans : exists s ns' n, initialise_system (mirrored 0 leaning_nodes) [leaning (0, 1)%nat] [] [] no_damping = Ok (s, ns', n) /\
    exists i j, number_of ns' 0 DX = Some i /\ number_of ns' 0 DR = Some j /\ me (gK s) i j = - 6.
Proof.
  set (mn := mirrored 0 leaning_nodes).
  assert (r : exists s ns' n, initialise_system mn [leaning (0, 1)%nat] [] [] no_damping = Ok (s, ns', n)).
  { apply initialise_ok.
    - intros a [<-|[]]. eexists. reflexivity.
    - intros a i [<-|[]] hi. cbn in hi. cbn. lia.
    - intros l i []. }
  destruct r as [s [ns' [n h]]]. exists s, ns', n. split; [exact h|].
  assert (hs : Forall shaped [leaning (0, 1)%nat]) by (constructor; [discriminate|constructor]).
  assert (ho : Forall (fun a => sound (settled mn a)) [leaning (0, 1)%nat]) by (constructor; [repeat split; cbn; lra|constructor]).
  destruct (initialise_inv _ _ _ _ _ _ _ _ h) as [s0 [_ [e0 _]]]. destruct (initialise_kept _ _ _ _ _ _ _ _ _ h e0) as [hl [hn [hk _]]].
  assert (kept : forall d, (d = DX \/ d = DR) -> number_of ns' 0 d <> None).
  { intros d hd. apply (hk 0%nat d); [cbn; lia|]. split; [destruct hd; subst d; reflexivity|].
    destruct (assemble_diag mn [leaning (0, 1)%nat] [] s0 _ 0%nat d hs e0 ltac:(cbn; lia)) as [q1 q2]. cbn [map nsum] in q1, q2.
    change (settled mn (leaning (0, 1)%nat)) with (leaning (0, 1)%nat) in q1, q2. unfold mn in q1, q2. rewrite mirrored_stiffness in q1. rewrite mirrored_mass in q2.
    replace (3 * 0 + match d with DX => 0 | DY => 1 | DR => 2 end)%nat with (3 * 0 + dir_idx d)%nat by (destruct d; reflexivity). rewrite q1, q2. clear q1 q2.
    unfold quad, mass_entries. destruct (Req_EM_T 0 0) as [_|ne]; [|contradiction]. cbn [sumn b_l b_rho b_A].
    destruct hd; subst d; unfold unit_field; cbn [vec6 trans_entries Nat.eqb Nat.mul Nat.add dir_idx]; rnum; split; rewrite Rabs_right; lra. }
  destruct (number_of ns' 0 DX) as [i|] eqn:ei; [|exfalso; apply (kept DX); auto].
  destruct (number_of ns' 0 DR) as [j|] eqn:ej; [|exfalso; apply (kept DR); auto].
  exists i, j. split; [reflexivity|]. split; [reflexivity|].
  assert (below : forall d k, number_of ns' 0 d = Some k -> (k < n)%nat).
  { intros d k hd. assert (g : In k (all_numbers ns')) by (apply all_numbers_In; eauto). rewrite hn in g. apply in_seq in g. lia. }
  pose proof (initialise_sym _ _ _ _ _ _ _ _ hs ho h) as [sk _].
  rewrite (quad_pair n _ i j sk (below _ _ ei) (below _ _ ej)).
  destruct (initialise_energy _ _ _ _ _ _ _ _ (fun k => unit_vec i k + unit_vec j k) hs h) as [-> _].
  destruct (initialise_energy _ _ _ _ _ _ _ _ (unit_vec i) hs h) as [-> _]. destruct (initialise_energy _ _ _ _ _ _ _ _ (unit_vec j) hs h) as [-> _].
  cbn [map nsum]. change (settled mn (leaning (0, 1)%nat)) with (leaning (0, 1)%nat). unfold mn. rewrite !mirrored_stiffness.
  assert (inj : forall a d b e k, number_of ns' a d = Some k -> number_of ns' b e = Some k -> a = b /\ d = e) by (intros; eapply numbered_inj; eassumption).
  assert (f0 : forall d0 k, number_of ns' 0 d0 = Some k -> forall a d, field_of ns' (unit_vec k) a d = unit_field 0 d0 a d).
  { intros d0 k ek a d. unfold field_of, unit_field, unit_vec. destruct (number_of ns' a d) as [k2|] eqn:ek2.
    - destruct (Nat.eqb_spec k k2) as [->|ne]; [destruct (inj _ _ _ _ _ ek ek2) as [<- <-]; rewrite Nat.eqb_refl; reflexivity|].
      destruct (Nat.eqb_spec (3 * 0 + dir_idx d0) (3 * a + dir_idx d)) as [e|]; [|reflexivity]. exfalso. assert (a = 0%nat /\ d = d0) as [-> ->] by (destruct d, d0; cbn in e; split; try reflexivity; lia). congruence.
    - destruct (Nat.eqb_spec (3 * 0 + dir_idx d0) (3 * a + dir_idx d)) as [e|]; [|reflexivity]. exfalso. assert (a = 0%nat /\ d = d0) as [-> ->] by (destruct d, d0; cbn in e; split; try reflexivity; lia). congruence. }
  assert (f3 : forall a d, field_of ns' (fun k => unit_vec i k + unit_vec j k) a d = unit_field 0 DX a d + unit_field 0 DR a d).
  { intros a d. rewrite <- (f0 _ _ ei), <- (f0 _ _ ej). unfold field_of. destruct (number_of ns' a d); ring. }
  rewrite !f3, !(f0 _ _ ei), !(f0 _ _ ej). unfold unit_field; cbn [Nat.eqb Nat.mul Nat.add dir_idx]; rnum; field.
Qed.

Theorem C140_leaning_refuted : exists a (ns : list (node R)) p s ns' n s2 ms' m i j i' j',
  initialise_system ns [p] [] [] no_damping = Ok (s, ns', n) /\ initialise_system (mirrored a ns) [p] [] [] no_damping = Ok (s2, ms', m) /\
  shaped p /\ sound (settled ns p) /\ within ns p /\
  number_of ns' 0 DX = Some i /\ number_of ns' 0 DR = Some j /\ number_of ms' 0 DX = Some i' /\ number_of ms' 0 DR = Some j' /\
  side DX * side DR * me (gK s) i j = 6 /\ me (gK s2) i' j' = - 6.
Proof.
  destruct (leaning_system 0 1 (or_introl eq_refl)) as [s [ns' [n [h1 [i [j [e1 [e2 e3]]]]]]]].
  destruct mirrored_leans as [s2 [ms' [m [h2 [i' [j' [e4 [e5 e6]]]]]]]].
  exists 0, leaning_nodes, (leaning (0, 1)%nat), s, ns', n, s2, ms', m, i, j, i', j'.
  split; [exact h1|]. split; [exact h2|]. split; [discriminate|]. split; [repeat split; cbn; lra|].
  split; [intros q [hq|[e [[<-|[]] hq]]]; cbn in hq; cbn; lia|]. split; [exact e1|]. split; [exact e2|]. split; [exact e4|]. split; [exact e5|]. split; [rewrite e3; cbn; lra|exact e6].
Qed.
Print Assumptions C140_leaning_refuted.
