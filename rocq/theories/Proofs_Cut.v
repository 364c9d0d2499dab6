(** * Lemmas for tracks cut into different segments *)

From Coq Require Import Reals List Bool ZArith Arith FunctionalExtensionality Lia Lra Permutation.
From Verif Require Import Num PyBase Model_Geometry Model_System Spec_System Proofs_Dof Proofs_System Model_Element Spec_Element
  Proofs_Elements Proofs_Element Proofs_Beam Model_Accumulation Proofs_Accumulation Model_Coupled Model_Mesh Spec_Mesh Proofs_Mesh Proofs_Join Props_Mesh Model_Track Spec_Track Spec_Generated Proofs_Track
  Proofs_Assembly Proofs_Generated Props_Generated Spec_Analytic Spec_Motion Proofs_Motion Spec_Chain Proofs_Chain Spec_Renumber Proofs_Renumber Spec_Balance Proofs_Balance Props_Balance
  Spec_Structure Proofs_Structure Proofs_Line Props_Structure Spec_Stiffer Proofs_Stiffer Props_Stiffer Spec_Cut.
Import ListNotations.
Local Open Scope R_scope.

(** ** matching two lists *)

Lemma match_lists N : forall l l' : list nat, Permutation l (seq 0 N) -> Permutation l' (seq 0 N) ->
  exists f : nat -> nat, map f l = l' /\ (forall p q, f p = f q -> p = q) /\ (forall p, (p < N)%nat -> (f p < N)%nat) /\ forall p, (N <= p)%nat -> f p = p.
Proof.
  intros l l' h1 h2. assert (hl : length l = N) by (rewrite (Permutation_length h1); apply seq_length). assert (hl' : length l' = N) by (rewrite (Permutation_length h2); apply seq_length).
  assert (nd : NoDup l) by (apply (Permutation_NoDup (Permutation_sym h1)), seq_NoDup). assert (nd' : NoDup l') by (apply (Permutation_NoDup (Permutation_sym h2)), seq_NoDup).
  assert (hin : forall p, (p < N)%nat <-> In p l).
  { intros p. split; intros h; [apply (Permutation_in _ (Permutation_sym h1)), in_seq; lia|apply (Permutation_in _ h1) in h; apply in_seq in h; lia]. }
  assert (hin' : forall p, (p < N)%nat <-> In p l').
  { intros p. split; intros h; [apply (Permutation_in _ (Permutation_sym h2)), in_seq; lia|apply (Permutation_in _ h2) in h; apply in_seq in h; lia]. }
  set (at_ p := length (fst (fold_left (fun (a : list nat * bool) x => if (snd a || Nat.eqb x p)%bool then (fst a, true) else (x :: fst a, false)) l ([], false)))).
  assert (g : exists at_ : nat -> nat, forall i, (i < N)%nat -> at_ (nth i l 0%nat) = i).
  { clear at_. exists (fun p => match find (fun i => Nat.eqb (nth i l 0%nat) p) (seq 0 N) with Some i => i | None => 0%nat end).
    intros i hi. destruct (find _ (seq 0 N)) as [k|] eqn:ef.
    - apply find_some in ef. destruct ef as [k1 k2]. apply Nat.eqb_eq in k2. apply in_seq in k1. apply (NoDup_nth l 0%nat); [exact nd|lia|lia|exact k2].
    - exfalso. pose proof (find_none _ _ ef i ltac:(apply in_seq; lia)) as g. cbv beta in g. rewrite Nat.eqb_refl in g. discriminate. }
  clear at_. destruct g as [at_ hat].
  assert (hat2 : forall p, (p < N)%nat -> (at_ p < N)%nat /\ nth (at_ p) l 0%nat = p).
  { intros p hp. apply hin in hp. destruct (In_nth l p 0%nat hp) as [i [k1 k2]]. rewrite hl in k1. rewrite <- k2, hat by exact k1. auto. }
  exists (fun p => if Nat.ltb p N then nth (at_ p) l' 0%nat else p). split; [|split; [|split]].
  - apply (nth_ext _ _ (if Nat.ltb 0 N then nth (at_ 0%nat) l' 0%nat else 0%nat) 0%nat); [rewrite map_length; congruence|]. intros i hi. rewrite map_length, hl in hi.
    rewrite (map_nth (fun p => if Nat.ltb p N then nth (at_ p) l' 0%nat else p)). assert (hp : (nth i l 0 < N)%nat) by (apply hin; apply nth_In; lia).
    apply Nat.ltb_lt in hp. rewrite hp. rewrite hat by exact hi. reflexivity.
  - intros p q h. destruct (Nat.ltb_spec p N) as [hp|hp], (Nat.ltb_spec q N) as [hq|hq].
    + destruct (hat2 p hp) as [a1 a2]. destruct (hat2 q hq) as [b1 b2]. rewrite <- a2, <- b2. f_equal. apply (NoDup_nth l' 0%nat); [exact nd'|lia|lia|exact h].
    + exfalso. destruct (hat2 p hp) as [a1 _]. assert (g : (nth (at_ p) l' 0 < N)%nat) by (apply hin'; apply nth_In; lia). lia.
    + exfalso. destruct (hat2 q hq) as [a1 _]. assert (g : (nth (at_ q) l' 0 < N)%nat) by (apply hin'; apply nth_In; lia). lia.
    + exact h.
  - intros p hp. destruct (Nat.ltb_spec p N) as [_|h]; [|lia]. apply hin'. apply nth_In. rewrite hl'. apply hat2. exact hp.
  - intros p hp. destruct (Nat.ltb_spec p N) as [h|_]; [lia|reflexivity].
Qed.

(** ** what joining gives *)

Record laid (specs : list (nat * R)) (d : R) (r : nat) (j : joined) (c : heap R) (mesh : list nat) : Prop := mkLaid {
  la_mesh : mesh = seq 0 (length mesh);
  la_long : length (jn_rail_nodes j) = (sleeper_count specs * r + (length specs - 1) * (r - 1))%nat;
  la_rail : forall i, (i < length (jn_rail_nodes j))%nat -> c (nth i (jn_rail_nodes j) 0%nat) = T3 (INR i * (d / INR r)) 0 0;
  la_line : in_line (jn_rail_nodes j) (jn_rail_els j);
  la_sleepers : map c (jn_sleepers j) = map (fun x => T3 x (-1) 0) (sleeper_places (2 * d - d / INR r) d 0 specs);
  la_pads : map snd (jn_pad_els j) = jn_sleepers j;
  la_above : forall a b, In (a, b) (jn_pad_els j) -> In a (jn_rail_nodes j) /\ tx (c a) = tx (c b);
  la_pad_nodes : jn_pad_nodes j = flat_map (fun e => [fst e; snd e]) (jn_pad_els j);
  la_under : map fst (flat_map snd (jn_soil j)) = jn_sleepers j;
  la_soil : Forall2 (fun part spec => length (snd part) = fst spec /\ fst part = flat_map (fun e => [fst e; snd e]) (snd part) /\
      forall a b, In (a, b) (snd part) -> c b = T3 (tx (c a)) (-1 - snd spec) 0) (jn_soil j) specs;
  la_all : Permutation (jn_rail_nodes j ++ jn_sleepers j ++ soil_ends j) (seq 0 (length mesh)) }.

Lemma joins_laid h specs d r j c mesh : (1 <= r)%nat -> 1 / 1000000000 < d / INR r -> segments specs -> joins h specs d r j c mesh -> laid specs d r j c mesh.
Proof.
  intros hr hd hseg hj. destruct (joined_line h specs d r j c mesh hr hd hseg hj) as [hm _]. destruct hseg as [hs hc]. destruct hj as [ts [els [ht hj]]].
  assert (hne : specs <> []) by (intros ->; cbn in hc; lia).
  rewrite (create_tracks_spec r d hr hd h 0 specs hs) in ht. injection ht as <-.
  assert (hf : length (flat_map tk_objects (tracks_of r d 0 specs)) = total r specs).
  { rewrite <- (map_length (@n_id R)), (tracks_ids r d hr), seq_length. reflexivity. }
  destruct (C52_joined_tracks_partial h 0 specs d r (length (flat_map tk_objects (tracks_of r d 0 specs))) hr hd hne hs) as [ts [et [hlt g]]].
  rewrite (create_tracks_spec r d hr hd h 0 specs hs) in et. injection et as <-. destruct g as [j2 [c2 [m2 [els2 [e2 [r1 [r2 [r3 [s1 [p1 [p2 [p3 [o1 [o2 [_ [pm _]]]]]]]]]]]]]]]].
  { intros t n ht hn. rewrite hf. assert (hin : In (n_id n) (seq 0 (total r specs))).
    { rewrite <- (tracks_ids r d hr). apply in_map. apply in_flat_map. exists t. auto. }
    apply in_seq in hin. lia. }
  rewrite e2 in hj. injection hj as -> -> -> ->. constructor; try assumption. rewrite <- hm. apply Permutation_sym. exact pm.
Qed.

Lemma joins_exist h specs d r : (1 <= r)%nat -> 1 / 1000000000 < d / INR r -> segments specs -> exists j c mesh, joins h specs d r j c mesh.
Proof. intros hr hd hs. destruct (joined_rail_length h specs d r hr hd hs) as [j [c [mesh [hj _]]]]. eauto. Qed.

(** with one rail element per sleeper the sleepers lie at the sleeper distance, however the track is cut *)
Lemma places_one d specs : (forall n depth, In (n, depth) specs -> (1 <= n)%nat /\ 1 / 1000000000 < depth) ->
  forall x, sleeper_places (2 * d - d / INR 1) d x specs = map (fun i => x + INR i * d) (seq 0 (sleeper_count specs)).
Proof.
  induction specs as [|[n depth] q IH]; intros hg x; [reflexivity|]. cbn [sleeper_places].
  change (sleeper_count ((n, depth) :: q)) with (n + sleeper_count q)%nat. rewrite seq_app, map_app. f_equal.
  rewrite IH by (intros m e hm; apply (hg m e); right; auto). destruct (hg n depth (or_introl eq_refl)) as [hn _].
  cbn [Nat.add]. rewrite <- (map_seq_shift n), map_map. apply map_ext. intros i. rewrite plus_INR, minus_INR by lia. cbn [INR]. field.
Qed.

Lemma per_count {A} specs (soils : list A) : length soils = length specs -> length (per_sleeper specs soils) = sleeper_count specs.
Proof.
  unfold per_sleeper, sleeper_count. revert soils. induction specs as [|[n x] specs IH]; intros [|v soils] h; try discriminate; [reflexivity|].
  cbn [combine flat_map map fst snd list_sum fold_right]. rewrite app_length, repeat_length, IH by (cbn in h; congruence). reflexivity.
Qed.
Lemma per_depth {A} specs (soils : list A) : length soils = length specs -> map fst (per_sleeper specs soils) = flat_map (fun q => repeat (snd q) (fst q)) specs.
Proof.
  unfold per_sleeper. revert soils. induction specs as [|[n x] specs IH]; intros [|v soils] h; try discriminate; [reflexivity|].
  cbn [combine flat_map map fst snd]. rewrite map_app, IH by (cbn in h; congruence). f_equal. clear. induction n as [|n IH]; [reflexivity|]. cbn. rewrite IH. reflexivity.
Qed.

(** the soil of all segments, element by element, with the values of each *)
Definition soil_list {A} (parts : list (list nat * list (nat * nat))) (soils : list A) : list ((nat * nat) * A) :=
  flat_map (fun q => map (fun e => (e, snd q)) (snd (fst q))) (combine parts soils).
Lemma soil_values {A} (ok : list nat * list (nat * nat) -> nat * R -> Prop) parts specs (soils : list A) :
  Forall2 (fun part spec => length (snd part) = fst spec /\ ok part spec) parts specs -> length soils = length specs ->
  soil_list parts soils = combine (flat_map snd parts) (map snd (per_sleeper specs soils)).
Proof.
  intros h. unfold soil_list, per_sleeper. revert soils. induction h as [|[ns es] [n x] parts specs [h1 _] _ IH]; intros [|v soils] hl; try discriminate; [reflexivity|].
  cbn [combine flat_map map fst snd] in *. rewrite IH by (cbn in hl; congruence). rewrite map_app. generalize (map snd (flat_map (fun q : nat * R * A => repeat (snd (fst q), snd q) (fst (fst q))) (combine specs soils))).
  clear - h1. revert n h1. induction es as [|e es IH]; intros n h1 rest; cbn [length] in h1; subst n; [reflexivity|]. cbn. rewrite (IH _ eq_refl). reflexivity.
Qed.
Lemma soil_depths (c : heap R) (ok : list nat * list (nat * nat) -> nat * R -> Prop) parts specs :
  Forall2 (fun part spec => length (snd part) = fst spec /\ ok part spec /\ forall a b, In (a, b) (snd part) -> c b = T3 (tx (c a)) (-1 - snd spec) 0) parts specs ->
  map c (map snd (flat_map snd parts)) = map (fun q => T3 (fst q) (-1 - snd q) 0) (combine (map (fun p => tx (c p)) (map fst (flat_map snd parts))) (flat_map (fun q => repeat (snd q) (fst q)) specs)).
Proof.
  intros h. induction h as [|[ns es] [n x] parts specs [h1 [_ h2]] _ IH]; [reflexivity|].
  cbn [flat_map map fst snd] in *. revert IH. generalize (flat_map snd parts) (flat_map (fun q : nat * R => repeat (snd q) (fst q)) specs). intros rest depths IH.
  revert n h1 h2. induction es as [|[a b] es IHe]; intros n h1 h2; cbn [length] in h1; subst n; [exact IH|]. cbn [repeat app map combine fst snd].
  rewrite (h2 a b (or_introl eq_refl)). f_equal. apply (IHe _ eq_refl). intros a0 b0 h0. apply h2. right. exact h0.
Qed.

Lemma same_distinct (c : heap R) d (l : list nat) : 0 < d -> (forall i, (i < length l)%nat -> c (nth i l 0%nat) = T3 (INR i * d) 0 0) ->
  forall a b, In a l -> In b l -> tx (c a) = tx (c b) -> a = b.
Proof.
  intros hd h a b ha hb e. destruct (In_nth l a 0%nat ha) as [i [i1 i2]]. destruct (In_nth l b 0%nat hb) as [k [k1 k2]].
  pose proof (h i i1) as e1. pose proof (h k k1) as e2. rewrite i2 in e1. rewrite k2 in e2. rewrite e1, e2 in e. cbn [tx] in e.
  assert (g : INR i = INR k) by (apply (Rmult_eq_reg_r d); lra). apply INR_eq in g. congruence.
Qed.

(** ** constraints *)

Lemma apply_concat bs : forall ns : list (node R), fold_left apply_constraint (map fixed_nodes bs) ns = apply_constraint ns (fixed_nodes (concat bs)).
Proof.
  induction bs as [|b bs IH]; intros ns; [reflexivity|]. cbn [map fold_left concat]. rewrite IH. unfold apply_constraint, fixed_nodes. cbn [fst snd]. rewrite fold_left_app. reflexivity.
Qed.
Lemma constraints_concat ns ps ls c bs (da : damping R) : initialise_system ns ps ls (c :: map fixed_nodes bs) da = initialise_system ns ps ls [c; fixed_nodes (concat bs)] da.
Proof.
  unfold initialise_system. destruct (assemble_system ns ps ls) as [[s ns0]|e]; [|reflexivity]. cbn [rbind fold_left]. rewrite apply_concat. reflexivity.
Qed.

Lemma app_split {A} (a a' b b' : list A) : length a = length a' -> a ++ b = a' ++ b' -> a = a' /\ b = b'.
Proof.
  revert a'. induction a as [|x a IH]; intros [|y a'] h e; try discriminate; [auto|]. cbn in *. injection e as -> e. injection h as h. destruct (IH a' h e) as [-> ->]. auto.
Qed.
Lemma flat_ends {A} (parts : list (A * list (nat * nat))) : concat (map (fun part => map snd (snd part)) parts) = map snd (flat_map snd parts).
Proof. induction parts as [|p parts IH]; [reflexivity|]. cbn [map concat flat_map]. rewrite map_app, IH. reflexivity. Qed.
Lemma pairs_ext (l l' : list (nat * nat)) : map fst l = map fst l' -> map snd l = map snd l' -> l = l'.
Proof.
  revert l'. induction l as [|[a b] l IH]; intros [|[a' b'] l'] h1 h2; try discriminate; [reflexivity|]. cbn in *. injection h1 as -> h1. injection h2 as -> h2. rewrite (IH l'); auto.
Qed.
Lemma combine_map {A B} (g : A -> B) (l : list A) {C} : forall vs : list C, combine (map g l) vs = map (fun q => (g (fst q), snd q)) (combine l vs).
Proof. induction l as [|a l IH]; intros [|v vs]; cbn; try reflexivity. rewrite IH. reflexivity. Qed.

(** ** two tracks with the same soil under every sleeper *)

Section Cut.
  Variables (d : R) (specs specs' : list (nat * R)) (j j' : joined) (c c' : heap R) (mesh mesh' : list nat).
  Hypothesis hd : 1 / 1000000000 < d / INR 1.
  Hypothesis hseg : segments specs.
  Hypothesis hseg' : segments specs'.
  Hypothesis la : laid specs d 1 j c mesh.
  Hypothesis la' : laid specs' d 1 j' c' mesh'.
  Variables (soils soils' : list (R * option R * option R)).
  Hypothesis hlen : length soils = length specs.
  Hypothesis hlen' : length soils' = length specs'.
  Hypothesis same : per_sleeper specs soils = per_sleeper specs' soils'.

  Lemma cut_d : 0 < d / INR 1.
  Proof. lra. Qed.
  Lemma cut_count : sleeper_count specs = sleeper_count specs'.
  Proof. rewrite <- (per_count specs soils hlen), <- (per_count specs' soils' hlen'). congruence. Qed.
  Lemma cut_long : length (jn_rail_nodes j) = length (jn_rail_nodes j').
  Proof. rewrite (la_long _ _ _ _ _ _ la), (la_long _ _ _ _ _ _ la'), cut_count. lia. Qed.
  Lemma cut_rail : map c (jn_rail_nodes j) = map c' (jn_rail_nodes j').
  Proof.
    apply (nth_ext _ _ (c 0%nat) (c' 0%nat)); [rewrite !map_length; exact cut_long|]. intros i hi. rewrite map_length in hi. rewrite !map_nth.
    rewrite (la_rail _ _ _ _ _ _ la) by exact hi. rewrite (la_rail _ _ _ _ _ _ la') by (rewrite <- cut_long; exact hi). reflexivity.
  Qed.
  Lemma cut_sleepers : map c (jn_sleepers j) = map c' (jn_sleepers j').
  Proof.
    rewrite (la_sleepers _ _ _ _ _ _ la), (la_sleepers _ _ _ _ _ _ la'). rewrite !places_one by (apply hseg || apply hseg'). rewrite cut_count. reflexivity.
  Qed.
  Lemma cut_ends : map c (soil_ends j) = map c' (soil_ends j').
  Proof.
    unfold soil_ends. rewrite (soil_depths c _ _ _ (la_soil _ _ _ _ _ _ la)), (soil_depths c' _ _ _ (la_soil _ _ _ _ _ _ la')). f_equal.
    rewrite (la_under _ _ _ _ _ _ la), (la_under _ _ _ _ _ _ la'), <- (per_depth specs soils hlen), <- (per_depth specs' soils' hlen'), same. f_equal.
    pose proof (f_equal (map (@tx R)) cut_sleepers) as e. rewrite !map_map in e. exact e.
  Qed.
  Lemma cut_nodes : map c (jn_rail_nodes j ++ jn_sleepers j ++ soil_ends j) = map c' (jn_rail_nodes j' ++ jn_sleepers j' ++ soil_ends j').
  Proof. rewrite !map_app, cut_rail, cut_sleepers, cut_ends. reflexivity. Qed.
  Lemma cut_size : length mesh = length mesh'.
  Proof.
    pose proof (Permutation_length (la_all _ _ _ _ _ _ la)) as e1. pose proof (Permutation_length (la_all _ _ _ _ _ _ la')) as e2. rewrite seq_length in e1, e2.
    pose proof (f_equal (@length _) cut_nodes) as e. rewrite !map_length in e. congruence.
  Qed.

  Lemma cut_matched : exists f, matched f j j' /\ (forall p, (length mesh <= p)%nat -> f p = p).
  Proof.
    pose proof (la_all _ _ _ _ _ _ la') as h'. rewrite <- cut_size in h'.
    destruct (match_lists (length mesh) _ _ (la_all _ _ _ _ _ _ la) h') as [f [f1 [f2 [f3 f4]]]]. exists f. split; [|exact f4].
    rewrite !map_app in f1. apply app_split in f1; [|rewrite map_length; exact cut_long]. destruct f1 as [f0 f1].
    apply app_split in f1; [|rewrite map_length; pose proof (f_equal (@length _) cut_sleepers) as e; rewrite !map_length in e; exact e]. destruct f1 as [g1 g2].
    split; [exact f0|]. split; [exact g1|]. split; [exact g2|exact f2].
  Qed.

  Variable f : nat -> nat.
  Hypothesis hf : matched f j j'.
  Hypothesis hout : forall p, (length mesh <= p)%nat -> f p = p.
  Let ns := joined_mesh c (seq 0 (length mesh)).
  Let ms := joined_mesh c' (seq 0 (length mesh')).

  Lemma f_all : map f (jn_rail_nodes j ++ jn_sleepers j ++ soil_ends j) = jn_rail_nodes j' ++ jn_sleepers j' ++ soil_ends j'.
  Proof. destruct hf as [e1 [e2 [e3 _]]]. rewrite !map_app, e1, e2, e3. reflexivity. Qed.
  Lemma f_place p : (p < length mesh)%nat -> (f p < length mesh)%nat /\ c' (f p) = c p.
  Proof.
    intros hp. assert (hin : In p (jn_rail_nodes j ++ jn_sleepers j ++ soil_ends j)) by (apply (Permutation_in _ (Permutation_sym (la_all _ _ _ _ _ _ la))), in_seq; lia).
    split.
    - assert (g : In (f p) (jn_rail_nodes j' ++ jn_sleepers j' ++ soil_ends j')) by (rewrite <- f_all; apply in_map; exact hin).
      apply (Permutation_in _ (la_all _ _ _ _ _ _ la')), in_seq in g. rewrite cut_size. lia.
    - pose proof cut_nodes as e. rewrite <- f_all, map_map in e. clear - e hin. revert hin e. generalize (jn_rail_nodes j ++ jn_sleepers j ++ soil_ends j).
      induction l as [|a l IH]; intros hin e; [destruct hin|]. cbn [map] in e. injection e as e1 e2. destruct hin as [->|hin]; [symmetry; exact e1|apply IH; assumption].
  Qed.
  Lemma f_mesh : renumbered_mesh f ns ms.
  Proof.
    unfold ns, ms. split; [rewrite !line_length; symmetry; exact cut_size|]. split; [apply hf|]. intros p. destruct (Nat.lt_ge_cases p (length mesh)) as [hp|hp].
    - destruct (f_place p hp) as [g1 g2]. rewrite (line_nth c _ p hp). rewrite (line_nth c' (length mesh') (f p)) by (rewrite <- cut_size; exact g1). rewrite g2. split; reflexivity.
    - rewrite hout by exact hp.
      assert (e1 : nth_error (joined_mesh c (seq 0 (length mesh))) p = None) by (apply nth_error_None; rewrite line_length; exact hp).
      assert (e2 : nth_error (joined_mesh c' (seq 0 (length mesh'))) p = None) by (apply nth_error_None; rewrite line_length, <- cut_size; exact hp).
      rewrite e1, e2. exact I.
  Qed.

  (** the elements *)
  Let fe (e : nat * nat) : nat * nat := (f (fst e), f (snd e)).
  Lemma f_rail_els : map fe (jn_rail_els j) = jn_rail_els j'.
  Proof.
    destruct (la_line _ _ _ _ _ _ la) as [l1 l2]. destruct (la_line _ _ _ _ _ _ la') as [k1 k2]. pose proof cut_long as hl. destruct hf as [e1 _].
    apply (nth_ext _ _ (fe (0, 0)%nat) (0, 0)%nat); [rewrite map_length; lia|]. intros i hi. rewrite map_length in hi. rewrite map_nth.
    rewrite (nth_error_nth _ _ _ (l2 i ltac:(lia))), (nth_error_nth _ _ _ (k2 i ltac:(lia))). unfold fe. cbn [fst snd]. rewrite <- e1.
    rewrite !(nth_indep (map f (jn_rail_nodes j)) 0%nat (f 0%nat)) by (rewrite map_length; lia). rewrite !map_nth. reflexivity.
  Qed.
  Lemma range_pad e : In e (jn_pad_els j) -> (fst e < length mesh)%nat /\ (snd e < length mesh)%nat.
  Proof.
    destruct e as [a b]. intros h. assert (g : forall p, In p (jn_rail_nodes j ++ jn_sleepers j ++ soil_ends j) -> (p < length mesh)%nat).
    { intros p hp. apply (Permutation_in _ (la_all _ _ _ _ _ _ la)), in_seq in hp. lia. }
    split; apply g; apply in_or_app; [left; apply (la_above _ _ _ _ _ _ la a b h)|right; apply in_or_app; left; rewrite <- (la_pads _ _ _ _ _ _ la); exact (in_map snd _ _ h)].
  Qed.
  Lemma f_pad_els : map fe (jn_pad_els j) = jn_pad_els j'.
  Proof.
    assert (e2 : map snd (map fe (jn_pad_els j)) = map snd (jn_pad_els j')).
    { rewrite (la_pads _ _ _ _ _ _ la'), map_map. change (fun x => snd (fe x)) with (fun x : nat * nat => f (snd x)). rewrite <- (map_map snd f), (la_pads _ _ _ _ _ _ la). apply hf. }
    apply pairs_ext; [|exact e2]. rewrite map_map. unfold fe. cbn [fst].
    assert (h' : forall a b, In (a, b) (jn_pad_els j') -> In a (jn_rail_nodes j') /\ tx (c' a) = tx (c' b)) by apply (la_above _ _ _ _ _ _ la').
    assert (h : forall e, In e (jn_pad_els j) -> In (f (fst e)) (jn_rail_nodes j') /\ tx (c' (f (fst e))) = tx (c' (f (snd e)))).
    { intros [a b] he. destruct (range_pad (a, b) he) as [r1 r2]. cbn [fst snd] in *. rewrite (proj2 (f_place a r1)), (proj2 (f_place b r2)).
      destruct (la_above _ _ _ _ _ _ la a b he) as [g1 g2]. split; [|exact g2]. destruct hf as [e1 _]. rewrite <- e1. apply in_map. exact g1. }
    pose proof (same_distinct c' _ _ cut_d (la_rail _ _ _ _ _ _ la')) as hu. clear - e2 h h' hu. revert e2 h h'. generalize (jn_pad_els j) (jn_pad_els j').
    induction l as [|[a b] l IH]; intros [|[a' b'] l'] e2 h h'; try discriminate; [reflexivity|]. cbn [map fst snd fe] in *. injection e2 as e0 e2. f_equal.
    - destruct (h (a, b) (or_introl eq_refl)) as [g1 g2]. destruct (h' a' b' (or_introl eq_refl)) as [g3 g4]. cbn [fst snd] in *. apply hu; [exact g1|exact g3|]. rewrite g2, g4, e0. reflexivity.
    - apply IH; [exact e2|intros; apply h; right; assumption|intros; apply h'; right; assumption].
  Qed.
  Lemma f_pad_nodes : map f (jn_pad_nodes j) = jn_pad_nodes j'.
  Proof.
    rewrite (la_pad_nodes _ _ _ _ _ _ la), (la_pad_nodes _ _ _ _ _ _ la'), <- f_pad_els. generalize (jn_pad_els j). induction l as [|e l IH]; [reflexivity|]. cbn. rewrite IH. reflexivity.
  Qed.
  Lemma f_soil_els : map fe (flat_map snd (jn_soil j)) = flat_map snd (jn_soil j').
  Proof.
    destruct hf as [_ [e1 [e2 _]]]. unfold soil_ends in e2. apply pairs_ext.
    - rewrite (la_under _ _ _ _ _ _ la'), <- e1, <- (la_under _ _ _ _ _ _ la), !map_map. reflexivity.
    - rewrite <- e2, !map_map. reflexivity.
  Qed.
  Lemma f_soil_list : soil_list (jn_soil j') soils' = map (fun q => (fe (fst q), snd q)) (soil_list (jn_soil j) soils).
  Proof.
    rewrite (soil_values _ _ _ _ (la_soil _ _ _ _ _ _ la) hlen), (soil_values _ _ _ _ (la_soil _ _ _ _ _ _ la') hlen'), <- same, <- f_soil_els. apply combine_map.
  Qed.

  (** the parts *)
  Variables (rail : beam R) (pad : R * option R * option R) (sleeper : R).
  Let parts := joined_parts j rail pad sleeper soils.
  Let parts' := joined_parts j' rail pad sleeper soils'.

  Lemma springs_split aux (ks : list (node R)) u v nodes els :
    part_form aux ks u (springs v nodes els) = nsum (map (fun e => part_form aux ks u (springs v [fst e; snd e] [e])) els).
  Proof.
    unfold part_form, springs. cbn [ep_kind ep_els]. destruct (aux _) as [m|]; [|symmetry; apply sum_none; reflexivity]. apply nsum_map_ext. intros e _. cbn [map nsum]. rnum. ring.
  Qed.
  Lemma soils_split aux (ks : list (node R)) u ps (vs : list (R * option R * option R)) :
    nsum (map (fun q => part_form aux ks u (settled ks (springs (snd q) (fst (fst q)) (snd (fst q))))) (combine ps vs)) =
    nsum (map (fun q => part_form aux ks u (springs (snd q) [fst (fst q); snd (fst q)] [fst q])) (soil_list ps vs)).
  Proof.
    unfold soil_list. revert vs. induction ps as [|[nodes els] ps IH]; intros [|v vs]; try reflexivity. cbn [combine map nsum flat_map fst snd]. rewrite map_app, nsum_app, IH. f_equal.
    change (settled ks (springs v nodes els)) with (springs v nodes els). rewrite springs_split, map_map. reflexivity.
  Qed.
  Lemma f_totals aux u : is_aux aux ->
    nsum (map (fun p => part_form aux ms u (settled ms p)) parts') = nsum (map (fun p => part_form aux ns (fun i e => u (f i) e) (settled ns p)) parts).
  Proof.
    intros _. pose proof f_mesh as hm. destruct hf as [r1 [r2 _]]. unfold parts, parts', joined_parts. cbn [map nsum]. rewrite !map_map.
    assert (g : forall p q, renumbered_part f p q -> part_form aux ms u (settled ms q) = part_form aux ns (fun i e => u (f i) e) (settled ns p)).
    { intros p q h. apply (same_form f ns ms hm). apply (same_settled f ns ms hm). exact h. }
    f_equal; [|f_equal; [|f_equal]].
    - apply g. split; [reflexivity|]. cbn [ep_nodes ep_els]. split; [symmetry; exact r1|]. rewrite <- f_rail_els. apply Permutation_refl.
    - apply g. split; [reflexivity|]. cbn [springs ep_nodes ep_els]. split; [symmetry; exact f_pad_nodes|]. rewrite <- f_pad_els. apply Permutation_refl.
    - apply g. split; [reflexivity|]. cbn [ep_nodes ep_els]. split; [symmetry; exact r2|]. apply Permutation_refl.
    - rewrite !soils_split, f_soil_list, map_map. apply nsum_map_ext. intros [[a b] v] _. cbn [fst snd fe].
      apply (same_form f ns ms hm). split; [reflexivity|]. split; [reflexivity|apply Permutation_refl].
  Qed.
  Lemma f_sides : renumbered_constraint f (joined_sides j) = joined_sides j'.
  Proof.
    pose proof (la_long _ _ _ _ _ _ la) as hl. destruct hseg as [_ hc]. destruct hf as [e _]. unfold renumbered_constraint, joined_sides. cbn [fst snd map]. rewrite <- e. f_equal.
    destruct (jn_rail_nodes j) as [|a l] eqn:er; [cbn in hl; lia|]. cbn [map List.hd]. f_equal. f_equal.
    clear. revert a. induction l as [|b l IH]; intros a; [reflexivity|]. change (f (last (b :: l) 0%nat) = last (f b :: map f l) 0%nat). apply IH.
  Qed.
  Lemma f_constraints cs cs' ps ls da : script_constraints j c cs -> script_constraints j' c' cs' -> line c (length mesh) (d / INR 1) j -> line c' (length mesh') (d / INR 1) j' ->
    initialise_system ms ps ls cs' da = initialise_system ms ps ls (map (renumbered_constraint f) [joined_sides j; fixed_nodes (soil_ends j)]) da /\
    initialise_system ns parts ls cs da = initialise_system ns parts ls [joined_sides j; fixed_nodes (soil_ends j)] da.
  Proof.
    intros [b [h1 ->]] [b' [h2 ->]] l1 l2. rewrite (line_bottoms c _ _ j l1) in h1. rewrite (line_bottoms c' _ _ j' l2) in h2. injection h1 as <-. injection h2 as <-.
    rewrite !constraints_concat, !flat_ends. split; [|reflexivity]. cbn [map]. rewrite f_sides. unfold renumbered_constraint, fixed_nodes. cbn [fst snd]. destruct hf as [_ [_ [-> _]]]. reflexivity.
  Qed.
End Cut.

Lemma laid_within specs d r j c mesh rail pad sleeper soils : laid specs d r j c mesh -> Forall (within (joined_mesh c (seq 0 (length mesh)))) (joined_parts j rail pad sleeper soils).
Proof.
  intros la. assert (g : forall p, In p (jn_rail_nodes j) \/ In p (jn_sleepers j) \/ In p (soil_ends j) -> (p < length mesh)%nat).
  { intros p hp. assert (h : In p (jn_rail_nodes j ++ jn_sleepers j ++ soil_ends j)) by (rewrite !in_app_iff; exact hp). apply (Permutation_in _ (la_all _ _ _ _ _ _ la)), in_seq in h. lia. }
  assert (hp : forall e, In e (jn_pad_els j) -> (fst e < length mesh)%nat /\ (snd e < length mesh)%nat).
  { intros [a b] h. split; apply g; [left; apply (la_above _ _ _ _ _ _ la a b h)|right; left; rewrite <- (la_pads _ _ _ _ _ _ la); exact (in_map snd _ _ h)]. }
  assert (hs : forall part e, In part (jn_soil j) -> In e (snd part) -> (fst e < length mesh)%nat /\ (snd e < length mesh)%nat).
  { intros part e h1 h2. assert (h : In e (flat_map snd (jn_soil j))) by (apply in_flat_map; eauto). split; apply g; right; [left; rewrite <- (la_under _ _ _ _ _ _ la); apply in_map; exact h|right; unfold soil_ends; apply in_map; exact h]. }
  assert (hflat : forall l i, In i (flat_map (fun e : nat * nat => [fst e; snd e]) l) -> exists e, In e l /\ (i = fst e \/ i = snd e)).
  { intros l i h. apply in_flat_map in h. destruct h as [e [h1 [h2|[h2|[]]]]]; exists e; auto. }
  unfold joined_parts. constructor; [|constructor; [|constructor]].
  - intros i [hi|[e [he hi]]]; rewrite line_length; cbn [ep_nodes ep_els] in *; apply g; left; [exact hi|]. destruct (la_line _ _ _ _ _ _ la) as [h1 h2].
    destruct (In_nth_error _ _ he) as [q hq]. assert (hlt : (q < length (jn_rail_els j))%nat) by (apply nth_error_Some; congruence). rewrite h2 in hq by lia. injection hq as <-. cbn [fst snd] in hi.
    destruct hi as [->| ->]; apply nth_In; lia.
  - intros i hi; rewrite line_length; cbn [springs ep_nodes ep_els] in *. rewrite (la_pad_nodes _ _ _ _ _ _ la) in hi.
    assert (h : exists e, In e (jn_pad_els j) /\ (i = fst e \/ i = snd e)) by (destruct hi as [hi|hi]; [apply hflat; exact hi|exact hi]). destruct h as [e [h1 h2]]. destruct (hp e h1). destruct h2; subst; assumption.
  - intros i [hi|[e [[] _]]]. rewrite line_length. cbn [ep_nodes] in hi. apply g. auto.
  - apply Forall_map, Forall_forall. intros [part v] hq i hi. apply in_combine_l in hq. rewrite line_length. cbn [springs ep_nodes ep_els fst snd] in *.
    assert (ef : fst part = flat_map (fun e => [fst e; snd e]) (snd part)).
    { pose proof (la_soil _ _ _ _ _ _ la) as hf. clear - hf hq. induction hf as [|a b l l' [_ [h _]] _ IH]; [destruct hq|]. destruct hq as [<-|hq]; [exact h|apply IH; exact hq]. }
    rewrite ef in hi. assert (h : exists e, In e (snd part) /\ (i = fst e \/ i = snd e)) by (destruct hi as [hi|hi]; [apply hflat; exact hi|exact hi]). destruct h as [e [h1 h2]].
    destruct (hs part e hq h1). destruct h2; subst; assumption.
Qed.

(** ** the static answer *)

(** two systems with the same entries and forces for matched nodes, the first of them definite, have the same answer *)
Lemma answer_same f (ns ms : list (node R)) n (s s2 : gsys R) ns' ms' x y : numbered ns' n -> length ns' = length ns -> length ms' = length ms ->
  renumbered_mesh f ns ms ->
  (forall p d, (p < length ns)%nat -> (number_of ns' p d <> None <-> number_of ms' (f p) d <> None)) ->
  (forall z w, alike_vec f ns' ms' z w -> forall p d i k, number_of ns' p d = Some i -> number_of ms' (f p) d = Some k -> mulv n (me (gK s2)) w k = mulv n (me (gK s)) z i) ->
  (forall p d i k, number_of ns' p d = Some i -> number_of ms' (f p) d = Some k -> nth k (gF s2) 0 = nth i (gF s) 0) ->
  (forall p d k, number_of ms' p d = Some k -> (k < n)%nat) ->
  pos_def n (me (gK s)) -> in_balance s n x -> in_balance s2 n y ->
  forall p d, (p < length ns)%nat -> field_of ms' y (f p) d = field_of ns' x p d.
Proof.
  intros hn hl hl2 hm hd hmul hfor hlt hp hx hy p d hpn.
  set (z := vector_of ns' (fun p d => field_of ms' y (f p) d)).
  assert (hz : forall p d, field_of ns' z p d = field_of ms' y (f p) d).
  { apply (vector_field ns' n); [exact hn|]. intros p0 d0 e. unfold field_of. destruct (number_of ms' (f p0) d0) as [k|] eqn:ek; [|reflexivity]. exfalso.
    assert (h : (p0 < length ns)%nat) by (apply (bound f ns ms hm); rewrite <- hl2; eapply number_of_bound; eassumption). apply (proj2 (hd p0 d0 h)); congruence. }
  assert (ha : alike_vec f ns' ms' z y).
  { intros p0 d0 i k e1 e2. specialize (hz p0 d0). unfold field_of in hz. rewrite e1, e2 in hz. exact hz. }
  assert (hbz : in_balance s n z).
  { intros i hi. assert (g : In i (all_numbers ns')) by (rewrite hn; apply in_seq; lia). apply all_numbers_In in g. destruct g as [q [e hq]].
    assert (hq2 : (q < length ns)%nat) by (rewrite <- hl; eapply number_of_bound; eassumption).
    destruct (number_of ms' (f q) e) as [k|] eqn:ek; [|exfalso; apply (proj1 (hd q e hq2)); congruence].
    rewrite <- (hmul z y ha q e i k hq ek), <- (hfor q e i k hq ek). apply hy. eapply hlt; eassumption. }
  assert (hu : forall i, (i < n)%nat -> z i = x i).
  { apply (pos_def_injective n (me (gK s)) z x hp). intros i hi. rewrite (hbz i hi), (hx i hi). reflexivity. }
  rewrite <- hz. unfold field_of. destruct (number_of ns' p d) as [i|] eqn:ei; [|reflexivity]. apply hu.
  assert (g : In i (all_numbers ns')) by (apply all_numbers_In; eauto). rewrite hn in g. apply in_seq in g. lia.
Qed.
