(** * Lemmas about renumbered models *)

From Coq Require Import Reals List Bool ZArith Arith Lia Lra Permutation.
From Verif Require Import Num PyBase Model_Geometry Model_System Spec_System Proofs_Dof Proofs_System Model_Element Spec_Element
  Proofs_Elements Proofs_Element Proofs_Beam Proofs_Force Model_Accumulation Proofs_Accumulation Model_Track Spec_Track Proofs_Track Proofs_Assembly
  Spec_Analytic Spec_Motion Proofs_Motion Spec_Chain Proofs_Chain Spec_Renumber.
Import ListNotations.
Local Open Scope R_scope.

(** ** entries from the quadratic form *)

Definition unit_vec (i k : nat) : R := if Nat.eqb i k then 1 else 0.

Lemma quad_pair n m i j : msym n m -> (i < n)%nat -> (j < n)%nat -> m i j = (quad n m (fun k => unit_vec i k + unit_vec j k) - quad n m (unit_vec i) - quad n m (unit_vec j)) / 2.
Proof.
  intros hs hi hj.
  assert (w : forall a b, (a < n)%nat -> (b < n)%nat -> work n (mulv n m (unit_vec a)) (unit_vec b) = m b a).
  { intros a b ha hb. unfold work, mulv, unit_vec. rewrite (sumn_ext n _ (fun k => if Nat.eqb b k then m k a else 0)); [apply (sumn_pick n (fun k => m k a)); exact hb|].
    intros k hk. rewrite (sumn_ext n _ (fun q => if Nat.eqb a q then m k q else 0)) by (intros q hq; destruct (Nat.eqb a q); ring).
    rewrite (sumn_pick n (fun q => m k q)) by exact ha. destruct (Nat.eqb b k); ring. }
  rewrite !quad_work.
  rewrite (work_ext n (mulv n m (fun k => unit_vec i k + unit_vec j k)) (fun k => unit_vec i k + unit_vec j k)
    (fun k => mulv n m (unit_vec i) k + mulv n m (unit_vec j) k) (fun k => unit_vec i k + unit_vec j k)) by (intros; try apply mulv_sum; reflexivity).
  rewrite work_add, (work_swap n (mulv n m (unit_vec i)) (fun k => _)), (work_swap n (mulv n m (unit_vec j)) (fun k => _)), !work_add.
  rewrite !(work_swap n (unit_vec _)), !w by assumption. rewrite (hs j i) by assumption. field.
Qed.

Section Given.
  Variables (f : nat -> nat) (ns ms : list (node R)).
  Hypothesis mesh : renumbered_mesh f ns ms.

  Lemma inj p q : f p = f q -> p = q.
  Proof. apply mesh. Qed.

  Lemma bound p : (f p < length ms)%nat <-> (p < length ns)%nat.
  Proof.
    destruct mesh as [_ [_ h]]. specialize (h p). rewrite <- !nth_error_Some. destruct (nth_error ns p), (nth_error ms (f p)); try contradiction; split; intros g; congruence.
  Qed.

  Lemma same_xy p : xy ms (f p) = xy ns p.
  Proof.
    destruct mesh as [_ [_ h]]. specialize (h p). unfold xy. destruct (nth_error ns p), (nth_error ms (f p)); try contradiction; [|reflexivity]. destruct h as [-> _]. reflexivity.
  Qed.

  Lemma same_active p d : active ms (f p) d = active ns p d.
  Proof.
    destruct mesh as [_ [_ h]]. specialize (h p). unfold active. destruct (nth_error ns p), (nth_error ms (f p)); try contradiction; [|reflexivity]. destruct h as [_ ->]. reflexivity.
  Qed.

  Lemma memb_map p l : memb (f p) (map f l) = memb p l.
  Proof.
    destruct (memb p l) eqn:e.
    - apply memb_In. apply in_map. apply memb_In. exact e.
    - apply memb_false. apply memb_false in e. intros h. apply e. apply in_map_iff in h. destruct h as [q [h1 h2]]. rewrite <- (inj _ _ h1). exact h2.
  Qed.

  Lemma same_flag cs p d a : flag_after (map (renumbered_constraint f) cs) (f p) d a = flag_after cs p d a.
  Proof. unfold flag_after. revert a. induction cs as [|c cs IH]; intros a; [reflexivity|]. cbn [map fold_left renumbered_constraint fst snd]. rewrite memb_map. apply IH. Qed.


  Lemma same_coords l o : mapr (node_at ns) l = Ok o -> exists o', mapr (node_at ms) (map f l) = Ok o' /\ map (@n_coord R) o' = map (@n_coord R) o.
  Proof.
    revert o. induction l as [|i l IH]; intros o h; [injection h as <-; exists []; auto|]. cbn [mapr map] in *. unbind h. unbind h. injection h as <-.
    destruct (IH _ hv0) as [o' [e1 e2]]. unfold node_at in hv at 1. apply at_idx_ok in hv. destruct mesh as [_ [_ g]]. specialize (g i). rewrite hv in g.
    destruct (nth_error ms (f i)) as [b|] eqn:eb; [|contradiction]. destruct g as [g _].
    exists (b :: o'). unfold node_at at 1. rewrite (proj2 (at_idx_ok ms (f i) b) eb). cbn [rbind]. rewrite e1. cbn [rbind map]. rewrite g, e2. auto.
  Qed.

  Lemma part_ok p q p1 : renumbered_part f p q -> initialize_part ns p = Ok p1 -> exists q1, initialize_part ms q = Ok q1.
  Proof.
    intros [hk [hn _]] h. unfold initialize_part in *. rewrite hk, hn. destruct (ep_kind p); try (eexists; reflexivity).
    unbind h. unbind h. destruct (same_coords _ _ hv) as [o' [-> e2]]. cbn [rbind]. rewrite e2, hv0. cbn [rbind]. destruct v0; eexists; reflexivity.
  Qed.

  Lemma same_settled p q : renumbered_part f p q -> renumbered_part f (settled ns p) (settled ms q).
  Proof.
    intros [hk [hn he]]. unfold settled. rewrite hk, hn. destruct (ep_kind p) eqn:ek; try (split; [congruence|auto]).
    destruct (ep_nodes p) as [|i [|j l]] eqn:en; cbn [map]; try (split; [congruence|split; [rewrite hn, en; reflexivity|exact he]]).
    destruct mesh as [_ [_ g]]. pose proof (g i) as gi. pose proof (g j) as gj.
    destruct (nth_error ns i), (nth_error ms (f i)); try contradiction; [|split; [congruence|split; [rewrite hn, en; reflexivity|exact he]]].
    destruct (nth_error ns j), (nth_error ms (f j)); try contradiction; [|split; [congruence|split; [rewrite hn, en; reflexivity|exact he]]].
    destruct gi as [-> _], gj as [-> _]. split; [reflexivity|]. cbn [ep_nodes ep_els]. split; [reflexivity|exact he].
  Qed.

  (** the quadratic form of a part in a field *)
  Lemma same_form aux u p q : renumbered_part f p q -> part_form aux ms u q = part_form aux ns (fun i d => u (f i) d) p.
  Proof.
    intros [hk [hn he]]. unfold part_form. rewrite hk. destruct (aux (ep_kind p)) as [m|]; [|reflexivity].
    assert (g : forall k, nsum (map (fun e => element_form k m (calculate_rotation1 (xy ms (fst e), xy ms (snd e))) u (fst e) (snd e)) (ep_els q)) =
      nsum (map (fun e => element_form k m (calculate_rotation1 (xy ns (fst e), xy ns (snd e))) (fun i d => u (f i) d) (fst e) (snd e)) (ep_els p))).
    { intros k. rewrite (nsum_perm _ _ (Permutation_map _ he)), map_map. apply nsum_map_ext. intros e _. cbn [fst snd]. rewrite !same_xy. destruct k; reflexivity. }
    destruct (ep_kind p); try apply g. rewrite hn, map_map. reflexivity.
  Qed.

  Lemma same_total aux u ps qs : renumbered_parts f ps qs ->
    nsum (map (fun p => part_form aux ms u (settled ms p)) qs) = nsum (map (fun p => part_form aux ns (fun i d => u (f i) d) (settled ns p)) ps).
  Proof.
    intros [rs [h1 h2]]. rewrite (nsum_perm _ _ (Permutation_map _ (Permutation_sym h2))). clear h2.
    induction h1 as [|p q ps rs h hs IH]; [reflexivity|]. cbn [map nsum]. rewrite IH, (same_form aux u _ _ (same_settled _ _ h)). reflexivity.
  Qed.

  Lemma part_in ps qs q : renumbered_parts f ps qs -> In q qs -> exists p, In p ps /\ renumbered_part f p q.
  Proof.
    intros [rs [h1 h2]] hq. apply (Permutation_in _ (Permutation_sym h2)) in hq. clear h2. induction h1 as [|a b ps rs h hs IH]; [destruct hq|].
    destruct hq as [<-|hq]; [exists a; split; [left; reflexivity|exact h]|]. destruct (IH hq) as [p [h1 h2]]. exists p. split; [right; exact h1|exact h2].
  Qed.

  Lemma same_shaped ps qs : renumbered_parts f ps qs -> Forall shaped ps -> Forall shaped qs.
  Proof.
    intros h hs. apply Forall_forall. intros q hq. destruct (part_in _ _ _ h hq) as [p [hp [hk [_ he]]]]. rewrite Forall_forall in hs. specialize (hs p hp).
    unfold shaped in *. rewrite hk. destruct (ep_kind p); try (intros e; rewrite e in he; apply Permutation_nil in he; destruct (ep_els p); [contradiction|discriminate]).
    rewrite hs in he. apply Permutation_sym, Permutation_nil in he. exact he.
  Qed.

  Lemma same_sound ps qs : renumbered_parts f ps qs -> Forall (fun p => sound (settled ns p)) ps -> Forall (fun q => sound (settled ms q)) qs.
  Proof.
    intros h hs. apply Forall_forall. intros q hq. destruct (part_in _ _ _ h hq) as [p [hp hr]]. rewrite Forall_forall in hs. specialize (hs p hp).
    destruct (same_settled _ _ hr) as [hk _]. unfold sound in *. rewrite hk. exact hs.
  Qed.

  Lemma unit_same p d q e : unit_field (f p) d (f q) e = unit_field p d q e.
  Proof.
    unfold unit_field. destruct (Nat.eqb_spec (3 * f p + dir_idx d) (3 * f q + dir_idx e)) as [h|h], (Nat.eqb_spec (3 * p + dir_idx d) (3 * q + dir_idx e)) as [g|g]; try reflexivity; exfalso.
    - assert (e1 : f p = f q) by (destruct d, e; cbn in h; lia). apply inj in e1. subst q. destruct d, e; cbn in *; lia.
    - assert (e1 : p = q) by (destruct d, e; cbn in g; lia). subst q. destruct d, e; cbn in *; lia.
  Qed.

  (** ** sums over nodes *)
  Lemma seq_renumbered : Permutation (map f (seq 0 (length ns))) (seq 0 (length ns)).
  Proof.
    apply NoDup_Permutation_bis.
    - apply FinFun.Injective_map_NoDup; [exact inj|apply seq_NoDup].
    - rewrite map_length. lia.
    - intros i hi. apply in_map_iff in hi. destruct hi as [p [<- hp]]. apply in_seq in hp. apply in_seq. destruct mesh as [hl _]. rewrite <- hl. split; [lia|]. cbn. apply bound. lia.
  Qed.

  Lemma dsum_renumbered g : dsum (length ms) g = dsum (length ns) (fun p d => g (f p) d).
  Proof.
    destruct mesh as [-> _]. unfold dsum. rewrite <- !nsum_map_seq. rewrite <- (nsum_perm _ _ (Permutation_map _ seq_renumbered)), map_map. reflexivity.
  Qed.

  Lemma hit q : (q < length ms)%nat -> exists p, (p < length ns)%nat /\ q = f p.
  Proof.
    intros h. destruct mesh as [hl _]. assert (g : In q (map f (seq 0 (length ns)))) by (apply (Permutation_in _ (Permutation_sym seq_renumbered)), in_seq; lia).
    apply in_map_iff in g. destruct g as [p [<- hp]]. apply in_seq in hp. exists p. split; [lia|reflexivity].
  Qed.
End Given.

(** ** forces *)

Definition placed (ns : list (node R)) (j : nat) : node R :=
  match nth_error ns j with Some n => with_dof n (T3 (Some (0 + 3 * j)%nat) (Some (0 + 3 * j + 1)%nat) (Some (0 + 3 * j + 2)%nat)) | None => new_node 0 0 0 0 end.

Lemma placed_at ns j : (j < length ns)%nat -> nth_error (number_from 0 ns) j = Some (placed ns j) /\ n_dof (placed ns j) = T3 (Some (3 * j)%nat) (Some (3 * j + 1)%nat) (Some (3 * j + 2)%nat).
Proof.
  intros hj. unfold placed. destruct (nth_error ns j) as [a|] eqn:e; [|apply nth_error_None in e; lia]. split; [apply number_from_nth; exact e|reflexivity].
Qed.

Lemma load_cond_placed ns l : (forall i, In i (ld_nodes l) -> (i < length ns)%nat) ->
  load_cond (number_from 0 ns) l = Ok (mkCond (ld_flag l) (map (placed ns) (ld_nodes l)) (ld_vals l)).
Proof.
  intros h. unfold load_cond.
  assert (e : mapr (node_at (number_from 0 ns)) (ld_nodes l) = Ok (map (placed ns) (ld_nodes l))).
  { apply mapr_map. intros i hi. unfold node_at. apply at_idx_ok. apply placed_at. apply h. exact hi. }
  rewrite e. reflexivity.
Qed.

Lemma placed_indices ns flag l : (forall i, In i l -> (i < length ns)%nat) -> NoDup l ->
  NoDup (part_dof_indices flag (map (placed ns) l)) /\ forall k, In k (part_dof_indices flag (map (placed ns) l)) -> exists i d, In i l /\ k = (3 * i + dir_idx d)%nat.
Proof.
  induction l as [|i l IH]; intros hb hn; [split; [constructor|intros k []]|].
  inversion_clear hn as [|? ? ni nl]. destruct IH as [h1 h2]; [intros; apply hb; right; assumption|exact nl|].
  destruct (placed_at ns i (hb i (or_introl eq_refl))) as [_ e].
  assert (g : part_dof_indices flag (map (placed ns) (i :: l)) = (if tx flag then [3 * i]%nat else []) ++ (if ty flag then [3 * i + 1]%nat else []) ++ (if tr flag then [3 * i + 2]%nat else []) ++ part_dof_indices flag (map (placed ns) l)).
  { unfold part_dof_indices. cbn [map flat_map all_dirs]. rewrite e. cbn [tget tx ty tr]. destruct (tx flag), (ty flag), (tr flag); reflexivity. }
  rewrite g. assert (hfresh : forall d, ~ In (3 * i + dir_idx d)%nat (part_dof_indices flag (map (placed ns) l))).
  { intros d hin. destruct (h2 _ hin) as [j [d' [hj ej]]]. apply ni. replace i with j; [exact hj|]. destruct d, d'; cbn in ej; lia. }
  pose proof (hfresh DX) as f1. pose proof (hfresh DY) as f2. pose proof (hfresh DR) as f3. cbn [dir_idx] in f1, f2, f3. rewrite Nat.add_0_r in f1.
  split.
  - destruct (tx flag), (ty flag), (tr flag); cbn [app]; repeat apply NoDup_cons; try exact h1; cbn [In]; intuition lia.
  - intros k hk. rewrite !in_app_iff in hk.
    destruct hk as [hk|[hk|[hk|hk]]].
    + destruct (tx flag); [|destruct hk]. destruct hk as [<-|[]]. exists i, DX. split; [left; reflexivity|cbn; lia].
    + destruct (ty flag); [|destruct hk]. destruct hk as [<-|[]]. exists i, DY. split; [left; reflexivity|cbn; lia].
    + destruct (tr flag); [|destruct hk]. destruct hk as [<-|[]]. exists i, DR. split; [left; reflexivity|cbn; lia].
    + destruct (h2 k hk) as [j [d [hj ej]]]. exists j, d. split; [right; exact hj|exact ej].
Qed.

Lemma placed_force ns l p d : (forall i, In i (ld_nodes l) -> (i < length ns)%nat) ->
  cond_force (mkCond (ld_flag l) (map (placed ns) (ld_nodes l)) (ld_vals l)) (3 * p + dir_idx d) = load_force l p d.
Proof.
  intros hb. unfold cond_force, load_force. cbn [c_nodes c_vals c_flag]. generalize (ld_vals l). revert hb. generalize (ld_nodes l).
  induction l0 as [|i l0 IH]; intros hb vs; [reflexivity|]. destruct vs as [|v vs]; [reflexivity|]. cbn [map combine nsum fst snd].
  rewrite IH by (intros; apply hb; right; assumption). f_equal. destruct (placed_at ns i (hb i (or_introl eq_refl))) as [_ e].
  cbn [all_dirs map nsum]. rewrite e. cbn [tget tx ty tr]. rnum.
  destruct d; cbn [dir_idx tget]; destruct (Nat.eqb_spec i p) as [->|ne].
  all: repeat match goal with |- context [Nat.eqb ?a ?b] => destruct (Nat.eqb_spec a b); try lia end.
  all: rewrite ?Bool.andb_false_r, ?Bool.andb_true_r; try ring.
  all: destruct (tx (ld_flag l)), (ty (ld_flag l)), (tr (ld_flag l)); cbn [andb]; ring.
Qed.

Lemma plain_forces ns ps ls cs da s ns' n : initialise_system ns ps ls cs da = Ok (s, ns', n) ->
  (forall l i, In l ls -> In i (ld_nodes l) -> (i < length ns)%nat) -> Forall plain_load ls ->
  forall p d i, number_of ns' p d = Some i -> nth i (gF s) 0 = nsum (map (fun l => load_force l p d) ls).
Proof.
  intros h hb hp p d i hi.
  assert (e : mapr (load_cond (number_from 0 ns)) ls = Ok (map (fun l => mkCond (ld_flag l) (map (placed ns) (ld_nodes l)) (ld_vals l)) ls)).
  { apply mapr_map. intros l hl. apply load_cond_placed. intros j hj. exact (hb l j hl hj). }
  rewrite (initialise_force _ _ _ _ _ _ _ _ _ h e) with (p := p) (d := d); [|clear i hi|exact hi].
  - rewrite map_map. apply nsum_map_ext. intros l hl. apply placed_force. intros j hj. exact (hb l j hl hj).
  - intros c hc. apply in_map_iff in hc. destruct hc as [l [<- hl]]. cbn [c_vals c_nodes c_flag]. rewrite Forall_forall in hp. destruct (hp l hl) as [q1 q2].
    rewrite map_length. split; [exact q2|].
    destruct (placed_indices ns (ld_flag l) (ld_nodes l)) as [g1 g2]; [intros j hj; exact (hb l j hl hj)|exact q1|]. split; [exact g1|].
    intros k hk. destruct (g2 k hk) as [j [e' [hj ->]]]. specialize (hb l j hl hj). destruct e'; cbn; lia.
Qed.

Lemma loads_in_range ns ps ls cs da s ns' n : initialise_system ns ps ls cs da = Ok (s, ns', n) ->
  forall l i, In l ls -> In i (ld_nodes l) -> (i < length ns)%nat.
Proof.
  intros h l i hl hi. unfold initialise_system in h. unbind h. unfold assemble_system in hv. unbind hv. unfold initialise_ndof in hv. rewrite total_ndof in hv. unbind hv. unbind hv.
  clear - hv2 hl hi. apply mapr_spec in hv2. induction hv2 as [|x1 x2 l1 l2 h1 h2 IH]; [destruct hl|]. destruct hl as [<-|hl]; [|apply IH; exact hl].
  unfold load_cond in h1. unbind h1. clear - hv hi. apply mapr_spec in hv. induction hv as [|y1 y2 l3 l4 h3 h4 IH]; [destruct hi|]. destruct hi as [<-|hi]; [|apply IH; exact hi].
  unfold node_at in h3. apply at_idx_ok in h3. rewrite <- (number_from_length ns 0). apply nth_error_Some. congruence.
Qed.

Lemma within_refs ns p : within ns p -> forall i, In i (part_refs p) -> (i < length ns)%nat.
Proof.
  intros h i hi. apply h. unfold part_refs in hi. destruct (ep_els p) as [|e es] eqn:ee; [left; exact hi|right].
  apply in_flat_map in hi. destruct hi as [x [hx hi]]. exists x. split; [exact hx|]. cbn in hi. intuition.
Qed.

(** the matrices of an element part *)
Definition is_aux (aux : kind R -> option (nat -> nat -> R)) : Prop := aux = aux_stiffness \/ aux = aux_mass \/ aux = aux_damping.

Lemma within_same f ns ms p q : renumbered_mesh f ns ms -> renumbered_part f p q -> within ns p -> within ms q.
Proof.
  intros mesh [_ [hn he]] h i hi.
  assert (g : exists j, i = f j /\ (In j (ep_nodes p) \/ (exists e, In e (ep_els p) /\ (j = fst e \/ j = snd e)))).
  { destruct hi as [hi|[e [h1 h2]]].
    - rewrite hn in hi. apply in_map_iff in hi. destruct hi as [j [<- hj]]. exists j. auto.
    - apply (Permutation_in _ he) in h1. apply in_map_iff in h1. destruct h1 as [e' [<- h1]]. cbn in h2.
      destruct h2 as [-> | ->]; [exists (fst e')|exists (snd e')]; split; auto; right; exists e'; auto. }
  destruct g as [j [-> hj]]. apply (bound f ns ms mesh). apply h. exact hj.
Qed.

Section Systems.
  Variables (f : nat -> nat) (ns ms : list (node R)) (ps qs : list (epart R)) (ls ks : list (load R)) (cs : list (list nat * tri bool)) (da : damping R).
  Variables (s : gsys R) (ns' : list (node R)) (n : nat).
  Hypothesis mesh : renumbered_mesh f ns ms.
  Hypothesis totals : forall aux u, is_aux aux ->
    nsum (map (fun p => part_form aux ms u (settled ms p)) qs) = nsum (map (fun p => part_form aux ns (fun i d => u (f i) d) (settled ns p)) ps).
  Hypothesis parts_ok' : forall q, In q qs -> exists q1, initialize_part ms q = Ok q1.
  Hypothesis inside' : Forall (within ms) qs.
  Hypothesis parts_shaped' : Forall shaped qs.
  Hypothesis parts_sound' : Forall (fun q => sound (settled ms q)) qs.
  Hypothesis loads : Permutation ks (map (renumbered_load f) ls).
  Hypothesis shapes : Forall shaped ps.
  Hypothesis sounds : Forall (fun p => sound (settled ns p)) ps.
  Hypothesis inside : Forall (within ns) ps.
  Hypothesis plain : Forall plain_load ls.
  Hypothesis run : initialise_system ns ps ls cs da = Ok (s, ns', n).

  Lemma loads_within : forall l i, In l ks -> In i (ld_nodes l) -> (i < length ms)%nat.
  Proof.
    intros l i hl hi. apply (Permutation_in _ loads) in hl. apply in_map_iff in hl. destruct hl as [l0 [<- hl]]. cbn [renumbered_load ld_nodes] in hi.
    apply in_map_iff in hi. destruct hi as [j [<- hj]]. apply (bound f ns ms mesh). exact (loads_in_range _ _ _ _ _ _ _ _ run l0 j hl hj).
  Qed.

  Lemma run_again : exists s2 ms' m, initialise_system ms qs ks (map (renumbered_constraint f) cs) da = Ok (s2, ms', m).
  Proof.
    apply initialise_ok.
    - exact parts_ok'.
    - intros q i hq hi. rewrite Forall_forall in inside'. exact (within_refs ms q (inside' q hq) i hi).
    - exact loads_within.
  Qed.

  Variables (s2 : gsys R) (ms' : list (node R)) (m : nat).
  Hypothesis run2 : initialise_system ms qs ks (map (renumbered_constraint f) cs) da = Ok (s2, ms', m).

  Lemma form_within aux u v p : within ns p -> (forall i d, (i < length ns)%nat -> u i d = v i d) -> part_form aux ns u p = part_form aux ns v p.
  Proof.
    intros hw h. unfold part_form. destruct (aux (ep_kind p)) as [k|]; [|reflexivity].
    assert (g : forall t, nsum (map (fun e => element_form t k (calculate_rotation1 (xy ns (fst e), xy ns (snd e))) u (fst e) (snd e)) (ep_els p)) =
       nsum (map (fun e => element_form t k (calculate_rotation1 (xy ns (fst e), xy ns (snd e))) v (fst e) (snd e)) (ep_els p))).
    { intros t. apply nsum_map_ext. intros e he. assert (h1 : (fst e < length ns)%nat) by (apply hw; right; exists e; auto). assert (h2 : (snd e < length ns)%nat) by (apply hw; right; exists e; auto).
      unfold element_form, local2, local6. rewrite !(h _ _ h1), !(h _ _ h2). reflexivity. }
    destruct (ep_kind p); try apply g. apply nsum_map_ext. intros i hi. rewrite h by (apply hw; left; exact hi). reflexivity.
  Qed.

  Lemma settled_within p : within ns p -> within ns (settled ns p).
  Proof.
    intros h. unfold settled. destruct (ep_kind p); auto. destruct (ep_nodes p) as [|i [|j l]] eqn:en; auto. destruct (nth_error ns i), (nth_error ns j); auto.
    intros q hq. apply h. cbn [ep_nodes ep_els] in hq. rewrite en in *. exact hq.
  Qed.

  Lemma number_same p d : (p < length ns)%nat -> (number_of ns' p d <> None <-> number_of ms' (f p) d <> None).
  Proof.
    intros hp. destruct (initialise_inv _ _ _ _ _ _ _ _ run) as [s0 [_ [e0 _]]]. destruct (initialise_inv _ _ _ _ _ _ _ _ run2) as [s1 [_ [e1 _]]].
    destruct (initialise_kept _ _ _ _ _ _ _ _ _ run e0) as [_ [_ [k1 _]]]. destruct (initialise_kept _ _ _ _ _ _ _ _ _ run2 e1) as [_ [_ [k2 _]]].
    assert (hq : (f p < length ms)%nat) by (apply (bound f ns ms mesh); exact hp).
    rewrite (k1 p d hp), (k2 (f p) d hq). cbv zeta. rewrite (same_flag f ns ms mesh), (same_active f ns ms mesh).
    destruct (assemble_diag ns ps ls s0 _ p d shapes e0 hp) as [a1 a2]. destruct (assemble_diag ms qs ks s1 _ (f p) d parts_shaped' e1 hq) as [b1 b2].
    rewrite totals in b1 by (left; reflexivity). rewrite totals in b2 by (right; left; reflexivity).
    assert (x : forall aux, nsum (map (fun p0 => part_form aux ns (fun i d0 => unit_field (f p) d (f i) d0) (settled ns p0)) ps) = nsum (map (fun a => part_form aux ns (unit_field p d) (settled ns a)) ps)).
    { intros aux. apply nsum_map_ext. intros a ha. rewrite Forall_forall in inside. apply (form_within aux _ _ _ (settled_within a (inside a ha))). intros i e _. apply (unit_same f ns ms mesh). }
    rewrite x, <- a1 in b1. rewrite x, <- a2 in b2. clear a1 a2 x k1 k2.
    replace (3 * p + match d with DX => 0 | DY => 1 | DR => 2 end)%nat with (3 * p + dir_idx d)%nat by (destruct d; reflexivity).
    replace (3 * f p + match d with DX => 0 | DY => 1 | DR => 2 end)%nat with (3 * f p + dir_idx d)%nat by (destruct d; reflexivity).
    rewrite b1, b2. reflexivity.
  Qed.

  (** vectors with the same field *)
  Definition alike_vec (x y : nat -> R) : Prop := forall p d i j, number_of ns' p d = Some i -> number_of ms' (f p) d = Some j -> x i = y j.

  Lemma field_same x y : alike_vec x y -> forall p d, (p < length ns)%nat -> field_of ms' y (f p) d = field_of ns' x p d.
  Proof.
    intros h p d hp. pose proof (number_same p d hp) as hn. specialize (h p d). unfold field_of.
    destruct (number_of ns' p d) as [i|], (number_of ms' (f p) d) as [j|]; auto.
    - symmetry. apply h; reflexivity.
    - exfalso. exact (proj1 hn ltac:(discriminate) eq_refl).
    - exfalso. exact (proj2 hn ltac:(discriminate) eq_refl).
  Qed.

  Lemma quad_same x y : alike_vec x y -> quad m (me (gK s2)) y = quad n (me (gK s)) x /\ quad m (me (gM s2)) y = quad n (me (gM s)) x /\ quad m (me (gC s2)) y = quad n (me (gC s)) x.
  Proof.
    intros h. destruct (initialise_energy _ _ _ _ _ _ _ _ x shapes run) as [-> [-> ->]]. destruct (initialise_energy _ _ _ _ _ _ _ _ y parts_shaped' run2) as [-> [-> ->]].
    assert (g : forall aux, is_aux aux -> nsum (map (fun p => part_form aux ms (field_of ms' y) (settled ms p)) qs) = nsum (map (fun p => part_form aux ns (field_of ns' x) (settled ns p)) ps)).
    { intros aux ha. rewrite totals by exact ha. apply nsum_map_ext. intros p hp. apply form_within.
      - apply settled_within. rewrite Forall_forall in inside. apply inside. exact hp.
      - intros i d hi. apply (field_same x y h i d hi). }
    rewrite !g by (unfold is_aux; auto). auto.
  Qed.

  Lemma numbers_inj : forall p d q e i, number_of ns' p d = Some i -> number_of ns' q e = Some i -> p = q /\ d = e.
  Proof.
    intros p d q e i h1 h2. destruct (initialise_inv _ _ _ _ _ _ _ _ run) as [s0 [_ [e0 _]]]. destruct (initialise_kept _ _ _ _ _ _ _ _ _ run e0) as [_ [hn _]].
    exact (numbered_inj _ _ _ _ _ _ _ hn h1 h2).
  Qed.
  Lemma numbers_inj' : forall p d q e i, number_of ms' p d = Some i -> number_of ms' q e = Some i -> p = q /\ d = e.
  Proof.
    intros p d q e i h1 h2. destruct (initialise_inv _ _ _ _ _ _ _ _ run2) as [s0 [_ [e0 _]]]. destruct (initialise_kept _ _ _ _ _ _ _ _ _ run2 e0) as [_ [hn _]].
    exact (numbered_inj _ _ _ _ _ _ _ hn h1 h2).
  Qed.

  Lemma unit_alike p d i j : number_of ns' p d = Some i -> number_of ms' (f p) d = Some j -> alike_vec (unit_vec i) (unit_vec j).
  Proof.
    intros h1 h2 q e k l h3 h4. unfold unit_vec. destruct (Nat.eqb_spec i k) as [->|ne], (Nat.eqb_spec j l) as [->|ne2]; try reflexivity; exfalso.
    - destruct (numbers_inj _ _ _ _ _ h1 h3) as [-> ->]. congruence.
    - destruct (numbers_inj' _ _ _ _ _ h2 h4) as [g ->]. apply (inj f ns ms mesh) in g. subst. congruence.
  Qed.

  Lemma below p d i : number_of ns' p d = Some i -> (i < n)%nat /\ (p < length ns)%nat.
  Proof.
    intros h. destruct (initialise_inv _ _ _ _ _ _ _ _ run) as [s0 [_ [e0 _]]]. destruct (initialise_kept _ _ _ _ _ _ _ _ _ run e0) as [hl [hn _]].
    split; [|rewrite <- hl; eapply number_of_bound; eauto]. assert (g : In i (all_numbers ns')) by (apply all_numbers_In; eauto). rewrite hn in g. apply in_seq in g. lia.
  Qed.
  Lemma below' p d i : number_of ms' p d = Some i -> (i < m)%nat /\ (p < length ms)%nat.
  Proof.
    intros h. destruct (initialise_inv _ _ _ _ _ _ _ _ run2) as [s0 [_ [e0 _]]]. destruct (initialise_kept _ _ _ _ _ _ _ _ _ run2 e0) as [hl [hn _]].
    split; [|rewrite <- hl; eapply number_of_bound; eauto]. assert (g : In i (all_numbers ms')) by (apply all_numbers_In; eauto). rewrite hn in g. apply in_seq in g. lia.
  Qed.

  Lemma entry_same p d q e i j i' j' : number_of ns' p d = Some i -> number_of ns' q e = Some j -> number_of ms' (f p) d = Some i' -> number_of ms' (f q) e = Some j' ->
    me (gK s2) i' j' = me (gK s) i j /\ me (gM s2) i' j' = me (gM s) i j /\ me (gC s2) i' j' = me (gC s) i j.
  Proof.
    intros h1 h2 h3 h4. pose proof (unit_alike _ _ _ _ h1 h3) as u1. pose proof (unit_alike _ _ _ _ h2 h4) as u2.
    assert (u3 : alike_vec (fun k => unit_vec i k + unit_vec j k) (fun k => unit_vec i' k + unit_vec j' k)).
    { intros a b k l g1 g2. rewrite (u1 a b k l g1 g2), (u2 a b k l g1 g2). reflexivity. }
    destruct (initialise_sym _ _ _ _ _ _ _ _ shapes sounds run) as [y1 [y2 y3]]. destruct (initialise_sym _ _ _ _ _ _ _ _ parts_shaped' parts_sound' run2) as [z1 [z2 z3]].
    destruct (below _ _ _ h1) as [bi _]. destruct (below _ _ _ h2) as [bj _]. destruct (below' _ _ _ h3) as [bi' _]. destruct (below' _ _ _ h4) as [bj' _].
    destruct (quad_same _ _ u1) as [a1 [a2 a3]]. destruct (quad_same _ _ u2) as [b1 [b2 b3]]. destruct (quad_same _ _ u3) as [c1 [c2 c3]].
    rewrite (quad_pair m _ i' j' z1 bi' bj'), (quad_pair n _ i j y1 bi bj), a1, b1, c1.
    rewrite (quad_pair m _ i' j' z2 bi' bj'), (quad_pair n _ i j y2 bi bj), a2, b2, c2.
    rewrite (quad_pair m _ i' j' z3 bi' bj'), (quad_pair n _ i j y3 bi bj), a3, b3, c3. auto.
  Qed.

  Lemma force_same p d i j : number_of ns' p d = Some i -> number_of ms' (f p) d = Some j -> nth j (gF s2) 0 = nth i (gF s) 0.
  Proof.
    intros h1 h2. rewrite (plain_forces _ _ _ _ _ _ _ _ run (loads_in_range _ _ _ _ _ _ _ _ run) plain p d i h1).
    assert (plain2 : Forall plain_load ks).
    { apply Forall_forall. intros l hl. apply (Permutation_in _ loads) in hl. apply in_map_iff in hl. destruct hl as [l0 [<- hl]]. rewrite Forall_forall in plain. destruct (plain l0 hl) as [g1 g2].
      split; cbn [renumbered_load ld_nodes ld_vals]; [apply FinFun.Injective_map_NoDup; [exact (inj f ns ms mesh)|exact g1]|rewrite map_length; exact g2]. }
    rewrite (plain_forces _ _ _ _ _ _ _ _ run2 loads_within plain2 (f p) d j h2).
    rewrite (nsum_perm _ _ (Permutation_map _ loads)), map_map. apply nsum_map_ext. intros l _. unfold load_force, renumbered_load. cbn [ld_nodes ld_flag ld_vals].
    generalize (ld_vals l). generalize (ld_nodes l). induction l0 as [|a l0 IH]; intros vs; [reflexivity|]. destruct vs as [|v vs]; [reflexivity|]. cbn [map combine nsum fst snd]. rewrite IH. f_equal.
    destruct (Nat.eqb_spec (f a) (f p)) as [e|ne], (Nat.eqb_spec a p) as [e2|ne2]; try reflexivity; exfalso.
    - apply ne2. exact (inj f ns ms mesh _ _ e).
    - apply ne. congruence.
  Qed.

  Lemma place' j : (j < m)%nat -> exists p d i, number_of ns' p d = Some i /\ number_of ms' (f p) d = Some j.
  Proof.
    intros hj. destruct (initialise_inv _ _ _ _ _ _ _ _ run2) as [s0 [_ [e0 _]]]. destruct (initialise_kept _ _ _ _ _ _ _ _ _ run2 e0) as [hl [hn _]].
    assert (g : In j (all_numbers ms')) by (rewrite hn; apply in_seq; lia). apply all_numbers_In in g. destruct g as [q [d hq]].
    destruct (below' _ _ _ hq) as [_ hb]. destruct (hit f ns ms mesh q hb) as [p [hp ->]].
    destruct (number_of ns' p d) as [i|] eqn:ei; [exists p, d, i; auto|]. exfalso. apply (proj2 (number_same p d hp)); congruence.
  Qed.

  (** products with vectors *)
  Lemma sum_same g h : (forall p d i j, number_of ns' p d = Some i -> number_of ms' (f p) d = Some j -> g i = h j) -> sumn n g = sumn m h.
  Proof.
    intros hg. destruct (initialise_inv _ _ _ _ _ _ _ _ run) as [s0 [_ [e0 _]]]. destruct (initialise_kept _ _ _ _ _ _ _ _ _ run e0) as [hl [hn _]].
    destruct (initialise_inv _ _ _ _ _ _ _ _ run2) as [s1 [_ [e1 _]]]. destruct (initialise_kept _ _ _ _ _ _ _ _ _ run2 e1) as [hl2 [hn2 _]].
    rewrite (dsum_numbers ns' n g hn), (dsum_numbers ms' m h hn2), hl, hl2, (dsum_renumbered f ns ms mesh). apply dsum_ext. intros p d hp.
    pose proof (number_same p d hp) as hs. specialize (hg p d). destruct (number_of ns' p d) as [i|], (number_of ms' (f p) d) as [j|]; auto.
    - exfalso. exact (proj1 hs ltac:(discriminate) eq_refl).
    - exfalso. exact (proj2 hs ltac:(discriminate) eq_refl).
  Qed.

  Lemma size_same : m = n.
  Proof.
    assert (h : sumn n (fun _ => 1) = sumn m (fun _ => 1)) by (apply sum_same; reflexivity).
    assert (g : forall k, sumn k (fun _ => 1) = INR k) by (induction k as [|k IH]; [reflexivity|]; cbn [sumn]; rewrite IH, S_INR; rnum; reflexivity).
    rewrite !g in h. symmetry. apply INR_eq. exact h.
  Qed.

  Lemma mulv_same x y p d i j : alike_vec x y -> number_of ns' p d = Some i -> number_of ms' (f p) d = Some j ->
    mulv m (me (gK s2)) y j = mulv n (me (gK s)) x i /\ mulv m (me (gM s2)) y j = mulv n (me (gM s)) x i /\ mulv m (me (gC s2)) y j = mulv n (me (gC s)) x i.
  Proof.
    intros h h1 h2. unfold mulv. refine (conj _ (conj _ _)); symmetry; apply sum_same; intros q e k l h3 h4;
      destruct (entry_same _ _ _ _ _ _ _ _ h1 h3 h2 h4) as [e1 [e2 e3]]; rewrite ?e1, ?e2, ?e3, (h _ _ _ _ h3 h4); reflexivity.
  Qed.

  Lemma motion_same g u v a g2 u2 v2 a2 :
    (forall p d i j, number_of ns' p d = Some i -> number_of ms' (f p) d = Some j -> forall t, g2 t j = g t i /\ u2 t j = u t i /\ v2 t j = v t i /\ a2 t j = a t i) ->
    motion n s g u v a -> motion m s2 g2 u2 v2 a2.
  Proof.
    intros he [mu [mv mb]].
    assert (pl : forall j, (j < m)%nat -> exists p d i, number_of ns' p d = Some i /\ number_of ms' (f p) d = Some j /\ (i < n)%nat).
    { intros j hj. destruct (place' j hj) as [p [d [i [h3 h4]]]]. exists p, d, i. split; [exact h3|]. split; [exact h4|]. apply (below p d i h3). }
    split; [|split].
    - intros j hj. destruct (pl j hj) as [p [d [i [h3 [h4 hi]]]]]. apply (derivative_ext (fun t => u t i) _ (fun t => v t i)); [| |apply mu; exact hi];
        intros t; destruct (he p d i j h3 h4 t) as [e1 [e2 [e3 e4]]]; congruence.
    - intros j hj. destruct (pl j hj) as [p [d [i [h3 [h4 hi]]]]]. apply (derivative_ext (fun t => v t i) _ (fun t => a t i)); [| |apply mv; exact hi];
        intros t; destruct (he p d i j h3 h4 t) as [e1 [e2 [e3 e4]]]; congruence.
    - intros t j hj. destruct (pl j hj) as [p [d [i [h3 [h4 hi]]]]]. destruct (he p d i j h3 h4 t) as [-> _]. rewrite <- (mb t i hi).
      destruct (mulv_same (a t) (a2 t) p d i j) as [_ [w1 _]]; [intros p0 d0 i0 j0 x y; symmetry; apply (he p0 d0 i0 j0 x y t)|exact h3|exact h4|].
      destruct (mulv_same (v t) (v2 t) p d i j) as [_ [_ w2]]; [intros p0 d0 i0 j0 x y; symmetry; apply (he p0 d0 i0 j0 x y t)|exact h3|exact h4|].
      destruct (mulv_same (u t) (u2 t) p d i j) as [w3 _]; [intros p0 d0 i0 j0 x y; symmetry; apply (he p0 d0 i0 j0 x y t)|exact h3|exact h4|].
      rewrite w1, w2, w3. reflexivity.
  Qed.
End Systems.

Lemma first_ok (ns : list (node R)) ps ls cs da s ns' n : initialise_system ns ps ls cs da = Ok (s, ns', n) -> forall p, In p ps -> initialize_part ns p = Ok (settled ns p).
Proof.
  intros run p hp. destruct (initialise_inv _ _ _ _ _ _ _ _ run) as [s0 [_ [e0 _]]]. destruct (assemble_inv _ _ _ _ _ e0) as [_ [e1 _]].
  clear - e1 hp. apply mapr_spec in e1. revert hp e1. induction ps as [|a l IH]; intros hp e1; [destruct hp|]. cbn [map] in e1. inversion_clear e1. destruct hp as [->|hp]; [assumption|apply IH; assumption].
Qed.

(** a system on the same nodes, whose parts have the same quadratic forms in total *)
Lemma same_system f (ns ms : list (node R)) ps qs ls ks cs da s ns' n :
  initialise_system ns ps ls cs da = Ok (s, ns', n) ->
  Forall shaped ps -> Forall (fun p => sound (settled ns p)) ps -> Forall (within ns) ps -> Forall plain_load ls ->
  renumbered_mesh f ns ms -> Permutation ks (map (renumbered_load f) ls) ->
  (forall aux u, is_aux aux -> nsum (map (fun p => part_form aux ms u (settled ms p)) qs) = nsum (map (fun p => part_form aux ns (fun i d => u (f i) d) (settled ns p)) ps)) ->
  (forall q, In q qs -> exists q1, initialize_part ms q = Ok q1) -> Forall (within ms) qs -> Forall shaped qs -> Forall (fun q => sound (settled ms q)) qs ->
  exists s2 ms', initialise_system ms qs ks (map (renumbered_constraint f) cs) da = Ok (s2, ms', n) /\
    (forall p d, (p < length ns)%nat -> (number_of ns' p d <> None <-> number_of ms' (f p) d <> None)) /\
    forall p d q e i j i' j', number_of ns' p d = Some i -> number_of ns' q e = Some j -> number_of ms' (f p) d = Some i' -> number_of ms' (f q) e = Some j' ->
      me (gK s2) i' j' = me (gK s) i j /\ me (gM s2) i' j' = me (gM s) i j /\ me (gC s2) i' j' = me (gC s) i j /\ nth i' (gF s2) 0 = nth i (gF s) 0.
Proof.
  intros h hs ho hw hp hm hl ht hk hw2 hs2 ho2.
  assert (g : exists s2 ms' m, initialise_system ms qs ks (map (renumbered_constraint f) cs) da = Ok (s2, ms', m)) by (eapply run_again; eassumption).
  destruct g as [s2 [ms' [m h2]]]. assert (em : m = n) by (eapply size_same; eassumption). subst m.
  exists s2, ms'. split; [exact h2|]. split; [intros p d; eapply number_same; eassumption|].
  intros p d q e i j i' j' h3 h4 h5 h6.
  assert (x : me (gK s2) i' j' = me (gK s) i j /\ me (gM s2) i' j' = me (gM s) i j /\ me (gC s2) i' j' = me (gC s) i j) by (eapply entry_same; eassumption).
  destruct x as [e1 [e2 e3]]. split; [exact e1|]. split; [exact e2|]. split; [exact e3|]. eapply force_same; eassumption.
Qed.
