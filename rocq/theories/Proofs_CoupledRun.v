(** * Running the coupled train and track (C118) *)

From Coq Require Import Reals List Bool ZArith Arith Lia Lra.
From Verif Require Import Num PyBase Model_Geometry Model_System Model_Element Model_Moving Model_Accumulation Model_Run Model_CoupledRun
  Spec_Geometry Spec_System Spec_Run Spec_CoupledRun Proofs_Elements Proofs_System Proofs_Accumulation Proofs_Force Proofs_Run.
Import ListNotations.
Local Open Scope R_scope.

Lemma mapr_app {A B} (f : A -> res B) l m : mapr f (l ++ m) = (do x <- mapr f l ; do y <- mapr f m ; Ok (x ++ y)).
Proof.
  induction l as [|a l IH]; cbn [app mapr]; [cbn; destruct (mapr f m); reflexivity|]. destruct (f a) as [b|]; [|reflexivity]. cbn [rbind]. rewrite IH.
  destruct (mapr f l) as [x|]; [|reflexivity]. cbn [rbind]. destruct (mapr f m); reflexivity.
Qed.

Lemma forall2_length {A B} (P : A -> B -> Prop) l m : Forall2 P l m -> length m = length l.
Proof. induction 1; cbn; congruence. Qed.
Definition glue {A} (p : list A * list A) : list A := fst p ++ snd p.

Lemma coupled_assign_glue memory track train rows : track ++ train <> [] ->
  assign_results_to_nodes memory (track ++ train) rows = (do o <- @coupled_assign R RNum memory track train rows ; Ok (glue o)).
Proof.
  intros h. unfold assign_results_to_nodes, coupled_assign. destruct (track ++ train) as [|a l] eqn:e; [congruence|]. rewrite <- e, mapr_app.
  destruct (mapr _ track) as [x|]; [|reflexivity]. cbn [rbind]. destruct (mapr _ train); reflexivity.
Qed.

Lemma stages_glue kind dynamic static time memory track train : track ++ train <> [] -> forall ids rows out,
  run_stages kind dynamic static time memory (track ++ train) ids rows (option_map glue out) =
  (do q <- @coupled_stages R RNum kind dynamic static time memory track train ids rows out ; Ok (fst q, option_map glue (snd q))).
Proof.
  intros hne. induction ids as [|a ids IH]; intros rows out; [reflexivity|]. destruct ids as [|b ids]; [reflexivity|].
  cbn [run_stages coupled_stages]. unfold calculate_stage, coupled_stage.
  destruct (match kind with Dynamic => _ | Static => _ | OtherType => _ end) as [r1|]; [|reflexivity]. cbn [rbind]. rewrite coupled_assign_glue by exact hne.
  destruct (coupled_assign memory track train r1) as [o|]; [|reflexivity]. cbn [rbind fst snd]. exact (IH r1 (Some o)).
Qed.

Lemma coupled_assign_length memory track train rows o : @coupled_assign R RNum memory track train rows = Ok o -> length (fst o) = length track /\ length (snd o) = length train.
Proof.
  unfold coupled_assign. intros h. apply rbind_ok in h. destruct h as [x [hx h]]. apply rbind_ok in h. destruct h as [y [hy h]]. injection h as <-. apply mapr_spec in hx. apply mapr_spec in hy.
  cbn. split; eapply forall2_length; eassumption.
Qed.

Lemma stages_last kind dynamic static time memory track train : forall ids rows out rows' out',
  @coupled_stages R RNum kind dynamic static time memory track train ids rows out = Ok (rows', out') -> (2 <= length ids)%nat ->
  exists o, out' = Some o /\ coupled_assign memory track train rows' = Ok o.
Proof.
  induction ids as [|a ids IH]; intros rows out rows' out' h hl; [cbn in hl; lia|]. destruct ids as [|b ids]; [cbn in hl; lia|].
  cbn [coupled_stages] in h. apply rbind_ok in h. destruct h as [q [hq h]]. destruct ids as [|c ids].
  - cbn [coupled_stages] in h. injection h as <- <-. unfold coupled_stage in hq. apply rbind_ok in hq. destruct hq as [r1 [_ hq]]. apply rbind_ok in hq. destruct hq as [o [ho hq]].
    injection hq as <-. exists o. split; [reflexivity|exact ho].
  - apply (IH (fst q) (Some (snd q))); [exact h|cbn; lia].
Qed.

(** ** forces *)

Lemma sumn6 (f : nat -> R) : sumn 6 f = sum6 f.
Proof. unfold sumn, sum6. cbn. rnum. lra. Qed.

Lemma joined_six (a b : tri R) i : joined (tlist a) (tlist b) i = six a b i.
Proof. destruct a, b. unfold joined, six, tlist. do 6 (destruct i as [|i]; [reflexivity|]). cbn. destruct i; reflexivity. Qed.

Lemma element_row_spec k mask rot (a b : tri R) : exists f : tri R, element_force_row k mask rot (tlist a) (tlist b) = Ok (tlist f) /\ mean_force k mask rot a b f.
Proof.
  unfold element_force_row. cbv zeta.
  assert (e : forall j, sumn 6 (fun m => (k j m * match rot with Some r => sumn 6 (fun m0 => mtrans r m m0 * joined (tlist a) (tlist b) m0) | None => joined (tlist a) (tlist b) m end)%num) = end_force k rot a b j).
  { intros j. rewrite sumn6. unfold end_force, sum6, in_axes. destruct rot as [r|]; [|rewrite !joined_six; reflexivity].
    rewrite !sumn6. unfold sum6, mtrans. rewrite !joined_six. reflexivity. }
  destruct (force_row (fun i => (end_force k rot a b i - end_force k rot a b (i + 3)) / 2) mask) as [f [h1 [h2 h3]]].
  exists f. split.
  - rewrite <- h1. f_equal. apply flat_map_ext. intros d. destruct (tget mask d); [|reflexivity]. f_equal. rewrite <- !e. reflexivity.
  - unfold mean_force. split; [|split].
    + destruct (tx mask) eqn:em; [exact (h2 DX em)|exact (h3 DX em)].
    + destruct (ty mask) eqn:em; [exact (h2 DY em)|exact (h3 DY em)].
    + destruct (tr mask) eqn:em; [exact (h2 DR em)|exact (h3 DR em)].
Qed.

Lemma first_part_spec e aux mask rot : stiffness_part e aux mask rot -> first_element_part (ml_parts e) = Some (aux, mask, rot).
Proof.
  intros [l [m [-> h]]]. induction l as [|p l IH]; [reflexivity|]. rewrite (h p (or_introl eq_refl)). cbn. apply IH. intros q hq. apply h. right. exact hq.
Qed.
Lemma first_part_none (ps : list (epart R)) : (forall p, In p ps -> p = OtherPart) -> first_element_part ps = None.
Proof. induction ps as [|p ps IH]; intros h; [reflexivity|]. rewrite (h p (or_introl eq_refl)). cbn. apply IH. intros q hq. apply h. right. exact hq. Qed.

Lemma no_force disp (e : melem R) : carries_none e -> force_in_element disp e = Ok None.
Proof.
  unfold force_in_element. intros [h|[h|[mask [rot h]]]].
  - destruct (ml_nodes e) as [|i [|j [|m l]]]; try reflexivity. exfalso. apply (h i j). reflexivity.
  - rewrite first_part_none by exact h. destruct (ml_nodes e) as [|i [|j [|m l]]]; reflexivity.
  - rewrite (first_part_spec _ _ _ _ h). destruct (ml_nodes e) as [|i [|j [|m l]]]; reflexivity.
Qed.

Lemma mapr_assigned memory ns rows o : mapr (fun n => mapr (@nodal_result R RNum (tlist memory) n) rows) ns = Ok o -> (forall n, In n ns -> flags_match n) ->
  length o = length ns /\ forall p n, nth_error ns p = Some n -> exists l, nth_error o p = Some l /\ length l = length rows /\
    forall t r, nth_error rows t = Some r -> exists x, nth_error l t = Some x /\ agrees_with_row n r x.
Proof.
  intros h hf. destruct ns as [|n ns]; [injection h as <-; split; [reflexivity|intros p m hp; destruct p; discriminate]|]. exact (assigned_spec memory (n :: ns) rows o h hf).
Qed.

Lemma coupled_assigned memory track train rows o : coupled_assign (tlist memory) track train rows = Ok o ->
  (forall n, In n track -> flags_match n) -> (forall n, In n train -> flags_match n) ->
  mapr (fun n => mapr (@nodal_result R RNum (tlist memory) n) rows) track = Ok (fst o) /\ mapr (fun n => mapr (@nodal_result R RNum (tlist memory) n) rows) train = Ok (snd o).
Proof.
  unfold coupled_assign. intros h _ _. apply rbind_ok in h. destruct h as [x [hx h]]. apply rbind_ok in h. destruct h as [y [hy h]]. injection h as <-. auto.
Qed.

Lemma coupled_assign_total memory track train (rows : list (row R)) : (forall n, In n track -> flags_match n) -> (forall n, In n train -> flags_match n) ->
  exists o, coupled_assign (tlist memory) track train rows = Ok o.
Proof.
  intros h1 h2. assert (one : forall ns, (forall n, In n ns -> flags_match n) -> exists o, mapr (fun n => mapr (@nodal_result R RNum (tlist memory) n) rows) ns = Ok o).
  { intros ns hf. destruct ns as [|n ns]; [exists []; reflexivity|]. exact (assigned_total memory (n :: ns) rows ltac:(discriminate) hf). }
  unfold coupled_assign. destruct (one track h1) as [x ->]. cbn [rbind]. destruct (one train h2) as [y ->]. cbn [rbind]. eauto.
Qed.

(** the force of an element whose nodes have results at the same times *)
Lemma carried_force e i j k mask rot o a b : carries_force e i j k mask rot -> nth_error o i = Some a -> nth_error o j = Some b -> length a = length b ->
  (forall x, In x a -> exists u : tri R, nd_u x = tlist u) -> (forall x, In x b -> exists u : tri R, nd_u x = tlist u) ->
  exists fs, force_in_element (Some o) e = Ok (Some fs) /\ length fs = length a /\
    forall t x y, nth_error a t = Some x -> nth_error b t = Some y -> exists u v f, nd_u x = tlist u /\ nd_u y = tlist v /\ nth_error fs t = Some (tlist f) /\ mean_force k mask rot u v f.
Proof.
  intros [hn hp] ha hb hl ua ub. unfold force_in_element. rewrite hn, (first_part_spec _ _ _ _ hp). unfold at_idx. rewrite ha, hb. cbn [rbind]. clear ha hb hn hp.
  revert b hl ub. induction a as [|x a IH]; intros b hl ub.
  - destruct b; [|discriminate]. exists []. cbn. split; [reflexivity|]. split; [reflexivity|]. intros t x y h. destruct t; discriminate.
  - destruct b as [|y b]; [discriminate|]. destruct (ua x (or_introl eq_refl)) as [u eu]. destruct (ub y (or_introl eq_refl)) as [v ev].
    destruct (IH (fun z hz => ua z (or_intror hz)) b (f_equal pred hl) (fun z hz => ub z (or_intror hz))) as [fs [e1 [e2 e3]]].
    apply rbind_ok in e1. destruct e1 as [fs' [e1 e4]]. injection e4 as ->.
    destruct (element_row_spec k mask rot u v) as [f [g1 g2]]. exists (tlist f :: fs).
    cbn [combine mapr fst snd]. rewrite eu, ev, g1. cbn [rbind]. rewrite e1. cbn [rbind]. split; [reflexivity|]. split; [cbn; congruence|].
    intros [|t] x' y' hx hy.
    + injection hx as <-. injection hy as <-. exists u, v, f. cbn. auto.
    + exact (e3 t x' y' hx hy).
Qed.
