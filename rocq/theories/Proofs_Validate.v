From Coq Require Import Reals List Bool Arith Lia Lra.
From Verif Require Import Num PyBase Model_Validate Spec_Validate.
Import ListNotations.

Definition quiet (l : list nat) : bool := negb (existsb (Nat.eqb 40) l || existsb (Nat.eqb 50) l).

Lemma quiet_app a b : quiet (a ++ b) = quiet a && quiet b.
Proof. unfold quiet. rewrite !existsb_app. destruct (existsb (Nat.eqb 40) a), (existsb (Nat.eqb 50) a), (existsb (Nat.eqb 40) b), (existsb (Nat.eqb 50) b); reflexivity. Qed.

Lemma quiet_missing {A} (o : option A) : quiet (missing o ERROR) = true <-> given o.
Proof.
  destruct o as [a|].
  - split; [intros _; exists a; reflexivity|reflexivity].
  - split; [discriminate|intros [x h]; discriminate].
Qed.
Lemma quiet_warning {A} (o : option A) : quiet (missing o WARNING) = true.
Proof. destruct o; reflexivity. Qed.

Lemma material_spec (m : material R) : quiet (validate_material m) = true <-> complete_material m.
Proof. unfold validate_material, complete_material. rewrite !quiet_app, !andb_true_iff, !quiet_missing. tauto. Qed.

Lemma section_spec (s : section R) : quiet (validate_section s) = true <-> complete_section s.
Proof.
  unfold validate_section, complete_section. rewrite !quiet_app, !andb_true_iff, !quiet_missing, !quiet_warning.
  assert (hh : quiet (match s_height s, s_neutral s with Some h, Some n => if nltb h n then [ERROR] else [] | _, _ => [] end) = true
     <-> (forall h n, s_height s = Some h -> s_neutral s = Some n -> (n <= h)%R)).
  { destruct (s_height s) as [h|], (s_neutral s) as [n|]; try (split; [intros _ h' n' e1 e2; discriminate|reflexivity]).
    destruct (nltbP h n) as [e|e]; split; intros hq; try discriminate; try reflexivity.
    - specialize (hq h n eq_refl eq_refl). lra.
    - intros h' n' e1 e2. injection e1 as <-. injection e2 as <-. lra. }
  rewrite hh. tauto.
Qed.

Lemma empty_spec (o : option nat) :
  match empty_error o with Ok l => (quiet l = true <-> at_least_one o) | Err _ => ~ at_least_one o end.
Proof.
  destruct o as [[|n]|]; simpl.
  - split; [discriminate|]. intros [n [e h]]. injection e as <-. lia.
  - split; [intros _|reflexivity]. exists (S n). split; [reflexivity|lia].
  - intros [n [e h]]. discriminate.
Qed.

Lemma part_spec (p : part R) :
  match validate_part p with Ok l => (quiet l = true <-> complete p) | Err _ => ~ complete p end.
Proof.
  destruct p as [z|k z|m s z]; cbn [validate_part complete].
  - rewrite quiet_app, andb_true_iff, !quiet_missing. tauto.
  - pose proof (empty_spec (z_elements z)) as h1. pose proof (empty_spec (z_nodes z)) as h2.
    destruct (empty_error (z_elements z)) as [e|]; cbn [rbind]; [|tauto].
    destruct (empty_error (z_nodes z)) as [n|]; cbn [rbind]; [|tauto].
    rewrite !quiet_app, !andb_true_iff, quiet_missing. tauto.
  - pose proof (empty_spec (z_elements z)) as h1. pose proof (empty_spec (z_nodes z)) as h2.
    destruct (empty_error (z_elements z)) as [e|]; cbn [rbind]; [|tauto].
    destruct (empty_error (z_nodes z)) as [n|]; cbn [rbind]; [|tauto].
    rewrite !quiet_app, !andb_true_iff.
    assert (hm : quiet (match m with Some m => validate_material m | None => [ERROR] end) = true <-> exists m', m = Some m' /\ complete_material m').
    { destruct m as [m|]; [rewrite material_spec; split; [eauto|intros [m' [e' h]]; injection e' as <-; exact h]|].
      split; [discriminate|intros [m' [e' _]]; discriminate]. }
    assert (hs : quiet (match s with Some s => validate_section s | None => [ERROR] end) = true <-> exists s', s = Some s' /\ complete_section s').
    { destruct s as [s|]; [rewrite section_spec; split; [eauto|intros [m' [e' h]]; injection e' as <-; exact h]|].
      split; [discriminate|intros [m' [e' _]]; discriminate]. }
    rewrite hm, hs. tauto.
Qed.

Lemma parts_spec (ps : list (part R)) :
  match validate_parts ps with
  | Ok l => (quiet l = true <-> Forall complete ps)
  | Err _ => ~ Forall complete ps
  end.
Proof.
  induction ps as [|p ps IH]; cbn [validate_parts].
  - split; [constructor|reflexivity].
  - pose proof (part_spec p) as h. destruct (validate_part p) as [a|]; cbn [rbind].
    + destruct (validate_parts ps) as [b|]; cbn [rbind].
      * rewrite quiet_app, andb_true_iff, h, IH. split; [intros []; constructor; assumption|intros hf; inversion hf; auto].
      * intros hf. inversion hf; auto.
    + intros hf. inversion hf; auto.
Qed.

Lemma validate_spec (cache : list nat) (ps : list (part R)) :
  fst (validate_model cache ps) = Ok tt <-> (~ In 40%nat cache /\ ~ In 50%nat cache) /\ Forall complete ps.
Proof.
  assert (hq : quiet cache = true <-> ~ In 40%nat cache /\ ~ In 50%nat cache).
  { unfold quiet. rewrite negb_true_iff, orb_false_iff.
    assert (he : forall k, existsb (Nat.eqb k) cache = false <-> ~ In k cache).
    { intros k. rewrite <- not_true_iff_false, existsb_exists. split; intros h1 h2; apply h1.
      - exists k. split; [assumption|apply Nat.eqb_refl].
      - destruct h2 as [x [hx e]]. apply Nat.eqb_eq in e. subst. assumption. }
    rewrite !he. reflexivity. }
  unfold validate_model. pose proof (parts_spec ps) as h. destruct (validate_parts ps) as [l|]; cbn [fst].
  - assert (e : existsb (Nat.eqb 40) (cache ++ l) || existsb (Nat.eqb 50) (cache ++ l) = negb (quiet cache && quiet l)).
    { rewrite <- quiet_app. unfold quiet. rewrite negb_involutive. reflexivity. }
    rewrite e. rewrite <- hq, <- h. destruct (quiet cache), (quiet l); simpl; split; intros; try discriminate; intuition discriminate.
  - split; [discriminate|]. intros [_ hf]. contradiction.
Qed.

Lemma validate_err (cache : list nat) (ps : list (part R)) :
  (exists e, fst (validate_model cache ps) = Err e) <-> fst (validate_model cache ps) <> Ok tt.
Proof. destruct (fst (validate_model cache ps)) as [[]|e]; split; eauto; try congruence. intros [e h]; discriminate. Qed.

Lemma validate_cache (cache : list nat) (ps : list (part R)) :
  fst (validate_model cache ps) = Ok tt -> ~ In 40%nat (snd (validate_model cache ps)) /\ ~ In 50%nat (snd (validate_model cache ps)).
Proof.
  unfold validate_model. destruct (validate_parts ps) as [l|]; cbn [fst snd]; [|discriminate].
  destruct (existsb (Nat.eqb 40) (cache ++ l)) eqn:x1; [discriminate|].
  destruct (existsb (Nat.eqb 50) (cache ++ l)) eqn:x2; [discriminate|]. intros _. split; intros hi.
  - apply not_true_iff_false in x1. apply x1. apply existsb_exists. exists 40%nat. split; [assumption|reflexivity].
  - apply not_true_iff_false in x2. apply x2. apply existsb_exists. exists 50%nat. split; [assumption|reflexivity].
Qed.

Lemma validate_all_clean (cache : list nat) (models : list (list (part R))) :
  ~ In 40%nat cache -> ~ In 50%nat cache ->
  (forall m, In m models -> Forall complete m) ->
  validate_all cache models = map (fun _ => Ok tt) models.
Proof.
  revert cache. induction models as [|m r IH]; intros cache h4 h5 hall; [reflexivity|].
  cbn [validate_all map]. pose proof (proj2 (validate_spec cache m) (conj (conj h4 h5) (hall m (or_introl eq_refl)))) as h.
  pose proof (validate_cache cache m h) as [c4 c5].
  destruct (validate_model cache m) as [o c]. cbn [fst snd] in h, c4, c5. subst o. f_equal.
  apply IH; auto. intros m' hm. apply hall. right. assumption.
Qed.
