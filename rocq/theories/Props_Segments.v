(** * A batch of segments (C130) *)

From Coq Require Import Reals String Ascii List Bool ZArith Arith Lia Lra Permutation.
From Verif Require Import Num PyBase Model_Geometry Model_System Model_Element Model_Moving Model_Accumulation Proofs_Accumulation Model_Misc Model_Batch Spec_Batch Props_Batch Model_Run Model_CoupledRun
  Model_DemoResults Spec_DemoResults Props_DemoResults Model_Demo Model_Segments Spec_Segments.
Import ListNotations.
Local Open Scope R_scope.

(** ** names *)

Section Names.
  Local Open Scope string_scope.

  Lemma append_assoc' (a b c : string) : (a ++ b) ++ c = a ++ (b ++ c).
  Proof. induction a as [|x a IH]; cbn; [reflexivity|]. rewrite IH. reflexivity. Qed.
  Lemma append_nil (a : string) : a ++ "" = a.
  Proof. induction a as [|x a IH]; cbn; [reflexivity|]. rewrite IH. reflexivity. Qed.
  Lemma append_length (a b : string) : String.length (a ++ b) = (String.length a + String.length b)%nat.
  Proof. induction a as [|x a IH]; cbn; [reflexivity|]. rewrite IH. reflexivity. Qed.
  Lemma append_same (a b s : string) : a ++ s = b ++ s -> a = b.
  Proof.
    revert b. induction a as [|x a IH]; intros [|y b] h; cbn in h.
    - reflexivity.
    - apply (f_equal String.length) in h. cbn in h. rewrite append_length in h. lia.
    - apply (f_equal String.length) in h. cbn in h. rewrite append_length in h. lia.
    - injection h as -> h. f_equal. exact (IH b h).
  Qed.
  Lemma result_file_inj a b : result_file a = result_file b -> a = b.
  Proof. unfold result_file. intros h. cbn in h. injection h as h. exact (append_same _ _ _ h). Qed.

  Lemma slash_app a b : has_slash (a ++ b) = has_slash a || has_slash b.
  Proof. induction a as [|x a IH]; cbn; [reflexivity|]. rewrite IH, orb_assoc. reflexivity. Qed.
  Lemma slash_none a : has_slash a = false <-> no_slash a.
  Proof.
    induction a as [|x a IH]; cbn; [tauto|]. rewrite orb_false_iff, IH. destruct (Ascii.eqb_spec x "/"%char); split; intros [h1 h2]; split; congruence || assumption.
  Qed.
  Lemma base_none a : has_slash a = false -> basename a = a.
  Proof. destruct a as [|x a]; cbn; [reflexivity|]. intros h. apply orb_false_iff in h. destruct h as [-> ->]. reflexivity. Qed.
  Lemma base_after f a : has_slash a = false -> basename (f ++ "/" ++ a) = a.
  Proof.
    intros h. induction f as [|x f IH]; cbn [append basename]; [rewrite h; reflexivity|].
    rewrite slash_app. change (has_slash ("/" ++ a)) with true. rewrite orb_true_r. exact IH.
  Qed.
  Lemma base_of p : has_slash (basename p) = false /\ (p = basename p \/ exists f, p = f ++ "/" ++ basename p).
  Proof.
    induction p as [|x p [IH1 IH2]]; cbn [basename]; [split; [reflexivity|left; reflexivity]|]. destruct (has_slash p) eqn:e.
    - split; [exact IH1|]. right. destruct IH2 as [IH2|[f IH2]]; [rewrite <- IH2, e in IH1; discriminate|]. exists (String x f). cbn. f_equal. exact IH2.
    - destruct (Ascii.eqb_spec x "/"%char) as [->|hx]; (split; [|]).
      + exact e.
      + right. exists "". reflexivity.
      + cbn. rewrite e. destruct (Ascii.eqb_spec x "/"%char); [contradiction|reflexivity].
      + left. reflexivity.
  Qed.

  Lemma cut_is p q : cut_dot p = Some q -> p = fst q ++ snd q.
  Proof.
    revert q. induction p as [|x p IH]; intros q h; cbn in h; [discriminate|]. destruct (cut_dot p) as [q'|].
    - injection h as <-. cbn. rewrite (IH q' eq_refl) at 1. reflexivity.
    - destruct (Ascii.eqb x "."%char); [|discriminate]. injection h as <-. reflexivity.
  Qed.
  Lemma cut_json n : cut_dot (n ++ ".json") = Some (n, ".json").
  Proof. induction n as [|x n IH]; [reflexivity|]. cbn [append cut_dot]. rewrite IH. reflexivity. Qed.
  Lemma dots_letter n : only_dots n = false <-> some_letter n.
  Proof.
    induction n as [|x n IH]; cbn; [split; [discriminate|tauto]|]. rewrite andb_false_iff, IH. destruct (Ascii.eqb_spec x "."%char); split; intros [h|h]; try (left; congruence); right; assumption.
  Qed.

  Lemma json_split path name : json_file path name -> splitext (basename path) = (name, ".json").
  Proof.
    intros [h1 [h2 h3]]. assert (hs : has_slash (name ++ ".json") = false) by (rewrite slash_app, (proj2 (slash_none _) h1); reflexivity).
    assert (e : basename path = name ++ ".json") by (destruct h3 as [->|[f ->]]; [apply base_none|apply base_after]; exact hs).
    rewrite e. unfold splitext. rewrite cut_json. cbn [fst]. rewrite (proj2 (dots_letter name) h2). reflexivity.
  Qed.
  Lemma split_json path : snd (splitext (basename path)) = ".json" -> json_file path (fst (splitext (basename path))).
  Proof.
    destruct (base_of path) as [hs hp]. unfold splitext. destruct (cut_dot (basename path)) as [q|] eqn:ec; [|discriminate]. destruct (only_dots (fst q)) eqn:ed; [discriminate|]. intros h.
    pose proof (cut_is _ _ ec) as e. rewrite h in e. rewrite e, slash_app, orb_false_iff in hs.
    split; [apply slash_none; apply hs|]. split; [apply dots_letter; exact ed|]. rewrite e in hp. exact hp.
  Qed.
End Names.

(** C130: the name of a stiffness file is what its file is called without folder and extension; every file that is called so is read, no other
    file is opened *)
Theorem C130_names path name : json_file path name <-> splitext (basename path) = (name, ".json"%string).
Proof.
  split; [apply json_split|]. intros h. pose proof (split_json path) as g. rewrite h in g. exact (g eq_refl).
Qed.
Print Assumptions C130_names.

Definition is_json (f : string * res (dict (list R))) : bool := String.eqb (snd (splitext (basename (fst f)))) ".json".
Lemma is_json_spec f : is_json f = true <-> exists name, json_file (fst f) name.
Proof.
  unfold is_json. rewrite String.eqb_eq. split; [intros h; eexists; apply split_json; exact h|]. intros [n h]. rewrite (json_split _ _ h). reflexivity.
Qed.

Lemma first_is k (d : dict (list R)) x : first_of k d = Ok x <-> exists l, dget k d = Ok (x :: l).
Proof.
  unfold first_of. split.
  - intros h. apply rbind_ok in h. destruct h as [l [h1 h2]]. apply at_idx_ok in h2. destruct l as [|y l]; [discriminate|]. injection h2 as ->. eauto.
  - intros [l h]. rewrite h. reflexivity.
Qed.

Lemma read_ok files : forall l, read_wolf files = Ok l ->
  Forall2 (fun w f => json_file (fst f) (wf_name w) /\ gives (snd f) (wf_omega w) (wf_stiffness w) (wf_damping w)) l (filter is_json files).
Proof.
  induction files as [|[path content] files IH]; intros l h; cbn [read_wolf filter] in *; [injection h as <-; constructor|]. unfold is_json at 1. cbn [fst].
  destruct (String.eqb_spec (snd (splitext (basename path))) ".json") as [e|e]; [|exact (IH l h)].
  apply rbind_ok in h. destruct h as [d [h1 h]]. apply rbind_ok in h. destruct h as [o [h2 h]]. apply rbind_ok in h. destruct h as [k [h3 h]].
  apply rbind_ok in h. destruct h as [c [h4 h]]. apply rbind_ok in h. destruct h as [q [h5 h]]. injection h as <-.
  constructor; [|apply IH; exact h5]. cbn [fst snd wf_name wf_omega wf_stiffness wf_damping]. split; [apply split_json; exact e|].
  apply first_is in h2, h3, h4. destruct h2 as [l1 h2], h3 as [l2 h3], h4 as [l3 h4]. exists d, l1, l2, l3. auto.
Qed.

(** ** the loop *)

Lemma velocity_is v velocity : Forall2 (fun a b => b = if Rlt_dec (1 / 10000000000) a then velocity else a) v (change_velocity v velocity).
Proof.
  induction v as [|a v IH]; cbn [change_velocity map]; constructor; [|exact IH]. rewrite ndec_R. change (IZR 1 / IZR (10 ^ 10)) with (1 / 10000000000).
  destruct (nltbP (1 / 10000000000) a), (Rlt_dec (1 / 10000000000) a); reflexivity || contradiction.
Qed.
Lemma velocities_one v velocity a : Forall2 (fun a b => b = if Rlt_dec (1 / 10000000000) a then velocity else a) v a -> a = change_velocity v velocity.
Proof.
  intros h. pose proof (velocity_is v velocity) as g. revert g. generalize (change_velocity v velocity). induction h as [|x y v a hxy h IH]; intros b g; inversion g as [|? z ? b' hz g']; subst; [reflexivity|].
  f_equal. exact (IH _ g').
Qed.

Definition one_run (velocity k c : R) (m : batch_model R) (segment : string) : res (string * written R) :=
  do x <- calculate k c m velocity ; batch_write_results segment 10 (bm_time (fst x)) (bm_velocities (fst x)) (bm_track (fst x)) (bm_parts (fst x)) (snd x).
Lemma one_run_is velocity k c m segment file w : one_run velocity k c m segment = Ok (file, w) <-> file = result_file segment /\ own_series m velocity k c segment w.
Proof.
  unfold one_run, calculate, set_soil. split.
  - intros h. apply rbind_ok in h. destruct h as [x [h1 h2]]. apply rbind_ok in h1. destruct h1 as [ps [h0 h1]]. apply rbind_ok in h0. destruct h0 as [p [hp h0]]. injection h0 as <-.
    apply rbind_ok in h1. destruct h1 as [r [hr h1]]. injection h1 as <-. cbn [fst snd bm_time bm_velocities bm_track bm_parts] in h2.
    apply at_idx_ok in hp. destruct (bm_parts m) as [|p1 [|p2 [|p3 [|p4 [|soil rest]]]]] eqn:e; try discriminate. cbn [nth_error] in hp. injection hp as ->. cbn [firstn skipn app] in hr, h2.
    split.
    + pose proof h2 as h2'. unfold batch_write_results in h2'. apply rbind_ok in h2'. destruct h2' as [w' [_ h2']]. injection h2' as <- _. reflexivity.
    + exists p1, p2, p3, p4, p, rest, (change_velocity (bm_velocities m) velocity), r, file. split; [exact e|]. split; [apply velocity_is|]. split; assumption.
  - intros [-> [p1 [p2 [p3 [p4 [p [rest [v [r [file' [e [hv [hr hw]]]]]]]]]]]]]. apply velocities_one in hv. subst v. rewrite e.
    cbn [at_idx nth_error rbind firstn skipn app]. change (at_idx (p1 :: p2 :: p3 :: p4 :: p :: rest) 4) with (Ok p). cbn [rbind]. rewrite hr. cbn [rbind fst snd bm_time bm_velocities bm_track bm_parts]. rewrite hw.
    f_equal. f_equal. unfold batch_write_results in hw. apply rbind_ok in hw. destruct hw as [w' [_ hw]]. injection hw as <- _. reflexivity.
Qed.

Lemma loop_step velocity m k c segment omega l folder : batch_loop velocity m ((k, c, (segment, omega)) :: l) folder =
  match one_run velocity k c m segment with Err e => (folder, Some e) | Ok w => batch_loop velocity m l (dset (fst w) (snd w, omega) folder) end.
Proof. reflexivity. Qed.

(** whatever the end, a file holds what it held before or the result of its own segment *)
Lemma loop_right velocity m l : forall folder folder' e key x, batch_loop velocity m l folder = (folder', e) -> dget key folder' = Ok x ->
  dget key folder = Ok x \/ exists k c segment, In (k, c, (segment, snd x)) l /\ key = result_file segment /\ own_series m velocity k c segment (fst x).
Proof.
  induction l as [|[[k c] [segment omega]] l IH]; intros folder folder' e key x h hx; [injection h as <- <-; left; exact hx|]. rewrite loop_step in h.
  destruct (one_run velocity k c m segment) as [[file w]|e'] eqn:er; [|injection h as <- <-; left; exact hx]. apply one_run_is in er. destruct er as [-> ho]. cbn [fst snd] in h.
  destruct (IH _ _ _ key x h hx) as [g|[k' [c' [s' [g1 [g2 g3]]]]]]; [|right; exists k', c', s'; split; [right; exact g1|split; assumption]].
  destruct (String.string_dec key (result_file segment)) as [->|hne].
  - rewrite dget_dset_same in g. injection g as <-. right. exists k, c, segment. split; [left; reflexivity|]. split; [reflexivity|exact ho].
  - rewrite dget_dset_other in g by congruence. left. exact g.
Qed.
(** files of other names stay *)
Lemma loop_other velocity m l : forall folder folder' e key, batch_loop velocity m l folder = (folder', e) -> (forall q, In q l -> key <> result_file (fst (snd q))) -> dget key folder' = dget key folder.
Proof.
  induction l as [|[[k c] [segment omega]] l IH]; intros folder folder' e key h hk; [injection h as <- <-; reflexivity|]. rewrite loop_step in h.
  destruct (one_run velocity k c m segment) as [[file w]|e'] eqn:er; [|injection h as <- <-; reflexivity]. apply one_run_is in er. destruct er as [-> _]. cbn [fst snd] in h.
  rewrite (IH _ _ _ key h) by (intros q hq; apply hk; right; exact hq). apply dget_dset_other. exact (hk _ (or_introl eq_refl)).
Qed.
(** without an error every segment has its file *)
Lemma loop_each velocity m l : forall folder folder', batch_loop velocity m l folder = (folder', None) -> NoDup (map (fun q => fst (snd q)) l) ->
  forall k c segment omega, In (k, c, (segment, omega)) l -> exists w, dget (result_file segment) folder' = Ok (w, omega) /\ own_series m velocity k c segment w.
Proof.
  induction l as [|[[k c] [segment omega]] l IH]; intros folder folder' h hn k' c' s' o' hin; [destruct hin|]. rewrite loop_step in h.
  destruct (one_run velocity k c m segment) as [[file w]|e'] eqn:er; [|discriminate]. apply one_run_is in er. destruct er as [-> ho]. cbn [fst snd] in h.
  cbn [map fst snd] in hn. inversion hn as [|? ? h1 h2]; subst. destruct hin as [hin|hin]; [|exact (IH _ _ h h2 _ _ _ _ hin)]. injection hin as <- <- <- <-.
  exists w. split; [|exact ho]. rewrite (loop_other _ _ _ _ _ _ (result_file segment) h); [apply dget_dset_same|].
  intros q hq e. apply result_file_inj in e. apply h1. rewrite e. apply (in_map (fun q => fst (snd q))). exact hq.
Qed.

Lemma zipped {A B C D E} (f : A -> B) (g : A -> C) (h : A -> D) (i : A -> E) l :
  combine (combine (map f l) (map g l)) (combine (map h l) (map i l)) = map (fun a => ((f a, g a), (h a, i a))) l.
Proof. induction l as [|a l IH]; cbn; [reflexivity|]. rewrite IH. reflexivity. Qed.

Lemma main_is files d velocity m folder : batch_main files d velocity m folder =
  match read_wolf files with
  | Err e => (folder, Some e)
  | Ok l => batch_loop velocity m (map (fun w => ((wf_stiffness w * d, wf_damping w * d), (wf_name w, wf_omega w))) l) folder
  end.
Proof. unfold batch_main. destruct (read_wolf files) as [l|e]; [|reflexivity]. rewrite zipped. reflexivity. Qed.

Lemma Forall2_in_r {A B} (P : A -> B -> Prop) l m b : Forall2 P l m -> In b m -> exists a, In a l /\ P a b.
Proof. induction 1 as [|x y l m h1 h2 IH]; intros hb; [destruct hb|]. destruct hb as [<-|hb]; [exists x; split; [left; reflexivity|exact h1]|]. destruct (IH hb) as [a [g1 g2]]. exists a. split; [right; exact g1|exact g2]. Qed.
Lemma Forall2_in_l {A B} (P : A -> B -> Prop) l m a : Forall2 P l m -> In a l -> exists b, In b m /\ P a b.
Proof. induction 1 as [|x y l m h1 h2 IH]; intros ha; [destruct ha|]. destruct ha as [<-|ha]; [exists y; split; [left; reflexivity|exact h1]|]. destruct (IH ha) as [b [g1 g2]]. exists b. split; [right; exact g1|exact g2]. Qed.

Lemma gives_one content o k c o' k' c' : gives content o k c -> gives content o' k' c' -> o = o' /\ k = k' /\ c = c'.
Proof.
  intros [d [l1 [l2 [l3 [-> [h1 [h2 h3]]]]]]] [d' [l1' [l2' [l3' [e [h1' [h2' h3']]]]]]]. injection e as <-. rewrite h1 in h1'. rewrite h2 in h2'. rewrite h3 in h3'.
  injection h1' as -> _. injection h2' as -> _. injection h3' as -> _. auto.
Qed.

Lemma names_once files : forall l, names_apart files ->
  Forall2 (fun w f => json_file (fst f) (wf_name w) /\ gives (snd f) (wf_omega w) (wf_stiffness w) (wf_damping w)) l (filter is_json files) -> NoDup (map wf_name l).
Proof.
  induction files as [|f files IH]; intros l ha h; cbn [filter] in h; [inversion h; constructor|].
  assert (ha' : names_apart files) by (intros i j a b n h1 h2 h3 h4; assert (S i = S j) by (apply (ha (S i) (S j) a b n); assumption); lia).
  destruct (is_json f); [|exact (IH l ha' h)]. inversion h as [|w f' l' fs' [h1 _] h2]; subst. cbn [map]. constructor; [|exact (IH l' ha' h2)].
  intros hin. apply in_map_iff in hin. destruct hin as [w' [e hin]]. destruct (Forall2_in_l _ _ _ _ h2 hin) as [g [g1 [g2 _]]]. apply filter_In in g1. destruct g1 as [g1 _]. apply In_nth_error in g1. destruct g1 as [j g1].
  rewrite e in g2. assert (0%nat = S j) by (apply (ha 0%nat (S j) f g (wf_name w)); assumption || reflexivity). lia.
Qed.

Definition task (d : R) (w : wolf R) : R * R * (string * R) := ((wf_stiffness w * d, wf_damping w * d), (wf_name w, wf_omega w)).

Lemma json_name path a b : json_file path a -> json_file path b -> a = b.
Proof. intros h1 h2. apply json_split in h1, h2. congruence. Qed.

(** C130: when the batch ends without an error, there is for each stiffness file the result file of its name, with the calculation of the given
    model for its own soil.  Nothing else enters: no other stiffness file, no earlier calculation *)
Theorem C130_each files d velocity m folder folder' path content name : batch_main files d velocity m folder = (folder', None) -> names_apart files ->
  In (path, content) files -> json_file path name ->
  exists x, dget (result_file name) folder' = Ok x /\ own_result m d velocity name content x.
Proof.
  intros h ha hin hj. rewrite main_is in h. destruct (read_wolf files) as [l|] eqn:er; [|discriminate]. apply read_ok in er.
  assert (hf : In (path, content) (filter is_json files)) by (apply filter_In; split; [exact hin|]; apply is_json_spec; exists name; exact hj).
  destruct (Forall2_in_r _ _ _ _ er hf) as [w [hw [g1 g2]]]. cbn [fst snd] in g1, g2. pose proof (json_name _ _ _ hj g1) as ->.
  destruct (loop_each velocity m _ folder folder' h) with (k := wf_stiffness w * d) (c := wf_damping w * d) (segment := wf_name w) (omega := wf_omega w) as [x [e1 e2]].
  - rewrite map_map. exact (names_once _ _ ha er).
  - exact (in_map (task d) l w hw).
  - exists (x, wf_omega w). split; [exact e1|]. exists (wf_stiffness w), (wf_damping w). split; [exact g2|exact e2].
Qed.
Print Assumptions C130_each.

(** C130: however the batch ends, also with an error: every file in the folder holds what it held before or the result of the stiffness file of
    its name *)
Theorem C130_right files d velocity m folder folder' e key x : batch_main files d velocity m folder = (folder', e) -> dget key folder' = Ok x ->
  dget key folder = Ok x \/ exists path content name, In (path, content) files /\ json_file path name /\ key = result_file name /\ own_result m d velocity name content x.
Proof.
  intros h hx. rewrite main_is in h. destruct (read_wolf files) as [l|] eqn:er; [|injection h as <- <-; left; exact hx]. apply read_ok in er.
  destruct (loop_right velocity m _ folder folder' e key x h hx) as [g|[k [c [segment [g1 [g2 g3]]]]]]; [left; exact g|right].
  apply in_map_iff in g1. destruct g1 as [w [e1 hw]]. injection e1 as <- <- <- e4. destruct (Forall2_in_l _ _ _ _ er hw) as [[path content] [f1 [f2 f3]]]. apply filter_In in f1. cbn [fst snd] in f2, f3.
  exists path, content, (wf_name w). split; [apply f1|]. split; [exact f2|]. split; [exact g2|]. exists (wf_stiffness w), (wf_damping w). rewrite <- e4. split; assumption.
Qed.
Print Assumptions C130_right.

(** C130: files of other names stay as they are *)
Theorem C130_others files d velocity m folder folder' e key : batch_main files d velocity m folder = (folder', e) ->
  (forall path content name, In (path, content) files -> json_file path name -> key <> result_file name) -> dget key folder' = dget key folder.
Proof.
  intros h hk. rewrite main_is in h. destruct (read_wolf files) as [l|] eqn:er; [|injection h as <- <-; reflexivity]. apply read_ok in er.
  apply (loop_other _ _ _ _ _ _ key h). intros q hq. apply in_map_iff in hq. destruct hq as [w [<- hw]]. cbn [fst snd]. destruct (Forall2_in_l _ _ _ _ er hw) as [[path content] [f1 [f2 _]]]. apply filter_In in f1.
  exact (hk path content (wf_name w) (proj1 f1) f2).
Qed.
Print Assumptions C130_others.

(** ** the order of the files *)

Lemma own_one m velocity k c segment w w' : own_series m velocity k c segment w -> own_series m velocity k c segment w' -> w = w'.
Proof.
  intros h h'. assert (g : one_run velocity k c m segment = Ok (result_file segment, w)) by (apply one_run_is; auto).
  assert (g' : one_run velocity k c m segment = Ok (result_file segment, w')) by (apply one_run_is; auto). rewrite g in g'. injection g' as ->. reflexivity.
Qed.
Lemma result_one m d velocity name content x y : own_result m d velocity name content x -> own_result m d velocity name content y -> x = y.
Proof.
  intros [k [c [h1 h2]]] [k' [c' [h1' h2']]]. destruct (gives_one _ _ _ _ _ _ _ h1 h1') as [e1 [<- <-]]. destruct x as [w o], y as [w' o']. cbn [fst snd] in *. subst o'. f_equal. exact (own_one _ _ _ _ _ _ _ h2 h2').
Qed.

Definition read_one (f : string * res (dict (list R))) : res (wolf R) :=
  do d <- snd f ; do o <- first_of "omega" d ; do k <- first_of "stiffness" d ; do c <- first_of "damping" d ; Ok (mkWolf (fst (splitext (basename (fst f)))) o k c).
Lemma read_cons f (files : list (string * res (dict (list R)))) : read_wolf (f :: files) = if is_json f then (do w <- read_one f ; do q <- read_wolf files ; Ok (w :: q)) else read_wolf files.
Proof.
  destruct f as [path content]. cbn [read_wolf]. unfold is_json, read_one. cbn [fst snd]. destruct (String.eqb _ _); [|reflexivity].
  destruct content as [d|]; [|reflexivity]. cbn [rbind]. destruct (first_of "omega" d); [|reflexivity]. cbn [rbind]. destruct (first_of "stiffness" d); [|reflexivity]. cbn [rbind]. destruct (first_of "damping" d); reflexivity.
Qed.
Lemma read_perm (files files' : list (string * res (dict (list R)))) : Permutation files files' -> forall l, read_wolf files = Ok l -> exists l', read_wolf files' = Ok l' /\ Permutation l l'.
Proof.
  induction 1 as [|f files files' hp IH|f g files|a b c h1 IH1 h2 IH2]; intros l h.
  - exists l. split; [exact h|apply Permutation_refl].
  - rewrite read_cons in *. destruct (is_json f); [|exact (IH l h)]. destruct (read_one f) as [w|]; [|discriminate]. cbn [rbind] in *. destruct (read_wolf files) as [q|]; [|discriminate]. cbn [rbind] in h. injection h as <-.
    destruct (IH q eq_refl) as [q' [-> hq]]. exists (w :: q'). split; [reflexivity|apply perm_skip; exact hq].
  - rewrite !read_cons in *. destruct (is_json f), (is_json g).
    + destruct (read_one f) as [wf|], (read_one g) as [wg|]; try discriminate. cbn [rbind] in *. destruct (read_wolf files) as [q|]; [|discriminate]. cbn [rbind] in *. injection h as <-. eexists. split; [reflexivity|apply perm_swap].
    + exists l. split; [exact h|apply Permutation_refl].
    + exists l. split; [exact h|apply Permutation_refl].
    + exists l. split; [exact h|apply Permutation_refl].
  - destruct (IH1 l h) as [l1 [g1 g2]]. destruct (IH2 l1 g1) as [l2 [g3 g4]]. exists l2. split; [exact g3|exact (Permutation_trans g2 g4)].
Qed.

Lemma loop_ends velocity m l : forall folder, (exists folder', batch_loop velocity m l folder = (folder', None)) <-> forall k c segment omega, In (k, c, (segment, omega)) l -> exists w, own_series m velocity k c segment w.
Proof.
  induction l as [|[[k c] [segment omega]] l IH]; intros folder; [split; [intros _ ? ? ? ? []|intros _; exists folder; reflexivity]|]. rewrite loop_step. split.
  - intros [folder' h] k' c' s' o' hin. destruct (one_run velocity k c m segment) as [[file w]|] eqn:er; [|discriminate]. apply one_run_is in er. destruct hin as [hin|hin].
    + injection hin as <- <- <- <-. exists w. apply er.
    + apply (proj1 (IH _) (ex_intro _ folder' h) _ _ _ _ hin).
  - intros h. destruct (h k c segment omega (or_introl eq_refl)) as [w hw]. assert (er : one_run velocity k c m segment = Ok (result_file segment, w)) by (apply one_run_is; auto). rewrite er.
    apply (proj2 (IH _)). intros k' c' s' o' hin. apply (h k' c' s' o'). right. exact hin.
Qed.

(** C130: the order in which the files are listed does not matter *)
Theorem C130_order files files' d velocity m folder f1 : Permutation files files' -> names_apart files -> batch_main files d velocity m folder = (f1, None) ->
  exists f2, batch_main files' d velocity m folder = (f2, None) /\ forall key, dget key f1 = dget key f2.
Proof.
  intros hp ha h. rewrite main_is in *. destruct (read_wolf files) as [l|] eqn:er; [|discriminate]. destruct (read_perm _ _ hp l er) as [l' [er' hl]]. rewrite er'.
  apply read_ok in er. pose proof (names_once _ _ ha er) as hn. assert (hn' : NoDup (map wf_name l')) by exact (Permutation_NoDup (Permutation_map wf_name hl) hn).
  change (batch_loop velocity m (map (task d) l) folder = (f1, None)) in h. change (exists f2, batch_loop velocity m (map (task d) l') folder = (f2, None) /\ forall key, dget key f1 = dget key f2).
  assert (hm : forall q, In q (map (task d) l) <-> In q (map (task d) l')) by (intros q; split; apply Permutation_in; [|apply Permutation_sym]; apply Permutation_map; exact hl).
  destruct (proj2 (loop_ends velocity m (map (task d) l') folder)) as [f2 h2].
  { intros k c segment omega hin. apply hm in hin. exact (proj1 (loop_ends velocity m (map (task d) l) folder) (ex_intro _ f1 h) _ _ _ _ hin). }
  exists f2. split; [exact h2|]. intros key.
  destruct (in_dec String.string_dec key (map (fun w => result_file (wf_name w)) l)) as [hin|hni].
  - apply in_map_iff in hin. destruct hin as [w [<- hw]].
    destruct (loop_each velocity m _ _ _ h) with (k := wf_stiffness w * d) (c := wf_damping w * d) (segment := wf_name w) (omega := wf_omega w) as [x [e1 e2]]; [rewrite map_map; exact hn|exact (in_map (task d) l w hw)|].
    destruct (loop_each velocity m _ _ _ h2) with (k := wf_stiffness w * d) (c := wf_damping w * d) (segment := wf_name w) (omega := wf_omega w) as [y [e3 e4]]; [rewrite map_map; exact hn'|apply hm; exact (in_map (task d) l w hw)|].
    rewrite e1, e3, (own_one _ _ _ _ _ _ _ e2 e4). reflexivity.
  - assert (hk : forall q, In q (map (task d) l) -> key <> result_file (fst (snd q))).
    { intros q hq e. apply hni. apply in_map_iff in hq. destruct hq as [w [<- hw]]. apply in_map_iff. exists w. split; [symmetry; exact e|exact hw]. }
    rewrite (loop_other _ _ _ _ _ _ key h hk). symmetry. apply (loop_other _ _ _ _ _ _ key h2). intros q hq. apply hk. apply hm. exact hq.
Qed.
Print Assumptions C130_order.

(** ** scenarios *)

Lemma joined_once a b c d : no_underscore a -> no_underscore b -> no_underscore c -> no_underscore d -> join_parts [a; b] = join_parts [c; d] -> a = c /\ b = d.
Proof.
  intros h1 h2 h3 h4 h. assert (g : [a; b] = [c; d]).
  { rewrite <- (split_join [a; b]), <- (split_join [c; d]); [rewrite h; reflexivity|discriminate| |discriminate|]; intros p [<-|[<-|[]]]; assumption. }
  injection g as -> ->. auto.
Qed.

Definition scenario_list {V} (data : dict (dict V)) : list (string * V) := flat_map (fun s => map (fun c => (join_parts [fst s; fst c], snd c)) (snd s)) data.
Lemma scenarios_once {V} (data : dict (dict V)) : keys_once data -> (forall s c, In s data -> In c (snd s) -> no_underscore (fst s) /\ no_underscore (fst c)) -> NoDup (map fst (scenario_list data)).
Proof.
  induction data as [|s data IH]; intros [h1 h2] hu; [constructor|]. cbn [map] in h1. apply NoDup_cons_iff in h1. destruct h1 as [h0 h1].
  unfold scenario_list. cbn [flat_map]. fold (scenario_list data). rewrite map_app, map_map. cbn [fst].
  assert (hr : NoDup (map fst (scenario_list data))) by (apply IH; [split; [exact h1|intros q hq; apply h2; right; exact hq]|intros q c hq hc; apply hu; [right; exact hq|exact hc]]).
  assert (hs : forall c, In c (snd s) -> no_underscore (fst s) /\ no_underscore (fst c)) by (intros c hc; apply hu; [left; reflexivity|exact hc]).
  assert (ho : forall c x, In c (snd s) -> In x (map fst (scenario_list data)) -> x <> join_parts [fst s; fst c]).
  { intros c x hc hx e. apply in_map_iff in hx. destruct hx as [y [e1 hy]]. unfold scenario_list in hy. apply in_flat_map in hy. destruct hy as [s' [hs' hy]]. apply in_map_iff in hy. destruct hy as [c' [e2 hc']].
    subst y x. cbn [fst] in e. destruct (hs c hc) as [u1 u2]. destruct (hu s' c' (or_intror hs') hc') as [u3 u4]. destruct (joined_once _ _ _ _ u3 u4 u1 u2 e) as [e3 _]. apply h0. rewrite <- e3. exact (in_map fst data s' hs'). }
  specialize (h2 s (or_introl eq_refl)). clear IH h0 h1 hu. destruct s as [sn q0]. cbn [fst snd] in *. revert h2 hs ho. induction q0 as [|c q IH]; intros h2 hs ho; [cbn [map app]; exact hr|]. cbn [map app fst snd] in *. apply NoDup_cons_iff in h2. destruct h2 as [h3 h4]. constructor.
  - intros hin. apply in_app_or in hin. destruct hin as [hin|hin].
    + apply in_map_iff in hin. destruct hin as [c' [e hc']]. destruct (hs c (or_introl eq_refl)) as [u1 u2]. destruct (hs c' (or_intror hc')) as [_ u4]. destruct (joined_once _ _ _ _ u1 u4 u1 u2 e) as [_ e2]. apply h3. rewrite <- e2. exact (in_map fst q c' hc').
    + exact (ho c _ (or_introl eq_refl) hin eq_refl).
  - apply IH; [exact h4|intros c' hc'; apply hs; right; exact hc'|intros c' x hc'; apply ho; right; exact hc'].
Qed.

(** C130: reading the soil data gives one table for each scenario of each segment, that of its own layers, and names that differ, when the
    names of segments and scenarios have no underscore *)
Theorem C130_scenarios (data : dict (dict (layering R))) first l : read_file data first = Ok l ->
  Forall2 (fun x q => fst x = fst q /\ create_layering_for_wolf (snd q) first = Ok (snd x)) l
    (flat_map (fun s => map (fun c => (join_parts [fst s; fst c], snd c)) (snd s)) data) /\
  (keys_once data -> (forall s c, In s data -> In c (snd s) -> no_underscore (fst s) /\ no_underscore (fst c)) -> NoDup (map fst l)).
Proof.
  intros h. unfold read_file in h. apply mapr_spec in h. change (flat_map _ data) with (scenario_list data) in h. fold (scenario_list data).
  assert (g : Forall2 (fun x q => fst x = fst q /\ create_layering_for_wolf (snd q) first = Ok (snd x)) l (scenario_list data)).
  { clear - h. induction h as [|q x qs xs h1 h2 IH]; constructor; [|exact IH]. destruct (create_layering_for_wolf (snd q) first) as [rows|]; [|discriminate]. injection h1 as <-. split; reflexivity. }
  split; [exact g|]. intros h1 h2. assert (e : map fst l = map fst (scenario_list data)) by (clear - g; induction g as [|x q xs qs [h1 _] _ IH]; [reflexivity|cbn [map]; rewrite h1, IH; reflexivity]).
  rewrite e. apply scenarios_once; assumption.
Qed.
Print Assumptions C130_scenarios.

Definition soft : layering R := {| wl_name := ["clay"]%string; wl_shear := [10]; wl_poisson := [4 / 10]; wl_gamma := [18]; wl_damping := [1 / 20]; wl_top := [1] |}.
Definition hard : layering R := {| wl_name := ["sand"]%string; wl_shear := [50]; wl_poisson := [3 / 10]; wl_gamma := [20]; wl_damping := [1 / 20]; wl_top := [1] |}.

(** C130, refuted without the condition on underscores: scenario 2 of segment A_1 and scenario 1_2 of segment A, with different layers, get
    the same name, so the stiffness file and the result file of one replace those of the other *)
Theorem C130_underscore_refuted : exists data : dict (dict (layering R)), keys_once data /\ exists name t1 t2,
  read_file data [] = Ok [(name, t1); (name, t2)] /\ t1 <> t2.
Proof.
  exists [("A_1", [("2", soft)]); ("A", [("1_2", hard)])]%string. split.
  - split; [repeat constructor; cbn; intuition discriminate|]. intros s [<-|[<-|[]]]; repeat constructor; intros [].
  - exists "A_1_2"%string. eexists _, _. split; [reflexivity|]. intros e. injection e. intros. discriminate.
Qed.
Print Assumptions C130_underscore_refuted.

(** two segments, and what [read_file] gives for them *)
Example C130_scenarios_case : let data := [("Segment 1", [("scenario 1", soft); ("scenario 2", hard)]); ("Segment 2", [("scenario 1", hard)])]%string in
  keys_once data /\ (forall s c, In s data -> In c (snd s) -> no_underscore (fst s) /\ no_underscore (fst c)) /\
  exists t1 t2 t3, read_file data [] = Ok [("Segment 1_scenario 1", t1); ("Segment 1_scenario 2", t2); ("Segment 2_scenario 1", t3)]%string /\ t2 = t3 /\ t1 <> t2.
Proof.
  intros data. split; [|split].
  - split; [repeat constructor; cbn; intuition discriminate|]. intros s [<-|[<-|[]]]; repeat constructor; cbn; intuition discriminate.
  - intros s c [<-|[<-|[]]] hc; cbn [snd] in hc; repeat destruct hc as [<-|hc]; try destruct hc; cbn; repeat split; discriminate.
  - eexists _, _, _. split; [reflexivity|]. split; [reflexivity|]. intros e. injection e. intros. discriminate.
Qed.

(** a model of one sleeper on a spring: the spring goes down by its load 6 over its stiffness.  Two stiffness files and a note are in the
    folder; the files come in any order and from different folders.  The trains move at 20 m/s after a calculation of the base model at 30 *)
Example C130_case :
  let n := mkNode 0 None (T3 None (Some 0%nat) None) (T3 0 0 0) (T3 false true false) [] : node R in
  let none := mkW false [] [] None None : wpart R in
  let soil := mkW true [0%nat] [] (Some 1) (Some 1) : wpart R in
  let main := fun (v : list R) (ps : list (wpart R)) => do p <- at_idx ps 4 ; match w_stiffness p with None => Err ErrType | Some k => Ok (mkCoupled [] [[mkNodal [0; - (6 / k); 0] [] [] []]] [] []) end in
  let m := mkBatchModel [0; 1] [0; 30] [n] [none; none; none; none; soil] main in
  let data k := Ok [("omega", [8; 9]); ("stiffness", [k; 7]); ("damping", [1; 7])]%string : res (dict (list R)) in
  let files := [("dyn/Segment 1.json", data 2); ("dyn/notes.txt", Err ErrOther); ("dyn/Segment 2.json", data 4)]%string in
  names_apart files /\ json_file "dyn/Segment 1.json" "Segment 1" /\ json_file "dyn/Segment 2.json" "Segment 2" /\
  exists folder', batch_main files (6 / 10) 20 m [("old.pickle"%string, (mkWritten [] [] [] [] [] [] [] [] [] [] [] [] [] [], 5))] = (folder', None) /\
  (exists x, dget "res_Segment 1.pickle" folder' = Ok x /\ wr_soil_disp (fst x) = [[- 5]] /\ snd x = 8) /\
  (exists x, dget "res_Segment 2.pickle" folder' = Ok x /\ wr_soil_disp (fst x) = [[- (5 / 2)]]) /\
  exists x, dget "old.pickle" folder' = Ok x /\ snd x = 5.
Proof.
  intros n none soil main m data files.
  assert (h1 : json_file "dyn/Segment 1.json" "Segment 1") by (apply C130_names; reflexivity).
  assert (h2 : json_file "dyn/Segment 2.json" "Segment 2") by (apply C130_names; reflexivity).
  assert (hn : forall name, ~ json_file "dyn/notes.txt" name) by (intros name h; apply C130_names in h; discriminate).
  split.
  { intros i j f g name hi hj hf hg. destruct i as [|[|[|i]]]; try (destruct i; discriminate); destruct j as [|[|[|j]]]; try (destruct j; discriminate); try reflexivity; injection hi as <-; injection hj as <-; cbn [fst] in hf, hg;
      try (exfalso; exact (hn _ hf)); try (exfalso; exact (hn _ hg)); exfalso; [pose proof (json_name _ _ _ hf h1); pose proof (json_name _ _ _ hg h2)|pose proof (json_name _ _ _ hf h2); pose proof (json_name _ _ _ hg h1)]; congruence. }
  split; [exact h1|]. split; [exact h2|]. eexists. split; [reflexivity|]. split; [|split]; (eexists; split; [reflexivity|]); cbn -[IZR]; rnum.
  - split; [f_equal; f_equal; field|reflexivity].
  - f_equal; f_equal; field.
  - reflexivity.
Qed.
