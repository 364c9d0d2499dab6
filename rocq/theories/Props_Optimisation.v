(** * Properties C66 and C80: fitting parameters to observations *)

From Coq Require Import String.
From Coq Require Import Reals List Bool ZArith Arith Lia Lra.
From Verif Require Import Num PyBase Model_System Model_Accumulation Model_Optimisation Spec_Accumulation Spec_Optimisation
  Proofs_System Proofs_Accumulation Proofs_Swarm Proofs_Optimisation.
Import ListNotations.
Local Open Scope R_scope.

(** ** C66: the residual depends only on the parameters *)

Theorem C66_history {M} main get (o : optimisation R M) history b params :
  snd (residual_function main get b params (after_history main get o history)) = snd (residual_function main get b params o) /\
  opt_model (fst (residual_function main get b params (after_history main get o history))) = opt_model (fst (residual_function main get b params o)).
Proof.
  apply residual_same. unfold after_history. induction history as [|e l ih] using rev_ind; [repeat split|]. rewrite fold_left_app. cbn [fold_left].
  destruct ih as [e1 [e2 [e3 [e4 e5]]]]. destruct (residual_setup main get (snd e) (fst e) (fold_left (fun o e => fst (residual_function main get (snd e) (fst e) o)) l o)) as [f1 [f2 [f3 [f4 f5]]]]. repeat split; congruence.
Qed.
Print Assumptions C66_history.

(** the model that is run is the original one with every parameter in its attribute, also after other evaluations *)
Theorem C66_written {M} main get m0 refs parts results observations (o : optimisation R M) history b params :
  initialise m0 refs parts results observations = Ok o -> NoDup refs -> List.length refs = List.length (md_parts m0) -> (parameter_count parts <= List.length params)%nat ->
  exists m, written refs parts params m0 m /\ opt_model (fst (residual_function main get b params (after_history main get o history))) = fst (main m).
Proof.
  intros hi hd hr hp. destruct (C66_history main get o history b params) as [_ ->]. unfold initialise in hi. unbind hi. match type of hi with Ok ?x = _ => assert (o = x) as -> by congruence end.
  pose proof (mapr_length _ _ _ hv) as hl. apply mapr_spec in hv. unfold residual_function. cbv zeta. cbn [reset_model set_model opt_indices opt_parts opt_model opt_original opt_results opt_observations]. rewrite write_parts_flat.
  destruct (write_flat_ok params (slots (combine v parts)) m0) as [m [h1 [h2 [h3 h4]]]].
  - intros j name h. rewrite <- hr. eapply slots_range; eassumption.
  - rewrite slots_length by exact hl. exact hp.
  - rewrite h1. exists m. split.
    + split; [exact h2|]. split; [exact h3|]. intros j a0 a e0 e name. destruct (h4 j a0 a e0 e name) as [p1 p2]. split.
      * intros i w hb hmax hw. apply (p1 i w); [apply (slots_nth refs v parts hd hv); exact hb| |exact hw]. intros i' hi'. apply hmax. apply (slots_nth refs v parts hd hv). exact hi'.
      * intros h. apply p2. intros i hn. apply (h i). apply (slots_nth refs v parts hd hv). exact hn.
    + destruct (main m) as [m' [e|]]; [reflexivity|].
      match goal with |- context [match ?x with Ok _ => _ | Err _ => _ end] => destruct x as [[d line]|e] end; reflexivity.
Qed.
Print Assumptions C66_written.
(** too few parameters *)
Theorem C66_too_few {M} main get m0 refs parts results observations (o : optimisation R M) history b params :
  initialise m0 refs parts results observations = Ok o -> List.length refs = List.length (md_parts m0) -> (List.length params < parameter_count parts)%nat ->
  snd (residual_function main get b params (after_history main get o history)) = Err ErrIndex.
Proof.
  intros hi hr hp. destruct (C66_history main get o history b params) as [-> _]. unfold initialise in hi. unbind hi. match type of hi with Ok ?x = _ => assert (o = x) as -> by congruence end.
  pose proof (mapr_length _ _ _ hv) as hl. apply mapr_spec in hv. unfold residual_function. cbv zeta. cbn [reset_model set_model opt_indices opt_parts opt_model opt_original opt_results opt_observations]. rewrite write_parts_flat.
  destruct (write_flat_short params (slots (combine v parts)) m0) as [m [i ->]]; [|rewrite slots_length by exact hl; exact hp|reflexivity]. intros j name h. rewrite <- hr. eapply slots_range; eassumption.
Qed.
Print Assumptions C66_too_few.
(** the optimisation can be set up iff the chosen parts are parts of the track *)
Theorem C66_setup {M} (m0 : model R M) refs parts results observations :
  (forall p, In p parts -> In (opart_ref p) refs) <-> exists o, initialise m0 refs parts results observations = Ok o.
Proof.
  unfold initialise. split.
  - intros h. destruct (mapr_ok (fun p => index_of refs (opart_ref p)) parts {| opart_ref := 0; opart_names := [] |}) as [v ->]; [|cbn; eauto]. intros i hi. apply index_of_ok. apply h. apply nth_In. exact hi.
  - intros [o h] p hp. unbind h. destruct (In_nth _ _ p hp) as [i [hi e]]. pose proof (mapr_nth _ _ _ i p 0%nat hv hi) as he. rewrite e in he. apply index_of_spec in he. eapply nth_error_In. exact he.
Qed.
Print Assumptions C66_setup.
(** two parts with two and one parameters, the second one first *)
Definition ex_part : attributes R := fun _ => Some 7.
Definition ex_model : model R unit := {| md_parts := [ex_part; ex_part]; md_rest := tt |}.
Definition ex_parts : list opart := [{| opart_ref := 11; opart_names := ["stiffness"%string; "damping"%string] |}; {| opart_ref := 10; opart_names := ["damping"%string] |}].
Example C66_case : (exists o, initialise ex_model [10%nat; 11%nat] ex_parts [] [] = Ok o) /\ NoDup [10%nat; 11%nat] /\ parameter_count ex_parts = 3%nat /\
  belongs [10%nat; 11%nat] ex_parts 1 1 "damping" /\ belongs [10%nat; 11%nat] ex_parts 2 0 "damping".
Proof.
  split; [eexists; reflexivity|]. split; [repeat constructor; cbn; intuition discriminate|]. split; [reflexivity|]. split.
  - exists 0%nat, 1%nat. eexists. repeat split.
  - exists 1%nat, 0%nat. eexists. repeat split.
Qed.

(** ** C80: what the residual compares *)

(** for one requested set of results: the largest absolute values of the first result over the time steps, minus the observations *)
Theorem C80_residual {M} main get m0 refs parts r observations (o : optimisation R M) params name names m' a :
  initialise m0 refs parts [r] observations = Ok o -> NoDup refs -> List.length refs = List.length (md_parts m0) -> (parameter_count parts <= List.length params)%nat ->
  (forall m1, written refs parts params m0 m1 -> main m1 = (m', None)) ->
  mres_names r = name :: names -> mres_function r = None -> get m' name = Ok a -> selectable a r -> (forall nm, In nm names -> exists a', get m' nm = Ok a' /\ selectable a' r) ->
  (2 <= List.length (mres_indices r))%nat -> List.length observations = List.length (mres_indices r) -> params <> [] ->
  exists d, snd (residual_function main get true params o) = Ok d /\ List.length d = List.length (mres_indices r) /\
  (forall c, (c < List.length (mres_indices r))%nat -> is_peak (column a (mres_steps r) (nth c (mres_indices r) 0%nat)) (nth c d 0 + nth c observations 0)) /\
  exists x, opt_file (fst (residual_function main get true params o)) = [(nth 0 params 0, x)] /\ is_peak (column a (mres_steps r) (nth 1 (mres_indices r) 0%nat)) x.
Proof.
  intros hi hd hr hp hmain h1 h2 h3 h4 h5 h6 h7 h8. unfold initialise in hi. unbind hi. match type of hi with Ok ?x = _ => assert (o = x) as -> by congruence end.
  pose proof (mapr_length _ _ _ hv) as hl. apply mapr_spec in hv. unfold residual_function. cbv zeta. cbn [reset_model set_model opt_indices opt_parts opt_model opt_original opt_results opt_observations]. rewrite write_parts_flat.
  destruct (write_flat_ok params (slots (combine v parts)) m0) as [m1 [g1 [g2 [g3 g4]]]].
  { intros j nm h. rewrite <- hr. eapply slots_range; eassumption. } { rewrite slots_length by exact hl. exact hp. }
  rewrite g1. rewrite (hmain m1).
  2:{ split; [exact g2|]. split; [exact g3|]. intros j a0 a1 e0 e nm. destruct (g4 j a0 a1 e0 e nm) as [p1 p2]. split.
      - intros i w hb hmax hw'. apply (p1 i w); [apply (slots_nth refs v parts hd hv); exact hb| |exact hw']. intros i' hi'. apply hmax. apply (slots_nth refs v parts hd hv). exact hi'.
      - intros h. apply p2. intros i hn. apply (h i). apply (slots_nth refs v parts hd hv). exact hn. }
  unfold collect. rewrite h1. cbn [mapr]. destruct (one_result_ok get m' r name a h2 h3 h4) as [row [r1 [r2 r3]]]. rewrite r1. cbn [rbind].
  assert (hrest : exists rows, mapr (one_result get true m' r) names = Ok rows /\ forall x, In x rows -> List.length x = List.length (mres_indices r)).
  { destruct (mapr_ok (one_result get true m' r) names EmptyString) as [rows hrows].
    - intros i hin. destruct (h5 _ (nth_In names EmptyString hin)) as [a' [q1 q2]]. destruct (one_result_ok get m' r _ a' h2 q1 q2) as [row' [q3 _]]. eauto.
    - exists rows. split; [exact hrows|]. intros x hx. destruct (In_nth _ _ [] hx) as [i [hii e]]. rewrite (mapr_length _ _ _ hrows) in hii. pose proof (mapr_nth _ _ _ i EmptyString [] hrows hii) as q. rewrite e in q.
      destruct (h5 _ (nth_In names EmptyString hii)) as [a' [q1 q2]]. destruct (one_result_ok get m' r _ a' h2 q1 q2) as [row' [q3 [q4 _]]]. congruence. }
  destruct hrest as [rows [e1 e2]]. rewrite e1. cbn [rbind]. rewrite (stack_ok _ (List.length (mres_indices r))) by (intros x [<-|hx]; [exact r2|apply e2; exact hx]). cbn [rbind later_results]. unfold minus. rewrite r2, h7, Nat.eqb_refl. cbn [rbind].
  rewrite (at_nth params 0 0) by (destruct params; [congruence|cbn; lia]). cbn [rbind]. rewrite (at_nth row 1 0) by lia. cbn [rbind snd fst opt_file set_model app].
  set (d := map (fun p => nsub (fst p) (snd p)) (combine row observations)). assert (ld : List.length d = List.length (mres_indices r)) by (unfold d; rewrite map_length, combine_length; lia).
  exists d. split; [reflexivity|]. split; [exact ld|]. split.
  - intros c hc. replace (nth c d 0 + nth c observations 0) with (nth c row 0); [apply r3; exact hc|]. unfold d. rewrite (Proofs_Moving.nth_map0 _ _ _ (0, 0)) by (rewrite combine_length; lia). rewrite combine_nth by lia. cbn [fst snd]. rnum. lra.
  - exists (nth 1 row 0). split; [reflexivity|]. apply r3. lia.
Qed.
Print Assumptions C80_residual.

(** further results of the same request are not compared: any observation of them gives the same residual *)
Definition ex_get (second : R) (m : model R unit) (name : string) : res (mat R) :=
  if String.eqb name "first" then Ok (mkMat 1%nat 2%nat (fun _ _ => -3)) else Ok (mkMat 1%nat 2%nat (fun _ _ => second)).
Definition ex_request (names : list string) (indices : list nat) : model_results R := {| mres_names := names; mres_indices := indices; mres_steps := [0%nat]; mres_function := None |}.
Definition ex_main (m : model R unit) : model R unit * option err := (m, None).
Theorem C80_other_names_refuted : exists o, initialise ex_model [10%nat; 11%nat] ex_parts [ex_request ["first"%string; "second"%string] [0%nat; 1%nat]] [3; 3] = Ok o /\
  forall second, snd (residual_function ex_main (ex_get second) true [1; 2; 3] o) = Ok [0; 0].
Proof.
  eexists. split; [reflexivity|]. intros second. unfold residual_function. cbn. unfold minus. cbn. rnum. rewrite nabs_R. replace (Rabs (-3)) with 3 by (unfold Rabs; destruct (Rcase_abs (-3)); lra). do 2 f_equal; [lra|]. f_equal. lra.
Qed.
Print Assumptions C80_other_names_refuted.
Example C80_case : exists o, initialise ex_model [10%nat; 11%nat] ex_parts [ex_request ["first"%string; "second"%string] [0%nat; 1%nat]] [1; 2] = Ok o /\
  (forall second, selectable (mkMat 1%nat 2%nat (fun _ _ => second)) (ex_request ["first"%string; "second"%string] [0%nat; 1%nat])) /\
  snd (residual_function ex_main (ex_get 5) true [1; 2; 3] o) = Ok [2; 1].
Proof.
  eexists. split; [reflexivity|]. split.
  - intros second. split; [discriminate|]. cbn. split; intros x hx; intuition (subst; lia).
  - unfold residual_function. cbn. unfold minus. cbn. rnum. rewrite nabs_R. replace (Rabs (-3)) with 3 by (unfold Rabs; destruct (Rcase_abs (-3)); lra). do 2 f_equal; [lra|]. f_equal. lra.
Qed.
(** a second request makes every evaluation fail *)
Theorem C80_second_request_refuted {M} main get (o : optimisation R M) b params r1 r2 rest : opt_results o = r1 :: r2 :: rest -> mres_names r2 <> [] ->
  forall d, snd (residual_function main get b params o) <> Ok d.
Proof.
  intros h1 h2 d. unfold residual_function. cbv zeta. cbn [reset_model set_model opt_indices opt_parts opt_model opt_original opt_results opt_observations]. destruct (write_parts _ _ _ _) as [[m i] [e|]]; [discriminate|]. destruct (main m) as [m' [e|]]; [discriminate|].
  rewrite h1. unfold collect. destruct (mapr _ (mres_names r1)); [|discriminate]. cbn [rbind]. destruct (stack _); [|discriminate]. cbn [rbind later_results]. destruct (mres_names r2) as [|nm l]; [congruence|]. destruct (one_result _ _ _ _ _); discriminate.
Qed.
Print Assumptions C80_second_request_refuted.
(** a single requested index makes every evaluation fail *)
Theorem C80_single_index_refuted {M} main get (o : optimisation R M) b params r : opt_results o = [r] -> mres_function r = None -> List.length (mres_indices r) = 1%nat ->
  forall d, snd (residual_function main get b params o) <> Ok d.
Proof.
  intros h1 h2 h3 d. unfold residual_function. cbv zeta. cbn [reset_model set_model opt_indices opt_parts opt_model opt_original opt_results opt_observations]. destruct (write_parts _ _ _ _) as [[m i] [e|]]; [discriminate|]. destruct (main m) as [m' [e|]]; [discriminate|].
  rewrite h1. unfold collect. destruct (mapr (one_result get b m' r) (mres_names r)) as [rows|] eqn:e; [|discriminate]. cbn [rbind]. destruct (stack rows) as [rows'|] eqn:es; [|discriminate]. cbn [rbind later_results].
  assert (rows' = rows). { unfold stack in es. destruct rows; [congruence|]. destruct (forallb _ _); congruence. } subst rows'.
  destruct rows as [|row rows]; [destruct (Nat.eqb _ _); discriminate|]. destruct (minus row (opt_observations o)); [|discriminate]. cbn [rbind]. destruct (at_idx params 0); [|discriminate]. cbn [rbind].
  destruct (mres_names r) as [|nm l]; [discriminate|]. cbn [mapr] in e. unbind e. unbind e. assert (v = row) by congruence. subst v. unfold one_result in hv. unbind hv. unbind hv. rewrite h2 in hv. destruct b; [|discriminate]. unfold column_peaks in hv.
  apply mapr_length in hv. rewrite seq_length, h3 in hv. rewrite at_none by lia. discriminate.
Qed.
Print Assumptions C80_single_index_refuted.
(** with a function of the user's instead of the largest value: every evaluation that succeeds has applied it to the selection
    from every named result, has obtained values of one length, and has compared those of the first name *)
Theorem C80_function {M} main get (o : optimisation R M) b params r f d : opt_results o = [r] -> mres_function r = Some f ->
  snd (residual_function main get b params o) = Ok d ->
  exists m name names row n, opt_model (fst (residual_function main get b params o)) = m /\ mres_names r = name :: names /\ applied get m r f name row /\ List.length row = n /\ List.length d = n /\ (2 <= n)%nat /\
    (forall nm, In nm names -> exists row', applied get m r f nm row' /\ List.length row' = n) /\
    (List.length (opt_observations o) = n /\ (forall i, (i < n)%nat -> nth i d 0 = nth i row 0 - nth i (opt_observations o) 0) \/
     exists x, opt_observations o = [x] /\ forall i, (i < n)%nat -> nth i d 0 = nth i row 0 - x).
Proof.
  intros h1 h2. unfold residual_function. cbv zeta. cbn [reset_model set_model opt_indices opt_parts opt_model opt_original opt_results opt_observations]. destruct (write_parts _ _ _ _) as [[m0 i0] [e|]]; [discriminate|]. destruct (main m0) as [m [e|]]; [discriminate|].
  rewrite h1. assert (happ : forall nm row, one_result get b m r nm = Ok row -> applied get m r f nm row).
  { intros nm row hh. unfold one_result in hh. unbind hh. apply rbind_ok in hh. destruct hh as [rows [hs hh]]. rewrite h2 in hh. unfold select in hs. unbind hs. unbind hs. injection hs as <-.
    assert (v0 = mres_steps r /\ forall t, In t (mres_steps r) -> (t < mr v)%nat) as [-> q1].
    { clear - hv0. revert v0 hv0. generalize (mres_steps r). induction l as [|t l ih]; intros v0 hv0; cbn [mapr] in hv0; [injection hv0 as <-; split; [reflexivity|intros _ []]|].
      destruct (Nat.ltb_spec t (mr v)) as [c|c]; [|discriminate]. cbn [rbind] in hv0. apply rbind_ok in hv0. destruct hv0 as [w [hw hv0]]. injection hv0 as <-. destruct (ih _ hw) as [-> q]. split; [reflexivity|]. intros t' [<-|h]; [exact c|apply q; exact h]. }
    assert (v1 = mres_indices r /\ forall c, In c (mres_indices r) -> (c < mc v)%nat) as [-> q2].
    { clear - hv1. revert v1 hv1. generalize (mres_indices r). induction l as [|t l ih]; intros v0 hv0; cbn [mapr] in hv0; [injection hv0 as <-; split; [reflexivity|intros _ []]|].
      destruct (Nat.ltb_spec t (mc v)) as [c|c]; [|discriminate]. cbn [rbind] in hv0. apply rbind_ok in hv0. destruct hv0 as [w [hw hv0]]. injection hv0 as <-. destruct (ih _ hw) as [-> q]. split; [reflexivity|]. intros t' [<-|h]; [exact c|apply q; exact h]. }
    exists v. repeat split; assumption. }
  destruct (collect get b m [r]) as [rows|] eqn:ec; [|discriminate]. unfold collect in ec. apply rbind_ok in ec. destruct ec as [rows0 [em ec]]. apply rbind_ok in ec. destruct ec as [rows1 [es ec]]. cbn [later_results rbind] in ec. injection ec as ->.
  assert (rows = rows0). { unfold stack in es. destruct rows0; [congruence|]. destruct (forallb _ _); congruence. } subst rows0. cbn [rbind].
  destruct rows as [|row rows]; [destruct (Nat.eqb _ _); discriminate|]. destruct (minus row (opt_observations o)) as [dd|] eqn:ed; [|discriminate]. cbn [rbind]. destruct (at_idx params 0); [|discriminate]. cbn [rbind].
  destruct (at_idx row 1) eqn:er; [|discriminate]. cbn [rbind fst snd opt_model set_model]. intros hd. injection hd as ->.
  destruct (mres_names r) as [|name names]; [discriminate|]. cbn [mapr] in em. apply rbind_ok in em. destruct em as [row' [e1 em]]. apply rbind_ok in em. destruct em as [rows' [e2 em]]. injection em as -> ->.
  assert (h2' : (2 <= List.length row)%nat). { destruct row as [|? [|? ?]]; cbn in er; try discriminate. cbn. lia. }
  exists m, name, names, row, (List.length row). split; [reflexivity|]. split; [reflexivity|]. split; [apply happ; exact e1|]. split; [reflexivity|].
  assert (hall : forall nm, In nm names -> exists row', applied get m r f nm row' /\ List.length row' = List.length row).
  { intros nm hnm. destruct (In_nth _ _ EmptyString hnm) as [i [hi e]]. pose proof (mapr_nth _ _ _ i EmptyString [] e2 hi) as q. rewrite e in q. exists (nth i rows []). split; [apply happ; exact q|].
    cbn [stack] in es. destruct (forallb _ rows) eqn:ef; [|discriminate]. rewrite forallb_forall in ef. apply Nat.eqb_eq. apply ef. apply nth_In. rewrite (mapr_length _ _ _ e2). exact hi. }
  unfold minus in ed. destruct (Nat.eqb_spec (List.length row) (List.length (opt_observations o))) as [c|c].
  - injection ed as <-. split; [rewrite map_length, combine_length; lia|]. split; [exact h2'|]. split; [exact hall|]. left. split; [congruence|]. intros i hi.
    rewrite (Proofs_Moving.nth_map0 _ _ _ (0, 0)) by (rewrite combine_length; lia). rewrite combine_nth by exact c. cbn [fst snd]. rnum. reflexivity.
  - destruct row as [|x0 [|x1 row]]; [cbn in h2'; lia|cbn in h2'; lia|]. destruct (opt_observations o) as [|ob [|ob' obs]]; [discriminate| |discriminate].
    injection ed as <-. split; [cbn [List.length]; rewrite map_length; reflexivity|]. split; [exact h2'|]. split; [exact hall|]. right. exists ob. split; [reflexivity|]. intros i hi.
    change (nth i (map (fun x => nsub x ob) (x0 :: x1 :: row)) 0 = nth i (x0 :: x1 :: row) 0 - ob). rewrite (Proofs_Moving.nth_map0 _ _ _ 0) by exact hi. rnum. reflexivity.
Qed.
Print Assumptions C80_function.
Example C80_function_case : exists (o : optimisation R unit) d, List.length (opt_results o) = 1%nat /\ (exists r f, opt_results o = [r] /\ mres_function r = Some f) /\
  snd (residual_function ex_main (ex_get 5) false [1] o) = Ok d /\ d = [-7; -7].
Proof.
  exists {| opt_model := ex_model; opt_original := ex_model; opt_indices := []; opt_parts := []; opt_observations := [4]; opt_file := [];
    opt_results := [{| mres_names := ["first"%string; "second"%string]; mres_indices := [0%nat; 1%nat]; mres_steps := [0%nat]; mres_function := Some (fun rows => Ok (concat rows)) |}] |}.
  eexists. split; [reflexivity|]. split; [do 2 eexists; split; reflexivity|]. split; [reflexivity|]. rnum. assert (e : -3 - 4 = -7) by lra. rewrite <- e. reflexivity.
Qed.
