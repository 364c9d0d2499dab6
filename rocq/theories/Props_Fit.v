(** * Property C137: the fit of stiffness and damping of the soil *)

From Coq Require Import String.
From Coq Require Import Reals List Bool ZArith Arith Lia Lra.
From Verif Require Import Num PyBase Model_System Model_Accumulation Model_Optimisation Model_Batch Model_Segments Model_Fit Spec_Accumulation Spec_Optimisation Spec_Segments Spec_Fit
  Proofs_System Proofs_Accumulation Proofs_Swarm Proofs_Optimisation Props_Optimisation Props_Segments.
Import ListNotations.
Local Open Scope R_scope.

Section Fit.
  Context {M : Type}.
  Variables (main : model R M -> model R M * option err) (get : model R M -> string -> res (mat R)) (m0 : model R M) (n : nat).
  Hypothesis five : (5 <= List.length (md_parts m0))%nat.

  Lemma fit_ready : exists o, script_fit m0 n = Ok o.
  Proof. apply C66_setup. intros p [<-|[]]. cbn [opart_ref]. apply in_seq. lia. Qed.

  Lemma fit_slots k c m : written (seq 0 (List.length (md_parts m0))) fit_parts [k; c] m0 m -> with_soil m0 k c m.
  Proof.
    intros [h1 [h2 h3]]. split; [exact h1|]. split; [exact h2|]. intros j a0 a e0 e name. destruct (h3 j a0 a e0 e name) as [p1 p2].
    assert (b0 : belongs (seq 0 (List.length (md_parts m0))) fit_parts 0 4 "stiffness").
    { exists 0%nat, 0%nat. eexists. split; [reflexivity|]. split; [|split; reflexivity]. cbn [opart_ref].
      rewrite (nth_error_nth' _ 0%nat) by (rewrite seq_length; lia). rewrite seq_nth by lia. reflexivity. }
    assert (b1 : belongs (seq 0 (List.length (md_parts m0))) fit_parts 1 4 "damping").
    { exists 0%nat, 1%nat. eexists. split; [reflexivity|]. split; [|split; reflexivity]. cbn [opart_ref].
      rewrite (nth_error_nth' _ 0%nat) by (rewrite seq_length; lia). rewrite seq_nth by lia. reflexivity. }
    assert (all : forall i j' nm, belongs (seq 0 (List.length (md_parts m0))) fit_parts i j' nm -> j' = 4%nat /\ ((i = 0%nat /\ nm = "stiffness"%string) \/ (i = 1%nat /\ nm = "damping"%string))).
    { intros i j' nm [k0 [l [p [q1 [q2 [q3 q4]]]]]]. destruct k0 as [|k0]; [|destruct k0; discriminate]. cbn in q1. assert (p = {| opart_ref := 4; opart_names := ["stiffness"%string; "damping"%string] |}) by congruence. subst p. cbn [opart_ref opart_names] in *.
      cbn in q4. split.
      - assert (hj : (j' < List.length (md_parts m0))%nat). { rewrite <- (seq_length (List.length (md_parts m0)) 0). apply nth_error_Some. congruence. }
        rewrite (nth_error_nth' _ 0%nat) in q2 by (rewrite seq_length; exact hj). rewrite seq_nth in q2 by exact hj. cbn in q2. congruence.
      - destruct l as [|[|l]]; cbn in q3; [left|right|destruct l; discriminate]; (split; [exact q4|congruence]). }
    split; [|split].
    - intros -> ->. apply (p1 0%nat k b0); [|reflexivity]. intros i' hi. destruct (all _ _ _ hi) as [_ [[-> _]|[_ h]]]; [lia|discriminate].
    - intros -> ->. apply (p1 1%nat c b1); [|reflexivity]. intros i' hi. destruct (all _ _ _ hi) as [_ [[_ h]|[-> _]]]; [discriminate|lia].
    - intros hn. apply p2. intros i hb. apply hn. destruct (all _ _ _ hb) as [-> [[_ ->]|[_ ->]]]; split; auto.
  Qed.
End Fit.

(** ** what is tried: stiffness and damping go to the soil, the fifth part of the track, and nothing else is changed, whatever was tried before *)
Theorem C137_tried {M} main get (m0 : model R M) n o history k c : script_fit m0 n = Ok o -> (5 <= List.length (md_parts m0))%nat ->
  exists m, with_soil m0 k c m /\ opt_model (fst (residual_function main get true [k; c] (after_history main get o history))) = fst (main m).
Proof.
  intros hs h5. destruct (C66_written main get m0 (seq 0 (List.length (md_parts m0))) fit_parts [fit_request n] fit_observations o history true [k; c] hs) as [m [w1 w2]].
  - apply seq_NoDup.
  - apply seq_length.
  - cbn. lia.
  - exists m. split; [|exact w2]. exact (fit_slots m0 h5 k c m w1).
Qed.
Print Assumptions C137_tried.

(** ** what is compared: twice the largest displacement of degree of freedom 807 from output step 800 on, minus the observed 0.0008 *)
Theorem C137_compared {M} main get (m0 m' : model R M) n o k c a : script_fit m0 n = Ok o -> (5 <= List.length (md_parts m0))%nat -> (800 < n / 10)%nat ->
  (forall m, with_soil m0 k c m -> main m = (m', None)) -> get m' "displacements_out"%string = Ok a -> (n / 10 <= mr a)%nat -> (807 < mc a)%nat ->
  exists p, is_peak (column a (seq 800 (n / 10 - 800)) 807) p /\ snd (residual_function main get true [k; c] o) = Ok [p - 8 / 10000; p - 8 / 10000].
Proof.
  intros hs h5 hn hm ha hr hc. 
  destruct (C80_residual main get m0 (seq 0 (List.length (md_parts m0))) fit_parts (fit_request n) fit_observations o [k; c] "displacements_out"%string [] m' a hs) as [d [d1 [d2 [d3 _]]]].
  - apply seq_NoDup.
  - apply seq_length.
  - cbn. lia.
  - intros m1 w. apply hm. exact (fit_slots m0 h5 k c m1 w).
  - reflexivity.
  - reflexivity.
  - exact ha.
  - split; [|split].
    + cbn [fit_request mres_steps]. intros e. apply (f_equal (@List.length nat)) in e. rewrite seq_length in e. cbn [List.length] in e. lia.
    + cbn [fit_request mres_steps]. intros t ht. apply in_seq in ht. lia.
    + cbn [fit_request mres_indices]. intros t [<-|[<-|[]]]; exact hc.
  - intros nm [].
  - cbn [fit_request mres_indices List.length]. lia.
  - reflexivity.
  - discriminate.
  - cbn [fit_request mres_indices List.length] in d2, d3. destruct d as [|x [|y [|z d]]]; try (cbn [List.length] in d2; lia).
    pose proof (d3 0%nat ltac:(lia)) as p0. pose proof (d3 1%nat ltac:(lia)) as p1. cbn [nth fit_observations] in p0, p1. cbn [fit_request mres_steps] in p0, p1.
    assert (eo : @ndec R _ 8 4 = 8 / 10000) by (rewrite ndec_R; rnum; cbn; lra). rewrite eo in p0, p1.
    assert (x + 8 / 10000 = y + 8 / 10000) by (destruct p0 as [u2 u1], p1 as [v2 v1]; destruct u2 as [s [s1 s2]], v2 as [t [t1 t2]]; pose proof (v1 s s1); pose proof (u1 t t1); lra).
    exists (x + 8 / 10000). split; [exact p0|]. rewrite d1. f_equal. f_equal; [lra|]. f_equal. lra.
Qed.
Print Assumptions C137_compared.

(** ** the two residuals are always the same number *)
Lemma fit_twice {M} main get (m0 : model R M) n o p d : script_fit m0 n = Ok o -> snd (residual_function main get true p o) = Ok d -> exists x, d = [x; x].
Proof.
  intros hs. unfold script_fit, initialise in hs. apply rbind_ok in hs. destruct hs as [v [_ hs]]. match type of hs with Ok ?x = _ => assert (o = x) as -> by congruence end.
  unfold residual_function. cbv zeta. cbn [reset_model set_model opt_indices opt_parts opt_model opt_original opt_results opt_observations]. destruct (write_parts _ _ _ _) as [[m i] [e|]]; [discriminate|]. destruct (main m) as [m' [e|]]; [discriminate|].
  unfold collect. cbn [fit_request mres_names mapr]. destruct (one_result get true m' (fit_request n) "displacements_out") as [row|] eqn:e; [|discriminate]. cbn [rbind stack forallb later_results].
  unfold one_result in e. apply rbind_ok in e. destruct e as [a [e1 e]]. apply rbind_ok in e. destruct e as [rows [e2 e]]. cbn [fit_request mres_function mres_indices] in e, e2. unfold column_peaks in e. cbn [List.length seq mapr] in e.
  unfold select in e2. apply rbind_ok in e2. destruct e2 as [ts [e2 e3]]. apply rbind_ok in e3. destruct e3 as [cs [e3 e4]]. 
  assert (hc : cs = [807%nat; 807%nat]). { cbn [mapr] in e3. destruct (Nat.ltb 807 (mc a)); [|discriminate]. cbn [rbind] in e3. congruence. }
  apply rbind_ok in e. destruct e as [x [x1 e]]. apply rbind_ok in e. destruct e as [y [y1 e]]. apply rbind_ok in y1. destruct y1 as [z [z1 y1]]. cbn [rbind] in y1. assert (y = [z]) by congruence. subst y. assert (row = [x; z]) by congruence. subst row.
  assert (x = z). { injection e4 as <-. rewrite map_map in x1, z1. subst cs. cbn [map nth] in x1, z1. congruence. } subst z.
  unfold minus. cbn [fit_observations List.length Nat.eqb combine map fst snd rbind]. destruct (at_idx p 0); [|discriminate]. cbn [rbind]. destruct (at_idx [x; x] 1); [|discriminate]. cbn [rbind snd]. intros h. eexists. injection h as <-. reflexivity.
Qed.

(** ** the two parameters are not determined: at every point and for all steps the slopes of the residuals give normal equations with determinant 0 *)
Theorem C137_singular_refuted {M} main get (m0 : model R M) n o history k c dk dc J : script_fit m0 n = Ok o ->
  slopes (fun p => snd (residual_function main get true p (after_history main get o history))) k c dk dc J -> List.length J = 2%nat /\ normal_det J = 0.
Proof.
  intros hs [r0 [rk [rc [h0 [h1 [h2 [hl hj]]]]]]]. cbv beta in h0, h1, h2.
  rewrite (proj1 (C66_history main get o history true _)) in h0. rewrite (proj1 (C66_history main get o history true _)) in h1. rewrite (proj1 (C66_history main get o history true _)) in h2.
  destruct (fit_twice _ _ _ _ _ _ _ hs h0) as [x ->]. destruct (fit_twice _ _ _ _ _ _ _ hs h1) as [y ->]. destruct (fit_twice _ _ _ _ _ _ _ hs h2) as [z ->]. split; [exact hl|].
  cbn [List.length] in hl. destruct J as [|p [|q [|s J]]]; try discriminate. pose proof (hj 0%nat ltac:(cbn; lia)) as p0. pose proof (hj 1%nat ltac:(cbn; lia)) as p1. cbn [nth] in p0, p1. subst p q. unfold normal_det, total. cbn [map fold_right fst snd]. ring.
Qed.
Print Assumptions C137_singular_refuted.

(** ** every stiffness file has its own fit, which starts at 0.6 times its values and does not depend on the other files *)
Theorem C137_files {M A} (search : (list R -> res (list R)) -> list R -> res A) main get (m : model R M) n files out :
  (forall f, In f files -> exists name, json_file (fst f) name) -> fit_main search main get m n files = Ok out ->
  files <> [] /\ exists o, script_fit m n = Ok o /\
  Forall2 (fun x f => exists omega k c, gives (snd f) omega k c /\ search (fun p => snd (residual_function main get true p o)) [k * (6 / 10); c * (6 / 10)] = Ok x) out files.
Proof.
  intros hj h. unfold fit_main in h. apply rbind_ok in h. destruct h as [ws [h1 h]]. pose proof (read_ok _ _ h1) as hr.
  assert (hf : filter is_json files = files). { clear h1 hr. induction files as [|f files IH]; [reflexivity|]. cbn [filter]. rewrite (proj2 (is_json_spec f)) by (apply hj; left; reflexivity). f_equal. apply IH. intros g hg. apply hj. right. exact hg. }
  rewrite hf in hr. destruct ws as [|w ws]; [discriminate|]. split; [intros ->; inversion hr|].
  destruct (script_fit m n) as [o|] eqn:eo; [|cbn [mapr rbind] in h; discriminate]. exists o. split; [reflexivity|]. clear h1 hj hf. set (l := w :: ws) in *. clearbody l. clear w ws. cbn [rbind] in h. apply mapr_spec in h. revert out h.
  induction hr as [|w f l files [q1 q2] hr IH]; intros out h; inversion h; subst; constructor; [|apply IH; assumption]. exists (wf_omega w), (wf_stiffness w), (wf_damping w). split; [exact q2|].
  match goal with hh : search _ _ = Ok _ |- _ => rewrite <- hh end. unfold start_values. assert (e6 : @ndec R _ 6 1 = 6 / 10) by (rewrite ndec_R; cbn; reflexivity). rewrite e6. rnum. reflexivity.
Qed.
Print Assumptions C137_files.

(** ** a model in which the displacement is that of two springs: the observed one is met by different stiffnesses and dampings *)
Definition two_springs (m : model R unit) (name : string) : res (mat R) :=
  match nth_error (md_parts m) 4 with
  | Some a => match a "stiffness"%string, a "damping"%string with Some k, Some c => Ok (mkMat 1300%nat 808%nat (fun _ _ => 1 / (k + c))) | _, _ => Err ErrAttribute end
  | None => Err ErrIndex
  end.
Definition five_parts : model R unit := {| md_parts := repeat ex_part 5; md_rest := tt |}.
Lemma springs_residual n o k c : (800 < n / 10 <= 1300)%nat -> script_fit five_parts n = Ok o -> 0 < k + c ->
  snd (residual_function ex_main two_springs true [k; c] o) = Ok [1 / (k + c) - 8 / 10000; 1 / (k + c) - 8 / 10000].
Proof.
  intros hn ho hk.
    assert (hw : exists m, with_soil five_parts k c m /\ forall m1, with_soil five_parts k c m1 -> m1 = m).
    { exists {| md_parts := [ex_part; ex_part; ex_part; ex_part; fun x => if String.eqb x "damping" then Some c else if String.eqb x "stiffness" then Some k else Some 7]; md_rest := tt |}. split.
      - split; [reflexivity|]. split; [reflexivity|]. intros j a0 a e0 e name. destruct j as [|[|[|[|[|j]]]]]; cbn [nth_error md_parts five_parts repeat] in e0, e; try (injection e0 as <-; injection e as <-; repeat split; intros; try discriminate; reflexivity).
        + injection e0 as <-. injection e as <-. split; [intros _ ->; reflexivity|]. split; [intros _ ->; reflexivity|]. intros hno. destruct (String.eqb_spec name "damping") as [->|]; [exfalso; apply hno; auto|]. destruct (String.eqb_spec name "stiffness") as [->|]; [exfalso; apply hno; auto|]. reflexivity.
        + destruct j; discriminate.
      - intros [ps []] [_ [hl hh]]. cbn [md_parts] in hl, hh. destruct ps as [|p0 [|p1 [|p2 [|p3 [|p4 [|p5 ps]]]]]]; try discriminate. f_equal.
        assert (e4 : p4 = fun x => if String.eqb x "damping" then Some c else if String.eqb x "stiffness" then Some k else Some 7).
        { apply FunctionalExtensionality.functional_extensionality. intros x. destruct (hh 4%nat ex_part p4 eq_refl eq_refl x) as [a1 [a2 a3]]. destruct (String.eqb_spec x "damping") as [->|]; [auto|]. destruct (String.eqb_spec x "stiffness") as [->|]; [auto|]. apply a3. intros [_ [|]]; contradiction. }
        assert (ee : forall j p, (j < 4)%nat -> nth_error [p0; p1; p2; p3; p4] j = Some p -> p = ex_part).
        { intros j p hj hp. apply FunctionalExtensionality.functional_extensionality. intros x. destruct (hh j ex_part p) with (name := x) as [_ [_ a3]]; [destruct j as [|[|[|[|]]]]; [reflexivity..|lia]|exact hp|]. apply a3. intros [-> _]. lia. }
        rewrite (ee 0%nat p0), (ee 1%nat p1), (ee 2%nat p2), (ee 3%nat p3), e4; try reflexivity; lia. }
    destruct hw as [m [w1 w2]].
    assert (hg : two_springs m "displacements_out" = Ok (mkMat 1300%nat 808%nat (fun _ _ => 1 / (k + c)))).
    { unfold two_springs. destruct w1 as [_ [hl hh]]. destruct (nth_error (md_parts m) 4) as [a|] eqn:ea; [|apply nth_error_None in ea; rewrite hl in ea; cbn in ea; lia].
      destruct (hh 4%nat ex_part a eq_refl ea "stiffness"%string) as [a1 _]. destruct (hh 4%nat ex_part a eq_refl ea "damping"%string) as [_ [a2 _]]. rewrite a1, a2 by reflexivity. reflexivity. }
    destruct (C137_compared ex_main two_springs five_parts m n o k c (mkMat 1300%nat 808%nat (fun _ _ => 1 / (k + c))) ho) as [p [p1 p2]].
    - cbn. lia.
    - lia.
    - intros m1 hm1. unfold ex_main. rewrite (w2 m1 hm1). reflexivity.
    - exact hg.
    - cbn [mr]. lia.
    - cbn [mc]. lia.
    - rewrite p2. destruct p1 as [[f [f1 f2]] _]. unfold column in f1. apply in_map_iff in f1. destruct f1 as [t [f1 _]]. cbn [me] in f1. subst f. rewrite <- f2.
      rewrite Rabs_right; [reflexivity|]. apply Rle_ge, Rlt_le. apply Rdiv_lt_0_compat; lra.
Qed.
Theorem C137_ambiguous_refuted n : (800 < n / 10 <= 1300)%nat -> exists o, script_fit five_parts n = Ok o /\
  snd (residual_function ex_main two_springs true [1000; 250] o) = Ok [0; 0] /\ snd (residual_function ex_main two_springs true [250; 1000] o) = Ok [0; 0].
Proof.
  intros hn. destruct (fit_ready five_parts n ltac:(cbn; lia)) as [o ho]. exists o. split; [exact ho|].
  split; (rewrite (springs_residual n o _ _ hn ho) by lra; f_equal; f_equal; [lra|]; f_equal; lra).
Qed.
Print Assumptions C137_ambiguous_refuted.

(** the script has 12999 time steps, so steps 800 up to 1298 of the output are used; slopes exist in the model of two springs *)
Example C137_case : (5 <= List.length (md_parts five_parts))%nat /\ (forall n, Z.of_nat n = 12999%Z -> (800 < n / 10 <= 1300)%nat) /\
  (forall n, (800 < n / 10 <= 1300)%nat -> exists o J, script_fit five_parts n = Ok o /\ slopes (fun p => snd (residual_function ex_main two_springs true p o)) 1000 250 1 (1 / 4) J).
Proof.
  split; [cbn; lia|]. split.
  - intros n hn. assert (e : (Z.of_nat (n / 10) = 1299)%Z) by (rewrite Nat2Z.inj_div, hn; reflexivity). lia.
  - intros n hn. destruct (fit_ready five_parts n ltac:(cbn; lia)) as [o ho]. exists o. eexists [_; _]. split; [exact ho|]. do 3 eexists. split; [apply (springs_residual n o _ _ hn ho); lra|]. split; [apply (springs_residual n o _ _ hn ho); lra|]. split; [apply (springs_residual n o _ _ hn ho); lra|].
    split; [reflexivity|]. intros [|[|i]] hi; cbn [nth]; [reflexivity|reflexivity|cbn in hi; lia].
Qed.
