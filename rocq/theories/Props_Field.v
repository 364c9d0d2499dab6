(** * Property C70: random fields *)

From Coq Require Import Reals List Bool ZArith Lra Psatz.
From Verif Require Import Num PyBase Model_Element Model_Misc Spec_Field Proofs_Field.
Import ListNotations.
Local Open Scope R_scope.

Lemma moments_log mean cv mu sigma : normal_moments mean cv true = Some (mu, sigma) -> 0 < mean /\ mu = ln mean - 1 / 2 * ln (1 + cv * cv) /\ sigma * sigma = ln (1 + cv * cv) /\ 0 <= sigma.
Proof.
  unfold normal_moments. cbn [nln RExpLog]. destruct (Rlt_dec 0 mean) as [h|h]; [|discriminate]. destruct (Rlt_dec 0 (lit 1 + sq cv)%num) as [h'|h']; [|discriminate]. intros E. injection E as <- <-. unfold sq, ndec. cbn [lit nadd nmul nsub ndiv nsqrt RNum].
  split; [exact h|]. assert (hl : 0 <= ln (1 + cv * cv)). { destruct (Req_dec cv 0) as [->|n]; [replace (1 + 0 * 0) with 1 by ring; rewrite ln_1; lra|]. rewrite <- ln_1. left. apply ln_increasing; nra. }
  split; [cbn; lra|]. split; [apply sqrt_sqrt, hl|apply sqrt_pos].
Qed.
Lemma log_pos cv : cv <> 0 -> 0 < ln (1 + cv * cv).
Proof. intros n. rewrite <- ln_1. apply ln_increasing; nra. Qed.

(** the moments exist for every positive mean, and for no other in the log-normal case *)
Theorem C70_defined mean cv log_normal : normal_moments mean cv log_normal = None <-> log_normal = true /\ mean <= 0.
Proof.
  unfold normal_moments. destruct log_normal; [|split; [discriminate|intros [? _]; discriminate]]. cbn [nln RExpLog]. destruct (Rlt_dec 0 mean) as [h|h]; [|split; [intros _; split; [reflexivity|lra]|reflexivity]].
  destruct (Rlt_dec 0 (lit 1 + sq cv)%num) as [h'|h']; [split; [discriminate|intros [_ ?]; lra]|]. exfalso. apply h'. unfold sq. cbn. nra.
Qed.
Print Assumptions C70_defined.

(** the exponential of a normal quantity with the moments handed on has the requested mean and coefficient of variation *)
Theorem C70_log_normal mean cv mu sigma : normal_moments mean cv true = Some (mu, sigma) -> cv <> 0 ->
  expectation mu (sigma * sigma) exp mean /\ expectation mu (sigma * sigma) (fun x => (exp x - mean) * (exp x - mean)) ((cv * mean) * (cv * mean)).
Proof.
  intros h hcv. destruct (moments_log _ _ _ _ h) as [hm [-> [-> _]]]. pose proof (log_pos cv hcv) as hl. set (v := ln (1 + cv * cv)) in *. set (m := ln mean - 1 / 2 * v).
  assert (e1 : exp (1 * m + 1 * 1 * v / 2) = mean). { unfold m. replace (1 * (ln mean - 1 / 2 * v) + 1 * 1 * v / 2) with (ln mean) by field. apply exp_ln, hm. }
  assert (e2 : exp (2 * m + 2 * 2 * v / 2) = mean * mean * (1 + cv * cv)). { unfold m. replace (2 * (ln mean - 1 / 2 * v) + 2 * 2 * v / 2) with (ln mean + ln mean + v) by field. rewrite !exp_plus, exp_ln by exact hm. unfold v. rewrite exp_ln by nra. reflexivity. }
  pose proof (expectation_exp 1 m v hl) as x1. pose proof (expectation_exp 2 m v hl) as x2. rewrite e1 in x1. rewrite e2 in x2. split.
  - refine (expectation_ext _ _ _ _ _ _ _ eq_refl x1). intros x. cbn. rewrite Rmult_1_l. reflexivity.
  - pose proof (expectation_lin 1 (- 2 * mean) _ _ _ _ _ _ x2 x1) as x3. pose proof (expectation_lin 1 (mean * mean) _ _ _ _ _ _ x3 (expectation_one m v hl)) as x4.
    refine (expectation_ext _ _ _ _ _ _ _ _ x4); [|ring]. intros x. cbn. rewrite Rmult_1_l. replace (2 * x) with (x + x) by ring. rewrite exp_plus. replace (1 * x) with x by ring. ring.
Qed.
Print Assumptions C70_log_normal.

(** without variation the normal quantity is the logarithm of the mean *)
Theorem C70_no_variation mean mu sigma : normal_moments mean 0 true = Some (mu, sigma) -> sigma = 0 /\ exp mu = mean.
Proof.
  intros h. destruct (moments_log _ _ _ _ h) as [hm [-> [hs _]]]. replace (1 + 0 * 0) with 1 in * by ring. rewrite ln_1 in *. split; [nra|]. rewrite Rmult_0_r, Rminus_0_r. apply exp_ln, hm.
Qed.
Print Assumptions C70_no_variation.

(** a normal field has the requested moments itself *)
Theorem C70_normal mean cv mu sigma : normal_moments mean cv false = Some (mu, sigma) -> cv * mean <> 0 ->
  expectation mu (sigma * sigma) (fun x => x) mean /\ expectation mu (sigma * sigma) (fun x => (x - mean) * (x - mean)) ((cv * mean) * (cv * mean)).
Proof.
  intros h hn. unfold normal_moments in h. injection h as <- <-. cbn [nmul RNum]. assert (hv : 0 < mean * cv * (mean * cv)) by nra. split.
  - pose proof (expectation_lin 1 mean _ _ _ _ _ _ (expectation_centred mean _ hv) (expectation_one mean _ hv)) as x. refine (expectation_ext _ _ _ _ _ _ _ _ x); [intros; cbn; ring|ring].
  - refine (expectation_ext _ _ _ _ _ _ _ _ (expectation_square mean _ hv)); [reflexivity|ring].
Qed.
Print Assumptions C70_normal.

(** an expectation has one value only *)
Theorem C70_expectation_unique mu var f v w : expectation mu var f v -> expectation mu var f w -> v = w.
Proof. apply expectation_unique. Qed.
Print Assumptions C70_expectation_unique.

(** the field is generated with these moments, and only in the log-normal case exponentiated *)
Theorem C70_field srf mean cv len_scale angles nodes seed log_normal :
  create_rf srf mean cv len_scale angles nodes seed log_normal =
  match normal_moments mean cv log_normal with
  | Some (mu, sigma) => Some (map (if log_normal then exp else fun x => x) (srf (sigma * sigma) len_scale angles mu seed nodes))
  | None => None
  end.
Proof. unfold create_rf. destruct (normal_moments mean cv log_normal) as [[mu sigma]|]; [|reflexivity]. destruct log_normal; [reflexivity|]. rewrite map_id. reflexivity. Qed.
Print Assumptions C70_field.

(** example: mean 5, coefficient of variation 0.3 *)
Example C70_example : exists mu sigma, normal_moments 5 (3 / 10) true = Some (mu, sigma) /\ expectation mu (sigma * sigma) exp 5.
Proof.
  destruct (normal_moments 5 (3 / 10) true) as [[mu sigma]|] eqn:e; [|apply C70_defined in e; lra]. exists mu, sigma. split; [reflexivity|]. apply (C70_log_normal 5 (3 / 10)); [exact e|lra].
Qed.
