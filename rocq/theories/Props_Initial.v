(** * Properties of the initial state of the coupled system (C90) *)

From Coq Require Import Reals List Bool ZArith Arith Lia Lra.
From Verif Require Import Num PyBase Model_Geometry Model_System Model_Element Model_Moving Model_Train Model_Coupled Model_Accumulation Model_Initial.
From Verif Require Import Spec_System Spec_Coupled Spec_Initial Proofs_System Proofs_Moving Proofs_Train Proofs_TrainLoad Proofs_Accumulation Proofs_Coupled Props_Coupled Props_Sheets.
Import ListNotations.
Local Open Scope R_scope.

Lemma nsum_by {A} (f : A -> R) (l : list A) (d : A) : nsum (map f l) = sumn (length l) (fun i => f (nth i l d)).
Proof.
  rewrite <- nsum_map_seq. f_equal. apply (nth_ext _ _ (f d) (f d)); [rewrite !map_length, seq_length; reflexivity|].
  intros i hi. rewrite map_length in hi. rewrite (nth_indep (map (fun i => f (nth i l d)) _) (f d) (f (nth (length l) l d))) by (rewrite map_length, seq_length; exact hi).
  rewrite (map_nth (fun i => f (nth i l d))), seq_nth by exact hi. cbn [Nat.add]. apply map_nth.
Qed.

(** the parts of an initial state *)
Lemma initial_parts (solve : mat R -> list R -> res (list R)) Kt Ft cs Kv Fv wheels G pow loads s :
  solves solve -> mr Kt = length Ft -> mc Kt = length Ft -> mr Kv = length Fv -> mc Kv = length Fv ->
  contacts_fit cs wheels loads (length Ft) (length Fv) ->
  calculate_initial_state solve Kt Ft cs Kv Fv wheels G pow loads = Ok s ->
  exists ut uv, length ut = length Ft /\ length uv = length Fv /\ in_u s = ut ++ uv /\ in_F s = Ft ++ Fv /\
    mapr (static_deformation G pow) loads = Ok (in_static s) /\ combine_matrices (length Ft) (length Ft + length Fv) Kt Kv = Ok (in_K s) /\
    (forall r, (r < length Ft)%nat -> resistance Kt ut r = nth r Ft 0) /\
    (forall w, (w < length wheels)%nat -> nth (nth w wheels 0%nat) uv 0 = rail_at ut (nth w cs (mkContact [] []))) /\
    (forall r, (r < length Fv)%nat -> ~ In r wheels -> resistance Kv uv r =
       nth r Fv 0 + 2 * sumn (length wheels) (fun w => me Kv r (nth w wheels 0%nat) * rail_at ut (nth w cs (mkContact [] [])))).
Proof.
  intros hs k1 k2 k3 k4 [c1 [c2 [c3 [c4 [c5 c6]]]]] h. unfold calculate_initial_state in h.
  apply rbind_ok in h. destruct h as [ut [hut h]]. apply rbind_ok in h. destruct h as [q [hq h]]. apply rbind_ok in h. destruct h as [u1 [hu1 h]].
  apply rbind_ok in h. destruct h as [uv [huv h]]. apply rbind_ok in h. destruct h as [st [hst h]]. apply rbind_ok in h. destruct h as [K [hK h]].
  apply rbind_ok in h. destruct h as [u [hu h]]. apply rbind_ok in h. destruct h as [F [hF h]]. injection h as <-. cbn [in_u in_static in_K in_F].
  destruct (hs _ _ _ hut) as [a1 a2]. rewrite k2 in a1. destruct (hs _ _ _ hu1) as [b1 b2]. destruct q as [K1 F1]. cbn [fst snd] in *.
  assert (hd : length (disp_at_wheels ut cs) = length wheels) by (unfold disp_at_wheels; rewrite map_length; exact c1).
  destruct (initial_residual Kv Fv (length Fv) (disp_at_wheels ut cs) wheels K1 F1 u1 uv k3 k4 eq_refl c5 hd c6 hq b2 huv) as [d1 [d2 d3]].
  assert (hdisp : forall w, (w < length wheels)%nat -> nth w (disp_at_wheels ut cs) 0 = rail_at ut (nth w cs (mkContact [] []))).
  { intros w hw. unfold disp_at_wheels. rewrite (nth_map0 _ cs w (mkContact [] [])) by lia. apply disp_at_wheel_spec. apply c3. apply nth_In. lia. }
  exists ut, uv. split; [exact a1|]. split; [exact d1|].
  assert (hF' : F = Ft ++ Fv) by (rewrite combine_rhs_spec in hF by apply repeat_length; congruence).
  assert (hu' : u = ut ++ uv) by (unfold combine_solution in hu; rewrite <- a1, combine_rhs_spec in hu by (rewrite repeat_length; lia); congruence).
  split; [exact hu'|]. split; [exact hF'|]. split; [exact hst|]. split; [exact hK|].
  split; [intros r hr; unfold resistance; apply a2; lia|]. split.
  - intros w hw. rewrite <- (hdisp w hw). apply (d2 w); apply nth_error_nth'; lia.
  - intros r hr hn. unfold resistance. rewrite k4, (d3 r hr hn). f_equal. f_equal.
    rewrite (nsum_by _ _ (0%nat, 0)), combine_length, hd, Nat.min_id. apply sumn_ext. intros w hw.
    rewrite combine_nth by (symmetry; exact hd). cbn [fst snd]. rewrite (hdisp w hw). reflexivity.
Qed.

Lemma touched_at cs k : In k (touched cs) -> exists w j, (w < length cs)%nat /\ nth j (cn_dofs (nth w cs (mkContact [] []))) None = Some k.
Proof.
  unfold touched. intros h. apply in_flat_map in h. destruct h as [c [hc h]]. apply in_flat_map in h. destruct h as [o [ho h]]. destruct o as [i|]; [|destruct h]. destruct h as [->|[]].
  destruct (In_nth cs c (mkContact [] []) hc) as [w [hw <-]]. destruct (In_nth _ _ None ho) as [j [hj e]]. exists w, j. auto.
Qed.

Lemma rail_app (ut uv : list R) c nt : length ut = nt -> (forall i, In (Some i) (cn_dofs c) -> (i < nt)%nat) -> rail_at (ut ++ uv) c = rail_at ut c.
Proof.
  intros hl h. unfold rail_at. apply sumn_ext. intros j hj. f_equal. unfold value_at. destruct (nth j (cn_dofs c) None) as [i|] eqn:e; [|reflexivity].
  apply app_nth1. rewrite hl. apply h. rewrite <- e. apply nth_In. destruct (Nat.lt_ge_cases j (length (cn_dofs c))) as [hh|hh]; [exact hh|]. rewrite nth_overflow in e by exact hh. discriminate.
Qed.

Lemma start_fits (s : initial R) cs wheels loads irr G pow nt nv : G <> 0 -> contacts_fit cs wheels loads nt nv -> length (in_static s) = length wheels -> length irr = length wheels ->
  fits (at_start s cs nt wheels irr G pow) nt (nt + nv).
Proof.
  intros hG [c1 [c2 [c3 [c4 [c5 c6]]]]] hs hi. unfold fits, at_start. cbn [ia_G ia_contacts ia_train_dofs ia_static ia_irr]. rewrite map_length.
  split; [exact hG|]. split; [lia|]. split; [exact c1|]. split; [exact hs|]. split; [exact hi|]. split; [exact c3|]. split; [exact c4|]. split.
  - apply FinFun.Injective_map_NoDup; [intros a b e; lia|exact c5].
  - intros i hin. apply in_map_iff in hin. destruct hin as [w [<- hw]]. specialize (c6 w hw). lia.
Qed.

(** at the start the track carries the contact forces, every wheel is pressed on the rail with its static load, and the rest of the
    train is in equilibrium up to twice the force of the displacements of the wheels.  Missing: wheels that share a degree of freedom
    of the track, other loads on the track, and equilibrium of the train on a track that moves *)
Theorem C90_track_partial (solve : mat R -> list R -> res (list R)) Kt Ft cs Kv Fv wheels G pow loads irr s :
  solves solve -> mr Kt = length Ft -> mc Kt = length Ft -> mr Kv = length Fv -> mc Kv = length Fv ->
  contacts_fit cs wheels loads (length Ft) (length Fv) -> 0 < G -> 0 < pow -> (forall l, In l loads -> l <= 0) ->
  NoDup (touched cs) -> wheel_loads_only Ft cs loads -> length irr = length wheels -> (forall i, In i irr -> i = 0) ->
  calculate_initial_state solve Kt Ft cs Kv Fv wheels G pow loads = Ok s ->
  exists F' track', update_contact (at_start s cs (length Ft) wheels irr G pow) (in_u s) (in_F s) Ft = Ok (F', track') /\
    (forall r, (r < length Ft)%nat -> resistance (in_K s) (in_u s) r = nth r F' 0) /\
    (forall w, (w < length wheels)%nat -> let d := (length Ft + nth w wheels 0)%nat in
       nth d (in_u s) 0 = rail_at (in_u s) (nth w cs no_contact) /\ nth d F' 0 = nth (nth w wheels 0%nat) Fv 0 - nth w loads 0) /\
    (forall r, (r < length Fv)%nat -> ~ In r wheels -> nth (length Ft + r) F' 0 = nth r Fv 0 /\
       resistance (in_K s) (in_u s) (length Ft + r) =
       nth r Fv 0 + 2 * sumn (length wheels) (fun w => me Kv r (nth w wheels 0%nat) * rail_at (in_u s) (nth w cs no_contact))).
Proof.
  intros hs k1 k2 k3 k4 hc hG hp hl hd hw hi hirr h.
  destruct (initial_parts solve Kt Ft cs Kv Fv wheels G pow loads s hs k1 k2 k3 k4 hc h) as [ut [uv [e1 [e2 [e3 [e4 [e5 [e6 [e7 [e8 e9]]]]]]]]]].
  pose proof (mapr_length _ _ _ e5) as ls. pose proof hc as [c1 [c2 [c3 [c4 [c5 c6]]]]].
  pose proof (start_fits s cs wheels loads irr G pow (length Ft) (length Fv) ltac:(lra) hc ltac:(lia) hi) as hf.
  assert (lF : length (in_F s) = (length Ft + length Fv)%nat) by (rewrite e4, app_length; reflexivity).
  assert (lu : length (in_u s) = length (in_F s)) by (rewrite lF, e3, app_length; lia). rewrite <- lF in hf.
  destruct (update_contact_spec _ _ _ _ hf lu) as [F' [track' [fs [h1 [h2 [h3 [h4 [h5 [h6 [h7 [h8 h9]]]]]]]]]]]. cbn [at_start ia_contacts ia_train_dofs ia_static ia_irr ia_G ia_pow] in *.
  rewrite map_length in *. assert (hnth : forall w, (w < length wheels)%nat -> nth w (map (fun w => (length Ft + w)%nat) wheels) 0%nat = (length Ft + nth w wheels 0)%nat).
  { intros w hlt. rewrite (nth_indep _ 0%nat (length Ft + 0)%nat) by (rewrite map_length; exact hlt). apply (map_nth (fun w => (length Ft + w)%nat)). }
  assert (hrail : forall w, (w < length wheels)%nat -> rail_at (in_u s) (nth w cs no_contact) = rail_at ut (nth w cs no_contact)).
  { intros w hlt. rewrite e3. apply (rail_app _ _ _ (length Ft)); [exact e1|]. intros i hin. apply c4. unfold touched. apply in_flat_map. exists (nth w cs no_contact). split; [apply nth_In; lia|].
    apply in_flat_map. exists (Some i). split; [exact hin|left; reflexivity]. }
  assert (hwheel : forall w, (w < length wheels)%nat -> nth (length Ft + nth w wheels 0%nat) (in_u s) 0 = rail_at (in_u s) (nth w cs no_contact)).
  { intros w hlt. rewrite (hrail w hlt), e3, app_nth2 by lia. rewrite e1. replace (length Ft + nth w wheels 0 - length Ft)%nat with (nth w wheels 0%nat) by lia. apply e8. exact hlt. }
  assert (hfs : forall w, (w < length wheels)%nat -> nth w fs 0 = - nth w loads 0).
  { intros w hlt. pose proof (h5 w hlt) as a. unfold wheel_gap in a. cbn [at_start ia_train_dofs ia_static ia_contacts] in a. rewrite (hnth w hlt) in a.
    rewrite (hwheel w hlt) in a. unfold no_contact in a. match type of a with contact_force _ _ _ ?x = _ => replace x with (nth w (in_static s) 0) in a by ring end.
    rewrite (hirr (nth w irr 0)) in a by (apply nth_In; lia). pose proof (mapr_nth _ _ _ w 0 0 e5 ltac:(lia)) as b. assert (hle : nth w loads 0 <= 0) by (apply hl, nth_In; lia).
    destruct (static_contact G pow (nth w loads 0) hG hp hle) as [st [s1 s2]]. rewrite b in s1. injection s1 as <-. rewrite s2 in a. injection a as <-. apply Rabs_left1. exact hle. }
  assert (hmap : map Ropp fs = loads).
  { apply (nth_ext _ _ 0 0); [rewrite map_length; lia|]. intros w hlt. rewrite map_length in hlt. rewrite (nth_map0 _ fs w 0) by exact hlt. rewrite hfs by lia. ring. }
  destruct (combine_matrices_spec (length Ft) (length Ft + length Fv) Kt Kv ltac:(lia) k1 k2 ltac:(lia) ltac:(lia)) as [m [m1 [m2 [m3 [m4 [m5 m6]]]]]].
  rewrite m1 in e6. injection e6 as e6. subst m.
  assert (hK1 : forall r, (r < length Ft)%nat -> resistance (in_K s) (in_u s) r = resistance Kt ut r).
  { intros r hr. unfold resistance, mulv. rewrite m3, k2, sumn_split by lia. rewrite <- (Rplus_0_r (sumn (length Ft) (fun j => me Kt r j * nth j ut 0))). f_equal.
    - apply sumn_ext. intros j hj. rewrite m4 by lia. rewrite e3, app_nth1 by lia. reflexivity.
    - apply sumn_0. intros j hj. rewrite m6 by lia. ring. }
  assert (hK2 : forall r, (r < length Fv)%nat -> resistance (in_K s) (in_u s) (length Ft + r) = resistance Kv uv r).
  { intros r hr. unfold resistance, mulv. rewrite m3, k4, sumn_split by lia. rewrite <- (Rplus_0_l (sumn (length Fv) (fun j => me Kv r j * nth j uv 0))). f_equal.
    - apply sumn_0. intros j hj. rewrite m6 by lia. ring.
    - apply sumn_ext. intros j hj. rewrite m5 by lia. rewrite e3, app_nth2 by lia. f_equal. f_equal. lia. }
  exists F', track'. split; [exact h1|]. split; [|split].
  - intros r hr. rewrite (hK1 r hr), (e7 r hr), (h9 r hr), h8, hmap. destruct (in_dec Nat.eq_dec r (touched cs)) as [hin|hin].
    + destruct (touched_at cs r hin) as [w [j [q1 q2]]]. assert (hj : (j < 4)%nat).
      { destruct (Nat.lt_ge_cases j 4) as [g|g]; [exact g|]. rewrite nth_overflow in q2; [discriminate|]. destruct (c3 _ (nth_In cs (mkContact [] []) q1)) as [g1 _]. lia. }
      rewrite (hw r hr). rewrite (distinct_contribution cs loads w j r) by (auto; lia). cbn [nsum last]. rnum. ring.
    + apply (contributions_nil cs loads r ltac:(lia) c3) in hin. rewrite hin. reflexivity.
  - intros w hlt. cbv zeta. split; [apply hwheel; exact hlt|]. pose proof (h6 w hlt) as a. cbv zeta in a. rewrite (hnth w hlt) in a. rewrite a, (hfs w hlt), e4, app_nth2 by lia.
    replace (length Ft + nth w wheels 0 - length Ft)%nat with (nth w wheels 0%nat) by lia. ring.
  - intros r hr hn. split.
    + rewrite h7; [rewrite e4, app_nth2 by lia; f_equal; lia|lia|]. intros hin. apply in_map_iff in hin. destruct hin as [w [q1 q2]]. apply hn. replace r with w by lia. exact q2.
    + rewrite (hK2 r hr), (e9 r hr hn). f_equal. f_equal. apply sumn_ext. intros w hlt. rewrite (hrail w hlt). reflexivity.
Qed.
Print Assumptions C90_track_partial.

(** on a rail that does not move under the wheels the train is in equilibrium too, but for the wheels *)
Theorem C90_rest_partial (solve : mat R -> list R -> res (list R)) Kt Ft cs Kv Fv wheels G pow loads irr s :
  solves solve -> mr Kt = length Ft -> mc Kt = length Ft -> mr Kv = length Fv -> mc Kv = length Fv ->
  contacts_fit cs wheels loads (length Ft) (length Fv) -> 0 < G -> 0 < pow -> (forall l, In l loads -> l <= 0) ->
  NoDup (touched cs) -> wheel_loads_only Ft cs loads -> length irr = length wheels -> (forall i, In i irr -> i = 0) ->
  calculate_initial_state solve Kt Ft cs Kv Fv wheels G pow loads = Ok s ->
  (forall c, In c cs -> rail_at (in_u s) c = 0) ->
  exists F' track', update_contact (at_start s cs (length Ft) wheels irr G pow) (in_u s) (in_F s) Ft = Ok (F', track') /\
    forall r, (r < length Ft + length Fv)%nat -> ~ In r (map (fun w => (length Ft + w)%nat) wheels) -> resistance (in_K s) (in_u s) r = nth r F' 0.
Proof.
  intros hs k1 k2 k3 k4 hc hG hp hl hd hw hi hirr h h0.
  destruct (C90_track_partial solve Kt Ft cs Kv Fv wheels G pow loads irr s hs k1 k2 k3 k4 hc hG hp hl hd hw hi hirr h) as [F' [track' [q1 [q2 [_ q4]]]]].
  exists F', track'. split; [exact q1|]. intros r hr hn. destruct (Nat.lt_ge_cases r (length Ft)) as [g|g]; [apply q2; exact g|].
  replace r with (length Ft + (r - length Ft))%nat in * by lia. destruct (q4 (r - length Ft)%nat) as [a b]; [lia|intros hin; apply hn; apply in_map_iff; eauto|].
  rewrite b, a, sumn_0; [ring|]. intros w hlt. rewrite h0; [ring|]. apply nth_In. destruct hc as [c1 _]. lia.
Qed.
Print Assumptions C90_rest_partial.

(** a solver for systems of one and of no unknown *)
Definition small_solve (K : mat R) (F : list R) : res (list R) :=
  match mr K, mc K with
  | 0%nat, 0%nat => Ok []
  | 1%nat, 1%nat => if neqb (me K 0%nat 0%nat) 0 then Err ErrZeroDivision else Ok [nth 0 F 0 / me K 0%nat 0%nat]
  | _, _ => Err ErrValue
  end.
Lemma small_solves : solves small_solve.
Proof.
  intros K F u h. unfold small_solve in h. destruct (mr K) as [|[|n]] eqn:e1; destruct (mc K) as [|[|m]] eqn:e2; try discriminate.
  - injection h as <-. split; [reflexivity|]. intros r hr. lia.
  - destruct (neqbP (me K 0%nat 0%nat) 0) as [hz|hz]; [discriminate|]. injection h as <-. split; [reflexivity|]. intros r hr. replace r with 0%nat by lia. unfold mulv. cbn. rnum. field. exact hz.
Qed.

(** a wheel on a rail that is a spring, carrying a body on a second spring *)
Definition one_rail : contact R := mkContact [Some 0%nat; None; None; None] [1; 0; 0; 0].
Definition unit_matrix : mat R := mkMat 1 1 (fun _ _ => 1).
Definition body_on_wheel : mat R := mkMat 2 2 (fun i j => if Nat.eqb i j then 1 else -1).

Lemma body_start : exists st, calculate_initial_state small_solve unit_matrix [-1] [one_rail] body_on_wheel [-1; 0] [1%nat] 1 1 [-1] = Ok st /\
  in_u st = [-1; 0; -1] /\ in_F st = [-1; -1; 0] /\ (forall r, resistance (in_K st) (in_u st) r = me (in_K st) r 0%nat * -1 + me (in_K st) r 2%nat * -1) /\ me (in_K st) 1%nat 0%nat = 0 /\ me (in_K st) 1%nat 2%nat = -1.
Proof.
  unfold calculate_initial_state. unfold small_solve at 1. cbn [unit_matrix mr mc me]. destruct (neqbP 1 0) as [e|_]; [lra|]. cbn [rbind nth disp_at_wheels map disp_at_wheel one_rail cn_dofs cn_shape combine nsum fst snd length].
  unfold initial_system, impose_displacement, constraint_vector. cbn.
  destruct (neqbP 1 0) as [e|_]; [lra|]. cbn.
  assert (hst : exists x, static_deformation 1 1 (-1) = Ok x) by (destruct (static_contact 1 1 (-1)) as [x [hx _]]; [lra|lra|lra|eauto]). destruct hst as [x hx]. unfold rbind at 1. rewrite hx. cbn.
  eexists. split; [reflexivity|]. cbn [in_u in_F in_K]. rnum. split; [repeat f_equal; lra|]. split; [repeat f_equal; lra|]. split; [|split; reflexivity].
  intros r. unfold resistance, mulv. cbn [mc mr sumn nth]. cbn. rnum. lra.
Qed.

Lemma body_fits : contacts_fit [one_rail] [1%nat] [-1] 1 2 /\ NoDup (touched [one_rail]) /\ wheel_loads_only [-1] [one_rail] [-1].
Proof.
  split; [|split].
  - repeat split; try reflexivity.
    + destruct H as [<-|[]]. reflexivity.
    + destruct H as [<-|[]]. reflexivity.
    + intros i [<-|[]]. lia.
    + repeat constructor. intros [].
    + intros i [<-|[]]. lia.
  - repeat constructor. intros [].
  - intros k hk. cbn in hk. replace k with 0%nat by lia. cbn. rnum. ring.
Qed.

(** the body of the train is not in equilibrium: the wheel sinks by one and the spring under the body pulls *)
Theorem C90_body_refuted : exists st, calculate_initial_state small_solve unit_matrix [-1] [one_rail] body_on_wheel [-1; 0] [1%nat] 1 1 [-1] = Ok st /\
  exists F' track', update_contact (at_start st [one_rail] 1 [1%nat] [0] 1 1) (in_u st) (in_F st) [-1] = Ok (F', track') /\
  nth 1 F' 0 = -1 /\ resistance (in_K st) (in_u st) 1 = 1.
Proof.
  destruct body_start as [st [h1 [h2 [h3 [h4 [h5 h6]]]]]]. destruct body_fits as [f1 [f2 f3]]. exists st. split; [exact h1|].
  destruct (C90_track_partial small_solve unit_matrix [-1] [one_rail] body_on_wheel [-1; 0] [1%nat] 1 1 [-1] [0] st) as [F' [track' [q1 [_ [_ q4]]]]];
    [exact small_solves|reflexivity|reflexivity|reflexivity|reflexivity|exact f1|lra|lra|intros l [<-|[]]; lra|exact f2|exact f3|reflexivity|intros i [<-|[]]; reflexivity|exact h1|].
  exists F', track'. split; [exact q1|]. destruct (q4 0%nat) as [a _]; [cbn; lia|intros [e|[]]; discriminate|]. cbn [length Nat.add nth] in a. split; [exact a|]. rewrite h4, h5, h6. lra.
Qed.
Print Assumptions C90_body_refuted.

(** two wheels at one place of the rail: the rail is displaced by both loads but carries the force of one *)
Theorem C90_shared_refuted : exists st, calculate_initial_state small_solve unit_matrix [-2] [one_rail; one_rail] (mkMat 2 2 (fun _ _ => 0)) [0; 0] [0; 1]%nat 1 1 [-1; -1] = Ok st /\
  exists F' track', update_contact (at_start st [one_rail; one_rail] 1 [0; 1]%nat [0; 0] 1 1) (in_u st) (in_F st) [-2] = Ok (F', track') /\
  nth 0 F' 0 = -1 /\ resistance (in_K st) (in_u st) 0 = -2.
Proof.
  destruct (static_contact 1 1 (-1)) as [x [hx hc]]; [lra|lra|lra|].
  assert (h : exists st, calculate_initial_state small_solve unit_matrix [-2] [one_rail; one_rail] (mkMat 2 2 (fun _ _ => 0)) [0; 0] [0; 1]%nat 1 1 [-1; -1] = Ok st /\
    in_u st = [-2; -2; -2] /\ in_F st = [-2; 0; 0] /\ in_static st = [x; x] /\ resistance (in_K st) (in_u st) 0 = -2).
  { unfold calculate_initial_state. unfold small_solve at 1. cbn [unit_matrix mr mc me]. destruct (neqbP 1 0) as [e|_]; [lra|]. cbn. unfold rbind at 1. rewrite hx. cbn.
    eexists. split; [reflexivity|]. cbn [in_u in_F in_K in_static]. rnum. split; [repeat f_equal; lra|]. split; [reflexivity|]. split; [reflexivity|]. unfold resistance, mulv. cbn. rnum. lra. }
  destruct h as [st [h1 [h2 [h3 [h4 h5]]]]]. exists st. split; [exact h1|].
  destruct (update_contact_spec (at_start st [one_rail; one_rail] 1 [0; 1]%nat [0; 0] 1 1) (in_u st) (in_F st) [-2]) as [F' [track' [fs [g1 [g2 [g3 [g4 [g5 [g6 [g7 [g8 g9]]]]]]]]]]].
  - replace (length (in_F st)) with (1 + 2)%nat by (rewrite h3; reflexivity). apply (start_fits st _ _ [-1; -1]); [lra| |rewrite h4; reflexivity|reflexivity].
    repeat split; try reflexivity.
    + destruct H as [<-|[<-|[]]]; reflexivity.
    + destruct H as [<-|[<-|[]]]; reflexivity.
    + intros i [<-|[<-|[]]]; lia.
    + repeat constructor; cbn; intuition lia.
    + intros i [<-|[<-|[]]]; lia.
  - rewrite h2, h3. reflexivity.
  - exists F', track'. split; [exact g1|]. split; [|exact h5]. rewrite g9 by (cbn; lia). rewrite g8. cbn [at_start ia_contacts ia_train_dofs ia_irr ia_G ia_pow map length] in *.
    destruct fs as [|f0 [|f1 [|]]]; try discriminate g4. pose proof (g5 1%nat ltac:(lia)) as b. unfold wheel_gap, rail_at in b. rewrite h2 in b. cbn [at_start ia_train_dofs ia_static ia_contacts map nth Nat.add] in b. rewrite h4 in b. cbn [nth] in b.
    match type of b with contact_force _ _ _ ?y = _ => replace y with x in b by (cbn; unfold value_at; cbn; rnum; ring) end. rewrite hc in b. injection b as <-.
    cbn. rnum. rewrite Rabs_left1 by lra. ring.
Qed.
Print Assumptions C90_shared_refuted.
