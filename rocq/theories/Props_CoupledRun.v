(** * Properties of running the coupled train and track (C118) *)

From Coq Require Import Reals List Bool ZArith Arith Lia Lra Sorted.
From Verif Require Import Num PyBase Model_Geometry Model_System Model_Element Model_Moving Model_Train Model_TrainMesh Model_TrainSystem Model_Accumulation Model_Run Model_CoupledRun
  Spec_Geometry Spec_System Spec_Element Spec_Train Spec_TrainMesh Spec_TrainSystem Spec_Run Spec_CoupledRun
  Proofs_Elements Proofs_System Proofs_Element Proofs_Accumulation Proofs_Force Props_TrainMesh Proofs_Run Proofs_CoupledRun Props_Run Props_Force Props_TrainSystem.
Import ListNotations.
Local Open Scope R_scope.

Lemma main_ok kind dynamic static time memory track train es rows c : (2 <= length time)%nat ->
  @coupled_main R RNum kind dynamic static time memory track train es rows = Ok c ->
  exists out, coupled_stages kind dynamic static time memory track train (stage_time_ids time) rows None = Ok (cr_rows c, Some out) /\
    coupled_assign memory track train (cr_rows c) = Ok out /\ cr_track c = fst out /\ cr_train c = snd out /\ force_in_elements (Some (fst out)) es = Ok (cr_forces c).
Proof.
  intros h2 h. unfold coupled_main in h. apply rbind_ok in h. destruct h as [[rows' out'] [hs h]]. cbn [fst snd] in h.
  destruct (ids_cons time h2) as [ids [e [hne _]]].
  destruct (stages_last kind dynamic static time memory track train _ _ _ _ _ hs) as [o [-> ho]].
  { rewrite e. destruct ids; [congruence|cbn; lia]. }
  unfold coupled_finalise in h. apply rbind_ok in h. destruct h as [f [hf h]]. apply rbind_ok in h. destruct h as [o' [ho' h]]. injection h as <-. cbn [cr_rows cr_track cr_train cr_forces] in *.
  rewrite ho in ho'. injection ho' as <-. exists o. auto.
Qed.

(** C118: the solver goes through the times once, step by step, and in the end the nodes of track and train have the results of every time *)
Theorem C118_nodes kind dynamic static time memory track train es rows c : kind <> OtherType -> (2 <= length time)%nat -> length rows = length time -> track <> [] ->
  (forall n, In n track -> flags_match n) -> (forall n, In n train -> flags_match n) ->
  coupled_main kind dynamic static time (tlist memory) track train es rows = Ok c ->
  let step := match kind with Static => static | _ => dynamic end in
  length (cr_rows c) = length time /\ nth_error (cr_rows c) 0 = nth_error rows 0 /\
  (exists dt, marched step dt (cr_rows c) /\
     forall i, (S i < length time)%nat -> exists a b, neighbours (stage_time_ids time) a b /\ (a <= i < b)%nat /\ dt i = mean_step time a b) /\
  length (cr_track c) = length track /\ length (cr_train c) = length train /\
  (forall p n t r, nth_error track p = Some n -> nth_error (cr_rows c) t = Some r ->
     exists l x, nth_error (cr_track c) p = Some l /\ length l = length time /\ nth_error l t = Some x /\ agrees_with_row n r x) /\
  (forall p n t r, nth_error train p = Some n -> nth_error (cr_rows c) t = Some r ->
     exists l x, nth_error (cr_train c) p = Some l /\ length l = length time /\ nth_error l t = Some x /\ agrees_with_row n r x).
Proof.
  intros hk h2 hl hne f1 f2 h step. destruct (main_ok _ _ _ _ _ _ _ _ _ _ h2 h) as [out [hs [ho [e1 [e2 _]]]]].
  assert (hn : track ++ train <> []) by (destruct track; [congruence|discriminate]).
  assert (hf : forall n, In n (track ++ train) -> flags_match n) by (intros n hin; apply in_app_or in hin; destruct hin; auto).
  assert (hr : run_all kind dynamic static time (tlist memory) (track ++ train) rows = Ok (cr_rows c, Some (glue out))).
  { unfold run_all. change (None : option (list (list (nodal R)))) with (option_map (@glue (list (nodal R))) None). rewrite (stages_glue _ _ _ _ _ _ _ hn), hs. reflexivity. }
  destruct (C89_steps kind dynamic static time memory (track ++ train) rows _ _ hk h2 hl hf hr) as [r1 [r2 r3]].
  split; [exact r1|]. split; [exact r2|]. split; [exact r3|].
  destruct (coupled_assigned _ _ _ _ _ ho f1 f2) as [o1 o2]. destruct (mapr_assigned _ _ _ _ o1 f1) as [a1 a2]. destruct (mapr_assigned _ _ _ _ o2 f2) as [b1 b2]. rewrite <- e1 in a1, a2. rewrite <- e2 in b1, b2.
  split; [exact a1|]. split; [exact b1|]. split.
  - intros p n t r hp ht. destruct (a2 p n hp) as [l [q1 [q2 q3]]]. destruct (q3 t r ht) as [x [q4 q5]]. exists l, x. split; [exact q1|]. split; [congruence|]. auto.
  - intros p n t r hp ht. destruct (b2 p n hp) as [l [q1 [q2 q3]]]. destruct (q3 t r ht) as [x [q4 q5]]. exists l, x. split; [exact q1|]. split; [congruence|]. auto.
Qed.
Print Assumptions C118_nodes.

(** C118: the force of an element of the track at every time is that of the displacements its nodes report at that time; elements without stiffness have none *)
Theorem C118_forces kind dynamic static time memory track train es rows c p e : kind <> OtherType -> (2 <= length time)%nat -> length rows = length time -> track <> [] ->
  (forall n, In n track -> flags_match n) -> (forall n, In n train -> flags_match n) ->
  coupled_main kind dynamic static time (tlist memory) track train es rows = Ok c -> nth_error es p = Some e ->
  length (cr_forces c) = length es /\
  (forall i j k mask rot, carries_force e i j k mask rot -> exists fs, nth_error (cr_forces c) p = Some (Some fs) /\ length fs = length time /\
     forall t, (t < length time)%nat -> exists u v f, displaced (cr_track c) i t u /\ displaced (cr_track c) j t v /\ nth_error fs t = Some (tlist f) /\ mean_force k mask rot u v f) /\
  (carries_none e -> nth_error (cr_forces c) p = Some None).
Proof.
  intros hk h2 hl hne f1 f2 h he. destruct (C118_nodes _ _ _ _ _ _ _ _ _ _ hk h2 hl hne f1 f2 h) as [r1 [_ [_ [l1 [_ [r4 _]]]]]].
  destruct (main_ok _ _ _ _ _ _ _ _ _ _ h2 h) as [out [hs [ho [e1 [e2 hforce]]]]]. unfold force_in_elements in hforce. rewrite <- e1 in hforce.
  split; [apply mapr_spec in hforce; apply (forall2_length _ _ _ hforce)|].
  destruct (mapr_error _ _ _ _ _ hforce he) as [o [g1 g2]]. split; [|intros hn; rewrite no_force in g2 by exact hn; injection g2 as <-; exact g1].
  intros i j k mask rot hc.
  assert (hij : exists a b, nth_error (cr_track c) i = Some a /\ nth_error (cr_track c) j = Some b).
  { destruct hc as [q1 q2]. unfold force_in_element in g2. rewrite q1, (first_part_spec _ _ _ _ q2) in g2. apply rbind_ok in g2. destruct g2 as [a [ha g2]]. apply rbind_ok in g2. destruct g2 as [b [hb _]].
    unfold at_idx in ha, hb. exists a, b. destruct (nth_error (cr_track c) i); [|discriminate]. destruct (nth_error (cr_track c) j); [|discriminate]. split; congruence. }
  destruct hij as [a [b [ha hb]]].
  assert (hsome : forall i l, nth_error (cr_track c) i = Some l -> length l = length time /\ forall x, In x l -> exists u : tri R, nd_u x = tlist u).
  { intros q l hq. assert (hn : exists n, nth_error track q = Some n) by (destruct (nth_error track q) eqn:en; [eauto|apply nth_error_None in en; assert (nth_error (cr_track c) q <> None) by congruence; apply nth_error_Some in H; lia]).
    destruct hn as [n hn]. destruct (nth_error (cr_rows c) 0) as [r0|] eqn:er; [|apply nth_error_None in er; lia].
    destruct (r4 q n 0%nat r0 hn er) as [l' [_ [q1 [q2 _]]]]. rewrite hq in q1. injection q1 as <-. split; [exact q2|]. intros x hx. apply In_nth_error in hx. destruct hx as [t ht].
    assert (htl : (t < length time)%nat) by (rewrite <- q2; apply nth_error_Some; congruence). destruct (nth_error (cr_rows c) t) as [r|] eqn:ert; [|apply nth_error_None in ert; lia].
    destruct (r4 q n t r hn ert) as [l'' [x' [s1 [_ [s3 [u [v [w [z [-> _]]]]]]]]]]. rewrite hq in s1. injection s1 as <-. rewrite ht in s3. injection s3 as ->. exists u. reflexivity. }
  destruct (hsome i a ha) as [la ua]. destruct (hsome j b hb) as [lb ub].
  destruct (carried_force e i j k mask rot _ a b hc ha hb ltac:(congruence) ua ub) as [fs [q1 [q2 q3]]]. rewrite q1 in g2. injection g2 as <-.
  exists fs. split; [exact g1|]. split; [congruence|]. intros t ht.
  destruct (nth_error a t) as [x|] eqn:ex; [|apply nth_error_None in ex; lia]. destruct (nth_error b t) as [y|] eqn:ey; [|apply nth_error_None in ey; lia].
  destruct (q3 t x y ex ey) as [u [v [f [s1 [s2 [s3 s4]]]]]]. exists u, v, f. split; [exists a, x; auto|]. split; [exists b, y; auto|]. auto.
Qed.
Print Assumptions C118_forces.

(** C118: the run ends if every step of the solver does, and forces exist for all elements with two nodes of the track *)
Theorem C118_ends kind dynamic static time memory track train es rows : (2 <= length time)%nat -> length rows = length time -> track <> [] ->
  (forall n, In n track -> flags_match n) -> (forall n, In n train -> flags_match n) ->
  (forall e, In e es -> carries_none e \/ exists i j k mask rot, carries_force e i j k mask rot /\ (i < length track)%nat /\ (j < length track)%nat) ->
  (kind <> OtherType -> forall dt t r, exists r', (match kind with Static => static | _ => dynamic end) dt t r = Ok r') ->
  exists c, coupled_main kind dynamic static time (tlist memory) track train es rows = Ok c.
Proof.
  intros h2 hl hne f1 f2 hes ht. assert (hn : track ++ train <> []) by (destruct track; [congruence|discriminate]).
  assert (hf : forall n, In n (track ++ train) -> flags_match n) by (intros n hin; apply in_app_or in hin; destruct hin; auto).
  destruct (C89_ends kind dynamic static time memory (track ++ train) rows h2 hl hn hf ht) as [rows' [out hr]].
  unfold run_all in hr. change (None : option (list (list (nodal R)))) with (option_map (@glue (list (nodal R))) None) in hr. rewrite (stages_glue _ _ _ _ _ _ _ hn) in hr.
  apply rbind_ok in hr. destruct hr as [[rows1 out1] [hs _]]. unfold coupled_main. rewrite hs. cbn [rbind fst snd].
  destruct (ids_cons time h2) as [ids [e [hi _]]].
  destruct (stages_last kind dynamic static time (tlist memory) track train _ _ _ _ _ hs) as [o [-> ho]]; [rewrite e; destruct ids; [congruence|cbn; lia]|].
  unfold coupled_finalise. rewrite ho. cbn [option_map].
  assert (hfo : exists f, force_in_elements (Some (fst o)) es = Ok f).
  { apply mapr_in_ok. intros el hel. destruct (hes el hel) as [hc|[i [j [k [mask [rot [hc [hi1 hj1]]]]]]]]; [exists None; apply no_force; exact hc|].
    destruct (coupled_assigned _ _ _ _ _ ho f1 f2) as [o1 _]. destruct (mapr_assigned _ _ _ _ o1 f1) as [a1 a2].
    assert (one : forall q, (q < length track)%nat -> exists l, nth_error (fst o) q = Some l /\ length l = length rows1 /\ forall x, In x l -> exists u : tri R, nd_u x = tlist u).
    { intros q hq. destruct (nth_error track q) as [n|] eqn:en; [|apply nth_error_None in en; lia]. destruct (a2 q n en) as [l [b1 [b2 b3]]]. exists l. split; [exact b1|]. split; [exact b2|].
      intros x hx. apply In_nth_error in hx. destruct hx as [t hx]. assert (htl : (t < length rows1)%nat) by (rewrite <- b2; apply nth_error_Some; congruence).
      destruct (nth_error rows1 t) as [r|] eqn:er; [|apply nth_error_None in er; lia]. destruct (b3 t r er) as [x' [c1 [u [v [w [z [-> _]]]]]]]. rewrite hx in c1. injection c1 as ->. exists u. reflexivity. }
    destruct (one i hi1) as [a [ha [la ua]]]. destruct (one j hj1) as [b [hb [lb ub]]]. destruct (carried_force el i j k mask rot (fst o) a b hc ha hb ltac:(congruence) ua ub) as [fs [q _]]. eauto. }
  destruct hfo as [f ->]. cbn [rbind]. eauto.
Qed.
Print Assumptions C118_ends.

(** C118: a soil spring below a node with number [n], fixed below: its force is its stiffness times the displacement that the solver found for the node *)
Theorem C118_soil kind dynamic static time memory track train es rows c p e i j top bottom n k m spans : kind <> OtherType -> (2 <= length time)%nat -> length rows = length time ->
  (forall n, In n track -> flags_match n) -> (forall n, In n train -> flags_match n) ->
  coupled_main kind dynamic static time (tlist memory) track train es rows = Ok c -> nth_error es p = Some e ->
  rod_spring (Some k) = Some m -> spans <> [] -> (forall s, In s spans -> fst (fst s) = fst (snd s) /\ snd (snd s) < snd (fst s)) ->
  carries_force e i j (rod_reshaped m) (T3 true false false) (stored_rotation spans) ->
  nth_error track i = Some top -> nth_error track j = Some bottom -> tget (n_dof top) DY = Some n -> tget (n_dof bottom) DY = None ->
  exists fs, nth_error (cr_forces c) p = Some (Some fs) /\ length fs = length time /\
    forall t r, nth_error (cr_rows c) t = Some r -> nth_error fs t = Some [k * nth n (rw_u r) 0; 0; 0].
Proof.
  intros hk h2 hl f1 f2 h he hm hsp hup hc hi hj hti hbj. assert (hne : track <> []) by (intros ->; destruct i; discriminate).
  destruct (C118_forces _ _ _ _ _ _ _ _ _ _ _ _ hk h2 hl hne f1 f2 h he) as [_ [hfs _]]. destruct (hfs _ _ _ _ _ hc) as [fs [g1 [g2 g3]]].
  destruct (C118_nodes _ _ _ _ _ _ _ _ _ _ hk h2 hl hne f1 f2 h) as [r1 [_ [_ [_ [_ [r4 _]]]]]].
  exists fs. split; [exact g1|]. split; [exact g2|]. intros t r hr. assert (htl : (t < length time)%nat) by (rewrite <- r1; apply nth_error_Some; congruence).
  destruct (g3 t htl) as [u [v [f [[la [xa [a1 [a2 a3]]]] [[lb [xb [b1 [b2 b3]]]] [c1 [d0 [d1 d2]]]]]]]].
  destruct (r4 i top t r hi hr) as [l [x [q1 [_ [q3 [u' [u1 [u2 [u3 [eu0 q4]]]]]]]]]]. rewrite a1 in q1. injection q1 as <-. rewrite a2 in q3. injection q3 as q3. rewrite q3, eu0 in a3. cbn [nd_u] in a3.
  destruct (r4 j bottom t r hj hr) as [l [x' [p1 [_ [p3 [v' [v1 [v2 [v3 [ev0 p4]]]]]]]]]]. rewrite b1 in p1. injection p1 as <-. rewrite b2 in p3. injection p3 as p3. rewrite p3, ev0 in b3. cbn [nd_u] in b3.
  specialize (q4 DY). rewrite hti in q4. specialize (p4 DY). rewrite hbj in p4. destruct q4 as [q4 _]. destruct p4 as [p4 _].
  assert (eu : ty u = nth n (rw_u r) 0) by (destruct u, u'; cbn in *; injection a3; congruence).
  assert (ev : ty v = 0) by (destruct v, v'; cbn in *; injection b3; congruence).
  destruct spans as [|s0 spans]; [congruence|].
  assert (z : forall s, In s (s0 :: spans) -> calculate_rotation1 s = - (PI / 2)).
  { intros [[x1 y1] [x2 y2]] hs. destruct (hup _ hs) as [s1 s2]. cbn in s1, s2. subst x2. rewrite rotation1_vertical by lra. destruct (Rlt_dec y1 y2); [lra|reflexivity]. }
  rewrite (stored_rotation_parallel (s0 :: spans) s0 (or_introl eq_refl)) in d0 by (intros s hs; rewrite (z s hs), (z s0 (or_introl eq_refl)); reflexivity).
  rewrite (z s0 (or_introl eq_refl)) in d0. cbn [tx ty tr] in d0, d1, d2.
  destruct (rod_force_spec k m (- (PI / 2)) (six u v) hm) as [w _].
  assert (ef : element_force (rod_reshaped m) (rotation_matrix (- (PI / 2))) (six u v) 0 = tx f).
  { rewrite d0. unfold element_force. cbv zeta. rewrite !sumn6. unfold end_force, in_axes, sum6. rewrite !sumn6. unfold sum6, mtrans. rnum. reflexivity. }
  rewrite ef in w. rewrite cos_neg, sin_neg, cos_PI2, sin_PI2 in w. cbn [six] in w. rewrite eu, ev in w.
  rewrite c1. destruct f as [fx fy fr]. cbn in w, d1, d2. unfold tlist. cbn. rewrite d1, d2, w. do 2 f_equal. ring.
Qed.
Print Assumptions C118_soil.

(** C118: the results of a part of the train are the columns of its own equations behind those of the track *)
Theorem C118_train (h : tri Z -> Z) (tn : train R) (x : part -> R) (st0 : tstate R) cd bd m nt s st n kind dynamic static time memory track es rows c :
  sound st0 -> parts_apart tn x -> initialise_train_ndof tn = (cd, bd, m) -> train_initialise h tn x st0 = Ok (s, st, n) ->
  kind <> OtherType -> (2 <= length time)%nat -> length rows = length time -> track <> [] -> (forall n, In n track -> flags_match n) ->
  let st' := fst (coupled_ndof nt st n) in
  coupled_main kind dynamic static time (tlist memory) track (map (ts_store st') (ts_mesh st')) es rows = Ok c ->
  forall p t r, is_part tn p -> nth_error (cr_rows c) t = Some r ->
    exists q u, nth_error (ts_mesh st') q = Some (ts_node st' p) /\ displaced (cr_train c) q t u /\
      forall d, tget u d = match number_of_part st p d with Some k => nth (nt + k) (rw_u r) 0 | None => 0 end.
Proof.
  intros hs ha hn hi hk h2 hl hne f1 st' hmain p t r hp hr. destruct (C117_equations h tn x st0 cd bd m hs ha hn) as [s' [st1 [n' [bs [e [_ [_ [_ [_ [_ [_ [_ [_ [hd [hm [hf _]]]]]]]]]]]]]]]].
  rewrite hi in e. injection e as <- <- <-. cbn [coupled_ndof fst] in st'.
  assert (hnode : forall p, is_part tn p -> (forall d, tget (n_dof (ts_store st' (ts_node st' p))) d = option_map (fun k => (k + nt)%nat) (number_of_part st p d)) /\ flags_match (ts_store st' (ts_node st' p))).
  { intros q hq. unfold st'. cbn [ts_store ts_node]. unfold shift_train. set (nd := fold_left (shift_node nt) (ts_mesh st) (ts_store st) (ts_node st q)).
    assert (e1 : n_dof nd = raised nt (n_dof (ts_store st (ts_node st q)))).
    { unfold nd. rewrite shift_all by exact hd. destruct (in_dec Nat.eq_dec (ts_node st q) (ts_mesh st)) as [i|i]; [reflexivity|]. exfalso. apply i, hm. exists q. auto. }
    assert (e2 : n_flag nd = n_flag (ts_store st (ts_node st q))) by apply shift_flag.
    assert (e3 : forall d, tget (n_dof nd) d = option_map (fun k => (k + nt)%nat) (number_of_part st q d)) by (intros d; rewrite e1; unfold number_of_part; destruct d; reflexivity).
    split; [exact e3|]. intros d. rewrite e2, e3, (hf q d hq). destruct (number_of_part st q d); cbn; split; congruence. }
  assert (f2 : forall nd, In nd (map (ts_store st') (ts_mesh st')) -> flags_match nd).
  { intros nd hnd. apply in_map_iff in hnd. destruct hnd as [id [<- hid]]. apply hm in hid. destruct hid as [q [hq <-]]. exact (proj2 (hnode q hq)). }
  destruct (C118_nodes _ _ _ _ _ _ _ _ _ _ hk h2 hl hne f1 f2 hmain) as [_ [_ [_ [_ [_ [_ r5]]]]]].
  assert (hin : In (ts_node st' p) (ts_mesh st')) by (apply hm; exists p; auto). apply In_nth_error in hin. destruct hin as [q hq].
  destruct (r5 q _ t r (map_nth_error (ts_store st') _ _ hq) hr) as [l [y [q1 [_ [q3 [u [v [a [f [-> q4]]]]]]]]]].
  exists q, u. split; [exact hq|]. split; [exists l; eexists; split; [exact q1|]; split; [exact q3|reflexivity]|].
  intros d. specialize (q4 d). rewrite (proj1 (hnode p hp)) in q4. destruct (number_of_part st p d) as [k|]; cbn [option_map] in q4; [|exact (proj1 q4)].
  rewrite (proj1 q4). f_equal. lia.
Qed.
Print Assumptions C118_train.

(** a run with a single time has nothing to calculate, but it does not end: the forces in the elements cannot be calculated *)
Theorem C118_single_refuted kind dynamic static time memory track train es rows : (length time <= 1)%nat ->
  (exists e i j k mask rot, In e es /\ carries_force e i j k mask rot) ->
  coupled_main kind dynamic static time (tlist memory) track train es rows = Err ErrValue.
Proof.
  intros hl [e [i [j [k [mask [rot [hin hc]]]]]]]. assert (hs : coupled_stages kind dynamic static time (tlist memory) track train (stage_time_ids time) rows None = Ok (rows, None)) by (destruct time as [|a [|b time]]; [reflexivity|reflexivity|cbn in hl; lia]).
  unfold coupled_main. rewrite hs. cbn [rbind fst snd]. unfold coupled_finalise. cbn [option_map]. assert (hf : force_in_elements None es = Err ErrValue); [|rewrite hf; reflexivity].
  unfold force_in_elements. induction es as [|a es IH]; [destruct hin|]. cbn [mapr].
  assert (ha : (exists o, force_in_element None a = Ok o) \/ force_in_element (T := R) None a = Err ErrValue).
  { unfold force_in_element. destruct (ml_nodes a) as [|? [|? [|? ?]]]; try (left; eexists; reflexivity). destruct (first_element_part (ml_parts a)) as [[[[kk|] mm] rr]|]; [right; reflexivity|left; eexists; reflexivity|left; eexists; reflexivity]. }
  destruct hin as [->|hin].
  - destruct hc as [c1 c2]. unfold force_in_element at 1. rewrite c1, (first_part_spec _ _ _ _ c2). reflexivity.
  - destruct ha as [[o ->]| ->]; [|reflexivity]. cbn [rbind]. rewrite (IH hin). reflexivity.
Qed.
Print Assumptions C118_single_refuted.

(** a node on a soil spring of stiffness 5 with one wheel above it, a solver that moves both: the run ends and the spring reports -10 and -20 *)
Example C118_case : let top := mkNode 0 None (T3 None (Some 0%nat) None) (T3 0 0 0) (T3 false true false) [] : node R in
  let bottom := mkNode 1 None (T3 None None None) (T3 0 (- 1) 0) (T3 false false false) [] : node R in
  let wheel := mkNode 2 None (T3 None (Some 1%nat) None) (T3 0 1 0) (T3 false true false) [] : node R in
  let step := fun (dt : R) (t : nat) (r : row R) => Ok (mkRow [nth 0 (rw_u r) 0 - 2; nth 1 (rw_u r) 0 - 3] [0; 0] [0; 0] [0; 0]) : res (row R) in
  let zero := mkRow [0; 0] [0; 0] [0; 0] [0; 0] : row R in
  let spans := [((0, 0), (0, - 1))] in
  exists m, rod_spring (Some 5) = Some m /\
  let e := mkMelem [0; 1]%nat [OtherPart; ElementPart (Some (rod_reshaped m)) (T3 true false false) (stored_rotation spans)] in
  carries_force e 0 1 (rod_reshaped m) (T3 true false false) (stored_rotation spans) /\ (forall s, In s spans -> fst (fst s) = fst (snd s) /\ snd (snd s) < snd (fst s)) /\
  exists c fs, coupled_main Dynamic step step [0; 1; 2] (tlist (T3 7 7 7)) [top; bottom] [wheel] [e] [zero; zero; zero] = Ok c /\
    nth_error (cr_forces c) 0 = Some (Some fs) /\ nth_error fs 0 = Some [0; 0; 0] /\ nth_error fs 1 = Some [- 10; 0; 0] /\ nth_error fs 2 = Some [- 20; 0; 0].
Proof.
  intros top bottom wheel step zero spans. destruct (rod_spring (Some 5)) as [m|] eqn:hm; [|discriminate]. exists m. split; [reflexivity|]. intros e.
  assert (hc : carries_force e 0 1 (rod_reshaped m) (T3 true false false) (stored_rotation spans)) by (split; [reflexivity|]; exists [OtherPart], []; split; [reflexivity|]; intros p [<-|[]]; reflexivity).
  assert (hs : forall s, In s spans -> fst (fst s) = fst (snd s) /\ snd (snd s) < snd (fst s)) by (intros s [<-|[]]; cbn; lra).
  split; [exact hc|]. split; [exact hs|].
  assert (f1 : forall n, In n [top; bottom] -> flags_match n) by (intros n [<-|[<-|[]]] []; cbn; split; congruence).
  assert (f2 : forall n, In n [wheel] -> flags_match n) by (intros n [<-|[]] []; cbn; split; congruence).
  destruct (C118_ends Dynamic step step [0; 1; 2] (T3 7 7 7) [top; bottom] [wheel] [e] [zero; zero; zero]) as [c h].
  { cbn. lia. } { reflexivity. } { discriminate. } { exact f1. } { exact f2. }
  { intros e' [<-|[]]. right. exists 0%nat, 1%nat, (rod_reshaped m), (T3 true false false), (stored_rotation spans). split; [exact hc|]. cbn. lia. }
  { intros _ dt t r. eexists. reflexivity. }
  destruct (C118_soil Dynamic step step [0; 1; 2] (T3 7 7 7) [top; bottom] [wheel] [e] [zero; zero; zero] c 0 e 0 1 top bottom 0 5 m spans ltac:(discriminate) ltac:(cbn; lia) eq_refl f1 f2 h eq_refl hm ltac:(discriminate) hs hc eq_refl eq_refl eq_refl eq_refl) as [fs [g1 [_ g3]]].
  destruct (C118_nodes Dynamic step step [0; 1; 2] (T3 7 7 7) [top; bottom] [wheel] [e] [zero; zero; zero] c ltac:(discriminate) ltac:(cbn; lia) eq_refl ltac:(discriminate) f1 f2 h) as [r1 [r2 [[dt [r3 _]] _]]].
  cbn [length] in r1. change (nth_error [zero; zero; zero] 0) with (Some zero) in r2.
  destruct (r3 0%nat) as [a [b [q1 [q2 q3]]]]; [lia|]. rewrite r2 in q1. injection q1 as <-. injection q3 as <-.
  destruct (r3 1%nat) as [a [b' [p1 [p2 p3]]]]; [lia|]. rewrite q2 in p1. injection p1 as <-. injection p3 as <-.
  exists c, fs. split; [exact h|]. split; [exact g1|]. rewrite (g3 0%nat _ r2), (g3 1%nat _ q2), (g3 2%nat _ p2). cbn [rw_u zero nth].
  split; [do 2 f_equal; ring|]. split; do 2 f_equal; ring.
Qed.
