(** * Properties of the results that the scripts write (C122) *)

From Coq Require Import Reals String List Bool ZArith Arith Lia Lra.
From Verif Require Import Num PyBase Model_Geometry Model_System Model_Element Model_Moving Model_Accumulation Model_Mesh Model_Batch Model_Run Model_CoupledRun Model_DemoResults
  Spec_Geometry Spec_System Spec_Element Spec_Run Spec_CoupledRun Spec_DemoResults
  Proofs_Elements Proofs_System Proofs_Element Proofs_Accumulation Proofs_Force Proofs_Mesh Proofs_Run Proofs_CoupledRun Props_Run Props_Force Props_Mesh Props_Batch Props_CoupledRun.
Import ListNotations.
Local Open Scope R_scope.

(** ** slices and rows *)

Lemma every_from_spec {A} (k : nat) : (1 <= k)%nat -> forall (l : list A) s j, nth_error (every_from k s l) j = nth_error l (s + j * k)%nat.
Proof.
  intros hk. induction l as [|x l IH]; intros s j; [cbn [every_from]; destruct j, (s + _)%nat; reflexivity|]. cbn [every_from]. destruct s as [|s].
  - destruct j as [|j]; [reflexivity|]. cbn [nth_error]. rewrite IH. replace (0 + S j * k)%nat with (S ((k - 1) + j * k)) by (cbn; lia). reflexivity.
  - rewrite IH. reflexivity.
Qed.
Lemma every_spec {A} k (l q : list A) : every k l = Ok q -> (1 <= k)%nat /\ forall j, nth_error q j = nth_error l (j * k)%nat.
Proof.
  unfold every. destruct (Nat.eqb_spec k 0) as [->|hk]; [discriminate|]. intros h. injection h as <-. split; [lia|]. intros j. rewrite every_from_spec by lia. reflexivity.
Qed.

Lemma mapr_at {A B} (f : A -> res B) l out j : mapr f l = Ok out ->
  match nth_error l j with Some a => exists b, nth_error out j = Some b /\ f a = Ok b | None => nth_error out j = None end.
Proof.
  intros h. apply mapr_spec in h. revert j. induction h as [|a b l out hab h IH]; intros j; [destruct j; reflexivity|].
  destruct j as [|j]; [cbn; eauto|]. exact (IH j).
Qed.

Lemma column_shows k d (rows : list (list R)) row : column k d rows = Ok row -> shows k d rows row.
Proof.
  unfold column. intros h. apply rbind_ok in h. destruct h as [q [hq h]]. apply every_spec in hq. destruct hq as [_ hq]. intros t. pose proof (mapr_at _ _ _ t h) as m.
  rewrite hq in m. destruct (nth_error rows (t * k)) as [x|]; [|exact m]. destruct m as [b [m1 m2]]. apply at_idx_ok in m2. eauto.
Qed.

Lemma vertical_rows k pick results nodes rows : @vertical_of R k pick results nodes = Ok rows -> node_rows k pick results nodes rows.
Proof.
  unfold vertical_of. intros h. split; [exact (mapr_length _ _ _ h)|]. intros j i hj. pose proof (mapr_at _ _ _ j h) as m. rewrite hj in m. destruct m as [row [m1 m2]].
  apply rbind_ok in m2. destruct m2 as [l [m2 m3]]. apply at_idx_ok in m2. apply column_shows in m3. eauto 6.
Qed.
Lemma force_rows k d forces els rows : @force_of R k d forces els = Ok rows -> element_rows k d forces els rows.
Proof.
  unfold force_of. intros h. split; [exact (mapr_length _ _ _ h)|]. intros j e hj. pose proof (mapr_at _ _ _ j h) as m. rewrite hj in m. destruct m as [row [m1 m2]].
  apply rbind_ok in m2. destruct m2 as [o [m2 m3]]. apply at_idx_ok in m2. destruct o as [f|]; [|discriminate]. apply column_shows in m3. eauto 6.
Qed.
Lemma places_rows track nodes xs : @places_of R track nodes = Ok xs -> node_places track nodes xs.
Proof.
  unfold places_of. intros h. split; [exact (mapr_length _ _ _ h)|]. intros j i hj. pose proof (mapr_at _ _ _ j h) as m. rewrite hj in m. destruct m as [x [m1 m2]].
  apply rbind_ok in m2. destruct m2 as [n [m2 m3]]. apply at_idx_ok in m2. injection m3 as <-. eauto.
Qed.

Lemma series_ok k times track ps soil c w : write_series k times track ps soil c = Ok w ->
  exists q tv, soil = Ok q /\ times = Ok tv /\ wr_time w = fst tv /\ wr_velocity w = snd tv /\ series_of k track ps (fst q) (snd q) c w.
Proof.
  unfold write_series. intros h. apply rbind_ok in h. destruct h as [rail [a1 h]]. apply rbind_ok in h. destruct h as [u1 [a2 h]]. apply rbind_ok in h. destruct h as [f1 [a3 h]].
  apply rbind_ok in h. destruct h as [x1 [a4 h]]. apply rbind_ok in h. destruct h as [pad [b1 h]]. apply rbind_ok in h. destruct h as [u2 [b2 h]]. apply rbind_ok in h. destruct h as [f2 [b3 h]].
  apply rbind_ok in h. destruct h as [x2 [b4 h]]. apply rbind_ok in h. destruct h as [sleeper [c1 h]]. apply rbind_ok in h. destruct h as [u3 [c2 h]]. apply rbind_ok in h. destruct h as [q [d1 h]].
  apply rbind_ok in h. destruct h as [u4 [d2 h]]. apply rbind_ok in h. destruct h as [f4 [d3 h]]. apply rbind_ok in h. destruct h as [x4 [d4 h]]. apply rbind_ok in h. destruct h as [u5 [e1 h]].
  apply rbind_ok in h. destruct h as [f5 [e2 h]]. apply rbind_ok in h. destruct h as [tv [e3 h]]. injection h as <-. apply at_idx_ok in a1, b1, c1.
  exists q, tv. split; [exact d1|]. split; [exact e3|]. split; [reflexivity|]. split; [reflexivity|]. exists rail, pad, sleeper.
  cbn [wr_rail_disp wr_rail_force wr_rail_x wr_pad_disp wr_pad_force wr_pad_x wr_sleeper_disp wr_soil_disp wr_soil_force wr_soil_x wr_train_disp wr_train_force].
  repeat (split; [first [assumption|apply vertical_rows; assumption|apply force_rows; assumption|apply places_rows; assumption]|]). apply vertical_rows; assumption.
Qed.

(** C122: what the file of a demonstration run holds.  Every series has a row for each node or element of its part and an entry for each
    output time *)
Theorem C122_demo segment time_out velocities outputs track es ps c s file w ids m :
  demo_write_results segment time_out velocities outputs track es ps c s = Ok (file, w, ids, m) ->
  file = String.append segment ".pickle" /\ wr_time w = time_out /\ length (wr_velocity w) = length outputs /\
  (forall j i, nth_error outputs j = Some i -> exists v, nth_error velocities i = Some v /\ nth_error (wr_velocity w) j = Some v) /\
  series_of 1 track ps (flat_map w_nodes (filter w_soil ps)) (flat_map w_els (filter w_soil ps)) c w.
Proof.
  unfold demo_write_results. intros h. apply rbind_ok in h. destruct h as [w' [hw h]]. apply rbind_ok in h. destruct h as [m' [hm h]]. injection h as <- <- <- <-.
  apply series_ok in hw. destruct hw as [q [tv [e1 [e2 [e3 [e4 hs]]]]]]. injection e1 as <-. apply rbind_ok in e2. destruct e2 as [v [hv e2]]. injection e2 as <-. cbn [fst snd] in *.
  rewrite e3, e4. split; [reflexivity|]. split; [reflexivity|]. split; [exact (mapr_length _ _ _ hv)|]. split; [|exact hs].
  intros j i hj. pose proof (mapr_at _ _ _ j hv) as g. rewrite hj in g. destruct g as [b [g1 g2]]. apply at_idx_ok in g2. eauto.
Qed.
Print Assumptions C122_demo.

(** C122: what the file of a batch calculation holds: the same of every [interval]-th time, with the soil of the fifth part *)
Theorem C122_batch segment interval time velocities track ps c file w :
  batch_write_results segment interval time velocities track ps c = Ok (file, w) ->
  file = String.append "res_" (String.append segment ".pickle") /\ (1 <= interval)%nat /\
  (forall t, nth_error (wr_time w) t = nth_error time (t * interval)%nat /\ nth_error (wr_velocity w) t = nth_error velocities (t * interval)%nat) /\
  exists soil, nth_error ps 4 = Some soil /\ series_of interval track ps (w_nodes soil) (w_els soil) c w.
Proof.
  unfold batch_write_results. intros h. apply rbind_ok in h. destruct h as [w' [hw h]]. injection h as <- <-.
  apply series_ok in hw. destruct hw as [q [tv [e1 [e2 [e3 [e4 hs]]]]]]. apply rbind_ok in e1. destruct e1 as [soil [g e1]]. injection e1 as <-. apply at_idx_ok in g. cbn [fst snd] in hs.
  apply rbind_ok in e2. destruct e2 as [t' [h1 e2]]. apply rbind_ok in e2. destruct e2 as [v' [h2 e2]]. injection e2 as <-. cbn [fst snd] in *. apply every_spec in h1, h2.
  rewrite e3, e4. split; [reflexivity|]. split; [apply h1|]. split; [intros t; split; [apply h1|apply h2]|]. eauto.
Qed.
Print Assumptions C122_batch.

(** ** the run behind the file *)

Lemma rows_of_run track train es c : is_run track train es c -> forall k nodes rows, node_rows k nd_u (cr_track c) nodes rows ->
  length rows = length nodes /\ forall j i n, nth_error nodes j = Some i -> nth_error track i = Some n ->
    exists row, nth_error rows j = Some row /\ course k (cr_rows c) (vertical_at n) row.
Proof.
  intros [kind [dynamic [static [time [memory [rows0 [hk [h2 [hl [hne [f1 [f2 h]]]]]]]]]]]] k nodes rows [hlen hrow]. split; [exact hlen|]. intros j i n hj hi.
  destruct (hrow j i hj) as [l [row [e1 [e2 e3]]]]. exists row. split; [exact e2|]. intros t. specialize (e3 t).
  destruct (C118_nodes _ _ _ _ _ _ _ _ _ _ hk h2 hl hne f1 f2 h) as [r1 [_ [_ [_ [_ [r4 _]]]]]]. rewrite nth_error_map in e3.
  destruct (nth_error (cr_rows c) (t * k)) as [r|] eqn:er.
  - destruct (r4 i n _ r hi er) as [l' [x [g1 [_ [g3 [u [v [a [f [-> g4]]]]]]]]]]. rewrite e1 in g1. injection g1 as <-. rewrite g3 in e3. cbn [option_map nd_u] in e3.
    destruct e3 as [y [e3 e4]]. rewrite e3. cbn [option_map]. f_equal. specialize (g4 DY). unfold vertical_at. destruct u as [u1 u2 u3]. cbn in e4. injection e4 as <-. cbn [tget ty] in g4 |- *.
    destruct (ty (n_dof n)); apply g4.
  - destruct (nth_error l (t * k)) as [x|] eqn:ex; [|exact e3]. exfalso. assert (hlt : (0 < length (cr_rows c))%nat) by lia.
    destruct (cr_rows c) as [|r0 rest] eqn:ec; [cbn in hlt; lia|]. rewrite <- ec in *. destruct (r4 i n 0%nat r0 hi) as [l' [_ [g1 [g2 _]]]]; [rewrite ec; reflexivity|].
    rewrite e1 in g1. injection g1 as <-. apply nth_error_None in er. assert (t * k < length l)%nat by (apply nth_error_Some; congruence). lia.
Qed.

(** C122: each displacement row is the history of the vertical direction of its node: the entry of the node's number in the displacements of
    the solver, at every output time, and zero for a node without number *)
Theorem C122_histories track train es c k ps sn se w : is_run track train es c -> series_of k track ps sn se c w ->
  exists rail pad sleeper, nth_error ps 0 = Some rail /\ nth_error ps 1 = Some pad /\ nth_error ps 2 = Some sleeper /\
  forall nodes rows, In (nodes, rows) [(w_nodes rail, wr_rail_disp w); (w_nodes pad, wr_pad_disp w); (w_nodes sleeper, wr_sleeper_disp w); (sn, wr_soil_disp w)] ->
    length rows = length nodes /\ forall j i n, nth_error nodes j = Some i -> nth_error track i = Some n ->
      exists row, nth_error rows j = Some row /\ course k (cr_rows c) (vertical_at n) row.
Proof.
  intros hr [rail [pad [sleeper [e1 [e2 [e3 [a1 [_ [_ [b1 [_ [_ [c1 [d1 _]]]]]]]]]]]]]]. exists rail, pad, sleeper. split; [exact e1|]. split; [exact e2|]. split; [exact e3|].
  intros nodes rows hin. apply (rows_of_run _ _ _ _ hr). destruct hin as [h|[h|[h|[h|[]]]]]; injection h as <- <-; assumption.
Qed.
Print Assumptions C122_histories.

(** C122 does not hold for the rail pads: they have an axial force only, and it is the second component that is written.  Whatever the run,
    the written forces of the pads are zero *)
Theorem C122_pads_refuted track train es c k ps sn se w pad j e el i1 i2 a rot row : is_run track train es c -> series_of k track ps sn se c w ->
  nth_error ps 1 = Some pad -> nth_error (w_els pad) j = Some e -> nth_error es e = Some el -> carries_force el i1 i2 a (T3 true false false) rot ->
  nth_error (wr_pad_force w) j = Some row -> Forall (fun v => v = 0) row.
Proof.
  intros [kind [dynamic [static [time [memory [rows0 [hk [h2 [hl [hne [f1 [f2 h]]]]]]]]]]]] hs hp hj he hc hrow.
  destruct hs as [rail [pad' [sleeper [e1 [e2 [e3 [_ [_ [_ [_ [b2 _]]]]]]]]]]]. rewrite hp in e2. injection e2 as <-. destruct b2 as [_ b2]. destruct (b2 j e hj) as [f [row' [g1 [g2 g3]]]].
  rewrite hrow in g2. injection g2 as <-. destruct (C118_forces _ _ _ _ _ _ _ _ _ _ _ _ hk h2 hl hne f1 f2 h he) as [_ [hfs _]]. destruct (hfs _ _ _ _ _ hc) as [fs [q1 [q2 q3]]].
  rewrite q1 in g1. injection g1 as <-. apply Forall_forall. intros v hv. apply In_nth_error in hv. destruct hv as [t ht]. specialize (g3 t). destruct (nth_error fs (t * k)) as [x|] eqn:ex; [|congruence].
  destruct g3 as [v' [g3 g4]]. rewrite ht in g3. injection g3 as <-. assert (hlt : (t * k < length time)%nat) by (rewrite <- q2; apply nth_error_Some; congruence).
  destruct (q3 _ hlt) as [u [u' [f' [_ [_ [q4 [_ [q5 _]]]]]]]]. rewrite ex in q4. injection q4 as ->. destruct f' as [fx fy fr]. cbn in g4, q5. congruence.
Qed.
Print Assumptions C122_pads_refuted.

(** ** the soil *)

Lemma soils_laid es soils elss : Forall2 (laid_out es) soils elss ->
  flat_map w_nodes soils = flat_map (fun e => [fst e; snd e]) (concat elss) /\
  Forall2 (fun k e => exists m, nth_error es k = Some m /\ ml_nodes m = [fst e; snd e]) (flat_map w_els soils) (concat elss).
Proof.
  induction 1 as [|p els soils elss [h1 h2] h [IH1 IH2]]; [split; [reflexivity|constructor]|]. cbn [flat_map concat]. rewrite flat_map_app, h1, IH1. split; [reflexivity|].
  apply Forall2_app; assumption.
Qed.
Lemma ends_at (els : list (nat * nat)) i : nth_error (flat_map (fun e => [fst e; snd e]) els) (2 * i) = option_map fst (nth_error els i) /\
  nth_error (flat_map (fun e => [fst e; snd e]) els) (2 * i + 1) = option_map snd (nth_error els i) /\ length (flat_map (fun e => [fst e; snd e]) els) = (2 * length els)%nat.
Proof.
  revert i. induction els as [|e els IH]; intros i; [destruct i; cbn; auto|]. destruct (IH (i - 1)%nat) as [a [b c]]. cbn [flat_map app length]. rewrite c. destruct i as [|i]; [split; [reflexivity|split; [reflexivity|lia]]|].
  replace (S i - 1)%nat with i in a, b by lia. replace (2 * S i)%nat with (S (S (2 * i))) by lia. cbn [nth_error Nat.add]. rewrite a, b. split; [reflexivity|split; [reflexivity|lia]].
Qed.
Lemma forall2_at {A B} (P : A -> B -> Prop) l m i b : Forall2 P l m -> nth_error m i = Some b -> exists a, nth_error l i = Some a /\ P a b.
Proof. intros h. revert i. induction h as [|x y l m hxy h IH]; intros i hi; [destruct i; discriminate|]. destruct i as [|i]; [injection hi as <-; exists x; auto|]. exact (IH i hi). Qed.

(** C122: the soil of tracks from the mesh generator.  Its displacements have two rows for each soil element, first that of the sleeper and
    then that of the fixed bottom, which is zero; its forces have one row for each element, the stiffness times the displacement of the
    sleeper *)
Theorem C122_soil track train es c k soils elss ps w i e q top bottom ks : is_run track train es c -> Forall2 (laid_out es) soils elss ->
  series_of k track ps (flat_map w_nodes soils) (flat_map w_els soils) c w ->
  nth_error (concat elss) i = Some e -> nth_error (flat_map w_els soils) i = Some q -> soil_spring track es q e top bottom ks ->
  length (wr_soil_disp w) = (2 * length (concat elss))%nat /\ length (wr_soil_force w) = length (concat elss) /\
  (exists row, nth_error (wr_soil_disp w) (2 * i) = Some row /\ course k (cr_rows c) (vertical_at top) row) /\
  (exists row, nth_error (wr_soil_disp w) (2 * i + 1) = Some row /\ course k (cr_rows c) (fun _ => 0) row) /\
  (exists row, nth_error (wr_soil_force w) i = Some row /\ course k (cr_rows c) (fun r => ks * vertical_at top r) row) /\
  nth_error (wr_soil_x w) (2 * i) = Some (tx (n_coord top)) /\ nth_error (wr_soil_x w) (2 * i + 1) = Some (tx (n_coord bottom)).
Proof.
  intros hr hl hs hi hq [el [m [spans [n [s1 [s2 [s3 [s4 [s5 [s6 [s7 [s8 s9]]]]]]]]]]]]. destruct (soils_laid _ _ _ hl) as [l1 l2]. pose proof hs as hs'.
  destruct hs as [rail [pad [sleeper [e1 [e2 [e3 [_ [_ [_ [_ [_ [_ [_ [d1 [d2 [d3 _]]]]]]]]]]]]]]]].
  destruct (ends_at (concat elss) i) as [n1 [n2 n3]]. rewrite hi in n1, n2. cbn [option_map] in n1, n2. rewrite <- l1 in n1, n2, n3.
  destruct (rows_of_run _ _ _ _ hr _ _ _ d1) as [g1 g2]. rewrite g1. split; [exact n3|].
  destruct d2 as [q1 q2]. rewrite q1. split; [symmetry; exact (forall2_length _ _ _ l2)|]. split; [exact (g2 _ _ _ n1 s6)|]. split.
  { destruct (g2 _ _ _ n2 s7) as [row [r1 r2]]. exists row. split; [exact r1|]. intros t. rewrite r2. destruct (nth_error (cr_rows c) (t * k)); [|reflexivity]. cbn [option_map]. unfold vertical_at. rewrite s9. reflexivity. }
  destruct d3 as [_ d3]. destruct (d3 _ _ n1) as [n' [x1 x2]]. destruct (d3 _ _ n2) as [n'' [x3 x4]]. rewrite s6 in x1. rewrite s7 in x3. injection x1 as <-. injection x3 as <-. split; [|split; assumption].
  destruct (q2 _ _ hq) as [f [row [f1 [f2 f3]]]]. exists row. split; [exact f2|].
  destruct hr as [kind [dynamic [static [time [memory [rows0 [hk [h2 [hlen [hne [ff1 [ff2 h]]]]]]]]]]]].
  destruct (C118_soil _ _ _ _ _ _ _ _ _ _ _ _ _ _ _ _ _ _ _ _ hk h2 hlen ff1 ff2 h s1 s2 s3 s4 s5 s6 s7 s8 s9) as [fs [p1 [p2 p3]]]. rewrite p1 in f1. injection f1 as <-.
  destruct (C118_nodes _ _ _ _ _ _ _ _ _ _ hk h2 hlen hne ff1 ff2 h) as [r1 _].
  intros t. specialize (f3 t). destruct (nth_error (cr_rows c) (t * k)) as [r|] eqn:er.
  - rewrite (p3 _ _ er) in f3. destruct f3 as [v [f3 f4]]. cbn [nth_error] in f4. injection f4 as <-. rewrite f3. cbn [option_map]. unfold vertical_at. rewrite s8. reflexivity.
  - destruct (nth_error fs (t * k)) as [x|] eqn:ex; [|exact f3]. exfalso. apply nth_error_None in er. assert (t * k < length fs)%nat by (apply nth_error_Some; congruence). lia.
Qed.
Print Assumptions C122_soil.

(** the generated soil is laid out like this *)
Theorem C122_generated h base n (d depth : R) r : (1 <= r)%nat -> 1 / 1000000000 < d / INR r -> 1 / 1000000000 < depth ->
  exists t, create_horizontal_track h base n d depth r = Ok t /\ length (tk_soil_els t) = n /\
  forall i, (i < n)%nat -> exists s b, nth_error (tk_sleepers t) i = Some s /\ nth_error (tk_soil_els t) i = Some (s, b) /\
    nth_error (tk_soil_nodes t) (2 * i) = Some s /\ nth_error (tk_soil_nodes t) (2 * i + 1) = Some b.
Proof.
  intros hr hd hdep. destruct (C51_horizontal_track h base n d depth r hr hd hdep) as [t [ht [_ [_ [_ [_ [s1 [_ [_ [_ [_ [s2 [s3 [s4 _]]]]]]]]]]]]]]. exists t. split; [exact ht|]. split; [exact s2|].
  intros i hi. destruct (s3 i hi) as [b [h1 _]]. exists (nth i (tk_sleepers t) 0%nat), b. destruct (ends_at (tk_soil_els t) i) as [n1 [n2 _]]. rewrite s4, n1, n2, h1.
  split; [apply nth_error_nth'; lia|]. auto.
Qed.
Print Assumptions C122_generated.

(** ** the dynamic stiffness computed from the file *)

Lemma nth_error_ext' {A} (l m : list A) : (forall i, nth_error l i = nth_error m i) -> l = m.
Proof.
  revert m. induction l as [|a l IH]; intros [|b m] h; [reflexivity|specialize (h 0%nat); discriminate|specialize (h 0%nat); discriminate|].
  f_equal; [specialize (h 0%nat); injection h as ->; reflexivity|apply IH; intros i; exact (h (S i))].
Qed.
Lemma course_scaled k solver f a row row' : course k solver f row -> course k solver (fun r => a * f r) row' -> row' = map (fun x => a * x) row.
Proof. intros h h'. apply nth_error_ext'. intros t. rewrite nth_error_map, h, h'. destruct (nth_error solver (t * k)); reflexivity. Qed.
Lemma course_zero k solver row : course k solver (fun _ => 0) row -> Forall (fun x => x = 0) row.
Proof. intros h. apply Forall_forall. intros x hx. apply In_nth_error in hx. destruct hx as [t ht]. rewrite h in ht. destruct (nth_error solver (t * k)); [cbn in ht; congruence|discriminate]. Qed.
Lemma run_rows track train es c : is_run track train es c -> exists r rest, cr_rows c = r :: rest.
Proof.
  intros [kind [dynamic [static [time [memory [rows0 [hk [h2 [hl [hne [f1 [f2 h]]]]]]]]]]]]. destruct (C118_nodes _ _ _ _ _ _ _ _ _ _ hk h2 hl hne f1 f2 h) as [r1 _].
  destruct (cr_rows c) as [|r rest]; [cbn in r1; lia|eauto].
Qed.
Lemma scaled_largest a m l : largest m l -> largest (Rabs a * m) (map (fun x => a * x) l).
Proof.
  intros [h1 [x [h2 ->]]]. split; [|exists (a * x); split; [apply in_map_iff; eauto|rewrite Rabs_mult; reflexivity]].
  intros y hy. apply in_map_iff in hy. destruct hy as [z [<- hz]]. rewrite Rabs_mult. apply Rmult_le_compat_l; [apply Rabs_pos|apply h1; exact hz].
Qed.
Lemma largest_unique m m' l : largest m l -> largest m' l -> m = m'.
Proof. intros [h1 [x [h2 ->]]] [h3 [y [h4 ->]]]. apply Rle_antisym; [apply h3; exact h2|apply h1; exact h4]. Qed.

(** C122: taken from the row of a sleeper and from that of the soil element below it, the dynamic stiffness is that of the soil *)
Theorem C122_stiffness track train es c k soils elss ps w i e q top bottom ks u f : is_run track train es c -> Forall2 (laid_out es) soils elss ->
  series_of k track ps (flat_map w_nodes soils) (flat_map w_els soils) c w ->
  nth_error (concat elss) i = Some e -> nth_error (flat_map w_els soils) i = Some q -> soil_spring track es q e top bottom ks ->
  nth_error (wr_soil_disp w) (2 * i) = Some u -> nth_error (wr_soil_force w) i = Some f -> (exists x, In x u /\ x <> 0) ->
  dynamic_stiffness u f = Ok (Some (Rabs ks)).
Proof.
  intros hr hl hs hi hq hsp hu hf hx. destruct (C122_soil _ _ _ _ _ _ _ _ _ _ _ _ _ _ _ hr hl hs hi hq hsp) as [_ [_ [[u' [a1 a2]] [_ [[f' [b1 b2]] _]]]]].
  rewrite hu in a1. rewrite hf in b1. injection a1 as <-. injection b1 as <-. rewrite (course_scaled _ _ _ _ _ _ a2 b2). apply C95_spring. exact hx.
Qed.
Print Assumptions C122_stiffness.

(** C122 does not hold for the dynamic stiffness as the post processing takes it, both rows with the same number: with an odd number it is
    not a number, because the row is that of a bottom node; with an even number it compares two different sleepers, and is right only
    when both have the same largest displacement; and above the number of soil elements there is no force *)
Theorem C122_same_row_refuted track train es c k soils elss ps w i e q top bottom ks u : is_run track train es c -> Forall2 (laid_out es) soils elss ->
  series_of k track ps (flat_map w_nodes soils) (flat_map w_els soils) c w ->
  nth_error (concat elss) i = Some e -> nth_error (flat_map w_els soils) i = Some q -> soil_spring track es q e top bottom ks ->
  (forall f, nth_error (wr_soil_disp w) (2 * i + 1) = Some u -> f <> [] -> dynamic_stiffness u f = Ok None) /\
  (forall e' q' top' bottom' f v, nth_error (wr_soil_disp w) (2 * i) = Some u -> nth_error (wr_soil_force w) (2 * i) = Some f ->
     nth_error (concat elss) (2 * i) = Some e' -> nth_error (flat_map w_els soils) (2 * i) = Some q' -> soil_spring track es q' e' top' bottom' ks -> ks <> 0 ->
     dynamic_stiffness u f = Ok (Some v) ->
     exists u' a b, nth_error (wr_soil_disp w) (2 * (2 * i)) = Some u' /\ largest a u /\ largest b u' /\ v = Rabs ks * b / a /\ (v = Rabs ks <-> a = b)) /\
  (forall row, (length (concat elss) <= row)%nat -> nth_error (wr_soil_force w) row = None).
Proof.
  intros hr hl hs hi hq hsp. destruct (C122_soil _ _ _ _ _ _ _ _ _ _ _ _ _ _ _ hr hl hs hi hq hsp) as [l1 [l2 [[u1 [a1 a2]] [[u2 [z1 z2]] [[f1 [b1 b2]] _]]]]]. split; [|split].
  - intros f hu hf. rewrite hu in z1. injection z1 as <-. pose proof (course_zero _ _ _ z2) as hz. destruct (run_rows _ _ _ _ hr) as [r [rest hrr]]. specialize (z2 0%nat). rewrite hrr in z2. cbn in z2.
    destruct u as [|x u]; [discriminate|]. destruct f as [|y f]; [congruence|]. unfold dynamic_stiffness. destruct (max_abs (x :: u)) as [m|] eqn:em; [|discriminate]. destruct (max_abs (y :: f)) as [m'|] eqn:em'; [|discriminate].
    cbn [rbind]. apply max_abs_spec in em. destruct em as [_ [x0 [h1 ->]]]. rewrite Forall_forall in hz. rewrite (hz x0 h1), Rabs_R0.
    destruct (neqbP 0 (lit 0)) as [_|n]; [reflexivity|]. exfalso. apply n. reflexivity.
  - intros e' q' top' bottom' f v hu hf hi' hq' hsp' hks hv. destruct (C122_soil _ _ _ _ _ _ _ _ _ _ _ _ _ _ _ hr hl hs hi' hq' hsp') as [_ [_ [[u' [a1' a2']] [_ [[f' [b1' b2']] _]]]]].
    rewrite hf in b1'. injection b1' as <-. rewrite hu in a1. injection a1 as <-. rewrite (course_scaled _ _ _ _ _ _ a2' b2') in hv. exists u'.
    unfold dynamic_stiffness in hv. apply rbind_ok in hv. destruct hv as [a [ha hv]]. apply rbind_ok in hv. destruct hv as [b' [hb hv]]. destruct (neqbP a (lit 0)) as [n|n]; [discriminate|]. injection hv as <-.
    change (@lit R RNum 0) with 0 in n. assert (hb' : exists b, largest b u').
    { destruct (max_abs u') as [b|] eqn:eb; [exists b; exact (max_abs_spec _ _ eb)|]. destruct u'; [discriminate hb|discriminate]. }
    destruct hb' as [b hb']. apply max_abs_spec in ha, hb. pose proof (largest_unique _ _ _ hb (scaled_largest ks b u' hb')) as ->. exists a, b.
    split; [exact a1'|]. split; [exact ha|]. split; [exact hb'|]. split; [rnum; reflexivity|]. rnum. pose proof (Rabs_no_R0 ks hks) as hk.
    split; [intros h; apply (Rmult_eq_reg_l (Rabs ks)); [|exact hk]; rewrite <- h at 1; field; exact n|intros ->; field; exact n].
  - intros row h. apply nth_error_None. lia.
Qed.
Print Assumptions C122_same_row_refuted.

(** ** the soil part of each element *)

Lemma soil_ids_filter ps : forall id, @soil_ids R id ps = flat_map (fun p => repeat (fst p) (length (w_els (snd p)))) (combine (seq id (length (filter w_soil ps))) (filter w_soil ps)).
Proof.
  induction ps as [|p ps IH]; intros id; [reflexivity|]. cbn [soil_ids filter]. destruct (w_soil p); [|apply IH]. cbn [length seq combine flat_map fst snd]. rewrite IH. reflexivity.
Qed.

(** C122: entry [j] of the soil numbers is the number of the soil part that the element of row [j] of the forces is in *)
Theorem C122_numbers segment time_out velocities outputs track es ps c s file w ids m :
  demo_write_results segment time_out velocities outputs track es ps c s = Ok (file, w, ids, m) -> let soils := filter w_soil ps in
  length ids = length (wr_soil_force w) /\
  forall id p i e, nth_error soils id = Some p -> nth_error (w_els p) i = Some e ->
    nth_error ids (elements_before soils id + i) = Some id /\ nth_error (flat_map w_els soils) (elements_before soils id + i) = Some e.
Proof.
  intros h soils. destruct (C122_demo _ _ _ _ _ _ _ _ _ _ _ _ _ h) as [_ [_ [_ [_ hs]]]]. unfold demo_write_results in h. apply rbind_ok in h. destruct h as [w' [_ h]]. apply rbind_ok in h. destruct h as [m' [_ h]]. injection h as _ <- <- _.
  destruct hs as [rail [pad [sleeper [_ [_ [_ [_ [_ [_ [_ [_ [_ [_ [_ [[hf _] _]]]]]]]]]]]]]]]. rewrite hf. rewrite soil_ids_filter. fold soils. clear -soils. clearbody soils.
  assert (gen : forall b, length (flat_map (fun p => repeat (fst p) (length (w_els (snd p)))) (combine (seq b (length soils)) soils)) = length (flat_map w_els soils) /\
    forall id p i e, nth_error soils id = Some p -> nth_error (w_els p) i = Some e ->
      nth_error (flat_map (fun p => repeat (fst p) (length (w_els (snd p)))) (combine (seq b (length soils)) soils)) (elements_before soils id + i) = Some (b + id)%nat /\
      nth_error (flat_map w_els soils) (elements_before soils id + i) = Some e); [|exact (gen 0%nat)].
  induction soils as [|a soils IH]; intros b; [split; [reflexivity|intros [|id] p i e hp; discriminate]|]. destruct (IH (S b)) as [i1 i2]. cbn [length seq combine flat_map fst snd]. rewrite !app_length, repeat_length, i1.
  split; [reflexivity|]. intros id p i e hp he. destruct id as [|id].
  - injection hp as <-. unfold elements_before. cbn [firstn flat_map length Nat.add]. assert (hlt : (i < length (w_els a))%nat) by (apply nth_error_Some; congruence).
    rewrite !nth_error_app1 by (rewrite ?repeat_length; exact hlt). split; [|exact he]. rewrite (nth_error_nth' _ b) by (rewrite repeat_length; exact hlt). rewrite nth_repeat. f_equal. lia.
  - destruct (i2 id p i e hp he) as [j1 j2]. unfold elements_before in *. cbn [firstn flat_map]. rewrite app_length.
    rewrite !nth_error_app2 by (rewrite ?repeat_length; lia). rewrite repeat_length. replace (length (w_els a) + length (flat_map w_els (firstn id soils)) + i - length (w_els a))%nat with (length (flat_map w_els (firstn id soils)) + i)%nat by lia.
    split; [rewrite j1; f_equal; lia|exact j2].
Qed.
Print Assumptions C122_numbers.

(** ** writing ends *)

Lemma column_ok k d (rows : list (list R)) : (1 <= k)%nat -> (forall x, In x rows -> (d < length x)%nat) -> exists row, column k d rows = Ok row.
Proof.
  intros hk h. unfold column, every. destruct (Nat.eqb_spec k 0); [lia|]. cbn [rbind]. apply (mapr_ok _ _ []). intros i hi. destruct (nth_error (every_from k 0 rows) i) as [x|] eqn:ex; [|apply nth_error_None in ex; lia].
  rewrite (nth_error_nth _ _ _ ex). rewrite every_from_spec in ex by exact hk. apply nth_error_In in ex. specialize (h x ex). destruct (nth_error x d) as [y|] eqn:ey; [|apply nth_error_None in ey; lia].
  exists y. apply at_idx_ok. exact ey.
Qed.

(** C122: with every part in place, nodes of the track and elements with a force, the results are written *)
Theorem C122_ends track train es c k times rail pad sleeper rest ps sn se : is_run track train es c -> (1 <= k)%nat -> ps = rail :: pad :: sleeper :: rest ->
  (forall i, In i (w_nodes rail ++ w_nodes pad ++ w_nodes sleeper ++ sn) -> (i < length track)%nat) ->
  (forall e, In e (w_els rail ++ w_els pad ++ se) -> exists el i j a mask rot, nth_error es e = Some el /\ carries_force el i j a mask rot) ->
  exists w, write_series k (Ok times) track ps (Ok (sn, se)) c = Ok w.
Proof.
  intros [kind [dynamic [static [time [memory [rows0 [hk [h2 [hl [hne [f1 [f2 h]]]]]]]]]]]] k1 -> hn he.
  destruct (C118_nodes _ _ _ _ _ _ _ _ _ _ hk h2 hl hne f1 f2 h) as [r1 [_ [_ [r2 [r3 [r4 r5]]]]]].
  assert (vert : forall (pick : nodal R -> list R) (nodes0 : list (node R)) results nodes, pick = nd_u \/ pick = nd_f -> length results = length nodes0 ->
    (forall p n t r, nth_error nodes0 p = Some n -> nth_error (cr_rows c) t = Some r ->
       exists l x, nth_error results p = Some l /\ length l = length time /\ nth_error l t = Some x /\ agrees_with_row n r x) ->
    (forall i, In i nodes -> (i < length nodes0)%nat) -> exists rows, vertical_of k pick results nodes = Ok rows).
  { intros pick nodes0 results nodes hpick hlen hres hin. unfold vertical_of. apply (mapr_ok _ _ 0%nat). intros i hi. pose proof (hin _ (nth_In nodes 0%nat hi)) as hlt. set (p := nth i nodes 0%nat) in *.
    destruct (nth_error nodes0 p) as [n|] eqn:en; [|apply nth_error_None in en; lia]. destruct (nth_error results p) as [l|] eqn:el; [|apply nth_error_None in el; lia].
    unfold at_idx. rewrite el. cbn [rbind]. apply column_ok; [exact k1|]. intros x hx. apply in_map_iff in hx. destruct hx as [y [<- hy]]. apply In_nth_error in hy. destruct hy as [t ht].
    assert (hr0 : exists r, nth_error (cr_rows c) 0 = Some r) by (destruct (cr_rows c); [cbn in r1; lia|eexists; reflexivity]). destruct hr0 as [r0 hr0].
    destruct (hres p n 0%nat r0 en hr0) as [l' [_ [g1 [g2 _]]]]. rewrite el in g1. injection g1 as <-. assert (htl : (t < length l)%nat) by (apply nth_error_Some; congruence).
    destruct (nth_error (cr_rows c) t) as [r|] eqn:er; [|apply nth_error_None in er; lia].
    destruct (hres p n t r en er) as [l' [x [g1' [_ [g3 [u [v [a [f [-> _]]]]]]]]]]. rewrite el in g1'. injection g1' as <-. rewrite ht in g3. injection g3 as ->.
    destruct hpick as [-> | ->]; destruct u, f; cbn; lia. }
  assert (frc : forall d els, (d < 3)%nat -> (forall e, In e els -> In e (w_els rail ++ w_els pad ++ se)) -> exists rows, force_of k d (cr_forces c) els = Ok rows).
  { intros d els hd hin. unfold force_of. apply (mapr_ok _ _ 0%nat). intros i hi. pose proof (hin _ (nth_In els 0%nat hi)) as hlt. set (e := nth i els 0%nat) in *. destruct (he e hlt) as [el [a1 [a2 [a [mask [rot [he1 hc]]]]]]].
    destruct (C118_forces _ _ _ _ _ _ _ _ _ _ _ _ hk h2 hl hne f1 f2 h he1) as [_ [hfs _]]. destruct (hfs _ _ _ _ _ hc) as [fs [q1 [q2 q3]]]. unfold at_idx. rewrite q1. cbn [rbind].
    apply column_ok; [exact k1|]. intros x hx. apply In_nth_error in hx. destruct hx as [t ht]. assert (htl : (t < length time)%nat) by (rewrite <- q2; apply nth_error_Some; congruence).
    destruct (q3 t htl) as [u [v [f [_ [_ [q4 _]]]]]]. rewrite ht in q4. injection q4 as ->. destruct f. cbn. lia. }
  assert (plc : forall nodes, (forall i, In i nodes -> (i < length track)%nat) -> exists xs, places_of track nodes = Ok xs).
  { intros nodes hin. unfold places_of. apply (mapr_ok _ _ 0%nat). intros i hi. pose proof (hin _ (nth_In nodes 0%nat hi)) as hlt. unfold at_idx. destruct (nth_error track (nth i nodes 0%nat)) as [n|] eqn:en; [|apply nth_error_None in en; lia].
    cbn [rbind]. eauto. }
  assert (m1 : forall i, In i (w_nodes rail) -> (i < length track)%nat) by (intros; apply hn; rewrite !in_app_iff; auto).
  assert (m2 : forall i, In i (w_nodes pad) -> (i < length track)%nat) by (intros; apply hn; rewrite !in_app_iff; auto).
  assert (m3 : forall i, In i (w_nodes sleeper) -> (i < length track)%nat) by (intros; apply hn; rewrite !in_app_iff; auto).
  assert (m4 : forall i, In i sn -> (i < length track)%nat) by (intros; apply hn; rewrite !in_app_iff; auto).
  assert (m5 : forall i, In i (seq 0 (length (cr_train c))) -> (i < length train)%nat) by (intros i hi; apply in_seq in hi; lia).
  destruct (vert nd_u track (cr_track c) (w_nodes rail) (or_introl eq_refl) r2 r4 m1) as [u1 a1]. destruct (vert nd_u track (cr_track c) (w_nodes pad) (or_introl eq_refl) r2 r4 m2) as [u2 a2].
  destruct (vert nd_u track (cr_track c) (w_nodes sleeper) (or_introl eq_refl) r2 r4 m3) as [u3 a3]. destruct (vert nd_u track (cr_track c) sn (or_introl eq_refl) r2 r4 m4) as [u4 a4].
  destruct (vert nd_u train (cr_train c) _ (or_introl eq_refl) r3 r5 m5) as [u5 a5]. destruct (vert nd_f train (cr_train c) _ (or_intror eq_refl) r3 r5 m5) as [u6 a6].
  destruct (frc 1%nat (w_els rail) ltac:(lia)) as [v1 b1]; [intros; rewrite !in_app_iff; auto|]. destruct (frc 1%nat (w_els pad) ltac:(lia)) as [v2 b2]; [intros; rewrite !in_app_iff; auto|].
  destruct (frc 0%nat se ltac:(lia)) as [v4 b4]; [intros; rewrite !in_app_iff; auto|].
  destruct (plc _ m1) as [x1 c1]. destruct (plc _ m2) as [x2 c2]. destruct (plc _ m4) as [x4 c4].
  unfold write_series, at_idx. cbn [nth_error rbind fst snd]. rewrite a1. cbn [rbind]. rewrite b1. cbn [rbind]. rewrite c1. cbn [rbind]. rewrite a2. cbn [rbind]. rewrite b2. cbn [rbind]. rewrite c2. cbn [rbind].
  rewrite a3. cbn [rbind]. rewrite a4. cbn [rbind]. rewrite b4. cbn [rbind]. rewrite c4. cbn [rbind]. rewrite a5. cbn [rbind]. rewrite a6. cbn [rbind]. eauto.
Qed.
Print Assumptions C122_ends.

(** a rail node on a pad and three sleepers on soil springs of stiffness 5, the last of which moves twice as much as the others.  The results
    of a run are written; in them the pad has no force, and row 2 gives a stiffness of 10 *)
Example C122_case :
  let at_ k y := mkNode 0 None (T3 None (Some k) None) (T3 0 y 0) (T3 false true false) [] : node R in
  let low := mkNode 0 None (T3 None None None) (T3 0 (- 2) 0) (T3 false false false) [] : node R in
  let track := [at_ 0%nat 0; at_ 1%nat (-1); low; at_ 2%nat (-1); low; at_ 3%nat (-1); low] in
  let step := fun (dt : R) (t : nat) (r : row R) => Ok (mkRow [nth 0 (rw_u r) 0 - 3; nth 1 (rw_u r) 0 - 1; nth 2 (rw_u r) 0 - 1; nth 3 (rw_u r) 0 - 2] [0] [0] [0]) : res (row R) in
  let zero := mkRow [0; 0; 0; 0] [0] [0] [0] : row R in
  let spans := [((0, -1), (0, - 2))] in
  exists m, rod_spring (Some 5) = Some m /\
  let rod i j := mkMelem [i; j]%nat [ElementPart (Some (rod_reshaped m)) (T3 true false false) (stored_rotation spans)] in
  let es := [rod 0 1; rod 1 2; rod 3 4; rod 5 6]%nat in
  let soil := mkW true [1; 2; 3; 4; 5; 6]%nat [1; 2; 3]%nat (Some 5) (Some 0) in
  let ps := [mkW false [0]%nat [] None None; mkW false [0; 1]%nat [0]%nat None None; mkW false [1; 3; 5]%nat [] None None; soil] in
  let els := [[(1, 2); (3, 4); (5, 6)]]%nat in
  exists c w, is_run track [] es c /\ write_series 1 (Ok ([], [])) track ps (Ok (flat_map w_nodes [soil], flat_map w_els [soil])) c = Ok w /\
    Forall2 (laid_out es) [soil] els /\ soil_spring track es 2 (3, 4)%nat (at_ 2%nat (-1)) low 5 /\
    exists u f p, nth_error (wr_soil_disp w) 2 = Some u /\ nth_error (wr_soil_force w) 2 = Some f /\ u = [0; -1; -2] /\ f = [0; -10; -20] /\ dynamic_stiffness u f = Ok (Some 10) /\
      nth_error (wr_pad_disp w) 0 = Some [0; -3; -6] /\ nth_error (wr_pad_disp w) 1 = Some [0; -1; -2] /\ nth_error (wr_pad_force w) 0 = Some p /\ Forall (fun v => v = 0) p.
Proof.
  intros at_ low track step zero spans. destruct (rod_spring (Some 5)) as [m|] eqn:hm; [|discriminate]. exists m. split; [reflexivity|]. intros rod es soil ps els.
  assert (hc : forall i j, carries_force (rod i j) i j (rod_reshaped m) (T3 true false false) (stored_rotation spans)) by (intros i j; split; [reflexivity|]; exists [], []; split; [reflexivity|]; intros p []).
  assert (hsp : forall s, In s spans -> fst (fst s) = fst (snd s) /\ snd (snd s) < snd (fst s)) by (intros s [<-|[]]; cbn; lra).
  assert (fl : forall n, In n track -> flags_match n).
  { intros n hn [] ; (destruct hn as [<-|[<-|[<-|[<-|[<-|[<-|[<-|[]]]]]]]]; cbn; split; congruence). }
  destruct (C118_ends Dynamic step step [0; 1; 2] (T3 7 7 7) track [] es [zero; zero; zero]) as [c h].
  { cbn. lia. } { reflexivity. } { discriminate. } { exact fl. } { intros n []. }
  { intros e [<-|[<-|[<-|[<-|[]]]]]; right; eexists _, _, _, _, _; (split; [apply hc|cbn; lia]). }
  { intros _ dt t r. eexists. reflexivity. }
  assert (hr : is_run track [] es c).
  { exists Dynamic, step, step, [0; 1; 2], (T3 7 7 7), [zero; zero; zero]. split; [discriminate|]. split; [cbn; lia|]. split; [reflexivity|]. split; [discriminate|]. split; [exact fl|]. split; [intros n []|exact h]. }
  assert (hlaid : Forall2 (laid_out es) [soil] els).
  { constructor; [|constructor]. split; [reflexivity|]. repeat (constructor; [eexists; split; reflexivity|]). constructor. }
  assert (hspring : forall i j k, nth_error es i = Some (rod j (S j)) -> nth_error track j = Some (at_ k (-1)) -> nth_error track (S j) = Some low -> soil_spring track es i (j, S j) (at_ k (-1)) low 5).
  { intros i j k h1 h2 h3. exists (rod j (S j)), m, spans, k. split; [exact h1|]. split; [exact hm|]. split; [discriminate|]. split; [exact hsp|]. split; [apply hc|]. split; [exact h2|]. split; [exact h3|]. split; reflexivity. }
  destruct (C122_ends track [] es c 1 ([], []) _ _ _ [soil] ps (flat_map w_nodes [soil]) (flat_map w_els [soil]) hr (le_n 1) eq_refl) as [w hw].
  { intros i hi. cbn in hi |- *. repeat destruct hi as [<-|hi]; try lia. }
  { intros e he. cbn in he. destruct he as [<-|[<-|[<-|[<-|[]]]]]; [exists (rod 0 1)%nat|exists (rod 1 2)%nat|exists (rod 3 4)%nat|exists (rod 5 6)%nat]; eexists _, _, _, _, _; (split; [reflexivity|apply hc]). }
  exists c, w. split; [exact hr|]. split; [exact hw|]. split; [exact hlaid|]. split; [apply (hspring 2%nat 3%nat 2%nat); reflexivity|].
  destruct (series_ok _ _ _ _ _ _ _ hw) as [q [tv [e1 [_ [_ [_ hs]]]]]]. injection e1 as <-. cbn [fst snd] in hs.
  destruct (C118_nodes Dynamic step step [0; 1; 2] (T3 7 7 7) track [] es [zero; zero; zero] c ltac:(discriminate) ltac:(cbn; lia) eq_refl ltac:(discriminate) fl ltac:(intros n []) h) as [r1 [r2 [[dt [r3 _]] _]]].
  cbn [length] in r1. change (nth_error [zero; zero; zero] 0) with (Some zero) in r2.
  destruct (r3 0%nat) as [a [b [q1 [q2 q3]]]]; [lia|]. rewrite r2 in q1. injection q1 as <-. injection q3 as <-.
  destruct (r3 1%nat) as [a [b' [p1 [p2 p3]]]]; [lia|]. rewrite q2 in p1. injection p1 as <-. injection p3 as <-.
  assert (p4 : nth_error (cr_rows c) 3 = None) by (apply nth_error_None; lia).
  assert (three : forall g row, course 1 (cr_rows c) g row -> row = [g zero; g (mkRow [0 - 3; 0 - 1; 0 - 1; 0 - 2] [0] [0] [0]); g (mkRow [0 - 3 - 3; 0 - 1 - 1; 0 - 1 - 1; 0 - 2 - 2] [0] [0] [0])]).
  { intros g row hcr. pose proof (hcr 0%nat) as t0. pose proof (hcr 1%nat) as t1. pose proof (hcr 2%nat) as t2. pose proof (hcr 3%nat) as t3. cbn [Nat.mul Nat.add] in t0, t1, t2, t3. rewrite r2 in t0. rewrite q2 in t1. rewrite p2 in t2. rewrite p4 in t3.
    destruct row as [|x0 [|x1 [|x2 [|x3 row]]]]; try discriminate. cbn in t0, t1, t2. injection t0 as ->. injection t1 as ->. injection t2 as ->. reflexivity. }
  destruct (C122_soil _ _ _ _ _ _ _ _ _ 1%nat _ _ _ _ 5 hr hlaid hs eq_refl eq_refl (hspring 2%nat 3%nat 2%nat eq_refl eq_refl eq_refl)) as [_ [_ [[u [u1 u2]] _]]].
  destruct (C122_soil _ _ _ _ _ _ _ _ _ 2%nat _ _ _ _ 5 hr hlaid hs eq_refl eq_refl (hspring 3%nat 5%nat 3%nat eq_refl eq_refl eq_refl)) as [_ [_ [_ [_ [[f [f1 f2]] _]]]]].
  apply three in u2, f2. cbn -[Rplus Rminus Rmult] in u2, f2.
  destruct (C122_histories _ _ _ _ _ _ _ _ _ hr hs) as [rail [pad [sleeper [s1 [s2 [s3 hh]]]]]]. injection s1 as <-. injection s2 as <-. injection s3 as <-.
  destruct (hh _ _ (or_intror (or_introl eq_refl))) as [_ hpad]. destruct (hpad 0%nat 0%nat _ eq_refl eq_refl) as [d0 [d1 d2]]. destruct (hpad 1%nat 1%nat _ eq_refl eq_refl) as [d3 [d4 d5]].
  apply three in d2, d5. cbn -[Rplus Rminus Rmult] in d2, d5.
  assert (hp : exists p, nth_error (wr_pad_force w) 0 = Some p).
  { destruct hs as [rail' [pad' [sleeper' [e1 [e2 [e3 [_ [_ [_ [_ [b2 _]]]]]]]]]]]. injection e2 as <-. destruct b2 as [_ b2]. destruct (b2 0%nat 0%nat eq_refl) as [ff [row [_ [g2 _]]]]. eauto. }
  destruct hp as [p hp]. exists u, f, p. split; [exact u1|]. split; [exact f1|].
  assert (eu : u = [0; -1; -2]) by (rewrite u2; repeat (f_equal; try lra)). assert (ef : f = [0; -10; -20]) by (rewrite f2; repeat (f_equal; try lra)).
  split; [exact eu|]. split; [exact ef|]. split.
  { replace f with (map (fun x => 10 * x) u) by (rewrite eu, ef; cbn [map]; repeat (f_equal; try lra)). rewrite C95_spring; [|rewrite eu; exists (-1); split; [cbn; auto|lra]]. do 2 f_equal. rewrite Rabs_right; lra. }
  split; [rewrite d1, d2; repeat (f_equal; try lra)|]. split; [rewrite d4, d5; repeat (f_equal; try lra)|]. split; [exact hp|].
  exact (C122_pads_refuted track [] es c 1 ps _ _ w (mkW false [0; 1]%nat [0]%nat None None) 0 0 (rod 0%nat 1%nat) _ _ _ _ p hr hs eq_refl eq_refl eq_refl (hc _ _) hp).
Qed.
