(** * The files of the scripts with a hinge in the rail (C129) *)

From Coq Require Import Reals String List Bool ZArith Arith Lia Lra.
From Verif Require Import Num PyBase Model_Geometry Spec_Geometry Proofs_Geometry Model_System Model_Element Model_Moving Model_Accumulation Proofs_Accumulation Model_Run Model_CoupledRun Proofs_CoupledRun Model_DemoResults
  Model_Coupled Model_Mesh Spec_Mesh Proofs_Mesh Proofs_Hinge Proofs_Join Props_Mesh Model_Train Model_Track Model_Hinge Proofs_Dof Spec_Structure Props_Structure Spec_DemoResults Props_DemoResults Spec_Run Spec_CoupledRun Props_CoupledRun Spec_Element Spec_Hinged Props_Hinged Model_SemiRigidResults
  Spec_SemiRigidResults.
Import ListNotations.
Local Open Scope R_scope.

(** ** each node once *)

Section Unique.
  Variable track : list (node R).
  Variable c : heap R.
  Variable nodes : list nat.
  Hypothesis hplace : on_places track c nodes.
  Hypothesis hap : apart c nodes.

  Lemma is_same p q : In p nodes -> In q nodes -> rail_node_is track p q = Nat.eqb p q.
  Proof.
    intros hp hq. unfold rail_node_is. destruct (Nat.eqb_spec p q) as [->|hne]; [reflexivity|]. cbn [orb].
    destruct (hplace p hp) as [a [e1 e2]], (hplace q hq) as [b [e3 e4]]. rewrite e1, e3, e2, e4. destruct (coords_equal (c p) (c q)) eqn:e; [|reflexivity].
    apply coords_equal_spec in e. exfalso. exact (hne (proj2 hap p q hp hq e)).
  Qed.
  Lemma seen_before p l : In p nodes -> incl l nodes -> existsb (rail_node_is track p) l = true <-> In p l.
  Proof.
    intros hp hl. rewrite existsb_exists. split.
    - intros [q [h1 h2]]. rewrite is_same in h2 by auto. apply Nat.eqb_eq in h2. congruence.
    - intros h. exists p. split; [exact h|]. rewrite is_same by auto. apply Nat.eqb_refl.
  Qed.
  (** new nodes are kept *)
  Lemma unique_new l : forall seen rest, incl seen nodes -> incl l nodes -> NoDup (seen ++ l) ->
    unique_by (rail_node_is track) seen (l ++ rest) = l ++ unique_by (rail_node_is track) (seen ++ l) rest.
  Proof.
    induction l as [|p l IH]; intros seen rest hs hl hn; [cbn; rewrite app_nil_r; reflexivity|]. cbn [app unique_by].
    assert (hp : In p nodes) by (apply hl; left; reflexivity). destruct (existsb (rail_node_is track p) seen) eqn:e.
    - apply seen_before in e; [|exact hp|exact hs]. exfalso. apply NoDup_remove_2 in hn. apply hn. apply in_or_app. left. exact e.
    - f_equal. rewrite IH.
      + rewrite <- app_assoc. reflexivity.
      + intros q hq. apply in_app_or in hq. destruct hq as [hq|[<-|[]]]; auto.
      + intros q hq. apply hl. right. exact hq.
      + rewrite <- app_assoc. exact hn.
  Qed.
  Lemma unique_one p seen rest : incl seen nodes -> In p nodes -> NoDup (seen ++ [p]) ->
    unique_by (rail_node_is track) seen (p :: rest) = p :: unique_by (rail_node_is track) (seen ++ [p]) rest.
  Proof. intros hs hp hn. apply (unique_new [p] seen rest hs); [intros q [<-|[]]; exact hp|exact hn]. Qed.
  Lemma unique_old p seen rest : In p seen -> incl seen nodes -> unique_by (rail_node_is track) seen (p :: rest) = unique_by (rail_node_is track) seen rest.
  Proof. intros hp hs. cbn [unique_by]. rewrite (proj2 (seen_before p seen (hs p hp) hs) hp). reflexivity. Qed.
End Unique.

(** ** the pieces at the hinge *)

Lemma hinge_cuts (c : heap R) nodes els x0 i : in_line nodes els -> apart c nodes -> inside c nodes x0 i ->
  exists before a h b after e1 e2, nodes = (before ++ [a]) ++ h :: b :: after /\ h = nth i nodes 0%nat /\ els = e1 ++ [(a, h); (h, b)] ++ e2 /\
    forall k, add_semi_rigid_hinge c nodes els k x0 =
      Ok ((before ++ [a], e1), [mkHingePart (a, h) None (Some (k / 2)); mkHingePart (h, b) (Some (k / 2)) None], (b :: after, e2)).
Proof.
  intros hl [hn hap] [h1 [h2 [h3 h4]]]. destruct (nth_split nodes 0%nat (n := i)) as [l1 [l2 [er hl1]]]; [lia|]. set (h := nth i nodes 0%nat) in *.
  destruct l2 as [|b after]; [exfalso; rewrite er, app_length in h2; cbn in h2; lia|].
  destruct (@exists_last _ l1) as [before [a e]]; [intros ->; cbn in hl1; lia|]. subst l1.
  assert (hnot : forall n, In n (before ++ [a]) -> ~ near (tx (c n)) x0).
  { intros n hn'. destruct (In_nth _ n 0%nat hn') as [q [q1 q2]]. rewrite <- q2. rewrite <- (app_nth1 _ (h :: b :: after) 0%nat q1), <- er. apply h4. lia. }
  assert (hco : forall n, In n ((before ++ [a]) ++ b :: after) -> ~ coincide (c n) (c h)).
  { intros n hn' hco. assert (e : n = h). { apply hap; [| |exact hco]; rewrite er; [|apply in_elt]. apply in_app_or in hn'. apply in_or_app. cbn [In]. destruct hn'; [left|right; right]; assumption. }
    subst n. rewrite er in hn. apply NoDup_remove_2 in hn. contradiction. }
  rewrite er in hl. exists before, a, h, b, after.
  destruct (C53_hinge_interior_partial c before after a h b els 0 x0 hl h3 hnot hco) as [e1 [e2 [g1 [g2 [g3 _]]]]]. exists e1, e2.
  split; [exact er|]. split; [reflexivity|]. split; [exact g1|]. intros k.
  destruct (C53_hinge_interior_partial c before after a h b els k x0 hl h3 hnot hco) as [e1' [e2' [_ [g2' [g3' g4]]]]].
  apply line_is_chain in g2, g3, g2', g3'. rewrite <- er in g4. subst e1 e2 e1' e2'. exact g4.
Qed.

(** the pieces of the rail in the model *)
Lemma pieces_made (c : heap R) nodes els rail others len mass f x0 ps : 
  semi_rigid_parts rail others c nodes els len mass f x0 = Ok ps ->
  exists k r, add_semi_rigid_hinge c nodes els k x0 = Ok r /\ ps = hinged_rail rail r ++ others.
Proof.
  unfold semi_rigid_parts. intros hs. apply rbind_ok in hs. destruct hs as [[r hg] [hs0 hs]]. injection hs as <-. cbn [fst].
  unfold create_hinge in hs0. destruct (_ && _)%bool; [discriminate|]. destruct (hinge_stiffness None (b_E rail) (b_I rail) len f) as [kh|]; [|destruct (find_at _ _ _ _); discriminate].
  apply rbind_ok in hs0. destruct hs0 as [r' [hs0 hs1]]. injection hs1 as -> _. eauto.
Qed.

(** ** the file *)

(** four parts read as one rail *)
Lemma four_as_one segment time_out velocities outputs track es ws rest c s : length ws = 4%nat -> (forall w, In w ws -> w_soil w = false) ->
  semi_rigid_write_results segment time_out velocities outputs track es (ws ++ rest) c s =
  demo_write_results segment time_out velocities outputs track es (mkW false (unique_by (rail_node_is track) [] (flat_map w_nodes ws)) (flat_map w_els ws) None None :: rest) c s.
Proof.
  intros hl hs. destruct ws as [|w1 [|w2 [|w3 [|w4 [|? ?]]]]]; try discriminate. cbn [app].
  assert (g1 := hs w1 ltac:(left; reflexivity)). assert (g2 := hs w2 ltac:(right; left; reflexivity)).
  assert (g3 := hs w3 ltac:(do 2 right; left; reflexivity)). assert (g4 := hs w4 ltac:(do 3 right; left; reflexivity)).
  unfold semi_rigid_write_results, demo_write_results, rail_of_four. change (mapr (at_idx (w1 :: w2 :: w3 :: w4 :: rest)) (seq 0 4)) with (Ok [w1; w2; w3; w4]). cbn [rbind].
  unfold soil_matrices, soil_nodes, soil_elements. cbn [filter skipn soil_ids w_soil]. rewrite g1, g2, g3, g4. reflexivity.
Qed.

(** C129: The file of a track with a hinge inside the rail is the file of the track with the same rail in one piece: the pieces of the rail
    show all its nodes once and in order, and all its elements in order *)
Theorem C129_as_whole (c : heap R) nodes els rail others len mass f x0 i ps segment time_out velocities outputs track es ws rest res s :
  in_line nodes els -> apart c nodes -> inside c nodes x0 i -> on_places track c nodes ->
  semi_rigid_parts rail others c nodes els len mass f x0 = Ok ps ->
  Forall2 (shown es) ws (firstn 4 ps) -> (forall w, In w ws -> w_soil w = false) ->
  exists whole, shown es whole (mkPart (KRail rail) nodes els) /\ w_soil whole = false /\
    semi_rigid_write_results segment time_out velocities outputs track es (ws ++ rest) res s =
    demo_write_results segment time_out velocities outputs track es (whole :: rest) res s.
Proof.
  intros hl hap hin hpl hps hsh hso. destruct (pieces_made _ _ _ _ _ _ _ _ _ _ hps) as [k [r [hr ->]]].
  destruct (hinge_cuts c nodes els x0 i hl hap hin) as [before [a [h [b [after [e1 [e2 [en [_ [ee hk]]]]]]]]]]. rewrite hk in hr. injection hr as <-.
  cbn [hinged_rail fst snd map app hp_element hp_spring1 hp_spring2 firstn] in hsh.
  inversion hsh as [|w1 p1 ws1 ps1 [n1 f1] q1]; subst. inversion q1 as [|w2 p2 ws2 ps2 [n2 f2] q2]; subst. inversion q2 as [|w3 p3 ws3 ps3 [n3 f3] q3]; subst.
  inversion q3 as [|w4 p4 ws4 ps4 [n4 f4] q4]; subst. inversion q4; subst. cbn [ep_nodes ep_els] in *.
  rewrite four_as_one by (reflexivity || exact hso). match goal with |- exists _, _ /\ _ /\ demo_write_results _ _ _ _ _ _ (?x :: _) _ _ = _ => exists x end. split; [|split; reflexivity].
  split; cbn [w_nodes w_els ep_nodes ep_els flat_map].
  - rewrite n1, n2, n3, n4. set (nodes := (before ++ [a]) ++ h :: b :: after) in *. destruct hap as [hnd hap0].
    assert (i1 : incl (before ++ [a]) nodes) by (intros q hq; apply in_or_app; left; exact hq).
    assert (ih : In h nodes) by (apply in_elt). assert (ib : In b nodes) by (apply in_or_app; right; right; left; reflexivity).
    assert (ia : In a (before ++ [a])) by (apply in_or_app; right; left; reflexivity).
    assert (i2 : incl ((before ++ [a]) ++ [h]) nodes) by (intros q hq; apply in_app_or in hq; destruct hq as [hq|[<-|[]]]; auto).
    assert (i3 : incl (((before ++ [a]) ++ [h]) ++ [b]) nodes) by (intros q hq; apply in_app_or in hq; destruct hq as [hq|[<-|[]]]; auto).
    assert (ia' : incl after nodes) by (intros q hq; apply in_or_app; right; right; right; exact hq).
    assert (n' : nodes = (((before ++ [a]) ++ [h]) ++ [b]) ++ after) by (unfold nodes; rewrite <- !app_assoc; reflexivity).
    assert (d3 : NoDup (((before ++ [a]) ++ [h]) ++ [b])) by (rewrite n' in hnd; exact (nodup_app_left _ _ hnd)).
    pose proof (nodup_app_left _ _ d3) as d2. pose proof (nodup_app_left _ _ d2) as d1. pose proof (conj hnd hap0 : apart c nodes) as hap.
    rewrite (unique_new track c nodes hpl hap (before ++ [a]) [] _ (incl_nil_l _) i1 d1). cbn [app].
    rewrite (unique_old track c nodes hpl hap a _ _ ia i1).
    rewrite (unique_one track c nodes hpl hap h _ _ i1 ih d2).
    rewrite (unique_old track c nodes hpl hap h _ _) by (exact i2 || (apply in_or_app; right; left; reflexivity)).
    rewrite (unique_one track c nodes hpl hap b _ _ i2 ib d3).
    rewrite (unique_old track c nodes hpl hap b _ _) by (exact i3 || (apply in_or_app; right; left; reflexivity)).
    rewrite (unique_new track c nodes hpl hap after _ [] i3 ia') by (rewrite <- n'; exact hnd). cbn [unique_by]. unfold nodes. rewrite app_nil_r. reflexivity.
  - rewrite app_nil_r. apply Forall2_app; [exact f1|]. rewrite app_assoc. apply Forall2_app; [|exact f4]. exact (Forall2_app f2 f3).
Qed.
Print Assumptions C129_as_whole.

(** ** the tracks of the scripts *)

Lemma line_apart c N l j : line c N l j -> 1 / 1000000000 < l -> apart c (jn_rail_nodes j).
Proof.
  intros hl h0. set (rn := jn_rail_nodes j).
  assert (g : forall p q, (p < length rn)%nat -> (q < length rn)%nat -> coincide (c (nth p rn 0%nat)) (c (nth q rn 0%nat)) -> p = q).
  { intros p q hp hq hco. unfold rn in hco. rewrite !(ln_rail _ _ _ _ hl) in hco by assumption. specialize (hco DX). cbn [tget tx] in hco.
    rewrite <- Rmult_minus_distr_r, Rabs_mult, (Rabs_right l) in hco by lra. destruct (Nat.eq_dec p q) as [e|e]; [exact e|exfalso].
    assert (1 <= Rabs (INR p - INR q)).
    { destruct (Nat.lt_ge_cases p q) as [hlt|hge].
      - rewrite Rabs_left1, Ropp_minus_distr by (apply Rle_minus, le_INR; lia). rewrite <- minus_INR by lia. change 1 with (INR 1). apply le_INR. lia.
      - rewrite Rabs_right by (apply Rge_minus, Rle_ge, le_INR; lia). rewrite <- minus_INR by lia. change 1 with (INR 1). apply le_INR. lia. }
    nra. }
  split.
  - apply (NoDup_nth rn 0%nat). intros p q hp hq e. apply g; [exact hp|exact hq|]. rewrite e. intros d. rewrite Rminus_diag_eq, Rabs_R0 by reflexivity. lra.
  - intros p q hp hq hco. destruct (In_nth _ p 0%nat hp) as [a [a1 a2]], (In_nth _ q 0%nat hq) as [b [b1 b2]]. rewrite <- a2, <- b2 in hco. apply g in hco; [|assumption|assumption]. congruence.
Qed.

(** C129: The file of a script with a hinge at a rail node inside a generated track: there is one row for each rail node, in order along the
    track, with the place and the computed vertical displacements of that node, one row for each rail element in order, and the rows of
    rail pads and sleepers are those of the parts behind the rail *)
Theorem C129_rail h specs d r j c mesh rail others len mass f x0 i ps segment time_out velocities outputs track train es ws pad sleeper rest res s file w ids m :
  (1 <= r)%nat -> 1 / 1000000000 < d / INR r -> segments specs -> joins h specs d r j c mesh ->
  inside c (jn_rail_nodes j) x0 i -> on_places track c (jn_rail_nodes j) ->
  semi_rigid_parts rail others c (jn_rail_nodes j) (jn_rail_els j) len mass f x0 = Ok ps ->
  Forall2 (shown es) ws (firstn 4 ps) -> (forall w, In w ws -> w_soil w = false) ->
  is_run track train es res ->
  semi_rigid_write_results segment time_out velocities outputs track es (ws ++ pad :: sleeper :: rest) res s = Ok (file, w, ids, m) ->
  file = String.append segment ".pickle" /\ wr_time w = time_out /\
  length (wr_rail_disp w) = length (jn_rail_nodes j) /\ length (wr_rail_x w) = length (jn_rail_nodes j) /\
  length (wr_rail_force w) = (length (jn_rail_nodes j) - 1)%nat /\
  (forall p, (p < length (jn_rail_nodes j))%nat -> nth_error (wr_rail_x w) p = Some (INR p * (d / INR r)) /\
     exists n row, nth_error track (nth p (jn_rail_nodes j) 0%nat) = Some n /\ nth_error (wr_rail_disp w) p = Some row /\ course 1 (cr_rows res) (vertical_at n) row) /\
  (forall p, (p < length (jn_rail_nodes j) - 1)%nat -> exists e el fs row, nth_error es e = Some el /\
     ml_nodes el = [nth p (jn_rail_nodes j) 0%nat; nth (S p) (jn_rail_nodes j) 0%nat] /\
     nth_error (cr_forces res) e = Some (Some fs) /\ nth_error (wr_rail_force w) p = Some row /\ shows 1 1 fs row) /\
  node_rows 1 nd_u (cr_track res) (w_nodes pad) (wr_pad_disp w) /\ node_rows 1 nd_u (cr_track res) (w_nodes sleeper) (wr_sleeper_disp w) /\
  node_rows 1 nd_u (cr_track res) (flat_map w_nodes (filter w_soil (pad :: sleeper :: rest))) (wr_soil_disp w).
Proof.
  intros hr hd hsp hj hin hpl hps hsh hso hrun hw. destruct (joined_line h specs d r j c mesh hr hd hsp hj) as [_ [_ hl]].
  destruct (C129_as_whole c (jn_rail_nodes j) (jn_rail_els j) rail others len mass f x0 i ps segment time_out velocities outputs track es ws (pad :: sleeper :: rest) res s
    (ln_line _ _ _ _ hl) (line_apart _ _ _ _ hl hd) hin hpl hps hsh hso) as [whole [[sh1 sh2] [sh3 e]]]. rewrite e in hw. cbn [ep_nodes ep_els] in sh1, sh2.
  destruct (C122_demo _ _ _ _ _ _ _ _ _ _ _ _ _ hw) as [g1 [g2 [_ [_ g3]]]]. split; [exact g1|]. split; [exact g2|].
  pose proof g3 as g4. destruct g3 as [rl [pd [sl [e1 [e2 [e3 [a1 [a2 [a3 [b1 [_ [_ [c1 [d1 _]]]]]]]]]]]]]]. cbn [nth_error] in e1, e2, e3. injection e1 as <-. injection e2 as <-. injection e3 as <-.
  destruct (C122_histories _ _ _ _ _ _ _ _ _ hrun g4) as [rl [pd [sl [e1 [_ [_ g5]]]]]]. cbn [nth_error] in e1. injection e1 as <-.
  destruct (g5 (w_nodes whole) (wr_rail_disp w) ltac:(left; reflexivity)) as [k1 k2]. rewrite sh1 in k1, k2, a3. destruct a3 as [k3 k4]. destruct a2 as [k5 k6].
  split; [exact k1|]. split; [exact k3|]. destruct (ln_line _ _ _ _ hl) as [l1 l2]. split; [rewrite k5, <- (Proofs_CoupledRun.forall2_length _ _ _ sh2); exact l1|]. split; [|split; [|split; [exact b1|split; [exact c1|]]]].
  - intros p hp. assert (hn : nth_error (jn_rail_nodes j) p = Some (nth p (jn_rail_nodes j) 0%nat)) by (apply nth_error_nth'; exact hp).
    destruct (hpl _ (nth_error_In _ _ hn)) as [n [q1 q2]]. destruct (k4 _ _ hn) as [n' [q3 q4]]. rewrite q1 in q3. injection q3 as <-. rewrite q2, (ln_rail _ _ _ _ hl) in q4 by exact hp. cbn [tx] in q4.
    split; [exact q4|]. destruct (k2 _ _ _ hn q1) as [row [q5 q6]]. eauto.
  - intros p hp. destruct (nth_error (w_els whole) p) as [e0|] eqn:he0.
    2:{ apply nth_error_None in he0. rewrite <- (Proofs_CoupledRun.forall2_length _ _ _ sh2), l1 in he0. lia. }
    destruct (Forall2_nth _ _ _ _ _ sh2 he0) as [ab [q1 [el [q2 q3]]]]. rewrite (l2 p) in q1 by lia. injection q1 as <-. cbn [fst snd] in q3.
    destruct (k6 _ _ he0) as [fs [row [q4 [q5 q6]]]]. exists e0, el, fs, row. auto.
  - cbn [filter] in d1. rewrite sh3 in d1. exact d1.
Qed.
Print Assumptions C129_rail.

(** ** a hinge at the first node *)

Lemma unique_none {A} (same : A -> A -> bool) l seen : unique_by same seen l = [] -> forall x, In x l -> existsb (same x) seen = true.
Proof.
  induction l as [|y l IH]; intros e x hx; [destruct hx|]. cbn [unique_by] in e. destruct (existsb (same y) seen) eqn:ey; [|discriminate].
  destruct hx as [->|hx]; [exact ey|exact (IH e x hx)].
Qed.

(** C129 does not hold at the first node of the rail: there the rail is cut in three parts only, so that the rail pads are read as the
    fourth part of the rail, the sleepers as rail pads and the part behind the sleepers as sleepers.  The file then has more rows of the
    rail than the rail has nodes *)
Theorem C129_first_refuted (c : heap R) h b b' after els rail others len mass f x0 ps segment time_out velocities outputs track es ws pad sleeper third rest res s q n file w ids m :
  let nodes := h :: b :: b' :: after in
  in_line nodes els -> apart c nodes -> near (tx (c h)) x0 -> on_places track c nodes ->
  semi_rigid_parts rail others c nodes els len mass f x0 = Ok ps ->
  Forall2 (shown es) ws (firstn 3 ps) -> (forall w, In w (ws ++ [pad]) -> w_soil w = false) ->
  In q (w_nodes pad) -> nth_error track q = Some n -> ~ In q nodes -> (forall p, In p nodes -> ~ coincide (n_coord n) (c p)) ->
  semi_rigid_write_results segment time_out velocities outputs track es (ws ++ pad :: sleeper :: third :: rest) res s = Ok (file, w, ids, m) ->
  (length nodes < length (wr_rail_disp w))%nat /\
  node_rows 1 nd_u (cr_track res) (w_nodes sleeper) (wr_pad_disp w) /\ node_rows 1 nd_u (cr_track res) (w_nodes third) (wr_sleeper_disp w).
Proof.
  intros nodes hl hap hx hpl hps hsh hso hq hn hni hco hw. destruct (pieces_made _ _ _ _ _ _ _ _ _ _ hps) as [k [r [hr ->]]].
  destruct (C53_hinge_ends_refuted c k x0 h) as [g _]. destruct (g b b' after els hl hx) as [e2 [ee hk]].
  { intros p hp e. destruct hap as [d1 d2]. assert (e' : p = h) by (apply d2; [right; exact hp|left; reflexivity|exact e]). subst p. inversion d1; contradiction. }
  fold nodes in hk. rewrite hk in hr. injection hr as <-.
  cbn [hinged_rail fst snd map app hp_element hp_spring1 hp_spring2 firstn] in hsh.
  inversion hsh as [|w1 p1 ws1 ps1 [n1 f1] q1]; subst. inversion q1 as [|w2 p2 ws2 ps2 [n2 f2] q2]; subst. inversion q2 as [|w3 p3 ws3 ps3 [n3 f3] q3]; subst. inversion q3; subst. cbn [ep_nodes ep_els] in *.
  change ([w1; w2; w3] ++ pad :: sleeper :: third :: rest) with ([w1; w2; w3; pad] ++ sleeper :: third :: rest) in hw.
  rewrite four_as_one in hw by (reflexivity || exact hso).
  destruct (C122_demo _ _ _ _ _ _ _ _ _ _ _ _ _ hw) as [_ [_ [_ [_ hs]]]]. destruct hs as [rl [pd [sl [e1 [e3 [e4 [[a1 _] [_ [_ [b1 [_ [_ [c1 _]]]]]]]]]]]]]. cbn [nth_error] in e1, e3, e4.
  injection e1 as <-. injection e3 as <-. injection e4 as <-. split; [|split; assumption]. rewrite a1. cbn [w_nodes flat_map]. rewrite n1, n2, n3. cbn [app].
  rewrite app_nil_r.
  assert (i2 : incl [h; b] nodes) by (intros p [<-|[<-|[]]]; [left|right; left]; reflexivity). assert (ia : incl (b' :: after) nodes) by (intros p hp; right; right; exact hp).
  destruct hap as [d1 d2]. pose proof (conj d1 d2 : apart c nodes) as hap. assert (d3 : NoDup [h; b]) by (exact (nodup_app_left [h; b] (b' :: after) d1)).
  change (h :: b :: b :: b' :: after ++ w_nodes pad) with ([h; b] ++ b :: b' :: after ++ w_nodes pad).
  rewrite (unique_new track c nodes hpl hap [h; b] [] (b :: b' :: after ++ w_nodes pad) (incl_nil_l _) i2 d3). cbn [app].
  rewrite (unique_old track c nodes hpl hap b [h; b]) by (exact i2 || (right; left; reflexivity)).
  change (b' :: after ++ w_nodes pad) with ((b' :: after) ++ w_nodes pad). rewrite (unique_new track c nodes hpl hap (b' :: after) [h; b] (w_nodes pad) i2 ia d1).
  change ([h; b] ++ b' :: after) with nodes. destruct (unique_by (rail_node_is track) nodes (w_nodes pad)) as [|x l] eqn:eu.
  - exfalso. pose proof (unique_none _ _ _ eu q hq) as hs. apply existsb_exists in hs. destruct hs as [p [hp hs]]. unfold rail_node_is in hs. apply orb_true_iff in hs. destruct hs as [hs|hs].
    + apply Nat.eqb_eq in hs. subst p. contradiction.
    + rewrite hn in hs. destruct (hpl p hp) as [np [g1 g2]]. rewrite g1 in hs. apply coords_equal_spec in hs. rewrite g2 in hs. exact (hco p hp hs).
  - unfold nodes. cbn [length app]. rewrite app_length. cbn [length]. lia.
Qed.
Print Assumptions C129_first_refuted.

(** ** a case *)

Lemma shown_seq (mk : nat * nat -> melem R) (l1 mid l2 : list (nat * nat)) : (forall e, ml_nodes (mk e) = [fst e; snd e]) ->
  Forall2 (fun k e => exists m, nth_error (map mk (l1 ++ mid ++ l2)) k = Some m /\ ml_nodes m = [fst e; snd e]) (seq (length l1) (length mid)) mid.
Proof.
  intros hm. revert l1. induction mid as [|e mid IH]; intros l1; cbn [length seq]; [constructor|]. constructor.
  - exists (mk e). split; [|apply hm]. rewrite nth_error_map, nth_error_app2, Nat.sub_diag by lia. reflexivity.
  - specialize (IH (l1 ++ [e])). rewrite app_length, Nat.add_1_r, <- app_assoc in IH. exact IH.
Qed.

(** the three segments of C125_case with a hinge at 1.2; all nodes sink, the more the farther they are along the list *)
Example C129_case h f s : 0 <= f <= 1 -> exists j c mesh ps track es ws pad sleeper res file w ids m, joins h case_specs (6 / 10) 2 j c mesh /\
  inside c (jn_rail_nodes j) (12 / 10) 4 /\ on_places track c (jn_rail_nodes j) /\
  semi_rigid_parts case_rail (tl (joined_parts j case_rail case_pad 140 case_soils)) c (jn_rail_nodes j) (jn_rail_els j) (6 / 10) 100 f (12 / 10) = Ok ps /\
  Forall2 (shown es) ws (firstn 4 ps) /\ (forall w, In w ws -> w_soil w = false) /\ is_run track [] es res /\
  semi_rigid_write_results "case" [0; 1; 2] [30; 31; 32] [0; 1; 2]%nat track es (ws ++ [pad; sleeper]) res s = Ok (file, w, ids, m) /\
  length (wr_rail_disp w) = 14%nat /\ length (flat_map w_nodes ws) = 17%nat /\ nth_error (wr_rail_x w) 4 = Some (12 / 10).
Proof.
  intros hf. destruct (C128_case h f hf) as [j [c [mesh [ps [cs [hj [hps _]]]]]]]. destruct case_values as [_ [_ [_ [hsp [hd _]]]]].
  destruct (joined_line h case_specs (6 / 10) 2 j c mesh ltac:(lia) hd hsp hj) as [hm [_ hline]].
  assert (hlen : length (jn_rail_nodes j) = 14%nat).
  { destruct (joined_rail_length h case_specs (6 / 10) 2 ltac:(lia) hd hsp) as [j' [c' [mesh' [[ts [q0 [q1 q2]]] q3]]]]. destruct hj as [ts' [q0' [q4 q5]]]. rewrite q1 in q4. injection q4 as <-. rewrite q2 in q5. injection q5 as <- _ _ _. exact q3. }
  assert (hat : inside c (jn_rail_nodes j) (12 / 10) 4).
  { unfold inside, near. rewrite hlen. split; [lia|]. split; [lia|]. rewrite (ln_rail _ _ _ _ hline) by lia. cbn [tx]. split.
    - replace (INR 4 * (6 / 10 / INR 2) - 12 / 10) with 0 by (cbn; lra). rewrite Rabs_R0. rewrite Rabs_right; lra.
    - intros q hq. rewrite (ln_rail _ _ _ _ hline) by lia. cbn [tx]. rewrite (Rabs_right (12 / 10)) by lra.
      destruct q as [|[|[|[|q]]]]; [| | | |lia]; cbn -[IZR]; rewrite Rabs_left; lra. }
  set (track := map (fun i => mkNode i None (T3 None (Some i) None) (c i) (T3 false true false) []) mesh : list (node R)).
  set (mk := fun e : nat * nat => mkMelem [fst e; snd e] [ElementPart (Some (fun _ _ => 1)) (T3 true true true) None] : melem R).
  set (es := map mk (jn_rail_els j)).
  assert (hin : forall p, In p (jn_rail_nodes j) -> nth_error track p = Some (mkNode p None (T3 None (Some p) None) (c p) (T3 false true false) [])).
  { intros p hp. assert (hlt : (p < length mesh)%nat) by (apply (ln_below _ _ _ _ hline); left; exact hp). unfold track. rewrite nth_error_map, hm, (nth_error_nth' _ 0%nat) by (rewrite seq_length; exact hlt).
    rewrite seq_nth by exact hlt. reflexivity. }
  assert (hpl : on_places track c (jn_rail_nodes j)) by (intros p hp; eexists; split; [apply hin; exact hp|reflexivity]).
  destruct (hinge_cuts c _ _ _ _ (ln_line _ _ _ _ hline) (line_apart _ _ _ _ hline hd) hat) as [before [a [hh [b [after [e1 [e2 [en [_ [ee hk]]]]]]]]]].
  pose proof (pieces_made _ _ _ _ _ _ _ _ _ _ hps) as [k [r [hr eps]]]. rewrite hk in hr. injection hr as <-.
  set (ws := [mkW false (before ++ [a]) (seq 0 (length e1)) None None; mkW false [a; hh] (seq (length e1) 1) None None; mkW false [hh; b] (seq (length (e1 ++ [(a, hh)])) 1) None None;
    mkW false (b :: after) (seq (length (e1 ++ [(a, hh); (hh, b)])) (length e2)) None None] : list (wpart R)).
  assert (hsh : Forall2 (shown es) ws (firstn 4 ps)).
  { rewrite eps. cbn [hinged_rail fst snd map app hp_element hp_spring1 hp_spring2 firstn]. unfold ws, es. rewrite ee.
    constructor; [split; [reflexivity|]|constructor; [split; [reflexivity|]|constructor; [split; [reflexivity|]|constructor; [split; [reflexivity|]|constructor]]]]; cbn [w_els ep_els].
    - exact (shown_seq mk [] e1 ([(a, hh); (hh, b)] ++ e2) (fun _ => eq_refl)).
    - exact (shown_seq mk e1 [(a, hh)] ((hh, b) :: e2) (fun _ => eq_refl)).
    - pose proof (shown_seq mk (e1 ++ [(a, hh)]) [(hh, b)] e2 (fun _ => eq_refl)) as g. rewrite <- app_assoc in g. exact g.
    - pose proof (shown_seq mk (e1 ++ [(a, hh); (hh, b)]) e2 [] (fun _ => eq_refl)) as g. rewrite app_nil_r, <- app_assoc in g. exact g. }
  assert (hso : forall w, In w ws -> w_soil w = false) by (intros w hw; cbn in hw; destruct hw as [<-|[<-|[<-|[<-|[]]]]]; reflexivity).
  set (step := fun (dt : R) (t : nat) (r : row R) => Ok (mkRow (map (fun i => - INR i * INR (S t)) mesh) [0] [0] [0]) : res (row R)).
  set (zero := mkRow (map (fun _ => 0) mesh) [0] [0] [0] : row R).
  assert (fl : forall n, In n track -> flags_match n).
  { intros n hn. apply in_map_iff in hn. destruct hn as [q [<- _]]. intros []; cbn; split; congruence. }
  assert (hne : track <> []).
  { intros e0. assert (g : In (nth 0 (jn_rail_nodes j) 0%nat) (jn_rail_nodes j)) by (apply nth_In; lia). apply hin in g. rewrite e0 in g. destruct (nth 0 (jn_rail_nodes j) 0%nat); discriminate. }
  assert (hc : forall e, carries_force (mk e) (fst e) (snd e) (fun _ _ => 1) (T3 true true true) None) by (intros e; split; [reflexivity|]; exists [], []; split; [reflexivity|]; intros p []).
  assert (hb : forall p, In p (jn_rail_nodes j) -> (p < length track)%nat) by (intros p hp; apply nth_error_Some; rewrite (hin p hp); discriminate).
  assert (hends : forall e, In e (jn_rail_els j) -> In (fst e) (jn_rail_nodes j) /\ In (snd e) (jn_rail_nodes j)).
  { intros e he. destruct (In_nth_error _ _ he) as [q hq]. destruct (ln_line _ _ _ _ hline) as [l1 l2].
    assert (hq' : (q < length (jn_rail_els j))%nat) by (apply nth_error_Some; congruence). rewrite (l2 q) in hq by lia. injection hq as <-. cbn [fst snd]. split; apply nth_In; lia. }
  destruct (C118_ends Dynamic step step [0; 1; 2] (T3 7 7 7) track [] es [zero; zero; zero]) as [res h0].
  { cbn. lia. } { reflexivity. } { exact hne. } { exact fl. } { intros n []. }
  { intros e he. apply in_map_iff in he. destruct he as [e0 [<- he]]. right. exists (fst e0), (snd e0), (fun _ _ => 1), (T3 true true true), None. split; [apply hc|]. destruct (hends _ he). split; apply hb; assumption. }
  { intros _ dt t r. eexists. reflexivity. }
  assert (hr : is_run track [] es res).
  { exists Dynamic, step, step, [0; 1; 2], (T3 7 7 7), [zero; zero; zero]. split; [discriminate|]. split; [cbn; lia|]. split; [reflexivity|]. split; [exact hne|]. split; [exact fl|]. split; [intros n []|exact h0]. }
  set (pad := mkW false (jn_rail_nodes j) [] None None : wpart R). set (sleeper := mkW false [] [] None None : wpart R).
  destruct (C129_as_whole c _ _ case_rail _ _ _ f _ _ ps "case" [0; 1; 2] [30; 31; 32] [0; 1; 2]%nat track es ws [pad; sleeper] res s (ln_line _ _ _ _ hline) (line_apart _ _ _ _ hline hd) hat hpl hps hsh hso)
    as [whole [[sh1 sh2] [sh3 sh4]]]. cbn [ep_nodes ep_els] in sh1, sh2.
  destruct (C122_ends track [] es res 1 ([0; 1; 2], [30; 31; 32]) whole pad sleeper [] _ [] [] hr (le_n 1) eq_refl) as [w hw].
  { intros i hi. apply hb. rewrite sh1 in hi. cbn [w_nodes pad sleeper app] in hi. rewrite app_nil_r in hi. apply in_app_or in hi. destruct hi; assumption. }
  { intros e he. cbn [w_els pad app] in he. rewrite app_nil_r in he. destruct (In_nth_error _ _ he) as [q hq]. destruct (Forall2_nth _ _ _ _ _ sh2 hq) as [ab [_ [el [q2 q3]]]].
    pose proof (nth_error_In _ _ q2) as hin'. apply in_map_iff in hin'. destruct hin' as [e0 [<- _]]. eexists _, _, _, _, _, _. split; [exact q2|apply hc]. }
  assert (hfile : semi_rigid_write_results "case" [0; 1; 2] [30; 31; 32] [0; 1; 2]%nat track es (ws ++ [pad; sleeper]) res s = Ok ("case.pickle"%string, w, [], (fun _ _ => 0, fun _ _ => 0, []))).
  { rewrite sh4. unfold demo_write_results, soil_nodes, soil_elements, soil_matrices. cbn [filter]. rewrite sh3. cbn [filter w_soil pad sleeper flat_map].
    change (mapr (at_idx [30; 31; 32]) [0; 1; 2]%nat) with (Ok [30; 31; 32] : PyBase.res (list R)). cbn [rbind]. rewrite hw. cbn [rbind soil_ids]. rewrite sh3. reflexivity. }
  exists j, c, mesh, ps, track, es, ws, pad, sleeper, res, "case.pickle"%string, w, [], (fun _ _ => 0, fun _ _ => 0, []). split; [exact hj|]. split; [exact hat|]. split; [exact hpl|]. split; [exact hps|]. split; [exact hsh|]. split; [exact hso|]. split; [exact hr|]. split; [exact hfile|].
  destruct (C129_rail h case_specs (6 / 10) 2 j c mesh case_rail _ _ _ f _ _ ps "case" [0; 1; 2] [30; 31; 32] [0; 1; 2]%nat track [] es ws pad sleeper [] res s _ w _ _ ltac:(lia) hd hsp hj hat hpl hps hsh hso hr hfile)
    as [_ [_ [k1 [k2 [_ [k4 _]]]]]]. split; [rewrite k1; exact hlen|]. split.
  - cbn [flat_map ws w_nodes]. rewrite en in hlen. rewrite !app_length in *. cbn [length] in *. lia.
  - destruct (k4 4%nat ltac:(lia)) as [g _]. rewrite g. f_equal. cbn. lra.
Qed.

(** a rail of three nodes with a hinge at its first node, and a rail pad from there to a sleeper: the file has four rows of the rail *)
Example C129_first_case s : let c := (fun i => match i with 3%nat => T3 0 (-1) 0 | _ => T3 (INR i) 0 0 end) : heap R in
  exists ps track es ws pad sleeper third res file w ids m,
  in_line [0; 1; 2]%nat [(0, 1); (1, 2)]%nat /\ apart c [0; 1; 2]%nat /\ near (tx (c 0%nat)) 0 /\ on_places track c [0; 1; 2]%nat /\
  semi_rigid_parts case_rail [] c [0; 1; 2]%nat [(0, 1); (1, 2)]%nat 1 100 (1 / 2) 0 = Ok ps /\
  Forall2 (shown es) ws (firstn 3 ps) /\ (forall w, In w (ws ++ [pad]) -> w_soil w = false) /\
  In 3%nat (w_nodes pad) /\ (exists n, nth_error track 3 = Some n /\ forall p, In p [0; 1; 2]%nat -> ~ coincide (n_coord n) (c p)) /\
  semi_rigid_write_results "case" [0; 1; 2] [30; 31; 32] [0; 1; 2]%nat track es (ws ++ [pad; sleeper; third]) res s = Ok (file, w, ids, m) /\ length (wr_rail_disp w) = 4%nat.
Proof.
  intros c.
  assert (far : forall p q, In p [0; 1; 2]%nat -> In q [0; 1; 2]%nat -> coincide (c p) (c q) -> p = q).
  { intros p q hp hq e. specialize (e DX). cbn [In] in hp, hq. destruct hp as [<-|[<-|[<-|[]]]], hq as [<-|[<-|[<-|[]]]]; try reflexivity; exfalso; cbn -[IZR] in e; unfold Rabs in e; destruct (Rcase_abs _) in e; lra. }
  assert (hap : apart c [0; 1; 2]%nat) by (split; [repeat constructor; cbn; lia|exact far]).
  assert (hl : in_line [0; 1; 2]%nat [(0, 1); (1, 2)]%nat) by (split; [reflexivity|]; intros i hi; cbn [length] in hi; destruct i as [|[|i]]; [reflexivity|reflexivity|lia]).
  assert (hx : near (tx (c 0%nat)) 0) by (unfold near; cbn; rewrite Rminus_0_r, Rabs_R0; lra).
  set (track := map (fun i => mkNode i None (T3 None (Some i) None) (c i) (T3 false true false) []) [0; 1; 2; 3]%nat : list (node R)).
  set (mk := fun e : nat * nat => mkMelem [fst e; snd e] [ElementPart (Some (fun _ _ => 1)) (T3 true true true) None] : melem R).
  set (es := map mk [(1, 2); (0, 1); (0, 3)]%nat).
  assert (hpl : on_places track c [0; 1; 2]%nat) by (intros p [<-|[<-|[<-|[]]]]; eexists; split; reflexivity).
  assert (hps : exists k ps, semi_rigid_parts case_rail [] c [0; 1; 2]%nat [(0, 1); (1, 2)]%nat 1 100 (1 / 2) 0 = Ok ps /\
    ps = hinged_rail case_rail (([], [(1, 2)%nat]), [mkHingePart (0, 1)%nat (Some (k / 2)) None], ([1; 2]%nat, []))).
  { unfold semi_rigid_parts, create_hinge, hinge_stiffness. rnum. destruct (RlebP 0 (1 / 2)); [|lra]. destruct (nltbP (1 / 2) 1) as [h1|h1]; [|lra]. cbn [andb].
    destruct (neqbP ((1 - 1 / 2) * 1) 0) as [z|z]; [lra|]. set (k := 3 * b_E case_rail * b_I case_rail * (1 / 2) / ((1 - 1 / 2) * 1)).
    destruct (C53_hinge_ends_refuted c k 0 0%nat) as [g _]. destruct (g 1%nat 2%nat [] [(0, 1); (1, 2)]%nat hl hx) as [e2 [ee hk]].
    { intros p hp e. assert (e' : p = 0%nat) by (apply far; [right; exact hp|left; reflexivity|exact e]). subst p. destruct hp as [hp|[hp|[]]]; discriminate. }
    injection ee as <-. rewrite hk. cbn [rbind fst]. exists k. eexists. split; [reflexivity|]. rewrite app_nil_r. reflexivity. }
  destruct hps as [k [ps [hps eps]]].
  set (ws := [mkW false [] [0]%nat None None; mkW false [0; 1]%nat [1]%nat None None; mkW false [1; 2]%nat [] None None] : list (wpart R)).
  set (pad := mkW false [0; 3]%nat [2]%nat None None : wpart R). set (sleeper := mkW false [3]%nat [] None None : wpart R).
  assert (hsh : Forall2 (shown es) ws (firstn 3 ps)).
  { rewrite eps. constructor; [|constructor; [|constructor; [|constructor]]]; (split; [reflexivity|]); cbn; [| |constructor]; (constructor; [|constructor]); eexists; split; reflexivity. }
  assert (hso : forall w, In w (ws ++ [pad]) -> w_soil w = false) by (intros w hw; cbn in hw; destruct hw as [<-|[<-|[<-|[<-|[]]]]]; reflexivity).
  set (step := fun (dt : R) (t : nat) (r : row R) => Ok (mkRow [0; - 1; - 2; - 3] [0] [0] [0]) : res (row R)). set (zero := mkRow [0; 0; 0; 0] [0] [0] [0] : row R).
  assert (fl : forall n, In n track -> flags_match n) by (intros n hn; apply in_map_iff in hn; destruct hn as [q [<- _]]; intros []; cbn; split; congruence).
  assert (hc : forall e, carries_force (mk e) (fst e) (snd e) (fun _ _ => 1) (T3 true true true) None) by (intros e; split; [reflexivity|]; exists [], []; split; [reflexivity|]; intros p []).
  destruct (C118_ends Dynamic step step [0; 1; 2] (T3 7 7 7) track [] es [zero; zero; zero]) as [res h0].
  { cbn. lia. } { reflexivity. } { discriminate. } { exact fl. } { intros n []. }
  { intros e he. apply in_map_iff in he. destruct he as [e0 [<- he]]. right. exists (fst e0), (snd e0), (fun _ _ => 1), (T3 true true true), None. split; [apply hc|].
    cbn [In] in he. destruct he as [<-|[<-|[<-|[]]]]; cbn; lia. }
  { intros _ dt t r. eexists. reflexivity. }
  assert (hr : is_run track [] es res).
  { exists Dynamic, step, step, [0; 1; 2], (T3 7 7 7), [zero; zero; zero]. split; [discriminate|]. split; [cbn; lia|]. split; [reflexivity|]. split; [discriminate|]. split; [exact fl|]. split; [intros n []|exact h0]. }
  assert (hu : unique_by (rail_node_is track) [] (flat_map w_nodes (ws ++ [pad])) = [0; 1; 2; 3]%nat).
  { cbn [flat_map w_nodes ws pad app]. change ([0; 1; 1; 2; 0; 3]%nat) with ([0; 1] ++ [1; 2; 0; 3])%nat.
    rewrite (unique_new track c _ hpl hap [0; 1]%nat [] _ (incl_nil_l _)) by ((intros p [<-|[<-|[]]]; cbn; tauto) || (repeat constructor; cbn; lia)).
    rewrite (unique_old track c _ hpl hap 1%nat) by (cbn; tauto || (intros p [<-|[<-|[]]]; cbn; tauto)).
    rewrite (unique_one track c _ hpl hap 2%nat) by ((intros p [<-|[<-|[]]]; cbn; tauto) || (cbn; tauto) || (repeat constructor; cbn; lia)).
    rewrite (unique_old track c _ hpl hap 0%nat) by ((cbn; tauto) || (intros p [<-|[<-|[<-|[]]]]; cbn; tauto)).
    cbn [unique_by app]. destruct (existsb (rail_node_is track 3) [0; 1; 2]%nat) eqn:e; [exfalso|reflexivity]. apply existsb_exists in e. destruct e as [p [hp e]]. cbn [In] in hp.
    destruct hp as [<-|[<-|[<-|[]]]]; unfold rail_node_is in e; cbn [Nat.eqb orb nth_error track map n_coord] in e; apply coords_equal_spec in e; specialize (e DY); cbn in e; rewrite Rabs_left in e; lra. }
  pose proof (four_as_one "case" [0; 1; 2] [30; 31; 32] [0; 1; 2]%nat track es (ws ++ [pad]) [sleeper; sleeper] res s eq_refl hso) as hf. rewrite hu in hf. cbn [flat_map w_els ws pad app] in hf.
  destruct (C122_ends track [] es res 1 ([0; 1; 2], [30; 31; 32]) (mkW false [0; 1; 2; 3]%nat [0; 1; 2]%nat None None) sleeper sleeper [] _ [] [] hr (le_n 1) eq_refl) as [w hw].
  { intros i hi. cbn in hi |- *. lia. }
  { intros e he. cbn in he. assert (h3 : (e < 3)%nat) by lia. destruct (nth_error es e) as [el|] eqn:ee; [|apply nth_error_None in ee; cbn in ee; lia].
    pose proof (nth_error_In _ _ ee) as hin'. apply in_map_iff in hin'. destruct hin' as [e0 [<- _]]. eexists _, _, _, _, _, _. split; [reflexivity|apply hc]. }
  assert (hfile : semi_rigid_write_results "case" [0; 1; 2] [30; 31; 32] [0; 1; 2]%nat track es (ws ++ [pad; sleeper; sleeper]) res s = Ok ("case.pickle"%string, w, [], (fun _ _ => 0, fun _ _ => 0, []))).
  { change (ws ++ [pad; sleeper; sleeper]) with ((ws ++ [pad]) ++ [sleeper; sleeper]). unfold ws, pad, app. unfold ws, pad, app in hf. rewrite hf. unfold demo_write_results, soil_nodes, soil_elements, soil_matrices. cbn [filter w_soil sleeper flat_map].
    change (mapr (at_idx [30; 31; 32]) [0; 1; 2]%nat) with (Ok [30; 31; 32] : PyBase.res (list R)). cbn [rbind]. rewrite hw. reflexivity. }
  exists ps, track, es, ws, pad, sleeper, sleeper, res, "case.pickle"%string, w, [], (fun _ _ => 0, fun _ _ => 0, []).
  split; [exact hl|]. split; [exact hap|]. split; [exact hx|]. split; [exact hpl|]. split; [exact hps|]. split; [exact hsh|]. split; [exact hso|]. split; [right; left; reflexivity|].
  split.
  { eexists. split; [reflexivity|]. intros p hp e. specialize (e DY). cbn [In] in hp. destruct hp as [<-|[<-|[<-|[]]]]; cbn in e; rewrite Rabs_left in e; lra. }
  split; [exact hfile|]. destruct (series_ok _ _ _ _ _ _ _ hw) as [q [tv [_ [_ [_ [_ hs]]]]]]. destruct hs as [rl [_ [_ [e1 [_ [_ [[a1 _] _]]]]]]]. injection e1 as <-. exact a1.
Qed.
