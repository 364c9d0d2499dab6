(** * Tracks with a hinge in the rail are well posed (C128) *)

From Coq Require Import Reals List Bool ZArith Arith Lia Lra Psatz.
From Verif Require Import Num PyBase Model_Geometry Model_System Spec_System Proofs_Dof Proofs_System Model_Element Spec_Element
  Proofs_Elements Proofs_Element Proofs_Beam Proofs_Force Model_Accumulation Proofs_Accumulation Proofs_Geometry Model_Coupled Model_Mesh Spec_Mesh Proofs_Mesh Proofs_Join Props_Mesh
  Model_Track Spec_Track Spec_Generated Proofs_Track Proofs_Assembly Props_Generated Proofs_Generated Spec_Chain Proofs_Chain Spec_Balance Proofs_Balance Spec_Structure Proofs_Structure Proofs_Line
  Props_Structure Model_Hinge Spec_Hinged Proofs_Hinged.
Import ListNotations.
Local Open Scope R_scope.

Lemma ratio_is_factor l rail : 0 < l -> good_rail rail -> shear_ratio l rail = timoshenko_factor 0 (with_length rail l).
Proof. intros hl [q1 q2]. symmetry. unfold with_length. rewrite (factor_is_ratio l) by (try exact hl; unfold good_beam, fixed_ends in *; cbn; tauto). reflexivity. Qed.

(** ** the hinged track stands *)

(** The track with a hinge in the rail, constrained as in the scripts (run_rose/demo_semi_rigid.py 100, 166-172): whatever the stiffness of
    the hinge, and with values above the tolerance below which the code takes them for zero, rails and sleepers keep their vertical
    direction and the lower ends of the soil lose it.  This is what C125_hinged and C127 ask for *)
Theorem C128_stands h specs d r j c mesh rail pad sleeper soils len mass f x0 i ps ls cs da s ns' k :
  (1 <= r)%nat -> 1 / 1000000000 < d / INR r -> segments specs -> joins h specs d r j c mesh ->
  good_rail rail -> good_rod pad -> Forall good_rod soils -> length soils = length specs ->
  hinge_at c (jn_rail_nodes j) x0 i -> 0 < len -> 0 <= f ->
  semi_rigid_parts rail (tl (joined_parts j rail pad sleeper soils)) c (jn_rail_nodes j) (jn_rail_els j) len mass f x0 = Ok ps ->
  script_constraints j c cs ->
  initialise_system (joined_mesh c mesh) ps ls cs da = Ok (s, ns', k) ->
  let l := d / INR r in let tol := 1 / 100000000 in
  tol < 3 * (b_E rail * b_I rail) / ((1 + shear_ratio l rail) * (l * l * l)) -> tol < b_rho rail * b_A rail * l / 3 -> tol < fst (fst pad) -> tol < sleeper ->
  joined_stands j ns'.
Proof.
  intros hr hd hsp hj hrail hpad hsoils hc hat hlen hf hps hcs hi l tol h1 h2 h3 h4. destruct (joined_line h specs d r j c mesh hr hd hsp hj) as [hm [hsl hline]].
  rewrite hm in hi. rewrite <- hsl in hc. fold l in hline. assert (hs0 : 0 <= sleeper) by (unfold tol in h4; lra).
  destruct (joined_held c _ l j _ ls cs da s ns' k hline hcs hi) as [g1 [_ g3]]. rewrite ratio_is_factor in h1 by (assumption || unfold l; lra).
  split; [|exact g1]. intros p hp.
  exact (h_kept c _ l j hline hd rail pad sleeper soils hrail hpad hs0 hsoils hc len mass f x0 i ps hat hlen hf hps ls cs da s ns' k p hi hp (g3 p hp) h1 h2 h3 h4).
Qed.
Print Assumptions C128_stands.

(** ** the stiffness *)

(** A track with a hinge whose bottom cannot move vertically and whose rail is held along x at some node: whatever other constraints, loads
    and damping it has, the stiffness has positive energy for every displacement but zero, if the hinge has some stiffness or the two
    pieces of the rail rest on the sleepers *)
Theorem C128_definite h specs d r j c mesh rail pad sleeper soils len mass f x0 i ps ls cs da s ns' k :
  (1 <= r)%nat -> 1 / 1000000000 < d / INR r -> segments specs -> joins h specs d r j c mesh ->
  good_rail rail -> good_rod pad -> 0 <= sleeper -> Forall good_rod soils -> length soils = length specs ->
  hinge_at c (jn_rail_nodes j) x0 i -> 0 < len -> 0 <= f ->
  semi_rigid_parts rail (tl (joined_parts j rail pad sleeper soils)) c (jn_rail_nodes j) (jn_rail_els j) len mass f x0 = Ok ps ->
  initialise_system (joined_mesh c mesh) ps ls cs da = Ok (s, ns', k) ->
  (forall part e, In part (jn_soil j) -> In e (snd part) -> number_of ns' (snd e) DY = None) -> (exists i, In i (jn_rail_nodes j) /\ number_of ns' i DX = None) ->
  0 < f \/ rests_apart c (jn_sleepers j) (tx (c (nth i (jn_rail_nodes j) 0%nat))) ->
  pos_def k (me (gK s)).
Proof.
  intros hr hd hsp hj hrail hpad hsl hsoils hc hat hlen hf hps hi hb hx hsup. destruct (joined_line h specs d r j c mesh hr hd hsp hj) as [hm [hls hline]].
  rewrite hm in hi. rewrite <- hls in hc. intros x [q [hlt hxq]].
  assert (hsound : Forall (fun p => sound (settled (joined_mesh c (seq 0 (length mesh))) p)) ps) by (eapply h_sounds with (sleeper := sleeper); eassumption).
  assert (hshape : Forall shaped ps) by (eapply h_shaped with (sleeper := sleeper); eassumption).
  assert (g : 0 <= quad k (me (gK s)) x).
  { destruct (initialise_energy _ _ _ _ _ _ _ _ x hshape hi) as [-> _]. apply nsum_nonneg, Forall_map, Forall_forall. intros p hp. rewrite Forall_forall in hsound.
    apply part_form_nonneg; [left; reflexivity|apply hsound; exact hp]. }
  destruct (Req_dec (quad k (me (gK s)) x) 0) as [e|ne]; [|lra]. exfalso. apply hxq.
  exact (h_definite c _ _ j hline hd rail pad sleeper soils hrail hpad hsoils hc len mass f x0 i ps hat hlen hf hps ls cs da s ns' k x hi hb hx hsup e q hlt).
Qed.
Print Assumptions C128_definite.

(** The track of the semi-rigid scripts, constrained at the bottom of all segments and at both ends of the rail: the hinge can be made,
    the model can be initialised for all loads on nodes of the mesh, and the stiffness, alone or with mass and damping in any
    proportion, is definite.  In particular static equilibrium and every step of the implicit solvers have one solution only *)
Theorem C128_well_posed h specs d r j c mesh rail pad sleeper soils len mass f x0 i ls da :
  (1 <= r)%nat -> 1 / 1000000000 < d / INR r -> segments specs -> joins h specs d r j c mesh ->
  good_rail rail -> good_rod pad -> 0 <= sleeper -> Forall good_rod soils -> length soils = length specs ->
  hinge_at c (jn_rail_nodes j) x0 i -> 0 < len -> 0 <= f <= 1 ->
  0 < f \/ rests_apart c (jn_sleepers j) (tx (c (nth i (jn_rail_nodes j) 0%nat))) ->
  (da_on da = true -> 0 <= da_ratio da /\ 0 < da_one da /\ 0 < da_two da) ->
  (forall l i, In l ls -> In i (ld_nodes l) -> (i < length mesh)%nat) ->
  exists ps cs, semi_rigid_parts rail (tl (joined_parts j rail pad sleeper soils)) c (jn_rail_nodes j) (jn_rail_els j) len mass f x0 = Ok ps /\ script_constraints j c cs /\
    exists s ns' k, initialise_system (joined_mesh c mesh) ps ls cs da = Ok (s, ns', k) /\
    forall a m c, 0 < a -> 0 <= m -> 0 <= c ->
      let mat i j := a * me (gK s) i j + m * me (gM s) i j + c * me (gC s) i j in
      pos_def k mat /\ (forall x y, (forall i, (i < k)%nat -> mulv k mat x i = mulv k mat y i) -> forall i, (i < k)%nat -> x i = y i).
Proof.
  intros hr hd hsp hj hrail hpad hsl hsoils hc hat hlen hf hsup hda hls. pose proof (joined_line h specs d r j c mesh hr hd hsp hj) as [hm [hsl' hline]].
  assert (hc' : length soils = length (jn_soil j)) by congruence.
  destruct (hinge_made c (length mesh) (d / INR r) j rail (tl (joined_parts j rail pad sleeper soils)) len mass f x0 i hline hd hat hlen hf) as [ps hps].
  exists ps. eexists. split; [exact hps|].
  assert (hcs : script_constraints j c (joined_sides j :: map fixed_nodes (map (fun part => map snd (snd part)) (jn_soil j)))).
  { eexists. split; [exact (line_bottoms c _ _ j hline)|reflexivity]. }
  split; [exact hcs|]. set (cs := joined_sides j :: map fixed_nodes (map (fun part => map snd (snd part)) (jn_soil j))) in *.
  assert (hf0 : 0 <= f) by lra.
  assert (hi : exists s ns' k, initialise_system (joined_mesh c mesh) ps ls cs da = Ok (s, ns', k)).
  { rewrite hm. eapply h_initialises with (sleeper := sleeper); eassumption. }
  destruct hi as [s [ns' [k hi]]]. exists s, ns', k. split; [exact hi|].
  assert (hsound : Forall (fun p => sound (settled (joined_mesh c (seq 0 (length mesh))) p)) ps) by (eapply h_sounds with (sleeper := sleeper); eassumption).
  assert (hshape : Forall shaped ps) by (eapply h_shaped with (sleeper := sleeper); eassumption).
  pose proof hi as hi'. rewrite hm in hi'. destruct (joined_held c _ (d / INR r) j _ ls cs da s ns' k hline hcs hi') as [g1 [g2 _]].
  assert (hK : pos_def k (me (gK s))) by (exact (C128_definite h specs d r j c mesh rail pad sleeper soils len mass f x0 i ps ls cs da s ns' k hr hd hsp hj hrail hpad hsl hsoils hc hat hlen hf0 hps hi g1 g2 hsup)).
  destruct (initialise_psd _ _ _ _ _ _ _ _ hshape hsound hda hi') as [_ [hM hC]].
  intros a m0 c0 ha hm0 hc0 mat. assert (hmat : pos_def k mat) by (apply pos_def_sum; assumption).
  split; [exact hmat|]. intros x y. exact (pos_def_injective k mat x y hmat).
Qed.
Print Assumptions C128_well_posed.

(** Without stiffness in the hinge the support of both pieces is needed: when all sleepers are at one side of the hinge (or at it), a rail
    without shear deformation swings freely beyond it, as in the scripts nothing holds its end vertically *)
Theorem C128_loose_end h specs d r j c mesh rail pad sleeper soils len mass x0 i ps ls cs da s ns' k :
  (1 <= r)%nat -> 1 / 1000000000 < d / INR r -> segments specs -> joins h specs d r j c mesh ->
  good_rail rail -> b_shear_factor rail = 0 -> good_rod pad -> Forall good_rod soils -> length soils = length specs ->
  hinge_at c (jn_rail_nodes j) x0 i -> 0 < len ->
  semi_rigid_parts rail (tl (joined_parts j rail pad sleeper soils)) c (jn_rail_nodes j) (jn_rail_els j) len mass 0 x0 = Ok ps ->
  script_constraints j c cs ->
  initialise_system (joined_mesh c mesh) ps ls cs da = Ok (s, ns', k) ->
  let l := d / INR r in let tol := 1 / 100000000 in
  tol < 3 * (b_E rail * b_I rail) / (l * l * l) -> tol < b_rho rail * b_A rail * l / 3 -> tol < fst (fst pad) -> tol < sleeper ->
  tol < 3 * (b_E rail * b_I rail) / l -> tol < b_rho rail * b_A rail * (l * l * l) / 105 ->
  (forall q, In q (jn_sleepers j) -> tx (c q) <= tx (c (nth i (jn_rail_nodes j) 0%nat))) ->
  exists x, (exists q, (q < k)%nat /\ x q <> 0) /\ quad k (me (gK s)) x = 0.
Proof.
  intros hr hd hsp hj hrail hshear hpad hsoils hc hat hlen hps hcs hi l tol h1 h2 h3 h4 h5 h6 hleft. destruct (joined_line h specs d r j c mesh hr hd hsp hj) as [hm [hsl hline]].
  rewrite hm in hi. rewrite <- hsl in hc. fold l in hline. assert (hs0 : 0 <= sleeper) by (unfold tol in h4; lra). assert (hl : 0 < l) by (unfold l; lra).
  assert (hphi : timoshenko_factor 0 (with_length rail l) = 0). { rewrite <- ratio_is_factor by assumption. unfold shear_ratio. rewrite hshear. destruct (Rlt_dec 0 0); lra. }
  assert (hflag : forall p d, In p (jn_rail_nodes j) -> d <> DX -> flag_after cs p d true = true).
  { destruct hcs as [bottoms [hb ->]]. rewrite (line_bottoms c _ l j hline) in hb. injection hb as <-. destruct (line_heights c _ l j hline) as [y1 [_ y3]].
    intros p e hp he. apply flag_kept. intros q [<-|hq] hpq; [destruct e; [contradiction he| |]; reflexivity|]. exfalso.
    apply in_map_iff in hq. destruct hq as [b [<- hq]]. apply in_map_iff in hq. destruct hq as [part [<- hq]]. cbn [fixed_nodes fst] in hpq. apply in_map_iff in hpq. destruct hpq as [e' [<- he']].
    pose proof (y3 part e' hq he'). pose proof (y1 _ hp). lra. }
  exact (h_mechanism c _ l j hline hd rail pad sleeper soils hrail hpad hs0 hsoils hc len mass 0 x0 i ps hat hlen ltac:(lra) hps ls cs da s ns' k hi hphi eq_refl hleft hflag h1 h2 h3 h4 h5 h6).
Qed.
Print Assumptions C128_loose_end.

(** ** cases that meet the hypotheses *)

Lemma joined_places h specs d r : (1 <= r)%nat -> 1 / 1000000000 < d / INR r -> segments specs ->
  exists j c mesh, joins h specs d r j c mesh /\ length (jn_rail_nodes j) = (sleeper_count specs * r + (length specs - 1) * (r - 1))%nat /\
    map c (jn_sleepers j) = map (fun x => T3 x (-1) 0) (sleeper_places (2 * d - d / INR r) d 0 specs).
Proof.
  intros hr hd [hs hc]. assert (hne : specs <> []) by (intros ->; cbn in hc; lia).
  assert (hf : length (flat_map tk_objects (tracks_of r d 0 specs)) = total r specs).
  { rewrite <- (map_length (@n_id R)), (tracks_ids r d hr), seq_length. reflexivity. }
  destruct (Props_Mesh.C52_joined_tracks_partial h 0 specs d r (length (flat_map tk_objects (tracks_of r d 0 specs))) hr hd hne hs) as [ts [et [hlt g]]].
  pose proof (create_tracks_spec r d hr hd h 0 specs hs) as et'. rewrite et in et'. injection et' as ->.
  destruct g as [j [c [mesh [els [e2 [r1 [_ [_ [s1 _]]]]]]]]].
  { intros t n ht hn. rewrite hf. assert (hin : In (n_id n) (seq 0 (total r specs))).
    { rewrite <- (tracks_ids r d hr). apply in_map. apply in_flat_map. exists t. auto. }
    apply in_seq in hin. lia. }
  exists j, c, mesh. split; [exists (tracks_of r d 0 specs), els; auto|]. split; [exact r1|exact s1].
Qed.
Lemma sleeper_at (c : heap R) (sleepers : list nat) (places : list R) (x : R) : map c sleepers = map (fun x => T3 x (-1) 0) places -> In x places -> exists q, In q sleepers /\ tx (c q) = x.
Proof.
  intros h hx. assert (g : In (T3 x (-1) 0) (map c sleepers)) by (rewrite h; apply (in_map (fun x => T3 x (-1) 0)); exact hx). apply in_map_iff in g. destruct g as [q [g1 g2]].
  exists q. split; [exact g2|]. rewrite g1. reflexivity.
Qed.

(** the three segments of C125_case with a hinge at 1.2, with or without stiffness: sleepers at 0 and 0.6 are before it, those of the other
    segments behind it *)
Example C128_case h f : 0 <= f <= 1 -> exists j c mesh ps cs, joins h case_specs (6 / 10) 2 j c mesh /\
  semi_rigid_parts case_rail (tl (joined_parts j case_rail case_pad 140 case_soils)) c (jn_rail_nodes j) (jn_rail_els j) (6 / 10) 100 f (12 / 10) = Ok ps /\ script_constraints j c cs /\
  exists s ns' k, initialise_system (joined_mesh c mesh) ps [] cs (mkDamping true (1 / 50) 2 300) = Ok (s, ns', k) /\ joined_stands j ns' /\ pos_def k (me (gK s)).
Proof.
  intros hf. destruct case_values as [h1 [h2 [h3 [hsp [hd [h6 [h7 [h8 h9]]]]]]]]. destruct (joined_places h case_specs (6 / 10) 2 ltac:(lia) hd hsp) as [j [c [mesh [hj [hlen hpl]]]]].
  destruct (joined_line h case_specs (6 / 10) 2 j c mesh ltac:(lia) hd hsp hj) as [_ [_ hline]]. change (length (jn_rail_nodes j) = 14%nat) in hlen.
  assert (hat : hinge_at c (jn_rail_nodes j) (12 / 10) 4).
  { unfold hinge_at, near. rewrite hlen. split; [lia|]. split; [lia|]. rewrite (ln_rail _ _ _ _ hline) by lia. cbn [tx]. split.
    - replace (INR 4 * (6 / 10 / INR 2) - 12 / 10) with 0 by (cbn; lra). rewrite Rabs_R0. rewrite Rabs_right; lra.
    - intros q hq. rewrite (ln_rail _ _ _ _ hline) by lia. cbn [tx]. rewrite (Rabs_right (12 / 10)) by lra.
      destruct q as [|[|[|[|q]]]]; [| | | |lia]; cbn -[IZR]; rewrite Rabs_left; lra. }
  assert (hx : tx (c (nth 4 (jn_rail_nodes j) 0%nat)) = 12 / 10) by (rewrite (ln_rail _ _ _ _ hline) by lia; cbn; lra).
  assert (hrest : rests_apart c (jn_sleepers j) (tx (c (nth 4 (jn_rail_nodes j) 0%nat)))).
  { destruct (sleeper_at c _ _ 0 hpl) as [q1 [a1 b1]]; [cbn -[IZR]; left; lra|]. destruct (sleeper_at c _ _ (6 / 10) hpl) as [q2 [a2 b2]]; [cbn -[IZR]; right; left; lra|].
    destruct (sleeper_at c _ _ (21 / 10) hpl) as [q3 [a3 b3]]; [cbn -[IZR]; right; right; right; left; lra|].
    exists q1, q2, q3. rewrite hx, b1, b2, b3. repeat (split; [assumption|]). split; [lra|]. left. lra. }
  destruct (C128_well_posed h case_specs (6 / 10) 2 j c mesh case_rail case_pad 140 case_soils (6 / 10) 100 f (12 / 10) 4 [] (mkDamping true (1 / 50) 2 300)
    ltac:(lia) hd hsp hj h1 h2 ltac:(lra) h3 eq_refl hat ltac:(lra) hf (or_intror hrest)) as [ps [cs [g1 [g2 [s [ns' [k [g3 g4]]]]]]]].
  { intros _. cbn. lra. } { intros l i []. }
  exists j, c, mesh, ps, cs. split; [exact hj|]. split; [exact g1|]. split; [exact g2|]. exists s, ns', k. split; [exact g3|]. split.
  - eapply (C128_stands h case_specs (6 / 10) 2); try eassumption; try lra; [lia|reflexivity|].
    unfold shear_ratio. cbn [case_rail b_E b_I b_shear_factor]. destruct (Rlt_dec 0 0); cbn; lra.
  - destruct (g4 1 0 0 ltac:(lra) ltac:(lra) ltac:(lra)) as [m3 _]. intros x hx'. specialize (m3 x hx').
    rewrite (quad_ext k _ (me (gK s)) x) in m3; [exact m3|]. intros a b _ _. ring.
Qed.

(** two sleepers at 0 and 0.6 with three rail elements each and a hinge without stiffness at 0.6: the piece of rail from 0.6 to 1.0 swings *)
Example C128_loose_end_case h : exists j c mesh ps cs, joins h [(2%nat, 1)] (6 / 10) 3 j c mesh /\
  semi_rigid_parts case_rail (tl (joined_parts j case_rail case_pad 140 [case_pad])) c (jn_rail_nodes j) (jn_rail_els j) (6 / 10) 100 0 (6 / 10) = Ok ps /\ script_constraints j c cs /\
  exists s ns' k, initialise_system (joined_mesh c mesh) ps [] cs (mkDamping false 0 0 0) = Ok (s, ns', k) /\ ~ pos_def k (me (gK s)).
Proof.
  destruct case_values as [h1 [h2 [h3 _]]]. assert (e3 : INR 3 = 3) by (cbn; lra). assert (hd : 1 / 1000000000 < 6 / 10 / INR 3) by (rewrite e3; lra).
  assert (hsp : segments [(2%nat, 1)]). { split; [|cbn; lia]. intros n depth [g|[]]; injection g as <- <-; split; lia || lra. }
  destruct (joined_places h [(2%nat, 1)] (6 / 10) 3 ltac:(lia) hd hsp) as [j [c [mesh [hj [hlen hpl]]]]].
  destruct (joined_line h _ (6 / 10) 3 j c mesh ltac:(lia) hd hsp hj) as [hm [hsl hline]]. change (length (jn_rail_nodes j) = 6%nat) in hlen.
  assert (hx : tx (c (nth 3 (jn_rail_nodes j) 0%nat)) = 6 / 10) by (rewrite (ln_rail _ _ _ _ hline) by lia; cbn; lra).
  assert (hat : hinge_at c (jn_rail_nodes j) (6 / 10) 3).
  { unfold hinge_at, near. rewrite hlen. split; [lia|]. split; [lia|]. rewrite hx. split.
    - replace (6 / 10 - 6 / 10) with 0 by lra. rewrite Rabs_R0. rewrite Rabs_right; lra.
    - intros q hq. rewrite (ln_rail _ _ _ _ hline) by lia. cbn [tx]. rewrite (Rabs_right (6 / 10)) by lra.
      destruct q as [|[|[|q]]]; [| | |lia]; cbn -[IZR]; rewrite Rabs_left; lra. }
  destruct (hinge_made c (length mesh) _ j case_rail (tl (joined_parts j case_rail case_pad 140 [case_pad])) (6 / 10) 100 0 (6 / 10) 3 hline hd hat ltac:(lra) ltac:(lra)) as [ps hps].
  assert (hcs : script_constraints j c (joined_sides j :: map fixed_nodes (map (fun part => map snd (snd part)) (jn_soil j)))).
  { eexists. split; [exact (line_bottoms c _ _ j hline)|reflexivity]. }
  set (cs := joined_sides j :: map fixed_nodes (map (fun part => map snd (snd part)) (jn_soil j))) in *.
  assert (hg : Forall good_rod [case_pad]) by (constructor; [exact h2|constructor]).
  assert (hc : length [case_pad] = length (jn_soil j)) by (rewrite hsl; reflexivity).
  assert (hi : exists s ns' k, initialise_system (joined_mesh c mesh) ps [] cs (mkDamping false 0 0 0) = Ok (s, ns', k)).
  { rewrite hm. eapply h_initialises with (sleeper := 140) (len := 6 / 10) (f := 0); try eassumption; try lra. intros q p []. }
  destruct hi as [s [ns' [k hi]]]. exists j, c, mesh, ps, cs. repeat (split; [assumption|]). exists s, ns', k. split; [exact hi|].
  destruct (C128_loose_end h [(2%nat, 1)] (6 / 10) 3 j c mesh case_rail case_pad 140 [case_pad] (6 / 10) 100 (6 / 10) 3 ps [] cs (mkDamping false 0 0 0) s ns' k) as [x [x1 x2]]; try assumption; try (rewrite e3; cbn [case_rail case_pad b_E b_I b_rho b_A fst]; lra).
  - lia.
  - reflexivity.
  - reflexivity.
  - lra.
  - cbn. lra.
  - lra.
  - intros q hq. rewrite hx. assert (g : In (c q) (map c (jn_sleepers j))) by (apply in_map; exact hq). rewrite hpl in g. cbn -[IZR] in g.
    destruct g as [<-|[<-|[]]]; cbn; lra.
  - intros z. specialize (z x x1). lra.
Qed.
