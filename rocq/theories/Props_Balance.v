(** * The soil carries the load (C119) *)

From Coq Require Import Reals List Bool ZArith Arith Lia Lra.
From Verif Require Import Num PyBase Model_Geometry Model_System Spec_System Proofs_Dof Proofs_System Model_Element Spec_Element
  Proofs_Elements Proofs_Element Proofs_Beam Proofs_Force Model_Accumulation Proofs_Accumulation Proofs_Geometry Model_Coupled Model_Mesh Proofs_Mesh Proofs_Hinge
  Model_Track Spec_Track Spec_Generated Proofs_Track Proofs_Assembly Proofs_Generated Props_Generated Spec_Analytic Spec_Motion Proofs_Motion Spec_Chain Proofs_Chain
  Spec_Renumber Proofs_Renumber Spec_Balance Proofs_Balance.
Import ListNotations.
Local Open Scope R_scope.

(** what [stands] says about the nodes of the generated mesh *)
Lemma stands_free n r d depth ns' : stands (the_track 0 n r d depth) ns' -> forall p, (p < n * r + n)%nat -> number_of ns' p DY <> None.
Proof.
  intros [h _] p hp. apply h. change (tk_rail_nodes (the_track 0 n r d depth)) with (seq 0 (n * r)). change (tk_sleepers (the_track 0 n r d depth)) with (seq (0 + n * r) n).
  destruct (Nat.lt_ge_cases p (n * r)) as [c|c]; [left|right]; apply in_seq; lia.
Qed.
Lemma stands_held n r d depth ns' : stands (the_track 0 n r d depth) ns' -> forall i, (i < n)%nat -> number_of ns' (n * r + n + i)%nat DY = None.
Proof.
  intros [_ h] i hi. apply (h ((n * r + i)%nat, (n * r + n + i)%nat)).
  change (tk_soil_els (the_track 0 n r d depth)) with (map (fun i => ((n * r + i)%nat, (n * r + n + i)%nat)) (seq 0 n)). apply in_map_iff. exists i. split; [reflexivity|apply in_seq; lia].
Qed.

Lemma vertical_add ns f g : vertical ns (fun i => f i + g i) = vertical ns f + vertical ns g.
Proof.
  unfold vertical. induction (seq 0 (length ns)) as [|p q IH]; cbn [map nsum]; rnum; [ring|]. rewrite IH. unfold field_of. destruct (number_of ns p DY); ring.
Qed.
Lemma vertical_ext ns k f g : numbered ns k -> (forall i, (i < k)%nat -> f i = g i) -> vertical ns f = vertical ns g.
Proof.
  intros hn h. apply nsum_map_ext. intros p _. unfold field_of. destruct (number_of ns p DY) as [i|] eqn:e; [|reflexivity]. apply h.
  assert (g1 : In i (all_numbers ns)) by (apply all_numbers_In; eauto). rewrite hn in g1. apply in_seq in g1. lia.
Qed.

(** the loads on rails and sleepers add up to the vertical components of the force vector *)
Lemma nsum_swap {A B} (f : A -> B -> R) l q : nsum (map (fun a => nsum (map (f a) q)) l) = nsum (map (fun b => nsum (map (fun a => f a b) l)) q).
Proof.
  induction l as [|a l IH]; cbn [map nsum].
  - symmetry. apply nsum_zero. reflexivity.
  - rewrite IH. clear IH. induction q as [|b q IH]; cbn [map nsum]; rnum; [ring|]. rewrite <- IH. ring.
Qed.
Lemma nsum_pick k p (v : R) : (p < k)%nat -> nsum (map (fun i => if Nat.eqb p i then v else 0) (seq 0 k)) = v.
Proof. intros h. rewrite nsum_map_seq. apply (sumn_pick k (fun _ => v) p h). Qed.

Lemma loads_total (ns : list (node R)) ps ls cs da s ns' k : initialise_system ns ps ls cs da = Ok (s, ns', k) -> Forall plain_load ls ->
  (forall l i, In l ls -> In i (ld_nodes l) -> number_of ns' i DY <> None) ->
  vertical ns' (fun i => nth i (gF s) 0) = total_load ls.
Proof.
  intros h hp hn. pose proof (loads_in_range _ _ _ _ _ _ _ _ h) as hb. pose proof (plain_forces _ _ _ _ _ _ _ _ h hb hp) as hf.
  destruct (initialise_inv _ _ _ _ _ _ _ _ h) as [s0 [_ [e0 _]]]. destruct (initialise_kept _ _ _ _ _ _ _ _ _ h e0) as [hl _].
  unfold vertical. transitivity (nsum (map (fun p => nsum (map (fun l => load_force l p DY) ls)) (seq 0 (length ns')))).
  - apply nsum_map_ext. intros p _. unfold field_of. destruct (number_of ns' p DY) as [i|] eqn:e; [exact (hf p DY i e)|].
    symmetry. apply nsum_zero. intros l hin. unfold load_force. apply nsum_zero. intros [q v] hq. cbn [fst snd].
    destruct (Nat.eqb_spec q p) as [->|ne]; [|rewrite andb_false_r; reflexivity]. exfalso. apply in_combine_l in hq. exact (hn l p hin hq e).
  - rewrite nsum_swap. unfold total_load. apply nsum_map_ext. intros l hin. unfold load_force. rewrite nsum_swap. cbn [tget].
    destruct (ty (ld_flag l)) eqn:ef; cbn [andb].
    + rewrite Forall_forall in hp. destruct (hp l hin) as [_ h2]. specialize (hb l). clear - hb hin h2 hl. specialize (fun i => hb i hin).
      revert hb h2. generalize (ld_vals l). induction (ld_nodes l) as [|i q IH]; intros [|v vs] hb h2; try discriminate; [reflexivity|]. cbn [combine map nsum fst snd].
      rewrite nsum_pick by (rewrite hl; apply hb; left; reflexivity). f_equal. apply IH; [intros; apply hb; right; assumption|]. injection h2 as h2. exact h2.
    + apply nsum_zero. intros a _. apply nsum_zero. reflexivity.
Qed.

(** At rest the soil carries the loads: in static equilibrium the vertical loads on rails and sleepers add up to the spring forces
    of the soil, stiffness times displacement of the sleepers, however the track bends *)
Theorem C119_static h n r (d depth : R) t rail pad sleeper soil ls cs da s ns' k x :
  (2 <= n)%nat -> (1 <= r)%nat -> 1 / 1000000000 < d / INR r -> 1 / 1000000000 < depth ->
  create_horizontal_track h 0 n d depth r = Ok t -> good_rail rail -> good_rod pad -> 0 <= sleeper -> good_rod soil ->
  initialise_system (tk_mesh t) (track_parts t rail pad sleeper soil) ls cs da = Ok (s, ns', k) -> stands t ns' ->
  Forall plain_load ls -> (forall l i, In l ls -> In i (ld_nodes l) -> In i (tk_rail_nodes t) \/ In i (tk_sleepers t)) ->
  in_balance s k x ->
  total_load ls = soil_sum t (fst (fst soil)) (field_of ns' x).
Proof.
  intros hn hr hd hdep ht [b1 [b2 [b3 [b4 [b5 b6]]]]] [p1 [p2 p3]] hs [s1 [s2 s3]] hi hst hp hl hb. apply created in ht; try assumption. subst t.
  destruct (initialise_inv _ _ _ _ _ _ _ _ hi) as [s0 [_ [e0 _]]]. destruct (initialise_kept _ _ _ _ _ _ _ _ _ hi e0) as [_ [hnum _]].
  rewrite <- (loads_total _ _ _ _ _ _ _ _ hi hp) by (intros l i q1 q2; destruct hst as [hst _]; apply hst; exact (hl l i q1 q2)).
  rewrite <- (vertical_ext ns' k (mulv k (me (gK s)) x) _ hnum hb).
  exact (vertical_stiffness n r d depth hn hr hd hdep rail (fst (fst pad)) (fst (fst soil)) sleeper (snd (fst pad)) (snd pad) (snd (fst soil)) (snd soil)
    b1 b2 b3 b4 b5 b6 p1 s1 hs p2 p3 s2 s3 ls cs da s ns' k hi (stands_free _ _ _ _ _ hst) (stands_held _ _ _ _ _ hst) x).
Qed.
Print Assumptions C119_static.

Lemma derivative_vertical k a (v w : R -> nat -> R) ns : (forall i, (i < k)%nat -> derivative (fun t => v t i) (fun t => w t i)) -> numbered ns k ->
  derivative (fun t => vertical ns (mulv k a (v t))) (fun t => vertical ns (mulv k a (w t))).
Proof.
  intros h hn. unfold vertical. set (q := seq 0 (length ns)). clearbody q. induction q as [|p q IH]; cbn [map nsum].
  - intros t. apply derivable_pt_lim_const.
  - intros t. rnum. apply (derivable_pt_lim_plus (fun t => field_of ns (mulv k a (v t)) p DY) (fun t => nsum (map (fun p => field_of ns (mulv k a (v t)) p DY) q))); [|apply IH].
    unfold field_of. destruct (number_of ns p DY) as [i|]; [|apply derivable_pt_lim_const]. unfold mulv.
    apply (derivative_sumn k (fun t j => a i j * v t j) (fun t j => a i j * w t j)). intros j hj t1. apply (derivable_pt_lim_scal (fun t => v t j)). apply h. exact hj.
Qed.

(** In motion the soil carries what the loads do not give to the track: the vertical momentum of the track changes by the loads
    minus the spring and damper forces of the soil, and with Rayleigh damping by its mass and stiffness terms *)
Theorem C119_momentum h n r (d depth : R) t rail pad sleeper soil ls cs da s ns' k f u v a :
  (2 <= n)%nat -> (1 <= r)%nat -> 1 / 1000000000 < d / INR r -> 1 / 1000000000 < depth ->
  create_horizontal_track h 0 n d depth r = Ok t -> good_rail rail -> good_rod pad -> 0 <= sleeper -> good_rod soil ->
  initialise_system (tk_mesh t) (track_parts t rail pad sleeper soil) ls cs da = Ok (s, ns', k) -> stands t ns' ->
  motion k s f u v a ->
  let P v := momentum t (d / INR r) rail (or_zero (snd pad)) sleeper (or_zero (snd soil)) (field_of ns' v) in
  let spring u := soil_sum t (fst (fst soil)) (field_of ns' u) in
  derivative (fun t => P (v t))
    (fun t1 => vertical ns' (f t1) - spring (u t1) - soil_sum t (or_zero (snd (fst soil))) (field_of ns' (v t1)) -
       (if da_on da then let a1 := 2 * da_ratio da / (da_one da + da_two da) in da_one da * da_two da * a1 * P (v t1) + a1 * spring (v t1) else 0)).
Proof.
  intros hn hr hd hdep ht [b1 [b2 [b3 [b4 [b5 b6]]]]] [p1 [p2 p3]] hs [s1 [s2 s3]] hi hst [hu [hv he]]. apply created in ht; try assumption. subst t. cbv zeta.
  destruct (initialise_inv _ _ _ _ _ _ _ _ hi) as [s0 [_ [e0 _]]]. destruct (initialise_kept _ _ _ _ _ _ _ _ _ hi e0) as [_ [hnum _]].
  pose proof (vertical_stiffness n r d depth hn hr hd hdep rail (fst (fst pad)) (fst (fst soil)) sleeper (snd (fst pad)) (snd pad) (snd (fst soil)) (snd soil)
    b1 b2 b3 b4 b5 b6 p1 s1 hs p2 p3 s2 s3 ls cs da s ns' k hi (stands_free _ _ _ _ _ hst) (stands_held _ _ _ _ _ hst)) as g1.
  pose proof (vertical_mass n r d depth hn hr hd hdep rail (fst (fst pad)) (fst (fst soil)) sleeper (snd (fst pad)) (snd pad) (snd (fst soil)) (snd soil)
    b2 b3 b4 b5 b6 p1 s1 hs p2 p3 s2 s3 ls cs da s ns' k hi (stands_free _ _ _ _ _ hst) (stands_held _ _ _ _ _ hst)) as g2.
  pose proof (vertical_damping n r d depth hn hr hd hdep rail (fst (fst pad)) (fst (fst soil)) sleeper (snd (fst pad)) (snd pad) (snd (fst soil)) (snd soil)
    b1 b2 b3 b4 b5 b6 p1 s1 hs p2 p3 s2 s3 ls cs da s ns' k hi (stands_free _ _ _ _ _ hst) (stands_held _ _ _ _ _ hst)) as g3.
  apply (derivative_ext (fun t => vertical ns' (mulv k (me (gM s)) (v t))) _ (fun t => vertical ns' (mulv k (me (gM s)) (a t)))).
  - intros t1. apply g2.
  - intros t1. assert (e : vertical ns' (f t1) = vertical ns' (mulv k (me (gM s)) (a t1)) + vertical ns' (mulv k (me (gC s)) (v t1)) + vertical ns' (mulv k (me (gK s)) (u t1))).
    { rewrite <- !vertical_add. symmetry. apply (vertical_ext ns' k); [exact hnum|]. intros i hlt. apply he. exact hlt. }
    rewrite e, g1, g3. destruct (da_on da); [unfold rayleigh_factors; rnum|]; ring.
  - apply derivative_vertical; [exact hv|exact hnum].
Qed.
Print Assumptions C119_momentum.

(** the mean velocity of the bent axis of a rail element without shear deformation: the area below the shape functions *)
Theorem C119_axis (l v1 t1 v2 t2 : R) : 0 < l ->
  exists G, derivative G (fun x => interp (y_shape l 0 x) v1 t1 v2 t2) /\ G l - G 0 = l * ((v1 + v2) / 2 + l * (t1 - t2) / 12).
Proof.
  intros hl.
  set (c1 := v1). set (c2 := t1). set (c3 := (3 * (v2 - v1) / l - 2 * t1 - t2) / l). set (c4 := (2 * (v1 - v2) / l + t1 + t2) / (l * l)).
  exists (fun x => x * (c1 + c2 / 2 * x + c3 / 3 * (x * x) + c4 / 4 * (x * x * x))). split.
  - intros x.
    pose proof (derivable_pt_lim_mult (fun x => x) _ x 1 _ (derivable_pt_lim_id x) (cubic_deriv c1 (c2 / 2) (c3 / 3) (c4 / 4) x)) as g.
    unfold mult_fct in g.
    replace (interp (y_shape l 0 x) v1 t1 v2 t2) with
      (1 * (c1 + c2 / 2 * x + c3 / 3 * (x * x) + c4 / 4 * (x * x * x)) + x * (c2 / 2 + 2 * (c3 / 3) * x + 3 * (c4 / 4) * (x * x))); [exact g|].
    unfold interp, y_shape, sq, cube, c1, c2, c3, c4. rnum. field. lra.
  - unfold c1, c2, c3, c4. field. lra.
Qed.
Print Assumptions C119_axis.

(** The track of the scripts stands: with the boundaries of the scripts, and values above the tolerance below which the code takes
    them for zero, rails and sleepers keep their vertical direction and the lower ends of the soil lose it *)
Theorem C119_scripts h n r (d depth : R) t bottom rail pad sleeper soil ls da s ns' k :
  (2 <= n)%nat -> (1 <= r)%nat -> 1 / 1000000000 < d / INR r -> 1 / 1000000000 < depth ->
  create_horizontal_track h 0 n d depth r = Ok t -> good_rail rail -> good_rod pad -> good_rod soil ->
  bottom_boundary (mesh_coord (tk_mesh t)) (map (fun e => [fst e; snd e]) (tk_soil_els t)) = Ok bottom ->
  initialise_system (tk_mesh t) (track_parts t rail pad sleeper soil) ls [side_boundary t; fixed_nodes bottom] da = Ok (s, ns', k) ->
  let l := d / INR r in let tol := 1 / 100000000 in
  tol < 12 * (b_E rail * b_I rail) / ((1 + shear_ratio l rail) * (l * l * l)) -> tol < b_rho rail * b_A rail * l / 3 -> tol < fst (fst pad) -> tol < sleeper ->
  stands t ns'.
Proof.
  intros hn hr hd hdep ht hrail hpad hsoil hbot hi l tol h1 h2 h3 h4. pose proof hrail as [b1 [b2 [b3 [b4 [b5 b6]]]]]. pose proof hpad as [p1 [p2 p3]]. pose proof hsoil as [s1 [s2 s3]].
  apply created in ht; try assumption. subst t. rewrite bottom_nodes in hbot by assumption. injection hbot as <-.
  set (t := the_track 0 n r d depth) in *. set (bottom := map (fun i => (n * r + n + i)%nat) (seq 0 n)) in *.
  assert (hside : side_boundary t = ([0; n * r - 1]%nat, T3 false true true)) by (apply side_nodes; assumption).
  destruct (initialise_inv _ _ _ _ _ _ _ _ hi) as [s0 [_ [e0 _]]]. destruct (initialise_kept _ _ _ _ _ _ _ _ _ hi e0) as [hl [_ [hk _]]].
  assert (hlen : length (tk_mesh t) = (n * r + n + n)%nat) by (apply mesh_length; assumption).
  assert (hlp : 0 < l) by (unfold l; lra).
  assert (hphi : shear_ratio l rail = timoshenko_factor 0 (mkBeam (b_E rail) (b_nu rail) (b_rho rail) (b_A rail) (b_I rail) (b_shear_factor rail) l (b_s1 rail) (b_s2 rail))).
  { symmetry. rewrite (factor_is_ratio l) by (try exact hlp; unfold good_beam, fixed_ends in *; cbn; tauto). reflexivity. }
  pose proof (rails_two n r hn hr) as hrt.
  split.
  - intros p hp.
    assert (hb : (p < n * r + n)%nat).
    { change (tk_rail_nodes t) with (seq 0 (n * r)) in hp. change (tk_sleepers t) with (seq (0 + n * r) n) in hp. destruct hp as [hp|hp]; apply in_seq in hp; lia. }
    rewrite hphi in h1.
    apply (vertical_kept n r d depth hn hr hd hdep rail (fst (fst pad)) (fst (fst soil)) sleeper (snd (fst pad)) (snd pad) (snd (fst soil)) (snd soil)
      b1 b2 b3 b4 b5 b6 p1 s1 ltac:(unfold tol in h4; lra) p3 s3 ls _ da s ns' k p hi hb); try assumption.
    rewrite hside. unfold flag_after. cbn [fold_left fst snd fixed_nodes].
    assert (q1 : memb p bottom = false).
    { destruct (memb p bottom) eqn:e; [|reflexivity]. apply memb_In in e. unfold bottom in e. apply in_map_iff in e. destruct e as [j [e _]]. lia. }
    rewrite q1. destruct (memb p [0%nat; (n * r - 1)%nat]); reflexivity.
  - intros e he. change (tk_soil_els t) with (map (fun i => ((n * r + i)%nat, (n * r + n + i)%nat)) (seq 0 n)) in he. apply in_map_iff in he.
    destruct he as [q [<- hq]]. pose proof hq as hq'. apply in_seq in hq. cbn [snd]. destruct (number_of ns' (n * r + n + q) DY) as [j|] eqn:ej; [|reflexivity]. exfalso.
    destruct (hk (n * r + n + q)%nat DY) as [g _]; [lia|]. destruct g as [g _]; [congruence|]. rewrite flag_held in g; [discriminate| |].
    + rewrite hside. intros c [<-|[<-|[]]] hp; [cbn in hp; lia|reflexivity].
    + right. exists (fixed_nodes bottom). split; [right; left; reflexivity|]. cbn [fixed_nodes fst]. unfold bottom. apply in_map_iff. exists q. auto.
Qed.
Print Assumptions C119_scripts.

(** the track of the scripts under any vertical loads on rails and sleepers: it can be initialised, and whenever it is in
    equilibrium the soil carries the loads *)
Theorem C119_total h n r (d depth : R) rail pad sleeper soil ls da :
  (2 <= n)%nat -> (1 <= r)%nat -> 1 / 1000000000 < d / INR r -> 1 / 1000000000 < depth ->
  good_rail rail -> good_rod pad -> good_rod soil -> (da_on da = true -> 0 <= da_ratio da /\ 0 < da_one da /\ 0 < da_two da) ->
  let l := d / INR r in let tol := 1 / 100000000 in
  tol < 12 * (b_E rail * b_I rail) / ((1 + shear_ratio l rail) * (l * l * l)) -> tol < b_rho rail * b_A rail * l / 3 -> tol < fst (fst pad) -> tol < sleeper ->
  Forall plain_load ls -> (forall l i, In l ls -> In i (ld_nodes l) -> (i < n * r + n)%nat) ->
  exists t bottom s ns' k, create_horizontal_track h 0 n d depth r = Ok t /\
    bottom_boundary (mesh_coord (tk_mesh t)) (map (fun e => [fst e; snd e]) (tk_soil_els t)) = Ok bottom /\
    initialise_system (tk_mesh t) (track_parts t rail pad sleeper soil) ls [side_boundary t; fixed_nodes bottom] da = Ok (s, ns', k) /\ stands t ns' /\
    forall x, in_balance s k x -> soil_sum t (fst (fst soil)) (field_of ns' x) = total_load ls.
Proof.
  intros hn hr hd hdep hrail hpad hsoil hda l tol h1 h2 h3 h4 hp hls.
  destruct (C87_well_posed h n r d depth rail pad sleeper soil ls da hn hr hd hdep hrail hpad ltac:(unfold tol in h4; lra) hsoil hda) as [t [bottom [s [ns' [k [e1 [e2 [e3 _]]]]]]]].
  { intros q i q1 q2. specialize (hls q i q1 q2). lia. }
  pose proof (C119_scripts h n r d depth t bottom rail pad sleeper soil ls da s ns' k hn hr hd hdep e1 hrail hpad hsoil e2 e3 h1 h2 h3 h4) as hst.
  exists t, bottom, s, ns', k. split; [exact e1|]. split; [exact e2|]. split; [exact e3|]. split; [exact hst|].
  intros x hx. symmetry. apply (C119_static h n r d depth t rail pad sleeper soil ls [side_boundary t; fixed_nodes bottom] da s ns' k x); try assumption; [unfold tol in h4; lra|].
  intros q i q1 q2. specialize (hls q i q1 q2). apply created in e1; try assumption. subst t. change (tk_rail_nodes (the_track 0 n r d depth)) with (seq 0 (n * r)).
  change (tk_sleepers (the_track 0 n r d depth)) with (seq (0 + n * r) n). destruct (Nat.lt_ge_cases i (n * r)); [left|right]; apply in_seq; lia.
Qed.
Print Assumptions C119_total.

(** a track of three sleepers at 0.6 with two rail elements each under two loads of 60 kN on the rail and 1 kN on a sleeper meets the
    hypotheses, and the loads add up to 121 kN *)
Example C119_case :
  let rail := mkBeam 210000000000 (3 / 10) 7860 (69 / 10000) (2337 / 100000000) 0 0 None None in
  let ls := [mkLoad (T3 false true false) [1; 4]%nat [T3 0 (-60000) 0; T3 0 (-60000) 0]; mkLoad (T3 false true true) [7]%nat [T3 0 (-1000) 5]] in
  let l := (6 / 10) / INR 2 in let tol := 1 / 100000000 in
  good_rail rail /\ good_rod (750000000, Some 750000, None) /\ good_rod (200000000, Some 10000, Some 0) /\
  tol < 12 * (b_E rail * b_I rail) / ((1 + shear_ratio l rail) * (l * l * l)) /\ tol < b_rho rail * b_A rail * l / 3 /\
  Forall plain_load ls /\ (forall l i, In l ls -> In i (ld_nodes l) -> (i < 3 * 2 + 3)%nat) /\ total_load ls = -121000.
Proof.
  cbv zeta. split; [unfold good_rail, fixed_ends; cbn; repeat split; lra|]. split; [unfold good_rod, opt_nonneg; cbn; repeat split; lra|].
  split; [unfold good_rod, opt_nonneg; cbn; repeat split; lra|].
  assert (e : INR 2 = 2) by (cbn; lra). rewrite e. clear e.
  split; [unfold shear_ratio; cbn [b_E b_I b_shear_factor]; destruct (Rlt_dec 0 0); lra|]. split; [cbn [b_rho b_A]; lra|].
  split; [repeat constructor; cbn; intuition lia|]. split; [|unfold total_load; cbn -[IZR]; rnum; lra].
  intros q i [<-|[<-|[]]]; cbn; intuition lia.
Qed.
