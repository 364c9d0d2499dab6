(** * A generated track is well posed (C87) *)

From Coq Require Import Reals List Bool ZArith Arith Lia Lra Psatz.
From Verif Require Import Num PyBase Model_Geometry Model_System Spec_System Proofs_Dof Proofs_System Model_Element Spec_Element
  Proofs_Elements Proofs_Element Proofs_Beam Proofs_Force Model_Accumulation Proofs_Accumulation Proofs_Geometry Model_Coupled Model_Mesh Proofs_Mesh Proofs_Hinge
  Model_Track Spec_Track Spec_Generated Proofs_Track Proofs_Assembly Proofs_Generated.
Import ListNotations.
Local Open Scope R_scope.

(** ** matrices with positive energy *)

Lemma pos_def_injective n m x y : pos_def n m -> (forall i, (i < n)%nat -> mulv n m x i = mulv n m y i) -> forall i, (i < n)%nat -> x i = y i.
Proof.
  intros hp e i hi. destruct (Req_dec (x i) (y i)) as [|ne]; [assumption|]. exfalso.
  assert (g : 0 < quad n m (fun j => x j - y j)) by (apply hp; exists i; split; [exact hi|lra]).
  rewrite quad_mulv, sumn_0 in g; [lra|]. intros j hj.
  assert (z : mulv n m (fun q => x q - y q) j = mulv n m x j - mulv n m y j).
  { unfold mulv. rewrite (sumn_ext n _ (fun q => m j q * x q + (-1) * (m j q * y q))) by (intros; ring). rewrite sumn_add, sumn_scal. ring. }
  rewrite z, (e j hj). ring.
Qed.

Lemma lowest_two (c : heap R) a b : ty (c b) < ty (c a) -> lowest c a [b] = b.
Proof. intros h. cbn [lowest]. destruct (nltbP (ty (c b)) (ty (c a))); [reflexivity|contradiction]. Qed.

Lemma bottom_pairs (c : heap R) (f g : nat -> nat) l : (forall i, In i l -> ty (c (g i)) < ty (c (f i))) ->
  bottom_boundary c (map (fun e => [fst e; snd e]) (map (fun i => (f i, g i)) l)) = Ok (map g l).
Proof.
  induction l as [|i l IH]; intros h; [reflexivity|]. cbn [map bottom_boundary fst snd]. rewrite IH by (intros; apply h; right; assumption). cbn [rbind].
  rewrite lowest_two by (apply h; left; reflexivity). reflexivity.
Qed.

Section Track.
  Variables (n r : nat) (d depth : R).
  Hypothesis hn : (2 <= n)%nat.
  Hypothesis hr : (1 <= r)%nat.
  Hypothesis hd : 1 / 1000000000 < d / INR r.
  Hypothesis hdepth : 1 / 1000000000 < depth.
  Let t := the_track 0 n r d depth.
  Let bottom := map (fun i => (n * r + n + i)%nat) (seq 0 n).

  Lemma bottom_nodes : bottom_boundary (mesh_coord (tk_mesh t)) (map (fun e => [fst e; snd e]) (tk_soil_els t)) = Ok bottom.
  Proof.
    change (tk_soil_els t) with (map (fun i => ((n * r + i)%nat, (n * r + n + i)%nat)) (seq 0 n)).
    apply (bottom_pairs _ (fun i => (n * r + i)%nat) (fun i => (n * r + n + i)%nat)). intros i hi. apply in_seq in hi.
    unfold mesh_coord, t. rewrite mesh_sleeper, mesh_bottom by lia. unfold sleeper_node, bottom_node. cbn. lra.
  Qed.

  Lemma side_nodes : side_boundary t = ([0; n * r - 1]%nat, T3 false true true).
  Proof.
    unfold side_boundary. change (tk_rail_nodes t) with (seq 0 (n * r)). pose proof (rails_two n r hn hr). f_equal. f_equal; [|f_equal].
    - destruct (n * r)%nat; [lia|reflexivity].
    - replace (n * r)%nat with (S (n * r - 1))%nat at 1 by lia. rewrite seq_S, last_last. reflexivity.
  Qed.
End Track.

(** ** C87 *)

Lemma created h n r (d depth : R) t : (1 <= r)%nat -> 1 / 1000000000 < d / INR r -> 1 / 1000000000 < depth ->
  create_horizontal_track h 0 n d depth r = Ok t -> t = the_track 0 n r d depth.
Proof. intros hr hd hdep e. rewrite create_spec in e by assumption. injection e as <-. reflexivity. Qed.

Lemma flag_held cs p d f : (forall c, In c cs -> In p (fst c) -> tget (snd c) d = false) -> f = false \/ (exists c, In c cs /\ In p (fst c)) ->
  flag_after cs p d f = false.
Proof.
  unfold flag_after. revert f. induction cs as [|c cs IH]; intros f h hc; [destruct hc as [hc|[c [[] _]]]; exact hc|]. cbn [fold_left].
  apply IH; [intros; apply h; [right|]; assumption|]. destruct (memb p (fst c)) eqn:e.
  - left. apply h; [left; reflexivity|]. apply memb_In. exact e.
  - destruct hc as [hc|[q [[<-|hq] hp]]]; [left; exact hc| |right; exists q; auto]. apply memb_In in hp. congruence.
Qed.

Lemma pos_def_sum n a m c (k v w : nat -> nat -> R) : pos_def n k -> psd n v -> psd n w -> 0 < a -> 0 <= m -> 0 <= c ->
  pos_def n (fun i j => a * k i j + m * v i j + c * w i j).
Proof.
  intros hk hv hw ha hm hc x hx. rewrite (quad_add n (fun i j => a * k i j + m * v i j) (fun i j => c * w i j)), (quad_add n (fun i j => a * k i j) (fun i j => m * v i j)), !quad_scal.
  specialize (hk x hx). specialize (hv x). specialize (hw x). assert (0 < a * quad n k x) by (apply Rmult_lt_0_compat; assumption).
  assert (0 <= m * quad n v x) by (apply Rmult_le_pos; assumption). assert (0 <= c * quad n w x) by (apply Rmult_le_pos; assumption). lra.
Qed.

(** A track with at least two sleepers whose bottom cannot move vertically and whose rail is held along x at some node: whatever
    other constraints, loads and damping it has, the stiffness has positive energy for every displacement but zero *)
Theorem C87_definite h n r (d depth : R) t rail pad sleeper soil ls cs da s ns' k :
  (2 <= n)%nat -> (1 <= r)%nat -> 1 / 1000000000 < d / INR r -> 1 / 1000000000 < depth ->
  create_horizontal_track h 0 n d depth r = Ok t -> good_rail rail -> good_rod pad -> 0 <= sleeper -> good_rod soil ->
  initialise_system (tk_mesh t) (track_parts t rail pad sleeper soil) ls cs da = Ok (s, ns', k) ->
  (forall e, In e (tk_soil_els t) -> number_of ns' (snd e) DY = None) -> (exists i, In i (tk_rail_nodes t) /\ number_of ns' i DX = None) ->
  pos_def k (me (gK s)).
Proof.
  intros hn hr hd hdep ht [b1 [b2 [b3 [b4 [b5 b6]]]]] [p1 [p2 p3]] hs [s1 [s2 s3]] hi hb [i [hi1 hi2]]. apply created in ht; try assumption. subst t.
  intros x [j [hj hx]].
  assert (hsound : Forall (fun p => sound (settled (tk_mesh (the_track 0 n r d depth)) p)) (track_parts (the_track 0 n r d depth) rail pad sleeper soil))
    by (apply (parts_sound n r d depth); assumption).
  assert (hshape : Forall shaped (track_parts (the_track 0 n r d depth) rail pad sleeper soil)) by (apply (parts_shaped n r d depth); assumption).
  assert (g : 0 <= quad k (me (gK s)) x).
  { destruct (initialise_energy _ _ _ _ _ _ _ _ x hshape hi) as [-> _]. apply nsum_nonneg, Forall_map, Forall_forall. intros p hp. rewrite Forall_forall in hsound.
    apply part_form_nonneg; [left; reflexivity|apply hsound; exact hp]. }
  destruct (Req_dec (quad k (me (gK s)) x) 0) as [e|ne]; [|lra]. exfalso. apply hx.
  refine (track_definite n r d depth hn hr hd hdep rail _ _ sleeper _ _ _ _ b1 b2 b3 b4 b5 b6 p1 s1 ls cs da s ns' k x hi _ _ e j hj).
  - intros q hq. apply (hb ((n * r + q)%nat, (n * r + n + q)%nat)).
    change (tk_soil_els (the_track 0 n r d depth)) with (map (fun i => ((n * r + i)%nat, (n * r + n + i)%nat)) (seq 0 n)). apply in_map_iff. exists q. split; [reflexivity|apply in_seq; lia].
  - exists i. change (tk_rail_nodes (the_track 0 n r d depth)) with (seq 0 (n * r)) in hi1. apply in_seq in hi1. split; [lia|exact hi2].
Qed.
Print Assumptions C87_definite.

(** The track of the scripts: boundary at the bottom of the soil, both ends of the rail held along x.  Initialisation succeeds
    for all loads on nodes of the mesh, and the stiffness, alone or with mass and damping in any proportion, is definite.  In
    particular static equilibrium and every step of the implicit solvers have one solution only *)
Theorem C87_well_posed h n r (d depth : R) rail pad sleeper soil ls da :
  (2 <= n)%nat -> (1 <= r)%nat -> 1 / 1000000000 < d / INR r -> 1 / 1000000000 < depth ->
  good_rail rail -> good_rod pad -> 0 <= sleeper -> good_rod soil -> (da_on da = true -> 0 <= da_ratio da /\ 0 < da_one da /\ 0 < da_two da) ->
  (forall l i, In l ls -> In i (ld_nodes l) -> (i < n * r + 2 * n)%nat) ->
  exists t bottom s ns' k, create_horizontal_track h 0 n d depth r = Ok t /\
    bottom_boundary (mesh_coord (tk_mesh t)) (map (fun e => [fst e; snd e]) (tk_soil_els t)) = Ok bottom /\
    initialise_system (tk_mesh t) (track_parts t rail pad sleeper soil) ls [side_boundary t; fixed_nodes bottom] da = Ok (s, ns', k) /\
    forall a m c, 0 < a -> 0 <= m -> 0 <= c ->
      let mat i j := a * me (gK s) i j + m * me (gM s) i j + c * me (gC s) i j in
      pos_def k mat /\ (forall x y, (forall i, (i < k)%nat -> mulv k mat x i = mulv k mat y i) -> forall i, (i < k)%nat -> x i = y i).
Proof.
  intros hn hr hd hdep hrail hpad hs hsoil hda hls. set (t := the_track 0 n r d depth). set (bottom := map (fun i => (n * r + n + i)%nat) (seq 0 n)).
  assert (ht : create_horizontal_track h 0 n d depth r = Ok t) by (apply create_spec; assumption).
  pose proof hrail as [b1 [b2 [b3 [b4 [b5 b6]]]]]. pose proof hpad as [p1 [p2 p3]]. pose proof hsoil as [s1 [s2 s3]].
  assert (hsound : Forall (fun p => sound (settled (tk_mesh t) p)) (track_parts t rail pad sleeper soil)) by (apply (parts_sound n r d depth); assumption).
  assert (hshape : Forall shaped (track_parts t rail pad sleeper soil)) by (apply (parts_shaped n r d depth); assumption).
  destruct (track_initialises n r d depth hn hr hd rail (fst (fst pad)) (fst (fst soil)) sleeper (snd (fst pad)) (snd pad) (snd (fst soil)) (snd soil)
    ls [side_boundary t; fixed_nodes bottom] da) as [s [ns' [k hi]]].
  { intros l i h1 h2. specialize (hls l i h1 h2). rewrite mesh_length; [lia|..]; auto. }
  exists t, bottom, s, ns', k. split; [exact ht|]. split; [apply bottom_nodes; assumption|]. split; [exact hi|].
  change (initialise_system (tk_mesh t) (track_parts t rail pad sleeper soil) ls [side_boundary t; fixed_nodes bottom] da = Ok (s, ns', k)) in hi.
  destruct (initialise_inv _ _ _ _ _ _ _ _ hi) as [s0 [_ [e0 _]]]. destruct (initialise_kept _ _ _ _ _ _ _ _ _ hi e0) as [hl [_ [hk _]]].
  assert (hlen : length (tk_mesh t) = (n * r + n + n)%nat) by (apply mesh_length; assumption).
  pose proof (rails_two n r hn hr) as h2.
  assert (hside : side_boundary t = ([0; n * r - 1]%nat, T3 false true true)) by (apply side_nodes; assumption).
  assert (hK : pos_def k (me (gK s))).
  { apply (C87_definite h n r d depth t rail pad sleeper soil ls [side_boundary t; fixed_nodes bottom] da s ns' k); try assumption.
    - intros e he. change (tk_soil_els t) with (map (fun i => ((n * r + i)%nat, (n * r + n + i)%nat)) (seq 0 n)) in he. apply in_map_iff in he.
      destruct he as [q [<- hq]]. pose proof hq as hq'. apply in_seq in hq. cbn [snd]. destruct (number_of ns' (n * r + n + q) DY) as [j|] eqn:ej; [|reflexivity]. exfalso.
      destruct (hk (n * r + n + q)%nat DY) as [g _]; [lia|]. destruct g as [g _]; [congruence|]. rewrite flag_held in g; [discriminate| |].
      + rewrite hside. intros c [<-|[<-|[]]] hp; [cbn in hp; lia|reflexivity].
      + right. exists (fixed_nodes bottom). split; [right; left; reflexivity|]. cbn [fixed_nodes fst]. unfold bottom. apply in_map_iff. exists q. auto.
    - exists 0%nat. change (tk_rail_nodes t) with (seq 0 (n * r)). split; [apply in_seq; lia|].
      destruct (number_of ns' 0 DX) as [j|] eqn:ej; [|reflexivity]. exfalso.
      destruct (hk 0%nat DX) as [g _]; [lia|]. destruct g as [g _]; [congruence|]. rewrite flag_held in g; [discriminate| |].
      + rewrite hside. intros c [<-|[<-|[]]] hp; reflexivity.
      + right. exists (side_boundary t). split; [left; reflexivity|]. rewrite hside. left. reflexivity. }
  destruct (initialise_psd _ _ _ _ _ _ _ _ hshape hsound hda hi) as [_ [hM hC]].
  intros a m c ha hm hc mat. assert (hmat : pos_def k mat) by (apply pos_def_sum; assumption).
  split; [exact hmat|]. intros x y. exact (pos_def_injective k mat x y hmat).
Qed.
Print Assumptions C87_well_posed.

(** The boundary at the sides is needed: as long as no constraint lists a node of the rail, the rail slides without energy and
    the stiffness is singular, so that a static load along the rail has no unique answer *)
Theorem C87_sides_needed h n r (d depth : R) t rail pad sleeper soil ls cs da s ns' k :
  (2 <= n)%nat -> (1 <= r)%nat -> 1 / 1000000000 < d / INR r -> 1 / 1000000000 < depth ->
  create_horizontal_track h 0 n d depth r = Ok t -> good_rail rail -> good_rod pad -> 0 <= sleeper -> good_rod soil ->
  let l := d / INR r in 1 / 100000000 < b_E rail * b_A rail / l -> 1 / 100000000 < b_rho rail * b_A rail * l / 3 ->
  initialise_system (tk_mesh t) (track_parts t rail pad sleeper soil) ls cs da = Ok (s, ns', k) ->
  (forall c i, In c cs -> In i (fst c) -> ~ In i (tk_rail_nodes t)) ->
  exists x, quad k (me (gK s)) x = 0 /\ exists i, (i < k)%nat /\ x i = 1.
Proof.
  intros hn hr hd hdep ht [b1 [b2 [b3 [b4 [b5 b6]]]]] [p1 [p2 p3]] hs [s1 [s2 s3]] l h1 h2 hi hc. apply created in ht; try assumption. subst t.
  eapply (track_slides n r d depth hn hr hd hdep rail (fst (fst pad)) (fst (fst soil)) sleeper (snd (fst pad)) (snd pad) (snd (fst soil)) (snd soil)); try eassumption.
  intros i hi'. eapply (rail_kept n r d depth hn hr hd hdep rail (fst (fst pad)) (fst (fst soil)) sleeper (snd (fst pad)) (snd pad) (snd (fst soil)) (snd soil)); try eassumption.
  apply flag_after_unlisted. unfold listed. destruct (existsb _ cs) eqn:e; [|reflexivity]. exfalso. apply existsb_exists in e. destruct e as [c [c1 c2]].
  apply (hc c i c1); [apply memb_In; exact c2|]. change (tk_rail_nodes (the_track 0 n r d depth)) with (seq 0 (n * r)). apply in_seq. lia.
Qed.
Print Assumptions C87_sides_needed.

(** a track of three sleepers at 0.6 with two rail elements each, UIC54-like rail, meets all the hypotheses *)
Example C87_case :
  (2 <= 3)%nat /\ (1 <= 2)%nat /\ 1 / 1000000000 < (6 / 10) / INR 2 /\ 1 / 1000000000 < 1 /\
  let rail := mkBeam 210000000000 (3 / 10) 7860 (69 / 10000) (2337 / 100000000) 0 0 None None in
  good_rail rail /\ good_rod (750000000, Some 750000, None) /\ 0 <= 140 /\ good_rod (200000000, Some 10000, Some 0) /\
  1 / 100000000 < b_E rail * b_A rail / ((6 / 10) / INR 2) /\ 1 / 100000000 < b_rho rail * b_A rail * ((6 / 10) / INR 2) / 3.
Proof. cbn [INR]. unfold good_rail, good_rod, fixed_ends, opt_nonneg. cbn. repeat split; try lia; try lra. Qed.
