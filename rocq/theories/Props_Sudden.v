(** * C143: how far a model moves under a sudden load and in free motion *)

From Coq Require Import Reals List Bool ZArith Arith Lia Lra Psatz.
From Verif Require Import Num PyBase Model_Geometry Model_System Spec_System Proofs_Dof Proofs_System Model_Element Spec_Element
  Proofs_Elements Proofs_Element Proofs_Beam Proofs_Force Model_Accumulation Proofs_Accumulation Model_Coupled Model_Mesh Spec_Mesh Model_Track Spec_Track Spec_Generated
  Proofs_Track Proofs_Assembly Proofs_Mesh Proofs_Generated Props_Track Props_Generated Spec_Analytic Spec_Motion Proofs_Motion Props_Motion Spec_Chain Proofs_Chain Spec_Renumber Proofs_Renumber
  Spec_Balance Proofs_Balance Spec_Structure Proofs_Structure Proofs_Line Props_Structure Spec_Stiffer Proofs_Stiffer Props_Stiffer.
Import ListNotations.
Local Open Scope R_scope.

(** ** quadratic forms *)

Lemma discriminant a b c : 0 <= c -> (forall t, 0 <= a + 2 * t * b + t * t * c) -> b * b <= a * c.
Proof.
  intros hc h. destruct (Req_dec c 0) as [->|n].
  - destruct (Req_dec b 0) as [->|nb]; [lra|]. exfalso. specialize (h (- (a + 1) / (2 * b))). replace (a + 2 * (- (a + 1) / (2 * b)) * b + - (a + 1) / (2 * b) * (- (a + 1) / (2 * b)) * 0) with (-1) in h by (field; exact nb). lra.
  - specialize (h (- b / c)). replace (a + 2 * (- b / c) * b + - b / c * (- b / c) * c) with ((a * c - b * b) / c) in h by (field; exact n).
    assert (hp : 0 < c) by lra. apply Rmult_le_compat_r with (r := c) in h; [|lra]. unfold Rdiv in h. rewrite Rmult_assoc, Rinv_l in h by exact n. lra.
Qed.

Lemma work_scaled n c x y : work n (fun i => c * x i) y = c * work n x y.
Proof. unfold work. rewrite <- sumn_scal. apply sumn_ext. intros. ring. Qed.

Lemma quad_sum n m x y t : msym n m -> quad n m (fun i => x i + t * y i) = quad n m x + 2 * t * work n (mulv n m x) y + t * t * quad n m y.
Proof.
  intros hs. rewrite !quad_work.
  rewrite (work_ext n (mulv n m (fun i => x i + t * y i)) (fun i => x i + t * y i) (fun i => mulv n m x i + t * mulv n m y i) (fun i => x i + t * y i)).
  2: { intros i _. rewrite (mulv_sum n m x (fun j => t * y j)), mulv_scaled. reflexivity. } 2: { reflexivity. }
  rewrite work_add, work_scaled. rewrite (work_swap n (mulv n m x)), (work_swap n (mulv n m y)), !work_add, !work_scaled.
  rewrite !(work_swap n _ (mulv n m _)). rewrite (work_sym n m y x hs). ring.
Qed.

Lemma cauchy n m x y : msym n m -> psd n m -> work n (mulv n m x) y * work n (mulv n m x) y <= quad n m x * quad n m y.
Proof. intros hs hp. apply discriminant; [apply hp|]. intros t. rewrite <- quad_sum by exact hs. apply hp. Qed.

Lemma finite_choice (Q : nat -> R -> Prop) k : (forall i, (i < k)%nat -> exists b, Q i b) -> exists f, forall i, (i < k)%nat -> Q i (f i).
Proof.
  induction k as [|k IH]; intros h; [exists (fun _ => 0); lia|]. destruct IH as [f hf]; [intros i hi; apply h; lia|]. destruct (h k ltac:(lia)) as [b hb].
  exists (fun i => if Nat.eqb i k then b else f i). intros i hi. destruct (Nat.eqb_spec i k) as [->|n]; [exact hb|apply hf; lia].
Qed.

(** ** theorems *)

(** C143: free motion never takes a direction further than its energy allows: the square of the displacement is at most twice the energy
    at the beginning times the displacement under a unit force in this direction *)
Theorem C143_free ns ps ls cs da s ns' n f u v a t1 t2 i x :
  initialise_system ns ps ls cs da = Ok (s, ns', n) ->
  Forall shaped ps -> Forall (fun p => sound (settled ns p)) ps -> (da_on da = true -> 0 <= da_ratio da /\ 0 < da_one da /\ 0 < da_two da) ->
  motion n s f u v a -> t1 <= t2 -> (forall t i, t1 <= t <= t2 -> (i < n)%nat -> f t i = 0) ->
  (i < n)%nat -> (forall k, (k < n)%nat -> mulv n (me (gK s)) x k = if Nat.eqb i k then 1 else 0) ->
  u t2 i * u t2 i <= 2 * stored_energy ns ns' ps (u t1) (v t1) * x i.
Proof.
  intros h hs ho hda hm h12 hf hi hx. destruct (C108_free_motion _ _ _ _ _ _ _ _ _ _ _ _ _ _ h hs ho hda hm h12 hf) as [g _].
  destruct (C85_symmetric_semidefinite _ _ _ _ _ _ _ _ h hs ho hda) as [[sk _] [pk [pm _]]].
  pose proof (energy_of_matrices _ _ _ _ _ _ _ _ (u t2) (v t2) h hs) as e2. specialize (pm (v t2)).
  assert (pick : forall z, work n (mulv n (me (gK s)) x) z = z i).
  { intros z. rewrite (work_ext n _ z (fun k => if Nat.eqb i k then 1 else 0) z hx (fun _ _ => eq_refl)). unfold work. rewrite <- (sumn_pick n z i hi). apply sumn_ext. intros k _. destruct (Nat.eqb i k); ring. }
  pose proof (cauchy n _ x (u t2) sk pk) as c. rewrite pick, (quad_work n _ x), pick in c.
  assert (hxi : 0 <= x i) by (rewrite <- pick, <- quad_work; apply pk). nra.
Qed.
Print Assumptions C143_free.

(** C143: the loads change suddenly from [f0] to [f1] while the model is at rest in balance with [f0].  Then the work of the change along
    what the model moves is never negative and never more than twice what it is in the new position of rest *)
Theorem C143_change ns ps ls cs da s ns' n f u v a t0 t1 f0 f1 y0 y1 :
  initialise_system ns ps ls cs da = Ok (s, ns', n) ->
  Forall shaped ps -> Forall (fun p => sound (settled ns p)) ps -> (da_on da = true -> 0 <= da_ratio da /\ 0 < da_one da /\ 0 < da_two da) ->
  motion n s f u v a -> t0 <= t1 -> (forall t i, t0 <= t <= t1 -> (i < n)%nat -> f t i = f1 i) ->
  (forall i, (i < n)%nat -> mulv n (me (gK s)) y0 i = f0 i) -> (forall i, (i < n)%nat -> mulv n (me (gK s)) y1 i = f1 i) ->
  (forall i, (i < n)%nat -> u t0 i = y0 i /\ v t0 i = 0) ->
  0 <= work n (fun i => f1 i - f0 i) (fun i => u t1 i - y0 i) <= 2 * work n (fun i => f1 i - f0 i) (fun i => y1 i - y0 i).
Proof.
  intros h hs ho hda hm h01 hf h0 h1 hst. destruct (C85_symmetric_semidefinite _ _ _ _ _ _ _ _ h hs ho hda) as [[sk [sm sc]] [pk [pm pc]]].
  assert (zero : forall m i, mulv n m (fun _ => 0) i = 0) by (intros m i; unfold mulv; apply sumn_0; intros; ring).
  assert (rest : motion n s (fun _ i => mulv n (me (gK s)) y1 i) (fun _ => y1) (fun _ _ => 0) (fun _ _ => 0)).
  { split; [|split].
    - intros i _ t. apply derivable_pt_lim_const.
    - intros i _ t. apply derivable_pt_lim_const.
    - intros t i _. rewrite !zero. ring. }
  pose proof (motion_diff n s _ _ _ _ _ _ _ _ hm rest) as md.
  destruct (C108_free_motion _ _ _ _ _ _ _ _ _ _ _ _ t0 t1 h hs ho hda md h01) as [g _].
  { intros t i ht hi. rewrite (hf t i ht hi), (h1 i hi). ring. }
  rewrite !(energy_of_matrices _ _ _ _ _ _ _ _ _ _ h hs) in g. cbv beta in g.
  set (d := fun i => y1 i - y0 i) in *. set (w := fun i => u t1 i - y1 i) in *. set (K := me (gK s)) in *.
  assert (z : forall m, quad n m (fun _ => 0) = 0) by (intros m; unfold quad; apply sumn_0; intros; apply sumn_0; intros; ring).
  rewrite (quad_ext_vec n (me (gM s)) (fun i => v t0 i - 0) (fun _ => 0)) in g by (intros i hi; rewrite (proj2 (hst i hi)); ring). rewrite z in g.
  assert (e0 : quad n K (fun i => u t0 i - y1 i) = quad n K d).
  { rewrite (quad_ext_vec n K (fun i => u t0 i - y1 i) (fun i => (-1) * d i)) by (intros i hi; rewrite (proj1 (hst i hi)); unfold d; ring).
    rewrite !quad_work. rewrite (work_ext n (mulv n K (fun i => -1 * d i)) (fun i => -1 * d i) (fun i => -1 * mulv n K d i) (fun i => -1 * d i)); [|intros i _; apply mulv_scaled|reflexivity].
    rewrite work_scaled, work_swap, work_scaled, work_swap. ring. }
  rewrite e0 in g. specialize (pm (fun i => v t1 i - 0)).
  assert (ed : forall q, work n (fun i => f1 i - f0 i) q = work n (mulv n K d) q).
  { intros q. apply work_ext; [|reflexivity]. intros i hi. unfold d. rewrite (mulv_diff n K y1 y0), (h1 i hi), (h0 i hi). reflexivity. }
  rewrite !ed. fold d. rewrite <- quad_work.
  assert (eu : work n (mulv n K d) (fun i => u t1 i - y0 i) = work n (mulv n K d) w + quad n K d).
  { rewrite quad_work, !(work_swap n (mulv n K d)), <- work_add. apply work_ext; [|reflexivity]. intros i _. unfold w, d. ring. }
  rewrite eu. pose proof (cauchy n K d w sk pk) as c. pose proof (pk d) as pd. pose proof (pk w) as pw. fold K in g.
  set (b := work n (mulv n K d) w) in *. set (qd := quad n K d) in *. set (qw := quad n K w) in *. assert (hq : qw <= qd) by lra. assert (hb : b * b <= qd * qd) by nra. split; nra.
Qed.
Print Assumptions C143_change.

(** C143: loads that are put on a model at rest: their work is never negative and never more than twice the work in the position of rest *)
Theorem C143_sudden ns ps ls cs da s ns' n f u v a t0 t1 y :
  initialise_system ns ps ls cs da = Ok (s, ns', n) ->
  Forall shaped ps -> Forall (fun p => sound (settled ns p)) ps -> (da_on da = true -> 0 <= da_ratio da /\ 0 < da_one da /\ 0 < da_two da) ->
  Forall plain_load ls ->
  motion n s f u v a -> t0 <= t1 -> (forall t i, t0 <= t <= t1 -> (i < n)%nat -> f t i = nth i (gF s) 0) ->
  (forall i, (i < n)%nat -> u t0 i = 0 /\ v t0 i = 0) -> in_balance s n y ->
  0 <= load_work ls (field_of ns' (u t1)) <= 2 * load_work ls (field_of ns' y).
Proof.
  intros h hs ho hda hp hm h01 hf hst hy.
  assert (zero : forall i, (i < n)%nat -> mulv n (me (gK s)) (fun _ => 0) i = 0) by (intros i _; unfold mulv; apply sumn_0; intros; ring).
  pose proof (C143_change ns ps ls cs da s ns' n f u v a t0 t1 (fun _ => 0) (fun i => nth i (gF s) 0) (fun _ => 0) y h hs ho hda hm h01 hf zero hy hst) as g.
  rewrite <- !(forces_work _ _ _ _ _ _ _ _ _ h hp).
  assert (e : forall x, work n (fun i => nth i (gF s) 0 - 0) (fun i => x i - 0) = work n (fun i => nth i (gF s) 0) x) by (intros x; apply work_ext; intros; ring).
  rewrite !e in g. exact g.
Qed.
Print Assumptions C143_sudden.

(** C143: a single vertical load that is put on a model at rest: its node moves with the load and never further than twice the
    displacement at rest *)
Theorem C143_point ns ps cs da s ns' n f u v a t0 t1 y p P :
  initialise_system ns ps (one_load p P) cs da = Ok (s, ns', n) ->
  Forall shaped ps -> Forall (fun p => sound (settled ns p)) ps -> (da_on da = true -> 0 <= da_ratio da /\ 0 < da_one da /\ 0 < da_two da) ->
  motion n s f u v a -> t0 <= t1 -> (forall t i, t0 <= t <= t1 -> (i < n)%nat -> f t i = nth i (gF s) 0) ->
  (forall i, (i < n)%nat -> u t0 i = 0 /\ v t0 i = 0) -> in_balance s n y -> P <> 0 ->
  0 <= P * field_of ns' (u t1) p DY /\ Rabs (field_of ns' (u t1) p DY) <= 2 * Rabs (field_of ns' y p DY).
Proof.
  intros h hs ho hda hm h01 hf hst hy hP. pose proof (C143_sudden _ _ _ _ _ _ _ _ _ _ _ _ _ _ _ h hs ho hda (one_load_plain p P) hm h01 hf hst hy) as g.
  rewrite !one_load_work in g. destruct g as [g1 g2]. split; [exact g1|]. assert (hp : 0 < Rabs P) by (apply Rabs_pos_lt; exact hP).
  apply Rmult_le_reg_l with (Rabs P); [exact hp|]. rewrite <- Rmult_assoc, (Rmult_comm _ 2), Rmult_assoc, <- !Rabs_mult. rewrite !Rabs_right by lra. exact g2.
Qed.
Print Assumptions C143_point.

(** C143 for the tracks of the scripts: every direction has a compliance that limits its free motion, and under a vertical load that is put
    on a node of the track at rest the node never goes further than twice as far as in the one position of rest *)
Theorem C143_joined h specs d r rail pad sleeper soils da p P :
  (1 <= r)%nat -> 1 / 1000000000 < d / INR r -> segments specs ->
  good_rail rail -> good_rod pad -> 0 <= sleeper -> Forall good_rod soils -> length soils = length specs ->
  (da_on da = true -> 0 <= da_ratio da /\ 0 < da_one da /\ 0 < da_two da) -> P <> 0 ->
  exists j c mesh cs, joins h specs d r j c mesh /\ script_constraints j c cs /\
    ((p < length mesh)%nat ->
     exists s ns' k y compliance, let ns := joined_mesh c mesh in let ps := joined_parts j rail pad sleeper soils in
       initialise_system ns ps (one_load p P) cs da = Ok (s, ns', k) /\ in_balance s k y /\
       (forall i, (i < k)%nat -> 0 < compliance i) /\
       forall f u v a t0 t1, motion k s f u v a -> t0 <= t1 ->
         ((forall t i, t0 <= t <= t1 -> (i < k)%nat -> f t i = 0) ->
          forall i, (i < k)%nat -> u t1 i * u t1 i <= 2 * stored_energy ns ns' ps (u t0) (v t0) * compliance i) /\
         ((forall t i, t0 <= t <= t1 -> (i < k)%nat -> f t i = nth i (gF s) 0) -> (forall i, (i < k)%nat -> u t0 i = 0 /\ v t0 i = 0) ->
          0 <= P * field_of ns' (u t1) p DY /\ Rabs (field_of ns' (u t1) p DY) <= 2 * Rabs (field_of ns' y p DY))).
Proof.
  intros hr hd hsp h1 h2 h3 h4 h5 hda hP.
  destruct (C131_one_answer h specs d r rail pad sleeper soils (one_load p P) da hr hd hsp h1 h2 h3 h4 h5 hda) as [j [c [mesh [cs [g1 [g2 g3]]]]]].
  exists j, c, mesh, cs. split; [exact g1|]. split; [exact g2|]. intros hp. destruct g3 as [s [ns' [k [hi [[y [hy _]] hsol]]]]].
  { intros l i [<-|[]] hin. destruct hin as [<-|[]]. exact hp. }
  destruct (joined_line h specs d r j c mesh hr hd hsp g1) as [hm [hlen hline]]. assert (hl : 0 < d / INR r) by lra.
  assert (hshape : Forall shaped (joined_parts j rail pad sleeper soils)) by (rewrite <- hlen in h5; eapply joined_shaped; eassumption).
  assert (hsound : Forall (fun p => sound (settled (joined_mesh c mesh) p)) (joined_parts j rail pad sleeper soils)) by (rewrite hm; rewrite <- hlen in h5; eapply joined_sound; eassumption).
  assert (hcomp : exists compliance : nat -> R, forall i, (i < k)%nat -> 0 < compliance i /\ exists x, x i = compliance i /\ forall q, (q < k)%nat -> mulv k (me (gK s)) x q = if Nat.eqb i q then 1 else 0).
  { assert (hx : forall i, (i < k)%nat -> exists b, 0 < b /\ exists x, x i = b /\ forall q, (q < k)%nat -> mulv k (me (gK s)) x q = if Nat.eqb i q then 1 else 0).
    { intros i hi'. destruct (hsol 1 0 0 (fun q => if Nat.eqb i q then 1 else 0) ltac:(lra) ltac:(lra) ltac:(lra)) as [x [hx _]].
      assert (hx' : forall q, (q < k)%nat -> mulv k (me (gK s)) x q = if Nat.eqb i q then 1 else 0).
      { intros q hq. rewrite <- (hx q hq). unfold mulv. apply sumn_ext. intros. ring. }
      exists (x i). split; [|exists x; split; [reflexivity|exact hx']].
      assert (e : x i = quad k (me (gK s)) x).
      { rewrite quad_work, (work_ext k _ x (fun q => if Nat.eqb i q then 1 else 0) x hx' (fun _ _ => eq_refl)). unfold work. rewrite <- (sumn_pick k x i hi'). apply sumn_ext. intros q _. destruct (Nat.eqb i q); ring. }
      destruct (joined_held c _ _ j _ _ cs da s ns' k hline g2 ltac:(rewrite hm in hi; exact hi)) as [b1 [b2 _]].
      rewrite e. apply (C126_definite h specs d r j c mesh rail pad sleeper soils (one_load p P) cs da s ns' k hr hd hsp g1 h1 h2 h3 h4 h5 hi b1 b2).
      destruct (classic_zero k x) as [hz|hz]; [|exact hz]. exfalso. specialize (hx' i hi'). rewrite Nat.eqb_refl in hx'. unfold mulv in hx'. rewrite sumn_0 in hx'; [lra|]. intros q hq. rewrite (hz q hq). ring. }
    exact (finite_choice (fun i b => 0 < b /\ exists x, x i = b /\ forall q, (q < k)%nat -> mulv k (me (gK s)) x q = if Nat.eqb i q then 1 else 0) k hx). }
  destruct hcomp as [compliance hcomp]. exists s, ns', k, y, compliance. cbv zeta. split; [exact hi|]. split; [exact hy|]. split; [intros i hi'; apply hcomp; exact hi'|].
  intros f u v a t0 t1 hmo h01. split.
  - intros hf i hi'. destruct (hcomp i hi') as [_ [x [<- hx]]]. exact (C143_free _ _ _ _ _ _ _ _ _ _ _ _ _ _ _ _ hi hshape hsound hda hmo h01 hf hi' hx).
  - intros hf hst. exact (C143_point _ _ _ _ _ _ _ _ _ _ _ _ _ _ _ _ hi hshape hsound hda hmo h01 hf hst hy hP).
Qed.
Print Assumptions C143_joined.

(** ** twice is reached *)

(** a mass on one spring without damping, under a load that is put on at time 0: at time pi it is twice as far down as at rest *)
Theorem C143_reached P : P <> 0 -> exists s ns' n f u v a y, initialise_system post (post_parts 1) (one_load 0 P) post_held undamped = Ok (s, ns', n) /\
  motion n s f u v a /\ (forall t i, (i < n)%nat -> f t i = nth i (gF s) 0) /\ (forall i, (i < n)%nat -> u 0 i = 0 /\ v 0 i = 0) /\ in_balance s n y /\
  field_of ns' y 0 DY = P /\ field_of ns' (u PI) 0%nat DY = 2 * field_of ns' y 0%nat DY.
Proof.
  intros hP. destruct (post_starts 1 P ltac:(lra)) as [s [ns' [n [hi hno]]]].
  destruct (initialise_inv _ _ _ _ _ _ _ _ hi) as [s0 [_ [e0 _]]]. destruct (initialise_kept _ _ _ _ _ _ _ _ _ hi e0) as [hl [hnum _]].
  assert (hn0 : number_of ns' 0 DY <> None) by (apply hno; repeat split; lra). destruct (number_of ns' 0 DY) as [k0|] eqn:ek; [|congruence].
  assert (hk0 : (k0 < n)%nat). { assert (g : In k0 (all_numbers ns')) by (apply all_numbers_In; eauto). rewrite hnum in g. apply in_seq in g. lia. }
  assert (hone : forall i, (i < n)%nat -> i = k0).
  { intros i hi'. assert (g : In i (all_numbers ns')) by (rewrite hnum; apply in_seq; lia). apply all_numbers_In in g. destruct g as [p [d hp]]. destruct (hno p d) as [g _]. destruct g as [-> [-> _]]; congruence. }
  assert (en : n = 1%nat). { destruct n as [|[|m]]; [lia|reflexivity|]. pose proof (hone 0%nat ltac:(lia)). pose proof (hone 1%nat ltac:(lia)). lia. }
  assert (e1 : k0 = 0%nat) by lia. rewrite e1 in ek. clear hone hk0 hn0 e1 k0. rewrite en in *. clear n en.
  assert (ef : forall x, field_of ns' x 0%nat DY = x 0%nat) by (intros x; unfold field_of; rewrite ek; reflexivity).
  assert (ef1 : forall x, field_of ns' x 1%nat DY = 0).
  { intros x. unfold field_of. destruct (number_of ns' 1 DY) eqn:e; [|reflexivity]. destruct (hno 1%nat DY) as [g _]. destruct g as [g _]; [congruence|lia]. }
  assert (hsh : Forall shaped (post_parts 1)) by (repeat constructor; discriminate).
  destruct (initialise_energy _ _ _ _ _ _ _ _ (fun _ => 1) hsh hi) as [q1 [q2 q3]]. cbv zeta in q1, q2, q3.
  rewrite post_energy, ef, ef1 in q1. rewrite post_mass, ef, ef1 in q2. cbn [da_on undamped] in q3. unfold quad in q1, q2, q3. cbn [sumn] in q1, q2, q3. rnum.
  assert (hF : nth 0 (gF s) 0 = P).
  { rewrite (plain_forces _ _ _ _ _ _ _ _ hi (loads_in_range _ _ _ _ _ _ _ _ hi) (one_load_plain 0 P) 0%nat DY 0%nat ek). apply one_load_force. }
  assert (q4 : nsum (map (fun p => part_form aux_damping post (field_of ns' (fun _ => 1)) (settled post p)) (post_parts 1)) = 0).
  { cbn [post_parts map nsum]. change (settled post (springs (1, None, Some 3) [0; 1]%nat [(0, 1)]%nat)) with (springs (1, None, Some 3) [0; 1]%nat [(0, 1)]%nat).
    unfold part_form, springs. cbn [ep_kind ep_els aux_damping rod_spring fst snd map nsum element_form]. rnum. ring. }
  rewrite q4 in q3.
  assert (mul : forall m x, mulv 1 m x 0 = m 0%nat 0%nat * x 0%nat) by (intros m x; unfold mulv, sumn; cbn; rnum; try lra; try ring).
  exists s, ns', 1%nat, (fun _ _ => P), (fun t _ => P - P * cos t), (fun t _ => P * sin t), (fun t _ => P * cos t), (fun _ => P).
  split; [exact hi|]. split.
  { split; [|split].
    - intros i _ t. pose proof (derivable_pt_lim_minus (fun _ => P) (fun t => P * cos t) t 0 (P * - sin t) (derivable_pt_lim_const P t) (derivable_pt_lim_scal cos P t (- sin t) (derivable_pt_lim_cos t))) as g.
      replace (P * sin t) with (0 - P * - sin t) by ring. exact g.
    - intros i _ t. exact (derivable_pt_lim_scal sin P t (cos t) (derivable_pt_lim_sin t)).
    - intros t i h1. assert (i = 0%nat) as -> by lia. rewrite !mul. nra. }
  split; [intros t i h1; assert (i = 0%nat) as -> by lia; symmetry; exact hF|].
  split; [intros i _; rewrite cos_0, sin_0; split; ring|].
  split; [intros i h1; assert (i = 0%nat) as -> by lia; rewrite mul, hF; nra|].
  rewrite !ef, cos_PI. split; [reflexivity|ring].
Qed.
Print Assumptions C143_reached.

(** the hypotheses of C143_joined are met by the track of three segments of C125 under a wheel of 60 kN *)
Example C143_case h p : exists j c mesh cs, joins h case_specs (6 / 10) 2 j c mesh /\ script_constraints j c cs /\
  ((p < length mesh)%nat -> exists s ns' k y, initialise_system (joined_mesh c mesh) (joined_parts j case_rail case_pad 140 case_soils) (one_load p (-60000)) cs undamped = Ok (s, ns', k) /\
    in_balance s k y /\ forall f u v a t0 t1, motion k s f u v a -> t0 <= t1 ->
      (forall t i, t0 <= t <= t1 -> (i < k)%nat -> f t i = nth i (gF s) 0) -> (forall i, (i < k)%nat -> u t0 i = 0 /\ v t0 i = 0) ->
      Rabs (field_of ns' (u t1) p DY) <= 2 * Rabs (field_of ns' y p DY)).
Proof.
  destruct case_values as [h1 [h2 [h3 [h4 [h5 _]]]]].
  destruct (C143_joined h case_specs (6 / 10) 2 case_rail case_pad 140 case_soils undamped p (-60000) ltac:(lia) h5 h4 h1 h2 ltac:(lra) h3 eq_refl ltac:(discriminate) ltac:(lra))
    as [j [c [mesh [cs [g1 [g2 g3]]]]]].
  exists j, c, mesh, cs. split; [exact g1|]. split; [exact g2|]. intros hp. destruct (g3 hp) as [s [ns' [k [y [b [e1 [e2 [_ e3]]]]]]]].
  exists s, ns', k, y. split; [exact e1|]. split; [exact e2|]. intros f u v a t0 t1 hm h01 hf hst. apply (e3 f u v a t0 t1 hm h01); assumption.
Qed.
