(** * Other units of mass and time (C141) *)

From Coq Require Import Reals List Bool ZArith Arith Lia Lra.
From Verif Require Import Num PyBase Model_Geometry Model_System Spec_System Proofs_Dof Proofs_System Model_Element Spec_Element
  Proofs_Elements Proofs_Element Proofs_Beam Proofs_Force Model_Accumulation Proofs_Accumulation Model_Track Spec_Track Proofs_Track Proofs_Assembly Props_Track
  Spec_Analytic Spec_Motion Proofs_Motion Spec_Chain Proofs_Chain Spec_Renumber Proofs_Renumber Spec_Units Proofs_Units.
Import ListNotations.
Local Open Scope R_scope.

(** a model written in other units is initialised as well; its nodes have the same degrees of freedom, and every entry of the
    matrices and every force is the old one in the new units *)
Theorem C141_same_system mu th (ns : list (node R)) ps ls cs da s ns' n :
  0 < mu -> 0 < th -> initialise_system ns ps ls cs da = Ok (s, ns', n) ->
  Forall shaped ps -> Forall (fun p => sound (settled ns p)) ps -> Forall (within ns) ps -> Forall plain_load ls -> well_scaled mu th ns ps ->
  exists s2, initialise_system ns (map (part_in mu th) ps) (map (load_in mu th) ls) cs (damping_in th da) = Ok (s2, ns', n) /\
    (forall i j, (i < n)%nat -> (j < n)%nat -> me (gK s2) i j = force_unit mu th * me (gK s) i j /\ me (gM s2) i j = mu * me (gM s) i j /\ me (gC s2) i j = mu * th * me (gC s) i j) /\
    forall i, (i < n)%nat -> nth i (gF s2) 0 = force_unit mu th * nth i (gF s) 0.
Proof.
  intros hm ht h hs ho hw hp hc. destruct (run_in mu th ns ps ls cs da s ns' n hw h) as [s2 [ms' [m h2]]].
  destruct (nodes_in mu th hm ht ns ps ls cs da s ns' n hs hc h s2 ms' m h2) as [-> ->]. exists s2. split; [exact h2|]. split.
  - intros i j hi hj. exact (entry_in mu th hm ht ns ps ls cs da s ns' n hs ho hc h s2 ns' n h2 i j hi hj).
  - intros i hi. exact (force_in mu th hm ht ns ps ls cs da s ns' n hs hc h s2 ns' n h2 i hp hi).
Qed.
Print Assumptions C141_same_system.

(** so the displacements in balance with the loads are the same, in the same unit of length *)
Theorem C141_same_balance mu th (ns : list (node R)) ps ls cs da s ns' n s2 ms' m x :
  0 < mu -> 0 < th -> initialise_system ns ps ls cs da = Ok (s, ns', n) ->
  initialise_system ns (map (part_in mu th) ps) (map (load_in mu th) ls) cs (damping_in th da) = Ok (s2, ms', m) ->
  Forall shaped ps -> Forall (fun p => sound (settled ns p)) ps -> Forall plain_load ls -> well_scaled mu th ns ps ->
  ((forall i, (i < n)%nat -> mulv n (me (gK s)) x i = nth i (gF s) 0) <-> (forall i, (i < m)%nat -> mulv m (me (gK s2)) x i = nth i (gF s2) 0)).
Proof.
  intros hm ht h h2 hs ho hp hc. destruct (nodes_in mu th hm ht ns ps ls cs da s ns' n hs hc h s2 ms' m h2) as [-> ->].
  pose proof (ka_pos mu th hm ht) as hk.
  split; intros g i hi; destruct (mulv_in mu th hm ht ns ps ls cs da s ns' n hs ho hc h s2 ns' n h2 x i hi) as [e _]; pose proof (force_in mu th hm ht ns ps ls cs da s ns' n hs hc h s2 ns' n h2 i hp hi) as ef.
  - rewrite e, ef, g by exact hi. reflexivity.
  - apply (Rmult_eq_reg_l (force_unit mu th)); [|lra]. rewrite <- e, <- ef. apply g. exact hi.
Qed.
Print Assumptions C141_same_balance.

(** and so is the motion: it runs through the same displacements, and times, velocities and accelerations have their new units *)
Theorem C141_same_motion mu th (ns : list (node R)) ps ls cs da s ns' n s2 ms' m g u v b :
  0 < mu -> 0 < th -> initialise_system ns ps ls cs da = Ok (s, ns', n) ->
  initialise_system ns (map (part_in mu th) ps) (map (load_in mu th) ls) cs (damping_in th da) = Ok (s2, ms', m) ->
  Forall shaped ps -> Forall (fun p => sound (settled ns p)) ps -> well_scaled mu th ns ps ->
  motion n s g u v b ->
  motion m s2 (fun t i => force_unit mu th * g (th * t) i) (fun t i => u (th * t) i) (fun t i => th * v (th * t) i) (fun t i => th * th * b (th * t) i).
Proof.
  intros hm ht h h2 hs ho hc. destruct (nodes_in mu th hm ht ns ps ls cs da s ns' n hs hc h s2 ms' m h2) as [-> ->].
  exact (motion_in mu th hm ht ns ps ls cs da s ns' n hs ho hc h s2 ns' n h2 g u v b).
Qed.
Print Assumptions C141_same_motion.

(** ** a rod with stiffness [k], damping [c] and mass [m] from (0,0) to (1,0) *)
Definition some_rod (k c m : R) : epart R := mkPart (KRod (Some k) (Some c) (Some m)) [0; 1]%nat [(0, 1)]%nat.

Lemma rod_own k c m p d : (p < 2)%nat ->
  own_stiffness two_nodes [some_rod k c m] p d = (match d with DX => k | _ => 0 end) /\ own_mass two_nodes [some_rod k c m] p d = (match d with DX => m / 3 | _ => 0 end).
Proof.
  intros hp. assert (er : calculate_rotation1 (xy two_nodes 0, xy two_nodes 1) = 0) by (apply (rotation1_right 0 1 0); lra).
  unfold own_stiffness, own_mass. cbn [map nsum]. unfold settled, some_rod, part_form. cbn [ep_kind ep_nodes ep_els aux_stiffness aux_mass map nsum fst snd element_form].
  destruct (rod_spring_spec k _ eq_refl) as [_ [q1 _]]. destruct (rod_mass_spec m _ eq_refl) as [_ [_ [q2 _]]]. cbn [rod_spring rod_mass] in *. rnum. rewrite q1, q2. cbn [local2]. rewrite er.
  unfold along. rewrite cos_0, sin_0. destruct p as [|[|p]]; [| |lia]; destruct d; cbn; split; field.
Qed.

Lemma some_rod_runs k c m ls cs da : (forall l i, In l ls -> In i (ld_nodes l) -> (i < 2)%nat) -> exists s ns' n, initialise_system two_nodes [some_rod k c m] ls cs da = Ok (s, ns', n).
Proof.
  intros hl. apply initialise_ok; [|intros p i [<-|[]]; cbn; intuition lia|exact hl]. intros p [<-|[]]. eexists. reflexivity.
Qed.

Lemma rod_free k c m ls da s ns' n p d : initialise_system two_nodes [some_rod k c m] ls [] da = Ok (s, ns', n) -> (p < 2)%nat ->
  (number_of ns' p d <> None <-> d = DX /\ 1 / 100000000 < Rabs (m / 3) /\ 1 / 100000000 < Rabs k).
Proof.
  intros h hp. destruct (initialise_inv _ _ _ _ _ _ _ _ h) as [s0 [_ [e0 _]]]. destruct (initialise_kept _ _ _ _ _ _ _ _ _ h e0) as [_ [_ [hk _]]].
  rewrite (hk p d hp). cbv zeta.
  destruct (assemble_diag two_nodes [some_rod k c m] ls s0 (number_from 0 two_nodes) p d) as [q1 q2]; [constructor; [discriminate|constructor]|exact e0|exact hp|].
  replace (3 * p + match d with DX => 0 | DY => 1 | DR => 2 end)%nat with (3 * p + dir_idx d)%nat by (destruct d; reflexivity).
  destruct (rod_own k c m p d hp) as [o1 o2]. unfold own_stiffness, own_mass in o1, o2.
  rewrite (nsum_map_ext _ (fun a => part_form aux_stiffness two_nodes (unit_field p d) (settled two_nodes a))) in o1 by (intros; apply form_ext; intros; apply lone_unit).
  rewrite (nsum_map_ext _ (fun a => part_form aux_mass two_nodes (unit_field p d) (settled two_nodes a))) in o2 by (intros; apply form_ext; intros; apply lone_unit).
  rewrite o1 in q1. rewrite o2 in q2. rewrite q1, q2.
  assert (ha : active two_nodes p d = true) by (destruct p as [|[|p]]; [| |lia]; destruct d; reflexivity). rewrite ha. cbn [flag_after fold_left].
  destruct d; [tauto| |]; split; [intros [_ [g _]]; rewrite Rabs_R0 in g; lra|intros [g _]; discriminate|intros [_ [g _]]; rewrite Rabs_R0 in g; lra|intros [g _]; discriminate].
Qed.

Lemma other_side c : 0 < c -> c <> 1 -> exists x, 0 < x /\ ~ (1 / 100000000 < Rabs x <-> 1 / 100000000 < Rabs (c * x)).
Proof.
  intros hc hne. destruct (Rlt_le_dec c 1) as [h1|h1].
  - exists (1 / 100000000 * / c). assert (hi : 1 < / c) by (rewrite <- Rinv_1; apply Rinv_lt_contravar; lra). split; [nra|].
    replace (c * (1 / 100000000 * / c)) with (1 / 100000000) by (field; lra).
    rewrite !Rabs_right by nra. intros g. assert (hh : 1 / 100000000 < 1 / 100000000 * / c) by nra. apply g in hh. lra.
  - exists (1 / 100000000). split; [lra|]. assert (1 < c) by lra. rewrite !Rabs_right by nra. intros g. assert (hh : 1 / 100000000 < c * (1 / 100000000)) by nra. apply g in hh. lra.
Qed.

(** the full statement, without the last hypothesis: the units of mass and time of a model do not matter.  It is refuted for every
    change of units: values up to 1e-8 count as zero in whatever unit they are written, so there is a rod with positive stiffness
    and mass whose ends move in one of the two systems of units and are left out of the calculation in the other *)
Theorem C141_same_system_refuted mu th : 0 < mu -> 0 < th -> mu <> 1 \/ th <> 1 ->
  exists k m s ns' n s2 ms' n2, 0 < k /\ 0 < m /\
    initialise_system two_nodes [some_rod k 2 m] [] [] no_damping = Ok (s, ns', n) /\
    initialise_system two_nodes (map (part_in mu th) [some_rod k 2 m]) [] [] (damping_in th no_damping) = Ok (s2, ms', n2) /\
    ~ (number_of ns' 0 DX <> None <-> number_of ms' 0 DX <> None).
Proof.
  intros hm ht hne. pose proof (ka_pos mu th hm ht) as hk. set (ka := force_unit mu th) in *.
  assert (hl : forall c, 0 < c -> exists x, 0 < x /\ 1 / 100000000 < Rabs x /\ 1 / 100000000 < Rabs (c * x)).
  { intros c hc. assert (hi : 0 < / c) by (apply Rinv_0_lt_compat; exact hc). exists (1 + / c). split; [lra|]. replace (c * (1 + / c)) with (c + 1) by (field; lra). rewrite !Rabs_right by lra. lra. }
  assert (hd : exists k m, 0 < k /\ 0 < m /\ ~ (1 / 100000000 < Rabs (m / 3) /\ 1 / 100000000 < Rabs k <-> 1 / 100000000 < Rabs (mu * m / 3) /\ 1 / 100000000 < Rabs (ka * k))).
  { destruct (Req_dec mu 1) as [e1|e1].
    - assert (e2 : ka <> 1).
      { unfold ka, force_unit. rewrite e1, Rmult_1_l. intros e. assert (e3 : (th - 1) * (th + 1) = 0) by lra. apply Rmult_integral in e3. lra. }
      destruct (other_side ka hk e2) as [k [k1 k2]]. exists k, 3. split; [exact k1|]. split; [lra|]. rewrite e1, Rmult_1_l. replace (3 / 3) with 1 by field. rewrite Rabs_R1.
      assert (1 / 100000000 < 1) by lra. tauto.
    - destruct (other_side mu hm e1) as [x [x1 x2]]. destruct (hl ka hk) as [k [k1 [k2 k3]]]. exists k, (3 * x). split; [exact k1|]. split; [lra|].
      replace (3 * x / 3) with x by field. replace (mu * (3 * x) / 3) with (mu * x) by field. tauto. }
  destruct hd as [k [m [hk0 [hm0 hd]]]]. exists k, m.
  destruct (some_rod_runs k 2 m [] [] no_damping) as [s [ns' [n h]]]; [intros l i []|].
  assert (w : Forall (within two_nodes) [some_rod k 2 m]) by (constructor; [|constructor]; intros i [hi|[e [hi hj]]]; cbn in *; intuition (subst; cbn in *; lia)).
  destruct (run_in mu th two_nodes [some_rod k 2 m] [] [] no_damping s ns' n w h) as [s2 [ms' [n2 h2]]].
  exists s, ns', n, s2, ms', n2. split; [exact hk0|]. split; [exact hm0|]. split; [exact h|]. split; [exact h2|].
  rewrite (rod_free k 2 m [] no_damping s ns' n 0%nat DX h) by lia.
  rewrite (rod_free (ka * k) (mu * th * 2) (mu * m) [] (damping_in th no_damping) s2 ms' n2 0%nat DX h2) by lia.
  tauto.
Qed.
Print Assumptions C141_same_system_refuted.

(** a rod of stiffness 1000000 N/m, damping 2 Ns/m and mass 3 kg with a load and Rayleigh damping, written in tonnes and milliseconds *)
Example C141_case : exists s ns' n,
  let ls := [mkLoad (T3 true false false) [1%nat] [T3 500 0 0]] in let da := mkDamping true (1 / 20) 10 200 in
  initialise_system two_nodes [some_rod 1000000 2 3] ls [] da = Ok (s, ns', n) /\ (number_of (T:=R) ns' 1%nat DX <> None) /\
  Forall shaped [some_rod 1000000 2 3] /\ Forall (fun p => sound (settled two_nodes p)) [some_rod 1000000 2 3] /\ Forall (within two_nodes) [some_rod 1000000 2 3] /\ Forall plain_load ls /\
  well_scaled (1 / 1000) (1 / 1000) two_nodes [some_rod 1000000 2 3].
Proof.
  cbv zeta. destruct (some_rod_runs 1000000 2 3 [mkLoad (T3 true false false) [1%nat] [T3 500 0 0]] [] (mkDamping true (1 / 20) 10 200)) as [s [ns' [n h]]].
  { intros l i [<-|[]] [<-|[]]. lia. }
  exists s, ns', n. split; [exact h|]. split; [apply (rod_free _ _ _ _ _ _ _ _ 1%nat DX h); [lia|split; [reflexivity|rewrite !Rabs_right; lra]]|].
  split; [constructor; [discriminate|constructor]|]. split; [constructor; [cbn; lra|constructor]|].
  split; [constructor; [|constructor]; intros i [hi|[e [hi hj]]]; cbn in *; intuition (subst; cbn in *; lia)|].
  split; [constructor; [|constructor]; split; [constructor; [intros []|constructor]|reflexivity]|].
  intros p d hp. destruct (rod_own 1000000 2 3 p d hp) as [-> ->]. unfold same_side, force_unit. destruct d; rewrite ?Rabs_R0, ?(Rabs_right 1000000), ?(Rabs_right (3 / 3)) by lra; lra.
Qed.
