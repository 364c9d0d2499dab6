(** * A train on a structure of any shape: the ground carries the train (C127) *)

From Coq Require Import Reals List Bool ZArith Arith Lia Lra Permutation.
From Verif Require Import Num PyBase Model_Geometry Model_System Model_Element Model_Moving Model_Train Model_TrainMesh Model_TrainSystem
  Spec_Geometry Spec_System Spec_Element Spec_Train Spec_TrainMesh Spec_TrainSystem
  Proofs_Elements Proofs_System Proofs_Dof Proofs_Element Proofs_Accumulation Proofs_Train Proofs_TrainMat Props_Train Props_TrainMesh Props_TrainSystem
  Model_Coupled Model_Track Spec_Coupled Model_CoupledSystem Spec_CoupledSystem Props_CoupledSystem
  Spec_Analytic Spec_Motion Proofs_Motion Spec_ContactEnergy Proofs_ContactEnergy Spec_Balance Proofs_Balance Props_Balance Model_Mesh Spec_Generated Props_Generated Proofs_Track Proofs_Beam
  Proofs_CoupledSystem Spec_Track Model_Initial Spec_Initial Props_Initial Proofs_Coupled Props_Coupled Spec_Whole Props_Whole Model_Hinge Spec_Structure Proofs_Structure Proofs_Line Props_Structure Spec_Ride.
Import ListNotations.
Local Open Scope R_scope.

(** only the rail of the track matters for the contacts *)
Definition rail_only (rn : list nat) : Model_Mesh.track R := mkTrack [] rn [] 0 [] [] [] [] [] [] [].

Section Ride.
  Variables (h : tri Z -> Z) (tn : train R) (x : part -> R) (st0 st : tstate R) (sv : gsys R) (nv : nat) (bs : list nat).
  Hypothesis hsu : set_up h tn x st0 st sv nv bs.
  Variables (ns0 : list (node R)) (ps : list (epart R)) (ls : list (load R)) (cs : list (list nat * tri bool)) (dt : damping R) (s : gsys R) (ns : list (node R)) (nt : nat).
  Hypothesis hinit : initialise_system ns0 ps ls cs dt = Ok (s, ns, nt).
  Variable rn : list nat.
  Hypothesis hstr : structure ns0 ps ns rn.
  Variables (da : damping R) (c : gsys R).
  Hypothesis hco : coupled_matrices da s sv = Ok c.
  Variables (F track : list R).
  Hypothesis hload : load_vectors nt nv sv F track.
  (* forces and momentum of the structure *)
  Variables (spring damper P : (nat -> R) -> R).
  Hypothesis hspring : forall u, all_parts ns0 (ground_springs ns (field_of ns u)) ps = spring u.
  Hypothesis hdamper : forall u, all_parts ns0 (ground_dampers ns (field_of ns u)) ps = damper u.
  Hypothesis hP : forall u, all_parts ns0 (part_momentum ns (field_of ns u)) ps = P u.

  Let Pv (v : nat -> R) := train_momentum tn bs st (fun i => v (nt + i)%nat).

  Lemma ride_numbered : numbered ns nt.
  Proof. destruct (initialise_inv _ _ _ _ _ _ _ _ hinit) as [s0 [_ [e0 _]]]. apply (initialise_kept _ _ _ _ _ _ _ _ _ hinit e0). Qed.
  Lemma ride_stiffness u : vertical ns (mulv nt (me (gK s)) u) = spring u.
  Proof. rewrite <- hspring. destruct hstr. apply (structure_stiffness ns0 ps ls cs dt s ns nt); assumption. Qed.
  Lemma ride_mass u : vertical ns (mulv nt (me (gM s)) u) = P u.
  Proof. rewrite <- hP. destruct hstr. apply (structure_mass ns0 ps ls cs dt s ns nt); assumption. Qed.
  Lemma ride_damping u : vertical ns (mulv nt (me (gC s)) u) = damper u + rayleigh_loss dt (P u) (spring u).
  Proof.
    destruct hstr. rewrite (structure_damping ns0 ps ls cs dt s ns nt) by assumption. rewrite hdamper, hP, hspring. unfold rayleigh_loss. destruct (da_on dt); [unfold rayleigh_factors; rnum|]; ring.
  Qed.

  Lemma ride_contacts (ia : interaction R) (u : nat -> R) (tr F' tr' : list R) : wheels_on rn ns nt tn st nv ia ->
    length tr = length track -> (forall k, ~ In k (touched (ia_contacts ia)) -> nth k tr 0 = nth k track 0) ->
    update_contact ia (Spec_ContactEnergy.listed (nt + nv) u) F tr = Ok (F', tr') ->
    whole ns tn bs st nt (fun i => nth i F' 0) = vertical ns (other_force ia F track) - 981 / 100 * train_weight tn bs.
  Proof.
    intros [i1 i2 i3 i4 i5 i6] q1 q2 q3. destruct hsu as [hs ha hi hb hc he hf]. destruct hload as [hlt [hF hg]].
    rewrite (contacts_cancel h tn x st0 st sv nv bs hs ha hi hb hf (rail_only rn) ns nt ride_numbered (sr_rail _ _ _ _ hstr) ia u F track tr F' tr' i1 i2 hlt i3 hF i4 q1 q2 i5 i6 q3).
    exact (others h tn x st0 st sv nv bs hs ha hi hb hf ns nt ia F track hlt i3 hg).
  Qed.

  Lemma ride_momentum (ia : R -> interaction R) (u v a : R -> nat -> R) : (forall t1, wheels_on rn ns nt tn st nv (ia t1)) -> driven (nt + nv) c ia F track u v a ->
    derivative (fun t1 => P (v t1) + Pv (v t1))
      (fun t1 => vertical ns (other_force (ia t1) F track) - 981 / 100 * train_weight tn bs
         - spring (u t1) - damper (v t1) - rayleigh_loss dt (P (v t1)) (spring (v t1)) - rayleigh_loss da (P (v t1) + Pv (v t1)) (spring (v t1))).
  Proof.
    intros hia [f [[hu [hv hm]] hfo]]. pose proof ride_numbered as hnum. pose proof (track_square _ _ _ _ _ _ _ _ hinit) as hsq. destruct hsu as [hs ha hi hb hc he hf].
    pose proof (whole_mass h tn x st0 st sv nv bs hs ha hi hb hf ns nt hnum da s c hsq hco) as w1.
    pose proof (whole_stiffness h tn x st0 st sv nv bs hs ha hi hb hc he hf ns nt hnum da s c hsq hco) as w2.
    pose proof (whole_damping h tn x st0 st sv nv bs hs ha hi hb hc he hf ns nt hnum da s c hsq hco) as w3.
    apply (derivative_ext (fun t1 => whole ns tn bs st nt (mulv (nt + nv) (me (gM c)) (v t1))) _ (fun t1 => whole ns tn bs st nt (mulv (nt + nv) (me (gM c)) (a t1)))).
    - intros t1. rewrite w1, ride_mass. reflexivity.
    - intros t1. destruct (hfo t1) as [tr [F' [tr' [q1 [q2 [q3 q4]]]]]]. pose proof (ride_contacts (ia t1) (u t1) tr F' tr' (hia t1) q1 q2 q3) as k1.
      rewrite (whole_ext h tn x st0 st sv nv bs hs ha hi hb hf ns nt hnum _ (fun i => mulv (nt + nv) (me (gM c)) (a t1) i + mulv (nt + nv) (me (gC c)) (v t1) i + mulv (nt + nv) (me (gK c)) (u t1) i)) in k1.
      2:{ intros i hl. rewrite <- q4 by exact hl. symmetry. apply hm. exact hl. }
      rewrite !whole_add, w2, w3, ride_damping, !ride_stiffness in k1. revert k1. rewrite !ride_mass. unfold rayleigh_factors, rayleigh_loss, Pv. rnum. intros k1.
      match goal with |- ?l = _ => replace l with (vertical ns (other_force (ia t1) F track) - 981 / 100 * train_weight tn bs - (vertical ns (other_force (ia t1) F track) - 981 / 100 * train_weight tn bs - l)) by ring end.
      rewrite <- k1. destruct (da_on da); destruct (da_on dt); ring.
    - apply (derivative_ext (fun t1 => work (nt + nv) (mulv (nt + nv) (me (gM c)) (v t1)) (raise tn st bs ns nt)) _ (fun t1 => work (nt + nv) (mulv (nt + nv) (me (gM c)) (a t1)) (raise tn st bs ns nt))).
      + intros t2. symmetry. exact (whole_work h tn x st0 st sv nv bs hs ha hi hb hf ns nt hnum _).
      + intros t2. symmetry. exact (whole_work h tn x st0 st sv nv bs hs ha hi hb hf ns nt hnum _).
      + unfold work. apply (derivative_sumn (nt + nv) (fun t i => mulv (nt + nv) (me (gM c)) (v t) i * raise tn st bs ns nt i) (fun t i => mulv (nt + nv) (me (gM c)) (a t) i * raise tn st bs ns nt i)). intros i hl.
        apply (derivative_ext (fun t1 => raise tn st bs ns nt i * mulv (nt + nv) (me (gM c)) (v t1) i) _ (fun t1 => raise tn st bs ns nt i * mulv (nt + nv) (me (gM c)) (a t1) i)); [intros; ring|intros; ring|].
        intros t3. apply (derivable_pt_lim_scal (fun t1 => mulv (nt + nv) (me (gM c)) (v t1) i)). unfold mulv.
        apply (derivative_sumn (nt + nv) (fun t j => me (gM c) i j * v t j) (fun t j => me (gM c) i j * a t j)). intros j hj t4. apply (derivable_pt_lim_scal (fun t => v t j)). apply hv. exact hj.
  Qed.

  Lemma ride_rest (ia : interaction R) (F' tr' : list R) (u : nat -> R) : wheels_on rn ns nt tn st nv ia ->
    update_contact ia (Spec_ContactEnergy.listed (nt + nv) u) F track = Ok (F', tr') ->
    (forall i, (i < nt + nv)%nat -> mulv (nt + nv) (me (gK c)) u i = nth i F' 0) ->
    spring u = vertical ns (other_force ia F track) - 981 / 100 * train_weight tn bs.
  Proof.
    intros hia e hm. pose proof ride_numbered as hnum. pose proof (track_square _ _ _ _ _ _ _ _ hinit) as hsq.
    rewrite <- (ride_contacts ia u track F' tr' hia eq_refl (fun _ _ => eq_refl) e). destruct hsu as [hs ha hi hb hc he hf].
    rewrite <- (whole_ext h tn x st0 st sv nv bs hs ha hi hb hf ns nt hnum _ _ hm), (whole_stiffness h tn x st0 st sv nv bs hs ha hi hb hc he hf ns nt hnum da s c hsq hco). symmetry. apply ride_stiffness.
  Qed.
End Ride.

(** C127: a train on any structure of level beams, upright springs and point masses.  Only the weight of the train, the other loads, and the
    springs and dampers that end on the ground change the vertical momentum of train and structure together (and with Rayleigh damping its
    terms); the forces between wheels and rails do not *)
Theorem C127_momentum (h : tri Z -> Z) tn x st0 st sv nv bs ns0 ps ls cs dt s ns nt rn da c F track (ia : R -> interaction R) (u v a : R -> nat -> R) :
  set_up h tn x st0 st sv nv bs -> initialise_system ns0 ps ls cs dt = Ok (s, ns, nt) -> structure ns0 ps ns rn ->
  coupled_matrices da s sv = Ok c -> load_vectors nt nv sv F track -> (forall t1, wheels_on rn ns nt tn st nv (ia t1)) -> driven (nt + nv) c ia F track u v a ->
  let P v := all_parts ns0 (part_momentum ns (field_of ns v)) ps in
  let Pv (v : nat -> R) := train_momentum tn bs st (fun i => v (nt + i)%nat) in
  let spring u := all_parts ns0 (ground_springs ns (field_of ns u)) ps in
  derivative (fun t1 => P (v t1) + Pv (v t1))
    (fun t1 => vertical ns (other_force (ia t1) F track) - 981 / 100 * train_weight tn bs
       - spring (u t1) - all_parts ns0 (ground_dampers ns (field_of ns (v t1))) ps - rayleigh_loss dt (P (v t1)) (spring (v t1)) - rayleigh_loss da (P (v t1) + Pv (v t1)) (spring (v t1))).
Proof.
  intros h1 h2 h3 h4 h5 h6 h7. cbv zeta.
  apply (ride_momentum h tn x st0 st sv nv bs h1 ns0 ps ls cs dt s ns nt h2 rn h3 da c h4 F track h5
    (fun u => all_parts ns0 (ground_springs ns (field_of ns u)) ps) (fun u => all_parts ns0 (ground_dampers ns (field_of ns u)) ps) (fun u => all_parts ns0 (part_momentum ns (field_of ns u)) ps)
    (fun _ => eq_refl) (fun _ => eq_refl) (fun _ => eq_refl) ia u v a h6 h7).
Qed.
Print Assumptions C127_momentum.

(** C127: and when train and structure stand still in equilibrium with the computed forces, the springs on the ground carry the weight of the
    train and the other loads *)
Theorem C127_rest (h : tri Z -> Z) tn x st0 st sv nv bs ns0 ps ls cs dt s ns nt rn da c F track (ia : interaction R) F' tr' (u : nat -> R) :
  set_up h tn x st0 st sv nv bs -> initialise_system ns0 ps ls cs dt = Ok (s, ns, nt) -> structure ns0 ps ns rn ->
  coupled_matrices da s sv = Ok c -> load_vectors nt nv sv F track -> wheels_on rn ns nt tn st nv ia ->
  update_contact ia (Spec_ContactEnergy.listed (nt + nv) u) F track = Ok (F', tr') ->
  (forall i, (i < nt + nv)%nat -> mulv (nt + nv) (me (gK c)) u i = nth i F' 0) ->
  all_parts ns0 (ground_springs ns (field_of ns u)) ps = vertical ns (other_force ia F track) - 981 / 100 * train_weight tn bs.
Proof.
  intros h1 h2 h3 h4 h5 h6 h7 h8.
  exact (ride_rest h tn x st0 st sv nv bs h1 ns0 ps ls cs dt s ns nt h2 rn h3 da c h4 F track h5 (fun u => all_parts ns0 (ground_springs ns (field_of ns u)) ps) (fun _ => eq_refl) ia F' tr' u h6 h7 h8).
Qed.
Print Assumptions C127_rest.

(** C127: the initial state of the coupled run on any structure: the springs on the ground carry the loads of all wheels, also of wheels that
    stand close together *)
Theorem C127_start ns0 ps ls cs dt s ns nt rn solve ct Kv Fv (Ft : list R) wheels G pow loads st :
  initialise_system ns0 ps ls cs dt = Ok (s, ns, nt) -> structure ns0 ps ns rn ->
  solves solve -> length Ft = nt -> mr Kv = length Fv -> mc Kv = length Fv -> contacts_fit ct wheels loads nt (length Fv) -> wheel_loads_only Ft ct loads ->
  (forall k, In k ct -> on_rail rn ns k) ->
  calculate_initial_state solve (gK s) Ft ct Kv Fv wheels G pow loads = Ok st ->
  all_parts ns0 (ground_springs ns (field_of ns (fun i => nth i (in_u st) 0))) ps = nsum loads.
Proof.
  intros hinit hstr hso hlen k1 k2 hfit hw hbt hini.
  pose proof (ride_numbered ns0 ps ls cs dt s ns nt hinit) as hnum.
  pose proof (track_square _ _ _ _ _ _ _ _ hinit) as hsq. pose proof hsq as [q1 [q2 _]].
  destruct (initial_parts solve (gK s) Ft ct Kv Fv wheels G pow loads st hso ltac:(lia) ltac:(lia) k1 k2 ltac:(rewrite hlen; exact hfit) hini) as [ut [uv [e1 [e2 [e3 [_ [_ [_ [e7 _]]]]]]]]].
  rewrite <- (ride_stiffness ns0 ps ls cs dt s ns nt hinit rn hstr (fun u => all_parts ns0 (ground_springs ns (field_of ns u)) ps) (fun _ => eq_refl)).
  destruct hfit as [c1 [c2 [c3 [c4 _]]]].
  rewrite (vertical_ext ns nt _ (fun k => nsum (contributions ct loads k)) hnum).
  - rewrite <- (vertical_work ns nt _ hnum), (spread nt (lift ns) ct loads ltac:(lia) c3 c4).
    rewrite (nsum_map_ext _ snd).
    + assert (g : forall (l : list (contact R)) (m : list R), length l = length m -> map snd (combine l m) = m).
      { induction l as [|y l IH]; intros [|z m] hl; try discriminate; [reflexivity|]. cbn. rewrite IH; [reflexivity|]. injection hl. auto. }
      rewrite g by lia. reflexivity.
    + intros [k l] hin. cbn [fst snd]. apply in_combine_l in hin. destruct (hbt k hin) as [p [q [le [phi [y [hp [hq [hl [hphi [f1 f2]]]]]]]]]].
      pose proof (lift_field ns nt p DY hnum) as z1. pose proof (lift_field ns nt p DR hnum) as z2. pose proof (lift_field ns nt q DY hnum) as z3. pose proof (lift_field ns nt q DR hnum) as z4.
      unfold field_of in z1, z2, z3, z4. pose proof (sr_rail _ _ _ _ hstr p hp) as hp'. pose proof (sr_rail _ _ _ _ hstr q hq) as hq'.
      rewrite f1, f2. cbn [sumn nth map seq]. rewrite z1, z2, z3, z4. destruct (number_of ns p DY); [|congruence]. destruct (number_of ns q DY); [|congruence].
      pose proof (y_shape_rigid le phi y 1 0 hl hphi) as g. unfold interp in g. rnum. replace (l * _) with (l * (1 + 0 * y)); [ring|]. f_equal. lra.
  - intros i hlt. rewrite <- hw by lia. rewrite <- e7 by lia. unfold resistance. rewrite q2. unfold mulv. apply sumn_ext. intros j hj. rewrite e3, app_nth1 by lia. reflexivity.
Qed.
Print Assumptions C127_start.

(** ** joined tracks, with or without a hinge *)

Lemma joined_structure h specs d r j c mesh rail pad sleeper soils ps ls cs da s ns' k :
  (1 <= r)%nat -> 1 / 1000000000 < d / INR r -> segments specs -> joins h specs d r j c mesh ->
  good_rail rail -> good_rod pad -> 0 <= sleeper -> Forall good_rod soils -> length soils = length specs ->
  joined_or_hinged c j rail pad sleeper soils ps -> initialise_system (joined_mesh c mesh) ps ls cs da = Ok (s, ns', k) -> joined_stands j ns' ->
  structure (joined_mesh c mesh) ps ns' (jn_rail_nodes j) /\
  (forall u, all_parts (joined_mesh c mesh) (ground_springs ns' u) ps = soils_sum j soils stiffness_of u) /\
  (forall u, all_parts (joined_mesh c mesh) (ground_dampers ns' u) ps = soils_sum j soils damping_of u) /\
  (forall v, all_parts (joined_mesh c mesh) (part_momentum ns' v) ps = joined_momentum j (d / INR r) rail pad sleeper soils v).
Proof.
  intros hr hd hsp hj hrail hpad hsl hsoils hc hps hi hst. destruct (joined_line h specs d r j c mesh hr hd hsp hj) as [hm [hlen hline]].
  rewrite hm in hi |- *. rewrite <- hlen in hc. assert (hl : 0 < d / INR r) by lra.
  destruct hps as [-> | [len [mass [f [x0 [i [hat hps]]]]]]].
  - split; [constructor|].
    + eapply joined_shaped; eassumption.
    + eapply joined_sound; eassumption.
    + eapply joined_upright; eassumption.
    + eapply joined_free; eassumption.
    + intros p hp. apply hst. auto.
    + split; [|split]; intros u; [eapply joined_springs|eapply joined_dampers|eapply joined_moves]; eassumption.
  - split; [constructor|].
    + eapply hinged_shaped; eassumption.
    + eapply hinged_sound; eassumption.
    + eapply hinged_upright; eassumption.
    + eapply hinged_free; eassumption.
    + intros p hp. apply hst. auto.
    + split; [|split]; intros u; [eapply hinged_springs|eapply hinged_dampers|eapply hinged_moves]; eassumption.
Qed.

(** C127: a train on a joined track, with or without a hinge in the rail: only the weight of the train, the other loads and the soil of all
    segments change the momentum of train and track *)
Theorem C127_joined_momentum (h : tri Z -> Z) tn x st0 st sv nv bs h' specs d r j c mesh rail pad sleeper soils ps ls cs dt s ns nt da cm F track (ia : R -> interaction R) (u v a : R -> nat -> R) :
  set_up h tn x st0 st sv nv bs ->
  (1 <= r)%nat -> 1 / 1000000000 < d / INR r -> segments specs -> joins h' specs d r j c mesh ->
  good_rail rail -> good_rod pad -> 0 <= sleeper -> Forall good_rod soils -> length soils = length specs ->
  joined_or_hinged c j rail pad sleeper soils ps -> initialise_system (joined_mesh c mesh) ps ls cs dt = Ok (s, ns, nt) -> joined_stands j ns ->
  coupled_matrices da s sv = Ok cm -> load_vectors nt nv sv F track -> (forall t1, wheels_on (jn_rail_nodes j) ns nt tn st nv (ia t1)) -> driven (nt + nv) cm ia F track u v a ->
  let P v := joined_momentum j (d / INR r) rail pad sleeper soils (field_of ns v) in
  let Pv (v : nat -> R) := train_momentum tn bs st (fun i => v (nt + i)%nat) in
  let spring u := soils_sum j soils stiffness_of (field_of ns u) in
  derivative (fun t1 => P (v t1) + Pv (v t1))
    (fun t1 => vertical ns (other_force (ia t1) F track) - 981 / 100 * train_weight tn bs
       - spring (u t1) - soils_sum j soils damping_of (field_of ns (v t1)) - rayleigh_loss dt (P (v t1)) (spring (v t1)) - rayleigh_loss da (P (v t1) + Pv (v t1)) (spring (v t1))).
Proof.
  intros h1 hr hd hsp hj hrail hpad hsl hsoils hc hps hi hst h4 h5 h6 h7. cbv zeta.
  destruct (joined_structure h' specs d r j c mesh rail pad sleeper soils ps ls cs dt s ns nt hr hd hsp hj hrail hpad hsl hsoils hc hps hi hst) as [g [g1 [g2 g3]]].
  apply (ride_momentum h tn x st0 st sv nv bs h1 _ ps ls cs dt s ns nt hi (jn_rail_nodes j) g da cm h4 F track h5
    (fun u => soils_sum j soils stiffness_of (field_of ns u)) (fun u => soils_sum j soils damping_of (field_of ns u)) (fun u => joined_momentum j (d / INR r) rail pad sleeper soils (field_of ns u))
    (fun u => g1 _) (fun u => g2 _) (fun u => g3 _) ia u v a h6 h7).
Qed.
Print Assumptions C127_joined_momentum.

(** C127: and in equilibrium the soil of all segments carries the weight of the train and the other loads *)
Theorem C127_joined_rest (h : tri Z -> Z) tn x st0 st sv nv bs h' specs d r j c mesh rail pad sleeper soils ps ls cs dt s ns nt da cm F track (ia : interaction R) F' tr' (u : nat -> R) :
  set_up h tn x st0 st sv nv bs ->
  (1 <= r)%nat -> 1 / 1000000000 < d / INR r -> segments specs -> joins h' specs d r j c mesh ->
  good_rail rail -> good_rod pad -> 0 <= sleeper -> Forall good_rod soils -> length soils = length specs ->
  joined_or_hinged c j rail pad sleeper soils ps -> initialise_system (joined_mesh c mesh) ps ls cs dt = Ok (s, ns, nt) -> joined_stands j ns ->
  coupled_matrices da s sv = Ok cm -> load_vectors nt nv sv F track -> wheels_on (jn_rail_nodes j) ns nt tn st nv ia ->
  update_contact ia (Spec_ContactEnergy.listed (nt + nv) u) F track = Ok (F', tr') ->
  (forall i, (i < nt + nv)%nat -> mulv (nt + nv) (me (gK cm)) u i = nth i F' 0) ->
  soils_sum j soils stiffness_of (field_of ns u) = vertical ns (other_force ia F track) - 981 / 100 * train_weight tn bs.
Proof.
  intros h1 hr hd hsp hj hrail hpad hsl hsoils hc hps hi hst h4 h5 h6 h7 h8.
  destruct (joined_structure h' specs d r j c mesh rail pad sleeper soils ps ls cs dt s ns nt hr hd hsp hj hrail hpad hsl hsoils hc hps hi hst) as [g [g1 _]]. rewrite <- g1.
  exact (C127_rest h tn x st0 st sv nv bs _ ps ls cs dt s ns nt (jn_rail_nodes j) da cm F track ia F' tr' u h1 hi g h4 h5 h6 h7 h8).
Qed.
Print Assumptions C127_joined_rest.

(** C127: the initial state of the coupled run on a joined track: the soil of all segments carries the loads of all wheels *)
Theorem C127_joined_start h' specs d r j c mesh rail pad sleeper soils ps ls cs dt s ns nt solve ct Kv Fv (Ft : list R) wheels G pow loads st :
  (1 <= r)%nat -> 1 / 1000000000 < d / INR r -> segments specs -> joins h' specs d r j c mesh ->
  good_rail rail -> good_rod pad -> 0 <= sleeper -> Forall good_rod soils -> length soils = length specs ->
  joined_or_hinged c j rail pad sleeper soils ps -> initialise_system (joined_mesh c mesh) ps ls cs dt = Ok (s, ns, nt) -> joined_stands j ns ->
  solves solve -> length Ft = nt -> mr Kv = length Fv -> mc Kv = length Fv -> contacts_fit ct wheels loads nt (length Fv) -> wheel_loads_only Ft ct loads ->
  (forall k, In k ct -> on_rail (jn_rail_nodes j) ns k) ->
  calculate_initial_state solve (gK s) Ft ct Kv Fv wheels G pow loads = Ok st ->
  soils_sum j soils stiffness_of (field_of ns (fun i => nth i (in_u st) 0)) = nsum loads.
Proof.
  intros hr hd hsp hj hrail hpad hsl hsoils hc hps hi hst h1 h2 h3 h4 h5 h6 h7 h8.
  destruct (joined_structure h' specs d r j c mesh rail pad sleeper soils ps ls cs dt s ns nt hr hd hsp hj hrail hpad hsl hsoils hc hps hi hst) as [g [g1 _]]. rewrite <- g1.
  exact (C127_start _ ps ls cs dt s ns nt (jn_rail_nodes j) solve ct Kv Fv Ft wheels G pow loads st hi g h1 h2 h3 h4 h5 h6 h7 h8).
Qed.
Print Assumptions C127_joined_start.

(** ** a case that meets the hypotheses *)

Lemma numbers_nodup (ns : list (node R)) nt (l : list (nat * dir)) : numbered ns nt -> NoDup l -> NoDup (flat_map (fun q => match number_of ns (fst q) (snd q) with Some i => [i] | None => [] end) l).
Proof.
  intros hn. induction l as [|[p d] l IH]; intros h; [constructor|]. apply NoDup_cons_iff in h. destruct h as [h1 h2]. cbn [flat_map fst snd]. destruct (number_of ns p d) as [i|] eqn:e; [|exact (IH h2)].
  constructor; [|exact (IH h2)]. intros hin. apply in_flat_map in hin. destruct hin as [[q d'] [k1 k2]]. cbn [fst snd] in k2. destruct (number_of ns q d') as [i'|] eqn:e'; [|destruct k2].
  destruct k2 as [->|[]]. destruct (numbered_inj ns nt p d q d' i hn e e') as [-> ->]. contradiction.
Qed.
Lemma line_nodup c N l j : line c N l j -> 0 < l -> NoDup (jn_rail_nodes j).
Proof.
  intros hline hl. apply (NoDup_nth _ 0%nat). intros i k hi hk e. pose proof (ln_rail _ _ _ _ hline i hi) as g1. pose proof (ln_rail _ _ _ _ hline k hk) as g2. rewrite e, g2 in g1.
  injection g1 as g1. apply Rmult_eq_reg_r in g1; [|lra]. apply INR_eq in g1. congruence.
Qed.
Definition a_contact (ns : list (node R)) (q : nat * nat) : contact R :=
  mkContact [number_of ns (fst q) DY; number_of ns (fst q) DR; number_of ns (snd q) DY; number_of ns (snd q) DR] (map (y_shape (3 / 10) 0 (1 / 10)) (seq 0 4)).
Lemma wheels_possible rn ns nt st p0 p1 p2 p3 p4 p5 p6 p7 rest : numbered ns nt -> rn = p0 :: p1 :: p2 :: p3 :: p4 :: p5 :: p6 :: p7 :: rest -> NoDup rn -> wheels_of (coach []) st 6 [10; 11; 14; 15]%nat ->
  wheels_on rn ns nt (coach []) st 10 (mkInteraction (map (a_contact ns) [(p0, p1); (p2, p3); (p4, p5); (p6, p7)]) [nt + 4; nt + 5; nt + 8; nt + 9]%nat [0; 0; 0; 0] [0; 0; 0; 0] 1 (3 / 2)).
Proof.
  intros hn -> hnd hw. constructor; cbn [ia_G ia_pow ia_contacts ia_train_dofs].
  - lra.
  - intros z e. assert (g : IZR 3 = IZR (2 * z)) by (rewrite mult_IZR; lra). apply eq_IZR in g. lia.
  - unfold fits. cbn [ia_G ia_pow ia_contacts ia_train_dofs ia_static ia_irr length map]. split; [lra|]. split; [lia|]. split; [reflexivity|]. split; [reflexivity|]. split; [reflexivity|].
    split; [intros k [<-|[<-|[<-|[<-|[]]]]]; split; reflexivity|]. split; [|split].
    + intros i hi. unfold touched in hi. apply in_flat_map in hi. destruct hi as [k [hk hi]]. apply in_flat_map in hi. destruct hi as [o [ho hi]]. destruct o as [i'|]; [|destruct hi]. destruct hi as [->|[]].
      change (In k (map (a_contact ns) [(p0, p1); (p2, p3); (p4, p5); (p6, p7)])) in hk. apply in_map_iff in hk. destruct hk as [q [<- _]]. unfold a_contact in ho. cbn [cn_dofs] in ho.
      destruct ho as [ho|[ho|[ho|[ho|[]]]]]; exact (numbered_lt _ _ _ _ _ hn ho).
    + repeat constructor; cbn; lia.
    + cbn. lia.
  - apply (numbers_nodup ns nt [(p0, DY); (p0, DR); (p1, DY); (p1, DR); (p2, DY); (p2, DR); (p3, DY); (p3, DR); (p4, DY); (p4, DR); (p5, DY); (p5, DR); (p6, DY); (p6, DR); (p7, DY); (p7, DR)]) in hn.
    + refine (eq_ind _ (@NoDup nat) hn _ _). cbn [map a_contact fst snd flat_map touched cn_dofs]. unfold touched. cbn [flat_map cn_dofs a_contact fst snd map]. rewrite <- ?app_assoc, ?app_nil_r. reflexivity.
    + assert (g : forall l : list nat, NoDup l -> NoDup (flat_map (fun p => [(p, DY); (p, DR)]) l)).
      { induction l as [|p l IH]; intros h; [constructor|]. apply NoDup_cons_iff in h. destruct h as [h1 h2]. cbn [flat_map app].
        assert (k : forall e, ~ In (p, e) (flat_map (fun p => [(p, DY); (p, DR)]) l)). { intros e hin. apply in_flat_map in hin. destruct hin as [q [k1 k2]]. apply h1. destruct k2 as [k2|[k2|[]]]; injection k2 as -> _; exact k1. }
        constructor; [intros [q|q]; [discriminate|exact (k _ q)]|]. constructor; [apply k|apply IH; exact h2]. }
      specialize (g [p0; p1; p2; p3; p4; p5; p6; p7]). apply g. change (p0 :: p1 :: p2 :: p3 :: p4 :: p5 :: p6 :: p7 :: rest) with ([p0; p1; p2; p3; p4; p5; p6; p7] ++ rest) in hnd.
      clear - hnd. induction [p0; p1; p2; p3; p4; p5; p6; p7] as [|a l IH]; [constructor|]. cbn in hnd. apply NoDup_cons_iff in hnd. destruct hnd as [h1 h2]. constructor; [intros hin; apply h1; apply in_or_app; auto|exact (IH h2)].
  - intros k hk. change (In k (map (a_contact ns) [(p0, p1); (p2, p3); (p4, p5); (p6, p7)])) in hk. apply in_map_iff in hk. destruct hk as [[p q] [<- hq]].
    exists p, q, (3 / 10), 0, (1 / 10). split; [|split; [|split; [lra|split; [lra|split; reflexivity]]]].
    + destruct hq as [hq|[hq|[hq|[hq|[]]]]]; injection hq as <- <-; cbn; tauto.
    + destruct hq as [hq|[hq|[hq|[hq|[]]]]]; injection hq as <- <-; cbn; tauto.
  - intros k hk. assert (g : exists m, k = (nt + m)%nat /\ In (6 + m)%nat [10; 11; 14; 15]%nat) by (destruct hk as [<-|[<-|[<-|[<-|[]]]]]; eexists; (split; [reflexivity|cbn; tauto])).
    destruct g as [m [-> g]]. destruct (hw _ g) as [b [i [z [q1 [q2 q3]]]]]. exists b, i, z. split; [exact q1|]. split; [exact q2|]. lia.
Qed.

(** a coach of four wheels can stand on the joined track of C125_case *)
Example C127_case (h h' : tri Z -> Z) (st0 : tstate R) : Spec_TrainMesh.sound st0 ->
  exists x st sv, set_up h (coach []) x st0 st sv 10 [0; 1]%nat /\
  exists j c mesh cs s ns nt ia, joins h' case_specs (6 / 10) 2 j c mesh /\ joined_or_hinged c j case_rail case_pad 140 case_soils (joined_parts j case_rail case_pad 140 case_soils) /\
    initialise_system (joined_mesh c mesh) (joined_parts j case_rail case_pad 140 case_soils) [] cs (mkDamping true (1 / 50) 2 300) = Ok (s, ns, nt) /\ joined_stands j ns /\
    wheels_on (jn_rail_nodes j) ns nt (coach []) st 10 ia.
Proof.
  intros hs. destruct (C124_case h st0 hs) as [sv [st [e [hf [hc [he [hb [_ [hw _]]]]]]]]]. exists shared_places, st, sv. split; [constructor; try assumption; apply coach_apart|].
  destruct case_values as [h1 [h2 [h3 [h4 [h5 [h6 [h7 [h8 h9]]]]]]]].
  destruct (C125_total h' case_specs (6 / 10) 2 case_rail case_pad 140 case_soils [] (mkDamping true (1 / 50) 2 300) ltac:(lia) h5 h4 h1 h2 h3 eq_refl h6 h7 h8 h9) as [j [c [mesh [cs [g1 [g2 g3]]]]]].
  destruct g3 as [s [ns [nt [g4 [g5 _]]]]]; [constructor|intros l i []|].
  assert (hlen : (8 <= length (jn_rail_nodes j))%nat).
  { destruct (joined_rail_length h' case_specs (6 / 10) 2 ltac:(lia) h5 h4) as [j' [c' [mesh' [[ts [es [q1 q2]]] q3]]]]. destruct g1 as [ts' [es' [q4 q5]]]. rewrite q1 in q4. injection q4 as <-. rewrite q2 in q5. injection q5 as <- _ _ _.
    rewrite q3. cbn. lia. }
  destruct (joined_line h' case_specs (6 / 10) 2 j c mesh ltac:(lia) h5 h4 g1) as [_ [_ hline]]. pose proof (line_nodup _ _ _ _ hline ltac:(lra)) as hnd.
  pose proof (ride_numbered _ _ _ _ _ _ _ _ g4) as hnum.
  destruct (jn_rail_nodes j) as [|p0 [|p1 [|p2 [|p3 [|p4 [|p5 [|p6 [|p7 rest]]]]]]]] eqn:er; try (cbn in hlen; lia). rewrite <- er in *.
  exists j, c, mesh, cs, s, ns, nt. eexists. split; [exact g1|]. split; [left; reflexivity|]. split; [exact g4|]. split; [exact g5|].
  exact (wheels_possible _ ns nt st p0 p1 p2 p3 p4 p5 p6 p7 rest hnum er hnd hw).
Qed.
