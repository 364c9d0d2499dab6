(** * The numbering of nodes, elements and parts does not matter (C110) *)

From Coq Require Import Reals List Bool ZArith Arith Lia Lra Permutation.
From Verif Require Import Num PyBase Model_Geometry Model_System Spec_System Proofs_Dof Proofs_System Model_Element Spec_Element
  Proofs_Elements Proofs_Element Proofs_Beam Proofs_Force Model_Accumulation Proofs_Accumulation Model_Track Spec_Track
  Proofs_Track Proofs_Assembly Props_Track Spec_Analytic Spec_Motion Proofs_Motion Spec_Renumber Proofs_Renumber.
Import ListNotations.
Local Open Scope R_scope.

(** a model whose nodes have other positions in the mesh, and whose parts, elements and loads come in another order, is
    initialised as well; it has as many degrees of freedom, of the same nodes and directions, and the same entries for them *)
Theorem C110_same_system f (ns ms : list (node R)) ps qs ls ks cs da s ns' n :
  initialise_system ns ps ls cs da = Ok (s, ns', n) ->
  Forall shaped ps -> Forall (fun p => sound (settled ns p)) ps -> Forall (within ns) ps -> Forall plain_load ls ->
  renumbered_mesh f ns ms -> renumbered_parts f ps qs -> Permutation ks (map (renumbered_load f) ls) ->
  exists s2 ms', initialise_system ms qs ks (map (renumbered_constraint f) cs) da = Ok (s2, ms', n) /\
    (forall p d, (p < length ns)%nat -> (number_of ns' p d <> None <-> number_of ms' (f p) d <> None)) /\
    forall p d q e i j i' j', number_of ns' p d = Some i -> number_of ns' q e = Some j -> number_of ms' (f p) d = Some i' -> number_of ms' (f q) e = Some j' ->
      me (gK s2) i' j' = me (gK s) i j /\ me (gM s2) i' j' = me (gM s) i j /\ me (gC s2) i' j' = me (gC s) i j /\ nth i' (gF s2) 0 = nth i (gF s) 0.
Proof.
  intros h hs ho hw hp hm hq hl. apply (same_system f ns ms ps qs ls ks cs da s ns' n h hs ho hw hp hm hl).
  - intros aux u _. exact (same_total f ns ms hm aux u ps qs hq).
  - intros q hin. destruct (part_in f ps qs q hq hin) as [p [hp1 hr]]. exact (part_ok f ns ms hm p q _ hr (first_ok _ _ _ _ _ _ _ _ h p hp1)).
  - apply Forall_forall. intros q hin. destruct (part_in f ps qs q hq hin) as [p [hp1 hr]]. rewrite Forall_forall in hw. exact (within_same f ns ms p q hm hr (hw p hp1)).
  - exact (same_shaped f ps qs hq hs).
  - exact (same_sound f ns ms hm ps qs hq ho).
Qed.
Print Assumptions C110_same_system.

(** and it moves in the same way: when the loads, displacements, velocities and accelerations agree node by node, one is a
    motion if the other is *)
Theorem C110_same_motion f (ns ms : list (node R)) ps qs ls ks cs da s ns' n s2 ms' m g u v a g2 u2 v2 a2 :
  initialise_system ns ps ls cs da = Ok (s, ns', n) -> initialise_system ms qs ks (map (renumbered_constraint f) cs) da = Ok (s2, ms', m) ->
  Forall shaped ps -> Forall (fun p => sound (settled ns p)) ps -> Forall (within ns) ps ->
  renumbered_mesh f ns ms -> renumbered_parts f ps qs ->
  (forall p d i j, number_of ns' p d = Some i -> number_of ms' (f p) d = Some j -> forall t, g2 t j = g t i /\ u2 t j = u t i /\ v2 t j = v t i /\ a2 t j = a t i) ->
  motion n s g u v a -> motion m s2 g2 u2 v2 a2.
Proof.
  intros h h2 hs ho hw hm hq. eapply (motion_same f ns ms ps qs); try eassumption.
  - intros aux x _. exact (same_total f ns ms hm aux x ps qs hq).
  - exact (same_shaped f ps qs hq hs).
  - exact (same_sound f ns ms hm ps qs hq ho).
Qed.
Print Assumptions C110_same_motion.

(** the rod, the beam and the point of C85 on the nodes in the opposite order, with the point first *)
Definition other_end (p : nat) : nat := match p with 0%nat => 1%nat | 1%nat => 0%nat | _ => p end.
Definition swapped_nodes : list (node R) := [new_node 0 1 0 0; new_node 1 0 0 0].
Example C110_case :
  (exists s ns' n, initialise_system two_nodes [a_rod; a_beam; a_point] [mkLoad (T3 true true false) [1%nat] [T3 3 4 0]] [([0%nat], T3 false false false)] no_damping = Ok (s, ns', n)) /\
  Forall shaped [a_rod; a_beam; a_point] /\ Forall (fun p => sound (settled two_nodes p)) [a_rod; a_beam; a_point] /\ Forall (within two_nodes) [a_rod; a_beam; a_point] /\
  Forall plain_load [mkLoad (T3 true true false) [1%nat] [T3 3 4 0]] /\ renumbered_mesh other_end two_nodes swapped_nodes /\
  renumbered_parts other_end [a_rod; a_beam; a_point]
    [mkPart (KPoint 5) [0%nat] []; mkPart (KRod (Some 1) None (Some 1)) [1; 0]%nat [(1, 0)]%nat; mkPart (KRail (mkBeam 210 (3 / 10) 8 2 3 (1 / 2) 4 None None)) [1; 0]%nat [(1, 0)]%nat].
Proof.
  split.
  { destruct (mixed_runs [([0%nat], T3 false false false)] no_damping) as [s [ns' [n h]]]. apply initialise_ok.
    - intros p hp. destruct (initialise_inv _ _ _ _ _ _ _ _ h) as [s0 [_ [e0 _]]]. destruct (assemble_inv _ _ _ _ _ e0) as [_ [e1 _]]. apply mapr_spec in e1. cbn [map] in e1.
      inversion_clear e1. inversion_clear H0. inversion_clear H2. destruct hp as [<-|[<-|[<-|[]]]]; eexists; eassumption.
    - intros p i [<-|[<-|[<-|[]]]] hi; cbn in hi; cbn; lia.
    - intros l i [<-|[]] hi. cbn in hi. cbn. lia. }
  assert (el : dist3 (T3 0 0 0) (T3 1 0 0) = 1).
  { unfold dist3. cbn [tx ty tr]. replace ((1 - 0) * (1 - 0) + (0 - 0) * (0 - 0) + (0 - 0) * (0 - 0)) with 1 by ring. apply sqrt_1. }
  split; [repeat constructor; cbn; congruence|]. split; [repeat constructor; cbn; lra|].
  split.
  { apply Forall_forall. intros p [<-|[<-|[<-|[]]]] i [hi|[e [he hi]]]; cbn in *; try lia; destruct he as [<-|[]]; cbn in hi; lia. }
  split; [constructor; [split; [repeat constructor; intros []|reflexivity]|constructor]|].
  split.
  - split; [reflexivity|]. split.
    + intros [|[|p]] [|[|q]] e; cbn in e; congruence.
    + intros [|[|p]]; [split; reflexivity|split; reflexivity|]. cbn. destruct p; exact I.
  - exists [mkPart (KRod (Some 1) None (Some 1)) [1; 0]%nat [(1, 0)]%nat; mkPart (KRail (mkBeam 210 (3 / 10) 8 2 3 (1 / 2) 4 None None)) [1; 0]%nat [(1, 0)]%nat; mkPart (KPoint 5) [0%nat] []].
    split; [repeat constructor|]. apply (Permutation_cons_append [_; _] _) || (eapply Permutation_trans; [apply Permutation_app_comm with (l := [_; _]) (l' := [_])|reflexivity]).
Qed.
