(** * C152: influence lines of a moving load *)

From Coq Require Import Reals List Bool ZArith Arith FunctionalExtensionality Lia Lra.
From Verif Require Import Num PyBase Model_Geometry Model_System Spec_System Proofs_Dof Proofs_System Model_Element Spec_Element
  Proofs_Elements Proofs_Element Proofs_Beam Proofs_Force Model_Moving Spec_Moving Proofs_Load Model_Accumulation Proofs_Accumulation Model_Coupled Model_Mesh Spec_Mesh Model_Track Spec_Track Spec_Generated Proofs_Track
  Proofs_Assembly Props_Track Spec_Analytic Spec_Motion Proofs_Motion Spec_Chain Proofs_Chain Spec_Renumber Proofs_Renumber Spec_Balance Proofs_Balance Spec_Structure Proofs_Structure Proofs_Line
  Spec_Stiffer Proofs_Stiffer Props_Stiffer Props_Sudden Spec_Halves Props_Halves Spec_Between Props_Between Spec_Influence.
Import ListNotations.
Local Open Scope R_scope.

Lemma pressed_work nodes ns b i j x f st' v : pressed nodes ns b i j x f st' -> load_work [moving_load nodes st'] v = along_load f b v i j x.
Proof. intros [_ [h1 [h2 [h3 [h4 [m [d [bs [t [st [h5 [h6 h7]]]]]]]]]]]]. exact (C151_work m d bs nodes ns b i j x f t st st' v h5 h6 h7 h1 h2 h3 h4). Qed.

Lemma pressed_plain nodes ns b i j x f st' : pressed nodes ns b i j x f st' -> Forall plain_load [moving_load nodes st'].
Proof.
  intros [hn [_ [_ [_ [_ [m [d [bs [t [st [hu [hst hz]]]]]]]]]]]]. constructor; [|constructor]. split; [exact hn|]. cbn [moving_load ld_vals ld_nodes].
  destruct hst as [ki [kj [k [e1 [e2 [e3 [e4 [e5 [e6 [e7 [e8 [e9 _]]]]]]]]]]]]. unfold moving_update in hu. rewrite e1, e4, e5, e6, e7, e8, e9 in hu.
  destruct (nth_error (mi_coords m) ki); [|discriminate]. destruct (nth_error (mi_coords m) kj); [|discriminate]. injection hu as <-. destruct hz as [z1 [z2 z3]].
  unfold vals_of, distribute. cbn [st_x st_y st_z]. rewrite map_length, !combine_length, !iadd_length, !map_length. lia.
Qed.

Lemma full_plain p g : Forall plain_load [full_load p g].
Proof. constructor; [split; [constructor; [intros []|constructor]|reflexivity]|constructor]. Qed.

(** The displacement of a node, as the load moves along, is the bent shape of the beams under a load on that node. *)
Theorem C152_influence ns ps cs da da' nodes b i j x f st' p g s1 ns1 k1 s2 ns2 k2 x1 x2 :
  Forall shaped ps -> Forall (fun p => sound (settled ns p)) ps -> pressed nodes ns b i j x f st' ->
  initialise_system ns ps [moving_load nodes st'] cs da = Ok (s1, ns1, k1) -> initialise_system ns ps [full_load p g] cs da' = Ok (s2, ns2, k2) ->
  in_balance s1 k1 x1 -> in_balance s2 k2 x2 -> let u := field_of ns1 x1 in
  tx g * u p DX + ty g * u p DY + tr g * u p DR = along_load f b (field_of ns2 x2) i j x.
Proof.
  intros hs ho hp h1 h2 b1 b2 u. rewrite <- (pressed_work _ _ _ _ _ _ _ _ _ hp), <- full_work. symmetry.
  exact (C132_reciprocal ns ps _ _ cs da da' s1 ns1 k1 s2 ns2 k2 x1 x2 hs ho (pressed_plain _ _ _ _ _ _ _ _ hp) (full_plain p g) h1 h2 b1 b2).
Qed.
Print Assumptions C152_influence.

Lemma work_bound ns ps ls ls' cs da da' s1 ns1 k1 s2 ns2 k2 x1 x2 :
  Forall shaped ps -> Forall (fun p => sound (settled ns p)) ps -> Forall plain_load ls -> Forall plain_load ls' ->
  initialise_system ns ps ls cs da = Ok (s1, ns1, k1) -> initialise_system ns ps ls' cs da' = Ok (s2, ns2, k2) -> in_balance s1 k1 x1 -> in_balance s2 k2 x2 ->
  0 <= load_work ls (field_of ns1 x1) /\
  load_work ls (field_of ns2 x2) * load_work ls (field_of ns2 x2) <= load_work ls (field_of ns1 x1) * load_work ls' (field_of ns2 x2).
Proof.
  intros hs ho p1 p2 h1 h2 b1 b2. destruct (initialise_sym _ _ _ _ _ _ _ _ hs ho h1) as [sk _].
  destruct (initialise_inv _ _ _ _ _ _ _ _ h1) as [z [_ [e _]]]. destruct (initialise_kept _ _ _ _ _ _ _ _ _ h1 e) as [_ [hn _]].
  assert (pk : psd k1 (me (gK s1))).
  { intros y. pose proof (initialise_energy _ _ _ _ _ _ _ _ y hs h1) as [-> _]. apply nsum_nonneg, Forall_map, Forall_forall. intros q hq. rewrite Forall_forall in ho.
    apply part_form_nonneg; [left; reflexivity|apply ho; exact hq]. }
  set (v := vector_of ns1 (field_of ns2 x2)).
  assert (ev : field_of ns1 v = field_of ns2 x2).
  { extensionality q. extensionality d. apply (vector_field ns1 k1 _ hn). intros p0 d0 h. unfold field_of. rewrite (same_dofs ns ps hs ls ls' cs da da' s1 ns1 k1 s2 ns2 k2 p0 d0 h1 h2 h). reflexivity. }
  assert (w : forall y, work k1 (mulv k1 (me (gK s1)) x1) y = load_work ls (field_of ns1 y)).
  { intros y. rewrite <- (forces_work _ _ _ _ _ _ _ _ y h1 p1). apply work_ext; [intros i hi; apply b1; exact hi|reflexivity]. }
  pose proof (initialise_energy _ _ _ _ _ _ _ _ v hs h1) as [q1 _]. pose proof (initialise_energy _ _ _ _ _ _ _ _ x2 hs h2) as [q2 _]. cbv zeta in q1, q2.
  assert (w2 : load_work ls' (field_of ns2 x2) = quad k2 (me (gK s2)) x2).
  { rewrite <- (forces_work _ _ _ _ _ _ _ _ x2 h2 p2), quad_work. apply work_ext; [intros i hi; symmetry; apply b2; exact hi|reflexivity]. }
  pose proof (cauchy k1 (me (gK s1)) x1 v sk pk) as c. rewrite w, (quad_work k1 _ x1), w, q1, ev, <- q2, <- w2 in c. split; [|exact c].
  rewrite <- w, <- quad_work. apply pk.
Qed.

(** Two loads on any two places: how far the second place moves under the first load is how far the first place moves under the second one.  No load moves
    its own place against itself, and the mutual displacements are bounded by the own ones. *)
Theorem C152_places ns ps cs da da' nodes b i j x f st' nodes2 b2 i2 j2 y g st2 s1 ns1 k1 s2 ns2 k2 x1 x2 :
  Forall shaped ps -> Forall (fun p => sound (settled ns p)) ps -> pressed nodes ns b i j x f st' -> pressed nodes2 ns b2 i2 j2 y g st2 ->
  initialise_system ns ps [moving_load nodes st'] cs da = Ok (s1, ns1, k1) -> initialise_system ns ps [moving_load nodes2 st2] cs da' = Ok (s2, ns2, k2) ->
  in_balance s1 k1 x1 -> in_balance s2 k2 x2 -> let u := field_of ns1 x1 in let v := field_of ns2 x2 in
  along_load f b v i j x = along_load g b2 u i2 j2 y /\
  0 <= along_load f b u i j x /\ 0 <= along_load g b2 v i2 j2 y /\
  along_load f b v i j x * along_load f b v i j x <= along_load f b u i j x * along_load g b2 v i2 j2 y.
Proof.
  intros hs ho hp hq h1 h2 e1 e2 u v. pose proof (pressed_plain _ _ _ _ _ _ _ _ hp) as l1. pose proof (pressed_plain _ _ _ _ _ _ _ _ hq) as l2.
  rewrite <- !(pressed_work _ _ _ _ _ _ _ _ _ hp), <- !(pressed_work _ _ _ _ _ _ _ _ _ hq).
  destruct (work_bound ns ps _ _ cs da da' s1 ns1 k1 s2 ns2 k2 x1 x2 hs ho l1 l2 h1 h2 e1 e2) as [a1 a2].
  destruct (work_bound ns ps _ _ cs da' da s2 ns2 k2 s1 ns1 k1 x2 x1 hs ho l2 l1 h2 h1 e2 e1) as [a3 _].
  split; [exact (C132_reciprocal ns ps _ _ cs da da' s1 ns1 k1 s2 ns2 k2 x1 x2 hs ho l1 l2 h1 h2 e1 e2)|]. split; [exact a1|]. split; [exact a3|exact a2].
Qed.
Print Assumptions C152_places.

(** ** a case *)

(** the cantilever with the moving load in its middle and a load at its end *)
Example C152_case P Q : exists st' s1 ns1 k1 x1 s2 ns2 k2 x2, let ps := [one_beam (bar 2) 0 1] in
  pressed [0; 1]%nat cantilever (bar 2) 0 1 1 (T3 0 P 0) st' /\ Forall shaped ps /\ Forall (fun p => sound (settled cantilever p)) ps /\
  initialise_system cantilever ps [moving_load [0; 1]%nat st'] clamp_left undamped = Ok (s1, ns1, k1) /\ initialise_system cantilever ps [full_load 1 (T3 0 Q 0)] clamp_left undamped = Ok (s2, ns2, k2) /\
  in_balance s1 k1 x1 /\ in_balance s2 k2 x2 /\ field_of ns1 x1 1 DY = P * 5 / 6 /\ along_load (T3 0 P 0) (bar 2) (field_of ns2 x2) 0 1 1 = P * (Q * 5 / 6).
Proof.
  destruct (C151_case P) as [d [st' [s1 [ns1 [k1 [x1 [_ [_ [_ [_ [_ [hu [hst [h1 [_ [_ [_ [_ [hb [_ [hy _]]]]]]]]]]]]]]]]]]]]]. cbn [app] in h1.
  destruct cantilever_nodes as [n1 [n2 n3]].
  assert (hp : pressed [0; 1]%nat cantilever (bar 2) 0 1 1 (T3 0 P 0) st').
  { split; [constructor; [intros [q|[]]; discriminate|constructor; [intros []|constructor]]|]. split; [exact n3|]. split; [cbn; lra|]. split; [cbn; lra|]. split; [right; reflexivity|].
    exists (standing P), d, [(2, 0)], 0%nat, at_rest. split; [exact hu|]. split; [exact hst|]. repeat split. }
  assert (sh : Forall shaped [one_beam (bar 2) 0 1]) by (constructor; [discriminate|constructor]).
  assert (so : Forall (fun p => sound (settled cantilever p)) [one_beam (bar 2) 0 1]) by (constructor; [apply (bar_sound 2); lra|constructor]).
  assert (r2 : exists s2 ns2 k2, initialise_system cantilever [one_beam (bar 2) 0 1] [full_load 1 (T3 0 Q 0)] clamp_left undamped = Ok (s2, ns2, k2)).
  { apply initialise_ok; [intros p [<-|[]]; eexists; reflexivity|intros p i [<-|[]] hi; cbn in hi; cbn; lia|intros l i [<-|[]] hi; cbn in hi; cbn; lia]. }
  destruct r2 as [s2 [ns2 [k2 h2]]]. pose proof (free_whole _ _ _ _ h2) as f2.
  set (v := fun (p : nat) (d : dir) => match p, d with 1%nat, DY => Q * 8 / 3 | 1%nat, DR => Q * 2 | _, _ => 0 end).
  destruct (initialise_inv _ _ _ _ _ _ _ _ h2) as [t0 [_ [e2 _]]]. destruct (initialise_kept _ _ _ _ _ _ _ _ _ h2 e2) as [_ [hn2 _]].
  assert (fv : forall p d, field_of ns2 (vector_of ns2 v) p d = v p d).
  { apply (vector_field ns2 k2 _ hn2). intros p d0 hd0. destruct p as [|[|p]]; [destruct d0; reflexivity| |destruct d0; reflexivity]. exfalso. apply f2 in hd0; [discriminate|lia]. }
  assert (b2 : in_balance s2 k2 (vector_of ns2 v)).
  { apply (weak_balance cantilever _ sh so _ _ _ s2 ns2 k2 _ h2 (full_plain _ _)). intros y.
    assert (z : forall d, field_of ns2 y 0 d = 0) by (intros d0; unfold field_of; rewrite (proj2 (f2 0%nat d0 ltac:(lia)) eq_refl); reflexivity).
    unfold mutual. cbn [map nsum]. change (settled cantilever (one_beam (bar 2) 0 1)) with (one_beam (bar 2) 0 1). rewrite !(level_form cantilever (bar 2) 0 1 _ n3) by (try (split; reflexivity); apply bar_sound; lra).
    rewrite full_work, !fv, !z. unfold v, beam_energy, shear_area. cbn [tx ty tr bar b_E b_nu b_rho b_A b_I b_shear_factor b_l]. destruct (Rlt_dec 0 0) as [q|_]; [lra|]. rnum. field. }
  exists st', s1, ns1, k1, x1, s2, ns2, k2, (vector_of ns2 v). cbv zeta. split; [exact hp|]. split; [exact sh|]. split; [exact so|]. split; [exact h1|]. split; [exact h2|]. split; [exact hb|]. split; [exact b2|]. split; [exact hy|].
  unfold along_load, bent. rewrite !fv. unfold v, shear_area. cbn [tx ty tr bar b_E b_nu b_rho b_A b_I b_shear_factor b_l]. destruct (Rlt_dec 0 0) as [q|_]; [lra|]. field.
Qed.
