(** * C149: a finer mesh never gives higher frequencies *)

From Coq Require Import Reals List Bool ZArith Arith FunctionalExtensionality Lia Lra.
From Verif Require Import Num PyBase Model_Geometry Model_System Spec_System Proofs_Dof Proofs_System Model_Element Spec_Element
  Proofs_Elements Proofs_Element Proofs_Beam Proofs_Force Model_Accumulation Proofs_Accumulation Model_Coupled Model_Mesh Spec_Mesh Model_Track Spec_Track Spec_Generated Proofs_Track
  Proofs_Assembly Props_Track Spec_Analytic Spec_Motion Proofs_Motion Spec_Chain Proofs_Chain Spec_Renumber Proofs_Renumber Spec_Balance Proofs_Balance Spec_Structure Proofs_Structure Proofs_Line
  Spec_Stiffer Proofs_Stiffer Props_Stiffer Spec_Halves Props_Halves Spec_Finer.
Import ListNotations.
Local Open Scope R_scope.

(** ** the mass of a beam *)

(** the cubic of a bent beam, its rotation, and what the squares come to up to distance [x] *)
Definition swing (k a0 a1 c1 c2 x : R) : R := a0 + a1 * x + c1 * (x * x) / 2 + c2 * (x * x * x) / 3 - k * c2 * x / 6.
Definition turn (a1 c1 c2 x : R) : R := a1 + c1 * x + c2 * (x * x).
Definition line2 (x0 x1 x : R) : R := x0 * x0 * x + x0 * x1 * (x * x) + x1 * x1 * (x * x * x) / 3.
Definition swing2 (k a0 a1 c1 c2 x : R) : R := let w := a1 - k * c2 / 6 in
  a0 * a0 * x + a0 * w * (x * x) + (w * w + a0 * c1) * (x * x * x) / 3 + (2 * a0 * c2 / 3 + w * c1) * (x * x * x * x) / 4 +
  (c1 * c1 / 4 + 2 * w * c2 / 3) * (x * x * x * x * x) / 5 + c1 * c2 / 3 * (x * x * x * x * x * x) / 6 + c2 * c2 / 9 * (x * x * x * x * x * x * x) / 7.
Definition turn2 (a1 c1 c2 x : R) : R :=
  a1 * a1 * x + a1 * c1 * (x * x) + (c1 * c1 + 2 * a1 * c2) * (x * x * x) / 3 + c1 * c2 * (x * x * x * x) / 2 + c2 * c2 * (x * x * x * x * x) / 5.

Definition moved (b : beam R) (x0 x1 a0 a1 c1 c2 x : R) : R :=
  b_rho b * b_A b * (line2 x0 x1 x + swing2 (shear_area b) a0 a1 c1 c2 x) + (if Rlt_dec 0 (b_shear_factor b) then b_rho b * b_I b * turn2 a1 c1 c2 x else 0).

Lemma trans_curve l k x0 x1 a0 a1 c1 c2 : 0 < l -> 0 <= k -> let phi := k / (l * l) in
  quad 6 (trans_entries l phi) (vec6 x0 a0 a1 (x0 + x1 * l) (swing k a0 a1 c1 c2 l) (turn a1 c1 c2 l)) * (l / (210 * ((1 + phi) * (1 + phi)))) = line2 x0 x1 l + swing2 k a0 a1 c1 c2 l.
Proof.
  intros hl hk phi. assert (hn : l * l + k <> 0) by nra. assert (e : 1 + phi = (l * l + k) / (l * l)) by (unfold phi; field; lra).
  unfold quad. cbn [sumn trans_entries vec6]. rnum. rewrite e. unfold phi, line2, swing2, swing, turn. field. split; first [exact hn|lra].
Qed.

Lemma rot_curve l k x0 x1 a0 a1 c1 c2 : 0 < l -> 0 <= k -> let phi := k / (l * l) in
  quad 6 (rot_entries l phi) (vec6 x0 a0 a1 (x0 + x1 * l) (swing k a0 a1 c1 c2 l) (turn a1 c1 c2 l)) * (1 / (30 * ((1 + phi) * (1 + phi)) * l)) = turn2 a1 c1 c2 l.
Proof.
  intros hl hk phi. assert (hn : l * l + k <> 0) by nra. assert (e : 1 + phi = (l * l + k) / (l * l)) by (unfold phi; field; lra).
  unfold quad. cbn [sumn rot_entries vec6]. rnum. rewrite e. unfold phi, turn2, swing, turn. field. split; first [exact hn|lra].
Qed.

Lemma curve_joined b x0 x1 a0 a1 c1 c2 p q : let k := shear_area b in
  moved b x0 x1 a0 a1 c1 c2 p + moved b (x0 + x1 * p) x1 (swing k a0 a1 c1 c2 p) (turn a1 c1 c2 p) (c1 + 2 * c2 * p) c2 q = moved b x0 x1 a0 a1 c1 c2 (p + q).
Proof. intros k. unfold moved. fold k. unfold line2, swing2, turn2, swing, turn. destruct (Rlt_dec 0 (b_shear_factor b)); field. Qed.

Lemma timoshenko_area b : sound_beam b -> timoshenko_factor 0 b = shear_area b / (b_l b * b_l b).
Proof.
  intros [hE [hI [hA [hl [hn _]]]]]. unfold timoshenko_factor, shear_area, shear_modulus, sq. rnum. destruct (nltbP 0 (b_shear_factor b)), (Rlt_dec 0 (b_shear_factor b)); try contradiction; field; repeat split; lra.
Qed.

Lemma level_mass (ns : list (node R)) b i j u : right_of ns i j ->
  part_form aux_mass ns u (one_beam b i j) = quad 6 (mass_entries b (timoshenko_factor 0 b)) (vec6 (u i DX) (u i DY) (u i DR) (u j DX) (u j DY) (u j DR)).
Proof.
  intros [hx hy]. unfold part_form, one_beam. cbn [ep_kind ep_els aux_mass map nsum fst snd element_form]. rnum. rewrite Rplus_0_r.
  assert (ha : calculate_rotation1 (xy ns i, xy ns j) = 0).
  { destruct (xy ns i) as [x1 y1], (xy ns j) as [x2 y2]. cbn [fst snd] in hx, hy. subst y2. apply rotation1_right. lra. }
  rewrite ha. unfold quad. apply sumn_ext. intros a ha1. apply sumn_ext. intros a2 ha2. rewrite beam_mass_entries by assumption.
  assert (e : forall k, local6 0 u i j k = vec6 (u i DX) (u i DY) (u i DR) (u j DX) (u j DY) (u j DR) k).
  { intros k. unfold local6, along, across. rewrite cos_0, sin_0. do 6 (destruct k as [|k]; [cbn [vec6]; ring|]). reflexivity. }
  rewrite !e. reflexivity.
Qed.

Lemma quad_two n A B s t v : quad n (fun i j => A i j * s + B i j * t) v = quad n A v * s + quad n B v * t.
Proof.
  rewrite (quad_ext n _ (fun i j => s * A i j + t * B i j)) by (intros; ring). rewrite (quad_add n (fun i j => s * A i j) (fun i j => t * B i j)), !quad_scal. ring.
Qed.

Lemma mass_curve (ns : list (node R)) b i j u x0 x1 a0 a1 c1 c2 : right_of ns i j -> sound_beam b -> let k := shear_area b in let l := b_l b in
  u i DX = x0 -> u i DY = a0 -> u i DR = a1 -> u j DX = x0 + x1 * l -> u j DY = swing k a0 a1 c1 c2 l -> u j DR = turn a1 c1 c2 l ->
  part_form aux_mass ns u (one_beam b i j) = moved b x0 x1 a0 a1 c1 c2 l.
Proof.
  intros hr hb k l e1 e2 e3 e4 e5 e6. rewrite (level_mass ns b i j u hr), e1, e2, e3, e4, e5, e6, (timoshenko_area b hb).
  assert (hl : 0 < l) by exact (proj1 (proj2 (proj2 (proj2 hb)))). pose proof (shear_area_nonneg b hb) as hk. fold k in hk. fold k l.
  pose proof (trans_curve l k x0 x1 a0 a1 c1 c2 hl hk) as t1. pose proof (rot_curve l k x0 x1 a0 a1 c1 c2 hl hk) as t2. cbv zeta in t1, t2. unfold moved. fold k. rewrite <- t1, <- t2.
  set (phi := k / (l * l)). set (v := vec6 _ _ _ _ _ _).
  destruct (Rlt_dec 0 (b_shear_factor b)) as [hs|hs].
  - assert (hp : phi <> 0).
    { assert (0 < k); [|apply Rgt_not_eq, Rdiv_lt_0_compat; [assumption|apply Rmult_lt_0_compat; exact hl]]. unfold k, shear_area. destruct (Rlt_dec 0 (b_shear_factor b)); [|contradiction].
      destruct hb as [hE [hI [hA [_ [hn _]]]]]. apply Rdiv_lt_0_compat; [apply Rmult_lt_0_compat; [lra|exact hI]|apply Rmult_lt_0_compat; assumption]. }
    unfold mass_entries. fold l. destruct (Req_EM_T phi 0) as [z|_]; [contradiction|]. rewrite quad_two. unfold Rdiv. ring.
  - assert (hp : phi = 0) by (unfold phi, k, shear_area; destruct (Rlt_dec 0 (b_shear_factor b)); [contradiction|unfold Rdiv; ring]).
    unfold mass_entries. fold l. destruct (Req_EM_T phi 0) as [_|z]; [|contradiction].
    transitivity (quad 6 (fun i j => trans_entries l phi i j * (b_rho b * b_A b * l / (210 * ((1 + phi) * (1 + phi)))) + 0 * 0) v); [unfold quad; apply sumn_ext; intros a _; apply sumn_ext; intros c _; f_equal; f_equal; ring|].
    rewrite (quad_two 6 (trans_entries l phi) (fun _ _ => 0)). unfold Rdiv. ring.
Qed.

(** how a level beam of nodes [i] and [j] is bent, as a cubic *)
Definition bend2 (b : beam R) (u : nat -> dir -> R) (i j : nat) : R := 6 * (u i DY - u j DY + b_l b * (u i DR + u j DR) / 2) / (b_l b * b_l b * b_l b + shear_area b * b_l b).
Definition bend1 (b : beam R) (u : nat -> dir -> R) (i j : nat) : R := (u j DR - u i DR) / b_l b - bend2 b u i j * b_l b.
Definition stretch (b : beam R) (u : nat -> dir -> R) (i j : nat) : R := (u j DX - u i DX) / b_l b.

Lemma bent_curve b u i j x :
  bent b u i j x DX = u i DX + stretch b u i j * x /\ bent b u i j x DY = swing (shear_area b) (u i DY) (u i DR) (bend1 b u i j) (bend2 b u i j) x /\
  bent b u i j x DR = turn (u i DR) (bend1 b u i j) (bend2 b u i j) x.
Proof. split; [unfold bent, stretch, Rdiv; ring|split; reflexivity]. Qed.

Lemma bent_end b u i j d : sound_beam b -> bent b u i j (b_l b) d = u j d.
Proof.
  intros hb. pose proof (shear_area_nonneg b hb) as hk. destruct hb as [_ [_ [_ [hl _]]]]. unfold bent. set (k := shear_area b) in *. set (l := b_l b) in *.
  assert (n1 : l * l + k <> 0) by nra. replace (l * l * l + k * l) with (l * (l * l + k)) by ring. destruct d; field; repeat split; first [exact n1|lra].
Qed.

Lemma mass_moved (ns : list (node R)) b i j u : right_of ns i j -> sound_beam b ->
  part_form aux_mass ns u (one_beam b i j) = moved b (u i DX) (stretch b u i j) (u i DY) (u i DR) (bend1 b u i j) (bend2 b u i j) (b_l b).
Proof.
  intros hr hb. destruct (bent_curve b u i j (b_l b)) as [e1 [e2 e3]]. rewrite bent_end in e1, e2, e3 by exact hb. apply mass_curve; try assumption; reflexivity.
Qed.

Lemma moved_slope b u i j x :
  derivable_pt_lim (moved b (u i DX) (stretch b u i j) (u i DY) (u i DR) (bend1 b u i j) (bend2 b u i j)) x (moving_density b u i j x).
Proof.
  destruct (bent_curve b u i j x) as [e1 [e2 e3]]. unfold moving_density. rewrite e1, e2, e3. set (x0 := u i DX). set (x1 := stretch b u i j). set (a0 := u i DY). set (a1 := u i DR). set (c1 := bend1 b u i j). set (c2 := bend2 b u i j).
  unfold moved. set (k := shear_area b). set (r := b_rho b * b_A b). set (s := b_rho b * b_I b).
  assert (p2 : derivable_pt_lim (fun y => y * y) x (2 * x)) by (replace (2 * x) with (1 * x + x * 1) by ring; apply (derivable_pt_lim_mult id id); apply derivable_pt_lim_id).
  assert (p3 : derivable_pt_lim (fun y => y * y * y) x (3 * (x * x))) by (replace (3 * (x * x)) with (2 * x * x + x * x * 1) by ring; apply (derivable_pt_lim_mult (fun y => y * y) id); [exact p2|apply derivable_pt_lim_id]).
  assert (p4 : derivable_pt_lim (fun y => y * y * y * y) x (4 * (x * x * x))) by (replace (4 * (x * x * x)) with (3 * (x * x) * x + x * x * x * 1) by ring; apply (derivable_pt_lim_mult (fun y => y * y * y) id); [exact p3|apply derivable_pt_lim_id]).
  assert (p5 : derivable_pt_lim (fun y => y * y * y * y * y) x (5 * (x * x * x * x))) by (replace (5 * (x * x * x * x)) with (4 * (x * x * x) * x + x * x * x * x * 1) by ring; apply (derivable_pt_lim_mult (fun y => y * y * y * y) id); [exact p4|apply derivable_pt_lim_id]).
  assert (p6 : derivable_pt_lim (fun y => y * y * y * y * y * y) x (6 * (x * x * x * x * x))) by (replace (6 * (x * x * x * x * x)) with (5 * (x * x * x * x) * x + x * x * x * x * x * 1) by ring; apply (derivable_pt_lim_mult (fun y => y * y * y * y * y) id); [exact p5|apply derivable_pt_lim_id]).
  assert (p7 : derivable_pt_lim (fun y => y * y * y * y * y * y * y) x (7 * (x * x * x * x * x * x))) by (replace (7 * (x * x * x * x * x * x)) with (6 * (x * x * x * x * x) * x + x * x * x * x * x * x * 1) by ring; apply (derivable_pt_lim_mult (fun y => y * y * y * y * y * y) id); [exact p6|apply derivable_pt_lim_id]).
  set (w := a1 - k * c2 / 6). set (g := if Rlt_dec 0 (b_shear_factor b) then s else 0).
  assert (key : derivable_pt_lim (fun y => (r * (x0 * x0 + a0 * a0) + g * (a1 * a1)) * y + (r * (x0 * x1 + a0 * w) + g * (a1 * c1)) * (y * y) + (r * (x1 * x1 / 3 + (w * w + a0 * c1) / 3) + g * ((c1 * c1 + 2 * a1 * c2) / 3)) * (y * y * y) +
      (r * ((2 * a0 * c2 / 3 + w * c1) / 4) + g * (c1 * c2 / 2)) * (y * y * y * y) + (r * ((c1 * c1 / 4 + 2 * w * c2 / 3) / 5) + g * (c2 * c2 / 5)) * (y * y * y * y * y) + r * (c1 * c2 / 18) * (y * y * y * y * y * y) + r * (c2 * c2 / 63) * (y * y * y * y * y * y * y)) x
    ((r * (x0 * x0 + a0 * a0) + g * (a1 * a1)) * 1 + (r * (x0 * x1 + a0 * w) + g * (a1 * c1)) * (2 * x) + (r * (x1 * x1 / 3 + (w * w + a0 * c1) / 3) + g * ((c1 * c1 + 2 * a1 * c2) / 3)) * (3 * (x * x)) +
      (r * ((2 * a0 * c2 / 3 + w * c1) / 4) + g * (c1 * c2 / 2)) * (4 * (x * x * x)) + (r * ((c1 * c1 / 4 + 2 * w * c2 / 3) / 5) + g * (c2 * c2 / 5)) * (5 * (x * x * x * x)) + r * (c1 * c2 / 18) * (6 * (x * x * x * x * x)) + r * (c2 * c2 / 63) * (7 * (x * x * x * x * x * x)))).
  { repeat (apply (derivable_pt_lim_plus (fun y => _) (fun y => _)); [|apply (derivable_pt_lim_scal (fun y => _)); assumption]). apply (derivable_pt_lim_scal (fun y => y)). apply derivable_pt_lim_id. }
  match type of key with derivable_pt_lim ?f _ ?d => match goal with |- derivable_pt_lim ?h _ ?e => replace h with f; [replace e with d; [exact key|]|] end end.
  - unfold swing, turn, g, w. destruct (Rlt_dec 0 (b_shear_factor b)); field.
  - extensionality y. unfold line2, swing2, turn2, g, w. destruct (Rlt_dec 0 (b_shear_factor b)); field.
Qed.

(** The mass matrix of a level beam holds the energy of its motion: added up over the length, of the section as it moves between the nodes. *)
Theorem C149_kinetic (ns : list (node R)) b i j u : right_of ns i j -> sound_beam b ->
  exists F, (forall x, derivable_pt_lim F x (moving_density b u i j x)) /\ F 0 = 0 /\ part_form aux_mass ns u (one_beam b i j) = F (b_l b).
Proof.
  intros hr hb. exists (moved b (u i DX) (stretch b u i j) (u i DY) (u i DR) (bend1 b u i j) (bend2 b u i j)). split; [intros x; apply moved_slope|]. split; [|apply mass_moved; assumption].
  unfold moved, line2, swing2, turn2. destruct (Rlt_dec 0 (b_shear_factor b)); field.
Qed.
Print Assumptions C149_kinetic.

(** ** the finer mesh *)

Section Finer.
  Variables (ns : list (node R)) (m : node R) (ps : list (epart R)) (b : beam R) (i j : nat) (p q : R) (ls ls2 : list (load R)) (cs cs2 : list (list nat * tri bool)) (da da2 : damping R).
  Variables (s1 s2 : gsys R) (ns1 ns2 : list (node R)) (k1 k2 : nat).
  Let c := length ns.
  Hypothesis run1 : initialise_system ns (ps ++ [one_beam b i j]) ls cs da = Ok (s1, ns1, k1).
  Hypothesis run2 : initialise_system (ns ++ [m]) (ps ++ [one_beam (piece b p) i c; one_beam (piece b q) c j]) ls2 cs2 da2 = Ok (s2, ns2, k2).
  Hypothesis shapes : Forall shaped ps.
  Hypothesis inside : Forall (within ns) ps.
  Hypothesis ends : (i < c)%nat /\ (j < c)%nat.
  Hypothesis level : right_of (ns ++ [m]) i c /\ right_of (ns ++ [m]) c j.
  Hypothesis lengths : 0 < p /\ 0 < q /\ b_l b = p + q.
  Hypothesis fixed : fixed_ends b.
  Hypothesis sensible : sound_beam b.
  Hypothesis freedom : same_freedom ns1 ns2 c.

  Let w u := with_cut ns b i j p u.
  Let old u k d : (k < c)%nat -> w u k d = u k d.
  Proof. intros h. apply with_cut_old. exact h. Qed.

  Lemma pieces_mass u : part_form aux_mass (ns ++ [m]) (w u) (one_beam (piece b p) i c) + part_form aux_mass (ns ++ [m]) (w u) (one_beam (piece b q) c j) = part_form aux_mass ns u (one_beam b i j).
  Proof using ends level lengths sensible.
    destruct level as [l1 l2], lengths as [hp [hq hl]], ends as [e1 e2]. pose proof (whole_level ns m i j ends level) as l0.
    set (X := stretch b u i j). set (c1 := bend1 b u i j). set (c2 := bend2 b u i j).
    destruct (bent_curve b u i j p) as [b1 [b2 b3]]. fold X c1 c2 in b1, b2, b3.
    destruct (bent_curve b u i j (b_l b)) as [d1 [d2 d3]]. fold X c1 c2 in d1, d2, d3. rewrite bent_end in d1, d2, d3 by exact sensible. rewrite hl in d1, d2, d3.
    assert (n : forall d, w u c d = bent b u i j p d) by (intros d; unfold w, with_cut; unfold c; rewrite Nat.eqb_refl; reflexivity).
    rewrite (mass_moved ns b i j u l0 sensible). fold X c1 c2. rewrite hl, <- curve_joined.
    rewrite (mass_curve (ns ++ [m]) (piece b p) i c (w u) (u i DX) X (u i DY) (u i DR) c1 c2 l1 (piece_sound b sensible p hp)).
    - rewrite (mass_curve (ns ++ [m]) (piece b q) c j (w u) (u i DX + X * p) X (swing (shear_area b) (u i DY) (u i DR) c1 c2 p) (turn (u i DR) c1 c2 p) (c1 + 2 * c2 * p) c2 l2 (piece_sound b sensible q hq)).
      + reflexivity.
      + rewrite n. exact b1.
      + rewrite n. exact b2.
      + rewrite n. exact b3.
      + rewrite old by exact e2. rewrite d1. cbn [piece b_l]. ring.
      + rewrite old by exact e2. rewrite d2. change (shear_area (piece b q)) with (shear_area b). cbn [piece b_l]. unfold swing, turn. field.
      + rewrite old by exact e2. rewrite d3. cbn [piece b_l]. unfold turn. ring.
    - apply old. exact e1.
    - apply old. exact e1.
    - apply old. exact e1.
    - rewrite n. exact b1.
    - rewrite n. exact b2.
    - rewrite n. exact b3.
  Qed.

  Let total aux (l : list (node R)) (k : list (epart R)) u := nsum (map (fun p => part_form aux l u (settled l p)) k).

  Lemma others aux u : nsum (map (fun a => part_form aux (ns ++ [m]) (w u) (settled (ns ++ [m]) a)) ps) = nsum (map (fun a => part_form aux ns u (settled ns a)) ps).
  Proof using inside. apply nsum_map_ext. intros a ha. apply form_more; [exact (proj1 (Forall_forall _ _) inside a ha)|]. intros k d h. apply old. exact h. Qed.

  Lemma total_mass u : total aux_mass (ns ++ [m]) (ps ++ [one_beam (piece b p) i c; one_beam (piece b q) c j]) (w u) = total aux_mass ns (ps ++ [one_beam b i j]) u.
  Proof using inside ends level lengths sensible.
    unfold total. rewrite !map_app, !nsum_app, others. f_equal. cbn [map nsum]. rnum. rewrite !Rplus_0_r. apply pieces_mass.
  Qed.

  Lemma total_stiff u : total aux_stiffness (ns ++ [m]) (ps ++ [one_beam (piece b p) i c; one_beam (piece b q) c j]) (w u) = total aux_stiffness ns (ps ++ [one_beam b i j]) u.
  Proof using inside ends level lengths fixed sensible.
    pose proof (total_cut ns m ps b i j p q inside ends level lengths fixed sensible (w u) u (old u)) as g. etransitivity; [exact g|].
    assert (n : forall d, w u (length ns) d = bent b (w u) i j p d) by (intros d; apply (with_cut_new ns b i j p ends)). rewrite !n.
    replace (bent b (w u) i j p DX - bent b (w u) i j p DX) with 0 by ring. replace (bent b (w u) i j p DY - bent b (w u) i j p DY) with 0 by ring. replace (bent b (w u) i j p DR - bent b (w u) i j p DR) with 0 by ring. rewrite extra_0. unfold total. ring.
  Qed.

  Lemma no_damping (l : list (node R)) (a : beam R) e f u : part_form aux_damping l u (one_beam a e f) = 0.
  Proof using Type.
    unfold part_form, one_beam. cbn [ep_kind ep_els aux_damping map nsum fst snd element_form]. unfold beam_damping. rnum. rewrite Rplus_0_r. apply quad_zero.
  Qed.

  Lemma total_damp u : total aux_damping (ns ++ [m]) (ps ++ [one_beam (piece b p) i c; one_beam (piece b q) c j]) (w u) = total aux_damping ns (ps ++ [one_beam b i j]) u.
  Proof using inside. unfold total. rewrite !map_app, !nsum_app, others. f_equal. cbn [map nsum]. change (settled (ns ++ [m]) (one_beam (piece b p) i c)) with (one_beam (piece b p) i c). change (settled (ns ++ [m]) (one_beam (piece b q) c j)) with (one_beam (piece b q) c j). change (settled ns (one_beam b i j)) with (one_beam b i j). rewrite !no_damping. rnum. ring. Qed.

  Definition finer (x : nat -> R) : nat -> R := vector_of ns2 (w (field_of ns1 x)).

  Lemma finer_field x k d : field_of ns2 (finer x) k d = w (field_of ns1 x) k d.
  Proof using run1 run2 freedom.
    destruct (initialise_inv _ _ _ _ _ _ _ _ run2) as [s0 [_ [e0 _]]]. destruct (initialise_kept _ _ _ _ _ _ _ _ _ run2 e0) as [_ [hn _]].
    apply (vector_field ns2 k2 _ hn). intros k' d'. exact (with_cut_free ns ps b i j p ls cs da s1 ns1 ns2 k1 run1 freedom x k' d').
  Qed.

  Lemma finer_reading : reading finer.
  Proof using Type.
    intros a x y k. unfold finer, vector_of. destruct (find (holds ns2 k) (positions (length ns2))) as [[k' d]|]; [|ring]. cbn [fst snd].
    assert (f : forall k d, field_of ns1 (fun i => a * x i + y i) k d = a * field_of ns1 x k d + field_of ns1 y k d) by (intros; unfold field_of; destruct (number_of ns1 _ _); ring).
    unfold w, with_cut. destruct (Nat.eqb k' (length ns)); [|apply f]. unfold bent. rewrite !f. destruct d; unfold Rdiv; ring.
  Qed.

  Lemma finer_quads x : quad k2 (me (gK s2)) (finer x) = quad k1 (me (gK s1)) x /\ quad k2 (me (gM s2)) (finer x) = quad k1 (me (gM s1)) x /\ (da2 = da -> quad k2 (me (gC s2)) (finer x) = quad k1 (me (gC s1)) x).
  Proof using All.
    destruct (initialise_energy _ _ _ _ _ _ _ _ x (sh1 ps b i j shapes) run1) as [a1 [a2 a3]]. destruct (initialise_energy _ _ _ _ _ _ _ _ (finer x) (sh2 ns ps b i j p q shapes) run2) as [b1 [b2 b3]].
    assert (e : field_of ns2 (finer x) = w (field_of ns1 x)) by (extensionality k; extensionality d; apply finer_field). rewrite e in b1, b2, b3.
    pose proof (total_stiff (field_of ns1 x)) as t1. pose proof (total_mass (field_of ns1 x)) as t2. pose proof (total_damp (field_of ns1 x)) as t3. unfold total in t1, t2, t3.
    split; [rewrite a1, b1; exact t1|]. split; [rewrite a2, b2; exact t2|]. intros hd. rewrite a3, b3, hd. fold c in t1, t2, t3. f_equal; [exact t3|]. destruct (da_on da); [|reflexivity]. destruct (rayleigh_factors _ _ _) as [f0 f1]. f_equal; f_equal; [exact t2|exact t1].
  Qed.
End Finer.

(** A level beam of a model is cut in two by a new node.  Every displacement of the old model is one of the new model, the same at the old nodes and with the same
    stiffness, mass and damping. *)
Theorem C149_carried ns m ps b i j p q ls ls2 cs cs2 da da2 s1 ns1 k1 s2 ns2 k2 : let c := length ns in
  initialise_system ns (ps ++ [one_beam b i j]) ls cs da = Ok (s1, ns1, k1) ->
  initialise_system (ns ++ [m]) (ps ++ [one_beam (piece b p) i c; one_beam (piece b q) c j]) ls2 cs2 da2 = Ok (s2, ns2, k2) ->
  Forall shaped ps -> Forall (within ns) ps -> (i < c)%nat /\ (j < c)%nat -> right_of (ns ++ [m]) i c /\ right_of (ns ++ [m]) c j -> 0 < p /\ 0 < q /\ b_l b = p + q -> fixed_ends b -> sound_beam b -> same_freedom ns1 ns2 c ->
  exists e, reading e /\ forall x, (forall k d, (k < c)%nat -> field_of ns2 (e x) k d = field_of ns1 x k d) /\ (forall d, field_of ns2 (e x) c d = bent b (field_of ns1 x) i j p d) /\
    quad k2 (me (gK s2)) (e x) = quad k1 (me (gK s1)) x /\ quad k2 (me (gM s2)) (e x) = quad k1 (me (gM s1)) x /\ (da2 = da -> quad k2 (me (gC s2)) (e x) = quad k1 (me (gC s1)) x).
Proof.
  intros c h1 h2 a1 a2 a3 a4 a5 a6 a7 a8. exists (finer ns b i j p ns1 ns2). split; [apply finer_reading|]. intros x.
  assert (f : forall k d, field_of ns2 (finer ns b i j p ns1 ns2 x) k d = with_cut ns b i j p (field_of ns1 x) k d) by (intros k d; exact (finer_field ns m ps b i j p q ls ls2 cs cs2 da da2 s1 s2 ns1 ns2 k1 k2 h1 h2 a8 x k d)).
  split; [intros k d h; rewrite f; apply with_cut_old; exact h|]. split; [intros d; rewrite f; unfold with_cut; fold c; rewrite Nat.eqb_refl; reflexivity|].
  exact (finer_quads ns m ps b i j p q ls ls2 cs cs2 da da2 s1 s2 ns1 ns2 k1 k2 h1 h2 a1 a2 a3 a4 a5 a6 a7 a8 x).
Qed.
Print Assumptions C149_carried.

(** What bounds all frequencies of the new model from below bounds those of the old one: a finer mesh never gives a higher lowest frequency. *)
Theorem C149_no_higher ns m ps b i j p q ls ls2 cs cs2 da da2 s1 ns1 k1 s2 ns2 k2 : let c := length ns in
  initialise_system ns (ps ++ [one_beam b i j]) ls cs da = Ok (s1, ns1, k1) ->
  initialise_system (ns ++ [m]) (ps ++ [one_beam (piece b p) i c; one_beam (piece b q) c j]) ls2 cs2 da2 = Ok (s2, ns2, k2) ->
  Forall shaped ps -> Forall (within ns) ps -> (i < c)%nat /\ (j < c)%nat -> right_of (ns ++ [m]) i c /\ right_of (ns ++ [m]) c j -> 0 < p /\ 0 < q /\ b_l b = p + q -> fixed_ends b -> sound_beam b -> same_freedom ns1 ns2 c ->
  forall w, (forall y, w * quad k2 (me (gM s2)) y <= quad k2 (me (gK s2)) y) -> forall x, w * quad k1 (me (gM s1)) x <= quad k1 (me (gK s1)) x.
Proof.
  intros c h1 h2 a1 a2 a3 a4 a5 a6 a7 a8 w hw x. destruct (C149_carried ns m ps b i j p q ls ls2 cs cs2 da da2 s1 ns1 k1 s2 ns2 k2 h1 h2 a1 a2 a3 a4 a5 a6 a7 a8) as [e [_ he]].
  destruct (he x) as [_ [_ [ek [em _]]]]. rewrite <- ek, <- em. apply hw.
Qed.
Print Assumptions C149_no_higher.

(** ** a case *)

(** the cantilever of C148, moved up by 1 at its free end without rotation: whole and cut in its middle *)
Example C149_case : exists s1 ns1 k1 s2 ns2 k2 x y, let m := middle in let b := bar 2 in
  initialise_system cantilever ([] ++ [one_beam b 0 1]) (one_load 1 0) clamp_left undamped = Ok (s1, ns1, k1) /\
  initialise_system (cantilever ++ [m]) ([] ++ [one_beam (piece b 1) 0 2; one_beam (piece b 1) 2 1]) (one_load 1 0) clamp_left undamped = Ok (s2, ns2, k2) /\
  right_of (cantilever ++ [m]) 0 2 /\ right_of (cantilever ++ [m]) 2 1 /\ b_l b = 1 + 1 /\ fixed_ends b /\ sound_beam b /\ same_freedom ns1 ns2 2 /\
  field_of ns1 x 1 DY = 1 /\ field_of ns2 y 1 DY = 1 /\ field_of ns2 y 2 DY = 1 / 2 /\ field_of ns2 y 2 DR = 3 / 4 /\
  quad k1 (me (gK s1)) x = 3 / 2 /\ quad k2 (me (gK s2)) y = 3 / 2 /\ quad k1 (me (gM s1)) x = 312 /\ quad k2 (me (gM s2)) y = 312.
Proof.
  destruct (C148_case 0) as [s1 [ns1 [k1 [x0 [s2 [ns2 [k2 h]]]]]]]. cbv zeta in h. destruct h as [h1 [h2 [n1 [n2 [hl [hf [hb [_ [sf _]]]]]]]]].
  pose proof (free_whole _ _ _ _ h1) as f1.
  set (v := fun (p : nat) (d : dir) => match p, d with 1%nat, DY => 1 | _, _ => 0 end).
  destruct (initialise_inv _ _ _ _ _ _ _ _ h1) as [s0 [_ [e0 _]]]. destruct (initialise_kept _ _ _ _ _ _ _ _ _ h1 e0) as [_ [hn _]].
  assert (fv : forall p d, field_of ns1 (vector_of ns1 v) p d = v p d).
  { apply (vector_field ns1 k1 _ hn). intros p d hd. destruct p as [|[|p]]; [destruct d; reflexivity| |destruct d; reflexivity]. exfalso. apply f1 in hd; [discriminate|lia]. }
  destruct (C149_carried cantilever middle [] (bar 2) 0 1 1 1 _ _ _ _ _ _ s1 ns1 k1 s2 ns2 k2 h1 h2) as [e [_ he]]; [constructor|constructor|cbn; lia|split; [exact n1|exact n2]|split; [lra|split; [lra|exact hl]]|exact hf|exact hb|exact sf|].
  destruct (he (vector_of ns1 v)) as [g1 [g2 [g3 [g4 _]]]].
  assert (hs : Forall shaped [one_beam (bar 2) 0 1]) by (constructor; [discriminate|constructor]).
  destruct (initialise_energy _ _ _ _ _ _ _ _ (vector_of ns1 v) hs h1) as [a1 [a2 _]]. destruct cantilever_nodes as [_ [_ n3]].
  assert (q1 : quad k1 (me (gK s1)) (vector_of ns1 v) = 3 / 2).
  { rewrite a1. cbn [app map nsum]. change (settled cantilever (one_beam (bar 2) 0 1)) with (one_beam (bar 2) 0 1). rewrite (level_form cantilever (bar 2) 0 1 _ n3 hf hb), !fv. unfold v, beam_energy, shear_area. cbn [bar b_E b_nu b_rho b_A b_I b_shear_factor b_l]. destruct (Rlt_dec 0 0) as [z|_]; [lra|]. rnum. field. }
  assert (q2 : quad k1 (me (gM s1)) (vector_of ns1 v) = 312).
  { rewrite a2. cbn [app map nsum]. change (settled cantilever (one_beam (bar 2) 0 1)) with (one_beam (bar 2) 0 1). rewrite (bar_mass cantilever 2 0 1 _ n3), !fv. unfold v, quad, mass_entries. cbn [bar b_E b_nu b_rho b_A b_I b_shear_factor b_l]. destruct (Req_EM_T 0 0) as [_|z]; [|contradiction]. cbn [sumn vec6 trans_entries]. rnum. field. }
  exists s1, ns1, k1, s2, ns2, k2, (vector_of ns1 v), (e (vector_of ns1 v)). cbv zeta. split; [exact h1|]. split; [exact h2|]. split; [exact n1|]. split; [exact n2|]. split; [exact hl|]. split; [exact hf|]. split; [exact hb|]. split; [exact sf|].
  split; [apply fv|]. split; [rewrite g1 by (cbn; lia); apply fv|].
  split; [|split; [|rewrite g3, g4; auto]].
  - etransitivity; [exact (g2 DY)|]. unfold bent. rewrite !fv. unfold v, shear_area. cbn [bar b_E b_nu b_rho b_A b_I b_shear_factor b_l]. destruct (Rlt_dec 0 0) as [z|_]; [lra|]. field.
  - etransitivity; [exact (g2 DR)|]. unfold bent. rewrite !fv. unfold v, shear_area. cbn [bar b_E b_nu b_rho b_A b_I b_shear_factor b_l]. destruct (Rlt_dec 0 0) as [z|_]; [lra|]. field.
Qed.
