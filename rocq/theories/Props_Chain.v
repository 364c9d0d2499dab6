(** * C97: a straight chain of beam elements reproduces the exact deflections *)

From Coq Require Import Reals List Bool ZArith Arith Lia Lra Psatz.
From Verif Require Import Num PyBase Model_Geometry Model_System Spec_System Proofs_Dof Proofs_System Model_Element Spec_Element
  Proofs_Elements Proofs_Element Proofs_Beam Proofs_Force Model_Accumulation Proofs_Accumulation
  Model_Track Spec_Track Spec_Chain Proofs_Track Proofs_Assembly Proofs_Generated Proofs_Chain Model_Analytic Spec_Analytic Proofs_Analytic.
Import ListNotations.
Local Open Scope R_scope.

(** ** several forces *)

Lemma form_sum h b (fs : list (nat * R)) (U : nat * R -> nat -> dir -> R) v i :
  chain_form h b (fun p d => nsum (map (fun q => U q p d) fs)) v i = nsum (map (fun q => chain_form h b (U q) v i) fs).
Proof.
  induction fs as [|q fs IH]; cbn [map nsum].
  - unfold chain_form, shear_gap. rnum. unfold Rdiv. ring.
  - rewrite <- IH. unfold chain_form, shear_gap. rnum. unfold Rdiv. ring.
Qed.
Lemma sumn_nsum_swap (fs : list (nat * R)) (g : nat * R -> nat -> R) n : sumn n (fun i => nsum (map (fun q => g q i) fs)) = nsum (map (fun q => sumn n (g q)) fs).
Proof.
  induction fs as [|q fs IH]; cbn [map nsum]; [apply sumn_0; intros; reflexivity|]. rewrite <- IH, <- sumn_add. apply sumn_ext. intros. reflexivity.
Qed.
Lemma work_of_loads N (fs : list (nat * R)) (v : nat -> dir -> R) : (forall q, In q fs -> (fst q <= N)%nat) ->
  dsum (S N) (fun p d => nsum (map (fun q => match d with DY => if Nat.eqb (fst q) p then snd q else 0 | _ => 0 end) fs) * v p d)
  = nsum (map (fun q => snd q * v (fst q) DY) fs).
Proof.
  intros hb. unfold dsum.
  rewrite (sumn_ext (S N) _ (fun p => nsum (map (fun q => if Nat.eqb (fst q) p then snd q * v p DY else 0) fs))).
  - rewrite sumn_nsum_swap. apply nsum_map_ext. intros q hq. apply (sumn_pick _ (fun p => snd q * v p DY)). specialize (hb q hq). lia.
  - intros p hp. clear hb hp. induction fs as [|q fs IH]; cbn [map nsum]; [rnum; ring|]. rewrite <- IH. destruct (Nat.eqb (fst q) p); rnum; ring.
Qed.

Section Solved.
  Variables (N : nat) (h : R) (ns : list (node R)) (b : beam R) (fs : list (nat * R)) (cs : list (list nat * tri bool)) (da : damping R).
  Hypothesis hN : (1 <= N)%nat.
  Hypothesis hh : 0 < h.
  Hypothesis hns : straight_mesh N h ns.
  Hypothesis hb : good_beam h b.
  Hypothesis hfs : forall q, In q fs -> (fst q <= N)%nat.

  Lemma chain_initialises : exists s ns' k, initialise_system ns [chain_part N b] (vertical_loads fs) cs da = Ok (s, ns', k).
  Proof.
    apply initialise_ok.
    - intros p [<-|[]]. eexists. reflexivity.
    - intros p i [<-|[]] hi. rewrite (proj1 hns). unfold part_refs, chain_part in hi. cbn [ep_els ep_nodes] in hi.
      assert (g : In i (flat_map (fun e => [fst e; snd e]) (map (fun i => (i, (i + 1)%nat)) (seq 0 N)))) by (destruct N; [lia|exact hi]).
      apply in_flat_map in g. destruct g as [e [he hi']]. apply in_map_iff in he. destruct he as [j [<- hj]]. apply in_seq in hj. cbn in hi'. lia.
    - intros l i hl hi. unfold vertical_loads in hl. apply in_map_iff in hl. destruct hl as [q [<- hq]]. cbn in hi. destruct hi as [<-|[]].
      rewrite (proj1 hns). specialize (hfs q hq). lia.
  Qed.

  (** when the fields [U] of the single forces are in balance, the chain has their sum as only solution *)
  Lemma chain_solution (U : nat * R -> nat -> dir -> R) s ns' k :
    initialise_system ns [chain_part N b] (vertical_loads fs) cs da = Ok (s, ns', k) ->
    number_of ns' 0 DX = None -> number_of ns' 0 DY = None -> number_of ns' 0 DR = None \/ number_of ns' N DY = None ->
    (forall q p d, In q fs -> (p <= N)%nat -> number_of ns' p d = None -> U q p d = 0) ->
    (forall q v, In q fs -> (forall p d, (p <= N)%nat -> number_of ns' p d = None -> v p d = 0) -> sumn N (chain_form h b (U q) v) = snd q * v (fst q) DY) ->
    (exists x, in_balance s k x) /\
    forall x, in_balance s k x -> forall p d, (p <= N)%nat -> field_of ns' x p d = nsum (map (fun q => U q p d) fs).
  Proof.
    intros hi hx hy hr hu hw.
    destruct (chain_solves N h ns b hN hh hns hb (vertical_loads fs) cs da s ns' k hi (fun p d => nsum (map (fun q => U q p d) fs))
      (fun p d => nsum (map (fun q => match d with DY => if Nat.eqb (fst q) p then snd q else 0 | _ => 0 end) fs))) as [x [hx1 hx2]].
    - intros p d hp hnone. apply nsum_zero. intros q hq. apply hu; assumption.
    - intros p d i hp. apply (vertical_force ns fs [chain_part N b] cs da s ns' k hi); [|exact hp]. intros q hq. rewrite (proj1 hns). specialize (hfs q hq). lia.
    - intros v hv. rewrite work_of_loads by exact hfs.
      rewrite (sumn_ext N _ (fun i => nsum (map (fun q => chain_form h b (U q) v i) fs))) by (intros; apply form_sum).
      rewrite (sumn_nsum_swap fs (fun q => chain_form h b (U q) v)). apply nsum_map_ext. intros q hq. apply hw; assumption.
    - split; [exists x; exact hx1|]. intros y hy1 p d hp. rewrite <- hx2 by exact hp.
      apply (chain_unique N h ns b hN hh hns hb (vertical_loads fs) cs da s ns' k hi); try assumption.
      intros i hi'. rewrite (hy1 i hi'), (hx1 i hi'). reflexivity.
  Qed.
End Solved.

Lemma removed_iff (o : option nat) (f : bool) : (o <> None <-> f = true) -> (o = None <-> f = false).
Proof.
  intros [h1 h2]. split; intros e.
  - destruct f; [exfalso; apply (h2 eq_refl); exact e|reflexivity].
  - destruct o; [|reflexivity]. rewrite h1 in e by discriminate. discriminate.
Qed.

Lemma shear_flexibility h b : 0 < h -> good_beam h b -> 0 < b_shear_factor b ->
  0 < shear_stiffness b /\ timoshenko_factor 0 b * (h * h) / 12 = b_E b * b_I b / shear_stiffness b.
Proof.
  intros hh hb hk. rewrite (factor_is_ratio h b hh hb). destruct hb as [h1 [h2 [h3 [h4 [h5 [h6 h7]]]]]].
  assert (hs : 0 < shear_stiffness b).
  { unfold shear_stiffness. apply Rmult_lt_0_compat; [|exact hk]. apply Rmult_lt_0_compat; [|exact h5]. apply Rdiv_lt_0_compat; [exact h3|lra]. }
  split; [exact hs|]. unfold shear_ratio. destruct (Rlt_dec 0 (b_shear_factor b)); [|contradiction]. field. lra.
Qed.
Lemma no_shear h b : 0 < h -> good_beam h b -> ~ 0 < b_shear_factor b -> timoshenko_factor 0 b = 0.
Proof. intros hh hb hk. rewrite (factor_is_ratio h b hh hb). unfold shear_ratio. destruct (Rlt_dec 0 (b_shear_factor b)); [contradiction|reflexivity]. Qed.

Lemma INR_at_le h p j : 0 < h -> (p <= j)%nat -> INR p * h <= INR j * h.
Proof. intros hh hp. apply Rmult_le_compat_r; [lra|]. apply le_INR. exact hp. Qed.

Lemma sup_value N h b j f p : (1 <= N)%nat -> 0 < h -> good_beam h b -> (j <= N)%nat -> (p <= N)%nat ->
  sup_field N h b j f p DY = static_deflection (b_E b * b_I b) (INR N * h) f (INR j * h) (INR p * h) + supported_shear b (INR N * h) f (INR j * h) (INR p * h).
Proof.
  intros hN hh hb hj hp. pose proof (EIpos h b hb) as hEI. assert (hlen : 0 < INR N * h) by (apply Rmult_lt_0_compat; [apply lt_0_INR; lia|exact hh]).
  pose proof (INR_at_le h p N hh hp) as hpN. pose proof (INR_at_le h j N hh hj) as hjN.
  assert (hp0 : 0 <= INR p * h) by (apply Rmult_le_pos; [apply pos_INR|lra]). assert (hj0 : 0 <= INR j * h) by (apply Rmult_le_pos; [apply pos_INR|lra]).
  destruct (static_value (b_E b * b_I b) (INR N * h) f (INR j * h) (INR p * h) hEI hlen) as [e1 e2].
  unfold supported_shear. destruct (Nat.le_ge_cases p j) as [c|c].
  - pose proof (INR_at_le h p j hh c) as hpj. unfold sup_field. destruct (Nat.leb_spec p j); [|lia]. rewrite e1 by lra. unfold sup_left, static_left.
    destruct (Rlt_dec 0 (b_shear_factor b)) as [k|k].
    + destruct (shear_flexibility h b hh hb k) as [hs ->]. rewrite Rmin_left, Rmax_right by exact hpj. set (EI := b_E b * b_I b) in *; set (len := INR N * h) in *; clearbody EI len. field. repeat split; lra.
    + rewrite (no_shear h b hh hb k). set (EI := b_E b * b_I b) in *; set (len := INR N * h) in *; clearbody EI len. field. lra.
  - pose proof (INR_at_le h j p hh c) as hpj. rewrite sup_field_right by assumption. rewrite e2 by lra. unfold sup_right, static_right.
    destruct (Rlt_dec 0 (b_shear_factor b)) as [k|k].
    + destruct (shear_flexibility h b hh hb k) as [hs ->]. rewrite Rmin_right, Rmax_left by exact hpj. set (EI := b_E b * b_I b) in *; set (len := INR N * h) in *; clearbody EI len. field. repeat split; lra.
    + rewrite (no_shear h b hh hb k). set (EI := b_E b * b_I b) in *; set (len := INR N * h) in *; clearbody EI len. field. lra.
Qed.

(** A beam of N equal elements, the first node held in both directions, the last one vertically, any vertical forces at nodes,
    any damping.  The system has a solution, and every solution has at every node the deflection that the reference solution
    gives, plus that from shear when the beam has a shear factor *)
Theorem C97_supported N h ns b fs da : (1 <= N)%nat -> 0 < h -> straight_mesh N h ns -> good_beam h b -> above_tolerance h b ->
  (forall q, In q fs -> (fst q <= N)%nat) ->
  let len := INR N * h in let EI := b_E b * b_I b in
  exists s ns' k, initialise_system ns [chain_part N b] (vertical_loads fs) (two_supports N) da = Ok (s, ns', k) /\
    (exists x, in_balance s k x) /\
    forall x, in_balance s k x -> forall p, (p <= N)%nat ->
      field_of ns' x p DX = 0 /\
      field_of ns' x p DY = nsum (map (fun q => static_deflection EI len (snd q) (INR (fst q) * h) (INR p * h) +
                                                supported_shear b len (snd q) (INR (fst q) * h) (INR p * h)) fs).
Proof.
  intros hN hh hns hb ha hfs len EI. destruct (chain_initialises N h ns b fs (two_supports N) da hN hns hfs) as [s [ns' [k hi]]].
  exists s, ns', k. split; [exact hi|].
  pose proof (fun p d hp => removed_iff _ _ (chain_kept N h ns b hN hh hns hb _ _ _ _ _ _ p d ha hi hp)) as hr.
  assert (hf : forall p d, flag_after (two_supports N) p d true = if Nat.eqb p N then tget (T3 true false true) d else if Nat.eqb p 0 then tget (T3 false false true) d else true).
  { intros p d. unfold flag_after, two_supports. cbn [fold_left fst snd memb existsb]. rewrite !orb_false_r, !(Nat.eqb_sym p). 
    destruct (Nat.eqb_spec N p), (Nat.eqb_spec 0 p); reflexivity. }
  destruct (chain_solution N h ns b fs (two_supports N) da hN hh hns hb hfs (fun q => sup_field N h b (fst q) (snd q)) s ns' k hi) as [h1 h2].
  - apply hr; [lia|]. rewrite hf. destruct (Nat.eqb_spec 0 N); [lia|reflexivity].
  - apply hr; [lia|]. rewrite hf. destruct (Nat.eqb_spec 0 N); [lia|reflexivity].
  - right. apply hr; [lia|]. rewrite hf, Nat.eqb_refl. reflexivity.
  - intros q p d hq hp hnone. apply hr in hnone; [|exact hp]. rewrite hf in hnone.
    assert (hd : d = DX \/ d = DY /\ (p = 0 \/ p = N)%nat).
    { destruct (Nat.eqb_spec p N); [destruct d; cbn in hnone; try discriminate; auto|]. destruct (Nat.eqb_spec p 0); [destruct d; cbn in hnone; try discriminate; auto|discriminate]. }
    destruct hd as [->|[-> [-> | ->]]].
    + unfold sup_field, sup_left, sup_right. destruct (Nat.leb p (fst q)); reflexivity.
    + unfold sup_field, sup_left. cbn [Nat.leb INR]. unfold Rdiv. ring.
    + rewrite sup_field_right by (assumption || auto). unfold sup_right. unfold Rdiv. ring.
  - intros q v hq hv. apply sup_balance; try assumption; [apply hfs; exact hq| |]; apply hv; try lia; apply hr; try lia; rewrite hf.
    + destruct (Nat.eqb_spec 0 N); [lia|reflexivity].
    + rewrite Nat.eqb_refl. reflexivity.
  - split; [exact h1|]. intros x hx p hp. split.
    + rewrite (h2 x hx p DX hp). apply nsum_zero. intros q hq. unfold sup_field, sup_left, sup_right. destruct (Nat.leb p (fst q)); reflexivity.
    + rewrite (h2 x hx p DY hp). apply nsum_map_ext. intros q hq. apply sup_value; try assumption. apply hfs; exact hq.
Qed.
Print Assumptions C97_supported.

(** a mesh and a beam *)
Definition ex_mesh (N : nat) (h : R) : list (node R) := map (fun i => new_node i (INR i * h) 0 0) (seq 0 (S N)).
Lemma ex_mesh_straight N h : straight_mesh N h (ex_mesh N h).
Proof.
  split; [unfold ex_mesh; rewrite map_length, seq_length; reflexivity|]. exists 0, 0. intros i n e. unfold ex_mesh in e. 
  assert (hi : (i < S N)%nat) by (assert (g : nth_error (map (fun i => new_node i (INR i * h) 0 0) (seq 0 (S N))) i <> None) by congruence; apply nth_error_Some in g; rewrite map_length, seq_length in g; exact g).
  rewrite nth_error_map, (nth_error_nth' _ 0%nat) in e by (rewrite seq_length; exact hi). rewrite seq_nth in e by exact hi. injection e as <-. cbn [n_coord new_node tx ty n_flag]. rewrite !Rplus_0_l. repeat split.
Qed.
Definition ex_beam (h rho : R) : beam R := mkBeam 200 (1/4) rho 3 2 0 h None None.
Example C97_supported_example : (1 <= 4)%nat /\ 0 < 1/2 /\ straight_mesh 4 (1/2) (ex_mesh 4 (1/2)) /\ good_beam (1/2) (ex_beam (1/2) 7) /\
  above_tolerance (1/2) (ex_beam (1/2) 7) /\ forall q, In q [(1%nat, -3); (2%nat, 5)] -> (fst q <= 4)%nat.
Proof.
  split; [lia|]. split; [lra|]. split; [apply ex_mesh_straight|]. split.
  - unfold good_beam, ex_beam, fixed_ends. cbn. repeat split; lra.
  - split.
    + unfold above_tolerance, shear_ratio, ex_beam. cbn. destruct (Rlt_dec 0 0); [lra|]. repeat split; lra.
    + intros q [<-|[<-|[]]]; cbn; lia.
Qed.

Lemma cl_value N h b j f p w : (1 <= N)%nat -> 0 < h -> good_beam h b -> (j <= N)%nat -> (p <= N)%nat ->
  clamped_static (b_E b * b_I b) (INR N * h) (INR j * h) f w ->
  cl_field h b j f p DY = w (INR p * h) + clamped_shear b f (INR j * h) (INR p * h).
Proof.
  intros hN hh hb hj hp hw. pose proof (EIpos h b hb) as hEI.
  pose proof (INR_at_le h p N hh hp) as hpN. pose proof (INR_at_le h j N hh hj) as hjN.
  assert (hp0 : 0 <= INR p * h) by (apply Rmult_le_pos; [apply pos_INR|lra]). assert (hj0 : 0 <= INR j * h) by (apply Rmult_le_pos; [apply pos_INR|lra]).
  rewrite (clamped_unique _ _ _ _ w hEI (conj hj0 hjN) hw (INR p * h)) by lra.
  unfold clamped_shear. destruct (Nat.le_ge_cases p j) as [c|c].
  - pose proof (INR_at_le h p j hh c) as hpj. destruct (Rle_dec (INR p * h) (INR j * h)); [|contradiction].
    unfold cl_field. destruct (Nat.leb_spec p j); [|lia]. unfold cl_left, clamped_left.
    destruct (Rlt_dec 0 (b_shear_factor b)) as [k|k].
    + destruct (shear_flexibility h b hh hb k) as [hs ->]. rewrite Rmin_left by exact hpj. set (EI := b_E b * b_I b) in *. clearbody EI. field. repeat split; lra.
    + rewrite (no_shear h b hh hb k). set (EI := b_E b * b_I b) in *. clearbody EI. field. lra.
  - pose proof (INR_at_le h j p hh c) as hpj. rewrite (cl_field_right N) by assumption. unfold cl_right.
    assert (e : (if Rle_dec (INR p * h) (INR j * h) then clamped_left (b_E b * b_I b) (INR j * h) f (INR p * h) else clamped_right (b_E b * b_I b) (INR j * h) f (INR p * h))
                = clamped_right (b_E b * b_I b) (INR j * h) f (INR p * h)).
    { destruct (Rle_dec (INR p * h) (INR j * h)) as [g|g]; [|reflexivity]. replace (INR p * h) with (INR j * h) by lra. unfold clamped_left, clamped_right.
      set (EI := b_E b * b_I b) in *. clearbody EI. field. lra. }
    rewrite e. unfold clamped_right. destruct (Rlt_dec 0 (b_shear_factor b)) as [k|k].
    + destruct (shear_flexibility h b hh hb k) as [hs ->]. rewrite Rmin_right by exact hpj. set (EI := b_E b * b_I b) in *. clearbody EI. field. repeat split; lra.
    + rewrite (no_shear h b hh hb k). set (EI := b_E b * b_I b) in *. clearbody EI. field. lra.
Qed.

(** The same for a beam clamped at its first node: [w q] is the deflection of the clamped beam under the force [q] alone *)
Theorem C97_clamped N h ns b fs da (w : nat * R -> R -> R) : (1 <= N)%nat -> 0 < h -> straight_mesh N h ns -> good_beam h b -> above_tolerance h b ->
  (forall q, In q fs -> (fst q <= N)%nat /\ clamped_static (b_E b * b_I b) (INR N * h) (INR (fst q) * h) (snd q) (w q)) ->
  exists s ns' k, initialise_system ns [chain_part N b] (vertical_loads fs) clamped_start da = Ok (s, ns', k) /\
    (exists x, in_balance s k x) /\
    forall x, in_balance s k x -> forall p, (p <= N)%nat ->
      field_of ns' x p DX = 0 /\
      field_of ns' x p DY = nsum (map (fun q => w q (INR p * h) + clamped_shear b (snd q) (INR (fst q) * h) (INR p * h)) fs).
Proof.
  intros hN hh hns hb ha hw. assert (hfs : forall q, In q fs -> (fst q <= N)%nat) by (intros q hq; apply hw; exact hq).
  destruct (chain_initialises N h ns b fs clamped_start da hN hns hfs) as [s [ns' [k hi]]].
  exists s, ns', k. split; [exact hi|].
  pose proof (fun p d hp => removed_iff _ _ (chain_kept N h ns b hN hh hns hb _ _ _ _ _ _ p d ha hi hp)) as hr.
  assert (hf : forall p d, flag_after clamped_start p d true = negb (Nat.eqb p 0)).
  { intros p d. unfold flag_after, clamped_start. cbn [fold_left fst snd memb existsb]. rewrite !orb_false_r, !(Nat.eqb_sym p).
    destruct (Nat.eqb_spec 0 p); destruct d; reflexivity. }
  assert (h0 : forall d, number_of ns' 0 d = None) by (intros d; apply hr; [lia|]; rewrite hf; reflexivity).
  destruct (chain_solution N h ns b fs clamped_start da hN hh hns hb hfs (fun q => cl_field h b (fst q) (snd q)) s ns' k hi) as [h1 h2]; try apply h0.
  - left. apply h0.
  - intros q p d hq hp hnone. apply hr in hnone; [|exact hp]. rewrite hf in hnone. destruct (Nat.eqb_spec p 0) as [->|]; [|discriminate].
    unfold cl_field, cl_left. cbn [Nat.leb INR]. unfold Rdiv. destruct d; ring.
  - intros q v hq hv. apply cl_balance; try assumption; [apply hfs; exact hq| |]; apply hv; try lia; apply h0.
  - split; [exact h1|]. intros x hx p hp. split.
    + rewrite (h2 x hx p DX hp). apply nsum_zero. intros q hq. unfold cl_field, cl_left, cl_right. destruct (Nat.leb p (fst q)); reflexivity.
    + rewrite (h2 x hx p DY hp). apply nsum_map_ext. intros q hq. destruct (hw q hq) as [g1 g2]. apply (cl_value N); assumption.
Qed.
Print Assumptions C97_clamped.
Example C97_clamped_example : exists w, forall q, In q [(4%nat, -3)] -> (fst q <= 4)%nat /\
  clamped_static (b_E (ex_beam (1/2) 7) * b_I (ex_beam (1/2) 7)) (INR 4 * (1/2)) (INR (fst q) * (1/2)) (snd q) (w q).
Proof.
  destruct (clamped_solves (200 * 2) (INR 4 * (1/2)) (-3) (INR 4 * (1/2)) ltac:(lra) ltac:(cbn; lra)) as [_ g].
  eexists (fun _ => _). intros q [<-|[]]. split; [cbn; lia|]. exact g.
Qed.

(** On a fine mesh the masses of the rotations fall below the absolute tolerance.  The rotations are then removed and the
    deflection at the force is too small by the factor 4 j (N - j), where j is the node of the force *)
Definition fine_mesh (h : R) (b : beam R) : Prop :=
  let tol := 1 / 100000000 in
  tol < b_E b * b_A b / h /\ tol < 12 * (b_E b * b_I b) / (h * h * h) /\ tol < b_rho b * b_A b * h / 3 /\
  2 * (b_rho b * b_A b * (h * h * h) / 105) <= tol.
Definition no_turn (N : nat) (h : R) (b : beam R) (j : nat) (f : R) (p : nat) (d : dir) : R :=
  let c := h * h * h / (12 * (b_E b * b_I b)) in
  match d with
  | DY => if Nat.leb p j then c * (f * INR (N - j) / INR N) * INR p else c * (f * INR j / INR N) * (INR N - INR p)
  | _ => 0
  end.

Theorem C97_fine_mesh_refuted N h ns b j f da : (1 <= N)%nat -> 0 < h -> straight_mesh N h ns -> good_beam h b -> b_shear_factor b <= 0 -> fine_mesh h b ->
  (0 < j < N)%nat ->
  exists s ns' k, initialise_system ns [chain_part N b] (vertical_loads [(j, f)]) (two_supports N) da = Ok (s, ns', k) /\
    (exists x, in_balance s k x) /\
    forall x, in_balance s k x ->
      4 * INR j * INR (N - j) * field_of ns' x j DY = static_deflection (b_E b * b_I b) (INR N * h) f (INR j * h) (INR j * h) /\
      (f <> 0 -> field_of ns' x j DY <> static_deflection (b_E b * b_I b) (INR N * h) f (INR j * h) (INR j * h)).
Proof.
  intros hN hh hns hb hk hfine hj.
  assert (hfs : forall q, In q [(j, f)] -> (fst q <= N)%nat) by (intros q [<-|[]]; cbn; lia).
  destruct (chain_initialises N h ns b [(j, f)] (two_supports N) da hN hns hfs) as [s [ns' [k hi]]].
  exists s, ns', k. split; [exact hi|].
  assert (hphi : timoshenko_factor 0 b = 0) by (apply (no_shear h b hh hb); lra).
  destruct hfine as [t1 [t2 [t3 t4]]]. pose proof hb as [b1 [b2 [b3 [b4 [b5 [b6 b7]]]]]].
  assert (hEI : 0 < b_E b * b_I b) by (apply Rmult_lt_0_compat; assumption).
  assert (hmr : mass_value b DR = b_rho b * b_A b * (h * h * h) / 105).
  { unfold mass_value. rewrite hphi, beam_mass_entries by (cbn; lia). unfold mass_entries. rewrite b2. cbn [dir_idx trans_entries].
    destruct (Req_EM_T 0 0); [|lra]. field. }
  destruct (mass_values N h b hN hh hb DX) as [_ [m1 [m2 m3]]]. destruct (stiff_values N h b hN hh hb DX) as [_ [s1 [s2 _]]].
  assert (hr : forall p d, (p <= N)%nat -> (number_of ns' p d = None <-> (d = DR \/ flag_after (two_supports N) p d true = false))).
  { intros p d hp. pose proof (chain_remains N h ns b hN hh hns hb _ _ _ _ _ _ p d hi hp) as g. cbv zeta in g.
    assert (h4 : 0 <= b_rho b * b_A b * (h * h * h) / 105) by (apply Rmult_le_pos; [|lra]; apply Rmult_le_pos; [apply Rmult_le_pos; lra|]; apply Rmult_le_pos; [apply Rmult_le_pos; lra|lra]).
    destruct d.
    - assert (e : flag_after (two_supports N) p DX true = true <-> number_of ns' p DX <> None).
      { rewrite g. split; [|tauto]. intros hf. split; [exact hf|]. rewrite s1. destruct (Nat.ltb_spec p N), (Nat.ltb_spec 0 p); try lia; rewrite !Rabs_right by lra; lra. }
      rewrite (removed_iff _ _ (iff_sym e)). split; [auto|]. intros [c|c]; [discriminate|exact c].
    - assert (e : flag_after (two_supports N) p DY true = true <-> number_of ns' p DY <> None).
      { rewrite g. split; [|tauto]. intros hf. split; [exact hf|]. rewrite s2, hphi, Rplus_0_r, Rmult_1_l. destruct (Nat.ltb_spec p N), (Nat.ltb_spec 0 p); try lia; rewrite !Rabs_right by lra; lra. }
      rewrite (removed_iff _ _ (iff_sym e)). split; [auto|]. intros [c|c]; [discriminate|exact c].
    - split; [auto|]. intros _. destruct (number_of ns' p DR) as [i|]; [|reflexivity]. exfalso. destruct g as [g _].
      destruct (g ltac:(discriminate)) as [_ [g1 _]]. rewrite hmr in g1. destruct (Nat.ltb p N), (Nat.ltb 0 p); rewrite Rabs_right in g1 by lra; lra. }
  assert (hf : forall p d, flag_after (two_supports N) p d true = if Nat.eqb p N then tget (T3 true false true) d else if Nat.eqb p 0 then tget (T3 false false true) d else true).
  { intros p d. unfold flag_after, two_supports. cbn [fold_left fst snd memb existsb]. rewrite !orb_false_r, !(Nat.eqb_sym p). 
    destruct (Nat.eqb_spec N p), (Nat.eqb_spec 0 p); reflexivity. }
  assert (hNp : 0 < INR N) by (apply lt_0_INR; lia). assert (hNj : INR (N - j) = INR N - INR j) by (apply minus_INR; lia).
  destruct (chain_solution N h ns b [(j, f)] (two_supports N) da hN hh hns hb hfs (fun q => no_turn N h b (fst q) (snd q)) s ns' k hi) as [h1 h2].
  - apply hr; [lia|]. right. rewrite hf. destruct (Nat.eqb_spec 0 N); [lia|reflexivity].
  - apply hr; [lia|]. right. rewrite hf. destruct (Nat.eqb_spec 0 N); [lia|reflexivity].
  - left. apply hr; [lia|]. left. reflexivity.
  - intros q p d [<-|[]] hp hnone. apply hr in hnone; [|exact hp]. cbn [fst snd].
    assert (hd : d <> DY \/ d = DY /\ (p = 0 \/ p = N)%nat).
    { destruct d; [left; discriminate| |left; discriminate]. right. destruct hnone as [e|e]; [discriminate|]. rewrite hf in e. split; [reflexivity|].
      destruct (Nat.eqb_spec p N); [auto|]. destruct (Nat.eqb_spec p 0); [auto|discriminate]. }
    destruct hd as [hd|[-> [-> | ->]]].
    + destruct d; [reflexivity|congruence|reflexivity].
    + unfold no_turn. cbn [Nat.leb INR]. ring.
    + unfold no_turn. destruct (Nat.leb_spec N j); [lia|]. ring.
  - intros q v [<-|[]] hv. cbn [fst snd].
    assert (v0 : v 0%nat DY = 0) by (apply hv; [lia|]; apply hr; [lia|]; right; rewrite hf; destruct (Nat.eqb_spec 0 N); [lia|reflexivity]).
    assert (vN : v N DY = 0) by (apply hv; [lia|]; apply hr; [lia|]; right; rewrite hf, Nat.eqb_refl; reflexivity).
    assert (vr : forall p, (p <= N)%nat -> v p DR = 0) by (intros p hp; apply hv; [exact hp|]; apply hr; [exact hp|left; reflexivity]).
    rewrite (sumn_ext N _ (fun i => (if Nat.ltb i j then f * INR (N - j) / INR N else - (f * INR j / INR N)) * (v (i + 1)%nat DY - v i DY))).
    + rewrite (two_slopes N j _ _ (fun i => v i DY)) by lia. rewrite v0, vN, hNj. field. lra.
    + intros i hi'. unfold chain_form, shear_gap. rewrite hphi, !vr by lia. unfold no_turn. rewrite plus_INR. cbn [INR].
      destruct (Nat.ltb_spec i j) as [c|c].
      * destruct (Nat.leb_spec i j); [|lia]. destruct (Nat.leb_spec (i + 1) j); [|lia]. rewrite hNj. set (EI := b_E b * b_I b) in *. clearbody EI. field. repeat split; lra.
      * destruct (Nat.leb_spec (i + 1) j); [lia|]. 
        replace (if (i <=? j)%nat then h * h * h / (12 * (b_E b * b_I b)) * (f * INR (N - j) / INR N) * INR i else h * h * h / (12 * (b_E b * b_I b)) * (f * INR j / INR N) * (INR N - INR i))
          with (h * h * h / (12 * (b_E b * b_I b)) * (f * INR j / INR N) * (INR N - INR i)).
        -- set (EI := b_E b * b_I b) in *. clearbody EI. field. repeat split; lra.
        -- destruct (Nat.leb_spec i j); [|reflexivity]. assert (i = j) by lia. subst i. rewrite hNj. set (EI := b_E b * b_I b) in *. clearbody EI. field. repeat split; lra.
  - split; [exact h1|]. intros x hx. assert (hjp : 0 < INR j) by (apply lt_0_INR; lia). assert (hNjp : 0 < INR (N - j)) by (apply lt_0_INR; lia).
    assert (hlen : 0 < INR N * h) by (apply Rmult_lt_0_compat; assumption).
    destruct (static_value (b_E b * b_I b) (INR N * h) f (INR j * h) (INR j * h) hEI hlen) as [e1 _].
    rewrite e1 by (split; [apply Rmult_le_pos; lra|lra]). clear e1.
    rewrite (h2 x hx j DY ltac:(lia)). cbn [map nsum fst snd]. unfold no_turn. rewrite Nat.leb_refl. rnum. rewrite Rplus_0_r. unfold static_left. rewrite hNj in *.
    set (EI := b_E b * b_I b) in *. clearbody EI. set (J := INR j) in *. set (M := INR N) in *.
    assert (j1 : 1 <= J) by (unfold J; replace 1 with (INR 1) by reflexivity; apply le_INR; lia).
    assert (j2 : 1 <= M - J) by (unfold M, J in *; rewrite <- minus_INR by lia; replace 1 with (INR 1) by reflexivity; apply le_INR; lia).
    assert (e : f * (M * h - J * h) * (J * h) / (6 * (M * h) * EI) * (M * h * (M * h) - (M * h - J * h) * (M * h - J * h) - J * h * (J * h)) =
                4 * J * (M - J) * (h * h * h / (12 * EI) * (f * (M - J) / M) * J)) by (field; lra).
    split; [symmetry; exact e|]. intros hf0 e'. rewrite e in e'.
    assert (g : h * h * h / (12 * EI) * (f * (M - J) / M) * J <> 0).
    { repeat apply Rmult_integral_contrapositive_currified; try lra; try (apply Rinv_neq_0_compat; lra). }
    set (v := h * h * h / (12 * EI) * (f * (M - J) / M) * J) in *. clearbody v. clear - e' g j1 j2.
    assert (z : v * (4 * J * (M - J) - 1) = 0) by lra. apply Rmult_integral in z. destruct z as [z|z]; [contradiction|]. nra.
Qed.
Print Assumptions C97_fine_mesh_refuted.
Example C97_fine_example : 0 < 1/1000 /\ good_beam (1/1000) (ex_beam (1/1000) 7) /\ b_shear_factor (ex_beam (1/1000) 7) <= 0 /\ fine_mesh (1/1000) (ex_beam (1/1000) 7) /\ (0 < 2 < 4)%nat.
Proof.
  split; [lra|]. split; [unfold good_beam, ex_beam, fixed_ends; cbn; repeat split; lra|]. split; [cbn; lra|]. split; [|lia].
  unfold fine_mesh, ex_beam. cbn. repeat split; lra.
Qed.

(** A beam without mass, which has the same static deflections, has no degrees of freedom left: nothing moves *)
Theorem C97_massless_refuted N h ns b fs da : (1 <= N)%nat -> 0 < h -> straight_mesh N h ns -> good_beam h b -> b_rho b = 0 ->
  (forall q, In q fs -> (fst q <= N)%nat) ->
  exists s ns', initialise_system ns [chain_part N b] (vertical_loads fs) (two_supports N) da = Ok (s, ns', 0%nat) /\
    forall x p d, (p <= N)%nat -> field_of ns' x p d = 0.
Proof.
  intros hN hh hns hb hrho hfs. destruct (chain_initialises N h ns b fs (two_supports N) da hN hns hfs) as [s [ns' [k hi]]].
  assert (hn : forall p d, (p <= N)%nat -> number_of ns' p d = None).
  { intros p d hp. pose proof (chain_remains N h ns b hN hh hns hb _ _ _ _ _ _ p d hi hp) as g. cbv zeta in g.
    destruct (number_of ns' p d); [|reflexivity]. exfalso. destruct g as [g _]. destruct (g ltac:(discriminate)) as [_ [g1 _]].
    assert (e : mass_value b d = 0).
    { unfold mass_value. rewrite beam_mass_entries by (destruct d; cbn; lia). unfold mass_entries. rewrite hrho. destruct (Req_EM_T _ 0); unfold Rdiv; ring. }
    rewrite e in g1. destruct (Nat.ltb p N), (Nat.ltb 0 p); rewrite Rplus_0_l, Rabs_R0 in g1; lra. }
  destruct (chain_numbers N h ns b hns _ _ _ _ _ _ hi) as [hl hnum].
  assert (hk : k = 0%nat).
  { destruct k as [|k]; [reflexivity|]. exfalso. destruct (chain_place N h ns b hN hns _ _ _ _ _ _ hi 0%nat ltac:(lia)) as [p [d [hp e]]]. rewrite hn in e by exact hp. discriminate. }
  subst k. exists s, ns'. split; [exact hi|]. intros x p d hp. unfold field_of. rewrite hn by exact hp. reflexivity.
Qed.
Print Assumptions C97_massless_refuted.
Example C97_massless_example : good_beam (1/2) (ex_beam (1/2) 0).
Proof. unfold good_beam, ex_beam, fixed_ends. cbn. repeat split; lra. Qed.
