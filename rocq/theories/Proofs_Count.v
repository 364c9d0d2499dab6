(** * The degrees of freedom of a track joined from segments *)

From Coq Require Import Reals List Bool ZArith Arith Lia Lra Psatz Permutation.
From Verif Require Import Num PyBase Model_Geometry Model_System Spec_System Proofs_Dof Proofs_System Model_Element Spec_Element
  Proofs_Elements Proofs_Element Proofs_Beam Proofs_Force Model_Accumulation Proofs_Accumulation Proofs_Geometry Model_Coupled Model_Mesh Spec_Mesh Proofs_Mesh Proofs_Join Props_Mesh
  Model_Track Spec_Track Spec_Generated Proofs_Track Proofs_Assembly Proofs_Generated Props_Generated Proofs_Chain Spec_Balance Proofs_Balance Spec_Structure Proofs_Structure Proofs_Line Props_Structure
  Spec_Cut Proofs_Cut.
Import ListNotations.
Local Open Scope R_scope.

(** ** entries of the matrices of a rail *)

(** smallest mass of one beam in each direction of its ends *)
Definition least_mass (b : beam R) (e : dir) : R := match e with DR => b_rho b * b_A b * (b_l b * b_l b * b_l b) / 120 | _ => b_rho b * b_A b * b_l b / 3 end.

Lemma beam_mass_least (b : beam R) phi e j : 0 < b_l b -> 0 <= phi -> 0 < b_A b -> 0 < b_I b -> 0 <= b_rho b -> (j = dir_idx e \/ j = 3 + dir_idx e)%nat ->
  least_mass b e <= beam_mass b phi j j.
Proof.
  intros hl hphi hA hI hrho hj. destruct e; cbn [dir_idx least_mass] in *; [| apply beam_mass_vertical; tauto |]; rewrite beam_mass_entries by (destruct hj; lia); unfold mass_entries.
  - assert (q1 : trans_entries (b_l b) phi j j * (b_rho b * b_A b * b_l b / (210 * ((1 + phi) * (1 + phi)))) = b_rho b * b_A b * b_l b / 3) by (destruct hj as [-> | ->]; cbn [trans_entries Nat.add]; field; lra).
    rewrite q1. destruct (Req_EM_T phi 0) as [z|z]; [lra|]. destruct hj as [-> | ->]; cbn [rot_entries Nat.add]; lra.
  - assert (q1 : trans_entries (b_l b) phi j j * (b_rho b * b_A b * b_l b / (210 * ((1 + phi) * (1 + phi)))) =
               b_rho b * b_A b * (b_l b * b_l b * b_l b) / 120 + b_rho b * b_A b * (b_l b * b_l b * b_l b) * (1 / (840 * ((1 + phi) * (1 + phi))))).
    { destruct hj as [-> | ->]; cbn [trans_entries Nat.add]; field; lra. }
    rewrite q1. assert (hl3 : 0 < b_l b * b_l b * b_l b) by (repeat apply Rmult_lt_0_compat; exact hl).
    assert (q2 : 0 <= b_rho b * b_A b * (b_l b * b_l b * b_l b) * (1 / (840 * ((1 + phi) * (1 + phi))))).
    { apply Rmult_le_pos; [apply Rmult_le_pos; [apply Rmult_le_pos|]; lra|]. apply Rle_mult_inv_pos; [lra|]. nra. }
    destruct (Req_EM_T phi 0) as [z|z]; [lra|].
    assert (q3 : 0 <= rot_entries (b_l b) phi j j * (b_rho b * b_I b / (30 * ((1 + phi) * (1 + phi)) * b_l b))).
    { apply Rmult_le_pos; [destruct hj as [-> | ->]; cbn [rot_entries Nat.add]; apply Rmult_le_pos; nra|]. apply Rle_mult_inv_pos; [apply Rmult_le_pos; lra|].
      apply Rmult_lt_0_compat; [|exact hl]. apply Rmult_lt_0_compat; [lra|]. apply Rmult_lt_0_compat; lra. }
    lra.
Qed.

(** smallest stiffness of one beam in each direction of its ends *)
Definition least_stiffness (b : beam R) (l : R) (e : dir) : R :=
  match e with
  | DX => b_E b * b_A b / l
  | DY => 12 * (b_E b * b_I b) / ((1 + timoshenko_factor 0 (mkBeam (b_E b) (b_nu b) (b_rho b) (b_A b) (b_I b) (b_shear_factor b) l (b_s1 b) (b_s2 b))) * (l * l * l))
  | DR => b_E b * b_I b / l
  end.

Section Count.
  Variables (c : heap R) (N : nat) (l : R) (j : joined).
  Variables (b : beam R) (pad : R * option R * option R) (m : R) (soils : list (R * option R * option R)).
  Hypothesis hl : 0 < l.
  Hypothesis hb : good_rail b.
  Hypothesis hpad : good_rod pad.
  Hypothesis hm : 0 <= m.
  Hypothesis hsoils : Forall good_rod soils.
  Hypothesis hcount : length soils = length (jn_soil j).
  Hypothesis hln : line c N l j.
  Let ns := joined_mesh c (seq 0 N).
  Let parts := joined_parts j b pad m soils.
  Let b' := mkBeam (b_E b) (b_nu b) (b_rho b) (b_A b) (b_I b) (b_shear_factor b) l (b_s1 b) (b_s2 b).
  Let total aux u := nsum (map (fun a => part_form aux ns u (settled ns a)) parts).
  Let railpart := mkPart (KRail b) (jn_rail_nodes j) (jn_rail_els j).

  Lemma below aux u : aux = aux_stiffness \/ aux = aux_mass \/ aux = aux_damping -> part_form aux ns u (settled ns railpart) <= total aux u.
  Proof. intros ha. destruct hln. eapply part_below; try eassumption. left. reflexivity. Qed.
  Lemma settles : settled ns railpart = mkPart (KRail b') (jn_rail_nodes j) (jn_rail_els j).
  Proof. destruct hln. eapply line_settled; eassumption. Qed.
  Lemma neighbour p : In p (jn_rail_nodes j) -> exists e, In e (jn_rail_els j) /\ fst e <> snd e /\ (p = fst e \/ p = snd e).
  Proof. intros hp. destruct hln. eapply rail_neighbour; eassumption. Qed.

  Lemma rail_stiffness p e : In p (jn_rail_nodes j) -> least_stiffness b l e <= total aux_stiffness (unit_field p e).
  Proof.
    intros hp. destruct (neighbour p hp) as [el [he [hne hpe]]]. eapply Rle_trans; [|apply below; auto]. rewrite settles.
    assert (hf : part_form aux_stiffness ns (unit_field p e) (mkPart (KRail b') (jn_rail_nodes j) (jn_rail_els j)) = nsum (map (line_energy l b (unit_field p e)) (jn_rail_els j))) by (destruct hln; eapply rail_form; eassumption).
    assert (hnn : forall u x, 0 <= line_energy l b u x) by (intros; destruct hln; eapply line_energy_nonneg; eassumption).
    rewrite hf. eapply Rle_trans; [|apply (nsum_ge (line_energy l b (unit_field p e)) (jn_rail_els j) el); [intros; apply hnn|exact he]].
    assert (hphi : 0 <= timoshenko_factor 0 b') by (destruct hln; eapply line_phi; eassumption).
    assert (h12 : 0 <= 12 * (b_E b * b_I b) / ((1 + timoshenko_factor 0 b') * (l * l * l))).
    { destruct hb as [_ [q1 [q2 [q3 _]]]]. apply Rle_mult_inv_pos; [repeat apply Rmult_le_pos; lra|]. apply Rmult_lt_0_compat; [lra|]. repeat apply Rmult_lt_0_compat; exact hl. }
    unfold line_energy. cbv zeta. fold b'. destruct e; cbn [least_stiffness]; fold b'.
    - rewrite !(unit_across p DX _ DY), !(unit_across p DX _ DR) by discriminate. apply Req_le. destruct hpe as [-> | ->]; rewrite unit_at, unit_elsewhere by congruence; unfold Rdiv; ring.
    - rewrite !(unit_across p DY _ DX), !(unit_across p DY _ DR) by discriminate. apply Req_le. destruct hpe as [-> | ->]; rewrite unit_at, unit_elsewhere by congruence; unfold Rdiv; ring.
    - rewrite !(unit_across p DR _ DX), !(unit_across p DR _ DY) by discriminate. set (q := 12 * _ / _) in *.
      destruct hpe as [-> | ->]; rewrite unit_at, unit_elsewhere by congruence;
        match goal with |- ?x <= _ + _ * ?y + q * (?g * ?g) => assert (0 <= q * (g * g)) by (apply Rmult_le_pos; [exact h12|apply Rle_0_sqr]) end; lra.
  Qed.

  Lemma rail_mass p e : In p (jn_rail_nodes j) -> least_mass b' e <= total aux_mass (unit_field p e).
  Proof.
    intros hp. destruct (neighbour p hp) as [el [he [hne hpe]]]. eapply Rle_trans; [|apply below; auto]. rewrite settles.
    unfold part_form. cbn [ep_kind ep_els aux_mass element_form]. change (timoshenko_factor (lit 0) b') with (timoshenko_factor 0 b').
    assert (hphi : 0 <= timoshenko_factor 0 b') by (destruct hln; eapply line_phi; eassumption).
    destruct hb as [_ [q1 [q2 [q3 [q5 q6]]]]]. assert (q4 : 0 < b_l b') by exact hl.
    eapply Rle_trans; [|apply (nsum_ge (fun e0 => quad 6 (beam_mass b' (timoshenko_factor 0 b')) (local6 (calculate_rotation1 (xy ns (fst e0), xy ns (snd e0))) (unit_field p e) (fst e0) (snd e0))) (jn_rail_els j) el);
      [intros; apply beam_mass_psd; try assumption; cbn; lra|exact he]].
    assert (hlev : level ns el) by (destruct hln; eapply line_level; eassumption).
    rewrite (level_angle ns el hlev).
    assert (g : forall i, (i = dir_idx e \/ i = 3 + dir_idx e)%nat -> (forall k, (k < 6)%nat -> local6 0 (unit_field p e) (fst el) (snd el) k = if Nat.eqb i k then 1 else 0) ->
      least_mass b' e <= quad 6 (beam_mass b' (timoshenko_factor 0 b')) (local6 0 (unit_field p e) (fst el) (snd el))).
    { intros i hi hk. rewrite (quad_ext_vec 6 _ _ (fun k => if Nat.eqb i k then 1 else 0)) by exact hk. rewrite quad_unit by (destruct hi, e; cbn [dir_idx] in *; lia).
      exact (beam_mass_least b' _ e i q4 hphi q3 q2 q6 hi). }
    destruct hpe as [hpe|hpe]; [apply (g (dir_idx e))|apply (g (3 + dir_idx e)%nat)]; auto; intros k hk; unfold local6, along, across; rewrite cos_0, sin_0; subst p;
      destruct e; cbn [dir_idx Nat.add];
      rewrite ?(unit_across _ DX _ DY), ?(unit_across _ DX _ DR), ?(unit_across _ DY _ DX), ?(unit_across _ DY _ DR), ?(unit_across _ DR _ DX), ?(unit_across _ DR _ DY) by discriminate;
      rewrite unit_at, unit_elsewhere by congruence; do 6 (destruct k as [|k]; [cbn; ring|]); lia.
  Qed.

  Lemma rail_kept ls cs da s ns' k p e : initialise_system ns parts ls cs da = Ok (s, ns', k) -> In p (jn_rail_nodes j) ->
    1 / 100000000 < least_stiffness b l e -> 1 / 100000000 < least_mass b' e -> (number_of ns' p e <> None <-> flag_after cs p e true = true).
  Proof.
    intros h hp h1 h2. destruct (initialise_inv _ _ _ _ _ _ _ _ h) as [s0 [_ [e0 _]]]. destruct (initialise_kept _ _ _ _ _ _ _ _ _ h e0) as [hl' [_ [hk _]]].
    assert (hr : (p < length ns)%nat) by (unfold ns; rewrite line_length; apply (ln_below _ _ _ _ hln); tauto). specialize (hk p e hr). cbv zeta in hk. rewrite hk.
    assert (ha : active ns p e = true) by (eapply line_active; exact hr).
    rewrite ha. assert (hsh : Forall shaped parts) by (eapply joined_shaped; eassumption).
    destruct (assemble_diag ns parts ls s0 _ p e hsh e0 hr) as [k1 k2]. change (match e with DX => 0%nat | DY => 1%nat | DR => 2%nat end) with (dir_idx e). rewrite k1, k2.
    split; [tauto|]. intros g. split; [exact g|]. pose proof (rail_stiffness p e hp) as g1. pose proof (rail_mass p e hp) as g2. unfold total in g1, g2. rewrite !Rabs_right by lra. lra.
  Qed.
End Count.

(** ** counting *)

(** number of directions of node [p] that have a number *)
Definition held_numbers (ns : list (node R)) (p : nat) : nat := length (filter (fun d => match number_of ns p d with Some _ => true | None => false end) [DX; DY; DR]).

Lemma numbers_of_node (n : node R) : length (flat_map (fun o => match o with Some k => [k] | None => [] end) (tlist (n_dof n))) =
  length (filter (fun d => match tget (n_dof n) d with Some _ => true | None => false end) [DX; DY; DR]).
Proof. destruct (n_dof n) as [[x|] [y|] [z|]]; reflexivity. Qed.

Lemma held_at (ns : list (node R)) n p : nth_error ns p = Some n ->
  held_numbers ns p = length (flat_map (fun o => match o with Some k => [k] | None => [] end) (tlist (n_dof n))).
Proof. intros h. rewrite numbers_of_node. unfold held_numbers, number_of. rewrite h. reflexivity. Qed.

Lemma numbers_length (ns : list (node R)) : length (all_numbers ns) = list_sum (map (held_numbers ns) (seq 0 (length ns))).
Proof.
  enough (g : forall l, all_numbers l = all_numbers l -> forall pre, ns = pre ++ l -> length (all_numbers l) = list_sum (map (held_numbers ns) (seq (length pre) (length l)))) by exact (g ns eq_refl [] eq_refl).
  induction l as [|n l IH]; intros _ pre hp; [reflexivity|]. cbn [length seq map list_sum]. change (all_numbers (n :: l)) with (flat_map (fun o => match o with Some k => [k] | None => [] end) (tlist (n_dof n)) ++ all_numbers l).
  rewrite app_length, <- (held_at ns n (length pre)) by (rewrite hp, nth_error_app2, Nat.sub_diag by lia; reflexivity). cbn [list_sum fold_right]. unfold list_sum in IH. f_equal.
  rewrite (IH eq_refl (pre ++ [n])) by (rewrite hp, <- app_assoc; reflexivity). rewrite app_length, Nat.add_1_r. reflexivity.
Qed.

Lemma sum_perm (f : nat -> nat) l l' : Permutation l l' -> list_sum (map f l) = list_sum (map f l').
Proof. intros h. induction h; cbn in *; unfold list_sum in *; lia. Qed.

(** the numbers of the nodes before node [p] *)
Definition held_before (ns : list (node R)) (p : nat) : nat := list_sum (map (held_numbers ns) (seq 0 p)).
(** the place of direction [d] among the numbered directions of its node *)
Definition place_in_node (ns : list (node R)) (p : nat) (d : dir) : nat :=
  length (filter (fun e => match number_of ns p e with Some _ => true | None => false end) (match d with DX => [] | DY => [DX] | DR => [DX; DY] end)).

Lemma list_sum_firstn (ns : list (node R)) p : (p <= length ns)%nat -> length (all_numbers (firstn p ns)) = held_before ns p.
Proof.
  intros hp. rewrite numbers_length, firstn_length, Nat.min_l by exact hp. unfold held_before. f_equal. apply map_ext_in. intros q hq. apply in_seq in hq.
  unfold held_numbers. f_equal. apply filter_ext. intros d. unfold number_of. rewrite <- (firstn_skipn p ns) at 2. rewrite nth_error_app1 by (rewrite firstn_length; lia). reflexivity.
Qed.

Lemma number_is (ns : list (node R)) k p d i : numbered ns k -> number_of ns p d = Some i -> i = (held_before ns p + place_in_node ns p d)%nat.
Proof.
  intros hk hi. assert (hp : (p < length ns)%nat) by (eapply number_of_bound; eauto).
  destruct (nth_error ns p) as [n|] eqn:en; [|apply nth_error_None in en; lia].
  assert (hs : ns = firstn p ns ++ n :: skipn (S p) ns).
  { rewrite <- (firstn_skipn p ns) at 1. f_equal. clear hi hp hk. revert p en. induction ns as [|a q IH]; intros [|p] en; try discriminate; [injection en as ->; reflexivity|apply IH; exact en]. }
  rewrite <- (list_sum_firstn ns p) by lia. unfold numbered in hk. rewrite hs in hk. unfold all_numbers in hk at 1. rewrite flat_map_app in hk. cbn [flat_map] in hk. fold (all_numbers (firstn p ns)) in hk.
  unfold place_in_node. assert (hn : forall e, number_of ns p e = tget (n_dof n) e) by (intros e; unfold number_of; rewrite en; reflexivity).
  set (a := all_numbers (firstn p ns)) in *. rewrite (filter_ext _ (fun e => match tget (n_dof n) e with Some _ => true | None => false end)) by (intros e; rewrite hn; reflexivity).
  rewrite hn in hi. clear hn. set (z := flat_map _ (skipn (S p) ns)) in hk. clearbody z.
  assert (hx : forall m, (m < k)%nat -> nth m (a ++ flat_map (fun o => match o with Some k => [k] | None => [] end) (tlist (n_dof n)) ++ z) 0%nat = m) by (intros m hm; rewrite hk, seq_nth by exact hm; reflexivity).
  assert (hlen : (length a + (length (flat_map (fun o => match o with Some k => [k] | None => [] end) (tlist (n_dof n))) + length z) = k)%nat) by (rewrite <- !app_length, hk, seq_length; reflexivity).
  clear hk hs en. destruct (n_dof n) as [x y r]. cbn [tlist] in *.
  assert (hx' : forall m, (length a + m < k)%nat -> nth m (flat_map (fun o => match o with Some k => [k] | None => [] end) [x; y; r] ++ z) 0%nat = (length a + m)%nat).
  { intros m hm. pose proof (hx (length a + m)%nat hm) as g. rewrite app_nth2_plus in g. exact g. }
  pose proof (hx' 0%nat) as z0. pose proof (hx' 1%nat) as z1. pose proof (hx' 2%nat) as z2.
  destruct d; cbn [tget tx ty tr] in hi; subst; cbn [filter length tget tx ty tr];
    repeat match goal with o : option nat |- _ => destruct o end; cbn [flat_map app length nth tlist tx ty tr] in *; clear hx hx'; lia.
Qed.
