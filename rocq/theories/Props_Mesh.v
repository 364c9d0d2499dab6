(** * Properties C51-C53 and C56: generated meshes *)

From Coq Require Import Reals List Bool ZArith Arith Permutation Lia Lra Psatz.
From Verif Require Import Num PyBase Model_Geometry Model_System Model_Element Model_Moving Model_Coupled Model_Mesh
  Spec_Geometry Spec_Mesh Proofs_Geometry Proofs_System Proofs_Coupled Proofs_Mesh Proofs_Join Proofs_Hinge.
Import ListNotations.
Local Open Scope R_scope.

(** ** C51 *)

Lemma reorder_nth (l : list (node R)) k n : nth_error l k = Some n -> nth_error (reorder_node_ids l) k = Some (set_index n k).
Proof.
  unfold reorder_node_ids. intros h. assert (hg : forall b, nth_error (reorder_from b l) k = Some (set_index n (b + k))).
  { revert k h. induction l as [|a l IH]; intros [|k] h b; cbn in *; try discriminate.
    - inversion h; subst. rewrite Nat.add_0_r. reflexivity.
    - rewrite (IH k h (S b)). f_equal. f_equal. lia. }
  apply (hg 0%nat).
Qed.

Lemma placed_in (l : list (node R)) n : In n l -> placed (reorder_node_ids l) (n_id n) (n_coord n).
Proof.
  intros h. apply In_nth_error in h. destruct h as [k h]. exists k, (set_index n k). split; [apply reorder_nth; auto|]. repeat split.
Qed.

(** A generated track has the requested rail, sleepers, pads and soil; nothing else is in the mesh *)
Theorem C51_horizontal_track (h : tri Z -> Z) (base n : nat) (d depth : R) (r : nat) :
  (1 <= r)%nat -> 1 / 1000000000 < d / INR r -> 1 / 1000000000 < depth ->
  exists t, create_horizontal_track h base n d depth r = Ok t /\
    (* rail *)
    length (tk_rail_nodes t) = (n * r)%nat /\
    (forall i, (i < n * r)%nat -> placed (tk_mesh t) (nth i (tk_rail_nodes t) 0%nat) (T3 (INR i * (d / INR r)) 0 0)) /\
    in_line (tk_rail_nodes t) (tk_rail_els t) /\ tk_rail_length t = d /\
    (* sleepers *)
    length (tk_sleepers t) = n /\
    (forall i, (i < n)%nat -> placed (tk_mesh t) (nth i (tk_sleepers t) 0%nat) (T3 (INR i * d) (-1) 0)) /\
    (* pads: from every r-th rail node, which is above the sleeper, to the sleeper *)
    length (tk_pad_els t) = n /\
    (forall i, (i < n)%nat -> nth_error (tk_pad_els t) i = Some (nth (i * r) (tk_rail_nodes t) 0%nat, nth i (tk_sleepers t) 0%nat) /\
                               placed (tk_mesh t) (nth (i * r) (tk_rail_nodes t) 0%nat) (T3 (INR i * d) 0 0)) /\
    tk_pad_nodes t = flat_map (fun e => [fst e; snd e]) (tk_pad_els t) /\
    (* soil: from the sleeper to a node below it *)
    length (tk_soil_els t) = n /\
    (forall i, (i < n)%nat -> exists b, nth_error (tk_soil_els t) i = Some (nth i (tk_sleepers t) 0%nat, b) /\
                                        placed (tk_mesh t) b (T3 (INR i * d) (-1 - depth) 0)) /\
    tk_soil_nodes t = flat_map (fun e => [fst e; snd e]) (tk_soil_els t) /\
    (* mesh *)
    length (tk_mesh t) = (n * r + 2 * n)%nat /\ NoDup (map (@n_id R) (tk_mesh t)) /\
    tk_mesh_els t = tk_rail_els t ++ tk_pad_els t ++ tk_soil_els t.
Proof.
  intros hr hd hdep. exists (the_track base n r d depth). split; [apply create_spec; auto|].
  pose proof (rpos n r hr) as hpos.
  assert (hrail : forall i, (i < n * r)%nat -> placed (tk_mesh (the_track base n r d depth)) (base + i) (T3 (INR i * (d / INR r)) 0 0)).
  { intros i hi. replace (INR i * (d / INR r)) with (INR i * d / INR r) by (field; lra). apply (placed_in (track_nodes base n r d depth) (rail_node base r d i)).
    unfold track_nodes. apply in_or_app. left. apply in_map, in_seq. lia. }
  assert (hex : forall k (f : nat -> nat * nat) i, (i < k)%nat -> nth_error (map f (seq 0 k)) i = Some (f i)).
  { intros k f i hi. rewrite nth_error_map. rewrite (nth_error_nth' _ 0%nat) by (rewrite seq_length; lia). rewrite seq_nth by lia. reflexivity. }
  cbn [the_track tk_rail_nodes tk_rail_els tk_rail_length tk_sleepers tk_pad_els tk_pad_nodes tk_soil_els tk_soil_nodes tk_mesh_els tk_mesh] in *.
  rewrite !map_length, !seq_length. split; [reflexivity|]. split; [|split; [|split; [reflexivity|split; [reflexivity|split; [|split; [reflexivity|split; [|split; [|split; [reflexivity|split; [|split; [|split; [|split]]]]]]]]]]]].
  - intros i hi. rewrite seq_nth by lia. auto.
  - pose proof (track_rail_chain r d hr base n depth) as e. cbn [the_track tk_rail_els tk_rail_nodes] in e. rewrite e. apply chain_spec.
  - intros i hi. rewrite seq_nth by lia. apply (placed_in (track_nodes base n r d depth) (sleeper_node base n r d i)).
    unfold track_nodes. apply in_or_app. right. apply in_or_app. left. apply in_map, in_seq. lia.
  - intros i hi. assert ((i * r < n * r)%nat) by nia. rewrite !seq_nth by lia. split; [etransitivity; [apply hex; auto|reflexivity]|].
    replace (INR i * d) with (INR (i * r) * (d / INR r)) by (rewrite mult_INR; field; lra). auto.
  - rewrite flat_map_concat_map, flat_map_concat_map, map_map. reflexivity.
  - intros i hi. rewrite !seq_nth by lia. exists (base + n * r + n + i)%nat. split; [etransitivity; [apply hex; auto|reflexivity]|]. apply (placed_in (track_nodes base n r d depth) (bottom_node base n r d depth i)).
    unfold track_nodes. apply in_or_app. right. apply in_or_app. right. apply in_map, in_seq. lia.
  - rewrite flat_map_concat_map, flat_map_concat_map, map_map. reflexivity.
  - rewrite <- (map_length (@n_id R)), mesh_ids by auto. rewrite seq_length. unfold size. lia.
  - rewrite mesh_ids by auto. apply seq_NoDup.
  - reflexivity.
Qed.
Print Assumptions C51_horizontal_track.

(** a track with sleepers needs a rail element per sleeper *)
Theorem C51_no_rail (h : tri Z -> Z) (base n : nat) (d depth : R) : (1 <= n)%nat -> create_horizontal_track h base n d depth 0 = Err ErrIndex.
Proof. intros hn. destruct n; [lia|]. reflexivity. Qed.
Print Assumptions C51_no_rail.

(** a track without sleepers is empty, with any number of rail elements per sleeper *)
Theorem C51_empty (h : tri Z -> Z) (base : nat) (d depth : R) r : exists t, create_horizontal_track h base 0 d depth r = Ok t /\
  tk_objects t = [] /\ tk_rail_nodes t = [] /\ tk_rail_els t = [] /\ tk_pad_els t = [] /\ tk_sleepers t = [] /\ tk_soil_els t = [] /\ tk_mesh t = [] /\ tk_mesh_els t = [].
Proof. eexists. split; [destruct r; reflexivity|]. repeat split; reflexivity. Qed.
Print Assumptions C51_empty.

Example C51_example : (1 <= 2)%nat /\ 1 / 1000000000 < 0.6 / INR 2 /\ 1 / 1000000000 < 1.5.
Proof. split; [lia|]. cbn [INR]. lra. Qed.

(** ** C52 *)

Lemma NoDup_app_intro {A} (a b : list A) : NoDup a -> NoDup b -> (forall x, In x a -> In x b -> False) -> NoDup (a ++ b).
Proof.
  induction a as [|x a IH]; intros h1 h2 h3; [exact h2|]. inversion h1; subst. cbn. constructor.
  - intros hc. apply in_app_iff in hc. destruct hc as [hc|hc]; [contradiction|]. exact (h3 x (or_introl eq_refl) hc).
  - apply IH; auto. intros y hy. apply h3. right. auto.
Qed.
Lemma flat_map_snd {A B C} (f : A -> B) (g : A -> list C) l : flat_map snd (map (fun t => (f t, g t)) l) = flat_map g l.
Proof. induction l as [|a l IH]; [reflexivity|]. cbn. rewrite IH. reflexivity. Qed.
Lemma flat_map_both {A B} (f g : A -> list B) l : Permutation (flat_map (fun t => f t ++ g t) l) (flat_map f l ++ flat_map g l).
Proof.
  induction l as [|a l IH]; [reflexivity|]. cbn [flat_map]. rewrite IH. rewrite <- !app_assoc. apply Permutation_app_head. rewrite !app_assoc.
  apply Permutation_app_tail. apply Permutation_app_comm.
Qed.
Lemma map_seq_shift b k : map (fun i => (b + i)%nat) (seq 0 k) = seq b k.
Proof.
  apply (nth_ext _ _ 0%nat 0%nat); [rewrite map_length, !seq_length; reflexivity|]. intros i hi. rewrite map_length, seq_length in hi.
  rewrite seq_nth by lia. rewrite (nth_indep _ 0%nat (b + 0)%nat) by (rewrite map_length, seq_length; lia). rewrite (map_nth (fun i => (b + i)%nat)). rewrite seq_nth by lia. lia.
Qed.

Section Parts.
  Variables (r : nat) (d : R).

  Lemma pads_sleepers base specs : map snd (flat_map tk_pad_els (tracks_of r d base specs)) = flat_map tk_sleepers (tracks_of r d base specs).
  Proof.
    revert base. induction specs as [|[n depth] q IH]; intros base; [reflexivity|]. cbn [tracks_of flat_map]. rewrite map_app, IH. f_equal.
    cbn [the_track tk_pad_els tk_sleepers]. rewrite map_map. cbn [snd]. apply map_seq_shift.
  Qed.
  Lemma soil_sleepers base specs :
    map fst (flat_map snd (map (fun t => (tk_soil_nodes t, tk_soil_els t)) (tracks_of r d base specs))) = flat_map tk_sleepers (tracks_of r d base specs).
  Proof.
    rewrite flat_map_snd. revert base. induction specs as [|[n depth] q IH]; intros base; [reflexivity|]. cbn [tracks_of flat_map]. rewrite map_app, IH. f_equal.
    cbn [the_track tk_soil_els tk_sleepers]. rewrite map_map. cbn [fst]. apply map_seq_shift.
  Qed.
  Lemma pads_nodes base specs : flat_map tk_pad_nodes (tracks_of r d base specs) = flat_map (fun e => [fst e; snd e]) (flat_map tk_pad_els (tracks_of r d base specs)).
  Proof.
    revert base. induction specs as [|[n depth] q IH]; intros base; [reflexivity|]. cbn [tracks_of flat_map]. rewrite flat_map_app, IH. f_equal.
    cbn [the_track tk_pad_els tk_pad_nodes]. rewrite !flat_map_concat_map, map_map. reflexivity.
  Qed.

  Hypothesis hr : (1 <= r)%nat.

  Lemma sleeper_in base n depth i : (i < n)%nat -> In (sleeper_node base n r d i) (track_nodes base n r d depth).
  Proof. intros hi. unfold track_nodes. apply in_or_app. right. apply in_or_app. left. apply in_map, in_seq. lia. Qed.
  Lemma bottom_in base n depth i : (i < n)%nat -> In (bottom_node base n r d depth i) (track_nodes base n r d depth).
  Proof. intros hi. unfold track_nodes. apply in_or_app. right. apply in_or_app. right. apply in_map, in_seq. lia. Qed.

  Lemma pads_above c base specs N : all_placed r d c base specs N -> forall a b, In (a, b) (flat_map tk_pad_els (tracks_of r d base specs)) ->
    In a (flat_map tk_rail_nodes (tracks_of r d base specs)) /\ tx (c a) = tx (c b).
  Proof.
    revert base N. induction specs as [|[n depth] q IH]; intros base N hp a b hab; [contradiction|]. cbn [all_placed] in hp. destruct hp as [p1 p2].
    cbn [tracks_of flat_map] in hab |- *. apply in_app_iff in hab. destruct hab as [hab|hab].
    - cbn [the_track tk_pad_els tk_rail_nodes] in *. apply in_map_iff in hab. destruct hab as [i [e hi]]. apply in_seq in hi. inversion e; subst. assert ((i * r < n * r)%nat) by nia. split.
      + apply in_or_app. left. apply in_seq. lia.
      + rewrite (rail_at r d hr c base n depth N (i * r) p1) by lia. pose proof (p1 _ (sleeper_in base n depth i ltac:(lia))) as e1.
        cbn [sleeper_node new_node n_id n_coord] in e1. rewrite e1. unfold moved. cbn [tx]. rewrite plus_INR, mult_INR. pose proof (INRr r hr). field. lra.
    - destruct (IH _ _ p2 a b hab) as [h1 h2]. split; [apply in_or_app; right; exact h1|exact h2].
  Qed.

  Lemma soil_below c base specs N : all_placed r d c base specs N ->
    Forall2 (fun part spec => length (snd part) = fst spec /\ fst part = flat_map (fun e => [fst e; snd e]) (snd part) /\
               forall a b, In (a, b) (snd part) -> c b = T3 (tx (c a)) (-1 - snd spec) 0)
      (map (fun t => (tk_soil_nodes t, tk_soil_els t)) (tracks_of r d base specs)) specs.
  Proof.
    revert base N. induction specs as [|[n depth] q IH]; intros base N hp; [constructor|]. cbn [all_placed] in hp. destruct hp as [p1 p2].
    cbn [tracks_of map]. constructor; [|exact (IH _ _ p2)]. cbn [fst snd the_track tk_soil_nodes tk_soil_els]. split; [rewrite map_length, seq_length; reflexivity|]. split.
    - rewrite !flat_map_concat_map, map_map. reflexivity.
    - intros a b hab. apply in_map_iff in hab. destruct hab as [i [e hi]]. apply in_seq in hi. inversion e; subst.
      pose proof (p1 _ (sleeper_in base n depth i ltac:(lia))) as e1. pose proof (p1 _ (bottom_in base n depth i ltac:(lia))) as e2.
      cbn [sleeper_node bottom_node new_node n_id n_coord] in e1, e2. rewrite e1, e2. reflexivity.
  Qed.

  Lemma nodes_split base specs : Permutation (seq base (total r specs))
    (flat_map tk_rail_nodes (tracks_of r d base specs) ++ flat_map tk_sleepers (tracks_of r d base specs) ++ map snd (flat_map tk_soil_els (tracks_of r d base specs))).
  Proof.
    assert (e : seq base (total r specs) = flat_map (fun t => tk_rail_nodes t ++ tk_sleepers t ++ map snd (tk_soil_els t)) (tracks_of r d base specs)).
    { revert base. induction specs as [|[n depth] q IH]; intros base; [reflexivity|]. cbn [total tracks_of flat_map]. rewrite seq_app, IH. f_equal.
      cbn [the_track tk_rail_nodes tk_sleepers tk_soil_els]. rewrite map_map. cbn [snd]. rewrite map_seq_shift. unfold size. rewrite !seq_app, <- app_assoc. f_equal. f_equal. f_equal. lia. }
    rewrite e, flat_map_both. apply Permutation_app_head. rewrite flat_map_both. apply Permutation_app_head.
    clear. induction (tracks_of r d base specs) as [|t l IH]; [reflexivity|]. cbn [flat_map]. rewrite map_app, IH. reflexivity.
  Qed.
  Lemma els_split base specs : Permutation (flat_map tk_mesh_els (tracks_of r d base specs))
    (flat_map tk_rail_els (tracks_of r d base specs) ++ flat_map tk_pad_els (tracks_of r d base specs) ++ flat_map tk_soil_els (tracks_of r d base specs)).
  Proof.
    assert (e : flat_map tk_mesh_els (tracks_of r d base specs) = flat_map (fun t => tk_rail_els t ++ tk_pad_els t ++ tk_soil_els t) (tracks_of r d base specs)).
    { revert base. induction specs as [|[n depth] q IH]; intros base; [reflexivity|]. cbn [tracks_of flat_map]. rewrite IH. reflexivity. }
    rewrite e, flat_map_both. apply Permutation_app_head. apply flat_map_both.
  Qed.
End Parts.

(** Tracks made one after the other for any number of sleepers and soil depths, and then joined: the rail has equally
    spaced nodes and one element between neighbours; pads and soil keep connecting points above each other; the joined
    mesh has exactly the nodes and elements of the parts.  The sleepers: the gap between the last sleeper of a track and
    the first one of the next is [2 * d - d / r]. *)
Theorem C52_joined_tracks_partial (h : tri Z -> Z) (base : nat) (specs : list (nat * R)) (d : R) (r fresh : nat) :
  (1 <= r)%nat -> 1 / 1000000000 < d / INR r -> specs <> [] ->
  (forall n depth, In (n, depth) specs -> (1 <= n)%nat /\ 1 / 1000000000 < depth) ->
  exists ts, create_tracks h base specs d r = Ok ts /\ length ts = length specs /\
    ((forall t n, In t ts -> In n (tk_objects t) -> (n_id n < fresh)%nat) ->
     exists j c mesh els, combine_horizontal_tracks h (heap_of ts) fresh ts d r = Ok (j, c, mesh, els) /\
       (* rail *)
       length (jn_rail_nodes j) = (sleeper_count specs * r + (length specs - 1) * (r - 1))%nat /\
       (forall i, (i < length (jn_rail_nodes j))%nat -> c (nth i (jn_rail_nodes j) 0%nat) = T3 (INR i * (d / INR r)) 0 0) /\
       in_line (jn_rail_nodes j) (jn_rail_els j) /\
       (* sleepers, and the pads that carry the rail on them *)
       map c (jn_sleepers j) = map (fun x => T3 x (-1) 0) (sleeper_places (2 * d - d / INR r) d 0 specs) /\
       map snd (jn_pad_els j) = jn_sleepers j /\
       (forall a b, In (a, b) (jn_pad_els j) -> In a (jn_rail_nodes j) /\ tx (c a) = tx (c b)) /\
       jn_pad_nodes j = flat_map (fun e => [fst e; snd e]) (jn_pad_els j) /\
       (* soil, one part per track *)
       map fst (flat_map snd (jn_soil j)) = jn_sleepers j /\
       Forall2 (fun part spec => length (snd part) = fst spec /\ fst part = flat_map (fun e => [fst e; snd e]) (snd part) /\
                  forall a b, In (a, b) (snd part) -> c b = T3 (tx (c a)) (-1 - snd spec) 0) (jn_soil j) specs /\
       (* mesh *)
       NoDup mesh /\ Permutation mesh (jn_rail_nodes j ++ jn_sleepers j ++ map snd (flat_map snd (jn_soil j))) /\
       Permutation els (jn_rail_els j ++ jn_pad_els j ++ flat_map snd (jn_soil j))).
Proof.
  intros hr hd hne hg. exists (tracks_of r d base specs). split; [apply create_tracks_spec; auto|].
  split; [clear; revert base; induction specs as [|[n depth] q IH]; intros base; cbn; auto|].
  intros hfresh. assert (hb : (base + total r specs <= fresh)%nat).
  { destruct (total r specs) as [|k] eqn:e; [|].
    - exfalso. destruct specs as [|[n depth] q]; [congruence|]. destruct (hg n depth (or_introl eq_refl)). cbn [total] in e. unfold size in e. nia.
    - assert (hin : In (base + k)%nat (seq base (total r specs))) by (apply in_seq; lia). rewrite <- (tracks_ids r d hr) in hin.
      apply in_map_iff in hin. destruct hin as [n [en hn]]. apply in_flat_map in hn. destruct hn as [t [ht hnt]]. specialize (hfresh t n ht hnt). lia. }
  destruct (combine_spec r d hr hd h base specs fresh hg hne hb) as [j [c [es [e0 [[k1 [k2 [k3 [k4 k5]]]] [e2 [e3 [e4 [e5 [e6 [e7 e8]]]]]]]]]]].
  exists j, c. eexists. eexists. split; [exact e0|]. split; [exact k1|]. split; [intros i hi; apply k3; lia|]. split; [rewrite k4; apply chain_spec|].
  split; [|split; [|split; [|split; [|split; [|split; [|split; [|split]]]]]]].
  - rewrite e3. rewrite (sleepers_at r d hr c base specs 0 hg e2). f_equal. f_equal. cbn [INR]. ring.
  - rewrite e5, e3. apply (pads_sleepers r d).
  - intros a b hab. rewrite e5 in hab. destruct (pads_above r d hr c base specs 0 e2 a b hab) as [h1 h2]. split; [|exact h2].
    apply (Permutation_in a (Permutation_sym e7)). apply in_or_app. left. exact h1.
  - rewrite e4, e5. apply (pads_nodes r d).
  - rewrite e6, e3. apply (soil_sleepers r d).
  - rewrite e6. apply (soil_below r d hr c base specs 0 e2).
  - apply NoDup_app_intro; [apply seq_NoDup|apply seq_NoDup|]. intros i hi1 hi2. apply in_seq in hi1, hi2. lia.
  - rewrite (nodes_split r d hr base specs), e7, e3, e6. rewrite <- !app_assoc. apply Permutation_app_head. rewrite flat_map_snd.
    rewrite !app_assoc. rewrite (Permutation_app_comm _ (seq fresh _)). rewrite !app_assoc. reflexivity.
  - rewrite (els_split r d base specs), e8, e5, e6, flat_map_snd. rewrite <- !app_assoc. apply Permutation_app_head.
    rewrite !app_assoc. rewrite (Permutation_app_comm _ es). rewrite !app_assoc. reflexivity.
Qed.
Print Assumptions C52_joined_tracks_partial.

(** With one rail element per sleeper also the sleepers continue at the sleeper distance *)
Theorem C52_one_element_per_sleeper (h : tri Z -> Z) (base : nat) (specs : list (nat * R)) (d : R) (fresh : nat) :
  1 / 1000000000 < d -> specs <> [] ->
  (forall n depth, In (n, depth) specs -> (1 <= n)%nat /\ 1 / 1000000000 < depth) ->
  exists ts, create_tracks h base specs d 1 = Ok ts /\
    ((forall t n, In t ts -> In n (tk_objects t) -> (n_id n < fresh)%nat) ->
     exists j c mesh els, combine_horizontal_tracks h (heap_of ts) fresh ts d 1 = Ok (j, c, mesh, els) /\
       length (jn_rail_nodes j) = sleeper_count specs /\ length (jn_sleepers j) = sleeper_count specs /\
       (forall i, (i < sleeper_count specs)%nat -> c (nth i (jn_rail_nodes j) 0%nat) = T3 (INR i * d) 0 0 /\
                                                   c (nth i (jn_sleepers j) 0%nat) = T3 (INR i * d) (-1) 0)).
Proof.
  intros hd hne hg. assert (hd1 : 1 / 1000000000 < d / INR 1) by (cbn [INR]; lra).
  destruct (C52_joined_tracks_partial h base specs d 1 fresh ltac:(lia) hd1 hne hg) as [ts [e1 [_ e2]]]. exists ts. split; [exact e1|]. intros hf.
  destruct (e2 hf) as [j [c [mesh [els [k0 [k1 [k2 [_ [k3 _]]]]]]]]]. exists j, c, mesh, els. split; [exact k0|].
  rewrite Nat.sub_diag, Nat.mul_0_r, Nat.mul_1_r, Nat.add_0_r in k1. split; [exact k1|].
  assert (hpl : forall x, (forall n depth, In (n, depth) specs -> (1 <= n)%nat /\ 1 / 1000000000 < depth) ->
    sleeper_places (2 * d - d / INR 1) d x specs = map (fun i => x + INR i * d) (seq 0 (sleeper_count specs))).
  { clear. induction specs as [|[n depth] q IH]; intros x hg; [reflexivity|]. cbn [sleeper_places].
    change (sleeper_count ((n, depth) :: q)) with (n + sleeper_count q)%nat. rewrite seq_app, map_app. f_equal.
    rewrite IH by (intros m e hm; apply hg; right; auto). destruct (hg n depth (or_introl eq_refl)) as [hn _].
    cbn [Nat.add]. rewrite <- (map_seq_shift n), map_map. apply map_ext. intros i. rewrite plus_INR, minus_INR by lia. cbn [INR]. field. }
  rewrite hpl in k3 by exact hg. assert (hl : length (jn_sleepers j) = sleeper_count specs).
  { apply (f_equal (@length _)) in k3. rewrite !map_length, seq_length in k3. exact k3. }
  split; [exact hl|]. intros i hi. split.
  - rewrite k2 by lia. f_equal. cbn [INR]. field.
  - assert (e : nth i (map c (jn_sleepers j)) (c 0%nat) = c (nth i (jn_sleepers j) 0%nat)) by apply map_nth.
    rewrite <- e, k3, map_map. rewrite (nth_indep _ _ (T3 (0 + INR 0 * d) (-1) 0)) by (rewrite map_length, seq_length; lia).
    rewrite (map_nth (fun i => T3 (0 + INR i * d) (-1) 0)). rewrite seq_nth by lia. f_equal. cbn [Nat.add]. ring.
Qed.
Print Assumptions C52_one_element_per_sleeper.

(** The full statement is wrong for every track joined with two or more rail elements per sleeper: the sleepers at the
    joint are further apart than the sleeper distance *)
Theorem C52_sleepers_refuted (h : tri Z -> Z) (base : nat) (n1 n2 : nat) (depth1 depth2 : R) (rest : list (nat * R)) (d : R) (r fresh : nat) :
  (2 <= r)%nat -> 1 / 1000000000 < d / INR r ->
  (forall n depth, In (n, depth) ((n1, depth1) :: (n2, depth2) :: rest) -> (1 <= n)%nat /\ 1 / 1000000000 < depth) ->
  exists ts, create_tracks h base ((n1, depth1) :: (n2, depth2) :: rest) d r = Ok ts /\
    ((forall t n, In t ts -> In n (tk_objects t) -> (n_id n < fresh)%nat) ->
     exists j c mesh els, combine_horizontal_tracks h (heap_of ts) fresh ts d r = Ok (j, c, mesh, els) /\
       tx (c (nth n1 (jn_sleepers j) 0%nat)) - tx (c (nth (n1 - 1) (jn_sleepers j) 0%nat)) = 2 * d - d / INR r /\
       d < 2 * d - d / INR r).
Proof.
  intros hr hd hg. destruct (C52_joined_tracks_partial h base ((n1, depth1) :: (n2, depth2) :: rest) d r fresh ltac:(lia) hd ltac:(discriminate) hg) as [ts [e1 [_ e2]]].
  exists ts. split; [exact e1|]. intros hf. destruct (e2 hf) as [j [c [mesh [els [k0 [k1 [k2 [_ [k3 _]]]]]]]]]. exists j, c, mesh, els. split; [exact k0|].
  destruct (hg n1 depth1 (or_introl eq_refl)) as [hn1 _]. destruct (hg n2 depth2 (or_intror (or_introl eq_refl))) as [hn2 _].
  assert (he : forall i, c (nth i (jn_sleepers j) 0%nat) = nth i (map c (jn_sleepers j)) (c 0%nat)) by (intros; symmetry; apply map_nth).
  assert (hr1 : 2 <= INR r) by (change 2 with (INR 2); apply le_INR; lia). split.
  - rewrite !he, k3. cbn [sleeper_places]. rewrite map_app, map_map.
    rewrite (app_nth2 _ _ (c 0%nat)) by (rewrite map_length, seq_length; lia). rewrite (app_nth1 _ _ (c 0%nat)) by (rewrite map_length, seq_length; lia).
    rewrite map_length, seq_length, Nat.sub_diag. rewrite (nth_indep (map _ (seq 0 n1)) _ (T3 (0 + INR 0 * d) (-1) 0)) by (rewrite map_length, seq_length; lia).
    rewrite (map_nth (fun i => T3 (0 + INR i * d) (-1) 0)). rewrite seq_nth by lia. destruct n2 as [|n2]; [lia|]. cbn [seq map app nth tx Nat.add INR]. ring.
  - assert (d / INR r < d); [|lra]. assert (0 < d / INR r) by lra. assert (d = d / INR r * INR r) by (field; lra). nra.
Qed.
Print Assumptions C52_sleepers_refuted.

Example C52_example : (forall n depth, In (n, depth) [(3%nat, 1); (2%nat, 1.5); (4%nat, 2)] -> (1 <= n)%nat /\ 1 / 1000000000 < depth) /\
  (2 <= 3)%nat /\ 1 / 1000000000 < 0.6 / INR 3.
Proof.
  split; [|cbn [INR]; split; [lia|lra]]. intros n depth [e|[e|[e|[]]]]; inversion e; subst; (split; [lia|lra]).
Qed.

(** ** C53 *)

(** At a rail node with neighbours on both sides the rail is split into the elements before, the two elements at the
    hinge with half of the hinge stiffness at the hinge node, and the elements after *)
Theorem C53_hinge_interior_partial (c : heap R) (before after : list nat) (a h b : nat) (els : list (nat * nat)) (k x : R) :
  let nodes := (before ++ [a]) ++ h :: b :: after in
  in_line nodes els -> near (tx (c h)) x ->
  (forall n, In n (before ++ [a]) -> ~ near (tx (c n)) x) -> (forall n, In n ((before ++ [a]) ++ b :: after) -> ~ coincide (c n) (c h)) ->
  exists e1 e2, els = e1 ++ [(a, h); (h, b)] ++ e2 /\ in_line (before ++ [a]) e1 /\ in_line (b :: after) e2 /\
    add_semi_rigid_hinge c nodes els k x =
      Ok ((before ++ [a], e1), [mkHingePart (a, h) None (Some (k / 2)); mkHingePart (h, b) (Some (k / 2)) None], (b :: after, e2)).
Proof.
  intros nodes hl hx h1 h2. apply line_is_chain in hl. subst els. exists (chain (before ++ [a])), (chain (b :: after)).
  split; [unfold nodes; rewrite chain_app; reflexivity|]. split; [apply chain_spec|]. split; [apply chain_spec|].
  apply hinge_interior; auto. intros n hn. destruct (same_node c n h) eqn:e; [|reflexivity]. unfold same_node in e. apply coords_equal_spec in e. exfalso. exact (h2 n hn e).
Qed.
Print Assumptions C53_hinge_interior_partial.

(** without a node at the position an error is raised *)
Theorem C53_hinge_missing (c : heap R) (nodes : list nat) (els : list (nat * nat)) (k x : R) :
  (forall n, In n nodes -> ~ near (tx (c n)) x) -> add_semi_rigid_hinge c nodes els k x = Err ErrOther.
Proof. apply hinge_missing. Qed.
Print Assumptions C53_hinge_missing.

(** The full statement is wrong at the ends.  At the first node the first element behind the hinge element ends up in the
    part before the hinge (which has no nodes); at the last node an error is raised. *)
Theorem C53_hinge_ends_refuted (c : heap R) (k x : R) (h : nat) :
  (forall b b' after els, in_line (h :: b :: b' :: after) els -> near (tx (c h)) x -> (forall n, In n (b :: b' :: after) -> ~ coincide (c n) (c h)) ->
     exists e2, els = (h, b) :: (b, b') :: e2 /\
       add_semi_rigid_hinge c (h :: b :: b' :: after) els k x = Ok (([], [(b, b')]), [mkHingePart (h, b) (Some (k / 2)) None], (b :: b' :: after, e2))) /\
  (forall before a els, in_line ((before ++ [a]) ++ [h]) els -> near (tx (c h)) x -> (forall n, In n (before ++ [a]) -> ~ near (tx (c n)) x) ->
     (forall n, In n (before ++ [a]) -> ~ coincide (c n) (c h)) ->
     add_semi_rigid_hinge c ((before ++ [a]) ++ [h]) els k x = Err ErrIndex).
Proof.
  assert (hs : forall l, (forall n, In n l -> ~ coincide (c n) (c h)) -> forall n, In n l -> same_node c n h = false).
  { intros l hl n hn. destruct (same_node c n h) eqn:e; [|reflexivity]. unfold same_node in e. apply coords_equal_spec in e. exfalso. exact (hl n hn e). }
  split.
  - intros b b' after els hl hx h2. apply line_is_chain in hl. subst els. exists (chain (b' :: after)). split; [reflexivity|].
    rewrite (hinge_first c k x h hx b (b' :: after) (hs _ h2)). reflexivity.
  - intros before a els hl hx h1 h2. apply line_is_chain in hl. subst els. apply hinge_last; [exact hx|exact h1|exact (hs _ h2)].
Qed.
Print Assumptions C53_hinge_ends_refuted.

Definition C53_points (i : nat) : tri R := T3 (INR i) 0 0.
Example C53_example :
  in_line [0; 1; 2; 3]%nat [(0, 1); (1, 2); (2, 3)]%nat /\ near (tx (C53_points 1)) 1 /\ ~ near (tx (C53_points 0)) 1 /\
  (forall n, In n [0; 2; 3]%nat -> ~ coincide (C53_points n) (C53_points 1)).
Proof.
  split; [|split; [|split]].
  - split; [reflexivity|]. intros i hi. cbn [length] in hi. destruct i as [|[|[|i]]]; [reflexivity|reflexivity|reflexivity|lia].
  - unfold near, C53_points. cbn [tx INR]. rewrite Rminus_diag_eq, Rabs_R0 by reflexivity. rewrite Rabs_R1. lra.
  - unfold near, C53_points. cbn [tx INR]. rewrite Rabs_R1, Rabs_left; lra.
  - intros n hn hc. specialize (hc DX). cbn [tget] in hc. unfold C53_points in hc. cbn [tx] in hc.
    destruct hn as [<-|[<-|[<-|[]]]]; cbn [INR] in hc; [rewrite Rabs_left in hc|rewrite Rabs_right in hc|rewrite Rabs_right in hc]; lra.
Qed.

(** ** C56 *)

(** The boundary has, for each element in order, its lowest node (the first one when there are several); an element
    without nodes raises *)
Theorem C56_bottom (c : heap R) (els : list (list nat)) :
  ((forall e, In e els -> e <> []) ->
   exists out, bottom_boundary c els = Ok out /\
     Forall2 (fun e b => exists p q, e = p ++ b :: q /\ (forall n, In n p -> ty (c b) < ty (c n)) /\ (forall n, In n q -> ty (c b) <= ty (c n))) els out) /\
  (In [] els -> bottom_boundary c els = Err ErrIndex).
Proof. split; [apply bottom_spec|apply bottom_error]. Qed.
Print Assumptions C56_bottom.

(** hence exactly the lowest nodes of the part if each of its elements has exactly one node at the lowest level *)
Theorem C56_bottom_level_partial (c : heap R) (els : list (list nat)) (level : R) :
  (forall e n, In e els -> In n e -> level <= ty (c n)) ->
  (forall e, In e els -> exists n, In n e /\ ty (c n) = level /\ forall m, In m e -> ty (c m) = level -> m = n) ->
  exists out, bottom_boundary c els = Ok out /\ (els <> [] -> out <> []) /\
    forall n, In n out <-> (exists e, In e els /\ In n e /\ ty (c n) = level).
Proof.
  intros h1 h2. destruct (bottom_spec c els) as [out [e1 e2]].
  { intros e he ->. destruct (h2 [] he) as [n [[] _]]. }
  exists out. split; [exact e1|]. split; [intros hne ->; inversion e2; subst; congruence|].
  clear e1. induction e2 as [|e b els out hb hf IH]; intros n; [split; [contradiction|intros [e [[] _]]]|].
  assert (hlow : forall m, In m e -> ty (c b) <= ty (c m)).
  { destruct hb as [p [q [-> [k1 k2]]]]. intros m hm. apply in_app_iff in hm. destruct hm as [hm|[<-|hm]]; [specialize (k1 m hm); lra|lra|auto]. }
  assert (hin : In b e) by (destruct hb as [p [q [-> _]]]; apply in_or_app; right; left; reflexivity).
  destruct (h2 e (or_introl eq_refl)) as [n0 [m1 [m2 m3]]].
  assert (hbl : ty (c b) = level) by (apply Rle_antisym; [rewrite <- m2; auto|apply (h1 e); [left; reflexivity|auto]]).
  assert (hb0 : b = n0) by (apply m3; auto).
  specialize (IH (fun e' n' he => h1 e' n' (or_intror he)) (fun e' he => h2 e' (or_intror he)) n). split.
  - intros [<-|hn]; [exists e; split; [left; reflexivity|auto]|]. apply IH in hn. destruct hn as [e' [he' hn]]. exists e'. split; [right; auto|auto].
  - intros [e' [[<-|he'] [hn hl]]]; [left; rewrite hb0; symmetry; apply m3; auto|]. right. apply IH. exists e'. auto.
Qed.
Print Assumptions C56_bottom_level_partial.

(** wrong in full: when the elements end at different depths (tracks with different soil depths), nodes that are not at the
    lowest level are fixed as well; when an element has two lowest nodes, only one of them is fixed *)
Theorem C56_bottom_level_refuted :
  (exists (c : heap R) els out n m, bottom_boundary c els = Ok out /\ In n out /\ In m (concat els) /\ ty (c m) < ty (c n)) /\
  (exists (c : heap R) els out m, bottom_boundary c els = Ok out /\ In m (concat els) /\ (forall n, In n (concat els) -> ty (c m) <= ty (c n)) /\ ~ In m out).
Proof.
  split.
  - exists (fun i => T3 0 (- INR i) 0), [[0; 1]; [0; 2]]%nat, [1; 2]%nat, 1%nat, 2%nat. split; [|split; [|split]].
    + unfold bottom_boundary, lowest. cbn [ty rbind INR]. destruct (nltbP (- (1)) (- 0)) as [e|e]; [|lra]. destruct (nltbP (- (1 + 1)) (- 0)) as [e'|e']; [|lra]. reflexivity.
    + left. reflexivity.
    + cbn. auto.
    + cbn [ty INR]. lra.
  - exists (fun i => T3 (INR i) 0 0), [[0; 1]]%nat, [0]%nat, 1%nat. split; [|split; [|split]].
    + unfold bottom_boundary, lowest. cbn [ty rbind INR]. destruct (nltbP 0 0) as [e|e]; [lra|]. reflexivity.
    + cbn. auto.
    + intros n hn. cbn [ty]. lra.
    + intros [e|[]]. discriminate.
Qed.
Print Assumptions C56_bottom_level_refuted.

Example C56_example : let c : heap R := fun i => T3 (INR i) (- INR (i mod 2)) 0 in
  (forall e n, In e [[0; 1]; [2; 3]; [5; 4]]%nat -> In n e -> -1 <= ty (c n)) /\
  (forall e, In e [[0; 1]; [2; 3]; [5; 4]]%nat -> exists n, In n e /\ ty (c n) = -1 /\ forall m, In m e -> ty (c m) = -1 -> m = n).
Proof.
  cbv zeta. split.
  - intros e n he hn. destruct he as [<-|[<-|[<-|[]]]]; destruct hn as [<-|[<-|[]]]; cbn; lra.
  - intros e [<-|[<-|[<-|[]]]]; [exists 1%nat|exists 3%nat|exists 5%nat]; (split; [cbn; auto|]; split; [cbn; lra|]; intros m [<-|[<-|[]]] hm; cbn in hm; [|]; try reflexivity; lra).
Qed.
