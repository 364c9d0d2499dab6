(** * Proofs about joined tracks *)

From Coq Require Import Reals List Bool ZArith Arith Permutation Lia Lra Psatz.
From Verif Require Import Num PyBase Model_Geometry Model_System Model_Element Model_Moving Model_Coupled Model_Mesh
  Spec_Geometry Spec_Mesh Proofs_Geometry Proofs_System Proofs_Coupled Proofs_Mesh.
Import ListNotations.
Local Open Scope R_scope.

(** ** joined tracks *)

Lemma max_of_val (l : list R) m : In m l -> (forall x, In x l -> x <= m) -> max_of l = Ok m.
Proof.
  destruct l as [|a l]; [contradiction|]. intros h1 h2. unfold max_of. f_equal.
  destruct (fold_max l a) as [h3 h4]. apply Rle_antisym; [apply h2; exact h3|apply h4; exact h1].
Qed.

Lemma fold_hset (f : nat -> tri R -> tri R) l c : NoDup l -> forall i,
  fold_left (fun c i => hset c i (f i (c i))) l c i = if in_dec Nat.eq_dec i l then f i (c i) else c i.
Proof.
  revert c. induction l as [|a l IH]; intros c hn i; [reflexivity|]. inversion hn; subst. cbn [fold_left]. rewrite IH by auto.
  unfold hset at 1 2. destruct (in_dec Nat.eq_dec i l) as [hi|hi].
  - destruct (Nat.eqb_spec i a) as [->|ne]; [contradiction|]. destruct (in_dec Nat.eq_dec i (a :: l)) as [_|hc]; [reflexivity|exfalso; apply hc; right; auto].
  - destruct (Nat.eqb_spec i a) as [->|ne].
    + destruct (in_dec Nat.eq_dec a (a :: l)) as [_|hc]; [reflexivity|exfalso; apply hc; left; auto].
    + destruct (in_dec Nat.eq_dec i (a :: l)) as [[e|hc]|_]; [congruence|contradiction|reflexivity].
Qed.

Lemma chain_spec l : in_line l (chain l).
Proof.
  induction l as [|a l IH]; [split; [reflexivity|cbn; lia]|]. destruct l as [|b l]; [split; [reflexivity|cbn; lia]|].
  destruct IH as [h1 h2]. change (chain (a :: b :: l)) with ((a, b) :: chain (b :: l)). split.
  - cbn [length] in *. rewrite h1. lia.
  - intros [|i] hi; [reflexivity|]. cbn [nth_error]. rewrite h2 by (cbn [length] in *; lia). reflexivity.
Qed.

Lemma line_is_chain l es : in_line l es -> es = chain l.
Proof.
  intros [h1 h2]. destruct (chain_spec l) as [k1 k2]. apply (nth_ext _ _ (0, 0)%nat (0, 0)%nat); [congruence|].
  intros i hi. assert (hl : (S i < length l)%nat) by lia. pose proof (h2 i hl) as e1. pose proof (k2 i hl) as e2.
  rewrite (nth_error_nth _ _ _ e1), (nth_error_nth _ _ _ e2). reflexivity.
Qed.

Lemma chain_app l a b q : chain ((l ++ [a]) ++ b :: q) = chain (l ++ [a]) ++ (a, b) :: chain (b :: q).
Proof.
  induction l as [|x l IH]; [reflexivity|]. destruct l as [|y l]; [reflexivity|]. cbn [app] in *.
  change (chain (x :: y :: (l ++ [a]) ++ b :: q)) with ((x, y) :: chain (y :: (l ++ [a]) ++ b :: q)). rewrite IH. reflexivity.
Qed.

Lemma chain_join l a mid b q : chain ((l ++ [a]) ++ mid ++ b :: q) = chain (l ++ [a]) ++ chain (a :: mid ++ [b]) ++ chain (b :: q).
Proof.
  revert l a. induction mid as [|m mid IH]; intros l a; [cbn [app]; rewrite chain_app; reflexivity|].
  replace ((l ++ [a]) ++ (m :: mid) ++ b :: q) with (((l ++ [a]) ++ [m]) ++ mid ++ b :: q) by (rewrite <- !app_assoc; reflexivity).
  rewrite IH. change (a :: (m :: mid) ++ [b]) with (a :: m :: mid ++ [b]). change (chain (a :: m :: mid ++ [b])) with ((a, m) :: chain (m :: mid ++ [b])).
  rewrite chain_app. rewrite <- app_assoc. reflexivity.
Qed.

Lemma coords_sym a b : coords_equal a b = coords_equal b a.
Proof. apply eq_true_iff_eq. rewrite !coords_equal_spec. split; intros h t; rewrite Rabs_minus_sym; apply h. Qed.

Section Join.
  Variables (r : nat) (d : R).
  Hypothesis hr : (1 <= r)%nat.
  Hypothesis hd : 1 / 1000000000 < d / INR r.
  Let s := d / INR r.

  Definition size (n : nat) : nat := (n * r + n + n)%nat.
  Definition moved (dx : R) (p : tri R) : tri R := T3 (tx p + dx) (ty p) (tr p).

  (** the track with first object [base] starts at [N] spacings *)
  Definition placed_at (c : heap R) (base n : nat) (depth : R) (N : nat) : Prop :=
    forall a, In a (track_nodes base n r d depth) -> c (n_id a) = moved (INR N * s) (n_coord a).
  Fixpoint all_placed (c : heap R) (base : nat) (specs : list (nat * R)) (N : nat) : Prop :=
    match specs with
    | [] => True
    | (n, depth) :: q => placed_at c base n depth N /\ all_placed c (base + size n) q (N + n * r + (r - 1))
    end.
  Fixpoint all_local (c : heap R) (base : nat) (specs : list (nat * R)) : Prop :=
    match specs with
    | [] => True
    | (n, depth) :: q => placed_at c base n depth 0 /\ all_local c (base + size n) q
    end.
  Fixpoint tracks_of (base : nat) (specs : list (nat * R)) : list (track R) :=
    match specs with
    | [] => []
    | (n, depth) :: q => the_track base n r d depth :: tracks_of (base + size n) q
    end.
  Definition good (specs : list (nat * R)) : Prop := forall n depth, In (n, depth) specs -> (1 <= n)%nat /\ 1 / 1000000000 < depth.

  Lemma INRr : 0 < INR r.
  Proof. exact (rpos 0 r hr). Qed.
  Lemma spos : 0 < s.
  Proof. unfold s. lra. Qed.
  Lemma d_eq : d = INR r * s.
  Proof. unfold s. field. pose proof (INRr). lra. Qed.

  Lemma mesh_ids base n depth : map (@n_id R) (reorder_node_ids (track_nodes base n r d depth)) = seq base (size n).
  Proof.
    unfold size. rewrite <- (track_ids base n r d depth hr). unfold reorder_node_ids. generalize 0%nat. induction (track_nodes base n r d depth) as [|a l IH]; intros k; [reflexivity|].
    cbn. f_equal. apply IH.
  Qed.

  Lemma create_tracks_spec h base specs : good specs -> create_tracks h base specs d r = Ok (tracks_of base specs).
  Proof.
    revert base. induction specs as [|[n depth] q IH]; intros base hg; [reflexivity|]. cbn [create_tracks tracks_of].
    destruct (hg n depth (or_introl eq_refl)) as [h1 h2]. rewrite (create_spec base n r d depth hr hd h2 h). cbn [rbind].
    cbn [tk_objects the_track]. rewrite <- (map_length (@n_id R)), (track_ids base n r d depth hr), seq_length. fold (size n).
    rewrite IH by (intros m e hm; apply hg; right; auto). reflexivity.
  Qed.

  (** positions within a track *)
  Lemma track_x base n depth a : In a (track_nodes base n r d depth) -> exists k, (k <= n * r - 1)%nat /\ tx (n_coord a) = INR k * s.
  Proof.
    unfold track_nodes. rewrite !in_app_iff, !in_map_iff. pose proof (INRr).
    intros [[i [<- hi]]|[[i [<- hi]]|[i [<- hi]]]]; apply in_seq in hi.
    - exists i. split; [lia|]. cbn. unfold s. field. lra.
    - exists (i * r)%nat. split; [nia|]. cbn. rewrite mult_INR. unfold s. field. lra.
    - exists (i * r)%nat. split; [nia|]. cbn. rewrite mult_INR. unfold s. field. lra.
  Qed.

  Lemma last_rail base n depth : (1 <= n)%nat -> In (rail_node base r d (n * r - 1)) (track_nodes base n r d depth).
  Proof. intros h. unfold track_nodes. apply in_or_app. left. apply in_map. apply in_seq. nia. Qed.

  Lemma track_max c base n depth N : (1 <= n)%nat -> placed_at c base n depth N ->
    max_of (map (fun i => tx (c i)) (seq base (size n))) = Ok (INR (N + n * r - 1) * s).
  Proof.
    intros hn hp. unfold size. rewrite <- (track_ids base n r d depth hr), map_map. pose proof spos. pose proof (INRr).
    assert (hnr : (1 <= n * r)%nat) by nia. apply max_of_val.
    - apply in_map_iff. exists (rail_node base r d (n * r - 1)). split; [|apply last_rail; auto]. rewrite (hp _ (last_rail base n depth hn)).
      cbn [moved tx rail_node n_coord new_node]. rewrite !minus_INR, plus_INR by lia. cbn [INR]. unfold s. field. lra.
    - intros x hx. apply in_map_iff in hx. destruct hx as [a [<- ha]]. rewrite (hp a ha). cbn [moved tx].
      destruct (track_x base n depth a ha) as [k [hk ->]]. rewrite <- Rmult_plus_distr_r, <- plus_INR. apply Rmult_le_compat_r; [lra|]. apply le_INR. lia.
  Qed.

  Lemma move_mesh_spec c dx b k i : move_mesh c dx (seq b k) i = if (Nat.leb b i && Nat.ltb i (b + k))%bool then moved dx (c i) else c i.
  Proof.
    unfold move_mesh. rewrite (fold_hset (fun i p => moved dx p) (seq b k) c (seq_NoDup k b)).
    destruct (in_dec Nat.eq_dec i (seq b k)) as [h|h].
    - apply in_seq in h. destruct (Nat.leb_spec b i); [|lia]. destruct (Nat.ltb_spec i (b + k)); [|lia]. reflexivity.
    - destruct (Nat.leb_spec b i); [|reflexivity]. destruct (Nat.ltb_spec i (b + k)); [|reflexivity]. exfalso. apply h. apply in_seq. lia.
  Qed.

  Lemma track_range base n depth a : In a (track_nodes base n r d depth) -> (base <= n_id a < base + size n)%nat.
  Proof. intros h. apply (in_map (@n_id R)) in h. rewrite (track_ids base n r d depth hr) in h. apply in_seq in h. exact h. Qed.

  Lemma all_local_ext c c' base specs : (forall i, (base <= i)%nat -> c' i = c i) -> all_local c base specs -> all_local c' base specs.
  Proof.
    revert base. induction specs as [|[n depth] q IH]; intros base he; [trivial|]. cbn [all_local]. intros [h1 h2]. split.
    - intros a ha. rewrite he by (pose proof (track_range base n depth a ha); lia). apply h1. auto.
    - apply IH; auto. intros i hi. apply he. unfold size in hi. lia.
  Qed.

  Lemma all_placed_ext c c' base specs N : (forall i, (base <= i)%nat -> c' i = c i) -> all_placed c base specs N -> all_placed c' base specs N.
  Proof.
    revert base N. induction specs as [|[n depth] q IH]; intros base N he; [trivial|]. cbn [all_placed]. intros [h1 h2]. split.
    - intros a ha. rewrite he by (pose proof (track_range base n depth a ha); lia). apply h1. auto.
    - apply IH; auto. intros i hi. apply he. unfold size in hi. lia.
  Qed.

  Lemma move_spec specs : forall c pbase pn pdepth N base, good specs -> (1 <= pn)%nat -> placed_at c pbase pn pdepth N ->
    (pbase + size pn = base)%nat -> all_local c base specs ->
    exists c', move_meshes c (seq pbase (size pn)) (map (fun t => map (@n_id R) (tk_mesh t)) (tracks_of base specs)) d = Ok c' /\
      all_placed c' base specs (N + pn * r + (r - 1)) /\ forall i, (i < base)%nat -> c' i = c i.
  Proof.
    induction specs as [|[n depth] q IH]; intros c pbase pn pdepth N base hg hpn hp hb hl; [exists c; split; [reflexivity|]; split; [exact I|auto]|].
    cbn [all_local] in hl. destruct hl as [l1 l2]. destruct (hg n depth (or_introl eq_refl)) as [hn hdep].
    cbn [tracks_of map move_meshes the_track tk_mesh]. rewrite (track_max c pbase pn pdepth N hpn hp). cbn [rbind]. rewrite mesh_ids.
    set (c1 := move_mesh c (nadd (INR (N + pn * r - 1) * s) d) (seq base (size n))).
    assert (hc1 : forall i, c1 i = if (Nat.leb base i && Nat.ltb i (base + size n))%bool then moved (INR (N + pn * r + (r - 1)) * s) (c i) else c i).
    { intros i. unfold c1. rewrite move_mesh_spec. replace (nadd (INR (N + pn * r - 1) * s) d) with (INR (N + pn * r + (r - 1)) * s); [reflexivity|].
      rnum. rewrite d_eq at 1. rewrite <- Rmult_plus_distr_r, <- plus_INR. f_equal. f_equal. nia. }
    assert (hp1 : placed_at c1 base n depth (N + pn * r + (r - 1))).
    { intros a ha. pose proof (track_range base n depth a ha) as hra. rewrite hc1. destruct (Nat.leb_spec base (n_id a)); [|lia]. destruct (Nat.ltb_spec (n_id a) (base + size n)); [|lia].
      cbn [andb]. rewrite (l1 a ha). unfold moved. cbn [tx ty tr]. f_equal. cbn [INR]. ring. }
    assert (hl1 : all_local c1 (base + size n) q).
    { apply (all_local_ext c); [|exact l2]. intros i hi. rewrite hc1. destruct (Nat.leb_spec base i); [|reflexivity]. destruct (Nat.ltb_spec i (base + size n)); [lia|reflexivity]. }
    destruct (IH c1 base n depth (N + pn * r + (r - 1))%nat (base + size n)%nat (fun m e hm => hg m e (or_intror hm)) hn hp1 eq_refl hl1) as [c' [e1 [e2 e3]]].
    exists c'. split; [exact e1|]. split.
    - cbn [all_placed]. split; [|exact e2]. intros a ha. rewrite e3 by (pose proof (track_range base n depth a ha); lia). apply hp1. auto.
    - intros i hi. rewrite e3 by lia. rewrite hc1. destruct (Nat.leb_spec base i); [lia|reflexivity].
  Qed.

  (** the heap of fresh tracks *)
  Lemma find_nodes l a : NoDup (map (@n_id R) l) -> In a l -> find (fun n => Nat.eqb (n_id n) (n_id a)) l = Some a.
  Proof.
    induction l as [|b l IH]; intros h1 h2; [contradiction|]. cbn. inversion h1; subst. destruct (Nat.eqb_spec (n_id b) (n_id a)) as [e|e].
    - destruct h2 as [->|h2]; [reflexivity|]. exfalso. apply H1. rewrite e. apply in_map. auto.
    - destruct h2 as [->|h2]; [congruence|]. apply IH; auto.
  Qed.
  Fixpoint total (specs : list (nat * R)) : nat := match specs with [] => 0 | (n, _) :: q => size n + total q end.
  Lemma tracks_ids base specs : map (@n_id R) (flat_map tk_objects (tracks_of base specs)) = seq base (total specs).
  Proof.
    revert base. induction specs as [|[n depth] q IH]; intros base; [reflexivity|]. cbn [tracks_of flat_map total the_track tk_objects]. rewrite map_app, IH, (track_ids base n r d depth hr). fold (size n). symmetry. apply seq_app.
  Qed.
  Lemma heap_local base specs : all_local (heap_of (tracks_of base specs)) base specs.
  Proof.
    assert (h : forall pre, (forall a, In a (flat_map tk_objects (tracks_of base specs)) -> In a pre) -> NoDup (map (@n_id R) pre) ->
      all_local (fun i => match find (fun n => Nat.eqb (n_id n) i) pre with Some n => n_coord n | None => T3 0 0 0 end) base specs).
    { revert base. induction specs as [|[n depth] q IH]; intros base pre h1 h2; [exact I|]. cbn [all_local]. split.
      - intros a ha. rewrite find_nodes; auto; [|apply h1; cbn; apply in_or_app; auto]. unfold moved. cbn [INR]. destruct (n_coord a) as [x y z]. cbn. f_equal. ring.
      - apply IH; auto. intros a ha. apply h1. cbn. apply in_or_app. auto. }
    apply h; [auto|]. rewrite tracks_ids. apply seq_NoDup.
  Qed.

  (** ** the joints *)

  Lemma in_between_spec (a b : R) : in_between (T3 a 0 0) (T3 b 0 0) r = map (fun i => T3 (a + INR i * ((b - a) / INR r)) 0 0) (seq 1 (r - 1)).
  Proof.
    unfold in_between. apply map_ext. intros i. cbn [tx ty tr]. rewrite !nofnat_R. rnum. pose proof INRr. f_equal; field; lra.
  Qed.

  Lemma fold_set (vs : list (tri R)) : forall b c i,
    fold_left (fun c p => hset c (fst p) (snd p)) (combine (seq b (length vs)) vs) c i =
    if (Nat.leb b i && Nat.ltb i (b + length vs))%bool then nth (i - b) vs (c i) else c i.
  Proof.
    induction vs as [|v vs IH]; intros b c i; cbn [length seq combine fold_left].
    - destruct (Nat.leb_spec b i); [|reflexivity]. destruct (Nat.ltb_spec i (b + 0)); [lia|reflexivity].
    - rewrite IH. cbn [fst snd]. unfold hset. destruct (Nat.eqb_spec i b) as [->|ne].
      + destruct (Nat.leb_spec (S b) b); [lia|]. destruct (Nat.leb_spec b b); [|lia]. destruct (Nat.ltb_spec b (b + S (length vs))); [|lia].
        cbn [andb]. rewrite Nat.sub_diag. reflexivity.
      + destruct (Nat.leb_spec (S b) i); destruct (Nat.leb_spec b i); try lia; cbn [andb]; [|reflexivity].
        replace (b + S (length vs))%nat with (S b + length vs)%nat by lia. destruct (Nat.ltb i (S b + length vs)); [|reflexivity].
        replace (i - b)%nat with (S (i - S b)) by lia. reflexivity.
  Qed.

  Lemma track_rail_chain base n depth : tk_rail_els (the_track base n r d depth) = chain (tk_rail_nodes (the_track base n r d depth)).
  Proof.
    apply line_is_chain. cbn [the_track tk_rail_els tk_rail_nodes]. split; [rewrite map_length, !seq_length; reflexivity|].
    intros i hi. rewrite seq_length in hi. rewrite !seq_nth by lia. rewrite nth_error_map.
    rewrite (nth_error_nth' (seq 0 (n * r - 1)) 0%nat) by (rewrite seq_length; lia). cbn [option_map]. rewrite seq_nth by lia. f_equal. f_equal; lia.
  Qed.

  (** the rail of what was joined: node [i] is at [i] spacings *)
  Definition rail_ok (c : heap R) (fresh : nat) (j : joined) (M : nat) : Prop :=
    length (jn_rail_nodes j) = M /\ (1 <= M)%nat /\ (forall i, (i < M)%nat -> c (nth i (jn_rail_nodes j) 0%nat) = T3 (INR i * s) 0 0) /\
    jn_rail_els j = chain (jn_rail_nodes j) /\ (forall i, In i (jn_rail_nodes j) -> (i < fresh)%nat).

  Lemma nth_last (l : list nat) a : nth (length l) (l ++ [a]) 0%nat = a.
  Proof. rewrite app_nth2, Nat.sub_diag by lia. reflexivity. Qed.

  Lemma rail_at c base n depth N i : placed_at c base n depth N -> (i < n * r)%nat -> c (base + i)%nat = T3 (INR (N + i) * s) 0 0.
  Proof.
    intros hp hi. assert (hin : In (rail_node base r d i) (track_nodes base n r d depth)).
    { unfold track_nodes. apply in_or_app. left. apply in_map. apply in_seq. lia. }
    pose proof (hp _ hin) as e. cbn [rail_node new_node n_id n_coord moved tx ty tr] in e. rewrite e. unfold moved. cbn [tx ty tr]. f_equal. rewrite plus_INR. unfold s. field. pose proof INRr. lra.
  Qed.

  Lemma join_one c fresh j M base n depth : (1 <= n)%nat -> rail_ok c fresh j M -> placed_at c base n depth (M + (r - 1)) -> (base + size n <= fresh)%nat ->
    exists c', join_track c fresh r j (the_track base n r d depth) =
      Ok (mkJoined (jn_rail_nodes j ++ seq fresh (r - 1) ++ seq base (n * r))
            (chain (jn_rail_nodes j ++ seq fresh (r - 1) ++ seq base (n * r)))
            (jn_sleepers j ++ seq (base + n * r) n)
            (jn_pad_nodes j ++ tk_pad_nodes (the_track base n r d depth)) (jn_pad_els j ++ tk_pad_els (the_track base n r d depth))
            (jn_soil j ++ [(tk_soil_nodes (the_track base n r d depth), tk_soil_els (the_track base n r d depth))]),
          c', seq fresh (r - 1), chain (last (jn_rail_nodes j) 0%nat :: seq fresh (r - 1) ++ [base]), (fresh + (r - 1))%nat) /\
      (forall i, (i < fresh)%nat -> c' i = c i) /\ (forall i, (i < r - 1)%nat -> c' (fresh + i)%nat = T3 (INR (M + i) * s) 0 0).
  Proof.
    intros hn [h1 [h2 [h3 [h4 h5]]]] hp hb. unfold join_track. cbn [the_track tk_rail_nodes tk_sleepers].
    destruct (exists_last (l := jn_rail_nodes j)) as [l [a el]]; [intros e; rewrite e in h1; cbn in h1; lia|].
    rewrite el, rev_unit. assert (hnr : (1 <= n * r)%nat) by nia.
    destruct (n * r)%nat as [|k] eqn:enr; [lia|]. cbn [seq]. cbv zeta.
    assert (hlen : length l = (M - 1)%nat) by (rewrite el, app_length in h1; cbn in h1; lia).
    assert (ha : c a = T3 (INR (M - 1) * s) 0 0).
    { rewrite <- (h3 (M - 1)%nat) by lia. rewrite el, <- hlen, nth_last. reflexivity. }
    assert (hbb : c base = T3 (INR (M + (r - 1)) * s) 0 0).
    { pose proof (rail_at c base n depth _ 0 hp ltac:(lia)) as e. rewrite !Nat.add_0_r in e. exact e. }
    rewrite ha, hbb, in_between_spec, map_length, seq_length.
    set (vs := map (fun i => T3 (INR (M - 1) * s + INR i * ((INR (M + (r - 1)) * s - INR (M - 1) * s) / INR r)) 0 0) (seq 1 (r - 1))).
    assert (hvs : length vs = (r - 1)%nat) by (unfold vs; rewrite map_length, seq_length; reflexivity).
    eexists. split; [|split].
    - f_equal. f_equal. f_equal. f_equal. f_equal.
      + rewrite h4, el, track_rail_chain. cbn [the_track tk_rail_nodes]. rewrite enr. cbn [seq].
        rewrite chain_join. reflexivity.
      + rewrite last_last. reflexivity.
    - intros i hi. rewrite <- hvs. rewrite fold_set. destruct (Nat.leb_spec fresh i); [lia|reflexivity].
    - intros i hi. rewrite <- hvs at 1. rewrite fold_set. destruct (Nat.leb_spec fresh (fresh + i)); [|lia]. destruct (Nat.ltb_spec (fresh + i) (fresh + length vs)); [|lia].
      cbn [andb]. replace (fresh + i - fresh)%nat with i by lia. unfold vs. erewrite nth_indep by (rewrite map_length, seq_length; lia).
      rewrite (map_nth (fun i => T3 (INR (M - 1) * s + INR i * ((INR (M + (r - 1)) * s - INR (M - 1) * s) / INR r)) 0 0) (seq 1 (r - 1)) 0%nat).
      rewrite seq_nth by lia. f_equal. rewrite !plus_INR, !minus_INR by lia. cbn [INR]. pose proof INRr. field. lra.
  Qed.

  Fixpoint reach (M : nat) (specs : list (nat * R)) : nat := match specs with [] => M | (n, _) :: q => reach (M + (r - 1) + n * r) q end.

  Lemma join_spec specs : forall c fresh j M base added els, good specs -> rail_ok c fresh j M -> all_placed c base specs (M + (r - 1)) ->
    (base + total specs <= fresh)%nat ->
    exists j' c' es, join_tracks c fresh r j (tracks_of base specs) added els = Ok (j', c', added ++ seq fresh (length specs * (r - 1)), els ++ es) /\
      rail_ok c' (fresh + length specs * (r - 1)) j' (reach M specs) /\ (forall i, (i < fresh)%nat -> c' i = c i) /\
      jn_sleepers j' = jn_sleepers j ++ flat_map tk_sleepers (tracks_of base specs) /\
      jn_pad_nodes j' = jn_pad_nodes j ++ flat_map tk_pad_nodes (tracks_of base specs) /\
      jn_pad_els j' = jn_pad_els j ++ flat_map tk_pad_els (tracks_of base specs) /\
      jn_soil j' = jn_soil j ++ map (fun t => (tk_soil_nodes t, tk_soil_els t)) (tracks_of base specs) /\
      Permutation (jn_rail_nodes j') (jn_rail_nodes j ++ flat_map tk_rail_nodes (tracks_of base specs) ++ seq fresh (length specs * (r - 1))) /\
      Permutation (jn_rail_els j') (jn_rail_els j ++ flat_map tk_rail_els (tracks_of base specs) ++ es).
  Proof.
    induction specs as [|[n depth] q IH]; intros c fresh j M base added els hg hj hp hb.
    - exists j, c, []. cbn. rewrite !app_nil_r, Nat.add_0_r. repeat split; auto; apply hj.
    - destruct (hg n depth (or_introl eq_refl)) as [hn hdep]. cbn [all_placed] in hp. destruct hp as [hp1 hp2]. cbn [total] in hb.
      destruct (join_one c fresh j M base n depth hn hj hp1 ltac:(lia)) as [c1 [e1 [e2 e3]]]. cbn [tracks_of join_tracks]. rewrite e1. cbn [rbind].
      set (j1 := mkJoined _ _ _ _ _ _) in *. set (es1 := chain (last (jn_rail_nodes j) 0%nat :: seq fresh (r - 1) ++ [base])) in *.
      assert (hj1 : rail_ok c1 (fresh + (r - 1)) j1 (M + (r - 1) + n * r)).
      { destruct hj as [h1 [h2 [h3 [h4 h5]]]]. unfold rail_ok, j1. cbn [jn_rail_nodes jn_rail_els]. rewrite !app_length, !seq_length, h1. split; [lia|]. split; [lia|]. split; [|split; [reflexivity|]].
        - intros i hi. destruct (Nat.lt_ge_cases i M) as [l1|l1].
          + rewrite app_nth1 by lia. rewrite e2 by (apply h5; apply nth_In; lia). apply h3; auto.
          + rewrite app_nth2 by lia. rewrite h1. destruct (Nat.lt_ge_cases (i - M) (r - 1)) as [l2|l2].
            * rewrite app_nth1 by (rewrite seq_length; lia). rewrite seq_nth by lia. rewrite e3 by lia. f_equal. f_equal. f_equal. lia.
            * rewrite app_nth2 by (rewrite seq_length; lia). rewrite seq_length, seq_nth by lia. rewrite e2 by (unfold size in hb; lia).
              rewrite (rail_at c base n depth _ _ hp1) by lia. f_equal. f_equal. f_equal. lia.
        - intros i hi. rewrite !in_app_iff, !in_seq in hi. destruct hi as [hi|[hi|hi]]; [specialize (h5 i hi); lia|lia|unfold size in hb; lia]. }
      assert (hp2' : all_placed c1 (base + size n) q (M + (r - 1) + n * r + (r - 1))).
      { clear - hp2 e2 hb hr. assert (hx : (base + size n + total q <= fresh)%nat) by lia. clear hb.
        revert hp2 hx. generalize (base + size n)%nat (M + (r - 1) + n * r + (r - 1))%nat. induction q as [|[m de] q IH]; intros b N hp hx; [exact I|].
        cbn [all_placed total] in *. destruct hp as [p1 p2]. split.
        - intros a ha. rewrite e2 by (pose proof (track_range b m de a ha); lia). apply p1. auto.
        - apply IH; auto. lia. }
      destruct (IH c1 (fresh + (r - 1))%nat j1 _ (base + size n)%nat (added ++ seq fresh (r - 1)) (els ++ es1) (fun m e hm => hg m e (or_intror hm)) hj1 hp2' ltac:(lia))
        as [j' [c' [es [f1 [f2 [f3 [f4 [f5 [f6 [f7 [f8 f9]]]]]]]]]]].
      exists j', c', (es1 ++ es). rewrite f1. cbn [length]. cbn [Nat.mul]. split; [|split; [|split; [|split; [|split; [|split; [|split; [|split]]]]]]].
      + rewrite <- !app_assoc, seq_app. reflexivity.
      + cbn [reach]. rewrite Nat.add_assoc. exact f2.
      + intros i hi. rewrite f3 by lia. apply e2. auto.
      + rewrite f4. unfold j1. cbn [jn_sleepers flat_map the_track tk_sleepers]. rewrite <- app_assoc. reflexivity.
      + rewrite f5. unfold j1. cbn [jn_pad_nodes flat_map]. rewrite <- app_assoc. reflexivity.
      + rewrite f6. unfold j1. cbn [jn_pad_els flat_map]. rewrite <- app_assoc. reflexivity.
      + rewrite f7. unfold j1. cbn [jn_soil map]. rewrite <- app_assoc. reflexivity.
      + rewrite f8. unfold j1. cbn [jn_rail_nodes flat_map the_track tk_rail_nodes]. rewrite seq_app. rewrite <- !app_assoc. apply Permutation_app_head.
        rewrite (Permutation_app_comm (seq fresh (r - 1))). rewrite <- !app_assoc. apply Permutation_app_head. apply Permutation_app_head. apply Permutation_app_comm.
      + rewrite f9. unfold j1. cbn [jn_rail_els flat_map]. rewrite track_rail_chain. cbn [the_track tk_rail_nodes].
        assert (hne : jn_rail_nodes j <> []) by (intros e; destruct hj as [h1 [h2 _]]; rewrite e in h1; cbn in h1; lia).
        assert (hnr : (1 <= n * r)%nat) by nia. unfold es1. destruct (n * r)%nat as [|k]; [lia|]. cbn [seq].
        destruct hj as [_ [_ [_ [h4 _]]]]. rewrite h4. rewrite (app_removelast_last 0%nat hne) at 1. rewrite chain_join. rewrite <- (app_removelast_last 0%nat hne).
        rewrite <- !app_assoc. apply Permutation_app_head. rewrite !app_assoc. rewrite (Permutation_app_comm (chain _) (chain _)). rewrite <- !app_assoc. apply Permutation_app_head.
        rewrite !app_assoc. apply Permutation_app_tail. apply Permutation_app_comm.
  Qed.

  (** ** the nodes of the joined mesh *)

  Definition object (c : heap R) (i : nat) : node R := new_node i (tx (c i)) (ty (c i)) (tr (c i)).

  Lemma moved_equal dx a b : coords_equal (moved dx a) (moved dx b) = coords_equal a b.
  Proof. unfold coords_equal, moved. cbn [tx ty tr]. rnum. replace (tx a + dx - (tx b + dx)) with (tx a - tx b) by ring. reflexivity. Qed.
  Lemma object_coord c i : n_coord (object c i) = c i.
  Proof. unfold object. cbn. destruct (c i); reflexivity. Qed.

  Lemma id_node base n depth i : (base <= i < base + size n)%nat -> exists a, In a (track_nodes base n r d depth) /\ n_id a = i.
  Proof.
    intros h. assert (hi : In i (seq base (size n))) by (apply in_seq; lia). unfold size in hi. rewrite <- (track_ids base n r d depth hr) in hi.
    apply in_map_iff in hi. destruct hi as [a [e ha]]. exists a. auto.
  Qed.

  Lemma placed_left c base specs N i : all_placed c base specs N -> (base <= i < base + total specs)%nat -> INR N * s <= tx (c i).
  Proof.
    revert base N. induction specs as [|[n depth] q IH]; intros base N hp hi; cbn [total all_placed] in *; [lia|]. destruct hp as [p1 p2].
    pose proof spos as hs. destruct (Nat.lt_ge_cases i (base + size n)) as [c1|c1].
    - destruct (id_node base n depth i ltac:(lia)) as [a [ha <-]]. rewrite (p1 a ha). unfold moved. cbn [tx].
      destruct (track_x base n depth a ha) as [k [hk ->]]. pose proof (pos_INR k). nra.
    - specialize (IH _ _ p2 ltac:(lia)). refine (Rle_trans _ _ _ _ IH). apply Rmult_le_compat_r; [lra|]. apply le_INR. lia.
  Qed.

  Lemma placed_apart c base specs N : good specs -> all_placed c base specs N -> forall i j,
    (base <= i < base + total specs)%nat -> (base <= j < base + total specs)%nat -> i <> j -> coords_equal (c i) (c j) = false.
  Proof.
    intros hg hp i j. revert base N hg hp. assert (hlt : forall i j base N, good specs -> all_placed c base specs N ->
      (base <= i)%nat -> (i < j)%nat -> (j < base + total specs)%nat -> coords_equal (c i) (c j) = false).
    { clear i j. intros i j. induction specs as [|[n depth] q IH]; intros base N hg hp hi hij hj; cbn [total all_placed] in *; [lia|]. destruct hp as [p1 p2].
      destruct (hg n depth (or_introl eq_refl)) as [hn hdep].
      destruct (Nat.lt_ge_cases i (base + size n)) as [c1|c1]; [destruct (Nat.lt_ge_cases j (base + size n)) as [c2|c2]|].
      - destruct (id_node base n depth i ltac:(lia)) as [a [ha ea]]. destruct (id_node base n depth j ltac:(lia)) as [b [hb eb]].
        rewrite <- ea, <- eb, (p1 a ha), (p1 b hb), moved_equal. apply (track_apart base n r d depth hr hd hdep a b ha hb). lia.
      - destruct (id_node base n depth i ltac:(lia)) as [a [ha ea]]. destruct (track_x base n depth a ha) as [k [hk ek]].
        pose proof (placed_left c _ q _ j p2 ltac:(lia)) as hl. pose proof (p1 a ha) as e1. rewrite ea in e1. apply not_close. exists DX. rewrite e1. unfold moved. cbn [tget tx]. rewrite ek.
        pose proof spos as hs. assert (INR k * s + INR N * s + d <= tx (c j)).
        { refine (Rle_trans _ _ _ _ hl). rewrite d_eq. rewrite <- !Rmult_plus_distr_r, <- !plus_INR. apply Rmult_le_compat_r; [lra|]. apply le_INR. nia. }
        pose proof (dbig n r d hr hd). rewrite Rabs_left; lra.
      - apply (IH (base + size n)%nat (N + n * r + (r - 1))%nat); auto; try lia. intros m e hm. apply hg. right. auto. }
    intros base N hg hp hi hj hne. destruct (Nat.lt_ge_cases i j) as [c1|c1].
    - apply (hlt i j base N); auto; lia.
    - rewrite coords_sym. apply (hlt j i base N); auto; lia.
  Qed.

  Lemma mesh_new h batches st : (forall a b, In a (st ++ concat batches) -> In b (st ++ concat batches) -> apart a b) -> NoDup (map (@n_id R) (st ++ concat batches)) ->
    fold_left (add_unique_nodes h) batches st = st ++ concat batches.
  Proof.
    revert st. induction batches as [|b bs IH]; intros st h1 h2; [cbn; rewrite app_nil_r; reflexivity|]. cbn [fold_left concat] in *.
    unfold add_unique_nodes at 2. unfold dict_fromkeys. rewrite app_assoc in h1, h2. rewrite insert_all_new.
    - cbn [app]. rewrite IH; [rewrite <- app_assoc; reflexivity|exact h1|exact h2].
    - cbn [app]. intros a c ha hc. apply h1; apply in_or_app; left; auto.
    - cbn [app]. rewrite map_app in h2. apply nodup_app_left in h2. exact h2.
  Qed.

  Lemma mesh_batches c base specs : concat (map (map (object c)) (map (fun t => map (@n_id R) (tk_mesh t)) (tracks_of base specs))) = map (object c) (seq base (total specs)).
  Proof.
    revert base. induction specs as [|[n depth] q IH]; intros base; [reflexivity|]. cbn [tracks_of map concat total the_track tk_mesh]. rewrite mesh_ids, IH, seq_app, map_app. reflexivity.
  Qed.

  Lemma joined_mesh h c base specs N : good specs -> all_placed c base specs N ->
    map (@n_id R) (mesh_of h (map (map (object c)) (map (fun t => map (@n_id R) (tk_mesh t)) (tracks_of base specs)))) = seq base (total specs).
  Proof.
    intros hg hp. assert (hid : forall l, map (@n_id R) (map (object c) l) = l) by (intros l; rewrite map_map; cbn; apply map_id).
    unfold mesh_of. rewrite mesh_new; cbn [app]; rewrite mesh_batches; [apply hid| |rewrite hid; apply seq_NoDup].
    intros a b ha hb. apply in_map_iff in ha. destruct ha as [i [<- hi]]. apply in_map_iff in hb. destruct hb as [k [<- hk]]. apply in_seq in hi, hk.
    unfold apart. cbn [object new_node n_id]. fold (object c i). fold (object c k). rewrite !object_coord. intros hne. eapply placed_apart; eauto; lia.
  Qed.

  (** ** the joined track *)

  Lemma reach_sum specs M : reach M specs = (M + length specs * (r - 1) + sleeper_count specs * r)%nat.
  Proof.
    revert M. induction specs as [|[n depth] q IH]; intros M; [cbn; lia|]. cbn [reach]. rewrite IH. unfold sleeper_count. cbn [map fst list_sum fold_right length].
    fold (list_sum (map fst q)). change (list_sum (n :: map fst q)) with (n + list_sum (map fst q))%nat. nia.
  Qed.

  Lemma sleepers_at c base specs N : good specs -> all_placed c base specs N ->
    map c (flat_map tk_sleepers (tracks_of base specs)) = map (fun x => T3 x (-1) 0) (sleeper_places (2 * d - s) d (INR N * s) specs).
  Proof.
    revert base N. induction specs as [|[n depth] q IH]; intros base N hg hp; [reflexivity|]. cbn [all_placed] in hp. destruct hp as [p1 p2].
    destruct (hg n depth (or_introl eq_refl)) as [hn hdep].
    cbn [tracks_of flat_map sleeper_places the_track tk_sleepers]. rewrite !map_app. f_equal.
    - rewrite <- (ids_shift (base + n * r) n) by exact hn. rewrite !map_map. apply map_ext_in. intros i hi. apply in_seq in hi.
      assert (hin : In (sleeper_node base n r d i) (track_nodes base n r d depth)).
      { unfold track_nodes. apply in_or_app. right. apply in_or_app. left. apply in_map. apply in_seq. lia. }
      pose proof (p1 _ hin) as e. cbn [sleeper_node new_node n_id n_coord] in e. rewrite e. unfold moved. cbn [tx ty tr]. f_equal; ring.
    - rewrite (IH _ _ (fun m e hm => hg m e (or_intror hm)) p2). f_equal. f_equal. rewrite d_eq. rewrite !plus_INR, mult_INR, !minus_INR by lia. cbn [INR]. ring.
  Qed.

  Lemma combine_spec h base specs fresh : good specs -> specs <> [] -> (base + total specs <= fresh)%nat ->
    exists j c es, combine_horizontal_tracks h (heap_of (tracks_of base specs)) fresh (tracks_of base specs) d r =
        Ok (j, c, seq base (total specs) ++ seq fresh ((length specs - 1) * (r - 1)), flat_map tk_mesh_els (tracks_of base specs) ++ es) /\
      rail_ok c (fresh + (length specs - 1) * (r - 1)) j (sleeper_count specs * r + (length specs - 1) * (r - 1)) /\
      all_placed c base specs 0 /\
      jn_sleepers j = flat_map tk_sleepers (tracks_of base specs) /\
      jn_pad_nodes j = flat_map tk_pad_nodes (tracks_of base specs) /\
      jn_pad_els j = flat_map tk_pad_els (tracks_of base specs) /\
      jn_soil j = map (fun t => (tk_soil_nodes t, tk_soil_els t)) (tracks_of base specs) /\
      Permutation (jn_rail_nodes j) (flat_map tk_rail_nodes (tracks_of base specs) ++ seq fresh ((length specs - 1) * (r - 1))) /\
      Permutation (jn_rail_els j) (flat_map tk_rail_els (tracks_of base specs) ++ es).
  Proof.
    intros hg hne hb. pose proof (heap_local base specs) as hl. set (c0 := heap_of (tracks_of base specs)) in *. clearbody c0.
    destruct specs as [|[n depth] q]; [congruence|]. cbn [all_local] in hl. destruct hl as [l1 l2]. destruct (hg n depth (or_introl eq_refl)) as [hn hdep].
    assert (hq : good q) by (intros m e hm; apply hg; right; auto).
    destruct (move_spec q c0 base n depth 0 (base + size n) hq hn l1 eq_refl l2) as [c1 [e1 [e2 e3]]].
    assert (hp : all_placed c1 base ((n, depth) :: q) 0).
    { cbn [all_placed]. split; [|exact e2]. intros a ha. rewrite e3 by (pose proof (track_range base n depth a ha); lia). apply l1. auto. }
    unfold combine_horizontal_tracks. cbn [tracks_of]. cbv zeta. cbn [map List.hd tl]. change (tk_mesh (the_track base n r d depth)) with (reorder_node_ids (track_nodes base n r d depth)) at 1. rewrite mesh_ids, e1. cbn [rbind].
    pose proof (joined_mesh h c1 base ((n, depth) :: q) 0 hg hp) as em. cbn [tracks_of map] in em. unfold object in em. rewrite em.
    assert (hj : rail_ok c1 fresh (joined_of (the_track base n r d depth)) (n * r)).
    { unfold rail_ok, joined_of. cbn [jn_rail_nodes jn_rail_els]. rewrite track_rail_chain. cbn [the_track tk_rail_nodes]. rewrite seq_length. split; [reflexivity|]. split; [nia|]. split; [|split; [reflexivity|]].
      - intros i hi. rewrite seq_nth by lia. cbn [all_placed] in hp. rewrite (rail_at c1 base n depth 0 i (proj1 hp) hi). reflexivity.
      - intros i hi. apply in_seq in hi. cbn [total] in hb. unfold size in hb. lia. }
    cbn [all_placed total] in hp, hb. destruct hp as [hp1 hp2].
    destruct (join_spec q c1 fresh _ (n * r) (base + size n) [] [] hq hj hp2 ltac:(lia)) as [j [c [es [f1 [f2 [f3 [f4 [f5 [f6 [f7 [f8 f9]]]]]]]]]]].
    rewrite f1. cbn [rbind app]. exists j, c, es. cbn [length]. replace (S (length q) - 1)%nat with (length q) by lia.
    split; [reflexivity|]. split; [|split; [|split; [|split; [|split; [|split; [|split]]]]]].
    - rewrite reach_sum in f2. unfold sleeper_count in *. change (list_sum (map fst ((n, depth) :: q))) with (n + list_sum (map fst q))%nat.
      replace ((n + list_sum (map fst q)) * r + length q * (r - 1))%nat with (n * r + length q * (r - 1) + list_sum (map fst q) * r)%nat by lia. exact f2.
    - cbn [all_placed]. assert (hx : forall specs b N, all_placed c1 b specs N -> (b + total specs <= fresh)%nat -> all_placed c b specs N).
      { induction specs as [|[m de] p IHp]; intros b N hpp hbb; [exact I|]. cbn [all_placed total] in *. destruct hpp as [q1 q2]. split; [|apply IHp; auto; lia].
        intros a ha. rewrite f3 by (pose proof (track_range b m de a ha); lia). apply q1. auto. }
      apply (hx ((n, depth) :: q) base 0%nat); [split; auto|cbn [total]; lia].
    - rewrite f4. reflexivity.
    - rewrite f5. reflexivity.
    - rewrite f6. reflexivity.
    - rewrite f7. reflexivity.
    - rewrite f8. cbn [flat_map]. rewrite <- app_assoc. reflexivity.
    - rewrite f9. cbn [flat_map]. rewrite <- app_assoc. reflexivity.
  Qed.
End Join.
