(** * Properties of running a calculation (C89) *)

From Coq Require Import Reals List Bool ZArith Arith Lia Lra Sorted.
From Verif Require Import Num PyBase Model_Geometry Model_System Model_Accumulation Model_Run Spec_System Spec_Run Proofs_System Proofs_Accumulation Proofs_Run Props_System.
Import ListNotations.
Local Open Scope R_scope.

Lemma ids_cons (time : list R) : (2 <= length time)%nat -> exists ids, stage_time_ids time = 0%nat :: ids /\ ids <> [] /\ StronglySorted lt (0%nat :: ids) /\ last (0%nat :: ids) 0%nat = (length time - 1)%nat.
Proof.
  intros h. destruct (C49_stages_partial time h) as [h1 [h2 [h3 _]]]. destruct (stage_time_ids time) as [|a ids]; [discriminate|]. injection h2 as ->.
  exists ids. split; [reflexivity|]. split; [intros ->; cbn in h3; lia|]. auto.
Qed.

(** every time step is calculated once, from the result of the time step before it; the step size is the mean step size of its stage;
    the initial state stays *)
Theorem C89_steps kind dynamic static time memory ns rows rows' out : kind <> OtherType -> (2 <= length time)%nat -> length rows = length time ->
  (forall n, In n ns -> flags_match n) ->
  run_all kind dynamic static time (tlist memory) ns rows = Ok (rows', out) ->
  let step := match kind with Static => static | _ => dynamic end in
  length rows' = length time /\ nth_error rows' 0 = nth_error rows 0 /\
  exists dt, marched step dt rows' /\
    forall i, (S i < length time)%nat -> exists a b, neighbours (stage_time_ids time) a b /\ (a <= i < b)%nat /\ dt i = mean_step time a b.
Proof.
  intros hk h2 hl hf h step. destruct (ids_cons time h2) as [ids [e [hne [hs he]]]]. unfold run_all in h. rewrite e in h.
  destruct (run_spec kind dynamic static time memory ns hk hf ids rows None rows' out 0 hs ltac:(lia) h) as [r1 [r2 [r3 _]]].
  split; [congruence|]. split; [apply r2; lia|].
  set (P := fun i d => exists a b, neighbours (0%nat :: ids) a b /\ (a <= i < b)%nat /\ d = mean_step time a b /\
             exists r r', nth_error rows' i = Some r /\ nth_error rows' (S i) = Some r' /\ step d (S i) r = Ok r').
  assert (hP : forall n, (n <= length time - 1)%nat -> exists l, length l = n /\ forall i, (i < n)%nat -> P i (nth i l 0)).
  { induction n as [|n ih]; intros hn; [exists []; split; [reflexivity|intros i hi; lia]|]. destruct ih as [l [ll hl']]; [lia|].
    destruct (r3 n ltac:(lia)) as [a [b [r [r' [q1 [q2 [q3 [q4 q5]]]]]]]]. exists (l ++ [mean_step time a b]). split; [rewrite app_length, ll; cbn; lia|].
    intros i hi. destruct (Nat.eq_dec i n) as [->|hni]; [|rewrite app_nth1 by lia; apply hl'; lia].
    rewrite app_nth2 by lia. replace (n - length l)%nat with 0%nat by lia. cbn [nth]. exists a, b. split; [exact q1|]. split; [exact q2|]. split; [reflexivity|]. exists r, r'. auto. }
  destruct (hP (length time - 1)%nat (Nat.le_refl _)) as [l [ll hl']]. exists (fun i => nth i l 0). split.
  - intros i hi. destruct (hl' i) as [a [b [_ [_ [_ q]]]]]; [lia|]. exact q.
  - intros i hi. rewrite e. destruct (hl' i) as [a [b [q1 [q2 [q3 _]]]]]; [lia|]. exists a, b. auto.
Qed.
Print Assumptions C89_steps.

(** in a stage of equal steps the mean is that step *)
Lemma mean_equal (time : list R) a b d : (a < b)%nat -> (forall i, (a <= i < b)%nat -> step_size time i = d) -> mean_step time a b = d.
Proof.
  intros hab h. unfold mean_step. assert (hs : forall n, (a + n <= b)%nat -> nth (a + n) time 0 - nth a time 0 = INR n * d).
  { induction n as [|n ih]; intros hn; [rewrite Nat.add_0_r; cbn [INR]; ring|]. specialize (ih ltac:(lia)). specialize (h (a + n)%nat ltac:(lia)). unfold step_size in h. rewrite S_INR. replace (a + S n)%nat with (S (a + n)) by lia. lra. }
  specialize (hs (b - a)%nat ltac:(lia)). replace (a + (b - a))%nat with b in hs by lia. rewrite hs. field. apply not_0_INR. lia.
Qed.

Lemma neighbours_gap (l : list nat) a b : StronglySorted lt l -> neighbours l a b -> forall k, In k l -> (k <= a)%nat \/ (b <= k)%nat.
Proof.
  intros hs [p [q ->]] k hk. induction p as [|x p ih].
  - cbn [app] in *. inversion hs as [|? ? hs1 _]; subst. inversion hs1 as [|? ? _ ha2]; subst. destruct hk as [->|[->|hk]]; [left; lia|right; lia|]. right. rewrite Forall_forall in ha2. specialize (ha2 k hk). lia.
  - cbn [app] in *. inversion hs as [|? ? hs1 ha1]; subst. destruct hk as [->|hk]; [|apply ih; assumption]. left. rewrite Forall_forall in ha1. specialize (ha1 a ltac:(apply in_app_iff; right; left; reflexivity)). lia.
Qed.
Lemma neighbours_in (l : list nat) a b : neighbours l a b -> In a l /\ In b l.
Proof. intros [p [q ->]]. split; apply in_app_iff; right; cbn; auto. Qed.

(** the calculation is that of a solver that takes every time step with its own size, whatever the division into stages; missing are
    step sizes that come back after others (next theorem) or differ by less than 1e-15 *)
Theorem C89_sizes_partial kind dynamic static time memory ns rows rows' out : kind <> OtherType -> (2 <= length time)%nat -> length rows = length time ->
  (forall n, In n ns -> flags_match n) ->
  (forall i j, (S i < length time)%nat -> (S j < length time)%nat -> step_size time i = step_size time j \/ 1 / 1000000000000000 < Rabs (step_size time i - step_size time j)) ->
  (forall i j k, (i <= j <= k)%nat -> (S k < length time)%nat -> step_size time i = step_size time k -> step_size time j = step_size time i) ->
  run_all kind dynamic static time (tlist memory) ns rows = Ok (rows', out) ->
  nth_error rows' 0 = nth_error rows 0 /\ length rows' = length rows /\
  marched (match kind with Static => static | _ => dynamic end) (step_size time) rows'.
Proof.
  intros hk h2 hl hf hsep hcont h. destruct (C89_steps _ _ _ _ _ _ _ _ _ hk h2 hl hf h) as [r1 [r2 [dt [r3 r4]]]]. split; [exact r2|]. split; [congruence|].
  intros i hi. destruct (r3 i hi) as [r [r' [q1 [q2 q3]]]]. exists r, r'. split; [exact q1|]. split; [exact q2|].
  destruct (r4 i ltac:(lia)) as [a [b [g1 [g2 g3]]]]. destruct (C49_stages_partial time h2) as [s1 [s2 [s3 s4]]].
  assert (hb : (b < length time)%nat).
  { pose proof (proj2 (neighbours_in _ _ _ g1)) as hin. destruct (ids_cons time h2) as [ids [e [_ [hs he]]]]. rewrite e in hin. assert (hle : forall l x, StronglySorted lt l -> In x l -> (x <= last l 0)%nat).
    { clear. induction l as [|y l ih]; intros x hs hx; [destruct hx|]. inversion hs as [|? ? hs1 ha]; subst. destruct l as [|z l]; [destruct hx as [->|[]]; cbn; lia|]. change (last (y :: z :: l) 0%nat) with (last (z :: l) 0%nat).
      destruct hx as [->|hx]; [|apply ih; assumption]. rewrite Forall_forall in ha. specialize (ih z hs1 (or_introl eq_refl)). specialize (ha z (or_introl eq_refl)). lia. }
    specialize (hle _ _ hs hin). lia. }
  rewrite g3, (mean_equal time a b (step_size time i)) in q3; [exact q3|lia|]. intros j hj.
  apply (s4 hsep hcont a b); [apply neighbours_gap; assumption|exact hj|exact g2|exact hb].
Qed.
Print Assumptions C89_sizes_partial.

(** all nodes get the results of the whole calculation *)
Theorem C89_nodes kind dynamic static time memory ns rows rows' out : kind <> OtherType -> (2 <= length time)%nat -> length rows = length time ->
  (forall n, In n ns -> flags_match n) ->
  run_all kind dynamic static time (tlist memory) ns rows = Ok (rows', out) ->
  exists o, out = Some o /\ length o = length ns /\ forall p n i r, nth_error ns p = Some n -> nth_error rows' i = Some r ->
    exists l x, nth_error o p = Some l /\ length l = length time /\ nth_error l i = Some x /\ agrees_with_row n r x.
Proof.
  intros hk h2 hl hf h. destruct (ids_cons time h2) as [ids [e [hne [hs he]]]]. unfold run_all in h. rewrite e in h.
  destruct (run_spec kind dynamic static time memory ns hk hf ids rows None rows' out 0 hs ltac:(lia) h) as [r1 [_ [_ r4]]]. destruct (r4 hne) as [o [-> ho]].
  destruct (assigned_spec _ _ _ _ ho hf) as [a1 a2]. exists o. split; [reflexivity|]. split; [exact a1|]. intros p n i r hp hi. destruct (a2 p n hp) as [l [b1 [b2 b3]]]. destruct (b3 i r hi) as [x [c1 c2]].
  exists l, x. split; [exact b1|]. split; [congruence|]. auto.
Qed.
Print Assumptions C89_nodes.

(** the calculation ends if every step does *)
Theorem C89_ends kind dynamic static time memory ns rows : (2 <= length time)%nat -> length rows = length time -> ns <> [] -> (forall n, In n ns -> flags_match n) ->
  (kind <> OtherType -> forall dt t r, exists r', (match kind with Static => static | _ => dynamic end) dt t r = Ok r') ->
  exists rows' out, run_all kind dynamic static time (tlist memory) ns rows = Ok (rows', out).
Proof.
  intros h2 hl hne hf ht. destruct (ids_cons time h2) as [ids [e [hi [hs he]]]]. unfold run_all. rewrite e. apply run_total; auto; lia.
Qed.
Print Assumptions C89_ends.

(** with a single time nothing is calculated and no node has results *)
Theorem C89_no_step kind dynamic static time memory ns (rows : list (row R)) : (length time <= 1)%nat -> run_all kind dynamic static time memory ns rows = Ok (rows, None).
Proof. intros h. destruct time as [|a [|b time]]; [reflexivity|reflexivity|cbn in h; lia]. Qed.
Print Assumptions C89_no_step.

(** a step size that comes back: with times 0, 1, 3, 4 both last steps are taken with 3/2 *)
Theorem C89_returning_refuted : exists (time : list R) (dynamic : R -> nat -> row R -> res (row R)) ns rows rows' out,
  (forall p q, (p < q < length time)%nat -> nth p time 0 < nth q time 0) /\ (forall n, In n ns -> flags_match n) /\ length rows = length time /\
  run_all Dynamic dynamic dynamic time [0; 0; 0] ns rows = Ok (rows', out) /\ ~ marched dynamic (step_size time) rows'.
Proof.
  pose (n := mkNode 0 None (T3 None (Some 0%nat) None) (T3 0 0 0) (T3 false true false) [] : node R).
  pose (step := fun (dt : R) (t : nat) (r : row R) => Ok (mkRow [dt] [0] [0] [0]) : res (row R)). pose (r0 := mkRow [0] [0] [0] [0] : row R).
  assert (hf : forall m, In m [n] -> flags_match m) by (intros m [<-|[]] []; cbn; split; congruence).
  assert (e : stage_time_ids [0; 1; 3; 4] = [0; 1; 3]%nat).
  { unfold stage_time_ids. cbn [np_diff map].
    replace (1 - 0)%num with (IZR 1) by (rnum; lra). replace (3 - 1)%num with (IZR 2) by (rnum; lra). replace (4 - 3)%num with (IZR 1) by (rnum; lra). rewrite !round15_int. reflexivity. }
  destruct (C89_ends Dynamic step step [0; 1; 3; 4] (T3 0 0 0) [n] [r0; r0; r0; r0]) as [rows' [out h]]; [cbn; lia|reflexivity|discriminate|exact hf|intros _ dt t r; eexists; reflexivity|].
  exists [0; 1; 3; 4], step, [n], [r0; r0; r0; r0], rows', out.
  split; [intros [|[|[|[|p]]]] [|[|[|[|q]]]] hpq; cbn in *; try lia; lra|]. split; [exact hf|]. split; [reflexivity|]. split; [exact h|].
  destruct (C89_steps Dynamic step step [0; 1; 3; 4] (T3 0 0 0) [n] [r0; r0; r0; r0] rows' out ltac:(discriminate) ltac:(cbn; lia) eq_refl hf h) as [r1 [_ [dt [r3 r4]]]].
  intros hm. destruct (r3 2%nat) as [r [r' [_ [q2 q3]]]]; [rewrite r1; cbn; lia|]. destruct (hm 2%nat) as [s [s' [_ [p2 p3]]]]; [rewrite r1; cbn; lia|].
  rewrite q2 in p2. injection p2 as <-. unfold step in q3, p3. injection q3 as <-. injection p3 as p3. unfold step_size in p3. cbn [nth] in p3.
  destruct (r4 2%nat) as [a [b [g1 [g2 g3]]]]; [cbn; lia|]. rewrite e in g1. destruct g1 as [p [q g1]]. rewrite g3 in p3. unfold mean_step in p3.
  destruct p as [|x [|y p]]; cbn in g1; inversion g1; subst; try lia.
  - cbn [nth Nat.sub INR] in p3. lra.
  - match goal with h : [3%nat] = p ++ _ |- _ => destruct p as [|? [|? ?]]; discriminate h end.
Qed.
Print Assumptions C89_returning_refuted.

(** a solver of unknown type is not rejected: the results are those of the initialised arrays *)
Theorem C89_unknown_refuted dynamic static time memory ns rows : (2 <= length time)%nat -> length rows = length time -> ns <> [] -> (forall n, In n ns -> flags_match n) ->
  exists out, run_all OtherType dynamic static time (tlist memory) ns rows = Ok (rows, out).
Proof.
  intros h2 hl hne hf. destruct (ids_cons time h2) as [ids [e [hi [hs he]]]]. unfold run_all. rewrite e. clear e hi hs he. generalize (None : option (list (list (nodal R)))). generalize 0%nat.
  induction ids as [|b ids ih]; intros a out; [eexists; reflexivity|]. cbn [run_stages]. unfold calculate_stage. cbn [rbind]. destruct (assigned_total memory ns rows hne hf) as [o ->]. cbn [rbind fst snd]. exact (ih b (Some o)).
Qed.
Print Assumptions C89_unknown_refuted.

(** two stages of different step size, one node free to move vertically, a solver that moves the node at constant speed *)
Example C89_case : let n := mkNode 0 None (T3 None (Some 0%nat) None) (T3 0 0 0) (T3 false true false) [] : node R in
  let step := fun (dt : R) (t : nat) (r : row R) => Ok (mkRow [nth 0 (rw_u r) 0 + dt * nth 0 (rw_v r) 0] (rw_v r) [0] [0]) : res (row R) in
  let time := [0; 1; 2; 4; 6] in
  (2 <= length time)%nat /\ flags_match n /\
  (forall i j, (S i < length time)%nat -> (S j < length time)%nat -> step_size time i = step_size time j \/ 1 / 1000000000000000 < Rabs (step_size time i - step_size time j)) /\
  (forall i j k, (i <= j <= k)%nat -> (S k < length time)%nat -> step_size time i = step_size time k -> step_size time j = step_size time i) /\
  exists rows' out, run_all Dynamic step step time (tlist (T3 0 0 0)) [n] (repeat (mkRow [0] [3] [0] [0]) 5) = Ok (rows', out).
Proof.
  cbv zeta. destruct C49_case as [h1 [h2 h3]]. split; [cbn; lia|]. assert (hf : flags_match (mkNode 0 None (T3 None (Some 0%nat) None) (T3 0 0 0) (T3 false true false) [] : node R)) by (intros []; cbn; split; congruence).
  split; [exact hf|]. split; [exact h2|]. split; [exact h3|]. apply C89_ends; [cbn; lia|reflexivity|discriminate|intros m [<-|[]]; exact hf|]. intros _ dt t r. eexists. reflexivity.
Qed.
