(** * C136: a load given as a table acts as the table says *)

From Coq Require Import Reals List Bool ZArith Arith Lia Lra.
From Verif Require Import Num PyBase Model_Geometry Model_Tables Spec_Tables Proofs_Swarm Proofs_Irregularities.
Import ListNotations.
Local Open Scope R_scope.

(** tables with all missing ones filled in *)
Local Definition filled (n k : nat) (ts : tri (option (table R))) : tri (option (table R)) :=
  let keep o := match o with Some m => Some m | None => Some (empty_table n k) end in T3 (keep (tx ts)) (keep (ty ts)) (keep (tr ts)).
Local Definition complete (n k : nat) (o : option (table R)) : Prop := exists m, o = Some m /\ (n <= tb_rows m)%nat /\ (k <= tb_cols m)%nat.

Local Lemma filled_complete n k ts : all_wide n k ts -> let f := filled n k ts in complete n k (tx f) /\ complete n k (ty f) /\ complete n k (tr f).
Proof.
  intros [h1 [h2 h3]]. cbn. unfold complete, wide in *.
  destruct (tx ts); destruct (ty ts); destruct (tr ts); repeat split; eexists; (split; [reflexivity|]); cbn; try lia; assumption.
Qed.
Local Lemma filled_given n k ts t : let f := filled n k ts in forall i, given (tx f) i t = given (tx ts) i t /\ given (ty f) i t = given (ty ts) i t /\ given (tr f) i t = given (tr ts) i t.
Proof. cbn. intros i. destruct (tx ts), (ty ts), (tr ts); repeat split; reflexivity. Qed.
Local Lemma filled_twice n k ts : filled n k (filled n k ts) = filled n k ts.
Proof. destruct ts as [[x|] [y|] [z|]]; reflexivity. Qed.

(** a vector of [n] values, the first [i] of which are those of step [t] *)
Local Definition part_way (n t : nat) (o : option (table R)) (old : list R) (i : nat) : list R := map (fun q => if Nat.ltb q i then given o q t else nth q old 0) (seq 0 n).
Local Lemma part_way_set n t o old i : (i < n)%nat -> lset (part_way n t o old i) i (given o i t) = part_way n t o old (S i).
Proof.
  intros hi. unfold part_way. rewrite lset_map_seq. apply map_ext. intros q. destruct (Nat.eqb_spec q i) as [->|hne].
  - destruct (Nat.ltb_spec i (S i)); [reflexivity|lia].
  - destruct (Nat.ltb_spec q i), (Nat.ltb_spec q (S i)); try lia; reflexivity.
Qed.
Local Lemma part_way_length n t o old i : length (part_way n t o old i) = n.
Proof. unfold part_way. rewrite map_length, seq_length. reflexivity. Qed.
Local Lemma part_way_start n t o old : length old = n -> part_way n t o old 0 = old.
Proof.
  intros <-. unfold part_way. apply nth_ext with 0 0; [rewrite map_length, seq_length; reflexivity|]. rewrite map_length, seq_length. intros q hq.
  rewrite (map_ext _ (fun q => nth q old 0)) by (intros; reflexivity). rewrite (nth_indep _ 0 (nth 0 old 0)) by (rewrite map_length, seq_length; exact hq).
  rewrite (map_nth (fun q => nth q old 0) (seq 0 (length old)) 0%nat q), seq_nth by exact hq. reflexivity.
Qed.
Local Lemma part_way_end n t o old : part_way n t o old n = map (fun i => given o i t) (seq 0 n).
Proof. unfold part_way. apply map_ext_in. intros q hq. apply in_seq in hq. destruct (Nat.ltb_spec q n); [reflexivity|lia]. Qed.

Local Lemma table_ok n k o i t : complete n k o -> (i < n)%nat -> (t < k)%nat -> table_at o i t = Ok (given o i t).
Proof.
  intros [m [-> [h1 h2]]] hi ht. unfold table_at, given. destruct (Nat.ltb_spec i (tb_rows m)); [|lia]. destruct (Nat.ltb_spec t (tb_cols m)); [|lia]. reflexivity.
Qed.
Local Lemma vector_ok n t o old i : (i < n)%nat -> vector_set (Some (part_way n t o old i)) i (given o i t) = Ok (Some (part_way n t o old (S i))).
Proof. intros hi. unfold vector_set. rewrite part_way_length. destruct (Nat.ltb_spec i n); [|lia]. rewrite part_way_set by exact hi. reflexivity. Qed.

Local Lemma nodes_ok n k ts t ox oy oz : complete n k (tx ts) -> complete n k (ty ts) -> complete n k (tr ts) -> (t < k)%nat ->
  forall m i, (i + m = n)%nat -> update_nodes ts t (seq i m) (T3 (Some (part_way n t (tx ts) ox i)) (Some (part_way n t (ty ts) oy i)) (Some (part_way n t (tr ts) oz i))) =
    Ok (T3 (Some (part_way n t (tx ts) ox n)) (Some (part_way n t (ty ts) oy n)) (Some (part_way n t (tr ts) oz n))).
Proof.
  intros c1 c2 c3 ht. induction m as [|m IH]; intros i hi; [rewrite Nat.add_0_r in hi; subst i; reflexivity|]. cbn [seq update_nodes].
  assert (hin : (i < n)%nat) by lia. unfold update_one. cbn [tx ty tr].
  rewrite (table_ok n k _ i t c1 hin ht). cbn [rbind]. rewrite vector_ok by exact hin. cbn [rbind].
  rewrite (table_ok n k _ i t c2 hin ht). cbn [rbind]. rewrite vector_ok by exact hin. cbn [rbind].
  rewrite (table_ok n k _ i t c3 hin ht). cbn [rbind]. rewrite vector_ok by exact hin. cbn [rbind].
  apply IH. lia.
Qed.
Local Lemma update_ok n k ts t vx vy vz : complete n k (tx ts) -> complete n k (ty ts) -> complete n k (tr ts) -> (t < k)%nat ->
  length vx = n -> length vy = n -> length vz = n ->
  update_nodes ts t (seq 0 n) (T3 (Some vx) (Some vy) (Some vz)) = Ok (forces n ts t).
Proof.
  intros c1 c2 c3 ht l1 l2 l3. rewrite <- (part_way_start n t (tx ts) vx l1), <- (part_way_start n t (ty ts) vy l2), <- (part_way_start n t (tr ts) vz l3).
  rewrite (nodes_ok n k) by (assumption || lia). unfold forces. rewrite !part_way_end. reflexivity.
Qed.

Local Lemma forces_filled n k ts t : forces n (filled n k ts) t = forces n ts t.
Proof. unfold forces. f_equal; f_equal; apply map_ext; intros i; apply (filled_given n k ts t i). Qed.

(** what holds of a load while it runs *)
Local Definition running (n k : nat) (ts : tri (option (table R))) (c : tload R) : Prop :=
  tl_nodes c = n /\ tl_steps c = k /\ tl_tables c = filled n k ts /\ exists x y z, tl_vectors c = T3 (Some x) (Some y) (Some z) /\ length x = n /\ length y = n /\ length z = n.

Local Lemma running_step n k ts c a : all_wide n k ts -> running n k ts c -> runs k a -> exists c', act a c = Ok c' /\ running n k ts c' /\ (forall t, a = Step t -> tl_vectors c' = forces n ts t).
Proof.
  intros hw [h1 [h2 [h3 [x [y [z [h4 [l1 [l2 l3]]]]]]]]] ha. destruct c as [cn ck ct cv]. cbn in h1, h2, h3, h4. subst cn ck ct cv.
  destruct (filled_complete n k ts hw) as [c1 [c2 c3]]. destruct a as [m|n' k'| |t]; cbn [runs] in ha; try contradiction.
  - eexists. split; [reflexivity|]. split; [|discriminate]. unfold running, initialize_matrices. cbn [tl_nodes tl_steps tl_tables tl_vectors].
    split; [reflexivity|]. split; [reflexivity|]. split; [exact (filled_twice n k ts)|]. exists (repeat (lit 0) n), (repeat (lit 0) n), (repeat (lit 0) n).
    rewrite repeat_length. repeat split; reflexivity.
  - cbn [act]. unfold update_force. cbn [tl_nodes tl_tables tl_vectors tl_steps]. rewrite (update_ok n k) by assumption. cbn [rbind]. eexists. split; [reflexivity|]. split.
    + unfold running. cbn [tl_nodes tl_steps tl_tables tl_vectors]. repeat (split; [reflexivity|]). unfold forces. do 3 eexists. split; [reflexivity|]. rewrite !map_length, seq_length. repeat split; reflexivity.
    + intros t' e. injection e as <-. cbn [tl_vectors]. apply forces_filled.
Qed.
Local Lemma running_steps n k ts l : all_wide n k ts -> forall c, running n k ts c -> Forall (runs k) l -> exists c', acts l c = Ok c' /\ running n k ts c'.
Proof.
  intros hw. induction l as [|a r IH]; intros c hc hl; [exists c; auto|]. inversion hl as [|? ? ha hr]; subst. destruct (running_step n k ts c a hw hc ha) as [c' [e1 [e2 _]]].
  cbn [acts]. rewrite e1. cbn [rbind]. apply IH; assumption.
Qed.
Local Lemma acts_app l l' (c : tload R) : acts (l ++ l') c = (do c' <- acts l c ; acts l' c').
Proof. revert c. induction l as [|a r IH]; intros c; [reflexivity|]. cbn [app acts]. destruct (act a c); [cbn [rbind]; apply IH|reflexivity]. Qed.

(** Tables given for some of the directions, with at least a row for each node and a column for each step: after initialisation, going to
    any steps and initialising again as often as one likes, the forces at a step are those of the tables at that step, and none where no
    table was given.  Nothing raises *)
Theorem C136_given n k (ts : tri (option (table R))) l t : all_wide n k ts -> Forall (runs k) l -> (t < k)%nat ->
  exists c, acts ([Give ts; Initialise] ++ l ++ [Step t]) (new_tload n k) = Ok c /\ tl_vectors c = forces n ts t.
Proof.
  intros hw hl ht. rewrite acts_app. cbn [acts act rbind].
  set (c0 := initialize_matrices _). assert (h0 : running n k ts c0).
  { unfold running, c0, initialize_matrices, new_tload. cbn [tl_nodes tl_steps tl_tables tl_vectors]. repeat (split; [reflexivity|]).
    exists (repeat (lit 0) n), (repeat (lit 0) n), (repeat (lit 0) n). rewrite repeat_length. repeat split; reflexivity. }
  clearbody c0. rewrite acts_app. destruct (running_steps n k ts l hw c0 h0 hl) as [c1 [-> h1]]. cbn [rbind].
  destruct (running_step n k ts c1 (Step t) hw h1 ht) as [c2 [e [_ h2]]]. cbn [acts]. rewrite e. cbn [rbind]. exists c2. split; [reflexivity|]. apply h2. reflexivity.
Qed.
Print Assumptions C136_given.

(** Right after initialisation there are no forces, whatever the tables say: they come with the first step *)
Theorem C136_initial n k (ts : tri (option (table R))) :
  exists c, acts [Give ts; Initialise] (new_tload n k) = Ok c /\ tl_vectors c = T3 (Some (repeat 0 n)) (Some (repeat 0 n)) (Some (repeat 0 n)).
Proof. eexists. split; [reflexivity|]. reflexivity. Qed.
Print Assumptions C136_initial.

Local Lemma raises n k ts t : complete n k (ty ts) -> complete n k (tr ts) -> (t < k)%nat -> forall q i x y z, (i + q = n)%nat -> length x = n -> length y = n -> length z = n ->
  (forall j, (i <= j < i + q)%nat -> table_at (tx ts) j t = Ok (given (tx ts) j t) \/ table_at (tx ts) j t = Err ErrIndex) ->
  (exists j, (i <= j < i + q)%nat /\ table_at (tx ts) j t = Err ErrIndex) ->
  update_nodes ts t (seq i q) (T3 (Some x) (Some y) (Some z)) = Err ErrIndex.
Proof.
  intros cy cz ht. induction q as [|q IH]; intros i x y z hi lx ly lz hall [j [hj he]]; [lia|]. cbn [seq update_nodes]. unfold update_one. cbn [tx ty tr].
  destruct (hall i ltac:(lia)) as [g|g]; rewrite g; [|reflexivity]. cbn [rbind].
  assert (hset : forall o l, length l = n -> vector_set (Some l) i (given o i t) = Ok (Some (lset l i (given o i t)))) by (intros o l hl; unfold vector_set; destruct (Nat.ltb_spec i (length l)); [reflexivity|lia]).
  rewrite (hset (tx ts) x lx). cbn [rbind]. rewrite (table_ok n k _ i t cy) by lia. cbn [rbind]. rewrite (hset (ty ts) y ly). cbn [rbind]. rewrite (table_ok n k _ i t cz) by lia. cbn [rbind].
  rewrite (hset (tr ts) z lz). cbn [rbind]. apply IH; try lia; try (rewrite Proofs_Irregularities.lset_length; assumption).
  - intros j' hj'. apply hall. lia.
  - exists j. split; [|exact he]. destruct (Nat.eq_dec j i) as [->|]; [congruence|lia].
Qed.

(** A table that has no row for a node or no column for the step raises as soon as that step is asked for *)
Theorem C136_small n k (m : table R) y z t : (0 < n)%nat -> (t < k)%nat -> wide n k y -> wide n k z -> (tb_rows m < n)%nat \/ (tb_cols m <= t)%nat ->
  acts [Give (T3 (Some m) y z); Initialise; Step t] (new_tload n k) = Err ErrIndex.
Proof.
  intros hn ht hy hz hsmall. cbn [acts act rbind]. unfold update_force.
  change (update_nodes _ t _ _) with (update_nodes (filled n k (T3 (Some m) y z)) t (seq 0 n) (T3 (Some (repeat 0 n)) (Some (repeat 0 n)) (Some (repeat 0 n)))).
  rewrite (raises n k); [reflexivity| | |exact ht|lia|apply repeat_length|apply repeat_length|apply repeat_length| |].
  - cbn. unfold complete, wide in *. destruct y; [eauto|eexists; split; [reflexivity|cbn; lia]].
  - cbn. unfold complete, wide in *. destruct z; [eauto|eexists; split; [reflexivity|cbn; lia]].
  - intros j hj. unfold filled, table_at, given. cbn [tx]. destruct (Nat.ltb j (tb_rows m) && Nat.ltb t (tb_cols m))%bool; auto.
  - exists (n - 1)%nat. split; [lia|]. unfold filled, table_at. cbn [tx]. destruct (Nat.ltb_spec (n - 1) (tb_rows m)), (Nat.ltb_spec t (tb_cols m)); cbn [andb]; try reflexivity. lia.
Qed.
Print Assumptions C136_small.

(** Initialising again does not give the load its present settings: the tables that were made at the first initialisation keep their size.
    A load with a vertical table for the new time steps, too, raises at the new steps; the same settings on a new load do not *)
Theorem C136_longer_refuted n k (m : table R) : (0 < n)%nat -> (n <= tb_rows m)%nat -> (k < tb_cols m)%nat ->
  let ts := T3 None (Some m) None in
  acts [Give ts; Initialise; Resize n (S k); Initialise; Step k] (new_tload n k) = Err ErrIndex /\
  exists c, acts [Give ts; Initialise; Step k] (new_tload n (S k)) = Ok c /\ tl_vectors c = forces n ts k.
Proof.
  intros hn h1 h2 ts. split.
  - destruct n as [|n]; [lia|]. cbn [acts act rbind]. unfold update_force, initialize_matrices, new_tload, ts. cbn [tl_nodes tl_steps tl_tables tl_vectors tx ty tr seq update_nodes].
    unfold update_one. cbn [tx ty tr]. unfold table_at at 1, empty_table. cbn [tb_rows tb_cols]. rewrite Nat.ltb_irrefl, andb_false_r. reflexivity.
  - apply (C136_given n (S k) ts [] k); [|constructor|lia]. unfold all_wide, ts. cbn. lia.
Qed.
Print Assumptions C136_longer_refuted.

(** Tables belong to positions, not to nodes: with fewer nodes than before, the first rows are used, whichever nodes were left out *)
Theorem C136_fewer n n' k (ts : tri (option (table R))) l t : all_wide n k ts -> (n' <= n)%nat -> Forall (runs k) l -> (t < k)%nat ->
  exists c, acts ([Give ts; Initialise; Resize n' k; Initialise] ++ l ++ [Step t]) (new_tload n k) = Ok c /\ tl_vectors c = forces n' ts t.
Proof.
  intros hw hle hl ht. set (c1 := mkTload n k (filled n k ts) (T3 (Some (repeat 0 n)) (Some (repeat 0 n)) (Some (repeat 0 n)))).
  assert (hw' : all_wide n' k (filled n k ts)).
  { destruct (filled_complete n k ts hw) as [[a [e1 g1]] [[b [e2 g2]] [d [e3 g3]]]]. unfold all_wide. rewrite e1, e2, e3. cbn. lia. }
  destruct (C136_given n' k (filled n k ts) l t hw' hl ht) as [c [hc hv]]. exists c. split; [|rewrite hv].
  - rewrite acts_app in hc |- *. exact hc.
  - unfold forces. f_equal; f_equal; apply map_ext; intros i; apply (filled_given n k ts t i).
Qed.
Print Assumptions C136_fewer.

(** ** a case: two nodes, three steps, a vertical force that moves from the first to the second node *)
Definition case_table : table R := mkTable 2 3 (fun i t => if Nat.eqb i (t / 2) then -1000 else 0).
Example C136_case : let ts := T3 None (Some case_table) None in all_wide 2 3 ts /\ Forall (runs 3) [Step 2; Initialise; Step 0] /\
  forces 2 ts 1 = T3 (Some [0; 0]) (Some [-1000; 0]) (Some [0; 0]) /\ forces 2 ts 2 = T3 (Some [0; 0]) (Some [0; -1000]) (Some [0; 0]).
Proof.
  intros ts. split; [unfold all_wide, ts; cbn; lia|]. split; [repeat constructor; cbn; lia|]. split; reflexivity.
Qed.
