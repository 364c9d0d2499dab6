(** * Properties of the global system (C06, C07, C08, C11, C12, C13, C33, C49, C50) *)

From Coq Require Import Reals List Bool ZArith Arith Lia Lra Permutation Sorted.
From Verif Require Import Num PyBase Model_Geometry Model_System Spec_System Proofs_Dof Proofs_System.
Import ListNotations.
Local Open Scope R_scope.

Definition plain_node (id : nat) (dof : tri (option nat)) (flag : tri bool) : node R :=
  mkNode id (Some id) dof (T3 (INR id) 0 0) flag [].

(** C06: node i gets 3i, 3i+1, 3i+2; all numbers below 3n are used, none twice; nothing else of a node changes *)
Theorem C06_dof_numbering (ns : list (node R)) :
  let (ns', n) := initialise_ndof ns in
  n = (3 * length ns)%nat /\ length ns' = length ns /\ numbered ns' n /\
  (forall p a, nth_error ns p = Some a ->
     exists b, nth_error ns' p = Some b /\ same_identity a b /\ n_flag b = n_flag a /\
               n_dof b = T3 (Some (3 * p)%nat) (Some (3 * p + 1)%nat) (Some (3 * p + 2)%nat)) /\
  (forall p d q e k, number_of ns' p d = Some k -> number_of ns' q e = Some k -> p = q /\ d = e) /\
  (forall k, (k < n)%nat -> exists p d, number_of ns' p d = Some k).
Proof. exact (ndof_numbering ns). Qed.
Print Assumptions C06_dof_numbering.

Example C06_case :
  all_numbers (fst (initialise_ndof [plain_node 0 (T3 (Some 9%nat) None (Some 9%nat)) (T3 true false true); plain_node 1 (T3 None None None) (T3 true true true)]))
  = [0; 1; 2; 3; 4; 5]%nat.
Proof. reflexivity. Qed.

(** C07: removing any set of degrees of freedom, given in any order and with repetitions *)
Theorem C07_trim_consistent (s : gsys R) (ns : list (node R)) (n : nat) (removed : list nat) :
  square n s -> numbered ns n -> (forall k, In k removed -> (k < n)%nat) ->
  exists s', trim_on_indices s removed removed = Ok s' /\
  let (ns', n') := recalculate_dof removed ns in
  square n' s' /\ numbered ns' n' /\ n' = survivors_below removed n /\
  (forall p d k, number_of ns p d = Some k -> In k removed -> number_of ns' p d = None /\ active ns' p d = false) /\
  (forall p d, number_of ns p d = None -> number_of ns' p d = None /\ active ns' p d = false) /\
  (forall p d k, number_of ns p d = Some k -> ~ In k removed ->
     exists k', number_of ns' p d = Some k' /\ (k' < n')%nat /\ active ns' p d = active ns p d /\
       nth_error (gF s') k' = nth_error (gF s) k /\
       forall q e l l', number_of ns q e = Some l -> number_of ns' q e = Some l' ->
         me (gK s') k' l' = me (gK s) k l /\ me (gM s') k' l' = me (gM s) k l /\ me (gC s') k' l' = me (gC s) k l).
Proof. exact (trim_consistent s ns n removed). Qed.
Print Assumptions C07_trim_consistent.

(** C07 for a whole history of trims: whatever was removed before, numbers and matrices still belong together *)
Theorem C07_trim_history (rs : list (list nat)) (s0 : gsys R) (ns0 : list (node R)) (n0 : nat) :
  square n0 s0 -> numbered ns0 n0 -> in_range n0 rs ->
  exists s ns n, trim_history s0 ns0 n0 rs = Ok (s, ns, n) /\ square n s /\ numbered ns n /\
    (forall p d, number_of ns0 p d = None -> number_of ns p d = None) /\
    (forall p d q e k l, number_of ns p d = Some k -> number_of ns q e = Some l ->
       exists k0 l0, number_of ns0 p d = Some k0 /\ number_of ns0 q e = Some l0 /\
         active ns p d = active ns0 p d /\
         nth_error (gF s) k = nth_error (gF s0) k0 /\
         me (gK s) k l = me (gK s0) k0 l0 /\ me (gM s) k l = me (gM s0) k0 l0 /\ me (gC s) k l = me (gC s0) k0 l0).
Proof. exact (trim_history_spec rs s0 ns0 n0). Qed.
Print Assumptions C07_trim_history.

Definition case_sys : gsys R :=
  mkSys (mkMat 6 6 (fun i j => INR (10 * i + j))) (mkMat 6 6 (fun i j => 1)) (mkMat 6 6 (fun i j => INR i)) [1; 2; 3; 4; 5; 6].
Definition case_nodes : list (node R) :=
  [plain_node 0 (T3 (Some 0) (Some 1) (Some 2))%nat (T3 true true true);
   plain_node 1 (T3 (Some 3) (Some 4) (Some 5))%nat (T3 true false true)].

Example C07_case :
  square 6 case_sys /\ numbered case_nodes 6 /\ in_range 6 [[4; 1; 1]; [0]]%nat /\
  all_numbers (fst (recalculate_dof [4; 1; 1]%nat case_nodes)) = [0; 1; 2; 3]%nat /\
  number_of (fst (recalculate_dof [4; 1; 1]%nat case_nodes)) 1 DR = Some 3%nat.
Proof.
  split; [repeat split|]. split; [reflexivity|]. split; [|split; reflexivity].
  simpl. split; [intros k h; intuition lia|]. split; [|exact I].
  change (survivors_below [4; 1; 1]%nat 6) with 4%nat. intros k h; intuition lia.
Qed.

(** C08 (partial): for any constraints, the surviving degrees of freedom are exactly those that are active
    after the constraints were applied in order (the last constraint that lists a node decides), and have a mass and
    a stiffness diagonal above 1e-8.  Missing from the English claim: a constraint is overruled by a later one
    on the same node, see the refutation. *)
Theorem C08_trimmed_set_partial (s : gsys R) (ns : list (node R)) (cs : list (list nat * tri bool)) (n : nat) :
  square n s -> numbered ns n ->
  exists s' ns' n', trim_all s (fold_left apply_constraint cs ns) = Ok (s', ns', n') /\ square n' s' /\ numbered ns' n' /\
    (forall p d k, number_of ns p d = Some k ->
       (number_of ns' p d <> None <->
        flag_after cs p d (active ns p d) = true /\ 1 / 100000000 < Rabs (me (gM s) k k) /\ 1 / 100000000 < Rabs (me (gK s) k k))) /\
    (forall p d, number_of ns p d = None -> number_of ns' p d = None) /\
    (forall p d, active ns' p d = true <-> number_of ns' p d <> None) /\
    (forall p d q e k l k' l', number_of ns p d = Some k -> number_of ns' p d = Some k' ->
       number_of ns q e = Some l -> number_of ns' q e = Some l' ->
       nth_error (gF s') k' = nth_error (gF s) k /\
       me (gK s') k' l' = me (gK s) k l /\ me (gM s') k' l' = me (gM s) k l /\ me (gC s') k' l' = me (gC s) k l).
Proof. exact (constrained_trim s ns cs n). Qed.
Print Assumptions C08_trimmed_set_partial.

(** C08, the English claim, when no node is listed by two constraints and the nodes start active *)
Theorem C08_trimmed_set_disjoint (s : gsys R) (ns : list (node R)) (cs : list (list nat * tri bool)) (n : nat) :
  square n s -> numbered ns n ->
  (forall p d, number_of ns p d <> None -> active ns p d = true) ->
  (forall i j c1 c2 p, nth_error cs i = Some c1 -> nth_error cs j = Some c2 -> In p (fst c1) -> In p (fst c2) -> i = j) ->
  exists s' ns' n', trim_all s (fold_left apply_constraint cs ns) = Ok (s', ns', n') /\
    (forall p d k, number_of ns p d = Some k ->
       (number_of ns' p d <> None <->
        ~ (exists c, In c cs /\ In p (fst c) /\ tget (snd c) d = false) /\
        1 / 100000000 < Rabs (me (gM s) k k) /\ 1 / 100000000 < Rabs (me (gK s) k k))).
Proof. exact (constrained_trim_disjoint s ns cs n). Qed.
Print Assumptions C08_trimmed_set_disjoint.

Example C08_case :
  let cs := [([0%nat], T3 true false true); ([1%nat], T3 false false false)] in
  numbered case_nodes 6 /\
  (forall i j c1 c2 p, nth_error cs i = Some c1 -> nth_error cs j = Some c2 -> In p (fst c1) -> In p (fst c2) -> i = j).
Proof.
  simpl. split; [reflexivity|].
  intros [|[|[|i]]] [|[|[|j]]] c1 c2 p h1 h2 h3 h4; simpl in *; try discriminate; auto;
    injection h1 as <-; injection h2 as <-; simpl in *; intuition lia.
Qed.

(** C08 (full statement refuted): a node clamped by one constraint is released by a later constraint that lists it
    with a free direction. *)
Theorem C08_all_constraints_refuted :
  exists (s : gsys R) (ns : list (node R)) (cs : list (list nat * tri bool)) n s' ns' n' p d c,
    square n s /\ numbered ns n /\ In c cs /\ In p (fst c) /\ tget (snd c) d = false /\
    trim_all s (fold_left apply_constraint cs ns) = Ok (s', ns', n') /\ number_of ns' p d <> None.
Proof. exact constraint_overruled. Qed.
Print Assumptions C08_all_constraints_refuted.

(** C11 *)
Theorem C11_reshape (n_nodes : nat) (dofs : list bool) (aux : nat -> nat -> R) :
  let nd := length dofs in
  let m := reshape_aux_matrix n_nodes dofs aux in
  mr m = (n_nodes * nd)%nat /\ mc m = (n_nodes * nd)%nat /\
  (forall i j k l, (i < n_nodes)%nat -> (j < n_nodes)%nat -> (k < nd)%nat -> (l < nd)%nat ->
     me m (i * nd + k)%nat (j * nd + l)%nat =
     if (nth k dofs false && nth l dofs false)%bool
     then aux (i * count_true dofs + active_before dofs k)%nat (j * count_true dofs + active_before dofs l)%nat
     else 0) /\
  (forallb (fun b => b) dofs = true ->
   forall a b, (a < n_nodes * nd)%nat -> (b < n_nodes * nd)%nat -> me m a b = aux a b) /\
  (msym (n_nodes * count_true dofs) aux -> msym (n_nodes * nd) (me m)).
Proof.
  destruct (reshape_spec n_nodes dofs aux) as [h1 [h2 h3]]. split; [exact h1|]. split; [exact h2|]. split; [exact h3|].
  split; [exact (reshape_all_active n_nodes dofs aux)|exact (reshape_symmetric n_nodes dofs aux)].
Qed.
Print Assumptions C11_reshape.

Example C11_case :
  let m := reshape_aux_matrix 2 [true; false; true] (fun i j => INR (4 * i + j)) in
  me m 5%nat 3%nat = INR (4 * 3 + 2) /\ me m 1%nat 1%nat = 0.
Proof. split; reflexivity. Qed.

(** C12: superposition, independence of the order, symmetry, energy *)
Theorem C12_assembly (g : mat R) (contribs : list (list nat * (nat -> nat -> R))) :
  (forall c k, In c contribs -> In k (fst c) -> (k < mr g)%nat /\ (k < mc g)%nat) ->
  exists g', add_to_global g contribs = Ok g' /\ mr g' = mr g /\ mc g' = mc g /\
    (forall i j, (i < mr g)%nat -> (j < mc g)%nat ->
       me g' i j = me g i j + nsum (map (fun c => local_entry (fst c) (snd c) i j) contribs)).
Proof. exact (assembly_spec g contribs). Qed.
Print Assumptions C12_assembly.

Theorem C12_assembly_order (g : mat R) (c1 c2 : list (list nat * (nat -> nat -> R))) g1 g2 :
  Permutation c1 c2 ->
  (forall c k, In c c1 -> In k (fst c) -> (k < mr g)%nat /\ (k < mc g)%nat) ->
  add_to_global g c1 = Ok g1 -> add_to_global g c2 = Ok g2 ->
  forall i j, (i < mr g)%nat -> (j < mc g)%nat -> me g1 i j = me g2 i j.
Proof. exact (assembly_order g c1 c2 g1 g2). Qed.
Print Assumptions C12_assembly_order.

Theorem C12_assembly_symmetric_psd (g : mat R) contribs g' :
  mr g = mc g ->
  (forall c k, In c contribs -> In k (fst c) -> (k < mr g)%nat) ->
  add_to_global g contribs = Ok g' ->
  (msym (mr g) (me g) -> (forall c, In c contribs -> msym (length (fst c)) (snd c)) -> msym (mr g) (me g')) /\
  (forall x, quad (mr g) (me g') x = quad (mr g) (me g) x
     + nsum (map (fun c => quad (length (fst c)) (snd c) (fun p => x (nth p (fst c) 0%nat))) contribs)) /\
  (psd (mr g) (me g) -> (forall c, In c contribs -> psd (length (fst c)) (snd c)) -> psd (mr g) (me g')).
Proof.
  intros h1 h2 h3. split; [exact (assembly_sym g contribs g' h1 h2 h3)|]. split.
  - intros x. exact (assembly_energy g contribs g' x h1 h2 h3).
  - exact (assembly_psd g contribs g' h1 h2 h3).
Qed.
Print Assumptions C12_assembly_symmetric_psd.

(** two springs in a row on numbers 0-1 and 1-2 *)
Example C12_case :
  let spring (k : R) := fun i j : nat => if Nat.eqb i j then k else - k in
  let contribs := [([0; 1]%nat, spring 2); ([1; 2]%nat, spring 3)] in
  (forall c k, In c contribs -> In k (fst c) -> (k < 3)%nat) /\
  (forall c, In c contribs -> msym (length (fst c)) (snd c)) /\
  nsum (map (fun c => local_entry (fst c) (snd c) 1 1) contribs) = 5.
Proof.
  cbv zeta. split; [|split].
  - intros c k hc hk. simpl in hc. destruct hc as [<-|[<-|[]]]; simpl in hk; intuition lia.
  - intros c hc i j _ _. simpl in hc. destruct hc as [<-|[<-|[]]]; simpl; rewrite (Nat.eqb_sym i j); reflexivity.
  - unfold local_entry. simpl. rnum. lra.
Qed.

(** C13 *)
Theorem C13_delete (m : mat R) (rows cols : list nat) :
  (forall i, In i rows -> (i < mr m)%nat) -> (forall j, In j cols -> (j < mc m)%nat) ->
  exists m', delete_from_lil m rows cols = Ok m' /\
    mr m' = survivors_below rows (mr m) /\ mc m' = survivors_below cols (mc m) /\
    (forall i j, (i < mr m)%nat -> (j < mc m)%nat -> ~ In i rows -> ~ In j cols ->
       me m' (survivors_below rows i) (survivors_below cols j) = me m i j).
Proof. exact (delete_lil_spec m rows cols). Qed.
Print Assumptions C13_delete.

(** the positions [survivors_below] are the order-preserving numbering of the kept rows: increasing, one-to-one *)
Theorem C13_positions (removed : list nat) (a b : nat) :
  ((a < b)%nat -> ~ In a removed -> (survivors_below removed a < survivors_below removed b)%nat) /\
  (removed = [] -> survivors_below removed a = a) /\
  ((survivors_below removed a <= a)%nat).
Proof. exact (survivors_below_order removed a b). Qed.
Print Assumptions C13_positions.

Theorem C13_delete_order_free (m : mat R) (r1 r2 c1 c2 : list nat) m1 m2 :
  (forall i, In i r1 <-> In i r2) -> (forall j, In j c1 <-> In j c2) ->
  delete_from_lil m r1 c1 = Ok m1 -> delete_from_lil m r2 c2 = Ok m2 ->
  mr m1 = mr m2 /\ mc m1 = mc m2 /\ forall i j, (i < mr m1)%nat -> (j < mc m1)%nat -> me m1 i j = me m2 i j.
Proof. exact (delete_order_free m r1 r2 c1 c2 m1 m2). Qed.
Print Assumptions C13_delete_order_free.

Theorem C13_delete_out_of_range (m : mat R) (rows cols : list nat) :
  (exists i, In i rows /\ (mr m <= i)%nat) \/ (exists j, In j cols /\ (mc m <= j)%nat) ->
  delete_from_lil m rows cols = Err ErrIndex.
Proof. exact (delete_lil_err m rows cols). Qed.
Print Assumptions C13_delete_out_of_range.

Theorem C13_delete_vector (v : list R) (rows : list nat) :
  (forall i, In i rows -> (i < length v)%nat) ->
  exists v', delete_from_vec v rows = Ok v' /\ length v' = survivors_below rows (length v) /\
    (forall i x, nth_error v i = Some x -> ~ In i rows -> nth_error v' (survivors_below rows i) = Some x).
Proof. exact (delete_vec_spec v rows). Qed.
Print Assumptions C13_delete_vector.

Example C13_case :
  match delete_from_lil (mkMat 3 3 (fun i j => INR (3 * i + j))) [1; 1]%nat [2; 0]%nat with
  | Ok m => mr m = 2%nat /\ mc m = 1%nat /\ me m 1%nat 0%nat = INR 7
  | Err _ => False
  end.
Proof. repeat split. Qed.

(** C33 (partial): every entry is the sum of what the conditions prescribe for it, when no condition lists a
    number twice.  Missing: a condition listing a node twice, see the refutation. *)
Theorem C33_force_sum_partial (n : nat) (conds : list (cond R)) :
  (forall c, In c conds -> length (c_vals c) = length (c_nodes c) /\ NoDup (part_dof_indices (c_flag c) (c_nodes c)) /\
     forall i, In i (part_dof_indices (c_flag c) (c_nodes c)) -> (i < n)%nat) ->
  length (rhs n conds) = n /\
  forall k, nth k (rhs n conds) 0 = nsum (map (fun c => cond_force c k) conds).
Proof. exact (rhs_spec n conds). Qed.
Print Assumptions C33_force_sum_partial.

(** the numbers used by a condition are those of its nodes in its own active directions *)
Theorem C33_condition_numbers (flag : tri bool) (nodes : list (node R)) (k : nat) :
  In k (part_dof_indices flag nodes) <->
  exists p d, tget flag d = true /\ number_of nodes p d = Some k.
Proof. exact (part_dof_indices_In flag nodes k). Qed.
Print Assumptions C33_condition_numbers.

Example C33_case :
  let c1 := mkCond (T3 false true false) case_nodes [T3 1 2 3; T3 4 5 6] in
  let c2 := mkCond (T3 true true true) [plain_node 0 (T3 (Some 0) (Some 1) None)%nat (T3 true true false)] [T3 10 20 30] in
  (forall c, In c [c1; c2] -> length (c_vals c) = length (c_nodes c) /\ NoDup (part_dof_indices (c_flag c) (c_nodes c)) /\
     forall i, In i (part_dof_indices (c_flag c) (c_nodes c)) -> (i < 6)%nat) /\
  nsum (map (fun c => cond_force c 1) [c1; c2]) = 22.
Proof.
  cbv zeta. split.
  - intros c [<-|[<-|[]]]; simpl; (split; [reflexivity|]); (split; [repeat constructor; simpl; intuition lia|]); intros i hi; intuition lia.
  - unfold cond_force. simpl. rnum. lra.
Qed.

(** C33 (full statement refuted): a condition with the same node twice, one newton each, applies one newton *)
Theorem C33_duplicate_node_refuted :
  exists (n : nat) (c : cond R) (k : nat),
    length (c_vals c) = length (c_nodes c) /\
    (forall i, In i (part_dof_indices (c_flag c) (c_nodes c)) -> (i < n)%nat) /\
    cond_force c k = 2 /\ nth k (rhs n [c]) 0 = 1.
Proof. exact duplicate_node_lost. Qed.
Print Assumptions C33_duplicate_node_refuted.

(** C49 (partial): boundaries start at 0, end at the last index and increase for every time vector; the steps
    within a stage are equal if equal steps are contiguous.  Missing: a step size that comes back. *)
Theorem C49_stages_partial (time : list R) :
  (2 <= length time)%nat ->
  let ids := stage_time_ids time in
  StronglySorted lt ids /\ hd_error ids = Some 0%nat /\ last ids 0%nat = (length time - 1)%nat /\
  ((forall i j, (S i < length time)%nat -> (S j < length time)%nat ->
      step_size time i = step_size time j \/ 1 / 1000000000000000 < Rabs (step_size time i - step_size time j)) ->
   (forall i j k, (i <= j <= k)%nat -> (S k < length time)%nat ->
      step_size time i = step_size time k -> step_size time j = step_size time i) ->
   forall a b, (forall k, In k ids -> (k <= a)%nat \/ (b <= k)%nat) ->
   forall i j, (a <= i < b)%nat -> (a <= j < b)%nat -> (b < length time)%nat ->
     step_size time i = step_size time j).
Proof. exact (stages_spec time). Qed.
Print Assumptions C49_stages_partial.

Example C49_case :
  let time := [0; 1; 2; 4; 6] in
  (2 <= length time)%nat /\
  (forall i j, (S i < length time)%nat -> (S j < length time)%nat ->
      step_size time i = step_size time j \/ 1 / 1000000000000000 < Rabs (step_size time i - step_size time j)) /\
  (forall i j k, (i <= j <= k)%nat -> (S k < length time)%nat ->
      step_size time i = step_size time k -> step_size time j = step_size time i).
Proof.
  cbv zeta. split; [simpl; lia|]. unfold step_size. split.
  - intros [|[|[|[|i]]]] [|[|[|[|j]]]] h1 h2; simpl in *; try lia; try (left; lra);
      right; unfold Rabs; destruct (Rcase_abs _); lra.
  - intros [|[|[|[|i]]]] [|[|[|[|j]]]] [|[|[|[|k]]]] h1 h2 h3; simpl in *; try lia; lra.
Qed.

(** C49 (full statement refuted): steps 1, 2, 1 give one stage with the steps 2 and 1 *)
Theorem C49_returning_step_refuted :
  exists (time : list R) (a b i j : nat),
    (forall p q, (p < q < length time)%nat -> nth p time 0 < nth q time 0) /\
    In a (stage_time_ids time) /\ In b (stage_time_ids time) /\
    (forall k, In k (stage_time_ids time) -> (k <= a)%nat \/ (b <= k)%nat) /\
    (a <= i < b)%nat /\ (a <= j < b)%nat /\ (b < length time)%nat /\ step_size time i <> step_size time j.
Proof. exact returning_step. Qed.
Print Assumptions C49_returning_step_refuted.

(** C50: the damping ratio c/(2 w m) of a mode with c = a0 m + a1 w^2 m *)
Theorem C50_rayleigh_ratio (xi w1 w2 : R) :
  0 <= xi -> 0 < w1 -> 0 < w2 ->
  let a0 := fst (rayleigh_factors xi w1 w2) in
  let a1 := snd (rayleigh_factors xi w1 w2) in
  0 <= a0 /\ 0 <= a1 /\
  (a0 + a1 * (w1 * w1)) / (2 * w1) = xi /\ (a0 + a1 * (w2 * w2)) / (2 * w2) = xi /\
  (forall w, w1 <= w <= w2 -> (a0 + a1 * (w * w)) / (2 * w) <= xi) /\
  (forall w, w1 <= w2 -> 0 < w <= w1 \/ w2 <= w -> xi <= (a0 + a1 * (w * w)) / (2 * w)).
Proof. exact (rayleigh_all xi w1 w2). Qed.
Print Assumptions C50_rayleigh_ratio.

(** C50 on the matrices: for a mode [x] of frequency [w] (K x = w^2 M x) the added damping is 2 xi w M x, on top
    of the explicit damping; damping stays positive semidefinite; stiffness, mass and force are untouched *)
Theorem C50_rayleigh_matrix (n : nat) (s : gsys R) (xi w1 w2 : R) :
  0 <= xi -> 0 < w1 -> 0 < w2 ->
  let s' := rayleigh_damping true xi w1 w2 s in
  gK s' = gK s /\ gM s' = gM s /\ gF s' = gF s /\ mr (gC s') = mr (gC s) /\ mc (gC s') = mc (gC s) /\
  (forall i j, me (gC s') i j = me (gC s) i j
     + (fst (rayleigh_factors xi w1 w2) * me (gM s) i j + snd (rayleigh_factors xi w1 w2) * me (gK s) i j)) /\
  (forall w x, w = w1 \/ w = w2 ->
     (forall i, (i < n)%nat -> mulv n (me (gK s)) x i = (w * w) * mulv n (me (gM s)) x i) ->
     forall i, (i < n)%nat -> mulv n (me (gC s')) x i = mulv n (me (gC s)) x i + 2 * xi * w * mulv n (me (gM s)) x i) /\
  (psd n (me (gM s)) -> psd n (me (gK s)) -> psd n (me (gC s)) -> psd n (me (gC s'))) /\
  rayleigh_damping false xi w1 w2 s = s.
Proof.
  intros h1 h2 h3. destruct (rayleigh_matrix xi w1 w2 s) as [g1 [g2 [g3 [g4 [g5 g6]]]]].
  repeat (split; [assumption|]). split; [|split; [|reflexivity]].
  - intros w x hw hm. exact (rayleigh_mode n s xi w1 w2 w x h1 h2 h3 hw hm).
  - exact (rayleigh_psd n s xi w1 w2 h1 h2 h3).
Qed.
Print Assumptions C50_rayleigh_matrix.

(** one mode: mass 1, stiffness 4, frequency 2 *)
Example C50_case :
  let s := mkSys (mkMat 1 1 (fun _ _ => 4)) (mkMat 1 1 (fun _ _ => 1)) (mkMat 1 1 (fun _ _ => 0)) [0] : gsys R in
  (forall i, (i < 1)%nat -> mulv 1 (me (gK s)) (fun _ => 1) i = (2 * 2) * mulv 1 (me (gM s)) (fun _ => 1) i) /\
  me (gC (rayleigh_damping true (1 / 10) 2 8 s)) 0%nat 0%nat = 2 * (1 / 10) * 2.
Proof. split; [intros i _; unfold mulv; simpl; rnum; lra|]. simpl. rnum. lra. Qed.
