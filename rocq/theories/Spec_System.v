(** * Vocabulary for statements about the global system *)

From Coq Require Import Reals List Bool Arith ZArith.
From Verif Require Import Num PyBase Model_Geometry Model_System.
Import ListNotations.

(** number of indices below [k] that are not in [removed] *)
Definition survivors_below (removed : list nat) (k : nat) : nat :=
  length (filter (fun i => negb (memb i removed)) (seq 0 k)).

(** the degree of freedom number of direction [d] of the [p]-th mesh node *)
Definition number_of {T} (ns : list (node T)) (p : nat) (d : dir) : option nat :=
  match nth_error ns p with Some n => tget (n_dof n) d | None => None end.
Definition active {T} (ns : list (node T)) (p : nat) (d : dir) : bool :=
  match nth_error ns p with Some n => tget (n_flag n) d | None => false end.

(** all numbers in mesh order (x, y, rotation per node) *)
Definition all_numbers {T} (ns : list (node T)) : list nat :=
  flat_map (fun n => flat_map (fun o => match o with Some k => [k] | None => [] end) (tlist (n_dof n))) ns.

(** the mesh is numbered 0, 1, ..., n-1 in mesh order *)
Definition numbered {T} (ns : list (node T)) (n : nat) : Prop := all_numbers ns = seq 0 n.

(** everything of a node except dof numbers and flags *)
Definition same_identity {T} (a b : node T) : Prop :=
  n_id a = n_id b /\ n_index a = n_index b /\ n_coord a = n_coord b /\ n_parts a = n_parts b.

(** quadratic form of a matrix of size [n] *)
Definition quad (n : nat) (m : nat -> nat -> R) (x : nat -> R) : R :=
  sumn n (fun i => sumn n (fun j => (x i * m i j * x j)%R)).
Definition msym (n : nat) (m : nat -> nat -> R) : Prop := forall i j, (i < n)%nat -> (j < n)%nat -> m i j = m j i.
Definition psd (n : nat) (m : nat -> nat -> R) : Prop := forall x, (0 <= quad n m x)%R.

(** the flag of direction [d] of node [p] after constraints were set one after the other *)
Definition flag_after (cs : list (list nat * tri bool)) (p : nat) (d : dir) (f0 : bool) : bool :=
  fold_left (fun f c => if memb p (fst c) then tget (snd c) d else f) cs f0.

(** number of active directions before direction [k] *)
Definition active_before (dofs : list bool) (k : nat) : nat := count_true (firstn k dofs).

(** contribution of a local matrix with global numbers [dofs] to the global entry (i, j) *)
Definition local_entry (dofs : list nat) (a : nat -> nat -> R) (i j : nat) : R :=
  sumn (length dofs) (fun p => sumn (length dofs) (fun q =>
    if (Nat.eqb (nth p dofs 0%nat) i && Nat.eqb (nth q dofs 0%nat) j)%bool then a p q else 0%R)).

(** all matrices are n x n and the force vector has n entries *)
Definition square (n : nat) (s : gsys R) : Prop :=
  mr (gK s) = n /\ mc (gK s) = n /\ mr (gM s) = n /\ mc (gM s) = n /\ mr (gC s) = n /\ mc (gC s) = n /\ length (gF s) = n.

(** product of a matrix of size [n] with a vector *)
Definition mulv (n : nat) (m : nat -> nat -> R) (x : nat -> R) (i : nat) : R := sumn n (fun j => (m i j * x j)%R).

(** the [i]-th step of a time vector *)
Definition step_size (time : list R) (i : nat) : R := (nth (S i) time 0 - nth i time 0)%R.

(** what a condition prescribes for number [k] *)
Definition cond_force (c : cond R) (k : nat) : R :=
  nsum (map (fun nv => nsum (map (fun d =>
     if (tget (c_flag c) d && match tget (n_dof (fst nv)) d with Some q => Nat.eqb q k | None => false end)%bool
     then tget (snd nv) d else 0%R) all_dirs)) (combine (c_nodes c) (c_vals c))).


(** every intermediate list of removed numbers is in range *)
Fixpoint in_range (n : nat) (rs : list (list nat)) : Prop :=
  match rs with
  | [] => True
  | r :: rs' => (forall k, In k r -> (k < n)%nat) /\ in_range (survivors_below r n) rs'
  end.
