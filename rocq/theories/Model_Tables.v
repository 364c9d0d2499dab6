(** * Model of loads that are given as tables of forces: rose/model/boundary_conditions.py 14-137 *)

From Coq Require Import List Bool ZArith Arith.
From Verif Require Import Num PyBase Model_Geometry.
Import ListNotations.

Section Tables.
  Context {T : Type} `{Num T}.

  (** a sparse matrix with one row for each node and one column for each time step (boundary_conditions.py 101-109) *)
  Record table := mkTable { tb_rows : nat; tb_cols : nat; tb_val : nat -> nat -> T }.
  (** [sparse.lil_matrix((rows, cols))], boundary_conditions.py 102, 105 and 108: no forces *)
  Definition empty_table (rows cols : nat) : table := mkTable rows cols (fun _ _ => lit 0).
  (** [matrix[i, t]], boundary_conditions.py 135-137; [None] cannot be indexed.  Simplified: indices are not negative *)
  Definition table_at (o : option table) (i t : nat) : res T :=
    match o with
    | None => Err ErrType
    | Some m => if Nat.ltb i (tb_rows m) && Nat.ltb t (tb_cols m) then Ok (tb_val m i t) else Err ErrIndex
    end.
  (** [vector[i] = v], boundary_conditions.py 135-137 *)
  Definition vector_set (o : option (list T)) (i : nat) (v : T) : res (option (list T)) :=
    match o with
    | None => Err ErrType
    | Some l => if Nat.ltb i (length l) then Ok (Some (lset l i v)) else Err ErrIndex
    end.

  (** a load condition: number of its nodes, number of time steps, the tables and the vectors of the present time step for force along x,
      vertical force and moment (boundary_conditions.py 37-63) *)
  Record tload := mkTload { tl_nodes : nat; tl_steps : nat; tl_tables : tri (option table); tl_vectors : tri (option (list T)) }.

  (** boundary_conditions.py 37-63, [LoadCondition.__init__], after nodes and time were set *)
  Definition new_tload (nodes steps : nat) : tload := mkTload nodes steps (T3 None None None) (T3 None None None).

  (** boundary_conditions.py 93-109, [initialize_matrices]: only a table that is missing is made; the vectors always are.  This is all
      that [initialize] (lines 88-91) does to forces *)
  Definition initialize_matrices (c : tload) : tload :=
    let keep o := match o with Some m => Some m | None => Some (empty_table (tl_nodes c) (tl_steps c)) end in
    let zero := Some (repeat (lit 0) (tl_nodes c)) in
    mkTload (tl_nodes c) (tl_steps c) (T3 (keep (tx (tl_tables c))) (keep (ty (tl_tables c))) (keep (tr (tl_tables c)))) (T3 zero zero zero).

  (** boundary_conditions.py 134-137: one node of [update_force] *)
  Definition update_one (tables : tri (option table)) (t i : nat) (v : tri (option (list T))) : res (tri (option (list T))) :=
    do a <- table_at (tx tables) i t ; do x <- vector_set (tx v) i a ;
    do b <- table_at (ty tables) i t ; do y <- vector_set (ty v) i b ;
    do c <- table_at (tr tables) i t ; do r <- vector_set (tr v) i c ;
    Ok (T3 x y r).
  (** boundary_conditions.py 134-137: the loop over the nodes *)
  Fixpoint update_nodes (tables : tri (option table)) (t : nat) (is : list nat) (v : tri (option (list T))) : res (tri (option (list T))) :=
    match is with
    | [] => Ok v
    | i :: r => do v' <- update_one tables t i v ; update_nodes tables t r v'
    end.
  (** boundary_conditions.py 128-137, [update_force] *)
  Definition update_force (t : nat) (c : tload) : res tload :=
    do v <- update_nodes (tl_tables c) t (seq 0 (tl_nodes c)) (tl_vectors c) ;
    Ok (mkTload (tl_nodes c) (tl_steps c) (tl_tables c) v).

  (** what a user does with a load: give tables or take them away (assignment of the public attributes, boundary_conditions.py 55-57), set
      nodes and time (lines 62-63 and model_part.py 28-60), initialise it, and go to a time step *)
  Inductive action :=
  | Give (tables : tri (option table))
  | Resize (nodes steps : nat)
  | Initialise
  | Step (t : nat).
  (** boundary_conditions.py 88-137: one action *)
  Definition act (a : action) (c : tload) : res tload :=
    match a with
    | Give m => Ok (mkTload (tl_nodes c) (tl_steps c) m (tl_vectors c))
    | Resize n k => Ok (mkTload n k (tl_tables c) (tl_vectors c))
    | Initialise => Ok (initialize_matrices c)
    | Step t => update_force t c
    end.
  (** boundary_conditions.py 88-137: one action after the other *)
  Fixpoint acts (l : list action) (c : tload) : res tload :=
    match l with
    | [] => Ok c
    | a :: r => do c' <- act a c ; acts r c'
    end.
End Tables.

Arguments table T : clear implicits.
Arguments tload T : clear implicits.
Arguments action T : clear implicits.
