(** * Model of what the scripts write after a run: run_rose/demo.py 180-294 and run_rose/batch_calculation.py 200-266

    demo_rf.py has the function of demo.py, run_optimisation.py that of batch_calculation.py; demo_semi_rigid.py and
    demo_semi_rigid_rf.py are in [Model_SemiRigidResults] *)

From Coq Require Import String List Bool ZArith Arith.
From Verif Require Import Num PyBase Model_Geometry Model_System Model_Element Model_Moving Model_Accumulation Model_Run Model_CoupledRun.
Import ListNotations.

Section DemoResults.
  Context {T : Type} `{Num T}.
  Local Open Scope num_scope.

  (** a model part of the track as the scripts read it: whether it is a soil part (demo.py 220), its nodes and its elements by their
      places in the lists of the mesh of the track, and its stiffness and damping *)
  Record wpart := mkW { w_soil : bool; w_nodes : list nat; w_els : list nat; w_stiffness : option T; w_damping : option T }.

  (** every [k]-th item from the first on, [l[0::k]] (batch_calculation.py 216-241); a step of zero raises *)
  Fixpoint every_from {A} (k skip : nat) (l : list A) : list A :=
    match l with
    | [] => []
    | x :: q => match skip with O => x :: every_from k (k - 1) q | S s => every_from k s q end
    end.
  Definition every {A} (k : nat) (l : list A) : res (list A) := if Nat.eqb k 0 then Err ErrValue else Ok (every_from k 0 l).

  (** [a[0::k, d]] of an array with a row for every time; [a[:, d]] is the case [k] = 1 (demo.py 197 and 235) *)
  Definition column (k d : nat) (rows : list (list T)) : res (list T) := do q <- every k rows ; mapr (fun r => at_idx r d) q.

  (** demo.py 196-197: a row for each of the nodes *)
  Definition vertical_of (k : nat) (pick : nodal T -> list T) (results : list (list (nodal T))) (nodes : list nat) : res (list (list T)) :=
    mapr (fun i => do l <- at_idx results i ; column k 1 (map pick l)) nodes.
  (** demo.py 198-199 and 234-235: a row for each of the elements; the force of an element may be missing ([TypeError]) *)
  Definition force_of (k d : nat) (forces : list (option (list (list T)))) (els : list nat) : res (list (list T)) :=
    mapr (fun e => do o <- at_idx forces e ; match o with None => Err ErrType | Some f => column k d f end) els.
  (** demo.py 200: the place of each of the nodes along the track *)
  Definition places_of (track : list (node T)) (nodes : list nat) : res (list T) :=
    mapr (fun i => do n <- at_idx track i ; Ok (tx (n_coord n))) nodes.

  (** demo.py 220-224: nodes and elements of all soil parts behind each other *)
  Definition soil_nodes (ps : list wpart) : list nat := flat_map w_nodes (filter w_soil ps).
  Definition soil_elements (ps : list wpart) : list nat := flat_map w_els (filter w_soil ps).
  (** demo.py 229-233: for each soil element the number of its soil part, counted from [id] *)
  Fixpoint soil_ids (id : nat) (ps : list wpart) : list nat :=
    match ps with
    | [] => []
    | p :: r => if w_soil p then repeat id (length (w_els p)) ++ soil_ids (S id) r else soil_ids id r
    end.

  (** demo.py 247-257: the matrices of the soil and the numbers of its upper nodes, one soil element after the other.  The number of a
      direction without one is [None], which is no index, and a stiffness or damping that is not set is not added.  The list of numbers
      has a place for every number of the track.  Simplified: the first model part of an element of a soil part is that part; the
      elements of a soil part are in no other part *)
  Definition add_soil (track : list (node T)) (es : list (melem T)) (size : nat) (st : (nat -> nat -> T) * (nat -> nat -> T) * list nat)
      (k c : option T) (e : nat) : res ((nat -> nat -> T) * (nat -> nat -> T) * list nat) :=
    let '(sk, sc, idx) := st in
    do m <- at_idx es e ;
    do i <- at_idx (ml_nodes m) 0 ;
    do n <- at_idx track i ;
    match ty (n_dof n) with
    | None => Err ErrIndex
    | Some j =>
        if Nat.ltb j size then
          match k with
          | None => Err ErrType
          | Some k => match c with
                      | None => Err ErrType
                      | Some c => if Nat.ltb (length idx) size then Ok (mset sk j j (sk j j + k), mset sc j j (sc j j + c), idx ++ [j]) else Err ErrIndex
                      end
          end
        else Err ErrIndex
    end.
  (** demo.py 252-257: the loops over the soil parts and their elements *)
  Fixpoint add_elements (track : list (node T)) (es : list (melem T)) (size : nat) (k c : option T) (els : list nat)
      (st : (nat -> nat -> T) * (nat -> nat -> T) * list nat) : res ((nat -> nat -> T) * (nat -> nat -> T) * list nat) :=
    match els with [] => Ok st | e :: r => do st' <- add_soil track es size st k c e ; add_elements track es size k c r st' end.
  Fixpoint add_parts (track : list (node T)) (es : list (melem T)) (size : nat) (ps : list wpart)
      (st : (nat -> nat -> T) * (nat -> nat -> T) * list nat) : res ((nat -> nat -> T) * (nat -> nat -> T) * list nat) :=
    match ps with
    | [] => Ok st
    | p :: r => do st' <- add_elements track es size (w_stiffness p) (w_damping p) (w_els p) st ; add_parts track es size r st'
    end.
  Definition soil_matrices (track : list (node T)) (es : list (melem T)) (size : nat) (ps : list wpart) : res ((nat -> nat -> T) * (nat -> nat -> T) * list nat) :=
    add_parts track es size (filter w_soil ps) (fun _ _ => lit 0, fun _ _ => lit 0, []).

  (** the series that both scripts write (demo.py 262-280, batch_calculation.py 243-260): a row for each node or element, an entry of a row for
      each time *)
  Record written := mkWritten {
    wr_time : list T; wr_velocity : list T;
    wr_rail_disp : list (list T); wr_rail_force : list (list T); wr_rail_x : list T;
    wr_pad_disp : list (list T); wr_pad_force : list (list T); wr_pad_x : list T;
    wr_sleeper_disp : list (list T);
    wr_soil_disp : list (list T); wr_soil_force : list (list T); wr_soil_x : list T;
    wr_train_disp : list (list T); wr_train_force : list (list T) }.

  (** demo.py 195-243 and batch_calculation.py 214-241: the rail is the first part, the rail pads are the second and the sleepers the
      third *)
  Definition write_series (k : nat) (times : res (list T * list T)) (track : list (node T)) (ps : list wpart) (soil : res (list nat * list nat))
      (c : coupled_results T) : res written :=
    do rail <- at_idx ps 0 ;
    do u1 <- vertical_of k nd_u (cr_track c) (w_nodes rail) ;
    do f1 <- force_of k 1 (cr_forces c) (w_els rail) ;
    do x1 <- places_of track (w_nodes rail) ;
    do pad <- at_idx ps 1 ;
    do u2 <- vertical_of k nd_u (cr_track c) (w_nodes pad) ;
    do f2 <- force_of k 1 (cr_forces c) (w_els pad) ;
    do x2 <- places_of track (w_nodes pad) ;
    do sleeper <- at_idx ps 2 ;
    do u3 <- vertical_of k nd_u (cr_track c) (w_nodes sleeper) ;
    do q <- soil ;
    do u4 <- vertical_of k nd_u (cr_track c) (fst q) ;
    do f4 <- force_of k 0 (cr_forces c) (snd q) ;
    do x4 <- places_of track (fst q) ;
    do u5 <- vertical_of k nd_u (cr_train c) (seq 0 (length (cr_train c))) ;
    do f5 <- vertical_of k nd_f (cr_train c) (seq 0 (length (cr_train c))) ;
    do tv <- times ;
    Ok (mkWritten (fst tv) (snd tv) u1 f1 x1 u2 f2 x2 u3 u4 f4 x4 u5 f5).

  (** demo.py 180-294, [write_results]: the file, the series, the soil part of each soil element and the soil matrices.  [time_out] and
      [outputs] are the times and time indices of the output of the solver; an index beyond the speeds raises.  The order of the numbers
      of the soil is that of a set of floats and not specified *)
  Definition demo_write_results (segment : string) (time_out velocities : list T) (outputs : list nat) (track : list (node T)) (es : list (melem T))
      (ps : list wpart) (c : coupled_results T) (s : gsys T)
      : res (string * written * list nat * ((nat -> nat -> T) * (nat -> nat -> T) * list nat)) :=
    do w <- write_series 1 (do v <- mapr (at_idx velocities) outputs ; Ok (time_out, v)) track ps (Ok (soil_nodes ps, soil_elements ps)) c ;
    do m <- soil_matrices track es (mr (gK s)) ps ;
    Ok (String.append segment ".pickle", w, soil_ids 0 ps, m).

  (** batch_calculation.py 200-266, [write_results]: every [interval]-th time; the soil is the fifth part *)
  Definition batch_write_results (segment : string) (interval : nat) (time velocities : list T) (track : list (node T)) (ps : list wpart)
      (c : coupled_results T) : res (string * written) :=
    do w <- write_series interval (do t <- every interval time ; do v <- every interval velocities ; Ok (t, v)) track ps
              (do soil <- at_idx ps 4 ; Ok (w_nodes soil, w_els soil)) c ;
    Ok (String.append (String.append "res_" segment) ".pickle", w).
End DemoResults.

Arguments wpart T : clear implicits.
Arguments written T : clear implicits.
