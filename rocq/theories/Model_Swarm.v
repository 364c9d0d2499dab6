(** * Model of rose/optimisation/particle_swarm_optimisation.py: particle swarm optimisation

    Python lists are mutable objects: the lists of the particles live in a heap and the particles hold references (positions in
    the heap) to them.  The random generator is a stream of draws between 0 and 1; a counter says how many have been used. *)

From Coq Require Import Reals List Bool ZArith Arith.
From Verif Require Import Num PyBase Model_Accumulation.
Import ListNotations.

Section Swarm.
  Context {T : Type} `{Num T}.
  Local Open Scope num_scope.

  (** ** lists on a heap *)

  (** particle_swarm_optimisation.py 27-37 *)
  Definition heap := list (list T).
  (** [l[i]] for the list object [a] (lines 49-73) *)
  Definition hget (h : heap) (a i : nat) : res T := do l <- at_idx h a ; at_idx l i.
  (** [l[i] = x] for the list object [a]: all holders of the reference see the change (lines 49-73) *)
  Definition hset (h : heap) (a i : nat) (x : T) : res heap :=
    do l <- at_idx h a ; do _ <- at_idx l i ; Ok (lset h a (lset l i x)).
  (** [for i in ...] with a body that may raise (lines 54, 64, 93 and 102) *)
  Fixpoint loop {S} (is : list nat) (body : nat -> S -> res S) (s : S) : res S :=
    match is with [] => Ok s | i :: r => do s' <- body i s ; loop r body s' end.

  (** ** particles *)

  (** particle_swarm_optimisation.py 26-32: references to the three lists, and the two errors *)
  Record particle := { p_pos : nat; p_vel : nat; p_best : nat; p_err_best : T; p_err : T }.

  (** [random.uniform(-1, 1)] with the draw [d] (line 36) *)
  Definition uniform_pm1 (d : T) : T := lit (-1) + (lit 1 - lit (-1)) * d.

  (** lines 27-37: three new lists; [c] draws have been used before *)
  Definition new_particle (draw : nat -> T) (x0 : list T) (h : heap) (c : nat) : heap * nat * particle :=
    let n := List.length x0 in
    let a := List.length h in
    (h ++ [x0; map (fun i => uniform_pm1 (draw (c + i)%nat)) (seq 0 n); []], (c + n)%nat,
     {| p_pos := a; p_vel := S a; p_best := S (S a); p_err_best := lit (-1); p_err := lit (-1) |}).

  (** lines 40-46; the cost function does not change the list it is given *)
  Definition evaluate (cost : list T -> T) (h : heap) (p : particle) : res particle :=
    do x <- at_idx h (p_pos p) ;
    let e := cost x in
    if nltb e (p_err_best p) || neqb (p_err_best p) (lit (-1))
    then Ok {| p_pos := p_pos p; p_vel := p_vel p; p_best := p_pos p; p_err_best := e; p_err := e |}
    else Ok {| p_pos := p_pos p; p_vel := p_vel p; p_best := p_best p; p_err_best := p_err_best p; p_err := e |}.

  (** lines 49-60; [n] is the module variable [num_dimensions], set by the running optimisation *)
  Definition update_velocity (draw : nat -> T) (n : nat) (best_g : list T) (p : particle) (s : heap * nat) : res (heap * nat) :=
    let w := ndec 5 1 in
    let c1 := lit 1 in
    let c2 := lit 2 in
    loop (seq 0 n) (fun i s =>
      let '(h, c) := s in
      let r1 := draw c in
      let r2 := draw (S c) in
      do b <- hget h (p_best p) i ;
      do x <- hget h (p_pos p) i ;
      do g <- at_idx best_g i ;
      do v <- hget h (p_vel p) i ;
      do h' <- hset h (p_vel p) i (w * v + c1 * r1 * (b - x) + c2 * r2 * (g - x)) ;
      Ok (h', S (S c))) s.

  (** lines 63-73 *)
  Definition update_position (n : nat) (bounds : list (T * T)) (p : particle) (h : heap) : res heap :=
    loop (seq 0 n) (fun i h =>
      do x <- hget h (p_pos p) i ;
      do v <- hget h (p_vel p) i ;
      do h <- hset h (p_pos p) i (x + v) ;
      do b <- at_idx bounds i ;
      do x <- hget h (p_pos p) i ;
      do h <- (if nltb (snd b) x then hset h (p_pos p) i (snd b) else Ok h) ;
      do x <- hget h (p_pos p) i ;
      if nltb x (fst b) then hset h (p_pos p) i (fst b) else Ok h) h.

  (** ** the swarm *)

  (** the local variables of [PSO.__init__]; [sw_log] is added: the positions handed to the cost function, in order (lines 79-105) *)
  Record swarm := { sw_heap : heap; sw_draws : nat; sw_particles : list particle; sw_best : list T; sw_err : T; sw_log : list (list T) }.

  (** lines 79-86 *)
  Fixpoint new_particles (draw : nat -> T) (x0 : list T) (num : nat) (h : heap) (c : nat) : heap * nat * list particle :=
    match num with
    | O => (h, c, [])
    | S k => let '(h, c, p) := new_particle draw x0 h c in let '(h, c, ps) := new_particles draw x0 k h c in (h, c, p :: ps)
    end.
  (** lines 76-86 *)
  Definition new_swarm (draw : nat -> T) (x0 : list T) (num : nat) : swarm :=
    let '(h, c, ps) := new_particles draw x0 num [] 0 in
    {| sw_heap := h; sw_draws := c; sw_particles := ps; sw_best := []; sw_err := lit (-1); sw_log := [] |}.

  (** lines 94-99, one particle *)
  Definition evaluate_particle (cost : list T -> T) (j : nat) (s : swarm) : res swarm :=
    do p <- at_idx (sw_particles s) j ;
    do x <- at_idx (sw_heap s) (p_pos p) ;
    do p <- evaluate cost (sw_heap s) p ;
    let ps := lset (sw_particles s) j p in
    let log := sw_log s ++ [x] in
    if nltb (p_err p) (sw_err s) || neqb (sw_err s) (lit (-1))
    then Ok {| sw_heap := sw_heap s; sw_draws := sw_draws s; sw_particles := ps; sw_best := x; sw_err := p_err p; sw_log := log |}
    else Ok {| sw_heap := sw_heap s; sw_draws := sw_draws s; sw_particles := ps; sw_best := sw_best s; sw_err := sw_err s; sw_log := log |}.

  (** lines 103-104, one particle *)
  Definition move_particle (draw : nat -> T) (n : nat) (bounds : list (T * T)) (j : nat) (s : swarm) : res swarm :=
    do p <- at_idx (sw_particles s) j ;
    do q <- update_velocity draw n (sw_best s) p (sw_heap s, sw_draws s) ;
    do h <- update_position n bounds p (fst q) ;
    Ok {| sw_heap := h; sw_draws := snd q; sw_particles := sw_particles s; sw_best := sw_best s; sw_err := sw_err s; sw_log := sw_log s |}.

  (** lines 93-104, one pass of the loop *)
  Definition iteration (cost : list T -> T) (draw : nat -> T) (n : nat) (bounds : list (T * T)) (num : nat) (s : swarm) : res swarm :=
    do s <- loop (seq 0 num) (evaluate_particle cost) s ;
    loop (seq 0 num) (move_particle draw n bounds) s.

  (** lines 89-105 *)
  Fixpoint iterations (cost : list T -> T) (draw : nat -> T) (n : nat) (bounds : list (T * T)) (num : nat) (maxiter : nat) (s : swarm) : res swarm :=
    match maxiter with
    | O => Ok s
    | S k => do s <- iteration cost draw n bounds num s ; iterations cost draw n bounds num k s
    end.

  (** lines 76-110, [PSO.__init__]: the printed best position and error are [sw_best] and [sw_err] of the final state.  Negative
      numbers of particles and iterations act like zero *)
  Definition pso (cost : list T -> T) (draw : nat -> T) (x0 : list T) (bounds : list (T * T)) (num maxiter : nat) : res swarm :=
    iterations cost draw (List.length x0) bounds num maxiter (new_swarm draw x0 num).
End Swarm.
Arguments heap T : clear implicits.
Arguments particle T : clear implicits.
Arguments swarm T : clear implicits.
