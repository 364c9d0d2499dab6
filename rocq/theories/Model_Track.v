(** * Model of the assembly and initialisation of a whole system: rose/model/global_system.py 87-177, 314-335, 355-374 and
      460-479, rose/model/track.py 66-174, rose/model/model_part.py 235-250 and 354-384

    Nodes are referred to by their position in the node list of the mesh.  All elements have two nodes.  The values that
    [validate_input] asks for are given. *)

From Coq Require Import Reals List Bool ZArith Arith.
From Verif Require Import Num PyBase Model_Geometry Model_System Model_Element Model_Accumulation.
Import ListNotations.

Section Track.
  Context {T : Type} `{Num T} `{Trig T}.
  Local Open Scope num_scope.

  (** the classes of element model parts: rods (model_part.py 354-384; rail pads, track.py 197-210, and soil, soil.py), Timoshenko
      beams (model_part.py 478-512), rails (track.py 28-73), and sleepers and hinges (track.py 76-134), which are points with
      a mass *)
  Inductive kind :=
  | KRod (stiffness damping mass : option T)
  | KBeam (b : beam T)
  | KRail (b : beam T)
  | KPoint (mass : T).

  (** an element model part: its nodes and its elements (model_part.py 69-100 and 214-240) *)
  Record epart := mkPart { ep_kind : kind; ep_nodes : list nat; ep_els : list (nat * nat) }.

  (** the active directions: model_part.py 386-392 (rod) and 514-536 (beam), track.py 92-99 (sleeper) and 143-150 (hinge) *)
  Definition kind_flag (k : kind) : tri bool :=
    match k with
    | KRod _ _ _ => T3 true false false
    | KBeam _ | KRail _ => T3 true true true
    | KPoint _ => T3 false true false
    end.

  (** a one by one matrix (track.py 101-120 and 152-174) *)
  Definition one_by_one (v : T) : nat -> nat -> T := mset zeros 0 0 v.

  (** [set_aux_stiffness_matrix]: model_part.py 436-446 and 736-770, track.py 101-107 and 152-158.  The Timoshenko factor was 0
      before *)
  Definition aux_stiffness (k : kind) : option (nat -> nat -> T) :=
    match k with
    | KRod s _ _ => rod_spring s
    | KBeam b | KRail b => Some (beam_stiffness b (timoshenko_factor (lit 0) b))
    | KPoint _ => Some (one_by_one (lit 0))
    end.
  (** [set_aux_mass_matrix]: model_part.py 423-434 and 701-709, track.py 117-120 and 168-174 *)
  Definition aux_mass (k : kind) : option (nat -> nat -> T) :=
    match k with
    | KRod _ _ m => rod_mass m
    | KBeam b | KRail b => Some (beam_mass b (timoshenko_factor (lit 0) b))
    | KPoint m => Some (one_by_one m)
    end.
  (** [set_aux_damping_matrix]: model_part.py 448-458 and 772-777, track.py 109-115 and 160-166 *)
  Definition aux_damping (k : kind) : option (nat -> nat -> T) :=
    match k with
    | KRod _ c _ => rod_spring c
    | KBeam b | KRail b => Some beam_damping
    | KPoint _ => Some (one_by_one (lit 0))
    end.

  (** [node] objects of the mesh by position; references to nodes outside the mesh are not modelled (global_system.py 427-436) *)
  Definition node_at (ns : list (node T)) (p : nat) : res (node T) := at_idx ns p.

  (** global_system.py 87-94: [initialize] of a part.  A rail computes its element length first (track.py 66-73); the other
      classes only compute matrices *)
  Definition initialize_part (ns : list (node T)) (p : epart) : res epart :=
    match ep_kind p with
    | KRail b =>
        do nodes <- mapr (node_at ns) (ep_nodes p) ;
        do l <- calculate_length_rail (Some (b_l b)) (map (@n_coord T) nodes) ;
        match l with
        | Some l => Ok (mkPart (KRail (mkBeam (b_E b) (b_nu b) (b_rho b) (b_A b) (b_I b) (b_shear_factor b) l (b_s1 b) (b_s2 b)))
                               (ep_nodes p) (ep_els p))
        | None => Ok p
        end
    | _ => Ok p
    end.

  (** the numbers of the three directions of a node (utils.py 333-336 and 356-357); a missing number cannot be put in
      [coo_matrix] *)
  Definition node_numbers (n : node T) : res (list nat) :=
    match n_dof n with
    | T3 (Some a) (Some b) (Some c) => Ok [a; b; c]
    | _ => Err ErrType
    end.

  (** utils.py 276-294: parts that are not rods or beams have no rotation matrix *)
  Definition rotated (k : kind) (p q : node T) (aux : nat -> nat -> T) : nat -> nat -> T :=
    match k with
    | KPoint _ => aux
    | _ => rotate_aux_matrix (tx (n_coord p), ty (n_coord p)) (tx (n_coord q), ty (n_coord q)) aux
    end.

  (** global_system.py 140-177: the matrix is reshaped for two nodes, or for one when the part has no elements *)
  Definition reshaped (p : epart) (aux : nat -> nat -> T) : nat -> nat -> T :=
    me (reshape_aux_matrix (match ep_els p with [] => 1 | _ :: _ => 2 end) (tlist (kind_flag (ep_kind p))) aux).

  (** utils.py 326-362 and global_system.py 105-109: what the matrix [aux] of a part adds, element by element or, without
      elements, node by node *)
  Definition contributions (ns : list (node T)) (p : epart) (aux : nat -> nat -> T) : res (list (list nat * (nat -> nat -> T))) :=
    match ep_els p with
    | [] => mapr (fun i => do n <- node_at ns i ; do d <- node_numbers n ; Ok (d, aux)) (ep_nodes p)
    | _ :: _ => mapr (fun e => do a <- node_at ns (fst e) ; do b <- node_at ns (snd e) ;
                               do da <- node_numbers a ; do db <- node_numbers b ;
                               Ok (da ++ db, rotated (ep_kind p) a b aux)) (ep_els p)
    end.

  (** global_system.py 111-118 (and 120-127, 129-136): a matrix that is not set adds nothing *)
  Definition add_matrix (ns : list (node T)) (p : epart) (g : mat T) (aux : option (nat -> nat -> T)) : res (mat T) :=
    match aux with
    | None => Ok g
    | Some a => do cs <- contributions ns p (reshaped p a) ; add_to_global g cs
    end.

  (** global_system.py 96-136 *)
  Definition add_part (ns : list (node T)) (s : gsys T) (p : epart) : res (gsys T) :=
    do k <- add_matrix ns p (gK s) (aux_stiffness (ep_kind p)) ;
    do m <- add_matrix ns p (gM s) (aux_mass (ep_kind p)) ;
    do c <- add_matrix ns p (gC s) (aux_damping (ep_kind p)) ;
    Ok (mkSys k m c (gF s)).

  (** global_system.py 320-326: the loop over the element model parts *)
  Fixpoint add_parts (ns : list (node T)) (s : gsys T) (ps : list epart) : res (gsys T) :=
    match ps with
    | [] => Ok s
    | p :: r => do s' <- add_part ns s p ; add_parts ns s' r
    end.

  (** global_system.py 355-374, [initialise_global_matrices] *)
  Definition zero_system (n : nat) : gsys T := mkSys (mzero n n) (mzero n n) (mzero n n) (repeat (lit 0) n).

  (** a load condition: active directions, nodes and values (global_system.py 179-194) *)
  Record load := mkLoad { ld_flag : tri bool; ld_nodes : list nat; ld_vals : list (tri T) }.
  (** global_system.py 325-326 and 179-194, with the numbers the nodes have at that moment *)
  Definition load_cond (ns : list (node T)) (l : load) : res (cond T) :=
    do nodes <- mapr (node_at ns) (ld_nodes l) ; Ok (mkCond (ld_flag l) nodes (ld_vals l)).

  (** Rayleigh damping: whether it is used, the ratio and the two frequencies (global_system.py 71-74) *)
  Record damping := mkDamping { da_on : bool; da_ratio : T; da_one : T; da_two : T }.

  (** global_system.py 87-94, 417-439, 355-374 and 314-326: the first part of [initialise].  The parts are initialised, the nodes
      numbered and the matrices and forces of all parts added up; the result has the numbered nodes *)
  Definition assemble_system (ns : list (node T)) (ps : list epart) (ls : list load) : res (gsys T * list (node T)) :=
    do ps <- mapr (initialize_part ns) ps ;
    let (ns, n) := initialise_ndof ns in
    do s <- add_parts ns (zero_system n) ps ;
    do conds <- mapr (load_cond ns) ls ;
    Ok (mkSys (gK s) (gM s) (gC s) (fold_left add_condition conds (gF s)), ns).

  (** global_system.py 460-479 (up to line 473), [initialise]: the matrices, the nodes and the number of degrees of freedom.
      [cs] are the constraints (nodes and active directions), which are applied after the assembly (lines 328-332) *)
  Definition initialise_system (ns : list (node T)) (ps : list epart) (ls : list load) (cs : list (list nat * tri bool)) (da : damping)
    : res (gsys T * list (node T) * nat) :=
    do a <- assemble_system ns ps ls ;
    let (s, ns) := a in
    do t <- trim_all s (fold_left apply_constraint cs ns) ;
    let '(s, ns, n) := t in
    Ok (rayleigh_damping (da_on da) (da_ratio da) (da_one da) (da_two da) s, ns, n).

  (** train_track_interaction.py 507-521: what [clean_model] does to the nodes of the track between two runs *)
  Definition clean_nodes (ns : list (node T)) : list (node T) :=
    map (fun n => mkNode (n_id n) (n_index n) (T3 None None None) (n_coord n) (n_flag n) []) ns.
End Track.

Arguments kind T : clear implicits.
Arguments epart T : clear implicits.
Arguments load T : clear implicits.
Arguments damping T : clear implicits.
