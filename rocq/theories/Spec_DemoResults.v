(** * Vocabulary for statements about the results that the scripts write *)

From Coq Require Import Reals List.
From Verif Require Import Num PyBase Model_Geometry Model_System Model_Element Model_Moving Model_Run Model_CoupledRun Spec_Run Spec_CoupledRun Model_DemoResults.
Import ListNotations.
Local Open Scope R_scope.

(** a row shows component [d] of the values of every [k]-th time *)
Definition shows (k d : nat) (values : list (list R)) (row : list R) : Prop :=
  forall t, match nth_error values (t * k) with
            | Some x => exists v, nth_error row t = Some v /\ nth_error x d = Some v
            | None => nth_error row t = None
            end.
(** there is one row for each node, which shows the vertical component at the node *)
Definition node_rows (k : nat) (pick : nodal R -> list R) (results : list (list (nodal R))) (nodes : list nat) (rows : list (list R)) : Prop :=
  length rows = length nodes /\
  forall j i, nth_error nodes j = Some i -> exists l row, nth_error results i = Some l /\ nth_error rows j = Some row /\ shows k 1 (map pick l) row.
(** there is one row for each element, which shows component [d] of its force *)
Definition element_rows (k d : nat) (forces : list (option (list (list R)))) (els : list nat) (rows : list (list R)) : Prop :=
  length rows = length els /\
  forall j e, nth_error els j = Some e -> exists f row, nth_error forces e = Some (Some f) /\ nth_error rows j = Some row /\ shows k d f row.
(** there is one place for each node, its first coordinate *)
Definition node_places (track : list (node R)) (nodes : list nat) (xs : list R) : Prop :=
  length xs = length nodes /\ forall j i, nth_error nodes j = Some i -> exists n, nth_error track i = Some n /\ nth_error xs j = Some (tx (n_coord n)).

(** the vertical displacement of a node at a time of the solver: that of its number, and zero without a number *)
Definition vertical_at (n : node R) (r : row R) : R := match tget (n_dof n) DY with Some k => nth k (rw_u r) 0 | None => 0 end.

(** a soil part as the mesh generator makes it: element after element from a sleeper to the bottom, and as nodes the ends of one element
    after the other *)
Definition laid_out (es : list (melem R)) (p : wpart R) (els : list (nat * nat)) : Prop :=
  w_nodes p = flat_map (fun e => [fst e; snd e]) els /\
  Forall2 (fun k e => exists m, nth_error es k = Some m /\ ml_nodes m = [fst e; snd e]) (w_els p) els.

(** number of elements of the soil parts before number [id] *)
Definition elements_before (soils : list (wpart R)) (id : nat) : nat := length (flat_map w_els (firstn id soils)).

(** what the series of a file are, for the nodes [sn] and the elements [se] of the soil *)
Definition series_of (k : nat) (track : list (node R)) (ps : list (wpart R)) (sn se : list nat) (c : coupled_results R) (w : written R) : Prop :=
  exists rail pad sleeper, nth_error ps 0 = Some rail /\ nth_error ps 1 = Some pad /\ nth_error ps 2 = Some sleeper /\
    node_rows k nd_u (cr_track c) (w_nodes rail) (wr_rail_disp w) /\ element_rows k 1 (cr_forces c) (w_els rail) (wr_rail_force w) /\ node_places track (w_nodes rail) (wr_rail_x w) /\
    node_rows k nd_u (cr_track c) (w_nodes pad) (wr_pad_disp w) /\ element_rows k 1 (cr_forces c) (w_els pad) (wr_pad_force w) /\ node_places track (w_nodes pad) (wr_pad_x w) /\
    node_rows k nd_u (cr_track c) (w_nodes sleeper) (wr_sleeper_disp w) /\
    node_rows k nd_u (cr_track c) sn (wr_soil_disp w) /\ element_rows k 0 (cr_forces c) se (wr_soil_force w) /\ node_places track sn (wr_soil_x w) /\
    node_rows k nd_u (cr_train c) (seq 0 (length (cr_train c))) (wr_train_disp w) /\ node_rows k nd_f (cr_train c) (seq 0 (length (cr_train c))) (wr_train_force w).

(** the results of a coupled run that ended *)
Definition is_run (track train : list (node R)) (es : list (melem R)) (c : coupled_results R) : Prop :=
  exists kind dynamic static time memory rows, kind <> OtherType /\ (2 <= length time)%nat /\ length rows = length time /\ track <> [] /\
    (forall n, In n track -> flags_match n) /\ (forall n, In n train -> flags_match n) /\
    coupled_main kind dynamic static time (tlist memory) track train es rows = Ok c.
(** a row has the value [g] of every [k]-th time of the solver *)
Definition course (k : nat) (solver : list (row R)) (g : row R -> R) (row : list R) : Prop :=
  forall t, nth_error row t = option_map g (nth_error solver (t * k)).

(** element [q] of the mesh is a soil spring of stiffness [k] between the node [top] and a fixed node below it *)
Definition soil_spring (track : list (node R)) (es : list (melem R)) (q : nat) (e : nat * nat) (top bottom : node R) (k : R) : Prop :=
  exists el m spans n, nth_error es q = Some el /\ rod_spring (Some k) = Some m /\ spans <> [] /\
    (forall s, In s spans -> fst (fst s) = fst (snd s) /\ snd (snd s) < snd (fst s)) /\
    carries_force el (fst e) (snd e) (rod_reshaped m) (T3 true false false) (stored_rotation spans) /\
    nth_error track (fst e) = Some top /\ nth_error track (snd e) = Some bottom /\ tget (n_dof top) DY = Some n /\ tget (n_dof bottom) DY = None.

(** the largest absolute value of a list *)
Definition largest (m : R) (l : list R) : Prop := (forall x, In x l -> Rabs x <= m) /\ exists x, In x l /\ m = Rabs x.

(** soil parts of given stiffness, damping and elements *)
Definition soil_parts (es : list (melem R)) (ps : list (wpart R)) (qs : list ((R * R) * list (nat * nat))) : Prop :=
  Forall2 (fun p q => laid_out es p (snd q) /\ w_stiffness p = Some (fst (fst q)) /\ w_damping p = Some (snd (fst q))) (filter w_soil ps) qs.
(** their springs: stiffness, damping and element *)
Definition soil_springs (qs : list ((R * R) * list (nat * nat))) : list ((R * R) * (nat * nat)) := flat_map (fun q => map (pair (fst q)) (snd q)) qs.
(** the element [e] goes straight down *)
Definition goes_down (ns : list (node R)) (e : nat * nat) : Prop :=
  exists a b, nth_error ns (fst e) = Some a /\ nth_error ns (snd e) = Some b /\ tx (n_coord a) = tx (n_coord b) /\ ty (n_coord b) < ty (n_coord a).
