(** * Model of rose/model/accumulation_model.py: settlement under repeated loading *)

From Coq Require Import Reals List Bool ZArith Arith Ascii String.
From Verif Require Import Num PyBase Model_Element Model_Moving Model_Coupled.
Import ListNotations.

Section Accumulation.
  Context {T : Type} `{Num T} `{Trig T} `{Pow T}.
  Local Open Scope num_scope.

  (** ** helpers *)

  (** [x ** p].  The bases of this file are never negative, except a negative reference load [F0] or a negative soil strength
      given by the user, for which numpy computes nan; the model then has zero, and the theorems exclude these inputs (accumulation_model.py 105-106, 199, 429-433) *)
  Definition pw (x p : T) : T := match npow x p with Some v => v | None => lit 0 end.

  (** [numpy.linspace(start, stop, num)]; a negative [num] raises (accumulation_model.py 57-61, 175, 364, 424) *)
  Definition linspace_nat (start stop : T) (n : nat) : list T :=
    match n with
    | 0%nat => []
    | 1%nat => [start]
    | S m => map (fun i => nofnat i * ((stop - start) / nofnat m) + start) (seq 0 m) ++ [stop]
    end.
  (** accumulation_model.py 57-61: [numpy.linspace] with a computed number of points *)
  Definition linspace (start stop : T) (num : Z) : res (list T) :=
    if Z.ltb num 0 then Err ErrValue else Ok (linspace_nat start stop (Z.to_nat num)).

  (** [scipy.integrate.trapezoid(y, x)] (accumulation_model.py 200) *)
  Fixpoint trapezoid (y x : list T) : T :=
    match y, x with
    | y0 :: ((y1 :: _) as ys), x0 :: ((x1 :: _) as xs) => (x1 - x0) * (y0 + y1) / lit 2 + trapezoid ys xs
    | _, _ => lit 0
    end.

  (** apply a function that may raise to all elements, in order (the [for] loops and comprehensions of accumulation_model.py, e.g. 169-172 and 418-435) *)
  Fixpoint mapr {A B} (f : A -> res B) (l : list A) : res (list B) :=
    match l with
    | [] => Ok []
    | a :: r => do b <- f a ; do q <- mapr f r ; Ok (b :: q)
    end.
  (** list and array indexing [l[i]] with [i] not negative, e.g. accumulation_model.py 172, 420 and 546 *)
  Definition at_idx {A} (l : list A) (i : nat) : res A := match nth_error l i with Some a => Ok a | None => Err ErrIndex end.

  (** ** Traffic *)

  (** one entry of the traffic dictionary; the forces are a list over the nodes of force histories (accumulation_model.py 40-52) *)
  Record train_type := { tt_per_hour : T; tt_hours : T; tt_axles : T; tt_forces : list (list T) }.

  (** accumulation_model.py 10-66: the fields of [ReadTrainInfo] that the settlement models use
      ([index_cumulative_distributed], which is not used anywhere, is left out) *)
  Record traffic := {
    tf_cycles_day : list T;     (* nb_cycles_day *)
    tf_cycles : list T;         (* number_cycles *)
    tf_forces : list (list (list T));
    tf_time : list T;           (* cumulative_time *)
    tf_count : list T;          (* cumulative_nb_cycles *)
    tf_index : list Z;          (* steps_index *)
    tf_columns : nat            (* int(max(number_cycles) / steps) *)
  }.

  (** accumulation_model.py 38-66, [ReadTrainInfo.__train_info]; [steps = 0] divides by zero, and converting the resulting
      infinity to an integer raises *)
  Definition read_train_info (trains : list train_type) (start_time end_time : T) (steps : nat) : res traffic :=
    let day := map (fun t => tt_per_hour t * tt_hours t * tt_axles t) trains in
    let cycles := map (fun aux => aux * (end_time - start_time)) day in
    do top <- max_of cycles ;
    if Nat.eqb steps 0 then Err ErrOther else
    let k := ntrunc (top / nofnat steps) in
    let nb := ntrunc top in
    do time <- linspace start_time end_time k ;
    do count <- linspace start_time (lit (Z.sub nb 1)) nb ;
    do index <- linspace (lit 0) (lit (Z.sub nb 1)) k ;
    Ok {| tf_cycles_day := day; tf_cycles := cycles; tf_forces := map tt_forces trains; tf_time := time; tf_count := count;
          tf_index := map ntrunc index; tf_columns := Z.to_nat k |}.

  (** accumulation_model.py 474-495, [AccumulationModel.read_traffic]: the traffic and the number of nodes *)
  Definition read_traffic (trains : list train_type) (end_time start_time : T) (steps : nat) : res (traffic * nat) :=
    match map (fun t => List.length (tt_forces t)) trains with
    | [] => Err ErrValue
    | n :: r => if forallb (Nat.eqb n) r then do tf <- read_train_info trains start_time end_time steps ; Ok (tf, n)
                else Err ErrValue
    end.

  (** lines 157-161 and 397-401: the nodes of the calculation; [idx = None] is the empty list, which has the same effect *)
  Definition chosen_nodes (nb_nodes : nat) (idx : list nat) : list nat :=
    match idx with [] => seq 0 nb_nodes | _ => idx end.

  (** [numpy.max(numpy.abs(force), axis=1)] (accumulation_model.py 172 and 362) *)
  Definition peaks (force : list (list T)) : res (list T) := mapr (fun row => max_of (map nabs row)) force.

  (** lines 153-154 and 393-394: [self.displacement[:, -1]] *)
  Definition last_column (disp : list (list T)) : res (list T) :=
    mapr (fun row => match row with [] => Err ErrIndex | x :: _ => Ok (last row x) end) disp.
  (** lines 221 and 442: [displacement + numpy.expand_dims(previous, axis=1)], with broadcasting of a single row *)
  Definition add_column (disp : list (list T)) (prev : list T) : res (list (list T)) :=
    let plus row p := map (fun x => x + p) row in
    if Nat.eqb (List.length disp) (List.length prev) then Ok (map (fun q => plus (fst q) (snd q)) (combine disp prev))
    else match disp, prev with
         | _, [p] => Ok (map (fun row => plus row p) disp)
         | [row], _ => Ok (map (fun p => plus row p) prev)
         | _, _ => Err ErrValue
         end.

  (** ** Varandas *)

  (** accumulation_model.py 82-102 *)
  Record varandas := { va_alpha : T; va_beta : T; va_gamma : T; va_N0 : T; va_F0 : T }.
  (** lines 104-106 *)
  Definition va_M (v : varandas) : T :=
    let summation := map (fun n => pw (lit 1 / nofnat n) (va_beta v)) (seq 1 (Z.to_nat (Z.sub (ntrunc (va_N0 v)) 1))) in
    pw (va_F0 v) (va_alpha v + lit 1) / (va_alpha v + lit 1) * nsum summation.

  (** lines 198-202: the settlement (mm) of one load cycle at one node with load counter [h] *)
  Definition cycle_settlement (v : varandas) (F : list T) (h : T) : T :=
    let integral := map (fun f => pw f (va_alpha v) * pw (lit 1 / (h + lit 1)) (va_beta v)) F in
    va_gamma v / va_M v * trapezoid integral F.

  (** lines 193-202: the loop over the trains for one cycle number, for one node (all operations of the code act on each node
      separately).  [forces] and [maxs] are the rows [force_max[:, node]] and [max_val_force[:, node]]; further entries of
      [maxs], of an earlier traffic with more trains, are kept *)
  Fixpoint cycle_trains (v : varandas) (F : list T) (nb : T) (cycles forces maxs : list T) (h aux : T) : T * list T * T :=
    match cycles, forces, maxs with
    | c :: cycles, f :: forces, m :: maxs =>
        if nb <=? c then
          let h := if f <=? m then h + lit 1 else h in
          let m := if nltb m f then f else m in
          let aux := aux + cycle_settlement v F h in
          let '(h, maxs, aux) := cycle_trains v F nb cycles forces maxs h aux in (h, m :: maxs, aux)
        else
          let '(h, maxs, aux) := cycle_trains v F nb cycles forces maxs h aux in (h, m :: maxs, aux)
    | _, _, _ => (h, maxs, aux)
    end.

  (** lines 190-208: the loop over the cycles, for one node: the values assigned to [disp], and the load history *)
  Fixpoint run_cycles (v : varandas) (F cycles forces : list T) (index : list Z) (n : nat) (count : list T)
      (h : T) (maxs : list T) (aux : T) : list T * T * list T :=
    match count with
    | [] => ([], h, maxs)
    | nb :: count =>
        let '(h, maxs, aux) := cycle_trains v F nb cycles forces maxs h aux in
        if existsb (Z.eqb (Z.of_nat n)) index then
          let '(disp, h, maxs) := run_cycles v F cycles forces index (S n) count h maxs (lit 0) in (aux :: disp, h, maxs)
        else run_cycles v F cycles forces index (S n) count h maxs aux
    end.

  (** the attributes of the model object after a calculation; the load history of a node is its counter [h_f] and its column
      of [max_val_force] (accumulation_model.py 82-102, 164-166 and 190-221) *)
  Record va_state := { vs_nodes : list nat; vs_disp : list (list T); vs_load : list (T * list T) }.

  (** lines 168-175: [force_max[:, node]] *)
  Definition node_forces (peak : list (list T)) (node : nat) : res (list T) :=
    mapr (fun row => do p <- at_idx row node ; Ok (p / lit 1000)) peak.

  (** lines 174-218 for one node: the displacements and the load history *)
  Definition varandas_node (v : varandas) (tf : traffic) (forces : list T) (load : T * list T) : res (list T * (T * list T)) :=
    do top <- max_of forces ;
    let F := linspace_nat (lit 0) top 100 in
    let '(disp, h, maxs) := run_cycles v F (tf_cycles tf) forces (tf_index tf) 0 (tf_count tf) (fst load) (snd load) (lit 0) in
    let disp := disp ++ repeat (lit 0) (tf_columns tf - List.length disp) in
    Ok (map (fun x => x / lit 1000) (cumsum disp), (h, maxs)).

  (** lines 121-221, [Varandas.settlement]; [st] is [None] before the first calculation.  When continuing with another number
      of nodes or with more trains than before, indexing the load history raises (here also if there is no load cycle) *)
  Definition varandas_settlement (v : varandas) (st : option va_state) (tf : traffic) (nb_nodes : nat) (idx : list nat) (reload : bool)
      : res va_state :=
    do previous <- (if reload then match st with None => Err ErrAttribute | Some s => last_column (vs_disp s) end else Ok []) ;
    let nodes := chosen_nodes nb_nodes idx in
    let trains := List.length (tf_cycles tf) in
    do peak <- mapr peaks (tf_forces tf) ;
    do forces <- mapr (node_forces peak) nodes ;
    do load <- match reload, st with
               | true, Some s =>
                   if Nat.eqb (List.length (vs_load s)) (List.length nodes) && forallb (fun l => Nat.leb trains (List.length (snd l))) (vs_load s)
                   then Ok (vs_load s) else Err ErrIndex
               | _, _ => Ok (map (fun _ => (lit 0, repeat (lit 0) trains)) nodes)
               end ;
    do out <- mapr (fun p => varandas_node v tf (fst p) (snd p)) (combine forces load) ;
    do disp <- (if reload then add_column (map fst out) previous else Ok (map fst out)) ;
    Ok {| vs_nodes := nodes; vs_disp := disp; vs_load := map snd out |}.

  (** ** Li and Selig *)

  (** one soil profile of the SoS file; the four arrays have one entry per layer, like the names (accumulation_model.py 275-290) *)
  Record soil := { so_names : list string; so_gamma : list T; so_phi : list T; so_cohesion : list T; so_top : list T }.
  (** accumulation_model.py 225-272 *)
  Record liselig := { li_soils : list soil; li_soil_id : list nat; li_width : T; li_length : T; li_t_ini : T; li_last : T }.

  (** lines 292-301: thickness, depth of the middle and vertical stress of the layers *)
  Fixpoint abs_diff (l : list T) : list T :=
    match l with a :: ((b :: _) as r) => nabs (b - a) :: abs_diff r | _ => [] end.
  (** lines 296-298 *)
  Definition thicknesses (last : T) (s : soil) : list T := abs_diff (so_top s ++ [last]).
  (** lines 299-301; an empty list of coordinates raises *)
  Definition z_middles (last : T) (s : soil) : res (list T) :=
    match so_top s with
    | [] => Err ErrIndex
    | z0 :: _ => Ok (map (fun q => nabs (fst q - z0) + snd q / lit 2) (combine (so_top s) (thicknesses last s)))
    end.

  (** [name.split("_")[-1]]: the text after the last underscore (line 312) *)
  Fixpoint after_underscore (acc s : string) : string :=
    match s with
    | EmptyString => acc
    | String c r => if Ascii.eqb c "_"%char then after_underscore EmptyString r else after_underscore (acc ++ String c EmptyString) r
    end.
  (** lines 312-337: [name in list] *)
  Definition in_names (x : string) (l : list string) : bool := existsb (String.eqb x) l.
  (** lines 239-245 and 303-340: the parameters [a], [b], [m] of a layer *)
  Definition classify (name : string) : res (T * T * T) :=
    let x := after_underscore EmptyString name in
    if in_names x ["zg"; "zm"; "zf"]%string then Ok (ndec 64 2, ndec 10 2, ndec 17 1)
    else if in_names x ["z&s"; "zs"; "s"]%string then Ok (ndec 64 2, ndec 10 2, ndec 17 1)
    else if in_names x ["z&h"; "zk"; "k&s"; "z&k"]%string then Ok (ndec 84 2, ndec 13 2, ndec 20 1)
    else if in_names x ["kz"; "k"; "sd"]%string then Ok (ndec 11 1, ndec 16 2, ndec 20 1)
    else if in_names x ["ko"; "k&v"; "vk"; "v"; "o&z"]%string then Ok (ndec 12 1, ndec 18 2, ndec 24 1)
    else if in_names x ["a"; "ht"]%string then Ok (lit 0, lit 0, lit 0)
    else Err ErrValue.

  (** lines 342-347 (and 288): strength of a layer *)
  Definition strength (gamma z_mid phi cohesion : T) : T :=
    let rad := phi * (npi / lit 180) in gamma * z_mid * (nsin rad / ncos rad) + cohesion.

  (** lines 371-380: deviatoric stress at one position [x] under a strip of half width [a], and the largest over 100 positions *)
  Definition strip_stress (stress a z_mid x : T) : T :=
    let theta1 := natan ((x + a) / z_mid) in
    let theta2 := natan ((x - a) / z_mid) in
    let stress_zz := stress / npi * ((theta1 - theta2) + nsin theta1 * ncos theta1 - nsin theta2 * ncos theta2) in
    let stress_xx := stress / npi * ((theta1 - theta2) - nsin theta1 * ncos theta1 + nsin theta2 * ncos theta2) in
    let stress_xz := stress / npi * (sq (ncos theta2) - sq (ncos theta1)) in
    let root := nsqrt (sq ((stress_xx - stress_zz) / lit 2) + sq stress_xz) in
    let sigma_1 := (stress_xx + stress_zz) / lit 2 + root in
    let sigma_2 := (stress_xx + stress_zz) / lit 2 - root in
    (sigma_1 - sigma_2) / lit 2.
  (** lines 364-380: the largest value over the 100 positions *)
  Definition dev_stress (stress a z_mid : T) : res T :=
    max_of (map (strip_stress stress a z_mid) (linspace_nat (lit (-10) * a) (lit 10 * a) 100)).

  (** the data of one layer: parameters, thickness, depth of the middle, strength (lines 292-347) *)
  Record layer := { ly_a : T; ly_b : T; ly_m : T; ly_thickness : T; ly_mid : T; ly_strength : T }.
  (** the three parametrisation steps (lines 407-412) for one soil; the lists of the soil have the same length *)
  Fixpoint zip_layers (params : list (T * T * T)) (thick mid gamma phi coh : list T) : list layer :=
    match params, thick, mid, gamma, phi, coh with
    | (a, b, m) :: ps, t :: ts, z :: zs, g :: gs, p :: phs, c :: cs =>
        {| ly_a := a; ly_b := b; ly_m := m; ly_thickness := t; ly_mid := z; ly_strength := strength g z p c |} :: zip_layers ps ts zs gs phs cs
    | _, _, _, _, _, _ => []
    end.
  (** lines 292-347 for one soil *)
  Definition soil_layers (last : T) (s : soil) : res (list layer) :=
    do params <- mapr classify (so_names s) ;
    do mid <- z_middles last s ;
    Ok (zip_layers params (thicknesses last s) mid (so_gamma s) (so_phi s) (so_cohesion s)).

  (** lines 429-433: the settlement of one layer after [n] cycles of one train *)
  Definition layer_settlement (ly : layer) (dev n : T) : T :=
    ly_a ly * pw (dev / ly_strength ly) (ly_m ly) * pw n (ly_b ly) * ly_thickness ly.

  (** lines 421-433 for one node and one train: [dev_stress] of each layer, the cycle numbers, and the sum over the layers *)
  Definition train_settlement (li : liselig) (layers : list layer) (force : list T) (day : list T) (cycles : T) (columns : nat) : res (list T) :=
    do peak <- max_of (map nabs force) ;
    let stress := peak / (li_length li * li_width li) / lit 1000 in
    do devs <- mapr (fun ly => dev_stress stress (li_width li / lit 2) (ly_mid ly)) layers ;
    let before := nsum day * lit 365 * li_t_ini li in
    let N := linspace_nat (lit 1 + before) (before + cycles) columns in
    Ok (map (fun n => nsum (map (fun q => layer_settlement (fst q) (snd q) n) (combine layers devs))) N).

  (** lines 418-435 for one node; subtracting the first value raises if there is none *)
  Definition liselig_node (li : liselig) (all_layers : list (list layer)) (tf : traffic) (node : nat) : res (list T) :=
    do id_s <- at_idx (li_soil_id li) node ;
    do layers <- at_idx all_layers id_s ;
    do rows <- mapr (fun q => do force <- at_idx (fst q) node ;
                              train_settlement li layers force (tf_cycles_day tf) (snd q) (List.length (tf_time tf)))
                    (combine (tf_forces tf) (tf_cycles tf)) ;
    let total := map (fun j => nsum (map (fun row => nth j row (lit 0)) rows)) (seq 0 (List.length (tf_time tf))) in
    match total with
    | [] => Err ErrIndex
    | d0 :: _ => Ok (map (fun d => d - d0) total)
    end.

  (** the attributes after a calculation; [ls_shape] are the numbers of nodes and trains of the first calculation: the lists of
      stresses are appended to in every calculation, but the entries of the first one are used (lines 225-272 and 382-442) *)
  Record li_state := { ls_nodes : list nat; ls_disp : list (list T); ls_shape : nat * nat }.

  (** lines 382-442, [LiSelig.settlement] ([self.reload] is never set).  The parameters appended in later calculations are equal
      to those of the first one *)
  Definition liselig_settlement (li : liselig) (st : option li_state) (tf : traffic) (nb_nodes : nat) (idx : list nat) (reload : bool)
      : res li_state :=
    do previous <- (if reload then match st with None => Err ErrAttribute | Some s => last_column (ls_disp s) end else Ok []) ;
    let nodes := chosen_nodes nb_nodes idx in
    let trains := List.length (tf_cycles tf) in
    do all_layers <- mapr (soil_layers (li_last li)) (li_soils li) ;
    let shape := match st with None => (List.length nodes, trains) | Some s => ls_shape s end in
    if Nat.leb (List.length nodes) (fst shape) && Nat.leb trains (snd shape) then
      do out <- mapr (liselig_node li all_layers tf) nodes ;
      do disp <- (if reload then add_column out previous else Ok out) ;
      Ok {| ls_nodes := nodes; ls_disp := disp; ls_shape := shape |}
    else Err ErrIndex.

  (** ** The accumulation calculation *)

  (** lines 445-472: the two settlement models *)
  Inductive engine :=
  | EVarandas (v : varandas) (st : option va_state)
  | ELiSelig (li : liselig) (st : option li_state).

  (** line 507: [self.accumulation_model.settlement(...)]: the new model object, its nodes and displacements *)
  Definition engine_settlement (e : engine) (tf : traffic) (nb_nodes : nat) (idx : list nat) (reload : bool)
      : res (engine * list nat * list (list T)) :=
    match e with
    | EVarandas v st => do s <- varandas_settlement v st tf nb_nodes idx reload ; Ok (EVarandas v (Some s), vs_nodes s, vs_disp s)
    | ELiSelig li st => do s <- liselig_settlement li st tf nb_nodes idx reload ; Ok (ELiSelig li (Some s), ls_nodes s, ls_disp s)
    end.

  (** lines 531-553: the dictionary of results *)
  Record results := { rs_nodes : list nat; rs_time : list T; rs_disp : list (list T) }.
  (** lines 445-472; [ac_results] are both [results] and [previous_stage_results], [None] before the first calculation *)
  Record accumulation := { ac_engine : engine; ac_steps : nat; ac_traffic : option (traffic * nat); ac_results : option results }.
  (** lines 445-472, [AccumulationModel.__init__] *)
  Definition new_accumulation (e : engine) (steps : nat) : accumulation :=
    {| ac_engine := e; ac_steps := steps; ac_traffic := None; ac_results := None |}.

  (** lines 474-495 *)
  Definition set_traffic (a : accumulation) (trains : list train_type) (end_time start_time : T) : res accumulation :=
    do t <- read_traffic trains end_time start_time (ac_steps a) ;
    Ok {| ac_engine := ac_engine a; ac_steps := ac_steps a; ac_traffic := Some t; ac_results := ac_results a |}.

  (** lines 531-553, [__create_results]; continuing without earlier results raises a KeyError *)
  Definition create_results (previous : option results) (time : list T) (nodes : list nat) (disp : list (list T)) (reload : bool) : res results :=
    if reload then
      match previous with
      | None => Err ErrOther
      | Some p =>
          do rows <- mapr (fun i => do old <- at_idx (rs_disp p) i ; do new <- at_idx disp i ; Ok (old ++ new)) (seq 0 (List.length nodes)) ;
          Ok {| rs_nodes := nodes; rs_time := rs_time p ++ time; rs_disp := rows |}
      end
    else
      do rows <- mapr (at_idx disp) (seq 0 (List.length nodes)) ;
      Ok {| rs_nodes := nodes; rs_time := time; rs_disp := rows |}.

  (** lines 497-513, [calculate_settlement] *)
  Definition calculate_settlement (a : accumulation) (idx : list nat) (reload : bool) : res accumulation :=
    match ac_traffic a with
    | None => Err ErrAttribute
    | Some (tf, n) =>
        do x <- engine_settlement (ac_engine a) tf n idx reload ;
        let '(e, nodes, disp) := x in
        do r <- create_results (ac_results a) (tf_time tf) nodes disp reload ;
        Ok {| ac_engine := e; ac_steps := ac_steps a; ac_traffic := ac_traffic a; ac_results := Some r |}
    end.
End Accumulation.
Arguments train_type : clear implicits.
Arguments traffic : clear implicits.
Arguments varandas : clear implicits.
Arguments va_state : clear implicits.
Arguments soil : clear implicits.
Arguments liselig : clear implicits.
Arguments li_state : clear implicits.
Arguments layer : clear implicits.
Arguments engine : clear implicits.
Arguments results : clear implicits.
Arguments accumulation : clear implicits.
