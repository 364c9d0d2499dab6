(** * Vocabulary for statements about settlement accumulation *)

From Coq Require Import Ascii String Reals List ZArith.
From Verif Require Import Num PyBase Model_Element Model_Coupled Model_Accumulation.
Import ListNotations.
Local Open Scope list_scope.
Local Open Scope R_scope.

(** a list of settlements never decreases and is never negative *)
Definition settling (l : list R) : Prop :=
  (forall i, (i < length l)%nat -> 0 <= nth i l 0) /\
  (forall i j, (i <= j < length l)%nat -> nth i l 0 <= nth j l 0).

(** [x] to the power [p], for [x] not negative *)
Definition power (x p : R) : R := if Req_EM_T x 0 then (if Req_EM_T p 0 then 1 else 0) else Rpower x p.

(** the largest absolute value of a list *)
Definition is_peak (l : list R) (p : R) : Prop := (exists f, In f l /\ Rabs f = p) /\ forall f, In f l -> Rabs f <= p.

(** the trapezoidal rule with [n] intervals for the integral of [f] from 0 to [b] *)
Definition trapezoidal (n : nat) (b : R) (f : R -> R) : R :=
  sumn n (fun k => b / INR n * (f (INR k * b / INR n) + f (INR (S k) * b / INR n)) / 2).

(** the constant of the Varandas law, with the reference load [F0] and the reference number of cycles [N0 = n0 + 1] *)
Definition reference (alpha beta F0 : R) (n0 : nat) : R :=
  Rpower F0 (alpha + 1) / (alpha + 1) * sumn n0 (fun n => Rpower (1 / INR (S n)) beta).

(** settlement (m) by the Varandas law of one load of [F] kN with weight 1: the integral is computed with 99 intervals *)
Definition unit_settlement (alpha beta gamma F0 : R) (n0 : nat) (F : R) : R :=
  gamma / reference alpha beta F0 n0 * trapezoidal 99 F (fun x => power x alpha) / 1000.

(** sum of the weights of the loads [1 .. n] *)
Definition weights (beta : R) (n : nat) : R := sumn n (fun k => Rpower (1 / INR (S k)) beta).

(** a period of a calculation: the traffic, the end and start in days, the nodes and whether the calculation is continued *)
Record stage := { sg_trains : list (train_type R); sg_end : R; sg_start : R; sg_idx : list nat; sg_reload : bool }.
(** the calls of the user for one period and for a list of periods *)
Definition do_stage (a : accumulation R) (s : stage) : res (accumulation R) :=
  do b <- set_traffic a (sg_trains s) (sg_end s) (sg_start s) ; calculate_settlement b (sg_idx s) (sg_reload s).
Fixpoint do_stages (a : accumulation R) (l : list stage) : res (accumulation R) :=
  match l with [] => Ok a | s :: r => do b <- do_stage a s ; do_stages b r end.

(** load cycles per day and in a period *)
Definition per_day (t : train_type R) : R := tt_per_hour t * tt_hours t * tt_axles t.
Definition loads (s : stage) (t : train_type R) : R := per_day t * (sg_end s - sg_start s).

(** the angle under which a strip of width [2 a] is seen from a point at depth [z] and distance [x] from its middle *)
Definition seen_angle (a z x : R) : R := atan ((x + a) / z) - atan ((x - a) / z).

(** largest shear stress at depth [z] under a strip of half width [a] with stress [q] (Flamant), at distance [x] from its
    middle, and its largest value [d] over 100 positions between [- 10 a] and [10 a] *)
Definition shear (q a z x : R) : R := Rabs q / PI * Rabs (sin (seen_angle a z x)).
Definition position (a : R) (k : nat) : R := - 10 * a + INR k * (20 * a) / 99.
Definition is_max_shear (q a z d : R) : Prop :=
  (exists k, (k < 100)%nat /\ d = shear q a z (position a k)) /\ forall k, (k < 100)%nat -> shear q a z (position a k) <= d.

(** the soil classes of Li and Selig: the end of the name of a layer, and the parameters [a], [b] and [m] *)
Definition soil_table : list (String.string * (R * R * R)) :=
  (let sand := (64 / 100, 10 / 100, 17 / 10) in let silt := (64 / 100, 10 / 100, 17 / 10) in let plastic_silt := (84 / 100, 13 / 100, 2) in
   let lean_clay := (11 / 10, 16 / 100, 2) in let fat_clay := (12 / 10, 18 / 100, 24 / 10) in let other := (0, 0, 0) in
   [("zg", sand); ("zm", sand); ("zf", sand); ("z&s", silt); ("zs", silt); ("s", silt);
    ("z&h", plastic_silt); ("zk", plastic_silt); ("k&s", plastic_silt); ("z&k", plastic_silt);
    ("kz", lean_clay); ("k", lean_clay); ("sd", lean_clay);
    ("ko", fat_clay); ("k&v", fat_clay); ("vk", fat_clay); ("v", fat_clay); ("o&z", fat_clay);
    ("a", other); ("ht", other)])%string.
(** [x] is what follows the last underscore of [name], or all of it *)
Definition name_end (name x : String.string) : Prop :=
  ~ In "_"%char (String.list_ascii_of_string x) /\ (name = x \/ exists start, name = (start ++ "_" ++ x)%string).
Definition soil_class (name : String.string) (p : R * R * R) : Prop := exists x, name_end name x /\ In (x, p) soil_table.

(** one layer of a soil profile: parameters of the class, thickness, depth of the middle below the first layer top, strength *)
Definition layer_bottom (last : R) (s : soil R) (i : nat) : R := nth (S i) (so_top s ++ [last]) 0.
Definition is_layer (last : R) (s : soil R) (i : nat) (ly : layer R) : Prop :=
  let top := nth i (so_top s) 0 in
  soil_class (nth i (so_names s) String.EmptyString) (ly_a ly, ly_b ly, ly_m ly) /\
  ly_thickness ly = Rabs (layer_bottom last s i - top) /\
  ly_mid ly = Rabs (top - nth 0 (so_top s) 0) + ly_thickness ly / 2 /\
  ly_strength ly = nth i (so_gamma s) 0 * ly_mid ly * tan (nth i (so_phi s) 0 * (PI / 180)) + nth i (so_cohesion s) 0.
Definition complete (s : soil R) : Prop :=
  let n := length (so_names s) in (1 <= n)%nat /\ length (so_gamma s) = n /\ length (so_phi s) = n /\ length (so_cohesion s) = n /\ length (so_top s) = n.

(** the law of Li and Selig for one layer: settlement after [n] loads with shear stress [d] *)
Definition power_law (ly : layer R) (d n : R) : R := ly_a ly * power (d / ly_strength ly) (ly_m ly) * Rpower n (ly_b ly) * ly_thickness ly.

(** parameters for which the law is meaningful *)
Definition sound_varandas (v : varandas R) : Prop := 0 <= va_alpha v /\ 0 <= va_gamma v /\ 0 < va_F0 v /\ 2 <= va_N0 v.
(** inputs of the law of Li and Selig for which settlements cannot decrease *)
Definition sound_soils (li : liselig R) : Prop :=
  0 <= li_t_ini li /\ forall s, In s (li_soils li) -> complete s /\ forall i ly, (i < length (so_names s))%nat -> is_layer (li_last li) s i ly -> 0 < ly_strength ly.

(** the reference number of cycles, as a whole number, is [n0 + 1] *)
Definition reference_cycles (v : varandas R) (n0 : nat) : Prop := INR (S n0) <= va_N0 v < INR (S n0) + 1.
(** settlement of one load of [F] kN with weight 1 for the parameters of a Varandas model *)
Definition load_settlement (v : varandas R) (n0 : nat) (F : R) : R :=
  unit_settlement (va_alpha v) (va_beta v) (va_gamma v) (va_F0 v) n0 F.

(** the same calculation with another reporting interval *)
Definition with_steps (a : accumulation R) (k : nat) : accumulation R :=
  {| ac_engine := ac_engine a; ac_steps := k; ac_traffic := ac_traffic a; ac_results := ac_results a |}.

(** the peak force of a train type at a node *)
Definition node_peak (t : train_type R) (node : nat) (p : R) : Prop :=
  exists row, nth_error (tt_forces t) node = Some row /\ is_peak row p.

(** the settlement of a node by the law of Li and Selig: the sum over the types [t] of trains and the layers [i] of the profile;
    [devs] are the stresses of each type in each layer and [n t] the number of loads of type [t] *)
Definition layer0 : layer R := {| ly_a := 0; ly_b := 0; ly_m := 0; ly_thickness := 0; ly_mid := 0; ly_strength := 0 |}.
Definition train0 : train_type R := {| tt_per_hour := 0; tt_hours := 0; tt_axles := 0; tt_forces := [] |}.
Definition profile_law (layers : list (layer R)) (devs : list (list R)) (n : nat -> R) : R :=
  sumn (length devs) (fun t => sumn (length layers) (fun i => power_law (nth i layers layer0) (nth i (nth t devs []) 0) (n t))).
(** the layers of the profile of a node, and the stresses in them *)
Definition node_layers (li : liselig R) (node : nat) (layers : list (layer R)) : Prop :=
  exists id so, nth_error (li_soil_id li) node = Some id /\ nth_error (li_soils li) id = Some so /\ length layers = length (so_names so) /\
    forall i, (i < length layers)%nat -> is_layer (li_last li) so i (nth i layers layer0).
Definition node_stresses (li : liselig R) (trains : list (train_type R)) (node : nat) (layers : list (layer R)) (devs : list (list R)) : Prop :=
  length devs = length trains /\
  forall t, (t < length trains)%nat -> length (nth t devs []) = length layers /\
    exists peak, node_peak (nth t trains train0) node peak /\
    forall i, (i < length layers)%nat ->
      is_max_shear (peak / (li_length li * li_width li) / 1000) (li_width li / 2) (ly_mid (nth i layers layer0)) (nth i (nth t devs []) 0).
(** number of loads of a type before report [j] of [k]: the loads of [t_ini] years of the daily traffic, then the loads of the
    period, the first of which is at the first report *)
Definition loads_before (li : liselig R) (s : stage) (k j : nat) (t : train_type R) : R :=
  nsum (map per_day (sg_trains s)) * 365 * li_t_ini li + 1 + INR j / INR (k - 1) * (loads s t - 1).

(** the earlier results that a period continues *)
Definition earlier (a0 : accumulation R) (s : stage) : results R :=
  if sg_reload s then match ac_results a0 with Some r => r | None => {| rs_nodes := []; rs_time := []; rs_disp := [] |} end else {| rs_nodes := []; rs_time := []; rs_disp := [] |}.
Definition earlier_row (a0 : accumulation R) (s : stage) (i : nat) : list R := nth i (rs_disp (earlier a0 s)) [].
