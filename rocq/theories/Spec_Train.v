(** * Vocabulary for statements about the train *)

From Coq Require Import Reals List Bool Arith ZArith.
From Verif Require Import Num PyBase Model_Train.
Import ListNotations.
Local Open Scope R_scope.

(** all numbers given to carts, bogies and wheels *)
Definition bogie_numbers (d : bdof) : list nat := bd_y d :: bd_r d :: bd_wheels d.
Definition train_numbers (cd : list (nat * nat)) (st : list (nat * bdof)) : list nat :=
  flat_map (fun p => [fst p; snd p]) cd ++ flat_map (fun e => bogie_numbers (snd e)) st.

(** [bs] lists every bogie of the train once *)
Definition lists_bogies (tn : train R) (bs : list nat) : Prop :=
  NoDup bs /\ forall b, In b bs <-> exists c, In c (tn_carts tn) /\ In b (ct_bogies c).
Definition n_wheels (tn : train R) (b : nat) : nat := length (bg_wheels (bogie_of tn b)).

(** [ws] lists every wheel of the train once *)
Definition lists_wheels (tn : train R) (ws : list (nat * nat)) : Prop :=
  NoDup ws /\ forall b i, In (b, i) ws <-> (exists c, In c (tn_carts tn) /\ In b (ct_bogies c)) /\ (i < n_wheels tn b)%nat.

(** more than the comparison tolerance of nodes apart *)
Definition apart (x y : R) : Prop := 1 / 1000000000 < Rabs (x - y).

(** a spring between a point at distance [d] of a body with numbers [y] (vertical) and [r] (rotation) and the vertical
    displacement [low]: its elongation under the displacement [u] *)
Definition stretch (u : nat -> R) (y r : nat) (d : R) (low : nat) : R := u y - d * u r - u low.

(** weight of the [i]-th spring: one when no distribution factors are given *)
Definition weight (factors : list R) (i : nat) : R := match factors with [] => 1 | _ => nth i factors 0 end.

(** energy (twice) of the suspension of one body on the points [lows] *)
Definition suspension (k : R) (factors ds : list R) (y r : nat) (lows : list nat) (u : nat -> R) : R :=
  sumn (length lows) (fun i => k * weight factors i * (stretch u y r (nth i ds 0) (nth i lows 0%nat)) ^ 2).
(** first moment of the weights: zero when the springs are balanced about the centre *)
Definition imbalance (factors ds : list R) (n : nat) : R := sumn n (fun i => weight factors i * nth i ds 0).

(** a body: suspension value, factors, distances, own numbers, numbers of the points below *)
Record body := mkBody { by_k : R; by_factors : list R; by_ds : list R; by_y : nat; by_r : nat; by_lows : list nat }.
Definition cart_body (value : cart R -> R) (st : list (nat * bdof)) (c : cart R) (p : nat * nat) : body :=
  mkBody (value c) (ct_factor c) (ct_bogie_distances c) (fst p) (snd p) (map (fun b => bd_y (dof_get st b)) (ct_bogies c)).
Definition bogie_body (value : bogie R -> R) (tn : train R) (st : list (nat * bdof)) (b : nat) : body :=
  let d := dof_get st b in
  mkBody (value (bogie_of tn b)) (bg_factor (bogie_of tn b)) (bg_wheel_distances (bogie_of tn b)) (bd_y d) (bd_r d) (bd_wheels d).
Definition bodies (vc : cart R -> R) (vb : bogie R -> R) (tn : train R) (cd : list (nat * nat)) (st : list (nat * bdof)) (bs : list nat) : list body :=
  map (fun cp => cart_body vc st (fst cp) (snd cp)) (combine (tn_carts tn) cd) ++ map (bogie_body vb tn st) bs.

Definition energy (b : body) (u : nat -> R) : R := suspension (by_k b) (by_factors b) (by_ds b) (by_y b) (by_r b) (by_lows b) u.
Definition offset (b : body) : R := imbalance (by_factors b) (by_ds b) (length (by_lows b)).
Definition balanced (b : body) : Prop := offset b = 0.
(** no spring of the body is elongated *)
Definition relaxed (b : body) (u : nat -> R) : Prop :=
  forall i, (i < length (by_lows b))%nat -> stretch u (by_y b) (by_r b) (nth i (by_ds b) 0) (nth i (by_lows b) 0%nat) = 0.

(** one factor (or none at all) and one distance per bogie, respectively wheel *)
Definition complete (tn : train R) : Prop :=
  (forall c, In c (tn_carts tn) ->
     (ct_factor c = [] \/ length (ct_factor c) = length (ct_bogies c)) /\ length (ct_bogie_distances c) = length (ct_bogies c) /\
     (forall b, In b (ct_bogies c) ->
        (bg_factor (bogie_of tn b) = [] \/ length (bg_factor (bogie_of tn b)) = n_wheels tn b) /\
        length (bg_wheel_distances (bogie_of tn b)) = n_wheels tn b)).

(** the train moves as one rigid body: vertical displacement [a], rotation [theta]; [xc], [xb], [xw] are the positions *)
Definition rigid_train (tn : train R) (cd : list (nat * nat)) (st : list (nat * bdof)) (a theta : R) (u : nat -> R) : Prop :=
  exists (xc : nat -> R) (xb : nat -> R),
    (forall q c, nth_error (tn_carts tn) q = Some c ->
       forall i b, nth_error (ct_bogies c) i = Some b -> xb b = xc q + nth i (ct_bogie_distances c) 0) /\
    (forall q p, nth_error cd q = Some p -> u (fst p) = a - xc q * theta /\ u (snd p) = theta) /\
    (forall b d, dof_of b st = Some d -> u (bd_y d) = a - xb b * theta /\ u (bd_r d) = theta /\
       forall i w, nth_error (bd_wheels d) i = Some w -> u w = a - (xb b + nth i (bg_wheel_distances (bogie_of tn b)) 0) * theta).

(** masses *)
Definition bogie_mass (tn : train R) (b : nat) : R := bg_mass (bogie_of tn b) + nsum (bg_wheels (bogie_of tn b)).
Definition train_weight (tn : train R) (bs : list nat) : R := nsum (map (@ct_mass R) (tn_carts tn)) + nsum (map (bogie_mass tn) bs).

Definition load_of (o : option R) : R := match o with Some x => x | None => 0 end.
(** sum of the static loads on all wheels *)
Definition wheel_total (tn : train R) (bs : list nat) (l : loads R) : R :=
  nsum (map (fun b => sumn (n_wheels tn b) (fun i => load_of (ld_wheel l b i))) bs).

(** what the carts pass on to bogie [b] *)
Definition share (tn : train R) (cd : list (nat * nat)) (force : nat -> R) (external : R) (b : nat) : R :=
  nsum (map (fun cp => INR (count_occ Nat.eq_dec (ct_bogies (fst cp)) b) *
                       ((force (fst (snd cp)) + external / INR (length (tn_carts tn))) / INR (length (ct_bogies (fst cp)))))
            (combine (tn_carts tn) cd)).

(** ** irregularities: [N] harmonic waves with equally spaced angular frequencies *)
Definition frequency_step (f_min f_max : R) (N : nat) : R := (2 * PI * f_max - 2 * PI * f_min) / INR N.
Definition frequency (f_min f_max : R) (N n : nat) : R := 2 * PI * f_min + frequency_step f_min f_max N * INR n.
(** spectral density of the unevenness *)
Definition psd_value (Av omega_c omega : R) : R := 2 * PI * Av * (omega_c * omega_c) / ((omega * omega + omega_c * omega_c) * (omega * omega)).
Definition amplitude (f_min f_max : R) (N : nat) (Av omega_c : R) (n : nat) : R :=
  sqrt (4 * psd_value Av omega_c (frequency f_min f_max N n) * frequency_step f_min f_max N).
(** the [n]-th wave at position [x]; [rng seed] is the stream of phases *)
Definition wave (rng : nat -> nat -> R) (f_min f_max : R) (N : nat) (Av omega_c : R) (seed n : nat) (x : R) : R :=
  amplitude f_min f_max N Av omega_c n * cos (frequency f_min f_max N n * x - rng seed n).
