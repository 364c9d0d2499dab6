(** * Specifications for the vibration measure and the soil layering *)

From Coq Require Import Ascii String Reals List ZArith Arith.
From Verif Require Import Num Model_Misc.
Import ListNotations.
Local Open Scope R_scope.

(** ** frequency bands *)

(** the edges of the bands, in cycles per metre *)
Definition edges : list R := [8 / 100; 10 / 100; 126 / 1000; 16 / 100; 20 / 100; 253 / 1000; 32 / 100; 40 / 100; 50 / 100; 63 / 100].
Definition edge (i : nat) : R := nth i edges 0.
(** [f] lies in band [i] *)
Definition in_range (i : nat) (f : R) : Prop := edge i <= f < edge (i + 1).
(** from the fourth band on the signal is differentiated twice, which multiplies its power by the fourth power of the circular frequency *)
Definition factor (i : nat) (f : R) : R := if (i <? 3)%nat then 1 else (2 * PI * f) ^ 4.

(** ** effective values *)

(** the second derivative by differences *)
Definition second_difference (dx : R) (s : list R) (i : nat) : R := ((nth (i + 2) s 0 - nth (i + 1) s 0) / dx - (nth (i + 1) s 0 - nth i s 0) / dx) / dx.
Definition derived (i : nat) (dx : R) (s v : list R) : Prop :=
  if (i <? 3)%nat then v = s else length v = (length s - 2)%nat /\ forall k, (k < length v)%nat -> nth k v 0 = second_difference dx s k.
(** the moving average of the squares with exponentially decreasing weights: time constant 2, cut off after 4 of them; [N] weights *)
Definition decay (N j : nat) : R := exp (- (8 * INR j / INR (N - 1)) / 2) / (1 - exp (-4)).
Definition level (dx : R) (N : nat) (v : list R) (k : nat) : R :=
  sqrt (sumn (length v) (fun i => if (i <=? k)%nat then if (k - i <? N)%nat then nth i v 0 ^ 2 * decay N (k - i) else 0 else 0) * dx / 2).
Definition is_max (m : R) (f : nat -> R) (P : nat -> Prop) : Prop := (exists k, P k /\ m = f k) /\ forall k, P k -> f k <= m.

(** ** soil layers *)
Definition number_row {T} (name : string) (shear poisson density damping : T) (thickness : cell T) : list (cell T) :=
  [Txt name; Str shear; Str poisson; Str density; Str damping; thickness; Txt "-"; Txt "-"]%string.
Definition force_row {T} : list (cell T) := [Txt "Force"; Txt "-"; Txt "-"; Txt "-"; Txt "-"; Txt "-"; Txt "1"; Txt "V"]%string.
(** all columns have [n] rows *)
Definition columns {T} (l : layering T) (n : nat) : Prop :=
  length (wl_name l) = n /\ length (wl_shear l) = n /\ length (wl_poisson l) = n /\ length (wl_gamma l) = n /\ length (wl_damping l) = n /\ length (wl_top l) = n.
Definition layer_at (l : layering R) (i : nat) (thickness : cell R) : list (cell R) :=
  number_row (nth i (wl_name l) ""%string) (1000000 * nth i (wl_shear l) 0) (nth i (wl_poisson l) 0) (1000 * nth i (wl_gamma l) 0 / (981 / 100)) (nth i (wl_damping l) 0) thickness.
(** the sum of the thicknesses that are numbers *)
Definition thickness_of (row : list (cell R)) : R := match nth 5 row (Txt "") with Str x => x | Txt _ => 0 end.
