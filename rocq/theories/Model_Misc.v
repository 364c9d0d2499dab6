(** * Model of rose/utils/Hmax.py, rose/utils/random_field.py and rose/utils/wolf_utils.py *)

From Coq Require Import Ascii String Reals List Bool ZArith Arith.
From Verif Require Import Num PyBase Model_System Model_Element Model_Coupled Model_Accumulation.
Import ListNotations.

(** [np.exp] and [np.log] ([None]: not a finite number) (Hmax.py 96-108, random_field.py 27-45) *)
Class ExpLog (T : Type) := { nexp : T -> T; nln : T -> option T }.
(** the same for the exact reals *)
Global Instance RExpLog : ExpLog R := { nexp := exp; nln := fun x => if Rlt_dec 0 x then Some (ln x) else None }.

Section Misc.
  Context {T : Type} `{Num T} `{Trig T} `{ExpLog T}.
  Local Open Scope num_scope.

  (** ** Hmax.py *)

  (** lines 5-14 *)
  Definition one_third : list (T * T) :=
    [(ndec 8 2, ndec 10 2); (ndec 10 2, ndec 126 3); (ndec 126 3, ndec 16 2); (ndec 16 2, ndec 20 2); (ndec 20 2, ndec 253 3);
     (ndec 253 3, ndec 32 2); (ndec 32 2, ndec 40 2); (ndec 40 2, ndec 50 2); (ndec 50 2, ndec 63 2)].
  (** line 35 *)
  Definition derivative : list nat := [0; 0; 0; 2; 2; 2; 2; 2; 2].

  (** the outputs used here (lines 29 and 39-46); the signal is the array of the caller, given by its place in the store *)
  Record hmax := { hm_signal : nat; hm_frequency : list T; hm_Pxx : list T; hm_rms_bands : list T; hm_max_fast : list T; hm_max_fast_Dx : list T }.

  (** [scipy.signal.welch] (line 71) for the signal and the sample distance, and band pass filtering (lines 100-101) for the
      signal, the band and the sample distance, are not modelled: any functions *)
  Context (welch : list T -> T -> list T * list T) (bandpass : list T -> T -> T -> T -> res (list T)).

  (** line 86: [x ** n] *)
  Fixpoint power (x : T) (n : nat) : T := match n with 0 => lit 1 | S n => x * power x n end.
  (** line 85 *)
  Definition in_band (b : T * T) (f : T) : bool := nleb (fst b) f && nltb f (snd b).
  (** lines 85-87 for one band *)
  Definition rms_band (freq : list T) (delta_f : T) (Pxx : list T) (b : T * T) (d : nat) : list T * T :=
    let P := map (fun '(f, p) => if in_band b f then power (lit 2 * npi * f) (2 * d) * p else p) (combine freq Pxx) in
    (P, nsqrt (nsum (map (fun '(f, p) => if in_band b f then p * delta_f else lit 0) (combine freq P)))).
  (** lines 83-87 *)
  Fixpoint rms_loop (freq : list T) (delta_f : T) (Pxx : list T) (bands : list ((T * T) * nat)) : list T * list T :=
    match bands with
    | [] => (Pxx, [])
    | (b, d) :: r => let (P, v) := rms_band freq delta_f Pxx b d in let (P', l) := rms_loop freq delta_f P r in (P', v :: l)
    end.
  (** lines 74-87 *)
  Definition rms_effective (freq Pxx : list T) : res (list T * list T) :=
    do f1 <- at_idx freq 1 ; do f0 <- at_idx freq 0 ; Ok (rms_loop freq (f1 - f0) Pxx (combine one_third derivative)).

  (** line 104: [np.diff(x) / dx] *)
  Fixpoint diff (dx : T) (x : list T) : list T :=
    match x with
    | a :: (b :: _) as r => (b - a) / dx :: diff dx r
    | _ => []
    end.
  (** lines 103-105 *)
  Fixpoint derive (dx : T) (x : list T) (d : nat) : list T := match d with 0 => x | S d => derive dx (diff dx x) d end.
  (** line 110: [np.convolve] *)
  Definition convolve (a g : list T) : list T :=
    map (fun k => sumn (Nat.min (S k) (List.length a)) (fun i => if (k - i <? List.length g)%nat then nth i a (lit 0) * nth (k - i) g (lit 0) else lit 0)) (seq 0 (length a + length g - 1)).
  (** line 107 *)
  Definition ksi (n tau dx : T) : list T :=
    let N := Z.to_nat (ntrunc (n * tau / dx + lit 1)) in
    map (fun i => if (N <=? 1)%nat then lit 0 else n * tau * nofnat i / nofnat (N - 1)) (seq 0 N).
  (** lines 96 and 108 *)
  Definition weights (n tau dx : T) : list T :=
    let fout := lit 1 / (lit 1 - nexp (nopp n)) in map (fun x => fout * nexp (nopp x / tau)) (ksi n tau dx).
  (** [x[i]] with a negative index counting from the end (line 115) *)
  Definition at_int (x : list T) (i : Z) : res T :=
    let i := if (i <? 0)%Z then (i + Z.of_nat (length x))%Z else i in
    if (i <? 0)%Z then Err ErrIndex else at_idx x (Z.to_nat i).
  (** lines 112-113: [DXmaxFast] is 1 (line 33) *)
  Definition centre (n : nat) (dx : T) : list Z :=
    let m := nfloor (lit 1 / dx) in
    map (fun i => Z.add (nfloor ((nofnat n - lit m) / lit 2)) (Z.of_nat i)) (seq 0 (Z.to_nat m)).
  (** lines 98-115 for one band, with the defaults of line 89 ([n] = 4, [tau] = 2) *)
  Definition effective_value (signal : list T) (dx : T) (b : T * T) (d : nat) : res (T * T) :=
    do s <- bandpass signal (fst b) (snd b) dx ;
    let new_signal := derive dx s d in
    match new_signal with
    | [] => Err ErrValue
    | _ =>
        let conv := map (fun v => nsqrt (v * dx / lit 2)) (convolve (map sq new_signal) (weights (lit 4) (lit 2) dx)) in
        do m <- max_of conv ;
        do c <- mapr (at_int conv) (centre (List.length signal) dx) ;
        do mc <- max_of c ;
        Ok (m, mc)
    end.
  (** lines 89-115 *)
  Definition effective_values (signal : list T) (dx : T) : res (list T * list T) :=
    do l <- mapr (fun '(b, d) => effective_value signal dx b d) (combine one_third derivative) ; Ok (map fst l, map snd l).

  (** lines 18-60: [store] are the arrays of the caller, [a] is the place of the signal *)
  Definition new_hmax (store : list (list T)) (a : nat) (dx : T) (convert_m2mm : bool) : list (list T) * res hmax :=
    match nth_error store a with
    | None => (store, Err ErrOther)
    | Some signal =>
        let signal := if convert_m2mm then map (fun x => x * lit 1000) signal else signal in
        let store := lset store a signal in
        let (freq, Pxx) := welch signal dx in
        (store,
         do r <- rms_effective freq Pxx ;
         do e <- effective_values signal dx ;
         Ok {| hm_signal := a; hm_frequency := freq; hm_Pxx := fst r; hm_rms_bands := snd r; hm_max_fast := fst e; hm_max_fast_Dx := snd e |})
    end.

  (** ** random_field.py *)

  (** [gs.SRF] (lines 35-39) is not modelled: any function of the variance, length scale, angles, mean, seed and nodes *)
  Context (srf : T -> T -> T -> T -> Z -> list T -> list T).

  (** lines 27-32: the mean and the standard deviation of the normal field *)
  Definition normal_moments (mean cv : T) (log_normal : bool) : option (T * T) :=
    if log_normal then
      match nln mean, nln (lit 1 + sq cv) with
      | Some lm, Some l => Some (lm - ndec 5 1 * l, nsqrt l)
      | _, _ => None
      end
    else Some (mean, mean * cv).
  (** lines 6-45 *)
  Definition create_rf (mean cv len_scale angles : T) (nodes : list T) (seed : Z) (log_normal : bool) : option (list T) :=
    match normal_moments mean cv log_normal with
    | None => None
    | Some (mu, sigma) =>
        let field := srf (sq sigma) len_scale angles mu seed nodes in
        Some (if log_normal then map nexp field else field)
    end.

  (** ** wolf_utils.py *)

  (** the dictionary of lines 24-38 *)
  Record layering := { wl_name : list string; wl_shear : list T; wl_poisson : list T; wl_gamma : list T; wl_damping : list T; wl_top : list T }.
  (** a cell of the table: a text or [str] of a number (wolf_utils.py 14-41) *)
  Inductive cell := Txt (s : string) | Str (x : T).
  (** [x[-1]] (lines 34-38) *)
  Definition at_last {A} (x : list A) : res A := match rev x with [] => Err ErrIndex | a :: _ => Ok a end.
  (** lines 25-32 *)
  Definition layer_row (l : layering) (j : nat) : res (list cell) :=
    do name <- at_idx (wl_name l) j ;
    do shear <- at_idx (wl_shear l) j ;
    do poisson <- at_idx (wl_poisson l) j ;
    do gamma <- at_idx (wl_gamma l) j ;
    do damping <- at_idx (wl_damping l) j ;
    do top <- at_idx (wl_top l) j ;
    do next <- at_idx (wl_top l) (j + 1) ;
    Ok [Txt name; Str (shear * lit 1000000); Str poisson; Str (gamma * lit 1000 / ndec 981 2); Str damping; Str (top - next); Txt "-"; Txt "-"].
  (** lines 34-39 *)
  Definition last_row (l : layering) : res (list cell) :=
    do name <- at_last (wl_name l) ;
    do shear <- at_last (wl_shear l) ;
    do poisson <- at_last (wl_poisson l) ;
    do gamma <- at_last (wl_gamma l) ;
    do damping <- at_last (wl_damping l) ;
    Ok [Txt name; Str (shear * lit 1000000); Str poisson; Str (gamma * lit 1000 / ndec 981 2); Str damping; Txt "inf"; Txt "-"; Txt "-"].
  (** lines 14-41 *)
  Definition create_layering_for_wolf (l : layering) (first_layer : list cell) : res (list (list cell)) :=
    let force := [Txt "Force"; Txt "-"; Txt "-"; Txt "-"; Txt "-"; Txt "-"; Txt "1"; Txt "V"] in
    do rows <- mapr (layer_row l) (seq 0 (length (wl_name l) - 1)) ;
    do last <- last_row l ;
    Ok (force :: first_layer :: rows ++ [last]).
End Misc.
Arguments hmax T : clear implicits.
Arguments layering T : clear implicits.
Arguments cell T : clear implicits.
