(** * Model of analytical_solutions/winkler.py: a force that moves along a beam on an elastic foundation and passes from one stiffness
    of the foundation to another

    Complex numbers are pairs.  Signed zeros are left out: the square root of a negative number has a positive imaginary part.
    Division by zero, which gives infinities and nan in numpy, has no model except where it is said.  Writing the results to json and
    the demonstration at the end of the file are left out. *)

From Coq Require Import List Bool ZArith Arith.
From Verif Require Import Num PyBase Model_Element Model_Accumulation Model_Misc Model_Analytic.
Import ListNotations.

Declare Scope cplx_scope.
Delimit Scope cplx_scope with cx.

Section Complex.
  Context {T : Type} `{Num T} `{Trig T} `{ExpLog T}.
  Local Open Scope num_scope.
  (** complex numbers of numpy (winkler.py 74-78) *)
  Definition cplx : Type := (T * T)%type.
  (** a real number where a complex one is needed (winkler.py 74) *)
  Definition creal (x : T) : cplx := (x, lit 0).
  (** [1j] (winkler.py 74) *)
  Definition cunit : cplx := (lit 0, lit 1).
  (** addition (winkler.py 114) *)
  Definition cadd (x y : cplx) : cplx := (fst x + fst y, snd x + snd y).
  (** [-x] (winkler.py 74) *)
  Definition copp (x : cplx) : cplx := (- fst x, - snd x).
  (** subtraction (winkler.py 252) *)
  Definition csub (x y : cplx) : cplx := cadd x (copp y).
  (** multiplication (winkler.py 74) *)
  Definition cmul (x y : cplx) : cplx := (fst x * fst y - snd x * snd y, fst x * snd y + snd x * fst y).
  (** division (winkler.py 77) *)
  Definition cinv (x : cplx) : cplx := (fst x / (fst x * fst x + snd x * snd x), - snd x / (fst x * fst x + snd x * snd x)).
  (** division (winkler.py 77) *)
  Definition cdiv (x y : cplx) : cplx := cmul x (cinv y).
  (** [x ** n] (winkler.py 173 and 181) *)
  Fixpoint cpow (x : cplx) (n : nat) : cplx := match n with 0%nat => creal (lit 1) | S n => cmul x (cpow x n) end.
  (** [numpy.sqrt] of a complex number: the root with a real part that is not negative (winkler.py 74-75, 173-179 and 238-250) *)
  Definition csqrt (x : cplx) : cplx :=
    let r := nsqrt (fst x * fst x + snd x * snd x) in
    let im := nsqrt ((r - fst x) / lit 2) in
    (nsqrt ((r + fst x) / lit 2), if nltb (snd x) (lit 0) then - im else im).
  (** [numpy.exp] of a complex number (winkler.py 114) *)
  Definition cexp (x : cplx) : cplx := (nexp (fst x) * ncos (snd x), nexp (fst x) * nsin (snd x)).
End Complex.
Arguments cplx T : clear implicits.
Infix "+" := cadd : cplx_scope.
Infix "-" := csub : cplx_scope.
Infix "*" := cmul : cplx_scope.
Infix "/" := cdiv : cplx_scope.
Notation "- x" := (copp x) : cplx_scope.
Infix "**" := cpow (at level 30, right associativity) : cplx_scope.

Section Winkler.
  Context {T : Type} `{Num T} `{Trig T} `{ExpLog T}.
  Local Open Scope num_scope.

  (** winkler.py 52-81: the constants *)
  Record wparams := mkW {
    w_EI : T; w_rho : T; w_k1 : T; w_k2 : T; w_speed : T; w_force : T; w_position : list T; w_time : list T;
    w_beta : T; w_h : T; w_alpha : T; w_F : T; w_tau : list T; w_qsi : list T; w_period : T;
    w_qa : cplx T; w_qb : cplx T; w_A : cplx T; w_B : cplx T; w_ratio : T }.

  (** [min] of two numbers (winkler.py 47) *)
  Definition min2 (a b : T) : T := if nltb b a then b else a.

  (** winkler.py 46-50: the critical speed; the fourth root is two square roots *)
  Definition critical_speed (EI rho k1 k2 : T) : T := nsqrt (nsqrt (lit 4 * min2 k1 k2 * EI / (rho * rho))).

  (** winkler.py 35-83, [parameters].  [h ** 1.5] is [h * sqrt h].  The two calls of [sys.exit] are errors.  No positions raise
      (line 67, [tau[-1]]).  A speed for which [4 - alpha ** 4] is zero makes [A] and [B], and with them all results, nan: [None] *)
  Definition winkler_parameters (x : list T) (speed E I rho : T) (k : list T) (force : T) : res (option wparams) :=
    let EI := E * I in
    match k with
    | [k1; k2] =>
        if nltb (critical_speed EI rho k1 k2) speed then Err ErrOther else
        let time := map (fun p => p / speed) x in
        let beta := nsqrt (EI / rho) in
        let h := nsqrt (k1 / rho) in
        let alpha := speed / nsqrt (beta * h) in
        let F := force / (rho * (h * nsqrt h) * nsqrt beta) in
        let tau := map (fun t => h * t) time in
        let qsi := map (fun p => nsqrt (h / beta) * p) x in
        match rev tau with
        | [] => Err ErrIndex
        | last :: _ =>
            let root := lit 4 - pow4 alpha in
            if neqb root (lit 0) then Ok None else
            let qa := copp (csqrt (creal (lit 1 / lit 2)%num * (copp (creal (pow2 alpha)) + cunit * creal (nsqrt root)))%cx) in
            let qb := copp (csqrt (creal (lit 1 / lit 2)%num * (copp (creal (pow2 alpha)) - cunit * creal (nsqrt root)))%cx) in
            let A := (creal F / (creal (lit 2) * cunit * qa * creal (nsqrt root)))%cx in
            let B := (- qa / qb * A)%cx in
            Ok (Some (mkW EI rho k1 k2 speed force x time beta h alpha F tau qsi (last * lit 2) qa qb A B (k2 / k1)))
        end
    | _ => Err ErrOther
    end.

  (** winkler.py 236-260: exponents and coefficients of the solution before the force has reached the change of stiffness *)
  Record statics := mkStatics {
    r1a1 : cplx T; r1a2 : cplx T; r1b1 : cplx T; r1b2 : cplx T; r2a1 : cplx T; r2a2 : cplx T; r2b1 : cplx T; r2b2 : cplx T;
    C1a : cplx T; C2a : cplx T; D1a : cplx T; D2a : cplx T; C1b : cplx T; C2b : cplx T; D1b : cplx T; D2b : cplx T }.

  (** winkler.py 238-250: the exponents; [k] is one left of the change of stiffness and the ratio of the stiffnesses right of it,
      where the exponents are the negatives of these *)
  Definition static_root1 (k al : T) (q : cplx T) : cplx T := csqrt (cunit * csqrt (creal k + q ** 2 * creal al ** 2))%cx.
  (** winkler.py 244, 246, 248 and 250: the same with [-1j] *)
  Definition static_root2 (k al : T) (q : cplx T) : cplx T := csqrt (- cunit * csqrt (creal k + q ** 2 * creal al ** 2))%cx.
  (** winkler.py 252, [C1a] *)
  Definition coef_C1a (q r11 r12 r21 r22 A : cplx T) : cplx T :=
    (- ((q - r12) * (q - r22) * (q - r21)) * A / ((r11 - r12) * (r22 - r11) * (r21 - r11)))%cx.
  (** winkler.py 253, [C2a] *)
  Definition coef_C2a (q r11 r12 r21 r22 A : cplx T) : cplx T :=
    ((q - r12) * (q - r11) * (q - r22) * A / ((r21 - r22) * (r21 - r12) * (r21 - r11)))%cx.
  (** winkler.py 254, [D1a] *)
  Definition coef_D1a (q r11 r12 r21 r22 A : cplx T) : cplx T :=
    ((q - r11) * (q - r22) * (q - r21) * A / ((r22 - r12) * (r21 - r12) * (r11 - r12)))%cx.
  (** winkler.py 255, [D2a] *)
  Definition coef_D2a (q r11 r12 r21 r22 A : cplx T) : cplx T :=
    (- ((q - r12) * (q - r11) * (q - r21)) * A / ((r22 - r12) * (r22 - r11) * (r21 - r22)))%cx.
  (** winkler.py 256, [C1b] *)
  Definition coef_C1b (q r11 r12 r21 r22 B : cplx T) : cplx T :=
    (- ((q - r12) * (q - r22) * (q - r21)) * B / ((r11 - r12) * (r11 - r22) * (r11 - r21)))%cx.
  (** winkler.py 257, [C2b] *)
  Definition coef_C2b (q r11 r12 r21 r22 B : cplx T) : cplx T :=
    (- ((q - r12) * (q - r22) * (q - r11)) * B / ((r21 - r12) * (r11 - r21) * (r21 - r22)))%cx.
  (** winkler.py 258, [D1b] *)
  Definition coef_D1b (q r11 r12 r21 r22 B : cplx T) : cplx T :=
    ((q - r22) * (q - r21) * (q - r11) * B / ((r22 - r12) * (r21 - r12) * (r11 - r12)))%cx.
  (** winkler.py 259, [D2b] *)
  Definition coef_D2b (q r11 r12 r21 r22 B : cplx T) : cplx T :=
    (- ((q - r11) * (q - r12) * (q - r21)) * B / ((r11 - r22) * (r12 - r22) * (r21 - r22)))%cx.

  (** winkler.py 236-260, [static_coefficients] *)
  Definition static_coefficients (w : wparams) : statics :=
    let al := w_alpha w in let qa := w_qa w in let qb := w_qb w in let A := w_A w in let B := w_B w in let k := w_ratio w in
    let r1a1 := static_root1 (lit 1) al qa in
    let r1a2 := static_root2 (lit 1) al qa in
    let r1b1 := static_root1 (lit 1) al qb in
    let r1b2 := static_root2 (lit 1) al qb in
    let r2a1 := copp (static_root1 k al qa) in
    let r2a2 := copp (static_root2 k al qa) in
    let r2b1 := copp (static_root1 k al qb) in
    let r2b2 := copp (static_root2 k al qb) in
    mkStatics r1a1 r1a2 r1b1 r1b2 r2a1 r2a2 r2b1 r2b2
      (coef_C1a qa r1a1 r1a2 r2a1 r2a2 A) (coef_C2a qa r1a1 r1a2 r2a1 r2a2 A) (coef_D1a qa r1a1 r1a2 r2a1 r2a2 A) (coef_D2a qa r1a1 r1a2 r2a1 r2a2 A)
      (coef_C1b qb r1b1 r1b2 r2b1 r2b2 B) (coef_C2b qb r1b1 r1b2 r2b1 r2b2 B) (coef_D1b qb r1b1 r1b2 r2b1 r2b2 B) (coef_D2b qb r1b1 r1b2 r2b1 r2b2 B).

  (** winkler.py 159-169, [coefficients_low] at one position *)
  Definition coefficients_low (w : wparams) (c : statics) (q t : T) : cplx T * cplx T :=
    let x := creal q in
    let W1a := (C1a c * cexp (r1a1 c * x) + D1a c * cexp (r1a2 c * x))%cx in
    let W1b := (C1b c * cexp (r1b1 c * x) + D1b c * cexp (r1b2 c * x))%cx in
    let W2a := (C2a c * cexp (r2a1 c * x) + D2a c * cexp (r2a2 c * x))%cx in
    let W2b := (C2b c * cexp (r2b1 c * x) + D2b c * cexp (r2b2 c * x))%cx in
    let ta := cexp (- w_qa w * creal (w_alpha w) * creal t)%cx in
    let tb := cexp (- w_qb w * creal (w_alpha w) * creal t)%cx in
    ((W1a * ta + W1b * tb)%cx, (W2a * ta + W2b * tb)%cx).

  (** winkler.py 100-120, [time_low]: the displacement at one position and time *)
  Definition time_low_at (w : wparams) (q t : T) : T :=
    let c := static_coefficients w in
    let eta := q - w_alpha w * t in
    let '(u1h, u2h) := coefficients_low w c q t in
    let u1p := (w_A w * cexp (w_qa w * creal (nabs eta)) + w_B w * cexp (w_qb w * creal (nabs eta)))%cx in
    if q <=? lit 0 then fst u1p + fst u1h else fst u2h.

  (** the term of an exponential with coefficient [c] and exponent [r] in the transformed solution: [c d / (p ** 2 + r ** 4)], where [d]
      is the transformed start (winkler.py 181-232) *)
  Definition bar_term (c d p r : cplx T) : cplx T := (c * d / (p ** 2 + r ** 4))%cx.
  (** the term of [C1b] in line 181 has another sign in the denominator *)
  Definition bar_term_181 (c d p r : cplx T) : cplx T := (c * d / (p ** 2 - r ** 4))%cx.
  (** the term of the force (winkler.py 184, 190, 197, 204 and 231) *)
  Definition bar_force (F al s s2 : cplx T) : cplx T := (F / (al * (s2 ** 2 + s ** 4 / al ** 4)))%cx.

  (** the coefficients of the known part of the transformed solution left and right of the change of stiffness with their exponents
      (winkler.py 219-224 and 227-231) *)
  Definition known_left (w : wparams) (c : statics) (s s1 : cplx T) : list (cplx T * cplx T) :=
    let al := creal (w_alpha w) in let qa := w_qa w in let qb := w_qb w in
    [(bar_term (C1a c) (s - al * qa)%cx s1 (r1a1 c), r1a1 c); (bar_term (D1a c) (s - al * qa)%cx s1 (r1a2 c), r1a2 c);
     (bar_term (C1b c) (s - al * qb)%cx s1 (r1b1 c), r1b1 c); (bar_term (D1b c) (s - al * qb)%cx s1 (r1b2 c), r1b2 c);
     (bar_term (w_A w) (s + al * qa)%cx s1 qa, copp qa); (bar_term (w_B w) (s + al * qb)%cx s1 qb, copp qb)].
  (** winkler.py 227-231 *)
  Definition known_right (w : wparams) (c : statics) (s s2 : cplx T) : list (cplx T * cplx T) :=
    let al := creal (w_alpha w) in let qa := w_qa w in let qb := w_qb w in
    [(bar_term (C2a c) (s - al * qa)%cx s2 (r2a1 c), r2a1 c); (bar_term (D2a c) (s - al * qa)%cx s2 (r2a2 c), r2a2 c);
     (bar_term (C2b c) (s - al * qb)%cx s2 (r2b1 c), r2b1 c); (bar_term (D2b c) (s - al * qb)%cx s2 (r2b2 c), r2b2 c);
     (bar_force (creal (w_F w)) al s s2, (- s / al)%cx)].
  (** the known part of line 181, where the sign in the denominator of the term of [C1b] differs *)
  Definition known_left_181 (w : wparams) (c : statics) (s s1 : cplx T) : list (cplx T * cplx T) :=
    let al := creal (w_alpha w) in let qa := w_qa w in let qb := w_qb w in
    [(bar_term (C1a c) (s - al * qa)%cx s1 (r1a1 c), r1a1 c); (bar_term (D1a c) (s - al * qa)%cx s1 (r1a2 c), r1a2 c);
     (bar_term_181 (C1b c) (s - al * qb)%cx s1 (r1b1 c), r1b1 c); (bar_term (D1b c) (s - al * qb)%cx s1 (r1b2 c), r1b2 c);
     (bar_term (w_A w) (s + al * qa)%cx s1 qa, copp qa); (bar_term (w_B w) (s + al * qb)%cx s1 qb, copp qb)].

  (** the [n]-th derivative of a sum of exponentials at zero (winkler.py 181-204) *)
  Fixpoint exp_moment (n : nat) (l : list (cplx T * cplx T)) : cplx T :=
    match l with [] => creal (lit 0) | (c, r) :: l => (r ** n * c + exp_moment n l)%cx end.
  (** a sum of exponentials at [x] (winkler.py 219-232) *)
  Fixpoint exp_sum (l : list (cplx T * cplx T)) (x : cplx T) : cplx T :=
    match l with [] => creal (lit 0) | (c, r) :: l => (c * cexp (r * x) + exp_sum l x)%cx end.

  (** winkler.py 206-208, [E1] *)
  Definition coef_E1 (r11 r12 r21 r22 Z1 Z2 Z3 Z4 : cplx T) : cplx T :=
    ((r12 * r21 * r22 * Z1 - r12 * r21 * Z2 - r12 * r22 * Z2 - r21 * r22 * Z2 + r12 * Z3 + r21 * Z3 + r22 * Z3 - Z4) /
     ((r11 - r12) * (r11 ** 2 - r11 * r22 - r11 * r21 + r21 * r22)))%cx.
  (** winkler.py 209-211, [G1] *)
  Definition coef_G1 (r11 r12 r21 r22 Z1 Z2 Z3 Z4 : cplx T) : cplx T :=
    ((r11 * r21 * r22 * Z1 - r11 * r21 * Z2 - r11 * r22 * Z2 - r21 * r22 * Z2 + r11 * Z3 + r21 * Z3 + r22 * Z3 - Z4) /
     ((r12 - r11) * (r12 - r21) * (r12 - r22)))%cx.
  (** winkler.py 212-214, [E2] *)
  Definition coef_E2 (r11 r12 r21 r22 Z1 Z2 Z3 Z4 : cplx T) : cplx T :=
    ((r11 * r12 * r22 * Z1 - r11 * r12 * Z2 - r11 * r22 * Z2 - r12 * r22 * Z2 + r11 * Z3 + r12 * Z3 + r22 * Z3 - Z4) /
     ((r22 - r21) * (r21 ** 2 - r11 * r21 - r12 * r21 + r11 * r12)))%cx.
  (** winkler.py 215-217, [G2] *)
  Definition coef_G2 (r11 r12 r21 r22 Z1 Z2 Z3 Z4 : cplx T) : cplx T :=
    ((r11 * r12 * r21 * Z1 - r11 * r12 * Z2 - r11 * r21 * Z2 - r12 * r21 * Z2 + r11 * Z3 + r12 * Z3 + r21 * Z3 - Z4) /
     ((r11 - r22) * (r12 - r22) * (r21 - r22)))%cx.

  (** [s1] and [s2] (winkler.py 173-174) *)
  Definition bar_root (k : T) (s : cplx T) : cplx T := csqrt (creal k + s ** 2)%cx.

  (** winkler.py 171-234, [coefficients_bar]: the two transformed solutions as sums of exponentials of the position *)
  Definition bar_sums (w : wparams) (c : statics) (s : cplx T) : list (cplx T * cplx T) * list (cplx T * cplx T) :=
    let s1 := bar_root (lit 1) s in
    let s2 := bar_root (w_ratio w) s in
    let r11 := csqrt (cunit * s1)%cx in
    let r12 := csqrt (- cunit * s1)%cx in
    let r21 := copp (csqrt (cunit * s2)%cx) in
    let r22 := copp (csqrt (- cunit * s2)%cx) in
    let Z1 := csub (exp_moment 0 (known_left_181 w c s s1)) (exp_moment 0 (known_right w c s s2)) in
    let Z2 := csub (exp_moment 1 (known_left w c s s1)) (exp_moment 1 (known_right w c s s2)) in
    let Z3 := csub (exp_moment 2 (known_left w c s s1)) (exp_moment 2 (known_right w c s s2)) in
    let Z4 := csub (exp_moment 3 (known_left w c s s1)) (exp_moment 3 (known_right w c s s2)) in
    (known_left w c s s1 ++ [(coef_E1 r11 r12 r21 r22 Z1 Z2 Z3 Z4, r11); (coef_G1 r11 r12 r21 r22 Z1 Z2 Z3 Z4, r12)],
     known_right w c s s2 ++ [(coef_E2 r11 r12 r21 r22 Z1 Z2 Z3 Z4, r21); (coef_G2 r11 r12 r21 r22 Z1 Z2 Z3 Z4, r22)]).
  (** winkler.py 219-234: their values at one position *)
  Definition coefficients_bar (w : wparams) (c : statics) (q : T) (s : cplx T) : cplx T * cplx T :=
    let '(l1, l2) := bar_sums w c s in (exp_sum l1 (creal q), exp_sum l2 (creal q)).

  (** winkler.py 135-138 and 147-152: the real part of the transformed displacement *)
  Definition bar_at (w : wparams) (q : T) (s : cplx T) : T :=
    let '(ub1, ub2) := coefficients_bar w (static_coefficients w) q s in
    if q <=? lit 0 then fst ub1 else fst ub2.

  (** winkler.py 122-157, [time_high]: the displacement at one position and time; [nb_terms] terms, [a] as given to the constructor *)
  Definition time_high_at (nb_terms : nat) (a : T) (w : wparams) (q t : T) : T :=
    let F1 := lit 1 / lit 2 * bar_at w q (creal a) in
    let F2 := sumn (nb_terms - 1) (fun i => let k := nofnat (S i) in
      bar_at w q (creal a + creal k * creal npi * cunit / creal (w_period w))%cx * ncos (k * npi * t / w_period w)) in
    lit 2 * nexp (a * t) / w_period w * (F1 + F2).

  (** [np.where(tau == t)[0][0]] (winkler.py 130 and 144) *)
  Fixpoint first_place (t : T) (l : list T) : nat :=
    match l with [] => 0%nat | x :: r => if neqb x t then 0%nat else S (first_place t r) end.

  (** column [j] of [displacement] at one position (winkler.py 85-157).  [time_low] writes the [j]-th of the negative times to column [j]
      (lines 102 and 118).  [time_high] writes every other time to the first column with that time (lines 129-130 and 143-144), where
      several entries of the same time add up (lines 140 and 153) *)
  Definition displacement_at (nb_terms : nat) (a : T) (w : wparams) (q : T) (j : nat) : T :=
    let negative := filter (fun t => nltb t (lit 0)) (w_tau w) in
    let u := match nth_error negative j with Some t => time_low_at w q t | None => lit 0 end in
    let uu := match nth_error (w_tau w) j with
              | Some t => if (lit 0 <=? t) && Nat.eqb (first_place t (w_tau w)) j
                          then nofnat (List.length (filter (fun x => neqb x t) (w_tau w))) * time_high_at nb_terms a w q t else lit 0
              | None => lit 0
              end in
    u + uu.

  (** winkler.py 35-98: times, positions and displacements (a row for each position) *)
  Definition winkler_solution (nb_terms : nat) (a : T) (x : list T) (speed E I rho : T) (k : list T) (force : T)
    : res (option (list T * list T * list (list T))) :=
    do p <- winkler_parameters x speed E I rho k force ;
    Ok match p with
       | None => None
       | Some w => Some (w_time w, w_position w,
                         map (fun q => map (displacement_at nb_terms a w q) (seq 0 (List.length (w_tau w)))) (w_qsi w))
       end.
End Winkler.

Arguments wparams T : clear implicits.
Arguments statics T : clear implicits.
