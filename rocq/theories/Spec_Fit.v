(** * Vocabulary for statements about the fit of stiffness and damping *)

From Coq Require Import String.
From Coq Require Import Reals List Arith.
From Verif Require Import Num PyBase Model_System Model_Accumulation Model_Optimisation Spec_Accumulation Spec_Optimisation.
Import ListNotations.
Local Open Scope R_scope.

(** [m] is [m0] with stiffness [k] and damping [c] of the fifth part, and nothing else changed *)
Definition with_soil {M} (m0 : model R M) (k c : R) (m : model R M) : Prop :=
  md_rest m = md_rest m0 /\ List.length (md_parts m) = List.length (md_parts m0) /\
  forall j a0 a, nth_error (md_parts m0) j = Some a0 -> nth_error (md_parts m) j = Some a -> forall name,
    (j = 4%nat -> name = "stiffness"%string -> a name = Some k) /\ (j = 4%nat -> name = "damping"%string -> a name = Some c) /\
    (~ (j = 4%nat /\ (name = "stiffness"%string \/ name = "damping"%string)) -> a name = a0 name).

(** the residuals [r] have the slopes [J] (one row per residual) when the parameters [k] and [c] are changed by [dk] and [dc], one at a
    time: the difference quotients from which least squares methods take their steps *)
Definition slopes (r : list R -> res (list R)) (k c dk dc : R) (J : list (R * R)) : Prop :=
  exists r0 rk rc, r [k; c] = Ok r0 /\ r [k + dk; c] = Ok rk /\ r [k; c + dc] = Ok rc /\ List.length J = List.length r0 /\
    forall i, (i < List.length J)%nat -> nth i J (0, 0) = ((nth i rk 0 - nth i r0 0) / dk, (nth i rc 0 - nth i r0 0) / dc).
(** the determinant of the normal equations of two parameters *)
Definition total (l : list R) : R := fold_right Rplus 0 l.
Definition normal_det (J : list (R * R)) : R :=
  total (map (fun q => fst q * fst q) J) * total (map (fun q => snd q * snd q) J) - total (map (fun q => fst q * snd q) J) * total (map (fun q => fst q * snd q) J).
