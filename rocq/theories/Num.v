(** * Number operations used by the model

    The Python code computes with IEEE doubles.  The model is generic in the number type: it only
    uses the operations of the class [Num].  The theorems use the instance on the reals [R]
    (exact arithmetic); the instance on the rationals [Q] is computable and is only used to replay
    expected values of the unit tests of the repository ([Tests.v]). *)

From Coq Require Import Reals ZArith QArith Qreduction Qround List Bool Lia Lra.
Import ListNotations.

Class Num (T : Type) := {
  lit : Z -> T;                 (* integer literal *)
  nadd : T -> T -> T;
  nsub : T -> T -> T;
  nmul : T -> T -> T;
  ndiv : T -> T -> T;            (* only used with a divisor that the code guards or assumes non-zero *)
  nopp : T -> T;
  nleb : T -> T -> bool;
  nsqrt : T -> T;
  nfloor : T -> Z                (* math.floor *)
}.

Arguments lit {T Num} _%Z.
Declare Scope num_scope.
Delimit Scope num_scope with num.
Notation "x + y" := (nadd x y) : num_scope.
Notation "x - y" := (nsub x y) : num_scope.
Notation "x * y" := (nmul x y) : num_scope.
Notation "x / y" := (ndiv x y) : num_scope.
Notation "- x" := (nopp x) : num_scope.
Notation "x <=? y" := (nleb x y) : num_scope.

Section Derived.
  Context {T : Type} `{Num T}.
  Local Open Scope num_scope.

  (** strict comparison, equality, absolute value, sign: Python [<], [==], [abs], [numpy.sign] *)
  Definition nltb (x y : T) : bool := negb (y <=? x).
  Definition neqb (x y : T) : bool := (x <=? y) && (y <=? x).
  Definition nabs (x : T) : T := if lit 0 <=? x then x else - x.
  Definition nsign (x : T) : T := if nltb (lit 0) x then lit 1 else if nltb x (lit 0) then - (lit 1) else lit 0.
  Definition nofnat (n : nat) : T := lit (Z.of_nat n).

  (** decimal literal [m * 10^-e] *)
  Definition ndec (m : Z) (e : Z) : T := lit m / lit (10 ^ e)%Z.

  (** [math.ceil], [int] (truncation towards zero) and rounding to the nearest integer, ties to
      even ([round], [numpy.round], [numpy.rint]) *)
  Definition nceil (x : T) : Z := Z.opp (nfloor (- x)).
  Definition ntrunc (x : T) : Z := if lit 0 <=? x then nfloor x else nceil x.
  Definition nround (x : T) : Z :=
    let f := nfloor x in
    let r := x - lit f in
    if nltb r (lit 1 / lit 2) then f
    else if nltb (lit 1 / lit 2) r then (f + 1)%Z
    else if Z.even f then f else (f + 1)%Z.

  (** [round(x, 9)], represented by the integer [10^9 * round(x, 9)] *)
  Definition round9 (x : T) : Z := nround (x * lit (10 ^ 9)).

  (** Python / numpy [sum] of a list *)
  Fixpoint nsum (l : list T) : T :=
    match l with [] => lit 0 | x :: r => x + nsum r end.

  (** [sum(f(i) for i in range(n))] *)
  Fixpoint sumn (n : nat) (f : nat -> T) : T :=
    match n with O => lit 0 | S k => sumn k f + f k end.

  (** [numpy.isclose(a, b)] with default tolerances: |a-b| <= 1e-8 + 1e-5*|b| *)
  Definition np_isclose (a b : T) : bool :=
    nabs (a - b) <=? ndec 1 8 + ndec 1 5 * nabs b.

  (** [math.isclose(a, b)] with default tolerances: |a-b| <= 1e-9*max(|a|,|b|) *)
  Definition math_isclose (a b : T) : bool :=
    nabs (a - b) <=? ndec 1 9 * (if nabs a <=? nabs b then nabs b else nabs a).
End Derived.

(** ** Exact reals *)

Definition Rleb (x y : R) : bool := if Rle_dec x y then true else false.

#[global] Instance RNum : Num R := {|
  lit := IZR;
  nadd := Rplus; nsub := Rminus; nmul := Rmult; ndiv := Rdiv; nopp := Ropp;
  nleb := Rleb; nsqrt := R_sqrt.sqrt; nfloor := Int_part
|}.

(** ** Computable rationals (normalised after each operation) *)

(** exact on squares of rationals, only used in test examples *)
Definition Qsqrt_sq (q : Q) : Q :=
  let r := Qred q in (Z.sqrt (Qnum r) # Z.to_pos (Z.sqrt (Zpos (Qden r))))%Q.

#[global] Instance QNum : Num Q | 10 := {|
  lit := inject_Z;
  nadd := fun x y => Qred (Qplus x y);
  nsub := fun x y => Qred (Qminus x y);
  nmul := fun x y => Qred (Qmult x y);
  ndiv := fun x y => Qred (Qdiv x y);
  nopp := Qopp; nleb := Qle_bool; nsqrt := Qsqrt_sq; nfloor := Qfloor
|}.

(** ** Rewriting model operations into operations of [R] *)

Ltac rnum :=
  change (@lit R RNum) with IZR in *;
  change (@nadd R RNum) with Rplus in *;
  change (@nsub R RNum) with Rminus in *;
  change (@nmul R RNum) with Rmult in *;
  change (@ndiv R RNum) with Rdiv in *;
  change (@nopp R RNum) with Ropp in *;
  change (@nsqrt R RNum) with R_sqrt.sqrt in *;
  change (@nleb R RNum) with Rleb in *.

Local Open Scope R_scope.

Lemma RlebP x y : reflect (x <= y) (Rleb x y).
Proof. unfold Rleb; destruct (Rle_dec x y); constructor; auto. Qed.

Lemma nlebP (x y : R) : reflect (x <= y) (nleb x y).
Proof. exact (RlebP x y). Qed.

Lemma nltbP (x y : R) : reflect (x < y) (nltb x y).
Proof. unfold nltb; destruct (nlebP y x); simpl; constructor; lra. Qed.

Lemma neqbP (x y : R) : reflect (x = y) (neqb x y).
Proof. unfold neqb; destruct (nlebP x y), (nlebP y x); simpl; constructor; lra. Qed.

Lemma nabs_R (x : R) : nabs x = Rabs x.
Proof.
  unfold nabs. destruct (nlebP (lit 0) x) as [h|h]; rnum.
  - rewrite Rabs_right; lra.
  - rewrite Rabs_left; lra.
Qed.

Lemma nsign_pos (x : R) : 0 < x -> nsign x = 1.
Proof. intros h. unfold nsign. destruct (nltbP (lit 0) x) as [h'|h']; rnum; lra. Qed.

Lemma nsign_neg (x : R) : x < 0 -> nsign x = -1.
Proof.
  intros h. unfold nsign. destruct (nltbP (lit 0) x) as [h'|h']; rnum; [lra|].
  destruct (nltbP x 0) as [h2|h2]; rnum; lra.
Qed.

Lemma nsign_0 : nsign 0 = 0.
Proof.
  unfold nsign. destruct (nltbP (lit 0) 0) as [h'|h']; rnum; [lra|].
  destruct (nltbP 0 0) as [h2|h2]; rnum; lra.
Qed.

Lemma nofnat_R n : @nofnat R _ n = INR n.
Proof. unfold nofnat; rnum. rewrite <- INR_IZR_INZ; reflexivity. Qed.

Lemma ndec_R m e : @ndec R _ m e = IZR m / IZR (10 ^ e).
Proof. reflexivity. Qed.

Lemma np_isclose_spec (a b : R) :
  np_isclose a b = true <-> Rabs (a - b) <= 1 / 100000000 + 1 / 100000 * Rabs b.
Proof.
  unfold np_isclose. rewrite !nabs_R, !ndec_R.
  match goal with |- nleb ?x ?y = _ <-> _ => destruct (nlebP x y) as [h|h] end; rnum; simpl in h; split; intros; auto; try lra; discriminate.
Qed.

Lemma np_isclose_0_spec (a : R) :
  np_isclose a 0 = true <-> Rabs a <= 1 / 100000000.
Proof. rewrite np_isclose_spec, Rminus_0_r, Rabs_R0. split; lra. Qed.

Lemma nfloor_spec (x : R) : IZR (nfloor x) <= x < IZR (nfloor x) + 1.
Proof.
  change (@nfloor R RNum) with Int_part. destruct (base_Int_part x) as [h1 h2]. lra.
Qed.

Lemma nfloor_unique (x : R) (k : Z) : IZR k <= x < IZR k + 1 -> nfloor x = k.
Proof.
  intros [h1 h2]. destruct (nfloor_spec x) as [h3 h4].
  apply Z.le_antisymm; apply Z.lt_succ_r; apply lt_IZR; rewrite succ_IZR; lra.
Qed.

Lemma nround_near (x : R) : Rabs (x - IZR (nround x)) <= 1 / 2.
Proof.
  unfold nround. destruct (nfloor_spec x) as [h3 h4].
  repeat match goal with |- context [nltb ?a ?b] => destruct (nltbP a b) end; rnum;
    try destruct (Z.even _); rewrite ?plus_IZR; unfold Rabs; destruct (Rcase_abs _); lra.
Qed.

Lemma round9_near (x : R) : Rabs (x - IZR (round9 x) / 1000000000) <= 1 / 2000000000.
Proof.
  unfold round9. pose proof (nround_near (x * 1000000000)) as h.
  change (nmul x (lit (10 ^ 9))) with (x * 1000000000). revert h.
  generalize (nround (x * 1000000000)). intros z h.
  apply Rabs_le.
  unfold Rabs in h. destruct (Rcase_abs _) in h; lra.
Qed.

(** ** Sums over [R] *)

Lemma nsum_app (a b : list R) : nsum (a ++ b) = nsum a + nsum b.
Proof. induction a as [|x a IH]; simpl; rnum; [lra|]. rewrite IH; lra. Qed.

Lemma sumn_ext n (f g : nat -> R) : (forall i, (i < n)%nat -> f i = g i) -> sumn n f = sumn n g.
Proof.
  induction n as [|n IH]; simpl; intros h; auto. rewrite IH by (intros; apply h; lia).
  rewrite (h n) by lia. reflexivity.
Qed.

Lemma sumn_0 n (f : nat -> R) : (forall i, (i < n)%nat -> f i = 0) -> sumn n f = 0.
Proof.
  induction n as [|n IH]; simpl; intros h; rnum; auto. rewrite IH by (intros; apply h; lia).
  rewrite (h n) by lia. lra.
Qed.

Lemma sumn_add n (f g : nat -> R) : sumn n (fun i => f i + g i) = sumn n f + sumn n g.
Proof. induction n as [|n IH]; simpl; rnum; [lra|]. rewrite IH; lra. Qed.

Lemma sumn_scal n c (f : nat -> R) : sumn n (fun i => c * f i) = c * sumn n f.
Proof. induction n as [|n IH]; simpl; rnum; [lra|]. rewrite IH; lra. Qed.

Lemma sumn_nonneg n (f : nat -> R) : (forall i, (i < n)%nat -> 0 <= f i) -> 0 <= sumn n f.
Proof.
  induction n as [|n IH]; simpl; intros h; rnum; [lra|].
  assert (0 <= sumn n f) by (apply IH; intros; apply h; lia).
  assert (0 <= f n) by (apply h; lia). lra.
Qed.

Lemma sumn_swap n m (f : nat -> nat -> R) :
  sumn n (fun i => sumn m (fun j => f i j)) = sumn m (fun j => sumn n (fun i => f i j)).
Proof.
  induction n as [|n IH]; simpl.
  - symmetry; apply sumn_0; auto.
  - rnum. rewrite IH. rewrite <- sumn_add. reflexivity.
Qed.

Lemma sumn_single n k (f : nat -> R) :
  (k < n)%nat -> (forall i, (i < n)%nat -> i <> k -> f i = 0) -> sumn n f = f k.
Proof.
  induction n as [|n IH]; intros hk h; [lia|]. simpl; rnum.
  destruct (Nat.eq_dec k n) as [->|ne].
  - rewrite sumn_0 by (intros; apply h; lia). lra.
  - rewrite IH by (try lia; intros; apply h; lia). rewrite (h n) by lia. lra.
Qed.

Lemma nsum_map_seq_gen (f : nat -> R) n s :
  nsum (map f (seq s n)) = sumn n (fun i => f (s + i)%nat).
Proof.
  induction n as [|n IH]; [reflexivity|].
  rewrite seq_S, map_app, nsum_app, IH. simpl; rnum. lra.
Qed.

Lemma nsum_map_seq (f : nat -> R) n : nsum (map f (seq 0 n)) = sumn n f.
Proof. rewrite nsum_map_seq_gen. reflexivity. Qed.

Lemma nsum_nonneg (l : list R) : Forall (fun x => 0 <= x) l -> 0 <= nsum l.
Proof. induction 1; simpl; rnum; lra. Qed.

Lemma nsum_map_add {A} (f g : A -> R) l :
  nsum (map (fun a => f a + g a) l) = nsum (map f l) + nsum (map g l).
Proof. induction l as [|a l IH]; simpl; rnum; [lra|]. rewrite IH; lra. Qed.

Lemma nsum_map_scal {A} (f : A -> R) c l :
  nsum (map (fun a => c * f a) l) = c * nsum (map f l).
Proof. induction l as [|a l IH]; simpl; rnum; [lra|]. rewrite IH; lra. Qed.
