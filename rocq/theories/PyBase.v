(** * Python level notions shared by all model files: exceptions as values, small list operations *)

From Coq Require Import List Bool Arith Lia ZArith.
Import ListNotations.

(** Exceptions that the modelled code raises.  Only the kind of exception is kept. *)
Inductive err :=
| ErrValue            (* ValueError *)
| ErrIndex            (* IndexError *)
| ErrType             (* TypeError *)
| ErrAttribute        (* AttributeError *)
| ErrZeroDivision     (* ZeroDivisionError *)
| ErrFileNotFound     (* FileNotFoundError *)
| ErrInvalidRail      (* track.py 11-25 InvalidRailException *)
| ErrNotDefined       (* exceptions.py: the exception for an incomplete model *)
| ErrTimeException    (* exceptions.py *)
| ErrOther.

Inductive res (A : Type) :=
| Ok (a : A)
| Err (e : err).
Arguments Ok {A} a.
Arguments Err {A} e.

Definition rbind {A B} (x : res A) (f : A -> res B) : res B :=
  match x with Ok a => f a | Err e => Err e end.

Notation "'do' x <- e ; f" := (rbind e (fun x => f)) (at level 200, x pattern, e at level 100, f at level 200).

(** three degrees of freedom of a node: x displacement, y displacement, rotation about z *)
Inductive dir := DX | DY | DR.

Record tri (A : Type) := T3 { tx : A; ty : A; tr : A }.
Arguments T3 {A}.
Arguments tx {A}. Arguments ty {A}. Arguments tr {A}.

Definition tget {A} (t : tri A) (d : dir) : A :=
  match d with DX => tx t | DY => ty t | DR => tr t end.
Definition tset {A} (t : tri A) (d : dir) (v : A) : tri A :=
  match d with DX => T3 v (ty t) (tr t) | DY => T3 (tx t) v (tr t) | DR => T3 (tx t) (ty t) v end.
Definition tlist {A} (t : tri A) : list A := [tx t; ty t; tr t].
Definition tmap2 {A B C} (f : A -> B -> C) (a : tri A) (b : tri B) : tri C :=
  T3 (f (tx a) (tx b)) (f (ty a) (ty b)) (f (tr a) (tr b)).
Definition all_dirs : list dir := [DX; DY; DR].
Definition dir_idx (d : dir) : nat := match d with DX => 0 | DY => 1 | DR => 2 end.

(** [l[i] = v] for an index in range (out of range: unchanged, callers check) *)
Fixpoint lset {A} (l : list A) (i : nat) (v : A) : list A :=
  match l, i with
  | [], _ => []
  | _ :: r, O => v :: r
  | x :: r, S k => x :: lset r k v
  end.

(** [sum(bool list)] *)
Fixpoint count_true (l : list bool) : nat :=
  match l with [] => 0 | b :: r => (if b then 1 else 0) + count_true r end.

(** membership of a natural number, Python [in] *)
Definition memb (x : nat) (l : list nat) : bool := existsb (Nat.eqb x) l.

(** ** Lemmas *)

Lemma tget_tset {A} (t : tri A) d d' v :
  tget (tset t d v) d' = if (match d, d' with DX, DX => true | DY, DY => true | DR, DR => true | _, _ => false end)
                         then v else tget t d'.
Proof. destruct t, d, d'; reflexivity. Qed.

Lemma tri_ext {A} (a b : tri A) : (forall d, tget a d = tget b d) -> a = b.
Proof.
  intros h. destruct a, b. pose proof (h DX); pose proof (h DY); pose proof (h DR); simpl in *; congruence.
Qed.

Lemma memb_In x l : memb x l = true <-> In x l.
Proof.
  unfold memb. rewrite existsb_exists. split.
  - intros [y [h1 h2]]. apply Nat.eqb_eq in h2. subst; auto.
  - intros h. exists x. split; auto. apply Nat.eqb_refl.
Qed.

Lemma memb_false x l : memb x l = false <-> ~ In x l.
Proof. rewrite <- memb_In. destruct (memb x l); split; congruence. Qed.

Lemma lset_length {A} (l : list A) i v : length (lset l i v) = length l.
Proof. revert i; induction l; destruct i; simpl; auto. Qed.

Lemma lset_nth_same {A} (l : list A) i v : (i < length l)%nat -> nth_error (lset l i v) i = Some v.
Proof. revert i; induction l; destruct i; simpl; intros; try lia; auto. apply IHl; lia. Qed.

Lemma lset_nth_other {A} (l : list A) i j v : i <> j -> nth_error (lset l i v) j = nth_error l j.
Proof. revert i j; induction l; destruct i, j; simpl; intros; try lia; auto. Qed.

Lemma NoDup_app_r {A} (a b : list A) : NoDup (a ++ b) -> NoDup b.
Proof. induction a; simpl; auto. intros h. inversion h; auto. Qed.

Lemma NoDup_snoc {A} (l : list A) a : NoDup l -> ~ In a l -> NoDup (l ++ [a]).
Proof.
  intros h1 h2. apply NoDup_Add with (a := a) (l := l); auto.
  rewrite <- (app_nil_r l) at 1. apply Add_app.
Qed.
