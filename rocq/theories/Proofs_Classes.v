(** * Proofs about settlement accumulation: soil classes *)

From Coq Require Import Ascii String Reals List Bool ZArith Arith Lia Lra.
From Verif Require Import Num PyBase Model_Element Model_Accumulation Spec_Accumulation.
Import ListNotations.
Local Open Scope R_scope.

Lemma append_assoc (a b c : string) : ((a ++ b) ++ c = a ++ (b ++ c))%string.
Proof. induction a as [|x a ih]; cbn; [reflexivity|]. rewrite ih. reflexivity. Qed.
Lemma append_nil (a : string) : (a ++ "" = a)%string.
Proof. induction a as [|x a ih]; cbn; [reflexivity|]. rewrite ih. reflexivity. Qed.
Lemma list_ascii_app a b : list_ascii_of_string (a ++ b) = (list_ascii_of_string a ++ list_ascii_of_string b)%list.
Proof. induction a as [|x a ih]; cbn; [reflexivity|]. rewrite ih. reflexivity. Qed.

(** without an underscore everything is kept *)
Lemma after_plain x : ~ In "_"%char (list_ascii_of_string x) -> forall acc, after_underscore acc x = (acc ++ x)%string.
Proof.
  induction x as [|c x ih]; cbn [after_underscore list_ascii_of_string]; intros h acc; [rewrite append_nil; reflexivity|].
  destruct (Ascii.eqb_spec c "_"%char) as [e|e]; [exfalso; apply h; left; exact e|]. rewrite ih; [|intros k; apply h; right; exact k]. rewrite append_assoc. reflexivity.
Qed.
Lemma after_last start x : forall acc, after_underscore acc (start ++ "_" ++ x) = after_underscore "" x.
Proof. induction start as [|c s ih]; intros acc; cbn [append after_underscore]; [reflexivity|]. destruct (Ascii.eqb_spec c "_"%char); apply ih. Qed.
Lemma after_end s : forall acc, ~ In "_"%char (list_ascii_of_string acc) -> name_end (acc ++ s) (after_underscore acc s).
Proof.
  induction s as [|c s ih]; intros acc h; cbn [after_underscore].
  - rewrite append_nil. split; [exact h|left; reflexivity].
  - destruct (Ascii.eqb_spec c "_"%char) as [e|e].
    + subst c. destruct (ih ""%string) as [i1 i2]; [intros []|]. split; [exact i1|]. right. cbn [append] in i2. destruct i2 as [i2|[st i2]].
      * exists acc. rewrite <- i2. reflexivity.
      * exists (acc ++ String "_" st)%string. rewrite i2 at 1. rewrite append_assoc. reflexivity.
    + specialize (ih (acc ++ String c "")%string). rewrite append_assoc in ih. apply ih. rewrite list_ascii_app, in_app_iff. cbn. intros [k|[k|[]]]; [exact (h k)|]. apply e. exact k.
Qed.
Lemma name_end_spec name x : name_end name x <-> x = after_underscore "" name.
Proof.
  split.
  - intros [h [->|[st ->]]]; [rewrite after_plain by exact h; reflexivity|]. rewrite after_last, after_plain by exact h. reflexivity.
  - intros ->. apply (after_end name ""%string). intros [].
Qed.

Lemma classify_table name : classify name = match find (fun q => String.eqb (after_underscore "" name) (fst q)) soil_table with Some q => Ok (snd q) | None => Err ErrValue end.
Proof.
  assert (d : (ndec 64 2 = 64 / 100 /\ ndec 10 2 = 10 / 100 /\ ndec 17 1 = 17 / 10) /\ (ndec 84 2 = 84 / 100 /\ ndec 13 2 = 13 / 100 /\ ndec 20 1 = 2) /\
              (ndec 11 1 = 11 / 10 /\ ndec 16 2 = 16 / 100) /\ (ndec 12 1 = 12 / 10 /\ ndec 18 2 = 18 / 100 /\ ndec 24 1 = 24 / 10)) by (unfold ndec; cbn; repeat split; lra).
  destruct d as [[d1 [d2 d3]] [[d4 [d5 d6]] [[d7 d8] [d9 [d10 d11]]]]].
  unfold classify, in_names, soil_table. rewrite d1, d2, d3, d4, d5, d6, d7, d8, d9, d10, d11. set (x := after_underscore "" name). cbn [existsb find fst snd].
  repeat (match goal with |- context [String.eqb x ?s] => destruct (String.eqb x s) end; cbn [orb find fst snd]; [reflexivity|]). reflexivity.
Qed.
Lemma table_distinct : NoDup (map fst soil_table).
Proof. unfold soil_table. cbn [map fst]. repeat constructor; cbn [In]; intuition discriminate. Qed.
Lemma find_table (l : list (string * (R * R * R))) x p : NoDup (map fst l) -> In (x, p) l -> find (fun q => String.eqb x (fst q)) l = Some (x, p).
Proof.
  induction l as [|[y q] l ih]; [intros _ []|]. cbn [map fst]. intros h. inversion h as [|? ? h1 h2]; subst. cbn [In find fst]. intros [e|hin].
  - assert (y = x /\ q = p) as [-> ->] by (split; congruence). rewrite String.eqb_refl. reflexivity.
  - destruct (String.eqb_spec x y) as [->|ne]; [|apply ih; assumption]. exfalso. apply h1. apply (in_map fst) in hin. exact hin.
Qed.

Lemma classify_spec name p : classify name = Ok p <-> soil_class name p.
Proof.
  rewrite classify_table. split.
  - destruct (find _ _) as [[x q]|] eqn:e; [|discriminate]. intros h. assert (q = p) as -> by (cbn in h; congruence). apply find_some in e. destruct e as [e1 e2]. apply String.eqb_eq in e2. cbn in e2.
    exists x. split; [apply name_end_spec; congruence|exact e1].
  - intros [x [h1 h2]]. apply name_end_spec in h1. subst x. rewrite (find_table _ _ _ table_distinct h2). reflexivity.
Qed.
Lemma classify_unknown name : (forall p, ~ soil_class name p) -> classify name = Err ErrValue.
Proof. intros h. rewrite classify_table. destruct (find _ _) as [[x q]|] eqn:e; [|reflexivity]. exfalso. apply (h q). rewrite <- classify_spec, classify_table, e. reflexivity. Qed.
Lemma soil_class_unique name p q : soil_class name p -> soil_class name q -> p = q.
Proof. rewrite <- !classify_spec. congruence. Qed.
Lemma soil_class_sound name a b m : soil_class name (a, b, m) -> 0 <= a /\ 0 <= b /\ 0 <= m.
Proof.
  intros [x [_ h]]. unfold soil_table in h. cbn [In] in h.
  repeat (destruct h as [h|h]; [match type of h with (_, (?x, ?y, ?z)) = _ => assert (a = x /\ b = y /\ m = z) as [-> [-> ->]] by (repeat split; congruence) end; lra|]). destruct h.
Qed.
