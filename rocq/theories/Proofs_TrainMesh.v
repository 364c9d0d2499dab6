(** * Proofs about the nodes of a train *)

From Coq Require Import Reals List Bool ZArith Arith Lia Lra.
From Verif Require Import Num PyBase Model_Geometry Model_System Model_Element Model_Moving Model_Train Model_TrainMesh Spec_TrainMesh Proofs_System.
Import ListNotations.
Local Open Scope R_scope.

Notation none3 := (T3 None None None : tri (option nat)).

(** ** stores *)

Lemma upd_same (s : store R) i n : upd s i n i = n.
Proof. unfold upd. rewrite Nat.eqb_refl. reflexivity. Qed.
Lemma upd_other (s : store R) i j n : j <> i -> upd s i n j = s j.
Proof. intros h. unfold upd. apply Nat.eqb_neq in h. rewrite h. reflexivity. Qed.

Lemma part_eqb_spec p q : part_eqb p q = true <-> p = q.
Proof.
  destruct p, q; cbn; split; intros h; try discriminate h.
  - apply Nat.eqb_eq in h. congruence.
  - apply Nat.eqb_eq. congruence.
  - apply Nat.eqb_eq in h. congruence.
  - apply Nat.eqb_eq. congruence.
  - apply andb_prop in h as [h1 h2]. apply Nat.eqb_eq in h1, h2. congruence.
  - injection h as -> ->. rewrite !Nat.eqb_refl. reflexivity.
Qed.
Lemma part_dec (p q : part) : {p = q} + {p <> q}.
Proof. destruct (part_eqb p q) eqn:e; [left; apply part_eqb_spec; exact e|right]. intros ->. assert (part_eqb q q = true) by (apply part_eqb_spec; reflexivity). congruence. Qed.

(** what a lookup can do to the objects *)
Lemma find_key_cases h (s : store R) stored n s' : find_key h s stored n = Some s' ->
  (s' = s /\ In n stored) \/ (exists k, In k stored /\ k <> n /\ coords_equal (n_coord (s k)) (n_coord (s n)) = true /\ s' = upd s k (snd (node_eq (s k) (s n)))).
Proof.
  induction stored as [|k r IH]; cbn [find_key]; [discriminate|]. destruct (Nat.eqb_spec k n) as [e|e].
  - intros q. injection q as <-. left. split; [reflexivity|left; exact e].
  - assert (g : find_key h s r n = Some s' -> (s' = s /\ In n (k :: r)) \/ (exists k0, In k0 (k :: r) /\ k0 <> n /\ coords_equal (n_coord (s k0)) (n_coord (s n)) = true /\ s' = upd s k0 (snd (node_eq (s k0) (s n))))).
    { intros q. destruct (IH q) as [[-> q2]|[k0 [q1 [q2 [q3 q4]]]]]; [left; split; [reflexivity|right; exact q2]|right; exists k0; split; [right; exact q1|auto]]. }
    destruct (Z.eqb _ _); [|exact g]. unfold node_eq at 1. destruct (coords_equal (n_coord (s k)) (n_coord (s n))) eqn:c; [|exact g].
    intros q. injection q as <-. right. exists k. split; [left; reflexivity|]. split; [exact e|]. split; [exact c|]. unfold node_eq. rewrite c. reflexivity.
Qed.
Lemma node_eq_coord (a b : node R) : n_coord (snd (node_eq a b)) = n_coord a.
Proof. unfold node_eq. destruct (coords_equal _ _); reflexivity. Qed.
Lemma node_eq_none (a b : node R) : n_dof b = none3 -> n_dof (snd (node_eq a b)) = n_dof a.
Proof. intros h. unfold node_eq. destruct (coords_equal _ _); [|reflexivity]. cbn [snd n_dof]. rewrite h. destruct (n_dof a) as [u v w]. reflexivity. Qed.

(** coordinates never change *)
Lemma insert_coord h (sm : store R * list nat) n id : n_coord (fst (insert_key h sm n) id) = n_coord (fst sm id).
Proof.
  destruct sm as [s m]. unfold insert_key. cbn [fst snd]. destruct (find_key h s m n) as [s'|] eqn:e; [|reflexivity]. cbn [fst].
  destruct (find_key_cases _ _ _ _ _ e) as [[-> _]|[k [_ [_ [_ ->]]]]]; [reflexivity|]. destruct (Nat.eq_dec id k) as [->|d]; [rewrite upd_same; apply node_eq_coord|rewrite upd_other by exact d; reflexivity].
Qed.
Lemma fold_coord h l (sm : store R * list nat) id : n_coord (fst (fold_left (insert_key h) l sm) id) = n_coord (fst sm id).
Proof. revert sm. induction l as [|n l IH]; intros sm; [reflexivity|]. cbn [fold_left]. rewrite IH. apply insert_coord. Qed.

Lemma insert_in h (sm : store R * list nat) n : exists t, snd (insert_key h sm n) = snd sm ++ t /\ (t = [] \/ t = [n]).
Proof. unfold insert_key. destruct (find_key _ _ _ _); [exists []; rewrite app_nil_r; auto|exists [n]; auto]. Qed.
Lemma fold_in h l (sm : store R * list nat) : exists t, snd (fold_left (insert_key h) l sm) = snd sm ++ t /\ incl t l.
Proof.
  revert sm. induction l as [|n l IH]; intros sm; [exists []; rewrite app_nil_r; split; [reflexivity|intros z []]|]. cbn [fold_left].
  destruct (insert_in h sm n) as [t [e ht]]. destruct (IH (insert_key h sm n)) as [t' [e' ht']]. exists (t ++ t'). rewrite e', e, app_assoc. split; [reflexivity|].
  intros z hz. apply in_app_or in hz as [hz|hz]; [destruct ht as [->| ->]; [destruct hz|destruct hz as [<-|[]]; left; reflexivity]|right; exact (ht' z hz)].
Qed.

(** the first nodes of a dictionary change nothing at the later ones *)
Lemma fold_old h N l (sm : store R * list nat) : (forall id, In id l -> (id < N)%nat) -> (forall id, In id (snd sm) -> (id < N)%nat) ->
  forall id, (N <= id)%nat -> fst (fold_left (insert_key h) l sm) id = fst sm id.
Proof.
  revert sm. induction l as [|n l IH]; intros sm hl hs id hid; [reflexivity|]. cbn [fold_left]. rewrite IH.
  - destruct sm as [s m]. unfold insert_key. cbn [fst snd] in *. destruct (find_key h s m n) as [s'|] eqn:e; [|reflexivity]. cbn [fst].
    destruct (find_key_cases _ _ _ _ _ e) as [[-> _]|[k [q1 [_ [_ ->]]]]]; [reflexivity|]. apply upd_other. specialize (hs k q1). lia.
  - intros z hz. apply hl. right. exact hz.
  - intros z hz. destruct (insert_in h sm n) as [t [e ht]]. rewrite e in hz. apply in_app_or in hz as [hz|hz]; [exact (hs z hz)|].
    destruct ht as [->| ->]; [destruct hz|destruct hz as [<-|[]]; apply hl; left; reflexivity].
  - exact hid.
Qed.
(** nodes without numbers give no numbers to others *)
Lemma fold_new h l (sm : store R * list nat) : (forall id, In id l -> n_dof (fst sm id) = none3) ->
  forall id, n_dof (fst (fold_left (insert_key h) l sm) id) = n_dof (fst sm id).
Proof.
  revert sm. induction l as [|n l IH]; intros sm hl id; [reflexivity|]. cbn [fold_left].
  assert (g : forall z, n_dof (fst (insert_key h sm n) z) = n_dof (fst sm z)).
  { intros z. destruct sm as [s m]. unfold insert_key. cbn [fst snd] in *. destruct (find_key h s m n) as [s'|] eqn:e; [|reflexivity]. cbn [fst].
    destruct (find_key_cases _ _ _ _ _ e) as [[-> _]|[k [_ [_ [_ ->]]]]]; [reflexivity|].
    destruct (Nat.eq_dec z k) as [->|d]; [rewrite upd_same; apply node_eq_none; apply hl; left; reflexivity|rewrite upd_other by exact d; reflexivity]. }
  rewrite IH; [apply g|]. intros z hz. rewrite g. apply hl. right. exact hz.
Qed.

(** ** visits *)

Definition visits (tn : train R) : list part :=
  flat_map (fun ic : nat * cart R => PCart (fst ic) :: flat_map (fun b => PBogie b :: map (PWheel b) (seq 0 (length (bg_wheels (bogie_of tn b))))) (ct_bogies (snd ic))) (numbered_carts tn).

Lemma fold_flat {A B C} (f : A -> B -> A) (g : C -> list B) l a : fold_left f (flat_map g l) a = fold_left (fun a y => fold_left f (g y) a) l a.
Proof. revert a. induction l as [|y l IH]; intros a; [reflexivity|]. cbn [flat_map fold_left]. rewrite fold_left_app. apply IH. Qed.
Lemma fold_mapped {A B C} (f : A -> B -> A) (g : C -> B) l a : fold_left f (map g l) a = fold_left (fun a y => f a (g y)) l a.
Proof. revert a. induction l as [|y l IH]; intros a; [reflexivity|]. cbn. apply IH. Qed.
Lemma fold_ext {A B} (f g : A -> B -> A) l a : (forall a y, f a y = g a y) -> fold_left f l a = fold_left g l a.
Proof. intros h. revert a. induction l as [|y l IH]; intros a; [reflexivity|]. cbn. rewrite h. apply IH. Qed.

Lemma set_mesh_visits h tn x st : set_mesh h tn x st = fold_left (fun st p => new_part_node h p (x p) (level p) st) (visits tn) st.
Proof.
  unfold set_mesh, visits. rewrite fold_flat. apply fold_ext. intros a [i c]. unfold cart_set_mesh. cbn [fst snd fold_left]. rewrite fold_flat. apply fold_ext.
  intros a' b. unfold bogie_set_mesh. cbn [fold_left]. rewrite fold_mapped. apply fold_ext. intros a'' k. reflexivity.
Qed.
Lemma reset_mesh_visits h tn st : reset_mesh h tn st = fold_left (fun st p => add_part_node h p st) (visits tn) (mkTstate (ts_store st) (ts_next st) [] (ts_node st)).
Proof.
  unfold reset_mesh, visits. rewrite fold_flat. apply fold_ext. intros a [i c]. unfold cart_reset_mesh. cbn [fst snd fold_left]. rewrite fold_flat. apply fold_ext.
  intros a' b. unfold bogie_reset_mesh. cbn [fold_left]. rewrite fold_mapped. apply fold_ext. intros a'' k. reflexivity.
Qed.

Lemma in_numbered {A} (cs : list A) j i c : In (i, c) (combine (seq j (length cs)) cs) <-> (j <= i)%nat /\ nth_error cs (i - j) = Some c.
Proof.
  revert j. induction cs as [|d cs IH]; intros j; cbn [length seq combine].
  - split; [intros []|]. intros [_ h]. destruct (i - j)%nat; discriminate h.
  - split.
    + intros [h|h]; [injection h as -> ->; rewrite Nat.sub_diag; split; [lia|reflexivity]|]. apply IH in h as [h1 h2]. split; [lia|]. replace (i - j)%nat with (S (i - S j)) by lia. exact h2.
    + intros [h1 h2]. destruct (Nat.eq_dec i j) as [->|e]; [rewrite Nat.sub_diag in h2; injection h2 as ->; left; reflexivity|]. right. apply IH. split; [lia|].
      replace (i - j)%nat with (S (i - S j)) in h2 by lia. exact h2.
Qed.
Lemma visits_spec tn p : In p (visits tn) <-> is_part tn p.
Proof.
  unfold visits, numbered_carts. rewrite in_flat_map. split.
  - intros [[i c] [h1 h2]]. apply in_numbered in h1 as [_ h1]. rewrite Nat.sub_0_r in h1. cbn [fst snd] in h2. destruct h2 as [<-|h2].
    + cbn. apply nth_error_Some. congruence.
    + apply nth_error_In in h1. apply in_flat_map in h2 as [b [h3 [<-|h4]]]; [exists c; auto|]. apply in_map_iff in h4 as [k [<- h4]]. apply in_seq in h4. split; [exists c; auto|lia].
  - assert (g : forall b, (exists c, In c (tn_carts tn) /\ In b (ct_bogies c)) -> exists ic : nat * cart R, In ic (combine (seq 0 (length (tn_carts tn))) (tn_carts tn)) /\ In b (ct_bogies (snd ic))).
    { intros b [c [h1 h2]]. apply In_nth_error in h1 as [i h1]. exists (i, c). split; [|exact h2]. apply in_numbered. rewrite Nat.sub_0_r. split; [lia|exact h1]. }
    destruct p as [i|b|b k]; cbn [is_part].
    + intros h. apply nth_error_Some in h. destruct (nth_error (tn_carts tn) i) as [c|] eqn:e; [|congruence]. exists (i, c). split; [|left; reflexivity]. apply in_numbered. rewrite Nat.sub_0_r. split; [lia|exact e].
    + intros h. destruct (g b h) as [ic [h1 h2]]. exists ic. split; [exact h1|]. right. apply in_flat_map. exists b. split; [exact h2|left; reflexivity].
    + intros [h hk]. destruct (g b h) as [ic [h1 h2]]. exists ic. split; [exact h1|]. right. apply in_flat_map. exists b. split; [exact h2|]. right. apply in_map_iff. exists k. split; [reflexivity|]. apply in_seq. lia.
Qed.

(** ** new nodes *)

Record made (N0 : nat) (x : part -> R) (seen : list part) (st : tstate R) : Prop := {
  md_next : (N0 <= ts_next st)%nat;
  md_mesh : exists old new, ts_mesh st = old ++ new /\ (forall id, In id old -> (id < N0)%nat) /\ (forall id, In id new -> (N0 <= id < ts_next st)%nat);
  md_node : forall p, In p seen -> (N0 <= ts_node st p < ts_next st)%nat;
  md_inj : forall p q, In p seen -> In q seen -> ts_node st p = ts_node st q -> p = q;
  md_none : forall id, (N0 <= id < ts_next st)%nat -> n_dof (ts_store st id) = none3;
  md_coord : forall p, In p seen -> n_coord (ts_store st (ts_node st p)) = T3 (x p) (level p) 0 }.

Lemma made_step h N0 x seen st p : made N0 x seen st -> made N0 x (seen ++ [p]) (new_part_node h p (x p) (level p) st).
Proof.
  intros [h1 [old [new [h2 [h3 h4]]]] h5 h6 h7 h8]. unfold new_part_node. set (N := ts_next st) in *. set (s := upd (ts_store st) N _).
  destruct (add_nodes h s (ts_mesh st) [N]) as [s' m'] eqn:e. unfold add_nodes in e. rewrite h2 in e.
  assert (es : s' = fst (fold_left (insert_key h) ((old ++ new) ++ [N]) (s, []))) by (rewrite e; reflexivity).
  assert (em : m' = snd (fold_left (insert_key h) ((old ++ new) ++ [N]) (s, []))) by (rewrite e; reflexivity).
  assert (hc : forall id, n_coord (s' id) = n_coord (s id)) by (intros id; rewrite es; apply fold_coord).
  assert (hsN : s N = new_node N (x p) (level p) (lit 0)) by (unfold s; apply upd_same).
  assert (hso : forall id, id <> N -> s id = ts_store st id) by (intros id d; unfold s; apply upd_other; exact d).
  rewrite <- app_assoc, fold_left_app in es, em. set (sm := fold_left (insert_key h) old (s, [])) in *.
  assert (hold : forall id, (N0 <= id)%nat -> fst sm id = s id) by (intros id hid; unfold sm; rewrite (fold_old h N0 old (s, []) h3 ltac:(intros z []) id hid); reflexivity).
  assert (hd0 : forall id, (N0 <= id < S N)%nat -> n_dof (s id) = none3).
  { intros id hid. destruct (Nat.eq_dec id N) as [->|d]; [rewrite hsN; reflexivity|]. rewrite hso by exact d. apply h7. lia. }
  assert (hnew : forall id, In id (new ++ [N]) -> (N0 <= id < S N)%nat) by (intros id hid; apply in_app_or in hid as [hid|[<-|[]]]; [specialize (h4 id hid); lia|lia]).
  assert (hd : forall id, (N0 <= id < S N)%nat -> n_dof (s' id) = none3).
  { intros id hid. rewrite es. rewrite fold_new; [rewrite hold by lia; apply hd0; exact hid|]. intros z hz. pose proof (hnew z hz). rewrite hold by lia. apply hd0. assumption. }
  assert (hmesh : exists o n, m' = o ++ n /\ (forall id, In id o -> (id < N0)%nat) /\ (forall id, In id n -> (N0 <= id < S N)%nat)).
  { destruct (fold_in h old (s, [])) as [t [e1 i1]]. fold sm in e1. cbn [snd] in e1. destruct (fold_in h (new ++ [N]) sm) as [t' [e2 i2]]. exists t, t'. rewrite em, e2, e1. split; [reflexivity|].
    split; [intros id hid; apply h3; exact (i1 id hid)|intros id hid; apply hnew; exact (i2 id hid)]. }
  assert (hnd : forall q, In q (seen ++ [p]) -> (q = p /\ (if part_eqb q p then N else ts_node st q) = N) \/ (q <> p /\ In q seen /\ (if part_eqb q p then N else ts_node st q) = ts_node st q)).
  { intros q hq. destruct (part_dec q p) as [->|d].
    - left. split; [reflexivity|]. rewrite (proj2 (part_eqb_spec p p) eq_refl). reflexivity.
    - right. split; [exact d|]. split; [apply in_app_or in hq as [hq|[<-|[]]]; [exact hq|contradiction]|]. destruct (part_eqb q p) eqn:ee; [apply part_eqb_spec in ee; contradiction|reflexivity]. }
  constructor; cbn [ts_next ts_mesh ts_node ts_store].
  - lia.
  - exact hmesh.
  - intros q hq. destruct (hnd q hq) as [[_ ->]|[_ [hq' ->]]]; [lia|]. specialize (h5 q hq'). lia.
  - intros q r hq hr. destruct (hnd q hq) as [[-> ->]|[_ [hq' ->]]]; destruct (hnd r hr) as [[-> ->]|[_ [hr' ->]]]; intros ee.
    + reflexivity.
    + specialize (h5 r hr'). lia.
    + specialize (h5 q hq'). lia.
    + exact (h6 q r hq' hr' ee).
  - exact hd.
  - intros q hq. rewrite hc. destruct (hnd q hq) as [[-> ->]|[_ [hq' ->]]]; [rewrite hsN; reflexivity|]. rewrite hso by (specialize (h5 q hq'); lia). apply h8. exact hq'.
Qed.
Lemma made_all h x seen ps N0 st : made N0 x seen st -> made N0 x (seen ++ ps) (fold_left (fun st p => new_part_node h p (x p) (level p) st) ps st).
Proof.
  revert seen st. induction ps as [|p ps IH]; intros seen st hm; [rewrite app_nil_r; exact hm|]. cbn [fold_left].
  replace (seen ++ p :: ps) with ((seen ++ [p]) ++ ps) by (rewrite <- app_assoc; reflexivity). apply IH, made_step, hm.
Qed.
Lemma made_set_mesh h tn x st : sound st -> made (ts_next st) x (visits tn) (set_mesh h tn x st).
Proof.
  intros hs. rewrite set_mesh_visits. apply (made_all h x [] (visits tn) (ts_next st) st). constructor; try (intros; contradiction); try lia.
  - exists (ts_mesh st), []. rewrite app_nil_r. split; [reflexivity|]. split; [exact hs|intros id []].
Qed.

(** ** numbers *)

Lemma number_node_dof (s : store R) id d i z : n_dof (number_node s id d i z) = if Nat.eqb z id then tset (n_dof (s id)) d (Some i) else n_dof (s z).
Proof. unfold number_node, upd. destruct (Nat.eqb_spec z id) as [->|e]; reflexivity. Qed.
Lemma number_node_coord (s : store R) id d i z : n_coord (number_node s id d i z) = n_coord (s z).
Proof. unfold number_node, upd. destruct (Nat.eqb_spec z id) as [->|e]; reflexivity. Qed.

Lemma number_wheels_seq i n : number_wheels i n = (seq i n, (i + n)%nat).
Proof. revert i. induction n as [|n IH]; intros i; cbn [number_wheels seq]; [f_equal; lia|]. rewrite IH. f_equal. lia. Qed.
Lemma dof_of_app b st b0 d : dof_of b0 st = None -> dof_of b (st ++ [(b0, d)]) = if Nat.eqb b b0 then Some d else dof_of b st.
Proof.
  induction st as [|[c e] st IH]; cbn [dof_of app]; [reflexivity|]. destruct (Nat.eqb_spec b0 c) as [->|h]; [discriminate|]. intros h0. rewrite IH by exact h0.
  destruct (Nat.eqb_spec b c) as [->|h']; [|reflexivity]. destruct (Nat.eqb_spec c b0) as [->|h'']; [contradiction|reflexivity].
Qed.

Section Numbers.
  Variables (tn : train R) (nd : part -> nat).
  Hypothesis inj : forall p q, is_part tn p -> is_part tn q -> nd p = nd q -> p = q.

  Definition agree (cd : list (nat * nat)) (bd : list (nat * bdof)) (s : store R) : Prop :=
    forall p, is_part tn p -> n_dof (s (nd p)) = part_numbers cd bd p.

  Lemma eqb_part p q : is_part tn p -> is_part tn q -> Nat.eqb (nd p) (nd q) = part_eqb p q.
  Proof.
    intros hp hq. destruct (Nat.eqb_spec (nd p) (nd q)) as [e|e]; symmetry.
    - apply part_eqb_spec. apply inj; assumption.
    - destruct (part_eqb p q) eqn:ee; [|reflexivity]. apply part_eqb_spec in ee. congruence.
  Qed.

  Lemma wheels_numbered b (hb : is_part tn (PBogie b)) : forall n k0 (s : store R) i, (forall k, (k0 <= k < k0 + n)%nat -> is_part tn (PWheel b k)) ->
    snd (fold_left (wheel_number nd b) (seq k0 n) (s, i)) = (i + n)%nat /\
    (forall z, n_coord (fst (fold_left (wheel_number nd b) (seq k0 n) (s, i)) z) = n_coord (s z)) /\
    (forall p, is_part tn p -> (forall k, (k0 <= k < k0 + n)%nat -> p <> PWheel b k) -> n_dof (fst (fold_left (wheel_number nd b) (seq k0 n) (s, i)) (nd p)) = n_dof (s (nd p))) /\
    (forall k, (k0 <= k < k0 + n)%nat -> n_dof (fst (fold_left (wheel_number nd b) (seq k0 n) (s, i)) (nd (PWheel b k))) = tset (n_dof (s (nd (PWheel b k)))) DY (Some (i + (k - k0))%nat)).
  Proof.
    induction n as [|n IH]; intros k0 s i hw; cbn [seq fold_left].
    - cbn [fst snd]. split; [lia|]. split; [reflexivity|]. split; [reflexivity|]. intros k hk. lia.
    - cbn [wheel_number]. destruct (IH (S k0) (number_node s (nd (PWheel b k0)) DY i) (S i)) as [a1 [a2 [a3 a4]]]; [intros k hk; apply hw; lia|].
      split; [rewrite a1; lia|]. split; [intros z; rewrite a2; apply number_node_coord|]. split.
      + intros p hp hne. rewrite a3; [|exact hp|intros k hk; apply hne; lia]. rewrite number_node_dof, eqb_part by (auto; apply hw; lia). destruct (part_eqb p (PWheel b k0)) eqn:e; [|reflexivity].
        apply part_eqb_spec in e. exfalso. exact (hne k0 ltac:(lia) e).
      + intros k hk. destruct (Nat.eq_dec k k0) as [->|d].
        * rewrite a3; [|apply hw; lia|intros j hj q; injection q as q; lia]. rewrite number_node_dof, Nat.eqb_refl. do 2 f_equal. lia.
        * rewrite a4 by lia. rewrite number_node_dof, eqb_part by (apply hw; lia). destruct (part_eqb (PWheel b k) (PWheel b k0)) eqn:e; [apply part_eqb_spec in e; injection e as e; lia|]. do 2 f_equal. lia.
  Qed.

  Lemma bogie_numbered cd bd s i b : is_part tn (PBogie b) -> agree cd bd s ->
    let (bd', i') := number_bogie tn bd i b in
    let (s', j) := bogie_number tn nd (s, i) b in j = i' /\ agree cd bd' s' /\ (forall z, n_coord (s' z) = n_coord (s z)).
  Proof.
    intros hb ha. assert (hw : forall k, (0 <= k < 0 + length (bg_wheels (bogie_of tn b)))%nat -> is_part tn (PWheel b k)) by (intros k hk; split; [exact hb|lia]).
    unfold number_bogie, bogie_number. rewrite (ha (PBogie b) hb). cbn [part_numbers]. destruct (dof_of b bd) as [d|] eqn:e; [auto|].
    rewrite number_wheels_seq.
    set (s2 := number_node (number_node s (nd (PBogie b)) DY i) (nd (PBogie b)) DR (S i)).
    destruct (fold_left (wheel_number nd b) (seq 0 (length (bg_wheels (bogie_of tn b)))) (s2, S (S i))) as [s' j] eqn:ef.
    destruct (wheels_numbered b hb (length (bg_wheels (bogie_of tn b))) 0 s2 (S (S i)) hw) as [a1 [a2 [a3 a4]]]. rewrite ef in a1, a2, a3, a4. cbn [fst snd] in a1, a2, a3, a4.
    split; [exact a1|]. split; [|intros z; rewrite a2; unfold s2; rewrite !number_node_coord; reflexivity].
    intros p hp. assert (hdec : (exists k, p = PWheel b k) \/ (forall k, p <> PWheel b k)).
    { destruct p as [u|u|u k]; [right; discriminate|right; discriminate|]. destruct (Nat.eq_dec u b) as [->|du]; [left; exists k; reflexivity|right; intros k' q; injection q as q1 q2; exact (du q1)]. }
    assert (hs2 : n_dof (s2 (nd p)) = if part_eqb p (PBogie b) then T3 None (Some i) (Some (S i)) else part_numbers cd bd p).
    { unfold s2. rewrite !number_node_dof, Nat.eqb_refl, (eqb_part p (PBogie b)) by assumption. destruct (part_eqb p (PBogie b)) eqn:ep; [|apply ha; exact hp].
      rewrite (ha (PBogie b) hb). cbn [part_numbers]. rewrite e. reflexivity. }
    destruct hdec as [[k ->]|hn].
    - destruct hp as [_ hk]. rewrite a4 by lia. rewrite hs2. cbn [part_eqb part_numbers]. rewrite e. rewrite dof_of_app by exact e. rewrite Nat.eqb_refl. cbn [bd_wheels tset].
      f_equal. rewrite (nth_error_nth' _ 0%nat) by (rewrite seq_length; exact hk). rewrite seq_nth by exact hk. f_equal. lia.
    - rewrite a3; [|exact hp|intros k _; apply hn]. rewrite hs2. destruct (part_eqb p (PBogie b)) eqn:ep.
      + apply part_eqb_spec in ep. subst p. cbn [part_numbers]. rewrite dof_of_app by exact e. rewrite Nat.eqb_refl. reflexivity.
      + destruct p as [u|u|u k]; cbn [part_numbers]; [reflexivity| |].
        * rewrite dof_of_app by exact e. cbn [part_eqb] in ep. rewrite ep. reflexivity.
        * rewrite dof_of_app by exact e. destruct (Nat.eqb_spec u b) as [->|du]; [exfalso; exact (hn k eq_refl)|reflexivity].
  Qed.
  Lemma bogies_numbered cd bs : forall bd s i, (forall b, In b bs -> is_part tn (PBogie b)) -> agree cd bd s ->
    let (bd', i') := number_bogies tn bd i bs in
    let (s', j) := fold_left (bogie_number tn nd) bs (s, i) in j = i' /\ agree cd bd' s' /\ (forall z, n_coord (s' z) = n_coord (s z)).
  Proof.
    induction bs as [|b bs IH]; intros bd s i hb ha; cbn [number_bogies fold_left]; [auto|].
    pose proof (bogie_numbered cd bd s i b (hb b (or_introl eq_refl)) ha) as g. destruct (number_bogie tn bd i b) as [bd' i']. destruct (bogie_number tn nd (s, i) b) as [s' j]. destruct g as [-> [g1 g2]].
    specialize (IH bd' s' i' ltac:(intros c hc; apply hb; right; exact hc) g1). destruct (number_bogies tn bd' i' bs) as [bd'' i'']. destruct (fold_left (bogie_number tn nd) bs (s', i')) as [s'' j'].
    destruct IH as [-> [k1 k2]]. split; [reflexivity|]. split; [exact k1|]. intros z. rewrite k2. apply g2.
  Qed.
  Lemma carts_numbered cs : forall cdp bd s i, (forall k c, nth_error cs k = Some c -> nth_error (tn_carts tn) (length cdp + k) = Some c) -> agree cdp bd s ->
    let '(cd, bd', i') := number_carts tn bd i cs in
    let (s', j) := fold_left (cart_number tn nd) (combine (seq (length cdp) (length cs)) cs) (s, i) in j = i' /\ agree (cdp ++ cd) bd' s' /\ (forall z, n_coord (s' z) = n_coord (s z)).
  Proof.
    induction cs as [|c cs IH]; intros cdp bd s i hc ha; cbn [number_carts length seq combine fold_left]; [rewrite app_nil_r; auto|].
    unfold cart_number at 2. cbn [fst snd]. set (s2 := number_node (number_node s (nd (PCart (length cdp))) DY i) (nd (PCart (length cdp))) DR (S i)).
    pose proof (hc 0%nat c eq_refl) as h0. rewrite Nat.add_0_r in h0.
    assert (hp : is_part tn (PCart (length cdp))) by (cbn; apply nth_error_Some; congruence).
    assert (hlen : nth_error cdp (length cdp) = None) by (apply nth_error_None; lia).
    assert (ha2 : agree (cdp ++ [(i, S i)]) bd s2).
    { intros p hpp. unfold s2. rewrite !number_node_dof, Nat.eqb_refl, (eqb_part p (PCart (length cdp))) by assumption. destruct (part_eqb p (PCart (length cdp))) eqn:ep.
      - apply part_eqb_spec in ep. subst p. rewrite (ha _ hp). cbn [part_numbers]. rewrite hlen. rewrite nth_error_app2 by lia. rewrite Nat.sub_diag. reflexivity.
      - rewrite (ha p hpp). destruct p as [u|u|u k]; cbn [part_numbers]; try reflexivity. cbn [part_eqb] in ep. apply Nat.eqb_neq in ep.
        destruct (Nat.lt_ge_cases u (length cdp)) as [l|l]; [rewrite nth_error_app1 by exact l; reflexivity|]. rewrite nth_error_app2 by lia. rewrite (proj2 (nth_error_None cdp u)) by lia.
        destruct (u - length cdp)%nat as [|[|v]] eqn:ev; [lia| |]; reflexivity. }
    assert (hbs : forall b, In b (ct_bogies c) -> is_part tn (PBogie b)) by (intros b hb; exists c; split; [exact (nth_error_In _ _ h0)|exact hb]).
    pose proof (bogies_numbered _ (ct_bogies c) bd s2 (S (S i)) hbs ha2) as g. destruct (number_bogies tn bd (S (S i)) (ct_bogies c)) as [bd' i']. destruct (fold_left (bogie_number tn nd) (ct_bogies c) (s2, S (S i))) as [s' j].
    destruct g as [-> [g1 g2]]. specialize (IH (cdp ++ [(i, S i)]) bd' s' i'). rewrite app_length, Nat.add_1_r in IH.
    specialize (IH ltac:(intros k d hk; replace (S (length cdp) + k)%nat with (length cdp + S k)%nat by lia; apply hc; exact hk) g1).
    destruct (number_carts tn bd' i' cs) as [[cd bd''] i'']. destruct (fold_left (cart_number tn nd) (combine (seq (S (length cdp)) (length cs)) cs) (s', i')) as [s'' j'].
    destruct IH as [-> [k1 k2]]. split; [reflexivity|]. split; [rewrite <- app_assoc in k1; exact k1|]. intros z. rewrite k2, g2. unfold s2. rewrite !number_node_coord. reflexivity.
  Qed.
End Numbers.

(** ** the mesh after the reset *)

Lemma find_key_apart h (s : store R) stored n : (forall k, In k stored -> k <> n -> coords_equal (n_coord (s k)) (n_coord (s n)) = false) ->
  find_key h s stored n = if in_dec Nat.eq_dec n stored then Some s else None.
Proof.
  induction stored as [|k r IH]; intros hk; [reflexivity|]. cbn [find_key]. destruct (Nat.eqb_spec k n) as [->|d].
  - destruct (in_dec Nat.eq_dec n (n :: r)) as [_|q]; [reflexivity|exfalso; apply q; left; reflexivity].
  - assert (g : find_key h s r n = if in_dec Nat.eq_dec n (k :: r) then Some s else None).
    { rewrite IH by (intros z hz; apply hk; right; exact hz). destruct (in_dec Nat.eq_dec n r) as [q|q]; destruct (in_dec Nat.eq_dec n (k :: r)) as [q'|q']; try reflexivity; exfalso; [apply q'; right; exact q|]. destruct q' as [q'|q']; [exact (d q')|exact (q q')]. }
    destruct (Z.eqb _ _); [|exact g]. unfold node_eq. rewrite (hk k (or_introl eq_refl) d). exact g.
Qed.
Lemma fold_apart h (s : store R) l : forall stored, (forall a b, In a (stored ++ l) -> In b (stored ++ l) -> a <> b -> coords_equal (n_coord (s a)) (n_coord (s b)) = false) ->
  NoDup (stored ++ l) -> fold_left (insert_key h) l (s, stored) = (s, stored ++ l).
Proof.
  induction l as [|n l IH]; intros stored hs hn; cbn [fold_left]; [rewrite app_nil_r; reflexivity|].
  unfold insert_key at 2. cbn [fst snd]. rewrite find_key_apart by (intros k hk hd; apply hs; [apply in_or_app; left; exact hk|apply in_or_app; right; left; reflexivity|exact hd]).
  destruct (in_dec Nat.eq_dec n stored) as [q|q].
  - exfalso. apply NoDup_remove_2 in hn. apply hn. apply in_or_app. left. exact q.
  - rewrite IH; rewrite <- app_assoc; [reflexivity|exact hs|exact hn].
Qed.
Lemma add_apart h (s : store R) m n : (forall a b, In a (m ++ [n]) -> In b (m ++ [n]) -> a <> b -> coords_equal (n_coord (s a)) (n_coord (s b)) = false) -> NoDup m ->
  add_nodes h s m [n] = (s, if in_dec Nat.eq_dec n m then m else m ++ [n]).
Proof.
  intros hs hn. unfold add_nodes. rewrite fold_left_app. rewrite (fold_apart h s m []); [|intros a b ha hb; apply hs; apply in_or_app; left; assumption|exact hn].
  cbn [app fold_left]. unfold insert_key. cbn [fst snd]. rewrite find_key_apart; [destruct (in_dec Nat.eq_dec n m); reflexivity|].
  intros k hk hd. apply hs; [apply in_or_app; left; exact hk|apply in_or_app; right; left; reflexivity|exact hd].
Qed.

Lemma reset_all h ps : forall st, NoDup (ts_mesh st) ->
  (forall a b, (In a (ts_mesh st) \/ In a (map (ts_node st) ps)) -> (In b (ts_mesh st) \/ In b (map (ts_node st) ps)) -> a <> b -> coords_equal (n_coord (ts_store st a)) (n_coord (ts_store st b)) = false) ->
  let st' := fold_left (fun st p => add_part_node h p st) ps st in
  ts_store st' = ts_store st /\ ts_next st' = ts_next st /\ ts_node st' = ts_node st /\ NoDup (ts_mesh st') /\ (forall id, In id (ts_mesh st') <-> In id (ts_mesh st) \/ In id (map (ts_node st) ps)).
Proof.
  induction ps as [|p ps IH]; intros st hn hs; cbn [fold_left map].
  - repeat split; auto; [intros [q|[]]; exact q].
  - unfold add_part_node at 2 4 6 8 10. cbv zeta.
    rewrite (add_apart h (ts_store st) (ts_mesh st) (ts_node st p)); [|intros a b ha hb; apply hs; [apply in_app_or in ha as [ha|[<-|[]]]; [left; exact ha|right; left; reflexivity]|apply in_app_or in hb as [hb|[<-|[]]]; [left; exact hb|right; left; reflexivity]]|exact hn].
    set (m := if in_dec Nat.eq_dec (ts_node st p) (ts_mesh st) then ts_mesh st else ts_mesh st ++ [ts_node st p]).
    assert (hm : forall id, In id m <-> In id (ts_mesh st) \/ id = ts_node st p).
    { intros id. unfold m. destruct (in_dec Nat.eq_dec (ts_node st p) (ts_mesh st)) as [q|q]; [split; [auto|intros [h'| ->]; assumption]|]. rewrite in_app_iff. cbn [In]. intuition. }
    specialize (IH (mkTstate (ts_store st) (ts_next st) m (ts_node st))). cbn [ts_store ts_next ts_mesh ts_node] in IH. destruct IH as [a1 [a2 [a3 [a4 a5]]]].
    + unfold m. destruct (in_dec Nat.eq_dec (ts_node st p) (ts_mesh st)) as [q|q]; [exact hn|]. apply NoDup_rev in hn. rewrite <- (rev_involutive (ts_mesh st ++ [ts_node st p])). apply NoDup_rev. rewrite rev_app_distr. cbn [rev app]. constructor; [rewrite <- in_rev; exact q|exact hn].
    + intros a b ha hb. apply hs; [destruct ha as [ha|ha]; [apply hm in ha as [ha| ->]; [left; exact ha|right; left; reflexivity]|right; right; exact ha]|destruct hb as [hb|hb]; [apply hm in hb as [hb| ->]; [left; exact hb|right; left; reflexivity]|right; right; exact hb]].
    + split; [exact a1|]. split; [exact a2|]. split; [exact a3|]. split; [exact a4|]. intros id. rewrite a5, hm. cbn [In]. intuition.
Qed.

Lemma apart_coords tn x p q : parts_apart tn x -> is_part tn p -> is_part tn q -> p <> q -> coords_equal (T3 (x p) (level p) 0) (T3 (x q) (level q) 0) = false.
Proof.
  intros ha hp hq hd. unfold coords_equal. cbn [tx ty tr]. rewrite !ndec_R, !nabs_R. rnum. change (10 ^ 9)%Z with 1000000000%Z.
  destruct (Req_dec (level p) (level q)) as [e|e].
  - specialize (ha p q hp hq hd e). destruct (nltbP (1 / 1000000000) (Rabs (x p - x q))); [reflexivity|contradiction].
  - destruct (nltbP (1 / 1000000000) (Rabs (level p - level q))) as [l|l]; [rewrite andb_false_r; reflexivity|]. exfalso. apply l.
    destruct p, q; cbn [level] in *; try lra; unfold Rabs; destruct (Rcase_abs _); lra.
Qed.
