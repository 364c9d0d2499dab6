(** * The vertical balance of a train on a track (C124) *)

From Coq Require Import Reals List Bool ZArith Arith Lia Lra Permutation.
From Verif Require Import Num PyBase Model_Geometry Model_System Model_Element Model_Moving Model_Train Model_TrainMesh Model_TrainSystem
  Spec_Geometry Spec_System Spec_Element Spec_Train Spec_TrainMesh Spec_TrainSystem
  Proofs_Elements Proofs_System Proofs_Dof Proofs_Element Proofs_Accumulation Proofs_Train Proofs_TrainMat Props_Train Props_TrainMesh Props_TrainSystem
  Model_Coupled Model_Track Spec_Coupled Model_CoupledSystem Spec_CoupledSystem Props_CoupledSystem
  Spec_Analytic Spec_Motion Proofs_Motion Spec_ContactEnergy Proofs_ContactEnergy Spec_Balance Proofs_Balance Props_Balance Model_Mesh Spec_Generated Props_Generated Proofs_Track Proofs_Beam Proofs_CoupledSystem Spec_Track Model_Initial Spec_Initial Props_Initial Proofs_Coupled Props_Coupled Spec_Whole.
Import ListNotations.
Local Open Scope R_scope.

(** ** sums *)

Lemma indicator_sum n (N : list nat) (g : nat -> R) : NoDup N -> (forall k, In k N -> (k < n)%nat) ->
  sumn n (fun k => (if in_dec Nat.eq_dec k N then 1 else 0) * g k) = nsum (map g N).
Proof.
  intros h1 h2. rewrite (sum_listed n _ N h1 h2), sumn_0.
  - rewrite Rplus_0_l. apply nsum_map_ext. intros k hk. destruct (in_dec Nat.eq_dec k N); [ring|contradiction].
  - intros k _. destruct (in_dec Nat.eq_dec k N); ring.
Qed.

Lemma map_inj {A B} (f : A -> B) l a b : NoDup (map f l) -> In a l -> In b l -> f a = f b -> a = b.
Proof.
  induction l as [|x l IH]; intros hn ha hb e; [destruct ha|]. cbn [map] in hn; inversion hn as [|? ? h1 h2]; subst.
  destruct ha as [->|ha]; destruct hb as [->|hb]; try reflexivity.
  - exfalso. apply h1. rewrite e. apply in_map. exact hb.
  - exfalso. apply h1. rewrite <- e. apply in_map. exact ha.
  - exact (IH h2 ha hb e).
Qed.

Lemma nodup_inj {A B} (f : A -> B) l : NoDup l -> (forall a b, In a l -> In b l -> f a = f b -> a = b) -> NoDup (map f l).
Proof.
  induction 1 as [|a l h1 h2 IH]; intros h; cbn [map]; constructor.
  - intros hin. apply in_map_iff in hin as [b [e hb]]. apply h1. rewrite (h a b (or_introl eq_refl) (or_intror hb)) by congruence. exact hb.
  - apply IH. intros x y hx hy. apply h; right; assumption.
Qed.

Lemma nodup_join {A} (l l' : list A) : NoDup l -> NoDup l' -> (forall a, In a l -> ~ In a l') -> NoDup (l ++ l').
Proof.
  induction 1 as [|a l h1 h2 IH]; intros hl h; [exact hl|]. cbn. constructor.
  - intros hin. apply in_app_or in hin as [hin|hin]; [contradiction|]. exact (h a (or_introl eq_refl) hin).
  - apply IH; [exact hl|]. intros b hb. apply h. right. exact hb.
Qed.

Lemma nsum_perm (l l' : list R) : Permutation l l' -> nsum l = nsum l'.
Proof. induction 1; cbn [nsum]; rnum; try congruence; lra. Qed.

(** ** the parts of a train *)

Lemma parts_spec tn bs p : lists_bogies tn bs -> (In p (parts_of tn bs) <-> is_part tn p).
Proof.
  intros [_ hb]. unfold parts_of. rewrite in_app_iff, in_map_iff, in_flat_map. split.
  - intros [[i [<- hi]]|[b [hin [<-|hp]]]].
    + apply in_seq in hi. cbn. lia.
    + apply hb. exact hin.
    + apply in_map_iff in hp as [i [<- hi]]. apply in_seq in hi. split; [apply hb; exact hin|]. unfold n_wheels in hi. lia.
  - destruct p as [i|b|b i]; intros hp.
    + left. exists i. split; [reflexivity|]. apply in_seq. cbn in hp. lia.
    + right. exists b. split; [apply hb; exact hp|left; reflexivity].
    + destruct hp as [hp hi]. right. exists b. split; [apply hb; exact hp|right]. apply in_map. apply in_seq. unfold n_wheels. lia.
Qed.

Lemma parts_nodup tn bs : lists_bogies tn bs -> NoDup (parts_of tn bs).
Proof.
  intros [hn _]. unfold parts_of.
  assert (h1 : NoDup (map PCart (seq 0 (length (tn_carts tn))))) by (apply nodup_inj; [apply seq_NoDup|intros a b _ _ e; congruence]).
  assert (h2 : NoDup (flat_map (fun b => PBogie b :: map (PWheel b) (seq 0 (n_wheels tn b))) bs)).
  { induction hn as [|b l h hn IH]; [constructor|]. cbn [flat_map app]. constructor.
    - intros hin. apply in_app_or in hin as [hin|hin]; [apply in_map_iff in hin as [i [e _]]; discriminate|].
      apply in_flat_map in hin as [b' [q1 [q2|q2]]]; [injection q2 as ->; contradiction|]. apply in_map_iff in q2 as [i [e _]]. discriminate.
    - apply nodup_join; [apply nodup_inj; [apply seq_NoDup|intros x y _ _ e; congruence]|exact IH|].
      intros p q1 q2. apply in_map_iff in q1 as [i [<- _]]. apply in_flat_map in q2 as [b' [q2 [q3|q3]]]; [discriminate|].
      apply in_map_iff in q3 as [j [e _]]. injection e as -> _. contradiction. }
  apply nodup_join; [exact h1|exact h2|]. intros p q1 q2. apply in_map_iff in q1 as [i [<- _]]. apply in_flat_map in q2 as [b [_ [q|q]]]; [discriminate|].
  apply in_map_iff in q as [j [e _]]. discriminate.
Qed.

(** ** numbers of the vertical directions *)

Section Train.
  Variables (h : tri Z -> Z) (tn : train R) (x : part -> R) (st0 st : tstate R) (s : gsys R) (n : nat) (bs : list nat).
  Hypothesis hs : Spec_TrainMesh.sound st0.
  Hypothesis ha : parts_apart tn x.
  Hypothesis hi : train_initialise h tn x st0 = Ok (s, st, n).
  Hypothesis hb : lists_bogies tn bs.
  Hypothesis hc : complete tn.
  Hypothesis he : even_springs tn.
  Hypothesis hf : parts_free tn st.

  Definition row (p : part) : nat := match number_of_part st p DY with Some k => k | None => 0%nat end.
  Lemma row_spec p : is_part tn p -> number_of_part st p DY = Some (row p).
  Proof. intros hp. unfold row. specialize (hf p hp). destruct (number_of_part st p DY); congruence. Qed.

  Lemma value_row f p : is_part tn p -> part_value st f p = f (row p).
  Proof. intros hp. unfold part_value. rewrite (row_spec p hp). reflexivity. Qed.

  Lemma over_rows f : over_parts tn bs (part_value st f) = nsum (map f (map row (parts_of tn bs))).
  Proof. unfold over_parts. rewrite map_map. apply nsum_map_ext. intros p hp. apply value_row. apply (parts_spec tn bs p hb). exact hp. Qed.

  (** the numbers of the vertical directions before rows are removed *)
  Lemma old_numbers cd bd m : initialise_train_ndof tn = (cd, bd, m) ->
    (forall p d k, is_part tn p -> tget (part_numbers cd bd p) d = Some k -> (k < m)%nat) /\
    (forall p d q e k, is_part tn p -> is_part tn q -> tget (part_numbers cd bd p) d = Some k -> tget (part_numbers cd bd q) e = Some k -> p = q /\ d = e).
  Proof.
    intros hn. pose proof (slots_values tn cd bd m hn) as hv. pose proof (numbers_nodup tn cd bd m hn) as hnd. split.
    - intros p d k hp hk. destruct (slot_in tn cd bd m p d k hn hp hk) as [q1 q2]. apply (numbers_lt tn cd bd m k hn). rewrite <- hv, <- q2. apply in_map. exact q1.
    - intros p d q e k hp hq h1 h2. destruct (slot_in tn cd bd m p d k hn hp h1) as [q1 q2]. destruct (slot_in tn cd bd m q e k hn hq h2) as [q3 q4].
      rewrite <- hv in hnd. assert (g : (p, d) = (q, e)) by (apply (map_inj (value cd bd) _ _ _ hnd q1 q3); congruence). injection g as -> ->. auto.
  Qed.

  (** a common displacement of all parts strains no spring *)
  Lemma unstrained (fc : cart R -> R) (fb : bogie R -> R) cd bd m bs' l : initialise_train_ndof tn = (cd, bd, m) -> lists_bogies tn bs' -> (l < m)%nat ->
    nsum (map (fun p => total_fill fc fb tn cd bd bs' l (match ty (part_numbers cd bd p) with Some k => k | None => 0%nat end)) (parts_of tn bs)) = 0.
  Proof.
    intros hn hb' hl. destruct (old_numbers cd bd m hn) as [hlt hinj].
    set (num := fun p => match ty (part_numbers cd bd p) with Some k => k | None => 0%nat end).
    assert (hnum : forall p, is_part tn p -> tget (part_numbers cd bd p) DY = Some (num p)).
    { intros p hp. destruct (numbers_shape tn cd bd m p hn hp) as [y g]. unfold num. destruct p; [destruct g as [r g]|destruct g as [r g]|]; rewrite g; reflexivity. }
    set (N := map num (parts_of tn bs)).
    assert (hN : NoDup N).
    { apply nodup_inj; [apply parts_nodup; exact hb|]. intros a b h1 h2 e. apply (parts_spec tn bs a hb) in h1. apply (parts_spec tn bs b hb) in h2.
      apply (hinj a DY b DY (num a) h1 h2 (hnum a h1)). rewrite e. apply hnum. exact h2. }
    set (e' := fun k => if in_dec Nat.eq_dec k N then 1 else 0 : R).
    assert (e1 : forall p k, is_part tn p -> tget (part_numbers cd bd p) DY = Some k -> e' k = 1).
    { intros p k hp hk. rewrite (hnum p hp) in hk. injection hk as <-. unfold e'. destruct (in_dec Nat.eq_dec (num p) N) as [g|g]; [reflexivity|]. exfalso. apply g. apply in_map. apply (parts_spec tn bs p hb). exact hp. }
    assert (e0 : forall p k, is_part tn p -> tget (part_numbers cd bd p) DR = Some k -> e' k = 0).
    { intros p k hp hk. unfold e'. destruct (in_dec Nat.eq_dec k N) as [g|g]; [|reflexivity]. exfalso. apply in_map_iff in g as [q [g hq]]. apply (parts_spec tn bs q hb) in hq.
      pose proof (hnum q hq) as hq2. rewrite g in hq2. destruct (hinj p DR q DY k hp hq hk hq2) as [_ c]. discriminate. }
    destruct (ndof_spec tn cd bd m hn) as [hcl [_ [hw _]]].
    assert (hbal : forall b, In b (bodies fc fb tn cd bd bs') -> balanced b /\ relaxed b e').
    { intros b hin. unfold bodies in hin. apply in_app_or in hin as [hin|hin]; apply in_map_iff in hin.
      - destruct hin as [[c p] [<- hin]]. cbn [fst snd]. pose proof (in_combine_l _ _ _ _ hin) as hcin. split.
        + unfold balanced, offset, cart_body. cbn [by_factors by_ds by_lows]. rewrite map_length. apply (he c hcin).
        + apply In_nth_error in hin as [q hq].
          assert (hq2 : nth_error (tn_carts tn) q = Some c /\ nth_error cd q = Some p).
          { clear - hq. revert cd q hq. generalize (tn_carts tn). induction l as [|c0 l IH]; intros [|p0 cd] [|q] hq; try discriminate.
            - injection hq as -> ->. split; reflexivity.
            - exact (IH cd q hq). }
          destruct hq2 as [hqc hqp]. assert (hp : is_part tn (PCart q)) by (cbn; apply nth_error_Some; congruence).
          assert (y1 : e' (fst p) = 1) by (apply (e1 (PCart q)); [exact hp|cbn [part_numbers]; rewrite hqp; destruct p; reflexivity]).
          assert (y2 : e' (snd p) = 0) by (apply (e0 (PCart q)); [exact hp|cbn [part_numbers]; rewrite hqp; destruct p; reflexivity]).
          intros i hlt'. unfold cart_body in *. cbn [by_k by_factors by_ds by_y by_r by_lows] in *. rewrite map_length in hlt'. unfold stretch. rewrite y1, y2.
          destruct (nth_error (ct_bogies c) i) as [b|] eqn:eb; [|apply nth_error_None in eb; lia].
          rewrite (nth_error_nth (map _ _) i _ (map_nth_error (fun b => bd_y (dof_get bd b)) i _ eb)).
          assert (hbe : is_part tn (PBogie b)) by (exists c; split; eapply nth_error_In; eassumption).
          destruct (dof_get_entry _ _ _ _ _ hn hbe) as [g1 _]. rewrite (e1 (PBogie b)); [ring|exact hbe|]. cbn [part_numbers]. rewrite g1. reflexivity.
      - destruct hin as [b' [<- hin]]. apply (proj2 hb') in hin. destruct (dof_get_entry _ _ _ _ _ hn hin) as [g1 [g2 g3]]. split.
        + unfold balanced, offset, bogie_body. cbn [by_factors by_ds by_lows]. rewrite g3. destruct hin as [c [q1 q2]]. apply (he c q1). exact q2.
        + assert (y1 : e' (bd_y (dof_get bd b')) = 1) by (apply (e1 (PBogie b')); [exact hin|cbn [part_numbers]; rewrite g1; reflexivity]).
          assert (y2 : e' (bd_r (dof_get bd b')) = 0) by (apply (e0 (PBogie b')); [exact hin|cbn [part_numbers]; rewrite g1; reflexivity]).
          intros i hlt'. unfold bogie_body in *. cbn [by_k by_factors by_ds by_y by_r by_lows] in *. unfold stretch. rewrite y1, y2.
          rewrite (e1 (PWheel b' i)); [ring|split; [exact hin|]; fold (n_wheels tn b'); lia|]. cbn [part_numbers]. rewrite g1. cbn [tget ty]. apply nth_error_nth'. exact hlt'. }
    destruct (Proofs_TrainMat.total_energy fc fb tn cd bd m bs' m hn hb' hc (le_n _)) as [_ [_ g]]. destruct (g (fun b hin => proj1 (hbal b hin))) as [_ g']. 
    specialize (g' e' l (fun b hin => proj2 (hbal b hin)) hl). unfold mulv in g'.
    rewrite (sumn_ext m _ (fun k => e' k * total_fill fc fb tn cd bd bs' l k)) in g' by (intros; ring). unfold e' in g'.
    rewrite (indicator_sum m N (total_fill fc fb tn cd bd bs' l) hN) in g'.
    - unfold N in g'. rewrite map_map in g'. exact g'.
    - intros k hk. apply in_map_iff in hk as [p [<- hp]]. apply (parts_spec tn bs p hb) in hp. apply (hlt p DY); [exact hp|]. apply hnum. exact hp.
  Qed.

  Lemma rows_nodup cd bd m : initialise_train_ndof tn = (cd, bd, m) -> NoDup (map row (parts_of tn bs)) /\ (forall k, In k (map row (parts_of tn bs)) -> (k < n)%nat).
  Proof.
    intros hn. destruct (C117_equations h tn x st0 cd bd m hs ha hn) as [s' [st1 [n' [bs' [e [_ [_ [_ [_ [h6 [h7 _]]]]]]]]]]]. rewrite hi in e. injection e as <- <- <-. split.
    - apply nodup_inj; [apply parts_nodup; exact hb|]. intros a b h1 h2 e. apply (parts_spec tn bs a hb) in h1. apply (parts_spec tn bs b hb) in h2.
      destruct (h7 a DY b DY (row a) h1 h2 (row_spec a h1)) as [g _]; [rewrite e; apply row_spec; exact h2|exact g].
    - intros k hk. apply in_map_iff in hk as [p [<- hp]]. apply (parts_spec tn bs p hb) in hp. apply h6. exists p, DY. split; [exact hp|apply row_spec; exact hp].
  Qed.

  (** the forces of the springs and of the dampers of the train on its parts cancel *)
  Lemma springs_cancel y : over_parts tn bs (part_value st (mulv n (me (gK s)) y)) = 0 /\ over_parts tn bs (part_value st (mulv n (me (gC s)) y)) = 0.
  Proof.
    destruct (initialise_train_ndof tn) as [[cd bd] m] eqn:hn.
    destruct (C117_equations h tn x st0 cd bd m hs ha hn) as [s' [st1 [n' [bs' [e [hb' [_ [_ [_ [h6 [_ [_ [h9 _]]]]]]]]]]]]]. rewrite hi in e. injection e as <- <- <-.
    destruct (old_numbers cd bd m hn) as [hlt _].
    set (num := fun p => match ty (part_numbers cd bd p) with Some k => k | None => 0%nat end).
    assert (hnum : forall p, is_part tn p -> tget (part_numbers cd bd p) DY = Some (num p)).
    { intros p hp. destruct (numbers_shape tn cd bd m p hn hp) as [z g]. unfold num. destruct p; [destruct g as [r g]|destruct g as [r g]|]; rewrite g; reflexivity. }
    assert (main : forall (A B : nat -> nat -> R), (forall p q d i j k l, is_part tn p -> is_part tn q -> number_of_part st p DY = Some i -> number_of_part st q d = Some j ->
         tget (part_numbers cd bd p) DY = Some k -> tget (part_numbers cd bd q) d = Some l -> A i j = B k l) ->
       msym m B -> (forall l, (l < m)%nat -> nsum (map (fun p => B l (num p)) (parts_of tn bs)) = 0) ->
       over_parts tn bs (part_value st (mulv n A y)) = 0).
    { intros A B hAB hsym hz. rewrite over_rows, map_map. unfold mulv.
      rewrite (nsum_map_ext _ (fun p => sumn n (fun j => y j * A (row p) j))) by (intros p _; apply sumn_ext; intros; ring).
      transitivity (sumn n (fun j => y j * nsum (map (fun p => A (row p) j) (parts_of tn bs)))).
      - generalize (parts_of tn bs). intros l. induction l as [|p l IH]; cbn [map nsum].
        + rewrite sumn_0; [reflexivity|]. intros; rnum; ring.
        + rewrite IH. rnum. rewrite <- sumn_add. apply sumn_ext. intros j _. rnum. ring.
      - apply sumn_0. intros j hj. apply h6 in hj as [q [d [hq hj]]].
        assert (hl : exists l, tget (part_numbers cd bd q) d = Some l).
        { destruct (tget (part_numbers cd bd q) d) as [l|] eqn:el; [exists l; reflexivity|]. exfalso.
          destruct (C117_equations h tn x st0 cd bd m hs ha hn) as [s' [st1 [n' [bs2 [e [_ [_ [_ [h5 _]]]]]]]]]. rewrite hi in e. injection e as <- <- <-.
          assert (hm : Spec_TrainSystem.moves q d) by (apply (h5 q d hq); congruence). apply (part_moves tn cd bd m q d hn hq) in hm. contradiction. }
        destruct hl as [l hl].
        rewrite (nsum_map_ext _ (fun p => B l (num p))); [rewrite (hz l (hlt q d l hq hl)); ring|].
        intros p hp. apply (parts_spec tn bs p hb) in hp. rewrite (hAB p q d (row p) j (num p) l hp hq (row_spec p hp) hj (hnum p hp) hl).
        apply hsym; [exact (hlt p DY _ hp (hnum p hp))|exact (hlt q d l hq hl)]. }
    destruct (C36_energy tn cd bd m bs' m hn hb' hc (le_n _)) as [[k1 _] [c1 _]]. split.
    - apply (main _ (train_stiffness tn cd bd bs')); [|exact k1|intros l hl; rewrite stiffness_total; exact (unstrained _ _ cd bd m bs' l hn hb' hl)].
      intros p q d i j k l hp hq a1 a2 a3 a4. apply (h9 p DY q d i j k l hp hq a1 a2 a3 a4).
    - apply (main _ (train_damping tn cd bd bs')); [|exact c1|intros l hl; rewrite damping_total; exact (unstrained _ _ cd bd m bs' l hn hb' hl)].
      intros p q d i j k l hp hq a1 a2 a3 a4. apply (h9 p DY q d i j k l hp hq a1 a2 a3 a4).
  Qed.

  (** the inertia of the parts is the change of the momentum *)
  Lemma mass_momentum y : over_parts tn bs (part_value st (mulv n (me (gM s)) y)) = train_momentum tn bs st y.
  Proof.
    destruct (initialise_train_ndof tn) as [[cd bd] m] eqn:hn.
    destruct (C117_equations h tn x st0 cd bd m hs ha hn) as [s' [st1 [n' [bs' [e [hb' [_ [_ [h5 [h6 [h7 [h8 [h9 _]]]]]]]]]]]]]. rewrite hi in e. injection e as <- <- <-.
    unfold train_momentum, over_parts. apply nsum_map_ext. intros p hp. apply (parts_spec tn bs p hb) in hp. rewrite !value_row by exact hp. unfold mulv.
    assert (hr : (row p < n)%nat) by (apply h6; exists p, DY; split; [exact hp|apply row_spec; exact hp]).
    rewrite (sumn_ext n _ (fun j => if Nat.eqb (row p) j then own_mass tn p DY * y (row p) else 0)).
    { apply (sumn_pick n (fun _ => own_mass tn p DY * y (row p)) (row p) hr). }
    intros j hj. destruct (Nat.eqb_spec (row p) j) as [<-|ne]; [rewrite (proj1 (h8 p DY _ hp (row_spec p hp))); reflexivity|].
    apply h6 in hj as [q [d [hq hj]]].
    assert (hm : Spec_TrainSystem.moves q d) by (apply (h5 q d hq); congruence). apply (part_moves tn cd bd m q d hn hq) in hm.
    destruct (tget (part_numbers cd bd q) d) as [l|] eqn:el; [|congruence].
    assert (hm' : Spec_TrainSystem.moves p DY) by (apply (h5 p DY hp); rewrite (row_spec p hp); discriminate). apply (part_moves tn cd bd m p DY hn hp) in hm'.
    destruct (tget (part_numbers cd bd p) DY) as [k|] eqn:ek; [|congruence].
    destruct (h9 p DY q d (row p) j k l hp hq (row_spec p hp) hj ek el) as [_ [_ g]]. rewrite g.
    rewrite (proj1 (C36_mass tn cd bd m hn)); [ring|]. intros ->. destruct (proj2 (old_numbers cd bd m hn) p DY q d l hp hq ek el) as [-> <-].
    rewrite (row_spec q hq) in hj. injection hj as hj. contradiction.
  Qed.

  Lemma weights : over_parts tn bs (part_value st (fun i => nth i (gF s) 0)) = - (981 / 100) * train_weight tn bs.
  Proof.
    destruct (initialise_train_ndof tn) as [[cd bd] m] eqn:hn.
    destruct (C117_equations h tn x st0 cd bd m hs ha hn) as [s' [st1 [n' [bs' [e [hb' [_ [_ [h5 [h6 [h7 [h8 [h9 _]]]]]]]]]]]]]. rewrite hi in e. injection e as <- <- <-.
    unfold over_parts. rewrite (nsum_map_ext _ (fun p => - (981 / 100) * own_mass tn p DY)).
    2:{ intros p hp. apply (parts_spec tn bs p hb) in hp. rewrite value_row by exact hp. destruct (h8 p DY _ hp (row_spec p hp)) as [_ g]. rewrite (nth_error_nth _ _ _ g). ring. }
    assert (sc : forall (A : Type) (f : A -> R) l, nsum (map (fun a => - (981 / 100) * f a) l) = - (981 / 100) * nsum (map f l)).
    { intros A f l. induction l as [|a l IH]; cbn [map nsum]; rnum; [ring|]. rewrite IH. ring. }
    rewrite sc. f_equal. unfold parts_of, train_weight. rewrite map_app, nsum_app, map_map. f_equal.
    - cbn [own_mass]. generalize (tn_carts tn). intros l. induction l as [|c l IH] using rev_ind; [reflexivity|].
      rewrite app_length, Nat.add_comm. cbn [length Nat.add]. rewrite seq_S, !map_app, !nsum_app. cbn [map nsum Nat.add].
      rewrite (nth_error_app2 l), Nat.sub_diag by lia. cbn [nth_error]. rewrite <- IH. f_equal. apply nsum_map_ext. intros i hlt. apply in_seq in hlt. rewrite nth_error_app1 by lia. reflexivity.
    - generalize bs. intros l. induction l as [|b l IH]; [reflexivity|]. cbn [flat_map map nsum]. rewrite map_app, nsum_app, IH. cbn [app map nsum]. rewrite map_map. cbn [own_mass].
      unfold bogie_mass, n_wheels. rnum. enough (g : nsum (map (fun k => nth k (bg_wheels (bogie_of tn b)) 0) (seq 0 (length (bg_wheels (bogie_of tn b))))) = nsum (bg_wheels (bogie_of tn b))) by (rewrite g; ring).
      generalize (bg_wheels (bogie_of tn b)). clear. intros l. induction l as [|c l IH] using rev_ind; [reflexivity|].
      rewrite app_length, Nat.add_comm. cbn [length Nat.add]. rewrite seq_S, !map_app, !nsum_app. cbn [map nsum Nat.add].
      rewrite (app_nth2 l), Nat.sub_diag by lia. cbn [nth]. rewrite <- IH. f_equal. apply nsum_map_ext. intros i hlt. apply in_seq in hlt. rewrite app_nth1 by lia. reflexivity.
  Qed.
End Train.

(** ** train and track together *)

Lemma track_square ns ps ls cs da s ns' k : initialise_system ns ps ls cs da = Ok (s, ns', k) -> square k s.
Proof.
  intros h. destruct (initialise_inv _ _ _ _ _ _ _ _ h) as [s0 [st [_ [hq [ht ->]]]]].
  destruct (constrained_trim s0 (number_from 0 ns) cs _ hq (from_numbered ns)) as [s' [m [k' [g1 [g2 _]]]]]. rewrite ht in g1. injection g1 as <- <- <-.
  destruct (damped_entries da st) as [d1 [d2 [d3 [d4 [d5 _]]]]]. unfold square. rewrite d1, d2, d3, d4, d5. exact g2.
Qed.

Lemma whole_add ns tn bs st nt f g : whole ns tn bs st nt (fun i => f i + g i) = whole ns tn bs st nt f + whole ns tn bs st nt g.
Proof.
  unfold whole. rewrite vertical_add. enough (e : over_parts tn bs (part_value st (fun i => f (nt + i)%nat + g (nt + i)%nat)) =
    over_parts tn bs (part_value st (fun i => f (nt + i)%nat)) + over_parts tn bs (part_value st (fun i => g (nt + i)%nat))) by (rewrite e; ring).
  unfold over_parts. induction (parts_of tn bs) as [|p q IH]; cbn [map nsum]; rnum; [ring|]. rewrite IH. unfold part_value. destruct (number_of_part st p DY); ring.
Qed.

Section Whole.
  Variables (h : tri Z -> Z) (tn : train R) (x : part -> R) (st0 st : tstate R) (sv : gsys R) (nv : nat) (bs : list nat).
  Hypothesis hs : Spec_TrainMesh.sound st0.
  Hypothesis ha : parts_apart tn x.
  Hypothesis hi : train_initialise h tn x st0 = Ok (sv, st, nv).
  Hypothesis hb : lists_bogies tn bs.
  Hypothesis hc : complete tn.
  Hypothesis he : even_springs tn.
  Hypothesis hf : parts_free tn st.
  Variables (t : track R) (ns : list (node R)) (nt : nat).
  Hypothesis hnum : numbered ns nt.
  Hypothesis hst : forall p, In p (tk_rail_nodes t) -> number_of ns p DY <> None.

  Definition raise (i : nat) : R := both_moving nt (lift ns) (fun j => if in_dec Nat.eq_dec j (map (row st) (parts_of tn bs)) then 1 else 0) i.

  Lemma whole_work f : whole ns tn bs st nt f = work (nt + nv) f raise.
  Proof.
    destruct (initialise_train_ndof tn) as [[cd bd] m] eqn:hn. destruct (rows_nodup h tn x st0 st sv nv bs hs ha hi hb hf cd bd m hn) as [h1 h2].
    unfold whole, work. rewrite sumn_app, <- (vertical_work ns nt f hnum), (over_rows tn st bs hb hf), <- (indicator_sum nv (map (row st) (parts_of tn bs)) (fun i => f (nt + i)%nat) h1 h2). f_equal.
    - apply sumn_ext. intros i hlt. unfold raise, both_moving. destruct (Nat.ltb_spec i nt); [ring|lia].
    - apply sumn_ext. intros i hlt. unfold raise, both_moving. destruct (Nat.ltb_spec (nt + i) nt); [lia|]. replace (nt + i - nt)%nat with i by lia. ring.
  Qed.

  Lemma whole_ext f g : (forall i, (i < nt + nv)%nat -> f i = g i) -> whole ns tn bs st nt f = whole ns tn bs st nt g.
  Proof. intros e. rewrite !whole_work. apply sumn_ext. intros i hlt. rewrite e by exact hlt. reflexivity. Qed.

  Lemma raise_rail c : between t ns c -> (forall i, In (Some i) (cn_dofs c) -> (i < nt)%nat) -> rail_at (Spec_ContactEnergy.listed (nt + nv) raise) c = 1.
  Proof.
    intros [p [q [l [phi [y [hp [hq [hl [hphi [e1 e2]]]]]]]]]] hlt.
    assert (hv : forall o, In o (cn_dofs c) -> value_at (Spec_ContactEnergy.listed (nt + nv) raise) o = match o with Some i => lift ns i | None => 0 end).
    { intros [i|] ho; [|reflexivity]. specialize (hlt i ho). cbn [value_at]. rewrite listed_nth by lia. unfold raise, both_moving. destruct (Nat.ltb_spec i nt); [reflexivity|lia]. }
    pose proof (lift_field ns nt p DY hnum) as p1. pose proof (lift_field ns nt p DR hnum) as p2. pose proof (lift_field ns nt q DY hnum) as q1. pose proof (lift_field ns nt q DR hnum) as q2.
    unfold field_of in p1, p2, q1, q2. specialize (hst p hp) as hp'. specialize (hst q hq) as hq'.
    unfold rail_at. cbn [sumn]. rewrite e1 in hv |- *. cbn [nth]. rewrite !hv by (cbn; auto). rewrite p1, p2, q1, q2. rewrite e2. cbn [map seq nth].
    destruct (number_of ns p DY); [|congruence]. destruct (number_of ns q DY); [|congruence].
    pose proof (y_shape_rigid l phi y 1 0 hl hphi) as g. unfold interp in g. rnum. lra.
  Qed.

  (** the forces of the wheels on the rails and of the rails on the wheels cancel *)
  Lemma contacts_cancel (ia : interaction R) (u : nat -> R) (F track tr F' tr' : list R) :
    0 < ia_G ia -> (forall z, ia_pow ia <> IZR z) -> length track = nt -> fits ia nt (nt + nv) -> length F = (nt + nv)%nat -> NoDup (touched (ia_contacts ia)) -> length tr = length track ->
    (forall k, ~ In k (touched (ia_contacts ia)) -> nth k tr 0 = nth k track 0) ->
    (forall c, In c (ia_contacts ia) -> between t ns c) -> wheels_of tn st nt (ia_train_dofs ia) ->
    update_contact ia (Spec_ContactEnergy.listed (nt + nv) u) F tr = Ok (F', tr') ->
    whole ns tn bs st nt (fun i => nth i F' 0) = whole ns tn bs st nt (other_force ia F track).
  Proof.
    intros hG hp ht hfit hF hnd hl htr hbt hw e. rewrite !whole_work.
    rewrite (contact_power ia (nt + nv) u raise F track tr F' tr' hG hp ltac:(rewrite ht; exact hfit) hF hnd hl htr e).
    rewrite sumn_0; [ring|]. intros w hlt. destruct hfit as [_ [_ [c1 [_ [_ [c4 [c5 [_ c7]]]]]]]].
    assert (hin : In (nth w (ia_contacts ia) (mkContact [] [])) (ia_contacts ia)) by (apply nth_In; lia).
    rewrite raise_rail.
    - destruct (hw (nth w (ia_train_dofs ia) 0%nat)) as [b [i [j [q1 [q2 q3]]]]]; [apply nth_In; exact hlt|]. rewrite q3. unfold raise, both_moving.
      destruct (Nat.ltb_spec (nt + j) nt); [lia|]. replace (nt + j - nt)%nat with j by lia. destruct (in_dec Nat.eq_dec j (map (row st) (parts_of tn bs))) as [g|g]; [ring|]. exfalso. apply g.
      apply in_map_iff. exists (PWheel b i). split; [|apply (parts_spec tn bs _ hb); exact q1]. rewrite (row_spec tn st hf _ q1) in q2. congruence.
    - apply hbt. exact hin.
    - intros i hi'. apply c5. unfold touched. apply in_flat_map. eexists. split; [exact hin|]. apply in_flat_map. exists (Some i). split; [exact hi'|left; reflexivity].
  Qed.

  (** the other forces are the loads of the track and the weight of the train *)
  Lemma others (ia : interaction R) (F track : list R) : length track = nt -> fits ia nt (nt + nv) -> (forall i, (i < nv)%nat -> nth (nt + i) F 0 = nth i (gF sv) 0) ->
    whole ns tn bs st nt (other_force ia F track) = vertical ns (other_force ia F track) - 981 / 100 * train_weight tn bs.
  Proof.
    intros ht hfit hF. unfold whole. replace (vertical ns (other_force ia F track) - 981 / 100 * train_weight tn bs) with (vertical ns (other_force ia F track) + - (981 / 100) * train_weight tn bs) by ring. f_equal.
    rewrite <- (weights h tn x st0 st sv nv bs hs ha hi hb hf). rewrite !(over_rows tn st bs hb hf). apply nsum_map_ext. intros i hin.
    destruct (initialise_train_ndof tn) as [[cd bd] m] eqn:hn. destruct (rows_nodup h tn x st0 st sv nv bs hs ha hi hb hf cd bd m hn) as [_ h2]. specialize (h2 i hin).
    unfold other_force. destruct (in_dec Nat.eq_dec (nt + i)%nat (touched (ia_contacts ia))) as [g|g].
    - destruct hfit as [_ [_ [_ [_ [_ [_ [c5 _]]]]]]]. specialize (c5 _ g). lia.
    - destruct (Nat.ltb_spec (nt + i) (length track)); [lia|]. apply hF. exact h2.
  Qed.

  Variables (da : damping R) (sk c : gsys R).
  Hypothesis hsq : square nt sk.
  Hypothesis hco : coupled_matrices da sk sv = Ok c.

  Lemma train_square : square nv sv.
  Proof.
    destruct (initialise_train_ndof tn) as [[cd bd] m] eqn:hn. destruct (C117_equations h tn x st0 cd bd m hs ha hn) as [s' [st1 [n' [bs' [e [_ [hq _]]]]]]].
    rewrite hi in e. injection e as <- <- <-. exact hq.
  Qed.

  Lemma over_ext f g : (forall i, (i < nv)%nat -> f i = g i) -> over_parts tn bs (part_value st f) = over_parts tn bs (part_value st g).
  Proof.
    intros e. rewrite !(over_rows tn st bs hb hf). apply nsum_map_ext. intros i hin.
    destruct (initialise_train_ndof tn) as [[cd bd] m] eqn:hn. destruct (rows_nodup h tn x st0 st sv nv bs hs ha hi hb hf cd bd m hn) as [_ h2]. apply e. apply h2. exact hin.
  Qed.

  Lemma whole_mass v : whole ns tn bs st nt (mulv (nt + nv) (me (gM c)) v) = vertical ns (mulv nt (me (gM sk)) v) + train_momentum tn bs st (fun i => v (nt + i)%nat).
  Proof.
    destruct (C112_blocks nt nv da sk sv hsq train_square) as [c' [e [_ [_ g]]]]. rewrite hco in e. injection e as <-. destruct (g v (fun j => v (nt + j)%nat)) as [g1 g2].
    assert (e1 : forall a i, mulv (nt + nv) a v i = mulv (nt + nv) a (both_moving nt v (fun j => v (nt + j)%nat)) i) by (intros a i; unfold mulv; apply sumn_ext; intros j _; rewrite split_motion; reflexivity).
    unfold whole. rewrite <- (mass_momentum h tn x st0 st sv nv bs hs ha hi hb hf). f_equal.
    - apply (vertical_ext ns nt); [exact hnum|]. intros i hlt. rewrite e1. apply g1. exact hlt.
    - apply over_ext. intros i hlt. rewrite e1. apply g2. exact hlt.
  Qed.
  Lemma whole_stiffness u : whole ns tn bs st nt (mulv (nt + nv) (me (gK c)) u) = vertical ns (mulv nt (me (gK sk)) u).
  Proof.
    destruct (C112_blocks nt nv da sk sv hsq train_square) as [c' [e [_ [_ g]]]]. rewrite hco in e. injection e as <-. destruct (g u (fun j => u (nt + j)%nat)) as [g1 g2].
    assert (e1 : forall a i, mulv (nt + nv) a u i = mulv (nt + nv) a (both_moving nt u (fun j => u (nt + j)%nat)) i) by (intros a i; unfold mulv; apply sumn_ext; intros j _; rewrite split_motion; reflexivity).
    unfold whole. rewrite <- (Rplus_0_r (vertical ns (mulv nt (me (gK sk)) u))), <- (proj1 (springs_cancel h tn x st0 st sv nv bs hs ha hi hb hc he hf (fun j => u (nt + j)%nat))). f_equal.
    - apply (vertical_ext ns nt); [exact hnum|]. intros i hlt. rewrite e1. apply g1. exact hlt.
    - apply over_ext. intros i hlt. rewrite e1. apply g2. exact hlt.
  Qed.
  Lemma whole_damping v : whole ns tn bs st nt (mulv (nt + nv) (me (gC c)) v) = vertical ns (mulv nt (me (gC sk)) v) +
    (if da_on da then let (a0, a1) := rayleigh_factors (da_ratio da) (da_one da) (da_two da) in
       a0 * (vertical ns (mulv nt (me (gM sk)) v) + train_momentum tn bs st (fun i => v (nt + i)%nat)) + a1 * vertical ns (mulv nt (me (gK sk)) v) else 0).
  Proof.
    assert (e1 : forall a i, mulv (nt + nv) a v i = mulv (nt + nv) a (both_moving nt v (fun j => v (nt + j)%nat)) i) by (intros a i; unfold mulv; apply sumn_ext; intros j _; rewrite split_motion; reflexivity).
    pose proof (resist_track nt nv da sk sv c hsq train_square hco v (fun j => v (nt + j)%nat)) as r1. pose proof (resist_train nt nv da sk sv c hsq train_square hco v (fun j => v (nt + j)%nat)) as r2.
    destruct (springs_cancel h tn x st0 st sv nv bs hs ha hi hb hc he hf (fun j => v (nt + j)%nat)) as [s1 s2]. pose proof (mass_momentum h tn x st0 st sv nv bs hs ha hi hb hf (fun j => v (nt + j)%nat)) as s3.
    unfold whole. rewrite (vertical_ext ns nt _ _ hnum (fun i hlt => eq_trans (e1 _ i) (r1 i hlt))), (over_ext _ _ (fun i hlt => eq_trans (e1 _ (nt + i)%nat) (r2 i hlt))).
    assert (sc : forall c f, vertical ns (fun i => c * f i) = c * vertical ns f).
    { intros c0 f. unfold vertical. induction (seq 0 (length ns)) as [|p q IH]; cbn [map nsum]; rnum; [ring|]. rewrite IH. unfold field_of. destruct (number_of ns p DY); ring. }
    assert (so : forall c f, over_parts tn bs (part_value st (fun i => c * f i)) = c * over_parts tn bs (part_value st f)).
    { intros c0 f. unfold over_parts. induction (parts_of tn bs) as [|p q IH]; cbn [map nsum]; rnum; [ring|]. rewrite IH. unfold part_value. destruct (number_of_part st p DY); ring. }
    assert (ao : forall f g, over_parts tn bs (part_value st (fun i => f i + g i)) = over_parts tn bs (part_value st f) + over_parts tn bs (part_value st g)).
    { intros f g. unfold over_parts. induction (parts_of tn bs) as [|p q IH]; cbn [map nsum]; rnum; [ring|]. rewrite IH. unfold part_value. destruct (number_of_part st p DY); ring. }
    destruct (rayleigh_factors (da_ratio da) (da_one da) (da_two da)) as [a0 a1]. cbn [fst snd]. destruct (da_on da).
    - rewrite !vertical_add, !sc, !ao, !so, s1, s2, s3. ring.
    - rewrite vertical_add, ao, s2, (vertical_ext ns nt (fun _ => 0) (fun _ => 0 * 0) hnum), (over_ext (fun _ => 0) (fun _ => 0 * 0)), sc, so by (intros; ring). ring.
  Qed.
End Whole.

(** ** C124 *)

(** C124: inside the train the suspension forces cancel: the springs and dampers of a train with evenly placed springs change
    neither its weight nor its momentum, however it moves *)
Theorem C124_train (h : tri Z -> Z) (tn : train R) (x : part -> R) (st0 st : tstate R) (s : gsys R) n bs y :
  Spec_TrainMesh.sound st0 -> parts_apart tn x -> train_initialise h tn x st0 = Ok (s, st, n) -> lists_bogies tn bs -> parts_free tn st ->
  over_parts tn bs (part_value st (mulv n (me (gM s)) y)) = train_momentum tn bs st y /\
  over_parts tn bs (part_value st (fun i => nth i (gF s) 0)) = - (981 / 100) * train_weight tn bs /\
  (complete tn -> even_springs tn ->
     over_parts tn bs (part_value st (mulv n (me (gK s)) y)) = 0 /\ over_parts tn bs (part_value st (mulv n (me (gC s)) y)) = 0).
Proof.
  intros hs ha hi hb hf. split; [exact (mass_momentum h tn x st0 st s n bs hs ha hi hb hf y)|]. split; [exact (weights h tn x st0 st s n bs hs ha hi hb hf)|].
  intros hc he. exact (springs_cancel h tn x st0 st s n bs hs ha hi hb hc he hf y).
Qed.
Print Assumptions C124_train.

(** C124: between train and track the forces cancel: the vertical forces that the contact evaluation gives to wheels and rails add
    up to the loads that do not come from the wheels, wherever the wheels stand, if no two stand on a common degree of freedom *)
Theorem C124_contacts (h : tri Z -> Z) (tn : train R) (x : part -> R) (st0 st : tstate R) (sv : gsys R) nv bs
    (t : Model_Mesh.track R) (ns : list (node R)) nt (ia : interaction R) (u : nat -> R) (F F' tr' track : list R) :
  Spec_TrainMesh.sound st0 -> parts_apart tn x -> train_initialise h tn x st0 = Ok (sv, st, nv) -> lists_bogies tn bs -> parts_free tn st ->
  numbered ns nt -> stands t ns ->
  0 < ia_G ia -> (forall z, ia_pow ia <> IZR z) -> length track = nt -> fits ia nt (nt + nv) -> length F = (nt + nv)%nat -> NoDup (touched (ia_contacts ia)) ->
  (forall c, In c (ia_contacts ia) -> between t ns c) -> wheels_of tn st nt (ia_train_dofs ia) ->
  (forall i, (i < nv)%nat -> nth (nt + i) F 0 = nth i (gF sv) 0) ->
  update_contact ia (Spec_ContactEnergy.listed (nt + nv) u) F track = Ok (F', tr') ->
  whole ns tn bs st nt (fun i => nth i F' 0) = vertical ns (other_force ia F track) - 981 / 100 * train_weight tn bs.
Proof.
  intros hs ha hi hb hf hnum [hst _] hG hp ht hfit hF hnd hbt hw hg e.
  rewrite (contacts_cancel h tn x st0 st sv nv bs hs ha hi hb hf t ns nt hnum (fun p hp => hst p (or_introl hp)) ia u F track track F' tr' hG hp ht hfit hF hnd eq_refl (fun _ _ => eq_refl) hbt hw e).
  exact (others h tn x st0 st sv nv bs hs ha hi hb hf ns nt ia F track ht hfit hg).
Qed.
Print Assumptions C124_contacts.

(** C124: the momentum of train and track together: only the weight of the train, the loads of the track, and the springs and
    dampers of the soil change it; the forces between wheels and rails and those of all suspensions, pads and rails do not. With
    Rayleigh damping, of the track or of the coupled model, its mass and stiffness terms come in *)
Theorem C124_momentum (h : tri Z -> Z) (tn : train R) (x : part -> R) (st0 st : tstate R) (sv : gsys R) nv bs
    h' n r (d depth : R) t rail pad sleeper soil ls cs dt s ns nt da c (ia : R -> interaction R) (F track : list R) (u v a : R -> nat -> R) :
  (* the train *)
  Spec_TrainMesh.sound st0 -> parts_apart tn x -> train_initialise h tn x st0 = Ok (sv, st, nv) -> lists_bogies tn bs -> complete tn -> even_springs tn -> parts_free tn st ->
  (* the track *)
  (2 <= n)%nat -> (1 <= r)%nat -> 1 / 1000000000 < d / INR r -> 1 / 1000000000 < depth ->
  create_horizontal_track h' 0 n d depth r = Ok t -> good_rail rail -> good_rod pad -> 0 <= sleeper -> good_rod soil ->
  initialise_system (tk_mesh t) (track_parts t rail pad sleeper soil) ls cs dt = Ok (s, ns, nt) -> stands t ns ->
  (* the coupled model in motion *)
  coupled_matrices da s sv = Ok c -> length track = nt -> length F = (nt + nv)%nat -> (forall i, (i < nv)%nat -> nth (nt + i) F 0 = nth i (gF sv) 0) ->
  (forall t1, 0 < ia_G (ia t1) /\ (forall z, ia_pow (ia t1) <> IZR z) /\ fits (ia t1) nt (nt + nv) /\ NoDup (touched (ia_contacts (ia t1))) /\
     (forall k, In k (ia_contacts (ia t1)) -> between t ns k) /\ wheels_of tn st nt (ia_train_dofs (ia t1))) ->
  driven (nt + nv) c ia F track u v a ->
  let Pt v := momentum t (d / INR r) rail (or_zero (snd pad)) sleeper (or_zero (snd soil)) (field_of ns v) in
  let Pv (v : nat -> R) := train_momentum tn bs st (fun i => v (nt + i)%nat) in
  let spring u := soil_sum t (fst (fst soil)) (field_of ns u) in
  let rayleigh da P v := if da_on da then let a1 := 2 * da_ratio da / (da_one da + da_two da) in da_one da * da_two da * a1 * P v + a1 * spring v else 0 in
  derivative (fun t1 => Pt (v t1) + Pv (v t1))
    (fun t1 => vertical ns (other_force (ia t1) F track) - 981 / 100 * train_weight tn bs
       - spring (u t1) - soil_sum t (or_zero (snd (fst soil))) (field_of ns (v t1)) - rayleigh dt Pt (v t1) - rayleigh da (fun v => Pt v + Pv v) (v t1)).
Proof.
  intros hs ha hi hb hc he hf hn hr hd hdep ht [b1 [b2 [b3 [b4 [b5 b6]]]]] [p1 [p2 p3]] hsl [s1 [s2 s3]] hinit hst hco hlt hF hg hia [f [[hu [hv hm]] hfo]]. cbv zeta.
  apply created in ht; try assumption. subst t.
  destruct (initialise_inv _ _ _ _ _ _ _ _ hinit) as [s0 [_ [e0 _]]]. destruct (initialise_kept _ _ _ _ _ _ _ _ _ hinit e0) as [_ [hnum _]].
  pose proof (track_square _ _ _ _ _ _ _ _ hinit) as hsq.
  pose proof (vertical_stiffness n r d depth hn hr hd hdep rail (fst (fst pad)) (fst (fst soil)) sleeper (snd (fst pad)) (snd pad) (snd (fst soil)) (snd soil)
    b1 b2 b3 b4 b5 b6 p1 s1 hsl p2 p3 s2 s3 ls cs dt s ns nt hinit (stands_free _ _ _ _ _ hst) (stands_held _ _ _ _ _ hst)) as g1.
  pose proof (vertical_mass n r d depth hn hr hd hdep rail (fst (fst pad)) (fst (fst soil)) sleeper (snd (fst pad)) (snd pad) (snd (fst soil)) (snd soil)
    b2 b3 b4 b5 b6 p1 s1 hsl p2 p3 s2 s3 ls cs dt s ns nt hinit (stands_free _ _ _ _ _ hst) (stands_held _ _ _ _ _ hst)) as g2.
  pose proof (vertical_damping n r d depth hn hr hd hdep rail (fst (fst pad)) (fst (fst soil)) sleeper (snd (fst pad)) (snd pad) (snd (fst soil)) (snd soil)
    b1 b2 b3 b4 b5 b6 p1 s1 hsl p2 p3 s2 s3 ls cs dt s ns nt hinit (stands_free _ _ _ _ _ hst) (stands_held _ _ _ _ _ hst)) as g3.
  pose proof (whole_mass h tn x st0 st sv nv bs hs ha hi hb hf ns nt hnum da s c hsq hco) as w1.
  pose proof (whole_stiffness h tn x st0 st sv nv bs hs ha hi hb hc he hf ns nt hnum da s c hsq hco) as w2.
  pose proof (whole_damping h tn x st0 st sv nv bs hs ha hi hb hc he hf ns nt hnum da s c hsq hco) as w3.
  apply (derivative_ext (fun t1 => whole ns tn bs st nt (mulv (nt + nv) (me (gM c)) (v t1))) _ (fun t1 => whole ns tn bs st nt (mulv (nt + nv) (me (gM c)) (a t1)))).
  - intros t1. rewrite w1, g2. reflexivity.
  - intros t1. destruct (hia t1) as [i1 [i2 [i3 [i4 [i5 i6]]]]]. destruct (hfo t1) as [tr [F' [tr' [q1 [q2 [q3 q4]]]]]].
    pose proof (contacts_cancel h tn x st0 st sv nv bs hs ha hi hb hf _ ns nt hnum (fun p hp => proj1 hst p (or_introl hp)) (ia t1) (u t1) F track tr F' tr' i1 i2 hlt i3 hF i4 q1 q2 i5 i6 q3) as k1.
    rewrite (others h tn x st0 st sv nv bs hs ha hi hb hf ns nt (ia t1) F track hlt i3 hg) in k1.
    rewrite (whole_ext h tn x st0 st sv nv bs hs ha hi hb hf ns nt hnum _ (fun i => mulv (nt + nv) (me (gM c)) (a t1) i + mulv (nt + nv) (me (gC c)) (v t1) i + mulv (nt + nv) (me (gK c)) (u t1) i)) in k1.
    2:{ intros i hl. rewrite <- q4 by exact hl. symmetry. apply hm. exact hl. }
    rewrite !whole_add, w2, w3, g1, g3 in k1. revert k1. rewrite !g2, !g1. unfold rayleigh_factors. rnum. intros k1.
    match goal with |- ?l = _ => replace l with (vertical ns (other_force (ia t1) F track) - 981 / 100 * train_weight tn bs - (vertical ns (other_force (ia t1) F track) - 981 / 100 * train_weight tn bs - l)) by ring end.
    rewrite <- k1. destruct (da_on da); destruct (da_on dt); ring.
  - apply (derivative_ext (fun t1 => work (nt + nv) (mulv (nt + nv) (me (gM c)) (v t1)) (raise tn st bs ns nt)) _ (fun t1 => work (nt + nv) (mulv (nt + nv) (me (gM c)) (a t1)) (raise tn st bs ns nt))).
    + intros t2. symmetry. exact (whole_work h tn x st0 st sv nv bs hs ha hi hb hf ns nt hnum _).
    + intros t2. symmetry. exact (whole_work h tn x st0 st sv nv bs hs ha hi hb hf ns nt hnum _).
    + unfold work. apply (derivative_sumn (nt + nv) (fun t i => mulv (nt + nv) (me (gM c)) (v t) i * raise tn st bs ns nt i) (fun t i => mulv (nt + nv) (me (gM c)) (a t) i * raise tn st bs ns nt i)). intros i hl.
      apply (derivative_ext (fun t1 => raise tn st bs ns nt i * mulv (nt + nv) (me (gM c)) (v t1) i) _ (fun t1 => raise tn st bs ns nt i * mulv (nt + nv) (me (gM c)) (a t1) i)); [intros; ring|intros; ring|].
      intros t3. apply (derivable_pt_lim_scal (fun t1 => mulv (nt + nv) (me (gM c)) (v t1) i)). unfold mulv.
      apply (derivative_sumn (nt + nv) (fun t j => me (gM c) i j * v t j) (fun t j => me (gM c) i j * a t j)). intros j hj t4. apply (derivable_pt_lim_scal (fun t => v t j)). apply hv. exact hj.
Qed.
Print Assumptions C124_momentum.

(** C124: at rest the soil carries the train: when train and track stand still in equilibrium with the computed forces, the spring
    forces of the soil add up to the weight of the train and the other loads of the track *)
Theorem C124_rest (h : tri Z -> Z) (tn : train R) (x : part -> R) (st0 st : tstate R) (sv : gsys R) nv bs
    h' n r (d depth : R) t rail pad sleeper soil ls cs dt s ns nt da c (ia : interaction R) (F track F' tr' : list R) (u : nat -> R) :
  Spec_TrainMesh.sound st0 -> parts_apart tn x -> train_initialise h tn x st0 = Ok (sv, st, nv) -> lists_bogies tn bs -> complete tn -> even_springs tn -> parts_free tn st ->
  (2 <= n)%nat -> (1 <= r)%nat -> 1 / 1000000000 < d / INR r -> 1 / 1000000000 < depth ->
  create_horizontal_track h' 0 n d depth r = Ok t -> good_rail rail -> good_rod pad -> 0 <= sleeper -> good_rod soil ->
  initialise_system (tk_mesh t) (track_parts t rail pad sleeper soil) ls cs dt = Ok (s, ns, nt) -> stands t ns ->
  coupled_matrices da s sv = Ok c -> length track = nt -> length F = (nt + nv)%nat -> (forall i, (i < nv)%nat -> nth (nt + i) F 0 = nth i (gF sv) 0) ->
  0 < ia_G ia -> (forall z, ia_pow ia <> IZR z) -> fits ia nt (nt + nv) -> NoDup (touched (ia_contacts ia)) ->
  (forall k, In k (ia_contacts ia) -> between t ns k) -> wheels_of tn st nt (ia_train_dofs ia) ->
  update_contact ia (Spec_ContactEnergy.listed (nt + nv) u) F track = Ok (F', tr') ->
  (forall i, (i < nt + nv)%nat -> mulv (nt + nv) (me (gK c)) u i = nth i F' 0) ->
  soil_sum t (fst (fst soil)) (field_of ns u) = vertical ns (other_force ia F track) - 981 / 100 * train_weight tn bs.
Proof.
  intros hs ha hi hb hc he hf hn hr hd hdep ht [b1 [b2 [b3 [b4 [b5 b6]]]]] [p1 [p2 p3]] hsl [s1 [s2 s3]] hinit hst hco hlt hF hg i1 i2 i3 i4 i5 i6 e hm.
  apply created in ht; try assumption. subst t.
  destruct (initialise_inv _ _ _ _ _ _ _ _ hinit) as [s0 [_ [e0 _]]]. destruct (initialise_kept _ _ _ _ _ _ _ _ _ hinit e0) as [_ [hnum _]].
  pose proof (track_square _ _ _ _ _ _ _ _ hinit) as hsq.
  rewrite <- (C124_contacts h tn x st0 st sv nv bs _ ns nt ia u F F' tr' track hs ha hi hb hf hnum hst i1 i2 hlt i3 hF i4 i5 i6 hg e).
  rewrite <- (whole_ext h tn x st0 st sv nv bs hs ha hi hb hf ns nt hnum _ _ hm), (whole_stiffness h tn x st0 st sv nv bs hs ha hi hb hc he hf ns nt hnum da s c hsq hco). symmetry.
  exact (vertical_stiffness n r d depth hn hr hd hdep rail (fst (fst pad)) (fst (fst soil)) sleeper (snd (fst pad)) (snd pad) (snd (fst soil)) (snd soil)
    b1 b2 b3 b4 b5 b6 p1 s1 hsl p2 p3 s2 s3 ls cs dt s ns nt hinit (stands_free _ _ _ _ _ hst) (stands_held _ _ _ _ _ hst) u).
Qed.
Print Assumptions C124_rest.

(** ** the start *)

Lemma spread_pairs n (g : nat -> R) l (ps : list (option nat * R)) : (forall i y, In (Some i, y) ps -> (i < n)%nat) ->
  sumn n (fun k => g k * nsum (flat_map (fun p => match fst p with Some i => if Nat.eqb i k then [snd p * l] else [] | None => [] end) ps)) =
  nsum (map (fun p => match fst p with Some i => g i * snd p | None => 0 end) ps) * l.
Proof.
  induction ps as [|[o y] ps IH]; intros hlt.
  - rewrite sumn_0; [cbn; rnum; ring|]. intros k _. cbn. rnum. ring.
  - cbn [flat_map map nsum fst snd]. rewrite (sumn_ext n _ (fun k => g k * nsum (match o with Some i => if Nat.eqb i k then [y * l] else [] | None => [] end) +
      g k * nsum (flat_map (fun p => match fst p with Some i => if Nat.eqb i k then [snd p * l] else [] | None => [] end) ps))) by (intros k _; rewrite nsum_app; ring).
    rewrite sumn_add, IH by (intros i z hin; apply (hlt i z); right; exact hin). rnum. destruct o as [i|].
    + assert (hi : (i < n)%nat) by (apply (hlt i y); left; reflexivity).
      rewrite (sumn_ext n _ (fun k => if Nat.eqb i k then g k * (y * l) else 0)) by (intros k _; destruct (Nat.eqb i k); cbn; rnum; ring).
      rewrite (sumn_pick n (fun k => g k * (y * l)) i hi). ring.
    + rewrite sumn_0 by (intros k _; cbn; rnum; ring). ring.
Qed.

Lemma spread n (g : nat -> R) cs loads : length cs = length loads -> (forall c, In c cs -> four c) -> (forall i, In i (touched cs) -> (i < n)%nat) ->
  sumn n (fun k => g k * nsum (contributions cs loads k)) =
  nsum (map (fun p => snd p * sumn 4 (fun j => match nth j (cn_dofs (fst p)) None with Some i => g i | None => 0 end * nth j (cn_shape (fst p)) 0)) (combine cs loads)).
Proof.
  revert loads. induction cs as [|c cs IH]; intros [|l loads] hl h4 hlt; try discriminate.
  - rewrite sumn_0; [reflexivity|]. intros k _. cbn. rnum. ring.
  - unfold contributions. cbn [combine flat_map map nsum fst snd].
    rewrite (sumn_ext n _ (fun k => g k * nsum (flat_map (fun p => match fst p with Some i => if Nat.eqb i k then [snd p * l] else [] | None => [] end) (combine (cn_dofs c) (cn_shape c))) +
      g k * nsum (contributions cs loads k))) by (intros k _; rewrite nsum_app; unfold contributions; ring).
    rewrite sumn_add, IH; [|injection hl; auto|intros; apply h4; right; assumption|intros i hin; apply hlt; unfold touched in *; cbn [flat_map]; apply in_or_app; right; exact hin].
    rnum. f_equal. destruct (h4 c (or_introl eq_refl)) as [d1 d2].
    rewrite spread_pairs.
    + destruct c as [ds ss]. cbn [cn_dofs cn_shape] in *. destruct ds as [|a [|b [|e [|f [|]]]]]; try discriminate d1. destruct ss as [|a' [|b' [|e' [|f' [|]]]]]; try discriminate d2.
      cbn [combine map nsum fst snd sumn nth]. rnum. destruct a, b, e, f; ring.
    + intros i y hin. apply hlt. unfold touched. cbn [flat_map]. apply in_or_app. left. apply in_flat_map. exists (Some i). split; [exact (in_combine_l _ _ _ _ hin)|left; reflexivity].
Qed.

(** C124: the initial state of the coupled run: the soil carries the loads of all wheels, also of wheels that stand close together *)
Theorem C124_start h' n r (d depth : R) t rail pad sleeper soil ls cs dt s ns nt solve ct Kv Fv (Ft : list R) wheels G pow loads st :
  (2 <= n)%nat -> (1 <= r)%nat -> 1 / 1000000000 < d / INR r -> 1 / 1000000000 < depth ->
  create_horizontal_track h' 0 n d depth r = Ok t -> good_rail rail -> good_rod pad -> 0 <= sleeper -> good_rod soil ->
  initialise_system (tk_mesh t) (track_parts t rail pad sleeper soil) ls cs dt = Ok (s, ns, nt) -> stands t ns ->
  solves solve -> length Ft = nt -> mr Kv = length Fv -> mc Kv = length Fv -> contacts_fit ct wheels loads nt (length Fv) -> wheel_loads_only Ft ct loads ->
  (forall k, In k ct -> between t ns k) ->
  calculate_initial_state solve (gK s) Ft ct Kv Fv wheels G pow loads = Ok st ->
  soil_sum t (fst (fst soil)) (field_of ns (fun i => nth i (in_u st) 0)) = nsum loads.
Proof.
  intros hn hr hd hdep ht [b1 [b2 [b3 [b4 [b5 b6]]]]] [p1 [p2 p3]] hsl [s1 [s2 s3]] hinit hst hso hlen k1 k2 hfit hw hbt hini.
  apply created in ht; try assumption. subst t.
  destruct (initialise_inv _ _ _ _ _ _ _ _ hinit) as [s0 [_ [e0 _]]]. destruct (initialise_kept _ _ _ _ _ _ _ _ _ hinit e0) as [_ [hnum _]].
  pose proof (track_square _ _ _ _ _ _ _ _ hinit) as hsq. pose proof hsq as [q1 [q2 _]].
  destruct (initial_parts solve (gK s) Ft ct Kv Fv wheels G pow loads st hso ltac:(lia) ltac:(lia) k1 k2 ltac:(rewrite hlen; exact hfit) hini) as [ut [uv [e1 [e2 [e3 [_ [_ [_ [e7 _]]]]]]]]].
  rewrite <- (vertical_stiffness n r d depth hn hr hd hdep rail (fst (fst pad)) (fst (fst soil)) sleeper (snd (fst pad)) (snd pad) (snd (fst soil)) (snd soil)
    b1 b2 b3 b4 b5 b6 p1 s1 hsl p2 p3 s2 s3 ls cs dt s ns nt hinit (stands_free _ _ _ _ _ hst) (stands_held _ _ _ _ _ hst)).
  destruct hfit as [c1 [c2 [c3 [c4 _]]]].
  rewrite (vertical_ext ns nt _ (fun k => nsum (contributions ct loads k)) hnum).
  - rewrite <- (vertical_work ns nt _ hnum), (spread nt (lift ns) ct loads ltac:(lia) c3 c4).
    rewrite (nsum_map_ext _ snd).
    + assert (g : forall (l : list (contact R)) (m : list R), length l = length m -> map snd (combine l m) = m).
      { induction l as [|y l IH]; intros [|z m] hl; try discriminate; [reflexivity|]. cbn. rewrite IH; [reflexivity|]. injection hl. auto. }
      rewrite g by lia. reflexivity.
    + intros [k l] hin. cbn [fst snd]. apply in_combine_l in hin. destruct (hbt k hin) as [p [q [le [phi [y [hp [hq [hl [hphi [f1 f2]]]]]]]]]].
      pose proof (lift_field ns nt p DY hnum) as z1. pose proof (lift_field ns nt p DR hnum) as z2. pose proof (lift_field ns nt q DY hnum) as z3. pose proof (lift_field ns nt q DR hnum) as z4.
      unfold field_of in z1, z2, z3, z4. destruct hst as [hst _]. specialize (hst p (or_introl hp)) as hp'. specialize (hst q (or_introl hq)) as hq'.
      rewrite f1, f2. cbn [sumn nth map seq]. rewrite z1, z2, z3, z4. destruct (number_of ns p DY); [|congruence]. destruct (number_of ns q DY); [|congruence].
      pose proof (y_shape_rigid le phi y 1 0 hl hphi) as g. unfold interp in g. rnum. replace (l * _) with (l * (1 + 0 * y)); [ring|]. f_equal. lra.
  - intros i hlt. rewrite <- hw by lia. rewrite <- e7 by lia. unfold resistance. rewrite q2. unfold mulv. apply sumn_ext. intros j hj. rewrite e3, app_nth1 by lia. reflexivity.
Qed.
Print Assumptions C124_start.

(** C124: which are those of the weight of the train *)
Theorem C124_loads (tn : train R) cd bd m bs ws ld external :
  initialise_train_ndof tn = (cd, bd, m) -> lists_bogies tn bs -> lists_wheels tn ws -> tn_carts tn <> [] -> (forall c, In c (tn_carts tn) -> ct_bogies c <> []) ->
  (forall b, In b bs -> (0 < n_wheels tn b)%nat) -> train_static_load tn cd bd bs (train_static_force tn cd bd) external no_loads = Ok ld ->
  nsum (map (fun w => load_of (ld_wheel ld (fst w) (snd w))) ws) = external - 981 / 100 * train_weight tn bs.
Proof.
  intros hn hb [w1 w2] h1 h2 h3 e. destruct (C37_weight tn cd bd m bs external hn hb h1 h2 h3) as [l [e' g]]. rewrite e in e'. injection e' as <-. rewrite <- g.
  assert (hp : Permutation ws (flat_map (fun b => map (fun i => (b, i)) (seq 0 (n_wheels tn b))) bs)).
  { apply NoDup_Permutation; [exact w1| |].
    - destruct hb as [hb _]. clear - hb. induction hb as [|b l h hn IH]; [constructor|]. cbn [flat_map]. apply nodup_join; [apply nodup_inj; [apply seq_NoDup|intros y z _ _ q; congruence]|exact IH|].
      intros p q1 q2. apply in_map_iff in q1 as [i [<- _]]. apply in_flat_map in q2 as [b' [q2 q3]]. apply in_map_iff in q3 as [j [q3 _]]. injection q3 as -> _. contradiction.
    - intros [b i]. rewrite w2, in_flat_map. destruct hb as [_ hb]. split.
      + intros [q1 q2]. exists b. split; [apply hb; exact q1|]. apply in_map_iff. exists i. split; [reflexivity|]. apply in_seq. lia.
      + intros [b' [q1 q2]]. apply in_map_iff in q2 as [j [q2 q3]]. injection q2 as -> ->. apply in_seq in q3. split; [apply hb; exact q1|lia]. }
  rewrite (nsum_perm _ _ (Permutation_map _ hp)). unfold wheel_total. clear. induction bs as [|b l IH]; [reflexivity|].
  cbn [flat_map map nsum]. rewrite map_app, nsum_app, IH, map_map. cbn [fst snd]. rewrite nsum_map_seq. reflexivity.
Qed.
Print Assumptions C124_loads.

(** ** where C124 fails, and a train that meets its conditions *)

(** a coach with two bogies of two wheels, with the given distribution factors *)
Definition coach (factors : list R) : train R := mkTrain [mkCart 20 30 6 2 factors [4; -4] [0%nat; 1%nat]] [shared_bogie; shared_bogie].

Lemma coach_apart f : parts_apart (coach f) shared_places.
Proof.
  destruct (C116_case (fun _ => 0%Z) (mkTstate (fun _ => mkNode 0 None (T3 None None None) (T3 0 0 0) (T3 true true true) []) 0 [] (fun _ => 0%nat))) as [ha _].
  assert (hp : forall p, is_part (coach f) p -> is_part shared_train p).
  { assert (hb : forall b, (exists c, In c (tn_carts (coach f)) /\ In b (ct_bogies c)) -> (b = 0 \/ b = 1)%nat /\ exists c, In c (tn_carts shared_train) /\ In b (ct_bogies c)).
    { intros b [c [[<-|[]] hc]]. cbn in hc. split; [lia|]. eexists. split; [left; reflexivity|exact hc]. }
    intros [i|b|b k]; cbn [is_part].
    - cbn. lia.
    - intros hq. apply hb. exact hq.
    - intros [q1 q2]. destruct (hb b q1) as [e q3]. split; [exact q3|]. destruct e as [->| ->]; exact q2. }
  intros p q h1 h2. apply ha; apply hp; assumption.
Qed.

Lemma coach_bogies f bs : lists_bogies (coach f) bs -> bs = [0; 1]%nat \/ bs = [1; 0]%nat.
Proof.
  intros [hn hb]. assert (hi : forall b, In b bs <-> In b [0; 1]%nat).
  { intros b. rewrite hb. split; [intros [c [[<-|[]] hc]]; exact hc|]. intros hc. eexists. split; [left; reflexivity|exact hc]. }
  assert (hp : Permutation bs [0; 1]%nat) by (apply NoDup_Permutation; [exact hn|repeat constructor; cbn; lia|exact hi]).
  pose proof (Permutation_length hp) as hl. destruct bs as [|a [|b [|]]]; try discriminate hl. pose proof (proj1 (hi a) (or_introl eq_refl)) as ia. pose proof (proj1 (hi b) (or_intror (or_introl eq_refl))) as ib.
  inversion hn as [|? ? h1 h2]; subst. cbn in h1, ia, ib. destruct ia as [<-|[<-|[]]], ib as [<-|[<-|[]]]; tauto.
Qed.

Lemma coach_system (h : tri Z -> Z) (st0 : tstate R) f : Spec_TrainMesh.sound st0 -> In f [[]; [1; 1 / 2]] ->
  let cd := [(0, 1)]%nat in let bd := [(0, mkBdof 2 3 [4; 5]); (1, mkBdof 6 7 [8; 9])]%nat in
  initialise_train_ndof (coach f) = (cd, bd, 10%nat) /\
  exists s st bs, train_initialise h (coach f) shared_places st0 = Ok (s, st, 10%nat) /\ lists_bogies (coach f) bs /\
    (forall p, is_part (coach f) p -> forall d, number_of_part st p d = tget (part_numbers cd bd p) d) /\
    (forall i j, (i < 10)%nat -> (j < 10)%nat -> me (gK s) i j = train_stiffness (coach f) cd bd bs i j).
Proof.
  intros hs hf cd bd. assert (hn : initialise_train_ndof (coach f) = (cd, bd, 10%nat)) by reflexivity. split; [exact hn|].
  destruct (C117_equations h (coach f) shared_places st0 _ _ _ hs (coach_apart f) hn) as [s [st [n [bs [e [hb [_ [_ [_ [h6 [_ [_ [h9 [_ [_ [_ hk]]]]]]]]]]]]]]]].
  destruct hk as [-> hk].
  { intros p d k hp hk.
    assert (hB : forall b, (exists c, In c (tn_carts (coach f)) /\ In b (ct_bogies c)) -> b = 0%nat \/ b = 1%nat) by (intros b [c [[<-|[]] hc]]; cbn in hc; lia).
    assert (hst : forall j, (j < 10)%nat -> noticed (train_stiffness (coach f) cd bd bs j j)).
    { intros j hj. apply coach_bogies in hb. unfold noticed, cd, bd. destruct hf as [<-|[<-|[]]];
      destruct hb as [->| ->]; do 10 (destruct j as [|j]; [cbn -[IZR]; rnum; rewrite Rabs_right; lra|]); lia. }
    split.
    - destruct p as [i|b|b w].
      + cbn in hp. destruct i as [|i]; [|lia]; destruct d; cbn in hk; try discriminate hk; unfold noticed; cbn; rewrite Rabs_right; lra.
      + destruct (hB b hp) as [->| ->]; destruct d; cbn in hk; try discriminate hk; unfold noticed; cbn; rewrite Rabs_right; lra.
      + destruct hp as [hp hw]. destruct (hB b hp) as [->| ->]; cbn in hw; destruct w as [|[|w]]; try lia; destruct d; cbn in hk; try discriminate hk; unfold noticed; cbn; rewrite Rabs_right; lra.
    - apply hst. destruct p as [i|b|b w].
      + cbn in hp. destruct i as [|i]; [|lia]; destruct d; cbn in hk; try discriminate hk; injection hk as <-; lia.
      + destruct (hB b hp) as [->| ->]; destruct d; cbn in hk; try discriminate hk; injection hk as <-; lia.
      + destruct hp as [hp hw]. destruct (hB b hp) as [->| ->]; cbn in hw; destruct w as [|[|w]]; try lia; destruct d; cbn in hk; try discriminate hk; injection hk as <-; lia. }
  exists s, st, bs. split; [exact e|]. split; [exact hb|].
  assert (hnum : forall p, is_part (coach f) p -> forall d, number_of_part st p d = tget (part_numbers cd bd p) d) by (intros p hp d; unfold number_of_part; rewrite (hk p hp); reflexivity).
  split; [exact hnum|]. intros i j hi hj. apply h6 in hi as [p [d [hp hi]]]. apply h6 in hj as [q [d' [hq hj]]].
  apply (h9 p d q d' i j i j hp hq hi hj); rewrite <- hnum by assumption; assumption.
Qed.

(** C124 is false for suspensions that are not even, such as those of the end carts of the default trains: a rotation of the cart
    alone makes a net vertical force out of nothing *)
Theorem C124_uneven_refuted (h : tri Z -> Z) (st0 : tstate R) : Spec_TrainMesh.sound st0 ->
  exists tn x s st n bs y, parts_apart tn x /\ train_initialise h tn x st0 = Ok (s, st, n) /\ lists_bogies tn bs /\ complete tn /\ parts_free tn st /\
    over_parts tn bs (part_value st (mulv n (me (gK s)) y)) = 12.
Proof.
  intros hs. destruct (coach_system h st0 [1; 1 / 2] hs (or_intror (or_introl eq_refl))) as [hn [s [st [bs [e [hb [hnum hK]]]]]]]. cbv zeta in hnum, hK.
  assert (hb' : lists_bogies (coach [1; 1 / 2]) [0; 1]%nat).
  { split; [repeat constructor; simpl; intuition lia|]. intros b. split; [intros hin; eexists; split; [left; reflexivity|exact hin]|intros [c [[<-|[]] hc]]; exact hc]. }
  assert (hfree : parts_free (coach [1; 1 / 2]) st).
  { intros p hp. rewrite (hnum p hp). destruct (numbers_shape _ _ _ _ _ hn hp) as [y g]. destruct p; [destruct g as [r g]|destruct g as [r g]|]; rewrite g; discriminate. }
  exists (coach [1; 1 / 2]), shared_places, s, st, 10%nat, [0; 1]%nat, (fun i => if Nat.eqb i 1 then 1 else 0).
  split; [apply coach_apart|]. split; [exact e|]. split; [exact hb'|]. split.
  { intros c [<-|[]]. cbn. split; [right; reflexivity|]. split; [reflexivity|]. intros b [<-|[<-|[]]]; cbn; auto. }
  split; [exact hfree|]. rewrite (over_rows _ st _ hb' hfree).
  assert (hr : map (row st) (parts_of (coach [1; 1 / 2]) [0; 1]%nat) = [0; 2; 4; 5; 6; 8; 9]%nat).
  { unfold row. rewrite (map_ext_in _ (fun p => match ty (part_numbers [(0, 1)]%nat [(0, mkBdof 2 3 [4; 5]); (1, mkBdof 6 7 [8; 9])]%nat p) with Some k => k | None => 0%nat end)); [reflexivity|].
    intros p hp. apply (parts_spec _ _ _ hb') in hp. rewrite (hnum p hp). reflexivity. }
  rewrite hr. apply coach_bogies in hb.
  assert (hm : forall i, (i < 10)%nat -> mulv 10 (me (gK s)) (fun i => if Nat.eqb i 1 then 1 else 0) i = train_stiffness (coach [1; 1 / 2]) [(0, 1)]%nat [(0, mkBdof 2 3 [4; 5]); (1, mkBdof 6 7 [8; 9])]%nat bs i 1%nat).
  { intros i hi. unfold mulv. cbn [sumn Nat.eqb]. rewrite (hK i 1%nat hi ltac:(lia)). rnum. ring. }
  cbn [map nsum]. rewrite !hm by lia. destruct hb as [->| ->]; cbn -[IZR]; rnum; lra.
Qed.
Print Assumptions C124_uneven_refuted.

(** C124 is false when two wheels stand on one element: each wheel is pushed up with force 1, the rail is pushed down by one of them *)
Theorem C124_shared_refuted : exists F' tr', update_contact two_wheels [0; 0; 0; 0; -1; -1] [0; 0; 0; 0; 0; 0] [0; 0; 0; 0] = Ok (F', tr') /\
  nth 4 F' 0 = 1 /\ nth 5 F' 0 = 1 /\ nth 0 F' 0 + nth 2 F' 0 + (nth 4 F' 0 + nth 5 F' 0) = 1.
Proof.
  destruct C41_shared_refuted as [F' [tr' [fs [h1 [h2 [h3 [h4 _]]]]]]]. exists F', tr'. split; [exact h1|].
  destruct (update_contact_spec two_wheels [0; 0; 0; 0; -1; -1] [0; 0; 0; 0; 0; 0] [0; 0; 0; 0] two_wheels_fit eq_refl) as [F1 [t1 [fs1 [g1 [g2 [g3 [g4 [g5 [g6 _]]]]]]]]].
  rewrite h1 in g1. injection g1 as <- <-.
  assert (e : forall w, (w < 2)%nat -> nth w fs1 0 = 1).
  { intros w hw. specialize (g5 w hw). specialize (h3 w hw). subst fs. assert (q : nth w [1; 1] 0 = 1) by (destruct w as [|[|w]]; [reflexivity|reflexivity|lia]). rewrite q in h3. change (ia_G two_wheels) with 1 in g5. change (ia_pow two_wheels) with (3 / 2) in g5.
    replace (nth w (ia_irr two_wheels) 0) with 0 in g5 by (destruct w as [|[|w]]; [reflexivity|reflexivity|lia]). rewrite h3 in g5. injection g5 as g5. symmetry. exact g5. }
  pose proof (g6 0%nat ltac:(cbn; lia)) as a0. pose proof (g6 1%nat ltac:(cbn; lia)) as a1. rewrite (e 0%nat) in a0 by lia. rewrite (e 1%nat) in a1 by lia. cbn in a0, a1. rewrite a0, a1. split; [lra|]. split; lra.
Qed.
Print Assumptions C124_shared_refuted.

(** the coach without factors on rails with the numbers 0 to 5, its first wheel in the middle of an element *)
Example C124_case (h : tri Z -> Z) (st0 : tstate R) : Spec_TrainMesh.sound st0 ->
  exists s st, train_initialise h (coach []) shared_places st0 = Ok (s, st, 10%nat) /\ parts_free (coach []) st /\ complete (coach []) /\ even_springs (coach []) /\
    lists_bogies (coach []) [0; 1]%nat /\ train_weight (coach []) [0; 1]%nat = 42 /\ wheels_of (coach []) st 6 [10; 11; 14; 15]%nat /\
    let ns := [mkNode 0 None (T3 (Some 0%nat) (Some 1%nat) (Some 2%nat)) (T3 0 0 0) (T3 true true true) []; mkNode 1 None (T3 (Some 3%nat) (Some 4%nat) (Some 5%nat)) (T3 1 0 0) (T3 true true true) []] in
    forall t, tk_rail_nodes t = [0; 1]%nat -> between t ns (mkContact [Some 1%nat; Some 2%nat; Some 4%nat; Some 5%nat] (map (y_shape 1 0 (1 / 2)) (seq 0 4))).
Proof.
  intros hs. destruct (coach_system h st0 [] hs (or_introl eq_refl)) as [hn [s [st [bs [e [hb [hnum hK]]]]]]]. cbv zeta in hnum. exists s, st. split; [exact e|]. split.
  { intros p hp. rewrite (hnum p hp). destruct (numbers_shape _ _ _ _ _ hn hp) as [y g]. destruct p; [destruct g as [r g]|destruct g as [r g]|]; rewrite g; discriminate. }
  split. { intros c [<-|[]]. cbn. split; [left; reflexivity|]. split; [reflexivity|]. intros b [<-|[<-|[]]]; cbn; auto. }
  split. { intros c [<-|[]]. unfold imbalance. cbn -[IZR]. split; [rnum; lra|]. intros b [<-|[<-|[]]]; cbn -[IZR]; rnum; lra. }
  split. { split; [repeat constructor; simpl; intuition lia|]. intros b. split; [intros hin; eexists; split; [left; reflexivity|exact hin]|intros [c [[<-|[]] hc]]; exact hc]. }
  split. { unfold train_weight, bogie_mass. cbn -[IZR]. rnum. lra. }
  split.
  - assert (hb0 : forall b, (b < 2)%nat -> exists c, In c (tn_carts (coach [])) /\ In b (ct_bogies c)) by (intros b hlt; eexists; split; [left; reflexivity|cbn; lia]).
    assert (hw : forall b i, (b < 2)%nat -> (i < 2)%nat -> is_part (coach []) (PWheel b i)) by (intros b i h1 h2; split; [apply hb0; exact h1|destruct b as [|[|b]]; [exact h2|exact h2|lia]]).
    intros k [<-|[<-|[<-|[<-|[]]]]]; [exists 0%nat, 0%nat, 4%nat|exists 0%nat, 1%nat, 5%nat|exists 1%nat, 0%nat, 8%nat|exists 1%nat, 1%nat, 9%nat];
      (split; [apply hw; lia|]; split; [rewrite hnum by (apply hw; lia); reflexivity|reflexivity]).
  - intros ns t ht. exists 0%nat, 1%nat, 1, 0, (1 / 2). rewrite ht. repeat split; first [lra | cbn; auto].
Qed.
