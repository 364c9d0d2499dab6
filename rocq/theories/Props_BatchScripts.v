(** * Properties of the scripts of a batch (C120, C121) *)

From Coq Require Import Reals List Bool ZArith Arith Lia Lra String Ascii Permutation.
From Verif Require Import Num PyBase Model_Accumulation Model_Batch Model_BatchScripts Spec_Batch Spec_BatchScripts Proofs_System Proofs_Accumulation Props_Batch.
Import ListNotations.
Local Open Scope R_scope.
Local Notation length := List.length.

(** ** texts *)

Lemma lo_append a b : list_ascii_of_string (append a b) = (list_ascii_of_string a ++ list_ascii_of_string b)%list.
Proof. induction a as [|c a ih]; [reflexivity|]. cbn. rewrite ih. reflexivity. Qed.
Lemma so_app l m : string_of_list_ascii (l ++ m)%list = append (string_of_list_ascii l) (string_of_list_ascii m).
Proof. induction l as [|c l ih]; [reflexivity|]. cbn. rewrite ih. reflexivity. Qed.
Lemma reversed_append a b : reversed (append a b) = append (reversed b) (reversed a).
Proof. unfold reversed. rewrite lo_append, rev_app_distr, so_app. reflexivity. Qed.
Lemma reversed_twice a : reversed (reversed a) = a.
Proof. unfold reversed. rewrite list_ascii_of_string_of_list_ascii, rev_involutive, string_of_list_ascii_of_string. reflexivity. Qed.
Lemma append_assoc a b c : append a (append b c) = append (append a b) c.
Proof. induction a as [|x a ih]; [reflexivity|]. cbn. rewrite ih. reflexivity. Qed.
Lemma append_cancel a b c : append a b = append a c -> b = c.
Proof. induction a as [|x a ih]; cbn; [auto|]. intros h. injection h as h. auto. Qed.
Lemma append_cancel_r a b c : append a c = append b c -> a = b.
Proof. intros h. assert (h' : reversed (append a c) = reversed (append b c)) by congruence. rewrite !reversed_append in h'. apply append_cancel in h'. rewrite <- (reversed_twice a), h'. apply reversed_twice. Qed.
Lemma prefix_spec p s : String.prefix p s = true <-> exists q, s = append p q.
Proof.
  revert s. induction p as [|c p ih]; intros s; [cbn; split; [eauto|destruct s; reflexivity]|]. destruct s as [|d s]; cbn; [split; [discriminate|intros [q h]; discriminate]|].
  destruct (ascii_dec c d) as [->|e]; [rewrite ih; split; intros [q h]; exists q; congruence|split; [discriminate|intros [q h]; congruence]].
Qed.

(** the test for an ending *)
Lemma ends_with_spec suffix s : ends_with suffix s = true <-> exists stem, s = append stem suffix.
Proof.
  unfold ends_with. rewrite prefix_spec. split; intros [q h].
  - exists (reversed q). rewrite <- (reversed_twice s), h, reversed_append, reversed_twice. reflexivity.
  - exists (reversed q). rewrite h, reversed_append. reflexivity.
Qed.

Lemma files_of_ending kind (d : list (entry R)) l : ending kind d l <-> l = files_of kind d.
Proof.
  unfold files_of, ending. split.
  - intros [p [hp ->]]. apply filter_ext. intros e. apply eq_true_iff_eq. rewrite hp, andb_true_iff, ends_with_spec. reflexivity.
  - intros ->. exists (fun e => en_isfile e && ends_with kind (en_name e)). split; [|reflexivity]. intros e. rewrite andb_true_iff, ends_with_spec. reflexivity.
Qed.

(** ** C120 *)

Lemma scenario_output_none name (tr : list (train_type R)) : scenario_output varandas_attributes name tr = Err ErrAttribute.
Proof. reflexivity. Qed.

Lemma scenario_loop_none l : forall out out' : dict (job R), scenario_loop varandas_attributes l out = Ok out' -> out' = out.
Proof.
  induction l as [|[ic [sp cg]] l ih]; intros out out' h; cbn [scenario_loop] in h; [congruence|].
  do 6 (apply rbind_ok in h; destruct h as [? [_ h]]). rewrite scenario_output_none in h. exact (ih _ _ h).
Qed.

(** whatever the directory holds, a run of the script that ends writes no file at all *)
Theorem C120_nothing (d : list (entry R)) out : varandas_batch varandas_attributes d = Ok out -> out = [].
Proof. unfold varandas_batch. destruct (_ && _); [|discriminate]. apply scenario_loop_none. Qed.
Print Assumptions C120_nothing.

(** and it ends without a word for every directory in which the three kinds of trains are there for as many scenarios and their files can be read *)
Theorem C120_written_refuted (d ic sp cg : list (entry R)) : ending "intercity.pickle" d ic -> ending "sprinter.pickle" d sp -> ending "cargo.pickle" d cg ->
  (forall e, In e (ic ++ sp ++ cg) -> exists n f, holds_forces e n f) -> length ic = length sp -> length sp = length cg -> varandas_batch varandas_attributes d = Ok [].
Proof.
  intros h1 h2 h3 hd l1 l2. apply files_of_ending in h1, h2, h3. unfold varandas_batch. rewrite <- h1, <- h2, <- h3, l1, l2, !Nat.eqb_refl. cbn [andb]. clear h1 h2 h3 d.
  assert (rd : forall e, In e (ic ++ sp ++ cg) -> exists dd f, en_data e = Ok dd /\ dget "vertical_force_soil" dd = Ok f) by (intros e he; destruct (hd e he) as [n [f [_ [_ [dd [q1 q2]]]]]]; eauto). clear hd.
  assert (g1 : forall e, In e ic -> exists dd f, en_data e = Ok dd /\ dget "vertical_force_soil" dd = Ok f) by (intros e he; apply rd; rewrite !in_app_iff; auto).
  assert (g2 : forall e, In e sp -> exists dd f, en_data e = Ok dd /\ dget "vertical_force_soil" dd = Ok f) by (intros e he; apply rd; rewrite !in_app_iff; auto).
  assert (g3 : forall e, In e cg -> exists dd f, en_data e = Ok dd /\ dget "vertical_force_soil" dd = Ok f) by (intros e he; apply rd; rewrite !in_app_iff; auto). clear rd.
  revert sp cg g2 g3 l1 l2. induction ic as [|a ic ih]; intros [|b sp] [|c cg] g2 g3 l1 l2; try discriminate; [reflexivity|]. cbn [combine scenario_loop].
  destruct (g1 a (or_introl eq_refl)) as [da [fa [e1 e2]]]. destruct (g2 b (or_introl eq_refl)) as [db [fb [e3 e4]]]. destruct (g3 c (or_introl eq_refl)) as [dc [fc [e5 e6]]].
  rewrite e1. cbn [rbind]. rewrite e3. cbn [rbind]. rewrite e5. cbn [rbind]. rewrite e2. cbn [rbind]. rewrite e4. cbn [rbind]. rewrite e6. cbn [rbind]. rewrite scenario_output_none.
  apply ih; [intros e he; apply g1; right; exact he|intros e he; apply g2; right; exact he|intros e he; apply g3; right; exact he|cbn in l1; lia|cbn in l2; lia].
Qed.
Print Assumptions C120_written_refuted.

(** the numbers of files differ: the script stops before it gives_reading any of them *)
Theorem C120_counted attributes (d ic sp cg : list (entry R)) : ending "intercity.pickle" d ic -> ending "sprinter.pickle" d sp -> ending "cargo.pickle" d cg ->
  length ic <> length sp \/ length sp <> length cg -> varandas_batch attributes d = Err ErrOther.
Proof.
  intros h1 h2 h3 hl. apply files_of_ending in h1, h2, h3. unfold varandas_batch. rewrite <- h1, <- h2, <- h3.
  destruct (Nat.eqb_spec (length ic) (length sp)), (Nat.eqb_spec (length sp) (length cg)); cbn [andb]; try reflexivity. lia.
Qed.
Print Assumptions C120_counted.

(** *** the names *)

Lemma lstrip_keep chars a b c : existsb (Ascii.eqb c) (list_ascii_of_string chars) = false -> lstrip chars (append a (String c b)) = append (lstrip chars a) (String c b).
Proof. intros hc. induction a as [|x a ih]; [cbn [append lstrip]; rewrite hc; reflexivity|]. cbn [append lstrip]. destruct (existsb (Ascii.eqb x) (list_ascii_of_string chars)); [exact ih|reflexivity]. Qed.

Lemma lstrip_all chars a b : (forall c, In c (list_ascii_of_string a) -> In c (list_ascii_of_string chars)) -> lstrip chars (append a b) = lstrip chars b.
Proof.
  induction a as [|x a ih]; intros h; [reflexivity|]. cbn [append lstrip]. assert (hx : existsb (Ascii.eqb x) (list_ascii_of_string chars) = true).
  { apply existsb_exists. exists x. split; [apply h; left; reflexivity|apply Ascii.eqb_refl]. }
  rewrite hx. apply ih. intros c hc. apply h. right. exact hc.
Qed.

(** the name of a file of intercity results loses its ending – and every leading letter that also occurs in that ending *)
Theorem C120_stem stem : strip "intercity.pickle" (result_file "intercity" stem) = append (lstrip "intercity.pickle" stem) "_".
Proof.
  unfold strip, result_file. change (append "_" (append "intercity" ".pickle")) with (String "_" "intercity.pickle").
  rewrite lstrip_keep by reflexivity. set (p := lstrip "intercity.pickle" stem). change (String "_" "intercity.pickle") with (append "_" "intercity.pickle"). rewrite append_assoc, reversed_append, lstrip_all.
  - rewrite reversed_append. change (reversed "_") with "_"%string. change (append "_" (reversed p)) with (append "" (String "_" (reversed p))). rewrite lstrip_keep by reflexivity.
    change (append (lstrip "intercity.pickle" "") (String "_" (reversed p))) with (append "_" (reversed p)). rewrite reversed_append, reversed_twice. reflexivity.
  - intros c. unfold reversed. rewrite list_ascii_of_string_of_list_ascii. rewrite <- in_rev. auto.
Qed.
Print Assumptions C120_stem.

(** stems that differ after a common first part keep different names *)
Theorem C120_distinct first a b : strip "intercity.pickle" (result_file "intercity" (append first (append "_" a))) =
  strip "intercity.pickle" (result_file "intercity" (append first (append "_" b))) -> a = b.
Proof.
  rewrite !C120_stem. intros h. apply append_cancel_r in h. change (append "_" a) with (String "_" a) in h. change (append "_" b) with (String "_" b) in h.
  rewrite !lstrip_keep in h by reflexivity. apply append_cancel in h. congruence.
Qed.
Print Assumptions C120_distinct.

(** stems that differ only in such letters get the same name *)
Theorem C120_overwritten_refuted : result_file "intercity" "res_Segment 1_scenario 1" <> result_file "intercity" "s_Segment 1_scenario 1" /\
  strip "intercity.pickle" (result_file "intercity" "res_Segment 1_scenario 1") = strip "intercity.pickle" (result_file "intercity" "s_Segment 1_scenario 1").
Proof. split; [discriminate|reflexivity]. Qed.
Print Assumptions C120_overwritten_refuted.

Lemma join_app a b : a <> [] -> b <> [] -> join_parts (a ++ b) = append (join_parts a) (append "_" (join_parts b)).
Proof.
  intros ha hb. induction a as [|x a ih]; [congruence|]. destruct a as [|y a].
  - cbn [app]. destruct b as [|z b]; [congruence|]. reflexivity.
  - change (join_parts ((x :: y :: a) ++ b)) with (append x (String "_" (join_parts ((y :: a) ++ b)))). rewrite ih by discriminate.
    change (join_parts (x :: y :: a)) with (append x (append "_" (join_parts (y :: a)))). rewrite <- !append_assoc. reflexivity.
Qed.
Lemma lstrip_no_underscore chars a : no_underscore a -> no_underscore (lstrip chars a).
Proof. induction a as [|c a ih]; [auto|]. intros [h1 h2]. cbn [lstrip]. destruct (existsb _ _); [auto|split; assumption]. Qed.

(** the name under which the settlement is written gives back segment and scenario, when they are not in the first part of the name *)
Theorem C120_read_back first pre seg mid sce post : (forall p, In p (first :: pre ++ seg :: mid ++ sce :: post) -> no_underscore p) ->
  contains "segment" (lower seg) = true -> (forall p, In p (mid ++ sce :: post) -> contains "segment" (lower p) = false) ->
  contains "scenario" (lower sce) = true -> (forall p, In p post -> contains "scenario" (lower p) = false) ->
  segment_and_scenario (append (strip "intercity.pickle" (result_file "intercity" (join_parts (first :: pre ++ seg :: mid ++ sce :: post)))) "_incl_cargo_100d.json") = (seg, sce).
Proof.
  intros hn h1 h2 h3 h4. rewrite C120_stem.
  set (rest := pre ++ seg :: mid ++ sce :: post) in *. assert (hr : rest <> []) by (unfold rest; destruct pre; discriminate).
  assert (e1 : join_parts (first :: rest) = append first (String "_" (join_parts rest))) by (destruct rest; [congruence|reflexivity]).
  rewrite e1, lstrip_keep by reflexivity. set (first' := lstrip "intercity.pickle" first).
  assert (e2 : append first' (String "_" (join_parts rest)) = join_parts (first' :: rest)) by (destruct rest; [congruence|reflexivity]). rewrite e2.
  assert (e3 : append (append (join_parts (first' :: rest)) "_") "_incl_cargo_100d.json" = join_parts ((first' :: rest) ++ [""; "incl"; "cargo"; "100d.json"]%string)).
  { rewrite join_app by discriminate. rewrite <- append_assoc. reflexivity. }
  rewrite e3. set (tail := [""; "incl"; "cargo"; "100d.json"]%string).
  assert (ht : forall p, In p tail -> no_underscore p /\ contains "segment" (lower p) = false /\ contains "scenario" (lower p) = false).
  { intros p [<-|[<-|[<-|[<-|[]]]]]; (split; [cbn; repeat split; discriminate|split; reflexivity]). }
  assert (hall : forall p, In p ((first' :: rest) ++ tail) -> no_underscore p).
  { intros p hp. apply in_app_iff in hp. destruct hp as [[<-|hp]|hp]; [apply lstrip_no_underscore; apply hn; left; reflexivity|apply hn; right; exact hp|apply ht; exact hp]. }
  rewrite (surjective_pairing (segment_and_scenario _)). f_equal.
  - assert (e4 : (first' :: rest) ++ tail = (first' :: pre) ++ seg :: ((mid ++ sce :: post) ++ tail)) by (unfold rest; cbn [app]; rewrite <- app_assoc; reflexivity).
    rewrite e4 in *. apply C94_segment; [exact hall|exact h1|]. intros p hp. apply in_app_iff in hp. destruct hp as [hp|hp]; [apply h2; exact hp|apply ht; exact hp].
  - assert (e4 : (first' :: rest) ++ tail = (first' :: pre ++ seg :: mid) ++ sce :: (post ++ tail)) by (unfold rest; cbn [app]; rewrite <- !app_assoc; cbn [app]; rewrite <- !app_assoc; reflexivity).
    rewrite e4 in *. apply C94_scenario; [exact hall|exact h3|]. intros p hp. apply in_app_iff in hp. destruct hp as [hp|hp]; [apply h4; exact hp|apply ht; exact hp].
Qed.
Print Assumptions C120_read_back.

Example C120_read_back_case : segment_and_scenario (append (strip "intercity.pickle" "res_Kdyn_Segment 1001_scenario 2_intercity.pickle") "_incl_cargo_100d.json") = ("Segment 1001"%string, "scenario 2"%string) /\
  strip "intercity.pickle" "res_Kdyn_Segment 1001_scenario 2_intercity.pickle" = "s_Kdyn_Segment 1001_scenario 2_"%string.
Proof. split; reflexivity. Qed.

(** *** the triples, for a model object that has the methods the script asks for *)

Lemma dset_new {V} k (v : V) d : ~ In k (map fst d) -> dset k v d = d ++ [(k, v)].
Proof. induction d as [|[a w] d ih]; [reflexivity|]. cbn. intros h. destruct (String.eqb_spec a k) as [->|e]; [exfalso; apply h; left; reflexivity|]. f_equal. apply ih. auto. Qed.

(** with the scenarios listed in the same order for the three kinds of trains and no name written twice, every scenario gets one file, from its own
    three files and the traffic of the script *)
Theorem C120_scenarios_partial attributes (d ic sp cg : list (entry R)) stems (fi fs fc : string -> list (list R)) :
  (forall m, In m ["read_traffic"; "settlement"; "dump"]%string -> In m attributes) ->
  ending "intercity.pickle" d ic -> ending "sprinter.pickle" d sp -> ending "cargo.pickle" d cg ->
  Forall2 (fun e s => holds_forces e (result_file "intercity" s) (fi s)) ic stems ->
  Forall2 (fun e s => holds_forces e (result_file "sprinter" s) (fs s)) sp stems ->
  Forall2 (fun e s => holds_forces e (result_file "cargo" s) (fc s)) cg stems ->
  NoDup (map (lstrip "intercity.pickle") stems) ->
  varandas_batch attributes d = Ok (map (fun s => (append (lstrip "intercity.pickle" s) "__incl_cargo_100d.json",
    mkJob [{| tt_per_hour := 6; tt_hours := 6; tt_axles := 16; tt_forces := fi s |};
           {| tt_per_hour := 6; tt_hours := 16; tt_axles := 16; tt_forces := fs s |};
           {| tt_per_hour := 27; tt_hours := 1; tt_axles := 40; tt_forces := fc s |}] 100 [100%nat])) stems).
Proof.
  intros ha h1 h2 h3 f1 f2 f3 hd. apply files_of_ending in h1, h2, h3. unfold varandas_batch. rewrite <- h1, <- h2, <- h3. clear h1 h2 h3 d.
  assert (fl : forall k f l, Forall2 (fun (e : entry R) s => holds_forces e (result_file k s) (f s)) l stems -> length l = length stems).
  { clear. intros k f l h. induction h; cbn; congruence. }
  rewrite (fl _ _ _ f1), (fl _ _ _ f2), (fl _ _ _ f3), Nat.eqb_refl. cbn [andb]. clear fl.
  assert (hat : forall m, In m ["read_traffic"; "settlement"; "dump"]%string -> getattr attributes m = Ok tt).
  { intros m hm. unfold getattr. assert (hx : existsb (String.eqb m) attributes = true) by (apply existsb_exists; exists m; split; [apply ha; exact hm|apply String.eqb_refl]). rewrite hx. reflexivity. }
  assert (gen : forall out : dict (job R), (forall s, In s stems -> ~ In (append (lstrip "intercity.pickle" s) "__incl_cargo_100d.json") (map fst out)) ->
    scenario_loop attributes (combine ic (combine sp cg)) out = Ok (out ++ map (fun s => (append (lstrip "intercity.pickle" s) "__incl_cargo_100d.json", mkJob (scenario_traffic (fi s) (fs s) (fc s)) 100 [100%nat])) stems)).
  { revert sp cg f2 f3. induction f1 as [|a s ic stems q1 f1 ih]; intros sp cg f2 f3 out ho; [inversion f2; inversion f3; subst; cbn; rewrite app_nil_r; reflexivity|].
    inversion f2 as [|b ? sp' ? q2 f2']; subst. inversion f3 as [|c ? cg' ? q3 f3']; subst. cbn [map] in hd. inversion hd as [|? ? n1 n2]; subst. cbn [combine scenario_loop].
    destruct q1 as [w1 [_ [da [e1 e2]]]]. destruct q2 as [_ [_ [db [e3 e4]]]]. destruct q3 as [_ [_ [dc [e5 e6]]]].
    rewrite e1. cbn [rbind]. rewrite e3. cbn [rbind]. rewrite e5. cbn [rbind]. rewrite e2. cbn [rbind]. rewrite e4. cbn [rbind]. rewrite e6. cbn [rbind].
    unfold scenario_output. rewrite w1, C120_stem, !hat by (cbn; auto). cbn [rbind].
    assert (en : append (append (lstrip "intercity.pickle" s) "_") "_incl_cargo_100d.json" = append (lstrip "intercity.pickle" s) "__incl_cargo_100d.json") by (rewrite <- append_assoc; reflexivity). rewrite en.
    rewrite dset_new by (apply ho; left; reflexivity). change (@lit R RNum 100) with 100. rewrite (ih n2 _ _ f2' f3').
    - cbn [map]. rewrite <- app_assoc. reflexivity.
    - intros s' hs'. rewrite map_app, in_app_iff. cbn [map fst In]. intros [hi|[hi|[]]]; [exact (ho s' (or_intror hs') hi)|]. apply append_cancel_r in hi. apply n1. rewrite hi. apply in_map. exact hs'. }
  rewrite (gen [] ltac:(intros s _ [])). reflexivity.
Qed.
Print Assumptions C120_scenarios_partial.

Definition entry_of (name : string) (forces : list (list R)) : entry R := mkEntry name true (Ok [("vertical_force_soil"%string, forces)]).
Definition needed_methods : list string := ["read_traffic"; "settlement"; "dump"]%string.

(** the directory may list the scenarios in another order for each kind of train: then forces of different scenarios are put together *)
Theorem C120_order_refuted : exists j, varandas_batch needed_methods
    [entry_of "S_1_intercity.pickle" [[1]]; entry_of "S_2_intercity.pickle" [[2]]; entry_of "S_2_sprinter.pickle" [[20]]; entry_of "S_1_sprinter.pickle" [[10]];
     entry_of "S_1_cargo.pickle" [[100]]; entry_of "S_2_cargo.pickle" [[200]]] = Ok j /\
  exists a, dget "S_1__incl_cargo_100d.json" j = Ok a /\ map (@tt_forces R) (jb_traffic a) = [[[1]]; [[20]]; [[100]]].
Proof. eexists. split; [reflexivity|]. eexists. split; reflexivity. Qed.
Print Assumptions C120_order_refuted.

Example C120_case : let d := [entry_of "S_1_cargo.pickle" [[100]]; entry_of "S_1_intercity.pickle" [[1]]; entry_of "S_1_sprinter.pickle" [[10]]; entry_of "S_2_cargo.pickle" [[200]];
    entry_of "S_2_intercity.pickle" [[2]]; entry_of "S_2_sprinter.pickle" [[20]]; mkEntry "plots" false (Err ErrOther)] in
  varandas_batch varandas_attributes d = Ok [] /\
  exists j, varandas_batch needed_methods d = Ok j /\ map fst j = ["S_1__incl_cargo_100d.json"; "S_2__incl_cargo_100d.json"]%string /\
    exists a, dget "S_2__incl_cargo_100d.json" j = Ok a /\ map (@tt_forces R) (jb_traffic a) = [[[2]]; [[20]]; [[200]]].
Proof. cbv zeta. split; [reflexivity|]. eexists. split; [reflexivity|]. split; [reflexivity|]. eexists. split; reflexivity. Qed.

(** ** C121: collecting displacement and stiffness of the scenarios *)

Lemma min_list_lowest (l : list R) m : lowest m l -> min_list l = Ok m.
Proof.
  intros [hi hl]. destruct l as [|a l]; [destruct hi|]. cbn [min_list]. f_equal.
  assert (gen : forall l a, let r := fold_left (fun acc x => if nltb x acc then x else acc) l a in (r = a \/ In r l) /\ r <= a /\ forall x, In x l -> r <= x).
  { clear. induction l as [|x l ih]; intros a; cbn [fold_left]; [cbv zeta; split; [left; reflexivity|split; [lra|intros ? []]]|].
    specialize (ih (if nltb x a then x else a)). cbv zeta in ih |- *. destruct ih as [i1 [i2 i3]]. destruct (nltbP x a) as [h|h].
    - split; [destruct i1 as [i1|i1]; [right; left; congruence|right; right; exact i1]|]. split; [lra|]. intros y [<-|hy]; [exact i2|apply i3; exact hy].
    - split; [destruct i1 as [i1|i1]; [left; exact i1|right; right; exact i1]|]. split; [exact i2|]. intros y [<-|hy]; [lra|apply i3; exact hy]. }
  destruct (gen l a) as [g1 [g2 g3]]. cbv zeta in *. set (r := fold_left _ l a) in *.
  assert (h1 : In r (a :: l)) by (destruct g1 as [->|g1]; [left; reflexivity|right; exact g1]). assert (h2 : m <= r) by (apply hl; exact h1).
  assert (h3 : r <= m) by (destruct hi as [<-|hi]; [exact g2|apply g3; exact hi]). lra.
Qed.

Lemma back_head_files (g : reading -> file R) seg rs : (forall r, fl_segment (g r) = rd_segment r) -> map g (back_head seg rs) = head_run seg (map g rs).
Proof. intros hg. induction rs as [|r rs ih]; [reflexivity|]. cbn. rewrite hg. destruct (String.eqb _ _); [cbn; rewrite ih; reflexivity|reflexivity]. Qed.
Lemma back_run_files (g : reading -> file R) seg rs : (forall r, fl_segment (g r) = rd_segment r) -> map g (back_run seg rs) = last_run seg (map g rs).
Proof. intros hg. induction rs as [|r rs ih]; [reflexivity|]. cbn. rewrite hg. destruct (String.eqb _ _); [cbn; rewrite (back_head_files g) by exact hg; reflexivity|exact ih]. Qed.

Definition scenario_of (s : sos R) (r : reading) : scenario R := mkScenario (rd_lowest r) (probability s (rd_segment r) (rd_scenario r)) (rd_stiffness r).
(** what is held of a segment after its readings, newest first *)
Fixpoint held (s : sos R) (run : list reading) : dict (scenario R) :=
  match run with [] => [] | r :: q => dset (rd_scenario r) (scenario_of s r) (held s q) end.
Definition first_of (s : sos R) (run : list reading) : list (R * R) :=
  match rev run with [] => [] | r :: _ => coordinates_of s (rd_segment r) (rd_scenario r) end.

Definition collected (s : sos R) (rs : list reading) (d : dict (segment R)) : Prop :=
  forall r, In r rs -> let run := back_run (rd_segment r) rs in
    dget (rd_segment r) d = Ok (mkSegment (first_of s run) [("w_disp"%string, 0); ("w_stiffness"%string, 0)] (held s run)).

Lemma name_of_reading s wolf node o r : gives_reading s wolf node o r -> name_parts (oc_name o) = Ok (rd_segment r, rd_scenario r).
Proof.
  intros [[pre [h1 [h2 [h3 ->]]]] _]. apply C94_three_parts; [discriminate| |exists pre; reflexivity]. intros p [<-|[<-|[<-|[]]]]; assumption.
Qed.

Lemma first_of_app s run : run <> [] -> forall r, first_of s (r :: run) = first_of s run.
Proof. intros h r. unfold first_of. cbn [rev]. destruct (rev run) as [|x q] eqn:e; [exfalso; apply h; rewrite <- (rev_involutive run), e; reflexivity|reflexivity]. Qed.

Lemma back_run_some seg rs : (exists r, In r rs /\ rd_segment r = seg) -> back_run seg rs <> [].
Proof. intros [r [hi he]]. induction rs as [|x rs ih]; [destruct hi|]. cbn. destruct (String.eqb_spec (rd_segment x) seg); [discriminate|]. destruct hi as [->|hi]; [congruence|exact (ih hi)]. Qed.

Lemma collected_step s wolf node rs d o r prev : gives_reading s wolf node o r -> rd_segment r <> EmptyString -> prev = match rs with [] => EmptyString | g :: _ => rd_segment g end ->
  collected s rs d -> exists d', add_outcome s wolf node prev d o = Ok (rd_segment r, d') /\ collected s (r :: rs) d' /\
    map fst d' = if dmem (rd_segment r) d then map fst d else map fst d ++ [rd_segment r].
Proof.
  intros hr hne hp hc. assert (hn := name_of_reading _ _ _ _ _ hr). destruct hr as [_ [[row [h1 h2]] [[rest h3] [dd [v [h4 h5]]]]]].
  unfold add_outcome. unfold at_idx at 1. rewrite h1. cbn [rbind]. rewrite (min_list_lowest _ _ h2). cbn [rbind]. rewrite hn. cbn [rbind fst snd]. rewrite h4. cbn [rbind]. rewrite h5. cbn [rbind]. rewrite h3. cbn [rbind at_idx nth_error].
  assert (hprob : (fst v / lit 100)%num = probability s (rd_segment r) (rd_scenario r)) by (unfold probability; rewrite h4, h5; reflexivity). rewrite hprob.
  assert (hcoord : snd v = coordinates_of s (rd_segment r) (rd_scenario r)) by (unfold coordinates_of; rewrite h4, h5; reflexivity). rewrite hcoord.
  change (mkScenario (rd_lowest r) (probability s (rd_segment r) (rd_scenario r)) (rd_stiffness r)) with (scenario_of s r). change (@lit R RNum 0) with 0.
  destruct (String.eqb_spec prev (rd_segment r)) as [e|e].
  - destruct rs as [|g rs]; [congruence|]. assert (hg : rd_segment g = rd_segment r) by congruence.
    assert (hcur := hc g (or_introl eq_refl)). cbv zeta in hcur. rewrite hg in hcur. rewrite hcur. cbn [rbind]. eexists. split; [reflexivity|]. split.
    + intros x hx. cbv zeta. destruct (string_dec (rd_segment x) (rd_segment r)) as [ex|ex].
      * rewrite ex, dget_dset_same. assert (hrun : back_run (rd_segment r) (r :: g :: rs) = r :: back_run (rd_segment r) (g :: rs)) by (cbn; rewrite String.eqb_refl, hg, String.eqb_refl; reflexivity).
        rewrite hrun, first_of_app by (apply back_run_some; exists g; split; [left; reflexivity|exact hg]). cbn [sg_coordinates sg_values sg_scenarios held]. reflexivity.
      * rewrite dget_dset_other by exact ex. assert (hrun : back_run (rd_segment x) (r :: g :: rs) = back_run (rd_segment x) (g :: rs)) by (cbn [back_run]; destruct (String.eqb_spec (rd_segment r) (rd_segment x)); [congruence|reflexivity]).
        rewrite hrun. apply hc. destruct hx as [<-|hx]; [congruence|exact hx].
    + rewrite dset_keys. reflexivity.
  - rewrite dget_dset_same. cbn [rbind sg_coordinates sg_values sg_scenarios]. eexists. split; [reflexivity|]. split.
    + intros x hx. cbv zeta. destruct (string_dec (rd_segment x) (rd_segment r)) as [ex|ex].
      * rewrite ex, dget_dset_same. assert (hrun : back_run (rd_segment r) (r :: rs) = [r]).
        { cbn [back_run]. rewrite String.eqb_refl. f_equal. destruct rs as [|g rs]; [reflexivity|]. cbn [back_head]. destruct (String.eqb_spec (rd_segment g) (rd_segment r)); [congruence|reflexivity]. }
        rewrite hrun. reflexivity.
      * rewrite !dget_dset_other by exact ex. assert (hrun : back_run (rd_segment x) (r :: rs) = back_run (rd_segment x) rs) by (cbn [back_run]; destruct (String.eqb_spec (rd_segment r) (rd_segment x)); [congruence|reflexivity]).
        rewrite hrun. apply hc. destruct hx as [<-|hx]; [congruence|exact hx].
    + rewrite dset_keys. assert (hm : forall V (y : V) q, dmem (rd_segment r) (dset (rd_segment r) y q) = true) by (intros; apply dmem_dget; rewrite dget_dset_same; eauto). rewrite hm. apply dset_keys.
Qed.

Lemma collected_all s wolf node l rs : Forall2 (gives_reading s wolf node) l rs -> (forall r, In r rs -> rd_segment r <> EmptyString) ->
  forall before prev d, prev = match before with [] => EmptyString | g :: _ => rd_segment g end -> collected s before d ->
  exists d', add_outcomes s wolf node prev d l = Ok d' /\ collected s (rev rs ++ before) d' /\ map fst d' = map fst d ++ first_seen (map rd_segment rs) (map fst d).
Proof.
  intros hf. induction hf as [|o r l rs h1 hf ih]; intros hne before prev d hp hc; [exists d; split; [reflexivity|split; [exact hc|cbn; rewrite app_nil_r; reflexivity]]|].
  destruct (collected_step s wolf node before d o r prev h1 (hne r (or_introl eq_refl)) hp hc) as [d1 [e1 [e2 e3]]].
  destruct (ih (fun x hx => hne x (or_intror hx)) (r :: before) (rd_segment r) d1 eq_refl e2) as [d2 [g1 [g2 g3]]].
  exists d2. cbn [add_outcomes]. rewrite e1. cbn [rbind fst snd]. split; [exact g1|]. split; [cbn [rev]; rewrite <- app_assoc; exact g2|]. rewrite g3, e3. cbn [map first_seen].
  assert (hm : existsb (String.eqb (rd_segment r)) (map fst d) = dmem (rd_segment r) d).
  { apply eq_true_iff_eq. rewrite dmem_in, existsb_exists. split; [intros [x [x1 x2]]; apply String.eqb_eq in x2; congruence|intros h; exists (rd_segment r); split; [exact h|apply String.eqb_refl]]. }
  rewrite hm. destruct (dmem (rd_segment r) d); [reflexivity|]. rewrite <- app_assoc. cbn [app]. do 2 f_equal. apply first_seen_ext. intros x. rewrite existsb_app. cbn. rewrite orb_false_r, orb_comm. reflexivity.
Qed.

Lemma held_get s run sce : dget sce (held s run) = match find (fun r => String.eqb (rd_scenario r) sce) run with Some r => Ok (scenario_of s r) | None => Err ErrOther end.
Proof. induction run as [|r run ih]; [reflexivity|]. cbn [held find]. destruct (String.eqb_spec (rd_scenario r) sce) as [<-|e]; [apply dget_dset_same|]. rewrite dget_dset_other by congruence. exact ih. Qed.

(** whatever the order of the files: a segment holds the scenarios that were listed last without a file of another segment in between, each with its lowest
    displacement, its probability and its stiffness *)
Theorem C121_held s wolf node l rs : Forall2 (gives_reading s wolf node) l rs -> (forall r, In r rs -> rd_segment r <> EmptyString) ->
  exists d, get_results s wolf node l = Ok d /\ map fst d = first_seen (map rd_segment rs) [] /\
    forall r, In r rs -> exists sg, dget (rd_segment r) d = Ok sg /\ forall sce, dget sce (sg_scenarios sg) =
      match find (fun x => String.eqb (rd_scenario x) sce) (back_run (rd_segment r) (rev rs)) with
      | Some x => Ok (mkScenario (rd_lowest x) (probability s (rd_segment x) sce) (rd_stiffness x))
      | None => Err ErrOther
      end.
Proof.
  intros hf hne. destruct (collected_all s wolf node l rs hf hne [] EmptyString [] eq_refl ltac:(intros r [])) as [d [h1 [h2 h3]]]. rewrite app_nil_r in h2.
  exists d. split; [exact h1|]. split; [exact h3|]. intros r hr. eexists. split; [apply h2; apply -> in_rev; exact hr|]. cbn [sg_scenarios]. intros sce. rewrite held_get.
  destruct (find _ _) as [x|] eqn:e; [|reflexivity]. apply find_some in e. destruct e as [_ e]. apply String.eqb_eq in e. unfold scenario_of. rewrite e. reflexivity.
Qed.
Print Assumptions C121_held.

(** ** the weighted values *)

Lemma held_distinct s run : NoDup (map rd_scenario run) -> held s run = rev (map (fun r => (rd_scenario r, scenario_of s r)) run).
Proof.
  induction run as [|r run ih]; intros h; [reflexivity|]. cbn [map] in h. inversion h as [|? ? n1 n2]; subst. cbn [held map rev]. rewrite (ih n2). apply dset_new. rewrite map_rev, map_map. intros hi. apply in_rev in hi. exact (n1 hi).
Qed.

Lemma weigh_sum key (f : scenario R -> R) (d : dict (scenario R)) : (forall v, scenario_value key v = Ok (f v)) -> forall acc, weigh key d acc = Ok (acc + nsum (map (fun q => f (snd q) * sc_probability (snd q)) d)).
Proof. intros hf. induction d as [|[k v] d ih]; intros acc; cbn [weigh map nsum]; [f_equal; rnum; ring|]. rewrite hf. cbn [rbind]. rewrite ih. cbn [snd]. f_equal. rnum. ring. Qed.

Lemma weighted_get key res_key (f : scenario R -> R) (d : dict (segment R)) : (forall v, scenario_value key v = Ok (f v)) ->
  exists d', calculate_weighted_values d key res_key = Ok d' /\ map fst d' = map fst d /\
    forall seg sg, dget seg d = Ok sg -> exists sg', dget seg d' = Ok sg' /\ sg_coordinates sg' = sg_coordinates sg /\ sg_scenarios sg' = sg_scenarios sg /\
      dget res_key (sg_values sg') = Ok (nsum (map (fun q => f (snd q) * sc_probability (snd q)) (sg_scenarios sg))) /\
      forall k, k <> res_key -> dget k (sg_values sg') = dget k (sg_values sg).
Proof.
  intros hf. induction d as [|[k v] d [d' [i1 [i2 i3]]]]; [exists []; split; [reflexivity|split; [reflexivity|intros ? ? h; discriminate]]|].
  cbn [calculate_weighted_values]. rewrite (weigh_sum key f _ hf). cbn [rbind]. rewrite i1. cbn [rbind]. eexists. split; [reflexivity|]. split; [cbn; rewrite i2; reflexivity|].
  intros seg sg. cbn [dget]. destruct (String.eqb k seg); [|exact (i3 seg sg)]. intros h. injection h as <-. eexists. split; [reflexivity|]. cbn [sg_coordinates sg_scenarios sg_values]. split; [reflexivity|]. split; [reflexivity|].
  split; [rewrite dget_dset_same; f_equal; change (@lit R RNum 0) with 0; ring|]. intros j hj. apply dget_dset_other. exact hj.
Qed.

Lemma nsum_rev_map {A} (f : A -> R) l : nsum (map f (rev l)) = nsum (map f l).
Proof.
  assert (ha : forall l m, nsum (map f (l ++ m)) = nsum (map f l) + nsum (map f m)) by (clear; induction l as [|x l ih]; intros m; cbn; rnum; [ring|]; rewrite ih; rnum; ring).
  induction l as [|x l ih]; [reflexivity|]. cbn [rev]. rewrite ha, ih. cbn. rnum. ring.
Qed.

Lemma back_in seg rs r : In r (back_run seg rs) -> In r rs /\ rd_segment r = seg.
Proof.
  assert (hh : forall rs r, In r (back_head seg rs) -> In r rs /\ rd_segment r = seg).
  { clear. induction rs as [|x rs ih]; intros r; cbn; [intros []|]. destruct (String.eqb_spec (rd_segment x) seg); [|intros []]. intros [<-|h]; [auto|]. destruct (ih r h); auto. }
  induction rs as [|x rs ih]; cbn; [intros []|]. destruct (String.eqb_spec (rd_segment x) seg) as [e|e]; [|intros h; destruct (ih h); auto]. intros [<-|h]; [auto|]. destruct (hh rs r h); auto.
Qed.

Lemma filter_rev' {A} (p : A -> bool) l : filter p (rev l) = rev (filter p l).
Proof. induction l as [|x l ih]; [reflexivity|]. cbn [rev filter]. rewrite filter_app, ih. cbn [filter]. destruct (p x); [reflexivity|apply app_nil_r]. Qed.

Lemma back_all rs seg : grouped (map displacement_of rs) -> back_run seg (rev rs) = rev (filter (fun x => String.eqb (rd_segment x) seg) rs).
Proof.
  intros hg.
  assert (hback : forall q, (forall i j k a b c, (i < j < k)%nat -> nth_error q i = Some a -> nth_error q j = Some b -> nth_error q k = Some c -> rd_segment a = rd_segment c -> rd_segment b = rd_segment a) ->
    back_run seg q = filter (fun x => String.eqb (rd_segment x) seg) q).
  { clear. assert (hh : forall q, (forall j k b c, (j < k)%nat -> nth_error q j = Some b -> nth_error q k = Some c -> rd_segment c = seg -> rd_segment b = seg) -> back_head seg q = filter (fun x => String.eqb (rd_segment x) seg) q).
    { induction q as [|x q ih]; intros h; [reflexivity|]. cbn. destruct (String.eqb_spec (rd_segment x) seg) as [e|e].
      - f_equal. apply ih. intros j k b c hl h1 h2. apply (h (S j) (S k)); [lia|assumption..].
      - symmetry. destruct (filter _ q) as [|g p] eqn:hq; [reflexivity|]. exfalso. assert (hi : In g (filter (fun x => String.eqb (rd_segment x) seg) q)) by (rewrite hq; left; reflexivity).
        apply filter_In in hi. destruct hi as [g1 g2]. apply String.eqb_eq in g2. apply In_nth_error in g1. destruct g1 as [k hk]. apply e. exact (h 0%nat (S k) x g ltac:(lia) eq_refl hk g2). }
    induction q as [|x q ih]; intros h; [reflexivity|]. cbn. destruct (String.eqb_spec (rd_segment x) seg) as [e|e].
    - f_equal. apply hh. intros j k b c hl h1 h2 h3. rewrite <- e. apply (h 0%nat (S j) (S k) x b c); [lia|reflexivity|exact h1|exact h2|congruence].
    - apply ih. intros i j k a b c hl h1 h2 h3. apply (h (S i) (S j) (S k) a b c); [lia|assumption..]. }
  rewrite hback; [apply filter_rev'|]. intros i j k a b c hl h1 h2 h3 he. 
  assert (hlen : (k < length (rev rs))%nat) by (apply nth_error_Some; congruence). rewrite rev_length in hlen.
  assert (hn : forall i, (i < length rs)%nat -> nth_error (rev rs) i = nth_error rs (length rs - S i)).
  { clear. intros i hi. destruct rs as [|x0 rs0]; [cbn in hi; lia|]. set (rs := x0 :: rs0) in *. rewrite (nth_error_nth' (rev rs) x0) by (rewrite rev_length; exact hi). rewrite (nth_error_nth' rs x0) by lia. f_equal. apply rev_nth. exact hi. }
  rewrite hn in h1, h2, h3 by lia.
  assert (hm : forall n r, nth_error rs n = Some r -> nth_error (map displacement_of rs) n = Some (displacement_of r)) by (intros n r hr; apply map_nth_error; exact hr).
  assert (q := hg (length rs - S k)%nat (length rs - S j)%nat (length rs - S i)%nat _ _ _ ltac:(lia) (hm _ _ h3) (hm _ _ h2) (hm _ _ h1)). cbn in q. rewrite he. apply q. congruence.
Qed.

(** with the files of every segment one after the other and no scenario listed twice, weighing gives the sums over all scenarios of displacement and of stiffness
    times probability *)
Theorem C121_weighted_partial s wolf node l rs : Forall2 (gives_reading s wolf node) l rs -> (forall r, In r rs -> rd_segment r <> EmptyString) ->
  grouped (map displacement_of rs) -> (forall seg, NoDup (map rd_scenario (filter (fun x => String.eqb (rd_segment x) seg) rs))) ->
  exists d d1 d2, get_results s wolf node l = Ok d /\ calculate_weighted_values d "min_disp" "w_disp" = Ok d1 /\ calculate_weighted_values d1 "stiffness" "w_stiffness" = Ok d2 /\
    forall r, In r rs -> exists sg, dget (rd_segment r) d2 = Ok sg /\
      dget "w_disp" (sg_values sg) = Ok (weighted_sum s (of_segment (rd_segment r) (map displacement_of rs))) /\
      dget "w_stiffness" (sg_values sg) = Ok (weighted_sum s (of_segment (rd_segment r) (map stiffness_of rs))).
Proof.
  intros hf hne hg hd. destruct (collected_all s wolf node l rs hf hne [] EmptyString [] eq_refl ltac:(intros r [])) as [d [h1 [h2 h3]]]. rewrite app_nil_r in h2.
  destruct (weighted_get "min_disp" "w_disp" (@sc_disp R) d ltac:(reflexivity)) as [d1 [e1 [_ e2]]].
  destruct (weighted_get "stiffness" "w_stiffness" (@sc_stiffness R) d1 ltac:(reflexivity)) as [d2 [g1 [_ g2]]].
  exists d, d1, d2. split; [exact h1|]. split; [exact e1|]. split; [exact g1|]. intros r hr.
  assert (q0 := h2 r ltac:(apply -> in_rev; exact hr)). cbv zeta in q0. destruct (e2 _ _ q0) as [sg1 [a1 [_ [a2 [a3 _]]]]]. destruct (g2 _ _ a1) as [sg2 [b1 [_ [_ [b2 b3]]]]].
  exists sg2. split; [exact b1|]. rewrite b3 by discriminate. rewrite a3, b2, a2. cbn [sg_scenarios]. rewrite back_all by exact hg.
  assert (hnd : NoDup (map rd_scenario (rev (filter (fun x => String.eqb (rd_segment x) (rd_segment r)) rs)))) by (rewrite map_rev; apply NoDup_rev; apply hd).
  rewrite (held_distinct s _ hnd), !map_rev, !rev_involutive.
  assert (hs : forall (f : scenario R -> R) (h : reading -> file R), (forall x, f (scenario_of s x) = fl_value (h x) /\ fl_segment (h x) = rd_segment x /\ fl_scenario (h x) = rd_scenario x) ->
    nsum (map (fun q => f (snd q) * sc_probability (snd q)) (map (fun r => (rd_scenario r, scenario_of s r)) (filter (fun x => String.eqb (rd_segment x) (rd_segment r)) rs))) = weighted_sum s (of_segment (rd_segment r) (map h rs))).
  { clear -hr. intros f h hh. unfold weighted_sum, of_segment. induction rs as [|x rs ih]; [reflexivity|]. clear hr. cbn [map filter]. destruct (hh x) as [u1 [u2 u3]]. rewrite u2.
    assert (ih' : nsum (map (fun q => f (snd q) * sc_probability (snd q)) (map (fun r => (rd_scenario r, scenario_of s r)) (filter (fun x => String.eqb (rd_segment x) (rd_segment r)) rs))) = nsum (map (fun f => fl_value f * probability s (fl_segment f) (fl_scenario f)) (filter (fun f => String.eqb (fl_segment f) (rd_segment r)) (map h rs)))).
    { clear -hh. induction rs as [|x rs ih]; [reflexivity|]. cbn [map filter]. destruct (hh x) as [u1 [u2 u3]]. rewrite u2. destruct (String.eqb _ _); [|exact ih]. cbn [map nsum snd]. rewrite ih, u1, u2, u3. reflexivity. }
    destruct (String.eqb _ _); [|exact ih']. cbn [map nsum snd]. rewrite ih', u1, u2, u3. reflexivity. }
  split; f_equal; apply hs; intros x; repeat split.
Qed.
Print Assumptions C121_weighted_partial.

(** files of a segment that come back after those of another one make the earlier scenarios disappear *)
Definition script_sos : sos R := [("Segment 1"%string, [("scenario 1"%string, (60, [(0, 0); (1, 0)])); ("scenario 2"%string, (40, [(0, 0); (1, 0)]))]);
                                  ("Segment 2"%string, [("scenario 1"%string, (100, [(2, 0)]))])].
Definition script_wolf : dict (list R) :=
  [("K_Segment 1_scenario 1.json"%string, [10]); ("K_Segment 1_scenario 2.json"%string, [20]); ("K_Segment 2_scenario 1.json"%string, [5; 6])].
Definition outcome_11 : outcome R := mkOutcome "K_Segment 1_scenario 1" [[0; -(1); 2]].
Definition outcome_12 : outcome R := mkOutcome "K_Segment 1_scenario 2" [[0; -(2); -(3)]].
Definition outcome_21 : outcome R := mkOutcome "K_Segment 2_scenario 1" [[-(4)]].

Theorem C121_order_refuted : exists d, get_results script_sos script_wolf 0 [outcome_11; outcome_21; outcome_12] = Ok d /\
  exists sg, dget "Segment 1" d = Ok sg /\ map fst (sg_scenarios sg) = ["scenario 2"%string].
Proof. eexists. split; [reflexivity|]. eexists. split; [cbn; reflexivity|reflexivity]. Qed.
Print Assumptions C121_order_refuted.

Lemma script_readings : Forall2 (gives_reading script_sos script_wolf 0) [outcome_11; outcome_12; outcome_21]
  [mkReading "Segment 1" "scenario 1" (-(1)) 10; mkReading "Segment 1" "scenario 2" (-(3)) 20; mkReading "Segment 2" "scenario 1" (-(4)) 5].
Proof.
  assert (nu : forall p, In p ["K"; "Segment 1"; "Segment 2"; "scenario 1"; "scenario 2"]%string -> no_underscore p) by (intros p [<-|[<-|[<-|[<-|[<-|[]]]]]]; cbn; repeat split; discriminate).
  assert (hp : forall seg sce, In seg ["Segment 1"; "Segment 2"]%string -> In sce ["scenario 1"; "scenario 2"]%string -> forall name, name = join_parts ["K"%string; seg; sce] ->
     exists pre, no_underscore pre /\ no_underscore seg /\ no_underscore sce /\ name = join_parts [pre; seg; sce]).
  { intros seg sce h1 h2 name ->. exists "K"%string. split; [apply nu; cbn; auto|]. split; [apply nu; cbn in *; tauto|]. split; [apply nu; cbn in *; tauto|reflexivity]. }
  repeat constructor.
  - apply hp; cbn; auto.
  - eexists. split; [reflexivity|]. split; [cbn; auto|]. intros x [<-|[<-|[<-|[]]]]; cbn; lra.
  - eexists. reflexivity.
  - do 2 eexists. split; reflexivity.
  - apply hp; cbn; auto.
  - eexists. split; [reflexivity|]. split; [cbn; auto|]. intros x [<-|[<-|[<-|[]]]]; cbn; lra.
  - eexists. reflexivity.
  - do 2 eexists. split; reflexivity.
  - apply hp; cbn; auto.
  - eexists. split; [reflexivity|]. split; [cbn; auto|]. intros x [<-|[]]; cbn; lra.
  - eexists. reflexivity.
  - do 2 eexists. split; reflexivity.
Qed.

Example C121_case : let rs := [mkReading "Segment 1" "scenario 1" (-(1)) 10; mkReading "Segment 1" "scenario 2" (-(3)) 20; mkReading "Segment 2" "scenario 1" (-(4)) 5] in
  Forall2 (gives_reading script_sos script_wolf 0) [outcome_11; outcome_12; outcome_21] rs /\ (forall r, In r rs -> rd_segment r <> EmptyString) /\
  grouped (map displacement_of rs) /\ (forall seg, NoDup (map rd_scenario (filter (fun x => String.eqb (rd_segment x) seg) rs))) /\
  weighted_sum script_sos (of_segment "Segment 1" (map displacement_of rs)) = -(9) / 5 /\ weighted_sum script_sos (of_segment "Segment 1" (map stiffness_of rs)) = 14.
Proof.
  cbv zeta. split; [exact script_readings|]. split; [intros r [<-|[<-|[<-|[]]]]; discriminate|]. split; [|split; [|split]].
  - intros i j k a b c hl h1 h2 h3 he. destruct i as [|[|[|i]]]; [| | |destruct i; discriminate]; (destruct j as [|[|[|j]]]; [lia| | |destruct j; discriminate]); (destruct k as [|[|[|k]]]; [lia|lia| |destruct k; discriminate]); try lia; injection h1 as <-; injection h3 as <-; discriminate.
  - intros seg. cbn [filter rd_segment]. destruct (String.eqb_spec "Segment 1" seg) as [e1|e1], (String.eqb_spec "Segment 2" seg) as [e2|e2]; cbn; try congruence; repeat constructor; cbn; intuition discriminate.
  - unfold weighted_sum, of_segment, probability; cbn; rnum; lra.
  - unfold weighted_sum, of_segment, probability; cbn; rnum; lra.
Qed.

(** ** the file for the map *)

(** a number of weighings, one after the other *)
Fixpoint weighings (l : list (string * string)) (d : dict (segment R)) : res (dict (segment R)) :=
  match l with [] => Ok d | (key, res_key) :: r => do d' <- calculate_weighted_values d key res_key ; weighings r d' end.

Lemma weigh_shape key res_key (d d' : dict (segment R)) : calculate_weighted_values d key res_key = Ok d' -> forall seg sg, In (seg, sg) d ->
  exists sg', In (seg, sg') d' /\ sg_coordinates sg' = sg_coordinates sg /\ forall k, k <> res_key -> dget k (sg_values sg') = dget k (sg_values sg).
Proof.
  revert d'. induction d as [|[a v] d ih]; intros d' h seg sg hi; [destruct hi|]. cbn [calculate_weighted_values] in h. apply rbind_ok in h. destruct h as [w [h1 h]]. apply rbind_ok in h. destruct h as [q [h2 h]]. injection h as <-.
  destruct hi as [hi|hi].
  - injection hi as -> ->. eexists. split; [left; reflexivity|]. split; [reflexivity|]. intros k hk. apply dget_dset_other. exact hk.
  - destruct (ih q h2 seg sg hi) as [sg' [g1 g2]]. exists sg'. split; [right; exact g1|exact g2].
Qed.

Lemma gis_missing (d : dict (segment R)) seg sg c name : In (seg, sg) d -> In c (sg_coordinates sg) -> In name ["w_disp"; "w_stiffness"; "dyn_stiffness"; "cum_settlement"]%string ->
  (forall v, dget name (sg_values sg) <> Ok v) -> write_gis_csv d = Err ErrOther.
Proof.
  assert (he : forall (k : string) (m : dict R), (exists v, dget k m = Ok v) \/ dget k m = Err ErrOther).
  { clear. intros k m. induction m as [|[a w] m ih]; [right; reflexivity|]. cbn. destruct (String.eqb a k); eauto. }
  intros hi hc hn hv. induction d as [|[a v] d ih]; [destruct hi|]. cbn [write_gis_csv].
  set (line := fun c0 => do a0 <- dget "w_disp" (sg_values v) ; do b <- dget "w_stiffness" (sg_values v) ; do e <- dget "dyn_stiffness" (sg_values v) ; do g <- dget "cum_settlement" (sg_values v) ; Ok (c0, a, (a0, b, e, g))).
  assert (hline : (exists q, forall c0, line c0 = Ok (c0, a, q)) \/ (forall c0, line c0 = Err ErrOther)).
  { unfold line. destruct (he "w_disp"%string (sg_values v)) as [[x1 ->]| ->]; [|right; reflexivity]. destruct (he "w_stiffness"%string (sg_values v)) as [[x2 ->]| ->]; [|right; reflexivity].
    destruct (he "dyn_stiffness"%string (sg_values v)) as [[x3 ->]| ->]; [|right; reflexivity]. destruct (he "cum_settlement"%string (sg_values v)) as [[x4 ->]| ->]; [|right; reflexivity]. left. eexists. reflexivity. }
  assert (hm : (exists rows, mapr line (sg_coordinates v) = Ok rows) \/ mapr line (sg_coordinates v) = Err ErrOther).
  { destruct hline as [[q hq]|hq]; [left; induction (sg_coordinates v) as [|y l il]; [eexists; reflexivity|]; cbn [mapr]; rewrite hq; cbn [rbind]; destruct il as [rows ->]; eexists; reflexivity|].
    destruct (sg_coordinates v) as [|y l]; [left; eexists; reflexivity|right; cbn [mapr]; rewrite hq; reflexivity]. }
  destruct hi as [hi|hi].
  - injection hi as -> ->. assert (hbad : forall c0, line c0 = Err ErrOther).
    { destruct hline as [[q hq]|hq]; [|exact hq]. exfalso. specialize (hq c). unfold line in hq. apply rbind_ok in hq. destruct hq as [x1 [q1 hq]]. apply rbind_ok in hq. destruct hq as [x2 [q2 hq]]. apply rbind_ok in hq. destruct hq as [x3 [q3 hq]]. apply rbind_ok in hq. destruct hq as [x4 [q4 hq]].
      destruct hn as [<-|[<-|[<-|[<-|[]]]]]; [exact (hv _ q1)|exact (hv _ q2)|exact (hv _ q3)|exact (hv _ q4)]. }
    destruct (sg_coordinates sg) as [|y l]; [destruct hc|]. cbn [mapr]. rewrite hbad. reflexivity.
  - destruct hm as [[rows ->]| ->]; [|reflexivity]. cbn [rbind]. rewrite (ih hi). reflexivity.
Qed.

(** nothing that collects or weighs provides the dynamic stiffness unless a weighing is stored under that name: then the file for the map cannot be written as soon as
    one segment has a coordinate *)
Theorem C121_map_refuted s wolf node l rs ws d d' r : Forall2 (gives_reading s wolf node) l rs -> (forall x, In x rs -> rd_segment x <> EmptyString) ->
  In r rs -> (forall d0 sce v, dget (rd_segment r) s = Ok d0 -> dget sce d0 = Ok v -> snd v <> []) ->
  get_results s wolf node l = Ok d -> weighings ws d = Ok d' -> (forall key, ~ In (key, "dyn_stiffness"%string) ws) \/ (forall key, ~ In (key, "cum_settlement"%string) ws) ->
  write_gis_csv d' = Err ErrOther.
Proof.
  intros hf hne hr hco hg hw hmiss. destruct (collected_all s wolf node l rs hf hne [] EmptyString [] eq_refl ltac:(intros x [])) as [d0 [h1 [h2 _]]]. rewrite app_nil_r in h2. assert (d0 = d) by (unfold get_results in hg; congruence). subst d0.
  assert (q0 := h2 r ltac:(apply -> in_rev; exact hr)). cbv zeta in q0. apply dget_in in q0. set (run := back_run (rd_segment r) (rev rs)) in *.
  assert (hc : exists c, In c (first_of s run)).
  { assert (hn : run <> []) by (apply back_run_some; exists r; split; [apply -> in_rev; exact hr|reflexivity]). unfold first_of. destruct (rev run) as [|x q] eqn:e; [exfalso; apply hn; rewrite <- (rev_involutive run), e; reflexivity|].
    assert (hx : In x run) by (apply in_rev; rewrite e; left; reflexivity). apply back_in in hx. destruct hx as [x1 x2]. apply in_rev in x1. rewrite x2.
    assert (hk : exists o, gives_reading s wolf node o x) by (clear -hf x1; induction hf as [|o y l rs q hf ih]; [destruct x1|]; destruct x1 as [->|x1]; [eauto|exact (ih x1)]). destruct hk as [o [_ [_ [_ [dd [v [k1 k2]]]]]]]. rewrite x2 in k1.
    assert (hz := hco _ _ _ k1 k2). unfold coordinates_of. rewrite k1, k2. destruct (snd v) as [|c cs]; [congruence|exists c; left; reflexivity]. }
  destruct hc as [c hc].
  assert (gen : forall name ws d d' sg, (forall key, ~ In (key, name) ws) -> weighings ws d = Ok d' -> In (rd_segment r, sg) d -> exists sg', In (rd_segment r, sg') d' /\ sg_coordinates sg' = sg_coordinates sg /\ dget name (sg_values sg') = dget name (sg_values sg)).
  { clear. intros name ws. induction ws as [|[key res_key] ws ih]; intros d d' sg hno h hi; cbn [weighings] in h; [injection h as <-; exists sg; auto|]. apply rbind_ok in h. destruct h as [d1 [h1 h]].
    destruct (weigh_shape _ _ _ _ h1 _ _ hi) as [sg1 [e1 [e2 e3]]]. destruct (ih d1 d' sg1 (fun k hk => hno k (or_intror hk)) h e1) as [sg2 [g1 [g2 g3]]]. exists sg2. split; [exact g1|]. split; [congruence|]. rewrite g3. apply e3. intros ->. exact (hno key (or_introl eq_refl)). }
  destruct hmiss as [hmiss|hmiss].
  - destruct (gen _ ws d d' _ hmiss hw q0) as [sg' [e1 [e2 e3]]]. apply (gis_missing d' (rd_segment r) sg' c "dyn_stiffness"); [exact e1|rewrite e2; exact hc|cbn; auto|]. intros v hv. rewrite e3 in hv. discriminate.
  - destruct (gen _ ws d d' _ hmiss hw q0) as [sg' [e1 [e2 e3]]]. apply (gis_missing d' (rd_segment r) sg' c "cum_settlement"); [exact e1|rewrite e2; exact hc|cbn; auto|]. intros v hv. rewrite e3 in hv. discriminate.
Qed.
Print Assumptions C121_map_refuted.

(** with the four values at hand every coordinate of every segment gets exactly its line *)
Theorem C121_map (d : dict (segment R)) : (forall seg sg, In (seg, sg) d -> forall name, In name ["w_disp"; "w_stiffness"; "dyn_stiffness"; "cum_settlement"]%string -> exists v, dget name (sg_values sg) = Ok v) ->
  exists rows, write_gis_csv d = Ok rows /\ length rows = fold_right (fun q n => (length (sg_coordinates (snd q)) + n)%nat) 0%nat d /\
    forall c seg u k y z, In (c, seg, (u, k, y, z)) rows <-> exists sg, In (seg, sg) d /\ In c (sg_coordinates sg) /\ dget "w_disp" (sg_values sg) = Ok u /\
      dget "w_stiffness" (sg_values sg) = Ok k /\ dget "dyn_stiffness" (sg_values sg) = Ok y /\ dget "cum_settlement" (sg_values sg) = Ok z.
Proof.
  induction d as [|[a v] d ih]; intros h; [exists []; split; [reflexivity|split; [reflexivity|]]; intros; split; [intros []|intros [sg [[] _]]]|].
  destruct ih as [rows [i1 [i2 i3]]]; [intros seg sg hi; exact (h seg sg (or_intror hi))|].
  destruct (h a v (or_introl eq_refl) "w_disp"%string ltac:(cbn; auto)) as [x1 h1]. destruct (h a v (or_introl eq_refl) "w_stiffness"%string ltac:(cbn; auto)) as [x2 h2].
  destruct (h a v (or_introl eq_refl) "dyn_stiffness"%string ltac:(cbn; auto)) as [x3 h3]. destruct (h a v (or_introl eq_refl) "cum_settlement"%string ltac:(cbn; auto)) as [x4 h4].
  cbn [write_gis_csv]. rewrite h1, h2, h3, h4. cbn [rbind].
  assert (hm : mapr (fun c : R * R => Ok (c, a, (x1, x2, x3, x4))) (sg_coordinates v) = Ok (map (fun c => (c, a, (x1, x2, x3, x4))) (sg_coordinates v))).
  { induction (sg_coordinates v) as [|c l il]; [reflexivity|]. cbn [mapr rbind]. rewrite il. reflexivity. }
  rewrite hm. cbn [rbind]. rewrite i1. cbn [rbind]. eexists. split; [reflexivity|]. split; [rewrite app_length, map_length; cbn [fold_right snd]; f_equal; exact i2|].
  intros c seg u k y z. rewrite in_app_iff, i3, in_map_iff. split.
  - intros [[c0 [e hc]]|[sg [g1 g2]]]; [|exists sg; split; [right; exact g1|exact g2]]. injection e as -> -> -> -> -> ->. exists v. split; [left; reflexivity|]. auto.
  - intros [sg [[g1|g1] [g2 [g3 [g4 [g5 g6]]]]]]; [|right; exists sg; auto 10]. injection g1 as -> ->. left. exists c. split; [congruence|exact g2].
Qed.
Print Assumptions C121_map.

Example C121_map_case : exists d d', get_results script_sos script_wolf 0 [outcome_11; outcome_12; outcome_21] = Ok d /\ weighings [("min_disp"%string, "w_disp"%string); ("stiffness"%string, "w_stiffness"%string)] d = Ok d' /\
  write_gis_csv d' = Err ErrOther /\
  exists d2 rows, weighings [("stiffness"%string, "dyn_stiffness"%string); ("min_disp"%string, "cum_settlement"%string)] d' = Ok d2 /\ write_gis_csv d2 = Ok rows /\ length rows = 3%nat.
Proof. do 2 eexists. split; [reflexivity|]. split; [reflexivity|]. split; [reflexivity|]. do 2 eexists. split; [reflexivity|]. split; reflexivity. Qed.
