(** * Proofs about particle swarm optimisation *)

From Coq Require Import Reals List Bool ZArith Arith Lia Lra Psatz.
From Verif Require Import Num PyBase Model_Accumulation Model_Swarm Spec_Swarm Proofs_System Proofs_Accumulation.
Import ListNotations.
Local Open Scope R_scope.

(** ** loops and lists *)

Lemma loop_app {S} a b (f : nat -> S -> res S) s : loop (a ++ b) f s = do s <- loop a f s ; loop b f s.
Proof. revert s. induction a as [|i a ih]; intros s; cbn; [reflexivity|]. destruct (f i s); cbn; [apply ih|reflexivity]. Qed.
Lemma loop_inv {S} n (f : nat -> S -> res S) (I : nat -> S -> Prop) s :
  (forall i s, (i < n)%nat -> I i s -> exists s', f i s = Ok s' /\ I (Datatypes.S i) s') -> I 0%nat s -> exists s', loop (seq 0 n) f s = Ok s' /\ I n s'.
Proof.
  intros hstep h0. induction n as [|n ih]; [exists s; split; [reflexivity|exact h0]|].
  destruct ih as [s1 [h1 h2]]; [intros; apply hstep; [lia|assumption]|]. destruct (hstep n s1 ltac:(lia) h2) as [s2 [h3 h4]]. exists s2. split; [|exact h4].
  rewrite seq_S, loop_app, h1. cbn. rewrite h3. reflexivity.
Qed.
Lemma loop_err {S} n m (f : nat -> S -> res S) (I : nat -> S -> Prop) e s :
  (forall i s, (i < m)%nat -> I i s -> exists s', f i s = Ok s' /\ I (Datatypes.S i) s') -> I 0%nat s -> (m < n)%nat -> (forall s, I m s -> f m s = Err e) -> loop (seq 0 n) f s = Err e.
Proof.
  intros hstep h0 hm herr. destruct (loop_inv m f I s hstep h0) as [s1 [h1 h2]]. replace n with (m + Datatypes.S (n - m - 1))%nat by lia.
  rewrite seq_app, loop_app, h1. cbn. rewrite herr by exact h2. reflexivity.
Qed.

Lemma lset_lset {A} (l : list A) i x y : lset (lset l i x) i y = lset l i y.
Proof. revert i. induction l as [|a l ih]; intros [|i]; cbn; congruence. Qed.
Lemma lset_id {A} (l : list A) i x : nth_error l i = Some x -> lset l i x = l.
Proof. revert i. induction l as [|a l ih]; intros [|i] h; cbn in *; try congruence. rewrite ih by exact h. reflexivity. Qed.
Lemma at_some {A} (l : list A) i a : nth_error l i = Some a -> at_idx l i = Ok a.
Proof. intros h. apply at_idx_ok. exact h. Qed.
Lemma at_nth {A} (l : list A) i d : (i < length l)%nat -> at_idx l i = Ok (nth i l d).
Proof. intros h. apply at_some. apply nth_error_nth'. exact h. Qed.
Lemma at_none {A} (l : list A) i : (length l <= i)%nat -> at_idx l i = Err ErrIndex.
Proof. intros h. unfold at_idx. apply nth_error_None in h. rewrite h. reflexivity. Qed.
Lemma some_lt {A} (l : list A) i a : nth_error l i = Some a -> (i < length l)%nat.
Proof. intros h. apply nth_error_Some. congruence. Qed.

Lemma map_seq_ext {A} (f g : nat -> A) n : (forall i, (i < n)%nat -> f i = g i) -> map f (seq 0 n) = map g (seq 0 n).
Proof. intros h. apply map_ext_in. intros i hi. apply in_seq in hi. apply h. lia. Qed.
Lemma map_seq_nth {A} (f : nat -> A) n i d : (i < n)%nat -> nth i (map f (seq 0 n)) d = f i.
Proof. intros h. rewrite (nth_indep _ d (f 0%nat)) by (rewrite map_length, seq_length; exact h). rewrite map_nth, seq_nth by exact h. reflexivity. Qed.
Lemma map_seq_id (l : list R) : map (fun i => nth i l 0) (seq 0 (length l)) = l.
Proof. apply (nth_ext _ _ 0 0); [rewrite map_length, seq_length; reflexivity|]. intros i hi. rewrite map_length, seq_length in hi. apply (map_seq_nth (fun i => nth i l 0)). exact hi. Qed.
Lemma lset_map_seq {A} (f : nat -> A) n i x : lset (map f (seq 0 n)) i x = map (fun k => if Nat.eqb k i then x else f k) (seq 0 n).
Proof.
  destruct n as [|n]; [destruct i; reflexivity|]. apply (nth_ext _ _ x x); [rewrite lset_length, !map_length; reflexivity|]. intros k hk. rewrite lset_length, map_length, seq_length in hk.
  rewrite map_seq_nth by exact hk. destruct (Nat.eqb_spec k i) as [->|ne].
  - apply nth_error_nth. apply lset_nth_same. rewrite map_length, seq_length. exact hk.
  - rewrite <- (map_seq_nth f (S n) k x hk). pose proof (lset_nth_other (map f (seq 0 (S n))) i k x ltac:(congruence)) as h.
    rewrite (nth_error_nth' (map f (seq 0 (S n))) x) in h by (rewrite map_length, seq_length; exact hk). apply (nth_error_nth _ _ _ h).
Qed.

(** lists being rewritten from the left *)
Definition mixed (n i : nat) (new old : nat -> R) : list R := map (fun k => if Nat.ltb k i then new k else old k) (seq 0 n).
Lemma mixed_0 n new l : length l = n -> mixed n 0 new (fun k => nth k l 0) = l.
Proof. intros <-. apply map_seq_id. Qed.
Lemma mixed_n n new old : mixed n n new old = map new (seq 0 n).
Proof. apply map_seq_ext. intros i hi. destruct (Nat.ltb_spec i n); [reflexivity|lia]. Qed.
Lemma mixed_length n i new old : length (mixed n i new old) = n.
Proof. unfold mixed. rewrite map_length, seq_length. reflexivity. Qed.
Lemma mixed_at n i new old : (i < n)%nat -> at_idx (mixed n i new old) i = Ok (old i).
Proof. intros h. rewrite (at_nth _ _ 0) by (rewrite mixed_length; exact h). unfold mixed. rewrite map_seq_nth by exact h. rewrite Nat.ltb_irrefl. reflexivity. Qed.
Lemma mixed_set n i new old : lset (mixed n i new old) i (new i) = mixed n (S i) new old.
Proof. unfold mixed. rewrite lset_map_seq. apply map_seq_ext. intros k hk. destruct (Nat.eqb_spec k i), (Nat.ltb_spec k i), (Nat.ltb_spec k (S i)); subst; try lia; reflexivity. Qed.

Lemma hget_same (h : heap R) a l i : (a < length h)%nat -> hget (lset h a l) a i = at_idx l i.
Proof. intros ha. unfold hget. rewrite (at_some _ _ _ (lset_nth_same h a l ha)). reflexivity. Qed.
Lemma hget_other (h : heap R) a b l x i : a <> b -> nth_error h b = Some x -> hget (lset h a l) b i = at_idx x i.
Proof. intros hne hb. unfold hget. rewrite (at_some _ _ x); [reflexivity|]. rewrite lset_nth_other by exact hne. exact hb. Qed.
Lemma hset_same (h : heap R) a l i x : (a < length h)%nat -> (i < length l)%nat -> hset (lset h a l) a i x = Ok (lset h a (lset l i x)).
Proof. intros ha hi. unfold hset. rewrite (at_some _ _ _ (lset_nth_same h a l ha)). cbn [rbind]. rewrite (at_nth _ _ 0 hi). cbn [rbind]. rewrite lset_lset. reflexivity. Qed.

(** ** one particle *)

Definition new_vel (draw : nat -> R) (c : nat) (g x v : list R) (i : nat) : R :=
  nth i v 0 / 2 + 2 * draw (c + 2 * i + 1)%nat * (nth i g 0 - nth i x 0).
Lemma update_velocity_spec draw n g (p : particle R) (h : heap R) c x v : p_best p = p_pos p -> p_vel p <> p_pos p ->
  nth_error h (p_pos p) = Some x -> nth_error h (p_vel p) = Some v -> length x = n -> length v = n -> (n <= length g)%nat ->
  update_velocity draw n g p (h, c) = Ok (lset h (p_vel p) (map (new_vel draw c g x v) (seq 0 n)), (c + 2 * n)%nat).
Proof.
  intros hb hne hx hv lx lv lg. unfold update_velocity. cbv zeta.
  set (I := fun i (s : heap R * nat) => s = (lset h (p_vel p) (mixed n i (new_vel draw c g x v) (fun k => nth k v 0)), (c + 2 * i)%nat)).
  match goal with |- loop _ ?f ?s = _ => destruct (loop_inv n f I s) as [s' [h1 h2]] end.
  - intros i s hi ->. eexists. split; [|reflexivity]. cbv beta iota. rewrite hb. rewrite (hget_other h _ _ _ x) by assumption. rewrite (at_nth x i 0) by lia. cbn [rbind].
    rewrite (at_nth g i 0) by lia. cbn [rbind]. rewrite hget_same by (eapply some_lt; eassumption). rewrite mixed_at by exact hi. cbn [rbind].
    rewrite hset_same by (rewrite ?mixed_length; first [exact hi|eapply some_lt; eassumption]). cbn [rbind].
    replace (S (S (c + 2 * i)))%nat with (c + 2 * S i)%nat by lia. rewrite <- mixed_set. do 4 f_equal. unfold new_vel, ndec. rnum. replace (c + 2 * i + 1)%nat with (S (c + 2 * i)) by lia. change (10 ^ 1)%Z with 10%Z. lra.
  - unfold I. rewrite mixed_0 by exact lv. rewrite lset_id by exact hv. f_equal. lia.
  - rewrite h1. unfold I in h2. rewrite h2, mixed_n. reflexivity.
Qed.

Definition new_pos (bounds : list (R * R)) (x v : list R) (i : nat) : R := clamp (nth i bounds (0, 0)) (nth i x 0 + nth i v 0).
Lemma update_position_step n bounds (p : particle R) h x v i : p_vel p <> p_pos p ->
  nth_error h (p_pos p) = Some x -> nth_error h (p_vel p) = Some v -> length x = n -> length v = n -> (i < n)%nat ->
  let s := lset h (p_pos p) (mixed n i (new_pos bounds x v) (fun k => nth k x 0)) in
  (do x <- hget s (p_pos p) i ;
      do v <- hget s (p_vel p) i ;
      do h <- hset s (p_pos p) i (nadd x v) ;
      do b <- at_idx bounds i ;
      do x <- hget h (p_pos p) i ;
      do h <- (if nltb (snd b) x then hset h (p_pos p) i (snd b) else Ok h) ;
      do x <- hget h (p_pos p) i ;
      if nltb x (fst b) then hset h (p_pos p) i (fst b) else Ok h) =
  if Nat.ltb i (length bounds) then Ok (lset h (p_pos p) (mixed n (S i) (new_pos bounds x v) (fun k => nth k x 0))) else Err ErrIndex.
Proof.
  intros hne hx hv lx lv hi s. pose proof (some_lt _ _ _ hx) as la. unfold s. clear s. set (m := mixed n i _ _).
  assert (lm : length m = n) by apply mixed_length.
  rewrite hget_same by exact la. unfold m at 1. rewrite mixed_at by exact hi. cbn [rbind]. rewrite (hget_other h _ _ _ v) by (try assumption; congruence). rewrite (at_nth v i 0) by lia. cbn [rbind].
  rewrite hset_same by (try exact la; lia). cbn [rbind]. destruct (Nat.ltb_spec i (length bounds)) as [hb|hb]; [|rewrite at_none by exact hb; reflexivity].
  rewrite (at_nth bounds i (0, 0)) by exact hb. cbn [rbind]. set (b := nth i bounds (0, 0)). set (y := nadd (nth i x 0) (nth i v 0)).
  assert (g : forall z, hget (lset h (p_pos p) (lset m i z)) (p_pos p) i = Ok z).
  { intros z. rewrite hget_same by exact la. apply at_some. apply lset_nth_same. lia. }
  assert (w : forall z z', hset (lset h (p_pos p) (lset m i z)) (p_pos p) i z' = Ok (lset h (p_pos p) (lset m i z'))).
  { intros z z'. rewrite hset_same by (rewrite ?lset_length; try exact la; lia). rewrite lset_lset. reflexivity. }
  rewrite g. cbn [rbind]. rewrite w.
  assert (e : mixed n (S i) (new_pos bounds x v) (fun k => nth k x 0) = lset m i (clamp b y)) by (unfold m; rewrite <- mixed_set; reflexivity). rewrite e. unfold clamp.
  destruct (nltbP (snd b) y) as [c1|c1]; cbn [rbind]; rewrite g; cbn [rbind]; rewrite ?w.
  - rewrite (Rmin_left (snd b) y) by (rnum; lra). destruct (nltbP (snd b) (fst b)) as [c2|c2]; [rewrite Rmax_left by (rnum; lra)|rewrite Rmax_right by (rnum; lra)]; reflexivity.
  - rewrite (Rmin_right (snd b) y) by (rnum; lra). destruct (nltbP y (fst b)) as [c2|c2]; [rewrite Rmax_left by (rnum; lra)|rewrite Rmax_right by (rnum; lra)]; reflexivity.
Qed.
Lemma update_position_spec n bounds (p : particle R) h x v : p_vel p <> p_pos p ->
  nth_error h (p_pos p) = Some x -> nth_error h (p_vel p) = Some v -> length x = n -> length v = n -> (n <= length bounds)%nat ->
  update_position n bounds p h = Ok (lset h (p_pos p) (map (new_pos bounds x v) (seq 0 n))).
Proof.
  intros hne hx hv lx lv lb. unfold update_position.
  set (I := fun i (s : heap R) => s = lset h (p_pos p) (mixed n i (new_pos bounds x v) (fun k => nth k x 0))).
  match goal with |- loop _ ?f ?s = _ => destruct (loop_inv n f I s) as [s' [h1 h2]] end.
  - intros i s hi ->. eexists. split; [|reflexivity]. cbv beta. rewrite (update_position_step n bounds p h x v i) by assumption. destruct (Nat.ltb_spec i (length bounds)); [reflexivity|lia].
  - unfold I. rewrite mixed_0 by exact lx. rewrite lset_id by exact hx. reflexivity.
  - rewrite h1. unfold I in h2. rewrite h2, mixed_n. reflexivity.
Qed.
Lemma update_position_short n bounds (p : particle R) h x v : p_vel p <> p_pos p ->
  nth_error h (p_pos p) = Some x -> nth_error h (p_vel p) = Some v -> length x = n -> length v = n -> (length bounds < n)%nat ->
  update_position n bounds p h = Err ErrIndex.
Proof.
  intros hne hx hv lx lv lb. unfold update_position.
  set (I := fun i (s : heap R) => s = lset h (p_pos p) (mixed n i (new_pos bounds x v) (fun k => nth k x 0))).
  match goal with |- loop _ ?f ?s = _ => apply (loop_err n (length bounds) f I ErrIndex s) end.
  - intros i s hi ->. eexists. split; [|reflexivity]. cbv beta. rewrite (update_position_step n bounds p h x v i) by (try assumption; lia). destruct (Nat.ltb_spec i (length bounds)); [reflexivity|lia].
  - unfold I. rewrite mixed_0 by exact lx. rewrite lset_id by exact hx. reflexivity.
  - exact lb.
  - intros s hs. unfold I in hs. rewrite hs. cbv beta. rewrite (update_position_step n bounds p h x v (length bounds)) by assumption. rewrite Nat.ltb_irrefl. reflexivity.
Qed.

(** ** best positions *)

(** the best position and error after the given evaluations *)
Definition track (cost : list R -> R) (log : list (list R)) : list R * R :=
  fold_left (fun s x => if nltb (cost x) (snd s) || neqb (snd s) (lit (-1)) then (x, cost x) else s) log ([], -1).
Lemma track_snoc cost log x : track cost (log ++ [x]) = if nltb (cost x) (snd (track cost log)) || neqb (snd (track cost log)) (lit (-1)) then (x, cost x) else track cost log.
Proof. unfold track. rewrite fold_left_app. reflexivity. Qed.
Lemma sentinel : neqb (-1) (lit (-1)) = true.
Proof. destruct (neqbP (-1) (lit (-1))) as [e|e]; [reflexivity|]. exfalso. apply e. reflexivity. Qed.
Lemma track_one cost x : track cost [x] = (x, cost x).
Proof. change [x] with ([] ++ [x]). rewrite track_snoc. change (snd (track cost [])) with (-1). rewrite sentinel, orb_true_r. reflexivity. Qed.
Lemma track_in cost log : log <> [] -> In (fst (track cost log)) log /\ snd (track cost log) = cost (fst (track cost log)).
Proof.
  induction log as [|x log ih] using rev_ind; [congruence|]. intros _. rewrite track_snoc. destruct log as [|y log].
  - change (snd (track cost [])) with (-1). assert (e : neqb (-1) (lit (-1)) = true). { destruct (neqbP (-1) (lit (-1))) as [e|e]; [reflexivity|]. exfalso. apply e. reflexivity. }
    rewrite e, orb_true_r. split; [left; reflexivity|reflexivity].
  - destruct (_ || _); [split; [apply in_or_app; right; left; reflexivity|reflexivity]|]. destruct ih as [i1 i2]; [discriminate|]. split; [apply in_or_app; left; exact i1|exact i2].
Qed.
Lemma track_best cost log : log <> [] -> (forall x, In x log -> cost x <> -1) -> is_best cost log (fst (track cost log)).
Proof.
  induction log as [|x log ih] using rev_ind; [congruence|]. intros _ hc. destruct log as [|y log].
  - exists [], []. cbn [app]. rewrite track_one. repeat split; intros z [].
  - destruct ih as [b [a [i1 [i2 i3]]]]; [discriminate|intros; apply hc; apply in_or_app; left; assumption|]. rewrite track_snoc.
    destruct (track_in cost (y :: log)) as [t1 t2]; [discriminate|]. set (t := track cost (y :: log)) in *.
    destruct (neqbP (snd t) (lit (-1))) as [e|e]. { exfalso. rewrite t2 in e. rnum. refine (hc _ _ e). apply in_or_app. left. exact t1. }
    destruct (nltbP (cost x) (snd t)) as [c|c]; cbn [orb].
    + exists (y :: log), []. split; [reflexivity|]. cbn [fst]. split; [|intros z []]. intros z hz. rewrite t2 in c. rewrite i1 in hz. apply in_app_or in hz. rnum. destruct hz as [hz|[<-|hz]]; [specialize (i2 z hz); lra|exact c|specialize (i3 z hz); lra].
    + exists b, (a ++ [x]). split; [rewrite i1, <- app_assoc; reflexivity|]. split; [exact i2|]. intros z hz. apply in_app_or in hz. destruct hz as [hz|[<-|[]]]; [apply i3; exact hz|]. rewrite t2 in c. rnum. lra.
Qed.

(** ** the swarm *)

Section Run.
  Variable cost : list R -> R.
  Variable draw : nat -> R.
  Variable bounds : list (R * R).
  Variable n P : nat.

  (** particle [j] has the position [xs j] and the velocity [vs j], and has been evaluated at [hist j] *)
  Definition rep_at (xs vs : nat -> list R) (hist : nat -> list (list R)) (s : swarm R) (j : nat) : Prop :=
    exists p, nth_error (sw_particles s) j = Some p /\ p_pos p = (3 * j)%nat /\ p_vel p = S (3 * j) /\ (hist j <> [] -> p_best p = (3 * j)%nat) /\
      p_err_best p = snd (track cost (hist j)) /\
      nth_error (sw_heap s) (3 * j) = Some (xs j) /\ nth_error (sw_heap s) (S (3 * j)) = Some (vs j) /\ length (xs j) = n /\ length (vs j) = n.
  Definition rep xs vs hist (s : swarm R) : Prop := length (sw_particles s) = P /\ forall j, (j < P)%nat -> rep_at xs vs hist s j.
  Definition tracked (s : swarm R) : Prop := (sw_best s, sw_err s) = track cost (sw_log s).

  Lemma rep_ext xs vs hist xs' vs' hist' s : rep xs vs hist s -> (forall j, (j < P)%nat -> xs j = xs' j /\ vs j = vs' j /\ hist j = hist' j) -> rep xs' vs' hist' s.
  Proof. intros [h1 h2] h. split; [exact h1|]. intros j hj. destruct (h j hj) as [e1 [e2 e3]]. destruct (h2 j hj) as [p hp]. exists p. rewrite <- e1, <- e2, <- e3. exact hp. Qed.

  Lemma evaluate_spec xs vs hist s j : rep xs vs hist s -> tracked s -> (j < P)%nat -> exists s', evaluate_particle cost j s = Ok s' /\
    rep xs vs (fun i => if Nat.eqb i j then hist i ++ [xs i] else hist i) s' /\ tracked s' /\ sw_log s' = sw_log s ++ [xs j] /\ sw_draws s' = sw_draws s.
  Proof.
    intros [h1 h2] ht hj. destruct (h2 j hj) as [p [p1 [p2 [p3 [p4 [p5 [p6 [p7 [p8 p9]]]]]]]]]. unfold evaluate_particle. rewrite (at_some _ _ _ p1). cbn [rbind]. rewrite p2, (at_some _ _ _ p6). cbn [rbind].
    unfold evaluate at 1. rewrite p2, (at_some _ _ _ p6). cbn [rbind]. rewrite p5. unfold tracked in ht.
    set (q := if nltb (cost (xs j)) (snd (track cost (hist j))) || neqb (snd (track cost (hist j))) (lit (-1))
              then {| p_pos := 3 * j; p_vel := p_vel p; p_best := 3 * j; p_err_best := cost (xs j); p_err := cost (xs j) |}
              else {| p_pos := 3 * j; p_vel := p_vel p; p_best := p_best p; p_err_best := snd (track cost (hist j)); p_err := cost (xs j) |}).
    match goal with |- context [rbind (if ?b then Ok ?x else Ok ?y) ?f] => replace (if b then Ok x else Ok y) with (Ok q) by (unfold q; destruct b; reflexivity) end. cbn [rbind].
    assert (q1 : p_pos q = (3 * j)%nat /\ p_vel q = S (3 * j) /\ p_err q = cost (xs j) /\ p_best q = (3 * j)%nat /\ p_err_best q = snd (track cost (hist j ++ [xs j]))).
    { rewrite track_snoc. unfold q. destruct (_ || _) eqn:eo; repeat split; cbn [p_pos p_vel p_best p_err_best p_err]; try assumption; try reflexivity. apply p4. intros e. rewrite e in eo. change (snd (track cost [])) with (-1) in eo.
      rewrite sentinel, orb_true_r in eo. discriminate. }
    destruct q1 as [q1 [q2 [q3 [q4 q5]]]]. clearbody q. rewrite q3.
    assert (hrep : forall b e l, rep xs vs (fun i => if Nat.eqb i j then hist i ++ [xs i] else hist i)
        {| sw_heap := sw_heap s; sw_draws := sw_draws s; sw_particles := lset (sw_particles s) j q; sw_best := b; sw_err := e; sw_log := l |}).
    { intros b e l. split; [cbn; rewrite lset_length; exact h1|]. intros i hi. unfold rep_at. cbn [sw_particles sw_heap]. destruct (Nat.eqb_spec i j) as [->|ne].
      - exists q. rewrite lset_nth_same by lia. repeat split; try assumption. intros _. exact q4.
      - destruct (h2 i hi) as [p' hp]. exists p'. rewrite lset_nth_other by congruence. exact hp. }
    assert (hs : (sw_best s, sw_err s) = track cost (sw_log s)) by exact ht. rewrite (f_equal snd hs : sw_err s = _). 
    destruct (_ || _) eqn:eo.
    - eexists. split; [reflexivity|]. split; [apply hrep|]. split; [|split; reflexivity]. unfold tracked. cbn [sw_best sw_err sw_log]. rewrite track_snoc, eo. reflexivity.
    - eexists. split; [reflexivity|]. split; [apply hrep|]. split; [|split; reflexivity]. unfold tracked. cbn [sw_best sw_err sw_log]. rewrite track_snoc, eo. rewrite (f_equal fst hs : sw_best s = _). destruct (track cost (sw_log s)). reflexivity.
  Qed.

  Lemma evaluate_all xs vs hist s : rep xs vs hist s -> tracked s -> exists s', loop (seq 0 P) (evaluate_particle cost) s = Ok s' /\
    rep xs vs (fun i => hist i ++ [xs i]) s' /\ tracked s' /\ sw_log s' = sw_log s ++ map xs (seq 0 P) /\ sw_draws s' = sw_draws s.
  Proof.
    intros hr ht. set (I := fun i s' => rep xs vs (fun k => if Nat.ltb k i then hist k ++ [xs k] else hist k) s' /\ tracked s' /\ sw_log s' = sw_log s ++ map xs (seq 0 i) /\ sw_draws s' = sw_draws s).
    destruct (loop_inv P (evaluate_particle cost) I s) as [s' [h1 [h2 [h3 [h4 h5]]]]].
    - intros i s1 hi [a1 [a2 [a3 a4]]]. destruct (evaluate_spec _ _ _ s1 i a1 a2 hi) as [s2 [b1 [b2 [b3 [b4 b5]]]]]. exists s2. split; [exact b1|]. split; [|split; [exact b3|split]].
      + eapply rep_ext; [exact b2|]. intros k hk. repeat split. destruct (Nat.eqb_spec k i), (Nat.ltb_spec k i), (Nat.ltb_spec k (S i)); subst; try lia; reflexivity.
      + rewrite b4, a3, seq_S, map_app, app_assoc. reflexivity.
      + congruence.
    - split; [exact hr|]. split; [exact ht|]. split; [cbn; rewrite app_nil_r; reflexivity|reflexivity].
    - exists s'. split; [exact h1|]. split; [|split; [exact h3|split; assumption]]. eapply rep_ext; [exact h2|]. intros k hk. repeat split. destruct (Nat.ltb_spec k P); [reflexivity|lia].
  Qed.

  Definition vel_of (c : nat) (g : list R) (xs vs : nat -> list R) (j : nat) : list R := map (new_vel draw (c + 2 * n * j) g (xs j) (vs j)) (seq 0 n).
  Definition pos_of (c : nat) (g : list R) (xs vs : nat -> list R) (j : nat) : list R := map (new_pos bounds (xs j) (vel_of c g xs vs j)) (seq 0 n).

  Lemma move_spec xs vs hist s j : rep xs vs hist s -> (j < P)%nat -> (forall i, (i < P)%nat -> hist i <> []) -> (n <= length (sw_best s))%nat ->
    let v' := map (new_vel draw (sw_draws s) (sw_best s) (xs j) (vs j)) (seq 0 n) in
    ((n <= length bounds)%nat -> exists s', move_particle draw n bounds j s = Ok s' /\
      rep (fun i => if Nat.eqb i j then map (new_pos bounds (xs j) v') (seq 0 n) else xs i) (fun i => if Nat.eqb i j then v' else vs i) hist s' /\
      sw_best s' = sw_best s /\ sw_err s' = sw_err s /\ sw_log s' = sw_log s /\ sw_draws s' = (sw_draws s + 2 * n)%nat) /\
    ((length bounds < n)%nat -> move_particle draw n bounds j s = Err ErrIndex).
  Proof.
    intros [h1 h2] hj hh hg v'. destruct (h2 j hj) as [p [p1 [p2 [p3 [p4 [p5 [p6 [p7 [p8 p9]]]]]]]]]. unfold move_particle. rewrite (at_some _ _ _ p1). cbn [rbind]. specialize (p4 (hh j hj)).
    rewrite (update_velocity_spec draw n (sw_best s) p (sw_heap s) (sw_draws s) (xs j) (vs j)); rewrite ?p2, ?p3; try assumption; try lia. cbn [rbind fst snd]. fold v'.
    assert (b1 : nth_error (lset (sw_heap s) (S (3 * j)) v') (3 * j) = Some (xs j)) by (rewrite lset_nth_other by lia; exact p6).
    assert (b2 : nth_error (lset (sw_heap s) (S (3 * j)) v') (S (3 * j)) = Some v') by (apply lset_nth_same; eapply some_lt; eassumption).
    assert (b3 : length v' = n) by (unfold v'; rewrite map_length, seq_length; reflexivity).
    split; intros hb.
    - rewrite (update_position_spec n bounds p _ (xs j) v'); rewrite ?p2, ?p3; try assumption; try lia. cbn [rbind]. eexists. split; [reflexivity|].
      split; [|repeat split]. split; [exact h1|]. intros i hi. unfold rep_at. cbn [sw_particles sw_heap]. destruct (Nat.eqb_spec i j) as [->|ne].
      + exists p. repeat split; try assumption.
        * intros _. exact p4.
        * apply lset_nth_same. eapply some_lt; eassumption.
        * rewrite lset_nth_other by lia. exact b2.
        * rewrite map_length, seq_length. reflexivity.
      + destruct (h2 i hi) as [p' hp]. exists p'. rewrite !lset_nth_other by lia. exact hp.
    - rewrite (update_position_short n bounds p _ (xs j) v'); rewrite ?p2, ?p3; try assumption; try lia. reflexivity.
  Qed.

  Lemma move_all xs vs hist s : rep xs vs hist s -> (forall i, (i < P)%nat -> hist i <> []) -> ((0 < P)%nat -> (n <= length (sw_best s))%nat) -> (n <= length bounds)%nat ->
    exists s', loop (seq 0 P) (move_particle draw n bounds) s = Ok s' /\
      rep (pos_of (sw_draws s) (sw_best s) xs vs) (vel_of (sw_draws s) (sw_best s) xs vs) hist s' /\
      sw_best s' = sw_best s /\ sw_err s' = sw_err s /\ sw_log s' = sw_log s /\ sw_draws s' = (sw_draws s + 2 * n * P)%nat.
  Proof.
    intros hr hh hg hb. set (c := sw_draws s). set (g := sw_best s).
    set (I := fun i s' => rep (fun k => if Nat.ltb k i then pos_of c g xs vs k else xs k) (fun k => if Nat.ltb k i then vel_of c g xs vs k else vs k) hist s' /\
      sw_best s' = g /\ sw_err s' = sw_err s /\ sw_log s' = sw_log s /\ sw_draws s' = (c + 2 * n * i)%nat).
    destruct (loop_inv P (move_particle draw n bounds) I s) as [s' [h1 [h2 [h3 [h4 [h5 h6]]]]]].
    - intros i s1 hi [a1 [a2 [a3 [a4 a5]]]]. destruct (move_spec _ _ _ s1 i a1 hi hh) as [hm _]; [rewrite a2; apply hg; lia|]. destruct (hm hb) as [s2 [b1 [b2 [b3 [b4 [b5 b6]]]]]]. exists s2. split; [exact b1|].
      split; [|repeat split; try congruence; rewrite b6, a5; lia]. eapply rep_ext; [exact b2|]. intros k hk. rewrite a2, a5. cbv beta. rewrite Nat.ltb_irrefl.
      destruct (Nat.eqb_spec k i) as [e|ne]; [subst k; destruct (Nat.ltb_spec i (S i)); [repeat split|lia]|]. destruct (Nat.ltb_spec k i), (Nat.ltb_spec k (S i)); try lia; repeat split.
    - split; [exact hr|]. repeat split; unfold c; lia.
    - exists s'. split; [exact h1|]. split; [|repeat split; assumption]. eapply rep_ext; [exact h2|]. intros k hk. repeat split; destruct (Nat.ltb_spec k P); try lia; reflexivity.
  Qed.

  (** ** all iterations *)

  (** positions, velocities and evaluated positions before iteration [k] *)
  Fixpoint traj (x0 : list R) (k : nat) : (nat -> list R) * (nat -> list R) * list (list R) :=
    match k with
    | O => (fun _ => x0, fun j => map (fun i => uniform_pm1 (draw (j * n + i)%nat)) (seq 0 n), [])
    | S k => let '(xs, vs, log) := traj x0 k in
             let log' := log ++ map xs (seq 0 P) in
             let c := (P * n + 2 * n * (k * P))%nat in
             let g := fst (track cost log') in
             (pos_of c g xs vs, vel_of c g xs vs, log')
    end.
  Definition X x0 k := fst (fst (traj x0 k)).
  Definition V x0 k := snd (fst (traj x0 k)).
  Definition L x0 k := snd (traj x0 k).
  Lemma L_S x0 k : L x0 (S k) = L x0 k ++ map (X x0 k) (seq 0 P).
  Proof. unfold L, X. cbn [traj]. destruct (traj x0 k) as [[xs vs] log]. reflexivity. Qed.
  Lemma V_S x0 k : V x0 (S k) = vel_of (P * n + 2 * n * (k * P)) (fst (track cost (L x0 (S k)))) (X x0 k) (V x0 k).
  Proof. unfold V, L, X. cbn [traj]. destruct (traj x0 k) as [[xs vs] log]. reflexivity. Qed.
  Lemma X_S x0 k : X x0 (S k) = pos_of (P * n + 2 * n * (k * P)) (fst (track cost (L x0 (S k)))) (X x0 k) (V x0 k).
  Proof. unfold V, L, X. cbn [traj]. destruct (traj x0 k) as [[xs vs] log]. reflexivity. Qed.
  Lemma X_length x0 k j : length x0 = n -> length (X x0 k j) = n.
  Proof. intros h. destruct k; [exact h|]. rewrite X_S. unfold pos_of. rewrite map_length, seq_length. reflexivity. Qed.
  Lemma L_length x0 k : length (L x0 k) = (k * P)%nat.
  Proof. induction k as [|k ih]; [reflexivity|]. rewrite L_S, app_length, ih, map_length, seq_length. lia. Qed.
  Lemma L_nth x0 k j K d : (k < K)%nat -> (j < P)%nat -> nth (k * P + j) (L x0 K) d = X x0 k j.
  Proof.
    intros hk hj. induction K as [|K ih]; [lia|]. rewrite L_S. destruct (Nat.eq_dec k K) as [->|ne].
    - rewrite app_nth2 by (rewrite L_length; lia). rewrite L_length. replace (K * P + j - K * P)%nat with j by lia. apply map_seq_nth. exact hj.
    - rewrite app_nth1 by (rewrite L_length; nia). apply ih. lia.
  Qed.
  Lemma L_in x0 K x : In x (L x0 K) -> exists k j, (k < K)%nat /\ (j < P)%nat /\ x = X x0 k j.
  Proof.
    induction K as [|K ih]; [intros []|]. rewrite L_S. intros h. apply in_app_or in h. destruct h as [h|h].
    - destruct (ih h) as [k [j [h1 [h2 h3]]]]. exists k, j. repeat split; try assumption; lia.
    - apply in_map_iff in h. destruct h as [j [<- hj]]. apply in_seq in hj. exists K, j. repeat split; lia.
  Qed.
  Definition H (x0 : list R) (k j : nat) : list (list R) := map (fun i => X x0 i j) (seq 0 k).

  Definition at_iter (x0 : list R) (k : nat) (s : swarm R) : Prop :=
    rep (X x0 k) (V x0 k) (H x0 k) s /\ tracked s /\ sw_log s = L x0 k /\ sw_draws s = (P * n + 2 * n * (k * P))%nat.

  Lemma iteration_spec x0 k s : length x0 = n -> at_iter x0 k s ->
    ((n <= length bounds)%nat -> exists s', iteration cost draw n bounds P s = Ok s' /\ at_iter x0 (S k) s') /\
    ((length bounds < n)%nat -> (0 < P)%nat -> iteration cost draw n bounds P s = Err ErrIndex).
  Proof.
    intros hx [a1 [a2 [a3 a4]]]. unfold iteration. destruct (evaluate_all _ _ _ s a1 a2) as [s1 [b1 [b2 [b3 [b4 b5]]]]]. rewrite b1. cbn [rbind].
    assert (hl : sw_log s1 = L x0 (S k)) by (rewrite b4, a3, L_S; reflexivity).
    assert (hbest : (0 < P)%nat -> (n <= length (sw_best s1))%nat).
    { intros hP. assert (e : sw_best s1 = fst (track cost (L x0 (S k)))) by (rewrite <- hl; rewrite <- b3; reflexivity). rewrite e.
      destruct (track_in cost (L x0 (S k))) as [t _]; [intros e'; apply (f_equal (@length _)) in e'; rewrite L_length in e'; cbn in e'; lia|].
      apply L_in in t. destruct t as [k' [j' [_ [_ ->]]]]. rewrite X_length by exact hx. lia. }
    assert (hh : forall i, (i < P)%nat -> (fun i => H x0 k i ++ [X x0 k i]) i <> []) by (intros i _ e; destruct (H x0 k i); discriminate).
    split.
    - intros hb. destruct (move_all _ _ _ s1 b2 hh hbest hb) as [s2 [c1 [c2 [c3 [c4 [c5 c6]]]]]]. exists s2. split; [exact c1|].
      split; [|split; [|split; [congruence|rewrite c6, b5, a4; lia]]].
      + eapply rep_ext; [exact c2|]. intros j hj. rewrite X_S, V_S. rewrite b5, a4. assert (e : sw_best s1 = fst (track cost (L x0 (S k)))) by (rewrite <- hl; rewrite <- b3; reflexivity). rewrite e.
        split; [reflexivity|]. split; [reflexivity|]. unfold H. rewrite seq_S, map_app. reflexivity.
      + unfold tracked in *. rewrite c3, c4, c5. exact b3.
    - intros hb hP. apply (loop_err P 0 _ (fun _ s => s = s1)); [intros; lia|reflexivity|exact hP|]. intros s' ->.
      destruct (move_spec _ _ _ s1 0%nat b2 hP hh (hbest hP)) as [_ m]. apply m. exact hb.
  Qed.
  Lemma iterations_spec x0 m : length x0 = n -> (n <= length bounds)%nat -> forall k s, at_iter x0 k s -> exists s', iterations cost draw n bounds P m s = Ok s' /\ at_iter x0 (k + m) s'.
  Proof.
    intros hx hb. induction m as [|m ih]; intros k s hs; cbn [iterations].
    - exists s. rewrite Nat.add_0_r. auto.
    - destruct (iteration_spec x0 k s hx hs) as [h _]. destruct (h hb) as [s1 [h1 h2]]. rewrite h1. cbn [rbind]. destruct (ih (S k) s1 h2) as [s2 [h3 h4]]. exists s2. split; [exact h3|]. replace (k + S m)%nat with (S k + m)%nat by lia. exact h4.
  Qed.

  Lemma new_particles_spec x0 num : forall h c, length x0 = n -> exists h', exists ps, new_particles draw x0 num h c = (h ++ h', (c + num * n)%nat, ps) /\ length ps = num /\ length h' = (3 * num)%nat /\
    forall j, (j < num)%nat -> exists p, nth_error ps j = Some p /\ p_pos p = (length h + 3 * j)%nat /\ p_vel p = S (length h + 3 * j) /\ p_err_best p = -1 /\
      nth_error h' (3 * j) = Some x0 /\ nth_error h' (S (3 * j)) = Some (map (fun i => uniform_pm1 (draw (c + j * n + i)%nat)) (seq 0 n)).
  Proof.
    induction num as [|num ih]; intros h c hx.
    - exists [], []. cbn [new_particles]. rewrite app_nil_r. split; [f_equal; f_equal; lia|]. repeat split. intros j hj. lia.
    - cbn [new_particles]. unfold new_particle. rewrite hx. set (new := [x0; _; _]). destruct (ih (h ++ new) (c + n)%nat hx) as [h' [ps [i1 [i2 [i4 i3]]]]]. rewrite i1.
      exists (new ++ h'). eexists. split; [rewrite app_assoc; f_equal; f_equal; lia|]. split; [cbn [length]; congruence|]. split; [rewrite app_length, i4; cbn [new length]; lia|]. intros [|j] hj.
      + eexists. split; [reflexivity|]. cbn [p_pos p_vel p_err_best]. repeat split; try lia. transitivity (Some (map (fun i => uniform_pm1 (draw (c + i)%nat)) (seq 0 n))); [reflexivity|]. apply f_equal. apply map_seq_ext. intros i _. do 2 f_equal. lia.
      + destruct (i3 j ltac:(lia)) as [p [q1 [q2 [q3 [q4 [q5 q6]]]]]]. exists p. rewrite app_length in q2, q3. cbn [new length] in q2, q3. split; [exact q1|]. split; [lia|]. split; [lia|]. split; [exact q4|].
        replace (3 * S j)%nat with (3 + 3 * j)%nat by lia. split; [exact q5|]. transitivity (nth_error h' (S (3 * j))); [reflexivity|]. rewrite q6. apply f_equal. apply map_seq_ext. intros i _. do 2 f_equal. lia.
  Qed.
  Lemma new_swarm_spec x0 : length x0 = n -> at_iter x0 0 (new_swarm draw x0 P).
  Proof.
    intros hx. unfold new_swarm. destruct (new_particles_spec x0 P [] 0 hx) as [h' [ps [h1 [h2 [_ h3]]]]]. rewrite h1.
    split; [|split; [reflexivity|split; [reflexivity|cbn; lia]]]. split; [exact h2|]. intros j hj. destruct (h3 j hj) as [p [q1 [q2 [q3 [q4 [q5 q6]]]]]]. cbn [length Nat.add] in q2, q3, q6.
    exists p. cbn [sw_particles sw_heap app]. repeat split; try assumption.
    - intros e. exfalso. apply e. reflexivity.
    - unfold V. cbn. rewrite map_length, seq_length. reflexivity.
  Qed.
  Lemma pso_spec x0 K : length x0 = n -> (n <= length bounds)%nat -> exists s, pso cost draw x0 bounds P K = Ok s /\ at_iter x0 K s.
  Proof. intros hx hb. unfold pso. rewrite hx. apply (iterations_spec x0 K hx hb 0%nat). apply new_swarm_spec. exact hx. Qed.
  Lemma pso_short x0 K : length x0 = n -> (length bounds < n)%nat -> (0 < P)%nat -> (0 < K)%nat -> pso cost draw x0 bounds P K = Err ErrIndex.
  Proof.
    intros hx hb hP hK. unfold pso. rewrite hx. destruct K as [|K]; [lia|]. cbn [iterations]. destruct (iteration_spec x0 0 _ hx (new_swarm_spec x0 hx)) as [_ h]. rewrite h by assumption. reflexivity.
  Qed.
  Lemma empty_iterations m s : P = 0%nat -> iterations cost draw n bounds P m s = Ok s.
  Proof. intros ->. induction m as [|m ih]; [reflexivity|]. exact ih. Qed.
  (** in every case *)
  Lemma pso_inv x0 K s : length x0 = n -> pso cost draw x0 bounds P K = Ok s -> at_iter x0 K s.
  Proof.
    intros hx h. destruct (le_lt_dec n (length bounds)) as [hb|hb].
    - destruct (pso_spec x0 K hx hb) as [s' [h1 h2]]. congruence.
    - destruct (Nat.eq_dec K 0) as [->|hK].
      { unfold pso in h. cbn in h. assert (s = new_swarm draw x0 P) as -> by congruence. apply new_swarm_spec. exact hx. }
      destruct (Nat.eq_dec P 0) as [hP|hP].
      { unfold pso in h. rewrite hx, empty_iterations in h by exact hP. assert (s = new_swarm draw x0 P) as -> by congruence. destruct (new_swarm_spec x0 hx) as [[a1 a2] [a3 [a4 a5]]].
        split; [split; [exact a1|intros j hj; lia]|]. split; [exact a3|]. split; [|rewrite a5, hP; lia]. rewrite a4. symmetry. apply length_zero_iff_nil. rewrite L_length. lia. }
      rewrite (pso_short x0 K) in h by (try assumption; lia). discriminate.
  Qed.

  Lemma trajectory x0 : length x0 = n -> motion draw x0 bounds P (fun k j i => nth i (X x0 k j) 0) (fun k j i => nth i (V x0 k j) 0) (fun k => fst (track cost (L x0 (S k)))).
  Proof.
    intros hx. unfold motion. rewrite hx. cbv zeta. split.
    - intros j i hj hi. split; [reflexivity|]. unfold V. cbn [traj fst snd]. rewrite map_seq_nth by exact hi. unfold uniform_pm1. rnum. lra.
    - intros k j i hj hi. rewrite V_S, X_S. unfold pos_of. rewrite map_seq_nth by exact hi. unfold new_pos. unfold vel_of at 1 3. rewrite map_seq_nth by exact hi. unfold new_vel at 1 2.
      split; [|].
      + replace (P * n + 2 * n * (k * P) + 2 * n * j + 2 * i + 1)%nat with (P * n + 2 * ((k * P + j) * n + i) + 1)%nat by ring. reflexivity.
      + unfold vel_of. rewrite map_seq_nth by exact hi. reflexivity.
  Qed.
  Lemma within_bounds x0 k j : length x0 = n -> (forall i, (i < n)%nat -> fst (nth i bounds (0, 0)) <= snd (nth i bounds (0, 0))) -> within bounds x0 -> (j < P)%nat -> within bounds (X x0 k j).
  Proof.
    intros hx hb h0 hj. destruct k as [|k]; [exact h0|]. intros i hi. rewrite X_length in hi by exact hx. specialize (hb i hi). rewrite X_S. unfold pos_of. rewrite map_seq_nth by exact hi. unfold new_pos, clamp.
    set (b := nth i bounds (0, 0)) in *. set (y := _ + _). unfold Rmax, Rmin. destruct (Rle_dec (snd b) y); destruct (Rle_dec _ _); lra.
  Qed.
End Run.
