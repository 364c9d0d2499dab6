(** * Proofs about rail defects and wheel flats *)

From Coq Require Import Reals List Bool ZArith Arith Lia Lra Psatz.
From Verif Require Import Num PyBase Model_Element Model_Irregularities Spec_Irregularities.
Import ListNotations.
Local Open Scope R_scope.

(** height of the upper half circle *)
Definition cap (r d : R) : R := sqrt (r ^ 2 - d ^ 2).

Lemma in_disc r d : 0 < r -> Rabs d <= r -> d ^ 2 <= r ^ 2.
Proof. intros hr hd. rewrite <- (pow2_abs d). apply pow_incr. split; [apply Rabs_pos|exact hd]. Qed.
Lemma cap_sq r d : 0 < r -> Rabs d <= r -> cap r d ^ 2 = r ^ 2 - d ^ 2.
Proof. intros hr hd. unfold cap. rewrite pow2_sqrt; [reflexivity|]. pose proof (in_disc r d hr hd). lra. Qed.
Lemma cap_pos r d : 0 <= cap r d.
Proof. apply sqrt_pos. Qed.

Lemma cap_concave r a b t : 0 < r -> Rabs a <= r -> Rabs b <= r -> 0 <= t <= 1 ->
  (1 - t) * cap r a + t * cap r b <= cap r ((1 - t) * a + t * b).
Proof.
  intros hr ha hb ht. pose proof (cap_sq r a hr ha) as h1. pose proof (cap_sq r b hr hb) as h2. pose proof (cap_pos r a). pose proof (cap_pos r b).
  unfold cap at 3. set (u := cap r a) in *. set (v := cap r b) in *.
  assert (hz : 0 <= (1 - t) * u + t * v) by (apply Rplus_le_le_0_compat; apply Rmult_le_pos; lra). rewrite <- (sqrt_pow2 _ hz). apply sqrt_le_1_alt.
  assert (h3 : u * v + a * b <= r ^ 2) by (pose proof (pow2_ge_0 (u - v)); pose proof (pow2_ge_0 (a - b)); nra).
  assert (h4 : 0 <= t * (1 - t) * (r ^ 2 - (u * v + a * b))) by (apply Rmult_le_pos; [apply Rmult_le_pos; lra|lra]).
  replace (((1 - t) * u + t * v) ^ 2) with ((1 - t) ^ 2 * u ^ 2 + t ^ 2 * v ^ 2 + 2 * (t * (1 - t)) * (u * v)) by ring. rewrite h1, h2. nra.
Qed.

(** a line with unit normal [(nx, ny)] and the circle *)
Section Line.
  Variables r nx ny : R.
  Hypothesis hr : 0 < r.
  Hypothesis hny : 0 < ny.
  Hypothesis hn : nx ^ 2 + ny ^ 2 = 1.
  Let s := - nx / ny.
  Let g (d : R) := s * d + cap r d.

  Lemma best_in : Rabs (- nx * r) <= r.
  Proof. assert (-1 < nx < 1) by nra. rewrite Rabs_mult, (Rabs_right r) by lra. assert (Rabs (- nx) <= 1) by (apply Rabs_le; lra). nra. Qed.
  Lemma cap_best : cap r (- nx * r) = ny * r.
  Proof. unfold cap. replace (r ^ 2 - (- nx * r) ^ 2) with ((ny * r) ^ 2) by nra. apply sqrt_pow2. nra. Qed.

  Lemma line_best d : Rabs d <= r -> g d <= g (- nx * r).
  Proof.
    intros hd. unfold g. rewrite cap_best. pose proof (cap_sq r d hr hd) as h1. pose proof (cap_pos r d) as h2. set (q := cap r d) in *.
    assert (hs : ny * s = - nx) by (unfold s; field; lra).
    assert (hcs : - nx * d + ny * q <= r).
    { assert (h3 : 2 * r * (r + nx * d - ny * q) = (d + nx * r) ^ 2 + (q - ny * r) ^ 2).
      { replace ((d + nx * r) ^ 2 + (q - ny * r) ^ 2) with (d ^ 2 + q ^ 2 + (nx ^ 2 + ny ^ 2) * r ^ 2 + 2 * r * (nx * d - ny * q)) by ring. rewrite h1, hn. ring. }
      pose proof (pow2_ge_0 (d + nx * r)). pose proof (pow2_ge_0 (q - ny * r)). assert (h4 : 0 <= 2 * r * (r + nx * d - ny * q)) by lra.
      destruct (Rle_dec (- nx * d + ny * q) r) as [c|c]; [exact c|]. nra. }
    apply (Rmult_le_reg_l ny); [exact hny|]. replace (ny * (s * d + q)) with ((ny * s) * d + ny * q) by ring.
    replace (ny * (s * (- nx * r) + ny * r)) with ((ny * s) * (- nx * r) + ny ^ 2 * r) by ring. rewrite hs. nra.
  Qed.

  Lemma line_between a b t : Rabs a <= r -> Rabs b <= r -> 0 <= t <= 1 -> (1 - t) * g a + t * g b <= g ((1 - t) * a + t * b).
  Proof. intros ha hb ht. unfold g. pose proof (cap_concave r a b t hr ha hb ht). lra. Qed.

  Lemma line_away d1 d2 : Rabs d2 <= r -> - nx * r < d1 <= d2 \/ d2 <= d1 < - nx * r -> g d2 <= g d1.
  Proof.
    intros h2 hd. destruct (Req_dec d1 d2) as [->|ne]; [lra|].
    set (t := (d1 - - nx * r) / (d2 - - nx * r)). assert (hz : d2 - - nx * r <> 0) by lra.
    assert (ht : d1 = (1 - t) * (- nx * r) + t * d2) by (unfold t; field; exact hz).
    assert (h01 : 0 <= t <= 1).
    { assert (hh : t * (d2 - - nx * r) = d1 - - nx * r) by (unfold t; field; exact hz). destruct hd as [hd|hd]; split; nra. }
    pose proof (line_between (- nx * r) d2 t best_in h2 h01) as hb. rewrite <- ht in hb. pose proof (line_best d2 h2). nra.
  Qed.
End Line.

(** ** candidates *)

Lemma nmax_R (a b : R) : nmax a b = Rmax a b.
Proof. unfold nmax. rnum. unfold Rmax. destruct (RlebP a b), (Rle_dec a b); lra. Qed.

Lemma vertex_value r x (v : R * R) : 0 < r -> Rabs (fst v - x) <= r -> vertex_height r x v = Some (snd v + cap r (fst v - x) - r).
Proof.
  intros hr h. unfold vertex_height. rewrite nabs_R, nmax_R. rewrite Rabs_minus_sym in h. rnum. destruct (RlebP (Rabs (x - fst v)) r) as [_|c]; [|lra].
  f_equal. f_equal. f_equal. unfold cap, sq. rnum. f_equal. pose proof (in_disc r (x - fst v) hr h). rewrite Rmax_right; nra.
Qed.
Lemma vertex_none r x (v : R * R) : r < Rabs (fst v - x) -> vertex_height r x v = None.
Proof. intros h. unfold vertex_height. rewrite nabs_R. rewrite Rabs_minus_sym in h. rnum. destruct (RlebP (Rabs (x - fst v)) r) as [c|_]; [lra|reflexivity]. Qed.

(** the value of a point *)
Definition lift (r x : R) (p : R * R) : R := snd p + cap r (fst p - x) - r.

Section Segment.
  Variables (r x : R) (a b : R * R).
  Hypothesis hr : 0 < r.
  Hypothesis hab : fst a <= fst b.
  Let dx := fst b - fst a.
  Let dy := snd b - snd a.
  Let len := sqrt (dx ^ 2 + dy ^ 2).

  Lemma len_sq : len ^ 2 = dx ^ 2 + dy ^ 2.
  Proof. unfold len. apply pow2_sqrt. nra. Qed.

  Lemma segment_unfold : segment_height r x a b =
    if Req_EM_T len 0 then None else
    if Rle_dec (fst a + - dy / len * r) x then
      if Rle_dec x (fst b + - dy / len * r) then Some (snd a + dx / len * r + (if Req_EM_T dx 0 then 0 else dy / dx) * (x - (fst a + - dy / len * r)) - r) else None
    else None.
  Proof.
    unfold segment_height, sq. cbv zeta. rnum. replace (sqrt (_ + _)) with len by (unfold len, dx, dy; f_equal; ring). fold dx dy.
    unfold neqb. rnum. destruct (RlebP len 0) as [c1|c1], (RlebP 0 len) as [c2|c2]; cbn [andb]; destruct (Req_EM_T len 0) as [e|e]; try lra; try reflexivity;
      destruct (RlebP (fst a + - dy / len * r) x) as [d1|d1], (Rle_dec (fst a + - dy / len * r) x) as [d2|d2]; try lra; cbn [andb]; try reflexivity;
      destruct (RlebP x (fst b + - dy / len * r)) as [d3|d3], (Rle_dec x (fst b + - dy / len * r)) as [d4|d4]; try lra; try reflexivity;
      destruct (RlebP dx 0) as [f1|f1], (RlebP 0 dx) as [f2|f2], (Req_EM_T dx 0) as [f3|f3]; cbn [andb]; try lra; reflexivity.
  Qed.

  (** a segment candidate is the lift of a point of the segment *)
  Lemma segment_point h : segment_height r x a b = Some h -> exists p, on_segment a b p /\ Rabs (fst p - x) <= r /\ h = lift r x p.
  Proof.
    rewrite segment_unfold. destruct (Req_EM_T len 0) as [e|e]; [discriminate|]. destruct (Rle_dec _ x) as [h1|]; [|discriminate]. destruct (Rle_dec x _) as [h2|]; [|discriminate].
    intros eq. inversion eq as [hh]. clear eq. pose proof len_sq as hl. assert (hlp : 0 < len) by (pose proof (sqrt_pos (dx ^ 2 + dy ^ 2)) as hsp; change (0 <= len) in hsp; lra).
    destruct (Req_EM_T dx 0) as [z|z].
    - exists a. split; [exists 0; split; [lra|]; split; ring|]. assert (hly : len ^ 2 = dy ^ 2) by (rewrite hl, z; ring).
      assert (hq : x - fst a = - dy / len * r) by (unfold dx in z; lra).
      assert (hqq : (fst a - x) ^ 2 = r ^ 2). { replace (fst a - x) with (- (x - fst a)) by ring. rewrite hq. replace ((- (- dy / len * r)) ^ 2) with (dy ^ 2 / len ^ 2 * r ^ 2) by (field; lra). rewrite hly. field. intros c. rewrite c, z in hl. nra. }
      split; [apply Rabs_le; split; nra|]. unfold lift, cap. rewrite hqq. replace (r ^ 2 - r ^ 2) with 0 by ring. rewrite sqrt_0, z. field. lra.
    - assert (hdx : 0 < dx) by (unfold dx in *; lra). set (nx := - dy / len) in *. set (ny := dx / len).
      assert (hn : nx ^ 2 + ny ^ 2 = 1). { unfold nx, ny. replace ((- dy / len) ^ 2 + (dx / len) ^ 2) with ((dx ^ 2 + dy ^ 2) / len ^ 2) by (field; lra). rewrite hl. field. rewrite <- hl. nra. }
      assert (hny : 0 < ny) by (apply Rdiv_lt_0_compat; lra).
      exists (x - nx * r, snd a + dy / dx * (x - nx * r - fst a)). split.
      + exists ((x - nx * r - fst a) / dx). cbn [fst snd]. split.
        * assert (hh2 : (x - nx * r - fst a) / dx * dx = x - nx * r - fst a) by (field; lra). unfold dx in *. split; nra.
        * unfold dx, dy. split; field; unfold dx in hdx; lra.
      + cbn [fst]. replace (x - nx * r - x) with (- nx * r) by ring. split; [apply (best_in r nx ny); auto|].
        unfold lift. cbn [fst snd]. replace (x - nx * r - x) with (- nx * r) by ring. rewrite (cap_best r nx ny) by auto. ring.
  Qed.

  (** every point of the segment is below a candidate *)
  Lemma segment_below p : on_segment a b p -> Rabs (fst p - x) <= r ->
    exists h, lift r x p <= h /\ (vertex_height r x a = Some h \/ vertex_height r x b = Some h \/ segment_height r x a b = Some h).
  Proof.
    intros [t [ht [px py]]] hp. pose proof len_sq as hl. destruct (Req_dec dx 0) as [z|z].
    - assert (e1 : fst a = fst p) by (unfold dx in z; rewrite px; nra). assert (e2 : fst b = fst p) by (unfold dx in z; rewrite px; nra).
      destruct (Rle_dec (snd a) (snd b)) as [c|c].
      + exists (snd b + cap r (fst b - x) - r). split; [unfold lift; rewrite e2; nra|]. right. left. apply vertex_value; auto. rewrite e2. exact hp.
      + exists (snd a + cap r (fst a - x) - r). split; [unfold lift; rewrite e1; nra|]. left. apply vertex_value; auto. rewrite e1. exact hp.
    - assert (hdx : 0 < dx) by (unfold dx in *; lra). assert (hlp : 0 < len) by (unfold len; apply sqrt_lt_R0; nra).
      set (nx := - dy / len). set (ny := dx / len).
      assert (hn : nx ^ 2 + ny ^ 2 = 1). { unfold nx, ny. replace ((- dy / len) ^ 2 + (dx / len) ^ 2) with ((dx ^ 2 + dy ^ 2) / len ^ 2) by (field; lra). rewrite hl. field. rewrite <- hl. nra. }
      assert (hny : 0 < ny) by (apply Rdiv_lt_0_compat; lra).
      assert (hs : - nx / ny = dy / dx) by (unfold nx, ny; field; lra).
      pose proof (best_in r nx ny hr hny hn) as hbest. assert (habs : - r <= - nx * r <= r) by (split; [pose proof (Rle_abs (- (- nx * r))); rewrite Rabs_Ropp in *; lra|pose proof (Rle_abs (- nx * r)); lra]).
      assert (hpx : - r <= fst p - x <= r) by (split; [pose proof (Rle_abs (- (fst p - x))); rewrite Rabs_Ropp in *; lra|pose proof (Rle_abs (fst p - x)); lra]).
      assert (hpab : fst a <= fst p <= fst b) by (unfold dx in hdx; rewrite px; nra).
      assert (hline : snd p = snd a + dy / dx * (fst p - fst a)). { rewrite px, py. unfold dx, dy in *. field. lra. }
      assert (hlineb : snd b = snd a + dy / dx * (fst b - fst a)). { unfold dx, dy in *. field. lra. }
      destruct (Rlt_dec (x - nx * r) (fst a)) as [c1|c1]; [|destruct (Rlt_dec (fst b) (x - nx * r)) as [c2|c2]].
      + exists (snd a + cap r (fst a - x) - r). split; [|left; apply vertex_value; auto; apply Rabs_le; lra].
        pose proof (line_away r nx ny hr hny hn (fst a - x) (fst p - x) hp ltac:(left; lra)) as hh. rewrite hs in hh. unfold lift. rewrite hline. lra.
      + exists (snd b + cap r (fst b - x) - r). split; [|right; left; apply vertex_value; auto; apply Rabs_le; lra].
        pose proof (line_away r nx ny hr hny hn (fst b - x) (fst p - x) hp ltac:(right; lra)) as hh. rewrite hs in hh. unfold lift. rewrite hline, hlineb. lra.
      + eexists. split; [|right; right; rewrite segment_unfold; fold nx ny].
        2: { destruct (Req_EM_T len 0) as [e|_]; [exfalso; lra|]. destruct (Rle_dec _ x) as [_|e]; [|exfalso; lra]. destruct (Rle_dec x _) as [_|e]; [|exfalso; lra]. destruct (Req_EM_T dx 0) as [e|_]; [exfalso; lra|]. reflexivity. }
        pose proof (line_best r nx ny hr hny hn (fst p - x) hp) as hh. cbv zeta beta in hh. rewrite (cap_best r nx ny hr hny hn), hs in hh. unfold lift. rewrite hline. lra.
  Qed.
End Segment.

(** ** the largest candidate *)

Lemma omax_spec (l : list (option R)) acc :
  match fold_left omax l acc with
  | Some m => (acc = Some m \/ In (Some m) l) /\ (forall c, acc = Some c \/ In (Some c) l -> c <= m)
  | None => acc = None /\ forall c, ~ In (Some c) l
  end.
Proof.
  revert acc. induction l as [|o l IH]; intros acc; cbn [fold_left].
  - destruct acc as [m|]; [split; [left; reflexivity|]; intros c [e|[]]; inversion e; lra|split; [reflexivity|]; intros c []].
  - specialize (IH (omax acc o)). destruct (fold_left omax l (omax acc o)) as [m|].
    + destruct IH as [h1 h2]. split.
      * destruct h1 as [h1|h1]; [|right; right; exact h1]. destruct acc as [u|], o as [v|]; cbn [omax] in h1; try (left; exact h1); try (right; left; exact h1).
        rewrite nmax_R in h1. unfold Rmax in h1. destruct (Rle_dec u v); [right; left; exact h1|left; exact h1].
      * intros c hc. assert (hh : forall u, omax acc o = Some u -> u <= m) by (intros u hu; apply h2; auto).
        destruct hc as [hc|[hc|hc]]; [| |apply h2; auto]; destruct acc as [u|], o as [v|]; cbn [omax] in hh; try discriminate; try (apply hh; congruence).
        -- inversion hc; subst. specialize (hh _ eq_refl). rewrite nmax_R in hh. pose proof (Rmax_l c v). lra.
        -- inversion hc; subst. specialize (hh _ eq_refl). rewrite nmax_R in hh. pose proof (Rmax_r u c). lra.
    + destruct IH as [h1 h2]. destruct acc as [u|], o as [v|]; cbn [omax] in h1; try discriminate. split; [reflexivity|]. intros c [e|e]; [discriminate|exact (h2 c e)].
Qed.

Lemma segments_in r x vs h : In (Some h) (segment_heights r x vs) <-> exists l a b k, vs = l ++ a :: b :: k /\ segment_height r x a b = Some h.
Proof.
  induction vs as [|a vs IH]; cbn [segment_heights]; [split; [contradiction|]; intros [l [a [b [k [e _]]]]]; destruct l; discriminate|].
  destruct vs as [|b vs].
  - split; [contradiction|]. intros [l [c [d [k [e _]]]]]. destruct l as [|? [|]]; discriminate.
  - cbn [In]. rewrite IH. split.
    + intros [e|[l [c [d [k [e1 e2]]]]]]; [exists [], a, b, vs; auto|]. exists (a :: l), c, d, k. rewrite e1. auto.
    + intros [[|a' l] [c [d [k [e1 e2]]]]]; inversion e1; subst; [left; exact e2|right; exists l, c, d, k; auto].
Qed.

Lemma rightwards_at vs l a b k : rightwards vs -> vs = l ++ a :: b :: k -> fst a <= fst b.
Proof.
  intros h ->. induction l as [|c l IH]; [exact (proj1 h)|]. apply IH. destruct l; cbn in h |- *; tauto.
Qed.
Lemma profile_at vs p : on_profile vs p <-> exists l a b k, vs = l ++ a :: b :: k /\ on_segment a b p.
Proof.
  split.
  - intros h. induction h as [a b r p h|a r p h IH]; [exists [], a, b, r; auto|]. destruct IH as [l [c [d [k [-> e]]]]]. exists (a :: l), c, d, k. auto.
  - intros [l [a [b [k [-> h]]]]]. induction l; [apply on_first; exact h|apply on_later; assumption].
Qed.

Lemma vertex_on vs v : (2 <= length vs)%nat -> In v vs -> on_profile vs v.
Proof.
  intros hl hv. apply in_split in hv. destruct hv as [l1 [l2 e]]. apply profile_at. destruct l2 as [|b k].
  - destruct (exists_last (l := l1)) as [l3 [a e3]]; [intros ->; subst; cbn in hl; lia|]. exists l3, a, v, []. split; [rewrite e, e3, <- app_assoc; reflexivity|]. exists 1. split; [lra|]. split; ring.
  - exists l1, v, b, k. split; [exact e|]. exists 0. split; [lra|]. split; ring.
Qed.

Lemma height_spec r vs x : 0 < r -> rightwards vs -> (2 <= length vs)%nat ->
  (exists p, on_profile vs p /\ Rabs (fst p - x) <= r) ->
  exists h, wheel_height r vs x = Some h /\
    (forall p, on_profile vs p -> Rabs (fst p - x) <= r -> lift r x p <= h) /\
    exists p, on_profile vs p /\ Rabs (fst p - x) <= r /\ lift r x p = h.
Proof.
  intros hr hright hl [p0 [hp0 hx0]]. unfold wheel_height. set (cs := map (vertex_height r x) vs ++ segment_heights r x vs).
  assert (hbelow : forall p, on_profile vs p -> Rabs (fst p - x) <= r -> exists h, lift r x p <= h /\ In (Some h) cs).
  { intros p hp hx. apply profile_at in hp. destruct hp as [l [a [b [k [e hs]]]]]. pose proof (rightwards_at _ _ _ _ _ hright e) as hab.
    destruct (segment_below r x a b hr hab p hs hx) as [h [h1 h2]]. exists h. split; [exact h1|]. unfold cs. apply in_app_iff. destruct h2 as [h2|[h2|h2]].
    - left. rewrite <- h2. apply in_map. rewrite e. apply in_app_iff. right. left. reflexivity.
    - left. rewrite <- h2. apply in_map. rewrite e. apply in_app_iff. right. right. left. reflexivity.
    - right. apply segments_in. exists l, a, b, k. auto. }
  pose proof (omax_spec cs None) as hm. destruct (fold_left omax cs None) as [h|].
  - destruct hm as [[hd|hin] hub]; [discriminate|]. exists h. split; [reflexivity|]. split.
    + intros p hp hx. destruct (hbelow p hp hx) as [c [c1 c2]]. pose proof (hub c (or_intror c2)). lra.
    + unfold cs in hin. apply in_app_iff in hin. destruct hin as [hin|hin].
      * apply in_map_iff in hin. destruct hin as [v [ev hv]]. exists v. split; [apply vertex_on; auto|]. destruct (Rle_dec (Rabs (fst v - x)) r) as [c|c].
        -- split; [exact c|]. rewrite (vertex_value r x v hr c) in ev. unfold lift. congruence.
        -- rewrite vertex_none in ev by lra. discriminate.
      * apply segments_in in hin. destruct hin as [l [a [b [k [e hs]]]]]. pose proof (rightwards_at _ _ _ _ _ hright e) as hab.
        destruct (segment_point r x a b hr hab h hs) as [p [h1 [h2 h3]]]. exists p. split; [apply profile_at; exists l, a, b, k; auto|]. auto.
  - exfalso. destruct (hbelow p0 hp0 hx0) as [c [_ c2]]. exact (proj2 hm c c2).
Qed.

Lemma profile_over vs x : rightwards vs -> (2 <= length vs)%nat -> fst (hd (0, 0) vs) <= x <= fst (last vs (0, 0)) -> exists p, on_profile vs p /\ fst p = x.
Proof.
  induction vs as [|a vs IH]; intros hright hl hx; [cbn in hl; lia|]. destruct vs as [|b vs]; [cbn in hl; lia|]. destruct hright as [hab hright].
  destruct (Rle_dec x (fst b)) as [c|c].
  - destruct (Req_dec (fst a) (fst b)) as [e|e].
    + exists a. split; [apply on_first; exists 0; split; [lra|]; split; ring|]. cbn [hd] in hx. lra.
    + set (t := (x - fst a) / (fst b - fst a)). exists (x, (1 - t) * snd a + t * snd b). split; [|reflexivity]. apply on_first. exists t. cbn [fst snd hd] in *.
      assert (ht : t * (fst b - fst a) = x - fst a) by (unfold t; field; lra). split; [split; nra|]. split; [|reflexivity]. nra.
  - destruct vs as [|d vs]; [cbn [last hd] in hx; lra|]. destruct IH as [p [h1 h2]]; [exact hright|cbn; lia|split; [cbn [hd]; lra|exact (proj2 hx)]|].
    exists p. split; [apply on_later; exact h1|exact h2].
Qed.

(** ** wheel flats *)

Lemma nceil_spec (x : R) : IZR (nceil x) - 1 < x <= IZR (nceil x).
Proof. unfold nceil. rnum. destruct (nfloor_spec (- x)) as [h1 h2]. rewrite opp_IZR. lra. Qed.

Lemma ceil_passes (c a b : R) : 0 < c -> (nceil (a / c)%R < nceil (b / c)%R)%Z <-> passes c a b.
Proof.
  intros hc. destruct (nceil_spec (a / c)) as [a1 a2]. destruct (nceil_spec (b / c)) as [b1 b2].
  assert (ha : a / c * c = a) by (field; lra). assert (hb : b / c * c = b) by (field; lra). split.
  - intros h. exists (nceil (a / c)). assert (hz : IZR (nceil (a / c)) <= IZR (nceil (b / c)) - 1) by (rewrite <- minus_IZR; apply IZR_le; lia). split; nra.
  - intros [k [k1 k2]]. assert (h1 : a / c <= IZR k) by nra. assert (h2 : IZR k < b / c) by nra.
    assert (h3 : (nceil (a / c)%R <= k)%Z). { apply Z.lt_succ_r. apply lt_IZR. rewrite succ_IZR. lra. }
    assert (h4 : (k < nceil (b / c)%R)%Z) by (apply lt_IZR; lra). lia.
Qed.

Lemma flat_indices_in tmp is i : In i (flat_indices tmp is) <-> In i is /\ (nth (i - 1) tmp 0%Z < nth i tmp 0%Z)%Z.
Proof.
  induction is as [|j is IH]; cbn [flat_indices]; [cbn; tauto|]. destruct (Z.ltb_spec (nth (j - 1) tmp 0%Z) (nth j tmp 0%Z)) as [h|h]; cbn [In]; rewrite IH; split.
  - intros [->|[h1 h2]]; auto.
  - intros [[->|h1] h2]; auto.
  - tauto.
  - intros [[->|h1] h2]; [lia|auto].
Qed.

Lemma lset_length {A} (l : list A) i v : length (lset l i v) = length l.
Proof. revert i. induction l as [|x l IH]; intros [|i]; cbn; auto. Qed.
Lemma lset_nth (l : list R) i v j : nth j (lset l i v) 0 = if Nat.eqb j i && Nat.ltb i (length l) then v else nth j l 0.
Proof.
  revert i j. induction l as [|x l IH]; intros [|i] [|j]; cbn [lset nth length Nat.eqb andb]; try reflexivity.
  - cbn. rewrite andb_false_r. reflexivity.
  - rewrite IH. reflexivity.
Qed.
Lemma fold_lset (v : R) is l : (forall i, In i is -> (i < length l)%nat) ->
  length (fold_left (fun l i => lset l i v) is l) = length l /\
  forall j, nth j (fold_left (fun l i => lset l i v) is l) 0 = if existsb (Nat.eqb j) is then v else nth j l 0.
Proof.
  revert l. induction is as [|i is IH]; intros l h; [split; reflexivity|]. cbn [fold_left existsb].
  destruct (IH (lset l i v)) as [h1 h2]; [intros k hk; rewrite lset_length; apply h; right; exact hk|]. rewrite lset_length in h1. split; [exact h1|].
  intros j. rewrite h2, lset_nth. assert (hi : Nat.ltb i (length l) = true) by (apply Nat.ltb_lt; apply h; left; reflexivity). rewrite hi, andb_true_r.
  destruct (Nat.eqb j i), (existsb (Nat.eqb j) is); reflexivity.
Qed.

(** by how much the positions are shifted before the revolutions are counted *)
Definition flat_offset (rng : nat -> nat -> R) (diameter : R) (start : option R) (seed : nat) : R :=
  match start with None => rng seed 0%nat * (PI * diameter) | Some s => - s end.

Lemma flat_shift rng x diameter start seed :
  match start with
  | None => map (fun p => nadd p (nmul (rng seed 0%nat) (nmul npi diameter))) x
  | Some s => map (fun p => nsub p s) x
  end = map (fun p => p + flat_offset rng diameter start seed) x.
Proof. destruct start as [s|]; apply map_ext; intros p; unfold flat_offset; rnum; cbn [npi RTrig]; lra. Qed.

Lemma map_nth_lt {A} (f : R -> A) l i d : (i < length l)%nat -> nth i (map f l) d = f (nth i l 0).
Proof. intros h. rewrite (nth_indep _ d (f 0)) by (rewrite map_length; exact h). apply map_nth. Qed.

Section Flat.
  Variables (rng : nat -> nat -> R) (x : list R) (diameter flatness : R) (start : option R) (seed : nat).
  Hypothesis hd : 0 < diameter.
  Let c := PI * diameter.
  Let off := flat_offset rng diameter start seed.
  Definition flat_at (i : nat) : Prop := (0 < i)%nat /\ (S i < length x)%nat /\ passes c (nth (i - 1) x 0 + off) (nth i x 0 + off).

  Definition flat_idx : list nat :=
    flat_indices (map (fun p => nceil (ndiv p (nmul npi diameter))) (map (fun p => p + off) x)) (seq 1 (length x - 2)).

  Lemma circ_pos : 0 < c.
  Proof. unfold c. apply Rmult_lt_0_compat; [apply PI_RGT_0|exact hd]. Qed.

  Lemma flat_idx_in i : In i flat_idx <-> flat_at i.
  Proof.
    unfold flat_idx, flat_at. rewrite flat_indices_in, in_seq. assert (hn : forall j, (j < length x)%nat -> nth j (map (fun p => nceil (ndiv p (nmul npi diameter))) (map (fun p => p + off) x)) 0%Z = nceil ((nth j x 0 + off) / c)).
    { intros j hj. rewrite map_nth_lt by (rewrite map_length; exact hj). rewrite map_nth_lt by exact hj. reflexivity. }
    split.
    - intros [h1 h2]. rewrite !hn in h2 by lia. split; [lia|]. split; [lia|]. apply ceil_passes in h2; [exact h2|exact circ_pos].
    - intros [h1 [h2 h3]]. split; [lia|]. rewrite !hn by lia. apply ceil_passes; [exact circ_pos|exact h3].
  Qed.

  Lemma flat_unfold : wheel_flat rng x diameter flatness start seed =
    match flat_idx with
    | [] => Err ErrIndex
    | _ => Ok (fold_left (fun l i => lset l i (- flat_height diameter flatness)) flat_idx (repeat 0 (length x)))
    end.
  Proof.
    unfold wheel_flat. cbv zeta. rewrite flat_shift. rewrite !map_length. reflexivity.
  Qed.

  Lemma flat_spec irr : wheel_flat rng x diameter flatness start seed = Ok irr ->
    length irr = length x /\ (forall i, flat_at i -> nth i irr 0 = - flat_height diameter flatness) /\ (forall i, ~ flat_at i -> nth i irr 0 = 0).
  Proof.
    rewrite flat_unfold. destruct flat_idx as [|i0 is] eqn:e; [discriminate|]. intros h.
    assert (h' : irr = fold_left (fun l i => lset l i (- flat_height diameter flatness)) flat_idx (repeat 0 (length x))) by (rewrite e; congruence). clear h. subst irr.
    destruct (fold_lset (- flat_height diameter flatness) flat_idx (repeat 0 (length x))) as [h1 h2].
    { intros i hi. rewrite repeat_length. apply flat_idx_in in hi. destruct hi as [_ [hi _]]. lia. }
    rewrite repeat_length in h1. split; [exact h1|]. split; intros i hi; rewrite h2.
    - assert (hx : existsb (Nat.eqb i) flat_idx = true) by (apply existsb_exists; exists i; split; [apply flat_idx_in; exact hi|apply Nat.eqb_refl]). rewrite hx. reflexivity.
    - destruct (existsb (Nat.eqb i) flat_idx) eqn:hx; [|apply nth_repeat].
      apply existsb_exists in hx. destruct hx as [j [hj ej]]. apply Nat.eqb_eq in ej. subst j. apply flat_idx_in in hj. contradiction.
  Qed.

  Lemma flat_ok : (exists irr, wheel_flat rng x diameter flatness start seed = Ok irr) <-> exists i, flat_at i.
  Proof.
    rewrite flat_unfold. destruct flat_idx as [|i0 is] eqn:e.
    - split; [intros [irr h]; discriminate|]. intros [i hi]. apply flat_idx_in in hi. rewrite e in hi. contradiction.
    - split; [|intros _; eexists; reflexivity]. intros _. exists i0. apply flat_idx_in. rewrite e. left. reflexivity.
  Qed.
  Lemma flat_err : (forall i, ~ flat_at i) -> wheel_flat rng x diameter flatness start seed = Err ErrIndex.
  Proof.
    intros h. rewrite flat_unfold. destruct flat_idx as [|i0 is] eqn:e; [reflexivity|]. exfalso. apply (h i0). apply flat_idx_in. rewrite e. left. reflexivity.
  Qed.
End Flat.

Lemma flat_height_chord diameter flatness : 0 < diameter -> 0 <= flatness <= diameter ->
  flat_height diameter flatness = diameter / 2 - sqrt ((diameter / 2) ^ 2 - (flatness / 2) ^ 2).
Proof.
  intros hd hl. unfold flat_height. rnum. cbn [ncos RTrig narcsin RArcSin]. assert (hq : flatness / diameter * diameter = flatness) by (field; lra).
  rewrite cos_asin by (split; [apply Rmult_le_reg_r with diameter|apply Rmult_le_reg_r with diameter]; lra).
  f_equal. rewrite <- (sqrt_pow2 (diameter / 2)) at 1 by lra. rewrite <- sqrt_mult_alt by (apply pow2_ge_0). f_equal. unfold Rsqr. field. lra.
Qed.

Lemma crossing (f : nat -> R) (n : nat) y : f 0%nat <= y < f n -> exists i, (0 < i <= n)%nat /\ f (i - 1)%nat <= y < f i.
Proof.
  induction n as [|n IH]; intros h; [lra|]. destruct (Rlt_dec y (f n)) as [c|c].
  - destruct IH as [i [h1 h2]]; [lra|]. exists i. split; [lia|exact h2].
  - exists (S n). split; [lia|]. replace (S n - 1)%nat with n by lia. lra.
Qed.
