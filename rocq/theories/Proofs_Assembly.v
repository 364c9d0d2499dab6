(** * Energy, symmetry and sign of the matrices of a whole system *)

From Coq Require Import Reals List Bool ZArith Arith Lia Lra Psatz.
From Verif Require Import Num PyBase Model_Geometry Model_System Spec_System Proofs_Dof Proofs_System Model_Element Spec_Element
  Proofs_Elements Proofs_Element Proofs_Beam Proofs_Force Model_Accumulation Proofs_Accumulation Model_Track Spec_Track Proofs_Track.
Import ListNotations.
Local Open Scope R_scope.

(** ** quadratic forms *)

Lemma quad_mulv n m x : quad n m x = sumn n (fun i => x i * mulv n m x i).
Proof.
  unfold quad, mulv. apply sumn_ext. intros i hi. rewrite <- sumn_scal. apply sumn_ext. intros j hj. ring.
Qed.

Lemma quad_ext_vec n m x y : (forall i, (i < n)%nat -> x i = y i) -> quad n m x = quad n m y.
Proof. intros h. unfold quad. apply sumn_ext. intros i hi. apply sumn_ext. intros j hj. rewrite !h by assumption. reflexivity. Qed.

Lemma mulv_ext_vec n m x y i : (forall j, (j < n)%nat -> x j = y j) -> mulv n m x i = mulv n m y i.
Proof. intros h. unfold mulv. apply sumn_ext. intros j hj. rewrite h by assumption. reflexivity. Qed.

Lemma quad_congruence n (r a : nat -> nat -> R) x :
  quad n (mmul n r (mmul n a (mtrans r))) x = quad n a (mulv n (mtrans r) x).
Proof.
  rewrite !quad_mulv.
  transitivity (sumn n (fun i => sumn n (fun j => x i * r i j * mulv n a (mulv n (mtrans r) x) j))).
  - apply sumn_ext. intros i hi. rewrite mulv_mmul. unfold mulv at 1. rewrite <- sumn_scal. apply sumn_ext. intros j hj.
    rewrite mulv_mmul. ring.
  - rewrite sumn_swap. apply sumn_ext. intros j hj. rewrite (sumn_scal_r n (mulv n a (mulv n (mtrans r) x) j)). f_equal.
    unfold mulv, mtrans. apply sumn_ext. intros i hi. ring.
Qed.

Lemma sym_congruence n (r a : nat -> nat -> R) : msym n a -> msym n (mmul n r (mmul n a (mtrans r))).
Proof.
  intros h i j hi hj. unfold mmul, mtrans. rnum.
  transitivity (sumn n (fun k => sumn n (fun l => r i k * (a k l * r j l)))).
  - apply sumn_ext. intros k hk. rewrite sumn_scal. reflexivity.
  - rewrite sumn_swap. apply sumn_ext. intros k hk. rewrite <- sumn_scal. apply sumn_ext. intros l hl. rewrite (h l k) by assumption. ring.
Qed.

Lemma rotate_back (t : R) (u : nat -> R) i : (i < 6)%nat ->
  mulv 6 (mtrans (rotation_matrix t)) u i =
  vec6 (along t (u 0%nat) (u 1%nat)) (across t (u 0%nat) (u 1%nat)) (u 2%nat)
       (along t (u 3%nat) (u 4%nat)) (across t (u 3%nat) (u 4%nat)) (u 5%nat) i.
Proof.
  intros hi. unfold mulv, mtrans, along, across. cbn [sumn]. rewrite !rotation_matrix_entries by lia.
  do 6 (destruct i as [|i]; [cbn [vec6]; rnum; ring|]). lia.
Qed.

(** ** reshaped matrices *)

Lemma rod_reshape (m : nat -> nat -> R) i j : (i < 6)%nat -> (j < 6)%nat ->
  me (reshape_aux_matrix 2 [true; false; false] m) i j =
  match i, j with 0%nat, 0%nat => m 0%nat 0%nat | 0%nat, 3%nat => m 0%nat 1%nat | 3%nat, 0%nat => m 1%nat 0%nat | 3%nat, 3%nat => m 1%nat 1%nat | _, _ => 0 end.
Proof. intros hi hj. do 6 (destruct i as [|i]; [do 6 (destruct j as [|j]; [reflexivity|]); lia|]). lia. Qed.

Lemma rod_reshape_quad (m : nat -> nat -> R) u :
  quad 6 (me (reshape_aux_matrix 2 [true; false; false] m)) u = quad 2 m (fun i => match i with O => u 0%nat | _ => u 3%nat end).
Proof.
  rewrite (quad_ext 6 _ _ u (rod_reshape m)). unfold quad. cbn [sumn]. rnum. ring.
Qed.

Lemma point_reshape (m : nat -> nat -> R) i j : (i < 3)%nat -> (j < 3)%nat ->
  me (reshape_aux_matrix 1 [false; true; false] m) i j = match i, j with 1%nat, 1%nat => m 0%nat 0%nat | _, _ => 0 end.
Proof. intros hi hj. do 3 (destruct i as [|i]; [do 3 (destruct j as [|j]; [reflexivity|]); lia|]). lia. Qed.

Lemma point_reshape_quad (m : nat -> nat -> R) u :
  quad 3 (me (reshape_aux_matrix 1 [false; true; false] m)) u = m 0%nat 0%nat * (u 1%nat * u 1%nat).
Proof. rewrite (quad_ext 3 _ _ u (point_reshape m)). unfold quad. cbn [sumn]. rnum. ring. Qed.

(** ** contributions *)

Definition node_dofs (p : nat) : list nat := [3 * p; 3 * p + 1; 3 * p + 2]%nat.

Lemma node_at_from (ns : list (node R)) i n : node_at (number_from 0 ns) i = Ok n ->
  (i < length ns)%nat /\ node_numbers n = Ok (node_dofs i) /\ (tx (n_coord n), ty (n_coord n)) = xy ns i.
Proof.
  intros h. apply at_idx_ok in h.
  assert (hi : (i < length ns)%nat) by (rewrite <- (number_from_length ns 0); apply nth_error_Some; congruence).
  destruct (nth_error ns i) as [a|] eqn:ea; [|apply nth_error_None in ea; lia].
  rewrite (number_from_nth ns 0 i a ea) in h. injection h as <-. split; [exact hi|]. unfold node_numbers, node_dofs, xy. rewrite ea. cbn [n_dof n_coord].
  split; reflexivity.
Qed.

Lemma node_at_in (ns : list (node R)) i : (i < length ns)%nat -> exists n, node_at (number_from 0 ns) i = Ok n.
Proof.
  intros h. rewrite <- (number_from_length ns 0) in h. apply nth_error_Some in h. unfold node_at, at_idx.
  destruct (nth_error (number_from 0 ns) i) as [n|]; [eauto|congruence].
Qed.

(** all nodes a part refers to *)
Definition part_refs (p : epart R) : list nat :=
  match ep_els p with [] => ep_nodes p | es => flat_map (fun e => [fst e; snd e]) es end.

Definition contribution (ns : list (node R)) (k : kind R) (aux : nat -> nat -> R) (e : nat * nat) : list nat * (nat -> nat -> R) :=
  (node_dofs (fst e) ++ node_dofs (snd e),
   match k with KPoint _ => aux | _ => rotate_aux_matrix (xy ns (fst e)) (xy ns (snd e)) aux end).

Lemma contributions_val (ns : list (node R)) p aux : (forall i, In i (part_refs p) -> (i < length ns)%nat) ->
  contributions (number_from 0 ns) p aux = Ok
    (match ep_els p with [] => map (fun i => (node_dofs i, aux)) (ep_nodes p) | es => map (contribution ns (ep_kind p) aux) es end).
Proof.
  intros h. unfold contributions, part_refs in *. destruct (ep_els p) as [|e es].
  - apply mapr_map. intros i hi. destruct (node_at_in ns i (h i hi)) as [n hn]. destruct (node_at_from ns i n hn) as [_ [h2 _]].
    rewrite hn. cbn [rbind]. rewrite h2. reflexivity.
  - apply mapr_map. intros [a b] hi.
    assert (ha : (a < length ns)%nat) by (apply h; apply in_flat_map; exists (a, b); split; [exact hi|left; reflexivity]).
    assert (hb : (b < length ns)%nat) by (apply h; apply in_flat_map; exists (a, b); split; [exact hi|right; left; reflexivity]).
    destruct (node_at_in ns a ha) as [n hn]. destruct (node_at_from ns a n hn) as [_ [h2 h3]].
    destruct (node_at_in ns b hb) as [m hm]. destruct (node_at_from ns b m hm) as [_ [h4 h5]].
    cbn [fst snd]. rewrite hn. cbn [rbind]. rewrite hm. cbn [rbind]. rewrite h2. cbn [rbind]. rewrite h4. cbn [rbind].
    unfold contribution, rotated. cbn [fst snd]. rewrite h3, h5. reflexivity.
Qed.

Lemma contributions_in (ns : list (node R)) p aux cs : contributions (number_from 0 ns) p aux = Ok cs ->
  forall i, In i (part_refs p) -> (i < length ns)%nat.
Proof.
  unfold contributions, part_refs. destruct (ep_els p) as [|e es]; intros h i hi.
  - apply mapr_spec in h. revert hi. induction h as [|a b l m h1 h2 IH]; intros hi; [destruct hi|].
    destruct hi as [->|hi]; [|apply IH; exact hi]. unbind h1. apply node_at_from in hv. apply hv.
  - apply mapr_spec in h. apply in_flat_map in hi. destruct hi as [x [hx hi]]. revert hx.
    induction h as [|a b l m h1 h2 IH]; intros hx; [destruct hx|]. destruct hx as [->|hx]; [|apply IH; exact hx].
    unbind h1. unbind h1. apply node_at_from in hv, hv0. destruct hi as [<-|[<-|[]]]; [apply hv|apply hv0].
Qed.

Lemma contributions_lt (ns : list (node R)) p aux cs : contributions (number_from 0 ns) p aux = Ok cs ->
  forall c k, In c cs -> In k (fst c) -> (k < 3 * length ns)%nat.
Proof.
  intros h c k hc hk. pose proof (contributions_in _ _ _ _ h) as hin. rewrite (contributions_val _ _ _ hin) in h. injection h as <-.
  unfold part_refs in hin. destruct (ep_els p) as [|e es].
  - apply in_map_iff in hc. destruct hc as [i [<- hi]]. cbn [fst] in hk. apply hin in hi. unfold node_dofs in hk. cbn [In] in hk. lia.
  - change (In c (map (contribution ns (ep_kind p) aux) (e :: es))) in hc. apply in_map_iff in hc. destruct hc as [i [<- hi]]. cbn [fst contribution] in hk.
    assert (h1 : (fst i < length ns)%nat) by (apply hin; apply in_flat_map; exists i; split; [exact hi|left; reflexivity]).
    assert (h2 : (snd i < length ns)%nat) by (apply hin; apply in_flat_map; exists i; split; [exact hi|right; left; reflexivity]).
    apply in_app_iff in hk. unfold node_dofs in hk. cbn [In] in hk. lia.
Qed.

(** the field of a vector on all degrees of freedom *)
Definition whole (x : nat -> R) (p : nat) (d : dir) : R := x (3 * p + dir_idx d)%nat.

Lemma rotated_quad (ns : list (node R)) aux e x :
  quad 6 (rotate_aux_matrix (xy ns (fst e)) (xy ns (snd e)) aux) (fun k => x (nth k (node_dofs (fst e) ++ node_dofs (snd e)) 0%nat))
  = quad 6 aux (local6 (calculate_rotation1 (xy ns (fst e), xy ns (snd e))) (whole x) (fst e) (snd e)).
Proof.
  unfold rotate_aux_matrix. rewrite quad_congruence. apply quad_ext_vec. intros i hi. rewrite rotate_back by exact hi.
  unfold local6, whole, dir_idx, node_dofs. cbn [app nth]. rewrite !Nat.add_0_r. reflexivity.
Qed.

Lemma contributions_energy (ns : list (node R)) p m cs x : shaped p -> contributions (number_from 0 ns) p (reshaped p m) = Ok cs ->
  nsum (map (fun c => quad (length (fst c)) (snd c) (fun k => x (nth k (fst c) 0%nat))) cs)
  = part_form (fun _ => Some m) ns (whole x) p.
Proof.
  intros hs h. rewrite (contributions_val _ _ _ (contributions_in _ _ _ _ h)) in h. injection h as <-. unfold shaped, reshaped, part_form in *.
  destruct (ep_kind p) eqn:ek; destruct (ep_els p) as [|e0 es]; try congruence; clear hs;
    try match goal with |- context [contribution ns ?k ?a e0 :: map _ es] =>
      change (contribution ns k a e0 :: map (contribution ns k a) es) with (map (contribution ns k a) (e0 :: es)) end; rewrite map_map.
  - apply nsum_map_ext. intros e _. unfold contribution. cbn [fst snd length node_dofs app kind_flag tlist tx ty tr].
    change [(3 * fst e)%nat; (3 * fst e + 1)%nat; (3 * fst e + 2)%nat; (3 * snd e)%nat; (3 * snd e + 1)%nat; (3 * snd e + 2)%nat]
      with (node_dofs (fst e) ++ node_dofs (snd e)).
    rewrite rotated_quad, rod_reshape_quad. cbn [element_form]. apply quad_ext_vec. intros [|i] hi; reflexivity.
  - apply nsum_map_ext. intros e _. unfold contribution. cbn [fst snd length node_dofs app kind_flag tlist tx ty tr].
    change [(3 * fst e)%nat; (3 * fst e + 1)%nat; (3 * fst e + 2)%nat; (3 * snd e)%nat; (3 * snd e + 1)%nat; (3 * snd e + 2)%nat]
      with (node_dofs (fst e) ++ node_dofs (snd e)).
    rewrite rotated_quad. cbn [element_form]. apply quad_ext. intros i j hi hj. apply reshape_all3; assumption.
  - apply nsum_map_ext. intros e _. unfold contribution. cbn [fst snd length node_dofs app kind_flag tlist tx ty tr].
    change [(3 * fst e)%nat; (3 * fst e + 1)%nat; (3 * fst e + 2)%nat; (3 * snd e)%nat; (3 * snd e + 1)%nat; (3 * snd e + 2)%nat]
      with (node_dofs (fst e) ++ node_dofs (snd e)).
    rewrite rotated_quad. cbn [element_form]. apply quad_ext. intros i j hi hj. apply reshape_all3; assumption.
  - apply nsum_map_ext. intros i _. cbn [fst snd length node_dofs kind_flag tlist tx ty tr]. rewrite point_reshape_quad. reflexivity.
Qed.

(** ** adding the parts *)

Lemma add_matrix_energy (ns : list (node R)) p g aux g' x : shaped p -> mr g = (3 * length ns)%nat -> mc g = (3 * length ns)%nat ->
  add_matrix (number_from 0 ns) p g aux = Ok g' ->
  quad (3 * length ns) (me g') x = quad (3 * length ns) (me g) x + part_form (fun _ => aux) ns (whole x) p.
Proof.
  intros hs h1 h2 h. destruct aux as [m|].
  - cbn [add_matrix] in h. unbind h. rewrite <- (contributions_energy ns p m v x hs hv). rewrite <- h1. apply assembly_energy; [congruence| |exact h].
    rewrite h1. exact (contributions_lt _ _ _ _ hv).
  - injection h as <-. unfold part_form. ring.
Qed.

Lemma part_form_at aux ns u p : part_form (fun _ => aux (ep_kind p)) ns u p = part_form aux ns u p.
Proof. reflexivity. Qed.

Lemma add_parts_energy (ns : list (node R)) ps s s' x : Forall shaped ps -> square (3 * length ns) s ->
  add_parts (number_from 0 ns) s ps = Ok s' ->
  quad (3 * length ns) (me (gK s')) x = quad (3 * length ns) (me (gK s)) x + nsum (map (part_form aux_stiffness ns (whole x)) ps) /\
  quad (3 * length ns) (me (gM s')) x = quad (3 * length ns) (me (gM s)) x + nsum (map (part_form aux_mass ns (whole x)) ps) /\
  quad (3 * length ns) (me (gC s')) x = quad (3 * length ns) (me (gC s)) x + nsum (map (part_form aux_damping ns (whole x)) ps).
Proof.
  intros hs. revert s. induction hs as [|p ps hp hs IH]; intros s hsq h; cbn [add_parts map nsum] in *.
  - injection h as <-. rnum. repeat split; ring.
  - unbind h. assert (hsq' : square (3 * length ns) v).
    { apply (add_parts_square (number_from 0 ns) [p] _ s); [exact hsq|]. cbn. rewrite hv. reflexivity. }
    destruct (IH v hsq' h) as [i1 [i2 i3]]. unfold add_part in hv. unbind hv. unbind hv. unbind hv. injection hv as <-.
    destruct hsq as [a1 [a2 [a3 [a4 [a5 [a6 a7]]]]]]. cbn [gK gM gC] in *.
    apply (add_matrix_energy _ _ _ _ _ x hp a1 a2) in hv0. apply (add_matrix_energy _ _ _ _ _ x hp a3 a4) in hv1.
    apply (add_matrix_energy _ _ _ _ _ x hp a5 a6) in hv2. rewrite part_form_at in hv0, hv1, hv2. rewrite i1, i2, i3, hv0, hv1, hv2.
    rnum. repeat split; ring.
Qed.

(** ** initialised parts *)

Lemma nodes_at_nth (ns : list (node R)) l out : mapr (node_at ns) l = Ok out ->
  forall i p, nth_error l i = Some p -> exists n, nth_error ns p = Some n /\ nth_error out i = Some n.
Proof.
  intros h. apply mapr_spec in h. induction h as [|a b l m h1 h2 IH]; intros i p hp; [destruct i; discriminate|].
  destruct i as [|i]; [|apply IH; exact hp]. injection hp as <-. apply at_idx_ok in h1. exists b. auto.
Qed.

Lemma initialize_settled (ns : list (node R)) p p' : initialize_part ns p = Ok p' -> p' = settled ns p.
Proof.
  destruct p as [k np ep]. unfold initialize_part, settled. cbn [ep_kind ep_nodes ep_els].
  destruct k as [s c m|b|b|m]; try (intros h; injection h as <-; reflexivity).
  intros h. unbind h. unbind h. pose proof (mapr_length _ _ _ hv) as hl. pose proof (nodes_at_nth _ _ _ hv) as hn.
  destruct (rail_length_spec (Some (b_l b)) (map (@n_coord R) v)) as [r1 r2]. rewrite map_length, hl in r1.
  destruct np as [|i [|j l]].
  - rewrite r1 in hv0 by (cbn; lia). injection hv0 as <-. injection h as <-. destruct b; reflexivity.
  - rewrite r1 in hv0 by (cbn; lia). injection hv0 as <-. injection h as <-. destruct b; reflexivity.
  - destruct (hn 0%nat i eq_refl) as [m [e1 e2]]. destruct (hn 1%nat j eq_refl) as [n [e3 e4]]. rewrite e1, e3.
    destruct (r2 (n_coord m) (n_coord n)) as [r3 r4]; [rewrite nth_error_map, e2; reflexivity|rewrite nth_error_map, e4; reflexivity|].
    clear r1 r2. cbv zeta in *.
    match type of r3 with ?P -> _ => destruct (Classical_Prop.classic P) as [hok|hno] end.
    + rewrite (r3 hok) in hv0. injection hv0 as <-. injection h as <-. reflexivity.
    + rewrite (r4 hno) in hv0. discriminate.
Qed.

Lemma settled_shaped ns p : shaped p -> shaped (settled ns p).
Proof.
  unfold shaped, settled. destruct p as [k np ep]; cbn [ep_kind ep_nodes ep_els]. destruct k; auto. destruct np as [|i [|j l]]; auto.
  destruct (nth_error ns i), (nth_error ns j); auto.
Qed.

Lemma zero_square n : square n (@zero_system R _ n).
Proof. unfold square. cbn. rewrite repeat_length. repeat split; reflexivity. Qed.

Lemma assemble_inv (ns : list (node R)) ps ls s ns1 : assemble_system ns ps ls = Ok (s, ns1) ->
  ns1 = number_from 0 ns /\ mapr (initialize_part ns) ps = Ok (map (settled ns) ps) /\
  exists s0, add_parts (number_from 0 ns) (zero_system (3 * length ns)) (map (settled ns) ps) = Ok s0 /\ gK s = gK s0 /\ gM s = gM s0 /\ gC s = gC s0.
Proof.
  intros h. unfold assemble_system in h. unbind h. unfold initialise_ndof in h. rewrite total_ndof in h.
  unbind h. unbind h. injection h as <- <-. split; [reflexivity|].
  assert (e : v = map (settled ns) ps).
  { apply mapr_spec in hv. clear - hv. induction hv as [|a b l m h1 h2 IH]; [reflexivity|]. cbn. rewrite (initialize_settled _ _ _ h1), IH. reflexivity. }
  subst v. split; [exact hv|]. exists v0. split; [|repeat split; reflexivity]. 
  exact hv0.
Qed.

Lemma quad_mzero n x : quad n (me (@mzero R _ n n)) x = 0.
Proof. apply quad_zero. Qed.

Lemma settled_all_shaped ns ps : Forall shaped ps -> Forall shaped (map (settled ns) ps).
Proof. intros h. apply Forall_map. eapply Forall_impl; [|exact h]. intros a. apply settled_shaped. Qed.

Lemma assemble_energy (ns : list (node R)) ps ls s ns1 x : Forall shaped ps -> assemble_system ns ps ls = Ok (s, ns1) ->
  quad (3 * length ns) (me (gK s)) x = nsum (map (part_form aux_stiffness ns (whole x)) (map (settled ns) ps)) /\
  quad (3 * length ns) (me (gM s)) x = nsum (map (part_form aux_mass ns (whole x)) (map (settled ns) ps)) /\
  quad (3 * length ns) (me (gC s)) x = nsum (map (part_form aux_damping ns (whole x)) (map (settled ns) ps)).
Proof.
  intros hs h. destruct (assemble_inv _ _ _ _ _ h) as [_ [_ [s0 [h1 [-> [-> ->]]]]]].
  destruct (add_parts_energy ns _ _ _ x (settled_all_shaped ns ps hs) (zero_square _) h1) as [e1 [e2 e3]].
  cbn [zero_system gK gM gC] in e1, e2, e3. rewrite quad_mzero, Rplus_0_l in e1, e2, e3. auto.
Qed.

(** ** sums over the numbered degrees of freedom *)

Definition dsum (n : nat) (f : nat -> dir -> R) : R := sumn n (fun p => f p DX + f p DY + f p DR).

Lemma dsum_ext n f g : (forall p d, (p < n)%nat -> f p d = g p d) -> dsum n f = dsum n g.
Proof. intros h. unfold dsum. apply sumn_ext. intros p hp. rewrite !h by exact hp. reflexivity. Qed.

Lemma dsum_numbers (ns : list (node R)) n f : numbered ns n ->
  sumn n f = dsum (length ns) (fun p d => match number_of ns p d with Some k => f k | None => 0 end).
Proof.
  intros h. rewrite <- nsum_map_seq, <- h. unfold dsum. rewrite <- nsum_map_seq. clear h.
  assert (g : forall (l : list (node R)) s, nsum (map f (all_numbers l)) =
    nsum (map (fun p => match nth_error l (p - s) with Some m =>
      match tx (n_dof m) with Some k => f k | None => 0 end + match ty (n_dof m) with Some k => f k | None => 0 end + match tr (n_dof m) with Some k => f k | None => 0 end
      | None => 0 end) (seq s (length l)))).
  { induction l as [|a l IH]; intros s; [reflexivity|]. unfold all_numbers in *. cbn [flat_map length seq map nsum]. rewrite map_app, nsum_app, (IH (S s)).
    rewrite Nat.sub_diag. cbn [nth_error]. rnum. f_equal.
    - destruct (n_dof a) as [[] [] []]; cbn; rnum; ring.
    - apply nsum_map_ext. intros p hp. apply in_seq in hp. replace (p - s)%nat with (S (p - S s)) by lia. reflexivity. }
  rewrite (g ns 0%nat). apply nsum_map_ext. intros p hp. rewrite Nat.sub_0_r. unfold number_of.
  destruct (nth_error ns p) as [a|]; cbn [tget]; [reflexivity|ring].
Qed.

Lemma dsum_whole N f : sumn (3 * N) f = dsum N (whole f).
Proof.
  unfold dsum. induction N as [|N IH]; [reflexivity|]. replace (3 * S N)%nat with (S (S (S (3 * N)))) by lia. cbn [sumn].
  rewrite IH. unfold whole, dir_idx. rewrite Nat.add_0_r. replace (3 * N + 1)%nat with (S (3 * N)) by lia. replace (3 * N + 2)%nat with (S (S (3 * N))) by lia.
  rnum. ring.
Qed.

(** a vector on all degrees of freedom with a given field *)
Definition spread (u : nat -> dir -> R) (k : nat) : R :=
  u (k / 3)%nat (match (k mod 3)%nat with 0%nat => DX | 1%nat => DY | _ => DR end).

Lemma whole_spread u p d : whole (spread u) p d = u p d.
Proof.
  unfold whole, spread. replace ((3 * p + dir_idx d) / 3)%nat with p.
  - replace ((3 * p + dir_idx d) mod 3)%nat with (dir_idx d); [destruct d; reflexivity|].
    rewrite Nat.add_comm, Nat.mul_comm, Nat.mod_add by lia. symmetry. apply Nat.mod_small. destruct d; cbn; lia.
  - rewrite Nat.mul_comm, Nat.div_add_l by lia. rewrite (Nat.div_small (dir_idx d)); [lia|]. destruct d; cbn; lia.
Qed.

Lemma trimmed_quad (ns' : list (node R)) n N (m m' : nat -> nat -> R) x : numbered ns' n -> length ns' = N ->
  (forall p d q e k' l', (p < N)%nat -> (q < N)%nat -> number_of ns' p d = Some k' -> number_of ns' q e = Some l' ->
     m' k' l' = m (3 * p + dir_idx d)%nat (3 * q + dir_idx e)%nat) ->
  quad n m' x = quad (3 * N) m (spread (field_of ns' x)).
Proof.
  intros hn hl hm. unfold quad. rewrite dsum_whole, (dsum_numbers ns' n _ hn), hl. apply dsum_ext. intros p d hp.
  unfold whole. change (spread (field_of ns' x) (3 * p + dir_idx d)%nat) with (whole (spread (field_of ns' x)) p d). rewrite whole_spread.
  unfold field_of at 1. destruct (number_of ns' p d) as [k'|] eqn:ek.
  - rewrite dsum_whole, (dsum_numbers ns' n _ hn), hl. apply dsum_ext. intros q e hq.
    unfold whole. change (spread (field_of ns' x) (3 * q + dir_idx e)%nat) with (whole (spread (field_of ns' x)) q e). rewrite whole_spread.
    unfold field_of. destruct (number_of ns' q e) as [l'|] eqn:el; [|ring]. rewrite (hm p d q e k' l' hp hq ek el). reflexivity.
  - symmetry. apply sumn_0. intros j hj. ring.
Qed.

Lemma initialise_entries ns ps ls cs da s ns' n : initialise_system ns ps ls cs da = Ok (s, ns', n) ->
  exists s0 st, assemble_system ns ps ls = Ok (s0, number_from 0 ns) /\ s = rayleigh_damping (da_on da) (da_ratio da) (da_one da) (da_two da) st /\
    square n st /\ numbered ns' n /\ length ns' = length ns /\
    forall p d q e k l, (p < length ns)%nat -> (q < length ns)%nat -> number_of ns' p d = Some k -> number_of ns' q e = Some l ->
      me (gK st) k l = me (gK s0) (3 * p + dir_idx d)%nat (3 * q + dir_idx e)%nat /\
      me (gM st) k l = me (gM s0) (3 * p + dir_idx d)%nat (3 * q + dir_idx e)%nat /\
      me (gC st) k l = me (gC s0) (3 * p + dir_idx d)%nat (3 * q + dir_idx e)%nat.
Proof.
  intros h. destruct (initialise_inv _ _ _ _ _ _ _ _ h) as [s0 [st [e1 [hs [ht es]]]]].
  destruct (initialise_kept _ _ _ _ _ _ _ _ _ h e1) as [hl [hn _]].
  destruct (constrained_trim s0 (number_from 0 ns) cs _ hs (from_numbered ns)) as [s' [m [k [g1 [g2 [g3 [g4 [g5 [g6 g7]]]]]]]]].
  rewrite ht in g1. injection g1 as <- <- <-. exists s0, st. split; [exact e1|]. split; [exact es|]. split; [exact g2|]. split; [exact hn|]. split; [exact hl|].
  intros p d q e k l hp hq hk hll.
  destruct (g7 p d q e (3 * p + dir_idx d)%nat (3 * q + dir_idx e)%nat k l) as [_ g]; auto.
  - rewrite number_of_from by exact hp. destruct d; reflexivity.
  - rewrite number_of_from by exact hq. destruct e; reflexivity.
Qed.

(** the energy of an initialised system is the sum over its elements *)
Lemma initialise_energy ns ps ls cs da s ns' n x : Forall shaped ps -> initialise_system ns ps ls cs da = Ok (s, ns', n) ->
  let total aux := nsum (map (fun p => part_form aux ns (field_of ns' x) (settled ns p)) ps) in
  quad n (me (gK s)) x = total aux_stiffness /\ quad n (me (gM s)) x = total aux_mass /\
  quad n (me (gC s)) x = total aux_damping +
    (if da_on da then let (a0, a1) := rayleigh_factors (da_ratio da) (da_one da) (da_two da) in a0 * total aux_mass + a1 * total aux_stiffness else 0).
Proof.
  intros hs h total. destruct (initialise_entries _ _ _ _ _ _ _ _ h) as [s0 [st [e1 [-> [hsq [hn [hl hm]]]]]]].
  assert (he : quad n (me (gK st)) x = total aux_stiffness /\ quad n (me (gM st)) x = total aux_mass /\ quad n (me (gC st)) x = total aux_damping).
  { destruct (assemble_energy ns ps ls s0 _ (spread (field_of ns' x)) hs e1) as [k1 [k2 k3]].
    rewrite <- (trimmed_quad ns' n (length ns) (me (gK s0)) (me (gK st)) x) in k1 by (auto; intros; apply hm; assumption).
    rewrite <- (trimmed_quad ns' n (length ns) (me (gM s0)) (me (gM st)) x) in k2 by (auto; intros; apply hm; assumption).
    rewrite <- (trimmed_quad ns' n (length ns) (me (gC s0)) (me (gC st)) x) in k3 by (auto; intros; apply hm; assumption).
    rewrite k1, k2, k3. unfold total. rewrite !map_map.
    assert (g : forall aux p, part_form aux ns (whole (spread (field_of ns' x))) p = part_form aux ns (field_of ns' x) p).
    { intros aux p. unfold part_form. destruct (aux (ep_kind p)) as [m|]; [|reflexivity].
      destruct (ep_kind p); apply nsum_map_ext; intros e _; unfold element_form, local2, local6; rewrite ?whole_spread; try reflexivity;
        apply quad_ext_vec; intros [|i] hi; rewrite ?whole_spread; reflexivity. }
    repeat split; apply nsum_map_ext; intros p _; apply g. }
  destruct he as [k1 [k2 k3]]. unfold rayleigh_damping. destruct (da_on da).
  - destruct (rayleigh_factors _ _ _) as [a0 a1]. cbn [gK gM gC me]. split; [exact k1|]. split; [exact k2|].
    rewrite quad_add, quad_add. rewrite k3, <- k1, <- k2, <- !quad_scal. f_equal. f_equal; apply quad_ext; intros; rnum; ring.
  - rewrite Rplus_0_r. auto.
Qed.

(** ** symmetry and sign *)

Lemma timoshenko_nonneg (b : beam R) : sound_beam b -> 0 <= timoshenko_factor 0 b.
Proof.
  intros [hE [hI [hA [hl [hn hr]]]]].
  set (G := b_E b / (2 * (1 + b_nu b))). assert (hG : 0 < G) by (apply Rdiv_lt_0_compat; lra).
      destruct (Rlt_le_dec 0 (b_shear_factor b)) as [hk|hk].
      - replace (timoshenko_factor 0 b) with (12 * (b_E b * b_I b) / (G * b_A b * b_shear_factor b * (b_l b * b_l b))).
        + clearbody G. assert (0 < b_E b * b_I b) by (apply Rmult_lt_0_compat; assumption).
          apply Rlt_le, Rdiv_lt_0_compat; [lra|]. repeat apply Rmult_lt_0_compat; assumption.
        + unfold timoshenko_factor, shear_modulus, sq. rnum. destruct (nltbP 0 (b_shear_factor b)); [|contradiction]. unfold G. field. repeat split; lra.
      - unfold timoshenko_factor. rnum. destruct (nltbP 0 (b_shear_factor b)); lra.
Qed.

Lemma aux_forms k : (match k with KRod s c m => opt_nonneg s /\ opt_nonneg c /\ opt_nonneg m | KBeam b | KRail b => sound_beam b | KPoint m => 0 <= m end) ->
  forall aux, aux = aux_stiffness \/ aux = aux_mass \/ aux = aux_damping -> forall m, aux k = Some m ->
  match k with KRod _ _ _ => msym 2 m /\ psd 2 m | KBeam _ | KRail _ => msym 6 m /\ psd 6 m | KPoint _ => 0 <= m 0%nat 0%nat end.
Proof.
  assert (hb : forall b, sound_beam b -> forall aux, aux = aux_stiffness \/ aux = aux_mass \/ aux = aux_damping ->
    forall m, aux (KBeam b) = Some m -> msym 6 m /\ psd 6 m).
  { intros b [hE [hI [hA [hl [hn hr]]]]] aux hx m hm.
    assert (hphi : 0 <= timoshenko_factor 0 b) by (apply timoshenko_nonneg; unfold sound_beam; auto 10).
    destruct hx as [->|[->| ->]]; injection hm as <-.
    - split; [apply stiffness_sym|apply stiffness_psd]; assumption.
    - split; [apply beam_mass_sym|apply beam_mass_psd; auto; lra].
    - split; [intros i j _ _; reflexivity|intros x]. replace (quad 6 beam_damping x) with 0; [lra|symmetry; apply (quad_zero 6)]. }
  intros h aux hx m hm. destruct k as [s c w|b|b|w].
  - destruct h as [hs [hc hw]]. destruct hx as [->|[->| ->]]; cbn in hm.
    + destruct s as [s|]; [|discriminate]. destruct (rod_spring_spec s m hm) as [g1 [g2 _]]. split; [exact g1|]. intros x. rewrite g2. apply Rmult_le_pos; [exact hs|apply sqr_ge].
    + destruct w as [w|]; [|discriminate]. destruct (rod_mass_spec w m hm) as [g1 [_ [g2 _]]]. split; [exact g1|]. intros x. rewrite g2. cbn in hw.
      apply Rmult_le_pos; [lra|]. pose proof (sqr_ge (x 0%nat)). pose proof (sqr_ge (x 1%nat)). pose proof (sqr_ge (x 0%nat + x 1%nat)). lra.
    + destruct c as [s'|]; [|discriminate]. destruct (rod_spring_spec s' m hm) as [g1 [g2 _]]. split; [exact g1|]. intros x. rewrite g2. apply Rmult_le_pos; [exact hc|apply sqr_ge].
  - exact (hb b h aux hx m hm).
  - apply (hb b h aux hx m). destruct hx as [->|[->| ->]]; exact hm.
  - destruct hx as [->|[->| ->]]; injection hm as <-; cbn; rnum; lra.
Qed.

Lemma part_form_nonneg aux ns u p : aux = aux_stiffness \/ aux = aux_mass \/ aux = aux_damping -> sound p -> 0 <= part_form aux ns u p.
Proof.
  intros hx hs. unfold part_form. destruct (aux (ep_kind p)) as [m|] eqn:em; [|lra].
  pose proof (aux_forms (ep_kind p) hs aux hx m em) as h.
  destruct (ep_kind p); apply nsum_nonneg, Forall_map, Forall_forall; intros e _; cbn [element_form]; try apply h.
  apply Rmult_le_pos; [exact h|apply sqr_ge].
Qed.

Lemma rod_reshape_sym (m : nat -> nat -> R) : msym 2 m -> msym 6 (me (reshape_aux_matrix 2 [true; false; false] m)).
Proof.
  intros h i j hi hj. rewrite !rod_reshape by assumption. pose proof (h 0%nat 1%nat ltac:(lia) ltac:(lia)) as e.
  do 6 (destruct i as [|i]; [do 6 (destruct j as [|j]; [congruence|]); lia|]). lia.
Qed.

Lemma add_matrix_sym (ns : list (node R)) p g aux g' : shaped p -> sound p -> aux = aux_stiffness \/ aux = aux_mass \/ aux = aux_damping ->
  mr g = (3 * length ns)%nat -> mc g = (3 * length ns)%nat -> msym (3 * length ns) (me g) ->
  add_matrix (number_from 0 ns) p g (aux (ep_kind p)) = Ok g' -> msym (3 * length ns) (me g').
Proof.
  intros hsh hso hx h1 h2 hg h. destruct (aux (ep_kind p)) as [m|] eqn:em; [|injection h as <-; exact hg].
  pose proof (aux_forms (ep_kind p) hso aux hx m em) as hf. cbn [add_matrix] in h. unbind h.
  rewrite <- h1. rewrite <- h1 in hg. apply (assembly_sym g v g'); auto; [congruence|rewrite h1; exact (contributions_lt _ _ _ _ hv)|].
  rewrite (contributions_val _ _ _ (contributions_in _ _ _ _ hv)) in hv. injection hv as <-. unfold shaped, reshaped in *.
  intros c hc. destruct (ep_kind p) eqn:ek; destruct (ep_els p) as [|e0 es]; try congruence;
    try match type of hc with context [contribution ns ?k ?a e0 :: map _ es] =>
      change (In c (map (contribution ns k a) (e0 :: es))) in hc end; apply in_map_iff in hc; destruct hc as [e [<- _]];
    unfold contribution; cbn [fst snd length node_dofs app kind_flag tlist tx ty tr].
  - apply sym_congruence, rod_reshape_sym, hf.
  - apply sym_congruence. intros i j hi hj. rewrite !reshape_all3 by assumption. apply hf; assumption.
  - apply sym_congruence. intros i j hi hj. rewrite !reshape_all3 by assumption. apply hf; assumption.
  - intros i j hi hj. rewrite !point_reshape by assumption. destruct i as [|[|[|i]]], j as [|[|[|j]]]; reflexivity || lia.
Qed.

Definition sys_sym (n : nat) (s : gsys R) : Prop := msym n (me (gK s)) /\ msym n (me (gM s)) /\ msym n (me (gC s)).

Lemma add_parts_sym (ns : list (node R)) ps s s' : Forall shaped ps -> Forall sound ps -> square (3 * length ns) s -> sys_sym (3 * length ns) s ->
  add_parts (number_from 0 ns) s ps = Ok s' -> sys_sym (3 * length ns) s'.
Proof.
  intros hs. revert s. induction hs as [|p ps hp hs IH]; intros s ho hsq hsy h; cbn [add_parts] in *.
  - injection h as <-. exact hsy.
  - inversion ho as [|? ? ho1 ho2]; subst. unbind h. assert (hsq' : square (3 * length ns) v).
    { apply (add_parts_square (number_from 0 ns) [p] _ s); [exact hsq|]. cbn. rewrite hv. reflexivity. }
    apply (IH v ho2 hsq'); [|exact h]. unfold add_part in hv. unbind hv. unbind hv. unbind hv. injection hv as <-.
    destruct hsq as [a1 [a2 [a3 [a4 [a5 [a6 a7]]]]]], hsy as [b1 [b2 b3]]. repeat split; cbn [gK gM gC];
    [apply (add_matrix_sym ns p (gK s) aux_stiffness)|apply (add_matrix_sym ns p (gM s) aux_mass)|apply (add_matrix_sym ns p (gC s) aux_damping)]; auto.
Qed.

Lemma initialise_sym ns ps ls cs da s ns' n : Forall shaped ps -> Forall (fun p => sound (settled ns p)) ps ->
  initialise_system ns ps ls cs da = Ok (s, ns', n) -> sys_sym n s.
Proof.
  intros hs ho h. destruct (initialise_entries _ _ _ _ _ _ _ _ h) as [s0 [st [e1 [-> [hsq [hn [hl hm]]]]]]].
  destruct (assemble_inv _ _ _ _ _ e1) as [_ [_ [s1 [h1 [k1 [k2 k3]]]]]].
  assert (h0 : sys_sym (3 * length ns) s1).
  { apply (add_parts_sym ns (map (settled ns) ps) (zero_system (3 * length ns))); auto.
    - apply settled_all_shaped; exact hs.
    - apply Forall_map. exact ho.
    - apply zero_square.
    - repeat split; intros i j _ _; reflexivity. }
  assert (ht : sys_sym n st).
  { assert (g : forall i, (i < n)%nat -> exists p d, (p < length ns)%nat /\ number_of ns' p d = Some i).
    { intros i hi. assert (hin : In i (all_numbers ns')) by (rewrite hn; apply in_seq; lia). apply all_numbers_In in hin. destruct hin as [p [d hp]].
      exists p, d. split; [rewrite <- hl; eapply number_of_bound; eauto|exact hp]. }
    destruct h0 as [g1 [g2 g3]]. rewrite <- k1 in g1. rewrite <- k2 in g2. rewrite <- k3 in g3.
    repeat split; intros i j hi hj; destruct (g i hi) as [p [d [hp ep]]]; destruct (g j hj) as [q [e [hq eq]]];
      destruct (hm p d q e i j hp hq ep eq) as [m1 [m2 m3]]; destruct (hm q e p d j i hq hp eq ep) as [n1 [n2 n3]].
    - rewrite m1, n1. apply g1; destruct d, e; cbn; lia.
    - rewrite m2, n2. apply g2; destruct d, e; cbn; lia.
    - rewrite m3, n3. apply g3; destruct d, e; cbn; lia. }
  unfold rayleigh_damping. destruct (da_on da); [|exact ht]. destruct (rayleigh_factors _ _ _) as [a0 a1]. destruct ht as [t1 [t2 t3]].
  repeat split; cbn [gK gM gC me]; auto. intros i j hi hj. rewrite (t1 i j), (t2 i j), (t3 i j) by assumption. reflexivity.
Qed.

Lemma initialise_psd ns ps ls cs da s ns' n : Forall shaped ps -> Forall (fun p => sound (settled ns p)) ps ->
  (da_on da = true -> 0 <= da_ratio da /\ 0 < da_one da /\ 0 < da_two da) ->
  initialise_system ns ps ls cs da = Ok (s, ns', n) -> psd n (me (gK s)) /\ psd n (me (gM s)) /\ psd n (me (gC s)).
Proof.
  intros hs ho hd h.
  assert (hp : forall x aux, aux = aux_stiffness \/ aux = aux_mass \/ aux = aux_damping ->
    0 <= nsum (map (fun p => part_form aux ns (field_of ns' x) (settled ns p)) ps)).
  { intros x aux hx. apply nsum_nonneg, Forall_map. eapply Forall_impl; [|exact ho]. intros p hp. apply part_form_nonneg; assumption. }
  repeat split; intros x; destruct (initialise_energy _ _ _ _ _ _ _ _ x hs h) as [k1 [k2 k3]].
  - rewrite k1. apply hp. auto.
  - rewrite k2. apply hp. auto.
  - rewrite k3. apply Rplus_le_le_0_compat; [apply hp; auto|]. destruct (da_on da); [|lra]. destruct (hd eq_refl) as [d1 [d2 d3]].
    destruct (rayleigh_ratio _ _ _ d1 d2 d3) as [p0 [p1 _]]. destruct (rayleigh_factors _ _ _) as [a0 a1]. cbn [fst snd] in p0, p1.
    apply Rplus_le_le_0_compat; apply Rmult_le_pos; auto.
Qed.

(** ** when a system can be initialised *)

Lemma add_matrix_ok (ns : list (node R)) p g aux : mr g = (3 * length ns)%nat -> mc g = (3 * length ns)%nat ->
  (forall i, In i (part_refs p) -> (i < length ns)%nat) -> exists g', add_matrix (number_from 0 ns) p g aux = Ok g'.
Proof.
  intros h1 h2 hin. destruct aux as [m|]; [|exists g; reflexivity]. cbn [add_matrix].
  pose proof (contributions_val ns p (reshaped p m) hin) as e. pose proof (contributions_lt _ _ _ _ e) as hlt. rewrite e. cbn [rbind].
  match type of e with _ = Ok ?cs => destruct (assembly_spec g cs) as [g' [hg _]]; [|exists g'; exact hg] end.
  intros c k hc hk. rewrite h1, h2. split; eapply hlt; eauto.
Qed.

Lemma add_parts_ok (ns : list (node R)) ps s : square (3 * length ns) s ->
  (forall p i, In p ps -> In i (part_refs p) -> (i < length ns)%nat) -> exists s', add_parts (number_from 0 ns) s ps = Ok s'.
Proof.
  revert s. induction ps as [|p ps IH]; intros s hsq hin; [exists s; reflexivity|]. cbn [add_parts].
  assert (hp : exists s', add_part (number_from 0 ns) s p = Ok s').
  { destruct hsq as [a1 [a2 [a3 [a4 [a5 [a6 a7]]]]]]. unfold add_part.
    destruct (add_matrix_ok ns p (gK s) (aux_stiffness (ep_kind p)) a1 a2) as [g1 e1]; [intros i; apply hin; left; reflexivity|].
    destruct (add_matrix_ok ns p (gM s) (aux_mass (ep_kind p)) a3 a4) as [g2 e2]; [intros i; apply hin; left; reflexivity|].
    destruct (add_matrix_ok ns p (gC s) (aux_damping (ep_kind p)) a5 a6) as [g3 e3]; [intros i; apply hin; left; reflexivity|].
    rewrite e1. cbn [rbind]. rewrite e2. cbn [rbind]. rewrite e3. cbn [rbind]. eauto. }
  destruct hp as [s' hs']. rewrite hs'. cbn [rbind]. apply IH; [|intros q i hq; apply hin; right; exact hq].
  apply (add_parts_square (number_from 0 ns) [p] _ s); [exact hsq|]. cbn. rewrite hs'. reflexivity.
Qed.

Lemma mapr_node_ok (ns : list (node R)) l : (forall i, In i l -> (i < length ns)%nat) -> exists out, mapr (node_at ns) l = Ok out.
Proof.
  induction l as [|a l IH]; intros h; [exists []; reflexivity|]. destruct IH as [out ho]; [intros i hi; apply h; right; exact hi|].
  specialize (h a (or_introl eq_refl)). apply nth_error_Some in h. destruct (nth_error ns a) as [n|] eqn:e; [|congruence].
  exists (n :: out). cbn. unfold node_at at 1. rewrite (proj2 (at_idx_ok ns a n) e). cbn [rbind]. rewrite ho. reflexivity.
Qed.

Lemma settled_refs ns p : part_refs (settled ns p) = part_refs p.
Proof.
  unfold part_refs, settled. destruct p as [k np ep]; cbn [ep_kind ep_nodes ep_els]. destruct k; auto. destruct np as [|i [|j l]]; auto.
  destruct (nth_error ns i), (nth_error ns j); auto.
Qed.

Lemma initialise_ok (ns : list (node R)) ps ls cs da :
  (forall p, In p ps -> exists p', initialize_part ns p = Ok p') ->
  (forall p i, In p ps -> In i (part_refs p) -> (i < length ns)%nat) ->
  (forall l i, In l ls -> In i (ld_nodes l) -> (i < length ns)%nat) ->
  exists s ns' n, initialise_system ns ps ls cs da = Ok (s, ns', n).
Proof.
  intros hi hr hl.
  assert (ha : exists s, assemble_system ns ps ls = Ok (s, number_from 0 ns)).
  { unfold assemble_system.
    assert (e1 : mapr (initialize_part ns) ps = Ok (map (settled ns) ps)).
    { apply mapr_map. intros p hp. destruct (hi p hp) as [p' e]. rewrite e. f_equal. apply initialize_settled. exact e. }
    rewrite e1. cbn [rbind]. unfold initialise_ndof. rewrite total_ndof.
    destruct (add_parts_ok ns (map (settled ns) ps) (zero_system (0 + 3 * length ns)) (zero_square _)) as [s hs].
    { intros p i hp. apply in_map_iff in hp. destruct hp as [q [<- hq]]. rewrite settled_refs. apply hr. exact hq. }
    rewrite hs. cbn [rbind].
    assert (hc : exists conds, mapr (load_cond (number_from 0 ns)) ls = Ok conds).
    { clear - hl. induction ls as [|l ls IH]; [exists []; reflexivity|]. destruct IH as [c hc]; [intros l' i h; apply hl; right; exact h|].
      destruct (mapr_node_ok (number_from 0 ns) (ld_nodes l)) as [out ho]; [intros i h; rewrite number_from_length; apply (hl l i (or_introl eq_refl) h)|].
      cbn. unfold load_cond at 1. rewrite ho. cbn [rbind]. rewrite hc. eexists. reflexivity. }
    destruct hc as [conds ->]. cbn [rbind]. eauto. }
  destruct ha as [s0 e0]. unfold initialise_system. rewrite e0. cbn [rbind].
  destruct (assemble_shape _ _ _ _ _ e0) as [hsq _].
  destruct (constrained_trim s0 (number_from 0 ns) cs _ hsq (from_numbered ns)) as [s' [m [k [g1 _]]]]. rewrite g1. cbn [rbind]. eauto.
Qed.

Lemma quad_unit n (m : nat -> nat -> R) k : (k < n)%nat -> quad n m (fun i => if Nat.eqb k i then 1 else 0) = m k k.
Proof.
  intros h. unfold quad. rewrite (sumn_ext n _ (fun i => if Nat.eqb k i then m k k else 0)).
  - apply (sumn_pick n (fun _ => m k k)). exact h.
  - intros i hi. destruct (Nat.eqb_spec k i) as [<-|ne].
    + rewrite (sumn_ext n _ (fun j => if Nat.eqb k j then m k j else 0)); [apply (sumn_pick n (fun j => m k j)); exact h|].
      intros j hj. destruct (Nat.eqb k j); ring.
    + apply sumn_0. intros j hj. ring.
Qed.

(** diagonal entries of the assembled matrices *)
Definition unit_field (p : nat) (d : dir) (q : nat) (e : dir) : R := if Nat.eqb (3 * p + dir_idx d) (3 * q + dir_idx e) then 1 else 0.

Lemma assemble_diag (ns : list (node R)) ps ls s ns1 p d : Forall shaped ps -> assemble_system ns ps ls = Ok (s, ns1) -> (p < length ns)%nat ->
  let k := (3 * p + dir_idx d)%nat in
  me (gK s) k k = nsum (map (fun a => part_form aux_stiffness ns (unit_field p d) (settled ns a)) ps) /\
  me (gM s) k k = nsum (map (fun a => part_form aux_mass ns (unit_field p d) (settled ns a)) ps).
Proof.
  intros hs h hp k. assert (hk : (k < 3 * length ns)%nat) by (unfold k; destruct d; cbn; lia).
  destruct (assemble_energy ns ps ls s ns1 (fun i => if Nat.eqb k i then 1 else 0) hs h) as [k1 [k2 _]].
  rewrite quad_unit in k1, k2 by exact hk. rewrite map_map in k1, k2. rewrite k1, k2. split; reflexivity.
Qed.
