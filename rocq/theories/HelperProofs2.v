(** * Proofs about package helpers: edges, angles, splitting *)
From Coq Require Import ZArith Reals Lra Lia List Bool Permutation PeanoNat.
From Flocq Require Import Core.Raux.
From Verif Require Import Arith ArithR Prim Path PathClaims JoinProofs GeomSpec GeomProofs Helpers HelperClaims.
Import ListNotations.
Close Scope R_scope.
Close Scope Z_scope.
Close Scope num_scope.

(** ** Edges *)
Section Edges.
Context {A : Arith} {EQ : EqOK A}.
Notation ok l := (self_equal (lp1 l) /\ self_equal (lp2 l)).

Lemma same_edge_eq l m : same_edge l m = edge_eq l m.
Proof. reflexivity. Qed.

Lemma edge_refl l : ok l -> edge_eq l l = true.
Proof. unfold self_equal, edge_eq. intros [-> ->]. reflexivity. Qed.
Lemma edge_sym l m : edge_eq l m = edge_eq m l.
Proof.
  assert (P : forall l m, edge_eq l m = true -> edge_eq m l = true).
  { clear l m. intros l m. unfold edge_eq. rewrite !orb_true_iff, !andb_true_iff. intros [[H1 H2]|[H1 H2]]; auto 6 using pt_eqb_sym. }
  destruct (edge_eq l m) eqn:E1, (edge_eq m l) eqn:E2; auto; [apply P in E1|apply P in E2]; congruence.
Qed.
Lemma edge_trans a b c : edge_eq a b = true -> edge_eq b c = true -> edge_eq a c = true.
Proof.
  unfold edge_eq. rewrite !orb_true_iff, !andb_true_iff. intros [[H1 H2]|[H1 H2]] [[K1 K2]|[K1 K2]];
    [left|right|right|left]; split; eapply pt_eqb_trans; eassumption.
Qed.
Lemma edge_cong a b c : edge_eq a b = true -> edge_eq c a = edge_eq c b.
Proof.
  intros H. destruct (edge_eq c a) eqn:E1, (edge_eq c b) eqn:E2; auto.
  - rewrite (edge_trans c a b) in E2; congruence.
  - rewrite edge_sym in H. rewrite (edge_trans c b a) in E1; congruence.
Qed.

Lemma occ_app e l1 l2 : occ e (l1 ++ l2) = occ e l1 + occ e l2.
Proof. unfold occ. rewrite filter_app, app_length. reflexivity. Qed.
Lemma occ_cons e l ls : occ e (l :: ls) = (if edge_eq e l then 1 else 0) + occ e ls.
Proof. unfold occ. cbn [filter]. destruct (edge_eq e l); reflexivity. Qed.
Lemma occ_nil e : occ e [] = 0.
Proof. reflexivity. Qed.
Lemma occ_perm e l1 l2 : Permutation l1 l2 -> occ e l1 = occ e l2.
Proof. induction 1; rewrite ?occ_cons in *; lia. Qed.
Lemma occ_exists e ls : existsb (same_edge e) ls = negb (occ e ls =? 0).
Proof.
  induction ls as [|x ls IH]; [reflexivity|]. cbn [existsb]. rewrite occ_cons, IH, same_edge_eq.
  destruct (edge_eq e x); cbn [orb Nat.add]; [|reflexivity]. reflexivity.
Qed.

Lemma undouble_spec : forall after before, Forall (fun l => ok l) after ->
  undouble before after = filter (fun e => occ e (before ++ after) =? 1) after.
Proof.
  induction after as [|l r IH]; intros before H; [reflexivity|]. inversion H as [|? ? Hl Hr]; subst.
  cbn [undouble filter]. rewrite occ_exists.
  assert (E : occ l (before ++ l :: r) = S (occ l (before ++ r))).
  { rewrite !occ_app, occ_cons, edge_refl by exact Hl. lia. }
  rewrite IH by exact Hr. rewrite <- app_assoc. cbn [app]. rewrite E.
  destruct (occ l (before ++ r)); reflexivity.
Qed.

(** removing position j and moving the last element there *)
Lemma upd_len {T} (l : list T) j x : length (upd l j x) = length l.
Proof. revert j. induction l as [|y l IH]; intros [|j]; cbn; auto. Qed.
Lemma upd_app_last {T} (l : list T) y x : upd (l ++ [y]) (length l) x = l ++ [x].
Proof. induction l as [|z l IH]; [reflexivity|]. cbn. now rewrite IH. Qed.
Lemma upd_app_l {T} (l l' : list T) j x : j < length l -> upd (l ++ l') j x = upd l j x ++ l'.
Proof.
  revert j. induction l as [|z l IH]; intros [|j] H; cbn in *; try lia; [reflexivity|]. rewrite IH by lia. reflexivity.
Qed.
Lemma upd_perm {T} (l : list T) j x d : j < length l -> Permutation (nth j l d :: upd l j x) (x :: l).
Proof.
  revert j. induction l as [|z l IH]; intros [|j] H; cbn [length upd nth] in *; try lia.
  - apply perm_swap.
  - rewrite perm_swap. rewrite IH by lia. apply perm_swap.
Qed.
Lemma swap_remove {T} (l : list T) j d : j < length l ->
  Permutation (nth j l d :: removelast (upd l j (last l d))) l.
Proof.
  intros H. destruct (exists_last (l := l)) as (l' & z & ->); [destruct l; [cbn in H; lia|discriminate]|].
  rewrite last_last. rewrite app_length in H. cbn [length] in H.
  destruct (Nat.eq_dec j (length l')) as [->|N].
  - rewrite upd_app_last, app_nth2, Nat.sub_diag by lia. cbn [nth].
    rewrite removelast_app by discriminate. cbn [removelast]. rewrite app_nil_r.
    apply Permutation_cons_append.
  - rewrite upd_app_l, app_nth1 by lia. rewrite removelast_app by discriminate. cbn [removelast]. rewrite app_nil_r.
    rewrite upd_perm by lia. apply Permutation_cons_append.
Qed.

Lemma find_edge_some e d : forall ls j k, find_edge e ls j = Some k ->
  j <= k /\ k - j < length ls /\ edge_eq e (nth (k - j) ls d) = true.
Proof.
  induction ls as [|x ls IH]; intros j k; cbn [find_edge]; [discriminate|]. rewrite same_edge_eq.
  destruct (edge_eq e x) eqn:E.
  - intros [= <-]. rewrite Nat.sub_diag. cbn. split; [lia|]. split; [lia|exact E].
  - intros H. apply IH in H. destruct H as (H1 & H2 & H3). split; [lia|].
    replace (k - j) with (S (k - S j)) by lia. cbn [nth length]. split; [lia|exact H3].
Qed.
Lemma find_edge_none e : forall ls j, find_edge e ls j = None -> occ e ls = 0.
Proof.
  induction ls as [|x ls IH]; intros j; cbn [find_edge]; [reflexivity|]. rewrite occ_cons, same_edge_eq.
  destruct (edge_eq e x); [discriminate|]. apply IH.
Qed.

Lemma compare_delete ls l e : (forall f, occ f ls <= 1) ->
  occ e (compareAndDelete ls l) = (if edge_eq e l then 1 - occ e ls else occ e ls) /\
  incl (compareAndDelete ls l) (ls ++ [l]).
Proof.
  intros I. unfold compareAndDelete. destruct (find_edge l ls 0) as [j|] eqn:F.
  - apply (find_edge_some l l) in F. destruct F as (_ & J & E). rewrite Nat.sub_0_r in *.
    pose proof (swap_remove ls j l J) as P. split.
    + pose proof (occ_perm e _ _ P) as Q. rewrite occ_cons in Q. rewrite <- (edge_cong _ _ e E) in Q.
      specialize (I e). destruct (edge_eq e l); lia.
    + intros x Hx. apply in_or_app. left. eapply Permutation_in; [exact P|]. now right.
  - apply find_edge_none in F. rewrite occ_app, occ_cons, occ_nil.
    split; [|apply incl_refl]. destruct (edge_eq e l) eqn:E; [|lia].
    assert (occ e ls = occ l ls) as ->.
    { clear F I. induction ls as [|x ls IH]; [reflexivity|]. rewrite !occ_cons, IH.
      rewrite (edge_sym e x), (edge_sym l x), (edge_cong _ _ x E). reflexivity. }
    rewrite F. reflexivity.
Qed.

Lemma delete_spec (ls : list line) :
  (forall e, occ e (fold_left compareAndDelete ls []) = occ e ls mod 2) /\
  incl (fold_left compareAndDelete ls []) ls.
Proof.
  induction ls as [|l ls IH] using rev_ind; [split; [reflexivity|apply incl_refl]|].
  rewrite fold_left_app. cbn [fold_left]. destruct IH as [IH1 IH2].
  set (cur := fold_left compareAndDelete ls []) in *.
  assert (I : forall f, occ f cur <= 1).
  { intros f. rewrite IH1. pose proof (Nat.mod_upper_bound (occ f ls) 2). lia. }
  split.
  - intros e. destruct (compare_delete cur l e I) as [-> _]. rewrite IH1.
    rewrite occ_app, occ_cons, occ_nil.
    destruct (edge_eq e l).
    + rewrite !Nat.add_0_r, Nat.add_1_r.
      pose proof (Nat.mod_upper_bound (occ e ls) 2). rewrite <- (Nat.add_1_r (occ e ls)), Nat.add_mod by lia.
      destruct (occ e ls mod 2) as [|[|]]; [reflexivity|reflexivity|lia].
    + rewrite !Nat.add_0_r. reflexivity.
  - destruct (compare_delete cur l l I) as [_ H]. eapply incl_tran; [exact H|].
    apply incl_app; [apply incl_appl; exact IH2|apply incl_appr, incl_refl].
Qed.
End Edges.

(** ** Angles *)
Local Open Scope R_scope.

Lemma vlen_R (v : Rvector) : vlen v = Vlen v.
Proof. reflexivity. Qed.
Lemma dot_R (u v : Rvector) : dot u v = Vdot u v.
Proof. reflexivity. Qed.
Lemma Vdot_comm u v : Vdot u v = Vdot v u.
Proof. unfold Vdot. rcbn. ring. Qed.
Lemma Vdot_nonneg v : 0 <= Vdot v v.
Proof.
  unfold Vdot. assert (S : forall x : R, 0 <= x * x) by (intros x; apply Rle_0_sqr).
  pose proof (S (vx v)). pose proof (S (vy v)). pose proof (S (vz v)). rcbn. lra.
Qed.
Lemma cauchy u v : Vdot u v * Vdot u v <= Vdot u u * Vdot v v.
Proof.
  assert (E : Vdot u u * Vdot v v - Vdot u v * Vdot u v =
     (vy u * vz v - vz u * vy v) * (vy u * vz v - vz u * vy v) +
     (vz u * vx v - vx u * vz v) * (vz u * vx v - vx u * vz v) +
     (vx u * vy v - vy u * vx v) * (vx u * vy v - vy u * vx v)) by (unfold Vdot; rcbn; ring).
  assert (S : forall x : R, 0 <= x * x) by (intros x; apply Rle_0_sqr).
  pose proof (S (vy u * vz v - vz u * vy v)). pose proof (S (vz u * vx v - vx u * vz v)). pose proof (S (vx u * vy v - vy u * vx v)).
  rcbn. lra.
Qed.
Lemma Vlen_nonneg v : 0 <= Vlen v.
Proof. apply sqrt_pos. Qed.
Lemma Vlen_sq v : Vlen v * Vlen v = Vdot v v.
Proof. apply sqrt_sqrt, Vdot_nonneg. Qed.
Lemma cauchy_abs u v : Rabs (Vdot u v) <= Vlen u * Vlen v.
Proof.
  rewrite <- (Rabs_pos_eq (Vlen u * Vlen v)) by (apply Rmult_le_pos; apply Vlen_nonneg).
  apply Rsqr_le_abs_0. unfold Rsqr.
  replace (Vlen u * Vlen v * (Vlen u * Vlen v)) with ((Vlen u * Vlen u) * (Vlen v * Vlen v)) by ring.
  rewrite !Vlen_sq. apply cauchy.
Qed.
Lemma Vlen_pos v : v <> Vzero -> 0 < Vlen v.
Proof.
  intros H. apply sqrt_lt_R0. pose proof (Vdot_nonneg v) as K. destruct (Rle_lt_or_eq_dec _ _ K) as [L|E]; [exact L|].
  exfalso. apply H. unfold Vdot in E. rcbn.
  assert (S : forall x : R, 0 <= x * x) by (intros x; apply Rle_0_sqr).
  pose proof (S (vx v)). pose proof (S (vy v)). pose proof (S (vz v)).
  assert (Z : forall x : R, x * x = 0 -> x = 0) by (intros x Hx; apply Rmult_integral in Hx; tauto).
  destruct v as [x y z]. cbn [vx vy vz] in *. unfold Vzero. f_equal; apply Z; lra.
Qed.

Lemma cos_range u v : u <> Vzero -> v <> Vzero -> -1 <= Vdot u v / (Vlen u * Vlen v) <= 1.
Proof.
  intros Hu Hv. apply Vlen_pos in Hu, Hv. pose proof (cauchy_abs u v) as H. apply Rabs_le_inv in H.
  assert (P : 0 < Vlen u * Vlen v) by (apply Rmult_lt_0_compat; assumption).
  split; [apply Rmult_le_reg_r with (1 := P)|apply Rmult_le_reg_r with (1 := P)];
    unfold Rdiv; rewrite Rmult_assoc, Rinv_l; lra.
Qed.

Lemma angle_R (u v : Rvector) : u <> Vzero -> v <> Vzero ->
  angle u v = acos (Vdot u v / (Vlen u * Vlen v)) * 180 / PI.
Proof.
  intros Hu Hv. pose proof (cos_range u v Hu Hv) as [C1 C2]. apply Vlen_pos in Hu, Hv.
  unfold angle. change (vlen u) with (Vlen u). change (vlen v) with (Vlen v). change (dot u v) with (Vdot u v). rcbn.
  replace (Vdot u v / Vlen u / Vlen v) with (Vdot u v / (Vlen u * Vlen v)) by (field; lra).
  unfold nofZ. rcbn.
  assert (Rltb (Vdot u v / (Vlen u * Vlen v)) (-1) = false) as -> by (apply Rltb_false; exact C1).
  assert (Rltb 1 (Vdot u v / (Vlen u * Vlen v)) = false) as -> by (apply Rltb_false; exact C2). reflexivity.
Qed.

Lemma angle_sym (u v : Rvector) : angle u v = angle v u.
Proof.
  unfold angle. rewrite !dot_R, Vdot_comm. rcbn.
  replace (Vdot v u / vlen u / vlen v) with (Vdot v u / vlen v / vlen u) by (unfold Rdiv; ring). reflexivity.
Qed.
Lemma angle_range (u v : Rvector) : 0 <= angle u v <= 180.
Proof.
  unfold angle. rcbn. destruct (_ || _)%bool; [lra|]. match goal with |- context[acos ?x] => pose proof (acos_bound x) as [A1 A2]; set (c := acos x) in * end.
  pose proof PI_RGT_0. split.
  - unfold Rdiv. apply Rmult_le_pos; [lra|]. left. now apply Rinv_0_lt_compat.
  - apply Rmult_le_reg_r with PI; [assumption|]. unfold Rdiv. rewrite Rmult_assoc, Rinv_l by lra. lra.
Qed.

Lemma angle_opposite (v : Rvector) k : v <> Vzero -> 0 < k -> angle v (Vmul (- k) v) = 180.
Proof.
  intros Hv Hk.
  assert (Hw : Vmul (- k) v <> Vzero).
  { intros E. apply Hv. destruct v as [x y z]. unfold Vmul, Vzero in *. cbn [vx vy vz] in E.
    pose proof (f_equal (fun w : Rvector => vx w) E) as E1. pose proof (f_equal (fun w : Rvector => vy w) E) as E2.
    pose proof (f_equal (fun w : Rvector => vz w) E) as E3. cbn [vx vy vz] in *. rcbn.
    assert (Z : forall t : R, - k * t = 0 -> t = 0) by (intros t Ht; apply Rmult_integral in Ht; lra).
    f_equal; apply Z; assumption. }
  rewrite angle_R by assumption.
  assert (L : Vlen (Vmul (- k) v) = k * Vlen v).
  { unfold Vlen. replace (Vdot (Vmul (- k) v) (Vmul (- k) v)) with (k * k * Vdot v v) by (unfold Vdot, Vmul; cbn [vx vy vz]; rcbn; ring).
    rewrite sqrt_mult_alt by (apply Rle_0_sqr). f_equal. apply sqrt_square. lra. }
  apply Vlen_pos in Hv. rewrite L.
  replace (Vdot v (Vmul (- k) v)) with (- (k * (Vlen v * Vlen v))) by (rewrite Vlen_sq; unfold Vdot, Vmul; cbn [vx vy vz]; rcbn; ring).
  replace (- (k * (Vlen v * Vlen v)) / (Vlen v * (k * Vlen v))) with (Ropp 1) by (field; lra).
  replace (Ropp 1) with (cos PI) by (rewrite cos_PI; lra).
  rewrite acos_cos by (pose proof PI_RGT_0; lra).
  rcbn. field. apply PI_neq0.
Qed.

Lemma angle_lt (u v : Rvector) b : u <> Vzero -> v <> Vzero -> 0 <= b <= 180 ->
  (angle u v < b <-> Vlen u * Vlen v * cos (b * PI / 180) < Vdot u v).
Proof.
  intros Hu Hv Hb. rewrite angle_R by assumption. pose proof (cos_range u v Hu Hv) as C.
  apply Vlen_pos in Hu, Hv. set (c := Vdot u v / (Vlen u * Vlen v)) in *.
  assert (P : 0 < Vlen u * Vlen v) by (apply Rmult_lt_0_compat; assumption).
  assert (E : Vdot u v = Vlen u * Vlen v * c) by (unfold c; field; lra). rewrite E.
  pose proof PI_RGT_0 as PI0. set (be := b * PI / 180).
  assert (Bb : 0 <= be <= PI).
  { unfold be. split; [apply Rmult_le_pos; [apply Rmult_le_pos; lra|lra]|].
    apply Rmult_le_reg_r with 180; [lra|]. unfold Rdiv. rewrite Rmult_assoc, Rinv_l by lra. nra. }
  pose proof (acos_bound c) as Ab.
  assert (K : acos c * 180 / PI < b <-> acos c < be).
  { unfold be. split; intros H.
    - apply Rmult_lt_reg_r with (180 / PI); [apply Rdiv_lt_0_compat; lra|].
      replace (b * PI / 180 * (180 / PI)) with b by (field; lra). lra.
    - apply Rmult_lt_reg_r with (PI / 180); [apply Rdiv_lt_0_compat; lra|].
      replace (acos c * 180 / PI * (PI / 180)) with (acos c) by (field; lra). lra. }
  rewrite K. split; intros H.
  - apply Rmult_lt_compat_l; [exact P|]. rewrite <- (cos_acos c) by exact C. apply cos_decreasing_1; lra.
  - apply Rmult_lt_reg_l in H; [|exact P]. rewrite <- (cos_acos c) in H by exact C. apply cos_decreasing_0; lra.
Qed.

(** ** Splitting a triangle *)
Lemma cross_arrow (a b c : Rpoint) : cross (vectorTo a b) (vectorTo a c) = varea a b c.
Proof. unfold cross, vectorTo, varea. cbn [vx vy vz]. pt. rcbn. reflexivity. Qed.

Lemma new_area (a b c : Rpoint) : tri_area (newTriangle a b c) = varea a b c /\ t_n (newTriangle a b c) = varea a b c.
Proof. split; [reflexivity|]. unfold newTriangle. cbn [t_n]. apply cross_arrow. Qed.

Lemma V_ext (u v : Rvector) : (vx u : R) = vx v -> (vy u : R) = vy v -> (vz u : R) = vz v -> u = v.
Proof. destruct u, v; cbn. intros; subst; reflexivity. Qed.

Ltac va := apply V_ext; unfold Vsum, fold_right, Vadd, Vmul, Vzero, varea, along; cbn [vx vy vz]; pt; cbn [px py pz]; rcbn; ring.

Lemma area_corner a b c s u : varea a (along a b s) (along a c u) = Vmul (s * u) (varea a b c).
Proof. va. Qed.
Lemma area_quad1 a b c s : varea (along a b s) b c = Vmul (1 - s) (varea a b c).
Proof. va. Qed.
Lemma area_quad2 a b c s u : varea c (along a c u) (along a b s) = Vmul (s * (1 - u)) (varea a b c).
Proof. va. Qed.
Lemma area_pentagon a b c l1 l2 : Vadd (varea a l1 l2) (Vadd (varea l1 b c) (varea c l2 l1)) =
  Vadd (varea a b c) (Vadd (varea a l1 b) (varea a c l2)).
Proof. va. Qed.
Lemma area_rev a b c : varea c b a = Vmul (-1) (varea a b c).
Proof. va. Qed.
Lemma area_along_ac a b c u : varea a b (along a c u) = Vmul u (varea a b c).
Proof. va. Qed.
Lemma area_along_ab a b s : varea a b (along a b s) = Vzero.
Proof. va. Qed.

Lemma Vlen_mul k v : 0 <= k -> Vlen (Vmul k v) = k * Vlen v.
Proof.
  intros Hk. unfold Vlen. replace (Vdot (Vmul k v) (Vmul k v)) with (k * k * Vdot v v) by (unfold Vdot, Vmul; cbn [vx vy vz]; rcbn; ring).
  rewrite sqrt_mult_alt by (apply Rle_0_sqr). f_equal. now apply sqrt_square.
Qed.
Lemma Vlen_zero : Vlen Vzero = 0.
Proof. unfold Vlen, Vdot, Vzero. cbn [vx vy vz]. rcbn. replace (0 * 0 + 0 * 0 + 0 * 0) with 0 by ring. apply sqrt_0. Qed.

(** (a, b, c) are the vertices in cyclic order, starting at the corner a *)
Definition corner_of (t : Rtriangle) (a b c : Rpoint) : Prop :=
  (a, b, c) = (t1 t, t2 t, t3 t) \/ (a, b, c) = (t2 t, t3 t, t1 t) \/ (a, b, c) = (t3 t, t1 t, t2 t).

Lemma turn_corner (t : Rtriangle) a b c : corner_of t a b c ->
  ~ closer (1 / 10 ^ 6) a b -> ~ closer (1 / 10 ^ 6) a c -> turn_to a t = (a, b, c).
Proof.
  assert (E : 1 / 10 ^ 6 = / 1000000) by lra. rewrite E.
  intros [[= -> -> ->]|[[= -> -> ->]|[= -> -> ->]]] Hb Hc; unfold turn_to.
  - assert (pt_equal (t2 t) (t1 t) = false) as -> by (apply pt_equal_R_false; intros H; apply Hb, closer_sym, H).
    assert (pt_equal (t3 t) (t1 t) = false) as -> by (apply pt_equal_R_false; intros H; apply Hc, closer_sym, H).
    reflexivity.
  - rewrite pt_equal_refl. reflexivity.
  - assert (pt_equal (t2 t) (t3 t) = false) as -> by (apply pt_equal_R_false; intros H; apply Hc, closer_sym, H).
    rewrite pt_equal_refl. reflexivity.
Qed.

Lemma split_ok (t : Rtriangle) a b c s u ln : corner_of t a b c ->
  ~ closer (1 / 10 ^ 6) a b -> ~ closer (1 / 10 ^ 6) a c ->
  ln = L2 (along a c u) (along a b s) \/ (ln = L2 (along a b s) (along a c u) /\ 1 / 10 ^ 6 <= Rabs u * Vlen (varea a b c)) ->
  splitOnThree a ln t = (newTriangle a (along a b s) (along a c u), newTriangle (along a b s) b c,
                         newTriangle c (along a c u) (along a b s)).
Proof.
  intros Hc Nb Nc Hl. unfold splitOnThree. rewrite (turn_corner t a b c Hc Nb Nc).
  rewrite cross_arrow, vlen_R. destruct Hl as [->|[-> Hu]]; cbn [lp1 lp2].
  - rewrite area_along_ab, Vlen_zero.
    assert (@almostZero ArithR 0 = true) as -> by (apply almostZero_R; rewrite Rabs_R0; lra). reflexivity.
  - rewrite area_along_ac.
    assert (K : Vlen (Vmul u (varea a b c)) = Rabs u * Vlen (varea a b c)).
    { destruct (Rle_dec 0 u) as [P|P].
      - rewrite Rabs_pos_eq by exact P. now apply Vlen_mul.
      - rewrite Rabs_left by lra. rewrite <- Vlen_mul by lra. unfold Vlen. f_equal. unfold Vdot, Vmul. cbn [vx vy vz]. rcbn. ring. }
    assert (@almostZero ArithR (Vlen (Vmul u (varea a b c))) = false) as ->; [|reflexivity].
    destruct (almostZero _) eqn:Z; [|reflexivity]. apply almostZero_R in Z.
    rewrite Rabs_pos_eq in Z by apply Vlen_nonneg. rewrite K in Z. lra.
Qed.

(** below the threshold the cut points are exchanged *)
Lemma split_small (t : Rtriangle) a b c s u : corner_of t a b c ->
  ~ closer (1 / 10 ^ 6) a b -> ~ closer (1 / 10 ^ 6) a c -> 0 <= u -> u * Vlen (varea a b c) < 1 / 10 ^ 6 ->
  splitOnThree a (L2 (along a b s) (along a c u)) t =
    (newTriangle a (along a c u) (along a b s), newTriangle (along a c u) b c, newTriangle c (along a b s) (along a c u)).
Proof.
  intros Hc Nb Nc Hu Hs. unfold splitOnThree. rewrite (turn_corner t a b c Hc Nb Nc).
  rewrite cross_arrow, vlen_R. cbn [lp1 lp2]. rewrite area_along_ac.
  assert (@almostZero ArithR (Vlen (Vmul u (varea a b c))) = true) as ->; [|reflexivity].
  apply almostZero_R. rewrite Rabs_pos_eq by apply Vlen_nonneg. rewrite Vlen_mul by exact Hu. lra.
Qed.

(** ** Sides of a plane *)
Lemma front_R (p : Rplane) (q : Rpoint) : pointInFront p q = true <-> 0 <= sd p q.
Proof. unfold pointInFront, dot, vectorTo, sd. cbn [vx vy vz]. pt. rcbn. apply Rleb_true. Qed.

Lemma touching_nil (p : Rplane) (t : Rtriangle) a b c : corner_of t a b c ->
  sd p a = 0 -> sd p b * sd p c > 0 -> intersectTriangle p t = None.
Proof.
  intros Hc Ha Hbc. destruct (single_pick p a b c Ha Hbc) as (E1 & E2 & E3). unfold intersectTriangle.
  assert (S : forall x : Rpoint, distinct_pair (Some x) (Some x) = None) by (intros x; apply pair_same).
  destruct Hc as [[= -> -> ->]|[[= -> -> ->]|[= -> -> ->]]]; rewrite E1, E2, E3; unfold pick_pair;
    cbn [distinct_pair]; rewrite ?pt_equal_refl; reflexivity.
Qed.
