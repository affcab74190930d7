(** * Plane sections of watertight meshes are closed (exact arithmetic) *)
From Coq Require Import ZArith Reals Lra Lia List Bool Permutation Sorted.
From Flocq Require Import Core.Raux.
From Verif Require Import Arith ArithR Prim Path PathClaims GeomSpec GeomProofs JoinProofs Properties_Path SlicerClaims SlicerProofs ClosedClaims JoinClosed JoinClosed2.
Import ListNotations.
Local Open Scope R_scope.
Close Scope num_scope.

Lemma dp_l (e : option Rpoint) : distinct_pair (A := ArithR) None e = None.
Proof. reflexivity. Qed.

Section Plane.
Variable p : Rplane.
Let n := pl_n p.
Definition going_up (e : side) : bool := Rltb (sd p (fst e)) 0 && Rltb 0 (sd p (snd e)).
Definition going_down (e : side) : bool := Rltb 0 (sd p (fst e)) && Rltb (sd p (snd e)) 0.
Definition at_plane (e : side) : Rpoint := cut p (fst e) (snd e).

Lemma up_true e : going_up e = true <-> sd p (fst e) < 0 /\ 0 < sd p (snd e).
Proof. unfold going_up. rewrite andb_true_iff, !Rltb_true. tauto. Qed.
Lemma down_true e : going_down e = true <-> 0 < sd p (fst e) /\ sd p (snd e) < 0.
Proof. unfold going_down. rewrite andb_true_iff, !Rltb_true. tauto. Qed.

Lemma back_up e : going_up (back e) = going_down e.
Proof. unfold going_up, going_down, back. cbn [fst snd]. apply andb_comm. Qed.
Lemma back_down e : going_down (back e) = going_up e.
Proof. unfold going_up, going_down, back. cbn [fst snd]. apply andb_comm. Qed.
Lemma back_at e : going_up e = true \/ going_down e = true -> at_plane (back e) = at_plane e.
Proof.
  intros H. unfold at_plane, back. cbn [fst snd]. apply cut_sym. rewrite up_true, down_true in H. lra.
Qed.

Lemma cut_meets e : going_up e = true \/ going_down e = true -> meets p e (at_plane e).
Proof.
  intros H. rewrite up_true, down_true in H. unfold meets, at_plane, cut. destruct e as [a b]. cbn [fst snd] in *. split.
  - eexists. split; [|reflexivity]. apply cross_t; [lra|]. destruct H as [[H1 H2]|[H1 H2]]; apply Rmult_le_0_r || idtac.
    + pose proof (Rmult_lt_0_compat (- sd p a) (sd p b)). lra.
    + pose proof (Rmult_lt_0_compat (sd p a) (- sd p b)). lra.
  - rewrite sd_along. field. lra.
Qed.

(** ** Orientation *)
Definition dir (N : Rvector) : Rvector := cross n N.
Definition vof (a b : Rpoint) : Rvector := vectorTo a b.

Lemma triple (d N : Rvector) : dot (cross d n) N = (dot d (dir N) : R).
Proof. unfold dot, cross, dir, cross. cbn [vx vy vz]. rcbn. ring. Qed.

(** vertex a on one side, b and c on the other: the section has the direction of
    n x N *)
Lemma alone_dir (a b c : Rpoint) : let N := t_n (newTriangle (A := ArithR) a b c) in
  sd p a <> 0 -> sd p a * sd p b < 0 -> sd p a * sd p c < 0 ->
  exists k, 0 < k /\ forall f : Rvector -> R, (f = @vx ArithR \/ f = @vy ArithR \/ f = @vz ArithR) ->
    f (vectorTo (cut p a c) (cut p a b)) * sd p a = - k * f (dir N).
Proof.
  intros N Ha Hb Hc.
  set (ha := sd p a) in *. set (hb := sd p b) in *. set (hc := sd p c) in *.
  assert (Dab : ha - hb <> 0) by (intros E; assert (ha = hb) by lra; subst; nra).
  assert (Dac : ha - hc <> 0) by (intros E; assert (ha = hc) by lra; subst; nra).
  set (s := ha / (ha - hb)). set (r := ha / (ha - hc)).
  assert (Hs : 0 < s).
  { unfold s. replace (ha / (ha - hb)) with ((ha * ha) / (ha * (ha - hb))) by (field; split; [exact Dab|exact Ha]).
    apply Rdiv_lt_0_compat; nra. }
  assert (Hr : 0 < r).
  { unfold r. replace (ha / (ha - hc)) with ((ha * ha) / (ha * (ha - hc))) by (field; split; [exact Dac|exact Ha]).
    apply Rdiv_lt_0_compat; nra. }
  assert (NB : X b * vx n + Y b * vy n + Z3 b * vz n - (X a * vx n + Y a * vy n + Z3 a * vz n) = hb - ha) by (unfold ha, hb, sd, n; ring).
  assert (NC : X c * vx n + Y c * vy n + Z3 c * vz n - (X a * vx n + Y a * vy n + Z3 a * vz n) = hc - ha) by (unfold ha, hc, sd, n; ring).
  assert (Es : s * (hb - ha) = - ha) by (unfold s; field; exact Dab).
  assert (Er : r * (hc - ha) = - ha) by (unfold r; field; exact Dac).
  exists (r * s). split; [nra|].
  intros f Hf.
  unfold cut. fold ha hb hc. fold s r.
  (* n x N = B (n.C) - C (n.B) *)
  assert (Kx : vx (dir N) = (X b - X a) * (hc - ha) - (X c - X a) * (hb - ha)).
  { rewrite <- NB, <- NC. unfold dir, N, newTriangle, cross, vectorTo. cbn [t_n vx vy vz]. unfold X, Y, Z3. rcbn. ring. }
  assert (Ky : vy (dir N) = (Y b - Y a) * (hc - ha) - (Y c - Y a) * (hb - ha)).
  { rewrite <- NB, <- NC. unfold dir, N, newTriangle, cross, vectorTo. cbn [t_n vx vy vz]. unfold X, Y, Z3. rcbn. ring. }
  assert (Kz : vz (dir N) = (Z3 b - Z3 a) * (hc - ha) - (Z3 c - Z3 a) * (hb - ha)).
  { rewrite <- NB, <- NC. unfold dir, N, newTriangle, cross, vectorTo. cbn [t_n vx vy vz]. unfold X, Y, Z3. rcbn. ring. }
  assert (G : forall B C : R, (s * B - r * C) * ha = - (r * s) * (B * (hc - ha) - C * (hb - ha))).
  { intros B C. replace (- (r * s) * (B * (hc - ha) - C * (hb - ha))) with (- (s * B) * (r * (hc - ha)) + (r * C) * (s * (hb - ha))) by ring.
    rewrite Es, Er. ring. }
  destruct Hf as [-> |[-> | ->]]; [rewrite Kx, <- G|rewrite Ky, <- G|rewrite Kz, <- G];
    unfold vectorTo, along; cbn [vx vy vz px py pz]; unfold X, Y, Z3; rcbn; ring.
Qed.

(** rounding does not turn a visible segment around *)
Lemma sq_small (y d : R) : Rabs d <= / 100000000 -> - / (4 * 10000000000000000) <= y * (y - d).
Proof.
  intros H. pose proof (Rle_0_sqr (y - d / 2)) as S. unfold Rsqr in S.
  assert (D : d * d <= / 10000000000000000).
  { apply Rabs_le_inv in H. pose proof (Rmult_le_compat (/ 100000000 - d) (/ 100000000 - d)). nra. }
  nra.
Qed.
Lemma sq_big (y d : R) : Rabs d <= / 100000000 -> / 1000000 <= Rabs y -> / 2000000000000 <= y * (y - d).
Proof.
  intros H1 H2. apply Rabs_le_inv in H1. destruct (Rcase_abs y) as [N|N].
  - rewrite (Rabs_left y N) in H2. nra.
  - rewrite (Rabs_right y N) in H2. nra.
Qed.
Lemma keeps_direction (u d u' d' : Rpoint) : within (/ 200000000) u' u -> within (/ 200000000) d' d -> ~ closer (/ 1000000) u' d' ->
  0 < (X d' - X u') * (X d - X u) + (Y d' - Y u') * (Y d - Y u) + (Z3 d' - Z3 u') * (Z3 d - Z3 u).
Proof.
  intros (U1 & U2 & U3) (D1 & D2 & D3) N.
  assert (K : forall a b a' b', Rabs (a' - a) <= / 200000000 -> Rabs (b' - b) <= / 200000000 ->
     - / (4 * 10000000000000000) <= (b' - a') * (b - a) /\ (/ 1000000 <= Rabs (a' - b') -> / 2000000000000 <= (b' - a') * (b - a))).
  { intros a b a' b' H1 H2. set (y := b' - a'). set (dl := (b' - b) - (a' - a)).
    replace (b - a) with (y - dl) by (unfold y, dl; ring).
    assert (Rabs dl <= / 100000000) by (unfold dl; apply Rabs_le_inv in H1; apply Rabs_le_inv in H2; apply Rabs_le; lra).
    split; [now apply sq_small|]. intros H3. apply sq_big; [assumption|]. unfold y. now rewrite Rabs_minus_sym. }
  destruct (K _ _ _ _ U1 D1) as [A1 B1]. destruct (K _ _ _ _ U2 D2) as [A2 B2]. destruct (K _ _ _ _ U3 D3) as [A3 B3].
  destruct (Rlt_le_dec (Rabs (X u' - X d')) (/ 1000000)) as [L1|L1].
  2:{ specialize (B1 L1). lra. }
  destruct (Rlt_le_dec (Rabs (Y u' - Y d')) (/ 1000000)) as [L2|L2].
  2:{ specialize (B2 L2). lra. }
  destruct (Rlt_le_dec (Rabs (Z3 u' - Z3 d')) (/ 1000000)) as [L3|L3].
  2:{ specialize (B3 L3). lra. }
  exfalso. apply N. repeat split; assumption.
Qed.

(** if the way from u to d goes against n x N, the line goes from u to d, whatever
    the order in which the two points are given *)
Lemma ordered_dir (t : Rtriangle) (u d : Rpoint) (k : R) : 0 < k ->
  (forall f : Rvector -> R, (f = @vx ArithR \/ f = @vy ArithR \/ f = @vz ArithR) -> f (vectorTo u d) = - k * f (dir (t_n t))) ->
  ~ closer (/ 1000000) (pt_round8 u) (pt_round8 d) ->
  ordered_line p t u d = Some (L2 (pt_round8 u) (pt_round8 d)) /\ ordered_line p t d u = Some (L2 (pt_round8 u) (pt_round8 d)).
Proof.
  intros Hk Hd Nc. set (u' := pt_round8 u) in *. set (d' := pt_round8 d) in *.
  assert (Nc' : ~ closer (/ 1000000) d' u') by (intros C; apply Nc; now apply closer_sym).
  pose proof (keeps_direction u d u' d' (pt_round8_near u) (pt_round8_near d) Nc) as S.
  pose proof (Hd _ (or_introl eq_refl)) as Hx. pose proof (Hd _ (or_intror (or_introl eq_refl))) as Hy.
  pose proof (Hd _ (or_intror (or_intror eq_refl))) as Hz.
  unfold vectorTo in Hx, Hy, Hz. cbn [vx vy vz] in Hx, Hy, Hz.
  change (X d - X u = - k * vx (dir (t_n t))) in Hx. change (Y d - Y u = - k * vy (dir (t_n t))) in Hy. change (Z3 d - Z3 u = - k * vz (dir (t_n t))) in Hz.
  set (w := dir (t_n t)) in *.
  assert (Dt : dot (vectorTo u' d') w < 0).
  { rewrite Hx, Hy, Hz in S. unfold dot, vectorTo. cbn [vx vy vz]. rcbn.
    change ((X d' - X u') * vx w + (Y d' - Y u') * vy w + (Z3 d' - Z3 u') * vz w < 0). nra. }
  unfold ordered_line. fold u' d'. rewrite (proj2 (pt_equal_R_false _ _) Nc), (proj2 (pt_equal_R_false _ _) Nc').
  fold n. rewrite !triple. fold w. split.
  - assert (nltb (dot (vectorTo u' d') w) n0 = true) as ->; [|reflexivity]. rcbn. now apply Rltb_true.
  - assert (nltb (dot (vectorTo d' u') w) n0 = false) as ->; [|reflexivity]. rcbn. apply Rltb_false.
    unfold dot, vectorTo in Dt |- *. cbn [vx vy vz] in Dt |- *. revert Dt. rcbn. lra.
Qed.

(** ** One triangle *)
Lemma newtri_rot (a b c : Rpoint) : t_n (newTriangle (A := ArithR) b c a) = t_n (newTriangle a b c).
Proof.
  unfold newTriangle, cross, vectorTo. cbn [t_n vx vy vz]. rcbn. f_equal; ring.
Qed.

(** a alone above or below: u where the way goes up, d where it goes down *)
Lemma alone_line (t : Rtriangle) (a b c : Rpoint) : t_n t = t_n (newTriangle (A := ArithR) a b c) ->
  sd p a <> 0 -> sd p a * sd p b < 0 -> sd p a * sd p c < 0 ->
  let u := if Rltb (sd p a) 0 then cut p a b else cut p a c in
  let d := if Rltb (sd p a) 0 then cut p a c else cut p a b in
  ~ closer (/ 1000000) (pt_round8 u) (pt_round8 d) ->
  ordered_line p t (cut p a b) (cut p a c) = Some (L2 (pt_round8 u) (pt_round8 d)) /\
  ordered_line p t (cut p a c) (cut p a b) = Some (L2 (pt_round8 u) (pt_round8 d)).
Proof.
  intros Ht Ha Hb Hc u d Nc. destruct (alone_dir a b c Ha Hb Hc) as (k & Hk & Hf). rewrite <- Ht in Hf.
  destruct (Rltb_spec (sd p a) 0) as [L|L].
  - (* a below: a -> b goes up *)
    unfold u, d in *.
    apply and_comm. destruct (ordered_dir t (cut p a b) (cut p a c) (k / - sd p a)) as [H1 H2].
    + apply Rdiv_lt_0_compat; lra.
    + intros f Hff. specialize (Hf f Hff).
      assert (Op : f (vectorTo (cut p a b) (cut p a c)) = - f (vectorTo (cut p a c) (cut p a b))).
      { destruct Hff as [-> |[-> | ->]]; unfold vectorTo; cbn [vx vy vz]; rcbn; ring. }
      rewrite Op. apply Rmult_eq_reg_r with (sd p a); [|exact Ha].
      replace (- f (vectorTo (cut p a c) (cut p a b)) * sd p a) with (- (f (vectorTo (cut p a c) (cut p a b)) * sd p a)) by ring.
      rewrite Hf. field. exact Ha.
    + exact Nc.
    + split; assumption.
  - unfold u, d in *. apply and_comm. destruct (ordered_dir t (cut p a c) (cut p a b) (k / sd p a)) as [H1 H2].
    + apply Rdiv_lt_0_compat; lra.
    + intros f Hff. specialize (Hf f Hff). apply Rmult_eq_reg_r with (sd p a); [|exact Ha]. rewrite Hf. field. exact Ha.
    + exact Nc.
    + split; assumption.
Qed.

Definition far (u d : Rpoint) : Prop := ~ closer (/ 1000000) u d /\ ~ closer (/ 1000000) (pt_round8 u) (pt_round8 d).

Lemma tri_section (t : Rtriangle) : t = newTriangle (t1 t) (t2 t) (t3 t) ->
  sd p (t1 t) <> 0 -> sd p (t2 t) <> 0 -> sd p (t3 t) <> 0 ->
  (forall e e', In e (tri_sides t) -> In e' (tri_sides t) -> going_up e = true -> going_down e' = true -> far (at_plane e) (at_plane e')) ->
  (intersectTriangle p t = None /\ filter going_up (tri_sides t) = [] /\ filter going_down (tri_sides t) = []) \/
  (exists eu ed, filter going_up (tri_sides t) = [eu] /\ filter going_down (tri_sides t) = [ed] /\
     intersectTriangle p t = Some (L2 (pt_round8 (at_plane eu)) (pt_round8 (at_plane ed)))).
Proof.
  intros Et Ha Hb Hc F. set (a := t1 t) in *. set (b := t2 t) in *. set (c := t3 t) in *.
  assert (N0 : t_n t = t_n (newTriangle (A := ArithR) a b c)) by now rewrite Et.
  pose proof N0 as N1. rewrite <- newtri_rot in N1. pose proof N1 as N2. rewrite <- newtri_rot in N2.
  unfold intersectTriangle, tri_sides in *. fold a b c in F |- *. cbn [filter].
  assert (Cs : forall x y, sd p x * sd p y < 0 -> cut p x y = cut p y x).
  { intros x y H. apply cut_sym. intros E. rewrite E in H. nra. }
  assert (Dp : forall x y : Rpoint, ~ closer (/ 1000000) x y -> distinct_pair (A := ArithR) (Some x) (Some y) = Some (x, y)).
  { intros x y H. destruct (distinct_cases x y) as [[E _]|[_ E]]; [exact E|contradiction]. }
  assert (MP : forall x y, x < 0 -> 0 < y -> x * y < 0) by (intros; nra).
  assert (MP' : forall x y, x < 0 -> 0 < y -> y * x < 0) by (intros; nra).
  assert (PP : forall x y, 0 < x -> 0 < y -> x * y > 0) by (intros; nra).
  assert (NN : forall x y, x < 0 -> y < 0 -> x * y > 0) by (intros; nra).
  assert (Up : forall x y : @point ArithR, sd p x < 0 -> 0 < sd p y -> going_up (x, y) = true /\ going_down (x, y) = false).
  { intros x y H1 H2. split; [apply up_true; now split|]. apply not_true_is_false. rewrite down_true. cbn [fst snd]. lra. }
  assert (Down : forall x y : @point ArithR, 0 < sd p x -> sd p y < 0 -> going_up (x, y) = false /\ going_down (x, y) = true).
  { intros x y H1 H2. split; [|apply down_true; now split]. apply not_true_is_false. rewrite up_true. cbn [fst snd]. lra. }
  assert (Nei : forall x y : @point ArithR, sd p x * sd p y > 0 -> going_up (x, y) = false /\ going_down (x, y) = false).
  { intros x y H. split; apply not_true_is_false; rewrite ?up_true, ?down_true; cbn [fst snd]; intros [H1 H2]; nra. }
  assert (IS : forall x y, sd p x * sd p y < 0 -> intersectSegment p x y = Some (cut p x y)).
  { intros x y H. apply isect_some; [|lra]. intros E. rewrite E in H. nra. }
  assert (IN : forall x y, sd p x * sd p y > 0 -> intersectSegment p x y = None) by (intros x y H; apply isect_none; now right).
  destruct (Rlt_le_dec (sd p a) 0) as [A0|A0]; destruct (Rlt_le_dec (sd p b) 0) as [B0|B0]; destruct (Rlt_le_dec (sd p c) 0) as [C0|C0].
  - left. rewrite !IN by auto. destruct (Nei a b ltac:(auto)) as [-> ->]. destruct (Nei b c ltac:(auto)) as [-> ->]. destruct (Nei c a ltac:(auto)) as [-> ->]. auto.
  - (* c alone above *)
    assert (C1 : 0 < sd p c) by lra. right. exists (b, c), (c, a).
    destruct (Nei a b) as [E1 E2]; auto. destruct (Up b c) as [E3 E4]; auto. destruct (Down c a) as [E5 E6]; auto.
    rewrite E1, E2, E3, E4, E5, E6. split; [reflexivity|]. split; [reflexivity|].
    destruct (F (b, c) (c, a)) as [F1 F2]; cbn; auto. unfold at_plane in *. cbn [fst snd] in *.
    rewrite (IN a b), (IS b c), (IS c a) by auto. unfold pick_pair. rewrite !dp_l. rewrite (Dp _ _ F1).
    assert (Hr : Rltb (sd p c) 0 = false) by now apply Rltb_false.
    destruct (alone_line t c a b N2 Hc) as [L1 L2']; auto.
    { rewrite Hr. rewrite <- (Cs b c) by auto. exact F2. }
    rewrite Hr in L1, L2'. rewrite <- (Cs b c) in L1, L2' by auto. exact L2'.
  - (* b alone above *)
    assert (B1 : 0 < sd p b) by lra. right. exists (a, b), (b, c).
    destruct (Nei c a) as [E1 E2]; auto. destruct (Up a b) as [E3 E4]; auto. destruct (Down b c) as [E5 E6]; auto.
    rewrite E1, E2, E3, E4, E5, E6. split; [reflexivity|]. split; [reflexivity|].
    destruct (F (a, b) (b, c)) as [F1 F2]; cbn; auto. unfold at_plane in *. cbn [fst snd] in *.
    rewrite (IN c a), (IS a b), (IS b c) by auto. unfold pick_pair. rewrite (Dp _ _ F1).
    assert (Hr : Rltb (sd p b) 0 = false) by now apply Rltb_false.
    destruct (alone_line t b c a N1 Hb) as [L1 L2']; auto.
    { rewrite Hr. rewrite <- (Cs a b) by auto. exact F2. }
    rewrite Hr in L1, L2'. rewrite <- (Cs a b) in L1, L2' by auto. exact L2'.
  - (* a alone below *)
    assert (B1 : 0 < sd p b) by lra. assert (C1 : 0 < sd p c) by lra. right. exists (a, b), (c, a).
    destruct (Nei b c) as [E1 E2]; auto. destruct (Up a b) as [E3 E4]; auto. destruct (Down c a) as [E5 E6]; auto.
    rewrite E1, E2, E3, E4, E5, E6. split; [reflexivity|]. split; [reflexivity|].
    destruct (F (a, b) (c, a)) as [F1 F2]; cbn; auto. unfold at_plane in *. cbn [fst snd] in *.
    rewrite (IN b c), (IS a b), (IS c a) by auto. unfold pick_pair. rewrite dp_r. rewrite (Dp _ _ F1).
    assert (Hr : Rltb (sd p a) 0 = true) by now apply Rltb_true.
    destruct (alone_line t a b c N0 Ha) as [L1 L2']; auto.
    { rewrite Hr. rewrite (Cs a c) by auto. exact F2. }
    rewrite Hr in L1, L2'. rewrite (Cs a c) in L1, L2' by auto. exact L1.
  - (* a alone above *)
    assert (A1 : 0 < sd p a) by lra. right. exists (c, a), (a, b).
    destruct (Nei b c) as [E1 E2]; auto. destruct (Down a b) as [E3 E4]; auto. destruct (Up c a) as [E5 E6]; auto.
    rewrite E1, E2, E3, E4, E5, E6. split; [reflexivity|]. split; [reflexivity|].
    destruct (F (c, a) (a, b)) as [F1 F2]; cbn; auto. unfold at_plane in *. cbn [fst snd] in *.
    rewrite (IN b c), (IS a b), (IS c a) by auto. unfold pick_pair. rewrite dp_r.
    rewrite (Dp (cut p a b) (cut p c a)) by (intros K; apply F1; now apply closer_sym).
    assert (Hr : Rltb (sd p a) 0 = false) by now apply Rltb_false.
    destruct (alone_line t a b c N0 Ha) as [L1 L2']; auto.
    { rewrite Hr. rewrite (Cs a c) by auto. exact F2. }
    rewrite Hr in L1, L2'. rewrite (Cs a c) in L1, L2' by auto. exact L1.
  - (* b alone below *)
    assert (A1 : 0 < sd p a) by lra. assert (C1 : 0 < sd p c) by lra. right. exists (b, c), (a, b).
    destruct (Nei c a) as [E1 E2]; auto. destruct (Down a b) as [E3 E4]; auto. destruct (Up b c) as [E5 E6]; auto.
    rewrite E1, E2, E3, E4, E5, E6. split; [reflexivity|]. split; [reflexivity|].
    destruct (F (b, c) (a, b)) as [F1 F2]; cbn; auto. unfold at_plane in *. cbn [fst snd] in *.
    rewrite (IN c a), (IS a b), (IS b c) by auto. unfold pick_pair.
    rewrite (Dp (cut p a b) (cut p b c)) by (intros K; apply F1; now apply closer_sym).
    assert (Hr : Rltb (sd p b) 0 = true) by now apply Rltb_true.
    destruct (alone_line t b c a N1 Hb) as [L1 L2']; auto.
    { rewrite Hr. rewrite <- (Cs a b) by auto. exact F2. }
    rewrite Hr in L1, L2'. rewrite <- (Cs a b) in L1, L2' by auto. exact L2'.
  - (* c alone below *)
    assert (A1 : 0 < sd p a) by lra. assert (B1 : 0 < sd p b) by lra. right. exists (c, a), (b, c).
    destruct (Nei a b) as [E1 E2]; auto. destruct (Down b c) as [E3 E4]; auto. destruct (Up c a) as [E5 E6]; auto.
    rewrite E1, E2, E3, E4, E5, E6. split; [reflexivity|]. split; [reflexivity|].
    destruct (F (c, a) (b, c)) as [F1 F2]; cbn; auto. unfold at_plane in *. cbn [fst snd] in *.
    rewrite (IN a b), (IS b c), (IS c a) by auto. unfold pick_pair. rewrite !dp_l.
    rewrite (Dp (cut p b c) (cut p c a)) by (intros K; apply F1; now apply closer_sym).
    assert (Hr : Rltb (sd p c) 0 = true) by now apply Rltb_true.
    destruct (alone_line t c a b N2 Hc) as [L1 L2']; auto.
    { rewrite Hr. rewrite <- (Cs b c) by auto. exact F2. }
    rewrite Hr in L1, L2'. rewrite <- (Cs b c) in L1, L2' by auto. exact L2'.
  - left. assert (0 < sd p a) by lra. assert (0 < sd p b) by lra. assert (0 < sd p c) by lra.
    rewrite !IN by auto. destruct (Nei a b ltac:(auto)) as [-> ->]. destruct (Nei b c ltac:(auto)) as [-> ->]. destruct (Nei c a ltac:(auto)) as [-> ->]. auto.
Qed.

(** ** The whole mesh *)
Variable m : Rmesh.
Hypothesis WT : watertight m.
Hypothesis GP : general_position p m.

Lemma clear_round (x y : R) : clear_of x y -> x = y \/ / 1000000 <= Rabs (@round8 ArithR x - @round8 ArithR y).
Proof.
  intros [H|H]; [now left|right]. pose proof (round8_near x) as R1. pose proof (round8_near y) as R2.
  apply Rabs_le_inv in R1. apply Rabs_le_inv in R2. unfold Rabs in *.
  destruct (Rcase_abs (x - y)), (Rcase_abs (@round8 ArithR x - @round8 ArithR y)); lra.
Qed.

Lemma sides_apart e e' : In e (sides m) -> In e' (sides m) ->
  (going_up e = true \/ going_down e = true) -> (going_up e' = true \/ going_down e' = true) ->
  let q := at_plane e in let q' := at_plane e' in
  clear_of (X q) (X q') /\ clear_of (Y q) (Y q') /\ clear_of (Z3 q) (Z3 q') /\ (q = q' -> e' = e \/ e' = back e).
Proof. intros H1 H2 H3 H4 q q'. destruct GP as [_ G]. apply (G e e'); auto; now apply cut_meets. Qed.

Lemma different_far e e' : In e (sides m) -> In e' (sides m) ->
  (going_up e = true \/ going_down e = true) -> (going_up e' = true \/ going_down e' = true) ->
  e' <> e -> e' <> back e -> far (at_plane e) (at_plane e').
Proof.
  intros H1 H2 H3 H4 N1 N2. destruct (sides_apart e e' H1 H2 H3 H4) as (Cx & Cy & Cz & Eq).
  set (q := at_plane e) in *. set (q' := at_plane e') in *.
  assert (Nq : q <> q') by (intros E; destruct (Eq E); contradiction).
  split; intros (K1 & K2 & K3); apply Nq; apply pt_ext.
  - destruct Cx as [E|E]; [exact E|lra].
  - destruct Cy as [E|E]; [exact E|lra].
  - destruct Cz as [E|E]; [exact E|lra].
  - destruct (clear_round _ _ Cx) as [E|E]; [exact E|]. exfalso. apply (Rlt_irrefl (/ 1000000)). eapply Rle_lt_trans; [exact E|exact K1].
  - destruct (clear_round _ _ Cy) as [E|E]; [exact E|]. exfalso. apply (Rlt_irrefl (/ 1000000)). eapply Rle_lt_trans; [exact E|exact K2].
  - destruct (clear_round _ _ Cz) as [E|E]; [exact E|]. exfalso. apply (Rlt_irrefl (/ 1000000)). eapply Rle_lt_trans; [exact E|exact K3].
Qed.

Definition mark (e : side) : Rpoint := pt_round8 (at_plane e).

Lemma ends_of_sections m' : incl m' m ->
  map from (sections p m') = map mark (filter going_up (sides m')) /\
  map upto (sections p m') = map mark (filter going_down (sides m')) /\
  Forall (fun q : @path ArithR => (2 <= length q)%nat) (sections p m').
Proof.
  induction m' as [|t m' IH]; intros Inc; [repeat split; constructor|].
  assert (Ht : In t m) by (apply Inc; now left).
  destruct IH as (I1 & I2 & I3); [intros z Hz; apply Inc; now right|].
  destruct WT as (_ & _ & W). rewrite Forall_forall in W. destruct (W t Ht) as (D1 & D2 & D3 & Et).
  destruct GP as [G _].
  assert (S1 : forall e, In e (tri_sides t) -> In e (sides m)) by (intros e He; apply in_flat_map; eauto).
  assert (Vs : forall v, In v [t1 t; t2 t; t3 t] -> sd p v <> 0) by (intros v Hv; apply G; apply in_flat_map; eauto).
  unfold sections, sides. cbn [flat_map]. fold (sections p m') (sides m'). rewrite !filter_app, !map_app.
  destruct (tri_section t Et) as [(E & E1 & E2)|(eu & ed & E1 & E2 & E)].
  - apply Vs. cbn; auto.
  - apply Vs. cbn; auto.
  - apply Vs. cbn; auto.
  - intros e e' He He' Hu Hd. apply different_far; auto.
    + intros ->. apply up_true in Hu. apply down_true in Hd. lra.
    + intros ->. unfold tri_sides, back in He, He'.
      destruct He as [<-|[<-|[<-|[]]]]; cbn [fst snd] in He'; destruct He' as [X1|[X1|[X1|[]]]]; congruence.
  - rewrite E, E1, E2. auto.
  - rewrite E, E1, E2. cbn [map app]. split; [|split].
    + exact (f_equal2 (@cons Rpoint) eq_refl I1).
    + exact (f_equal2 (@cons Rpoint) eq_refl I2).
    + constructor; [cbn; lia|exact I3].
Qed.

Lemma balanced : Permutation (map upto (sections p m)) (map from (sections p m)).
Proof.
  destruct (ends_of_sections m (incl_refl m)) as (-> & -> & _).
  destruct WT as (P & _ & _).
  assert (E : map mark (filter going_up (sides m)) = map mark (filter going_down (map back (sides m)))).
  { clear P. induction (sides m) as [|e l IH]; [reflexivity|]. cbn [map filter]. rewrite back_down. destruct (going_up e) eqn:U; [|exact IH].
    cbn [map]. f_equal; [|exact IH]. unfold mark. rewrite back_at by now left. reflexivity. }
  rewrite E. apply Permutation_map. clear E. revert P. generalize (map back (sides m)). intros l P. induction P.
  - constructor.
  - cbn. destruct (going_down x); auto.
  - cbn. destruct (going_down x), (going_down y); auto. apply perm_swap.
  - etransitivity; eassumption.
Qed.
End Plane.

Lemma plain_R (x : R) : @plain ArithR x.
Proof. unfold plain. rcbn. apply Rleb_true. lra. Qed.

Theorem sections_contours p m : watertight m -> general_position p m ->
  contours (sections p m) /\ apart (sections p m) /\ Forall (fun q : @path ArithR => (2 <= length q)%nat) (sections p m).
Proof.
  intros WT GP. pose proof (balanced p m WT GP) as B.
  destruct (ends_of_sections p m WT GP m (incl_refl m)) as (E1 & E2 & E3).
  split; [|split; [|exact E3]].
  - split.
    + destruct (Permutation_map_inv _ _ B) as (p' & Ep & Pp). exists p'. split; [exact Pp|].
      revert Ep. generalize (sections p m) p'. clear. induction l as [|q l IH]; intros [|q' l'] E; try discriminate; constructor.
      * cbn in E. injection E as E _. rewrite E. apply pt_equal_refl.
      * apply IH. cbn in E. now injection E.
    + assert (K : ForallOrdPairs (fun e e' => pt_equal (mark p e) (mark p e') = false) (filter (going_up p) (sides m))).
      { destruct WT as (_ & ND & _). pose proof (NoDup_filter (going_up p) ND) as ND'.
        assert (Inc : forall e, In e (filter (going_up p) (sides m)) -> In e (sides m) /\ going_up p e = true) by (intros e He; now apply filter_In in He).
        revert ND' Inc. generalize (filter (going_up p) (sides m)). induction l as [|e l IH]; intros ND' Inc; [constructor|].
        apply NoDup_cons_iff in ND'. destruct ND' as [Ne ND']. constructor.
        - apply Forall_forall. intros e' He'. apply pt_equal_R_false.
          destruct (Inc e) as [I1 U1]; [now left|]. destruct (Inc e') as [I2 U2]; [now right|].
          apply (different_far p m GP e e'); auto.
          + intros ->. contradiction.
          + intros ->. rewrite back_up in U2. apply up_true in U1. apply down_true in U2. lra.
        - apply IH; auto. intros x Hx. apply Inc. now right. }
      assert (M : ForallOrdPairs (fun a b : Rpoint => pt_equal a b = false) (map from (sections p m))).
      { rewrite E1. clear -K. induction K as [|e l F _ IH]; cbn; constructor; [|exact IH]. rewrite Forall_map. exact F. }
      clear -M. induction (sections p m) as [|q l IH]; [constructor|]. cbn in M. inversion M as [|? ? F M']; subst.
      constructor; [|now apply IH]. rewrite Forall_map in F. exact F.
  - unfold apart. rewrite E1, E2.
    assert (K : forall f : Rpoint -> R, (f = X \/ f = Y \/ f = Z3) ->
      separated (A := ArithR) (map f (map (mark p) (filter (going_up p) (sides m)) ++ map (mark p) (filter (going_down p) (sides m))))).
    { intros f Hf x y Hx Hy.
      assert (In' : forall z, In z (map f (map (mark p) (filter (going_up p) (sides m)) ++ map (mark p) (filter (going_down p) (sides m)))) ->
        exists e, z = @round8 ArithR (f (at_plane p e)) /\ In e (sides m) /\ (going_up p e = true \/ going_down p e = true)).
      { intros z Hz. apply in_map_iff in Hz. destruct Hz as (q & <- & Hq).
        assert (Q : exists e, q = mark p e /\ In e (sides m) /\ (going_up p e = true \/ going_down p e = true)).
        { apply in_app_or in Hq. destruct Hq as [Hq|Hq]; apply in_map_iff in Hq; destruct Hq as (e & <- & He); apply filter_In in He; exists e; tauto. }
        destruct Q as (e & -> & Q1 & Q2). exists e. split; [|split; assumption]. destruct Hf as [-> |[-> | ->]]; reflexivity. }
      destruct (In' x Hx) as (e & -> & H1 & H2). destruct (In' y Hy) as (e' & -> & H3 & H4).
      destruct (sides_apart p m GP e e' H1 H3 H2 H4) as (Cx & Cy & Cz & _).
      assert (C : clear_of (f (at_plane p e)) (f (at_plane p e'))) by (destruct Hf as [-> |[-> | ->]]; assumption).
      split; [apply plain_R|]. rewrite almostZero_R. rcbn.
      destruct (clear_round _ _ C) as [E|E].
      - rewrite E. rewrite Rminus_eq_0, Rabs_R0. split; [intros _|intros _; lra]. split; apply Rltb_false; lra.
      - split; [intros H; exfalso; revert H; rcbn; intros H; apply (Rlt_irrefl (/ 1000000)); eapply Rle_lt_trans; [exact E|exact H]|].
        intros [L1 L2]. apply Rltb_false in L1. apply Rltb_false in L2. exfalso.
        assert (Z : @round8 ArithR (f (at_plane p e)) - @round8 ArithR (f (at_plane p e')) = 0) by (revert L1 L2; rcbn; lra).
        rewrite Z, Rabs_R0 in E. lra. }
    split; [|split]; [apply (K X)|apply (K Y)|apply (K Z3)]; auto.
Qed.
