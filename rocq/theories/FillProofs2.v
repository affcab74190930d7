(** * Fill planes and fill segments in exact arithmetic *)
From Coq Require Import ZArith Reals Lra Lia Psatz List Bool Permutation Sorted PeanoNat.
From Flocq Require Import Core.Raux.
From Verif Require Import Arith ArithR Prim Path GeomSpec GeomProofs MeshProofs Slicer SlicerClaims SlicerProofs SlicerProofs2
  Properties_Geom Fill FillClaims.
Import ListNotations.
Close Scope Z_scope. Close Scope num_scope.
Local Open Scope R_scope.

(** ** Fill planes *)

Lemma fill_planes_R (axis : Rvector) (step : R) : forall k c,
  fill_planes (A := ArithR) k (at_axis axis c) axis step =
  map (fun i => Pl (at_axis axis (c + INR i * step)) axis) (seq 1 k).
Proof.
  assert (S : forall c, pshift (A := ArithR) (at_axis axis c) (vscale (A := ArithR) axis step) = at_axis axis (c + step)).
  { intros c. unfold pshift, vscale, at_axis. cbn [px py pz vx vy vz]. rcbn. f_equal; rcbn; ring. }
  induction k as [|k IH]; intros c; [reflexivity|].
  cbn [fill_planes seq map]. rewrite S, IH. f_equal.
  - f_equal. f_equal. cbn [INR]. ring.
  - rewrite <- (seq_shift k 1), map_map. apply map_ext. intros i. f_equal. f_equal.
    rewrite S_INR. ring.
Qed.

Definition Mof (m : Rmesh) : R := fill_extent (A := ArithR) m.

Lemma common_R (m : Rmesh) (axis : Rvector) (step : R) :
  calcFillPlanesCommon (A := ArithR) m axis step =
  let j := Zfloor (- Mof m / step) in
  let n := Z.to_nat (Zceil ((Mof m - IZR j * step) / step)) in
  map (fun i => Pl (at_axis axis (IZR (j + Z.of_nat i) * step)) axis) (seq 1 n).
Proof.
  unfold calcFillPlanesCommon. cbv zeta. rcbn. fold (Mof m). rewrite Ztrunc_IZR.
  change (v2p (A := ArithR) (vscale (A := ArithR) axis (IZR (Zfloor (- Mof m / step)) * step)%R))
    with (at_axis axis (IZR (Zfloor (- Mof m / step)) * step)).
  rewrite fill_planes_R. apply map_ext. intros i. f_equal. f_equal.
  rewrite plus_IZR, <- INR_IZR_INZ. ring.
Qed.

Lemma Mof_nonneg m : 0 <= Mof m.
Proof.
  unfold Mof, fill_extent. destruct (m_minMaxZ m axisX) as [a b], (m_minMaxZ m axisY) as [c d]. rcbn.
  eapply Rle_trans; [apply sqrt_pos|apply Rmax_l].
Qed.

Lemma sqrt_ge_abs a b : Rabs a <= sqrt (a * a + b * b).
Proof.
  rewrite <- sqrt_Rsqr_abs. apply sqrt_le_1_alt. unfold Rsqr. pose proof (Rle_0_sqr b). unfold Rsqr in *. lra.
Qed.

Lemma Rdot_x (p : Rpoint) : Rdot p (axisX (A := ArithR)) = X p.
Proof. unfold Rdot, axisX, X. cbn [vx vy vz]. rcbn. ring. Qed.
Lemma Rdot_y (p : Rpoint) : Rdot p (axisY (A := ArithR)) = Y p.
Proof. unfold Rdot, axisY, Y. cbn [vx vy vz]. rcbn. ring. Qed.

(** lowest and highest exist *)
Lemma minmax_bounds (m : Rmesh) (u : Rvector) : m <> [] ->
  Forall (fun p => in_range (Rdot p u)) (vertices m) ->
  let '(mn, mx) := m_minMaxZ m u in
  forall p, In p (vertices m) -> mn <= Rdot p u <= mx.
Proof.
  intros N F. destruct (minMax_ok (M := MinMaxR) u m N F) as [[_ La] [_ Hb]].
  destruct (m_minMaxZ m u) as [x y]. cbn [fst snd] in *. intros p Hp.
  specialize (La p Hp). specialize (Hb p Hp). unfold height in *. rewrite !dot_Rdot in *.
  cbn in La, Hb. rbool. cbn in *. lra.
Qed.

Lemma Mof_bounds (m : Rmesh) :
  Forall (fun p => in_range (X p) /\ in_range (Y p)) (vertices m) ->
  forall p, In p (vertices m) -> Rabs (X p) <= Mof m /\ Rabs (Y p) <= Mof m.
Proof.
  intros F p Hp. assert (N : m <> []) by (intros ->; destruct Hp).
  assert (Fx : Forall (fun p => in_range (Rdot p (axisX (A := ArithR)))) (vertices m)).
  { eapply Forall_impl; [|exact F]. intros q [H _]. now rewrite Rdot_x. }
  assert (Fy : Forall (fun p => in_range (Rdot p (axisY (A := ArithR)))) (vertices m)).
  { eapply Forall_impl; [|exact F]. intros q [_ H]. now rewrite Rdot_y. }
  pose proof (minmax_bounds m _ N Fx) as Bx. pose proof (minmax_bounds m _ N Fy) as By.
  unfold Mof, fill_extent. destruct (m_minMaxZ m axisX) as [a b], (m_minMaxZ m axisY) as [c d].
  specialize (Bx p Hp). specialize (By p Hp). rewrite Rdot_x in Bx. rewrite Rdot_y in By. rcbn.
  cbn [num ArithR] in *.
  pose proof (sqrt_ge_abs a c). pose proof (sqrt_ge_abs c a). pose proof (sqrt_ge_abs b d). pose proof (sqrt_ge_abs d b).
  rewrite (Rplus_comm (c * c)) in *. rewrite (Rplus_comm (d * d)) in *.
  pose proof (Rmax_l (sqrt (a * a + c * c)) (sqrt (b * b + d * d))).
  pose proof (Rmax_r (sqrt (a * a + c * c)) (sqrt (b * b + d * d))).
  split; apply Rabs_le; repeat match goal with H : Rabs _ <= _ |- _ => apply Rabs_le_inv in H end; lra.
Qed.

(** the planes reach from -M to M *)
Lemma cover (m : Rmesh) (axis : Rvector) (step x : R) : 0 < step -> 0 < Mof m -> - Mof m <= x <= Mof m ->
  exists t, In (Pl (at_axis axis t) axis) (calcFillPlanesCommon (A := ArithR) m axis step) /\ x <= t <= x + step.
Proof.
  intros S MP H. rewrite common_R. cbv zeta.
  set (j := Zfloor (- Mof m / step)). set (n := Zceil ((Mof m - IZR j * step) / step)).
  assert (J : IZR j * step <= - Mof m).
  { apply Rmult_le_reg_r with (/ step); [now apply Rinv_0_lt_compat|].
    rewrite Rmult_assoc, Rinv_r, Rmult_1_r by lra. apply Zfloor_lb. }
  (* the least i >= 1 with x <= (j + i) step *)
  set (i := Z.max 1 (Zceil ((x - IZR j * step) / step))).
  assert (I1 : x - IZR j * step <= IZR i * step).
  { assert (Q : (x - IZR j * step) / step <= IZR i).
    { eapply Rle_trans; [apply Zceil_ub|]. apply IZR_le. lia. }
    apply Rmult_le_compat_r with (r := step) in Q; [|lra].
    replace ((x - IZR j * step) / step * step) with (x - IZR j * step) in Q by (field; lra). exact Q. }
  assert (I2 : IZR i * step <= x - IZR j * step + step).
  { unfold i. destruct (Z.max_spec 1 (Zceil ((x - IZR j * step) / step))) as [[_ ->]|[_ ->]].
    - assert (Q : IZR (Zceil ((x - IZR j * step) / step)) <= (x - IZR j * step) / step + 1).
      { unfold Zceil. rewrite opp_IZR. pose proof (Zfloor_ub (- ((x - IZR j * step) / step))). lra. }
      apply Rmult_le_compat_r with (r := step) in Q; [|lra].
      replace (((x - IZR j * step) / step + 1) * step) with (x - IZR j * step + step) in Q by (field; lra). exact Q.
    - lra. }
  assert (I3 : (1 <= i <= n)%Z).
  { split; [lia|]. unfold i. apply Z.max_lub.
    - assert (0 < n)%Z; [|lia]. apply lt_IZR. unfold n. eapply Rlt_le_trans; [|apply Zceil_ub].
      apply Rdiv_lt_0_compat; lra.
    - apply Zceil_le. unfold Rdiv. apply Rmult_le_compat_r; [apply Rlt_le, Rinv_0_lt_compat; lra|]. lra. }
  exists (IZR (j + i) * step). split.
  - apply in_map_iff. exists (Z.to_nat i). split.
    + rewrite Z2Nat.id by lia. reflexivity.
    + apply in_seq. lia.
  - rewrite plus_IZR. lra.
Qed.

(** they do not reach much further *)
Lemma reach (m : Rmesh) (axis : Rvector) (step : R) p : 0 < step ->
  In p (calcFillPlanesCommon (A := ArithR) m axis step) ->
  exists t, p = Pl (at_axis axis t) axis /\ - Mof m - step < t < Mof m + step.
Proof.
  intros S H. rewrite common_R in H. cbv zeta in H. apply in_map_iff in H. destruct H as (i & <- & Hi).
  set (j := Zfloor (- Mof m / step)) in *. apply in_seq in Hi.
  set (n := Zceil ((Mof m - IZR j * step) / step)) in *.
  eexists; split; [reflexivity|]. rewrite plus_IZR.
  assert (Bi : 1 <= IZR (Z.of_nat i)) by (apply IZR_le; lia).
  assert (Bn : IZR (Z.of_nat i) <= IZR n) by (apply IZR_le; lia).
  assert (J : - Mof m / step < IZR j + 1) by apply Zfloor_ub.
  apply Rmult_lt_compat_r with (r := step) in J; [|lra].
  replace (- Mof m / step * step) with (- Mof m) in J by (field; lra).
  assert (Q : IZR n < (Mof m - IZR j * step) / step + 1).
  { unfold n, Zceil. rewrite opp_IZR. pose proof (Zfloor_ub (- ((Mof m - IZR j * step) / step))). lra. }
  apply Rmult_lt_compat_r with (r := step) in Q; [|lra].
  replace (((Mof m - IZR j * step) / step + 1) * step) with (Mof m - IZR j * step + step) in Q by (field; lra).
  assert (IZR (Z.of_nat i) * step <= IZR n * step) by (apply Rmult_le_compat_r; lra).
  assert (1 * step <= IZR (Z.of_nat i) * step) by (apply Rmult_le_compat_r; lra).
  lra.
Qed.

(** ** A model whose corner is not reached by one of the families of squares *)
Definition corner (r : R) : Rtriangle :=
  newTriangle (A := ArithR) (P3 (A := ArithR) (- r)%R 0%R 0%R) (P3 (A := ArithR) (- r)%R r 0%R) (P3 (A := ArithR) 0%R r 0%R).

Lemma maxF_pos : 0 < IZR ((2 ^ 53 - 1) * 2 ^ 971).
Proof. apply IZR_lt. reflexivity. Qed.

Lemma corner_extent r : 0 < r -> Mof [corner r] = r.
Proof.
  intros H. pose proof maxF_pos as MP. unfold Mof, fill_extent, m_minMaxZ. cbn [fold_left fst snd t_minMaxZ].
  unfold t_minZ, t_maxZ, corner, newTriangle, dot, p2v, maxFloat64.
  cbn [t1 t2 t3 px py pz vx vy vz axisX axisY].
  set (F := nofZ ((2 ^ 53 - 1) * 2 ^ 971) : @num ArithR).
  assert (FP : 0 < F) by (unfold F, nofZ; rcbn; exact MP). clearbody F. rcbn.
  replace (Rmin F _) with (- r).
  2: { symmetry. repeat (unfold Rmin; destruct Rle_dec); lra. }
  replace (Rmax (- F) _) with 0.
  2: { symmetry. repeat (unfold Rmax; destruct Rle_dec); lra. }
  replace (Rmin F _) with 0.
  2: { symmetry. repeat (unfold Rmin; destruct Rle_dec); lra. }
  replace (Rmax (- F) _) with r.
  2: { symmetry. repeat (unfold Rmax; destruct Rle_dec); lra. }
  replace (- r * - r + 0 * 0) with (r * r) by ring. replace (0 * 0 + r * r) with (r * r) by ring.
  rewrite sqrt_square by lra. apply Rmax_left. lra.
Qed.

Lemma cauchy3 a b c x y z : (a * x + b * y + c * z) * (a * x + b * y + c * z) <=
  (a * a + b * b + c * c) * (x * x + y * y + z * z).
Proof.
  assert (0 <= (a * y - b * x) * (a * y - b * x)) by apply Rle_0_sqr.
  assert (0 <= (a * z - c * x) * (a * z - c * x)) by apply Rle_0_sqr.
  assert (0 <= (b * z - c * y) * (b * z - c * y)) by apply Rle_0_sqr.
  nra.
Qed.

(** ** Fill segments *)

Lemma hits_path_on (pl : Rplane) (p : Rpath) q : In q (hits_path pl p) ->
  exists l1 a b l2, p = l1 ++ a :: b :: l2 /\ on_seg a b q /\ sd pl q = 0.
Proof.
  induction p as [|a [|b r] IH]; cbn [hits_path]; try (intros []; fail).
  intros H. apply in_app_iff in H. destruct H as [H|H].
  - pose proof (C27_segment pl a b) as C. destruct (intersectSegment pl a b) as [c|]; [|destruct H].
    destruct H as [<-|[]]. destruct C as (_ & _ & C1 & C2 & _). exists [], a, b, r. auto.
  - destruct (IH H) as (l1 & x & y & l2 & E & O). exists (a :: l1), x, y, l2. rewrite E. auto.
Qed.

Lemma hits_on (pl : Rplane) (ps : list Rpath) q : In q (hits pl ps) -> on_contour ps q /\ sd pl q = 0.
Proof.
  intros H. apply in_flat_map in H. destruct H as (p & Hp & Hq).
  destruct (hits_path_on pl p q Hq) as (l1 & a & b & l2 & E & O & S).
  split; [|exact S]. exists p, l1, a, b, l2. auto.
Qed.

Lemma sort_hits_perm {A : Arith} U pl (pts : list point) : legal U -> Permutation pts (sort_hits U pl pts).
Proof. intros L. unfold sort_hits. destruct (by_x _); [apply L|apply L]. Qed.

Lemma pairs_concat {A : Arith} : forall n (pts : list point), (length pts <= n)%nat ->
  Forall (fun s => exists a b, s = [a; b]) (pairs pts) /\
  exists r, pts = concat (pairs pts) ++ r /\ (length r <= 1)%nat.
Proof.
  induction n as [n IH] using lt_wf_ind. intros [|a [|b r]] H.
  - split; [constructor|]. exists []. auto.
  - split; [constructor|]. exists [a]. auto.
  - destruct (IH (length r)) with (pts := r) as (F & q & E & Q); [cbn [length] in H; lia|lia|].
    cbn [pairs concat]. split; [constructor; [eauto|exact F]|].
    exists q. cbn [app]. rewrite E at 1. auto.
Qed.

(** the returned segments: pairs of hits, in the sorted order *)
Lemma segments_of_hits {A : Arith} U (ps : list path) (pl : plane) :
  Forall (fun s => exists a b, s = [a; b]) (intersectByPlane U ps pl) /\
  exists keep : list bool,
    concat (intersectByPlane U ps pl) =
    map snd (filter fst (combine keep (sort_hits U pl (hits pl ps)))).
Proof.
  unfold intersectByPlane. set (pts := hits pl ps).
  destruct (Nat.ltb_spec (length pts) 2) as [H|H].
  { split; [constructor|]. exists []. reflexivity. }
  set (ss := sort_hits U pl pts). clearbody ss. clear H pts.
  assert (K : forall l : list point, map snd (filter fst (combine (repeat true (length l)) l)) = l).
  { induction l as [|x l IH]; [reflexivity|]. cbn [length repeat combine filter fst map snd]. now rewrite IH. }
  destruct (Nat.ltb_spec 4 (length ss)) as [H|H].
  - destruct (pairs_concat (length ss) ss) as (F & r & E & Q); [lia|]. split; [exact F|].
    exists (repeat true (length (concat (pairs ss)))).
    assert (G : forall l r : list point, combine (repeat true (length l)) (l ++ r) = combine (repeat true (length l)) l).
    { induction l as [|x l IH]; intros r0; [reflexivity|]. cbn [length repeat combine app]. now rewrite IH. }
    etransitivity; [symmetry; exact (K (concat (pairs ss)))|].
    apply f_equal, f_equal. symmetry. etransitivity; [|exact (G (concat (pairs ss)) r)]. exact (f_equal _ E).
  - destruct ss as [|a [|b [|c [|d [|? ?]]]]]; cbn [length] in H; try lia; cbn [concat app].
    + split; [constructor|]. exists []. reflexivity.
    + split; [constructor|]. exists [false]. reflexivity.
    + split; [constructor; [eauto|constructor]|]. exists [true; true]. reflexivity.
    + split; [constructor; [eauto|constructor]|]. exists [true; false; true]. reflexivity.
    + split; [repeat (constructor; eauto)|]. exists [true; true; true; true]. reflexivity.
Qed.

Lemma keep_incl {T} (ks : list bool) (l : list T) x : In x (map snd (filter fst (combine ks l))) -> In x l.
Proof.
  revert ks. induction l as [|y l IH]; intros [|k ks]; cbn [combine filter map In fst snd]; try tauto.
  destruct k; cbn [map In snd]; intros H.
  - destruct H as [H|H]; [now left|right; eapply IH; eassumption].
  - right. eapply IH; eassumption.
Qed.
Lemma keep_sorted {T} (R : T -> T -> Prop) (ks : list bool) (l : list T) : StronglySorted R l ->
  StronglySorted R (map snd (filter fst (combine ks l))).
Proof.
  intros H. revert ks. induction H as [|y l H IH F]; intros [|k ks]; cbn [combine filter map fst snd]; try constructor.
  destruct k; cbn [map snd]; [|apply IH]. constructor; [apply IH|].
  apply Forall_forall. intros x Hx. rewrite Forall_forall in F. apply F. eapply keep_incl; eassumption.
Qed.

(** which coordinate is compared *)
Lemma sq_pos_ne x : x <> 0 -> 0 < x * x.
Proof. intros H. apply Rsqr_pos_lt in H. exact H. Qed.

Lemma flat_projection (a b : R) :
  projectOnPlane (V3 (A := ArithR) a b 0%R) (Pl (originPoint (A := ArithR)) (axisZ (A := ArithR))) = V3 (A := ArithR) a b 0%R.
Proof.
  unfold projectOnPlane, projectOn, vlen2, vadd, vopp, vscale, dot, axisZ. cbn [pl_n vx vy vz].
  rcbn. destruct (Reqb _ _) eqn:Q; cbn [vx vy vz]; rcbn; rbool; try (exfalso; lra).
  f_equal; rcbn; field.
Qed.

Lemma by_x_spec (n : Rvector) : vz n = 0%R -> (vx n : R) <> 0 \/ (vy n : R) <> 0 ->
  if by_x n then (vy n : R) <> 0 else (vx n : R) <> 0.
Proof.
  destruct n as [a b c]. cbn [vx vy vz]. intros -> H.
  pose proof PI_RGT_0 as PP.
  unfold by_x. rewrite flat_projection.
  unfold angle, vlen, vlen2, dot, nearAngle. cbn [vx vy vz axisY]. rcbn.
  replace (sqrt (0 * 0 + 1 * 1 + 0 * 0)) with 1 by (replace (0 * 0 + 1 * 1 + 0 * 0) with 1 by ring; now rewrite sqrt_1).
  replace (a * 0 + b * 1 + 0 * 0) with b by ring. replace (a * a + b * b + 0 * 0) with (a * a + b * b) by ring.
  assert (L : 0 < a * a + b * b).
  { pose proof (Rle_0_sqr a). pose proof (Rle_0_sqr b). unfold Rsqr in *.
    destruct H as [H|H]; apply sq_pos_ne in H; lra. }
  set (l := sqrt (a * a + b * b)). assert (LP : 0 < l) by now apply sqrt_lt_R0.
  replace (b / l / 1) with (b / l) by (field; lra).
  destruct (_ || _)%bool eqn:Q.
  - (* by x: the angle is not 90 *)
    intros ->. replace (0 / l) with 0 in Q by (field; lra).
    assert (E1 : Rltb 0 (IZR (-1)) = false) by (apply Rltb_false; lra).
    assert (E2 : Rltb 1 0 = false) by (apply Rltb_false; lra).
    rewrite E1, E2 in Q. cbn [orb] in Q. rewrite acos_0 in Q.
    replace (PI / 2 * 180 / PI) with 90 in Q by (field; lra).
    apply orb_true_iff in Q. destruct Q as [Q|Q]; apply andb_true_iff in Q; destruct Q as [Q1 Q2]; rbool; lra.
  - (* by y: the angle is not 0 or 180 *)
    intros ->. replace (0 * 0 + b * b) with (b * b) in *  by ring.
    assert (Lb : l = Rabs b) by (unfold l; replace (0 * 0 + b * b) with (Rsqr b) by (unfold Rsqr; ring); apply sqrt_Rsqr_abs).
    assert (NB : b <> 0) by (destruct H; [lra|assumption]).
    apply orb_false_iff in Q. destruct Q as [Q1 Q2].
    clearbody l. subst l.
    destruct (Rcase_abs b) as [Nb|Pb].
    + rewrite (Rabs_left b Nb) in *. replace (b / - b) with (- 1) in * by (field; lra).
      assert (E1 : Rltb (- 1) (IZR (-1)) = false) by (apply Rltb_false; lra).
      assert (E2 : Rltb 1 (- 1) = false) by (apply Rltb_false; lra).
      rewrite E1, E2 in Q2. cbn [orb] in Q2.
      replace (acos (- 1)) with PI in Q2.
      2: { change (-1) with (IZR (-1)). replace (IZR (-1)) with (Ropp 1) by (rewrite <- opp_IZR; reflexivity). rewrite acos_opp, acos_1. ring. }
      replace (PI * 180 / PI) with 180 in Q2 by (field; lra).
      apply andb_false_iff in Q2. destruct Q2; rbool; lra.
    + rewrite (Rabs_right b Pb) in *. replace (b / b) with 1 in * by (field; lra).
      assert (E1 : Rltb 1 (IZR (-1)) = false) by (apply Rltb_false; lra).
      assert (E2 : Rltb 1 1 = false) by (apply Rltb_false; lra).
      rewrite E1, E2 in Q1. cbn [orb] in Q1. rewrite acos_1 in Q1.
      replace (0 * 180 / PI) with 0 in Q1 by (field; lra).
      apply andb_false_iff in Q1. destruct Q1; rbool; lra.
Qed.

(** the direction in which the hits are sorted *)
Definition heading (n : Rvector) : Rvector :=
  if by_x n
  then if Rlt_dec 0 (vy n) then V3 (A := ArithR) (vy n : R) (- vx n)%R 0%R else V3 (A := ArithR) (- vy n)%R (vx n : R) 0%R
  else if Rlt_dec 0 (vx n) then V3 (A := ArithR) (- vy n)%R (vx n : R) 0%R else V3 (A := ArithR) (vy n : R) (- vx n)%R 0%R.

Lemma heading_along pl : vz (pl_n pl) = 0%R -> (vx (pl_n pl) : R) <> 0 \/ (vy (pl_n pl) : R) <> 0 ->
  along_cut pl (heading (pl_n pl)).
Proof.
  intros Z N. unfold heading, along_cut.
  destruct (by_x _); destruct Rlt_dec; cbn [vx vy vz]; rcbn; (split; [reflexivity|]); (split; [ring|]); lra.
Qed.

Lemma sorted_map_strong {T} (R S : T -> T -> Prop) (l : list T) : (forall a b, In a l -> In b l -> R a b -> S a b) ->
  StronglySorted R l -> StronglySorted S l.
Proof.
  intros H K. induction K as [|x l K IH F]; constructor.
  - apply IH. intros a b Ha Hb. apply H; now right.
  - rewrite Forall_forall in *. intros y Hy. apply H; [now left|now right|]. now apply F.
Qed.

Lemma hits_sorted U pl (ps : list Rpath) : legal U -> vz (pl_n pl) = 0%R ->
  (vx (pl_n pl) : R) <> 0 \/ (vy (pl_n pl) : R) <> 0 ->
  StronglySorted (fun a b => Rdot a (heading (pl_n pl)) <= Rdot b (heading (pl_n pl)))
    (sort_hits U pl (hits pl ps)).
Proof.
  intros L Z N. pose proof (by_x_spec _ Z N) as B.
  assert (S : forall q, In q (sort_hits U pl (hits pl ps)) -> sd pl q = 0).
  { intros q Hq. apply (hits_on pl ps). eapply Permutation_in; [exact (Permutation_sym (sort_hits_perm U pl _ L))|exact Hq]. }
  revert S. unfold sort_hits, heading. destruct pl as [[p1 p2 p3] [a b c]]. cbn [pl_n vx vy vz] in *. subst c.
  unfold sd, X, Y, Z3. cbn [pl_n pl_p vx vy vz px py pz].
  destruct (by_x _); intros S.
  - eapply sorted_map_strong; [|apply (lg_byXs U L)].
    2: { apply Forall_forall. intros q _. unfold plain. rcbn. apply Rleb_true. lra. }
    intros u v Hu Hv. apply S in Hu, Hv. unfold Rdot. destruct u as [u1 u2 u3], v as [v1 v2 v3]. cbn [px py pz] in *.
    rcbn. intros Q. rbool.
    set (b' := b : R) in *. set (a' := a : R) in *.
    assert (E : a' * (v1 - u1) + b' * (v2 - u2) = 0) by lra.
    assert (G : b' * (v1 * b' - v2 * a' - (u1 * b' - u2 * a')) = (v1 - u1) * (a' * a' + b' * b')).
    { transitivity ((v1 - u1) * (b' * b') - a' * (b' * (v2 - u2))); [ring|].
      replace (b' * (v2 - u2)) with (- (a' * (v1 - u1))) by lra. ring. }
    assert (W : 0 <= (v1 - u1) * (a' * a' + b' * b')).
    { apply Rmult_le_pos; [lra|]. pose proof (Rle_0_sqr a'). pose proof (Rle_0_sqr b'). unfold Rsqr in *. lra. }
    destruct (Rlt_dec 0 b') as [P|P]; cbn [vx vy vz]; rcbn.
    + assert (0 <= v1 * b' - v2 * a' - (u1 * b' - u2 * a')); [|lra].
      apply Rmult_le_reg_l with b'; [lra|]. lra.
    + assert (b' < 0) by (destruct (Rtotal_order b' 0) as [?|[?|?]]; [assumption|contradiction|contradiction]).
      assert (v1 * b' - v2 * a' - (u1 * b' - u2 * a') <= 0); [|lra].
      apply Rmult_le_reg_l with (- b'); [lra|]. lra.
  - eapply sorted_map_strong; [|apply (lg_byYs U L)].
    2: { apply Forall_forall. intros q _. unfold plain. rcbn. apply Rleb_true. lra. }
    intros u v Hu Hv. apply S in Hu, Hv. unfold Rdot. destruct u as [u1 u2 u3], v as [v1 v2 v3]. cbn [px py pz] in *.
    rcbn. intros Q. rbool.
    set (b' := b : R) in *. set (a' := a : R) in *.
    assert (E : a' * (v1 - u1) + b' * (v2 - u2) = 0) by lra.
    assert (G : a' * (v2 * a' - v1 * b' - (u2 * a' - u1 * b')) = (v2 - u2) * (a' * a' + b' * b')).
    { transitivity ((v2 - u2) * (a' * a') - b' * (a' * (v1 - u1))); [ring|].
      replace (a' * (v1 - u1)) with (- (b' * (v2 - u2))) by lra. ring. }
    assert (W : 0 <= (v2 - u2) * (a' * a' + b' * b')).
    { apply Rmult_le_pos; [lra|]. pose proof (Rle_0_sqr a'). pose proof (Rle_0_sqr b'). unfold Rsqr in *. lra. }
    destruct (Rlt_dec 0 a') as [P|P]; cbn [vx vy vz]; rcbn.
    + assert (0 <= v2 * a' - v1 * b' - (u2 * a' - u1 * b')); [|lra].
      apply Rmult_le_reg_l with a'; [lra|]. lra.
    + assert (a' < 0) by (destruct (Rtotal_order a' 0) as [?|[?|?]]; [assumption|contradiction|contradiction]).
      assert (v2 * a' - v1 * b' - (u2 * a' - u1 * b') <= 0); [|lra].
      apply Rmult_le_reg_l with (- a'); [lra|]. lra.
Qed.
