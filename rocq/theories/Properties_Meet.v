(** * C108 Where two triangles meet *)
From Coq Require Import Reals Lra Lia List Bool ZArith PeanoNat Permutation String.
From Flocq Require Import Core.Raux.
From Verif Require Import Arith ArithR Prim Path PathClaims GeomSpec GeomProofs Properties_Geom Helpers HelperClaims HelperProofs HelperProofs2 Gcode
  MeshProofs SlicerClaims SlicerProofs Slicer SlicerProofs2 Properties_Helpers Properties_Slicer SupportClaims SupportProofs MeetProofs Properties_Support.
Import ListNotations.
Close Scope string_scope.
Close Scope Z_scope.
Close Scope num_scope.
Local Open Scope R_scope.

(** a triangle with the normal that belongs to its corners *)
Definition proper (t : Rtriangle) : Prop := t = newTriangle (t1 t) (t2 t) (t3 t).
(** the plane of a triangle *)
Definition plane_of (t : Rtriangle) : Rplane := Pl (t1 t) (t_n t).

(** The section of a triangle with a triangle that is not upright is reported if and only if
    some point of the segment, in which the first one is cut by the plane of the second, is a
    point of the second. The segment is seen from above; its ends must be on the plane within
    the tolerance, and nothing may be so close to a side that it counts as on it. *)
Theorem C108_meets : forall (bt t : Rtriangle) ln,
  proper bt -> vz (t_n bt) <> 0 -> intersectTriangle (plane_of bt) t = Some ln ->
  Rabs (sd (plane_of bt) (lp1 ln)) < 1 / 10 ^ 6 -> Rabs (sd (plane_of bt) (lp2 ln)) < 1 / 10 ^ 6 ->
  (forall v w q, In (v, w) [(t1 bt, t2 bt); (t2 bt, t3 bt); (t3 bt, t1 bt)] -> q = lp1 ln \/ q = lp2 ln -> 1 / 10 ^ 6 <= Rabs (tri2 (X v) (Y v) w q)) ->
  (forall v, In v [t1 bt; t2 bt; t3 bt] -> 1 / 10 ^ 6 <= Rabs (tri2 (X (lp1 ln)) (Y (lp1 ln)) (lp2 ln) v)) ->
  (t_intersectTriangle bt t <> None <->
   exists q p, on_seg (lp1 ln) (lp2 ln) q /\ in_tri (t1 bt) (t2 bt) (t3 bt) p /\ X p = X q /\ Y p = Y q).
Proof.
  intros bt t ln Pr Nz Hi S1 S2 G1 G2. unfold plane_of in *. replace (1 / 10 ^ 6) with (/ 10 ^ 6) in * by lra.
  rewrite (meets_over bt t ln).
  - unfold over. split; [intros (q & O & p & H); exists q, p; tauto|intros (q & p & O & H); exists q; split; [exact O|exists p; exact H]].
  - intros Z. apply Nz. rewrite Pr. destruct bt as [n A B C]. unfold newTriangle, cross, vectorTo. cbn [t1 t2 t3 t_n vz]. rcbn.
    cbn [t1 t2 t3] in Z. rewrite cr_def in Z. unfold X, Y in Z. eapply eq_trans; [|exact Z]. cbn [vx vy vz]. rring.
  - exact Hi.
  - exact S1.
  - exact S2.
  - split; [intros v w q I J; apply (G1 v w q I); destruct J as [<-|[<-|[]]]; auto|exact G2].
Qed.

(** The ends are on the plane within the tolerance if the face is small: the components of the
    normal, which is as long as twice the area, add up to less than 200. *)
Theorem C108_small : forall (bt t : Rtriangle) ln, intersectTriangle (plane_of bt) t = Some ln ->
  Rabs (vx (t_n bt)) + Rabs (vy (t_n bt)) + Rabs (vz (t_n bt)) < 200 ->
  Rabs (sd (plane_of bt) (lp1 ln)) < 1 / 10 ^ 6 /\ Rabs (sd (plane_of bt) (lp2 ln)) < 1 / 10 ^ 6.
Proof.
  intros bt t ln Hi Hn. pose proof (C28_triangle (plane_of bt) t) as C28. rewrite Hi in C28. destruct C28 as (p & q & Sec & W1 & W2 & _).
  assert (Sp : sd (plane_of bt) p = 0) by (apply (proj2 (Sec p)), on_seg_l).
  assert (Sq : sd (plane_of bt) q = 0) by (apply (proj2 (Sec q)); exists 1; split; [lra|symmetry; apply along1]).
  assert (G : forall a b : Rpoint, within (5 / 10 ^ 9) a b -> sd (plane_of bt) b = 0 -> Rabs (sd (plane_of bt) a) < 1 / 10 ^ 6).
  { intros a b (A1 & A2 & A3) Sb. replace (sd (plane_of bt) a) with (sd (plane_of bt) a - sd (plane_of bt) b) by (rewrite Sb; ring). unfold sd, plane_of. cbn [pl_p pl_n].
    set (n1 := vx (t_n bt)) in *. set (n2 := vy (t_n bt)) in *. set (n3 := vz (t_n bt)) in *.
    match goal with |- Rabs ?e < _ => replace e with ((X a - X b) * n1 + (Y a - Y b) * n2 + (Z3 a - Z3 b) * n3) by rring end.
    eapply Rle_lt_trans; [eapply Rle_trans; [apply Rabs_triang|apply Rplus_le_compat_r, Rabs_triang]|]. rewrite !Rabs_mult.
    assert (K : forall x n, Rabs x <= 5 / 10 ^ 9 -> Rabs x * Rabs n <= 5 / 10 ^ 9 * Rabs n) by (intros x n Hx; apply Rmult_le_compat_r; [apply Rabs_pos|exact Hx]).
    pose proof (K _ n1 A1). pose proof (K _ n2 A2). pose proof (K _ n3 A3). lra. }
  split; eapply G; eassumption.
Qed.

(** What is printed of the supports does not meet the faces of the model that are not upright,
    as far as C108_meets decides. *)
Theorem C108_supports : forall U (m : Rmesh) (u : Rvector) (mn : R) (s : @settings ArithR) sup (bt t : Rtriangle) ln,
  legal U -> is_unit u -> supportTriangles U m u mn s = Ok sup -> In t sup -> In bt m ->
  proper bt -> vz (t_n bt) <> 0 -> intersectTriangle (plane_of bt) t = Some ln ->
  (* no corner of the wall counts as a point of the plane of the face *)
  (forall q, In q [t1 t; t2 t; t3 t] -> 1 / 10 ^ 6 <= Rabs (sd (plane_of bt) q)) ->
  Rabs (sd (plane_of bt) (lp1 ln)) < 1 / 10 ^ 6 -> Rabs (sd (plane_of bt) (lp2 ln)) < 1 / 10 ^ 6 ->
  (forall v w q, In (v, w) [(t1 bt, t2 bt); (t2 bt, t3 bt); (t3 bt, t1 bt)] -> q = lp1 ln \/ q = lp2 ln -> 1 / 10 ^ 6 <= Rabs (tri2 (X v) (Y v) w q)) ->
  (forall v, In v [t1 bt; t2 bt; t3 bt] -> 1 / 10 ^ 6 <= Rabs (tri2 (X (lp1 ln)) (Y (lp1 ln)) (lp2 ln) v)) ->
  forall q p, on_seg (lp1 ln) (lp2 ln) q -> in_tri (t1 bt) (t2 bt) (t3 bt) p -> ~ (X p = X q /\ Y p = Y q).
Proof.
  intros U m u mn s sup bt t ln HU Un E It Ib Pr Nz Hi Off S1 S2 G1 G2 q p Oq Tp Eq.
  apply (support_set U m u mn s sup HU Un E) in It. destruct It as (e & _ & _ & P). specialize (P bt Ib).
  assert (M : t_intersectTriangle bt t <> None) by (apply (C108_meets bt t ln Pr Nz Hi S1 S2 G1 G2); exists q, p; tauto).
  assert (B : forall c, In c [t1 t; t2 t; t3 t] -> t_pointBelongs bt c <> true).
  { intros c Ic T. specialize (Off c Ic). unfold t_pointBelongs in T. fold (plane_of bt) in T.
    destruct (pl_pointBelongs (plane_of bt) c) eqn:Bp; [|discriminate T]. unfold pl_pointBelongs in Bp. apply almostZero_R in Bp.
    assert (Q : Rabs (sd (plane_of bt) c) < / 1000000).
    { eapply Rle_lt_trans; [right|exact Bp]. f_equal. unfold sd, X, Y, Z3. rcbn. ring. }
    replace (1 / 10 ^ 6) with (/ 1000000) in Off by lra. lra. }
  destruct P as [P|[P|[P|P]]]; [auto| | |]; revert P; apply B; cbn; auto.
Qed.

(** *** A wall through a large slanted face *)

(** a point strictly inside a triangle *)
Definition inside (t : Rtriangle) (p : Rpoint) : Prop :=
  exists a b c, 0 < a /\ 0 < b /\ 0 < c /\ a + b + c = 1 /\ p = comb3 a b c (t1 t) (t2 t) (t3 t).

Definition slope : Rtriangle := newTriangle (pt (-2) (-30) (1 / 2)) (pt 38 (-30) (61 / 2)) (pt (-2) 30 (1 / 2)).
Lemma slope_n : t_n slope = V3 (A := ArithR) (Ropp 1800) 0 2400%R.
Proof. unfold slope, newTriangle, cross, vectorTo, pt. cbn [t_n px py pz vx vy vz]. rcbn. apply v3_ext; lra. Qed.
Lemma sd_slope (q : Rpoint) : sd (plane_of slope) q = 2400 * Z3 q - 1800 * X q - 4800.
Proof.
  unfold sd, plane_of. cbn [pl_p pl_n]. rewrite slope_n. unfold slope, newTriangle, pt. cbn [t1 vx vy vz].
  unfold X at 2. unfold Y at 2. unfold Z3 at 2. cbn [px py pz]. rcbn. lra.
Qed.

Lemma edges_with (bt : Rtriangle) (x y z : R) : t_n bt = V3 (A := ArithR) x y z -> 0 <= z -> x <> 0 \/ z <> 0 ->
  hanging sup_sett [bt; roof; stand] = hanging sup_sett [roof; stand].
Proof. intros N Hz Hn. unfold hanging. cbn [filter]. now rewrite (not_hanging bt x y z N Hz Hn). Qed.

(** the section of the wall with the slope *)
Definition wall_up : Rtriangle := newTriangle (pt 0 0 0) (pt 0 0 9) (pt 4 0 9).
Definition cutE : Rpoint := pt 0 0 2.
Definition cutF : Rpoint := pt (133333333 / 10 ^ 8) 0 3.

Lemma round8_near1 (x : R) (k : Z) : Rabs (x * 100000000 - IZR k) < / 2 -> @round8 ArithR x = (IZR k / 10 ^ 8)%R.
Proof.
  intros Hk. rewrite round8_def. replace (10 ^ 8) with 100000000 by lra. f_equal. f_equal.
  pose proof (rd_near (x * 100000000)) as H. cbv zeta in H. match type of H with Rabs (IZR ?z - _) <= _ => change (z = k); revert H; generalize z end. intros z H.
  apply Raux.Rabs_le_inv in H. apply Rabs_def2 in Hk.
  assert (IZR (z - k) < 1) as A1 by (rewrite minus_IZR; lra). assert (-1 < IZR (z - k)) as A2 by (rewrite minus_IZR; lra).
  apply (lt_IZR _ 1) in A1. apply (lt_IZR (-1)) in A2. lia.
Qed.

Lemma slope_cut : exists ln, intersectTriangle (plane_of slope) wall_up = Some ln /\
  ((lp1 ln = cutE /\ lp2 ln = cutF) \/ (lp1 ln = cutF /\ lp2 ln = cutE)).
Proof.
  assert (S1 : sd (plane_of slope) (pt 0 0 0) = -4800) by (rewrite sd_slope; unfold X, Z3, pt; cbn [px pz]; lra).
  assert (S2 : sd (plane_of slope) (pt 0 0 9) = 16800) by (rewrite sd_slope; unfold X, Z3, pt; cbn [px pz]; lra).
  assert (S3 : sd (plane_of slope) (pt 4 0 9) = 9600) by (rewrite sd_slope; unfold X, Z3, pt; cbn [px pz]; lra).
  assert (I1 : intersectSegment (plane_of slope) (pt 0 0 0) (pt 0 0 9) = Some (pt 0 0 2)).
  { rewrite isect_some by (rewrite S1, S2; lra). unfold cut. rewrite S1, S2. f_equal. unfold along, pt, X, Y, Z3. cbn [px py pz]. apply p3_ext; rcbn; lra. }
  assert (I2 : intersectSegment (plane_of slope) (pt 0 0 9) (pt 4 0 9) = None) by (apply isect_none; right; rewrite S2, S3; lra).
  assert (I3 : intersectSegment (plane_of slope) (pt 4 0 9) (pt 0 0 0) = Some (pt (4 / 3) 0 3)).
  { rewrite isect_some by (rewrite S1, S3; lra). unfold cut. rewrite S1, S3. f_equal. unfold along, pt, X, Y, Z3. cbn [px py pz]. apply p3_ext; rcbn; lra. }
  assert (RE : pt_round8 (pt 0 0 2) = cutE).
  { unfold pt_round8, cutE, pt. cbn [px py pz]. rewrite !(round8_near1 0 0) by (rewrite Rabs_pos_eq; lra). rewrite (round8_near1 2 200000000) by (rewrite Rabs_pos_eq; lra). apply p3_ext; rcbn; lra. }
  assert (RF : pt_round8 (pt (4 / 3) 0 3) = cutF).
  { unfold pt_round8, cutF, pt. cbn [px py pz]. rewrite (round8_near1 (4 / 3) 133333333) by (rewrite Rabs_pos_eq; lra). rewrite (round8_near1 0 0) by (rewrite Rabs_pos_eq; lra).
    rewrite (round8_near1 3 300000000) by (rewrite Rabs_pos_eq; lra). apply p3_ext; rcbn; lra. }
  unfold intersectTriangle, wall_up, newTriangle. cbn [t1 t2 t3]. rewrite I1, I2, I3. unfold pick_pair, distinct_pair.
  replace (pt_equal (pt 0 0 2) (pt (4 / 3) 0 3)) with false.
  2:{ symmetry. apply pt_equal_R_false. intros (_ & _ & C). unfold pt, Z3 in C. cbn [pz] in C. rewrite Rabs_left in C by lra. lra. }
  unfold ordered_line. rewrite RE, RF. replace (pt_equal cutE cutF) with false.
  2:{ symmetry. apply pt_equal_R_false. intros (_ & _ & C). unfold cutE, cutF, pt, Z3 in C. cbn [pz] in C. rewrite Rabs_left in C by lra. lra. }
  match goal with |- context [if ?b then _ else _] => destruct b end; eexists; (split; [reflexivity|]); cbn [lp1 lp2]; auto.
Qed.

Lemma slope_passes : passes slope wall_up.
Proof.
  left. destruct slope_cut as (ln & Hi & Ends). destruct (t_intersectTriangle slope wall_up) eqn:T; [exfalso|reflexivity].
  assert (Ev : forall a b x y z : R, sd (plane_of slope) (pt x y z) = 2400 * z - 1800 * x - 4800) by (intros; rewrite sd_slope; reflexivity).
  assert (T2 : t_intersectTriangle slope wall_up <> None) by congruence. clear T.
  assert (Bf : t_pointBelongs slope cutF = false).
  { unfold t_pointBelongs. fold (plane_of slope). replace (pl_pointBelongs (plane_of slope) cutF) with false; [reflexivity|].
    symmetry. apply not_true_is_false. intros B. unfold pl_pointBelongs in B. apply almostZero_R in B.
    assert (Q : Rabs (sd (plane_of slope) cutF) < / 1000000).
    { eapply Rle_lt_trans; [right|exact B]. f_equal. unfold sd, X, Y, Z3. rcbn. ring. }
    unfold cutF in Q. rewrite (Ev 0 0) in Q. rewrite Rabs_pos_eq in Q; lra. }
  assert (W : forall v w q, In (v, w) [(t1 slope, t2 slope); (t2 slope, t3 slope); (t3 slope, t1 slope)] -> q = cutE \/ q = cutF -> 1 <= cr v w q).
  { intros v w q I J. unfold slope, newTriangle in I. cbn [t1 t2 t3] in I. rewrite cr_def.
    destruct I as [I|[I|[I|[]]]]; injection I as <- <-; destruct J as [-> | ->]; unfold cutE, cutF, pt, X, Y; cbn [px py]; lra. }
  assert (V : forall v, In v [t1 slope; t2 slope; t3 slope] -> 1 <= Rabs (cr cutE cutF v) /\ cr cutF cutE v = - cr cutE cutF v).
  { intros v I. split; [|apply cr_rev]. unfold slope, newTriangle in I. cbn [t1 t2 t3] in I. rewrite cr_def.
    destruct I as [<-|[<-|[<-|[]]]]; unfold cutE, cutF, pt, X, Y; cbn [px py]; [rewrite Rabs_left by lra|rewrite Rabs_left by lra|rewrite Rabs_pos_eq by lra]; lra. }
  assert (EF : (lp1 ln = cutE \/ lp1 ln = cutF) /\ (lp2 ln = cutE \/ lp2 ln = cutF)) by tauto. destruct EF as (J1 & J2).
  apply (decision slope wall_up ln Hi) in T2.
  - pose proof (fun v w I => Rmult_le_compat 1 _ 1 _ Rle_0_1 Rle_0_1 (W v w _ I J1) (W v w _ I J2)) as P.
    assert (NA : ~ cr (t1 slope) (t2 slope) (lp1 ln) * cr (t1 slope) (t2 slope) (lp2 ln) < 0) by (specialize (P (t1 slope) (t2 slope) ltac:(cbn; auto)); lra).
    assert (NB : ~ cr (t2 slope) (t3 slope) (lp1 ln) * cr (t2 slope) (t3 slope) (lp2 ln) < 0) by (specialize (P (t2 slope) (t3 slope) ltac:(cbn; auto)); lra).
    assert (NC : ~ cr (t3 slope) (t1 slope) (lp1 ln) * cr (t3 slope) (t1 slope) (lp2 ln) < 0) by (specialize (P (t3 slope) (t1 slope) ltac:(cbn; auto)); lra).
    destruct Ends as [(E1 & E2)|(E1 & E2)]; rewrite E1, E2 in *; rewrite Bf in T2; intuition discriminate.
  - intros v w q I J. assert (Jq : q = cutE \/ q = cutF) by (destruct J as [<-|[<-|[]]]; assumption). specialize (W v w q I Jq).
    rewrite Rabs_pos_eq by lra. lra.
  - intros v I. destruct (V v I) as (V1 & V2). destruct Ends as [(E1 & E2)|(E1 & E2)]; rewrite E1, E2; rewrite ?V2, ?Rabs_Ropp; lra.
Qed.

(** Refuted: a wall that goes through a face of the model is left out. *)
Theorem C108_slanted_refuted : exists U (m : Rmesh) (u : Rvector) (mn : R) (s : @settings ArithR) sup (bt t : Rtriangle) (p : Rpoint),
  legal U /\ is_unit u /\ lowest u (vertices m) mn /\ supportTriangles U m u mn s = Ok sup /\ In bt m /\ In t sup /\
  proper bt /\ vz (t_n bt) <> 0 /\ inside bt p /\ inside t p /\
  (* the wall has corners on both sides of the face *)
  sd (plane_of bt) (t1 t) <= -1 /\ 1 <= sd (plane_of bt) (t2 t).
Proof.
  destruct (support_total env0 [slope; roof; stand] axisZ 0 sup_sett unit_Z) as (sup & E).
  exists env0, [slope; roof; stand], axisZ, 0, sup_sett, sup, slope, wall_up, (pt (1 / 2) 0 (19 / 8)).
  assert (HU : legal (A := ArithR) env0) by exact env0_legal.
  split; [exact HU|]. split; [exact unit_Z|]. split.
  { rewrite axisZ_R. split; [exists (pt 100 0 0)|intros p]; unfold vertices, slope, roof, stand, newTriangle;
    cbn [flat_map app t1 t2 t3 In]; try (split; [now auto 12|]); unfold Rdot, pt; cbn [px py pz vx vy vz]; rcbn; try lra;
    intros I; repeat (destruct I as [<-|I]; [cbn [px py pz]; lra|]); destruct I. }
  split; [exact E|]. split; [cbn; auto|]. split.
  { apply (support_set env0 _ _ _ _ _ HU unit_Z E). exists side.
    assert (B : border sup_sett [roof; stand] side) by (apply border_ex; auto).
    split; [|split].
    - unfold border in *. rewrite (edges_with slope _ _ _ slope_n ltac:(lra) ltac:(lra)). exact B.
    - left. symmetry. apply upper_R.
    - intros bt [<-|I]; [exact slope_passes|]. apply pass_ex; [|exact I].
      repeat (apply Forall_cons || apply Forall_nil); unfold X, Z3, pt; cbn [px pz]; lra. }
  split; [reflexivity|]. split; [rewrite slope_n; cbn [vz]; lra|].
  split; [|split; [|split]].
  - exists (7 / 16), (1 / 16), (1 / 2). repeat split; try lra. unfold slope, newTriangle, comb3, pt, X, Y, Z3. cbn [t1 t2 t3 px py pz]. apply p3_ext; rcbn; lra.
  - exists (53 / 72), (5 / 36), (1 / 8). repeat split; try lra. unfold wall_up, newTriangle, comb3, pt, X, Y, Z3. cbn [t1 t2 t3 px py pz]. apply p3_ext; rcbn; lra.
  - rewrite sd_slope. unfold wall_up, newTriangle, X, Z3, pt. cbn [t1 px pz]. lra.
  - rewrite sd_slope. unfold wall_up, newTriangle, X, Z3, pt. cbn [t2 px pz]. lra.
Qed.

(** ** The hypotheses are met *)
Definition flat (y : R) : Rtriangle := newTriangle (pt (-5) (y - 5) 5) (pt 15 (y - 5) 5) (pt (-5) (y + 15) 5).
Definition cutG : Rpoint := pt 0 0 5.
Definition cutH : Rpoint := pt (222222222 / 10 ^ 8) 0 5.
Lemma flat_n y : t_n (flat y) = V3 (A := ArithR) 0 0 400%R.
Proof. unfold flat, newTriangle, cross, vectorTo, pt. cbn [t_n px py pz vx vy vz]. rcbn. apply v3_ext; lra. Qed.
Lemma sd_flat y (q : Rpoint) : sd (plane_of (flat y)) q = 400 * Z3 q - 2000.
Proof.
  unfold sd, plane_of. cbn [pl_p pl_n]. rewrite flat_n. unfold flat, newTriangle, pt. cbn [t1 vx vy vz].
  unfold X at 2. unfold Y at 2. unfold Z3 at 2. cbn [px py pz]. rcbn. lra.
Qed.
Lemma flat_cut y : exists ln, intersectTriangle (plane_of (flat y)) wall_up = Some ln /\
  ((lp1 ln = cutG /\ lp2 ln = cutH) \/ (lp1 ln = cutH /\ lp2 ln = cutG)).
Proof.
  assert (S1 : sd (plane_of (flat y)) (pt 0 0 0) = -2000) by (rewrite sd_flat; unfold Z3, pt; cbn [pz]; lra).
  assert (S2 : sd (plane_of (flat y)) (pt 0 0 9) = 1600) by (rewrite sd_flat; unfold Z3, pt; cbn [pz]; lra).
  assert (S3 : sd (plane_of (flat y)) (pt 4 0 9) = 1600) by (rewrite sd_flat; unfold Z3, pt; cbn [pz]; lra).
  assert (I1 : intersectSegment (plane_of (flat y)) (pt 0 0 0) (pt 0 0 9) = Some (pt 0 0 5)).
  { rewrite isect_some by (rewrite S1, S2; lra). unfold cut. rewrite S1, S2. f_equal. unfold along, pt, X, Y, Z3. cbn [px py pz]. apply p3_ext; rcbn; lra. }
  assert (I2 : intersectSegment (plane_of (flat y)) (pt 0 0 9) (pt 4 0 9) = None) by (apply isect_none; left; rewrite S2, S3; lra).
  assert (I3 : intersectSegment (plane_of (flat y)) (pt 4 0 9) (pt 0 0 0) = Some (pt (20 / 9) 0 5)).
  { rewrite isect_some by (rewrite S1, S3; lra). unfold cut. rewrite S1, S3. f_equal. unfold along, pt, X, Y, Z3. cbn [px py pz]. apply p3_ext; rcbn; lra. }
  assert (RE : pt_round8 (pt 0 0 5) = cutG).
  { unfold pt_round8, cutG, pt. cbn [px py pz]. rewrite !(round8_near1 0 0) by (rewrite Rabs_pos_eq; lra). rewrite (round8_near1 5 500000000) by (rewrite Rabs_pos_eq; lra). apply p3_ext; rcbn; lra. }
  assert (RF : pt_round8 (pt (20 / 9) 0 5) = cutH).
  { unfold pt_round8, cutH, pt. cbn [px py pz]. rewrite (round8_near1 (20 / 9) 222222222) by (rewrite Rabs_pos_eq; lra). rewrite (round8_near1 0 0) by (rewrite Rabs_pos_eq; lra).
    rewrite (round8_near1 5 500000000) by (rewrite Rabs_pos_eq; lra). apply p3_ext; rcbn; lra. }
  unfold intersectTriangle, wall_up, newTriangle. cbn [t1 t2 t3]. rewrite I1, I2, I3. unfold pick_pair, distinct_pair.
  replace (pt_equal (pt 0 0 5) (pt (20 / 9) 0 5)) with false.
  2:{ symmetry. apply pt_equal_R_false. intros (C & _). unfold pt, X in C. cbn [px] in C. rewrite Rabs_left in C by lra. lra. }
  unfold ordered_line. rewrite RE, RF. replace (pt_equal cutG cutH) with false.
  2:{ symmetry. apply pt_equal_R_false. intros (C & _). unfold cutG, cutH, pt, X in C. cbn [px] in C. rewrite Rabs_left in C by lra. lra. }
  match goal with |- context [if ?b then _ else _] => destruct b end; eexists; (split; [reflexivity|]); cbn [lp1 lp2]; auto.
Qed.

Lemma flat_hyps y ln : y = 0 \/ y = 20 -> (lp1 ln = cutG /\ lp2 ln = cutH) \/ (lp1 ln = cutH /\ lp2 ln = cutG) ->
  proper (flat y) /\ vz (t_n (flat y)) <> 0 /\
  (forall q, In q [t1 wall_up; t2 wall_up; t3 wall_up] -> 1 / 10 ^ 6 <= Rabs (sd (plane_of (flat y)) q)) /\
  Rabs (sd (plane_of (flat y)) (lp1 ln)) < 1 / 10 ^ 6 /\ Rabs (sd (plane_of (flat y)) (lp2 ln)) < 1 / 10 ^ 6 /\
  (forall v w q, In (v, w) [(t1 (flat y), t2 (flat y)); (t2 (flat y), t3 (flat y)); (t3 (flat y), t1 (flat y))] -> q = lp1 ln \/ q = lp2 ln -> 1 / 10 ^ 6 <= Rabs (tri2 (X v) (Y v) w q)) /\
  (forall v, In v [t1 (flat y); t2 (flat y); t3 (flat y)] -> 1 / 10 ^ 6 <= Rabs (tri2 (X (lp1 ln)) (Y (lp1 ln)) (lp2 ln) v)).
Proof.
  intros Hy Ends.
  assert (J : forall q, q = lp1 ln \/ q = lp2 ln -> q = cutG \/ q = cutH) by (intros q [-> | ->]; tauto).
  assert (Sq : forall q, q = lp1 ln \/ q = lp2 ln -> Rabs (sd (plane_of (flat y)) q) < 1 / 10 ^ 6).
  { intros q H. apply J in H. rewrite sd_flat. destruct H as [-> | ->]; unfold Z3, cutG, cutH, pt; cbn [pz]; (replace (400 * 5 - 2000) with 0 by lra); rewrite Rabs_R0; lra. }
  split; [reflexivity|]. split; [rewrite flat_n; cbn [vz]; lra|]. split; [|split; [auto|split; [auto|split]]].
  - intros q I. rewrite sd_flat. unfold wall_up, newTriangle in I. cbn [t1 t2 t3] in I.
    destruct I as [<-|[<-|[<-|[]]]]; unfold Z3, pt; cbn [pz]; [rewrite Rabs_left by lra|rewrite Rabs_pos_eq by lra|rewrite Rabs_pos_eq by lra]; lra.
  - intros v w q I H. apply J in H. unfold flat, newTriangle in I. cbn [t1 t2 t3] in I. unfold tri2.
    destruct I as [I|[I|[I|[]]]]; injection I as <- <-; destruct H as [-> | ->]; destruct Hy as [-> | ->]; unfold cutG, cutH, pt, X, Y; cbn [px py];
      (rewrite Rabs_pos_eq by lra; lra) || (rewrite Rabs_left by lra; lra).
  - intros v I. unfold flat, newTriangle in I. cbn [t1 t2 t3] in I. unfold tri2.
    destruct Ends as [(-> & ->)|(-> & ->)]; destruct I as [<-|[<-|[<-|[]]]]; destruct Hy as [-> | ->]; unfold cutG, cutH, pt, X, Y; cbn [px py];
      (rewrite Rabs_pos_eq by lra; lra) || (rewrite Rabs_left by lra; lra).
Qed.

(** a face in the way is found *)
Example ex_C108_met : t_intersectTriangle (flat 0) wall_up <> None.
Proof.
  destruct (flat_cut 0) as (ln & Hi & Ends). destruct (flat_hyps 0 ln (or_introl eq_refl) Ends) as (H1 & H2 & _ & H4 & H5 & H6 & H7).
  apply (C108_meets _ _ ln H1 H2 Hi H4 H5 H6 H7). exists cutG, cutG. split; [|split; [|auto]].
  - destruct Ends as [(-> & ->)|(-> & ->)]; [exists 0|exists 1]; (split; [lra|]); unfold along, cutG, cutH, pt, X, Y, Z3; cbn [px py pz]; apply p3_ext; rcbn; lra.
  - exists (1 / 2), (1 / 4), (1 / 4). repeat split; try lra. unfold flat, newTriangle, comb3, cutG, pt, X, Y, Z3. cbn [t1 t2 t3 px py pz]. apply p3_ext; rcbn; lra.
Qed.
(** a face beside the wall, cut by the same plane, is not, and the wall is printed *)
Example ex_C108_missed : exists sup, supportTriangles env0 [flat 20; roof; stand] axisZ 0 sup_sett = Ok sup /\ In wall_up sup /\
  exists ln, intersectTriangle (plane_of (flat 20)) wall_up = Some ln.
Proof.
  destruct (support_total env0 [flat 20; roof; stand] axisZ 0 sup_sett unit_Z) as (sup & E). exists sup. split; [exact E|].
  destruct (flat_cut 20) as (ln & Hi & Ends). split; [|eauto].
  apply (support_set env0 _ _ _ _ _ env0_legal unit_Z E). exists side.
  assert (B : border sup_sett [roof; stand] side) by (apply border_ex; auto). split; [|split].
  - unfold border in *. rewrite (edges_with (flat 20) _ _ _ (flat_n 20) ltac:(lra) ltac:(lra)). exact B.
  - left. symmetry. apply upper_R.
  - intros bt [<-|I].
    + destruct (flat_hyps 20 ln (or_intror eq_refl) Ends) as (H1 & H2 & _ & H4 & H5 & H6 & H7).
      left. destruct (t_intersectTriangle (flat 20) wall_up) eqn:T; [exfalso|reflexivity].
      destruct (proj1 (C108_meets _ _ ln H1 H2 Hi H4 H5 H6 H7) ltac:(congruence)) as (q & p & (r & _ & Oq) & (a & b & c & Ha & Hb & Hc & Hs & Ep) & _ & Ey).
      assert (Y q = 0) by (rewrite Oq; destruct Ends as [(-> & ->)|(-> & ->)]; unfold along, cutG, cutH, pt, Y; cbn [py]; rring).
      assert (Y p = 15 * (a + b + c) + 20 * c) by (rewrite Ep; unfold comb3, flat, newTriangle, pt, Y; cbn [t1 t2 t3 py]; rring).
      rewrite Hs in *. lra.
    + apply pass_ex; [|exact I]. repeat (apply Forall_cons || apply Forall_nil); unfold X, Z3, pt; cbn [px pz]; lra.
Qed.

Print Assumptions C108_meets.
Print Assumptions C108_small.
Print Assumptions C108_supports.
Print Assumptions C108_slanted_refuted.
