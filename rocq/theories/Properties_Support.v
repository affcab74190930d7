(** * C105-C107 Supports *)
From Coq Require Import Reals Lra Lia List Bool ZArith PeanoNat Permutation String.
From Flocq Require Core.Raux.
From Flocq Require Import IEEE754.BinarySingleNaN.
From Verif Require Import Arith ArithR ArithF64 Prim Path PathClaims GeomSpec GeomProofs Properties_Geom Helpers HelperClaims HelperProofs HelperProofs2 Gcode
  MeshProofs SlicerClaims SlicerProofs Slicer SlicerProofs2 Properties_Helpers Properties_Slicer SupportClaims SupportProofs.
Import ListNotations.
Close Scope string_scope.
Close Scope Z_scope.
Close Scope num_scope.
Local Open Scope R_scope.

(** ** C105 Where the supports are *)

(** With supports switched on every layer is made of the sections with the model and with
    the walls below the outline of the hanging part, without the halves that meet the model. *)
Theorem C105_walls : forall U (m : Rmesh) (Zv u : Rvector) (s : @settings ArithR) (mn mx : R),
  legal U -> m <> [] -> unit_of Zv u -> Forall (fun p => in_range (Rdot p u)) (vertices m) ->
  lowest u (vertices m) mn -> highest u (vertices m) mx -> 0 < s_layerHeight s -> mn < mx -> s_supportsOn s = true ->
  exists sup,
    (forall t, In t sup <-> exists e, border s m e /\ (t = upper u mn e \/ t = lower u mn e) /\ forall bt, In bt m -> passes bt t) /\
    forall ls l, sliceByVector U m Zv s = Ok ls -> In l ls ->
      exists i segs, l_order l = Z.of_nat i /\ (i < Z.to_nat (layers_count (mx - mn) (s_layerHeight s)))%nat /\
        Permutation segs (sections (plane_at u (layer_height_at mn mx (s_layerHeight s) i)) (sup ++ m)) /\
        joinPaths3AndMinimize (u_ends U) segs = Ok (l_paths l).
Proof.
  intros U m Zv u s mn mx HU Hm Hu Hr Hlo Hhi HL Hh On.
  destruct (slice_exact_sup U m Zv u s mn mx HU Hm Hu Hr Hlo Hhi HL Hh) as (sup & full & H1 & H2 & H3 & H4 & H5).
  rewrite On in H1. exists sup. split; [apply (support_set U); [exact HU|apply Hu|exact H1]|].
  intros ls l E Hl. rewrite H5 in E. pose proof (trim_spec full) as T. rewrite E in T.
  destruct T as (a & b & Ef & _). assert (Hf : In l full) by (rewrite Ef, !in_app_iff; auto).
  apply In_nth_error in Hf. destruct Hf as (i & Hi). destruct (H4 i l Hi) as (O & _ & segs & P & J).
  exists i, segs. split; [exact O|]. split; [rewrite <- H3; apply nth_error_Some; congruence|]. split; assumption.
Qed.

(** The two halves of a wall are exactly what lies between the side and the bed. *)
Theorem C105_under : forall (u : Rvector) (mn : R) (e : @line ArithR), mn <= Rdot (lp1 e) u -> mn <= Rdot (lp2 e) u ->
  forall p, curtain u mn (lp1 e) (lp2 e) p <->
    exists t, (t = upper u mn e \/ t = lower u mn e) /\ in_tri (t1 t) (t2 t) (t3 t) p.
Proof.
  intros u mn e Ha Hb p. rewrite (wall_halves u mn (lp1 e) (lp2 e) Ha Hb p). split.
  - intros [H|H]; [exists (upper u mn e)|exists (lower u mn e)]; (split; [auto|exact H]).
  - intros (t & [->| ->] & H); [left|right]; exact H.
Qed.

(** ** C106 Upright sides *)

(** twice the area of an upright triangle, seen along x and along y *)
Definition area2_x (t : Rtriangle) : R :=
  Rabs ((Y (t2 t) - Y (t1 t)) * (Z3 (t3 t) - Z3 (t1 t)) - (Z3 (t2 t) - Z3 (t1 t)) * (Y (t3 t) - Y (t1 t))).
Definition area2_y (t : Rtriangle) : R :=
  Rabs ((Z3 (t2 t) - Z3 (t1 t)) * (X (t3 t) - X (t1 t)) - (X (t2 t) - X (t1 t)) * (Z3 (t3 t) - Z3 (t1 t))).

(** [t] reaches across the plane where [f] is [c]: no corner is too near to it, and the part
    of [t] in the plane can be seen *)
Definition across (f : Rpoint -> R) (c a : R) (t : Rtriangle) : Prop :=
  (forall q, In q [t1 t; t2 t; t3 t] -> 1 / 10 ^ 6 <= a * Rabs (f q - c)) /\
  exists q r, in_tri (t1 t) (t2 t) (t3 t) q /\ in_tri (t1 t) (t2 t) (t3 t) r /\ f q = c /\ f r = c /\
    ~ closer (1 / 10 ^ 6 + 1 / 10 ^ 8) q r.

Lemma blocked (bt t : Rtriangle) (k : Z) : 
  (wall_x k bt /\ across X (IZR k / 10 ^ 8) (area2_x bt) t) \/ (wall_y k bt /\ across Y (IZR k / 10 ^ 8) (area2_y bt) t) -> ~ passes bt t.
Proof.
  intros H P.
  assert (W : wall_x k bt \/ wall_y k bt) by tauto.
  assert (S : exists f a, across f (IZR k / 10 ^ 8) (Rabs a) t /\ forall q, sd (Pl (t1 bt) (t_n bt)) q = a * (f q - IZR k / 10 ^ 8)).
  { destruct H as [((X1 & X2 & X3 & Et) & H)|((X1 & X2 & X3 & Et) & H)].
    - exists X. eexists. split; [exact H|]. intros q. unfold sd. cbn [pl_p pl_n].
      assert (N : vx (t_n bt) = (Y (t2 bt) - Y (t1 bt)) * (Z3 (t3 bt) - Z3 (t1 bt)) - (Z3 (t2 bt) - Z3 (t1 bt)) * (Y (t3 bt) - Y (t1 bt)) /\
        vy (t_n bt) = 0 /\ vz (t_n bt) = 0).
      { clear H P W. destruct bt as [n a b c]. cbn [t1 t2 t3 t_n] in *. injection Et as ->. unfold cross, vectorTo. cbn [vx vy vz]. unfold X, Y, Z3 in *. rcbn.
        rewrite X1, X2, X3. split; [|split]; rring. }
      destruct N as (-> & -> & ->). rewrite X1. ring.
    - exists Y. eexists. split; [exact H|]. intros q. unfold sd. cbn [pl_p pl_n].
      assert (N : vy (t_n bt) = (Z3 (t2 bt) - Z3 (t1 bt)) * (X (t3 bt) - X (t1 bt)) - (X (t2 bt) - X (t1 bt)) * (Z3 (t3 bt) - Z3 (t1 bt)) /\
        vx (t_n bt) = 0 /\ vz (t_n bt) = 0).
      { clear H P W. destruct bt as [n a b c]. cbn [t1 t2 t3 t_n] in *. injection Et as ->. unfold cross, vectorTo. cbn [vx vy vz]. unfold X, Y, Z3 in *. rcbn.
        rewrite X1, X2, X3. split; [|split]; rring. }
      destruct N as (-> & -> & ->). rewrite X1. ring. }
  destruct S as (f & a & (Far & q & r & Tq & Tr & Fq & Fr & N) & S).
  pose proof (wall_blocks k bt t W P) as B. cbn zeta in B. set (pl := Pl (t1 bt) (t_n bt)) in *.
  assert (Fs : forall q, In q [t1 t; t2 t; t3 t] -> 1 / 10 ^ 6 <= Rabs (sd pl q)) by (intros q0 I; rewrite S, Rabs_mult; now apply Far).
  destruct B as [(q0 & I & B)|B].
  - specialize (Fs q0 I). lra.
  - destruct (C28_found pl t q r Tq Tr) as (l & E).
    + rewrite S, Fq. ring.
    + rewrite S, Fr. ring.
    + intros (Z & _). specialize (Fs (t1 t) (or_introl eq_refl)). rewrite Z, Rabs_R0 in Fs. lra.
    + exact N.
    + congruence.
Qed.

(** No half of a wall is printed that reaches across the plane of an upright side parallel
    to the axis x or y, wherever in that plane the side is. *)
Theorem C106_upright_sides : forall U (m : Rmesh) (u : Rvector) (mn : R) (s : @settings ArithR) sup,
  legal U -> is_unit u -> supportTriangles U m u mn s = Ok sup ->
  forall bt t k, In bt m -> In t sup ->
    (wall_x k bt -> ~ across X (IZR k / 10 ^ 8) (area2_x bt) t) /\ (wall_y k bt -> ~ across Y (IZR k / 10 ^ 8) (area2_y bt) t).
Proof.
  intros U m u mn s sup HU Un H bt t k Ib It. apply (support_set U m u mn s sup HU Un H) in It.
  destruct It as (e & _ & _ & P). specialize (P bt Ib).
  split; intros W A; apply (blocked bt t k) in P; auto.
Qed.

Lemma support_total U (m : Rmesh) (u : Rvector) (mn : R) (s : @settings ArithR) : is_unit u -> exists sup, supportTriangles U m u mn s = Ok sup.
Proof. intros Un. unfold supportTriangles. rewrite support_col. rewrite support_lines by exact Un. cbn [rbind]. eauto. Qed.

Lemma angle_wide (u v : Rvector) : u <> Vzero -> v <> Vzero -> Vdot u v <= 0 -> 90 <= angle u v.
Proof.
  intros Hu Hv D. destruct (Rle_or_lt 90 (angle u v)) as [G|G]; [exact G|exfalso].
  destruct (C43_angle_exact u v) as (_ & (A0 & _) & C & _). specialize (C Hu Hv). apply Vlen_pos in Hu, Hv.
  assert (P : 0 < cos (angle u v * PI / 180)).
  { pose proof PI_RGT_0. apply cos_gt_0.
    - apply Rlt_le_trans with 0; [lra|]. apply Rmult_le_pos; [apply Rmult_le_pos; lra|lra].
    - assert (angle u v * PI < 90 * PI) by (apply Rmult_lt_compat_r; lra). lra. }
  assert (0 < Vlen u * Vlen v * cos (angle u v * PI / 180)) by (apply Rmult_lt_0_compat; [apply Rmult_lt_0_compat; lra|exact P]). lra.
Qed.

Lemma angle_down (k : R) : 0 < k -> angle (V3 (A := ArithR) 0 0 (- k)%R) (V3 (A := ArithR) 0 0 (-1)%R) = 0.
Proof.
  intros Hk. assert (N : forall z : R, z < 0 -> V3 (A := ArithR) 0 0 z <> Vzero).
  { intros z Hz E. pose proof (f_equal (fun w : Rvector => vz w) E) as E3. unfold Vzero in E3. cbn [vz] in E3. rcbn. lra. }
  rewrite angle_R by (apply N; lra). unfold Vlen, Vdot. cbn [vx vy vz]. rcbn.
  replace (0 * 0 + 0 * 0 + - k * - k) with (k * k) by ring. replace (0 * 0 + 0 * 0 + -1 * -1) with (1 * 1) by ring.
  rewrite !sqrt_square by lra. replace ((0 * 0 + 0 * 0 + - k * -1) / (k * 1)) with 1 by (field; lra). rewrite acos_1. lra.
Qed.

(** *** A triangle that hangs, its foot, and a wall far away *)
Definition pt (x y z : R) : Rpoint := P3 (A := ArithR) x y z.
Definition roof : Rtriangle := newTriangle (pt 0 0 10) (pt 0 4 10) (pt 4 0 10).
Definition stand : Rtriangle := newTriangle (pt 100 0 0) (pt 101 0 1) (pt 100 1 0).
Definition far_wall (d : R) : Rtriangle := newTriangle (pt 1 (d + 20)%R 0) (pt 1 (d + 21)%R 0) (pt 1 (d + 20)%R 5).
Definition sup_sett : @settings ArithR :=
  Settings (A := ArithR) (GSett (A := ArithR) (175 / 100)%R 1%R (2 / 10)%R (4 / 10)%R false 3000 1500 2000 false 0 0%R)
    EmptyString (1 / 100)%R 1%R (8 / 10)%R 20 60 200 0 (pt 0 0 0) EmptyString EmptyString 30%R (axisZ (A := ArithR)) true 1%R 0 0 0.
Definition side : @line ArithR := L2 (pt 0 0 9) (pt 4 0 9).
Definition sideB : @line ArithR := L2 (pt 0 0 9) (pt 0 4 9).
Definition sideC : @line ArithR := L2 (pt 4 0 9) (pt 0 4 9).

Lemma v3_ext (x y z x' y' z' : R) : x = x' -> y = y' -> z = z' -> V3 (A := ArithR) x y z = V3 x' y' z'.
Proof. congruence. Qed.

Lemma unit_Z : is_unit (axisZ (A := ArithR)).
Proof. unfold is_unit, axisZ. cbn [vx vy vz]. unfold n0, n1, nofZ. rcbn. lra. Qed.
Lemma axisZ_R : axisZ (A := ArithR) = V3 0 0 1.
Proof. unfold axisZ, n0, n1, nofZ. rcbn. apply v3_ext; lra. Qed.
Lemma down_R : vopp (s_unitVector sup_sett) = V3 (A := ArithR) 0 0 (-1)%R.
Proof. cbn [s_unitVector sup_sett]. rewrite axisZ_R. unfold vopp. cbn [vx vy vz]. rcbn. apply v3_ext; ring. Qed.

Lemma not_hanging (t : Rtriangle) (x y z : R) : t_n t = V3 (A := ArithR) x y z -> 0 <= z -> x <> 0 \/ z <> 0 ->
  Rltb (angle (t_n t) (vopp (s_unitVector sup_sett))) (90 - s_colorizedAngle sup_sett)%R = false.
Proof.
  intros -> Hz Hn. apply Rltb_false. rewrite down_R. cbn [s_colorizedAngle sup_sett].
  assert (90 <= angle (V3 (A := ArithR) x y z) (V3 (A := ArithR) 0 0 (-1)%R)); [|lra]. apply angle_wide.
  - intros E. pose proof (f_equal (fun w : Rvector => vx w) E) as E1. pose proof (f_equal (fun w : Rvector => vz w) E) as E3.
    unfold Vzero in *. cbn [vx vz] in *. tauto.
  - intros E. pose proof (f_equal (fun w : Rvector => vz w) E) as E3. unfold Vzero in *. cbn [vz] in *. rcbn. lra.
  - unfold Vdot. cbn [vx vy vz]. rcbn. lra.
Qed.
Lemma roof_n : t_n roof = V3 (A := ArithR) 0 0 (Ropp 16).
Proof. unfold roof, newTriangle, cross, vectorTo, pt. cbn [t_n px py pz vx vy vz]. rcbn. apply v3_ext; ring. Qed.
Lemma stand_n : t_n stand = V3 (A := ArithR) (-1)%R 0 1%R.
Proof. unfold stand, newTriangle, cross, vectorTo, pt. cbn [t_n px py pz vx vy vz]. rcbn. apply v3_ext; ring. Qed.
Lemma far_n d : t_n (far_wall d) = V3 (A := ArithR) 5%R 0 0%R.
Proof. unfold far_wall, newTriangle, cross, vectorTo, pt. cbn [t_n px py pz vx vy vz]. rcbn. apply v3_ext; ring. Qed.

Lemma edges_ex (m : Rmesh) : m = [roof; stand] \/ (exists d, m = [far_wall d; roof; stand]) -> edges (hanging sup_sett m) = [sideB; side; sideC].
Proof.
  intros H. assert (E : hanging sup_sett m = [t_shift roof (vscale (s_unitVector sup_sett) (- s_supportOffset sup_sett)%R)]).
  { unfold hanging. assert (R : Rltb (angle (t_n roof) (vopp (s_unitVector sup_sett))) (90 - s_colorizedAngle sup_sett)%R = true).
    { apply Rltb_true. rewrite down_R, roof_n, angle_down by lra. cbn [s_colorizedAngle sup_sett]. lra. }
    pose proof (not_hanging stand _ _ _ stand_n ltac:(lra) ltac:(lra)) as S.
    destruct H as [->|(d & ->)]; cbn [filter].
    - rewrite R, S. reflexivity.
    - rewrite (not_hanging (far_wall d) _ _ _ (far_n d) ltac:(lra) ltac:(lra)), R, S. reflexivity. }
  rewrite E. cbn [s_unitVector s_supportOffset sup_sett]. rewrite axisZ_R. unfold edges, roof, t_shift, newTriangle, pshift, vscale, pt.
  cbn [flat_map app t1 t2 t3 px py pz vx vy vz]. rcbn. unfold sideB, side, sideC, pt.
  repeat (apply f_equal2 || reflexivity); apply p3_ext; ring.
Qed.

Ltac req := repeat match goal with |- context [Reqb ?a ?b] =>
  first [rewrite (proj2 (Reqb_true a b)) by lra
        |let E := fresh in destruct (Reqb a b) eqn:E; [apply Reqb_true in E; exfalso; lra|clear E]] end.

Lemma border_ex (m : Rmesh) e : m = [roof; stand] \/ (exists d, m = [far_wall d; roof; stand]) ->
  border sup_sett m e <-> e = side \/ e = sideB \/ e = sideC.
Proof.
  intros H. unfold border. rewrite (edges_ex m H). split.
  - intros ([<-|[<-|[<-|[]]]] & _); auto.
  - intros [->|[->| ->]]; (split; [cbn; auto|]); unfold occ, edge_eq, l_eqb, l_rev, pt_eqb, side, sideB, sideC, pt;
      cbn [filter lp1 lp2 px py pz]; rcbn; req; reflexivity.
Qed.

Lemma foot_Z (x y z : R) : foot axisZ 0 (pt x y z) = pt x y 0.
Proof. rewrite axisZ_R. unfold foot, Rdot, pt, X, Y, Z3. cbn [px py pz vx vy vz]. rcbn. apply p3_ext; ring. Qed.

Lemma upper_R (a b c d e f : R) : upper axisZ 0 (L2 (pt a b c) (pt d e f)) = newTriangle (pt a b 0) (pt a b c) (pt d e f).
Proof. unfold upper. cbn [lp1 lp2]. now rewrite foot_Z. Qed.
Lemma lower_R (a b c d e f : R) : lower axisZ 0 (L2 (pt a b c) (pt d e f)) = newTriangle (pt a b 0) (pt d e 0) (pt d e f).
Proof. unfold lower. cbn [lp1 lp2]. now rewrite !foot_Z. Qed.

Lemma pass_ex (a b c : Rpoint) : Forall (fun q => X q <= 4 /\ 0 <= Z3 q <= 9) [a; b; c] ->
  forall bt, In bt [roof; stand] -> passes bt (newTriangle a b c).
Proof.
  intros F bt I. left. unfold t_intersectTriangle. rewrite C28_nil_one_side; [reflexivity|]. left. cbn [t1 t2 t3 newTriangle].
  rewrite !Forall_cons_iff in F. destruct F as ((A1 & A2) & (B1 & B2) & (C1 & C2) & _).
  assert (S : forall q : Rpoint, X q <= 4 -> 0 <= Z3 q <= 9 -> 0 < sd (Pl (t1 bt) (t_n bt)) q).
  { intros q Q1 Q2. unfold sd. cbn [pl_p pl_n]. destruct I as [<-|[<-|[]]]; rewrite ?roof_n, ?stand_n; unfold roof, stand, newTriangle, pt;
      cbn [t1 vx vy vz]; unfold X at 2; unfold Y at 2; unfold Z3 at 2; cbn [px py pz]; rcbn; lra. }
  auto.
Qed.

Lemma lowest_ex d : lowest axisZ (vertices [roof; stand]) 0 /\ lowest axisZ (vertices [far_wall d; roof; stand]) 0.
Proof.
  rewrite axisZ_R. split; (split; [exists (pt 100 0 0)|intros p]); unfold vertices, roof, stand, far_wall, newTriangle;
    cbn [flat_map app t1 t2 t3 In]; try (split; [now auto 12|]); unfold Rdot, pt; cbn [px py pz vx vy vz]; rcbn; try lra;
    intros I; repeat (destruct I as [<-|I]; [cbn [px py pz]; lra|]); destruct I.
Qed.

(** Refuted: a wall that is only left out where it would meet the model. At every distance
    there is an upright triangle that removes a whole wall. *)
Theorem C106_far_refuted : forall D : R, exists U (m : Rmesh) (bt : Rtriangle) (u : Rvector) (mn : R) (s : @settings ArithR) (e : @line ArithR) sup sup',
  legal U /\ is_unit u /\ lowest u (vertices m) mn /\ lowest u (vertices (bt :: m)) mn /\
  supportTriangles U m u mn s = Ok sup /\ supportTriangles U (bt :: m) u mn s = Ok sup' /\
  border s m e /\ border s (bt :: m) e /\
  In (upper u mn e) sup /\ In (lower u mn e) sup /\ ~ In (upper u mn e) sup' /\ ~ In (lower u mn e) sup' /\
  forall p q, in_tri (t1 bt) (t2 bt) (t3 bt) p -> curtain u mn (lp1 e) (lp2 e) q -> ~ closer D p q.
Proof.
  intros D.
  destruct (support_total env0 [roof; stand] axisZ 0 sup_sett unit_Z) as (sup & E).
  destruct (support_total env0 [far_wall D; roof; stand] axisZ 0 sup_sett unit_Z) as (sup' & E').
  exists env0, [roof; stand], (far_wall D), axisZ, 0, sup_sett, side, sup, sup'.
  assert (HU : legal (A := ArithR) env0) by exact env0_legal. destruct (lowest_ex D) as (L1 & L2).
  pose proof (support_set env0 _ _ _ _ _ HU unit_Z E) as S. 
  pose proof (support_set env0 _ _ _ _ _ HU unit_Z E') as S'.
  pose proof (proj2 (border_ex [roof; stand] side (or_introl eq_refl)) (or_introl eq_refl)) as B.
  pose proof (proj2 (border_ex [far_wall D; roof; stand] side (or_intror (ex_intro _ D eq_refl))) (or_introl eq_refl)) as B'.
  assert (Up : upper axisZ 0 side = newTriangle (pt 0 0 0) (pt 0 0 9) (pt 4 0 9)) by apply upper_R.
  assert (Lo : lower axisZ 0 side = newTriangle (pt 0 0 0) (pt 4 0 0) (pt 4 0 9)) by apply lower_R.
  split; [exact HU|]. split; [exact unit_Z|]. split; [exact L1|]. split; [exact L2|]. split; [exact E|]. split; [exact E'|].
  split; [exact B|]. split; [exact B'|].
  assert (Wx : wall_x (10 ^ 8) (far_wall D)).
  { unfold wall_x, far_wall, newTriangle, pt, X. cbn [t1 t2 t3 px]. repeat split; lra. }
  assert (A5 : area2_x (far_wall D) = 5).
  { unfold area2_x, far_wall, newTriangle, pt, Y, Z3. cbn [t1 t2 t3 py pz]. rcbn.
    replace ((D + 21 - (D + 20)) * (5 - 0) - (0 - 0) * (D + 20 - (D + 20))) with 5 by ring. apply Rabs_pos_eq. lra. }
  assert (Blk : forall t (q r : Rpoint), Forall (fun p => X p = 0 \/ X p = 4) [t1 t; t2 t; t3 t] -> in_tri (t1 t) (t2 t) (t3 t) q ->
     in_tri (t1 t) (t2 t) (t3 t) r -> X q = 1 -> X r = 1 -> 1 <= Rabs (Z3 q - Z3 r) -> ~ passes (far_wall D) t).
  { intros t q r F Tq Tr Xq Xr G. apply (blocked _ _ (10 ^ 8)). left. split; [exact Wx|]. rewrite A5. replace (IZR (10 ^ 8) / 10 ^ 8) with 1 by lra.
    split.
    - intros p I. rewrite Forall_forall in F. destruct (F p I) as [-> | ->]; [rewrite Rabs_left by lra|rewrite Rabs_pos_eq by lra]; lra.
    - exists q, r. split; [exact Tq|]. split; [exact Tr|]. split; [exact Xq|]. split; [exact Xr|]. intros (_ & _ & C). lra. }
  split; [|split; [|split; [|split]]].
  - apply S. exists side. split; [exact B|]. split; [auto|]. rewrite Up. apply pass_ex.
    repeat (apply Forall_cons || apply Forall_nil); unfold X, Z3, pt; cbn [px pz]; lra.
  - apply S. exists side. split; [exact B|]. split; [auto|]. rewrite Lo. apply pass_ex.
    repeat (apply Forall_cons || apply Forall_nil); unfold X, Z3, pt; cbn [px pz]; lra.
  - intros I. apply S' in I. destruct I as (e & _ & _ & P). specialize (P (far_wall D) (or_introl eq_refl)). revert P. rewrite Up.
    apply (Blk _ (pt 1 0 9) (pt 1 0 (9 / 4))%R); unfold newTriangle; cbn [t1 t2 t3].
    + repeat (apply Forall_cons || apply Forall_nil); unfold X, pt; cbn [px]; lra.
    + exists 0, (3 / 4), (1 / 4). repeat split; try lra. unfold comb3, pt, X, Y, Z3. cbn [px py pz]. apply p3_ext; rcbn; lra.
    + exists (3 / 4), 0, (1 / 4). repeat split; try lra. unfold comb3, pt, X, Y, Z3. cbn [px py pz]. apply p3_ext; rcbn; lra.
    + reflexivity.
    + reflexivity.
    + unfold Z3, pt. cbn [pz]. rewrite Rabs_pos_eq; lra.
  - intros I. apply S' in I. destruct I as (e & _ & _ & P). specialize (P (far_wall D) (or_introl eq_refl)). revert P. rewrite Lo.
    apply (Blk _ (pt 1 0 (9 / 4))%R (pt 1 0 0)); unfold newTriangle; cbn [t1 t2 t3].
    + repeat (apply Forall_cons || apply Forall_nil); unfold X, pt; cbn [px]; lra.
    + exists (3 / 4), 0, (1 / 4). repeat split; try lra. unfold comb3, pt, X, Y, Z3. cbn [px py pz]. apply p3_ext; rcbn; lra.
    + exists (3 / 4), (1 / 4), 0. repeat split; try lra. unfold comb3, pt, X, Y, Z3. cbn [px py pz]. apply p3_ext; rcbn; lra.
    + reflexivity.
    + reflexivity.
    + unfold Z3, pt. cbn [pz]. rewrite Rabs_pos_eq; lra.
  - intros p q Tp Cq (_ & C & _).
    assert (Yp : D + 20 <= Y p).
    { destruct Tp as (a & b & c & Ha & Hb & Hc & Hs & ->). unfold far_wall, newTriangle, comb3, pt, Y. cbn [t1 t2 t3 py].
      assert (G : a * (D + 20) + b * (D + 21) + c * (D + 20) = (a + b + c) * (D + 20) + b) by ring. rewrite Hs in G. rcbn. lra. }
    assert (Yq : Y q = 0).
    { apply C105_under in Cq.
      - destruct Cq as (t & [-> | ->] & a & b & c & _ & _ & _ & _ & ->); rewrite ?Up, ?Lo; unfold newTriangle, comb3, pt, Y; cbn [t1 t2 t3 py]; rring.
      - rewrite axisZ_R. unfold Rdot, side, pt. cbn [lp1 lp2 px py pz vx vy vz]. rcbn. lra.
      - rewrite axisZ_R. unfold Rdot, side, pt. cbn [lp1 lp2 px py pz vx vy vz]. rcbn. lra. }
    rewrite Yq in C. pose proof (Rle_abs (Y p - 0)). lra.
Qed.

(** ** C107 The contours of a wall *)

(** where the corner line below [a] and the line from below [a] to [b] are at the height c *)
Definition post (u : Rvector) (mn c : R) (a : Rpoint) : Rpoint := along (foot u mn a) a ((c - mn) / (Rdot a u - mn)).
Definition brace (u : Rvector) (mn c : R) (a b : Rpoint) : Rpoint := along (foot u mn a) b ((c - mn) / (Rdot b u - mn)).

Lemma along_rev (a b : Rpoint) (t : R) : along a b (1 - t) = along b a t.
Proof. unfold along, X, Y, Z3. apply p3_ext; rring. Qed.

Lemma rdot_along (u : Rvector) (a b : Rpoint) (t : R) : Rdot (along a b t) u = (1 - t) * Rdot a u + t * Rdot b u.
Proof. unfold Rdot, along, X, Y, Z3. cbn [px py pz]. rcbn. ring. Qed.

Lemma in_tri_edge (a b c : Rpoint) (t : R) : 0 <= t <= 1 -> in_tri a b c (along a b t) /\ in_tri a b c (along a c t) /\ in_tri a b c (along b c t).
Proof.
  intros H. split; [exists (1 - t), t, 0|split; [exists (1 - t), 0, t|exists 0, (1 - t), t]];
    (split; [lra|split; [lra|split; [lra|split; [lra|]]]]); unfold along, comb3, X, Y, Z3; apply p3_ext; rring.
Qed.

Lemma abs_via (p q r s : R) : Rabs (q - s) <= Rabs (p - q) + (Rabs (p - r) + Rabs (r - s)).
Proof.
  replace (q - s) with (- (p - q) + ((p - r) + (r - s))) by ring. eapply Rle_trans; [apply Rabs_triang|]. rewrite Rabs_Ropp.
  apply Rplus_le_compat_l, Rabs_triang.
Qed.

(** Both halves of a wall are printed from their side to the brace: where nothing else of the
    layer is at the brace, two contours of the layer end there and are not closed. *)
Theorem C107_open : forall U (m : Rmesh) (Zv u : Rvector) (s : @settings ArithR) (mn mx : R) (e : @line ArithR),
  legal U -> m <> [] -> unit_of Zv u -> Forall (fun p => in_range (Rdot p u)) (vertices m) ->
  lowest u (vertices m) mn -> highest u (vertices m) mx -> 0 < s_layerHeight s -> mn < mx -> s_supportsOn s = true ->
  border s m e -> (forall bt, In bt m -> passes bt (upper u mn e) /\ passes bt (lower u mn e)) ->
  forall ls l i, sliceByVector U m Zv s = Ok ls -> In l ls -> l_order l = Z.of_nat i ->
    let c := layer_height_at mn mx (s_layerHeight s) i in
    let B := brace u mn c (lp1 e) (lp2 e) in
    mn < c -> c < Rdot (lp1 e) u -> c < Rdot (lp2 e) u ->
    ~ closer (1 / 10 ^ 6 + 1 / 10 ^ 8) (post u mn c (lp1 e)) B -> ~ closer (1 / 10 ^ 6 + 1 / 10 ^ 8) (post u mn c (lp2 e)) B ->
    (* nothing else is at the brace *)
    (forall t q, In t m \/ (exists f, border s m f /\ (t = upper u mn f \/ t = lower u mn f)) -> t <> upper u mn e -> t <> lower u mn e ->
       in_tri (t1 t) (t2 t) (t3 t) q -> Rdot q u = c -> ~ closer (1 / 10 ^ 6 + 1 / 10 ^ 8) q B) ->
    exists q1 q2 rest, Permutation (l_paths l) (q1 :: q2 :: rest) /\ isClosed q1 = false /\ isClosed q2 = false /\
      forall d, last q1 d = pt_round8 B /\ last q2 d = pt_round8 B.
Proof.
  intros U m Zv u s mn mx e HU Hm Hu Hr Hlo Hhi HL Hh On Be Pa ls l i E Il Ol c B Hc Ha Hb N1 N2 Free.
  destruct (C105_walls U m Zv u s mn mx HU Hm Hu Hr Hlo Hhi HL Hh On) as (sup & S & K).
  destruct (K ls l E Il) as (i' & segs & O' & _ & P & J). rewrite Ol in O'. apply Nat2Z.inj in O'. subst i'. fold c in P.
  assert (Un : is_unit u) by apply Hu.
  destruct (halves_cut u mn c e Un Hc Ha Hb) as (Cu & Cl). set (fa := foot u mn (lp1 e)) in *. set (fb := foot u mn (lp2 e)) in *.
  rewrite along_rev in Cu, Cl. fold fa in Cu, Cl.
  assert (EB : along fa (lp2 e) ((c - mn) / (Rdot (lp2 e) u - mn)) = B) by reflexivity. rewrite EB in Cu, Cl.
  set (M := pt_round8 B) in *.
  assert (T1 : 0 <= (c - mn) / (Rdot (lp1 e) u - mn) <= 1).
  { split; [apply Rmult_le_pos; [lra|]; left; apply Rinv_0_lt_compat; lra|].
    apply Rmult_le_reg_r with (Rdot (lp1 e) u - mn); [lra|]. unfold Rdiv. rewrite Rmult_assoc, Rinv_l by lra. lra. }
  assert (T2 : 0 <= (c - mn) / (Rdot (lp2 e) u - mn) <= 1).
  { split; [apply Rmult_le_pos; [lra|]; left; apply Rinv_0_lt_compat; lra|].
    apply Rmult_le_reg_r with (Rdot (lp2 e) u - mn); [lra|]. unfold Rdiv. rewrite Rmult_assoc, Rinv_l by lra. lra. }
  assert (Ht : forall a q, c < Rdot q u -> Rdot (along (foot u mn a) q ((c - mn) / (Rdot q u - mn))) u = c).
  { intros a q Hq. rewrite rdot_along, foot_dot by exact Un. field. lra. }
  assert (Sd : forall q, Rdot q u = c -> sd (plane_at u c) q = 0) by (intros q Hq; rewrite sd_at by exact Un; lra).
  assert (Nz : forall t, t1 t = fa -> ~ (sd (plane_at u c) (t1 t) = 0 /\ sd (plane_at u c) (t2 t) = 0 /\ sd (plane_at u c) (t3 t) = 0)).
  { intros t Et (Z & _). rewrite Et, sd_at in Z by exact Un. unfold fa in Z. rewrite foot_dot in Z by exact Un. lra. }
  destruct (C28_found (plane_at u c) (upper u mn e) (post u mn c (lp1 e)) B) as (l1 & E1).
  { apply in_tri_edge, T1. }
  { apply in_tri_edge, T2. }
  { apply Sd, Ht, Ha. }
  { apply Sd, Ht, Hb. }
  { apply Nz. reflexivity. }
  { exact N1. }
  destruct (C28_found (plane_at u c) (lower u mn e) (post u mn c (lp2 e)) B) as (l2 & E2).
  { apply in_tri_edge, T2. }
  { apply in_tri_edge, T2. }
  { apply Sd, Ht, Hb. }
  { apply Sd, Ht, Hb. }
  { apply Nz. reflexivity. }
  { exact N2. }
  destruct (Cu l1 E1) as (L1 & D1). destruct (Cl l2 E2) as (L2' & D2).
  assert (M1 : lp2 l1 = M) by now rewrite L1. assert (M2 : lp2 l2 = M) by now rewrite L2'.
  assert (In_u : In (upper u mn e) sup) by (apply S; exists e; split; [exact Be|]; split; [auto|]; intros bt I; now apply Pa).
  assert (In_l : In (lower u mn e) sup) by (apply S; exists e; split; [exact Be|]; split; [auto|]; intros bt I; now apply Pa).
  destruct (dead_end (u_ends U) segs (l_paths l) (lp1 l1) (lp1 l2) M (lg_ends U HU)) as (q1 & q2 & rest & Pq & La & O1 & O2).
  - apply Forall_forall. intros x Ix. apply (Permutation_in x P) in Ix. unfold sections in Ix. apply in_flat_map in Ix.
    destruct Ix as (t & _ & Ix). destruct (intersectTriangle (plane_at u c) t); [|destruct Ix]. destruct Ix as [<-|[]]. cbn. lia.
  - eapply Permutation_in; [apply Permutation_sym, P|]. unfold sections. apply in_flat_map. exists (upper u mn e). split; [apply in_app_iff; auto|].
    rewrite E1. left. now rewrite M1.
  - eapply Permutation_in; [apply Permutation_sym, P|]. unfold sections. apply in_flat_map. exists (lower u mn e). split; [apply in_app_iff; auto|].
    rewrite E2. left. now rewrite M2.
  - intros Eq. rewrite Eq in D1. lra.
  - intros x d Ix. apply (Permutation_in x P) in Ix. unfold sections in Ix. apply in_flat_map in Ix. destruct Ix as (t & It & Ix).
    pose proof (C28_triangle (plane_at u c) t) as C28. destruct (intersectTriangle (plane_at u c) t) as [lt|] eqn:Et; [|destruct Ix].
    destruct Ix as [<-|[]]. cbn [hd]. destruct C28 as (p & q & Sec & W1 & _ & Nc & _).
    assert (Pick : t = upper u mn e \/ t = lower u mn e \/ (t <> upper u mn e /\ t <> lower u mn e)).
    { destruct (Classical_Prop.classic (t = upper u mn e)); [auto|]. destruct (Classical_Prop.classic (t = lower u mn e)); auto. }
    replace (/ 1000000) with (1 / 10 ^ 6) by lra. destruct Pick as [->|[->|(Nu & Nl)]].
    + rewrite E1 in Et. injection Et as <-. now rewrite M1 in Nc.
    + rewrite E2 in Et. injection Et as <-. now rewrite M2 in Nc.
    + assert (Tp : in_tri (t1 t) (t2 t) (t3 t) p /\ sd (plane_at u c) p = 0) by (apply Sec, on_seg_l).
      destruct Tp as (Tp & Sp). rewrite sd_at in Sp by exact Un. intros C.
      apply (Free t p); [|exact Nu|exact Nl|exact Tp|lra|].
      * apply in_app_iff in It. destruct It as [It|It]; [right|now left]. apply S in It. destruct It as (f & Bf & Tf & _). eauto.
      * destruct W1 as (A1 & A2 & A3). destruct C as (C1 & C2 & C3). pose proof (pt_round8_near B) as (R1 & R2 & R3). fold M in R1, R2, R3.
        unfold closer. repeat split.
        -- apply Rle_lt_trans with (Rabs (X (lp1 lt) - X p) + (Rabs (X (lp1 lt) - X M) + Rabs (X M - X B))); [apply abs_via|lra].
        -- apply Rle_lt_trans with (Rabs (Y (lp1 lt) - Y p) + (Rabs (Y (lp1 lt) - Y M) + Rabs (Y M - Y B))); [apply abs_via|lra].
        -- apply Rle_lt_trans with (Rabs (Z3 (lp1 lt) - Z3 p) + (Rabs (Z3 (lp1 lt) - Z3 M) + Rabs (Z3 M - Z3 B))); [apply abs_via|lra].
  - exact J.
  - exists q1, q2, rest. auto.
Qed.

(** ** The hypotheses are met *)
Lemma ex_hyps : unit_of (axisZ (A := ArithR)) axisZ /\ Forall (fun p => in_range (Rdot p axisZ)) (vertices [roof; stand]) /\
  highest axisZ (vertices [roof; stand]) 10.
Proof.
  split; [|split].
  - split; [exact unit_Z|]. exists 1. repeat split; lra.
  - assert (B : (10 <= IZR ((2 ^ 53 - 1) * 2 ^ 971))%R) by (apply IZR_le; lia).
    rewrite axisZ_R. unfold vertices, roof, stand, newTriangle. cbn [flat_map app t1 t2 t3].
    repeat (apply Forall_cons || apply Forall_nil); unfold in_range, Rdot, pt; cbn [px py pz vx vy vz]; rcbn;
      rewrite Rabs_pos_eq by lra; lra.
  - rewrite axisZ_R. split; [exists (pt 0 0 10)|intros p]; unfold vertices, roof, stand, newTriangle; cbn [flat_map app t1 t2 t3 In];
      try (split; [now auto 12|]); unfold Rdot, pt; cbn [px py pz vx vy vz]; rcbn; try lra.
    intros I. repeat (destruct I as [<-|I]; [cbn [px py pz]; lra|]); destruct I.
Qed.

Example ex_C105 : exists sup, supportTriangles env0 [roof; stand] axisZ 0 sup_sett = Ok sup /\
  In (upper axisZ 0 side) sup /\ In (lower axisZ 0 sideB) sup /\ In (upper axisZ 0 sideC) sup /\
  0 <= Rdot (lp1 side) axisZ /\ 0 <= Rdot (lp2 side) axisZ.
Proof.
  destruct (support_total env0 [roof; stand] axisZ 0 sup_sett unit_Z) as (sup & E). exists sup. split; [exact E|].
  pose proof (support_set env0 _ _ _ _ _ env0_legal unit_Z E) as S.
  pose proof (fun e => proj2 (border_ex [roof; stand] e (or_introl eq_refl))) as B.
  split; [|split; [|split]].
  - apply S. exists side. split; [auto|]. split; [auto|]. unfold side. rewrite upper_R. apply pass_ex.
    repeat (apply Forall_cons || apply Forall_nil); unfold X, Z3, pt; cbn [px pz]; lra.
  - apply S. exists sideB. split; [auto|]. split; [auto|]. unfold sideB. rewrite lower_R. apply pass_ex.
    repeat (apply Forall_cons || apply Forall_nil); unfold X, Z3, pt; cbn [px pz]; lra.
  - apply S. exists sideC. split; [auto|]. split; [auto|]. unfold sideC. rewrite upper_R. apply pass_ex.
    repeat (apply Forall_cons || apply Forall_nil); unfold X, Z3, pt; cbn [px pz]; lra.
  - rewrite axisZ_R. unfold side, Rdot, pt. cbn [lp1 lp2 px py pz vx vy vz]. rcbn. lra.
Qed.

Lemma brace_ex (c : R) : brace axisZ 0 c (pt 0 0 9) (pt 4 0 9) = pt (4 * c / 9)%R 0 c.
Proof.
  unfold brace. rewrite foot_Z, axisZ_R. unfold along, Rdot, pt, X, Y, Z3. cbn [px py pz vx vy vz]. rcbn.
  apply p3_ext; match goal with |- @eq _ ?x ?y => change (@eq R x y) end; field.
Qed.
Lemma post_ex (x c : R) : post axisZ 0 c (pt x 0 9) = pt x 0 c.
Proof.
  unfold post. rewrite foot_Z, axisZ_R. unfold along, Rdot, pt, X, Y, Z3. cbn [px py pz vx vy vz]. rcbn.
  apply p3_ext; match goal with |- @eq _ ?x ?y => change (@eq R x y) end; field.
Qed.

Example ex_C107 : exists ls l, sliceByVector env0 [roof; stand] axisZ sup_sett = Ok ls /\ In l ls /\ l_order l = 4%Z /\
  exists q1 q2 rest, Permutation (l_paths l) (q1 :: q2 :: rest) /\ isClosed q1 = false /\ isClosed q2 = false /\
    forall d, last q1 d = pt_round8 (pt 2%R 0 (9 / 2)%R) /\ last q2 d = pt_round8 (pt 2%R 0 (9 / 2)%R).
Proof.
  destruct ex_hyps as (Hu & Hr & Hh). destruct (lowest_ex 0) as (Hl & _).
  assert (N0 : [roof; stand] <> []) by discriminate. assert (HL : 0 < s_layerHeight sup_sett) by (cbn; lra).
  assert (H10 : 0 < 10) by lra.
  destruct (slice_exact_sup env0 [roof; stand] axisZ axisZ sup_sett 0 10 env0_legal N0 Hu Hr Hl Hh HL H10) as (sup & full & _ & _ & Len & Lay & Run).
  assert (Ln : layers_count (10 - 0) (s_layerHeight sup_sett) = 10%Z).
  { cbn [s_layerHeight sup_sett]. unfold layers_count. replace ((10 - 0) / 1) with (IZR 10) by lra. apply Flocq.Core.Raux.Zceil_IZR. }
  rewrite Ln in Len. change (Z.to_nat 10) with 10%nat in Len.
  pose proof (trim_spec full) as T. destruct (trim_layers full) as [ls| |].
  2: { destruct T as [->|(l & -> & _)]; discriminate Len. }
  2: destruct T.
  destruct T as (a & b & Ef & La & Lb & _).
  destruct (nth_error full 4) as [l|] eqn:E4; [|apply nth_error_None in E4; lia].
  destruct (Lay 4%nat l E4) as (Ol & _).
  assert (Il : In l ls).
  { rewrite Ef in E4, Len. rewrite !app_length in Len. rewrite nth_error_app2 in E4 by lia. rewrite nth_error_app1 in E4 by lia. eapply nth_error_In, E4. }
  exists ls, l. split; [exact Run|]. split; [exact Il|]. split; [exact Ol|].
  pose proof (proj2 (border_ex [roof; stand] side (or_introl eq_refl)) (or_introl eq_refl)) as B.
  assert (Ec : layer_height_at 0 10 (s_layerHeight sup_sett) 4 = 9 / 2).
  { unfold layer_height_at. rewrite Ln. cbn [INR]. lra. }
  assert (Hs : Rdot (lp1 side) axisZ = 9 /\ Rdot (lp2 side) axisZ = 9).
  { rewrite axisZ_R. unfold side, Rdot, pt. cbn [lp1 lp2 px py pz vx vy vz]. rcbn. lra. }
  destruct Hs as (H1 & H2).
  assert (EB : brace axisZ 0 (9 / 2) (lp1 side) (lp2 side) = pt 2 0 (9 / 2)%R).
  { unfold side. cbn [lp1 lp2]. rewrite brace_ex. unfold pt. apply p3_ext; rcbn; lra. }
  assert (Ex : forall q : Rpoint, closer (1 / 10 ^ 6 + 1 / 10 ^ 8) q (pt 2 0 (9 / 2)%R) -> Rabs (X q - 2) < 1 / 100 /\ Rabs (Y q) < 1 / 100 /\ Rabs (Z3 q - 9 / 2) < 1 / 100).
  { intros q (C1 & C2 & C3). unfold pt, X, Y, Z3 in *. cbn [px py pz] in *. rewrite Rminus_0_r in C2. repeat split; lra. }
  rewrite <- EB. rewrite <- Ec.
  apply (C107_open env0 [roof; stand] axisZ axisZ sup_sett 0 10 side env0_legal N0 Hu Hr Hl Hh HL H10 eq_refl B) with (ls := ls);
    [|exact Run|exact Il|exact Ol|rewrite ?Ec, ?EB; lra|rewrite Ec, H1; lra|rewrite Ec, H2; lra|rewrite Ec, EB|rewrite Ec, EB|rewrite Ec, EB].
  - intros bt I. unfold side. rewrite upper_R, lower_R. split; apply pass_ex; try exact I;
      repeat (apply Forall_cons || apply Forall_nil); unfold X, Z3, pt; cbn [px pz]; lra.
  - unfold side. cbn [lp1]. rewrite post_ex. intros C. apply Ex in C. destruct C as (C & _). unfold X, pt in C. cbn [px] in C. split_Rabs; lra.
  - unfold side. cbn [lp2]. rewrite post_ex. intros C. apply Ex in C. destruct C as (C & _). unfold X, pt in C. cbn [px] in C. split_Rabs; lra.
  - intros t q It Nu Nl (x & y & z & Hx & Hy & Hz & Hs & ->) Hq C. apply Ex in C. destruct C as (C1 & C2 & C3).
    assert (Hd : forall a b c0 : Rpoint, t1 t = a -> t2 t = b -> t3 t = c0 ->
      Rabs (x * X a + y * X b + z * X c0 - 2) < 1 / 100 /\ Rabs (x * Y a + y * Y b + z * Y c0) < 1 / 100 /\ Rabs (x * Z3 a + y * Z3 b + z * Z3 c0 - 9 / 2) < 1 / 100).
    { intros a0 b0 c0 <- <- <-. unfold comb3 in C1, C2, C3. unfold X at 1 in C1. unfold Y at 1 in C2. unfold Z3 at 1 in C3. cbn [px py pz] in C1, C2, C3. auto. }
    clear C1 C2 C3. destruct It as [[<-|[<-|[]]]|(f & Bf & Tf)].
    + destruct (Hd _ _ _ eq_refl eq_refl eq_refl) as (C1 & C2 & C3). unfold roof, newTriangle, Z3, pt in C3. cbn [t1 t2 t3 pz] in C3.
      assert (x * 10 + y * 10 + z * 10 = 10) by nra. split_Rabs; lra.
    + destruct (Hd _ _ _ eq_refl eq_refl eq_refl) as (C1 & C2 & C3). unfold stand, newTriangle, X, pt in C1. cbn [t1 t2 t3 px] in C1.
      assert (x * 100 + y * 101 + z * 100 = 100 + y) by nra. split_Rabs; lra.
    + apply (border_ex [roof; stand] f (or_introl eq_refl)) in Bf. destruct Bf as [->|[->| ->]].
      * destruct Tf; contradiction.
      * unfold sideB in Tf. rewrite upper_R, lower_R in Tf. destruct Tf as [-> | ->]; destruct (Hd _ _ _ eq_refl eq_refl eq_refl) as (C1 & C2 & C3);
          unfold newTriangle, X, pt in C1; cbn [t1 t2 t3 px] in C1; split_Rabs; lra.
      * unfold sideC in Tf. rewrite upper_R, lower_R in Tf. destruct Tf as [-> | ->]; destruct (Hd _ _ _ eq_refl eq_refl eq_refl) as (C1 & C2 & C3);
          unfold newTriangle, X, Y, pt in C1, C2; cbn [t1 t2 t3 px py] in C1, C2; split_Rabs; lra.
Qed.

(** In float64: the six triangles below the roof are all printed; a wall a kilometre away
    removes both halves below the side [side] and one below the slanted side. *)
Section Float.
Local Open Scope Z_scope.
(** acos only has to tell downwards from the rest here *)
Definition elemS : elem :=
  {| e_sin := fun x => x; e_cos := fun x => x; e_acos := fun x => if Bltb x (f64_lit 1 2) then f64_ofZ 3 else f64_ofZ 0 |}.
Let AT := ArithF64 elemS.
Local Existing Instance AT.
Definition zp (x y z : Z) : @point AT := P3 (A := AT) (f64_ofZ x) (f64_ofZ y) (f64_ofZ z).
Definition roofT : @triangle AT := newTriangle (zp 0 0 10) (zp 0 4 10) (zp 4 0 10).
Definition standT : @triangle AT := newTriangle (zp 100 0 0) (zp 101 0 1) (zp 100 1 0).
Definition wallT : @triangle AT := newTriangle (zp 1 1000000 0) (zp 1 1000001 0) (zp 1 1000000 5).
Definition supT (offset : f64) : @settings AT :=
  Settings (GSett (f64_lit 175 100) (f64_ofZ 1) (f64_lit 2 10) (f64_lit 4 10) false 3000 1500 2000 false 0 (f64_ofZ 0))
    EmptyString (f64_lit 1 100) (f64_ofZ 1) (f64_lit 8 10) 20 60 200 0 (zp 0 0 0) EmptyString EmptyString (f64_ofZ 30) axisZ true offset 0 0 0.
Definition supports (m : @mesh AT) (offset : f64) : nat :=
  match supportTriangles env0 m axisZ (f64_ofZ 0) (supT offset) with Ok s => List.length s | _ => 0%nat end.
Example ex_C106_float : supports [roofT; standT] (f64_ofZ 1) = 6%nat /\ supports [wallT; roofT; standT] (f64_ofZ 1) = 2%nat.
Proof. split; vm_compute; reflexivity. Qed.
End Float.

Print Assumptions C105_walls.
Print Assumptions C105_under.
Print Assumptions C106_upright_sides.
Print Assumptions C106_far_refuted.
Print Assumptions C107_open.
