(** * Properties C90, C98, C99: the overhang tests of the five-axis modes *)
From Coq Require Import Reals Lra Lia List Bool ZArith PeanoNat.
From Flocq Require Import IEEE754.BinarySingleNaN.
From Verif Require Import Arith ArithR ArithF64 ElemT Prim Path GeomSpec GeomProofs MeshProofs Helpers HelperClaims HelperProofs2 Slicer Vip VipReal
  Properties_Vip OverhangClaims OverhangProofs.
Import ListNotations.
Close Scope Z_scope.
Close Scope num_scope.
Local Open Scope R_scope.

(** ** C90 The planes of a cut *)

Lemma flat_sd (cp q : Rpoint) (x y : R) : sd (Pl cp (cross (rv x y 0) (axisZ (A := ArithR)))) q = (X q - X cp) * y - (Y q - Y cp) * x.
Proof. unfold sd, cross, rv, axisZ. cbn [pl_p pl_n vx vy vz]. rcbn. ring. Qed.
Lemma flat_dot (c q : Rpoint) (x y : R) : dot (arrow c q) (rv x y 0) = (X q - X c) * x + (Y q - Y c) * y.
Proof. unfold dot, arrow, rv. cbn [vx vy vz]. rcbn. ring. Qed.

Lemma crossing_spec (pl : Rplane) (p : Rpath) (v : Rvector) q c : intersectPathCodirectedWith pl p v = Ok (Some q) ->
  findCentroid p = Ok c -> on_contour p q /\ sd pl q = 0 /\ 0 <= dot (arrow c q) v.
Proof.
  intros H C. unfold intersectPathCodirectedWith in H. rewrite C in H. cbn [rbind] in H. injection H as H. exact (ipcw_spec _ _ _ _ _ H).
Qed.
Lemma crossing_cent (pl : Rplane) (p : Rpath) (v : Rvector) r : intersectPathCodirectedWith pl p v = Ok r -> exists c, findCentroid p = Ok c.
Proof. unfold intersectPathCodirectedWith. destruct (findCentroid p) as [c| |]; [eauto|discriminate|discriminate]. Qed.

(** A plane that CalculateFails gives passes through a point of a contour of the layer below
    and is inclined by 60 degrees. If the centre of the new contour is inside a contour below,
    the plane is inclined towards a direction in which its point is seen from both centres. If
    not, the point lies in the direction from the first contour below to the new one, but the
    plane is inclined towards the mirror image of that direction with y <= 0. *)
Theorem C90_cut_plane : forall (prevL curL : @layer ArithR) (pl : Rplane), calculateFails prevL curL = Ok (Some pl) ->
  exists pth pr cp pcp x y, In pth (l_paths curL) /\ findCentroid pth = Ok cp /\ In pr (l_paths prevL) /\ findCentroid pr = Ok pcp /\
    on_contour pr (pl_p pl) /\ leans (pl_n pl) x y /\
    let q := pl_p pl in
    (under cp (l_paths prevL) pr /\ (X q - X cp) * y = (Y q - Y cp) * x /\ 0 <= (X q - X pcp) * x + (Y q - Y pcp) * y) \/
    (nothing_under cp (l_paths prevL) /\ (X q - X pcp) * (Y cp - Y pcp) = (Y q - Y pcp) * (X cp - X pcp) /\
     0 <= (X q - X pcp) * (X cp - X pcp) + (Y q - Y pcp) * (Y cp - Y pcp) /\
     y <= 0 /\ (q <> pcp -> X q - X pcp = x * sqrt (dist2 pcp q))).
Proof.
  intros prevL curL pl H. destruct (fails_case _ _ _ H) as [pth pr cp j k I1 C1 U J F K E N | pth pr cp pcp I1 C1 U Np C2 E N].
  - cbn zeta in E. destruct (crossing_cent _ _ _ _ E) as (pcp & C2). destruct (crossing_spec _ _ _ _ _ E C2) as (O & S & D).
    rewrite flat_sd in S. rewrite flat_dot in D.
    exists pth, pr, cp, pcp, (cos (deg (IZR k))), (- sin (deg (IZR k))).
    split; [exact I1|]. split; [exact C1|]. split.
    { destruct U as (l1 & l2 & c & -> & _). apply in_elt. }
    split; [exact C2|]. split; [exact O|]. split; [rewrite N; apply leans_tilt|]. left. split; [exact U|]. split; lra.
  - cbn zeta in E. destruct (crossing_spec _ _ _ _ _ E C2) as (O & S & D).
    rewrite flat_sd in S. rewrite flat_dot in D.
    set (w := vectorTo pcp (pl_p pl)) in *. set (a := angle w (axisX (A := ArithR))) in *.
    exists pth, pr, cp, pcp, (cos (deg a)), (- sin (deg a)).
    split; [exact I1|]. split; [exact C1|]. split; [exact (nth_error_In _ _ Np)|]. split; [exact C2|]. split; [exact O|].
    split; [rewrite N; apply leans_tilt|]. right. split; [exact U|]. split; [lra|]. split; [lra|].
    assert (Sin : 0 <= sin (deg a)).
    { pose proof (angle_range w axisX) as B. fold a in B. pose proof PI_RGT_0 as P. apply sin_ge_0; unfold deg.
      - apply Rmult_le_pos; [|lra]. apply Rmult_le_pos; lra.
      - replace PI with (180 * PI / 180) at 2 by field. apply Rmult_le_compat_r; [lra|]. apply Rmult_le_compat_r; lra. }
    split; [lra|]. intros Nq.
    assert (Hw : w <> Vzero).
    { intros Ew. apply Nq. unfold w, vectorTo, Vzero in Ew. injection Ew as E1 E2 E3. rcbn. apply pt_ext; unfold X, Y, Z3 in *; lra. }
    destruct (angle_x w Hw) as (Cx & _). fold a in Cx. rewrite Cx.
    assert (Ed : Vlen w = sqrt (dist2 pcp (pl_p pl))).
    { unfold Vlen. f_equal. unfold Vdot, w, vectorTo, dist2, X, Y, Z3. cbn [vx vy vz]. rcbn. ring. }
    pose proof (Vlen_pos w Hw) as L. rewrite <- Ed.
    change (X (pl_p pl) - X pcp = (X (pl_p pl) - X pcp) / Vlen w * Vlen w). field. lra.
Qed.

Lemma outside_in : forall (ps : list Rpath) l, getAllOutsidePathes (A := ArithR) ps = Ok l -> forall x, In x l -> In x ps.
Proof.
  induction ps as [|p ps IH]; intros l H x Hx.
  - injection H as <-. destruct Hx.
  - cbn [getAllOutsidePathes] in H. destruct (findCentroid p) as [c| |]; cbn [rbind] in H; try discriminate H.
    destruct (getAllOutsidePathes ps) as [r| |] eqn:E; cbn [rbind] in H; try discriminate H. injection H as <-.
    destruct (hole_path c p); [right; exact (IH r eq_refl x Hx)|]. destruct Hx as [<-|Hx]; [now left|right; exact (IH r eq_refl x Hx)].
Qed.
Lemma two_in (l : @layer ArithR) a b : getTwoOutsidePathes l = Ok (a, b) -> In a (l_paths l) /\ In b (l_paths l).
Proof.
  unfold getTwoOutsidePathes. destruct (getAllOutsidePathes (l_paths l)) as [all| |] eqn:E; cbn [rbind]; try discriminate.
  destruct all as [|x [|y r]]; try discriminate. cbn. intros H. injection H as <- <-.
  split; apply (outside_in _ _ E); cbn; auto.
Qed.

Lemma sin_angle (u v : Rvector) : 0 <= sin (deg (angle u v)).
Proof.
  pose proof (angle_range u v) as B. pose proof PI_RGT_0 as P. apply sin_ge_0; unfold deg.
  - apply Rmult_le_pos; [|lra]. apply Rmult_le_pos; lra.
  - replace PI with (180 * PI / 180) at 2 by field. apply Rmult_le_compat_r; [lra|]. apply Rmult_le_compat_r; lra.
Qed.
Lemma arrow_nz (a b : Rpoint) : a <> b -> vectorTo a b <> Vzero.
Proof.
  intros N Ew. apply N. unfold vectorTo, Vzero in Ew. injection Ew as E1 E2 E3. rcbn. apply pt_ext; unfold X, Y, Z3 in *; lra.
Qed.
Lemma arrow_len (a b : Rpoint) : Vlen (vectorTo a b) = sqrt (dist2 a b).
Proof. unfold Vlen. f_equal. unfold Vdot, vectorTo, dist2, X, Y, Z3. cbn [vx vy vz]. rcbn. ring. Qed.

(** what is common to both legs *)
Definition leg_plane (q : Rpoint) (n : Rvector) (cp other : Rpoint) : Prop :=
  exists x y, leans n x y /\ y <= 0 /\ (cp <> other -> X other - X cp = x * sqrt (dist2 cp other)) /\
    (X q - X cp) * (Y other - Y cp) = (Y q - Y cp) * (X other - X cp).

Lemma leg_spec (c0 cp other : Rpoint) (p prev : Rpath) (pl : Rplane) (w : Rvector) :
  w = vectorTo cp other \/ w = vectorTo other cp -> c0 = cp \/ c0 = other ->
  fail_leg (Pl c0 (cross w axisZ)) cp other p prev = Ok (Some pl) ->
  on_contour prev (pl_p pl) /\ leg_plane (pl_p pl) (pl_n pl) cp other.
Proof.
  intros W C0 H. unfold fail_leg in H.
  destruct (intersectPathCodirectedWith _ p _) as [[ip|]| |]; cbn [rbind] in H; try discriminate H.
  2: { destruct (intersectPathCodirectedWith _ prev _) as [[pi|]| |]; cbn [rbind] in H; discriminate H. }
  destruct (intersectPathCodirectedWith _ prev _) as [[pi|]| |] eqn:E; cbn [rbind] in H; try discriminate H.
  destruct (crossing_cent _ _ _ _ E) as (pcp & C). destruct (crossing_spec _ _ _ _ _ E C) as (O & S & D).
  destruct (nltb _ _); [|discriminate H]. injection H as <-. cbn [pl_p pl_n]. split; [exact O|].
  set (a := angle (axisX (A := ArithR)) (vectorTo cp other)) in *.
  exists (cos (deg a)), (- sin (deg a)). rewrite ?nofZ_R, ?lit1. split; [apply leans_tilt|].
  pose proof (sin_angle (axisX (A := ArithR)) (vectorTo cp other)) as Sn. fold a in Sn. split; [lra|]. split.
  - intros N. apply arrow_nz in N. destruct (angle_x _ N) as (Cx & _). rewrite angle_sym in Cx. fold a in Cx. rewrite Cx.
    pose proof (Vlen_pos _ N) as L. rewrite <- arrow_len.
    change (X other - X cp = (X other - X cp) / Vlen (vectorTo cp other) * Vlen (vectorTo cp other)). field. lra.
  - assert (Ws : (X pi - X c0) * vy w - (Y pi - Y c0) * vx w = 0).
    { rewrite <- S. unfold sd, cross, axisZ. cbn [pl_p pl_n vx vy vz]. rcbn. unfold Rpoint. ring. }
    destruct W as [-> | ->], C0 as [-> | ->]; unfold vectorTo in Ws; cbn [vx vy] in Ws; rcbn; unfold X, Y in *; lra.
Qed.

(** The plane for a bridge passes through a point of a contour below, in the vertical plane of
    the centres of the two legs, and is inclined towards the mirror image, with y <= 0, of the
    direction from one leg to the other. *)
Theorem C90_bridge : forall (prevL curL : @layer ArithR) (pl : Rplane), failExistBridge prevL curL = Ok (Some pl) ->
  exists p p' pr c c' x y, In p (l_paths curL) /\ In p' (l_paths curL) /\ In pr (l_paths prevL) /\
    findCentroid p = Ok c /\ findCentroid p' = Ok c' /\ on_contour pr (pl_p pl) /\
    leans (pl_n pl) x y /\ y <= 0 /\ (c <> c' -> X c' - X c = x * sqrt (dist2 c c')) /\
    (X (pl_p pl) - X c) * (Y c' - Y c) = (Y (pl_p pl) - Y c) * (X c' - X c).
Proof.
  intros prevL curL pl H. unfold failExistBridge in H.
  destruct (getTwoOutsidePathes prevL) as [[q1 q2]| |] eqn:E1; cbn [rbind] in H; try discriminate H.
  destruct (getTwoOutsidePathes curL) as [[p1 p2]| |] eqn:E2; cbn [rbind] in H; try discriminate H.
  apply two_in in E1, E2. destruct E1 as (Q1 & Q2), E2 as (P1 & P2).
  destruct (findCentroid q1) as [d1| |] eqn:D1; cbn [rbind] in H; try discriminate H.
  destruct (findCentroid p1) as [c1| |] eqn:C1; cbn [rbind] in H; try discriminate H.
  destruct (findCentroid p2) as [c2| |] eqn:C2; cbn [rbind] in H; try discriminate H.
  assert (Main : forall p1 p2 c1 c2, In p1 (l_paths curL) -> In p2 (l_paths curL) -> findCentroid p1 = Ok c1 -> findCentroid p2 = Ok c2 ->
    (x <- fail_leg (Pl c1 (cross (vectorTo c1 c2) axisZ)) c1 c2 p1 q1 ;;
     match x with
     | Some p => Ok (Some p)
     | None => fail_leg (Pl c1 (cross (vectorTo c1 c2) axisZ)) c2 c1 p2 q2
     end) = Ok (Some pl) ->
    exists p p' pr c c' x y, In p (l_paths curL) /\ In p' (l_paths curL) /\ In pr (l_paths prevL) /\
    findCentroid p = Ok c /\ findCentroid p' = Ok c' /\ on_contour pr (pl_p pl) /\
    leans (pl_n pl) x y /\ y <= 0 /\ (c <> c' -> X c' - X c = x * sqrt (dist2 c c')) /\
    (X (pl_p pl) - X c) * (Y c' - Y c) = (Y (pl_p pl) - Y c) * (X c' - X c)).
  { clear -Q1 Q2. intros p1 p2 c1 c2 P1 P2 C1 C2 H.
    destruct (fail_leg (Pl c1 (cross (vectorTo c1 c2) axisZ)) c1 c2 p1 q1) as [[z|]| |] eqn:L1; cbn [rbind] in H; try discriminate H.
    - injection H as ->. apply leg_spec in L1; [|now left|now left]. destruct L1 as (O & x & y & R).
      exists p1, p2, q1, c1, c2, x, y. repeat (split; [first [assumption|apply R]|]). apply R.
    - apply leg_spec in H; [|now right|now right]. destruct H as (O & x & y & R).
      exists p2, p1, q2, c2, c1, x, y. repeat (split; [first [assumption|apply R]|]). apply R. }
  destruct (nltb _ _) in H.
  - exact (Main p2 p1 c2 c1 P2 P1 C2 C1 H).
  - exact (Main p1 p2 c1 c2 P1 P2 C1 C2 H).
Qed.

(** The bed is turned by the heading of the plane and tilted: this makes the plane horizontal
    exactly if it is inclined towards y >= 0, for a bridge only if it is inclined along x. *)
Theorem C90_levelled_iff : forall (prevL curL : @layer ArithR) (pl : Rplane),
  let levelled := vrotate (vrotate (pl_n pl) (rotationAroundZ (heading pl))) (rotationAroundX (angleX (A := ArithR))) = V3 (A := ArithR) 0 0 1 in
  (calculateFails prevL curL = Ok (Some pl) -> levelled <-> 0 <= vy (pl_n pl)) /\
  (failExistBridge prevL curL = Ok (Some pl) -> levelled <-> vy (pl_n pl) = 0).
Proof.
  intros prevL curL pl levelled.
  assert (K : forall x y, leans (pl_n pl) x y -> (levelled <-> 0 <= y) /\ vy (pl_n pl) = (sqrt 3 / 2 * y)%R).
  { intros x y (E1 & E2). pose proof sq3 as S3. pose proof sq3_pos as P3.
    assert (Q : (sqrt 3 / 2 * x) * (sqrt 3 / 2 * x) + (sqrt 3 / 2 * y) * (sqrt 3 / 2 * y) = 3 / 4).
    { replace ((sqrt 3 / 2 * x) * (sqrt 3 / 2 * x) + (sqrt 3 / 2 * y) * (sqrt 3 / 2 * y)) with (sqrt 3 * sqrt 3 / 4 * (x * x + y * y)) by field. rewrite S3, E1. field. }
    split.
    - pose proof (C54_levelled_iff _ _ (pl_p pl) Q) as L. cbn zeta in L. unfold levelled. destruct pl as [p n]. cbn [pl_n pl_p] in *. rewrite E2.
      rewrite L. split; intros B; nra.
    - rewrite E2. reflexivity. }
  pose proof sq3_pos as P3. split; intros H.
  - destruct (C90_cut_plane _ _ _ H) as (_ & _ & _ & _ & x & y & _ & _ & _ & _ & _ & L & _).
    destruct (K x y L) as (K1 & K2). rewrite K1, K2. rcbn. split; intros B; nra.
  - destruct (C90_bridge _ _ _ H) as (_ & _ & _ & _ & _ & x & y & _ & _ & _ & _ & _ & _ & L & N & _).
    destruct (K x y L) as (K1 & K2). rewrite K1, K2. rcbn. split; intros B; nra.
Qed.

(** ** C98 What counts as an overhang *)

Lemma contour_height (z : R) (p : Rpath) (q : Rpoint) : level z p -> on_contour p q -> Z3 q = z.
Proof.
  intros L (i & a & b & A1 & B1 & t & T & ->). unfold level in L. rewrite Forall_forall in L.
  pose proof (L a (nth_error_In _ _ A1)) as La. pose proof (L b (nth_error_In _ _ B1)) as Lb. cbn beta in La, Lb.
  change (Z3 a + t * (Z3 b - Z3 a) = z). rewrite La, Lb. ring.
Qed.

(** If CalculateFails gives a plane, then there is a new contour with its centre outside all
    contours below, or one that goes sideways by more than tan 40 degrees times the layer
    height from the contour below in one of 36 directions: outwards or inwards. *)
Theorem C98_cause : forall (prevL curL : @layer ArithR) (pl : Rplane) (h0 h1 : R), h0 < h1 ->
  Forall (level h0) (l_paths prevL) -> Forall (level h1) (l_paths curL) -> calculateFails prevL curL = Ok (Some pl) ->
  exists pth cp, In pth (l_paths curL) /\ findCentroid pth = Ok cp /\
   (nothing_under cp (l_paths prevL) \/
    exists pr pcp j c p, under cp (l_paths prevL) pr /\ findCentroid pr = Ok pcp /\ (j < 36)%nat /\
      let x := cos (deg (10 * INR j)) in let y := - sin (deg (10 * INR j)) in
      let ahead f q := (X q - X cp) * y = (Y q - Y cp) * x /\ 0 <= (X q - X f) * x + (Y q - Y f) * y in
      on_contour pth c /\ ahead cp c /\ on_contour pr p /\ ahead pcp p /\ tan (deg 40) * (h1 - h0) < hdist p c).
Proof.
  intros prevL curL pl h0 h1 Hh F0 F1 H. destruct (fails_case _ _ _ H) as [pth pr cp j k I1 C1 U J F K E N | pth pr cp pcp I1 C1 U Np C2 E N].
  - exists pth, cp. split; [exact I1|]. split; [exact C1|]. right.
    destruct F as (c & p & Ec & Ep & A). destruct (crossing_cent _ _ _ _ Ep) as (pcp & C2).
    destruct (crossing_spec _ _ _ _ _ Ec C1) as (Oc & Sc & Dc). destruct (crossing_spec _ _ _ _ _ Ep C2) as (Op & Sp & Dp).
    exists pr, pcp, j, c, p. split; [exact U|]. split; [exact C2|]. split; [exact J|]. cbn zeta.
    unfold dir in Sc, Sp, Dc, Dp. rewrite flat_sd in Sc, Sp. rewrite flat_dot in Dc, Dp.
    assert (Ip : In pr (l_paths prevL)) by (destruct U as (l1 & l2 & x & -> & _); apply in_elt).
    rewrite Forall_forall in F0, F1.
    pose proof (contour_height _ _ _ (F1 _ I1) Oc) as Hc. pose proof (contour_height _ _ _ (F0 _ Ip) Op) as Hp.
    split; [exact Oc|]. split; [split; lra|]. split; [exact Op|]. split; [split; lra|].
    apply steep_iff in A.
    + unfold hdist. change (vz (vectorTo p c)) with (Z3 c - Z3 p) in A. rewrite Hc, Hp in A. exact A.
    + change (0 < Z3 c - Z3 p). lra.
  - exists pth, cp. split; [exact I1|]. split; [exact C1|]. left. exact U.
Qed.

Lemma ipcw_finds (cp f : Rpoint) (x y : R) : forall (p : Rpath),
  match ipcw_loop (Pl cp (cross (rv x y 0) (axisZ (A := ArithR)))) f (rv x y 0) p with
  | Some q => met cp f p x y q
  | None => forall q, ~ met cp f p x y q
  end.
Proof.
  set (pl := Pl cp (cross (rv x y 0) (axisZ (A := ArithR)))).
  assert (S0 : forall q, sd pl q = (X q - X cp) * y - (Y q - Y cp) * x) by (intros q; apply flat_sd).
  induction p as [|a r IH]; [intros q ([|i] & u & w & A1 & _); discriminate A1|].
  destruct r as [|b r].
  { intros q ([|[|i]] & u & w & A1 & B1 & _); discriminate B1. }
  change (match (match intersectSegment pl a b with
          | Some q => if codirected (vectorTo f q) (rv x y 0) then Some q else ipcw_loop pl f (rv x y 0) (b :: r)
          | None => ipcw_loop pl f (rv x y 0) (b :: r)
          end) with Some q => met cp f (a :: b :: r) x y q | None => forall q, ~ met cp f (a :: b :: r) x y q end).
  assert (Up : forall q, met cp f (b :: r) x y q -> met cp f (a :: b :: r) x y q).
  { intros q (i & u & w & H). exists (S i), u, w. exact H. }
  assert (Next : (forall q, ~ (on_seg a b q /\ sd pl a <> sd pl b /\ sd pl q = 0 /\ 0 <= (X q - X f) * x + (Y q - Y f) * y)) ->
    match ipcw_loop pl f (rv x y 0) (b :: r) with Some q => met cp f (a :: b :: r) x y q | None => forall q, ~ met cp f (a :: b :: r) x y q end).
  { intros N. destruct (ipcw_loop pl f (rv x y 0) (b :: r)) as [z|]; [now apply Up|].
    intros q ([|i] & u & w & A1 & B1 & O & D & P & F).
    - injection A1 as <-. injection B1 as <-. apply (N q). rewrite !S0. repeat split; auto. lra.
    - apply (IH q). exists i, u, w. repeat split; auto. }
  assert (At : forall q t, q = along a b t -> sd pl q = sd pl a + t * (sd pl b - sd pl a)).
  { intros q t ->. apply sd_along. }
  pose proof (isect_spec pl a b) as S. destruct (intersectSegment pl a b) as [z|].
  2: { apply Next. intros q ((t & T & ->) & D & P & _). rewrite sd_along in P. destruct S as [S|S]; [contradiction|].
    assert (0 <= (1 - t) * (sd pl a * sd pl a)) by (apply Rmult_le_pos; [lra|nra]). assert (0 <= t * (sd pl a * sd pl b)) by (apply Rmult_le_pos; lra).
    assert ((1 - t) * (sd pl a * sd pl a) + t * (sd pl a * sd pl b) = 0) by (replace 0 with (sd pl a * 0) by ring; rewrite <- P; ring).
    assert (t * (sd pl a * sd pl b) = 0) as Z0 by lra. apply Rmult_integral in Z0. destruct Z0 as [->|Z0]; [|lra].
    assert (sd pl a = 0) by nra. nra. }
  destruct S as (D & M & Ez). pose proof (cross_t _ _ D M) as T.
  assert (Cd : codirected (vectorTo f z) (rv x y 0) = true <-> 0 <= (X z - X f) * x + (Y z - Y f) * y).
  { unfold codirected, dot, vectorTo, rv, X, Y. cbn [vx vy vz]. rcbn.
    replace ((px z - px f) * x + (py z - py f) * y + (pz z - pz f) * 0) with ((px z - px f) * x + (py z - py f) * y) by ring.
    split; [intros K; rbool; lra|intros K; apply Rleb_true; exact K]. }
  destruct (codirected (vectorTo f z) (rv x y 0)).
  - exists 0%nat, a, b. rewrite <- !S0. split; [reflexivity|]. split; [reflexivity|]. split; [exists (sd pl a / (sd pl a - sd pl b)); auto|].
    split; [exact D|]. split; [|now apply Cd].
    assert (Sz : sd pl z = 0) by (rewrite Ez, sd_along; field; lra). rewrite S0 in Sz. lra.
  - apply Next. intros q ((t & T' & Eq) & _ & P & F). rewrite (At _ _ Eq) in P.
    assert (t = sd pl a / (sd pl a - sd pl b)) by (apply (Rmult_eq_reg_r (sd pl a - sd pl b)); [field_simplify; lra|lra]).
    subst t. rewrite <- Ez in Eq. subst q. apply Cd in F. discriminate F.
Qed.


Lemma cent_ok (p : Rpath) : p <> [] -> exists c, findCentroid p = Ok c.
Proof. destruct p as [|a r]; [congruence|]. intros _. eexists. reflexivity. Qed.
Lemma crossing_ok (pl : Rplane) (v : Rvector) (p : Rpath) : p <> [] -> exists r, intersectPathCodirectedWith pl p v = Ok r.
Proof. intros N. destruct (cent_ok p N) as (c & C). unfold intersectPathCodirectedWith. rewrite C. cbn [rbind]. eauto. Qed.
Lemma fail_angles_total (cp : Rpoint) (pth pr : Rpath) : pth <> [] -> pr <> [] -> forall k j v,
  exists l, fail_angles (A := ArithR) k j v cp pth pr = Ok l.
Proof.
  intros N1 N2. induction k as [|k IH]; intros j v; [eexists; reflexivity|]. cbn [fail_angles].
  destruct (crossing_ok (Pl cp (cross v (axisZ (A := ArithR)))) v pth N1) as (r1 & E1).
  destruct (crossing_ok (Pl cp (cross v (axisZ (A := ArithR)))) v pr N2) as (r2 & E2).
  destruct (IH (j + 1)%Z (vrotate v (rotationAroundZ (nofZ (A := ArithR) angleDist)))) as (l & El).
  rewrite E1. cbn [rbind]. destruct r1 as [c|]; [rewrite E2|]; cbn [rbind]; rewrite El; cbn [rbind]; eauto.
Qed.
Lemma find_prev_ok (cp : Rpoint) : forall ps, Forall (fun p : Rpath => p <> []) ps -> exists r, findPrevPath cp ps = Ok r.
Proof.
  induction 1 as [|p ps N F IH]; [eexists; reflexivity|]. cbn [findPrevPath]. destruct (cent_ok p N) as (c & C). rewrite C. cbn [rbind].
  destruct (hole_path c p); [exact IH|]. destruct (pt_inside cp p); [eexists; reflexivity|exact IH].
Qed.
Lemma under_in cp ps pr : under cp ps pr -> In pr ps.
Proof. intros (l1 & l2 & x & -> & _). apply in_elt. Qed.
(** the search never fails on contours with points *)
Lemma fail_path_ok (prevL : @layer ArithR) (pth : Rpath) : Forall (fun p : Rpath => p <> []) (l_paths prevL) -> pth <> [] ->
  exists r, fail_path prevL pth = Ok r.
Proof.
  intros F N. unfold fail_path. destruct (cent_ok pth N) as (cp & C). rewrite C. cbn [rbind].
  destruct (hole_path cp pth); [eexists; reflexivity|].
  destruct (find_prev_ok cp _ F) as (o & E). rewrite E. cbn [rbind]. apply find_prev in E. destruct o as [pr|].
  - assert (Np : pr <> []) by (rewrite Forall_forall in F; exact (F pr (under_in _ _ _ E))).
    destruct (fail_angles_total cp pth pr N Np angleCount 0%Z axisX) as (l & El). rewrite El. cbn [rbind].
    rewrite dir_0 in El. change 0%Z with (Z.of_nat 0) in El.
    destruct (fail_angles_spec _ _ _ _ _ _ El) as (js & -> & S1 & Fj & _).
    destruct js as [|j js]; [eexists; reflexivity|].
    destruct (middle_dir (j :: js) ltac:(discriminate) S1 Fj) as (k & M & B).
    cbn [map] in M |- *. change angleFull with 360%Z. change (@num ArithR) with R in *. rewrite M. cbn [rbind].
    destruct (crossing_ok (Pl cp (cross (vrotate (axisX (A := ArithR)) (rotationAroundZ (nofZ (A := ArithR) k))) axisZ)) (vrotate axisX (rotationAroundZ (nofZ (A := ArithR) k))) pr Np) as (q & Q).
    rewrite Q. cbn [rbind]. destruct q; eexists; reflexivity.
  - destruct (l_paths prevL) as [|pr ps]; [eexists; reflexivity|]. inversion F as [|? ? Np F']; subst.
    destruct (cent_ok pr Np) as (pc & Cp). rewrite Cp. cbn [rbind].
    destruct (crossing_ok (Pl pc (cross (projectOnPlane (vectorTo pc cp) (planeXY (A := ArithR))) axisZ)) (projectOnPlane (vectorTo pc cp) (planeXY (A := ArithR))) pr Np) as (q & Q).
    rewrite Q. cbn [rbind]. destruct q; eexists; reflexivity.
Qed.
Lemma fails_loop_some (prevL : @layer ArithR) : Forall (fun p : Rpath => p <> []) (l_paths prevL) -> forall ps pth pl,
  Forall (fun p : Rpath => p <> []) ps -> In pth ps -> fail_path prevL pth = Ok (Some pl) -> exists pl', fails_loop prevL ps = Ok (Some pl').
Proof.
  intros F ps pth pl F1 I H. induction F1 as [|p ps N F1 IH]; [destruct I|].
  cbn [fails_loop]. destruct (fail_path_ok prevL p F N) as (r & E). destruct I as [->|I].
  - rewrite H. cbn [rbind]. eauto.
  - rewrite E. cbn [rbind]. destruct r as [x|]; [eauto|]. exact (IH I).
Qed.
Lemma crossing_met (cp f : Rpoint) (p : Rpath) (x y : R) : findCentroid p = Ok f -> (exists q, met cp f p x y q) ->
  exists q, intersectPathCodirectedWith (Pl cp (cross (rv x y 0) (axisZ (A := ArithR)))) p (rv x y 0) = Ok (Some q) /\ met cp f p x y q.
Proof.
  intros C (q & M). unfold intersectPathCodirectedWith. rewrite C. cbn [rbind].
  pose proof (ipcw_finds cp f x y p) as H. destruct (ipcw_loop _ f (rv x y 0) p) as [z|]; [eauto|]. destruct (H q M).
Qed.
Lemma met_on cp f p x y q : met cp f p x y q -> on_contour p q.
Proof. intros (i & a & b & A1 & B1 & O & _). exists i, a, b. auto. Qed.

(** Conversely: if a contour that is no hole has its centre inside a contour below that goes
    all round it and, in one of the 36 directions, every place of the one is further than tan
    40 degrees times the layer height from every place of the other, then a plane is given,
    whatever the other contours are. *)
Theorem C98_found : forall (prevL curL : @layer ArithR) (h0 h1 : R) pth pr cp pcp j, h0 < h1 ->
  Forall (fun p => level h0 p /\ p <> []) (l_paths prevL) -> Forall (fun p => level h1 p /\ p <> []) (l_paths curL) ->
  In pth (l_paths curL) -> findCentroid pth = Ok cp -> ~ hole cp pth -> under cp (l_paths prevL) pr -> findCentroid pr = Ok pcp -> (j < 36)%nat ->
  let x := cos (deg (10 * INR j)) in let y := - sin (deg (10 * INR j)) in
  (exists c, met cp cp pth x y c) -> (forall d, exists q, met cp pcp pr (cos d) (sin d) q) ->
  (forall c p, met cp cp pth x y c -> met cp pcp pr x y p -> tan (deg 40) * (h1 - h0) < hdist p c) ->
  exists pl, calculateFails prevL curL = Ok (Some pl).
Proof.
  intros prevL curL h0 h1 pth pr cp pcp j Hh F0 F1 I1 C1 Nh U C2 J x y Mc Mr Dv.
  assert (N0 : Forall (fun p : Rpath => p <> []) (l_paths prevL)) by (eapply Forall_impl; [|exact F0]; cbn; tauto).
  assert (N1 : Forall (fun p : Rpath => p <> []) (l_paths curL)) by (eapply Forall_impl; [|exact F1]; cbn; tauto).
  rewrite Forall_forall in F0, F1. destruct (F1 _ I1) as (L1 & Np1). destruct (F0 _ (under_in _ _ _ U)) as (L0 & Np0).
  assert (Fa : fails_at cp pth pr j).
  { destruct (crossing_met cp cp pth x y C1 Mc) as (c & Ec & M1).
    assert (Mp : exists q, met cp pcp pr x y q).
    { destruct (Mr (- deg (10 * INR j))) as (q & Q). rewrite cos_neg, sin_neg in Q. exists q. exact Q. }
    destruct (crossing_met cp pcp pr x y C2 Mp) as (p & Ep & M2). exists c, p. split; [exact Ec|]. split; [exact Ep|].
    pose proof (contour_height _ _ _ L1 (met_on _ _ _ _ _ _ M1)) as Hc. pose proof (contour_height _ _ _ L0 (met_on _ _ _ _ _ _ M2)) as Hp.
    apply steep_iff.
    - change (0 < Z3 c - Z3 p). lra.
    - change (vz (vectorTo p c)) with (Z3 c - Z3 p). rewrite Hc, Hp. exact (Dv c p M1 M2). }
  assert (exists pl, fail_path prevL pth = Ok (Some pl)) as (pl & E).
  { unfold fail_path. rewrite C1. cbn [rbind]. apply hole_not in Nh. rewrite Nh. rewrite (find_prev_under _ _ _ U). cbn [rbind].
    destruct (fail_angles_total cp pth pr Np1 Np0 angleCount 0%Z axisX) as (l & El). rewrite El. cbn [rbind].
    rewrite dir_0 in El. change 0%Z with (Z.of_nat 0) in El.
    destruct (fail_angles_spec _ _ _ _ _ _ El) as (js & -> & S1 & Fj & Ij).
    assert (In j js) as Hj by (apply Ij; split; [change angleCount with 36%nat; lia|exact Fa]).
    destruct js as [|i js]; [destruct Hj|].
    destruct (middle_dir (i :: js) ltac:(discriminate) S1 Fj) as (k & M & B).
    cbn [map] in M |- *. change angleFull with 360%Z. change (@num ArithR) with R in *. rewrite M. cbn [rbind].
    rewrite nofZ_R, turned_x.
    assert (Mk : exists q, met cp pcp pr (cos (deg (IZR k))) (- sin (deg (IZR k))) q).
    { destruct (Mr (- deg (IZR k))) as (q & Q). rewrite cos_neg, sin_neg in Q. exists q. exact Q. }
    destruct (crossing_met cp pcp pr _ _ C2 Mk) as (q & Eq & _). rewrite Eq. cbn [rbind]. eexists. reflexivity. }
  exact (fails_loop_some prevL N0 (l_paths curL) pth pl N1 I1 E).
Qed.

(** ** C99 Upright walls *)

(** If every contour is above the same contour, then no plane is given: for a single contour
    always, for more if each is the first below that has its centre inside. *)
Theorem C99_upright : forall (prevL curL : @layer ArithR) (h z : R), 0 < h ->
  l_paths curL = map (map (lift h)) (l_paths prevL) -> Forall (fun p => level z p /\ comes_back p) (l_paths prevL) ->
  (length (l_paths prevL) = 1%nat \/
   forall p c, In p (l_paths prevL) -> findCentroid p = Ok c -> ~ hole c p -> under (lift h c) (l_paths prevL) p) ->
  calculateFails prevL curL = Ok None.
Proof.
  intros prevL curL h z H E F D. unfold calculateFails. rewrite E.
  assert (Fb : Forall comes_back (l_paths prevL)) by (eapply Forall_impl; [|exact F]; cbn; tauto).
  assert (G : forall p, In p (l_paths prevL) -> fail_path prevL (map (lift h) p) = Ok None).
  { intros p Ip. rewrite Forall_forall in F. destruct (F p Ip) as (L & B).
    destruct (centroid_lift z h p L B) as (c & C & _ & C').
    apply (upright_path prevL h z p c H L B Fb C). intros Nh. destruct D as [D|D].
    - destruct (l_paths prevL) as [|q [|x r]] eqn:El; try discriminate D. destruct Ip as [<-|[]].
      destruct (pt_inside (lift h c) q) eqn:In1.
      + left. exists [], [], c. repeat split; auto.
      + right. exists []. split; [reflexivity|]. constructor; [|constructor]. exists c. auto.
    - left. exact (D p c Ip C Nh). }
  clear - G. revert G. generalize (l_paths prevL) as ps. induction ps as [|p ps IH]; intros G; [reflexivity|].
  cbn [map fails_loop]. rewrite (G p (or_introl eq_refl)). cbn [rbind]. apply IH. intros x Ix. apply G. now right.
Qed.

(** a layer with these contours *)
Definition layer_of {A : Arith} (ps : list path) : layer := Layer_ 0 axisZ ps [] None [].

(** ** Squares in exact arithmetic *)

(** closed square around the axis z at height z, clockwise like the outer contours that the
    slicer makes *)
Definition square (r z : R) : Rpath :=
  let p x y := P3 (A := ArithR) x y z in [p (-r) (-r); p (-r) r; p r r; p r (-r); p (-r) (-r)]%R.

Lemma az_big (x : R) : 1 <= Rabs x -> almostZero (A := ArithR) x = false.
Proof.
  intros H. unfold almostZero, almostZeroNumber. rcbn. unfold Rabs in H.
  destruct (Rltb_spec (- (1 / 1000000)) x) as [A|A]; cbn [andb]; [|reflexivity].
  destruct (Rltb_spec x (1 / 1000000)) as [B|B]; [|reflexivity].
  exfalso. destruct (Rcase_abs x); lra.
Qed.

Lemma square_level r z : level z (square r z) /\ comes_back (square r z).
Proof. split; [repeat constructor|]. exists (P3 (A := ArithR) (- r)%R (- r)%R z). eexists. split; reflexivity. Qed.

Definition ca (c : @cent ArithR) : R := c_a c.
Definition ccx (c : @cent ArithR) : R := c_cx c.
Definition ccy (c : @cent ArithR) : R := c_cy c.

Lemma square_centroid r z : 1 <= r -> findCentroid (square r z) = Ok (P3 (A := ArithR) 0 0 z).
Proof.
  intros H. unfold square, findCentroid. f_equal.
  set (c := cent_sum _ _).
  assert (Ea : ca c = (- (8 * (r * r)))%R) by (unfold c, ca, cent0; cbn [cent_sum cent_step c_a px py pz]; rcbn; ring).
  assert (Ex : ccx c = 0%R) by (unfold c, ccx, cent0; cbn [cent_sum cent_step c_cx px py pz]; rcbn; ring).
  assert (Ey : ccy c = 0%R) by (unfold c, ccy, cent0; cbn [cent_sum cent_step c_cy px py pz]; rcbn; ring).
  assert (E2 : ca2 c = 0%R) by (unfold c, ca2, cent0; cbn [cent_sum cent_step c_a2 px py pz]; rcbn; ring).
  assert (E3 : ca3 c = 0%R) by (unfold c, ca3, cent0; cbn [cent_sum cent_step c_a3 px py pz]; rcbn; ring).
  rewrite (finish_flat c _ E2 E3). cbn zeta.
  assert (R1 : 1 <= r * r) by nra.
  assert (Az : nmul (c_a c) (nlit 5 10) = (- (4 * (r * r)))%R) by (change (ca c * (5 / 10) = - (4 * (r * r))); rewrite Ea; field).
  rewrite Az. rewrite az_big. 2: { rewrite Rabs_left by lra. lra. }
  apply p3_eq; [| |reflexivity].
  - change (ccx c / (6 / 1) / (- (4 * (r * r))) = 0). rewrite Ex. field. lra.
  - change (ccy c / (6 / 1) / (- (4 * (r * r))) = 0). rewrite Ey. field. lra.
Qed.
Lemma hole_centroid r z : 1 <= r -> findCentroid (rev (square r z)) = Ok (P3 (A := ArithR) 0 0 z).
Proof.
  intros H. unfold square, findCentroid. cbn [rev app]. f_equal.
  set (c := cent_sum _ _).
  assert (Ea : ca c = (8 * (r * r))%R) by (unfold c, ca, cent0; cbn [cent_sum cent_step c_a px py pz]; rcbn; ring).
  assert (Ex : ccx c = 0%R) by (unfold c, ccx, cent0; cbn [cent_sum cent_step c_cx px py pz]; rcbn; ring).
  assert (Ey : ccy c = 0%R) by (unfold c, ccy, cent0; cbn [cent_sum cent_step c_cy px py pz]; rcbn; ring).
  assert (E2 : ca2 c = 0%R) by (unfold c, ca2, cent0; cbn [cent_sum cent_step c_a2 px py pz]; rcbn; ring).
  assert (E3 : ca3 c = 0%R) by (unfold c, ca3, cent0; cbn [cent_sum cent_step c_a3 px py pz]; rcbn; ring).
  rewrite (finish_flat c _ E2 E3). cbn zeta.
  assert (R1 : 1 <= r * r) by nra.
  assert (Az : nmul (c_a c) (nlit 5 10) = (4 * (r * r))%R) by (change (ca c * (5 / 10) = 4 * (r * r)); rewrite Ea; field).
  rewrite Az. rewrite az_big. 2: { rewrite Rabs_right by lra. lra. }
  apply p3_eq; [| |reflexivity].
  - change (ccx c / (6 / 1) / (4 * (r * r)) = 0). rewrite Ex. field. lra.
  - change (ccy c / (6 / 1) / (4 * (r * r)) = 0). rewrite Ey. field. lra.
Qed.

Lemma square_not_hole r z h : 1 <= r -> ~ hole (P3 (A := ArithR) 0 0 h) (square r z).
Proof.
  intros H (a & b & l & E & K). unfold square in E. injection E as <- <- <-. unfold X, Y in K. cbn [px py] in K. rcbn. nra.
Qed.

Lemma square_inside r z h : 1 <= r -> Rabs (h - z) < r -> pt_inside (P3 (A := ArithR) 0 0 h) (square r z) = true.
Proof.
  intros H Hh. apply Rabs_def2 in Hh. destruct Hh as (Hh1 & Hh2).
  unfold square, pt_inside.
  set (a := P3 (A := ArithR) 0 0 h). set (v0 := P3 (A := ArithR) (- r)%R (- r)%R z). set (v1 := P3 (A := ArithR) (- r)%R r z).
  set (v2 := P3 (A := ArithR) r r z). set (v3 := P3 (A := ArithR) r (- r)%R z). set (pl := Pl a (vectorTo v0 v1)).
  assert (Sd : forall q, sd pl q = 2 * r * Y q).
  { intros q. unfold sd, pl, a, v0, v1, vectorTo, X, Y, Z3. cbn [pl_p pl_n px py pz vx vy vz]. rcbn. ring. }
  assert (Ev : projectOnPlane (vectorTo a v0) pl = rv (- r) 0 (z - h)).
  { unfold projectOnPlane, projectOn, vlen2, vadd, vopp, vscale, dot, pl, vectorTo, a, v0, v1, rv. cbn [pl_n vx vy vz px py pz]. rcbn.
    destruct (Reqb _ _) eqn:Q; rbool; [exfalso; nra|]. cbn [vx vy vz]. rcbn. apply v3_eq; field; nra. }
  rewrite Ev. unfold inside_count.
  rewrite (isect_some pl v0 v1), (isect_none pl v1 v2), (isect_some pl v2 v3), (isect_none pl v3 v0).
  2-7: rewrite ?Sd; unfold v0, v1, v2, v3, Y; cbn [py]; try (left; reflexivity); nra.
  assert (C1 : codirected (vectorTo a (cut pl v0 v1)) (rv (- r) 0 (z - h)) = true).
  { unfold codirected. rcbn. apply Rleb_true. unfold cut. rewrite !Sd. unfold along, v0, v1, a, dot, vectorTo, X, Y, Z3, rv. cbn [px py pz vx vy vz]. rcbn.
    replace (2 * r * - r / (2 * r * - r - 2 * r * r)) with (1 / 2) by (field; nra). nra. }
  assert (C2 : codirected (vectorTo a (cut pl v2 v3)) (rv (- r) 0 (z - h)) = false).
  { unfold codirected. rcbn. apply Rleb_false. unfold cut. rewrite !Sd. unfold along, v2, v3, a, dot, vectorTo, X, Y, Z3, rv. cbn [px py pz vx vy vz]. rcbn.
    replace (2 * r * r / (2 * r * r - 2 * r * - r)) with (1 / 2) by (field; nra). nra. }
  rewrite C1, C2. reflexivity.
Qed.

Lemma ipcw_none (pl : Rplane) (cp : Rpoint) (v : Rvector) : forall (l1 : Rpath) a b l2, ipcw_loop pl cp v (l1 ++ a :: b :: l2) = None ->
  sd pl a <> sd pl b -> sd pl a * sd pl b <= 0 -> dot (arrow cp (cut pl a b)) v < 0.
Proof.
  induction l1 as [|x l1 IH]; intros a b l2 H H1 H2.
  - change (match intersectSegment pl a b with
            | Some q => if codirected (vectorTo cp q) v then Some q else ipcw_loop pl cp v (b :: l2)
            | None => ipcw_loop pl cp v (b :: l2)
            end = None) in H.
    rewrite (isect_some pl a b H1 H2) in H. destruct (codirected (vectorTo cp (cut pl a b)) v) eqn:C; [discriminate H|].
    unfold codirected in C. unfold dot, vectorTo in C. cbn [vx vy vz] in C. rcbn. apply Rleb_false in C.
    unfold dot, arrow, X, Y, Z3. cbn [vx vy vz]. rcbn. exact C.
  - assert (Hn : ipcw_loop pl cp v (l1 ++ a :: b :: l2) = None).
    { clear -H. change ((x :: l1) ++ a :: b :: l2) with (x :: (l1 ++ a :: b :: l2)) in H. destruct (l1 ++ a :: b :: l2) as [|y r]; [reflexivity|].
      change (match intersectSegment pl x y with
            | Some q => if codirected (vectorTo cp q) v then Some q else ipcw_loop pl cp v (y :: r)
            | None => ipcw_loop pl cp v (y :: r)
            end = None) in H.
      destruct (intersectSegment pl x y) as [q|]; [|exact H]. destruct (codirected (vectorTo cp q) v); [discriminate H|exact H]. }
    exact (IH a b l2 Hn H1 H2).
Qed.

Lemma square_crossed r z h x y : 1 <= r -> x * x + y * y = 1 -> exists q,
  intersectPathCodirectedWith (Pl (P3 (A := ArithR) 0 0 h) (cross (rv x y 0) axisZ)) (square r z) (rv x y 0) = Ok (Some q).
Proof.
  intros H U. unfold intersectPathCodirectedWith. rewrite (square_centroid r z H). cbn [rbind].
  destruct (ipcw_loop _ _ _ _) as [q|] eqn:E; [eauto|exfalso].
  set (pl := Pl (P3 (A := ArithR) 0 0 h) (cross (rv x y 0) axisZ)) in *.
  assert (Sd : forall q, sd pl q = X q * y - Y q * x).
  { intros q. unfold pl. rewrite flat_sd. unfold X at 2, Y at 2. cbn [px py]. rcbn. ring. }
  unfold square in E.
  set (v0 := P3 (A := ArithR) (- r)%R (- r)%R z) in *. set (v1 := P3 (A := ArithR) (- r)%R r z) in *.
  set (v2 := P3 (A := ArithR) r r z) in *. set (v3 := P3 (A := ArithR) r (- r)%R z) in *.
  assert (S0 : sd pl v0 = r * (x - y)) by (rewrite Sd; unfold v0, X, Y; cbn [px py]; ring).
  assert (S1 : sd pl v1 = - r * (x + y)) by (rewrite Sd; unfold v1, X, Y; cbn [px py]; ring).
  assert (S2 : sd pl v2 = - r * (x - y)) by (rewrite Sd; unfold v2, X, Y; cbn [px py]; ring).
  assert (S3 : sd pl v3 = r * (x + y)) by (rewrite Sd; unfold v3, X, Y; cbn [px py]; ring).
  pose proof (ipcw_none pl _ _ [] v0 v1 _ E) as N0. pose proof (ipcw_none pl _ _ [v0] v1 v2 _ E) as N1.
  pose proof (ipcw_none pl _ _ [v0; v1] v2 v3 _ E) as N2. pose proof (ipcw_none pl _ _ [v0; v1; v2] v3 v0 _ E) as N3.
  rewrite flat_dot in N0, N1, N2, N3. unfold cut in *. rewrite ?S0, ?S1, ?S2, ?S3 in *.
  unfold along, v0, v1, v2, v3, X, Y, Z3 in N0, N1, N2, N3. cbn [px py pz] in N0, N1, N2, N3.
  assert (R2 : 0 < r * r) by nra.
  destruct (Rle_lt_dec (y * y) (x * x)) as [D|D].
  - assert (x <> 0) by (intros ->; nra).
    assert (A0 : r * (x - y) <> - r * (x + y)) by (intros K; apply H0; nra).
    assert (A2 : - r * (x - y) <> r * (x + y)) by (intros K; apply H0; nra).
    assert (P0 : r * (x - y) * (- r * (x + y)) <= 0) by (replace (r * (x - y) * (- r * (x + y))) with (- (r * r) * (x * x - y * y)) by ring; nra).
    assert (P2 : - r * (x - y) * (r * (x + y)) <= 0) by (replace (- r * (x - y) * (r * (x + y))) with (- (r * r) * (x * x - y * y)) by ring; nra).
    specialize (N0 A0 P0). specialize (N2 A2 P2). rcbn.
    assert (E0 : (- r + r * (x - y) / (r * (x - y) - - r * (x + y)) * (- r - - r) - 0) * x + (- r + r * (x - y) / (r * (x - y) - - r * (x + y)) * (r - - r) - 0) * y = - (r / x) * (x * x + y * y)) by (field; lra).
    assert (E2 : (r + - r * (x - y) / (- r * (x - y) - r * (x + y)) * (r - r) - 0) * x + (r + - r * (x - y) / (- r * (x - y) - r * (x + y)) * (- r - r) - 0) * y = r / x * (x * x + y * y)) by (field; lra).
    rewrite E0 in N0. rewrite E2 in N2. lra.
  - assert (y <> 0) by (intros ->; nra).
    assert (A1 : - r * (x + y) <> - r * (x - y)) by (intros K; apply H0; nra).
    assert (A3 : r * (x + y) <> r * (x - y)) by (intros K; apply H0; nra).
    assert (P1 : - r * (x + y) * (- r * (x - y)) <= 0) by (replace (- r * (x + y) * (- r * (x - y))) with ((r * r) * (x * x - y * y)) by ring; nra).
    assert (P3 : r * (x + y) * (r * (x - y)) <= 0) by (replace (r * (x + y) * (r * (x - y))) with ((r * r) * (x * x - y * y)) by ring; nra).
    specialize (N1 A1 P1). specialize (N3 A3 P3). rcbn.
    assert (E1 : (- r + - r * (x + y) / (- r * (x + y) - - r * (x - y)) * (r - - r) - 0) * x + (r + - r * (x + y) / (- r * (x + y) - - r * (x - y)) * (r - r) - 0) * y = r / y * (x * x + y * y)) by (field; lra).
    assert (E3 : (r + r * (x + y) / (r * (x + y) - r * (x - y)) * (- r - r) - 0) * x + (- r + r * (x + y) / (r * (x + y) - r * (x - y)) * (- r - - r) - 0) * y = - (r / y) * (x * x + y * y)) by (field; lra).
    rewrite E1 in N1. rewrite E3 in N3. lra.
Qed.

Lemma square_ahead r z h : 1 <= r ->
  intersectPathCodirectedWith (Pl (P3 (A := ArithR) 0 0 h) (cross (dir 0) axisZ)) (square r z) (dir 0) = Ok (Some (P3 (A := ArithR) r 0 z)).
Proof.
  intros H. unfold intersectPathCodirectedWith. rewrite (square_centroid r z H). cbn [rbind]. f_equal.
  rewrite <- dir_0. replace (axisX (A := ArithR)) with (rv 1 0 0) by (unfold axisX; rcbn; reflexivity).
  set (pl := Pl (P3 (A := ArithR) 0 0 h) (cross (rv 1 0 0) axisZ)) in *.
  assert (Sd : forall q, sd pl q = - Y q).
  { intros q. unfold pl. rewrite flat_sd. unfold X at 2, Y at 2. cbn [px py]. rcbn. ring. }
  unfold square.
  set (v0 := P3 (A := ArithR) (- r)%R (- r)%R z) in *. set (v1 := P3 (A := ArithR) (- r)%R r z) in *.
  set (v2 := P3 (A := ArithR) r r z) in *. set (v3 := P3 (A := ArithR) r (- r)%R z) in *.
  cbn [ipcw_loop].
  assert (S0 : sd pl v0 = r) by (rewrite Sd; unfold v0, Y; cbn [py]; ring).
  assert (S1 : sd pl v1 = - r) by (rewrite Sd; unfold v1, Y; cbn [py]; ring).
  assert (S2 : sd pl v2 = - r) by (rewrite Sd; unfold v2, Y; cbn [py]; ring).
  assert (S3 : sd pl v3 = r) by (rewrite Sd; unfold v3, Y; cbn [py]; ring).
  rewrite (isect_some pl v0 v1), (isect_none pl v1 v2), (isect_some pl v2 v3) by (rewrite ?S0, ?S1, ?S2, ?S3; try (left; reflexivity); nra).
  assert (C0 : codirected (vectorTo (P3 (A := ArithR) 0 0 z) (cut pl v0 v1)) (rv 1 0 0) = false).
  { unfold codirected. rcbn. apply Rleb_false. unfold cut. rewrite S0, S1. unfold along, v0, v1, dot, vectorTo, X, Y, Z3, rv. cbn [px py pz vx vy vz]. rcbn. lra. }
  assert (E2 : cut pl v2 v3 = P3 (A := ArithR) r 0 z).
  { unfold cut. rewrite S2, S3. unfold along, v2, v3, X, Y, Z3. cbn [px py pz]. apply p3_eq; rcbn; field; lra. }
  assert (C2 : codirected (vectorTo (P3 (A := ArithR) 0 0 z) (P3 (A := ArithR) r 0 z)) (rv 1 0 0) = true).
  { unfold codirected. rcbn. apply Rleb_true. unfold dot, vectorTo, rv. cbn [px py pz vx vy vz]. rcbn. lra. }
  rewrite C0, E2, C2. reflexivity.
Qed.

Lemma fail_angles_ok (cp : Rpoint) (pth prev : Rpath) c c' : findCentroid pth = Ok c -> findCentroid prev = Ok c' -> forall k j v,
  exists l, fail_angles (A := ArithR) k j v cp pth prev = Ok l.
Proof.
  intros C C'. induction k as [|k IH]; intros j v; [eexists; reflexivity|]. cbn [fail_angles].
  destruct (IH (j + 1)%Z (vrotate v (rotationAroundZ (nofZ angleDist)))) as (l & ->).
  unfold intersectPathCodirectedWith. rewrite C, C'. cbn [rbind].
  destruct (ipcw_loop _ _ _ pth); cbn [rbind]; eexists; reflexivity.
Qed.

Lemma square_cut (prevL : @layer ArithR) r0 r1 z0 z1 : 1 <= r0 -> 1 <= r1 -> z0 < z1 ->
  under (P3 (A := ArithR) 0 0 z1) (l_paths prevL) (square r0 z0) -> tan (deg 40) * (z1 - z0) < Rabs (r1 - r0) ->
  exists pl, fail_path prevL (square r1 z1) = Ok (Some pl).
Proof.
  intros H0 H1 Hz U T. unfold fail_path. rewrite (square_centroid r1 z1 H1). cbn [rbind].
  rewrite (proj2 (hole_not _ _) (square_not_hole r1 z1 z1 H1)). rewrite (find_prev_under _ _ _ U). cbn [rbind].
  set (cp := P3 (A := ArithR) 0 0 z1) in *.
  destruct (fail_angles_ok cp _ _ _ _ (square_centroid r1 z1 H1) (square_centroid r0 z0 H0) angleCount 0%Z axisX) as (l & El).
  rewrite El. cbn [rbind]. pose proof El as Es. rewrite dir_0 in Es. change 0%Z with (Z.of_nat 0) in Es.
  destruct (fail_angles_spec _ _ _ _ _ _ Es) as (js & -> & S1 & F & I).
  assert (I0 : In 0%nat js).
  { apply I. split; [change angleCount with 36%nat; lia|]. exists (P3 (A := ArithR) r1 0 z1), (P3 (A := ArithR) r0 0 z0).
    split; [exact (square_ahead r1 z1 z1 H1)|]. split; [exact (square_ahead r0 z0 z1 H0)|].
    unfold vectorTo. cbn [px py pz]. rcbn. apply (steep_R (r1 - r0) (0 - 0) (z1 - z0)); [lra|].
    replace ((r1 - r0) * (r1 - r0) + (0 - 0) * (0 - 0)) with (Rsqr (r1 - r0)) by (unfold Rsqr; ring). rewrite sqrt_Rsqr_abs. exact T. }
  destruct js as [|j js]; [destruct I0|].
  destruct (middle_dir (j :: js) ltac:(discriminate) S1 F) as (k & M & B).
  cbn [map] in *. change angleFull with 360%Z. change (@num ArithR) with R in *. rewrite M. cbn [rbind]. rewrite nofZ_R, turned_x.
  destruct (square_crossed r0 z0 z1 (cos (deg (IZR k))) (- sin (deg (IZR k))) H0) as (q & Eq).
  { pose proof (sin2_cos2 (deg (IZR k))) as Q. unfold Rsqr in Q. lra. }
  fold cp in Eq. rewrite Eq. cbn [rbind]. eexists. reflexivity.
Qed.

Lemma square_under ps r z h : 1 <= r -> Rabs (h - z) < r -> under (P3 (A := ArithR) 0 0 h) (square r z :: ps) (square r z).
Proof.
  intros H Hh. exists [], ps, (P3 (A := ArithR) 0 0 z). split; [reflexivity|]. split; [now apply square_centroid|].
  split; [now apply square_not_hole|]. split; [now apply square_inside|constructor].
Qed.

Lemma tan40 : tan (deg 40) < 1.
Proof. rewrite <- tan_PI4. pose proof PI_RGT_0. apply tan_increasing; unfold deg; lra. Qed.

(** A square that goes inwards by more than tan 40 degrees times the layer height: nothing
    hangs over, but the model is cut. *)
Theorem C98_taper : forall (prevL curL : @layer ArithR) (r0 r1 z0 z1 : R), 1 <= r1 -> z0 < z1 < z0 + 1 -> tan (deg 40) * (z1 - z0) < r0 - r1 ->
  l_paths prevL = [square r0 z0] -> l_paths curL = [square r1 z1] ->
  exists pl, calculateFails prevL curL = Ok (Some pl).
Proof.
  intros prevL curL r0 r1 z0 z1 H1 Hz T E0 E1.
  assert (0 < tan (deg 40)).
  { unfold tan. pose proof cos40_pos as (C & _). pose proof PI_RGT_0. apply Rmult_lt_0_compat; [apply sin_gt_0; unfold deg; lra|now apply Rinv_0_lt_compat]. }
  assert (0 < tan (deg 40) * (z1 - z0)) by (apply Rmult_lt_0_compat; lra).
  destruct (square_cut prevL r0 r1 z0 z1) as (pl & Ep); try lra.
  - rewrite E0. apply square_under; [lra|]. rewrite Rabs_right; lra.
  - rewrite Rabs_left; lra.
  - exists pl. unfold calculateFails. rewrite E1. cbn [fails_loop]. rewrite Ep. reflexivity.
Qed.

(** A square that goes outwards by more than that: the overhang is found. *)
Theorem C98_spread : forall (prevL curL : @layer ArithR) (r0 r1 z0 z1 : R), 1 <= r0 -> z0 < z1 < z0 + 1 -> tan (deg 40) * (z1 - z0) < r1 - r0 ->
  l_paths prevL = [square r0 z0] -> l_paths curL = [square r1 z1] ->
  exists pl, calculateFails prevL curL = Ok (Some pl).
Proof.
  intros prevL curL r0 r1 z0 z1 H1 Hz T E0 E1.
  assert (0 < tan (deg 40)).
  { unfold tan. pose proof cos40_pos as (C & _). pose proof PI_RGT_0. apply Rmult_lt_0_compat; [apply sin_gt_0; unfold deg; lra|now apply Rinv_0_lt_compat]. }
  assert (0 < tan (deg 40) * (z1 - z0)) by (apply Rmult_lt_0_compat; lra).
  destruct (square_cut prevL r0 r1 z0 z1) as (pl & Ep); try lra.
  - rewrite E0. apply square_under; [lra|]. rewrite Rabs_right; lra.
  - rewrite Rabs_right; lra.
  - exists pl. unfold calculateFails. rewrite E1. cbn [fails_loop]. rewrite Ep. reflexivity.
Qed.

(** A rod of half width r2 in an upright square tube between r0 and r1: the rod is compared
    with the outer wall of the tube, and the model is cut. *)
Theorem C99_nested_refuted : exists (prevL curL : @layer ArithR) (h : R) pl, 0 < h /\
  l_paths prevL = [square 10 0; rev (square 8 0); square 2 0] /\ l_paths curL = map (map (lift h)) (l_paths prevL) /\
  Forall (fun p => level 0 p /\ comes_back p) (l_paths prevL) /\
  calculateFails prevL curL = Ok (Some pl).
Proof.
  set (ps := [square 10 0; rev (square 8 0); square 2 0]).
  assert (F : Forall (fun p => level 0 p /\ comes_back p) ps).
  { constructor; [apply square_level|]. constructor; [|constructor; [apply square_level|constructor]].
    split; [repeat constructor|]. exists (P3 (A := ArithR) (- 8)%R (- 8)%R 0). eexists. split; reflexivity. }
  assert (L : forall r, map (lift (1 / 2)) (square r 0) = square r (1 / 2)).
  { intros r. assert (K : forall x y : R, lift (1 / 2) (P3 (A := ArithR) x y 0) = P3 (A := ArithR) x y (1 / 2)%R).
    { intros x y. apply p3_eq; [reflexivity|reflexivity|]. change (0 + 1 / 2 = 1 / 2). lra. }
    unfold square. cbn [map]. rewrite !K. reflexivity. }
  set (prevL := layer_of (A := ArithR) ps). set (curL := layer_of (A := ArithR) (map (map (lift (1 / 2))) ps)).
  assert (T : tan (deg 40) * (1 / 2 - 0) < 8).
  { pose proof tan40. lra. }
  assert (U : under (P3 (A := ArithR) 0 0 (1 / 2)%R) (l_paths prevL) (square 10 0)).
  { apply square_under; [lra|]. rewrite Rabs_right; lra. }
  destruct (square_cut prevL 10 2 0 (1 / 2)) as (pl & Ep); try lra; try exact U.
  { rewrite Rabs_left; lra. }
  exists prevL, curL, (1 / 2), pl. split; [lra|]. split; [reflexivity|]. split; [reflexivity|]. split; [exact F|].
  unfold calculateFails. change (l_paths curL) with (map (map (lift (1 / 2))) ps). unfold ps. cbn [map fails_loop].
  destruct (square_level 10 0) as (L1 & L2).
  rewrite (upright_path prevL (1 / 2) 0 (square 10 0) (P3 (A := ArithR) 0 0 0)); try lra; try assumption.
  2: { eapply Forall_impl; [|exact F]. cbn. tauto. }
  2: { apply square_centroid. lra. }
  2: { intros _. left. replace (lift (1 / 2) (P3 (A := ArithR) 0 0 0)) with (P3 (A := ArithR) 0 0 (1 / 2)%R); [exact U|].
       symmetry. apply p3_eq; [reflexivity|reflexivity|]. change (0 + 1 / 2 = 1 / 2). lra. }
  cbn [rbind].
  destruct (proj1 (Forall_forall _ _) F (rev (square 8 0)) ltac:(right; left; reflexivity)) as (L3 & L4).
  rewrite (upright_path prevL (1 / 2) 0 (rev (square 8 0)) (P3 (A := ArithR) 0 0 0)); try lra; try assumption.
  2: { eapply Forall_impl; [|exact F]. cbn. tauto. }
  2: { apply hole_centroid. lra. }
  2: { intros N. exfalso. apply N. eexists _, _, _. split; [reflexivity|]. unfold X, Y. cbn [px py]. rcbn. lra. }
  cbn [rbind]. rewrite L, Ep. reflexivity.
Qed.

(** ** Rectangles: the bridge *)
Definition rect (x0 x1 y0 y1 z : R) : Rpath :=
  let p x y := P3 (A := ArithR) x y z in [p x0 y0; p x0 y1; p x1 y1; p x1 y0; p x0 y0].

Lemma rect_centroid x0 x1 y0 y1 z : 1 <= (x1 - x0) * (y1 - y0) ->
  findCentroid (rect x0 x1 y0 y1 z) = Ok (P3 (A := ArithR) ((x0 + x1) / 2)%R ((y0 + y1) / 2)%R z).
Proof.
  intros H. unfold rect, findCentroid. f_equal.
  set (c := cent_sum _ _). set (a := (x1 - x0) * (y1 - y0)) in *.
  assert (Ea : ca c = (- (2 * a))%R) by (unfold c, ca, cent0, a; cbn [cent_sum cent_step c_a px py pz]; rcbn; ring).
  assert (Ex : ccx c = (- (3 * (x0 + x1) * a))%R) by (unfold c, ccx, cent0, a; cbn [cent_sum cent_step c_cx px py pz]; rcbn; ring).
  assert (Ey : ccy c = (- (3 * (y0 + y1) * a))%R) by (unfold c, ccy, cent0, a; cbn [cent_sum cent_step c_cy px py pz]; rcbn; ring).
  assert (E2 : ca2 c = 0%R) by (unfold c, ca2, cent0; cbn [cent_sum cent_step c_a2 px py pz]; rcbn; ring).
  assert (E3 : ca3 c = 0%R) by (unfold c, ca3, cent0; cbn [cent_sum cent_step c_a3 px py pz]; rcbn; ring).
  rewrite (finish_flat c _ E2 E3). cbn zeta.
  assert (Az : nmul (c_a c) (nlit 5 10) = (- a)%R) by (change (ca c * (5 / 10) = - a); rewrite Ea; field).
  rewrite Az. rewrite az_big. 2: { rewrite Rabs_left by lra. lra. }
  apply p3_eq; [| |reflexivity].
  - change (ccx c / (6 / 1) / (- a) = (x0 + x1) / 2). rewrite Ex. field. lra.
  - change (ccy c / (6 / 1) / (- a) = (y0 + y1) / 2). rewrite Ey. field. lra.
Qed.

Lemma rect_outside x0 x1 y0 y1 z h : x0 < x1 -> y0 < y1 -> hole_path (P3 (A := ArithR) ((x0 + x1) / 2)%R ((y0 + y1) / 2)%R h) (rect x0 x1 y0 y1 z) = false.
Proof.
  intros Hx Hy. apply hole_not. intros (a & b & l & E & K). unfold rect in E. injection E as <- <- <-. unfold X, Y in K. cbn [px py] in K. rcbn. nra.
Qed.

(** in the direction +y over the line x = 0 *)
Lemma rect_ahead (c0 : Rpoint) (w x0 x1 y0 y1 z : R) : X c0 = 0 -> 0 < w -> x0 < 0 < x1 -> y0 < y1 -> 1 <= (x1 - x0) * (y1 - y0) ->
  intersectPathCodirectedWith (Pl c0 (cross (rv 0 w 0) axisZ)) (rect x0 x1 y0 y1 z) (rv 0 w 0) = Ok (Some (P3 (A := ArithR) 0 y1 z)).
Proof.
  intros C0 W Hx Hy A. unfold intersectPathCodirectedWith. rewrite (rect_centroid _ _ _ _ z A). cbn [rbind]. f_equal.
  set (pl := Pl c0 (cross (rv 0 w 0) axisZ)) in *.
  assert (Sd : forall q, sd pl q = X q * w).
  { intros q. unfold pl. rewrite flat_sd, C0. ring. }
  unfold rect.
  set (v0 := P3 (A := ArithR) x0 y0 z) in *. set (v1 := P3 (A := ArithR) x0 y1 z) in *.
  set (v2 := P3 (A := ArithR) x1 y1 z) in *. set (v3 := P3 (A := ArithR) x1 y0 z) in *.
  cbn [ipcw_loop].
  assert (S1 : sd pl v1 = x0 * w) by (rewrite Sd; reflexivity).
  assert (S2 : sd pl v2 = x1 * w) by (rewrite Sd; reflexivity).
  rewrite (isect_none pl v0 v1) by (rewrite !Sd; left; reflexivity).
  assert (x0 * w < 0) by nra. assert (0 < x1 * w) by nra.
  rewrite (isect_some pl v1 v2) by (rewrite ?S1, ?S2; nra).
  assert (E2 : cut pl v1 v2 = P3 (A := ArithR) 0 y1 z).
  { unfold cut. rewrite S1, S2. unfold along, v1, v2, X, Y, Z3. cbn [px py pz]. apply p3_eq; rcbn; try (field; lra).
    }
  rewrite E2.
  assert (C2 : codirected (vectorTo (P3 (A := ArithR) ((x0 + x1) / 2)%R ((y0 + y1) / 2)%R z) (P3 (A := ArithR) 0 y1 z)) (rv 0 w 0) = true).
  { unfold codirected. rcbn. apply Rleb_true. unfold dot, vectorTo, rv. cbn [px py pz vx vy vz]. rcbn. nra. }
  rewrite C2. reflexivity.
Qed.

(** Two legs side by side along y; the first spreads towards the other, to y = 4; the plane
    through its edge is inclined towards -y. *)
Theorem C90_toward_refuted : exists (prevL curL : @layer ArithR) (pl : Rplane),
  l_paths prevL = [rect (-2) 2 (-2) 2 0; rect (-2) 2 18 22 0] /\ l_paths curL = [rect (-2) 2 (-2) 4 1; rect (-2) 2 18 22 1] /\
  failExistBridge prevL curL = Ok (Some pl) /\ pl_p pl = P3 (A := ArithR) 0 2 0 /\ vy (pl_n pl) < 0.
Proof.
  set (prevL := layer_of (A := ArithR) [rect (-2) 2 (-2) 2 0; rect (-2) 2 18 22 0]).
  set (curL := layer_of (A := ArithR) [rect (-2) 2 (-2) 4 1; rect (-2) 2 18 22 1]).
  pose proof tan40 as T40.
  assert (C1 : findCentroid (rect (-2) 2 (-2) 2 0) = Ok (P3 (A := ArithR) ((-2 + 2) / 2)%R ((-2 + 2) / 2)%R 0)) by (apply rect_centroid; lra).
  assert (C2 : findCentroid (rect (-2) 2 18 22 0) = Ok (P3 (A := ArithR) ((-2 + 2) / 2)%R ((18 + 22) / 2)%R 0)) by (apply rect_centroid; lra).
  assert (D1 : findCentroid (rect (-2) 2 (-2) 4 1) = Ok (P3 (A := ArithR) ((-2 + 2) / 2)%R ((-2 + 4) / 2)%R 1)) by (apply rect_centroid; lra).
  assert (D2 : findCentroid (rect (-2) 2 18 22 1) = Ok (P3 (A := ArithR) ((-2 + 2) / 2)%R ((18 + 22) / 2)%R 1)) by (apply rect_centroid; lra).
  assert (Tp : getTwoOutsidePathes prevL = Ok (rect (-2) 2 (-2) 2 0, rect (-2) 2 18 22 0)).
  { unfold getTwoOutsidePathes, prevL, layer_of. cbn [l_paths getAllOutsidePathes]. rewrite C1, C2. cbn [rbind].
    rewrite !rect_outside by lra. reflexivity. }
  assert (Tc : getTwoOutsidePathes curL = Ok (rect (-2) 2 (-2) 4 1, rect (-2) 2 18 22 1)).
  { unfold getTwoOutsidePathes, curL, layer_of. cbn [l_paths getAllOutsidePathes]. rewrite D1, D2. cbn [rbind].
    rewrite !rect_outside by lra. reflexivity. }
  exists prevL, curL, (Pl (P3 (A := ArithR) 0 2 0) (tilt_normal (A := ArithR) (angle (axisX (A := ArithR)) (rv 0 19 0) + 90)%R)).
  split; [reflexivity|]. split; [reflexivity|]. split; [|split; [reflexivity|]].
  2: { cbn [pl_n]. rewrite tilt_eq. cbn [vy rv].
       assert (N : rv 0 19 0 <> Vzero) by (unfold rv, Vzero; intros E; injection E; lra).
       destruct (angle_x _ N) as (Cx & Sx). rewrite angle_sym in Cx, Sx. set (b := deg (angle (axisX (A := ArithR)) (rv 0 19 0))) in *.
       cbn [vx rv] in Cx. assert (Cz : cos b = 0) by (rewrite Cx; unfold Rdiv; ring).
       pose proof (sin2_cos2 b) as Q. unfold Rsqr in Q. rewrite Cz in Q. pose proof sq3_pos.
       assert (0 < sin b) by nra. nra. }
  unfold failExistBridge. rewrite Tp, Tc. cbn [rbind]. rewrite C1. cbn [rbind]. rewrite D1. cbn [rbind]. rewrite D2. cbn [rbind].
  match goal with |- context [if ?b then _ else _] => replace b with false end.
  2: { symmetry. unfold distanceTo. rcbn. apply Rltb_false. apply sqrt_le_1_alt. cbn [px py pz vx vy vz]. rcbn. lra. }
  match goal with |- context [vectorTo ?a ?b] => replace (vectorTo a b) with (rv 0 19 0) by (unfold vectorTo; cbn [px py pz]; rcbn; apply v3_eq; lra) end.
  unfold fail_leg.
  match goal with |- context [vectorTo ?a ?b] => replace (vectorTo a b) with (rv 0 19 0) by (unfold vectorTo; cbn [px py pz]; rcbn; apply v3_eq; lra) end.
  rewrite !rect_ahead by (try reflexivity; unfold X; cbn [px]; lra). cbn [rbind].
  unfold failAngle. rcbn.
  match goal with |- context [Rltb ?a ?b] => replace (Rltb a b) with true end; [reflexivity|].
  symmetry. apply Rltb_true. unfold vectorTo. cbn [px py pz]. rcbn. apply (steep_R (0 - 0) (4 - 2) (1 - 0)); [lra|].
  replace ((0 - 0) * (0 - 0) + (4 - 2) * (4 - 2)) with (Rsqr 2) by (unfold Rsqr; ring). rewrite sqrt_Rsqr by lra. lra.
Qed.

(** ** The hypotheses are met *)
Definition wide : @layer ArithR := layer_of [square 10 0].
Definition narrow : @layer ArithR := layer_of [square 9 (1 / 2)].
Definition wider : @layer ArithR := layer_of [square 11 (1 / 2)].

Example ex_taper : exists pl, calculateFails wide narrow = Ok (Some pl).
Proof. pose proof tan40. apply (C98_taper wide narrow 10 9 0 (1 / 2)); try reflexivity; lra. Qed.

Example ex_spread : exists pl, calculateFails wide wider = Ok (Some pl).
Proof. pose proof tan40. apply (C98_spread wide wider 10 11 0 (1 / 2)); try reflexivity; lra. Qed.

(** C98_cause on the two squares: 36 directions, and the contour below is [square 10 0]. *)
Example ex_cause : exists cp pl, calculateFails wide narrow = Ok (Some pl) /\ findCentroid (square 9 (1 / 2)) = Ok cp /\ under cp (l_paths wide) (square 10 0) /\
  Forall (level 0) (l_paths wide) /\ Forall (level (1 / 2)) (l_paths narrow).
Proof.
  destruct ex_taper as (pl & E). exists (P3 (A := ArithR) 0 0 (1 / 2)%R), pl. split; [exact E|].
  split; [apply square_centroid; lra|]. split; [apply square_under; [lra|]; rewrite Rabs_right; lra|].
  split; (constructor; [apply square_level|constructor]).
Qed.

Lemma square_met (r z : R) (cp : Rpoint) : 0 < r -> X cp = 0 -> Y cp = 0 -> forall d,
  exists q, met cp (P3 (A := ArithR) 0 0 z) (square r z) (cos d) (sin d) q.
Proof.
  intros Hr Cx Cy d. pose proof (sin2_cos2 d) as Q. unfold Rsqr in Q. set (x := cos d) in *. set (y := sin d) in *. clearbody x y.
  assert (K : (x <> 0 /\ - Rabs x <= y <= Rabs x) \/ (y <> 0 /\ - Rabs y <= x <= Rabs y)).
  { unfold Rabs. destruct (Rcase_abs x), (Rcase_abs y); destruct (Rle_dec (x * x) (y * y)); (left; split; nra) || (right; split; nra). }
  assert (W : forall i a b t, nth_error (square r z) i = Some a -> nth_error (square r z) (S i) = Some b -> 0 <= t <= 1 ->
     X a * y - Y a * x <> X b * y - Y b * x -> (X a + t * (X b - X a)) * y = (Y a + t * (Y b - Y a)) * x ->
     0 <= (X a + t * (X b - X a)) * x + (Y a + t * (Y b - Y a)) * y -> exists q, met cp (P3 (A := ArithR) 0 0 z) (square r z) x y q).
  { intros i a b t A1 B1 T D P F. exists (along a b t), i, a, b. split; [exact A1|]. split; [exact B1|]. split; [exists t; auto|].
    rewrite Cx, Cy. change (X (along a b t)) with (X a + t * (X b - X a)). change (Y (along a b t)) with (Y a + t * (Y b - Y a)).
    change (X (P3 (A := ArithR) 0 0 z)) with 0. change (Y (P3 (A := ArithR) 0 0 z)) with 0.
    split; [intros E; apply D; lra|]. split; [rewrite !Rminus_0_r; exact P|]. rewrite !Rminus_0_r. exact F. }
  destruct K as [(Nx & K)|(Ny & K)].
  - destruct (Rlt_dec 0 x) as [P|P].
    + (* side x = r, from y = r down to y = -r *)
      rewrite Rabs_right in K by lra.
      eapply (W 2%nat _ _ ((1 - y / x) / 2) eq_refl eq_refl); unfold X, Y; cbn [px py]; change (@num ArithR) with R in *.
      * assert (- 1 <= y / x <= 1) by (split; apply (Rmult_le_reg_r x); try lra; unfold Rdiv; rewrite Rmult_assoc, Rinv_l by lra; lra). lra.
      * intros E. assert (r * x = 0) by lra. nra.
      * field. lra.
      * replace ((r + (1 - y / x) / 2 * (r - r)) * x + (r + (1 - y / x) / 2 * (- r - r)) * y) with (r * x + r * (y * (y / x))) by (field; lra).
        assert (0 <= y * (y / x)) by (replace (y * (y / x)) with (y * y / x) by (field; lra); apply Rmult_le_pos; [nra|left; now apply Rinv_0_lt_compat]). nra.
    + rewrite Rabs_left in K by lra.
      eapply (W 0%nat _ _ ((1 - y / x) / 2) eq_refl eq_refl); unfold X, Y; cbn [px py]; change (@num ArithR) with R in *.
      * assert (H : - 1 <= y / x <= 1).
        { replace (y / x) with (- y / - x) by (field; lra). split; apply (Rmult_le_reg_r (- x)); try lra; unfold Rdiv; rewrite Rmult_assoc, Rinv_l by lra; lra. }
        lra.
      * intros E. assert (r * x = 0) by lra. nra.
      * field. lra.
      * replace ((- r + (1 - y / x) / 2 * (- r - - r)) * x + (- r + (1 - y / x) / 2 * (r - - r)) * y) with (r * - x + r * (y * y / - x)) by (field; lra).
        assert (0 <= y * y / - x) by (apply Rmult_le_pos; [nra|left; apply Rinv_0_lt_compat; lra]). nra.
  - destruct (Rlt_dec 0 y) as [P|P].
    + rewrite Rabs_right in K by lra.
      eapply (W 1%nat _ _ ((1 + x / y) / 2) eq_refl eq_refl); unfold X, Y; cbn [px py]; change (@num ArithR) with R in *.
      * assert (- 1 <= x / y <= 1) by (split; apply (Rmult_le_reg_r y); try lra; unfold Rdiv; rewrite Rmult_assoc, Rinv_l by lra; lra). lra.
      * intros E. assert (r * y = 0) by lra. nra.
      * field. lra.
      * replace ((- r + (1 + x / y) / 2 * (r - - r)) * x + (r + (1 + x / y) / 2 * (r - r)) * y) with (r * y + r * (x * x / y)) by (field; lra).
        assert (0 <= x * x / y) by (apply Rmult_le_pos; [nra|left; now apply Rinv_0_lt_compat]). nra.
    + rewrite Rabs_left in K by lra.
      eapply (W 3%nat _ _ ((1 + x / y) / 2) eq_refl eq_refl); unfold X, Y; cbn [px py]; change (@num ArithR) with R in *.
      * assert (H : - 1 <= x / y <= 1).
        { replace (x / y) with (- x / - y) by (field; lra). split; apply (Rmult_le_reg_r (- y)); try lra; unfold Rdiv; rewrite Rmult_assoc, Rinv_l by lra; lra. }
        lra.
      * intros E. assert (r * y = 0) by lra. nra.
      * field. lra.
      * replace ((r + (1 + x / y) / 2 * (- r - r)) * x + (- r + (1 + x / y) / 2 * (- r - - r)) * y) with (r * - y + r * (x * x / - y)) by (field; lra).
        assert (0 <= x * x / - y) by (apply Rmult_le_pos; [nra|left; apply Rinv_0_lt_compat; lra]). nra.
Qed.
Lemma square_right (r z : R) (cp f : Rpoint) q : 0 < r -> X cp = 0 -> Y cp = 0 -> X f = 0 -> Y f = 0 -> met cp f (square r z) 1 0 q -> X q = r /\ Y q = 0.
Proof.
  intros Hr Cx Cy Fx Fy (i & a & b & A1 & B1 & (t & T & ->) & D & P & F). rewrite Cx, Cy in D, P. rewrite Fx, Fy in F.
  change (X (along a b t)) with (X a + t * (X b - X a)) in *. change (Y (along a b t)) with (Y a + t * (Y b - Y a)) in *.
  destruct i as [|[|[|[|[|i]]]]]; try discriminate B1; injection A1 as <-; injection B1 as <-; unfold X, Y in *; cbn [px py] in *; change (@num ArithR) with R in *; split; nra.
Qed.

(** the hypotheses of C98_found on the two squares, in direction 0 *)
Example ex_found : exists cp pcp, findCentroid (square 9 (1 / 2)) = Ok cp /\ ~ hole cp (square 9 (1 / 2)) /\
  under cp (l_paths wide) (square 10 0) /\ findCentroid (square 10 0) = Ok pcp /\
  let x := cos (deg (10 * INR 0)) in let y := - sin (deg (10 * INR 0)) in
  (exists c, met cp cp (square 9 (1 / 2)) x y c) /\ (forall d, exists q, met cp pcp (square 10 0) (cos d) (sin d) q) /\
  (forall c p, met cp cp (square 9 (1 / 2)) x y c -> met cp pcp (square 10 0) x y p -> tan (deg 40) * (1 / 2 - 0) < hdist p c).
Proof.
  exists (P3 (A := ArithR) 0 0 (1 / 2)%R), (P3 (A := ArithR) 0 0 0). split; [apply square_centroid; lra|]. split.
  { intros (a & b & r & E & K). injection E as <- <- <-. unfold X, Y in K. cbn [px py] in K. change (@num ArithR) with R in *. lra. }
  split; [apply square_under; [lra|]; rewrite Rabs_right; lra|]. split; [apply square_centroid; lra|].
  cbn zeta. cbn [INR]. replace (deg (10 * 0)) with 0 by (unfold deg; field). rewrite cos_0, sin_0, Ropp_0. split; [|split].
  - destruct (square_met 9 (1 / 2) (P3 (A := ArithR) 0 0 (1 / 2)%R) ltac:(lra) eq_refl eq_refl 0) as (q & Q). rewrite cos_0, sin_0 in Q. exists q. exact Q.
  - apply square_met; [lra|reflexivity|reflexivity].
  - intros c p M1 M2. apply square_right in M1; [|lra|reflexivity..]. apply square_right in M2; [|lra|reflexivity..].
    destruct M1 as (Ex & Ey), M2 as (Ex2 & Ey2). unfold hdist. rewrite Ex, Ey, Ex2, Ey2.
    replace ((9 - 10) * (9 - 10) + (0 - 0) * (0 - 0)) with 1 by ring. rewrite sqrt_1. pose proof tan40. lra.
Qed.

Example ex_bridge : exists (prevL curL : @layer ArithR) pl, failExistBridge prevL curL = Ok (Some pl).
Proof. destruct C90_toward_refuted as (a & b & pl & _ & _ & E & _). eauto. Qed.

(** an upright tube: the outer wall and the hole *)
Example ex_upright : calculateFails (layer_of [square 10 0; rev (square 8 0)]) (layer_of (map (map (lift (1 / 2))) [square 10 0; rev (square 8 0)])) = Ok None.
Proof.
  apply C99_upright with (h := 1 / 2) (z := 0); [lra|reflexivity| |].
  - constructor; [apply square_level|]. constructor; [|constructor].
    split; [repeat constructor|]. exists (P3 (A := ArithR) (- 8)%R (- 8)%R 0). eexists. split; reflexivity.
  - right. intros p c [<-|[<-|[]]] C N.
    + rewrite square_centroid in C by lra. injection C as <-.
      replace (lift (1 / 2) (P3 (A := ArithR) 0 0 0)) with (P3 (A := ArithR) 0 0 (1 / 2)%R).
      2: { symmetry. apply p3_eq; [reflexivity|reflexivity|]. change (0 + 1 / 2 = 1 / 2). lra. }
      apply square_under; [lra|]. rewrite Rabs_right; lra.
    + exfalso. rewrite hole_centroid in C by lra. injection C as <-. apply N.
      eexists _, _, _. split; [reflexivity|]. unfold X, Y. cbn [px py]. rcbn. lra.
Qed.

Print Assumptions C90_cut_plane.
Print Assumptions C90_bridge.
Print Assumptions C90_levelled_iff.
Print Assumptions C90_toward_refuted.
Print Assumptions C98_cause.
Print Assumptions C98_found.
Print Assumptions C98_taper.
Print Assumptions C98_spread.
Print Assumptions C99_upright.
Print Assumptions C99_nested_refuted.
