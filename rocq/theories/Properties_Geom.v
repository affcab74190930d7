(** * Properties C26-C31, C59, C60: points, planes, triangles, meshes, contours

    Vocabulary: [GeomSpec] (real coordinates only). *)
From Coq Require Import ZArith Reals Lra Lia List Bool Psatz.
From Flocq Require Import Core.Raux IEEE754.BinarySingleNaN.
From Verif Require Import Arith ArithR ArithF64 F64Facts Prim Path GeomSpec GeomProofs AreaProofs MeshProofs.
Import ListNotations.
Local Open Scope R_scope.
Close Scope num_scope.

(** ** C26 Extent of a mesh *)

Theorem C26_extent : forall (A : Arith) (ok : num -> Prop), MinMaxOK A ok ->
  forall (m : mesh) (z : vector), m <> [] -> Forall (fun v => ok (dot (p2v v) z)) (vertices m) ->
  let (lo, hi) := m_minMaxZ m z in
  (exists v, In v (vertices m) /\ dot (p2v v) z = lo) /\ (exists v, In v (vertices m) /\ dot (p2v v) z = hi) /\
  forall v, In v (vertices m) -> nleb lo (dot (p2v v) z) = true /\ nleb (dot (p2v v) z) hi = true.
Proof.
  intros A ok M m z Hm F. destruct (minMax_ok (ok := ok) z m Hm F) as [[L1 L2] [H1 H2]].
  destruct (m_minMaxZ m z) as [lo hi]. cbn [fst snd] in *. split; [exact L1|]. split; [exact H1|].
  intros v Hv. split; [apply L2|apply H2]; exact Hv.
Qed.

Theorem C26_extent_empty : forall (A : Arith) (z : vector), m_minMaxZ [] z = (n0, n0).
Proof. reflexivity. Qed.

(** float64: finite heights; reals: heights within the float64 range *)
Corollary C26_extent_float : forall E (m : @mesh (ArithF64 E)) (z : @vector (ArithF64 E)), m <> [] ->
  Forall (fun v => is_finite (dot (p2v v) z : f64) = true) (vertices m) ->
  let (lo, hi) := m_minMaxZ m z in
  (exists v, In v (vertices m) /\ dot (p2v v) z = lo) /\ (exists v, In v (vertices m) /\ dot (p2v v) z = hi) /\
  forall v, In v (vertices m) -> nleb lo (dot (p2v v) z) = true /\ nleb (dot (p2v v) z) hi = true.
Proof. intros E. exact (C26_extent (ArithF64 E) (finite64 E) (MinMaxF64 E)). Qed.

(** An infinite height is not reported: the extent of a single triangle at
    +Inf is (MaxFloat64, +Inf). *)
Theorem C26_infinite_height_refuted : forall E, exists (m : @mesh (ArithF64 E)),
  m <> [] /\ forall v, In v (vertices m) -> neqb (fst (m_minMaxZ m axisZ)) (dot (p2v v) axisZ) = false.
Proof.
  intros E. pose (v := @P3 (ArithF64 E) n0 n0 (B754_infinity false : f64)).
  exists [Tri axisZ v v v]. split; [discriminate|].
  intros w [<-|[<-|[<-|[]]]]; vm_compute; reflexivity.
Qed.

(** ** C27 Plane and segment *)

Theorem C27_segment : forall (p : Rplane) (a b : Rpoint),
  match intersectSegment p a b with
  | Some q => sd p a <> sd p b /\ sd p a * sd p b <= 0 /\ on_seg a b q /\ sd p q = 0 /\
              (forall r, on_seg a b r -> sd p r = 0 -> r = q)
  | None => sd p a = sd p b \/ sd p a * sd p b > 0
  end.
Proof.
  intros p a b. pose proof (isect_spec p a b) as H. destruct (intersectSegment p a b) as [q|]; [|exact H].
  destruct H as (H1 & H2 & ->). split; [exact H1|]. split; [exact H2|].
  split; [eexists; split; [|reflexivity]; now apply cross_t|].
  split.
  - rewrite sd_along. field. lra.
  - intros r (t & Ht & ->) Z. f_equal. rewrite sd_along in Z.
    apply Rmult_eq_reg_r with (sd p a - sd p b); [|lra].
    replace (sd p a / (sd p a - sd p b) * (sd p a - sd p b)) with (sd p a) by (field; lra). lra.
Qed.

(** ** C28 Plane and triangle *)

Theorem C28_triangle : forall (p : Rplane) (t : Rtriangle),
  match intersectTriangle p t with
  | Some l =>
      (* the section is the segment from e to f, and the result is that segment, rounded *)
      exists e f, (forall q, (in_tri (t1 t) (t2 t) (t3 t) q /\ sd p q = 0) <-> on_seg e f q) /\
        within (5 / 10 ^ 9) (lp1 l) e /\ within (5 / 10 ^ 9) (lp2 l) f /\
        ~ closer (1 / 10 ^ 6) (lp1 l) (lp2 l) /\
        det3 (arrow (lp1 l) (lp2 l)) (pl_n p) (t_n t) <= 0
  | None =>
      (* the triangle lies in the plane, or the section is too small to be seen *)
      (sd p (t1 t) = 0 /\ sd p (t2 t) = 0 /\ sd p (t3 t) = 0) \/
      forall q r, in_tri (t1 t) (t2 t) (t3 t) q -> in_tri (t1 t) (t2 t) (t3 t) r -> sd p q = 0 -> sd p r = 0 ->
        closer (1 / 10 ^ 6 + 1 / 10 ^ 8) q r
  end.
Proof.
  intros p t. replace (5 / 10 ^ 9) with (/ 200000000) by lra. replace (1 / 10 ^ 6) with (/ 1000000) by lra.
  replace (1 / 10 ^ 8) with (/ 100000000) by lra.
  destruct (intersectTriangle p t) as [l|] eqn:E.
  - exact (isect_tri_some p t l E).
  - exact (isect_tri_none p t E).
Qed.

(** the two separated cases spelled out *)
Corollary C28_nil_one_side : forall (p : Rplane) (t : Rtriangle),
  (0 < sd p (t1 t) /\ 0 < sd p (t2 t) /\ 0 < sd p (t3 t)) \/
  (sd p (t1 t) < 0 /\ sd p (t2 t) < 0 /\ sd p (t3 t) < 0) ->
  intersectTriangle p t = None.
Proof.
  intros p t H. pose proof (C28_triangle p t) as K. destruct (intersectTriangle p t) as [l|]; [|reflexivity].
  exfalso. destruct K as (e & f & S & _).
  assert (On : on_seg e f e) by apply on_seg_l.
  apply S in On. revert On. apply all_one_side; destruct H as [(H1 & H2 & H3)|(H1 & H2 & H3)]; nra.
Qed.

Corollary C28_found : forall (p : Rplane) (t : Rtriangle) q r,
  in_tri (t1 t) (t2 t) (t3 t) q -> in_tri (t1 t) (t2 t) (t3 t) r -> sd p q = 0 -> sd p r = 0 ->
  ~ (sd p (t1 t) = 0 /\ sd p (t2 t) = 0 /\ sd p (t3 t) = 0) ->
  ~ closer (1 / 10 ^ 6 + 1 / 10 ^ 8) q r ->
  exists l, intersectTriangle p t = Some l.
Proof.
  intros p t q r Q1 R1 Q2 R2 N C. pose proof (C28_triangle p t) as K.
  destruct (intersectTriangle p t) as [l|]; [eauto|]. exfalso. destruct K as [K|K]; [auto|]. now apply C, K.
Qed.

(** ** C29 RoundPlaces *)

Theorem C29_round_places : forall (n : nat), (n <= 16)%nat -> forall a : R, exists r z,
  @roundPlaces ArithR a n = Ok r /\
  r = IZR z / 10 ^ n /\                                   (* a multiple of 10^-n *)
  Rabs (r - a) <= / 2 / 10 ^ n /\                         (* nearest *)
  @roundPlaces ArithR (- a)%R n = Ok (- r)%R /\           (* odd *)
  @roundPlaces ArithR r n = Ok r /\                       (* idempotent *)
  forall b s, a <= b -> @roundPlaces ArithR b n = Ok s -> r <= s.   (* monotone *)
Proof.
  intros n Hn a.
  assert (P10 : IZR (10 ^ Z.of_nat n) = 10 ^ n) by (rewrite <- pow_IZR; reflexivity).
  assert (P : 0 < 10 ^ n) by (apply pow_lt; lra).
  rewrite (roundPlaces_def a n Hn), P10. set (z := @round_ ArithR (a * 10 ^ n)%R).
  exists (IZR z / 10 ^ n), z. split; [reflexivity|]. split; [reflexivity|].
  pose proof (rd_near (a * 10 ^ n)) as N. cbv zeta in N. fold z in N.
  split; [|split; [|split]].
  - replace (IZR z / 10 ^ n - a) with ((IZR z - a * 10 ^ n) / 10 ^ n) by (field; lra).
    unfold Rdiv at 1. rewrite Rabs_mult, (Rabs_pos_eq (/ 10 ^ n)) by (left; now apply Rinv_0_lt_compat).
    unfold Rdiv. apply Rmult_le_compat_r; [left; now apply Rinv_0_lt_compat|exact N].
  - rewrite (roundPlaces_def (- a)%R n Hn), P10.
    replace (- a * 10 ^ n)%R with (- (a * 10 ^ n))%R by ring.
    pose proof (rd_opp (a * 10 ^ n)) as O. cbv zeta in O. rewrite O. fold z. rewrite opp_IZR. f_equal. unfold Rdiv. rcbn. ring.
  - rewrite (roundPlaces_def _ n Hn), P10. replace (IZR z / 10 ^ n * 10 ^ n) with (IZR z) by (field; lra).
    pose proof (rd_IZR z) as O. cbv zeta in O. rewrite O. reflexivity.
  - intros b s Hb. rewrite (roundPlaces_def b n Hn), P10. intros [= <-].
    unfold Rdiv. apply Rmult_le_compat_r; [left; now apply Rinv_0_lt_compat|]. apply IZR_le.
    apply (rd_mono (a * 10 ^ n) (b * 10 ^ n)). apply Rmult_le_compat_r; lra.
Qed.

Theorem C29_round_places_panics : forall (A : Arith) a n, (16 < n)%nat -> roundPlaces a n = Panic.
Proof. exact @roundPlaces_panic. Qed.

(** In float64 the conversion to int limits it: beyond 2^63 / 10^8 every number
    rounds to the same value, -92233720368.54775. *)
Theorem C29_float_overflow_refuted : forall E, exists a b r,
  @roundPlaces (ArithF64 E) a 8 = Ok r /\ @roundPlaces (ArithF64 E) b 8 = Ok r /\
  nltb (nofZ 99999999999) a = true /\ nltb a b = true /\ nltb r (nofZ (-92233720368)) = true.
Proof.
  intros E. pose (f := fun x : @num (ArithF64 E) => match @roundPlaces (ArithF64 E) x 8 with Ok r => r | _ => x end).
  exists (nofZ 100000000000), (nofZ 200000000000).
  assert (T : forall x : @num (ArithF64 E), @roundPlaces (ArithF64 E) x 8 = Ok (nofZ (round_ (x * nofZ (10 ^ 8))%num) / nofZ (10 ^ 8))%num).
  { intros x. reflexivity. }
  rewrite !T.
  assert (R1 : round_ (@nofZ (ArithF64 E) 100000000000 * nofZ (10 ^ 8))%num = (- 2 ^ 63)%Z) by (vm_compute; reflexivity).
  assert (R2 : round_ (@nofZ (ArithF64 E) 200000000000 * nofZ (10 ^ 8))%num = (- 2 ^ 63)%Z) by (vm_compute; reflexivity).
  rewrite R1, R2. eexists. split; [reflexivity|]. split; [reflexivity|]. repeat split; vm_compute; reflexivity.
Qed.

(** ** C30 Equality of points *)

Theorem C30_equal_float : forall E (a b : @point (ArithF64 E)),
  (pt_finite E a -> pt_equal a a = true) /\
  pt_equal a b = pt_equal b a /\
  ((px a : f64) = B754_nan \/ (py a : f64) = B754_nan \/ (pz a : f64) = B754_nan ->
     pt_equal a b = false /\ pt_equal b a = false).
Proof.
  intros E a b. split; [apply equal_refl64|]. split; [apply equal_sym64|apply equal_nan64].
Qed.

(** an infinite coordinate makes a point differ from itself *)
Theorem C30_equal_infinite_refuted : forall E, exists a : @point (ArithF64 E), pt_equal a a = false.
Proof. intros E. exists (@P3 (ArithF64 E) (B754_infinity false : f64) n0 n0). vm_compute. reflexivity. Qed.

Theorem C30_not_transitive_refuted : forall E, exists a b c : @point (ArithF64 E),
  pt_equal a b = true /\ pt_equal b c = true /\ pt_equal a c = false.
Proof.
  intros E. exists (P3 n0 n0 n0), (P3 (nlit 9 10000000) n0 n0), (P3 (nlit 18 10000000) n0 n0).
  repeat split; vm_compute; reflexivity.
Qed.

Theorem C30_same_key_equal : forall a b : Rpoint, mapKey a = mapKey b -> closer (2 / 10 ^ 8) a b /\ pt_equal a b = true.
Proof.
  intros a b H. assert (C : closer (2 / 10 ^ 8) a b).
  { pose proof (pt_round8_near a) as Ha. pose proof (pt_round8_near b) as Hb. unfold mapKey in H. rewrite H in Ha.
    destruct Ha as (A1 & A2 & A3), Hb as (B1 & B2 & B3). apply Rabs_le_inv in A1, A2, A3, B1, B2, B3.
    repeat split; apply Rabs_def1; lra. }
  split; [exact C|]. apply pt_equal_R. destruct C as (C1 & C2 & C3). unfold closer. lra.
Qed.

Theorem C30_equal_different_keys : exists a b : Rpoint, pt_equal a b = true /\ mapKey a <> mapKey b.
Proof.
  exists (P3 (A := ArithR) 0 0 0), (P3 (A := ArithR) (1 / 10 ^ 7)%R 0 0). split.
  - apply pt_equal_R. unfold closer; pt; cbn [px py pz]. repeat split; apply Rabs_def1; lra.
  - unfold mapKey, pt_round8. cbn [px py pz]. intros E. apply (f_equal (fun q : Rpoint => px q)) in E. cbn [px] in E.
    pose proof (round8_near 0) as A. pose proof (round8_near (1 / 10 ^ 7)) as B. rewrite E in A.
    apply Rabs_le_inv in A, B. lra.
Qed.

(** In float64 equal keys do not mean equal points: every coordinate beyond
    about 9.2e10 has the same key. *)
Theorem C30_key_collision_refuted : forall E, exists a b : @point (ArithF64 E),
  pt_eqb (mapKey a) (mapKey b) = true /\ pt_equal a b = false.
Proof.
  intros E. exists (P3 (nofZ 100000000000) n0 n0), (P3 (nofZ 200000000000) n0 n0).
  split; vm_compute; reflexivity.
Qed.

(** ** C31 Rotation of meshes *)

Theorem C31_rigid : forall (a : R) (c : Rpoint) rm,
  rm = rotationAroundX (A := ArithR) a \/ rm = rotationAroundZ (A := ArithR) a ->
  pt_rotate rm c c = c /\
  (forall p q, dist2 (pt_rotate rm c p) (pt_rotate rm c q) = dist2 p q) /\
  (forall p q r, det3 (arrow (pt_rotate rm c p) (pt_rotate rm c q)) (arrow (pt_rotate rm c p) (pt_rotate rm c r))
                      (t_n (t_rotate rm c (newTriangle p q r))) =
                 det3 (arrow p q) (arrow p r) (t_n (newTriangle p q r))) /\
  (forall m, m_rotate m rm c = map (t_rotate rm c) m /\
     vertices (m_rotate m rm c) = map (pt_rotate rm c) (vertices m)) /\
  (forall p q r, t_n (t_rotate rm c (newTriangle p q r)) = vrotate (t_n (newTriangle p q r)) rm).
Proof.
  intros a c rm H. assert (O : rot_ok rm) by (destruct H as [-> | ->]; [apply rotX_ok|apply rotZ_ok]).
  split; [now apply rotate_center|]. split; [intros; now apply rotate_dist|].
  split; [|split; [|intros; now apply rotate_normal]].
  - intros p q r. rewrite rotate_normal by exact O.
    destruct O as (co & si & Q & [-> | ->]); assert (E : co * co = 1 - si * si) by lra;
      unfold det3, arrow, newTriangle; rot; ring [E].
  - intros m. split; [reflexivity|]. induction m as [|t m IH]; [reflexivity|].
    cbn [m_rotate map vertices flat_map] in *. unfold vertices in IH. cbn [List.app map]. f_equal. f_equal. f_equal. exact IH.
Qed.

(** Rotating about Z by a, then about X by b, is undone by X by -b, then Z by -a. *)
Theorem C31_undo : forall (m : Rmesh) (a b : R) (c : Rpoint),
  Forall (fun t => t = newTriangle (t1 t) (t2 t) (t3 t)) m ->
  m_rotate (m_rotate (m_rotate (m_rotate m (rotationAroundZ (A := ArithR) a) c)
     (rotationAroundX (A := ArithR) b) c) (rotationAroundX (A := ArithR) (- b)%R) c)
     (rotationAroundZ (A := ArithR) (- a)%R) c = m.
Proof. exact rotate_undo. Qed.

(** ** C59 Winding *)

Theorem C59_winding : forall p : list Rpoint, p <> [] ->
  (isWindingCW p = Ok true <-> area2 p < 0) /\ (isSolid p = Ok true <-> area2 p < 0) /\ (isHole p = Ok true <-> 0 <= area2 p).
Proof.
  intros p H. unfold isSolid, isHole. rewrite winding_area by exact H. cbn [rbind].
  destruct (Rltb_spec (area2 p) 0); cbn; repeat split; intros; try discriminate; try reflexivity; try lra; congruence.
Qed.

Theorem C59_invariance : forall p q : list Rpoint,
  (forall dx dy dz, isWindingCW (map (moved dx dy dz) p) = isWindingCW p) /\
  isWindingCW (p ++ q) = isWindingCW (q ++ p) /\
  (forall a, isWindingCW (a :: p ++ [a]) = isWindingCW (a :: p)) /\
  (area2 p <> 0 -> isHole (rev p) = isSolid p /\ isSolid (rev p) = isHole p).
Proof.
  intros p q. split; [|split; [|split]].
  - intros dx dy dz. destruct p as [|a p]; [reflexivity|].
    rewrite !winding_area by discriminate. now rewrite area_moved.
  - destruct (p ++ q) as [|a l] eqn:E1.
    + apply app_eq_nil in E1. destruct E1 as [-> ->]. reflexivity.
    + assert (N : q ++ p <> []) by (intros E2; apply app_eq_nil in E2; destruct E2 as [-> ->]; discriminate E1).
      rewrite <- E1, !winding_area; auto; [now rewrite area_rot|congruence].
  - intros a. rewrite !winding_area by discriminate. now rewrite area_closed.
  - intros Ha. assert (N : p <> []) by (intros ->; apply Ha; reflexivity).
    assert (N' : rev p <> []) by (intros E; apply N; rewrite <- (rev_involutive p), E; reflexivity).
    unfold isSolid, isHole. rewrite !winding_area by assumption. rewrite area_rev. cbn [rbind].
    destruct (Rltb_spec (- area2 p) 0), (Rltb_spec (area2 p) 0); try lra; split; reflexivity.
Qed.

(** ** C60 Centroid *)

(** area-weighted mean of the centroids of the fan triangles, apex (ox, oy) *)
Theorem C60_centroid : forall (a : Rpoint) (p : list Rpoint) (h ox oy : R),
  Forall (fun q : Rpoint => Z3 q = h) (a :: p) -> Rabs (area2 (a :: p) / 2) >= 1 / 10 ^ 6 ->
  let w := tri2 ox oy in
  let A2 := cyc_sum w (a :: p) in
  findCentroid (a :: p ++ [a]) = Ok (P3 (A := ArithR)
    (cyc_sum (fun b c => w b c * ((ox + X b + X c) / 3)) (a :: p) / A2)
    (cyc_sum (fun b c => w b c * ((oy + Y b + Y c) / 3)) (a :: p) / A2) h).
Proof.
  intros a p h ox oy H1 H2. apply centroid_flat; [exact H1|].
  unfold Rdiv in H2 at 1. rewrite Rabs_mult, (Rabs_pos_eq (/ 2)) in H2 by lra. lra.
Qed.

(** ** The hypotheses can be met *)
Section Examples.
Let rp (x y z : R) : Rpoint := P3 (A := ArithR) x y z.
Let xy : Rplane := Pl (A := ArithR) (rp 0 0 0) (V3 (A := ArithR) 0 0 1).

(** C28: a triangle cut in the middle *)
Example ex_cut : exists l, intersectTriangle xy (newTriangle (rp 0 0 1) (rp 0 0 (-1)) (rp 2 0 (-1))) = Some l.
Proof.
  apply C28_found with (rp 0 0 0) (rp 1 0 0).
  - exists (1 / 2), (1 / 2), 0. unfold newTriangle, comb3, rp. pt. cbn [t1 t2 t3 px py pz]. 
    repeat split; try lra. apply pt_ext; pt; cbn [px py pz]; rcbn; lra.
  - exists (1 / 2), 0, (1 / 2). unfold newTriangle, comb3, rp. pt. cbn [t1 t2 t3 px py pz].
    repeat split; try lra. apply pt_ext; pt; cbn [px py pz]; rcbn; lra.
  - unfold sd, xy, rp. pt. cbn [pl_p pl_n px py pz vx vy vz]. rcbn. lra.
  - unfold sd, xy, rp. pt. cbn [pl_p pl_n px py pz vx vy vz]. rcbn. lra.
  - intros [E _]. unfold sd, xy, rp, newTriangle in E. pt. cbn [t1 t2 t3 pl_p pl_n px py pz vx vy vz] in E. rcbn. lra.
  - intros [C _]. unfold rp in C. pt. cbn [px] in C. apply Rabs_def2 in C. lra.
Qed.

(** C27: both outcomes *)
Example ex_seg_some : exists q, intersectSegment xy (rp 0 0 (-1)) (rp 0 0 1) = Some q.
Proof.
  pose proof (C27_segment xy (rp 0 0 (-1)) (rp 0 0 1)) as H.
  destruct (intersectSegment xy (rp 0 0 (-1)) (rp 0 0 1)); [eauto|]. exfalso. 
  unfold sd, xy, rp in H. pt. cbn [pl_p pl_n px py pz vx vy vz] in H. rcbn. lra.
Qed.
Example ex_seg_none : intersectSegment xy (rp 0 0 1) (rp 0 0 2) = None.
Proof.
  pose proof (C27_segment xy (rp 0 0 1) (rp 0 0 2)) as H.
  destruct (intersectSegment xy (rp 0 0 1) (rp 0 0 2)); [|reflexivity]. exfalso. 
  unfold sd, xy, rp in H. pt. cbn [pl_p pl_n px py pz vx vy vz] in H. rcbn. lra.
Qed.

(** C59, C60: the unit square at height 7, counter-clockwise *)
Let sq : list Rpoint := [rp 0 0 7; rp 1 0 7; rp 1 1 7; rp 0 1 7].
Example ex_sq_area : area2 sq = 2 /\ Rabs (area2 sq / 2) >= 1 / 10 ^ 6 /\ Forall (fun q : Rpoint => Z3 q = 7) sq.
Proof.
  assert (E : area2 sq = 2) by (unfold area2, sq, cyc_sum, rp; pt; cbn [open_sum last px py]; lra).
  split; [exact E|]. split; [rewrite E, Rabs_pos_eq; lra|].
  repeat (apply Forall_cons || apply Forall_nil); reflexivity.
Qed.
(** C31: a mesh built by NewTriangle *)
Example ex_fresh : Forall (fun t => t = newTriangle (t1 t) (t2 t) (t3 t)) [newTriangle (rp 0 0 0) (rp 1 0 0) (rp 0 1 0)].
Proof. constructor; [reflexivity|constructor]. Qed.
(** C26 *)
Example ex_heights : Forall (fun v => is_finite (@dot (ArithF64 elem0) (p2v v) axisZ : f64) = true)
  (@vertices (ArithF64 elem0) [newTriangle (P3 n0 n0 n0) (P3 n1 n0 n2) (P3 n0 n1 n1)]).
Proof. repeat (apply Forall_cons || apply Forall_nil); vm_compute; reflexivity. Qed.
End Examples.

Print Assumptions C26_extent.
Print Assumptions C26_extent_empty.
Print Assumptions C26_extent_float.
Print Assumptions C26_infinite_height_refuted.
Print Assumptions C27_segment.
Print Assumptions C28_triangle.
Print Assumptions C28_nil_one_side.
Print Assumptions C28_found.
Print Assumptions C29_round_places.
Print Assumptions C29_round_places_panics.
Print Assumptions C29_float_overflow_refuted.
Print Assumptions C30_equal_float.
Print Assumptions C30_equal_infinite_refuted.
Print Assumptions C30_not_transitive_refuted.
Print Assumptions C30_same_key_equal.
Print Assumptions C30_equal_different_keys.
Print Assumptions C30_key_collision_refuted.
Print Assumptions C31_rigid.
Print Assumptions C31_undo.
Print Assumptions C59_winding.
Print Assumptions C59_invariance.
Print Assumptions C60_centroid.
