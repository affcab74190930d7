(** * Lemmas about the overhang tests in exact arithmetic *)
From Coq Require Import Reals Lra List Bool ZArith Lia PeanoNat.
From Verif Require Import Arith ArithR Prim Path GeomSpec GeomProofs MeshProofs Helpers HelperClaims HelperProofs2 Slicer Vip VipReal OverhangClaims.
Import ListNotations.
Close Scope Z_scope.
Close Scope num_scope.
Local Open Scope R_scope.

(** ** Angles *)
Lemma rad_deg d : toRadians (A := ArithR) d = deg d.
Proof. rewrite rad. change (PI * d / 180 = deg d). unfold deg. field. Qed.

Lemma tilt_eq (d : R) : tilt_normal (A := ArithR) (d + 90)%R = rv (sqrt 3 / 2 * cos (deg d)) (- (sqrt 3 / 2 * sin (deg d))) (1 / 2).
Proof.
  unfold tilt_normal, axisZ, angleX. rcbn. fold (rv 0 0 1). rewrite rotX_eq, cos60, sin60, rotZ_eq, rad_deg.
  replace (deg (d + 90)) with (deg d + PI / 2) by (unfold deg; field).
  rewrite cos_plus, sin_plus, cos_PI2, sin_PI2. apply v3_eq; ring.
Qed.

Lemma turned_x (d : R) : vrotate (axisX (A := ArithR)) (rotationAroundZ (A := ArithR) d) = rv (cos (deg d)) (- sin (deg d)) 0.
Proof.
  unfold axisX. rcbn. fold (rv 1 0 0). rewrite rotZ_eq, rad_deg. apply v3_eq; ring.
Qed.

(** ** The crossing of a contour with a plane *)
Lemma ipcw_spec (pl : Rplane) (cp : Rpoint) (v : Rvector) : forall (pts : Rpath) q,
  ipcw_loop pl cp v pts = Some q -> on_contour pts q /\ sd pl q = 0 /\ 0 <= dot (arrow cp q) v.
Proof.
  induction pts as [|a r IH]; intros q H; [discriminate H|].
  destruct r as [|b r]; [discriminate H|].
  assert (Next : ipcw_loop pl cp v (b :: r) = Some q -> on_contour (a :: b :: r) q /\ sd pl q = 0 /\ 0 <= dot (arrow cp q) v).
  { intros K. destruct (IH q K) as ((i & x & y & X1 & X2 & X3) & R2). split; [|exact R2].
    exists (S i), x, y. auto. }
  change (match intersectSegment pl a b with
          | Some q => if codirected (vectorTo cp q) v then Some q else ipcw_loop pl cp v (b :: r)
          | None => ipcw_loop pl cp v (b :: r)
          end = Some q) in H.
  pose proof (isect_spec pl a b) as S. destruct (intersectSegment pl a b) as [z|]; [|exact (Next H)].
  destruct (codirected (vectorTo cp z) v) eqn:C; [|exact (Next H)].
  injection H as <-. destruct S as (S1 & S2 & S3).
  pose proof (cross_t _ _ S1 S2) as B.
  split; [exists 0%nat, a, b; cbn; repeat split; exists (sd pl a / (sd pl a - sd pl b)); auto|].
  split.
  - rewrite S3, sd_along. field. lra.
  - unfold codirected in C. unfold dot, vectorTo in C. cbn [vx vy vz] in C. rcbn.
    unfold dot, arrow, X, Y, Z3. cbn [vx vy vz]. rcbn. rbool. lra.
Qed.

(** ** Inclined planes *)

Lemma leans_tilt d : leans (tilt_normal (A := ArithR) (d + 90)%R) (cos (deg d)) (- sin (deg d)).
Proof.
  split.
  - pose proof (sin2_cos2 (deg d)) as H. unfold Rsqr in H. lra.
  - rewrite tilt_eq. apply v3_eq; ring.
Qed.

Lemma angle_x (w : Rvector) : w <> Vzero ->
  cos (deg (angle w (axisX (A := ArithR)))) = vx w / Vlen w /\ 0 <= sin (deg (angle w (axisX (A := ArithR)))).
Proof.
  intros Hw. split.
  - assert (Hx : axisX (A := ArithR) <> Vzero).
    { unfold axisX, Vzero. rcbn. intros E. injection E. lra. }
    rewrite angle_R by assumption. pose proof (cos_range w axisX Hw Hx) as C.
    unfold deg. replace (acos (Vdot w axisX / (Vlen w * Vlen axisX)) * 180 / PI * PI / 180) with (acos (Vdot w axisX / (Vlen w * Vlen axisX)))
      by (field; apply PI_neq0).
    rewrite cos_acos by exact C. 
    replace (Vlen (axisX (A := ArithR))) with 1.
    2: { unfold Vlen, Vdot, axisX. cbn [vx vy vz]. rcbn. replace (1 * 1 + 0 * 0 + 0 * 0) with 1 by ring. now rewrite sqrt_1. }
    unfold Vdot, axisX. cbn [vx vy vz]. rcbn. pose proof (Vlen_pos w Hw). field. lra.
  - pose proof (angle_range w axisX) as B. pose proof PI_RGT_0 as P. apply sin_ge_0; unfold deg.
    + apply Rmult_le_pos; [|lra]. apply Rmult_le_pos; lra.
    + replace PI with (180 * PI / 180) at 2 by field. apply Rmult_le_compat_r; [lra|]. apply Rmult_le_compat_r; lra.
Qed.

(** ** Tests of the layers *)

Lemma hole_iff (c : Rpoint) (p : Rpath) : hole_path c p = true <-> hole c p.
Proof.
  destruct p as [|a [|b r]].
  - split; [discriminate|intros (x & y & l & E & _); discriminate E].
  - split; [discriminate|intros (x & y & l & E & _); discriminate E].
  - cbn [hole_path]. unfold codirected. 
    replace (dot (cross (vectorTo a b) (axisZ (A := ArithR))) (vectorTo c a)) with ((Y b - Y a) * (X a - X c) - (X b - X a) * (Y a - Y c)).
    2: { unfold dot, cross, vectorTo, axisZ, X, Y. cbn [vx vy vz]. rcbn. ring. }
    rcbn. split.
    + intros K. rbool. exists a, b, r. split; [reflexivity|lra].
    + intros (x & y & l & E & K). injection E as <- <- <-. apply Rleb_true. exact K.
Qed.
Lemma hole_not (c : Rpoint) (p : Rpath) : hole_path c p = false <-> ~ hole c p.
Proof. rewrite <- hole_iff. destruct (hole_path c p); split; congruence. Qed.

Lemma find_prev (cp : Rpoint) : forall paths r, findPrevPath cp paths = Ok r ->
  match r with Some pr => under cp paths pr | None => nothing_under cp paths end.
Proof.
  induction paths as [|p ps IH]; intros r H.
  - injection H as <-. constructor.
  - cbn [findPrevPath] in H. destruct (findCentroid p) as [c| |] eqn:C; cbn [rbind] in H; try discriminate H.
    assert (Next : hole c p \/ pt_inside cp p = false -> findPrevPath cp ps = Ok r ->
      match r with Some pr => under cp (p :: ps) pr | None => nothing_under cp (p :: ps) end).
    { intros K1 K2. specialize (IH r K2). destruct r as [pr|].
      - destruct IH as (l1 & l2 & c' & -> & R). exists (p :: l1), l2, c'. split; [reflexivity|].
        destruct R as (R1 & R2 & R3 & R4). repeat split; auto. constructor; eauto.
      - constructor; eauto. }
    destruct (hole_path c p) eqn:Hh; [apply hole_iff in Hh; exact (Next (or_introl Hh) H)|apply hole_not in Hh].
    destruct (pt_inside cp p) eqn:Hi; [|exact (Next (or_intror eq_refl) H)].
    injection H as <-. exists [], ps, c. repeat split; auto.
Qed.
Lemma find_prev_under (cp : Rpoint) paths pr : under cp paths pr -> findPrevPath cp paths = Ok (Some pr).
Proof.
  intros (l1 & l2 & c & -> & C & Hh & Hi & F). induction F as [|x l (cx & Cx & K) F IH]; cbn [findPrevPath app].
  - apply hole_not in Hh. rewrite C. cbn [rbind]. now rewrite Hh, Hi.
  - rewrite Cx. cbn [rbind]. destruct (hole_path cx x) eqn:Hx; [exact IH|]. apply hole_not in Hx. destruct K as [K|K]; [contradiction|]. rewrite K. exact IH.
Qed.

(** the direction number [j] of CalculateFails *)
Definition dir (j : nat) : Rvector := rv (cos (deg (10 * INR j))) (- sin (deg (10 * INR j))) 0.
Lemma dir_0 : axisX (A := ArithR) = dir 0.
Proof. unfold dir, axisX. cbn [INR]. unfold deg. replace (10 * 0 * PI / 180) with 0 by field. rewrite cos_0, sin_0. rcbn. apply v3_eq; ring. Qed.
Lemma nofZ_R z : nofZ (A := ArithR) z = IZR z.
Proof. rcbn. apply lit1 || reflexivity. Qed.
Lemma dir_S j : vrotate (dir j) (rotationAroundZ (nofZ (A := ArithR) angleDist)) = dir (S j).
Proof.
  unfold dir at 1. rewrite rotZ_eq, rad_deg. rewrite nofZ_R. change (IZR angleDist) with 10. unfold dir. rewrite S_INR.
  replace (deg (10 * (INR j + 1))) with (deg (10 * INR j) + deg 10) by (unfold deg; field).
  rewrite cos_plus, sin_plus. apply v3_eq; ring.
Qed.

(** the test in direction [j] *)
Definition fails_at (cp : Rpoint) (pth prev : Rpath) (j : nat) : Prop :=
  exists c p, intersectPathCodirectedWith (Pl cp (cross (dir j) axisZ)) pth (dir j) = Ok (Some c) /\
    intersectPathCodirectedWith (Pl cp (cross (dir j) axisZ)) prev (dir j) = Ok (Some p) /\
    40 < angle (axisZ (A := ArithR)) (vectorTo p c).

Lemma fail_angles_spec (cp : Rpoint) (pth prev : Rpath) : forall k j l,
  fail_angles (A := ArithR) k (Z.of_nat j) (dir j) cp pth prev = Ok l ->
  exists js, l = map (fun i => 10 * INR i) js /\ Sorted.Sorted lt js /\ Forall (fun i => (j <= i < j + k)%nat) js /\
    forall i, In i js <-> ((j <= i < j + k)%nat /\ fails_at cp pth prev i).
Proof.
  induction k as [|k IH]; intros j l H.
  - injection H as <-. exists []. split; [reflexivity|]. split; [constructor|]. split; [constructor|]. intros i. split; [intros []|intros (K & _); lia].
  - cbn [fail_angles] in H.
    set (pl := Pl cp (cross (dir j) axisZ)) in *.
    assert (exists here rest, l = here ++ rest /\ fail_angles (A := ArithR) k (Z.of_nat (S j)) (dir (S j)) cp pth prev = Ok rest /\
      ((here = [10 * INR j] /\ fails_at cp pth prev j) \/ (here = [] /\ ~ fails_at cp pth prev j))) as (here & rest & -> & R & D).
    { rewrite dir_S in H. replace (Z.of_nat j + 1)%Z with (Z.of_nat (S j)) in H by lia.
      assert (T10 : nofZ (A := ArithR) (Z.of_nat j * angleDist) = 10 * INR j).
      { rewrite nofZ_R. change angleDist with 10%Z. rewrite mult_IZR, <- INR_IZR_INZ. change (INR j * 10 = 10 * INR j). ring. }
      destruct (intersectPathCodirectedWith pl pth (dir j)) as [[c|]| |] eqn:E1; cbn [rbind] in H; try discriminate H.
      - destruct (intersectPathCodirectedWith pl prev (dir j)) as [[p|]| |] eqn:E2; cbn [rbind] in H; try discriminate H.
        + destruct (fail_angles k (Z.of_nat (S j)) (dir (S j)) cp pth prev) as [rest| |] eqn:E3; cbn [rbind] in H; try discriminate H.
          injection H as <-. eexists _, rest. split; [reflexivity|]. split; [reflexivity|].
          rcbn. destruct (Rltb_spec 40 (angle (axisZ (A := ArithR)) (vectorTo p c))) as [L|L].
          * left. split; [now rewrite T10|]. exists c, p. repeat split; auto.
          * right. split; [reflexivity|]. intros (c' & p' & K1 & K2 & K3). fold pl in K1, K2. rewrite E1 in K1. rewrite E2 in K2.
            injection K1 as <-. injection K2 as <-. contradiction.
        + destruct (fail_angles k (Z.of_nat (S j)) (dir (S j)) cp pth prev) as [rest| |] eqn:E3; cbn [rbind] in H; try discriminate H.
          injection H as <-. exists [], rest. split; [reflexivity|]. split; [reflexivity|]. right. split; [reflexivity|].
          intros (c' & p' & K1 & K2 & K3). fold pl in K2. rewrite E2 in K2. discriminate K2.
      - destruct (fail_angles k (Z.of_nat (S j)) (dir (S j)) cp pth prev) as [rest| |] eqn:E3; cbn [rbind] in H; try discriminate H.
        injection H as <-. exists [], rest. split; [reflexivity|]. split; [reflexivity|]. right. split; [reflexivity|].
        intros (c' & p' & K1 & K2 & K3). fold pl in K1. rewrite E1 in K1. discriminate K1. }
    destruct (IH (S j) rest R) as (js & -> & S1 & F & I).
    destruct D as [(-> & D)|(-> & D)].
    + exists (j :: js). split; [reflexivity|]. split; [|split].
      * constructor; [exact S1|]. destruct js as [|x js]; constructor. inversion F; subst. lia.
      * constructor; [lia|]. eapply Forall_impl; [|exact F]. cbn. intros; lia.
      * intros i. cbn [In]. rewrite I. split.
        -- intros [<-|(K1 & K2)]; [split; [lia|exact D]|split; [lia|exact K2]].
        -- intros (K1 & K2). destruct (Nat.eq_dec j i) as [<-|N]; [now left|]. right. split; [lia|exact K2].
    + exists js. split; [reflexivity|]. split; [exact S1|]. split.
      * eapply Forall_impl; [|exact F]. cbn. intros; lia.
      * intros i. rewrite I. split.
        -- intros (K1 & K2). split; [lia|exact K2].
        -- intros (K1 & K2). destruct (Nat.eq_dec j i) as [<-|N]; [contradiction|]. split; [lia|exact K2].
Qed.

Lemma middle_dir (js : list nat) : js <> [] -> Sorted.Sorted lt js -> Forall (fun i => (0 <= i < 0 + 36)%nat) js ->
  exists r, middleOnTheRing (A := ArithR) (map (fun i => 10 * INR i) js) 360 = Ok r /\ (0 <= r < 360)%Z.
Proof.
  intros N S F.
  destruct (middle_R (map (fun i => 10 * INR i) js) 360) as (r & H1 & H2 & _).
  - reflexivity.
  - now destruct js.
  - clear N F. induction S as [|x l S IH Hd]; cbn [map]; constructor; [exact IH|].
    destruct Hd as [|y l L]; cbn [map]; constructor. apply lt_INR in L. lra.
  - apply Forall_map. eapply Forall_impl; [|exact F]. cbn. intros i L. pose proof (pos_INR i).
    assert (INR i < INR 36) by (apply lt_INR; lia). assert (INR 36 <= 36) by (rewrite INR_IZR_INZ; cbn; lra). lra.
  - exists r. auto.
Qed.

(** what a plane from CalculateFails is *)
Inductive cut_case (prevL curL : @layer ArithR) (pl : Rplane) : Prop :=
| over_contour (pth pr : Rpath) (cp : Rpoint) (j : nat) (k : Z) :
    In pth (l_paths curL) -> findCentroid pth = Ok cp -> under cp (l_paths prevL) pr ->
    (j < 36)%nat -> fails_at cp pth pr j -> (0 <= k < 360)%Z ->
    (let v := rv (cos (deg (IZR k))) (- sin (deg (IZR k))) 0 in
     intersectPathCodirectedWith (Pl cp (cross v axisZ)) pr v = Ok (Some (pl_p pl))) ->
    pl_n pl = tilt_normal (A := ArithR) (IZR k + 90)%R -> cut_case prevL curL pl
| over_nothing (pth pr : Rpath) (cp pcp : Rpoint) :
    In pth (l_paths curL) -> findCentroid pth = Ok cp -> nothing_under cp (l_paths prevL) ->
    nth_error (l_paths prevL) 0 = Some pr -> findCentroid pr = Ok pcp ->
    (let v := rv (X cp - X pcp) (Y cp - Y pcp) 0 in
     intersectPathCodirectedWith (Pl pcp (cross v axisZ)) pr v = Ok (Some (pl_p pl))) ->
    pl_n pl = tilt_normal (A := ArithR) (angle (vectorTo pcp (pl_p pl)) (axisX (A := ArithR)) + 90)%R -> cut_case prevL curL pl.

Lemma fails_case (prevL curL : @layer ArithR) pl : calculateFails prevL curL = Ok (Some pl) -> cut_case prevL curL pl.
Proof.
  unfold calculateFails. assert (H : forall x, In x (l_paths curL) -> In x (l_paths curL)) by auto. revert H.
  generalize (l_paths curL) at 1 3 as ps.
  induction ps as [|p ps IH]; intros Sub H; [discriminate H|].
  cbn [fails_loop] in H. destruct (fail_path prevL p) as [[x|]| |] eqn:E; cbn [rbind] in H; try discriminate H.
  2: { apply IH; [intros y Y1; apply Sub; now right|exact H]. }
  injection H as ->. pose proof (Sub p (or_introl eq_refl)) as Hp. clear IH Sub.
  unfold fail_path in E. destruct (findCentroid p) as [cp| |] eqn:C; cbn [rbind] in E; try discriminate E.
  destruct (hole_path cp p); [discriminate E|].
  destruct (findPrevPath cp (l_paths prevL)) as [o| |] eqn:Fp; cbn [rbind] in E; try discriminate E.
  apply find_prev in Fp. destruct o as [pr|].
  - destruct (fail_angles angleCount 0 axisX cp p pr) as [fails| |] eqn:Ff; cbn [rbind] in E; try discriminate E.
    rewrite dir_0 in Ff. change 0%Z with (Z.of_nat 0) in Ff.
    destruct (fail_angles_spec _ _ _ _ _ _ Ff) as (js & -> & S1 & F & I).
    destruct js as [|j js]; [discriminate E|].
    destruct (middle_dir (j :: js) ltac:(discriminate) S1 F) as (k & M & B).
    cbn [map] in E, M. change angleFull with 360%Z in E.
    change (@num ArithR) with R in *.
    rewrite M in E. cbn [rbind] in E. rewrite nofZ_R in E. rewrite turned_x in E.
    destruct (intersectPathCodirectedWith _ pr _) as [[q|]| |] eqn:Ei; cbn [rbind] in E; try discriminate E.
    injection E as <-. destruct (proj1 (I j) (or_introl eq_refl)) as (J1 & J2).
    eapply over_contour with (j := j) (k := k); eauto.
    + change angleCount with 36%nat in J1. lia.
    + cbn [pl_n]. now rewrite lit1.
  - destruct (l_paths prevL) as [|pr prs] eqn:Ep; [discriminate E|].
    destruct (findCentroid pr) as [pcp| |] eqn:Cp; cbn [rbind] in E; try discriminate E.
    assert (Ev : projectOnPlane (vectorTo pcp cp) (planeXY (A := ArithR)) = rv (X cp - X pcp) (Y cp - Y pcp) 0).
    { unfold vectorTo. rcbn. apply flat_proj. }
    rewrite Ev in E.
    destruct (intersectPathCodirectedWith _ pr _) as [[q|]| |] eqn:Ei; cbn [rbind] in E; try discriminate E.
    injection E as <-. eapply over_nothing; eauto.
    + rewrite Ep. exact Fp.
    + rewrite Ep. reflexivity.
    + cbn [pl_n pl_p]. now rewrite ?nofZ_R, ?lit1.
Qed.

(** ** Steepness *)
Lemma cos40_pos : 0 < cos (deg 40) < 1.
Proof.
  pose proof PI_RGT_0 as P. unfold deg. split.
  - apply cos_gt_0; lra.
  - rewrite <- cos_0. apply cos_decreasing_1; lra.
Qed.

Lemma dz (a b c : R) : 0 * a + 0 * b + 1 * c = c.
Proof. ring. Qed.
Lemma steep_R (x y z : R) : 0 < z ->
  40 < angle (axisZ (A := ArithR)) (rv x y z) <-> tan (deg 40) * z < sqrt (x * x + y * y).
Proof.
  intros Hz. set (w := rv x y z).
  assert (Dw : Vdot w w = x * x + y * y + z * z) by reflexivity.
  assert (Hw : w <> Vzero) by (unfold w, rv, Vzero; intros E; injection E; lra).
  assert (Hx : axisZ (A := ArithR) <> Vzero).
  { unfold axisZ, Vzero. rcbn. intros E. injection E. lra. }
  rewrite angle_R by assumption. pose proof (cos_range axisZ w Hx Hw) as C.
  replace (Vlen (axisZ (A := ArithR))) with 1 in *.
  2: { unfold Vlen, Vdot, axisZ. cbn [vx vy vz]. rcbn. replace (0 * 0 + 0 * 0 + 1 * 1) with 1 by ring. now rewrite sqrt_1. }
  replace (Vdot axisZ w) with z in *. 2: { unfold Vdot, axisZ, w, rv. cbn [vx vy vz]. rcbn. exact (eq_sym (dz _ _ _)). }
  rewrite Rmult_1_l in *. pose proof (Vlen_pos w Hw) as L. set (c := z / Vlen w) in *.
  pose proof PI_RGT_0 as P. pose proof cos40_pos as (C1 & C2).
  set (h := sqrt (x * x + y * y)).
  assert (H2 : h * h = x * x + y * y).
  { unfold h. apply sqrt_sqrt. pose proof (Rle_0_sqr (x)). pose proof (Rle_0_sqr (y)). unfold Rsqr in *. lra. }
  assert (H0 : 0 <= h) by apply sqrt_pos.
  assert (L2 : Vlen w * Vlen w = h * h + z * z).
  { unfold Vlen. rewrite sqrt_sqrt; [rewrite Dw; lra|]. rewrite Dw. pose proof (Rle_0_sqr (x)). pose proof (Rle_0_sqr (y)). pose proof (Rle_0_sqr (z)). unfold Rsqr in *. lra. }
  assert (S40 : 0 < sin (deg 40)) by (apply sin_gt_0; unfold deg; lra).
  assert (SC : sin (deg 40) * sin (deg 40) + cos (deg 40) * cos (deg 40) = 1).
  { pose proof (sin2_cos2 (deg 40)) as Q. unfold Rsqr in Q. exact Q. }
  (* both sides say vz < cos 40 * len *)
  assert (A1 : 40 < acos c * 180 / PI <-> z < cos (deg 40) * Vlen w).
  { assert (Ec : z = c * Vlen w) by (unfold c; field; lra).
    assert (Ed : acos c * 180 / PI * PI / 180 = acos c) by (field; lra).
    assert (B := acos_bound c).
    assert (Q1 : 40 < acos c * 180 / PI <-> deg 40 < acos c).
    { unfold deg. split; intros K.
      - rewrite <- Ed. apply Rmult_lt_compat_r; [lra|]. apply Rmult_lt_compat_r; lra.
      - apply Rmult_lt_reg_r with (PI / 180); [lra|]. lra. }
    rewrite Q1. assert (Q2 : deg 40 < acos c <-> c < cos (deg 40)).
    { rewrite <- (cos_acos c) at 2 by exact C. split; intros K.
      - apply cos_decreasing_1; unfold deg in *; lra.
      - apply cos_decreasing_0; unfold deg in *; try lra. }
    rewrite Q2, Ec. split; intros K.
    - apply Rmult_lt_compat_r; lra.
    - apply Rmult_lt_reg_r with (Vlen w); lra. }
  rewrite A1. unfold tan.
  assert (A2 : sin (deg 40) / cos (deg 40) * z < h <-> sin (deg 40) * z < cos (deg 40) * h).
  { assert (E : sin (deg 40) / cos (deg 40) * z * cos (deg 40) = sin (deg 40) * z) by (field; lra). split; intros K.
    - apply (Rmult_lt_compat_r (cos (deg 40))) in K; lra.
    - apply Rmult_lt_reg_r with (cos (deg 40)); lra. }
  rewrite A2. set (s := sin (deg 40)) in *. set (k := cos (deg 40)) in *. set (l := Vlen w) in *.
  clearbody s k l h. clear - Hz C1 S40 SC L2 H0 L.
  (* squares *)
  assert (E1 : (k * l) * (k * l) - z * z = (k * h) * (k * h) - (s * z) * (s * z)).
  { replace (k * l * (k * l)) with (k * k * (l * l)) by ring. rewrite L2. assert (Es : s * s = 1 - k * k) by lra. replace (s * z * (s * z)) with ((1 - k * k) * (z * z)) by (rewrite <- Es; ring). ring. }
  assert (0 < k * l) by (apply Rmult_lt_0_compat; lra). assert (0 < s * z) by (apply Rmult_lt_0_compat; lra).
  assert (0 <= k * h) by (apply Rmult_le_pos; lra).
  split; intros K; nra.
Qed.

Lemma steep_iff (w : Rvector) : 0 < vz w ->
  40 < angle (axisZ (A := ArithR)) w <-> tan (deg 40) * vz w < sqrt (vx w * vx w + vy w * vy w).
Proof. destruct w as [x y z]. exact (steep_R x y z). Qed.

(** ** The same contour one layer higher *)
Lemma lift_sd pl h q : vz (pl_n pl) = 0 -> sd pl (lift h q) = sd pl q.
Proof. intros E. unfold sd. rewrite E. unfold lift, X, Y, Z3. cbn [px py pz]. rcbn. ring. Qed.

Lemma cent_lift (h : R) : forall (p : Rpath) c c', c_a c = c_a c' -> c_cx c = c_cx c' -> c_cy c = c_cy c' ->
  let d := cent_sum c p in let d' := cent_sum c' (map (lift h) p) in
  c_a d = c_a d' /\ c_cx d = c_cx d' /\ c_cy d = c_cy d'.
Proof.
  induction p as [|a [|b r] IH]; intros c c' E1 E2 E3; cbn zeta; auto.
  change (cent_sum c (a :: b :: r)) with (cent_sum (cent_step c a b) (b :: r)).
  change (cent_sum c' (map (lift h) (a :: b :: r))) with (cent_sum (cent_step c' (lift h a) (lift h b)) (map (lift h) (b :: r))).
  apply IH; unfold cent_step, lift, X, Y; cbn [c_a c_cx c_cy px py pz]; congruence.
Qed.

Definition ca2 (c : @cent ArithR) : R := c_a2 c.
Definition ca3 (c : @cent ArithR) : R := c_a3 c.
Lemma ca2_step c a b : ca2 (cent_step c a b) = ca2 c + (X a * Z3 b - X b * Z3 a).
Proof. reflexivity. Qed.
Lemma ca3_step c a b : ca3 (cent_step c a b) = ca3 c + (Y a * Z3 b - Y b * Z3 a).
Proof. reflexivity. Qed.
Lemma last_cons {T} (b a : T) r : last (b :: r) a = last r b.
Proof. revert a b. induction r as [|x r IH]; intros; [reflexivity|]. change (last (b :: x :: r) a) with (last (x :: r) a). rewrite !IH. reflexivity. Qed.
Lemma cent_flat (z : R) : forall (p : Rpath) c a, level z (a :: p) ->
  ca2 (cent_sum c (a :: p)) = ca2 c + z * (X a - X (last p a)) /\ ca3 (cent_sum c (a :: p)) = ca3 c + z * (Y a - Y (last p a)).
Proof.
  induction p as [|b r IH]; intros c a L.
  - cbn [cent_sum last]. split; ring.
  - change (cent_sum c (a :: b :: r)) with (cent_sum (cent_step c a b) (b :: r)).
    pose proof (Forall_inv L) as La. pose proof (Forall_inv_tail L) as Lr. pose proof (Forall_inv Lr) as Lb.
    destruct (IH (cent_step c a b) b Lr) as (H1 & H2). rewrite H1, H2, ca2_step, ca3_step, last_cons, La, Lb.
    assert (G : forall c0 xa xb xl xl' : R, xl = xl' -> c0 + (xa * z - xb * z) + z * (xb - xl) = c0 + z * (xa - xl')) by (intros; subst; ring).
    split; apply G; reflexivity.
Qed.

Lemma az_0 : almostZero (A := ArithR) 0 = true.
Proof. unfold almostZero, almostZeroNumber. rcbn. destruct (Rltb_spec (- (1 / 1000000)) 0); [|exfalso; lra]. destruct (Rltb_spec 0 (1 / 1000000)); [reflexivity|exfalso; lra]. Qed.

Lemma finish_flat (c : @cent ArithR) (p0 : Rpoint) : ca2 c = 0 -> ca3 c = 0 ->
  cent_finish c p0 =
    let a := nmul (c_a c) (nlit 5 10) in
    if almostZero a then P3 (A := ArithR) 0 (Y p0) (Z3 p0)
    else P3 (ndiv (ndiv (c_cx c) (nofZ 6)) a) (ndiv (ndiv (c_cy c) (nofZ 6)) a) (Z3 p0).
Proof.
  intros E2 E3. unfold cent_finish.
  assert (Z2 : almostZero (nmul (c_a2 c) (nlit 5 10)) = true).
  { replace (nmul (c_a2 c) (nlit 5 10)) with 0; [exact az_0|]. change (0 = ca2 c * (5 / 10)). rewrite E2. ring. }
  assert (Z3' : almostZero (nmul (c_a3 c) (nlit 5 10)) = true).
  { replace (nmul (c_a3 c) (nlit 5 10)) with 0; [exact az_0|]. change (0 = ca3 c * (5 / 10)). rewrite E3. ring. }
  rewrite Z2, Z3'. cbn zeta. destruct (almostZero (nmul (c_a c) (nlit 5 10))); cbn [negb andb]; [|reflexivity].
  rcbn. reflexivity.
Qed.

Lemma centroid_lift (z h : R) (p : Rpath) : level z p -> comes_back p ->
  exists c, findCentroid p = Ok c /\ Z3 c = z /\ findCentroid (map (lift h) p) = Ok (lift h c).
Proof.
  intros L (a & r & -> & B). pose proof B as B'. rewrite last_cons in B'.
  destruct (cent_flat z r cent0 a L) as (A2 & A3). rewrite B' in A2, A3.
  assert (L' : level (z + h) (map (lift h) (a :: r))).
  { unfold level in *. apply Forall_map. eapply Forall_impl; [|exact L]. cbn. intros q E. change (Z3 q + h = z + h). rewrite E. reflexivity. }
  destruct (cent_flat (z + h) (map (lift h) r) cent0 (lift h a) L') as (A2' & A3').
  assert (Bl : @last (@point ArithR) (map (lift h) r) (lift h a) = lift h a).
  { rewrite <- B' at 2. clear. change (last (map (lift h) r) (lift h a) = lift h (last r a)). revert a. induction r as [|x r IH]; intros a; [reflexivity|]. cbn [map]. rewrite !last_cons. apply IH. }
  rewrite Bl in A2', A3'.
  assert (K0 : ca2 cent0 = 0 /\ ca3 cent0 = 0) by (split; unfold ca2, ca3, cent0; cbn [c_a2 c_a3]; rcbn; reflexivity).
  destruct K0 as (K2 & K3). rewrite K2 in A2, A2'. rewrite K3 in A3, A3'.
  assert (A2z : ca2 (cent_sum cent0 (a :: r)) = 0) by (rewrite A2; ring).
  assert (A3z : ca3 (cent_sum cent0 (a :: r)) = 0) by (rewrite A3; ring).
  assert (A2z' : ca2 (cent_sum cent0 (map (lift h) (a :: r))) = 0) by (etransitivity; [exact A2'|ring]).
  assert (A3z' : ca3 (cent_sum cent0 (map (lift h) (a :: r))) = 0) by (etransitivity; [exact A3'|ring]).
  exists (cent_finish (cent_sum cent0 (a :: r)) a). split; [reflexivity|].
  destruct (cent_lift h (a :: r) cent0 cent0 eq_refl eq_refl eq_refl) as (Ca & Cx & Cy).
  assert (La : Z3 a = z) by exact (Forall_inv L).
  rewrite (finish_flat _ a A2z A3z). split.
  - cbn zeta. destruct (almostZero _); exact La.
  - change (findCentroid (map (lift h) (a :: r))) with (Ok (cent_finish (cent_sum cent0 (map (lift h) (a :: r))) (lift h a))).
    rewrite (finish_flat _ _ A2z' A3z'). cbn zeta. rewrite <- Ca, <- Cx, <- Cy. destruct (almostZero _); reflexivity.
Qed.

(** crossings with a vertical plane *)
Lemma isect_lift (pl : Rplane) h a b : vz (pl_n pl) = 0 ->
  intersectSegment pl (lift h a) (lift h b) = option_map (lift h) (intersectSegment pl a b).
Proof.
  intros V. pose proof (isect_spec pl a b) as S. destruct (intersectSegment pl a b) as [q|].
  - destruct S as (S1 & S2 & ->). cbn [option_map]. rewrite (isect_some pl (lift h a) (lift h b)); rewrite ?lift_sd by exact V; auto.
    f_equal. unfold cut. rewrite !lift_sd by exact V. apply pt_ext; unfold along, lift; pt; cbn [px py pz]; rcbn; ring.
  - cbn [option_map]. apply isect_none. rewrite !lift_sd by exact V. exact S.
Qed.
Lemma ipcw_lift (pl : Rplane) h cp (v : Rvector) : vz (pl_n pl) = 0 -> vz v = 0 -> forall pts,
  ipcw_loop pl (lift h cp) v (map (lift h) pts) = option_map (lift h) (ipcw_loop pl cp v pts).
Proof.
  intros V W. induction pts as [|a [|b r] IH]; [reflexivity|reflexivity|].
  change (ipcw_loop pl (lift h cp) v (map (lift h) (a :: b :: r))) with
    (match intersectSegment pl (lift h a) (lift h b) with
     | Some q => if codirected (vectorTo (lift h cp) q) v then Some q else ipcw_loop pl (lift h cp) v (map (lift h) (b :: r))
     | None => ipcw_loop pl (lift h cp) v (map (lift h) (b :: r))
     end).
  change (ipcw_loop pl cp v (a :: b :: r)) with
    (match intersectSegment pl a b with
     | Some q => if codirected (vectorTo cp q) v then Some q else ipcw_loop pl cp v (b :: r)
     | None => ipcw_loop pl cp v (b :: r)
     end).
  rewrite isect_lift by exact V. destruct (intersectSegment pl a b) as [q|]; cbn [option_map]; [|exact IH].
  replace (codirected (vectorTo (lift h cp) (lift h q)) v) with (codirected (vectorTo cp q) v).
  - destruct (codirected (vectorTo cp q) v); [reflexivity|exact IH].
  - unfold codirected. f_equal. unfold dot, vectorTo, lift. cbn [vx vy vz px py pz]. rewrite W. unfold X, Y. rcbn. ring.
Qed.

Lemma hole_lift h c (p : Rpath) : hole_path (lift h c) (map (lift h) p) = hole_path c p.
Proof.
  destruct p as [|a [|b r]]; [reflexivity|reflexivity|]. cbn [map hole_path]. unfold codirected. f_equal.
  unfold dot, cross, vectorTo, lift, axisZ, X, Y, Z3. cbn [vx vy vz px py pz]. rcbn. ring.
Qed.

Lemma vert (v : Rvector) : vz v = 0 -> vz (cross v (axisZ (A := ArithR))) = 0.
Proof. intros E. unfold cross, axisZ. cbn [vx vy vz]. rcbn. ring. Qed.

Lemma not_steep h (q : Rpoint) : 0 < h -> ~ 40 < angle (axisZ (A := ArithR)) (vectorTo q (lift h q)).
Proof.
  intros H K.
  assert (E : vectorTo q (lift h q) = rv 0 0 h) by (unfold vectorTo, lift, X, Y, Z3; cbn [px py pz]; rcbn; apply v3_eq; ring).
  rewrite E in K. apply steep_R in K; [|exact H].
  replace (0 * 0 + 0 * 0) with 0 in K by ring. rewrite sqrt_0 in K.
  assert (0 < tan (deg 40)).
  { unfold tan. pose proof cos40_pos as (C & _). pose proof PI_RGT_0. apply Rmult_lt_0_compat; [apply sin_gt_0; unfold deg; lra|now apply Rinv_0_lt_compat]. }
  pose proof (Rmult_lt_0_compat _ _ H0 H). lra.
Qed.

Lemma upright_angles (h z : R) (c : Rpoint) (p : Rpath) : 0 < h -> level z p -> comes_back p -> forall k j,
  fail_angles (A := ArithR) k (Z.of_nat j) (dir j) (lift h c) (map (lift h) p) p = Ok [].
Proof.
  intros H L B. destruct (centroid_lift z h p L B) as (cc & C1 & _ & C2).
  induction k as [|k IH]; intros j; [reflexivity|]. cbn [fail_angles].
  rewrite dir_S. replace (Z.of_nat j + 1)%Z with (Z.of_nat (S j)) by lia. rewrite IH.
  unfold intersectPathCodirectedWith. rewrite C1, C2. cbn [rbind].
  rewrite (ipcw_lift (Pl (lift h c) (cross (dir j) axisZ)) h cc (dir j)); [|apply vert; reflexivity|reflexivity].
  destruct (ipcw_loop _ cc (dir j) p) as [q|]; cbn [option_map rbind]; [|reflexivity].
  unfold failAngle. rcbn. destruct (Rltb_spec 40 (angle (axisZ (A := ArithR)) (vectorTo q (lift h q)))) as [K|K]; [|reflexivity].
  exfalso. exact (not_steep h q H K).
Qed.

Lemma flat_none (cp cc : Rpoint) (v : Rvector) : forall p : Rpath, ipcw_loop (Pl cp (cross (rv 0 0 0) (axisZ (A := ArithR)))) cc v p = None.
Proof.
  induction p as [|a [|b r] IH]; [reflexivity|reflexivity|].
  change (match intersectSegment (Pl cp (cross (rv 0 0 0) (axisZ (A := ArithR)))) a b with
     | Some q => if codirected (vectorTo cc q) v then Some q else ipcw_loop (Pl cp (cross (rv 0 0 0) (axisZ (A := ArithR)))) cc v (b :: r)
     | None => ipcw_loop (Pl cp (cross (rv 0 0 0) (axisZ (A := ArithR)))) cc v (b :: r)
     end = None).
  rewrite isect_none; [exact IH|]. left. unfold sd, cross, rv, axisZ. cbn [pl_n pl_p vx vy vz]. rcbn. ring.
Qed.

Lemma upright_path (prevL : @layer ArithR) (h z : R) (p : Rpath) (c : Rpoint) : 0 < h -> level z p -> comes_back p ->
  Forall comes_back (l_paths prevL) -> findCentroid p = Ok c ->
  (~ hole c p -> under (lift h c) (l_paths prevL) p \/ exists r, l_paths prevL = p :: r /\ nothing_under (lift h c) (l_paths prevL)) ->
  fail_path prevL (map (lift h) p) = Ok None.
Proof.
  intros H L B F C K. destruct (centroid_lift z h p L B) as (cc & C1 & _ & C2).
  rewrite C in C1. injection C1 as <-. unfold fail_path. rewrite C2. cbn [rbind]. rewrite hole_lift.
  destruct (hole_path c p) eqn:Hp; [reflexivity|]. apply hole_not in Hp. destruct (K Hp) as [U|(r & E & U)].
  - rewrite (find_prev_under _ _ _ U). cbn [rbind]. rewrite dir_0. change 0%Z with (Z.of_nat 0).
    rewrite (upright_angles h z c p H L B). reflexivity.
  - assert (N : findPrevPath (lift h c) (l_paths prevL) = Ok None).
    { clear -U. unfold nothing_under in U. induction U as [|x l (cx & Cx & D) U IH]; [reflexivity|].
      cbn [findPrevPath]. rewrite Cx. cbn [rbind]. destruct (hole_path cx x) eqn:Hx; [exact IH|]. apply hole_not in Hx. destruct D as [D|D]; [contradiction|]. rewrite D. exact IH. }
    rewrite N. cbn [rbind]. rewrite E, C. cbn [rbind].
    assert (Ev : projectOnPlane (vectorTo c (lift h c)) (planeXY (A := ArithR)) = rv 0 0 0).
    { unfold vectorTo, lift, X, Y, Z3. cbn [px py pz]. rcbn. rewrite flat_proj. apply v3_eq; ring. }
    rewrite Ev. unfold intersectPathCodirectedWith. rewrite C. cbn [rbind]. rewrite flat_none. reflexivity.
Qed.
