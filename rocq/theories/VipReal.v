(** * Directions of cut planes, the turns of the bed, angles on the ring: exact arithmetic *)
From Coq Require Import String ZArith Reals List Bool PeanoNat Lia Lra Permutation Sorted.
From Flocq Require Import Core.Raux.
From Verif Require Import Arith ArithR Prim Path Helpers Gcode Slicer Fill Vip VipClaims VipProofs GeomSpec HelperClaims.
Import ListNotations.
Close Scope num_scope.
Close Scope string_scope.
Close Scope Z_scope.
Open Scope R_scope.

Definition rv (a b c : R) : Rvector := V3 (A := ArithR) a b c.
Definition rp (a b c : R) : Rpoint := P3 (A := ArithR) a b c.

Lemma v3_eq (a b c a' b' c' : R) : a = a' -> b = b' -> c = c' -> rv a b c = rv a' b' c'.
Proof. now intros -> -> ->. Qed.
Lemma p3_eq (a b c a' b' c' : R) : a = a' -> b = b' -> c = c' -> rp a b c = rp a' b' c'.
Proof. now intros -> -> ->. Qed.

Lemma sq3 : sqrt 3 * sqrt 3 = 3.
Proof. apply sqrt_sqrt. lra. Qed.
Lemma sq3_pos : 0 < sqrt 3.
Proof. apply sqrt_lt_R0. lra. Qed.

(** ** Degrees *)
Lemma rad d : toRadians (A := ArithR) d = PI * d / 180.
Proof. unfold toRadians. rcbn. reflexivity. Qed.
Lemma cos60 : cos (toRadians (A := ArithR) 60) = 1 / 2.
Proof. rewrite rad. replace (PI * 60 / 180) with (PI / 3) by field. apply cos_PI3. Qed.
Lemma sin60 : sin (toRadians (A := ArithR) 60) = sqrt 3 / 2.
Proof. rewrite rad. replace (PI * 60 / 180) with (PI / 3) by field. apply sin_PI3. Qed.
Lemma cos30 : cos (toRadians (A := ArithR) 30) = sqrt 3 / 2.
Proof. rewrite rad. replace (PI * 30 / 180) with (PI / 6) by field. apply cos_PI6. Qed.
Lemma sin30 : sin (toRadians (A := ArithR) 30) = 1 / 2.
Proof. rewrite rad. replace (PI * 30 / 180) with (PI / 6) by field. apply sin_PI6. Qed.
Lemma rad_opp (d : R) : toRadians (A := ArithR) (- d)%R = - toRadians (A := ArithR) d.
Proof. rewrite !rad. change (PI * - d / 180 = - (PI * d / 180)). field. Qed.

(** ** The heading of a horizontal vector *)
Lemma flat_proj (a b c : R) : projectOnPlane (rv a b c) (planeXY (A := ArithR)) = rv a b 0.
Proof.
  unfold planeXY, projectOnPlane, projectOn, vlen2, vadd, vopp, vscale, dot, axisZ, rv. cbn [pl_n vx vy vz].
  rcbn. destruct (Reqb _ _) eqn:Q; cbn [vx vy vz]; rcbn; rbool; try (exfalso; lra).
  apply v3_eq; field.
Qed.

Section Heading.
Variables a b r : R.
Hypothesis Hr : 0 < r.
Hypothesis Hab : a * a + b * b = r * r.

Lemma ratio_range : -1 <= a / r <= 1.
Proof.
  assert (a * a <= r * r) by (pose proof (Rle_0_sqr b); unfold Rsqr in *; lra).
  assert (- r <= a <= r). { split; nra. }
  split; apply Rmult_le_reg_r with r; try assumption; unfold Rdiv; rewrite Rmult_assoc, Rinv_l by lra; lra.
Qed.

Lemma flat_len : vlen (rv a b 0) = r.
Proof.
  unfold vlen, vlen2, rv. cbn [vx vy vz]. rcbn. replace (a * a + b * b + 0 * 0) with (Rsqr r) by (unfold Rsqr; lra).
  apply sqrt_Rsqr. lra.
Qed.

Lemma flat_angle : angle (rv a b 0) (axisX (A := ArithR)) = acos (a / r) * 180 / PI.
Proof.
  unfold angle. rewrite flat_len.
  replace (vlen (axisX (A := ArithR))) with 1.
  2: { unfold vlen, vlen2, axisX. cbn [vx vy vz]. rcbn. replace (1 * 1 + 0 * 0 + 0 * 0) with 1 by ring. now rewrite sqrt_1. }
  unfold dot, rv, axisX. cbn [vx vy vz]. rcbn.
  replace ((a * 1 + b * 0 + 0 * 0) / r / 1) with (a / r) by (field; lra).
  pose proof ratio_range. destruct (Rltb_spec (a / r) (IZR (-1))); [lra|].
  destruct (Rltb_spec 1 (a / r)); [lra|]. reflexivity.
Qed.

Lemma sin_heading : sin (acos (a / r)) = Rabs b / r.
Proof.
  rewrite sin_acos by apply ratio_range.
  replace (1 - Rsqr (a / r)) with (Rsqr (Rabs b / r)).
  - apply sqrt_Rsqr. apply Rmult_le_pos; [apply Rabs_pos|]. left. now apply Rinv_0_lt_compat.
  - unfold Rsqr, Rdiv. replace (Rabs b * / r * (Rabs b * / r)) with (Rabs b * Rabs b * / r * / r) by ring.
    rewrite <- Rabs_mult, (Rabs_pos_eq (b * b)) by (apply Rle_0_sqr).
    replace (b * b) with (r * r - a * a) by lra. field. lra.
Qed.
Lemma cos_heading : cos (acos (a / r)) = a / r.
Proof. apply cos_acos, ratio_range. Qed.

Lemma rad_plus (d : R) : toRadians (A := ArithR) (acos (a / r) * 180 / PI + d)%R = acos (a / r) + toRadians (A := ArithR) d.
Proof. rewrite !rad. change (PI * (acos (a / r) * 180 / PI + d) / 180 = acos (a / r) + PI * d / 180). field. apply PI_neq0. Qed.

Lemma cos_plus90 : cos (toRadians (A := ArithR) (acos (a / r) * 180 / PI + 90)%R) = - (Rabs b / r).
Proof.
  rewrite rad_plus, rad. replace (PI * 90 / 180) with (PI / 2) by field.
  rewrite cos_plus, cos_PI2, sin_PI2, sin_heading. ring.
Qed.
Lemma sin_plus90 : sin (toRadians (A := ArithR) (acos (a / r) * 180 / PI + 90)%R) = a / r.
Proof.
  rewrite rad_plus, rad. replace (PI * 90 / 180) with (PI / 2) by field.
  rewrite sin_plus, cos_PI2, sin_PI2, cos_heading. ring.
Qed.
Lemma cos_minus90 : cos (toRadians (A := ArithR) (acos (a / r) * 180 / PI - 90)%R) = Rabs b / r.
Proof.
  unfold Rminus. rewrite rad_plus, rad_opp, rad. replace (PI * 90 / 180) with (PI / 2) by field.
  rewrite cos_plus, cos_neg, sin_neg, cos_PI2, sin_PI2, sin_heading. ring.
Qed.
Lemma sin_minus90 : sin (toRadians (A := ArithR) (acos (a / r) * 180 / PI - 90)%R) = - (a / r).
Proof.
  unfold Rminus. rewrite rad_plus, rad_opp, rad. replace (PI * 90 / 180) with (PI / 2) by field.
  rewrite sin_plus, cos_neg, sin_neg, cos_PI2, sin_PI2, cos_heading. ring.
Qed.
End Heading.

(** ** Rotations *)
Lemma rotZ_eq (a b c d : R) : vrotate (rv a b c) (rotationAroundZ (A := ArithR) d) =
  rv (a * cos (toRadians (A := ArithR) d) + b * sin (toRadians (A := ArithR) d))
     (- a * sin (toRadians (A := ArithR) d) + b * cos (toRadians (A := ArithR) d)) c.
Proof.
  unfold vrotate, rotationAroundZ, dot, rv. cbn [rm_x rm_y rm_z vx vy vz]. rcbn. apply v3_eq; ring.
Qed.
Lemma rotX_eq (a b c d : R) : vrotate (rv a b c) (rotationAroundX (A := ArithR) d) =
  rv a (b * cos (toRadians (A := ArithR) d) + c * sin (toRadians (A := ArithR) d))
     (- b * sin (toRadians (A := ArithR) d) + c * cos (toRadians (A := ArithR) d)).
Proof.
  unfold vrotate, rotationAroundX, dot, rv. cbn [rm_x rm_y rm_z vx vy vz]. rcbn. apply v3_eq; ring.
Qed.

(** the bed turned by the heading and tilted levels the plane iff its normal has y >= 0 *)
Lemma level_iff (x y : R) p : x * x + y * y = 3 / 4 ->
  vrotate (vrotate (rv x y (1 / 2)) (rotationAroundZ (heading (Pl (A := ArithR) p (rv x y (1 / 2))))))
          (rotationAroundX (angleX (A := ArithR))) = axisZ (A := ArithR) <-> 0 <= y.
Proof.
  intros H. pose proof sq3 as S. pose proof sq3_pos as SP.
  unfold heading. cbn [pl_n]. rewrite flat_proj.
  set (r := sqrt 3 / 2). assert (Hr : 0 < r) by (unfold r; lra).
  assert (Hab : x * x + y * y = r * r) by (unfold r; lra).
  rewrite (flat_angle x y r Hr Hab). unfold angleX. rcbn. rewrite rotZ_eq, rotX_eq.
  rewrite (cos_plus90 x y r Hr Hab), (sin_plus90 x y r Hr Hab), cos60, sin60. fold r.
  unfold axisZ. rcbn. fold (rv 0 0 1).
  split.
  - intros E. injection E as E1 E2 E3. destruct (Rle_lt_dec 0 y) as [|Ny]; [assumption|exfalso].
    rewrite (Rabs_left y Ny) in E3.
    assert (E4 : (x * x - y * y) + 1 / 4 = 1).
    { etransitivity; [|exact E3]. field. lra. }
    assert (y * y = 0) by lra. assert (y = 0) by (apply Rsqr_0_uniq; exact H0). lra.
  - intros Py. rewrite (Rabs_pos_eq y Py).
    apply v3_eq.
    + field. lra.
    + replace ((- x * (x / r) + y * - (y / r)) * (1 / 2) + 1 / 2 * r) with (1 / 2 * (r * r - (x * x + y * y)) / r) by (field; lra).
      rewrite Hab. field. lra.
    + replace (- (- x * (x / r) + y * - (y / r)) * r + 1 / 2 * (1 / 2)) with ((x * x + y * y) + 1 / 4) by (field; lra).
      lra.
Qed.

(** ** Planes read from a file *)
Lemma read_flat (t : R) : read_normal (A := ArithR) false t = axisZ (A := ArithR).
Proof.
  unfold read_normal, rotateAbout, projectOn. 
  assert (E1 : vlen2 (axisZ (A := ArithR)) = 1) by (unfold vlen2, axisZ; cbn [vx vy vz]; rcbn; ring).
  assert (E2 : dot (axisZ (A := ArithR)) (axisZ (A := ArithR)) = 1) by (unfold dot, axisZ; cbn [vx vy vz]; rcbn; ring).
  rewrite E1, E2. rcbn. destruct (Reqb_spec 1 0); [lra|].
  assert (E3 : vscale (axisZ (A := ArithR)) (1)%R = rv 0 0 1).
  { unfold vscale, axisZ. cbn [vx vy vz]. rcbn. apply v3_eq; field. }
  rewrite E3. 
  assert (E4 : vsub (axisZ (A := ArithR)) (rv 0 0 1) = rv 0 0 0).
  { unfold vsub, axisZ, rv. cbn [vx vy vz]. rcbn. apply v3_eq; ring. }
  rewrite E4.
  assert (E5 : cross (axisZ (A := ArithR)) (rv 0 0 0) = rv 0 0 0).
  { unfold cross, axisZ, rv. cbn [vx vy vz]. rcbn. apply v3_eq; ring. }
  rewrite E5.
  assert (E6 : vlen (rv 0 0 0) = 0).
  { unfold vlen, vlen2, rv. cbn [vx vy vz]. rcbn. replace (0 * 0 + 0 * 0 + 0 * 0) with 0 by ring. apply sqrt_0. }
  rewrite E6. unfold vadd, vscale, normalize. rewrite E6. rcbn. destruct (Reqb_spec 0 0); [|lra].
  unfold axisZ, rv. cbn [vx vy vz]. rcbn. apply v3_eq; ring.
Qed.

Lemma read_tilted (t : R) : read_normal (A := ArithR) true t =
  rv (- (sqrt 3 / 2) * sin (toRadians (A := ArithR) t)) (sqrt 3 / 2 * cos (toRadians (A := ArithR) t)) (1 / 2).
Proof.
  pose proof sq3 as S. pose proof sq3_pos as SP.
  unfold read_normal.
  assert (E : rotateAbout (axisZ (A := ArithR)) (axisX (A := ArithR)) (- angleX (A := ArithR))%num = rv 0 (sqrt 3 / 2) (1 / 2)).
  { unfold rotateAbout, projectOn, angleX. rcbn. rewrite rad_opp, cos_neg, sin_neg, cos60, sin60.
    assert (E1 : vlen2 (axisX (A := ArithR)) = 1) by (unfold vlen2, axisX; cbn [vx vy vz]; rcbn; ring).
    assert (E2 : dot (axisX (A := ArithR)) (axisZ (A := ArithR)) = 0) by (unfold dot, axisX, axisZ; cbn [vx vy vz]; rcbn; ring).
    rewrite E1, E2. rcbn. destruct (Reqb_spec 1 0); [lra|].
    assert (E3 : vscale (axisX (A := ArithR)) (0)%R = rv 0 0 0).
    { unfold vscale, axisX. cbn [vx vy vz]. rcbn. apply v3_eq; field. }
    rewrite E3.
    assert (E4 : vsub (axisZ (A := ArithR)) (rv 0 0 0) = rv 0 0 1).
    { unfold vsub, axisZ, rv. cbn [vx vy vz]. rcbn. apply v3_eq; ring. }
    rewrite E4.
    assert (E5 : cross (axisX (A := ArithR)) (rv 0 0 1) = rv 0 (-1) 0).
    { unfold cross, axisX, rv. cbn [vx vy vz]. rcbn. apply v3_eq; ring. }
    rewrite E5.
    assert (E6 : vlen (rv 0 0 1) = 1).
    { unfold vlen, vlen2, rv. cbn [vx vy vz]. rcbn. replace (0 * 0 + 0 * 0 + 1 * 1) with 1 by ring. apply sqrt_1. }
    assert (E7 : vlen (rv 0 (-1) 0) = 1).
    { unfold vlen, vlen2, rv. cbn [vx vy vz]. rcbn. replace (0 * 0 + -1 * -1 + 0 * 0) with 1 by ring. apply sqrt_1. }
    rewrite E6. unfold vadd, vscale, normalize. rewrite E7. rcbn. destruct (Reqb_spec 1 0); [lra|].
    unfold rv. cbn [vx vy vz]. rcbn. apply v3_eq; field. }
  rewrite E. clear E.
  unfold rotateAbout, projectOn.
  assert (E1 : vlen2 (axisZ (A := ArithR)) = 1) by (unfold vlen2, axisZ; cbn [vx vy vz]; rcbn; ring).
  assert (E2 : dot (axisZ (A := ArithR)) (rv 0 (sqrt 3 / 2) (1 / 2)) = 1 / 2) by (unfold dot, rv, axisZ; cbn [vx vy vz]; rcbn; ring).
  rewrite E1, E2. rcbn. destruct (Reqb_spec 1 0); [lra|].
  assert (E3 : vscale (axisZ (A := ArithR)) (1 / 2 / 1)%R = rv 0 0 (1 / 2)).
  { unfold vscale, axisZ. cbn [vx vy vz]. rcbn. apply v3_eq; field. }
  rewrite E3.
  assert (E4 : vsub (rv 0 (sqrt 3 / 2) (1 / 2)) (rv 0 0 (1 / 2)) = rv 0 (sqrt 3 / 2) 0).
  { unfold vsub, rv. cbn [vx vy vz]. rcbn. apply v3_eq; ring. }
  rewrite E4.
  assert (E5 : cross (axisZ (A := ArithR)) (rv 0 (sqrt 3 / 2) 0) = rv (- (sqrt 3 / 2)) 0 0).
  { unfold cross, axisZ, rv. cbn [vx vy vz]. rcbn. apply v3_eq; ring. }
  rewrite E5.
  assert (E6 : vlen (rv 0 (sqrt 3 / 2) 0) = sqrt 3 / 2).
  { apply flat_len; lra. }
  assert (E7 : vlen (rv (- (sqrt 3 / 2)) 0 0) = sqrt 3 / 2).
  { apply flat_len; lra. }
  rewrite E6. unfold vadd, vscale, normalize. rewrite E7. rcbn. destruct (Reqb_spec (sqrt 3 / 2) 0); [lra|].
  unfold rv. cbn [vx vy vz]. rcbn. apply v3_eq; field; lra.
Qed.

Lemma read_level (b : bool) (t : R) :
  vrotate (vrotate (read_normal (A := ArithR) b t) (rotationAroundZ (A := ArithR) t))
          (rotationAroundX (A := ArithR) (if b then Ropp 60 else 0)%R) = axisZ (A := ArithR).
Proof.
  pose proof sq3 as S. pose proof (sin2_cos2 (toRadians (A := ArithR) t)) as SC. unfold Rsqr in SC.
  unfold axisZ at 1. rcbn. destruct b.
  - rewrite read_tilted, rotZ_eq, rotX_eq, rad_opp, cos_neg, sin_neg, cos60, sin60. fold (rv 0 0 1).
    set (s := sin _) in *. set (c := cos _) in *.
    apply v3_eq.
    + ring.
    + replace ((- (- (sqrt 3 / 2) * s) * s + sqrt 3 / 2 * c * c) * (1 / 2) + 1 / 2 * - (sqrt 3 / 2))
        with (sqrt 3 / 4 * (s * s + c * c - 1)) by field. rewrite SC. ring.
    + replace (- (- (- (sqrt 3 / 2) * s) * s + sqrt 3 / 2 * c * c) * - (sqrt 3 / 2) + 1 / 2 * (1 / 2))
        with (sqrt 3 * sqrt 3 / 4 * (s * s + c * c) + 1 / 4) by field. rewrite S, SC. field.
  - rewrite read_flat. unfold axisZ. rcbn. fold (rv 0 0 1). rewrite rotZ_eq, rotX_eq.
    rewrite (rad (0)%R). replace (PI * 0 / 180) with 0 by field. rewrite sin_0, cos_0. apply v3_eq; ring.
Qed.

(** ** Planes of the analyzer *)
Definition same_direction (u v : Rvector) : Prop := exists k : R, 0 < k /\ u = vscale v k.

Lemma analyzer_normal (p : Rpoint) (a b c : R) : 0 < a * a + b * b ->
  pl_n (ap_plane (tilted_plane p (rv a b c))) = rv (sqrt 3 / 2 * a) (sqrt 3 / 2 * b) (1 / 2 * sqrt (a * a + b * b)) /\
  ap_rotz (tilted_plane p (rv a b c)) = acos (a / sqrt (a * a + b * b)) * 180 / PI - 90.
Proof.
  intros Hp. set (r := sqrt (a * a + b * b)). assert (Hr : 0 < r) by now apply sqrt_lt_R0.
  assert (Hab : a * a + b * b = r * r) by (unfold r; rewrite sqrt_sqrt; lra).
  unfold tilted_plane. cbv zeta. cbn [ap_plane pl_n ap_rotz]. rewrite flat_proj. split.
  2: { rewrite (flat_angle a b r Hr Hab). rcbn. reflexivity. }
  rcbn. rewrite rotZ_eq, rad. replace (PI * 90 / 180) with (PI / 2) by field. rewrite cos_PI2, sin_PI2.
  replace (rv (a * 0 + b * 1) (- a * 1 + b * 0) 0) with (rv b (- a) 0) by (apply v3_eq; ring).
  unfold rotateAbout, projectOn, angleX. rcbn.
  replace (90 - 60) with 30 by ring. rewrite cos30, sin30.
  assert (E1 : vlen2 (rv b (- a) 0) = r * r) by (unfold vlen2, rv; cbn [vx vy vz]; rcbn; lra).
  assert (E2 : dot (rv b (- a) 0) (rv a b 0) = 0) by (unfold dot, rv; cbn [vx vy vz]; rcbn; ring).
  rewrite E1, E2. rcbn. destruct (Reqb_spec (r * r) 0) as [Q|_]; [exfalso; lra|].
  assert (E3 : vscale (rv b (- a) 0) (0 / (r * r))%R = rv 0 0 0).
  { unfold vscale, rv. cbn [vx vy vz]. rcbn. apply v3_eq; field; lra. }
  rewrite E3.
  assert (E4 : vsub (rv a b 0) (rv 0 0 0) = rv a b 0).
  { unfold vsub, rv. cbn [vx vy vz]. rcbn. apply v3_eq; ring. }
  rewrite E4.
  assert (E5 : cross (rv b (- a) 0) (rv a b 0) = rv 0 0 (r * r)).
  { unfold cross, rv. cbn [vx vy vz]. rcbn. apply v3_eq; lra. }
  rewrite E5, (flat_len a b r Hr Hab).
  assert (E7 : vlen (rv 0 0 (r * r)) = r * r).
  { unfold vlen, vlen2, rv. cbn [vx vy vz]. rcbn. replace (0 * 0 + 0 * 0 + r * r * (r * r)) with (Rsqr (r * r)) by (unfold Rsqr; ring).
    apply sqrt_Rsqr. lra. }
  unfold vadd, vscale, normalize. rewrite E7. rcbn. destruct (Reqb_spec (r * r) 0); [lra|].
  unfold rv. cbn [vx vy vz]. rcbn. apply v3_eq; field; lra.
Qed.

Lemma rebuilt_iff (p : Rpoint) (a b c : R) : 0 < a * a + b * b ->
  let q := tilted_plane p (rv a b c) in
  same_direction (pl_n (ap_plane q)) (read_normal (ap_tilted q) (ap_rotz q)) <-> 0 <= b.
Proof.
  intros Hp q. destruct (analyzer_normal p a b c Hp) as [En Er]. fold q in En, Er.
  replace (ap_tilted q) with true by reflexivity. rewrite En, Er, read_tilted.
  set (r := sqrt (a * a + b * b)) in *. assert (Hr : 0 < r) by now apply sqrt_lt_R0.
  assert (Hab : a * a + b * b = r * r) by (unfold r; rewrite sqrt_sqrt; lra).
  rewrite (sin_minus90 a b r Hr Hab), (cos_minus90 a b r Hr Hab).
  pose proof sq3_pos as SP.
  split.
  - intros (k & Hk & E). unfold vscale, rv in E. cbn [vx vy vz] in E. rcbn. injection E as E1 E2 E3.
    assert (k = r) by lra. subst k. pose proof (Rabs_pos b).
    assert (sqrt 3 / 2 * (Rabs b / r) * r = sqrt 3 / 2 * Rabs b) as E4 by (field; lra). rewrite E4 in E2.
    assert (b = Rabs b). { apply Rmult_eq_reg_l with (sqrt 3 / 2); lra. } lra.
  - intros Pb. rewrite (Rabs_pos_eq b Pb). exists r. split; [exact Hr|]. unfold vscale, rv. cbn [vx vy vz]. rcbn.
    apply v3_eq; field; lra.
Qed.

(** ** There and back *)
Lemma rotZ_back (v : Rvector) (d : R) : vrotate (vrotate v (rotationAroundZ (A := ArithR) d)) (rotationAroundZ (A := ArithR) (- d)%R) = v.
Proof.
  destruct v as [a b c]. fold (rv a b c). rewrite !rotZ_eq, rad_opp, cos_neg, sin_neg.
  pose proof (sin2_cos2 (toRadians (A := ArithR) d)) as SC. unfold Rsqr in SC.
  set (s := sin _) in *. set (k := cos _) in *. apply v3_eq.
  - replace ((a * k + b * s) * k + (- a * s + b * k) * - s) with (a * (s * s + k * k)) by ring. rewrite SC. ring.
  - replace (- (a * k + b * s) * - s + (- a * s + b * k) * k) with (b * (s * s + k * k)) by ring. rewrite SC. ring.
  - reflexivity.
Qed.
Lemma rotX_back (v : Rvector) (d : R) : vrotate (vrotate v (rotationAroundX (A := ArithR) d)) (rotationAroundX (A := ArithR) (- d)%R) = v.
Proof.
  destruct v as [a b c]. fold (rv a b c). rewrite !rotX_eq, rad_opp, cos_neg, sin_neg.
  pose proof (sin2_cos2 (toRadians (A := ArithR) d)) as SC. unfold Rsqr in SC.
  set (s := sin _) in *. set (k := cos _) in *. apply v3_eq.
  - reflexivity.
  - replace ((b * k + c * s) * k + (- b * s + c * k) * - s) with (b * (s * s + k * k)) by ring. rewrite SC. ring.
  - replace (- (b * k + c * s) * - s + (- b * s + c * k) * k) with (c * (s * s + k * k)) by ring. rewrite SC. ring.
Qed.

Lemma pt_back (rm rm' : @rotmat ArithR) (c p : Rpoint) : (forall v : Rvector, vrotate (vrotate v rm) rm' = v) ->
  pt_rotate rm' c (pt_rotate rm c p) = p.
Proof.
  intros H. unfold pt_rotate. set (v := vrotate (vectorTo c p) rm).
  assert (E : vectorTo c (v2p (vadd v (p2v c))) = v).
  { unfold vectorTo, v2p, vadd, p2v. destruct v as [a b d], c as [x y z]. cbn [px py pz vx vy vz]. rcbn. apply v3_eq; ring. }
  rewrite E. unfold v. rewrite H. destruct p as [x y z], c as [x' y' z']. unfold vectorTo, v2p, vadd, p2v. cbn [px py pz vx vy vz]. rcbn. apply p3_eq; ring.
Qed.

Lemma unturn_turn (az : R) (m : Rmesh) : Forall (fun t => t = newTriangle (t1 t) (t2 t) (t3 t)) m ->
  unturn_mesh az (turn_mesh az m) = m.
Proof.
  intros F. unfold unturn_mesh, turn_mesh, m_rotate. rewrite !map_map.
  induction F as [|t m Ht F IH]; [reflexivity|]. cbn [map]. rewrite IH. f_equal.
  assert (E : forall rm c (t : Rtriangle), t_rotate rm c t = newTriangle (pt_rotate rm c (t1 t)) (pt_rotate rm c (t2 t)) (pt_rotate rm c (t3 t))) by reflexivity.
  rewrite !E. cbn [newTriangle t1 t2 t3].
  rewrite !(pt_back _ _ originPoint _ (fun v => rotX_back v (angleX (A := ArithR)))).
  rewrite !(pt_back _ _ originPoint _ (fun v => rotZ_back v az)). now symmetry.
Qed.

(** ** Number of walls *)
Lemma walls_exact (s : @settings ArithR) : (0 <= s_wallThickness s)%R -> (0 < LineWidth (s_g s))%R ->
  addWalls s = (Zfloor (s_wallThickness s / LineWidth (s_g s)) - 1)%Z.
Proof.
  intros H1 H2. unfold addWalls. rcbn. rewrite Ztrunc_floor; [reflexivity|].
  apply Rmult_le_pos; [exact H1|]. left. now apply Rinv_0_lt_compat.
Qed.

(** ** Angles on the ring *)

(** seen from the last angle, angles more than half a turn before it are a turn further *)
Definition unwrap (B lst x : R) : R := if Rlt_dec (B / 2) (lst - x) then x + B else x.

Lemma ring_shift_R (B lst : R) : 0 < B -> forall l : list R, l <> [] -> Sorted Rle l -> last l 0 = lst ->
  ring_shift (A := ArithR) B lst l = Ok (map (unwrap B lst) l).
Proof.
  intros HB. induction l as [|x r IH]; [congruence|]. intros _ S L.
  cbn [ring_shift map]. rcbn. unfold unwrap at 1.
  destruct (Rlt_dec (B / 2) (lst - x)) as [H|H], (Rltb_spec (B / 2) (lst - x)) as [H'|H']; try lra.
  - destruct r as [|y r]; [cbn in L; exfalso; lra|]. inversion S; subst.
    rewrite IH; [reflexivity|discriminate|assumption|]. reflexivity.
  - assert (E : map (unwrap B lst) r = r).
    { clear IH L. apply Sorted_StronglySorted in S; [|intros a b c; apply Rle_trans]. inversion S as [|? ? _ F]; subst.
      clear -F H. induction F as [|y r Hy F IHF]; [reflexivity|]. cbn [map]. rewrite IHF. f_equal. unfold unwrap.
      destruct (Rlt_dec _ _); lra. }
    now rewrite E.
Qed.

Definition rsum (l : list R) : R := fold_right Rplus 0 l.
Lemma fold_rsum (l : list R) : forall a, fold_left (@nadd ArithR) l a = a + rsum l.
Proof. induction l as [|x l IH]; intros a; cbn [fold_left rsum fold_right]; [lra|]. rewrite IH. rcbn. fold (rsum l). lra. Qed.

Lemma rsum_bounds (a b : R) (l : list R) : Forall (fun x => a <= x < b) l -> l <> [] ->
  a <= rsum l / INR (length l) < b.
Proof.
  intros F N.
  assert (G : a * INR (length l) <= rsum l < b * INR (length l)).
  { destruct l as [|x l]; [congruence|]. clear N. revert x F. induction l as [|y l IH]; intros x F.
    - inversion F; subst. cbn. lra.
    - inversion F as [|? ? Hx F']; subst. specialize (IH y F'). change (rsum (x :: y :: l)) with (x + rsum (y :: l)).
      change (length (x :: y :: l)) with (S (length (y :: l))). rewrite S_INR. lra. }
  assert (P : 0 < INR (length l)). { apply lt_0_INR. destruct l; [congruence|]. cbn. lia. }
  split.
  - apply Rmult_le_reg_r with (INR (length l)); [exact P|]. unfold Rdiv. rewrite Rmult_assoc, Rinv_l by lra. lra.
  - apply Rmult_lt_reg_r with (INR (length l)); [exact P|]. unfold Rdiv. rewrite Rmult_assoc, Rinv_l by lra. lra.
Qed.

Lemma middle_R (arr : list R) (B : Z) : (0 < B)%Z -> arr <> [] -> Sorted Rle arr -> Forall (fun x => 0 <= x < IZR B) arr ->
  exists r, middleOnTheRing (A := ArithR) arr B = Ok r /\ (0 <= r < B)%Z /\
    r = Z.modulo (Zfloor (rsum (map (unwrap (IZR B) (last arr 0%R)) arr) / INR (length arr))) B.
Proof.
  intros HB N S F. apply IZR_lt in HB as HB'.
  destruct arr as [|x r]; [congruence|]. unfold middleOnTheRing.
  set (arr := x :: r) in *.
  assert (EL : last arr x = last arr 0). { now apply last_indep. }
  replace (@nofZ ArithR B) with (IZR B) by (rcbn; reflexivity).
  change (@ring_shift ArithR (IZR B) (last arr x) arr) with (@ring_shift ArithR (IZR B) (last arr x : R) arr).
  rewrite EL.
  rewrite (ring_shift_R (IZR B) (last arr 0) HB' arr N S eq_refl). cbn [rbind].
  set (u := map (unwrap (IZR B) (last arr 0)) arr).
  destruct (Z.eqb_spec B 0) as [|_]; [lia|].
  assert (LU : length u = length arr) by (unfold u; apply map_length).
  assert (FU : Forall (fun y => 0 <= y < IZR B + IZR B) u).
  { unfold u. apply Forall_map. eapply Forall_impl; [|exact F]. intros a Ha. unfold unwrap. destruct (Rlt_dec _ _); lra. }
  assert (NU : u <> []) by (unfold u, arr; cbn; discriminate).
  pose proof (rsum_bounds 0 (IZR B + IZR B) u FU NU) as [M1 M2].
  rewrite fold_rsum. rcbn. rewrite Rplus_0_l, <- INR_IZR_INZ.
  rewrite Ztrunc_floor by exact M1. rewrite LU in *.
  set (q := rsum u / INR (length arr)) in *.
  assert (0 <= Zfloor q < B + B)%Z as Hq.
  { split; [now apply Zfloor_lub|]. apply lt_IZR. rewrite plus_IZR. eapply Rle_lt_trans; [apply Zfloor_lb|exact M2]. }
  exists (Z.rem (Zfloor q) B). split; [reflexivity|]. rewrite Z.rem_mod_nonneg by lia.
  split; [apply Z.mod_pos_bound; lia|reflexivity].
Qed.

(** ** Heights after the turn *)
Lemma dot_rotZ (d : R) (u v : Rvector) :
  Vdot (vrotate u (rotationAroundZ (A := ArithR) d)) (vrotate v (rotationAroundZ (A := ArithR) d)) = Vdot u v.
Proof.
  destruct u as [a b c], v as [a' b' c']. fold (rv a b c) (rv a' b' c'). rewrite !rotZ_eq. unfold Vdot, rv. cbn [vx vy vz].
  pose proof (sin2_cos2 (toRadians (A := ArithR) d)) as SC. unfold Rsqr in SC. set (si := sin _) in *. set (co := cos _) in *. rcbn.
  transitivity (a * a' * (si * si + co * co) + b * b' * (si * si + co * co) + c * c')%R; [ring|]. rewrite SC. ring.
Qed.
Lemma dot_rotX (d : R) (u v : Rvector) :
  Vdot (vrotate u (rotationAroundX (A := ArithR) d)) (vrotate v (rotationAroundX (A := ArithR) d)) = Vdot u v.
Proof.
  destruct u as [a b c], v as [a' b' c']. fold (rv a b c) (rv a' b' c'). rewrite !rotX_eq. unfold Vdot, rv. cbn [vx vy vz].
  pose proof (sin2_cos2 (toRadians (A := ArithR) d)) as SC. unfold Rsqr in SC. set (si := sin _) in *. set (co := cos _) in *. rcbn.
  transitivity (a * a' + b * b' * (si * si + co * co) + c * c' * (si * si + co * co))%R; [ring|]. rewrite SC. ring.
Qed.
(** relative to the centre of the rotation *)
Lemma rot_about (rm : @rotmat ArithR) (c r : Rpoint) : vectorTo c (pt_rotate rm c r) = vrotate (vectorTo c r) rm.
Proof.
  unfold pt_rotate. destruct (vrotate (vectorTo c r) rm) as [a b d], c as [x y z]. unfold vectorTo, v2p, vadd, p2v. cbn [px py pz vx vy vz].
  rcbn. apply v3_eq; ring.
Qed.
(** the point becomes as high above [p] as it was above the plane *)
Lemma height_after (c p q : Rpoint) (n : Rvector) (az ax : R) :
  vrotate (vrotate n (rotationAroundZ (A := ArithR) az)) (rotationAroundX (A := ArithR) ax) = rv 0 0 1 ->
  let turn r := pt_rotate (rotationAroundX (A := ArithR) ax) c (pt_rotate (rotationAroundZ (A := ArithR) az) c r) in
  Z3 (turn q) - Z3 (turn p) = sd (Pl p n) q.
Proof.
  intros L turn.
  assert (H : forall r, Z3 (turn r) - Z3 c = Vdot (vectorTo c r) n).
  { intros r. rewrite <- (dot_rotZ az), <- (dot_rotX ax), L. unfold turn. rewrite <- !rot_about.
    set (t := pt_rotate _ _ _). unfold Vdot, vectorTo, Z3, rv. cbn [vx vy vz]. rcbn. ring. }
  replace (Z3 (turn q) - Z3 (turn p)) with ((Z3 (turn q) - Z3 c) - (Z3 (turn p) - Z3 c)) by ring. rewrite !H.
  destruct q as [a b d], p as [a' b' d'], c as [x y z], n as [u v w]. unfold sd, Vdot, vectorTo, X, Y, Z3. cbn [px py pz vx vy vz pl_p pl_n].
  rcbn. ring.
Qed.
