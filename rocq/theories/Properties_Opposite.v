(** * C118 The slicers of package vip disagree on the direction of the tilt *)
From Coq Require Import Reals Lra Lia List Bool ZArith PeanoNat.
From Verif Require Import Arith ArithR Prim Path GeomSpec GeomProofs Helpers Gcode GcodeClaims
  Slicer SlicerClaims Fill Vip VipClaims VipProofs VipReal VipMore Properties_Vip SidesProofs.
From Verif Require ArithF64 Examples_Vip.
Import ListNotations.
Close Scope Z_scope.
Close Scope num_scope.
Local Open Scope R_scope.

(** ** The commands *)
(** Without a planes file the bed is rotated to the heading of the plane where the overhang
    begins, and tilted by the same command as with one (C51). *)
Theorem C118_commands : forall (A : Arith) fuel U m (s : settings) layers g k np,
  (first_fail calculateFails 1 layers = Ok (Some (k, np)) /\ sliceDefault2 fuel U m s layers = Ok g \/
   first_fail failExistBridge 1 layers = Ok (Some (k, np)) /\ sliceBridge U m s layers = Ok g) ->
  exists before after, g_cmds g = before ++ RotateZ (nadd (angle (projectOnPlane (pl_n np) planeXY) axisX) (nofZ 90)) :: InclineX :: after /\
    Forall (fun c => exists ls, c = LayersMoving ls) before.
Proof.
  intros A fuel U m s layers g k np [[E H]|[E H]].
  - unfold sliceDefault2 in H. destruct (calcFillPlanes m s) as [fp ff]. destruct fuel as [|fuel]; [discriminate|]. cbn [default_loop] in H. rewrite E in H. cbn [rbind] in H.
    destruct (cutMesh _ _ _) as [[up down]| |]; try discriminate. cbn [rbind] in H.
    destruct (sliceByVector U down axisZ s) as [add| |]; try discriminate. cbn [rbind] in H.
    destruct (prepareLayers U add s fp ff) as [fl| |]; try discriminate. cbn [rbind] in H.
    destruct (sliceByVector U _ axisZ s) as [ls| |] in H; try discriminate. cbn [rbind] in H.
    apply default_alternates in H. destruct H as (cs & H & _). unfold g_addLayers, g_add, newGcode in H. cbn [g_cmds app] in H.
    exists [LayersMoving fl], cs. split; [exact H|]. constructor; [eauto|constructor].
  - unfold sliceBridge in H. destruct (calcFillPlanes m s) as [fp ff]. rewrite E in H. cbn [rbind] in H. cbv zeta in H.
    destruct (prepareLayers U _ s fp ff) as [l1| |] in H; try discriminate. cbn [rbind] in H.
    destruct (layer_point _ _) in H; try discriminate. cbn [rbind] in H.
    destruct (cutMesh _ m _) as [[m1 ?]| |] in H; try discriminate. cbn [rbind] in H.
    destruct (cutMesh _ m1 _) as [[m2 ?]| |] in H; try discriminate. cbn [rbind] in H.
    destruct (sliceByVector U _ axisZ s) in H; try discriminate. cbn [rbind] in H.
    destruct (prepareLayers U _ s fp ff) as [l2| |] in H; try discriminate. cbn [rbind] in H.
    destruct (sliceByVector U _ axisZ s) in H; try discriminate. cbn [rbind] in H.
    destruct (prepareLayers U _ s _ _) as [l3| |] in H; try discriminate. cbn [rbind] in H. injection H as <-.
    eexists [LayersMoving l1; LayersMoving l2], _. split; [reflexivity|]. repeat constructor; eauto.
Qed.

(** ** The directions *)
(** For the plane that a planes file gives with the rotation [rz] (and whose normal has y >= 0,
    where both are right about the model, C54 and C66): both turns take the plane to a level one,
    but the headings are opposite, and at the heading of the one the tilt assumed by the other
    puts the plane upside down, inclined by 120 degrees. *)
Theorem C118_opposite : forall (p : Rpoint) (rz : R),
  let n := read_normal (A := ArithR) true rz in
  let a := heading (Pl p n) in
  (0 <= vy n)%R ->
  let d (x : R) := (PI * x / 180)%R in
  cos (d a) = - cos (d rz) /\ sin (d a) = - sin (d rz) /\
  vrotate (vrotate n (rotationAroundZ a)) (rotationAroundX angleX) = rv 0 0 1 /\
  vrotate (vrotate n (rotationAroundZ rz)) (rotationAroundX (nopp angleX)) = rv 0 0 1 /\
  vz (vrotate (vrotate n (rotationAroundZ rz)) (rotationAroundX angleX)) = (- (1 / 2))%R /\
  vz (vrotate (vrotate n (rotationAroundZ a)) (rotationAroundX (nopp angleX))) = (- (1 / 2))%R.
Proof.
  intros p rz n a Hy d. pose proof sq3 as S. pose proof sq3_pos as SP.
  pose proof (sin2_cos2 (toRadians (A := ArithR) rz)) as SC. unfold Rsqr in SC.
  assert (En : n = rv (- (sqrt 3 / 2) * sin (toRadians (A := ArithR) rz)) (sqrt 3 / 2 * cos (toRadians (A := ArithR) rz)) (1 / 2)) by apply read_tilted.
  assert (D : forall x, d x = toRadians (A := ArithR) x) by (intros x; unfold d; now rewrite rad).
  set (sn := sin (toRadians (A := ArithR) rz)) in *. set (cs := cos (toRadians (A := ArithR) rz)) in *.
  set (r := sqrt 3 / 2) in *. assert (Hr : 0 < r) by (unfold r; lra).
  assert (R2 : r * r = 3 / 4) by (unfold r; lra).
  assert (Hab : (- r * sn) * (- r * sn) + (r * cs) * (r * cs) = r * r).
  { replace ((- r * sn) * (- r * sn) + (r * cs) * (r * cs)) with (r * r * (sn * sn + cs * cs)) by ring. rewrite SC. ring. }
  assert (Hy' : 0 <= r * cs) by (rewrite En in Hy; exact Hy). 
  assert (Cs : 0 <= cs). { destruct (Rle_dec 0 cs) as [L|L]; [exact L|]. exfalso. assert (cs < 0) by lra. nra. }
  assert (Ea : a = (acos ((- r * sn) / r) * 180 / PI + 90)%R).
  { unfold a, heading. cbn [pl_n]. rewrite En, flat_proj, (flat_angle _ _ r Hr Hab). rcbn. reflexivity. }
  assert (Ca : cos (toRadians (A := ArithR) a) = - cs).
  { rewrite Ea, (cos_plus90 _ _ r Hr Hab), Rabs_pos_eq by exact Hy'. field. lra. }
  assert (Sa : sin (toRadians (A := ArithR) a) = - sn).
  { rewrite Ea, (sin_plus90 _ _ r Hr Hab). field. lra. }
  rewrite !D. fold sn cs.
  assert (C60 : cos (toRadians (A := ArithR) (nopp (Arith := ArithR) angleX)) = 1 / 2) by (unfold angleX; rcbn; rewrite rad_opp, cos_neg; apply cos60).
  assert (S60 : sin (toRadians (A := ArithR) (nopp (Arith := ArithR) angleX)) = - r) by (unfold angleX; rcbn; rewrite rad_opp, sin_neg, sin60; reflexivity).
  assert (C6 : cos (toRadians (A := ArithR) angleX) = 1 / 2) by (unfold angleX; rcbn; apply cos60).
  assert (S6 : sin (toRadians (A := ArithR) angleX) = r) by (unfold angleX; rcbn; apply sin60).
  split; [exact Ca|]. split; [exact Sa|]. rewrite En.
  assert (Za : vrotate (rv (- r * sn) (r * cs) (1 / 2)) (rotationAroundZ (A := ArithR) a) = rv 0 (- r) (1 / 2)).
  { rewrite rotZ_eq, Ca, Sa. apply v3_eq; [ring| |reflexivity]. replace (- (- r * sn) * - sn + r * cs * - cs) with (- r * (sn * sn + cs * cs)) by ring. rewrite SC. ring. }
  assert (Zr : vrotate (rv (- r * sn) (r * cs) (1 / 2)) (rotationAroundZ (A := ArithR) rz) = rv 0 r (1 / 2)).
  { rewrite rotZ_eq. fold sn cs. apply v3_eq; [ring| |reflexivity]. replace (- (- r * sn) * sn + r * cs * cs) with (r * (sn * sn + cs * cs)) by ring. rewrite SC. ring. }
  rewrite Za, Zr, !rotX_eq, C60, S60, C6, S6. unfold rv at 3 4 5 6. cbn [vz].
  repeat split; try (apply v3_eq; lra); cbn [vz]; lra.
Qed.

(** ** The heights *)
(** where the two kinds of slicers put a point of the model, with the bed rotated to [a] and tilted *)
Definition by_overhang (a : R) (q : Rpoint) : Rpoint :=
  pt_rotate (rotationAroundX (angleX (A := ArithR))) originPoint (pt_rotate (rotationAroundZ (A := ArithR) a) originPoint q).
Definition by_planes (c : Rpoint) (a : R) (q : Rpoint) : Rpoint :=
  pt_rotate (rotationAroundX (nopp (Arith := ArithR) angleX)) c (pt_rotate (rotationAroundZ (A := ArithR) a) c q).
Lemma by_overhang_mesh a m : vertices (turn_mesh (A := ArithR) a m) = map (by_overhang a) (vertices m).
Proof. unfold turn_mesh. rewrite !vertices_rotate, map_map. reflexivity. Qed.
Lemma by_planes_mesh c a m : vertices (inclined c true (turned c a m)) = map (by_planes c a) (vertices m).
Proof. unfold inclined, turned. rewrite !vertices_rotate, map_map. reflexivity. Qed.

Lemma rotate_vector (c q : Rpoint) rm : vectorTo c (pt_rotate rm c q) = vrotate (vectorTo c q) rm.
Proof.
  unfold pt_rotate. set (v := vrotate _ _). destruct v as [u v w]. unfold vectorTo, v2p, vadd, p2v. cbn [px py pz vx vy vz]. rcbn. apply v3_eq; ring.
Qed.
Lemma turn_z (a b : R) (c q : Rpoint) : Z3 (pt_rotate (rotationAroundX (A := ArithR) b) c (pt_rotate (rotationAroundZ (A := ArithR) a) c q)) =
  Z3 c + (- (- (X q - X c) * sin (toRadians (A := ArithR) a) + (Y q - Y c) * cos (toRadians (A := ArithR) a)) * sin (toRadians (A := ArithR) b)
          + (Z3 q - Z3 c) * cos (toRadians (A := ArithR) b)).
Proof.
  unfold pt_rotate at 1. rewrite rotate_vector. 
  assert (E : vectorTo c q = rv (X q - X c) (Y q - Y c) (Z3 q - Z3 c)) by (unfold vectorTo; rcbn; reflexivity).
  rewrite E, rotZ_eq, rotX_eq. unfold v2p, vadd, p2v, rv, Z3 at 1. cbn [pz vz]. rcbn. unfold Z3. ring.
Qed.

(** at the same bed angles the two differences of height of two points add up to the difference
    in the model: they agree only if both are half of it *)
Theorem C118_heights : forall (a : R) (c q q0 : Rpoint),
  ((Z3 (by_overhang a q) - Z3 (by_overhang a q0)) + (Z3 (by_planes c a q) - Z3 (by_planes c a q0)) = Z3 q - Z3 q0)%R.
Proof.
  intros a c q q0. unfold by_overhang, by_planes. rewrite !turn_z. unfold angleX. rcbn. rewrite rad_opp, cos_neg, sin_neg, cos60, sin60. field.
Qed.

(** ** The positions *)
(** What is printed after the tilt is sliced from the model above the plane of the overhang, put
    where [by_overhang] says (in default mode possibly from the part of it below a further cut; in bridge mode the model is
    cut level first). *)
Theorem C118_position_overhang : forall fuel U (m : Rmesh) (s : @settings ArithR) layers g k np,
  (first_fail calculateFails 1 layers = Ok (Some (k, np)) /\ sliceDefault2 fuel U m s layers = Ok g \/
   first_fail failExistBridge 1 layers = Ok (Some (k, np)) /\ sliceBridge U m s layers = Ok g) ->
  exists before after, g_cmds g = before ++ RotateZ (heading np) :: InclineX :: after /\
    Forall (fun c => exists ls, c = LayersMoving ls) before /\
    forall ls rest, after = LayersMoving ls :: rest ->
    exists m0 up down mt m' fp ff, (m0 = m \/ exists p d, cutMesh (u_ends U) m (Pl p axisZ) = Ok (m0, d)) /\
      cutMesh (u_ends U) m0 np = Ok (up, down) /\
      vertices mt = map (by_overhang (heading np)) (vertices up) /\
      (m' = mt \/ exists pl up', cutMesh (u_ends U) mt pl = Ok (up', m')) /\
      layers_of U s fp ff m' ls.
Proof.
  intros fuel U m s layers g k np [[E H]|[E H]].
  - unfold sliceDefault2 in H. destruct (calcFillPlanes m s) as [fp ff]. destruct fuel as [|fuel]; [discriminate|]. cbn [default_loop] in H. rewrite E in H. cbn [rbind] in H.
    destruct (cutMesh _ _ _) as [[up down]| |] eqn:Ec; try discriminate. cbn [rbind] in H.
    destruct (sliceByVector U down axisZ s) as [add| |]; try discriminate. cbn [rbind] in H.
    destruct (prepareLayers U add s fp ff) as [fl| |]; try discriminate. cbn [rbind] in H.
    destruct (sliceByVector U _ axisZ s) as [ls| |] eqn:E1 in H; try discriminate. cbn [rbind] in H.
    destruct fuel as [|fuel]; [discriminate|]. cbn [default_loop] in H.
    destruct (first_fail calculateFails 1 ls) as [[[j p]|]| |]; try discriminate; cbn [rbind] in H.
    + destruct (cutMesh _ _ p) as [[up2 down2]| |] eqn:Ec2; try discriminate. cbn [rbind] in H.
      destruct (sliceByVector U down2 axisZ s) as [add2| |] eqn:E2; try discriminate. cbn [rbind] in H.
      destruct (prepareLayers U add2 s _ _) as [fl2| |] eqn:E3 in H; try discriminate. cbn [rbind] in H.
      destruct (sliceByVector U _ axisZ s) as [ls2| |] in H; try discriminate. cbn [rbind] in H.
      apply default_alternates in H. destruct H as (cs & H & _). unfold g_addLayers, g_add, newGcode in H. cbn [g_cmds app] in H.
      eexists [LayersMoving fl], _. split; [exact H|]. split; [constructor; [eauto|constructor]|].
      intros l0 rest [= <- _]. eexists m, up, down, _, down2, _, _. split; [eauto|]. split; [exact Ec|]. split; [apply by_overhang_mesh|].
      split; [right; eauto|]. exists add2. split; [exact E2|exact E3].
    + destruct (length ls <=? 1)%nat.
      * injection H as <-. exists [LayersMoving fl], []. split; [reflexivity|]. split; [constructor; [eauto|constructor]|]. discriminate.
      * destruct (prepareLayers U ls s _ _) as [fl2| |] eqn:E3 in H; try discriminate. cbn [rbind] in H. injection H as <-.
        eexists [LayersMoving fl], _. split; [reflexivity|]. split; [constructor; [eauto|constructor]|].
        intros l0 rest [= <- _]. eexists m, up, down, _, _, _, _. split; [eauto|]. split; [exact Ec|]. split; [apply by_overhang_mesh|].
        split; [now left|]. exists ls. split; [exact E1|exact E3].
  - unfold sliceBridge in H. destruct (calcFillPlanes m s) as [fp ff]. rewrite E in H. cbn [rbind] in H. cbv zeta in H.
    destruct (prepareLayers U _ s fp ff) as [l1| |] in H; try discriminate. cbn [rbind] in H.
    destruct (layer_point _ _) in H; try discriminate. cbn [rbind] in H.
    destruct (cutMesh _ m _) as [[m1 ?]| |] eqn:Ed in H; try discriminate. cbn [rbind] in H.
    destruct (cutMesh _ m1 _) as [[m2 down]| |] eqn:Ec in H; try discriminate. cbn [rbind] in H.
    destruct (sliceByVector U _ axisZ s) in H; try discriminate. cbn [rbind] in H.
    destruct (prepareLayers U _ s fp ff) as [l2| |] in H; try discriminate. cbn [rbind] in H.
    destruct (sliceByVector U _ axisZ s) as [ls| |] eqn:E1 in H; try discriminate. cbn [rbind] in H.
    destruct (prepareLayers U ls s _ _) as [l3| |] eqn:E3 in H; try discriminate. cbn [rbind] in H. injection H as <-.
    eexists [LayersMoving l1; LayersMoving l2], _. split; [reflexivity|]. split; [repeat constructor; eauto|].
    intros l0 rest [= <- _]. eexists m1, m2, down, _, _, _, _. split; [eauto|]. split; [exact Ec|]. split; [apply by_overhang_mesh|].
    split; [now left|]. exists ls. split; [exact E1|exact E3].
Qed.
(** With a planes file, the part above a tilted plane is sliced where [by_planes] says. *)
Theorem C118_position_planes : forall U (m : Rmesh) (s : @settings ArithR) ps g, sliceByPlanes U m s ps = Ok g ->
  exists parts, parted U m ps parts /\
    forall k p part ls, nth_error ps k = Some p -> ap_tilted p = true -> nth_error parts (Datatypes.S k) = Some part ->
      nth_error (printed (g_cmds g)) (Datatypes.S k) = Some ls ->
      exists mt fp ff, vertices mt = map (by_planes (s_rotationCenter s) (ap_rotz p)) (vertices part) /\ layers_of U s fp ff mt ls.
Proof.
  intros U m s ps g E. destruct (C51_beds ArithR U m s ps g E) as (parts & fills & fp & ff & _ & P & _ & H).
  exists parts. split; [exact P|]. intros k p part ls K2 Tp K1 K3.
  destruct parts as [|part0 parts]; [destruct H|]. destruct fills as [|first fills]; [destruct H|].
  destruct H as (_ & H2 & _ & first' & _ & H4). rewrite H4 in K3. cbn [nth_error] in K1, K3.
  exists (inclined (s_rotationCenter s) true (turned (s_rotationCenter s) (ap_rotz p) part)), fp, ff. split; [apply by_planes_mesh|].
  rewrite <- Tp. clear -H2 K1 K2 K3. revert parts ps fills H2 K1 K2 K3. induction k as [|k IH]; intros [|a r] [|b r'] [|x r''] H2 K1 K2 K3; try discriminate; cbn [combine] in H2; inversion H2; subst; cbn [nth_error] in K1, K2, K3.
  - injection K1 as ->. injection K2 as ->. injection K3 as ->. assumption.
  - eapply IH; eassumption.
Qed.

(** ** Cases *)
(** rotation 0: the plane rises towards -y *)
Example ex_zero : 0 <= vy (read_normal (A := ArithR) true 0).
Proof. rewrite read_tilted, rad. replace (PI * 0 / 180) with 0 by field. rewrite cos_0. unfold rv. cbn [vy]. pose proof sq3_pos. lra. Qed.
(** runs with an overhang, in float64 *)
Section Runs.
Import ArithF64 Examples_Vip.
Local Existing Instance A1.
Definition found (T : Type) (r : res (option (nat * T))) : bool := match r with Ok (Some _) => true | _ => false end.
Lemma found_ok (T : Type) r : found T r = true -> exists k p, r = Ok (Some (k, p)).
Proof. destruct r as [[[k p]|]| |]; try discriminate. eauto. Qed.
Example ex_overhang : exists k np g, first_fail calculateFails 1 (lay2 gallows) = Ok (Some (k, np)) /\ sliceDefault2 4 env0 gallows s2 (lay2 gallows) = Ok g.
Proof.
  destruct (found_ok _ (first_fail calculateFails 1 (lay2 gallows))) as (k & np & E); [vm_cast_no_check (eq_refl true)|].
  destruct (summary_ok _ _ ex_default) as (g & t & H & _); [discriminate|]. exists k, np, g. split; [exact E|exact H].
Qed.
Example ex_legs : exists k np g, first_fail failExistBridge 1 (lay2 legs) = Ok (Some (k, np)) /\ sliceBridge env0 legs s2 (lay2 legs) = Ok g.
Proof.
  destruct (found_ok _ (first_fail failExistBridge 1 (lay2 legs))) as (k & np & E); [vm_cast_no_check (eq_refl true)|].
  destruct (summary_ok _ _ ex_bridge) as (g & t & H & _); [discriminate|]. exists k, np, g. split; [exact E|exact H].
Qed.
End Runs.

Print Assumptions C118_commands.
Print Assumptions C118_opposite.
Print Assumptions C118_heights.
Print Assumptions C118_position_overhang.
Print Assumptions C118_position_planes.
