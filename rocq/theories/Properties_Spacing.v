(** * C120 After the tilt the fill lines are farther apart than asked for *)
From Coq Require Import String Reals Lra Lia List Bool ZArith NArith PeanoNat Permutation.
From Flocq Require Import Core.Raux.
From Verif Require Import Arith ArithR Prim Path PathClaims GeomSpec GeomProofs MeshProofs Helpers Gcode GcodeClaims
  Slicer SlicerClaims SlicerProofs SlicerProofs2 Properties_Path Properties_Slicer Fill FillClaims FillProofs FillProofs2 Properties_Fill Vip VipClaims VipProofs VipReal VipMore Properties_Vip
  WhereClaims WhereProofs Properties_Where SidesProofs LevelProofs Properties_Sides Properties_Tilted Properties_FillTurn.
From Verif Require HelperClaims HelperProofs2 OverhangClaims OverhangProofs Properties_Overhang.
From Verif Require Import Properties_Opposite.
Import ListNotations.
Close Scope Z_scope.
Close Scope num_scope.
Close Scope string_scope.
Open Scope list_scope.
Local Open Scope R_scope.

(** ** Vocabulary *)
(** the distance of fill lines asked for in layer [i] of [n]: the width of a line in the solid
    layers at the bottom and at the top, by the fill density between *)
Definition asked_gap (s : @settings ArithR) (n i : nat) : R :=
  if ((Z.of_nat i <? s_bottomLayers s) || (Z.of_nat n - s_topLayers s <=? Z.of_nat i))%Z
  then LineWidth (s_g s) else 100 / IZR (s_fillDensity s) * LineWidth (s_g s).

(** ** What is printed after the tilt *)
Lemma after_tilt {A : Arith} fuel U m (s : settings) layers g k np fp ff : calcFillPlanes m s = (fp, ff) ->
  (first_fail calculateFails 1 layers = Ok (Some (k, np)) /\ sliceDefault2 fuel U m s layers = Ok g \/
   first_fail failExistBridge 1 layers = Ok (Some (k, np)) /\ sliceBridge U m s layers = Ok g) ->
  exists before after, g_cmds g = before ++ RotateZ (heading np) :: InclineX :: after /\
    Forall (fun c => exists ls, c = LayersMoving ls) before /\
    forall ls rest, after = LayersMoving ls :: rest ->
      exists m', layers_of U s (map (turn_plane (heading np)) fp) (map (turn_plane (heading np)) ff) m' ls.
Proof.
  intros EF [[E H]|[E H]].
  - unfold sliceDefault2 in H. rewrite EF in H. destruct fuel as [|fuel]; [discriminate|]. cbn [default_loop] in H. rewrite E in H. cbn [rbind] in H.
    destruct (cutMesh _ _ _) as [[up down]| |]; try discriminate. cbn [rbind] in H.
    destruct (sliceByVector U down axisZ s) as [add| |]; try discriminate. cbn [rbind] in H.
    destruct (prepareLayers U add s fp ff) as [fl| |]; try discriminate. cbn [rbind] in H.
    destruct (sliceByVector U _ axisZ s) as [ls| |] eqn:E1 in H; try discriminate. cbn [rbind] in H.
    destruct fuel as [|fuel]; [discriminate|]. cbn [default_loop] in H.
    destruct (first_fail calculateFails 1 ls) as [[[j p]|]| |]; try discriminate; cbn [rbind] in H.
    + destruct (cutMesh _ _ p) as [[up2 down2]| |]; try discriminate. cbn [rbind] in H.
      destruct (sliceByVector U down2 axisZ s) as [add2| |] eqn:E2; try discriminate. cbn [rbind] in H.
      destruct (prepareLayers U add2 s _ _) as [fl2| |] eqn:E3 in H; try discriminate. cbn [rbind] in H.
      destruct (sliceByVector U _ axisZ s) as [ls2| |] in H; try discriminate. cbn [rbind] in H.
      apply default_alternates in H. destruct H as (cs & H & _). unfold g_addLayers, g_add, newGcode in H. cbn [g_cmds app] in H.
      eexists [LayersMoving fl], _. split; [exact H|]. split; [constructor; [eauto|constructor]|].
      intros l0 rest [= <- _]. exists down2, add2. auto.
    + destruct (length ls <=? 1)%nat.
      * injection H as <-. exists [LayersMoving fl], []. split; [reflexivity|]. split; [constructor; [eauto|constructor]|]. discriminate.
      * destruct (prepareLayers U ls s _ _) as [fl2| |] eqn:E3 in H; try discriminate. cbn [rbind] in H. injection H as <-.
        eexists [LayersMoving fl], _. split; [reflexivity|]. split; [constructor; [eauto|constructor]|].
        intros l0 rest [= <- _]. eexists _, ls. split; [exact E1|exact E3].
  - unfold sliceBridge in H. rewrite EF, E in H. cbn [rbind] in H. cbv zeta in H.
    destruct (prepareLayers U _ s fp ff) as [l1| |] in H; try discriminate. cbn [rbind] in H.
    destruct (layer_point _ _) in H; try discriminate. cbn [rbind] in H.
    destruct (cutMesh _ m _) as [[m1 ?]| |] in H; try discriminate. cbn [rbind] in H.
    destruct (cutMesh _ m1 _) as [[m2 ?]| |] in H; try discriminate. cbn [rbind] in H.
    destruct (sliceByVector U _ axisZ s) in H; try discriminate. cbn [rbind] in H.
    destruct (prepareLayers U _ s fp ff) as [l2| |] in H; try discriminate. cbn [rbind] in H.
    destruct (sliceByVector U _ axisZ s) as [ls| |] eqn:E1 in H; try discriminate. cbn [rbind] in H.
    destruct (prepareLayers U ls s _ _) as [l3| |] eqn:E3 in H; try discriminate. cbn [rbind] in H. injection H as <-.
    eexists [LayersMoving l1; LayersMoving l2], _. split; [reflexivity|]. split; [repeat constructor; eauto|].
    intros l0 rest [= <- _]. eexists _, ls. split; [exact E1|exact E3].
Qed.

(** ** Where the fill of a layer lies *)
Lemma fill_of_layer U (m' : Rmesh) (s : @settings ArithR) fp ff ls i l f q : legal U ->
  layers_of U s fp ff m' ls -> nth_error ls i = Some l -> In f (l_fill l) -> In q f ->
  exists pl, sd pl q = 0 /\
    In pl (if ((Z.of_nat i <? s_bottomLayers s) || (Z.of_nat (length ls) - s_topLayers s <=? Z.of_nat i))%Z then ff else fp).
Proof.
  intros HU (add & E1 & E2) Hi If Iq. pose proof (bare_layers U m' axisZ s add HU E1) as Bare.
  unfold prepareLayers in E2.
  set (ls1 := if (addWalls s >? 0)%Z then map (wall_layer (addWalls s) (LineWidth (s_g s))) add else add) in E2.
  assert (F1 : Forall (fun l => l_fill l = []) ls1).
  { unfold ls1. destruct (Z.gtb_spec (addWalls s) 0) as [P|P]; [|eapply Forall_impl; [|exact Bare]; now intros a (_ & _ & H)].
    apply Forall_forall. intros x Hx. apply in_map_iff in Hx. destruct Hx as (a & <- & Ha).
    destruct (wall_layer_spec (addWalls s) (LineWidth (s_g s)) a) as (offs & H1 & H2 & _); [lia|]. rewrite H2.
    rewrite Forall_forall in Bare. now apply Bare. }
  destruct (C47_fill U ls1 fp ff s) as (out & E3 & SB & H).
  { eapply Forall_impl; [|exact F1]. intros a ->. constructor. }
  rewrite E2 in E3. injection E3 as <-. rewrite <- (f2_length _ _ _ SB).
  assert (exists l0, nth_error ls1 i = Some l0) as (l0 & H0).
  { destruct (nth_error ls1 i) eqn:Q; [now eexists|]. apply nth_error_None in Q. rewrite (f2_length _ _ _ SB) in Q.
    apply nth_error_None in Q. congruence. }
  destruct (H i l0 l H0 Hi) as (pls & P1 & P2 & _ & P3 & _).
  rewrite Forall_forall in P3. destruct (P3 f If) as (f0 & I0 & Ef).
  rewrite Forall_forall in F1. rewrite (F1 l0 (nth_error_In _ _ H0)) in I0. cbn [app] in I0. apply in_flat_map in I0.
  destruct I0 as (pl & Ipl & I0). destruct (C49_on_contours U _ pl f0 HU I0) as (a & b & -> & A1 & A2 & B1 & B2).
  exists pl. split.
  - assert (Q : q = a \/ q = b) by (destruct Ef as [-> | ->]; cbn in Iq; intuition). destruct Q as [-> | ->]; assumption.
  - destruct (Z.ltb_spec (Z.of_nat i) (s_bottomLayers s)) as [L|L]; cbn [orb]; [rewrite P1 in Ipl by lia; exact Ipl|].
    destruct (Z.leb_spec (Z.of_nat (length ls1) - s_topLayers s) (Z.of_nat i)) as [L'|L']; [rewrite P1 in Ipl by lia; exact Ipl|].
    rewrite P2 in Ipl by lia. exact Ipl.
Qed.

(** the fill planes after the turn *)
Lemma turn_axis (a t : R) : vrotate (vrotate (rv t 0 0) (rotationAroundZ (A := ArithR) a)) (rotationAroundX (angleX (A := ArithR))) =
  rv (t * cos (toRadians (A := ArithR) a)) (- (t * sin (toRadians (A := ArithR) a)) / 2) (t * sin (toRadians (A := ArithR) a) * (sqrt 3 / 2)).
Proof. rewrite rotZ_eq, rotX_eq. unfold angleX; rcbn. rewrite cos60, sin60. apply v3_eq; field. Qed.
Lemma turn_fill_plane (a t : R) : 
  turn_plane (A := ArithR) a (Pl (at_axis (axisX (A := ArithR)) t) (axisX (A := ArithR))) =
  Pl (v2p (rv (t * cos (toRadians (A := ArithR) a)) (- (t * sin (toRadians (A := ArithR) a)) / 2) (t * sin (toRadians (A := ArithR) a) * (sqrt 3 / 2))))
     (rv (cos (toRadians (A := ArithR) a)) (- sin (toRadians (A := ArithR) a) / 2) (sin (toRadians (A := ArithR) a) * (sqrt 3 / 2))).
Proof.
  unfold turn_plane, pl_rotate. cbn [pl_p pl_n].
  assert (E1 : p2v (at_axis (axisX (A := ArithR)) t) = rv t 0 0) by (unfold at_axis, axisX, p2v, rv; cbn [vx vy vz px py pz]; rcbn; apply v3_eq; ring).
  assert (E2 : axisX (A := ArithR) = rv 1 0 0) by (unfold axisX; rcbn; reflexivity).
  assert (E3 : forall v : Rvector, p2v (v2p v) = v) by (intros [? ? ?]; reflexivity).
  rewrite E3, E1, E2, !turn_axis. f_equal. apply v3_eq; field.
Qed.
Lemma turned_fill (m : Rmesh) (step : R) (x y r : R) p pl q : 0 < r -> x * x + y * y = r * r -> vx (pl_n p) = x -> vy (pl_n p) = y ->
  In pl (map (turn_plane (heading p)) (calcFillPlanesCommon (A := ArithR) m axisX step)) -> sd pl q = 0 ->
  exists k, - (Rabs y / r) * X q - x / r / 2 * Y q + x / r * (sqrt 3 / 2) * Z3 q = IZR k * step.
Proof.
  intros Hr Hab Ex Ey I S. apply in_map_iff in I. destruct I as (p0 & <- & I). rewrite common_R in I. cbv zeta in I.
  apply in_map_iff in I. destruct I as (i & <- & _). set (kz := (_ + Z.of_nat i)%Z) in S. exists kz. set (t := IZR kz * step) in *.
  assert (Eh : heading p = (acos (x / r) * 180 / PI + 90)%R).
  { unfold heading. destruct p as [o [a b c]]. cbn [pl_n vx vy] in *. subst a b. fold (rv x y c). rewrite flat_proj, (flat_angle _ _ r Hr Hab). rcbn. reflexivity. }
  assert (Ca : cos (toRadians (A := ArithR) (heading p)) = - (Rabs y / r)) by (rewrite Eh; exact (cos_plus90 _ _ r Hr Hab)).
  assert (Sa : sin (toRadians (A := ArithR) (heading p)) = x / r) by (rewrite Eh; exact (sin_plus90 _ _ r Hr Hab)).
  rewrite turn_fill_plane, Ca, Sa in S. 
  assert (N1 : (Rabs y / r) * (Rabs y / r) + (x / r) * (x / r) = 1).
  { replace (Rabs y / r * (Rabs y / r)) with (Rabs y * Rabs y / (r * r)) by (field; lra). rewrite <- Rabs_mult, (Rabs_pos_eq (y * y)) by (apply Rle_0_sqr).
    replace (y * y / (r * r) + x / r * (x / r)) with ((x * x + y * y) / (r * r)) by (field; lra). rewrite Hab. field. lra. }
  unfold sd, rv, v2p in S. cbn [pl_p pl_n vx vy vz] in S. unfold X, Y, Z3 in *. cbn [px py pz] in S. pose proof sq3 as Q3.
  set (c := Rabs y / r) in *. set (d := x / r) in *. set (h := sqrt 3) in *. clearbody c d h t.
  assert (W : t * (c * c + d * d * (1 / 4 + h * h / 4)) = t) by (rewrite Q3; replace (c * c + d * d * (1 / 4 + 3 / 4)) with (c * c + d * d) by field; rewrite N1; ring).
  rcbn. nra.
Qed.

(** ** The claims *)
(** [np] is the plane of the first overhang, with the horizontal part (x, y) of its normal of
    length r. Of the layers that the default and the bridge slicer print next after the tilt: the
    fill of a layer lies on lines across (|y|, x / 2), so two lines of fill are at least
    r / sqrt (y^2 + x^2 / 4) times as far apart as asked for. *)
Theorem C120_spacing : forall fuel U (m : Rmesh) (s : @settings ArithR) layers g k np (x y r : R),
  legal U -> s_fillingType s = "Lines"%string -> 0 < LineWidth (s_g s) ->  (0 < s_fillDensity s)%Z ->
  (first_fail calculateFails 1 layers = Ok (Some (k, np)) /\ sliceDefault2 fuel U m s layers = Ok g \/
   first_fail failExistBridge 1 layers = Ok (Some (k, np)) /\ sliceBridge U m s layers = Ok g) ->
  vx (pl_n np) = x -> vy (pl_n np) = y -> 0 < r -> x * x + y * y = r * r ->
  exists before after, g_cmds g = before ++ RotateZ (heading np) :: InclineX :: after /\
    Forall (fun c => exists ls, c = LayersMoving ls) before /\
    forall ls rest, after = LayersMoving ls :: rest ->
    forall i l f f' q q', nth_error ls i = Some l -> In f (l_fill l) -> In q f -> In f' (l_fill l) -> In q' f' -> Z3 q = Z3 q' ->
    exists j, Rabs y * (X q - X q') + x / 2 * (Y q - Y q') = r * (IZR j * asked_gap s (length ls) i) /\
      (j <> 0%Z -> r * asked_gap s (length ls) i <= sqrt (y * y + x * x / 4) * sqrt ((X q - X q') * (X q - X q') + (Y q - Y q') * (Y q - Y q'))).
Proof.
  intros fuel U m s layers g k np x y r HU T W D H Ex Ey Hr Hab. destruct (calcFillPlanes m s) as [fp ff] eqn:EF.
  destruct (after_tilt fuel U m s layers g k np fp ff EF H) as (before & after & E1 & E2 & E3).
  exists before, after. split; [exact E1|]. split; [exact E2|]. intros ls rest Ea i l f f' q q' Hi If Iq If' Iq' EZ.
  destruct (E3 ls rest Ea) as (m' & L).
  set (gap := asked_gap s (length ls) i).
  assert (Gp : 0 < gap).
  { unfold gap, asked_gap. destruct (_ || _)%Z; [exact W|]. apply Rmult_lt_0_compat; [|exact W]. apply IZR_lt in D. apply Rdiv_lt_0_compat; lra. }
  assert (G : forall f q, In f (l_fill l) -> In q f -> exists j, - (Rabs y / r) * X q - x / r / 2 * Y q + x / r * (sqrt 3 / 2) * Z3 q = IZR j * gap).
  { clear f f' q q' If Iq If' Iq' EZ. intros f q If Iq. destruct (fill_of_layer U m' s _ _ ls i l f q HU L Hi If Iq) as (pl & S & Ip).
    unfold calcFillPlanes in EF. rewrite T in EF. cbn [String.eqb Ascii.eqb Bool.eqb] in EF. injection EF as <- <-.
    unfold gap, asked_gap. destruct (_ || _)%Z.
    - exact (turned_fill m _ x y r np pl q Hr Hab Ex Ey Ip S).
    - refine (turned_fill m _ x y r np pl q Hr Hab Ex Ey _ S). revert Ip. unfold calcFillPlanesLines, fill_step. rcbn. auto. }
  destruct (G f q If Iq) as (j1 & J1). destruct (G f' q' If' Iq') as (j2 & J2). exists (j2 - j1)%Z.
  assert (Eq : Rabs y * (X q - X q') + x / 2 * (Y q - Y q') = r * (IZR (j2 - j1) * gap)).
  { rewrite minus_IZR, Rmult_minus_distr_r, <- J1, <- J2, EZ. field. lra. }
  split; [exact Eq|]. intros Nz.
  set (dx := X q - X q') in *. set (dy := Y q - Y q') in *.
  rewrite <- sqrt_mult by nra.
  assert (B : 1 <= Rabs (IZR (j2 - j1))).
  { rewrite <- abs_IZR. apply (IZR_le 1). lia. }
  assert (C : r * gap <= Rabs (r * (IZR (j2 - j1) * gap))).
  { rewrite !Rabs_mult, (Rabs_pos_eq r), (Rabs_pos_eq gap) by lra. apply Rmult_le_compat_l; [lra|]. nra. }
  apply Rle_trans with (1 := C). rewrite <- Eq, <- sqrt_Rsqr_abs. apply sqrt_le_1_alt. unfold Rsqr.
  assert (Y2 : Rabs y * Rabs y = y * y) by (rewrite <- Rabs_mult; apply Rabs_pos_eq, Rle_0_sqr).
  rewrite <- Y2. pose proof (Rle_0_sqr (Rabs y * dy - x / 2 * dx)) as Sq. unfold Rsqr in Sq. nra.
Qed.

(** An overhang along the X axis: the lines of fill are twice as far apart as asked for, so solid
    layers are half empty. *)
Theorem C120_double : forall fuel U (m : Rmesh) (s : @settings ArithR) layers g k np,
  legal U -> s_fillingType s = "Lines"%string -> 0 < LineWidth (s_g s) ->  (0 < s_fillDensity s)%Z ->
  (first_fail calculateFails 1 layers = Ok (Some (k, np)) /\ sliceDefault2 fuel U m s layers = Ok g \/
   first_fail failExistBridge 1 layers = Ok (Some (k, np)) /\ sliceBridge U m s layers = Ok g) ->
  (vx (pl_n np) : R) <> 0 -> (vy (pl_n np) : R) = 0 ->
  exists before after, g_cmds g = before ++ RotateZ (heading np) :: InclineX :: after /\
    Forall (fun c => exists ls, c = LayersMoving ls) before /\
    forall ls rest, after = LayersMoving ls :: rest ->
    forall i l f f' q q', nth_error ls i = Some l -> In f (l_fill l) -> In q f -> In f' (l_fill l) -> In q' f' -> Z3 q = Z3 q' ->
    Y q = Y q' \/ 2 * asked_gap s (length ls) i <= Rabs (Y q - Y q').
Proof.
  intros fuel U m s layers g k np HU T W D H Nx Ey. set (x := vx (pl_n np) : R) in *.
  assert (Hr : 0 < Rabs x) by now apply Rabs_pos_lt.
  destruct (C120_spacing fuel U m s layers g k np x 0 (Rabs x) HU T W D H eq_refl Ey Hr) as (before & after & E1 & E2 & E3).
  { rewrite <- Rabs_mult, Rabs_pos_eq by (apply Rle_0_sqr). ring. }
  exists before, after. split; [exact E1|]. split; [exact E2|]. intros ls rest Ea i l f f' q q' Hi If Iq If' Iq' EZ.
  destruct (E3 ls rest Ea i l f f' q q' Hi If Iq If' Iq' EZ) as (j & J & _).
  set (gap := asked_gap s (length ls) i) in *.
  assert (Gp : 0 < gap).
  { unfold gap, asked_gap. destruct (_ || _)%Z; [exact W|]. apply Rmult_lt_0_compat; [|exact W]. apply IZR_lt in D. apply Rdiv_lt_0_compat; lra. }
  rewrite Rabs_R0, Rmult_0_l, Rplus_0_l in J.
  destruct (Z.eq_dec j 0) as [->|Nz].
  - left. rewrite Rmult_0_l, Rmult_0_r in J. apply Rmult_integral in J. destruct J as [J|J]; lra.
  - right. assert (B : 1 <= Rabs (IZR j)) by (rewrite <- abs_IZR; apply (IZR_le 1); lia).
    assert (Ab : Rabs (x / 2 * (Y q - Y q')) = Rabs (Rabs x * (IZR j * gap))) by now rewrite J.
    rewrite !Rabs_mult, Rabs_Rabsolu, (Rabs_pos_eq gap) in Ab by lra. unfold Rdiv in Ab. rewrite Rabs_mult, (Rabs_pos_eq (/ 2)) in Ab by lra.
    set (d := Rabs (Y q - Y q')) in *. set (n := Rabs (IZR j)) in *. set (ax := Rabs x) in *.
    assert (d = 2 * (n * gap)). { apply Rmult_eq_reg_l with ax; lra. }
    nra.
Qed.

(** ** A case *)
(** Two tetrahedra on the two sides of the plane of an overhang of one of two legs, in bridge mode. *)
Definition exP_at (x y t : R) : Rmesh := m_shift tetraR (V3 (A := ArithR) (t * x)%R (t * y)%R 5%R).
Lemma exP_vertices x y t v : In v (vertices (exP_at x y t)) -> 0 <= X v - t * x <= 1 /\ 0 <= Y v - t * y <= 1 /\ 5 <= Z3 v <= 6.
Proof.
  unfold exP_at. rewrite vertices_shift. intros I. apply in_map_iff in I. destruct I as (q & <- & Hq).
  cbn in Hq. decompose [or] Hq; subst; try contradiction; unfold moved, Properties_Slicer.rp, X, Y, Z3; cbn [px py pz vx vy vz]; rcbn; repeat split; lra.
Qed.
Lemma exP_ends x y t : exists v0 v1, In v0 (vertices (exP_at x y t)) /\ In v1 (vertices (exP_at x y t)) /\ X v0 = X v1 /\ Y v0 = Y v1 /\ Z3 v1 = Z3 v0 + 1.
Proof.
  unfold exP_at. rewrite vertices_shift. set (o := V3 (A := ArithR) (t * x)%R (t * y)%R 5%R).
  exists (moved o (Properties_Slicer.rp 0 0 0)), (moved o (Properties_Slicer.rp 0 0 1)).
  split; [apply in_map; cbn; auto|]. split; [apply in_map; cbn; tauto|].
  unfold moved, Properties_Slicer.rp, X, Y, Z3; cbn [px py pz vx vy vz]; rcbn; repeat split; lra.
Qed.
Lemma tilted_height (a : R) q : Z3 (by_overhang a q) =
  - (- X q * sin (toRadians (A := ArithR) a) + Y q * cos (toRadians (A := ArithR) a)) * (sqrt 3 / 2) + Z3 q / 2.
Proof. unfold by_overhang. rewrite turn_z. unfold angleX. rcbn. rewrite cos60, sin60. unfold originPoint, X, Y, Z3. cbn [px py pz]. rcbn. field. Qed.
Lemma unit_z : unit_of (axisZ (A := ArithR)) (axisZ (A := ArithR)).
Proof. exact unit_axisZ. Qed.
(** a model with two points whose heights differ by more than a layer can be sliced *)
Lemma exP_slice (m : Rmesh) v0 v1 : m <> [] -> (forall v, In v (vertices m) -> Rabs (Z3 v) <= 1000) -> In v0 (vertices m) -> In v1 (vertices m) ->
  3 / 10 < Z3 v1 - Z3 v0 -> exists ls, sliceByVector env0 m axisZ exT_s = Ok ls.
Proof.
  intros Nm B I0 I1 D. assert (HU : legal (A := ArithR) env0) by exact env0_legal.
  assert (Ez : forall v, Rdot v axisZ = Z3 v) by (intros [a b c]; unfold Rdot, axisZ, X, Y, Z3; cbn [vx vy vz px py pz]; rcbn; ring).
  assert (Nv : vertices m <> []) by (destruct (vertices m); [contradiction|discriminate]).
  destruct (bounds_exist axisZ (vertices m) Nv) as (mn & mx & Lo & Hi).
  assert (Hr : Forall (fun p => in_range (Rdot p axisZ)) (vertices m)).
  { apply Forall_forall. intros v I. rewrite Ez. apply big_range. eapply Rle_trans; [exact (B v I)|].
    replace 300%nat with (3 + 297)%nat by reflexivity. rewrite pow_add. assert (1 <= 10 ^ 297) by (apply pow_R1_Rle; lra).
    replace (10 ^ 3) with 1000 by ring. lra. }
  pose proof (proj2 Lo v0 I0) as L0. pose proof (proj2 Hi v1 I1) as L1. rewrite Ez in L0, L1.
  destruct (C24_panics_iff env0 m axisZ axisZ exT_s mn mx HU Nm unit_z Hr Lo Hi ltac:(cbn; lra) ltac:(lra)) as (sup & _ & I & Dv).
  destruct (sliceByVector env0 m axisZ exT_s) as [ls| |]; [eauto| |contradiction].
  destruct (proj1 I eq_refl) as [I2 _]. change (mx - mn <= 3 / 10) in I2. lra.
Qed.
Lemma exP_prepare U m ls fp ff : legal U -> sliceByVector U m axisZ exT_s = Ok ls -> exists out, prepareLayers U ls exT_s fp ff = Ok out.
Proof.
  intros HU E. destruct (prepare_total U ls exT_s fp ff) as (out & H & _); [|eauto].
  eapply Forall_impl; [|exact (bare_layers U m axisZ exT_s ls HU E)]. cbn beta. intros l (_ & _ & ->). constructor.
Qed.
Lemma exP_run (prevL curL : @layer ArithR) np (x y : R) p0 : failExistBridge prevL curL = Ok (Some np) -> OverhangClaims.leans (pl_n np) x y ->
  Rabs (X (pl_p np)) <= 2 -> Rabs (Y (pl_p np)) <= 2 -> Z3 (pl_p np) = 0 -> l_fill prevL = [] -> layer_point [prevL; curL] 1 = Ok p0 -> Z3 p0 <= 1 ->
  exists m g, first_fail failExistBridge 1 [prevL; curL] = Ok (Some (1%nat, np)) /\ sliceBridge (A := ArithR) env0 m exT_s [prevL; curL] = Ok g.
Proof.
  intros E (U1 & En) Px Py Pz Fl Lp Lz. assert (HU : legal (A := ArithR) env0) by exact env0_legal. apply Rabs_le_inv in Px, Py.
  set (m1 := exP_at x y (-30)). set (m2 := exP_at x y 10). set (a := X (pl_p np)) in *. set (b := Y (pl_p np)) in *.
  assert (S3 : sqrt 3 * sqrt 3 = 3) by (apply sqrt_sqrt; lra). assert (P3 : 0 < sqrt 3) by (apply sqrt_lt_R0; lra).
  assert (Lb : 17 / 10 < sqrt 3) by (apply Rsqr_incrst_0; unfold Rsqr; lra).
  assert (Bx : - 1 <= x <= 1) by (split; nra). assert (By : - 1 <= y <= 1) by (split; nra).
  assert (Bab : -4 <= x * a + y * b <= 4) by (assert (-2 <= x * a <= 2) by nra; assert (-2 <= y * b <= 2) by nra; lra).
  assert (Esd : forall v, sd np v = sqrt 3 / 2 * (x * (X v - a) + y * (Y v - b)) + Z3 v / 2).
  { intros v. unfold a, b. destruct np as [p n]. cbn [pl_p pl_n] in *. subst n. unfold sd. cbn [pl_p pl_n vx vy vz]. rewrite Pz. field. }
  assert (C1 : cutMesh (u_ends (A := ArithR) env0) (m1 ++ m2) (Pl p0 axisZ) = Ok (m1 ++ m2, [])).
  { apply (cut_apart env0 [] (m1 ++ m2)); [exact HU|discriminate|intros v []|]. intros v Hv.
    assert (Hz5 : 5 <= Z3 v).
    { unfold vertices in Hv. rewrite flat_map_app in Hv. apply in_app_iff in Hv. destruct Hv as [Hv|Hv]; apply exP_vertices in Hv; lra. }
    unfold sd, axisZ. cbn [pl_p pl_n vx vy vz]. rcbn. lra. }
  assert (C2 : cutMesh (u_ends (A := ArithR) env0) (m1 ++ m2) np = Ok (m2, m1)).
  { apply cut_apart; [exact HU|discriminate| |]; intros v Hv; apply exP_vertices in Hv; rewrite Esd; destruct Hv as (Hx & Hy & Hz).
    - assert (H : x * (X v - a) + y * (Y v - b) <= -24).
      { assert (x * (X v - a) + y * (Y v - b) = -30 * (x * x + y * y) + x * (X v - -30 * x) + y * (Y v - -30 * y) - (x * a + y * b)) as -> by ring. rewrite U1.
        assert (x * (X v - -30 * x) <= 1) by nra. assert (y * (Y v - -30 * y) <= 1) by nra. lra. }
      assert (sqrt 3 / 2 * (x * (X v - a) + y * (Y v - b)) <= sqrt 3 / 2 * -24) by (apply Rmult_le_compat_l; lra). lra.
    - assert (H : 4 <= x * (X v - a) + y * (Y v - b)).
      { assert (x * (X v - a) + y * (Y v - b) = 10 * (x * x + y * y) + x * (X v - 10 * x) + y * (Y v - 10 * y) - (x * a + y * b)) as -> by ring. rewrite U1.
        assert (-1 <= x * (X v - 10 * x)) by nra. assert (-1 <= y * (Y v - 10 * y)) by nra. lra. }
      assert (0 <= sqrt 3 / 2 * (x * (X v - a) + y * (Y v - b))) by (apply Rmult_le_pos; lra). lra. }
  assert (F : first_fail failExistBridge 1 [prevL; curL] = Ok (Some (1%nat, np))) by (cbn [first_fail]; rewrite E; reflexivity).
  exists (m1 ++ m2).
  assert (Ex : exists g, sliceBridge (A := ArithR) env0 (m1 ++ m2) exT_s [prevL; curL] = Ok g); [|destruct Ex as (g & Eg); exists g; now split].
  unfold sliceBridge. destruct (calcFillPlanes (m1 ++ m2) exT_s) as [fp ff]. rewrite F. cbn [rbind firstn].
  destruct (prepare_total env0 [prevL] exT_s fp ff) as (l1 & -> & _); [constructor; [rewrite Fl; constructor|constructor]|].
  cbn [rbind]. rewrite Lp. cbn [rbind]. rewrite C1. cbn [rbind]. rewrite C2. cbn [rbind].
  destruct (exP_ends x y (-30)) as (a0 & a1 & A0 & A1 & _ & _ & A4).
  destruct (exP_slice m1 a0 a1) as (ls1 & E1); [discriminate| |exact A0|exact A1|lra|].
  { intros v Hv. apply exP_vertices in Hv. apply Rabs_le. lra. }
  rewrite E1. cbn [rbind]. destruct (exP_prepare env0 m1 ls1 fp ff HU E1) as (o1 & ->). cbn [rbind]. cbv zeta.
  set (mt := turn_mesh (heading np) m2).
  destruct (exP_ends x y 10) as (b0 & b1 & B0 & B1 & B2 & B3 & B4).
  destruct (exP_slice mt (by_overhang (heading np) b0) (by_overhang (heading np) b1)) as (ls2 & E2).
  { discriminate. }
  { unfold mt. rewrite by_overhang_mesh. intros v I. apply in_map_iff in I. destruct I as (q & <- & Hq). apply exP_vertices in Hq.
    rewrite tilted_height. destruct Hq as (Hx & Hy & Hz). set (c := cos _). set (d := sin _). assert (Bc : -1 <= c <= 1) by apply COS_bound. assert (Bd : -1 <= d <= 1) by apply SIN_bound.
    assert (K : -22 <= - X q * d + Y q * c <= 22) by (assert (-11 <= X q <= 11) by lra; assert (-11 <= Y q <= 11) by lra; nra).
    set (w := - X q * d + Y q * c) in *. assert (sqrt 3 < 2) by (apply Rsqr_incrst_0; unfold Rsqr; lra). apply Rabs_le. nra. }
  { unfold mt. rewrite by_overhang_mesh. now apply in_map. }
  { unfold mt. rewrite by_overhang_mesh. now apply in_map. }
  { rewrite !tilted_height, B2, B3, B4. lra. }
  rewrite E2. cbn [rbind]. edestruct (exP_prepare env0 mt ls2) as (o2 & Eo); [exact HU|exact E2|]. rewrite Eo. cbn [rbind]. eauto.
Qed.
(** the hypotheses of C120_spacing, for two legs side by side along y *)
Example exP_spacing : exists m layers g k np x y r, s_fillingType exT_s = "Lines"%string /\ 0 < LineWidth (s_g exT_s) /\ (0 < s_fillDensity exT_s)%Z /\
  first_fail failExistBridge 1 layers = Ok (Some (k, np)) /\ sliceBridge (A := ArithR) env0 m exT_s layers = Ok g /\
  vx (pl_n np) = x /\ vy (pl_n np) = y /\ 0 < r /\ x * x + y * y = r * r.
Proof.
  destruct Properties_Overhang.C90_toward_refuted as (prevL0 & curL & np & _ & Pc & E & Ep & Ey).
  destruct (Properties_Overhang.C90_bridge prevL0 curL np E) as (_ & _ & _ & _ & _ & x & y & _ & _ & _ & _ & _ & _ & L & _).
  set (prevL := Properties_Overhang.layer_of (A := ArithR) (l_paths prevL0)). change (failExistBridge prevL curL = Ok (Some np)) in E.
  destruct (exP_run prevL curL np x y (P3 (A := ArithR) (-2)%R (-2)%R 1%R) E L) as (m & g & F & Eg).
  { rewrite Ep. unfold X. cbn [px]. rewrite Rabs_R0. lra. }
  { rewrite Ep. unfold Y. cbn [py]. rewrite Rabs_pos_eq; lra. }
  { rewrite Ep. reflexivity. } { reflexivity. }
  { unfold layer_point. cbn [idx nth_error rbind]. rewrite Pc. reflexivity. }
  { unfold Z3. cbn [pz]. lra. }
  destruct L as (U1 & En). assert (P3 : 0 < sqrt 3) by (apply sqrt_lt_R0; lra).
  exists m, [prevL; curL], g, 1%nat, np, (sqrt 3 / 2 * x), (sqrt 3 / 2 * y), (sqrt 3 / 2).
  split; [reflexivity|]. split; [cbn; lra|]. split; [reflexivity|]. split; [exact F|]. split; [exact Eg|]. rewrite En. cbn [vx vy].
  split; [reflexivity|]. split; [reflexivity|]. split; [lra|].
  replace (sqrt 3 / 2 * x * (sqrt 3 / 2 * x) + sqrt 3 / 2 * y * (sqrt 3 / 2 * y)) with (sqrt 3 / 2 * (sqrt 3 / 2) * (x * x + y * y)) by ring. rewrite U1. ring.
Qed.

(** the hypotheses of C120_double, for two legs side by side along x *)
Section Along_x.
Import HelperClaims HelperProofs2 OverhangClaims OverhangProofs Properties_Overhang.
Local Open Scope R_scope.
Lemma rect_ahead_x (c0 : Rpoint) (w x0 x1 y0 y1 z : R) : Y c0 = 0 -> 0 < w -> y0 < 0 < y1 -> x0 < x1 -> 1 <= (x1 - x0) * (y1 - y0) ->
  intersectPathCodirectedWith (Pl c0 (cross (rv w 0 0) axisZ)) (rect x0 x1 y0 y1 z) (rv w 0 0) = Ok (Some (P3 (A := ArithR) x1 0 z)).
Proof.
  intros C0 W Hy Hx A. unfold intersectPathCodirectedWith. rewrite (rect_centroid _ _ _ _ z A). cbn [rbind]. f_equal.
  set (pl := Pl c0 (cross (rv w 0 0) axisZ)) in *.
  assert (Sd : forall q, sd pl q = - (Y q * w)).
  { intros q. unfold pl. rewrite flat_sd, C0. ring. }
  unfold rect.
  set (v0 := P3 (A := ArithR) x0 y0 z) in *. set (v1 := P3 (A := ArithR) x0 y1 z) in *.
  set (v2 := P3 (A := ArithR) x1 y1 z) in *. set (v3 := P3 (A := ArithR) x1 y0 z) in *.
  cbn [ipcw_loop].
  assert (S0 : sd pl v0 = - (y0 * w)) by (rewrite Sd; reflexivity).
  assert (S1 : sd pl v1 = - (y1 * w)) by (rewrite Sd; reflexivity).
  assert (S2 : sd pl v2 = - (y1 * w)) by (rewrite Sd; reflexivity).
  assert (S3 : sd pl v3 = - (y0 * w)) by (rewrite Sd; reflexivity).
  assert (y0 * w < 0) by nra. assert (0 < y1 * w) by nra.
  rewrite (GeomProofs.isect_some pl v0 v1) by (rewrite ?S0, ?S1; nra).
  assert (E1 : cut pl v0 v1 = P3 (A := ArithR) x0 0 z).
  { unfold cut. rewrite S0, S1. unfold along, v0, v1, X, Y, Z3. cbn [px py pz]. apply p3_eq; rcbn; try (field; lra). }
  rewrite E1.
  assert (C1 : codirected (vectorTo (P3 (A := ArithR) ((x0 + x1) / 2)%R ((y0 + y1) / 2)%R z) (P3 (A := ArithR) x0 0 z)) (rv w 0 0) = false).
  { unfold codirected. rcbn. apply Rleb_false. unfold dot, vectorTo, rv. cbn [px py pz vx vy vz]. rcbn. nra. }
  rewrite C1.
  rewrite (GeomProofs.isect_none pl v1 v2) by (rewrite !Sd; left; reflexivity).
  rewrite (GeomProofs.isect_some pl v2 v3) by (rewrite ?S2, ?S3; nra).
  assert (E2 : cut pl v2 v3 = P3 (A := ArithR) x1 0 z).
  { unfold cut. rewrite S2, S3. unfold along, v2, v3, X, Y, Z3. cbn [px py pz]. apply p3_eq; rcbn; try (field; lra). }
  rewrite E2.
  assert (C2 : codirected (vectorTo (P3 (A := ArithR) ((x0 + x1) / 2)%R ((y0 + y1) / 2)%R z) (P3 (A := ArithR) x1 0 z)) (rv w 0 0) = true).
  { unfold codirected. rcbn. apply Rleb_true. unfold dot, vectorTo, rv. cbn [px py pz vx vy vz]. rcbn. nra. }
  rewrite C2. reflexivity.
Qed.
Example exP_double : exists m layers g k np, first_fail failExistBridge 1 layers = Ok (Some (k, np)) /\ sliceBridge (A := ArithR) env0 m exT_s layers = Ok g /\
  (vx (pl_n np) : R) <> 0 /\ (vy (pl_n np) : R) = 0.
Proof.
  set (prevL := Properties_Overhang.layer_of (A := ArithR) [rect (-2) 2 (-2) 2 0; rect 18 22 (-2) 2 0]).
  set (curL := Properties_Overhang.layer_of (A := ArithR) [rect (-2) 4 (-2) 2 1; rect 18 22 (-2) 2 1]).
  pose proof tan40 as T40.
  assert (C1 : findCentroid (rect (-2) 2 (-2) 2 0) = Ok (P3 (A := ArithR) ((-2 + 2) / 2)%R ((-2 + 2) / 2)%R 0)) by (apply rect_centroid; lra).
  assert (C2 : findCentroid (rect 18 22 (-2) 2 0) = Ok (P3 (A := ArithR) ((18 + 22) / 2)%R ((-2 + 2) / 2)%R 0)) by (apply rect_centroid; lra).
  assert (D1 : findCentroid (rect (-2) 4 (-2) 2 1) = Ok (P3 (A := ArithR) ((-2 + 4) / 2)%R ((-2 + 2) / 2)%R 1)) by (apply rect_centroid; lra).
  assert (D2 : findCentroid (rect 18 22 (-2) 2 1) = Ok (P3 (A := ArithR) ((18 + 22) / 2)%R ((-2 + 2) / 2)%R 1)) by (apply rect_centroid; lra).
  assert (Tp : getTwoOutsidePathes prevL = Ok (rect (-2) 2 (-2) 2 0, rect 18 22 (-2) 2 0)).
  { unfold getTwoOutsidePathes, prevL, Properties_Overhang.layer_of. cbn [l_paths getAllOutsidePathes]. rewrite C1, C2. cbn [rbind].
    rewrite !rect_outside by lra. reflexivity. }
  assert (Tc : getTwoOutsidePathes curL = Ok (rect (-2) 4 (-2) 2 1, rect 18 22 (-2) 2 1)).
  { unfold getTwoOutsidePathes, curL, Properties_Overhang.layer_of. cbn [l_paths getAllOutsidePathes]. rewrite D1, D2. cbn [rbind].
    rewrite !rect_outside by lra. reflexivity. }
  set (np := Pl (P3 (A := ArithR) 2 0 0) (tilt_normal (A := ArithR) (angle (axisX (A := ArithR)) (rv 19 0 0) + 90)%R)).
  assert (L : leans (pl_n np) 1 0).
  { unfold np. cbn [pl_n]. split; [ring|]. rewrite tilt_eq.
    assert (N : rv 19 0 0 <> Vzero) by (unfold rv, Vzero; intros E; injection E; lra).
    destruct (angle_x _ N) as (Cx & Sx). rewrite angle_sym in Cx, Sx. set (b := deg (angle (axisX (A := ArithR)) (rv 19 0 0))) in *.
    assert (Cz : cos b = 1).
    { rewrite Cx. cbn [vx rv]. replace (Vlen (rv 19 0 0)) with 19; [field|]. unfold Vlen, Vdot, rv. cbn [vx vy vz]. rcbn. symmetry. transitivity (sqrt (Rsqr 19)); [f_equal; unfold Rsqr; ring|apply sqrt_Rsqr; lra]. }
    pose proof (sin2_cos2 b) as Q. unfold Rsqr in Q. rewrite Cz in Q. assert (Sz : sin b = 0) by nra.
    rewrite Cz, Sz. unfold rv. apply v3_eq; ring. }
  assert (E : failExistBridge prevL curL = Ok (Some np)).
  { unfold failExistBridge. rewrite Tp, Tc. cbn [rbind]. rewrite C1. cbn [rbind]. rewrite D1. cbn [rbind]. rewrite D2. cbn [rbind].
    match goal with |- context [if ?b then _ else _] => replace b with false end.
    2: { symmetry. unfold distanceTo. rcbn. apply Rltb_false. apply sqrt_le_1_alt. cbn [px py pz vx vy vz]. rcbn. lra. }
    match goal with |- context [vectorTo ?a ?b] => replace (vectorTo a b) with (rv 19 0 0) by (unfold vectorTo; cbn [px py pz]; rcbn; apply v3_eq; lra) end.
    unfold fail_leg.
    match goal with |- context [vectorTo ?a ?b] => replace (vectorTo a b) with (rv 19 0 0) by (unfold vectorTo; cbn [px py pz]; rcbn; apply v3_eq; lra) end.
    rewrite !rect_ahead_x by (try reflexivity; unfold Y; cbn [py]; lra). cbn [rbind].
    unfold failAngle. rcbn.
    match goal with |- context [Rltb ?a ?b] => replace (Rltb a b) with true end; [reflexivity|].
    symmetry. apply Rltb_true. unfold vectorTo. cbn [px py pz]. rcbn. apply (steep_R (4 - 2) (0 - 0) (1 - 0)); [lra|].
    replace ((4 - 2) * (4 - 2) + (0 - 0) * (0 - 0)) with (Rsqr 2) by (unfold Rsqr; ring). rewrite sqrt_Rsqr by lra. lra. }
  destruct (exP_run prevL curL np 1 0 (P3 (A := ArithR) (-2)%R (-2)%R 1%R) E L) as (m & g & F & Eg).
  { unfold np, X. cbn [pl_p px]. rewrite Rabs_pos_eq; lra. }
  { unfold np, Y. cbn [pl_p py]. rewrite Rabs_R0. lra. }
  { reflexivity. } { reflexivity. } { reflexivity. }
  { unfold Z3. cbn [pz]. lra. }
  exists m, [prevL; curL], g, 1%nat, np. split; [exact F|]. split; [exact Eg|]. destruct L as (_ & ->). cbn [vx vy].
  assert (P3 : 0 < sqrt 3) by (apply sqrt_lt_R0; lra). split; lra.
Qed.
End Along_x.

Print Assumptions C120_spacing.
Print Assumptions C120_double.
