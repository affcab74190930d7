(** * Properties C94-C96: what the flags of the command do *)
From Coq Require Import String ZArith NArith Ascii Reals Lra Lia List Bool Permutation Sorted PeanoNat.
From Flocq Require Import Core.Raux.
From Verif Require Import Arith ArithR ArithF64 Prim Path GeomSpec MeshProofs Helpers Gcode GcodeSpec GcodeInstr GcodeClaims GcodeText GcodeProofs GcodeInv TextOK GcodeReal GcodeProofs2 GcodeProofs3
  GcodeProofs5 Properties_Gcode Slicer SlicerClaims SlicerProofs Properties_Slicer Fill FillClaims FillProofs Properties_Fill Vip Main MainClaims Properties_Main
  WhereClaims WhereProofs Properties_Where.
Import ListNotations.
Close Scope Z_scope.
Close Scope num_scope.
Close Scope string_scope.
Close Scope R_scope.
Open Scope list_scope.
Open Scope nat_scope.

(** ** C95 The flow flag *)
Section Flow.
Context {A : Arith}.
(** the flags with another value of --flow *)
Definition with_flow (v : num) (f : flags) : flags :=
  Flags (fl_origin f) (fl_rotc f) (fl_epsilon f) (fl_layerHeight f) (fl_wallThickness f) (fl_fillDensity f) (fl_topLayers f)
    (fl_bottomLayers f) (fl_bedTemperature f) (fl_extruderTemperature f) (fl_printSpeed f) (fl_printSpeedLayer1 f)
    (fl_printSpeedWall f) (fl_fanOffLayer1 f) (fl_lineWidth f) (fl_fillingType f) (fl_retraction f) (fl_retractionSpeed f)
    (fl_retractionDistance f) (fl_planesFile f) (fl_slicingType f) (fl_angle f) (fl_normal f) (fl_supportsOn f)
    (fl_supportOffset f) (fl_barDiameter f) v (fl_skirtLineCount f).

Definition gflow (v : num) (g : gsett) : gsett :=
  GSett (BarDiameter g) v (LayerHeight g) (LineWidth g) (FanOffLayer1 g) (PrintSpeed g) (PrintSpeedLayer1 g) (PrintSpeedWall g)
    (Retraction g) (RetractionSpeed g) (RetractionDistance g).
Definition sflow (v : num) (s : settings) : settings :=
  Settings (gflow v (s_g s)) (s_dateTime s) (s_epsilon s) (s_layerHeight s) (s_wallThickness s) (s_fillDensity s)
    (s_bedTemperature s) (s_extruderTemperature s) (s_layerCount s) (s_rotationCenter s) (s_planesFile s) (s_fillingType s)
    (s_colorizedAngle s) (s_unitVector s) (s_supportsOn s) (s_supportOffset s) (s_topLayers s) (s_bottomLayers s) (s_skirtLineCount s).
Definition pflow (v : num) (g : gcode) : gcode := Gcode (gflow v (g_sett g)) (g_cmds g).
Definition rflow (v : num) (r : res gcode) : res gcode :=
  match r with Ok g => Ok (pflow v g) | Panic => Panic | Diverge => Diverge end.

Lemma flow_settings v now f : settingsOf now (with_flow v f) = sflow v (settingsOf now f).
Proof. reflexivity. Qed.
Lemma flow_slice v U m Zv s : sliceByVector U m Zv (sflow v s) = sliceByVector U m Zv s.
Proof. reflexivity. Qed.
Lemma flow_fill v U ls fp ff s : fillLayers U ls fp ff (sflow v s) = fillLayers U ls fp ff s.
Proof.
  unfold fillLayers. generalize 0%Z. generalize (Z.of_nat (length ls)). intros n. induction ls as [|l ls IH]; intros i; cbn [fill_loop]; [reflexivity|].
  change (fillLayer U n i fp ff (sflow v s) l) with (fillLayer U n i fp ff s l).
  destruct (fillLayer U n i fp ff s l); cbn [rbind]; try reflexivity. now rewrite IH.
Qed.
Lemma flow_prepare v U ls s fp ff : prepareLayers U ls (sflow v s) fp ff = prepareLayers U ls s fp ff.
Proof. unfold prepareLayers. exact (flow_fill v U _ fp ff s). Qed.
Lemma flow_planes v m s : calcFillPlanes m (sflow v s) = calcFillPlanes m s.
Proof. reflexivity. Qed.


Lemma flow_planes_loop v U s fp ff : forall beds parts i rot g,
  planes_loop U (sflow v s) fp ff i rot parts beds (pflow v g) = rflow v (planes_loop U s fp ff i rot parts beds g).
Proof.
  induction beds as [|pl beds IH]; intros [|part parts] i rot g; cbn [planes_loop]; try reflexivity.
  destruct (bed_cmds i pl rot) as [cmds rot'].
  rewrite flow_slice. change (bed_mesh (sflow v s) i pl part) with (bed_mesh s i pl part).
  destruct (sliceByVector U (bed_mesh s i pl part) axisZ s) as [add| |]; cbn [rbind rflow]; try reflexivity.
  rewrite flow_prepare. destruct (prepareLayers U add s fp ff) as [filled| |]; cbn [rbind rflow]; try reflexivity.
  rewrite <- IH. f_equal. unfold g_addLayers, g_add, pflow. cbn [g_sett g_cmds].
  assert (K : forall cmds g, fold_left g_add cmds (pflow v g) = pflow v (fold_left g_add cmds g)).
  { clear. induction cmds as [|c cmds IH]; intros g; cbn [fold_left]; [reflexivity|]. rewrite <- IH. reflexivity. }
  fold (pflow v g). rewrite K. unfold pflow. cbn [g_sett g_cmds]. reflexivity.
Qed.
Lemma flow_default_loop v U s : forall fuel fp ff rot m layers g,
  default_loop fuel U (sflow v s) fp ff rot m layers (pflow v g) = rflow v (default_loop fuel U s fp ff rot m layers g).
Proof.
  induction fuel as [|fuel IH]; intros fp ff rot m layers g; cbn [default_loop]; [reflexivity|].
  destruct (first_fail calculateFails 1 layers) as [[[i p]|]| |]; cbn [rbind rflow]; try reflexivity.
  - destruct (cutMesh (u_ends U) m p) as [[up down]| |]; cbn [rbind rflow]; try reflexivity.
    rewrite flow_slice. destruct (sliceByVector U down axisZ s) as [add| |]; cbn [rbind rflow]; try reflexivity.
    rewrite flow_prepare. destruct (prepareLayers U add s fp ff) as [filled| |]; cbn [rbind rflow]; try reflexivity.
    destruct rot as [az|]; rewrite flow_slice.
    + destruct (sliceByVector U (unturn_mesh az up) axisZ s); cbn [rbind rflow]; try reflexivity. rewrite <- IH. reflexivity.
    + destruct (sliceByVector U (turn_mesh (heading p) up) axisZ s); cbn [rbind rflow]; try reflexivity. rewrite <- IH. reflexivity.
  - destruct (length layers <=? 1)%nat; [reflexivity|]. rewrite flow_prepare.
    destruct (prepareLayers U layers s fp ff); cbn [rbind rflow]; reflexivity.
Qed.
Lemma flow_profile_loop v U s : forall pts up g,
  profile_loop U (sflow v s) up pts (pflow v g) = rflow v (profile_loop U s up pts g).
Proof.
  induction pts as [|a pts IH]; intros up g; [reflexivity|]. destruct pts as [|b r]; [reflexivity|].
  set (rest := b :: r) in *.
  change (profile_loop U (sflow v s) up (a :: rest) (pflow v g)) with
    ('(up, down) <- match r with [] => Ok (up, up) | _ => cutMesh (u_ends U) up (Pl b axisZ) end ;;
     let az := nadd (angle (projectOnPlane (vectorTo a b) planeXY) axisX) (nofZ 90) in
     let ax := angle (vectorTo a b) axisZ in
     let down := m_rotate (m_rotate down (rotationAroundZ az) originPoint) (rotationAroundX ax) originPoint in
     ls <- sliceByVector U down axisZ (sflow v s) ;;
     profile_loop U (sflow v s) up rest (g_addLayers (g_add (pflow v g) (RotateXZ ax az)) ls)).
  change (profile_loop U s up (a :: rest) g) with
    ('(up, down) <- match r with [] => Ok (up, up) | _ => cutMesh (u_ends U) up (Pl b axisZ) end ;;
     let az := nadd (angle (projectOnPlane (vectorTo a b) planeXY) axisX) (nofZ 90) in
     let ax := angle (vectorTo a b) axisZ in
     let down := m_rotate (m_rotate down (rotationAroundZ az) originPoint) (rotationAroundX ax) originPoint in
     ls <- sliceByVector U down axisZ s ;;
     profile_loop U s up rest (g_addLayers (g_add g (RotateXZ ax az)) ls)).
  destruct (match r with [] => Ok (up, up) | _ => cutMesh (u_ends U) up (Pl b axisZ) end) as [[up' down]| |]; cbn [rbind rflow]; try reflexivity.
  cbv zeta. rewrite flow_slice. destruct (sliceByVector _ _ _ _) as [ls| |]; cbn [rbind rflow]; try reflexivity.
  rewrite <- IH. reflexivity.
Qed.
Lemma flow_five_loop v U beyond s : forall fuel rot sm m layers toAdd g,
  five_loop fuel U beyond (sflow v s) rot sm m layers toAdd (pflow v g) = rflow v (five_loop fuel U beyond s rot sm m layers toAdd g).
Proof.
  induction fuel as [|fuel IH]; intros rot sm m layers toAdd g; cbn [five_loop]; [reflexivity|].
  destruct (first_fail calculateFails 1 layers) as [[[i np]|]| |]; cbn [rbind rflow]; try reflexivity.
  2:{ destruct (length layers <=? 1)%nat; reflexivity. }
  destruct (prefix beyond i toAdd) as [first| |]; cbn [rbind rflow]; try reflexivity.
  destruct (idx layers i) as [li| |]; cbn [rbind rflow]; try reflexivity.
  destruct (calculateCenter li) as [curP| |]; cbn [rbind rflow]; try reflexivity.
  destruct (cutMesh (u_ends U) sm (Pl curP axisZ)) as [[sm1 x1]| |]; cbn [rbind rflow]; try reflexivity.
  destruct (cutMesh (u_ends U) m (Pl curP axisZ)) as [[m1 x2]| |]; cbn [rbind rflow]; try reflexivity.
  destruct (cutMesh (u_ends U) sm1 np) as [[sm2 x3]| |]; cbn [rbind rflow]; try reflexivity.
  destruct (cutMesh (u_ends U) m1 np) as [[m2 down]| |]; cbn [rbind rflow]; try reflexivity.
  rewrite flow_slice. destruct (sliceByVector U down axisZ s) as [leg| |]; cbn [rbind rflow]; try reflexivity.
  destruct rot as [az|]; rewrite flow_slice.
  - destruct (sliceByVector U (unturn_mesh az sm2) axisZ s); cbn [rbind rflow]; try reflexivity.
    rewrite flow_slice. destruct (sliceByVector U (unturn_mesh az m2) axisZ s); cbn [rbind rflow]; try reflexivity. rewrite <- IH. reflexivity.
  - destruct (sliceByVector U (turn_mesh (heading np) sm2) axisZ s); cbn [rbind rflow]; try reflexivity.
    rewrite flow_slice. destruct (sliceByVector U (turn_mesh (heading np) m2) axisZ s); cbn [rbind rflow]; try reflexivity. rewrite <- IH. reflexivity.
Qed.

Lemma flow_vip v fuel U parse planes m s : Vip.slice fuel U parse planes m (sflow v s) = rflow v (Vip.slice fuel U parse planes m s).
Proof.
  unfold Vip.slice. destruct (readPlanes parse planes) as [[|p ps]| |]; cbn [rbind rflow]; try reflexivity.
  2:{ unfold sliceByPlanes. rewrite flow_planes. destruct (calcFillPlanes m s) as [fp ff].
      destruct (cut_parts U m (rev (p :: ps)) []) as [parts| |]; cbn [rbind rflow]; try reflexivity.
      exact (flow_planes_loop v U s fp ff (calcBedPlanes (p :: ps)) parts 0 false (newGcode (s_g s))). }
  rewrite flow_slice. destruct (sliceByVector U m axisZ s) as [layers| |]; cbn [rbind rflow]; try reflexivity.
  assert (D : sliceDefault2 fuel U m (sflow v s) layers = rflow v (sliceDefault2 fuel U m s layers)).
  { unfold sliceDefault2. rewrite flow_planes. destruct (calcFillPlanes m s) as [fp ff].
    exact (flow_default_loop v U s fuel fp ff None m layers (newGcode (s_g s))). }
  assert (B : sliceBridge U m (sflow v s) layers = rflow v (sliceBridge U m s layers)).
  { unfold sliceBridge. rewrite flow_planes. destruct (calcFillPlanes m s) as [fp ff].
    destruct (first_fail failExistBridge 1 layers) as [x| |]; cbn [rbind rflow]; try reflexivity. cbv zeta.
    rewrite flow_prepare. destruct (prepareLayers U _ s fp ff) as [filled| |]; cbn [rbind rflow]; try reflexivity.
    destruct (layer_point layers _) as [pt| |]; cbn [rbind rflow]; try reflexivity.
    destruct (cutMesh (u_ends U) m (Pl pt axisZ)) as [[m1 x2]| |]; cbn [rbind rflow]; try reflexivity.
    destruct x as [[i np]|]; [|reflexivity].
    destruct (cutMesh (u_ends U) m1 np) as [[m2 down]| |]; cbn [rbind rflow]; try reflexivity.
    rewrite flow_slice. destruct (sliceByVector U down axisZ s) as [leg| |]; cbn [rbind rflow]; try reflexivity.
    rewrite flow_prepare. destruct (prepareLayers U leg s fp ff) as [f1| |]; cbn [rbind rflow]; try reflexivity.
    rewrite flow_slice. destruct (sliceByVector U (turn_mesh (heading np) m2) axisZ s) as [rest| |]; cbn [rbind rflow]; try reflexivity.
    rewrite flow_prepare. destruct (prepareLayers U rest s _ _) as [f2| |]; cbn [rbind rflow]; reflexivity. }
  assert (R : sliceRotation U m (sflow v s) layers = rflow v (sliceRotation U m s layers)).
  { unfold sliceRotation. rewrite flow_planes. destruct (calcFillPlanes m s) as [fp ff].
    destruct (first_fail failRotation 1 layers) as [x| |]; cbn [rbind rflow]; try reflexivity. cbv zeta.
    rewrite flow_prepare. destruct (prepareLayers U _ s fp ff) as [filled| |]; cbn [rbind rflow]; try reflexivity.
    destruct (layer_point layers _) as [pt| |]; cbn [rbind rflow]; try reflexivity.
    destruct (cutMesh (u_ends U) m (Pl pt axisZ)) as [[m1 x2]| |]; cbn [rbind rflow]; try reflexivity.
    rewrite flow_slice. destruct (sliceByVector U _ _ s) as [rest| |]; cbn [rbind rflow]; try reflexivity.
    rewrite flow_prepare. destruct (prepareLayers U rest s _ _) as [f2| |]; cbn [rbind rflow]; reflexivity. }
  rewrite D, B, R.
  destruct (idx layers 0) as [l0| |]; cbn [rbind rflow]; try reflexivity.
  destruct (getAllOutsidePathes (l_paths l0)) as [op| |]; cbn [rbind rflow]; try reflexivity.
  destruct (length op =? 2)%nat; [reflexivity|].
  destruct (idx op 0) as [p0| |]; cbn [rbind rflow]; try reflexivity.
  destruct (if (length op =? 1)%nat then isRotation p0 else Ok false) as [rot| |]; cbn [rbind rflow]; try reflexivity.
  destruct (negb rot); [reflexivity|].
  destruct (idx_last layers) as [le| |]; cbn [rbind rflow]; try reflexivity.
  destruct (getAllOutsidePathes (l_paths le)) as [op2| |]; cbn [rbind rflow]; try reflexivity.
  destruct (idx op2 0) as [p2| |]; cbn [rbind rflow]; try reflexivity.
  destruct (if (length op2 =? 1)%nat then isRotation p2 else Ok false) as [[|]| |]; cbn [rbind rflow]; reflexivity.
Qed.

Lemma flow_slicing v X f : slicing X (with_flow v f) = rflow v (slicing X f).
Proof.
  unfold slicing. rewrite flow_settings. cbv zeta. set (s := settingsOf (ex_now X) f). cbn [with_flow fl_slicingType fl_origin].
  set (m := m_shift (ex_mesh X) (fl_origin f)).
  destruct (String.eqb (fl_slicingType f) "3axes").
  { unfold sliceByVectorToGcode. rewrite flow_slice, flow_planes. destruct (sliceByVector _ _ _ _) as [ls| |]; cbn [rbind rflow]; try reflexivity.
    destruct (calcFillPlanes m s) as [fp ff]. rewrite flow_fill. destruct (fillLayers _ _ _ _ _); cbn [rbind rflow]; reflexivity. }
  destruct (String.eqb (fl_slicingType f) "5axes_by_profile").
  { unfold sliceByProfile. rewrite flow_slice. destruct (sliceByVector _ _ _ _) as [ls| |]; cbn [rbind rflow]; try reflexivity.
    destruct (calculateCenters ls) as [cs| |]; cbn [rbind rflow]; try reflexivity.
    change (s_epsilon (sflow v s)) with (s_epsilon s). destruct (simplifyLine _ _ _) as [sl| |]; cbn [rbind rflow]; try reflexivity.
    exact (flow_profile_loop v _ s sl m (newGcode (s_g s))). }
  destruct (String.eqb (fl_slicingType f) "5axes").
  { unfold slice5Axes. destruct (simplifyMesh _ _ _) as [sm|]; [|reflexivity].
    rewrite flow_slice. destruct (sliceByVector _ _ _ _) as [ls| |]; cbn [rbind rflow]; try reflexivity.
    rewrite flow_slice. destruct (sliceByVector _ _ _ _) as [ls2| |]; cbn [rbind rflow]; try reflexivity.
    exact (flow_five_loop v _ _ s (ex_fuel X) None sm m ls ls2 (newGcode (s_g s))). }
  destruct (String.eqb (fl_slicingType f) "vip"); [|reflexivity]. apply flow_vip.
Qed.

(** the text *)
Lemma flow_segs v sett : forall p e, segsToGCode (gflow v sett) e p = segsToGCode sett e p.
Proof.
  induction p as [|a p IH]; intros e; [reflexivity|]. destruct p as [|b p]; [reflexivity|].
  change (segsToGCode (gflow v sett) e (a :: b :: p)) with
    (let e' := nadd e (eDelta sett a b) in let '(e'', o) := segsToGCode (gflow v sett) e' (b :: p) in
     (e'', ("G1 " ++ stringGcode b a ++ " E" ++ strF e' ++ nl)%string :: o)).
  cbv zeta. rewrite IH. reflexivity.
Qed.
Lemma flow_paths v sett : forall ps s, pathsLoop (gflow v sett) s ps = pathsLoop sett s ps.
Proof.
  induction ps as [|p ps IH]; intros s; cbn [pathsLoop]; [reflexivity|].
  replace (pathToGCode (gflow v sett) s p) with (pathToGCode sett s p).
  - destruct (pathToGCode sett s p) as [[s1 o1]| |]; cbn [rbind]; try reflexivity. now rewrite IH.
  - destruct p as [|p0 p]; [reflexivity|]. unfold pathToGCode. now rewrite flow_segs.
Qed.
Lemma flow_pathes v sett ps c s : pathesToGCode ps c (gflow v sett) s = pathesToGCode ps c sett s.
Proof.
  unfold pathesToGCode. change (printSpeedToGCode s (gflow v sett)) with (printSpeedToGCode s sett).
  destruct (printSpeedToGCode s sett). now rewrite flow_paths.
Qed.
Lemma flow_layers v sett : forall ls s, layersToGCode (gflow v sett) s ls = layersToGCode sett s ls.
Proof.
  induction ls as [|l ls IH]; intros s; cbn [layersToGCode]; [reflexivity|].
  replace (layerToGCode (gflow v sett) s l) with (layerToGCode sett s l).
  - destruct (layerToGCode sett s l) as [[s1 o1]| |]; cbn [rbind]; try reflexivity. now rewrite IH.
  - unfold layerToGCode. change (switchFanGCode s (gflow v sett)) with (switchFanGCode s sett). destruct (switchFanGCode s sett) as [s1 o1].
    rewrite flow_pathes. destruct (pathesToGCode _ _ _ _) as [[s3 o3]| |]; cbn [rbind]; try reflexivity.
    rewrite flow_pathes. destruct (pathesToGCode _ _ _ _) as [[s4 o4]| |]; cbn [rbind]; try reflexivity.
    rewrite flow_pathes. destruct (pathesToGCode _ _ _ _) as [[s5 o5]| |]; cbn [rbind]; try reflexivity.
    now rewrite flow_pathes.
Qed.
Lemma flow_output v g : toOutput (pflow v g) = toOutput g.
Proof.
  unfold toOutput, pflow. cbn [g_sett g_cmds]. generalize newState.
  assert (K : forall cs s, cmdsToGCode (gflow v (g_sett g)) s cs = cmdsToGCode (g_sett g) s cs).
  { induction cs as [|c cs IH]; intros s; cbn [cmdsToGCode]; [reflexivity|].
    replace (toGCode c s (gflow v (g_sett g))) with (toGCode c s (g_sett g)) by (destruct c; cbn [toGCode]; rewrite ?flow_layers; reflexivity).
    destruct (toGCode c s (g_sett g)) as [[s1 o1]| |]; cbn [rbind]; try reflexivity. now rewrite IH. }
  intros s. now rewrite K.
Qed.

(** The flow flag changes nothing, in any mode. *)
Theorem C95_flow_ignored : forall X f v, goosli X (with_flow v f) = goosli X f.
Proof.
  intros X f v. unfold goosli. rewrite flow_slicing. destruct (slicing X f) as [g| |]; cbn [rbind rflow]; try reflexivity.
  unfold commandsWithTemplates. rewrite flow_output. rewrite flow_settings. reflexivity.
Qed.
End Flow.

(** ** C94 Filament *)

(** In every mode the E words of the file are the exact amounts, rounded once each, for
    layers that are where the print moves go: 4 line_width layer_height L / (pi bar_diameter^2)
    for a length L. *)
Theorem C94_filament : forall (X0 : @outside ArithR) f out, good_outside X0 -> goosli X0 f = Ok out -> fl_barDiameter f <> 0%R ->
  exists head t foot is layers,
    out = (head ++ t ++ foot)%string /\ read_gcode t = Some is /\
    (forall c m, Forall (moves_among 0 layers) (events c m is)) /\
    print_Es is =
      layers_E (4 * fl_lineWidth f * fl_layerHeight f / (PI * (fl_barDiameter f * fl_barDiameter f)))%R 0%R layers.
Proof.
  intros X0 f out G H B. destruct (goosli_inv X0 f out G H) as (g & t & hl & fl & is & s' & Es & E & -> & I & R & _ & _).
  exists hl, t, fl, is, (flat_map cmd_layers (g_cmds g)). split; [reflexivity|]. split; [exact R|]. split.
  { intros c m. exact (cmds_among _ _ _ _ _ c m I (Z.le_refl 0)). }
  pose proof (slicing_sett X0 f g Es) as S.
  destruct (C06_extruded_length g t E) as (is' & R' & K).
  { rewrite S. exact B. }
  rewrite R in R'. injection R' as <-. rewrite K. unfold filament_rate. rewrite S. reflexivity.
Qed.

(** ** C96 Fill flags in three-axis mode *)
Section Fill.
Context {A : Arith} {L : LtOK A} {T : TextOK A}.

(** planes across [axis], [100 / percent] line widths apart *)
Definition sparse (m : mesh) (axis : vector) (percent : Z) (w : num) : list plane :=
  calcFillPlanesCommon m axis (nmul (ndiv (nofZ 100) (nofZ percent)) w).
(** the pattern of --filling_type: an unknown name means lines *)
Definition pattern (m : mesh) (f : flags) : list plane :=
  let d := fl_fillDensity f in let w := fl_lineWidth f in
  let c45 := nlit 7071067812 10000000000 in let c60 := nlit 8660254038 10000000000 in
  if String.eqb (fl_fillingType f) "Squares" then
    sparse m (V3 c45 c45 n0) (Z.quot d 2) w ++ sparse m (V3 (nopp c45) c45 n0) (Z.quot d 2) w
  else if String.eqb (fl_fillingType f) "Triangles" then
    sparse m (V3 n1 n0 n0) (Z.quot d 3) w ++ sparse m (V3 nhalf c60 n0) (Z.quot d 3) w ++
    sparse m (V3 (nopp nhalf) c60 n0) (Z.quot d 3) w
  else sparse m (V3 n1 n0 n0) d w.
(** one line width apart *)
Definition solid (m : mesh) (f : flags) : list plane := calcFillPlanesCommon m (V3 n1 n0 n0) (fl_lineWidth f).

Lemma fill_flags X f : calcFillPlanes (m_shift (ex_mesh X) (fl_origin f)) (settingsOf (ex_now X) f) =
  (pattern (m_shift (ex_mesh X) (fl_origin f)) f, solid (m_shift (ex_mesh X) (fl_origin f)) f).
Proof.
  unfold calcFillPlanes, pattern. cbn [settingsOf s_fillingType].
  destruct (String.eqb_spec (fl_fillingType f) "Lines") as [->|_]; [reflexivity|].
  destruct (String.eqb (fl_fillingType f) "Squares"); [reflexivity|].
  destruct (String.eqb (fl_fillingType f) "Triangles"); reflexivity.
Qed.

(** The fill of every layer is what the planes of the flags cut out of its contours, one path
    per cut: the solid planes on the bottom_layers lowest and the top_layers highest layers,
    the pattern elsewhere. There is nothing but contours and fill. *)
Theorem C96_fill : forall X f out,
  good_outside X -> legal (ex_U X) -> fl_slicingType f = "3axes"%string -> goosli X f = Ok out ->
  let m := m_shift (ex_mesh X) (fl_origin f) in
  exists head t foot is layers,
    out = (head ++ t ++ foot)%string /\ read_gcode t = Some is /\
    (forall c m, Forall (moves_among 0 layers) (events c m is)) /\
    forall k l, nth_error layers k = Some l ->
      l_middle l = [] /\ l_inner l = None /\
      exists pls,
        ((Z.of_nat k < fl_bottomLayers f \/ Z.of_nat (length layers) - fl_topLayers f <= Z.of_nat k)%Z -> pls = solid m f) /\
        ((fl_bottomLayers f <= Z.of_nat k < Z.of_nat (length layers) - fl_topLayers f)%Z -> pls = pattern m f) /\
        let cuts := flat_map (intersectByPlane (ex_U X) (l_paths l)) pls in
        length (l_fill l) = length cuts /\
        Forall (fun g => exists c, In c cuts /\ (g = c \/ g = rev c)) (l_fill l).
Proof.
  intros X f out G HU T3 H m0. destruct (goosli_inv X f out G H) as (g & t & hl & fl & is & s' & Es & E & -> & I & R & _ & _).
  exists hl, t, fl, is, (flat_map cmd_layers (g_cmds g)). split; [reflexivity|]. split; [exact R|]. split.
  { intros c m. exact (cmds_among _ _ _ _ _ c m I (Z.le_refl 0)). }
  unfold slicing in Es. rewrite T3 in Es. cbn [String.eqb Ascii.eqb Bool.eqb] in Es. unfold sliceByVectorToGcode in Es.
  destruct (sliceByVector (ex_U X) (m_shift (ex_mesh X) (fl_origin f)) axisZ (settingsOf (ex_now X) f)) as [ls| |] eqn:El; cbn [rbind] in Es; try discriminate Es.
  rewrite fill_flags in Es. fold m0 in Es.
  destruct (fillLayers (ex_U X) ls (pattern m0 f) (solid m0 f) (settingsOf (ex_now X) f)) as [lf| |] eqn:Ef; cbn [rbind] in Es; try discriminate Es.
  injection Es as <-. cbn [g_addLayers g_add newGcode g_cmds flat_map cmd_layers app]. rewrite app_nil_r.
  pose proof (bare_layers _ _ _ _ _ HU El) as B.
  destruct (C47_fill (ex_U X) ls (pattern m0 f) (solid m0 f) (settingsOf (ex_now X) f)) as (out' & F' & S & K).
  { eapply Forall_impl; [|exact B]. cbn beta. intros l (_ & _ & ->). constructor. }
  rewrite Ef in F'. injection F' as <-.
  assert (Len : length ls = length lf) by (clear -S; induction S; cbn; congruence).
  intros k l' Hk'.
  assert (Hk : exists l, nth_error ls k = Some l /\ same_but_fill l l').
  { clear -S Hk'. revert k Hk'. induction S as [|x y ls out H S IH]; intros [|j]; cbn; try discriminate; [|apply IH].
    intros [= <-]. eauto. }
  destruct Hk as (l & Hk & SB). destruct SB as (_ & _ & Q1 & Q2 & Q3).
  rewrite Forall_forall in B. destruct (B l (nth_error_In _ _ Hk)) as (B1 & B2 & B3).
  destruct (K k l l' Hk Hk') as (pls & P1 & P2 & P3 & P4 & _).
  split; [congruence|]. split; [congruence|]. exists pls. rewrite <- Len. cbn [settingsOf s_bottomLayers s_topLayers] in P1, P2.
  split; [exact P1|]. split; [exact P2|]. cbv zeta.
  assert (Cn : contours l = l_paths l') by (unfold contours; rewrite B2; exact Q1).
  rewrite B3, Cn in P3, P4. cbn [app] in P3, P4. split; assumption.
Qed.
End Fill.

(** ** C97 The other five-axis modes print contours only *)
Section Bare.
Context {A : Arith} {T : TextOK A}.
Definition bare (l : layer) : Prop := l_middle l = [] /\ l_inner l = None /\ l_fill l = [].

Lemma bare_addLayers g ls : Forall bare (flat_map cmd_layers (g_cmds g)) -> Forall bare ls ->
  Forall bare (flat_map cmd_layers (g_cmds (g_addLayers g ls))).
Proof.
  intros H1 H2. unfold g_addLayers, g_add. cbn [g_cmds]. rewrite flat_map_app. apply Forall_app. split; [exact H1|].
  cbn. now rewrite app_nil_r.
Qed.
Lemma bare_add g c : bed_cmd c = true -> Forall bare (flat_map cmd_layers (g_cmds g)) ->
  Forall bare (flat_map cmd_layers (g_cmds (g_add g c))).
Proof.
  intros Hc H1. unfold g_add. cbn [g_cmds]. rewrite flat_map_app. apply Forall_app. split; [exact H1|]. destruct c; try discriminate Hc; constructor.
Qed.

Lemma bare_profile U s (HU : legal U) : forall pts up g g', Forall bare (flat_map cmd_layers (g_cmds g)) ->
  profile_loop U s up pts g = Ok g' -> Forall bare (flat_map cmd_layers (g_cmds g')).
Proof.
  induction pts as [|a pts IH]; intros up g g' H; [intros [= <-]; exact H|]. destruct pts as [|b r]; [intros [= <-]; exact H|].
  set (rest := b :: r) in *.
  change (profile_loop U s up (a :: rest) g) with
    ('(up, down) <- match r with [] => Ok (up, up) | _ => cutMesh (u_ends U) up (Pl b axisZ) end ;;
     let az := nadd (angle (projectOnPlane (vectorTo a b) planeXY) axisX) (nofZ 90) in
     let ax := angle (vectorTo a b) axisZ in
     let down := m_rotate (m_rotate down (rotationAroundZ az) originPoint) (rotationAroundX ax) originPoint in
     ls <- sliceByVector U down axisZ s ;;
     profile_loop U s up rest (g_addLayers (g_add g (RotateXZ ax az)) ls)).
  destruct (match r with [] => Ok (up, up) | _ => cutMesh (u_ends U) up (Pl b axisZ) end) as [[up' down]| |]; cbn [rbind]; try discriminate.
  cbv zeta. destruct (sliceByVector _ _ _ _) as [ls| |] eqn:E; cbn [rbind]; try discriminate.
  apply IH. apply bare_addLayers; [|exact (bare_layers _ _ _ _ _ HU E)]. now apply bare_add.
Qed.
Lemma bare_firstn i ls : Forall bare ls -> Forall bare (firstn i ls).
Proof. rewrite !Forall_forall. intros H x Hx. apply H. rewrite <- (firstn_skipn i ls). apply in_or_app. now left. Qed.
Lemma bare_five U beyond s (HU : legal U) (HB : forall i ls r, Forall bare ls -> beyond i ls = Ok r -> Forall bare r) :
  forall fuel rot sm m layers toAdd g g', Forall bare (flat_map cmd_layers (g_cmds g)) -> Forall bare toAdd ->
  five_loop fuel U beyond s rot sm m layers toAdd g = Ok g' -> Forall bare (flat_map cmd_layers (g_cmds g')).
Proof.
  induction fuel as [|fuel IH]; intros rot sm m layers toAdd g g' H HA; cbn [five_loop]; [discriminate|].
  destruct (first_fail calculateFails 1 layers) as [[[i np]|]| |]; cbn [rbind]; try discriminate.
  2:{ intros [= <-]. destruct (length layers <=? 1)%nat; [exact H|]. now apply bare_addLayers. }
  destruct (prefix beyond i toAdd) as [first| |] eqn:Ep; cbn [rbind]; try discriminate.
  assert (HF : Forall bare first).
  { unfold prefix in Ep. destruct (i <=? length toAdd)%nat; [injection Ep as <-; now apply bare_firstn|eauto]. }
  destruct (idx layers i) as [li| |]; cbn [rbind]; try discriminate.
  destruct (calculateCenter li) as [curP| |]; cbn [rbind]; try discriminate.
  destruct (cutMesh (u_ends U) sm (Pl curP axisZ)) as [[sm1 x1]| |]; cbn [rbind]; try discriminate.
  destruct (cutMesh (u_ends U) m (Pl curP axisZ)) as [[m1 x2]| |]; cbn [rbind]; try discriminate.
  destruct (cutMesh (u_ends U) sm1 np) as [[sm2 x3]| |]; cbn [rbind]; try discriminate.
  destruct (cutMesh (u_ends U) m1 np) as [[m2 down]| |]; cbn [rbind]; try discriminate.
  destruct (sliceByVector U down axisZ s) as [leg| |] eqn:El; cbn [rbind]; try discriminate.
  assert (HG : Forall bare (flat_map cmd_layers (g_cmds (g_addLayers (g_addLayers g first) leg)))).
  { apply bare_addLayers; [now apply bare_addLayers|exact (bare_layers _ _ _ _ _ HU El)]. }
  destruct rot as [az|].
  - destruct (sliceByVector U (unturn_mesh az sm2) axisZ s); cbn [rbind]; try discriminate.
    destruct (sliceByVector U (unturn_mesh az m2) axisZ s) as [ta| |] eqn:Et; cbn [rbind]; try discriminate.
    apply IH; [now apply bare_add|exact (bare_layers _ _ _ _ _ HU Et)].
  - destruct (sliceByVector U (turn_mesh (heading np) sm2) axisZ s); cbn [rbind]; try discriminate.
    destruct (sliceByVector U (turn_mesh (heading np) m2) axisZ s) as [ta| |] eqn:Et; cbn [rbind]; try discriminate.
    apply IH; [now apply bare_add|exact (bare_layers _ _ _ _ _ HU Et)].
Qed.

(** In the modes 5axes and 5axes_by_profile no print move is in a fill or inner-wall section,
    whatever the flags. ([ex_beyond] is what Go finds beyond the length of a slice of layers.) *)
Theorem C97_contours_only : forall X f out,
  good_outside X -> legal (ex_U X) ->
  (forall i ls r, Forall bare ls -> ex_beyond X i ls = Ok r -> Forall bare r) ->
  fl_slicingType f = "5axes"%string \/ fl_slicingType f = "5axes_by_profile"%string ->
  goosli X f = Ok out ->
  exists head t foot is,
    out = (head ++ t ++ foot)%string /\ read_gcode t = Some is /\
    forall c m, Forall (fun e => is_print (ev_instr e) = true -> c_sect (ev_at e) = "OUTER_PATHES"%string) (events c m is).
Proof.
  intros X f out G HU HB T5 H. destruct (goosli_inv X f out G H) as (g & t & hl & fl & is & s' & Es & E & -> & I & R & _ & _).
  exists hl, t, fl, is. split; [reflexivity|]. split; [exact R|].
  assert (B : Forall bare (flat_map cmd_layers (g_cmds g))).
  { unfold slicing in Es. destruct T5 as [T5|T5]; rewrite T5 in Es; cbn [String.eqb Ascii.eqb Bool.eqb] in Es.
    - unfold slice5Axes in Es. destruct (simplifyMesh _ _ _) as [sm|]; [|discriminate Es].
      destruct (sliceByVector (ex_U X) sm axisZ _) as [ls| |]; cbn [rbind] in Es; try discriminate Es.
      destruct (sliceByVector (ex_U X) (m_shift _ _) axisZ _) as [ta| |] eqn:Et; cbn [rbind] in Es; try discriminate Es.
      eapply bare_five; [exact HU|exact HB| |exact (bare_layers _ _ _ _ _ HU Et)|exact Es]. constructor.
    - unfold sliceByProfile in Es. destruct (sliceByVector _ _ _ _) as [ls| |]; cbn [rbind] in Es; try discriminate Es.
      destruct (calculateCenters ls) as [cs| |]; cbn [rbind] in Es; try discriminate Es.
      destruct (simplifyLine _ _ _) as [sl| |]; cbn [rbind] in Es; try discriminate Es.
      eapply bare_profile; [exact HU| |exact Es]. constructor. }
  intros c m. pose proof (cmds_among _ _ _ _ _ c m I (Z.le_refl 0)) as W.
  eapply Forall_impl; [|exact W]. intros e He Hp. destruct (He Hp) as (j & l & _ & Hl & Hm). destruct (Hm Hp) as (p & Hin & _).
  rewrite Forall_forall in B. destruct (B l (nth_error_In _ _ Hl)) as (B1 & B2 & B3).
  unfold section_paths in Hin. rewrite B1, B2, B3 in Hin.
  destruct (String.eqb_spec (c_sect (ev_at e)) "OUTER_PATHES") as [Q|_]; [exact Q|].
  destruct (String.eqb _ "MIDDLE_PATHES"); [destruct Hin|]. destruct (String.eqb _ "INNER_PATHES"); [destruct Hin|].
  destruct (String.eqb _ "FILL_PATHES"); destruct Hin.
Qed.
End Bare.

(** ** Cases *)
(** C94: the exact run of Properties_Where.v *)
Example exR_filament : good_outside exR_outside /\ (exists out, goosli exR_outside exR_flags = Ok out) /\ fl_barDiameter exR_flags <> 0%R.
Proof. split; [exact exR_good|]. split; [exact exR_goosli|]. cbn [exR_flags fl_barDiameter]. rcbn. lra. Qed.
Section Runs.
Let AF := ArithF64 elem0.
Local Existing Instance AF.
(** C95: half the flow, the same file *)
Lemma flow_case v f out (is : list instr) : neqb (fl_flow f) v = false -> neqb (fl_flow f) (fl_flow f) = true ->
  goosli (A := AF) ex_outside f = Ok out ->
  fl_flow (with_flow v f) <> fl_flow f /\ goosli ex_outside (with_flow v f) = Ok out.
Proof.
  intros H1 H2 H3. split; [intros K; cbn [with_flow fl_flow] in K; subst v; rewrite H1 in H2; discriminate H2|].
  now rewrite C95_flow_ignored.
Qed.
Example ex_flow : exists out, goosli ex_outside (ex_flags "3axes" false) = Ok out /\
  fl_flow (with_flow (nlit 5 10) (ex_flags "3axes" false)) <> fl_flow (ex_flags "3axes" false) /\
  goosli ex_outside (with_flow (nlit 5 10) (ex_flags "3axes" false)) = Ok out.
Proof.
  destruct ex_goosli as (out & is & H & _). exists out. split; [exact H|].
  apply (flow_case (nlit 5 10) (ex_flags "3axes" false) out is); [vm_compute; reflexivity|vm_compute; reflexivity|exact H].
Qed.
(** C97: files with print moves in both modes *)
Example ex_profile : exists out is, goosli ex_outside (ex_flags "5axes_by_profile" false) = Ok out /\ read_file out = Some is /\ 3 <= prints is.
Proof. apply goosli_check. vm_compute. reflexivity. Qed.
Example ex_outside_legal : legal (ex_U ex_outside) /\ (forall i ls r, Forall bare ls -> ex_beyond ex_outside i ls = Ok r -> Forall bare r).
Proof. split; [apply env0_legal|]. intros i ls r _ H. discriminate H. Qed.

End Runs.
Section Five.
(** sine, cosine and arc cosine for which nothing overhangs *)
Definition elemU : elem := {| e_sin := fun _ => f64_ofZ 0; e_cos := fun _ => f64_ofZ 1; e_acos := fun _ => f64_ofZ 0 |}.
Let AF := ArithF64 elemU.
Local Existing Instance AF.
Definition spire : mesh :=
  let a := P3 n0 n0 n0 in let b := P3 n1 n0 n0 in let c := P3 n0 n1 n0 in let d := P3 n0 n0 (nofZ 10) in
  [newTriangle a c b; newTriangle a b d; newTriangle b c d; newTriangle a d c].
Definition five_flags : @flags AF :=
  Flags (V3 n0 n0 n0) (P3 n0 n0 n0) n1 (nofZ 3) (nlit 8 10) 20 3 3 60 200 50 25 40 true (nlit 4 10) "Lines" false 30 n1
    "planes" "5axes" (nofZ 30) (V3 n0 n0 n1) false n1 (nlit 175 100) n1 3.
Definition five_outside : @outside AF :=
  Outside spire None (Some header_template) (Some footer_template) "02 Jan 06 15:04 MST" (@rev _) (fun m => m) env0
    (fun _ => n0) (fun _ ts => ts) (fun _ _ => Panic) 10.
Lemma five_check X f (k : nat) :
  match goosli (A := AF) X f with
  | Ok out => match read_file out with Some is => (k <=? prints is)%nat | None => false end
  | _ => false
  end = true -> exists out is, goosli X f = Ok out /\ read_file out = Some is /\ k <= prints is.
Proof.
  destruct (goosli X f) as [out| |]; try discriminate. destruct (read_file out) as [is|] eqn:R; [|discriminate]. intros H.
  exists out, is. split; [reflexivity|]. split; [exact R|]. now apply PeanoNat.Nat.leb_le.
Qed.
Example ex_five : exists out is, goosli five_outside five_flags = Ok out /\ read_file out = Some is /\ 12 <= prints is.
Proof. apply five_check. vm_compute. reflexivity. Qed.
End Five.

Print Assumptions C94_filament.
Print Assumptions C95_flow_ignored.
Print Assumptions C96_fill.
Print Assumptions C97_contours_only.
