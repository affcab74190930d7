(** * C116 Which flags each slicing type reads *)
From Coq Require Import String ZArith NArith List Bool PeanoNat.
From Verif Require Import Arith Prim Path Helpers Gcode Slicer SlicerClaims SlicerProofs Properties_Slicer Fill Vip Main MainClaims ArithF64 GcodeSpec GcodeInstr GcodeClaims Properties_Main Properties_Flags.
Import ListNotations.
Close Scope Z_scope.
Close Scope num_scope.
Close Scope string_scope.
Open Scope list_scope.

(** ** Vocabulary *)
(** the flags of cmd/goosli, apart from --slicing_type *)
Inductive flag :=
  F_origin | F_rotc | F_epsilon | F_layer_height | F_wall_thickness | F_fill_density | F_top_layers | F_bottom_layers
| F_bed_temperature | F_extruder_temperature | F_print_speed | F_print_speed_layer1 | F_print_speed_wall | F_fan_off_layer1
| F_line_width | F_filling_type | F_retraction | F_retraction_speed | F_retraction_distance | F_planes_file
| F_angle | F_normal | F_supports_on | F_support_offset | F_bar_diameter | F_flow | F_skirt_line_count.

(** what the printing head and the extruder need, in every mode *)
Definition always : list flag :=
  [F_origin; F_layer_height; F_line_width; F_bar_diameter; F_print_speed; F_print_speed_layer1; F_print_speed_wall;
   F_fan_off_layer1; F_retraction; F_retraction_speed; F_retraction_distance; F_supports_on].
Definition supports : list flag := [F_angle; F_normal; F_support_offset].
Definition filling : list flag := [F_fill_density; F_filling_type; F_top_layers; F_bottom_layers].
(** what only the comments and temperatures of the templates need *)
Definition templates : list flag := [F_wall_thickness; F_fill_density; F_bed_temperature; F_extruder_temperature].
(** what a mode needs besides; [planes]: a planes file with at least one plane *)
Definition reads (mode : string) (planes : bool) : list flag :=
  if String.eqb mode "3axes" then filling
  else if String.eqb mode "5axes_by_profile" then [F_epsilon]
  else if String.eqb mode "vip" then filling ++ [F_wall_thickness] ++ (if planes then [F_rotc; F_skirt_line_count] else [])
  else [].

Section Reads.
Context {A : Arith}.

Definition same (x : flag) (f f' : flags) : Prop :=
  match x with
  | F_origin => fl_origin f = fl_origin f'
  | F_rotc => fl_rotc f = fl_rotc f'
  | F_epsilon => fl_epsilon f = fl_epsilon f'
  | F_layer_height => fl_layerHeight f = fl_layerHeight f'
  | F_wall_thickness => fl_wallThickness f = fl_wallThickness f'
  | F_fill_density => fl_fillDensity f = fl_fillDensity f'
  | F_top_layers => fl_topLayers f = fl_topLayers f'
  | F_bottom_layers => fl_bottomLayers f = fl_bottomLayers f'
  | F_bed_temperature => fl_bedTemperature f = fl_bedTemperature f'
  | F_extruder_temperature => fl_extruderTemperature f = fl_extruderTemperature f'
  | F_print_speed => fl_printSpeed f = fl_printSpeed f'
  | F_print_speed_layer1 => fl_printSpeedLayer1 f = fl_printSpeedLayer1 f'
  | F_print_speed_wall => fl_printSpeedWall f = fl_printSpeedWall f'
  | F_fan_off_layer1 => fl_fanOffLayer1 f = fl_fanOffLayer1 f'
  | F_line_width => fl_lineWidth f = fl_lineWidth f'
  | F_filling_type => fl_fillingType f = fl_fillingType f'
  | F_retraction => fl_retraction f = fl_retraction f'
  | F_retraction_speed => fl_retractionSpeed f = fl_retractionSpeed f'
  | F_retraction_distance => fl_retractionDistance f = fl_retractionDistance f'
  | F_planes_file => fl_planesFile f = fl_planesFile f'
  | F_angle => fl_angle f = fl_angle f'
  | F_normal => fl_normal f = fl_normal f'
  | F_supports_on => fl_supportsOn f = fl_supportsOn f'
  | F_support_offset => fl_supportOffset f = fl_supportOffset f'
  | F_bar_diameter => fl_barDiameter f = fl_barDiameter f'
  | F_flow => fl_flow f = fl_flow f'
  | F_skirt_line_count => fl_skirtLineCount f = fl_skirtLineCount f'
  end.

(** the flags agree as far as the mode reads them *)
Definition agree (X : outside) (f f' : flags) : Prop :=
  fl_slicingType f = fl_slicingType f' /\
  (forall x, In x always -> same x f f') /\
  (fl_supportsOn f = true -> forall x, In x supports -> same x f f') /\
  (forall x, In x (reads (fl_slicingType f) (match readPlanes (ex_parse X) (ex_planes X) with Ok (_ :: _) => true | _ => false end)) -> same x f f').

(** ** Settings *)
Definition like (s s' : settings) : Prop :=
  s_g s = s_g s' /\ s_layerHeight s = s_layerHeight s' /\ s_supportsOn s = s_supportsOn s' /\
  (s_supportsOn s = true -> s_colorizedAngle s = s_colorizedAngle s' /\ s_unitVector s = s_unitVector s' /\ s_supportOffset s = s_supportOffset s').
Definition like_fill (s s' : settings) : Prop :=
  s_fillDensity s = s_fillDensity s' /\ s_fillingType s = s_fillingType s' /\ s_topLayers s = s_topLayers s' /\ s_bottomLayers s = s_bottomLayers s'.

Section Two.
Variables (U : env) (s s' : settings).
Hypothesis L : like s s'.

Lemma like_slice m Zv : sliceByVector U m Zv s = sliceByVector U m Zv s'.
Proof.
  destruct L as (_ & E1 & E2 & E3). unfold sliceByVector. destruct m as [|t m]; [reflexivity|].
  assert (K : slicing_jobs U (t :: m) Zv s = slicing_jobs U (t :: m) Zv s').
  { unfold slicing_jobs, layer_number. rewrite <- E1, <- E2. destruct (s_supportsOn s) eqn:O; [|reflexivity].
    destruct (E3 eq_refl) as (A1 & A2 & A3). unfold supportTriangles. rewrite <- A1, <- A2, <- A3. reflexivity. }
  now rewrite K.
Qed.
Hypothesis F : like_fill s s'.
Lemma like_fills ls fp ff : fillLayers U ls fp ff s = fillLayers U ls fp ff s'.
Proof.
  destruct F as (_ & _ & F3 & F4). unfold fillLayers. generalize 0%Z. generalize (Z.of_nat (length ls)). intros n.
  induction ls as [|l ls IH]; intros i; cbn [fill_loop]; [reflexivity|].
  assert (K : fillLayer U n i fp ff s l = fillLayer U n i fp ff s' l) by (unfold fillLayer; now rewrite F3, F4).
  rewrite K. destruct (fillLayer U n i fp ff s' l); cbn [rbind]; try reflexivity. now rewrite IH.
Qed.
Lemma like_planes m : calcFillPlanes m s = calcFillPlanes m s'.
Proof.
  destruct F as (F1 & F2 & _). destruct L as (G & _). unfold calcFillPlanes, calcFillPlanesLines, calcFillPlanesSquares, calcFillPlanesTriangles, calcFillFullPlane, fill_step.
  now rewrite F1, F2, G.
Qed.
Hypothesis W : s_wallThickness s = s_wallThickness s'.
Lemma like_prepare ls fp ff : prepareLayers U ls s fp ff = prepareLayers U ls s' fp ff.
Proof. destruct L as (G & _). unfold prepareLayers, addWalls. rewrite W, G. apply like_fills. Qed.

Lemma like_default : forall fuel fp ff rot m layers g,
  default_loop fuel U s fp ff rot m layers g = default_loop fuel U s' fp ff rot m layers g.
Proof.
  induction fuel as [|fuel IH]; intros fp ff rot m layers g; cbn [default_loop]; [reflexivity|].
  destruct (first_fail calculateFails 1 layers) as [[[i p]|]| |]; cbn [rbind]; try reflexivity.
  - destruct (cutMesh (u_ends U) m p) as [[up down]| |]; cbn [rbind]; try reflexivity.
    rewrite like_slice. destruct (sliceByVector U down axisZ s') as [add| |]; cbn [rbind]; try reflexivity.
    rewrite like_prepare. destruct (prepareLayers U add s' fp ff) as [filled| |]; cbn [rbind]; try reflexivity.
    destruct rot as [az|]; rewrite like_slice.
    + destruct (sliceByVector U (unturn_mesh az up) axisZ s'); cbn [rbind]; try reflexivity. apply IH.
    + destruct (sliceByVector U (turn_mesh (heading p) up) axisZ s'); cbn [rbind]; try reflexivity. apply IH.
  - destruct (length layers <=? 1)%nat; [reflexivity|]. now rewrite like_prepare.
Qed.
Lemma like_default2 fuel m layers : sliceDefault2 fuel U m s layers = sliceDefault2 fuel U m s' layers.
Proof. unfold sliceDefault2. rewrite like_planes. destruct (calcFillPlanes m s') as [fp ff]. destruct L as (-> & _). apply like_default. Qed.
Lemma like_bridge m layers : sliceBridge U m s layers = sliceBridge U m s' layers.
Proof.
  unfold sliceBridge. rewrite like_planes. destruct (calcFillPlanes m s') as [fp ff].
  destruct (first_fail failExistBridge 1 layers) as [x| |]; cbn [rbind]; try reflexivity. cbv zeta.
  rewrite like_prepare. destruct (prepareLayers U _ s' fp ff) as [filled| |]; cbn [rbind]; try reflexivity.
  destruct (layer_point layers _) as [pt| |]; cbn [rbind]; try reflexivity.
  destruct (cutMesh (u_ends U) m (Pl pt axisZ)) as [[m1 x2]| |]; cbn [rbind]; try reflexivity.
  destruct x as [[i np]|]; [|reflexivity].
  destruct (cutMesh (u_ends U) m1 np) as [[m2 down]| |]; cbn [rbind]; try reflexivity.
  rewrite like_slice. destruct (sliceByVector U down axisZ s') as [leg| |]; cbn [rbind]; try reflexivity.
  rewrite like_prepare. destruct (prepareLayers U leg s' fp ff) as [f1| |]; cbn [rbind]; try reflexivity.
  rewrite like_slice. destruct (sliceByVector U (turn_mesh (heading np) m2) axisZ s') as [rest| |]; cbn [rbind]; try reflexivity.
  rewrite like_prepare. destruct L as (-> & _). reflexivity.
Qed.
Lemma like_rotation m layers : sliceRotation U m s layers = sliceRotation U m s' layers.
Proof.
  unfold sliceRotation. rewrite like_planes. destruct (calcFillPlanes m s') as [fp ff].
  destruct (first_fail failRotation 1 layers) as [x| |]; cbn [rbind]; try reflexivity. cbv zeta.
  rewrite like_prepare. destruct (prepareLayers U _ s' fp ff) as [filled| |]; cbn [rbind]; try reflexivity.
  destruct (layer_point layers _) as [pt| |]; cbn [rbind]; try reflexivity.
  destruct (cutMesh (u_ends U) m (Pl pt axisZ)) as [[m1 x2]| |]; cbn [rbind]; try reflexivity.
  rewrite like_slice. destruct (sliceByVector U _ _ s') as [rest| |]; cbn [rbind]; try reflexivity.
  rewrite like_prepare. destruct L as (-> & _). reflexivity.
Qed.
Lemma like_planes_loop fp ff : s_rotationCenter s = s_rotationCenter s' -> s_skirtLineCount s = s_skirtLineCount s' ->
  forall beds parts i rot g, planes_loop U s fp ff i rot parts beds g = planes_loop U s' fp ff i rot parts beds g.
Proof.
  intros R K. induction beds as [|pl beds IH]; intros [|part parts] i rot g; cbn [planes_loop]; try reflexivity.
  destruct (bed_cmds i pl rot) as [cmds rot'].
  replace (bed_mesh s i pl part) with (bed_mesh s' i pl part) by (unfold bed_mesh; now rewrite R).
  rewrite like_slice. destruct (sliceByVector U (bed_mesh s' i pl part) axisZ s') as [add| |]; cbn [rbind]; try reflexivity.
  rewrite like_prepare. destruct (prepareLayers U add s' fp ff) as [filled| |]; cbn [rbind]; try reflexivity.
  rewrite IH. replace (skirt_first i s filled) with (skirt_first i s' filled); [reflexivity|].
  unfold skirt_first. destruct L as (-> & _). now rewrite K.
Qed.
End Two.

Lemma like_profile U s s' : like s s' -> forall pts up g, profile_loop U s up pts g = profile_loop U s' up pts g.
Proof.
  intros L. induction pts as [|a rest IH]; intros up g; [reflexivity|]. destruct rest as [|b r]; [reflexivity|].
  set (rest := b :: r) in *.
  change (profile_loop U s up (a :: rest) g) with
    ('(up, down) <- match r with [] => Ok (up, up) | _ => cutMesh (u_ends U) up (Pl b axisZ) end ;;
     let az := nadd (angle (projectOnPlane (vectorTo a b) planeXY) axisX) (nofZ 90) in
     let ax := angle (vectorTo a b) axisZ in
     let down := m_rotate (m_rotate down (rotationAroundZ az) originPoint) (rotationAroundX ax) originPoint in
     ls <- sliceByVector U down axisZ s ;;
     profile_loop U s up rest (g_addLayers (g_add g (RotateXZ ax az)) ls)).
  change (profile_loop U s' up (a :: rest) g) with
    ('(up, down) <- match r with [] => Ok (up, up) | _ => cutMesh (u_ends U) up (Pl b axisZ) end ;;
     let az := nadd (angle (projectOnPlane (vectorTo a b) planeXY) axisX) (nofZ 90) in
     let ax := angle (vectorTo a b) axisZ in
     let down := m_rotate (m_rotate down (rotationAroundZ az) originPoint) (rotationAroundX ax) originPoint in
     ls <- sliceByVector U down axisZ s' ;;
     profile_loop U s' up rest (g_addLayers (g_add g (RotateXZ ax az)) ls)).
  destruct (match r with [] => Ok (up, up) | _ => cutMesh (u_ends U) up (Pl b axisZ) end) as [[up' down]| |]; cbn [rbind]; try reflexivity.
  cbv zeta. rewrite (like_slice U s s' L). destruct (sliceByVector _ _ _ s') as [ls| |]; cbn [rbind]; try reflexivity. apply IH.
Qed.
Lemma like_five U s s' beyond : like s s' -> forall fuel rot sm m layers toAdd g,
  five_loop fuel U beyond s rot sm m layers toAdd g = five_loop fuel U beyond s' rot sm m layers toAdd g.
Proof.
  intros L. induction fuel as [|fuel IH]; intros rot sm m layers toAdd g; cbn [five_loop]; [reflexivity|].
  destruct (first_fail calculateFails 1 layers) as [[[i np]|]| |]; cbn [rbind]; try reflexivity.
  destruct (prefix beyond i toAdd) as [first| |]; cbn [rbind]; try reflexivity.
  destruct (idx layers i) as [li| |]; cbn [rbind]; try reflexivity.
  destruct (calculateCenter li) as [curP| |]; cbn [rbind]; try reflexivity.
  destruct (cutMesh (u_ends U) sm (Pl curP axisZ)) as [[sm1 x1]| |]; cbn [rbind]; try reflexivity.
  destruct (cutMesh (u_ends U) m (Pl curP axisZ)) as [[m1 x2]| |]; cbn [rbind]; try reflexivity.
  destruct (cutMesh (u_ends U) sm1 np) as [[sm2 x3]| |]; cbn [rbind]; try reflexivity.
  destruct (cutMesh (u_ends U) m1 np) as [[m2 down]| |]; cbn [rbind]; try reflexivity.
  rewrite (like_slice U s s' L). destruct (sliceByVector U down axisZ s') as [leg| |]; cbn [rbind]; try reflexivity.
  destruct rot as [az|]; rewrite (like_slice U s s' L).
  - destruct (sliceByVector U (unturn_mesh az sm2) axisZ s'); cbn [rbind]; try reflexivity.
    rewrite (like_slice U s s' L). destruct (sliceByVector U (unturn_mesh az m2) axisZ s'); cbn [rbind]; try reflexivity. apply IH.
  - destruct (sliceByVector U (turn_mesh (heading np) sm2) axisZ s'); cbn [rbind]; try reflexivity.
    rewrite (like_slice U s s' L). destruct (sliceByVector U (turn_mesh (heading np) m2) axisZ s'); cbn [rbind]; try reflexivity. apply IH.
Qed.

Lemma agree_like X f f' : agree X f f' -> fl_flow f = fl_flow f' -> like (settingsOf (ex_now X) f) (settingsOf (ex_now X) f').
Proof.
  intros (_ & Al & Su & _) H11.
  pose proof (Al F_layer_height ltac:(cbn; tauto)) as H1. pose proof (Al F_line_width ltac:(cbn; tauto)) as H2.
  pose proof (Al F_bar_diameter ltac:(cbn; tauto)) as H3. pose proof (Al F_print_speed ltac:(cbn; tauto)) as H4.
  pose proof (Al F_print_speed_layer1 ltac:(cbn; tauto)) as H5. pose proof (Al F_print_speed_wall ltac:(cbn; tauto)) as H6.
  pose proof (Al F_fan_off_layer1 ltac:(cbn; tauto)) as H7. pose proof (Al F_retraction ltac:(cbn; tauto)) as H8.
  pose proof (Al F_retraction_speed ltac:(cbn; tauto)) as H9. pose proof (Al F_retraction_distance ltac:(cbn; tauto)) as H10.
  pose proof (Al F_supports_on ltac:(cbn; tauto)) as H12. cbn [same] in *.
  repeat split; cbn [settingsOf s_g s_layerHeight s_supportsOn s_colorizedAngle s_unitVector s_supportOffset]; try congruence.
  - exact (Su H F_angle ltac:(cbn; tauto)).
  - exact (Su H F_normal ltac:(cbn; tauto)).
  - exact (Su H F_support_offset ltac:(cbn; tauto)).
Qed.

Lemma agree_slicing X f f' : agree X f f' -> fl_flow f = fl_flow f' -> slicing X f = slicing X f'.
Proof.
  intros G Hv. pose proof (agree_like X f f' G Hv) as L. destruct G as (Ty & Al & _ & Rd).
  pose proof (Al F_origin ltac:(cbn; tauto)) as Eo. cbn [same] in Eo. unfold slicing. cbv zeta. rewrite <- Eo, <- Ty.
  set (m := m_shift (ex_mesh X) (fl_origin f)).
  set (s := settingsOf (ex_now X) f) in *. set (s' := settingsOf (ex_now X) f') in *. unfold reads in Rd.
  destruct (String.eqb (fl_slicingType f) "3axes").
  { assert (Fi : like_fill s s').
    { repeat split; [exact (Rd F_fill_density ltac:(cbn; tauto))|exact (Rd F_filling_type ltac:(cbn; tauto))|exact (Rd F_top_layers ltac:(cbn; tauto))|exact (Rd F_bottom_layers ltac:(cbn; tauto))]. }
    unfold sliceByVectorToGcode. rewrite (like_slice _ s s' L), (like_planes s s' L Fi).
    destruct (sliceByVector _ _ _ _) as [ls| |]; cbn [rbind]; try reflexivity.
    destruct (calcFillPlanes m s') as [fp ff]. rewrite (like_fills _ s s' Fi). destruct L as (-> & _). reflexivity. }
  destruct (String.eqb (fl_slicingType f) "5axes_by_profile").
  { unfold sliceByProfile. rewrite (like_slice _ s s' L). destruct (sliceByVector _ _ _ _) as [ls| |]; cbn [rbind]; try reflexivity.
    destruct (calculateCenters ls) as [cs| |]; cbn [rbind]; try reflexivity.
    replace (s_epsilon s) with (s_epsilon s') by (symmetry; exact (Rd F_epsilon ltac:(cbn; tauto))).
    destruct (simplifyLine _ _ _) as [sl| |]; cbn [rbind]; try reflexivity.
    rewrite (like_profile _ s s' L). destruct L as (-> & _). reflexivity. }
  destruct (String.eqb (fl_slicingType f) "5axes").
  { unfold slice5Axes. destruct (simplifyMesh _ _ _) as [sm|]; [|reflexivity].
    rewrite !(like_slice _ s s' L). destruct (sliceByVector _ _ _ _) as [ls| |]; cbn [rbind]; try reflexivity.
    destruct (sliceByVector _ _ _ _) as [ls2| |]; cbn [rbind]; try reflexivity.
    rewrite (like_five _ s s' _ L). destruct L as (-> & _). reflexivity. }
  destruct (String.eqb (fl_slicingType f) "vip"); [|reflexivity].
  assert (Fi : like_fill s s').
  { repeat split; [exact (Rd F_fill_density ltac:(cbn; tauto))|exact (Rd F_filling_type ltac:(cbn; tauto))|exact (Rd F_top_layers ltac:(cbn; tauto))|exact (Rd F_bottom_layers ltac:(cbn; tauto))]. }
  assert (W : s_wallThickness s = s_wallThickness s') by exact (Rd F_wall_thickness ltac:(cbn; tauto)).
  unfold Vip.slice. destruct (readPlanes (ex_parse X) (ex_planes X)) as [[|p ps]| |]; cbn [rbind]; try reflexivity.
  2:{ unfold sliceByPlanes. rewrite (like_planes s s' L Fi). destruct (calcFillPlanes m s') as [fp ff].
      destruct (cut_parts (ex_U X) m (rev (p :: ps)) []) as [parts| |]; cbn [rbind]; try reflexivity.
      rewrite (like_planes_loop _ s s' L Fi W fp ff (Rd F_rotc ltac:(cbn; tauto)) (Rd F_skirt_line_count ltac:(cbn; tauto))). destruct L as (-> & _). reflexivity. }
  rewrite (like_slice _ s s' L). destruct (sliceByVector (ex_U X) m axisZ s') as [layers| |]; cbn [rbind]; try reflexivity.
  rewrite (like_default2 _ s s' L Fi W), (like_bridge _ s s' L Fi W), (like_rotation _ s s' L Fi W). reflexivity.
Qed.


Lemma reads_flow mode b : ~ In F_flow (reads mode b).
Proof.
  unfold reads, filling. destruct (String.eqb mode "3axes"); [cbn; intuition discriminate|]. destruct (String.eqb mode "5axes_by_profile"); [cbn; intuition discriminate|].
  destruct (String.eqb mode "vip"); [|cbn; tauto]. destruct b; cbn; intuition discriminate.
Qed.
Lemma agree_flow X f f' : agree X f f' -> agree X f (with_flow (fl_flow f) f').
Proof.
  intros (H1 & H2 & H3 & H4). split; [exact H1|]. split; [|split].
  - intros x Hx. specialize (H2 x Hx). cbn in Hx. intuition (subst; exact H2).
  - intros O x Hx. specialize (H3 O x Hx). cbn in Hx. intuition (subst; exact H3).
  - intros x Hx. specialize (H4 x Hx). destruct x; exact H4 || (exfalso; apply reads_flow in Hx; exact Hx).
Qed.

(** ** The claims *)
(** The program between the two templates depends only on the flags that the table [reads] gives
    for the slicing type, and so does success. *)
Theorem C116_program : forall X f f', good_outside X -> agree X f f' ->
  ((exists out, goosli X f = Ok out) <-> (exists out, goosli X f' = Ok out)) /\
  (forall out out', goosli X f = Ok out -> goosli X f' = Ok out' ->
     exists g g' t h k h' k', slicing X f = Ok g /\ slicing X f' = Ok g' /\ toOutput g = Ok t /\ toOutput g' = Ok t /\
       out = (h ++ t ++ k)%string /\ out' = (h' ++ t ++ k')%string).
Proof.
  intros X f f' (_ & _ & _ & Hh & Hf) G.
  pose proof (agree_slicing X f _ (agree_flow X f f' G) eq_refl) as K. rewrite flow_slicing in K.
  unfold goosli, commandsWithTemplates, prepareDataFile. rewrite Hh, Hf, K. cbn [rbind].
  destruct (slicing X f') as [g| |]; cbn [rbind rflow]; [|split; [tauto|discriminate]|split; [tauto|discriminate]].
  rewrite flow_output. destruct (toOutput g) as [t| |] eqn:Et; cbn [rbind]; [|split; [split; intros (? & E); discriminate E|discriminate]|split; [split; intros (? & E); discriminate E|discriminate]].
  split; [split; intros _; eexists; reflexivity|]. intros out out' E E'. injection E as <-. injection E' as <-.
  do 7 eexists. split; [reflexivity|]. split; [reflexivity|]. split; [rewrite flow_output; exact Et|]. split; [exact Et|]. split; reflexivity.
Qed.

(** If they also agree on the flags that the templates show, the whole file is the same. *)
Theorem C116_file : forall X f f', agree X f f' -> (forall x, In x templates -> same x f f') -> goosli X f = goosli X f'.
Proof.
  intros X f f' G0 T. rewrite <- (C95_flow_ignored X f' (fl_flow f)). pose proof (agree_flow X f f' G0) as G.
  unfold goosli. rewrite <- (agree_slicing X f _ G eq_refl). destruct (slicing X f) as [g| |]; cbn [rbind]; try reflexivity.
  pose proof (T F_wall_thickness ltac:(cbn; tauto)) as H1. pose proof (T F_fill_density ltac:(cbn; tauto)) as H2.
  pose proof (T F_bed_temperature ltac:(cbn; tauto)) as H3. pose proof (T F_extruder_temperature ltac:(cbn; tauto)) as H4. cbn [same] in *.
  assert (K : toMap (set_layerCount (settingsOf (ex_now X) f) (Z.of_nat (layerCount g))) = toMap (set_layerCount (settingsOf (ex_now X) (with_flow (fl_flow f) f')) (Z.of_nat (layerCount g)))).
  { destruct (agree_like X f _ G eq_refl) as (E1 & E2 & _). unfold toMap, set_layerCount. cbn [s_dateTime s_layerHeight s_wallThickness s_fillDensity s_bedTemperature s_extruderTemperature s_g s_layerCount].
    rewrite E1, E2. cbn [settingsOf with_flow fl_wallThickness fl_fillDensity fl_bedTemperature fl_extruderTemperature s_wallThickness s_fillDensity s_bedTemperature s_extruderTemperature s_dateTime]. rewrite H1, H2, H3, H4. reflexivity. }
  unfold commandsWithTemplates. now rewrite K.
Qed.
End Reads.

(** ** Cases *)
Section Cases.
Let AF := ArithF64 elem0.
Local Existing Instance AF.
(** all flags that the three-axis mode does not read, changed *)
Definition other_flags : @flags AF :=
  Flags (V3 n0 n0 n0) (P3 n1 n1 n1) (nofZ 7) (nlit 3 10) (nofZ 5) 20 3 3 80 250 50 25 40 true (nlit 4 10) "Lines" false 30 n1
    "none" "3axes" (nofZ 60) (V3 n1 n0 n0) false (nofZ 9) (nlit 175 100) (nofZ 3) 8.
Example ex_agree : agree ex_outside (ex_flags "3axes" false) other_flags /\ good_outside ex_outside /\
  (exists out is, goosli ex_outside (ex_flags "3axes" false) = Ok out /\ read_file out = Some is /\ 12 <= prints is)%nat.
Proof.
  split; [|split; [exact ex_good|exact ex_goosli]]. split; [reflexivity|]. split; [|split].
  - intros x Hx. cbn in Hx. intuition (subst; reflexivity).
  - intros E. discriminate E.
  - intros x Hx. cbn in Hx. intuition (subst; reflexivity).
Qed.
End Cases.

(** the entries [F_rotc] and [F_skirt_line_count] of the table are needed: with a planes file the
    program changes with each *)
Section Needed.
Definition elemQ : elem := {| e_sin := fun _ => f64_ofZ 1; e_cos := fun _ => f64_ofZ 0; e_acos := fun _ => f64_ofZ 0 |}.
Let AF := ArithF64 elemQ.
Local Existing Instance AF.
Definition quarter : mesh :=
  let a := P3 n0 n0 n0 in let b := P3 n1 n0 n0 in let c := P3 n0 n1 n0 in let d := P3 n0 n0 (nofZ 10) in
  [newTriangle a b d; newTriangle b c d].
Definition q_flags (c : point) (k : Z) : @flags AF :=
  Flags (V3 n0 n0 n0) c n1 (nofZ 4) (nlit 4 10) 1 0 0 60 200 50 25 40 true (nlit 4 10) "Lines" false 30 n1
    "planes" "vip" (nofZ 30) (V3 n0 n0 n1) false n1 (nlit 175 100) n1 k.
(** a planes file of one level plane *)
Definition q_outside : @outside AF :=
  Outside quarter (Some (bytes "X5 Y5 Z5 Tfalse R5")) (Some header_template) (Some footer_template) "02 Jan 06 15:04 MST" (@rev _) (fun m => m) env0
    (fun _ => nofZ 5) (fun _ ts => ts) (fun _ _ => Panic) 10.
Definition differ (f f' : @flags AF) : bool :=
  match goosli q_outside f, goosli q_outside f' with
  | Ok out, Ok out' => negb (String.eqb out out')
  | _, _ => false
  end.
Lemma differ_out f f' : differ f f' = true -> exists out out', goosli q_outside f = Ok out /\ goosli q_outside f' = Ok out' /\ out <> out'.
Proof.
  unfold differ. destruct (goosli q_outside f) as [out| |], (goosli q_outside f') as [out'| |]; try discriminate.
  intros H. exists out, out'. split; [reflexivity|]. split; [reflexivity|]. intros <-. now rewrite String.eqb_refl in H.
Qed.
Example ex_rotc : exists out out', goosli q_outside (q_flags (P3 n0 n0 n0) 0) = Ok out /\ goosli q_outside (q_flags (P3 n1 n0 n0) 0) = Ok out' /\ out <> out'.
Proof. apply differ_out. vm_compute. reflexivity. Qed.
Example ex_skirt : exists out out', goosli q_outside (q_flags (P3 n0 n0 n0) 0) = Ok out /\ goosli q_outside (q_flags (P3 n0 n0 n0) 2) = Ok out' /\ out <> out'.
Proof. apply differ_out. vm_compute. reflexivity. Qed.
End Needed.

Print Assumptions C116_program.
Print Assumptions C116_file.
