(** * Properties C50-C56, C58, C65-C74: walls, skirts, cut planes, five-axis slicing *)
From Coq Require Import String Ascii ZArith Reals Lra Lia List Bool Permutation Sorted PeanoNat.
From Flocq Require Import Core Core.Raux IEEE754.BinarySingleNaN.
From Verif Require Import Arith ArithR ArithF64 Prim Path PathClaims GeomSpec MeshProofs Helpers Gcode GcodeSpec GcodeInstr GcodeClaims
  TextOK Slicer SlicerClaims SlicerProofs Properties_Gcode Properties_Geom Properties_Path Properties_Slicer
  Fill FillClaims FillProofs FillProofs3 Stl StlClaims StlProofs2 GcodeText Vip VipClaims VipProofs VipReal VipText VipMore VipFloat.
Import ListNotations.
Close Scope Z_scope.
Close Scope num_scope.
Close Scope string_scope.
Close Scope R_scope.

Lemma Forall2_impl {S T} (P Q : S -> T -> Prop) : (forall x y, P x y -> Q x y) -> forall a b, Forall2 P a b -> Forall2 Q a b.
Proof. intros H a b F. induction F; constructor; auto. Qed.

(** ** C50 Walls *)

(** Every contour gets its walls one inside the other, at most [n] of them, and fewer only if
    MakeOffset gives up; contours stay as they are. *)
Theorem C50_walls : forall (A : Arith) (L : LtOK A) U ls (s : settings) fp ff,
  Forall (fun l => Forall (fun f : path => f <> []) (l_fill l)) ls ->
  exists out, prepareLayers U ls s fp ff = Ok out /\
    Forall2 (fun l l' => exists offs, walls_added l l' offs /\
       Forall2 (fun p o => length o <= Z.to_nat (addWalls s) /\
          walls (fun q => if length q <? 2 then None else makeOffset q (LineWidth (s_g s)) (l_norm l)) (Z.to_nat (addWalls s)) p o) (l_paths l) offs) ls out.
Proof. intros A L U ls s fp ff. exact (prepare_total U ls s fp ff). Qed.

(** [n] is floor(WallThickness / LineWidth) - 1 in exact arithmetic *)
Theorem C50_count_exact : forall U ls (s : @settings ArithR) fp ff,
  (0 <= s_wallThickness s)%R -> (0 < LineWidth (s_g s))%R ->
  Forall (fun l => Forall (fun f : path => f <> []) (l_fill l)) ls ->
  exists out, prepareLayers U ls s fp ff = Ok out /\
    Forall2 (fun l l' => exists offs, walls_added l l' offs /\
       let n := Z.to_nat (Zfloor (s_wallThickness s / LineWidth (s_g s)) - 1) in
       Forall2 (fun p o => length o <= n /\
          walls (fun q => if length q <? 2 then None else makeOffset q (LineWidth (s_g s)) (l_norm l)) n p o) (l_paths l) offs) ls out.
Proof.
  intros U ls s fp ff H1 H2 F. cbv zeta. rewrite <- (walls_exact s H1 H2). exact (prepare_total U ls s fp ff F).
Qed.

(** In float64 the default settings give one wall, although floor(1.2 / 0.4) - 1 = 2. *)
Theorem C50_defaults_float : forall (E : elem) U ls (s : @settings (ArithF64 E)) fp ff,
  s_wallThickness s = nlit 12 10 -> LineWidth (s_g s) = nlit 4 10 ->
  Forall (fun l => Forall (fun f : path => f <> []) (l_fill l)) ls ->
  exists out, prepareLayers U ls s fp ff = Ok out /\
    Forall2 (fun l l' => exists offs, walls_added l l' offs /\ Forall (fun o => length o <= 1) offs) ls out.
Proof.
  intros E U ls s fp ff H1 H2 F. destruct (prepare_total U ls s fp ff F) as (out & H & K). exists out. split; [exact H|].
  assert (N : addWalls s = 1%Z). { unfold addWalls. rewrite H1, H2. vm_compute. reflexivity. }
  rewrite N in K. eapply Forall2_impl; [|exact K]. intros l l' (offs & W & G). exists offs. split; [exact W|].
  clear -G. induction G as [|p o ps offs [G1 _] G IH]; constructor; [exact G1|exact IH].
Qed.

(** ** C51, C52 Position of the bed *)

(** The parts are printed in turn; part 0 with the bed as it was, part i+1 with the bed at the
    rotation and tilt of plane i; what is printed are the layers of the part turned and tilted
    in the same way, with a skirt for the first. *)
Theorem C51_beds : forall (A : Arith) U m (s : settings) ps g, sliceByPlanes U m s ps = Ok g ->
  exists parts fills fp ff,
    calcFillPlanes m s = (fp, ff) /\ parted U m ps parts /\
    print_beds n0 0 (g_cmds g) = (n0, 0%Z) :: map (fun p => (ap_rotz p, if ap_tilted p then 60%Z else 0%Z)) ps /\
    match parts, fills with
    | part :: parts, first :: fills =>
        layers_of U s fp ff part first /\
        Forall2 (fun mp f => layers_of U s fp ff
            (inclined (s_rotationCenter s) (ap_tilted (snd mp)) (turned (s_rotationCenter s) (ap_rotz (snd mp)) (fst mp))) f)
          (combine parts ps) fills /\
        length parts = length ps /\
        exists first', with_skirt s first first' /\ printed (g_cmds g) = first' :: fills
    | _, _ => False
    end.
Proof.
  intros A U m s ps g. unfold sliceByPlanes. destruct (calcFillPlanes m s) as [fp ff] eqn:EF.
  destruct (cut_parts U m (rev ps) []) as [parts0| |] eqn:EP; try discriminate. cbn [rbind].
  apply cut_parts_parted in EP. destruct EP as (parts & -> & EP). rewrite app_nil_r.
  pose proof (parted_length _ _ _ _ EP) as LP. intros H.
  apply planes_loop_spec with (r := n0) in H; [|unfold calcBedPlanes; cbn [length]; now rewrite map_length| |reflexivity|reflexivity].
  2: { intros _ b bs [= <- _]. reflexivity. }
  destruct H as (cs & H1 & _ & H2 & _ & fills & H3 & H4). cbn [newGcode g_cmds app] in H1. subst cs.
  exists parts, fills, fp, ff. split; [reflexivity|]. split; [exact EP|]. split.
  { change (tiltZ false) with 0%Z in H2. rewrite H2. unfold calcBedPlanes. cbn [map bp_rotz bp_tilted]. rewrite map_map. reflexivity. }
  destruct parts as [|part parts]; [discriminate|]. cbn [length] in LP. injection LP as LP.
  unfold calcBedPlanes in H3. cbn [length seq combine] in H3. inversion H3 as [|x first l fills' Hx H5]; subst. cbn [fst snd] in Hx.
  cbn [bed_mesh Nat.eqb bp_tilted] in Hx.
  split; [exact Hx|]. split.
  - clear -H5 LP.
    assert (G : forall (parts : list mesh) k ps fills, length parts = length ps ->
      Forall2 (fun mb f => layers_of U s fp ff (bed_mesh s (snd (fst mb)) (snd mb) (fst (fst mb))) f)
        (combine (combine parts (seq (S k) (length parts))) (map (fun p => BP (ap_tilted p) (ap_rotz p)) ps)) fills ->
      Forall2 (fun mp f => layers_of U s fp ff
            (inclined (s_rotationCenter s) (ap_tilted (snd mp)) (turned (s_rotationCenter s) (ap_rotz (snd mp)) (fst mp))) f)
          (combine parts ps) fills).
    { clear. induction parts as [|p parts IH]; intros k [|q ps] fills L; try discriminate; cbn [length seq combine map]; intros F; inversion F; subst; constructor.
      - cbn [fst snd] in *. unfold bed_mesh in H1. cbn [Nat.eqb bp_rotz bp_tilted] in H1. exact H1.
      - apply (IH (S k)); [now injection L|assumption]. }
    exact (G parts 0 ps fills' LP H5).
  - split; [exact LP|]. exists (skirt_first 0 s first). split; [|exact H4]. unfold with_skirt, skirt_first. now destruct first.
Qed.

(** As executed by the printer: the text is split where the printing of part k starts; the bed
    is then at the angles of its plane. *)
Theorem C51_executed : forall (A : Arith) (T : TextOK A) U m (s : settings) ps g t m0,
  sliceByPlanes U m s ps = Ok g -> toOutput g = Ok t ->
  Forall (fun p => vfin (V (ap_rotz p))) ps ->
  m_tool m0 = 0%Z -> m_disp m0 1 = VFin 0 -> m_disp m0 2 = VFin 0 ->
  forall k a b, nth_error ((n0, 0%Z) :: map (fun p => (ap_rotz p, if ap_tilted p then 60%Z else 0%Z)) ps) k = Some (a, b) ->
  exists pre ls post t1 t2 is,
    g_cmds g = pre ++ LayersMoving ls :: post /\ length (printed pre) = k /\
    toOutput (Gcode (g_sett g) pre) = Ok t1 /\ t = append t1 t2 /\
    read_gcode t1 = Some is /\ m_disp (run m0 is) 1 = V a /\ m_disp (run m0 is) 2 = VFin (1000 * b).
Proof.
  intros A T U m s ps g t m0 H O F M0 M1 M2 k a b N.
  destruct (C51_beds A U m s ps g H) as (parts & fills & fp & ff & _ & _ & B & _). rewrite <- B in N.
  apply print_beds_nth in N. destruct N as (pre & ls & post & E & L & R & TI & _).
  destruct g as [sett cmds]. cbn [g_cmds g_sett] in *. subst cmds.
  destruct (output_prefix _ _ _ _ O) as (t1 & t2 & O1 & ->).
  assert (AO : Forall angle_ok pre).
  { apply sliceByPlanes_rotations in H. cbn [g_cmds] in H. apply Forall_app in H. destruct H as [H _].
    eapply Forall_impl; [|exact H]. intros c Hc. destruct c; try exact I. cbn in *. destruct Hc as [<-|Hc]; [exists 0%Z; apply tok_0|].
    apply in_map_iff in Hc. destruct Hc as (p & <- & Hp). rewrite Forall_forall in F. exact (F p Hp). }
  destruct (C08_bed_angles (Gcode sett pre) t1 m0 O1 AO M0 M1 M2) as (is & RD & _ & D1 & D2). cbn [g_cmds] in D1, D2.
  exists pre, ls, post, t1, t2, is. rewrite R in D1. rewrite TI in D2. auto 8.
Qed.

Theorem C52_left_tilted : forall (A : Arith) (T : TextOK A) U m (s : settings) ps g t m0,
  sliceByPlanes U m s ps = Ok g -> toOutput g = Ok t ->
  Forall (fun p => vfin (V (ap_rotz p))) ps ->
  m_tool m0 = 0%Z -> m_disp m0 1 = VFin 0 -> m_disp m0 2 = VFin 0 ->
  exists is, read_gcode t = Some is /\
    m_disp (run m0 is) 2 = VFin (match rev ps with p :: _ => if ap_tilted p then 60000 else 0 | [] => 0 end)%Z.
Proof.
  intros A T U m s ps g t m0 H O F M0 M1 M2.
  assert (AO : Forall angle_ok (g_cmds g)).
  { apply sliceByPlanes_rotations in H. eapply Forall_impl; [|exact H]. intros c Hc. destruct c; try exact I. cbn in *.
    destruct Hc as [<-|Hc]; [exists 0%Z; apply tok_0|].
    apply in_map_iff in Hc. destruct Hc as (p & <- & Hp). rewrite Forall_forall in F. exact (F p Hp). }
  destruct (C08_bed_angles g t m0 O AO M0 M1 M2) as (is & RD & _ & _ & D2). exists is. split; [exact RD|]. rewrite D2. f_equal.
  revert H. unfold sliceByPlanes. destruct (calcFillPlanes m s) as [fp ff] eqn:EF.
  destruct (cut_parts U m (rev ps) []) as [parts0| |] eqn:EP; try discriminate. cbn [rbind].
  apply cut_parts_parted in EP. destruct EP as (parts & -> & EP). rewrite app_nil_r.
  pose proof (parted_length _ _ _ _ EP) as LP. intros H.
  apply planes_loop_spec with (r := n0) in H; [|unfold calcBedPlanes; cbn [length]; now rewrite map_length| |reflexivity|reflexivity].
  2: { intros _ b bs [= <- _]. reflexivity. }
  destruct H as (cs & H1 & _ & _ & H2 & _). cbn [newGcode g_cmds app] in H1. subst cs. change (tiltZ false) with 0%Z in H2.
  rewrite H2. clear. unfold calcBedPlanes. cbn [map bp_tilted].
  destruct ps as [|p ps _] using rev_ind; [reflexivity|]. rewrite rev_unit, map_map, map_app. cbn [map bp_tilted].
  match goal with |- context [last (false :: ?l ++ [?x]) false] => replace (last (false :: l ++ [x]) false) with x end.
  - now destruct (ap_tilted p).
  - symmetry. rewrite app_comm_cons. apply last_last.
Qed.

(** ** C53 Analyze *)

(** Seven iterations are enough for every mesh; whenever no index is out of range there are at
    most six planes, alternately tilted and horizontal, through vertices of the mesh. *)
Theorem C53_analyze : forall (A : Arith) U (m : mesh) ang fuel, (forall l, Permutation l (u_ends U l)) -> 7 <= fuel ->
  analyze fuel U m ang <> Diverge /\
  forall ps, analyze fuel U m ang = Ok ps -> length ps <= 6 /\
    forall i p, nth_error ps i = Some p ->
      (if Nat.even i then ap_tilted p = true
       else ap_tilted p = false /\ pl_n (ap_plane p) = axisZ /\ ap_rotz p = n0) /\
      exists t, In t m /\ In (pl_p (ap_plane p)) [t1 t; t2 t; t3 t].
Proof.
  intros A U m ang fuel HU Hf.
  destruct (analyze_loop_spec U m ang HU fuel (AP planeXY false n0) m []) as [H1 H2]; [cbn; lia| |reflexivity|].
  - intros [|i] p; discriminate.
  - split; [apply H1; cbn [length]; lia|]. exact H2.
Qed.

(** ** C54 Levelling *)

(** A plane inclined by 60 degrees becomes horizontal under the turn by its heading and the
    tilt exactly if the y component of its normal is not negative. *)
Theorem C54_levelled_iff : forall (x y : R) (p : Rpoint), (x * x + y * y = 3 / 4)%R ->
  let n := V3 (A := ArithR) x y (1 / 2)%R in
  vrotate (vrotate n (rotationAroundZ (heading (Pl p n)))) (rotationAroundX angleX) = V3 (A := ArithR) 0%R 0%R 1%R <-> (0 <= y)%R.
Proof.
  intros x y p H n. pose proof (level_iff x y p H) as L. unfold rv in L. unfold n. rewrite <- L. unfold axisZ. rcbn. tauto.
Qed.

(** Then every point becomes as high above the plane's point as it was above the plane. *)
Theorem C54_heights : forall (x y : R) (p q : Rpoint), (x * x + y * y = 3 / 4)%R -> (0 <= y)%R ->
  let n := V3 (A := ArithR) x y (1 / 2)%R in
  let turn r := pt_rotate (rotationAroundX angleX) originPoint (pt_rotate (rotationAroundZ (heading (Pl p n))) originPoint r) in
  (Z3 (turn q) - Z3 (turn p) = sd (Pl p n) q)%R.
Proof.
  intros x y p q H Hy n turn.
  exact (height_after originPoint p q n (heading (Pl p n)) angleX (proj2 (C54_levelled_iff x y p H) Hy)).
Qed.

(** ** C55 The planes file *)

(** A written file is read back plane by plane: same tilt, numbers as parsed from their
    texts, and the normal made from tilt and rotation. *)
Theorem C55_file : forall (A : Arith) parse (ps : list aplane),
  Forall (fun p => length (bytes (ap_string p)) < max_token) ps ->
  exists qs, readPlanes parse (Some (analyzerFile ps)) = Ok qs /\
    Forall2 (fun p q =>
      let rd x := parse (bytes (strF x)) in
      ap_tilted q = ap_tilted p /\ ap_rotz q = rd (ap_rotz p) /\
      px (pl_p (ap_plane q)) = rd (px (pl_p (ap_plane p))) /\
      py (pl_p (ap_plane q)) = rd (py (pl_p (ap_plane p))) /\
      pz (pl_p (ap_plane q)) = rd (pz (pl_p (ap_plane p))) /\
      pl_n (ap_plane q) = read_normal (ap_tilted q) (ap_rotz q)) ps qs.
Proof.
  intros A parse ps F. exists (map (reread parse) ps). split; [now apply read_written|].
  clear. induction ps as [|p ps IH]; cbn [map]; constructor; [|exact IH]. cbn. auto 7.
Qed.

(** With ParseFloat(.., 32) giving the nearest float32, what is read differs from what was
    written by half a thousandth and the rounding to single precision. *)
Theorem C55_numbers : forall (E : elem) parse (x : f64), parses_decimals parse -> is_finite x = true ->
  (Rabs (B2R x) <= bpow radix2 126)%R ->
  let y := parse (bytes (@strF (ArithF64 E) x)) in
  is_finite y = true /\ (Rabs (B2R y - B2R x) <= / 2000 + bpow radix2 (-24) * (Rabs (B2R x) + / 2000))%R.
Proof. intros E parse x H1 H2 H3. now apply parse_close. Qed.

(** The plane made from an overhang with normal (a, b, c) has the direction that is rebuilt
    from its rotation exactly if b is not negative. *)
Theorem C55_direction_iff : forall (p : Rpoint) (a b c : R), (0 < a * a + b * b)%R ->
  let q := tilted_plane p (V3 (A := ArithR) a b c) in
  (exists k : R, (0 < k)%R /\ pl_n (ap_plane q) = vscale (read_normal (ap_tilted q) (ap_rotz q)) k) <-> (0 <= b)%R.
Proof. intros p a b c H. exact (rebuilt_iff p a b c H). Qed.

(** ** C56 No overhang *)

Theorem C56_rotation_panics : forall (A : Arith) U m (s : settings) layers,
  (forall l1 a b l2, layers = l1 ++ a :: b :: l2 -> failRotation a b = Ok None) ->
  sliceRotation U m s layers = Panic.
Proof. intros A. exact rotation_panics. Qed.
Theorem C56_bridge_panics : forall (A : Arith) U m (s : settings) layers,
  (forall l1 a b l2, layers = l1 ++ a :: b :: l2 -> failExistBridge a b = Ok None) ->
  sliceBridge U m s layers = Panic.
Proof. intros A. exact bridge_panics. Qed.

(** ** C58 Angles on the ring *)

(** the mean of the angles, those more than half a turn before the last one taken a turn
    further *)
Theorem C58_middle : forall (arr : list R) (B : Z), (0 < B)%Z -> arr <> [] -> Sorted Rle arr ->
  Forall (fun x => (0 <= x < IZR B)%R) arr ->
  exists r, middleOnTheRing (A := ArithR) arr B = Ok r /\ (0 <= r < B)%Z /\
    let along x := if Rlt_dec (IZR B / 2) (last arr 0%R - x) then (x + IZR B)%R else x in
    r = Z.modulo (Zfloor (fold_right Rplus 0%R (map along arr) / INR (length arr))) B.
Proof. exact middle_R. Qed.

(** ** C65 A corner of the walls *)

(** For a closed contour the lines of the wall before the removal of reversed and collinear
    ones: the first ends where the first segment ends, moved sideways only. *)
Theorem C65_first_line : forall (A : Arith) w norm (p0 p1 p2 : point) r,
  exists x xs, trim_path true (map (shift_line w norm) (segs (p0 :: p1 :: p2 :: r))) = x :: xs /\
    lp2 x = pshift p1 (vscale (normalize (cross norm (vectorTo p0 p1))) w).
Proof.
  intros A w norm p0 p1 p2 r. cbn [segs map]. unfold trim_path.
  set (l := shift_line w norm (p0, p1)). set (rest := shift_line w norm (p1, p2) :: _).
  destruct (trim_last rest l l) as (x & xs & E & N & H). rewrite E. eexists _, _. split; [reflexivity|].
  rewrite H. reflexivity.
Qed.

(** So a wall can touch the contour it is inside of. *)
Definition sq10 : @path (ArithF64 elem0) :=
  map (fun xy => P3 (A := ArithF64 elem0) (f64_ofZ (fst xy)) (f64_ofZ (snd xy)) n0) [(0, 0); (0, 10); (10, 10); (10, 0); (0, 0)]%Z.
Theorem C65_distance_refuted : exists (pth q : @path (ArithF64 elem0)) (a b c : @point (ArithF64 elem0)),
  makeOffset pth (nlit 4 10) axisZ = Some q /\ In c q /\ In (a, b) (segs pth) /\
  (* c is on the segment between the points a and b *)
  py a = f64_ofZ 10 /\ py b = f64_ofZ 10 /\ py c = f64_ofZ 10 /\
  px a = f64_ofZ 0 /\ px c = nlit 4 10 /\ px b = f64_ofZ 10 /\ pz a = n0 /\ pz b = n0 /\ B2R (pz c) = 0%R.
Proof.
  set (o := makeOffset sq10 (nlit 4 10) axisZ).
  set (q := match o with Some q => q | None => [] end).
  set (c := nth 1 q originPoint). set (a := nth 1 sq10 originPoint). set (b := nth 2 sq10 originPoint).
  exists sq10, q, a, b, c.
  assert (Ho : o = Some q).
  { assert (T : match o with Some _ => true | None => false end = true) by (vm_compute; reflexivity).
    unfold q. destruct o; [reflexivity|discriminate]. }
  split; [exact Ho|]. split.
  { apply nth_In. apply Nat.ltb_lt. vm_compute. reflexivity. }
  split; [right; left; reflexivity|].
  split; [reflexivity|]. split; [reflexivity|].
  split; [apply B2SF_inj; vm_compute; reflexivity|].
  split; [reflexivity|]. split; [apply B2SF_inj; vm_compute; reflexivity|]. split; [reflexivity|]. split; [reflexivity|]. split; [reflexivity|].
  assert (T : B2SF (pz c : f64) = SpecFloat.S754_zero false \/ B2SF (pz c : f64) = SpecFloat.S754_zero true) by (vm_compute; auto).
  destruct T as [T|T]; [assert (Q : (pz c : f64) = B754_zero false) by (apply B2SF_inj; exact T)|assert (Q : (pz c : f64) = B754_zero true) by (apply B2SF_inj; exact T)];
    rewrite Q; reflexivity.
Qed.

(** ** C66 Parts on the bed *)

(** For planes that were read from a file: SliceByPlanes turns a part so that the height of
    every vertex is its distance from the cut plane, up to a constant. *)
Theorem C66_heights : forall (c : Rpoint) (p : @aplane ArithR) (m : Rmesh),
  pl_n (ap_plane p) = read_normal (ap_tilted p) (ap_rotz p) ->
  exists h, Forall2 (fun q q' => (Z3 q' - h)%R = sd (ap_plane p) q)
    (vertices m) (vertices (inclined c (ap_tilted p) (turned c (ap_rotz p) m))).
Proof.
  intros c p m H. destruct (part_heights c (pl_p (ap_plane p)) (ap_tilted p) (ap_rotz p) m) as [h F]. exists h.
  destruct p as [[q n] t z]. cbn in *. now rewrite H.
Qed.

(** ** C67 Thin models *)
Theorem C67_one_layer : forall (A : Arith) fuel U m (s : settings) layers, length layers <= 1 ->
  sliceDefault2 (S fuel) U m s layers = Ok (newGcode (s_g s)).
Proof.
  intros A fuel U m s layers H. unfold sliceDefault2. destruct (calcFillPlanes m s) as [fp ff].
  destruct layers as [|l [|l' r]]; [reflexivity|reflexivity|cbn in H; lia].
Qed.

(** ** C68 Skirt *)

(** Every contour of at least two points is kept, after its skirt lines, the outermost
    first; shorter ones are dropped; nothing else of the layer changes. *)
Theorem C68_skirt : forall (A : Arith) (l : layer) n w, n <> 0%Z ->
  exists skirts,
    Forall2 (fun p o => walls (fun q => makeOffset q w (vopp (l_norm l))) (Z.to_nat (Z.max 1 n)) p o) (proper (l_paths l)) skirts /\
    l_paths (skirtPathes l n w) = concat (map (fun po => rev (snd po) ++ [fst po]) (combine (proper (l_paths l)) skirts)) /\
    l_order (skirtPathes l n w) = l_order l /\ l_norm (skirtPathes l n w) = l_norm l /\ l_middle (skirtPathes l n w) = l_middle l /\
    l_inner (skirtPathes l n w) = l_inner l /\ l_fill (skirtPathes l n w) = l_fill l.
Proof.
  intros A l n w N. exists (map (fun p => offset p n w (vopp (l_norm l))) (proper (l_paths l))). split.
  { induction (proper (l_paths l)) as [|p ps IH]; cbn [map]; constructor; [apply offset_walls|exact IH]. }
  split.
  { rewrite skirt_paths by exact N. rewrite flat_map_concat_map. f_equal.
    induction (proper (l_paths l)) as [|p ps IH]; [reflexivity|]. cbn [map combine fst snd]. now rewrite IH. }
  unfold skirtPathes. destruct (Z.eqb_spec n 0); [contradiction|]. cbn. auto.
Qed.

(** ** C69 Lines of the planes file *)

(** Reading panics exactly if some line has less than five words, an empty one too; otherwise
    there is a plane for every line. *)
Theorem C69_lines : forall (A : Arith) parse ls,
  Forall (fun l => ~ In 10%Z l /\ length l < max_token) ls ->
  let file := concat (map (fun l => l ++ [10%Z]) ls) in
  (readPlanes parse (Some file) = Panic <-> Exists (fun l => length (fields (drop_cr l)) < 5) ls) /\
  (readPlanes parse (Some file) <> Panic -> exists ps, readPlanes parse (Some file) = Ok ps /\ length ps = length ls).
Proof.
  intros A parse ls F file.
  assert (E : readPlanes parse (Some file) = read_lines parse ls).
  { unfold readPlanes. f_equal. apply (split_text ls). eapply Forall_impl; [|exact F]. now intros l []. }
  rewrite E. destruct (read_lines_iff parse ls) as [[(ps & -> & L) G]|[-> G]].
  - eapply Forall_impl; [|exact F]. now intros l [].
  - split; [split; [discriminate|]|eauto]. intros X. exfalso. apply Exists_exists in X. destruct X as (l & Hl & K).
    rewrite Forall_forall in G. specialize (G l Hl). lia.
  - split; [tauto|congruence].
Qed.

(** ** C70 Nothing to print *)

(** Without planes: no layer, or no outside contour in the first layer, and Slice panics. *)
Theorem C70_no_layers : forall (A : Arith) fuel U parse file (m : mesh) (s : settings),
  readPlanes parse file = Ok [] ->
  (sliceByVector U m axisZ s = Ok [] \/
   exists l ls, sliceByVector U m axisZ s = Ok (l :: ls) /\ getAllOutsidePathes (l_paths l) = Ok []) ->
  slice fuel U parse file m s = Panic.
Proof.
  intros A fuel U parse file m s R [H|(l & ls & H & G)]; unfold slice; rewrite R; cbn [rbind]; rewrite H; cbn [rbind]; [reflexivity|].
  unfold idx at 1. cbn [nth_error rbind]. rewrite G. reflexivity.
Qed.

(** ** C71 Bed at the end of the other slicers *)

Theorem C71_bed_returned : forall (A : Arith) (T : TextOK A) U m (s : settings) layers g t m0,
  sliceRotation U m s layers = Ok g \/ sliceBridge U m s layers = Ok g ->
  toOutput g = Ok t -> Forall angle_ok (g_cmds g) ->
  m_tool m0 = 0%Z -> m_disp m0 1 = VFin 0 -> m_disp m0 2 = VFin 0 ->
  exists is, read_gcode t = Some is /\ m_disp (run m0 is) 1 = VFin 0 /\ m_disp (run m0 is) 2 = VFin 0.
Proof.
  intros A T U m s layers g t m0 H O AO M0 M1 M2.
  destruct (C08_bed_angles g t m0 O AO M0 M1 M2) as (is & R & _ & D1 & D2). exists is. split; [exact R|]. rewrite D1, D2.
  destruct H as [H|H]; [apply rotation_cmds in H; destruct H as (l1 & l2 & ->)|apply bridge_cmds in H; destruct H as (l1 & l2 & l3 & az & ->)];
    cbn [g_cmds last_rotation last_tilt]; now rewrite tok_0.
Qed.

(** SliceDefault2 prints alternately with the bed level and tilted. *)
Theorem C71_default_alternates : forall (A : Arith) fuel U m (s : settings) layers g,
  sliceDefault2 fuel U m s layers = Ok g ->
  map snd (print_beds n0 0 (g_cmds g)) =
  map (fun i => if Nat.even i then 0%Z else 60%Z) (seq 0 (length (printed (g_cmds g)))).
Proof.
  intros A fuel U m s layers g. unfold sliceDefault2. destruct (calcFillPlanes m s) as [fp ff]. intros H.
  apply default_alternates in H. destruct H as (cs & -> & _ & H). cbn [newGcode g_cmds app].
  rewrite (alternates_beds _ _ H n0 0%Z eq_refl).
  assert (G : forall n b k, b = Nat.odd k -> tilts b n = map (fun i => if Nat.even i then 0%Z else 60%Z) (seq k n)).
  { induction n as [|n IH]; intros b k ->; [reflexivity|]. cbn [tilts seq map]. rewrite <- (IH (negb (Nat.odd k)) (S k)).
    - unfold Nat.odd. destruct (Nat.even k); reflexivity.
    - rewrite Nat.odd_succ. unfold Nat.odd. now rewrite negb_involutive. }
  now apply G.
Qed.

(** ** C72 SliceByProfile *)

(** one pair of bed angles and layers for every segment of the simplified centre line *)
Theorem C72_profile : forall (A : Arith) fuel U m (s : settings) g, sliceByProfile fuel U m s = Ok g ->
  exists layers centers line,
    sliceByVector U m axisZ s = Ok layers /\ calculateCenters layers = Ok centers /\ simplifyLine fuel centers (s_epsilon s) = Ok line /\
    g_sett g = s_g s /\ profile_cmds (length line - 1) (g_cmds g).
Proof.
  intros A fuel U m s g. unfold sliceByProfile. destruct (sliceByVector U m axisZ s) as [layers| |]; try discriminate. cbn [rbind].
  destruct (calculateCenters layers) as [centers| |] eqn:EC; try discriminate. cbn [rbind].
  destruct (simplifyLine fuel centers (s_epsilon s)) as [line| |] eqn:EL; try discriminate. cbn [rbind]. intros H.
  apply profile_loop_cmds in H. destruct H as (cs & H1 & H2 & H3). cbn [newGcode g_cmds g_sett app] in *. subst cs.
  exists layers, centers, line. auto 6.
Qed.

(** ** C73 Turning there and back *)

Theorem C73_turn_back : forall (az : R) (m : Rmesh), Forall (fun t => t = newTriangle (t1 t) (t2 t) (t3 t)) m ->
  unturn_mesh az (turn_mesh az m) = m.
Proof. exact unturn_turn. Qed.

(** ** C74 Horizontal ceilings *)

(** The plane that Analyze makes for a horizontal overhang has no direction and its rotation
    is not a number. *)
Theorem C74_ceiling : forall (E : elem) p (x y c : f64),
  is_finite x = true -> B2R x = 0%R -> is_finite y = true -> B2R y = 0%R -> is_finite c = true ->
  e_acos E B754_nan = B754_nan ->
  (forall d, is_finite d = true -> is_finite (e_sin E d) = true /\ is_finite (e_cos E d) = true) ->
  let q := tilted_plane p (V3 (A := ArithF64 E) x y c) in
  ap_rotz q = B754_nan /\
  B2R (vx (pl_n (ap_plane q))) = 0%R /\ B2R (vy (pl_n (ap_plane q))) = 0%R /\ B2R (vz (pl_n (ap_plane q))) = 0%R /\
  exists s, ap_string q = append s " RNaN".
Proof.
  intros E p x y c X1 X2 Y1 Y2 C1 HA HT q.
  destruct (ceiling_plane E p x y c (conj X1 X2) (conj Y1 Y2) C1 HA HT) as [R ((_ & N1) & (_ & N2) & (_ & N3))]. fold q in R, N1, N2, N3.
  split; [exact R|]. split; [exact N1|]. split; [exact N2|]. split; [exact N3|].
  unfold ap_string. rewrite R. exists (append (pt_string (pl_p (ap_plane q))) " Ttrue"). rewrite append_assoc. reflexivity.
Qed.

(** ** The hypotheses can be met *)
(** (longer runs, for C51, C52, C71 and C72, are in Examples_Vip.v) *)

Section Runs.
Let AF := ArithF64 elem0.
Existing Instance AF.

(** C50: a square of side 10 gets a middle and an inner wall *)
Definition layer10 : @layer AF := Layer_ 0 axisZ [sq10] [] None [].
Definition sett_walls (t : Z) : @settings AF :=
  Settings gs0 EmptyString (nlit 1 100) n1 (nlit t 10) 0 60 200 0 (zpt 0 0 0) EmptyString EmptyString n0 (V3 n0 n0 n1) false n0 0 0 0.
Example ex_walls : Forall (fun l => Forall (fun f : path => f <> []) (l_fill l)) [layer10] /\
  match prepareLayers env0 [layer10] (sett_walls 14) [] [] with
  | Ok [l] => (length (l_paths l), length (l_middle l), length (oslice (l_inner l)))
  | _ => (0, 0, 0)
  end = (1, 1, 1).
Proof. split; [constructor; constructor|vm_compute; reflexivity]. Qed.
Example ex_default_walls : s_wallThickness (sett_walls 12) = nlit 12 10 /\ LineWidth (s_g (sett_walls 12)) = nlit 4 10 /\
  match prepareLayers env0 [layer10] (sett_walls 12) [] [] with
  | Ok [l] => (length (l_paths l), length (l_middle l), length (oslice (l_inner l)))
  | _ => (0, 0, 0)
  end = (1, 0, 1).
Proof. split; [reflexivity|split; [reflexivity|vm_compute; reflexivity]]. Qed.

(** C53: any order of equal keys is allowed *)
Example ex_analyze : (forall l, Permutation l (u_ends (A := AF) env0 l)).
Proof. exact (lg_ends _ (env0_legal (A := AF))). Qed.

(** C55 *)
Example ex_parse : parses_decimals parse0.
Proof. exact parse0_ok. Qed.
Example ex_file : Forall (fun p : @aplane AF => length (bytes (ap_string p)) < max_token)
  [AP (Pl (zpt 1 2 3) axisZ) true (f64_ofZ 30); AP (Pl (zpt 0 0 7) axisZ) false n0].
Proof. repeat (apply Forall_cons; [apply Nat.ltb_lt; vm_compute; reflexivity|]). apply Forall_nil. Qed.

(** C56: the layers of a tetrahedron get smaller, there is no overhang *)
Definition tetra_layers : list (@layer AF) :=
  match sliceByVector env0 tetraF axisZ (sett0 (nlit 3 10)) with Ok l => l | _ => [] end.
Fixpoint pairs_none {T} (test : @layer AF -> @layer AF -> res (option T)) (ls : list (@layer AF)) : bool :=
  match ls with
  | a :: (b :: _) as r => match test a b with Ok None => pairs_none test r | _ => false end
  | _ => true
  end.
Lemma pairs_none_ok {T} (test : @layer AF -> @layer AF -> res (option T)) ls : pairs_none test ls = true ->
  forall l1 a b l2, ls = l1 ++ a :: b :: l2 -> test a b = Ok None.
Proof.
  induction ls as [|x ls IH]; intros H l1 a b l2 E; [destruct l1; discriminate|].
  destruct ls as [|y r]; [destruct l1 as [|? [|? l1]]; discriminate|]. cbn [pairs_none] in H.
  destruct (test x y) as [[|]| |] eqn:E2; try discriminate.
  destruct l1 as [|z l1]; [injection E as -> -> ->; exact E2|]. injection E as -> E. exact (IH H l1 a b l2 E).
Qed.
Example ex_no_overhang : length tetra_layers = 4 /\
  forall l1 a b l2, tetra_layers = l1 ++ a :: b :: l2 -> failRotation a b = Ok None.
Proof. split; [vm_compute; reflexivity|]. apply pairs_none_ok. vm_compute. reflexivity. Qed.

(** C65, C68: a skirt of two lines around the square; a single point is dropped *)
Example ex_skirt : map (fun p : path => (length p, isClosed p))
  (l_paths (skirtPathes (Layer_ 0 axisZ [[zpt 1 1 0]; sq10] [] None []) 2 (nlit 4 10))) = [(5, true); (5, true); (5, true)].
Proof. vm_compute. reflexivity. Qed.

(** C69: two lines of five words; a line of four words *)
Definition txt (s : string) : list Z := bytes s.
Example ex_lines : Forall (fun l => ~ In 10%Z l /\ length l < max_token) [txt "X1 Y2 Z3 Ttrue R4"; txt "  X1 Y2 Z3 Tmaybe R4 more"] /\
  map (fun l => length (fields (drop_cr l))) [txt "X1 Y2 Z3 Ttrue R4"; txt "  X1 Y2 Z3 Tmaybe R4 more"; txt "X1 Y2 Z3 Ttrue"; []] = [5; 6; 4; 0].
Proof.
  split; [|vm_compute; reflexivity].
  repeat (apply Forall_cons; [split; [intros H; cbn in H; decompose [or] H; discriminate || contradiction|apply Nat.ltb_lt; vm_compute; reflexivity]|]).
  apply Forall_nil.
Qed.

(** C70: no planes file, and a mesh whose first layer has a hole only. *)
Example ex_no_file : readPlanes (A := AF) parse0 None = Ok [].
Proof. reflexivity. Qed.
(** (triangles with the inside and outside exchanged) *)
Definition inverted : @mesh AF := map (fun t => newTriangle (t1 t) (t3 t) (t2 t)) tetraF.
Example ex_only_holes : match sliceByVector env0 inverted axisZ (sett0 (nlit 3 10)) with
  | Ok (l :: _) => match getAllOutsidePathes (l_paths l) with Ok [] => length (l_paths l) | _ => 77 end
  | _ => 88
  end = 1.
Proof. vm_compute. reflexivity. Qed.

End Runs.

(** C54, C55: planes heading to +y and to -y *)
Example ex_level : (0 * 0 + sqrt (3 / 4) * sqrt (3 / 4) = 3 / 4)%R /\ (0 <= sqrt (3 / 4))%R /\
  (0 * 0 + - sqrt (3 / 4) * - sqrt (3 / 4) = 3 / 4)%R /\ (- sqrt (3 / 4) < 0)%R.
Proof.
  assert (H := sqrt_sqrt (3 / 4) ltac:(lra)). assert (P := sqrt_lt_R0 (3 / 4) ltac:(lra)).
  repeat split; try lra; nra.
Qed.

(** C58: 10 and 350 degrees: the middle is 0 *)
Example ex_ring : (0 < 360)%Z /\ Sorted Rle [10; 350]%R /\ Forall (fun x => (0 <= x < IZR 360)%R) [10; 350]%R /\
  exists r, middleOnTheRing (A := ArithR) [10; 350]%R 360 = Ok r /\ r = 0%Z.
Proof.
  assert (S1 : Sorted Rle [10; 350]%R) by (repeat constructor; lra).
  assert (F1 : Forall (fun x => (0 <= x < IZR 360)%R) [10; 350]%R) by (repeat constructor; lra).
  split; [reflexivity|]. split; [exact S1|]. split; [exact F1|].
  destruct (C58_middle [10; 350]%R 360 ltac:(reflexivity) ltac:(discriminate) S1 F1) as (r & H & _ & K). exists r. split; [exact H|].
  rewrite K. cbn [last map fold_right length INR].
  destruct (Rlt_dec (360 / 2) (350 - 10)) as [_|N]; [|exfalso; lra].
  destruct (Rlt_dec (360 / 2) (350 - 350)) as [N|_]; [exfalso; lra|].
  replace ((10 + 360 + (350 + 0)) / (1 + 1))%R with (IZR 360) by lra. rewrite Zfloor_IZR. reflexivity.
Qed.

(** C66: a plane as read, C73: a mesh as read *)
Example ex_read : let p := AP (A := ArithR) (Pl (rp 1 2 3) (read_normal true (IZR 30))) true (IZR 30) in
  pl_n (ap_plane p) = read_normal (ap_tilted p) (ap_rotz p).
Proof. reflexivity. Qed.
Example ex_mesh : Forall (fun t => t = newTriangle (t1 t) (t2 t) (t3 t)) tetraR.
Proof. repeat constructor. Qed.

(** C74: sine and cosine that are finite for finite numbers *)
Definition elem_nan : elem := {| e_sin := fun x => x; e_cos := fun x => x; e_acos := fun x => x |}.
Example ex_ceiling : e_acos elem_nan B754_nan = B754_nan /\
  (forall d, is_finite d = true -> is_finite (e_sin elem_nan d) = true /\ is_finite (e_cos elem_nan d) = true) /\
  is_finite (f64_ofZ 0) = true /\ B2R (f64_ofZ 0) = 0%R /\ is_finite (f64_ofZ (-1)) = true.
Proof. split; [reflexivity|]. split; [intros d H; split; exact H|]. repeat split. Qed.

Print Assumptions C50_walls.
Print Assumptions C50_count_exact.
Print Assumptions C50_defaults_float.
Print Assumptions C51_beds.
Print Assumptions C51_executed.
Print Assumptions C52_left_tilted.
Print Assumptions C53_analyze.
Print Assumptions C54_levelled_iff.
Print Assumptions C54_heights.
Print Assumptions C55_file.
Print Assumptions C55_numbers.
Print Assumptions C55_direction_iff.
Print Assumptions C56_rotation_panics.
Print Assumptions C56_bridge_panics.
Print Assumptions C58_middle.
Print Assumptions C65_first_line.
Print Assumptions C65_distance_refuted.
Print Assumptions C66_heights.
Print Assumptions C67_one_layer.
Print Assumptions C68_skirt.
Print Assumptions C69_lines.
Print Assumptions C70_no_layers.
Print Assumptions C71_bed_returned.
Print Assumptions C71_default_alternates.
Print Assumptions C72_profile.
Print Assumptions C73_turn_back.
Print Assumptions C74_ceiling.
