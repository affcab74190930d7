(** * Packages slicers/vip and slicers: walls, skirts, cut planes and the five-axis slicers *)
From Coq Require Import String Ascii ZArith NArith List Bool PeanoNat.
From Verif Require Import Arith Prim Path Helpers Gcode Slicer Fill Stl.
Import ListNotations.
Close Scope string_scope.
Open Scope num_scope.

Section Vip.
Context {A : Arith}.

(** slicers/vip/slice_main.go:14-18 and slicers/slice_5axes.go:12-18: the package variables
    (never written) *)
Definition angleX : num := nofZ 60.
Definition failAngle : num := nofZ 40.
Definition radiusDiff : num := nlit 5 10.
Definition angleDist : Z := 10.
Definition angleFull : Z := 360.
Definition angleCount : nat := 36.

(** ** offset_path.go *)

(** slicers/vip/offset_path.go:17-24: every segment shifted to the side *)
Definition shift_line (nozzle : num) (norm : vector) (s : point * point) : line :=
  let '(p1, p2) := s in
  let offv := vscale (normalize (cross norm (vectorTo p1 p2))) nozzle in
  L2 (pshift p1 offv) (pshift p2 offv).

(** slicers/vip/offset_path.go:32-42: neighbours are cut at their intersection; [l] is
    newPth[i] as changed by the previous iteration. The debug output is left out. *)
Fixpoint trim_lines (l : line) (rest : list line) : list line :=
  match rest with
  | [] => [l]
  | n :: r =>
      match intersectLine2 l n with
      | Some q => L2 (lp1 l) q :: trim_lines (L2 q (lp2 n)) r
      | None => l :: trim_lines (L2 (lp2 l) (lp2 n)) r
      end
  end.

(** slicers/vip/offset_path.go:26-46: a closed path gets its first line again at the end,
    which afterwards replaces the first one *)
Definition trim_path (closed : bool) (ls : list line) : list line :=
  match ls with
  | [] => []
  | l :: r =>
      if closed then
        match trim_lines l (r ++ [l]) with
        | [] => []
        | x :: xs => last xs x :: removelast xs
        end
      else trim_lines l r
  end.

(** slicers/vip/offset_path.go:49-56: lines that became reversed are removed *)
Definition keep_lines (now before : list line) : list line :=
  map fst (filter (fun '(n, b) => codirected (l_vec n) (l_vec b)) (combine now before)).

(** slicers/vip/offset_path.go:82-86 *)
Definition lines_points (ls : list line) : path :=
  match ls with
  | [] => []
  | l :: _ => lp1 l :: map lp2 ls
  end.

(** slicers/vip/offset_path.go:8-89 MakeOffset; nil is [None]. The loop at lines 58-76
    assigns only to its local copies a and b, so it has no effect and is left out. *)
Definition makeOffset (pth : path) (nozzle : num) (norm : vector) : option path :=
  if (length pth <? 2)%nat then None else
  let norm := vopp norm in
  let lines := map (shift_line nozzle norm) (segs pth) in
  let kept := keep_lines (trim_path (isClosed pth) lines) lines in
  if (length kept <? 2)%nat then None
  else Some (minimizeLines (lines_points kept)).

(** ** utils.go *)

(** slicers/vip/utils.go:58-64: the further walls; [k] iterations remain *)
Fixpoint offset_loop (k : nat) (prev : path) (nozzle : num) (norm : vector) : list path :=
  match k with
  | O => []
  | S k => match makeOffset prev nozzle norm with
           | None => []
           | Some ff => ff :: offset_loop k ff nozzle norm
           end
  end.
(** slicers/vip/utils.go:50-67 offset *)
Definition offset (pth : path) (addWallsCount : Z) (nozzle : num) (norm : vector) : list path :=
  match makeOffset pth nozzle norm with
  | None => []
  | Some first => first :: offset_loop (Z.to_nat (addWallsCount - 1)) first nozzle norm
  end.

(** append to a slice that may be nil: InnerPs *)
Definition oapp {T} (o : option (list T)) (x : T) : option (list T) := Some (oslice o ++ [x]).

(** slicers/vip/utils.go:16-26: the walls of one path of the layer *)
Definition wall_path (n : Z) (w : num) (l : layer) (pt : path) : layer :=
  if (length pt <? 2)%nat then l else
  let offs := offset pt n w (l_norm l) in
  match offs with
  | [] => l
  | o :: _ => Layer_ (l_order l) (l_norm l) (l_paths l) (l_middle l ++ removelast offs)
                     (oapp (l_inner l) (last offs o)) (l_fill l)
  end.
Definition wall_layer (n : Z) (w : num) (l : layer) : layer :=
  fold_left (wall_path n w) (l_paths l) l.

(** slicers/vip/utils.go:13 *)
Definition addWalls (s : settings) : Z := (ntoZ (s_wallThickness s / LineWidth (s_g s)) - 1)%Z.
(** slicers/vip/utils.go:12-30 PrepareLayers. It changes the elements of its argument; no
    caller reads them afterwards. *)
Definition prepareLayers (U : env) (ls : list layer) (s : settings) (planes full : list plane) : res (list layer) :=
  let ls := if (addWalls s >? 0)%Z then map (wall_layer (addWalls s) (LineWidth (s_g s))) ls else ls in
  fillLayers U ls planes full s.

(** slicers/vip/utils.go:32-49 SkirtPathes *)
Definition skirtPathes (first : layer) (count : Z) (lineWidth : num) : layer :=
  if (count =? 0)%Z then first else
  let res := flat_map (fun pt : path =>
               if (length pt <? 2)%nat then []
               else rev (offset pt count lineWidth (vopp (l_norm first))) ++ [pt]) (l_paths first) in
  Layer_ (l_order first) (l_norm first) res (l_middle first) (l_inner first) (l_fill first).

(** ** analyze.go *)

(** slicers/vip/analyze.go:13-17 *)
Record aplane := AP { ap_plane : plane; ap_tilted : bool; ap_rotz : num }.

(** slicers/vip/analyze.go:19-21 String *)
Definition ap_string (p : aplane) : string :=
  (pt_string (pl_p (ap_plane p)) ++ " T" ++ (if ap_tilted p then "true" else "false")
   ++ " R" ++ strF (ap_rotz p))%string.

(** the bytes of a text (the texts written here are ASCII) *)
Definition bytes (s : string) : list Z :=
  map (fun c => Z.of_nat (nat_of_ascii c)) (list_ascii_of_string s).

(** strconv.ParseBool (analyze.go:27); a text it does not know gives false and an error,
    which is only printed *)
Definition parseBool (w : list Z) : bool :=
  existsb (fun t => if list_eq_dec Z.eq_dec w (bytes t) then true else false)
          ["1"; "t"; "T"; "TRUE"; "true"; "True"]%string.

(** slicers/vip/analyze.go:31-35: the normal of a plane that is read *)
Definition read_normal (tilted : bool) (rotz : num) : vector :=
  rotateAbout (if tilted then rotateAbout axisZ axisX (- angleX) else axisZ) axisZ rotz.

(** words[i][1:]: the word exists and strings.Fields gives no empty word *)
Definition word_tail (ws : list (list Z)) (i : nat) : res (list Z) :=
  w <- idx ws i ;; Ok (tl w).

(** slicers/vip/analyze.go:23-44 ParsePlane; [parse] is ParseFloat (primitives/utils.go:99) *)
Definition parsePlane (parse : list Z -> num) (ln : list Z) : res aplane :=
  let words := fields ln in
  w3 <- word_tail words 3 ;;
  let tilted := parseBool w3 in
  w4 <- word_tail words 4 ;;
  let rotz := parse w4 in
  w0 <- word_tail words 0 ;;
  w1 <- word_tail words 1 ;;
  w2 <- word_tail words 2 ;;
  Ok (AP (Pl (P3 (parse w0) (parse w1) (parse w2)) (read_normal tilted rotz)) tilted rotz).

(** slicers/vip/utils.go:76-80: a line of 65536 bytes or more stops the scanner *)
Fixpoint read_lines (parse : list Z -> num) (ls : list (list Z)) : res (list aplane) :=
  match ls with
  | [] => Ok []
  | l :: r =>
      if (max_token <=? length l)%nat then Ok []
      else
        p <- parsePlane parse (drop_cr l) ;;
        ps <- read_lines parse r ;;
        Ok (p :: ps)
  end.
(** slicers/vip/utils.go:69-86 readPlanes on the contents of the file, [None] if it cannot be
    opened: then the scanner gets nothing from the nil file *)
Definition readPlanes (parse : list Z -> num) (file : option (list Z)) : res (list aplane) :=
  match file with
  | None => Ok []
  | Some b => read_lines parse (split_lines [] b)
  end.

(** cmd/goosli_analyzer/goosli_analyzer.go:38-42: the file written for the planes *)
Definition analyzerFile (ps : list aplane) : list Z :=
  flat_map (fun p => bytes (ap_string p) ++ [10%Z]) ps.

(** slicers/vip/analyze.go:59-71: the lowest failing triangle; the index of a triangle of
    curMesh is used in mesh *)
Fixpoint pick_triangle (m : mesh) (v : vector) (i : nat) (fails : list bool) (t : option triangle)
  : res (option triangle) :=
  match fails with
  | [] => Ok t
  | false :: r => pick_triangle m v (S i) r t
  | true :: r =>
      tt <- idx m i ;;
      let low q := pz q <? nlit 1 100 in
      if low (t1 tt) && low (t2 tt) && low (t3 tt) then pick_triangle m v (S i) r t
      else
        let t' := match t with
                  | None => Some tt
                  | Some c => if t_minZ c v >? t_minZ tt v then Some tt else Some c
                  end in
        pick_triangle m v (S i) r t'
  end.

(** slicers/vip/analyze.go:75-87 *)
Definition lowest_point (t : triangle) (v : vector) : point :=
  let minpr := dot (p2v (t1 t)) v in
  let pr2 := dot (p2v (t2 t)) v in
  let pr3 := dot (p2v (t3 t)) v in
  let '(p, minpr) := if pr2 <? minpr then (t2 t, pr2) else (t1 t, minpr) in
  if pr3 <? minpr then t3 t else p.

(** slicers/vip/analyze.go:92-97: the tilted plane for an overhang with normal [n] *)
Definition tilted_plane (p : point) (n : vector) : aplane :=
  let a := projectOnPlane n planeXY in
  let ang := angle a axisX - nofZ 90 in
  let b := vrotate a (rotationAroundZ (nofZ 90)) in
  AP (Pl p (rotateAbout a b (nofZ 90 - angleX))) true ang.

(** slicers/vip/analyze.go:89-98 *)
Definition next_plane (cur : aplane) (t : triangle) (p : point) : aplane :=
  if ap_tilted cur then AP (Pl p axisZ) false n0 else tilted_plane p (t_n t).

(** slicers/vip/analyze.go:54-112: the loop; [ans] in the order of the slice *)
Fixpoint analyze_loop (fuel : nat) (U : env) (m : mesh) (ang : num) (cur : aplane) (curm : mesh)
  (ans : list aplane) : res (list aplane) :=
  match fuel with
  | O => Diverge
  | S f =>
      if (5 <? length ans)%nat || match curm with [] => true | _ => false end then Ok ans
      else
        let v := pl_n (ap_plane cur) in
        t <- pick_triangle m v 0 (colorizeTriangles curm ang v) None ;;
        match t with
        | None => Ok ans
        | Some t =>
            let next := next_plane cur t (lowest_point t v) in
            '(up, _) <- cutMesh (u_ends U) curm (ap_plane next) ;;
            analyze_loop f U m ang next up (ans ++ [next])
        end
  end.
(** slicers/vip/analyze.go:47-113 Analyze; [fuel] bounds the iterations of its endless loop *)
Definition analyze (fuel : nat) (U : env) (m : mesh) (ang : num) : res (list aplane) :=
  analyze_loop fuel U m ang (AP planeXY false n0) m [].

(** ** slice_by_planes.go *)

(** slicers/vip/slice_by_planes.go:12-15 *)
Record bplane := BP { bp_tilted : bool; bp_rotz : num }.
(** slicers/vip/slice_by_planes.go:64-70 calcBedPlanes *)
Definition calcBedPlanes (ps : list aplane) : list bplane :=
  BP false n0 :: map (fun p => BP (ap_tilted p) (ap_rotz p)) ps.

(** slicers/vip/slice_by_planes.go:24-32: cutting from the last plane; the parts in the
    order of the slice parts *)
Fixpoint cut_parts (U : env) (m : mesh) (rev_planes : list aplane) (after : list mesh) : res (list mesh) :=
  match rev_planes with
  | [] => Ok (m :: after)
  | p :: r =>
      '(up, down) <- cutMesh (u_ends U) m (ap_plane p) ;;
      cut_parts U down r (up :: after)
  end.

(** slicers/vip/slice_by_planes.go:39-52: the commands that position the bed, and whether
    it is tilted afterwards *)
Definition bed_cmds (i : nat) (pl : bplane) (rotated : bool) : list command * bool :=
  let c1 := if (i =? 0)%nat then [] else [RotateZ (bp_rotz pl)] in
  let c2 := if bp_tilted pl then [InclineX] else [] in
  let rotated := if bp_tilted pl then true else rotated in
  if rotated && negb (bp_tilted pl) then (c1 ++ c2 ++ [InclineXBack], false)
  else (c1 ++ c2, rotated).

(** slicers/vip/slice_by_planes.go:40-46: the part as it stands on the bed *)
Definition bed_mesh (s : settings) (i : nat) (pl : bplane) (m : mesh) : mesh :=
  let m := if (i =? 0)%nat then m else m_rotate m (rotationAroundZ (bp_rotz pl)) (s_rotationCenter s) in
  if bp_tilted pl then m_rotate m (rotationAroundX (- angleX)) (s_rotationCenter s) else m.

(** slicers/vip/slice_by_planes.go:55-57 *)
Definition skirt_first (i : nat) (s : settings) (ls : list layer) : list layer :=
  match i, ls with
  | O, l :: r => skirtPathes l (s_skirtLineCount s) (LineWidth (s_g s)) :: r
  | _, _ => ls
  end.

(** slicers/vip/slice_by_planes.go:36-59 *)
Fixpoint planes_loop (U : env) (s : settings) (fp ff : list plane) (i : nat) (rotated : bool)
  (parts : list mesh) (beds : list bplane) (g : gcode) : res gcode :=
  match parts, beds with
  | part :: parts, pl :: beds =>
      let '(cmds, rotated) := bed_cmds i pl rotated in
      let g := fold_left g_add cmds g in
      add <- sliceByVector U (bed_mesh s i pl part) axisZ s ;;
      filled <- prepareLayers U add s fp ff ;;
      planes_loop U s fp ff (S i) rotated parts beds (g_addLayers g (skirt_first i s filled))
  | _, _ => Ok g
  end.

(** slicers/vip/slice_by_planes.go:17-62 SliceByPlanes *)
Definition sliceByPlanes (U : env) (m : mesh) (s : settings) (planes : list aplane) : res gcode :=
  let '(fp, ff) := calcFillPlanes m s in
  parts <- cut_parts U m (rev planes) [] ;;
  planes_loop U s fp ff 0 false parts (calcBedPlanes planes) (newGcode (s_g s)).

(** ** slice_5axes.go: the overhang test *)

(** slicers/slice_5axes.go:224-236 MiddleOnTheRing: the loop; [lst] is arr[len(arr)-1]. If the
    last element itself is changed, the next index is out of range. *)
Fixpoint ring_shift (b lst : num) (l : list num) : res (list num) :=
  match l with
  | [] => Panic
  | x :: r =>
      if lst - x >? b / n2 then
        match r with
        | [] => Panic
        | _ => r' <- ring_shift b lst r ;; Ok (x + b :: r')
        end
      else Ok l
  end.
(** slicers/slice_5axes.go:224-236 MiddleOnTheRing; % truncates *)
Definition middleOnTheRing (arr : list num) (biggest : Z) : res Z :=
  match arr with
  | [] => Panic
  | x :: _ =>
      arr' <- ring_shift (nofZ biggest) (last arr x) arr ;;
      let sum := fold_left nadd arr' n0 in
      if (biggest =? 0)%Z then Panic
      else Ok (Z.rem (ntoZ (sum / nofZ (Z.of_nat (length arr')))) biggest)
  end.

(** slicers/slice_5axes.go:141-147, 210-216 and vip/slice_bridge.go:131-137: the path winds
    like a hole, judged at its first point *)
Definition hole_path (cp : point) (pth : path) : bool :=
  match pth with
  | p1 :: p2 :: _ => codirected (cross (vectorTo p1 p2) axisZ) (vectorTo cp p1)
  | _ => false
  end.

(** slicers/slice_5axes.go:207-222 findPrevPath *)
Fixpoint findPrevPath (p : point) (paths : list path) : res (option path) :=
  match paths with
  | [] => Ok None
  | pth :: r =>
      cp <- findCentroid pth ;;
      if hole_path cp pth then findPrevPath p r
      else if pt_inside p pth then Ok (Some pth)
      else findPrevPath p r
  end.

(** the normal of a plane tilted by 60 degrees; slicers/slice_5axes.go:162, 193,
    vip/slice_bridge.go:97, 110 *)
Definition tilt_normal (ang : num) : vector :=
  vrotate (vrotate axisZ (rotationAroundX angleX)) (rotationAroundZ ang).

(** slicers/slice_5axes.go:168-180: the failing directions; [k] directions remain *)
Fixpoint fail_angles (k : nat) (j : Z) (curX : vector) (cp : point) (pth prev : path) : res (list num) :=
  match k with
  | O => Ok []
  | S k =>
      let pl := Pl cp (cross curX axisZ) in
      ci <- intersectPathCodirectedWith pl pth curX ;;
      here <- match ci with
              | None => Ok []
              | Some c =>
                  pi <- intersectPathCodirectedWith pl prev curX ;;
                  Ok match pi with
                     | None => []
                     | Some p => if angle axisZ (vectorTo p c) >? failAngle
                                 then [nofZ (j * angleDist)] else []
                     end
              end ;;
      rest <- fail_angles k (j + 1)%Z (vrotate curX (rotationAroundZ (nofZ angleDist))) cp pth prev ;;
      Ok (here ++ rest)
  end.

(** slicers/slice_5axes.go:140-199: one path of the layer; [None] goes on with the next one *)
Definition fail_path (prevLayer : layer) (pth : path) : res (option plane) :=
  cp <- findCentroid pth ;;
  if hole_path cp pth then Ok None else
  prev <- findPrevPath cp (l_paths prevLayer) ;;
  match prev with
  | None =>
      match l_paths prevLayer with
      | [] => Ok None
      | prevPath :: _ =>
          prevCp <- findCentroid prevPath ;;
          let v := projectOnPlane (vectorTo prevCp cp) planeXY in
          pi <- intersectPathCodirectedWith (Pl prevCp (cross v axisZ)) prevPath v ;;
          match pi with
          | None => Ok None
          | Some q => Ok (Some (Pl q (tilt_normal (angle (vectorTo prevCp q) axisX + nofZ 90))))
          end
      end
  | Some prevPath =>
      fails <- fail_angles angleCount 0 axisX cp pth prevPath ;;
      match fails with
      | [] => Ok None
      | _ =>
          a <- middleOnTheRing fails angleFull ;;
          let angleZ := nofZ a in
          let v := vrotate axisX (rotationAroundZ angleZ) in
          pi <- intersectPathCodirectedWith (Pl cp (cross v axisZ)) prevPath v ;;
          match pi with
          | None => Ok None
          | Some q => Ok (Some (Pl q (tilt_normal (angleZ + nofZ 90))))
          end
      end
  end.

(** slicers/slice_5axes.go:136-201 CalculateFails *)
Fixpoint fails_loop (prevLayer : layer) (paths : list path) : res (option plane) :=
  match paths with
  | [] => Ok None
  | pth :: r =>
      x <- fail_path prevLayer pth ;;
      match x with Some p => Ok (Some p) | None => fails_loop prevLayer r end
  end.
Definition calculateFails (prevLayer curLayer : layer) : res (option plane) :=
  fails_loop prevLayer (l_paths curLayer).

(** the first consecutive pair of layers for which a test gives a plane, with the index of
    its second layer: the scans of slice_5axes.go:45-54, vip/slice_default.go:37-42,
    vip/slice_rotation.go:21-31, vip/slice_bridge.go:19-33 *)
Fixpoint first_fail {T} (test : layer -> layer -> res (option T)) (i : nat) (ls : list layer)
  : res (option (nat * T)) :=
  match ls with
  | a :: (b :: _) as r =>
      x <- test a b ;;
      match x with Some p => Ok (Some (i, p)) | None => first_fail test (S i) r end
  | _ => Ok None
  end.

(** ** slice_default.go *)

(** slicers/vip/slice_default.go:72, slice_5axes.go:116, vip/slice_bridge.go:51: the heading *)
Definition heading (p : plane) : num := angle (projectOnPlane (pl_n p) planeXY) axisX + nofZ 90.

(** the turn of the bed and its inverse, applied to a mesh (vip/slice_default.go:57-58,
    74-75, slice_5axes.go:109-112, 118-121) *)
Definition turn_mesh (az : num) (m : mesh) : mesh :=
  m_rotate (m_rotate m (rotationAroundZ az) originPoint) (rotationAroundX angleX) originPoint.
Definition unturn_mesh (az : num) (m : mesh) : mesh :=
  m_rotate (m_rotate m (rotationAroundX (- angleX)) originPoint) (rotationAroundZ (- az)) originPoint.
(** and to the fill planes (vip/slice_default.go:65-70, 80-85) *)
Definition turn_plane (az : num) (p : plane) : plane :=
  pl_rotate (pl_rotate p (rotationAroundZ az)) (rotationAroundX angleX).
Definition unturn_plane (az : num) (p : plane) : plane :=
  pl_rotate (pl_rotate p (rotationAroundX (- angleX))) (rotationAroundZ (- az)).

(** slicers/vip/slice_default.go:12-95 SliceDefault2. [fuel] bounds the number of cuts, which
    nothing in the code bounds. [rot] is angleZ while rotated. *)
Fixpoint default_loop (fuel : nat) (U : env) (s : settings) (fp ff : list plane) (rot : option num)
  (m : mesh) (layers : list layer) (g : gcode) : res gcode :=
  match fuel with
  | O => Diverge
  | S f =>
      x <- first_fail calculateFails 1 layers ;;
      match x with
      | None =>
          if (length layers <=? 1)%nat then Ok g
          else filled <- prepareLayers U layers s fp ff ;; Ok (g_addLayers g filled)
      | Some (_, p) =>
          '(up, down) <- cutMesh (u_ends U) m p ;;
          add <- sliceByVector U down axisZ s ;;
          filled <- prepareLayers U add s fp ff ;;
          let g := g_addLayers g filled in
          match rot with
          | Some az =>
              let up := unturn_mesh az up in
              let g := g_add (g_add g InclineXBack) (RotateZ n0) in
              layers <- sliceByVector U up axisZ s ;;
              default_loop f U s (map (unturn_plane az) fp) (map (unturn_plane az) ff) None up layers g
          | None =>
              let az := heading p in
              let up := turn_mesh az up in
              let g := g_add (g_add g (RotateZ az)) InclineX in
              layers <- sliceByVector U up axisZ s ;;
              default_loop f U s (map (turn_plane az) fp) (map (turn_plane az) ff) (Some az) up layers g
          end
      end
  end.
Definition sliceDefault2 (fuel : nat) (U : env) (m : mesh) (s : settings) (layers : list layer) : res gcode :=
  let '(fp, ff) := calcFillPlanes m s in
  default_loop fuel U s fp ff None m layers (newGcode (s_g s)).

(** ** slice_rotation.go *)

(** slicers/vip/slice_rotation.go:59-94 failRotaion *)
Definition failRotation (prevLayer curLayer : layer) : res (option unit) :=
  pp <- idx (l_paths prevLayer) 0 ;;
  anyP <- idx pp 0 ;;
  cp <- findCentroid pp ;;
  let v := vectorTo cp anyP in
  cur <- idx (l_paths curLayer) 0 ;;
  near <- intersectPathCodirectedWith (Pl anyP (cross v axisZ)) cur v ;;
  Ok match near with
     | None => None
     | Some q =>
         if angle axisZ (vectorTo anyP q) >? failAngle
         then if distanceTo cp anyP >? distanceTo cp q then None else Some tt
         else None
     end.

(** slicers/vip/slice_rotation.go:35, slice_bridge.go:37: the point of layers[i] *)
Definition layer_point (layers : list layer) (i : nat) : res point :=
  l <- idx layers i ;; pth <- idx (l_paths l) 0 ;; idx pth 0.

(** slicers/vip/slice_rotation.go:12-57 SliceRotation *)
Definition sliceRotation (U : env) (m : mesh) (s : settings) (layers : list layer) : res gcode :=
  let '(fp, ff) := calcFillPlanes m s in
  x <- first_fail failRotation 1 layers ;;
  let i := match x with Some (i, _) => i | None => length layers end in
  filled <- prepareLayers U (firstn i layers) s fp ff ;;
  anyPoint <- layer_point layers i ;;
  '(m, _) <- cutMesh (u_ends U) m (Pl anyPoint axisZ) ;;
  let m := m_rotate m (rotationAroundX angleX) originPoint in
  let fp := map (fun p => pl_rotate p (rotationAroundX angleX)) fp in
  let ff := map (fun p => pl_rotate p (rotationAroundX angleX)) ff in
  rest <- sliceByVector U m (vrotate axisZ (rotationAroundX angleX)) s ;;
  filled2 <- prepareLayers U rest s fp ff ;;
  Ok (Gcode (s_g s) [LayersMoving filled; InclineX; LayersMoving filled2; InclineXBack]).

(** ** slice_bridge.go *)

(** slicers/vip/slice_bridge.go:126-141 getAllOutsidePathes *)
Fixpoint getAllOutsidePathes (paths : list path) : res (list path) :=
  match paths with
  | [] => Ok []
  | pth :: r =>
      cp <- findCentroid pth ;;
      rest <- getAllOutsidePathes r ;;
      Ok (if hole_path cp pth then rest else pth :: rest)
  end.
(** slicers/vip/slice_bridge.go:117-125 getTwoOutsidePathes *)
Definition getTwoOutsidePathes (l : layer) : res (path * path) :=
  all <- getAllOutsidePathes (l_paths l) ;;
  a <- idx all 0 ;; b <- idx all 1 ;; Ok (a, b).

(** slicers/vip/slice_bridge.go:90-100, 103-113: the test of one leg *)
Definition fail_leg (pl : plane) (cp other : point) (p prev : path) : res (option plane) :=
  ip <- intersectPathCodirectedWith pl p (vectorTo cp other) ;;
  pi <- intersectPathCodirectedWith pl prev (vectorTo cp other) ;;
  Ok match ip, pi with
     | Some ip, Some pi =>
         if angle axisZ (vectorTo pi ip) >? failAngle
         then Some (Pl pi (tilt_normal (angle axisX (vectorTo cp other) + nofZ 90)))
         else None
     | _, _ => None
     end.

(** slicers/vip/slice_bridge.go:74-116 failExistBridge *)
Definition failExistBridge (prevLayer curLayer : layer) : res (option plane) :=
  '(prevP1, prevP2) <- getTwoOutsidePathes prevLayer ;;
  '(p1, p2) <- getTwoOutsidePathes curLayer ;;
  prevCp1 <- findCentroid prevP1 ;;
  cp1 <- findCentroid p1 ;;
  cp2 <- findCentroid p2 ;;
  let '(p1, p2, cp1, cp2) :=
    if distanceTo prevCp1 cp1 >? distanceTo prevCp1 cp2 then (p2, p1, cp2, cp1) else (p1, p2, cp1, cp2) in
  let pl := Pl cp1 (cross (vectorTo cp1 cp2) axisZ) in
  x <- fail_leg pl cp1 cp2 p1 prevP1 ;;
  match x with
  | Some p => Ok (Some p)
  | None => fail_leg pl cp2 cp1 p2 prevP2
  end.

(** slicers/vip/slice_bridge.go:12-72 SliceBridge *)
Definition sliceBridge (U : env) (m : mesh) (s : settings) (layers : list layer) : res gcode :=
  let '(fp, ff) := calcFillPlanes m s in
  x <- first_fail failExistBridge 1 layers ;;
  let i := match x with Some (i, _) => i | None => length layers end in
  filled <- prepareLayers U (firstn i layers) s fp ff ;;
  anyPoint <- layer_point layers i ;;
  '(m, _) <- cutMesh (u_ends U) m (Pl anyPoint axisZ) ;;
  match x with
  | None => Panic                              (* line 43: *newPlane of nil *)
  | Some (_, np) =>
      '(m, down) <- cutMesh (u_ends U) m np ;;
      oneLeg <- sliceByVector U down axisZ s ;;
      filled1 <- prepareLayers U oneLeg s fp ff ;;
      let az := heading np in
      let m := turn_mesh az m in
      rest <- sliceByVector U m axisZ s ;;
      filled2 <- prepareLayers U rest s (map (turn_plane az) fp) (map (turn_plane az) ff) ;;
      Ok (Gcode (s_g s) [LayersMoving filled; LayersMoving filled1; RotateZ az; InclineX;
                         LayersMoving filled2; InclineXBack; RotateZ n0])
  end.

(** ** slice_main.go *)

(** slicers/vip/slice_main.go:45-58 isRotation *)
Definition isRotation (pth : path) : res bool :=
  cp <- findCentroid pth ;;
  p0 <- idx pth 0 ;;
  let d := distanceTo cp p0 in
  Ok (if (length pth <? 14)%nat then false
      else forallb (fun p2 => negb ((distanceTo cp p2 <? d - radiusDiff) || (distanceTo cp p2 >? d + radiusDiff))) (tl pth)).

(** slicers/vip/slice_main.go:21-43 Slice; [planes] are the contents of settings.PlanesFile *)
Definition slice (fuel : nat) (U : env) (parse : list Z -> num) (planes : option (list Z))
    (m : mesh) (s : settings) : res gcode :=
  ps <- readPlanes parse planes ;;
  match ps with
  | _ :: _ => sliceByPlanes U m s ps
  | [] =>
      layers <- sliceByVector U m axisZ s ;;
      l0 <- idx layers 0 ;;
      op <- getAllOutsidePathes (l_paths l0) ;;
      if (length op =? 2)%nat then sliceBridge U m s layers
      else
        p0 <- idx op 0 ;;                        (* line 34 *)
        rot <- (if (length op =? 1)%nat then isRotation p0 else Ok false) ;;
        if negb rot then sliceDefault2 fuel U m s layers
        else
          le <- idx_last layers ;;
          op <- getAllOutsidePathes (l_paths le) ;;
          p0 <- idx op 0 ;;                      (* line 37 *)
          rot <- (if (length op =? 1)%nat then isRotation p0 else Ok false) ;;
          if rot then sliceRotation U m s layers else sliceDefault2 fuel U m s layers
  end.

(** ** slice_by_profile.go *)

(** slicers/slice_by_profile.go:58-72 calculateCenter *)
Definition calculateCenter (l : layer) : res point :=
  cs <- rmap findCentroid (l_paths l) ;;
  match cs with
  | [] => Ok originPoint
  | _ =>
      let sum f := fold_left (fun acc c => acc + f c) cs n0 in
      let k := nofZ (Z.of_nat (length cs)) in
      Ok (P3 (sum px / k) (sum py / k) (sum pz / k))
  end.
(** slicers/slice_by_profile.go:50-56 calculateCenters *)
Definition calculateCenters (ls : list layer) : res (list point) := rmap calculateCenter ls.

(** slicers/slice_by_profile.go:26-47: one iteration per pair of consecutive points *)
Fixpoint profile_loop (U : env) (s : settings) (up : mesh) (pts : list point) (g : gcode) : res gcode :=
  match pts with
  | a :: (b :: r) as rest =>
      let v := vectorTo a b in
      '(up, down) <- match r with
                     | [] => Ok (up, up)
                     | _ => cutMesh (u_ends U) up (Pl b axisZ)
                     end ;;
      let az := angle (projectOnPlane v planeXY) axisX + nofZ 90 in
      let ax := angle v axisZ in
      let down := m_rotate (m_rotate down (rotationAroundZ az) originPoint) (rotationAroundX ax) originPoint in
      ls <- sliceByVector U down axisZ s ;;
      profile_loop U s up rest (g_addLayers (g_add g (RotateXZ ax az)) ls)
  | _ => Ok g
  end.
(** slicers/slice_by_profile.go:12-49 SliceByProfile; [fuel] as in [simplifyLine] *)
Definition sliceByProfile (fuel : nat) (U : env) (m : mesh) (s : settings) : res gcode :=
  layers <- sliceByVector U m axisZ s ;;
  centers <- calculateCenters layers ;;
  simplified <- simplifyLine fuel centers (s_epsilon s) ;;
  profile_loop U s m simplified (newGcode (s_g s)).

(** ** slice_5axes.go: Slice5Axes *)

(** toAdd[:i] (slice_5axes.go:58). For i above the length Go looks at the capacity: [beyond]
    is what that gives, or [Panic]. *)
Definition prefix {T} (beyond : nat -> list T -> res (list T)) (i : nat) (l : list T) : res (list T) :=
  if (i <=? length l)%nat then Ok (firstn i l) else beyond i l.

(** slicers/slice_5axes.go:45-131; [fuel] bounds the number of cuts. The debug output is left
    out. [sm] is simpMesh. *)
Fixpoint five_loop (fuel : nat) (U : env) (beyond : nat -> list layer -> res (list layer)) (s : settings)
  (rot : option num) (sm m : mesh) (layers toAdd : list layer) (g : gcode) : res gcode :=
  match fuel with
  | O => Diverge
  | S f =>
      x <- first_fail calculateFails 1 layers ;;
      match x with
      | None => Ok (if (length layers <=? 1)%nat then g else g_addLayers g toAdd)
      | Some (i, np) =>
          first <- prefix beyond i toAdd ;;
          li <- idx layers i ;;
          curP <- calculateCenter li ;;
          '(sm, _) <- cutMesh (u_ends U) sm (Pl curP axisZ) ;;
          '(m, _) <- cutMesh (u_ends U) m (Pl curP axisZ) ;;
          '(sm, _) <- cutMesh (u_ends U) sm np ;;
          '(m, down) <- cutMesh (u_ends U) m np ;;
          leg <- sliceByVector U down axisZ s ;;
          let g := g_addLayers (g_addLayers g first) leg in
          match rot with
          | Some az =>
              let sm := unturn_mesh az sm in
              let m := unturn_mesh az m in
              layers <- sliceByVector U sm axisZ s ;;
              toAdd <- sliceByVector U m axisZ s ;;
              five_loop f U beyond s None sm m layers toAdd (g_add g (RotateXZ n0 n0))
          | None =>
              let az := heading np in
              let sm := turn_mesh az sm in
              let m := turn_mesh az m in
              layers <- sliceByVector U sm axisZ s ;;
              toAdd <- sliceByVector U m axisZ s ;;
              five_loop f U beyond s (Some az) sm m layers toAdd (g_add g (RotateXZ angleX az))
          end
      end
  end.
(** slicers/slice_5axes.go:21-134 Slice5Axes; [oracle] as in [simplifyMesh]. The mesh is not
    nil (cmd/goosli stops otherwise), so the simplification does not fail. *)
Definition slice5Axes (fuel : nat) (U : env)
    (oracle : num -> list (point * point * point) -> list (point * point * point))
    (beyond : nat -> list layer -> res (list layer)) (m : mesh) (s : settings) : res gcode :=
  match simplifyMesh oracle (Some m) 2500 with
  | None => Panic
  | Some sm =>
      layers <- sliceByVector U sm axisZ s ;;
      toAdd <- sliceByVector U m axisZ s ;;
      five_loop fuel U beyond s None sm m layers toAdd (newGcode (s_g s))
  end.

End Vip.
