(** * Filling of layers: slicers/fill_layer.go *)
From Coq Require Import ZArith NArith String List Bool PeanoNat.
From Verif Require Import Arith Prim Path Helpers Gcode Slicer.
Import ListNotations.
Close Scope string_scope.
Open Scope num_scope.

Section Fill.
Context {A : Arith}.

(** slicers/fill_layer.go:22-25: the planes of the loop, [k] iterations *)
Fixpoint fill_planes (k : nat) (curP : point) (axis : vector) (step : num) : list plane :=
  match k with
  | O => []
  | S k =>
      let curP := pshift curP (vscale axis step) in
      Pl curP axis :: fill_planes k curP axis step
  end.

(** slicers/fill_layer.go:10-28 calcFillPlanesCommon (the settings are not used) *)
Definition fill_extent (m : mesh) : num :=
  let '(mina, maxa) := m_minMaxZ m axisX in
  let '(minb, maxb) := m_minMaxZ m axisY in
  nmax (nsqrt (mina * mina + minb * minb)) (nsqrt (maxa * maxa + maxb * maxb)).
Definition calcFillPlanesCommon (m : mesh) (axis : vector) (step : num) : list plane :=
  let maxx := fill_extent m in
  let minx := - maxx in
  let minx_step := nfloor (minx / step) * step in
  let n := ntoZ (nceil ((maxx - minx_step) / step)) in
  fill_planes (Z.to_nat n) (v2p (vscale axis minx_step)) axis step.

(** (100 / float64(d)) * LineWidth *)
Definition fill_step (d : Z) (s : settings) : num := nofZ 100 / nofZ d * LineWidth (s_g s).

(** slicers/fill_layer.go:31-36 *)
Definition calcFillPlanesLines (m : mesh) (s : settings) : list plane :=
  calcFillPlanesCommon m axisX (fill_step (s_fillDensity s) s).
(** slicers/fill_layer.go:39-49; FillDensity/2 is a division of ints *)
Definition c45 : num := nlit 7071067812 10000000000.
Definition calcFillPlanesSquares (m : mesh) (s : settings) : list plane :=
  let step := fill_step (Z.quot (s_fillDensity s) 2) s in
  calcFillPlanesCommon m (V3 c45 c45 n0) step ++
  calcFillPlanesCommon m (V3 (- c45) c45 n0) step.
(** slicers/fill_layer.go:52-60 *)
Definition c60 : num := nlit 8660254038 10000000000.
Definition calcFillPlanesTriangles (m : mesh) (s : settings) : list plane :=
  let step := fill_step (Z.quot (s_fillDensity s) 3) s in
  calcFillPlanesCommon m (V3 n1 n0 n0) step ++
  calcFillPlanesCommon m (V3 nhalf c60 n0) step ++
  calcFillPlanesCommon m (V3 (- nhalf) c60 n0) step.
(** slicers/fill_layer.go:63-67 *)
Definition calcFillFullPlane (m : mesh) (s : settings) : list plane :=
  calcFillPlanesCommon m axisX (LineWidth (s_g s)).
(** slicers/fill_layer.go:69-84 *)
Definition calcFillPlanes (m : mesh) (s : settings) : list plane * list plane :=
  let planes :=
    if String.eqb (s_fillingType s) "Lines" then calcFillPlanesLines m s
    else if String.eqb (s_fillingType s) "Squares" then calcFillPlanesSquares m s
    else if String.eqb (s_fillingType s) "Triangles" then calcFillPlanesTriangles m s
    else calcFillPlanesLines m s in
  (planes, calcFillFullPlane m s).

(** slicers/fill_layer.go:252-254 *)
Definition nearAngle (val near : num) : bool :=
  (val <? near + nofZ 3) && (val >? near - nofZ 3).

(** slicers/fill_layer.go:212-221: the points where the contours cross the plane *)
Fixpoint hits_path (p : plane) (pth : path) : list point :=
  match pth with
  | a :: (b :: _) as r =>
      match intersectSegment p a b with Some q => [q] | None => [] end ++ hits_path p r
  | _ => []
  end.
Definition hits (p : plane) (pathes : list path) : list point := flat_map (hits_path p) pathes.

(** slicers/fill_layer.go:236-241: pts[0],pts[1]; pts[2],pts[3]; ... *)
Fixpoint pairs (pts : list point) : list path :=
  match pts with
  | a :: b :: r => [a; b] :: pairs r
  | _ => []
  end.

(** slicers/fill_layer.go:225-234 *)
Definition by_x (n : vector) : bool :=
  let ang := angle (projectOnPlane n (Pl originPoint axisZ)) axisY in
  nearAngle ang n0 || nearAngle ang (nofZ 180).
Definition sort_hits (U : env) (p : plane) (pts : list point) : list point :=
  if by_x (pl_n p) then u_byX U pts else u_byY U pts.

(** slicers/fill_layer.go:211-250 intersectByPlane; nil is the empty list *)
Definition intersectByPlane (U : env) (pathes : list path) (p : plane) : list path :=
  let pts := hits p pathes in
  if (length pts <? 2)%nat then []
  else
    let pts := sort_hits U p pts in
    if (4 <? length pts)%nat then pairs pts
    else match pts with
         | [a; b] => [[a; b]]
         | [a; _; c] => [[a; c]]
         | [a; b; c; d] => [[a; b]; [c; d]]
         | _ => []
         end.

(** slicers/fill_layer.go:136-151: the nearest end among the paths not yet used *)
Fixpoint nearest (p : point) (j : nat) (used : list bool) (fs : list path)
    (best : num * nat * bool) : res (num * nat * bool) :=
  match fs, used with
  | f :: fs, u :: used =>
      if (u : bool) then nearest p (S j) used fs best
      else
        a <- idx f 0 ;;
        let best := if distanceTo a p <? fst (fst best) then (distanceTo a p, j, false) else best in
        b <- idx_last f ;;
        let best := if distanceTo b p <? fst (fst best) then (distanceTo b p, j, true) else best in
        nearest p (S j) used fs best
  | _, _ => Ok best
  end.

Fixpoint set_used (j : nat) (used : list bool) : list bool :=
  match used, j with
  | _ :: r, O => true :: r
  | u :: r, S j => u :: set_used j r
  | [], _ => []
  end.

(** slicers/fill_layer.go:130-158; [res] is kept in reverse *)
Fixpoint sort_fill_loop (k : nat) (fill : list path) (out : list path) (used : list bool) : res (list path) :=
  match k with
  | O => Ok (rev out)
  | S k =>
      pts <- idx out 0 ;;
      p <- idx_last pts ;;
      '(_, sj, rv) <- nearest p 1 (tl used) (tl fill) (maxFloat32, 0%nat, false) ;;
      f <- idx fill sj ;;
      sort_fill_loop k fill ((if (rv : bool) then rev f else f) :: out) (set_used sj used)
  end.
(** slicers/fill_layer.go:123-160 sortFillPathes *)
Definition sortFillPathes (fill : list path) : res (list path) :=
  match fill with
  | f0 :: _ :: _ =>
      sort_fill_loop (length fill - 1) fill [f0] (true :: repeat false (length fill - 1))
  | _ => Ok fill
  end.

(** slicers/fill_layer.go:89-118, layer i of n; [int] comparisons *)
Definition fillLayer (U : env) (n i : Z) (planes full : list plane) (s : settings) (l : layer) : res layer :=
  let inner := match l_inner l with Some ps => ps | None => l_paths l end in
  let pls := if ((i <? s_bottomLayers s) || (n - s_topLayers s <=? i))%Z%bool then full else planes in
  fill <- sortFillPathes (l_fill l ++ flat_map (intersectByPlane U inner) pls) ;;
  Ok (Layer_ (l_order l) (l_norm l) (l_paths l) (l_middle l) (l_inner l) fill).

Fixpoint fill_loop (U : env) (n i : Z) (planes full : list plane) (s : settings) (ls : list layer) : res (list layer) :=
  match ls with
  | [] => Ok []
  | l :: r =>
      l <- fillLayer U n i planes full s l ;;
      r <- fill_loop U n (i + 1)%Z planes full s r ;;
      Ok (l :: r)
  end.
(** slicers/fill_layer.go:86-121 FillLayers. The layers are changed in place and
    also returned; a slice already in Fill is extended (no other slice shares
    its array). *)
Definition fillLayers (U : env) (ls : list layer) (planes full : list plane) (s : settings) : res (list layer) :=
  fill_loop U (Z.of_nat (length ls)) 0 planes full s ls.
End Fill.
