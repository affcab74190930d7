(** * Package primitives: points, vectors, lines, planes, triangles, meshes *)
From Coq Require Import ZArith NArith String List Bool.
From Verif Require Import Arith.
Import ListNotations.
Open Scope num_scope.

Section Prim.
Context {A : Arith}.

(** primitives/point.go:12-14 *)
Record point := P3 { px : num; py : num; pz : num }.
(** primitives/vector.go:14-16, and V at 24-26 *)
Record vector := V3 { vx : num; vy : num; vz : num }.
(** primitives/line.go:7-9 *)
Record line := L2 { lp1 : point; lp2 : point }.
(** primitives/plane.go:13-16 *)
Record plane := Pl { pl_p : point; pl_n : vector }.
(** primitives/triangle.go:7-10 *)
Record triangle := Tri { t_n : vector; t1 : point; t2 : point; t3 : point }.
(** primitives/rotation_matrix.go:5-9 *)
Record rotmat := RM { rm_x : vector; rm_y : vector; rm_z : vector }.

(** primitives/mesh.go:7-9: a mesh is its slice of triangles *)
Definition mesh := list triangle.
(** primitives/path.go:5-7: a path is its slice of points *)
Definition path := list point.

(** ** utils.go *)

(** primitives/utils.go:85 almostZeroNumber = 1e-6 *)
Definition almostZeroNumber : num := nlit 1 1000000.
(** primitives/utils.go:87-89 AlmostZero *)
Definition almostZero (f : num) : bool :=
  (- almostZeroNumber <? f) && (f <? almostZeroNumber).

(** primitives/utils.go:75-81 Round *)
Definition round_ (a : num) : Z :=
  if a <? n0 then ntoZ (nceil (a - nhalf)) else ntoZ (nfloor (a + nhalf)).

(** primitives/utils.go:83 powersOfTen: 1e0 .. 1e16 *)
Definition powersOfTen : list num := map (fun k => nofZ (10 ^ Z.of_nat k)%Z) (seq 0 17).

(** primitives/utils.go:70-73 RoundPlaces; [places] outside 0..16 panics *)
Definition roundPlaces (a : num) (places : nat) : res num :=
  shift <- idx powersOfTen places ;; Ok (nofZ (round_ (a * shift)) / shift).

(** RoundPlaces with the constant 8 used by every caller in the repository
    (plane.go:64-65, point.go:26): the index is in range, so it cannot panic. *)
Definition shift8 : num := nofZ 100000000.
Definition round8 (a : num) : num := nofZ (round_ (a * shift8)) / shift8.

(** primitives/utils.go:95-97 ToRadians: math.Pi * degree / 180.0 *)
Definition toRadians (degree : num) : num := npi * degree / nofZ 180.

(** ** vector.go *)

(** primitives/vector.go:9-11 *)
Definition axisX := V3 n1 n0 n0.
Definition axisY := V3 n0 n1 n0.
Definition axisZ := V3 n0 n0 n1.

(** primitives/vector.go:28-33 Cross *)
Definition cross (a b : vector) : vector :=
  V3 (vy a * vz b - vz a * vy b) (vz a * vx b - vx a * vz b) (vx a * vy b - vy a * vx b).
(** primitives/vector.go:35-37 Add *)
Definition vadd (a b : vector) : vector := V3 (vx a + vx b) (vy a + vy b) (vz a + vz b).
(** primitives/vector.go:39-41 Sub *)
Definition vsub (a b : vector) : vector := V3 (vx a - vx b) (vy a - vy b) (vz a - vz b).
(** primitives/vector.go:43-45 Dot *)
Definition dot (a b : vector) : num := vx a * vx b + vy a * vy b + vz a * vz b.
(** primitives/vector.go:47-49 MulScalar *)
Definition vscale (a : vector) (b : num) : vector := V3 (vx a * b) (vy a * b) (vz a * b).
(** primitives/vector.go:51-53 Rotate *)
Definition vrotate (a : vector) (rm : rotmat) : vector :=
  V3 (dot a (rm_x rm)) (dot a (rm_y rm)) (dot a (rm_z rm)).
(** primitives/vector.go:55-57 ToPoint; point.go:69-71 ToVector *)
Definition v2p (a : vector) : point := P3 (vx a) (vy a) (vz a).
Definition p2v (a : point) : vector := V3 (px a) (py a) (pz a).
(** primitives/vector.go:59-61 CodirectedWith *)
Definition codirected (a b : vector) : bool := dot a b >=? n0.
(** primitives/vector.go:67-69 LengthSquare *)
Definition vlen2 (a : vector) : num := vx a * vx a + vy a * vy a + vz a * vz a.
(** primitives/vector.go:63-65 Length *)
Definition vlen (a : vector) : num := nsqrt (vlen2 a).
(** primitives/vector.go:71-77 Normalize *)
Definition normalize (a : vector) : vector :=
  let n := vlen a in
  if n =? n0 then a else V3 (vx a / n) (vy a / n) (vz a / n).
(** primitives/vector.go:79-81 Reverse *)
Definition vopp (a : vector) : vector := V3 (- vx a) (- vy a) (- vz a).
(** primitives/vector.go:83-89 Angle (degrees) *)
Definition angle (a b : vector) : num :=
  let v := dot a b / vlen a / vlen b in
  if (v <? nofZ (-1)) || (v >? n1) then n0 else nacos v * nofZ 180 / npi.
(** primitives/vector.go:91-97 ProjectOn *)
Definition projectOn (a b : vector) : vector :=
  let bl := vlen2 b in
  if bl =? n0 then b else vscale b (dot b a / bl).
(** primitives/vector.go:99-101 ProjectOnPlane *)
Definition projectOnPlane (a : vector) (p : plane) : vector :=
  vadd a (vopp (projectOn a (pl_n p))).
(** primitives/vector.go:104-111 RotateAbout *)
Definition rotateAbout (a b : vector) (ang : num) : vector :=
  let theta := toRadians ang in
  let prj := projectOn a b in
  let perp := vsub a prj in
  let w := cross b perp in
  vadd (vadd prj (vscale perp (ncos theta)))
       (vscale (vscale (normalize w) (vlen perp)) (nsin theta)).

(** ** rotation_matrix.go *)

(** primitives/rotation_matrix.go:11-19 *)
Definition rotationAroundX (ang : num) : rotmat :=
  let alpha := toRadians ang in
  RM (V3 n1 n0 n0)
     (V3 n0 (ncos alpha) (nsin alpha))
     (V3 n0 (- nsin alpha) (ncos alpha)).
(** primitives/rotation_matrix.go:21-29 *)
Definition rotationAroundZ (ang : num) : rotmat :=
  let alpha := toRadians ang in
  RM (V3 (ncos alpha) (nsin alpha) n0)
     (V3 (- nsin alpha) (ncos alpha) n0)
     (V3 n0 n0 n1).

(** ** point.go *)

(** primitives/point.go:9 *)
Definition originPoint : point := P3 n0 n0 n0.
(** primitives/point.go:16-18 String *)
Definition pt_string (a : point) : string :=
  ("X" ++ strF (px a) ++ " Y" ++ strF (py a) ++ " Z" ++ strF (pz a))%string.
(** primitives/point.go:19-21 StringDelta *)
Definition stringDelta (a : point) (dx dy dz : num) : string :=
  ("X" ++ strF (px a + dx) ++ " Y" ++ strF (py a + dy) ++ " Z" ++ strF (pz a + dz))%string.
(** primitives/point.go:22-24 StringDeltaZ *)
Definition stringDeltaZ (a : point) (dz : num) : string := ("Z" ++ strF (pz a + dz))%string.

(** primitives/point.go:29-43 StringGcode *)
Definition stringGcode (a b : point) : string :=
  let eps := nlit 1 1000 in
  let s1 := if nabs (px a - px b) >=? eps then ("X" ++ strF (px a) ++ " ")%string else ""%string in
  let s2 := if nabs (py a - py b) >=? eps then (s1 ++ "Y" ++ strF (py a) ++ " ")%string else s1 in
  if nabs (pz a - pz b) >=? eps then (s2 ++ "Z" ++ strF (pz a))%string else s2.

(** primitives/point.go:45-48 Equal *)
Definition pt_equal (a b : point) : bool :=
  almostZero (px a - px b) && almostZero (py a - py b) && almostZero (pz a - pz b).
(** Go's == on Point values *)
Definition pt_eqb (a b : point) : bool :=
  (px a =? px b) && (py a =? py b) && (pz a =? pz b).
(** primitives/point.go:50-52 VectorTo; vector.go:17-19 ToVector *)
Definition vectorTo (a b : point) : vector := V3 (px b - px a) (py b - py a) (pz b - pz a).
(** primitives/point.go:54-56 Shift *)
Definition pshift (a : point) (b : vector) : point := P3 (px a + vx b) (py a + vy b) (pz a + vz b).
(** primitives/point.go:58-60 DistanceTo *)
Definition distanceTo (a b : point) : num :=
  nsqrt (nsq (px a - px b) + nsq (py a - py b) + nsq (pz a - pz b)).
(** primitives/point.go:62-67 RoundPlaces(8), and MapKey at 25-27 *)
Definition pt_round8 (a : point) : point := P3 (round8 (px a)) (round8 (py a)) (round8 (pz a)).
Definition mapKey (a : point) : point := pt_round8 a.
(** primitives/point.go:77-81 ProjectOnLine *)
Definition projectOnLine (a b c : point) : point :=
  let ba := vectorTo b a in
  let bcUnit := normalize (vectorTo b c) in
  pshift b (vscale bcUnit (dot ba bcUnit)).
(** primitives/point.go:73-75 DistanceToLine *)
Definition distanceToLine (a b c : point) : num := distanceTo (projectOnLine a b c) a.
(** primitives/point.go:104-114 Orientation (receiver r) *)
Definition orientation (r p q : point) : nat :=
  let val := (py q - py p) * (px r - px q) - (px q - px p) * (py r - py q) in
  if almostZero val then 0 else if val >? n0 then 1 else 2.

(** ** plane.go *)

(** primitives/plane.go:8-10 *)
Definition planeXY := Pl originPoint axisZ.
Definition planeYZ := Pl originPoint axisX.
Definition planeXZ := Pl originPoint axisY.

(** primitives/plane.go:22-24 Rotate *)
Definition pl_rotate (p : plane) (rm : rotmat) : plane :=
  Pl (v2p (vrotate (p2v (pl_p p)) rm)) (vrotate (pl_n p) rm).

(** primitives/plane.go:76-89 IntersectSegment *)
Definition intersectSegment (p : plane) (p1 p2 : point) : option point :=
  let pr1 := dot (p2v p1) (pl_n p) in
  let pr2 := dot (p2v p2) (pl_n p) in
  if pr1 =? pr2 then None else
  let z := dot (p2v (pl_p p)) (pl_n p) in
  let t := (z - pr1) / (pr2 - pr1) in
  if (t <? n0) || (t >? n1) then None else
  Some (pshift p1 (vscale (vectorTo p1 p2) t)).

(** primitives/plane.go:102-104 PointInFront *)
Definition pointInFront (p : plane) (v : point) : bool :=
  dot (vectorTo (pl_p p) v) (pl_n p) >=? n0.

(** primitives/plane.go:45-74 IntersectTriangle. The pointer test
    "[v != nil]" is the [Some] pattern. *)
Definition ordered_line (p : plane) (t : triangle) (p1 p2 : point) : option line :=
  let p1 := pt_round8 p1 in
  let p2 := pt_round8 p2 in
  if pt_equal p1 p2 then None else
  let n := cross (vectorTo p1 p2) (pl_n p) in
  if dot n (t_n t) <? n0 then Some (L2 p1 p2) else Some (L2 p2 p1).

(** lines 55-63: the first of the pairs (v1,v2), (v1,v3), (v2,v3) that consists
    of two present, not Equal points *)
Definition distinct_pair (a b : option point) : option (point * point) :=
  match a, b with
  | Some x, Some y => if pt_equal x y then None else Some (x, y)
  | _, _ => None
  end.
Definition pick_pair (v1 v2 v3 : option point) : option (point * point) :=
  match distinct_pair v1 v2 with
  | Some r => Some r
  | None => match distinct_pair v1 v3 with
            | Some r => Some r
            | None => distinct_pair v2 v3
            end
  end.
Definition intersectTriangle (p : plane) (t : triangle) : option line :=
  let v1 := intersectSegment p (t1 t) (t2 t) in
  let v2 := intersectSegment p (t2 t) (t3 t) in
  let v3 := intersectSegment p (t3 t) (t1 t) in
  match pick_pair v1 v2 v3 with
  | None => None
  | Some (a, b) => ordered_line p t a b
  end.

(** primitives/plane.go:106-122 ProectionPointToPlane; log.Fatal on NaN is [Panic] *)
Definition proectionPointToPlane (p : plane) (M : point) : res point :=
  let N := pl_n p in
  let P := pl_p p in
  let L := (vx N * (px P - px M) + vy N * (py P - py M) + vz N * (pz P - pz M))
           / (vx N * vx N + vy N * vy N + vz N * vz N) in
  if nisnan L then Panic else
  Ok (P3 (L * vx N + px M) (L * vy N + py M) (L * vz N + pz M)).

(** primitives/plane.go:124-129 PointBelongs *)
Definition pl_pointBelongs (p : plane) (M : point) : bool :=
  let n := pl_n p in
  let P := pl_p p in
  almostZero (vx n * (px M - px P) + vy n * (py M - py P) + vz n * (pz M - pz P)).

(** ** triangle.go *)

(** primitives/triangle.go:12-16, 22-35 NewTriangle/Fill/recalculate/normal *)
Definition newTriangle (p1 p2 p3 : point) : triangle :=
  Tri (cross (vectorTo p1 p2) (vectorTo p1 p3)) p1 p2 p3.
(** primitives/triangle.go:18-20 Shift *)
Definition t_shift (t : triangle) (v : vector) : triangle :=
  newTriangle (pshift (t1 t) v) (pshift (t2 t) v) (pshift (t3 t) v).
(** primitives/triangle.go:37-42 MinZ *)
Definition t_minZ (t : triangle) (z : vector) : num :=
  nmin (dot (p2v (t1 t)) z) (nmin (dot (p2v (t2 t)) z) (dot (p2v (t3 t)) z)).
(** primitives/triangle.go:44-49 MaxZ *)
Definition t_maxZ (t : triangle) (z : vector) : num :=
  nmax (dot (p2v (t1 t)) z) (nmax (dot (p2v (t2 t)) z) (dot (p2v (t3 t)) z)).
(** primitives/triangle.go:51-56 MinMaxZ *)
Definition t_minMaxZ (t : triangle) (z : vector) : num * num := (t_minZ t z, t_maxZ t z).

(** primitives/plane.go:36-43 Intersect *)
Definition pl_intersect (p : plane) (t : triangle) : bool :=
  let '(mn, mx) := t_minMaxZ t (pl_n p) in
  let pp := dot (p2v (pl_p p)) (pl_n p) in
  (mn <=? pp) && (pp <=? mx).

(** primitives/triangle.go:136-155 PointBelongs *)
Definition t_pointBelongs (t : triangle) (p : point) : bool :=
  let plane := Pl (t1 t) (t_n t) in
  if pl_pointBelongs plane p then
    let A := t1 t in let B := t2 t in let C := t3 t in
    let w1 := (px A - px p) * (py B - py A) - (px B - px A) * (py A - py p) in
    let w2 := (px B - px p) * (py C - py B) - (px C - px B) * (py B - py p) in
    let w3 := (px C - px p) * (py A - py C) - (px A - px C) * (py C - py p) in
    ((w1 >=? n0) && (w2 >=? n0) && (w3 >=? n0)) || ((w1 <=? n0) && (w2 <=? n0) && (w3 <=? n0))
  else false.

(** ** line.go *)

(** primitives/line.go:11-13 ToVector *)
Definition l_vec (l : line) : vector := vectorTo (lp1 l) (lp2 l).
(** primitives/line.go:15-17 Reverse *)
Definition l_rev (l : line) : line := L2 (lp2 l) (lp1 l).
(** Go's == on Line values *)
Definition l_eqb (a b : line) : bool := pt_eqb (lp1 a) (lp1 b) && pt_eqb (lp2 a) (lp2 b).
(** primitives/line.go:19-24 Len *)
Definition l_len (l : line) : num :=
  nsqrt (nsq (px (lp2 l) - px (lp1 l)) + nsq (py (lp2 l) - py (lp1 l)) + nsq (pz (lp2 l) - pz (lp1 l))).
(** primitives/line.go:26-35 IsCollinearPointOnSegment *)
Definition isCollinearPointOnSegment (l : line) (p : point) : bool :=
  ((px p <=? nmax (px (lp1 l)) (px (lp2 l))) && (px p >=? nmin (px (lp1 l)) (px (lp2 l)))) &&
  ((py p <=? nmax (py (lp1 l)) (py (lp2 l))) && (py p >=? nmin (py (lp1 l)) (py (lp2 l)))) &&
  ((pz p <=? nmax (pz (lp1 l)) (pz (lp2 l))) && (pz p >=? nmin (pz (lp1 l)) (pz (lp2 l)))).

(** Which object a returned *Point points to: callers of IntersectLine compare
    pointers (triangle.go:122-128). [PFresh] is a new allocation (also &l.P1 and
    &l.P2, since the receiver l is a copy made for the call). *)
Inductive ptr_tag := PFresh | PArg1 | PArg2.
Definition same_ptr (a b : ptr_tag) : bool :=
  match a, b with PArg1, PArg1 => true | PArg2, PArg2 => true | _, _ => false end.

(** primitives/line.go:46-102 IntersectLine *)
Definition intersectLine_m (l l1 : line) : num :=
  let a := l_vec l in
  let b := l_vec l1 in
  let p := lp1 l1 in
  let q := lp1 l in
  let m := (py p - py q - (vy a / vx a) * (px p - px q)) / (vx b * vy a / vx a - vy b) in
  let m := if nisnan m
    then (px p - px q - (vx a / vy a) * (py p - py q)) / (vx a * vy b / vy a - vx b) else m in
  let m := if nisnan m
    then (px p - px q - (vx a / vz a) * (pz p - pz q)) / (vx a * vz b / vz a - vx b) else m in
  if nisnan m
    then (py p - py q - (vy a / vz a) * (pz p - pz q)) / (vy a * vz b / vz a - vy b) else m.
Definition intersectLine (l l1 : line) : option (ptr_tag * point) :=
  let o1 := orientation (lp1 l1) (lp1 l) (lp2 l) in
  let o2 := orientation (lp2 l1) (lp1 l) (lp2 l) in
  let o3 := orientation (lp1 l) (lp1 l1) (lp2 l1) in
  let o4 := orientation (lp2 l) (lp1 l1) (lp2 l1) in
  if negb (Nat.eqb o1 o2) && negb (Nat.eqb o3 o4) then
    let b := l_vec l1 in
    let m := intersectLine_m l l1 in
    Some (PFresh, P3 (px (lp1 l1) + vx b * m) (py (lp1 l1) + vy b * m) (pz (lp1 l1) + vz b * m))
  else if Nat.eqb o1 0 && isCollinearPointOnSegment l (lp1 l1) then Some (PArg1, lp1 l1)
  else if Nat.eqb o2 0 && isCollinearPointOnSegment l (lp2 l1) then Some (PArg2, lp2 l1)
  else if Nat.eqb o3 0 && isCollinearPointOnSegment l1 (lp1 l) then Some (PFresh, lp1 l)
  else if Nat.eqb o4 0 && isCollinearPointOnSegment l1 (lp2 l) then Some (PFresh, lp2 l)
  else None.
(** primitives/line.go:37-44 IsIntersectingSegment *)
Definition isIntersectingSegment (l l1 : line) : bool :=
  match intersectLine l l1 with Some _ => true | None => false end.

(** primitives/line.go:104-109 IsCollinear *)
Definition isCollinear (l1 l2 : line) : bool :=
  almostZero (vlen (cross (l_vec l1) (l_vec l2))).

(** primitives/line.go:112-142 IntersectLine2 *)
Definition intersectLine2 (l1 l2 : line) : option point :=
  let f := l_vec l2 in
  let g := vectorTo (lp1 l1) (lp2 l2) in
  let e := l_vec l1 in
  let a := cross f g in
  let b := cross f e in
  if almostZero (vlen a) || almostZero (vlen b) then None else
  let c := if negb (codirected a b) then nofZ (-1) else n1 in
  let inters := pshift (lp1 l1) (vscale e (c * vlen a / vlen b)) in
  if nisnan (px inters) || nisnan (py inters) || nisnan (pz inters)
     || (distanceTo inters (lp2 l1) >? n2) || (distanceTo inters (lp1 l2) >? n2) then None else
  let d1 := distanceToLine inters (lp1 l1) (lp2 l1) in
  let d2 := distanceToLine inters (lp1 l2) (lp2 l2) in
  if almostZero d1 && almostZero d2 then Some inters else None.

(** primitives/triangle.go:58-134 Triangle.IntersectTriangle. The three
    "one edge and one vertex" tests compare pointers, not points. *)
Definition t_intersectTriangle (t tt : triangle) : option line :=
  match intersectTriangle (Pl (t1 t) (t_n t)) tt with
  | None => None
  | Some ln =>
    let b1 := t_pointBelongs t (lp1 ln) in
    let b2 := t_pointBelongs t (lp2 ln) in
    if b1 && b2 then Some ln else
    let p1 := intersectLine (L2 (t1 t) (t2 t)) ln in
    let p2 := intersectLine (L2 (t1 t) (t3 t)) ln in
    let p3 := intersectLine (L2 (t2 t) (t3 t)) ln in
    (* lines 79-105: the first side that is crossed *)
    let side := match p1, p2, p3 with
      | Some (_, q), _, _ => Some q
      | None, Some (_, q), _ => Some q
      | None, None, Some (_, q) => Some q
      | None, None, None => None
      end in
    match (if b1 || b2 then side else None) with
    | Some q => if b1 then Some (L2 (lp1 ln) q) else Some (L2 q (lp2 ln))
    | None =>
      match p1, p2, p3 with
      | None, Some (_, q2), Some (_, q3) => Some (L2 q2 q3)
      | Some (_, q1), None, Some (_, q3) => Some (L2 q1 q3)
      | Some (_, q1), Some (_, q2), None => Some (L2 q1 q2)
      | Some (a1, q1), Some (a2, q2), Some (a3, q3) =>
          if same_ptr a1 a2 then Some (L2 q1 q3)
          else if same_ptr a1 a3 then Some (L2 q1 q2)
          else if same_ptr a2 a3 then Some (L2 q1 q2)
          else None
      | _, _, _ => None
      end
    end
  end.

(** ** mesh.go *)

(** primitives/mesh.go:15-26 Rotate *)
Definition pt_rotate (rm : rotmat) (around p : point) : point :=
  v2p (vadd (vrotate (vectorTo around p) rm) (p2v around)).
Definition t_rotate (rm : rotmat) (around : point) (t : triangle) : triangle :=
  newTriangle (pt_rotate rm around (t1 t)) (pt_rotate rm around (t2 t)) (pt_rotate rm around (t3 t)).
Definition m_rotate (m : mesh) (rm : rotmat) (around : point) : mesh := map (t_rotate rm around) m.

(** primitives/mesh.go:28-35 Shift (mutates the mesh in place; result returned) *)
Definition m_shift (m : mesh) (v : vector) : mesh := map (fun t => t_shift t v) m.

(** math.MaxFloat64 = 2^1023 * (1 + (1 - 2^-52)) *)
Definition maxFloat64 : num := nofZ ((2 ^ 53 - 1) * 2 ^ 971).
(** math.MaxFloat32 = 2^127 * (1 + (1 - 2^-23)) *)
Definition maxFloat32 : num := nofZ ((2 ^ 24 - 1) * 2 ^ 104).

(** primitives/mesh.go:50-64 MinMaxZ *)
Definition m_minMaxZ (m : mesh) (z : vector) : num * num :=
  match m with
  | [] => (n0, n0)
  | _ => fold_left (fun acc t => let '(mn, mx) := t_minMaxZ t z in
                                 (nmin (fst acc) mn, nmax (snd acc) mx))
                   m (maxFloat64, - maxFloat64)
  end.

(** primitives/layer.go:3-10. A nil slice and an empty slice are distinguished
    only for InnerPs (fill_layer.go:92), hence the option there. *)
Record layer := Layer_ {
  l_order : Z;
  l_norm : vector;
  l_paths : list path;
  l_middle : list path;
  l_inner : option (list path);
  l_fill : list path
}.

End Prim.
