(** * Package helpers: cutting, simplification, colouring, support outlines *)
From Coq Require Import ZArith NArith String List Bool PeanoNat.
From Verif Require Import Arith Prim Path.
Import ListNotations.
Open Scope num_scope.

Section Helpers.
Context {A : Arith}.

(** ** cut_mesh.go *)

(** helpers/cut_mesh.go:102-123 splitOnThree. Lines 109-113 rotate the vertices
    so that the one Equal to [p1] comes first; lines 115-118 order the cut points. *)
Definition turn_to (p1 : point) (t : triangle) : point * point * point :=
  if pt_equal (t2 t) p1 then (t2 t, t3 t, t1 t)
  else if pt_equal (t3 t) p1 then (t3 t, t1 t, t2 t)
  else (t1 t, t2 t, t3 t).
Definition splitOnThree (p1 : point) (ln : line) (t : triangle) : triangle * triangle * triangle :=
  let '(a, b, c) := turn_to p1 t in
  let '(l1, l2) :=
    if almostZero (vlen (cross (vectorTo a b) (vectorTo a (lp2 ln))))
    then (lp2 ln, lp1 ln) else (lp1 ln, lp2 ln) in
  (newTriangle a l1 l2, newTriangle l1 b c, newTriangle c l2 l1).

(** helpers/cut_mesh.go:20-71: what one triangle contributes to [up], [down] and
    [inters]. The log.Printf of the skip branches is not modelled. *)
Definition cut_one (p : plane) (t : triangle) : list triangle * list triangle * list path :=
  let pts := [t1 t; t2 t; t3 t] in
  let inFront := filter (pointInFront p) pts in
  let outFront := filter (fun q => negb (pointInFront p q)) pts in
  match inFront with
  | [_; _; _] => ([t], [], [])
  | [_; _] =>
      match intersectTriangle p t, outFront with
      | Some ln, o :: _ =>
          let '(s0, s1, s2) := splitOnThree o ln t in
          ([s1; s2], [s0], [[lp1 ln; lp2 ln]])
      | _, _ => ([], [], [])
      end
  | [i] =>
      match intersectTriangle p t with
      | Some ln =>
          let '(s0, s1, s2) := splitOnThree i ln t in
          ([s0], [s1; s2], [[lp1 ln; lp2 ln]])
      | None => ([], [], [])
      end
  | _ => ([], [t], [])
  end.

(** helpers/cut_mesh.go:82-92: the fan of closing triangles of one contour,
    paired as (appended to up, appended to down) *)
Definition cap_pair (p : plane) (a b c : point) : triangle * triangle :=
  let t := newTriangle a b c in
  let t2 := newTriangle c b a in
  if codirected (t_n t) (pl_n p) then (t2, t) else (t, t2).
Fixpoint cap_fan (p : plane) (a : point) (rest : list point) : list (triangle * triangle) :=
  match rest with
  | b :: (c :: _) as r => cap_pair p a b c :: cap_fan p a r
  | _ => []
  end.
Definition cap_path (p : plane) (pth : path) : list (triangle * triangle) :=
  match pth with [] => [] | a :: r => cap_fan p a r end.

(** helpers/cut_mesh.go:10-98 CutMesh. The returned error is always nil. A nil
    mesh behaves like an empty one. [srt] as in [joinPaths3]. *)
Definition cutMesh (srt : list sortp -> list sortp) (m : mesh) (p : plane) : res (mesh * mesh) :=
  match m with
  | [] => Ok ([], [])
  | _ =>
    let parts := map (cut_one p) m in
    let up := flat_map (fun x => fst (fst x)) parts in
    let down := flat_map (fun x => snd (fst x)) parts in
    let inters := flat_map snd parts in
    joined <- joinPaths3AndMinimize srt inters ;;
    let caps := flat_map (cap_path p) joined in
    Ok (up ++ map fst caps, down ++ map snd caps)
  end.

(** ** simplify_line.go *)

(** helpers/simplify_line.go:10-19: the farthest inner point; [i] is the index of
    the head of [pts], and the last point of the list is not examined *)
Fixpoint far_scan (p0 pe : point) (i : nat) (pts : list point) (index : nat) (dmax : num) : nat * num :=
  match pts with
  | q :: (_ :: _) as r =>
      let d := distanceToLine q p0 pe in
      if d >? dmax then far_scan p0 pe (S i) r i d else far_scan p0 pe (S i) r index dmax
  | _ => (index, dmax)
  end.

(** helpers/simplify_line.go:8-30 SimplifyLine; [fuel] bounds the recursion depth
    (Go's stack overflow is [Diverge]). The empty slice panics: ps[0] (or, for a
    negative epsilon, ps[:1] of a slice without spare capacity). *)
Fixpoint simplifyLine (fuel : nat) (ps : list point) (epsilon : num) : res (list point) :=
  match fuel with
  | O => Diverge
  | S f =>
    match ps with
    | [] => Panic
    | p0 :: r =>
      let pe := last ps p0 in
      let '(index, dmax) := far_scan p0 pe 1 r 0 n0 in
      if dmax >? epsilon then
        res1 <- simplifyLine f (firstn (S index) ps) epsilon ;;
        res2 <- simplifyLine f (skipn index ps) epsilon ;;
        Ok (removelast res1 ++ res2)
      else Ok [p0; pe]
    end
  end.

(** ** simplify_mesh.go *)

(** helpers/simplify_mesh.go:9-24 SimplifyMesh; [oracle factor] stands for the
    external library github.com/fogleman/simplify (vertices in, vertices out),
    lines 26-49 for the conversions. A nil mesh ([None]) is an error. *)
Definition simplifyMesh (oracle : num -> list (point * point * point) -> list (point * point * point))
    (m : option mesh) (resSize : Z) : option mesh :=
  match m with
  | None => None
  | Some ts =>
    if (Z.of_nat (length ts) <=? resSize)%Z then Some ts else
    let factor := nofZ resSize / nofZ (Z.of_nat (length ts)) in
    Some (map (fun '(a, b, c) => newTriangle a b c)
              (oracle factor (map (fun t => (t1 t, t2 t, t3 t)) ts)))
  end.

(** ** colorize_triangles.go *)

(** helpers/colorize_triangles.go:8-18 ColorizeTriangles *)
Definition colorizeTriangles (m : mesh) (ang : num) (v : vector) : list bool :=
  map (fun t => angle (t_n t) (vopp v) <? nofZ 90 - ang) m.
(** helpers/colorize_triangles.go:20-30 FilterTrianglesByColor; the index arr[i]
    is in range because both lists have one entry per triangle *)
Definition filterTrianglesByColor (m : mesh) (ang : num) (v : vector) : list triangle :=
  map snd (filter fst (combine (colorizeTriangles m ang v) m)).

(** ** supports_by_vector.go *)

(** helpers/supports_by_vector.go:11-13, 92-94: the edges of a triangle as both
    functions list them *)
Definition tri_edges (t : triangle) : list line := [L2 (t1 t) (t2 t); L2 (t1 t) (t3 t); L2 (t3 t) (t2 t)].
(** lines 24 and 72: l1 == l2 || l1 == l2.Reverse() *)
Definition same_edge (l1 l2 : line) : bool := l_eqb l1 l2 || l_eqb l1 (l_rev l2).

(** helpers/supports_by_vector.go:16-33: line i is kept if no other line is the same *)
Fixpoint undouble (before after : list line) : list line :=
  match after with
  | [] => []
  | l :: r =>
      if existsb (same_edge l) (before ++ r) then undouble (before ++ [l]) r
      else l :: undouble (before ++ [l]) r
  end.
(** helpers/supports_by_vector.go:7-35 MakeUndoubledLinesFromTriangles *)
Definition makeUndoubledLines (ts : list triangle) : list line := undouble [] (flat_map tri_edges ts).

(** helpers/supports_by_vector.go:38-54 IntersectTriangles; nil is the empty list *)
Definition intersectTriangles (t : triangle) (ts : list triangle) : list line :=
  flat_map (fun bt =>
    if negb (t_pointBelongs bt (t1 t) || t_pointBelongs bt (t2 t) || t_pointBelongs bt (t3 t))
    then match t_intersectTriangle bt t with Some l => [l] | None => [] end
    else []) ts.

(** helpers/supports_by_vector.go:57-67 MakeSupportLines *)
Definition makeSupportLines (lines : list line) (a : plane) : res (list line) :=
  rmap (fun l => p1 <- proectionPointToPlane a (lp1 l) ;;
                 p2 <- proectionPointToPlane a (lp2 l) ;; Ok (L2 p1 p2)) lines.

(** helpers/supports_by_vector.go:69-85 compareAndDeleteLineFromSlice: the first
    same line is overwritten by the last one and the slice shortened; otherwise
    the new line is appended *)
Fixpoint find_edge (l : line) (ls : list line) (j : nat) : option nat :=
  match ls with
  | [] => None
  | x :: r => if same_edge l x then Some j else find_edge l r (S j)
  end.
Definition compareAndDelete (ls : list line) (l : line) : list line :=
  match find_edge l ls 0 with
  | Some j => removelast (upd ls j (last ls l))
  | None => ls ++ [l]
  end.
(** helpers/supports_by_vector.go:87-97 DeleteInternalLines *)
Definition deleteInternalLines (ts : list triangle) : list line :=
  fold_left compareAndDelete (flat_map tri_edges ts) [].

End Helpers.
