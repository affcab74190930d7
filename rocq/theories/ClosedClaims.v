(** * Vocabulary of the statements about closed contours *)
From Coq Require Import ZArith List Bool Permutation Sorted.
From Verif Require Import Arith Prim Path PathClaims Properties_Path SlicerClaims.
Import ListNotations.
Close Scope Z_scope.
Close Scope num_scope.

Section Any.
Context {A : Arith}.

(** first and last point of a path *)
Definition from (q : path) : point := hd originPoint q.
Definition upto (q : path) : point := last q originPoint.

(** every path ends where exactly one of the paths starts: the paths can be
    listed again so that the k-th ends at the start of the k-th of the new list,
    and no two of them start at the same place *)
Definition contours (p : list path) : Prop :=
  (exists p', Permutation p p' /\ Forall2 (fun q q' => pt_equal (upto q) (from q') = true) p p') /\
  ForallOrdPairs (fun q q' => pt_equal (from q) (from q') = false) p.

(** two numbers the code treats as equal are not ordered: no two different
    numbers of the list are closer than the tolerance, and none is NaN *)
Definition separated (l : list num) : Prop := forall x y, In x l -> In y l ->
  plain x /\ (almostZero (nsub x y) = true <-> nltb x y = false /\ nltb y x = false).
Definition apart (p : list path) : Prop :=
  let ends := map from p ++ map upto p in
  separated (map px ends) /\ separated (map py ends) /\ separated (map pz ends).

(** the comparator is a strict weak order on the list: then sort.Slice sorts *)
Definition weak_order {T} (less : T -> T -> bool) (l : list T) : Prop :=
  (forall a, In a l -> less a a = false) /\
  (forall a b c, In a l -> In b l -> In c l -> less a b = true -> less b c = true -> less a c = true) /\
  (forall a b c, In a l -> In b l -> In c l -> less a b = false -> less b c = false -> less a c = false).
Definition sorts {T} (less : T -> T -> bool) (srt : list T -> list T) : Prop :=
  (forall l, Permutation l (srt l)) /\
  forall l, weak_order less l -> StronglySorted (fun a b => less b a = false) (srt l).

(** a path with an edge that comes back to where it started *)
Definition ring (q : path) : Prop := 2 <= length q /\ isClosed q = true.
End Any.

(** ** Watertight meshes, in exact arithmetic *)
From Coq Require Import Reals.
From Verif Require Import ArithR GeomSpec.
Local Open Scope R_scope.

(** the sides of the triangles, with their direction *)
Definition side := (Rpoint * Rpoint)%type.
Definition tri_sides (t : Rtriangle) : list side := [(t1 t, t2 t); (t2 t, t3 t); (t3 t, t1 t)].
Definition sides (m : Rmesh) : list side := flat_map tri_sides m.
Definition back (e : side) : side := (snd e, fst e).

(** a closed oriented surface: every side is used once in each direction; every
    triangle has three different vertices, and the normal that belongs to them *)
Definition watertight (m : Rmesh) : Prop :=
  Permutation (sides m) (map back (sides m)) /\ NoDup (sides m) /\
  Forall (fun t => t1 t <> t2 t /\ t2 t <> t3 t /\ t3 t <> t1 t /\ t = newTriangle (t1 t) (t2 t) (t3 t)) m.

(** the point where a side meets a plane *)
Definition meets (p : Rplane) (e : side) (q : Rpoint) : Prop := on_seg (fst e) (snd e) q /\ sd p q = 0.

(** the sides of a contour, with their direction *)
Definition path_sides (q : Rpath) : list side := combine q (tl q).

(** equal, or at least 2e-6 apart *)
Definition clear_of (x y : R) : Prop := x = y \/ 2 / 10 ^ 6 <= Rabs (x - y).

(** no vertex on the plane; two points where sides meet the plane agree in a
    coordinate or are clear of each other in it, and differ unless the sides are
    the same *)
Definition general_position (p : Rplane) (m : Rmesh) : Prop :=
  (forall v, In v (vertices m) -> sd p v <> 0) /\
  (forall e e' q q', In e (sides m) -> In e' (sides m) -> meets p e q -> meets p e' q' ->
     clear_of (X q) (X q') /\ clear_of (Y q) (Y q') /\ clear_of (Z3 q) (Z3 q') /\
     (q = q' -> e' = e \/ e' = back e)).
