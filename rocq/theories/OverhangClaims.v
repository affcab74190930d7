(** * Vocabulary of the properties about overhangs, in exact arithmetic *)
From Coq Require Import Reals List Bool.
From Verif Require Import Arith ArithR Prim Path GeomSpec Slicer Vip.
Import ListNotations.
Close Scope num_scope.
Local Open Scope R_scope.

(** degrees *)
Definition deg (d : R) : R := d * PI / 180.
(** q is a point of a side of the contour *)
Definition on_contour (p : Rpath) (q : Rpoint) : Prop :=
  exists i a b, nth_error p i = Some a /\ nth_error p (S i) = Some b /\ on_seg a b q.

(** normal inclined by 60 degrees towards the direction (x, y) of the bed *)
Definition leans (n : Rvector) (x y : R) : Prop :=
  x * x + y * y = 1 /\ n = V3 (A := ArithR) (sqrt 3 / 2 * x)%R (sqrt 3 / 2 * y)%R (1 / 2)%R.

(** the contour winds counter-clockwise at its first point, as seen from [c]: it bounds a hole *)
Definition hole (c : Rpoint) (p : Rpath) : Prop :=
  exists a b r, p = a :: b :: r /\ 0 <= (Y b - Y a) * (X a - X c) - (X b - X a) * (Y a - Y c).
(** the first contour of [paths] that is no hole and has [cp] inside *)
Definition under (cp : Rpoint) (paths : list Rpath) (pr : Rpath) : Prop :=
  exists l1 l2 c, paths = l1 ++ pr :: l2 /\ findCentroid pr = Ok c /\ ~ hole c pr /\ pt_inside cp pr = true /\
    Forall (fun x => exists c, findCentroid x = Ok c /\ (hole c x \/ pt_inside cp x = false)) l1.
(** all contours are holes or do not have [cp] inside *)
Definition nothing_under (cp : Rpoint) (paths : list Rpath) : Prop :=
  Forall (fun x => exists c, findCentroid x = Ok c /\ (hole c x \/ pt_inside cp x = false)) paths.

(** distance as seen from above *)
Definition hdist (p q : Rpoint) : R := sqrt ((X q - X p) * (X q - X p) + (Y q - Y p) * (Y q - Y p)).

(** q is where the vertical plane through [cp] in direction (x, y) meets a side of the contour
    that does not run along the plane, ahead of [f] *)
Definition met (cp f : Rpoint) (p : Rpath) (x y : R) (q : Rpoint) : Prop :=
  exists i a b, nth_error p i = Some a /\ nth_error p (S i) = Some b /\ on_seg a b q /\
    (X a - X cp) * y - (Y a - Y cp) * x <> (X b - X cp) * y - (Y b - Y cp) * x /\
    (X q - X cp) * y = (Y q - Y cp) * x /\ 0 <= (X q - X f) * x + (Y q - Y f) * y.

(** the point [h] higher; contours at one height; contours that come back to their start *)
Definition lift (h : R) (p : Rpoint) : Rpoint := P3 (A := ArithR) (X p) (Y p) (Z3 p + h).
Definition level (z : R) (p : Rpath) : Prop := Forall (fun q => Z3 q = z) p.
Definition comes_back (p : Rpath) : Prop := exists a r, p = a :: r /\ last p a = a.

