(** * Vocabulary of the properties about contours and the model they are cut from, in exact arithmetic *)
From Coq Require Import Reals List Bool.
From Verif Require Import Arith ArithR Prim Path GeomSpec SlicerClaims InsideClaims.
From Verif Require ClosedClaims.
Import ListNotations.
Close Scope num_scope.
Local Open Scope R_scope.

(** the horizontal ray from [q] in direction (dx, dy) meets the triangle *)
Definition ray_meets (q : Rpoint) (dx dy : R) (t : Rtriangle) : Prop :=
  exists s, 0 < s /\ in_tri (t1 t) (t2 t) (t3 t) (P3 (A := ArithR) (X q + s * dx) (Y q + s * dy) (Z3 q)).

(** the ray meets n triangles of the model *)
Inductive pierced (q : Rpoint) (dx dy : R) : list Rtriangle -> nat -> Prop :=
| pi_nil : pierced q dx dy [] 0
| pi_met t m n : ray_meets q dx dy t -> pierced q dx dy m n -> pierced q dx dy (t :: m) (S n)
| pi_not t m n : ~ ray_meets q dx dy t -> pierced q dx dy m n -> pierced q dx dy (t :: m) n.

(** the ray keeps clear of the sides of the triangles: at its height no side is nearer than [delta] to its line (in the
    sum norm; the coordinates of contours are rounded to 8 places) *)
Definition clear_ray (delta : R) (q : Rpoint) (dx dy : R) (m : Rmesh) : Prop :=
  forall e x, In e (ClosedClaims.sides m) -> on_seg (fst e) (snd e) x -> Z3 x = Z3 q ->
    delta * (Rabs dx + Rabs dy) < Rabs (dx * (Y x - Y q) - dy * (X x - X q)).

(** the point is further than [delta] from the surface, at its height and in one of the coordinates *)
Definition off_surface (delta : R) (q : Rpoint) (m : Rmesh) : Prop :=
  forall t x, In t m -> in_tri (t1 t) (t2 t) (t3 t) x -> Z3 x = Z3 q -> ~ (Rabs (X x - X q) <= delta /\ Rabs (Y x - Y q) <= delta).

(** seen from above, [q] is in the triangle a b c *)
Definition in_tri2 (a b c q : Rpoint) : Prop :=
  exists u v w, 0 <= u /\ 0 <= v /\ 0 <= w /\ u + v + w = 1 /\
    X q = u * X a + v * X b + w * X c /\ Y q = u * Y a + v * Y b + w * Y c.

(** the corners of the contours at the height of [q]: where sides of triangles cross that height, rounded to 8 places *)
Definition corner (m : Rmesh) (z : R) (x : Rpoint) : Prop :=
  exists e y, In e (ClosedClaims.sides m) /\ on_seg (fst e) (snd e) y /\ Z3 y = z /\ x = pt_round8 y.

(** no three corners that are nearly in line have [q] between them: such corners may be cut off *)
Definition no_sliver (q : Rpoint) (K : Rpoint -> Prop) : Prop :=
  forall a b c, K a -> K b -> K c -> a <> b -> b <> c -> a <> c ->
    Rabs ((X b - X a) * (Y c - Y b) - (Y b - Y a) * (X c - X b)) < 1 / 10 ^ 6 -> ~ in_tri2 a b c q.
