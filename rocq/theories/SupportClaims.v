(** * Vocabulary of the properties about supports, in exact arithmetic *)
From Coq Require Import Reals List Bool.
From Verif Require Import Arith ArithR Prim Path GeomSpec SlicerClaims Helpers HelperClaims Slicer.
Import ListNotations.
Close Scope num_scope.
Local Open Scope R_scope.

(** the point of the plane at height [mn] below [q], in direction [u] *)
Definition foot (u : Rvector) (mn : R) (q : Rpoint) : Rpoint :=
  P3 (A := ArithR) (X q + (mn - Rdot q u) * vx u) (Y q + (mn - Rdot q u) * vy u) (Z3 q + (mn - Rdot q u) * vz u).

(** the points between the segment from [a] to [b] and that plane *)
Definition curtain (u : Rvector) (mn : R) (a b p : Rpoint) : Prop :=
  exists q t, on_seg a b q /\ 0 <= t <= 1 /\ p = along (foot u mn q) q t.

(** the two triangles a support wall below the side [e] is made of *)
Definition upper (u : Rvector) (mn : R) (e : @line ArithR) : Rtriangle := newTriangle (foot u mn (lp1 e)) (lp1 e) (lp2 e).
Definition lower (u : Rvector) (mn : R) (e : @line ArithR) : Rtriangle := newTriangle (foot u mn (lp1 e)) (foot u mn (lp2 e)) (lp2 e).

(** the triangles that face against the direction of --normal by less than 90 degrees minus
    the angle, moved by the offset *)
Definition hanging (s : @settings ArithR) (m : Rmesh) : Rmesh :=
  map (fun t => t_shift t (vscale (s_unitVector s) (- s_supportOffset s)%R))
    (filter (fun t => Rltb (angle (t_n t) (vopp (s_unitVector s))) (90 - s_colorizedAngle s)%R) m).
(** the sides of these that belong to one of them only *)
Definition border (s : @settings ArithR) (m : Rmesh) (e : @line ArithR) : Prop :=
  In e (edges (hanging s m)) /\ occ e (edges (hanging s m)) = 1%nat.

(** Triangle.IntersectTriangle finds nothing, or a corner of [t] is on the other triangle
    according to Triangle.PointBelongs *)
Definition passes (bt t : Rtriangle) : Prop :=
  t_intersectTriangle bt t = None \/ t_pointBelongs bt (t1 t) = true \/ t_pointBelongs bt (t2 t) = true \/ t_pointBelongs bt (t3 t) = true.

(** an upright triangle parallel to the axis y or x, at a coordinate with at most eight decimals *)
Definition wall_x (k : Z) (t : Rtriangle) : Prop :=
  X (t1 t) = IZR k / 10 ^ 8 /\ X (t2 t) = IZR k / 10 ^ 8 /\ X (t3 t) = IZR k / 10 ^ 8 /\ t = newTriangle (t1 t) (t2 t) (t3 t).
Definition wall_y (k : Z) (t : Rtriangle) : Prop :=
  Y (t1 t) = IZR k / 10 ^ 8 /\ Y (t2 t) = IZR k / 10 ^ 8 /\ Y (t3 t) = IZR k / 10 ^ 8 /\ t = newTriangle (t1 t) (t2 t) (t3 t).
