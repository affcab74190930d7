(** * Elementary geometry in R^3: vocabulary of the statements in exact arithmetic

    Written with real numbers and coordinates only. *)
From Coq Require Import Reals List Bool ZArith.
From Verif Require Import Arith ArithR Prim.
Import ListNotations.
Local Open Scope R_scope.

Definition Rpoint := @point ArithR.
Definition Rvector := @vector ArithR.
Definition Rplane := @plane ArithR.
Definition Rtriangle := @triangle ArithR.
Definition Rmesh := @mesh ArithR.
Definition Rpath := @path ArithR.
Definition Rline := @line ArithR.

(** coordinates as real numbers *)
Definition X (p : Rpoint) : R := px p.
Definition Y (p : Rpoint) : R := py p.
Definition Z3 (p : Rpoint) : R := pz p.

(** signed distance to a plane, scaled by the length of the normal *)
Definition sd (p : Rplane) (q : Rpoint) : R :=
  (X q - X (pl_p p)) * vx (pl_n p) + (Y q - Y (pl_p p)) * vy (pl_n p) + (Z3 q - Z3 (pl_p p)) * vz (pl_n p).

(** the point a + t (b - a) *)
Definition along (a b : Rpoint) (t : R) : Rpoint :=
  P3 (A := ArithR) (X a + t * (X b - X a)) (Y a + t * (Y b - Y a)) (Z3 a + t * (Z3 b - Z3 a)).

Definition on_seg (a b q : Rpoint) : Prop := exists t, 0 <= t <= 1 /\ q = along a b t.

Definition comb3 (u v w : R) (a b c : Rpoint) : Rpoint :=
  P3 (A := ArithR) (u * X a + v * X b + w * X c) (u * Y a + v * Y b + w * Y c) (u * Z3 a + v * Z3 b + w * Z3 c).
(** q is a point of the triangle with vertices a, b, c *)
Definition in_tri (a b c q : Rpoint) : Prop :=
  exists u v w, 0 <= u /\ 0 <= v /\ 0 <= w /\ u + v + w = 1 /\ q = comb3 u v w a b c.

(** coordinates differ by at most e / by less than e *)
Definition within (e : R) (a b : Rpoint) : Prop :=
  Rabs (X a - X b) <= e /\ Rabs (Y a - Y b) <= e /\ Rabs (Z3 a - Z3 b) <= e.
Definition closer (e : R) (a b : Rpoint) : Prop :=
  Rabs (X a - X b) < e /\ Rabs (Y a - Y b) < e /\ Rabs (Z3 a - Z3 b) < e.

Definition dist2 (a b : Rpoint) : R :=
  (X a - X b) * (X a - X b) + (Y a - Y b) * (Y a - Y b) + (Z3 a - Z3 b) * (Z3 a - Z3 b).

(** scalar triple product: orientation of (u, v, w) *)
Definition det3 (u v w : Rvector) : R :=
  vx u * (vy v * vz w - vz v * vy w) - vy u * (vx v * vz w - vz v * vx w) + vz u * (vx v * vy w - vy v * vx w).

(** vector from a to b *)
Definition arrow (a b : Rpoint) : Rvector := V3 (A := ArithR) (X b - X a) (Y b - Y a) (Z3 b - Z3 a).

Definition vertices {A : Arith} (m : mesh) : list point := flat_map (fun t => [t1 t; t2 t; t3 t]) m.

(** cyclic sum of f over the sides of a contour (last point back to the first) *)
Fixpoint open_sum (f : Rpoint -> Rpoint -> R) (p : list Rpoint) : R :=
  match p with a :: (b :: _) as r => f a b + open_sum f r | _ => 0 end.
Definition cyc_sum (f : Rpoint -> Rpoint -> R) (p : list Rpoint) : R :=
  match p with [] => 0 | a :: _ => open_sum f p + f (last p a) a end.

(** twice the signed area of the projection on XY (shoelace), counter-clockwise positive *)
Definition area2 (p : list Rpoint) : R := cyc_sum (fun a b => X a * Y b - X b * Y a) p.

(** twice the signed area of the triangle (o, a, b) in the plane XY *)
Definition tri2 (ox oy : R) (a b : Rpoint) : R := (X a - ox) * (Y b - oy) - (X b - ox) * (Y a - oy).
