(** * Vocabulary of the statements about sections in float64 *)
From Coq Require Import ZArith Reals Bool List.
From Flocq Require Import IEEE754.BinarySingleNaN.
From Verif Require Import Arith ArithF64 Prim GeomSpec.
Import ListNotations.
Close Scope Z_scope.
Close Scope num_scope.
Open Scope R_scope.

Section F.
Variable E : elem.
Notation pt := (@point (ArithF64 E)).

(** the coordinates as real numbers *)
Definition rx (p : pt) : R := B2R (px p : f64).
Definition ry (p : pt) : R := B2R (py p : f64).
Definition rz (p : pt) : R := B2R (pz p : f64).

(** three numbers, none NaN or infinite, none above [l] in size *)
Definition sized (l : R) (p : pt) : Prop :=
  (is_finite (px p : f64) = true /\ Rabs (rx p) <= l) /\
  (is_finite (py p : f64) = true /\ Rabs (ry p) <= l) /\
  (is_finite (pz p : f64) = true /\ Rabs (rz p) <= l).

(** [q] is within [d] on every axis of a point of the segment from [a] to [b] *)
Definition beside_segment (d : R) (a b q : pt) : Prop :=
  exists s, 0 <= s <= 1 /\
    Rabs (rx q - (rx a + s * (rx b - rx a))) <= d /\
    Rabs (ry q - (ry a + s * (ry b - ry a))) <= d /\
    Rabs (rz q - (rz a + s * (rz b - rz a))) <= d.

(** the sides of the triangles *)
Definition edge_of (m : @mesh (ArithF64 E)) (a b : pt) : Prop :=
  exists t, In t m /\ ((a = t1 t /\ b = t2 t) \/ (a = t2 t /\ b = t3 t) \/ (a = t3 t /\ b = t1 t)).

(** [q] is, within [d], where a side of a triangle has the height [h] *)
Definition cut_point (d : R) (m : @mesh (ArithF64 E)) (h : R) (q : pt) : Prop :=
  sized 20000 q /\ Rabs (rz q - h) <= d /\ exists a b, edge_of m a b /\ beside_segment d a b q.

(** least and greatest height *)
Definition bottom_of (m : @mesh (ArithF64 E)) (mn : R) : Prop :=
  (exists v, In v (vertices m) /\ rz v = mn) /\ forall v, In v (vertices m) -> mn <= rz v.
Definition top_of (m : @mesh (ArithF64 E)) (mx : R) : Prop :=
  (exists v, In v (vertices m) /\ rz v = mx) /\ forall v, In v (vertices m) -> rz v <= mx.
End F.

(** height of cut [i] of [n] *)
Definition nominal (mn mx : R) (n : Z) (i : nat) : R := mn + (INR i + / 2) * ((mx - mn) / IZR n).
