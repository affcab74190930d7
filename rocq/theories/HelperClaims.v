(** * Vocabulary of the statements about package helpers *)
From Coq Require Import Reals List Bool PeanoNat.
From Verif Require Import Arith ArithR Prim Path GeomSpec.
Import ListNotations.
Close Scope R_scope.
Close Scope num_scope.

Section Any.
Context {A : Arith}.

(** ** Cutting *)

(** what becomes of one triangle: the pieces in front and the pieces behind *)
Inductive piece (p : plane) (t : triangle) : list triangle -> list triangle -> Prop :=
| piece_front :                                       (* wholly in front: kept as it is *)
    pointInFront p (t1 t) = true -> pointInFront p (t2 t) = true -> pointInFront p (t3 t) = true ->
    piece p t [t] []
| piece_behind :                                      (* wholly behind: kept as it is *)
    pointInFront p (t1 t) = false -> pointInFront p (t2 t) = false -> pointInFront p (t3 t) = false ->
    piece p t [] [t]
| piece_lost :                                        (* straddling without a section line: lost *)
    ~ (pointInFront p (t1 t) = pointInFront p (t2 t) /\ pointInFront p (t2 t) = pointInFront p (t3 t)) ->
    intersectTriangle p t = None ->
    piece p t [] []
| piece_split q r s l a b c u d : (* straddling: the corner q and the quadrangle, cut along l *)
    (q, r, s) = (t1 t, t2 t, t3 t) \/ (q, r, s) = (t2 t, t3 t, t1 t) \/ (q, r, s) = (t3 t, t1 t, t2 t) ->
    pointInFront p r = negb (pointInFront p q) -> pointInFront p s = negb (pointInFront p q) ->
    intersectTriangle p t = Some l ->
    (* three fresh triangles made of the corners and the ends of the cut *)
    Forall (fun x => exists i j k, x = newTriangle i j k /\
        incl [i; j; k] [t1 t; t2 t; t3 t; lp1 l; lp2 l]) [a; b; c] ->
    (u, d) = (if pointInFront p q then ([a], [b; c]) else ([b; c], [a])) ->
    piece p t u d.

Inductive pieces (p : plane) : list triangle -> list triangle -> list triangle -> Prop :=
| pieces_nil : pieces p [] [] []
| pieces_cons t m u d us ds : piece p t u d -> pieces p m us ds -> pieces p (t :: m) (u ++ us) (d ++ ds).

(** the triangle is on both sides of the plane *)
Definition straddles (p : plane) (t : triangle) : bool :=
  existsb (pointInFront p) [t1 t; t2 t; t3 t] && existsb (fun q => negb (pointInFront p q)) [t1 t; t2 t; t3 t].

(** the section lines of the straddling triangles, in order *)
Definition section_lines (p : plane) (m : mesh) : list path :=
  flat_map (fun t => if straddles p t then
     match intersectTriangle p t with Some l => [[lp1 l; lp2 l]] | None => [] end else []) m.

(** the fan of a contour: first point with every later side *)
Definition fan (pth : path) (d : point) : list (point * point * point) :=
  map (fun j => (nth 0 pth d, nth j pth d, nth (S j) pth d)) (seq 1 (length pth - 2)).

(** ** Line simplification *)

(** [out] keeps the first and last point of [ps]; [R q a b] for every point q
    dropped between the consecutive kept points a and b *)
Inductive thinned (R : point -> point -> point -> Prop) : list point -> list point -> Prop :=
| thinned_one a : thinned R [a] [a]
| thinned_step a mid b rest out :
    Forall (fun q => R q a b) mid -> thinned R (b :: rest) (b :: out) ->
    thinned R (a :: mid ++ b :: rest) (a :: b :: out).

(** ** Edges *)

(** the same edge, in either direction *)
Definition edge_eq (l m : line) : bool :=
  (pt_eqb (lp1 l) (lp1 m) && pt_eqb (lp2 l) (lp2 m)) || (pt_eqb (lp1 l) (lp2 m) && pt_eqb (lp2 l) (lp1 m)).
Definition occ (e : line) (ls : list line) : nat := length (filter (edge_eq e) ls).
Definition edges (ts : list triangle) : list line :=
  flat_map (fun t => [L2 (t1 t) (t2 t); L2 (t1 t) (t3 t); L2 (t3 t) (t2 t)]) ts.
(** no NaN coordinate *)
Definition self_equal (p : point) : Prop := pt_eqb p p = true.

End Any.

Local Open Scope R_scope.

(** q is within e of the straight line through a and b *)
Definition near_line (e : R) (q a b : Rpoint) : Prop := exists s, dist2 q (along a b s) <= e * e.

(** oriented area (twice), as a vector *)
Definition varea (a b c : Rpoint) : Rvector :=
  V3 (A := ArithR)
     ((Y b - Y a) * (Z3 c - Z3 a) - (Z3 b - Z3 a) * (Y c - Y a))
     ((Z3 b - Z3 a) * (X c - X a) - (X b - X a) * (Z3 c - Z3 a))
     ((X b - X a) * (Y c - Y a) - (Y b - Y a) * (X c - X a)).
Definition tri_area (t : Rtriangle) : Rvector := varea (t1 t) (t2 t) (t3 t).
Definition Vadd (u v : Rvector) : Rvector := V3 (A := ArithR) (vx u + vx v) (vy u + vy v) (vz u + vz v).
Definition Vmul (k : R) (v : Rvector) : Rvector := V3 (A := ArithR) (k * vx v) (k * vy v) (k * vz v).
Definition Vzero : Rvector := V3 (A := ArithR) 0 0 0.
Definition Vsum (l : list Rvector) : Rvector := fold_right Vadd Vzero l.
Definition Vdot (u v : Rvector) : R := vx u * vx v + vy u * vy v + vz u * vz v.
Definition Vlen (v : Rvector) : R := sqrt (Vdot v v).
