(** * Vocabulary of the statements about the parts of a cut mesh *)
From Coq Require Import Reals List Bool Permutation.
From Verif Require Import Arith ArithR Prim Path GeomSpec HelperClaims ClosedClaims.
Import ListNotations.
Close Scope num_scope.
Local Open Scope R_scope.

(** nothing open: every side has a partner running the other way *)
Definition closed (m : Rmesh) : Prop := Permutation (sides m) (map back (sides m)).

(** Two lists of directed sides have the same boundary: what is left of the one
    when sides running to and fro are cancelled is left of the other. *)
Definition same_boundary (l l' : list side) : Prop :=
  Permutation (l ++ map back l') (map back l ++ l').

(** A triangle the code can divide: the corner a left alone by the plane is not
    Equal to the others, the side ab is at most 100 long, and the point where the
    plane meets the other side is not on the line ab (twice the area of the
    triangle it makes with ab is at least 2e-6). *)
Definition dividable (p : Rplane) (t : Rtriangle) : Prop := forall a b c,
  (a, b, c) = (t1 t, t2 t, t3 t) \/ (a, b, c) = (t2 t, t3 t, t1 t) \/ (a, b, c) = (t3 t, t1 t, t2 t) ->
  sd p a * sd p b < 0 -> sd p a * sd p c < 0 ->
  ~ closer (1 / 10 ^ 6) a b /\ ~ closer (1 / 10 ^ 6) a c /\ dist2 a b <= 100 * 100 /\
  forall q, meets p (a, c) q -> 2 / 10 ^ 6 <= Vlen (varea a b q).

(** seen from its first point the contour runs clockwise, looking against the
    normal: every triangle of the fan faces away from the normal, except the
    empty one that comes back to the first point *)
Definition clockwise (p : Rplane) (q : Rpath) : Prop :=
  Forall (fun x => let '(a, b, c) := x in c = a \/ Vdot (varea a b c) (pl_n p) < 0) (fan q originPoint).

(** the same the other way round, as the contours of holes run *)
Definition anticlockwise (p : Rplane) (q : Rpath) : Prop :=
  Forall (fun x => let '(a, b, c) := x in c = a \/ 0 <= Vdot (varea a b c) (pl_n p)) (fan q originPoint).

(** ** For any arithmetic *)
Section Any.
Context {A : Arith}.
Definition edge_of : Type := (@point A * @point A)%type.
Definition same_side (e f : edge_of) : bool := pt_eqb (fst e) (fst f) && pt_eqb (snd e) (snd f).
Definition all_sides (m : mesh) : list edge_of := flat_map (fun t => [(t1 t, t2 t); (t2 t, t3 t); (t3 t, t1 t)]) m.
(** sides that are not run as often the other way (points compared with Go's ==) *)
Definition open_sides (m : mesh) : list edge_of :=
  filter (fun e => negb (Nat.eqb (length (filter (same_side e) (all_sides m)))
                                 (length (filter (same_side (snd e, fst e)) (all_sides m))))) (all_sides m).
End Any.
