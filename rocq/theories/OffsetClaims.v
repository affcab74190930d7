(** What the walls of a horizontal contour should look like, said without the model:
    coordinates only. *)
From Coq Require Import Reals List.
From Verif Require Import Arith ArithR Prim Path GeomSpec ClosedClaims.
Import ListNotations.
Local Open Scope R_scope.

(** length of a segment seen from above *)
Definition len2 (a b : Rpoint) : R := sqrt ((X b - X a) * (X b - X a) + (Y b - Y a) * (Y b - Y a)).

(** cross product of two horizontal segments *)
Definition turn (a b c d : Rpoint) : R := (X b - X a) * (Y d - Y c) - (Y b - Y a) * (X d - X c).

(** v is at the distance w from the line through a and b, on the right hand of
    somebody who walks from a to b *)
Definition right_by (w : R) (a b v : Rpoint) : Prop := - turn a b a v = w * len2 a b.

(** v moved to the right of a, b by w *)
Definition aside (w : R) (a b v : Rpoint) : Rpoint :=
  P3 (A := ArithR) (X v + w * (Y b - Y a) / len2 a b) (Y v - w * (X b - X a) / len2 a b) (Z3 v).

Definition level_at (h : R) (q : Rpath) : Prop := Forall (fun v => Z3 v = h) q.

(** the corner of a wall that belongs to the corner b of the contour *)
Definition wall_corner (w : R) (a b c q : Rpoint) : Prop :=
  right_by w a b q /\ right_by w b c q /\ Z3 q = Z3 b.

(** A contour given by its corners (a, b, c) and the corners of its wall, one for one.
    [s] is where the side of the wall along a, b begins. The corners are blunt (the
    corner of the wall is not farther than sqrt (4 + w^2) from that of the contour), no
    side of the wall is turned round, and none is so short, nor a corner so flat, that
    the tests against 1e-6 reject it. *)
Inductive fits (w : R) : Rpoint -> list (Rpoint * Rpoint * Rpoint) -> list Rpoint -> Prop :=
| fits_nil s : fits w s [] []
| fits_cons s a b c q cs qs :
    wall_corner w a b c q -> dist2 q b <= 4 + w * w ->
    1 / 10 ^ 6 <= Rabs (turn b c s (aside w a b b)) -> 1 / 10 ^ 6 <= Rabs (turn b c s q) ->
    fits w q cs qs -> fits w s ((a, b, c) :: cs) (q :: qs).

(** consecutive triples *)
Fixpoint triples (q : Rpath) : list (Rpoint * Rpoint * Rpoint) :=
  match q with
  | a :: ((b :: c :: _) as r) => (a, b, c) :: triples r
  | _ => []
  end.

(** going from s to q is going forward along a, b *)
Definition forward (a b s q : Rpoint) : Prop := 0 <= (X q - X s) * (X b - X a) + (Y q - Y s) * (Y b - Y a).
