(** * Vocabulary of the properties about points inside contours, in exact arithmetic *)
From Coq Require Import Reals List Bool.
From Verif Require Import Arith ArithR Prim Path GeomSpec.
Import ListNotations.
Close Scope num_scope.
Local Open Scope R_scope.

(** seen from above, the ray from [a] in direction (dx, dy) crosses the side from [p] to [q] *)
Definition hits (a : Rpoint) (dx dy : R) (p q : Rpoint) : Prop :=
  exists s t, 0 < s /\ 0 < t < 1 /\ X p + t * (X q - X p) = X a + s * dx /\ Y p + t * (Y q - Y p) = Y a + s * dy.

(** the ray crosses n sides of the contour *)
Inductive crossed (a : Rpoint) (dx dy : R) : list Rpoint -> nat -> Prop :=
| cr_nil : crossed a dx dy [] 0
| cr_one p : crossed a dx dy [p] 0
| cr_hit p q r n : hits a dx dy p q -> crossed a dx dy (q :: r) n -> crossed a dx dy (p :: q :: r) (S n)
| cr_miss p q r n : ~ hits a dx dy p q -> crossed a dx dy (q :: r) n -> crossed a dx dy (p :: q :: r) n.

(** [b] is on the line through [a] in direction (dx, dy) *)
Definition in_line (a : Rpoint) (dx dy : R) (b : Rpoint) : Prop := dx * (Y b - Y a) - dy * (X b - X a) = 0.
(** a direction in which no corner is met *)
Definition free_dir (a : Rpoint) (p : list Rpoint) (dx dy : R) : Prop := Forall (fun b => ~ in_line a dx dy b) p.

(** consecutive corners *)
Definition next_in (p : list Rpoint) (b c : Rpoint) : Prop := exists l r, p = l ++ b :: c :: r.

(** [a] is neither above nor below a point of the contour *)
Definition beside (a : Rpoint) (p : list Rpoint) : Prop :=
  forall b c q, next_in p b c -> on_seg b c q -> ~ (X q = X a /\ Y q = Y a).

(** inside by the even-odd rule: some ray that meets no corner crosses an odd number of sides *)
Definition enclosed (a : Rpoint) (p : list Rpoint) : Prop :=
  exists dx dy n, free_dir a p dx dy /\ crossed a dx dy p n /\ Nat.odd n = true.

(** the way, seen from above, from [a] straight to the line of the first side *)
Definition to_first (a p0 p1 : Rpoint) (wx wy : R) : Prop :=
  wx * (X p1 - X p0) + wy * (Y p1 - Y p0) = 0 /\
  (X p1 - X p0) * (Y a + wy - Y p0) - (Y p1 - Y p0) * (X a + wx - X p0) = 0.

(** all corners are at height z *)
Definition level (z : R) (p : list Rpoint) : Prop := Forall (fun b => Z3 b = z) p.

(** straight behind [a], seen from the line of the first side, the contour is not too near: the distance to it times
    the distance to the line is more than the square of the height between [a] and the contour *)
Definition clear_behind (a : Rpoint) (z : R) (p : list Rpoint) (wx wy : R) : Prop :=
  forall b c q s, next_in p b c -> on_seg b c q -> 0 < s -> X q = X a - s * wx -> Y q = Y a - s * wy ->
    (Z3 a - z) * (Z3 a - z) < s * (wx * wx + wy * wy).

(** the position of [a] is ordinary for the contour: the contour is level and closed, has four points or more, begins
    with a side of some length, [a] is not above, below or on it nor on the line of the first side, no corner is
    straight across from [a], and the contour is not too near behind *)
Definition ordinary (a : Rpoint) (p : list Rpoint) : Prop :=
  exists z p0 p1 p2 p3 r wx wy, p = p0 :: p1 :: p2 :: p3 :: r /\ level z p /\ last p p0 = p0 /\
    (X p0 <> X p1 \/ Y p0 <> Y p1) /\ to_first a p0 p1 wx wy /\ (wx <> 0 \/ wy <> 0) /\
    free_dir a p wx wy /\ beside a p /\ clear_behind a z p wx wy.

(** a ray crosses n sides of the contours, taken together *)
Inductive crossed_all (a : Rpoint) (dx dy : R) : list (list Rpoint) -> nat -> Prop :=
| ca_nil : crossed_all a dx dy [] 0
| ca_cons p ps m n : crossed a dx dy p m -> crossed_all a dx dy ps n -> crossed_all a dx dy (p :: ps) (m + n).

(** inside several contours, by the even-odd rule *)
Definition enclosed_all (a : Rpoint) (ps : list (list Rpoint)) : Prop :=
  exists dx dy n, Forall (fun p => free_dir a p dx dy) ps /\ crossed_all a dx dy ps n /\ Nat.odd n = true.

(** a contour that returns to its first point; a single point does *)
Definition returns (p : list Rpoint) : Prop := exists b r, p = b :: r /\ last p b = b.
