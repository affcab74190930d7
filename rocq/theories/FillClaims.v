(** * Vocabulary of the statements about filling *)
From Coq Require Import ZArith Reals List Bool Permutation Sorted.
From Verif Require Import Arith ArithR Prim Path Slicer GeomSpec SlicerClaims.
Import ListNotations.
Close Scope R_scope.
Close Scope Z_scope.
Close Scope num_scope.

(** < is a strict order where it holds (float64, reals) *)
Class LtOK (A : Arith) : Prop := {
  lt_irrefl : forall x : num, nltb x x = false;
  lt_trans : forall x y z : num, nltb x y = true -> nltb y z = true -> nltb x z = true
}.

Section Any.
Context {A : Arith}.

Definition starts (q : point) (f : path) : Prop := exists r, f = q :: r.
Definition finishes (q : point) (f : path) : Prop := exists r, f = r ++ [q].
Definition is_end (q : point) (f : path) : Prop := starts q f \/ finishes q f.

(** all end points are less than MaxFloat32 apart *)
Definition near_ends (fs : list path) : Prop :=
  forall f g q r, In f fs -> In g fs -> is_end q f -> is_end r g ->
    nltb (distanceTo q r) maxFloat32 = true.
(** no end point of [fs] is less than MaxFloat32 away from the end of [f0] (their
    distance may also be not a number) *)
Definition far_ends (f0 : path) (fs : list path) : Prop :=
  forall f q e, In f fs -> is_end q f -> finishes e f0 -> nltb (distanceTo q e) maxFloat32 = false.

(** [out] visits the paths [todo], each once and in either direction, always going
    on at an end point nearest to the point reached *)
Inductive greedy : point -> list path -> list path -> Prop :=
| greedy_nil p : greedy p [] []
| greedy_step p l1 f l2 g q e out :
    g = f \/ g = rev f ->
    starts q g -> finishes e g ->
    (forall h r, In h (l1 ++ f :: l2) -> is_end r h ->
       nltb (distanceTo r p) (distanceTo q p) = false) ->
    greedy e (l1 ++ l2) out ->
    greedy p (l1 ++ f :: l2) (g :: out).

(** the same paths, in another order and some of them reversed *)
Definition rearranged (fs gs : list path) : Prop :=
  exists fs', Permutation fs fs' /\ Forall2 (fun f g => g = f \/ g = rev f) fs' gs.

(** layers that differ in their fill only *)
Definition same_but_fill (a b : layer) : Prop :=
  l_order a = l_order b /\ l_norm a = l_norm b /\ l_paths a = l_paths b /\
  l_middle a = l_middle b /\ l_inner a = l_inner b.

(** contours that are filled: the inner walls, or the outline where there are none *)
Definition contours (l : layer) : list path :=
  match l_inner l with Some ps => ps | None => l_paths l end.
End Any.

Local Open Scope R_scope.

(** the point at [t] along an axis *)
Definition at_axis (axis : Rvector) (t : R) : Rpoint :=
  P3 (A := ArithR) (vx axis * t)%R (vy axis * t)%R (vz axis * t)%R.

(** [q] lies on a side of one of the contours *)
Definition on_contour (ps : list Rpath) (q : Rpoint) : Prop :=
  exists p l1 a b l2, In p ps /\ p = l1 ++ a :: b :: l2 /\ on_seg a b q.

(** the sides of a contour *)
Fixpoint sides (p : Rpath) : list (Rpoint * Rpoint) :=
  match p with
  | a :: (b :: _) as r => (a, b) :: sides r
  | _ => []
  end.
(** the sides whose ends are strictly on different sides of the plane *)
Definition crossing_sides (pl : Rplane) (ps : list Rpath) : list (Rpoint * Rpoint) :=
  filter (fun ab => if Rlt_dec (sd pl (fst ab) * sd pl (snd ab)) 0 then true else false) (flat_map sides ps).
(** [cs] are the points where these sides cross the plane *)
Definition crossings (pl : Rplane) (ps : list Rpath) (cs : list Rpoint) : Prop :=
  Forall2 (fun ab c => on_seg (fst ab) (snd ab) c /\ sd pl c = 0) (crossing_sides pl ps) cs.
(** number of points before [t] in direction [d] *)
Definition before (d : Rvector) (t : R) (cs : list Rpoint) : nat :=
  length (filter (fun c => if Rlt_dec (Rdot c d) t then true else false) cs).

Definition closed (p : Rpath) : Prop := exists a m, p = a :: m ++ [a].
(** no vertex of a contour is on the plane *)
Definition general_position (pl : Rplane) (ps : list Rpath) : Prop :=
  forall p q, In p ps -> In q p -> sd pl q <> 0.

(** a horizontal direction along the plane *)
Definition along_cut (pl : Rplane) (d : Rvector) : Prop :=
  vz d = 0 /\ vx d * vx (pl_n pl) + vy d * vy (pl_n pl) = 0 /\ (vx d <> 0 \/ vy d <> 0).
