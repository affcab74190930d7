(** * Vocabulary for the planes suggested by Analyze *)
From Coq Require Import Reals List Bool.
From Verif Require Import Arith ArithR Prim GeomSpec Vip.
Import ListNotations.
Close Scope R_scope. Close Scope num_scope.

Section Any.
Context {A : Arith}.

(** the triangle leans over by more than [ang] with respect to the direction [v] *)
Definition leans (ang : num) (v : vector) (t : triangle) : Prop :=
  nltb (angle (t_n t) (vopp v)) (nsub (nofZ 90) ang) = true.

(** an overhang: leans over and does not lie on the bed *)
Definition overhang (m : mesh) (ang : num) (t : triangle) : Prop :=
  In t m /\ leans ang axisZ t /\ exists q, In q [t1 t; t2 t; t3 t] /\ nltb (pz q) (nlit 1 100) = false.

(** a tilted plane through a lowest vertex of a lowest overhang *)
Definition first_plane (m : mesh) (ang : num) (P : plane) : Prop :=
  exists t q, overhang m ang t /\
    (forall u, overhang m ang u -> nltb (t_minZ u axisZ) (t_minZ t axisZ) = false) /\
    In q [t1 t; t2 t; t3 t] /\
    (forall w, In w [t1 t; t2 t; t3 t] -> nltb (dot (p2v w) axisZ) (dot (p2v q) axisZ) = false) /\
    P = ap_plane (tilted_plane q (t_n t)).
End Any.
