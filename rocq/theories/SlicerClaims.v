(** * Vocabulary of the statements about slicing *)
From Coq Require Import ZArith Reals List Bool Permutation Sorted.
From Verif Require Import Arith ArithR Prim Path Slicer Properties_Path.
Import ListNotations.
Close Scope R_scope.
Close Scope Z_scope.
Close Scope num_scope.

Section Any.
Context {A : Arith}.

(** [js] is [l] without some of the elements that satisfy [D] *)
Inductive pruned {T} (D : T -> Prop) : list T -> list T -> Prop :=
| pruned_nil : pruned D [] []
| pruned_keep x l js : pruned D l js -> pruned D (x :: l) (x :: js)
| pruned_drop x l js : D x -> pruned D l js -> pruned D (x :: l) js.

(** the section of every triangle with the plane, one by one *)
Definition sections (p : plane) (m : list triangle) : list path :=
  flat_map (fun t => match intersectTriangle p t with Some l => [[lp1 l; lp2 l]] | None => [] end) m.

(** a number that is not NaN *)
Definition plain (x : num) : Prop := nleb x x = true.

(** What is promised about sort.Slice and about the goroutines: nothing is lost;
    sorting sorts when no key is NaN. *)
Record legal (U : env) : Prop := {
  lg_asc : forall Z l, Permutation l (u_asc U Z l);
  lg_sorted : forall Z l, Forall (fun t => plain (t_minZ t Z)) l ->
    StronglySorted (fun a b => nltb (t_minZ b Z) (t_minZ a Z) = false) (u_asc U Z l);
  lg_desc : forall Z l, Permutation l (u_desc U Z l);
  lg_ends : forall l, Permutation l (u_ends U l);
  lg_arrive : forall l, Permutation l (u_arrive U l);
  lg_byX : forall l, Permutation l (u_byX U l);
  lg_byXs : forall l, Forall (fun p => plain (px p)) l ->
    StronglySorted (fun a b => nltb (px b) (px a) = false) (u_byX U l);
  lg_byY : forall l, Permutation l (u_byY U l);
  lg_byYs : forall l, Forall (fun p => plain (py p)) l ->
    StronglySorted (fun a b => nltb (py b) (py a) = false) (u_byY U l)
}.

End Any.

(** <= and < are an order on the numbers that are not NaN (float64, reals) *)
Class OrdOK (A : Arith) : Prop := {
  ord_trans : forall x y z : num, nleb x y = true -> nleb y z = true -> nleb x z = true;
  ord_total : forall x y : num, plain x -> plain y -> nltb x y = false -> nleb y x = true;
  ord_lt : forall x y : num, nltb x y = true -> nleb x y = true;
  ord_asym : forall x y : num, nltb x y = true -> nleb y x = false
}.

(** ** A legal environment: insertion sort everywhere *)
Section Sort.
Context {A : Arith} {T : Type} (key : T -> num).
Fixpoint ins (x : T) (l : list T) : list T :=
  match l with
  | [] => [x]
  | y :: r => if nltb (key y) (key x) then y :: ins x r else x :: l
  end.
Definition isort (l : list T) : list T := fold_right ins [] l.
End Sort.
Definition env0 {A : Arith} : env :=
  Env (fun Z => isort (fun t => t_minZ t Z)) (fun Z l => rev (isort (fun t => t_minZ t Z) l)) go_insertion_sort (fun l => rev l)
      (isort px) (isort py).
Definition with_arrive {A : Arith} (U : env) (f : list layer -> list layer) : env :=
  Env (u_asc U) (u_desc U) (u_ends U) f (u_byX U) (u_byY U).

Local Open Scope R_scope.
Definition Rdot (p : @point ArithR) (v : @vector ArithR) : R := px p * vx v + py p * vy v + pz p * vz v.
(** lowest / highest projection of a nonempty set of points on a direction *)
Definition lowest (v : @vector ArithR) (l : list (@point ArithR)) (x : R) : Prop :=
  (exists p, In p l /\ Rdot p v = x) /\ forall p, In p l -> x <= Rdot p v.
Definition highest (v : @vector ArithR) (l : list (@point ArithR)) (x : R) : Prop :=
  (exists p, In p l /\ Rdot p v = x) /\ forall p, In p l -> Rdot p v <= x.
