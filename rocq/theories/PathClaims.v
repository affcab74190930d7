(** * Vocabulary of the statements about path joining and simplification *)
From Coq Require Import List Bool Permutation.
From Verif Require Import Arith Prim Path.
Import ListNotations.

Section Claims.
Context {A : Arith}.

(** "touching" points: the end of one path and the start of the next *)
Variable touch : point -> point -> bool.

(** [chain q parts]: q is what one gets by walking through the parts, each one
    starting where the walk so far ended; the repeated point is kept once *)
Inductive chain : path -> list path -> Prop :=
| chain_one p : p <> [] -> chain p [p]
| chain_app a p b q ps qs :
    chain (a :: p) ps -> chain (b :: q) qs -> touch (last (a :: p) a) b = true ->
    chain ((a :: p) ++ q) (ps ++ qs).

(** the same where a walk may also be taken backwards *)
Inductive rchain : path -> list path -> Prop :=
| rchain_one p : p <> [] -> rchain p [p]
| rchain_rev p ps : rchain p ps -> rchain (rev p) ps
| rchain_app a p b q ps qs :
    rchain (a :: p) ps -> rchain (b :: q) qs -> touch (last (a :: p) a) b = true ->
    rchain ((a :: p) ++ q) (ps ++ qs).

(** [out] is made of the paths of [inp], each used in exactly one place *)
Definition regroups (R : path -> list path -> Prop) (inp out : list path) : Prop :=
  exists parts, Permutation (concat parts) inp /\ Forall2 R out parts.

(** subsequence *)
Inductive subseq {T} : list T -> list T -> Prop :=
| sub_nil : subseq [] []
| sub_keep x a b : subseq a b -> subseq (x :: a) (x :: b)
| sub_drop x a b : subseq a b -> subseq a (x :: b).

End Claims.

(** equal MapKey, as Go compares map keys *)
Definition same_key {A : Arith} (a b : point) : bool := pt_eqb (mapKey a) (mapKey b).

(** == on numbers is symmetric and transitive (true of float64 and of reals) *)
Class EqOK (A : Arith) : Prop := {
  neqb_sym : forall x y, neqb x y = true -> neqb y x = true;
  neqb_trans : forall x y z, neqb x y = true -> neqb y z = true -> neqb x z = true
}.
