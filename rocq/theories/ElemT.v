(** * A concrete choice of sin, cos and acos, for examples

    Taylor series with float64 operations, and Newton's method for acos. Go's functions differ
    from these in the last digits; theorems hold for all choices. *)
From Coq Require Import ZArith List Bool.
From Flocq Require Import IEEE754.BinarySingleNaN.
From Verif Require Import Arith ArithF64.
Import ListNotations.
Local Open Scope Z_scope.

Definition series (start : Z) (first x2 : f64) (n : nat) : f64 :=
  fst (fold_left (fun (st : f64 * (f64 * Z)) _ =>
         let '(sum, (term, k)) := st in
         let term := Bopp (f64_div (f64_mul term x2) (f64_ofZ (k * (k + 1)))) in
         (f64_add sum term, (term, k + 2)))
       (seq 0 n) (first, (first, start))).
Definition sinT (x : f64) : f64 := series 2 x (f64_mul x x) 14.
Definition cosT (x : f64) : f64 := series 1 (f64_ofZ 1) (f64_mul x x) 14.
Definition acosT (x : f64) : f64 :=
  if Beqb x (f64_ofZ 1) then f64_ofZ 0
  else if Beqb x (f64_ofZ (-1)) then npi (Arith := ArithF64 elem0)
  else Nat.iter 8 (fun t => f64_add t (f64_div (f64_sub (cosT t) x) (sinT t)))
         (f64_sub (f64_div (npi (Arith := ArithF64 elem0)) (f64_ofZ 2)) x).
Definition elemT : elem := {| e_sin := sinT; e_cos := cosT; e_acos := acosT |}.
