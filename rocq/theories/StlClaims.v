(** * What is claimed about STL files, stated without the model's coders *)
From Coq Require Import String Ascii ZArith Reals List Bool.
From Flocq Require Import Core IEEE754.BinarySingleNaN.
From Verif Require Import Arith ArithF64 Prim.
Import ListNotations.
Close Scope R_scope. Close Scope num_scope.
Local Open Scope Z_scope.

(** [y] is [x] rounded to single precision: nearest, ties to even, in the format
    with 24 bits and least exponent -149; infinite if that reaches 2^128 *)
Definition rounded32 (x y : f64) : Prop :=
  match x with
  | B754_nan => y = B754_nan
  | B754_infinity s => y = B754_infinity s
  | _ =>
      let r := round radix2 (FLT_exp (-149) 24) ZnearestE (B2R x) in
      ((Rabs r < bpow radix2 128)%R ->
         is_finite y = true /\ B2R y = r /\ Bsign y = Bsign x) /\
      ((bpow radix2 128 <= Rabs r)%R -> y = B754_infinity (Bsign x))
  end.

Section C.
Variable E : elem.
Let AE := ArithF64 E.

Definition rounded_point (p q : @point AE) : Prop :=
  rounded32 (@px AE p) (@px AE q) /\ rounded32 (@py AE p) (@py AE q) /\
  rounded32 (@pz AE p) (@pz AE q).
(** [u] is [t] with rounded vertices and the normal computed from these *)
Definition reloaded (t u : @triangle AE) : Prop :=
  rounded_point (@t1 AE t) (@t1 AE u) /\ rounded_point (@t2 AE t) (@t2 AE u) /\
  rounded_point (@t3 AE t) (@t3 AE u) /\
  @t_n AE u = @cross AE (@vectorTo AE (@t1 AE u) (@t2 AE u)) (@vectorTo AE (@t1 AE u) (@t3 AE u)).

(** the little-endian word at offset 80 *)
Definition count_field (file : list Z) : Z :=
  nth 80 file 0 + 2 ^ 8 * nth 81 file 0 + 2 ^ 16 * nth 82 file 0 + 2 ^ 24 * nth 83 file 0.
(** a binary STL file, by its size *)
Definition binary_size (file : list Z) : Prop :=
  84 <= Z.of_nat (length file) /\ Z.of_nat (length file) = 84 + 50 * count_field file.

(** ** ASCII text *)

(** the bytes of a string *)
Definition bytes (s : string) : list Z := map (fun c => Z.of_nat (nat_of_ascii c)) (list_ascii_of_string s).

(** blanks within a line: tab, vertical tab, form feed, carriage return, space *)
Definition blank (w : list Z) : Prop := Forall (fun c => In c [9; 11; 12; 13; 32]) w.
(** a word: not empty, no blank and no newline in it *)
Definition word (a : list Z) : Prop :=
  a <> [] /\ Forall (fun c => ~ In c [9; 10; 11; 12; 13; 32]) a.

(** the line "vertex a b c" *)
Definition vertex_line (l a b c : list Z) : Prop :=
  word a /\ word b /\ word c /\
  exists w0 w1 w2 w3 w4,
    blank w0 /\ blank w1 /\ blank w2 /\ blank w3 /\ blank w4 /\
    w1 <> [] /\ w2 <> [] /\ w3 <> [] /\
    l = w0 ++ bytes "vertex" ++ w1 ++ a ++ w2 ++ b ++ w3 ++ c ++ w4.
(** any line that is blank or whose first other character is not a 'v' *)
Definition other_line (l : list Z) : Prop :=
  ~ In 10 l /\
  exists w r, l = w ++ r /\ blank w /\
    match r with [] => True | c :: _ => c <> 118 /\ ~ In c [9; 11; 12; 13; 32] end.

Definition fits (l : list Z) : Prop := Z.of_nat (length l) < 65536.

(** the points of the lines of a text *)
Inductive reads (parse : list Z -> f64) : list (list Z) -> list (@point AE) -> Prop :=
| reads_nil : reads parse [] []
| reads_vertex l a b c ls ps :
    vertex_line l a b c -> fits l -> reads parse ls ps ->
    reads parse (l :: ls) (@P3 AE (parse a) (parse b) (parse c) :: ps)
| reads_other l ls ps :
    other_line l -> fits l -> reads parse ls ps -> reads parse (l :: ls) ps.

(** triangles, three points each; one or two points left over are dropped *)
Fixpoint by_three (ps : list (@point AE)) : list (@triangle AE) :=
  match ps with
  | p1 :: p2 :: p3 :: ps =>
      @Tri AE (@cross AE (@vectorTo AE p1 p2) (@vectorTo AE p1 p3)) p1 p2 p3 :: by_three ps
  | _ => []
  end.

(** lines each ended by a newline *)
Definition text (ls : list (list Z)) : list Z := concat (map (fun l => l ++ [10]) ls).
(** the same, or without the last newline *)
Definition is_text (ls : list (list Z)) (file : list Z) : Prop :=
  file = text ls \/ (file ++ [10] = text ls /\ last ls [] <> []).
End C.
