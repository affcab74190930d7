(** * Arithmetic interface of the model

    goosli computes with Go [float64]. The model is written against this class
    of *operations* (no laws), so that one text of the model serves three uses:
    theorems for every arithmetic, theorems about IEEE-754 binary64
    ([ArithF64.v]) and theorems about exact real arithmetic ([ArithR.v]). *)
From Coq Require Import ZArith NArith List Bool String Ascii.
From Coq Require Import DecimalString.
Import ListNotations.

(** What [strconv.FormatFloat(f,'f',3,64)] shows of a float: sign and
    magnitude in thousandths, or an infinity, or NaN
    (primitives/utils.go:91-93). *)
Inductive fix3 :=
| F3 (neg : bool) (mag : N)
| F3inf (neg : bool)
| F3nan.

Class Arith := {
  num : Type;                          (* float64 *)
  nadd : num -> num -> num;            (* + *)
  nsub : num -> num -> num;            (* - *)
  nmul : num -> num -> num;            (* * *)
  ndiv : num -> num -> num;            (* / *)
  nopp : num -> num;                   (* unary - *)
  nabs : num -> num;                   (* math.Abs *)
  nsqrt : num -> num;                  (* math.Sqrt *)
  nltb : num -> num -> bool;           (* < *)
  nleb : num -> num -> bool;           (* <= *)
  neqb : num -> num -> bool;           (* == *)
  nmin : num -> num -> num;            (* math.Min *)
  nmax : num -> num -> num;            (* math.Max *)
  nfloor : num -> num;                 (* math.Floor *)
  nceil : num -> num;                  (* math.Ceil *)
  ntoZ : num -> Z;                     (* int(x) *)
  nlit : Z -> positive -> num;         (* the literal p/q; float64(i) is nlit i 1 *)
  npi : num;                           (* math.Pi *)
  nsin : num -> num;                   (* math.Sin *)
  ncos : num -> num;                   (* math.Cos *)
  nacos : num -> num;                  (* math.Acos *)
  nisnan : num -> bool;                (* math.IsNaN *)
  nfix3 : num -> fix3                  (* decimal content of StrF *)
}.

Declare Scope num_scope.
Delimit Scope num_scope with num.
Bind Scope num_scope with num.
Infix "+" := nadd : num_scope.
Infix "-" := nsub : num_scope.
Infix "*" := nmul : num_scope.
Infix "/" := ndiv : num_scope.
Notation "- x" := (nopp x) : num_scope.
Infix "<?" := nltb : num_scope.
Infix "<=?" := nleb : num_scope.
Notation "x >? y" := (nltb y x) (only parsing) : num_scope.
Notation "x >=? y" := (nleb y x) (only parsing) : num_scope.
Infix "=?" := neqb : num_scope.

Section Consts.
Context {A : Arith}.
Definition nofZ (z : Z) : num := nlit z 1.
Definition n0 : num := nlit 0 1.
Definition n1 : num := nlit 1 1.
Definition n2 : num := nlit 2 1.
Definition nhalf : num := nlit 1 2.
(** math.Pow(x, 2). Go evaluates it by scaling with a power of two and one
    multiplication, i.e. as [x*x] (they differ only when the square is
    subnormal). *)
Definition nsq (x : num) : num := nmul x x.
End Consts.

(** Results of functions that can panic (index out of range, nil dereference,
    log.Fatal) or whose loop may not terminate. [Diverge] is returned only when
    the explicit fuel of a loop is exhausted. *)
Inductive res (T : Type) := Ok (x : T) | Panic | Diverge.
Arguments Ok {T} x.
Arguments Panic {T}.
Arguments Diverge {T}.

Definition rbind {T U} (r : res T) (f : T -> res U) : res U :=
  match r with Ok x => f x | Panic => Panic | Diverge => Diverge end.
Notation "x <- r ;; k" := (rbind r (fun x => k))
  (at level 61, r at next level, right associativity).
Notation "' p <- r ;; k" := (rbind r (fun x => let 'p := x in k))
  (at level 61, p pattern, r at next level, right associativity).

(** Slice indexing [l[i]] with Go's bounds check. *)
Definition idx {T} (l : list T) (i : nat) : res T :=
  match nth_error l i with Some x => Ok x | None => Panic end.

(** [l[len(l)-1]] with Go's bounds check. *)
Definition idx_last {T} (l : list T) : res T := 
  match l with [] => Panic | x :: _ => Ok (last l x) end.

Fixpoint rmap {T U} (f : T -> res U) (l : list T) : res (list U) :=
  match l with
  | [] => Ok []
  | x :: r => y <- f x ;; ys <- rmap f r ;; Ok (y :: ys)
  end.

(** ** Text of numbers *)

(** strconv.Itoa *)
Definition itoa (z : Z) : string := NilZero.string_of_int (Z.to_int z).

Definition dec_of_N (n : N) : string := NilZero.string_of_uint (N.to_uint n).

Definition digit_ascii (n : N) : ascii := ascii_of_N (48 + n).

(** exactly three digits of a number below 1000 *)
Definition pad3 (n : N) : string :=
  String (digit_ascii (n / 100))
    (String (digit_ascii ((n / 10) mod 10))
       (String (digit_ascii (n mod 10)) EmptyString)).

Definition render_fix3 (f : fix3) : string :=
  match f with
  | F3 neg m => (if neg then "-" else "") ++ dec_of_N (m / 1000) ++ "." ++ pad3 (m mod 1000)
  | F3inf neg => if neg then "-Inf" else "+Inf"
  | F3nan => "NaN"
  end%string.

(** primitives/utils.go:91-93 [StrF] *)
Definition strF {A : Arith} (x : num) : string := render_fix3 (nfix3 x).
