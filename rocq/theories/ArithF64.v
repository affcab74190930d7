(** * Go float64 (IEEE-754 binary64, round to nearest even) as an [Arith]

    Built on Flocq's [BinarySingleNaN] (all NaNs identified, which Go code in
    /repo cannot distinguish). Go on amd64 evaluates each operation separately
    (no fused multiply-add), which is what is modelled. *)
From Coq Require Import ZArith NArith Bool List.
From Flocq Require Import IEEE754.BinarySingleNaN.
From Verif Require Import Arith.
Open Scope Z_scope.

Definition f64 := binary_float 53 1024.
#[global] Instance prec53 : FLX.Prec_gt_0 53 := eq_refl.
#[global] Instance emax1024 : Prec_lt_emax 53 1024 := eq_refl.

Definition f64_add : f64 -> f64 -> f64 := Bplus mode_NE.
Definition f64_sub : f64 -> f64 -> f64 := Bminus mode_NE.
Definition f64_mul : f64 -> f64 -> f64 := Bmult mode_NE.
Definition f64_div : f64 -> f64 -> f64 := Bdiv mode_NE.
Definition f64_sqrt : f64 -> f64 := Bsqrt mode_NE.

(** conversion of an integer, correctly rounded *)
Definition f64_ofZ (z : Z) : f64 := binary_normalize 53 1024 _ _ mode_NE z 0 false.
(** literal p/q: one correctly rounded division; equal to Go's parsing of the
    decimal literal because p and q are exactly representable in all uses. *)
Definition f64_lit (p : Z) (q : positive) : f64 :=
  match q with 1%positive => f64_ofZ p | _ => f64_div (f64_ofZ p) (f64_ofZ (Zpos q)) end.

(** Go int(x) on amd64 (CVTTSD2SQ): truncation, or -2^63 if NaN, infinite or out of range *)
Definition f64_toZ (x : f64) : Z :=
  match x with
  | B754_nan | B754_infinity _ => - 2 ^ 63
  | _ => let t := Btrunc x in
         if (- 2 ^ 63 <=? t) && (t <? 2 ^ 63) then t else - 2 ^ 63
  end.

(** Go math.Min / math.Max *)
Definition f64_min (x y : f64) : f64 :=
  match x, y with
  | B754_infinity true, _ | _, B754_infinity true => B754_infinity true
  | B754_nan, _ | _, B754_nan => B754_nan
  | B754_zero true, B754_zero _ => x
  | B754_zero false, B754_zero _ => y
  | _, _ => if Bltb x y then x else y
  end.
Definition f64_max (x y : f64) : f64 :=
  match x, y with
  | B754_infinity false, _ | _, B754_infinity false => B754_infinity false
  | B754_nan, _ | _, B754_nan => B754_nan
  | B754_zero true, B754_zero _ => y
  | B754_zero false, B754_zero _ => x
  | _, _ => if Bltb y x then x else y
  end.

(** round(1000 * m * 2^e), half to even, on exact integers *)
Definition round3 (m : positive) (e : Z) : N :=
  match e with
  | Zneg k =>
      let d := Z.shiftl 1 (Zpos k) in
      let n := 1000 * Zpos m in
      let q := n / d in
      let r := n mod d in
      Z.to_N (match Z.compare (2 * r) d with
              | Lt => q
              | Gt => q + 1
              | Eq => if Z.even q then q else q + 1
              end)
  | _ => Z.to_N (1000 * Z.shiftl (Zpos m) e)
  end.

(** strconv.FormatFloat(x,'f',3,64): exact decimal expansion, rounded half to even *)
Definition f64_fix3 (x : f64) : fix3 :=
  match x with
  | B754_zero s => F3 s 0
  | B754_infinity s => F3inf s
  | B754_nan => F3nan
  | B754_finite s m e _ => F3 s (round3 m e)
  end.

(** elementary functions of package math, left arbitrary *)
Record elem := { e_sin : f64 -> f64; e_cos : f64 -> f64; e_acos : f64 -> f64 }.

#[global] Instance ArithF64 (E : elem) : Arith := {|
  num := f64;
  nadd := f64_add; nsub := f64_sub; nmul := f64_mul; ndiv := f64_div; nopp := Bopp;
  nabs := Babs; nsqrt := f64_sqrt;
  nltb := Bltb; nleb := Bleb; neqb := Beqb;
  nmin := f64_min; nmax := f64_max;
  nfloor := Bnearbyint mode_DN;
  nceil := Bnearbyint mode_UP;
  ntoZ := f64_toZ;
  nlit := f64_lit;
  (* math.Pi as float64: 0x400921FB54442D18 *)
  npi := f64_lit 884279719003555 281474976710656;
  nsin := e_sin E; ncos := e_cos E; nacos := e_acos E;
  nisnan := is_nan;
  nfix3 := f64_fix3
|}.

Definition elem0 : elem := {| e_sin := fun x => x; e_cos := fun x => x; e_acos := fun x => x |}.
