(** * Rounding errors of float64 in sections: tools *)
From Coq Require Import ZArith Reals Bool List Lra Lia.
From Flocq Require Import Core.Core IEEE754.BinarySingleNaN.
Require Import Flocq.Prop.Relative Flocq.Prop.Plus_error.
From Verif Require Import Arith ArithF64 Prim F64Facts SlicerFloat.
Import ListNotations.
Close Scope Z_scope.
Close Scope num_scope.
Open Scope R_scope.

(** above the relative and the absolute error of one operation *)
Definition ue : R := 2 / 10 ^ 16.
Definition eta : R := / 10 ^ 30.
(** no overflow below it *)
Definition big : R := 10 ^ 60.

Lemma rnd_err r : Rabs (rnd64 r - r) <= ue * Rabs r + eta.
Proof.
  destruct (error_N_FLT radix2 (-1074) 53 eq_refl (fun x => negb (Z.even x)) r) as (e & h & He & Hh & _ & Hr).
  change (FLT_exp (-1074) 53) with (SpecFloat.fexp 53 1024) in Hr.
  change (Znearest (fun x => negb (Z.even x))) with ZnearestE in Hr.
  assert (Pe : / 2 * bpow radix2 (-53 + 1) <= ue).
  { replace (bpow radix2 (-53 + 1)) with (/ IZR (2 ^ 52)) by reflexivity. unfold ue.
    assert (IZR (2 ^ 52) = 4503599627370496) as -> by reflexivity. lra. }
  assert (Ph : / 2 * bpow radix2 (-1074) <= eta).
  { assert (bpow radix2 (-1074) <= bpow radix2 (-110)) by (apply bpow_le; lia).
    assert (B : bpow radix2 (-110) = / IZR (2 ^ 110)) by reflexivity.
    assert (Q : / IZR (2 ^ 110) <= / 10 ^ 30).
    { replace (10 ^ 30) with (IZR (10 ^ 30)) by (exact (eq_sym (pow_IZR 10 30))). apply Rinv_le; [apply IZR_lt; reflexivity|].
      apply IZR_le. vm_compute. discriminate. }
    rewrite B in H. unfold eta. pose proof (bpow_gt_0 radix2 (-1074)) as P0.
    revert H Q P0. generalize (bpow radix2 (-1074)) (/ IZR (2 ^ 110)) (/ 10 ^ 30). intros. lra. }
  assert (He' : Rabs e <= ue) by (eapply Rle_trans; [exact He|exact Pe]).
  assert (Hh' : Rabs h <= eta) by (eapply Rle_trans; [exact Hh|exact Ph]).
  rewrite Hr. replace (r * (1 + e) + h - r) with (r * e + h) by ring.
  eapply Rle_trans; [apply Rabs_triang|]. rewrite Rabs_mult. pose proof (Rabs_pos r).
  assert (Rabs r * Rabs e <= Rabs r * ue) by (apply Rmult_le_compat_l; [assumption|exact He']). lra.
Qed.

Lemma big_small r : Rabs r <= big -> Rabs (rnd64 r) < bpow radix2 1024.
Proof.
  intros H. apply Rle_lt_trans with (bpow radix2 210); [|apply bpow_lt; lia].
  pose proof (rnd_err r) as K. assert (Rabs (rnd64 r) <= Rabs r + Rabs (rnd64 r - r)).
  { replace (rnd64 r) with (r + (rnd64 r - r)) at 1 by ring. apply Rabs_triang. }
  assert (Q : bpow radix2 210 = IZR (2 ^ 210)) by (rewrite <- (IZR_Zpower radix2) by lia; reflexivity).
  assert (IZR (2 ^ 210) >= 1.5 * 10 ^ 63).
  { replace (10 ^ 63) with (IZR (10 ^ 63)) by (exact (eq_sym (pow_IZR 10 63))). 
    assert (IZR (3 * 10 ^ 63) <= IZR (2 * 2 ^ 210)) by (apply IZR_le; vm_compute; discriminate).
    rewrite !mult_IZR in H1. lra. }
  rewrite Q. unfold big, ue, eta in *.
  assert (2 / 10 ^ 16 * Rabs r <= 2 / 10 ^ 16 * 10 ^ 60) by (apply Rmult_le_compat_l; lra). lra.
Qed.

Section Ops.
Variables x y : f64.
Hypothesis (Fx : is_finite x = true) (Fy : is_finite y = true).

Lemma fadd_ok : Rabs (B2R x + B2R y) <= big ->
  is_finite (f64_add x y) = true /\ Rabs (B2R (f64_add x y) - (B2R x + B2R y)) <= ue * Rabs (B2R x + B2R y) + eta.
Proof.
  intros H. pose proof (Bplus_correct 53 1024 _ _ mode_NE x y Fx Fy) as C. cbn [round_mode] in C. fold (f64_add x y) in C.
  rewrite Rlt_bool_true in C by (apply big_small; exact H). destruct C as (C1 & C2 & _). split; [exact C2|]. rewrite C1. apply rnd_err.
Qed.
Lemma fsub_ok : Rabs (B2R x - B2R y) <= big ->
  is_finite (f64_sub x y) = true /\ Rabs (B2R (f64_sub x y) - (B2R x - B2R y)) <= ue * Rabs (B2R x - B2R y) + eta.
Proof.
  intros H. pose proof (Bminus_correct 53 1024 _ _ mode_NE x y Fx Fy) as C. cbn [round_mode] in C. fold (f64_sub x y) in C.
  rewrite Rlt_bool_true in C by (apply big_small; exact H). destruct C as (C1 & C2 & _). split; [exact C2|]. rewrite C1. apply rnd_err.
Qed.
Lemma fsub_neq : Rabs (B2R x - B2R y) <= big -> B2R x <> B2R y -> B2R (f64_sub x y) <> 0.
Proof.
  intros H N. pose proof (Bminus_correct 53 1024 _ _ mode_NE x y Fx Fy) as C. cbn [round_mode] in C. fold (f64_sub x y) in C.
  rewrite Rlt_bool_true in C by (apply big_small; exact H). destruct C as (C1 & _). rewrite C1. unfold Rminus.
  apply round_plus_neq_0; try typeclasses eauto.
  - apply format_B2R.
  - apply generic_format_opp, format_B2R.
  - lra.
Qed.
Lemma fmul_ok : Rabs (B2R x * B2R y) <= big ->
  is_finite (f64_mul x y) = true /\ Rabs (B2R (f64_mul x y) - B2R x * B2R y) <= ue * Rabs (B2R x * B2R y) + eta.
Proof.
  intros H. pose proof (Bmult_correct 53 1024 _ _ mode_NE x y) as C. cbn [round_mode] in C. fold (f64_mul x y) in C.
  rewrite Rlt_bool_true in C by (apply big_small; exact H). destruct C as (C1 & C2 & _).
  split; [rewrite C2, Fx, Fy; reflexivity|]. rewrite C1. apply rnd_err.
Qed.
Lemma fdiv_ok : B2R y <> 0 -> Rabs (B2R x / B2R y) <= big ->
  is_finite (f64_div x y) = true /\ Rabs (B2R (f64_div x y) - B2R x / B2R y) <= ue * Rabs (B2R x / B2R y) + eta.
Proof.
  intros N H. pose proof (Bdiv_correct 53 1024 _ _ mode_NE x y N) as C. cbn [round_mode] in C. fold (f64_div x y) in C.
  rewrite Rlt_bool_true in C by (apply big_small; exact H). destruct C as (C1 & C2 & _).
  split; [rewrite C2; exact Fx|]. rewrite C1. apply rnd_err.
Qed.
(** a quotient that is a number *)
Lemma fdiv_fin : B2R y <> 0 -> is_finite (f64_div x y) = true ->
  Rabs (B2R (f64_div x y) - B2R x / B2R y) <= ue * Rabs (B2R x / B2R y) + eta.
Proof.
  intros N F. pose proof (Bdiv_correct 53 1024 _ _ mode_NE x y N) as C. cbn [round_mode] in C. fold (f64_div x y) in C.
  destruct (Rlt_bool_spec (Rabs (rnd64 (B2R x / B2R y))) (bpow radix2 1024)) as [L|L].
  - destruct C as (C1 & _). rewrite C1. apply rnd_err.
  - exfalso. apply overflow_inf in C. rewrite C in F. discriminate.
Qed.
End Ops.

(** ** Rounding to eight places *)
Lemma ofZ_ok n : Rabs (IZR n) <= big -> is_finite (f64_ofZ n) = true /\ Rabs (B2R (f64_ofZ n) - IZR n) <= ue * Rabs (IZR n) + eta.
Proof.
  intros H. pose proof (binary_normalize_correct 53 1024 _ _ mode_NE n 0 false) as C. cbn [round_mode] in C.
  fold (f64_ofZ n) in C. replace (F2R (Float radix2 n 0)) with (IZR n) in C by (unfold F2R; cbn; lra).
  rewrite Rlt_bool_true in C by (apply big_small; exact H). destruct C as (C1 & C2 & _). split; [exact C2|]. rewrite C1. apply rnd_err.
Qed.

Lemma f1e8 : B2R (f64_ofZ 100000000) = 10 ^ 8 /\ is_finite (f64_ofZ 100000000) = true.
Proof.
  assert (H : f64_ofZ 100000000 = @B754_finite 53 1024 false 6710886400000000 (-26) eq_refl).
  { apply B2SF_inj. vm_compute. reflexivity. }
  rewrite H. split; [|reflexivity]. cbn [B2R cond_Zopp]. unfold F2R. cbn [Fnum Fexp].
  change (bpow radix2 (-26)) with (/ IZR 67108864). lra.
Qed.
Lemma fhalf : B2R (f64_lit 1 2) = / 2 /\ is_finite (f64_lit 1 2) = true.
Proof.
  assert (H : f64_lit 1 2 = @B754_finite 53 1024 false 4503599627370496 (-53) eq_refl).
  { apply B2SF_inj. vm_compute. reflexivity. }
  rewrite H. split; [|reflexivity]. cbn [B2R cond_Zopp]. unfold F2R. cbn [Fnum Fexp].
  change (bpow radix2 (-53)) with (/ IZR 9007199254740992). lra.
Qed.

Lemma toZ_int (b : f64) n : is_finite b = true -> B2R b = IZR n -> (- 2 ^ 63 <= n < 2 ^ 63)%Z -> f64_toZ b = n.
Proof.
  intros F H L. assert (T : Btrunc b = n).
  { apply eq_IZR. rewrite (Btrunc_correct 53 1024 _ b), round_FIX_IZR, H, Ztrunc_IZR. reflexivity. }
  unfold f64_toZ. rewrite T. destruct (Z.leb_spec (- 2 ^ 63) n) as [|]; [|lia]. destruct (Z.ltb_spec n (2 ^ 63)) as [|]; [|lia].
  destruct b; try reflexivity; discriminate.
Qed.

(** half of the eighth decimal and the rounding errors *)
Definition e8 : R := 51 / 10 ^ 10.

Lemma small_prod (a b A B : R) : Rabs a <= A -> Rabs b <= B -> Rabs (a * b) <= A * B.
Proof. intros. rewrite Rabs_mult. apply Rmult_le_compat; auto using Rabs_pos. Qed.

Lemma round8_ok E (a : f64) : is_finite a = true -> Rabs (B2R a) <= 30000 ->
  is_finite (@round8 (ArithF64 E) a : f64) = true /\ Rabs (B2R (@round8 (ArithF64 E) a : f64) - B2R a) <= e8.
Proof.
  intros Fa Ba. destruct f1e8 as [S8 F8]. destruct fhalf as [Hh Fh].
  set (b := f64_mul a (f64_ofZ 100000000)).
  assert (Bp : Rabs (B2R a * 10 ^ 8) <= 3 * 10 ^ 12).
  { replace (3 * 10 ^ 12) with (30000 * 10 ^ 8) by lra. apply small_prod; [exact Ba|rewrite Rabs_pos_eq; lra]. }
  destruct (fmul_ok a (f64_ofZ 100000000) Fa F8) as [Fb Eb]; [rewrite S8; unfold big; lra|]. fold b in Fb, Eb. rewrite S8 in Eb.
  assert (Eb' : Rabs (B2R b - B2R a * 10 ^ 8) <= 7 / 10 ^ 4) by (unfold ue, eta in Eb; lra). clear Eb.
  apply Rabs_le_inv in Eb', Bp.
  assert (N : exists n, @round_ (ArithF64 E) b = n /\ IZR n - 505 / 1000 <= B2R a * 10 ^ 8 <= IZR n + 505 / 1000).
  { unfold round_. change (@nltb (ArithF64 E) b (@n0 (ArithF64 E))) with (Bltb b (B754_zero false : f64)).
    destruct (Bltb b (B754_zero false)).
    - change (exists n, f64_toZ (Bnearbyint mode_UP (f64_sub b (f64_lit 1 2))) = n /\ IZR n - 505 / 1000 <= B2R a * 10 ^ 8 <= IZR n + 505 / 1000).
      destruct (fsub_ok b (f64_lit 1 2) Fb Fh) as [Fc Ec]; [rewrite Hh; unfold big; apply Rabs_le; lra|]. rewrite Hh in Ec.
      set (c := f64_sub b (f64_lit 1 2)) in *.
      assert (Ec' : Rabs (B2R c - (B2R b - / 2)) <= 7 / 10 ^ 4).
      { eapply Rle_trans; [exact Ec|]. assert (Rabs (B2R b - / 2) <= 31 / 10 * 10 ^ 12) by (apply Rabs_le; lra). unfold ue, eta. lra. }
      apply Rabs_le_inv in Ec'.
      destruct (Bnearbyint_correct 53 1024 _ mode_UP c) as (K1 & K2 & _). rewrite round_FIX_IZR in K1. cbn [round_mode] in K1.
      pose proof (Zceil_ub (B2R c)) as U1. pose proof (Zceil_lb (B2R c)) as U2.
      exists (Zceil (B2R c)). split; [|lra]. apply toZ_int; [rewrite K2; exact Fc|exact K1|].
      split; [apply le_IZR|apply lt_IZR]; [change (IZR (- 2 ^ 63)) with (-9223372036854775808)|change (IZR (2 ^ 63)) with 9223372036854775808]; lra.
    - change (exists n, f64_toZ (Bnearbyint mode_DN (f64_add b (f64_lit 1 2))) = n /\ IZR n - 505 / 1000 <= B2R a * 10 ^ 8 <= IZR n + 505 / 1000).
      destruct (fadd_ok b (f64_lit 1 2) Fb Fh) as [Fc Ec]; [rewrite Hh; unfold big; apply Rabs_le; lra|]. rewrite Hh in Ec.
      set (c := f64_add b (f64_lit 1 2)) in *.
      assert (Ec' : Rabs (B2R c - (B2R b + / 2)) <= 7 / 10 ^ 4).
      { eapply Rle_trans; [exact Ec|]. assert (Rabs (B2R b + / 2) <= 31 / 10 * 10 ^ 12) by (apply Rabs_le; lra). unfold ue, eta. lra. }
      apply Rabs_le_inv in Ec'.
      destruct (Bnearbyint_correct 53 1024 _ mode_DN c) as (K1 & K2 & _). rewrite round_FIX_IZR in K1. cbn [round_mode] in K1.
      pose proof (Zfloor_lb (B2R c)) as U1. pose proof (Zfloor_ub (B2R c)) as U2.
      exists (Zfloor (B2R c)). split; [|lra]. apply toZ_int; [rewrite K2; exact Fc|exact K1|].
      split; [apply le_IZR|apply lt_IZR]; [change (IZR (- 2 ^ 63)) with (-9223372036854775808)|change (IZR (2 ^ 63)) with 9223372036854775808]; lra. }
  destruct N as (n & En & Bn).
  change (@round8 (ArithF64 E) a) with (f64_div (f64_ofZ (@round_ (ArithF64 E) b)) (f64_ofZ 100000000)). rewrite En.
  assert (Bn' : Rabs (IZR n) <= 31 / 10 * 10 ^ 12) by (apply Rabs_le; lra).
  destruct (ofZ_ok n) as [Fn Ern]; [unfold big; lra|].
  assert (Ern' : Rabs (B2R (f64_ofZ n) - IZR n) <= 7 / 10 ^ 4) by (unfold ue, eta in Ern; lra). clear Ern. apply Rabs_le_inv in Ern', Bn'.
  assert (Q : Rabs (B2R (f64_ofZ n) / 10 ^ 8) <= 32000) by (apply Rabs_le; lra).
  destruct (fdiv_ok (f64_ofZ n) (f64_ofZ 100000000) Fn) as [Fr Er]; [rewrite S8; lra|rewrite S8; unfold big; lra|]. rewrite S8 in Er.
  split; [exact Fr|]. assert (Er' : Rabs (B2R (f64_div (f64_ofZ n) (f64_ofZ 100000000)) - B2R (f64_ofZ n) / 10 ^ 8) <= 7 / 10 ^ 12) by (unfold ue, eta in Er; lra).
  apply Rabs_le_inv in Er'. unfold e8. apply Rabs_le. lra.
Qed.

(** ** Points of plane and segment *)

(** a number not above [l] in size *)
Definition bnd (l : R) (x : f64) : Prop := is_finite x = true /\ Rabs (B2R x) <= l.

Lemma bnd_le l l' x : l <= l' -> bnd l x -> bnd l' x.
Proof. intros H [F B]. split; [exact F|lra]. Qed.

Lemma sub_nonan (x y : f64) : is_nan x = false -> is_finite y = true -> is_nan (f64_sub x y) = false.
Proof.
  intros N F. destruct (is_finite x) eqn:Fx.
  - pose proof (Bminus_correct 53 1024 _ _ mode_NE x y Fx F) as C. cbn [round_mode] in C. fold (f64_sub x y) in C.
    destruct (Rlt_bool _ _).
    + destruct C as (_ & C & _). destruct (f64_sub x y); auto; discriminate.
    + destruct C as [C _]. apply overflow_inf in C. now rewrite C.
  - destruct x as [s|s| |s m e b]; try discriminate. destruct y as [r|r| |r m e b]; try discriminate; reflexivity.
Qed.
Lemma div_nonan (x y : f64) : is_nan x = false -> is_finite y = true -> B2R y <> 0 -> is_nan (f64_div x y) = false.
Proof.
  intros N F Y. destruct (is_finite x) eqn:Fx.
  - pose proof (Bdiv_correct 53 1024 _ _ mode_NE x y Y) as C. cbn [round_mode] in C. fold (f64_div x y) in C.
    destruct (Rlt_bool _ _).
    + destruct C as (_ & C & _). rewrite Fx in C. destruct (f64_div x y); auto; discriminate.
    + apply overflow_inf in C. now rewrite C.
  - destruct x as [s|s| |s m e b]; try discriminate. destruct y as [r|r| |r m e b]; try discriminate; [cbn in Y; lra|reflexivity].
Qed.
Lemma div_inf_fin (x y : f64) : is_finite (f64_div x y) = true -> is_finite y = true -> is_finite x = true.
Proof. destruct x as [s|s| |s m e b]; auto; destruct y as [r|r| |r n g c]; auto; discriminate. Qed.
Lemma sub_inf_fin (x y : f64) : is_finite (f64_sub x y) = true -> is_finite y = true -> is_finite x = true.
Proof. destruct x as [s|s| |s m e b]; auto; destruct y as [r|r| |r n g c]; auto; try discriminate. Qed.
Lemma fsub_fin (x y : f64) : is_finite x = true -> is_finite y = true -> is_finite (f64_sub x y) = true ->
  Rabs (B2R (f64_sub x y) - (B2R x - B2R y)) <= ue * Rabs (B2R x - B2R y) + eta.
Proof.
  intros Fx Fy F. pose proof (Bminus_correct 53 1024 _ _ mode_NE x y Fx Fy) as C. cbn [round_mode] in C. fold (f64_sub x y) in C.
  destruct (Rlt_bool_spec (Rabs (rnd64 (B2R x - B2R y))) (bpow radix2 1024)) as [L|L].
  - destruct C as (C1 & _). rewrite C1. apply rnd_err.
  - exfalso. destruct C as [C _]. apply overflow_inf in C. rewrite C in F. discriminate.
Qed.

(** the parameter lies between 0 and 1 *)
Lemma unit_range (t : f64) : is_nan t = false -> Bltb t (B754_zero false) = false -> Bltb one64 t = false ->
  is_finite t = true /\ 0 <= B2R t <= 1.
Proof.
  intros N L0 L1. destruct one_R as (R1 & F1 & _).
  assert (F : is_finite t = true).
  { destruct t as [s|[|]| |s m e b]; try discriminate; auto. }
  split; [exact F|]. rewrite Bltb_correct in L0, L1 by auto. rewrite R1 in L1. cbn [B2R] in L0.
  destruct (Rlt_bool_spec (B2R t) 0); [discriminate|]. destruct (Rlt_bool_spec 1 (B2R t)); [discriminate|]. lra.
Qed.

(** error of a computed point *)
Definition es : R := 5 / 10 ^ 11.

Lemma seg_coord (a b t : f64) : bnd 20000 a -> bnd 20000 b -> is_finite t = true -> 0 <= B2R t <= 1 ->
  let q := f64_add a (f64_mul (f64_sub b a) t) in
  is_finite q = true /\ Rabs (B2R q - (B2R a + B2R t * (B2R b - B2R a))) <= es.
Proof.
  intros [Fa Ba] [Fb Bb] Ft Bt q. apply Rabs_le_inv in Ba, Bb.
  assert (Sd : Rabs (B2R b - B2R a) <= 40000) by (apply Rabs_le; lra).
  destruct (fsub_ok b a Fb Fa) as [Fd Ed]; [unfold big; lra|]. set (d := f64_sub b a) in *.
  assert (Ed' : Rabs (B2R d - (B2R b - B2R a)) <= 81 / 10 ^ 13) by (unfold ue, eta in Ed; lra). clear Ed.
  assert (Bd : Rabs (B2R d) <= 40001) by (apply Rabs_le_inv in Ed', Sd; apply Rabs_le; lra).
  assert (Bp : Rabs (B2R d * B2R t) <= 40001 * 1) by (apply small_prod; [exact Bd|rewrite Rabs_pos_eq; lra]).
  destruct (fmul_ok d t Fd Ft) as [Fp Ep]; [unfold big; lra|]. set (p := f64_mul d t) in *.
  assert (Ep' : Rabs (B2R p - B2R d * B2R t) <= 81 / 10 ^ 13) by (unfold ue, eta in Ep; lra). clear Ep.
  assert (Dt : Rabs (B2R d * B2R t - B2R t * (B2R b - B2R a)) <= 81 / 10 ^ 13).
  { replace (B2R d * B2R t - B2R t * (B2R b - B2R a)) with ((B2R d - (B2R b - B2R a)) * B2R t) by ring.
    replace (81 / 10 ^ 13) with (81 / 10 ^ 13 * 1) by ring. apply small_prod; [exact Ed'|rewrite Rabs_pos_eq; lra]. }
  apply Rabs_le_inv in Bp, Ep', Dt.
  assert (Bs : Rabs (B2R a + B2R p) <= 60002) by (apply Rabs_le; lra).
  destruct (fadd_ok a p Fa Fp) as [Fq Eq]; [unfold big; lra|]. fold q in Fq, Eq.
  assert (Eq' : Rabs (B2R q - (B2R a + B2R p)) <= 13 / 10 ^ 12) by (unfold ue, eta in Eq; lra). apply Rabs_le_inv in Eq'.
  split; [exact Fq|]. unfold es. apply Rabs_le. lra.
Qed.

(** along the axis of the plane: the coordinate of the plane *)
Lemma seg_level (a b z p1 p2 : f64) : bnd 20000 a -> bnd 20000 b -> is_nan z = false -> is_finite p1 = true -> is_finite p2 = true ->
  B2R p1 = B2R a -> B2R p2 = B2R b -> B2R a <> B2R b ->
  let t := f64_div (f64_sub z p1) (f64_sub p2 p1) in
  is_finite t = true -> 0 <= B2R t <= 1 ->
  is_finite z = true /\ Rabs (B2R (f64_add a (f64_mul (f64_sub b a) t)) - B2R z) <= es.
Proof.
  intros [Fa Ba] [Fb Bb] Nz F1 F2 E1 E2 Ne t Ft Bt. apply Rabs_le_inv in Ba, Bb.
  assert (Sd : Rabs (B2R b - B2R a) <= 40000) by (apply Rabs_le; lra).
  destruct (fsub_ok b a Fb Fa) as [Fd Ed]; [unfold big; lra|].
  pose proof (fsub_neq b a Fb Fa ltac:(unfold big; lra) ltac:(congruence)) as Nd.
  assert (Dd : B2R (f64_sub p2 p1) = B2R (f64_sub b a) /\ is_finite (f64_sub p2 p1) = true).
  { pose proof (Bminus_correct 53 1024 _ _ mode_NE b a Fb Fa) as C. cbn [round_mode] in C. fold (f64_sub b a) in C.
    pose proof (Bminus_correct 53 1024 _ _ mode_NE p2 p1 F2 F1) as C'. cbn [round_mode] in C'. fold (f64_sub p2 p1) in C'.
    rewrite E1, E2 in C'. rewrite Rlt_bool_true in C, C' by (apply big_small; unfold big; lra).
    destruct C as (C & _), C' as (C' & C2 & _). split; [congruence|exact C2]. }
  destruct Dd as [Dd Fd']. set (d := f64_sub b a) in *. set (d' := f64_sub p2 p1) in *.
  assert (Ed' : Rabs (B2R d - (B2R b - B2R a)) <= 81 / 10 ^ 13) by (unfold ue, eta in Ed; lra). clear Ed.
  assert (Bd : Rabs (B2R d) <= 40001) by (apply Rabs_le_inv in Ed', Sd; apply Rabs_le; lra).
  assert (FA : is_finite (f64_sub z p1) = true) by (eapply div_inf_fin; [exact Ft|exact Fd']).
  assert (Fz : is_finite z = true) by (eapply sub_inf_fin; [exact FA|exact F1]).
  split; [exact Fz|].
  pose proof (fdiv_fin (f64_sub z p1) d' ltac:(congruence) Ft) as Et. fold t in Et. rewrite Dd in Et.
  pose proof (fsub_fin z p1 Fz F1 FA) as EA. rewrite E1 in EA. set (A := f64_sub z p1) in *.
  set (r := B2R A / B2R d) in *. assert (Er : r * B2R d = B2R A) by (unfold r; field; exact Nd).
  assert (Br : Rabs r <= 11 / 10).
  { assert (Rabs r <= Rabs (B2R t) + Rabs (B2R t - r)).
    { replace r with (B2R t - (B2R t - r)) at 1 by ring. eapply Rle_trans; [apply Rabs_triang|]. rewrite Rabs_Ropp. lra. }
    rewrite (Rabs_pos_eq (B2R t)) in H by lra. unfold ue, eta in Et. lra. }
  assert (Et' : Rabs (B2R t - r) <= 23 / 10 ^ 17) by (unfold ue, eta in Et; lra). clear Et.
  assert (Bp : Rabs (B2R d * B2R t) <= 40001 * 1) by (apply small_prod; [exact Bd|rewrite Rabs_pos_eq; lra]).
  destruct (fmul_ok d t Fd Ft) as [Fp Ep]; [unfold big; lra|]. set (p := f64_mul d t) in *.
  assert (Ep' : Rabs (B2R p - B2R d * B2R t) <= 81 / 10 ^ 13) by (unfold ue, eta in Ep; lra). clear Ep.
  assert (Dt : Rabs (B2R d * B2R t - B2R A) <= 40001 * (23 / 10 ^ 17)).
  { replace (B2R d * B2R t - B2R A) with (B2R d * (B2R t - r)) by (rewrite <- Er; ring). apply small_prod; [exact Bd|exact Et']. }
  assert (BA : Rabs (B2R A) <= 11 / 10 * 40001) by (rewrite <- Er; apply small_prod; assumption).
  assert (Bz : Rabs (B2R z - B2R a) <= 45000).
  { assert (Rabs (B2R z - B2R a) <= Rabs (B2R A) + Rabs (B2R A - (B2R z - B2R a))).
    { replace (B2R z - B2R a) with (B2R A - (B2R A - (B2R z - B2R a))) at 1 by ring. eapply Rle_trans; [apply Rabs_triang|]. rewrite Rabs_Ropp. lra. }
    unfold ue, eta in EA. lra. }
  assert (EA' : Rabs (B2R A - (B2R z - B2R a)) <= 91 / 10 ^ 13) by (unfold ue, eta in EA; lra). clear EA.
  apply Rabs_le_inv in Bp, Ep', Dt, EA'.
  assert (Bs : Rabs (B2R a + B2R p) <= 60002) by (apply Rabs_le; lra).
  destruct (fadd_ok a p Fa Fp) as [Fq Eq]; [unfold big; lra|]. set (q := f64_add a p) in *.
  assert (Eq' : Rabs (B2R q - (B2R a + B2R p)) <= 13 / 10 ^ 12) by (unfold ue, eta in Eq; lra). apply Rabs_le_inv in Eq'.
  unfold es. apply Rabs_le. lra.
Qed.
