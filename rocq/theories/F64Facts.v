(** * Facts about float64 used by the proofs *)
From Coq Require Import ZArith NArith Bool Lia Reals Lra.
From Flocq Require Import Core.Core IEEE754.BinarySingleNaN.
From Verif Require Import Arith ArithR ArithF64 GcodeSpec GcodeInstr.
Open Scope R_scope.

Notation fexp64 := (SpecFloat.fexp 53 1024).
Notation rnd64 := (round radix2 fexp64 ZnearestE).

(** not NaN, not negative (a zero of either sign, a positive number or +Inf) *)
Definition nonneg (x : f64) : Prop :=
  match x with
  | B754_zero _ | B754_infinity false | B754_finite false _ _ _ => True
  | _ => False
  end.
(** positive number *)
Definition positive (x : f64) : Prop := match x with B754_finite false _ _ _ => True | _ => False end.

#[global] Instance fexp64_valid : Valid_exp fexp64.
Proof. apply (fexp_correct 53 1024). reflexivity. Qed.

Lemma B2R_nonneg (x : f64) : nonneg x -> 0 <= B2R x.
Proof.
  destruct x as [s|[|]| |[|] m e b]; cbn -[F2R]; intros H; try lra; try contradiction.
  now apply F2R_ge_0.
Qed.

Lemma positive_B2R (x : f64) : positive x -> 0 < B2R x /\ is_finite x = true.
Proof. destruct x as [s|s| |[|] m e b]; try contradiction. intros _. split; [now apply F2R_gt_0|reflexivity]. Qed.

Lemma positive_nonneg (x : f64) : positive x -> nonneg x.
Proof. destruct x as [s|[|]| |[|] m e b]; cbn; tauto. Qed.

Lemma finite_nonneg (x : f64) : is_finite x = true -> 0 <= B2R x -> nonneg x.
Proof.
  destruct x as [s|s| |[|] m e b]; cbn -[F2R]; intros F H; try discriminate; auto.
  assert (F2R (Float radix2 (Z.neg m) e) < 0) by now apply F2R_lt_0.
  cbn in H, H0. lra.
Qed.

Lemma format_B2R (x : f64) : generic_format radix2 fexp64 (B2R x).
Proof. apply (generic_format_B2R 53 1024). Qed.

Lemma rnd_nonneg r : 0 <= r -> 0 <= rnd64 r.
Proof.
  intros H. rewrite <- (round_0 radix2 fexp64 ZnearestE). apply round_le; [typeclasses eauto..|exact H].
Qed.

Lemma overflow_inf (x : f64) s : B2SF x = binary_overflow 53 1024 mode_NE s -> x = B754_infinity s.
Proof.
  intros H. cbn in H. destruct x as [a|a| |a m e b]; cbn in H; try discriminate. injection H as ->. reflexivity.
Qed.

Lemma nonneg_sign (x : f64) : nonneg x -> Bsign x = false \/ B2R x = 0.
Proof. destruct x as [s|[|]| |[|] m e b]; cbn; auto; contradiction. Qed.

Lemma rnd_B2R (x : f64) : rnd64 (B2R x) = B2R x.
Proof. apply round_generic; [typeclasses eauto|apply format_B2R]. Qed.

Lemma nonneg_cases (x : f64) : nonneg x -> x = B754_infinity false \/ is_finite x = true.
Proof. destruct x as [s|[|]| |[|] m e b]; cbn; auto; contradiction. Qed.

(** addition of non-negative numbers *)
Lemma add_nonneg x y : nonneg x -> nonneg y -> nonneg (f64_add x y) /\ Bleb x (f64_add x y) = true.
Proof.
  intros Hx Hy.
  destruct (nonneg_cases x Hx) as [->|Fx].
  { destruct y as [s|[|]| |[|] m e b]; cbn in *; try contradiction; auto. }
  destruct (nonneg_cases y Hy) as [->|Fy].
  { destruct x as [s|[|]| |[|] m e b]; cbn in *; try contradiction; auto. }
  pose proof (B2R_nonneg x Hx) as Rx. pose proof (B2R_nonneg y Hy) as Ry.
  pose proof (Bplus_correct 53 1024 _ _ mode_NE x y Fx Fy) as C.
  cbn [round_mode] in C. fold (f64_add x y) in C.
  destruct (Rlt_bool_spec (Rabs (rnd64 (B2R x + B2R y))) (bpow radix2 1024)) as [L|L].
  - destruct C as (C1 & C2 & _). split.
    + apply finite_nonneg; [exact C2|]. rewrite C1. apply rnd_nonneg. lra.
    + rewrite Bleb_correct by assumption. apply Rle_bool_true. rewrite C1, <- (rnd_B2R x) at 1.
      apply round_le; [typeclasses eauto..|lra].
  - destruct C as (C1 & C2). destruct (nonneg_sign x Hx) as [S|Z].
    + rewrite S in C1. apply overflow_inf in C1. rewrite C1. split; [exact I|].
      destruct x as [s|[|]| |[|] m e b]; cbn in *; try contradiction; try discriminate; reflexivity.
    + exfalso. rewrite Z, Rplus_0_l, rnd_B2R in L. pose proof (abs_B2R_lt_emax 53 1024 y). lra.
Qed.

Lemma mul_nonneg x y : positive x -> nonneg y -> nonneg (f64_mul x y).
Proof.
  intros Hx Hy. destruct (positive_B2R x Hx) as [Px Fx].
  destruct (nonneg_cases y Hy) as [->|Fy].
  { destruct x as [s|s| |[|] m e b]; cbn in *; try contradiction; auto. }
  pose proof (B2R_nonneg y Hy) as Ry.
  pose proof (Bmult_correct 53 1024 _ _ mode_NE x y) as C.
  cbn [round_mode] in C. fold (f64_mul x y) in C.
  destruct (Rlt_bool_spec (Rabs (rnd64 (B2R x * B2R y))) (bpow radix2 1024)) as [L|L].
  - destruct C as (C1 & C2 & _). apply finite_nonneg; [rewrite C2, Fx, Fy; reflexivity|].
    rewrite C1. apply rnd_nonneg. apply Rmult_le_pos; lra.
  - destruct (nonneg_sign y Hy) as [S|Z].
    + rewrite S in C. assert (Bsign x = false) as Sx by (destruct x as [s|s| |[|] m e b]; cbn in *; auto; contradiction).
      rewrite Sx in C. apply overflow_inf in C. rewrite C. exact I.
    + exfalso. rewrite Z, Rmult_0_r, round_0, Rabs_R0 in L by typeclasses eauto.
      pose proof (bpow_gt_0 radix2 1024). lra.
Qed.

Lemma div_nonneg x y : nonneg x -> positive y -> nonneg (f64_div x y).
Proof.
  intros Hx Hy. destruct (positive_B2R y Hy) as [Py Fy].
  destruct (nonneg_cases x Hx) as [->|Fx].
  { destruct y as [s|s| |[|] m e b]; cbn in *; try contradiction; auto. }
  pose proof (B2R_nonneg x Hx) as Rx.
  pose proof (Bdiv_correct 53 1024 _ _ mode_NE x y ltac:(lra)) as C.
  cbn [round_mode] in C. fold (f64_div x y) in C.
  destruct (Rlt_bool_spec (Rabs (rnd64 (B2R x / B2R y))) (bpow radix2 1024)) as [L|L].
  - destruct C as (C1 & C2 & _). apply finite_nonneg; [rewrite C2; exact Fx|].
    rewrite C1. apply rnd_nonneg. apply Rle_mult_inv_pos; lra.
  - destruct (nonneg_sign x Hx) as [S|Z].
    + rewrite S in C. assert (Bsign y = false) as Sy by (destruct y as [s|s| |[|] m e b]; cbn in *; auto; contradiction).
      rewrite Sy in C. apply overflow_inf in C. rewrite C. exact I.
    + exfalso. rewrite Z in L. unfold Rdiv in L. rewrite Rmult_0_l, round_0, Rabs_R0 in L by typeclasses eauto.
      pose proof (bpow_gt_0 radix2 1024). lra.
Qed.

Lemma sqrt_nonneg x : nonneg x -> nonneg (f64_sqrt x).
Proof.
  intros Hx. destruct (nonneg_cases x Hx) as [->|Fx]; [exact I|].
  pose proof (Bsqrt_correct 53 1024 _ _ mode_NE x) as (C1 & C2 & _).
  apply finite_nonneg.
  - unfold f64_sqrt. rewrite C2. destruct x as [s|[|]| |[|] m e b]; cbn in *; auto; discriminate.
  - unfold f64_sqrt. rewrite C1. apply rnd_nonneg. apply sqrt_pos.
Qed.

Lemma sq_nonneg x : is_nan x = false -> nonneg (f64_mul x x).
Proof.
  intros Hx. destruct x as [s|s| |s m e b] eqn:Ex; cbn in Hx; try discriminate.
  - destruct s; exact I.
  - destruct s; exact I.
  - rewrite <- Ex. pose proof (Bmult_correct 53 1024 _ _ mode_NE x x) as C.
    cbn [round_mode] in C. fold (f64_mul x x) in C.
    destruct (Rlt_bool_spec (Rabs (rnd64 (B2R x * B2R x))) (bpow radix2 1024)) as [L|L].
    + destruct C as (C1 & C2 & _). apply finite_nonneg; [rewrite C2, Ex; reflexivity|].
      rewrite C1. apply rnd_nonneg. apply Rle_0_sqr.
    + rewrite xorb_nilpotent in C. apply overflow_inf in C. rewrite C. exact I.
Qed.

Lemma sub_not_nan x y : is_finite x = true -> is_finite y = true -> is_nan (f64_sub x y) = false.
Proof.
  intros Fx Fy. pose proof (Bminus_correct 53 1024 _ _ mode_NE x y Fx Fy) as C.
  cbn [round_mode] in C. fold (f64_sub x y) in C.
  destruct (Rlt_bool _ _).
  - destruct C as (_ & C2 & _). destruct (f64_sub x y); try discriminate; reflexivity.
  - destruct C as (C1 & _). apply overflow_inf in C1. rewrite C1. reflexivity.
Qed.

(** ** Decimals *)

Lemma ZnearestE_frac n d : (0 < d)%Z ->
  ZnearestE (IZR n / IZR d) =
  match Z.compare (2 * (n mod d)) d with
  | Lt => (n / d)%Z
  | Gt => (n / d + 1)%Z
  | Eq => if Z.even (n / d) then (n / d)%Z else (n / d + 1)%Z
  end.
Proof.
  intros Hd. assert (Hd' : 0 < IZR d) by now apply IZR_lt.
  unfold Znearest. rewrite Zfloor_div by lia.
  assert (E : IZR n = IZR d * IZR (n / d) + IZR (n mod d)).
  { rewrite <- mult_IZR, <- plus_IZR. f_equal. apply Z.div_mod. lia. }
  assert (Ex : IZR n / IZR d - IZR (n / d) = IZR (n mod d) / IZR d).
  { rewrite E. field. lra. }
  assert (C : Rcompare (IZR n / IZR d - IZR (n / d)) (/ 2) = Z.compare (2 * (n mod d)) d).
  { rewrite Ex, <- Rcompare_IZR, mult_IZR.
    rewrite <- (Rcompare_mult_r (2 * IZR d) (IZR (n mod d) / IZR d)) by lra. f_equal; field; lra. }
  rewrite C.
  assert (Hc : (0 < n mod d)%Z -> Zceil (IZR n / IZR d) = (n / d + 1)%Z).
  { intros Hr. rewrite <- (Zfloor_div n d) by lia. apply Zceil_floor_neq. rewrite Zfloor_div by lia.
    intros Q. apply (IZR_lt 0) in Hr.
    assert (0 < IZR (n mod d) / IZR d) by (apply Rdiv_lt_0_compat; lra). lra. }
  pose proof (Z.mod_pos_bound n d Hd).
  destruct (Z.compare_spec (2 * (n mod d)) d).
  - rewrite Hc by lia. destruct (Z.even (n / d)); reflexivity.
  - reflexivity.
  - apply Hc. lia.
Qed.

Lemma round3_spec m e : Z.of_N (round3 m e) = ZnearestE (1000 * F2R (Float radix2 (Zpos m) e)).
Proof.
  unfold F2R. cbn [Fnum Fexp].
  destruct e as [|k|k].
  - cbn [round3]. rewrite Z2N.id by (rewrite Z.shiftl_mul_pow2 by lia; nia).
    rewrite Z.shiftl_0_r. cbn [bpow]. rewrite Rmult_1_r, <- mult_IZR. now rewrite (Zrnd_IZR ZnearestE).
  - unfold round3. rewrite Z.shiftl_mul_pow2 by lia. rewrite Z2N.id by nia.
    rewrite <- IZR_Zpower by lia. rewrite <- !mult_IZR. now rewrite (Zrnd_IZR ZnearestE).
  - unfold round3. rewrite Z.shiftl_1_l.
    set (d := (2 ^ Zpos k)%Z). set (n := (1000 * Zpos m)%Z).
    assert (Hd : (0 < d)%Z) by (apply Z.pow_pos_nonneg; lia).
    rewrite Z2N.id.
    + rewrite <- ZnearestE_frac by exact Hd. f_equal.
      unfold n, d. rewrite mult_IZR. change (bpow radix2 (Z.neg k)) with (/ IZR (Zpower_pos radix2 k)).
      change (Z.pow_pos 2 k) with (Zpower_pos radix2 k). change (2 ^ Z.pos k)%Z with (Zpower_pos radix2 k).
      unfold Rdiv. ring.
    + assert (0 <= n / d)%Z by (apply Z.div_pos; lia).
      destruct (Z.compare _ _); try destruct (Z.even _); lia.
Qed.

Lemma ZnearestE_opp x : ZnearestE (- x) = (- ZnearestE x)%Z.
Proof.
  rewrite Znearest_opp. f_equal. unfold Znearest.
  destruct (Rcompare _ _); try reflexivity.
  rewrite Bool.negb_involutive. rewrite Z.even_opp, Z.even_add. cbn.
  destruct (Z.even (Zfloor x)); reflexivity.
Qed.

Section V.
Context (E : elem).
Existing Instance ArithF64.

Lemma V_finite (x : f64) : is_finite x = true ->
  @V (ArithF64 E) x = VFin (ZnearestE (1000 * B2R x)).
Proof.
  destruct x as [s|s| |s m e b]; cbn [is_finite]; try discriminate; intros _; unfold V; cbn [nfix3 ArithF64 f64_fix3 val_of_fix3].
  - cbn [B2R]. rewrite Rmult_0_r, (Zrnd_IZR ZnearestE). destruct s; reflexivity.
  - rewrite round3_spec. cbn [B2R]. destruct s; [|reflexivity]. cbn [cond_Zopp].
    change (Z.neg m) with (- Z.pos m)%Z. rewrite F2R_Zopp.
    rewrite <- Ropp_mult_distr_r, ZnearestE_opp. reflexivity.
Qed.

Lemma V_vfin (x : f64) : is_finite x = true -> exists z, @V (ArithF64 E) x = VFin z.
Proof. intros H. rewrite V_finite by exact H. eauto. Qed.
End V.

(** order of written numbers *)
Definition vle (a b : val) : Prop :=
  match a, b with
  | VFin x, VFin y => (x <= y)%Z
  | VInf true, (VFin _ | VInf _) | (VFin _ | VInf _), VInf false => True
  | _, _ => False
  end.

Lemma vle_trans a b c : vle a b -> vle b c -> vle a c.
Proof. destruct a as [|[|]|], b as [|[|]|], c as [|[|]|]; cbn; auto; try tauto; lia. Qed.

Lemma V_le E (x y : f64) : Bleb x y = true -> vle (@V (ArithF64 E) x) (@V (ArithF64 E) y).
Proof.
  intros H.
  destruct (is_finite x) eqn:Fx, (is_finite y) eqn:Fy.
  - rewrite !V_finite by assumption. rewrite Bleb_correct in H by assumption.
    destruct (Rle_bool_spec (B2R x) (B2R y)); [|discriminate]. cbn.
    apply Zrnd_le; [typeclasses eauto|lra].
  - rewrite (V_finite E x Fx). destruct y as [s|[|]| |s m e b]; try discriminate.
    + destruct x as [s|[|]| |s m e b]; discriminate.
    + exact I.
    + destruct x as [s|[|]| |s m e b]; discriminate.
  - rewrite (V_finite E y Fy). destruct x as [s|[|]| |s m e b]; try discriminate.
    + exact I.
    + destruct y as [s|[|]| |s m e b]; discriminate.
  - destruct x as [s|[|]| |s m e b], y as [s'|[|]| |s' m' e' b']; try discriminate; exact I.
Qed.

(** adding 1/2 to a number gives a number *)
Lemma half_R : B2R (f64_lit 5 10) = / 2 /\ is_finite (f64_lit 5 10) = true.
Proof.
  assert (H : f64_lit 5 10 = @B754_finite 53 1024 false 4503599627370496 (-53) eq_refl).
  { apply B2SF_inj. vm_compute. reflexivity. }
  rewrite H. split; [|reflexivity]. cbn [B2R cond_Zopp]. unfold F2R. cbn [Fnum Fexp].
  change (bpow radix2 (-53)) with (/ IZR 9007199254740992). lra.
Qed.

Lemma max_format : generic_format radix2 fexp64 (bpow radix2 1024 - bpow radix2 971).
Proof.
  replace (bpow radix2 1024 - bpow radix2 971) with (F2R (Float radix2 (2 ^ 53 - 1) 971)).
  - apply generic_format_F2R. intros _. unfold cexp, SpecFloat.fexp, SpecFloat.emin. 
    rewrite (mag_F2R_Zdigits radix2) by discriminate.
    assert (Zdigits radix2 (2 ^ 53 - 1) = 53%Z) as -> by (vm_compute; reflexivity). lia.
  - unfold F2R. cbn [Fnum Fexp]. replace 1024%Z with (53 + 971)%Z by reflexivity. rewrite bpow_plus.
    replace (bpow radix2 53) with (IZR (2^53)) by (rewrite <- (IZR_Zpower radix2) by lia; reflexivity).
    rewrite minus_IZR. ring.
Qed.

Lemma add_half_finite x : is_finite x = true -> is_finite (f64_add x (f64_lit 5 10)) = true.
Proof.
  intros Fx. destruct half_R as [HR HF].
  pose proof (Bplus_correct 53 1024 _ _ mode_NE x (f64_lit 5 10) Fx HF) as C.
  cbn [round_mode] in C. fold (f64_add x (f64_lit 5 10)) in C.
  destruct (Rlt_bool_spec (Rabs (rnd64 (B2R x + B2R (f64_lit 5 10)))) (bpow radix2 1024)) as [L|L].
  - apply C.
  - exfalso. rewrite HR in L. clear C.
    pose proof (abs_B2R_le_emax_minus_prec 53 1024 eq_refl x) as B.
    change (1024 - 53)%Z with 971%Z in B. 
    set (M := bpow radix2 1024 - bpow radix2 971) in *.
    assert (P970 : 1 < bpow radix2 970) by (change 1 with (bpow radix2 0); apply bpow_lt; lia).
    assert (P971 : bpow radix2 971 = 2 * bpow radix2 970).
    { replace 971%Z with (1 + 970)%Z by reflexivity. rewrite bpow_plus. reflexivity. }
    assert (Mpos : 0 < M).
    { unfold M. assert (bpow radix2 971 < bpow radix2 1024) by (apply bpow_lt; lia). lra. }
    assert (Up : rnd64 (B2R x + / 2) <= M).
    { apply round_N_le_midp; [typeclasses eauto|apply max_format|].
      assert (succ radix2 fexp64 M = bpow radix2 1024) as ->.
      { unfold succ. rewrite Rle_bool_true by lra. unfold M. rewrite ulp_neq_0 by (unfold M in Mpos; lra).
        unfold cexp.
        assert (mag_val radix2 _ (mag radix2 (bpow radix2 1024 - bpow radix2 971)) = 1024%Z) as ->.
        { apply mag_unique_pos. split.
          - change (1024 - 1)%Z with 1023%Z. replace 1024%Z with (1 + 1023)%Z by reflexivity. rewrite bpow_plus.
            change (bpow radix2 1) with 2. assert (bpow radix2 971 < bpow radix2 1023) by (apply bpow_lt; lia). lra.
          - pose proof (bpow_gt_0 radix2 971). lra. }
        unfold SpecFloat.fexp, SpecFloat.emin. change (Z.max (1024 - 53) (3 - 1024 - 53)) with 971%Z. ring. }
      apply Rabs_le_inv in B. unfold M in *. lra. }
    assert (Lo : - M <= rnd64 (B2R x + / 2)).
    { rewrite <- (round_generic radix2 fexp64 ZnearestE (- M)) by (apply generic_format_opp, max_format).
      apply round_le; [typeclasses eauto..|]. apply Rabs_le_inv in B. lra. }
    assert (Rabs (rnd64 (B2R x + / 2)) <= M) by (apply Rabs_le; lra).
    pose proof (bpow_gt_0 radix2 971). unfold M in *. lra.
Qed.
