(** * Fill lines in float64: proofs *)
From Coq Require Import ZArith Reals Bool List String Lra Lia Permutation PeanoNat.
From Flocq Require Import Core.Core IEEE754.BinarySingleNaN.
From Verif Require Import Arith ArithF64 Prim Path GeomSpec MeshProofs Helpers Gcode Slicer SlicerClaims Fill FillClaims FillProofs2 F64Facts SlicerFloat FloatGeom FloatClaims FloatSlice.
Import ListNotations.
Close Scope Z_scope.
Close Scope num_scope.
Close Scope string_scope.
Local Open Scope R_scope.
Local Open Scope list_scope.

(** not above 1 in size *)
Notation unit1 := (bnd 1).

(** a coordinate along a component [a]: a number, or infinite on the side of [a] *)
Definition onward (a x : f64) : Prop := is_finite x = true \/ (x = B754_infinity (Bsign a) /\ B2R a <> 0).
Definition noneg (x : f64) : Prop := is_finite x = true \/ x = B754_infinity false.

Lemma mul_small (x a : f64) : is_finite x = true -> unit1 a -> is_finite (f64_mul x a) = true.
Proof.
  intros Fx [Fa Ba]. pose proof (Bmult_correct 53 1024 _ _ mode_NE x a) as C. cbn [round_mode] in C. fold (f64_mul x a) in C.
  rewrite Rlt_bool_true in C.
  - destruct C as (_ & C & _). rewrite C, Fx, Fa. reflexivity.
  - apply Rle_lt_trans with (Rabs (B2R x)); [|apply abs_B2R_lt_emax].
    apply abs_round_le_generic; try typeclasses eauto.
    + apply generic_format_abs, format_B2R.
    + rewrite Rabs_mult. rewrite <- (Rmult_1_r (Rabs (B2R x))) at 2. apply Rmult_le_compat_l; [apply Rabs_pos|exact Ba].
Qed.

Lemma onward_mul (a x : f64) : unit1 a -> onward a x -> noneg (f64_mul x a).
Proof.
  intros Ua [F|[-> N]]; [left; now apply mul_small|]. right. destruct Ua as [Fa _].
  destruct a as [s|s| |s m e b]; try discriminate; [cbn in N; lra|]. cbn. now rewrite xorb_nilpotent.
Qed.

Lemma onward_step (a x st : f64) : unit1 a -> positive st -> onward a x -> onward a (f64_add x (f64_mul a st)).
Proof.
  intros Ua Ps Hx. destruct (positive_B2R st Ps) as [P0 Fs]. destruct Ua as [Fa Ba].
  assert (Fw : is_finite (f64_mul a st) = true /\ Bsign (f64_mul a st) = Bsign a /\ (B2R a = 0 -> B2R (f64_mul a st) = 0)).
  { pose proof (Bmult_correct 53 1024 _ _ mode_NE a st) as C. cbn [round_mode] in C. fold (f64_mul a st) in C.
    rewrite Rlt_bool_true in C.
    - destruct C as (C1 & C2 & C3). rewrite Fa, Fs in C2. split; [exact C2|]. split.
      + rewrite C3 by (destruct (f64_mul a st); auto; discriminate). destruct st as [|[|]| |[|] ? ? ?]; try contradiction; try discriminate. cbn. apply xorb_false_r.
      + intros Z. rewrite C1, Z, Rmult_0_l. apply round_0. typeclasses eauto.
    - apply Rle_lt_trans with (Rabs (B2R st)); [|apply abs_B2R_lt_emax].
      apply abs_round_le_generic; try typeclasses eauto.
      + apply generic_format_abs, format_B2R.
      + rewrite Rabs_mult. rewrite <- (Rmult_1_l (Rabs (B2R st))) at 2. apply Rmult_le_compat_r; [apply Rabs_pos|exact Ba]. }
  destruct Fw as (Fw & Sw & Zw). set (w := f64_mul a st) in *.
  destruct Hx as [Fx|[-> N]].
  - pose proof (Bplus_correct 53 1024 _ _ mode_NE x w Fx Fw) as C. cbn [round_mode] in C. fold (f64_add x w) in C.
    destruct (Rlt_bool_spec (Rabs (rnd64 (B2R x + B2R w))) (bpow radix2 1024)) as [L|L].
    + left. apply C.
    + right. destruct C as [C1 C2]. apply overflow_inf in C1. split; [rewrite C1, C2, Sw; reflexivity|].
      intros Z. rewrite (Zw Z), Rplus_0_r, rnd_B2R in L. pose proof (abs_B2R_lt_emax 53 1024 x). lra.
  - right. split; [|exact N]. destruct w as [s|s| |s m e b]; try discriminate; reflexivity.
Qed.

Lemma noneg_add (x y : f64) : noneg x -> noneg y -> is_nan (f64_add x y) = false.
Proof.
  intros [Fx| ->] [Fy| ->].
  - pose proof (Bplus_correct 53 1024 _ _ mode_NE x y Fx Fy) as C. cbn [round_mode] in C. fold (f64_add x y) in C.
    destruct (Rlt_bool _ _).
    + destruct C as (_ & C & _). destruct (f64_add x y); auto; discriminate.
    + destruct C as [C _]. apply overflow_inf in C. now rewrite C.
  - destruct x; try discriminate; reflexivity.
  - destruct y; try discriminate; reflexivity.
  - reflexivity.
Qed.
Lemma nan_add_zr (x y : f64) : is_nan x = false -> zr y -> is_nan (f64_add x y) = false.
Proof. intros N (s & ->). destruct x as [r|r| |r m e b]; try discriminate; try reflexivity. destruct r, s; reflexivity. Qed.

Section F.
Variable E : elem.
Notation AE := (ArithF64 E).
Notation pt := (@point AE).

(** the normals of fill planes: upright planes *)
Definition flat_axis (v : @vector AE) : Prop := unit1 (vx v) /\ unit1 (vy v) /\ zr (vz v).
Definition plane_ok (pl : @plane AE) : Prop := flat_axis (pl_n pl) /\ is_nan (dot (p2v (pl_p pl)) (pl_n pl) : f64) = false.

Lemma planes_from (axis : @vector AE) (st : f64) : flat_axis axis -> positive st ->
  forall k (p : pt), onward (vx axis) (px p) -> onward (vy axis) (py p) -> zr (pz p) ->
  Forall plane_ok (fill_planes k p axis st).
Proof.
  intros (A1 & A2 & A3) Ps. destruct (positive_B2R st Ps) as [_ Fs].
  induction k as [|k IH]; intros p Px Py Pz; cbn [fill_planes]; [constructor|].
  set (p' := pshift p (vscale axis st)).
  assert (Qx : onward (vx axis) (px p')) by (exact (onward_step _ _ _ A1 Ps Px)).
  assert (Qy : onward (vy axis) (py p')) by (exact (onward_step _ _ _ A2 Ps Py)).
  assert (Qz : zr (pz p')) by (exact (zr_add _ _ Pz (zr_mul _ _ A3 Fs))).
  constructor; [|now apply IH]. split; [exact (conj A1 (conj A2 A3))|].
  change (is_nan (f64_add (f64_add (f64_mul (px p') (vx axis)) (f64_mul (py p') (vy axis))) (f64_mul (pz p') (vz axis))) = false).
  apply nan_add_zr.
  - apply noneg_add; now apply onward_mul.
  - apply zr_mul; [exact Qz|]. destruct A3 as (z & ->). reflexivity.
Qed.

Lemma sub_nf (x y : f64) : is_finite y = false -> is_finite (f64_sub x y) = false.
Proof. destruct y as [s|s| |s m e b]; try discriminate; intros _; destruct x as [r|[|]| |r n g c]; try reflexivity; destruct s; reflexivity. Qed.
Lemma sub_nan_r (x : f64) : is_finite (f64_sub x B754_nan) = false.
Proof. destruct x; reflexivity. Qed.
Lemma div_nf (x y : f64) : is_finite x = false -> is_finite (f64_div x y) = false.
Proof. destruct x as [s|s| |s m e b]; try discriminate; intros _; destruct y as [r|r| |r n g c]; reflexivity. Qed.
Lemma div_zero (x y : f64) : zr y -> is_finite (f64_div x y) = false.
Proof. intros (s & ->). destruct x as [r|r| |r n g c]; reflexivity. Qed.
Lemma mul_inf (x : f64) s : is_finite (f64_mul x (B754_infinity s)) = false.
Proof. destruct x as [r|r| |r n g c]; reflexivity. Qed.
Lemma toZ_nf (x : f64) : is_finite x = false -> Z.to_nat (f64_toZ x) = 0%nat.
Proof. destruct x as [s|s| |s m e b]; try discriminate; reflexivity. Qed.

Lemma common_ok (m : @mesh AE) (axis : @vector AE) (st : f64) : flat_axis axis -> nonneg st ->
  Forall plane_ok (calcFillPlanesCommon m axis st).
Proof.
  intros Ha Ns. unfold calcFillPlanesCommon. set (mx := fill_extent m). set (f := nfloor (ndiv (nopp mx) st)).
  set (ms := f64_mul f st).
  change (Forall plane_ok (fill_planes (Z.to_nat (f64_toZ (Bnearbyint mode_UP (f64_div (f64_sub mx ms) st)))) (v2p (vscale axis ms)) axis st)).
  set (c := f64_div (f64_sub mx ms) st).
  destruct (Bnearbyint_correct 53 1024 _ mode_UP c) as (_ & K2 & _).
  destruct (is_finite c) eqn:Fc.
  2:{ rewrite toZ_nf by (rewrite K2; reflexivity). constructor. }
  assert (Fms : is_finite ms = true).
  { destruct (is_finite ms) eqn:Q; [reflexivity|]. unfold c in Fc. rewrite div_nf in Fc; [discriminate|]. now apply sub_nf. }
  assert (Ps : positive st).
  { destruct st as [s|[|]| |[|] mm e b]; try contradiction; try exact I.
    - unfold c in Fc. rewrite div_zero in Fc by (eexists; reflexivity). discriminate.
    - unfold ms in Fms. rewrite mul_inf in Fms. discriminate. }
  destruct Ha as (A1 & A2 & A3). apply planes_from; [exact (conj A1 (conj A2 A3))|exact Ps| | |].
  - left. destruct A1 as [F1 B1]. 
    change (is_finite (f64_mul (vx axis) ms) = true). 
    pose proof (mul_small ms (vx axis) Fms (conj F1 B1)) as G.
    assert (Cm : is_finite (f64_mul (vx axis) ms) = is_finite (f64_mul ms (vx axis))).
    { pose proof (Bmult_correct 53 1024 _ _ mode_NE (vx axis : f64) ms) as C. pose proof (Bmult_correct 53 1024 _ _ mode_NE ms (vx axis : f64)) as C'.
      rewrite Rmult_comm in C'. destruct (Rlt_bool _ _).
      - destruct C as (_ & C & _), C' as (_ & C' & _). unfold f64_mul. rewrite C, C'. apply andb_comm.
      - apply overflow_inf in C, C'. unfold f64_mul. now rewrite C, C'. }
    now rewrite Cm.
  - left. destruct A2 as [F1 B1].
    change (is_finite (f64_mul (vy axis) ms) = true).
    pose proof (mul_small ms (vy axis) Fms (conj F1 B1)) as G.
    assert (Cm : is_finite (f64_mul (vy axis) ms) = is_finite (f64_mul ms (vy axis))).
    { pose proof (Bmult_correct 53 1024 _ _ mode_NE (vy axis : f64) ms) as C. pose proof (Bmult_correct 53 1024 _ _ mode_NE ms (vy axis : f64)) as C'.
      rewrite Rmult_comm in C'. destruct (Rlt_bool _ _).
      - destruct C as (_ & C & _), C' as (_ & C' & _). unfold f64_mul. rewrite C, C'. apply andb_comm.
      - apply overflow_inf in C, C'. unfold f64_mul. now rewrite C, C'. }
    now rewrite Cm.
  - apply zr_mul; [exact A3|exact Fms].
Qed.

Lemma unit1_b (x : f64) : Bleb (Babs x) one64 = true -> unit1 x.
Proof.
  destruct one_R as (R1 & F1 & _). intros H.
  assert (F : is_finite x = true) by (destruct x as [|[|]| |]; try discriminate; auto).
  split; [exact F|]. rewrite Bleb_correct in H by (rewrite ?is_finite_Babs; auto). rewrite B2R_Babs, R1 in H.
  destruct (Rle_bool_spec (Rabs (B2R x)) 1); [assumption|discriminate].
Qed.

Lemma step_nonneg (d : Z) (s : @settings AE) : (0 <= d <= 100)%Z -> positive (LineWidth (s_g s)) -> nonneg (fill_step d s).
Proof.
  intros Hd Pw. change (nonneg (f64_mul (f64_div (f64_ofZ 100) (f64_ofZ d)) (LineWidth (s_g s)))).
  assert (P100 : positive (f64_ofZ 100)) by (apply ofZ_pos; lia).
  assert (N : nonneg (f64_div (f64_ofZ 100) (f64_ofZ d))).
  { destruct (Z.eq_dec d 0) as [->|Nd]; [vm_compute; exact I|]. apply div_nonneg; [now apply positive_nonneg|]. apply ofZ_pos. lia. }
  pose proof (mul_nonneg _ _ Pw N) as K.
  destruct (positive_B2R _ Pw) as [Rw Fw].
  destruct (nonneg_cases _ N) as [->|F].
  - destruct (LineWidth (s_g s) : f64) as [|[|]| |[|] ? ? ?]; try contradiction; exact I.
  - apply mul_nonneg_fin; auto. now apply positive_nonneg.
Qed.

Lemma calc_ok (m : @mesh AE) (s : @settings AE) : (0 <= s_fillDensity s <= 100)%Z -> positive (LineWidth (s_g s)) ->
  Forall plane_ok (fst (calcFillPlanes m s)) /\ Forall plane_ok (snd (calcFillPlanes m s)).
Proof.
  intros Hd Pw.
  assert (Q : forall k, (0 < k)%Z -> nonneg (fill_step (Z.quot (s_fillDensity s) k) s)).
  { intros k Hk. apply step_nonneg; [|exact Pw]. rewrite Z.quot_div_nonneg by lia. split; [apply Z.div_pos; lia|].
    apply Z.le_trans with (s_fillDensity s); [|lia]. apply Z.div_le_upper_bound; [lia|]. nia. }
  assert (Z0 : zr (@n0 AE)) by (exists false; reflexivity).
  assert (AX : flat_axis (@axisX AE)).
  { unfold flat_axis, axisX. cbn [vx vy vz]. split; [apply unit1_b; vm_compute; reflexivity|]. split; [apply unit1_b; vm_compute; reflexivity|exact Z0]. }
  assert (K : forall a b : f64, Bleb (Babs a) one64 = true -> Bleb (Babs b) one64 = true -> flat_axis (@V3 AE a b (@n0 AE))).
  { intros a b Ha Hb. unfold flat_axis. cbn [vx vy vz]. split; [now apply unit1_b|]. split; [now apply unit1_b|exact Z0]. }
  assert (Ll : Forall plane_ok (calcFillPlanesLines m s)) by (apply common_ok; [exact AX|apply step_nonneg; [lia|exact Pw]]).
  split; [|apply common_ok; [exact AX|now apply positive_nonneg]].
  unfold calcFillPlanes. cbn [fst].
  destruct (String.eqb _ _); [exact Ll|]. destruct (String.eqb _ _).
  { unfold calcFillPlanesSquares. apply Forall_app. split; (apply common_ok; [apply K; vm_compute; reflexivity|apply Q; lia]). }
  destruct (String.eqb _ _); [|exact Ll].
  unfold calcFillPlanesTriangles. apply Forall_app. split; [|apply Forall_app; split];
    (apply common_ok; [apply K; vm_compute; reflexivity|apply Q; lia]).
Qed.

(** ** Ends of the fill lines *)
Lemma dot_small (p : pt) (v : @vector AE) : sized E 20000 p -> flat_axis v -> bnd (10 ^ 6) (dot (p2v p) v).
Proof.
  intros ((Fx & Bx) & (Fy & By) & (Fz & Bz)) ((F1 & B1) & (F2 & B2) & (s & Hz)). unfold rx, ry, rz in *.
  change (bnd (10 ^ 6) (f64_add (f64_add (f64_mul (px p) (vx v)) (f64_mul (py p) (vy v))) (f64_mul (pz p) (vz v)))).
  assert (M1 : Rabs (B2R (px p : f64) * B2R (vx v : f64)) <= 20000 * 1) by now apply small_prod.
  assert (M2 : Rabs (B2R (py p : f64) * B2R (vy v : f64)) <= 20000 * 1) by now apply small_prod.
  destruct (fmul_ok (px p) (vx v) Fx F1) as [G1 E1]; [unfold big; lra|]. destruct (fmul_ok (py p) (vy v) Fy F2) as [G2 E2]; [unfold big; lra|].
  assert (E1' : Rabs (B2R (f64_mul (px p) (vx v)) - B2R (px p : f64) * B2R (vx v : f64)) <= 1) by (unfold ue, eta in E1; lra).
  assert (E2' : Rabs (B2R (f64_mul (py p) (vy v)) - B2R (py p : f64) * B2R (vy v : f64)) <= 1) by (unfold ue, eta in E2; lra).
  apply Rabs_le_inv in E1', E2', M1, M2.
  set (a := f64_mul (px p) (vx v)) in *. set (b := f64_mul (py p) (vy v)) in *.
  assert (Bs : Rabs (B2R a + B2R b) <= 40002) by (apply Rabs_le; lra).
  destruct (fadd_ok a b G1 G2) as [G3 E3]; [unfold big; lra|].
  assert (E3' : Rabs (B2R (f64_add a b) - (B2R a + B2R b)) <= 1) by (unfold ue, eta in E3; lra).
  assert (T : zr (f64_mul (pz p) (vz v))).
  { rewrite Hz. destruct (pz p : f64) as [r|r| |r mm e bb]; try discriminate; cbn; eexists; reflexivity. }
  destruct T as (r & T). rewrite T.
  apply Rabs_le_inv in Bs, E3'. destruct (fadd_ok (f64_add a b) (B754_zero r) G3 eq_refl) as [G4 E4]; [cbn [B2R]; unfold big; apply Rabs_le; lra|].
  cbn [B2R] in E4. split; [exact G4|].
  assert (B4 : Rabs (B2R (f64_add a b) + 0) <= 40003) by (apply Rabs_le; lra).
  assert (E4' : Rabs (B2R (f64_add (f64_add a b) (B754_zero r)) - (B2R (f64_add a b) + 0)) <= 1) by (unfold ue, eta in E4; lra).
  apply Rabs_le_inv in E4'. apply Rabs_le. lra.
Qed.

Lemma hits_beside (ps : list (@path AE)) (pl : @plane AE) (q : pt) :
  (forall p x, In p ps -> In x p -> sized E 20000 x) -> plane_ok pl -> In q (hits pl ps) ->
  exists p a b, In p ps /\ In a p /\ In b p /\ pt_fin E q /\ beside_segment E es a b q.
Proof.
  intros Sz (Fa & Nz) Hq. unfold hits in Hq. apply in_flat_map in Hq. destruct Hq as (p & Hp & Hq).
  assert (G : forall r : @path AE, incl r p -> In q (hits_path pl r) -> exists a b, In a p /\ In b p /\ pt_fin E q /\ beside_segment E es a b q).
  { induction r as [|a r IH]; intros Hi Hr; [destruct Hr|]. destruct r as [|b r]; [destruct Hr|]. cbn [hits_path] in Hr. apply in_app_or in Hr.
    destruct Hr as [Hr|Hr]; [|apply IH; [intros x Hx; apply Hi; now right|exact Hr]].
    destruct (intersectSegment pl a b) as [c|] eqn:Ei; [|destruct Hr]. destruct Hr as [<-|[]].
    assert (Ia : In a p) by (apply Hi; now left). assert (Ib : In b p) by (apply Hi; right; now left).
    pose proof (Sz p a Hp Ia) as Sa. pose proof (Sz p b Hp Ib) as Sb.
    destruct (seg_beside E pl a b c Sa Sb (dot_small a _ Sa Fa) (dot_small b _ Sb Fa) Nz Ei) as [K1 K2].
    exists a, b. auto. }
  destruct (G p (incl_refl p) Hq) as (a & b & H). exists p, a, b. tauto.
Qed.

Lemma fill_beside (U : @env AE) (ps : list (@path AE)) (pl : @plane AE) f q : legal U ->
  (forall p x, In p ps -> In x p -> sized E 20000 x) -> plane_ok pl -> In f (intersectByPlane U ps pl) -> In q f ->
  exists p a b, In p ps /\ In a p /\ In b p /\ pt_fin E q /\ beside_segment E es a b q.
Proof.
  intros HU Sz Ok Hf Hq. apply (hits_beside ps pl q Sz Ok).
  destruct (segments_of_hits U ps pl) as (_ & ks & Es).
  eapply Permutation_in; [exact (Permutation_sym (sort_hits_perm U pl _ HU))|].
  eapply (keep_incl ks). rewrite <- Es. apply in_concat. exists f. auto.
Qed.
End F.
