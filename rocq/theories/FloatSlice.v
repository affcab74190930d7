(** * Sections in float64: proofs *)
From Coq Require Import ZArith Reals Bool List Lra Lia Permutation PeanoNat.
From Flocq Require Import Core.Core IEEE754.BinarySingleNaN.
From Verif Require Import Arith ArithF64 Prim Path GeomSpec MeshProofs Helpers Slicer SlicerClaims SlicerProofs SlicerProofs2 F64Facts SlicerFloat Properties_Slicer FloatGeom FloatClaims.
Import ListNotations.
Close Scope Z_scope.
Close Scope num_scope.
Close Scope string_scope.
Local Open Scope R_scope.

Section F.
Variable E : elem.
Notation AE := (ArithF64 E).
Notation pt := (@point AE).

(** both roundings *)
Definition tol : R := 52 / 10 ^ 10.

Lemma seg_some (pl : @plane AE) (a b q : pt) : intersectSegment pl a b = Some q ->
  let p1 := dot (p2v a) (pl_n pl) : f64 in
  let p2 := dot (p2v b) (pl_n pl) : f64 in
  let z := dot (p2v (pl_p pl)) (pl_n pl) : f64 in
  let t := f64_div (f64_sub z p1) (f64_sub p2 p1) in
  Beqb p1 p2 = false /\ Bltb t (B754_zero false) = false /\ Bltb one64 t = false /\
  (px q : f64) = f64_add (px a) (f64_mul (f64_sub (px b) (px a)) t) /\
  (py q : f64) = f64_add (py a) (f64_mul (f64_sub (py b) (py a)) t) /\
  (pz q : f64) = f64_add (pz a) (f64_mul (f64_sub (pz b) (pz a)) t).
Proof.
  intros H p1 p2 z t. unfold intersectSegment in H.
  change (neqb (dot (p2v a) (pl_n pl)) (dot (p2v b) (pl_n pl))) with (Beqb p1 p2) in H.
  change (ndiv _ _) with t in H. change (@nltb AE t n0) with (Bltb t (B754_zero false)) in H. change (@nltb AE n1 t) with (Bltb one64 t) in H.
  destruct (Beqb p1 p2); [discriminate|]. destruct (Bltb t (B754_zero false)); [discriminate|]. destruct (Bltb one64 t); [discriminate|].
  injection H as <-. repeat split.
Qed.

Lemma seg_beside (pl : @plane AE) (a b q : pt) : sized E 20000 a -> sized E 20000 b ->
  bnd (10 ^ 6) (dot (p2v a) (pl_n pl)) -> bnd (10 ^ 6) (dot (p2v b) (pl_n pl)) ->
  is_nan (dot (p2v (pl_p pl)) (pl_n pl) : f64) = false ->
  intersectSegment pl a b = Some q ->
  pt_fin E q /\ beside_segment E es a b q.
Proof.
  intros (Ax & Ay & Az) (Bx & By & Bz) [F1 B1] [F2 B2] Nz H. destruct (seg_some pl a b q H) as (N & L0 & L1 & Qx & Qy & Qz).
  set (p1 := dot (p2v a) (pl_n pl) : f64) in *. set (p2 := dot (p2v b) (pl_n pl) : f64) in *.
  set (z := dot (p2v (pl_p pl)) (pl_n pl) : f64) in *. set (t := f64_div (f64_sub z p1) (f64_sub p2 p1)) in *.
  rewrite Beqb_correct in N by assumption. destruct (Req_bool_spec (B2R p1) (B2R p2)) as [|Ne]; [discriminate|].
  apply Rabs_le_inv in B1, B2. assert (Bd : Rabs (B2R p2 - B2R p1) <= big) by (unfold big; apply Rabs_le; lra).
  pose proof (fsub_neq p2 p1 F2 F1 Bd ltac:(congruence)) as Nd. destruct (fsub_ok p2 p1 F2 F1 Bd) as [Fd _].
  destruct (unit_range t (div_nonan _ _ (sub_nonan _ _ Nz F1) Fd Nd) L0 L1) as [Ft Bt].
  destruct (seg_coord _ _ t Ax Bx Ft Bt) as [X1 X2]. destruct (seg_coord _ _ t Ay By Ft Bt) as [Y1 Y2]. destruct (seg_coord _ _ t Az Bz Ft Bt) as [Z1 Z2].
  unfold pt_fin. rewrite Qx, Qy, Qz. split; [repeat split; assumption|].
  exists (B2R t). split; [exact Bt|]. unfold rx, ry, rz. rewrite Qx, Qy, Qz. repeat split; assumption.
Qed.

Lemma same_R (x y : f64) : same x y -> is_finite y = true -> is_finite x = true /\ B2R x = B2R y.
Proof. intros [->|[(s & ->) (r & ->)]] F; [auto|]. split; reflexivity. Qed.

Lemma sized_fin l (p : pt) : sized E l p -> pt_fin E p.
Proof. intros ([? _] & [? _] & [? _]). repeat split; assumption. Qed.
Lemma sized_le l l' (p : pt) : l <= l' -> sized E l p -> sized E l' p.
Proof. intros L ([? ?] & [? ?] & [? ?]). repeat split; auto; lra. Qed.

Lemma near_small l d s x y q : 0 <= s <= 1 -> Rabs x <= l -> Rabs y <= l -> Rabs (q - (x + s * (y - x))) <= d -> Rabs q <= l + d.
Proof.
  intros Hs Hx Hy Hq. apply Rabs_le_inv in Hx, Hy, Hq.
  assert (- l <= x + s * (y - x) <= l). { split; nra. }
  apply Rabs_le. lra.
Qed.

(** a cut by a horizontal plane *)
Section Plane.
Variables (pl : @plane AE) (h : f64).
Hypothesis (Np : pl_n pl = @axisZ AE) (Fh : is_finite h = true) (Zp : same (dot (p2v (pl_p pl)) (@axisZ AE)) h).

Lemma seg_cut (a b q : pt) : sized E 10000 a -> sized E 10000 b -> intersectSegment pl a b = Some q ->
  pt_fin E q /\ beside_segment E es a b q /\ Rabs (rz E q - B2R h) <= es.
Proof.
  intros A B H. destruct (sized_fin _ _ A) as (Fx & Fy & Fz). destruct (sized_fin _ _ B) as (Gx & Gy & Gz).
  destruct (same_R _ _ (vertex_axisZ E a Fx Fy Fz) Fz) as [F1 E1]. destruct (same_R _ _ (vertex_axisZ E b Gx Gy Gz) Gz) as [F2 E2].
  destruct (same_R _ _ Zp Fh) as [F3 E3].
  assert (L : 10000 <= 20000) by lra. pose proof (sized_le _ _ _ L A) as A'. pose proof (sized_le _ _ _ L B) as B'.
  destruct (seg_beside pl a b q A' B') as [P1 P2]; try assumption.
  - rewrite Np. split; [exact F1|]. rewrite E1. destruct A as (_ & _ & _ & A). unfold rz in A. lra.
  - rewrite Np. split; [exact F2|]. rewrite E2. destruct B as (_ & _ & _ & B). unfold rz in B. lra.
  - rewrite Np. destruct (dot (p2v (pl_p pl)) axisZ : f64); auto; discriminate.
  - split; [exact P1|]. split; [exact P2|].
    destruct (seg_some pl a b q H) as (N & L0 & L1 & Qx & Qy & Qz). rewrite Np in *.
    set (p1 := dot (p2v a) (@axisZ AE) : f64) in *. set (p2 := dot (p2v b) (@axisZ AE) : f64) in *.
    set (z := dot (p2v (pl_p pl)) (@axisZ AE) : f64) in *. set (t := f64_div (f64_sub z p1) (f64_sub p2 p1)) in *.
    rewrite Beqb_correct in N by assumption. destruct (Req_bool_spec (B2R p1) (B2R p2)) as [|Ne]; [discriminate|].
    assert (Nz : is_nan z = false) by (destruct z; auto; discriminate).
    destruct A' as (_ & _ & A'), B' as (_ & _ & B').
    assert (Bd : Rabs (B2R p2 - B2R p1) <= big).
    { destruct A' as [_ A'], B' as [_ B']. unfold rz in A', B'. rewrite E1, E2. apply Rabs_le_inv in A', B'. unfold big. apply Rabs_le. lra. }
    pose proof (fsub_neq p2 p1 F2 F1 Bd ltac:(congruence)) as Nd. destruct (fsub_ok p2 p1 F2 F1 Bd) as [Fd _].
    destruct (unit_range t (div_nonan _ _ (sub_nonan _ _ Nz F1) Fd Nd) L0 L1) as [Ft Bt].
    destruct (seg_level (pz a) (pz b) z p1 p2 A' B' Nz F1 F2 E1 E2 ltac:(congruence) Ft Bt) as [_ K].
    unfold rz. rewrite Qz, <- E3. exact K.
Qed.

Lemma round_cut (m : @mesh AE) (a b q : pt) : edge_of E m a b -> sized E 10000 a -> sized E 10000 b -> intersectSegment pl a b = Some q ->
  cut_point E tol m (B2R h) (pt_round8 q).
Proof.
  intros Ed A B H. destruct (seg_cut a b q A B H) as ((Fx & Fy & Fz) & (s & Hs & Sx & Sy & Sz) & Hz).
  destruct A as ((_ & Ax) & (_ & Ay) & (_ & Az)), B as ((_ & Bx) & (_ & By) & (_ & Bz)).
  pose proof (near_small _ _ _ _ _ _ Hs Ax Bx Sx) as Qx. pose proof (near_small _ _ _ _ _ _ Hs Ay By Sy) as Qy. pose proof (near_small _ _ _ _ _ _ Hs Az Bz Sz) as Qz.
  assert (Le : 10000 + es <= 10001) by (unfold es; lra).
  destruct (round8_ok E (px q) Fx) as [Gx Rx]; [unfold rx in Qx; lra|].
  destruct (round8_ok E (py q) Fy) as [Gy Ry]; [unfold ry in Qy; lra|].
  destruct (round8_ok E (pz q) Fz) as [Gz Rz]; [unfold rz in Qz; lra|].
  unfold rx, ry, rz in *.
  assert (T : forall a b c : R, Rabs (a - b) <= e8 -> Rabs (b - c) <= es -> Rabs (a - c) <= tol).
  { intros x y w H1 H2. unfold e8, es, tol in *. apply Rabs_le_inv in H1, H2. apply Rabs_le. lra. }
  assert (S : forall a b : R, Rabs (a - b) <= e8 -> Rabs b <= 10000 + es -> Rabs a <= 20000).
  { intros x y H1 H2. unfold e8, es in *. apply Rabs_le_inv in H1, H2. apply Rabs_le. lra. }
  split; [|split].
  - unfold sized, rx, ry, rz. cbn [pt_round8 px py pz]. repeat split; try assumption; eapply S; eassumption.
  - unfold rz. cbn [pt_round8 pz]. eapply T; eassumption.
  - exists a, b. split; [exact Ed|]. exists s. split; [exact Hs|]. unfold rx, ry, rz. cbn [pt_round8 px py pz]. repeat split; eapply T; eassumption.
Qed.

Lemma tri_cut (m : @mesh AE) (t : @triangle AE) (ln : @line AE) (q : pt) : In t m -> sized E 10000 (t1 t) -> sized E 10000 (t2 t) -> sized E 10000 (t3 t) ->
  intersectTriangle pl t = Some ln -> In q [lp1 ln; lp2 ln] -> cut_point E tol m (B2R h) q.
Proof.
  intros Ht S1 S2 S3 H Hq. unfold intersectTriangle in H.
  destruct (pick_pair _ _ _) as [[a b]|] eqn:Ep; [|discriminate].
  assert (P : forall x, x = a \/ x = b -> cut_point E tol m (B2R h) (pt_round8 x)).
  { intros x Hx. 
    assert (V : intersectSegment pl (t1 t) (t2 t) = Some x \/ intersectSegment pl (t2 t) (t3 t) = Some x \/ intersectSegment pl (t3 t) (t1 t) = Some x).
    { clear -Ep Hx. revert Ep. generalize (intersectSegment pl (t1 t) (t2 t)) (intersectSegment pl (t2 t) (t3 t)) (intersectSegment pl (t3 t) (t1 t)).
      intros u v w. unfold pick_pair, distinct_pair.
      destruct u as [u|], v as [v|], w as [w|]; try discriminate;
        repeat match goal with |- context [if ?c then _ else _] => destruct c end; try discriminate;
        intros [= <- <-]; destruct Hx as [-> | ->]; auto. }
    destruct V as [V|[V|V]]; (eapply round_cut; [| | |exact V]; try assumption); exists t; auto. }
  unfold ordered_line in H. destruct (pt_equal _ _); [discriminate|]. destruct (nltb _ _); injection H as <-; cbn [lp1 lp2 In] in Hq; destruct Hq as [<-|[<-|[]]]; apply P; auto.
Qed.
End Plane.

(** error of the height of cut [i] *)
Definition drift (i : nat) : R := (INR i + 1) * (25 / 10 ^ 12).

Lemma inv_close (n : Z) : (0 < n)%Z -> IZR n <= 3 * 10 ^ 8 ->
  let q := f64_div one64 (f64_ofZ n) in is_finite q = true /\ Rabs (B2R q - / IZR n) <= 5 / 10 ^ 16.
Proof.
  intros Hn Bn. assert (H1 : 1 <= IZR n) by (apply IZR_le; lia). cbv zeta.
  destruct (ofZ_ok n) as [FN EN]; [rewrite Rabs_pos_eq by lra; unfold big; lra|]. rewrite (Rabs_pos_eq (IZR n)) in EN by lra.
  set (N := f64_ofZ n) in *. set (r := B2R N) in *. set (x := IZR n) in *.
  assert (N1 : 99 / 100 <= r) by (unfold ue, eta in EN; apply Rabs_le_inv in EN; lra).
  destruct one_R as (R1 & F1 & _).
  assert (I1 : 0 < / r) by (apply Rinv_0_lt_compat; lra).
  assert (I2 : / r <= 102 / 100) by (rewrite <- (Rinv_inv (102 / 100)); apply Rinv_le_contravar; lra).
  destruct (fdiv_ok one64 N F1) as [Fq Eq].
  - fold r. lra.
  - rewrite R1. fold r. unfold Rdiv. rewrite Rmult_1_l, Rabs_pos_eq by lra. unfold big; lra.
  - rewrite R1 in Eq. fold r in Eq. unfold Rdiv in Eq. rewrite Rmult_1_l in Eq. rewrite (Rabs_pos_eq (/ r)) in Eq by lra.
    split; [exact Fq|].
    assert (D : Rabs (/ r - / x) <= 22 / 10 ^ 17).
    { replace (/ r - / x) with ((x - r) * / x * / r) by (field; lra).
      assert (Ix : 0 < / x) by (apply Rinv_0_lt_compat; lra).
      rewrite !Rabs_mult, (Rabs_pos_eq (/ x)), (Rabs_pos_eq (/ r)) by lra.
      assert (K : Rabs (x - r) * / x <= 21 / 10 ^ 17).
      { apply Rmult_le_reg_r with x; [lra|]. rewrite Rmult_assoc, Rinv_l, Rmult_1_r by lra. rewrite Rabs_minus_sym. unfold ue, eta in EN. lra. }
      assert (0 <= Rabs (x - r) * / x) by (apply Rmult_le_pos; [apply Rabs_pos|lra]).
      apply Rle_trans with (21 / 10 ^ 17 * (102 / 100)); [apply Rmult_le_compat; lra|lra]. }
    unfold ue, eta in Eq. apply Rabs_le_inv in D. set (w := B2R (f64_div one64 N)) in *.
    assert (Eq' : Rabs (w - / r) <= 21 / 10 ^ 17) by lra. apply Rabs_le_inv in Eq'. apply Rabs_le. lra.
Qed.

Section Heights.
Variables (m : @mesh AE) (LH : f64) (mn mx : R).
Hypotheses (Hm : m <> []) (Hv : Forall (sized E 10000) (vertices m)) (Lo : bottom_of E m mn) (Hi : top_of E m mx) (Lt : mn < mx).

Lemma extent_R : exists fn fx : f64, m_minMaxZ m (@axisZ AE) = (fn, fx) /\ is_finite fn = true /\ is_finite fx = true /\ B2R fn = mn /\ B2R fx = mx.
Proof.
  assert (Vh : forall v, In v (vertices m) -> is_finite (dot (p2v v) (@axisZ AE) : f64) = true /\ B2R (dot (p2v v) (@axisZ AE) : f64) = rz E v).
  { intros v Hin. rewrite Forall_forall in Hv. destruct (sized_fin _ _ (Hv v Hin)) as (Fx & Fy & Fz). exact (same_R _ _ (vertex_axisZ E v Fx Fy Fz) Fz). }
  destruct (minMax_ok (M := MinMaxF64 E) (@axisZ AE) m Hm) as [[(a & Ha & Ea) La] [(b & Hb & Eb) Lb]].
  { apply Forall_forall. intros v Hin. exact (proj1 (Vh v Hin)). }
  destruct (m_minMaxZ m (@axisZ AE)) as [fn fx]. cbn [fst snd] in *. exists fn, fx. split; [reflexivity|].
  destruct (Vh a Ha) as [Fa Ra]. destruct (Vh b Hb) as [Fb Rb]. 
  assert (Fn : is_finite (fn : f64) = true) by (rewrite <- Ea; exact Fa). assert (Fx : is_finite (fx : f64) = true) by (rewrite <- Eb; exact Fb).
  split; [exact Fn|]. split; [exact Fx|].
  assert (Rn : B2R (fn : f64) = rz E a) by (rewrite <- Ea; exact Ra). assert (Rx : B2R (fx : f64) = rz E b) by (rewrite <- Eb; exact Rb).
  destruct Lo as [(u & Hu & Eu) Lu]. destruct Hi as [(w & Hw & Ew) Lw].
  assert (Le : forall x y : f64, is_finite x = true -> is_finite y = true -> Bleb x y = true -> B2R x <= B2R y).
  { intros x y X Y H. rewrite Bleb_correct in H by assumption. destruct (Rle_bool_spec (B2R x) (B2R y)); [assumption|discriminate]. }
  split.
  - apply Rle_antisym; [|rewrite Rn; now apply Lu]. rewrite <- Eu, <- (proj2 (Vh u Hu)). apply Le; [exact Fn|apply Vh; exact Hu|]. exact (La u Hu).
  - apply Rle_antisym; [rewrite Rx; now apply Lw|]. rewrite <- Ew, <- (proj2 (Vh w Hw)). apply Le; [apply Vh; exact Hw|exact Fx|]. exact (Lb w Hw).
Qed.

Variables (U : @env AE) (s : @settings AE) (jobs : list (@job AE)).
Hypotheses (HU : legal U) (ELH : s_layerHeight s = LH) (BL : / 10 ^ 4 <= B2R LH)
  (Hs : s_supportsOn s = false) (Hj : slicing_jobs U m (@axisZ AE) s = Ok jobs).

(** number of layers *)
Definition about (n : Z) : Prop := (mx - mn) / B2R LH - / 10 ^ 6 <= IZR n < (mx - mn) / B2R LH + 1 + / 10 ^ 6.

Lemma jobs_float : exists n, about n /\ length jobs = Z.to_nat n /\
  forall i j, nth_error jobs i = Some j ->
    (0 < n)%Z /\ j_order j = Z.of_nat i /\ pl_n (j_plane j) = @axisZ AE /\ incl (j_triangles j) m /\
    exists h : f64, is_finite h = true /\ same (dot (p2v (pl_p (j_plane j))) (@axisZ AE)) h /\
      Rabs (B2R h - nominal mn mx n i) <= drift i /\ mn - 1 <= B2R h <= mx + 1.
Proof.
  destruct extent_R as (fn & fx & Ex & Fn & Fx & En & Exx).
  assert (Bm : -10000 <= mn <= 10000 /\ -10000 <= mx <= 10000).
  { destruct Lo as [(u & Hu & Eu) _]. destruct Hi as [(w & Hw & Ew) _]. rewrite Forall_forall in Hv.
    destruct (Hv u Hu) as (_ & _ & _ & B1). destruct (Hv w Hw) as (_ & _ & _ & B2). rewrite Eu in B1. rewrite Ew in B2.
    apply Rabs_le_inv in B1, B2. lra. }
  set (h := f64_sub fx fn).
  destruct (fsub_ok fx fn Fx Fn) as [Fh Eh]; [rewrite En, Exx; unfold big; apply Rabs_le; lra|]. fold h in Fh, Eh. rewrite En, Exx in Eh.
  rewrite (Rabs_pos_eq (mx - mn)) in Eh by lra.
  assert (Eh' : Rabs (B2R h - (mx - mn)) <= 5 / 10 ^ 12) by (unfold ue, eta in Eh; lra). clear Eh. apply Rabs_le_inv in Eh'.
  (* the number of layers *)
  assert (PL : 0 < B2R LH) by (assert (0 < / 10 ^ 4) by (apply Rinv_0_lt_compat; lra); lra).
  assert (IL : 0 < / B2R LH) by now apply Rinv_0_lt_compat.
  assert (IL' : / B2R LH <= 10 ^ 4) by (rewrite <- (Rinv_inv (10 ^ 4)); apply Rinv_le_contravar; [apply Rinv_0_lt_compat; lra|exact BL]).
  set (a := (mx - mn) / B2R LH). assert (Ba : 0 <= a <= 2 * 10 ^ 8).
  { unfold a, Rdiv. split; [apply Rmult_le_pos; lra|]. apply Rle_trans with (20000 * 10 ^ 4); [apply Rmult_le_compat; lra|lra]. }
  assert (Dh : Rabs (B2R h / B2R LH - a) <= 5 / 10 ^ 8).
  { unfold a. replace (B2R h / B2R LH - (mx - mn) / B2R LH) with ((B2R h - (mx - mn)) * / B2R LH) by (field; lra).
    replace (5 / 10 ^ 8) with (5 / 10 ^ 12 * 10 ^ 4) by lra. apply small_prod; [apply Rabs_le; lra|rewrite Rabs_pos_eq; lra]. }
  apply Rabs_le_inv in Dh.
  assert (Bq : Rabs (B2R h / B2R LH) <= 21 / 10 * 10 ^ 8) by (apply Rabs_le; lra).
  destruct (fdiv_ok h LH Fh) as [Fc Ec]; [lra|unfold big; lra|]. set (c := f64_div h LH) in *.
  assert (Ec' : Rabs (B2R c - B2R h / B2R LH) <= 5 / 10 ^ 8) by (unfold ue, eta in Ec; lra). clear Ec. apply Rabs_le_inv in Ec'.
  destruct (Bnearbyint_correct 53 1024 _ mode_UP c) as (K1 & K2 & _). rewrite round_FIX_IZR in K1. cbn [round_mode] in K1.
  pose proof (Zceil_ub (B2R c)) as U1. pose proof (Zceil_lb (B2R c)) as U2.
  set (n := Zceil (B2R c)) in *.
  assert (Ln : layer_number m (@axisZ AE) s = n).
  { unfold layer_number. rewrite Ex, ELH. change (f64_toZ (Bnearbyint mode_UP c) = n).
    apply toZ_int; [rewrite K2; exact Fc|exact K1|].
    split; [apply le_IZR|apply lt_IZR]; [change (IZR (- 2 ^ 63)) with (-9223372036854775808)|change (IZR (2 ^ 63)) with 9223372036854775808]; lra. }
  exists n. split; [unfold about; fold a; lra|].
  assert (Blt : Bltb fn fx = true) by (rewrite Bltb_correct by assumption; apply Rlt_bool_true; lra).
  assert (Hvf : Forall (pt_fin E) (vertices m)) by (eapply Forall_impl; [|exact Hv]; intros p; apply sized_fin).
  pose proof (C22_handed_float E U m s fn fx jobs HU Hm Hvf Ex Blt Fh Hs Hj) as Tri.
  pose proof Hj as Ej. unfold slicing_jobs in Ej. rewrite (norm_axisZ E), Ex, Hs, Ln in Ej.
  destruct (Z.ltb_spec n 0) as [|Hn]; [discriminate|]. cbn [rbind] in Ej.
  set (Zv := @axisZ AE) in *. set (sh := @vscale AE (@vscale AE Zv (@nsub AE fx fn)) (@ndiv AE (@n1 AE) (@nofZ AE n))) in *.
  set (p0 := @pshift AE (v2p (@vscale AE Zv fn)) (@vscale AE sh (@nlit AE 5 10))) in *. injection Ej as Ej.
  destruct (sweep_shape Zv sh (Z.to_nat n) 0 p0 [] ([] ++ u_asc U Zv m)) as [Len Sh].
  assert (Len' : length jobs = Z.to_nat n) by (rewrite <- Ej; exact Len).
  split; [exact Len'|]. intros i j Hji.
  assert (Hi' : (i < Z.to_nat n)%nat) by (rewrite <- Len'; apply nth_error_Some; congruence).
  assert (N0 : (0 < n)%Z) by lia.
  split; [exact N0|]. pose proof Hji as Hji'. rewrite <- Ej in Hji'. destruct (Sh i j Hji') as [O P]. split; [rewrite O; lia|].
  rewrite P. cbn [pl_n pl_p]. split; [reflexivity|]. split.
  { destruct (Tri i j Hji) as (rest & Pm & _). intros t Ht. eapply Permutation_in; [exact (Permutation_sym Pm)|]. apply in_or_app. now left. }
  (* the step *)
  destruct (inv_close n N0) as [Fq Eq]; [lra|]. set (q := f64_div one64 (f64_ofZ n)) in *. apply Rabs_le_inv in Eq.
  assert (In0 : 0 < / IZR n) by (apply Rinv_0_lt_compat; apply IZR_lt; exact N0).
  assert (In1 : / IZR n <= 1) by (rewrite <- Rinv_1; apply Rinv_le_contravar; [lra|apply IZR_le; lia]).
  set (st := (mx - mn) / IZR n). assert (Est : st = (mx - mn) * / IZR n) by reflexivity.
  assert (Bst : 0 <= st <= 20000) by (rewrite Est; split; [apply Rmult_le_pos; lra|apply Rle_trans with (20000 * 1); [apply Rmult_le_compat; lra|lra]]).
  assert (Hq : Rabs (B2R h * B2R q - st) <= 16 / 10 ^ 12).
  { rewrite Est. replace (B2R h * B2R q - (mx - mn) * / IZR n) with (B2R h * (B2R q - / IZR n) + (B2R h - (mx - mn)) * / IZR n) by ring.
    eapply Rle_trans; [apply Rabs_triang|].
    assert (Rabs (B2R h * (B2R q - / IZR n)) <= 20001 * (5 / 10 ^ 16)) by (apply small_prod; apply Rabs_le; lra).
    assert (Rabs ((B2R h - (mx - mn)) * / IZR n) <= 5 / 10 ^ 12 * 1) by (apply small_prod; apply Rabs_le; lra). lra. }
  apply Rabs_le_inv in Hq.
  assert (Bhq : Rabs (B2R h * B2R q) <= 20001) by (apply Rabs_le; lra).
  destruct (fmul_ok h q Fh Fq) as [FS ES]; [unfold big; lra|]. 
  assert (Vz : vz sh = f64_mul h q).
  { change (f64_mul (f64_mul one64 h) q = f64_mul h q). now rewrite one_mul. }
  set (S := f64_mul h q) in *.
  assert (ES' : Rabs (B2R S - st) <= 201 / 10 ^ 13).
  { assert (Rabs (B2R S - B2R h * B2R q) <= 41 / 10 ^ 13) by (unfold ue, eta in ES; lra). apply Rabs_le_inv in H. apply Rabs_le. lra. }
  clear ES. apply Rabs_le_inv in ES'.
  assert (Zero : zr (B754_zero false)) by (eexists; reflexivity).
  assert (Sx : zr (vx sh)) by (apply zr_mul; [apply zr_mul; [exact Zero|exact Fh]|exact Fq]).
  assert (Sy : zr (vy sh)) by (apply zr_mul; [apply zr_mul; [exact Zero|exact Fh]|exact Fq]).
  destruct half_R as [Rh Fhf].
  assert (Bhf : Rabs (B2R S * / 2) <= 20001) by (apply Rabs_le; lra).
  destruct (fmul_ok S (f64_lit 5 10) FS Fhf) as [FH EH]; [rewrite Rh; unfold big; lra|]. rewrite Rh in EH. set (hs := f64_mul S (f64_lit 5 10)) in *.
  assert (EH' : Rabs (B2R hs - B2R S * / 2) <= 41 / 10 ^ 13) by (unfold ue, eta in EH; lra). clear EH. apply Rabs_le_inv in EH'.
  assert (Nom : forall k, (k < Z.to_nat n)%nat -> mn <= nominal mn mx n k <= mx).
  { intros k Hk. unfold nominal. fold st.
    assert (Ik : 0 <= INR k + / 2 <= IZR n).
    { pose proof (pos_INR k). assert (INR k + 1 <= IZR n) by (rewrite INR_IZR_INZ, <- plus_IZR; apply IZR_le; lia). lra. }
    assert (Tot : IZR n * st = mx - mn) by (unfold st; field; apply not_0_IZR; lia).
    assert (0 <= (INR k + / 2) * st) by (apply Rmult_le_pos; lra).
    assert ((INR k + / 2) * st <= IZR n * st) by (apply Rmult_le_compat_r; lra). lra. }
  assert (Dr : forall k, (k < Z.to_nat n)%nat -> 0 <= drift k <= 1 / 100).
  { intros k Hk. unfold drift. pose proof (pos_INR k). assert (INR k + 1 <= IZR n) by (rewrite INR_IZR_INZ, <- plus_IZR; apply IZR_le; lia).
    split; [apply Rmult_le_pos; lra|]. apply Rle_trans with (IZR n * (25 / 10 ^ 12)); [apply Rmult_le_compat_r; lra|]. lra. }
  assert (St : forall k, (k < Z.to_nat n)%nat -> zr (px (at_step sh p0 k)) /\ zr (py (at_step sh p0 k)) /\
    is_finite (pz (at_step sh p0 k) : f64) = true /\ Rabs (B2R (pz (at_step sh p0 k) : f64) - nominal mn mx n k) <= drift k).
  { induction k as [|k IH]; intros Hk.
    - change (at_step sh p0 0) with p0. split; [|split].
      + apply zr_add; [apply zr_mul; [exact Zero|exact Fn]|apply zr_mul; [exact Sx|exact Fhf]].
      + apply zr_add; [apply zr_mul; [exact Zero|exact Fn]|apply zr_mul; [exact Sy|exact Fhf]].
      + assert (Pz : pz p0 = f64_add fn hs).
        { change (f64_add (f64_mul one64 fn) (f64_mul (vz sh) (f64_lit 5 10)) = f64_add fn hs). rewrite one_mul by exact Fn. now rewrite Vz. }
        rewrite Pz. specialize (Nom 0%nat Hk). unfold nominal in *. fold st in Nom |- *. cbn [INR] in *.
        assert (Ba0 : Rabs (B2R fn + B2R hs) <= 10001) by (rewrite En; apply Rabs_le; lra).
        destruct (fadd_ok fn hs Fn FH) as [F E0]; [unfold big; lra|]. split; [exact F|]. rewrite En in *.
        assert (E0' : Rabs (B2R (f64_add fn hs) - (mn + B2R hs)) <= 21 / 10 ^ 13) by (unfold ue, eta in E0; lra). apply Rabs_le_inv in E0'.
        unfold drift. cbn [INR]. apply Rabs_le. lra.
    - assert (Hk' : (k < Z.to_nat n)%nat) by lia. destruct (IH Hk') as (IX & IY & IF & IZ).
      change (at_step sh p0 (Datatypes.S k)) with (pshift (at_step sh p0 k) sh). split; [|split].
      + now apply zr_add.
      + now apply zr_add.
      + set (zk := pz (at_step sh p0 k) : f64) in *.
        assert (Pz : pz (pshift (at_step sh p0 k) sh) = f64_add zk S) by (rewrite <- Vz; reflexivity). rewrite Pz.
        pose proof (Dr k Hk') as D0. pose proof (Nom (Datatypes.S k) Hk) as N1.
        assert (NS : nominal mn mx n (Datatypes.S k) = nominal mn mx n k + st) by (unfold nominal; fold st; rewrite S_INR; ring).
        apply Rabs_le_inv in IZ.
        assert (Bk : Rabs (B2R zk + B2R S) <= 10001) by (apply Rabs_le; lra).
        destruct (fadd_ok zk S IF FS) as [F E0]; [unfold big; lra|]. split; [exact F|].
        assert (E0' : Rabs (B2R (f64_add zk S) - (B2R zk + B2R S)) <= 21 / 10 ^ 13) by (unfold ue, eta in E0; lra). apply Rabs_le_inv in E0'.
        rewrite NS. unfold drift in IZ |- *. rewrite S_INR. apply Rabs_le. lra. }
  destruct (St i Hi') as (IX & IY & IF & IZ). exists (pz (at_step sh p0 i)). split; [exact IF|]. split.
  { apply hz_axisZ; try assumption. destruct (pz (at_step sh p0 i) : f64); auto; discriminate. }
  split; [exact IZ|]. pose proof (Dr i Hi'). pose proof (Nom i Hi'). apply Rabs_le_inv in IZ. lra.
Qed.
End Heights.

Lemma slice_float (m : @mesh AE) (mn mx : R) (U : @env AE) (s : @settings AE) (ls : list (@layer AE)) :
  legal U -> m <> [] -> Forall (sized E 10000) (vertices m) -> bottom_of E m mn -> top_of E m mx -> mn < mx ->
  / 10 ^ 4 <= B2R (s_layerHeight s : f64) -> s_supportsOn s = false ->
  sliceByVector U m (@axisZ AE) s = Ok ls ->
  exists n d, about (s_layerHeight s) mn mx n /\ (d <= 1)%nat /\
    forall k l, nth_error ls k = Some l -> l_order l = Z.of_nat (k + d) /\ (k + d < Z.to_nat n)%nat /\
      exists h, Rabs (h - nominal mn mx n (k + d)) <= drift (k + d) /\
        forall p q, In p (l_paths l) -> In q p -> cut_point E tol m h q.
Proof.
  intros HU Hm Hv Lo Hi Lt BL Hs E0.
  destruct (C25_trim AE U m (@axisZ AE) s ls HU Hm E0) as (jobs & full & a & b & Ej & F & O & Ef & La & _).
  destruct (jobs_float m (s_layerHeight s) mn mx Hm Hv Lo Hi Lt U s jobs HU eq_refl BL Hs Ej) as (n & An & Ln & K).
  exists n, (length a). split; [exact An|]. split; [exact La|]. intros k l Hl.
  assert (Hf : nth_error full (k + length a) = Some l).
  { rewrite Ef, nth_error_app2 by lia. replace (k + length a - length a)%nat with k by lia. rewrite nth_error_app1; [exact Hl|].
    apply nth_error_Some. congruence. }
  set (i := (k + length a)%nat) in *.
  assert (Hj : exists j, nth_error jobs i = Some j /\ slicingWorker U j = Ok l).
  { clearbody i. clear -F Hf. revert i Hf. induction F as [|x y jobs full H F IH]; intros [|i]; cbn; try discriminate; [|apply IH].
    intros [= <-]. eauto. }
  destruct Hj as (j & Hj & W). destruct (K i j Hj) as (N0 & Oj & Nj & Tj & h & Fh & Sh & Eh & _).
  destruct (worker_ok U j (lg_ends U HU)) as (o & J & W'). rewrite W in W'. injection W' as ->. cbn [l_order l_paths].
  split; [exact Oj|]. split; [rewrite <- Ln; apply nth_error_Some; congruence|].
  exists (B2R h). split; [exact Eh|]. intros p q Hp Hq.
  pose proof (join_points (u_ends U) _ _ (lg_ends U HU) (sections_nonempty _ _) J p q Hp Hq) as Hc.
  apply in_concat in Hc. destruct Hc as (x & Hx & Hqx). unfold sections in Hx. apply in_flat_map in Hx. destruct Hx as (t & Ht & Hx).
  destruct (intersectTriangle (j_plane j) t) as [ln|] eqn:Et; [|destruct Hx]. destruct Hx as [<-|[]].
  pose proof (Tj t Ht) as Htm.
  assert (V : forall v, In v [t1 t; t2 t; t3 t] -> sized E 10000 v).
  { intros v Hin. rewrite Forall_forall in Hv. apply Hv. unfold vertices. apply in_flat_map. exists t. split; assumption. }
  eapply (tri_cut (j_plane j) h Nj Fh Sh m t ln q Htm); try exact Et; try exact Hqx; apply V; cbn; auto.
Qed.
End F.
