(** * The sweep in float64, slicing along the z axis (C22) *)
From Coq Require Import ZArith Reals Lra Lia List Bool Permutation Sorted PeanoNat.
From Flocq Require Import Core.Core IEEE754.BinarySingleNaN.
From Verif Require Import Arith ArithF64 F64Facts Prim Path GeomSpec MeshProofs Helpers Slicer SlicerClaims SlicerProofs.
Import ListNotations.
Close Scope Z_scope.
Close Scope num_scope.
Close Scope string_scope.
Local Open Scope R_scope.

Definition zr (x : f64) : Prop := exists s, x = B754_zero s.
(** equal up to the sign of zero *)
Definition same (x y : f64) : Prop := x = y \/ (zr x /\ zr y).

Lemma same_leb a b c d : same a b -> same c d -> Bleb a c = Bleb b d.
Proof.
  intros [->|[(s & ->) (s' & ->)]] [->|[(r & ->) (r' & ->)]]; try reflexivity;
    try (destruct b as [?|[|]| |[|]]; reflexivity); destruct d as [?|[|]| |[|]]; reflexivity.
Qed.

Lemma zr_mul x y : zr x -> is_finite y = true -> zr (f64_mul x y).
Proof. intros (s & ->) F. destruct y as [r|r| |r]; try discriminate; cbn; eexists; reflexivity. Qed.
Lemma zr_add x y : zr x -> zr y -> zr (f64_add x y).
Proof. intros (s & ->) (r & ->). destruct s, r; cbn; eexists; reflexivity. Qed.
Lemma add_zr x y : zr x -> same (f64_add x y) y.
Proof.
  intros (s & ->). destruct y as [r|r| |r m e b]; cbn.
  - right. destruct s, r; split; eexists; reflexivity.
  - left; reflexivity.
  - left; reflexivity.
  - left; reflexivity.
Qed.

Definition one64 : f64 := f64_lit 1 1.
Lemma one_R : B2R one64 = 1 /\ is_finite one64 = true /\ Bsign one64 = false.
Proof.
  pose proof (binary_normalize_correct 53 1024 _ _ mode_NE 1 0 false) as C. cbn [round_mode] in C.
  replace (F2R (Float radix2 1 0)) with 1 in C by (unfold F2R; cbn; lra).
  change one64 with (binary_normalize 53 1024 _ _ mode_NE 1 0 false).
  assert (R1 : rnd64 1 = 1).
  { apply round_generic; [typeclasses eauto|]. apply (generic_format_bpow' radix2 fexp64 0). cbn. lia. }
  rewrite R1 in C. rewrite Rlt_bool_true in C.
  - destruct C as (C1 & C2 & C3). split; [exact C1|]. split; [exact C2|]. rewrite C3. now rewrite Rcompare_Gt by lra.
  - rewrite Rabs_R1. change 1 with (bpow radix2 0). apply bpow_lt. lia.
Qed.

Lemma mul_one x : is_nan x = false -> f64_mul x one64 = x.
Proof.
  intros N. destruct (is_finite x) eqn:F.
  - pose proof (Bmult_correct 53 1024 _ _ mode_NE x one64) as C. cbn [round_mode] in C. fold (f64_mul x one64) in C.
    destruct one_R as (R1 & F1 & S1). rewrite R1, Rmult_1_r, rnd_B2R in C.
    rewrite Rlt_bool_true in C by apply abs_B2R_lt_emax. rewrite F, F1, S1, xorb_false_r in C.
    destruct C as (C1 & C2 & C3). apply B2R_Bsign_inj; auto. apply C3. destruct (f64_mul x one64); auto; discriminate.
  - destruct x as [?|[|]| |]; try discriminate; reflexivity.
Qed.

Lemma positive_R (x : f64) : is_finite x = true -> 0 < B2R x -> positive x.
Proof.
  destruct x as [s|s| |[|] m e b]; cbn -[F2R]; intros F H; try discriminate; try exact I; try lra.
  assert (F2R (Float radix2 (Z.neg m) e) < 0) by now apply F2R_lt_0. cbn in H, H0. lra.
Qed.

Lemma ofZ_pos (n : Z) : (0 < n < 2 ^ 63)%Z -> positive (f64_ofZ n) /\ 1 <= B2R (f64_ofZ n).
Proof.
  intros Hn. pose proof (binary_normalize_correct 53 1024 _ _ mode_NE n 0 false) as C. cbn [round_mode] in C.
  fold (f64_ofZ n) in C. replace (F2R (Float radix2 n 0)) with (IZR n) in C by (unfold F2R; cbn; lra).
  assert (G1 : rnd64 (bpow radix2 0) = bpow radix2 0) by (apply round_generic; [typeclasses eauto|apply generic_format_bpow'; [typeclasses eauto|cbn; lia]]).
  assert (G2 : rnd64 (bpow radix2 63) = bpow radix2 63) by (apply round_generic; [typeclasses eauto|apply generic_format_bpow'; [typeclasses eauto|cbn; lia]]).
  assert (L1 : 1 <= rnd64 (IZR n)).
  { change 1 with (bpow radix2 0). rewrite <- G1. apply round_le; [typeclasses eauto..|]. cbn. apply IZR_le. lia. }
  assert (L2 : rnd64 (IZR n) <= bpow radix2 63).
  { rewrite <- G2. apply round_le; [typeclasses eauto..|]. rewrite <- (IZR_Zpower radix2) by lia. apply IZR_le. cbn. lia. }
  rewrite Rlt_bool_true in C.
  - destruct C as (C1 & C2 & _). split; [apply positive_R; [exact C2|lra]|lra].
  - rewrite Rabs_pos_eq by lra. eapply Rle_lt_trans; [exact L2|]. apply bpow_lt. lia.
Qed.

Lemma inv_ok y : positive y -> 1 <= B2R y -> nonneg (f64_div one64 y) /\ is_finite (f64_div one64 y) = true.
Proof.
  intros Py Ry. destruct one_R as (R1 & F1 & S1). split.
  - apply div_nonneg; [|exact Py]. apply finite_nonneg; [exact F1|lra].
  - pose proof (Bdiv_correct 53 1024 _ _ mode_NE one64 y ltac:(lra)) as C. cbn [round_mode] in C. fold (f64_div one64 y) in C.
    rewrite R1 in C. rewrite Rlt_bool_true in C; [destruct C as (_ & C2 & _); congruence|].
    assert (0 <= 1 / B2R y <= 1).
    { split; [apply Rle_mult_inv_pos; lra|]. apply Rmult_le_reg_r with (B2R y); [lra|]. unfold Rdiv. rewrite Rmult_assoc, Rinv_l by lra. lra. }
    rewrite Rabs_pos_eq by (apply rnd_nonneg; lra).
    assert (G1 : rnd64 (bpow radix2 0) = bpow radix2 0) by (apply round_generic; [typeclasses eauto|apply generic_format_bpow'; [typeclasses eauto|cbn; lia]]).
    eapply Rle_lt_trans; [apply round_le with (y := bpow radix2 0); [typeclasses eauto..|cbn; lra]|]. rewrite G1.
    apply bpow_lt. lia.
Qed.

Lemma mul_nonneg_fin x y : nonneg x -> nonneg y -> is_finite x = true -> is_finite y = true -> nonneg (f64_mul x y).
Proof.
  intros Hx Hy Fx Fy. pose proof (B2R_nonneg x Hx) as Rx. pose proof (B2R_nonneg y Hy) as Ry.
  pose proof (Bmult_correct 53 1024 _ _ mode_NE x y) as C. cbn [round_mode] in C. fold (f64_mul x y) in C.
  destruct (Rlt_bool_spec (Rabs (rnd64 (B2R x * B2R y))) (bpow radix2 1024)) as [L|L].
  - destruct C as (C1 & C2 & _). apply finite_nonneg; [rewrite C2, Fx, Fy; reflexivity|].
    rewrite C1. apply rnd_nonneg. apply Rmult_le_pos; lra.
  - assert (Z : B2R x * B2R y <> 0).
    { intros E. rewrite E, round_0, Rabs_R0 in L by typeclasses eauto. pose proof (bpow_gt_0 radix2 1024). lra. }
    destruct (nonneg_sign x Hx) as [Sx|Zx]; [|exfalso; apply Z; rewrite Zx; ring].
    destruct (nonneg_sign y Hy) as [Sy|Zy]; [|exfalso; apply Z; rewrite Zy; ring].
    rewrite Sx, Sy in C. apply overflow_inf in C. rewrite C. exact I.
Qed.

Lemma sub_pos mx mn : is_finite mx = true -> is_finite mn = true -> Bltb mn mx = true -> is_finite (f64_sub mx mn) = true ->
  nonneg (f64_sub mx mn).
Proof.
  intros Fmx Fmn Hlt Hfin. apply finite_nonneg; [exact Hfin|].
  pose proof (Bminus_correct 53 1024 _ _ mode_NE mx mn Fmx Fmn) as C. cbn [round_mode] in C.
  fold (f64_sub mx mn) in C. rewrite Bltb_correct in Hlt by assumption.
  destruct (Rlt_bool_spec (B2R mn) (B2R mx)) as [Lt|]; [|discriminate].
  destruct (Rlt_bool _ _); [|destruct C as (C1 & _); apply overflow_inf in C1; rewrite C1 in Hfin; discriminate].
  destruct C as (C1 & _). rewrite C1. apply rnd_nonneg. lra.
Qed.
Lemma one_mul h : is_finite h = true -> f64_mul one64 h = h.
Proof.
  intros Hfin. destruct one_R as (R1 & F1 & S1).
  pose proof (Bmult_correct 53 1024 _ _ mode_NE one64 h) as C. cbn [round_mode] in C. fold (f64_mul one64 h) in C.
  rewrite R1, Rmult_1_l, rnd_B2R in C. rewrite Rlt_bool_true in C by apply abs_B2R_lt_emax.
  rewrite F1, S1, Hfin in C.
  destruct C as (C1 & C2 & C3). apply B2R_Bsign_inj; auto. rewrite C3; [apply xorb_false_l|]. destruct (f64_mul one64 h); auto; discriminate.
Qed.

(** not NaN and not -Inf *)
Definition good (x : f64) : Prop := is_nan x = false /\ x <> B754_infinity true.
Lemma nonneg_good x : nonneg x -> good x.
Proof. destruct x as [?|[|]| |[|]]; cbn; intros H; try contradiction; split; auto; discriminate. Qed.
Lemma finite_good x : is_finite x = true -> good x.
Proof. destruct x as [?|[|]| |[|]]; cbn; intros H; try discriminate; split; auto; discriminate. Qed.

Lemma add_up z s : good z -> nonneg s -> good (f64_add z s) /\ Bleb z (f64_add z s) = true.
Proof.
  intros [N I] Hs. destruct (is_finite z) eqn:Fz.
  2:{ destruct z as [?|[|]| |]; try discriminate; [congruence|]. destruct s as [?|[|]| |[|]]; cbn in *; try contradiction;
      (split; [split; [auto|discriminate]|reflexivity]). }
  destruct (nonneg_cases s Hs) as [->|Fs].
  { destruct z as [r|[|]| |[|] m e b]; cbn in *; try discriminate; (split; [split; [auto|discriminate]|reflexivity]). }
  pose proof (B2R_nonneg s Hs) as Rs.
  pose proof (Bplus_correct 53 1024 _ _ mode_NE z s Fz Fs) as C. cbn [round_mode] in C. fold (f64_add z s) in C.
  destruct (Rlt_bool_spec (Rabs (rnd64 (B2R z + B2R s))) (bpow radix2 1024)) as [L|L].
  - destruct C as (C1 & C2 & _). split; [now apply finite_good|].
    rewrite Bleb_correct by assumption. apply Rle_bool_true. rewrite C1, <- (rnd_B2R z) at 1.
    apply round_le; [typeclasses eauto..|lra].
  - destruct C as (C1 & C2). destruct (nonneg_sign s Hs) as [S|Z].
    + rewrite C2, S in C1. apply overflow_inf in C1. rewrite C1. split; [split; [auto|discriminate]|].
      apply Bleb_iff. right. left. auto.
    + exfalso. rewrite Z, Rplus_0_r, rnd_B2R in L. pose proof (abs_B2R_lt_emax 53 1024 z). lra.
Qed.

Section F.
Variable E : elem.
Let AE := ArithF64 E.
Existing Instance AE.
Notation pt := (@point AE).

Lemma norm_axisZ : normalize (@axisZ AE) = @axisZ AE.
Proof.
  unfold normalize, axisZ. change (@neqb AE (vlen (V3 n0 n0 n1)) n0) with (Beqb (@vlen AE (@V3 AE (@n0 AE) (@n0 AE) (@n1 AE))) (@n0 AE)).
  replace (Beqb _ _) with false by (vm_compute; reflexivity).
  cbn [vx vy vz]. f_equal; apply B2SF_inj; vm_compute; reflexivity.
Qed.

(** the height of a point of the sweep along the z axis *)
Lemma hz_axisZ (p : pt) : zr (px p) -> zr (py p) -> is_nan (pz p : f64) = false -> same (hz (@axisZ AE) p) (pz p).
Proof.
  intros Hx Hy Hz. unfold hz, dot, p2v, axisZ. cbn [vx vy vz].
  assert (F0 : is_finite (@n0 AE : f64) = true) by (vm_compute; reflexivity).
  change (same (f64_add (f64_add (f64_mul (px p) (@n0 AE)) (f64_mul (py p) (@n0 AE))) (f64_mul (pz p) one64)) (pz p)).
  rewrite mul_one by exact Hz. apply add_zr, zr_add; now apply zr_mul.
Qed.

(** the height of a vertex *)
Lemma vertex_axisZ (p : pt) : is_finite (px p : f64) = true -> is_finite (py p : f64) = true -> is_finite (pz p : f64) = true ->
  same (dot (p2v p) (@axisZ AE)) (pz p).
Proof.
  intros Hx Hy Hz. unfold dot, p2v, axisZ. cbn [vx vy vz].
  assert (F0 : forall x : f64, is_finite x = true -> zr (f64_mul x (@n0 AE))).
  { intros x. change (@n0 AE) with (B754_zero false : f64). destruct x as [s|s| |s m e b]; try discriminate; cbn; eexists; reflexivity. }
  change (same (f64_add (f64_add (f64_mul (px p) (@n0 AE)) (f64_mul (py p) (@n0 AE))) (f64_mul (pz p) one64)) (pz p)).
  rewrite mul_one by (destruct (pz p : f64); auto; discriminate). apply add_zr, zr_add; now apply F0.
Qed.

Definition pt_fin (p : pt) : Prop := is_finite (px p : f64) = true /\ is_finite (py p : f64) = true /\ is_finite (pz p : f64) = true.

Theorem jobs_axisZ (U : @env AE) (m : @mesh AE) (s : @settings AE) (mn mx : f64) jobs :
  legal U -> m <> [] -> Forall pt_fin (vertices m) -> m_minMaxZ m (@axisZ AE) = (mn, mx) ->
  Bltb mn mx = true -> is_finite (f64_sub mx mn) = true -> s_supportsOn s = false ->
  slicing_jobs U m (@axisZ AE) s = Ok jobs ->
  length jobs = Z.to_nat (layer_number m (@axisZ AE) s) /\
  forall i j, nth_error jobs i = Some j -> j_order j = Z.of_nat i /\ pl_n (j_plane j) = @axisZ AE /\
    let z := hz (@axisZ AE) (pl_p (j_plane j)) in same z (pz (pl_p (j_plane j))) /\ plain z /\
    pruned (fun t => nleb z (t_maxZ t (@axisZ AE)) = false)
        (filter (fun t => nleb (t_minZ t (@axisZ AE)) z) (u_asc U (@axisZ AE) m)) (j_triangles j).
Proof.
  intros HU Hm Hv Ex Hlt Hfin Hs. unfold slicing_jobs. rewrite norm_axisZ, Ex, Hs.
  set (n := layer_number m (@axisZ AE) s). destruct (Z.ltb_spec n 0) as [|Hn]; [discriminate|]. cbn [rbind].
  set (Zv := @axisZ AE). set (h := f64_sub mx mn). set (sh := @vscale AE (@vscale AE Zv h) (@ndiv AE (@n1 AE) (@nofZ AE n))).
  set (p0 := @pshift AE (v2p (@vscale AE Zv mn)) (@vscale AE sh (@nlit AE 5 10))). intros [= <-].
  destruct (sweep_shape Zv sh (Z.to_nat n) 0 p0 [] ([] ++ u_asc U Zv m)) as [Len Sh].
  split; [exact Len|]. intros i j Hj. destruct (Sh i j Hj) as [O P].
  assert (N0 : (0 < n)%Z).
  { destruct (Z.eq_dec n 0) as [E0|]; [|lia]. rewrite E0 in Hj. cbn in Hj. destruct i; discriminate. }
  assert (N1 : (n < 2 ^ 63)%Z).
  { unfold n, layer_number. rewrite Ex. change (f64_toZ (@nceil AE (@ndiv AE h (s_layerHeight s))) < 2 ^ 63)%Z.
    unfold f64_toZ. destruct (@nceil AE _) eqn:EE; try lia; destruct (_ && _) eqn:B; try lia; apply andb_true_iff in B; destruct B as [_ B]; apply Z.ltb_lt in B; exact B. }
  destruct (ofZ_pos n (conj N0 N1)) as [Pn Rn]. destruct (inv_ok _ Pn Rn) as [Qn Qf].
  set (q := f64_div one64 (f64_ofZ n)) in *.
  assert (Vh : forall v, In v (vertices m) -> same (dot (p2v v) Zv) (pz v) /\ is_finite (dot (p2v v) Zv : f64) = true).
  { intros v Hin. rewrite Forall_forall in Hv. destruct (Hv v Hin) as (Fx & Fy & Fz). pose proof (vertex_axisZ v Fx Fy Fz) as S.
    split; [exact S|]. destruct S as [Q|[(r & Q) _]]; unfold Zv; rewrite Q; auto. }
  destruct (minMax_ok (M := MinMaxF64 E) Zv m Hm) as [[(a & Ha & Ea) La] [(b & Hb & Eb) Lb]].
  { apply Forall_forall. intros v Hin. exact (proj2 (Vh v Hin)). }
  unfold Zv in Ea, La, Eb, Lb. fold AE in Ea, La, Eb, Lb. rewrite Ex in Ea, La, Eb, Lb. cbn [fst snd] in *. fold Zv in Ea, La, Eb, Lb.
  assert (Fmn : is_finite mn = true) by (rewrite <- Ea; apply Vh; exact Ha).
  assert (Fmx : is_finite mx = true) by (rewrite <- Eb; apply Vh; exact Hb).
  assert (Hh : nonneg h) by (apply sub_pos; auto).
  destruct one_R as (R1 & F1 & S1).
  assert (H1 : f64_mul one64 h = h) by (apply one_mul; exact Hfin).
  assert (Zero : zr (B754_zero false)) by (eexists; reflexivity).
  assert (Sx : zr (vx sh)) by (apply zr_mul; [apply zr_mul; [exact Zero|exact Hfin]|exact Qf]).
  assert (Sy : zr (vy sh)) by (apply zr_mul; [apply zr_mul; [exact Zero|exact Hfin]|exact Qf]).
  assert (Sz : nonneg (vz sh)).
  { change (nonneg (f64_mul (f64_mul one64 h) q)). rewrite H1. apply mul_nonneg_fin; auto. }
  destruct half_R as [Rh Fh].
  assert (Szh : nonneg (f64_mul (vz sh) (f64_lit 5 10))).
  { destruct (nonneg_cases _ Sz) as [->|F]; [vm_compute; exact I|]. apply mul_nonneg_fin; auto. apply finite_nonneg; [exact Fh|]. rewrite Rh. lra. }
  assert (P0 : zr (px p0) /\ zr (py p0) /\ good (pz p0)).
  { repeat split.
    - apply zr_add; [apply zr_mul; [exact Zero|exact Fmn]|apply zr_mul; [exact Sx|exact Fh]].
    - apply zr_add; [apply zr_mul; [exact Zero|exact Fmn]|apply zr_mul; [exact Sy|exact Fh]].
    - change (is_nan (f64_add (f64_mul one64 mn) (f64_mul (vz sh) (f64_lit 5 10))) = false). refine (proj1 (proj1 (add_up _ _ _ Szh))).
      rewrite one_mul by exact Fmn. now apply finite_good.
    - change (f64_add (f64_mul one64 mn) (f64_mul (vz sh) (f64_lit 5 10)) <> B754_infinity true). refine (proj2 (proj1 (add_up _ _ _ Szh))).
      rewrite one_mul by exact Fmn. now apply finite_good. }
  assert (St : forall k, zr (px (at_step sh p0 k)) /\ zr (py (at_step sh p0 k)) /\ good (pz (at_step sh p0 k))).
  { induction k as [|k (IX & IY & IZ)]; [exact P0|].
    change (at_step sh p0 (S k)) with (pshift (at_step sh p0 k) sh). repeat split.
    - now apply zr_add.
    - now apply zr_add.
    - exact (proj1 (proj1 (add_up _ _ IZ Sz))).
    - exact (proj2 (proj1 (add_up _ _ IZ Sz))). }
  assert (Hz : forall k, same (hz Zv (at_step sh p0 k)) (pz (at_step sh p0 k))).
  { intros k. destruct (St k) as (IX & IY & IZ & _). now apply hz_axisZ. }
  split; [rewrite O; lia|]. rewrite P. cbn [pl_n pl_p]. split; [reflexivity|]. cbn zeta.
  split; [apply Hz|]. split.
  { unfold plain. change (Bleb (hz Zv (at_step sh p0 i)) (hz Zv (at_step sh p0 i)) = true).
    rewrite (same_leb _ _ _ _ (Hz i) (Hz i)). apply Bleb_nan. apply St. }
  assert (Pl : Forall (fun t => plain (t_minZ t Zv)) (u_asc U Zv m)).
  { apply Forall_forall. intros t Ht. apply (Permutation_in t (Permutation_sym (lg_asc U HU Zv m))) in Ht.
    assert (In3 : forall v, In v [t1 t; t2 t; t3 t] -> In v (vertices m)).
    { intros v Hin. unfold vertices. apply in_flat_map. exists t. split; auto. }
    destruct (tri_low (M := MinMaxF64 E) Zv t) as [(v & Hin & Ev) _].
    - apply Forall_forall. intros v Hin. apply Vh, In3, Hin.
    - unfold plain. change (Bleb (t_minZ t Zv) (t_minZ t Zv) = true). apply Bleb_nan.
      assert (Ev' : t_minZ t Zv = dot (p2v v) Zv) by (symmetry; exact Ev). rewrite Ev'.
      destruct (Vh v (In3 v Hin)) as [_ F]. now apply finite_good. }
  refine (sweep_handed Zv sh (Z.to_nat n) 0 p0 [] [] [] (u_asc U Zv m) _ _ _ _ Pl _ i j Hj); try constructor.
  - intros k _. change (Bleb (hz Zv (at_step sh p0 k)) (hz Zv (at_step sh p0 (S k))) = true).
    rewrite (same_leb _ _ _ _ (Hz k) (Hz (S k))). change (at_step sh p0 (S k)) with (pshift (at_step sh p0 k) sh).
    refine (proj2 (add_up _ _ _ Sz)). apply St.
  - apply (lg_sorted U HU). apply Forall_forall. intros t Ht. rewrite Forall_forall in Pl. apply Pl.
    eapply Permutation_in; [apply (lg_asc U HU)|exact Ht].
Qed.
End F.
