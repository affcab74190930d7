(** * Cut planes for horizontal ceilings: float64 *)
From Coq Require Import ZArith Reals Bool List Lra Lia.
From Flocq Require Import Core IEEE754.BinarySingleNaN.
From Verif Require Import Arith ArithF64 Prim Path Vip F64Facts SlicerFloat.
Close Scope R_scope.
Close Scope Z_scope.
Close Scope num_scope.

(** a number with a value *)
Definition val (x : f64) (r : R) : Prop := is_finite x = true /\ B2R x = r.
Definition isz (x : f64) : Prop := val x 0.

Lemma small (x : f64) : Rlt_bool (Rabs (B2R x)) (bpow radix2 1024) = true.
Proof. apply Rlt_bool_true, abs_B2R_lt_emax. Qed.
Lemma small0 : Rlt_bool (Rabs 0) (bpow radix2 1024) = true.
Proof. apply Rlt_bool_true. rewrite Rabs_R0. apply bpow_gt_0. Qed.

Lemma val_mul (x y z : f64) : is_finite x = true -> is_finite y = true -> (B2R x * B2R y = B2R z)%R -> val (f64_mul x y) (B2R z).
Proof.
  intros Fx Fy H. pose proof (Bmult_correct 53 1024 _ _ mode_NE x y) as C. cbn [round_mode] in C. rewrite H in C.
  assert (R : round radix2 (SpecFloat.fexp 53 1024) ZnearestE (B2R z) = B2R z) by exact (rnd_B2R z).
  rewrite R, small in C. destruct C as (C1 & C2 & _).
  split; [unfold f64_mul; rewrite C2, Fx, Fy; reflexivity|exact C1].
Qed.
Lemma val_div (x y z : f64) : is_finite x = true -> B2R y <> 0%R -> (B2R x / B2R y = B2R z)%R -> val (f64_div x y) (B2R z).
Proof.
  intros Fx Ny H. pose proof (Bdiv_correct 53 1024 _ _ mode_NE x y Ny) as C. cbn [round_mode] in C. rewrite H in C.
  assert (R : round radix2 (SpecFloat.fexp 53 1024) ZnearestE (B2R z) = B2R z) by exact (rnd_B2R z).
  rewrite R, small in C. destruct C as (C1 & C2 & _).
  split; [unfold f64_div; rewrite C2; exact Fx|exact C1].
Qed.
Lemma val_add (x y z : f64) : is_finite x = true -> is_finite y = true -> (B2R x + B2R y = B2R z)%R -> val (f64_add x y) (B2R z).
Proof.
  intros Fx Fy H. pose proof (Bplus_correct 53 1024 _ _ mode_NE x y Fx Fy) as C. cbn [round_mode] in C. rewrite H in C.
  assert (R : round radix2 (SpecFloat.fexp 53 1024) ZnearestE (B2R z) = B2R z) by exact (rnd_B2R z).
  rewrite R, small in C. destruct C as (C1 & C2 & _). now split.
Qed.
Lemma val_sub (x y z : f64) : is_finite x = true -> is_finite y = true -> (B2R x - B2R y = B2R z)%R -> val (f64_sub x y) (B2R z).
Proof.
  intros Fx Fy H. pose proof (Bminus_correct 53 1024 _ _ mode_NE x y Fx Fy) as C. cbn [round_mode] in C. rewrite H in C.
  assert (R : round radix2 (SpecFloat.fexp 53 1024) ZnearestE (B2R z) = B2R z) by exact (rnd_B2R z).
  rewrite R, small in C. destruct C as (C1 & C2 & _). now split.
Qed.

Definition zero64 : f64 := B754_zero false.
Lemma z_mul_l x y : isz x -> is_finite y = true -> isz (f64_mul x y).
Proof. intros [F H] Fy. apply (val_mul x y zero64 F Fy). rewrite H. cbn. ring. Qed.
Lemma z_mul_r x y : is_finite x = true -> isz y -> isz (f64_mul x y).
Proof. intros Fx [F H]. apply (val_mul x y zero64 Fx F). rewrite H. cbn. ring. Qed.
Lemma z_add x y : isz x -> isz y -> isz (f64_add x y).
Proof. intros [F H] [F' H']. apply (val_add x y zero64 F F'). rewrite H, H'. cbn. ring. Qed.
Lemma z_sub x y : isz x -> isz y -> isz (f64_sub x y).
Proof. intros [F H] [F' H']. apply (val_sub x y zero64 F F'). rewrite H, H'. cbn. ring. Qed.
Lemma z_opp x : isz x -> isz (Bopp x).
Proof. intros [F H]. split; [now rewrite is_finite_Bopp|]. rewrite B2R_Bopp, H. ring. Qed.
Lemma z_fin x : isz x -> is_finite x = true.
Proof. now intros []. Qed.
Lemma z_cases x : isz x -> exists s, x = B754_zero s.
Proof.
  intros [F H]. destruct x as [s|s| |s m e b]; try discriminate; [eauto|]. exfalso. cbn [B2R] in H.
  apply (F2R_neq_0 radix2 (Float radix2 (SpecFloat.cond_Zopp s (Zpos m)) e)); [destruct s; discriminate|exact H].
Qed.

Section E.
Variable E : elem.
#[local] Existing Instance ArithF64.
Let AE := ArithF64 E.

Definition vz3 (v : @vector AE) : Prop := isz (@vx AE v) /\ isz (@vy AE v) /\ isz (@vz AE v).

Lemma len2_zero v : vz3 v -> isz (@vlen2 AE v).
Proof. intros (a & b & c). unfold vlen2. cbn [nadd nmul AE ArithF64]. repeat apply z_add; apply z_mul_l; auto using z_fin. Qed.
Lemma len_zero v : vz3 v -> isz (@vlen AE v).
Proof.
  intros H. unfold vlen. destruct (z_cases _ (len2_zero v H)) as [s ->]. cbn [nsqrt AE ArithF64]. unfold f64_sqrt.
  destruct s; split; reflexivity.
Qed.
Lemma is_zero x : isz x -> Beqb x zero64 = true.
Proof. intros H. destruct (z_cases x H) as [s ->]. destruct s; reflexivity. Qed.

Lemma ceiling_flat (x y c : f64) : isz x -> isz y -> is_finite c = true ->
  vz3 (@projectOnPlane AE (V3 (A := AE) x y c) (@planeXY AE)).
Proof.
  intros Hx Hy Hc. unfold projectOnPlane, projectOn, planeXY. cbn [pl_n].
  assert (L : Beqb (@vlen2 AE (@axisZ AE)) (@n0 AE) = false) by (vm_compute; reflexivity).
  assert (L1 : @vlen2 AE (@axisZ AE) = one64) by (apply B2SF_inj; vm_compute; reflexivity).
  cbn [neqb AE ArithF64] in *. cbv zeta. unfold AE in *. cbn [neqb ArithF64]. rewrite L, L1.
  destruct one_R as (O1 & O2 & _).
  assert (Z0 : isz (@n0 AE)) by (split; reflexivity).
  unfold dot, axisZ. cbn [vx vy vz].
  set (d := nadd (nadd (nmul (@n0 AE) x) (nmul (@n0 AE) y)) (nmul (@n1 AE) c)).
  assert (Vd : val d (B2R c)).
  { destruct (val_mul one64 c c O2 Hc) as [F1 R1]; [rewrite O1; ring|].
    assert (Z1 : isz (f64_add (f64_mul (@n0 AE) x) (f64_mul (@n0 AE) y))) by (apply z_add; apply z_mul_l; auto using z_fin).
    apply (val_add _ (f64_mul one64 c) c (z_fin _ Z1) F1). destruct Z1 as [_ ->]. rewrite R1. ring. }
  destruct Vd as [Fd Rd].
  assert (Ve : val (f64_div d one64) (B2R c)).
  { rewrite <- Rd. apply val_div; [exact Fd|rewrite O1; lra|rewrite O1; field]. }
  change (ndiv d one64) with (f64_div d one64). set (e := f64_div d one64) in *. destruct Ve as [Fe Re].
  unfold vscale, vopp, vadd, vz3. cbn [vx vy vz]. split; [|split].
  - apply z_add; [exact Hx|]. apply z_opp, z_mul_l; assumption.
  - apply z_add; [exact Hy|]. apply z_opp, z_mul_l; assumption.
  - destruct (val_mul one64 e c O2 Fe) as [F1 R1]; [rewrite O1, Re; ring|].
    apply (val_add c (Bopp (f64_mul one64 e)) zero64 Hc); [now rewrite is_finite_Bopp|]. rewrite B2R_Bopp, R1. cbn. ring.
Qed.

(** the angle of a zero vector *)
Lemma angle_zero v : vz3 v -> e_acos E B754_nan = B754_nan -> @angle AE v (@axisX AE) = B754_nan.
Proof.
  intros H A. unfold angle. destruct (z_cases _ (len_zero v H)) as [s ->].
  assert (D : isz (@dot AE v (@axisX AE))).
  { destruct H as (a & b & c). unfold dot, axisX. cbn [vx vy vz].
    apply z_add; [apply z_add|]; apply z_mul_l; auto; vm_compute; reflexivity. }
  destruct (z_cases _ D) as [s' ->].
  assert (Q : f64_div (B754_zero s') (B754_zero s) = B754_nan) by (destruct s, s'; reflexivity).
  unfold AE. cbn [ndiv nltb nmul nacos ArithF64]. rewrite Q. 
  assert (Q2 : forall z, f64_div B754_nan z = B754_nan) by (intros []; reflexivity).
  assert (Q3 : forall z : f64, Bltb B754_nan z = false) by (intros []; reflexivity).
  assert (Q4 : forall z : f64, Bltb z B754_nan = false) by (intros [[]|[]| |[]]; reflexivity).
  rewrite !Q2, Q3, Q4. cbn [orb].
  rewrite A. reflexivity.
Qed.

(** turning a zero vector by finite sines and cosines *)
Lemma rotate_zero v rm : vz3 v -> (forall w, In w (rm_x rm :: rm_y rm :: rm_z rm :: nil) ->
    is_finite (@vx AE w) = true /\ is_finite (@vy AE w) = true /\ is_finite (@vz AE w) = true) ->
  vz3 (@vrotate AE v rm).
Proof.
  intros (a & b & c) H. unfold vrotate, vz3. cbn [vx vy vz].
  assert (G : forall w, In w (rm_x rm :: rm_y rm :: rm_z rm :: nil) -> isz (@dot AE v w)).
  { intros w Hw. destruct (H w Hw) as (h1 & h2 & h3). unfold dot. apply z_add; [apply z_add|]; apply z_mul_l; assumption. }
  repeat split; apply G; cbn; auto.
Qed.

Lemma about_zero a b ang : vz3 a -> vz3 b -> is_finite (e_cos E (@toRadians AE ang)) = true ->
  is_finite (e_sin E (@toRadians AE ang)) = true -> vz3 (@rotateAbout AE a b ang).
Proof.
  intros Ha Hb Hc Hs. unfold rotateAbout, projectOn.
  change (@neqb AE (@vlen2 AE b) (@n0 AE)) with (Beqb (@vlen2 AE b) zero64). rewrite (is_zero _ (len2_zero b Hb)). cbv zeta.
  assert (P : vz3 (@vsub AE a b)). { destruct Ha as (? & ? & ?), Hb as (? & ? & ?). unfold vsub, vz3. cbn [vx vy vz]. repeat split; now apply z_sub. }
  set (perp := @vsub AE a b) in *.
  assert (W : vz3 (@cross AE b perp)).
  { destruct Hb as (? & ? & ?), P as (? & ? & ?). unfold cross, vz3. cbn [vx vy vz].
    repeat split; apply z_sub; apply z_mul_l; auto using z_fin. }
  set (w := @cross AE b perp) in *.
  assert (N : @normalize AE w = w).
  { unfold normalize. change (@neqb AE (@vlen AE w) (@n0 AE)) with (Beqb (@vlen AE w) zero64). now rewrite (is_zero _ (len_zero w W)). }
  rewrite N.
  assert (SC : forall v k, vz3 v -> is_finite k = true -> vz3 (@vscale AE v k)).
  { intros v k (? & ? & ?) K. unfold vscale, vz3. cbn [vx vy vz]. repeat split; now apply z_mul_l. }
  assert (AD : forall u v, vz3 u -> vz3 v -> vz3 (@vadd AE u v)).
  { intros u v (? & ? & ?) (? & ? & ?). unfold vadd, vz3. cbn [vx vy vz]. repeat split; now apply z_add. }
  apply AD; [apply AD; [exact Hb|apply SC; assumption]|]. apply SC; [|exact Hs]. apply SC; [exact W|]. apply z_fin, (len_zero _ P).
Qed.

Lemma ceiling_plane p (x y c : f64) : isz x -> isz y -> is_finite c = true -> e_acos E B754_nan = B754_nan ->
  (forall d, is_finite d = true -> is_finite (e_sin E d) = true /\ is_finite (e_cos E d) = true) ->
  let q := @tilted_plane AE p (V3 (A := AE) x y c) in
  @ap_rotz AE q = B754_nan /\ vz3 (@pl_n AE (@ap_plane AE q)).
Proof.
  intros Hx Hy Hc Ha Ht q. pose proof (ceiling_flat x y c Hx Hy Hc) as F. subst q. unfold tilted_plane. cbv zeta. cbn [ap_rotz ap_plane pl_n].
  set (a := @projectOnPlane AE _ _) in *. split.
  - rewrite (angle_zero a F Ha). reflexivity.
  - assert (T90 : is_finite (@toRadians AE (@nofZ AE 90)) = true) by (vm_compute; reflexivity).
    assert (T30 : is_finite (@toRadians AE (@nsub AE (@nofZ AE 90) (@angleX AE))) = true) by (vm_compute; reflexivity).
    apply about_zero; [exact F| |apply Ht; exact T30|apply Ht; exact T30].
    apply rotate_zero; [exact F|]. unfold rotationAroundZ. cbn [rm_x rm_y rm_z]. destruct (Ht _ T90) as [S C].
    assert (Z : is_finite (@n0 AE) = true) by reflexivity. assert (O : is_finite (@n1 AE) = true) by reflexivity.
    assert (NS : is_finite (Bopp (e_sin E (@toRadians AE (@nofZ AE 90)))) = true) by now rewrite is_finite_Bopp.
    intros w [<-|[<-|[<-|[]]]]; cbn [vx vy vz]; repeat split; assumption.
Qed.
End E.
