(** * Proofs about STL files *)
From Coq Require Import ZArith Reals List Bool Lia Lra.
From Flocq Require Import Core IEEE754.BinarySingleNaN.
From Flocq Require IEEE754.Binary IEEE754.Bits.
From Verif Require Import Arith ArithF64 Prim Stl StlClaims.
Import ListNotations.
Close Scope R_scope. Close Scope num_scope.
Local Open Scope Z_scope.

(** ** float32 *)

Lemma fexp32 : SpecFloat.fexp 24 128 = FLT_exp (-149) 24.
Proof. reflexivity. Qed.

Lemma cond_sign s m e :
  match Rcompare (F2R (Float radix2 (SpecFloat.cond_Zopp s (Zpos m)) e)) 0 with
  | Eq => s | Lt => true | Gt => false end = s.
Proof.
  destruct s; simpl SpecFloat.cond_Zopp.
  - rewrite Rcompare_Lt; [reflexivity|]. now apply F2R_lt_0.
  - rewrite Rcompare_Gt; [reflexivity|]. now apply F2R_gt_0.
Qed.

Lemma cond_lt s m e :
  Rlt_bool (F2R (Float radix2 (SpecFloat.cond_Zopp s (Zpos m)) e)) 0 = s.
Proof.
  destruct s; simpl SpecFloat.cond_Zopp.
  - apply Rlt_bool_true. now apply F2R_lt_0.
  - apply Rlt_bool_false. apply Rlt_le. now apply F2R_gt_0.
Qed.

(** rounding of a finite value, any format *)
Lemma normalize_spec prec emax (p0 : FLX.Prec_gt_0 prec) (p1 : Prec_lt_emax prec emax) s m e :
  let y := binary_normalize prec emax p0 p1 mode_NE (SpecFloat.cond_Zopp s (Zpos m)) e s in
  let r := round radix2 (SpecFloat.fexp prec emax) ZnearestE
             (F2R (Float radix2 (SpecFloat.cond_Zopp s (Zpos m)) e)) in
  ((Rabs r < bpow radix2 emax)%R -> is_finite y = true /\ B2R y = r /\ Bsign y = s) /\
  ((bpow radix2 emax <= Rabs r)%R -> y = B754_infinity s).
Proof.
  intros y r.
  pose proof (binary_normalize_correct prec emax p0 p1 mode_NE (SpecFloat.cond_Zopp s (Zpos m)) e s) as H.
  cbv zeta in H. change (round_mode mode_NE) with ZnearestE in H. fold r y in H.
  split; intros C.
  - rewrite (Rlt_bool_true _ _ C) in H. destruct H as (H1 & H2 & H3).
    rewrite cond_sign in H3. auto.
  - rewrite (Rlt_bool_false _ _ C), cond_lt in H.
    apply B2SF_inj. rewrite H. reflexivity.
Qed.

Definition spec32 (x : f64) (y : f32) : Prop :=
  match x with
  | B754_nan => y = B754_nan
  | B754_infinity s => y = B754_infinity s
  | _ =>
      let r := round radix2 (FLT_exp (-149) 24) ZnearestE (B2R x) in
      ((Rabs r < bpow radix2 128)%R ->
         is_finite y = true /\ B2R y = r /\ Bsign y = Bsign x) /\
      ((bpow radix2 128 <= Rabs r)%R -> y = B754_infinity (Bsign x))
  end.

Lemma to32_spec x : spec32 x (to32 x).
Proof.
  destruct x as [s|s| |s m e H]; cbn [spec32 to32]; try reflexivity.
  - cbn [B2R Bsign]. rewrite round_0 by apply valid_rnd_N. rewrite Rabs_R0.
    split; intros C; [auto|].
    exfalso. pose proof (bpow_gt_0 radix2 128). lra.
  - exact (normalize_spec 24 128 _ _ s m e).
Qed.

(** a single is a double *)
Lemma of32_spec (x : f32) : is_finite x = true ->
  is_finite (of32 x) = true /\ B2R (of32 x) = B2R x /\ Bsign (of32 x) = Bsign x.
Proof.
  destruct x as [s|s| |s m e H]; try discriminate; intros _; cbn [of32]; auto.
  pose proof (normalize_spec 53 1024 prec53 emax1024 s m e) as N. cbv zeta in N.
  set (x := B754_finite s m e H : f32).
  change (F2R _) with (B2R x) in N.
  assert (G : round radix2 (SpecFloat.fexp 53 1024) ZnearestE (B2R x) = B2R x).
  { apply round_generic; [apply valid_rnd_N|].
    apply (generic_inclusion_mag radix2 (SpecFloat.fexp 24 128)).
    2: apply generic_format_B2R.
    intros _. unfold SpecFloat.fexp, SpecFloat.emin. lia. }
  rewrite G in N. destruct N as [N _].
  destruct N as (N1 & N2 & N3).
  { pose proof (abs_B2R_lt_emax 24 128 x).
    eapply Rlt_trans; [eassumption|]. apply bpow_lt. reflexivity. }
  auto.
Qed.

Lemma to32_of32 x : to32 (of32 x) = x.
Proof.
  destruct (is_finite x) eqn:F.
  2: { destruct x; try discriminate; reflexivity. }
  destruct (of32_spec x F) as (F1 & F2 & F3).
  pose proof (to32_spec (of32 x)) as S.
  assert (G : round radix2 (FLT_exp (-149) 24) ZnearestE (B2R x) = B2R x).
  { apply round_generic; [apply valid_rnd_N|]. rewrite <- fexp32. apply generic_format_B2R. }
  assert (S' : is_finite (to32 (of32 x)) = true /\ B2R (to32 (of32 x)) = B2R x /\
               Bsign (to32 (of32 x)) = Bsign (of32 x)).
  { destruct (of32 x); try discriminate; cbn [spec32] in S; rewrite F2, G in S;
    apply S; apply abs_B2R_lt_emax. }
  destruct S' as (S1 & S2 & S3).
  apply B2R_Bsign_inj; congruence.
Qed.

Lemma rounded32_of x : rounded32 x (of32 (to32 x)).
Proof.
  pose proof (to32_spec x) as S.
  destruct x as [s|s| |s m e H]; cbn [spec32] in S; unfold rounded32.
  2,3: rewrite S; reflexivity.
  all: cbv zeta in *; destruct S as [S1 S2]; split; intros C.
  1,3: destruct (S1 C) as (T1 & T2 & T3); destruct (of32_spec _ T1) as (U1 & U2 & U3);
       rewrite U2, U3; auto.
  all: rewrite (S2 C); reflexivity.
Qed.

Lemma rounded32_fun x y z : rounded32 x y -> rounded32 x z -> y = z.
Proof.
  unfold rounded32. destruct x as [s|s| |s m e H]; try congruence.
  all: cbv zeta; intros [Y1 Y2] [Z1 Z2].
  all: match type of Y1 with (Rabs ?r < _)%R -> _ => destruct (Rlt_or_le (Rabs r) (bpow radix2 128)) as [C|C] end.
  1,3: destruct (Y1 C) as (? & ? & ?), (Z1 C) as (? & ? & ?); apply B2R_Bsign_inj; congruence.
  all: rewrite (Y2 C), (Z2 C); reflexivity.
Qed.

Lemma rounded32_idem x y : rounded32 x y -> rounded32 y y.
Proof.
  intros H. rewrite (rounded32_fun _ _ _ H (rounded32_of x)).
  rewrite <- (to32_of32 (to32 x)) at 2. apply rounded32_of.
Qed.

Lemma bits32_range x : 0 <= bits32 x < 2 ^ 32.
Proof.
  apply (Bits.bits_of_binary_float_range 23 8 eq_refl eq_refl).
Qed.

Lemma frombits_bits x : frombits32 (bits32 x) = x.
Proof.
  unfold frombits32, bits32, Bits.b32_of_bits, Bits.bits_of_b32.
  etransitivity; [|apply (Binary.B2BSN_BSN2B 24 128 Bits.default_nan_pl32)].
  f_equal. exact (Bits.binary_float_of_bits_of_binary_float 23 8 eq_refl eq_refl eq_refl _).
Qed.

Lemma word_le32 w : 0 <= w < 2 ^ 32 -> word_of (le32 w) = w.
Proof. intros H. unfold word_of, le32.
  Z.to_euclidean_division_equations. lia. Qed.

(** ** slices *)

Lemma slice_app {X} (a b c : list X) lo hi :
  lo = length a -> hi = (length a + length b)%nat -> slice (a ++ b ++ c) lo hi = Ok b.
Proof.
  intros -> ->. unfold slice. rewrite !app_length.
  replace (_ && _)%bool with true by (symmetry; apply andb_true_intro; split; apply Nat.leb_le; lia).
  f_equal. rewrite skipn_app, skipn_all, Nat.sub_diag. cbn [app skipn].
  rewrite firstn_app. replace (length a + length b - length a)%nat with (length b) by lia.
  rewrite firstn_all, Nat.sub_diag. cbn [firstn]. apply app_nil_r.
Qed.

Lemma slice_ok {X} (b : list X) lo hi : (lo <= hi <= length b)%nat ->
  slice b lo hi = Ok (firstn (hi - lo) (skipn lo b)).
Proof.
  intros H. unfold slice.
  replace (_ && _)%bool with true by (symmetry; apply andb_true_intro; split; apply Nat.leb_le; lia).
  reflexivity.
Qed.

Lemma makeFloat_enc a x c lo : lo = length a ->
  makeFloat (a ++ le32 (bits32 (to32 x)) ++ c) lo = Ok (of32 (to32 x)).
Proof.
  intros H. unfold makeFloat.
  rewrite (slice_app _ (le32 (bits32 (to32 x)))); [|assumption|subst; reflexivity].
  cbn [rbind]. rewrite word_le32 by apply bits32_range. now rewrite frombits_bits.
Qed.

Section E.
Variable E : elem.
Let AE := ArithF64 E.

Definition rp32 (p : @point AE) : @point AE :=
  @P3 AE (of32 (to32 (@px AE p))) (of32 (to32 (@py AE p))) (of32 (to32 (@pz AE p))).
Definition rt32 (t : @triangle AE) : @triangle AE :=
  @newTriangle AE (rp32 (@t1 AE t)) (rp32 (@t2 AE t)) (rp32 (@t3 AE t)).

Lemma readPoint_enc a p c lo : lo = length a ->
  readPoint E (a ++ encP E p ++ c) lo = Ok (rp32 p).
Proof.
  intros H. unfold readPoint, encP, enc3. rewrite <- !app_assoc.
  rewrite makeFloat_enc by assumption. cbn [rbind].
  rewrite (app_assoc a). rewrite makeFloat_enc by (rewrite app_length; subst; reflexivity).
  cbn [rbind].
  rewrite (app_assoc _ (le32 _)).
  rewrite makeFloat_enc by (rewrite !app_length; subst; unfold le32; cbn [length]; lia).
  reflexivity.
Qed.

Lemma encV_length v : length (encV E v) = 12%nat. Proof. reflexivity. Qed.
Lemma encP_length v : length (encP E v) = 12%nat. Proof. reflexivity. Qed.
Lemma record_length t : length (stl_record E t) = 50%nat. Proof. reflexivity. Qed.
Lemma header_length m : length (stl_header E m) = 84%nat. Proof. reflexivity. Qed.

Lemma readTriangle_enc a t c i : length a = (i * 50)%nat ->
  readTriangle E (a ++ stl_record E t ++ c) i = Ok (rt32 t).
Proof.
  intros H. unfold readTriangle, stl_record. rewrite <- !app_assoc. cbv zeta.
  rewrite (app_assoc a). rewrite readPoint_enc by (rewrite app_length, encV_length; lia).
  cbn [rbind].
  rewrite (app_assoc _ (encP E (@t1 AE t))).
  rewrite readPoint_enc by (rewrite !app_length, encV_length, encP_length; lia).
  cbn [rbind].
  rewrite (app_assoc _ (encP E (@t2 AE t))).
  rewrite readPoint_enc by (rewrite !app_length, encV_length, !encP_length; lia).
  reflexivity.
Qed.

Lemma rmap_read (m : list (@triangle AE)) : forall a k, length a = (k * 50)%nat ->
  rmap (readTriangle E (a ++ concat (map (stl_record E) m))) (seq k (length m)) = Ok (map rt32 m).
Proof.
  induction m as [|t m IH]; intros a k H; [reflexivity|].
  cbn [length seq map concat rmap].
  rewrite readTriangle_enc by assumption. cbn [rbind].
  rewrite app_assoc. rewrite IH by (rewrite app_length, record_length; lia).
  reflexivity.
Qed.

Definition stl_bytes (m : list (@triangle AE)) : list Z := concat (stl_chunks E m).

Lemma records_length (m : list (@triangle AE)) :
  length (concat (map (stl_record E) m)) = (50 * length m)%nat.
Proof.
  induction m as [|t m IH]; [reflexivity|].
  cbn [map concat length]. rewrite app_length, record_length, IH. lia.
Qed.

Lemma bytes_length m : length (stl_bytes m) = (84 + 50 * length m)%nat.
Proof. unfold stl_bytes, stl_chunks. cbn [concat]. rewrite app_length, header_length, records_length. lia. Qed.

Lemma load_bytes parse m : Z.of_nat (length m) < 2 ^ 32 ->
  loadSTL E parse (stl_bytes m) = Ok (Gives E (map rt32 m) false).
Proof.
  intros H. unfold loadSTL. rewrite bytes_length.
  replace (_ <? 84)%nat with false by (symmetry; apply Nat.ltb_ge; lia).
  unfold stl_bytes, stl_chunks, stl_header. cbn [concat]. rewrite <- app_assoc.
  rewrite (slice_app _ (le32 _)) by reflexivity. cbn [rbind].
  rewrite (Z.mod_small (Z.of_nat _)) by (split; [apply Nat2Z.is_nonneg|exact H]).
  rewrite word_le32 by (split; [apply Nat2Z.is_nonneg|exact H]).
  assert (Q : forall n, Z.of_nat (84 + 50 * n) = Z.of_nat n * 50 + 84) by (intros; lia).
  rewrite (proj2 (Z.eqb_eq _ _) (Q _)).
  rewrite Nat2Z.id.
  rewrite app_assoc, skipn_app.
  rewrite skipn_all2 by (rewrite app_length, repeat_length; cbn [le32 length]; lia).
  replace (84 - _)%nat with O by (rewrite app_length, repeat_length; reflexivity).
  cbn [app skipn]. unfold loadSTLBinary. rewrite records_length.
  assert (Q2 : forall n, (50 * n <? n * 50)%nat = false) by (intros; apply Nat.ltb_ge; lia).
  rewrite Q2.
  assert (Q3 : forall n, (50 * n <= n * 50)%nat) by (intros; lia).
  rewrite firstn_all2 by (rewrite records_length; apply Q3).
  cbv zeta. pose proof (rmap_read m [] 0 eq_refl) as R. cbn [app] in R.
  exact (f_equal (fun r => rbind r (fun ts => Ok (Gives E ts false))) R).
Qed.

Lemma rounded_rp p : rounded_point E p (rp32 p).
Proof. repeat split; apply rounded32_of. Qed.

Lemma reloaded_rt t : reloaded E t (rt32 t).
Proof. split; [|split; [|split]]; try apply rounded_rp. reflexivity. Qed.

Lemma rounded_point_fun p q r : rounded_point E p q -> rounded_point E p r -> q = r.
Proof.
  intros (A1 & A2 & A3) (B1 & B2 & B3). destruct q, r. cbn in *.
  f_equal; eapply rounded32_fun; eassumption.
Qed.

Lemma reloaded_fun t u v : reloaded E t u -> reloaded E t v -> u = v.
Proof.
  intros (A1 & A2 & A3 & A4) (B1 & B2 & B3 & B4).
  destruct u as [nu u1 u2 u3], v as [nv v1 v2 v3]. cbn in A1, A2, A3, A4, B1, B2, B3, B4.
  pose proof (rounded_point_fun _ _ _ A1 B1). pose proof (rounded_point_fun _ _ _ A2 B2).
  pose proof (rounded_point_fun _ _ _ A3 B3). subst. reflexivity.
Qed.

Lemma reloaded_idem t u : reloaded E t u -> reloaded E u u.
Proof.
  intros ((A1 & A2 & A3) & (B1 & B2 & B3) & (C1 & C2 & C3) & D).
  repeat split; try (eapply rounded32_idem; eassumption). exact D.
Qed.

End E.
