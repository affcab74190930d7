(** * Lemmas for the small command-line tools *)
From Coq Require Import String Ascii ZArith NArith Reals List Bool Lia Arith Permutation Decimal DecimalFacts DecimalString.
From Flocq Require Import Core IEEE754.BinarySingleNaN.
From Verif Require Import Arith ArithF64 Prim Path Helpers Slicer Fill Stl StlClaims StlProofs StlProofs2 StlProofs3 Vip Main.
Import ListNotations.
Close Scope R_scope. Close Scope num_scope. Close Scope string_scope.
Local Open Scope Z_scope.

(** ** binary files hold single-precision vertices *)
Section F.
Variable E : elem.
Let AE := ArithF64 E.

Lemma rounded32_single x : rounded32 (of32 x) (of32 x).
Proof. pose proof (rounded32_of (of32 x)) as H. now rewrite to32_of32 in H. Qed.

Lemma makeFloat_single b lo x : makeFloat b lo = Ok x -> rounded32 x x.
Proof.
  unfold makeFloat. destruct (Stl.slice b lo (lo + 4)) as [w| |]; cbn [rbind]; try discriminate.
  intros [= <-]. apply rounded32_single.
Qed.

Lemma readPoint_single b lo p : readPoint E b lo = Ok p -> rounded_point E p p.
Proof.
  unfold readPoint.
  destruct (makeFloat b lo) as [x| |] eqn:X; cbn [rbind]; try discriminate.
  destruct (makeFloat b (lo + 4)) as [y| |] eqn:Y; cbn [rbind]; try discriminate.
  destruct (makeFloat b (lo + 8)) as [z| |] eqn:Z; cbn [rbind]; try discriminate.
  intros [= <-]. repeat split; cbn [px py pz]; eapply makeFloat_single; eassumption.
Qed.

Lemma readTriangle_single b i t : readTriangle E b i = Ok t -> reloaded E t t.
Proof.
  unfold readTriangle. cbv zeta.
  destruct (readPoint E b (i * 50 + 12)) as [x| |] eqn:X; cbn [rbind]; try discriminate.
  destruct (readPoint E b (i * 50 + 24)) as [y| |] eqn:Y; cbn [rbind]; try discriminate.
  destruct (readPoint E b (i * 50 + 36)) as [z| |] eqn:Z; cbn [rbind]; try discriminate.
  intros [= <-]. repeat split; cbn [t1 t2 t3 newTriangle]; try (eapply readPoint_single; eassumption).
Qed.

Lemma rmap_Forall {X Y} (f : X -> res Y) (Q : Y -> Prop) l ys :
  (forall x y, f x = Ok y -> Q y) -> rmap f l = Ok ys -> Forall Q ys.
Proof.
  intros H. revert ys. induction l as [|x l IH]; intros ys; cbn [rmap].
  - intros [= <-]. constructor.
  - destruct (f x) as [y| |] eqn:F; cbn [rbind]; try discriminate.
    destruct (rmap f l) as [zs| |]; cbn [rbind]; try discriminate. intros [= <-].
    constructor; [eapply H; eassumption|now apply IH].
Qed.

Lemma binary_single parse file m e : binary_size file ->
  loadSTL E parse file = Ok (Gives E m e) -> e = false /\ Forall (fun t => reloaded E t t) m.
Proof.
  intros B L. destruct (load_binary E file B) as (ts & _ & P & Q).
  rewrite P in L. injection L as <- <-. split; [reflexivity|].
  unfold loadSTLBinary in Q.
  destruct (length (skipn 84 file) <? Z.to_nat (count_field file) * 50)%nat; [discriminate|].
  destruct (rmap (readTriangle E _) _) as [us| |] eqn:R; cbn [rbind] in Q; try discriminate.
  injection Q as ->. eapply rmap_Forall; [|exact R]. intros i t. apply readTriangle_single.
Qed.

Lemma load_count parse file m : binary_size file -> loadSTL E parse file = Ok (Gives E m false) ->
  Z.of_nat (length m) = count_field file.
Proof.
  intros B L. destruct (load_binary E file B) as (ts & N & P & _).
  rewrite P in L. injection L as <-. destruct B. lia.
Qed.

(** saving with enough room *)
Lemma save_room limit (m : list (@triangle AE)) : (84 + 50 * length m <= limit)%nat ->
  saveSTL E limit m = Ok (stl_bytes E m, false).
Proof.
  intros L. rewrite save_spec. rewrite firstn_all2 by (rewrite bytes_length; exact L).
  rewrite (proj2 (Z.ltb_ge _ _)); [reflexivity|].
  assert (Q : 83 + 50 * Z.of_nat (length m) <= Z.of_nat limit).
  { replace (83 + 50 * Z.of_nat (length m)) with (Z.of_nat (83 + 50 * length m)) by lia.
    apply Nat2Z.inj_le. lia. }
  eapply Z.le_trans; [|exact Q]. apply Z.mul_div_le. reflexivity.
Qed.

Lemma rounds_to_list (m : list (@triangle AE)) : Forall2 (reloaded E) m (map (rt32 E) m).
Proof. induction m as [|t m IH]; cbn [map]; constructor; [apply reloaded_rt|exact IH]. Qed.
End F.

(** ** texts of numbers are short *)

Lemma length_app s t : String.length (s ++ t) = (String.length s + String.length t)%nat.
Proof. induction s as [|c s IH]; cbn [append String.length]; [reflexivity|now rewrite IH]. Qed.

Lemma uint_length d : String.length (NilEmpty.string_of_uint d) = nb_digits d.
Proof. induction d; cbn [NilEmpty.string_of_uint String.length nb_digits]; congruence. Qed.
Lemma uint_length0 d : (String.length (NilZero.string_of_uint d) <= S (nb_digits d))%nat.
Proof.
  destruct d; cbn [NilZero.string_of_uint];
    try (rewrite uint_length; lia); cbn; lia.
Qed.

Lemma little_digits d : (nb_digits (Little.double d) <= S (nb_digits d))%nat /\
  (nb_digits (Little.succ_double d) <= S (nb_digits d))%nat.
Proof. induction d; cbn [Little.double Little.succ_double nb_digits]; lia. Qed.

Lemma little_pos p : (nb_digits (Pos.to_little_uint p) <= Pos.to_nat (Pos.size p))%nat.
Proof.
  induction p as [p IH|p IH|]; cbn [Pos.to_little_uint Pos.size].
  - pose proof (little_digits (Pos.to_little_uint p)). lia.
  - pose proof (little_digits (Pos.to_little_uint p)). lia.
  - cbn. lia.
Qed.

Lemma nb_revapp d : forall e, nb_digits (revapp d e) = (nb_digits d + nb_digits e)%nat.
Proof. induction d; intros e; cbn [revapp nb_digits]; try rewrite IHd; cbn [nb_digits]; lia. Qed.

Lemma dec_length n k : (n < 2 ^ N.of_nat k)%N -> (String.length (dec_of_N n) <= k + 2)%nat.
Proof.
  intros H. unfold dec_of_N. etransitivity; [apply uint_length0|].
  destruct n as [|p]; [cbn; lia|]. cbn [N.to_uint]. unfold Pos.to_uint, rev.
  rewrite nb_revapp. cbn [nb_digits]. pose proof (little_pos p) as L.
  assert (Pos.to_nat (Pos.size p) <= k)%nat; [|lia].
  pose proof (Pos.size_le p) as S. 
  assert (Q : (N.pos (2 ^ Pos.size p) <= 2 * N.pos p)%N) by exact S.
  assert (Q' : (2 ^ N.pos (Pos.size p) < 2 * 2 ^ N.of_nat k)%N) by (change (2 ^ N.pos (Pos.size p))%N with (N.pos (2 ^ Pos.size p)); lia).
  rewrite <- N.pow_succ_r' in Q'. apply N.pow_lt_mono_r_iff in Q'; lia.
Qed.

Lemma bounded_pair m e : SpecFloat.bounded 53 1024 m e = true -> Zpos m < 2 ^ 53 /\ e <= 971.
Proof.
  intros B. unfold SpecFloat.bounded in B. apply andb_true_iff in B. destruct B as [B1 B2].
  apply Z.leb_le in B2. split; [|exact B2].
  unfold SpecFloat.canonical_mantissa in B1. apply Zeq_bool_eq in B1.
  unfold SpecFloat.fexp, SpecFloat.emin in B1.
  rewrite Digits.Zpos_digits2_pos in B1. 
  assert (D : Digits.Zdigits radix2 (Zpos m) <= 53) by lia.
  pose proof (Digits.Zdigits_correct radix2 (Zpos m)) as [_ Q]. cbn [Z.abs] in Q.
  eapply Z.lt_le_trans; [exact Q|]. apply (Zpower_le radix2). exact D.
Qed.

Lemma round3_small m e : SpecFloat.bounded 53 1024 m e = true -> (round3 m e < 2 ^ 1034)%N.
Proof.
  intros B. apply bounded_pair in B. destruct B as [B1 B2].
  assert (R : forall z, 0 <= z < 2 ^ 1034 -> (Z.to_N z < 2 ^ 1034)%N).
  { intros z [Z0 Z1]. rewrite <- (Z2N.id z Z0) in Z1. change (2 ^ 1034) with (Z.of_N (2 ^ 1034)) in Z1. lia. }
  assert (P : forall e, 0 <= e <= 971 -> 0 <= 1000 * Z.shiftl (Zpos m) e < 2 ^ 1034).
  { intros k K. rewrite Z.shiftl_mul_pow2 by lia.
    assert (0 < 2 ^ k) by (apply Z.pow_pos_nonneg; lia).
    assert (2 ^ k <= 2 ^ 971) by (apply Z.pow_le_mono_r; lia).
    assert (Zpos m * 2 ^ k < 2 ^ 53 * 2 ^ 971).
    { eapply Z.lt_le_trans; [apply Z.mul_lt_mono_pos_r; [assumption|exact B1]|].
      apply Z.mul_le_mono_nonneg_l; [lia|assumption]. }
    assert (1000 * (2 ^ 53 * 2 ^ 971) < 2 ^ 1034) by reflexivity. nia. }
  unfold round3. destruct e as [|k|k].
  - apply R. apply P. lia.
  - apply R. apply P. lia.
  - apply R. set (d := Z.shiftl 1 (Zpos k)). assert (D : 0 < d).
    { unfold d. rewrite Z.shiftl_mul_pow2 by lia. assert (0 < 2 ^ Zpos k) by (apply Z.pow_pos_nonneg; lia). lia. }
    assert (Q : 0 <= 1000 * Zpos m / d <= 1000 * Zpos m).
    { split; [apply Z.div_pos; lia|]. apply Z.div_le_upper_bound; [lia|nia]. }
    assert (M : 1000 * Zpos m + 1 < 2 ^ 1034).
    { assert (1000 * 2 ^ 53 + 1 < 2 ^ 1034) by reflexivity. lia. }
    destruct (Z.compare _ d); [destruct (Z.even _)|..]; lia.
Qed.

Lemma strF_short E x : (String.length (@strF (ArithF64 E) x) <= 1050)%nat.
Proof.
  unfold strF. cbn [nfix3 ArithF64].
  assert (R : forall s n, (n < 2 ^ 1034)%N -> (String.length (render_fix3 (F3 s n)) <= 1050)%nat).
  { intros s n H. cbn [render_fix3]. rewrite !length_app.
    assert (D : (String.length (dec_of_N (n / 1000)) <= 1034 + 2)%nat).
    { apply dec_length. eapply N.le_lt_trans; [|exact H]. apply N.div_le_upper_bound; lia. }
    assert (S : (String.length (if s then "-" else "") <= 1)%nat) by (destruct s; cbn; lia).
    unfold pad3. cbn [String.length]. lia. }
  destruct x as [s|s| |s m e b]; cbn [f64_fix3].
  - apply R. reflexivity.
  - destruct s; cbn; lia.
  - cbn; lia.
  - apply R. now apply round3_small.
Qed.

Lemma bytes_len s : length (Vip.bytes s) = String.length s.
Proof.
  unfold Vip.bytes. rewrite map_length. induction s as [|c s IH]; cbn [list_ascii_of_string length String.length]; congruence.
Qed.

Lemma plane_text_short E (p : @aplane (ArithF64 E)) : (length (Vip.bytes (@ap_string (ArithF64 E) p)) < max_token)%nat.
Proof.
  rewrite bytes_len. unfold ap_string, pt_string.
  repeat match goal with |- context [append ?a ?b] => rewrite (length_app a b) end.
  repeat match goal with |- context [@strF (ArithF64 E) ?x] => pose proof (strF_short E x); generalize dependent (String.length (@strF (ArithF64 E) x)); intros end.
  assert (String.length (if @ap_tilted (ArithF64 E) p then "true" else "false") <= 5)%nat by (destruct (@ap_tilted (ArithF64 E) p); cbn; lia).
  cbn [String.length]. unfold max_token. lia.
Qed.

(** ** what of a binary file a triangle depends on *)

Lemma nth_skip {X} n (l : list X) k d : nth k (skipn n l) d = nth (n + k) l d.
Proof. revert l. induction n as [|n IH]; intros [|x l]; cbn [skipn Nat.add nth]; auto. now destruct k. Qed.
Lemma nth_first {X} n (l : list X) k d : (k < n)%nat -> nth k (firstn n l) d = nth k l d.
Proof. revert l k. induction n as [|n IH]; intros [|x l] [|k] H; cbn [firstn nth]; auto; try lia. apply IH. lia. Qed.

Lemma slice_nth (b : list Z) lo hi w : Stl.slice b lo hi = Ok w ->
  length w = (hi - lo)%nat /\ forall k, (k < hi - lo)%nat -> nth k w 0 = nth (lo + k) b 0.
Proof.
  unfold Stl.slice. destruct ((lo <=? hi)%nat && (hi <=? length b)%nat) eqn:Q; [|discriminate].
  apply andb_true_iff in Q. destruct Q as [Q1 Q2]. apply Nat.leb_le in Q1. apply Nat.leb_le in Q2.
  intros [= <-]. split.
  - rewrite firstn_length, skipn_length. lia.
  - intros k K. rewrite nth_first by exact K. apply nth_skip.
Qed.

Lemma makeFloat_same b b' lo x x' : (forall k, (lo <= k < lo + 4)%nat -> nth k b 0 = nth k b' 0) ->
  makeFloat b lo = Ok x -> makeFloat b' lo = Ok x' -> x = x'.
Proof.
  intros H. unfold makeFloat.
  destruct (Stl.slice b lo (lo + 4)) as [w| |] eqn:W; cbn [rbind]; try discriminate.
  destruct (Stl.slice b' lo (lo + 4)) as [w'| |] eqn:W'; cbn [rbind]; try discriminate.
  intros [= <-] [= <-]. do 3 f_equal. apply slice_nth in W. apply slice_nth in W'.
  apply (nth_ext _ _ 0 0); [destruct W, W'; congruence|]. intros n N. destruct W as [W1 W2], W' as [W3 W4].
  rewrite W2, W4 by lia. apply H. lia.
Qed.

Lemma readPoint_same E b b' lo x x' : (forall k, (lo <= k < lo + 12)%nat -> nth k b 0 = nth k b' 0) ->
  readPoint E b lo = Ok x -> readPoint E b' lo = Ok x' -> x = x'.
Proof.
  intros H. unfold readPoint.
  destruct (makeFloat b lo) as [x1| |] eqn:X1; cbn [rbind]; try discriminate.
  destruct (makeFloat b (lo + 4)) as [x2| |] eqn:X2; cbn [rbind]; try discriminate.
  destruct (makeFloat b (lo + 8)) as [x3| |] eqn:X3; cbn [rbind]; try discriminate.
  destruct (makeFloat b' lo) as [y1| |] eqn:Y1; cbn [rbind]; try discriminate.
  destruct (makeFloat b' (lo + 4)) as [y2| |] eqn:Y2; cbn [rbind]; try discriminate.
  destruct (makeFloat b' (lo + 8)) as [y3| |] eqn:Y3; cbn [rbind]; try discriminate.
  intros [= <-] [= <-].
  assert (x1 = y1) as -> by (eapply makeFloat_same; [|eassumption..]; intros k K; apply H; lia).
  assert (x2 = y2) as -> by (eapply makeFloat_same; [|eassumption..]; intros k K; apply H; lia).
  assert (x3 = y3) as -> by (eapply makeFloat_same; [|eassumption..]; intros k K; apply H; lia).
  reflexivity.
Qed.

Lemma readTriangle_same E b b' i x x' : (forall k, (12 <= k < 48)%nat -> nth (i * 50 + k) b 0 = nth (i * 50 + k) b' 0) ->
  readTriangle E b i = Ok x -> readTriangle E b' i = Ok x' -> x = x'.
Proof.
  intros H. unfold readTriangle. cbv zeta.
  destruct (readPoint E b (i * 50 + 12)) as [x1| |] eqn:X1; cbn [rbind]; try discriminate.
  destruct (readPoint E b (i * 50 + 24)) as [x2| |] eqn:X2; cbn [rbind]; try discriminate.
  destruct (readPoint E b (i * 50 + 36)) as [x3| |] eqn:X3; cbn [rbind]; try discriminate.
  destruct (readPoint E b' (i * 50 + 12)) as [y1| |] eqn:Y1; cbn [rbind]; try discriminate.
  destruct (readPoint E b' (i * 50 + 24)) as [y2| |] eqn:Y2; cbn [rbind]; try discriminate.
  destruct (readPoint E b' (i * 50 + 36)) as [y3| |] eqn:Y3; cbn [rbind]; try discriminate.
  intros [= <-] [= <-].
  assert (G : forall k, (i * 50 + 12 <= k < i * 50 + 48)%nat -> nth k b 0 = nth k b' 0).
  { intros k K. replace k with (i * 50 + (k - i * 50))%nat by lia. apply H. lia. }
  assert (x1 = y1) as -> by (eapply readPoint_same; [|eassumption..]; intros k K; apply G; lia).
  assert (x2 = y2) as -> by (eapply readPoint_same; [|eassumption..]; intros k K; apply G; lia).
  assert (x3 = y3) as -> by (eapply readPoint_same; [|eassumption..]; intros k K; apply G; lia).
  reflexivity.
Qed.

Lemma rmap_nth {X Y} (f : X -> res Y) l ys : rmap f l = Ok ys -> forall i x, nth_error l i = Some x ->
  exists y, f x = Ok y /\ nth_error ys i = Some y.
Proof.
  revert ys. induction l as [|a l IH]; intros ys; cbn [rmap].
  - intros _ [|i] x; discriminate.
  - destruct (f a) as [y| |] eqn:F; cbn [rbind]; try discriminate.
    destruct (rmap f l) as [zs| |]; cbn [rbind]; try discriminate. intros [= <-] [|i] x; cbn [nth_error].
    + intros [= <-]. eauto.
    + intros I. now apply (IH zs eq_refl).
Qed.

Lemma load_nth E parse file m i : binary_size file -> loadSTL E parse file = Ok (Gives E m false) ->
  (i < length m)%nat -> exists b t, readTriangle E b i = Ok t /\ nth_error m i = Some t /\
    forall k, (k < 50)%nat -> nth (i * 50 + k) b 0 = nth (84 + 50 * i + k) file 0.
Proof.
  intros B L I. destruct (load_binary E file B) as (ts & N & P & Q).
  rewrite P in L. injection L as <-. unfold loadSTLBinary in Q.
  destruct (length (skipn 84 file) <? Z.to_nat (count_field file) * 50)%nat; [discriminate|].
  destruct (rmap (readTriangle E _) _) as [us| |] eqn:R; cbn [rbind] in Q; try discriminate.
  injection Q as ->.
  destruct (rmap_nth _ _ _ R i i) as (t & T1 & T2).
  { rewrite <- N. rewrite (nth_error_nth' _ O) by (rewrite seq_length; exact I). rewrite seq_nth by exact I. reflexivity. }
  eexists. exists t. split; [exact T1|]. split; [exact T2|].
  intros k K. rewrite nth_first by lia. rewrite nth_skip. f_equal. lia.
Qed.
