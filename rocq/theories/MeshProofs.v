(** * Mesh extent (C26) and point equality in float64 (C30) *)
From Coq Require Import ZArith Reals Lra Lia List Bool.
From Flocq Require Import Core.Core IEEE754.BinarySingleNaN.
From Verif Require Import Arith ArithR ArithF64 F64Facts Prim GeomSpec.
Import ListNotations.
Close Scope R_scope.
Close Scope Z_scope.
Close Scope num_scope.

(** What is needed of math.Min, math.Max and <= on the numbers that [ok] accepts. *)
Class MinMaxOK (A : Arith) (ok : num -> Prop) : Prop := {
  min_cases : forall x y, ok x -> ok y -> nmin x y = x \/ nmin x y = y;
  max_cases : forall x y, ok x -> ok y -> nmax x y = x \/ nmax x y = y;
  min_le_l : forall x y, ok x -> ok y -> nleb (nmin x y) x = true;
  min_le_r : forall x y, ok x -> ok y -> nleb (nmin x y) y = true;
  max_le_l : forall x y, ok x -> ok y -> nleb x (nmax x y) = true;
  max_le_r : forall x y, ok x -> ok y -> nleb y (nmax x y) = true;
  le_tr : forall x y z, ok x -> ok y -> ok z -> nleb x y = true -> nleb y z = true -> nleb x z = true;
  min_top : forall x, ok x -> nmin maxFloat64 x = x;
  max_bot : forall x, ok x -> nmax (nopp maxFloat64) x = x
}.

(** ** Instances *)
Definition in_range (x : R) : Prop := (Rabs x <= IZR ((2 ^ 53 - 1) * 2 ^ 971))%R.

Lemma maxR : @maxFloat64 ArithR = IZR ((2 ^ 53 - 1) * 2 ^ 971).
Proof. unfold maxFloat64, nofZ. cbn [nlit ArithR]. now rewrite lit1. Qed.

#[global] Instance MinMaxR : MinMaxOK ArithR in_range.
Proof.
  split; cbn [num nmin nmax nleb nopp ArithR]; intros; rewrite ?Rleb_true in *.
  - unfold Rmin. destruct (Rle_dec x y); auto.
  - unfold Rmax. destruct (Rle_dec x y); auto.
  - apply Rmin_l.
  - apply Rmin_r.
  - apply Rmax_l.
  - apply Rmax_r.
  - lra.
  - rewrite maxR. apply Rmin_right. unfold in_range in H. apply Rabs_le_inv in H. lra.
  - rewrite maxR. apply Rmax_right. unfold in_range in H. apply Rabs_le_inv in H. lra.
Qed.

Definition finite64 (E : elem) (x : @num (ArithF64 E)) : Prop := is_finite (x : f64) = true.

Lemma max64_R : B2R (f64_ofZ ((2 ^ 53 - 1) * 2 ^ 971)) = (bpow radix2 1024 - bpow radix2 971)%R /\
  is_finite (f64_ofZ ((2 ^ 53 - 1) * 2 ^ 971)) = true.
Proof.
  assert (H : f64_ofZ ((2 ^ 53 - 1) * 2 ^ 971) = @B754_finite 53 1024 false 9007199254740991 971 eq_refl).
  { apply B2SF_inj. vm_compute. reflexivity. }
  rewrite H. split; [|reflexivity]. cbn [B2R cond_Zopp]. unfold F2R. cbn [Fnum Fexp].
  replace 1024%Z with (53 + 971)%Z by reflexivity. rewrite bpow_plus.
  replace (bpow radix2 53) with (IZR (2^53)) by (rewrite <- (IZR_Zpower radix2) by lia; reflexivity).
  change 9007199254740991%Z with (2 ^ 53 - 1)%Z. rewrite minus_IZR. ring.
Qed.

Lemma min64_cases (x y : f64) : is_finite x = true -> is_finite y = true ->
  (f64_min x y = x /\ (B2R x <= B2R y)%R) \/ (f64_min x y = y /\ (B2R y <= B2R x)%R).
Proof.
  intros Fx Fy. unfold f64_min.
  destruct x as [[|]|[|]| |s m e b] eqn:Ex; try discriminate Fx;
  destruct y as [[|]|[|]| |s' m' e' b'] eqn:Ey; try discriminate Fy;
  try (left; split; [reflexivity|cbn; lra]); try (right; split; [reflexivity|cbn; lra]);
  rewrite <- Ex, <- Ey in *;
  rewrite Bltb_correct by assumption; destruct (Rlt_bool_spec (B2R x) (B2R y)); [left|right|left|right|left|right|left|right|left|right]; split; auto; lra.
Qed.
Lemma max64_cases (x y : f64) : is_finite x = true -> is_finite y = true ->
  (f64_max x y = x /\ (B2R y <= B2R x)%R) \/ (f64_max x y = y /\ (B2R x <= B2R y)%R).
Proof.
  intros Fx Fy. unfold f64_max.
  destruct x as [[|]|[|]| |s m e b] eqn:Ex; try discriminate Fx;
  destruct y as [[|]|[|]| |s' m' e' b'] eqn:Ey; try discriminate Fy;
  try (left; split; [reflexivity|cbn; lra]); try (right; split; [reflexivity|cbn; lra]);
  rewrite <- Ex, <- Ey in *;
  rewrite Bltb_correct by assumption; destruct (Rlt_bool_spec (B2R y) (B2R x)); [left|right|left|right|left|right|left|right|left|right]; split; auto; lra.
Qed.

Lemma le64 (x y : f64) : is_finite x = true -> is_finite y = true -> (Bleb x y = true <-> (B2R x <= B2R y)%R).
Proof.
  intros Fx Fy. rewrite Bleb_correct by assumption. split.
  - destruct (Rle_bool_spec (B2R x) (B2R y)); [auto|discriminate].
  - intros. now apply Rle_bool_true.
Qed.

Lemma min_max64 (x : f64) : is_finite x = true -> f64_min (f64_ofZ ((2 ^ 53 - 1) * 2 ^ 971)) x = x.
Proof.
  intros Fx. destruct max64_R as [MR MF]. 
  assert (H : f64_ofZ ((2 ^ 53 - 1) * 2 ^ 971) = @B754_finite 53 1024 false 9007199254740991 971 eq_refl).
  { apply B2SF_inj. vm_compute. reflexivity. }
  pose proof (abs_B2R_le_emax_minus_prec 53 1024 eq_refl x) as B. change (1024 - 53)%Z with 971%Z in B. apply Rabs_le_inv in B.
  assert (L : Bltb (f64_ofZ ((2 ^ 53 - 1) * 2 ^ 971)) x = false).
  { rewrite Bltb_correct by assumption. apply Rlt_bool_false. rewrite MR. lra. }
  rewrite H in *. unfold f64_min. destruct x as [s|[|]| |s m e b]; try discriminate Fx; rewrite ?L; reflexivity.
Qed.
Lemma max_min64 (x : f64) : is_finite x = true -> f64_max (Bopp (f64_ofZ ((2 ^ 53 - 1) * 2 ^ 971))) x = x.
Proof.
  intros Fx. destruct max64_R as [MR MF]. 
  assert (H : f64_ofZ ((2 ^ 53 - 1) * 2 ^ 971) = @B754_finite 53 1024 false 9007199254740991 971 eq_refl).
  { apply B2SF_inj. vm_compute. reflexivity. }
  pose proof (abs_B2R_le_emax_minus_prec 53 1024 eq_refl x) as B. change (1024 - 53)%Z with 971%Z in B. apply Rabs_le_inv in B.
  assert (L : Bltb x (Bopp (f64_ofZ ((2 ^ 53 - 1) * 2 ^ 971))) = false).
  { rewrite Bltb_correct by (rewrite ?is_finite_Bopp; assumption). apply Rlt_bool_false. rewrite B2R_Bopp, MR. lra. }
  rewrite H in *. unfold f64_max. cbn [Bopp] in *.
  destruct x as [s|[|]| |s m e b]; try discriminate Fx; rewrite ?L; reflexivity.
Qed.

#[global] Instance MinMaxF64 E : MinMaxOK (ArithF64 E) (finite64 E).
Proof.
  split; unfold finite64; cbn [num nmin nmax nleb nopp ArithF64 maxFloat64 nofZ nlit].
  - intros x y Hx Hy. destruct (min64_cases x y Hx Hy) as [[-> _]|[-> _]]; auto.
  - intros x y Hx Hy. destruct (max64_cases x y Hx Hy) as [[-> _]|[-> _]]; auto.
  - intros x y Hx Hy. destruct (min64_cases x y Hx Hy) as [[-> L]|[-> L]]; apply le64; auto; lra.
  - intros x y Hx Hy. destruct (min64_cases x y Hx Hy) as [[-> L]|[-> L]]; apply le64; auto; lra.
  - intros x y Hx Hy. destruct (max64_cases x y Hx Hy) as [[-> L]|[-> L]]; apply le64; auto; lra.
  - intros x y Hx Hy. destruct (max64_cases x y Hx Hy) as [[-> L]|[-> L]]; apply le64; auto; lra.
  - intros x y z Hx Hy Hz H1 H2. apply le64 in H1, H2; auto. apply le64; auto. lra.
  - exact min_max64.
  - exact max_min64.
Qed.

(** ** MinMaxZ *)
Section Extent.
Context {A : Arith} {ok : num -> Prop} {M : MinMaxOK A ok}.
Variable z : vector.

(** height of a point in direction z *)
Definition height (v : point) : num := dot (p2v v) z.

Definition is_low (l : list point) (x : num) : Prop :=
  (exists v, In v l /\ height v = x) /\ forall v, In v l -> nleb x (height v) = true.
Definition is_high (l : list point) (x : num) : Prop :=
  (exists v, In v l /\ height v = x) /\ forall v, In v l -> nleb (height v) x = true.

Lemma le_refl x : ok x -> nleb x x = true.
Proof. intros H. pose proof (min_le_l x x H H) as L. destruct (min_cases x x H H) as [E|E]; now rewrite E in L. Qed.

Lemma low_one v : ok (height v) -> is_low [v] (height v).
Proof. intros H. split; [exists v; cbn; auto|]. intros w [<-|[]]. now apply le_refl. Qed.
Lemma high_one v : ok (height v) -> is_high [v] (height v).
Proof. intros H. split; [exists v; cbn; auto|]. intros w [<-|[]]. now apply le_refl. Qed.

Lemma low_app l1 l2 x y : Forall (fun v => ok (height v)) (l1 ++ l2) -> is_low l1 x -> is_low l2 y -> is_low (l1 ++ l2) (nmin x y).
Proof.
  intros F [(v & Hv & <-) L1] [(w & Hw & <-) L2]. rewrite Forall_forall in F.
  assert (Ov : ok (height v)) by (apply F, in_or_app; auto). assert (Ow : ok (height w)) by (apply F, in_or_app; auto).
  assert (Om : ok (nmin (height v) (height w))) by (destruct (min_cases _ _ Ov Ow) as [-> | ->]; auto).
  split.
  - destruct (min_cases _ _ Ov Ow) as [-> | ->]; [exists v|exists w]; split; auto; apply in_or_app; auto.
  - intros u Hu. assert (Ou := F u Hu). apply in_app_iff in Hu. destruct Hu as [Hu|Hu].
    + apply le_tr with (height v); auto. now apply min_le_l.
    + apply le_tr with (height w); auto. now apply min_le_r.
Qed.
Lemma high_app l1 l2 x y : Forall (fun v => ok (height v)) (l1 ++ l2) -> is_high l1 x -> is_high l2 y -> is_high (l1 ++ l2) (nmax x y).
Proof.
  intros F [(v & Hv & <-) L1] [(w & Hw & <-) L2]. rewrite Forall_forall in F.
  assert (Ov : ok (height v)) by (apply F, in_or_app; auto). assert (Ow : ok (height w)) by (apply F, in_or_app; auto).
  assert (Om : ok (nmax (height v) (height w))) by (destruct (max_cases _ _ Ov Ow) as [-> | ->]; auto).
  split.
  - destruct (max_cases _ _ Ov Ow) as [-> | ->]; [exists v|exists w]; split; auto; apply in_or_app; auto.
  - intros u Hu. assert (Ou := F u Hu). apply in_app_iff in Hu. destruct Hu as [Hu|Hu].
    + apply le_tr with (height v); auto. now apply max_le_l.
    + apply le_tr with (height w); auto. now apply max_le_r.
Qed.

Lemma tri_low t : Forall (fun v => ok (height v)) [t1 t; t2 t; t3 t] -> is_low [t1 t; t2 t; t3 t] (t_minZ t z).
Proof.
  intros F. unfold t_minZ. change [t1 t; t2 t; t3 t] with ([t1 t] ++ ([t2 t] ++ [t3 t])).
  inversion F as [|? ? F1 F2]; subst. inversion F2 as [|? ? F3 F4]; subst. inversion F4 as [|? ? F5 _]; subst.
  apply low_app; [exact F|now apply low_one|]. apply low_app; [exact F2|now apply low_one..].
Qed.
Lemma tri_high t : Forall (fun v => ok (height v)) [t1 t; t2 t; t3 t] -> is_high [t1 t; t2 t; t3 t] (t_maxZ t z).
Proof.
  intros F. unfold t_maxZ. change [t1 t; t2 t; t3 t] with ([t1 t] ++ ([t2 t] ++ [t3 t])).
  inversion F as [|? ? F1 F2]; subst. inversion F2 as [|? ? F3 F4]; subst. inversion F4 as [|? ? F5 _]; subst.
  apply high_app; [exact F|now apply high_one|]. apply high_app; [exact F2|now apply high_one..].
Qed.

Definition mm_step (acc : num * num) (t : triangle) :=
  let '(mn, mx) := t_minMaxZ t z in (nmin (fst acc) mn, nmax (snd acc) mx).

Lemma fold_ok m : forall l lo hi,
  Forall (fun v => ok (height v)) (l ++ vertices m) -> is_low l lo -> is_high l hi ->
  let r := fold_left mm_step m (lo, hi) in
  is_low (l ++ vertices m) (fst r) /\ is_high (l ++ vertices m) (snd r).
Proof.
  induction m as [|t m IH]; intros l lo hi F Hlo Hhi; cbn [fold_left vertices flat_map].
  - rewrite app_nil_r. auto.
  - cbn [vertices flat_map] in F. fold (vertices m) in *. rewrite app_assoc in *.
    assert (F1 : Forall (fun v => ok (height v)) (l ++ [t1 t; t2 t; t3 t])) by now apply Forall_app in F.
    assert (F2 : Forall (fun v => ok (height v)) [t1 t; t2 t; t3 t]) by now apply Forall_app in F1.
    cbn [mm_step t_minMaxZ fst snd]. apply IH; auto.
    + apply low_app; auto. now apply tri_low.
    + apply high_app; auto. now apply tri_high.
Qed.

Theorem minMax_ok m : m <> [] -> Forall (fun v => ok (height v)) (vertices m) ->
  is_low (vertices m) (fst (m_minMaxZ m z)) /\ is_high (vertices m) (snd (m_minMaxZ m z)).
Proof.
  intros H F. destruct m as [|t m]; [congruence|]. unfold m_minMaxZ.
  change (is_low (vertices (t :: m)) (fst (fold_left mm_step m (mm_step (maxFloat64, nopp maxFloat64) t))) /\
          is_high (vertices (t :: m)) (snd (fold_left mm_step m (mm_step (maxFloat64, nopp maxFloat64) t)))).
  cbn [vertices flat_map] in *. fold (vertices m) in *.
  assert (F2 : Forall (fun v => ok (height v)) [t1 t; t2 t; t3 t]) by now apply Forall_app in F.
  pose proof (tri_low t F2) as Lo. pose proof (tri_high t F2) as Hi.
  cbn [mm_step t_minMaxZ fst snd].
  assert (O1 : ok (t_minZ t z)).
  { destruct Lo as [(v & Hv & <-) _]. rewrite Forall_forall in F2. now apply F2. }
  assert (O2 : ok (t_maxZ t z)).
  { destruct Hi as [(v & Hv & <-) _]. rewrite Forall_forall in F2. now apply F2. }
  rewrite min_top, max_bot by assumption.
  apply fold_ok; auto.
Qed.
End Extent.

(** ** Point equality in float64 *)
Section Eq64.
Context (E : elem).
Existing Instance ArithF64.
Definition pt_finite (a : @point (ArithF64 E)) : Prop := finite64 E (px a) /\ finite64 E (py a) /\ finite64 E (pz a).

Lemma sub_self (x : f64) : is_finite x = true -> f64_sub x x = B754_zero false.
Proof.
  intros F. destruct x as [s|s| |s m e b]; try discriminate F.
  - destruct s; reflexivity.
  - unfold f64_sub. 
    pose proof (Bminus_correct 53 1024 _ _ mode_NE (B754_finite s m e b) (B754_finite s m e b) eq_refl eq_refl) as C.
    rewrite Rminus_eq_0, round_0 in C by typeclasses eauto.
    rewrite Rlt_bool_true in C by (rewrite Rabs_R0; apply bpow_gt_0). destruct C as (C1 & C2 & C3).
    destruct (Bminus mode_NE (B754_finite s m e b) (B754_finite s m e b)) as [s'|s'| |s' m' e' b'] eqn:Q; try discriminate.
    + cbn [Bsign] in C3. rewrite Rcompare_Eq in C3 by reflexivity. rewrite C3. destruct s; reflexivity.
    + exfalso. cbn [B2R] in C1. apply eq_0_F2R in C1. destruct s'; discriminate.
Qed.

Lemma sub_opp (x y : f64) : f64_sub y x = Bopp (f64_sub x y) \/
  (exists s s', f64_sub y x = B754_zero s /\ f64_sub x y = B754_zero s').
Proof.
  destruct (is_finite x) eqn:Fx, (is_finite y) eqn:Fy.
  - pose proof (Bminus_correct 53 1024 _ _ mode_NE x y Fx Fy) as C1.
    pose proof (Bminus_correct 53 1024 _ _ mode_NE y x Fy Fx) as C2.
    fold (f64_sub x y) in C1. fold (f64_sub y x) in C2. cbn [round_mode] in *.
    assert (R : rnd64 (B2R y - B2R x) = (- rnd64 (B2R x - B2R y))%R).
    { replace (B2R y - B2R x)%R with (- (B2R x - B2R y))%R by ring. apply round_NE_opp. }
    rewrite R, Rabs_Ropp in C2.
    destruct (Rlt_bool_spec (Rabs (rnd64 (B2R x - B2R y))) (bpow radix2 1024)) as [L|L].
    + destruct C1 as (A1 & A2 & A3), C2 as (B1 & B2 & B3).
      destruct (f64_sub x y) as [s|s| |s m e b] eqn:Q; try discriminate.
      * right. cbn [B2R] in A1. rewrite <- A1 in B1.
        destruct (f64_sub y x) as [s'|s'| |s' m' e' b'] eqn:Q'; try discriminate; [eauto|].
        exfalso. cbn [B2R] in B1. rewrite Ropp_0 in B1. apply eq_0_F2R in B1. destruct s'; discriminate.
      * left. rewrite <- A1 in B1. apply B2R_inj.
        -- destruct (f64_sub y x) as [s'|s'| |s' m' e' b']; try discriminate; [|reflexivity].
           exfalso. rewrite <- B2R_Bopp in B1. cbn [Bopp B2R] in B1. symmetry in B1. apply eq_0_F2R in B1. destruct s; discriminate.
        -- reflexivity.
        -- rewrite B1. symmetry. apply B2R_Bopp.
    + destruct C1 as (A1 & A2), C2 as (B1 & B2). apply overflow_inf in A1, B1. left. rewrite A1, B1. cbn.
      rewrite A2. now rewrite Bool.negb_involutive in B2 || rewrite B2; now rewrite ?Bool.negb_involutive.
  - left. destruct x as [s|s| |s m e b], y as [s'|s'| |s' m' e' b']; try discriminate; cbn; try reflexivity; now rewrite ?Bool.negb_involutive.
  - left. destruct x as [s|s| |s m e b], y as [s'|s'| |s' m' e' b']; try discriminate; cbn; try reflexivity; now rewrite ?Bool.negb_involutive.
  - left. destruct x as [s|s| |s m e b], y as [s'|s'| |s' m' e' b']; try discriminate; cbn; try reflexivity; destruct s, s'; reflexivity.
Qed.

Notation az := (@almostZero (ArithF64 E)).

Lemma az_zero s : az (B754_zero s : f64) = true.
Proof. destruct s; vm_compute; reflexivity. Qed.

Lemma az_nan : az (B754_nan : f64) = false.
Proof. vm_compute. reflexivity. Qed.

Lemma ltb_opp (x y : f64) : Bltb (Bopp x) (Bopp y) = Bltb y x.
Proof.
  destruct (is_finite x) eqn:Fx, (is_finite y) eqn:Fy;
    try (destruct x as [s|[|]| |[|] m e b], y as [s'|[|]| |[|] m' e' b']; try discriminate; reflexivity).
  rewrite !Bltb_correct by (rewrite ?is_finite_Bopp; assumption). rewrite !B2R_Bopp. apply Rlt_bool_opp.
Qed.

Lemma az_opp (x : f64) : az (Bopp x : f64) = az x.
Proof.
  unfold almostZero. cbn [nltb nopp ArithF64].
  set (c := @almostZeroNumber (ArithF64 E)). change (@num (ArithF64 E)) with f64 in c. clearbody c.
  rewrite ltb_opp, andb_comm. f_equal. rewrite <- (ltb_opp x (Bopp c)), Bopp_involutive. reflexivity.
Qed.

Lemma az_sub (x y : f64) : az (f64_sub y x) = az (f64_sub x y).
Proof.
  destruct (sub_opp x y) as [-> | (s & s' & -> & ->)]; [apply az_opp|now rewrite !az_zero].
Qed.

Theorem equal_refl64 (a : @point (ArithF64 E)) : pt_finite a -> pt_equal a a = true.
Proof.
  intros (H1 & H2 & H3). unfold pt_equal. cbn [nsub ArithF64]. rewrite !sub_self by assumption. now rewrite !az_zero.
Qed.
Theorem equal_sym64 (a b : @point (ArithF64 E)) : pt_equal a b = pt_equal b a.
Proof. unfold pt_equal. cbn [nsub ArithF64]. now rewrite (az_sub (px a)), (az_sub (py a)), (az_sub (pz a)). Qed.
Theorem equal_nan64 (a b : @point (ArithF64 E)) :
  (px a : f64) = B754_nan \/ (py a : f64) = B754_nan \/ (pz a : f64) = B754_nan -> pt_equal a b = false /\ pt_equal b a = false.
Proof.
  intros H. assert (pt_equal a b = false) as K; [|split; [exact K|now rewrite equal_sym64]].
  unfold pt_equal. cbn [nsub ArithF64].
  assert (N : forall y : f64, az (f64_sub (B754_nan : f64) y) = false) by (intros [s|s| |s m e bb]; exact az_nan).
  destruct H as [-> | [-> | ->]]; rewrite N, ?andb_false_r; reflexivity.
Qed.
End Eq64.
