(** * Contours and the model they are cut from: proofs *)
From Coq Require Import Reals Lra Lia List Bool ZArith PeanoNat Permutation.
From Verif Require Import Arith ArithR Prim Path PathClaims MinProofs GeomSpec GeomProofs SupportProofs InsideClaims InsideProofs SolidClaims.
Import ListNotations.
Close Scope Z_scope.
Close Scope num_scope.
Local Open Scope R_scope.

(** ** Small displacements do not change what a ray crosses *)
Lemma quadratic_root (c0 c1 c2 : R) : c0 * (c0 + c1 + c2) <= 0 -> exists l, 0 <= l <= 1 /\ c0 + c1 * l + c2 * (l * l) = 0.
Proof.
  intros H. destruct (IVT_cor (fun l => c0 + c1 * l + c2 * (l * l)) 0 1) as (l & Hl & E).
  - reg.
  - lra.
  - replace (c0 + c1 * 0 + c2 * (0 * 0)) with c0 by ring. replace (c0 + c1 * 1 + c2 * (1 * 1)) with (c0 + c1 + c2) by ring. exact H.
  - exists l. split; assumption.
Qed.

Definition mix (l : R) (e a : Rpoint) : Rpoint := along e a l.

Lemma pos_mix q dx dy l e a : pos q dx dy (mix l e a) = (1 - l) * pos q dx dy e + l * pos q dx dy a.
Proof. unfold pos, mix, along, X, Y. cbn [px py]. rcbn. ring. Qed.

Lemma area_mix q l e a f b : area q (mix l e a) (mix l f b) =
  area q e f + (area q e b - area q e f + (area q a f - area q e f)) * l + (area q a b - area q e b - area q a f + area q e f) * (l * l).
Proof. unfold area, mix, along, X, Y. cbn [px py]. rcbn. ring. Qed.

Lemma same_sign x y d : Rabs (x - y) <= d -> d < Rabs x -> (0 < x <-> 0 < y) /\ (x < 0 <-> y < 0).
Proof. intros A B. unfold Rabs in *. destruct (Rcase_abs (x - y)), (Rcase_abs x); lra. Qed.

Lemma mix_sign l x y : 0 <= l <= 1 -> (0 < x -> 0 < y -> 0 < (1 - l) * x + l * y) /\ (x < 0 -> y < 0 -> (1 - l) * x + l * y < 0).
Proof.
  intros L. split; intros A B.
  - destruct (Req_dec l 0) as [->|N]; [lra|]. assert (0 < l * y) by (apply Rmult_lt_0_compat; lra). assert (0 <= (1 - l) * x) by (apply Rmult_le_pos; lra). lra.
  - destruct (Req_dec l 0) as [->|N]; [lra|]. assert (0 < l * - y) by (apply Rmult_lt_0_compat; lra). assert (0 <= (1 - l) * - x) by (apply Rmult_le_pos; lra). lra.
Qed.

Lemma pos_near q dx dy a e d : Rabs (X a - X e) <= d -> Rabs (Y a - Y e) <= d ->
  Rabs (pos q dx dy e - pos q dx dy a) <= d * (Rabs dx + Rabs dy).
Proof.
  intros A B. replace (pos q dx dy e - pos q dx dy a) with (dy * (X a - X e) + - (dx * (Y a - Y e))) by (unfold pos; ring).
  eapply Rle_trans; [apply Rabs_triang|]. rewrite Rabs_Ropp, !Rabs_mult. pose proof (Rabs_pos dx). pose proof (Rabs_pos dy).
  assert (Rabs dy * Rabs (X a - X e) <= Rabs dy * d) by (apply Rmult_le_compat_l; assumption).
  assert (Rabs dx * Rabs (Y a - Y e) <= Rabs dx * d) by (apply Rmult_le_compat_l; assumption). lra.
Qed.

Lemma near_combo l t x y d : 0 <= l <= 1 -> 0 <= t <= 1 -> Rabs x <= d -> Rabs y <= d -> Rabs (l * ((1 - t) * x + t * y)) <= d.
Proof.
  intros L T A B. rewrite Rabs_mult. assert (C : Rabs ((1 - t) * x + t * y) <= d).
  { eapply Rle_trans; [apply Rabs_triang|]. rewrite !Rabs_mult, (Rabs_right (1 - t)), (Rabs_right t) by lra.
    assert ((1 - t) * Rabs x <= (1 - t) * d) by (apply Rmult_le_compat_l; lra). assert (t * Rabs y <= t * d) by (apply Rmult_le_compat_l; lra). lra. }
  rewrite (Rabs_right l) by lra. pose proof (Rabs_pos ((1 - t) * x + t * y)).
  apply Rle_trans with (1 * Rabs ((1 - t) * x + t * y)); [apply Rmult_le_compat_r; lra|lra].
Qed.

Lemma stable q dx dy a b e f d :
  Rabs (X a - X e) <= d -> Rabs (Y a - Y e) <= d -> Rabs (X b - X f) <= d -> Rabs (Y b - Y f) <= d ->
  d * (Rabs dx + Rabs dy) < Rabs (pos q dx dy e) -> d * (Rabs dx + Rabs dy) < Rabs (pos q dx dy f) ->
  (forall x, on_seg e f x -> ~ (Rabs (X x - X q) <= d /\ Rabs (Y x - Y q) <= d)) ->
  (hits q dx dy a b <-> hits q dx dy e f) /\ pos q dx dy a <> 0 /\ pos q dx dy b <> 0.
Proof.
  intros Ax Ay Bx By Me Mf Off.
  pose proof (pos_near q dx dy a e d Ax Ay) as Pe. pose proof (pos_near q dx dy b f d Bx By) as Pf.
  destruct (same_sign _ _ _ Pe Me) as (Se1 & Se2). destruct (same_sign _ _ _ Pf Mf) as (Sf1 & Sf2).
  assert (D0 : 0 <= d * (Rabs dx + Rabs dy)). { eapply Rle_trans; [apply Rabs_pos|exact Pe]. }
  assert (Ne : pos q dx dy e <> 0) by (intros Z; rewrite Z, Rabs_R0 in Me; lra).
  assert (Nf : pos q dx dy f <> 0) by (intros Z; rewrite Z, Rabs_R0 in Mf; lra).
  assert (Na : pos q dx dy a <> 0) by (destruct (Rdichotomy _ _ Ne); intros Z; tauto || (rewrite Z in *; lra)).
  assert (Nb : pos q dx dy b <> 0) by (destruct (Rdichotomy _ _ Nf); intros Z; tauto || (rewrite Z in *; lra)).
  split; [|split; assumption].
  rewrite !hits_signs by assumption. rewrite !hit_s_cases.
  assert (Key : (pos q dx dy e < 0 /\ 0 < pos q dx dy f) \/ (pos q dx dy f < 0 /\ 0 < pos q dx dy e) ->
    (0 < area q e f <-> 0 < area q a b) /\ (area q e f < 0 <-> area q a b < 0)).
  2: { tauto. }
  intros Opp.
  assert (NZ : ~ area q e f * area q a b <= 0).
  { intros C.
    destruct (quadratic_root (area q e f) (area q e b - area q e f + (area q a f - area q e f)) (area q a b - area q e b - area q a f + area q e f)) as (l & Hl & R0).
    { match goal with |- _ * ?x <= 0 => replace x with (area q a b) by ring end. exact C. }
    rewrite <- area_mix in R0.
    assert (Dn : dx <> 0 \/ dy <> 0). { destruct (Req_dec dx 0); [|now left]. right. intros Z. apply Ne. unfold pos. rewrite H, Z. ring. }
    refine (beside_area q dx dy (mix l e a) (mix l f b) _ Dn _ R0).
    - intros r (t & Ht & ->) (E1 & E2). apply (Off (along e f t)); [exists t; split; [exact Ht|reflexivity]|].
      assert (F1 : X (along e f t) - X q = - (l * ((1 - t) * (X a - X e) + t * (X b - X f)))).
      { rewrite <- E1. unfold along, mix, along, X. cbn [px]. rcbn. ring. }
      assert (F2 : Y (along e f t) - Y q = - (l * ((1 - t) * (Y a - Y e) + t * (Y b - Y f)))).
      { rewrite <- E2. unfold along, mix, along, Y. cbn [py]. rcbn. ring. }
      rewrite F1, F2, !Rabs_Ropp. split; apply near_combo; assumption.
    - rewrite !pos_mix. apply mult_neg.
      destruct (mix_sign l (pos q dx dy e) (pos q dx dy a) Hl) as (M1 & M2). destruct (mix_sign l (pos q dx dy f) (pos q dx dy b) Hl) as (M3 & M4).
      destruct Opp as [(O1 & O2)|(O1 & O2)]; [left|right]; split; tauto. }
  clear - NZ. revert NZ. generalize (area q e f) (area q a b). intros x y NZ.
  destruct (total_order_T x 0) as [[L| ->]|G]; destruct (total_order_T y 0) as [[L'| ->]|G']; try (exfalso; apply NZ; nra); lra.
Qed.

(** ** Leaving out a corner *)
Lemma in_tri2_swap a b c q : in_tri2 a b c q -> in_tri2 a c b q.
Proof. intros (u & v & w & H). exists u, w, v. lra. Qed.
Lemma in_tri2_rot a b c q : in_tri2 a b c q -> in_tri2 b c a q.
Proof. intros (u & v & w & H). exists v, w, u. lra. Qed.

Lemma hits_sym q dx dy a b : hits q dx dy a b -> hits q dx dy b a.
Proof. intros (s & t & Hs & Ht & Ex & Ey). exists s, (1 - t). repeat split; try lra. Qed.

Definition hb (q : Rpoint) (dx dy : R) (a b : Rpoint) : bool := hitb (pos q dx dy a) (pos q dx dy b) (area q a b).

Lemma hb_hits q dx dy a b : pos q dx dy a <> 0 -> pos q dx dy b <> 0 -> (hb q dx dy a b = true <-> hits q dx dy a b).
Proof.
  intros A B. rewrite hits_signs by assumption. unfold hb, hitb. destruct (hit_s_dec _ _ _); split; intros; try assumption; try discriminate; [reflexivity|contradiction].
Qed.
Lemma bool_eq (x y : bool) : (x = true <-> y = true) -> x = y.
Proof. destruct x, y; intuition congruence. Qed.
Lemma hb_sym q dx dy a b : pos q dx dy a <> 0 -> pos q dx dy b <> 0 -> hb q dx dy a b = hb q dx dy b a.
Proof. intros A B. apply bool_eq. rewrite !hb_hits by assumption. split; apply hits_sym. Qed.
Lemma hb_same_side q dx dy a b : 0 < pos q dx dy a * pos q dx dy b -> hb q dx dy a b = false.
Proof. intros H. unfold hb, hitb. destruct (hit_s_dec _ _ _) as [(K & _)|]; [lra|reflexivity]. Qed.

(** where a side crosses the line of the ray *)
Lemma crossing_at q dx dy a b : pos q dx dy a * pos q dx dy b < 0 -> exists s t, 0 < t < 1 /\
  X a + t * (X b - X a) = X q + s * dx /\ Y a + t * (Y b - Y a) = Y q + s * dy.
Proof.
  intros H. set (u := pos q dx dy a) in *. set (v := pos q dx dy b) in *.
  exists (area q a b / (v - u)), (u / (u - v)). apply neg_mult in H.
  assert (N : u - v <> 0) by (destruct H; lra). split.
  - destruct H as [(A & B)|(A & B)].
    + replace (u / (u - v)) with ((- u) / (v - u)) by (field; lra). split; [apply Rdiv_lt_0_compat; lra|].
      apply Rmult_lt_reg_r with (v - u); [lra|]. replace (- u / (v - u) * (v - u)) with (- u) by (field; lra). lra.
    + split; [apply Rdiv_lt_0_compat; lra|].
      apply Rmult_lt_reg_r with (u - v); [lra|]. replace (u / (u - v) * (u - v)) with u by (field; lra). lra.
  - split; revert N; unfold u, v, pos, area; intros N; field; lra.
Qed.

Lemma alone_hits q dx dy a b c : pos q dx dy a * pos q dx dy c < 0 -> ~ in_tri2 a b c q -> hits q dx dy a b -> hits q dx dy a c.
Proof.
  intros Hc Out (s & t & Hs & Ht & Ex & Ey). destruct (crossing_at q dx dy a c Hc) as (s' & t' & Ht' & Ex' & Ey').
  destruct (Rlt_or_le 0 s') as [P|P]; [exists s', t'; repeat split; lra|]. exfalso. apply Out.
  assert (N : 0 < s - s') by lra.
  set (al := - s' / (s - s')). set (be := s / (s - s')).
  assert (Sum : al + be = 1) by (unfold al, be; field; lra).
  assert (A0 : 0 <= al) by (unfold al; apply Rmult_le_pos; [lra|apply Rlt_le, Rinv_0_lt_compat; lra]).
  assert (B0 : 0 <= be) by (unfold be; apply Rmult_le_pos; [lra|apply Rlt_le, Rinv_0_lt_compat; lra]).
  assert (Zr : al * s + be * s' = 0) by (unfold al, be; field; lra).
  exists (1 - al * t - be * t'), (al * t), (be * t').
  assert (T1 : 0 <= al * t) by (apply Rmult_le_pos; lra). assert (T2 : 0 <= be * t') by (apply Rmult_le_pos; lra).
  assert (T3 : 0 <= al * (1 - t)) by (apply Rmult_le_pos; lra). assert (T4 : 0 <= be * (1 - t')) by (apply Rmult_le_pos; lra).
  split; [lra|]. split; [exact T1|]. split; [exact T2|]. split; [ring|]. split.
  - transitivity (al * (X a + t * (X b - X a)) + be * (X a + t' * (X c - X a)) + (1 - al - be) * X a); [|ring].
    rewrite Ex, Ex'. transitivity (X q * (al + be) + (al * s + be * s') * dx + (1 - (al + be)) * X a); [rewrite Sum, Zr; ring|ring].
  - transitivity (al * (Y a + t * (Y b - Y a)) + be * (Y a + t' * (Y c - Y a)) + (1 - al - be) * Y a); [|ring].
    rewrite Ey, Ey'. transitivity (Y q * (al + be) + (al * s + be * s') * dy + (1 - (al + be)) * Y a); [rewrite Sum, Zr; ring|ring].
Qed.

Lemma alone_even q dx dy a b c : pos q dx dy a * pos q dx dy b < 0 -> pos q dx dy a * pos q dx dy c < 0 -> ~ in_tri2 a b c q ->
  hb q dx dy a b = hb q dx dy a c.
Proof.
  intros Hb Hc Out. assert (Na : pos q dx dy a <> 0) by (intros Z; rewrite Z in Hb; lra).
  assert (Nb : pos q dx dy b <> 0) by (intros Z; rewrite Z in Hb; lra). assert (Nc : pos q dx dy c <> 0) by (intros Z; rewrite Z in Hc; lra).
  apply bool_eq. rewrite !hb_hits by assumption. split; intros H.
  - now apply (alone_hits q dx dy a b c).
  - apply (alone_hits q dx dy a c b); try assumption. intros K. apply Out. now apply in_tri2_swap.
Qed.

Lemma in_tri2_flip a b c q : in_tri2 b a c q -> in_tri2 a b c q.
Proof. intros (u & v & w & H). exists v, u, w. lra. Qed.
Lemma in_tri2_last a b c q : in_tri2 c a b q -> in_tri2 a b c q.
Proof. intros (u & v & w & H). exists v, w, u. lra. Qed.

Lemma tri_even q dx dy a b c : pos q dx dy a <> 0 -> pos q dx dy b <> 0 -> pos q dx dy c <> 0 -> ~ in_tri2 a b c q ->
  xorb (hb q dx dy a b) (hb q dx dy b c) = hb q dx dy a c.
Proof.
  intros Na Nb Nc Out.
  assert (S : forall x y, pos q dx dy x <> 0 -> pos q dx dy y <> 0 -> pos q dx dy x * pos q dx dy y < 0 \/ 0 < pos q dx dy x * pos q dx dy y).
  { intros x y Nx Ny. destruct (Rtotal_order (pos q dx dy x * pos q dx dy y) 0) as [H|[H|H]]; [now left| |now right].
    apply Rmult_integral in H. destruct H; contradiction. }
  assert (Sg : forall x, x <> 0 -> x < 0 \/ 0 < x) by (intros; lra).
  assert (Same : forall x y, (pos q dx dy x < 0 /\ pos q dx dy y < 0) \/ (0 < pos q dx dy x /\ 0 < pos q dx dy y) -> 0 < pos q dx dy x * pos q dx dy y).
  { intros x y [(P & Q)|(P & Q)]; [|now apply Rmult_lt_0_compat]. replace (pos q dx dy x * pos q dx dy y) with ((- pos q dx dy x) * (- pos q dx dy y)) by ring. apply Rmult_lt_0_compat; lra. }
  assert (Opp : forall x y, (pos q dx dy x < 0 /\ 0 < pos q dx dy y) \/ (0 < pos q dx dy x /\ pos q dx dy y < 0) -> pos q dx dy x * pos q dx dy y < 0).
  { intros x y [(P & Q)|(P & Q)].
    - assert (0 < (- pos q dx dy x) * pos q dx dy y) by (apply Rmult_lt_0_compat; lra). lra.
    - assert (0 < pos q dx dy x * (- pos q dx dy y)) by (apply Rmult_lt_0_compat; lra). lra. }
  assert (C1 : 0 < pos q dx dy b * pos q dx dy c -> pos q dx dy a * pos q dx dy b < 0 -> pos q dx dy a * pos q dx dy c < 0 -> xorb (hb q dx dy a b) (hb q dx dy b c) = hb q dx dy a c).
  { intros P1 P2 P3. rewrite (hb_same_side q dx dy b c P1), xorb_false_r. now apply alone_even. }
  assert (C2 : 0 < pos q dx dy a * pos q dx dy c -> pos q dx dy b * pos q dx dy a < 0 -> pos q dx dy b * pos q dx dy c < 0 -> xorb (hb q dx dy a b) (hb q dx dy b c) = hb q dx dy a c).
  { intros P1 P2 P3. rewrite (hb_same_side q dx dy a c P1), (hb_sym q dx dy a b Na Nb).
    rewrite (alone_even q dx dy b a c P2 P3); [apply xorb_nilpotent|]. intros K. apply Out. now apply in_tri2_flip. }
  assert (C3 : 0 < pos q dx dy a * pos q dx dy b -> pos q dx dy c * pos q dx dy a < 0 -> pos q dx dy c * pos q dx dy b < 0 -> xorb (hb q dx dy a b) (hb q dx dy b c) = hb q dx dy a c).
  { intros P1 P2 P3. rewrite (hb_same_side q dx dy a b P1), xorb_false_l, (hb_sym q dx dy b c Nb Nc), (hb_sym q dx dy a c Na Nc).
    symmetry. apply alone_even; try assumption. intros K. apply Out. now apply in_tri2_last. }
  destruct (Sg _ Na) as [A|A], (Sg _ Nb) as [B|B], (Sg _ Nc) as [C|C];
    try (apply C1; [apply Same|apply Opp|apply Opp]; tauto); try (apply C2; [apply Same|apply Opp|apply Opp]; tauto); try (apply C3; [apply Same|apply Opp|apply Opp]; tauto);
    rewrite !hb_same_side by (apply Same; tauto); reflexivity.
Qed.

(** the parity of a path, as a chain of [xorb] *)
Fixpoint par (q : Rpoint) (dx dy : R) (p : Rpath) : bool :=
  match p with a :: ((b :: _) as r) => xorb (hb q dx dy a b) (par q dx dy r) | _ => false end.

Lemma par_cnt q dx dy p : par q dx dy p = Nat.odd (cnt q dx dy p).
Proof.
  induction p as [|a [|b r] IH]; [reflexivity|reflexivity|].
  change (par q dx dy (a :: b :: r)) with (xorb (hb q dx dy a b) (par q dx dy (b :: r))). rewrite IH. cbn [cnt]. rewrite odd_step. reflexivity.
Qed.

Lemma par_app q dx dy (p : list Rpoint) (x : Rpoint) (r : list Rpoint) : par q dx dy (p ++ x :: r) = xorb (par q dx dy (p ++ [x])) (par q dx dy (x :: r)).
Proof.
  induction p as [|a [|b p] IH].
  - cbn [app]. symmetry. apply xorb_false_l.
  - cbn [app par]. rewrite xorb_false_r. reflexivity.
  - cbn [app] in *. change (par q dx dy (a :: b :: p ++ x :: r)) with (xorb (hb q dx dy a b) (par q dx dy (b :: p ++ x :: r))). rewrite IH.
    change (par q dx dy (a :: b :: p ++ [x])) with (xorb (hb q dx dy a b) (par q dx dy (b :: p ++ [x]))). symmetry. apply xorb_assoc.
Qed.

Lemma par_drop q dx dy (p : list Rpoint) (a b c : Rpoint) (r : list Rpoint) : pos q dx dy a <> 0 -> pos q dx dy b <> 0 -> pos q dx dy c <> 0 -> ~ in_tri2 a b c q ->
  par q dx dy (p ++ a :: c :: r) = par q dx dy (p ++ a :: b :: c :: r).
Proof.
  intros A B C O. rewrite (par_app q dx dy p a (c :: r)), (par_app q dx dy p a (b :: c :: r)). f_equal.
  change (xorb (hb q dx dy a c) (par q dx dy (c :: r)) = xorb (hb q dx dy a b) (xorb (hb q dx dy b c) (par q dx dy (c :: r)))).
  rewrite <- xorb_assoc, tri_even by assumption. reflexivity.
Qed.

(** ** MinimizeLines keeps what is enclosed *)
Definition side_off (q a b : Rpoint) : Prop := forall x, on_seg a b x -> ~ (X x = X q /\ Y x = Y q).

Lemma beside_two q a b r : beside q (a :: b :: r) <-> side_off q a b /\ beside q (b :: r).
Proof.
  split; intros H.
  - split; [exact (beside_head _ _ _ _ H)|exact (beside_tail _ _ _ H)].
  - destruct H as (S & B). intros u v x (l & r' & E). destruct l as [|c l]; cbn [app] in E.
    + injection E as <- <- <-. apply S.
    + injection E as <- E. apply B. exists l, r'. exact E.
Qed.
Lemma beside_nil q : beside q [].
Proof. intros u v x (l & r' & E). destruct l; discriminate. Qed.
Lemma beside_single q a : beside q [a].
Proof. intros u v x (l & r' & E). destruct l as [|c [|d l]]; discriminate. Qed.
Lemma beside_app q (p : list Rpoint) (x : Rpoint) (r : list Rpoint) : beside q (p ++ x :: r) <-> beside q (p ++ [x]) /\ beside q (x :: r).
Proof.
  induction p as [|a [|b p] IH].
  - cbn [app]. split; [intros H; split; [apply beside_single|exact H]|intros (_ & H); exact H].
  - cbn [app]. rewrite !beside_two. pose proof (beside_single q x). tauto.
  - cbn [app] in *. rewrite !beside_two, IH. tauto.
Qed.

Lemma tri_ab q a c x : on_seg a c x -> X x = X q -> Y x = Y q -> forall b, in_tri2 a b c q.
Proof.
  intros (t & Ht & ->) Ex Ey b. exists (1 - t), 0, t. unfold along, X, Y in *. cbn [px py] in *. unfold X, Y, Z3 in *. revert Ex Ey. rcbn. intros. lra.
Qed.

Section Keep.
Variable q : Rpoint.
Variable K : Rpoint -> Prop.
Variable z : R.
Hypothesis NS : no_sliver q K.
Hypothesis KZ : forall x, K x -> Z3 x = z.

Lemma peq_dec (a b : Rpoint) : a = b \/ a <> b.
Proof. apply Classical_Prop.classic. Qed.

Lemma cut_corner a b c : K a -> K b -> K c -> side_off q a b -> side_off q b c ->
  isCollinear (A := ArithR) (L2 a b) (L2 b c) = true -> ~ in_tri2 a b c q.
Proof.
  intros Ka Kb Kc Sab Sbc Col T.
  destruct (peq_dec a b) as [<-|Nab].
  { destruct T as (u & v & w & Hu & Hv & Hw & S & Ex & Ey). apply (Sbc (along a c w)); [exists w; split; [lra|reflexivity]|].
    unfold along, X, Y. cbn [px py]. fold (X a) (X c) (Y a) (Y c) (X q) (Y q). rcbn. rewrite Ex, Ey. replace u with (1 - v - w) by lra. split; ring. }
  destruct (peq_dec b c) as [<-|Nbc].
  { destruct T as (u & v & w & Hu & Hv & Hw & S & Ex & Ey). apply (Sab (along a b (v + w))); [exists (v + w); split; [lra|reflexivity]|].
    unfold along, X, Y. cbn [px py]. fold (X a) (X b) (Y a) (Y b) (X q) (Y q). rcbn. rewrite Ex, Ey. replace u with (1 - v - w) by lra. split; ring. }
  destruct (peq_dec a c) as [<-|Nac].
  { destruct T as (u & v & w & Hu & Hv & Hw & S & Ex & Ey). apply (Sab (along a b v)); [exists v; split; [lra|reflexivity]|].
    unfold along, X, Y. cbn [px py]. fold (X a) (X b) (Y a) (Y b) (X q) (Y q). rcbn. rewrite Ex, Ey. replace u with (1 - v - w) by lra. split; ring. }
  revert T. apply NS; try assumption.
  unfold isCollinear in Col. apply almostZero_R in Col.
  set (w := cross (l_vec (L2 a b)) (l_vec (L2 b c))) in *.
  assert (Wz : vz w = (X b - X a) * (Y c - Y b) - (Y b - Y a) * (X c - X b)).
  { unfold w, l_vec, vectorTo, cross. cbn [lp1 lp2 vx vy vz]. unfold X, Y. rcbn. ring. }
  rewrite <- Wz. eapply Rle_lt_trans; [|replace (1 / 10 ^ 6) with (/ 1000000) by lra; exact Col].
  assert (L : Rabs (vz w) <= vlen (A := ArithR) w).
  { unfold vlen, vlen2. rcbn. rewrite <- (sqrt_Rsqr_abs (vz w)). apply sqrt_le_1_alt. unfold Rsqr.
    assert (0 <= vx w * vx w) by apply Rle_0_sqr. assert (0 <= vy w * vy w) by apply Rle_0_sqr. lra. }
  eapply Rle_trans; [exact L|]. apply Rle_abs.
Qed.

(** [p'] can stand for [p] *)
Definition stands (p' p : list Rpoint) : Prop :=
  Forall K p -> beside q p -> Forall K p' /\ beside q p' /\ incl p' p /\
  forall dx dy, Forall (fun x => pos q dx dy x <> 0) p -> par q dx dy p' = par q dx dy p.

Lemma stands_refl p : stands p p.
Proof. intros F B. repeat split; auto. apply incl_refl. Qed.
Lemma stands_trans p1 p2 p3 : stands p1 p2 -> stands p2 p3 -> stands p1 p3.
Proof.
  intros H1 H2 F B. destruct (H2 F B) as (F2 & B2 & I2 & E2). destruct (H1 F2 B2) as (F1 & B1 & I1 & E1).
  split; [exact F1|]. split; [exact B1|]. split; [exact (incl_tran I1 I2)|]. intros dx dy Fr. rewrite E1; [now apply E2|].
  rewrite Forall_forall in *. intros x Hx. apply Fr. now apply I2.
Qed.

Lemma stands_drop (p : list Rpoint) a b c r : isCollinear (A := ArithR) (L2 a b) (L2 b c) = true ->
  stands (p ++ a :: c :: r) (p ++ a :: b :: c :: r).
Proof.
  intros Col F B. assert (Ka : K a /\ K b /\ K c). { rewrite Forall_forall in F. repeat split; apply F, in_or_app; right; cbn; tauto. }
  destruct Ka as (Ka & Kb & Kc). pose proof (proj1 (beside_app _ _ _ _) B) as (B1 & B2). rewrite !beside_two in B2. destruct B2 as (Sab & Sbc & B3).
  assert (T := cut_corner a b c Ka Kb Kc Sab Sbc Col).
  split; [|split; [|split]].
  - rewrite Forall_forall in *. intros x Hx. apply F. apply in_app_or in Hx. apply in_or_app. cbn in *. tauto.
  - apply beside_app. split; [exact B1|]. apply beside_two. split; [|exact B3]. intros x O (Ex & Ey). apply T. now apply (tri_ab q a c x).
  - intros x Hx. apply in_app_or in Hx. apply in_or_app. cbn in *. tauto.
  - intros dx dy Fr. rewrite Forall_forall in Fr. apply par_drop; try assumption; apply Fr, in_or_app; right; cbn; tauto.
Qed.

Lemma min_loop_stands rest : forall x y t, let '(rr, l1) := min_loop (A := ArithR) (x :: y :: t) (L2 y x) rest in
  stands (rev rr) (rev (x :: y :: t) ++ rest) /\ exists x' y' t', rr = x' :: y' :: t' /\ l1 = L2 y' x'.
Proof.
  induction rest as [|pt r IH]; intros x y t; cbn [min_loop].
  - split; [|eauto]. rewrite app_nil_r. apply stands_refl.
  - cbn [lp1 lp2 tl]. destruct (isCollinear (L2 y x) (L2 x pt)) eqn:C.
    + specialize (IH pt y t). destruct (min_loop (pt :: y :: t) (L2 y pt) r) as (rr & l1). destruct IH as (IH & Sh). split; [|exact Sh].
      eapply stands_trans; [exact IH|]. cbn [rev]. rewrite <- !app_assoc. cbn [app]. now apply stands_drop.
    + specialize (IH pt x (y :: t)). destruct (min_loop (pt :: x :: y :: t) (L2 x pt) r) as (rr & l1). destruct IH as (IH & Sh). split; [|exact Sh].
      cbn [rev] in *. rewrite <- !app_assoc in *. exact IH.
Qed.

Lemma par_two dx dy a b r : par q dx dy (a :: b :: r) = xorb (hb q dx dy a b) (par q dx dy (b :: r)).
Proof. reflexivity. Qed.

Lemma seam_stands (a b y : Rpoint) (N s : list Rpoint) : b :: N = s ++ [y] -> isCollinear (A := ArithR) (L2 y a) (L2 a b) = true ->
  stands (b :: N ++ [b]) (a :: b :: N ++ [a]) /\ stands (y :: b :: N) (a :: b :: N ++ [a]).
Proof.
  intros E Col.
  assert (E1 : a :: b :: N ++ [a] = a :: s ++ y :: [a]).
  { change (a :: (b :: N) ++ [a] = a :: s ++ [y] ++ [a]). now rewrite E, <- app_assoc. }
  assert (All : Forall K (a :: b :: N ++ [a]) -> beside q (a :: b :: N ++ [a]) ->
    K a /\ K b /\ K y /\ side_off q a b /\ side_off q y a /\ beside q (b :: N) /\ ~ in_tri2 y a b q).
  { intros F B. assert (Kx : K a /\ K b). { rewrite Forall_forall in F. split; apply F; cbn; tauto. } destruct Kx as (Ka & Kb).
    assert (Ky : K y). { rewrite E1, Forall_forall in F. apply F. right. apply in_or_app. right. now left. }
    assert (B' := B). rewrite E1 in B'. apply (beside_app q (a :: s) y [a]) in B'. destruct B' as (_ & B'). apply beside_two in B'. destruct B' as (Sya & _).
    apply beside_two in B. destruct B as (Sab & B).
    assert (Bn : beside q (b :: N)). { change (b :: N ++ [a]) with ((b :: N) ++ [a]) in B. rewrite E in B |- *. rewrite <- app_assoc in B. apply beside_app in B. apply B. }
    repeat (split; [assumption|]). apply (cut_corner y a b); assumption. }
  assert (Yb : forall T : ~ in_tri2 y a b q, side_off q y b).
  { intros T x O (Ex & Ey). apply T. now apply (tri_ab q y b x). }
  assert (P : forall dx dy, par q dx dy (a :: b :: N ++ [a]) = xorb (hb q dx dy a b) (xorb (par q dx dy (s ++ [y])) (hb q dx dy y a))).
  { intros dx dy. rewrite par_two. f_equal. change (b :: N ++ [a]) with ((b :: N) ++ [a]). rewrite E, <- app_assoc. cbn [app]. rewrite par_app. f_equal.
    rewrite par_two. apply xorb_false_r. }
  split; intros F B; destruct (All F B) as (Ka & Kb & Ky & Sab & Sya & Bn & T).
  - assert (Q : b :: N ++ [b] = s ++ y :: [b]) by (change (b :: N ++ [b]) with ((b :: N) ++ [b]); now rewrite E, <- app_assoc).
    split; [|split; [|split]].
    + rewrite Forall_forall in *. intros x [<-|Hx]; [exact Kb|]. apply in_app_or in Hx. destruct Hx as [Hx|[<-|[]]]; [|exact Kb]. apply F. right. right. apply in_or_app. now left.
    + rewrite Q. apply beside_app. rewrite <- E. split; [exact Bn|]. apply beside_two. split; [now apply Yb|apply beside_single].
    + intros x [<-|Hx]; [right; now left|]. apply in_app_or in Hx. right. destruct Hx as [Hx|[<-|[]]]; [right; apply in_or_app; now left|now left].
    + intros dx dy Fr. assert (Fr' : pos q dx dy a <> 0 /\ pos q dx dy b <> 0 /\ pos q dx dy y <> 0).
      { split; [|split]; [| |rewrite E1 in Fr]; rewrite Forall_forall in Fr; apply Fr; [cbn; tauto|cbn; tauto|]. right. apply in_or_app. right. now left. }
      destruct Fr' as (Pa & Pb & Py). rewrite P, Q, par_app, par_two. cbn [par]. rewrite xorb_false_r, <- (tri_even q dx dy y a b Py Pa Pb T).
      destruct (par q dx dy (s ++ [y])), (hb q dx dy y a), (hb q dx dy a b); reflexivity.
  - split; [|split; [|split]].
    + rewrite Forall_forall in *. intros x [<-|Hx]; [exact Ky|]. apply F. right. destruct Hx as [<-|Hx]; [now left|right; apply in_or_app; now left].
    + apply beside_two. split; [now apply Yb|exact Bn].
    + intros x [<-|Hx]; [rewrite E1; right; apply in_or_app; right; now left|]. right. destruct Hx as [<-|Hx]; [now left|right; apply in_or_app; now left].
    + intros dx dy Fr. assert (Fr' : pos q dx dy a <> 0 /\ pos q dx dy b <> 0 /\ pos q dx dy y <> 0).
      { split; [|split]; [| |rewrite E1 in Fr]; rewrite Forall_forall in Fr; apply Fr; [cbn; tauto|cbn; tauto|]. right. apply in_or_app. right. now left. }
      destruct Fr' as (Pa & Pb & Py). rewrite P. transitivity (xorb (hb q dx dy y b) (par q dx dy (s ++ [y]))); [rewrite <- E; reflexivity|]. rewrite <- (tri_even q dx dy y a b Py Pa Pb T).
      destruct (par q dx dy (s ++ [y])), (hb q dx dy y a), (hb q dx dy a b); reflexivity.
Qed.

Lemma minimize_stands (p : Rpath) : returns p -> stands (minimizeLines (A := ArithR) p) p /\ returns (minimizeLines (A := ArithR) p).
Proof.
  intros Lp. destruct p as [|a [|b [|c r]]]; try (split; [apply stands_refl|exact Lp]).
  destruct Lp as (a' & r' & Ea & La). injection Ea as <- <-.
  pose proof (min_loop_stands (c :: r) b a []) as M.
  destruct (min_loop_p (A := ArithR) a b c r a) as (_ & Hh & Hl & _). apply (fun H => eq_trans H La) in Hl.
  change (minimizeLines (a :: b :: c :: r)) with (let '(rr, l1) := min_loop (A := ArithR) [b; a] (L2 a b) (c :: r) in min_seam (rev rr) l1).
  destruct (min_loop [b; a] (L2 a b) (c :: r)) as (rr & l1). cbn [fst] in Hh, Hl. destruct M as (M & x & y & t & -> & ->).
  change (rev [b; a] ++ c :: r) with (a :: b :: c :: r) in M. cbn [rev] in *. rewrite <- app_assoc in *. cbn [app] in *.
  assert (Ex : x = a). { rewrite <- Hl. change (rev t ++ [y; x]) with (rev t ++ [y] ++ [x]). rewrite app_assoc, last_last. reflexivity. }
  subst x. destruct (rev t) as [|u s] eqn:Et; cbn [app hd] in Hh.
  - (* two points *)
    subst y. cbn [app] in *. unfold min_seam. cbn [isClosed last]. rewrite pt_equal_refl.
    assert (S2 : stands [a] [a; a]).
    { intros F B. split; [now inversion F|]. split; [apply beside_single|]. split; [intros x [<-|[]]; now left|].
      intros dx dy Fr. rewrite par_two. inversion Fr as [|? ? F1 _]; subst. rewrite hb_same_side; [reflexivity|].
      assert (0 < Rsqr (pos q dx dy a)) by now apply Rlt_0_sqr. assumption. }
    assert (L1 : returns [a]) by (exists a, []; now split). assert (L2' : returns [a; a]) by (exists a, [a]; now split).
    assert (M2 := stands_trans _ _ _ S2 M).
    destruct (isCollinear (L2 a a) (L2 a a)); [|now split]. cbn [removelast app tl rev]. destruct (nltb _ _); now split.
  - subst u. destruct (s ++ [y]) as [|b' N] eqn:Eb; [destruct s; discriminate|].
    assert (Er : (a :: s) ++ [y; a] = a :: b' :: N ++ [a]).
    { change (a :: s ++ [y] ++ [a] = a :: (b' :: N) ++ [a]). now rewrite app_assoc, Eb. }
    change (a :: s ++ [y; a]) with ((a :: s) ++ [y; a]) in *. rewrite Er in *.
    assert (Lr : returns (a :: b' :: N ++ [a])). { exists a, (b' :: N ++ [a]). split; [reflexivity|]. change (a :: b' :: N ++ [a]) with ((a :: b' :: N) ++ [a]). apply last_last. }
    unfold min_seam. assert (Ic : isClosed (A := ArithR) (a :: b' :: N ++ [a]) = true).
    { unfold isClosed. change (a :: b' :: N ++ [a]) with ((a :: b' :: N) ++ [a]). rewrite last_last. apply pt_equal_refl. }
    rewrite Ic. destruct (isCollinear (L2 y a) (L2 a b')) eqn:Col; [|split; [exact M|exact Lr]].
    destruct (seam_stands a b' y N s (eq_sym Eb) Col) as (S1 & S2).
    destruct (nltb _ _).
    + assert (Eo : tl (removelast (a :: b' :: N ++ [a]) ++ [b']) = b' :: N ++ [b']).
      { change (a :: b' :: N ++ [a]) with ((a :: b' :: N) ++ [a]). rewrite removelast_last. reflexivity. }
      rewrite Eo. split; [exact (stands_trans _ _ _ S1 M)|]. exists b', (N ++ [b']). split; [reflexivity|].
      change (b' :: N ++ [b']) with ((b' :: N) ++ [b']). apply last_last.
    + assert (Ev : rev (a :: b' :: N ++ [a]) = a :: y :: rev (a :: s)).
      { rewrite <- Er, rev_app_distr. reflexivity. }
      rewrite Ev. assert (Eo : removelast (y :: tl (a :: b' :: N ++ [a])) = y :: b' :: N).
      { cbn [tl]. change (y :: b' :: N ++ [a]) with ((y :: b' :: N) ++ [a]). apply removelast_last. }
      rewrite Eo. split; [exact (stands_trans _ _ _ S2 M)|]. exists y, (b' :: N). split; [reflexivity|].
      rewrite <- Eb. change (y :: s ++ [y]) with ((y :: s) ++ [y]). apply last_last.
Qed.
End Keep.
