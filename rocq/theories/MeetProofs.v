(** * Proofs about the section of a triangle and another triangle *)
From Coq Require Import Reals Lra Lia List Bool ZArith PeanoNat.
From Verif Require Import Arith ArithR Prim Path GeomSpec GeomProofs SupportClaims SupportProofs.
Import ListNotations.
Close Scope Z_scope.
Close Scope num_scope.
Local Open Scope R_scope.

(** ** Barycentric weights

    e and f are the weights (times D) of the ends of a segment with respect to a triangle. The
    segment crosses side i if the weight i changes its sign and the two corners of the side are
    on different sides of the segment. *)
Definition meets (e1 e2 e3 f1 f2 f3 : R) : Prop :=
  exists t, 0 <= t <= 1 /\ 0 <= (1 - t) * e1 + t * f1 /\ 0 <= (1 - t) * e2 + t * f2 /\ 0 <= (1 - t) * e3 + t * f3.
Definition pos (e1 e2 e3 : R) : Prop := 0 < e1 /\ 0 < e2 /\ 0 < e3.
Definition s1 (e1 e2 e3 f1 f2 f3 : R) : Prop := e1 * f1 < 0 /\ (e3 * f1 - e1 * f3) * (e1 * f2 - e2 * f1) < 0.
Definition hit (e1 e2 e3 f1 f2 f3 : R) : Prop :=
  let S1 := s1 e1 e2 e3 f1 f2 f3 in let S2 := s1 e2 e3 e1 f2 f3 f1 in let S3 := s1 e3 e1 e2 f3 f1 f2 in
  (pos e1 e2 e3 /\ pos f1 f2 f3) \/ ((pos e1 e2 e3 \/ pos f1 f2 f3) /\ (S1 \/ S2 \/ S3)) \/ (S1 /\ S2) \/ (S2 /\ S3) \/ (S3 /\ S1).

Lemma hit_rot e1 e2 e3 f1 f2 f3 : hit e1 e2 e3 f1 f2 f3 <-> hit e2 e3 e1 f2 f3 f1.
Proof. unfold hit, pos. tauto. Qed.
Lemma meets_rot e1 e2 e3 f1 f2 f3 : meets e1 e2 e3 f1 f2 f3 <-> meets e2 e3 e1 f2 f3 f1.
Proof. unfold meets. split; intros (t & H); exists t; tauto. Qed.
Lemma s1_swap e1 e2 e3 f1 f2 f3 : s1 e1 e2 e3 f1 f2 f3 <-> s1 f1 f2 f3 e1 e2 e3.
Proof.
  unfold s1. rewrite (Rmult_comm e1 f1).
  replace ((f3 * e1 - f1 * e3) * (f1 * e2 - f2 * e1)) with ((e3 * f1 - e1 * f3) * (e1 * f2 - e2 * f1)) by ring. tauto.
Qed.
Lemma hit_swap e1 e2 e3 f1 f2 f3 : hit e1 e2 e3 f1 f2 f3 <-> hit f1 f2 f3 e1 e2 e3.
Proof.
  unfold hit. cbv zeta. rewrite (s1_swap e1 e2 e3), (s1_swap e2 e3 e1), (s1_swap e3 e1 e2). tauto.
Qed.
Lemma meets_swap e1 e2 e3 f1 f2 f3 : meets e1 e2 e3 f1 f2 f3 <-> meets f1 f2 f3 e1 e2 e3.
Proof.
  unfold meets. split; intros (t & H & A & B & C); exists (1 - t); (split; [lra|]);
    replace (1 - (1 - t)) with t by ring; lra.
Qed.

(** the corner 1 is alone on its side of the segment *)
Lemma hit_one e1 e2 e3 f1 f2 f3 D : 0 < D -> e1 + e2 + e3 = D -> f1 + f2 + f3 = D ->
  e1 <> 0 -> e2 <> 0 -> e3 <> 0 -> f1 <> 0 -> f2 <> 0 -> f3 <> 0 ->
  0 < e2 * f3 - e3 * f2 -> e3 * f1 - e1 * f3 < 0 -> e1 * f2 - e2 * f1 < 0 ->
  hit e1 e2 e3 f1 f2 f3 <-> meets e1 e2 e3 f1 f2 f3.
Proof.
  intros HD He Hf E1 E2 E3 F1 F2 F3 Ha Hb Hc.
  set (a := e2 * f3 - e3 * f2) in *. set (b := e3 * f1 - e1 * f3) in *. set (c := e1 * f2 - e2 * f1) in *.
  assert (Ie : a * e1 = - b * e2 - c * e3) by (unfold a, b, c; ring).
  assert (If : a * f1 = - b * f2 - c * f3) by (unfold a, b, c; ring).
  (* inside means weights 2 and 3 positive *)
  assert (G : forall x1 x2 x3, a * x1 = - b * x2 - c * x3 -> 0 <= x2 -> 0 <= x3 -> 0 <= x1).
  { intros x1 x2 x3 I H2 H3. apply Rmult_le_reg_l with a; [exact Ha|]. rewrite I, Rmult_0_r.
    assert (0 <= - b * x2) by (apply Rmult_le_pos; lra). assert (0 <= - c * x3) by (apply Rmult_le_pos; lra). lra. }
  assert (Pe : pos e1 e2 e3 <-> 0 < e2 /\ 0 < e3).
  { split; [unfold pos; tauto|]. intros (H2 & H3). pose proof (G _ _ _ Ie (Rlt_le _ _ H2) (Rlt_le _ _ H3)). unfold pos. lra. }
  assert (Pf : pos f1 f2 f3 <-> 0 < f2 /\ 0 < f3).
  { split; [unfold pos; tauto|]. intros (H2 & H3). pose proof (G _ _ _ If (Rlt_le _ _ H2) (Rlt_le _ _ H3)). unfold pos. lra. }
  assert (S1 : ~ s1 e1 e2 e3 f1 f2 f3).
  { unfold s1. fold b c. intros (_ & H). nra. }
  assert (S2 : s1 e2 e3 e1 f2 f3 f1 <-> e2 * f2 < 0).
  { unfold s1. fold a c. assert (c * a < 0) by nra. tauto. }
  assert (S3 : s1 e3 e1 e2 f3 f1 f2 <-> e3 * f3 < 0).
  { unfold s1. fold a b. assert (a * b < 0) by nra. tauto. }
  assert (M : meets e1 e2 e3 f1 f2 f3 <-> exists t, 0 <= t <= 1 /\ 0 <= (1 - t) * e2 + t * f2 /\ 0 <= (1 - t) * e3 + t * f3).
  { split; intros (t & H); exists t; [tauto|]. destruct H as (H & H2 & H3). split; [exact H|]. split; [|auto].
    apply (G _ ((1 - t) * e2 + t * f2) ((1 - t) * e3 + t * f3)); [|exact H2|exact H3].
    transitivity ((1 - t) * (a * e1) + t * (a * f1)); [ring|]. rewrite Ie, If. ring. }
  unfold hit. cbv zeta. rewrite S2, S3, Pe, Pf, M. split.
  - intros H.
    assert (K : (0 < e2 /\ 0 < e3) \/ (0 < f2 /\ 0 < f3) \/ (e2 * f2 < 0 /\ e3 * f3 < 0)) by tauto. clear H.
    destruct K as [K|[K|(K2 & K3)]]; [exists 0; lra|exists 1; lra|].
    destruct (Rlt_or_le e2 0) as [H2|H2].
    + (* the crossing of side 2 would have weights of the wrong sign *)
      assert (P2 : 0 < f2) by nra.
      destruct (Rlt_or_le e3 0) as [H3|H3]; [exists 1; assert (0 < f3) by nra; lra|]. assert (P3' : f3 < 0) by nra. exfalso.
      assert (N : e3 * f2 - e2 * f3 < 0) by (unfold a in Ha; lra).
      set (g1 := e1 * f2 - e2 * f1). set (g3 := e3 * f2 - e2 * f3) in *.
      assert (Sum : g1 + g3 = D * (f2 - e2)).
      { unfold g1, g3. transitivity ((e1 + e3) * f2 - e2 * (f1 + f3)); [ring|]. replace (e1 + e3) with (D - e2) by lra. replace (f1 + f3) with (D - f2) by lra. ring. }
      assert (0 < D * (f2 - e2)) by (apply Rmult_lt_0_compat; lra). change g1 with c in Sum. lra.
    + assert (P2 : f2 < 0) by nra.
      destruct (Rlt_or_le e3 0) as [H3|H3]; [|exists 0; assert (f3 < 0) by nra; lra]. assert (P3' : 0 < f3) by nra.
      assert (Dn : 0 < e2 - f2) by lra. exists (e2 / (e2 - f2)). split.
      { split; [apply Rmult_le_pos; [lra|left; apply Rinv_0_lt_compat; lra]|]. apply Rmult_le_reg_r with (e2 - f2); [lra|]. unfold Rdiv. rewrite Rmult_assoc, Rinv_l by lra. lra. }
      split; [right; field; lra|].
      replace ((1 - e2 / (e2 - f2)) * e3 + e2 / (e2 - f2) * f3) with (a / (e2 - f2)) by (unfold a; field; lra).
      apply Rmult_le_pos; [lra|left; apply Rinv_0_lt_compat; lra].
  - intros (t & (T0 & T1) & G2 & G3).
    assert (N2 : ~ (e2 < 0 /\ f2 < 0)) by (intros (Q1 & Q2); destruct (Req_dec t 0) as [->|Nt]; nra).
    assert (N3 : ~ (e3 < 0 /\ f3 < 0)) by (intros (Q1 & Q2); destruct (Req_dec t 0) as [->|Nt]; nra).
    assert (M2 : forall x y : R, x < 0 -> 0 < y -> x * y < 0) by (intros; nra).
    assert (M2' : forall x y : R, 0 < x -> y < 0 -> x * y < 0) by (intros; nra).
    destruct (Rdichotomy _ _ E2) as [A2|A2]; destruct (Rdichotomy _ _ E3) as [A3|A3];
      destruct (Rdichotomy _ _ F2) as [B2|B2]; destruct (Rdichotomy _ _ F3) as [B3|B3];
      try (exfalso; tauto); auto 12.
Qed.

Theorem hit_meets e1 e2 e3 f1 f2 f3 D : 0 < D -> e1 + e2 + e3 = D -> f1 + f2 + f3 = D ->
  e1 <> 0 -> e2 <> 0 -> e3 <> 0 -> f1 <> 0 -> f2 <> 0 -> f3 <> 0 ->
  e2 * f3 - e3 * f2 <> 0 -> e3 * f1 - e1 * f3 <> 0 -> e1 * f2 - e2 * f1 <> 0 ->
  hit e1 e2 e3 f1 f2 f3 <-> meets e1 e2 e3 f1 f2 f3.
Proof.
  intros HD He Hf E1 E2 E3 F1 F2 F3 Ha Hb Hc.
  (* with the odd sign on any corner, and both directions of the segment *)
  assert (W : forall e1 e2 e3 f1 f2 f3, e1 + e2 + e3 = D -> f1 + f2 + f3 = D ->
    e1 <> 0 -> e2 <> 0 -> e3 <> 0 -> f1 <> 0 -> f2 <> 0 -> f3 <> 0 ->
    (0 < e2 * f3 - e3 * f2 /\ e3 * f1 - e1 * f3 < 0 /\ e1 * f2 - e2 * f1 < 0) \/ (e2 * f3 - e3 * f2 < 0 /\ 0 < e3 * f1 - e1 * f3 /\ 0 < e1 * f2 - e2 * f1) ->
    hit e1 e2 e3 f1 f2 f3 <-> meets e1 e2 e3 f1 f2 f3).
  { clear -HD. intros e1 e2 e3 f1 f2 f3 He Hf E1 E2 E3 F1 F2 F3 [(Ha & Hb & Hc)|(Ha & Hb & Hc)].
    - apply (hit_one _ _ _ _ _ _ D); assumption.
    - rewrite hit_swap, meets_swap. apply (hit_one _ _ _ _ _ _ D); try assumption; lra. }
  assert (I : forall x1 x2 x3, (e2 * f3 - e3 * f2) * ((1 - x1) * e1 + x1 * f1) + (e3 * f1 - e1 * f3) * ((1 - x2) * e2 + x2 * f2) + (e1 * f2 - e2 * f1) * ((1 - x3) * e3 + x3 * f3)
     = (e2 * f3 - e3 * f2) * x1 * (f1 - e1) + (e3 * f1 - e1 * f3) * x2 * (f2 - e2) + (e1 * f2 - e2 * f1) * x3 * (f3 - e3)) by (intros; ring).
  assert (All : forall t, (e2 * f3 - e3 * f2) * ((1 - t) * e1 + t * f1) + (e3 * f1 - e1 * f3) * ((1 - t) * e2 + t * f2) + (e1 * f2 - e2 * f1) * ((1 - t) * e3 + t * f3) = 0)
    by (intros; ring). clear I.
  assert (Same : (0 < e2 * f3 - e3 * f2 /\ 0 < e3 * f1 - e1 * f3 /\ 0 < e1 * f2 - e2 * f1) \/ (e2 * f3 - e3 * f2 < 0 /\ e3 * f1 - e1 * f3 < 0 /\ e1 * f2 - e2 * f1 < 0) ->
    hit e1 e2 e3 f1 f2 f3 <-> meets e1 e2 e3 f1 f2 f3).
  { intros Sg. assert (NM : ~ meets e1 e2 e3 f1 f2 f3).
    { intros (t & _ & G1 & G2 & G3). pose proof (All t) as A. set (g1 := (1 - t) * e1 + t * f1) in *. set (g2 := (1 - t) * e2 + t * f2) in *. set (g3 := (1 - t) * e3 + t * f3) in *.
      assert (Sm : g1 + g2 + g3 = D) by (unfold g1, g2, g3; transitivity ((1 - t) * (e1 + e2 + e3) + t * (f1 + f2 + f3)); [ring|rewrite He, Hf; ring]).
      set (a := e2 * f3 - e3 * f2) in *. set (b := e3 * f1 - e1 * f3) in *. set (c := e1 * f2 - e2 * f1) in *.
      destruct Sg as [(A1 & A2 & A3)|(A1 & A2 & A3)].
      - assert (0 <= a * g1 /\ 0 <= b * g2 /\ 0 <= c * g3) by (repeat split; apply Rmult_le_pos; lra).
        assert (g1 = 0 /\ g2 = 0 /\ g3 = 0) by (repeat split; [apply (Rmult_eq_reg_l a)|apply (Rmult_eq_reg_l b)|apply (Rmult_eq_reg_l c)]; lra). lra.
      - assert (0 <= (- a) * g1 /\ 0 <= (- b) * g2 /\ 0 <= (- c) * g3) by (repeat split; apply Rmult_le_pos; lra).
        assert (g1 = 0 /\ g2 = 0 /\ g3 = 0) by (repeat split; [apply (Rmult_eq_reg_l a)|apply (Rmult_eq_reg_l b)|apply (Rmult_eq_reg_l c)]; lra). lra. }
    split; [|tauto]. intros H. exfalso. apply NM.
    assert (T0 : forall x y : R, (1 - 0) * x + 0 * y = x) by (intros; ring). assert (T1 : forall x y : R, (1 - 1) * x + 1 * y = y) by (intros; ring).
    assert (P : pos e1 e2 e3 \/ pos f1 f2 f3).
    { assert (Z : forall x y : R, (0 < x /\ 0 < y) \/ (x < 0 /\ y < 0) -> ~ x * y < 0) by (intros; nra).
      unfold hit, s1 in H. cbv zeta in H.
      pose proof (Z (e3 * f1 - e1 * f3) (e1 * f2 - e2 * f1) ltac:(tauto)) as Z1.
      pose proof (Z (e1 * f2 - e2 * f1) (e2 * f3 - e3 * f2) ltac:(tauto)) as Z2.
      pose proof (Z (e2 * f3 - e3 * f2) (e3 * f1 - e1 * f3) ltac:(tauto)) as Z3. tauto. }
    destruct P as [(P1 & P2 & P3)|(P1 & P2 & P3)]; [exists 0; rewrite !T0|exists 1; rewrite !T1]; lra. }
  destruct (Rdichotomy _ _ Ha) as [A|A]; destruct (Rdichotomy _ _ Hb) as [B|B]; destruct (Rdichotomy _ _ Hc) as [C|C];
    try (apply Same; tauto).
  - (* c odd *) rewrite hit_rot, hit_rot, meets_rot, meets_rot. apply W; try assumption; try lra.
  - rewrite hit_rot, meets_rot. apply W; try assumption; try lra.
  - apply W; try assumption; try lra.
  - apply W; try assumption; try lra.
  - rewrite hit_rot, meets_rot. apply W; try assumption; try lra.
  - rewrite hit_rot, hit_rot, meets_rot, meets_rot. apply W; try assumption; try lra.
Qed.

(** ** Triangle.IntersectTriangle in general position *)
Definition cr (a b q : Rpoint) : R := tri2 (X a) (Y a) b q.

Lemma cr_def (a b q : Rpoint) : cr a b q = (X b - X a) * (Y q - Y a) - (X q - X a) * (Y b - Y a).
Proof. reflexivity. Qed.

Lemma orient_clear (r p q : Rpoint) : / 10 ^ 6 <= Rabs (cr p q r) ->
  orientation r p q = if Rltb (cr p q r) 0 then 1%nat else 2%nat.
Proof.
  intros H. unfold orientation. rcbn.
  match goal with |- context [almostZero ?v] => set (val := v) end.
  assert (Ev : val = - cr p q r) by (unfold val; rewrite cr_def; unfold X, Y; ring).
  assert (NZ : almostZero (A := ArithR) val = false).
  { apply not_true_is_false. intros T. apply almostZero_R in T. rewrite Ev, Rabs_Ropp in T.
    replace (/ 10 ^ 6) with (/ 1000000) in H by lra. lra. }
  rewrite NZ. replace (Rltb 0 val) with (Rltb (cr p q r) 0); [reflexivity|].
  destruct (Rltb (cr p q r) 0) eqn:E.
  - apply Rltb_true in E. symmetry. apply Rltb_true. lra.
  - apply Rltb_false in E. symmetry. apply Rltb_false. lra.
Qed.

Lemma clear_nz (x : R) : / 10 ^ 6 <= Rabs x -> x <> 0.
Proof. intros H ->. rewrite Rabs_R0 in H. lra. Qed.

(** the comparison of two orientations *)
Lemma sides_differ (x y : R) : x <> 0 -> y <> 0 ->
  negb (Nat.eqb (if Rltb x 0 then 1 else 2) (if Rltb y 0 then 1 else 2)) = true <-> x * y < 0.
Proof.
  intros Hx Hy. destruct (Rltb x 0) eqn:Ex; destruct (Rltb y 0) eqn:Ey; cbn;
    [apply Rltb_true in Ex; apply Rltb_true in Ey|apply Rltb_true in Ex; apply Rltb_false in Ey|apply Rltb_false in Ex; apply Rltb_true in Ey|apply Rltb_false in Ex; apply Rltb_false in Ey];
    split; intros; try reflexivity; try discriminate; nra.
Qed.

Lemma side_crossed (V W E F : Rpoint) :
  / 10 ^ 6 <= Rabs (cr V W E) -> / 10 ^ 6 <= Rabs (cr V W F) -> / 10 ^ 6 <= Rabs (cr E F V) -> / 10 ^ 6 <= Rabs (cr E F W) ->
  (cr V W E * cr V W F < 0 /\ cr E F V * cr E F W < 0 -> exists q, intersectLine (L2 V W) (L2 E F) = Some (PFresh, q)) /\
  (~ (cr V W E * cr V W F < 0 /\ cr E F V * cr E F W < 0) -> intersectLine (L2 V W) (L2 E F) = None).
Proof.
  intros H1 H2 H3 H4. unfold intersectLine. cbn [lp1 lp2]. rewrite !orient_clear by assumption.
  pose proof (sides_differ _ _ (clear_nz _ H1) (clear_nz _ H2)) as D1.
  pose proof (sides_differ _ _ (clear_nz _ H3) (clear_nz _ H4)) as D2.
  split.
  - intros (A & B). apply D1 in A. apply D2 in B. rewrite A, B. cbn [andb]. eexists. reflexivity.
  - intros N. match goal with |- context [if ?b then _ else _] => replace b with false end.
    2:{ symmetry. apply not_true_is_false. intros T. apply andb_true_iff in T. tauto. }
    repeat match goal with |- context [Nat.eqb (if ?b then 1 else 2) 0] => replace (Nat.eqb (if b then 1 else 2) 0) with false by (destruct b; reflexivity) end.
    reflexivity.
Qed.

Lemma cr_rev (a b q : Rpoint) : cr b a q = - cr a b q.
Proof. rewrite !cr_def. ring. Qed.

(** the decision, in terms of the signs *)
Lemma decision (bt t : Rtriangle) ln :
  intersectTriangle (Pl (t1 bt) (t_n bt)) t = Some ln ->
  let A := t1 bt in let B := t2 bt in let C := t3 bt in let E := lp1 ln in let F := lp2 ln in
  let S := fun V W => cr V W E * cr V W F < 0 /\ cr E F V * cr E F W < 0 in
  (forall v w q, In (v, w) [(A, B); (B, C); (C, A)] -> In q [E; F] -> / 10 ^ 6 <= Rabs (cr v w q)) ->
  (forall v, In v [A; B; C] -> / 10 ^ 6 <= Rabs (cr E F v)) ->
  (t_intersectTriangle bt t <> None <->
   (t_pointBelongs bt E = true /\ t_pointBelongs bt F = true) \/
   ((t_pointBelongs bt E = true \/ t_pointBelongs bt F = true) /\ (S A B \/ S B C \/ S C A)) \/
   (S A B /\ S B C /\ ~ S C A) \/ (S B C /\ S C A /\ ~ S A B) \/ (S C A /\ S A B /\ ~ S B C)).
Proof.
  intros Hi A B C E F S G1 G2. unfold t_intersectTriangle. rewrite Hi. fold E F.
  assert (El : ln = L2 E F) by (destruct ln; reflexivity).
  fold A B C. rewrite El.
  assert (N : forall P : Prop, (P -> False) -> ~ P) by auto.
  destruct (side_crossed A B E F) as (Y1 & N1); [apply G1; cbn; auto|apply G1; cbn; auto|apply G2; cbn; auto|apply G2; cbn; auto|].
  destruct (side_crossed A C E F) as (Y2' & N2'); [rewrite cr_rev, Rabs_Ropp; apply G1; cbn; auto|rewrite cr_rev, Rabs_Ropp; apply G1; cbn; auto|apply G2; cbn; auto|apply G2; cbn; auto|].
  destruct (side_crossed B C E F) as (Y3 & N3); [apply G1; cbn; auto|apply G1; cbn; auto|apply G2; cbn; auto|apply G2; cbn; auto|].
  assert (SAC : cr A C E * cr A C F < 0 /\ cr E F A * cr E F C < 0 <-> S C A).
  { unfold S. rewrite (cr_rev C A E), (cr_rev C A F), (Rmult_comm (cr E F A)).
    replace (- cr C A E * - cr C A F) with (cr C A E * cr C A F) by ring. tauto. }
  rewrite SAC in Y2', N2'. fold (S A B) in Y1, N1. fold (S B C) in Y3, N3. rename Y2' into Y2. rename N2' into N2.
  clearbody S. clear SAC G1 G2.
  destruct (t_pointBelongs bt E) eqn:BE; destruct (t_pointBelongs bt F) eqn:BF; cbn [andb orb].
  - split; [auto|discriminate].
  - destruct (Classical_Prop.classic (S A B)) as [H1|H1]; [destruct (Y1 H1) as (q1 & Q1); rewrite ?Q1|rewrite ?(N1 H1)];
    (destruct (Classical_Prop.classic (S C A)) as [H2|H2]; [destruct (Y2 H2) as (q2 & Q2); rewrite ?Q2|rewrite ?(N2 H2)]);
    (destruct (Classical_Prop.classic (S B C)) as [H3|H3]; [destruct (Y3 H3) as (q3 & Q3); rewrite ?Q3|rewrite ?(N3 H3)]);
    (split; [intros K; try (exfalso; apply K; reflexivity); tauto|]);
    (intros K; try discriminate; exfalso; intuition (discriminate || tauto)).
  - destruct (Classical_Prop.classic (S A B)) as [H1|H1]; [destruct (Y1 H1) as (q1 & Q1); rewrite ?Q1|rewrite ?(N1 H1)];
    (destruct (Classical_Prop.classic (S C A)) as [H2|H2]; [destruct (Y2 H2) as (q2 & Q2); rewrite ?Q2|rewrite ?(N2 H2)]);
    (destruct (Classical_Prop.classic (S B C)) as [H3|H3]; [destruct (Y3 H3) as (q3 & Q3); rewrite ?Q3|rewrite ?(N3 H3)]);
    (split; [intros K; try (exfalso; apply K; reflexivity); tauto|]);
    (intros K; try discriminate; exfalso; intuition (discriminate || tauto)).
  - destruct (Classical_Prop.classic (S A B)) as [H1|H1]; [destruct (Y1 H1) as (q1 & Q1); rewrite ?Q1|rewrite ?(N1 H1)];
    (destruct (Classical_Prop.classic (S C A)) as [H2|H2]; [destruct (Y2 H2) as (q2 & Q2); rewrite ?Q2|rewrite ?(N2 H2)]);
    (destruct (Classical_Prop.classic (S B C)) as [H3|H3]; [destruct (Y3 H3) as (q3 & Q3); rewrite ?Q3|rewrite ?(N3 H3)]);
    cbn [same_ptr];
    (split; [intros K; try (exfalso; apply K; reflexivity); tauto|]);
    (intros K; try discriminate; exfalso; intuition (discriminate || tauto)).
Qed.

(** Triangle.PointBelongs away from the sides *)
Lemma belongs_clear (bt : Rtriangle) (q : Rpoint) : Rabs (sd (Pl (t1 bt) (t_n bt)) q) < / 10 ^ 6 ->
  let w1 := cr (t1 bt) (t2 bt) q in let w2 := cr (t2 bt) (t3 bt) q in let w3 := cr (t3 bt) (t1 bt) q in
  t_pointBelongs bt q = true <-> (0 <= w1 /\ 0 <= w2 /\ 0 <= w3) \/ (w1 <= 0 /\ w2 <= 0 /\ w3 <= 0).
Proof.
  intros H w1 w2 w3. unfold t_pointBelongs, pl_pointBelongs. cbn [pl_n pl_p].
  replace (almostZero _) with true.
  2:{ symmetry. apply almostZero_R. replace (/ 1000000) with (/ 10 ^ 6) by lra. eapply Rle_lt_trans; [right|exact H]. f_equal.
      unfold sd, X, Y, Z3. cbn [pl_n pl_p]. rcbn. ring. }
  rcbn. rewrite orb_true_iff, !andb_true_iff, !Rleb_true.
  assert (E1 : w1 = (px (t1 bt) - px q) * (py (t2 bt) - py (t1 bt)) - (px (t2 bt) - px (t1 bt)) * (py (t1 bt) - py q)) by (unfold w1; rewrite cr_def; unfold X, Y; rring).
  assert (E2 : w2 = (px (t2 bt) - px q) * (py (t3 bt) - py (t2 bt)) - (px (t3 bt) - px (t2 bt)) * (py (t2 bt) - py q)) by (unfold w2; rewrite cr_def; unfold X, Y; rring).
  assert (E3 : w3 = (px (t3 bt) - px q) * (py (t1 bt) - py (t3 bt)) - (px (t1 bt) - px (t3 bt)) * (py (t3 bt) - py q)) by (unfold w3; rewrite cr_def; unfold X, Y; rring).
  rewrite E1, E2, E3. tauto.
Qed.

Lemma weights_sum (A B C q : Rpoint) : cr A B q + cr B C q + cr C A q = cr A B C.
Proof. rewrite !cr_def. ring. Qed.
Lemma minor1 (A B C E F : Rpoint) : cr B C E * cr C A F - cr C A E * cr B C F = cr A B C * cr E F C.
Proof. rewrite !cr_def. ring. Qed.
Lemma minor2 (A B C E F : Rpoint) : cr C A E * cr A B F - cr A B E * cr C A F = cr A B C * cr E F A.
Proof. rewrite !cr_def. ring. Qed.
Lemma minor3 (A B C E F : Rpoint) : cr A B E * cr B C F - cr B C E * cr A B F = cr A B C * cr E F B.
Proof. rewrite !cr_def. ring. Qed.

(** the points above, in or below a triangle that is not upright *)
Definition over (t : Rtriangle) (q : Rpoint) : Prop := exists p, in_tri (t1 t) (t2 t) (t3 t) p /\ X p = X q /\ Y p = Y q.

Lemma over_weights (t : Rtriangle) (q : Rpoint) : let D := cr (t1 t) (t2 t) (t3 t) in D <> 0 ->
  (over t q <-> 0 <= D * cr (t1 t) (t2 t) q /\ 0 <= D * cr (t2 t) (t3 t) q /\ 0 <= D * cr (t3 t) (t1 t) q).
Proof.
  intros D HD. destruct t as [n A B C]. cbn [t1 t2 t3] in *. unfold over. cbn [t1 t2 t3].
  assert (D2 : 0 < D * D) by nra. split.
  - intros (p & (u & v & w & Hu & Hv & Hw & Sm & Ep) & Ex & Ey).
    assert (Xq : X q = u * X A + v * X B + w * X C) by (rewrite <- Ex, Ep; reflexivity).
    assert (Yq : Y q = u * Y A + v * Y B + w * Y C) by (rewrite <- Ey, Ep; reflexivity).
    assert (U : u = 1 - v - w) by lra.
    assert (W1 : D * cr A B q = w * (D * D)) by (unfold D; rewrite !cr_def, Xq, Yq, U; ring).
    assert (W2 : D * cr B C q = u * (D * D)) by (unfold D; rewrite !cr_def, Xq, Yq, U; ring).
    assert (W3 : D * cr C A q = v * (D * D)) by (unfold D; rewrite !cr_def, Xq, Yq, U; ring).
    rewrite W1, W2, W3. repeat split; apply Rmult_le_pos; lra.
  - intros (W1 & W2 & W3). pose proof (weights_sum A B C q) as Sm. fold D in Sm.
    assert (Q : forall x, 0 <= D * x -> 0 <= x / D).
    { intros x Hx. replace (x / D) with (D * x * / (D * D)) by (field; exact HD). apply Rmult_le_pos; [exact Hx|left; apply Rinv_0_lt_compat; exact D2]. }
    exists (comb3 (cr B C q / D) (cr C A q / D) (cr A B q / D) A B C). split.
    + exists (cr B C q / D), (cr C A q / D), (cr A B q / D). split; [apply Q; exact W2|]. split; [apply Q; exact W3|]. split; [apply Q; exact W1|]. split; [|reflexivity]. transitivity ((cr A B q + cr B C q + cr C A q) / D); [field; exact HD|rewrite Sm; field; exact HD].
    + split.
      * change (cr B C q / D * X A + cr C A q / D * X B + cr A B q / D * X C = X q). apply (Rmult_eq_reg_r D); [|exact HD].
        transitivity (cr B C q * X A + cr C A q * X B + cr A B q * X C); [field; exact HD|]. unfold D. rewrite !cr_def. ring.
      * change (cr B C q / D * Y A + cr C A q / D * Y B + cr A B q / D * Y C = Y q). apply (Rmult_eq_reg_r D); [|exact HD].
        transitivity (cr B C q * Y A + cr C A q * Y B + cr A B q * Y C); [field; exact HD|]. unfold D. rewrite !cr_def. ring.
Qed.

Lemma cr_along (V W E F : Rpoint) t : cr V W (along E F t) = (1 - t) * cr V W E + t * cr V W F.
Proof. rewrite !cr_def. unfold along, X, Y. cbn [px py pz]. rring. Qed.

(** nothing is too close to a side to be decided *)
Definition clear_of (bt : Rtriangle) (E F : Rpoint) : Prop :=
  (forall v w q, In (v, w) [(t1 bt, t2 bt); (t2 bt, t3 bt); (t3 bt, t1 bt)] -> In q [E; F] -> / 10 ^ 6 <= Rabs (cr v w q)) /\
  (forall v, In v [t1 bt; t2 bt; t3 bt] -> / 10 ^ 6 <= Rabs (cr E F v)).

Lemma scale_neg k z : 0 < k -> (k * z < 0 <-> z < 0).
Proof. intros. split; nra. Qed.
Lemma scale_pos k z : 0 < k -> (0 < k * z <-> 0 < z).
Proof. intros. split; nra. Qed.
Lemma scale_opp k z : k < 0 -> (0 < k * z <-> z < 0).
Proof. intros. split; nra. Qed.
Lemma not_three (a b c : R) : ~ (a * b < 0 /\ b * c < 0 /\ c * a < 0).
Proof.
  intros (H1 & H2 & H3). destruct (Rlt_or_le a 0) as [A|A].
  - assert (0 < b) by nra. assert (c < 0) by nra. nra.
  - assert (b < 0) by nra. assert (0 < c) by nra. nra.
Qed.
Theorem meets_over (bt t : Rtriangle) ln : cr (t1 bt) (t2 bt) (t3 bt) <> 0 ->
  intersectTriangle (Pl (t1 bt) (t_n bt)) t = Some ln ->
  Rabs (sd (Pl (t1 bt) (t_n bt)) (lp1 ln)) < / 10 ^ 6 -> Rabs (sd (Pl (t1 bt) (t_n bt)) (lp2 ln)) < / 10 ^ 6 ->
  clear_of bt (lp1 ln) (lp2 ln) ->
  (t_intersectTriangle bt t <> None <-> exists q, on_seg (lp1 ln) (lp2 ln) q /\ over bt q).
Proof.
  intros HD Hi Pe Pf (G1 & G2). rewrite (decision bt t ln Hi G1 G2). rewrite !belongs_clear by assumption.
  set (A := t1 bt) in *. set (B := t2 bt) in *. set (C := t3 bt) in *. set (E := lp1 ln) in *. set (F := lp2 ln) in *. set (D := cr A B C) in *.
  assert (D2 : 0 < D * D) by (apply Rlt_0_sqr; exact HD).
  assert (R : (exists q, on_seg E F q /\ over bt q) <-> meets (D * cr A B E) (D * cr B C E) (D * cr C A E) (D * cr A B F) (D * cr B C F) (D * cr C A F)).
  { unfold meets. split.
    - intros (q & (r & Hr & ->) & O). apply over_weights in O; [|exact HD]. fold A B C in O. fold D in O. rewrite !cr_along in O. exists r.
      split; [exact Hr|]. destruct O as (O1 & O2 & O3). repeat split; [eapply Rle_trans; [exact O1|right; ring]|eapply Rle_trans; [exact O2|right; ring]|eapply Rle_trans; [exact O3|right; ring]].
    - intros (r & Hr & O1 & O2 & O3). exists (along E F r). split; [exists r; auto|]. apply over_weights; [exact HD|]. fold A B C. fold D. rewrite !cr_along.
      repeat split; [eapply Rle_trans; [exact O1|right; ring]|eapply Rle_trans; [exact O2|right; ring]|eapply Rle_trans; [exact O3|right; ring]]. }
  rewrite R. clear R.
  pose proof (weights_sum A B C E) as SE. pose proof (weights_sum A B C F) as SF. fold D in SE, SF.
  pose proof (minor1 A B C E F) as M1. pose proof (minor2 A B C E F) as M2. pose proof (minor3 A B C E F) as M3. fold D in M1, M2, M3.
  assert (Z1 : cr A B E <> 0) by (apply clear_nz, G1; cbn; auto). assert (Z2 : cr B C E <> 0) by (apply clear_nz, G1; cbn; auto). assert (Z3 : cr C A E <> 0) by (apply clear_nz, G1; cbn; auto).
  assert (Z4 : cr A B F <> 0) by (apply clear_nz, G1; cbn; auto). assert (Z5 : cr B C F <> 0) by (apply clear_nz, G1; cbn; auto). assert (Z6 : cr C A F <> 0) by (apply clear_nz, G1; cbn; auto).
  assert (Y1 : cr E F A <> 0) by (apply clear_nz, G2; cbn; auto). assert (Y2 : cr E F B <> 0) by (apply clear_nz, G2; cbn; auto). assert (Y3 : cr E F C <> 0) by (apply clear_nz, G2; cbn; auto).
  set (e1 := cr A B E) in *. set (e2 := cr B C E) in *. set (e3 := cr C A E) in *. set (f1 := cr A B F) in *. set (f2 := cr B C F) in *. set (f3 := cr C A F) in *.
  set (kA := cr E F A) in *. set (kB := cr E F B) in *. set (kC := cr E F C) in *.
  assert (Nz : forall x y : R, x <> 0 -> y <> 0 -> x * y <> 0) by (intros; apply Rmult_integral_contrapositive_currified; assumption).
  assert (Q1 : D * e2 * (D * f3) - D * e3 * (D * f2) = D * D * (D * kC)) by (rewrite <- M1; ring).
  assert (Q2 : D * e3 * (D * f1) - D * e1 * (D * f3) = D * D * (D * kA)) by (rewrite <- M2; ring).
  assert (Q3 : D * e1 * (D * f2) - D * e2 * (D * f1) = D * D * (D * kB)) by (rewrite <- M3; ring).
  rewrite <- (hit_meets _ _ _ _ _ _ (D * D)); try (rewrite ?Q1, ?Q2, ?Q3; auto 6; fail); try exact D2;
    [|transitivity (D * (e1 + e2 + e3)); [ring|rewrite SE; reflexivity]|transitivity (D * (f1 + f2 + f3)); [ring|rewrite SF; reflexivity]].
  unfold hit, s1. cbv zeta. rewrite Q1, Q2, Q3.
  assert (Sc : forall x y, D * x * (D * y) < 0 <-> x * y < 0).
  { intros x y. replace (D * x * (D * y)) with (D * D * (x * y)) by ring. apply scale_neg. exact D2. }
  assert (Sk : forall x y, D * D * (D * x) * (D * D * (D * y)) < 0 <-> x * y < 0).
  { intros x y. replace (D * D * (D * x) * (D * D * (D * y))) with (D * D * (D * D) * (D * D) * (x * y)) by ring.
    apply scale_neg. apply Rmult_lt_0_compat; [apply Rmult_lt_0_compat|]; exact D2. }
  rewrite !Sc, !Sk.
  assert (P : forall x1 x2 x3 : R, x1 <> 0 -> x2 <> 0 -> x3 <> 0 -> x1 + x2 + x3 = D ->
    ((0 <= x1 /\ 0 <= x2 /\ 0 <= x3) \/ (x1 <= 0 /\ x2 <= 0 /\ x3 <= 0)) <-> pos (D * x1) (D * x2) (D * x3)).
  { intros x1 x2 x3 N1 N2 N3 S. unfold pos. destruct (Rlt_or_le 0 D) as [Dp|Dn].
    - assert (K : forall x, 0 < D * x <-> 0 < x) by (intros; apply scale_pos; exact Dp). rewrite !K. split; [intros [H|H]; lra|lra].
    - assert (K : forall x, 0 < D * x <-> x < 0) by (intros; apply scale_opp; lra). rewrite !K. split; [intros [H|H]; lra|lra]. }
  rewrite (P e1 e2 e3), (P f1 f2 f3) by assumption.
  assert (All : ~ (kA * kB < 0 /\ kB * kC < 0 /\ kC * kA < 0)) by (apply not_three).
  revert All. clear. generalize (kA * kB < 0) (kB * kC < 0) (kC * kA < 0). intros sAB sBC sCA. generalize (e1 * f1 < 0) (e2 * f2 < 0) (e3 * f3 < 0). intros u1 u2 u3.
  generalize (pos (D * e1) (D * e2) (D * e3)) (pos (D * f1) (D * f2) (D * f3)). intros pe pf. clear. tauto.
Qed.
