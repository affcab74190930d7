(** * Proofs about points, planes, triangles in exact arithmetic (C26-C31) *)
From Coq Require Import ZArith Reals Lra Lia List Bool Psatz.
From Flocq Require Import Core.Raux.
From Verif Require Import Arith ArithR Prim Path GeomSpec.
Import ListNotations.
Local Open Scope R_scope.
Close Scope num_scope.

Ltac pt := unfold X, Y, Z3 in *.

Lemma pt_ext (a b : Rpoint) : X a = X b -> Y a = Y b -> Z3 a = Z3 b -> a = b.
Proof. destruct a, b; pt; cbn. intros; subst; reflexivity. Qed.

(** ** AlmostZero, Equal *)
Lemma azn : @almostZeroNumber ArithR = / 1000000.
Proof. unfold almostZeroNumber. rcbn. lra. Qed.

Lemma almostZero_R (x : R) : @almostZero ArithR x = true <-> Rabs x < / 1000000.
Proof.
  unfold almostZero. rewrite azn. rcbn. rewrite andb_true_iff, !Rltb_true. split.
  - intros [H1 H2]. apply Rabs_def1; lra.
  - intros H. apply Rabs_def2 in H. lra.
Qed.

Lemma pt_equal_R (a b : Rpoint) : pt_equal a b = true <-> closer (/ 1000000) a b.
Proof.
  unfold pt_equal, closer. rewrite !andb_true_iff, !almostZero_R. pt. rcbn. tauto.
Qed.
Lemma pt_equal_R_false (a b : Rpoint) : pt_equal a b = false <-> ~ closer (/ 1000000) a b.
Proof. rewrite <- pt_equal_R. destruct (pt_equal a b); split; intros H; congruence. Qed.

Lemma pt_equal_refl (a : Rpoint) : pt_equal a a = true.
Proof. apply pt_equal_R. unfold closer. rewrite !Rminus_eq_0, Rabs_R0. lra. Qed.
Lemma closer_sym e a b : closer e a b -> closer e b a.
Proof. unfold closer. rewrite (Rabs_minus_sym (X a)), (Rabs_minus_sym (Y a)), (Rabs_minus_sym (Z3 a)). tauto. Qed.

(** ** RoundPlaces *)
Section Round.
Let rd (a : R) : Z := @round_ ArithR a.

Lemma rd_def a : rd a = if Rltb a 0 then Zceil (a - / 2) else Zfloor (a + / 2).
Proof.
  unfold rd, round_. rcbn. replace (1 / 2) with (/ 2) by lra.
  destruct (Rltb a 0); apply Ztrunc_IZR.
Qed.

Lemma rd_near a : Rabs (IZR (rd a) - a) <= / 2.
Proof.
  rewrite rd_def. destruct (Rltb_spec a 0).
  - pose proof (Zceil_ub (a - / 2)). pose proof (Zceil_lb (a - / 2)). apply Rabs_le. lra.
  - pose proof (Zfloor_ub (a + / 2)). pose proof (Zfloor_lb (a + / 2)). apply Rabs_le. lra.
Qed.

Lemma rd_opp a : rd (- a) = (- rd a)%Z.
Proof.
  rewrite !rd_def. destruct (Rltb_spec a 0), (Rltb_spec (- a) 0); try lra.
  - replace (- a + / 2) with (- (a - / 2)) by lra. unfold Zceil. lia.
  - unfold Zceil. f_equal. f_equal. lra.
  - assert (a = 0) by lra. subst a. rewrite Ropp_0, Rplus_0_l.
    assert (Zfloor (/ 2) = 0%Z) as -> by (apply Zfloor_imp; simpl; lra). reflexivity.
Qed.

Lemma rd_mono a b : a <= b -> (rd a <= rd b)%Z.
Proof.
  intros H. rewrite !rd_def. destruct (Rltb_spec a 0), (Rltb_spec b 0); try lra.
  - apply Zceil_le. lra.
  - transitivity 0%Z.
    + apply Zceil_glb. simpl. lra.
    + apply Zfloor_lub. simpl. lra.
  - apply Zfloor_le. lra.
Qed.

Lemma rd_IZR z : rd (IZR z) = z.
Proof.
  rewrite rd_def. destruct (Rltb_spec (IZR z) 0).
  - apply Zceil_imp. rewrite minus_IZR. lra.
  - apply Zfloor_imp. rewrite plus_IZR. lra.
Qed.
End Round.

Lemma pow10_pos (n : Z) : (0 <= n)%Z -> 0 < IZR (10 ^ n).
Proof. intros H. apply IZR_lt. apply Z.pow_pos_nonneg; lia. Qed.

Lemma roundPlaces_def a n : (n <= 16)%nat ->
  @roundPlaces ArithR a n = Ok (IZR (@round_ ArithR (a * IZR (10 ^ Z.of_nat n))%R) / IZR (10 ^ Z.of_nat n)).
Proof.
  intros H. unfold roundPlaces, powersOfTen, idx.
  rewrite nth_error_map. rewrite (nth_error_nth' (seq 0 17) 0%nat) by (rewrite seq_length; lia).
  rewrite seq_nth by lia. cbn [option_map rbind Nat.add]. rcbn. unfold nofZ. rcbn. reflexivity.
Qed.

Lemma roundPlaces_panic {A : Arith} a n : (16 < n)%nat -> roundPlaces a n = Panic.
Proof.
  intros H. unfold roundPlaces, powersOfTen, idx.
  rewrite nth_error_map.
  assert (nth_error (seq 0 17) n = None) as -> by (apply nth_error_None; rewrite seq_length; lia). reflexivity.
Qed.

Lemma s8 : @shift8 ArithR = 100000000.
Proof. unfold shift8, nofZ. rcbn. lra. Qed.

Lemma round8_def (a : R) : @round8 ArithR a = IZR (@round_ ArithR (a * 100000000)%R) / 100000000.
Proof. unfold round8. rewrite s8. unfold nofZ. rcbn. reflexivity. Qed.

Lemma round8_near (a : R) : Rabs (@round8 ArithR a - a) <= / 200000000.
Proof.
  rewrite round8_def. pose proof (rd_near (a * 100000000)) as H. cbv zeta in H.
  apply Rabs_le_inv in H. apply Rabs_le. revert H. generalize (IZR (@round_ ArithR (a * 100000000)%R)). intros z H. idtac. lra.
Qed.

Lemma pt_round8_near (a : Rpoint) : within (/ 200000000) (pt_round8 a) a.
Proof. unfold within, pt_round8; pt; cbn. repeat split; apply round8_near. Qed.

(** ** IntersectSegment *)
Lemma isect_spec (p : Rplane) (a b : Rpoint) :
  match intersectSegment p a b with
  | Some q => sd p a <> sd p b /\ sd p a * sd p b <= 0 /\ q = along a b (sd p a / (sd p a - sd p b))
  | None => sd p a = sd p b \/ sd p a * sd p b > 0
  end.
Proof.
  unfold intersectSegment, dot, p2v, pshift, vscale, vectorTo. cbn [px py pz vx vy vz]. rcbn.
  set (da := sd p a). set (db := sd p b).
  set (z := px (pl_p p) * vx (pl_n p) + py (pl_p p) * vy (pl_n p) + pz (pl_p p) * vz (pl_n p)).
  assert (Ea : px a * vx (pl_n p) + py a * vy (pl_n p) + pz a * vz (pl_n p) = da + z) by (unfold da, z, sd; pt; ring).
  assert (Eb : px b * vx (pl_n p) + py b * vy (pl_n p) + pz b * vz (pl_n p) = db + z) by (unfold db, z, sd; pt; ring).
  rewrite Ea, Eb. clearbody da db z. clear Ea Eb.
  destruct (Reqb_spec (da + z) (db + z)) as [E|E]; [left; lra|].
  assert (Hd : da <> db) by (intros ->; auto).
  assert (Et : (z - (da + z)) / (db + z - (da + z)) = da / (da - db)) by (field; lra).
  rewrite Et.
  assert (K : da - db <> 0) by lra.
  destruct (Rltb_spec (da / (da - db)) 0) as [L|L]; cbn [orb].
  { right. assert (H : da / (da - db) * ((da - db) * (da - db)) = da * (da - db)) by (field; lra).
    assert (0 < (da - db) * (da - db)) by (apply Rsqr_pos_lt in K; exact K). nra. }
  destruct (Rltb_spec 1 (da / (da - db))) as [M|M].
  { right. assert (H : da / (da - db) * ((da - db) * (da - db)) = da * (da - db)) by (field; lra).
    assert (P : 0 < (da - db) * (da - db)) by (apply Rsqr_pos_lt in K; exact K).
    pose proof (Rmult_lt_compat_r _ _ _ P M). pose proof (Rle_0_sqr db) as Q. unfold Rsqr in Q. lra. }
  split; [exact Hd|]. split.
  - assert (H : da / (da - db) * ((da - db) * (da - db)) = da * (da - db)) by (field; lra).
    assert (P : 0 < (da - db) * (da - db)) by (apply Rsqr_pos_lt in K; exact K).
    apply Rnot_lt_le in L, M.
    pose proof (Rmult_le_compat_r _ _ _ (Rlt_le _ _ P) L) as Q1. pose proof (Rmult_le_compat_r _ _ _ (Rlt_le _ _ P) M) as Q2.
    rewrite H in Q1, Q2. assert (Q3 : 0 <= da * (da - db)) by lra. assert (Q4 : 0 <= - (db * (da - db))) by lra.
    pose proof (Rmult_le_pos _ _ Q3 Q4) as Q5.
    apply Rnot_lt_le. intros Q6. pose proof (Rmult_lt_0_compat _ _ Q6 P). lra.
  - apply pt_ext; unfold along; pt; cbn [px py pz]; rcbn; ring.
Qed.

Lemma cross_t (s t : R) : s <> t -> s * t <= 0 -> 0 <= s / (s - t) <= 1.
Proof.
  intros H1 H2. assert (K : s - t <> 0) by lra.
  assert (0 < (s - t) * (s - t)) by (apply Rsqr_pos_lt in K; exact K).
  assert (E : s / (s - t) * ((s - t) * (s - t)) = s * (s - t)) by (field; lra).
  split; nra.
Qed.

Lemma sd_along p a b t : sd p (along a b t) = sd p a + t * (sd p b - sd p a).
Proof. unfold sd, along; pt; cbn [px py pz]; rcbn; ring. Qed.

Lemma sd_comb p u v w a b c : u + v + w = 1 -> sd p (comb3 u v w a b c) = u * sd p a + v * sd p b + w * sd p c.
Proof. intros H. replace u with (1 - v - w) by lra. unfold sd, comb3; pt; cbn [px py pz]; rcbn; ring. Qed.

Lemma isect_sym (p : Rplane) a b : sd p a <> sd p b ->
  along a b (sd p a / (sd p a - sd p b)) = along b a (sd p b / (sd p b - sd p a)).
Proof. intros H. apply pt_ext; unfold along; pt; cbn [px py pz]; rcbn; field; lra. Qed.

(** ** IntersectTriangle: the vertex a alone on its side *)
Definition cut (p : Rplane) (a b : Rpoint) : Rpoint := along a b (sd p a / (sd p a - sd p b)).

Definition section_is (p : Rplane) (a b c : Rpoint) (e f : Rpoint) : Prop :=
  forall q, (in_tri a b c q /\ sd p q = 0) <-> on_seg e f q.

Lemma alone p a b c : sd p a <> 0 -> sd p a * sd p b <= 0 -> sd p a * sd p c <= 0 ->
  section_is p a b c (cut p a b) (cut p a c).
Proof.
  intros H1 H2 H3 q. unfold section_is, cut.
  set (s := sd p a) in *. set (t := sd p b) in *. set (r := sd p c) in *.
  assert (Ss : 0 < s * s) by (apply Rsqr_pos_lt in H1; exact H1).
  assert (T1 : s <> t) by (intros E; rewrite <- E in H2; lra).
  assert (R1 : s <> r) by (intros E; rewrite <- E in H3; lra).
  pose proof (cross_t s t T1 H2) as B1. pose proof (cross_t s r R1 H3) as B2.
  assert (P1 : 0 <= (s - t) / s).
  { assert (E : (s - t) / s * (s * s) = s * (s - t)) by (field; auto). nra. }
  assert (P2 : 0 <= (s - r) / s).
  { assert (E : (s - r) / s * (s * s) = s * (s - r)) by (field; auto). nra. }
  split.
  - intros ((u & v & w & Hu & Hv & Hw & S & ->) & D).
    rewrite sd_comb in D by exact S. fold s t r in D.
    exists (w * ((s - r) / s)).
    assert (K : v * ((s - t) / s) + w * ((s - r) / s) = 1).
    { replace (v * ((s - t) / s) + w * ((s - r) / s)) with (((v + w) * s - (v * t + w * r)) / s) by (field; auto).
      replace (v * t + w * r) with (- u * s) by lra. replace (v + w) with (1 - u) by lra. field. auto. }
    assert (0 <= v * ((s - t) / s)) by (apply Rmult_le_pos; lra).
    assert (0 <= w * ((s - r) / s)) by (apply Rmult_le_pos; lra).
    split; [lra|].
    assert (Eu : u = - (v * t + w * r) / s) by (replace (v * t + w * r) with (- u * s) by lra; field; auto).
    assert (Ev : v = (1 - w * ((s - r) / s)) * (s / (s - t))).
    { replace (1 - w * ((s - r) / s)) with (v * ((s - t) / s)) by lra. field. lra. }
    assert (Eu2 : u = 1 - v - w) by lra.
    apply pt_ext; unfold comb3, along; pt; cbn [px py pz]; rcbn; rewrite Eu2, Ev; field; lra.
  - intros (z & Hz & ->).
    split.
    + exists (1 - (1 - z) * (s / (s - t)) - z * (s / (s - r))), ((1 - z) * (s / (s - t))), (z * (s / (s - r))).
      assert (0 <= (1 - z) * (s / (s - t)) <= 1 - z).
      { split; [apply Rmult_le_pos; lra|]. rewrite <- (Rmult_1_r (1 - z)) at 2. apply Rmult_le_compat_l; lra. }
      assert (0 <= z * (s / (s - r)) <= z).
      { split; [apply Rmult_le_pos; lra|]. rewrite <- (Rmult_1_r z) at 2. apply Rmult_le_compat_l; lra. }
      repeat split; try lra.
      apply pt_ext; unfold comb3, along; pt; cbn [px py pz]; rcbn; ring.
    + rewrite !sd_along. fold s t r. field. lra.
Qed.

Lemma in_tri_rot a b c q : in_tri a b c q <-> in_tri b c a q.
Proof.
  split.
  - intros (u & v & w & Hu & Hv & Hw & S & ->). exists v, w, u. repeat split; try lra.
    apply pt_ext; unfold comb3; pt; cbn [px py pz]; rcbn; ring.
  - intros (u & v & w & Hu & Hv & Hw & S & ->). exists w, u, v. repeat split; try lra.
    apply pt_ext; unfold comb3; pt; cbn [px py pz]; rcbn; ring.
Qed.

Lemma on_seg_sym a b q : on_seg a b q <-> on_seg b a q.
Proof.
  assert (H : forall a b q, on_seg a b q -> on_seg b a q).
  { clear. intros a b q (t & Ht & ->). exists (1 - t). split; [lra|]. apply pt_ext; unfold along; pt; cbn [px py pz]; rcbn; ring. }
  split; apply H.
Qed.

Lemma section_rot p a b c e f : section_is p a b c e f <-> section_is p b c a e f.
Proof. split; intros H q; rewrite <- (H q); [rewrite <- in_tri_rot|rewrite in_tri_rot]; reflexivity. Qed.
Lemma section_swap p a b c e f : section_is p a b c e f -> section_is p a b c f e.
Proof. intros H q. rewrite on_seg_sym. apply H. Qed.

Lemma cut_sym p a b : sd p a <> sd p b -> cut p a b = cut p b a.
Proof. apply isect_sym. Qed.

Lemma cut_zero_l p a b : sd p a = 0 -> cut p a b = a.
Proof.
  intros H. unfold cut. rewrite H. apply pt_ext; unfold along, Rdiv; pt; cbn [px py pz]; rcbn; ring.
Qed.
Lemma cut_zero_r p a b : sd p b = 0 -> sd p a <> 0 -> cut p a b = b.
Proof.
  intros H K. unfold cut. rewrite H. apply pt_ext; unfold along; pt; cbn [px py pz]; rcbn; field; lra.
Qed.

(** which edges are cut *)
Lemma isect_some (p : Rplane) a b : sd p a <> sd p b -> sd p a * sd p b <= 0 ->
  intersectSegment p a b = Some (cut p a b).
Proof.
  intros H1 H2. pose proof (isect_spec p a b) as H. destruct (intersectSegment p a b).
  - destruct H as (_ & _ & ->). reflexivity.
  - exfalso. destruct H; [congruence|lra].
Qed.
Lemma isect_none (p : Rplane) a b : sd p a = sd p b \/ sd p a * sd p b > 0 -> intersectSegment p a b = None.
Proof.
  intros H1. pose proof (isect_spec p a b) as H. destruct (intersectSegment p a b); [|reflexivity].
  destruct H as (K1 & K2 & _). exfalso. destruct H1; [congruence|lra].
Qed.

Lemma pair_same (x : Rpoint) : distinct_pair (Some x) (Some x) = None.
Proof. unfold distinct_pair. now rewrite pt_equal_refl. Qed.

Lemma pair_sym (x y : Rpoint) : distinct_pair (Some x) (Some y) = None -> distinct_pair (Some y) (Some x) = None.
Proof.
  unfold distinct_pair. destruct (pt_equal x y) eqn:E; [|discriminate]. intros _.
  apply pt_equal_R, closer_sym, pt_equal_R in E. now rewrite E.
Qed.

(** what IntersectTriangle looks at is the exact section *)
Definition pick_ok (p : Rplane) (a b c : Rpoint) (r : option (Rpoint * Rpoint)) : Prop :=
  match r with
  | Some (e, f) => section_is p a b c e f /\ ~ closer (/ 1000000) e f
  | None => (sd p a = 0 /\ sd p b = 0 /\ sd p c = 0) \/
            (forall q, ~ (in_tri a b c q /\ sd p q = 0)) \/
            exists e f, section_is p a b c e f /\ closer (/ 1000000) e f
  end.

Lemma distinct_cases (e f : Rpoint) :
  (distinct_pair (Some e) (Some f) = Some (e, f) /\ ~ closer (/ 1000000) e f) \/
  (distinct_pair (Some e) (Some f) = None /\ closer (/ 1000000) e f).
Proof.
  unfold distinct_pair. destruct (pt_equal e f) eqn:E.
  - right. split; [reflexivity|]. now apply pt_equal_R.
  - left. split; [reflexivity|]. now apply pt_equal_R_false.
Qed.

Lemma dp_r (e : option Rpoint) : distinct_pair e None = None.
Proof. destruct e; reflexivity. Qed.

Lemma section_pick p a b c e f v1 v2 v3 :
  section_is p a b c e f ->
  (* two of the three are the section's ends, the third is absent or a repetition *)
  (v1 = Some e /\ v2 = Some f /\ (v3 = None \/ v3 = Some e \/ v3 = Some f)) \/
  (v1 = Some e /\ v3 = Some f /\ (v2 = None \/ v2 = Some e \/ v2 = Some f)) \/
  (v2 = Some e /\ v3 = Some f /\ (v1 = None \/ v1 = Some e \/ v1 = Some f)) ->
  pick_ok p a b c (pick_pair v1 v2 v3).
Proof.
  intros S H. unfold pick_pair.
  assert (C1 := distinct_cases e f). assert (C2 := distinct_cases f e).
  destruct H as [(-> & -> & [->|[->| ->]])|[(-> & -> & [->|[->| ->]])|(-> & -> & [->|[->| ->]])]];
    rewrite ?pair_same, ?dp_r; 
    destruct C1 as [[-> N1]|[-> N1]]; try (destruct C2 as [[-> N2]|[-> N2]]); rewrite ?pair_same, ?dp_r;
    try (split; [exact S|exact N1]);
    try (split; [apply section_swap; exact S|exact N2]);
    try (exfalso; apply N1; apply closer_sym; assumption);
    try (exfalso; apply N2; apply closer_sym; assumption);
    try (right; right; exists e, f; split; [exact S|exact N1]).
  all: try (cbn [distinct_pair]; right; right; exists e, f; split; [exact S|exact N1]).
Qed.

Lemma edges_alone p a b c : sd p a <> 0 -> sd p a * sd p b <= 0 -> sd p a * sd p c <= 0 ->
  intersectSegment p a b = Some (cut p a b) /\ intersectSegment p c a = Some (cut p a c) /\
  (intersectSegment p b c = None \/ intersectSegment p b c = Some (cut p a b) \/ intersectSegment p b c = Some (cut p a c)).
Proof.
  intros H1 H2 H3.
  assert (Ss : 0 < sd p a * sd p a) by (apply Rsqr_pos_lt in H1; exact H1).
  assert (T1 : sd p a <> sd p b) by (intros E; rewrite <- E in H2; lra).
  assert (R1 : sd p a <> sd p c) by (intros E; rewrite <- E in H3; lra).
  split; [now apply isect_some|]. split.
  - rewrite isect_some by (try rewrite Rmult_comm; auto). f_equal. apply cut_sym. auto.
  - destruct (Req_dec (sd p b) (sd p c)) as [E|E]; [left; now apply isect_none; left|].
    destruct (Rlt_dec 0 (sd p b * sd p c)) as [P|P]; [left; apply isect_none; now right|].
    assert (Q : 0 <= sd p b * sd p c).
    { assert (0 <= (sd p a * sd p b) * (sd p a * sd p c)).
      { replace (sd p a * sd p b * (sd p a * sd p c)) with ((- (sd p a * sd p b)) * (- (sd p a * sd p c))) by ring.
        apply Rmult_le_pos; lra. }
      apply Rnot_lt_le. intros N. assert (0 < (sd p a * sd p a) * - (sd p b * sd p c)) by (apply Rmult_lt_0_compat; lra). lra. }
    right. rewrite isect_some by lra.
    assert (Z : sd p b * sd p c = 0) by lra. apply Rmult_integral in Z. destruct Z as [Z|Z].
    + left. f_equal. now rewrite cut_zero_l, cut_zero_r.
    + right. f_equal. rewrite (cut_zero_r p b c), (cut_zero_r p a c); auto. intros K. apply E. lra.
Qed.

Lemma single p a b c : sd p a = 0 -> sd p b * sd p c > 0 -> section_is p a b c a a.
Proof.
  intros H1 H2 q. split.
  - intros ((u & v & w & Hu & Hv & Hw & S & ->) & D). rewrite sd_comb, H1 in D by exact S.
    assert (v = 0 /\ w = 0) as [-> ->].
    { assert (Hb : sd p b <> 0) by (intros E; rewrite E in H2; lra).
      assert (Hc : sd p c <> 0) by (intros E; rewrite E in H2; lra).
      assert (D1 : v * (sd p b * sd p b) + w * (sd p b * sd p c) = 0) by (replace (v * (sd p b * sd p b) + w * (sd p b * sd p c)) with (sd p b * (u * 0 + v * sd p b + w * sd p c)) by ring; rewrite D; ring).
      assert (0 < sd p b * sd p b) by (apply Rsqr_pos_lt in Hb; exact Hb).
      assert (0 <= v * (sd p b * sd p b)) by (apply Rmult_le_pos; lra).
      assert (0 <= w * (sd p b * sd p c)) by (apply Rmult_le_pos; lra).
      split.
      - assert (v * (sd p b * sd p b) = 0) as E by lra. apply Rmult_integral in E. destruct E; lra.
      - assert (w * (sd p b * sd p c) = 0) as E by lra. apply Rmult_integral in E. destruct E; lra. }
    exists 0. split; [lra|]. assert (u = 1) as -> by lra.
    apply pt_ext; unfold along, comb3; pt; cbn [px py pz]; rcbn; ring.
  - intros (t & Ht & ->). split.
    + exists 1, 0, 0. repeat split; try lra. apply pt_ext; unfold along, comb3; pt; cbn [px py pz]; rcbn; ring.
    + rewrite sd_along, H1. ring.
Qed.

Lemma closer_refl e a : 0 < e -> closer e a a.
Proof. intros H. unfold closer. rewrite !Rminus_eq_0, Rabs_R0. auto. Qed.

Lemma single_pick p a b c : sd p a = 0 -> sd p b * sd p c > 0 ->
  intersectSegment p a b = Some a /\ intersectSegment p c a = Some a /\ intersectSegment p b c = None.
Proof.
  intros H1 H2.
  assert (Hb : sd p b <> 0) by (intros E; rewrite E in H2; lra).
  assert (Hc : sd p c <> 0) by (intros E; rewrite E in H2; lra).
  split; [|split].
  - rewrite isect_some by (rewrite H1; first [exact Hc | now apply not_eq_sym | lra]). f_equal. now apply cut_zero_l.
  - rewrite isect_some by (rewrite H1; first [exact Hc | now apply not_eq_sym | lra]). f_equal. now apply cut_zero_r.
  - apply isect_none. auto.
Qed.

Lemma pos_mult_l a b : 0 < a * b -> 0 < a -> 0 < b.
Proof. intros H1 H2. apply Rnot_le_lt. intros H3. assert (0 <= a * - b) by (apply Rmult_le_pos; lra). lra. Qed.

Lemma all_one_side p a b c : sd p a * sd p b > 0 -> sd p a * sd p c > 0 ->
  forall q, ~ (in_tri a b c q /\ sd p q = 0).
Proof.
  intros H1 H2 q ((u & v & w & Hu & Hv & Hw & S & ->) & D). rewrite sd_comb in D by exact S.
  assert (Ha : sd p a <> 0) by (intros E; rewrite E in H2; lra).
  assert (Saa : 0 < sd p a * sd p a) by (apply Rsqr_pos_lt in Ha; exact Ha).
  assert (D1 : u * (sd p a * sd p a) + v * (sd p a * sd p b) + w * (sd p a * sd p c) = 0).
  { replace (u * (sd p a * sd p a) + v * (sd p a * sd p b) + w * (sd p a * sd p c))
      with (sd p a * (u * sd p a + v * sd p b + w * sd p c)) by ring. rewrite D. ring. }
  assert (0 <= u * (sd p a * sd p a)) by (apply Rmult_le_pos; lra).
  assert (0 <= v * (sd p a * sd p b)) by (apply Rmult_le_pos; lra).
  assert (0 <= w * (sd p a * sd p c)) by (apply Rmult_le_pos; lra).
  assert (E1 : u * (sd p a * sd p a) = 0) by lra. assert (E2 : v * (sd p a * sd p b) = 0) by lra.
  assert (E3 : w * (sd p a * sd p c) = 0) by lra.
  apply Rmult_integral in E1, E2, E3. destruct E1, E2, E3; lra.
Qed.

Theorem pick_spec p a b c :
  pick_ok p a b c (pick_pair (intersectSegment p a b) (intersectSegment p b c) (intersectSegment p c a)).
Proof.
  set (s := sd p a). set (t := sd p b). set (r := sd p c).
  assert (ALONE : forall x y z, x <> 0 -> ~ (0 < x * y) -> ~ (0 < x * z) -> x * y <= 0 /\ x * z <= 0) by (intros; lra).
  destruct (Req_dec s 0) as [Za|Za], (Req_dec t 0) as [Zb|Zb], (Req_dec r 0) as [Zc|Zc].
  - (* all on the plane *)
    rewrite !isect_none by (left; unfold s, t, r in *; congruence). left. auto.
  - (* c alone *)
    destruct (edges_alone p c a b) as (E1 & E2 & E3); fold r s t; try rewrite Za; try rewrite Zb; try lra.
    apply section_pick with (cut p c b) (cut p c a); [|right; right; rewrite E1, E2; tauto].
    apply section_swap, section_rot, section_rot, alone; fold r s t; try rewrite Za; try rewrite Zb; lra.
  - (* b alone *)
    destruct (edges_alone p b c a) as (E1 & E2 & E3); fold r s t; try rewrite Za; try rewrite Zc; try lra.
    apply section_pick with (cut p b a) (cut p b c); [|left; rewrite E1, E2; tauto].
    apply section_swap, section_rot, alone; fold r s t; try rewrite Za; try rewrite Zc; lra.
  - (* a on the plane *)
    destruct (Rlt_dec 0 (t * r)) as [P|P].
    + destruct (single_pick p a b c Za P) as (-> & -> & ->). unfold pick_pair. rewrite dp_r, pair_same.
      cbn [distinct_pair]. right. right. exists a, a. split; [now apply single|apply closer_refl; lra].
    + (* b alone *)
      destruct (edges_alone p b c a) as (E1 & E2 & E3); fold r s t; try rewrite Za; try lra.
      apply section_pick with (cut p b a) (cut p b c); [|left; rewrite E1, E2; tauto].
      apply section_swap, section_rot, alone; fold r s t; try rewrite Za; lra.
  - (* b, c on the plane: a alone *)
    destruct (edges_alone p a b c) as (E1 & E2 & E3); fold r s t; try rewrite Zb; try rewrite Zc; try lra.
    apply section_pick with (cut p a b) (cut p a c); [|right; left; rewrite E1, E2; tauto].
    apply alone; fold r s t; try rewrite Zb; try rewrite Zc; lra.
  - (* b on the plane *)
    destruct (Rlt_dec 0 (r * s)) as [P|P].
    + destruct (single_pick p b c a Zb P) as (E1 & E2 & E3). rewrite E1, E2, E3. unfold pick_pair. rewrite pair_same.
      rewrite !dp_r. right. right. exists b, b. split; [now apply section_rot, section_rot, section_rot, section_rot, single|apply closer_refl; lra].
    + (* a alone *)
      destruct (edges_alone p a b c) as (E1 & E2 & E3); fold r s t; try rewrite Zb; try lra.
      apply section_pick with (cut p a b) (cut p a c); [|right; left; rewrite E1, E2; tauto].
      apply alone; fold r s t; try rewrite Zb; lra.
  - (* c on the plane *)
    destruct (Rlt_dec 0 (s * t)) as [P|P].
    + destruct (single_pick p c a b Zc P) as (E1 & E2 & E3). rewrite E1, E2, E3. unfold pick_pair. cbn [distinct_pair].
      rewrite pt_equal_refl. right. right. exists c, c. split; [now apply section_rot, section_rot, single|apply closer_refl; lra].
    + destruct (edges_alone p a b c) as (E1 & E2 & E3); fold r s t; try rewrite Zc; try lra.
      apply section_pick with (cut p a b) (cut p a c); [|right; left; rewrite E1, E2; tauto].
      apply alone; fold r s t; try rewrite Zc; lra.
  - assert (Saa : 0 < s * s) by (apply Rsqr_pos_lt in Za; exact Za).
    destruct (Rlt_dec 0 (s * t)) as [P|P], (Rlt_dec 0 (s * r)) as [Q|Q].
    + assert (K : 0 < t * r).
      { pose proof (Rmult_lt_0_compat _ _ P Q). apply pos_mult_l with (s * s); [|exact Saa].
        replace (s * s * (t * r)) with (s * t * (s * r)) by ring. assumption. }
      rewrite !isect_none by (right; fold s t r; try rewrite (Rmult_comm r s); assumption).
      right. left. now apply all_one_side.
    + (* c alone *)
      assert (K : r * t <= 0).
      { apply Rnot_lt_le. intros K. apply Q. apply pos_mult_l with (t * t).
        - pose proof (Rmult_lt_0_compat _ _ P K). replace (t * t * (s * r)) with (s * t * (r * t)) by ring. assumption.
        - apply Rsqr_pos_lt in Zb; exact Zb. }
      destruct (edges_alone p c a b) as (E1 & E2 & E3); fold r s t; try lra.
      apply section_pick with (cut p c b) (cut p c a); [|right; right; rewrite E1, E2; tauto].
      apply section_swap, section_rot, section_rot, alone; fold r s t; lra.
    + (* b alone *)
      assert (K : t * r <= 0).
      { apply Rnot_lt_le. intros K. apply P. apply pos_mult_l with (r * r).
        - pose proof (Rmult_lt_0_compat _ _ Q K). replace (r * r * (s * t)) with (s * r * (t * r)) by ring. assumption.
        - apply Rsqr_pos_lt in Zc; exact Zc. }
      destruct (edges_alone p b c a) as (E1 & E2 & E3); fold r s t; try lra.
      apply section_pick with (cut p b a) (cut p b c); [|left; rewrite E1, E2; tauto].
      apply section_swap, section_rot, alone; fold r s t; lra.
    + (* a alone *)
      destruct (edges_alone p a b c) as (E1 & E2 & E3); fold r s t; try lra.
      apply section_pick with (cut p a b) (cut p a c); [|right; left; rewrite E1, E2; tauto].
      apply alone; fold r s t; lra.
Qed.

Lemma within_closer e1 e2 d (a b a' b' : Rpoint) :
  within e1 a' a -> within e2 b' b -> closer d a' b' -> closer (d + e1 + e2) a b.
Proof.
  unfold within, closer. intros (A1 & A2 & A3) (B1 & B2 & B3) (C1 & C2 & C3).
  apply Rabs_le_inv in A1, A2, A3, B1, B2, B3. apply Rabs_def2 in C1, C2, C3.
  repeat split; apply Rabs_def1; lra.
Qed.

Lemma on_seg_closer d a b q r : closer d a b -> on_seg a b q -> on_seg a b r -> closer d q r.
Proof.
  intros C (t & Ht & ->) (u & Hu & ->).
  assert (K : forall x y : R, Rabs (x - y) < d -> Rabs (x + t * (y - x) - (x + u * (y - x))) < d).
  { intros x y H. replace (x + t * (y - x) - (x + u * (y - x))) with ((u - t) * (x - y)) by ring.
    rewrite Rabs_mult. assert (Rabs (u - t) <= 1) by (apply Rabs_le; lra).
    assert (0 <= Rabs (x - y)) by apply Rabs_pos. assert (0 <= Rabs (u - t)) by apply Rabs_pos. nra. }
  destruct C as (C1 & C2 & C3). unfold closer, along. pt. cbn [px py pz]. repeat split; apply K; assumption.
Qed.

(** orientation of the result *)
Lemma ordered_ok p t e f l : ordered_line p t e f = Some l ->
  ((lp1 l = pt_round8 e /\ lp2 l = pt_round8 f) \/ (lp1 l = pt_round8 f /\ lp2 l = pt_round8 e)) /\
  ~ closer (/ 1000000) (lp1 l) (lp2 l) /\ det3 (arrow (lp1 l) (lp2 l)) (pl_n p) (t_n t) <= 0.
Proof.
  unfold ordered_line. destruct (pt_equal (pt_round8 e) (pt_round8 f)) eqn:E; [discriminate|].
  apply pt_equal_R_false in E.
  set (a := pt_round8 e) in *. set (b := pt_round8 f) in *.
  assert (D : forall a b : Rpoint, dot (cross (vectorTo a b) (pl_n p)) (t_n t) = det3 (arrow a b) (pl_n p) (t_n t)).
  { intros. unfold dot, cross, vectorTo, det3, arrow. cbn [vx vy vz]. pt. rcbn. ring. }
  rewrite D. rcbn. destruct (Rltb_spec (det3 (arrow a b) (pl_n p) (t_n t)) 0) as [L|L]; intros [= <-]; cbn [lp1 lp2].
  - split; [now left|]. split; [exact E|lra].
  - split; [now right|]. split; [intros C; apply E; now apply closer_sym|].
    assert (Q : det3 (arrow b a) (pl_n p) (t_n t) = - det3 (arrow a b) (pl_n p) (t_n t)).
    { unfold det3, arrow. cbn [vx vy vz]. rcbn. ring. }
    rewrite Q. lra.
Qed.

Theorem isect_tri_some (p : Rplane) (t : Rtriangle) l : intersectTriangle p t = Some l ->
  exists e f, section_is p (t1 t) (t2 t) (t3 t) e f /\
    within (/ 200000000) (lp1 l) e /\ within (/ 200000000) (lp2 l) f /\
    ~ closer (/ 1000000) (lp1 l) (lp2 l) /\
    det3 (arrow (lp1 l) (lp2 l)) (pl_n p) (t_n t) <= 0.
Proof.
  unfold intersectTriangle. pose proof (pick_spec p (t1 t) (t2 t) (t3 t)) as H.
  destruct (pick_pair _ _ _) as [[e f]|]; [|discriminate]. destruct H as [S _]. intros O.
  destruct (ordered_ok p t e f l O) as ([[E1 E2]|[E1 E2]] & N & D).
  - exists e, f. split; [exact S|]. split; [rewrite E1; apply pt_round8_near|].
    split; [rewrite E2; apply pt_round8_near|]. auto.
  - exists f, e. split; [now apply section_swap|]. split; [rewrite E1; apply pt_round8_near|].
    split; [rewrite E2; apply pt_round8_near|]. auto.
Qed.

Theorem isect_tri_none (p : Rplane) (t : Rtriangle) : intersectTriangle p t = None ->
  (sd p (t1 t) = 0 /\ sd p (t2 t) = 0 /\ sd p (t3 t) = 0) \/
  forall q r, in_tri (t1 t) (t2 t) (t3 t) q -> in_tri (t1 t) (t2 t) (t3 t) r -> sd p q = 0 -> sd p r = 0 ->
    closer (/ 1000000 + / 100000000) q r.
Proof.
  unfold intersectTriangle. pose proof (pick_spec p (t1 t) (t2 t) (t3 t)) as H.
  destruct (pick_pair _ _ _) as [[e f]|].
  - destruct H as [S _]. intros O. right. intros q r Q1 R1 Q2 R2.
    assert (Hq : on_seg e f q) by (apply S; auto). assert (Hr : on_seg e f r) by (apply S; auto).
    apply on_seg_closer with e f; auto. unfold ordered_line in O.
    destruct (pt_equal (pt_round8 e) (pt_round8 f)) eqn:E.
    + apply pt_equal_R in E. pose proof (within_closer _ _ _ _ _ _ _ (pt_round8_near e) (pt_round8_near f) E) as K.
      replace (/ 1000000 + / 100000000) with (/ 1000000 + / 200000000 + / 200000000) by lra. exact K.
    + destruct (nltb _ _) in O; discriminate.
  - intros _. destruct H as [H|[H|(e & f & S & C)]]; [now left|right|right]; intros q r Q1 R1 Q2 R2.
    + exfalso. now apply (H q).
    + assert (Hq : on_seg e f q) by (apply S; auto). assert (Hr : on_seg e f r) by (apply S; auto).
      apply on_seg_closer with e f; auto. destruct C as (C1 & C2 & C3). unfold closer. lra.
Qed.

(** ** Rotations *)
Definition rot_ok (rm : @rotmat ArithR) : Prop :=
  exists c s, c * c + s * s = 1 /\
    (rm = RM (A := ArithR) (V3 (A := ArithR) 1 0 0) (V3 (A := ArithR) 0 c s) (V3 (A := ArithR) 0 (- s) c) \/
     rm = RM (A := ArithR) (V3 (A := ArithR) c s 0) (V3 (A := ArithR) (- s) c 0) (V3 (A := ArithR) 0 0 1)).

Lemma rotX_ok (a : R) : rot_ok (rotationAroundX (A := ArithR) a).
Proof.
  exists (cos (toRadians (A := ArithR) a)), (sin (toRadians (A := ArithR) a)). split.
  - rewrite <- (sin2_cos2 (toRadians (A := ArithR) a)). unfold Rsqr. ring.
  - left. unfold rotationAroundX. rcbn. reflexivity.
Qed.
Lemma rotZ_ok (a : R) : rot_ok (rotationAroundZ (A := ArithR) a).
Proof.
  exists (cos (toRadians (A := ArithR) a)), (sin (toRadians (A := ArithR) a)). split.
  - rewrite <- (sin2_cos2 (toRadians (A := ArithR) a)). unfold Rsqr. ring.
  - right. unfold rotationAroundZ. rcbn. reflexivity.
Qed.

Ltac rot := unfold t_rotate in *; unfold newTriangle in *; cbn [t1 t2 t3 t_n] in *; unfold cross in *; unfold pt_rotate in *; unfold pt_rotate, v2p, vadd, vrotate, vectorTo, p2v, dot, cross, dist2, newTriangle, t_rotate in *; pt;
  cbn [px py pz vx vy vz rm_x rm_y rm_z t1 t2 t3 t_n] in *; rcbn.

Lemma rotate_dist rm (c p q : Rpoint) : rot_ok rm -> dist2 (pt_rotate rm c p) (pt_rotate rm c q) = dist2 p q.
Proof.
  intros (co & si & H & [-> | ->]); rot; assert (E : co * co = 1 - si * si) by lra; ring_simplify [E]; ring [E].
Qed.

(** direct: the normal turns with the points *)
Lemma rotate_normal rm (c a b d : Rpoint) : rot_ok rm ->
  t_n (t_rotate rm c (newTriangle a b d)) = vrotate (t_n (newTriangle a b d)) rm.
Proof.
  intros (co & si & H & [-> | ->]); assert (E : co * co = 1 - si * si) by lra; rot;
    f_equal; ring [E].
Qed.

Lemma rotate_center rm (c : Rpoint) : rot_ok rm -> pt_rotate rm c c = c.
Proof. intros (co & si & H & [-> | ->]); destruct c; rot; f_equal; ring. Qed.

Lemma toRad_opp a : toRadians (A := ArithR) (- a) = - toRadians (A := ArithR) a.
Proof. unfold toRadians, nofZ. rcbn. lra. Qed.

Lemma rotX_back (a : R) (c p : Rpoint) :
  pt_rotate (rotationAroundX (A := ArithR) (- a)) c (pt_rotate (rotationAroundX (A := ArithR) a) c p) = p.
Proof.
  pose proof (sin2_cos2 (toRadians (A := ArithR) a)) as E. unfold Rsqr in E.
  unfold rotationAroundX. rewrite toRad_opp. rcbn. rewrite cos_neg, sin_neg.
  set (s := sin (toRadians (A := ArithR) a)) in *. set (k := cos (toRadians (A := ArithR) a)) in *.
  assert (E2 : k * k = 1 - s * s) by lra. destruct p, c. rot. f_equal; ring [E2].
Qed.
Lemma rotZ_back (a : R) (c p : Rpoint) :
  pt_rotate (rotationAroundZ (A := ArithR) (- a)) c (pt_rotate (rotationAroundZ (A := ArithR) a) c p) = p.
Proof.
  pose proof (sin2_cos2 (toRadians (A := ArithR) a)) as E. unfold Rsqr in E.
  unfold rotationAroundZ. rewrite toRad_opp. rcbn. rewrite cos_neg, sin_neg.
  set (s := sin (toRadians (A := ArithR) a)) in *. set (k := cos (toRadians (A := ArithR) a)) in *.
  assert (E2 : k * k = 1 - s * s) by lra. destruct p, c. rot. f_equal; ring [E2].
Qed.

Definition fresh_normals (m : Rmesh) : Prop := Forall (fun t => t = newTriangle (t1 t) (t2 t) (t3 t)) m.

Lemma rotate_undo (m : Rmesh) a b (c : Rpoint) : fresh_normals m ->
  m_rotate (m_rotate (m_rotate (m_rotate m (rotationAroundZ (A := ArithR) a) c)
     (rotationAroundX (A := ArithR) b) c) (rotationAroundX (A := ArithR) (- b)) c) (rotationAroundZ (A := ArithR) (- a)) c = m.
Proof.
  intros H. unfold m_rotate. rewrite !map_map. rewrite <- (map_id m) at 2. apply map_ext_in.
  intros t Ht. unfold fresh_normals in H. rewrite Forall_forall in H. rewrite (H t Ht) at 2. unfold t_rotate. cbn [newTriangle t1 t2 t3].
  now rewrite !rotX_back, !rotZ_back.
Qed.

Lemma on_seg_l (a b : Rpoint) : on_seg a b a.
Proof. exists 0. split; [lra|]. apply pt_ext; unfold along, X, Y, Z3; cbn [px py pz]; rcbn; lra. Qed.
