(** * Proofs about points inside contours *)
From Coq Require Import Reals Lra Lia List Bool ZArith PeanoNat.
From Verif Require Import Arith ArithR Prim Path GeomSpec GeomProofs SupportProofs InsideClaims.
Import ListNotations.
Close Scope Z_scope.
Close Scope num_scope.
Local Open Scope R_scope.

(** ** One side and two rays

    a1, a2 (b1, b2) are the positions of the ends of a side relative to the two rays *)
Definition hit_s (a1 b1 E : R) : Prop := a1 * b1 < 0 /\ 0 < E * (b1 - a1).
Definition sector (a1 a2 : R) : bool := if Rlt_dec 0 a1 then (if Rlt_dec a2 0 then true else false) else false.

Lemma neg_mult x y : x * y < 0 -> (x < 0 /\ 0 < y) \/ (0 < x /\ y < 0).
Proof.
  intros H. destruct (total_order_T x 0) as [[L| ->]|G]; [|lra|].
  - left. split; [lra|]. destruct (Rlt_or_le 0 y) as [|C]; [lra|]. exfalso. nra.
  - right. split; [lra|]. destruct (Rlt_or_le y 0) as [|C]; [lra|]. exfalso. nra.
Qed.
Lemma mult_neg x y : (x < 0 /\ 0 < y) \/ (0 < x /\ y < 0) -> x * y < 0.
Proof. intros [(A & B)|(A & B)]; nra. Qed.

Lemma hit_s_cases a b E : hit_s a b E <-> (a < 0 /\ 0 < b /\ 0 < E) \/ (b < 0 /\ 0 < a /\ E < 0).
Proof.
  unfold hit_s. split.
  - intros (H & K). destruct (neg_mult _ _ H) as [(A & B)|(A & B)]; [left|right]; repeat split; try lra.
    + destruct (Rlt_or_le 0 E); [lra|]. exfalso. nra.
    + destruct (Rlt_or_le E 0); [lra|]. exfalso. nra.
  - intros [(A & B & C)|(A & B & C)]; split; nra.
Qed.

Lemma hit_s_dec a b E : {hit_s a b E} + {~ hit_s a b E}.
Proof. unfold hit_s. destruct (Rlt_dec (a * b) 0); [destruct (Rlt_dec 0 (E * (b - a)))|]; tauto. Qed.
Definition hitb (a b E : R) : bool := if hit_s_dec a b E then true else false.

Lemma two_rays a1 a2 b1 b2 : a1 <> 0 -> a2 <> 0 -> b1 <> 0 -> b2 <> 0 ->
  (a1 * b1 < 0 \/ a2 * b2 < 0 -> a1 * b2 - a2 * b1 <> 0) ->
  xorb (hitb a1 b1 (a1 * b2 - a2 * b1)) (hitb a2 b2 (a1 * b2 - a2 * b1)) = xorb (sector a1 a2) (sector b1 b2).
Proof.
  intros A1 A2 B1 B2. remember (a1 * b2 - a2 * b1) as E eqn:DE. intros NE.
  assert (Pp : forall x y : R, 0 < x -> 0 < y -> 0 < x * y) by (intros; nra).
  assert (Pn : forall x y : R, 0 < x -> y < 0 -> x * y < 0) by (intros; nra).
  assert (Np : forall x y : R, x < 0 -> 0 < y -> x * y < 0) by (intros; nra).
  assert (Nn : forall x y : R, x < 0 -> y < 0 -> 0 < x * y) by (intros; nra).
  unfold hitb, sector.
  destruct (hit_s_dec a1 b1 E) as [H1|H1]; destruct (hit_s_dec a2 b2 E) as [H2|H2]; rewrite hit_s_cases in H1, H2;
  destruct (Rdichotomy _ _ A1) as [a1s|a1s]; destruct (Rdichotomy _ _ A2) as [a2s|a2s];
  destruct (Rdichotomy _ _ B1) as [b1s|b1s]; destruct (Rdichotomy _ _ B2) as [b2s|b2s];
  unfold Rgt in *;
  destruct (Rlt_dec 0 a1); try (exfalso; lra);
  destruct (Rlt_dec a2 0); try (exfalso; lra);
  destruct (Rlt_dec 0 b1); try (exfalso; lra);
  destruct (Rlt_dec b2 0); try (exfalso; lra); try reflexivity; exfalso;
  try lra;
  (first [assert (Z1 : 0 < a1 * b2) by (auto; fail)|assert (Z1 : a1 * b2 < 0) by (auto; fail)]);
  (first [assert (Z2 : 0 < a2 * b1) by (auto; fail)|assert (Z2 : a2 * b1 < 0) by (auto; fail)]);
  (first [assert (Z3 : E <> 0) by (auto; fail)|idtac]);
  clear Pp Pn Np Nn NE A1 A2 B1 B2;
  generalize dependent (a1 * b2); intros; generalize dependent (a2 * b1); intros;
  (destruct (total_order_T E 0) as [[Es|Es]|Es]; unfold Rgt in *; [|try (exfalso; lra)|]); try (exfalso; lra);
  try (exfalso; tauto).
Qed.

(** ** Rays and signs *)
Definition pos (a : Rpoint) (dx dy : R) (p : Rpoint) : R := dx * (Y p - Y a) - dy * (X p - X a).
Definition area (a p q : Rpoint) : R := (X p - X a) * (Y q - Y a) - (Y p - Y a) * (X q - X a).

Lemma in_line_pos a dx dy p : in_line a dx dy p <-> pos a dx dy p = 0.
Proof. unfold in_line, pos. tauto. Qed.

Lemma hits_signs a dx dy p q : pos a dx dy p <> 0 -> pos a dx dy q <> 0 ->
  (hits a dx dy p q <-> hit_s (pos a dx dy p) (pos a dx dy q) (area a p q)).
Proof.
  intros Np Nq. unfold hits. split.
  - intros (s & t & Hs & Ht & Ex & Ey).
    assert (A : pos a dx dy p + t * (pos a dx dy q - pos a dx dy p) = 0).
    { unfold pos. transitivity (dx * (Y p + t * (Y q - Y p) - Y a) - dy * (X p + t * (X q - X p) - X a)); [ring|]. rewrite Ex, Ey. ring. }
    assert (B : area a p q = s * (pos a dx dy q - pos a dx dy p)).
    { unfold area, pos. transitivity ((X p + t * (X q - X p) - X a) * (Y q - Y p) - (Y p + t * (Y q - Y p) - Y a) * (X q - X p)); [ring|]. rewrite Ex, Ey. ring. }
    apply hit_s_cases. revert A B Np Nq. generalize (pos a dx dy p) (pos a dx dy q) (area a p q). intros u v E A B Np Nq.
    destruct (Rdichotomy _ _ Np) as [L|L]; unfold Rgt in *.
    + left. assert (0 < v). { destruct (Rlt_or_le 0 v); [lra|]. exfalso. nra. } repeat split; try lra. rewrite B. apply Rmult_lt_0_compat; lra.
    + right. assert (v < 0). { destruct (Rlt_or_le v 0); [lra|]. exfalso. nra. } repeat split; try lra. rewrite B. nra.
  - intros H. assert (K := H). apply hit_s_cases in K. destruct H as (H & _).
    exists (area a p q / (pos a dx dy q - pos a dx dy p)), (pos a dx dy p / (pos a dx dy p - pos a dx dy q)).
    assert (N : pos a dx dy q - pos a dx dy p <> 0) by (destruct K as [K|K]; lra).
    assert (N' : pos a dx dy p - pos a dx dy q <> 0) by lra.
    split; [|split; [split|split]].
    + destruct K as [(K1 & K2 & K3)|(K1 & K2 & K3)]; [apply Rdiv_lt_0_compat; lra|].
      replace (_ / _) with ((- area a p q) / (pos a dx dy p - pos a dx dy q)) by (field; split; assumption). apply Rdiv_lt_0_compat; lra.
    + destruct K as [(K1 & K2 & K3)|(K1 & K2 & K3)]; [|apply Rdiv_lt_0_compat; lra].
      replace (_ / _) with ((- pos a dx dy p) / (pos a dx dy q - pos a dx dy p)) by (field; split; assumption). apply Rdiv_lt_0_compat; lra.
    + replace (pos a dx dy p / (pos a dx dy p - pos a dx dy q)) with (1 + pos a dx dy q / (pos a dx dy p - pos a dx dy q)) by (field; assumption).
      assert (pos a dx dy q / (pos a dx dy p - pos a dx dy q) < 0); [|lra].
      destruct K as [(K1 & K2 & K3)|(K1 & K2 & K3)].
      * replace (_ / _) with (- (pos a dx dy q / (pos a dx dy q - pos a dx dy p))) by (field; split; assumption).
        apply Ropp_lt_gt_0_contravar. apply Rdiv_lt_0_compat; lra.
      * apply Rmult_lt_reg_r with (pos a dx dy p - pos a dx dy q); [lra|]. replace (_ * _) with (pos a dx dy q) by (field; assumption). lra.
    + revert N N'. unfold area, pos. intros N N'. field. split; assumption.
    + revert N N'. unfold area, pos. intros N N'. field. split; assumption.
Qed.

Lemma hits_dec a dx dy p q : pos a dx dy p <> 0 -> pos a dx dy q <> 0 -> {hits a dx dy p q} + {~ hits a dx dy p q}.
Proof.
  intros A B. destruct (hit_s_dec (pos a dx dy p) (pos a dx dy q) (area a p q)) as [H|H]; [left|right]; rewrite hits_signs; assumption.
Qed.

(** a side that crosses the line through a point beside it does so away from the point *)
Lemma beside_area a dx dy p q : (forall r, on_seg p q r -> ~ (X r = X a /\ Y r = Y a)) -> (dx <> 0 \/ dy <> 0) ->
  pos a dx dy p * pos a dx dy q < 0 -> area a p q <> 0.
Proof.
  intros B D H E.
  set (u := pos a dx dy p) in *. set (v := pos a dx dy q) in *.
  assert (N : u - v <> 0). { intros K. assert (u = v) by lra. subst u v. rewrite H0 in H. nra. }
  apply (B (along p q (u / (u - v)))).
  - exists (u / (u - v)). split; [|reflexivity]. apply neg_mult in H. destruct H as [(L & M)|(L & M)].
    + split.
      * apply Rmult_le_reg_r with (v - u); [lra|]. replace (u / (u - v) * (v - u)) with (- u) by (field; assumption). lra.
      * apply Rmult_le_reg_r with (v - u); [lra|]. replace (u / (u - v) * (v - u)) with (- u) by (field; assumption). lra.
    + split.
      * apply Rmult_le_reg_r with (u - v); [lra|]. replace (u / (u - v) * (u - v)) with u by (field; assumption). lra.
      * apply Rmult_le_reg_r with (u - v); [lra|]. replace (u / (u - v) * (u - v)) with u by (field; assumption). lra.
  - assert (Kx : (u - v) * (X p + u / (u - v) * (X q - X p) - X a) = - (dx * area a p q)).
    { revert N. unfold u, v, pos, area. intros N. field. assumption. }
    assert (Ky : (u - v) * (Y p + u / (u - v) * (Y q - Y p) - Y a) = - (dy * area a p q)).
    { revert N. unfold u, v, pos, area. intros N. field. assumption. }
    rewrite E, Rmult_0_r, Ropp_0 in Kx, Ky. unfold along, X, Y in *. cbn [px py] in *. rcbn.
    split.
    + destruct (Rmult_integral _ _ Kx); [contradiction|]. lra.
    + destruct (Rmult_integral _ _ Ky); [contradiction|]. lra.
Qed.

(** ** All sides *)
Fixpoint cnt (a : Rpoint) (dx dy : R) (p : list Rpoint) : nat :=
  match p with
  | b :: ((c :: _) as r) => ((if hitb (pos a dx dy b) (pos a dx dy c) (area a b c) then 1 else 0) + cnt a dx dy r)%nat
  | _ => 0%nat
  end.

Lemma crossed_cnt a dx dy p n : free_dir a p dx dy -> crossed a dx dy p n -> n = cnt a dx dy p.
Proof.
  intros F C. induction C; [reflexivity|reflexivity| |].
  - inversion F as [|? ? F1 F2]; subst. specialize (IHC F2). inversion F2 as [|? ? F3 F4]; subst. rewrite in_line_pos in F1, F3.
    rewrite hits_signs in H by assumption. cbn [cnt]. unfold hitb. destruct (hit_s_dec _ _ _); [reflexivity|contradiction].
  - inversion F as [|? ? F1 F2]; subst. specialize (IHC F2). inversion F2 as [|? ? F3 F4]; subst. rewrite in_line_pos in F1, F3.
    rewrite hits_signs in H by assumption. cbn [cnt]. unfold hitb. destruct (hit_s_dec _ _ _); [contradiction|reflexivity].
Qed.

Lemma cnt_crossed a dx dy p : free_dir a p dx dy -> crossed a dx dy p (cnt a dx dy p).
Proof.
  induction p as [|b [|c r] IH]; intros F; [constructor|constructor|].
  inversion F as [|? ? F1 F2]; subst. specialize (IH F2). inversion F2 as [|? ? F3 F4]; subst. rewrite in_line_pos in F1, F3.
  cbn [cnt]. unfold hitb. destruct (hit_s_dec _ _ _) as [H|H]; rewrite <- hits_signs in H by assumption; cbn [plus]; constructor; assumption.
Qed.

Lemma odd_step (b : bool) n : Nat.odd ((if b then 1 else 0) + n) = xorb b (Nat.odd n).
Proof. destruct b; [|now rewrite xorb_false_l]. change (1 + n)%nat with (S n). rewrite Nat.odd_succ, <- Nat.negb_odd. now destruct (Nat.odd n). Qed.

Lemma beside_tail a b p : beside a (b :: p) -> beside a p.
Proof. intros H c d q (l & r & E). apply H. exists (b :: l), r. now rewrite E. Qed.
Lemma beside_head a b c p : beside a (b :: c :: p) -> forall r, on_seg b c r -> ~ (X r = X a /\ Y r = Y a).
Proof. intros H r. apply H. exists [], p. reflexivity. Qed.

(** if, along every side, the two counts differ exactly when the ends are on different sides of something, a
    closed contour has equal parities *)
Lemma telescope a d1 d2 e1 e2 (W : Rpoint -> bool) : forall (p : list Rpoint) b,
  (forall c d, next_in (b :: p) c d ->
    xorb (hitb (pos a d1 d2 c) (pos a d1 d2 d) (area a c d)) (hitb (pos a e1 e2 c) (pos a e1 e2 d) (area a c d)) = xorb (W c) (W d)) ->
  xorb (Nat.odd (cnt a d1 d2 (b :: p))) (Nat.odd (cnt a e1 e2 (b :: p))) = xorb (W b) (W (last (b :: p) b)).
Proof.
  induction p as [|c p IH]; intros b H; [cbn; now destruct (W b)|].
  assert (H' : forall x y, next_in (c :: p) x y -> xorb (hitb (pos a d1 d2 x) (pos a d1 d2 y) (area a x y)) (hitb (pos a e1 e2 x) (pos a e1 e2 y) (area a x y)) = xorb (W x) (W y)).
  { intros x y (l & r & E). apply H. exists (b :: l), r. now rewrite E. }
  specialize (IH c H'). specialize (H b c (ex_intro _ [] (ex_intro _ p eq_refl))).
  change (cnt a d1 d2 (b :: c :: p)) with ((if hitb (pos a d1 d2 b) (pos a d1 d2 c) (area a b c) then 1 else 0) + cnt a d1 d2 (c :: p))%nat.
  change (cnt a e1 e2 (b :: c :: p)) with ((if hitb (pos a e1 e2 b) (pos a e1 e2 c) (area a b c) then 1 else 0) + cnt a e1 e2 (c :: p))%nat.
  rewrite !odd_step.
  assert (L : last (b :: c :: p) b = last (c :: p) c). { change (last (b :: c :: p) b) with (last (c :: p) b). clear. revert c. induction p as [|d p IHp]; intros c; [reflexivity|]. change (last (d :: p) b = last (d :: p) c). destruct p; [reflexivity|]. change (last (r :: p) b = last (r :: p) c). clear. revert r. induction p as [|x p IHp]; intros; [reflexivity|apply IHp]. }
  rewrite L.
  revert H IH. generalize (hitb (pos a d1 d2 b) (pos a d1 d2 c) (area a b c)) (hitb (pos a e1 e2 b) (pos a e1 e2 c) (area a b c)) (W b) (W c) (W (last (c :: p) c)) (Nat.odd (cnt a d1 d2 (c :: p))) (Nat.odd (cnt a e1 e2 (c :: p))).
  intros [] [] [] [] [] [] []; cbn; congruence.
Qed.

Lemma next_in_In p b c : next_in p b c -> In b p /\ In c p.
Proof. intros (l & r & ->). split; apply in_or_app; right; cbn; tauto. Qed.

Lemma hitb_scale k a b E : 0 < k -> hitb a b (k * E) = hitb a b E.
Proof.
  intros K. unfold hitb. destruct (hit_s_dec a b (k * E)) as [H|H], (hit_s_dec a b E) as [G|G]; try reflexivity; exfalso; rewrite hit_s_cases in H, G.
  - apply G. destruct H as [H|H]; [left|right]; repeat split; try lra; destruct H as (_ & _ & H); [destruct (Rlt_or_le 0 E); [lra|nra]|destruct (Rlt_or_le E 0); [lra|nra]].
  - apply H. destruct G as [G|G]; [left|right]; repeat split; try lra; nra.
Qed.

Lemma turned_rays a d1 d2 e1 e2 b p : 0 < d1 * e2 - d2 * e1 -> beside a (b :: p) -> last (b :: p) b = b ->
  free_dir a (b :: p) d1 d2 -> free_dir a (b :: p) e1 e2 ->
  Nat.odd (cnt a d1 d2 (b :: p)) = Nat.odd (cnt a e1 e2 (b :: p)).
Proof.
  intros D B L F1 F2.
  assert (T : xorb (Nat.odd (cnt a d1 d2 (b :: p))) (Nat.odd (cnt a e1 e2 (b :: p))) = false).
  2: { now apply xorb_eq. }
  rewrite (telescope a d1 d2 e1 e2 (fun c => sector (pos a d1 d2 c) (pos a e1 e2 c)) p b).
  - rewrite L. apply xorb_nilpotent.
  - intros c d N. destruct (next_in_In _ _ _ N) as (I1 & I2). unfold free_dir in F1, F2. rewrite Forall_forall in F1, F2.
    pose proof (F1 c I1) as C1. pose proof (F1 d I2) as C2. pose proof (F2 c I1) as C3. pose proof (F2 d I2) as C4. rewrite in_line_pos in C1, C2, C3, C4.
    assert (E : pos a d1 d2 c * pos a e1 e2 d - pos a e1 e2 c * pos a d1 d2 d = (d1 * e2 - d2 * e1) * area a c d) by (unfold pos, area; ring).
    rewrite <- (hitb_scale _ (pos a d1 d2 c) _ (area a c d) D), <- (hitb_scale _ (pos a e1 e2 c) _ (area a c d) D), <- E.
    apply two_rays; try assumption. intros S. rewrite E. apply Rmult_integral_contrapositive_currified; [lra|].
    assert (Nd : (d1 <> 0 \/ d2 <> 0) /\ (e1 <> 0 \/ e2 <> 0)).
    { clear - C1 C3. split; [destruct (Req_dec d1 0); [destruct (Req_dec d2 0)|]|destruct (Req_dec e1 0); [destruct (Req_dec e2 0)|]]; auto; exfalso; subst; [apply C1|apply C3]; unfold pos; ring. }
    destruct S as [S|S]; [eapply (beside_area a d1 d2)|eapply (beside_area a e1 e2)]; try exact S; try tauto; intros r; apply B; exact N.
Qed.

(** the ray and its opposite *)
Definition left_of (x : R) : bool := if Rlt_dec 0 x then true else false.
Lemma one_line u v E k : u <> 0 -> v <> 0 -> k < 0 -> (u * v < 0 -> E <> 0) ->
  xorb (hitb u v E) (hitb (k * u) (k * v) E) = xorb (left_of u) (left_of v).
Proof.
  intros U V K NE.
  assert (H : hit_s (k * u) (k * v) E <-> hit_s u v (- E)).
  { rewrite !hit_s_cases.
    assert (S : forall x, (k * x < 0 <-> 0 < x) /\ (0 < k * x <-> x < 0)).
    { intros x. split; split; intros; [destruct (Rlt_or_le 0 x); [lra|nra]|nra|destruct (Rlt_or_le x 0); [lra|nra]|nra]. }
    pose proof (S u). pose proof (S v). assert (M : (- E < 0 <-> 0 < E) /\ (0 < - E <-> E < 0)) by lra. tauto. }
  unfold hitb, left_of. destruct (hit_s_dec u v E) as [A|A], (hit_s_dec (k * u) (k * v) E) as [B|B]; rewrite H in B; rewrite hit_s_cases in A, B;
  destruct (Rlt_dec 0 u), (Rlt_dec 0 v); try reflexivity; exfalso.
  all: try lra.
  - assert (E <> 0) by (apply NE; nra). lra.
  - assert (E <> 0) by (apply NE; nra). lra.
Qed.

Lemma even_odd a d1 d2 e1 e2 b p : beside a (b :: p) -> last (b :: p) b = b ->
  free_dir a (b :: p) d1 d2 -> free_dir a (b :: p) e1 e2 ->
  Nat.odd (cnt a d1 d2 (b :: p)) = Nat.odd (cnt a e1 e2 (b :: p)).
Proof.
  intros B L F1 F2. destruct (total_order_T (d1 * e2 - d2 * e1) 0) as [[D|D]|D].
  - symmetry. apply turned_rays; try assumption. lra.
  - assert (P1 := F1). assert (P2 := F2). inversion P1 as [|? ? P3 _]; subst. inversion P2 as [|? ? P4 _]; subst. rewrite in_line_pos in P3, P4.
    assert (Nd : 0 < d1 * d1 + d2 * d2).
    { destruct (Rlt_or_le 0 (d1 * d1 + d2 * d2)); [assumption|]. exfalso. apply P3. assert (d1 = 0) by nra. assert (d2 = 0) by nra. subst. unfold pos. ring. }
    set (k := (d1 * e1 + d2 * e2) / (d1 * d1 + d2 * d2)).
    assert (K0 : d1 * e2 = d2 * e1) by lra.
    assert (K1 : e1 = k * d1). { unfold k. apply Rmult_eq_reg_r with (d1 * d1 + d2 * d2); [|lra]. replace ((d1 * e1 + d2 * e2) / (d1 * d1 + d2 * d2) * d1 * (d1 * d1 + d2 * d2)) with ((d1 * e1 + d2 * e2) * d1) by (field; lra). transitivity (d1 * d1 * e1 + d2 * (d2 * e1)); [ring|]; rewrite <- K0; ring. }
    assert (K2 : e2 = k * d2). { unfold k. apply Rmult_eq_reg_r with (d1 * d1 + d2 * d2); [|lra]. replace ((d1 * e1 + d2 * e2) / (d1 * d1 + d2 * d2) * d2 * (d1 * d1 + d2 * d2)) with ((d1 * e1 + d2 * e2) * d2) by (field; lra). transitivity (d2 * d2 * e2 + d1 * (d1 * e2)); [ring|]; rewrite K0; ring. }
    assert (Pk : forall c, pos a e1 e2 c = k * pos a d1 d2 c) by (intros c; unfold pos; rewrite K1, K2; ring).
    clearbody k. destruct (total_order_T k 0) as [[K|K]|K].
    + assert (T : xorb (Nat.odd (cnt a d1 d2 (b :: p))) (Nat.odd (cnt a e1 e2 (b :: p))) = false).
      2: { now apply xorb_eq. }
      rewrite (telescope a d1 d2 e1 e2 (fun c => left_of (pos a d1 d2 c)) p b).
      * rewrite L. apply xorb_nilpotent.
      * intros c d N. destruct (next_in_In _ _ _ N) as (I1 & I2). unfold free_dir in F1. rewrite Forall_forall in F1.
        pose proof (F1 c I1) as C1. pose proof (F1 d I2) as C2. rewrite in_line_pos in C1, C2. rewrite !Pk. apply one_line; try assumption.
        intros S. eapply (beside_area a d1 d2); [|destruct (Req_dec d1 0); [right|left]; [intros Z; subst; lra|assumption]|exact S].
        intros r; apply B; exact N.
    + exfalso. apply P4. rewrite Pk, K. ring.
    + f_equal. clear - Pk K. generalize (b :: p). clear b p. intros p. induction p as [|b [|c r] IH]; [reflexivity|reflexivity|].
      cbn [cnt] in *. rewrite IH. f_equal. rewrite !Pk.
      assert (H : hitb (k * pos a d1 d2 b) (k * pos a d1 d2 c) (area a b c) = hitb (pos a d1 d2 b) (pos a d1 d2 c) (area a b c)); [|now rewrite H].
      unfold hitb.
      assert (H : hit_s (k * pos a d1 d2 b) (k * pos a d1 d2 c) (area a b c) <-> hit_s (pos a d1 d2 b) (pos a d1 d2 c) (area a b c)).
      { rewrite !hit_s_cases.
        assert (S : forall x, (k * x < 0 <-> x < 0) /\ (0 < k * x <-> 0 < x)).
        { intros x. split; split; intros; [destruct (Rlt_or_le x 0); [lra|nra]|nra|destruct (Rlt_or_le 0 x); [lra|nra]|nra]. }
        pose proof (S (pos a d1 d2 b)). pose proof (S (pos a d1 d2 c)). tauto. }
      destruct (hit_s_dec _ _ _), (hit_s_dec _ _ _); tauto.
  - apply turned_rays; try assumption.
Qed.

Lemma cancel_neg k x : 0 < k -> k * x < 0 -> x < 0.
Proof. intros K H. destruct (Rlt_or_le x 0); [assumption|]. exfalso. nra. Qed.
Lemma cancel_pos k x : 0 < k -> 0 < k * x -> 0 < x.
Proof. intros K H. destruct (Rlt_or_le 0 x); [assumption|]. exfalso. nra. Qed.
Lemma not_square_neg u v : u = v -> u * v < 0 -> False.
Proof. intros -> H. pose proof (Rle_0_sqr v) as S. unfold Rsqr in S. lra. Qed.
Lemma square_nonzero x : x <> 0 -> 0 < x * x.
Proof. intros H. apply Rsqr_pos_lt in H. exact H. Qed.

(** ** What the code counts *)
Section Code.
Variable a p0 p1 : Rpoint.
Variable z wx wy : R.
Hypothesis F0 : Z3 p0 = z.
Hypothesis F1 : Z3 p1 = z.
Hypothesis ND : X p0 <> X p1 \/ Y p0 <> Y p1.
Hypothesis TF : to_first a p0 p1 wx wy.
Hypothesis NW : wx <> 0 \/ wy <> 0.
Let pl : Rplane := Pl a (vectorTo p0 p1).
Let nx := X p1 - X p0.
Let ny := Y p1 - Y p0.
Let n2 := nx * nx + ny * ny.
Let h := Z3 a.

Lemma n2_pos : 0 < n2.
Proof. unfold n2. destruct ND as [N|N].
  - assert (0 < nx * nx) by (apply Rsqr_pos_lt; unfold nx; lra). pose proof (Rle_0_sqr ny) as S. unfold Rsqr in S. lra.
  - assert (0 < ny * ny) by (apply Rsqr_pos_lt; unfold ny; lra). pose proof (Rle_0_sqr nx) as S. unfold Rsqr in S. lra. Qed.

Lemma sd_code q : sd pl q = (X q - X a) * nx + (Y q - Y a) * ny.
Proof.
  unfold sd, pl, vectorTo. cbn [pl_p pl_n vx vy vz]. unfold nx, ny. unfold X, Y, Z3 in *. rcbn. rewrite F0, F1. ring.
Qed.

Lemma w_perp : exists k, k <> 0 /\ wx = - (k * ny) /\ wy = k * nx.
Proof.
  pose proof n2_pos as Np. destruct TF as (T & _). fold nx ny in T.
  exists ((nx * wy - ny * wx) / n2).
  assert (A : wx = - ((nx * wy - ny * wx) / n2 * ny)).
  { apply Rmult_eq_reg_r with n2; [|lra]. replace (- ((nx * wy - ny * wx) / n2 * ny) * n2) with (- ((nx * wy - ny * wx) * ny)) by (field; lra).
    unfold n2. transitivity (nx * (wx * nx) + wx * (ny * ny)); [ring|]. replace (wx * nx) with (- (wy * ny)) by lra. ring. }
  assert (B : wy = (nx * wy - ny * wx) / n2 * nx).
  { apply Rmult_eq_reg_r with n2; [|lra]. replace ((nx * wy - ny * wx) / n2 * nx * n2) with ((nx * wy - ny * wx) * nx) by (field; lra).
    unfold n2. transitivity (ny * (wy * ny) + wy * (nx * nx)); [ring|]. replace (wy * ny) with (- (wx * nx)) by lra. ring. }
  repeat split; try assumption. intros K. rewrite K in A, B. destruct NW; lra.
Qed.

Lemma w_code : projectOnPlane (vectorTo a p0) pl = V3 (A := ArithR) wx wy (z - h).
Proof.
  pose proof n2_pos as Np. destruct TF as (T1 & T2).
  unfold projectOnPlane, projectOn, vlen2, vadd, vopp, vscale, dot, pl, vectorTo. cbn [pl_n vx vy vz]. rcbn.
  change (px p0) with (X p0). change (py p0) with (Y p0). change (pz p0) with (Z3 p0). change (px p1) with (X p1). change (py p1) with (Y p1).
  change (pz p1) with (Z3 p1). change (px a) with (X a). change (py a) with (Y a). change (pz a) with h. rewrite F0, F1. fold nx ny. rewrite Rminus_eq_0.
  replace (nx * nx + ny * ny + 0 * 0) with n2 by (unfold n2; ring).
  fold nx ny in T1, T2.
  assert (A : wx * n2 = (X p0 - X a) * n2 - ((X p0 - X a) * nx + (Y p0 - Y a) * ny) * nx).
  { unfold n2. 
    assert (Q : nx * wy - ny * wx = nx * (Y p0 - Y a) - ny * (X p0 - X a)) by lra.
    transitivity (nx * (wx * nx) + wx * (ny * ny)); [ring|]. replace (wx * nx) with (- (wy * ny)) by lra.
    transitivity (- ny * (nx * wy - ny * wx)); [ring|]. rewrite Q. ring. }
  assert (B : wy * n2 = (Y p0 - Y a) * n2 - ((X p0 - X a) * nx + (Y p0 - Y a) * ny) * ny).
  { unfold n2. 
    assert (Q : nx * wy - ny * wx = nx * (Y p0 - Y a) - ny * (X p0 - X a)) by lra.
    transitivity (ny * (wy * ny) + wy * (nx * nx)); [ring|]. replace (wy * ny) with (- (wx * nx)) by lra.
    transitivity (nx * (nx * wy - ny * wx)); [ring|]. rewrite Q. ring. }
  match goal with |- context [Reqb ?x ?y] => destruct (Reqb x y) eqn:Q end.
  { exfalso. apply Reqb_true in Q. lra. }
  cbn [vx vy vz]. rcbn. f_equal.
  - apply Rmult_eq_reg_r with n2; [|lra]. rewrite A. field. lra.
  - apply Rmult_eq_reg_r with n2; [|lra]. rewrite B. field. lra.
  - field. lra.
Qed.

Lemma pos_sd : exists k, k <> 0 /\ forall q, pos a wx wy q = k * sd pl q.
Proof.
  destruct w_perp as (k & Nk & A & B). exists (- k). split; [lra|]. intros q. rewrite sd_code. unfold pos. rewrite A, B. ring.
Qed.

Lemma side_code b c : Z3 b = z -> Z3 c = z -> pos a wx wy b <> 0 -> pos a wx wy c <> 0 ->
  (forall r, on_seg b c r -> ~ (X r = X a /\ Y r = Y a)) ->
  (forall q s, on_seg b c q -> 0 < s -> X q = X a - s * wx -> Y q = Y a - s * wy -> (h - z) * (h - z) < s * (wx * wx + wy * wy)) ->
  (match intersectSegment pl b c with
   | Some i => if codirected (vectorTo a i) (V3 (A := ArithR) wx wy (z - h)) then 1%nat else 0%nat
   | None => 0%nat
   end) = if hitb (pos a wx wy b) (pos a wx wy c) (area a b c) then 1%nat else 0%nat.
Proof.
  intros Fb Fc Nb Nc Bs Cl. destruct pos_sd as (k & Nk & Pk).
  assert (K2 : 0 < k * k) by (apply Rsqr_pos_lt; assumption).
  assert (M : pos a wx wy b * pos a wx wy c = (k * k) * (sd pl b * sd pl c)) by (rewrite !Pk; ring).
  set (u := pos a wx wy b) in *. set (v := pos a wx wy c) in *.
  assert (Nm : u * v <> 0) by (apply Rmult_integral_contrapositive_currified; assumption).
  destruct (Rdichotomy _ _ Nm) as [L|L].
  - assert (Ls : sd pl b * sd pl c < 0). { apply (cancel_neg (k * k)); [assumption|]. rewrite <- M. exact L. }
    assert (Nuv : u - v <> 0). { intros Z. apply (not_square_neg u v); [lra|assumption]. }
    assert (Nsd : sd pl b <> sd pl c). { intros Z. exact (not_square_neg _ _ Z Ls). }
    rewrite (isect_some pl b c Nsd) by lra.
    assert (Et : sd pl b / (sd pl b - sd pl c) = u / (u - v)).
    { unfold u, v. rewrite !Pk. assert (Nd : sd pl b - sd pl c <> 0) by lra. replace (k * sd pl b - k * sd pl c) with (k * (sd pl b - sd pl c)) by ring.
      field. split; assumption. }
    assert (Na : area a b c <> 0) by (apply (beside_area a wx wy); assumption).
    set (s := area a b c / (v - u)).
    assert (Ox : X (cut pl b c) = X a + s * wx).
    { unfold cut. rewrite Et. unfold along. unfold X at 1. cbn [px]. unfold s. revert Nuv. unfold u, v, pos, area. intros Nuv. rcbn. field. split; lra. }
    assert (Oy : Y (cut pl b c) = Y a + s * wy).
    { unfold cut. rewrite Et. unfold along. unfold Y at 1. cbn [py]. unfold s. revert Nuv. unfold u, v, pos, area. intros Nuv. rcbn. field. split; lra. }
    assert (Oz : Z3 (cut pl b c) = z).
    { unfold cut, along. unfold Z3 at 1. cbn [pz]. rewrite Fb, Fc. rcbn. ring. }
    assert (Os : on_seg b c (cut pl b c)).
    { exists (u / (u - v)). split; [|unfold cut; now rewrite Et]. destruct (neg_mult _ _ L) as [(L1 & L2)|(L1 & L2)].
      - replace (u / (u - v)) with ((- u) / (v - u)) by (field; lra). split; [apply Rlt_le, Rdiv_lt_0_compat; lra|].
        apply Rmult_le_reg_r with (v - u); [lra|]. replace (- u / (v - u) * (v - u)) with (- u) by (field; lra). lra.
      - split; [apply Rlt_le, Rdiv_lt_0_compat; lra|].
        apply Rmult_le_reg_r with (u - v); [lra|]. replace (u / (u - v) * (u - v)) with u by (field; lra). lra. }
    assert (Dot : dot (vectorTo a (cut pl b c)) (V3 (A := ArithR) wx wy (z - h)) = s * (wx * wx + wy * wy) + (h - z) * (h - z)).
    { unfold dot, vectorTo. cbn [vx vy vz]. rcbn. change (px (cut pl b c)) with (X (cut pl b c)). change (py (cut pl b c)) with (Y (cut pl b c)).
      change (pz (cut pl b c)) with (Z3 (cut pl b c)). change (px a) with (X a). change (py a) with (Y a). change (pz a) with h. rewrite Ox, Oy, Oz. ring. }
    assert (W2 : 0 < wx * wx + wy * wy).
    { pose proof (Rle_0_sqr wx) as S1. pose proof (Rle_0_sqr wy) as S2. unfold Rsqr in S1, S2.
      destruct NW as [Q|Q]; apply Rsqr_pos_lt in Q; unfold Rsqr in Q; lra. }
    pose proof (Rle_0_sqr (h - z)) as Hz. unfold Rsqr in Hz.
    assert (Ns : s <> 0). { unfold s. intros Z. apply Na. replace (area a b c) with (area a b c / (v - u) * (v - u)) by (field; lra). rewrite Z. ring. }
    assert (As : area a b c = s * (v - u)) by (unfold s; field; lra).
    unfold codirected. rewrite Dot. rcbn. unfold hitb.
    destruct (Rdichotomy _ _ Ns) as [S|S].
    + assert (C := Cl (cut pl b c) (- s) Os ltac:(lra) ltac:(rewrite Ox; ring) ltac:(rewrite Oy; ring)).
      destruct (Rleb 0 (s * (wx * wx + wy * wy) + (h - z) * (h - z))) eqn:Q; [apply Rleb_true in Q; clear - Q C; exfalso; lra|].
      destruct (hit_s_dec u v (area a b c)) as [(_ & G)|_]; [exfalso|reflexivity]. 
      assert (Z : 0 < (v - u) * (v - u)) by (apply square_nonzero; lra). rewrite As in G.
      apply (Rlt_irrefl 0). apply Rlt_trans with s; [|exact S]. apply (cancel_pos ((v - u) * (v - u))); [exact Z|].
      replace ((v - u) * (v - u) * s) with (s * (v - u) * (v - u)) by ring. exact G.
    + destruct (Rleb 0 (s * (wx * wx + wy * wy) + (h - z) * (h - z))) eqn:Q; [|apply Rleb_false in Q; exfalso; assert (0 < s * (wx * wx + wy * wy)) by (apply Rmult_lt_0_compat; assumption); clear - Q H Hz; lra].
      destruct (hit_s_dec u v (area a b c)) as [_|G]; [reflexivity|]. exfalso. apply G. split; [assumption|]. rewrite As.
      replace (s * (v - u) * (v - u)) with (s * ((v - u) * (v - u))) by ring. apply Rmult_lt_0_compat; [exact S|]. apply square_nonzero. lra.
  - assert (Ls : 0 < sd pl b * sd pl c). { apply (cancel_pos (k * k)); [assumption|]. rewrite <- M. exact L. }
    rewrite (isect_none pl b c) by (right; exact Ls). unfold hitb. destruct (hit_s_dec u v (area a b c)) as [(G & _)|_]; [lra|reflexivity].
Qed.

Lemma count_code : forall p, level z p -> free_dir a p wx wy -> beside a p -> clear_behind a z p wx wy ->
  inside_count a pl (V3 (A := ArithR) wx wy (z - h)) p = cnt a wx wy p.
Proof.
  induction p as [|b [|c r] IH]; intros L F B C; [reflexivity|reflexivity|].
  pose proof (Forall_inv L) as L1. pose proof (Forall_inv_tail L) as L2. pose proof (Forall_inv L2) as L3.
  pose proof (Forall_inv F) as Fr1. pose proof (Forall_inv_tail F) as Fr2. pose proof (Forall_inv Fr2) as Fr3.
  cbv beta in L1, L3, Fr1, Fr3. rewrite in_line_pos in Fr1, Fr3.
  assert (C' : clear_behind a z (c :: r) wx wy) by (intros x y q s (l & r' & E); apply C; exists (b :: l), r'; now rewrite E).
  specialize (IH L2 Fr2 (beside_tail _ _ _ B) C').
  set (V := V3 (A := ArithR) wx wy (Rminus z h)) in *.
  change (((match intersectSegment pl b c with
            | Some i => if codirected (vectorTo a i) V then 1%nat else 0%nat
            | None => 0%nat
            end) + inside_count a pl V (c :: r))%nat = cnt a wx wy (b :: c :: r)).
  match goal with |- (?x + ?y)%nat = _ => assert (E1 : y = cnt a wx wy (c :: r)) by exact IH; rewrite E1; clear E1;
    assert (E2 : x = if hitb (pos a wx wy b) (pos a wx wy c) (area a b c) then 1%nat else 0%nat); [apply side_code; try assumption|rewrite E2; reflexivity] end.
  - exact (beside_head _ _ _ _ B).
  - intros q s. apply C. exists [], r. reflexivity.
Qed.
End Code.

Lemma inside_code a (p0 p1 p2 p3 : Rpoint) r z wx wy : let p := p0 :: p1 :: p2 :: p3 :: r in
  level z p -> last p p0 = p0 -> (X p0 <> X p1 \/ Y p0 <> Y p1) -> to_first a p0 p1 wx wy -> (wx <> 0 \/ wy <> 0) ->
  free_dir a p wx wy -> beside a p -> clear_behind a z p wx wy ->
  forall dx dy n, free_dir a p dx dy -> crossed a dx dy p n -> pt_inside a p = Nat.odd n.
Proof.
  intros p L Cl ND TF NW F B C dx dy n Fd Cr. rewrite (crossed_cnt _ _ _ _ _ Fd Cr).
  assert (L' := L). unfold p in L'. inversion L' as [|? ? L1 L2]; subst. inversion L2 as [|? ? L3 L4]; subst.
  unfold p at 1. unfold pt_inside. rewrite (w_code a p0 p1 (Z3 p0) wx wy); try assumption; [|reflexivity].
  fold p. rewrite (count_code a p0 p1 (Z3 p0) wx wy); try assumption; [|reflexivity].
  apply even_odd; assumption.
Qed.

(** ** A point on the line of the first side *)
Lemma count_all a p0 p1 z : Z3 p0 = z -> Z3 p1 = z -> forall (p : list Rpoint) b, level z (b :: p) ->
  Forall (fun c => (X c - X a) * (X p1 - X p0) + (Y c - Y a) * (Y p1 - Y p0) <> 0) (b :: p) ->
  Nat.odd (inside_count a (Pl a (vectorTo p0 p1)) (V3 (A := ArithR) 0 0 (Rminus z (Z3 a))) (b :: p)) =
  xorb (left_of (sd (Pl a (vectorTo p0 p1)) b)) (left_of (sd (Pl a (vectorTo p0 p1)) (last (b :: p) b))).
Proof.
  intros F0 F1. set (pl := Pl a (vectorTo p0 p1)). set (V := V3 (A := ArithR) 0 0 (Rminus z (Z3 a))).
  assert (Sd : forall q, sd pl q = (X q - X a) * (X p1 - X p0) + (Y q - Y a) * (Y p1 - Y p0)) by (intros q; apply (sd_code a p0 p1 z); assumption).
  induction p as [|c p IH]; intros b L N.
  - cbn. now destruct (left_of _).
  - pose proof (Forall_inv L) as L1. pose proof (Forall_inv_tail L) as L2. pose proof (Forall_inv L2) as L3.
    pose proof (Forall_inv N) as N1. pose proof (Forall_inv_tail N) as N2. pose proof (Forall_inv N2) as N3. cbv beta in *.
    rewrite <- Sd in N1, N3. specialize (IH c L2 N2).
    assert (La : last (b :: c :: p) b = last (c :: p) c).
    { change (last (b :: c :: p) b) with (last (c :: p) b). clear. revert c. induction p as [|d p IHp]; intros c; [reflexivity|]. change (last (d :: p) b = last (d :: p) c). destruct p; [reflexivity|]. change (last (r :: p) b = last (r :: p) c). clear. revert r. induction p as [|x p IHp]; intros; [reflexivity|apply IHp]. }
    rewrite La.
    assert (Cd : forall q, Z3 q = z -> codirected (vectorTo a q) V = true).
    { intros q Zq. unfold codirected, V, dot, vectorTo. cbn [vx vy vz]. unfold Z3 in Zq. rcbn. rewrite Zq. apply Rleb_true.
      pose proof (Rle_0_sqr (z - pz a)) as S. unfold Rsqr in S. unfold Z3. replace (_ + _) with ((z - pz a) * (z - pz a)); [exact S|]. rcbn. ring. }
    assert (St : inside_count a pl V (b :: c :: p) =
      ((match intersectSegment pl b c with Some i => if codirected (vectorTo a i) V then 1%nat else 0%nat | None => 0%nat end) + inside_count a pl V (c :: p))%nat) by reflexivity.
    rewrite St. clear St.
    assert (Nm : sd pl b * sd pl c <> 0) by (apply Rmult_integral_contrapositive_currified; assumption).
    destruct (Rdichotomy _ _ Nm) as [S|S].
    + rewrite (isect_some pl b c); [|intros E; exact (not_square_neg _ _ E S)|lra].
      rewrite Cd. 2: { unfold cut, along. unfold Z3 at 1. cbn [pz]. rewrite L1, L3. rcbn. ring. }
      change (1 + inside_count a pl V (c :: p))%nat with (Datatypes.S (inside_count a pl V (c :: p))). rewrite Nat.odd_succ, <- Nat.negb_odd, IH.
      apply neg_mult in S. unfold left_of at 1 3. destruct (Rlt_dec 0 (sd pl b)), (Rlt_dec 0 (sd pl c)); try (exfalso; lra); destruct (left_of (sd pl (last (c :: p) c))); reflexivity.
    + rewrite (isect_none pl b c) by (right; exact S). change (0 + inside_count a pl V (c :: p))%nat with (inside_count a pl V (c :: p)). rewrite IH.
      f_equal. unfold left_of. destruct (Rlt_dec 0 (sd pl b)) as [P|P], (Rlt_dec 0 (sd pl c)) as [Q|Q]; try reflexivity; exfalso.
      * assert (sd pl c < 0) by (destruct (Rdichotomy _ _ N3); lra). assert (sd pl b * sd pl c < 0) by (apply mult_neg; lra). lra.
      * assert (sd pl b < 0) by (destruct (Rdichotomy _ _ N1); lra). assert (sd pl b * sd pl c < 0) by (apply mult_neg; lra). lra.
Qed.

Lemma next_in_cons (b c x y : Rpoint) r : next_in (b :: c :: r) x y -> (x = b /\ y = c) \/ next_in (c :: r) x y.
Proof.
  intros (l & r' & E). destruct l as [|d l].
  - left. injection E as -> -> _. split; reflexivity.
  - right. injection E as -> E. exists l, r'. exact E.
Qed.
Lemma next_in_one (b x y : Rpoint) : ~ next_in [b] x y.
Proof. intros (l & r' & E). destruct l as [|d [|e l]]; discriminate E. Qed.
