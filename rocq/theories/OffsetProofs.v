From Coq Require Import ZArith Reals Lra Lia List Bool.
From Verif Require Import Arith ArithR Prim Path PathClaims GeomSpec GeomProofs MeshProofs Helpers HelperClaims HelperProofs2 Vip ClosedClaims OffsetClaims.
Import ListNotations.
Close Scope Z_scope.
Close Scope num_scope.
Local Open Scope R_scope.

Lemma len2_sq a b : len2 a b * len2 a b = (X b - X a) * (X b - X a) + (Y b - Y a) * (Y b - Y a).
Proof. unfold len2. apply sqrt_sqrt. pose proof (Rle_0_sqr (X b - X a)) as A. pose proof (Rle_0_sqr (Y b - Y a)) as B. unfold Rsqr in *. lra. Qed.
Lemma len2_nonneg a b : 0 <= len2 a b.
Proof. apply sqrt_pos. Qed.
Lemma len2_pos (a b : Rpoint) : a <> b -> Z3 a = Z3 b -> 0 < len2 a b.
Proof.
  intros N Hz. destruct (len2_nonneg a b) as [H|H]; [exact H|]. exfalso. apply N. pose proof (len2_sq a b) as Q. rewrite <- H in Q.
  assert (Q' : Rsqr (X b - X a) + Rsqr (Y b - Y a) = 0) by (unfold Rsqr; lra).
  pose proof (Rplus_sqr_eq_0_l _ _ Q') as E1. pose proof (Rplus_sqr_eq_0 _ _ Q') as [_ E2].
  destruct a as [a1 a2 a3], b as [b1 b2 b3]. unfold X, Y, Z3 in *. cbn [px py pz] in *. assert (a1 = b1) by lra. assert (a2 = b2) by lra. now subst.
Qed.

(** ** A shifted line *)
Lemma shift_flat (w k : R) (a b : Rpoint) : k * k = 1 -> 0 < len2 a b -> Z3 a = Z3 b ->
  shift_line (A := ArithR) w (vopp (V3 (A := ArithR) 0 0 k)) (a, b) = L2 (A := ArithR) (aside (k * w) a b a) (aside (k * w) a b b).
Proof.
  intros K L H. unfold shift_line.
  assert (C : cross (vopp (V3 (A := ArithR) 0 0 k)) (vectorTo a b) = V3 (A := ArithR) (k * (Y b - Y a))%R (- k * (X b - X a))%R 0).
  { apply V_ext; unfold cross, vopp, vectorTo, X, Y, Z3 in *; cbn [vx vy vz]; rcbn; try ring. }
  rewrite C.
  assert (N : vlen (V3 (A := ArithR) (k * (Y b - Y a))%R (- k * (X b - X a))%R 0) = len2 a b).
  { rewrite vlen_R. unfold Vlen, Vdot, len2. cbn [vx vy vz]. f_equal. replace (k * (Y b - Y a) * (k * (Y b - Y a)) + - k * (X b - X a) * (- k * (X b - X a)) + 0 * 0) with ((k * k) * ((X b - X a) * (X b - X a) + (Y b - Y a) * (Y b - Y a))) by ring. rewrite K. ring. }
  unfold normalize. rewrite N. destruct (@neqb ArithR _ _) eqn:E.
  { exfalso. apply Reqb_true in E. rewrite E in L. revert L. rcbn. lra. }
  unfold aside, pshift, vscale. cbn [vx vy vz]. destruct a as [a1 a2 a3], b as [b1 b2 b3]. unfold X, Y, Z3 in *. cbn [px py pz] in *. rcbn. f_equal; f_equal; field; lra.
Qed.

(** ** The intersection of two horizontal lines *)
Definition lflat (h : R) (l : Rline) : Prop := Z3 (lp1 l) = h /\ Z3 (lp2 l) = h.

Lemma cross_flat (u v : Rvector) : (vz u : R) = 0 -> (vz v : R) = 0 -> cross u v = V3 (A := ArithR) 0 0 (vx u * vy v - vy u * vx v)%R.
Proof. intros A B. apply V_ext; unfold cross; cbn [vx vy vz]; rcbn; rewrite ?A, ?B; ring. Qed.
Lemma vlen_up (z : R) : vlen (V3 (A := ArithR) 0 0 z) = Rabs z.
Proof. rewrite vlen_R. unfold Vlen, Vdot. cbn [vx vy vz]. rcbn. replace (0 * 0 + 0 * 0 + z * z) with (Rsqr z) by (unfold Rsqr; ring). apply sqrt_Rsqr_abs. Qed.

(** the intersection that the code computes, on plain numbers *)
Lemma isect_eq (h : R) (l n : Rline) : lflat h l -> lflat h n ->
  intersectLine2 l n =
    let al := turn (lp1 n) (lp2 n) (lp1 l) (lp2 n) in let be := turn (lp1 n) (lp2 n) (lp1 l) (lp2 l) in
    if almostZero (A := ArithR) (Rabs al) || almostZero (A := ArithR) (Rabs be) then None else
    let q := P3 (A := ArithR) (X (lp1 l) + (X (lp2 l) - X (lp1 l)) * (al / be))%R (Y (lp1 l) + (Y (lp2 l) - Y (lp1 l)) * (al / be))%R h in
    if Rltb 2 (distanceTo (A := ArithR) q (lp2 l)) || Rltb 2 (distanceTo (A := ArithR) q (lp1 n)) then None
    else if almostZero (distanceToLine (A := ArithR) q (lp1 l) (lp2 l)) && almostZero (distanceToLine (A := ArithR) q (lp1 n) (lp2 n)) then Some q else None.
Proof.
  intros [L1 L2] [N1 N2]. unfold intersectLine2. cbv zeta.
  assert (Ea : cross (l_vec n) (vectorTo (lp1 l) (lp2 n)) = V3 (A := ArithR) 0 0 (turn (lp1 n) (lp2 n) (lp1 l) (lp2 n))).
  { rewrite cross_flat; unfold l_vec, vectorTo, turn, X, Y, Z3 in *; cbn [vx vy vz]; rcbn; try lra; reflexivity. }
  assert (Eb : cross (l_vec n) (l_vec l) = V3 (A := ArithR) 0 0 (turn (lp1 n) (lp2 n) (lp1 l) (lp2 l))).
  { rewrite cross_flat; unfold l_vec, vectorTo, turn, X, Y, Z3 in *; cbn [vx vy vz]; rcbn; try lra; reflexivity. }
  rewrite Ea, Eb, !vlen_up. set (al := turn _ _ _ (lp2 n)). set (be := turn _ _ _ (lp2 l)).
  destruct (almostZero (A := ArithR) (Rabs al) || almostZero (A := ArithR) (Rabs be)) eqn:T; [reflexivity|]. apply orb_false_iff in T. destruct T as [_ T].
  assert (Nb : be <> 0).
  { intros E. rewrite E, Rabs_R0 in T. rewrite (proj2 (almostZero_R 0)) in T; [discriminate|]. rewrite Rabs_R0. lra. }
  set (c := if negb _ then _ else _). assert (Ec : @ndiv ArithR (@nmul ArithR c (Rabs al)) (Rabs be) = (al / be)%R).
  { unfold c. clear c. destruct (codirected (V3 (A := ArithR) 0 0 al) (V3 (A := ArithR) 0 0 be)) eqn:C; unfold codirected, dot in C; cbn [vx vy vz] in C; revert C; cbn [negb].
    - rcbn. intros C. apply Rleb_true in C. replace (0 * 0 + 0 * 0 + al * be) with (al * be) in C by ring.
      assert (H : (Rabs al / Rabs be)%R = (al / be)%R).
      { destruct (Rtotal_order be 0) as [H|[H|H]]; [|contradiction|].
        - rewrite (Rabs_left be H). destruct (Rle_dec al 0) as [Ha|Ha]; [rewrite (Rabs_left1 al Ha); field; lra|nra].
        - rewrite (Rabs_right be) by lra. destruct (Rle_dec 0 al) as [Ha|Ha]; [rewrite (Rabs_right al) by lra; field; lra|nra]. }
      rewrite <- H. unfold Rdiv. ring.
    - rcbn. intros C. apply Rleb_false in C. replace (0 * 0 + 0 * 0 + al * be) with (al * be) in C by ring.
      assert (H : (Rabs al / Rabs be)%R = (- (al / be))%R).
      { destruct (Rtotal_order be 0) as [H|[H|H]]; [|contradiction|].
        - rewrite (Rabs_left be H). destruct (Rle_dec 0 al) as [Ha|Ha]; [rewrite (Rabs_right al) by lra; field; lra|nra].
        - rewrite (Rabs_right be) by lra. destruct (Rle_dec al 0) as [Ha|Ha]; [rewrite (Rabs_left1 al Ha); field; lra|nra]. }
      replace (al / be)%R with (- (Rabs al / Rabs be))%R by lra. unfold Rdiv. ring. }
  rewrite Ec. assert (Eq : pshift (lp1 l) (vscale (l_vec l) (al / be)%R) =
     P3 (A := ArithR) (X (lp1 l) + (X (lp2 l) - X (lp1 l)) * (al / be))%R (Y (lp1 l) + (Y (lp2 l) - Y (lp1 l)) * (al / be))%R h).
  { unfold pshift, vscale, l_vec, vectorTo, X, Y, Z3 in *. cbn [vx vy vz]. f_equal. rcbn. rewrite L1, L2. ring. }
  rewrite Eq. replace (@n2 ArithR) with 2%R by (unfold n2; rcbn; lra). reflexivity.
Qed.

Lemma isect_some (h : R) (l n : Rline) (q : Rpoint) : lflat h l -> lflat h n -> intersectLine2 l n = Some q ->
  Z3 q = h /\ turn (lp1 n) (lp2 n) (lp2 n) q = 0.
Proof.
  intros L N. rewrite (isect_eq h l n L N). cbv zeta. set (al := turn _ _ _ (lp2 n)). set (be := turn _ _ _ (lp2 l)).
  destruct (almostZero (A := ArithR) (Rabs al) || almostZero (A := ArithR) (Rabs be)) eqn:T; [discriminate|]. apply orb_false_iff in T. destruct T as [_ T].
  assert (Nb : be <> 0).
  { intros E. rewrite E, Rabs_R0 in T. rewrite (proj2 (almostZero_R 0)) in T; [discriminate|]. rewrite Rabs_R0. lra. }
  destruct (Rltb _ _ || Rltb _ _); [discriminate|]. destruct (almostZero _ && almostZero _); [|discriminate]. intros [= <-]. split; [reflexivity|].
  assert (K : al / be * be = al) by (field; exact Nb). revert K. set (s := al / be). unfold al, be, turn, X, Y. cbn [px py pz]. rcbn. intros K. lra.
Qed.

Lemma dist_R (a b : Rpoint) : distanceTo a b = sqrt (dist2 a b).
Proof. unfold distanceTo, dist2, X, Y, Z3. rcbn. f_equal; ring. Qed.
Lemma project_on (a b : Rpoint) (t : R) : 0 < len2 a b -> Z3 a = Z3 b ->
  let q := P3 (A := ArithR) (X a + (X b - X a) * t)%R (Y a + (Y b - Y a) * t)%R (Z3 a) in distanceToLine q a b = 0.
Proof.
  intros L H q. unfold distanceToLine. rewrite dist_R. replace (projectOnLine q a b) with q.
  - replace (dist2 q q) with 0%R by (unfold dist2; ring). apply sqrt_0.
  - unfold projectOnLine, normalize.
    assert (N : vlen (vectorTo a b) = len2 a b).
    { rewrite vlen_R. unfold Vlen, Vdot, len2, vectorTo, X, Y, Z3 in *. cbn [vx vy vz]. f_equal. rcbn. rewrite H. ring. }
    rewrite N. destruct (@neqb ArithR _ _) eqn:E.
    { exfalso. apply Reqb_true in E. rewrite E in L. revert L. rcbn. lra. }
    pose proof (len2_sq a b) as Q. unfold q, pshift, vscale, dot, vectorTo, X, Y, Z3 in *. cbn [px py pz vx vy vz]. rcbn. rewrite <- H. set (d := len2 a b) in *.
    assert (G : ((px b - px a) * t * ((px b - px a) / d) + (py b - py a) * t * ((py b - py a) / d)) / d = t).
    { replace ((px b - px a) * t * ((px b - px a) / d) + (py b - py a) * t * ((py b - py a) / d)) with (t * ((px b - px a) * (px b - px a) + (py b - py a) * (py b - py a)) / d) by (field; lra).
      rewrite <- Q. field. lra. }
    f_equal.
    + rewrite <- G at 1. match goal with |- @eq _ ?x ?y => change (@eq R x y) end. field. lra.
    + rewrite <- G at 1. match goal with |- @eq _ ?x ?y => change (@eq R x y) end. field. lra.
    + match goal with |- @eq _ ?x ?y => change (@eq R x y) end. symmetry. field. lra.
Qed.

(** a point on both lines is found if it is near and the numbers are not tiny *)
Lemma isect_good (h : R) (l n : Rline) (q : Rpoint) : lflat h l -> lflat h n -> Z3 q = h ->
  turn (lp1 l) (lp2 l) (lp1 l) q = 0 -> turn (lp1 n) (lp2 n) (lp2 n) q = 0 ->
  1 / 10 ^ 6 <= Rabs (turn (lp1 n) (lp2 n) (lp1 l) (lp2 l)) -> 1 / 10 ^ 6 <= Rabs (turn (lp1 n) (lp2 n) (lp1 l) q) ->
  dist2 q (lp2 l) <= 4 -> dist2 q (lp1 n) <= 4 ->
  intersectLine2 l n = Some q.
Proof.
  intros L N Hq T1 T2 B1 B2 D1 D2. rewrite (isect_eq h l n L N). cbv zeta. destruct L as [L1 L2], N as [N1 N2].
  assert (Ea : turn (lp1 n) (lp2 n) (lp1 l) (lp2 n) = turn (lp1 n) (lp2 n) (lp1 l) q) by (unfold turn in *; lra).
  rewrite Ea. set (al := turn (lp1 n) (lp2 n) (lp1 l) q) in *. set (be := turn (lp1 n) (lp2 n) (lp1 l) (lp2 l)) in *.
  assert (Za : almostZero (A := ArithR) (Rabs al) = false) by (apply not_true_is_false; intros E; apply almostZero_R in E; rewrite Rabs_Rabsolu in E; lra).
  assert (Zb : almostZero (A := ArithR) (Rabs be) = false) by (apply not_true_is_false; intros E; apply almostZero_R in E; rewrite Rabs_Rabsolu in E; lra).
  rewrite Za, Zb. cbn [orb].
  assert (Nb : be <> 0) by (intros E; rewrite E, Rabs_R0 in B1; lra).
  assert (LL : 0 < len2 (lp1 l) (lp2 l)).
  { apply len2_pos; [|congruence]. intros E. apply Nb. unfold be, turn. rewrite E. ring. }
  assert (LN : 0 < len2 (lp1 n) (lp2 n)).
  { apply len2_pos; [|congruence]. intros E. apply Nb. unfold be, turn. rewrite E. ring. }
  (* q is along the first line *)
  set (t := ((X q - X (lp1 l)) * (X (lp2 l) - X (lp1 l)) + (Y q - Y (lp1 l)) * (Y (lp2 l) - Y (lp1 l))) / (len2 (lp1 l) (lp2 l) * len2 (lp1 l) (lp2 l))).
  assert (Qx : X q = X (lp1 l) + (X (lp2 l) - X (lp1 l)) * t /\ Y q = Y (lp1 l) + (Y (lp2 l) - Y (lp1 l)) * t).
  { pose proof (len2_sq (lp1 l) (lp2 l)) as S. set (m := len2 (lp1 l) (lp2 l)) in *. assert (Sm : 0 < m * m) by (now apply Rmult_lt_0_compat).
    unfold turn in T1. unfold t. rewrite S in *. set (dx := X (lp2 l) - X (lp1 l)) in *. set (dy := Y (lp2 l) - Y (lp1 l)) in *.
    set (ux := X q - X (lp1 l)) in *. set (uy := Y q - Y (lp1 l)) in *.
    split; [assert (G : ux = dx * ((ux * dx + uy * dy) / (dx * dx + dy * dy)))|assert (G : uy = dy * ((ux * dx + uy * dy) / (dx * dx + dy * dy)))].
    - apply (Rmult_eq_reg_r (dx * dx + dy * dy)); [|lra]. replace (dx * ((ux * dx + uy * dy) / (dx * dx + dy * dy)) * (dx * dx + dy * dy)) with (dx * (ux * dx + uy * dy)) by (field; lra).
      replace (dx * (ux * dx + uy * dy)) with (ux * (dx * dx) + dy * (dx * uy)) by ring. replace (dx * uy) with (dy * ux) by lra. ring.
    - rewrite <- G. unfold ux. ring.
    - apply (Rmult_eq_reg_r (dx * dx + dy * dy)); [|lra]. replace (dy * ((ux * dx + uy * dy) / (dx * dx + dy * dy)) * (dx * dx + dy * dy)) with (dy * (ux * dx + uy * dy)) by (field; lra).
      replace (dy * (ux * dx + uy * dy)) with (dx * (dy * ux) + uy * (dy * dy)) by ring. replace (dy * ux) with (dx * uy) by lra. ring.
    - rewrite <- G. unfold uy. ring. }
  destruct Qx as [Qx Qy].
  assert (Et : al / be = t).
  { assert (K : al = t * be) by (unfold al, be, turn; rewrite Qx, Qy; ring). rewrite K. field. exact Nb. }
  rewrite Et. assert (Eq : P3 (A := ArithR) (X (lp1 l) + (X (lp2 l) - X (lp1 l)) * t)%R (Y (lp1 l) + (Y (lp2 l) - Y (lp1 l)) * t)%R h = q).
  { rewrite <- Qx, <- Qy, <- Hq. destruct q; reflexivity. }
  assert (E1 : distanceToLine q (lp1 l) (lp2 l) = 0).
  { rewrite <- Eq, <- L1. apply project_on; [exact LL|congruence]. }
  assert (E2 : distanceToLine q (lp1 n) (lp2 n) = 0).
  { set (u := ((X q - X (lp1 n)) * (X (lp2 n) - X (lp1 n)) + (Y q - Y (lp1 n)) * (Y (lp2 n) - Y (lp1 n))) / (len2 (lp1 n) (lp2 n) * len2 (lp1 n) (lp2 n))).
    assert (Q : X q = X (lp1 n) + (X (lp2 n) - X (lp1 n)) * u /\ Y q = Y (lp1 n) + (Y (lp2 n) - Y (lp1 n)) * u).
    { pose proof (len2_sq (lp1 n) (lp2 n)) as S. set (m := len2 (lp1 n) (lp2 n)) in *. assert (Sm : 0 < m * m) by (now apply Rmult_lt_0_compat).
      assert (T3 : (X (lp2 n) - X (lp1 n)) * (Y q - Y (lp1 n)) - (Y (lp2 n) - Y (lp1 n)) * (X q - X (lp1 n)) = 0) by (unfold turn in T2; lra).
      unfold u. rewrite S in *. clear -T3 Sm. set (dx := X (lp2 n) - X (lp1 n)) in *. set (dy := Y (lp2 n) - Y (lp1 n)) in *.
      set (ux := X q - X (lp1 n)) in *. set (uy := Y q - Y (lp1 n)) in *.
      split; [assert (G : ux = dx * ((ux * dx + uy * dy) / (dx * dx + dy * dy)))|assert (G : uy = dy * ((ux * dx + uy * dy) / (dx * dx + dy * dy)))].
      - apply (Rmult_eq_reg_r (dx * dx + dy * dy)); [|lra]. replace (dx * ((ux * dx + uy * dy) / (dx * dx + dy * dy)) * (dx * dx + dy * dy)) with (dx * (ux * dx + uy * dy)) by (field; lra).
        replace (dx * (ux * dx + uy * dy)) with (ux * (dx * dx) + dy * (dx * uy)) by ring. replace (dx * uy) with (dy * ux) by lra. ring.
      - rewrite <- G. unfold ux. ring.
      - apply (Rmult_eq_reg_r (dx * dx + dy * dy)); [|lra]. replace (dy * ((ux * dx + uy * dy) / (dx * dx + dy * dy)) * (dx * dx + dy * dy)) with (dy * (ux * dx + uy * dy)) by (field; lra).
        replace (dy * (ux * dx + uy * dy)) with (dx * (dy * ux) + uy * (dy * dy)) by ring. replace (dy * ux) with (dx * uy) by lra. ring.
      - rewrite <- G. unfold uy. ring. }
    destruct Q as [Ux Uy]. replace q with (P3 (A := ArithR) (X (lp1 n) + (X (lp2 n) - X (lp1 n)) * u)%R (Y (lp1 n) + (Y (lp2 n) - Y (lp1 n)) * u)%R (Z3 (lp1 n))).
    - apply project_on; [exact LN|congruence].
    - rewrite <- Ux, <- Uy, N1, <- Hq. destruct q; reflexivity. }
  rewrite Eq, !dist_R.
  assert (S4 : sqrt 4 = 2) by (replace 4 with (2 * 2) by lra; apply sqrt_square; lra).
  assert (R1 : Rltb 2 (sqrt (dist2 q (lp2 l))) = false) by (apply Rltb_false; rewrite <- S4; apply sqrt_le_1_alt; exact D1).
  assert (R2 : Rltb 2 (sqrt (dist2 q (lp1 n))) = false) by (apply Rltb_false; rewrite <- S4; apply sqrt_le_1_alt; exact D2).
  rewrite R1, R2. cbn [orb]. rewrite E1, E2. assert (Z0 : almostZero (A := ArithR) 0%R = true) by (apply almostZero_R; rewrite Rabs_R0; lra). rewrite Z0. reflexivity.
Qed.

(** ** Points moved aside *)
Lemma aside_len w a b : len2 (aside w a b a) (aside w a b b) = len2 a b.
Proof. unfold len2. f_equal. unfold aside, X, Y. cbn [px py pz]. rcbn. ring. Qed.
Lemma aside_right w a b : 0 < len2 a b -> right_by w a b (aside w a b a) /\ right_by w a b (aside w a b b).
Proof.
  intros L. pose proof (len2_sq a b) as S. unfold right_by, turn, aside, X, Y in *. cbn [px py pz] in *. rcbn. set (d := len2 a b) in *.
  split.
  - replace (w * d) with (w * (d * d) / d) by (field; lra). rewrite S. field. lra.
  - replace (w * d) with (w * (d * d) / d) by (field; lra). rewrite S. field. lra.
Qed.

(** on the shifted line = at the distance *)
Lemma on_shifted w a b q : 0 < len2 a b -> (turn (aside w a b a) (aside w a b b) (aside w a b b) q = 0 <-> right_by w a b q).
Proof.
  intros L. destruct (aside_right w a b L) as [_ H]. unfold right_by in *. rewrite <- H.
  assert (E : turn (aside w a b a) (aside w a b b) (aside w a b b) q = turn a b a q - turn a b a (aside w a b b)).
  { unfold turn, aside, X, Y. cbn [px py pz]. rcbn. ring. }
  rewrite E. lra.
Qed.

(** ** Every point of a wall *)
Section Points.
Variables (w h : R) (pth : Rpath).
(** at the distance w from the line of some side *)
Definition good (v : Rpoint) : Prop := Z3 v = h /\ exists a b, In (a, b) (path_sides pth) /\ right_by w a b v.
Definition shifted (l : Rline) : Prop := exists a b, In (a, b) (path_sides pth) /\ 0 < len2 a b /\ Z3 a = h /\ Z3 b = h /\ l = L2 (A := ArithR) (aside w a b a) (aside w a b b).
Lemma shifted_good l : shifted l -> good (lp1 l) /\ good (lp2 l).
Proof.
  intros (a & b & I & L & Ha & Hb & ->). cbn [lp1 lp2]. destruct (aside_right w a b L) as [A B]. split; (split; [unfold aside, Z3 in *; cbn [pz]; assumption|]); exists a, b; split; assumption.
Qed.
Lemma trim_good : forall rest l, good (lp1 l) -> good (lp2 l) -> Forall shifted rest -> Forall (fun x => good (lp1 x) /\ good (lp2 x)) (trim_lines l rest).
Proof.
  induction rest as [|n r IH]; intros l G1 G2 F; cbn [trim_lines]; [constructor; [split; assumption|constructor]|].
  inversion F as [|? ? S Fr]; subst. pose proof (shifted_good n S) as [N1 N2].
  destruct (intersectLine2 l n) as [q|] eqn:E.
  - assert (G : good q).
    { destruct (isect_some h l n q) as [Hz T]; [split; [apply G1|apply G2]|split; [apply N1|apply N2]|exact E|]. split; [exact Hz|].
      destruct S as (a & b & I & L & Ha & Hb & ->). cbn [lp1 lp2] in T. exists a, b. split; [exact I|]. now apply on_shifted. }
    constructor; [cbn [lp1 lp2]; split; assumption|]. apply IH; [exact G|exact N2|exact Fr].
  - constructor; [split; assumption|]. apply IH; [exact G2|exact N2|exact Fr].
Qed.
Lemma path_good closed ls : Forall shifted ls -> Forall (fun x => good (lp1 x) /\ good (lp2 x)) (trim_path closed ls).
Proof.
  intros F. unfold Rline in *. destruct ls as [|l r]; [constructor|]. inversion F as [|? ? S Fr]; subst. pose proof (shifted_good l S) as [G1 G2]. unfold trim_path. destruct closed.
  - assert (H : Forall (fun x => good (lp1 x) /\ good (lp2 x)) (trim_lines l (r ++ [l]))) by (apply trim_good; [exact G1|exact G2|apply Forall_app; split; [exact Fr|constructor; [exact S|constructor]]]).
    destruct (trim_lines l (r ++ [l])) as [|x xs]; [constructor|]. inversion H as [|? ? Hx Hxs]; subst. rewrite Forall_forall in Hxs. constructor.
    + destruct xs as [|y ys]; [exact Hx|]. apply Hxs. destruct (@exists_last _ (y :: ys)) as (us & u & E); [discriminate|]. rewrite E, last_last. apply in_or_app. right. now left.
    + apply Forall_forall. intros y Hy. apply Hxs. destruct xs as [|z zs]; [destruct Hy|]. destruct (@exists_last _ (z :: zs)) as (us & u & E); [discriminate|]. rewrite E in Hy |- *. rewrite removelast_last in Hy. apply in_or_app. now left.
  - apply trim_good; assumption.
Qed.
End Points.

Lemma segs_sides : forall p : Rpath, segs p = path_sides p.
Proof. intros p. destruct p as [|a p]; [reflexivity|]. revert a. induction p as [|b p IH]; intros a; [reflexivity|]. change (segs (a :: b :: p)) with ((a, b) :: segs (b :: p)). rewrite (IH b). reflexivity. Qed.
Lemma sides_in : forall (p : Rpath) a b, In (a, b) (path_sides p) -> In a p /\ In b p.
Proof. intros p a b H. unfold path_sides in H. split; [eapply in_combine_l; exact H|]. apply in_combine_r in H. destruct p; [exact H|now right]. Qed.

(** ** Walls of well-shaped contours *)
Lemma near_aside w a b x q : 0 < len2 a b -> right_by w a b q -> (x = a \/ x = b) -> Z3 a = Z3 b -> dist2 q (aside w a b x) = dist2 q x - w * w.
Proof.
  intros L H Hx Hz. pose proof (len2_sq a b) as S. unfold right_by, turn in H. set (d := len2 a b) in *.
  assert (E : (X q - X x) * (Y b - Y a) - (Y q - Y x) * (X b - X a) = w * d) by (destruct Hx as [-> | ->]; lra).
  assert (G : dist2 q (aside w a b x) = dist2 q x - 2 * w * (((X q - X x) * (Y b - Y a) - (Y q - Y x) * (X b - X a)) / d) + w * w * ((X b - X a) * (X b - X a) + (Y b - Y a) * (Y b - Y a)) / (d * d)).
  { unfold dist2, aside, X, Y, Z3. fold d. cbn [px py pz]. rcbn. field. lra. }
  rewrite G, E, <- S. field. lra.
Qed.
Lemma on_line w a b s q v : 0 < len2 a b -> right_by w a b s -> right_by w a b q -> right_by w a b v -> turn s v s q = 0.
Proof.
  intros L H1 H2 H3. pose proof (len2_sq a b) as S. unfold right_by in *. assert (Sm : 0 < len2 a b * len2 a b) by (now apply Rmult_lt_0_compat). rewrite S in Sm.
  apply (Rmult_eq_reg_r ((X b - X a) * (X b - X a) + (Y b - Y a) * (Y b - Y a))); [|lra]. rewrite Rmult_0_l.
  assert (U : turn s v a b = 0) by (unfold turn in *; lra). assert (V : turn a b s q = 0) by (unfold turn in *; lra).
  replace (turn s v s q * ((X b - X a) * (X b - X a) + (Y b - Y a) * (Y b - Y a))) with
    (((X v - X s) * (X b - X a) + (Y v - Y s) * (Y b - Y a)) * turn a b s q + turn s v a b * ((X b - X a) * (X q - X s) + (Y b - Y a) * (Y q - Y s))) by (unfold turn; ring).
  rewrite U, V. ring.
Qed.

Definition sh (w : R) (e : side) : Rline := L2 (A := ArithR) (aside w (fst e) (snd e) (fst e)) (aside w (fst e) (snd e) (snd e)).
Definition lines_of (x : list Rpoint) : list Rline := map (fun e : side => L2 (A := ArithR) (fst e) (snd e)) (path_sides x).

Lemma trim_fits w : forall r a b s qs e, level_at (Z3 s) (a :: b :: r) -> Forall (fun e : side => 0 < len2 (fst e) (snd e)) (path_sides (a :: b :: r)) ->
  right_by w a b s -> fits w s (triples (a :: b :: r)) qs ->
  e = (let x := last (path_sides (a :: b :: r)) (a, b) in aside w (fst x) (snd x) (snd x)) ->
  trim_lines (L2 (A := ArithR) s (aside w a b b)) (map (sh w) (path_sides (b :: r))) = lines_of (s :: qs ++ [e]).
Proof.
  induction r as [|c r IH]; intros a b s qs e Lv Ls Rs F E.
  - inversion F; subst. reflexivity.
  - change (triples (a :: b :: c :: r)) with ((a, b, c) :: triples (b :: c :: r)) in F. inversion F as [|? ? ? ? q ? qs' (W1 & W2 & W3) D T1 T2 F']; subst.
    change (path_sides (b :: c :: r)) with ((b, c) :: path_sides (c :: r)). cbn [map trim_lines].
    change (path_sides (a :: b :: c :: r)) with ((a, b) :: path_sides (b :: c :: r)) in Ls |- *. inversion Ls as [|? ? La Ls']; subst.
    assert (Lb := Ls'). change (path_sides (b :: c :: r)) with ((b, c) :: path_sides (c :: r)) in Lb. inversion Lb as [|? ? Lbc _]; subst. cbn [fst snd] in La, Lbc.
    unfold level_at in *. pose proof (Forall_inv Lv) as Za. pose proof (Forall_inv_tail Lv) as Lv2. pose proof (Forall_inv Lv2) as Zb. pose proof (Forall_inv_tail Lv2) as Lv3. pose proof (Forall_inv Lv3) as Zc. cbn beta in Za, Zb, Zc.
    assert (Zq : Z3 q = Z3 s) by congruence.
    assert (I : intersectLine2 (L2 (A := ArithR) s (aside w a b b)) (sh w (b, c)) = Some q).
    { apply (isect_good (Z3 s)).
      - split; cbn [lp1 lp2]; [reflexivity|exact Zb].
      - split; unfold sh; cbn [fst snd lp1 lp2]; [exact Zb|exact Zc].
      - exact Zq.
      - cbn [lp1 lp2]. apply (on_line w a b); [exact La|exact Rs|exact W1|]. now apply aside_right.
      - unfold sh. cbn [fst snd lp1 lp2]. now apply on_shifted.
      - unfold sh. cbn [fst snd lp1 lp2]. match goal with |- _ <= Rabs ?x => replace x with (turn b c s (aside w a b b)) by (unfold turn, aside, X, Y; cbn [px py pz]; rcbn; ring) end. exact T1.
      - unfold sh. cbn [fst snd lp1 lp2]. match goal with |- _ <= Rabs ?x => replace x with (turn b c s q) by (unfold turn, aside, X, Y; cbn [px py pz]; rcbn; ring) end. exact T2.
      - cbn [lp1 lp2]. rewrite (near_aside w a b b q La W1 (or_intror eq_refl)) by congruence. lra.
      - unfold sh. cbn [fst snd lp1 lp2]. rewrite (near_aside w b c b q Lbc W2 (or_introl eq_refl)) by congruence. lra. }
    rewrite I. unfold sh at 1. cbn [fst snd lp1 lp2].
    specialize (IH b c q qs' (let x := last (path_sides (a :: b :: c :: r)) (a, b) in aside w (fst x) (snd x) (snd x))).
    rewrite Zq in IH. rewrite (IH Lv2 Ls' W2 F'); [reflexivity|].
    change (path_sides (a :: b :: c :: r)) with ((a, b) :: (b, c) :: path_sides (c :: r)). change (path_sides (b :: c :: r)) with ((b, c) :: path_sides (c :: r)).
    cbv zeta. change (last ((a, b) :: (b, c) :: path_sides (c :: r)) (a, b)) with (last ((b, c) :: path_sides (c :: r)) (a, b)).
    assert (K : forall (x y : side) l, last (x :: l) y = last (x :: l) x).
    { clear. intros x y l. revert x y. induction l as [|z l IH]; intros x y; [reflexivity|]. change (last (x :: z :: l) y) with (last (z :: l) y). change (last (x :: z :: l) x) with (last (z :: l) x). now rewrite (IH z y), (IH z x). }
    now rewrite (K (b, c) (a, b)).
Qed.
