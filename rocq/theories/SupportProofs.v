(** * Proofs about supports *)
From Coq Require Import Reals Lra Lia List Bool ZArith PeanoNat Permutation Sorted.
From Verif Require Import Arith ArithR Prim Path PathClaims GeomSpec GeomProofs Properties_Path Helpers HelperClaims HelperProofs SlicerClaims
  Slicer SlicerProofs2 Properties_Helpers SupportClaims.
Import ListNotations.
Close Scope Z_scope.
Close Scope num_scope.
Local Open Scope R_scope.

Definition is_unit (u : Rvector) : Prop := vx u * vx u + vy u * vy u + vz u * vz u = 1.

Lemma p3_ext (x y z x' y' z' : R) : x = x' -> y = y' -> z = z' -> P3 (A := ArithR) x y z = P3 x' y' z'.
Proof. congruence. Qed.

Ltac rring := rcbn; match goal with |- @eq _ ?x ?y => change (@eq R x y) end; first [ring | symmetry; ring].

(** ** The triangles *)
Lemma proect_foot (u : Rvector) (mn : R) (q : Rpoint) : is_unit u ->
  proectionPointToPlane (Pl (v2p (vscale u mn)) u) q = Ok (foot u mn q).
Proof.
  intros Un. unfold proectionPointToPlane. cbn [nisnan ArithR]. f_equal.
  unfold foot, Rdot, v2p, vscale, X, Y, Z3. cbn [pl_n pl_p px py pz vx vy vz]. rcbn. unfold is_unit in Un. rewrite Un.
  assert (E : (vx u * (vx u * mn - px q) + vy u * (vy u * mn - py q) + vz u * (vz u * mn - pz q)) / 1 = mn - (px q * vx u + py q * vy u + pz q * vz u)).
  { unfold Rdiv. rewrite Rinv_1, Rmult_1_r.
    transitivity (mn * (vx u * vx u + vy u * vy u + vz u * vz u) - (px q * vx u + py q * vy u + pz q * vz u)); [ring|]. rewrite Un. ring. }
  rewrite E. f_equal; ring.
Qed.

Lemma support_lines (u : Rvector) (mn : R) (ls : list (@line ArithR)) : is_unit u ->
  makeSupportLines ls (Pl (v2p (vscale u mn)) u) = Ok (map (fun l => L2 (foot u mn (lp1 l)) (foot u mn (lp2 l))) ls).
Proof.
  intros Un. unfold makeSupportLines. induction ls as [|l ls IH]; [reflexivity|]. cbn [rmap map].
  rewrite !proect_foot by exact Un. cbn [rbind]. rewrite IH. reflexivity.
Qed.

Lemma filter_color (m : Rmesh) (a : R) v : filterTrianglesByColor m a v = filter (fun t => Rltb (angle (t_n t) (vopp v)) (90 - a)%R) m.
Proof.
  unfold filterTrianglesByColor, colorizeTriangles. rcbn. induction m as [|t m IH]; [reflexivity|]. cbn [map combine filter fst].
  destruct (Rltb (angle (t_n t) (vopp v)) (90 - a)%R); cbn [map snd]; rewrite IH; reflexivity.
Qed.

Lemma selfeq_R (p : Rpoint) : self_equal p.
Proof. unfold self_equal, pt_eqb. rcbn. rewrite !(proj2 (Reqb_true _ _)) by reflexivity. reflexivity. Qed.

Lemma edges_shift0 (v : Rvector) (ts : Rmesh) : edges (map (fun t => t_shift t (vscale v (- 0)%R)) ts) = edges ts.
Proof.
  assert (Z0 : forall p : Rpoint, pshift p (vscale v (- 0)%R) = p).
  { intros [x y z]. unfold pshift, vscale. cbn [px py pz vx vy vz]. rcbn. apply p3_ext; ring. }
  unfold edges. induction ts as [|t ts IH]; [reflexivity|]. cbn [map flat_map]. rewrite IH. unfold t_shift, newTriangle. cbn [t1 t2 t3].
  rewrite !Z0. reflexivity.
Qed.

Lemma support_col (s : @settings ArithR) (m : Rmesh) :
  makeUndoubledLines (let col := filterTrianglesByColor m (s_colorizedAngle s) (s_unitVector s) in
    if negb (@neqb ArithR (s_supportOffset s) n0) then map (fun t => t_shift t (vscale (s_unitVector s) (nopp (s_supportOffset s)))) col else col)
  = filter (fun e => Nat.eqb (occ e (edges (hanging s m))) 1) (edges (hanging s m)).
Proof.
  cbv zeta. rewrite filter_color. unfold hanging. set (col := filter _ m).
  rewrite C44_undoubled by (typeclasses eauto || (apply Forall_forall; intros p _; apply selfeq_R)).
  match goal with |- filter _ (edges ?a) = filter _ (edges ?b) => enough (E : edges a = edges b) by now rewrite E end.
  destruct (@neqb ArithR (s_supportOffset s) n0) eqn:E; cbn [negb]; [|reflexivity].
  revert E. rcbn. intros E. apply Reqb_true in E. rewrite E. symmetry. apply edges_shift0.
Qed.

Lemma nothing_met (t : Rtriangle) (ts : Rmesh) : intersectTriangles t ts = [] <-> forall bt, In bt ts -> passes bt t.
Proof.
  unfold intersectTriangles, passes. induction ts as [|b ts IH]; cbn [flat_map].
  - split; [intros _ bt []|reflexivity].
  - split.
    + intros H bt [<-|I].
      * apply app_eq_nil in H. destruct H as (H & _).
        destruct (t_pointBelongs b (t1 t)); [auto|]. destruct (t_pointBelongs b (t2 t)); [auto|]. destruct (t_pointBelongs b (t3 t)); [auto|].
        cbn [orb negb] in H. destruct (t_intersectTriangle b t); [discriminate H|auto].
      * apply app_eq_nil in H. destruct H as (_ & H). exact (proj1 IH H bt I).
    + intros H. rewrite (proj2 IH) by (intros bt I; apply H; now right). rewrite app_nil_r.
      destruct (H b (or_introl eq_refl)) as [E|[E|[E|E]]]; rewrite E; rewrite ?orb_true_r; cbn [orb negb]; try reflexivity.
      destruct (negb _); reflexivity.
Qed.

Lemma support_set U (m : Rmesh) (u : Rvector) (mn : R) s sup : legal U -> is_unit u -> supportTriangles U m u mn s = Ok sup ->
  forall t, In t sup <-> exists e, border s m e /\ (t = upper u mn e \/ t = lower u mn e) /\ forall bt, In bt m -> passes bt t.
Proof.
  intros HU Un H t. unfold supportTriangles in H. rewrite support_col in H. rewrite support_lines in H by exact Un. cbn [rbind] in H.
  injection H as <-.
  assert (K : forall x, intersectTriangles x (u_desc U u m) = [] <-> forall bt, In bt m -> passes bt x).
  { intros x. rewrite nothing_met. split; intros H bt I; apply H.
    - eapply Permutation_in; [apply (lg_desc U HU)|exact I].
    - eapply Permutation_in; [apply Permutation_sym, (lg_desc U HU)|exact I]. }
  rewrite in_flat_map. split.
  - intros ([sl cl] & I & Ht).
    assert (sl = L2 (foot u mn (lp1 cl)) (foot u mn (lp2 cl)) /\ border s m cl) as (-> & B).
    { assert (G : forall (f : @line ArithR -> @line ArithR) g es, In (sl, cl) (combine (map f (filter g es)) (filter g es)) -> sl = f cl /\ In cl es /\ g cl = true).
      { clear. intros f g es. induction es as [|e es IH]; [intros []|]. cbn [filter]. destruct (g e) eqn:E; cbn [map combine].
        - intros [I|I]; [injection I as <- <-; auto using in_eq|]. destruct (IH I) as (A1 & A2 & A3). auto using in_cons.
        - intros I. destruct (IH I) as (A1 & A2 & A3). auto using in_cons. }
      destruct (G _ _ _ I) as (A1 & A2 & A3). split; [exact A1|]. split; [exact A2|]. now apply Nat.eqb_eq. }
    cbn [lp1 lp2] in Ht. apply in_app_iff in Ht. exists cl. split; [exact B|].
    destruct Ht as [Ht|Ht].
    + fold (upper u mn cl) in Ht. destruct (intersectTriangles (upper u mn cl) (u_desc U u m)) eqn:E; [|destruct Ht]. destruct Ht as [<-|[]].
      split; [now left|]. apply K. exact E.
    + fold (lower u mn cl) in Ht. destruct (intersectTriangles (lower u mn cl) (u_desc U u m)) eqn:E; [|destruct Ht]. destruct Ht as [<-|[]].
      split; [now right|]. apply K. exact E.
  - intros (e & (B1 & B2) & T & P). exists (L2 (foot u mn (lp1 e)) (foot u mn (lp2 e)), e). split.
    { assert (I : In e (filter (fun e => Nat.eqb (occ e (edges (hanging s m))) 1) (edges (hanging s m)))) by (apply filter_In; split; [exact B1|now apply Nat.eqb_eq]).
      revert I. generalize (filter (fun e => Nat.eqb (occ e (edges (hanging s m))) 1) (edges (hanging s m))) as l.
      induction l as [|x l IH]; [intros []|]. cbn [map combine]. intros [->|I]; [now left|right; exact (IH I)]. }
    cbn [lp1 lp2]. fold (upper u mn e) (lower u mn e). apply in_app_iff. apply K in P. destruct T as [->| ->].
    + left. rewrite P. now left.
    + right. rewrite P. now left.
Qed.

(** ** The wall below a side *)
Lemma foot_dot (u : Rvector) (mn : R) (q : Rpoint) : is_unit u -> Rdot (foot u mn q) u = mn.
Proof.
  intros Un. unfold foot, Rdot, X, Y, Z3. cbn [px py pz]. unfold is_unit in Un.
  transitivity ((px q * vx u + py q * vy u + pz q * vz u) + (mn - (px q * vx u + py q * vy u + pz q * vz u)) * (vx u * vx u + vy u * vy u + vz u * vz u)).
  - rring.
  - rewrite Un. rring.
Qed.
Lemma foot_along (u : Rvector) (mn : R) (a b : Rpoint) r : foot u mn (along a b r) = along (foot u mn a) (foot u mn b) r.
Proof. unfold foot, along, Rdot, X, Y, Z3. cbn [px py pz]. apply p3_ext; rring. Qed.
(** a point lies its height above its foot *)
Lemma above_foot (u : Rvector) (mn : R) (q : Rpoint) : let h := (Rdot q u - mn)%R in
  X q = X (foot u mn q) + h * vx u /\ Y q = Y (foot u mn q) + h * vy u /\ Z3 q = Z3 (foot u mn q) + h * vz u.
Proof. intros h. unfold h, foot, X, Y, Z3. cbn [px py pz]. repeat split; rring. Qed.

Lemma wall_halves (u : Rvector) (mn : R) (a b : Rpoint) : mn <= Rdot a u -> mn <= Rdot b u -> forall p,
  curtain u mn a b p <-> in_tri (foot u mn a) a b p \/ in_tri (foot u mn a) (foot u mn b) b p.
Proof.
  intros Ha Hb p. pose proof (above_foot u mn a) as (Ax & Ay & Az). pose proof (above_foot u mn b) as (Bx & By & Bz). cbn zeta in *.
  set (h1 := Rdot a u - mn) in *. set (h2 := Rdot b u - mn) in *. set (fa := foot u mn a) in *. set (fb := foot u mn b) in *.
  assert (H1 : 0 <= h1) by (unfold h1; lra). assert (H2 : 0 <= h2) by (unfold h2; lra). split.
  - intros (q & t & (r & R0 & ->) & T & ->). rewrite foot_along. fold fa fb.
    set (l := t * ((1 - r) * h1 + r * h2)).
    assert (L0 : 0 <= l) by (unfold l; apply Rmult_le_pos; [lra|]; apply Rplus_le_le_0_compat; apply Rmult_le_pos; lra).
    assert (L1 : l <= (1 - r) * h1 + r * h2).
    { assert (0 <= (1 - r) * h1 + r * h2) by (apply Rplus_le_le_0_compat; apply Rmult_le_pos; lra). unfold l. nra. }
    assert (E : along (along fa fb r) (along a b r) t =
      P3 (A := ArithR) (X fa + r * (X fb - X fa) + l * vx u)%R (Y fa + r * (Y fb - Y fa) + l * vy u)%R (Z3 fa + r * (Z3 fb - Z3 fa) + l * vz u)%R).
    { unfold along at 1. change (X (along ?x ?y r)) with (X x + r * (X y - X x)). change (Y (along ?x ?y r)) with (Y x + r * (Y y - Y x)).
      change (Z3 (along ?x ?y r)) with (Z3 x + r * (Z3 y - Z3 x)).
      rewrite Ax, Ay, Az, Bx, By, Bz. unfold l. apply p3_ext; rring. }
    rewrite E. destruct (Rle_dec (r * h2) l) as [C|C].
    + left. assert (exists w, 0 <= w /\ w <= 1 - r /\ w * h1 = l - r * h2) as (w & W0 & W1 & W2).
      { destruct (Req_dec h1 0) as [Z|Z].
        - exists 0. rewrite Z in L1. split; [lra|]. split; [lra|]. rewrite Z. lra.
        - exists ((l - r * h2) / h1). assert (0 < h1) by lra. split; [apply Rmult_le_pos; [lra|left; now apply Rinv_0_lt_compat]|]. split; [|field; lra].
          apply (Rmult_le_reg_r h1); [lra|]. unfold Rdiv. rewrite Rmult_assoc, Rinv_l by lra. lra. }
      exists (1 - r - w), w, r. repeat split; try lra. unfold comb3. rewrite Ax, Ay, Az, Bx, By, Bz. replace l with (w * h1 + r * h2) by lra.
      apply p3_ext; rring.
    + right. assert (0 < h2) by (destruct (Req_dec h2 0) as [Z|Z]; [rewrite Z in C; lra|lra]).
      assert (exists w, 0 <= w /\ w <= r /\ w * h2 = l) as (w & W0 & W1 & W2).
      { exists (l / h2). split; [apply Rmult_le_pos; [lra|left; now apply Rinv_0_lt_compat]|]. split; [|field; lra].
        apply (Rmult_le_reg_r h2); [lra|]. unfold Rdiv. rewrite Rmult_assoc, Rinv_l by lra. lra. }
      exists (1 - r), (r - w), w. repeat split; try lra. unfold comb3. rewrite Bx, By, Bz. rewrite <- W2. apply p3_ext; rring.
  - intros [(w0 & w1 & w2 & W0 & W1 & W2 & S & ->)|(w0 & w1 & w2 & W0 & W1 & W2 & S & ->)].
    + assert (G : exists t, 0 <= t <= 1 /\ t * ((1 - w2) * h1 + w2 * h2) = w1 * h1 + w2 * h2).
      { assert (0 <= w1 * h1) by (apply Rmult_le_pos; lra). assert (0 <= w2 * h2) by (apply Rmult_le_pos; lra).
        assert (w1 * h1 <= (1 - w2) * h1) by (apply Rmult_le_compat_r; lra).
        destruct (Req_dec ((1 - w2) * h1 + w2 * h2) 0) as [Z|Z].
        - exists 0. split; [lra|]. rewrite Z. lra.
        - exists ((w1 * h1 + w2 * h2) / ((1 - w2) * h1 + w2 * h2)). assert (0 < (1 - w2) * h1 + w2 * h2) by lra.
          split; [|field; lra]. split; [apply Rmult_le_pos; [lra|left; now apply Rinv_0_lt_compat]|].
          apply (Rmult_le_reg_r ((1 - w2) * h1 + w2 * h2)); [lra|]. unfold Rdiv. rewrite Rmult_assoc, Rinv_l by lra. lra. }
      destruct G as (t & T & E). exists (along a b w2), t. split; [exists w2; split; [lra|reflexivity]|]. split; [exact T|].
      rewrite foot_along. fold fa fb. unfold along at 1. change (X (along ?x ?y ?r)) with (X x + r * (X y - X x)). change (Y (along ?x ?y ?r)) with (Y x + r * (Y y - Y x)).
      change (Z3 (along ?x ?y ?r)) with (Z3 x + r * (Z3 y - Z3 x)). unfold comb3. rewrite Ax, Ay, Az, Bx, By, Bz.
      replace w0 with (1 - w1 - w2) by lra.
      assert (K : forall f0 f1 v, (1 - w1 - w2) * f0 + w1 * (f0 + h1 * v) + w2 * (f1 + h2 * v) =
        f0 + w2 * (f1 - f0) + t * (f0 + h1 * v + w2 * (f1 + h2 * v - (f0 + h1 * v)) - (f0 + w2 * (f1 - f0)))).
      { intros f0 f1 v. transitivity (f0 + w2 * (f1 - f0) + (w1 * h1 + w2 * h2) * v); [ring|]. rewrite <- E. ring. }
      apply p3_ext; exact (K _ _ _).
    + set (r := w1 + w2).
      assert (G : exists t, 0 <= t <= 1 /\ t * ((1 - r) * h1 + r * h2) = w2 * h2).
      { assert (0 <= (1 - r) * h1) by (apply Rmult_le_pos; unfold r; lra). assert (0 <= w2 * h2) by (apply Rmult_le_pos; lra).
        assert (w2 * h2 <= r * h2) by (apply Rmult_le_compat_r; unfold r; lra).
        destruct (Req_dec ((1 - r) * h1 + r * h2) 0) as [Z|Z].
        - exists 0. split; [lra|]. rewrite Z. lra.
        - exists (w2 * h2 / ((1 - r) * h1 + r * h2)). assert (0 < (1 - r) * h1 + r * h2) by lra.
          split; [|field; lra]. split; [apply Rmult_le_pos; [lra|left; now apply Rinv_0_lt_compat]|].
          apply (Rmult_le_reg_r ((1 - r) * h1 + r * h2)); [lra|]. unfold Rdiv. rewrite Rmult_assoc, Rinv_l by lra. lra. }
      destruct G as (t & T & E). exists (along a b r), t. split; [exists r; split; [unfold r; lra|reflexivity]|]. split; [exact T|].
      rewrite foot_along. fold fa fb. unfold along at 1. change (X (along ?x ?y r)) with (X x + r * (X y - X x)). change (Y (along ?x ?y r)) with (Y x + r * (Y y - Y x)).
      change (Z3 (along ?x ?y r)) with (Z3 x + r * (Z3 y - Z3 x)). unfold comb3. rewrite Ax, Ay, Az, Bx, By, Bz.
      replace w0 with (1 - r) by (unfold r; lra). replace w1 with (r - w2) by (unfold r; lra).
      assert (K : forall f0 f1 v, (1 - r) * f0 + (r - w2) * f1 + w2 * (f1 + h2 * v) =
        f0 + r * (f1 - f0) + t * (f0 + h1 * v + r * (f1 + h2 * v - (f0 + h1 * v)) - (f0 + r * (f1 - f0)))).
      { intros f0 f1 v. transitivity (f0 + r * (f1 - f0) + (w2 * h2) * v); [ring|]. rewrite <- E. ring. }
      apply p3_ext; exact (K _ _ _).
Qed.

(** ** Upright walls *)
Lemma round8_fix (k : Z) : @round8 ArithR (IZR k / 10 ^ 8)%R = (IZR k / 10 ^ 8)%R.
Proof.
  rewrite round8_def. replace (IZR k / 10 ^ 8 * 100000000) with (IZR k) by (field_simplify; lra).
  replace (10 ^ 8) with 100000000 by lra. f_equal. f_equal.
  pose proof (rd_near (IZR k)) as H. cbv zeta in H. match type of H with Rabs (IZR ?z - _) <= _ => change (z = k); revert H; generalize z end. clear. intros z H.
  unfold Rabs in H. assert (IZR (z - k) < 1) as A1 by (rewrite minus_IZR; destruct (Rcase_abs _) in H; lra).
  assert (-1 < IZR (z - k)) as A2 by (rewrite minus_IZR; destruct (Rcase_abs _) in H; lra).
  apply (lt_IZR _ 1) in A1. apply (lt_IZR (-1)) in A2. lia.
Qed.

Lemma along0 (a b : Rpoint) : along a b 0 = a.
Proof. destruct a as [x y z]. unfold along, X, Y, Z3. cbn [px py pz]. apply p3_ext; rring. Qed.
Lemma along1 (a b : Rpoint) : along a b 1 = b.
Proof. destruct b as [x y z]. unfold along, X, Y, Z3. cbn [px py pz]. apply p3_ext; rring. Qed.
(** a section in a plane of constant x keeps that x *)
Lemma section_x (k : Z) (bt t : Rtriangle) ln : wall_x k bt -> intersectTriangle (Pl (t1 bt) (t_n bt)) t = Some ln ->
  X (lp1 ln) = IZR k / 10 ^ 8 /\ X (lp2 ln) = IZR k / 10 ^ 8.
Proof.
  intros (X1 & X2 & X3 & Et) H. set (c := IZR k / 10 ^ 8) in *.
  assert (N : vy (t_n bt) = 0 /\ vz (t_n bt) = 0).
  { rewrite Et. unfold newTriangle, cross, vectorTo. cbn [t_n vx vy vz]. unfold X in X1, X2, X3. rcbn. rewrite X1, X2, X3. split; ring. }
  destruct N as (Ny & Nz).
  assert (Sd : forall q, sd (Pl (t1 bt) (t_n bt)) q = (X q - c) * vx (t_n bt)).
  { intros q. unfold sd. cbn [pl_p pl_n]. rewrite Ny, Nz, X1. ring. }
  unfold intersectTriangle in H.
  assert (Nx : vx (t_n bt) <> 0).
  { intros Z. rewrite !isect_none in H by (left; rewrite !Sd, Z; ring). discriminate H. }
  pose proof (pick_spec (Pl (t1 bt) (t_n bt)) (t1 t) (t2 t) (t3 t)) as K.
  destruct (pick_pair _ _ _) as [[e f]|]; [|discriminate H]. destruct K as (S & _).
  assert (Oe : X e = c /\ X f = c).
  { assert (Z : forall q, on_seg e f q -> X q = c).
    { intros q O. apply S in O. destruct O as (_ & O). rewrite Sd in O. apply Rmult_integral in O. destruct O; [lra|contradiction]. }
    split; apply Z; [exists 0|exists 1]; (split; [lra|]); symmetry; [apply along0|apply along1]. }
  destruct Oe as (Ee & Ef).
  assert (R8 : forall q : Rpoint, X q = c -> X (pt_round8 q) = c).
  { intros q E. unfold pt_round8, X. cbn [px]. change (px q) with (X q). rewrite E. apply round8_fix. }
  destruct (ordered_ok _ _ _ _ _ H) as ([[E1 E2]|[E1 E2]] & _); rewrite E1, E2; split; apply R8; assumption.
Qed.
Lemma section_y (k : Z) (bt t : Rtriangle) ln : wall_y k bt -> intersectTriangle (Pl (t1 bt) (t_n bt)) t = Some ln ->
  Y (lp1 ln) = IZR k / 10 ^ 8 /\ Y (lp2 ln) = IZR k / 10 ^ 8.
Proof.
  intros (X1 & X2 & X3 & Et) H. set (c := IZR k / 10 ^ 8) in *.
  assert (N : vx (t_n bt) = 0 /\ vz (t_n bt) = 0).
  { rewrite Et. unfold newTriangle, cross, vectorTo. cbn [t_n vx vy vz]. unfold Y in X1, X2, X3. rcbn. rewrite X1, X2, X3. split; ring. }
  destruct N as (Ny & Nz).
  assert (Sd : forall q, sd (Pl (t1 bt) (t_n bt)) q = (Y q - c) * vy (t_n bt)).
  { intros q. unfold sd. cbn [pl_p pl_n]. rewrite Ny, Nz, X1. ring. }
  unfold intersectTriangle in H.
  assert (Nx : vy (t_n bt) <> 0).
  { intros Z. rewrite !isect_none in H by (left; rewrite !Sd, Z; ring). discriminate H. }
  pose proof (pick_spec (Pl (t1 bt) (t_n bt)) (t1 t) (t2 t) (t3 t)) as K.
  destruct (pick_pair _ _ _) as [[e f]|]; [|discriminate H]. destruct K as (S & _).
  assert (Oe : Y e = c /\ Y f = c).
  { assert (Z : forall q, on_seg e f q -> Y q = c).
    { intros q O. apply S in O. destruct O as (_ & O). rewrite Sd in O. apply Rmult_integral in O. destruct O; [lra|contradiction]. }
    split; apply Z; [exists 0|exists 1]; (split; [lra|]); symmetry; [apply along0|apply along1]. }
  destruct Oe as (Ee & Ef).
  assert (R8 : forall q : Rpoint, Y q = c -> Y (pt_round8 q) = c).
  { intros q E. unfold pt_round8, Y. cbn [py]. change (py q) with (Y q). rewrite E. apply round8_fix. }
  destruct (ordered_ok _ _ _ _ _ H) as ([[E1 E2]|[E1 E2]] & _); rewrite E1, E2; split; apply R8; assumption.
Qed.

Lemma az0 : almostZero (A := ArithR) 0 = true.
Proof. unfold almostZero, almostZeroNumber. rcbn. rewrite !(proj2 (Rltb_true _ _)) by lra. reflexivity. Qed.
(** every point of the plane of an upright triangle belongs to it *)
Lemma belongs_x (k : Z) (bt : Rtriangle) (q : Rpoint) : wall_x k bt -> X q = IZR k / 10 ^ 8 -> t_pointBelongs bt q = true.
Proof.
  intros (X1 & X2 & X3 & Et) Xq. unfold t_pointBelongs, pl_pointBelongs. cbn [pl_n pl_p].
  assert (N : vy (t_n bt) = 0 /\ vz (t_n bt) = 0).
  { rewrite Et. unfold newTriangle, cross, vectorTo. cbn [t_n vx vy vz]. unfold X in X1, X2, X3. rcbn. rewrite X1, X2, X3. split; ring. }
  destruct N as (Ny & Nz). rewrite Ny, Nz. unfold X in *. rcbn. rewrite X1, X2, X3, Xq. set (c := IZR k / 10 ^ 8) in *.
  match goal with |- context [almostZero ?v] => replace v with 0 by ring end. rewrite az0.
  repeat match goal with |- context [Rleb 0 ?v] => replace (Rleb 0 v) with true by (symmetry; apply Rleb_true; right; ring) end. reflexivity.
Qed.
Lemma belongs_y (k : Z) (bt : Rtriangle) (q : Rpoint) : wall_y k bt -> Y q = IZR k / 10 ^ 8 -> t_pointBelongs bt q = true.
Proof.
  intros (X1 & X2 & X3 & Et) Xq. unfold t_pointBelongs, pl_pointBelongs. cbn [pl_n pl_p].
  assert (N : vx (t_n bt) = 0 /\ vz (t_n bt) = 0).
  { rewrite Et. unfold newTriangle, cross, vectorTo. cbn [t_n vx vy vz]. unfold Y in X1, X2, X3. rcbn. rewrite X1, X2, X3. split; ring. }
  destruct N as (Ny & Nz). rewrite Ny, Nz. unfold Y in *. rcbn. rewrite X1, X2, X3, Xq. set (c := IZR k / 10 ^ 8) in *.
  match goal with |- context [almostZero ?v] => replace v with 0 by ring end. rewrite az0.
  repeat match goal with |- context [Rleb 0 ?v] => replace (Rleb 0 v) with true by (symmetry; apply Rleb_true; right; ring) end. reflexivity.
Qed.

(** what passes an upright triangle does not cross its plane *)
Lemma wall_blocks (k : Z) (bt t : Rtriangle) : wall_x k bt \/ wall_y k bt -> passes bt t ->
  let pl := Pl (t1 bt) (t_n bt) in
  (exists q, In q [t1 t; t2 t; t3 t] /\ Rabs (sd pl q) < / 10 ^ 6) \/ intersectTriangle pl t = None.
Proof.
  intros W P pl. destruct P as [P|P].
  - right. unfold t_intersectTriangle in P. fold pl in P. destruct (intersectTriangle pl t) as [ln|] eqn:E; [|reflexivity]. exfalso.
    assert (B : t_pointBelongs bt (lp1 ln) = true /\ t_pointBelongs bt (lp2 ln) = true).
    { destruct W as [W|W].
      - destruct (section_x k bt t ln W E). split; apply (belongs_x k); auto.
      - destruct (section_y k bt t ln W E). split; apply (belongs_y k); auto. }
    destruct B as (B1 & B2). rewrite B1, B2 in P. discriminate P.
  - left. assert (G : forall q, t_pointBelongs bt q = true -> Rabs (sd pl q) < / 10 ^ 6).
    { intros q B. unfold t_pointBelongs in B. fold pl in B. destruct (pl_pointBelongs pl q) eqn:Bp; [|discriminate B].
      unfold pl_pointBelongs, almostZero, almostZeroNumber in Bp. revert Bp. rcbn. intros Bp.
      apply andb_true_iff in Bp. destruct Bp as (B1 & B2). apply Rltb_true in B1, B2.
      unfold sd, X, Y, Z3. replace (/ 10 ^ 6) with (1 / 1000000) by lra.
      apply Rabs_def1; rcbn; lra. }
    destruct P as [P|[P|P]]; apply G in P; eexists; (split; [|exact P]); cbn; auto.
Qed.

(** ** Direction of the sections of a wall *)
(** rounding does not turn a segment that is long enough to be seen *)
Lemma not_turned (d1 d2 d3 e1 e2 e3 k : R) : 0 < k ->
  Rabs (d1 - k * e1) <= / 100000000 -> Rabs (d2 - k * e2) <= / 100000000 -> Rabs (d3 - k * e3) <= / 100000000 ->
  ~ (Rabs d1 < / 1000000 /\ Rabs d2 < / 1000000 /\ Rabs d3 < / 1000000) -> 0 < d1 * e1 + d2 * e2 + d3 * e3.
Proof.
  intros Hk B1 B2 B3 N. apply (Rmult_lt_reg_l k); [exact Hk|]. rewrite Rmult_0_r.
  replace (k * (d1 * e1 + d2 * e2 + d3 * e3)) with (d1 * (k * e1) + d2 * (k * e2) + d3 * (k * e3)) by ring.
  assert (P : forall d x, Rabs (d - x) <= / 100000000 -> - / 10000000000000000 <= d * x).
  { intros d x B. assert (Q : (d - x) * (d - x) <= / 100000000 * / 100000000).
    { rewrite <- (Rabs_right ((d - x) * (d - x))) by (apply Rle_ge; exact (Rle_0_sqr (d - x))). rewrite Rabs_mult. apply Rmult_le_compat; auto using Rabs_pos. }
    assert (/ 100000000 * / 100000000 = / 10000000000000000) by lra. pose proof (Rle_0_sqr (d + x)) as Q2. unfold Rsqr in Q2.
    replace (d * x) with (((d + x) * (d + x) - (d - x) * (d - x)) / 4) by field. lra. }
  assert (G : forall d x, Rabs (d - x) <= / 100000000 -> / 1000000 <= Rabs d -> / 10000000000000 <= d * x).
  { intros d x B L. assert (C : - / 100000000 <= d - x <= / 100000000) by (unfold Rabs in B; destruct (Rcase_abs (d - x)); lra).
    unfold Rabs in L. destruct (Rcase_abs d) as [D|D].
    - assert (x <= - / 2000000) by lra. apply Rle_trans with (/ 1000000 * / 2000000); [lra|]. replace (d * x) with (- d * - x) by ring. apply Rmult_le_compat; lra.
    - assert (/ 2000000 <= x) by lra. apply Rle_trans with (/ 1000000 * / 2000000); [lra|]. apply Rmult_le_compat; lra. }
  pose proof (P _ _ B1). pose proof (P _ _ B2). pose proof (P _ _ B3).
  destruct (Rlt_dec (Rabs d1) (/ 1000000)) as [L1|L1]; [|pose proof (G _ _ B1 ltac:(lra)); lra].
  destruct (Rlt_dec (Rabs d2) (/ 1000000)) as [L2|L2]; [|pose proof (G _ _ B2 ltac:(lra)); lra].
  destruct (Rlt_dec (Rabs d3) (/ 1000000)) as [L3|L3]; [|pose proof (G _ _ B3 ltac:(lra)); lra].
  exfalso. apply N. auto.
Qed.
Lemma pt_round8_turn (p q : Rpoint) (e1 e2 e3 k : R) : 0 < k -> pt_equal (pt_round8 p) (pt_round8 q) = false ->
  X q - X p = k * e1 -> Y q - Y p = k * e2 -> Z3 q - Z3 p = k * e3 ->
  0 < (X (pt_round8 q) - X (pt_round8 p)) * e1 + (Y (pt_round8 q) - Y (pt_round8 p)) * e2 + (Z3 (pt_round8 q) - Z3 (pt_round8 p)) * e3.
Proof.
  intros Hk N E1 E2 E3. apply pt_equal_R_false in N.
  pose proof (pt_round8_near p) as (A1 & A2 & A3). pose proof (pt_round8_near q) as (B1 & B2 & B3).
  assert (T : forall a b c d, Rabs (a - b) <= / 200000000 -> Rabs (c - d) <= / 200000000 -> Rabs (c - a - (d - b)) <= / 100000000).
  { intros a b c d H1 H2. replace (c - a - (d - b)) with ((c - d) - (a - b)) by ring.
    eapply Rle_trans; [apply Rabs_triang|]. rewrite Rabs_Ropp. lra. }
  apply not_turned with k; [exact Hk|rewrite <- E1; apply T; assumption|rewrite <- E2; apply T; assumption|rewrite <- E3; apply T; assumption|].
  intros (C1 & C2 & C3). apply N. unfold closer. rewrite (Rabs_minus_sym (X _)), (Rabs_minus_sym (Y _)), (Rabs_minus_sym (Z3 _)). auto.
Qed.

(** The two halves of a wall are cut, at the height c, from the corner lines to the same point
    of the diagonal. *)
Lemma halves_cut (u : Rvector) (mn c : R) (e : @line ArithR) : is_unit u -> mn < c -> c < Rdot (lp1 e) u -> c < Rdot (lp2 e) u ->
  let fa := foot u mn (lp1 e) in let fb := foot u mn (lp2 e) in
  let s1 := (c - mn) / (Rdot (lp1 e) u - mn) in let s2 := (c - mn) / (Rdot (lp2 e) u - mn) in
  let M := pt_round8 (along (lp2 e) fa (1 - s2)) in
  (forall l, intersectTriangle (plane_at u c) (upper u mn e) = Some l ->
     l = L2 (pt_round8 (along fa (lp1 e) s1)) M /\ 0 < (X M - X (lp1 l)) * (X fb - X fa) + (Y M - Y (lp1 l)) * (Y fb - Y fa) + (Z3 M - Z3 (lp1 l)) * (Z3 fb - Z3 fa)) /\
  (forall l, intersectTriangle (plane_at u c) (lower u mn e) = Some l ->
     l = L2 (pt_round8 (along fb (lp2 e) s2)) M /\ (X M - X (lp1 l)) * (X fb - X fa) + (Y M - Y (lp1 l)) * (Y fb - Y fa) + (Z3 M - Z3 (lp1 l)) * (Z3 fb - Z3 fa) < 0).
Proof.
  intros Un Hc Ha Hb fa fb s1 s2 M. destruct e as [a b]. cbn [lp1 lp2] in *.
  pose proof (above_foot u mn a) as (Ax & Ay & Az). pose proof (above_foot u mn b) as (Bx & By & Bz). cbn zeta in *.
  fold fa in Ax, Ay, Az. fold fb in Bx, By, Bz. set (h1 := Rdot a u - mn) in *. set (h2 := Rdot b u - mn) in *.
  assert (H1 : c - mn < h1) by (unfold h1; lra). assert (H2 : c - mn < h2) by (unfold h2; lra).
  assert (Sfa : sd (plane_at u c) fa = mn - c) by (rewrite sd_at by exact Un; unfold fa; rewrite foot_dot by exact Un; reflexivity).
  assert (Sfb : sd (plane_at u c) fb = mn - c) by (rewrite sd_at by exact Un; unfold fb; rewrite foot_dot by exact Un; reflexivity).
  assert (Sa : sd (plane_at u c) a = Rdot a u - c) by (apply sd_at; exact Un).
  assert (Sb : sd (plane_at u c) b = Rdot b u - c) by (apply sd_at; exact Un).
  (* the direction of the wall is level *)
  assert (Lv : (X fb - X fa) * vx u + (Y fb - Y fa) * vy u + (Z3 fb - Z3 fa) * vz u = 0).
  { pose proof (foot_dot u mn a Un) as Fa. pose proof (foot_dot u mn b Un) as Fb. fold fa in Fa. fold fb in Fb. unfold Rdot in Fa, Fb.
    unfold X, Y, Z3. rcbn.
    transitivity ((px fb * vx u + py fb * vy u + pz fb * vz u) - (px fa * vx u + py fa * vy u + pz fa * vz u)); [ring|]. unfold Rpoint in *. rewrite Fa, Fb. ring. }
  assert (I1 : intersectSegment (plane_at u c) fa a = Some (along fa a s1)).
  { rewrite isect_some by (rewrite ?Sfa, ?Sa; nra). unfold cut. rewrite Sfa, Sa. do 2 f_equal. unfold s1, h1. field. unfold h1 in H1. lra. }
  assert (I2 : intersectSegment (plane_at u c) b fa = Some (along b fa (1 - s2))).
  { rewrite isect_some by (rewrite ?Sfa, ?Sb; nra). unfold cut. rewrite Sfa, Sb. do 2 f_equal. unfold s2, h2. field. unfold h2 in H2. lra. }
  assert (I3 : intersectSegment (plane_at u c) fb b = Some (along fb b s2)).
  { rewrite isect_some by (rewrite ?Sfb, ?Sb; nra). unfold cut. rewrite Sfb, Sb. do 2 f_equal. unfold s2, h2. field. unfold h2 in H2. lra. }
  assert (I4 : intersectSegment (plane_at u c) a b = None) by (apply isect_none; right; rewrite Sa, Sb; apply Rmult_lt_0_compat; lra).
  assert (I5 : intersectSegment (plane_at u c) fa fb = None) by (apply isect_none; left; rewrite Sfa, Sfb; reflexivity).
  assert (P1 : 0 < s1 < 1).
  { unfold s1. split; [apply Rdiv_lt_0_compat; lra|]. apply (Rmult_lt_reg_r h1); [lra|]. unfold Rdiv. rewrite Rmult_assoc, Rinv_l by lra. lra. }
  assert (P2 : 0 < s2 < 1).
  { unfold s2. split; [apply Rdiv_lt_0_compat; lra|]. apply (Rmult_lt_reg_r h2); [lra|]. unfold Rdiv. rewrite Rmult_assoc, Rinv_l by lra. lra. }
  assert (S1 : s1 * h1 = c - mn) by (unfold s1; field; lra). assert (S2 : s2 * h2 = c - mn) by (unfold s2; field; lra).
  (* normals *)
  set (e1 := X fb - X fa) in *. set (e2 := Y fb - Y fa) in *. set (e3 := Z3 fb - Z3 fa) in *.
  assert (Dot : forall d1 d2 d3, (d2 * vz u - d3 * vy u) * (e2 * vz u - e3 * vy u) + (d3 * vx u - d1 * vz u) * (e3 * vx u - e1 * vz u) + (d1 * vy u - d2 * vx u) * (e1 * vy u - e2 * vx u)
     = d1 * e1 + d2 * e2 + d3 * e3).
  { intros d1 d2 d3. unfold is_unit in Un.
    transitivity ((d1 * e1 + d2 * e2 + d3 * e3) * (vx u * vx u + vy u * vy u + vz u * vz u) - (d1 * vx u + d2 * vy u + d3 * vz u) * (e1 * vx u + e2 * vy u + e3 * vz u)); [ring|].
    rewrite Un, Lv. ring. }
  split; intros l H.
  - unfold intersectTriangle, upper, newTriangle in H. cbn [t1 t2 t3 lp1 lp2] in H. fold fa in H. rewrite I1, I2, I4 in H.
    unfold pick_pair, distinct_pair in H. destruct (pt_equal (along fa a s1) (along b fa (1 - s2))) eqn:Eq; [discriminate H|].
    unfold ordered_line in H. fold M in H. set (P := pt_round8 (along fa a s1)) in *.
    destruct (pt_equal P M) eqn:EPM; [discriminate H|].
    assert (T : 0 < (X M - X P) * e1 + (Y M - Y P) * e2 + (Z3 M - Z3 P) * e3).
    { apply pt_round8_turn with s2; [lra|exact EPM| | |]; unfold along, e1, e2, e3; change (X (P3 (A := ArithR) ?x ?y ?z)) with x; change (Y (P3 (A := ArithR) ?x ?y ?z)) with y; change (Z3 (P3 (A := ArithR) ?x ?y ?z)) with z;
        rewrite ?Ax, ?Ay, ?Az, ?Bx, ?By, ?Bz.
      - transitivity (s2 * (X fb - X fa) + (s2 * h2 - s1 * h1) * vx u); [rring|rewrite S1, S2; ring].
      - transitivity (s2 * (Y fb - Y fa) + (s2 * h2 - s1 * h1) * vy u); [rring|rewrite S1, S2; ring].
      - transitivity (s2 * (Z3 fb - Z3 fa) + (s2 * h2 - s1 * h1) * vz u); [rring|rewrite S1, S2; ring]. }
    match type of H with (if ?t then _ else _) = _ => assert (E : t = true) end; [|rewrite E in H; injection H as <-; split; [reflexivity|exact T]].
    rcbn. apply Rltb_true. unfold dot, cross, vectorTo. cbn [vx vy vz pl_n plane_at t_n]. rcbn.
    change (px a) with (X a). change (py a) with (Y a). change (pz a) with (Z3 a). change (px b) with (X b). change (py b) with (Y b). change (pz b) with (Z3 b).
    change (px fa) with (X fa). change (py fa) with (Y fa). change (pz fa) with (Z3 fa). change (px P) with (X P). change (py P) with (Y P). change (pz P) with (Z3 P).
    change (px M) with (X M). change (py M) with (Y M). change (pz M) with (Z3 M).
    rewrite Ax, Ay, Az, Bx, By, Bz. replace (X fb) with (X fa + e1) by (unfold e1; ring). replace (Y fb) with (Y fa + e2) by (unfold e2; ring). replace (Z3 fb) with (Z3 fa + e3) by (unfold e3; ring).
    assert (0 < h1) by lra.
    apply Rle_lt_trans with (- h1 * ((X M - X P) * e1 + (Y M - Y P) * e2 + (Z3 M - Z3 P) * e3)); [|nra].
    rewrite <- Dot. right. ring.
  - unfold intersectTriangle, lower, newTriangle in H. cbn [t1 t2 t3 lp1 lp2] in H. fold fa fb in H. rewrite I2, I3, I5 in H.
    unfold pick_pair, distinct_pair in H. destruct (pt_equal (along fb b s2) (along b fa (1 - s2))) eqn:Eq; [discriminate H|].
    unfold ordered_line in H. fold M in H. set (P := pt_round8 (along fb b s2)) in *.
    destruct (pt_equal P M) eqn:EPM; [discriminate H|].
    assert (T : 0 < (X M - X P) * - e1 + (Y M - Y P) * - e2 + (Z3 M - Z3 P) * - e3).
    { apply pt_round8_turn with (1 - s2); [lra|exact EPM| | |]; unfold along, e1, e2, e3; change (X (P3 (A := ArithR) ?x ?y ?z)) with x; change (Y (P3 (A := ArithR) ?x ?y ?z)) with y; change (Z3 (P3 (A := ArithR) ?x ?y ?z)) with z;
        rewrite ?Bx, ?By, ?Bz; rring. }
    match type of H with (if ?t then _ else _) = _ => assert (E : t = true) end; [|rewrite E in H; injection H as <-; split; [reflexivity|cbn [lp1]; fold e1 e2 e3; lra]].
    rcbn. apply Rltb_true. unfold dot, cross, vectorTo. cbn [vx vy vz pl_n plane_at t_n]. rcbn.
    change (px b) with (X b). change (py b) with (Y b). change (pz b) with (Z3 b). change (px fb) with (X fb). change (py fb) with (Y fb). change (pz fb) with (Z3 fb).
    change (px fa) with (X fa). change (py fa) with (Y fa). change (pz fa) with (Z3 fa). change (px P) with (X P). change (py P) with (Y P). change (pz P) with (Z3 P).
    change (px M) with (X M). change (py M) with (Y M). change (pz M) with (Z3 M).
    rewrite Bx, By, Bz. replace (X fb) with (X fa + e1) by (unfold e1; ring). replace (Y fb) with (Y fa + e2) by (unfold e2; ring). replace (Z3 fb) with (Z3 fa + e3) by (unfold e3; ring).
    assert (0 < h2) by lra.
    apply Rle_lt_trans with (h2 * ((X M - X P) * e1 + (Y M - Y P) * e2 + (Z3 M - Z3 P) * e3)); [|nra].
    rewrite <- Dot. right. ring.
Qed.

(** ** Ends where nothing goes on *)
Lemma chain_shape {A : Arith} (touch : point -> point -> bool) q parts : chain touch q parts -> Forall (fun x : path => (2 <= length x)%nat) parts ->
  (2 <= length q)%nat /\ (exists y r, parts = y :: r /\ forall d, hd d q = hd d y) /\
  exists init z, parts = init ++ [z] /\ (forall d, last q d = last z d) /\
    Forall (fun x => exists y, In y parts /\ forall d, touch (last x d) (hd d y) = true) init.
Proof.
  induction 1 as [p Hp|a p b q ps qs H1 IH1 H2 IH2 Ht]; intros F.
  - inversion F; subst. split; [assumption|]. split; [exists p, []; auto|]. exists [], p. repeat split; auto.
  - apply Forall_app in F. destruct F as (F1 & F2). destruct (IH1 F1) as (L1 & (y1 & r1 & E1 & Hd1) & i1 & z1 & D1 & La1 & G1).
    destruct (IH2 F2) as (L2 & (y2 & r2 & E2 & Hd2) & i2 & z2 & D2 & La2 & G2).
    split; [rewrite app_length; lia|]. split.
    { exists y1, (r1 ++ qs). split; [now rewrite E1|]. exact Hd1. }
    exists (ps ++ i2), z2. split; [now rewrite D2, app_assoc|]. split.
    { intros d. rewrite <- La2. destruct q as [|x q]; [cbn in L2; lia|].
      assert (Lr : forall (l : path) c r e e', last (l ++ c :: r) e = last (c :: r) e').
      { intros l c r e e'. induction l as [|w l IHl]; cbn [app]; [|destruct (l ++ c :: r) eqn:El; [now destruct l|exact IHl]].
        revert c. induction r as [|w r IHr]; intros c; [reflexivity|]. exact (IHr w). }
      rewrite (Lr (a :: p) x q d d). reflexivity. }
    apply Forall_app. split.
    + rewrite D1. apply Forall_app. split.
      * eapply Forall_impl; [|exact G1]. cbn beta. intros x (y & Iy & Ty). exists y. split; [apply in_app_iff; left; now rewrite <- D1|exact Ty].
      * constructor; [|constructor]. exists y2. split; [apply in_app_iff; right; rewrite E2; now left|]. intros d. rewrite <- La1, <- Hd2. cbn [hd].
        assert (Ls : forall (l : path) c e e', last (c :: l) e = last (c :: l) e').
        { induction l as [|w l IHl]; intros c e e'; [reflexivity|]. exact (IHl w e e'). }
        rewrite (Ls p a d a). exact Ht.
    + eapply Forall_impl; [|exact G2]. cbn beta. intros x (y & Iy & Ty). exists y. split; [apply in_app_iff; now right|exact Ty].
Qed.

Lemma minimize_open (q : @path ArithR) : (2 <= length q)%nat -> isClosed q = false ->
  isClosed (minimizeLines q) = false /\ forall d, last (minimizeLines q) d = last q d.
Proof.
  intros L C. assert (N : q <> []) by (intros ->; cbn in L; lia).
  assert (La : forall d, hd d (minimizeLines q) = hd d q /\ last (minimizeLines q) d = last q d).
  { intros d. destruct (C35_minimize q d N) as (_ & _ & H & _). destruct (H C) as (_ & H1 & H2). auto. }
  split; [|intros d; apply La].
  destruct q as [|a [|b r]]; [now cbn in L; lia|cbn in L; lia|]. destruct (La a) as (H1 & H2).
  change (isClosed (a :: b :: r)) with (pt_equal a (last (a :: b :: r) a)) in C.
  destruct (C35_minimize (a :: b :: r) a N) as (Nn & _).
  destruct (minimizeLines (a :: b :: r)) as [|x [|y l]].
  - congruence.
  - exfalso. cbn [hd] in H1. cbn [last] in H2. subst x. change (a = last (a :: b :: r) a) in H2. rewrite <- H2 in C. apply pt_equal_R_false in C. apply C.
    unfold closer. rewrite !Rminus_diag_eq by reflexivity. rewrite Rabs_R0. lra.
  - cbn [hd] in H1. subst x. change (isClosed (a :: y :: l)) with (pt_equal a (last (a :: y :: l) a)). now rewrite H2.
Qed.

(** two segments that end where no segment begins end up in two contours that end there and
    are not closed *)
Lemma dead_end srt (segs out : list (@path ArithR)) (p1 p2 M : Rpoint) :
  (forall l, Permutation l (srt l)) -> Forall (fun x : path => (2 <= length x)%nat) segs ->
  In [p1; M] segs -> In [p2; M] segs -> p1 <> p2 -> (forall x d, In x segs -> ~ closer (/ 1000000) (hd d x) M) ->
  joinPaths3AndMinimize srt segs = Ok out ->
  exists q1 q2 rest, Permutation out (q1 :: q2 :: rest) /\ (forall d, last q1 d = M /\ last q2 d = M) /\ isClosed q1 = false /\ isClosed q2 = false.
Proof.
  intros Hs F I1 I2 Np Ns J. unfold joinPaths3AndMinimize in J.
  assert (Nn : Forall (fun q : path => q <> []) segs) by (eapply Forall_impl; [|exact F]; cbn beta; intros [|? ?] K; [cbn in K; lia|discriminate]).
  destruct (C32_join3_conserves srt segs Hs Nn) as (o & E & parts & P & F2). rewrite E in J. cbn [rbind] in J. injection J as <-.
  assert (Fp : forall ps x, In ps parts -> In x ps -> In x segs).
  { intros ps x A1 A2. eapply Permutation_in; [exact P|]. apply in_concat. eauto. }
  assert (Key : forall q ps p, In ps parts -> chain pt_equal q ps -> In [p; M] ps ->
    (forall d, last q d = M) /\ isClosed q = false /\ (2 <= length q)%nat /\ exists init, ps = init ++ [[p; M]]).
  { intros q ps p Ips C Ip.
    assert (Fl : Forall (fun x : path => (2 <= length x)%nat) ps).
    { apply Forall_forall. intros x Hx. rewrite Forall_forall in F. apply F. eauto. }
    destruct (chain_shape _ _ _ C Fl) as (L & (y & r & Ey & Hd) & init & z & Ez & La & G).
    assert (Ezp : z = [p; M]).
    { rewrite Ez in Ip. apply in_app_iff in Ip. destruct Ip as [Ip|[Ip|[]]]; [|exact Ip]. exfalso. rewrite Forall_forall in G.
      destruct (G _ Ip) as (w & Iw & T). specialize (T p). cbn [last] in T. apply pt_equal_R in T. apply (Ns w p); [eauto|]. now apply closer_sym. }
    subst z. assert (La' : forall d, last q d = M) by (intros d; rewrite La; reflexivity).
    split; [exact La'|]. split; [|split; [exact L|eauto]].
    destruct q as [|a [|b l]]; [cbn in L; lia|cbn in L; lia|]. change (isClosed (a :: b :: l)) with (pt_equal a (last (a :: b :: l) a)). rewrite La'.
    apply pt_equal_R_false. specialize (Hd a). cbn [hd] in Hd. rewrite Hd. apply Ns. apply (Fp ps); [exact Ips|]. rewrite Ey. now left. }
  assert (J1 : In [p1; M] (concat parts)) by (eapply Permutation_in; [apply Permutation_sym, P|exact I1]).
  assert (J2 : In [p2; M] (concat parts)) by (eapply Permutation_in; [apply Permutation_sym, P|exact I2]).
  apply in_concat in J1. destruct J1 as (ps1 & A1 & B1). apply in_concat in J2. destruct J2 as (ps2 & A2 & B2).
  assert (Pick : forall (ps : list (list path)) o, Forall2 (chain pt_equal) o ps -> forall x, In x ps ->
    exists q o1 ps1, chain pt_equal q x /\ Permutation o (q :: o1) /\ Forall2 (chain pt_equal) o1 ps1 /\ (forall y, In y ps -> y = x \/ In y ps1)).
  { clear. intros ps o F. induction F as [|q x o ps H F IH]; intros z; [intros []|]. intros [->|I].
    - exists q, o, ps. split; [exact H|]. split; [reflexivity|]. split; [exact F|]. intros y [<-|K]; auto.
    - destruct (IH z I) as (q' & o1 & ps1 & C & P & F' & K). exists q', (q :: o1), (x :: ps1). split; [exact C|].
      split; [rewrite P; apply perm_swap|]. split; [constructor; assumption|]. intros y [<-|Iy]; [right; now left|]. destruct (K y Iy); [auto|right; now right]. }
  destruct (Pick parts o F2 ps1 A1) as (q1 & o1 & pr & C1 & P1 & F3 & K). destruct (Key q1 ps1 p1 A1 C1 B1) as (La1 & Cl1 & Le1 & i1 & Ei1).
  assert (I3 : In ps2 pr).
  { destruct (K ps2 A2) as [->|I3]; [exfalso|exact I3].
    destruct (Key q1 ps1 p2 A2 C1 B2) as (_ & _ & _ & i2 & Ei2). rewrite Ei1 in Ei2. apply app_inj_tail in Ei2. destruct Ei2 as (_ & Ei2). injection Ei2 as Ei2. contradiction. }
  destruct (Pick pr o1 F3 ps2 I3) as (q2 & o2 & pr2 & C2 & P2 & _ & _). destruct (Key q2 ps2 p2 A2 C2 B2) as (La2 & Cl2 & Le2 & _).
  destruct (minimize_open q1 Le1 Cl1) as (M1 & M1'). destruct (minimize_open q2 Le2 Cl2) as (M2 & M2').
  exists (minimizeLines q1), (minimizeLines q2), (map minimizeLines o2). split.
  { rewrite P1, P2. reflexivity. }
  split; [intros d; rewrite M1', M2'; auto|]. auto.
Qed.
