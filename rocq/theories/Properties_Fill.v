(** * Properties C45-C49, C62-C64: filling of layers *)
From Coq Require Import String ZArith Reals Lra Lia List Bool Permutation Sorted PeanoNat.
From Flocq Require Import Core.Raux IEEE754.BinarySingleNaN.
From Verif Require Import Arith ArithR ArithF64 Prim Path GeomSpec MeshProofs Helpers Gcode Slicer SlicerClaims
  SlicerProofs SlicerProofs2 Properties_Geom Properties_Path Properties_Slicer Fill FillClaims FillProofs FillProofs2 FillProofs3.
Import ListNotations.
Close Scope Z_scope.
Close Scope num_scope.
Close Scope string_scope.
Close Scope R_scope.

(** ** C45 Fill planes *)

(** The planes are orthogonal to the axis, at consecutive multiples of the step. *)
Theorem C45_multiples : forall (m : Rmesh) (axis : Rvector) (step : R), exists (j : Z) (n : nat),
  calcFillPlanesCommon (A := ArithR) m axis step =
  map (fun i => Pl (at_axis axis (IZR (j + Z.of_nat i) * step)) axis) (seq 1 n).
Proof. intros. rewrite common_R. cbv zeta. eauto. Qed.

(** Line fill: going from a vertex in direction X a plane is met within one step. *)
Theorem C45_lines_cover : forall (m : Rmesh) (s : @settings ArithR) v,
  Forall (fun p => in_range (X p) /\ in_range (Y p)) (vertices m) ->
  (exists w, In w (vertices m) /\ (X w <> 0 \/ Y w <> 0)%R) ->
  (0 < s_fillDensity s)%Z -> (0 < LineWidth (s_g s))%R ->
  let step := (100 / IZR (s_fillDensity s) * LineWidth (s_g s))%R in
  In v (vertices m) ->
  exists p, In p (calcFillPlanesLines m s) /\ pl_n p = axisX /\ (X v <= X (pl_p p) <= X v + step)%R.
Proof.
  intros m s v F (w & Hw & Nw) D LW step Hv.
  assert (SP : (0 < step)%R).
  { unfold step. apply IZR_lt in D. apply Rmult_lt_0_compat; [|exact LW]. apply Rdiv_lt_0_compat; lra. }
  assert (MP : (0 < Mof m)%R).
  { destruct (Mof_bounds m F w Hw) as [Bx By]. destruct Nw as [N|N]; apply Rabs_pos_lt in N; lra. }
  destruct (Mof_bounds m F v Hv) as [Bx _]. apply Rabs_le_inv in Bx.
  destruct (cover m (axisX (A := ArithR)) step (X v) SP MP Bx) as (t & Ht & Q).
  eexists. split; [|split; [|]].
  - unfold calcFillPlanesLines. replace (fill_step (s_fillDensity s) s) with step; [exact Ht|].
    unfold fill_step, step. rcbn. reflexivity.
  - reflexivity.
  - cbn [pl_p pl_n]. unfold at_axis, X at 2 3. cbn [px vx axisX]. unfold axisX. cbn [vx]. rcbn. cbn [px]. lra.
Qed.

(** The same for the full planes of bottom and top layers, one line width apart. *)
Theorem C45_full_cover : forall (m : Rmesh) (s : @settings ArithR) v,
  Forall (fun p => in_range (X p) /\ in_range (Y p)) (vertices m) ->
  (exists w, In w (vertices m) /\ (X w <> 0 \/ Y w <> 0)%R) ->
  (0 < LineWidth (s_g s))%R -> In v (vertices m) ->
  exists p, In p (calcFillFullPlane m s) /\ pl_n p = axisX /\ (X v <= X (pl_p p) <= X v + LineWidth (s_g s))%R.
Proof.
  intros m s v F (w & Hw & Nw) LW Hv.
  assert (MP : (0 < Mof m)%R).
  { destruct (Mof_bounds m F w Hw) as [Bx By]. destruct Nw as [N|N]; apply Rabs_pos_lt in N; lra. }
  destruct (Mof_bounds m F v Hv) as [Bx _]. apply Rabs_le_inv in Bx.
  destruct (cover m (axisX (A := ArithR)) (LineWidth (s_g s)) (X v) LW MP Bx) as (t & Ht & Q).
  eexists. split; [exact Ht|]. split; [reflexivity|].
  cbn [pl_p pl_n]. unfold at_axis, X at 2 3. unfold axisX. cbn [vx]. rcbn. cbn [px]. lra.
Qed.

(** ** C46 Square fill *)

(** For every number of steps there is a model with a vertex that is farther than
    that from every plane of the second of the two families. *)
Theorem C46_squares_miss : forall (s : @settings ArithR) (K : R),
  (2 <= s_fillDensity s)%Z -> (0 < LineWidth (s_g s))%R -> (0 < K)%R ->
  let step := (100 / IZR (s_fillDensity s / 2) * LineWidth (s_g s))%R in
  exists (m : Rmesh) v, In v (vertices m) /\
    forall p, In p (calcFillPlanesSquares m s) -> (vx (pl_n p) < 0)%R ->
      forall q, sd p q = 0%R -> (dist2 v q > (K * step) * (K * step))%R.
Proof.
  intros s K D LW KP step.
  assert (DQ : (Z.quot (s_fillDensity s) 2 = s_fillDensity s / 2)%Z) by (apply Z.quot_div_nonneg; lia).
  assert (D2 : (0 < s_fillDensity s / 2)%Z) by (apply Z.div_str_pos; lia).
  assert (SP : (0 < step)%R).
  { unfold step. apply IZR_lt in D2. apply Rmult_lt_0_compat; [|exact LW]. apply Rdiv_lt_0_compat; lra. }
  set (r := (10 * (K + 1) * step)%R).
  assert (RP : (0 < r)%R) by (unfold r; apply Rmult_lt_0_compat; lra).
  exists [corner r], (P3 (A := ArithR) (- r)%R r 0%R). split; [cbn; tauto|].
  assert (FS : fill_step (Z.quot (s_fillDensity s) 2) s = step) by (rewrite DQ; unfold fill_step, step; rcbn; reflexivity).
  intros p Hp Np q Hq. unfold calcFillPlanesSquares in Hp. rewrite FS in Hp. cbv zeta in Hp.
  apply in_app_iff in Hp.
  assert (C : (c45 (A := ArithR) = 7071067812 / 10000000000)%R) by (unfold c45; rcbn; reflexivity).
  destruct Hp as [Hp|Hp]; apply reach in Hp; try exact SP; destruct Hp as (t & -> & Bt).
  { exfalso. cbn [pl_n vx] in Np. rewrite C in Np. lra. }
  rewrite corner_extent in Bt by exact RP.
  unfold sd, at_axis, X, Y, Z3 in Hq. cbn [pl_p pl_n px py pz vx vy vz] in Hq. rcbn.
  unfold dist2, X, Y, Z3. cbn [px py pz].
  revert Hq. cbn [num ArithR]. rewrite C. set (c := (7071067812 / 10000000000)%R).
  destruct q as [x y z]. cbn [px py pz]. intros Hq.
  pose proof (cauchy3 (- c) c 0 (- r - x) (r - y) (0 - z)) as Q.
  assert (S : (- c * (- r - x) + c * (r - y) + 0 * (0 - z) = c * (2 * r) - 2 * (c * c) * t)%R) by lra.
  rewrite S in Q.
  assert (B : (3 / 10 * r < c * (2 * r) - 2 * (c * c) * t)%R).
  { assert (T : (t < r + r / 10)%R).
    { assert (r / 10 = (K + 1) * step)%R by (unfold r; field). assert (0 < K * step)%R by (now apply Rmult_lt_0_compat). lra. }
    unfold c. lra. }
  assert (B2 : (3 / 10 * r * (3 / 10 * r) < (c * (2 * r) - 2 * (c * c) * t) * (c * (2 * r) - 2 * (c * c) * t))%R).
  { apply Rmult_le_0_lt_compat; lra. }
  assert (B3 : (12 / 10 * (K * step) * (12 / 10 * (K * step)) <= 3 / 10 * r * (3 / 10 * r))%R).
  { assert (0 < K * step)%R by (now apply Rmult_lt_0_compat).
    assert (12 / 10 * (K * step) <= 3 / 10 * r)%R by (unfold r; lra).
    apply Rmult_le_compat; lra. }
  set (dd := ((- r - x) * (- r - x) + (r - y) * (r - y) + (0 - z) * (0 - z))%R) in *.
  assert (N : (- c * - c + c * c + 0 * 0 <= 11 / 10)%R) by (unfold c; lra).
  assert (DD : (0 <= dd)%R).
  { unfold dd. pose proof (Rle_0_sqr (- r - x)). pose proof (Rle_0_sqr (r - y)). pose proof (Rle_0_sqr (0 - z)). unfold Rsqr in *. lra. }
  assert (N2 : ((- c * - c + c * c + 0 * 0) * dd <= 11 / 10 * dd)%R) by (apply Rmult_le_compat_r; assumption).
  assert (0 < K * step * (K * step))%R by (apply Rmult_lt_0_compat; now apply Rmult_lt_0_compat).
  lra.
Qed.

(** ** C47 FillLayers *)
Theorem C47_fill : forall {A : Arith} {L : LtOK A} U (ls : list layer) planes full (s : settings),
  Forall (fun l => Forall (fun f : path => f <> []) (l_fill l)) ls ->
  exists out, fillLayers U ls planes full s = Ok out /\
    (* nothing but the fill changes *)
    Forall2 same_but_fill ls out /\
    forall i l l', nth_error ls i = Some l -> nth_error out i = Some l' ->
      exists pls,
        ((Z.of_nat i < s_bottomLayers s \/ Z.of_nat (length ls) - s_topLayers s <= Z.of_nat i)%Z -> pls = full) /\
        ((s_bottomLayers s <= Z.of_nat i < Z.of_nat (length ls) - s_topLayers s)%Z -> pls = planes) /\
        let cuts := l_fill l ++ flat_map (intersectByPlane U (contours l)) pls in
        length (l_fill l') = length cuts /\
        Forall (fun g => exists f, In f cuts /\ (g = f \/ g = rev f)) (l_fill l') /\
        (near_ends cuts -> rearranged cuts (l_fill l')).
Proof.
  intros A L U ls planes full s F.
  destruct (fill_loop_spec U (Z.of_nat (length ls)) planes full s ls 0%Z F) as (out & E & S & N).
  exists out. split; [exact E|]. split; [exact S|]. intros i l l' H H'.
  destruct (N i l l' H H') as (pls & H1 & H2 & H3). exists pls.
  split; [intros; apply H1; lia|]. split; [intros; apply H2; lia|]. exact H3.
Qed.

(** ** C48 Order of the fill paths *)
Theorem C48_greedy : forall {A : Arith} {L : LtOK A} (f0 : path) (fs : list path) e,
  Forall (fun f : path => f <> []) (f0 :: fs) -> near_ends (f0 :: fs) -> finishes e f0 ->
  exists rest, sortFillPathes (f0 :: fs) = Ok (f0 :: rest) /\ greedy e fs rest /\ rearranged fs rest.
Proof.
  intros A L f0 fs e F N Fe. destruct (sort_greedy f0 fs e F N Fe) as (rest & E & G).
  exists rest. split; [exact E|]. split; [exact G|]. exact (greedy_rearranged e fs rest G).
Qed.
Theorem C48_far : forall {A : Arith} (f0 : path) (fs : list path),
  Forall (fun f : path => f <> []) (f0 :: fs) -> far_ends f0 fs ->
  sortFillPathes (f0 :: fs) = Ok (repeat f0 (length (f0 :: fs))).
Proof. intros A f0 fs. apply sort_far. Qed.
(** with neither guard: no panic, every path of the result is an input path or its reverse *)
Theorem C48_total : forall {A : Arith} {L : LtOK A} (fs : list path), Forall (fun f : path => f <> []) fs ->
  exists out, sortFillPathes fs = Ok out /\
    Forall (fun g => exists f, In f fs /\ (g = f \/ g = rev f)) out /\ length out = length fs.
Proof. intros A L fs. apply sort_total. Qed.

(** ** C49 Fill segments *)
Theorem C49_on_contours : forall U (ps : list Rpath) (pl : Rplane) s, legal U -> In s (intersectByPlane U ps pl) ->
  exists a b, s = [a; b] /\ on_contour ps a /\ sd pl a = 0%R /\ on_contour ps b /\ sd pl b = 0%R.
Proof.
  intros U ps pl s L H. destruct (segments_of_hits U ps pl) as (F & ks & E).
  rewrite Forall_forall in F. destruct (F s H) as (a & b & ->). exists a, b. split; [reflexivity|].
  assert (G : forall q, In q [a; b] -> on_contour ps q /\ sd pl q = 0%R).
  { intros q Hq. apply hits_on. eapply Permutation_in; [exact (Permutation_sym (sort_hits_perm U pl _ L))|].
    eapply (keep_incl ks). rewrite <- E. apply in_concat. exists [a; b]. auto. }
  destruct (G a) as [? ?]; [now left|]. destruct (G b) as [? ?]; [right; now left|]. auto.
Qed.
(** all end points, in the order in which they are returned, follow one another along the cut *)
Theorem C49_ordered : forall U (ps : list Rpath) (pl : Rplane), legal U ->
  vz (pl_n pl) = 0%R -> (vx (pl_n pl) : R) <> 0%R \/ (vy (pl_n pl) : R) <> 0%R ->
  exists d, along_cut pl d /\
    StronglySorted (fun a b => (Rdot a d <= Rdot b d)%R) (concat (intersectByPlane U ps pl)).
Proof.
  intros U ps pl L Z N. exists (heading (pl_n pl)). split; [now apply heading_along|].
  destruct (segments_of_hits U ps pl) as (_ & ks & E).
  pose proof (keep_sorted _ ks _ (hits_sorted U pl ps L Z N)) as S.
  rewrite <- E in S. exact S.
Qed.

(** ** C62 Even-odd rule *)
Theorem C62_even_odd : forall U (ps : list Rpath) (pl : Rplane), legal U ->
  vz (pl_n pl) = 0%R -> (vx (pl_n pl) : R) <> 0%R \/ (vy (pl_n pl) : R) <> 0%R ->
  Forall closed ps -> general_position pl ps ->
  exists d cs, along_cut pl d /\ crossings pl ps cs /\ Nat.even (length cs) = true /\
    forall t, (forall c, In c cs -> Rdot c d <> t) ->
      (exists a b, In [a; b] (intersectByPlane U ps pl) /\ (Rdot a d < t < Rdot b d)%R) <->
      Nat.odd (before d t cs) = true.
Proof.
  intros U ps pl L Z N C G. exists (heading (pl_n pl)), (hits pl ps).
  split; [now apply heading_along|]. split; [now apply hits_crossings|]. split; [now apply hits_even|].
  intros t T. now apply even_odd.
Qed.

(** ** C63 Low densities *)
Theorem C63_squares : forall E (m : @mesh (ArithF64 E)) (s : @settings (ArithF64 E)),
  (-2 < s_fillDensity s < 2)%Z -> is_finite_strict (LineWidth (s_g s) : f64) = true -> Bsign (LineWidth (s_g s) : f64) = false ->
  calcFillPlanesSquares m s = [].
Proof.
  intros E m s D F B. unfold calcFillPlanesSquares, fill_step.
  assert (Q : Z.quot (s_fillDensity s) 2 = 0%Z) by (assert (s_fillDensity s = -1 \/ s_fillDensity s = 0 \/ s_fillDensity s = 1)%Z as [->|[->| ->]] by lia; reflexivity).
  pose proof (inf_step (LineWidth (s_g s)) B F) as I.
  assert (I' : nmul (ndiv (nofZ 100) (nofZ (Z.quot (s_fillDensity s) 2))) (LineWidth (s_g s)) = (B754_infinity false : @num (ArithF64 E))).
  { rewrite Q. exact I. }
  rewrite I'. cbv zeta. rewrite !(no_planes E). reflexivity.
Qed.
Theorem C63_triangles : forall E (m : @mesh (ArithF64 E)) (s : @settings (ArithF64 E)),
  (-3 < s_fillDensity s < 3)%Z -> is_finite_strict (LineWidth (s_g s) : f64) = true -> Bsign (LineWidth (s_g s) : f64) = false ->
  calcFillPlanesTriangles m s = [].
Proof.
  intros E m s D F B. unfold calcFillPlanesTriangles, fill_step.
  assert (Q : Z.quot (s_fillDensity s) 3 = 0%Z) by (assert (s_fillDensity s = -2 \/ s_fillDensity s = -1 \/ s_fillDensity s = 0 \/ s_fillDensity s = 1 \/ s_fillDensity s = 2)%Z as [->|[->|[->|[->| ->]]]] by lia; reflexivity).
  pose proof (inf_step (LineWidth (s_g s)) B F) as I.
  assert (I' : nmul (ndiv (nofZ 100) (nofZ (Z.quot (s_fillDensity s) 3))) (LineWidth (s_g s)) = (B754_infinity false : @num (ArithF64 E))).
  { rewrite Q. exact I. }
  rewrite I'. cbv zeta. rewrite !(no_planes E). reflexivity.
Qed.

(** ** C64 A contour vertex on the fill plane *)
Section Vertex.
Local Open Scope R_scope.
Definition rp2 (x y : R) : Rpoint := P3 (A := ArithR) x y 0%R.
(** a triangle standing on its tip at (0, h) *)
Definition tip (h : R) : Rpath := [rp2 0 h; rp2 (-1) (h + 1); rp2 1 (h + 1); rp2 0 h].
Definition cutX : Rplane := Pl (rp2 0 0) (axisX (A := ArithR)).

Lemma sd_cutX x y : sd cutX (rp2 x y) = x.
Proof. unfold sd, cutX, rp2, X, Y, Z3, axisX. cbn [pl_p pl_n px py pz vx vy vz]. rcbn. lra. Qed.

Lemma isect_some (p : Rplane) a b r : sd p a <> sd p b -> on_seg a b r -> sd p r = 0 -> intersectSegment p a b = Some r.
Proof.
  intros N O S. pose proof (C27_segment p a b) as C. destruct (intersectSegment p a b) as [q|].
  - destruct C as (_ & _ & _ & _ & C). now rewrite (C r O S).
  - exfalso. destruct C as [C|C]; [contradiction|]. destruct O as (t & Ht & ->). rewrite GeomProofs.sd_along in S.
    set (x := sd p a) in *. set (y := sd p b) in *. clearbody x y.
    assert (x * (1 - t) + y * t = 0) by lra. destruct (Rtotal_order x 0) as [Hx|[Hx|Hx]].
    + assert (y < 0) by (apply Rmult_lt_reg_l with (- x); lra).
      assert (0 <= - x * (1 - t)) by (apply Rmult_le_pos; lra). assert (0 <= - y * t) by (apply Rmult_le_pos; lra).
      assert (- x * (1 - t) = 0) by lra. assert (- y * t = 0) by lra.
      apply Rmult_integral in H3. apply Rmult_integral in H4. lra.
    + subst x. lra.
    + assert (0 < y) by (apply Rmult_lt_reg_l with x; lra).
      assert (0 <= x * (1 - t)) by (apply Rmult_le_pos; lra). assert (0 <= y * t) by (apply Rmult_le_pos; lra).
      assert (x * (1 - t) = 0) by lra. assert (y * t = 0) by lra.
      apply Rmult_integral in H3. apply Rmult_integral in H4. lra.
Qed.

Lemma tip_hits h : hits_path cutX (tip h) = [rp2 0 h; rp2 0 (h + 1); rp2 0 h].
Proof.
  unfold tip. cbn [hits_path].
  rewrite (isect_some cutX (rp2 0 h) (rp2 (-1) (h + 1)) (rp2 0 h)).
  2: { rewrite !sd_cutX. lra. }
  2: { exists 0. split; [lra|]. unfold along, rp2, X, Y, Z3. cbn [px py pz]. f_equal; rcbn; lra. }
  2: { apply sd_cutX. }
  rewrite (isect_some cutX (rp2 (-1) (h + 1)) (rp2 1 (h + 1)) (rp2 0 (h + 1))).
  2: { rewrite !sd_cutX. lra. }
  2: { exists (1 / 2). split; [lra|]. unfold along, rp2, X, Y, Z3. cbn [px py pz]. f_equal; rcbn; lra. }
  2: { apply sd_cutX. }
  rewrite (isect_some cutX (rp2 1 (h + 1)) (rp2 0 h) (rp2 0 h)).
  2: { rewrite !sd_cutX. lra. }
  2: { exists 1. split; [lra|]. unfold along, rp2, X, Y, Z3. cbn [px py pz]. f_equal; rcbn; lra. }
  2: { apply sd_cutX. }
  reflexivity.
Qed.

Lemma sorted_unique {T} (R : T -> T -> Prop) : forall l l' : list T, Permutation l l' -> StronglySorted R l -> StronglySorted R l' ->
  (forall a b, In a l -> In b l -> R a b -> R b a -> a = b) -> l = l'.
Proof.
  induction l as [|x l IH]; intros l' P S S' An.
  - apply Permutation_nil in P. now subst.
  - destruct l' as [|y l']; [now apply Permutation_sym, Permutation_nil in P|].
    assert (E : x = y).
    { inversion S as [|? ? S1 F1]; subst. inversion S' as [|? ? S1' F1']; subst.
      assert (Hy : In y (x :: l)) by (eapply Permutation_in; [symmetry; exact P|now left]).
      assert (Hx : In x (y :: l')) by (eapply Permutation_in; [exact P|now left]).
      destruct Hy as [Hy|Hy]; [assumption|]. destruct Hx as [Hx|Hx]; [now symmetry|].
      rewrite Forall_forall in F1, F1'. apply An; [now left|now right|now apply F1|now apply F1']. }
    subst y. f_equal. apply IH.
    + now apply Permutation_cons_inv in P.
    + now inversion S.
    + now inversion S'.
    + intros a b Ha Hb. apply An; now right.
Qed.

Lemma legal_pairs U : legal U -> intersectByPlane U [tip 0; tip 3] cutX =
  [[rp2 0 0; rp2 0 0]; [rp2 0 1; rp2 0 3]; [rp2 0 3; rp2 0 4]].
Proof.
  intros L.
  assert (H : hits cutX [tip 0; tip 3] = [rp2 0 0; rp2 0 1; rp2 0 0; rp2 0 3; rp2 0 4; rp2 0 3]).
  { unfold hits. cbn [flat_map]. rewrite !tip_hits. cbn [app].
    replace (0 + 1) with 1 by ring. replace (3 + 1) with 4 by ring. reflexivity. }
  assert (E : sort_hits U cutX (hits cutX [tip 0; tip 3]) = [rp2 0 0; rp2 0 0; rp2 0 1; rp2 0 3; rp2 0 3; rp2 0 4]).
  { pose proof (sort_hits_perm U cutX (hits cutX [tip 0; tip 3]) L) as P.
    assert (Z : vz (pl_n cutX) = 0%R) by (unfold cutX, axisX; cbn [pl_n vz]; rcbn; lra).
    assert (Nx : (vx (pl_n cutX) : R) <> 0) by (unfold cutX, axisX; cbn [pl_n vx]; rcbn; lra).
    pose proof (hits_sorted U cutX [tip 0; tip 3] L Z (or_introl Nx)) as S.
    assert (By : by_x (pl_n cutX) = false).
    { pose proof (by_x_spec (pl_n cutX) Z (or_introl Nx)) as B. destruct (by_x _); [|reflexivity].
      exfalso. apply B. unfold cutX, axisX; cbn [pl_n vy]; rcbn; lra. }
    assert (Hd : heading (pl_n cutX) = V3 (A := ArithR) 0%R 1%R 0%R).
    { unfold heading. rewrite By. unfold cutX, axisX. cbn [pl_n vx vy]. rcbn.
      destruct Rlt_dec; [|lra]. f_equal; rcbn; lra. }
    rewrite Hd in S. rewrite H in P, S |- *.
    assert (D : forall x y, Rdot (rp2 x y) (V3 (A := ArithR) 0%R 1%R 0%R) = y).
    { intros. unfold Rdot, rp2. cbn [px py pz vx vy vz]. ring. }
    symmetry. eapply (sorted_unique (fun a b => Rdot a (V3 (A := ArithR) 0%R 1%R 0%R) <= Rdot b (V3 (A := ArithR) 0%R 1%R 0%R))).
    - etransitivity; [|exact P]. clear.
      apply perm_skip. etransitivity; [apply perm_swap|]. apply perm_skip, perm_skip, perm_skip. apply perm_swap.
    - repeat first [apply SSorted_cons | apply SSorted_nil | apply Forall_cons | apply Forall_nil | rewrite !D; lra].
    - exact S.
    - intros a b Ha Hb. cbn [In] in Ha, Hb.
      repeat match goal with H : _ \/ _ |- _ => destruct H as [H|H] | H : False |- _ => destruct H end; subst a b;
        rewrite !D; intros; try reflexivity; exfalso; lra. }
  rewrite even_pairs; [|assumption|].
  - rewrite E. reflexivity.
  - rewrite H. reflexivity.
Qed.

(** Two closed contours with a vertex on the fill plane each: part of the returned fill
    runs outside both, whatever sort.Slice does with equal points. *)
Theorem C64_vertex_refuted : exists ps pl, Forall closed ps /\
  vz (pl_n pl) = 0%R /\ (vx (pl_n pl) : R) <> 0 /\
  forall U, legal U -> exists a b, In [a; b] (intersectByPlane U ps pl) /\
    exists q, on_seg a b q /\
      forall p u v w e, In p ps -> p = [u; v; w; e] -> ~ in_tri u v w q.
Proof.
  exists [tip 0; tip 3], cutX. split.
  { constructor; [|constructor; [|constructor]]; unfold tip; eexists; eexists [_; _]; reflexivity. }
  split; [unfold cutX, axisX; cbn [pl_n vz]; rcbn; lra|].
  split; [unfold cutX, axisX; cbn [pl_n vx]; rcbn; lra|].
  intros U L. rewrite (legal_pairs U L). exists (rp2 0 1), (rp2 0 3). split; [right; now left|].
  exists (rp2 0 2). split.
  { exists (1 / 2). split; [lra|]. unfold along, rp2, X, Y, Z3. cbn [px py pz]. f_equal; rcbn; lra. }
  intros p u v w e Hp Ep (x & y & z & Px & Py & Pz & S & Q).
  destruct Hp as [<-|[<-|[]]]; unfold tip in Ep; injection Ep as <- <- <- _; apply (f_equal py) in Q;
    unfold comb3, rp2, X, Y, Z3 in Q; cbn [px py pz] in Q; cbn [num ArithR] in Q; rcbn; lra.
Qed.
End Vertex.

(** ** The hypotheses are met *)

(** C45, C46 *)
Definition gR : @gsett ArithR := GSett (A := ArithR) (175 / 100)%R 1%R (2 / 10)%R (4 / 10)%R false 3000 1500 2000 false 0 0%R.
Definition sR (d : Z) : @settings ArithR :=
  Settings (A := ArithR) gR EmptyString (1 / 100)%R (2 / 10)%R (8 / 10)%R d 60 200 0 (rp2 0 0) EmptyString EmptyString 0%R
    (axisZ (A := ArithR)) false 0%R 0 0 0.
Example ex_cover : let m := [newTriangle (A := ArithR) (rp2 0 0) (rp2 10 0) (rp2 0 10)] in
  Forall (fun p => in_range (X p) /\ in_range (Y p)) (vertices m) /\
  (exists w, In w (vertices m) /\ (X w <> 0 \/ Y w <> 0)%R) /\
  (0 < s_fillDensity (sR 20))%Z /\ (0 < LineWidth (s_g (sR 20)))%R.
Proof.
  cbv zeta. assert (B : (10 <= IZR ((2 ^ 53 - 1) * 2 ^ 971))%R) by (apply IZR_le; lia).
  split; [|split; [|split]].
  - cbn [vertices flat_map newTriangle t1 t2 t3 app].
    repeat (apply Forall_cons || apply Forall_nil); unfold in_range, X, Y, rp2; cbn [px py]; rewrite ?Rabs_R0, ?(Rabs_pos_eq 10) by lra; split; lra.
  - exists (rp2 10 0). split; [cbn; tauto|]. left. unfold X, rp2. cbn [px]. lra.
  - reflexivity.
  - cbn. lra.
Qed.

(** C62: a square cut in the middle *)
Example ex_even_odd : let sq := [rp2 0 0; rp2 2 0; rp2 2 2; rp2 0 2; rp2 0 0] in
  let pl := Pl (rp2 1 0) (axisX (A := ArithR)) in
  closed sq /\ general_position pl [sq] /\ vz (pl_n pl) = 0%R /\ (vx (pl_n pl) : R) <> 0%R /\
  length (crossing_sides pl [sq]) = 2%nat.
Proof.
  cbv zeta.
  assert (D : forall x y, sd (Pl (rp2 1 0) (axisX (A := ArithR))) (rp2 x y) = (x - 1)%R).
  { intros. unfold sd, rp2, X, Y, Z3, axisX. cbn [pl_p pl_n px py pz vx vy vz]. rcbn. lra. }
  split; [exists (rp2 0 0), [rp2 2 0; rp2 2 2; rp2 0 2]; reflexivity|].
  split.
  { intros p q [<-|[]] Hq. cbn [In] in Hq.
    repeat match goal with H : _ \/ _ |- _ => destruct H as [H|H] | H : False |- _ => destruct H end; subst q; rewrite D; lra. }
  split; [unfold axisX; cbn [pl_n vz]; rcbn; lra|]. split; [unfold axisX; cbn [pl_n vx]; rcbn; lra|].
  unfold crossing_sides. cbn [flat_map sides app filter fst snd]. rewrite !D.
  repeat (destruct Rlt_dec; try lra). reflexivity.
Qed.

(** float64: C47, C48, C63 *)
Section Runs.
Let AF := ArithF64 elem0.
Existing Instance AF.
Definition fseg (a b : Z) : @path AF := [zpt a 0 0; zpt b 0 0].
Definition ends_of (f : path) : list point := firstn 1 f ++ firstn 1 (rev f).
Lemma ends_of_ok (f : path) q : is_end q f -> In q (ends_of f).
Proof.
  unfold ends_of. intros [[r ->]|[r ->]]; apply in_app_iff; [left; now left|right].
  rewrite rev_app_distr. now left.
Qed.
Definition nearb (fs : list path) : bool :=
  forallb (fun f => forallb (fun g => forallb (fun q => forallb (fun r => nltb (distanceTo q r) maxFloat32) (ends_of g)) (ends_of f)) fs) fs.
Lemma nearb_ok fs : nearb fs = true -> near_ends fs.
Proof.
  intros H f g q r Hf Hg Hq Hr. unfold nearb in H.
  rewrite forallb_forall in H. specialize (H f Hf). cbv beta in H.
  rewrite forallb_forall in H. specialize (H g Hg). cbv beta in H.
  rewrite forallb_forall in H. specialize (H q (ends_of_ok f q Hq)). cbv beta in H.
  rewrite forallb_forall in H. exact (H r (ends_of_ok g r Hr)).
Qed.
(** the second path is visited last and reversed *)
Example ex_near : near_ends [fseg 0 1; fseg 9 7; fseg 2 3] /\
  match sortFillPathes [fseg 0 1; fseg 9 7; fseg 2 3] with
  | Ok out => map (map (fun p => ntoZ (px p))) out
  | _ => []
  end = [[0; 1]; [2; 3]; [7; 9]]%Z.
Proof. split; [apply nearb_ok|]; vm_compute; reflexivity. Qed.

(** a path 10^39 away is lost and the first one is printed twice *)
Definition big : Z := 10 ^ 39.
Example ex_far : far_ends (fseg 0 1) [fseg big big] /\ fseg big big <> fseg 0 1.
Proof.
  split.
  - intros f q e [<-|[]] Hq He. assert (Hq' := ends_of_ok _ _ Hq). assert (He' := ends_of_ok _ _ (or_intror He)).
    destruct Hq' as [<-|[<-|[]]]; (destruct He' as [<-|[<-|[]]]; [vm_compute; reflexivity|vm_compute; reflexivity]).
  - intros H. apply (f_equal (fun f : @path AF => match f with p :: _ => neqb (px p) (@nofZ AF 0) | [] => false end)) in H.
    vm_compute in H. discriminate.
Qed.

(** a layer with a square outline is filled *)
Definition sqF : @path AF := [zpt 0 0 0; zpt 2 0 0; zpt 2 2 0; zpt 0 2 0; zpt 0 0 0].
Example ex_fill : match fillLayers env0 [Layer_ 0 (V3 n0 n0 n1) [sqF] [] None []; Layer_ 1 (V3 n0 n0 n1) [sqF] [] None []]
    [Pl (zpt 1 0 0) axisX] [] (sett0 n1) with
  | Ok ls => map (fun l => map (map (fun p => (ntoZ (px p), ntoZ (py p)))) (l_fill l)) ls
  | _ => []
  end = [[[(1, 0); (1, 2)]]; [[(1, 0); (1, 2)]]]%Z.
Proof. vm_compute. reflexivity. Qed.
Definition with_density (d : Z) : @settings AF :=
  Settings gs0 EmptyString (nlit 1 100) n1 (nlit 8 10) d 60 200 0 (zpt 0 0 0) EmptyString EmptyString n0 (V3 n0 n0 n1) false n0 0 0 0.
(** density 1 as squares: nothing, although density 2 gives planes *)
Example ex_density : is_finite_strict (LineWidth (s_g (with_density 1)) : f64) && negb (Bsign (LineWidth (s_g (with_density 1)) : f64)) = true /\
  length (calcFillPlanesSquares tetraF (with_density 1)) = 0%nat /\ length (calcFillPlanesSquares tetraF (with_density 2)) = 4%nat.
Proof. repeat split; vm_compute; reflexivity. Qed.
End Runs.

Print Assumptions C45_multiples.
Print Assumptions C45_lines_cover.
Print Assumptions C45_full_cover.
Print Assumptions C46_squares_miss.
Print Assumptions C47_fill.
Print Assumptions C48_greedy.
Print Assumptions C48_far.
Print Assumptions C48_total.
Print Assumptions C49_on_contours.
Print Assumptions C49_ordered.
Print Assumptions C62_even_odd.
Print Assumptions C63_squares.
Print Assumptions C63_triangles.
Print Assumptions C64_vertex_refuted.
