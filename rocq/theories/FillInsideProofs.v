(** * The fill is inside the contours: proofs *)
From Coq Require Import Reals Lra Lia List Bool ZArith PeanoNat Permutation.
From Verif Require Import Arith ArithR Prim Path GeomSpec GeomProofs Gcode Slicer SlicerClaims Fill FillClaims FillProofs FillProofs2 FillProofs3 InsideClaims InsideProofs.
Import ListNotations.
Close Scope Z_scope.
Close Scope num_scope.
Local Open Scope R_scope.

Fixpoint cnt_all (a : Rpoint) (dx dy : R) (ps : list (list Rpoint)) : nat :=
  match ps with [] => 0%nat | p :: r => (cnt a dx dy p + cnt_all a dx dy r)%nat end.

Lemma crossed_cnt_all a dx dy ps n : Forall (fun p => free_dir a p dx dy) ps -> crossed_all a dx dy ps n -> n = cnt_all a dx dy ps.
Proof.
  intros F C. induction C as [|p ps m n H C IH]; [reflexivity|]. inversion F as [|? ? F1 F2]; subst. cbn [cnt_all].
  rewrite <- (crossed_cnt _ _ _ _ _ F1 H), <- (IH F2). reflexivity.
Qed.
Lemma cnt_crossed_all a dx dy ps : Forall (fun p => free_dir a p dx dy) ps -> crossed_all a dx dy ps (cnt_all a dx dy ps).
Proof.
  intros F. induction F as [|p ps H F IH]; cbn [cnt_all]; constructor; [now apply cnt_crossed|exact IH].
Qed.

Lemma closed_last (p : Rpath) : closed p -> returns p.
Proof.
  intros (b & m & ->). exists b, (m ++ [b]). split; [reflexivity|]. change (b :: m ++ [b]) with ((b :: m) ++ [b]). apply last_last.
Qed.

Lemma even_odd_all a d1 d2 e1 e2 ps : Forall returns ps -> Forall (beside a) ps ->
  Forall (fun p => free_dir a p d1 d2) ps -> Forall (fun p => free_dir a p e1 e2) ps ->
  Nat.odd (cnt_all a d1 d2 ps) = Nat.odd (cnt_all a e1 e2 ps).
Proof.
  intros C B F G. induction C as [|p ps Hp C IH]; [reflexivity|].
  inversion B as [|? ? B1 B2]; subst. inversion F as [|? ? F1 F2]; subst. inversion G as [|? ? G1 G2]; subst.
  cbn [cnt_all]. rewrite !Nat.odd_add, (IH B2 F2 G2). f_equal.
  destruct Hp as (b & r & -> & L). apply even_odd; assumption.
Qed.

(** a direction along a vertical plane measures the positions relative to the plane *)
Lemma pos_plane (pl : Rplane) (q : Rpoint) dx dy : vz (pl_n pl) = 0 -> (vx (pl_n pl) : R) <> 0 \/ (vy (pl_n pl) : R) <> 0 ->
  dx * vx (pl_n pl) + dy * vy (pl_n pl) = 0 -> dx <> 0 \/ dy <> 0 -> sd pl q = 0 ->
  exists k, k <> 0 /\ forall b, pos q dx dy b = k * sd pl b.
Proof.
  intros Z N D ND S. set (nx := vx (pl_n pl) : R) in *. set (ny := vy (pl_n pl) : R) in *.
  assert (N2 : 0 < nx * nx + ny * ny).
  { pose proof (Rle_0_sqr nx) as S1. pose proof (Rle_0_sqr ny) as S2. unfold Rsqr in S1, S2. destruct N as [Q|Q]; apply Rsqr_pos_lt in Q; unfold Rsqr in Q; lra. }
  assert (Sd : forall b, sd pl b = (X b - X q) * nx + (Y b - Y q) * ny).
  { intros b. replace (sd pl b) with (sd pl b - sd pl q) by lra. unfold sd, nx, ny. rewrite Z. ring. }
  set (k := (dx * ny - dy * nx) / (nx * nx + ny * ny)).
  assert (A : dx = k * ny).
  { unfold k. apply Rmult_eq_reg_r with (nx * nx + ny * ny); [|lra].
    replace ((dx * ny - dy * nx) / (nx * nx + ny * ny) * ny * (nx * nx + ny * ny)) with ((dx * ny - dy * nx) * ny) by (field; lra).
    transitivity (nx * (dx * nx) + dx * (ny * ny)); [ring|]. replace (dx * nx) with (- (dy * ny)) by lra. ring. }
  assert (B : dy = - (k * nx)).
  { unfold k. apply Rmult_eq_reg_r with (nx * nx + ny * ny); [|lra].
    replace (- ((dx * ny - dy * nx) / (nx * nx + ny * ny) * nx) * (nx * nx + ny * ny)) with (- ((dx * ny - dy * nx) * nx)) by (field; lra).
    transitivity (ny * (dy * ny) + dy * (nx * nx)); [ring|]. replace (dy * ny) with (- (dx * nx)) by lra. ring. }
  exists k. split; [intros K; rewrite K in A, B; destruct ND; lra|]. intros b. rewrite Sd. unfold pos. rewrite A, B. ring.
Qed.

Section Plane.
Variable pl : Rplane.
Variable q : Rpoint.
Variable d : Rvector.
Hypothesis Hz : vz (pl_n pl) = 0.
Hypothesis Hn : (vx (pl_n pl) : R) <> 0 \/ (vy (pl_n pl) : R) <> 0.
Hypothesis Hd : along_cut pl d.
Hypothesis Hq : sd pl q = 0.
Let dx : R := vx d.
Let dy : R := vy d.

Lemma back_pos : exists k, k <> 0 /\ forall b, pos q (- dx) (- dy) b = k * sd pl b.
Proof.
  destruct Hd as (_ & D & N). apply pos_plane; try assumption.
  - fold dx dy in D. unfold dx, dy in *. rcbn. lra.
  - fold dx dy in N. destruct N; [left|right]; lra.
Qed.

Lemma d2_pos : 0 < dx * dx + dy * dy.
Proof.
  destruct Hd as (_ & _ & N). fold dx dy in N. pose proof (Rle_0_sqr dx) as S1. pose proof (Rle_0_sqr dy) as S2. unfold Rsqr in S1, S2.
  destruct N as [Q|Q]; apply Rsqr_pos_lt in Q; unfold Rsqr in Q; lra.
Qed.

Lemma Rdot_d x : Rdot x d = X x * dx + Y x * dy.
Proof. destruct Hd as (Z & _). unfold Rdot, dx, dy, X, Y in *. rcbn. rewrite Z. ring. Qed.

(** a crossing before q is a side crossed by the ray that goes back *)
Lemma side_back b c x : sd pl b <> 0 -> sd pl c <> 0 -> on_seg b c x -> sd pl x = 0 ->
  (hits q (- dx) (- dy) b c <-> Rdot x d < Rdot q d).
Proof.
  intros Nb Nc (t & Ht & ->) Sx. pose proof d2_pos as D2. destruct back_pos as (k & Nk & Pk). rewrite !Rdot_d.
  split.
  - intros (s & t' & Hs & Ht' & Ex & Ey).
    assert (T : t' = t).
    { assert (S' : sd pl (along b c t') = 0).
      { apply Rmult_eq_reg_l with k; [|exact Nk]. rewrite <- Pk, Rmult_0_r. unfold pos, along, X, Y. cbn [px py]. unfold X, Y in Ex, Ey. rcbn. rewrite Ex, Ey. ring. }
      rewrite sd_along in Sx, S'. assert (Q : (t' - t) * (sd pl c - sd pl b) = 0) by lra. apply Rmult_integral in Q. destruct Q as [Q|Q]; [lra|].
      exfalso. apply Nb. rewrite Q in Sx. lra. }
    subst t'. assert (Ax : X (along b c t) = X q + s * - dx) by exact Ex. assert (Ay : Y (along b c t) = Y q + s * - dy) by exact Ey.
    rewrite Ax, Ay. assert (0 < s * (dx * dx + dy * dy)) by (apply Rmult_lt_0_compat; assumption). lra.
  - intros L. set (x := along b c t) in *.
    assert (P0 : pos q (- dx) (- dy) x = 0) by (rewrite Pk, Sx; ring). unfold pos in P0.
    set (s := (X q * dx + Y q * dy - (X x * dx + Y x * dy)) / (dx * dx + dy * dy)).
    assert (Es : s * (dx * dx + dy * dy) = X q * dx + Y q * dy - (X x * dx + Y x * dy)) by (unfold s; field; lra).
    exists s, t. assert (Hs : 0 < s) by (unfold s; apply Rdiv_lt_0_compat; lra).
    assert (t <> 0) by (intros ->; apply Nb; rewrite <- Sx; unfold x; rewrite sd_along; ring).
    assert (t <> 1) by (intros ->; apply Nc; rewrite <- Sx; unfold x; rewrite sd_along; ring).
    split; [exact Hs|]. split; [lra|].
    assert (Ax : X x = X q + s * - dx).
    { apply Rmult_eq_reg_r with (dx * dx + dy * dy); [|lra].
      transitivity (X q * (dx * dx + dy * dy) - (s * (dx * dx + dy * dy)) * dx); [|ring]. rewrite Es.
      transitivity (X x * dx * dx + dy * (dy * (X x - X q)) + X q * dy * dy); [ring|]. replace (dy * (X x - X q)) with (dx * (Y x - Y q)) by lra. ring. }
    assert (Ay : Y x = Y q + s * - dy).
    { apply Rmult_eq_reg_r with (dx * dx + dy * dy); [|lra].
      transitivity (Y q * (dx * dx + dy * dy) - (s * (dx * dx + dy * dy)) * dy); [|ring]. rewrite Es.
      transitivity (Y x * dy * dy + dx * (dx * (Y x - Y q)) + Y q * dx * dx); [ring|]. replace (dx * (Y x - Y q)) with (dy * (X x - X q)) by lra. ring. }
    split; [exact Ax|exact Ay].
Qed.

Fixpoint cnt_sides (l : list (Rpoint * Rpoint)) : nat :=
  match l with
  | [] => 0%nat
  | (b, c) :: r => ((if hitb (pos q (- dx) (- dy) b) (pos q (- dx) (- dy) c) (area q b c) then 1 else 0) + cnt_sides r)%nat
  end.

Lemma cnt_sides_app l r : cnt_sides (l ++ r) = (cnt_sides l + cnt_sides r)%nat.
Proof. induction l as [|(b, c) l IH]; [reflexivity|]. cbn [cnt_sides app]. rewrite IH. lia. Qed.

Lemma cnt_cnt_sides p : cnt q (- dx) (- dy) p = cnt_sides (sides p).
Proof. induction p as [|b [|c r] IH]; [reflexivity|reflexivity|]. cbn [cnt sides cnt_sides] in *. rewrite IH. reflexivity. Qed.

Lemma cnt_all_sides ps : cnt_all q (- dx) (- dy) ps = cnt_sides (flat_map sides ps).
Proof. induction ps as [|p ps IH]; [reflexivity|]. cbn [cnt_all flat_map]. rewrite cnt_sides_app, IH, cnt_cnt_sides. reflexivity. Qed.

Lemma before_cnt : forall (l : list (Rpoint * Rpoint)) cs,
  Forall (fun bc => sd pl (fst bc) <> 0 /\ sd pl (snd bc) <> 0) l ->
  Forall2 (fun ab c => on_seg (fst ab) (snd ab) c /\ sd pl c = 0)
    (filter (fun ab => if Rlt_dec (sd pl (fst ab) * sd pl (snd ab)) 0 then true else false) l) cs ->
  before d (Rdot q d) cs = cnt_sides l.
Proof.
  destruct back_pos as (k & Nk & Pk).
  induction l as [|(b, c) l IH]; intros cs F C.
  - inversion C; subst. reflexivity.
  - inversion F as [|? ? (Fb & Fc) F2]; subst. cbn [fst snd] in Fb, Fc.
    assert (Pb : pos q (- dx) (- dy) b <> 0) by (rewrite Pk; apply Rmult_integral_contrapositive_currified; assumption).
    assert (Pc : pos q (- dx) (- dy) c <> 0) by (rewrite Pk; apply Rmult_integral_contrapositive_currified; assumption).
    cbn [filter fst snd] in C. cbn [cnt_sides]. destruct (Rlt_dec (sd pl b * sd pl c) 0) as [L|L].
    + inversion C as [|? x ? cs' (O & S) C']; subst. cbn [fst snd] in O.
      specialize (IH cs' F2 C'). unfold before in *. cbn [filter]. unfold hitb.
      pose proof (side_back b c x Fb Fc O S) as H. rewrite (hits_signs _ _ _ _ _ Pb Pc) in H.
      destruct (Rlt_dec (Rdot x d) (Rdot q d)) as [K|K], (hit_s_dec _ _ _) as [J|J]; try tauto; cbn [length]; rewrite IH; reflexivity.
    + rewrite (IH cs F2 C). unfold hitb. destruct (hit_s_dec _ _ _) as [(J & _)|_]; [exfalso|reflexivity].
      apply L. rewrite !Pk in J. apply (cancel_neg (k * k)); [apply square_nonzero; exact Nk|]. replace (k * k * (sd pl b * sd pl c)) with (k * sd pl b * (k * sd pl c)) by ring. exact J.
Qed.
End Plane.

Lemma same_point (pl : Rplane) (d : Rvector) x y : vz (pl_n pl) = 0 -> (vx (pl_n pl) : R) <> 0 \/ (vy (pl_n pl) : R) <> 0 ->
  along_cut pl d -> sd pl x = 0 -> sd pl y = 0 -> Rdot x d = Rdot y d -> X x = X y /\ Y x = Y y.
Proof.
  intros Z N D Sx Sy E. destruct (back_pos pl y d Z N D Sy) as (k & Nk & Pk). pose proof (d2_pos pl d D) as D2.
  rewrite !(Rdot_d pl d D) in E. specialize (Pk x). rewrite Sx, Rmult_0_r in Pk. unfold pos in Pk.
  set (dx := vx d : R) in *. set (dy := vy d : R) in *.
  assert (Ax : (X x - X y) * (dx * dx + dy * dy) = 0).
  { transitivity (dx * ((X x - X y) * dx) + dy * (dy * (X x - X y))); [ring|]. replace (dy * (X x - X y)) with (dx * (Y x - Y y)) by lra.
    transitivity (dx * ((X x * dx + Y x * dy) - (X y * dx + Y y * dy))); [ring|]. rewrite E. ring. }
  assert (Ay : (Y x - Y y) * (dx * dx + dy * dy) = 0).
  { transitivity (dy * ((Y x - Y y) * dy) + dx * (dx * (Y x - Y y))); [ring|]. replace (dx * (Y x - Y y)) with (dy * (X x - X y)) by lra.
    transitivity (dy * ((X x * dx + Y x * dy) - (X y * dx + Y y * dy))); [ring|]. rewrite E. ring. }
  apply Rmult_integral in Ax, Ay. lra.
Qed.

Lemma sides_next p b c : In (b, c) (sides p) -> next_in p b c.
Proof.
  induction p as [|x [|y r] IH]; cbn [sides]; intros H; [destruct H|destruct H|]. destruct H as [H|H].
  - injection H as -> ->. exists [], r. reflexivity.
  - destruct (IH H) as (l & r' & E). exists (x :: l), r'. now rewrite E.
Qed.

Lemma Forall2_right {S T} (R : S -> T -> Prop) l m : Forall2 R l m -> forall y, In y m -> exists x, In x l /\ R x y.
Proof.
  intros F. induction F as [|x y l m H F IH]; intros z [].
  - subst. exists x. split; [now left|assumption].
  - destruct (IH z H0) as (w & I & K). exists w. split; [now right|assumption].
Qed.

Lemma crossings_on pl ps cs c : crossings pl ps cs -> In c cs ->
  sd pl c = 0 /\ exists p a b, In p ps /\ next_in p a b /\ on_seg a b c.
Proof.
  intros C I. destruct (Forall2_right _ _ _ C c I) as ((a & b) & J & O & S). split; [exact S|]. cbn [fst snd] in O.
  unfold crossing_sides in J. apply filter_In in J. destruct J as (J & _). apply in_flat_map in J. destruct J as (p & Ip & J).
  exists p, a, b. split; [exact Ip|]. split; [now apply sides_next|exact O].
Qed.

Lemma sorted_pair {T} (R : T -> T -> Prop) (l : list (list T)) a b : Sorted.StronglySorted R (concat l) -> In [a; b] l -> R a b.
Proof.
  intros S I. apply in_split in I. destruct I as (l1 & l2 & ->). rewrite concat_app in S. cbn [concat] in S.
  induction (concat l1) as [|x m IH]; cbn [app] in S.
  - inversion S as [|? ? _ F]; subst. inversion F; subst. assumption.
  - inversion S; subst. auto.
Qed.

(** the even-odd rule along a plane, for contours of which some may be single points *)
Lemma returns_hits_even (pl : Rplane) (ps : list Rpath) : Forall returns ps -> general_position pl ps ->
  Nat.even (length (Fill.hits pl ps)) = true.
Proof.
  intros C G. induction C as [|p ps (a & r & E & La) C IH]; [reflexivity|].
  unfold Fill.hits. cbn [flat_map]. rewrite app_length, Nat.even_add. fold (Fill.hits pl ps).
  rewrite IH by (intros p' q H1 H2; apply (G p' q); [now right|assumption]).
  assert (Q : Nat.even (length (hits_path pl p)) = true); [|now rewrite Q].
  rewrite E. eapply (parity_path pl r a a).
  - intros q Hq. apply (G p q); [now left|]. now rewrite E.
  - rewrite E in La. exact La.
  - apply sq_pos_ne. apply (G p a); [now left|]. rewrite E. now left.
Qed.

Lemma returns_even_odd U pl (ps : list Rpath) : legal U -> vz (pl_n pl) = 0%R -> (vx (pl_n pl) : R) <> 0 \/ (vy (pl_n pl) : R) <> 0 ->
  Forall returns ps -> general_position pl ps ->
  forall t, (forall c, In c (Fill.hits pl ps) -> Rdot c (heading (pl_n pl)) <> t) ->
  (exists a b, In [a; b] (intersectByPlane U ps pl) /\ Rdot a (heading (pl_n pl)) < t < Rdot b (heading (pl_n pl))) <->
  Nat.odd (before (heading (pl_n pl)) t (Fill.hits pl ps)) = true.
Proof.
  intros L Z N C G t T. rewrite (even_pairs U pl ps L (returns_hits_even pl ps C G)).
  pose proof (sort_hits_perm U pl (Fill.hits pl ps) L) as P. pose proof (hits_sorted U pl ps L Z N) as S.
  rewrite (before_perm _ t _ _ P). unfold before.
  eapply (pairs_even_odd (fun c => Rdot c (heading (pl_n pl))) t).
  - apply le_n.
  - etransitivity; [exact (f_equal Nat.even (eq_sym (Permutation_length P)))|]. now apply returns_hits_even.
  - exact S.
  - intros c Hc. apply T. eapply Permutation_in; [exact (Permutation_sym P)|exact Hc].
Qed.
