(** C103 and C104: the walls of a contour. *)
From Coq Require Import ZArith Reals Lra Lia List Bool.
From Flocq Require Import IEEE754.BinarySingleNaN.
From Verif Require Import Arith ArithR ArithF64 Prim Path PathClaims GeomSpec GeomProofs MeshProofs Helpers HelperClaims HelperProofs2 Vip ClosedClaims OffsetClaims OffsetProofs Properties_Path.
Import ListNotations.
Close Scope Z_scope.
Close Scope num_scope.
Close Scope R_scope.

(** ** C103 Every point of a wall *)
(** The direction of the layer is (0, 0, k): k = 1 for walls, k = -1 for the skirt.
    Every point of the wall is in the layer and at the distance w, to the right of it
    (to the left for the skirt), from the line of some side of the contour. *)
Theorem C103_points : forall (k w h : R) (pth out : Rpath), (k = 1 \/ k = -1)%R ->
  level_at h pth -> Forall (fun e : side => fst e <> snd e) (path_sides pth) ->
  makeOffset pth w (V3 (A := ArithR) 0%R 0%R k) = Some out ->
  Forall (fun v => Z3 v = h /\ exists a b, In (a, b) (path_sides pth) /\ right_by (k * w) a b v) out.
Proof.
  intros k w h pth out Hk Lv Nd E. unfold makeOffset in E. destruct (length pth <? 2)%nat; [discriminate|].
  set (ls := map _ (segs pth)) in E. cbv zeta in E. destruct (_ <? 2)%nat eqn:Ln in E; [discriminate|]. injection E as <-.
  assert (K : (k * k = 1)%R) by (destruct Hk; subst; lra).
  assert (S : Forall (shifted (k * w) h pth) ls).
  { unfold ls. rewrite segs_sides. apply Forall_forall. intros l Hl. apply in_map_iff in Hl. destruct Hl as ([a b] & El & I). rewrite Forall_forall in Nd. specialize (Nd _ I). cbn [fst snd] in Nd.
    destruct (sides_in pth a b I) as [Ia Ib]. unfold level_at in Lv. rewrite Forall_forall in Lv. pose proof (Lv a Ia) as Ha. pose proof (Lv b Ib) as Hb. cbn beta in Ha, Hb.
    assert (L : (0 < len2 a b)%R) by (apply len2_pos; [exact Nd|congruence]).
    exists a, b. split; [exact I|]. split; [exact L|]. split; [exact Ha|]. split; [exact Hb|]. rewrite <- El. apply shift_flat; [exact K|exact L|congruence]. }
  pose proof (path_good (k * w) h pth (isClosed pth) ls S) as G. set (tr := trim_path (isClosed pth) ls) in *.
  assert (G' : Forall (fun x => good (k * w) h pth (lp1 x) /\ good (k * w) h pth (lp2 x)) (keep_lines tr ls)).
  { unfold keep_lines. apply Forall_forall. intros x Hx. apply in_map_iff in Hx. destruct Hx as ([n b] & <- & Hx). apply filter_In in Hx. destruct Hx as [Hx _]. apply in_combine_l in Hx. rewrite Forall_forall in G. exact (G n Hx). }
  assert (P : Forall (good (k * w) h pth) (lines_points (keep_lines tr ls))).
  { clear -G'. unfold lines_points. destruct (keep_lines tr ls) as [|l r]; [constructor|]. constructor; [apply (Forall_inv G')|].
    apply Forall_forall. intros v Hv. apply in_map_iff in Hv. destruct Hv as (x & <- & Hx). rewrite Forall_forall in G'. apply (G' x Hx). }
  destruct (lines_points (keep_lines tr ls)) as [|v0 vs] eqn:Ev; [constructor|].
  destruct (C35_minimize (A := ArithR) (v0 :: vs) v0 ltac:(discriminate)) as (_ & I & _).
  apply Forall_forall. intros v Hv. rewrite Forall_forall in P. apply P. apply I. exact Hv.
Qed.

(** ** C104 The wall of a well-shaped contour *)
(** The contour is closed by its first point p0; qs are the corners of the wall at
    p1, ..., p0. The wall is the closed line through them, except that at p1 it goes
    to the end of the first side, moved sideways. *)
Theorem C104_wall : forall (k w h : R) (p0 p1 : Rpoint) (r : list Rpoint) (qs : list Rpoint), (k = 1 \/ k = -1)%R ->
  let pth := p0 :: p1 :: r ++ [p0] in let q0 := last qs p0 in let w' := (k * w)%R in
  level_at h pth -> Forall (fun e : side => fst e <> snd e) (path_sides pth) ->
  fits w' (aside w' p0 p1 p0) (triples (pth ++ [p1])) qs ->
  Forall2 (fun e x : side => forward (fst e) (snd e) (fst x) (snd x)) (path_sides pth) (path_sides (q0 :: qs)) ->
  forward p0 p1 q0 (aside w' p0 p1 p1) ->
  makeOffset pth w (V3 (A := ArithR) 0%R 0%R k) = Some (minimizeLines (q0 :: aside w' p0 p1 p1 :: tl qs)).
Proof.
  intros k w h p0 p1 r qs Hk pth q0 w' Lv Nd F Fw F0.
  assert (K : (k * k = 1)%R) by (destruct Hk; subst; lra).
  assert (Ls : Forall (fun e : side => (0 < len2 (fst e) (snd e) /\ Z3 (fst e) = Z3 (snd e))%R) (path_sides pth)).
  { apply Forall_forall. intros [a b] I. rewrite Forall_forall in Nd. specialize (Nd _ I). cbn [fst snd] in *.
    destruct (sides_in pth a b I) as [Ia Ib]. unfold level_at in Lv. rewrite Forall_forall in Lv. pose proof (Lv a Ia) as Ha. pose proof (Lv b Ib) as Hb. cbn beta in Ha, Hb.
    split; [apply len2_pos; [exact Nd|congruence]|congruence]. }
  unfold makeOffset. match goal with |- (if ?b then _ else _) = _ => change b with false end. cbv iota zeta.
  assert (El : map (shift_line w (vopp (V3 (A := ArithR) 0%R 0%R k))) (segs pth) = map (sh w') (path_sides pth)).
  { rewrite segs_sides. apply map_ext_in. intros [a b] I. rewrite Forall_forall in Ls. destruct (Ls _ I) as [L Z]. apply shift_flat; assumption. }
  rewrite El.
  assert (Cl : isClosed pth = true).
  { unfold pth, isClosed. change (p0 :: p1 :: r ++ [p0]) with ((p0 :: p1 :: r) ++ [p0]). rewrite last_last. unfold pt_equal. rewrite !andb_true_iff.
    assert (Z : forall x : R, almostZero (A := ArithR) (x - x)%R = true) by (intros x; apply almostZero_R; replace (x - x)%R with 0%R by lra; rewrite Rabs_R0; lra).
    repeat split; apply Z. }
  rewrite Cl.
  (* the trimmed lines *)
  set (e := aside w' p0 p1 p1).
  assert (L01 : (0 < len2 p0 p1 /\ Z3 p0 = Z3 p1)%R) by (apply (Forall_inv Ls)). destruct L01 as [L01 Z01].
  assert (App : forall (x : Rpoint) (l : list Rpoint) y, path_sides (x :: l ++ [y]) = path_sides (x :: l) ++ [(last l x, y)]).
  { clear. intros x l. revert x. induction l as [|z l IH]; intros x y; [reflexivity|]. change (path_sides (x :: (z :: l) ++ [y])) with ((x, z) :: path_sides (z :: l ++ [y])). rewrite IH.
    change (path_sides (x :: z :: l)) with ((x, z) :: path_sides (z :: l)). cbn [app]. do 3 f_equal. destruct l as [|u l]; [reflexivity|]. clear. change (last (z :: u :: l) x) with (last (u :: l) x). revert u. induction l as [|v l IH]; intros u; [reflexivity|]. exact (IH v). }
  assert (Tp : trim_path true (map (sh w') (path_sides pth)) = lines_of (q0 :: [e]) ++ lines_of qs).
  { unfold pth at 1. change (path_sides (p0 :: p1 :: r ++ [p0])) with ((p0, p1) :: path_sides (p1 :: r ++ [p0])). cbn [map trim_path].
    assert (Lst : forall (d : Rpoint), last (p1 :: r ++ [p0]) d = p0) by (intros d; change (p1 :: r ++ [p0]) with ((p1 :: r) ++ [p0]); apply last_last).
    assert (Er : map (sh w') (path_sides (p1 :: r ++ [p0])) ++ [sh w' (p0, p1)] = map (sh w') (path_sides (p1 :: (r ++ [p0]) ++ [p1]))).
    { etransitivity; [|symmetry; exact (f_equal (map (sh w')) (App p1 (r ++ [p0]) p1))]. rewrite map_app, last_last. reflexivity. }
    assert (Tr : trim_lines (L2 (A := ArithR) (aside w' p0 p1 p0) e) (map (sh w') (path_sides (p1 :: r ++ [p0])) ++ [sh w' (p0, p1)]) = lines_of (aside w' p0 p1 p0 :: qs ++ [e])).
    { etransitivity; [exact (f_equal (trim_lines _) Er)|]. apply (trim_fits w' ((r ++ [p0]) ++ [p1]) p0 p1 (aside w' p0 p1 p0) qs e).
      - assert (Zs : Z3 (aside w' p0 p1 p0) = h). { unfold level_at in Lv. pose proof (Forall_inv Lv) as Z. exact Z. } rewrite Zs. unfold level_at in *. change (p0 :: p1 :: (r ++ [p0]) ++ [p1]) with (pth ++ [p1]). apply Forall_app. split; [exact Lv|]. constructor; [|constructor]. rewrite Forall_forall in Lv. apply Lv. right. now left.
      - change (path_sides (p0 :: p1 :: (r ++ [p0]) ++ [p1])) with (path_sides (p0 :: (p1 :: r ++ [p0]) ++ [p1])). rewrite (App p0 (p1 :: r ++ [p0]) p1). apply Forall_app. split.
        + eapply Forall_impl; [|exact Ls]. now intros x [A _].
        + constructor; [|constructor]. cbn [fst snd]. rewrite Lst. exact L01.
      - now apply aside_right.
      - exact F.
      - unfold e. change (path_sides (p0 :: p1 :: (r ++ [p0]) ++ [p1])) with (path_sides (p0 :: (p1 :: r ++ [p0]) ++ [p1])). rewrite (App p0 (p1 :: r ++ [p0]) p1), last_last. cbv zeta. cbn [fst snd]. now rewrite Lst. }
    match goal with |- context [trim_lines ?l ?x] => change (trim_lines l x) with (trim_lines (L2 (A := ArithR) (aside w' p0 p1 p0) e) (map (sh w') (path_sides (p1 :: r ++ [p0])) ++ [sh w' (p0, p1)])) end.
    rewrite Tr. clear Tr Er.
    assert (Nq : qs <> []). { intros ->. unfold pth in F. cbn [triples app] in F. destruct r as [|r0 r']; cbn [app] in F; inversion F. }
      unfold q0. clear -Nq. destruct (@exists_last _ qs Nq) as (us & u & ->). rewrite last_last. clear Nq.
      unfold lines_of.
      change (aside w' p0 p1 p0 :: (us ++ [u]) ++ [e]) with (aside w' p0 p1 p0 :: (us ++ [u]) ++ [e]).
      set (s := aside w' p0 p1 p0).
      assert (App' : forall (x : Rpoint) (l : list Rpoint) y, path_sides (x :: l ++ [y]) = path_sides (x :: l) ++ [(last l x, y)]).
      { clear. intros x l. revert x. induction l as [|z l IH]; intros x y; [reflexivity|]. change (path_sides (x :: (z :: l) ++ [y])) with ((x, z) :: path_sides (z :: l ++ [y])). rewrite IH.
        change (path_sides (x :: z :: l)) with ((x, z) :: path_sides (z :: l)). cbn [app]. do 3 f_equal. destruct l as [|v l]; [reflexivity|]. clear. change (last (z :: v :: l) x) with (last (v :: l) x). revert v. induction l as [|v2 l IH]; intros v; [reflexivity|]. exact (IH v2). }
      destruct us as [|x us].
      + reflexivity.
      + cbn [app]. change (path_sides (s :: x :: (us ++ [u]) ++ [e])) with ((s, x) :: path_sides (x :: (us ++ [u]) ++ [e])). cbn [map].
        rewrite (App' x (us ++ [u]) e), map_app. cbn [map]. rewrite last_last, removelast_last. rewrite last_last. reflexivity. }
  rewrite Tp.
  (* no line is removed *)
  assert (Kp : keep_lines (lines_of [q0; e] ++ lines_of qs) (map (sh w') (path_sides pth)) = lines_of [q0; e] ++ lines_of qs).
  { unfold pth in Fw |- *. change (path_sides (p0 :: p1 :: r ++ [p0])) with ((p0, p1) :: path_sides (p1 :: r ++ [p0])) in Fw |- *.
    destruct qs as [|q1 qs]; [inversion Fw|]. change (path_sides (q0 :: q1 :: qs)) with ((q0, q1) :: path_sides (q1 :: qs)) in Fw. inversion Fw as [|? ? ? ? _ Fw']; subst.
    assert (Co : forall a b s q : Rpoint, Z3 a = Z3 b -> forward a b s q -> codirected (l_vec (L2 (A := ArithR) s q)) (l_vec (sh w' (a, b))) = true).
    { intros a b s q Hz H. unfold codirected, dot, l_vec, vectorTo, sh, aside, forward, X, Y, Z3 in *. cbn [fst snd lp1 lp2 px py pz vx vy vz]. rcbn. apply Rleb_true. rewrite Hz.
      match goal with |- (_ <= ?x)%R => replace x with ((px q - px s) * (px b - px a) + (py q - py s) * (py b - py a))%R by ring end. exact H. }
    unfold lines_of at 1 3. change (path_sides [q0; e]) with [(q0, e)]. cbn [map app fst snd]. unfold keep_lines. cbn [combine filter]. rewrite (Co p0 p1 q0 e Z01 F0). cbn [map fst]. f_equal.
    assert (Lz : Forall (fun x : side => Z3 (fst x) = Z3 (snd x)) (path_sides (p1 :: r ++ [p0]))).
    { pose proof (Forall_inv_tail Ls) as T. eapply Forall_impl; [|exact T]. now intros x [_ B]. }
    unfold lines_of. clear -Fw' Co Lz. induction Fw' as [|[a b] [s q] es xs H Fw' IH]; [reflexivity|]. cbn [map combine filter fst snd].
    pose proof (Forall_inv Lz) as Z. cbn [fst snd] in Z, H. rewrite (Co a b s q Z H). cbn [map fst]. f_equal. apply IH. exact (Forall_inv_tail Lz). }
  rewrite Kp.
  assert (Ln : (length (lines_of [q0; e] ++ lines_of qs) <? 2)%nat = false).
  { apply Nat.ltb_ge. rewrite app_length. unfold lines_of at 1. cbn [map path_sides tl combine length].
    assert (Nq : (2 <= length qs)%nat).
    { assert (Fl := Fw). clear Fw. assert (Fw : length (path_sides pth) = length (path_sides (q0 :: qs))) by (clear -Fl; induction Fl; cbn [length]; congruence). clear -Fw. unfold pth in Fw. unfold path_sides, side in Fw. cbn [tl] in Fw. rewrite !combine_length in Fw. cbn [length] in Fw. rewrite app_length in Fw. cbn [length] in Fw. unfold Rpoint in *. lia. }
    destruct qs as [|q1 [|q2 qs]]; cbn in Nq |- *; lia. }
  match goal with |- (if ?b then _ else _) = _ => assert (Hb : b = false) by exact Ln; rewrite Hb end. do 2 f_equal. unfold lines_of at 1. change (path_sides [q0; e]) with [(q0, e)]. cbn [map app fst snd lines_points lp1 lp2]. do 2 f_equal.
  unfold lines_of. clear. destruct qs as [|q qs]; [reflexivity|]. cbn [tl]. revert q. induction qs as [|x qs IH]; intros q; [reflexivity|].
  change (path_sides (q :: x :: qs)) with ((q, x) :: path_sides (x :: qs)). cbn [map fst snd lp2]. f_equal. apply IH.
Qed.

(** a square of side 10 with walls at the distance 1 *)
Section Square.
Local Open Scope R_scope.
Definition sp (x y : R) : Rpoint := P3 (A := ArithR) x y 0.
Definition sq : Rpath := [sp 0 0; sp 0 10; sp 10 10; sp 10 0; sp 0 0].
Lemma len_side a b c d : (a = c \/ b = d) -> Rabs (c - a) + Rabs (d - b) = 10 -> len2 (sp a b) (sp c d) = 10.
Proof.
  intros H E. unfold len2, sp, X, Y. cbn [px py]. rcbn. destruct H as [-> | ->].
  - replace ((c - c) * (c - c) + (d - b) * (d - b)) with (Rsqr (d - b)) by (unfold Rsqr; ring). rewrite sqrt_Rsqr_abs. replace (c - c) with 0 in E by ring. rewrite Rabs_R0 in E. lra.
  - replace ((c - a) * (c - a) + (d - d) * (d - d)) with (Rsqr (c - a)) by (unfold Rsqr; ring). rewrite sqrt_Rsqr_abs. replace (d - d) with 0 in E by ring. rewrite Rabs_R0 in E. lra.
Qed.
Lemma sq_lens : len2 (sp 0 0) (sp 0 10) = 10 /\ len2 (sp 0 10) (sp 10 10) = 10 /\ len2 (sp 10 10) (sp 10 0) = 10 /\ len2 (sp 10 0) (sp 0 0) = 10.
Proof.
  repeat split; apply len_side; try (left; reflexivity); try (right; reflexivity);
    repeat match goal with |- context [Rabs ?x] => first [rewrite (Rabs_right x) by lra|rewrite (Rabs_left1 x) by lra] end; lra.
Qed.
Definition sq_corners : list Rpoint := [sp 1 9; sp 9 9; sp 9 1; sp 1 1].
Lemma sq_fits : fits (1 * 1) (aside (1 * 1) (sp 0 0) (sp 0 10) (sp 0 0)) (triples (sq ++ [sp 0 10])) sq_corners.
Proof.
  destruct sq_lens as (L1 & L2 & L3 & L4). unfold sq, sq_corners. cbn [app triples].
  assert (A1 : aside (1 * 1) (sp 0 0) (sp 0 10) (sp 0 0) = sp 1 0) by (unfold aside; rewrite L1; unfold sp, X, Y, Z3; cbn [px py pz]; rcbn; f_equal; match goal with |- @eq _ ?x ?y => change (@eq R x y) end; lra).
  assert (A2 : aside (1 * 1) (sp 0 0) (sp 0 10) (sp 0 10) = sp 1 10) by (unfold aside; rewrite L1; unfold sp, X, Y, Z3; cbn [px py pz]; rcbn; f_equal; match goal with |- @eq _ ?x ?y => change (@eq R x y) end; lra).
  assert (A3 : aside (1 * 1) (sp 0 10) (sp 10 10) (sp 10 10) = sp 10 9) by (unfold aside; rewrite L2; unfold sp, X, Y, Z3; cbn [px py pz]; rcbn; f_equal; match goal with |- @eq _ ?x ?y => change (@eq R x y) end; lra).
  assert (A4 : aside (1 * 1) (sp 10 10) (sp 10 0) (sp 10 0) = sp 9 0) by (unfold aside; rewrite L3; unfold sp, X, Y, Z3; cbn [px py pz]; rcbn; f_equal; match goal with |- @eq _ ?x ?y => change (@eq R x y) end; lra).
  assert (A5 : aside (1 * 1) (sp 10 0) (sp 0 0) (sp 0 0) = sp 0 1) by (unfold aside; rewrite L4; unfold sp, X, Y, Z3; cbn [px py pz]; rcbn; f_equal; match goal with |- @eq _ ?x ?y => change (@eq R x y) end; lra).
  rewrite A1.
  repeat (constructor; [split; [|split]; [unfold right_by; rewrite ?L1, ?L2, ?L3, ?L4; unfold turn, sp, X, Y; cbn [px py]; lra
    |unfold right_by; rewrite ?L1, ?L2, ?L3, ?L4; unfold turn, sp, X, Y; cbn [px py]; lra|reflexivity]
    |unfold dist2, sp, X, Y, Z3; cbn [px py pz]; lra
    |rewrite ?A2, ?A3, ?A4, ?A5; unfold turn, sp, X, Y; cbn [px py]; match goal with |- _ <= Rabs ?x => first [rewrite (Rabs_right x) by lra|rewrite (Rabs_left1 x) by lra] end; lra
    |unfold turn, sp, X, Y; cbn [px py]; match goal with |- _ <= Rabs ?x => first [rewrite (Rabs_right x) by lra|rewrite (Rabs_left1 x) by lra] end; lra|]).
  constructor.
Qed.
Example ex_square : makeOffset sq 1 (V3 (A := ArithR) 0 0 1) = Some (minimizeLines [sp 1 1; sp 1 10; sp 9 9; sp 9 1; sp 1 1]).
Proof.
  destruct sq_lens as (L1 & _).
  assert (A2 : aside (1 * 1) (sp 0 0) (sp 0 10) (sp 0 10) = sp 1 10) by (unfold aside; rewrite L1; unfold sp, X, Y, Z3; cbn [px py pz]; rcbn; f_equal; match goal with |- @eq _ ?x ?y => change (@eq R x y) end; lra).
  rewrite <- A2. apply (C104_wall 1 1 0 (sp 0 0) (sp 0 10) [sp 10 10; sp 10 0] sq_corners).
  - left. reflexivity.
  - repeat constructor.
  - unfold path_sides. cbn [app tl combine]. repeat constructor; cbn [fst snd]; unfold sp; intros E; injection E; intros; lra.
  - exact sq_fits.
  - unfold path_sides, sq_corners. cbn [app tl combine last]. repeat constructor; unfold forward, sp, X, Y; cbn [fst snd px py]; lra.
  - rewrite A2. unfold forward, sq_corners, sp, X, Y. cbn [last px py]. lra.
Qed.
Example ex_points : Forall (fun v => Z3 v = 0 /\ exists a b, In (a, b) (path_sides sq) /\ right_by (1 * 1) a b v) (minimizeLines [sp 1 1; sp 1 10; sp 9 9; sp 9 1; sp 1 1]).
Proof.
  apply (C103_points 1 1 0 sq); [now left|repeat constructor| |exact ex_square].
  unfold path_sides, sq. cbn [tl combine]. repeat constructor; cbn [fst snd]; unfold sp; intros E; injection E; intros; lra.
Qed.
End Square.

(** The wall of a contour thinner than the line width: a strip of width 0.3 gets a wall
    at the distance 0.4, outside of the strip on both sides. *)
Definition tp (x y : @num (ArithF64 elem0)) : @point (ArithF64 elem0) := P3 (A := ArithF64 elem0) x y (f64_ofZ 0).
Definition strip : @path (ArithF64 elem0) :=
  let t := nlit 3 10 in let z := f64_ofZ 0 in let l := f64_ofZ 10 in [tp z z; tp z t; tp l t; tp l z; tp z z].
Theorem C103_thin_refuted : exists (pth out : @path (ArithF64 elem0)) u v,
  Forall (fun p => nleb n0 (py p) = true /\ nleb (py p) (nlit 3 10) = true) pth /\
  makeOffset pth (nlit 4 10) axisZ = Some out /\ In u out /\ In v out /\
  nltb (py u) n0 = true /\ nltb (nlit 3 10) (py v) = true.
Proof.
  set (o := makeOffset strip (nlit 4 10) (axisZ (A := ArithF64 elem0))).
  assert (K : match o with Some out => existsb (fun u : @point (ArithF64 elem0) => nltb (py u) n0) out && existsb (fun v : @point (ArithF64 elem0) => nltb (nlit 3 10) (py v)) out | None => false end = true) by (vm_compute; reflexivity).
  assert (S : forallb (fun p : @point (ArithF64 elem0) => nleb n0 (py p) && nleb (py p) (nlit 3 10)) strip = true) by (vm_compute; reflexivity).
  pose proof (eq_refl : makeOffset strip (nlit 4 10) axisZ = o) as E. clearbody o. destruct o as [out|]; [|discriminate K]. apply andb_true_iff in K. destruct K as [K1 K2]. apply existsb_exists in K1, K2. destruct K1 as (u & Hu & K1), K2 as (v & Hv & K2).
  exists strip, out, u, v. split; [|split; [exact E|repeat split; assumption]].
  apply Forall_forall. intros p Hp. rewrite forallb_forall in S. specialize (S p Hp). now apply andb_true_iff in S.
Qed.

Print Assumptions C103_points.
Print Assumptions C103_thin_refuted.
Print Assumptions C104_wall.
