(** * C109 Points inside contours *)
From Coq Require Import Reals Lra Lia List Bool ZArith PeanoNat.
From Verif Require Import Arith ArithR Prim Path GeomSpec GeomProofs Vip OverhangClaims OverhangProofs InsideClaims InsideProofs.
Import ListNotations.
Close Scope Z_scope.
Close Scope num_scope.
Local Open Scope R_scope.

(** In an ordinary position the answer is right: it is true if and only if a ray from the point, seen from above,
    crosses the contour an odd number of times. The ray may have any direction in which no corner is met. *)
Theorem C109_inside : forall a p, ordinary a p ->
  (pt_inside a p = true <-> enclosed a p) /\
  (forall dx dy n, free_dir a p dx dy -> crossed a dx dy p n -> pt_inside a p = Nat.odd n).
Proof.
  intros a p (z & p0 & p1 & p2 & p3 & r & wx & wy & -> & L & C & ND & TF & NW & F & B & CB).
  assert (M := inside_code a p0 p1 p2 p3 r z wx wy L C ND TF NW F B CB). split; [|exact M].
  split.
  - intros H. exists wx, wy, (cnt a wx wy (p0 :: p1 :: p2 :: p3 :: r)). split; [exact F|]. assert (K := cnt_crossed _ _ _ _ F). split; [exact K|].
    rewrite <- (M _ _ _ F K). exact H.
  - intros (dx & dy & n & Fd & Cr & O). rewrite (M _ _ _ Fd Cr). exact O.
Qed.

(** At the height of the contour nothing is too near behind. *)
Theorem C109_same_height : forall a p p0 p1 p2 p3 r wx wy, p = p0 :: p1 :: p2 :: p3 :: r -> level (Z3 a) p -> last p p0 = p0 ->
  (X p0 <> X p1 \/ Y p0 <> Y p1) -> to_first a p0 p1 wx wy -> (wx <> 0 \/ wy <> 0) -> free_dir a p wx wy -> beside a p ->
  (pt_inside a p = true <-> enclosed a p).
Proof.
  intros a p p0 p1 p2 p3 r wx wy E L C ND TF NW F B. apply C109_inside.
  exists (Z3 a), p0, p1, p2, p3, r, wx, wy. repeat (split; [assumption|]).
  intros b c q s _ _ Hs _ _. rewrite Rminus_eq_0, Rmult_0_l. apply Rmult_lt_0_compat; [exact Hs|].
  pose proof (Rle_0_sqr wx) as S1. pose proof (Rle_0_sqr wy) as S2. unfold Rsqr in S1, S2.
  destruct NW as [Q|Q]; apply Rsqr_pos_lt in Q; unfold Rsqr in Q; lra.
Qed.

(** A point on the line of the first side is outside every contour, whatever its shape. *)
Theorem C109_first_line : forall a z p p0 p1 r, p = p0 :: p1 :: r -> level z p -> last p p0 = p0 ->
  (X p0 <> X p1 \/ Y p0 <> Y p1) -> to_first a p0 p1 0 0 ->
  Forall (fun c => (X c - X a) * (X p1 - X p0) + (Y c - Y a) * (Y p1 - Y p0) <> 0) p -> pt_inside a p = false.
Proof.
  intros a z p p0 p1 r -> L C ND TF N. destruct r as [|p2 [|p3 r]]; [reflexivity|reflexivity|].
  pose proof (Forall_inv L) as L1. pose proof (Forall_inv (Forall_inv_tail L)) as L2. cbv beta in L1, L2.
  unfold pt_inside. rewrite (w_code a p0 p1 z 0 0 L1 L2 ND TF).
  assert (K := count_all a p0 p1 z L1 L2 (p1 :: p2 :: p3 :: r) p0 L N). rewrite C, xorb_nilpotent in K. exact K.
Qed.

(** The contour of the layer below that is chosen for a point encloses it, and where none is chosen, none does, but for holes. *)
Theorem C109_below : forall a paths, Forall (ordinary a) paths ->
  (forall p, findPrevPath a paths = Ok (Some p) -> In p paths /\ enclosed a p) /\
  (findPrevPath a paths = Ok None -> forall p, In p paths -> enclosed a p -> exists c, findCentroid p = Ok c /\ hole c p).
Proof.
  intros a paths O. split.
  - intros p H. destruct (find_prev a paths _ H) as (l1 & l2 & c & E & _ & _ & I & _).
    assert (Ip : In p paths) by (rewrite E; apply in_or_app; right; left; reflexivity). split; [exact Ip|].
    rewrite Forall_forall in O. apply (C109_inside a p (O p Ip)). exact I.
  - intros H p Ip En. pose proof (find_prev a paths _ H) as N. unfold nothing_under in N. rewrite Forall_forall in N, O. destruct (N p Ip) as (c & Cc & [Hh|Hf]); [exists c; split; assumption|].
    exfalso. apply (C109_inside a p (O p Ip)) in En. rewrite Hf in En. discriminate En.
Qed.

(** ** Positions that are not ordinary *)
Definition pt (x y z : R) : Rpoint := P3 (A := ArithR) x y z.
Ltac coords := unfold X, Y, Z3, pt; cbn [px py pz]; rcbn.
Ltac coords_in H := unfold X, Y, Z3, pt in H; cbn [px py pz] in H; rcbn.

(** A corner straight across from the point is counted twice: a point inside a trapezium is called outside. *)
Definition trapezium : list Rpoint := [pt 1 1 0; pt 2 1 0; pt 3 0 0; pt 0 0 0; pt 1 1 0].
Theorem C109_corner_refuted : exists a p, level (Z3 a) p /\ enclosed a p /\ pt_inside a p = false.
Proof.
  exists (pt 1 (1 / 2) 0), trapezium. split; [repeat constructor|]. split.
  - exists 1, 0, 1%nat. split; [|split; [|reflexivity]].
    + unfold free_dir, trapezium, in_line. repeat constructor; coords; lra.
    + unfold trapezium. apply cr_miss; [intros (s & t & H); coords_in H; lra|]. apply cr_hit.
      { exists (3 / 2), (1 / 2). coords. lra. }
      apply cr_miss; [intros (s & t & H); coords_in H; lra|]. apply cr_miss; [intros (s & t & H); coords_in H; lra|]. constructor.
  - unfold trapezium, pt_inside. set (a := pt 1 (1 / 2) 0). set (v0 := pt 1 1 0). set (v1 := pt 2 1 0). set (v2 := pt 3 0 0). set (v3 := pt 0 0 0).
    set (pl := Pl a (vectorTo v0 v1)).
    assert (Sd : forall q, sd pl q = X q - 1).
    { intros q. unfold pl. rewrite (sd_code a v0 v1 0 eq_refl eq_refl). unfold a, v0, v1. coords. ring. }
    assert (V : projectOnPlane (vectorTo a v0) pl = V3 (A := ArithR) 0 (1 / 2) 0).
    { unfold pl. rewrite (w_code a v0 v1 0 0 (1 / 2) eq_refl eq_refl).
      - unfold a. coords. f_equal; ring.
      - left. unfold v0, v1. coords. lra.
      - unfold to_first, a, v0, v1. coords. split; lra. }
    rewrite V. unfold inside_count.
    rewrite (isect_some pl v0 v1), (isect_none pl v1 v2), (isect_some pl v2 v3), (isect_some pl v3 v0).
    2-8: rewrite ?Sd; unfold v0, v1, v2, v3; coords; try (right; lra); lra.
    assert (C1 : codirected (vectorTo a (cut pl v0 v1)) (V3 (A := ArithR) 0 (1 / 2) 0) = true).
    { unfold codirected. rcbn. apply Rleb_true. unfold cut. rewrite !Sd. unfold along, v0, v1, a, dot, vectorTo. cbn [vx vy vz]. coords. lra. }
    assert (C2 : codirected (vectorTo a (cut pl v2 v3)) (V3 (A := ArithR) 0 (1 / 2) 0) = false).
    { unfold codirected. rcbn. apply Rleb_false. unfold cut. rewrite !Sd. unfold along, v2, v3, a, dot, vectorTo. cbn [vx vy vz]. coords. lra. }
    assert (C3 : codirected (vectorTo a (cut pl v3 v0)) (V3 (A := ArithR) 0 (1 / 2) 0) = true).
    { unfold codirected. rcbn. apply Rleb_true. unfold cut. rewrite !Sd. unfold along, v3, v0, a, dot, vectorTo. cbn [vx vy vz]. coords. lra. }
    rewrite C1, C2, C3. reflexivity.
Qed.

(** A point 0.2 mm above a square of 10 mm, 0.001 mm inside its first side, is called outside. *)
Definition square10 : list Rpoint := [pt (-5) (-5) 0; pt (-5) 5 0; pt 5 5 0; pt 5 (-5) 0; pt (-5) (-5) 0].
Theorem C109_lifted_refuted : exists a p, Z3 a = 1 / 5 /\ level 0 p /\ enclosed a p /\ pt_inside a p = false.
Proof.
  exists (pt (- (4999 / 1000)) (3 / 10) (1 / 5)), square10. split; [reflexivity|]. split; [repeat constructor|]. split.
  - exists 0, 1, 1%nat. split; [|split; [|reflexivity]].
    + unfold free_dir, square10, in_line. repeat constructor; coords; lra.
    + unfold square10. apply cr_miss; [intros (s & t & H); coords_in H; lra|]. apply cr_hit.
      { exists (47 / 10), (1 / 10000). coords. lra. }
      apply cr_miss; [intros (s & t & H); coords_in H; lra|]. apply cr_miss; [intros (s & t & H); coords_in H; lra|]. constructor.
  - unfold square10, pt_inside. set (a := pt (- (4999 / 1000)) (3 / 10) (1 / 5)). set (v0 := pt (-5) (-5) 0). set (v1 := pt (-5) 5 0). set (v2 := pt 5 5 0). set (v3 := pt 5 (-5) 0).
    set (pl := Pl a (vectorTo v0 v1)).
    assert (Sd : forall q, sd pl q = 10 * (Y q - 3 / 10)).
    { intros q. unfold pl. rewrite (sd_code a v0 v1 0 eq_refl eq_refl). unfold a, v0, v1. coords. ring. }
    assert (V : projectOnPlane (vectorTo a v0) pl = V3 (A := ArithR) (- (1 / 1000))%R 0 (- (1 / 5))%R).
    { unfold pl. rewrite (w_code a v0 v1 0 (- (1 / 1000)) 0 eq_refl eq_refl).
      - unfold a. coords. f_equal; ring.
      - right. unfold v0, v1. coords. lra.
      - unfold to_first, a, v0, v1. coords. split; lra. }
    rewrite V. unfold inside_count.
    rewrite (isect_some pl v0 v1), (isect_none pl v1 v2), (isect_some pl v2 v3), (isect_none pl v3 v0).
    2-7: rewrite ?Sd; unfold v0, v1, v2, v3; coords; try (left; lra); lra.
    assert (C1 : codirected (vectorTo a (cut pl v0 v1)) (V3 (A := ArithR) (- (1 / 1000))%R 0 (- (1 / 5))%R) = true).
    { unfold codirected. rcbn. apply Rleb_true. unfold cut. rewrite !Sd. unfold along, v0, v1, a, dot, vectorTo. cbn [vx vy vz]. coords. lra. }
    assert (C2 : codirected (vectorTo a (cut pl v2 v3)) (V3 (A := ArithR) (- (1 / 1000))%R 0 (- (1 / 5))%R) = true).
    { unfold codirected. rcbn. apply Rleb_true. unfold cut. rewrite !Sd. unfold along, v2, v3, a, dot, vectorTo. cbn [vx vy vz]. coords. lra. }
    rewrite C1, C2. reflexivity.
Qed.

(** A point inside an L, on the line of its first side, is called outside. *)
Definition ell : list Rpoint := [pt 2 2 0; pt 4 2 0; pt 4 0 0; pt 0 0 0; pt 0 4 0; pt 2 4 0; pt 2 2 0].
Theorem C109_line_refuted : exists a p, level (Z3 a) p /\ enclosed a p /\ pt_inside a p = false.
Proof.
  exists (pt 1 2 0), ell. split; [repeat constructor|]. split.
  - exists 1, 1, 1%nat. split; [|split; [|reflexivity]].
    + unfold free_dir, ell, in_line. repeat constructor; coords; lra.
    + unfold ell. do 4 (apply cr_miss; [intros (s & t & H); coords_in H; lra|]).
      apply cr_miss; [intros (s & t & H); coords_in H; lra|]. apply cr_hit.
      { exists 1, (1 / 2). coords. lra. }
      constructor.
  - apply (C109_first_line (pt 1 2 0) 0 ell (pt 2 2 0) (pt 4 2 0) (tl (tl ell)) eq_refl).
    + repeat constructor.
    + reflexivity.
    + left. coords. lra.
    + unfold to_first. coords. lra.
    + unfold ell. repeat constructor; coords; lra.
Qed.

(** ** Cases *)

(** beside a contour, side by side *)
Lemma beside_cons a b c r : (forall t, 0 <= t <= 1 -> ~ (X b + t * (X c - X b) = X a /\ Y b + t * (Y c - Y b) = Y a)) ->
  beside a (c :: r) -> beside a (b :: c :: r).
Proof.
  intros H K x y q N O. destruct (next_in_cons _ _ _ _ _ N) as [(-> & ->)|N']; [|exact (K x y q N' O)].
  destruct O as (t & Ht & ->). exact (H t Ht).
Qed.
Lemma beside_one a b : beside a [b].
Proof. intros x y q N. destruct (next_in_one _ _ _ N). Qed.

(** a U, 0.2 mm below the point, which is in its second arm *)
Definition u_shape : list Rpoint := [pt 0 0 0; pt 0 9 0; pt 3 9 0; pt 3 3 0; pt 6 3 0; pt 6 9 0; pt 9 9 0; pt 9 0 0; pt 0 0 0].
Example ex_C109_ordinary : ordinary (pt 8 5 (1 / 5)) u_shape /\ enclosed (pt 8 5 (1 / 5)) u_shape /\ pt_inside (pt 8 5 (1 / 5)) u_shape = true.
Proof.
  assert (O : ordinary (pt 8 5 (1 / 5)) u_shape).
  { exists 0, (pt 0 0 0), (pt 0 9 0), (pt 3 9 0), (pt 3 3 0), [pt 6 3 0; pt 6 9 0; pt 9 9 0; pt 9 0 0; pt 0 0 0], (Ropp 8), 0.
    split; [reflexivity|]. split; [repeat constructor|]. split; [reflexivity|]. split; [right; coords; lra|]. split; [unfold to_first; coords; lra|].
    split; [left; lra|]. split; [unfold free_dir, u_shape, in_line; repeat constructor; coords; lra|]. split.
    - unfold u_shape. repeat (apply beside_cons; [intros t Ht H; coords_in H; lra|]). apply beside_one.
    - intros b c q s N (t & Ht & ->) Hs Ex Ey. unfold u_shape in N. coords.
      repeat (apply next_in_cons in N; destruct N as [(-> & ->)|N]; [unfold along in Ex, Ey; coords_in Ex; coords_in Ey; cbn [px py pz] in Ex, Ey; rcbn; lra|]).
      destruct (next_in_one _ _ _ N). }
  split; [exact O|].
  assert (E : enclosed (pt 8 5 (1 / 5)) u_shape).
  { exists 1, 0, 1%nat. split; [|split; [|reflexivity]].
    - unfold free_dir, u_shape, in_line. repeat constructor; coords; lra.
    - unfold u_shape. do 6 (apply cr_miss; [intros (s & t & H); coords_in H; lra|]). apply cr_hit.
      { exists 1, (4 / 9). coords. lra. }
      apply cr_miss; [intros (s & t & H); coords_in H; lra|]. constructor. }
  split; [exact E|]. apply (C109_inside _ _ O). exact E.
Qed.

(** between the arms *)
Example ex_C109_between : ordinary (pt 4 5 0) u_shape /\ ~ enclosed (pt 4 5 0) u_shape /\ pt_inside (pt 4 5 0) u_shape = false.
Proof.
  assert (O : ordinary (pt 4 5 0) u_shape).
  { exists 0, (pt 0 0 0), (pt 0 9 0), (pt 3 9 0), (pt 3 3 0), [pt 6 3 0; pt 6 9 0; pt 9 9 0; pt 9 0 0; pt 0 0 0], (Ropp 4), 0.
    split; [reflexivity|]. split; [repeat constructor|]. split; [reflexivity|]. split; [right; coords; lra|]. split; [unfold to_first; coords; lra|].
    split; [left; lra|]. split; [unfold free_dir, u_shape, in_line; repeat constructor; coords; lra|]. split.
    - unfold u_shape. repeat (apply beside_cons; [intros t Ht H; coords_in H; lra|]). apply beside_one.
    - intros b c q s N (t & Ht & ->) Hs Ex Ey. unfold u_shape in N. coords. lra. }
  split; [exact O|].
  assert (F : pt_inside (pt 4 5 0) u_shape = false).
  { destruct (C109_inside _ _ O) as (_ & M).
    apply (M 0 1 0%nat).
    - unfold free_dir, u_shape, in_line. repeat constructor; coords; lra.
    - unfold u_shape. do 8 (apply cr_miss; [intros (s & t & H); coords_in H; lra|]). constructor. }
  split; [|exact F]. intros E. apply (C109_inside _ _ O) in E. rewrite F in E. discriminate E.
Qed.

Print Assumptions C109_inside.
Print Assumptions C109_same_height.
Print Assumptions C109_first_line.
Print Assumptions C109_below.
Print Assumptions C109_corner_refuted.
Print Assumptions C109_lifted_refuted.
Print Assumptions C109_line_refuted.
