(** * The sides of a cut, and the walls of a level contour, in exact arithmetic *)
From Coq Require Import ZArith Reals Lra Lia List Bool Permutation.
From Flocq Require Import Core.Raux.
From Verif Require Import Arith ArithR Prim Path GeomSpec GeomProofs MeshProofs Helpers HelperClaims HelperProofs HelperProofs2 Slicer SlicerClaims SlicerProofs2
  Fill Vip VipClaims OffsetClaims OffsetProofs MinProofs Properties_Path.
Import ListNotations.
Close Scope Z_scope.
Close Scope num_scope.
Local Open Scope R_scope.

Definition unit3 (n : Rvector) : Prop := vx n * vx n + vy n * vy n + vz n * vz n = 1.
Lemma unit_sum n : unit3 n -> Rabs (vx n) + Rabs (vy n) + Rabs (vz n) <= 2.
Proof.
  unfold unit3. intros H.
  assert (Q : forall r : R, Rabs r * Rabs r = r * r) by (intros r; rewrite <- Rabs_mult; apply Rabs_pos_eq; nra).
  pose proof (Q (vx n)) as Qx. pose proof (Q (vy n)) as Qy. pose proof (Q (vz n)) as Qz.
  pose proof (Rabs_pos (vx n)). pose proof (Rabs_pos (vy n)). pose proof (Rabs_pos (vz n)).
  set (x := Rabs (vx n)) in *. set (y := Rabs (vy n)) in *. set (z := Rabs (vz n)) in *.
  assert (N : x * x + y * y + z * z = 1) by lra. clearbody x y z.
  assert (D : (x + y + z) * (x + y + z) <= 3).
  { pose proof (Rle_0_sqr (x - y)). pose proof (Rle_0_sqr (y - z)). pose proof (Rle_0_sqr (x - z)). unfold Rsqr in *. nra. }
  destruct (Rle_dec (x + y + z) 2) as [L|L]; [exact L|]. exfalso. assert (2 < x + y + z) by lra. set (w := x + y + z) in *. nra.
Qed.

Lemma sd_within (p : Rplane) e a b : unit3 (pl_n p) -> within e a b -> Rabs (sd p a - sd p b) <= 2 * e.
Proof.
  intros U (Hx & Hy & Hz). pose proof (unit_sum _ U) as S.
  replace (sd p a - sd p b) with ((X a - X b) * vx (pl_n p) + (Y a - Y b) * vy (pl_n p) + (Z3 a - Z3 b) * vz (pl_n p)) by (unfold sd; ring).
  set (dx := X a - X b) in *. set (dy := Y a - Y b) in *. set (dz := Z3 a - Z3 b) in *.
  assert (K : forall u v : R, Rabs u <= e -> Rabs (u * v) <= e * Rabs v).
  { intros u v H. rewrite Rabs_mult. apply Rmult_le_compat_r; [apply Rabs_pos|exact H]. }
  pose proof (K dx (vx (pl_n p)) Hx). pose proof (K dy (vy (pl_n p)) Hy). pose proof (K dz (vz (pl_n p)) Hz).
  pose proof (Rabs_triang (dx * vx (pl_n p) + dy * vy (pl_n p)) (dz * vz (pl_n p))). pose proof (Rabs_triang (dx * vx (pl_n p)) (dy * vy (pl_n p))).
  assert (0 <= e) by (pose proof (Rabs_pos dx); lra).
  assert (e * Rabs (vx (pl_n p)) + e * Rabs (vy (pl_n p)) + e * Rabs (vz (pl_n p)) <= 2 * e) by nra. lra.
Qed.

Lemma sd_tri (p : Rplane) a b c q k : in_tri a b c q -> sd p a <= k -> sd p b <= k -> sd p c <= k -> sd p q <= k.
Proof.
  intros (u & v & w & Hu & Hv & Hw & S & ->) A B C.
  replace (sd p (comb3 u v w a b c)) with (u * sd p a + v * sd p b + w * sd p c).
  2:{ replace w with (1 - u - v) by lra. unfold sd, comb3. pt. cbn [px py pz]. rcbn. ring. }
  replace k with (u * k + v * k + w * k) by (transitivity ((u + v + w) * k); [ring|rewrite S; ring]). nra.
Qed.

(** ** The points of the pieces *)
Definition cut_slack : R := 2 / 10 ^ 6.
(** on the plane [p], on a triangle, up to rounding *)
Definition on_cut (p : Rplane) (m : Rmesh) (x : Rpoint) : Prop :=
  exists t e, In t m /\ in_tri (t1 t) (t2 t) (t3 t) e /\ sd p e = 0 /\ within (5 / 10 ^ 9) x e.

Lemma line_on_cut (p : Rplane) (m : Rmesh) t l x : In t m -> intersectTriangle p t = Some l -> x = lp1 l \/ x = lp2 l -> on_cut p m x.
Proof.
  intros Ht E Hx. destruct (isect_tri_some p t l E) as (e & f & S & W1 & W2 & _).
  assert (Se : in_tri (t1 t) (t2 t) (t3 t) e /\ sd p e = 0).
  { apply S. exists 0. split; [lra|]. unfold along. destruct e as [x0 y z]. cbn [px py pz]. unfold X, Y, Z3. cbn [px py pz]. f_equal; rcbn; ring. }
  assert (Sf : in_tri (t1 t) (t2 t) (t3 t) f /\ sd p f = 0).
  { apply S. exists 1. split; [lra|]. unfold along. destruct f as [x0 y z]. unfold X, Y, Z3. cbn [px py pz]. f_equal; rcbn; ring. }
  replace (/ 200000000) with (5 / 10 ^ 9) in W1, W2 by lra.
  destruct Hx as [-> | ->]; [exists t, e|exists t, f]; tauto.
Qed.

(** the corners of one piece: a corner of the triangle on the right side (within 2e-6), or a point of the cut *)
Definition kept (s : R) (p : Rplane) (m : Rmesh) (v : Rpoint) : Prop :=
  (exists t, In t m /\ In v [t1 t; t2 t; t3 t] /\ - cut_slack <= s * sd p v) \/ on_cut p m v.

Lemma close_sd (p : Rplane) a b : unit3 (pl_n p) -> pt_equal (A := ArithR) a b = true -> Rabs (sd p a - sd p b) <= cut_slack.
Proof.
  intros U E. apply pt_equal_R in E. destruct E as (E1 & E2 & E3). unfold cut_slack. replace (2 / 10 ^ 6) with (2 * / 1000000) by lra.
  apply sd_within; [exact U|]. repeat split; lra.
Qed.

(** [q] is alone on its side *)
Lemma split_kept (p : Rplane) (m : Rmesh) t l q r s a b c sg : unit3 (pl_n p) -> In t m -> intersectTriangle p t = Some l ->
  (q, r, s) = (t1 t, t2 t, t3 t) \/ (q, r, s) = (t2 t, t3 t, t1 t) \/ (q, r, s) = (t3 t, t1 t, t2 t) ->
  (sg = 1 \/ sg = -1) -> 0 <= sg * sd p q -> sg * sd p r <= 0 -> sg * sd p s <= 0 ->
  splitOnThree q l t = (a, b, c) ->
  Forall (kept sg p m) [t1 a; t2 a; t3 a] /\ Forall (kept (- sg) p m) [t1 b; t2 b; t3 b; t1 c; t2 c; t3 c].
Proof.
  intros U Ht I Q Hg Hq Hr Hs E. unfold splitOnThree in E.
  assert (C : exists x y z, turn_to q t = (x, y, z) /\ In x [t1 t; t2 t; t3 t] /\ In y [t1 t; t2 t; t3 t] /\ In z [t1 t; t2 t; t3 t] /\
    - cut_slack <= sg * sd p x /\ - cut_slack <= - sg * sd p y /\ - cut_slack <= - sg * sd p z).
  { unfold turn_to.
    assert (Cl : 0 <= cut_slack) by (unfold cut_slack; lra).
    assert (G : forall v, In v [q; r; s] -> In v [t1 t; t2 t; t3 t]).
    { intros v. destruct Q as [[= -> -> ->]|[[= -> -> ->]|[= -> -> ->]]]; cbn; tauto. }
    revert G. generalize [t1 t; t2 t; t3 t]. intros L G.
    (* the corner found is q, or one nearer than the tolerance, and then both are near the plane *)
    assert (N : forall x y z, (x = r /\ y = s /\ z = q) \/ (x = s /\ y = q /\ z = r) -> pt_equal (A := ArithR) x q = true ->
      In x L /\ In y L /\ In z L /\
      - cut_slack <= sg * sd p x /\ - cut_slack <= - sg * sd p y /\ - cut_slack <= - sg * sd p z).
    { intros x y z O Eq. pose proof (close_sd p x q U Eq) as D. apply Rabs_le_inv in D.
      destruct O as [(-> & -> & ->)|(-> & -> & ->)]; (split; [apply G; cbn; auto|]; split; [apply G; cbn; auto|]; split; [apply G; cbn; auto|]);
        destruct Hg as [-> | ->]; lra. }
    assert (M : In q L /\ In r L /\ In s L /\
      - cut_slack <= sg * sd p q /\ - cut_slack <= - sg * sd p r /\ - cut_slack <= - sg * sd p s).
    { split; [apply G; cbn; auto|]. split; [apply G; cbn; auto|]. split; [apply G; cbn; auto|]. lra. }
    assert (Rf : pt_equal (A := ArithR) q q = true).
    { apply pt_equal_R. unfold closer. rewrite !Rminus_diag_eq by reflexivity. rewrite Rabs_R0. lra. }
    destruct Q as [[= <- <- <-]|[[= <- <- <-]|[= <- <- <-]]].
    - destruct (pt_equal r q) eqn:E2; [do 3 eexists; split; [reflexivity|]; apply N; auto|].
      destruct (pt_equal s q) eqn:E3; [do 3 eexists; split; [reflexivity|]; apply N; auto|].
      do 3 eexists; split; [reflexivity|]; exact M.
    - rewrite Rf. do 3 eexists; split; [reflexivity|]; exact M.
    - destruct (pt_equal s q) eqn:E2; [do 3 eexists; split; [reflexivity|]; apply N; auto|].
      rewrite Rf. do 3 eexists; split; [reflexivity|]; exact M. }
  destruct C as (x & y & z & T & Ix & Iy & Iz & Sx & Sy & Sz). rewrite T in E.
  assert (L1 : forall sg', kept sg' p m (lp1 l)) by (intros; right; apply (line_on_cut p m t l); auto).
  assert (L2 : forall sg', kept sg' p m (lp2 l)) by (intros; right; apply (line_on_cut p m t l); auto).
  assert (Kx : kept sg p m x) by (left; exists t; auto).
  assert (Ky : kept (- sg) p m y) by (left; exists t; auto).
  assert (Kz : kept (- sg) p m z) by (left; exists t; auto).
  destruct (almostZero _) in E; injection E as <- <- <-; cbn [newTriangle t1 t2 t3]; split; repeat (apply Forall_cons; [auto|]); apply Forall_nil.
Qed.

Definition corners (t : Rtriangle) : list Rpoint := [t1 t; t2 t; t3 t].
Lemma two_pieces (P : Rpoint -> Prop) (b c : Rtriangle) : Forall P [t1 b; t2 b; t3 b; t1 c; t2 c; t3 c] -> Forall (fun u => Forall P (corners u)) [b; c].
Proof.
  intros K. change (Forall P (corners b ++ corners c)) in K. apply Forall_app in K. constructor; [exact (proj1 K)|]. constructor; [exact (proj2 K)|constructor].
Qed.
Lemma cut_one_kept (p : Rplane) (m : Rmesh) t : unit3 (pl_n p) -> In t m ->
  Forall (fun u => Forall (kept 1 p m) (corners u)) (fst (fst (cut_one p t))) /\
  Forall (fun u => Forall (kept (-1) p m) (corners u)) (snd (fst (cut_one p t))).
Proof.
  intros U Ht.
  assert (Fr : forall q, pointInFront p q = true -> 0 <= sd p q) by (intros q; apply front_R).
  assert (Bk : forall q, pointInFront p q = false -> sd p q <= 0).
  { intros q H. apply Rnot_lt_le. intros C. apply Rlt_le in C. apply front_R in C. congruence. }
  assert (W : forall sg, (forall v, In v (corners t) -> 0 <= sg * sd p v) -> Forall (kept sg p m) (corners t)).
  { intros sg H. apply Forall_forall. intros v Hv. left. exists t. split; [exact Ht|]. split; [exact Hv|]. specialize (H v Hv). unfold cut_slack. lra. }
  destruct (pointInFront p (t1 t)) eqn:H1, (pointInFront p (t2 t)) eqn:H2, (pointInFront p (t3 t)) eqn:H3;
    unfold cut_one; cbn [filter]; rewrite ?H1, ?H2, ?H3; cbn [negb filter fst snd].
  1: split; [|constructor]; apply Forall_cons; [|constructor]; apply (W 1); intros v [<-|[<-|[<-|[]]]];
     [pose proof (Fr _ H1)|pose proof (Fr _ H2)|pose proof (Fr _ H3)]; lra.
  7: split; [constructor|]; apply Forall_cons; [|constructor]; apply (W (-1)); intros v [<-|[<-|[<-|[]]]];
     [pose proof (Bk _ H1)|pose proof (Bk _ H2)|pose proof (Bk _ H3)]; lra.
  all: destruct (intersectTriangle p t) as [l|] eqn:I; [|split; constructor].
  - destruct (splitOnThree (t3 t) l t) as [[a b] c] eqn:S; cbn [fst snd].
    apply Fr in H1. apply Fr in H2. apply Bk in H3.
    destruct (split_kept p m t l (t3 t) (t1 t) (t2 t) a b c (-1) U Ht I (or_intror (or_intror eq_refl)) (or_intror eq_refl) ltac:(lra) ltac:(lra) ltac:(lra) S) as [K1 K2].
    replace (- -1) with 1 in K2 by lra. apply two_pieces in K2. split; [exact K2|constructor; [exact K1|constructor]].
  - destruct (splitOnThree (t2 t) l t) as [[a b] c] eqn:S; cbn [fst snd].
    apply Fr in H1. apply Bk in H2. apply Fr in H3.
    destruct (split_kept p m t l (t2 t) (t3 t) (t1 t) a b c (-1) U Ht I (or_intror (or_introl eq_refl)) (or_intror eq_refl) ltac:(lra) ltac:(lra) ltac:(lra) S) as [K1 K2].
    replace (- -1) with 1 in K2 by lra. apply two_pieces in K2. split; [exact K2|constructor; [exact K1|constructor]].
  - destruct (splitOnThree (t1 t) l t) as [[a b] c] eqn:S; cbn [fst snd].
    apply Fr in H1. apply Bk in H2. apply Bk in H3.
    destruct (split_kept p m t l (t1 t) (t2 t) (t3 t) a b c (1) U Ht I (or_introl eq_refl) (or_introl eq_refl) ltac:(lra) ltac:(lra) ltac:(lra) S) as [K1 K2].
    apply two_pieces in K2. split; [constructor; [exact K1|constructor]|exact K2].
  - destruct (splitOnThree (t1 t) l t) as [[a b] c] eqn:S; cbn [fst snd].
    apply Bk in H1. apply Fr in H2. apply Fr in H3.
    destruct (split_kept p m t l (t1 t) (t2 t) (t3 t) a b c (-1) U Ht I (or_introl eq_refl) (or_intror eq_refl) ltac:(lra) ltac:(lra) ltac:(lra) S) as [K1 K2].
    replace (- -1) with 1 in K2 by lra. apply two_pieces in K2. split; [exact K2|constructor; [exact K1|constructor]].
  - destruct (splitOnThree (t2 t) l t) as [[a b] c] eqn:S; cbn [fst snd].
    apply Bk in H1. apply Fr in H2. apply Bk in H3.
    destruct (split_kept p m t l (t2 t) (t3 t) (t1 t) a b c (1) U Ht I (or_intror (or_introl eq_refl)) (or_introl eq_refl) ltac:(lra) ltac:(lra) ltac:(lra) S) as [K1 K2].
    apply two_pieces in K2. split; [constructor; [exact K1|constructor]|exact K2].
  - destruct (splitOnThree (t3 t) l t) as [[a b] c] eqn:S; cbn [fst snd].
    apply Bk in H1. apply Bk in H2. apply Fr in H3.
    destruct (split_kept p m t l (t3 t) (t1 t) (t2 t) a b c (1) U Ht I (or_intror (or_intror eq_refl)) (or_introl eq_refl) ltac:(lra) ltac:(lra) ltac:(lra) S) as [K1 K2].
    apply two_pieces in K2. split; [constructor; [exact K1|constructor]|exact K2].
Qed.

(** ** The two parts of a cut *)
Lemma cut_inters (p : Rplane) t q x : In q (snd (cut_one p t)) -> In x q -> exists l, intersectTriangle p t = Some l /\ (x = lp1 l \/ x = lp2 l).
Proof.
  unfold cut_one. destruct (filter (pointInFront p) _) as [|i [|j [|k [|]]]]; cbn [snd]; try (intros []; fail).
  - destruct (intersectTriangle p t) as [l|]; [|intros []]. destruct (splitOnThree i l t) as [[a b] c]. cbn [snd].
    intros [<-|[]] [<-|[<-|[]]]; exists l; auto.
  - destruct (intersectTriangle p t) as [l|]; [|intros []]. destruct (filter _ _) as [|o r]; [intros []|]. destruct (splitOnThree o l t) as [[a b] c]. cbn [snd].
    intros [<-|[]] [<-|[<-|[]]]; exists l; auto.
Qed.

Lemma cap_corners (p : Rplane) (pth : Rpath) a b : In (a, b) (cap_path p pth) -> forall v, In v (corners a) \/ In v (corners b) -> In v pth.
Proof.
  destruct pth as [|x r]; [intros []|]. cbn [cap_path].
  assert (G : forall rest, incl rest r -> In (a, b) (cap_fan p x rest) -> forall v, In v (corners a) \/ In v (corners b) -> In v (x :: r)).
  { induction rest as [|y [|z rest] IH]; cbn [cap_fan]; intros I; [intros []|intros []|]. intros [E|H].
    - assert (Iy : In y (x :: r)) by (right; apply I; now left). assert (Iz : In z (x :: r)) by (right; apply I; right; now left). assert (Ix : In x (x :: r)) by now left.
      unfold cap_pair in E. destruct (codirected _ _) in E; injection E as <- <-; cbn [corners newTriangle t1 t2 t3 In];
        intros v [[<-|[<-|[<-|[]]]]|[<-|[<-|[<-|[]]]]]; assumption.
    - apply IH; [|exact H]. intros w Hw. apply I. now right. }
  apply G. apply incl_refl.
Qed.

Lemma cutMesh_eq srt (m : Rmesh) (p : Rplane) : m <> [] -> cutMesh srt m p =
  rbind (joinPaths3AndMinimize srt (flat_map snd (map (cut_one p) m))) (fun joined =>
    Ok (flat_map (fun x => fst (fst x)) (map (cut_one p) m) ++ map fst (flat_map (cap_path p) joined),
        flat_map (fun x => snd (fst x)) (map (cut_one p) m) ++ map snd (flat_map (cap_path p) joined))).
Proof. destruct m; [congruence|reflexivity]. Qed.
Lemma cut_kept srt (m : Rmesh) (p : Rplane) up down : (forall l, Permutation l (srt l)) -> unit3 (pl_n p) ->
  cutMesh srt m p = Ok (up, down) ->
  (forall v, In v (vertices up) -> kept 1 p m v) /\ (forall v, In v (vertices down) -> kept (-1) p m v).
Proof.
  intros Hs U E. assert (N : m = [] \/ m <> []) by (destruct m; [now left|right; discriminate]). destruct N as [->|N]; [injection E as <- <-; split; intros v []|].
  rewrite cutMesh_eq in E by exact N.
  set (inters := flat_map snd (map (cut_one p) m)) in E.
  assert (Hi : forall q x, In q inters -> In x q -> exists t l, In t m /\ intersectTriangle p t = Some l /\ (x = lp1 l \/ x = lp2 l)).
  { intros q x Hq Hx. unfold inters in Hq. apply in_flat_map in Hq. destruct Hq as (c & Hc & Hq). apply in_map_iff in Hc. destruct Hc as (t & <- & Ht).
    destruct (cut_inters p t q x Hq Hx) as (l & L). exists t, l. tauto. }
  assert (Ne : Forall (fun q : path => q <> []) inters).
  { apply Forall_forall. intros q Hq. unfold inters in Hq. apply in_flat_map in Hq. destruct Hq as (c & Hc & Hq). apply in_map_iff in Hc. destruct Hc as (t & <- & Ht).
    unfold cut_one in Hq. destruct (filter (pointInFront p) _) as [|i [|j [|k [|]]]]; cbn [snd] in Hq; try (now destruct Hq);
      (destruct (intersectTriangle p t) as [l|]; [|now destruct Hq]); [|destruct (filter _ _) as [|o r]; [now destruct Hq|]];
      destruct (splitOnThree _ l t) as [[a b] c]; cbn [snd] in Hq; destruct Hq as [<-|[]]; discriminate. }
  destruct (joinPaths3AndMinimize srt inters) as [joined| |] eqn:J; cbn [rbind] in E; try discriminate E. injection E as <- <-.
  assert (Jp : forall q x, In q joined -> In x q -> on_cut p m x).
  { intros q x Hq Hx. pose proof (join_points srt inters joined Hs Ne J q x Hq Hx) as K. apply in_concat in K. destruct K as (r & Hr & Hxr).
    destruct (Hi r x Hr Hxr) as (t & l & Ht & Il & Hl). exact (line_on_cut p m t l x Ht Il Hl). }
  assert (Sp : forall (l1 l2 : Rmesh) P, (forall u, In u l1 -> Forall P (corners u)) -> (forall u, In u l2 -> Forall P (corners u)) -> forall v, In v (vertices (l1 ++ l2)) -> P v).
  { intros l1 l2 P H1 H2 v Hv. unfold vertices in Hv. apply in_flat_map in Hv. destruct Hv as (u & Hu & Hv).
    assert (F : Forall P (corners u)) by (apply in_app_iff in Hu; destruct Hu as [Hu|Hu]; auto). rewrite Forall_forall in F. apply F. exact Hv. }
  assert (Pc : forall t, In t m -> Forall (fun u => Forall (kept 1 p m) (corners u)) (fst (fst (cut_one p t))) /\
     Forall (fun u => Forall (kept (-1) p m) (corners u)) (snd (fst (cut_one p t)))) by (intros t Ht; exact (cut_one_kept p m t U Ht)).
  split; intros v; apply Sp; intros u Hu.
  - apply in_flat_map in Hu. destruct Hu as (c & Hc & Hu). apply in_map_iff in Hc. destruct Hc as (t & <- & Ht).
    destruct (Pc t Ht) as [K _]. rewrite Forall_forall in K. exact (K u Hu).
  - apply in_map_iff in Hu. destruct Hu as ([a b] & <- & Hu). apply in_flat_map in Hu. destruct Hu as (q & Hq & Hu). cbn [fst].
    apply Forall_forall. intros x Hx. right. apply (Jp q x Hq). exact (cap_corners p q a b Hu x (or_introl Hx)).
  - apply in_flat_map in Hu. destruct Hu as (c & Hc & Hu). apply in_map_iff in Hc. destruct Hc as (t & <- & Ht).
    destruct (Pc t Ht) as [_ K]. rewrite Forall_forall in K. exact (K u Hu).
  - apply in_map_iff in Hu. destruct Hu as ([a b] & <- & Hu). apply in_flat_map in Hu. destruct Hu as (q & Hq & Hu). cbn [snd].
    apply Forall_forall. intros x Hx. right. apply (Jp q x Hq). exact (cap_corners p q a b Hu x (or_intror Hx)).
Qed.

Definition step8 : R := 1 / 10 ^ 8.
Lemma kept_side s (p : Rplane) m v : unit3 (pl_n p) -> (s = 1 \/ s = -1) -> kept s p m v -> - cut_slack <= s * sd p v.
Proof.
  intros U Hs [(t & _ & _ & H)|(t & e & _ & _ & Z & W)]; [exact H|].
  pose proof (sd_within p _ v e U W) as D. rewrite Z in D. apply Rabs_le_inv in D. unfold cut_slack. destruct Hs as [-> | ->]; lra.
Qed.
Lemma kept_bound s (p q : Rplane) (m : Rmesh) v B : unit3 (pl_n q) -> (forall a, In a (vertices m) -> sd q a <= B) -> kept s p m v -> sd q v <= B + step8.
Proof.
  intros U H K. unfold step8.
  assert (Vt : forall t a, In t m -> In a [t1 t; t2 t; t3 t] -> sd q a <= B).
  { intros t a Ht Ha. apply H. unfold vertices. apply in_flat_map. exists t. auto. }
  destruct K as [(t & Ht & Hv & _)|(t & e & Ht & He & _ & W)].
  - pose proof (Vt t v Ht Hv). lra.
  - pose proof (sd_tri q _ _ _ e B He (Vt t _ Ht (or_introl eq_refl)) (Vt t _ Ht (or_intror (or_introl eq_refl))) (Vt t _ Ht (or_intror (or_intror (or_introl eq_refl))))).
    pose proof (sd_within q _ v e U W) as D. apply Rabs_le_inv in D. lra.
Qed.

Lemma parted_bound U (m : Rmesh) ps parts (q : Rplane) B : legal U -> Forall (fun p => unit3 (pl_n (ap_plane p))) ps -> unit3 (pl_n q) ->
  parted U m ps parts -> (forall v, In v (vertices m) -> sd q v <= B) ->
  forall part v, In part parts -> In v (vertices part) -> sd q v <= B + INR (length ps) * step8.
Proof.
  intros HU F Uq P. revert B. induction P as [m|m ps p up down parts C P IH]; intros B H part v Hp Hv.
  - destruct Hp as [<-|[]]. cbn [length INR]. specialize (H v Hv). lra.
  - apply Forall_app in F. destruct F as [F1 F2]. apply Forall_inv in F2.
    destruct (cut_kept _ m (ap_plane p) up down (lg_ends U HU) F2 C) as [K1 K2].
    rewrite app_length. cbn [length]. rewrite plus_INR. cbn [INR]. 
    assert (S0 : 0 <= step8) by (unfold step8; lra). assert (N0 := pos_INR (length ps)).
    apply in_app_iff in Hp. destruct Hp as [Hp|[<-|[]]].
    + assert (H' : forall a, In a (vertices down) -> sd q a <= B + step8) by (intros a Ha; exact (kept_bound _ _ q m a B Uq H (K2 a Ha))).
      pose proof (IH F1 (B + step8) H' part v Hp Hv). lra.
    + pose proof (kept_bound _ _ q m v B Uq H (K1 v Hv)). nra.
Qed.

(** what is above a plane and what is below it *)
Lemma parted_sides U (m : Rmesh) ps parts : legal U -> Forall (fun p => unit3 (pl_n (ap_plane p))) ps -> parted U m ps parts ->
  forall k p, nth_error ps k = Some p ->
    (forall part v, nth_error parts (S k) = Some part -> In v (vertices part) -> - cut_slack <= sd (ap_plane p) v) /\
    (forall j part v, (j <= k)%nat -> nth_error parts j = Some part -> In v (vertices part) -> sd (ap_plane p) v <= cut_slack + INR k * step8).
Proof.
  intros HU F P. assert (Ln : length parts = S (length ps)).
  { clear -P. induction P; [reflexivity|]. rewrite !app_length. cbn [length]. lia. }
  induction P as [m|m ps p up down parts C P IH]; intros k p' Hk; [destruct k; discriminate|].
  apply Forall_app in F. destruct F as [F1 F2]. apply Forall_inv in F2.
  destruct (cut_kept _ m (ap_plane p) up down (lg_ends U HU) F2 C) as [K1 K2].
  rewrite !app_length in Ln. cbn [length] in Ln. assert (Lp : length parts = S (length ps)) by lia. specialize (IH F1 Lp).
  destruct (Nat.eq_dec k (length ps)) as [->|Ne].
  - rewrite nth_error_app2, Nat.sub_diag in Hk by lia. injection Hk as <-. split.
    + intros part v Hp Hv. rewrite nth_error_app2 in Hp by lia. replace (S (length ps) - length parts)%nat with 0%nat in Hp by lia. injection Hp as <-.
      pose proof (kept_side 1 (ap_plane p) m v F2 (or_introl eq_refl) (K1 v Hv)). lra.
    + intros j part v Hj Hp Hv. rewrite nth_error_app1 in Hp by lia. apply nth_error_In in Hp.
      apply (parted_bound U down ps parts (ap_plane p) cut_slack HU F1 F2 P) with part; try assumption.
      intros a Ha. pose proof (kept_side (-1) (ap_plane p) m a F2 (or_intror eq_refl) (K2 a Ha)). lra.
  - assert (k < length ps)%nat by (assert (k < length (ps ++ [p]))%nat by (apply nth_error_Some; congruence); rewrite app_length in *; cbn [length] in *; lia).
    rewrite nth_error_app1 in Hk by lia. destruct (IH k p' Hk) as [I1 I2]. split.
    + intros part v Hp. rewrite nth_error_app1 in Hp by lia. apply I1. exact Hp.
    + intros j part v Hj Hp. rewrite nth_error_app1 in Hp by lia. exact (I2 j part v Hj Hp).
Qed.
