(** * The parts of a cut mesh are closed (exact arithmetic) *)
From Coq Require Import ZArith Reals Lra Lia List Bool Permutation Sorted PeanoNat.
From Flocq Require Import Core.Raux.
From Verif Require Import Arith ArithR Prim Path PathClaims GeomSpec GeomProofs JoinProofs Helpers HelperClaims HelperProofs HelperProofs2
  SlicerClaims SlicerProofs ClosedClaims JoinClosed JoinClosed2 Watertight Properties_Path Properties_Closed CutClaims.
Import ListNotations.
Local Open Scope R_scope.
Close Scope num_scope.
Close Scope nat_scope.

(** ** Cancelling sides *)
Lemma pt_dec (a b : Rpoint) : {a = b} + {a <> b}.
Proof.
  destruct (Req_EM_T (X a) (X b)) as [E1|N]; [|right; intros ->; now apply N].
  destruct (Req_EM_T (Y a) (Y b)) as [E2|N]; [|right; intros ->; now apply N].
  destruct (Req_EM_T (Z3 a) (Z3 b)) as [E3|N]; [|right; intros ->; now apply N].
  left. now apply pt_ext.
Qed.
Definition side_dec (e f : side) : {e = f} + {e <> f}.
Proof. destruct e as [a b], f as [c d]. destruct (pt_dec a c) as [-> |N]; [|right; congruence]. destruct (pt_dec b d) as [-> |N]; [left; reflexivity|right; congruence]. Defined.

Lemma back_back e : back (back e) = e.
Proof. now destruct e. Qed.
Lemma count_back l e : count_occ side_dec (map back l) e = count_occ side_dec l (back e).
Proof.
  induction l as [|f l IH]; [reflexivity|]. cbn [map count_occ]. rewrite IH.
  destruct (side_dec (back f) e) as [E|N], (side_dec f (back e)) as [E'|N']; try reflexivity.
  - exfalso. apply N'. rewrite <- E. symmetry. apply back_back.
  - exfalso. apply N. rewrite E'. apply back_back.
Qed.

(** how often a side is run, less how often it is run backwards *)
Definition net (l : list side) (e : side) : Z := (Z.of_nat (count_occ side_dec l e) - Z.of_nat (count_occ side_dec l (back e)))%Z.
Lemma net_app l l' e : net (l ++ l') e = (net l e + net l' e)%Z.
Proof. unfold net. rewrite !count_occ_app. lia. Qed.
Lemma net_nil e : net [] e = 0%Z.
Proof. reflexivity. Qed.
Lemma net_cons f l e : net (f :: l) e = (net [f] e + net l e)%Z.
Proof. apply (net_app [f] l). Qed.
Lemma net_map_back l e : net (map back l) e = (- net l e)%Z.
Proof. unfold net. rewrite !count_back, back_back. lia. Qed.
Lemma net_back a b e : net [(b, a)] e = (- net [(a, b)] e)%Z.
Proof. apply (net_map_back [(a, b)]). Qed.
Lemma net_loop a e : net [(a, a)] e = 0%Z.
Proof. pose proof (net_back a a e). lia. Qed.
Lemma net_perm l l' e : Permutation l l' -> net l e = net l' e.
Proof. intros P. pose proof (proj1 (Permutation_count_occ side_dec l l') P) as K. unfold net. rewrite (K e), (K (back e)). reflexivity. Qed.

Lemma net_same l l' : (forall e, net l e = net l' e) -> same_boundary l l'.
Proof.
  intros H. unfold same_boundary. apply (Permutation_count_occ side_dec). intros e. rewrite !count_occ_app, !count_back.
  specialize (H e). unfold net in H. lia.
Qed.
Lemma net_closed m : (forall e, net (sides m) e = 0%Z) <-> closed m.
Proof.
  unfold closed. split; intros H.
  - apply (Permutation_count_occ side_dec). intros e. rewrite count_back. specialize (H e). unfold net in H. lia.
  - intros e. pose proof (proj1 (Permutation_count_occ side_dec _ _) H e) as K. rewrite count_back in K. unfold net. lia.
Qed.

(** ** Rounding and the test of splitOnThree *)
Lemma cross_small (u d : R * R * R) : let '(a, b, c) := u in let '(x, y, z) := d in
  a * a + b * b + c * c <= 100 * 100 -> Rabs x <= / 200000000 -> Rabs y <= / 200000000 -> Rabs z <= / 200000000 ->
  (b * z - c * y) * (b * z - c * y) + (c * x - a * z) * (c * x - a * z) + (a * y - b * x) * (a * y - b * x) <= 3 / 4 / 10 ^ 12.
Proof.
  destruct u as [[a b] c], d as [[x y] z]. intros U Hx Hy Hz.
  assert (S : forall w, Rabs w <= / 200000000 -> w * w <= / 40000000000000000).
  { intros w Hw. apply Rabs_le_inv in Hw. nra. }
  pose proof (S x Hx) as Sx. pose proof (S y Hy) as Sy. pose proof (S z Hz) as Sz.
  assert (L : (b * z - c * y) * (b * z - c * y) + (c * x - a * z) * (c * x - a * z) + (a * y - b * x) * (a * y - b * x) =
              (a * a + b * b + c * c) * (x * x + y * y + z * z) - (a * x + b * y + c * z) * (a * x + b * y + c * z)) by ring.
  rewrite L. pose proof (Rle_0_sqr (a * x + b * y + c * z)) as Q. unfold Rsqr in Q.
  assert (M : (a * a + b * b + c * c) * (x * x + y * y + z * z) <= (100 * 100) * (3 / 40000000000000000)).
  { apply Rmult_le_compat; [nra|nra|exact U|lra]. }
  lra.
Qed.

Lemma cross_round (a b q : Rpoint) : dist2 a b <= 100 * 100 ->
  let w := pt_round8 q in exists d : Rvector, varea a b w = Vadd (varea a b q) d /\ Vlen d < 1 / 10 ^ 6.
Proof.
  intros D w. destruct (pt_round8_near q) as (Nx & Ny & Nz). fold w in Nx, Ny, Nz.
  exists (V3 (A := ArithR) ((Y b - Y a) * (Z3 w - Z3 q) - (Z3 b - Z3 a) * (Y w - Y q))%R
     ((Z3 b - Z3 a) * (X w - X q) - (X b - X a) * (Z3 w - Z3 q))%R ((X b - X a) * (Y w - Y q) - (Y b - Y a) * (X w - X q))%R).
  split.
  - apply V_ext; unfold varea, Vadd; cbn [vx vy vz]; rcbn; ring.
  - pose proof (cross_small (X b - X a, Y b - Y a, Z3 b - Z3 a) (X w - X q, Y w - Y q, Z3 w - Z3 q)) as K. cbv beta iota in K.
    assert (U : (X b - X a) * (X b - X a) + (Y b - Y a) * (Y b - Y a) + (Z3 b - Z3 a) * (Z3 b - Z3 a) <= 100 * 100).
    { eapply Rle_trans; [|exact D]. unfold dist2. right. ring. }
    specialize (K U Nx Ny Nz). unfold Vlen, Vdot. cbn [vx vy vz].
    eapply Rle_lt_trans; [apply sqrt_le_1_alt; exact K|].
    replace (1 / 10 ^ 6) with (sqrt ((1 / 10 ^ 6) * (1 / 10 ^ 6))) by (apply sqrt_square; lra).
    apply sqrt_lt_1_alt. lra.
Qed.
Lemma Vlen_sum (u d : Rvector) : Vlen u - Vlen d <= Vlen (Vadd u d).
Proof.
  destruct (Rle_dec (Vlen u - Vlen d) 0) as [L|L]; [pose proof (Vlen_nonneg (Vadd u d)); lra|].
  pose proof (cauchy_abs u d) as C. pose proof (Vlen_sq u) as Su. pose proof (Vlen_sq d) as Sd. pose proof (Vlen_sq (Vadd u d)) as S.
  assert (E : Vdot (Vadd u d) (Vadd u d) = Vdot u u + 2 * Vdot u d + Vdot d d) by (unfold Vdot, Vadd; cbn [vx vy vz]; rcbn; ring).
  rewrite E in S. apply Rabs_le_inv in C. pose proof (Vlen_nonneg (Vadd u d)). set (x := Vlen u) in *. set (y := Vlen d) in *. set (z := Vlen (Vadd u d)) in *.
  apply Rnot_le_lt in L. apply Rsqr_incr_0_var; [|exact H]. unfold Rsqr. nra.
Qed.

Lemma test_on (a b q : Rpoint) : dist2 a b <= 100 * 100 -> varea a b q = Vzero ->
  almostZero (A := ArithR) (vlen (cross (vectorTo a b) (vectorTo a (pt_round8 q)))) = true.
Proof.
  intros D Z. rewrite cross_arrow, vlen_R. destruct (cross_round a b q D) as (d & E & L). rewrite E, Z.
  assert (Vadd Vzero d = d) as -> by (apply V_ext; unfold Vadd, Vzero; cbn [vx vy vz]; rcbn; ring).
  apply almostZero_R. rewrite Rabs_pos_eq by apply Vlen_nonneg. lra.
Qed.
Lemma test_off (a b q : Rpoint) : dist2 a b <= 100 * 100 -> 2 / 10 ^ 6 <= Vlen (varea a b q) ->
  almostZero (A := ArithR) (vlen (cross (vectorTo a b) (vectorTo a (pt_round8 q)))) = false.
Proof.
  intros D Z. rewrite cross_arrow, vlen_R. destruct (cross_round a b q D) as (d & E & L). rewrite E.
  destruct (almostZero _) eqn:H; [|reflexivity]. apply almostZero_R in H. rewrite Rabs_pos_eq in H by apply Vlen_nonneg.
  pose proof (Vlen_sum (varea a b q) d). lra.
Qed.

(** ** One triangle *)
Section Plane.
Variable p : Rplane.
Notation mk := (mark p).

Lemma sign_up e : going_up p e = true <-> sd p (fst e) < 0 /\ 0 < sd p (snd e).
Proof. apply up_true. Qed.

(** the part of a side in front of the plane, and the part behind *)
Definition clip (up : bool) (e : side) : list side :=
  if going_up p e then [if up then (mk e, snd e) else (fst e, mk e)]
  else if going_down p e then [if up then (fst e, mk e) else (mk e, snd e)]
  else if eqb (Rltb 0 (sd p (fst e))) up then [e] else [].

Lemma up_not_down e : going_up p e = true -> going_down p e = false.
Proof. intros H. destruct (going_down p e) eqn:D; [|reflexivity]. apply up_true in H. apply down_true in D. lra. Qed.

Lemma clip_back up e : sd p (fst e) <> 0 -> sd p (snd e) <> 0 -> clip up (back e) = map back (clip up e).
Proof.
  intros H1 H2. unfold clip. rewrite back_up, back_down.
  destruct (going_up p e) eqn:U.
  - rewrite (up_not_down e U). unfold mark. rewrite back_at by auto. destruct up; reflexivity.
  - destruct (going_down p e) eqn:D.
    + unfold mark. rewrite back_at by auto. destruct up; reflexivity.
    + assert (E : Rltb 0 (sd p (fst (back e))) = Rltb 0 (sd p (fst e))).
      { destruct (Rltb 0 (sd p (fst (back e)))) eqn:E1, (Rltb 0 (sd p (fst e))) eqn:E2; try reflexivity; exfalso.
        - assert (going_up p e = true); [|congruence]. apply up_true. apply Rltb_true in E1. apply Rltb_false in E2. cbn [back fst snd] in E1. lra.
        - assert (going_down p e = true); [|congruence]. apply down_true. apply Rltb_true in E2. apply Rltb_false in E1. cbn [back fst snd] in E1. lra. }
      rewrite E. destruct (eqb _ _); reflexivity.
Qed.

Lemma clip_balanced up l : (forall e, In e l -> sd p (fst e) <> 0 /\ sd p (snd e) <> 0) -> Permutation l (map back l) ->
  forall e, net (flat_map (clip up) l) e = 0%Z.
Proof.
  intros V P e.
  assert (E : flat_map (clip up) (map back l) = map back (flat_map (clip up) l)).
  { clear P. induction l as [|f l IH]; [reflexivity|]. cbn [map flat_map]. rewrite map_app, clip_back; try (apply V; now left).
    f_equal. apply IH. intros g Hg. apply V. now right. }
  pose proof (net_perm _ _ e (Permutation_flat_map (clip up) P)) as K. rewrite E, net_map_back in K. lia.
Qed.

Lemma sign_cases (t : Rtriangle) : sd p (t1 t) <> 0 -> sd p (t2 t) <> 0 -> sd p (t3 t) <> 0 ->
  (0 < sd p (t1 t) /\ 0 < sd p (t2 t) /\ 0 < sd p (t3 t)) \/ (sd p (t1 t) < 0 /\ sd p (t2 t) < 0 /\ sd p (t3 t) < 0) \/
  exists a b c, corner_of t a b c /\ ((0 < sd p a /\ sd p b < 0 /\ sd p c < 0) \/ (sd p a < 0 /\ 0 < sd p b /\ 0 < sd p c)).
Proof.
  intros H1 H2 H3. set (a := t1 t) in *. set (b := t2 t) in *. set (c := t3 t) in *.
  destruct (Rlt_le_dec 0 (sd p a)) as [A|A], (Rlt_le_dec 0 (sd p b)) as [B|B], (Rlt_le_dec 0 (sd p c)) as [C|C];
    try (left; lra); try (right; left; lra); right; right.
  - exists c, a, b. split; [right; right; reflexivity|]. right. lra.
  - exists b, c, a. split; [right; left; reflexivity|]. right. lra.
  - exists a, b, c. split; [left; reflexivity|]. left. lra.
  - exists a, b, c. split; [left; reflexivity|]. right. lra.
  - exists b, c, a. split; [right; left; reflexivity|]. left. lra.
  - exists c, a, b. split; [right; right; reflexivity|]. left. lra.
Qed.

Lemma front_true (q : Rpoint) : 0 < sd p q -> pointInFront p q = true.
Proof. intros H. apply front_R. lra. Qed.
Lemma front_false (q : Rpoint) : sd p q < 0 -> pointInFront p q = false.
Proof. intros H. destruct (pointInFront p q) eqn:E; [|reflexivity]. apply front_R in E. lra. Qed.

Lemma mark_on (a b : Rpoint) : exists s, at_plane p (a, b) = along a b s.
Proof. unfold at_plane, cut. cbn [fst snd]. eexists. reflexivity. Qed.

(** corner in front *)
Lemma cut_corner_up (t : Rtriangle) a b c : dividable p t -> corner_of t a b c -> 0 < sd p a -> sd p b < 0 -> sd p c < 0 ->
  intersectTriangle p t = Some (L2 (mk (c, a)) (mk (a, b))) ->
  cut_one p t = ([newTriangle a (mk (a, b)) (mk (c, a))], [newTriangle (mk (a, b)) b c; newTriangle c (mk (c, a)) (mk (a, b))],
                 [[mk (c, a); mk (a, b)]]).
Proof.
  intros D Co Ha Hb Hc I. destruct (D a b c Co) as (N1 & N2 & S & _); [nra|nra|].
  assert (T : splitOnThree a (L2 (mk (c, a)) (mk (a, b))) t =
    (newTriangle a (mk (a, b)) (mk (c, a)), newTriangle (mk (a, b)) b c, newTriangle c (mk (c, a)) (mk (a, b)))).
  { unfold splitOnThree. rewrite (turn_corner t a b c Co N1 N2). cbn [lp1 lp2]. unfold mark at 1.
    destruct (mark_on a b) as (s & Es). rewrite test_on; [reflexivity|exact S|]. rewrite Es. apply area_along_ab. }
  unfold cut_one. rewrite I.
  pose proof (front_true a Ha) as Fa. pose proof (front_false b Hb) as Fb. pose proof (front_false c Hc) as Fc.
  destruct Co as [[= -> -> ->]|[[= -> -> ->]|[= -> -> ->]]]; cbn [filter]; rewrite Fa, Fb, Fc; cbn [negb]; rewrite T; reflexivity.
Qed.

(** corner behind *)
Lemma cut_corner_down (t : Rtriangle) a b c : dividable p t -> corner_of t a b c -> sd p a < 0 -> 0 < sd p b -> 0 < sd p c ->
  intersectTriangle p t = Some (L2 (mk (a, b)) (mk (c, a))) ->
  cut_one p t = ([newTriangle (mk (a, b)) b c; newTriangle c (mk (c, a)) (mk (a, b))], [newTriangle a (mk (a, b)) (mk (c, a))],
                 [[mk (a, b); mk (c, a)]]).
Proof.
  intros D Co Ha Hb Hc I. destruct (D a b c Co) as (N1 & N2 & S & Q); [nra|nra|].
  assert (T : splitOnThree a (L2 (mk (a, b)) (mk (c, a))) t =
    (newTriangle a (mk (a, b)) (mk (c, a)), newTriangle (mk (a, b)) b c, newTriangle c (mk (c, a)) (mk (a, b)))).
  { unfold splitOnThree. rewrite (turn_corner t a b c Co N1 N2). cbn [lp1 lp2]. unfold mark at 1.
    rewrite test_off; [reflexivity|exact S|]. apply Q.
    assert (U : going_up p (a, c) = true) by (apply up_true; cbn [fst snd]; lra).
    change (c, a) with (back (a, c)). rewrite back_at by auto. apply cut_meets. auto. }
  unfold cut_one. rewrite I.
  pose proof (front_false a Ha) as Fa. pose proof (front_true b Hb) as Fb. pose proof (front_true c Hc) as Fc.
  destruct Co as [[= -> -> ->]|[[= -> -> ->]|[= -> -> ->]]]; cbn [filter]; rewrite Fa, Fb, Fc; cbn [negb]; rewrite T; reflexivity.
Qed.

Section Mesh.
Variable m : Rmesh.
Hypothesis WT : watertight m.
Hypothesis GP : general_position p m.

Lemma off_plane t v : In t m -> In v [t1 t; t2 t; t3 t] -> sd p v <> 0.
Proof. intros Ht Hv. destruct GP as [G _]. apply G. apply in_flat_map. eauto. Qed.

Lemma section_of t : In t m ->
  (intersectTriangle p t = None /\ filter (going_up p) (tri_sides t) = [] /\ filter (going_down p) (tri_sides t) = []) \/
  (exists eu ed, filter (going_up p) (tri_sides t) = [eu] /\ filter (going_down p) (tri_sides t) = [ed] /\
     intersectTriangle p t = Some (L2 (mk eu) (mk ed))).
Proof.
  intros Ht. destruct WT as (_ & _ & W). rewrite Forall_forall in W. destruct (W t Ht) as (D1 & D2 & D3 & Et).
  assert (S1 : forall e, In e (tri_sides t) -> In e (sides m)) by (intros e He; apply in_flat_map; eauto).
  apply (tri_section p t Et); try (apply (off_plane t); [exact Ht|cbn; auto]).
  intros e e' He He' Hu Hd. apply (different_far p m GP); auto.
  - intros ->. apply up_true in Hu. apply down_true in Hd. lra.
  - intros ->. unfold tri_sides, back in He, He'.
    destruct He as [<-|[<-|[<-|[]]]]; cbn [fst snd] in He'; destruct He' as [X1|[X1|[X1|[]]]]; congruence.
Qed.

(** the front and back pieces of a triangle, and its section *)
Lemma triangle_net t e : In t m -> dividable p t ->
  net (sides (fst (fst (cut_one p t)))) e = (net (flat_map (clip true) (tri_sides t)) e - net (flat_map path_sides (snd (cut_one p t))) e)%Z /\
  net (sides (snd (fst (cut_one p t)))) e = (net (flat_map (clip false) (tri_sides t)) e + net (flat_map path_sides (snd (cut_one p t))) e)%Z /\
  snd (cut_one p t) = sections p [t].
Proof.
  intros Ht D.
  assert (Vs : forall v, In v [t1 t; t2 t; t3 t] -> sd p v <> 0) by (intros v; apply off_plane, Ht).
  assert (G : forall a b, going_up p (a, b) = (Rltb (sd p a) 0 && Rltb 0 (sd p b))%bool) by reflexivity.
  assert (H : forall a b, going_down p (a, b) = (Rltb 0 (sd p a) && Rltb (sd p b) 0)%bool) by reflexivity.
  assert (LT : forall x, 0 < x -> Rltb 0 x = true /\ Rltb x 0 = false) by (intros x Hx; rewrite Rltb_true, Rltb_false; lra).
  assert (LF : forall x, x < 0 -> Rltb 0 x = false /\ Rltb x 0 = true) by (intros x Hx; rewrite Rltb_true, Rltb_false; lra).
  destruct (sign_cases t) as [(A & B & C)|[(A & B & C)|(a & b & c & Co & S)]]; try (apply Vs; cbn; auto; fail).
  - (* all in front *)
    pose proof (front_true _ A) as Fa. pose proof (front_true _ B) as Fb. pose proof (front_true _ C) as Fc.
    assert (E : cut_one p t = ([t], [], [])) by (unfold cut_one; cbn [filter]; rewrite Fa, Fb, Fc; reflexivity).
    destruct (LT _ A) as [A1 A2]. destruct (LT _ B) as [B1 B2]. destruct (LT _ C) as [C1 C2].
    rewrite E. cbn [fst snd flat_map]. unfold sides, tri_sides, clip. cbn [flat_map fst snd]. rewrite !G, !H. rewrite ?A1, ?A2, ?B1, ?B2, ?C1, ?C2. cbn [andb eqb app flat_map].
    rewrite !net_nil. split; [lia|]. split; [reflexivity|]. unfold sections. cbn [flat_map].
    destruct (section_of t Ht) as [(I & _)|(eu & ed & F & _)]; [rewrite I; reflexivity|exfalso].
    revert F. unfold tri_sides. cbn [filter]. rewrite !G, A2, B2, C2. discriminate.
  - pose proof (front_false _ A) as Fa. pose proof (front_false _ B) as Fb. pose proof (front_false _ C) as Fc.
    assert (E : cut_one p t = ([], [t], [])) by (unfold cut_one; cbn [filter]; rewrite Fa, Fb, Fc; reflexivity).
    destruct (LF _ A) as [A1 A2]. destruct (LF _ B) as [B1 B2]. destruct (LF _ C) as [C1 C2].
    rewrite E. cbn [fst snd flat_map]. unfold sides, tri_sides, clip. cbn [flat_map fst snd]. rewrite !G, !H. rewrite ?A1, ?A2, ?B1, ?B2, ?C1, ?C2. cbn [andb eqb app flat_map].
    rewrite !net_nil. split; [lia|]. split; [lia|]. unfold sections. cbn [flat_map].
    destruct (section_of t Ht) as [(I & _)|(eu & ed & F & _)]; [rewrite I; reflexivity|exfalso].
    revert F. unfold tri_sides. cbn [filter]. rewrite !G, A1, B1, C1, !andb_false_r. discriminate.
  - destruct S as [(A & B & C)|(A & B & C)].
    + destruct (LT _ A) as [A1 A2]. destruct (LF _ B) as [B1 B2]. destruct (LF _ C) as [C1 C2].
      assert (I : intersectTriangle p t = Some (L2 (mk (c, a)) (mk (a, b)))).
      { destruct (section_of t Ht) as [(_ & F & _)|(eu & ed & F1 & F2 & I)].
        - exfalso. revert F. unfold tri_sides. destruct Co as [[= -> -> ->]|[[= -> -> ->]|[= -> -> ->]]]; cbn [filter]; rewrite !G, ?A1, ?A2, ?B1, ?B2, ?C1, ?C2; discriminate.
        - rewrite I. f_equal. revert F1 F2. unfold tri_sides. destruct Co as [[= -> -> ->]|[[= -> -> ->]|[= -> -> ->]]]; cbn [filter];
            rewrite !G, !H, ?A1, ?A2, ?B1, ?B2, ?C1, ?C2; cbn [andb]; intros [= <-] [= <-]; reflexivity. }
      rewrite (cut_corner_up t a b c D Co A B C I). cbn [fst snd]. unfold sections. cbn [flat_map]. rewrite I. cbn [lp1 lp2 app].
      assert (K : forall up, net (flat_map (clip up) (tri_sides t)) e = (net (clip up (a, b)) e + net (clip up (b, c)) e + net (clip up (c, a)) e)%Z).
      { intros up. unfold tri_sides. cbn [flat_map]. destruct Co as [[= -> -> ->]|[[= -> -> ->]|[= -> -> ->]]]; rewrite !net_app, net_nil; unfold Rpoint; lia. }
      rewrite !K. unfold clip. rewrite !G, !H. cbn [fst snd]. rewrite ?A1, ?A2, ?B1, ?B2, ?C1, ?C2. cbn [andb eqb].
      unfold sides, tri_sides, path_sides. cbn [flat_map app newTriangle t1 t2 t3 combine tl].
      rewrite !(net_cons _ (_ :: _)), !net_nil.
      pose proof (net_back (mk (a, b)) (mk (c, a)) e). pose proof (net_back c (mk (a, b)) e). unfold side, Rpoint in *.
      split; [lia|]. split; [lia|reflexivity].
    + destruct (LF _ A) as [A1 A2]. destruct (LT _ B) as [B1 B2]. destruct (LT _ C) as [C1 C2].
      assert (I : intersectTriangle p t = Some (L2 (mk (a, b)) (mk (c, a)))).
      { destruct (section_of t Ht) as [(_ & F & _)|(eu & ed & F1 & F2 & I)].
        - exfalso. revert F. unfold tri_sides. destruct Co as [[= -> -> ->]|[[= -> -> ->]|[= -> -> ->]]]; cbn [filter]; rewrite !G, ?A1, ?A2, ?B1, ?B2, ?C1, ?C2; discriminate.
        - rewrite I. f_equal. revert F1 F2. unfold tri_sides. destruct Co as [[= -> -> ->]|[[= -> -> ->]|[= -> -> ->]]]; cbn [filter];
            rewrite !G, !H, ?A1, ?A2, ?B1, ?B2, ?C1, ?C2; cbn [andb]; intros [= <-] [= <-]; reflexivity. }
      rewrite (cut_corner_down t a b c D Co A B C I). cbn [fst snd]. unfold sections. cbn [flat_map]. rewrite I. cbn [lp1 lp2 app].
      assert (K : forall up, net (flat_map (clip up) (tri_sides t)) e = (net (clip up (a, b)) e + net (clip up (b, c)) e + net (clip up (c, a)) e)%Z).
      { intros up. unfold tri_sides. cbn [flat_map]. destruct Co as [[= -> -> ->]|[[= -> -> ->]|[= -> -> ->]]]; rewrite !net_app, net_nil; unfold Rpoint; lia. }
      rewrite !K. unfold clip. rewrite !G, !H. cbn [fst snd]. rewrite ?A1, ?A2, ?B1, ?B2, ?C1, ?C2. cbn [andb eqb].
      unfold sides, tri_sides, path_sides. cbn [flat_map app newTriangle t1 t2 t3 combine tl].
      rewrite !(net_cons _ (_ :: _)), !net_nil.
      pose proof (net_back (mk (a, b)) (mk (c, a)) e). pose proof (net_back c (mk (a, b)) e). unfold side, Rpoint in *.
      split; [lia|]. split; [lia|reflexivity].
Qed.

Lemma pieces_net m' e : incl m' m -> Forall (dividable p) m' ->
  net (sides (flat_map (fun x => fst (fst x)) (map (cut_one p) m'))) e = (net (flat_map (clip true) (sides m')) e - net (flat_map path_sides (sections p m')) e)%Z /\
  net (sides (flat_map (fun x => snd (fst x)) (map (cut_one p) m'))) e = (net (flat_map (clip false) (sides m')) e + net (flat_map path_sides (sections p m')) e)%Z /\
  section_lines p m' = sections p m'.
Proof.
  intros I F. rewrite <- sections_flat. induction m' as [|t m' IH]; [repeat split; reflexivity|].
  inversion F as [|? ? F1 F2]; subst. destruct IH as (IH1 & IH2 & IH3); [intros x Hx; apply I; now right|exact F2|].
  destruct (triangle_net t e (I t (or_introl eq_refl)) F1) as (T1 & T2 & T3).
  cbn [map flat_map].
  assert (S : sections p (t :: m') = sections p [t] ++ sections p m').
  { unfold sections. cbn [flat_map]. now rewrite app_nil_r. }
  rewrite S. unfold sides in *. rewrite !flat_map_app, !net_app. cbn [flat_map]. rewrite !flat_map_app, !net_app.
  rewrite <- T3. unfold sides, side, Rpoint, Rmesh, Rtriangle, Rpath, path in *. split; [lia|]. split; [lia|]. now rewrite IH3.
Qed.
End Mesh.

(** ** The fans *)
Lemma fan_cons (a b c : Rpoint) r d : fan (a :: b :: c :: r) d = (a, b, c) :: fan (a :: c :: r) d.
Proof.
  unfold fan. cbn [length Nat.sub]. rewrite Nat.sub_0_r.
  cbn [seq map nth]. f_equal. rewrite <- seq_shift, map_map. apply map_ext_in. intros j Hj. apply in_seq in Hj.
  destruct j as [|j]; [lia|]. reflexivity.
Qed.

Definition way (cw : bool) (x : Rpoint * Rpoint * Rpoint) : Prop :=
  let '(a, b, c) := x in c = a \/ if cw then Vdot (varea a b c) (pl_n p) < 0 else 0 <= Vdot (varea a b c) (pl_n p).
Definition sgn (cw : bool) : Z := if cw then 1%Z else (-1)%Z.

Lemma cap_pair_net cw a b c e : way cw (a, b, c) ->
  net (tri_sides (fst (cap_pair p a b c))) e = (sgn cw * (net [(a, b)] e + net [(b, c)] e + net [(c, a)] e))%Z /\
  net (tri_sides (snd (cap_pair p a b c))) e = (- (sgn cw * (net [(a, b)] e + net [(b, c)] e + net [(c, a)] e)))%Z.
Proof.
  intros H.
  assert (F : forall x y z : Rpoint, net (tri_sides (newTriangle x y z)) e = (net [(x, y)] e + net [(y, z)] e + net [(z, x)] e)%Z).
  { intros x y z. unfold tri_sides. cbn [newTriangle t1 t2 t3]. rewrite !(net_cons _ (_ :: _)). unfold side, Rpoint. lia. }
  assert (Cd : codirected (t_n (newTriangle a b c)) (pl_n p) = Rleb 0 (Vdot (varea a b c) (pl_n p))).
  { unfold codirected. rewrite dot_R, (proj2 (new_area a b c)). rcbn. reflexivity. }
  unfold way in H. unfold cap_pair. rewrite Cd. destruct H as [-> |L].
  - assert (Z0 : (net [(a, b)] e + net [(b, a)] e + net [(a, a)] e)%Z = 0%Z).
    { rewrite net_loop. pose proof (net_back a b e). unfold side, Rpoint in *. lia. }
    destruct (Rleb _ _); cbn [fst snd]; rewrite !F, Z0; unfold side, Rpoint in *; split; unfold side, Rpoint; rewrite Z.mul_0_r; lia.
  - pose proof (net_back a b e) as H1. pose proof (net_back b c e) as H2. pose proof (net_back c a e) as H3. destruct cw.
    + assert (Rleb 0 (Vdot (varea a b c) (pl_n p)) = false) as -> by (apply Rleb_false; exact L). cbn [fst snd sgn]. rewrite !F. unfold side, Rpoint in *. lia.
    + assert (Rleb 0 (Vdot (varea a b c) (pl_n p)) = true) as -> by (apply Rleb_true; exact L). cbn [fst snd sgn]. rewrite !F. unfold side, Rpoint in *. lia.
Qed.

Lemma fan_net cw a e : forall r b, Forall (way cw) (fan (a :: b :: r) originPoint) ->
  let s := (sgn cw * if r then 0 else net [(a, b)] e + net (path_sides (b :: r)) e + net [(last (b :: r) a, a)] e)%Z in
  net (sides (map fst (cap_fan p a (b :: r)))) e = s /\ net (sides (map snd (cap_fan p a (b :: r)))) e = (- s)%Z.
Proof.
  induction r as [|c r IH]; intros b F; [destruct cw; split; reflexivity|]. rewrite fan_cons in F. inversion F as [|? ? F1 F2]; subst.
  destruct (IH c F2) as (I1 & I2). destruct (cap_pair_net cw a b c e F1) as (J1 & J2). cbv zeta.
  change (cap_fan p a (b :: c :: r)) with (cap_pair p a b c :: cap_fan p a (c :: r)). cbn [map].
  assert (S : forall t l, net (sides (t :: l)) e = (net (tri_sides t) e + net (sides l) e)%Z) by (intros t l; apply net_app).
  rewrite !S, I1, I2, J1, J2.
  assert (P : net (path_sides (b :: c :: r)) e = (net [(b, c)] e + net (path_sides (c :: r)) e)%Z) by apply net_cons.
  rewrite P. assert (L : last (b :: c :: r) a = last (c :: r) a) by reflexivity. rewrite L.
  destruct r as [|d r].
  - cbn [last]. assert (net (path_sides [c]) e = 0%Z) as -> by reflexivity. unfold side, Rpoint. destruct cw; cbn [sgn]; lia.
  - pose proof (net_back c a e). unfold side, Rpoint in *. destruct cw; cbn [sgn]; lia.
Qed.

Lemma ring_net cw (q : Rpath) e : (2 <= length q)%nat -> upto q = from q -> Forall (way cw) (fan q originPoint) ->
  net (sides (map fst (cap_path p q))) e = (sgn cw * net (path_sides q) e)%Z /\
  net (sides (map snd (cap_path p q))) e = (- (sgn cw * net (path_sides q) e))%Z.
Proof.
  intros L U F. destruct q as [|a [|b r]]; [cbn in L; lia|cbn in L; lia|]. unfold upto, from in U. cbn [hd] in U.
  destruct (fan_net cw a e r b F) as (N1 & N2). cbn [cap_path]. rewrite N1, N2.
  assert (P : net (path_sides (a :: b :: r)) e = (net [(a, b)] e + net (path_sides (b :: r)) e)%Z) by apply net_cons. rewrite P.
  assert (V : last (b :: r) a = a).
  { rewrite (last_dflt (b :: r) a originPoint) by discriminate. exact U. }
  destruct r as [|c r].
  - cbn in V. subst b. assert (net (path_sides [a]) e = 0%Z) as -> by reflexivity. rewrite net_loop. destruct cw; split; reflexivity.
  - rewrite V, net_loop. unfold side, Rpoint. destruct cw; cbn [sgn]; lia.
Qed.
Lemma rings_net cw (js : list Rpath) e : Forall (fun q : Rpath => (2 <= length q)%nat /\ upto q = from q) js ->
  Forall (fun q => Forall (way cw) (fan q originPoint)) js ->
  net (sides (map fst (flat_map (cap_path p) js))) e = (sgn cw * net (flat_map path_sides js) e)%Z /\
  net (sides (map snd (flat_map (cap_path p) js))) e = (- (sgn cw * net (flat_map path_sides js) e))%Z.
Proof.
  intros R. induction R as [|q l [R1 R2] R IH]; intros F; [destruct cw; split; reflexivity|]. inversion F as [|? ? F1 F2]; subst.
  destruct (IH F2) as (I1 & I2). destruct (ring_net cw q e R1 R2 F1) as (K1 & K2).
  cbn [flat_map]. rewrite !map_app. unfold sides in *. rewrite !flat_map_app, !net_app.
  unfold side, Rpoint, Rmesh, Rtriangle, Rpath, path in *. destruct cw; cbn [sgn] in *; lia.
Qed.
End Plane.

(** contours come back to the very point they start from *)
Lemma rings_exact srt (p : Rplane) (m : Rmesh) :
  sorts (fun a b => sortp_less (fst a) (fst b)) srt -> watertight m -> general_position p m ->
  exists out, joinPaths3 srt (sections p m) = Ok out /\
    Permutation (flat_map path_sides out) (flat_map path_sides (sections p m)) /\
    Forall (fun q : Rpath => (2 <= length q)%nat /\ upto q = from q) out.
Proof.
  intros S W G. destruct (C80_rings srt p m S W G) as (out & E & (parts & P & F) & Rg).
  destruct (C80_sides srt p m S W G) as (out' & E' & _ & Q & _). rewrite E in E'. injection E' as <-.
  exists out. split; [exact E|]. split; [exact Q|].
  destruct (sections_contours p m W G) as (C & (Sx & Sy & Sz) & L).
  assert (EQ : forall x y, In x (map upto (sections p m)) -> In y (map from (sections p m)) -> pt_equal x y = true -> x = y).
  { intros x y Hx Hy Te. unfold pt_equal in Te. apply andb_true_iff in Te. destruct Te as (Te & Tz). apply andb_true_iff in Te. destruct Te as (Tx & Ty).
    assert (K : forall (f : Rpoint -> R), separated (A := ArithR) (map f (map from (sections p m) ++ map upto (sections p m))) -> almostZero (A := ArithR) (f x - f y)%R = true -> f x = f y).
    { intros f Sf Af. apply Sf in Af; [| |]; try (apply in_map, in_or_app; auto; fail).
      destruct Af as (U & V). change (Rltb (f x) (f y) = false) in U. change (Rltb (f y) (f x) = false) in V.
      apply Rltb_false in U, V. apply Rle_antisym; assumption. }
    pose proof (K px Sx Tx) as Ex. pose proof (K py Sy Ty) as Ey. pose proof (K pz Sz Tz) as Ez. destruct x, y. cbn in Ex, Ey, Ez. now subst. }
  assert (I : incl (concat parts) (sections p m)) by (intros x; apply Permutation_in, P).
  clear E Q P. revert Rg. induction F as [|q l out parts Cq F IH]; intros Rg; [constructor|]. inversion Rg as [|? ? R1 R2]; subst.
  constructor.
  - destruct (chain_directed (sections p m) EQ L q l Cq) as (A1 & A2 & A3 & _).
    { intros x Hx. apply I. cbn [concat]. apply in_or_app. now left. }
    split; [exact A3|]. apply EQ; [exact A2|exact A1|]. destruct R1 as [_ Cl]. unfold isClosed in Cl. destruct q as [|a [|b r]]; [cbn in A3; lia|cbn in A3; lia|].
    unfold upto, from. cbn [hd]. rewrite (last_dflt (a :: b :: r) originPoint a) by discriminate. apply pt_equal_R in Cl. apply pt_equal_R. now apply closer_sym.
  - apply IH; [|exact R2]. intros x Hx. apply I. cbn [concat]. apply in_or_app. now right.
Qed.
