(** * Properties C100-C101: the parts of a cut mesh *)
From Coq Require Import String ZArith Reals Lra Lia List Bool Permutation Sorted PeanoNat.
From Flocq Require Import Core.Raux.
From Verif Require Import Arith ArithR ArithF64 Prim Path PathClaims GeomSpec GeomProofs MeshProofs JoinProofs Helpers HelperClaims HelperProofs HelperProofs2
  Slicer SlicerClaims SlicerProofs SlicerProofs2 Properties_Path Properties_Slicer ClosedClaims JoinClosed JoinClosed2 Watertight Properties_Closed CutClaims CutProofs.
Import ListNotations.
Close Scope Z_scope.
Close Scope num_scope.
Close Scope string_scope.
Close Scope R_scope.

(** ** C100 Both parts are closed *)

(** The pieces of the triangles in front of the plane leave open exactly the
    section: their sides have the boundary of the directed sections run
    backwards; the pieces behind have that of the sections. *)
Theorem C100_pieces : forall srt (p : Rplane) (m : Rmesh), (forall l, Permutation l (srt l)) ->
  watertight m -> general_position p m -> Forall (dividable p) m ->
  exists us ds cu cd, cutMesh srt m p = Ok (us ++ cu, ds ++ cd) /\ pieces p m us ds /\
    same_boundary (sides us) (map back (flat_map path_sides (sections p m))) /\
    same_boundary (sides ds) (flat_map path_sides (sections p m)).
Proof.
  intros srt p m Hs W G D. destruct m as [|t0 m0] eqn:Em.
  - exists [], [], [], []. split; [reflexivity|]. split; [constructor|]. split; constructor.
  - rewrite <- Em in *. destruct (join_pairs srt (section_lines p m) Hs (section_nonempty p _)) as (j & J).
    rewrite cutMesh_def by (rewrite Em; discriminate). rewrite J. cbn [rbind]. cbv zeta.
    do 4 eexists. split; [reflexivity|]. split; [apply pieces_flat|].
    assert (V : forall e, In e (sides m) -> sd p (fst e) <> 0%R /\ sd p (snd e) <> 0%R).
    { intros e He. apply in_flat_map in He. destruct He as (t & Ht & He). unfold tri_sides in He.
      destruct He as [<-|[<-|[<-|[]]]]; cbn [fst snd]; split; apply (off_plane p m G t); cbn; auto. }
    split; apply net_same; intros e; destruct (pieces_net p m W G m e (incl_refl m) D) as (N1 & N2 & _).
    + etransitivity; [exact N1|]. rewrite net_map_back, (clip_balanced p true (sides m) V (proj1 W)). lia.
    + etransitivity; [exact N2|]. rewrite (clip_balanced p false (sides m) V (proj1 W)). lia.
Qed.

(** No point having been dropped from the contours, and every one running clockwise
    or anticlockwise from its first point: the parts have the boundary of the
    anticlockwise contours, the holes, taken twice. *)
Theorem C101_holes : forall srt (p : Rplane) (m : Rmesh) js outer holes,
  sorts (fun a b => sortp_less (fst a) (fst b)) srt -> watertight m -> general_position p m -> Forall (dividable p) m ->
  joinPaths3 srt (sections p m) = Ok js -> Forall (fun q => minimizeLines q = q) js -> Permutation js (outer ++ holes) ->
  Forall (clockwise p) outer -> Forall (anticlockwise p) holes ->
  exists up down, cutMesh srt m p = Ok (up, down) /\
    let h := flat_map path_sides holes in
    same_boundary (sides up) (map back (h ++ h)) /\ same_boundary (sides down) (h ++ h).
Proof.
  intros srt p m js outer holes S W G D J M Pj Ho Hh. destruct (rings_exact srt p m S W G) as (js' & J' & Q & R).
  rewrite J in J'. injection J' as <-.
  assert (H : Forall (fun q : Rpath => (2 <= length q)%nat /\ upto q = from q) (outer ++ holes)).
  { apply Forall_forall. intros q Hq. rewrite Forall_forall in R. apply R. now apply (Permutation_in _ (Permutation_sym Pj)). }
  apply Forall_app in H. destruct H as (Ro & Rh).
  assert (V : forall e, In e (sides m) -> sd p (fst e) <> 0%R /\ sd p (snd e) <> 0%R).
  { intros e He. apply in_flat_map in He. destruct He as (t & Ht & He). unfold tri_sides in He.
    destruct He as [<-|[<-|[<-|[]]]]; cbn [fst snd]; split; apply (off_plane p m G t); cbn; auto. }
  assert (SL : section_lines p m = sections p m) by (exact (proj2 (proj2 (pieces_net p m W G m (originPoint, originPoint) (incl_refl m) D)))).
  assert (JM : joinPaths3AndMinimize srt (section_lines p m) = Ok js).
  { unfold joinPaths3AndMinimize. rewrite SL, J. cbn [rbind]. f_equal. clear -M. induction M as [|q l E F IH]; [reflexivity|]. cbn [map]. now rewrite E, IH. }
  assert (C : exists us ds, cutMesh srt m p = Ok (us ++ map fst (flat_map (cap_path p) js), ds ++ map snd (flat_map (cap_path p) js)) /\
     forall e, net (sides us) e = (- net (flat_map path_sides (sections p m)) e)%Z /\ net (sides ds) e = net (flat_map path_sides (sections p m)) e).
  { exists (flat_map (fun x => fst (fst x)) (map (cut_one p) m)), (flat_map (fun x => snd (fst x)) (map (cut_one p) m)). split.
    - destruct m as [|t0 m0] eqn:Em.
      + rewrite (join3_nil srt (proj1 S) : joinPaths3AndMinimize srt (section_lines p []) = Ok []) in JM. injection JM as <-. reflexivity.
      + rewrite cutMesh_def by discriminate. rewrite JM. reflexivity.
    - intros e. destruct (pieces_net p m W G m e (incl_refl m) D) as (N1 & N2 & _).
      rewrite (clip_balanced p true (sides m) V (proj1 W)) in N1. rewrite (clip_balanced p false (sides m) V (proj1 W)) in N2.
      split; [etransitivity; [exact N1|lia]|etransitivity; [exact N2|lia]]. }
  destruct C as (us & ds & C & N). do 2 eexists. split; [exact C|]. cbv zeta.
  assert (K : forall e, net (sides (map fst (flat_map (cap_path p) js))) e = (net (flat_map path_sides outer) e - net (flat_map path_sides holes) e)%Z /\
                        net (sides (map snd (flat_map (cap_path p) js))) e = (net (flat_map path_sides holes) e - net (flat_map path_sides outer) e)%Z).
  { intros e. pose proof (Permutation_flat_map (cap_path p) Pj) as Pc. rewrite flat_map_app in Pc.
    pose proof (net_perm _ _ e (Permutation_flat_map tri_sides (Permutation_map fst Pc))) as K1.
    pose proof (net_perm _ _ e (Permutation_flat_map tri_sides (Permutation_map snd Pc))) as K2.
    rewrite map_app, flat_map_app, net_app in K1, K2.
    destruct (rings_net p true outer e Ro Ho) as (A1 & A2). destruct (rings_net p false holes e Rh Hh) as (B1 & B2).
    unfold sides in *. cbn [sgn] in *. unfold side, Rpoint, Rmesh, Rtriangle, Rpath, path in *. lia. }
  assert (T : forall e, net (flat_map path_sides (sections p m)) e = (net (flat_map path_sides outer) e + net (flat_map path_sides holes) e)%Z).
  { intros e. rewrite <- (net_perm _ _ e Q). pose proof (net_perm _ _ e (Permutation_flat_map path_sides Pj)) as K1. rewrite flat_map_app, net_app in K1. exact K1. }
  split; apply net_same; intros e; destruct (N e) as (N1 & N2); destruct (K e) as (K1 & K2); specialize (T e);
    unfold sides in *; rewrite flat_map_app, ?net_map_back, !net_app; unfold side, Rpoint, Rmesh, Rtriangle, Rpath, path in *; lia.
Qed.

(** In particular, without holes the fans close both parts. *)
Theorem C100_closed : forall srt (p : Rplane) (m : Rmesh),
  sorts (fun a b => sortp_less (fst a) (fst b)) srt -> watertight m -> general_position p m -> Forall (dividable p) m ->
  (forall js, joinPaths3 srt (sections p m) = Ok js -> Forall (fun q => minimizeLines q = q /\ clockwise p q) js) ->
  exists up down, cutMesh srt m p = Ok (up, down) /\ closed up /\ closed down.
Proof.
  intros srt p m S W G D H. destruct (rings_exact srt p m S W G) as (js & J & _ & _). specialize (H js J).
  destruct (C101_holes srt p m js js [] S W G D J) as (up & down & C & U1 & U2).
  - eapply Forall_impl; [|exact H]. now intros q [E _].
  - now rewrite app_nil_r.
  - eapply Forall_impl; [|exact H]. now intros q [_ E].
  - constructor.
  - exists up, down. split; [exact C|]. unfold same_boundary in U1, U2. cbn [flat_map app map] in U1, U2. rewrite !app_nil_r in U1, U2. split; assumption.
Qed.

(** the tetrahedron, cut half way up *)
Section Tetra.
Local Open Scope R_scope.
Definition half_way : Rplane := plane_at (V3 (A := ArithR) 0 0 1) (1 / 2).
Lemma round8_int (k : Z) (x : R) : x * 100000000 = IZR k -> @round8 ArithR x = x.
Proof.
  intros E. pose proof (round8_near x) as N. rewrite round8_def in N |- *. set (r := @round_ ArithR _) in *.
  assert (H : Rabs (IZR r - IZR k) <= / 2).
  { rewrite <- E. replace (IZR r - x * 100000000) with ((IZR r / 100000000 - x) * 100000000) by field.
    rewrite Rabs_mult, (Rabs_pos_eq 100000000) by lra. lra. }
  assert (r = k).
  { rewrite <- minus_IZR in H. apply Rabs_le_inv in H. destruct H as [H1 H2].
    assert (IZR (-1) < IZR (r - k) < IZR 1) as [K1 K2] by (split; lra). apply lt_IZR in K1, K2. lia. }
  assert (K : (IZR r / 100000000 = x)%R) by (rewrite H0, <- E; field). exact K.
Qed.
Definition fa : Rpoint := rp 0 0 (1 / 2).
Definition fb : Rpoint := rp (1 / 2) 0 (1 / 2).
Definition fc : Rpoint := rp 0 (1 / 2) (1 / 2).
Lemma half_mark (a : Rpoint) (k l : Z) : a = za k l 0 ->
  mark half_way (a, za 0 0 1) = rp (IZR k / 2) (IZR l / 2) (1 / 2) /\ mark half_way (za 0 0 1, a) = rp (IZR k / 2) (IZR l / 2) (1 / 2).
Proof.
  intros ->. assert (E : forall x : R, x * 100000000 = IZR k * 50000000 -> @round8 ArithR x = IZR k / 2).
  { intros x H. rewrite (round8_int (k * 50000000) x) by (rewrite mult_IZR; exact H). lra. }
  assert (F : forall x : R, x * 100000000 = IZR l * 50000000 -> @round8 ArithR x = IZR l / 2).
  { intros x H. rewrite (round8_int (l * 50000000) x) by (rewrite mult_IZR; exact H). lra. }
  assert (Q : forall x : R, x * 100000000 = 50000000 -> @round8 ArithR x = 1 / 2).
  { intros x H. rewrite (round8_int 50000000 x H). lra. }
  unfold mark, at_plane, cut, half_way. cbn [fst snd]. rewrite !sd_flat. unfold za, rp.
  split; apply pt_ext; unfold X, Y, Z3, pt_round8, along; cbn [px py pz]; unfold X, Y, Z3; cbn [px py pz]; [apply E|apply F|apply Q|apply E|apply F|apply Q]; unfold X, Y, Z3; cbn [px py pz]; rcbn; field; lra.
Qed.
Lemma half_sections : sections half_way tetraR = [[fb; fa]; [fc; fb]; [fa; fc]].
Proof.
  assert (G : general_position half_way tetraR) by (apply ex_general; lra).
  destruct (ends_of_sections half_way tetraR ex_watertight G tetraR (incl_refl _)) as (E1 & E2 & _).
  assert (L : forall q, In q (sections half_way tetraR) -> q = [from q; upto q]).
  { intros q Hq. apply in_flat_map in Hq. destruct Hq as (t & _ & Hq). destruct (intersectTriangle half_way t); [|destruct Hq]. destruct Hq as [<-|[]]. reflexivity. }
  assert (Z1 : forall q, Rltb (Z3 (zq q) - 1 / 2) 0 = (snd q <=? 0)%Z /\ Rltb 0 (Z3 (zq q) - 1 / 2) = (1 <=? snd q)%Z).
  { intros [[x y] z]. unfold Z3, zq, za, rp. cbn [pz snd]. split.
    - destruct (Z.leb_spec z 0) as [H|H]; [apply Rltb_true; apply IZR_le in H; lra|apply Rltb_false]. assert (1 <= z)%Z by lia. apply IZR_le in H0. lra.
    - destruct (Z.leb_spec 1 z) as [H|H]; [apply Rltb_true; apply IZR_le in H; lra|apply Rltb_false]. assert (z <= 0)%Z by lia. apply IZR_le in H0. lra. }
  assert (U : forall e, going_up half_way (zs e) = ((snd (fst e) <=? 0)%Z && (1 <=? snd (snd e))%Z)%bool).
  { intros [a b]. unfold going_up, half_way, zs. cbn [fst snd]. rewrite !sd_flat. now rewrite (proj1 (Z1 a)), (proj2 (Z1 b)). }
  assert (D : forall e, going_down half_way (zs e) = ((1 <=? snd (fst e))%Z && (snd (snd e) <=? 0)%Z)%bool).
  { intros [a b]. unfold going_down, half_way, zs. cbn [fst snd]. rewrite !sd_flat. now rewrite (proj2 (Z1 a)), (proj1 (Z1 b)). }
  assert (FM : forall (g : side -> bool) h l, (forall e, g (zs e) = h e) -> filter g (map zs l) = map zs (filter h l)).
  { intros g h l H. induction l as [|e l IH]; [reflexivity|]. cbn [map filter]. rewrite H. destruct (h e); cbn [map]; now rewrite IH. }
  assert (F1 : filter (going_up half_way) (sides tetraR) = [(za 1 0 0, za 0 0 1); (za 0 1 0, za 0 0 1); (za 0 0 0, za 0 0 1)]).
  { rewrite tetra_sides, (FM _ _ _ U). reflexivity. }
  assert (F2 : filter (going_down half_way) (sides tetraR) = [(za 0 0 1, za 0 0 0); (za 0 0 1, za 1 0 0); (za 0 0 1, za 0 1 0)]).
  { rewrite tetra_sides, (FM _ _ _ D). reflexivity. }
  rewrite F1 in E1. rewrite F2 in E2. cbn [map] in E1, E2.
  rewrite (proj1 (half_mark _ 1 0 eq_refl)), (proj1 (half_mark _ 0 1 eq_refl)), (proj1 (half_mark _ 0 0 eq_refl)) in E1.
  rewrite (proj2 (half_mark _ 1 0 eq_refl)), (proj2 (half_mark _ 0 1 eq_refl)), (proj2 (half_mark _ 0 0 eq_refl)) in E2.
  assert (Z0 : 0 / 2 = 0) by lra. rewrite !Z0 in E1, E2.
  revert L E1 E2. generalize (sections half_way tetraR). intros S L E1 E2.
  destruct S as [|q1 [|q2 [|q3 [|q4 S]]]]; try discriminate E1.
  cbn [map] in E1, E2. injection E1 as A1 A2 A3. injection E2 as B1 B2 B3.
  rewrite (L q1), (L q2), (L q3) by (cbn; auto). rewrite A1, A2, A3, B1, B2, B3. reflexivity.
Qed.

Lemma not_closer (a b : Rpoint) : 1 <= Rabs (Z3 a - Z3 b) -> ~ closer (1 / 10 ^ 6) a b.
Proof. intros H (_ & _ & K). lra. Qed.

Example ex_dividable : Forall (dividable half_way) tetraR.
Proof.
  assert (Far : forall k l, ~ closer (1 / 10 ^ 6) (za 0 0 1) (za k l 0)).
  { intros k l (_ & _ & H). revert H. unfold Z3, za, rp. cbn [pz]. rcbn. replace (1 - 0)%R with 1 by ring. rewrite Rabs_R1. lra. }
  assert (Main : forall k l k' l', (0 <= k <= 1)%Z -> (0 <= l <= 1)%Z -> (k <> k' \/ l <> l')%Z ->
    ~ closer (1 / 10 ^ 6) (za 0 0 1) (za k l 0) /\ ~ closer (1 / 10 ^ 6) (za 0 0 1) (za k' l' 0) /\ dist2 (za 0 0 1) (za k l 0) <= 100 * 100 /\
    forall q, meets half_way (za 0 0 1, za k' l' 0) q -> 2 / 10 ^ 6 <= Vlen (varea (za 0 0 1) (za k l 0) q)).
  { intros k l k' l' Hk Hl Ne. split; [apply Far|]. split; [apply Far|]. split.
    - unfold dist2, X, Y, Z3, za, rp. cbn [px py pz]. destruct Hk as [K1 K2], Hl as [M1 M2]. apply IZR_le in K1, K2, M1, M2. nra.
    - intros q [(s & Hs & ->) S]. unfold half_way in S. rewrite sd_flat in S. cbn [fst snd] in *.
      assert (s = 1 / 2) as -> by (revert S; unfold along, X, Y, Z3, za, rp; cbn [px py pz]; unfold Z3; cbn [pz]; rcbn; intros; lra).
      rewrite area_along_ac, Vlen_mul by lra.
      assert (1 <= Vlen (varea (za 0 0 1) (za k l 0) (za k' l' 0))); [|lra].
      unfold Vlen. rewrite <- sqrt_1 at 1. apply sqrt_le_1_alt. unfold Vdot, varea, X, Y, Z3, za, rp. cbn [vx vy vz px py pz].
      assert (E : 1 <= (IZR l' - IZR l) * (IZR l' - IZR l) + (IZR k' - IZR k) * (IZR k' - IZR k)).
      { rewrite <- !minus_IZR, <- !mult_IZR, <- plus_IZR. apply (IZR_le 1). assert (Q : forall x, (x <> 0 -> 1 <= x * x)%Z) by (intros x; nia). pose proof (Z.square_nonneg (l' - l)). pose proof (Z.square_nonneg (k' - k)). destruct Ne as [N|N]; [specialize (Q (k' - k)%Z ltac:(lia))|specialize (Q (l' - l)%Z ltac:(lia))]; lia. }
      pose proof (Rle_0_sqr (IZR k * IZR l' - IZR l * IZR k')) as Sq. unfold Rsqr in Sq. rcbn. lra. }
  assert (Up : forall k l, 0 < sd half_way (za 0 0 1) /\ sd half_way (za k l 0) < 0) by (intros k l; unfold half_way; rewrite !sd_flat; unfold Z3, za, rp; cbn [pz]; split; rcbn; lra).
  pose proof (proj1 (Up 0%Z 0%Z)) as Sd.
  assert (Neg : forall k l k' l', sd half_way (za k l 0) * sd half_way (za k' l' 0) < 0 -> False).
  { intros k l k' l' H. pose proof (proj2 (Up k l)). pose proof (proj2 (Up k' l')). nra. }
  assert (T : forall k l k' l', (0 <= k <= 1)%Z -> (0 <= l <= 1)%Z -> (k <> k' \/ l <> l')%Z -> dividable half_way (newTriangle (za k l 0) (za k' l' 0) (za 0 0 1))).
  { intros k l k' l' Hk Hl Ne a b c [E|[E|E]] S1 S2; cbn [newTriangle t1 t2 t3] in E; injection E as -> -> ->.
    - exfalso. exact (Neg _ _ _ _ S1).
    - exfalso. exact (Neg _ _ _ _ S2).
    - now apply Main. }
  assert (F : forall k l k' l' k'' l'', dividable half_way (newTriangle (za k l 0) (za k' l' 0) (za k'' l'' 0))).
  { intros k l k' l' k'' l'' a b c [E|[E|E]] S1 S2; cbn [newTriangle t1 t2 t3] in E; injection E as -> -> ->; exfalso; exact (Neg _ _ _ _ S1). }
  constructor; [exact (F 0%Z 0%Z 0%Z 1%Z 1%Z 0%Z)|]. constructor; [exact (T 0%Z 0%Z 1%Z 0%Z ltac:(lia) ltac:(lia) ltac:(lia))|].
  constructor; [exact (T 1%Z 0%Z 0%Z 1%Z ltac:(lia) ltac:(lia) ltac:(lia))|]. constructor; [exact (T 0%Z 1%Z 0%Z 0%Z ltac:(lia) ltac:(lia) ltac:(lia))|constructor].
Qed.

Lemma half_rings (js : list Rpath) : Permutation (flat_map path_sides js) [(fb, fa); (fc, fb); (fa, fc)] ->
  Forall (fun q : Rpath => (2 <= length q)%nat /\ upto q = from q) js ->
  Forall (fun q => q = [fa; fc; fb; fa] \/ q = [fb; fa; fc; fb] \/ q = [fc; fb; fa; fc]) js.
Proof.
  intros P F. apply Forall_forall. intros q Hq. rewrite Forall_forall in F. destruct (F q Hq) as (L & U).
  assert (Nab : fa <> fb) by (intros E; apply (f_equal X) in E; unfold X, fa, fb, rp in E; cbn [px] in E; lra).
  assert (Nac : fa <> fc) by (intros E; apply (f_equal Y) in E; unfold Y, fa, fc, rp in E; cbn [py] in E; lra).
  assert (Nbc : fb <> fc) by (intros E; apply (f_equal X) in E; unfold X, fb, fc, rp in E; cbn [px] in E; lra).
  assert (In3 : forall x y, In (x, y) (path_sides q) -> (x = fb /\ y = fa) \/ (x = fc /\ y = fb) \/ (x = fa /\ y = fc)).
  { intros x y H. assert (K : In (x, y) (flat_map path_sides js)) by (apply in_flat_map; eauto).
    apply (Permutation_in _ P) in K. destruct K as [E|[E|[E|[]]]]; injection E as <- <-; auto. }
  assert (Len : (length (path_sides q) <= 3)%nat).
  { apply Permutation_length in P. cbn [length] in P. rewrite <- P. clear -Hq. induction js as [|x js IH]; [destruct Hq|]. cbn [flat_map]. rewrite app_length.
    destruct Hq as [-> |Hq]; [lia|]. specialize (IH Hq). lia. }
  destruct q as [|x [|y [|z [|w [|v r]]]]]; try (cbn in L; lia); unfold upto, from in U; cbn [last hd] in U; unfold path_sides in In3, Len; cbn [tl combine] in In3; cbn [tl combine length] in Len.
  - exfalso. subst y. destruct (In3 x x (or_introl eq_refl)) as [[-> E]|[[-> E]|[-> E]]]; congruence.
  - exfalso. subst z. pose proof (In3 x y (or_introl eq_refl)) as H1. pose proof (In3 y x (or_intror (or_introl eq_refl))) as H2. intuition congruence.
  - subst w. pose proof (In3 x y (or_introl eq_refl)) as H1. pose proof (In3 y z (or_intror (or_introl eq_refl))) as H2.
    destruct H1 as [[-> ->]|[[-> ->]|[-> ->]]]; destruct H2 as [[E1 ->]|[[E1 ->]|[E1 ->]]]; try congruence; auto.
  - exfalso. lia.
Qed.

Lemma turns (a b c : Rpoint) : 1 / 10 ^ 6 <= Vlen (varea a b c) -> isCollinear (L2 (A := ArithR) a b) (L2 (A := ArithR) b c) = false.
Proof.
  intros H. unfold isCollinear, l_vec. cbn [lp1 lp2].
  assert (cross (vectorTo a b) (vectorTo b c) = varea a b c) as -> by (apply V_ext; unfold cross, vectorTo, varea, X, Y, Z3; cbn [vx vy vz]; rcbn; ring).
  rewrite vlen_R. destruct (almostZero _) eqn:E; [|reflexivity]. apply almostZero_R in E. rewrite Rabs_pos_eq in E by apply Vlen_nonneg. lra.
Qed.
Lemma minimize_triangle (a b c : Rpoint) : 1 / 10 ^ 6 <= Vlen (varea a b c) -> minimizeLines [a; b; c; a] = [a; b; c; a].
Proof.
  intros H. assert (R1 : varea b c a = varea a b c) by (apply V_ext; unfold varea; cbn [vx vy vz]; rcbn; ring).
  assert (R2 : varea c a b = varea a b c) by (apply V_ext; unfold varea; cbn [vx vy vz]; rcbn; ring).
  unfold minimizeLines. cbn [min_loop lp2]. rewrite (turns a b c H). cbn [min_loop lp2]. rewrite (turns b c a) by (rewrite R1; exact H). cbn [min_loop rev app min_seam].
  destruct (isClosed _); [|reflexivity]. rewrite (turns c a b) by (rewrite R2; exact H). reflexivity.
Qed.

Example ex_contour : forall js, joinPaths3 go_insertion_sort (sections half_way tetraR) = Ok js ->
  Forall (fun q => minimizeLines q = q /\ clockwise half_way q) js.
Proof.
  intros js J. assert (G : general_position half_way tetraR) by (apply ex_general; lra).
  destruct (rings_exact go_insertion_sort half_way tetraR (ex_sorts ArithR) ex_watertight G) as (js' & J' & P & F).
  rewrite J in J'. injection J' as <-. rewrite half_sections in P.
  pose proof (half_rings js P F) as H. eapply Forall_impl; [|exact H]. clear.
  assert (A : varea fa fc fb = V3 (A := ArithR) 0 0 (-1 / 4)%R) by (apply V_ext; unfold varea, X, Y, Z3, fa, fb, fc, rp; cbn [px py pz vx vy vz]; rcbn; lra).
  assert (B : varea fb fa fc = V3 (A := ArithR) 0 0 (-1 / 4)%R) by (apply V_ext; unfold varea, X, Y, Z3, fa, fb, fc, rp; cbn [px py pz vx vy vz]; rcbn; lra).
  assert (C : varea fc fb fa = V3 (A := ArithR) 0 0 (-1 / 4)%R) by (apply V_ext; unfold varea, X, Y, Z3, fa, fb, fc, rp; cbn [px py pz vx vy vz]; rcbn; lra).
  assert (L : 1 / 10 ^ 6 <= Vlen (V3 (A := ArithR) 0 0 (-1 / 4)%R)).
  { unfold Vlen, Vdot. cbn [vx vy vz]. rcbn. replace (0 * 0 + 0 * 0 + -1 / 4 * (-1 / 4)) with ((1 / 4) * (1 / 4)) by lra. rewrite sqrt_square; lra. }
  assert (W : Vdot (V3 (A := ArithR) 0 0 (-1 / 4)%R) (pl_n half_way) < 0) by (unfold Vdot, half_way, plane_at; cbn [pl_n vx vy vz]; rcbn; lra).
  intros q [-> |[-> | ->]]; (split; [apply minimize_triangle; rewrite ?A, ?B, ?C; exact L|]); unfold clockwise, fan; cbn [length seq map nth Nat.sub];
    (constructor; [right; rewrite ?A, ?B, ?C; exact W|constructor; [left; reflexivity|constructor]]).
Qed.

(** both halves of the tetrahedron are closed *)
Example ex_halves : exists up down, cutMesh go_insertion_sort tetraR half_way = Ok (up, down) /\ closed up /\ closed down.
Proof.
  apply C100_closed; [apply ex_sorts|exact ex_watertight|apply ex_general; lra|exact ex_dividable|exact ex_contour].
Qed.
End Tetra.

(** ** C102 Dividing one triangle *)

Lemma chain_parts (R : point -> point -> bool) (q : Rpath) ps : chain (A := ArithR) R q ps -> ps <> [] /\ (forall x, ps = [x] -> x = q).
Proof.
  intros C. induction C as [q N|a p b q ps qs C1 [IH1 _] C2 [IH2 _] T].
  - split; [discriminate|]. now intros x [= ->].
  - split; [intros E; apply app_eq_nil in E; tauto|]. intros x E. exfalso. destruct ps as [|y ps]; [contradiction|]. destruct qs as [|z qs]; [contradiction|].
    cbn in E. injection E as _ E. destruct ps; discriminate.
Qed.
Lemma join_single srt (q : Rpath) : (forall l, Permutation l (srt l)) -> q <> [] -> joinPaths3 srt [q] = Ok [q].
Proof.
  intros Hs N. destruct (joinPaths3_ok srt [q] Hs) as (out & E & parts & P & F); [now repeat constructor|]. rewrite E. f_equal.
  apply Permutation_sym, Permutation_length_1_inv in P.
  destruct F as [|q1 l out parts C F]; [discriminate|]. destruct (chain_parts _ _ _ C) as (Nl & U). cbn [concat] in P.
  destruct l as [|y l]; [contradiction|]. cbn [app] in P. injection P as -> P. apply app_eq_nil in P. destruct P as (-> & P).
  rewrite (U q eq_refl). f_equal. destruct F as [|q2 l out parts C2 F]; [reflexivity|]. destruct (chain_parts _ _ _ C2) as (N2 & _).
  cbn [concat] in P. apply app_eq_nil in P. tauto.
Qed.

(** a alone on its side: the triangle gives the corner a with the two crossing
    points, in the order of the triangle, and the rest in two triangles; the points
    are the crossing points up to rounding. *)
Theorem C102_divided : forall srt (p : Rplane) (t : Rtriangle) a b c, (forall l, Permutation l (srt l)) ->
  corner_of t a b c -> t = newTriangle (t1 t) (t2 t) (t3 t) -> dividable p t ->
  (0 < sd p a /\ sd p b < 0 /\ sd p c < 0)%R \/ (sd p a < 0 /\ 0 < sd p b /\ 0 < sd p c)%R ->
  (forall q r, meets p (a, b) q -> meets p (c, a) r -> ~ closer (2 / 10 ^ 6)%R q r) ->
  exists u v q r, meets p (a, b) q /\ meets p (c, a) r /\ within (5 / 10 ^ 9)%R u q /\ within (5 / 10 ^ 9)%R v r /\
    let corner := [newTriangle a u v] in let rest := [newTriangle u b c; newTriangle c v u] in
    cutMesh srt [t] p = Ok (if Rlt_dec 0 (sd p a) then (corner, rest) else (rest, corner)).
Proof.
  intros srt p t a b c Hs Co Et D S Fr.
  assert (Cr : (going_up p (a, b) = true \/ going_down p (a, b) = true) /\ (going_up p (c, a) = true \/ going_down p (c, a) = true)).
  { rewrite !up_true, !down_true. cbn [fst snd]. lra. }
  destruct Cr as [Cab Cca].
  assert (Fu : far (at_plane p (a, b)) (at_plane p (c, a))).
  { pose proof (Fr _ _ (cut_meets p _ Cab) (cut_meets p _ Cca)) as N.
    set (q := at_plane p (a, b)) in *. set (r := at_plane p (c, a)) in *. split; intros (H1 & H2 & H3); apply N.
    - repeat split; lra.
    - destruct (pt_round8_near q) as (Q1 & Q2 & Q3). destruct (pt_round8_near r) as (R1 & R2 & R3).
      apply Rabs_le_inv in Q1, Q2, Q3, R1, R2, R3. apply Rabs_lt_inv in H1, H2, H3.
      repeat split; apply Rabs_lt; split; lra. }
  assert (Fs : far (at_plane p (c, a)) (at_plane p (a, b))) by (destruct Fu as [F1 F2]; split; intros H; [apply F1|apply F2]; now apply closer_sym).
  assert (Sg : sd p (t1 t) <> 0%R /\ sd p (t2 t) <> 0%R /\ sd p (t3 t) <> 0%R) by (destruct Co as [[= -> -> ->]|[[= -> -> ->]|[= -> -> ->]]]; lra).
  assert (G : forall e, In e (tri_sides t) -> e = (a, b) \/ e = (b, c) \/ e = (c, a)).
  { intros e He. unfold tri_sides in He. destruct Co as [[= -> -> ->]|[[= -> -> ->]|[= -> -> ->]]]; destruct He as [<-|[<-|[<-|[]]]]; auto. }
  destruct (tri_section p t Et) as [(_ & F1 & F2)|(eu & ed & F1 & F2 & I)]; try tauto.
  { intros e e' He He' Hu Hd. apply up_true in Hu. apply down_true in Hd.
    destruct (G e He) as [-> |[-> | ->]]; destruct (G e' He') as [-> |[-> | ->]]; cbn [fst snd] in Hu, Hd;
      [exfalso; lra|exfalso; lra|exact Fu|exfalso; lra|exfalso; lra|exfalso; lra|exact Fs|exfalso; lra|exfalso; lra]. }
  - exfalso. assert (In (a, b) (tri_sides t)) as Iab by (unfold tri_sides; destruct Co as [[= -> -> ->]|[[= -> -> ->]|[= -> -> ->]]]; cbn; auto).
    destruct Cab as [C|C]; [assert (K : In (a, b) (filter (going_up p) (tri_sides t))) by (now apply filter_In); rewrite F1 in K; destruct K|].
    assert (K : In (a, b) (filter (going_down p) (tri_sides t))) by (now apply filter_In). rewrite F2 in K. destruct K.
  - assert (Iu : In eu (tri_sides t) /\ going_up p eu = true) by (apply filter_In; rewrite F1; now left).
    assert (Id : In ed (tri_sides t) /\ going_down p ed = true) by (apply filter_In; rewrite F2; now left).
    destruct Iu as [Iu Hu]. destruct Id as [Id Hd]. apply up_true in Hu. apply down_true in Hd.
    exists (mark p (a, b)), (mark p (c, a)), (at_plane p (a, b)), (at_plane p (c, a)).
    split; [now apply cut_meets|]. split; [now apply cut_meets|].
    assert (N8 : (5 / 10 ^ 9 = / 200000000)%R) by lra. rewrite N8. split; [apply pt_round8_near|]. split; [apply pt_round8_near|]. cbv zeta.
    assert (E : forall u d l, cut_one p t = (u, d, [[lp1 l; lp2 l]]) -> cutMesh srt [t] p = Ok (u, d)).
    { intros u d l E. unfold cutMesh. cbn [map flat_map]. rewrite E. cbn [fst snd app flat_map]. unfold joinPaths3AndMinimize.
      rewrite join_single; [|exact Hs|discriminate]. cbn [rbind map minimizeLines flat_map cap_path cap_fan app]. now rewrite !app_nil_r. }
    destruct S as [(S1 & S2 & S3)|(S1 & S2 & S3)]; destruct (Rlt_dec 0 (sd p a)); try lra.
    + assert (eu = (c, a)) as -> by (destruct (G eu Iu) as [-> |[-> | ->]]; cbn [fst snd] in *; [lra|lra|reflexivity]).
      assert (ed = (a, b)) as -> by (destruct (G ed Id) as [-> |[-> | ->]]; cbn [fst snd] in *; [reflexivity|lra|lra]).
      exact (E _ _ (L2 _ _) (cut_corner_up p t a b c D Co S1 S2 S3 I)).
    + assert (eu = (a, b)) as -> by (destruct (G eu Iu) as [-> |[-> | ->]]; cbn [fst snd] in *; [reflexivity|lra|lra]).
      assert (ed = (c, a)) as -> by (destruct (G ed Id) as [-> |[-> | ->]]; cbn [fst snd] in *; [lra|lra|reflexivity]).
      exact (E _ _ (L2 _ _) (cut_corner_down p t a b c D Co S1 S2 S3 I)).
Qed.

Example ex_divided : exists u v q r, meets half_way (za 0 0 1, za 1 0 0) q /\ meets half_way (za 0 1 0, za 0 0 1) r /\
  within (5 / 10 ^ 9)%R u q /\ within (5 / 10 ^ 9)%R v r /\
  cutMesh go_insertion_sort [newTriangle (za 1 0 0) (za 0 1 0) (za 0 0 1)] half_way =
  Ok ([newTriangle (za 0 0 1) u v], [newTriangle u (za 1 0 0) (za 0 1 0); newTriangle (za 0 1 0) v u]).
Proof.
  assert (S : (0 < sd half_way (za 0 0 1) /\ sd half_way (za 1 0 0) < 0 /\ sd half_way (za 0 1 0) < 0)%R).
  { unfold half_way. rewrite !sd_flat. unfold Z3, za, rp. cbn [pz]. rcbn. lra. }
  destruct (C102_divided go_insertion_sort half_way (newTriangle (za 1 0 0) (za 0 1 0) (za 0 0 1)) (za 0 0 1) (za 1 0 0) (za 0 1 0)) as (u & v & q & r & H1 & H2 & H3 & H4 & H5).
  - apply (ex_sorts ArithR).
  - right. right. reflexivity.
  - reflexivity.
  - pose proof ex_dividable as D. rewrite Forall_forall in D. apply D. right. right. left. reflexivity.
  - left. exact S.
  - intros q r [(s & Hs & ->) E] [(s' & Hs' & ->) E'] (_ & H & _). unfold half_way in E, E'. rewrite !sd_flat in *. cbn [fst snd] in *.
    assert (s = 1 / 2)%R as -> by (revert E; unfold along, X, Y, Z3, za, rp; cbn [px py pz]; unfold Z3; cbn [pz]; rcbn; intros; lra).
    assert (s' = 1 / 2)%R as -> by (revert E'; unfold along, X, Y, Z3, za, rp; cbn [px py pz]; unfold Z3; cbn [pz]; rcbn; intros; lra).
    revert H. unfold along, X, Y, Z3, za, rp. cbn [px py pz]. unfold X, Y, Z3. cbn [px py pz]. rcbn. intros H. apply Rabs_lt_inv in H. lra.
  - exists u, v, q, r. repeat (split; [assumption|]). cbv zeta in H5. destruct (Rlt_dec 0 (sd half_way (za 0 0 1))); [exact H5|lra].
Qed.

(** ** float64 *)
Section Runs.
Let AF := ArithF64 elem0.
Existing Instance AF.
Local Open Scope Z_scope.
Definition fpt (p : Z * Z * Z) : @point AF := let '(x, y, z) := p in P3 (A := AF) (f64_ofZ x) (f64_ofZ y) (f64_ofZ z).
Definition ftri (a b c : Z * Z * Z) : @triangle AF := newTriangle (A := AF) (fpt a) (fpt b) (fpt c).
(** upright prisms of height 10 on closed outlines, with lids *)
Definition fquad (a b : Z * Z) : @mesh AF := let '(x, y) := a in let '(u, v) := b in
  [ftri (x, y, 0) (u, v, 0) (u, v, 10); ftri (x, y, 0) (u, v, 10) (x, y, 10)].
Fixpoint fwalls (l : list (Z * Z)) : @mesh AF := match l with a :: (b :: _) as r => fquad a b ++ fwalls r | _ => [] end.
Definition flid (up : bool) (t : (Z * Z) * (Z * Z) * (Z * Z)) : @triangle AF :=
  let '(a, b, c) := t in let z := if up then 10 else 0 in let f (a : Z * Z) := (fst a, snd a, z) in
  if up then ftri (f a) (f b) (f c) else ftri (f c) (f b) (f a).
Definition fprism (walls : list (list (Z * Z))) (lid : list ((Z * Z) * (Z * Z) * (Z * Z))) : @mesh AF :=
  flat_map fwalls walls ++ map (flid true) lid ++ map (flid false) lid.
Definition fbox : @mesh AF :=
  fprism [[(0, 0); (10, 0); (10, 10); (0, 10); (0, 0)]] [((0, 0), (10, 0), (10, 10)); ((0, 0), (10, 10), (0, 10))].
Definition ftube : @mesh AF :=
  fprism [[(0, 0); (30, 0); (0, 30); (0, 0)]; [(5, 5); (5, 15); (15, 5); (5, 5)]]
    [((0, 0), (30, 0), (15, 5)); ((0, 0), (15, 5), (5, 5)); ((30, 0), (0, 30), (5, 15)); ((30, 0), (5, 15), (15, 5));
     ((0, 30), (0, 0), (5, 5)); ((0, 30), (5, 5), (5, 15))].
Definition fplane (z : Z) : @plane AF := Pl (A := AF) (fpt (0, 0, z)) (V3 (A := AF) (f64_ofZ 0) (f64_ofZ 0) (f64_ofZ 1)).
End Runs.

(** A box: the corners dropped from the contour, where the section of one triangle
    of a wall meets that of the next, leave both halves open along the cut. *)
Theorem C100_box_refuted : exists (m : @mesh (ArithF64 elem0)) p up down,
  open_sides m = [] /\ cutMesh go_insertion_sort m p = Ok (up, down) /\
  length (open_sides up) = 14%nat /\ length (open_sides down) = 14%nat.
Proof.
  exists fbox, (fplane 4).
  assert (K : match cutMesh go_insertion_sort fbox (fplane 4) with
              | Ok (u, d) => ((length (open_sides fbox) =? 0) && (length (open_sides u) =? 14) && (length (open_sides d) =? 14))%nat%bool = true | _ => False end) by (vm_compute; reflexivity).
  destruct (cutMesh go_insertion_sort fbox (fplane 4)) as [[u d]| |]; try contradiction.
  apply andb_true_iff in K. destruct K as (K & K3). apply andb_true_iff in K. destruct K as (K1 & K2). apply Nat.eqb_eq in K1, K2, K3.
  exists u, d. split; [now apply length_zero_iff_nil|]. auto.
Qed.

(** A tube: each half gets a lid over the hole, a triangle with its corners on the
    walls of the hole; the lids of both halves face the way lids of material face. *)
Theorem C101_lid_refuted : exists (m : @mesh (ArithF64 elem0)) p up down tu td,
  open_sides m = [] /\ cutMesh go_insertion_sort m p = Ok (up, down) /\ In tu up /\ In td down /\
  let hole := map fpt [(5, 5, 4); (5, 15, 4); (15, 5, 4)]%Z in
  Forall (fun v => existsb (pt_eqb v) hole = true) [t1 tu; t2 tu; t3 tu; t1 td; t2 td; t3 td] /\
  nltb (vz (t_n tu)) n0 = true /\ nltb n0 (vz (t_n td)) = true.
Proof.
  exists ftube, (fplane 4).
  pose (lid := fun (f : @num (ArithF64 elem0) -> bool) (t : @triangle (ArithF64 elem0)) =>
    forallb (fun v => existsb (pt_eqb v) (map fpt [(5, 5, 4); (5, 15, 4); (15, 5, 4)]%Z)) [t1 t; t2 t; t3 t] && f (vz (t_n t))).
  assert (K : match cutMesh go_insertion_sort ftube (fplane 4) with
              | Ok (u, d) => ((length (open_sides ftube) =? 0)%nat && existsb (lid (fun z => nltb z n0)) u && existsb (lid (fun z => nltb n0 z)) d)%bool = true | _ => False end) by (vm_compute; reflexivity).
  destruct (cutMesh go_insertion_sort ftube (fplane 4)) as [[u d]| |]; try contradiction.
  apply andb_true_iff in K. destruct K as (K & K3). apply andb_true_iff in K. destruct K as (K1 & K2). apply Nat.eqb_eq, length_zero_iff_nil in K1.
  apply existsb_exists in K2, K3. destruct K2 as (tu & Iu & K2). destruct K3 as (td & Id & K3).
  apply andb_true_iff in K2, K3. destruct K2 as (K2 & Nu). destruct K3 as (K3 & Nd).
  exists u, d, tu, td. split; [exact K1|]. split; [reflexivity|]. split; [exact Iu|]. split; [exact Id|]. split; [|split; assumption].
  rewrite forallb_forall in K2, K3. change [t1 tu; t2 tu; t3 tu; t1 td; t2 td; t3 td] with ([t1 tu; t2 tu; t3 tu] ++ [t1 td; t2 td; t3 td]).
  apply Forall_app. split; apply Forall_forall; [exact K2|exact K3].
Qed.

(** A triangle with a side of 590: rounding moves the crossing point off the side by
    more than the test allows, the order is not mended, and the corner piece comes
    out face down. *)
Theorem C102_large_refuted : exists (t : @triangle (ArithF64 elem0)) p x y z,
  t = newTriangle (t1 t) (t2 t) (t3 t) /\ cutMesh go_insertion_sort [t] p = Ok ([x], [y; z]) /\
  nltb n0 (vz (t_n t)) = true /\ nltb (vz (t_n x)) n0 = true.
Proof.
  exists (ftri (0, 0, 100)%Z (500, 100, -200)%Z (0, 400, -300)%Z), (Pl (A := ArithF64 elem0) (P3 (A := ArithF64 elem0) (f64_ofZ 0%Z) (f64_ofZ 0%Z) (f64_lit 1%Z 3%positive)) (V3 (A := ArithF64 elem0) (f64_ofZ 0%Z) (f64_ofZ 0%Z) (f64_ofZ 1%Z))).
  match goal with |- exists x y z, _ /\ cutMesh ?s ?m ?p = _ /\ _ => 
    assert (K : match cutMesh s m p with Ok ([x], [y; z]) => (nltb n0 (vz (t_n (hd x m))) && nltb (vz (t_n x)) n0)%bool = true | _ => False end) by (vm_compute; reflexivity);
    destruct (cutMesh s m p) as [[[|x [|]] [|y [|z [|]]]]| |]; try contradiction end.
  exists x, y, z. apply andb_true_iff in K. destruct K as (K1 & K2). split; [reflexivity|]. split; [reflexivity|]. split; [exact K1|exact K2].
Qed.

Print Assumptions C100_pieces.
Print Assumptions C100_closed.
Print Assumptions C100_box_refuted.
Print Assumptions C101_holes.
Print Assumptions C101_lid_refuted.
Print Assumptions C102_divided.
Print Assumptions C102_large_refuted.
