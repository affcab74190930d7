(** * C112 What a three-axis file prints is the model *)
From Coq Require Import String Reals Lra Lia List Bool ZArith NArith PeanoNat Permutation.
From Flocq Require Import Core.Raux.
From Verif Require Import Arith ArithR Prim Path PathClaims GeomSpec GeomProofs MeshProofs Helpers Gcode GcodeSpec GcodeInstr GcodeClaims GcodeText GcodeProofs TextOK GcodeProofs5 GcodeProofs4 Properties_Gcode
  Slicer SlicerClaims SlicerProofs SlicerProofs2 Properties_Path Properties_Slicer Vip Main MainClaims Properties_Main WhereClaims WhereProofs Properties_Where Properties_Flags
  ClosedClaims Watertight Properties_Closed Properties_Cut Fill FillProofs Properties_Fill InsideClaims InsideProofs FillInsideProofs Properties_FillInside SolidClaims SolidProofs SolidProofs2 Properties_Solid.
From Verif Require FillClaims.
Import ListNotations.
Close Scope Z_scope.
Close Scope num_scope.
Close Scope string_scope.
Open Scope list_scope.
Local Open Scope R_scope.

(** seen from above, [q] is on the segment from [a] to [b] *)
Definition on_seg_above (a b q : Rpoint) : Prop := exists x, on_seg a b x /\ X x = X q /\ Y x = Y q.

Definition upright (pl : Rplane) : Prop := vz (pl_n pl) = 0 /\ ((vx (pl_n pl) : R) <> 0 \/ (vy (pl_n pl) : R) <> 0).

Lemma sd_above pl a b : upright pl -> X a = X b -> Y a = Y b -> sd pl a = sd pl b.
Proof. intros (Vz & _) Ex Ey. unfold sd. rewrite Ex, Ey. assert (V0 : (vz (pl_n pl) : R) = 0) by exact Vz. rewrite V0. ring. Qed.

Lemma common_upright m axis step pl : vz axis = 0 -> ((vx axis : R) <> 0 \/ (vy axis : R) <> 0) ->
  In pl (calcFillPlanesCommon (A := ArithR) m axis step) -> upright pl.
Proof.
  intros Z N I. destruct (C45_multiples m axis step) as (j & n & E). rewrite E in I. apply in_map_iff in I. destruct I as (i & <- & _).
  split; assumption.
Qed.

Lemma planes_upright (m : Rmesh) (f : @flags ArithR) pl : In pl (pattern m f ++ Properties_Flags.solid m f) -> upright pl.
Proof.
  assert (C1 : forall d w pl, In pl (sparse m (V3 (A := ArithR) n1 n0 n0) d w) -> upright pl).
  { intros d w p. apply common_upright; cbn [vx vy vz]; [rcbn; lra|left; rcbn; lra]. }
  intros I. apply in_app_or in I. destruct I as [I|I].
  - unfold pattern in I. destruct (String.eqb (fl_fillingType f) "Squares"); [|destruct (String.eqb (fl_fillingType f) "Triangles")].
    + apply in_app_or in I. destruct I as [I|I]; revert I; apply common_upright; cbn [vx vy vz]; first [rcbn; lra|right; rcbn; lra].
    + apply in_app_or in I. destruct I as [I|I]; [now apply C1 in I|]. apply in_app_or in I.
      destruct I as [I|I]; revert I; apply common_upright; cbn [vx vy vz]; first [rcbn; lra|right; rcbn; lra].
    + now apply C1 in I.
  - revert I. apply common_upright; cbn [vx vy vz]; [rcbn; lra|left; rcbn; lra].
Qed.

(** one layer *)
Section Layer.
Variables (U : @env ArithR) (m : Rmesh) (h : R) (segs ps fill : list Rpath) (pls : list Rplane).
Let u := V3 (A := ArithR) 0 0 1.
Hypothesis HU : legal U.
Hypothesis HS : sorts (fun a b => sortp_less (fst a) (fst b)) (u_ends U).
Hypothesis W : watertight m.
Hypothesis G : general_position (plane_at u h) m.
Hypothesis P : Permutation segs (sections (plane_at u h) m).
Hypothesis J : joinPaths3AndMinimize (u_ends U) segs = Ok ps.
Hypothesis Up : forall pl, In pl pls -> upright pl.
Hypothesis Off : forall pl x, In pl pls -> corner m h x -> sd pl x <> 0.
Let cuts := flat_map (intersectByPlane U ps) pls.
Hypothesis F1 : Forall (fun g => exists c, In c cuts /\ (g = c \/ g = rev c)) fill.
Hypothesis F2 : forall c, In c cuts -> In c fill \/ In (rev c) fill.

Lemma layer_corners : Forall (Forall (corner m h)) ps.
Proof. exact (proj1 (corners_of m h (u_ends U) segs ps W G HS P J)). Qed.

Lemma layer_fill_planes : Forall (fun g => exists a b pl, g = [a; b] /\ In pl pls /\ sd pl a = 0 /\ sd pl b = 0) fill.
Proof.
  eapply Forall_impl; [|exact F1]. intros g (c & Ic & Hg). apply in_flat_map in Ic. destruct Ic as (pl & Ipl & Ic).
  destruct (C49_on_contours U ps pl c HU Ic) as (a & b & -> & _ & Sa & _ & Sb).
  destruct Hg as [-> | ->]; [exists a, b, pl|exists b, a, pl]; repeat split; auto.
Qed.

Lemma layer_level : Forall (level (round8 (A := ArithR) h)) ps.
Proof.
  eapply Forall_impl; [|exact layer_corners]. intros p Fp. unfold level. eapply Forall_impl; [|exact Fp]. intros x (e & y & _ & _ & Zy & ->).
  unfold pt_round8. unfold Z3 at 1. cbn [pz]. f_equal. exact Zy.
Qed.

Lemma on_seg_sym a b (q : Rpoint) : on_seg a b q -> on_seg b a q.
Proof. intros (t & Ht & ->). exists (1 - t). split; [lra|]. unfold along, X, Y, Z3. cbn [px py pz]. f_equal; rcbn; ring. Qed.

Lemma layer_filled q : Z3 q = h -> off_surface (5 / 10 ^ 9) q m -> no_sliver q (corner m h) ->
  forall dx dy n, clear_ray (5 / 10 ^ 9) q dx dy m -> pierced q dx dy m n ->
  (enclosed_all q ps <-> Nat.odd n = true) /\
  ((exists a b, In [a; b] fill /\ on_seg_above a b q) <-> Nat.odd n = true /\ exists pl, In pl pls /\ sd pl q = 0).
Proof.
  intros Zq Of NS dx dy n Cl Pi.
  destruct (SolidProofs2.solid (plane_at u h) h (fun x => sd_flat h x) m W G q Zq Of (u_ends U) segs ps HS P NS J) as (Be & R).
  destruct (R dx dy n Cl Pi) as (R1 & _). split; [exact R1|].
  destruct (corners_of m h (u_ends U) segs ps W G HS P J) as (Co & Rt).
  set (z := round8 (A := ArithR) h) in *. pose proof layer_level as Lv. fold z in Lv.
  assert (Gp : forall pl, In pl pls -> FillClaims.general_position pl ps).
  { intros pl Ip p x Ipp Ix. rewrite Forall_forall in Co. specialize (Co p Ipp). rewrite Forall_forall in Co. exact (Off pl x Ip (Co x Ix)). }
  set (q' := P3 (A := ArithR) (X q) (Y q) z).
  assert (Be' : Forall (beside q') ps) by (eapply Forall_impl; [|exact Be]; intros p; now apply beside_above).
  assert (En : enclosed_all q' ps <-> enclosed_all q ps) by (split; apply enclosed_above; reflexivity).
  assert (Line : forall pl, In pl pls -> sd pl q = 0 -> (exists a b, In [a; b] (intersectByPlane U ps pl) /\ on_seg a b q') <-> enclosed_all q ps).
  { intros pl Ip Sq. destruct (Up pl Ip) as (Vz & Vn). rewrite <- En.
    apply (C110_line U ps pl z q' HU Vz Vn Rt Lv (Gp pl Ip)); [|reflexivity|exact Be'].
    rewrite <- Sq. apply sd_above; [now apply Up|reflexivity|reflexivity]. }
  rewrite <- R1. split.
  - intros (a & b & Iab & x & Ox & Ex & Ey). rewrite Forall_forall in F1. destruct (F1 _ Iab) as (c & Ic & Hg).
    apply in_flat_map in Ic. destruct Ic as (pl & Ipl & Ic).
    destruct (C49_on_contours U ps pl c HU Ic) as (a' & b' & -> & Oa & Sa & Ob & Sb).
    assert (Ox' : on_seg a' b' x).
    { destruct Hg as [Hg|Hg]; cbn in Hg; injection Hg as -> ->; [exact Ox|now apply on_seg_sym]. }
    assert (Zof : forall x, FillClaims.on_contour ps x -> Z3 x = z).
    { intros y (p & l1 & v & w & l2 & Ip & -> & (t & _ & ->)). rewrite Forall_forall in Lv. specialize (Lv _ Ip). unfold level in Lv. rewrite Forall_forall in Lv.
      unfold along. unfold Z3 at 1. cbn [pz]. rewrite (Lv v), (Lv w) by (apply in_or_app; right; cbn; tauto). rcbn. ring. }
    assert (Sx : sd pl x = 0) by (destruct Ox' as (t & _ & ->); rewrite sd_along, Sa, Sb; ring).
    assert (Zx : Z3 x = z). { destruct Ox' as (t & _ & ->). unfold along. unfold Z3 at 1. cbn [pz]. rewrite (Zof a' Oa), (Zof b' Ob). rcbn. ring. }
    assert (Eq : q' = x) by (apply pt_ext; [symmetry; exact Ex|symmetry; exact Ey|symmetry; exact Zx]).
    assert (Sq : sd pl q = 0) by (rewrite <- Sx; apply sd_above; [now apply Up|now symmetry|now symmetry]).
    split; [|exists pl; split; assumption]. apply (Line pl Ipl Sq). exists a', b'. split; [exact Ic|]. rewrite Eq. exact Ox'.
  - intros (E & pl & Ipl & Sq). apply (Line pl Ipl Sq) in E. destruct E as (a & b & Iab & O).
    destruct (F2 [a; b]) as [I|I]; [apply in_flat_map; exists pl; split; assumption| |].
    + exists a, b. split; [exact I|]. exists q'. split; [exact O|split; reflexivity].
    + exists b, a. split; [exact I|]. exists q'. split; [now apply on_seg_sym|split; reflexivity].
Qed.

(** the ends of the fill lines of a model of ordinary size are near enough to be sorted *)
Lemma cuts_near B : 0 <= B <= 10 ^ 37 -> Forall (fun p => Rabs (X p) <= B /\ Rabs (Y p) <= B) (vertices m) -> FillClaims.near_ends cuts.
Proof.
  intros HB Fb.
  assert (Sv : forall e, In e (ClosedClaims.sides m) -> In (fst e) (vertices m) /\ In (snd e) (vertices m)).
  { intros e I. unfold ClosedClaims.sides in I. apply in_flat_map in I. destruct I as (t & It & I).
    unfold vertices. split; apply in_flat_map; exists t; (split; [exact It|]); cbn in I |- *; destruct I as [<-|[<-|[<-|[]]]]; cbn [fst snd]; tauto. }
  assert (Bs : forall a b t x y : R, 0 <= t <= 1 -> Rabs a <= x -> Rabs b <= x -> y = a + t * (b - a) -> Rabs y <= x).
  { intros a b t x y Ht Ha Hb ->. apply Rabs_le_inv in Ha, Hb. apply Rabs_le. split; nra. }
  assert (Bc : forall x, corner m h x -> Rabs (X x) <= B + 1 /\ Rabs (Y x) <= B + 1).
  { intros x (e & y & Ie & (t & Ht & ->) & _ & ->). destruct (Sv e Ie) as (Ia & Ib). rewrite Forall_forall in Fb.
    destruct (Fb _ Ia) as (Ax & Ay). destruct (Fb _ Ib) as (Bx & By).
    assert (Rn : forall v, Rabs v <= B -> Rabs (@round8 ArithR v) <= B + 1).
    { intros v Hv. pose proof (round8_near v) as K. apply Rabs_le_inv in K, Hv. apply Rabs_le. split; lra. }
    split; [exact (Rn _ (Bs _ _ _ _ _ Ht Ax Bx eq_refl))|exact (Rn _ (Bs _ _ _ _ _ Ht Ay By eq_refl))]. }
  pose proof layer_corners as Co. pose proof layer_level as Lv.
  assert (Bo : forall x, FillClaims.on_contour ps x -> Rabs (X x) <= B + 1 /\ Rabs (Y x) <= B + 1 /\ Z3 x = round8 (A := ArithR) h).
  { intros x (p & l1 & v & w & l2 & Ip & -> & (t & Ht & ->)). rewrite Forall_forall in Co, Lv. specialize (Co _ Ip). specialize (Lv _ Ip).
    unfold level in Lv. rewrite Forall_forall in Co, Lv.
    assert (Iv : In v (l1 ++ v :: w :: l2)) by (apply in_or_app; right; cbn; tauto). assert (Iw : In w (l1 ++ v :: w :: l2)) by (apply in_or_app; right; cbn; tauto).
    destruct (Bc v (Co v Iv)) as (A1 & A2). destruct (Bc w (Co w Iw)) as (B1 & B2).
    split; [exact (Bs _ _ _ _ _ Ht A1 B1 eq_refl)|]. split; [exact (Bs _ _ _ _ _ Ht A2 B2 eq_refl)|].
    unfold along. unfold Z3 at 1. cbn [pz]. rewrite (Lv v Iv), (Lv w Iw). rcbn. ring. }
  assert (Be : forall f q, In f cuts -> FillClaims.is_end q f -> Rabs (X q) <= B + 1 /\ Rabs (Y q) <= B + 1 /\ Z3 q = round8 (A := ArithR) h).
  { intros f q If Hq. apply in_flat_map in If. destruct If as (pl & _ & If). destruct (C49_on_contours U ps pl f HU If) as (a & b & -> & Oa & _ & Ob & _).
    assert (Iq : In q [a; b]).
    { destruct Hq as [(r & E)|(r & E)]; rewrite E; [now left|apply in_or_app; right; now left]. }
    destruct Iq as [<-|[<-|[]]]; now apply Bo. }
  intros f g q r If Ig Hq Hr. destruct (Be f q If Hq) as (Q1 & Q2 & Q3). destruct (Be g r Ig Hr) as (R1 & R2 & R3).
  change (Rltb (distanceTo (A := ArithR) q r) maxFloat32 = true). apply Rltb_true. unfold distanceTo, nsq. unfold X, Y, Z3 in *.
  apply Rabs_le_inv in Q1, Q2, R1, R2.
  assert (M : 4 * (B + 1) < maxFloat32 (A := ArithR)).
  { unfold maxFloat32, nofZ. cbn [nlit ArithR]. rewrite lit1. 
    assert (K : 10 ^ 38 < IZR ((2 ^ 24 - 1) * 2 ^ 104)). { change (10 ^ 38) with (IZR 10 ^ 38). rewrite pow_IZR. apply IZR_lt. vm_compute. reflexivity. }
    assert (K1 : 1 <= 10 ^ 37) by (apply pow_R1_Rle; lra). replace (10 ^ 38) with (10 * 10 ^ 37) in K by (cbn; ring). nra. }
  eapply Rle_lt_trans; [|exact M]. rcbn. apply Rle_trans with (sqrt (Rsqr (4 * (B + 1)))); [|rewrite sqrt_Rsqr; lra].
  apply sqrt_le_1_alt. unfold Rsqr. nra.
Qed.
End Layer.

Section Three.
Variables (X0 : @outside ArithR) (f : @flags ArithR) (mn mx : R).
(** the model, moved by the origin flags *)
Let m := m_shift (ex_mesh X0) (fl_origin f).
(** the height of cut [i] *)
Let height (i : nat) := layer_height_at mn mx (fl_layerHeight f) i.
(** the planes of the fill of layer [k] of [n] *)
Let planes (k n : nat) :=
  if ((Z.of_nat k <? fl_bottomLayers f) || (Z.of_nat n - fl_topLayers f <=? Z.of_nat k))%Z%bool then Properties_Flags.solid m f else pattern m f.

(** In three-axis mode without supports, for a watertight model: the program visits the vertices of the paths of
    [layers] in order, and prints nothing else. Layer k is the section of the model at cut k (k + 1 if the first one
    was empty): its contours run through the places where sides of triangles cross that height; a point at that
    height is inside the contours if and only if it is inside the model; and seen from above it is on a fill line if
    and only if it is inside the model and on a fill plane. Excepted are points within 5e-9 of the surface and points
    between three contour corners nearly in line. *)
Theorem C112_three_axes : forall out,
  good_outside X0 -> legal (ex_U X0) -> sorts (fun a b => sortp_less (fst a) (fst b)) (u_ends (ex_U X0)) ->
  fl_slicingType f = "3axes"%string -> fl_supportsOn f = false -> 0 < fl_layerHeight f -> ex_mesh X0 <> [] ->
  Forall (fun p => Rabs (X p) <= 10 ^ 37 /\ Rabs (Y p) <= 10 ^ 37 /\ in_range (Z3 p)) (vertices m) ->
  lowest axisZ (vertices m) mn -> highest axisZ (vertices m) mx -> mn < mx -> watertight m ->
  (forall i, (i < Z.to_nat (layers_count (mx - mn) (fl_layerHeight f)))%nat ->
     general_position (plane_at axisZ (height i)) m /\
     forall pl x, In pl (pattern m f ++ Properties_Flags.solid m f) -> corner m (height i) x -> sd pl x <> 0) ->
  goosli X0 f = Ok out ->
  exists head t foot is layers d,
    out = (head ++ t ++ foot)%string /\ read_gcode t = Some is /\ (d <= 1)%nat /\
    Forall2 performs (filter goes is) (flat_map visits (flat_map layer_paths layers)) /\
    (forall c s, Forall (moves_among 0 layers) (events c s is)) /\
    forall k l, nth_error layers k = Some l ->
      (k + d < Z.to_nat (layers_count (mx - mn) (fl_layerHeight f)))%nat /\
      layer_paths l = l_paths l ++ l_fill l /\
      let h := height (k + d) in let pls := planes k (length layers) in
      Forall (Forall (corner m h)) (l_paths l) /\
      Forall (fun g => exists a b pl, g = [a; b] /\ In pl pls /\ sd pl a = 0 /\ sd pl b = 0) (l_fill l) /\
      forall q, Z3 q = h -> off_surface (5 / 10 ^ 9) q m -> no_sliver q (corner m h) ->
        forall dx dy n, clear_ray (5 / 10 ^ 9) q dx dy m -> pierced q dx dy m n ->
        (enclosed_all q (l_paths l) <-> Nat.odd n = true) /\
        ((exists a b, In [a; b] (l_fill l) /\ on_seg_above a b q) <-> Nat.odd n = true /\ exists pl, In pl pls /\ sd pl q = 0).
Proof.
  intros out Go HU HS T3 Hs HL Hne Hv Hlo Hhi Hh W G H.
  destruct (goosli_inv X0 f out Go H) as (g & t & hl & fl & is & s' & Es & E & -> & I & R & _ & _).
  unfold slicing in Es. rewrite T3 in Es. cbn [String.eqb Ascii.eqb Bool.eqb] in Es. unfold sliceByVectorToGcode in Es. fold m in Es.
  set (st := settingsOf (ex_now X0) f) in *.
  destruct (sliceByVector (ex_U X0) m axisZ st) as [ls| |] eqn:El; cbn [rbind] in Es; try discriminate Es.
  assert (FF : calcFillPlanes m st = (pattern m f, Properties_Flags.solid m f)) by (unfold m, st; apply fill_flags). rewrite FF in Es.
  destruct (fillLayers (ex_U X0) ls (pattern m f) (Properties_Flags.solid m f) st) as [lf| |] eqn:Ef; cbn [rbind] in Es; try discriminate Es.
  injection Es as <-.
  assert (Hne' : m <> []) by (unfold m; destruct (ex_mesh X0); [contradiction|discriminate]).
  assert (Hr' : Forall (fun p => in_range (Rdot p axisZ)) (vertices m)).
  { eapply Forall_impl; [|exact Hv]. cbn beta. intros p. rewrite Rdot_axisZ. tauto. }
  destruct (slice_exact (ex_U X0) m axisZ axisZ st mn mx HU Hne' unit_axisZ Hr' Hlo Hhi HL Hh) as (sup & full & Su & _ & Hlen & H4 & H5).
  specialize (Su Hs). subst sup. cbn [app] in H4.
  pose proof (bare_layers (ex_U X0) m axisZ st ls HU El) as B.
  pose proof (trim_spec full) as T. rewrite <- H5, El in T. destruct T as (a & b & Efu & La & _).
  destruct (C47_fill (A := ArithR) (ex_U X0) ls (pattern m f) (Properties_Flags.solid m f) st) as (out' & F' & S & K).
  { eapply Forall_impl; [|exact B]. cbn beta. intros l (_ & _ & ->). constructor. }
  rewrite Ef in F'. injection F' as <-.
  assert (Len : length ls = length lf) by (clear -S; induction S; cbn; congruence).
  set (g := g_addLayers (newGcode (s_g st)) lf) in *.
  assert (Lg : flat_map cmd_layers (g_cmds g) = lf) by (unfold g; cbn [g_addLayers g_add newGcode g_cmds flat_map cmd_layers app]; apply app_nil_r).
  exists hl, t, fl, is, lf, (length a). split; [reflexivity|]. split; [exact R|]. split; [exact La|].
  split; [|split].
  - destruct (C14_visits g t E) as (is' & R' & V); [unfold g; cbn; constructor; [exact Logic.I|constructor]|].
    rewrite R in R'. injection R' as <-. unfold cmds_paths in V. rewrite Lg in V. exact V.
  - intros c s. rewrite <- Lg. exact (cmds_among _ _ _ _ _ c s I (Z.le_refl 0)).
  - intros k l' Hk'.
    assert (Hk : exists l, nth_error ls k = Some l /\ FillClaims.same_but_fill l l').
    { clear -S Hk'. revert k Hk'. induction S as [|x y ls out H S IH]; intros [|j]; cbn; try discriminate; [|apply IH].
      intros [= <-]. eauto. }
    destruct Hk as (l & Hk & SB). destruct SB as (_ & _ & Q1 & Q2 & Q3).
    rewrite Forall_forall in B. destruct (B l (nth_error_In _ _ Hk)) as (B1 & B2 & B3).
    assert (Hf : nth_error full (k + length a) = Some l).
    { rewrite Efu, nth_error_app2 by lia. replace (k + length a - length a)%nat with k by lia. rewrite nth_error_app1; [exact Hk|].
      apply nth_error_Some. congruence. }
    destruct (H4 _ _ Hf) as (_ & _ & segs & P & J).
    assert (Lt : (k + length a < Z.to_nat (layers_count (mx - mn) (fl_layerHeight f)))%nat).
    { change (fl_layerHeight f) with (s_layerHeight st). rewrite <- Hlen. apply nth_error_Some. congruence. }
    split; [exact Lt|]. split; [unfold layer_paths; rewrite <- Q2, <- Q3, B1, B2; reflexivity|].
    destruct (K k l l' Hk Hk') as (pls & P1 & P2 & P3 & P4 & P5). rewrite Len in P1, P2.
    assert (Ep : pls = planes k (length lf)).
    { unfold planes. destruct (Z.ltb_spec (Z.of_nat k) (fl_bottomLayers f)) as [L1|L1]; [apply P1; now left|].
      destruct (Z.leb_spec (Z.of_nat (length lf) - fl_topLayers f) (Z.of_nat k)) as [L2|L2]; [apply P1; now right|]. apply P2. split; assumption. }
    subst pls. set (pls := planes k (length lf)) in *.
    assert (Hp : forall pl, In pl pls -> In pl (pattern m f ++ Properties_Flags.solid m f)).
    { intros pl Ip. unfold pls, planes in Ip. apply in_or_app. destruct ((_ || _)%bool); tauto. }
    destruct (G _ Lt) as (G1 & G2). set (h := height (k + length a)) in *.
    assert (Uz : axisZ (A := ArithR) = V3 (A := ArithR) 0 0 1) by (unfold axisZ; rcbn; reflexivity).
    change (layer_height_at mn mx (s_layerHeight st) (k + length a)) with h in P. rewrite Uz in P, G1.
    assert (Cn : FillClaims.contours l = l_paths l') by (unfold FillClaims.contours; rewrite B2; exact Q1).
    rewrite B3, Cn in P3, P4, P5. cbn [app] in P3, P4, P5. rewrite Q1 in J.
    assert (Up : forall pl, In pl pls -> upright pl) by (intros pl Ip; exact (planes_upright m f pl (Hp pl Ip))).
    assert (Of : forall pl x, In pl pls -> corner m h x -> sd pl x <> 0) by (intros pl x Ip; exact (G2 pl x (Hp pl Ip))).
    assert (F2 : forall c, In c (flat_map (intersectByPlane (ex_U X0) (l_paths l')) pls) -> In c (l_fill l') \/ In (rev c) (l_fill l')).
    { assert (NE : FillClaims.near_ends (flat_map (intersectByPlane (ex_U X0) (l_paths l')) pls)).
      { apply (cuts_near (ex_U X0) m h segs (l_paths l') pls HU HS W G1 P J (10 ^ 37)); [split; [apply pow_le; lra|lra]|].
        eapply Forall_impl; [|exact Hv]. cbn beta. tauto. }
      destruct (P5 NE) as (fs & Pf & F2). intros c Ic. apply (Permutation_in _ Pf) in Ic. clear -Ic F2.
      induction F2 as [|x y fs gs Hxy F2 IH]; [destruct Ic|]. destruct Ic as [->|Ic].
      - destruct Hxy as [-> | ->]; [left|right]; now left.
      - destruct (IH Ic); [left|right]; now right. }
    cbv zeta. split; [exact (layer_corners (ex_U X0) m h segs (l_paths l') HS W G1 P J)|].
    split; [exact (layer_fill_planes (ex_U X0) (l_paths l') (l_fill l') pls HU P4)|].
    intros q Zq Off NS dx dy n Cl Pi.
    exact (layer_filled (ex_U X0) m h segs (l_paths l') (l_fill l') pls HU HS W G1 P J Up Of P4 F2 q Zq Off NS dx dy n Cl Pi).
Qed.
End Three.

(** ** Cases *)
(** moving a model keeps it watertight and in general position *)
Definition moved2 (o : Rvector) (e : side) : side := (moved o (fst e), moved o (snd e)).
Lemma moved_inj o a b : moved o a = moved o b -> a = b.
Proof.
  intros H. unfold moved in H. injection H as H1 H2 H3. apply pt_ext; [apply Rplus_eq_reg_r in H1|apply Rplus_eq_reg_r in H2|apply Rplus_eq_reg_r in H3]; assumption.
Qed.
Lemma moved2_inj o a b : moved2 o a = moved2 o b -> a = b.
Proof. destruct a, b. unfold moved2. cbn [fst snd]. intros H. injection H as H1 H2 H3 H4 H5 H6. f_equal; apply (moved_inj o); unfold moved; f_equal; assumption. Qed.
Lemma sides_shift (m : Rmesh) o : sides (m_shift m o) = map (moved2 o) (sides m).
Proof. unfold sides, m_shift. rewrite flat_map_concat_map, flat_map_concat_map, concat_map, !map_map. f_equal. Qed.
Lemma watertight_shift (m : Rmesh) o : watertight m -> watertight (m_shift m o).
Proof.
  intros (H1 & H2 & H3). split; [|split].
  - rewrite sides_shift, map_map. assert (E : map (fun x => back (moved2 o x)) (sides m) = map (moved2 o) (map back (sides m))) by (rewrite map_map; reflexivity).
    rewrite E. now apply Permutation_map.
  - rewrite sides_shift. apply FinFun.Injective_map_NoDup; [exact (moved2_inj o)|exact H2].
  - unfold m_shift. apply Forall_map. eapply Forall_impl; [|exact H3]. intros t (N1 & N2 & N3 & _).
    split; [|split; [|split]]; [| | |reflexivity]; intros K; [apply N1|apply N2|apply N3]; exact (moved_inj o _ _ K).
Qed.
Lemma on_seg_moved o a b q : on_seg (moved o a) (moved o b) q -> exists r, on_seg a b r /\ q = moved o r.
Proof.
  intros (t & Ht & ->). exists (along a b t). split; [exists t; split; [exact Ht|reflexivity]|].
  apply pt_ext; unfold along, moved, X, Y, Z3; cbn [px py pz]; unfold X, Y, Z3; rcbn; ring.
Qed.
Lemma general_shift (m : Rmesh) o c : general_position (plane_at (V3 (A := ArithR) 0 0 1) c) m ->
  general_position (plane_at (V3 (A := ArithR) 0 0 1) (c + vz o)) (m_shift m o).
Proof.
  intros (G1 & G2). assert (Sd : forall v, sd (plane_at (V3 (A := ArithR) 0 0 1) (c + vz o)) (moved o v) = sd (plane_at (V3 (A := ArithR) 0 0 1) c) v).
  { intros v. rewrite !sd_flat. unfold moved. unfold Z3 at 1. cbn [pz]. rcbn. ring. }
  split.
  - intros v Hv. rewrite vertices_shift in Hv. apply in_map_iff in Hv. destruct Hv as (w & <- & Hw). rewrite Sd. now apply G1.
  - intros e e' q q' Ie Ie' (O & S) (O' & S'). rewrite sides_shift in Ie, Ie'. apply in_map_iff in Ie, Ie'.
    destruct Ie as (e0 & <- & Ie). destruct Ie' as (e1 & <- & Ie').
    destruct (on_seg_moved _ _ _ _ O) as (r & Or & ->). destruct (on_seg_moved _ _ _ _ O') as (r' & Or' & ->). rewrite Sd in S, S'.
    destruct (G2 e0 e1 r r' Ie Ie' (conj Or S) (conj Or' S')) as (C1 & C2 & C3 & C4).
    assert (Cm : forall x y v : R, clear_of x y -> clear_of (x + v) (y + v)).
    { intros x y v [->|C]; [now left|right]. now replace (x + v - (y + v)) with (x - y) by ring. }
    split; [exact (Cm _ _ _ C1)|]. split; [exact (Cm _ _ _ C2)|]. split; [exact (Cm _ _ _ C3)|].
    intros E. apply moved_inj in E. destruct (C4 E) as [-> | ->]; [now left|right; reflexivity].
Qed.

Lemma tetra_crossed h e y : 0 < h < 1 -> In e (sides tetraR) -> on_seg (fst e) (snd e) y -> Z3 y = h -> X y = 0 \/ X y = 1 - h.
Proof.
  intros Hh He (t & Ht & ->) Z. rewrite tetra_sides in He. cbn [map tetra_zsides] in He.
  repeat (destruct He as [<-|He];
    [unfold zs, along in *; cbn [fst snd zq] in *; unfold X, Y, Z3, za, rp in *; cbn [px py pz] in *;
     first [exfalso; revert Z; rcbn; lra
           |left; revert Z; rcbn; lra
           |right; revert Z; rcbn; lra]|]).
  destruct He.
Qed.

(** the print of the tetrahedron in Properties_Where.v, moved by (5, 0, 2): fill lines at multiples of 2 mm and, on the
    bottom and top layers, of 0.4 mm; none of them passes through a corner *)
Example ex_C112 : let m := m_shift (ex_mesh exR_outside) (fl_origin exR_flags) in
  sorts (fun a b => sortp_less (fst a) (fst b)) (u_ends (ex_U exR_outside)) /\
  Forall (fun p => Rabs (X p) <= 10 ^ 37 /\ Rabs (Y p) <= 10 ^ 37 /\ in_range (Z3 p)) (vertices m) /\
  watertight m /\
  (forall i, (i < Z.to_nat (layers_count (3 - 2) (fl_layerHeight exR_flags)))%nat ->
     general_position (plane_at axisZ (layer_height_at 2 3 (fl_layerHeight exR_flags) i)) m /\
     forall pl x, In pl (pattern m exR_flags ++ Properties_Flags.solid m exR_flags) -> corner m (layer_height_at 2 3 (fl_layerHeight exR_flags) i) x -> sd pl x <> 0) /\
  exists out, goosli exR_outside exR_flags = Ok out.
Proof.
  intros m. split; [apply (ex_sorts ArithR)|].
  assert (V : forall p, In p (vertices tetraR) -> (X p = 0 \/ X p = 1) /\ (Y p = 0 \/ Y p = 1)).
  { intros p Hp. cbn in Hp. decompose [or] Hp; subst; unfold rp, X, Y; cbn [px py]; tauto || contradiction. }
  split.
  { pose proof exR_range as Rg. rewrite <- vertices_shift in Rg. fold m in Rg. rewrite Forall_forall in Rg |- *. intros p Hp. pose proof (Rg p Hp) as R0.
    unfold m in Hp. rewrite vertices_shift in Hp. apply in_map_iff in Hp. destruct Hp as (q & <- & Hq). destruct (V q Hq) as (Vx & Vy).
    assert (K : 6 <= 10 ^ 37) by (apply Rle_trans with (10 ^ 1); [lra|apply Rle_pow; [lra|lia]]).
    assert (Ex : X (moved (fl_origin exR_flags) q) = X q + 5) by reflexivity. assert (Ey : Y (moved (fl_origin exR_flags) q) = Y q + 0) by reflexivity.
    rewrite Ex, Ey. split; [|split; [|exact R0]]; apply Rabs_le; split; lra. }
  split; [apply watertight_shift; exact ex_watertight|]. split; [|exact exR_goosli].
  intros i Hi. rewrite exR_count in Hi. cbn in Hi.
  assert (Hh : exists c, layer_height_at 2 3 (fl_layerHeight exR_flags) i = c + 2 /\ (c = 1 / 8 \/ c = 3 / 8 \/ c = 5 / 8 \/ c = 7 / 8)).
  { unfold layer_height_at. rewrite exR_count. destruct i as [|[|[|[|i]]]]; [| | | |lia]; cbn [INR];
      [exists (1 / 8)|exists (3 / 8)|exists (5 / 8)|exists (7 / 8)]; (split; [lra|tauto]). }
  destruct Hh as (c & -> & Hc).
  assert (Uz : axisZ (A := ArithR) = V3 (A := ArithR) 0 0 1) by (unfold axisZ; rcbn; reflexivity). rewrite Uz.
  split; [apply (general_shift tetraR (fl_origin exR_flags) c); apply ex_general; lra|].
  intros pl x Ip (e & y & Ie & O & Z & ->).
  assert (Xn : exists n, X (pt_round8 (A := ArithR) y) = IZR n / 8 /\ (n = 40 \/ n = 47 \/ n = 45 \/ n = 43 \/ n = 41)%Z).
  { unfold m in Ie. rewrite sides_shift in Ie. apply in_map_iff in Ie. destruct Ie as (e0 & <- & Ie). destruct (on_seg_moved _ _ _ _ O) as (r & Or & ->).
    assert (Zr : Z3 r = c) by (change (Z3 r + 2 = c + 2) in Z; lra).
    destruct (tetra_crossed c e0 r ltac:(lra) Ie Or Zr) as [Xr|Xr];
    change (X (pt_round8 (moved (fl_origin exR_flags) r))) with (@round8 ArithR (X r + 5)%R); rewrite Xr.
    - exists 40%Z. split; [rewrite (round8_int 500000000) by lra; lra|tauto].
    - destruct Hc as [-> |[-> |[-> | ->]]].
      + exists 47%Z. split; [rewrite (round8_int 587500000) by lra; lra|tauto].
      + exists 45%Z. split; [rewrite (round8_int 562500000) by lra; lra|tauto].
      + exists 43%Z. split; [rewrite (round8_int 537500000) by lra; lra|tauto].
      + exists 41%Z. split; [rewrite (round8_int 512500000) by lra; lra|tauto]. }
  destruct Xn as (n & Xn & Hn).
  assert (Pl : exists k s, (s = 2 \/ s = 4 / 10) /\ forall q, sd pl q = X q - IZR k * s).
  { assert (Q : forall s, In pl (calcFillPlanesCommon (A := ArithR) m (V3 (A := ArithR) n1 n0 n0) s) -> exists k, forall q, sd pl q = X q - IZR k * s).
    { intros s I. destruct (C45_multiples m (V3 (A := ArithR) n1 n0 n0) s) as (j & nn & E). rewrite E in I. apply in_map_iff in I. destruct I as (w & <- & _).
      exists (j + Z.of_nat w)%Z. intros q. unfold sd, FillClaims.at_axis, X, Y, Z3. cbn [pl_p pl_n vx vy vz px py pz]. rcbn. ring. }
    apply in_app_or in Ip. destruct Ip as [Ip|Ip].
    - unfold pattern in Ip. cbn [exR_flags fl_fillingType String.eqb Ascii.eqb Bool.eqb] in Ip. apply Q in Ip. destruct Ip as (k & K).
      eexists k, _. split; [|exact K]. left. cbn [exR_flags fl_fillDensity fl_lineWidth]. rcbn. lra.
    - apply Q in Ip. destruct Ip as (k & K). eexists k, _. split; [|exact K]. right. reflexivity. }
  destruct Pl as (k & s & Hs & K). rewrite K, Xn. intros E.
  assert (E' : (IZR n = IZR (16 * k) \/ IZR (5 * n) = IZR (16 * k))).
  { rewrite !mult_IZR. destruct Hs as [-> | ->]; [left|right]; lra. }
  destruct E' as [E'|E']; apply eq_IZR in E'; lia.
Qed.

Print Assumptions C112_three_axes.
