(** * C111 What is inside the contours is what is inside the model *)
From Coq Require Import Reals Lra Lia List Bool ZArith PeanoNat Permutation.
From Verif Require Import Arith ArithR Prim Path PathClaims GeomSpec GeomProofs MeshProofs Gcode Slicer SlicerClaims SlicerProofs SlicerProofs2 Properties_Path Properties_Slicer
  ClosedClaims Watertight Properties_Closed Properties_Cut Fill InsideClaims InsideProofs FillInsideProofs Properties_FillInside WhereProofs SolidClaims SolidProofs SolidProofs2.
From Flocq Require Import Core.Raux.
From Verif Require FillClaims.
Import ListNotations.
Close Scope Z_scope.
Close Scope num_scope.
Local Open Scope R_scope.

(** the corners of the contours of a layer are places where sides of the model cross its height, rounded *)
Lemma corners_of (m : Rmesh) h srt segs ps : let pl := plane_at (V3 (A := ArithR) 0 0 1) h in
  watertight m -> general_position pl m -> sorts (fun a b => sortp_less (fst a) (fst b)) srt -> Permutation segs (sections pl m) ->
  joinPaths3AndMinimize srt segs = Ok ps -> Forall (Forall (corner m h)) ps /\ Forall returns ps.
Proof.
  intros pl W G HS P J. destruct (joined pl m W G srt segs HS P) as (js & Ej & Pj & Fj).
  unfold joinPaths3AndMinimize in J. rewrite Ej in J. cbn [rbind] in J. injection J as <-. rewrite !Forall_map. rewrite Forall_forall in Fj.
  split; rewrite Forall_forall; intros r Ir; destruct (Fj r Ir) as (Lr & L2).
  - rewrite Forall_forall. intros x Ix. assert (Nr : r <> []) by (intros ->; cbn in L2; lia).
    destruct (C35_minimize r originPoint Nr) as (_ & Inc & _). apply Inc in Ix.
    destruct (in_side r x L2 Ix) as (a & b & Iab & Hab).
    assert (Ic : In (a, b) (flat_map path_sides (sections pl m))) by (eapply Permutation_in; [exact Pj|]; apply in_flat_map; eauto).
    assert (Cr : forall y, (y = a \/ y = b) -> corner m h y); [|now apply Cr].
    apply in_flat_map in Ic. destruct Ic as (g & Ig & Iab').
    destruct (ends_of_sections pl m W G m (incl_refl m)) as (E1 & E2 & _).
    assert (Two : exists a' b', g = [a'; b']).
    { unfold sections in Ig. apply in_flat_map in Ig. destruct Ig as (t & _ & Ig). destruct (intersectTriangle _ t); [|destruct Ig]. destruct Ig as [<-|[]]. eauto. }
    destruct Two as (a' & b' & ->). destruct Iab' as [Iab'|[]]. injection Iab' as -> ->.
    assert (M : forall y e, In e (sides m) -> (going_up pl e = true \/ going_down pl e = true) -> mark pl e = y -> corner m h y).
    { intros y e Ie Ge <-. destruct (cut_meets _ _ Ge) as (O & S). unfold pl in S. rewrite sd_flat in S. exists e, (at_plane pl e).
      repeat (split; [assumption|]). split; [unfold pl; lra|reflexivity]. }
    intros y [-> | ->].
    + assert (I1 : In a (map from (sections pl m))) by (apply in_map_iff; exists [a; b]; now split).
      rewrite E1 in I1. apply in_map_iff in I1. destruct I1 as (e & He & Ie). apply filter_In in Ie. apply (M a e); tauto.
    + assert (I1 : In b (map upto (sections pl m))) by (apply in_map_iff; exists [a; b]; now split).
      rewrite E2 in I1. apply in_map_iff in I1. destruct I1 as (e & He & Ie). apply filter_In in Ie. apply (M b e); tauto.
  - exact (proj2 (minimize_stands (originPoint (A := ArithR)) (fun _ => False) ltac:(intros ? ? ? []) r Lr)).
Qed.

(** A watertight model is sliced along the z axis. A point at the height of a layer is inside the contours of the
    layer if and only if it is inside the model: if a level ray from it leaves through the surface an odd number of
    times. Excepted are points nearer to the surface than the rounding to 8 places, and points between three corners
    that are nearly in line, of which one may be cut off. *)
Theorem C111_layers : forall U (m : Rmesh) (Zv : Rvector) (s : @settings ArithR) (mn mx : R),
  let u := V3 (A := ArithR) 0 0 1 in
  legal U -> sorts (fun a b => sortp_less (fst a) (fst b)) (u_ends U) -> m <> [] ->
  unit_of Zv u -> Forall (fun p => in_range (Rdot p u)) (vertices m) ->
  lowest u (vertices m) mn -> highest u (vertices m) mx -> 0 < s_layerHeight s -> mn < mx ->
  s_supportsOn s = false -> watertight m ->
  (forall i, (i < Z.to_nat (layers_count (mx - mn) (s_layerHeight s)))%nat ->
     general_position (plane_at u (layer_height_at mn mx (s_layerHeight s) i)) m) ->
  forall ls l, sliceByVector U m Zv s = Ok ls -> In l ls ->
  exists i, l_order l = Z.of_nat i /\
    let h := layer_height_at mn mx (s_layerHeight s) i in
    Forall (Forall (corner m h)) (l_paths l) /\
    forall q, Z3 q = h -> off_surface (5 / 10 ^ 9) q m -> no_sliver q (corner m h) ->
      Forall (beside q) (l_paths l) /\
      forall dx dy n, clear_ray (5 / 10 ^ 9) q dx dy m -> pierced q dx dy m n ->
        (enclosed_all q (l_paths l) <-> Nat.odd n = true).
Proof.
  intros U m Zv s mn mx u HU HS Hm Hu Hr Hlo Hhi HL Hh Hs W G ls l E Hl.
  destruct (C22_layers U m Zv u s mn mx HU Hm Hu Hr Hlo Hhi HL Hh) as (sup & S0 & K).
  destruct (K ls l E Hl) as (i & segs & Oi & Hi & P & J). rewrite (S0 Hs) in P. cbn [app] in P. specialize (G i Hi).
  exists i. split; [exact Oi|]. intros h. split; [exact (proj1 (corners_of m h (u_ends U) segs (l_paths l) W G HS P J))|]. intros q Zq Off NS.
  destruct (solid (plane_at u h) h (fun x => sd_flat h x) m W G q Zq Off (u_ends U) segs (l_paths l) HS P NS J) as (Be & R).
  split; [exact Be|]. intros dx dy n Cl Pi. exact (proj1 (R dx dy n Cl Pi)).
Qed.

(** seen from above *)
Lemma hits_above a b dx dy p q : X a = X b -> Y a = Y b -> hits a dx dy p q <-> hits b dx dy p q.
Proof. intros Ex Ey. unfold hits. rewrite Ex, Ey. reflexivity. Qed.
Lemma crossed_above a b dx dy p n : X a = X b -> Y a = Y b -> crossed a dx dy p n -> crossed b dx dy p n.
Proof.
  intros Ex Ey C. induction C; try constructor; try assumption; first [now apply (hits_above a b)|intros K; now apply (hits_above a b) in K].
Qed.
Lemma enclosed_above a b ps : X a = X b -> Y a = Y b -> enclosed_all a ps -> enclosed_all b ps.
Proof.
  intros Ex Ey (dx & dy & n & F & C & O). exists dx, dy, n. split; [|split; [|exact O]].
  - eapply Forall_impl; [|exact F]. intros p. unfold free_dir, in_line. rewrite Ex, Ey. auto.
  - clear F O. induction C; constructor; [now apply (crossed_above a b)|assumption].
Qed.
Lemma beside_above a b p : X a = X b -> Y a = Y b -> beside a p -> beside b p.
Proof. intros Ex Ey B u v x Nx O (H1 & H2). apply (B u v x Nx O). split; congruence. Qed.

(** So, where the contours are filled as they are, without inner walls, the fill is inside the model. *)
Theorem C111_fill : forall U (m : Rmesh) (Zv : Rvector) (s : @settings ArithR) (mn mx : R),
  let u := V3 (A := ArithR) 0 0 1 in
  legal U -> sorts (fun a b => sortp_less (fst a) (fst b)) (u_ends U) -> m <> [] ->
  unit_of Zv u -> Forall (fun p => in_range (Rdot p u)) (vertices m) ->
  lowest u (vertices m) mn -> highest u (vertices m) mx -> 0 < s_layerHeight s -> mn < mx ->
  s_supportsOn s = false -> watertight m ->
  (forall i, (i < Z.to_nat (layers_count (mx - mn) (s_layerHeight s)))%nat ->
     general_position (plane_at u (layer_height_at mn mx (s_layerHeight s) i)) m) ->
  forall ls planes full out, sliceByVector U m Zv s = Ok ls -> fillLayers U ls planes full s = Ok out ->
  forall k l l', nth_error ls k = Some l -> nth_error out k = Some l' ->
  (forall pl, In pl (planes ++ full) -> vz (pl_n pl) = 0 /\ ((vx (pl_n pl) : R) <> 0 \/ (vy (pl_n pl) : R) <> 0) /\ FillClaims.general_position pl (l_paths l)) ->
  exists i, l_order l = Z.of_nat i /\
    let h := layer_height_at mn mx (s_layerHeight s) i in
    Forall (fun g => exists a b, g = [a; b] /\ forall x, on_seg a b x ->
      let q := P3 (A := ArithR) (X x) (Y x) h in
      off_surface (5 / 10 ^ 9) q m -> no_sliver q (corner m h) ->
      forall dx dy n, clear_ray (5 / 10 ^ 9) q dx dy m -> pierced q dx dy m n -> Nat.odd n = true) (l_fill l').
Proof.
  intros U m Zv s mn mx u HU HS Hm Hu Hr Hlo Hhi HL Hh Hs W G ls planes full out E Ef k l l' Hk Hk' Pl.
  assert (Hl : In l ls) by (eapply nth_error_In; eassumption).
  destruct (C22_layers U m Zv u s mn mx HU Hm Hu Hr Hlo Hhi HL Hh) as (sup & S0 & K).
  destruct (K ls l E Hl) as (i & segs & Oi & Hi & P & J). rewrite (S0 Hs) in P. cbn [app] in P. specialize (G i Hi).
  exists i. split; [exact Oi|]. intros h.
  assert (Bare : Forall (fun l => l_middle l = [] /\ l_inner l = None /\ l_fill l = []) ls) by (eapply bare_layers; eassumption).
  assert (Bl := proj1 (Forall_forall _ _) Bare l Hl). destruct Bl as (_ & Inn & Fl).
  assert (Ct : FillClaims.contours l = l_paths l) by (unfold FillClaims.contours; now rewrite Inn).
  assert (Ne : Forall (fun l => Forall (fun f : Rpath => f <> []) (l_fill l)) ls).
  { eapply Forall_impl; [|exact Bare]. intros a (_ & _ & ->). constructor. }
  destruct (corners_of m h (u_ends U) segs (l_paths l) W G HS P J) as (Co & Cl).
  assert (Lv : Forall (level (round8 (A := ArithR) h)) (l_paths l)).
  { eapply Forall_impl; [|exact Co]. intros p Fp. unfold level. eapply Forall_impl; [|exact Fp]. intros x (e & y & _ & _ & Zy & ->).
    unfold pt_round8. unfold Z3 at 1. cbn [pz]. f_equal. exact Zy. }
  pose proof (C110_layers U ls planes full s out HU Ne Ef k l l' (round8 (A := ArithR) h) Hk Hk') as F. rewrite Ct in F. specialize (F Cl Lv Pl).
  eapply Forall_impl; [|exact F]. intros g [(f & If & _)|(a & b & -> & In_)]; [rewrite Fl in If; destruct If|]. exists a, b. split; [reflexivity|].
  intros x Ox q Off NS dx dy n Cr Pi.
  destruct (solid (plane_at u h) h (fun x => sd_flat h x) m W G q eq_refl Off (u_ends U) segs (l_paths l) HS P NS J) as (Be & R).
  apply (R dx dy n Cr Pi). apply (enclosed_above x q); [reflexivity|reflexivity|]. apply In_; [exact Ox|].
  eapply Forall_impl; [|exact Be]. intros p. now apply beside_above.
Qed.

(** ** Cases *)
(** the tetrahedron, sliced in four layers: a point a quarter in, at the height of the first *)
Lemma tetra_at e y : In e (sides tetraR) -> on_seg (fst e) (snd e) y -> Z3 y = 1 / 8 ->
  y = rp 0 0 (1 / 8) \/ y = rp (7 / 8) 0 (1 / 8) \/ y = rp 0 (7 / 8) (1 / 8).
Proof.
  intros He (t & Ht & ->) Z. rewrite tetra_sides in He. cbn [map tetra_zsides] in He.
  repeat (destruct He as [<-|He];
    [unfold zs, along in *; cbn [fst snd zq] in *; unfold X, Y, Z3, za, rp in *; cbn [px py pz] in *;
     first [exfalso; revert Z; rcbn; lra
           |left; f_equal; revert Z; rcbn; lra
           |right; left; f_equal; revert Z; rcbn; lra
           |right; right; f_equal; revert Z; rcbn; lra]|]).
  destruct He.
Qed.
Definition quarter : Rpoint := rp (1 / 4) (1 / 4) (1 / 8).

Lemma tetra_in t x : In t tetraR -> in_tri (t1 t) (t2 t) (t3 t) x -> Z3 x = 1 / 8 -> Y x = 0 \/ X x + Y x = 7 / 8 \/ X x = 0.
Proof.
  intros Ht (u & v & w & Hu & Hv & Hw & S & ->) Z. unfold tetraR in Ht.
  repeat (destruct Ht as [<-|Ht];
    [unfold comb3, newTriangle in *; cbn [t1 t2 t3] in *; unfold X, Y, Z3, rp in *; cbn [px py pz] in *; revert Z; rcbn; lra|]).
  destruct Ht.
Qed.

Lemma tetra_corner : forall a, corner tetraR (1 / 8) a -> a = rp 0 0 (1 / 8) \/ a = rp (7 / 8) 0 (1 / 8) \/ a = rp 0 (7 / 8) (1 / 8).
Proof.
  intros a (e & y & Ie & O & Z & ->).
  assert (R0 : @round8 ArithR 0 = 0) by (apply (round8_int 0); lra). assert (R1 : @round8 ArithR (1 / 8) = 1 / 8) by (apply (round8_int 12500000); lra).
  assert (R7 : @round8 ArithR (7 / 8) = 7 / 8) by (apply (round8_int 87500000); lra).
  destruct (tetra_at e y Ie O Z) as [-> |[-> | ->]].
  - left. apply pt_ext; [exact R0|exact R0|exact R1].
  - right. left. apply pt_ext; [exact R7|exact R0|exact R1].
  - right. right. apply pt_ext; [exact R0|exact R7|exact R1].
Qed.

Example ex_C111_point : Z3 quarter = layer_height_at 0 1 (3 / 10) 0 /\ off_surface (5 / 10 ^ 9) quarter tetraR /\
  no_sliver quarter (corner tetraR (layer_height_at 0 1 (3 / 10) 0)) /\ clear_ray (5 / 10 ^ 9) quarter 1 0 tetraR /\ pierced quarter 1 0 tetraR 1.
Proof.
  assert (H : layer_height_at 0 1 (3 / 10) 0 = 1 / 8) by (unfold layer_height_at; rewrite ex_count; cbn [INR]; lra).
  rewrite H. unfold quarter, rp. split; [reflexivity|].
  assert (Far : forall a, Rabs (a - 1 / 4) <= 5 / 10 ^ 9 -> a <> 0 /\ a < 3 / 8).
  { intros a Ha. apply Rabs_le_inv in Ha. lra. }
  split; [|split; [|split]].
  - intros t x Ht T Z (Dx & Dy). unfold Z3 at 2 in Z. cbn [pz] in Z. unfold X at 2 in Dx. unfold Y at 2 in Dy. cbn [px py] in Dx, Dy.
    apply Far in Dx, Dy. destruct (tetra_in t x Ht T Z) as [E|[E|E]]; lra.
  - pose proof tetra_corner as Kc.
    intros a b c Ka Kb Kc' Nab Nbc Nac Small. exfalso. revert Small. apply Rle_not_lt.
    destruct (Kc a Ka) as [-> |[-> | ->]], (Kc b Kb) as [-> |[-> | ->]], (Kc c Kc') as [-> |[-> | ->]]; try congruence;
      unfold X, Y, rp; cbn [px py]; rcbn; unfold Rabs; destruct (Rcase_abs _); lra.
  - intros e x Ie O Z. change (Z3 x = 1 / 8) in Z. rewrite Rabs_R1, Rabs_R0.
    destruct (tetra_at e x Ie O Z) as [-> |[-> | ->]]; unfold X, Y, rp; cbn [px py]; unfold Rabs; destruct (Rcase_abs _); lra.
  - unfold tetraR.
    apply pi_not; [intros (s & Hs & u & v & w & Hu & Hv & Hw & S & E); injection E as Ex Ey Ez; revert Ez; unfold Z3, newTriangle; cbn [t1 t2 t3 pz rp]; rcbn; lra|].
    apply pi_not; [intros (s & Hs & u & v & w & Hu & Hv & Hw & S & E); injection E as Ex Ey Ez; revert Ey; unfold Y, newTriangle; cbn [t1 t2 t3 py rp]; rcbn; lra|].
    apply pi_met; [|apply pi_not; [|constructor]].
    + exists (3 / 8). split; [lra|]. exists (5 / 8), (1 / 4), (1 / 8). repeat (split; [lra|]). apply pt_ext; unfold comb3, newTriangle, X, Y, Z3, rp; cbn [t1 t2 t3 px py pz]; unfold X, Y, Z3; cbn [px py pz]; rcbn; lra.
    + intros (s & Hs & u & v & w & Hu & Hv & Hw & S & E). injection E as Ex Ey Ez. revert Ex. unfold X, newTriangle. cbn [t1 t2 t3 px rp]. rcbn. lra.
Qed.

Example ex_C111 : forall U (s : @settings ArithR), legal U -> sorts (fun a b => sortp_less (fst a) (fst b)) (u_ends U) ->
  s_layerHeight s = 3 / 10 -> s_supportsOn s = false ->
  forall ls l, sliceByVector U tetraR (V3 (A := ArithR) 0 0 5) s = Ok ls -> In l ls -> l_order l = 0%Z -> enclosed_all quarter (l_paths l).
Proof.
  intros U s HU HS HL Hs ls l E Hl O.
  destruct (C111_layers U tetraR (V3 (A := ArithR) 0 0 5) s 0 1 HU HS ltac:(discriminate) ex_unit ex_range ex_low ex_high ltac:(rewrite HL; lra) Rlt_0_1 Hs ex_watertight)
    with (ls := ls) (l := l) as (i & Oi & _ & K); try assumption.
  { rewrite HL. exact ex_layers. }
  assert (i = 0%nat) by lia. subst i. rewrite HL in K. destruct ex_C111_point as (P1 & P2 & P3 & P4 & P5).
  destruct (K quarter P1 P2 P3) as (_ & R). now apply (R 1 0 1%nat P4 P5).
Qed.

(** filled along the plane x = 1/3 *)
Example ex_C111_fill : forall U (s : @settings ArithR), legal U -> sorts (fun a b => sortp_less (fst a) (fst b)) (u_ends U) ->
  s_layerHeight s = 3 / 10 -> s_supportsOn s = false ->
  forall ls l, sliceByVector U tetraR (V3 (A := ArithR) 0 0 5) s = Ok ls -> In l ls -> l_order l = 0%Z ->
  let pl := Pl (rp (1 / 3) 0 0) (V3 (A := ArithR) 1 0 0) in
  vz (pl_n pl) = 0 /\ ((vx (pl_n pl) : R) <> 0 \/ (vy (pl_n pl) : R) <> 0) /\ FillClaims.general_position pl (l_paths l).
Proof.
  intros U s HU HS HL Hs ls l E Hl O pl. split; [reflexivity|]. split; [left; exact R1_neq_R0|].
  destruct (C111_layers U tetraR (V3 (A := ArithR) 0 0 5) s 0 1 HU HS ltac:(discriminate) ex_unit ex_range ex_low ex_high ltac:(rewrite HL; lra) Rlt_0_1 Hs ex_watertight)
    with (ls := ls) (l := l) as (i & Oi & K & _); try assumption.
  { rewrite HL. exact ex_layers. }
  assert (i = 0%nat) by lia. subst i. rewrite HL in K.
  assert (H : layer_height_at 0 1 (3 / 10) 0 = 1 / 8) by (unfold layer_height_at; rewrite ex_count; cbn [INR]; lra). rewrite H in K.
  intros p x Ip Ix. rewrite Forall_forall in K. specialize (K p Ip). rewrite Forall_forall in K.
  destruct (tetra_corner x (K x Ix)) as [-> |[-> | ->]]; unfold pl, sd; cbn; lra.
Qed.

Print Assumptions C111_layers.
Print Assumptions C111_fill.
