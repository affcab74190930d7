(** * C110 The fill is inside the contours *)
From Coq Require Import Reals Lra Lia List Bool ZArith PeanoNat Permutation Sorted.
From Verif Require Import Arith ArithR Prim Path GeomSpec GeomProofs MeshProofs Gcode Slicer SlicerClaims Fill FillClaims FillProofs FillProofs2 FillProofs3
  Properties_Fill InsideClaims InsideProofs Properties_Inside FillInsideProofs.
Import ListNotations.
Close Scope Z_scope.
Close Scope num_scope.
Local Open Scope R_scope.

(** A fill line of level contours that return to their start consists of the points of its plane that are inside the contours: a point
    that is not on a contour is on a returned segment if and only if a ray from it crosses the contours an odd number
    of times. Any ray that meets no corner decides it. *)
Theorem C110_line : forall U (ps : list Rpath) (pl : Rplane) z q, legal U ->
  vz (pl_n pl) = 0%R -> (vx (pl_n pl) : R) <> 0%R \/ (vy (pl_n pl) : R) <> 0%R ->
  Forall returns ps -> Forall (level z) ps -> general_position pl ps ->
  sd pl q = 0 -> Z3 q = z -> Forall (beside q) ps ->
  ((exists a b, In [a; b] (intersectByPlane U ps pl) /\ on_seg a b q) <-> enclosed_all q ps) /\
  (forall dx dy n, Forall (fun p => free_dir q p dx dy) ps -> crossed_all q dx dy ps n ->
    (exists a b, In [a; b] (intersectByPlane U ps pl) /\ on_seg a b q) <-> Nat.odd n = true).
Proof.
  intros U ps pl z q Lg Z N C Lv G Sq Zq B.
  set (d := heading (pl_n pl)). pose proof (heading_along pl Z N) as D. fold d in D.
  pose proof (hits_crossings pl ps G) as Cr. set (cs := Fill.hits pl ps) in *.
  assert (Lvl : forall p a b c, In p ps -> next_in p a b -> on_seg a b c -> Z3 c = z).
  { intros p a b c Ip Nx (t & _ & ->). rewrite Forall_forall in Lv. specialize (Lv p Ip). destruct (next_in_In _ _ _ Nx) as (Ia & Ib).
    unfold level in Lv. rewrite Forall_forall in Lv. unfold along. unfold Z3 at 1. cbn [pz]. rewrite (Lv a Ia), (Lv b Ib). rcbn. ring. }
  assert (Away : forall c, sd pl c = 0 -> (exists p a b, In p ps /\ next_in p a b /\ on_seg a b c) -> Rdot c d <> Rdot q d).
  { intros c Sc (p & a & b & Ip & Nx & O) E. rewrite Forall_forall in B. apply (B p Ip a b c Nx O). apply (same_point pl d); assumption. }
  assert (T : forall c, In c cs -> Rdot c d <> Rdot q d).
  { intros c Ic. destruct (crossings_on pl ps cs c Cr Ic) as (Sc & Oc). now apply Away. }
  pose proof (returns_even_odd U pl ps Lg Z N C G (Rdot q d) T) as EO. fold d cs in EO.
  (* segments *)
  assert (Seg : forall a b, In [a; b] (intersectByPlane U ps pl) ->
     (on_seg a b q <-> Rdot a d < Rdot q d < Rdot b d)).
  { intros a b I. destruct (C49_on_contours U ps pl [a; b] Lg I) as (a' & b' & E & Oa & Sa & Ob & Sb). injection E as <- <-.
    assert (Na : exists p u v, In p ps /\ next_in p u v /\ on_seg u v a).
    { destruct Oa as (p & l1 & u & v & l2 & Ip & Ep & O). exists p, u, v. split; [exact Ip|]. split; [exists l1, l2; exact Ep|exact O]. }
    assert (Nb : exists p u v, In p ps /\ next_in p u v /\ on_seg u v b).
    { destruct Ob as (p & l1 & u & v & l2 & Ip & Ep & O). exists p, u, v. split; [exact Ip|]. split; [exists l1, l2; exact Ep|exact O]. }
    assert (Za : Z3 a = z) by (destruct Na as (p & u & v & I1 & I2 & I3); exact (Lvl p u v a I1 I2 I3)).
    assert (Zb : Z3 b = z) by (destruct Nb as (p & u & v & I1 & I2 & I3); exact (Lvl p u v b I1 I2 I3)).
    pose proof (Away a Sa Na) as Da. pose proof (Away b Sb Nb) as Db.
    assert (Le : Rdot a d <= Rdot b d).
    { destruct (segments_of_hits U ps pl) as (_ & ks & E). pose proof (keep_sorted _ ks _ (hits_sorted U pl ps Lg Z N)) as S. rewrite <- E in S.
      exact (sorted_pair _ _ a b S I). }
    assert (Dal : forall t, Rdot (along a b t) d = Rdot a d + t * (Rdot b d - Rdot a d)).
    { intros t. unfold Rdot, along, X, Y, Z3. cbn [px py pz]. rcbn. ring. }
    split.
    - intros (t & Ht & E). rewrite E in Da, Db |- *. rewrite Dal in *.
      assert (T0 : 0 <= t * (Rdot b d - Rdot a d)) by (apply Rmult_le_pos; lra).
      assert (T1 : 0 <= (1 - t) * (Rdot b d - Rdot a d)) by (apply Rmult_le_pos; lra). lra.
    - intros (L1 & L2). set (t := (Rdot q d - Rdot a d) / (Rdot b d - Rdot a d)).
      assert (Et : t * (Rdot b d - Rdot a d) = Rdot q d - Rdot a d) by (unfold t; field; lra).
      exists t. split.
      + split; [unfold t; apply Rlt_le, Rdiv_lt_0_compat; lra|]. apply Rmult_le_reg_r with (Rdot b d - Rdot a d); [lra|]. lra.
      + assert (S0 : sd pl (along a b t) = 0) by (rewrite sd_along, Sa, Sb; ring).
        assert (E0 : Rdot (along a b t) d = Rdot q d) by (rewrite Dal; lra).
        destruct (same_point pl d _ _ Z N D S0 Sq E0) as (Ex & Ey).
        assert (Ez : Z3 (along a b t) = Z3 q). { unfold along. unfold Z3 at 1. cbn [pz]. rewrite Za, Zb, Zq. rcbn. ring. }
        destruct q as [qx qy qz]. unfold along in *. unfold X, Y, Z3 in Ex, Ey, Ez |- *. cbn [px py pz] in *. rcbn. congruence. }
  assert (Main : (exists a b, In [a; b] (intersectByPlane U ps pl) /\ on_seg a b q) <-> Nat.odd (before d (Rdot q d) cs) = true).
  { rewrite <- EO. split; intros (a & b & I & H); exists a, b; (split; [exact I|]); apply (Seg a b I); exact H. }
  assert (Gs : Forall (fun bc => sd pl (fst bc) <> 0 /\ sd pl (snd bc) <> 0) (flat_map sides ps)).
  { rewrite Forall_forall. intros (b & c) I. apply in_flat_map in I. destruct I as (p & Ip & I). apply sides_next in I. destruct (next_in_In _ _ _ I).
    cbn [fst snd]. split; eapply G; eassumption. }
  rewrite (before_cnt pl q d Z N D Sq _ _ Gs Cr), <- cnt_all_sides in Main.
  assert (Fr : Forall (fun p => free_dir q p (- vx d) (- vy d)) ps).
  { destruct (back_pos pl q d Z N D Sq) as (k & Nk & Pk). rewrite Forall_forall. intros p Ip. unfold free_dir. rewrite Forall_forall. intros b Ib.
    rewrite in_line_pos, Pk. apply Rmult_integral_contrapositive_currified; [exact Nk|]. eapply G; eassumption. }
  assert (Any : forall dx dy n, Forall (fun p => free_dir q p dx dy) ps -> crossed_all q dx dy ps n ->
    (exists a b, In [a; b] (intersectByPlane U ps pl) /\ on_seg a b q) <-> Nat.odd n = true).
  { intros dx dy n F1 Cn. rewrite Main, (crossed_cnt_all _ _ _ _ _ F1 Cn), (even_odd_all q _ _ dx dy ps C B Fr F1). tauto. }
  split; [|exact Any]. split.
  - intros H. exists (- vx d), (- vy d), (cnt_all q (- vx d) (- vy d) ps). split; [exact Fr|]. split; [now apply cnt_crossed_all|]. now apply Main.
  - intros (dx & dy & n & F1 & Cn & O). now apply (Any dx dy n F1 Cn).
Qed.

(** Every fill path that FillLayers adds to a layer is a straight segment inside the contours that are filled. *)
Theorem C110_layers : forall U (ls : list (@layer ArithR)) planes full s out, legal U ->
  Forall (fun l => Forall (fun f : Rpath => f <> []) (l_fill l)) ls -> fillLayers U ls planes full s = Ok out ->
  forall i l l' z, nth_error ls i = Some l -> nth_error out i = Some l' ->
  Forall returns (contours l) -> Forall (level z) (contours l) ->
  (forall pl, In pl (planes ++ full) -> vz (pl_n pl) = 0 /\ ((vx (pl_n pl) : R) <> 0 \/ (vy (pl_n pl) : R) <> 0) /\ general_position pl (contours l)) ->
  Forall (fun g => (exists f, In f (l_fill l) /\ (g = f \/ g = rev f)) \/
                   (exists a b, g = [a; b] /\ forall q, on_seg a b q -> Forall (beside q) (contours l) -> enclosed_all q (contours l)))
    (l_fill l').
Proof.
  intros U ls planes full s out Lg Ne E i l l' z Hl Hl' C Lv P.
  destruct (C47_fill U ls planes full s Ne) as (out' & E' & _ & K). rewrite E in E'. injection E' as <-.
  destruct (K i l l' Hl Hl') as (pls & K1 & K2 & _ & K3 & _).
  assert (Hp : forall pl, In pl pls -> In pl (planes ++ full)).
  { intros pl I. apply in_or_app. destruct (Z_lt_dec (Z.of_nat i) (s_bottomLayers s)) as [Q|Q]; [right; rewrite <- K1; [exact I|left; exact Q]|].
    destruct (Z_le_dec (Z.of_nat (length ls) - s_topLayers s) (Z.of_nat i)) as [Q'|Q']; [right; rewrite <- K1; [exact I|right; exact Q']|].
    left. rewrite <- K2; [exact I|]. split; lia. }
  rewrite Forall_forall in K3 |- *. intros g Ig. destruct (K3 g Ig) as (f & If & Hf). apply in_app_or in If. destruct If as [If|If]; [left; exists f; split; assumption|].
  right. apply in_flat_map in If. destruct If as (pl & Ipl & If). destruct (P pl (Hp pl Ipl)) as (Vz & Vn & G).
  destruct (C49_on_contours U (contours l) pl f Lg If) as (a & b & -> & Oa & Sa & Ob & Sb).
  assert (In_seg : forall q, on_seg a b q -> Forall (beside q) (contours l) -> enclosed_all q (contours l)).
  { intros q O B. assert (Zof : forall x, on_contour (contours l) x -> Z3 x = z).
    { intros x (p & l1 & u & v & l2 & Ip & -> & (t & _ & ->)). rewrite Forall_forall in Lv. specialize (Lv _ Ip). unfold level in Lv. rewrite Forall_forall in Lv.
      unfold along. unfold Z3 at 1. cbn [pz]. rewrite (Lv u), (Lv v) by (apply in_or_app; right; cbn; tauto). rcbn. ring. }
    assert (Sq : sd pl q = 0) by (destruct O as (t & _ & ->); rewrite sd_along, Sa, Sb; ring).
    assert (Zq : Z3 q = z). { destruct O as (t & _ & ->). unfold along. unfold Z3 at 1. cbn [pz]. rewrite (Zof a Oa), (Zof b Ob). rcbn. ring. }
    apply (C110_line U (contours l) pl z q Lg Vz Vn C Lv G Sq Zq B). exists a, b. split; assumption. }
  destruct Hf as [->| ->]; [exists a, b; split; [reflexivity|exact In_seg]|].
  exists b, a. split; [reflexivity|]. intros q O. apply In_seg.
  destruct O as (t & Ht & ->). exists (1 - t). split; [lra|]. unfold along, X, Y, Z3. cbn [px py pz]. f_equal; rcbn; ring.
Qed.

(** ** Cases *)
Local Notation pt := Properties_Inside.pt.
Local Ltac coords := unfold X, Y, Z3, Properties_Inside.pt; cbn [px py pz]; rcbn.
Local Ltac coords_in H := unfold X, Y, Z3, Properties_Inside.pt in H; cbn [px py pz] in H; rcbn.
(** a square of 10 mm with a square hole of 4 mm, and the plane x = 1 *)
Definition outer : Rpath := [pt (-5) (-5) 0; pt (-5) 5 0; pt 5 5 0; pt 5 (-5) 0; pt (-5) (-5) 0].
Definition hole4 : Rpath := [pt (-2) (-2) 0; pt 2 (-2) 0; pt 2 2 0; pt (-2) 2 0; pt (-2) (-2) 0].
Definition atx1 : Rplane := Pl (pt 1 0 0) (V3 (A := ArithR) 1 0 0).

Lemma ex_frame : vz (pl_n atx1) = 0%R /\ (vx (pl_n atx1) : R) <> 0%R /\
  Forall returns [outer; hole4] /\ Forall (level 0) [outer; hole4] /\ general_position atx1 [outer; hole4].
Proof.
  split; [reflexivity|]. split; [unfold atx1; cbn [pl_n vx]; rcbn; lra|]. split; [|split].
  - constructor; [|constructor; [|constructor]]; unfold outer, hole4; apply closed_last.
    + exists (pt (-5) (-5) 0), [pt (-5) 5 0; pt 5 5 0; pt 5 (-5) 0]. reflexivity.
    + exists (pt (-2) (-2) 0), [pt 2 (-2) 0; pt 2 2 0; pt (-2) 2 0]. reflexivity.
  - repeat constructor.
  - intros p q Ip Iq. destruct Ip as [<-|[<-|[]]]; cbn [In outer hole4] in Iq;
    repeat (destruct Iq as [<-|Iq]; [unfold sd, atx1; cbn [pl_n pl_p vx vy vz]; coords; lra|]); destruct Iq.
Qed.

Example ex_C110_filled : forall U, legal U ->
  (exists a b, In [a; b] (intersectByPlane U [outer; hole4] atx1) /\ on_seg a b (pt 1 3 0)) /\
  ~ (exists a b, In [a; b] (intersectByPlane U [outer; hole4] atx1) /\ on_seg a b (pt 1 0 0)).
Proof.
  intros U Lg. destruct ex_frame as (Z & N & C & L & G).
  assert (B : forall y, (y = 3 \/ y = 0) -> Forall (beside (pt 1 y 0)) [outer; hole4]).
  { intros y Hy. constructor; [|constructor; [|constructor]]; unfold outer, hole4;
    repeat (apply Properties_Inside.beside_cons; [intros t Ht H; coords_in H; destruct Hy as [-> | ->]; lra|]); apply Properties_Inside.beside_one. }
  split.
  - apply (C110_line U [outer; hole4] atx1 0 (pt 1 3 0) Lg Z (or_introl N) C L G); [unfold sd, atx1; cbn [pl_n pl_p vx vy vz]; coords; lra|reflexivity|apply B; now left|].
    exists 0, 1, 1%nat. split; [|split; [|reflexivity]].
    + constructor; [|constructor; [|constructor]]; unfold free_dir, outer, hole4, in_line; repeat constructor; coords; lra.
    + apply (ca_cons _ _ _ outer [hole4] 1 0).
      * unfold outer. apply cr_miss; [intros (s & t & H); coords_in H; lra|]. apply cr_hit; [exists 2, (3 / 5); coords; lra|].
        do 2 (apply cr_miss; [intros (s & t & H); coords_in H; lra|]). constructor.
      * apply (ca_cons _ _ _ hole4 [] 0 0); [|constructor]. unfold hole4. do 4 (apply cr_miss; [intros (s & t & H); coords_in H; lra|]). constructor.
  - intros H. apply (proj2 (C110_line U [outer; hole4] atx1 0 (pt 1 0 0) Lg Z (or_introl N) C L G ltac:(unfold sd, atx1; cbn [pl_n pl_p vx vy vz]; coords; lra) eq_refl (B 0 (or_intror eq_refl)))
      0 1 2%nat) in H; [discriminate H| |].
    + constructor; [|constructor; [|constructor]]; unfold free_dir, outer, hole4, in_line; repeat constructor; coords; lra.
    + apply (ca_cons _ _ _ outer [hole4] 1 1).
      * unfold outer. apply cr_miss; [intros (s & t & H'); coords_in H'; lra|]. apply cr_hit; [exists 5, (3 / 5); coords; lra|].
        do 2 (apply cr_miss; [intros (s & t & H'); coords_in H'; lra|]). constructor.
      * apply (ca_cons _ _ _ hole4 [] 1 0); [|constructor]. unfold hole4. do 2 (apply cr_miss; [intros (s & t & H'); coords_in H'; lra|]).
        apply cr_hit; [exists 2, (1 / 4); coords; lra|]. apply cr_miss; [intros (s & t & H'); coords_in H'; lra|]. constructor.
Qed.

(** a layer of these contours, filled along that plane: it is filled, and every path is inside the contours *)
Example ex_C110_layers : forall U s, legal U -> exists out l',
  fillLayers U [Layer_ 0%Z (V3 (A := ArithR) 0 0 1) [outer; hole4] [] None []] [atx1] [atx1] s = Ok out /\ nth_error out 0 = Some l' /\
  l_fill l' <> [] /\
  Forall (fun g => exists a b, g = [a; b] /\ forall q, on_seg a b q -> Forall (beside q) [outer; hole4] -> enclosed_all q [outer; hole4]) (l_fill l').
Proof.
  intros U s Lg. set (l := Layer_ _ _ _ _ _ _). destruct ex_frame as (Z & N & C & L & G).
  assert (Ne : Forall (fun l => Forall (fun f : Rpath => f <> []) (l_fill l)) [l]) by (repeat constructor).
  destruct (C47_fill U [l] [atx1] [atx1] s Ne) as (out & E & Sm & K).
  inversion Sm as [|? l' ? r Sl Sr]; subst. inversion Sr; subst. exists [l'], l'. split; [exact E|]. split; [reflexivity|]. split.
  - destruct (K 0%nat l l' eq_refl eq_refl) as (pls & K1 & K2 & K3 & _).
    assert (Ep : pls = [atx1]).
    { destruct (Z_lt_dec (Z.of_nat 0) (s_bottomLayers s)) as [Q|Q]; [apply K1; now left|].
      destruct (Z_le_dec (Z.of_nat (length [l]) - s_topLayers s) (Z.of_nat 0)) as [Q'|Q']; [apply K1; now right|]. apply K2. split; lia. }
    subst pls. intros En. rewrite En in K3. destruct (ex_C110_filled U Lg) as ((a & b & I & _) & _).
    cbn [l l_fill app flat_map] in K3. rewrite app_nil_r in K3. change (contours l) with [outer; hole4] in K3.
    destruct (intersectByPlane U [outer; hole4] atx1); [destruct I|discriminate K3].
  - assert (F := C110_layers U [l] [atx1] [atx1] s [l'] Lg Ne E 0%nat l l' 0 eq_refl eq_refl C L).
    rewrite Forall_forall. intros g Ig.
    assert (P : forall pl, In pl ([atx1] ++ [atx1]) -> vz (pl_n pl) = 0 /\ ((vx (pl_n pl) : R) <> 0 \/ (vy (pl_n pl) : R) <> 0) /\ general_position pl (contours l)).
    { intros pl [<-|[<-|[]]]; (split; [exact Z|]); (split; [left; exact N|exact G]). }
    specialize (F P). rewrite Forall_forall in F. destruct (F g Ig) as [(f & [] & _)|H]. exact H.
Qed.

Print Assumptions C110_line.
Print Assumptions C110_layers.
