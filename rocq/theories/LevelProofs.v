(** * The layers of a part are level, with walls, skirt and fill; exact arithmetic *)
From Coq Require Import ZArith Reals Lra Lia List Bool Permutation.
From Flocq Require Import Core.Raux.
From Verif Require Import Arith ArithR Prim Path PathClaims GeomSpec GeomProofs MeshProofs Helpers GcodeClaims Gcode Slicer SlicerClaims SlicerProofs SlicerProofs2 Properties_Slicer
  Fill FillClaims FillProofs Properties_Fill Vip VipClaims ClosedClaims OffsetClaims OffsetProofs Properties_Path WhereProofs Properties_Where SidesProofs.
Import ListNotations.
Close Scope Z_scope.
Close Scope num_scope.
Local Open Scope R_scope.

(** ** Walls *)
Lemma shift_level (w k h : R) (a b : Rpoint) : Z3 a = h -> Z3 b = h -> lflat h (shift_line (A := ArithR) w (vopp (V3 (A := ArithR) 0 0 k)) (a, b)).
Proof.
  intros Ha Hb. unfold shift_line, lflat.
  set (c := cross _ _). assert (C : (vz c : R) = 0) by (unfold c, cross, vopp, vectorTo; cbn [vx vy vz]; rcbn; ring).
  assert (N : (vz (normalize c) : R) = 0).
  { unfold normalize. destruct (@neqb ArithR _ _); [exact C|]. cbn [vz]. rcbn. change (vz c / vlen c = 0). rewrite C. unfold Rdiv. ring. }
  assert (S : forall p : Rpoint, Z3 p = h -> Z3 (pshift p (vscale (normalize c) w)) = h).
  { intros p Hp. unfold pshift, vscale, Z3 in *. cbn [px py pz vx vy vz]. rcbn. change (pz p + vz (normalize c) * w = h). rewrite N. lra. }
  cbn [lp1 lp2]. split; apply S; assumption.
Qed.

Lemma isect_level h (l n : Rline) q : lflat h l -> lflat h n -> intersectLine2 l n = Some q -> Z3 q = h.
Proof. intros Hl Hn E. now destruct (isect_some h l n q Hl Hn E). Qed.

Lemma trim_level h : forall (rest : list Rline) l, lflat h l -> Forall (lflat h) rest -> Forall (lflat h) (trim_lines l rest).
Proof.
  induction rest as [|n r IH]; intros l Hl F; cbn [trim_lines]; [constructor; [exact Hl|constructor]|].
  inversion F as [|? ? Hn Fr]; subst. destruct (intersectLine2 l n) as [q|] eqn:E.
  - pose proof (isect_level h l n q Hl Hn E) as Hq. constructor; [split; [apply Hl|exact Hq]|]. apply IH; [split; [exact Hq|apply Hn]|exact Fr].
  - constructor; [exact Hl|]. apply IH; [split; [apply Hl|apply Hn]|exact Fr].
Qed.
Lemma trim_path_level h c (ls : list Rline) : Forall (lflat h) ls -> Forall (lflat h) (trim_path c ls).
Proof.
  intros F. unfold Rline in *. destruct ls as [|l r]; [constructor|]. inversion F as [|? ? Hl Fr]; subst. unfold trim_path. destruct c; [|now apply trim_level].
  assert (H : Forall (lflat h) (trim_lines l (r ++ [l]))) by (apply trim_level; [exact Hl|apply Forall_app; auto]).
  destruct (trim_lines l (r ++ [l])) as [|x xs]; [constructor|]. inversion H as [|? ? Hx Hxs]; subst. rewrite Forall_forall in Hxs. constructor.
  - destruct xs as [|y ys]; [exact Hx|]. apply Hxs. destruct (@exists_last _ (y :: ys)) as (us & u & E); [discriminate|]. rewrite E, last_last. apply in_or_app. right. now left.
  - apply Forall_forall. intros y Hy. apply Hxs. destruct xs as [|z zs]; [destruct Hy|]. destruct (@exists_last _ (z :: zs)) as (us & u & E); [discriminate|]. rewrite E in Hy |- *. rewrite removelast_last in Hy. apply in_or_app. now left.
Qed.

Lemma wall_level (k w h : R) (pth out : Rpath) : level_at h pth -> makeOffset pth w (V3 (A := ArithR) 0 0 k) = Some out -> level_at h out.
Proof.
  intros Lv E. unfold makeOffset in E. destruct (length pth <? 2)%nat; [discriminate|].
  set (ls := map _ (segs pth)) in E. cbv zeta in E. destruct (_ <? 2)%nat in E; [discriminate|]. injection E as <-.
  assert (F : Forall (lflat h) ls).
  { unfold ls. apply Forall_forall. intros l Hl. apply in_map_iff in Hl. destruct Hl as ([a b] & <- & Hab). rewrite segs_sides in Hab.
    apply sides_in in Hab. unfold level_at in Lv. rewrite Forall_forall in Lv. apply shift_level; apply Lv; tauto. }
  pose proof (trim_path_level h (isClosed pth) ls F) as T. set (tr := trim_path (isClosed pth) ls) in *.
  assert (K : Forall (lflat h) (keep_lines tr ls)).
  { unfold keep_lines. apply Forall_forall. intros x Hx. apply in_map_iff in Hx. destruct Hx as ([n b] & <- & Hx). apply filter_In in Hx. destruct Hx as [Hx _]. apply in_combine_l in Hx. rewrite Forall_forall in T. exact (T n Hx). }
  assert (P : level_at h (lines_points (keep_lines tr ls))).
  { unfold lines_points, level_at. destruct (keep_lines tr ls) as [|l r]; [constructor|]. constructor; [apply (Forall_inv K)|].
    apply Forall_forall. intros v Hv. apply in_map_iff in Hv. destruct Hv as (x & <- & Hx). rewrite Forall_forall in K. apply (K x Hx). }
  destruct (lines_points (keep_lines tr ls)) as [|v0 vs]; [constructor|].
  destruct (C35_minimize (A := ArithR) (v0 :: vs) v0 ltac:(discriminate)) as (_ & I & _).
  apply Forall_forall. intros v Hv. unfold level_at in P. rewrite Forall_forall in P. apply P. apply I. exact Hv.
Qed.

Lemma offset_level (k w h : R) n (pth : Rpath) : level_at h pth -> Forall (level_at h) (offset pth n w (V3 (A := ArithR) 0 0 k)).
Proof.
  intros Lv. unfold offset. destruct (makeOffset pth w _) as [q|] eqn:E; [|constructor]. apply (wall_level k w h) in E; [|exact Lv].
  constructor; [exact E|]. clear pth Lv. revert q E. induction (Z.to_nat (n - 1)) as [|c IH]; intros q Hq; cbn [offset_loop]; [constructor|].
  destruct (makeOffset q w _) as [r|] eqn:E; [|constructor]. apply (wall_level k w h) in E; [|exact Hq]. constructor; [exact E|]. apply IH. exact E.
Qed.

(** ** Layers *)
Definition level_layer (h : R) (l : @layer ArithR) : Prop :=
  Forall (level_at h) (l_paths l) /\ Forall (level_at h) (l_middle l) /\ Forall (level_at h) (oslice (l_inner l)) /\ Forall (level_at h) (l_fill l).
Lemma level_all h l : level_layer h l -> forall p q, In p (layer_paths l) -> In q p -> Z3 q = h.
Proof.
  intros (H1 & H2 & H3 & H4) p q Hp Hq. rewrite Forall_forall in H1, H2, H3, H4. unfold layer_paths in Hp. rewrite !in_app_iff in Hp.
  assert (L : level_at h p) by (destruct Hp as [Hp|[Hp|[Hp|Hp]]]; auto). unfold level_at in L. rewrite Forall_forall in L. exact (L q Hq).
Qed.
Definition upward (l : @layer ArithR) : Prop := l_norm l = axisZ.

Lemma axisZ_eq : axisZ = V3 (A := ArithR) 0 0 1.
Proof. unfold axisZ. rcbn. reflexivity. Qed.

Lemma wall_path_level h n w l p : upward l -> level_layer h l -> level_at h p -> upward (wall_path n w l p) /\ level_layer h (wall_path n w l p) /\ l_fill (wall_path n w l p) = l_fill l.
Proof.
  intros U (H1 & H2 & H3 & H4) Hp. unfold wall_path. destruct (length p <? 2)%nat; [repeat split; assumption|].
  unfold upward in U. rewrite U, axisZ_eq. pose proof (offset_level 1 w h n p Hp) as F. destruct (offset p n w _) as [|o os]; [repeat split; try assumption; now rewrite U, axisZ_eq|].
  assert (F' : forall x, In x (o :: os) -> level_at h x) by (intros x; rewrite Forall_forall in F; apply F).
  destruct (@exists_last _ (o :: os)) as (us & u & E); [discriminate|].
  assert (El : last (o :: os) o = u) by (rewrite E; apply last_last). assert (Er : removelast (o :: os) = us) by (rewrite E; apply removelast_last).
  rewrite El, Er. split; [unfold upward; cbn [l_norm]; now rewrite axisZ_eq|]. cbn [l_fill]. split; [|reflexivity]. split; [exact H1|]. split; [|split; [|exact H4]]; cbn [l_middle l_inner oapp oslice].
  - apply Forall_app. split; [exact H2|]. apply Forall_forall. intros x Hx. apply F'. rewrite E, in_app_iff. now left.
  - apply Forall_app. split; [exact H3|]. constructor; [|constructor]. apply F'. rewrite E, in_app_iff. right. now left.
Qed.
Lemma wall_layer_level h n w l : upward l -> level_layer h l -> upward (wall_layer n w l) /\ level_layer h (wall_layer n w l) /\ l_fill (wall_layer n w l) = l_fill l.
Proof.
  intros U L. unfold wall_layer. pose proof (proj1 L) as P. 
  assert (G : forall ps l', Forall (level_at h) ps -> upward l' -> level_layer h l' -> l_fill l' = l_fill l ->
    upward (fold_left (wall_path n w) ps l') /\ level_layer h (fold_left (wall_path n w) ps l') /\ l_fill (fold_left (wall_path n w) ps l') = l_fill l).
  { induction ps as [|p ps IH]; intros l' F U' L' E; cbn [fold_left]; [auto|]. inversion F as [|? ? Hp Fp]; subst.
    destruct (wall_path_level h n w l' p U' L' Hp) as (A & B & C). apply IH; auto. congruence. }
  apply G; auto.
Qed.
Lemma skirt_level h c w l : upward l -> level_layer h l -> level_layer h (skirtPathes l c w).
Proof.
  intros U (H1 & H2 & H3 & H4). unfold skirtPathes. destruct (c =? 0)%Z; [repeat split; assumption|]. split; [|split; [exact H2|split; [exact H3|exact H4]]]. cbn [l_paths].
  apply Forall_forall. intros x Hx. apply in_flat_map in Hx. destruct Hx as (p & Hp & Hx). rewrite Forall_forall in H1. specialize (H1 p Hp).
  destruct (length p <? 2)%nat; [destruct Hx|]. apply in_app_iff in Hx. destruct Hx as [Hx|[<-|[]]]; [|exact H1]. apply in_rev in Hx.
  unfold upward in U. rewrite U in Hx. assert (V : vopp axisZ = V3 (A := ArithR) 0 0 (-1)) by (unfold vopp, axisZ; cbn [vx vy vz]; rcbn; f_equal; ring).
  rewrite V in Hx. pose proof (offset_level (-1) w h c p H1) as F. rewrite Forall_forall in F. exact (F x Hx).
Qed.
Lemma contour_level h l q : level_layer h l -> on_contour (FillClaims.contours l) q -> Z3 q = h.
Proof.
  intros (H1 & _ & H3 & _) (p & l1 & u & v & l2 & Hp & -> & (t & Ht & ->)).
  assert (L : level_at h (l1 ++ u :: v :: l2)).
  { unfold FillClaims.contours in Hp. destruct (l_inner l) as [ps|]; [rewrite Forall_forall in H3; now apply H3|rewrite Forall_forall in H1; now apply H1]. }
  unfold level_at in L. rewrite Forall_forall in L. assert (Z3 u = h) by (apply L; rewrite in_app_iff; cbn; auto). assert (Z3 v = h) by (apply L; rewrite in_app_iff; cbn; auto).
  unfold along, Z3 in *. cbn [pz]. rewrite H, H0. rcbn. ring.
Qed.
Lemma fill_level U ls fp ff (s : @settings ArithR) out : legal U -> Forall (fun l => l_fill l = []) ls -> fillLayers U ls fp ff s = Ok out ->
  Forall2 (fun l l' => l_norm l' = l_norm l /\ forall h, level_layer h l -> level_layer h l') ls out.
Proof.
  intros HU B F. destruct (C47_fill (A := ArithR) U ls fp ff s) as (out' & F' & S & K).
  { eapply Forall_impl; [|exact B]. cbn beta. intros l ->. constructor. }
  rewrite F in F'. injection F' as <-.
  assert (G : forall i l l', nth_error ls i = Some l -> nth_error out i = Some l' -> l_fill l = [] -> same_but_fill l l' -> l_norm l' = l_norm l /\ forall h, level_layer h l -> level_layer h l').
  { intros i l l' Hl Hl' Fl (_ & N & P1 & P2 & P3). split; [now symmetry|]. intros h L. destruct (K i l l' Hl Hl') as (pls & _ & _ & _ & Fi & _).
    pose proof L as (H1 & H2 & H3 & _). rewrite P1 in H1. rewrite P2 in H2. rewrite P3 in H3. split; [exact H1|]. split; [exact H2|]. split; [exact H3|].
    apply Forall_forall. intros p Hp. rewrite Forall_forall in Fi. destruct (Fi p Hp) as (f & Hf & E). rewrite Fl in Hf. cbn [app] in Hf.
    apply in_flat_map in Hf. destruct Hf as (pl & _ & Hf). destruct (C49_on_contours U _ pl f HU Hf) as (x & y & -> & Ox & _ & Oy & _).
    pose proof (contour_level h l x L Ox). pose proof (contour_level h l y L Oy).
    destruct E as [-> | ->]; unfold level_at; cbn [rev app]; repeat constructor; assumption. }
  clear F K. revert out S G. induction ls as [|l ls IH]; intros out S G; inversion S as [|? l' ? out' SB S']; subst; constructor.
  - apply (G 0%nat); try reflexivity; [apply (Forall_inv B)|exact SB].
  - apply IH; [apply (Forall_inv_tail B)|exact S'|]. intros i. apply (G (Datatypes.S i)).
Qed.

(** ** Sections *)
Lemma line_round (p : Rplane) (t : Rtriangle) l x : intersectTriangle p t = Some l -> x = lp1 l \/ x = lp2 l ->
  exists e, in_tri (t1 t) (t2 t) (t3 t) e /\ sd p e = 0 /\ x = pt_round8 e.
Proof.
  unfold intersectTriangle. pose proof (pick_spec p (t1 t) (t2 t) (t3 t)) as H.
  destruct (pick_pair _ _ _) as [[e f]|]; [|discriminate]. destruct H as [S _]. intros O Hx.
  assert (Se : in_tri (t1 t) (t2 t) (t3 t) e /\ sd p e = 0).
  { apply S. exists 0. split; [lra|]. unfold along. destruct e as [x0 y z]. cbn [px py pz]. unfold X, Y, Z3. cbn [px py pz]. f_equal; rcbn; ring. }
  assert (Sf : in_tri (t1 t) (t2 t) (t3 t) f /\ sd p f = 0).
  { apply S. exists 1. split; [lra|]. unfold along. destruct f as [x0 y z]. unfold X, Y, Z3. cbn [px py pz]. f_equal; rcbn; ring. }
  destruct (ordered_ok p t e f l O) as ([[E1 E2]|[E1 E2]] & _); destruct Hx as [-> | ->]; rewrite ?E1, ?E2; [exists e|exists f|exists f|exists e]; tauto.
Qed.

Lemma bounds_exist (u : Rvector) (l : list Rpoint) : l <> [] -> exists mn mx, lowest u l mn /\ highest u l mx.
Proof.
  induction l as [|p l IH]; [congruence|]. intros _. destruct l as [|q l].
  - exists (Rdot p u), (Rdot p u). split; (split; [exists p; cbn; auto|]); intros r [<-|[]]; lra.
  - destruct IH as (mn & mx & [(a & Ia & Ea) La] & [(b & Ib & Eb) Lb]); [discriminate|].
    exists (Rmin (Rdot p u) mn), (Rmax (Rdot p u) mx). split; split.
    + unfold Rmin. destruct (Rle_dec _ _); [exists p; split; [now left|reflexivity]|exists a; split; [now right|exact Ea]].
    + intros r [<-|Hr]; [apply Rmin_l|]. eapply Rle_trans; [apply Rmin_r|now apply La].
    + unfold Rmax. destruct (Rle_dec _ _); [exists b; split; [now right|exact Eb]|exists p; split; [now left|reflexivity]].
    + intros r [<-|Hr]; [apply Rmax_l|]. eapply Rle_trans; [now apply Lb|apply Rmax_r].
Qed.

(** every layer of a part is level, at a rounded height within the part *)
Lemma part_level U (m : Rmesh) (s : @settings ArithR) fp ff ls : legal U -> s_supportsOn s = false -> 0 < s_layerHeight s ->
  Forall (fun p => in_range (Z3 p)) (vertices m) -> layers_of U s fp ff m ls ->
  Forall (fun l => upward l /\ exists h, level_layer (round8 (A := ArithR) h) l /\
    (exists a, In a (vertices m) /\ Z3 a < h) /\ (exists b, In b (vertices m) /\ h < Z3 b)) ls.
Proof.
  intros HU Hs HL Hr (add & Ea & Ep).
  destruct m as [|t0 m0].
  { injection Ea as <-. unfold prepareLayers in Ep. destruct (addWalls s >? 0)%Z in Ep; injection Ep as <-; constructor. }
  set (m := t0 :: m0) in *. assert (Hm : m <> []) by discriminate. clearbody m.
  assert (Hv : vertices m <> []) by (destruct m; [congruence|discriminate]).
  destruct (bounds_exist axisZ (vertices m) Hv) as (mn & mx & Lo & Hi).
  assert (Hr' : Forall (fun p => in_range (Rdot p axisZ)) (vertices m)).
  { eapply Forall_impl; [|exact Hr]. cbn beta. intros p. now rewrite Rdot_axisZ. }
  assert (Lt : mn < mx).
  { destruct (Rlt_dec mn mx) as [L|L]; [exact L|]. exfalso.
    assert (Fl : forall p, In p (vertices m) -> Rdot p axisZ = mn).
    { intros p Hp. pose proof (proj2 Lo p Hp). pose proof (proj2 Hi p Hp). lra. }
    assert (Rg : in_range mn). { destruct Lo as [(p & Hp & <-) _]. rewrite Forall_forall in Hr'. now apply Hr'. }
    rewrite (C24_flat_panics U m axisZ axisZ s mn HU Hm unit_axisZ Rg Fl) in Ea. discriminate. }
  destruct (slice_exact U m axisZ axisZ s mn mx HU Hm unit_axisZ Hr' Lo Hi HL Lt) as (sup & full & Su & _ & Ln & H4 & H5).
  specialize (Su Hs). subst sup. cbn [app] in H4.
  destruct (C23_heights mn mx (s_layerHeight s) HL Lt) as (_ & _ & Hc & _).
  pose proof (bare_layers U m axisZ s add HU Ea) as B.
  pose proof (trim_spec full) as T. rewrite <- H5, Ea in T. destruct T as (a & b & Ef & _).
  assert (G : Forall (fun l => upward l /\ exists h, level_layer (round8 (A := ArithR) h) l /\
    (exists a, In a (vertices m) /\ Z3 a < h) /\ (exists b, In b (vertices m) /\ h < Z3 b)) add).
  { apply Forall_forall. intros l Hl. assert (Hf : In l full) by (rewrite Ef, !in_app_iff; auto). apply In_nth_error in Hf. destruct Hf as (i & Hi').
    destruct (H4 i l Hi') as (_ & N & segs & P & J). split; [exact N|]. set (c := layer_height_at mn mx (s_layerHeight s) i) in *. exists c.
    rewrite Forall_forall in B. destruct (B l Hl) as (B1 & B2 & B3).
    assert (Lc : mn < c < mx) by (apply Hc; rewrite <- Ln; apply nth_error_Some; congruence).
    split; [|split].
    - unfold level_layer. rewrite B1, B2, B3. cbn [oslice]. split; [|repeat split; constructor].
      apply Forall_forall. intros p Hp. apply Forall_forall. intros q Hq.
      assert (Fs : Forall (fun q : path => q <> []) segs).
      { apply Forall_forall. intros x Hx. apply (Permutation_in x P) in Hx. pose proof (sections_nonempty (plane_at axisZ c) m) as F.
        rewrite Forall_forall in F. now apply F. }
      pose proof (join_points (u_ends U) segs _ (lg_ends U HU) Fs J p q Hp Hq) as K.
      apply in_concat in K. destruct K as (x & Hx & Hqx). apply (Permutation_in x P) in Hx.
      apply in_flat_map in Hx. destruct Hx as (t & Ht & Hx). destruct (intersectTriangle (plane_at axisZ c) t) as [ln|] eqn:I; [|destruct Hx]. destruct Hx as [<-|[]].
      destruct (line_round (plane_at axisZ c) t ln q I) as (e & _ & Se & ->); [cbn [In] in Hqx; intuition|].
      rewrite sd_at in Se by exact (proj1 unit_axisZ). rewrite Rdot_axisZ in Se. unfold Z3 in *. cbn [pt_round8 pz]. f_equal. lra.
    - destruct Lo as [(v & Hv1 & Hv2) _]. exists v. split; [exact Hv1|]. rewrite Rdot_axisZ in Hv2. lra.
    - destruct Hi as [(v & Hv1 & Hv2) _]. exists v. split; [exact Hv1|]. rewrite Rdot_axisZ in Hv2. lra. }
  unfold prepareLayers in Ep.
  assert (G2 : forall ls1, Forall (fun l => upward l /\ l_fill l = [] /\ exists h, level_layer (round8 (A := ArithR) h) l /\
    (exists a, In a (vertices m) /\ Z3 a < h) /\ (exists b, In b (vertices m) /\ h < Z3 b)) ls1 -> fillLayers U ls1 fp ff s = Ok ls -> 
    Forall (fun l => upward l /\ exists h, level_layer (round8 (A := ArithR) h) l /\
    (exists a, In a (vertices m) /\ Z3 a < h) /\ (exists b, In b (vertices m) /\ h < Z3 b)) ls).
  { intros ls1 F1 E1. pose proof (fill_level U ls1 fp ff s ls HU) as K. specialize (K ltac:(eapply Forall_impl; [|exact F1]; cbn beta; tauto) E1).
    clear -F1 K. induction K as [|l l' ls1 ls [N H] K IH]; constructor; [|apply IH; exact (Forall_inv_tail F1)].
    apply Forall_inv in F1. destruct F1 as (U & _ & h & L & R). split; [unfold upward in *; congruence|]. exists h. split; [now apply H|exact R]. }
  rewrite Forall_forall in G, B.
  destruct (addWalls s >? 0)%Z.
  - apply (G2 _) in Ep; [exact Ep|]. apply Forall_forall. intros l Hl. apply in_map_iff in Hl. destruct Hl as (l0 & <- & Hl0).
    destruct (G l0 Hl0) as (Ul & h & L & R). destruct (wall_layer_level _ (addWalls s) (LineWidth (s_g s)) l0 Ul L) as (W1 & W2 & W3).
    split; [exact W1|]. split; [rewrite W3; apply (B l0 Hl0)|]. exists h. auto.
  - apply (G2 _) in Ep; [exact Ep|]. apply Forall_forall. intros l Hl. destruct (G l Hl) as (Ul & h & L & R). split; [exact Ul|]. split; [apply (B l Hl)|]. exists h. auto.
Qed.
