(** * C119 The fill of planes mode stays where the model was, wherever the parts are turned to *)
From Coq Require Import String Reals Lra Lia List Bool ZArith NArith PeanoNat Permutation.
From Flocq Require Import Core.Raux.
From Verif Require Import Arith ArithR Prim Path PathClaims GeomSpec GeomProofs MeshProofs Helpers Gcode GcodeSpec GcodeInstr GcodeInv GcodeClaims GcodeText GcodeProofs GcodeProofs2 GcodeProofs3 TextOK GcodeProofs5 GcodeProofs4 Properties_Gcode
  Slicer SlicerClaims SlicerProofs SlicerProofs2 Properties_Path Properties_Slicer MinProofs Fill FillClaims FillProofs FillProofs2 Properties_Fill Vip VipClaims VipProofs VipReal VipMore Properties_Vip Main MainClaims Properties_Main WhereClaims WhereProofs Properties_Where
  HelperProofs2 SidesProofs LevelProofs Properties_Sides Properties_Tilted Properties_Opposite.
From Verif Require Stl.
Import ListNotations.
Close Scope Z_scope.
Close Scope num_scope.
Close Scope string_scope.
Open Scope list_scope.
Local Open Scope R_scope.

(** ** Vocabulary *)
(** the distance between the fill lines: in the inner layers, and in the outer ones *)
Definition fill_gap (s : @settings ArithR) : R :=
  Rmax (100 / IZR (s_fillDensity s) * LineWidth (s_g s)) (LineWidth (s_g s)).
(** X of [q] after a turn of the bed by [a] degrees about the vertical line through [c] (a tilt
    about the X axis leaves it as it is) *)
Definition turned_x (c : Rpoint) (a : R) (q : Rpoint) : R :=
  X c + (X q - X c) * cos (PI * a / 180) + (Y q - Y c) * sin (PI * a / 180).

(** ** Proofs *)
Lemma Mof_le (m : Rmesh) B : m <> [] -> 
  Forall (fun v => in_range (X v) /\ in_range (Y v) /\ Rabs (X v) <= B /\ Rabs (Y v) <= B) (vertices m) -> Mof m <= sqrt 2 * B.
Proof.
  intros N F.
  assert (Fx : Forall (fun p => in_range (Rdot p (axisX (A := ArithR)))) (vertices m)).
  { eapply Forall_impl; [|exact F]. intros q (H & _). now rewrite Rdot_x. }
  assert (Fy : Forall (fun p => in_range (Rdot p (axisY (A := ArithR)))) (vertices m)).
  { eapply Forall_impl; [|exact F]. intros q (_ & H & _). now rewrite Rdot_y. }
  assert (NV : vertices m <> []) by (destruct m; [congruence|discriminate]).
  destruct (bounds_exist (axisX (A := ArithR)) _ NV) as (a & b & La & Hb).
  destruct (bounds_exist (axisY (A := ArithR)) _ NV) as (c & d & Lc & Hd).
  unfold Mof, fill_extent. rewrite (extent m _ a b N Fx La Hb), (extent m _ c d N Fy Lc Hd).
  destruct La as [(pa & Ia & Ea) _], Hb as [(pb & Ib & Eb) _], Lc as [(pc & Ic & Ec) _], Hd as [(pd & Id & Ed) _].
  rewrite Rdot_x in Ea, Eb. rewrite Rdot_y in Ec, Ed. rewrite Forall_forall in F.
  assert (Q : Rabs a <= B /\ Rabs b <= B /\ Rabs c <= B /\ Rabs d <= B).
  { rewrite <- Ea, <- Eb, <- Ec, <- Ed. repeat split; [apply (F pa Ia)|apply (F pb Ib)|apply (F pc Ic)|apply (F pd Id)]. }
  assert (P : 0 <= B) by (destruct Q as [Q _]; pose proof (Rabs_pos a); lra).
  assert (K : forall x y : R, Rabs x <= B -> Rabs y <= B -> sqrt (x * x + y * y) <= sqrt 2 * B).
  { intros x y Hx Hy. rewrite <- (sqrt_Rsqr B P) at 1. rewrite <- sqrt_mult by (unfold Rsqr; nra). apply sqrt_le_1_alt.
    apply Rabs_le_inv in Hx, Hy. unfold Rsqr. nra. }
  rcbn. destruct Q as (Q1 & Q2 & Q3 & Q4). apply Rmax_lub; now apply K.
Qed.

Lemma fill_planes_range (m : Rmesh) (s : @settings ArithR) fp ff B pl q : m <> [] ->
  Forall (fun v => in_range (X v) /\ in_range (Y v) /\ Rabs (X v) <= B /\ Rabs (Y v) <= B) (vertices m) ->
  s_fillingType s = "Lines"%string -> (0 < s_fillDensity s)%Z -> 0 < LineWidth (s_g s) ->
  calcFillPlanes m s = (fp, ff) -> In pl (fp ++ ff) -> sd pl q = 0 -> Rabs (X q) < sqrt 2 * B + fill_gap s.
Proof.
  intros N F T D W E I S. unfold calcFillPlanes in E. rewrite T in E. cbn [String.eqb Ascii.eqb Bool.eqb] in E. injection E as <- <-.
  assert (G : exists step, 0 < step /\ step <= fill_gap s /\ In pl (calcFillPlanesCommon m axisX step)).
  { apply IZR_lt in D. apply in_app_iff in I. destruct I as [I|I].
    - exists (100 / IZR (s_fillDensity s) * LineWidth (s_g s)). split; [|split; [apply Rmax_l|]].
      { apply Rmult_lt_0_compat; [|exact W]. apply Rdiv_lt_0_compat; lra. }
      revert I. unfold calcFillPlanesLines, fill_step. rcbn. auto.
    - exists (LineWidth (s_g s)). split; [exact W|]. split; [apply Rmax_r|exact I]. }
  destruct G as (step & P & L & I'). destruct (reach m _ step pl P I') as (t & -> & R1).
  pose proof (Mof_le m B N F) as M. unfold sd, at_axis, axisX in S. cbn [pl_p pl_n px py pz vx vy vz] in S.
  assert (X q = t) as -> by (revert S; unfold X, Y, Z3; cbn [px py pz]; rcbn; lra). apply Rabs_def1; lra.
Qed.

Lemma f2_length {T W} (P : T -> W -> Prop) l l' : Forall2 P l l' -> length l = length l'.
Proof. induction 1; cbn; congruence. Qed.
(** what fills the layers of one part *)
Lemma fill_of_part U (m' : Rmesh) (s : @settings ArithR) fp ff ls l f : legal U ->
  layers_of U s fp ff m' ls -> In l ls -> In f (l_fill l) ->
  exists pl l0, In pl (fp ++ ff) /\ f <> [] /\ (forall q, In q f -> sd pl q = 0 /\ on_contour (contours l0) q) /\
    exists add, sliceByVector U m' axisZ s = Ok add /\
      ((addWalls s <= 0)%Z -> In l0 add /\ contours l0 = l_paths l0).
Proof.
  intros HU (add & E1 & E2) Il If. pose proof (bare_layers U m' axisZ s add HU E1) as Bare.
  unfold prepareLayers in E2.
  set (ls1 := if (addWalls s >? 0)%Z then map (wall_layer (addWalls s) (LineWidth (s_g s))) add else add) in E2.
  assert (F1 : Forall (fun l => l_fill l = []) ls1).
  { unfold ls1. destruct (Z.gtb_spec (addWalls s) 0) as [P|P]; [|eapply Forall_impl; [|exact Bare]; now intros a (_ & _ & H)].
    apply Forall_forall. intros x Hx. apply in_map_iff in Hx. destruct Hx as (a & <- & Ha).
    destruct (wall_layer_spec (addWalls s) (LineWidth (s_g s)) a) as (offs & H1 & H2 & _); [lia|]. rewrite H2.
    rewrite Forall_forall in Bare. now apply Bare. }
  destruct (C47_fill U ls1 fp ff s) as (out & E3 & SB & H).
  { eapply Forall_impl; [|exact F1]. intros a ->. constructor. }
  rewrite E2 in E3. injection E3 as <-.
  apply In_nth_error in Il. destruct Il as (i & Hi).
  assert (exists l0, nth_error ls1 i = Some l0) as (l0 & H0).
  { destruct (nth_error ls1 i) eqn:Q; [now eexists|]. apply nth_error_None in Q. rewrite (f2_length _ _ _ SB) in Q.
    apply nth_error_None in Q. congruence. }
  destruct (H i l0 l H0 Hi) as (pls & P1 & P2 & _ & P3 & _).
  assert (IP : incl pls (fp ++ ff)).
  { intros x Hx. apply in_app_iff.
    assert (C : ((Z.of_nat i < s_bottomLayers s \/ Z.of_nat (length ls1) - s_topLayers s <= Z.of_nat i) \/ (s_bottomLayers s <= Z.of_nat i < Z.of_nat (length ls1) - s_topLayers s))%Z) by lia.
    destruct C as [C|C]; [rewrite (P1 C) in Hx; now right|rewrite (P2 C) in Hx; now left]. }
  rewrite Forall_forall in P3. destruct (P3 f If) as (f0 & I0 & Ef).
  rewrite Forall_forall in F1. rewrite (F1 l0 (nth_error_In _ _ H0)) in I0. cbn [app] in I0. apply in_flat_map in I0.
  destruct I0 as (pl & Ipl & I0). destruct (C49_on_contours U _ pl f0 HU I0) as (a & b & -> & A1 & A2 & B1 & B2).
  exists pl, l0. split; [now apply IP|]. split; [destruct Ef as [-> | ->]; discriminate|].
  split; [intros q Iq; assert (Q : q = a \/ q = b) by (destruct Ef as [-> | ->]; cbn in Iq; intuition); destruct Q as [-> | ->]; auto|].
  exists add. split; [exact E1|]. intros L. unfold ls1 in H0. destruct (Z.gtb_spec (addWalls s) 0) as [P|P]; [lia|].
  apply nth_error_In in H0. split; [exact H0|]. unfold contours. rewrite Forall_forall in Bare. destruct (Bare l0 H0) as (_ & -> & _). reflexivity.
Qed.

(** ** The claims *)
(** Every point of the fill, of every part, lies within the reach of the model as it was given:
    the turns of the bed and their centre do not enter. *)
Theorem C119_range : forall U (m : Rmesh) (s : @settings ArithR) ps g B,
  legal U -> m <> [] -> sliceByPlanes U m s ps = Ok g ->
  s_fillingType s = "Lines"%string -> (0 < s_fillDensity s)%Z -> 0 < LineWidth (s_g s) ->
  Forall (fun v => in_range (X v) /\ in_range (Y v) /\ Rabs (X v) <= B /\ Rabs (Y v) <= B) (vertices m) ->
  forall ls l f q, In ls (printed (g_cmds g)) -> In l ls -> In f (l_fill l) -> In q f ->
    Rabs (X q) < sqrt 2 * B + fill_gap s.
Proof.
  intros U m s ps g B HU N E T D W F ls l f q I1 I2 I3 I4.
  destruct (C51_beds ArithR U m s ps g E) as (parts & fills & fp & ff & EF & _ & _ & H).
  assert (G : exists m' ls' l', layers_of U s fp ff m' ls' /\ In l' ls' /\ l_fill l' = l_fill l).
  { destruct parts as [|part parts]; [destruct H|]. destruct fills as [|first fills]; [destruct H|].
    destruct H as (H1 & H2 & _ & first' & H3 & H4). rewrite H4 in I1. destruct I1 as [<-|I1].
    - exists part, first. unfold with_skirt in H3. destruct first as [|l1 r]; [subst first'; destruct I2|]. subst first'.
      destruct I2 as [<-|I2]; [exists l1|exists l]; (split; [exact H1|]); [split; [now left|]|split; [now right|reflexivity]].
      unfold skirtPathes. destruct (_ =? 0)%Z; reflexivity.
    - assert (exists m', layers_of U s fp ff m' ls) as (m' & Q).
      { clear -H2 I1. induction H2 as [|x y xs ys Q H2 IH]; [destruct I1|]. destruct I1 as [<-|I1]; [eexists; exact Q|auto]. }
      exists m', ls, l. auto. }
  destruct G as (m' & ls' & l' & G1 & G2 & G3). rewrite <- G3 in I3.
  destruct (fill_of_part U m' s fp ff ls' l' f HU G1 G2 I3) as (pl & l0 & P1 & _ & P2 & _). destruct (P2 q I4) as [P3 _].
  exact (fill_planes_range m s fp ff B pl q N F T D W EF P1 P3).
Qed.

Lemma turn_x (c : Rpoint) (b : bool) (a : R) (m : Rmesh) v' : In v' (vertices (inclined c b (turned c a m))) ->
  exists v, In v (vertices m) /\ X v' = turned_x c a v.
Proof.
  assert (Rz : forall q, X (pt_rotate (rotationAroundZ (A := ArithR) a) c q) = turned_x c a q).
  { intros q. unfold pt_rotate.
    assert (E : vectorTo c q = rv (X q - X c) (Y q - Y c) (Z3 q - Z3 c)) by (unfold vectorTo; rcbn; reflexivity).
    rewrite E, rotZ_eq, !rad. unfold v2p, vadd, p2v, rv, turned_x, X at 1. cbn [px vx]. rcbn. unfold X. ring. }
  assert (Rx : forall d q, X (pt_rotate (rotationAroundX (A := ArithR) d) c q) = X q).
  { intros d q. unfold pt_rotate.
    assert (E : vectorTo c q = rv (X q - X c) (Y q - Y c) (Z3 q - Z3 c)) by (unfold vectorTo; rcbn; reflexivity).
    rewrite E, rotX_eq. unfold v2p, vadd, p2v, rv, X. cbn [px vx]. rcbn. ring. }
  unfold inclined, turned. destruct b; rewrite !vertices_rotate, ?map_map; intros I; apply in_map_iff in I; destruct I as (v & <- & Hv); exists v; split; auto.
  now rewrite Rx.
Qed.

(** A part that the turn carries out of this reach is printed without any fill: no layer of it
    has any, not even those that ought to be solid. *)
Theorem C119_unfilled : forall U (m : Rmesh) (s : @settings ArithR) ps g B parts,
  legal U -> m <> [] -> sliceByPlanes U m s ps = Ok g ->
  s_fillingType s = "Lines"%string -> (0 < s_fillDensity s)%Z -> 0 < LineWidth (s_g s) ->
  s_wallThickness s < 2 * LineWidth (s_g s) -> s_supportsOn s = false -> 0 < s_layerHeight s ->
  Forall (fun v => in_range (X v) /\ in_range (Y v) /\ Rabs (X v) <= B /\ Rabs (Y v) <= B) (vertices m) ->
  parted U m ps parts ->
  forall k part p ls,
    nth_error parts (Datatypes.S k) = Some part -> nth_error ps k = Some p -> nth_error (printed (g_cmds g)) (Datatypes.S k) = Some ls ->
    forall d, d = 1 \/ d = -1 ->
    Forall (fun v => in_range (bed_height (s_rotationCenter s) (ap_rotz p) (if ap_tilted p then 60 else 0)%Z v) /\
                     sqrt 2 * B + fill_gap s + 1 / 10 ^ 8 <= d * turned_x (s_rotationCenter s) (ap_rotz p) v) (vertices part) ->
    Forall (fun l => l_fill l = []) ls.
Proof.
  intros U m s ps g B parts HU N E T D W WT Sup HL F P k part p ls K1 K2 K3 d Dd FV.
  apply Forall_forall. intros l Il. destruct (l_fill l) as [|f fs] eqn:EL; [reflexivity|exfalso].
  destruct (C51_beds ArithR U m s ps g E) as (parts' & fills & fp & ff & EF & P' & _ & H).
  rewrite <- (parted_fun U m ps parts P parts' P') in H.
  destruct parts as [|part0 parts]; [destruct H|]. destruct fills as [|first fills]; [destruct H|].
  destruct H as (_ & H2 & _ & first' & _ & H4). rewrite H4 in K3. cbn [nth_error] in K1, K3.
  set (c := s_rotationCenter s) in *. set (mt := inclined c (ap_tilted p) (turned c (ap_rotz p) part)).
  assert (LO : layers_of U s fp ff mt ls).
  { unfold mt. clear -H2 K1 K2 K3. revert parts ps fills H2 K1 K2 K3. induction k as [|k IH]; intros [|a r] [|b r'] [|x r''] H2 K1 K2 K3; try discriminate; cbn [combine] in H2; inversion H2; subst; cbn [nth_error] in K1, K2, K3.
    - injection K1 as ->. injection K2 as ->. injection K3 as ->. assumption.
    - eapply IH; eassumption. }
  assert (If : In f (l_fill l)) by (rewrite EL; now left).
  destruct (fill_of_part U mt s fp ff ls l f HU LO Il If) as (pl & l0 & P1 & NE & P2' & add & E1 & G).
  destruct f as [|q f']; [congruence|]. destruct (P2' q (or_introl eq_refl)) as [P2 OC].
  pose proof (fill_planes_range m s fp ff B pl q N F T D W EF P1 P2) as Range.
  assert (AW : (addWalls s <= 0)%Z).
  { unfold addWalls. cbn [ntoZ ArithR]. assert (Q : (Ztrunc (s_wallThickness s / LineWidth (s_g s)) < 2)%Z); [|revert Q; cbn [ndiv ArithR]; lia].
    assert (Q : s_wallThickness s / LineWidth (s_g s) < 2).
    { apply Rmult_lt_reg_r with (LineWidth (s_g s)); [exact W|]. unfold Rdiv. rewrite Rmult_assoc, Rinv_l by (apply Rgt_not_eq; exact W). lra. }
    apply lt_IZR. destruct (Rle_dec 0 (s_wallThickness s / LineWidth (s_g s))) as [Q0|Q0].
    - rewrite Ztrunc_floor by exact Q0. pose proof (Zfloor_lb (s_wallThickness s / LineWidth (s_g s))). lra.
    - rewrite Ztrunc_ceil by lra. assert (Zceil (s_wallThickness s / LineWidth (s_g s)) <= 0)%Z by (apply Zceil_glb; lra). apply IZR_le in H. lra. }
  destruct (G AW) as [Il0 EC]. rewrite EC in OC. clear G.
  (* the corners of the contours lie where the turned part lies *)
  set (R0 := sqrt 2 * B + fill_gap s) in *.
  assert (Vx : forall v, In v (vertices mt) -> R0 + 1 / 10 ^ 8 <= d * X v).
  { intros v Hv. destruct (turn_x _ _ _ _ _ Hv) as (w & Hw & ->). rewrite Forall_forall in FV. now apply (FV w Hw). }
  assert (Hm : mt <> []).
  { intros Q. rewrite Q in E1. cbn in E1. injection E1 as <-. destruct Il0. }
  assert (Hv : vertices mt <> []) by (destruct mt; [congruence|discriminate]).
  destruct (bounds_exist axisZ (vertices mt) Hv) as (mn & mx & Lo & Hi).
  assert (Hr : Forall (fun p => in_range (Rdot p axisZ)) (vertices mt)).
  { apply Forall_forall. intros v Iv. rewrite Rdot_axisZ. destruct (turn_height _ _ _ _ _ Iv) as (w & Hw & ->). rewrite Forall_forall in FV. now apply FV. }
  assert (Lt : mn < mx).
  { destruct (Rlt_dec mn mx) as [L|L]; [exact L|]. exfalso.
    assert (Fl : forall p, In p (vertices mt) -> Rdot p axisZ = mn).
    { intros v Hp. pose proof (proj2 Lo v Hp). pose proof (proj2 Hi v Hp). lra. }
    assert (Rg : in_range mn). { destruct Lo as [(v & Hp & <-) _]. rewrite Forall_forall in Hr. now apply Hr. }
    rewrite (C24_flat_panics U mt axisZ axisZ s mn HU Hm unit_axisZ Rg Fl) in E1. discriminate. }
  destruct (C23_points U mt axisZ axisZ s mn mx HU Hm unit_axisZ Hr Lo Hi HL Lt) as (sup & Sup0 & H).
  specialize (Sup0 Sup). subst sup. cbn [app] in H. destruct (H add l0 E1 Il0) as (_ & i & _ & _ & K).
  assert (Cx : forall pt x, In pt (l_paths l0) -> In x pt -> R0 < d * X x).
  { intros pt x Hp Hx. destruct (K pt x Hp Hx) as (t & e & Ht & (u & v & w & U1 & U2 & U3 & U4 & ->) & _ & Wi).
    assert (Vt : forall a, In a [t1 t; t2 t; t3 t] -> R0 + 1 / 10 ^ 8 <= d * X a) by (intros a Ha; apply Vx; unfold vertices; apply in_flat_map; exists t; auto).
    pose proof (Vt (t1 t) (or_introl eq_refl)) as V1. pose proof (Vt (t2 t) (or_intror (or_introl eq_refl))) as V2. pose proof (Vt (t3 t) (or_intror (or_intror (or_introl eq_refl)))) as V3.
    destruct Wi as (W1 & _). apply Rabs_le_inv in W1.
    assert (Xe : X (comb3 u v w (t1 t) (t2 t) (t3 t)) = u * X (t1 t) + v * X (t2 t) + w * X (t3 t)) by reflexivity. rewrite Xe in W1.
    set (x1 := X (t1 t)) in *. set (x2 := X (t2 t)) in *. set (x3 := X (t3 t)) in *.
    assert (Q : R0 + 1 / 10 ^ 8 <= d * (u * x1 + v * x2 + w * x3)).
    { replace (R0 + 1 / 10 ^ 8) with (u * (R0 + 1 / 10 ^ 8) + v * (R0 + 1 / 10 ^ 8) + w * (R0 + 1 / 10 ^ 8)) by (rewrite <- !Rmult_plus_distr_r, U4; ring).
      replace (d * (u * x1 + v * x2 + w * x3)) with (u * (d * x1) + v * (d * x2) + w * (d * x3)) by ring.
      pose proof (Rmult_le_compat_l u _ _ U1 V1). pose proof (Rmult_le_compat_l v _ _ U2 V2). pose proof (Rmult_le_compat_l w _ _ U3 V3). lra. }
    destruct Dd as [-> | ->]; lra. }
  destruct OC as (pt & l1 & a & b & l2 & Ipt & Ept & (t & Tt & Eq)).
  assert (Ca : R0 < d * X a) by (apply (Cx pt); [exact Ipt|rewrite Ept; apply in_app_iff; right; now left]).
  assert (Cb : R0 < d * X b) by (apply (Cx pt); [exact Ipt|rewrite Ept; apply in_app_iff; right; right; now left]).
  assert (Xq : X q = X a + t * (X b - X a)) by (rewrite Eq; reflexivity).
  assert (Q : R0 < d * X q).
  { rewrite Xq. replace (d * (X a + t * (X b - X a))) with ((1 - t) * (d * X a) + t * (d * X b)) by ring.
    set (y := d * X a) in *. set (z := d * X b) in *. clearbody y z R0. clear -Ca Cb Tt. destruct (Rle_lt_dec y z); nra. }
  apply Rabs_lt_inv in Range. destruct Dd as [-> | ->]; lra.
Qed.

(** ** A case *)
(** two tetrahedra, a level plane between them, the bed turned by half a turn about a centre 100 aside *)
Definition exT_line : list Z := bytes "X0 Y0 Z3 Tfalse R180".
Definition exT_num (w : list Z) : R := if list_eq_dec Z.eq_dec w (bytes "3") then 3 else if list_eq_dec Z.eq_dec w (bytes "180") then 180 else 0.
Definition exT_flags : @flags ArithR :=
  Flags (V3 (A := ArithR) 0 0 0) (P3 (A := ArithR) 100 0 0) 1 (3 / 10) (4 / 10) 20 3 3 60 200 50 25 40 true (4 / 10) "Lines" false 30 1
    "planes" "vip" 30 (V3 (A := ArithR) 0 0 1) false 1 (175 / 100) 1 3.
Definition exT_outside : @outside ArithR :=
  Outside (A := ArithR) (tetraR ++ m_shift tetraR up5) (Some (exT_line ++ [10%Z])) (Some header_template) (Some footer_template) "02 Jan 06 15:04 MST" (@rev _) (fun m => m) env0
    exT_num (fun _ ts => ts) (fun _ _ => Panic) 10.
Definition exT_planes : list (@aplane ArithR) := [AP (Pl (P3 (A := ArithR) 0 0 3) (read_normal (A := ArithR) false 180)) false 180].
Example exT_good : good_outside exT_outside.
Proof.
  split; [intros m; apply Permutation_rev|]. split; [intros m; apply Permutation_refl|]. split; [split; reflexivity|]. split; reflexivity.
Qed.
Example exT_read : readPlanes (ex_parse exT_outside) (Main.ex_planes exT_outside) = Ok exT_planes.
Proof.
  cbn [exT_outside ex_parse Main.ex_planes]. unfold readPlanes.
  assert (E1 : Stl.split_lines [] (exT_line ++ [10%Z]) = [exT_line]) by (vm_compute; reflexivity). rewrite E1. cbn [read_lines].
  assert (E2 : (Stl.max_token <=? length exT_line)%nat = false) by (vm_compute; reflexivity). rewrite E2.
  assert (E3 : Stl.fields (Stl.drop_cr exT_line) = [bytes "X0"; bytes "Y0"; bytes "Z3"; bytes "Tfalse"; bytes "R180"]) by (vm_compute; reflexivity).
  unfold parsePlane. rewrite E3. unfold word_tail. cbn [idx nth_error rbind]. 
  assert (E4 : parseBool (tl (bytes "Tfalse")) = false) by (vm_compute; reflexivity). rewrite E4.
  assert (N0 : exT_num (tl (bytes "X0")) = 0 /\ exT_num (tl (bytes "Y0")) = 0 /\ exT_num (tl (bytes "Z3")) = 3 /\ exT_num (tl (bytes "R180")) = 180).
  { unfold exT_num. repeat split; repeat (destruct (list_eq_dec Z.eq_dec _ _) as [Q|Q]; try reflexivity; try (exfalso; first [discriminate Q|now apply Q]); clear Q). }
  destruct N0 as (-> & -> & -> & ->). reflexivity.
Qed.
Definition exT_model : Rmesh := m_shift (ex_mesh exT_outside) (fl_origin exT_flags).
Lemma exT_sd v : sd (ap_plane (hd (AP (planeXY (A := ArithR)) false 0) exT_planes)) v = Z3 v - 3.
Proof.
  cbn [hd exT_planes ap_plane]. unfold sd. cbn [pl_p pl_n]. rewrite read_flat. unfold axisZ, X, Y, Z3. cbn [vx vy vz px py pz]. rcbn. ring.
Qed.
Lemma exT_same : exT_model = m_shift tetraR (fl_origin exS_flags) ++ m_shift (m_shift tetraR up5) (fl_origin exS_flags).
Proof. unfold exT_model. cbn [exT_outside ex_mesh]. unfold m_shift. now rewrite map_app. Qed.
Example exT_parted : parted (ex_U exT_outside) exT_model exT_planes exS_parts.
Proof.
  apply (parted_snoc (ex_U exT_outside) exT_model [] _ (m_shift (m_shift tetraR up5) (fl_origin exS_flags)) (m_shift tetraR (fl_origin exS_flags)) [m_shift tetraR (fl_origin exS_flags)]); [|constructor].
  rewrite exT_same. apply cut_apart; [exact env0_legal|discriminate| |].
  - intros v Hv. destruct (exS_down v Hv) as (_ & Ey & Ez). pose proof (exT_sd v) as Q. cbn [hd exT_planes ap_plane] in Q |- *. refine (eq_ind_r (fun x => x < 0) _ Q). destruct Ez as [-> | ->]; lra.
  - intros v Hv. destruct (exS_up v Hv) as (_ & Ey & Ez). pose proof (exT_sd v) as Q. cbn [hd exT_planes ap_plane] in Q |- *. refine (eq_ind_r (fun x => 0 < x) _ Q). destruct Ez as [-> | ->]; lra.
Qed.
Lemma exT_box v : In v (vertices exT_model) -> 0 <= X v <= 1 /\ 0 <= Y v <= 1 /\ 0 <= Z3 v <= 6.
Proof.
  rewrite exT_same. unfold vertices. rewrite flat_map_app, in_app_iff. intros [Hv|Hv]; [destruct (exS_down v Hv) as (Q1 & Q2 & Q3)|destruct (exS_up v Hv) as (Q1 & Q2 & Q3)]; repeat apply conj; lra.
Qed.
Lemma huge : 1000 <= 10 ^ 300. Proof. replace 1000 with (10 ^ 3) by ring. apply Rle_pow; [lra|lia]. Qed.
Example exT_bounds : INR (length exT_planes) <= 10 ^ 300 /\
  Forall (fun v => Rabs (X v) <= 10 ^ 300 /\ Rabs (Y v) <= 10 ^ 300 /\ Rabs (Z3 v) <= 10 ^ 300) (fl_rotc exT_flags :: vertices exT_model).
Proof.
  pose proof huge as K. set (M := 10 ^ 300) in *. clearbody M. split; [cbn; lra|]. constructor.
  - cbn [exT_flags fl_rotc]. unfold X, Y, Z3. cbn [px py pz]. rewrite Rabs_R0. rewrite Rabs_pos_eq by lra. lra.
  - apply Forall_forall. intros v Hv. destruct (exT_box v Hv). rewrite !Rabs_pos_eq by lra. lra.
Qed.
Lemma bed_level c a q : bed_height c a 0 q = Z3 q.
Proof. unfold bed_height. replace (PI * 0 / 180) with 0 by field. rewrite sin_0, cos_0. ring. Qed.
Example exT_goosli : exists out, goosli exT_outside exT_flags = Ok out.
Proof.
  destruct exT_bounds as [B1 B2].
  apply (C115_exact exT_outside exT_flags exT_planes exS_parts exT_good env0_legal eq_refl exT_read ltac:(discriminate) B1 B2 exT_parted eq_refl).
  - change (0 < 3 / 10). lra.
  - intros [|[|k]] part a b K1 K2; [| |destruct k; discriminate].
    + assert (Ep : part = m_shift tetraR (fl_origin exS_flags)) by (injection K1; auto). rewrite Ep. injection K2 as <- <-. right. exists (moved (fl_origin exS_flags) (Properties_Slicer.rp 0 0 1)), (moved (fl_origin exS_flags) (Properties_Slicer.rp 0 0 0)).
      rewrite vertices_shift. split; [apply in_map; cbn; tauto|]. split; [apply in_map; cbn; tauto|].
      rewrite !bed_level. unfold moved, Properties_Slicer.rp, Z3. cbn [pz exS_flags fl_origin vz exT_flags fl_layerHeight]. rcbn. lra.
    + assert (Ep : part = m_shift (m_shift tetraR up5) (fl_origin exS_flags)) by (injection K1; auto). rewrite Ep. injection K2 as <- <-. right. exists (moved (fl_origin exS_flags) (moved up5 (Properties_Slicer.rp 0 0 1))), (moved (fl_origin exS_flags) (moved up5 (Properties_Slicer.rp 0 0 0))).
      rewrite !vertices_shift. split; [apply in_map, in_map; cbn; tauto|]. split; [apply in_map, in_map; cbn; tauto|].
      rewrite !bed_level. unfold moved, up5, Properties_Slicer.rp, Z3. cbn [pz exS_flags fl_origin vz exT_flags fl_layerHeight]. rcbn. lra.
Qed.
(** C119: the whole of the upper part is printed hollow *)
Example exT_hollow : exists g first second,
  sliceByPlanes (ex_U exT_outside) exT_model (settingsOf (ex_now exT_outside) exT_flags) exT_planes = Ok g /\
  printed (g_cmds g) = [first; second] /\ (2 <= length second)%nat /\ Forall (fun l => l_fill l = []) second.
Proof.
  destruct exT_goosli as (out & E). unfold goosli, slicing in E. cbn [exT_flags fl_slicingType String.eqb Ascii.eqb Bool.eqb] in E. fold exT_flags in E.
  unfold Vip.slice in E. rewrite exT_read in E. cbn [rbind] in E. change (m_shift (ex_mesh exT_outside) (fl_origin exT_flags)) with exT_model in E.
  set (s := settingsOf (ex_now exT_outside) exT_flags) in *. set (U := ex_U exT_outside) in *.
  destruct (sliceByPlanes U exT_model s exT_planes) as [g| |] eqn:Es; [|exfalso; revert E; unfold exT_planes; cbn [rbind]; discriminate..]. clear E.
  destruct (C51_beds ArithR U exT_model s exT_planes g Es) as (parts & fills & fp & ff & _ & P & _ & H).
  destruct parts as [|part parts]; [destruct H|]. destruct fills as [|first fills]; [destruct H|]. destruct H as (_ & H & L & first' & _ & Pr).
  cbn in L. destruct parts as [|part1 [|? ?]]; try discriminate L. cbn [combine exT_planes] in H. inversion H as [|x second ? ? LO Hn]; subst. inversion Hn; subst.
  exists g, first', second. split; [reflexivity|]. split; [exact Pr|]. pose proof huge as K. split.
  { pose proof (parted_fun U exT_model exT_planes exS_parts exT_parted _ P) as Ep. injection Ep as _ <-. cbn [fst snd ap_rotz ap_tilted] in LO.
    set (mt := inclined (s_rotationCenter s) false (turned (s_rotationCenter s) 180%R (m_shift (m_shift tetraR up5) (fl_origin exS_flags)))). change (layers_of U s fp ff mt second) in LO. destruct LO as (add & E1 & E2).
    destruct (turn_vertices (s_rotationCenter s) false 180 (m_shift (m_shift tetraR up5) (fl_origin exS_flags))) as (turn & Ev & Et). change (vertices mt = map turn (vertices (m_shift (m_shift tetraR up5) (fl_origin exS_flags)))) in Ev.
    assert (Zv : forall v, In v (vertices mt) -> Rdot v axisZ = 5 \/ Rdot v axisZ = 6).
    { intros v Hv. rewrite Rdot_axisZ. rewrite Ev in Hv. apply in_map_iff in Hv. destruct Hv as (w & <- & Hw). rewrite Et, bed_level. apply (exS_up w Hw). }
    assert (Iv : forall q, In q (vertices tetraR) -> In (turn (moved (fl_origin exS_flags) (moved up5 q))) (vertices mt) /\ Rdot (turn (moved (fl_origin exS_flags) (moved up5 q))) axisZ = 5 + Z3 q).
    { intros q Hq. split; [rewrite Ev, !vertices_shift, map_map; apply in_map_iff; exists (moved up5 q); split; [reflexivity|now apply in_map]|].
      rewrite Rdot_axisZ, Et, bed_level. unfold moved, up5, Z3. cbn [pz vz exS_flags fl_origin]. rcbn. ring. }
    assert (Lo : lowest axisZ (vertices mt) 5).
    { split; [|intros v Hv; destruct (Zv v Hv); lra]. destruct (Iv (Properties_Slicer.rp 0 0 0)) as [J1 J2]; [cbn; tauto|]. eexists. split; [exact J1|]. rewrite J2. unfold Properties_Slicer.rp, Z3. cbn [pz]. lra. }
    assert (Hi : highest axisZ (vertices mt) 6).
    { split; [|intros v Hv; destruct (Zv v Hv); lra]. destruct (Iv (Properties_Slicer.rp 0 0 1)) as [J1 J2]; [cbn; tauto|]. eexists. split; [exact J1|]. rewrite J2. unfold Properties_Slicer.rp, Z3. cbn [pz]. lra. }
    assert (Hr : Forall (fun p => in_range (Rdot p axisZ)) (vertices mt)).
    { apply Forall_forall. intros v Hv. apply big_range. destruct (Zv v Hv) as [-> | ->]; rewrite Rabs_pos_eq; lra. }
    assert (HL : 0 < s_layerHeight s) by (change (0 < 3 / 10); lra).
    destruct (slice_exact U mt axisZ axisZ s 5 6 env0_legal ltac:(discriminate) unit_axisZ Hr Lo Hi HL ltac:(lra)) as (sup & full & _ & _ & Ln & _ & Es').
    destruct (C23_heights 5 6 (s_layerHeight s) HL ltac:(lra)) as (_ & (_ & Ct) & _). change (s_layerHeight s) with (3 / 10) in Ct, Ln.
    set (n := layers_count (6 - 5) (3 / 10)) in *. assert (N3 : (3 < n)%Z) by (apply lt_IZR; lra).
    pose proof (trim_spec full) as T. rewrite <- Es', E1 in T. destruct T as (a & b & Ef & La & Lb & _). 
    assert (Lf : length full = (length a + (length add + length b))%nat) by (rewrite Ef, !app_length; reflexivity).
    rewrite <- (f2_length _ _ _ (prepare_paths U add s fp ff second (Forall_impl _ (fun l H => eq_ind_r (fun x => Forall (fun f : path => f <> []) x) (Forall_nil _) (proj2 (proj2 H))) (bare_layers U mt axisZ s add env0_legal E1)) E2)). lia. }
  apply (C119_unfilled U exT_model s exT_planes g 1 exS_parts env0_legal) with (k := 0%nat) (part := m_shift (m_shift tetraR up5) (fl_origin exS_flags)) (p := hd (AP (planeXY (A := ArithR)) false 0) exT_planes) (d := 1); try reflexivity; try exact Es.
  - rewrite exT_same. discriminate.
  - change (0 < 4 / 10). lra.
  - change (4 / 10 < 2 * (4 / 10)). lra.
  - change (0 < 3 / 10). lra.
  - apply Forall_forall. intros v Hv. destruct (exT_box v Hv) as (Q1 & Q2 & _). rewrite !Rabs_pos_eq by lra.
    split; [apply big_range; rewrite Rabs_pos_eq by lra; lra|]. split; [apply big_range; rewrite Rabs_pos_eq by lra; lra|]. lra.
  - exact exT_parted.
  - rewrite Pr. reflexivity.
  - now left.
  - apply Forall_forall. intros v Hv. destruct (exS_up v Hv) as (Q1 & Q2 & Q3). cbn [hd exT_planes ap_rotz ap_tilted]. rewrite bed_level.
    split; [apply big_range; rewrite Rabs_pos_eq by lra; lra|].
    assert (Ex : turned_x (s_rotationCenter s) 180 v = 200 - X v).
    { unfold turned_x. replace (PI * 180 / 180) with PI by field. rewrite cos_PI, sin_PI. unfold s. cbn [settingsOf s_rotationCenter exT_flags fl_rotc]. unfold X at 1 3. cbn [px]. ring. }
    rewrite Ex. assert (G : fill_gap s = 2).
    { unfold fill_gap, s. cbn [settingsOf s_fillDensity s_g LineWidth exT_flags fl_fillDensity fl_lineWidth]. rcbn. rewrite Rmax_left by lra. lra. }
    rewrite G. assert (sqrt 2 <= 2) by (rewrite <- (sqrt_Rsqr 2) at 2 by lra; apply sqrt_le_1_alt; unfold Rsqr; lra). lra.
Qed.

Print Assumptions C119_range.
Print Assumptions C119_unfilled.
