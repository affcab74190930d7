(** * C117 Rotation mode prints inclined layers after the tilt *)
From Coq Require Import String Reals Lra Lia List Bool ZArith NArith PeanoNat Permutation.
From Flocq Require Import Core.Raux.
From Verif Require Import Arith ArithR Prim Path PathClaims GeomSpec GeomProofs MeshProofs Helpers Gcode GcodeClaims
  Slicer SlicerClaims SlicerProofs SlicerProofs2 Properties_Path Properties_Slicer Fill FillClaims FillProofs Properties_Fill Vip VipClaims VipProofs VipReal VipMore Properties_Vip
  WhereClaims WhereProofs Properties_Where SidesProofs LevelProofs Properties_Sides.
Import ListNotations.
Close Scope Z_scope.
Close Scope num_scope.
Close Scope string_scope.
Open Scope list_scope.
Local Open Scope R_scope.

(** ** Vocabulary *)
(** height in a plane inclined by 60 degrees about the X axis *)
Definition inclined_height (q : Rpoint) : R := Y q * (sqrt 3 / 2) + Z3 q / 2.

(** ** The direction of slicing *)
Definition nrm : Rvector := rv 0 (sqrt 3 / 2) (1 / 2).
Lemma nrm_eq : vrotate (axisZ (A := ArithR)) (rotationAroundX angleX) = nrm.
Proof.
  unfold angleX, axisZ. rcbn. fold (rv 0 0 1). rewrite rotX_eq, cos60, sin60. apply v3_eq; lra.
Qed.
Lemma nrm_unit : unit_of nrm nrm.
Proof.
  split; [|exists 1; split; [lra|]; unfold nrm, rv; cbn [vx vy vz]; repeat split; lra].
  unfold nrm, rv; cbn [vx vy vz]. pose proof sq3 as Q. set (r := sqrt 3) in *. lra.
Qed.
Lemma nrm_dot q : Rdot q nrm = inclined_height q.
Proof. unfold Rdot, inclined_height, nrm, rv. cbn [vx vy vz]. rcbn; unfold Y, Z3; field. Qed.
(** the turned model in that direction is the model upwards *)
Lemma turned_height (q : Rpoint) : inclined_height (pt_rotate (rotationAroundX (A := ArithR) angleX) originPoint q) = Z3 q.
Proof.
  destruct q as [x y z]. unfold pt_rotate.
  assert (E : vectorTo originPoint (P3 (A := ArithR) x y z) = rv x y z) by (unfold vectorTo, originPoint, vsub, p2v; cbn [px py pz vx vy vz]; rcbn; apply v3_eq; ring).
  rewrite E, rotX_eq. unfold angleX; rcbn. rewrite cos60, sin60.
  unfold inclined_height, v2p, vadd, p2v, originPoint, rv, Y, Z3. cbn [px py pz vx vy vz]. rcbn. pose proof sq3 as Q. set (r := sqrt 3) in *.
  transitivity (z * (r * r) / 4 + z / 4); [field|rewrite Q; field].
Qed.
Lemma prepare_paths {A : Arith} {L : LtOK A} U ls s fp ff out : Forall (fun l => Forall (fun f : path => f <> []) (l_fill l)) ls -> prepareLayers U ls s fp ff = Ok out ->
  Forall2 (fun l l' => l_paths l' = l_paths l) ls out.
Proof.
  intros F E. destruct (prepare_total U ls s fp ff F) as (out' & E' & H). rewrite E in E'. injection E' as <-.
  clear -H. induction H as [|l l' ls ls' (offs & W & _) H IH]; constructor; [|exact IH]. apply W.
Qed.

(** ** The claim *)
(** With the bed tilted, every layer lies in a plane inclined by 60 degrees to the head: its
    contours are the level sections of the model, turned with the model. *)
Theorem C117_inclined : forall U (m : Rmesh) (s : @settings ArithR) layers g,
  legal U -> s_supportsOn s = false -> 0 < s_layerHeight s ->
  Forall (fun v => Rabs (X v) <= 10 ^ 300 /\ Rabs (Y v) <= 10 ^ 300 /\ Rabs (Z3 v) <= 10 ^ 300) (vertices m) ->
  sliceRotation U m s layers = Ok g ->
  exists before after, g_cmds g = [LayersMoving before; InclineX; LayersMoving after; InclineXBack] /\
    forall l, In l after -> exists h,
      (forall p q, In p (l_paths l) -> In q p -> Rabs (inclined_height q - h) <= 1 / 10 ^ 8) /\
      (forall p q p' q', In p (l_paths l) -> In q p -> In p' (l_paths l) -> In q' p' ->
         Rabs (Z3 q - Z3 q' + sqrt 3 * (Y q - Y q')) <= 4 / 10 ^ 8).
Proof.
  intros U m s layers g HU Hs HL Fv E. unfold sliceRotation in E. destruct (calcFillPlanes m s) as [fp ff].
  destruct (first_fail _ _ _) as [x| |]; try discriminate. cbn [rbind] in E. cbv zeta in E.
  destruct (prepareLayers U _ s fp ff) as [l1| |]; try discriminate. cbn [rbind] in E.
  destruct (layer_point _ _) as [ap| |]; try discriminate. cbn [rbind] in E.
  destruct (cutMesh _ m _) as [[m1 m0]| |] eqn:Ec; try discriminate. cbn [rbind] in E.
  rewrite nrm_eq in E. set (mr := m_rotate m1 (rotationAroundX angleX) originPoint) in *.
  destruct (sliceByVector U mr nrm s) as [rest| |] eqn:Er; try discriminate. cbn [rbind] in E.
  destruct (prepareLayers U rest s _ _) as [l2| |] eqn:Ep; try discriminate. cbn [rbind] in E. injection E as <-.
  exists l1, l2. split; [reflexivity|].
  assert (B : Forall (fun l => Forall (fun f : @path ArithR => f <> []) (l_fill l)) rest).
  { pose proof (bare_layers U mr nrm s rest HU Er) as B. eapply Forall_impl; [|exact B]. cbn beta. intros l (_ & _ & ->). constructor. }
  pose proof (prepare_paths U rest s _ _ l2 B Ep) as PP.
  assert (G : forall l, In l rest -> exists h, forall p q, In p (l_paths l) -> In q p -> Rabs (inclined_height q - h) <= 1 / 10 ^ 8).
  { intros l Hl. assert (Hm : mr <> []) by (intros K; rewrite K in Er; injection Er as <-; destruct Hl).
    assert (Hv : vertices mr <> []) by (destruct mr; [congruence|discriminate]).
    destruct (bounds_exist nrm (vertices mr) Hv) as (mn & mx & Lo & Hi).
    assert (Uz : unit3 (axisZ (A := ArithR))) by exact (proj1 unit_axisZ).
    assert (Hr : Forall (fun p => in_range (Rdot p nrm)) (vertices mr)).
    { unfold mr. rewrite vertices_rotate. apply Forall_forall. intros p Hp. apply in_map_iff in Hp. destruct Hp as (q & <- & Hq).
      rewrite nrm_dot, turned_height.
      destruct (cut_kept (u_ends U) m (Pl ap axisZ) m1 m0 (lg_ends U HU) Uz Ec) as [K _]. specialize (K q Hq).
      rewrite Forall_forall in Fv.
      assert (M0 : 1 <= 10 ^ 300) by (apply pow_R1_Rle; lra). apply big_range. set (M := 10 ^ 300) in *. clearbody M.
      set (o := originPoint (A := ArithR)).
      assert (Sz : forall v, sd (Pl o axisZ) v = Z3 v) by (intros v; unfold sd, o, originPoint, axisZ; cbn [pl_p pl_n vx vy vz px py pz]; unfold X, Y, Z3; cbn [px py pz]; rcbn; ring).
      assert (Un' : unit3 (vopp (A := ArithR) axisZ)) by (unfold unit3, vopp, axisZ; cbn [vx vy vz]; rcbn; ring).
      pose proof (kept_bound 1 (Pl ap axisZ) (Pl o axisZ) m q M Uz) as K1. pose proof (kept_bound 1 (Pl ap axisZ) (Pl o (vopp axisZ)) m q M Un') as K2.
      assert (Q1 : sd (Pl o axisZ) q <= M + step8).
      { apply K1; [|exact K]. intros a Ha. rewrite Sz. destruct (Fv a Ha) as (_ & _ & H). apply Rabs_le_inv in H. lra. }
      assert (Q2 : sd (Pl o (vopp axisZ)) q <= M + step8).
      { apply K2; [|exact K]. intros a Ha. rewrite sd_opp, Sz. destruct (Fv a Ha) as (_ & _ & H). apply Rabs_le_inv in H. lra. }
      rewrite sd_opp, Sz in Q2. rewrite Sz in Q1. unfold step8 in *. apply Rabs_le. lra. }
    assert (Lt : mn < mx).
    { destruct (Rlt_dec mn mx) as [L|L]; [exact L|]. exfalso.
      assert (Fl : forall p, In p (vertices mr) -> Rdot p nrm = mn).
      { intros p Hp. pose proof (proj2 Lo p Hp). pose proof (proj2 Hi p Hp). lra. }
      assert (Rg : in_range mn). { destruct Lo as [(p & Hp & <-) _]. rewrite Forall_forall in Hr. now apply Hr. }
      rewrite (C24_flat_panics U mr nrm nrm s mn HU Hm nrm_unit Rg Fl) in Er. discriminate. }
    destruct (C23_points U mr nrm nrm s mn mx HU Hm nrm_unit Hr Lo Hi HL Lt) as (sup & _ & H).
    destruct (H rest l Er Hl) as (_ & i & _ & _ & K). exists (layer_height_at mn mx (s_layerHeight s) i). intros p q Hp Hq.
    destruct (K p q Hp Hq) as (t & e & _ & _ & <- & W). rewrite nrm_dot. unfold inclined_height.
    destruct W as (_ & W2 & W3). apply Rabs_le_inv in W2, W3. pose proof sqrt3_bound. apply Rabs_le. nra. }
  assert (G2 : forall l, In l l2 -> exists l0, In l0 rest /\ l_paths l = l_paths l0).
  { clear -PP. induction PP as [|a b r r' Eq PP IH]; [intros l []|]. intros l [<-|Hl]; [exists a; split; [now left|exact Eq]|].
    destruct (IH l Hl) as (l0 & H1 & H2). exists l0. split; [now right|exact H2]. }
  intros l Hl. destruct (G2 l Hl) as (l0 & Hl0 & Eq). destruct (G l0 Hl0) as (h & H). exists h. rewrite Eq. split; [exact H|].
  intros p q p' q' Hp Hq Hp' Hq'. pose proof (H p q Hp Hq) as K1. pose proof (H p' q' Hp' Hq') as K2.
  unfold inclined_height in *. apply Rabs_le_inv in K1, K2. apply Rabs_le. lra.
Qed.

(** ** Cases *)
(** two layers of a model that becomes wider, and above them a tetrahedron *)
Definition ring_at (r z : R) : Rpath := [rp r 0 z; rp 0 r z; rp (- r) 0 z; rp 0 (- r) z; rp r 0 z].
Definition wide (r z : R) : @layer ArithR := Layer_ 0%Z (rv 0 0 1) [ring_at r z] [] None [].
Definition exT_layers : list (@layer ArithR) := [wide 1 0; wide 3 1].
Definition exT_mesh : Rmesh := m_shift tetraR up5.
Definition exT_s : @settings ArithR := Main.settingsOf "" exS_flags.

Lemma ring_sum (r z : R) : cent_sum cent0 (ring_at r z) = Cent (A := ArithR) (4 * r * r)%R 0%R 0%R 0%R 0%R 0%R 0%R 0%R 0%R.
Proof.
  unfold ring_at. cbn [cent_sum]. unfold cent_step. cbn [c_a c_a2 c_a3 c_cx c_cy c_cx2 c_cz c_cy2 c_cz2 cent0]. unfold rp. cbn [px py pz]. rcbn.
  f_equal; ring.
Qed.
Lemma ring_centroid (r z : R) : 1 <= r -> findCentroid (ring_at r z) = Ok (rp 0 0 z).
Proof.
  intros H. change (findCentroid (ring_at r z)) with (Ok (cent_finish (cent_sum cent0 (ring_at r z)) (rp r 0 z))). f_equal.
  rewrite ring_sum. unfold cent_finish. cbn [c_a c_a2 c_a3 c_cx c_cy c_cx2 c_cz c_cy2 c_cz2].
  assert (Z1 : almostZero (A := ArithR) (4 * r * r * nlit (Arith := ArithR) 5 10)%R = false).
  { unfold almostZero, almostZeroNumber. rcbn. apply andb_false_iff. right. destruct (Rltb_spec (4 * r * r * (5 / 10)) (1 / 1000000)); [nra|reflexivity]. }
  assert (Z2 : almostZero (A := ArithR) (0 * nlit (Arith := ArithR) 5 10)%R = true).
  { unfold almostZero, almostZeroNumber. rcbn. apply andb_true_iff. split; [destruct (Rltb_spec (- (1 / 1000000)) (0 * (5 / 10)))|destruct (Rltb_spec (0 * (5 / 10)) (1 / 1000000))]; try reflexivity; lra. }
  change (4 * r * r * nlit (Arith := ArithR) 5 10)%R with (nmul (Arith := ArithR) (4 * r * r)%R (nlit (Arith := ArithR) 5 10)) in Z1.
  change (0 * nlit (Arith := ArithR) 5 10)%R with (nmul (Arith := ArithR) 0%R (nlit (Arith := ArithR) 5 10)) in Z2.
  cbv zeta. rewrite Z1, Z2. cbn [negb andb rp px py pz]. rcbn. apply p3_eq; try reflexivity; unfold Rdiv; ring.
Qed.

Lemma steep_angle : failAngle (A := ArithR) < angle (axisZ (A := ArithR)) (rv 2 0 1).
Proof.
  unfold failAngle, angle.
  assert (E1 : vlen (axisZ (A := ArithR)) = 1).
  { unfold vlen, vlen2, axisZ. cbn [vx vy vz]. rcbn. replace (0 * 0 + 0 * 0 + 1 * 1) with 1 by ring. apply sqrt_1. }
  assert (E2 : vlen (rv 2 0 1) = sqrt 5).
  { unfold vlen, vlen2, rv. cbn [vx vy vz]. rcbn. f_equal. ring. }
  assert (E3 : dot (axisZ (A := ArithR)) (rv 2 0 1) = 1) by (unfold dot, axisZ, rv; cbn [vx vy vz]; rcbn; ring).
  rewrite E1, E2, E3. rcbn.
  assert (S : 2 < sqrt 5) by (rewrite <- (sqrt_Rsqr 2) by lra; apply sqrt_lt_1; unfold Rsqr; lra).
  assert (B : 0 < 1 / sqrt 5 < 1 / 2).
  { replace (1 / sqrt 5) with (/ sqrt 5) by (field; lra). split; [apply Rinv_0_lt_compat; lra|]. replace (1 / 2) with (/ 2) by lra. apply Rinv_lt_contravar; lra. }
  set (v := 1 / sqrt 5) in *. clearbody v.
  destruct (Rltb_spec v (-1)); [lra|]. destruct (Rltb_spec 1 v); [lra|]. cbn [orb].
  assert (G : PI / 3 < acos v).
  { pose proof (acos_bound v) as Bv. pose proof PI_RGT_0. destruct (Rlt_dec (PI / 3) (acos v)) as [L|L]; [exact L|]. exfalso.
    assert (K : cos (PI / 3) <= cos (acos v)) by (apply cos_decr_1; lra). rewrite cos_PI3, cos_acos in K by lra. lra. }
  pose proof PI_RGT_0. apply Rmult_lt_reg_r with PI; [lra|]. replace (acos v * 180 / PI * PI) with (acos v * 180) by (field; lra). lra.
Qed.

Lemma exT_fail : failRotation (wide 1 0) (wide 3 1) = Ok (Some tt).
Proof.
  unfold failRotation. cbn [wide l_paths idx nth_error rbind]. rewrite (ring_centroid 1 0) by lra. cbn [rbind].
  cbn [ring_at idx nth_error rbind]. unfold intersectPathCodirectedWith. fold (ring_at 3 1). rewrite (ring_centroid 3 1) by lra. cbn [rbind].
  assert (Ei : forall v, v = rv 1 0 0 -> ipcw_loop (Pl (rp 1 0 0) (cross v axisZ)) (rp 0 0 1) v (ring_at 3 1) = Some (rp 3 0 1)).
  { intros v ->. unfold ring_at. cbn [ipcw_loop]. unfold intersectSegment, dot, cross, axisZ, p2v, rv, rp. cbn [pl_p pl_n px py pz vx vy vz]. rcbn.
    destruct (Reqb_spec (3 * (0 * 1 - 0 * 0) + 0 * (0 * 0 - 1 * 1) + 1 * (1 * 0 - 0 * 0)) (0 * (0 * 1 - 0 * 0) + 3 * (0 * 0 - 1 * 1) + 1 * (1 * 0 - 0 * 0))) as [Q|Q]; [lra|].
    match goal with |- context [Rltb ?t 0] => set (w := t); assert (W : w = 0) by (unfold w; field; lra); clearbody w; subst w end.
    destruct (Rltb_spec 0 0); [lra|]. destruct (Rltb_spec 1 0); [lra|]. cbn [orb].
    assert (Ep : pshift (A := ArithR) (rp 3 0 1) (vscale (vectorTo (A := ArithR) (rp 3 0 1) (rp 0 3 1)) (0)%R) = rp 3 0 1).
    { unfold pshift, vscale, vectorTo, rp. cbn [px py pz vx vy vz]. rcbn. apply p3_eq; ring. }
    unfold rp in Ep. rewrite Ep. unfold codirected, dot, vectorTo. cbn [px py pz vx vy vz]. rcbn.
    match goal with |- context [Rleb ?a ?b] => destruct (Rleb_spec a b); [reflexivity|lra] end. }
  rewrite Ei by (unfold vectorTo, rp; cbn [px py pz]; rcbn; apply v3_eq; ring).
  assert (Ev : vectorTo (A := ArithR) (rp 1 0 0) (rp 3 0 1) = rv 2 0 1) by (unfold vectorTo, rp; cbn [px py pz]; rcbn; apply v3_eq; ring).
  rewrite Ev. pose proof steep_angle as St.
  assert (D1 : distanceTo (A := ArithR) (rp 0 0 0) (rp 1 0 0) = 1).
  { unfold distanceTo, vectorTo, vlen, vlen2, rp. cbn [px py pz vx vy vz]. rcbn. transitivity (sqrt 1); [f_equal; ring|apply sqrt_1]. }
  assert (D2 : 1 <= distanceTo (A := ArithR) (rp 0 0 0) (rp 3 0 1)).
  { unfold distanceTo, vectorTo, vlen, vlen2, rp. cbn [px py pz vx vy vz]. rcbn. eapply Rle_trans; [apply Req_le; symmetry; apply sqrt_1|]. apply sqrt_le_1; lra. }
  rewrite D1. rcbn. set (d := distanceTo (A := ArithR) (rp 0 0 0) (rp 3 0 1)) in *. clearbody d.
  destruct (Rltb_spec (failAngle (A := ArithR)) (angle (axisZ (A := ArithR)) (rv 2 0 1))); [|contradiction].
  destruct (Rltb_spec d 1); [lra|reflexivity].
Qed.

Lemma exT_vertices v : In v (vertices exT_mesh) -> 0 <= X v <= 1 /\ 0 <= Y v <= 1 /\ 5 <= Z3 v <= 6.
Proof.
  unfold exT_mesh. rewrite vertices_shift. intros I. apply in_map_iff in I. destruct I as (q & <- & Hq).
  cbn in Hq. decompose [or] Hq; subst; try contradiction; unfold moved, up5, Properties_Slicer.rp, X, Y, Z3; cbn [px py pz vx vy vz]; rcbn; repeat split; lra.
Qed.

Example exT_run : exists g, sliceRotation env0 exT_mesh exT_s exT_layers = Ok g.
Proof.
  assert (HU : legal env0) by exact env0_legal.
  unfold sliceRotation. destruct (calcFillPlanes exT_mesh exT_s) as [fp ff]. unfold exT_layers. cbn [first_fail]. rewrite exT_fail. cbn [rbind firstn]. cbv zeta.
  destruct (prepare_total env0 [wide 1 0] exT_s fp ff) as (l1 & -> & _); [repeat constructor|]. cbn [rbind].
  cbn [layer_point idx nth_error rbind wide l_paths ring_at]. change (layer_point [wide 1 0; wide 3 1] 1) with (Ok (rp 3 0 1)). cbn [rbind].
  assert (Ec : cutMesh (u_ends env0) exT_mesh (Pl (rp 3 0 1) axisZ) = Ok (exT_mesh, [])).
  { apply (cut_apart env0 [] exT_mesh); [exact HU|discriminate|intros v []|]. intros v Hv. apply exT_vertices in Hv.
    unfold sd, axisZ, rp. cbn [pl_p pl_n vx vy vz]. unfold X, Y, Z3 in *. cbn [px py pz]. rcbn. lra. }
  rewrite Ec. cbn [rbind]. rewrite nrm_eq. set (mr := m_rotate exT_mesh (rotationAroundX angleX) originPoint).
  assert (Hv : forall v, In v (vertices mr) -> exists q, In q (vertices exT_mesh) /\ Rdot v nrm = Z3 q).
  { unfold mr. rewrite vertices_rotate. intros v I. apply in_map_iff in I. destruct I as (q & <- & Hq). exists q. split; [exact Hq|]. now rewrite nrm_dot, turned_height. }
  assert (Hw : forall q, In q (vertices exT_mesh) -> exists v, In v (vertices mr) /\ Rdot v nrm = Z3 q).
  { unfold mr. rewrite vertices_rotate. intros q I. eexists. split; [exact (in_map _ _ _ I)|]. now rewrite nrm_dot, turned_height. }
  assert (Nm : mr <> []) by discriminate. assert (Nv : vertices mr <> []) by discriminate.
  destruct (bounds_exist nrm (vertices mr) Nv) as (mn & mx & Lo & Hi).
  assert (Hr : Forall (fun p => in_range (Rdot p nrm)) (vertices mr)).
  { apply Forall_forall. intros v I. destruct (Hv v I) as (q & Hq & ->). apply exT_vertices in Hq. apply big_range. assert (1 <= 10 ^ 300) by (apply pow_R1_Rle; lra). apply Rabs_le. lra. }
  assert (T0 : exists q, In q (vertices exT_mesh) /\ Z3 q = 5).
  { unfold exT_mesh. rewrite vertices_shift. exists (moved up5 (rp 0 0 0)). split; [apply in_map; cbn; auto|]. unfold moved, up5, rp, Z3; cbn [px py pz vx vy vz]; rcbn; lra. }
  assert (T1 : exists q, In q (vertices exT_mesh) /\ Z3 q = 6).
  { unfold exT_mesh. rewrite vertices_shift. exists (moved up5 (rp 0 0 1)). split; [apply in_map; cbn; tauto|]. unfold moved, up5, rp, Z3; cbn [px py pz vx vy vz]; rcbn; lra. }
  destruct T0 as (q0 & I0 & Z0). destruct T1 as (q1 & I1 & Z1). destruct (Hw q0 I0) as (v0 & J0 & R0). destruct (Hw q1 I1) as (v1 & J1 & R1).
  pose proof (proj2 Lo v0 J0) as L1. pose proof (proj2 Hi v1 J1) as L2.
  assert (HL : 0 < s_layerHeight exT_s) by (cbn; lra).
  destruct (C24_panics_iff env0 mr nrm nrm exT_s mn mx HU Nm nrm_unit Hr Lo Hi HL ltac:(lra)) as (sup & _ & I & D).
  destruct (sliceByVector env0 mr nrm exT_s) as [rest| |] eqn:Er; [| |contradiction].
  2:{ destruct (proj1 I eq_refl) as [I2 _]. change (mx - mn <= 3 / 10) in I2. lra. }
  cbn [rbind].
  match goal with |- context [prepareLayers env0 rest exT_s ?a ?b] => destruct (prepare_total env0 rest exT_s a b) as (l2 & -> & _) end.
  { pose proof (bare_layers env0 mr nrm exT_s rest HU Er) as B. eapply Forall_impl; [|exact B]. cbn beta. intros l (_ & _ & ->). constructor. }
  cbn [rbind]. eauto.
Qed.
Example exT_bounded : Forall (fun v => Rabs (X v) <= 10 ^ 300 /\ Rabs (Y v) <= 10 ^ 300 /\ Rabs (Z3 v) <= 10 ^ 300) (vertices exT_mesh) /\
  s_supportsOn exT_s = false /\ 0 < s_layerHeight exT_s.
Proof.
  split; [|cbn; split; [reflexivity|lra]]. apply Forall_forall. intros v I. apply exT_vertices in I. assert (10 <= 10 ^ 300).
  { replace 300%nat with (1 + 299)%nat by reflexivity. rewrite pow_add, pow_1. assert (1 <= 10 ^ 299) by (apply pow_R1_Rle; lra). lra. }
  repeat split; apply Rabs_le; lra.
Qed.

Print Assumptions C117_inclined.
