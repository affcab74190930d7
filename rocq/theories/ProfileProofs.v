(** * SliceByProfile: the angles of the bed *)
From Coq Require Import String Ascii ZArith NArith Reals List Bool PeanoNat Lia Lra Permutation.
From Flocq Require Import Core IEEE754.BinarySingleNaN.
From Verif Require Import Arith ArithR ArithF64 Prim Path Helpers Gcode GcodeSpec GcodeInstr GcodeClaims GcodeProofs GcodeProofs5 Slicer SlicerClaims
  Fill Vip VipFloat VipReal VipMore HelperClaims HelperProofs GeomSpec HelperProofs2.
Import ListNotations.
Close Scope R_scope. Close Scope num_scope. Close Scope string_scope. Close Scope Z_scope.

(** the instructions that set both bed angles at once *)
Definition is_turn (i : instr) : bool :=
  match i with
  | Instr (c, VFin v) _ => Ascii.eqb c "G" && (v =? 62000)%Z
  | _ => false
  end.

Section Any.
Context {A : Arith}.

Lemma layerCount_add g (c : command) : layerCount (g_add g c) = layerCount g + length (cmd_layers c).
Proof. rewrite !layerCount_layers. unfold g_add. cbn [g_cmds]. rewrite flat_map_app, app_length. cbn [flat_map]. now rewrite app_nil_r. Qed.

(** ** No layer writes G62 *)
Definition quiet (is : list instr) : Prop := filter is_turn is = [].
Lemma quiet_app a b : quiet a -> quiet b -> quiet (a ++ b).
Proof. unfold quiet. intros H1 H2. rewrite filter_app, H1, H2. reflexivity. Qed.
Lemma quiet_segs sett pts : forall e, quiet (i_segs sett e pts).
Proof.
  induction pts as [|a [|b r] IH]; intros e; [reflexivity|reflexivity|].
  cbn [i_segs]. cbv zeta. unfold quiet. cbn [filter is_turn]. apply IH.
Qed.
Lemma quiet_path sett s p0 p : quiet (i_path sett s p0 p).
Proof.
  unfold i_path. apply quiet_app; [reflexivity|]. apply quiet_app; [unfold i_retract; destruct (Retraction sett); reflexivity|].
  apply quiet_app; [reflexivity|apply quiet_segs].
Qed.
Lemma quiet_paths sett ps : forall s s' is, i_paths sett s ps = Ok (s', is) -> quiet is.
Proof.
  induction ps as [|[|p0 p] r IH]; intros s s' is; cbn [i_paths]; [intros [= _ <-]; reflexivity|discriminate|].
  destruct (i_paths sett (s_path sett s p0 p) r) as [[s2 o]| |] eqn:Q; cbn [rbind]; try discriminate.
  intros [= _ <-]. apply quiet_app; [apply quiet_path|eapply IH, Q].
Qed.
Lemma quiet_group c sett s ps s' is : i_group c sett s ps = Ok (s', is) -> quiet is.
Proof.
  unfold i_group. destruct (i_paths sett (s_speed sett s) ps) as [[s2 o]| |] eqn:Q; cbn [rbind]; try discriminate.
  intros [= _ <-]. apply (quiet_app [Comment c]); [reflexivity|]. apply quiet_app; [|eapply quiet_paths, Q].
  unfold i_speed. cbv zeta. destruct (_ =? _)%Z; reflexivity.
Qed.
Lemma quiet_layers sett ls : forall s s' is, i_layers sett s ls = Ok (s', is) -> quiet is.
Proof.
  induction ls as [|l r IH]; intros s s' is; [intros [= _ <-]; reflexivity|].
  intros H. apply i_layers_cons_inv in H. destruct H as (s1 & o1 & o2 & H1 & H2 & ->).
  apply quiet_app; [|eapply IH, H2]. apply i_layer_inv in H1.
  destruct H1 as (s3 & o3 & s4 & o4 & s5 & o5 & s7 & o7 & G3 & G4 & G5 & G7 & _ & ->).
  apply quiet_group in G3, G4, G5, G7.
  apply (quiet_app [Comment _]); [reflexivity|].
  apply quiet_app; [unfold i_fan; cbv zeta; destruct (Bool.eqb _ _); [|destruct (fan_for _ _)]; reflexivity|].
  repeat (apply quiet_app; [assumption|]). unfold i_reset. destruct (nltb _ _); reflexivity.
Qed.

(** the angles that SliceByProfile computes for the segment from a to b *)
Definition tilt_of (a b : point) : num := angle (vectorTo a b) axisZ.
Definition heading_of (a b : point) : num := nadd (angle (projectOnPlane (vectorTo a b) planeXY) axisX) (nofZ 90).

Lemma profile_cons (U : env) (s : settings) m a b r g : profile_loop U s m (a :: b :: r) g =
  ('(up, down) <- match r with [] => Ok (m, m) | _ => cutMesh (u_ends U) m (Pl b axisZ) end ;;
   ls <- sliceByVector U (m_rotate (m_rotate down (rotationAroundZ (heading_of a b)) originPoint)
           (rotationAroundX (tilt_of a b)) originPoint) axisZ s ;;
   profile_loop U s up (b :: r) (g_addLayers (g_add g (RotateXZ (tilt_of a b)
     (heading_of a b))) ls)).
Proof. reflexivity. Qed.

Definition turn_of (s : point * point) : instr := G 62 [("X"%char, V (tilt_of (fst s) (snd s))); ("Z"%char, V (heading_of (fst s) (snd s)))].

Inductive profile_turns : list (point * point) -> list command -> Prop :=
| pt_nil : profile_turns [] []
| pt_cons a b r ls cs : profile_turns r cs ->
    profile_turns ((a, b) :: r) (RotateXZ (tilt_of a b) (heading_of a b) :: LayersMoving ls :: cs).

Lemma profile_loop_turns U s : forall pts m g g', profile_loop U s m pts g = Ok g' ->
  exists cs, g_cmds g' = g_cmds g ++ cs /\ g_sett g' = g_sett g /\ profile_turns (segs pts) cs.
Proof.
  induction pts as [|a pts IH]; intros m g g'; [intros [= <-]; exists []; rewrite app_nil_r; repeat split; constructor|].
  destruct pts as [|b r]; [intros [= <-]; exists []; rewrite app_nil_r; repeat split; constructor|].
  cbn [profile_loop]. cbv zeta.
  destruct (match r with [] => Ok (m, m) | _ => cutMesh (u_ends U) m (Pl b axisZ) end) as [[up down]| |]; try discriminate.
  cbn [rbind]. destruct (sliceByVector U _ axisZ s) as [ls| |]; try discriminate. cbn [rbind].
  intros H. apply IH in H. destruct H as (cs & H1 & H2 & H3). unfold g_addLayers in *. cbn [g_add g_cmds g_sett] in *.
  eexists. split; [rewrite H1, <- !app_assoc; reflexivity|]. split; [exact H2|]. cbn [app segs]. constructor. exact H3.
Qed.

Lemma turns_cmds sett ss cs : profile_turns ss cs -> forall s s' is, i_cmds sett s cs = Ok (s', is) ->
  filter is_turn is = map turn_of ss.
Proof.
  induction 1 as [|a b r ls cs _ IH]; intros s s' is H; [injection H as _ <-; reflexivity|].
  apply i_cmds_cons_inv in H. destruct H as (s1 & o1 & o2 & H1 & H2 & ->). cbn [i_cmd] in H1. injection H1 as <- <-.
  apply i_cmds_cons_inv in H2. destruct H2 as (s2 & o3 & o4 & H3 & H4 & ->). cbn [i_cmd] in H3.
  rewrite !filter_app. rewrite (quiet_layers _ _ _ _ _ H3), (IH _ _ _ H4). reflexivity.
Qed.
End Any.

(** ** The direction after the turns, exactly *)
Open Scope R_scope.
Section Turned.
Variables a b c : R.
Hypothesis H : 0 < a * a + b * b.
Let r := sqrt (a * a + b * b).
Let L := sqrt (a * a + b * b + c * c).
Lemma r_pos : 0 < r. Proof. now apply sqrt_lt_R0. Qed.
Lemma r_sq : a * a + b * b = r * r. Proof. unfold r. rewrite sqrt_sqrt; lra. Qed.
Lemma L_pos : 0 < L. Proof. apply sqrt_lt_R0. nra. Qed.
Lemma L_sq : r * r + c * c = L * L. Proof. rewrite <- r_sq. unfold L. rewrite sqrt_sqrt; nra. Qed.

Lemma tilt_eq : angle (rv a b c) (axisZ (A := ArithR)) = acos (c / L) * 180 / PI.
Proof.
  pose proof L_pos as LP. pose proof L_sq as LS. pose proof r_sq as RS. pose proof r_pos as RP.
  assert (VL : Vlen (rv a b c) = L) by reflexivity.
  assert (Z1 : Vlen (axisZ (A := ArithR)) = 1).
  { unfold Vlen, Vdot, axisZ. cbn [vx vy vz]. rcbn. replace (0 * 0 + 0 * 0 + 1 * 1) with 1 by ring. apply sqrt_1. }
  assert (D : Vdot (rv a b c) (axisZ (A := ArithR)) = c).
  { unfold Vdot, rv, axisZ. cbn [vx vy vz]. rcbn. ring. }
  rewrite (angle_R (rv a b c) (axisZ (A := ArithR))).
  - rewrite VL, Z1, D. rewrite Rmult_1_r. reflexivity.
  - intros Q. injection Q as Q1 Q2 Q3. nra.
  - intros Q. injection Q as Q3. lra.
Qed.

Lemma range2 : -1 <= c / L <= 1.
Proof. apply (ratio_range c r L L_pos). rewrite <- L_sq. ring. Qed.

Lemma turned : vrotate (vrotate (rv a b c) (rotationAroundZ (A := ArithR) (nadd (angle (projectOnPlane (rv a b c) (planeXY (A := ArithR))) (axisX (A := ArithR))) (nofZ 90))))
    (rotationAroundX (A := ArithR) (angle (rv a b c) (axisZ (A := ArithR)))) = rv 0 0 L <-> 0 <= b.
Proof.
  pose proof L_pos as LP. pose proof L_sq as LS. pose proof r_sq as RS. pose proof r_pos as RP.
  rewrite flat_proj, (flat_angle a b r RP RS), tilt_eq, rotZ_eq, rotX_eq.
  rewrite !rad. rcbn.
  replace (PI * (acos (a / r) * 180 / PI + 90) / 180) with (acos (a / r) + PI / 2) by (field; apply PI_neq0).
  replace (PI * (acos (c / L) * 180 / PI) / 180) with (acos (c / L)) by (field; apply PI_neq0).
  rewrite cos_plus, sin_plus, cos_PI2, sin_PI2.
  rewrite !cos_acos by (try apply (ratio_range a b r RP RS); apply range2).
  rewrite !sin_acos by (try apply (ratio_range a b r RP RS); apply range2).
  assert (S1 : sqrt (1 - (a / r)²) = Rabs b / r).
  { replace (1 - (a / r)²) with ((b / r)²).
    - rewrite sqrt_Rsqr_abs. unfold Rdiv. rewrite Rabs_mult, (Rabs_right (/ r)); [reflexivity|]. left. now apply Rinv_0_lt_compat.
    - unfold Rsqr. replace (1 - a / r * (a / r)) with ((r * r - a * a) / (r * r)) by (field; lra). replace (r * r - a * a) with (b * b) by lra. field. lra. }
  assert (S2 : sqrt (1 - (c / L)²) = r / L).
  { replace (1 - (c / L)²) with ((r / L)²).
    - apply sqrt_Rsqr. apply Rlt_le, Rdiv_lt_0_compat; assumption.
    - unfold Rsqr. replace (1 - c / L * (c / L)) with ((L * L - c * c) / (L * L)) by (field; lra). replace (L * L - c * c) with (r * r) by lra. field. lra. }
  rewrite S1, S2. split.
  - intros Q. destruct (Rle_or_lt 0 b) as [|N]; [assumption|exfalso]. rewrite (Rabs_left b N) in Q.
    unfold rv in Q. injection Q as Q1 Q2 Q3.
    assert (X1 : a = 0).
    { apply Rmult_eq_reg_r with (2 * b / r); [|apply Rmult_integral_contrapositive; split; [lra|apply Rinv_neq_0_compat; lra]].
      rewrite Rmult_0_l. rewrite <- Q1. field. lra. }
    rewrite X1 in *. assert (RB : r = - b) by nra.
    assert (X2 : c = 0).
    { apply Rmult_eq_reg_r with (2 * r / L); [|apply Rmult_integral_contrapositive; split; [lra|apply Rinv_neq_0_compat; lra]].
      rewrite Rmult_0_l. rewrite <- Q2, RB. field. lra. }
    rewrite X2 in *. assert (LR : L = r) by nra. rewrite RB in LR. rewrite LR, RB in Q3.
    assert (L = - L) as K; [|lra]. rewrite LR at 1. rewrite <- Q3. rewrite LR. field. lra.
  - intros N. rewrite (Rabs_right b) by lra. apply v3_eq.
    + field. lra.
    + match goal with |- ?x = 0 => replace x with ((r * r - (a * a + b * b)) * c / (r * L)) by (field; lra) end.
      rewrite RS. field. lra.
    + match goal with |- ?x = L => replace x with ((a * a + b * b + c * c) / L) by (field; lra) end.
      rewrite RS, LS. field. lra.
Qed.
End Turned.
Close Scope R_scope.

(** ** Vertical segments in float64 *)
Section Nan.
Variable E : elem.
Local Notation AE := (ArithF64 E).
Definition nan_in (f : f64 -> f64) : Prop := f B754_nan = B754_nan.
Hypothesis HA : nan_in (e_acos E).
Hypothesis HS : nan_in (e_sin E).
Hypothesis HC : nan_in (e_cos E).
Notation NaN := (B754_nan : f64).

Lemma nan_add_l (x : f64) : f64_add NaN x = NaN. Proof. reflexivity. Qed.
Lemma nan_add_r (x : f64) : f64_add x NaN = NaN. Proof. destruct x; reflexivity. Qed.
Lemma nan_sub_l (x : f64) : f64_sub NaN x = NaN. Proof. reflexivity. Qed.
Lemma nan_sub_r (x : f64) : f64_sub x NaN = NaN. Proof. destruct x; reflexivity. Qed.
Lemma nan_mul_l (x : f64) : f64_mul NaN x = NaN. Proof. reflexivity. Qed.
Lemma nan_mul_r (x : f64) : f64_mul x NaN = NaN. Proof. destruct x; reflexivity. Qed.
Lemma nan_div_l (x : f64) : f64_div NaN x = NaN. Proof. reflexivity. Qed.
Lemma nan_div_r (x : f64) : f64_div x NaN = NaN. Proof. destruct x; reflexivity. Qed.
Lemma nan_lt_l (x : f64) : Bltb NaN x = false. Proof. reflexivity. Qed.
Lemma nan_lt_r (x : f64) : Bltb x NaN = false. Proof. destruct x as [[]|[]| |[]]; reflexivity. Qed.

Lemma heading_nan (x y c : f64) : isz x -> isz y ->
  @angle AE (@projectOnPlane AE (V3 (A := AE) x y c) (@planeXY AE)) (@axisX AE) = NaN.
Proof.
  intros X Y. destruct (is_finite c) eqn:F.
  - apply angle_zero; [now apply ceiling_flat|exact HA].
  - destruct (z_cases x X) as [sx ->]. destruct (z_cases y Y) as [sy ->].
    assert (Q : @vx AE (@projectOnPlane AE (V3 (A := AE) (B754_zero sx) (B754_zero sy) c) (@planeXY AE)) = NaN).
    { destruct c as [ | s | | ]; try discriminate; [destruct sx, sy, s; vm_compute; reflexivity|destruct sx, sy; vm_compute; reflexivity]. }
    unfold angle. set (w := projectOnPlane _ _) in *.
    assert (D : @dot AE w (@axisX AE) = NaN).
    { unfold dot. cbn [nadd nmul ArithF64]. rewrite Q. rewrite nan_mul_l, ?nan_add_l. reflexivity. }
    cbv zeta. cbn [nadd nmul ndiv nltb nacos ArithF64]. rewrite D, ?nan_div_l, nan_lt_l, nan_lt_r. cbn [orb].
    rewrite HA. rewrite nan_mul_l, nan_div_l. reflexivity.
Qed.

Lemma heading_of_nan (a b : @point AE) : is_finite (@px AE a) = true -> is_finite (@py AE a) = true ->
  @px AE b = @px AE a -> @py AE b = @py AE a -> @heading_of AE a b = NaN.
Proof.
  intros F1 F2 Q1 Q2. unfold heading_of, vectorTo.
  assert (X : forall x : f64, is_finite x = true -> isz (f64_sub x x)).
  { intros x F. apply (val_sub x x zero64 F F). cbn. ring. }
  rewrite Q1, Q2.
  match goal with |- nadd ?h _ = _ => assert (h = NaN) as -> end.
  - apply heading_nan; apply X; assumption.
  - reflexivity.
Qed.

(** all heights of the turned part are NaN *)
Lemma turned_nan (ax : f64) (p : @point AE) :
  @pz AE (@pt_rotate AE (@rotationAroundX AE ax) (@originPoint AE)
    (@pt_rotate AE (@rotationAroundZ AE NaN) (@originPoint AE) p)) = NaN.
Proof.
  assert (Y : @py AE (@pt_rotate AE (@rotationAroundZ AE NaN) (@originPoint AE) p) = NaN).
  { unfold pt_rotate, v2p, vadd, vrotate, dot, rotationAroundZ, toRadians. cbn [py vx vy vz rm_x rm_y rm_z].
    cbn [nadd nmul ndiv nopp nsin ncos ArithF64].
    rewrite nan_mul_r, nan_div_l, HS, HC. cbn [Bopp]. rewrite !nan_mul_r, !nan_add_l. reflexivity. }
  set (q := pt_rotate (rotationAroundZ _) _ _) in *.
  unfold pt_rotate, v2p, vadd, vrotate, dot, vectorTo. cbn [pz vx vy vz rm_x rm_y rm_z rotationAroundX].
  cbn [nadd nmul nsub ArithF64]. rewrite Y, nan_sub_l, nan_mul_l, nan_add_r, nan_add_l. reflexivity.
Qed.

Lemma dot_z_nan (p : @point AE) : @pz AE p = NaN -> @dot AE (@p2v AE p) (@normalize AE (@axisZ AE)) = NaN.
Proof. intros Q. unfold dot, p2v. cbn [vx vy vz]. cbn [nadd nmul ArithF64]. rewrite Q, nan_mul_l, nan_add_r. reflexivity. Qed.

(** slicing such a part *)
Notation nanz := (fun t => @pz AE (@t1 AE t) = NaN /\ @pz AE (@t2 AE t) = NaN /\ @pz AE (@t3 AE t) = NaN).
Lemma minmax_nan (t : @triangle AE) : nanz t -> @t_minMaxZ AE t (@normalize AE (@axisZ AE)) = (NaN, NaN).
Proof. intros (H1 & H2 & H3). unfold t_minMaxZ, t_minZ, t_maxZ. rewrite !dot_z_nan by assumption. reflexivity. Qed.
Lemma nmin_nan (x : f64) : is_finite x = true -> @nmin AE x NaN = NaN. Proof. destruct x as [[]|[]| |[]]; try discriminate; reflexivity. Qed.
Lemma nmax_nan (x : f64) : is_finite x = true -> @nmax AE x NaN = NaN. Proof. destruct x as [[]|[]| |[]]; try discriminate; reflexivity. Qed.
Lemma fold_nan (Z : @vector AE) (m : list (@triangle AE)) : Forall (fun t => @t_minMaxZ AE t Z = (NaN, NaN)) m -> forall x y, is_finite x = true -> is_finite y = true ->
  m <> [] -> fold_left (fun acc t => let '(mn, mx) := @t_minMaxZ AE t Z in (@nmin AE (fst acc) mn, @nmax AE (snd acc) mx)) m (x, y) = (NaN, NaN).
Proof.
  intros F x y Fx Fy NE. destruct F as [|t m H F]; [congruence|]. cbn [fold_left]. rewrite H. cbn [fst snd].
  rewrite (nmin_nan x Fx), (nmax_nan y Fy).
  clear H NE. induction F as [|u m H F IH]; [reflexivity|]. cbn [fold_left]. rewrite H. cbn [fst snd]. exact IH.
Qed.
Lemma fin_max : is_finite (@maxFloat64 AE) = true /\ is_finite (@nopp AE (@maxFloat64 AE)) = true.
Proof. split; vm_compute; reflexivity. Qed.
Lemma minmax_mesh_nan (m : list (@triangle AE)) (Z : @vector AE) : Forall (fun t => @t_minMaxZ AE t Z = (NaN, NaN)) m -> m <> [] -> @m_minMaxZ AE m Z = (NaN, NaN).
Proof. intros F NE. unfold m_minMaxZ. destruct m; [congruence|]. apply (fold_nan Z _ F _ _ (proj1 fin_max) (proj2 fin_max) NE). Qed.
Lemma toZ_nan (h : f64) : @ntoZ AE (@nceil AE (@ndiv AE (@nsub AE NaN NaN) h)) = (- 2 ^ 63)%Z.
Proof. reflexivity. Qed.
Lemma slice_nan U (m : list (@triangle AE)) (s : @settings AE) : m <> [] -> Forall nanz m -> sliceByVector U m (@axisZ AE) s = Panic.
Proof.
  intros NE F. unfold sliceByVector. destruct m as [|t0 m0] eqn:EM; [congruence|]. rewrite <- EM in *.
  assert (P : slicing_jobs U m (@axisZ AE) s = Panic); [|rewrite P; reflexivity].
  assert (ST : m_minMaxZ m (@normalize AE (@axisZ AE)) = (NaN, NaN)).
  { apply minmax_mesh_nan; [|exact NE]. eapply Forall_impl; [|exact F]. exact minmax_nan. }
  unfold slicing_jobs. cbv zeta. unfold layer_number.
  rewrite ST, toZ_nan.
  destruct (- 2 ^ 63 <? 0)%Z eqn:X; [reflexivity|discriminate].
Qed.

Definition same_xy (a b : @point AE) : Prop := @px AE b = @px AE a /\ @py AE b = @py AE a.

Lemma profile_nan U (s : @settings AE) : (forall l, Permutation l (u_ends U l)) -> forall pts a m g,
  is_finite (@px AE a) = true -> is_finite (@py AE a) = true -> pts <> [] -> Forall (same_xy a) pts ->
  profile_loop U s m (a :: pts) g = Panic \/
  exists g', profile_loop U s m (a :: pts) g = Ok g' /\ layerCount g' = layerCount g.
Proof.
  intros HU. induction pts as [|b r IH]; intros a m g F1 F2 NE F; [congruence|]. clear NE.
  inversion F as [|? ? [B1 B2] Fr]; subst.
  rewrite profile_cons.
  assert (C : exists up down, match r with [] => Ok (m, m) | _ => cutMesh (u_ends U) m (Pl b axisZ) end = Ok (up, down)).
  { destruct r; [eauto|]. destruct (cutMesh_ok (u_ends U) m (Pl b axisZ) HU) as (up & down & _ & _ & _ & Q & _). eauto. }
  destruct C as (up & down & ->). cbn [rbind].
  rewrite (heading_of_nan a b F1 F2 B1 B2).
  destruct down as [|t0 d0] eqn:ED.
  - cbn [m_rotate map]. cbn [sliceByVector rbind].
    destruct r as [|b' r'].
    + right. cbn [profile_loop]. eexists. split; [reflexivity|]. unfold g_addLayers. rewrite !layerCount_add. cbn [cmd_layers length]. lia.
    + match goal with |- profile_loop _ _ ?u _ ?g2 = _ \/ _ => destruct (IH b u g2) as [Q|(g' & Q & N)] end.
      * now rewrite B1.
      * now rewrite B2.
      * discriminate.
      * rewrite Forall_forall in Fr |- *. intros x Hx. destruct (Fr x Hx) as [X1 X2]. split; congruence.
      * left. exact Q.
      * right. exists g'. split; [exact Q|]. rewrite N. unfold g_addLayers. rewrite !layerCount_add. cbn [cmd_layers length]. lia.
  - left. rewrite slice_nan; [reflexivity|discriminate|].
    unfold m_rotate. rewrite map_map. apply Forall_forall. intros t I. apply in_map_iff in I. destruct I as (u & <- & _).
    unfold t_rotate. cbn [t1 t2 t3 newTriangle]. split; [|split]; apply turned_nan.
Qed.
End Nan.
