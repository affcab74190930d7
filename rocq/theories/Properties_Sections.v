(** * C120, continued: every section of a print in default mode *)
From Coq Require Import String Reals Lra Lia List Bool ZArith NArith PeanoNat Permutation.
From Flocq Require Import Core.Raux.
From Verif Require Import Arith ArithR Prim Path PathClaims GeomSpec GeomProofs MeshProofs Helpers Gcode GcodeClaims
  Slicer SlicerClaims SlicerProofs SlicerProofs2 Fill FillClaims FillProofs FillProofs2 Vip VipClaims VipProofs VipReal VipMore Properties_Spacing.
From Verif Require OverhangClaims Properties_Overhang Properties_Opposite ArithF64 Examples_Vip.
Import ListNotations.
Close Scope Z_scope.
Close Scope num_scope.
Close Scope string_scope.
Open Scope list_scope.
Local Open Scope R_scope.

(** turning the fill planes back *)
Lemma unturn_planes (az : R) (ps : list Rplane) : map (unturn_plane (A := ArithR) az) (map (turn_plane (A := ArithR) az) ps) = ps.
Proof.
  rewrite map_map. rewrite <- map_id. apply map_ext. intros [p n]. unfold unturn_plane, turn_plane, pl_rotate. cbn [pl_p pl_n].
  assert (E3 : forall v : Rvector, p2v (v2p v) = v) by (intros [? ? ?]; reflexivity).
  rewrite !E3, !(fun v => rotX_back v (angleX (A := ArithR)) : vrotate _ (rotationAroundX (nopp (Arith := ArithR) angleX)) = v).
  rewrite !(fun v => rotZ_back v az : vrotate _ (rotationAroundZ (nopp (Arith := ArithR) az)) = v). destruct p; reflexivity.
Qed.

Lemma first_fail_test {A : Arith} {T} (test : layer -> layer -> res (option T)) : forall ls i k p, first_fail test i ls = Ok (Some (k, p)) ->
  exists a b, test a b = Ok (Some p).
Proof.
  induction ls as [|a [|b ls] IH]; intros i k p H; [discriminate..|]. cbn [first_fail] in H.
  destruct (test a b) as [[x|]| |] eqn:E; try discriminate; cbn [rbind] in H; [injection H as _ ->; eauto|]. exact (IH _ _ _ H).
Qed.

(** the planes of the fill while the bed is turned to [rot] *)
Definition planes_at (rot : option R) (ps : list Rplane) : list Rplane :=
  match rot with None => ps | Some az => map (turn_plane (A := ArithR) az) ps end.
(** level: the planes as computed; tilted: turned to the heading of the plane of an overhang *)
Definition section_of U (s : @settings ArithR) fp ff (level : bool) (ls : list layer) : Prop :=
  if level then exists m', layers_of U s fp ff m' ls
  else exists np a b m', calculateFails a b = Ok (Some np) /\
    layers_of U s (map (turn_plane (heading np)) fp) (map (turn_plane (heading np)) ff) m' ls.

Lemma default_sections U (s : @settings ArithR) fp ff : forall fuel rot m layers g g',
  default_loop fuel U s (planes_at rot fp) (planes_at rot ff) rot m layers g = Ok g' ->
  sliceByVector U m axisZ s = Ok layers ->
  (forall az, rot = Some az -> exists np a b, calculateFails a b = Ok (Some np) /\ az = heading np) ->
  exists new, printed (g_cmds g') = printed (g_cmds g) ++ new /\
    forall k ls, nth_error new k = Some ls -> section_of U s fp ff (match rot with None => Nat.even k | Some _ => Nat.odd k end) ls.
Proof.
  induction fuel as [|f IH]; intros rot m layers g g'; cbn [default_loop]; [discriminate|].
  assert (One : forall m' ls, layers_of U s (planes_at rot fp) (planes_at rot ff) m' ls ->
    (forall az, rot = Some az -> exists np a b, calculateFails a b = Ok (Some np) /\ az = heading np) ->
    section_of U s fp ff (match rot with None => true | Some _ => false end) ls).
  { intros m' ls L R. destruct rot as [az|]; [|now exists m']. destruct (R az eq_refl) as (np & a & b & E & ->). exists np, a, b, m'. now split. }
  destruct (first_fail _ _ _) as [[[k p]|]| |] eqn:EF; try discriminate; cbn [rbind].
  - destruct (cutMesh _ _ _) as [[up down]| |]; try discriminate. cbn [rbind].
    destruct (sliceByVector U down axisZ s) as [add| |] eqn:E1; try discriminate. cbn [rbind].
    destruct (prepareLayers U add s _ _) as [fl| |] eqn:E2; try discriminate. cbn [rbind].
    assert (L : layers_of U s (planes_at rot fp) (planes_at rot ff) down fl) by (exists add; now split).
    destruct rot as [az|]; cbn [planes_at] in *.
    + destruct (sliceByVector U (unturn_mesh (A := ArithR) az up) axisZ s) as [ls| |] eqn:E3; try discriminate. cbn [rbind]. rewrite !unturn_planes. intros H Sl R.
      apply (IH None) in H; [|exact E3|discriminate]. destruct H as (new & H1 & H2). exists (fl :: new). split.
      * rewrite H1. unfold g_addLayers, g_add. cbn [g_cmds]. rewrite !printed_app. cbn [printed]. rewrite <- !app_assoc. reflexivity.
      * intros [|j] x Hx; cbn [nth_error] in Hx; [injection Hx as <-; exact (One _ _ L R)|].
        specialize (H2 j x Hx). rewrite Nat.odd_succ. exact H2.
    + destruct (sliceByVector U (turn_mesh (A := ArithR) (heading p) up) axisZ s) as [ls| |] eqn:E3; try discriminate. cbn [rbind]. intros H Sl R.
      apply (IH (Some (heading p))) in H; [|exact E3|].
      2: { intros az [= <-]. destruct (first_fail_test _ _ _ _ _ EF) as (a & b & Et). exists p, a, b. now split. }
      destruct H as (new & H1 & H2). exists (fl :: new). split.
      * rewrite H1. unfold g_addLayers, g_add. cbn [g_cmds]. rewrite !printed_app. cbn [printed]. rewrite <- !app_assoc. reflexivity.
      * intros [|j] x Hx; cbn [nth_error] in Hx; [injection Hx as <-; exact (One _ _ L R)|].
        specialize (H2 j x Hx). rewrite Nat.even_succ. exact H2.
  - destruct (length layers <=? 1)%nat.
    + intros [= <-] _ _. exists []. split; [now rewrite app_nil_r|]. intros [|j] x; discriminate.
    + destruct (prepareLayers U layers s _ _) as [fl| |] eqn:E2; try discriminate. cbn [rbind]. intros [= <-] Sl R.
      exists [fl]. split; [unfold g_addLayers, g_add; cbn [g_cmds]; now rewrite printed_app|].
      intros [|[|j]] x Hx; cbn [nth_error] in Hx; try discriminate. injection Hx as <-.
      assert (L : layers_of U s (planes_at rot fp) (planes_at rot ff) m fl) by (exists layers; now split).
      pose proof (One _ _ L R) as O. destruct rot; exact O.
Qed.

Lemma default_section fuel U m (s : @settings ArithR) layers g k ls fp ff : calcFillPlanes m s = (fp, ff) ->
  sliceByVector U m axisZ s = Ok layers -> sliceDefault2 fuel U m s layers = Ok g ->
  nth_error (printed (g_cmds g)) k = Some ls -> section_of U s fp ff (Nat.even k) ls.
Proof.
  intros EF Sl H Hk. unfold sliceDefault2 in H. rewrite EF in H.
  destruct (default_sections U s fp ff fuel None m layers _ g H Sl ltac:(discriminate)) as (new & E & F).
  cbn [newGcode g_cmds printed app] in E. rewrite E in Hk. exact (F k ls Hk).
Qed.

Lemma gap_step U m' (s : @settings ArithR) fp ff m ls i l f q (Q : R -> Prop) : legal U -> s_fillingType s = "Lines"%string ->
  forall tr, calcFillPlanes m s = (fp, ff) -> layers_of U s (map tr fp) (map tr ff) m' ls ->
  nth_error ls i = Some l -> In f (l_fill l) -> In q f ->
  (forall step pl, In pl (map tr (calcFillPlanesCommon (A := ArithR) m axisX step)) -> sd pl q = 0 -> Q step) -> Q (asked_gap s (length ls) i).
Proof.
  intros HU T tr EF L Hi If Iq H. destruct (fill_of_layer U m' s _ _ ls i l f q HU L Hi If Iq) as (pl & S & Ip).
  unfold calcFillPlanes in EF. rewrite T in EF. cbn [String.eqb Ascii.eqb Bool.eqb] in EF. injection EF as <- <-.
  unfold asked_gap. destruct (_ || _)%Z; [exact (H _ pl Ip S)|]. refine (H _ pl _ S). revert Ip. unfold calcFillPlanesLines, fill_step. rcbn. auto.
Qed.

(** ** The claims *)
(** The layers printed before the first tilt, and between a tilt back and the next tilt (the
    sections with an even number, from 0): the lines of the fill run along Y, whole multiples of
    the distance asked for apart. *)
Theorem C120_level : forall fuel U (m : Rmesh) (s : @settings ArithR) layers g k ls,
  legal U -> s_fillingType s = "Lines"%string -> sliceByVector U m axisZ s = Ok layers -> sliceDefault2 fuel U m s layers = Ok g ->
  Nat.even k = true -> nth_error (printed (g_cmds g)) k = Some ls ->
  forall i l f q, nth_error ls i = Some l -> In f (l_fill l) -> In q f -> exists j, X q = IZR j * asked_gap s (length ls) i.
Proof.
  intros fuel U m s layers g k ls HU T Sl H Ev Hk i l f q Hi If Iq. destruct (calcFillPlanes m s) as [fp ff] eqn:EF.
  pose proof (default_section _ _ _ _ _ _ _ _ _ _ EF Sl H Hk) as S. rewrite Ev in S. destruct S as (m' & L).
  rewrite <- (map_id fp), <- (map_id ff) in L.
  apply (gap_step U m' s fp ff m ls i l f q (fun st => exists j, X q = IZR j * st) HU T (fun p => p) EF L Hi If Iq).
  intros step pl I S. rewrite map_id, common_R in I. cbv zeta in I. apply in_map_iff in I. destruct I as (n & <- & _). set (kz := (_ + Z.of_nat n)%Z) in S. exists kz.
  unfold sd, at_axis, axisX in S. cbn [pl_p pl_n vx vy vz] in S. unfold X, Y, Z3 in *. cbn [px py pz] in S. rcbn. lra.
Qed.

(** The sections printed tilted (odd numbers): for a direction (x, y), the same in all layers of
    the section, the lines of the fill run across (|y|, x / 2); different lines are at least
    1 / sqrt (y^2 + x^2/4) times as far apart as asked for. *)
Theorem C120_tilted : forall fuel U (m : Rmesh) (s : @settings ArithR) layers g k ls,
  legal U -> s_fillingType s = "Lines"%string -> 0 < LineWidth (s_g s) -> (0 < s_fillDensity s)%Z ->
  sliceByVector U m axisZ s = Ok layers -> sliceDefault2 fuel U m s layers = Ok g ->
  Nat.odd k = true -> nth_error (printed (g_cmds g)) k = Some ls ->
  exists x y, x * x + y * y = 1 /\
    forall i l f f' q q', nth_error ls i = Some l -> In f (l_fill l) -> In q f -> In f' (l_fill l) -> In q' f' -> Z3 q = Z3 q' ->
    exists j, Rabs y * (X q - X q') + x / 2 * (Y q - Y q') = IZR j * asked_gap s (length ls) i /\
      (j <> 0%Z -> asked_gap s (length ls) i <= sqrt (y * y + x * x / 4) * sqrt ((X q - X q') * (X q - X q') + (Y q - Y q') * (Y q - Y q'))).
Proof.
  intros fuel U m s layers g k ls HU T W D Sl H Od Hk. destruct (calcFillPlanes m s) as [fp ff] eqn:EF.
  pose proof (default_section _ _ _ _ _ _ _ _ _ _ EF Sl H Hk) as S. rewrite <- Nat.negb_odd, Od in S. cbn [negb] in S.
  destruct S as (np & a & b & m' & Ef & L).
  destruct (Properties_Overhang.C90_cut_plane _ _ _ Ef) as (_ & _ & _ & _ & x & y & _ & _ & _ & _ & _ & (U1 & En) & _).
  exists x, y. split; [exact U1|]. intros i l f f' q q' Hi If Iq If' Iq' EZ.
  set (gap := asked_gap s (length ls) i).
  assert (Gp : 0 < gap).
  { unfold gap, asked_gap. destruct (_ || _)%Z; [exact W|]. apply Rmult_lt_0_compat; [|exact W]. apply IZR_lt in D. apply Rdiv_lt_0_compat; lra. }
  assert (P3 : 0 < sqrt 3) by (apply sqrt_lt_R0; lra). set (r := sqrt 3 / 2). assert (Hr : 0 < r) by (unfold r; lra).
  assert (Hab : r * x * (r * x) + r * y * (r * y) = r * r).
  { replace (r * x * (r * x) + r * y * (r * y)) with (r * r * (x * x + y * y)) by ring. rewrite U1. ring. }
  assert (G : forall f q, In f (l_fill l) -> In q f -> exists j, - Rabs y * X q - x / 2 * Y q + x * (sqrt 3 / 2) * Z3 q = IZR j * gap).
  { clear f f' q q' If Iq If' Iq' EZ. intros f q If Iq.
    apply (gap_step U m' s fp ff m ls i l f q (fun st => exists j, - Rabs y * X q - x / 2 * Y q + x * (sqrt 3 / 2) * Z3 q = IZR j * st) HU T _ EF L Hi If Iq).
    intros step pl I S. destruct (turned_fill m step (r * x) (r * y) r np pl q Hr Hab ltac:(rewrite En; reflexivity) ltac:(rewrite En; reflexivity) I S) as (j & J).
    exists j. rewrite <- J, Rabs_mult, (Rabs_pos_eq r) by lra. field. lra. }
  destruct (G f q If Iq) as (j1 & J1). destruct (G f' q' If' Iq') as (j2 & J2). exists (j2 - j1)%Z.
  assert (Eq : Rabs y * (X q - X q') + x / 2 * (Y q - Y q') = IZR (j2 - j1) * gap).
  { rewrite minus_IZR, Rmult_minus_distr_r, <- J1, <- J2, EZ. field. }
  split; [exact Eq|]. intros Nz. set (dx := X q - X q') in *. set (dy := Y q - Y q') in *. rewrite <- sqrt_mult by nra.
  assert (B : 1 <= Rabs (IZR (j2 - j1))) by (rewrite <- abs_IZR; apply (IZR_le 1); lia).
  assert (C : gap <= Rabs (IZR (j2 - j1) * gap)) by (rewrite Rabs_mult, (Rabs_pos_eq gap) by lra; nra).
  apply Rle_trans with (1 := C). rewrite <- Eq, <- sqrt_Rsqr_abs. apply sqrt_le_1_alt. unfold Rsqr.
  assert (Y2 : Rabs y * Rabs y = y * y) by (rewrite <- Rabs_mult; apply Rabs_pos_eq, Rle_0_sqr).
  rewrite <- Y2. pose proof (Rle_0_sqr (Rabs y * dy - x / 2 * dx)) as Sq. unfold Rsqr in Sq. nra.
Qed.

(** ** A case *)
(** a run with a level and a tilted section, in float64 *)
Section Run.
Import Examples_Vip.
Local Existing Instance A1.
Lemma printed_kinds (cs : list (@command A1)) : length (printed cs) = length (filter (String.eqb "layers") (map kind cs)).
Proof. induction cs as [|c cs IH]; [reflexivity|]. destruct c; cbn [printed map kind filter String.eqb Ascii.eqb Bool.eqb length]; now rewrite IH. Qed.
Lemma nothing_printed m (s : @settings A1) g : sliceDefault2 4 env0 m s [] = Ok g -> g_cmds g = [].
Proof. unfold sliceDefault2. destruct (calcFillPlanes m s). cbn [default_loop first_fail rbind length Nat.leb]. intros [= <-]. reflexivity. Qed.
Lemma lay2_ok m (g : @gcode A1) : sliceDefault2 4 env0 m s2 (lay2 m) = Ok g -> g_cmds g <> [] -> sliceByVector env0 m axisZ s2 = Ok (lay2 m).
Proof.
  unfold lay2, Examples_Vip.layers_of. set (r := sliceByVector _ m _ _). clearbody r.
  destruct r; [reflexivity|intros H N; elim N; exact (nothing_printed m s2 g H)..].
Qed.
Example exS_sections : sliceByVector env0 gallows axisZ s2 = Ok (lay2 gallows) /\
  exists g, sliceDefault2 4 env0 gallows s2 (lay2 gallows) = Ok g /\ length (printed (g_cmds g)) = 2%nat.
Proof.
  destruct (summary_ok _ _ ex_default) as (g & t & H & K & _); [discriminate|]. split.
  - apply (lay2_ok _ g H). intros E. rewrite E in K. discriminate K.
  - exists g. split; [exact H|]. rewrite printed_kinds, K. reflexivity.
Qed.
End Run.

Print Assumptions C120_level.
Print Assumptions C120_tilted.
