(** * Properties C57, C75-C79: templates and the output file *)
From Coq Require Import ZArith NArith String Ascii List Bool Lia Permutation.
From Verif Require Import Arith ArithR ArithF64 Prim Path Gcode GcodeSpec GcodeInstr GcodeText GcodeClaims GcodeProofs GcodeInv TextOK GcodeProofs2
  Properties_Gcode Properties_Slicer Helpers Slicer SlicerClaims SlicerProofs Fill Stl Vip Main MainClaims TemplateProofs MainProofs.
Import ListNotations.
Close Scope Z_scope.
Close Scope num_scope.
Open Scope string_scope.

(** ** C57 Templates *)

Theorem C57_templates : forall m m' ps, map_ok m -> Permutation m m' -> Forall piece_ok ps ->
  exists outs, prepareDataFile (Some (template ps)) m' = Ok (String.concat "" outs) /\
    Forall2 (filled m) ps outs /\ (forall outs', Forall2 (filled m) ps outs' -> outs' = outs).
Proof.
  intros m m' ps K P Q. destruct (prepare_any m m' ps K P Q) as (outs & F & E). exists outs. split; [exact E|]. split; [exact F|].
  intros outs' F'. exact (filled_list_unique m ps _ _ (proj1 K) F' F).
Qed.

(** the settings' map is such a list, the two files are such templates *)
Example ex_toMap {A : Arith} s : no_open (s_dateTime s) -> map_ok (toMap s).
Proof. exact (toMap_ok s). Qed.
Example ex_header_file : exists ps, Forall piece_ok ps /\ template ps = header_template /\ length ps = 27 /\
  In (Slot "print_time") ps /\ In (Slot "datetime") ps.
Proof. exists header_pieces. split; [exact header_ok|]. split; [exact header_is|]. split; [reflexivity|]. cbn. tauto. Qed.
Example ex_footer_file : exists ps, Forall piece_ok ps /\ template ps = footer_template /\ In (Slot "print_speed") ps.
Proof. exists footer_pieces. split; [exact footer_ok|]. split; [exact footer_is|]. cbn. tauto. Qed.

(** with braces inside braces the order matters *)
Theorem C57_nested_refuted : exists m m' file a b, map_ok m /\ Permutation m m' /\
  prepareDataFile (Some file) m = Ok a /\ prepareDataFile (Some file) m' = Ok b /\ a <> b.
Proof.
  exists [("{datetime}", ""); ("{layer_height}", "0.2")], [("{layer_height}", "0.2"); ("{datetime}", "")],
    "{layer{datetime}_height}", "0.2", "{layer_height}".
  split; [|split; [constructor|split; [reflexivity|split; [reflexivity|discriminate]]]].
  split.
  - cbn. constructor; [cbn; intuition discriminate|]. constructor; [intros []|constructor].
  - constructor; [split; [exists "datetime"|]|constructor; [split; [exists "layer_height"|]|constructor]]; try (split; [split|]); reflexivity.
Qed.

(** ** C75 The whole file *)
Section Whole.
Context {A : Arith}.

Lemma header_runs bt et ps p : ready bt et ps p (prun p (somes (header_instrs bt et ps))).
Proof.
  destruct p as [[x y z e tool f fn disp] rl re ext bed]. unfold prun, header_instrs. cbn [somes fold_left].
  constructor; try reflexivity; try (rewrite Z.mul_comm; reflexivity).
  - split; reflexivity.
  - intros t Ht. cbn. unfold upd_disp. destruct (Z.eqb_spec t 0); [contradiction|reflexivity].
Qed.
Lemma footer_runs ps p : stopped p (prun p (somes (footer_instrs ps))).
Proof.
  destruct p as [[x y z e tool f fn disp] rl re ext bed]. unfold prun, footer_instrs. cbn [somes fold_left].
  constructor; try reflexivity.
  - intros z0 H. cbn in H. subst z. reflexivity.
  - split; reflexivity.
  - intros t Ht. cbn in Ht |- *. unfold upd_disp. destruct (Z.eqb_spec t tool); [contradiction|reflexivity].
  - intros e0 d0 He Hd. cbn in He, Hd. subst e. cbn. unfold upd_disp. rewrite Z.eqb_refl, Hd. cbn. f_equal. lia.
Qed.

Definition is_order (o : list (string * string) -> list (string * string)) : Prop := forall m, Permutation m (o m).
(** the text of a time: one line without an opening brace *)
Definition one_line (d : string) : Prop := no_open d /\ allc (isnt newline) d = true.

Theorem C75_whole_file : forall order1 order2 g s t,
  is_order order1 -> is_order order2 -> one_line (s_dateTime s) -> toOutput g = Ok t ->
  exists out hs is fs,
    commandsWithTemplates order1 order2 (Some header_template) (Some footer_template) g s = Ok out /\
    read_gcode t = Some is /\
    read_file out = Some (hs ++ no_comments is ++ fs)%list /\
    (forall p, ready (s_bedTemperature s) (s_extruderTemperature s) (PrintSpeed (s_g s)) p (prun p hs)) /\
    (forall p, p_rel p = false -> p_relE p = false -> prun p (no_comments is) = set_m p (run (p_m p) is)) /\
    (forall p, stopped p (prun p fs)).
Proof.
  intros o1 o2 g s t P1 P2 [D1 D2] E.
  destruct (file_lines o1 o2 g s t P1 P2 D1 D2 E) as (hl & bl & fl & bs & C & -> & Et & -> & Lh & Lb & Lf & s' & is & I & R & Sb & B).
  eexists _, (somes (header_instrs (s_bedTemperature s) (s_extruderTemperature s) (PrintSpeed (s_g s)))), is, (somes (footer_instrs (PrintSpeed (s_g s)))).
  split; [exact C|]. split; [exact R|]. split.
  { assert (S : forall a b, somes (a ++ b) = (somes a ++ @somes instr b)%list).
    { induction a as [|[x|] a IH]; intros b; cbn [somes List.app]; [reflexivity| |]; now rewrite IH. }
    rewrite <- Sb, <- !S. apply lines2_concat. apply Forall2_app; [exact Lh|]. apply Forall2_app; [exact Lb|exact Lf]. }
  split; [apply header_runs|]. split; [apply (prun_body is B)|apply footer_runs].
Qed.

Lemma in_lines o : Forall (fun x => exists oi, line2 x oi) o ->
  forall l, nonempty l = true -> In (l ++ nl) o -> In l (lines_of (String.concat "" o)).
Proof.
  induction 1 as [|x ls [oi (l' & -> & N' & _)] F IH]; intros l Hn Hin; [destruct Hin|].
  rewrite concat_cons, append_assoc. change (nl ++ String.concat "" ls) with (String newline (String.concat "" ls)).
  unfold lines_of in *. rewrite split_on_app by exact N'. cbn [filter].
  destruct Hin as [Hin|Hin].
  - assert (X : l' = l).
    { clear -Hin. revert l Hin. induction l' as [|a l' IH]; intros [|b l]; cbn; intros H; try reflexivity.
      - injection H as _ H. destruct l; discriminate.
      - injection H as _ H. destruct l'; discriminate.
      - injection H as -> H. f_equal. now apply IH. }
    subst l'. rewrite Hn. now left.
  - destruct (nonempty l'); [right|]; exact (IH l Hn Hin).
Qed.

(** the header names the number of layers, the date and the settings *)
Theorem C75_header_text : forall order1 order2 g s t,
  is_order order1 -> is_order order2 -> one_line (s_dateTime s) -> toOutput g = Ok t ->
  exists out is,
    commandsWithTemplates order1 order2 (Some header_template) (Some footer_template) g s = Ok out /\
    read_gcode t = Some is /\
    In (";LAYER_COUNT:" ++ itoa (Z.of_nat (length (markers is)))) (lines_of out) /\
    In (";Sliced at: " ++ s_dateTime s) (lines_of out) /\
    In (";Layer height: " ++ strF (s_layerHeight s) ++ ", Walls: " ++ strF (s_wallThickness s) ++
        ", Fill: " ++ itoa (s_fillDensity s) ++ "%") (lines_of out).
Proof.
  intros o1 o2 g s t P1 P2 [D1 D2] E.
  destruct (file_lines o1 o2 g s t P1 P2 D1 D2 E) as (hl & bl & fl & bs & C & Eh & Et & -> & Lh & Lb & Lf & s' & is & I & R & Sb & B).
  destruct (C01_layer_markers g t E) as (is' & R' & Mk). rewrite R in R'. injection R' as <-.
  eexists _, is. split; [exact C|]. split; [exact R|]. rewrite Mk, map_length, seq_length.
  assert (K : forall l, nonempty l = true -> In (l ++ nl) (hl ++ bl ++ footer_lines (itoa (PrintSpeed (s_g s))))%list ->
    In l (lines_of (String.concat "" (hl ++ bl ++ footer_lines (itoa (PrintSpeed (s_g s))))%list))).
  { apply in_lines.
    assert (Q : forall a b, Forall2 line2 a b -> Forall (fun x => exists oi, line2 x oi) a).
    { induction 1; constructor; eauto. }
    repeat (apply Forall_app; split); eapply Q; eassumption. }
  split; [|split]; apply K; try reflexivity.
  - rewrite Eh. apply in_or_app. left. cbn [header_lines In]. do 24 right. left. reflexivity.
  - rewrite Eh. apply in_or_app. left. cbn [header_lines In]. right. left. reflexivity.
  - rewrite Eh. apply in_or_app. left. cbn [header_lines In]. do 2 right. left. cbn [append]. repeat (rewrite append_assoc; cbn [append]). reflexivity.
Qed.

(** ** C76 The fan at the end of the file *)
Theorem C76_fan_left_on : forall order1 order2 g s t,
  is_order order1 -> is_order order2 -> one_line (s_dateTime s) -> toOutput g = Ok t ->
  (2 <= layerCount g \/ 1 <= layerCount g /\ FanOffLayer1 (g_sett g) = false) ->
  exists out is,
    commandsWithTemplates order1 order2 (Some header_template) (Some footer_template) g s = Ok out /\
    read_file out = Some is /\
    forall p, m_fan (p_m (prun p is)) = true /\ p_ext (prun p is) = VFin 0.
Proof.
  intros o1 o2 g s t P1 P2 D E L.
  destruct (C75_whole_file o1 o2 g s t P1 P2 D E) as (out & hs & is & fs & C & R & F & Hh & Hb & Hf).
  exists out, (hs ++ no_comments is ++ fs)%list. split; [exact C|]. split; [exact F|]. intros p.
  unfold prun. rewrite !fold_left_app. fold (prun p hs). set (q := prun p hs). fold (prun q (no_comments is)).
  destruct (Hh p) as [h1 h2 h3 h4 h5 h6 [h7 h8] _ _ _]. fold q in h1, h2, h3, h4, h5, h6, h7, h8. rewrite (Hb q h7 h8).
  match goal with |- context [fold_left pexec fs ?q'] => fold (prun q' fs); pose proof (Hf q') as [f1 _ f3 _ _ _ _ _ _ _] end.
  split; [|exact f1]. rewrite f3. cbn [p_m set_m].
  destruct (toOutput_lines g t E) as (s' & is' & o & I & R' & _). rewrite R in R'. injection R' as <-.
  rewrite (proj2 (fan_thm_full _ _ s' is (p_m q) ctx0 I h1)).
  destruct (markers_cmds _ _ newState s' is 0 eq_refl I) as [_ K]. rewrite <- layerCount_layers in K.
  destruct (fan_end _ _ _ _ _ I) as [_ [Z0|FE]]; [cbn; lia|now left| |].
  - rewrite Z0 in K. lia.
  - rewrite FE, K. unfold fan_for. destruct L as [L|[L ->]]; [|now rewrite andb_false_r].
    destruct (Z.eqb_spec (Z.of_nat (0 + layerCount g) - 1) 0); [lia|reflexivity].
Qed.
End Whole.

(** ** C77, C78 The command *)
Section Command.
Context {A : Arith}.

Ltac binds := repeat match goal with
  | H : rbind ?r _ = Ok _ |- _ => let E := fresh "E" in destruct r eqn:E; cbn [rbind] in H; try discriminate H
  | H : (match ?x with _ => _ end) = Ok _ |- _ => let E := fresh "E" in destruct x eqn:E; try discriminate H
  end.

Lemma adds_sett cmds : forall g, g_sett (fold_left g_add cmds g) = g_sett g.
Proof. induction cmds as [|c cmds IH]; intros g; [reflexivity|]. cbn [fold_left]. now rewrite IH. Qed.
Lemma planes_sett U s fp ff parts : forall i r beds g g', planes_loop U s fp ff i r parts beds g = Ok g' -> g_sett g' = g_sett g.
Proof.
  induction parts as [|part parts IH]; intros i r [|pl beds] g g' H; cbn [planes_loop] in H; try (injection H as <-; reflexivity).
  destruct (bed_cmds i pl r) as [cmds r']. binds. rewrite (IH _ _ _ _ _ H). cbn. apply adds_sett.
Qed.
Lemma default_sett f U s : forall fp ff r m ls g g', default_loop f U s fp ff r m ls g = Ok g' -> g_sett g' = g_sett g.
Proof.
  induction f as [|f IH]; intros fp ff r m ls g g' H; cbn [default_loop] in H; [discriminate|]. binds;
    try (injection H as <-; reflexivity); rewrite (IH _ _ _ _ _ _ _ H); reflexivity.
Qed.
Lemma profile_sett U s pts : forall up g g', profile_loop U s up pts g = Ok g' -> g_sett g' = g_sett g.
Proof.
  induction pts as [|a pts IH]; intros up g g' H; [injection H as <-; reflexivity|]. destruct pts as [|b r]; [injection H as <-; reflexivity|].
  change (profile_loop U s up (a :: b :: r) g) with
    (let v := vectorTo a b in
      '(up, down) <- match r with [] => Ok (up, up) | _ => cutMesh (u_ends U) up (Pl b axisZ) end ;;
      let az := (angle (projectOnPlane v planeXY) axisX + nofZ 90)%num in
      let ax := angle v axisZ in
      let down := m_rotate (m_rotate down (rotationAroundZ az) originPoint) (rotationAroundX ax) originPoint in
      ls <- sliceByVector U down axisZ s ;;
      profile_loop U s up (b :: r) (g_addLayers (g_add g (RotateXZ ax az)) ls)) in H. cbv zeta in H.
  destruct (match r with [] => Ok (up, up) | _ => cutMesh (u_ends U) up (Pl b axisZ) end) as [[u d]| |]; cbn [rbind] in H; try discriminate H.
  match goal with H : rbind ?x _ = Ok _ |- _ => destruct x; cbn [rbind] in H; try discriminate H end.
  rewrite (IH _ _ _ H); reflexivity.
Qed.
Lemma five_sett f U by_ s : forall r sm m ls ta g g', five_loop f U by_ s r sm m ls ta g = Ok g' -> g_sett g' = g_sett g.
Proof.
  induction f as [|f IH]; intros r sm m ls ta g g' H; cbn [five_loop] in H; [discriminate|].
  destruct (first_fail calculateFails 1 ls) as [[[i np]|]| |]; cbn [rbind] in H; try discriminate H.
  - binds; rewrite (IH _ _ _ _ _ _ _ H); reflexivity.
  - injection H as <-. now destruct (length ls <=? 1)%nat.
Qed.
Lemma vip_sett f U parse pf m s g : Vip.slice f U parse pf m s = Ok g -> g_sett g = s_g s.
Proof.
  unfold Vip.slice. intros H. destruct (readPlanes parse pf) as [[|p ps]| |]; cbn [rbind] in H; try discriminate H.
  2:{ unfold sliceByPlanes in H. destruct (calcFillPlanes m s) as [fp ff]. binds. exact (planes_sett _ _ _ _ _ _ _ _ _ _ H). }
  assert (D : forall ls, sliceDefault2 f U m s ls = Ok g -> g_sett g = s_g s).
  { intros ls Hd. unfold sliceDefault2 in Hd. destruct (calcFillPlanes m s) as [fp ff]. exact (default_sett _ _ _ _ _ _ _ _ _ _ Hd). }
  assert (B : forall ls, sliceBridge U m s ls = Ok g -> g_sett g = s_g s).
  { intros ls Hb. unfold sliceBridge in Hb. binds; try (injection Hb as <-; reflexivity). }
  assert (Ro : forall ls, sliceRotation U m s ls = Ok g -> g_sett g = s_g s).
  { intros ls Hb. unfold sliceRotation in Hb. binds; try (injection Hb as <-; reflexivity). }
  binds; eauto.
Qed.
Lemma slicing_sett X f g : slicing X f = Ok g -> g_sett g = s_g (settingsOf (ex_now X) f).
Proof.
  unfold slicing. intros H.
  destruct (String.eqb (fl_slicingType f) "3axes").
  { unfold sliceByVectorToGcode in H. binds. injection H as <-. reflexivity. }
  destruct (String.eqb (fl_slicingType f) "5axes_by_profile").
  { unfold sliceByProfile in H. binds. exact (profile_sett _ _ _ _ _ _ H). }
  destruct (String.eqb (fl_slicingType f) "5axes").
  { unfold slice5Axes in H. binds. exact (five_sett _ _ _ _ _ _ _ _ _ _ _ H). }
  destruct (String.eqb (fl_slicingType f) "vip"); [exact (vip_sett _ _ _ _ _ _ _ H)|discriminate H].
Qed.

(** which slicers only print layers and write G62 *)
Lemma profile_only U s pts : forall up g g', profile_loop U s up pts g = Ok g' -> Forall only_layers (g_cmds g) -> Forall only_layers (g_cmds g').
Proof.
  induction pts as [|a pts IH]; intros up g g' H; [injection H as <-; trivial|]. destruct pts as [|b r]; [injection H as <-; trivial|].
  change (profile_loop U s up (a :: b :: r) g) with
    (let v := vectorTo a b in
      '(up, down) <- match r with [] => Ok (up, up) | _ => cutMesh (u_ends U) up (Pl b axisZ) end ;;
      let az := (angle (projectOnPlane v planeXY) axisX + nofZ 90)%num in
      let ax := angle v axisZ in
      let down := m_rotate (m_rotate down (rotationAroundZ az) originPoint) (rotationAroundX ax) originPoint in
      ls <- sliceByVector U down axisZ s ;;
      profile_loop U s up (b :: r) (g_addLayers (g_add g (RotateXZ ax az)) ls)) in H. cbv zeta in H.
  destruct (match r with [] => Ok (up, up) | _ => cutMesh (u_ends U) up (Pl b axisZ) end) as [[u d]| |]; cbn [rbind] in H; try discriminate H.
  match goal with H : rbind ?x _ = Ok _ |- _ => destruct x; cbn [rbind] in H; try discriminate H end.
  intros F. apply (IH _ _ _ H). cbn. rewrite <- app_assoc. apply Forall_app. split; [exact F|]. repeat constructor.
Qed.
Lemma five_only f U by_ s : forall r sm m ls ta g g', five_loop f U by_ s r sm m ls ta g = Ok g' ->
  Forall only_layers (g_cmds g) -> Forall only_layers (g_cmds g').
Proof.
  induction f as [|f IH]; intros r sm m ls ta g g' H F; cbn [five_loop] in H; [discriminate|].
  destruct (first_fail calculateFails 1 ls) as [[[i np]|]| |]; cbn [rbind] in H; try discriminate H.
  - binds; apply (IH _ _ _ _ _ _ _ H); cbn; rewrite <- !app_assoc; apply Forall_app; (split; [exact F|]); repeat constructor.
  - injection H as <-. destruct (length ls <=? 1)%nat; [exact F|]. cbn. apply Forall_app. split; [exact F|]. repeat constructor.
Qed.
Lemma slicing_only X f g : slicing X f = Ok g -> fl_slicingType f <> "vip" -> Forall only_layers (g_cmds g).
Proof.
  unfold slicing. intros H N.
  destruct (String.eqb (fl_slicingType f) "3axes").
  { unfold sliceByVectorToGcode in H. binds. injection H as <-. repeat constructor. }
  destruct (String.eqb (fl_slicingType f) "5axes_by_profile").
  { unfold sliceByProfile in H. binds. apply (profile_only _ _ _ _ _ _ H). constructor. }
  destruct (String.eqb (fl_slicingType f) "5axes").
  { unfold slice5Axes in H. binds. apply (five_only _ _ _ _ _ _ _ _ _ _ _ H). constructor. }
  destruct (String.eqb_spec (fl_slicingType f) "vip"); [contradiction|discriminate H].
Qed.

(** what cmd/goosli finds outside is as it should be *)
Definition good_outside (X : outside) : Prop :=
  is_order (ex_order1 X) /\ is_order (ex_order2 X) /\ one_line (ex_now X) /\
  ex_header X = Some header_template /\ ex_footer X = Some footer_template.

(** the fan and the feedrate that the flags ask for *)
Definition fan_flag (f : flags) (e : event) : Prop :=
  is_print (ev_instr e) = true ->
  exists k, c_layer (ev_at e) = Some k /\ m_fan (ev_after e) = (if (k =? 0)%N then negb (fl_fanOffLayer1 f) else true).
Definition speed_flag (f : flags) (e : event) : Prop :=
  is_print (ev_instr e) = true ->
  exists k, c_layer (ev_at e) = Some k /\
    m_f (ev_after e) = VFin (1000 * (60 *
      (if (k =? 0)%N then fl_printSpeedLayer1 f
       else if c_sect (ev_at e) =? "FILL_PATHES" then fl_printSpeed f
       else fl_printSpeedWall f))).

Lemma goosli_inv X f out : good_outside X -> goosli X f = Ok out ->
  exists g t hl fl is s', slicing X f = Ok g /\ toOutput g = Ok t /\ out = hl ++ t ++ fl /\
    i_cmds (g_sett g) newState (g_cmds g) = Ok (s', is) /\
    read_gcode t = Some is /\
    read_file out = Some (somes (header_instrs (fl_bedTemperature f) (fl_extruderTemperature f) (fl_printSpeed f * 60)) ++
                          no_comments is ++ somes (footer_instrs (fl_printSpeed f * 60)))%list /\
    Forall body_cmd is.
Proof.
  intros (P1 & P2 & [D1 D2] & Hh & Hf) H. unfold goosli in H. destruct (slicing X f) as [g| |] eqn:Es; cbn [rbind] in H; try discriminate H.
  rewrite Hh, Hf in H.
  destruct (toOutput g) as [t| |] eqn:E.
  2,3: unfold commandsWithTemplates in H; cbn [prepareDataFile rbind] in H; rewrite E in H; discriminate H.
  destruct (file_lines (ex_order1 X) (ex_order2 X) g (settingsOf (ex_now X) f) t P1 P2 D1 D2 E)
    as (hl & bl & fl & bs & C & Eh & Et & Ef & Lh & Lb & Lf & s' & is & I & R & Sb & B).
  rewrite C in H. injection H as <-.
  exists g, t, (String.concat "" hl), (String.concat "" fl), is, s'.
  split; [reflexivity|]. split; [exact E|]. split; [now rewrite !concat_app, Et|]. split; [exact I|]. split; [exact R|]. split; [|auto].
  assert (S : forall a b, somes (a ++ b) = (somes a ++ @somes instr b)%list).
  { induction a as [|[x|] a IH]; intros b; cbn [somes List.app]; [reflexivity| |]; now rewrite IH. }
  rewrite <- Sb, <- !S. apply lines2_concat. apply Forall2_app; [exact Lh|]. apply Forall2_app; [exact Lb|exact Lf].
Qed.

Theorem C77_command : forall X f out, good_outside X -> goosli X f = Ok out ->
  exists head t foot hs is fs,
    out = head ++ t ++ foot /\ read_gcode t = Some is /\
    read_file out = Some (hs ++ no_comments is ++ fs)%list /\
    forall p, let q := prun p hs in let r := prun q (no_comments is) in
      ready (fl_bedTemperature f) (fl_extruderTemperature f) (60 * fl_printSpeed f) p q /\
      r = set_m q (run (p_m q) is) /\
      stopped r (prun r fs) /\
      Forall (fan_flag f) (events ctx0 (p_m q) is) /\
      (fl_retraction f = true -> Forall (at_speed (fl_retractionSpeed f)) (events ctx0 (p_m q) is)) /\
      (fl_retraction f = false -> fl_slicingType f <> "vip" -> fl_printSpeedLayer1 f <> 0%Z ->
         Forall (speed_flag f) (events ctx0 (p_m q) is)).
Proof.
  intros X f out G H. destruct (goosli_inv X f out G H) as (g & t & hl & fl & is & s' & Es & E & -> & I & R & F & B).
  exists hl, t, fl, (somes (header_instrs (fl_bedTemperature f) (fl_extruderTemperature f) (fl_printSpeed f * 60))), is,
    (somes (footer_instrs (fl_printSpeed f * 60))).
  split; [reflexivity|]. split; [exact R|]. split; [exact F|]. intros p q r.
  pose proof (header_runs (fl_bedTemperature f) (fl_extruderTemperature f) (fl_printSpeed f * 60) p) as Rd. fold q in Rd.
  split; [now rewrite Z.mul_comm|]. destruct Rd as [h1 h2 h3 h4 h5 h6 [h7 h8] _ _ _].
  split; [exact (prun_body is B q h7 h8)|]. split; [apply footer_runs|].
  pose proof (slicing_sett X f g Es) as Sg.
  split; [|split].
  - eapply Forall_impl; [|exact (fan_thm _ _ s' is (p_m q) ctx0 I h1)]. intros e [K _] Pr.
    destruct (K Pr) as (k & K1 & K2). exists k. split; [exact K1|]. rewrite K2, Sg. reflexivity.
  - intros Hr. destruct (C04_retraction_speed g t (p_m q) E) as (is' & R' & K); [now rewrite Sg|]. rewrite R in R'. injection R' as <-.
    rewrite Sg in K. exact K.
  - intros Hr Nv N0. destruct (C03_print_speed g t (p_m q) E) as (is' & R' & K); [now rewrite Sg|exact (slicing_only X f g Es Nv)| |].
    + right. rewrite Sg. cbn. lia.
    + rewrite R in R'. injection R' as <-. eapply Forall_impl; [|exact K]. intros e Ke Pr. destruct (Ke Pr) as (k & K1 & K2).
      exists k. split; [exact K1|]. rewrite K2, Sg. cbn [settingsOf s_g PrintSpeed PrintSpeedLayer1 PrintSpeedWall].
      f_equal. f_equal. destruct (k =? 0)%N; [lia|]. destruct (c_sect (ev_at e) =? "FILL_PATHES"); lia.
Qed.

(** ** C78 The three-axis mode *)
Theorem C78_bed_still : forall X f out, good_outside X -> fl_slicingType f = "3axes" -> goosli X f = Ok out ->
  exists is, read_file out = Some is /\
    (forall ws, ~ In (Instr ("G"%char, VFin 62000) ws) is) /\
    forall p tool, tool <> 0%Z -> m_disp (p_m (prun p is)) tool = m_disp (p_m p) tool.
Proof.
  intros X f out G T3 H. destruct (goosli_inv X f out G H) as (g & t & hl & fl & is & s' & Es & E & -> & I & R & F & B).
  assert (L : Forall layer_cmd is).
  { unfold slicing in Es. rewrite T3 in Es. cbn [String.eqb Ascii.eqb Bool.eqb] in Es. unfold sliceByVectorToGcode in Es. binds. injection Es as <-.
    cbn [g_addLayers g_add newGcode g_cmds g_sett List.app i_cmds i_cmd] in I.
    match type of I with rbind ?x _ = _ => destruct x as [[s1 o1]| |] eqn:El; cbn [rbind] in I; try discriminate I end.
    injection I as <- <-. rewrite app_nil_r. exact (layers_body _ _ _ _ _ El). }
  eexists. split; [exact F|]. split.
  - intros ws Hin. apply in_app_or in Hin. destruct Hin as [Hin|Hin]; [|apply in_app_or in Hin; destruct Hin as [Hin|Hin]].
    + cbn [header_instrs somes In] in Hin. repeat (destruct Hin as [Hin|Hin]; [discriminate Hin|]). exact Hin.
    + unfold no_comments in Hin. apply filter_In in Hin. destruct Hin as [Hin _]. rewrite Forall_forall in L. apply L in Hin.
      destruct Hin as (n & [[Hn Q]|[_ Q]]); [|discriminate Q]. injection Q as Q. destruct Hn as [<-|[<-|[<-|[]]]]; discriminate Q.
    + cbn [footer_instrs somes In] in Hin. repeat (destruct Hin as [Hin|Hin]; [discriminate Hin|]). exact Hin.
  - intros p tool Ht. unfold prun. rewrite !fold_left_app.
    match goal with |- context [fold_left pexec (somes (header_instrs ?a ?b ?c)) p] =>
      fold (prun p (somes (header_instrs a b c))); pose proof (header_runs a b c p) as Rd; set (q := prun p (somes (header_instrs a b c))) in * end.
    destruct Rd as [h1 h2 h3 h4 h5 h6 [h7 h8] _ _ h9].
    fold (prun q (no_comments is)). rewrite (prun_body is B q h7 h8).
    match goal with |- context [fold_left pexec (somes (footer_instrs ?a)) ?r] =>
      fold (prun r (somes (footer_instrs a))); pose proof (footer_runs a r) as Sd end.
    destruct Sd as [_ _ _ _ _ _ _ _ f9 _]. cbn [p_m set_m] in f9.
    destruct (layer_run is L (p_m q)) as [L1 L2].
    rewrite f9 by congruence. rewrite L2 by congruence. now apply h9.
Qed.
End Command.

(** ** Cases: a whole run, with the map in two different orders *)
Section Examples.
Let AF := ArithF64 elem0.
Local Existing Instance AF.
Definition ex_flags (ty : string) (retr : bool) : @flags AF :=
  Flags (V3 n0 n0 n0) (P3 n0 n0 n0) n1 (nlit 3 10) (nlit 8 10) 20 3 3 60 200 50 25 40 true (nlit 4 10) "Lines" retr 30 n1
    "planes" ty (nofZ 30) (V3 n0 n0 n1) false n1 (nlit 175 100) n1 3.
Definition ex_outside : @outside AF :=
  Outside tetraF None (Some header_template) (Some footer_template) "02 Jan 06 15:04 MST" (@rev _) (fun m => m) env0
    (fun _ => n0) (fun _ ts => ts) (fun _ _ => Panic) 10.
Definition prints (is : list instr) : nat := length (filter is_print is).

Example ex_good : good_outside ex_outside.
Proof.
  split; [intros m; apply Permutation_rev|]. split; [intros m; apply Permutation_refl|]. split; [split; reflexivity|]. split; reflexivity.
Qed.
Lemma goosli_check X f (k : nat) :
  match goosli (A := AF) X f with
  | Ok out => match read_file out with Some is => (k <=? prints is)%nat | None => false end
  | _ => false
  end = true -> exists out is, goosli X f = Ok out /\ read_file out = Some is /\ k <= prints is.
Proof.
  destruct (goosli X f) as [out| |]; try discriminate. destruct (read_file out) as [is|] eqn:R; [|discriminate]. intros H.
  exists out, is. split; [reflexivity|]. split; [exact R|]. now apply PeanoNat.Nat.leb_le.
Qed.
Example ex_goosli : exists out is, goosli ex_outside (ex_flags "3axes" false) = Ok out /\ read_file out = Some is /\ 12 <= prints is.
Proof. apply goosli_check. vm_compute. reflexivity. Qed.
Example ex_goosli_retraction : exists out is, goosli ex_outside (ex_flags "3axes" true) = Ok out /\ read_file out = Some is /\ 12 <= prints is.
Proof. apply goosli_check. vm_compute. reflexivity. Qed.
(** hypotheses of C75 and C76 *)
Example ex_file : one_line "02 Jan 06 15:04 MST" /\ is_order (@rev _) /\ (exists t, toOutput ex_plain = Ok t) /\ 2 <= layerCount ex_plain.
Proof.
  split; [split; reflexivity|]. split; [intros m; apply Permutation_rev|]. split; [|vm_compute; lia].
  destruct ex_plain_ok as (t & H & _). exists t. exact H.
Qed.
End Examples.

Print Assumptions C57_templates.
Print Assumptions C57_nested_refuted.
Print Assumptions C75_whole_file.
Print Assumptions C75_header_text.
Print Assumptions C76_fan_left_on.
Print Assumptions C77_command.
Print Assumptions C78_bed_still.
