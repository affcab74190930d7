(** * Proofs about the instruction sequence *)
From Coq Require Import ZArith NArith String Ascii List Bool Lia.
From Verif Require Import Arith Prim Gcode GcodeSpec GcodeInstr GcodeClaims GcodeText.
Import ListNotations.

(** ** Traces *)

Lemma run_app m a b : run m (a ++ b) = run (run m a) b.
Proof. apply fold_left_app. Qed.

Definition see_all (c : ctx) (is : list instr) : ctx := fold_left see is c.

Lemma see_all_app c a b : see_all c (a ++ b) = see_all (see_all c a) b.
Proof. apply fold_left_app. Qed.

Lemma events_app c m a b :
  events c m (a ++ b) = (events c m a ++ events (see_all c a) (run m a) b)%list.
Proof.
  revert c m. induction a as [|i a IH]; intros c m; [reflexivity|].
  cbn. now rewrite IH.
Qed.

Lemma markers_app a b : markers (a ++ b) = (markers a ++ markers b)%list.
Proof. induction a as [|i a IH]; [reflexivity|]. cbn. rewrite IH. now destruct (layer_marker i). Qed.

Lemma Ok_inj {S O} (a c : S) (b d : O) : Ok (a, b) = Ok (c, d) -> a = c /\ b = d.
Proof. intros H. injection H. auto. Qed.

Section Proofs.
Context {A : Arith}.

(** ** Frame of the state *)

Record same_frame (s s' : gstate) : Prop := SF {
  sf_fan : fan s' = fan s;
  sf_li : layerIndex s' = layerIndex s;
  sf_fr : feedrate s' = feedrate s;
  sf_w : isWall s' = isWall s;
  sf_t1 : st_t1 s' = st_t1 s;
  sf_t2 : st_t2 s' = st_t2 s }.

Lemma same_frame_refl s : same_frame s s. Proof. now constructor. Qed.
Lemma same_frame_trans a b c : same_frame a b -> same_frame b c -> same_frame a c.
Proof. intros [] []. constructor; congruence. Qed.

Lemma s_path_frame sett s p0 p : same_frame s (s_path sett s p0 p).
Proof. now constructor. Qed.

Lemma i_paths_frame sett ps : forall s s' is,
  i_paths sett s ps = Ok (s', is) -> same_frame s s'.
Proof.
  induction ps as [|[|p0 p] r IH]; intros s s' is; cbn [i_paths].
  - intros H0; apply Ok_inj in H0; destruct H0 as [<- <-]. apply same_frame_refl.
  - discriminate.
  - destruct (i_paths sett (s_path sett s p0 p) r) as [[s2 is2]| |] eqn:E; cbn; try discriminate.
    intros H0; apply Ok_inj in H0; destruct H0 as [<- <-]. eapply same_frame_trans; [apply s_path_frame|]. eauto.
Qed.

Lemma s_speed_feedrate sett s :
  feedrate (s_speed sett s) = speed_for sett (layerIndex s) (isWall s).
Proof.
  unfold s_speed. destruct (Z.eqb_spec (speed_for sett (layerIndex s) (isWall s)) (feedrate s)); cbn; auto.
Qed.

Record group_frame (sett : gsett) (s s' : gstate) : Prop := GF {
  gf_fan : fan s' = fan s;
  gf_li : layerIndex s' = layerIndex s;
  gf_fr : feedrate s' = speed_for sett (layerIndex s) (isWall s);
  gf_w : isWall s' = isWall s;
  gf_t1 : st_t1 s' = st_t1 s;
  gf_t2 : st_t2 s' = st_t2 s }.

Lemma i_group_inv c sett s ps s' is :
  i_group c sett s ps = Ok (s', is) ->
  exists is', i_paths sett (s_speed sett s) ps = Ok (s', is') /\
              is = Comment c :: (i_speed sett s ++ is')%list.
Proof.
  unfold i_group. destruct (i_paths sett (s_speed sett s) ps) as [[s2 is2]| |]; cbn; try discriminate.
  intros H0; apply Ok_inj in H0; destruct H0 as [<- <-]. eauto.
Qed.

Lemma i_group_frame c sett s ps s' is :
  i_group c sett s ps = Ok (s', is) -> group_frame sett s s'.
Proof.
  intros H. apply i_group_inv in H. destruct H as (is' & H & _).
  apply i_paths_frame in H. destruct H as [H1 H2 H3 H4 H5 H6].
  rewrite s_speed_feedrate in H3.
  assert (same : forall T (f : gstate -> T), (forall n, f (set_feedrate s n) = f s) -> f (s_speed sett s) = f s).
  { intros T f Hf. unfold s_speed. destruct (_ =? _)%Z; auto. }
  constructor; [rewrite H1|rewrite H2|assumption|rewrite H4|rewrite H5|rewrite H6]; apply same; reflexivity.
Qed.

Lemma i_layer_inv sett s l s' is :
  i_layer sett s l = Ok (s', is) ->
  exists s3 o3 s4 o4 s5 o5 s7 o7,
    let s2 := set_isWall (set_fan s (fan_for sett (layerIndex s))) true in
    i_group "OUTER_PATHES" sett s2 (l_paths l) = Ok (s3, o3) /\
    i_group "MIDDLE_PATHES" sett s3 (l_middle l) = Ok (s4, o4) /\
    i_group "INNER_PATHES" sett s4 (oslice (l_inner l)) = Ok (s5, o5) /\
    i_group "FILL_PATHES" sett (set_isWall s5 false) (l_fill l) = Ok (s7, o7) /\
    s' = set_layerIndex (s_reset s7) (layerIndex (s_reset s7) + 1) /\
    is = Comment ("LAYER:" ++ itoa (layerIndex s)) ::
         (i_fan sett s ++ o3 ++ o4 ++ o5 ++ o7 ++ i_reset s7)%list.
Proof.
  unfold i_layer.
  set (s2 := set_isWall _ _).
  destruct (i_group "OUTER_PATHES" sett s2 (l_paths l)) as [[s3 o3]| |] eqn:E3; cbn [rbind]; try discriminate.
  destruct (i_group "MIDDLE_PATHES" sett s3 (l_middle l)) as [[s4 o4]| |] eqn:E4; cbn [rbind]; try discriminate.
  destruct (i_group "INNER_PATHES" sett s4 (oslice (l_inner l))) as [[s5 o5]| |] eqn:E5; cbn [rbind]; try discriminate.
  destruct (i_group "FILL_PATHES" sett (set_isWall s5 false) (l_fill l)) as [[s7 o7]| |] eqn:E7; cbn [rbind]; try discriminate.
  intros H0; apply Ok_inj in H0; destruct H0 as [<- <-]. exists s3, o3, s4, o4, s5, o5, s7, o7. cbv zeta. auto 10.
Qed.

Lemma s_reset_li s : layerIndex (s_reset s) = layerIndex s.
Proof. unfold s_reset. now destruct (nofZ 4000 <? eOff s)%num. Qed.
Lemma s_reset_frame s : same_frame s (s_reset s).
Proof. unfold s_reset. destruct (nofZ 4000 <? eOff s)%num; constructor; reflexivity. Qed.

Record layer_frame (sett : gsett) (s s' : gstate) : Prop := LF {
  lf_fan : fan s' = fan_for sett (layerIndex s);
  lf_li : layerIndex s' = (layerIndex s + 1)%Z;
  lf_fr : feedrate s' = speed_for sett (layerIndex s) false;
  lf_t1 : st_t1 s' = st_t1 s;
  lf_t2 : st_t2 s' = st_t2 s }.

Lemma i_layer_frame sett s l s' is :
  i_layer sett s l = Ok (s', is) -> layer_frame sett s s'.
Proof.
  intros H. apply i_layer_inv in H.
  destruct H as (s3 & o3 & s4 & o4 & s5 & o5 & s7 & o7 & G3 & G4 & G5 & G7 & -> & _).
  apply i_group_frame in G3, G4, G5, G7. destruct G3, G4, G5, G7.
  destruct (s_reset_frame s7). cbn in *.
  constructor; cbn; try congruence.
Qed.

Lemma i_layers_cons_inv sett s l r s' is :
  i_layers sett s (l :: r) = Ok (s', is) ->
  exists s1 o1 o2, i_layer sett s l = Ok (s1, o1) /\ i_layers sett s1 r = Ok (s', o2) /\ is = (o1 ++ o2)%list.
Proof.
  cbn [i_layers]. destruct (i_layer sett s l) as [[s1 o1]| |] eqn:E1; cbn [rbind]; try discriminate.
  destruct (i_layers sett s1 r) as [[s2 o2]| |] eqn:E2; cbn [rbind]; try discriminate.
  intros H0; apply Ok_inj in H0; destruct H0 as [<- <-]. exists s1, o1, o2. auto.
Qed.

Lemma i_cmds_cons_inv sett s c r s' is :
  i_cmds sett s (c :: r) = Ok (s', is) ->
  exists s1 o1 o2, i_cmd c s sett = Ok (s1, o1) /\ i_cmds sett s1 r = Ok (s', o2) /\ is = (o1 ++ o2)%list.
Proof.
  cbn [i_cmds]. destruct (i_cmd c s sett) as [[s1 o1]| |] eqn:E1; cbn [rbind]; try discriminate.
  destruct (i_cmds sett s1 r) as [[s2 o2]| |] eqn:E2; cbn [rbind]; try discriminate.
  intros H0; apply Ok_inj in H0; destruct H0 as [<- <-]. exists s1, o1, o2. auto.
Qed.

Lemma i_cmds_app_inv sett cs1 : forall s cs2 s' is,
  i_cmds sett s (cs1 ++ cs2) = Ok (s', is) ->
  exists s1 o1 o2, i_cmds sett s cs1 = Ok (s1, o1) /\ i_cmds sett s1 cs2 = Ok (s', o2) /\ is = (o1 ++ o2)%list.
Proof.
  induction cs1 as [|c r IH]; intros s cs2 s' is H.
  - exists s, [], is. auto.
  - cbn [List.app] in H. apply i_cmds_cons_inv in H. destruct H as (s1 & o1 & o2 & H1 & H2 & ->).
    apply IH in H2. destruct H2 as (s2 & o3 & o4 & H3 & H4 & ->).
    exists s2, (o1 ++ o3)%list, o4. cbn [i_cmds]. rewrite H1. cbn [rbind]. rewrite H3. cbn [rbind].
    split; [reflexivity|]. split; [assumption|]. now rewrite app_assoc.
Qed.

(** ** Shape of the moves of a path *)

Inductive path_instr (sett : gsett) : instr -> Prop :=
| pi_up v : path_instr sett (G 0 [("Z"%char, v)])
| pi_to x y z : path_instr sett (G 0 [("X"%char, x); ("Y"%char, y); ("Z"%char, z)])
| pi_retract : Retraction sett = true ->
    path_instr sett (G 1 [("F"%char, VZ (RetractionSpeed sett)); ("E"%char, V (- RetractionDistance sett)%num)])
| pi_print a b e : path_instr sett (G 1 (axis_words a b ++ [("E"%char, V e)])%list).

Lemma i_segs_shape sett p : forall e, Forall (path_instr sett) (i_segs sett e p).
Proof.
  induction p as [|p1 [|p2 r] IH]; intros e; try constructor.
  - apply pi_print.
  - apply IH.
Qed.

Lemma i_path_shape sett s p0 p : Forall (path_instr sett) (i_path sett s p0 p).
Proof.
  unfold i_path. constructor; [apply pi_up|]. apply Forall_app. split.
  - unfold i_retract. destruct (Retraction sett) eqn:R; constructor; [|constructor]. now apply pi_retract.
  - constructor; [apply pi_to|]. constructor; [apply pi_up|]. apply i_segs_shape.
Qed.

Lemma i_paths_shape sett ps : forall s s' is,
  i_paths sett s ps = Ok (s', is) -> Forall (path_instr sett) is.
Proof.
  induction ps as [|[|p0 p] r IH]; intros s s' is; cbn [i_paths].
  - intros H0; apply Ok_inj in H0; destruct H0 as [<- <-]. constructor.
  - discriminate.
  - destruct (i_paths sett (s_path sett s p0 p) r) as [[s2 is2]| |] eqn:E; cbn [rbind]; try discriminate.
    intros H0; apply Ok_inj in H0; destruct H0 as [<- <-]. apply Forall_app. split; [apply i_path_shape|eauto].
Qed.

Lemma arg_axis_skip a b l ws :
  l <> "X"%char -> l <> "Y"%char -> l <> "Z"%char ->
  arg l (axis_words a b ++ ws)%list = arg l ws.
Proof.
  intros HX HY HZ. unfold axis_words, arg.
  apply not_eq_sym, Ascii.eqb_neq in HX, HY, HZ.
  destruct (_ <=? nabs (px a - px b))%num, (_ <=? nabs (py a - py b))%num, (_ <=? nabs (pz a - pz b))%num;
    cbn [List.app find fst]; rewrite ?HX, ?HY, ?HZ; reflexivity.
Qed.

Lemma path_instr_see sett i c : path_instr sett i -> see c i = c.
Proof. destruct 1; reflexivity. Qed.

Lemma path_instr_exec sett i m : path_instr sett i ->
  m_fan (exec m i) = m_fan m /\ m_tool (exec m i) = m_tool m.
Proof. destruct 1; cbn; auto. Qed.

Lemma path_instr_markers sett is : Forall (path_instr sett) is -> markers is = [].
Proof. induction 1 as [|i r H _ IH]; [reflexivity|]. destruct H; cbn; exact IH. Qed.

Lemma path_instrs_see sett is c : Forall (path_instr sett) is -> see_all c is = c.
Proof. induction 1 as [|i r H _ IH]; [reflexivity|]. cbn. now rewrite (path_instr_see _ _ _ H). Qed.

Lemma path_instrs_run sett is : forall m, Forall (path_instr sett) is ->
  m_fan (run m is) = m_fan m /\ m_tool (run m is) = m_tool m.
Proof.
  induction is as [|i r IH]; intros m H; [auto|]. apply Forall_cons_iff in H. destruct H as [H1 H2].
  cbn. destruct (path_instr_exec _ _ m H1) as [<- <-]. now apply IH.
Qed.

(** A statement about (place, instruction, machine) true of every instruction
    of a list of path moves, from an invariant of the machine. *)
Lemma path_instrs_trace sett (I : mach -> Prop) (P : event -> Prop) c :
  (forall m i, I m -> path_instr sett i -> I (exec m i) /\ P (Event c m i (exec m i))) ->
  forall is m, I m -> Forall (path_instr sett) is -> Forall P (events c m is) /\ I (run m is).
Proof.
  intros H. induction is as [|i r IH]; intros m Hm Hs; [split; [constructor|assumption]|].
  apply Forall_cons_iff in Hs. destruct Hs as [H1 H2]. cbn.
  rewrite (path_instr_see _ _ _ H1). destruct (H m i Hm H1) as [H3 H4].
  destruct (IH _ H3 H2). split; [constructor; assumption|assumption].
Qed.

(** ** C01 *)

Lemma marker_LAYER k : (0 <= k)%Z ->
  layer_marker (Comment ("LAYER:" ++ itoa k)) = Some (Z.to_N k).
Proof.
  intros Hk. rewrite itoa_shape. destruct (Z.ltb_spec k 0); [lia|].
  replace (Z.to_N k) with (Z.abs_N k) by lia.
  unfold layer_marker. cbn [append].
  set (d := dec_of_N (Z.abs_N k)).
  assert (P : String.prefix "LAYER:" (String "L" (String "A" (String "Y" (String "E" (String "R" (String ":" d)))))) = true)
    by (destruct d; reflexivity).
  rewrite P.
  assert (S : String.substring 6 (String.length (String "L" (String "A" (String "Y" (String "E" (String "R" (String ":" d)))))) - 6)
      (String "L" (String "A" (String "Y" (String "E" (String "R" (String ":" d)))))) = d).
  { cbn [String.length substring].
    replace (S (S (S (S (S (S (String.length d)))))) - 6)%nat with (String.length d) by lia.
    clearbody d. clear. induction d; cbn; congruence. }
  rewrite S. apply digits_dec_of_N.
Qed.

Lemma markers_speed sett s : markers (i_speed sett s) = [].
Proof. unfold i_speed. now destruct (_ =? _)%Z. Qed.
Lemma markers_fan sett s : markers (i_fan sett s) = [].
Proof. unfold i_fan. now destruct (Bool.eqb _ _). Qed.
Lemma markers_reset s : markers (i_reset s) = [].
Proof. unfold i_reset. now destruct (_ <? _)%num. Qed.

Lemma markers_group c sett s ps s' is :
  layer_marker (Comment c) = None ->
  i_group c sett s ps = Ok (s', is) -> markers is = [].
Proof.
  intros C H. apply i_group_inv in H. destruct H as (is' & H & ->).
  cbn [markers]. rewrite C, markers_app, markers_speed.
  now rewrite (path_instr_markers _ _ (i_paths_shape _ _ _ _ _ H)).
Qed.

Lemma markers_layer sett s l s' is :
  (0 <= layerIndex s)%Z ->
  i_layer sett s l = Ok (s', is) -> markers is = [Z.to_N (layerIndex s)].
Proof.
  intros Hk H. apply i_layer_inv in H.
  destruct H as (s3 & o3 & s4 & o4 & s5 & o5 & s7 & o7 & G3 & G4 & G5 & G7 & -> & ->).
  cbn [markers]. rewrite marker_LAYER by assumption. f_equal.
  rewrite !markers_app, markers_fan, markers_reset.
  apply markers_group in G3, G4, G5, G7; [|reflexivity..]. now rewrite G3, G4, G5, G7.
Qed.

Lemma markers_layers sett ls : forall s s' is (k : nat),
  layerIndex s = Z.of_nat k ->
  i_layers sett s ls = Ok (s', is) ->
  markers is = map N.of_nat (seq k (length ls)) /\ layerIndex s' = Z.of_nat (k + length ls).
Proof.
  induction ls as [|l r IH]; intros s s' is k Hk H.
  - cbn in H. apply Ok_inj in H; destruct H as [<- <-]. split; [reflexivity|]. rewrite Hk. f_equal. cbn. lia.
  - apply i_layers_cons_inv in H. destruct H as (s1 & o1 & o2 & H1 & H2 & ->).
    rewrite markers_app. assert (P : (0 <= layerIndex s)%Z) by lia.
    rewrite (markers_layer _ _ _ _ _ P H1).
    apply i_layer_frame in H1. destruct H1 as [_ L _ _ _].
    destruct (IH s1 s' o2 (S k) ltac:(lia) H2) as [-> ->].
    split; [|f_equal; cbn; lia]. cbn. f_equal. lia.
Qed.


Lemma markers_cmds sett cs : forall s s' is (k : nat),
  layerIndex s = Z.of_nat k ->
  i_cmds sett s cs = Ok (s', is) ->
  markers is = map N.of_nat (seq k (length (flat_map cmd_layers cs))) /\
  layerIndex s' = Z.of_nat (k + length (flat_map cmd_layers cs)).
Proof.
  induction cs as [|c r IH]; intros s s' is k Hk H.
  - cbn in H. apply Ok_inj in H; destruct H as [<- <-]. split; [reflexivity|]. rewrite Hk. f_equal. cbn. lia.
  - apply i_cmds_cons_inv in H. destruct H as (s1 & o1 & o2 & H1 & H2 & ->).
    rewrite markers_app.
    assert (K : markers o1 = map N.of_nat (seq k (length (cmd_layers c))) /\
                layerIndex s1 = Z.of_nat (k + length (cmd_layers c))).
    { destruct c; cbn [i_cmd] in H1; try (apply Ok_inj in H1; destruct H1 as [<- <-]; split; [reflexivity|cbn; rewrite Hk; f_equal; lia]).
      eapply markers_layers; eauto. }
    destruct K as [-> K].
    destruct (IH s1 s' o2 _ K H2) as [-> ->].
    cbn [flat_map]. rewrite app_length, seq_app, map_app.
    split; [reflexivity|f_equal; lia].
Qed.

Lemma layerCount_layers g : layerCount g = length (flat_map cmd_layers (g_cmds g)).
Proof.
  unfold layerCount.
  enough (H : forall cs n, fold_left (fun c cmd => (c + layersCount cmd)%nat) cs n
                       = (n + length (flat_map cmd_layers cs))%nat) by apply H.
  induction cs as [|c r IH]; intros n; cbn; [lia|].
  rewrite IH, app_length. destruct c; cbn; lia.
Qed.

End Proofs.
