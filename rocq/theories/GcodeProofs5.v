(** * G-code: bed motions leave printing alone (C08), when ToOutput panics (C61) *)
From Coq Require Import ZArith NArith String Ascii List Bool Lia.
From Verif Require Import Arith Prim Gcode GcodeSpec GcodeInstr GcodeClaims GcodeText GcodeProofs GcodeInv TextOK GcodeProofs2 GcodeProofs3 GcodeProofs4.
Import ListNotations.

Section P5.
Context {A : Arith}.

Lemma out_reads g t : toOutput g = Ok t ->
  exists s' is, read_gcode t = Some is /\ i_cmds (g_sett g) newState (g_cmds g) = Ok (s', is).
Proof.
  intros E. pose proof (output_intended g) as O. rewrite E in O. unfold intended in O.
  destruct (i_cmds (g_sett g) newState (g_cmds g)) as [[s' is]| |]; cbn [rbind] in O; try contradiction.
  eauto.
Qed.

(** ** Two runs that agree on the E register print the same *)

Definition same_print (r r' : res (gstate * list instr)) : Prop :=
  match r, r' with
  | Ok (s, is), Ok (s', is') => eOff s = eOff s' /\ filter is_print is = filter is_print is'
  | Panic, Panic => True
  | Diverge, Diverge => True
  | _, _ => False
  end.

Lemma same_print_bind r r' f f' (out out' : list instr -> list instr -> list instr) :
  same_print r r' ->
  (forall s s', eOff s = eOff s' -> same_print (f s) (f' s')) ->
  (forall a b a' b', filter is_print a = filter is_print a' -> filter is_print b = filter is_print b' ->
    filter is_print (out a b) = filter is_print (out' a' b')) ->
  same_print ('(s, a) <- r ;; '(s2, b) <- f s ;; Ok (s2, out a b))
             ('(s, a) <- r' ;; '(s2, b) <- f' s ;; Ok (s2, out' a b)).
Proof.
  intros H Hf Ho. destruct r as [[s a]| |], r' as [[s' a']| |]; cbn in *; try contradiction; auto.
  destruct H as [He Ha]. specialize (Hf s s' He).
  destruct (f s) as [[s2 b]| |], (f' s') as [[s2' b']| |]; cbn in *; try contradiction; auto.
  destruct Hf as [Hf1 Hf2]. auto.
Qed.

Lemma paths_same sett ps : forall s t, eOff s = eOff t -> same_print (i_paths sett s ps) (i_paths sett t ps).
Proof.
  induction ps as [|[|p0 p] r IH]; intros s t He; cbn [i_paths]; try (cbn; auto; fail).
  assert (H : same_print (i_paths sett (s_path sett s p0 p) r) (i_paths sett (s_path sett t p0 p) r)).
  { apply IH. unfold s_path. cbn [eOff set_pos set_eOff]. now rewrite He. }
  destruct (i_paths sett (s_path sett s p0 p) r) as [[s2 is]| |],
           (i_paths sett (s_path sett t p0 p) r) as [[t2 is']| |]; cbn [rbind same_print] in *; auto.
  destruct H as [H1 H2]. split; [exact H1|]. rewrite !filter_app, H2. f_equal.
  unfold i_path. rewrite !filter_app, He. reflexivity.
Qed.

Lemma s_speed_eOff sett s : eOff (s_speed sett s) = eOff s.
Proof. unfold s_speed. destruct (_ =? _)%Z; reflexivity. Qed.

Lemma i_speed_prints sett s : filter is_print (i_speed sett s) = [].
Proof. unfold i_speed. destruct (_ =? _)%Z; reflexivity. Qed.

Lemma group_same c sett ps s t : eOff s = eOff t -> same_print (i_group c sett s ps) (i_group c sett t ps).
Proof.
  intros He. unfold i_group.
  assert (H : same_print (i_paths sett (s_speed sett s) ps) (i_paths sett (s_speed sett t) ps)).
  { apply paths_same. now rewrite !s_speed_eOff. }
  destruct (i_paths sett (s_speed sett s) ps) as [[s2 is]| |],
           (i_paths sett (s_speed sett t) ps) as [[t2 is']| |]; cbn [rbind same_print] in *; auto.
  destruct H as [H1 H2]. split; [exact H1|]. cbn [filter is_print].
  rewrite !filter_app, !i_speed_prints, H2. reflexivity.
Qed.

Lemma layer_same sett l s t : eOff s = eOff t -> same_print (i_layer sett s l) (i_layer sett t l).
Proof.
  intros He. unfold i_layer.
  match goal with |- same_print (rbind ?r _) (rbind ?r' _) => assert (H : same_print r r') by (now apply group_same);
    destruct r as [[s3 o3]| |], r' as [[t3 q3]| |]; cbn [rbind] in *; try contradiction; auto end.
  destruct H as [H1 H2].
  match goal with |- same_print (rbind ?r _) (rbind ?r' _) => assert (H : same_print r r') by (now apply group_same);
    destruct r as [[s4 o4]| |], r' as [[t4 q4]| |]; cbn [rbind] in *; try contradiction; auto end.
  destruct H as [H3 H4].
  match goal with |- same_print (rbind ?r _) (rbind ?r' _) => assert (H : same_print r r') by (now apply group_same);
    destruct r as [[s5 o5]| |], r' as [[t5 q5]| |]; cbn [rbind] in *; try contradiction; auto end.
  destruct H as [H5 H6].
  match goal with |- same_print (rbind ?r _) (rbind ?r' _) => assert (H : same_print r r') by (now apply group_same);
    destruct r as [[s7 o7]| |], r' as [[t7 q7]| |]; cbn [rbind] in *; try contradiction; auto end.
  destruct H as [H7 H8]. cbn [same_print]. split.
  - cbn [eOff set_layerIndex]. unfold s_reset. rewrite H7. destruct (_ <? _)%num; [reflexivity|exact H7].
  - cbn [filter is_print]. rewrite !filter_app, H2, H4, H6, H8.
    assert (F : forall u, filter is_print (i_fan sett u) = []).
    { intros u. unfold i_fan. destruct (Bool.eqb _ _), (fan_for sett (layerIndex u)); reflexivity. }
    rewrite !F. unfold i_reset. rewrite H7. reflexivity.
Qed.

Lemma layers_same sett ls : forall s t, eOff s = eOff t -> same_print (i_layers sett s ls) (i_layers sett t ls).
Proof.
  induction ls as [|l r IH]; intros s t He; cbn [i_layers]; [cbn; auto|].
  apply (same_print_bind _ _ (fun s => i_layers sett s r) (fun s => i_layers sett s r) (fun a b => a ++ b) (fun a b => a ++ b))%list.
  - now apply layer_same.
  - exact IH.
  - intros a b a' b' Ha Hb. now rewrite !filter_app, Ha, Hb.
Qed.

(** commands that print *)
Definition is_layers (c : command) : bool := match c with LayersMoving _ => true | _ => false end.

Lemma cmds_same sett cs : forall s t, eOff s = eOff t ->
  same_print (i_cmds sett s cs) (i_cmds sett t (filter is_layers cs)).
Proof.
  induction cs as [|c r IH]; intros s t He; [cbn; auto|].
  assert (B : forall u o, i_cmd c s sett = Ok (u, o) -> eOff u = eOff s -> filter is_print o = [] ->
     same_print (i_cmds sett s (c :: r)) (i_cmds sett t (filter is_layers r))).
  { intros u o E Hu Ho. cbn [i_cmds]. rewrite E. cbn [rbind]. rewrite He in Hu. specialize (IH u t Hu).
    destruct (i_cmds sett u r) as [[s2 o2]| |], (i_cmds sett t (filter is_layers r)) as [[t2 q2]| |];
      cbn [rbind same_print] in *; try contradiction; auto.
    destruct IH as [H1 H2]; split; auto. now rewrite filter_app, Ho, H2. }
  destruct c as [| |ax az|a|ls]; cbn [filter is_layers]; try (eapply B; reflexivity).
  cbn [i_cmds].
  apply (same_print_bind _ _ (fun s => i_cmds sett s r) (fun s => i_cmds sett s _) (fun a b => a ++ b) (fun a b => a ++ b))%list.
  - now apply layers_same.
  - exact IH.
  - intros a b a' b' Ha Hb. now rewrite !filter_app, Ha, Hb.
Qed.

(** the emitter's register does not depend on the bed commands *)
Lemma cmds_filter sett cs s' is : i_cmds sett newState cs = Ok (s', is) ->
  exists t' is', i_cmds sett newState (filter is_layers cs) = Ok (t', is') /\ eOff s' = eOff t' /\
    filter is_print is = filter is_print is'.
Proof.
  intros E. pose proof (cmds_same sett cs newState newState eq_refl) as H. rewrite E in H.
  destruct (i_cmds sett newState (filter is_layers cs)) as [[t' is']| |]; cbn in H; try contradiction.
  destruct H. eauto.
Qed.

Lemma filter_cmd_paths Q cs : Forall (cmd_paths Q) cs -> Forall (cmd_paths Q) (filter is_layers cs).
Proof. intros H. apply Forall_forall. intros c Hc. apply filter_In in Hc. rewrite Forall_forall in H. apply H, Hc. Qed.

Lemma bed_neutral {T : TextOK A} sett cs m0 t t' : Forall (cmd_paths (retr_ok sett)) cs -> m_e m0 = VFin 0 ->
  toOutput (Gcode sett cs) = Ok t -> toOutput (Gcode sett (filter is_layers cs)) = Ok t' ->
  exists is is', read_gcode t = Some is /\ read_gcode t' = Some is' /\
    filter is_print is = filter is_print is' /\ m_e (run m0 is) = m_e (run m0 is').
Proof.
  intros Hc Hm E E'. apply out_reads in E, E'. destruct E as (s1 & i1 & R1 & E1), E' as (s2 & i2 & R2 & E2).
  cbn [g_sett g_cmds] in *. exists i1, i2. split; [exact R1|split; [exact R2|]].
  destruct (cmds_filter _ _ _ _ E1) as (t2 & i2' & E2' & He & Hf). rewrite E2 in E2'.
  apply Ok_inj in E2'. destruct E2' as [<- <-]. split; [exact Hf|].
  destruct (reg_thm sett cs s1 i1 m0 ctx0 E1 Hc Hm) as (_ & -> & _).
  destruct (reg_thm sett _ s2 i2 m0 ctx0 E2 (filter_cmd_paths _ _ Hc) Hm) as (_ & -> & _).
  now rewrite He.
Qed.

(** ** Panics *)
Definition pan {T} (r : res T) (b : Prop) : Prop :=
  match r with Ok _ => ~ b | Panic => b | Diverge => False end.

Lemma paths_pan sett ps : forall s, pan (i_paths sett s ps) (In [] ps).
Proof.
  induction ps as [|[|p0 p] r IH]; intros s; cbn [i_paths]; [cbn; auto|cbn; auto|].
  specialize (IH (s_path sett s p0 p)). destruct (i_paths sett (s_path sett s p0 p) r) as [[s2 is]| |]; cbn in *; auto.
  intros [H|H]; [discriminate|auto].
Qed.

Lemma group_pan c sett s ps : pan (i_group c sett s ps) (In [] ps).
Proof.
  unfold i_group. pose proof (paths_pan sett ps (s_speed sett s)) as H.
  destruct (i_paths sett (s_speed sett s) ps) as [[s2 is]| |]; cbn in *; auto.
Qed.

Lemma layer_pan sett s l : pan (i_layer sett s l) (In [] (layer_paths l)).
Proof.
  unfold i_layer, layer_paths.
  match goal with |- pan (rbind ?r _) _ => assert (H1 : pan r (In [] (l_paths l))) by apply group_pan;
    destruct r as [[s3 o3]| |]; cbn [rbind pan] in * end; [|rewrite !in_app_iff; auto|contradiction].
  match goal with |- pan (rbind ?r _) _ => assert (H2 : pan r (In [] (l_middle l))) by apply group_pan;
    destruct r as [[s4 o4]| |]; cbn [rbind pan] in * end; [|rewrite !in_app_iff; auto|contradiction].
  match goal with |- pan (rbind ?r _) _ => assert (H3 : pan r (In [] (oslice (l_inner l)))) by apply group_pan;
    destruct r as [[s5 o5]| |]; cbn [rbind pan] in * end; [|rewrite !in_app_iff; auto|contradiction].
  match goal with |- pan (rbind ?r _) _ => assert (H4 : pan r (In [] (l_fill l))) by apply group_pan;
    destruct r as [[s7 o7]| |]; cbn [rbind pan] in * end; [|rewrite !in_app_iff; auto|contradiction].
  rewrite !in_app_iff. tauto.
Qed.

Lemma layers_pan sett ls : forall s, pan (i_layers sett s ls) (In [] (flat_map layer_paths ls)).
Proof.
  induction ls as [|l r IH]; intros s; cbn [i_layers flat_map]; [cbn; auto|].
  pose proof (layer_pan sett s l) as H. destruct (i_layer sett s l) as [[s1 o1]| |]; cbn [rbind pan] in *;
    [|rewrite in_app_iff; auto|contradiction].
  specialize (IH s1). destruct (i_layers sett s1 r) as [[s2 o2]| |]; cbn [rbind pan] in *; rewrite ?in_app_iff; tauto.
Qed.

Lemma cmds_pan sett cs : forall s, pan (i_cmds sett s cs) (In [] (cmds_paths cs)).
Proof.
  unfold cmds_paths. induction cs as [|c r IH]; intros s; cbn [i_cmds flat_map]; [cbn; auto|].
  rewrite flat_map_app.
  assert (H : pan (i_cmd c s sett) (In [] (flat_map layer_paths (cmd_layers c)))).
  { destruct c; cbn [i_cmd cmd_layers]; try (cbn; auto; fail). apply layers_pan. }
  destruct (i_cmd c s sett) as [[s1 o1]| |]; cbn [rbind pan] in *;
    [|rewrite in_app_iff; auto|contradiction].
  specialize (IH s1). destruct (i_cmds sett s1 r) as [[s2 o2]| |]; cbn [rbind pan] in *; rewrite ?in_app_iff; tauto.
Qed.

Lemma output_pan g : pan (toOutput g) (In [] (cmds_paths (g_cmds g))).
Proof.
  pose proof (output_intended g) as O. pose proof (cmds_pan (g_sett g) (g_cmds g) newState) as P. unfold intended in O.
  destruct (i_cmds (g_sett g) newState (g_cmds g)) as [[s' is]| |], (toOutput g); cbn [rbind pan] in *; try contradiction; auto.
Qed.

End P5.
