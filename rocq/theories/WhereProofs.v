(** * Where print moves happen *)
From Coq Require Import ZArith NArith String Ascii List Bool Lia Permutation.
From Verif Require Import Arith Prim Path Gcode GcodeSpec GcodeInstr GcodeClaims GcodeText GcodeProofs GcodeInv TextOK GcodeProofs2
  GcodeProofs3 Slicer SlicerClaims SlicerProofs WhereClaims.
Import ListNotations.
Close Scope R_scope.
Close Scope Z_scope.
Close Scope string_scope.
Close Scope num_scope.
Open Scope list_scope.
Open Scope nat_scope.

Section Any.
Context {A : Arith}.

Lemma print_words m (ws : list word) : exec m (G 1 ws) = exec_move m ws.
Proof. reflexivity. Qed.

Lemma arg_app_E l a b (e : num) : (l = "X" \/ l = "Y" \/ l = "Z")%char ->
  arg l (axis_words a b ++ [("E"%char, V e)])%list = arg l (axis_words a b).
Proof.
  intros H. unfold axis_words.
  destruct (_ <=? _)%num, (_ <=? _)%num, (_ <=? _)%num; destruct H as [->|[->| ->]]; reflexivity.
Qed.

Lemma axis_arg_cases a b :
  (arg "X"%char (axis_words a b) = None \/ arg "X"%char (axis_words a b) = Some (V (px a))) /\
  (arg "Y"%char (axis_words a b) = None \/ arg "Y"%char (axis_words a b) = Some (V (py a))) /\
  (arg "Z"%char (axis_words a b) = None \/ arg "Z"%char (axis_words a b) = Some (V (pz a))).
Proof.
  unfold axis_words. destruct (_ <=? _)%num, (_ <=? _)%num, (_ <=? _)%num; cbn; auto.
Qed.

Lemma among_step p a b e m : In a p -> among p m -> among p (exec m (G 1 (axis_words a b ++ [("E"%char, V e)])%list)).
Proof.
  intros Ha (Hx & Hy & Hz). rewrite print_words. unfold among, exec_move. cbn [m_x m_y m_z].
  rewrite !arg_app_E by auto. destruct (axis_arg_cases a b) as (Cx & Cy & Cz).
  repeat split.
  - destruct Cx as [-> | ->]; cbn [dflt]; [exact Hx|eauto].
  - destruct Cy as [-> | ->]; cbn [dflt]; [exact Hy|eauto].
  - destruct Cz as [-> | ->]; cbn [dflt]; [exact Hz|eauto].
Qed.

(** a print move among the vertices of a path of [ps] *)
Definition moves_of (ps : list path) (e : event) : Prop :=
  is_print (ev_instr e) = true -> exists p, In p ps /\ among p (ev_before e) /\ among p (ev_after e).

Lemma segs_among sett whole ps : In whole ps ->
  forall p e m c, incl p whole -> among whole m ->
  Forall (moves_of ps) (events c m (i_segs sett e p)).
Proof.
  intros Hw. induction p as [|p1 [|p2 r] IH]; intros e m c I H; [constructor|constructor|].
  cbn [i_segs]. rewrite events_cons.
  assert (H2 : among whole (exec m (G 1 (axis_words p2 p1 ++ [("E"%char, V (e + eDelta sett p1 p2)%num)])))).
  { apply among_step; [apply I; right; now left|exact H]. }
  constructor.
  - intros _. cbn [ev_at ev_before ev_after see G]. exists whole. auto.
  - apply IH; [|exact H2]. intros x Hx. apply I. now right.
Qed.

Context {TO : TextOK A}.

Lemma path_among sett s p0 p ps c m : In (p0 :: p) ps ->
  Forall (moves_of ps) (events c m (i_path sett s p0 p)).
Proof.
  intros Hw. unfold i_path. rewrite !events_app. apply Forall_app. split; [|apply Forall_app; split; [|apply Forall_app; split]].
  - constructor; [|constructor]. intros H. discriminate H.
  - unfold i_retract. destruct (Retraction sett); [|constructor].
    constructor; [|constructor]. intros H. discriminate H.
  - constructor; [intros H; discriminate H|constructor; [intros H; discriminate H|constructor]].
  - set (m1 := run (run m [_]) (i_retract sett)).
    eapply segs_among; [exact Hw|apply incl_refl|].
    unfold run, among. cbn [fold_left exec G]. rewrite !is_cmd_G. cbn [Z.eqb orb]. unfold exec_move. cbn [m_x m_y m_z arg find option_map fst snd dflt Ascii.eqb Bool.eqb].
    rewrite !tok_add0. repeat split; exists p0; (split; [now left|reflexivity]).
Qed.

Lemma paths_among sett all : forall ps s s' is c m, i_paths sett s ps = Ok (s', is) -> incl ps all ->
  Forall (moves_of all) (events c m is).
Proof.
  induction ps as [|[|p0 p] r IH]; intros s s' is c m; cbn [i_paths].
  - intros H0 _. apply Ok_inj in H0. destruct H0 as [<- <-]. constructor.
  - discriminate.
  - destruct (i_paths sett (s_path sett s p0 p) r) as [[s2 is2]| |] eqn:E; cbn [rbind]; try discriminate.
    intros H0 I. apply Ok_inj in H0. destruct H0 as [<- <-]. rewrite events_app. apply Forall_app. split.
    + apply path_among. apply I. now left.
    + eapply IH; [exact E|]. intros x Hx. apply I. now right.
Qed.

(** a group: its own section all along *)
Lemma group_among t sett ps s s' is c m : i_group t sett s ps = Ok (s', is) -> layer_marker (Comment t) = None ->
  Forall (fun e => c_sect (ev_at e) = t /\ moves_of ps e) (events c m is).
Proof.
  intros E Hm. apply i_group_inv in E. destruct E as (is' & E & ->).
  assert (Sc : see c (Comment t) = Ctx (c_layer c) t) by (cbn [see]; now rewrite Hm).
  rewrite events_cons, Sc. constructor.
  { split; [reflexivity|]. intros H. discriminate H. }
  rewrite events_app. apply Forall_app.
  assert (S1 : see_all (Ctx (c_layer c) t) (i_speed sett s) = Ctx (c_layer c) t).
  { unfold i_speed. destruct (_ =? _)%Z; reflexivity. }
  split.
  - unfold i_speed. destruct (_ =? _)%Z; [constructor|]. constructor; [|constructor]. split; [reflexivity|intros H; discriminate H].
  - rewrite S1.
    set (m2 := run _ _). pose proof (paths_among sett ps ps _ _ _ (Ctx (c_layer c) t) m2 E (incl_refl _)) as F.
    pose proof (i_paths_shape _ _ _ _ _ E) as Sh.
    assert (Q : Forall (fun e => ev_at e = Ctx (c_layer c) t) (events (Ctx (c_layer c) t) m2 is')).
    { clear -Sh. generalize m2. clear m2. induction Sh as [|i is H _ IH]; intros m2; [constructor|].
      assert (Si : see (Ctx (c_layer c) t) i = Ctx (c_layer c) t) by exact (path_instr_see _ _ _ H).
      rewrite events_cons, Si. constructor; [reflexivity|apply IH]. }
    rewrite Forall_forall in *. intros e He. split; [now rewrite (Q e He)|exact (F e He)].
Qed.

Lemma layer_in sett l s s' is c m : i_layer sett s l = Ok (s', is) -> (0 <= layerIndex s)%Z ->
  Forall (moves_in l) (events c m is).
Proof.
  intros E Hk.
  apply i_layer_inv in E. destruct E as (s3 & o3 & s4 & o4 & s5 & o5 & s7 & o7 & G3 & G4 & G5 & G7 & -> & ->).
  assert (K : forall t ps, layer_marker (Comment t) = None -> section_paths l t = ps ->
    forall s s' is c m, i_group t sett s ps = Ok (s', is) -> Forall (moves_in l) (events c m is)).
  { intros t ps Hm Hs s1 s1' is c1 m1 Eg. eapply Forall_impl; [|exact (group_among t sett ps s1 s1' is c1 m1 Eg Hm)].
    intros e [H1 H2] Hp. rewrite H1, Hs. exact (H2 Hp). }
  rewrite events_cons. constructor; [intros H; discriminate H|]. rewrite !events_app. repeat (apply Forall_app; split).
  - unfold i_fan. destruct (Bool.eqb _ _); [constructor|].
    constructor; [|constructor]. intros H. destruct (fan_for _ _); discriminate H.
  - exact (K "OUTER_PATHES"%string _ eq_refl eq_refl _ _ _ _ _ G3).
  - exact (K "MIDDLE_PATHES"%string _ eq_refl eq_refl _ _ _ _ _ G4).
  - exact (K "INNER_PATHES"%string _ eq_refl eq_refl _ _ _ _ _ G5).
  - exact (K "FILL_PATHES"%string _ eq_refl eq_refl _ _ _ _ _ G7).
  - unfold i_reset. destruct (_ <? _)%num; [|constructor].
    constructor; [|constructor]. intros H. discriminate H.
Qed.

Lemma section_layer l sec p : In p (section_paths l sec) -> In p (layer_paths l).
Proof.
  unfold section_paths, layer_paths. rewrite !in_app_iff.
  destruct (String.eqb sec _); [auto|]. destruct (String.eqb sec _); [auto|].
  destruct (String.eqb sec _); [destruct (l_inner l); cbn [oslice]; auto; intros []|]. destruct (String.eqb sec _); [auto|]. intros [].
Qed.

Lemma layer_at sett l s s' is c m : i_layer sett s l = Ok (s', is) -> (0 <= layerIndex s)%Z ->
  Forall (fun e => c_layer (ev_at e) = Some (Z.to_N (layerIndex s))) (events c m is).
Proof.
  intros E Hk. pose proof (markers_layer _ _ _ _ _ Hk E) as Mk.
  apply i_layer_inv in E. destruct E as (s3 & o3 & s4 & o4 & s5 & o5 & s7 & o7 & G3 & G4 & G5 & G7 & -> & ->).
  set (r := i_fan sett s ++ _) in *. set (t := ("LAYER:" ++ itoa (layerIndex s))%string) in *.
  assert (Ml : layer_marker (Comment t) = Some (Z.to_N (layerIndex s))) by (apply marker_LAYER; exact Hk).
  cbn [markers] in Mk. rewrite Ml in Mk. injection Mk as Mk.
  assert (Sc : see c (Comment t) = Ctx (Some (Z.to_N (layerIndex s))) "") by (cbn [see]; now rewrite Ml).
  rewrite events_cons, Sc. constructor; [reflexivity|].
  apply Forall_forall. intros e He. apply events_layer in He. rewrite Mk in He. destruct He as [He|(k & [] & _)]. exact He.
Qed.

Lemma layers_among sett ls : forall s s' is c m, i_layers sett s ls = Ok (s', is) -> (0 <= layerIndex s)%Z ->
  Forall (moves_among (Z.to_N (layerIndex s)) ls) (events c m is).
Proof.
  induction ls as [|l r IH]; intros s s' is c m E Hk.
  - cbn in E. apply Ok_inj in E. destruct E as [<- <-]. constructor.
  - apply i_layers_cons_inv in E. destruct E as (s1 & o1 & o2 & E1 & E2 & ->).
    pose proof (lf_li _ _ _ (i_layer_frame _ _ _ _ _ E1)) as Hk1.
    rewrite events_app. apply Forall_app. split.
    + pose proof (layer_in _ _ _ _ _ c m E1 Hk) as F. pose proof (layer_at _ _ _ _ _ c m E1 Hk) as G.
      rewrite Forall_forall in *. intros e He Hp. exists 0, l. rewrite N.add_0_r. auto.
    + eapply Forall_impl; [|apply (IH s1 s' o2); [exact E2|lia]].
      intros e H Hp. destruct (H Hp) as (j & l' & H1 & H2 & H3). exists (S j), l'. split; [|auto].
      rewrite H1. f_equal. lia.
Qed.

Lemma bed_no_print cmd sett s s' is c m : bed_cmd cmd = true -> i_cmd cmd s sett = Ok (s', is) ->
  Forall (fun e => is_print (ev_instr e) = false) (events c m is).
Proof.
  intros B E. destruct cmd; try discriminate; cbn [i_cmd] in E; apply Ok_inj in E; destruct E as [_ <-];
    repeat constructor.
Qed.

Lemma cmds_among sett cs : forall s s' is c m, i_cmds sett s cs = Ok (s', is) -> (0 <= layerIndex s)%Z ->
  Forall (moves_among (Z.to_N (layerIndex s)) (flat_map cmd_layers cs)) (events c m is).
Proof.
  induction cs as [|cmd r IH]; intros s s' is c m E Hk.
  - cbn in E. apply Ok_inj in E. destruct E as [<- <-]. constructor.
  - apply i_cmds_cons_inv in E. destruct E as (s1 & o1 & o2 & E1 & E2 & ->).
    rewrite events_app. apply Forall_app. destruct (bed_cmd cmd) eqn:B.
    + split.
      * pose proof (bed_no_print _ _ _ _ _ c m B E1) as F. eapply Forall_impl; [|exact F]. cbn. intros e H1 H2. congruence.
      * destruct (i_bed_frame _ _ _ _ _ B E1) as (_ & L & _). destruct cmd; try discriminate B; cbn [flat_map cmd_layers app];
          rewrite <- L; apply (IH s1 s' o2); auto; lia.
    + destruct cmd as [| | | |ls]; try discriminate B. cbn [i_cmd] in E1. cbn [flat_map cmd_layers].
      pose proof (layers_among _ _ _ _ _ c m E1 Hk) as F.
      destruct (markers_layers sett ls s s1 o1 (Z.to_nat (layerIndex s)) ltac:(lia) E1) as [_ L].
      split.
      * eapply Forall_impl; [|exact F]. intros e H Hp. destruct (H Hp) as (j & l & H1 & H2 & H3).
        exists j, l. split; [exact H1|]. split; [|exact H3]. rewrite nth_error_app1; [exact H2|]. apply nth_error_Some. congruence.
      * eapply Forall_impl; [|apply (IH s1 s' o2); [exact E2|lia]].
        intros e H Hp. destruct (H Hp) as (j & l' & H1 & H2 & H3). exists (length ls + j), l'. split; [|split; [|exact H3]].
        -- rewrite H1. f_equal. lia.
        -- rewrite nth_error_app2 by lia. replace (length ls + j - length ls) with j by lia. exact H2.
Qed.

(** ** The layers of SliceByVector *)
Lemma bare_layers U m Zv s ls : legal U -> sliceByVector U m Zv s = Ok ls ->
  Forall (fun l => l_middle l = [] /\ l_inner l = None /\ l_fill l = []) ls.
Proof.
  intros HU E. unfold sliceByVector in E. destruct m as [|t m]; [injection E as <-; constructor|].
  destruct (slicing_jobs U (t :: m) Zv s) as [jobs| |]; cbn [rbind] in E; try discriminate E.
  destruct (rmap (slicingWorker U) jobs) as [full| |] eqn:Ef; cbn [rbind] in E; try discriminate E.
  assert (F : Forall (fun l => l_middle l = [] /\ l_inner l = None /\ l_fill l = []) full).
  { clear E. revert full Ef. induction jobs as [|j r IH]; cbn [rmap]; intros full Ef; [injection Ef as <-; constructor|].
    destruct (slicingWorker U j) as [l| |] eqn:Ej; cbn [rbind] in Ef; try discriminate Ef.
    destruct (rmap (slicingWorker U) r) as [fr| |]; cbn [rbind] in Ef; try discriminate Ef. injection Ef as <-.
    constructor; [|now apply IH]. unfold slicingWorker in Ej.
    destruct (joinPaths3AndMinimize _ _) as [o| |]; cbn [rbind] in Ej; try discriminate Ej. injection Ej as <-. auto. }
  pose proof (trim_spec (sort_layers (u_arrive U full))) as T. rewrite E in T. destruct T as (a & b & Eq & _).
  rewrite Forall_forall in *. intros l Hl. apply F.
  assert (P : Permutation full (sort_layers (u_arrive U full))).
  { eapply perm_trans; [apply (lg_arrive U HU)|apply sort_perm]. }
  eapply Permutation_in; [apply Permutation_sym; exact P|]. rewrite Eq, !in_app_iff. auto.
Qed.
End Any.
