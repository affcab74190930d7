(** * Proofs about head positions, visits, well-formed words, flow *)
From Coq Require Import ZArith NArith String Ascii List Bool Lia.
From Verif Require Import Arith Prim Gcode GcodeSpec GcodeInstr GcodeClaims GcodeText GcodeProofs GcodeInv TextOK GcodeProofs2 GcodeProofs3.
Import ListNotations.

Ltac evs := repeat (apply Forall_cons || apply Forall_nil).

Section P4.
Context {A : Arith}.

(** ** C13 *)
Definition set_flow (sett : gsett) (f : num) : gsett :=
  GSett (BarDiameter sett) f (LayerHeight sett) (LineWidth sett) (FanOffLayer1 sett) (PrintSpeed sett)
    (PrintSpeedLayer1 sett) (PrintSpeedWall sett) (Retraction sett) (RetractionSpeed sett) (RetractionDistance sett).

Lemma flow_segs sett f p : forall e, segsToGCode (set_flow sett f) e p = segsToGCode sett e p.
Proof.
  induction p as [|a [|b r] IH]; intros e; try reflexivity.
  rewrite !segsToGCode_cons. change (eDelta (set_flow sett f) a b) with (eDelta sett a b).
  now rewrite IH.
Qed.

Lemma flow_paths sett f ps : forall s, pathsLoop (set_flow sett f) s ps = pathsLoop sett s ps.
Proof.
  induction ps as [|p r IH]; intros s; [reflexivity|]. cbn [pathsLoop].
  assert (pathToGCode (set_flow sett f) s p = pathToGCode sett s p) as ->.
  { unfold pathToGCode. destruct p; [reflexivity|]. rewrite flow_segs. reflexivity. }
  destruct (pathToGCode sett s p) as [[s1 o1]| |]; cbn [rbind]; auto. now rewrite IH.
Qed.

Lemma flow_group sett f ps t s : pathesToGCode ps t (set_flow sett f) s = pathesToGCode ps t sett s.
Proof.
  unfold pathesToGCode. change (printSpeedToGCode s (set_flow sett f)) with (printSpeedToGCode s sett).
  destruct (printSpeedToGCode s sett) as [s1 o1]. now rewrite flow_paths.
Qed.

Lemma rbind_ext {T U} (r : res T) (f g : T -> res U) : (forall x, f x = g x) -> rbind r f = rbind r g.
Proof. destruct r; cbn; auto. Qed.

Lemma flow_layer sett f l s : layerToGCode (set_flow sett f) s l = layerToGCode sett s l.
Proof.
  unfold layerToGCode. change (switchFanGCode s (set_flow sett f)) with (switchFanGCode s sett).
  destruct (switchFanGCode s sett) as [s1 o1]. rewrite flow_group.
  apply rbind_ext. intros [s3 o3]. rewrite flow_group. apply rbind_ext. intros [s4 o4]. rewrite flow_group.
  apply rbind_ext. intros [s5 o5]. rewrite flow_group. reflexivity.
Qed.

Lemma flow_layers sett f ls : forall s, layersToGCode (set_flow sett f) s ls = layersToGCode sett s ls.
Proof.
  induction ls as [|l r IH]; intros s; [reflexivity|]. cbn [layersToGCode]. rewrite flow_layer.
  apply rbind_ext. intros [s1 o1]. now rewrite IH.
Qed.

Lemma flow_irrelevant sett f cs : toOutput (Gcode (set_flow sett f) cs) = toOutput (Gcode sett cs).
Proof.
  unfold toOutput. cbn [g_sett g_cmds]. generalize newState.
  enough (H : forall s, cmdsToGCode (set_flow sett f) s cs = cmdsToGCode sett s cs) by (intros; now rewrite H).
  induction cs as [|c r IH]; intros s; [reflexivity|]. cbn [cmdsToGCode].
  assert (toGCode c s (set_flow sett f) = toGCode c s sett) as -> by (destruct c; try reflexivity; apply flow_layers).
  apply rbind_ext. intros [s1 o1]. now rewrite IH.
Qed.

(** ** Traces of the head *)
Lemma head_trace_app m a b : head_trace m (a ++ b) = (head_trace m a ++ head_trace (run m a) b)%list.
Proof.
  revert m. induction a as [|i r IH]; intros m; [reflexivity|].
  change ((i :: r) ++ b)%list with (i :: (r ++ b)%list). cbn [head_trace].
  rewrite IH, app_assoc. reflexivity.
Qed.

Lemma head_trace_none m is : Forall (fun i => is_move i = false) is -> head_trace m is = [].
Proof.
  intros H. revert m. induction H as [|i r H _ IH]; intros m; [reflexivity|].
  cbn [head_trace]. rewrite H, IH. reflexivity.
Qed.

Lemma not_print_move i : is_print i = true -> is_move i = true.
Proof.
  destruct i as [t|c ws]; [discriminate|]. cbn [is_print is_move]. intros H.
  apply andb_true_iff in H. destruct H as [H _]. apply andb_true_iff in H. destruct H as [-> ->].
  rewrite !orb_true_r. reflexivity.
Qed.

Lemma arg_app l a b : arg l (a ++ b)%list = match arg l a with Some v => Some v | None => arg l b end.
Proof.
  unfold arg. induction a as [|w r IH]; [reflexivity|]. cbn. destruct (Ascii.eqb (fst w) l); [reflexivity|exact IH].
Qed.

Lemma arg_axis a b e :
  let ws := (axis_words b a ++ [("E"%char, V e)])%list in
  arg "X" ws = axis_arg (px a) (px b) /\ arg "Y" ws = axis_arg (py a) (py b) /\
  arg "Z" ws = axis_arg (pz a) (pz b) /\ arg "E" ws = Some (V e) /\ arg "F" ws = None.
Proof.
  unfold axis_words, axis_arg.
  destruct (_ <=? nabs (px b - px a))%num, (_ <=? nabs (py b - py a))%num, (_ <=? nabs (pz b - pz a))%num;
    repeat split; reflexivity.
Qed.

Lemma print_instr a b e :
  let i := G 1 (axis_words b a ++ [("E"%char, V e)])%list in
  is_print i = true /\ forall m,
    m_x (exec m i) = dflt (axis_arg (px a) (px b)) (m_x m) /\
    m_y (exec m i) = dflt (axis_arg (py a) (py b)) (m_y m) /\
    m_z (exec m i) = dflt (axis_arg (pz a) (pz b)) (m_z m) /\
    m_e (exec m i) = V e.
Proof.
  destruct (arg_axis a b e) as (H1 & H2 & H3 & H4 & H5). cbn zeta in *. split.
  - unfold is_print, G, has. rewrite is_cmd_G, H4, H5. reflexivity.
  - intros m. cbn [exec G]. rewrite !is_cmd_G. cbn [Z.eqb orb]. unfold exec_move. cbn [m_x m_y m_z m_e].
    rewrite H1, H2, H3, H4. auto.
Qed.

Definition at_head (m : mach) : val * val * val := (m_x m, m_y m, m_z m).

Lemma axis_arg_ok a b v : v = V a -> axis_step_ok a b -> dflt (axis_arg a b) v = V b.
Proof.
  intros -> [->|H]; unfold axis_arg.
  - destruct (_ <=? _)%num; reflexivity.
  - rewrite H. reflexivity.
Qed.

Lemma print_instr_at a b e m : at_head m = at_pt a -> step_ok a b ->
  at_head (exec m (G 1 (axis_words b a ++ [("E"%char, V e)])%list)) = at_pt b.
Proof.
  intros Hm (S1 & S2 & S3). unfold at_head, at_pt in *. injection Hm as X Y Z.
  destruct (proj2 (print_instr a b e) m) as (-> & -> & -> & _).
  rewrite !axis_arg_ok by assumption. reflexivity.
Qed.

Lemma last_dflt {X} (r : list X) : forall b d d', last (b :: r) d = last (b :: r) d'.
Proof. induction r as [|c r IH]; intros b d d'; [reflexivity|]. exact (IH c d d'). Qed.

Lemma segs_trace sett p : forall a e m, at_head m = at_pt a -> steps_fine (a :: p) ->
  head_trace m (i_segs sett e (a :: p)) = map (fun q => (at_pt q, true)) p /\
  at_head (run m (i_segs sett e (a :: p))) = at_pt (last (a :: p) a).
Proof.
  induction p as [|b r IH]; intros a e m Hm Hs.
  - split; [reflexivity|exact Hm].
  - destruct Hs as [S1 S2]. rewrite i_segs_cons.
    set (i := G 1 _). pose proof (print_instr_at a b (e + eDelta sett a b)%num m Hm S1) as Hb.
    fold i in Hb. destruct (IH b (e + eDelta sett a b)%num (exec m i) Hb S2) as [K1 K2].
    pose proof (proj1 (print_instr a b (e + eDelta sett a b)%num)) as Hp. cbn zeta in Hp. fold i in Hp.
    split.
    + cbn [head_trace]. rewrite (not_print_move _ Hp), Hp, K1.
      change (m_x (exec m i), m_y (exec m i), m_z (exec m i), true) with (at_head (exec m i), true).
      rewrite Hb. reflexivity.
    + change (run m (i :: ?l)) with (run (exec m i) l). rewrite K2.
      f_equal. change (last (a :: b :: r) a) with (last (b :: r) a).
      apply last_dflt.
Qed.

Context {TO : TextOK A}.

Lemma path_trace_ok sett s p0 p m : Retraction sett = false -> steps_fine (p0 :: p) ->
  head_trace m (i_path sett s p0 p) = path_trace (m_x m) (m_y m) (pz (pos s)) (p0 :: p) /\
  at_head (run m (i_path sett s p0 p)) = at_pt (last (p0 :: p) p0).
Proof.
  intros R Hs. unfold i_path, i_retract. rewrite R. cbn [List.app]. rewrite !tok_add0.
  set (i1 := G 0 [("Z"%char, V (pz (pos s) + half)%num)]).
  set (i2 := G 0 [("X"%char, V (px p0)); ("Y"%char, V (py p0)); ("Z"%char, V (pz p0 + half)%num)]).
  set (i3 := G 0 [("Z"%char, V (pz p0))]).
  assert (Hm : at_head (exec (exec (exec m i1) i2) i3) = at_pt p0) by reflexivity.
  destruct (segs_trace sett p p0 (eOff s) _ Hm Hs) as [K1 K2].
  split; [|exact K2].
  cbn [head_trace]. rewrite K1. reflexivity.
Qed.

(** where the head is after a list of paths *)
Fixpoint end_of (h : val * val * num) (ps : list path) : val * val * num :=
  match ps with
  | [] => h
  | [] :: r => end_of h r
  | (p0 :: p) :: r => let q := last (p0 :: p) p0 in end_of (V (px q), V (py q), pz q) r
  end.

Definition ptrace (h : val * val * num) (ps : list path) := paths_trace (fst (fst h)) (snd (fst h)) (snd h) ps.

Lemma ptrace_app h a b : ptrace h (a ++ b) = (ptrace h a ++ ptrace (end_of h a) b)%list.
Proof.
  revert h. induction a as [|[|p0 p] r IH]; intros h; [reflexivity| |].
  - change (([] :: r) ++ b)%list with ([] :: (r ++ b))%list. unfold ptrace. cbn [paths_trace path_trace List.app]. apply IH.
  - change (((p0 :: p) :: r) ++ b)%list with ((p0 :: p) :: (r ++ b))%list.
    unfold ptrace at 1 2. cbn [paths_trace end_of]. cbv zeta. rewrite <- app_assoc. f_equal. apply (IH (_, _, _)).
Qed.

Definition hd3 (m : mach) (s : gstate) : val * val * num := (m_x m, m_y m, pz (pos s)).

Lemma i_paths_trace sett ps : Retraction sett = false -> forall s s' is m,
  i_paths sett s ps = Ok (s', is) -> Forall steps_fine ps ->
  head_trace m is = ptrace (hd3 m s) ps /\ hd3 (run m is) s' = end_of (hd3 m s) ps.
Proof.
  intros R. induction ps as [|[|p0 p] r IH]; intros s s' is m E Hs; cbn [i_paths] in E.
  - apply Ok_inj in E. destruct E as [<- <-]. split; reflexivity.
  - discriminate.
  - destruct (i_paths sett (s_path sett s p0 p) r) as [[s2 is2]| |] eqn:E2; cbn [rbind] in E; try discriminate.
    apply Ok_inj in E. destruct E as [<- <-].
    apply Forall_cons_iff in Hs. destruct Hs as [S1 S2].
    destruct (path_trace_ok sett s p0 p m R S1) as [K1 K2].
    destruct (IH _ _ _ (run m (i_path sett s p0 p)) E2 S2) as [L1 L2].
    assert (Hh : hd3 (run m (i_path sett s p0 p)) (s_path sett s p0 p) =
      (V (px (last (p0 :: p) p0)), V (py (last (p0 :: p) p0)), pz (last (p0 :: p) p0))).
    { unfold hd3. pose proof (f_equal (fun t => fst (fst t)) K2) as Kx.
      pose proof (f_equal (fun t => snd (fst t)) K2) as Ky. cbn [fst snd at_head at_pt] in Kx, Ky.
      rewrite Kx, Ky. reflexivity. }
    rewrite head_trace_app, run_app, L1, L2, K1, Hh. split; reflexivity.
Qed.

Definition quiet (m : mach) (is : list instr) : Prop :=
  head_trace m is = [] /\ m_x (run m is) = m_x m /\ m_y (run m is) = m_y m.

Lemma i_group_trace t sett s ps s' is m : Retraction sett = false ->
  i_group t sett s ps = Ok (s', is) -> Forall steps_fine ps ->
  head_trace m is = ptrace (hd3 m s) ps /\ hd3 (run m is) s' = end_of (hd3 m s) ps.
Proof.
  intros R E Hs. apply i_group_inv in E. destruct E as (is' & E & ->).
  change (head_trace m (Comment t :: ?l)) with (head_trace m l).
  change (run m (Comment t :: ?l)) with (run m l).
  rewrite head_trace_app, run_app.
  destruct (i_paths_trace sett ps R _ _ _ (run m (i_speed sett s)) E Hs) as [K1 K2].
  assert (Hh : hd3 (run m (i_speed sett s)) (s_speed sett s) = hd3 m s).
  { unfold i_speed, s_speed. destruct (_ =? _)%Z; reflexivity. }
  rewrite K1, K2, Hh. split; [|reflexivity].
  unfold i_speed. destruct (_ =? _)%Z; reflexivity.
Qed.

Lemma i_layer_trace sett s l s' is m : Retraction sett = false ->
  i_layer sett s l = Ok (s', is) -> Forall steps_fine (layer_paths l) ->
  head_trace m is = ptrace (hd3 m s) (layer_paths l) /\ hd3 (run m is) s' = end_of (hd3 m s) (layer_paths l).
Proof.
  intros R E Hs.
  pose proof (i_layer_inv _ _ _ _ _ E) as (s3 & o3 & s4 & o4 & s5 & o5 & s7 & o7 & G3 & G4 & G5 & G7 & -> & ->).
  unfold layer_paths in *. apply Forall_app in Hs. destruct Hs as [H1 Hs].
  apply Forall_app in Hs. destruct Hs as [H2 Hs]. apply Forall_app in Hs. destruct Hs as [H3 H4].
  change (head_trace m (Comment ?t :: ?l)) with (head_trace m l).
  change (run m (Comment ?t :: ?l)) with (run m l).
  rewrite !head_trace_app, !run_app, !ptrace_app.
  assert (F : head_trace m (i_fan sett s) = [] /\
     hd3 (run m (i_fan sett s)) (set_isWall (set_fan s (fan_for sett (layerIndex s))) true) = hd3 m s).
  { unfold i_fan. destruct (Bool.eqb _ _), (fan_for sett (layerIndex s)); split; reflexivity. }
  destruct F as [-> F].
  set (m1 := run m (i_fan sett s)) in *.
  destruct (i_group_trace _ _ _ _ _ _ m1 R G3 H1) as [A1 A2]. rewrite F in A1, A2.
  destruct (i_group_trace _ _ _ _ _ _ (run m1 o3) R G4 H2) as [B1 B2]. rewrite A2 in B1, B2.
  destruct (i_group_trace _ _ _ _ _ _ (run (run m1 o3) o4) R G5 H3) as [C1 C2]. rewrite B2 in C1, C2.
  destruct (i_group_trace _ _ _ _ _ _ (run (run (run m1 o3) o4) o5) R G7 H4) as [D1 D2].
  change (hd3 ?m (set_isWall s5 false)) with (hd3 m s5) in D1, D2. rewrite C2 in D1, D2.
  rewrite A1, B1, C1, D1.
  assert (Ee : forall h a b, end_of h (a ++ b) = end_of (end_of h a) b).
  { clear. intros h a b. revert h. induction a as [|[|p0 p] r IH]; intros h; [reflexivity|apply IH|apply IH]. }
  rewrite !Ee.
  split.
  - assert (head_trace (run (run (run (run m1 o3) o4) o5) o7) (i_reset s7) = []) as ->.
    { unfold i_reset. destruct (_ <? _)%num; reflexivity. }
    rewrite app_nil_r. reflexivity.
  - rewrite <- D2. unfold i_reset, s_reset. destruct (_ <? _)%num; reflexivity.
Qed.

Lemma end_of_app h a b : end_of h (a ++ b) = end_of (end_of h a) b.
Proof. revert h. induction a as [|[|p0 p] r IH]; intros h; [reflexivity|apply IH|apply IH]. Qed.

Lemma i_layers_trace sett ls : Retraction sett = false -> forall s s' is m,
  i_layers sett s ls = Ok (s', is) -> Forall steps_fine (flat_map layer_paths ls) ->
  head_trace m is = ptrace (hd3 m s) (flat_map layer_paths ls) /\
  hd3 (run m is) s' = end_of (hd3 m s) (flat_map layer_paths ls).
Proof.
  intros R. induction ls as [|l r IH]; intros s s' is m E Hs.
  - cbn in E. apply Ok_inj in E. destruct E as [<- <-]. split; reflexivity.
  - apply i_layers_cons_inv in E. destruct E as (s1 & o1 & o2 & E1 & E2 & ->).
    cbn [flat_map] in *. apply Forall_app in Hs. destruct Hs as [H1 H2].
    destruct (i_layer_trace _ _ _ _ _ m R E1 H1) as [K1 K2].
    destruct (IH _ _ _ (run m o1) E2 H2) as [L1 L2].
    rewrite head_trace_app, run_app, ptrace_app, end_of_app, L1, L2, K1, K2. split; reflexivity.
Qed.

Lemma i_cmds_trace sett cs : Retraction sett = false -> forall s s' is m,
  i_cmds sett s cs = Ok (s', is) -> Forall only_layers cs -> Forall steps_fine (cmds_paths cs) ->
  head_trace m is = ptrace (hd3 m s) (cmds_paths cs) /\
  hd3 (run m is) s' = end_of (hd3 m s) (cmds_paths cs).
Proof.
  intros R. induction cs as [|c r IH]; intros s s' is m E Ho Hs.
  - cbn in E. apply Ok_inj in E. destruct E as [<- <-]. split; reflexivity.
  - apply i_cmds_cons_inv in E. destruct E as (s1 & o1 & o2 & E1 & E2 & ->).
    apply Forall_cons_iff in Ho. destruct Ho as [O1 O2].
    unfold cmds_paths in *. cbn [flat_map] in *. rewrite flat_map_app in *.
    apply Forall_app in Hs. destruct Hs as [H1 H2].
    assert (K : head_trace m o1 = ptrace (hd3 m s) (flat_map layer_paths (cmd_layers c)) /\
                hd3 (run m o1) s1 = end_of (hd3 m s) (flat_map layer_paths (cmd_layers c))).
    { destruct c; try contradiction; cbn [i_cmd] in E1.
      - apply Ok_inj in E1. destruct E1 as [<- <-]. split; reflexivity.
      - eapply i_layers_trace; eauto. }
    destruct K as [K1 K2].
    destruct (IH _ _ _ (run m o1) E2 O2 H2) as [L1 L2].
    rewrite head_trace_app, run_app, ptrace_app, end_of_app, L1, L2, K1, K2. split; reflexivity.
Qed.

Lemma head_thm sett cs s' is m : Retraction sett = false ->
  i_cmds sett newState cs = Ok (s', is) -> Forall only_layers cs -> Forall steps_fine (cmds_paths cs) ->
  head_trace m is = paths_trace (m_x m) (m_y m) n0 (cmds_paths cs).
Proof. intros R E Ho Hs. exact (proj1 (i_cmds_trace sett cs R newState s' is m E Ho Hs)). Qed.

(** ** nothing but print moves extrudes *)
Lemma path_instr_disp sett i m : Retraction sett = false -> path_instr sett i ->
  is_print i = true \/ m_disp (exec m i) = m_disp m.
Proof.
  intros R H. destruct H; try (right; reflexivity); [congruence|]. left. apply print_instr.
Qed.

Lemma no_extrusion_thm sett cs s' is m0 c0 :
  i_cmds sett newState cs = Ok (s', is) -> Retraction sett = false -> Forall only_layers cs ->
  Forall no_extrusion (events c0 m0 is).
Proof.
  intros E R Ho.
  enough (K : Forall no_extrusion (events c0 m0 is) /\ True /\ True) by apply K.
  apply (program_inv sett (fun _ => True) only_layers (fun _ _ => True) no_extrusion (fun _ => True))
    with (cs := cs) (s' := s'); auto using only_layers_ok.
  - repeat intro; reflexivity.
  - repeat intro; reflexivity.
  - intros c s m Hi. unfold i_fan. destruct (Bool.eqb _ _), (fan_for sett (layerIndex s)); split; auto; evs; intros _; reflexivity.
  - intros c s m Hi. unfold i_speed. destruct (_ =? _)%Z; split; auto; evs; intros _; reflexivity.
  - intros c s m p0 p _ _ _. split; auto. apply (path_trace_P sett); [|apply i_path_shape].
    intros m' i Hs Hp. cbn [ev_after ev_before]. destruct (path_instr_disp sett i m' R Hs) as [Q|Q]; [|exact Q].
    cbn in Hp. congruence.
  - intros c s m Hi. unfold i_reset. destruct (_ <? _)%num; split; auto; evs; intros _; reflexivity.
  - intros c s m cmd s2 is2 Hc B _ E2. split; auto.
    destruct cmd; try discriminate; try contradiction; cbn [i_cmd] in E2; apply Ok_inj in E2; destruct E2 as [_ <-].
    evs; intros _; reflexivity.
Qed.

(** ** C14 *)
Definition goes (i : instr) : bool := is_travel i || is_print i.

Lemma segs_visits sett p : forall e, Forall2 performs (filter goes (i_segs sett e p)) (prints_of p).
Proof.
  induction p as [|a [|b r] IH]; intros e; [constructor|constructor|].
  rewrite i_segs_cons. cbn [filter].
  destruct (print_instr a b (e + eDelta sett a b)%num) as [Hp _]. cbn zeta in Hp.
  unfold goes at 1. rewrite Hp, orb_true_r. cbn [prints_of]. constructor; [|apply IH].
  split; [exact Hp|]. destruct (arg_axis a b (e + eDelta sett a b)%num) as (H1 & H2 & H3 & _ & _). unfold G. auto.
Qed.

Lemma path_visits sett s p0 p : Forall2 performs (filter goes (i_path sett s p0 p)) (visits (p0 :: p)).
Proof.
  unfold i_path. rewrite !filter_app.
  assert (filter goes (i_retract sett) = []) as ->.
  { unfold i_retract. destruct (Retraction sett); reflexivity. }
  rewrite !tok_add0.
  cbn [filter goes is_travel is_print G]. cbn -[i_segs filter prints_of]. constructor; [reflexivity|]. apply segs_visits.
Qed.

Lemma Forall2_filter_app a b va vb :
  Forall2 performs (filter goes a) va -> Forall2 performs (filter goes b) vb ->
  Forall2 performs (filter goes (a ++ b)) (va ++ vb)%list.
Proof. intros. rewrite filter_app. now apply Forall2_app. Qed.

Lemma paths_visits sett ps : forall s s' is, i_paths sett s ps = Ok (s', is) ->
  Forall2 performs (filter goes is) (flat_map visits ps).
Proof.
  induction ps as [|[|p0 p] r IH]; intros s s' is E; cbn [i_paths] in E.
  - apply Ok_inj in E. destruct E as [<- <-]. constructor.
  - discriminate.
  - destruct (i_paths sett (s_path sett s p0 p) r) as [[s2 is2]| |] eqn:E2; cbn [rbind] in E; try discriminate.
    apply Ok_inj in E. destruct E as [<- <-].
    change (flat_map visits ((p0 :: p) :: r)) with (visits (p0 :: p) ++ flat_map visits r)%list.
    apply Forall2_filter_app; [apply path_visits|eauto].
Qed.

Lemma group_visits t sett s ps s' is : i_group t sett s ps = Ok (s', is) ->
  Forall2 performs (filter goes is) (flat_map visits ps).
Proof.
  intros E. apply i_group_inv in E. destruct E as (is' & E & ->).
  change (filter goes (Comment t :: ?l)) with (filter goes l). rewrite filter_app.
  assert (filter goes (i_speed sett s) = []) as ->.
  { unfold i_speed. destruct (_ =? _)%Z; reflexivity. }
  eapply paths_visits; eauto.
Qed.

Lemma layer_visits sett s l s' is : i_layer sett s l = Ok (s', is) ->
  Forall2 performs (filter goes is) (flat_map visits (layer_paths l)).
Proof.
  intros E.
  pose proof (i_layer_inv _ _ _ _ _ E) as (s3 & o3 & s4 & o4 & s5 & o5 & s7 & o7 & G3 & G4 & G5 & G7 & -> & ->).
  change (filter goes (Comment ?t :: ?l)) with (filter goes l). rewrite filter_app.
  assert (filter goes (i_fan sett s) = []) as ->.
  { unfold i_fan. destruct (Bool.eqb _ _), (fan_for sett (layerIndex s)); reflexivity. }
  unfold layer_paths. rewrite !flat_map_app.
  cbn [List.app]. repeat (apply Forall2_filter_app; [eapply group_visits; eauto|]).
  rewrite <- (app_nil_r (flat_map visits (l_fill l))).
  apply Forall2_filter_app; [eapply group_visits; eauto|].
  unfold i_reset. destruct (_ <? _)%num; constructor.
Qed.

Lemma layers_visits sett ls : forall s s' is, i_layers sett s ls = Ok (s', is) ->
  Forall2 performs (filter goes is) (flat_map visits (flat_map layer_paths ls)).
Proof.
  induction ls as [|l r IH]; intros s s' is E.
  - cbn in E. apply Ok_inj in E. destruct E as [<- <-]. constructor.
  - apply i_layers_cons_inv in E. destruct E as (s1 & o1 & o2 & E1 & E2 & ->).
    cbn [flat_map]. rewrite flat_map_app. apply Forall2_filter_app; [eapply layer_visits; eauto|eauto].
Qed.

Lemma visits_thm sett cs : forall s s' is, i_cmds sett s cs = Ok (s', is) -> Forall only_layers cs ->
  Forall2 performs (filter goes is) (flat_map visits (cmds_paths cs)).
Proof.
  induction cs as [|c r IH]; intros s s' is E Ho.
  - cbn in E. apply Ok_inj in E. destruct E as [<- <-]. constructor.
  - apply i_cmds_cons_inv in E. destruct E as (s1 & o1 & o2 & E1 & E2 & ->).
    apply Forall_cons_iff in Ho. destruct Ho as [O1 O2].
    unfold cmds_paths. cbn [flat_map]. rewrite !flat_map_app.
    apply Forall2_filter_app; [|eauto].
    destruct c; try contradiction; cbn [i_cmd] in E1.
    + apply Ok_inj in E1. destruct E1 as [<- <-]. constructor.
    + eapply layers_visits; eauto.
Qed.

(** ** C11: words *)
Lemma vfin_VZ z : vfin (VZ z). Proof. eexists; reflexivity. Qed.

Ltac wf := repeat (apply Forall_cons || apply Forall_nil || split || apply vfin_VZ || assumption).

Lemma segs_words sett p : forall e, vfin (V e) -> Forall pt_finite p ->
  Forall print_E_finite (i_segs sett e p) ->
  Forall words_finite (i_segs sett e p) /\ vfin (V (e_segs sett e p)).
Proof.
  induction p as [|a [|b r] IH]; intros e He Hp H; try (split; [constructor|exact He]).
  rewrite i_segs_cons in *. rewrite e_segs_cons.
  set (e' := (e + eDelta sett a b)%num) in *. set (i := G 1 _) in *.
  apply Forall_cons_iff in H. destruct H as [H1 H2].
  apply Forall_cons_iff in Hp. destruct Hp as [_ Hp].
  assert (Hb : pt_finite b) by (inversion Hp; assumption).
  assert (He' : vfin (V e')).
  { apply (H1 (proj1 (print_instr a b e'))). apply (arg_axis a b e'). }
  destruct (IH e' He' Hp H2) as [K1 K2]. split; [|exact K2].
  constructor; [|exact K1]. destruct Hb as (X & Y & Z & _). cbn [words_finite i G snd].
  split; [apply vfin_VZ|]. unfold axis_words.
  repeat (apply Forall_app; split); try (destruct (_ <=? _)%num); wf.
Qed.

Definition st_fin (s : gstate) : Prop :=
  vfin (V (eOff s)) /\ vfin (V (pz (pos s) + half)%num) /\ vfin (V (st_t1 s)) /\ vfin (V (st_t2 s)).

Lemma path_words sett s p0 p : st_fin s -> Forall pt_finite (p0 :: p) ->
  vfin (V (- RetractionDistance sett)%num) ->
  Forall print_E_finite (i_path sett s p0 p) ->
  Forall words_finite (i_path sett s p0 p) /\ st_fin (s_path sett s p0 p).
Proof.
  intros (He & Hz & H1 & H2) Hp HR HE.
  unfold i_path in *. rewrite !Forall_app in HE. destruct HE as (_ & _ & _ & HE).
  destruct (segs_words sett (p0 :: p) (eOff s) He Hp HE) as [K1 K2].
  pose proof Hp as Hp'. apply Forall_cons_iff in Hp'. destruct Hp' as [(X & Y & Z & Zh) _].
  split.
  - rewrite !Forall_app. rewrite !tok_add0. unfold i_retract. destruct (Retraction sett); wf.
  - unfold st_fin, s_path. cbn [eOff pos st_t1 st_t2 set_pos set_eOff]. repeat split; auto.
    assert (L : pt_finite (last (p0 :: p) p0)).
    { rewrite Forall_forall in Hp. apply Hp. destruct (exists_last (l := p0 :: p) ltac:(discriminate)) as (l & a & ->).
      rewrite last_last. apply in_or_app. right. left. reflexivity. }
    apply L.
Qed.

Lemma paths_words sett ps : vfin (V (- RetractionDistance sett)%num) -> forall s s' is,
  i_paths sett s ps = Ok (s', is) -> st_fin s -> Forall (Forall pt_finite) ps ->
  Forall print_E_finite is -> Forall words_finite is /\ st_fin s'.
Proof.
  intros HR. induction ps as [|[|p0 p] r IH]; intros s s' is E Hs Hp HE; cbn [i_paths] in E.
  - apply Ok_inj in E. destruct E as [<- <-]. split; [constructor|exact Hs].
  - discriminate.
  - destruct (i_paths sett (s_path sett s p0 p) r) as [[s2 is2]| |] eqn:E2; cbn [rbind] in E; try discriminate.
    apply Ok_inj in E. destruct E as [<- <-].
    apply Forall_app in HE. destruct HE as [E1 E3]. apply Forall_cons_iff in Hp. destruct Hp as [P1 P2].
    destruct (path_words sett s p0 p Hs P1 HR E1) as [K1 K2].
    destruct (IH _ _ _ E2 K2 P2 E3) as [L1 L2]. split; [apply Forall_app; auto|exact L2].
Qed.

Lemma group_words t sett s ps s' is : vfin (V (- RetractionDistance sett)%num) ->
  i_group t sett s ps = Ok (s', is) -> st_fin s -> Forall (Forall pt_finite) ps ->
  Forall print_E_finite is -> Forall words_finite is /\ st_fin s'.
Proof.
  intros HR E Hs Hp HE. apply i_group_inv in E. destruct E as (is' & E & ->).
  apply Forall_cons_iff in HE. destruct HE as [_ HE]. apply Forall_app in HE. destruct HE as [_ HE].
  assert (Hs' : st_fin (s_speed sett s)) by (unfold s_speed; destruct (_ =? _)%Z; exact Hs).
  destruct (paths_words sett ps HR _ _ _ E Hs' Hp HE) as [K1 K2]. split; [|exact K2].
  constructor; [exact I|]. apply Forall_app. split; [|exact K1].
  unfold i_speed. destruct (_ =? _)%Z; wf.
Qed.

Lemma layer_words sett s l s' is : vfin (V (- RetractionDistance sett)%num) ->
  i_layer sett s l = Ok (s', is) -> st_fin s -> Forall (Forall pt_finite) (layer_paths l) ->
  Forall print_E_finite is -> Forall words_finite is /\ st_fin s'.
Proof.
  intros HR E Hs Hp HE.
  pose proof (i_layer_inv _ _ _ _ _ E) as (s3 & o3 & s4 & o4 & s5 & o5 & s7 & o7 & G3 & G4 & G5 & G7 & -> & ->).
  unfold layer_paths in Hp. rewrite !Forall_app in Hp. destruct Hp as (P1 & P2 & P3 & P4).
  apply Forall_cons_iff in HE. destruct HE as [_ HE]. rewrite !Forall_app in HE.
  destruct HE as (_ & E3 & E4 & E5 & E7 & _).
  destruct (group_words _ _ _ _ _ _ HR G3 Hs P1 E3) as [A1 A2].
  destruct (group_words _ _ _ _ _ _ HR G4 A2 P2 E4) as [B1 B2].
  destruct (group_words _ _ _ _ _ _ HR G5 B2 P3 E5) as [C1 C2].
  assert (C3 : st_fin (set_isWall s5 false)) by exact C2.
  destruct (group_words _ _ _ _ _ _ HR G7 C3 P4 E7) as [D1 D2].
  split.
  - constructor; [exact I|]. rewrite !Forall_app. repeat split; auto.
    + unfold i_fan. destruct (Bool.eqb _ _); wf.
    + unfold i_reset. destruct (_ <? _)%num; wf.
  - unfold s_reset. destruct (_ <? _)%num; [|exact D2].
    destruct D2 as (_ & D2 & D3 & D4). repeat split; auto. cbn. rewrite tok_0. eexists; reflexivity.
Qed.

Lemma layers_words sett ls : vfin (V (- RetractionDistance sett)%num) -> forall s s' is,
  i_layers sett s ls = Ok (s', is) -> st_fin s -> Forall (Forall pt_finite) (flat_map layer_paths ls) ->
  Forall print_E_finite is -> Forall words_finite is /\ st_fin s'.
Proof.
  intros HR. induction ls as [|l r IH]; intros s s' is E Hs Hp HE.
  - cbn in E. apply Ok_inj in E. destruct E as [<- <-]. split; [constructor|exact Hs].
  - apply i_layers_cons_inv in E. destruct E as (s1 & o1 & o2 & E1 & E2 & ->).
    cbn [flat_map] in Hp. apply Forall_app in Hp. destruct Hp as [P1 P2].
    apply Forall_app in HE. destruct HE as [H1 H2].
    destruct (layer_words _ _ _ _ _ HR E1 Hs P1 H1) as [K1 K2].
    destruct (IH _ _ _ E2 K2 P2 H2) as [L1 L2]. split; [apply Forall_app; auto|exact L2].
Qed.

Lemma cmds_words sett cs : vfin (V (- RetractionDistance sett)%num) -> forall s s' is,
  i_cmds sett s cs = Ok (s', is) -> st_fin s -> Forall angles_finite cs ->
  Forall (Forall pt_finite) (cmds_paths cs) ->
  Forall print_E_finite is -> Forall words_finite is /\ st_fin s'.
Proof.
  intros HR. induction cs as [|c r IH]; intros s s' is E Hs Ha Hp HE.
  - cbn in E. apply Ok_inj in E. destruct E as [<- <-]. split; [constructor|exact Hs].
  - apply i_cmds_cons_inv in E. destruct E as (s1 & o1 & o2 & E1 & E2 & ->).
    unfold cmds_paths in Hp. cbn [flat_map] in Hp. rewrite flat_map_app in Hp.
    apply Forall_app in Hp. destruct Hp as [P1 P2].
    apply Forall_app in HE. destruct HE as [H1 H2].
    apply Forall_cons_iff in Ha. destruct Ha as [A1 A2].
    assert (K : Forall words_finite o1 /\ st_fin s1).
    { pose proof Hs as (F1 & F2 & F3 & F4).
      assert (Hk : forall t a b e, vfin a -> vfin b -> vfin (V e) -> Forall words_finite (i_bed t a b e)).
      { intros. unfold i_bed. wf. }
      destruct c; cbn [i_cmd] in E1.
      - apply Ok_inj in E1. destruct E1 as [<- <-]. split; [apply Hk; auto using vfin_VZ|].
        repeat split; auto. cbn. rewrite tok_0. eexists; reflexivity.
      - apply Ok_inj in E1. destruct E1 as [<- <-]. split; [apply Hk; auto using vfin_VZ|].
        repeat split; auto. cbn. rewrite tok_60. eexists; reflexivity.
      - apply Ok_inj in E1. destruct E1 as [<- <-]. destruct A1. split; [wf|exact Hs].
      - apply Ok_inj in E1. destruct E1 as [<- <-]. split; [apply Hk; auto|]. repeat split; auto.
      - eapply layers_words; eauto. }
    destruct K as [K1 K2].
    destruct (IH _ _ _ E2 K2 A2 P2 H2) as [L1 L2]. split; [apply Forall_app; auto|exact L2].
Qed.

Lemma words_thm sett cs s' is : vfin (V (- RetractionDistance sett)%num) -> vfin (V (n0 + half)%num) ->
  i_cmds sett newState cs = Ok (s', is) -> Forall angles_finite cs ->
  Forall (Forall pt_finite) (cmds_paths cs) ->
  Forall print_E_finite is -> Forall words_finite is.
Proof.
  intros HR Hh E Ha Hp HE. eapply (cmds_words sett cs HR newState s' is); eauto.
  assert (vfin (V n0)) by (rewrite tok_0; eexists; reflexivity).
  repeat split; auto.
Qed.

End P4.
