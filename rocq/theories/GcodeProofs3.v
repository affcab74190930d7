(** * Proofs about executions: E register, bed axes, retraction, head positions *)
From Coq Require Import ZArith NArith String Ascii List Bool Lia.
From Verif Require Import Arith Prim Gcode GcodeSpec GcodeInstr GcodeClaims GcodeText GcodeProofs GcodeInv TextOK GcodeProofs2.
Import ListNotations.

Section P3.
Context {A : Arith}.

(** ** E register *)

Lemma segs_e sett p : forall e m, m_e m = V e ->
  m_e (run m (i_segs sett e p)) = V (e_segs sett e p).
Proof.
  induction p as [|p1 [|p2 r] IH]; intros e m Hm; try exact Hm.
  rewrite i_segs_cons, e_segs_cons. change (run m (?i :: ?l)) with (run (exec m i) l).
  apply IH. cbn [exec G]. rewrite !is_cmd_G. cbn [Z.eqb orb].
  unfold exec_move. cbn [m_e]. rewrite (arg_axis_skip _ _ "E") by discriminate. reflexivity.
Qed.

Lemma segs_e2 sett p1 p2 r e m :
  m_e (run m (i_segs sett e (p1 :: p2 :: r))) = V (e_segs sett e (p1 :: p2 :: r)).
Proof.
  rewrite i_segs_cons, e_segs_cons. change (run m (?i :: ?l)) with (run (exec m i) l).
  apply segs_e. cbn [exec G]. rewrite !is_cmd_G. cbn [Z.eqb orb].
  unfold exec_move. cbn [m_e]. rewrite (arg_axis_skip _ _ "E") by discriminate. reflexivity.
Qed.

Lemma path_e sett s p0 p m :
  (Retraction sett = false \/ 2 <= length (p0 :: p)) -> m_e m = V (eOff s) ->
  m_e (run m (i_path sett s p0 p)) = V (e_segs sett (eOff s) (p0 :: p)).
Proof.
  intros Hg Hm. unfold i_path. rewrite !run_app.
  destruct p as [|p1 r].
  - destruct Hg as [R|Hl]; [|cbn in Hl; lia].
    apply segs_e. unfold i_retract. rewrite R. exact Hm.
  - apply segs_e2.
Qed.



Lemma cmd_paths_ok (Q : path -> Prop) (okc : command -> Prop) cs :
  Forall (cmd_paths Q) cs -> Forall (fun c => bed_cmd c = true -> okc c) cs ->
  Forall (cmd_ok Q okc) cs.
Proof.
  rewrite !Forall_forall. intros H1 H2 c Hc. specialize (H1 c Hc). specialize (H2 c Hc).
  destruct c as [| | | |ls]; cbn in *; auto.
  eapply Forall_impl; [|exact H1]. intros l Hl. cbn beta in Hl.
  apply Forall_app in Hl. destruct Hl as [K1 Hl]. apply Forall_app in Hl. destruct Hl as [K2 Hl].
  apply Forall_app in Hl. destruct Hl as [K3 Hl]. repeat split; assumption.
Qed.

Lemma bed_run_e cmd sett s s' is m :
  bed_cmd cmd = true -> i_cmd cmd s sett = Ok (s', is) -> m_e m = V (eOff s) ->
  m_e (run m is) = V (eOff s').
Proof.
  intros B E Hm.
  destruct cmd; try discriminate; cbn [i_cmd] in E; apply Ok_inj in E; destruct E as [<- <-]; cbn; auto.
Qed.



Lemma path_instr_not_marker sett i : path_instr sett i -> layer_marker i = None.
Proof. destruct 1; reflexivity. Qed.

Lemma path_instr_not_92 sett i : path_instr sett i -> forall ws, i <> Instr ("G"%char, VFin 92000) ws.
Proof. destruct 1; discriminate. Qed.

Lemma path_trace_P sett (P : event -> Prop) c :
  (forall m i, path_instr sett i -> P (Event c m i (exec m i))) ->
  forall is m, Forall (path_instr sett) is -> Forall P (events c m is).
Proof.
  intros H is m Hs. apply (path_instrs_trace sett (fun _ => True) P c); auto.
Qed.

Context {TO : TextOK A}.

Lemma reg_thm sett cs s' is m0 c0 :
  i_cmds sett newState cs = Ok (s', is) ->
  Forall (cmd_paths (retr_ok sett)) cs ->
  m_e m0 = VFin 0 ->
  Forall marker_reg (events c0 m0 is) /\
  m_e (run m0 is) = V (eOff s') /\ (nofZ 4000 <? eOff s')%num = false.
Proof.
  intros E Hp Hm.
  apply (program_inv sett (retr_ok sett) (fun _ => True) (fun s m => m_e m = V (eOff s)) marker_reg
     (fun s => (nofZ 4000 <? eOff s)%num = false)) with (cs := cs); auto.
  - intros s c m t Mk Hi H. exfalso. exact (H Mk).
  - intros s c m t B Hi _. exists (eOff s). auto.
  - intros s k. unfold s_reset. destruct (nofZ 4000 <? eOff s)%num eqn:Q; cbn; [apply tok_4000|exact Q].
  - intros s c s1 is1 B E1 Hb. destruct (i_bed_frame _ _ _ _ _ B E1) as (_ & _ & _ & _ & -> & _). exact Hb.
  - intros c s m Hi. unfold i_fan. destruct (Bool.eqb _ _), (fan_for sett (layerIndex s));
      (split; [repeat constructor; intros H; exfalso; apply H; reflexivity|exact Hi]).
  - intros c s m Hi. unfold i_speed, s_speed. destruct (_ =? _)%Z;
      (split; [repeat constructor; intros H; exfalso; apply H; reflexivity|exact Hi]).
  - intros c s m p0 p Hok Pl Hi. split.
    + apply (path_trace_P sett); [|apply i_path_shape].
      intros m' i Hs H. exfalso. exact (H (path_instr_not_marker _ _ Hs)).
    + apply path_e; assumption.
  - intros c s m Hi. unfold i_reset, s_reset. destruct (_ <? _)%num.
    + split; [repeat constructor; intros H; exfalso; apply H; reflexivity|]. cbn. symmetry. apply tok_0.
    + split; [constructor|exact Hi].
  - intros c s m cmd s2 is2 _ B Hi E2. split; [|eapply bed_run_e; eauto].
    destruct cmd; try discriminate; cbn [i_cmd] in E2; apply Ok_inj in E2; destruct E2 as [_ <-];
      repeat constructor; intros H; exfalso; apply H; reflexivity.
  - apply cmd_paths_ok; [exact Hp|]. apply Forall_forall. auto.
  - cbn. apply tok_4000.
  - cbn. rewrite Hm. symmetry. apply tok_0.
Qed.

Lemma reset_thm sett cs s' is m0 c0 :
  i_cmds sett newState cs = Ok (s', is) ->
  Forall (cmd_paths (retr_ok sett)) cs -> Forall only_layers cs ->
  m_e m0 = VFin 0 ->
  Forall reset_reg (events c0 m0 is).
Proof.
  intros E Hp Ho Hm.
  enough (K : Forall reset_reg (events c0 m0 is) /\ m_e (run m0 is) = V (eOff s') /\ True) by apply K.
  apply (program_inv sett (retr_ok sett) only_layers (fun s m => m_e m = V (eOff s)) reset_reg
     (fun s => True)) with (cs := cs); auto.
  - intros s c m t Mk Hi ws H. discriminate.
  - intros s c m t B Hi ws H. discriminate.
  - intros c s m Hi. unfold i_fan. destruct (Bool.eqb _ _), (fan_for sett (layerIndex s));
      (split; [repeat constructor; intros; discriminate|exact Hi]).
  - intros c s m Hi. unfold i_speed, s_speed. destruct (_ =? _)%Z;
      (split; [repeat constructor; intros; discriminate|exact Hi]).
  - intros c s m p0 p Hok Pl Hi. split.
    + apply (path_trace_P sett); [|apply i_path_shape].
      intros m' i Hs ws H. exfalso. eapply path_instr_not_92; eauto.
    + apply path_e; assumption.
  - intros c s m Hi. unfold i_reset, s_reset. destruct (nofZ 4000 <? eOff s)%num eqn:Q.
    + split; [|cbn; symmetry; apply tok_0]. constructor; [|constructor]. intros ws _. cbn.
      split; [exists (eOff s); auto|reflexivity].
    + split; [constructor|exact Hi].
  - intros c s m cmd s2 is2 Hc B Hi E2. split; [|eapply bed_run_e; eauto].
    destruct cmd; try discriminate; try contradiction; cbn [i_cmd] in E2; apply Ok_inj in E2; destruct E2 as [_ <-].
    repeat constructor; intros; discriminate.
  - apply cmd_paths_ok; [exact Hp|]. eapply Forall_impl; [|exact Ho]. auto.
  - cbn. rewrite Hm. symmetry. apply tok_0.
Qed.

(** ** C08: bed axes *)


Lemma path_instr_bed sett i m t : m_tool m = 0%Z -> t <> 0%Z -> path_instr sett i ->
  m_disp (exec m i) t = m_disp m t.
Proof.
  intros H0 Ht. apply Z.eqb_neq in Ht. destruct 1; try reflexivity.
  - cbn. unfold upd_disp. rewrite H0, Ht. reflexivity.
  - cbn [exec G]. rewrite !is_cmd_G. cbn [Z.eqb orb]. unfold exec_move. cbn [m_disp].
    rewrite (arg_axis_skip _ _ "E") by discriminate. cbn. unfold upd_disp. rewrite H0, Ht. reflexivity.
Qed.

Lemma path_instrs_bed sett is t : t <> 0%Z -> forall m, Forall (path_instr sett) is -> m_tool m = 0%Z ->
  m_disp (run m is) t = m_disp m t.
Proof.
  intros Ht. induction is as [|i r IH]; intros m H H0; [reflexivity|].
  apply Forall_cons_iff in H. destruct H as [H1 H2].
  change (run m (i :: r)) with (run (exec m i) r). rewrite IH; auto.
  - eapply path_instr_bed; eauto.
  - rewrite (proj2 (path_instr_exec _ _ m H1)). exact H0.
Qed.

Definition bed_inv (s : gstate) (m : mach) : Prop :=
  m_tool m = 0%Z /\
  (vfin (V (st_t1 s)) /\ m_disp m 1 = V (st_t1 s)) /\
  (vfin (V (st_t2 s)) /\ m_disp m 2 = V (st_t2 s)).


Lemma vplus_sub a b : vfin a -> vfin b -> vplus a (vsubt b a) = b.
Proof. intros [x ->] [y ->]. cbn. f_equal. lia. Qed.

Lemma i_bed_disp m t from target e u : t = 1%Z \/ t = 2%Z ->
  m_disp (run m (i_bed t from target e)) u =
    (if (u =? t)%Z then vplus (m_disp m t) (vsubt target from) else m_disp m u) /\
  m_tool (run m (i_bed t from target e)) = 0%Z.
Proof. intros [-> | ->]; split; reflexivity. Qed.

Lemma bed_cmd_inv cmd sett s s' is m :
  angle_ok cmd -> bed_cmd cmd = true -> i_cmd cmd s sett = Ok (s', is) -> bed_inv s m ->
  bed_inv s' (run m is).
Proof.
  intros Ha B E (H0 & [F1 D1] & [F2 D2]).
  assert (W : forall z, vfin (VZ z)) by (intros z; eexists; reflexivity).
  assert (V0 : V n0 = VZ 0) by apply tok_0.
  assert (V60 : V (nofZ 60) = VZ 60) by apply tok_60.
  destruct cmd; try discriminate; cbn [i_cmd] in E; apply Ok_inj in E; destruct E as [<- <-]; cbn in Ha;
    unfold bed_inv; cbn [st_t1 st_t2 set_t1 set_t2]; rewrite ?V0, ?V60;
    try (rewrite !(fun u => proj1 (i_bed_disp m _ _ _ (eOff s) u (or_intror eq_refl))),
                 (proj2 (i_bed_disp m _ _ _ (eOff s) 0%Z (or_intror eq_refl))));
    try (rewrite !(fun u => proj1 (i_bed_disp m _ _ _ (eOff s) u (or_introl eq_refl))),
                 (proj2 (i_bed_disp m _ _ _ (eOff s) 0%Z (or_introl eq_refl))));
    rewrite ?D1, ?D2; cbn [Z.eqb Pos.eqb].
  - repeat split; auto. now apply vplus_sub.
  - repeat split; auto. now apply vplus_sub.
  - repeat split; auto.
  - repeat split; auto. now apply vplus_sub.
Qed.

Lemma bed_thm sett cs s' is m0 :
  i_cmds sett newState cs = Ok (s', is) -> Forall angle_ok cs ->
  m_tool m0 = 0%Z -> m_disp m0 1 = VFin 0 -> m_disp m0 2 = VFin 0 ->
  bed_inv s' (run m0 is).
Proof.
  intros E Ha T0 D1 D2.
  enough (K : Forall (fun _ => True) (events ctx0 m0 is) /\ bed_inv s' (run m0 is) /\ True) by apply K.
  assert (triv : forall l : list event, Forall (fun _ => True) l) by (intros l; now apply Forall_forall).
  apply (program_inv sett (fun _ => True) angle_ok bed_inv (fun _ => True) (fun s => True)) with (cs := cs); auto.
  - intros c s m Hi. split; [apply triv|]. unfold i_fan. destruct (Bool.eqb _ _), (fan_for sett (layerIndex s)); exact Hi.
  - intros c s m Hi. split; [apply triv|]. unfold i_speed, s_speed. destruct (_ =? _)%Z; exact Hi.
  - intros c s m p0 p _ _ (H0 & [F1 K1] & [F2 K2]). split; [apply triv|].
    pose proof (i_path_shape sett s p0 p) as Sh. unfold bed_inv.
    rewrite (path_instrs_bed _ _ 1%Z ltac:(discriminate) _ Sh H0),
      (path_instrs_bed _ _ 2%Z ltac:(discriminate) _ Sh H0), (proj2 (path_instrs_run _ _ m Sh)).
    cbn. auto.
  - intros c s m Hi. split; [apply triv|]. unfold i_reset, s_reset. destruct (_ <? _)%num; exact Hi.
  - intros c s m cmd s2 is2 Hc B Hi E2. split; [apply triv|]. eapply bed_cmd_inv; eauto.
  - apply Forall_forall. rewrite Forall_forall in Ha. intros c Hc. specialize (Ha c Hc).
    destruct c; cbn in *; auto. apply Forall_forall. intros l _. repeat split; apply Forall_forall; auto.
  - unfold bed_inv. cbn. rewrite tok_0. repeat split; auto; eexists; reflexivity.
Qed.


Lemma i_layers_t sett ls : forall s s' is, i_layers sett s ls = Ok (s', is) ->
  st_t1 s' = st_t1 s /\ st_t2 s' = st_t2 s.
Proof.
  induction ls as [|l r IH]; intros s s' is E.
  - cbn in E. apply Ok_inj in E. destruct E as [<- _]. auto.
  - apply i_layers_cons_inv in E. destruct E as (s1 & o1 & o2 & E1 & E2 & ->).
    destruct (i_layer_frame _ _ _ _ _ E1). destruct (IH _ _ _ E2). split; congruence.
Qed.

Lemma i_cmds_t sett cs : forall s s' is z, i_cmds sett s cs = Ok (s', is) ->
  V (st_t2 s) = VZ z ->
  st_t1 s' = last_rotation (st_t1 s) cs /\ V (st_t2 s') = VZ (last_tilt z cs).
Proof.
  induction cs as [|c r IH]; intros s s' is z E Hz.
  - cbn in E. apply Ok_inj in E. destruct E as [<- _]. auto.
  - apply i_cmds_cons_inv in E. destruct E as (s1 & o1 & o2 & E1 & E2 & ->).
    destruct c; cbn [i_cmd] in E1; try (apply Ok_inj in E1; destruct E1 as [<- _]).
    + exact (IH _ _ _ 0%Z E2 tok_0).
    + exact (IH _ _ _ 60%Z E2 tok_60).
    + exact (IH _ _ _ z E2 Hz).
    + exact (IH _ _ _ z E2 Hz).
    + destruct (i_layers_t _ _ _ _ _ E1) as [K1 K2]. cbn [last_rotation last_tilt]. rewrite <- K1.
      apply (IH _ _ _ z E2). now rewrite K2.
Qed.

(** ** C15: retraction is an absolute E move *)



Lemma arg_axis_none a b e : arg "F" (axis_words a b ++ [("E"%char, V e)])%list = None.
Proof. rewrite (arg_axis_skip _ _ "F") by discriminate. reflexivity. Qed.

Ltac evs := repeat (apply Forall_cons || apply Forall_nil).

Lemma retraction_thm sett cs s' is m0 c0 :
  i_cmds sett newState cs = Ok (s', is) -> m_tool m0 = 0%Z ->
  Forall (retr_abs sett) (events c0 m0 is).
Proof.
  intros E Hm.
  enough (K : Forall (retr_abs sett) (events c0 m0 is) /\ m_tool (run m0 is) = 0%Z /\ True) by apply K.
  assert (no : forall e, (forall c ws, ev_instr e = Instr c ws -> is_cmd c "G" 1 = false \/ has "F" ws = false) ->
     retr_abs sett e).
  { intros e H [_ R]. destruct (ev_instr e) as [|c ws]; [contradiction|].
    destruct (H c ws eq_refl) as [Q|Q]; rewrite Q in R; [discriminate|].
    rewrite andb_false_r in R. discriminate. }
  apply (program_inv sett (fun _ => True) (fun _ => True) (fun s m => m_tool m = 0%Z) (retr_abs sett)
     (fun s => True)) with (cs := cs) (s' := s'); auto using all_cmds_ok.
  - intros. apply no. discriminate.
  - intros. apply no. discriminate.
  - intros c s m Hi. unfold i_fan. destruct (Bool.eqb _ _), (fan_for sett (layerIndex s));
      (split; [evs; apply no; intros ? ? [= <- <-]; auto|exact Hi]).
  - intros c s m Hi. unfold i_speed, s_speed. destruct (_ =? _)%Z;
      (split; [evs; apply no; intros ? ? [= <- <-]; auto|exact Hi]).
  - intros c s m p0 p _ _ Hi. pose proof (i_path_shape sett s p0 p) as Sh.
    split; [|rewrite (proj2 (path_instrs_run _ _ m Sh)); exact Hi].
    apply (path_trace_P sett); [|exact Sh].
    intros m' i Hs. destruct Hs.
    + apply no. intros ? ? [= <- <-]; auto.
    + apply no. intros ? ? [= <- <-]; auto.
    + intros [T0 _]. cbn in T0. cbn. unfold upd_disp. rewrite T0. cbn. auto.
    + apply no. cbn [ev_instr]. unfold G. intros c1 ws1 Q.
      assert (Ws : ws1 = (axis_words a b ++ [("E"%char, V e)])%list) by congruence. subst ws1.
      right. unfold has. now rewrite arg_axis_none.
  - intros c s m Hi. unfold i_reset, s_reset. destruct (_ <? _)%num;
      (split; [evs; apply no; intros ? ? [= <- <-]; auto|exact Hi]).
  - intros c s m cmd s2 is2 _ B Hi E2.
    assert (K : forall t from target e, t <> 0%Z ->
       Forall (retr_abs sett) (events c m (i_bed t from target e)) /\ m_tool (run m (i_bed t from target e)) = 0%Z).
    { intros t from target e Ht. split; [|reflexivity].
      evs; try (apply no; intros ? ? [= <- <-]; auto; fail).
      intros [T0 _]. cbn in T0. exfalso. unfold VZ in T0. rewrite Z.div_mul in T0 by lia. auto. }
    destruct cmd; try discriminate; cbn [i_cmd] in E2; apply Ok_inj in E2; destruct E2 as [_ <-].
    + now apply K.
    + now apply K.
    + split; [|exact Hi]. evs. apply no. intros ? ? [= <- <-]. auto.
    + now apply K.
Qed.

End P3.
