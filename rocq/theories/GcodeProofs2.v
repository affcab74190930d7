(** * Proofs about executions of the emitted program *)
From Coq Require Import ZArith NArith String Ascii List Bool Lia.
From Verif Require Import Arith Prim Gcode GcodeSpec GcodeInstr GcodeClaims GcodeText GcodeProofs GcodeInv TextOK.
Import ListNotations.

Lemma is_cmd_G n k : is_cmd ("G"%char, VZ n) "G" k = (n =? k)%Z.
Proof.
  unfold is_cmd, VZ. cbn [fst snd]. rewrite Ascii.eqb_refl. cbn.
  destruct (Z.eqb_spec (n * 1000) (k * 1000)), (Z.eqb_spec n k); auto; lia.
Qed.

Section P2.
Context {A : Arith}.

Lemma i_bed_frame cmd s sett s' is :
  bed_cmd cmd = true -> i_cmd cmd s sett = Ok (s', is) ->
  fan s' = fan s /\ layerIndex s' = layerIndex s /\ feedrate s' = feedrate s /\ isWall s' = isWall s /\
  eOff s' = eOff s /\ pos s' = pos s.
Proof.
  destruct cmd; intros B H; try discriminate; cbn [i_cmd] in H; apply Ok_inj in H; destruct H as [<- _]; cbn; auto 10.
Qed.

Lemma print_not_speed n : is_print (G 0 [("F"%char, n)]) = false. Proof. reflexivity. Qed.

(** ** C02: fan *)


Lemma fan_ok_other sett c m i m' :
  is_print i = false -> (forall n ws, i <> Instr ("M"%char, VFin n) ws) -> fan_ok sett (Event c m i m').
Proof.
  intros H1 H2. split; [|split]; cbn; intros; try congruence; exfalso; eapply H2; eauto.
Qed.

Lemma fan_for_N sett k : (0 <= k)%Z ->
  fan_for sett k = (if (Z.to_N k =? 0)%N then negb (FanOffLayer1 sett) else true).
Proof.
  intros H. unfold fan_for. destruct (Z.eqb_spec k 0) as [->|]; [reflexivity|].
  destruct (N.eqb_spec (Z.to_N k) 0); [lia|reflexivity].
Qed.

Lemma bed_not_M c sett s s' is i :
  bed_cmd c = true -> i_cmd c s sett = Ok (s', is) -> In i is ->
  is_print i = false /\ (forall n ws, i <> Instr ("M"%char, VFin n) ws) /\
  (forall m, m_fan (exec m i) = m_fan m).
Proof.
  destruct c; intros B H; try discriminate; cbn [i_cmd] in H; apply Ok_inj in H; destruct H as [_ <-];
    cbn [In i_bed]; intros; repeat (destruct H as [<-|H]); try tauto;
    (split; [reflexivity|split; [discriminate|reflexivity]]).
Qed.

Lemma events_in_all (Q : instr -> Prop) (P : event -> Prop) (I : mach -> Prop) is :
  (forall i, In i is -> Q i) ->
  (forall c m i, I m -> Q i -> I (exec m i) /\ P (Event c m i (exec m i))) ->
  (forall i, In i is -> forall c, see c i = c) ->
  forall c m, I m -> Forall P (events c m is) /\ I (run m is).
Proof.
  intros HQ H. induction is as [|i r IH]; intros Sc c m Hm; [split; [constructor|assumption]|].
  destruct (H c m i Hm (HQ i (or_introl eq_refl))) as [H1 H2].
  destruct (IH (fun j Hj => HQ j (or_intror Hj)) (fun j Hj => Sc j (or_intror Hj)) c (exec m i) H1).
  cbn. rewrite (Sc i (or_introl eq_refl)). split; [constructor; assumption|assumption].
Qed.

Lemma bed_see cmd sett s s' is i c :
  bed_cmd cmd = true -> i_cmd cmd s sett = Ok (s', is) -> In i is -> see c i = c.
Proof.
  destruct cmd; intros B H; try discriminate; cbn [i_cmd] in H; apply Ok_inj in H; destruct H as [_ <-];
    cbn [In i_bed]; intros; repeat (destruct H as [<-|H]); try tauto; reflexivity.
Qed.

Lemma fan_thm_full sett cs s' is m0 c0 :
  i_cmds sett newState cs = Ok (s', is) -> m_fan m0 = false ->
  Forall (fan_ok sett) (events c0 m0 is) /\ m_fan (run m0 is) = fan s'.
Proof.
  intros E Hm.
  enough (K : Forall (fan_ok sett) (events c0 m0 is) /\ m_fan (run m0 is) = fan s' /\ True) by (destruct K as (K1 & K2 & _); auto).
  apply (program_inv sett (fun _ => True) (fun _ => True) (fun s m => m_fan m = fan s) (fan_ok sett)
    (fun _ => True)) with (cs := cs); auto using all_cmds_ok.
  - intros. apply fan_ok_other; [reflexivity|discriminate].
  - intros. apply fan_ok_other; [reflexivity|discriminate].
  - intros c s m Hi. unfold i_fan.
    destruct (Bool.eqb_spec (fan_for sett (layerIndex s)) (fan s)) as [Eq|Ne].
    + split; [constructor|]. cbn. congruence.
    + split.
      * constructor; [|constructor]. split; [|split]; cbn.
        -- discriminate.
        -- intros ws. destruct (fan_for sett (layerIndex s)), (fan s); try congruence; intros; discriminate.
        -- intros ws. destruct (fan_for sett (layerIndex s)), (fan s); try congruence; intros; discriminate.
      * cbn. destruct (fan_for sett (layerIndex s)); reflexivity.
  - intros c s m Hi. unfold i_speed, s_speed. destruct (_ =? _)%Z.
    + split; [constructor|exact Hi].
    + split; [|exact Hi]. constructor; [|constructor]. apply fan_ok_other; [reflexivity|discriminate].
  - intros c s m p0 p _ (P1 & P2 & P3 & P4 & P5) Hi.
    apply (path_instrs_trace sett (fun m => m_fan m = fan s)); [|exact Hi|apply i_path_shape].
    intros m' i Hm' Hs. destruct (path_instr_exec _ _ m' Hs) as [F _]. rewrite F. split; [exact Hm'|].
    split; [|split]; cbn.
    + intros _. exists (Z.to_N (layerIndex s)). split; [exact P1|].
      rewrite F, Hm', P3. now apply fan_for_N.
    + intros ws ->. inversion Hs.
    + intros ws ->. inversion Hs.
  - intros c s m Hi. unfold i_reset, s_reset. destruct (_ <? _)%num.
    + split; [|exact Hi]. constructor; [|constructor]. apply fan_ok_other; [reflexivity|discriminate].
    + split; [constructor|exact Hi].
  - intros c s m cmd s2 is2 _ B Hi E2.
    destruct (i_bed_frame _ _ _ _ _ B E2) as (F & _). unfold steps_ok. rewrite F.
    apply (events_in_all (fun i => In i is2) (fan_ok sett) (fun m => m_fan m = fan s)); auto.
    + intros c' m' i Hm' Hin. destruct (bed_not_M _ _ _ _ _ _ B E2 Hin) as (N1 & N2 & N3).
      rewrite N3. split; [exact Hm'|now apply fan_ok_other].
    + intros. eapply bed_see; eauto.
Qed.
Lemma fan_thm sett cs s' is m0 c0 :
  i_cmds sett newState cs = Ok (s', is) -> m_fan m0 = false ->
  Forall (fan_ok sett) (events c0 m0 is).
Proof. intros E Hm. exact (proj1 (fan_thm_full sett cs s' is m0 c0 E Hm)). Qed.

(** ** C03, C04: feedrate *)

Lemma i_segs_shape2 sett sett2 p : forall e, Forall (path_instr sett2) (i_segs sett e p).
Proof.
  induction p as [|p1 [|p2 r] IH]; intros e; try constructor.
  - apply pi_print.
  - apply IH.
Qed.

Lemma path_instr_f sett i m : Retraction sett = false -> path_instr sett i -> m_f (exec m i) = m_f m.
Proof.
  intros R. destruct 1; try reflexivity; [congruence|].
  cbn [exec G]. rewrite !is_cmd_G. cbn [Z.eqb orb].
  unfold exec_move. cbn [m_f]. rewrite (arg_axis_skip _ _ "F") by discriminate. reflexivity.
Qed.



Lemma only_layers_ok (okp : path -> Prop) cs :
  Forall only_layers cs -> (forall p, okp p) ->
  Forall (cmd_ok okp only_layers) cs.
Proof.
  intros H Hp. apply Forall_forall. intros c Hc. rewrite Forall_forall in H. specialize (H c Hc).
  destruct c; cbn in *; auto.
  apply Forall_forall. intros l _. repeat split; apply Forall_forall; auto.
Qed.

Lemma place_speed sett s c : place_ok sett s c ->
  speed_for sett (layerIndex s) (isWall s) =
  (if (Z.to_N (layerIndex s) =? 0)%N then PrintSpeedLayer1 sett
   else if (c_sect c =? "FILL_PATHES")%string then PrintSpeed sett else PrintSpeedWall sett).
Proof.
  intros (_ & P2 & _ & _ & P5). unfold speed_for.
  destruct (Z.eqb_spec (layerIndex s) 0) as [->|]; [reflexivity|].
  destruct (N.eqb_spec (Z.to_N (layerIndex s)) 0); [lia|].
  destruct (isWall s); [|rewrite P2; reflexivity].
  destruct (String.eqb_spec (c_sect c) "FILL_PATHES") as [E|]; [|reflexivity].
  rewrite E in P2. discriminate.
Qed.

Lemma speed_thm sett cs s' is m0 c0 :
  i_cmds sett newState cs = Ok (s', is) ->
  Retraction sett = false -> Forall only_layers cs ->
  (m_f m0 = VFin 0 \/ PrintSpeedLayer1 sett <> 0%Z) ->
  Forall (speed_ok sett) (events c0 m0 is).
Proof.
  intros E R Hc Hm.
  set (Inv := fun (s : gstate) (m : mach) => m_f m = VZ (feedrate s) \/
     (feedrate s = 0 /\ layerIndex s = 0 /\ PrintSpeedLayer1 sett <> 0)%Z).
  enough (K : Forall (speed_ok sett) (events c0 m0 is) /\ Inv s' (run m0 is) /\ True) by apply K.
  apply (program_inv sett (fun _ => True) only_layers Inv (speed_ok sett) (fun _ => True)) with (cs := cs);
    auto using only_layers_ok.
  - repeat intro; discriminate.
  - repeat intro; discriminate.
  - intros c s m Hi. unfold i_fan. destruct (Bool.eqb _ _).
    + split; [constructor|exact Hi].
    + split; [|destruct (fan_for sett (layerIndex s)); exact Hi].
      constructor; [|constructor]. intros H; destruct (fan_for sett (layerIndex s)); discriminate.
  - intros c s m Hi. unfold i_speed, s_speed. destruct (Z.eqb_spec (speed_for sett (layerIndex s) (isWall s)) (feedrate s)).
    + split; [constructor|exact Hi].
    + split; [constructor; [intros H; discriminate|constructor]|]. left. reflexivity.
  - intros c s m p0 p _ Pl Hi.
    assert (Hf : m_f m = VZ (feedrate s)).
    { destruct Hi as [Hi|(F0 & L0 & N0)]; [exact Hi|]. exfalso. apply N0.
      destruct Pl as (_ & _ & _ & P4 & _). rewrite F0, L0 in P4. unfold speed_for in P4. cbn in P4. congruence. }
    assert (K : Forall (speed_ok sett) (events c m (i_path sett s p0 p)) /\
                m_f (run m (i_path sett s p0 p)) = VZ (feedrate s)).
    { apply (path_instrs_trace sett (fun m => m_f m = VZ (feedrate s))); [|exact Hf|apply i_path_shape].
      intros m' i Hm' Hs. rewrite (path_instr_f _ _ m' R Hs). split; [exact Hm'|].
      intros _. exists (Z.to_N (layerIndex s)). cbn [ev_at ev_after].
      split; [apply Pl|]. rewrite (path_instr_f _ _ m' R Hs), Hm'.
      destruct Pl as (P1 & P2 & P3 & P4 & P5). rewrite P4. unfold VZ.
      rewrite (place_speed sett s c) by (repeat split; assumption). f_equal. lia. }
    destruct K. split; [assumption|]. left. assumption.
  - intros c s m Hi. unfold i_reset, s_reset. destruct (_ <? _)%num.
    + split; [constructor; [intros H; discriminate|constructor]|exact Hi].
    + split; [constructor|exact Hi].
  - intros s m [Hi|(F0 & L0 & N0)] Hf; [left; exact Hi|]. exfalso. apply N0.
    rewrite F0, L0 in Hf. unfold speed_for in Hf. cbn in Hf. congruence.
  - intros c s m cmd s2 is2 Ho B Hi E2. destruct cmd; try contradiction; try discriminate.
    cbn [i_cmd] in E2. apply Ok_inj in E2. destruct E2 as [<- <-].
    split; [constructor; [intros H; discriminate|constructor]|exact Hi].
  - unfold Inv. cbn. destruct Hm; [left; assumption|right; auto].
Qed.


Lemma fan_at_speed sett s v c m : Forall (at_speed v) (events c m (i_fan sett s)).
Proof.
  unfold i_fan. destruct (Bool.eqb _ _), (fan_for sett (layerIndex s)); repeat constructor; intros H; discriminate.
Qed.

Lemma i_segs_f sett v p e c m :
  m_f m = VZ v ->
  Forall (at_speed v) (events c m (i_segs sett e p)) /\ m_f (run m (i_segs sett e p)) = VZ v.
Proof.
  intros Hm.
  set (sett2 := GSett n0 n0 n0 n0 false 0 0 0 false 0 n0).
  apply (path_instrs_trace sett2 (fun m => m_f m = VZ v)); [|exact Hm|apply i_segs_shape2].
  intros m' i Hm' Hs. rewrite (path_instr_f sett2 _ m' eq_refl Hs). split; [exact Hm'|].
  intros _. cbn [ev_after]. rewrite (path_instr_f sett2 _ m' eq_refl Hs), Hm'. unfold VZ. f_equal. lia.
Qed.

Lemma bed_at_speed cmd sett s s' is v :
  bed_cmd cmd = true -> i_cmd cmd s sett = Ok (s', is) ->
  forall c m, Forall (at_speed v) (events c m is).
Proof.
  intros B E c m.
  destruct (events_in_all (fun i => In i is) (at_speed v) (fun _ => True) is) with (c := c) (m := m) as [K _]; auto.
  - intros c' m' i _ Hin. split; [exact I|]. destruct (bed_not_M _ _ _ _ _ _ B E Hin) as (N1 & _).
    intros H. cbn in H. congruence.
  - intros. eapply bed_see; eauto.
Qed.

Lemma retract_speed_thm sett cs s' is m0 c0 :
  i_cmds sett newState cs = Ok (s', is) -> Retraction sett = true ->
  Forall (at_speed (RetractionSpeed sett)) (events c0 m0 is).
Proof.
  intros E R.
  enough (K : Forall (at_speed (RetractionSpeed sett)) (events c0 m0 is) /\ True /\ True) by apply K.
  apply (program_inv sett (fun _ => True) (fun _ => True) (fun _ _ => True)
    (at_speed (RetractionSpeed sett)) (fun _ => True)) with (cs := cs) (s' := s'); auto using all_cmds_ok.
  - repeat intro; discriminate.
  - repeat intro; discriminate.
  - intros c s m Hi. split; [apply fan_at_speed|exact I].
  - intros c s m Hi. unfold i_speed. destruct (_ =? _)%Z; split; auto; constructor; [|constructor].
    intros H; discriminate.
  - intros c s m p0 p _ _ _. split; [|exact I].
    unfold i_path, i_retract. rewrite R. cbn [List.app].
    constructor; [intros H; discriminate|]. constructor; [intros H; discriminate|].
    constructor; [intros H; discriminate|]. constructor; [intros H; discriminate|].
    apply i_segs_f. reflexivity.
  - intros c s m Hi. unfold i_reset. destruct (_ <? _)%num; split; auto; constructor; [|constructor].
    intros H; discriminate.
  - intros c s m cmd s2 is2 _ B _ E2. split; [|exact I]. eapply bed_at_speed; eauto.
Qed.

(** after a bed motion print moves keep the feedrate 300 if all speeds are equal *)
Lemma events_layer c m is e : In e (events c m is) ->
  c_layer (ev_at e) = c_layer c \/ exists k, In k (markers is) /\ c_layer (ev_at e) = Some k.
Proof.
  revert c m. induction is as [|i r IH]; intros c m; [intros []|].
  assert (Sc : c_layer (see c i) = c_layer c \/ exists k, layer_marker i = Some k /\ c_layer (see c i) = Some k).
  { destruct i as [t|w ws]; [|left; reflexivity]. cbn [see].
    destruct (layer_marker (Comment t)) as [k|]; [right; exists k; auto|left; reflexivity]. }
  assert (Mk : forall k, In k (markers r) -> In k (markers (i :: r))).
  { intros k Hk. cbn. destruct (layer_marker i); [right|]; exact Hk. }
  assert (Mi : forall k, layer_marker i = Some k -> In k (markers (i :: r))).
  { intros k Hk. cbn. rewrite Hk. left. reflexivity. }
  intros [<-|H].
  - cbn [ev_at]. destruct Sc as [|(k & H1 & H2)]; [left; assumption|right; exists k; auto].
  - apply IH in H. destruct H as [H|(k & H1 & H2)].
    + rewrite H. destruct Sc as [|(k & H1 & H2)]; [left; assumption|right; exists k; auto].
    + right. exists k. auto.
Qed.


Lemma bed_speed_thm sett cs s s' is m0 c0 v :
  i_cmds sett s cs = Ok (s', is) -> (0 <= layerIndex s)%Z ->
  Retraction sett = false ->
  PrintSpeedLayer1 sett = v -> PrintSpeedWall sett = v -> PrintSpeed sett = v ->
  feedrate s = v -> m_f m0 = VZ 300 ->
  Forall (at_speed 300) (events c0 m0 is).
Proof.
  intros E Hk R S1 S2 S3 Hf Hm.
  set (Inv := fun (s : gstate) (m : mach) => feedrate s = v /\ m_f m = VZ 300).
  destruct (cmds_inv sett (fun _ => True) (fun _ => True) Inv (at_speed 300) (fun _ => True)) with
    (cs := cs) (s := s) (s' := s') (is := is) (c := c0) (m := m0) as [[K _] _]; auto using all_cmds_ok.
  - repeat intro; discriminate.
  - repeat intro; discriminate.
  - intros c s1 m Hi. split; [apply fan_at_speed|].
    unfold i_fan. destruct (Bool.eqb _ _); [exact Hi|]. destruct (fan_for _ _); exact Hi.
  - intros c s1 m Hi. unfold i_speed, s_speed.
    assert (speed_for sett (layerIndex s1) (isWall s1) = v) as ->.
    { unfold speed_for. destruct (_ =? _)%Z; auto. destruct (isWall s1); auto. }
    destruct Hi as [Hi1 Hi2]. rewrite Hi1, Z.eqb_refl. split; [constructor|split; assumption].
  - intros c s1 m p0 p _ Pl [Hi1 Hi2].
    assert (K : Forall (at_speed 300) (events c m (i_path sett s1 p0 p)) /\
                m_f (run m (i_path sett s1 p0 p)) = VZ 300).
    { apply (path_instrs_trace sett (fun m => m_f m = VZ 300)); [|exact Hi2|apply i_path_shape].
      intros m' i Hm' Hs. rewrite (path_instr_f _ _ m' R Hs). split; [exact Hm'|].
      intros _. cbn [ev_after]. now rewrite (path_instr_f _ _ m' R Hs), Hm'. }
    destruct K. split; [assumption|]. split; assumption.
  - intros c s1 m Hi. unfold i_reset, s_reset. destruct (_ <? _)%num; split; auto; constructor; [|constructor].
    intros H; discriminate.
  - intros c s1 m cmd s2 is2 _ B Hi E2. split; [eapply bed_at_speed; eauto|].
    destruct (i_bed_frame _ _ _ _ _ B E2) as (_ & _ & F & _). destruct Hi as [Hi1 Hi2].
    split; [congruence|].
    destruct cmd; try discriminate; cbn [i_cmd] in E2; apply Ok_inj in E2; destruct E2 as [_ <-]; cbn; auto.
  - split; assumption.
Qed.

Lemma i_layers_feedrate sett ls : forall s s' is, ls <> [] ->
  PrintSpeedLayer1 sett = PrintSpeed sett ->
  i_layers sett s ls = Ok (s', is) -> feedrate s' = PrintSpeed sett.
Proof.
  induction ls as [|l r IH]; intros s s' is N Sp E; [congruence|].
  apply i_layers_cons_inv in E. destruct E as (s1 & o1 & o2 & E1 & E2 & ->).
  destruct r as [|l2 r].
  - cbn in E2. apply Ok_inj in E2. destruct E2 as [<- _].
    rewrite (lf_fr _ _ _ (i_layer_frame _ _ _ _ _ E1)). unfold speed_for. destruct (_ =? _)%Z; auto.
  - eapply IH; eauto. discriminate.
Qed.

Lemma i_cmds_feedrate sett cs : forall s s' is,
  PrintSpeedLayer1 sett = PrintSpeed sett ->
  (feedrate s = PrintSpeed sett \/ flat_map cmd_layers cs <> []) ->
  i_cmds sett s cs = Ok (s', is) -> feedrate s' = PrintSpeed sett.
Proof.
  induction cs as [|c r IH]; intros s s' is Sp N E.
  - cbn in E. apply Ok_inj in E. destruct E as [<- _]. destruct N as [N|N]; [exact N|]. cbn in N. congruence.
  - apply i_cmds_cons_inv in E. destruct E as (s1 & o1 & o2 & E1 & E2 & ->).
    apply (IH s1 s' o2 Sp); [|exact E2].
    destruct (bed_cmd c) eqn:B.
    + destruct (i_bed_frame _ _ _ _ _ B E1) as (_ & _ & -> & _).
      destruct c; try discriminate; exact N.
    + destruct c as [| | | |ls]; try discriminate. cbn [i_cmd] in E1.
      destruct ls as [|l ls].
      * cbn in E1. apply Ok_inj in E1. destruct E1 as [<- _]. exact N.
      * left. eapply i_layers_feedrate; eauto. discriminate.
Qed.

Lemma bed_speed_program sett cs1 b cs2 s' is m0 c0 e k :
  i_cmds sett newState (cs1 ++ b :: cs2) = Ok (s', is) ->
  Retraction sett = false ->
  PrintSpeedLayer1 sett = PrintSpeed sett -> PrintSpeedWall sett = PrintSpeed sett ->
  moves_bed b -> flat_map cmd_layers cs1 <> [] ->
  c_layer c0 = None ->
  In e (events c0 m0 is) -> is_print (ev_instr e) = true ->
  c_layer (ev_at e) = Some k -> (N.of_nat (length (flat_map cmd_layers cs1)) <= k)%N ->
  m_f (ev_after e) = VFin 300000.
Proof.
  intros E R S1 S2 Hb N Hc0 Hin Hp Hk Hle.
  apply i_cmds_app_inv in E. destruct E as (s1 & o1 & o2 & E1 & E2 & ->).
  apply i_cmds_cons_inv in E2. destruct E2 as (s2 & o3 & o4 & E3 & E4 & ->).
  rewrite !events_app in Hin. apply in_app_or in Hin.
  pose proof (markers_cmds sett cs1 newState s1 o1 0%nat eq_refl E1) as [Mk L1].
  destruct Hin as [Hin|Hin].
  { exfalso. apply events_layer in Hin. destruct Hin as [H|(k' & H1 & H2)]; [congruence|].
    rewrite Mk in H1. apply in_map_iff in H1. destruct H1 as (n & <- & Hn).
    apply in_seq in Hn. rewrite Hk in H2. injection H2 as ->. lia. }
  assert (Bd : bed_cmd b = true) by (destruct b; cbn in *; tauto).
  apply in_app_or in Hin. destruct Hin as [Hin|Hin].
  { pose proof (bed_at_speed _ _ _ _ _ 300 Bd E3 (see_all c0 o1) (run m0 o1)) as F.
    rewrite Forall_forall in F. exact (F e Hin Hp). }
  pose proof (i_cmds_feedrate sett cs1 newState s1 o1 S1 (or_intror N) E1) as Fr.
  destruct (i_bed_frame _ _ _ _ _ Bd E3) as (_ & Li & Fr2 & _).
  pose proof (bed_speed_thm sett cs2 s2 s' o4 (run (run m0 o1) o3) (see_all (see_all c0 o1) o3)
     (PrintSpeed sett) E4) as F.
  assert (Hm : m_f (run (run m0 o1) o3) = VZ 300).
  { destruct b; cbn in Hb; try contradiction; cbn [i_cmd] in E3; apply Ok_inj in E3; destruct E3 as [_ <-]; reflexivity. }
  specialize (F ltac:(rewrite Li, L1; lia) R S1 S2 eq_refl ltac:(congruence) Hm).
  rewrite Forall_forall in F. exact (F e Hin Hp).
Qed.

End P2.
