(** * Invariants of an execution: a general principle *)
From Coq Require Import ZArith NArith String Ascii List Bool Lia.
From Verif Require Import Arith Prim Gcode GcodeSpec GcodeInstr GcodeText GcodeProofs.
Import ListNotations.

Lemma events_cons c m i r :
  events c m (i :: r) = Event (see c i) m i (exec m i) :: events (see c i) (exec m i) r.
Proof. reflexivity. Qed.

Definition wall_section (t : string) : bool :=
  (t =? "OUTER_PATHES")%string || (t =? "MIDDLE_PATHES")%string || (t =? "INNER_PATHES")%string.

Section Inv.
Context {A : Arith}.
Variable sett : gsett.
(** the paths and the bed commands considered *)
Variable okp : path -> Prop.
Variable okc : command -> Prop.
Variable Inv : gstate -> mach -> Prop.
Variable P : event -> Prop.

(** the place of a path with respect to the emitter state *)
Definition place_ok (s : gstate) (c : ctx) : Prop :=
  c_layer c = Some (Z.to_N (layerIndex s)) /\
  (if isWall s then wall_section (c_sect c) = true else c_sect c = "FILL_PATHES"%string) /\
  fan s = fan_for sett (layerIndex s) /\
  feedrate s = speed_for sett (layerIndex s) (isWall s) /\
  (0 <= layerIndex s)%Z.

Definition bed_cmd (c : command) : bool := match c with LayersMoving _ => false | _ => true end.

Definition steps_ok (c : ctx) (m : mach) (is : list instr) (s' : gstate) : Prop :=
  Forall P (events c m is) /\ Inv s' (run m is).

(** a condition that holds of the state between layers *)
Variable Bnd : gstate -> Prop.
Hypothesis Hcomment : forall s c m t, layer_marker (Comment t) = None -> Inv s m -> P (Event c m (Comment t) m).
Hypothesis Hmarker : forall s c m t, Bnd s -> Inv s m -> P (Event c m (Comment t) m).
Hypothesis Bnd_reset : forall s k, Bnd (set_layerIndex (s_reset s) k).
Hypothesis Bnd_bed : forall s c s' is, bed_cmd c = true -> i_cmd c s sett = Ok (s', is) -> Bnd s -> Bnd s'.
Hypothesis Hfan : forall c s m, Inv s m ->
  steps_ok c m (i_fan sett s) (set_fan s (fan_for sett (layerIndex s))).
Hypothesis Hwall : forall s m b, Inv s m -> Inv (set_isWall s b) m.
Hypothesis Hspeed : forall c s m, Inv s m -> steps_ok c m (i_speed sett s) (s_speed sett s).
Hypothesis Hpath : forall c s m p0 p, okp (p0 :: p) -> place_ok s c -> Inv s m ->
  steps_ok c m (i_path sett s p0 p) (s_path sett s p0 p).
Hypothesis Hreset : forall c s m, Inv s m -> steps_ok c m (i_reset s) (s_reset s).
Hypothesis Hli : forall s m, Inv s m -> feedrate s = speed_for sett (layerIndex s) false ->
  Inv (set_layerIndex s (layerIndex s + 1)) m.
Hypothesis Hbed : forall c s m cmd s' is, okc cmd -> bed_cmd cmd = true -> Inv s m ->
  i_cmd cmd s sett = Ok (s', is) -> steps_ok c m is s'.

Lemma steps_app c m a b s s' :
  steps_ok c m a s -> (forall c' m', Inv s m' -> steps_ok c' m' b s') -> steps_ok c m (a ++ b) s'.
Proof.
  intros [H1 H2] K. destruct (K (see_all c a) (run m a) H2) as [K1 K2]. split.
  - rewrite events_app. apply Forall_app. auto.
  - rewrite run_app. exact K2.
Qed.

Lemma place_frame s s' c : same_frame s s' -> place_ok s c -> place_ok s' c.
Proof.
  intros [] (? & ? & ? & ? & ?). unfold place_ok.
  rewrite sf_fan, sf_li, sf_fr, sf_w. auto.
Qed.

Lemma paths_inv ps : Forall okp ps -> forall s s' is c m,
  i_paths sett s ps = Ok (s', is) -> place_ok s c -> Inv s m -> steps_ok c m is s'.
Proof.
  induction 1 as [|p r Hp _ IH]; intros s s' is c m E Pl Hi.
  - cbn in E. apply Ok_inj in E. destruct E as [<- <-]. split; [constructor|exact Hi].
  - destruct p as [|p0 p]; cbn [i_paths] in E; [discriminate|].
    destruct (i_paths sett (s_path sett s p0 p) r) as [[s2 is2]| |] eqn:E2; cbn [rbind] in E; try discriminate.
    apply Ok_inj in E. destruct E as [<- <-].
    destruct (Hpath c s m p0 p Hp Pl Hi) as [K1 K2].
    pose proof (path_instrs_see _ _ c (i_path_shape sett s p0 p)) as Sc.
    assert (Pl' : place_ok (s_path sett s p0 p) c) by (eapply place_frame; [apply s_path_frame|exact Pl]).
    destruct (IH _ _ _ c _ E2 Pl' K2) as [L1 L2]. split.
    + rewrite events_app, Sc. apply Forall_app. auto.
    + rewrite run_app. exact L2.
Qed.

(** the state before the moves of a group is in order *)
Definition pre_place (s : gstate) (L : N) : Prop :=
  L = Z.to_N (layerIndex s) /\ fan s = fan_for sett (layerIndex s) /\ (0 <= layerIndex s)%Z.

Lemma group_inv t ps s s' is c m :
  i_group t sett s ps = Ok (s', is) ->
  layer_marker (Comment t) = None ->
  (if isWall s then wall_section t = true else t = "FILL_PATHES"%string) ->
  Forall okp ps ->
  (exists L, c_layer c = Some L /\ pre_place s L) -> Inv s m ->
  steps_ok c m is s' /\ (c_layer (see_all c is) = c_layer c).
Proof.
  intros E Mk Sec Ok_ (L & HL & HP) Hi.
  pose proof (i_group_inv _ _ _ _ _ _ E) as (is' & E' & ->).
  assert (Sc : see c (Comment t) = Ctx (c_layer c) t) by (cbn [see]; now rewrite Mk).
  assert (Ssp : see_all (Ctx (c_layer c) t) (i_speed sett s) = Ctx (c_layer c) t).
  { unfold i_speed. now destruct (_ =? _)%Z. }
  destruct (Hspeed (Ctx (c_layer c) t) s m Hi) as [K1 K2].
  assert (Pl : place_ok (s_speed sett s) (Ctx (c_layer c) t)).
  { destruct HP as (-> & HP2 & HP3). unfold place_ok.
    assert (same : forall T (f : gstate -> T), (forall n, f (set_feedrate s n) = f s) -> f (s_speed sett s) = f s).
    { intros T f Hf. unfold s_speed. destruct (_ =? _)%Z; auto. }
    rewrite (same _ layerIndex), (same _ isWall), (same _ fan) by reflexivity.
    rewrite s_speed_feedrate. cbn [c_layer c_sect]. rewrite HL. repeat split; auto. }
  destruct (paths_inv ps Ok_ _ _ _ _ _ E' Pl K2) as [L1 L2].
  split; [split|].
  - rewrite events_cons, Sc. constructor; [now apply (Hcomment s)|].
    rewrite events_app, Ssp. apply Forall_app. auto.
  - change (run m (Comment t :: (i_speed sett s ++ is')%list)) with (run m (i_speed sett s ++ is')).
    rewrite run_app. exact L2.
  - change (see_all c (Comment t :: (i_speed sett s ++ is')%list))
      with (see_all (see c (Comment t)) (i_speed sett s ++ is')).
    rewrite Sc, see_all_app, Ssp.
    rewrite (path_instrs_see _ _ _ (i_paths_shape _ _ _ _ _ E')). reflexivity.
Qed.

Definition layer_ok (l : layer) : Prop :=
  Forall okp (l_paths l) /\ Forall okp (l_middle l) /\ Forall okp (oslice (l_inner l)) /\ Forall okp (l_fill l).

Lemma layer_inv l s s' is c m :
  layer_ok l -> i_layer sett s l = Ok (s', is) -> (0 <= layerIndex s)%Z -> Bnd s -> Inv s m ->
  steps_ok c m is s' /\ Bnd s'.
Proof.
  intros (O1 & O2 & O3 & O4) E Hk Hb Hi.
  pose proof (i_layer_inv _ _ _ _ _ E) as (s3 & o3 & s4 & o4 & s5 & o5 & s7 & o7 & G3 & G4 & G5 & G7 & -> & ->).
  set (L := Z.to_N (layerIndex s)).
  set (t0 := ("LAYER:" ++ itoa (layerIndex s))%string).
  assert (Sc : see c (Comment t0) = Ctx (Some L) "").
  { cbn [see]. unfold t0. rewrite marker_LAYER by assumption. reflexivity. }
  assert (HF : steps_ok (Ctx (Some L) "") m (i_fan sett s) (set_fan s (fan_for sett (layerIndex s))) /\
               see_all (Ctx (Some L) "") (i_fan sett s) = Ctx (Some L) "").
  { split; [now apply Hfan|]. unfold i_fan. now destruct (Bool.eqb _ _). }
  destruct HF as [[F1 F2] F3].
  pose proof (i_group_frame _ _ _ _ _ _ G3) as Fr3.
  pose proof (i_group_frame _ _ _ _ _ _ G4) as Fr4.
  pose proof (i_group_frame _ _ _ _ _ _ G5) as Fr5.
  pose proof (i_group_frame _ _ _ _ _ _ G7) as Fr7.
  destruct Fr3 as [a1 a2 a3 a4 _ _], Fr4 as [b1 b2 b3 b4 _ _], Fr5 as [c1' c2 c3 c4 _ _],
    Fr7 as [_ d2 d3 _ _ _].
  cbn [fan layerIndex isWall set_isWall set_fan] in *.
  destruct (group_inv "OUTER_PATHES" _ _ _ _ (Ctx (Some L) "") (run m (i_fan sett s)) G3 eq_refl eq_refl O1) as [[A1 A2] A3].
  { exists L. split; [reflexivity|]. repeat split; auto. } { now apply Hwall. }
  set (cA := see_all (Ctx (Some L) "") o3) in *.
  set (mA := run (run m (i_fan sett s)) o3) in *.
  destruct (group_inv "MIDDLE_PATHES" _ _ _ _ cA mA G4 eq_refl ltac:(rewrite a4; reflexivity) O2) as [[B1 B2] B3].
  { exists L. split; [exact A3|]. unfold pre_place. rewrite a1, a2. repeat split; auto. } { exact A2. }
  set (cB := see_all cA o4) in *. set (mB := run mA o4) in *.
  assert (Hw5 : isWall s4 = true) by congruence.
  destruct (group_inv "INNER_PATHES" _ _ _ _ cB mB G5 eq_refl ltac:(rewrite Hw5; reflexivity) O3) as [[C1 C2] C3].
  { exists L. split; [rewrite B3; exact A3|]. unfold pre_place. rewrite b1, b2, a1, a2. repeat split; auto. } { exact B2. }
  set (cC := see_all cB o5) in *. set (mC := run mB o5) in *.
  destruct (group_inv "FILL_PATHES" _ _ _ _ cC mC G7 eq_refl eq_refl O4) as [[D1 D2] D3].
  { exists L. split; [rewrite C3, B3; exact A3|]. unfold pre_place. cbn [fan layerIndex set_isWall].
    rewrite c1', c2, b1, b2, a1, a2. repeat split; auto. } { now apply Hwall. }
  set (cD := see_all cC o7) in *. set (mD := run mC o7) in *.
  destruct (Hreset cD s7 mD D2) as [E1 E2].
  split; [split|apply Bnd_reset].
  - rewrite events_cons, Sc. constructor; [now apply (Hmarker s)|].
    change (exec m (Comment t0)) with m.
    rewrite !events_app, F3. repeat (apply Forall_app; split; [assumption|]). assumption.
  - change (run m (Comment t0 :: ?r)) with (run m r).
    rewrite !run_app. apply Hli; [exact E2|].
    destruct (s_reset_frame s7) as [_ r2 r3 _ _ _]. rewrite r2, r3, d3, d2. reflexivity.
Qed.

Lemma layers_inv ls : Forall layer_ok ls -> forall s s' is c m,
  i_layers sett s ls = Ok (s', is) -> (0 <= layerIndex s)%Z -> Bnd s -> Inv s m ->
  steps_ok c m is s' /\ (0 <= layerIndex s')%Z /\ Bnd s'.
Proof.
  induction 1 as [|l r Hl _ IH]; intros s s' is c m E Hk Hb Hi.
  - cbn in E. apply Ok_inj in E. destruct E as [<- <-]. split; [split; [constructor|exact Hi]|auto].
  - apply i_layers_cons_inv in E. destruct E as (s1 & o1 & o2 & E1 & E2 & ->).
    pose proof (layer_inv l s s1 o1 c m Hl E1 Hk Hb Hi) as [[K1 K2] K3].
    pose proof (lf_li _ _ _ (i_layer_frame _ _ _ _ _ E1)) as Hk1.
    destruct (IH s1 s' o2 (see_all c o1) (run m o1) E2 ltac:(lia) K3 K2) as [[L1 L2] L3].
    split; [split|exact L3].
    + rewrite events_app. apply Forall_app. auto.
    + rewrite run_app. exact L2.
Qed.

Definition cmd_ok (c : command) : Prop :=
  match c with LayersMoving ls => Forall layer_ok ls | _ => okc c end.

Lemma cmds_inv cs : Forall cmd_ok cs -> forall s s' is c m,
  i_cmds sett s cs = Ok (s', is) -> (0 <= layerIndex s)%Z -> Bnd s -> Inv s m ->
  steps_ok c m is s' /\ (0 <= layerIndex s')%Z /\ Bnd s'.
Proof.
  induction 1 as [|cmd r Hc _ IH]; intros s s' is c m E Hk Hb Hi.
  - cbn in E. apply Ok_inj in E. destruct E as [<- <-]. split; [split; [constructor|exact Hi]|auto].
  - apply i_cmds_cons_inv in E. destruct E as (s1 & o1 & o2 & E1 & E2 & ->).
    assert (K : steps_ok c m o1 s1 /\ (0 <= layerIndex s1)%Z /\ Bnd s1).
    { destruct (bed_cmd cmd) eqn:B.
      - split; [eapply Hbed; eauto|split; [|eapply Bnd_bed; eauto]].
        + destruct cmd; cbn in Hc, B; auto; discriminate.
        + destruct cmd; cbn [i_cmd] in E1; try discriminate; apply Ok_inj in E1; destruct E1 as [<- _]; exact Hk.
      - destruct cmd; try discriminate. eapply layers_inv; eauto. }
    destruct K as ([K1 K2] & K3 & K4).
    destruct (IH s1 s' o2 (see_all c o1) (run m o1) E2 K3 K4 K2) as [[L1 L2] L3].
    split; [split|exact L3].
    + rewrite events_app. apply Forall_app. auto.
    + rewrite run_app. exact L2.
Qed.

Lemma program_inv cs s' is c m :
  Forall cmd_ok cs -> i_cmds sett newState cs = Ok (s', is) -> Bnd newState -> Inv newState m ->
  Forall P (events c m is) /\ Inv s' (run m is) /\ Bnd s'.
Proof.
  intros Hc E Hb Hi.
  destruct (cmds_inv cs Hc newState s' is c m E (Z.le_refl 0) Hb Hi) as ([K1 K2] & _ & K3). auto.
Qed.

End Inv.

Lemma all_cmds_ok {A : Arith} cs : Forall (cmd_ok (fun _ => True) (fun _ => True)) cs.
Proof.
  apply Forall_forall. intros [| | | |ls] _; cbn; auto.
  apply Forall_forall. intros l _. repeat split; apply Forall_forall; auto.
Qed.
