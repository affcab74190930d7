(** * G-code in exact arithmetic: extruded length (C06) and position drift (C09) *)
From Coq Require Import ZArith NArith String Ascii List Bool Lia Reals Lra.
From Flocq Require Import Core.Raux.
From Verif Require Import Arith ArithR Prim Gcode GcodeSpec GcodeInstr GcodeClaims GcodeText GcodeProofs GcodeInv TextOK GcodeProofs2 GcodeProofs3 GcodeProofs4.
Import ListNotations.
Open Scope R_scope.

(** ** Specification of C06 *)

Definition rdist (p q : point) : R :=
  sqrt ((px q - px p) * (px q - px p) + (py q - py p) * (py q - py p) + (pz q - pz p) * (pz q - pz p)).

(** lengths of the segments of a path *)
Fixpoint seg_lens (p : path) : list R :=
  match p with
  | a :: (b :: _) as r => rdist a b :: seg_lens r
  | _ => []
  end.
Definition layer_lens (l : layer) : list R := flat_map seg_lens (layer_paths l).
Definition total (ls : list R) : R := fold_right Rplus 0 ls.

(** E words for segments of lengths [ls] when the register was [e0] and length
    [done] has been printed since: exact value, rounded once *)
Fixpoint exact_E (e0 c done : R) (ls : list R) : list val :=
  match ls with
  | [] => []
  | l :: r => V (e0 + c * (done + l))%R :: exact_E e0 c (done + l) r
  end.
Definition after_layer (e0 c : R) (l : layer) : R :=
  let e1 := e0 + c * total (layer_lens l) in if Rlt_dec 4000 e1 then 0 else e1.
Fixpoint layers_E (c e0 : R) (ls : list layer) : list val :=
  match ls with
  | [] => []
  | l :: r => (exact_E e0 c 0 (layer_lens l) ++ layers_E c (after_layer e0 c l) r)%list
  end.
Definition layers_end (c e0 : R) (ls : list layer) : R := fold_left (fun e l => after_layer e c l) ls e0.

(** E words of the print moves of a program *)
Definition print_Es (is : list instr) : list val :=
  flat_map (fun i => if is_print i then
                       match i with
                       | Instr _ ws => match arg "E" ws with Some v => [v] | None => [] end
                       | Comment _ => []
                       end
                     else []) is.

Definition filament_rate (sett : gsett) : R :=
  4 * LineWidth sett * LayerHeight sett / (PI * (BarDiameter sett * BarDiameter sett)).

(** ** Proofs *)

Lemma print_Es_app a b : print_Es (a ++ b) = (print_Es a ++ print_Es b)%list.
Proof. apply flat_map_app. Qed.

Lemma eDelta_rate sett p q : BarDiameter sett <> 0 -> eDelta sett p q = filament_rate sett * rdist p q.
Proof.
  intros H. unfold eDelta, filament_rate, rdist, nsq. rcbn. field. split; [exact H|exact PI_neq0].
Qed.

Lemma total_app a b : total (a ++ b) = total a + total b.
Proof. unfold total. induction a as [|x r IH]; cbn; [lra|rewrite IH; lra]. Qed.

Lemma exact_E_app e0 c d a b : exact_E e0 c d (a ++ b) = (exact_E e0 c d a ++ exact_E e0 c (d + total a) b)%list.
Proof.
  revert d. induction a as [|x r IH]; intros d; cbn.
  - now rewrite Rplus_0_r.
  - rewrite IH, Rplus_assoc. reflexivity.
Qed.

Section Rate.
Variable sett : gsett.
Hypothesis HD : BarDiameter sett <> 0.
Notation c := (filament_rate sett).

Lemma segs_E p : forall e0 d,
  print_Es (i_segs sett (e0 + c * d)%R p) = exact_E e0 c d (seg_lens p) /\
  e_segs sett (e0 + c * d)%R p = e0 + c * (d + total (seg_lens p)).
Proof.
  induction p as [|a [|b r] IH]; intros e0 d; [split; [reflexivity|cbn; f_equal; f_equal; lra]..|].
  rewrite i_segs_cons, e_segs_cons, eDelta_rate by exact HD.
  change (nadd ?x ?y) with (x + y).
  replace (e0 + c * d + c * rdist a b) with (e0 + c * (d + rdist a b)) by ring.
  destruct (IH e0 (d + rdist a b)) as [K1 K2]. rewrite K2.
  change (seg_lens (a :: b :: r)) with (rdist a b :: seg_lens (b :: r)).
  cbn [exact_E]. change (total (rdist a b :: ?l)) with (rdist a b + total l).
  split; [|f_equal; f_equal; lra].
  rewrite <- K1. unfold print_Es at 1. cbn [flat_map].
  destruct (print_instr a b (e0 + c * (d + rdist a b))%R) as [Hp _]. cbn zeta in Hp. rewrite Hp.
  unfold G. destruct (arg_axis a b (e0 + c * (d + rdist a b))%R) as (_ & _ & _ & -> & _). reflexivity.
Qed.

Lemma path_E s p0 p e0 d : eOff s = e0 + c * d ->
  print_Es (i_path sett s p0 p) = exact_E e0 c d (seg_lens (p0 :: p)) /\
  eOff (s_path sett s p0 p) = e0 + c * (d + total (seg_lens (p0 :: p))).
Proof.
  intros He. unfold i_path, s_path. rewrite He. cbn [eOff set_pos set_eOff].
  destruct (segs_E (p0 :: p) e0 d) as [K1 K2]. split; [|exact K2].
  rewrite !print_Es_app, K1. unfold i_retract. destruct (Retraction sett); reflexivity.
Qed.

Lemma paths_E ps : forall s s' is e0 d, i_paths sett s ps = Ok (s', is) -> eOff s = e0 + c * d ->
  print_Es is = exact_E e0 c d (flat_map seg_lens ps) /\
  eOff s' = e0 + c * (d + total (flat_map seg_lens ps)).
Proof.
  induction ps as [|[|p0 p] r IH]; intros s s' is e0 d E He; cbn [i_paths] in E.
  - apply Ok_inj in E. destruct E as [<- <-]. split; [reflexivity|]. rewrite He. cbn. now rewrite Rplus_0_r.
  - discriminate.
  - destruct (i_paths sett (s_path sett s p0 p) r) as [[s2 is2]| |] eqn:E2; cbn [rbind] in E; try discriminate.
    apply Ok_inj in E. destruct E as [<- <-].
    destruct (path_E s p0 p e0 d He) as [K1 K2].
    destruct (IH _ _ _ e0 _ E2 K2) as [L1 L2].
    change (flat_map seg_lens ((p0 :: p) :: r)) with (seg_lens (p0 :: p) ++ flat_map seg_lens r)%list.
    rewrite print_Es_app, exact_E_app, K1, L1, L2, total_app. split; [reflexivity|]. f_equal. f_equal. lra.
Qed.

Lemma group_E t ps s s' is e0 d : i_group t sett s ps = Ok (s', is) -> eOff s = e0 + c * d ->
  print_Es is = exact_E e0 c d (flat_map seg_lens ps) /\
  eOff s' = e0 + c * (d + total (flat_map seg_lens ps)).
Proof.
  intros E He. apply i_group_inv in E. destruct E as (is' & E & ->).
  change (print_Es (Comment t :: ?l)) with (print_Es l). rewrite print_Es_app.
  assert (print_Es (i_speed sett s) = []) as -> by (unfold i_speed; destruct (_ =? _)%Z; reflexivity).
  apply (paths_E ps _ _ _ e0 d E). unfold s_speed. destruct (_ =? _)%Z; exact He.
Qed.

Lemma layer_E l s s' is : i_layer sett s l = Ok (s', is) ->
  print_Es is = exact_E (eOff s) c 0 (layer_lens l) /\ eOff s' = after_layer (eOff s) c l.
Proof.
  intros E.
  pose proof (i_layer_inv _ _ _ _ _ E) as (s3 & o3 & s4 & o4 & s5 & o5 & s7 & o7 & G3 & G4 & G5 & G7 & -> & ->).
  set (e0 := eOff s).
  assert (H0 : eOff (set_isWall (set_fan s (fan_for sett (layerIndex s))) true) = e0 + c * 0).
  { unfold e0. cbn. rewrite Rmult_0_r, Rplus_0_r. reflexivity. }
  destruct (group_E _ _ _ _ _ e0 0 G3 H0) as [A1 A2].
  destruct (group_E _ _ _ _ _ e0 _ G4 A2) as [B1 B2].
  destruct (group_E _ _ _ _ _ e0 _ G5 B2) as [C1 C2].
  assert (C3 : eOff (set_isWall s5 false) = e0 + c * (0 + total (flat_map seg_lens (l_paths l)) +
     total (flat_map seg_lens (l_middle l)) + total (flat_map seg_lens (oslice (l_inner l))))) by exact C2.
  destruct (group_E _ _ _ _ _ e0 _ G7 C3) as [D1 D2].
  change (print_Es (Comment ?t :: ?l)) with (print_Es l). rewrite !print_Es_app.
  assert (print_Es (i_fan sett s) = []) as ->.
  { unfold i_fan. destruct (Bool.eqb _ _), (fan_for sett (layerIndex s)); reflexivity. }
  assert (print_Es (i_reset s7) = []) as -> by (unfold i_reset; destruct (_ <? _)%num; reflexivity).
  unfold layer_lens, layer_paths. rewrite !flat_map_app, !exact_E_app, A1, B1, C1, D1, app_nil_r.
  split; [reflexivity|].
  unfold after_layer, layer_lens, layer_paths. rewrite !flat_map_app, !total_app.
  assert (Es : eOff s7 = e0 + c * (total (flat_map seg_lens (l_paths l)) + (total (flat_map seg_lens (l_middle l)) +
     (total (flat_map seg_lens (oslice (l_inner l))) + total (flat_map seg_lens (l_fill l)))))).
  { rewrite D2. f_equal. f_equal. lra. }
  cbn [eOff set_layerIndex]. unfold s_reset. rcbn. rewrite Es. unfold Rltb.
  destruct (Rlt_dec _ _); [|exact Es]. cbn. rcbn. reflexivity.
Qed.

Lemma layers_E_thm ls : forall s s' is, i_layers sett s ls = Ok (s', is) ->
  print_Es is = layers_E c (eOff s) ls /\ eOff s' = layers_end c (eOff s) ls.
Proof.
  induction ls as [|l r IH]; intros s s' is E.
  - cbn in E. apply Ok_inj in E. destruct E as [<- <-]. split; reflexivity.
  - apply i_layers_cons_inv in E. destruct E as (s1 & o1 & o2 & E1 & E2 & ->).
    destruct (layer_E _ _ _ _ E1) as [K1 K2]. destruct (IH _ _ _ E2) as [L1 L2].
    rewrite print_Es_app, K1, L1, L2, K2. split; reflexivity.
Qed.

Lemma cmds_E cs : forall s s' is, i_cmds sett s cs = Ok (s', is) ->
  print_Es is = layers_E c (eOff s) (flat_map cmd_layers cs) /\
  eOff s' = layers_end c (eOff s) (flat_map cmd_layers cs).
Proof.
  induction cs as [|cmd r IH]; intros s s' is E.
  - cbn in E. apply Ok_inj in E. destruct E as [<- <-]. split; reflexivity.
  - apply i_cmds_cons_inv in E. destruct E as (s1 & o1 & o2 & E1 & E2 & ->).
    destruct (IH _ _ _ E2) as [L1 L2]. rewrite print_Es_app, L1, L2. cbn [flat_map].
    assert (K : print_Es o1 = layers_E c (eOff s) (cmd_layers cmd) /\ eOff s1 = layers_end c (eOff s) (cmd_layers cmd)).
    { destruct cmd; cbn [i_cmd] in E1; try (apply Ok_inj in E1; destruct E1 as [<- <-]; split; reflexivity).
      eapply layers_E_thm; eauto. }
    destruct K as [-> ->]. unfold layers_end. rewrite fold_left_app. split; [|reflexivity].
    generalize (flat_map cmd_layers r). intros ls2. generalize (cmd_layers cmd) (eOff s). clear.
    intros ls. induction ls as [|l r2 IH2]; intros e; [reflexivity|].
    cbn [layers_E fold_left List.app]. rewrite <- app_assoc, IH2. reflexivity.
Qed.
End Rate.

(** ** C09: the head may drift away without bound *)

Definition tiny : R := / 2048.

(** k, k+1, ..., k+n steps of 1/2048 along x *)
Fixpoint creep (k : Z) (n : nat) : path :=
  P3 (IZR k * tiny) 0 0 :: match n with O => [] | S n' => creep (k + 1) n' end.

Lemma creep_words k : axis_words (P3 (IZR (k + 1) * tiny) 0 0) (P3 (IZR k * tiny) 0 0) = [].
Proof.
  unfold axis_words. cbn [px py pz]. rcbn.
  assert (H1 : Rleb (1 / 1000) (Rabs (IZR (k + 1) * tiny - IZR k * tiny)) = false).
  { apply Rleb_false. rewrite plus_IZR. replace ((IZR k + 1) * tiny - IZR k * tiny) with tiny by ring.
    unfold tiny. rewrite Rabs_pos_eq by lra. lra. }
  assert (H2 : Rleb (1 / 1000) (Rabs (0 - 0)) = false).
  { apply Rleb_false. rewrite Rminus_0_r, Rabs_R0. lra. }
  rewrite H1, H2. reflexivity.
Qed.

Lemma creep_S k n : creep k (S n) = P3 (IZR k * tiny) 0 0 :: creep (k + 1) n.
Proof. reflexivity. Qed.

Lemma creep_hd k n b r : creep k n = b :: r -> b = P3 (IZR k * tiny) 0 0.
Proof. destruct n; intros [= <- _]; reflexivity. Qed.

Lemma creep_head sett n : forall k e m, m_x (run m (i_segs sett e (creep k n))) = m_x m.
Proof.
  induction n as [|n IH]; intros k e m; [reflexivity|].
  rewrite creep_S. destruct (creep (k + 1) n) as [|b r] eqn:C; [destruct n; discriminate|].
  rewrite i_segs_cons.
  assert (b = P3 (IZR (k + 1) * tiny) 0 0) as -> by (eapply creep_hd; exact C).
  rewrite creep_words, <- C. change (run m (?i :: ?l)) with (run (exec m i) l).
  rewrite IH. reflexivity.
Qed.

Lemma creep_last n : forall k d, last (creep k n) d = P3 (IZR (k + Z.of_nat n) * tiny) 0 0.
Proof.
  induction n as [|n IH]; intros k d.
  - cbn. now rewrite Z.add_0_r.
  - rewrite creep_S. destruct (creep (k + 1) n) as [|b r] eqn:C; [destruct n; discriminate|].
    change (last (?a :: b :: r) d) with (last (b :: r) d). rewrite <- C, IH.
    do 2 f_equal. f_equal. lia.
Qed.

Definition drift_sett : gsett := GSett 1 100 (1/2) (1/2) false 0 0 0 false 0 0.
Definition drift_gcode (n : nat) : gcode :=
  Gcode drift_sett [LayersMoving [Layer_ 0 (V3 0 0 1) [creep 0 n] [] None []]].

Definition keeps_x (is : list instr) : Prop := forall m, m_x m = VFin 0 -> m_x (run m is) = VFin 0.

Lemma drift_intended n : exists is, intended (drift_gcode n) = Ok is /\ m_x (run mach0 is) = VFin 0.
Proof.
  unfold intended, drift_gcode. cbn [g_sett g_cmds i_cmds i_cmd i_layers].
  assert (C : exists r, creep 0 n = P3 (0 * tiny) 0 0 :: r) by (destruct n; eexists; reflexivity).
  destruct C as [r C].
  unfold i_layer. cbn [l_paths l_middle l_inner l_fill oslice]. unfold i_group. cbn [i_paths]. rewrite C.
  cbn [rbind layerIndex]. eexists. split; [reflexivity|].
  assert (Ka : forall a b, keeps_x a -> keeps_x b -> keeps_x (a ++ b)).
  { intros a b Ha Hb m Hm. rewrite run_app. auto. }
  assert (Kc : forall t l, keeps_x l -> keeps_x (Comment t :: l)) by (intros t l Hl m Hm; exact (Hl m Hm)).
  assert (K0 : keeps_x []) by (intros m Hm; exact Hm).
  assert (Hr : forall s, keeps_x (i_reset s)) by (intros s m Hm; unfold i_reset; destruct (_ <? _)%num; exact Hm).
  assert (Hp : forall s, keeps_x (i_speed drift_sett s)) by (intros s m Hm; unfold i_speed; destruct (_ =? _)%Z; exact Hm).
  assert (Hf : forall s, keeps_x (i_fan drift_sett s)).
  { intros s m Hm. unfold i_fan. destruct (Bool.eqb _ _), (fan_for drift_sett (layerIndex s)); exact Hm. }
  assert (Hpath : forall s, keeps_x (i_path drift_sett s (P3 (0 * tiny) 0 0) r)).
  { intros s m Hm. unfold i_path. rewrite <- C, !run_app, creep_head.
    cbn -[V Rmult]. unfold V. rcbn. rewrite Rplus_0_r, Rmult_0_l. rewrite (Rfix3_Z 0) by lia. reflexivity. }
  match goal with |- m_x (run mach0 ?l) = _ => enough (K : keeps_x l) by (apply K; reflexivity) end.
  repeat first [apply Hpath | apply Hf | apply Hp | apply Hr | apply Kc | apply Ka | apply K0 | apply Hr | apply Hp | apply Hf | apply Hpath].
Qed.

Lemma drift_thm (D : R) : exists p g t is,
  g_cmds g = [LayersMoving [Layer_ 0 (V3 0 0 1) [p] [] None []]] /\
  toOutput g = Ok t /\ read_gcode t = Some is /\
  m_x (run mach0 is) = VFin 0 /\
  (forall d, D < px (last p d)).
Proof.
  set (n := Z.to_nat (up (Rmax D 1 * 2048))).
  destruct (drift_intended n) as (is & E & Hx).
  exists (creep 0 n), (drift_gcode n).
  pose proof (output_intended (drift_gcode n)) as O. rewrite E in O.
  destruct (toOutput (drift_gcode n)) as [t| |]; try contradiction.
  exists t, is. repeat split; auto.
  intros d. rewrite creep_last. cbn [px]. rewrite Z.add_0_l.
  pose proof (archimed (Rmax D 1 * 2048)) as [H _]. pose proof (Rmax_l D 1). pose proof (Rmax_r D 1).
  assert (0 <= up (Rmax D 1 * 2048))%Z by (apply le_IZR; lra).
  rcbn. unfold n. rewrite Z2Nat.id by assumption. unfold tiny. lra.
Qed.
