(** * Properties C01-C15, C61: generated G-code

    Read with [GcodeSpec] (reader, executor) and [GcodeClaims] (vocabulary).
    [m0] is the printer when the text starts; [events] lists the steps of the
    execution of the text. *)
From Coq Require Import ZArith NArith String Ascii List Bool Lia Reals Lra.
From Flocq Require Import IEEE754.BinarySingleNaN.
From Verif Require Import Arith ArithR ArithF64 F64Facts Prim Gcode GcodeSpec GcodeInstr GcodeClaims GcodeText GcodeProofs GcodeInv TextOK GcodeProofs2 GcodeProofs3 GcodeProofs4 GcodeProofs5 GcodeReal GcodeFloat.
Import ListNotations.
Close Scope R_scope.
Close Scope Z_scope.
Close Scope string_scope.

Section Props.
Context {A : Arith} {T : TextOK A}.

Theorem C01_layer_markers : forall g t, toOutput g = Ok t ->
  exists is, read_gcode t = Some is /\ markers is = map N.of_nat (seq 0 (layerCount g)).
Proof.
  intros g t E. destruct (out_reads g t E) as (s' & is & R & I). exists is. split; [exact R|].
  rewrite layerCount_layers. exact (proj1 (markers_cmds _ _ newState s' is 0 eq_refl I)).
Qed.

Theorem C02_fan_policy : forall g t m0, toOutput g = Ok t -> m_fan m0 = false ->
  exists is, read_gcode t = Some is /\ Forall (fan_ok (g_sett g)) (events ctx0 m0 is).
Proof.
  intros g t m0 E H. destruct (out_reads g t E) as (s' & is & R & I). exists is. split; [exact R|].
  exact (fan_thm _ _ s' is m0 ctx0 I H).
Qed.

Theorem C03_print_speed : forall g t m0, toOutput g = Ok t ->
  Retraction (g_sett g) = false -> Forall only_layers (g_cmds g) ->
  (m_f m0 = VFin 0 \/ PrintSpeedLayer1 (g_sett g) <> 0%Z) ->
  exists is, read_gcode t = Some is /\ Forall (speed_ok (g_sett g)) (events ctx0 m0 is).
Proof.
  intros g t m0 E H1 H2 H3. destruct (out_reads g t E) as (s' & is & R & I). exists is. split; [exact R|].
  exact (speed_thm _ _ s' is m0 ctx0 I H1 H2 H3).
Qed.

Theorem C04_retraction_speed : forall g t m0, toOutput g = Ok t -> Retraction (g_sett g) = true ->
  exists is, read_gcode t = Some is /\ Forall (at_speed (RetractionSpeed (g_sett g))) (events ctx0 m0 is).
Proof.
  intros g t m0 E H. destruct (out_reads g t E) as (s' & is & R & I). exists is. split; [exact R|].
  exact (retract_speed_thm _ _ s' is m0 ctx0 I H).
Qed.

Theorem C04_speed_after_bed_motion : forall sett cs1 b cs2 t m0,
  toOutput (Gcode sett (cs1 ++ b :: cs2)) = Ok t ->
  Retraction sett = false ->
  PrintSpeedLayer1 sett = PrintSpeed sett -> PrintSpeedWall sett = PrintSpeed sett ->
  moves_bed b -> flat_map cmd_layers cs1 <> [] ->
  exists is, read_gcode t = Some is /\
  forall e k, In e (events ctx0 m0 is) -> is_print (ev_instr e) = true ->
    c_layer (ev_at e) = Some k -> (N.of_nat (length (flat_map cmd_layers cs1)) <= k)%N ->
    m_f (ev_after e) = VFin (300 * 1000).
Proof.
  intros sett cs1 b cs2 t m0 E H1 H2 H3 H4 H5. destruct (out_reads _ t E) as (s' & is & R & I).
  exists is. split; [exact R|]. intros e k K1 K2 K3 K4.
  exact (bed_speed_program sett cs1 b cs2 s' is m0 ctx0 e k I H1 H2 H3 H4 H5 eq_refl K1 K2 K3 K4).
Qed.

Theorem C07_register : forall g t m0, toOutput g = Ok t ->
  Forall (cmd_paths (retr_ok (g_sett g))) (g_cmds g) -> m_e m0 = VFin 0 ->
  exists is, read_gcode t = Some is /\
    Forall marker_reg (events ctx0 m0 is) /\
    exists x, m_e (run m0 is) = V x /\ (nofZ 4000 <? x)%num = false.
Proof.
  intros g t m0 E H1 H2. destruct (out_reads g t E) as (s' & is & R & I). exists is. split; [exact R|].
  destruct (reg_thm _ _ s' is m0 ctx0 I H1 H2) as (K1 & K2 & K3). split; [exact K1|]. exists (eOff s'). auto.
Qed.

Theorem C07_reset : forall g t m0, toOutput g = Ok t ->
  Forall (cmd_paths (retr_ok (g_sett g))) (g_cmds g) -> Forall only_layers (g_cmds g) -> m_e m0 = VFin 0 ->
  exists is, read_gcode t = Some is /\ Forall reset_reg (events ctx0 m0 is).
Proof.
  intros g t m0 E H1 H2 H3. destruct (out_reads g t E) as (s' & is & R & I). exists is. split; [exact R|].
  exact (reset_thm _ _ s' is m0 ctx0 I H1 H2 H3).
Qed.

Theorem C08_bed_angles : forall g t m0, toOutput g = Ok t -> Forall angle_ok (g_cmds g) ->
  m_tool m0 = 0%Z -> m_disp m0 1 = VFin 0 -> m_disp m0 2 = VFin 0 ->
  exists is, read_gcode t = Some is /\
    m_tool (run m0 is) = 0%Z /\
    m_disp (run m0 is) 1 = V (last_rotation n0 (g_cmds g)) /\
    m_disp (run m0 is) 2 = VFin (1000 * last_tilt 0 (g_cmds g)).
Proof.
  intros g t m0 E H1 H2 H3 H4. destruct (out_reads g t E) as (s' & is & R & I). exists is. split; [exact R|].
  destruct (bed_thm _ _ s' is m0 I H1 H2 H3 H4) as (K0 & [_ K1] & [_ K2]).
  destruct (i_cmds_t _ _ newState s' is 0%Z I tok_0) as [L1 L2].
  split; [exact K0|]. split; [now rewrite K1, L1|]. rewrite K2, L2. unfold VZ. f_equal. lia.
Qed.

(** Bed commands change neither the print moves nor the register at the end. *)
Theorem C08_bed_neutral : forall sett cs m0 t t',
  Forall (cmd_paths (retr_ok sett)) cs -> m_e m0 = VFin 0 ->
  toOutput (Gcode sett cs) = Ok t -> toOutput (Gcode sett (filter is_layers cs)) = Ok t' ->
  exists is is', read_gcode t = Some is /\ read_gcode t' = Some is' /\
    filter is_print is = filter is_print is' /\ m_e (run m0 is) = m_e (run m0 is').
Proof. exact bed_neutral. Qed.

Theorem C09_C10_head_positions : forall g t m0, toOutput g = Ok t ->
  Retraction (g_sett g) = false -> Forall only_layers (g_cmds g) ->
  Forall steps_fine (cmds_paths (g_cmds g)) ->
  exists is, read_gcode t = Some is /\
    head_trace m0 is = paths_trace (m_x m0) (m_y m0) n0 (cmds_paths (g_cmds g)).
Proof.
  intros g t m0 E H1 H2 H3. destruct (out_reads g t E) as (s' & is & R & I). exists is. split; [exact R|].
  exact (head_thm _ _ s' is m0 H1 I H2 H3).
Qed.

Theorem C10_travel_does_not_extrude : forall g t m0, toOutput g = Ok t ->
  Retraction (g_sett g) = false -> Forall only_layers (g_cmds g) ->
  exists is, read_gcode t = Some is /\ Forall no_extrusion (events ctx0 m0 is).
Proof.
  intros g t m0 E H1 H2. destruct (out_reads g t E) as (s' & is & R & I). exists is. split; [exact R|].
  exact (no_extrusion_thm _ _ s' is m0 ctx0 I H1 H2).
Qed.

Theorem C11_well_formed : forall g t, toOutput g = Ok t ->
  exists is, read_gcode t = Some is /\ intended g = Ok is.
Proof.
  intros g t E. destruct (out_reads g t E) as (s' & is & R & I). exists is. split; [exact R|].
  unfold intended. now rewrite I.
Qed.

Theorem C13_flow_ignored : forall sett f cs,
  toOutput (Gcode (set_flow sett f) cs) = toOutput (Gcode sett cs).
Proof. exact flow_irrelevant. Qed.

Theorem C14_visits : forall g t, toOutput g = Ok t -> Forall only_layers (g_cmds g) ->
  exists is, read_gcode t = Some is /\
    Forall2 performs (filter goes is) (flat_map visits (cmds_paths (g_cmds g))).
Proof.
  intros g t E H. destruct (out_reads g t E) as (s' & is & R & I). exists is. split; [exact R|].
  exact (visits_thm _ _ newState s' is I H).
Qed.

Theorem C15_retraction_absolute : forall g t m0, toOutput g = Ok t -> m_tool m0 = 0%Z ->
  exists is, read_gcode t = Some is /\ Forall (retr_abs (g_sett g)) (events ctx0 m0 is).
Proof.
  intros g t m0 E H. destruct (out_reads g t E) as (s' & is & R & I). exists is. split; [exact R|].
  exact (retraction_thm _ _ s' is m0 ctx0 I H).
Qed.

(** ToOutput panics exactly if some path has no points; it always ends. *)
Theorem C61_output_total : forall g,
  (toOutput g = Panic <-> In [] (cmds_paths (g_cmds g))) /\
  (~ In [] (cmds_paths (g_cmds g)) <-> exists t, toOutput g = Ok t).
Proof.
  intros g. pose proof (output_pan g) as H. destruct (toOutput g) as [t| |]; cbn in H.
  - split; split; [discriminate|tauto|eauto|auto].
  - split; split; [auto|auto|tauto|intros [t E]; discriminate].
  - contradiction.
Qed.

End Props.

(** ** float64 *)

Theorem C05_E_never_decreases : forall (E : elem) (g : @gcode (ArithF64 E)) t m0,
  toOutput g = Ok t -> rate_ok E (g_sett g) -> nonneg (RetractionDistance (g_sett g)) ->
  Forall (cmd_paths (Forall (pt_fin64 E))) (g_cmds g) -> m_e m0 = VFin 0 ->
  exists is, read_gcode t = Some is /\ Forall E_grows (events ctx0 m0 is).
Proof.
  intros E g t m0 Eq H1 H2 H3 H4. destruct (out_reads g t Eq) as (s' & is & R & I). exists is. split; [exact R|].
  exact (grow_thm E _ _ s' is m0 ctx0 I H1 H2 H3 H4).
Qed.

Theorem C11_words_finite : forall (E : elem) (g : @gcode (ArithF64 E)) t,
  toOutput g = Ok t -> fin64 (RetractionDistance (g_sett g)) -> Forall (cmd_fin64 E) (g_cmds g) ->
  Forall (Forall (pt_fin64 E)) (cmds_paths (g_cmds g)) ->
  exists is, read_gcode t = Some is /\ (Forall print_E_finite is -> Forall words_finite is).
Proof.
  intros E g t Eq H1 H2 H3. destruct (out_reads g t Eq) as (s' & is & R & I). exists is. split; [exact R|].
  exact (words_float E _ _ s' is I H1 H2 H3).
Qed.

Theorem C12_written_numbers : forall (E : elem) (x : f64), is_finite x = true ->
  (exists z, read_val (@strF (ArithF64 E) x) = Some (VFin z) /\ (Rabs (IZR z / 1000 - B2R x) <= / 2000)%R) /\
  (exists (neg : bool) i f, @strF (ArithF64 E) x = ((if neg then "-" else "") ++ i ++ "." ++ f)%string /\
    plain_int i /\ allc is_digit f = true /\ String.length f = 3%nat).
Proof. intros E x F. split; [exact (strF_close E x F)|exact (strF_format E x F)]. Qed.

(** ** Exact arithmetic *)

Theorem C06_extruded_length : forall (g : @gcode ArithR) t, toOutput g = Ok t ->
  (BarDiameter (g_sett g) <> 0)%R ->
  exists is, read_gcode t = Some is /\
    print_Es is = layers_E (filament_rate (g_sett g)) 0 (flat_map cmd_layers (g_cmds g)).
Proof.
  intros g t E H. destruct (out_reads g t E) as (s' & is & R & I). exists is. split; [exact R|].
  rewrite (proj1 (cmds_E (g_sett g) H _ newState s' is I)). f_equal. cbn. rcbn. reflexivity.
Qed.

Theorem C09_drift_refuted : forall D : R, exists p g t is,
  g_cmds g = [LayersMoving [Layer_ 0 (V3 0 0 1)%R [p] [] None []]] /\
  toOutput g = Ok t /\ read_gcode t = Some is /\
  m_x (run mach0 is) = VFin 0 /\
  (forall d, (D < px (last p d))%R).
Proof. exact drift_thm. Qed.

(** ** The hypotheses can be met *)

Section Examples.
Notation AF := (ArithF64 elem0).
Definition q (p : Z) : @num AF := nlit p 10.

Definition ex_sett (retr : bool) : @gsett AF :=
  GSett (q 17) (q 10) (q 2) (q 4) true 3600 1800 2400 retr 30 (q 20).
Definition ex_sq (z : Z) : @path AF :=
  [P3 (q 0) (q 0) (q z); P3 (q 100) (q 0) (q z); P3 (q 100) (q 100) (q z); P3 (q 0) (q 0) (q z)].
Definition ex_layer (i : Z) : @layer AF :=
  Layer_ i (V3 (q 0) (q 0) (q 10)) [ex_sq (2 * i + 1)] [ex_sq (2 * i + 1)] None [ex_sq (2 * i + 1)].
Definition ex_plain : @gcode AF := Gcode (ex_sett false) [LayersMoving [ex_layer 0; ex_layer 1]; LayersMoving [ex_layer 2]].
Definition ex_bed : @gcode AF :=
  Gcode (ex_sett true) [LayersMoving [ex_layer 0; ex_layer 1]; RotateZ (q 300); InclineX; LayersMoving [ex_layer 2]; InclineXBack].

(** C01-C03, C07-C11, C13-C15, C61: a program of three layers of nine squares is written *)
Example ex_plain_ok : exists t, toOutput ex_plain = Ok t /\ layerCount ex_plain = 3 /\
  Retraction (g_sett ex_plain) = false /\ Forall only_layers (g_cmds ex_plain) /\
  Forall (cmd_paths (retr_ok (g_sett ex_plain))) (g_cmds ex_plain) /\
  Forall steps_fine (cmds_paths (g_cmds ex_plain)) /\ length (cmds_paths (g_cmds ex_plain)) = 9.
Proof.
  assert (H : exists t, toOutput ex_plain = Ok t) by (vm_compute; eexists; reflexivity).
  destruct H as [t H]. exists t. split; [exact H|].
  split; [reflexivity|]. split; [reflexivity|]. split; [repeat constructor|].
  split; [|split; [|reflexivity]].
  - apply Forall_forall. intros c _. destruct c; cbn; auto. apply Forall_forall. intros l _.
    apply Forall_forall. intros p _. left. reflexivity.
  - assert (K : forall z, steps_fine (ex_sq z)) by (intros z; repeat split; first [left; reflexivity|right; vm_compute; reflexivity]).
    apply Forall_forall. intros p Hp. cbn in Hp. repeat (destruct Hp as [<-|Hp]; [apply K|]). contradiction.
Qed.

(** C04, C07, C08, C15: with retraction and bed motion *)
Example ex_bed_ok : exists t, toOutput ex_bed = Ok t /\ Retraction (g_sett ex_bed) = true /\
  Forall (cmd_paths (retr_ok (g_sett ex_bed))) (g_cmds ex_bed) /\ Forall angle_ok (g_cmds ex_bed) /\
  last_tilt 0 (g_cmds ex_bed) = 0%Z.
Proof.
  assert (H : exists t, toOutput ex_bed = Ok t) by (vm_compute; eexists; reflexivity).
  destruct H as [t H]. exists t. split; [exact H|].
  split; [reflexivity|]. split; [|split; [|reflexivity]].
  - repeat (apply Forall_cons || apply Forall_nil); try exact I; right; cbn; lia.
  - repeat (apply Forall_cons || apply Forall_nil); try exact I. eexists. vm_compute. reflexivity.
Qed.

(** C05, C11: the settings and coordinates are fine *)
Example ex_rate_ok : rate_ok elem0 (g_sett ex_bed) /\ nonneg (RetractionDistance (g_sett ex_bed)) /\
  fin64 (RetractionDistance (g_sett ex_bed)) /\ Forall (cmd_fin64 elem0) (g_cmds ex_bed) /\
  Forall (cmd_paths (Forall (pt_fin64 elem0))) (g_cmds ex_bed).
Proof.
  split; [split; vm_compute; exact I|]. split; [vm_compute; exact I|]. split; [reflexivity|]. split.
  - repeat (apply Forall_cons || apply Forall_nil); try exact I. reflexivity.
  - repeat (apply Forall_cons || apply Forall_nil); try exact I; split; try split; reflexivity.
Qed.

(** C05: if the width is 0 and a distance overflows, E is NaN afterwards *)
Definition ex_zero_width : @gcode AF :=
  Gcode (GSett (q 17) (q 10) (q 2) (q 0) true 3600 1800 2400 false 30 (q 20))
    [LayersMoving [Layer_ 0 (V3 (q 0) (q 0) (q 10)) [[P3 (q 0) (q 0) (q 0); P3 (nlit (10 ^ 200) 1) (q 0) (q 0)]] [] None []]].
(** a test of the program read back *)
Definition on_output (g : @gcode AF) (f : list instr -> bool) : bool :=
  match toOutput g with
  | Ok t => match read_gcode t with Some is => f is | None => false end
  | _ => false
  end.
Lemma on_output_ok g f : on_output g f = true -> exists t is, toOutput g = Ok t /\ read_gcode t = Some is /\ f is = true.
Proof.
  unfold on_output. destruct (toOutput g) as [t| |]; try discriminate. destruct (read_gcode t) as [is|] eqn:R; try discriminate.
  eauto.
Qed.
Theorem C05_zero_width_refuted : exists t is, toOutput ex_zero_width = Ok t /\ read_gcode t = Some is /\
  m_e (run mach0 is) = VNaN.
Proof.
  destruct (on_output_ok ex_zero_width (fun is => match m_e (run mach0 is) with VNaN => true | _ => false end))
    as (t & is & H1 & H2 & H3); [vm_compute; reflexivity|].
  exists t, is. split; [exact H1|split; [exact H2|]]. destruct (m_e (run mach0 is)); congruence.
Qed.

(** C12: rounding happens, ties to even *)
Example ex_strF : map (@strF AF) [nlit 5 10000; nlit 15 10; nlit (-12345) 10000; nlit 1 16; nlit 3 16]
  = ["0.001"; "1.500"; "-1.234"; "0.062"; "0.188"]%string.
Proof. vm_compute. reflexivity. Qed.

(** C04: the fan and the speeds do change on this program *)
Definition print_speeds (is : list instr) : list Z :=
  nodup Z.eq_dec (flat_map (fun e => if is_print (ev_instr e) then match m_f (ev_after e) with VFin z => [z] | _ => [] end else [])
    (events ctx0 mach0 is)).
Example ex_plain_speeds : exists t is, toOutput ex_plain = Ok t /\ read_gcode t = Some is /\
  print_speeds is = [1800000; 2400000; 3600000]%Z.
Proof.
  destruct (on_output_ok ex_plain (fun is => if list_eq_dec Z.eq_dec (print_speeds is) [1800000; 2400000; 3600000]%Z then true else false))
    as (t & is & H1 & H2 & H3); [vm_compute; reflexivity|].
  exists t, is. split; [exact H1|split; [exact H2|]]. destruct (list_eq_dec _ _ _) as [H|H]; [exact H|discriminate].
Qed.
End Examples.

(** C06, C09: exact arithmetic *)
Example ex_real : let g := @Gcode ArithR
    (@GSett ArithR 1 1 1 1 true 1 1 1 false 1 1)%R [LayersMoving [Layer_ 0 (V3 0 0 1)%R [[P3 0 0 0; P3 3 4 0]%R] [] None []]] in
  (BarDiameter (g_sett g) <> 0)%R /\ (exists t, toOutput g = Ok t) /\
  flat_map layer_lens (flat_map cmd_layers (g_cmds g)) = [5%R].
Proof.
  cbn zeta. split; [cbn; lra|]. split.
  - apply (proj2 (C61_output_total _)). intros [H|[]]. discriminate.
  - cbn. unfold rdist. cbn. f_equal. replace (_ + _)%R with (5 * 5)%R by ring. apply sqrt_square. lra.
Qed.

Print Assumptions C01_layer_markers.
Print Assumptions C02_fan_policy.
Print Assumptions C03_print_speed.
Print Assumptions C04_retraction_speed.
Print Assumptions C04_speed_after_bed_motion.
Print Assumptions C05_E_never_decreases.
Print Assumptions C05_zero_width_refuted.
Print Assumptions C06_extruded_length.
Print Assumptions C07_register.
Print Assumptions C07_reset.
Print Assumptions C08_bed_angles.
Print Assumptions C08_bed_neutral.
Print Assumptions C09_C10_head_positions.
Print Assumptions C09_drift_refuted.
Print Assumptions C10_travel_does_not_extrude.
Print Assumptions C11_well_formed.
Print Assumptions C11_words_finite.
Print Assumptions C12_written_numbers.
Print Assumptions C13_flow_ignored.
Print Assumptions C14_visits.
Print Assumptions C15_retraction_absolute.
Print Assumptions C61_output_total.
