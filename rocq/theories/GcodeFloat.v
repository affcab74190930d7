(** * G-code in float64: E never decreases (C05), written numbers (C12), finite words (C11) *)
From Coq Require Import ZArith NArith String Ascii List Bool Lia Reals Lra.
From Coq Require Import DecimalString DecimalN.
From Flocq Require Import Core.Core IEEE754.BinarySingleNaN.
From Verif Require Import Arith ArithR ArithF64 F64Facts Prim Gcode GcodeSpec GcodeInstr GcodeClaims GcodeText GcodeProofs GcodeInv TextOK GcodeProofs2 GcodeProofs3 GcodeProofs4.
Import ListNotations.

Section Float.
Context (E : elem).
Existing Instance ArithF64.
Notation AE := (ArithF64 E).

(** ** C05 *)

(** E does not decrease at a print move *)
Definition E_grows (e : event) : Prop :=
  is_print (ev_instr e) = true -> vle (m_e (ev_before e)) (m_e (ev_after e)).

Definition pt_fin64 (p : @point AE) : Prop :=
  is_finite (px p) = true /\ is_finite (py p) = true /\ is_finite (pz p) = true.

(** the two factors of the filament rate, as computed, are positive numbers *)
Definition rate_ok (sett : @gsett AE) : Prop :=
  positive (nofZ 4 * LineWidth sett * LayerHeight sett)%num /\
  positive (nsq (BarDiameter sett) * npi)%num.

Lemma eDelta_nonneg sett p q : rate_ok sett -> pt_fin64 p -> pt_fin64 q -> nonneg (@eDelta AE sett p q).
Proof.
  intros [R1 R2] (X1 & Y1 & Z1) (X2 & Y2 & Z2). unfold eDelta.
  apply div_nonneg; [|exact R2]. apply mul_nonneg; [exact R1|]. apply sqrt_nonneg.
  apply add_nonneg; [apply add_nonneg|]; apply sq_nonneg; apply sub_not_nan; assumption.
Qed.

Lemma segs_grow sett : rate_ok sett -> forall p e c m, Forall pt_fin64 p -> nonneg e ->
  vle (m_e m) (@V AE e) ->
  Forall E_grows (events c m (@i_segs AE sett e p)) /\
  vle (m_e (run m (@i_segs AE sett e p))) (@V AE (@e_segs AE sett e p)) /\
  nonneg (@e_segs AE sett e p).
Proof.
  intros R. induction p as [|a [|b r] IH]; intros e c m Hp He Hm; try (split; [constructor|split; assumption]).
  rewrite i_segs_cons, e_segs_cons.
  pose proof Hp as Hp'. apply Forall_cons_iff in Hp'. destruct Hp' as [Pa Hr].
  pose proof Hr as Hr'. apply Forall_cons_iff in Hr'. destruct Hr' as [Pb _].
  destruct (add_nonneg e _ He (eDelta_nonneg sett a b R Pa Pb)) as [N1 N2].
  change (f64_add e (@eDelta AE sett a b)) with (@nadd AE e (@eDelta AE sett a b)) in N1, N2.
  set (e' := @nadd AE e (@eDelta AE sett a b)) in *. set (i := G 1 _).
  assert (Hm' : m_e (exec m i) = @V AE e') by apply (proj2 (@print_instr AE a b e') m).
  assert (Le : vle (m_e m) (@V AE e')) by (eapply vle_trans; [exact Hm|apply V_le; exact N2]).
  assert (Rf : vle (m_e (exec m i)) (@V AE e')).
  { rewrite Hm'. apply V_le. destruct (nonneg_cases e' N1) as [->|F]; [reflexivity|].
    rewrite Bleb_correct by assumption. apply Rle_bool_true, Rle_refl. }
  destruct (IH e' (see c i) (exec m i) Hr N1 Rf) as (K1 & K2 & K3).
  split; [|split; assumption].
  rewrite events_cons. constructor; [|exact K1]. intros _. cbn [ev_before ev_after]. rewrite Hm'. exact Le.
Qed.

Lemma opp_le_nonneg x y : nonneg x -> nonneg y -> Bleb (Bopp x) y = true.
Proof.
  intros Hx Hy.
  destruct (nonneg_cases x Hx) as [->|Fx].
  { destruct y as [s|[|]| |[|] m e b]; cbn in *; try contradiction; reflexivity. }
  destruct (nonneg_cases y Hy) as [->|Fy].
  { destruct x as [s|[|]| |[|] m e b]; cbn in *; try contradiction; reflexivity. }
  rewrite Bleb_correct by (rewrite ?is_finite_Bopp; assumption).
  apply Rle_bool_true. rewrite B2R_Bopp. pose proof (B2R_nonneg x Hx). pose proof (B2R_nonneg y Hy). lra.
Qed.

Lemma grow_thm (sett : @gsett AE) cs s' is m0 c0 :
  @i_cmds AE sett newState cs = Ok (s', is) ->
  rate_ok sett -> nonneg (RetractionDistance sett) ->
  Forall (cmd_paths (Forall pt_fin64)) cs ->
  m_e m0 = VFin 0 ->
  Forall E_grows (events c0 m0 is).
Proof.
  intros Ec R Hd Hp Hm.
  set (Inv := fun (s : @gstate AE) (m : mach) => vle (m_e m) (@V AE (eOff s)) /\ nonneg (eOff s)).
  assert (no : forall c m i m', is_print i = false -> E_grows (Event c m i m')).
  { intros c m i m' H Q. cbn in Q. congruence. }
  enough (K : Forall E_grows (events c0 m0 is) /\ Inv s' (run m0 is) /\ True) by apply K.
  assert (Rf : forall e, nonneg e -> vle (@V AE e) (@V AE e)).
  { intros e He. apply V_le. destruct (nonneg_cases e He) as [->|F]; [reflexivity|].
    rewrite Bleb_correct by assumption. apply Rle_bool_true, Rle_refl. }
  apply (program_inv sett (Forall pt_fin64) (fun _ => True) Inv E_grows (fun _ => True)) with (cs := cs); auto.
  - intros c s m Hi. unfold i_fan. destruct (Bool.eqb _ _), (fan_for sett (layerIndex s));
      (split; [evs; apply no; reflexivity|exact Hi]).
  - intros c s m Hi. unfold i_speed, s_speed. destruct (_ =? _)%Z;
      (split; [evs; apply no; reflexivity|exact Hi]).
  - intros c s m p0 p Hok Pl [Hi1 Hi2].
    unfold i_path. set (u := G 0 [("Z"%char, V (pz (pos s) + half)%num)]).
    assert (K : Forall E_grows (events (see_all c [u]) (run m [u]) (i_retract sett)) /\
                vle (m_e (run (run m [u]) (i_retract sett))) (@V AE (eOff s))).
    { unfold i_retract. destruct (Retraction sett); [|split; [constructor|exact Hi1]].
      split; [evs; apply no; reflexivity|]. apply V_le. now apply opp_le_nonneg. }
    destruct K as [K1 K2].
    match goal with |- steps_ok _ _ _ _ ([_] ++ _ ++ ?l ++ _) _ => set (to := l) end.
    assert (K3 : vle (m_e (run (run (run m [u]) (i_retract sett)) to)) (@V AE (eOff s))) by exact K2.
    destruct (segs_grow sett R (p0 :: p) (eOff s) (see_all (see_all (see_all c [u]) (i_retract sett)) to) _ Hok Hi2 K3) as (L1 & L2 & L3).
    split.
    + rewrite !events_app. apply Forall_app. split; [evs; apply no; reflexivity|].
      apply Forall_app. split; [exact K1|]. apply Forall_app. split; [evs; apply no; reflexivity|]. exact L1.
    + unfold Inv, s_path. cbn [eOff set_pos set_eOff]. rewrite !run_app. split; [exact L2|exact L3].
  - intros c s m [Hi1 Hi2]. unfold i_reset, s_reset. destruct (_ <? _)%num.
    + split; [evs; apply no; reflexivity|]. split; [|exact I]. cbn. apply Z.le_refl.
    + split; [constructor|split; assumption].
  - intros c s m cmd s2 is2 _ B [Hi1 Hi2] E2. split.
    + destruct cmd; try discriminate; cbn [i_cmd] in E2; apply Ok_inj in E2; destruct E2 as [_ <-];
        evs; apply no; reflexivity.
    + destruct cmd; try discriminate; cbn [i_cmd] in E2; apply Ok_inj in E2; destruct E2 as [<- <-];
        (split; [cbn; auto|exact Hi2]).
  - apply cmd_paths_ok; [exact Hp|]. apply Forall_forall. auto.
  - split; [|exact I]. rewrite Hm. cbn. apply Z.le_refl.
Qed.

(** ** C11: words are numbers *)
Definition fin64 (x : f64) : Prop := is_finite x = true.

Definition cmd_fin64 (c : @command AE) : Prop :=
  match c with RotateZ a => fin64 a | RotateXZ a b => fin64 a /\ fin64 b | _ => True end.

Lemma words_float (sett : @gsett AE) cs s' is :
  @i_cmds AE sett newState cs = Ok (s', is) ->
  is_finite (RetractionDistance sett) = true ->
  Forall cmd_fin64 cs ->
  Forall (Forall pt_fin64) (cmds_paths cs) ->
  Forall print_E_finite is -> Forall words_finite is.
Proof.
  intros Ec HR Ha Hp HE.
  apply (words_thm sett cs s' is); auto.
  - apply V_vfin. change (is_finite (Bopp (RetractionDistance sett)) = true). now rewrite is_finite_Bopp.
  - apply V_vfin. vm_compute. reflexivity.
  - eapply Forall_impl; [|exact Ha]. intros [| |a b|a|]; cbn; auto.
    + intros [? ?]. split; now apply V_vfin.
    + intros ?. now apply V_vfin.
  - eapply Forall_impl; [|exact Hp]. intros p H. eapply Forall_impl; [|exact H].
    intros q (X & Y & Z). repeat split; apply V_vfin; auto. now apply add_half_finite.
Qed.

(** ** C12 *)

Lemma strF_close (x : f64) : is_finite x = true ->
  exists z, read_val (@strF AE x) = Some (VFin z) /\ (Rabs (IZR z / 1000 - B2R x) <= / 2000)%R.
Proof.
  intros F. exists (ZnearestE (1000 * B2R x)). rewrite read_strF, V_finite by exact F. split; [reflexivity|].
  pose proof (Znearest_half (fun x => negb (Z.even x)) (1000 * B2R x)) as H.
  set (z := IZR (ZnearestE (1000 * B2R x))) in *.
  replace (z / 1000 - B2R x)%R with (- ((1000 * B2R x - z) / 1000))%R by field.
  rewrite Rabs_Ropp. unfold Rdiv. rewrite Rabs_mult, (Rabs_pos_eq (/ 1000)) by lra. lra.
Qed.

(** digits, without a superfluous leading zero *)
Definition plain_int (s : string) : Prop :=
  s = "0"%string \/
  exists c r, s = String c r /\ is_digit c = true /\ c <> "0"%char /\ allc is_digit r = true.

Lemma unorm_string d : d <> Decimal.Nil -> plain_int (NilZero.string_of_uint (Decimal.unorm d)).
Proof.
  intros _. unfold Decimal.unorm. destruct (Decimal.nzhead d) eqn:Z; [left; reflexivity|..];
    try (right; eexists; eexists; split; [cbn [NilZero.string_of_uint NilEmpty.string_of_uint]; reflexivity|];
         split; [reflexivity|split; [discriminate|apply string_of_uint_digits]]).
  exfalso. eapply DecimalFacts.nzhead_nonzero. exact Z.
Qed.

Lemma dec_of_N_plain n : plain_int (dec_of_N n).
Proof.
  unfold dec_of_N. rewrite <- (Unsigned.of_to n). rewrite Unsigned.to_of. apply unorm_string.
  apply Nto_uint_nonnil.
Qed.

Lemma strF_format (x : f64) : is_finite x = true ->
  exists (neg : bool) i f, @strF AE x = ((if neg then "-" else "") ++ i ++ "." ++ f)%string /\
    plain_int i /\ allc is_digit f = true /\ String.length f = 3%nat.
Proof.
  intros F.
  assert (K : forall s n, exists (neg : bool) i f, render_fix3 (F3 s n) = ((if neg then "-" else "") ++ i ++ "." ++ f)%string /\
    plain_int i /\ allc is_digit f = true /\ String.length f = 3%nat).
  { intros s n. exists s, (dec_of_N (n / 1000)), (pad3 (n mod 1000)). split; [reflexivity|].
    split; [apply dec_of_N_plain|]. destruct (pad3_spec (n mod 1000)) as (P1 & P2 & P3); [apply N.mod_lt; discriminate|].
    auto. }
  unfold strF. destruct x; try discriminate; apply K.
Qed.

End Float.
