(** * Bed positions in the G-code text, the planes file *)
From Coq Require Import String Ascii ZArith NArith List Bool PeanoNat Lia Permutation Reals Lra.
From Flocq Require Import Core Relative IEEE754.BinarySingleNaN.
From Verif Require Import Arith ArithF64 Prim Path Helpers Gcode GcodeSpec GcodeInstr GcodeText GcodeClaims GcodeFloat TextOK
  Slicer Fill Stl StlClaims StlProofs2 Vip VipClaims VipProofs Properties_Gcode.
Import ListNotations.
Close Scope R_scope.
Close Scope Z_scope.
Close Scope num_scope.
Close Scope string_scope.

Section Text.
Context {A : Arith}.

(** ** Prefixes of programs *)
Lemma cmds_app sett : forall (a b : list command) s s' o, cmdsToGCode sett s (a ++ b) = Ok (s', o) ->
  exists s1 o1 o2, cmdsToGCode sett s a = Ok (s1, o1) /\ cmdsToGCode sett s1 b = Ok (s', o2) /\ o = (o1 ++ o2)%list.
Proof.
  induction a as [|c a IH]; intros b s s' o; cbn [app cmdsToGCode].
  - intros H. exists s, [], o. auto.
  - destruct (toGCode c s sett) as [[s1 o1]| |]; try discriminate. cbn [rbind].
    destruct (cmdsToGCode sett s1 (a ++ b)) as [[s2 o2]| |] eqn:E; try discriminate. cbn [rbind]. intros [= <- <-].
    apply IH in E. destruct E as (s3 & p1 & p2 & -> & E2 & ->). cbn [rbind].
    eexists _, _, _. split; [reflexivity|]. split; [exact E2|]. now rewrite app_assoc.
Qed.

Lemma append_nil_l' (s : string) : append EmptyString s = s.
Proof. reflexivity. Qed.
Lemma concat_nil_app (a b : list string) : String.concat "" (a ++ b) = append (String.concat "" a) (String.concat "" b).
Proof.
  assert (C : forall (x : string) l, String.concat "" (x :: l) = append x (String.concat "" l)).
  { intros x [|y l]; [cbn; now rewrite append_nil_r|reflexivity]. }
  induction a as [|x a IH]; [reflexivity|]. cbn [app]. rewrite !C, IH. apply eq_sym, append_assoc.
Qed.

Lemma output_prefix sett (a b : list command) t : toOutput (Gcode sett (a ++ b)) = Ok t ->
  exists t1 t2, toOutput (Gcode sett a) = Ok t1 /\ t = append t1 t2.
Proof.
  unfold toOutput. cbn [g_sett g_cmds]. destruct (cmdsToGCode sett newState (a ++ b)) as [[s o]| |] eqn:E; try discriminate.
  cbn [rbind]. intros [= <-]. apply cmds_app in E. destruct E as (s1 & o1 & o2 & -> & _ & ->). cbn [rbind].
  eexists _, _. split; [reflexivity|]. apply concat_nil_app.
Qed.

(** ** Where the bed is when printing starts *)
Lemma print_beds_nth : forall (cs : list command) r t k a b, nth_error (print_beds r t cs) k = Some (a, b) ->
  exists pre ls post, cs = pre ++ LayersMoving ls :: post /\ length (printed pre) = k /\
    last_rotation r pre = a /\ last_tilt t pre = b /\ nth_error (printed cs) k = Some ls.
Proof.
  induction cs as [|c cs IH]; intros r t k a b; [destruct k; discriminate|].
  destruct c as [| |a0 b0|a0|layers]; cbn [print_beds printed];
    try (intros H; apply IH in H; destruct H as (pre & ls & post & -> & H1 & H2 & H3 & H4);
         match goal with |- context [?c :: pre ++ _] => exists (c :: pre) end;
         exists ls, post; cbn [app printed last_rotation last_tilt]; now rewrite ?H1, ?H2, ?H3).
  destruct k as [|k]; cbn [nth_error].
  - intros [= <- <-]. exists [], layers, cs. auto.
  - intros H. apply IH in H. destruct H as (pre & ls & post & -> & H1 & H2 & H3 & H4).
    exists (LayersMoving layers :: pre), ls, post. cbn [app printed last_rotation last_tilt length]. now rewrite H1, H2, H3.
Qed.

(** rotations commanded by SliceByPlanes are those of the planes *)
Definition rotates_by (zs : list num) (c : command) : Prop := match c with RotateZ a => In a zs | _ => True end.

Lemma planes_loop_rotations U s fp ff zs : forall beds parts i rotated g g',
  (forall b, In b beds -> In (bp_rotz b) zs) -> Forall (rotates_by zs) (g_cmds g) ->
  planes_loop U s fp ff i rotated parts beds g = Ok g' -> Forall (rotates_by zs) (g_cmds g').
Proof.
  induction beds as [|b beds IH]; intros [|m parts] i rotated g g' Hb Hg; cbn [planes_loop]; try (intros [= <-]; exact Hg).
  destruct (bed_cmds i b rotated) as [cs rot'] eqn:EB.
  destruct (sliceByVector U _ axisZ s); try discriminate. cbn [rbind].
  destruct (prepareLayers U _ s fp ff); try discriminate. cbn [rbind].
  apply IH; [intros; apply Hb; now right|].
  unfold g_addLayers. cbn [g_add g_cmds]. apply Forall_app. split; [|repeat constructor].
  destruct (add_cmds cs g) as [-> _]. apply Forall_app. split; [exact Hg|].
  assert (Hz : In (bp_rotz b) zs) by (apply Hb; now left).
  unfold bed_cmds in EB. destruct (Nat.eqb i 0), (bp_tilted b), rotated; injection EB as <- <-; repeat constructor; exact Hz.
Qed.

Lemma sliceByPlanes_rotations U m s ps g : sliceByPlanes U m s ps = Ok g ->
  Forall (rotates_by (n0 :: map ap_rotz ps)) (g_cmds g).
Proof.
  unfold sliceByPlanes. destruct (calcFillPlanes m s) as [fp ff].
  destruct (cut_parts U m (rev ps) []); try discriminate. cbn [rbind].
  apply planes_loop_rotations; [|constructor].
  unfold calcBedPlanes. intros b [<-|H]; [now left|]. right. apply in_map_iff in H. destruct H as (p & <- & H). cbn [bp_rotz].
  now apply in_map.
Qed.

(** ** The planes file *)
Lemma bytes_app a b : bytes (append a b) = bytes a ++ bytes b.
Proof.
  unfold bytes. rewrite <- map_app. f_equal. induction a as [|c a IH]; [reflexivity|]. cbn. now rewrite IH.
Qed.

Lemma bytes_cons c s : bytes (String c s) = Z.of_nat (nat_of_ascii c) :: bytes s.
Proof. reflexivity. Qed.

(** printed and not blank *)
Definition solid (c : ascii) : bool := Nat.ltb 32 (nat_of_ascii c).

Lemma digits_solid s : allc is_digit s = true -> allc solid s = true.
Proof.
  apply allc_impl. intros c H. unfold is_digit in H. unfold solid. cbv zeta in H. apply andb_prop in H. destruct H as [H _].
  apply Nat.leb_le in H. apply Nat.ltb_lt. lia.
Qed.
Lemma strF_solid (x : num) : allc solid (strF x) = true.
Proof.
  unfold strF. destruct (nfix3 x) as [neg m|neg|]; cbn [render_fix3].
  - rewrite !allc_app. rewrite (digits_solid _ (dec_of_N_digits _)).
    assert (L : (m mod 1000 < 1000)%N) by (apply N.mod_upper_bound; discriminate).
    destruct (pad3_spec _ L) as [_ [_ C]]. rewrite (digits_solid _ C). destruct neg; reflexivity.
  - now destruct neg.
  - reflexivity.
Qed.

Lemma solid_word (s : string) : s <> EmptyString -> allc solid s = true -> word (bytes s).
Proof.
  intros N H. split; [destruct s; [congruence|discriminate]|]. clear N.
  induction s as [|c s IH]; [constructor|]. cbn [allc] in H. apply andb_prop in H. destruct H as [Hc H].
  constructor; [|exact (IH H)]. clear -Hc. unfold solid in Hc. apply Nat.ltb_lt in Hc. cbn [In]. lia.
Qed.

Lemma five_fields a b c d e : word a -> word b -> word c -> word d -> word e ->
  fields (a ++ [32%Z] ++ b ++ [32%Z] ++ c ++ [32%Z] ++ d ++ [32%Z] ++ e) = [a; b; c; d; e].
Proof.
  intros Wa Wb Wc Wd We. assert (B : blank [32%Z]) by (repeat constructor; cbn; tauto). assert (N : [32%Z] <> []) by discriminate.
  unfold fields.
  do 4 (rewrite fields_word by assumption; rewrite app_nil_r; rewrite fields_end by (try assumption; match goal with H : word ?x |- ?x <> [] => apply H end)).
  rewrite <- (app_nil_r e) at 1. rewrite fields_word by assumption. rewrite app_nil_r. cbn [fields_from].
  destruct We as [Ne _]. destruct (rev e) eqn:R.
  - exfalso. apply Ne. rewrite <- (rev_involutive e), R. reflexivity.
  - rewrite <- R. now rewrite rev_involutive.
Qed.

Lemma strF_ne (x : num) : strF x <> EmptyString.
Proof.
  intros H. pose proof (read_strF x) as R. rewrite H in R. discriminate R.
Qed.

Lemma letter_word c (s : string) : solid c = true -> allc solid s = true -> word (bytes (String c s)).
Proof. intros H1 H2. apply solid_word; [discriminate|]. cbn [allc]. now rewrite H1, H2. Qed.

Lemma parse_written parse (p : aplane) :
  parsePlane parse (bytes (ap_string p)) =
  Ok (let rd x := parse (bytes (strF x)) in
      AP (Pl (P3 (rd (px (pl_p (ap_plane p)))) (rd (py (pl_p (ap_plane p)))) (rd (pz (pl_p (ap_plane p)))))
             (read_normal (ap_tilted p) (rd (ap_rotz p)))) (ap_tilted p) (rd (ap_rotz p))).
Proof.
  destruct p as [[[x y z] n] t r]. cbn [ap_plane pl_p px py pz ap_tilted ap_rotz].
  set (tt := (if t then "true" else "false")%string).
  assert (F : fields (bytes (ap_string (AP (Pl (P3 x y z) n) t r))) =
    [bytes (String "X" (strF x)); bytes (String "Y" (strF y)); bytes (String "Z" (strF z)); bytes (String "T" tt); bytes (String "R" (strF r))]).
  { rewrite <- five_fields by (apply letter_word; [reflexivity|try apply strF_solid; now destruct t]).
    f_equal. unfold ap_string, pt_string. cbn [ap_plane pl_p px py pz ap_tilted ap_rotz]. fold tt.
    assert (SP : forall w, bytes (String " " w) = [32%Z] ++ bytes w) by reflexivity.
    cbn [append]. repeat (rewrite ?bytes_app, ?SP, ?bytes_cons; cbn [append]).
    rewrite <- ?app_assoc; cbn [app]; rewrite <- ?app_assoc; cbn [app]; rewrite <- ?app_assoc. reflexivity. }
  unfold parsePlane. rewrite F. cbn. f_equal. unfold tt. destruct t; reflexivity.
Qed.
End Text.

(** ** Whole file *)
Section File.
Context {A : Arith}.

(** what reading makes of a written plane *)
Definition reread (parse : list Z -> num) (p : aplane) : aplane :=
  let rd x := parse (bytes (strF x)) in
  AP (Pl (P3 (rd (px (pl_p (ap_plane p)))) (rd (py (pl_p (ap_plane p)))) (rd (pz (pl_p (ap_plane p)))))
         (read_normal (ap_tilted p) (rd (ap_rotz p)))) (ap_tilted p) (rd (ap_rotz p)).

Lemma solid_no (s : string) c : In c (bytes s) -> allc (fun a => solid a || (nat_of_ascii a =? 32)) s = true -> (32 <= c)%Z.
Proof.
  induction s as [|a s IH]; [intros []|]. rewrite bytes_cons. cbn [allc]. intros [<-|H] H'; apply andb_prop in H'; destruct H' as [H1 H2].
  - apply orb_prop in H1. destruct H1 as [H1|H1]; [unfold solid in H1; apply Nat.ltb_lt in H1|apply Nat.eqb_eq in H1]; lia.
  - now apply IH.
Qed.

Lemma ap_string_printable (p : aplane) : allc (fun a => solid a || (nat_of_ascii a =? 32)) (ap_string p) = true.
Proof.
  assert (W : forall s, allc solid s = true -> allc (fun a => solid a || (nat_of_ascii a =? 32)) s = true).
  { intros s. apply allc_impl. now intros a ->. }
  unfold ap_string, pt_string. rewrite !allc_app, !(W _ (strF_solid _)). destruct (ap_tilted p); reflexivity.
Qed.

Lemma drop_cr_id l : (forall c, In c l -> (32 <= c)%Z) -> drop_cr l = l.
Proof.
  intros H. unfold drop_cr. destruct (rev l) as [|c r] eqn:R; [reflexivity|].
  assert (32 <= c)%Z. { apply H, in_rev. rewrite R. now left. }
  destruct c as [|q|q]; try reflexivity. do 5 (destruct q as [q|q|]; try reflexivity; try lia).
Qed.

Lemma read_written parse (ps : list aplane) :
  Forall (fun p => length (bytes (ap_string p)) < max_token) ps ->
  readPlanes parse (Some (analyzerFile ps)) = Ok (map (reread parse) ps).
Proof.
  intros F. unfold readPlanes.
  assert (E : analyzerFile ps = text (map (fun p => bytes (ap_string p)) ps)).
  { unfold analyzerFile, text. rewrite flat_map_concat_map, map_map. reflexivity. }
  rewrite E, split_text.
  2: { apply Forall_map, Forall_forall. intros p _ H. apply solid_no in H; [lia|apply ap_string_printable]. }
  clear E. induction F as [|p ps L F IH]; [reflexivity|]. cbn [map read_lines].
  destruct (Nat.leb_spec max_token (length (bytes (ap_string p)))) as [Q|_]; [lia|].
  rewrite drop_cr_id by (intros c H; eapply solid_no; [exact H|apply ap_string_printable]).
  rewrite parse_written. cbn [rbind]. rewrite IH. reflexivity.
Qed.
End File.

(** ** Reading numbers as float32 *)
Section Parse.
Variable E : elem.

(** strconv.ParseFloat(s, 32) on decimals in the range of float32: the nearest float32 *)
Definition parses_decimals (parse : list Z -> f64) : Prop := forall txt z, read_val txt = Some (VFin z) ->
  (Rabs (IZR z / 1000) < bpow radix2 127)%R ->
  is_finite (parse (bytes txt)) = true /\
  B2R (parse (bytes txt)) = round radix2 (FLT_exp (-149) 24) ZnearestE (IZR z / 1000).

Lemma parse_close parse (x : f64) : parses_decimals parse -> is_finite x = true -> (Rabs (B2R x) <= bpow radix2 126)%R ->
  is_finite (parse (bytes (@strF (ArithF64 E) x))) = true /\
  (Rabs (B2R (parse (bytes (@strF (ArithF64 E) x))) - B2R x) <= / 2000 + bpow radix2 (-24) * (Rabs (B2R x) + / 2000))%R.
Proof.
  intros P Fx Hx. destruct (strF_close E x Fx) as (z & R & C).
  set (d := (IZR z / 1000)%R) in *.
  assert (Hd : (Rabs d <= Rabs (B2R x) + / 2000)%R).
  { replace d with ((d - B2R x) + B2R x)%R by ring. eapply Rle_trans; [apply Rabs_triang|]. lra. }
  assert (B : (bpow radix2 126 + / 2000 < bpow radix2 127)%R).
  { change 127%Z with (126 + 1)%Z. rewrite bpow_plus. assert (1 <= bpow radix2 126)%R by (change 1%R with (bpow radix2 0); apply bpow_le; lia).
    change (bpow radix2 1) with 2%R. lra. }
  destruct (P _ z R) as [F V]; [fold d; lra|]. split; [exact F|]. rewrite V. fold d.
  set (r := round radix2 (FLT_exp (-149) 24) ZnearestE d).
  assert (RE : (Rabs (r - d) <= bpow radix2 (-24) * Rabs d)%R).
  { destruct (Z.eq_dec z 0) as [->|Nz].
    - unfold r. replace d with 0%R by (unfold d; lra). rewrite round_0 by apply valid_rnd_N. rewrite Rminus_0_r, Rabs_R0, Rmult_0_r. apply Rle_refl.
    - pose proof (relative_error_N_FLT radix2 (-149) 24 (refl_equal Lt) (fun x => negb (Z.even x)) d) as Q.
      assert (D : (bpow radix2 (-149 + 24 - 1) <= Rabs d)%R).
      { unfold d. unfold Rdiv. rewrite Rabs_mult, (Rabs_pos_eq (/ 1000)) by lra.
        assert (1 <= Rabs (IZR z))%R by (rewrite <- abs_IZR; apply IZR_le; lia).
        assert (bpow radix2 (-149 + 24 - 1) <= / 1000)%R.
        { apply Rle_trans with (bpow radix2 (-10)); [apply bpow_le; lia|].
          change (bpow radix2 (-10)) with (/ IZR (2 ^ 10))%R. apply Rinv_le; [lra|]. apply IZR_le. lia. }
        apply Rle_trans with (1 * / 1000)%R; [lra|]. apply Rmult_le_compat_r; lra. }
      specialize (Q D). unfold r. eapply Rle_trans; [exact Q|].
      replace (bpow radix2 (- (24) + 1)) with (2 * bpow radix2 (-24))%R; [lra|].
      rewrite bpow_plus. change (bpow radix2 1) with 2%R. change (- (24))%Z with (-24)%Z. ring. }
  replace (r - B2R x)%R with ((r - d) + (d - B2R x))%R by ring.
  eapply Rle_trans; [apply Rabs_triang|].
  assert (0 < bpow radix2 (-24))%R by apply bpow_gt_0.
  assert (bpow radix2 (-24) * Rabs d <= bpow radix2 (-24) * (Rabs (B2R x) + / 2000))%R by (apply Rmult_le_compat_l; lra).
  lra.
Qed.
End Parse.

(** such a function exists *)
Section Witness.
Definition txt_of (w : list Z) : string := string_of_list_ascii (map (fun z => ascii_of_nat (Z.to_nat z)) w).
Lemma txt_of_bytes s : txt_of (bytes s) = s.
Proof.
  unfold txt_of, bytes. rewrite map_map. induction s as [|c s IH]; [reflexivity|]. cbn [list_ascii_of_string map string_of_list_ascii].
  now rewrite IH, Nat2Z.id, ascii_nat_embedding.
Qed.

Definition as_f64 (r : R) : f64 :=
  let fexp := FLT_exp (-149) 24 in
  binary_normalize 53 1024 prec53 emax1024 mode_NE (Ztrunc (scaled_mantissa radix2 fexp r)) (cexp radix2 fexp r) false.

Lemma as_f64_correct r : generic_format radix2 (FLT_exp (-149) 24) r -> (Rabs r < bpow radix2 1024)%R ->
  is_finite (as_f64 r) = true /\ B2R (as_f64 r) = r.
Proof.
  intros G H. unfold as_f64. set (fexp := FLT_exp (-149) 24) in *.
  pose proof (binary_normalize_correct 53 1024 prec53 emax1024 mode_NE (Ztrunc (scaled_mantissa radix2 fexp r)) (cexp radix2 fexp r) false) as Q.
  assert (EF : F2R (Float radix2 (Ztrunc (scaled_mantissa radix2 fexp r)) (cexp radix2 fexp r)) = r) by (symmetry; exact G).
  rewrite EF in Q.
  assert (G64 : generic_format radix2 (SpecFloat.fexp 53 1024) r).
  { apply generic_inclusion_mag with (fexp1 := fexp); [|exact G]. intros _. unfold fexp, FLT_exp, SpecFloat.fexp, SpecFloat.emin. lia. }
  cbn [round_mode] in Q. rewrite (round_generic radix2 (SpecFloat.fexp 53 1024) ZnearestE r G64) in Q.
  rewrite Rlt_bool_true in Q by exact H. tauto.
Qed.

Definition parse0 (w : list Z) : f64 :=
  match read_val (txt_of w) with
  | Some (VFin z) => as_f64 (round radix2 (FLT_exp (-149) 24) ZnearestE (IZR z / 1000))
  | _ => B754_nan
  end.

Lemma parse0_ok : parses_decimals parse0.
Proof.
  intros txt z H B. unfold parse0. rewrite txt_of_bytes, H.
  assert (V : Valid_exp (FLT_exp (-149) 24)) by (apply FLT_exp_valid; reflexivity).
  apply as_f64_correct.
  - apply generic_format_round; [exact V|apply valid_rnd_N].
  - apply Rle_lt_trans with (bpow radix2 127); [|apply bpow_lt; lia].
    apply abs_round_le_generic; [exact V|apply valid_rnd_N| |lra].
    apply generic_format_bpow. unfold FLT_exp. lia.
Qed.
End Witness.
