(** * The emitted text reads back as the intended instructions *)
From Coq Require Import ZArith NArith String Ascii List Bool Lia.
From Coq Require Import DecimalString DecimalN DecimalZ DecimalPos.
From Verif Require Import Arith Prim Gcode GcodeSpec GcodeInstr.
Import ListNotations.
Open Scope string_scope.

(** ** Strings *)

Lemma append_assoc s1 s2 s3 : (s1 ++ s2) ++ s3 = s1 ++ (s2 ++ s3).
Proof. induction s1; cbn; congruence. Qed.

Lemma append_nil_r s : s ++ "" = s.
Proof. induction s; cbn; congruence. Qed.

Fixpoint allc (P : ascii -> bool) (s : string) : bool :=
  match s with EmptyString => true | String a r => P a && allc P r end.

Lemma allc_app P s1 s2 : allc P (s1 ++ s2) = allc P s1 && allc P s2.
Proof. induction s1; cbn; [reflexivity|]. now rewrite IHs1, andb_assoc. Qed.

Lemma allc_impl (P Q : ascii -> bool) s :
  (forall a, P a = true -> Q a = true) -> allc P s = true -> allc Q s = true.
Proof.
  intros H; induction s; cbn; [auto|]. rewrite !andb_true_iff. intuition.
Qed.

Definition isnt (c : ascii) (a : ascii) : bool := negb (Ascii.eqb a c).

Lemma split_on_nonnil c s : split_on c s <> [].
Proof. destruct s; cbn; [discriminate|]. destruct (Ascii.eqb a c); [discriminate|]. destruct (split_on c s); discriminate. Qed.

Lemma split_on_app c w r :
  allc (isnt c) w = true -> split_on c (w ++ String c r) = w :: split_on c r.
Proof.
  induction w; cbn.
  - now rewrite Ascii.eqb_refl.
  - unfold isnt at 1. rewrite andb_true_iff, negb_true_iff. intros [-> H].
    now rewrite (IHw H).
Qed.

Lemma split_on_last c w : allc (isnt c) w = true -> split_on c w = [w].
Proof.
  induction w; cbn; [reflexivity|].
  unfold isnt at 1. rewrite andb_true_iff, negb_true_iff. intros [-> H].
  now rewrite (IHw H).
Qed.

Lemma words_sp r : words_of (String " " r) = words_of r.
Proof. reflexivity. Qed.

Lemma words_word w r :
  allc (isnt " ") w = true -> nonempty w = true -> words_of (w ++ String " " r) = w :: words_of r.
Proof. intros H N. unfold words_of. rewrite split_on_app by assumption. cbn. now rewrite N. Qed.

Lemma words_last w :
  allc (isnt " ") w = true -> nonempty w = true -> words_of w = [w].
Proof. intros H N. unfold words_of. rewrite split_on_last by assumption. cbn. now rewrite N. Qed.

(** ** Numbers *)

Definition is_digit (a : ascii) : bool :=
  let n := nat_of_ascii a in Nat.leb 48 n && Nat.leb n 57.

Lemma string_of_uint_digits d : allc is_digit (NilEmpty.string_of_uint d) = true.
Proof. induction d; cbn; auto. Qed.

Lemma uint_ne_nil_string d : d <> Decimal.Nil -> NilZero.string_of_uint d = NilEmpty.string_of_uint d.
Proof. destruct d; cbn; congruence. Qed.

Lemma Nto_uint_nonnil n : N.to_uint n <> Decimal.Nil.
Proof. destruct n as [|p]; cbn; [discriminate|]. apply DecimalPos.Unsigned.to_uint_nonnil. Qed.

Lemma dec_of_N_digits n : allc is_digit (dec_of_N n) = true.
Proof. unfold dec_of_N. rewrite uint_ne_nil_string by apply Nto_uint_nonnil. apply string_of_uint_digits. Qed.

Lemma dec_of_N_nonempty n : nonempty (dec_of_N n) = true.
Proof.
  unfold dec_of_N. pose proof (Nto_uint_nonnil n). destruct (N.to_uint n); cbn; congruence.
Qed.

Lemma digits_dec_of_N n : digits (dec_of_N n) = Some n.
Proof.
  unfold digits. pose proof (dec_of_N_nonempty n) as H. unfold nonempty in H.
  apply negb_true_iff in H. rewrite H. unfold dec_of_N.
  rewrite uint_ne_nil_string by apply Nto_uint_nonnil.
  rewrite NilEmpty.usu. cbn. now rewrite DecimalN.Unsigned.of_to.
Qed.

Lemma pad3_spec n : (n < 1000)%N ->
  digits (pad3 n) = Some n /\ String.length (pad3 n) = 3%nat /\ allc is_digit (pad3 n) = true.
Proof.
  intros H.
  assert (C : forallb (fun k => let n := N.of_nat k in
     match digits (pad3 n) with Some m => N.eqb m n | None => false end
     && allc is_digit (pad3 n)) (seq 0 1000) = true) by (vm_compute; reflexivity).
  rewrite forallb_forall in C. specialize (C (N.to_nat n)).
  rewrite N2Nat.id in C. cbv zeta in C.
  assert (I : In (N.to_nat n) (seq 0 1000)) by (apply in_seq; lia).
  apply C in I. apply andb_true_iff in I. destruct I as [I1 I2].
  destruct (digits (pad3 n)) as [m|]; [|discriminate].
  apply N.eqb_eq in I1. subst. auto.
Qed.

Lemma digit_isnt c : is_digit c = true ->
  isnt " " c = true /\ isnt newline c = true /\ isnt "." c = true /\ isnt "-" c = true.
Proof.
  intros H. unfold isnt. rewrite !negb_true_iff.
  repeat split; apply Ascii.eqb_neq; intros ->; vm_compute in H; discriminate.
Qed.

Lemma unsigned_render m :
  unsigned_val (dec_of_N (m / 1000) ++ "." ++ pad3 (m mod 1000)) = Some m.
Proof.
  unfold unsigned_val.
  assert (L : (m mod 1000 < 1000)%N) by (apply N.mod_upper_bound; discriminate).
  destruct (pad3_spec _ L) as [D [Len C]].
  change ("." ++ pad3 (m mod 1000)) with (String "." (pad3 (m mod 1000))).
  rewrite split_on_app, split_on_last.
  - rewrite digits_dec_of_N, D, Len. f_equal. pose proof (N.div_mod m 1000). lia.
  - apply (allc_impl is_digit); [|exact C]. intros a Ha. now apply digit_isnt in Ha.
  - apply (allc_impl is_digit); [|apply dec_of_N_digits]. intros a Ha. now apply digit_isnt in Ha.
Qed.

Lemma digit_start (s : string) r :
  nonempty s = true -> allc is_digit s = true ->
  exists a s', s ++ r = String a (s' ++ r) /\ s = String a s' /\ is_digit a = true.
Proof.
  destruct s; cbn; [discriminate|]. rewrite andb_true_iff. intros _ [H1 H2]. eauto.
Qed.

Lemma read_val_unsigned a s n :
  is_digit a = true -> unsigned_val (String a s) = Some n -> read_val (String a s) = Some (VFin (Z.of_N n)).
Proof.
  intros D H. unfold read_val.
  assert (a <> "N"%char /\ a <> "+"%char /\ a <> "-"%char) as (H1 & H2 & H3)
    by (repeat split; intros ->; vm_compute in D; discriminate).
  assert (E1 : (String a s =? "NaN") = false) by (apply String.eqb_neq; congruence).
  assert (E2 : (String a s =? "+Inf") = false) by (apply String.eqb_neq; congruence).
  assert (E3 : (String a s =? "-Inf") = false) by (apply String.eqb_neq; congruence).
  rewrite E1, E2, E3.
  destruct a as [[] [] [] [] [] [] [] []]; try (now rewrite H); vm_compute in D; try discriminate; congruence.
Qed.

Lemma read_val_neg a s n :
  is_digit a = true -> unsigned_val (String a s) = Some n ->
  read_val (String "-" (String a s)) = Some (VFin (- Z.of_N n)).
Proof.
  intros D H. unfold read_val.
  assert (a <> "I"%char) by (intros ->; vm_compute in D; discriminate).
  assert (E1 : (String "-" (String a s) =? "NaN") = false) by (apply String.eqb_neq; congruence).
  assert (E2 : (String "-" (String a s) =? "+Inf") = false) by (apply String.eqb_neq; congruence).
  assert (E3 : (String "-" (String a s) =? "-Inf") = false) by (apply String.eqb_neq; congruence).
  rewrite E1, E2, E3, H. reflexivity.
Qed.

Lemma read_render f : read_val (render_fix3 f) = Some (val_of_fix3 f).
Proof.
  destruct f as [neg m|neg|]; cbn [render_fix3].
  - pose proof (unsigned_render m) as U.
    destruct (digit_start (dec_of_N (m / 1000)) ("." ++ pad3 (m mod 1000))
                (dec_of_N_nonempty _) (dec_of_N_digits _)) as (a & s' & E & _ & D).
    rewrite E in *. clear E. set (t := (s' ++ _)%string) in *. clearbody t.
    destruct neg.
    + cbn [append]. rewrite (read_val_neg _ _ _ D U). reflexivity.
    + cbn [append]. rewrite (read_val_unsigned _ _ _ D U). reflexivity.
  - now destruct neg.
  - reflexivity.
Qed.

Lemma read_strF {A : Arith} x : read_val (strF x) = Some (V x).
Proof. apply read_render. Qed.

Definition plain (a : ascii) : bool := isnt " " a && isnt newline a.

Lemma digits_plain s : allc is_digit s = true -> allc plain s = true.
Proof.
  apply allc_impl. intros a H. unfold plain. destruct (digit_isnt a H) as (-> & -> & _). reflexivity.
Qed.

Lemma render_plain f : allc plain (render_fix3 f) = true.
Proof.
  destruct f as [neg m|neg|]; cbn [render_fix3].
  - rewrite !allc_app. rewrite (digits_plain _ (dec_of_N_digits _)).
    assert (L : (m mod 1000 < 1000)%N) by (apply N.mod_upper_bound; discriminate).
    destruct (pad3_spec _ L) as [_ [_ C]]. rewrite (digits_plain _ C).
    destruct neg; reflexivity.
  - now destruct neg.
  - reflexivity.
Qed.

Lemma strF_plain {A : Arith} x : allc plain (strF x) = true.
Proof. apply render_plain. Qed.

Lemma unsigned_dec n : unsigned_val (dec_of_N n) = Some (n * 1000)%N.
Proof.
  unfold unsigned_val. rewrite split_on_last.
  - now rewrite digits_dec_of_N.
  - apply (allc_impl is_digit); [|apply dec_of_N_digits]. intros a Ha. now apply digit_isnt in Ha.
Qed.

Lemma itoa_shape z :
  itoa z = if (z <? 0)%Z then String "-" (dec_of_N (Z.abs_N z)) else dec_of_N (Z.abs_N z).
Proof. destruct z; reflexivity. Qed.

Lemma read_itoa z : read_val (itoa z) = Some (VZ z).
Proof.
  rewrite itoa_shape. unfold VZ.
  pose proof (unsigned_dec (Z.abs_N z)) as U.
  destruct (digit_start (dec_of_N (Z.abs_N z)) "" (dec_of_N_nonempty _) (dec_of_N_digits _))
    as (a & s' & _ & E & D).
  rewrite E in *.
  destruct (Z.ltb_spec z 0).
  - rewrite (read_val_neg _ _ _ D U). do 2 f_equal. lia.
  - rewrite (read_val_unsigned _ _ _ D U). do 2 f_equal. lia.
Qed.

Lemma itoa_plain z : allc plain (itoa z) = true.
Proof.
  rewrite itoa_shape. destruct (z <? 0)%Z; cbn; now rewrite ?(digits_plain _ (dec_of_N_digits _)).
Qed.

(** ** Lines *)

Inductive reads : string -> list word -> Prop :=
| reads_nil : reads "" []
| reads_sp r ws : reads r ws -> reads (String " " r) ws
| reads_last s w : allc plain s = true -> read_word s = Some w -> reads s [w]
| reads_word s w r ws : allc plain s = true -> read_word s = Some w -> reads r ws ->
    reads (s ++ String " " r) (w :: ws).

Lemma read_word_nonempty s w : read_word s = Some w -> nonempty s = true.
Proof. destruct s; [discriminate|reflexivity]. Qed.

Lemma plain_nosp s : allc plain s = true -> allc (isnt " ") s = true.
Proof. apply allc_impl. intros a. unfold plain. now rewrite andb_true_iff. Qed.
Lemma plain_nonl s : allc plain s = true -> allc (isnt newline) s = true.
Proof. apply allc_impl. intros a. unfold plain. now rewrite andb_true_iff. Qed.

Lemma reads_spec s ws : reads s ws ->
  all_some (map read_word (words_of s)) = Some ws /\ allc (isnt newline) s = true.
Proof.
  induction 1 as [|r ws H [IH1 IH2]|s w P R|s w r ws P R H [IH1 IH2]].
  - split; reflexivity.
  - rewrite words_sp. split; [exact IH1|cbn; exact IH2].
  - rewrite words_last; [|now apply plain_nosp|eauto using read_word_nonempty].
    cbn. rewrite R. split; [reflexivity|now apply plain_nonl].
  - rewrite words_word; [|now apply plain_nosp|eauto using read_word_nonempty].
    cbn. rewrite R, IH1. split; [reflexivity|].
    rewrite allc_app, plain_nonl by assumption. cbn. exact IH2.
Qed.

Lemma reads_app a wa b wb : reads a wa -> reads b wb -> reads (a ++ String " " b) (wa ++ wb)%list.
Proof.
  induction 1 as [|r ws H IH|s w P R|s w r ws P R H IH]; intros Hb; cbn [List.app].
  - now constructor.
  - constructor. auto.
  - constructor; auto.
  - rewrite append_assoc. cbn. constructor; auto.
Qed.

(** a written line and the instruction it stands for *)
Definition line_is (s : string) (i : instr) : Prop :=
  exists l, s = l ++ nl /\ allc (isnt newline) l = true /\ nonempty l = true /\ read_line l = Some i.

Lemma lines_concat o is :
  Forall2 line_is o is -> read_gcode (String.concat "" o) = Some is.
Proof.
  unfold read_gcode.
  enough (H : Forall2 line_is o is ->
     exists ls, lines_of (String.concat "" o) = ls /\ all_some (map read_line ls) = Some is).
  { intros F. destruct (H F) as (ls & -> & E). exact E. }
  induction 1 as [|s i o is (l & -> & Hn & Hne & Hr) F IH].
  - exists []. split; reflexivity.
  - destruct IH as (ls & E1 & E2).
    exists (l :: ls). split.
    + assert (Ec : String.concat "" ((l ++ nl) :: o) = l ++ String newline (String.concat "" o)).
      { destruct o; cbn [String.concat]; [reflexivity|].
        cbn [append]. rewrite append_assoc. reflexivity. }
      rewrite Ec. unfold lines_of. rewrite split_on_app by assumption.
      cbn [filter]. rewrite Hne. f_equal. exact E1.
    + cbn. rewrite Hr, E2. reflexivity.
Qed.

Lemma line_of_reads l c ws :
  reads l (c :: ws) -> match l with String ";" _ => False | _ => True end ->
  forall s, s = l ++ nl -> line_is s (Instr c ws).
Proof.
  intros R NC s ->. destruct (reads_spec _ _ R) as [W N].
  exists l. repeat split; auto.
  - destruct l; [|reflexivity]. exfalso. clear -W. cbn in W. discriminate.
  - unfold read_line. rewrite W.
    destruct l as [|a l]; [reflexivity|].
    destruct a as [[] [] [] [] [] [] [] []]; try reflexivity. destruct NC.
Qed.

Lemma line_comment t : allc (isnt newline) t = true -> line_is (";" ++ t ++ nl) (Comment t).
Proof.
  intros H. exists (String ";" t). repeat split; cbn; auto.
Qed.

Lemma read_word_F {A : Arith} c x : is_letter c = true -> read_word (String c (strF x)) = Some (c, V x).
Proof. intros H. cbn. now rewrite H, read_strF. Qed.
Lemma read_word_Z c z : is_letter c = true -> read_word (String c (itoa z)) = Some (c, VZ z).
Proof. intros H. cbn. now rewrite H, read_itoa. Qed.

Lemma word_plain_F {A : Arith} c x : plain c = true -> allc plain (String c (strF x)) = true.
Proof. intros H. cbn. now rewrite H, strF_plain. Qed.
Lemma word_plain_Z c z : plain c = true -> allc plain (String c (itoa z)) = true.
Proof. intros H. cbn. now rewrite H, itoa_plain. Qed.

(** prove [reads] for a text given as "word" ++ " " ++ rest *)
Ltac rw s := apply (reads_word s); [try reflexivity|try reflexivity|].
Ltac rwF c x := apply (reads_word (String c (strF x)));
  [apply word_plain_F; reflexivity|apply read_word_F; reflexivity|].
Ltac rlF := apply reads_last; [apply word_plain_F; reflexivity|apply read_word_F; reflexivity].
Ltac rlZ := apply reads_last; [apply word_plain_Z; reflexivity|apply read_word_Z; reflexivity].
Ltac rwZ c x := apply (reads_word (String c (itoa x)));
  [apply word_plain_Z; reflexivity|apply read_word_Z; reflexivity|].

Section Emit.
Context {A : Arith}.

Lemma reads_gcodeXYZ a b : reads (stringGcode a b) (axis_words a b).
Proof.
  unfold stringGcode, axis_words.
  destruct (nlit 1 1000 <=? nabs (px a - px b))%num, (nlit 1 1000 <=? nabs (py a - py b))%num,
    (nlit 1 1000 <=? nabs (pz a - pz b))%num; cbn [List.app append];
    repeat (rewrite append_assoc; cbn [append]);
    repeat first [ apply reads_nil | rlF
      | match goal with |- reads (String ?c (strF ?x ++ String " " _)) _ => rwF c x end ].
Qed.

Lemma line_G0Z x : line_is ("G0 " ++ ("Z" ++ strF x) ++ nl) (G 0 [("Z"%char, V x)]).
Proof.
  eapply (line_of_reads ("G0 " ++ "Z" ++ strF x)); [|exact I|reflexivity].
  rw "G0". cbn. rlF.
Qed.

Lemma line_G0XYZ x y z :
  line_is ("G0 " ++ ("X" ++ strF x ++ " Y" ++ strF y ++ " Z" ++ strF z) ++ nl)
          (G 0 [("X"%char, V x); ("Y"%char, V y); ("Z"%char, V z)]).
Proof.
  eapply (line_of_reads ("G0 " ++ "X" ++ strF x ++ " Y" ++ strF y ++ " Z" ++ strF z)); [|exact I|reflexivity].
  rw "G0". cbn. rwF "X"%char x. rwF "Y"%char y. rlF.
Qed.

Lemma line_G1 a b e :
  line_is ("G1 " ++ stringGcode a b ++ " E" ++ strF e ++ nl)
          (G 1 (axis_words a b ++ [("E"%char, V e)])%list).
Proof.
  eapply (line_of_reads ("G1 " ++ stringGcode a b ++ " E" ++ strF e)); [|exact I|].
  - rw "G1". apply reads_app; [apply reads_gcodeXYZ|]. rlF.
  - cbn. rewrite append_assoc. reflexivity.
Qed.

Lemma line_retract f d :
  line_is ("G1 F" ++ itoa f ++ " E" ++ strF d ++ nl) (G 1 [("F"%char, VZ f); ("E"%char, V d)]).
Proof.
  eapply (line_of_reads ("G1 F" ++ itoa f ++ " E" ++ strF d)); [|exact I|].
  - rw "G1". cbn. rwZ "F"%char f. rlF.
  - cbn. now rewrite append_assoc.
Qed.

Lemma line_G0F z : line_is ("G0 F" ++ itoa z ++ nl) (G 0 [("F"%char, VZ z)]).
Proof.
  eapply (line_of_reads ("G0 F" ++ itoa z)); [|exact I|reflexivity].
  rw "G0". rlZ.
Qed.

Lemma line_G92 x : line_is ("G92 E" ++ strF x ++ nl) (G 92 [("E"%char, V x)]).
Proof.
  eapply (line_of_reads ("G92 E" ++ strF x)); [|exact I|reflexivity].
  rw "G92". rlF.
Qed.
Lemma line_G92s x : line_is ("G92 E" ++ strF x ++ " " ++ nl) (G 92 [("E"%char, V x)]).
Proof.
  eapply (line_of_reads ("G92 E" ++ strF x ++ " ")); [|exact I|cbn; now rewrite append_assoc].
  rw "G92". cbn. rwF "E"%char x. constructor.
Qed.
Lemma line_bedE x : line_is ("G1 F300 E" ++ strF x ++ " " ++ nl) (G 1 [("F"%char, VZ 300); ("E"%char, V x)]).
Proof.
  eapply (line_of_reads ("G1 F300 E" ++ strF x ++ " ")); [|exact I|cbn; now rewrite append_assoc].
  rw "G1". rw "F300". cbn. rwF "E"%char x. constructor.
Qed.
Lemma line_G62 x z : line_is ("G62 X" ++ strF x ++ " Z" ++ strF z ++ nl) (G 62 [("X"%char, V x); ("Z"%char, V z)]).
Proof.
  eapply (line_of_reads ("G62 X" ++ strF x ++ " Z" ++ strF z)); [|exact I|cbn; now rewrite append_assoc].
  rw "G62". cbn. rwF "X"%char x. rlF.
Qed.

(** a line without variable parts is read by computation *)
Ltac lit := eexists; repeat split; [|reflexivity|reflexivity|reflexivity]; reflexivity.
Lemma line_park : line_is ("G0 X0 Y0 Z200 " ++ nl) (G 0 [("X"%char, VZ 0); ("Y"%char, VZ 0); ("Z"%char, VZ 200)]).
Proof. exists "G0 X0 Y0 Z200 ". repeat split. Qed.
Lemma line_T0 : line_is ("T0 " ++ nl) (T 0). Proof. exists "T0 ". repeat split. Qed.
Lemma line_T1 : line_is ("T1 " ++ nl) (T 1). Proof. exists "T1 ". repeat split. Qed.
Lemma line_T2 : line_is ("T2 " ++ nl) (T 2). Proof. exists "T2 ". repeat split. Qed.
Lemma line_E0 : line_is ("G1 F300 E0 " ++ nl) (G 1 [("F"%char, VZ 300); ("E"%char, VZ 0)]).
Proof. exists "G1 F300 E0 ". repeat split. Qed.
Lemma line_E60 : line_is ("G1 F300 E60 " ++ nl) (G 1 [("F"%char, VZ 300); ("E"%char, VZ 60)]).
Proof. exists "G1 F300 E60 ". repeat split. Qed.
Lemma line_G92z : line_is ("G92 E0 " ++ nl) (G 92 [("E"%char, VZ 0)]).
Proof. exists "G92 E0 ". repeat split. Qed.
Lemma line_G92z' : line_is ("G92 E0" ++ nl) (G 92 [("E"%char, VZ 0)]).
Proof. exists "G92 E0". repeat split. Qed.
Lemma line_M106 : line_is ("M106" ++ nl) (M 106). Proof. exists "M106". repeat split. Qed.
Lemma line_M107 : line_is ("M107" ++ nl) (M 107). Proof. exists "M107". repeat split. Qed.

(** ** The emitter *)

Definition agree (r : res (gstate * out)) (i : res (gstate * list instr)) : Prop :=
  match r, i with
  | Ok (s, o), Ok (s', is) => s = s' /\ Forall2 line_is o is
  | Panic, Panic => True
  | Diverge, Diverge => True
  | _, _ => False
  end.

Lemma agree_bind r i k h :
  agree r i -> (forall s o is, Forall2 line_is o is -> agree (k (s, o)) (h (s, is))) ->
  agree (rbind r k) (rbind i h).
Proof.
  intros H K. destruct r as [[s o]| |], i as [[s' is]| |]; cbn in *; try tauto.
  destruct H as [<- F]. auto.
Qed.

Lemma segsToGCode_cons sett e p1 p2 r :
  segsToGCode sett e (p1 :: p2 :: r) =
  (let '(e'', o) := segsToGCode sett (e + eDelta sett p1 p2)%num (p2 :: r) in
   (e'', ("G1 " ++ stringGcode p2 p1 ++ " E" ++ strF (e + eDelta sett p1 p2)%num ++ nl)%string :: o)).
Proof. reflexivity. Qed.
Lemma i_segs_cons sett e p1 p2 r :
  i_segs sett e (p1 :: p2 :: r) =
  G 1 (axis_words p2 p1 ++ [("E"%char, V (e + eDelta sett p1 p2)%num)])%list
  :: i_segs sett (e + eDelta sett p1 p2)%num (p2 :: r).
Proof. reflexivity. Qed.
Lemma e_segs_cons sett e p1 p2 r :
  e_segs sett e (p1 :: p2 :: r) = e_segs sett (e + eDelta sett p1 p2)%num (p2 :: r).
Proof. reflexivity. Qed.

Lemma segs_agree sett p : forall e,
  fst (segsToGCode sett e p) = e_segs sett e p /\
  Forall2 line_is (snd (segsToGCode sett e p)) (i_segs sett e p).
Proof.
  induction p as [|p1 [|p2 r] IH]; intros e; try (split; [reflexivity|constructor]).
  rewrite segsToGCode_cons, i_segs_cons, e_segs_cons.
  destruct (IH (e + eDelta sett p1 p2)%num) as [E F].
  destruct (segsToGCode sett (e + eDelta sett p1 p2)%num (p2 :: r)) as [e'' o].
  cbn [fst snd] in *. split; [exact E|]. constructor; [apply line_G1|exact F].
Qed.

Lemma path_agree sett s p0 p :
  agree (pathToGCode sett s (p0 :: p)) (Ok (s_path sett s p0 p, i_path sett s p0 p)).
Proof.
  unfold pathToGCode, s_path, i_path.
  destruct (segs_agree sett (p0 :: p) (eOff s)) as [E F].
  destruct (segsToGCode sett (eOff s) (p0 :: p)) as [e o]. cbn [fst snd] in *. subst e.
  cbn [agree]. split; [reflexivity|].
  apply Forall2_app; [constructor; [apply line_G0Z|constructor]|].
  apply Forall2_app.
  { unfold retractionToGCode, i_retract. destruct (Retraction sett); cbn [negb]; [|constructor].
    constructor; [apply line_retract|constructor]. }
  apply Forall2_app; [|exact F].
  constructor; [apply line_G0XYZ|]. constructor; [apply line_G0Z|constructor].
Qed.

Lemma paths_agree sett ps : forall s, agree (pathsLoop sett s ps) (i_paths sett s ps).
Proof.
  induction ps as [|[|p0 p] r IH]; intros s.
  - split; [reflexivity|constructor].
  - exact I.
  - cbn [pathsLoop i_paths]. pose proof (path_agree sett s p0 p) as H.
    destruct (pathToGCode sett s (p0 :: p)) as [[s1 o1]| |]; cbn [agree] in H; try tauto.
    destruct H as [-> F]. cbn [rbind].
    apply agree_bind; [apply IH|]. intros s2 o is F2. split; [reflexivity|].
    now apply Forall2_app.
Qed.

Lemma speed_agree sett s :
  printSpeedToGCode s sett = (s_speed sett s, snd (printSpeedToGCode s sett)) /\
  Forall2 line_is (snd (printSpeedToGCode s sett)) (i_speed sett s).
Proof.
  unfold printSpeedToGCode, s_speed, i_speed, speed_for.
  set (n := if (layerIndex s =? 0)%Z then _ else _).
  destruct (n =? feedrate s)%Z; cbn; split; try reflexivity; constructor; [|constructor].
  apply line_G0F.
Qed.

Lemma group_agree comment sett s ps :
  allc (isnt newline) comment = true ->
  agree (pathesToGCode ps comment sett s) (i_group comment sett s ps).
Proof.
  intros C. unfold pathesToGCode, i_group.
  destruct (speed_agree sett s) as [-> F]. cbv iota beta.
  apply agree_bind; [apply paths_agree|]. intros s2 o is F2. split; [reflexivity|].
  constructor; [now apply line_comment|]. now apply Forall2_app.
Qed.

Lemma fan_agree sett s :
  switchFanGCode s sett =
    (set_fan s (fan_for sett (layerIndex s)), snd (switchFanGCode s sett)) /\
  Forall2 line_is (snd (switchFanGCode s sett)) (i_fan sett s).
Proof.
  unfold switchFanGCode, i_fan, fan_for.
  destruct ((layerIndex s =? 0)%Z && FanOffLayer1 sett); cbn [negb];
    destruct s as [f li e fr w p a b]; cbn [fan]; destruct f; cbn; split; try reflexivity;
    constructor; try constructor; [apply line_M107|apply line_M106].
Qed.

Lemma reset_agree s :
  decreaseEOff s = (s_reset s, snd (decreaseEOff s)) /\
  Forall2 line_is (snd (decreaseEOff s)) (i_reset s).
Proof.
  unfold decreaseEOff, s_reset, i_reset.
  destruct (nofZ 4000 <? eOff s)%num; cbn; split; try reflexivity; constructor; [apply line_G92z'|constructor].
Qed.

Lemma layer_agree sett s l : agree (layerToGCode sett s l) (i_layer sett s l).
Proof.
  unfold layerToGCode, i_layer.
  destruct (fan_agree sett s) as [-> Ff]. cbv iota beta zeta.
  apply agree_bind; [now apply group_agree|]. intros s3 o3 i3 F3.
  apply agree_bind; [now apply group_agree|]. intros s4 o4 i4 F4.
  apply agree_bind; [now apply group_agree|]. intros s5 o5 i5 F5.
  apply agree_bind; [now apply group_agree|]. intros s7 o7 i7 F7.
  destruct (reset_agree s7) as [-> Fr]. cbv iota beta zeta.
  split; [reflexivity|].
  constructor.
  - pose proof (line_comment ("LAYER:" ++ itoa (layerIndex s))) as L.
    cbn in L. cbn. apply L. apply plain_nonl, itoa_plain.
  - repeat (apply Forall2_app; [assumption|]). assumption.
Qed.

Lemma layers_agree sett ls : forall s, agree (layersToGCode sett s ls) (i_layers sett s ls).
Proof.
  induction ls as [|l r IH]; intros s.
  - split; [reflexivity|constructor].
  - cbn [layersToGCode i_layers].
    apply agree_bind; [apply layer_agree|]. intros s1 o1 i1 F1.
    apply agree_bind; [apply IH|]. intros s2 o2 i2 F2. split; [reflexivity|].
    now apply Forall2_app.
Qed.

Lemma cmd_agree c s sett : agree (toGCode c s sett) (i_cmd c s sett).
Proof.
  destruct c; cbn [toGCode i_cmd]; [| | | |apply layers_agree];
    (split; [reflexivity|]);
    repeat (constructor; [first [apply line_park|apply line_T0|apply line_T1|apply line_T2
      |apply line_E0|apply line_E60|apply line_G92z|apply line_bedE|apply line_G92|apply line_G92s|apply line_G62]|]);
    constructor.
Qed.

Lemma cmds_agree sett cs : forall s, agree (cmdsToGCode sett s cs) (i_cmds sett s cs).
Proof.
  induction cs as [|c r IH]; intros s.
  - split; [reflexivity|constructor].
  - cbn [cmdsToGCode i_cmds].
    apply agree_bind; [apply cmd_agree|]. intros s1 o1 i1 F1.
    apply agree_bind; [apply IH|]. intros s2 o2 i2 F2. split; [reflexivity|].
    now apply Forall2_app.
Qed.

(** The text reads back as the intended instructions; a panic of one is a panic
    of the other. *)
Theorem output_intended g :
  match toOutput g, intended g with
  | Ok t, Ok is => read_gcode t = Some is
  | Panic, Panic => True
  | _, _ => False
  end.
Proof.
  unfold toOutput, intended.
  pose proof (cmds_agree (g_sett g) (g_cmds g) newState) as H.
  assert (D : forall cs s, i_cmds (g_sett g) s cs <> Diverge).
  { assert (Dp : forall ps s, i_paths (g_sett g) s ps <> Diverge).
    { induction ps as [|[|p0 p] r IH]; intros s; cbn; try discriminate.
      specialize (IH (s_path (g_sett g) s p0 p)).
      destruct (i_paths (g_sett g) (s_path (g_sett g) s p0 p) r) as [[? ?]| |]; cbn; congruence. }
    assert (Dg : forall c s ps, i_group c (g_sett g) s ps <> Diverge).
    { intros c s ps. unfold i_group. specialize (Dp ps (s_speed (g_sett g) s)).
      destruct (i_paths _ _ _) as [[? ?]| |]; cbn; congruence. }
    assert (Dl : forall s l, i_layer (g_sett g) s l <> Diverge).
    { intros s l. unfold i_layer.
      repeat match goal with
      | |- context [i_group ?c ?se ?s ?ps] =>
          let H := fresh in pose proof (Dg c s ps) as H;
          destruct (i_group c se s ps) as [[? ?]| |]; cbn [rbind]; try congruence
      end. }
    assert (Dls : forall ls s, i_layers (g_sett g) s ls <> Diverge).
    { induction ls as [|l r IH]; intros s; cbn; [discriminate|].
      specialize (Dl s l). destruct (i_layer _ _ _) as [[s1 ?]| |]; cbn; try congruence.
      specialize (IH s1). destruct (i_layers (g_sett g) s1 r) as [[? ?]| |]; cbn; congruence. }
    induction cs as [|c r IH]; intros s; cbn; [discriminate|].
    assert (Hc : i_cmd c s (g_sett g) <> Diverge).
    { destruct c; cbn; try discriminate. apply Dls. }
    destruct (i_cmd c s (g_sett g)) as [[s1 ?]| |]; cbn; try congruence.
    specialize (IH s1). destruct (i_cmds (g_sett g) s1 r) as [[? ?]| |]; cbn; congruence. }
  specialize (D (g_cmds g) newState).
  destruct (cmdsToGCode (g_sett g) newState (g_cmds g)) as [[s o]| |],
    (i_cmds (g_sett g) newState (g_cmds g)) as [[s' is]| |]; cbn in *; try tauto; try congruence.
  destruct H as [_ F]. now apply lines_concat.
Qed.

End Emit.
