(** * The output file *)
From Coq Require Import ZArith NArith String Ascii List Bool Lia Permutation.
From Coq Require Import DecimalString.
From Verif Require Import Arith Prim Gcode GcodeSpec GcodeInstr GcodeText GcodeClaims GcodeProofs GcodeInv TextOK GcodeProofs2 Slicer Main MainClaims TemplateProofs.
Import ListNotations.
Open Scope string_scope.

(** ** Reading *)

Lemma split_on_app2 c a b : split_on c (a ++ String c b) = (split_on c a ++ split_on c b)%list.
Proof.
  induction a as [|d a IH]; cbn [append split_on].
  - now rewrite Ascii.eqb_refl.
  - destruct (Ascii.eqb d c); [now rewrite IH|]. rewrite IH. destruct (split_on c a) as [|w ws] eqn:E; [now apply split_on_nonnil in E|]. reflexivity.
Qed.
Lemma words_app a b : words_of (a ++ String " " b) = (words_of a ++ words_of b)%list.
Proof. unfold words_of. rewrite split_on_app2. apply filter_app. Qed.

Definition line2 (s : string) (oi : option instr) : Prop :=
  exists l, s = l ++ nl /\ allc (isnt newline) l = true /\ read_line2 l = Some oi.

Lemma concat_cons s o : String.concat "" (s :: o) = s ++ String.concat "" o.
Proof. destruct o; cbn [String.concat]; [now rewrite append_nil_r|reflexivity]. Qed.
Lemma concat_app a b : String.concat "" (a ++ b)%list = String.concat "" a ++ String.concat "" b.
Proof. induction a as [|s a IH]; [reflexivity|]. cbn [List.app]. rewrite !concat_cons, IH, append_assoc. reflexivity. Qed.

Lemma lines2_concat o ois : Forall2 line2 o ois -> read_file (String.concat "" o) = Some (somes ois).
Proof.
  unfold read_file. intros F.
  enough (K : exists ls, lines_of (String.concat "" o) = ls /\ option_map somes (all_some (map read_line2 ls)) = Some (somes ois)).
  { destruct K as (ls & -> & K). exact K. }
  induction F as [|s oi o ois (l & -> & N & R) F (ls & E1 & E2)].
  - exists []. split; reflexivity.
  - rewrite concat_cons, append_assoc. change (nl ++ String.concat "" o) with (String newline (String.concat "" o)).
    unfold lines_of in *. rewrite split_on_app by exact N. cbn [filter]. rewrite E1.
    destruct (nonempty l) eqn:Hl.
    + exists (l :: ls). split; [reflexivity|]. cbn [map all_some]. rewrite R.
      destruct (all_some (map read_line2 ls)); [|discriminate]. cbn in E2 |- *. injection E2 as ->. now destruct oi.
    + exists ls. split; [reflexivity|]. destruct l; [|discriminate]. injection R as <-. exact E2.
Qed.

(** *** numbers have no semicolon *)
Lemma uint_digits s d : NilEmpty.uint_of_string s = Some d -> allc is_digit s = true.
Proof.
  revert d. induction s as [|a s IH]; intros d; [reflexivity|]. cbn [NilEmpty.uint_of_string allc].
  destruct (NilEmpty.uint_of_string s) as [e|]; [|destruct a as [[] [] [] [] [] [] [] []]; discriminate].
  intros H. rewrite (IH e eq_refl), andb_true_r. destruct a as [[] [] [] [] [] [] [] []]; try discriminate H; reflexivity.
Qed.
Lemma digits_digit s n : digits s = Some n -> allc is_digit s = true.
Proof.
  unfold digits. destruct (is_empty s); [discriminate|]. destruct (NilEmpty.uint_of_string s) as [d|] eqn:E; [|discriminate].
  intros _. exact (uint_digits s d E).
Qed.
Lemma allc_split P c s : P c = true -> Forall (fun w => allc P w = true) (split_on c s) -> allc P s = true.
Proof.
  intros Hc. induction s as [|a s IH]; [reflexivity|]. cbn [split_on allc]. destruct (Ascii.eqb_spec a c) as [->|N].
  - intros F. inversion F; subst. rewrite Hc. auto.
  - destruct (split_on c s) as [|w ws]; intros F; inversion F as [|? ? H1 H2]; subst; cbn [allc] in H1; apply andb_true_iff in H1; destruct H1 as [-> H1].
    + apply IH. constructor.
    + apply IH. constructor; assumption.
Qed.
Definition numeral (a : ascii) : bool := is_digit a || Ascii.eqb a ".".
Lemma unsigned_numeral s n : unsigned_val s = Some n -> allc numeral s = true.
Proof.
  unfold unsigned_val. intros H. apply (allc_split numeral "."); [reflexivity|].
  assert (K : forall i m, digits i = Some m -> allc numeral i = true).
  { intros i m Hi. apply digits_digit in Hi. revert Hi. apply allc_impl. intros a Ha. unfold numeral. now rewrite Ha. }
  destruct (split_on "." s) as [|i [|f [|]]]; try discriminate.
  - destruct (digits i) eqn:E; [|discriminate]. repeat constructor. exact (K _ _ E).
  - destruct (digits i) eqn:E; [|discriminate]. destruct (digits f) eqn:E2; [|discriminate]. repeat constructor; [exact (K _ _ E)|exact (K _ _ E2)].
Qed.
Lemma numeral_isnt c s : numeral c = false -> allc numeral s = true -> allc (isnt c) s = true.
Proof. intros H. apply allc_impl. intros a Ha. unfold isnt. destruct (Ascii.eqb_spec a c) as [->|]; [congruence|reflexivity]. Qed.

Lemma read_val_nosemi s v : read_val s = Some v -> allc (isnt ";") s = true.
Proof.
  unfold read_val. destruct (String.eqb_spec s "NaN") as [->|_]; [reflexivity|]. destruct (String.eqb_spec s "+Inf") as [->|_]; [reflexivity|].
  destruct (String.eqb_spec s "-Inf") as [->|_]; [reflexivity|].
  assert (K : forall r m, unsigned_val r = Some m -> allc (isnt ";") r = true).
  { intros r m Hr. apply unsigned_numeral in Hr. now apply numeral_isnt. }
  assert (K2 : forall r o, option_map (fun n => VFin (Z.of_N n)) (unsigned_val r) = Some o -> allc (isnt ";") r = true).
  { intros r o H. destruct (unsigned_val r) eqn:E; [exact (K _ _ E)|discriminate]. }
  destruct s as [|a r]; [discriminate|]. intros H.
  destruct (Ascii.eqb_spec a "-") as [->|Na].
  - destruct (unsigned_val r) eqn:E; [|discriminate]. cbn [allc]. rewrite (K _ _ E). reflexivity.
  - apply (K2 (String a r) v). destruct a as [[] [] [] [] [] [] [] []]; try exact H. now destruct Na.
Qed.
Lemma read_val_val2 s v : read_val s = Some v -> read_val2 s = Some v.
Proof.
  intros H. unfold read_val2. destruct s as [|a r]; [exact H|].
  destruct (Ascii.eqb_spec a "+") as [->|Na].
  - destruct (unsigned_val r) as [n|] eqn:E; [|exact H]. exfalso.
    assert (U : unsigned_val (String "+" r) = None).
    { destruct (unsigned_val (String "+" r)) eqn:F; [|reflexivity]. apply unsigned_numeral in F. discriminate. }
    unfold read_val in H.
    destruct (String.eqb_spec (String "+" r) "NaN") as [Q|_]; [discriminate Q|].
    destruct (String.eqb_spec (String "+" r) "+Inf") as [Q|_]; [injection Q as ->; discriminate E|].
    destruct (String.eqb_spec (String "+" r) "-Inf") as [Q|_]; [discriminate Q|]. rewrite U in H. discriminate H.
  - destruct a as [[] [] [] [] [] [] [] []]; try exact H. now destruct Na.
Qed.
Lemma read_word_word2 s w : read_word s = Some w -> read_word2 s = Some w /\ allc (isnt ";") s = true.
Proof.
  destruct s as [|a r]; [discriminate|]. cbn [read_word read_word2]. destruct (is_letter a) eqn:L; [|discriminate].
  destruct (read_val r) as [v|] eqn:R; [|discriminate]. intros H. rewrite (read_val_val2 _ _ R). split; [exact H|].
  cbn [allc]. rewrite (read_val_nosemi _ _ R), andb_true_r. unfold isnt. destruct (Ascii.eqb_spec a ";") as [->|]; [discriminate L|reflexivity].
Qed.
Lemma code_nosemi s : allc (isnt ";") s = true -> code_of s = s.
Proof.
  induction s as [|a s IH]; [reflexivity|]. cbn [allc code_of]. intros H. apply andb_true_iff in H. destruct H as [H1 H2].
  unfold isnt in H1. destruct (Ascii.eqb a ";"); [discriminate|]. now rewrite IH.
Qed.
Lemma code_semi a b : allc (isnt ";") a = true -> code_of (a ++ String ";" b) = a.
Proof.
  induction a as [|c a IH]; [reflexivity|]. cbn [allc code_of append]. intros H. apply andb_true_iff in H. destruct H as [H1 H2].
  unfold isnt in H1. destruct (Ascii.eqb c ";"); [discriminate|]. now rewrite IH.
Qed.

Lemma all_some_words ws cs : all_some (map read_word ws) = Some cs ->
  all_some (map read_word2 ws) = Some cs /\ Forall (fun w => allc (isnt ";") w = true) ws.
Proof.
  revert cs. induction ws as [|w ws IH]; intros cs; cbn [map all_some]; [now split|].
  destruct (read_word w) as [x|] eqn:E; [|discriminate]. destruct (all_some (map read_word ws)) as [xs|]; [|discriminate]. intros H. injection H as <-.
  destruct (read_word_word2 _ _ E) as [E2 E3]. destruct (IH xs eq_refl) as [K1 K2]. rewrite E2, K1. split; [reflexivity|]. now constructor.
Qed.

(** what the body contains *)
Definition body_cmd (i : instr) : Prop :=
  match i with
  | Comment _ => True
  | Instr c _ => exists n, In n [0; 1; 62; 92]%Z /\ c = ("G"%char, VZ n) \/ In n [106; 107]%Z /\ c = ("M"%char, VZ n) \/ c = ("T"%char, VZ n)
  end.

Lemma read_line_line2 l i : read_line l = Some i -> body_cmd i ->
  read_line2 l = Some (match i with Comment _ => None | _ => Some i end).
Proof.
  intros H B. unfold read_line in H.
  assert (K : match all_some (map read_word (words_of l)) with Some (c :: ws) => Some (Instr c ws) | _ => None end = Some i ->
              read_line2 l = Some (match i with Comment _ => None | _ => Some i end)).
  { destruct (all_some (map read_word (words_of l))) as [[|c ws]|] eqn:E; try discriminate. intros Q. injection Q as <-.
    destruct (all_some_words _ _ E) as [E2 E3].
    assert (S : allc (isnt ";") l = true).
    { apply (allc_split (isnt ";") " "); [reflexivity|]. apply Forall_forall. intros w Hw.
      destruct (nonempty w) eqn:N; [|now destruct w]. rewrite Forall_forall in E3. apply E3. unfold words_of. apply filter_In. auto. }
    unfold read_line2. rewrite (code_nosemi l S). destruct (words_of l) as [|w ws'] eqn:W; [discriminate E|].
    destruct (String.eqb_spec w "M117") as [->|_].
    - exfalso. cbn [map all_some] in E. destruct (all_some (map read_word ws')); [|discriminate]. cbn in E. injection E as <- _.
      destruct B as (n & [[_ B]|[[B' B]|B]]); try discriminate B.
      injection B as B. unfold VZ in B. destruct B' as [<-|[<-|[]]]; discriminate B.
    - rewrite E2. reflexivity. }
  destruct l as [|a r]; [discriminate|].
  destruct (Ascii.eqb_spec a ";") as [->|N].
  - injection H as <-. reflexivity.
  - apply K. destruct a as [[] [] [] [] [] [] [] []]; try exact H. now destruct N.
Qed.

(** ** The body *)

(** what layers are made of *)
Definition layer_cmd (i : instr) : Prop :=
  match i with
  | Comment _ => True
  | Instr c _ => exists n, In n [0; 1; 92]%Z /\ c = ("G"%char, VZ n) \/ In n [106; 107]%Z /\ c = ("M"%char, VZ n)
  end.
Lemma layer_body_cmd i : layer_cmd i -> body_cmd i.
Proof.
  destruct i as [t|c ws]; [trivial|]. intros (n & [[H ->]|H]); exists n; [left|right; left; exact H]. split; [|reflexivity]. cbn in *. tauto.
Qed.

Section Body.
Context {A : Arith}.

Lemma segs_body sett p : forall e, Forall layer_cmd (i_segs sett e p).
Proof.
  induction p as [|p1 p IH]; intros e; [constructor|]. destruct p as [|p2 r]; [constructor|]. cbn [i_segs]. constructor; [|apply IH].
  exists 1%Z. left. cbn. auto.
Qed.
Ltac bodyG n := exists n; left; split; [cbn; tauto|reflexivity].
Lemma path_body sett s p0 p : Forall layer_cmd (i_path sett s p0 p).
Proof.
  unfold i_path. apply Forall_app. split; [constructor; [bodyG 0%Z|constructor]|]. apply Forall_app. split.
  { unfold i_retract. destruct (Retraction sett); constructor; [bodyG 1%Z|constructor]. }
  apply Forall_app. split; [constructor; [bodyG 0%Z|]; constructor; [bodyG 0%Z|constructor]|apply segs_body].
Qed.
Lemma paths_body sett ps : forall s s' is, i_paths sett s ps = Ok (s', is) -> Forall layer_cmd is.
Proof.
  induction ps as [|[|p0 p] ps IH]; intros s s' is H; cbn [i_paths] in H; [injection H as <- <-; constructor|discriminate|].
  destruct (i_paths sett (s_path sett s p0 p) ps) as [[s2 is2]| |] eqn:E; try discriminate. cbn [rbind] in H. assert (X : is = (i_path sett s p0 p ++ is2)%list) by congruence. rewrite X.
  apply Forall_app. split; [apply path_body|exact (IH _ _ _ E)].
Qed.
Lemma group_body c sett s ps s' is : i_group c sett s ps = Ok (s', is) -> Forall layer_cmd is.
Proof.
  unfold i_group. destruct (i_paths sett (s_speed sett s) ps) as [[s2 is2]| |] eqn:E; try discriminate. cbn [rbind]. intros H. injection H as <- <-.
  constructor; [exact I|]. apply Forall_app. split; [|exact (paths_body _ _ _ _ _ E)].
  unfold i_speed. destruct (_ =? _)%Z; constructor; [bodyG 0%Z|constructor].
Qed.
Lemma layer_body sett s l s' is : i_layer sett s l = Ok (s', is) -> Forall layer_cmd is.
Proof.
  unfold i_layer.
  destruct (i_group "OUTER_PATHES" _ _ _) as [[s3 o3]| |] eqn:E3; try discriminate. cbn [rbind].
  destruct (i_group "MIDDLE_PATHES" _ _ _) as [[s4 o4]| |] eqn:E4; try discriminate. cbn [rbind].
  destruct (i_group "INNER_PATHES" _ _ _) as [[s5 o5]| |] eqn:E5; try discriminate. cbn [rbind].
  destruct (i_group "FILL_PATHES" _ _ _) as [[s7 o7]| |] eqn:E7; try discriminate. cbn [rbind].
  intros H. injection H as <- <-. constructor; [exact I|]. rewrite !Forall_app.
  apply group_body in E3, E4, E5, E7. repeat (split; [|]); try assumption.
  - unfold i_fan. destruct (Bool.eqb _ _); constructor; [|constructor]. destruct (fan_for _ _); [exists 106%Z|exists 107%Z]; right; cbn; auto.
  - unfold i_reset. destruct (nltb _ _); constructor; [bodyG 92%Z|constructor].
Qed.
Lemma layers_body sett ls : forall s s' is, i_layers sett s ls = Ok (s', is) -> Forall layer_cmd is.
Proof.
  induction ls as [|l ls IH]; intros s s' is; cbn [i_layers]; [intros H; injection H as <- <-; constructor|].
  destruct (i_layer sett s l) as [[s1 o1]| |] eqn:E1; try discriminate. cbn [rbind].
  destruct (i_layers sett s1 ls) as [[s2 o2]| |] eqn:E2; try discriminate. cbn [rbind]. intros H. injection H as <- <-.
  apply Forall_app. split; [exact (layer_body _ _ _ _ _ E1)|exact (IH _ _ _ E2)].
Qed.
Lemma cmds_body sett cs : forall s s' is, i_cmds sett s cs = Ok (s', is) -> Forall body_cmd is.
Proof.
  assert (B : forall t x y e, Forall body_cmd (i_bed t x y e)).
  { intros t x y e. unfold i_bed. constructor; [bodyG 0%Z|]. constructor; [exists t; now right; right|]. constructor; [bodyG 92%Z|].
    constructor; [bodyG 1%Z|]. constructor; [bodyG 92%Z|]. constructor; [exists 0%Z; now right; right|]. constructor; [bodyG 92%Z|constructor]. }
  induction cs as [|c cs IH]; intros s s' is; cbn [i_cmds]; [intros H; injection H as <- <-; constructor|].
  destruct (i_cmd c s sett) as [[s1 o1]| |] eqn:E1; try discriminate. cbn [rbind].
  destruct (i_cmds sett s1 cs) as [[s2 o2]| |] eqn:E2; try discriminate. cbn [rbind]. intros H. injection H as <- <-.
  apply Forall_app. split; [|exact (IH _ _ _ E2)].
  destruct c as [| |ax az|a|ls]; cbn [i_cmd] in E1; try (injection E1 as <- <-).
  - apply B.
  - apply B.
  - constructor; [bodyG 62%Z|constructor].
  - apply B.
  - eapply Forall_impl; [exact layer_body_cmd|]. exact (layers_body _ _ _ _ _ E1).
Qed.
End Body.

Lemma body_lines o is : Forall2 line_is o is -> Forall body_cmd is ->
  exists ois, Forall2 line2 o ois /\ somes ois = no_comments is.
Proof.
  induction 1 as [|s i o is (l & -> & N & _ & R) F IH]; intros B; [exists []; split; [constructor|reflexivity]|].
  inversion B as [|? ? B1 B2]; subst. destruct (IH B2) as (ois & G & E).
  exists (match i with Comment _ => None | _ => Some i end :: ois). split.
  - constructor; [|exact G]. exists l. split; [reflexivity|]. split; [exact N|]. now apply read_line_line2.
  - unfold no_comments in *. cbn [filter]. destruct i; cbn [somes]; [exact E|now rewrite E].
Qed.

(** *** executing the body *)
Lemma absolute_id p ws : p_rel p = false -> p_relE p = false -> map (absolute p) ws = ws.
Proof.
  intros H1 H2. rewrite <- (map_id ws) at 2. apply map_ext. intros [l v]. unfold absolute. rewrite H1, H2.
  destruct (Ascii.eqb l "X"), (Ascii.eqb l "Y"), (Ascii.eqb l "Z"), (Ascii.eqb l "E"); reflexivity.
Qed.
Lemma pexec_body p i : p_rel p = false -> p_relE p = false -> body_cmd i -> pexec p i = set_m p (exec (p_m p) i).
Proof.
  intros H1 H2 B. destruct i as [t|c ws]; [now destruct p|]. unfold pexec. rewrite (absolute_id p ws H1 H2).
  destruct B as (n & [[B ->]|[[B ->]| ->]]).
  - destruct B as [<-|[<-|[<-|[<-|[]]]]]; reflexivity.
  - destruct B as [<-|[<-|[]]]; reflexivity.
  - reflexivity.
Qed.
Lemma prun_body is : Forall body_cmd is -> forall p, p_rel p = false -> p_relE p = false ->
  prun p (no_comments is) = set_m p (run (p_m p) is).
Proof.
  induction 1 as [|i is B F IH]; intros p H1 H2; [now destruct p|]. unfold no_comments, prun, run. cbn [filter fold_left].
  destruct i as [t|c ws].
  - exact (IH p H1 H2).
  - cbn [fold_left]. rewrite (pexec_body p _ H1 H2 B). fold (no_comments is).
    specialize (IH (set_m p (exec (p_m p) (Instr c ws))) H1 H2). unfold prun, run in IH. rewrite IH. reflexivity.
Qed.

(** ** Header and footer *)

(** the pieces of the two files *)
Definition header_pieces : list piece :=
  [Text (";Generated with Goosli" ++ nl ++ ";Sliced at: "); Slot "datetime";
   Text (nl ++ ";Layer height: "); Slot "layer_height"; Text ", Walls: "; Slot "wall_thickness";
   Text ", Fill: "; Slot "fill_density"; Text ("%" ++ nl ++ ";Print time: "); Slot "print_time";
   Text (nl ++ ";Filament used: "); Slot "filament_amount"; Text "m "; Slot "filament_weight";
   Text ("g" ++ nl ++ ";Filament cost: "); Slot "filament_cost";
   Text (nl ++ nl ++ "T0" ++ nl ++ "M190 S"); Slot "bed_temperature";
   Text ("         ;Set bed temperature and wait" ++ nl ++ "M109 S"); Slot "extruder_temperature";
   Text ("    ;Set extruder temperature and wait" ++ nl ++
         "G21             ;metric values" ++ nl ++
         "G90             ;absolute positioning" ++ nl ++
         "M82             ;set extruder to absolute mode" ++ nl ++
         "M107            ;start with the fan off" ++ nl ++
         ";G28 X0 Y0       ;move X/Y to min endstops" ++ nl ++
         ";G28 Z0          ;move Z to min endstops" ++ nl ++
         "G28 ;Home for our delta-printer" ++ nl ++
         "G1 Z15.0 F"); Slot "print_speed";
   Text ("     ;move the platform down 15mm" ++ nl ++
         "G92 E0                      ;zero the extruded length" ++ nl ++
         "G1 F200 E3                  ;extrude 3mm of feed stock" ++ nl ++
         "G92 E0                      ;zero the extruded length again" ++ nl ++
         "G1 F"); Slot "print_speed";
   Text (nl ++ ";Put printing message on LCD screen" ++ nl ++ "M117 Printing..." ++ nl ++ ";LAYER_COUNT:");
   Slot "layer_count"; Text nl].
Definition footer_pieces : list piece :=
  [Text (nl ++ ";End GCode" ++ nl ++ ";M107" ++ nl ++
    "M104 S0                                 ;extruder heater off" ++ nl ++
    "M140 S0                                 ;heated bed heater off (if you have it)" ++ nl ++
    "G91                                     ;relative positioning" ++ nl ++
    "G1 E-1 F300                             ;retract the filament a bit before lifting the nozzle, to release some of the pressure" ++ nl ++
    "G1 Z+0.5 E-5 X-20 Y-20 F"); Slot "print_speed";
   Text ("   ;move Z up a bit and retract filament even more" ++ nl ++
    "G28 X0 Y0                               ;move X/Y to min endstops, so the head is out of the way" ++ nl ++
    "M84                                     ;steppers off" ++ nl ++
    "G90                                     ;absolute positioning" ++ nl ++
    "M82                                     ;absolute extrusion mode" ++ nl)].

Lemma header_is : template header_pieces = header_template.
Proof. reflexivity. Qed.
Lemma footer_is : template footer_pieces = footer_template.
Proof. reflexivity. Qed.
Lemma header_ok : Forall piece_ok header_pieces.
Proof. unfold header_pieces. repeat (constructor; [reflexivity || split; reflexivity|]). constructor. Qed.
Lemma footer_ok : Forall piece_ok footer_pieces.
Proof. unfold footer_pieces. repeat (constructor; [reflexivity || split; reflexivity|]). constructor. Qed.

(** their lines once filled *)
Definition header_lines (d lh wt fd bt et ps lc : string) : list string :=
  [";Generated with Goosli" ++ nl; ";Sliced at: " ++ d ++ nl;
   ";Layer height: " ++ lh ++ ", Walls: " ++ wt ++ ", Fill: " ++ fd ++ "%" ++ nl;
   ";Print time: {print_time}" ++ nl; ";Filament used: {filament_amount}m {filament_weight}g" ++ nl;
   ";Filament cost: {filament_cost}" ++ nl; nl; "T0" ++ nl;
   "M190 S" ++ bt ++ "         ;Set bed temperature and wait" ++ nl;
   "M109 S" ++ et ++ "    ;Set extruder temperature and wait" ++ nl;
   "G21             ;metric values" ++ nl;
   "G90             ;absolute positioning" ++ nl;
   "M82             ;set extruder to absolute mode" ++ nl;
   "M107            ;start with the fan off" ++ nl;
   ";G28 X0 Y0       ;move X/Y to min endstops" ++ nl;
   ";G28 Z0          ;move Z to min endstops" ++ nl;
   "G28 ;Home for our delta-printer" ++ nl;
   "G1 Z15.0 F" ++ ps ++ "     ;move the platform down 15mm" ++ nl;
   "G92 E0                      ;zero the extruded length" ++ nl;
   "G1 F200 E3                  ;extrude 3mm of feed stock" ++ nl;
   "G92 E0                      ;zero the extruded length again" ++ nl;
   "G1 F" ++ ps ++ nl;
   ";Put printing message on LCD screen" ++ nl; "M117 Printing..." ++ nl; ";LAYER_COUNT:" ++ lc ++ nl].
Definition header_instrs (bt et ps : Z) : list (option instr) :=
  [None; None; None; None; None; None; None; Some (T 0);
   Some (Instr ("M"%char, VZ 190) [("S"%char, VZ bt)]); Some (Instr ("M"%char, VZ 109) [("S"%char, VZ et)]);
   Some (G 21 []); Some (G 90 []); Some (M 82); Some (M 107); None; None; Some (G 28 []);
   Some (G 1 [("Z"%char, VZ 15); ("F"%char, VZ ps)]); Some (G 92 [("E"%char, VZ 0)]);
   Some (G 1 [("F"%char, VZ 200); ("E"%char, VZ 3)]); Some (G 92 [("E"%char, VZ 0)]);
   Some (G 1 [("F"%char, VZ ps)]); None; None; None].
Definition footer_lines (ps : string) : list string :=
  [nl; ";End GCode" ++ nl; ";M107" ++ nl;
    "M104 S0                                 ;extruder heater off" ++ nl;
    "M140 S0                                 ;heated bed heater off (if you have it)" ++ nl;
    "G91                                     ;relative positioning" ++ nl;
    "G1 E-1 F300                             ;retract the filament a bit before lifting the nozzle, to release some of the pressure" ++ nl;
    "G1 Z+0.5 E-5 X-20 Y-20 F" ++ ps ++ "   ;move Z up a bit and retract filament even more" ++ nl;
    "G28 X0 Y0                               ;move X/Y to min endstops, so the head is out of the way" ++ nl;
    "M84                                     ;steppers off" ++ nl;
    "G90                                     ;absolute positioning" ++ nl;
    "M82                                     ;absolute extrusion mode" ++ nl].
Definition footer_instrs (ps : Z) : list (option instr) :=
  [None; None; None; Some (Instr ("M"%char, VZ 104) [("S"%char, VZ 0)]); Some (Instr ("M"%char, VZ 140) [("S"%char, VZ 0)]);
   Some (G 91 []); Some (G 1 [("E"%char, VZ (-1)); ("F"%char, VZ 300)]);
   Some (G 1 [("Z"%char, VFin 500); ("E"%char, VZ (-5)); ("X"%char, VZ (-20)); ("Y"%char, VZ (-20)); ("F"%char, VZ ps)]);
   Some (G 28 [("X"%char, VZ 0); ("Y"%char, VZ 0)]); Some (M 84); Some (G 90 []); Some (M 82)].

Lemma line2_lit l oi : allc (isnt newline) l = true -> read_line2 l = Some oi -> line2 (l ++ nl) oi.
Proof. intros H1 H2. exists l. auto. Qed.
Lemma line2_comment t : allc (isnt newline) t = true -> line2 (String ";" t ++ nl) None.
Proof. intros H. exists (String ";" t). split; [reflexivity|]. split; [exact H|reflexivity]. Qed.

Lemma itoa_nosemi z : allc (isnt ";") (itoa z) = true.
Proof. exact (read_val_nosemi _ _ (read_itoa z)). Qed.
Lemma itoa_nonl z : allc (isnt newline) (itoa z) = true.
Proof. exact (plain_nonl _ (itoa_plain z)). Qed.
Lemma read_word2_Z c z : is_letter c = true -> read_word2 (String c (itoa z)) = Some (c, VZ z).
Proof. intros H. exact (proj1 (read_word_word2 _ _ (read_word_Z c z H))). Qed.

(** a line whose last word is an integer, followed by spaces and a comment *)
Lemma line2_Z a c z sp t ws i : is_letter c = true -> allc (isnt newline) a = true -> allc (isnt ";") a = true ->
  words_of a = ws -> hd_error ws <> Some "M117" -> ws <> [] -> words_of sp = [] -> allc (isnt ";") sp = true -> allc (isnt newline) sp = true ->
  allc (isnt newline) t = true -> plain c = true ->
  match all_some (map read_word2 ws) with Some (k :: cs) => Some (Instr k (cs ++ [(c, VZ z)])) | _ => None end = Some i ->
  line2 (a ++ String " " (String c (itoa z ++ String " " (sp ++ String ";" (t ++ nl))))) (Some i).
Proof.
  intros Lc Na Sa W Nm Nw Wsp Ssp Nsp Nt Pc R.
  exists (a ++ String " " (String c (itoa z ++ String " " (sp ++ String ";" t)))). split.
  { rewrite append_assoc. cbn [append]. f_equal. f_equal. f_equal. rewrite append_assoc. cbn [append]. f_equal. f_equal. rewrite append_assoc. reflexivity. }
  split.
  { rewrite allc_app, Na. cbn [allc andb]. rewrite allc_app, itoa_nonl. cbn [allc andb]. rewrite allc_app, Nsp. cbn [allc andb].
    rewrite Nt. unfold plain in Pc. apply andb_true_iff in Pc. destruct Pc as [_ ->]. reflexivity. }
  unfold read_line2.
  assert (Co : code_of (a ++ String " " (String c (itoa z ++ String " " (sp ++ String ";" t)))) = a ++ String " " (String c (itoa z) ++ String " " sp)).
  { replace (a ++ String " " (String c (itoa z ++ String " " (sp ++ String ";" t)))) with ((a ++ String " " (String c (itoa z) ++ String " " sp)) ++ String ";" t).
    - apply code_semi. rewrite allc_app, Sa. cbn [allc andb append]. rewrite allc_app, itoa_nosemi. cbn [allc andb]. rewrite Ssp.
      unfold isnt at 2. destruct (Ascii.eqb_spec c ";") as [->|]; [discriminate Lc|reflexivity].
    - rewrite append_assoc. cbn [append]. f_equal. f_equal. f_equal. rewrite append_assoc. reflexivity. }
  rewrite Co, words_app, words_app, W, Wsp.
  assert (P : allc plain (String c (itoa z)) = true) by now apply word_plain_Z.
  rewrite words_last; [|now apply plain_nosp|reflexivity]. rewrite app_nil_r.
  destruct ws as [|w ws]; [now destruct Nw|]. cbn [List.app]. destruct (String.eqb_spec w "M117") as [->|_]; [now destruct Nm|].
  change (w :: ws ++ [String c (itoa z)])%list with ((w :: ws) ++ [String c (itoa z)])%list. rewrite map_app. cbn [map].
  rewrite (read_word2_Z c z Lc).
  assert (Q : forall l x, all_some (l ++ [Some x])%list = option_map (fun ys => ys ++ [x])%list (@all_some word l)).
  { induction l as [|[y|] l IH]; intros x; [reflexivity| |reflexivity]. cbn [List.app all_some]. rewrite IH. now destruct (all_some l). }
  change (read_word2 w :: map read_word2 ws) with (map read_word2 (w :: ws)).
  rewrite Q. destruct (all_some (map read_word2 (w :: ws))) as [[|k cs]|]; [discriminate R| |discriminate R]. cbn [option_map List.app]. now f_equal.
Qed.
Lemma line2_Zend a c z ws i : is_letter c = true -> allc (isnt newline) a = true -> allc (isnt ";") a = true ->
  words_of a = ws -> hd_error ws <> Some "M117" -> ws <> [] -> plain c = true ->
  match all_some (map read_word2 ws) with Some (k :: cs) => Some (Instr k (cs ++ [(c, VZ z)])) | _ => None end = Some i ->
  line2 (a ++ String " " (String c (itoa z ++ nl))) (Some i).
Proof.
  intros Lc Na Sa W Nm Nw Pc R.
  exists (a ++ String " " (String c (itoa z))). split.
  { rewrite append_assoc. reflexivity. }
  split.
  { rewrite allc_app, Na. cbn [allc andb]. rewrite itoa_nonl. unfold plain in Pc. apply andb_true_iff in Pc. destruct Pc as [_ ->]. reflexivity. }
  unfold read_line2. rewrite code_nosemi.
  2:{ rewrite allc_app, Sa. cbn [allc andb]. rewrite itoa_nosemi. unfold isnt at 2. destruct (Ascii.eqb_spec c ";") as [->|]; [discriminate Lc|reflexivity]. }
  rewrite words_app, W.
  assert (P : allc plain (String c (itoa z)) = true) by now apply word_plain_Z.
  rewrite words_last; [|now apply plain_nosp|reflexivity].
  destruct ws as [|w ws]; [now destruct Nw|]. cbn [List.app]. destruct (String.eqb_spec w "M117") as [->|_]; [now destruct Nm|].
  change (w :: ws ++ [String c (itoa z)])%list with ((w :: ws) ++ [String c (itoa z)])%list. rewrite map_app. cbn [map].
  rewrite (read_word2_Z c z Lc).
  assert (Q : forall l x, all_some (l ++ [Some x])%list = option_map (fun ys => ys ++ [x])%list (@all_some word l)).
  { induction l as [|[y|] l IH]; intros x; [reflexivity| |reflexivity]. cbn [List.app all_some]. rewrite IH. now destruct (all_some l). }
  change (read_word2 w :: map read_word2 ws) with (map read_word2 (w :: ws)).
  rewrite Q. destruct (all_some (map read_word2 (w :: ws))) as [[|k cs]|]; [discriminate R| |discriminate R]. cbn [option_map List.app]. now f_equal.
Qed.

Ltac litline := (apply line2_lit || apply (line2_lit "")); vm_compute; reflexivity.
Ltac zline a c z sp t ws :=
  apply (line2_Z a c z sp t ws); [reflexivity|reflexivity|reflexivity|reflexivity|discriminate|discriminate|reflexivity|reflexivity|reflexivity|reflexivity|reflexivity|reflexivity].

Lemma header_reads d lh wt fd bt et ps lc :
  allc (isnt newline) d = true -> allc (isnt newline) lh = true -> allc (isnt newline) wt = true -> allc (isnt newline) fd = true ->
  allc (isnt newline) lc = true ->
  Forall2 line2 (header_lines d lh wt fd (itoa bt) (itoa et) (itoa ps) lc) (header_instrs bt et ps).
Proof.
  intros Hd Hlh Hwt Hfd Hlc. unfold header_lines, header_instrs.
  constructor; [litline|].
  constructor. { apply (line2_comment ("Sliced at: " ++ d)). exact Hd. }
  constructor. {
    assert (Q : ";Layer height: " ++ lh ++ ", Walls: " ++ wt ++ ", Fill: " ++ fd ++ "%" ++ nl =
      String ";" ("Layer height: " ++ lh ++ ", Walls: " ++ wt ++ ", Fill: " ++ fd ++ "%") ++ nl).
    { cbn [append]. repeat (rewrite append_assoc; cbn [append]). reflexivity. }
    rewrite Q. apply line2_comment. repeat (rewrite allc_app || cbn [allc append]). rewrite Hlh, Hwt, Hfd. reflexivity. }
  do 4 (constructor; [litline|]).
  constructor; [litline|].
  constructor. { zline "M190" "S"%char bt "        " "Set bed temperature and wait" ["M190"]. }
  constructor. { zline "M109" "S"%char et "   " "Set extruder temperature and wait" ["M109"]. }
  do 7 (constructor; [litline|]).
  constructor. { zline "G1 Z15.0" "F"%char ps "    " "move the platform down 15mm" ["G1"; "Z15.0"]. }
  do 3 (constructor; [litline|]).
  constructor. { apply (line2_Zend "G1" "F"%char ps ["G1"]); [reflexivity|reflexivity|reflexivity|reflexivity|discriminate|discriminate|reflexivity|reflexivity]. }
  do 2 (constructor; [litline|]).
  constructor. { apply (line2_comment ("LAYER_COUNT:" ++ lc)). exact Hlc. }
  constructor.
Qed.
Lemma footer_reads ps : Forall2 line2 (footer_lines (itoa ps)) (footer_instrs ps).
Proof.
  unfold footer_lines, footer_instrs.
  do 7 (constructor; [litline|]).
  constructor. { zline "G1 Z+0.5 E-5 X-20 Y-20" "F"%char ps "  " "move Z up a bit and retract filament even more" ["G1"; "Z+0.5"; "E-5"; "X-20"; "Y-20"]. }
  do 4 (constructor; [litline|]). constructor.
Qed.

(** ** Filling *)

Lemma filled_perm m m' p o : Permutation m m' -> filled m' p o -> filled m p o.
Proof.
  intros P. destruct p as [s|w]; cbn; [auto|]. intros [(v & V1 & V2)|[V1 V2]].
  - left. exists v. split; [|exact V2]. exact (Permutation_in _ (Permutation_sym P) V1).
  - right. split; [|exact V2]. intros I. apply V1. exact (Permutation_in _ (Permutation_map fst P) I).
Qed.
Lemma map_ok_perm m m' : Permutation m m' -> map_ok m -> map_ok m'.
Proof.
  intros P [N F]. split.
  - exact (Permutation_NoDup (Permutation_map fst P) N).
  - rewrite Forall_forall in *. intros x I. apply F. exact (Permutation_in _ (Permutation_sym P) I).
Qed.
Lemma prepare_any m m' ps : map_ok m -> Permutation m m' -> Forall piece_ok ps ->
  exists outs, Forall2 (filled m) ps outs /\ prepareDataFile (Some (template ps)) m' = Ok (String.concat "" outs).
Proof.
  intros K P Q. destruct (map_ok_perm m m' P K) as [N F]. destruct (prepared m' F N ps Q) as (outs & H & E).
  exists outs. split; [|cbn [prepareDataFile]; now rewrite E]. clear E Q. induction H as [|p o ps outs H1 H2 IH]; constructor; [|exact IH].
  exact (filled_perm m m' p o P H1).
Qed.
Lemma filled_list_unique m ps a b : NoDup (map fst m) -> Forall2 (filled m) ps a -> Forall2 (filled m) ps b -> a = b.
Proof.
  intros N H. revert b. induction H as [|p o ps outs H1 H2 IH]; intros b Hb; inversion Hb; subst; [reflexivity|].
  f_equal; [exact (filled_unique m p _ _ N H1 H3)|now apply IH].
Qed.

Section Filling.
Context {A : Arith}.

Lemma toMap_ok s : no_open (s_dateTime s) -> map_ok (toMap s).
Proof.
  intros H. split.
  - cbn [toMap map fst]. repeat (constructor; [cbn [In]; intuition discriminate|]). constructor.
  - assert (K : forall w v m, no_brace w -> no_open v ->
      Forall (fun kv => (exists w, no_brace w /\ fst kv = "{" ++ w ++ "}") /\ no_open (snd kv)) m ->
      Forall (fun kv => (exists w, no_brace w /\ fst kv = "{" ++ w ++ "}") /\ no_open (snd kv)) (("{" ++ w ++ "}", v) :: m)).
    { intros w v m Hw Hv Hm. constructor; [|exact Hm]. split; [exists w; auto|exact Hv]. }
    apply (K "datetime"); [split; reflexivity|exact H|].
    apply (K "layer_height"); [split; reflexivity|apply strF_no_open|].
    apply (K "wall_thickness"); [split; reflexivity|apply strF_no_open|].
    apply (K "fill_density"); [split; reflexivity|apply itoa_no_open|].
    apply (K "bed_temperature"); [split; reflexivity|apply itoa_no_open|].
    apply (K "extruder_temperature"); [split; reflexivity|apply itoa_no_open|].
    apply (K "print_speed"); [split; reflexivity|apply itoa_no_open|].
    apply (K "layer_count"); [split; reflexivity|apply itoa_no_open|].
    constructor.
Qed.

Lemma filled_in s w v : In ("{" ++ w ++ "}", v) (toMap s) -> filled (toMap s) (Slot w) v.
Proof. intros H. left. exists v. auto. Qed.
Ltac slot := apply filled_in; cbn [toMap In append]; tauto.
Ltac hole := right; split; [cbn [toMap map fst In append]; intuition discriminate|reflexivity].

Lemma header_filled s : Forall2 (filled (toMap s)) header_pieces
  (map (fun p => match p with
                 | Text t => t
                 | Slot w => if w =? "datetime" then s_dateTime s
                             else if w =? "layer_height" then strF (s_layerHeight s)
                             else if w =? "wall_thickness" then strF (s_wallThickness s)
                             else if w =? "fill_density" then itoa (s_fillDensity s)
                             else if w =? "bed_temperature" then itoa (s_bedTemperature s)
                             else if w =? "extruder_temperature" then itoa (s_extruderTemperature s)
                             else if w =? "print_speed" then itoa (PrintSpeed (s_g s))
                             else if w =? "layer_count" then itoa (s_layerCount s)
                             else "{" ++ w ++ "}"
                 end) header_pieces).
Proof.
  unfold header_pieces. cbn [map String.eqb Ascii.eqb Bool.eqb].
  repeat (constructor; [reflexivity || slot || hole|]). constructor.
Qed.
Lemma footer_filled s : Forall2 (filled (toMap s)) footer_pieces
  (map (fun p => match p with Text t => t | Slot w => itoa (PrintSpeed (s_g s)) end) footer_pieces).
Proof. unfold footer_pieces. cbn [map]. repeat (constructor; [reflexivity || slot|]). constructor. Qed.

Lemma header_prepared s m' : no_open (s_dateTime s) -> Permutation (toMap s) m' ->
  prepareDataFile (Some header_template) m' =
  Ok (String.concat "" (header_lines (s_dateTime s) (strF (s_layerHeight s)) (strF (s_wallThickness s)) (itoa (s_fillDensity s))
        (itoa (s_bedTemperature s)) (itoa (s_extruderTemperature s)) (itoa (PrintSpeed (s_g s))) (itoa (s_layerCount s)))).
Proof.
  intros H P. destruct (prepare_any _ _ _ (toMap_ok s H) P header_ok) as (outs & F & E). rewrite header_is in E. rewrite E. f_equal.
  rewrite (filled_list_unique _ _ _ _ (proj1 (toMap_ok s H)) F (header_filled s)). clear.
  generalize (s_dateTime s) (strF (s_layerHeight s)) (strF (s_wallThickness s)) (itoa (s_fillDensity s))
        (itoa (s_bedTemperature s)) (itoa (s_extruderTemperature s)) (itoa (PrintSpeed (s_g s))) (itoa (s_layerCount s)).
  intros d lh wt fd bt et ps lc. unfold header_pieces, header_lines. cbn [map String.eqb Ascii.eqb Bool.eqb].
  rewrite !concat_cons. cbn [append nl String.concat]. rewrite !append_assoc. cbn [append]. repeat (rewrite !append_assoc; cbn [append]). reflexivity.
Qed.
Lemma footer_prepared s m' : no_open (s_dateTime s) -> Permutation (toMap s) m' ->
  prepareDataFile (Some footer_template) m' = Ok (String.concat "" (footer_lines (itoa (PrintSpeed (s_g s))))).
Proof.
  intros H P. destruct (prepare_any _ _ _ (toMap_ok s H) P footer_ok) as (outs & F & E). rewrite footer_is in E. rewrite E. f_equal.
  rewrite (filled_list_unique _ _ _ _ (proj1 (toMap_ok s H)) F (footer_filled s)). clear.
  generalize (itoa (PrintSpeed (s_g s))).
  intros ps. unfold footer_pieces, footer_lines. cbn [map].
  rewrite !concat_cons. cbn [append nl String.concat]. rewrite !append_assoc. cbn [append]. repeat (rewrite !append_assoc; cbn [append]). reflexivity.
Qed.

Lemma toOutput_lines g t : toOutput g = Ok t -> exists s' is o, i_cmds (g_sett g) newState (g_cmds g) = Ok (s', is) /\
  read_gcode t = Some is /\ t = String.concat "" o /\ Forall2 line_is o is.
Proof.
  intros E. pose proof (output_intended g) as O. rewrite E in O. unfold intended in O.
  unfold toOutput in E. pose proof (cmds_agree (g_sett g) (g_cmds g) newState) as H.
  destruct (cmdsToGCode (g_sett g) newState (g_cmds g)) as [[s o]| |]; try discriminate. cbn [rbind] in E. injection E as <-.
  destruct (i_cmds (g_sett g) newState (g_cmds g)) as [[s' is]| |]; cbn in H; try contradiction.
  destruct H as [-> H]. exists s', is, o. cbn in O. auto.
Qed.

(** the whole file, line by line *)
Lemma file_lines order1 order2 g s t : (forall m, Permutation m (order1 m)) -> (forall m, Permutation m (order2 m)) ->
  no_open (s_dateTime s) -> allc (isnt newline) (s_dateTime s) = true -> toOutput g = Ok t ->
  exists hl bl fl bs, commandsWithTemplates order1 order2 (Some header_template) (Some footer_template) g s =
      Ok (String.concat "" (hl ++ bl ++ fl)%list) /\
    hl = header_lines (s_dateTime s) (strF (s_layerHeight s)) (strF (s_wallThickness s)) (itoa (s_fillDensity s))
        (itoa (s_bedTemperature s)) (itoa (s_extruderTemperature s)) (itoa (PrintSpeed (s_g s))) (itoa (Z.of_nat (layerCount g))) /\
    t = String.concat "" bl /\ fl = footer_lines (itoa (PrintSpeed (s_g s))) /\
    Forall2 line2 hl (header_instrs (s_bedTemperature s) (s_extruderTemperature s) (PrintSpeed (s_g s))) /\
    Forall2 line2 bl bs /\
    Forall2 line2 fl (footer_instrs (PrintSpeed (s_g s))) /\
    exists s' is, i_cmds (g_sett g) newState (g_cmds g) = Ok (s', is) /\ read_gcode t = Some is /\ somes bs = no_comments is /\ Forall body_cmd is.
Proof.
  intros P1 P2 H1 H2 E. destruct (toOutput_lines g t E) as (s' & is & o & I & R & Et & L).
  pose proof (cmds_body _ _ _ _ _ I) as B. destruct (body_lines o is L B) as (bs & Lb & Sb).
  unfold commandsWithTemplates. set (s2 := set_layerCount s (Z.of_nat (layerCount g))).
  rewrite (header_prepared s2 _ H1 (P1 _)), E. cbn [rbind]. rewrite (footer_prepared s2 _ H1 (P2 _)). cbn [rbind].
  eexists _, o, _, bs. split; [|split; [reflexivity|]].
  { rewrite concat_app, concat_app, <- Et. reflexivity. }
  split; [exact Et|]. split; [reflexivity|]. split.
  { apply header_reads; [exact H2| | | |]; auto using itoa_nonl, plain_nonl, strF_plain. }
  split; [exact Lb|]. split; [apply footer_reads|]. exists s', is. auto.
Qed.

(** *** the fan at the end *)
Lemma fan_end sett cs : forall s s' is, i_cmds sett s cs = Ok (s', is) ->
  (0 <= layerIndex s)%Z -> (layerIndex s = 0%Z \/ fan s = fan_for sett (layerIndex s - 1)) ->
  (layerIndex s <= layerIndex s')%Z /\ (layerIndex s' = 0%Z \/ fan s' = fan_for sett (layerIndex s' - 1)).
Proof.
  assert (L : forall ls s s' is, i_layers sett s ls = Ok (s', is) ->
    (0 <= layerIndex s)%Z -> (layerIndex s = 0%Z \/ fan s = fan_for sett (layerIndex s - 1)) ->
    (layerIndex s <= layerIndex s')%Z /\ (layerIndex s' = 0%Z \/ fan s' = fan_for sett (layerIndex s' - 1))).
  { induction ls as [|l ls IH]; intros s s' is H H0 HI.
    - cbn in H. injection H as <- <-. split; [lia|exact HI].
    - apply i_layers_cons_inv in H. destruct H as (s1 & o1 & o2 & K1 & K2 & _). apply i_layer_frame in K1. destruct K1 as [F1 F2 _ _ _].
      destruct (IH s1 s' o2 K2) as [G1 G2]; [lia| |split; [lia|exact G2]]. right. rewrite F1, F2. f_equal. lia. }
  induction cs as [|c cs IH]; intros s s' is H H0 HI.
  - cbn in H. injection H as <- <-. split; [lia|exact HI].
  - apply i_cmds_cons_inv in H. destruct H as (s1 & o1 & o2 & K1 & K2 & _).
    assert (Q : (layerIndex s <= layerIndex s1)%Z /\ (layerIndex s1 = 0%Z \/ fan s1 = fan_for sett (layerIndex s1 - 1))).
    { destruct c as [| |ax az|a|ls]; cbn [i_cmd] in K1; try (injection K1 as <- <-; cbn; split; [lia|exact HI]). exact (L _ _ _ _ K1 H0 HI). }
    destruct Q as [Q1 Q2]. destruct (IH s1 s' o2 K2 ltac:(lia) Q2) as [G1 G2]. split; [lia|exact G2].
Qed.
End Filling.

(** a program of layers keeps the other tools *)
Lemma layer_cmd_tool i m : layer_cmd i -> m_tool (exec m i) = m_tool m /\ forall t, t <> m_tool m -> m_disp (exec m i) t = m_disp m t.
Proof.
  destruct i as [t|c ws]; [auto|]. intros (n & [[H ->]|[H ->]]).
  - destruct H as [<-|[<-|[<-|[]]]]; cbn; (split; [reflexivity|]); intros t Ht; destruct (arg "E" ws); try reflexivity;
      unfold upd_disp; destruct (Z.eqb_spec t (m_tool m)); congruence.
  - destruct H as [<-|[<-|[]]]; cbn; auto.
Qed.
Lemma layer_run is : Forall layer_cmd is -> forall m, m_tool (run m is) = m_tool m /\ forall t, t <> m_tool m -> m_disp (run m is) t = m_disp m t.
Proof.
  induction 1 as [|i is H F IH]; intros m; [auto|]. unfold run. cbn [fold_left]. fold (run (exec m i) is).
  destruct (IH (exec m i)) as [K1 K2]. destruct (layer_cmd_tool i m H) as [L1 L2]. split; [congruence|].
  intros t Ht. rewrite K2 by congruence. now apply L2.
Qed.
