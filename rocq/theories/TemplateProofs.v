(** * Templates *)
From Coq Require Import ZArith NArith String Ascii List Bool Lia Permutation.
From Verif Require Import Arith Prim GcodeSpec GcodeInstr GcodeText Main MainClaims.
Import ListNotations.
Open Scope string_scope.

Lemma prefix_app a b : String.prefix a (a ++ b) = true.
Proof. induction a as [|c a IH]; cbn; [now destruct b|]. destruct (ascii_dec c c); [exact IH|contradiction]. Qed.

Lemma replace_skip old new x r : replace_from old new (String.length x) (x ++ r) = replace_from old new 0 r.
Proof. induction x as [|c x IH]; [reflexivity|]. cbn [String.length append replace_from]. exact IH. Qed.

Lemma replace_text key new s r : no_open s ->
  replace_from (String "{" key) new 0 (s ++ r) = s ++ replace_from (String "{" key) new 0 r.
Proof.
  unfold no_open. induction s as [|c s IH]; cbn [allc append]; [reflexivity|]. intros H. apply andb_true_iff in H. destruct H as [H1 H2].
  cbn [replace_from String.prefix]. destruct (ascii_dec "{" c) as [<-|N]; [discriminate H1|]. now rewrite IH.
Qed.

Lemma slot_prefix k w r : no_brace k -> no_brace w -> String.prefix (k ++ "}") (w ++ "}" ++ r) = true -> k = w.
Proof.
  intros [_ Hk] [_ Hw]. revert w Hw. induction k as [|c k IH]; intros [|d w] Hw; cbn [append String.prefix].
  - reflexivity.
  - cbn [allc] in Hw. apply andb_true_iff in Hw. destruct Hw as [Hd Hw]. destruct (ascii_dec "}" d) as [<-|]; [discriminate Hd|discriminate].
  - cbn [allc] in Hk. apply andb_true_iff in Hk. destruct Hk as [Hc Hk]. destruct (ascii_dec c "}") as [->|]; [discriminate Hc|discriminate].
  - cbn [allc] in Hk, Hw. apply andb_true_iff in Hk. destruct Hk as [Hc Hk]. apply andb_true_iff in Hw. destruct Hw as [Hd Hw].
    destruct (ascii_dec c d) as [->|]; [|discriminate]. intros H. f_equal. exact (IH Hk w Hw H).
Qed.

(** one replacement *)
Definition fill (k v : string) (p : piece) : piece :=
  match p with Slot w => if String.eqb w k then Text v else p | _ => p end.

Lemma template_cons p ps : template (p :: ps) = piece_text p ++ template ps.
Proof. unfold template. cbn [map]. destruct (map piece_text ps) eqn:E; cbn [String.concat]; [now rewrite append_nil_r|reflexivity]. Qed.

Lemma replace_template k v ps : no_brace k -> Forall piece_ok ps ->
  replaceAll (template ps) ("{" ++ k ++ "}") v = template (map (fill k v) ps).
Proof.
  intros Hk F. unfold replaceAll. induction F as [|p ps Hp F IH]; [reflexivity|]. cbn [map]. rewrite !template_cons, <- IH. clear IH.
  set (r := template ps). destruct p as [s|w]; cbn [fill piece_text piece_ok] in *; cbn [append].
  - now apply replace_text.
  - cbn [append replace_from]. destruct (String.eqb_spec w k) as [->|N].
    + assert (P : String.prefix (String "{" (k ++ "}")) (String "{" ((k ++ "}") ++ r)) = true).
      { change (String "{" ((k ++ "}") ++ r)) with (String "{" (k ++ "}") ++ r). apply prefix_app. }
      rewrite P. cbn [piece_text]. f_equal. cbn [String.length]. rewrite Nat.sub_succ, Nat.sub_0_r.
      now rewrite replace_skip.
    + destruct (String.prefix (String "{" (k ++ "}")) (String "{" ((w ++ "}") ++ r))) eqn:P.
      * exfalso. apply N. cbn [String.prefix] in P. destruct (ascii_dec "{" "{"); [|contradiction].
        rewrite append_assoc in P. symmetry. exact (slot_prefix k w r Hk Hp P).
      * cbn [piece_text append]. f_equal. rewrite !append_assoc. change (String "{" (k ++ "}")) with ("{" ++ (k ++ "}")).
        destruct Hp as [Hp _]. change ("{" ++ (k ++ "}")) with (String "{" (k ++ "}")). rewrite replace_text by exact Hp.
        f_equal.
Qed.

Lemma fill_ok k v ps : no_open v -> Forall piece_ok ps -> Forall piece_ok (map (fill k v) ps).
Proof.
  intros Hv F. induction F as [|p ps Hp F IH]; cbn [map]; constructor; [|exact IH]. destruct p as [s|w]; cbn [fill]; [exact Hp|].
  destruct (String.eqb w k); [exact Hv|exact Hp].
Qed.

Lemma brace_inj a b : "{" ++ a ++ "}" = "{" ++ b ++ "}" -> a = b.
Proof.
  cbn. intros H. injection H as H. revert b H. induction a as [|c a IH]; intros [|d b]; cbn; intros H.
  - reflexivity.
  - injection H as _ H. destruct b; discriminate.
  - injection H as _ H. destruct a; discriminate.
  - injection H as -> H. f_equal. now apply IH.
Qed.

Lemma prepared m : Forall (fun kv => (exists w, no_brace w /\ fst kv = "{" ++ w ++ "}") /\ no_open (snd kv)) m ->
  NoDup (map fst m) -> forall ps, Forall piece_ok ps ->
  exists outs, Forall2 (filled m) ps outs /\
    fold_left (fun s kv => replaceAll s (fst kv) (snd kv)) m (template ps) = String.concat "" outs.
Proof.
  induction m as [|[k v] m IH]; intros F N ps P.
  - exists (map piece_text ps). split; [|reflexivity]. clear P. induction ps as [|p ps IH]; cbn [map]; constructor; [|exact IH].
    destruct p; cbn; [reflexivity|]. right. auto.
  - inversion F as [|? ? [(w & Hw & E) Hv] F']; subst. cbn [fst snd] in *. subst k. inversion N as [|? ? N1 N2]; subst.
    cbn [fold_left fst snd]. rewrite replace_template by assumption.
    destruct (IH F' N2 (map (fill w v) ps) (fill_ok w v ps Hv P)) as (outs & G & E). exists outs. split; [|exact E].
    clear -G N1. revert outs G. induction ps as [|p ps IH]; intros outs G; inversion G as [|? o ? outs' G1 G2]; subst; constructor; [|now apply IH].
    destruct p as [s|x]; cbn [fill] in G1; [exact G1|]. destruct (String.eqb_spec x w) as [->|Nx].
    + cbn in G1. subst o. left. exists v. split; [now left|reflexivity].
    + cbn [filled] in *. destruct G1 as [(u & U1 & ->)|[U1 ->]].
      * left. exists u. split; [now right|reflexivity].
      * right. split; [|reflexivity]. cbn [map fst]. intros [H|H]; [|now apply U1]. apply brace_inj in H. congruence.
Qed.

(** the result is determined *)
Lemma filled_unique m p a b : NoDup (map fst m) -> filled m p a -> filled m p b -> a = b.
Proof.
  intros N. destruct p as [s|w]; cbn; [congruence|]. intros [(u & U & ->)|[U ->]] [(v & V & ->)|[V ->]]; try reflexivity.
  - clear -N U V. induction m as [|[k x] m IH]; [destruct U|]. inversion N as [|? ? N1 N2]; subst. destruct U as [U|U], V as [V|V].
    + congruence.
    + exfalso. apply N1. injection U as -> ->. apply (in_map fst) in V. exact V.
    + exfalso. apply N1. injection V as -> ->. apply (in_map fst) in U. exact U.
    + exact (IH N2 U V).
  - exfalso. apply V. apply (in_map fst) in U. exact U.
  - exfalso. apply U. apply (in_map fst) in V. exact V.
Qed.

(** ** Values *)

Lemma digit_no_open s : allc is_digit s = true -> no_open s.
Proof.
  apply allc_impl. intros a H. unfold isnt. destruct (Ascii.eqb_spec a "{") as [->|]; [discriminate H|reflexivity].
Qed.
Lemma no_open_app a b : no_open a -> no_open b -> no_open (a ++ b).
Proof. unfold no_open. rewrite allc_app. intros -> ->. reflexivity. Qed.
Lemma itoa_no_open z : no_open (itoa z).
Proof.
  rewrite itoa_shape. destruct (z <? 0)%Z; [apply (no_open_app "-"); [reflexivity|]|]; apply digit_no_open, dec_of_N_digits.
Qed.
Lemma pad3_no_open n : (n < 1000)%N -> no_open (pad3 n).
Proof. intros H. apply digit_no_open. exact (proj2 (proj2 (pad3_spec n H))). Qed.
Lemma strF_no_open {A : Arith} x : no_open (strF x).
Proof.
  unfold strF, render_fix3. destruct (nfix3 x) as [neg mag|[|]|]; [|reflexivity|reflexivity|reflexivity].
  apply no_open_app; [now destruct neg|]. apply no_open_app; [apply digit_no_open, dec_of_N_digits|].
  apply (no_open_app "."); [reflexivity|]. apply pad3_no_open. now apply N.mod_lt.
Qed.
