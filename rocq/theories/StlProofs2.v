(** * Reading STL files; writing them to a failing disk *)
From Coq Require Import String Ascii ZArith List Bool Lia Arith.
From Verif Require Import Arith ArithF64 Prim Stl StlClaims StlProofs.
Import ListNotations.
Close Scope num_scope.
Local Open Scope Z_scope.

Section E.
Variable E : elem.
Let AE := ArithF64 E.

(** ** detection *)

Lemma word_nth (file : list Z) : (84 <= length file)%nat ->
  exists w, slice file 80 84 = Ok w /\ word_of w = count_field file.
Proof.
  intros H. rewrite slice_ok by lia. eexists; split; [reflexivity|].
  change (84 - 80)%nat with 4%nat.
  do 80 (destruct file as [|? file]; [cbn [length] in H; lia|]).
  do 4 (destruct file as [|? file]; [cbn [length] in H; lia|]).
  unfold count_field. cbn [skipn firstn word_of nth]. lia.
Qed.

Lemma makeFloat_ok b lo : (lo + 4 <= length b)%nat -> exists x, makeFloat b lo = Ok x.
Proof. intros H. unfold makeFloat. rewrite slice_ok by lia. cbn [rbind]. eauto. Qed.

Lemma readPoint_ok b lo : (lo + 12 <= length b)%nat -> exists x, readPoint E b lo = Ok x.
Proof.
  intros H. unfold readPoint.
  destruct (makeFloat_ok b lo) as [x ->]; [lia|]. cbn [rbind].
  destruct (makeFloat_ok b (lo + 4)) as [y ->]; [lia|]. cbn [rbind].
  destruct (makeFloat_ok b (lo + 8)) as [z ->]; [lia|]. cbn [rbind]. eauto.
Qed.

Lemma readTriangle_ok b i : (i * 50 + 50 <= length b)%nat -> exists x, readTriangle E b i = Ok x.
Proof.
  intros H. unfold readTriangle. cbv zeta.
  destruct (readPoint_ok b (i * 50 + 12)) as [x ->]; [lia|]. cbn [rbind].
  destruct (readPoint_ok b (i * 50 + 24)) as [y ->]; [lia|]. cbn [rbind].
  destruct (readPoint_ok b (i * 50 + 36)) as [z ->]; [lia|]. cbn [rbind]. eauto.
Qed.

Lemma rmap_total {X Y} (f : X -> res Y) l : (forall x, In x l -> exists y, f x = Ok y) ->
  exists ys, rmap f l = Ok ys /\ length ys = length l.
Proof.
  induction l as [|x l IH]; intros H; [exists []; auto|].
  cbn [rmap]. destruct (H x (or_introl eq_refl)) as [y ->]. cbn [rbind].
  destruct IH as (ys & -> & L); [firstorder|]. cbn [rbind]. exists (y :: ys). split; [reflexivity|].
  cbn [length]. congruence.
Qed.

Lemma binary_ok rest n : length rest = (n * 50)%nat ->
  exists ts, loadSTLBinary E rest n = Ok (Gives E ts false) /\ length ts = n.
Proof.
  intros H. unfold loadSTLBinary. rewrite H, Nat.ltb_irrefl. cbv zeta.
  rewrite firstn_all2 by lia.
  destruct (rmap_total (readTriangle E rest) (seq 0 n)) as (ts & R & L).
  { intros i Hi. apply in_seq in Hi. apply readTriangle_ok. nia. }
  rewrite seq_length in L. exists ts. split; [|exact L].
  exact (f_equal (fun r => rbind r (fun ts => Ok (Gives E ts false))) R).
Qed.

Lemma load_short parse file : (length file < 84)%nat -> loadSTL E parse file = Ok (Fails E).
Proof. intros H. unfold loadSTL. now rewrite (proj2 (Nat.ltb_lt _ _) H). Qed.

Lemma load_long parse file : (84 <= length file)%nat ->
  loadSTL E parse file =
  if Z.of_nat (length file) =? count_field file * 50 + 84
  then loadSTLBinary E (skipn 84 file) (Z.to_nat (count_field file))
  else loadSTLAscii E parse file.
Proof.
  intros H. unfold loadSTL. rewrite (proj2 (Nat.ltb_ge _ _) H).
  destruct (word_nth file H) as (w & -> & <-). reflexivity.
Qed.

Lemma load_binary file : binary_size file ->
  exists ts, length ts = Z.to_nat (count_field file) /\
    (forall parse, loadSTL E parse file = Ok (Gives E ts false)) /\
    loadSTLBinary E (skipn 84 file) (Z.to_nat (count_field file)) = Ok (Gives E ts false).
Proof.
  intros [H1 H2].
  destruct (binary_ok (skipn 84 file) (Z.to_nat (count_field file))) as (ts & B & L).
  { rewrite skipn_length. lia. }
  exists ts. split; [exact L|]. split; [|exact B].
  intros parse. rewrite load_long by lia.
  rewrite (proj2 (Z.eqb_eq _ _)) by lia. exact B.
Qed.

Lemma load_ascii parse file : (84 <= length file)%nat -> ~ binary_size file ->
  loadSTL E parse file = loadSTLAscii E parse file.
Proof.
  intros H N. rewrite load_long by lia.
  destruct (Z.eqb_spec (Z.of_nat (length file)) (count_field file * 50 + 84)) as [Q|Q]; [|reflexivity].
  exfalso. apply N. split; lia.
Qed.

Lemma line_point_ok parse raw : exists p, line_point E parse raw = Ok p.
Proof.
  unfold line_point. set (l := trim_space (drop_cr raw)).
  destruct (Nat.ltb_spec (length l) 12) as [H|H]; [eauto|].
  destruct l as [|c l]; [cbn [length] in H; lia|].
  cbn [idx nth_error rbind]. destruct (negb _); [eauto|].
  rewrite slice_ok by lia. cbn [rbind].
  destruct (fields _) as [|? [|? [|? [|? ?]]]]; eauto.
Qed.

Lemma ascii_loop_ok parse ls : forall s, exists s' e, ascii_loop E parse s ls = Ok (s', e).
Proof.
  induction ls as [|l ls IH]; intros s; cbn [ascii_loop]; [eauto|].
  destruct (max_token <=? length l)%nat; [eauto|].
  destruct (line_point_ok parse l) as [p ->]. cbn [rbind]. apply IH.
Qed.

Lemma loadAscii_ok parse file : exists ts e, loadSTLAscii E parse file = Ok (Gives E ts e).
Proof.
  unfold loadSTLAscii. edestruct ascii_loop_ok as (s & e & ->). cbn [rbind]. eauto.
Qed.

(** the count field of a prefix or an extension, if long enough *)
Lemma count_firstn file k : (84 <= k)%nat -> count_field (firstn k file) = count_field file.
Proof.
  intros H. unfold count_field.
  assert (N : forall i, (i < 84)%nat -> nth i (firstn k file) 0 = nth i file 0).
  { intros i Hi. rewrite <- (firstn_skipn k file) at 2.
    destruct (Nat.lt_ge_cases i (length (firstn k file))) as [L|L].
    - now rewrite app_nth1.
    - rewrite (nth_overflow _ _ L). rewrite firstn_length in L.
      rewrite (firstn_all2 file) by lia. rewrite (skipn_all2 file) by lia. rewrite app_nil_r.
      rewrite nth_overflow; [reflexivity|lia]. }
  now rewrite !N by lia.
Qed.

Lemma count_app file x : (84 <= length file)%nat -> count_field (file ++ x) = count_field file.
Proof.
  intros H. unfold count_field. rewrite !app_nth1 by lia. reflexivity.
Qed.

(** ** ASCII *)

Lemma is_space_blank c : In c [9; 11; 12; 13; 32] -> is_space c = true.
Proof. cbn [In]. intros H. unfold is_space. repeat destruct H as [<-|H]; try reflexivity. destruct H. Qed.

Lemma is_space_not c : ~ In c [9; 10; 11; 12; 13; 32] -> is_space c = false.
Proof.
  cbn [In]. intros H. unfold is_space.
  destruct (Z.eqb_spec c 32); [exfalso; apply H; lia|]. cbn [orb].
  apply andb_false_iff. rewrite !Z.leb_gt. lia.
Qed.

Lemma trim_left_blank w r : blank w -> trim_left (w ++ r) = trim_left r.
Proof.
  induction w as [|c w IH]; intros H; [reflexivity|].
  inversion H; subst. cbn [app trim_left]. rewrite is_space_blank by assumption. auto.
Qed.

Lemma trim_left_word c r : is_space c = false -> trim_left (c :: r) = c :: r.
Proof. intros H. cbn [trim_left]. now rewrite H. Qed.

Lemma blank_rev w : blank w -> blank (rev w).
Proof. intros H. unfold blank. now apply Forall_rev. Qed.

(** trimming a line that starts and ends with something *)
Lemma trim_between w0 c m d w1 : blank w0 -> blank w1 -> is_space c = false -> is_space d = false ->
  trim_space (w0 ++ (c :: m) ++ w1) = trim_space (c :: m) /\
  trim_space ((c :: m) ++ [d]) = (c :: m) ++ [d].
Proof.
  intros H0 H1 Hc Hd. unfold trim_space. split.
  - rewrite trim_left_blank by assumption. cbn [app].
    rewrite !trim_left_word by assumption.
    change (c :: m ++ w1) with ((c :: m) ++ w1). rewrite rev_app_distr.
    rewrite trim_left_blank by (now apply blank_rev). reflexivity.
  - cbn [app]. rewrite trim_left_word by assumption.
    change (c :: m ++ [d]) with ((c :: m) ++ [d]). rewrite rev_app_distr. cbn [rev app].
    rewrite trim_left_word by assumption. cbn [rev]. rewrite rev_app_distr, rev_involutive. reflexivity.
Qed.

(** dropping the carriage return makes no difference to the trimmed line *)
Lemma trim_drop_cr l : trim_space (drop_cr l) = trim_space l.
Proof.
  unfold drop_cr. destruct (rev l) as [|c r] eqn:R; [reflexivity|].
  destruct (Z.eq_dec c 13) as [->|N].
  2: { destruct c as [|p|p]; try reflexivity.
       do 4 (destruct p as [p|p|]; try reflexivity). congruence. }
  assert (L : l = rev r ++ [13]).
  { rewrite <- (rev_involutive l), R. reflexivity. }
  rewrite L. generalize (rev r). clear.
  intros l. unfold trim_space.
  assert (T : trim_left (l ++ [13]) = trim_left l ++ [13] \/ (trim_left (l ++ [13]) = [] /\ trim_left l = [])).
  { induction l as [|c l IH]; cbn [app trim_left]; [now right|].
    destruct (is_space c); [assumption|]. now left. }
  destruct T as [->|[-> ->]]; [|reflexivity].
  rewrite rev_app_distr. reflexivity.
Qed.

Lemma fields_word a : word a -> forall cur r, fields_from cur (a ++ r) = fields_from (rev a ++ cur) r.
Proof.
  intros [_ W]. induction a as [|c a IH]; intros cur r; [reflexivity|].
  inversion W; subst. cbn [app fields_from]. rewrite is_space_not by assumption.
  rewrite IH by assumption. cbn [rev]. now rewrite <- app_assoc.
Qed.

Lemma fields_blank w : blank w -> forall r, fields_from [] (w ++ r) = fields_from [] r.
Proof.
  intros W. induction w as [|c w IH]; intros r; [reflexivity|].
  inversion W; subst. cbn [app fields_from]. rewrite is_space_blank by assumption. auto.
Qed.

Lemma fields_end a w : a <> [] -> blank w -> w <> [] -> forall r,
  fields_from (rev a) (w ++ r) = a :: fields_from [] r.
Proof.
  intros A W N r. destruct w as [|c w]; [easy|].
  inversion W; subst. cbn [app fields_from]. rewrite is_space_blank by assumption.
  rewrite rev_involutive. destruct (rev a) eqn:R.
  - exfalso. apply A. rewrite <- (rev_involutive a), R. reflexivity.
  - now rewrite fields_blank.
Qed.

Lemma three_fields w1 a w2 b w3 c : word a -> word b -> word c -> blank w1 -> blank w2 -> blank w3 ->
  w2 <> [] -> w3 <> [] ->
  fields (w1 ++ a ++ w2 ++ b ++ w3 ++ c) = [a; b; c].
Proof.
  intros A B C W1 W2 W3 N2 N3. unfold fields. rewrite fields_blank by assumption.
  rewrite fields_word by assumption. rewrite app_nil_r.
  rewrite fields_end by (try assumption; apply A).
  rewrite fields_word by assumption. rewrite app_nil_r.
  rewrite fields_end by (try assumption; apply B).
  rewrite <- (app_nil_r c) at 1. rewrite fields_word by assumption. rewrite app_nil_r. cbn [fields_from].
  rewrite rev_involutive. destruct (rev c) eqn:R; [|reflexivity].
  exfalso. apply (proj1 C). rewrite <- (rev_involutive c), R. reflexivity.
Qed.

Lemma word_last c : word c -> exists m d, c = m ++ [d] /\ is_space d = false.
Proof.
  intros [N W]. destruct (exists_last N) as (m & d & ->). exists m, d. split; [reflexivity|].
  apply Forall_app in W. destruct W as [_ W]. inversion W; subst. now apply is_space_not.
Qed.

Lemma vertex_line_point parse l a b c : vertex_line l a b c ->
  line_point E parse l = Ok (Some (@P3 AE (parse a) (parse b) (parse c))).
Proof.
  intros (A & B & C & w0 & w1 & w2 & w3 & w4 & W0 & W1 & W2 & W3 & W4 & N1 & N2 & N3 & ->).
  unfold line_point. rewrite trim_drop_cr.
  destruct (word_last c C) as (m & d & Hc & Hd).
  set (body := bytes "vertex" ++ w1 ++ a ++ w2 ++ b ++ w3 ++ c).
  assert (T : trim_space (w0 ++ bytes "vertex" ++ w1 ++ a ++ w2 ++ b ++ w3 ++ c ++ w4) = body).
  { replace (w0 ++ bytes "vertex" ++ w1 ++ a ++ w2 ++ b ++ w3 ++ c ++ w4) with (w0 ++ body ++ w4)
      by (unfold body; rewrite <- !app_assoc; reflexivity).
    assert (S : body = (118 :: (tl (bytes "vertex") ++ w1 ++ a ++ w2 ++ b ++ w3 ++ m)) ++ [d]).
    { unfold body. rewrite Hc. cbn. rewrite <- !app_assoc. reflexivity. }
    destruct (trim_between w0 118 (tl (bytes "vertex") ++ w1 ++ a ++ w2 ++ b ++ w3 ++ m ++ [d]) d w4 W0 W4 eq_refl Hd) as [T1 _].
    destruct (trim_between w0 118 (tl (bytes "vertex") ++ w1 ++ a ++ w2 ++ b ++ w3 ++ m) d w4 W0 W4 eq_refl Hd) as [_ T2].
    replace (118 :: tl (bytes "vertex") ++ w1 ++ a ++ w2 ++ b ++ w3 ++ m ++ [d]) with body in T1
      by (unfold body; rewrite Hc; reflexivity).
    rewrite T1, S. exact T2. }
  rewrite T. cbv zeta.
  assert (L : (12 <= length body)%nat).
  { unfold body. rewrite !app_length. change (length (bytes "vertex")) with 6%nat.
    assert (P : forall z : list Z, z <> [] -> (1 <= length z)%nat) by (intros [|? ?]; cbn; [easy|lia]).
    pose proof (P _ N1). pose proof (P _ N2). pose proof (P _ N3).
    pose proof (P _ (proj1 A)). pose proof (P _ (proj1 B)). pose proof (P _ (proj1 C)). lia. }
  rewrite (proj2 (Nat.ltb_ge _ _) L).
  change (idx body 0) with (@Ok Z 118). cbn [rbind Z.eqb negb].
  change (118 =? 118) with true. cbn [negb].
  rewrite slice_ok by lia. cbn [rbind].
  assert (F : fields (firstn (length body - 7) (skipn 7 body)) = [a; b; c]).
  { destruct w1 as [|x w1]; [easy|].
    change (skipn 7 body) with (w1 ++ a ++ w2 ++ b ++ w3 ++ c).
    assert (LL : (length (w1 ++ a ++ w2 ++ b ++ w3 ++ c) <= length body - 7)%nat)
      by (change (length body) with (7 + length (w1 ++ a ++ w2 ++ b ++ w3 ++ c))%nat; lia).
    rewrite firstn_all2 by exact LL.
    apply three_fields; auto. now inversion W1. }
  rewrite F. reflexivity.
Qed.

Lemma other_line_point parse l : other_line l -> line_point E parse l = Ok None.
Proof.
  intros (N & w & r & -> & W & R). unfold line_point. rewrite trim_drop_cr.
  destruct r as [|c r].
  - assert (T : trim_space (w ++ []) = []).
    { unfold trim_space. rewrite trim_left_blank by assumption. reflexivity. }
    rewrite T. reflexivity.
  - destruct R as [R1 R2].
    assert (S : is_space c = false).
    { apply is_space_not. intros [<-|[<-|I]].
      - apply R2. cbn; tauto.
      - apply N. apply in_or_app. right. now left.
      - apply R2. cbn in *. tauto. }
    unfold trim_space. rewrite trim_left_blank by assumption. rewrite trim_left_word by assumption.
    cbn [rev].
    assert (T : exists q, trim_left (rev r ++ [c]) = q ++ [c]).
    { induction (rev r) as [|x y IH]; cbn [app trim_left].
      - rewrite S. now exists [].
      - destruct (is_space x); [assumption|]. now exists (x :: y). }
    destruct T as [q ->]. rewrite rev_app_distr. cbn [rev app].
    destruct (length _ <? 12)%nat; [reflexivity|].
    cbn [idx nth_error rbind]. now rewrite (proj2 (Z.eqb_neq _ _) R1).
Qed.

(** the loop, three points at a time *)
Lemma loop_reads parse ls ps : reads E parse ls ps -> forall s,
  ascii_loop E parse s ls = Ok (fold_left (ascii_step E) ps s, false).
Proof.
  induction 1 as [|l a b c ls ps V F R IH|l ls ps O F R IH]; intros s; [reflexivity| |];
    cbn [ascii_loop]; unfold fits in F;
    rewrite (proj2 (Nat.leb_gt _ _)) by (unfold max_token; lia).
  - rewrite (vertex_line_point parse _ _ _ _ V). cbn [rbind fold_left]. apply IH.
  - rewrite (other_line_point parse _ O). cbn [rbind]. apply IH.
Qed.

Lemma step0 s p : a_i E s mod 3 = 0 ->
  ascii_step E s p = AS E (a_i E s + 1) p (a_p2 E s) (a_ts E s).
Proof. intros M. unfold ascii_step. rewrite M. reflexivity. Qed.
Lemma step1 s p : a_i E s mod 3 = 1 ->
  ascii_step E s p = AS E (a_i E s + 1) (a_p1 E s) p (a_ts E s).
Proof. intros M. unfold ascii_step. rewrite M. reflexivity. Qed.
Lemma step2 s p : a_i E s mod 3 = 2 ->
  ascii_step E s p = AS E (a_i E s + 1) (a_p1 E s) (a_p2 E s)
     (@newTriangle AE (a_p1 E s) (a_p2 E s) p :: a_ts E s).
Proof. intros M. unfold ascii_step. rewrite M. reflexivity. Qed.
Lemma mod3 i : i mod 3 = 0 -> (i + 1) mod 3 = 1 /\ (i + 1 + 1) mod 3 = 2 /\ (i + 1 + 1 + 1) mod 3 = 0.
Proof. intros H. Z.to_euclidean_division_equations. lia. Qed.

Lemma by_three_fold : forall n ps s, (length ps <= n)%nat -> a_i E s mod 3 = 0 ->
  rev (a_ts E (fold_left (ascii_step E) ps s)) = rev (a_ts E s) ++ by_three E ps.
Proof.
  induction n as [n IH] using lt_wf_ind. intros ps s H M.
  destruct (mod3 _ M) as (M1 & M2 & M3).
  destruct ps as [|p1 [|p2 [|p3 ps]]]; cbn [fold_left].
  - cbn [by_three]. now rewrite app_nil_r.
  - cbn [by_three]. rewrite app_nil_r. now rewrite step0.
  - cbn [by_three]. rewrite app_nil_r. rewrite (step0 s) by assumption. now rewrite step1 by exact M1.
  - rewrite (step0 s) by assumption. rewrite (step1 (AS _ _ _ _ _)) by exact M1. rewrite step2 by exact M2.
    cbn [a_i a_p1 a_p2 a_ts].
    rewrite (IH (length ps)); [|cbn [length] in H; lia|lia|exact M3].
    cbn [a_ts rev by_three]. rewrite <- app_assoc. reflexivity.
Qed.

(** splitting a text into its lines *)
Lemma split_line l : ~ In 10 l -> forall cur r,
  split_lines cur (l ++ 10 :: r) = (rev cur ++ l) :: split_lines [] r.
Proof.
  induction l as [|c l IH]; intros N cur r; cbn [app split_lines].
  - change (10 =? 10) with true. cbv iota. now rewrite app_nil_r.
  - destruct (Z.eqb_spec c 10) as [->|Q]; [exfalso; apply N; now left|].
    rewrite IH by (intros I; apply N; now right). cbn [rev]. now rewrite <- app_assoc.
Qed.

Lemma split_last l : ~ In 10 l -> forall cur, cur ++ l <> [] -> split_lines cur l = [rev cur ++ l].
Proof.
  induction l as [|c l IH]; intros N cur H; cbn [split_lines].
  - rewrite app_nil_r in *. now destruct cur.
  - destruct (Z.eqb_spec c 10) as [->|Q]; [exfalso; apply N; now left|].
    rewrite IH; [|intros I; apply N; now right|easy]. cbn [rev]. now rewrite <- app_assoc.
Qed.

Lemma split_text ls : Forall (fun l => ~ In 10 l) ls -> split_lines [] (text ls) = ls.
Proof.
  induction 1 as [|l ls N H IH]; [reflexivity|].
  unfold text in *. cbn [map concat]. rewrite <- app_assoc. cbn [app].
  rewrite split_line by assumption. cbn [rev app]. now rewrite IH.
Qed.

Lemma split_is_text ls file : Forall (fun l => ~ In 10 l) ls -> is_text ls file -> split_lines [] file = ls.
Proof.
  intros H [->|[T L]]; [now apply split_text|].
  assert (D : ls = [] \/ exists i x, ls = i ++ [x]) by (destruct ls using rev_ind; eauto).
  destruct D as [->|(i & x & ->)].
  - destruct file; discriminate.
  - rewrite last_last in L. apply Forall_app in H. destruct H as [Hi Hx]. inversion Hx; subst.
    unfold text in T. rewrite map_app, concat_app in T. cbn [map concat] in T. rewrite app_nil_r in T.
    rewrite app_assoc in T. apply app_inj_tail in T. destruct T as [-> _].
    change (concat (map (fun l => l ++ [10]) i)) with (text i).
    clear Hx. induction Hi as [|l i N Hi IH].
    + cbn [text map concat app]. rewrite split_last; auto.
    + unfold text in *. cbn [map concat app]. rewrite <- !app_assoc. cbn [app].
      rewrite split_line by assumption. cbn [rev app]. now rewrite IH.
Qed.
End E.
