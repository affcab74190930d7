(** * Every schedule gives the sequential result (C20, C21) *)
From Coq Require Import List PeanoNat Lia Permutation Bool.
From Verif Require Import Par.
Import ListNotations.

Lemma upd_length {T} (l : list T) i x : i < length l -> length (upd_at l i x) = length l.
Proof. intros H. unfold upd_at. rewrite app_length, firstn_length. cbn [length]. rewrite skipn_length. lia. Qed.
Lemma upd_nth {T} (l : list T) i x k : i < length l ->
  nth_error (upd_at l i x) k = if Nat.eqb k i then Some x else nth_error l k.
Proof.
  intros H. unfold upd_at. destruct (Nat.eqb_spec k i) as [->|N].
  - rewrite nth_error_app2 by (rewrite firstn_length; lia). rewrite firstn_length.
    replace (i - Nat.min i (length l)) with 0 by lia. reflexivity.
  - destruct (Nat.lt_ge_cases k i) as [L|L].
    + rewrite nth_error_app1 by (rewrite firstn_length; lia).
      revert k l H N L. clear. induction i as [|i IH]; intros k l H N L; [lia|]. destruct l as [|y l]; [cbn in H; lia|].
      destruct k as [|k]; [reflexivity|]. cbn [firstn nth_error]. apply IH; cbn in *; lia.
    + rewrite nth_error_app2 by (rewrite firstn_length; lia). rewrite firstn_length.
      replace (k - Nat.min i (length l)) with (S (k - i - 1)) by lia. cbn [nth_error].
      rewrite <- (firstn_skipn (S i) l) at 2. rewrite nth_error_app2 by (rewrite firstn_length; lia).
      rewrite firstn_length. f_equal. lia.
Qed.
Lemma upd_split {T} (l : list T) i y x : nth_error l i = Some y ->
  exists a b, l = a ++ y :: b /\ upd_at l i x = a ++ x :: b.
Proof.
  intros H. destruct (nth_error_split l i H) as (a & b & -> & <-). exists a, b. split; [reflexivity|].
  unfold upd_at. rewrite firstn_app, firstn_all, Nat.sub_diag. cbn [firstn]. rewrite app_nil_r.
  f_equal. f_equal. rewrite skipn_app, skipn_all2 by lia. replace (S (length a) - length a) with 1 by lia. reflexivity.
Qed.
Lemma nth_lt {T} (l : list T) i y : nth_error l i = Some y -> i < length l.
Proof. intros H. apply nth_error_Some. congruence. Qed.

(** a measure that decreases bounds the number of steps *)
Lemma bounded {X} (step : X -> X -> Prop) (mu : X -> nat) : (forall s t, step s t -> mu t < mu s) ->
  forall k s t, steps step k s t -> k + mu t <= mu s.
Proof. intros H. induction 1 as [|k s t u St IH Stp]; [lia|]. specialize (H _ _ Stp). lia. Qed.

Lemma sum_upd {P} (g : P -> nat) l i y x : nth_error l i = Some y ->
  list_sum (map g (upd_at l i x)) + g y = list_sum (map g l) + g x.
Proof.
  intros H. destruct (upd_split l i y x H) as (a & b & -> & ->). rewrite !map_app, !list_sum_app. cbn [map list_sum fold_right]. unfold list_sum. lia.
Qed.

Section Strided.
Context {T : Type}.
Variables (n wn : nat) (f : nat -> T) (d : T).
Hypothesis wn1 : 1 <= wn.
Notation step := (pstep n wn f).

Definition front (c : pc) : nat := match c with Test i | Body i => i | Fin => n end.
Definition has (p : list pc) (k : nat) : bool :=
  match nth_error p (k mod wn) with Some c => k <? front c | None => false end.

Record pinv (s : pstate) : Prop := {
  pi_arr : length (arr s) = n;
  pi_pcs : length (pcs s) = wn;
  pi_mod : forall w c, nth_error (pcs s) w = Some c ->
    match c with Test i => i mod wn = w | Body i => i mod wn = w /\ i < n | Fin => True end;
  pi_val : forall k, k < n -> nth_error (arr s) k = Some (if has (pcs s) k then f k else d);
  pi_log : NoDup (log s) /\ forall k, In k (log s) <-> k < n /\ has (pcs s) k = true
}.

Lemma init_nth w : w < wn -> nth_error (map Test (seq 0 wn)) w = Some (Test w).
Proof. intros H. rewrite nth_error_map, (nth_error_nth' _ 0) by now rewrite seq_length. rewrite seq_nth by exact H. reflexivity. Qed.

Lemma pinv_init : pinv (pinit n wn d).
Proof.
  assert (H0 : forall k, has (map Test (seq 0 wn)) k = false).
  { intros k. unfold has. rewrite init_nth by (apply Nat.mod_upper_bound; lia). cbn [front].
    apply Nat.ltb_ge, Nat.mod_le. lia. }
  constructor; cbn [pinit arr pcs log].
  - apply repeat_length.
  - now rewrite map_length, seq_length.
  - intros w c H. assert (L := nth_lt _ _ _ H). rewrite map_length, seq_length in L. rewrite init_nth in H by exact L.
    injection H as <-. now apply Nat.mod_small.
  - intros k Hk. rewrite H0. now apply nth_error_repeat.
  - split; [constructor|]. intros k. rewrite H0. split; [intros []|intros [_ H]; discriminate].
Qed.

(** [has] after a change of one worker *)
Lemma has_upd p w c k : w < length p -> has (upd_at p w c) k = if Nat.eqb (k mod wn) w then k <? front c else has p k.
Proof. intros H. unfold has. rewrite upd_nth by exact H. now destruct (k mod wn =? w). Qed.

Lemma pinv_step s t : pinv s -> step s t -> pinv t.
Proof.
  intros I St. destruct St as [a p l w i Hw Hi|a p l w i Hw Hi|a p l w i Hw]; destruct I as [I1 I2 I3 I4 I5]; cbn [arr pcs log] in *;
    assert (Lw := nth_lt _ _ _ Hw); assert (M := I3 w _ Hw); cbn in M.
  - assert (Eh : forall k, has (upd_at p w (Body i)) k = has p k).
    { intros k. rewrite has_upd by exact Lw. destruct (Nat.eqb_spec (k mod wn) w) as [<-|]; [|reflexivity]. unfold has. now rewrite Hw. }
    constructor; cbn [arr pcs log]; auto.
    + rewrite upd_length; auto.
    + intros w' c. rewrite upd_nth by exact Lw. destruct (Nat.eqb_spec w' w) as [->|]; [intros [= <-]; auto|apply I3].
    + intros k Hk. rewrite Eh. auto.
    + destruct I5 as [N H]. split; [exact N|]. intros k. rewrite Eh. apply H.
  - assert (Eh : forall k, k < n -> has (upd_at p w Fin) k = has p k).
    { intros k Hk. rewrite has_upd by exact Lw. destruct (Nat.eqb_spec (k mod wn) w) as [<-|]; [|reflexivity]. unfold has. rewrite Hw. cbn [front].
      destruct (Nat.ltb_spec k n), (Nat.ltb_spec k i); try lia; reflexivity. }
    constructor; cbn [arr pcs log]; auto.
    + rewrite upd_length; auto.
    + intros w' c. rewrite upd_nth by exact Lw. destruct (Nat.eqb_spec w' w) as [->|]; [intros [= <-]; auto|apply I3].
    + intros k Hk. rewrite Eh by exact Hk. auto.
    + destruct I5 as [N H]. split; [exact N|]. intros k. rewrite H. split; intros [H1 H2]; rewrite Eh in * by exact H1; auto.
  - destruct M as [Mw Mi].
    assert (Hi : has p i = false) by (unfold has; rewrite Mw, Hw; cbn; apply Nat.ltb_irrefl).
    assert (Eh : forall k, has (upd_at p w (Test (i + wn))) k = (k =? i) || has p k).
    { intros k. rewrite has_upd by exact Lw. destruct (Nat.eqb_spec k i) as [->|N].
      - rewrite Mw, Nat.eqb_refl. cbn. apply Nat.ltb_lt. lia.
      - cbn [orb]. destruct (Nat.eqb_spec (k mod wn) w) as [E|]; [|reflexivity]. unfold has. rewrite E, Hw. cbn [front].
        destruct (Nat.ltb_spec k (i + wn)) as [L|L], (Nat.ltb_spec k i) as [L'|L']; try reflexivity; try lia. exfalso.
        (* i < k < i + wn with the same remainder *)
        pose proof (Nat.div_mod k wn ltac:(lia)) as Dk. pose proof (Nat.div_mod i wn ltac:(lia)) as Di. rewrite E in Dk. rewrite Mw in Di.
        assert (k / wn <= i / wn) by (apply Nat.lt_succ_r, (Nat.mul_lt_mono_pos_l wn); nia).
        assert (i / wn <= k / wn) by (apply Nat.lt_succ_r, (Nat.mul_lt_mono_pos_l wn); nia).
        assert (k / wn = i / wn) by lia. nia. }
    constructor; cbn [arr pcs log]; auto.
    + rewrite upd_length; lia.
    + rewrite upd_length; auto.
    + intros w' c. rewrite upd_nth by exact Lw. destruct (Nat.eqb_spec w' w) as [->|]; [intros [= <-]|apply I3].
      rewrite <- Mw. replace (i + wn) with (i + 1 * wn) by lia. apply Nat.mod_add. lia.
    + intros k Hk. rewrite upd_nth by lia. rewrite Eh. destruct (Nat.eqb_spec k i) as [->|]; [reflexivity|]. cbn [orb]. auto.
    + destruct I5 as [N H]. split.
      * apply (Permutation_NoDup (l := i :: l)); [apply Permutation_cons_append|]. constructor; [|exact N]. rewrite H. intros [_ C]. congruence.
      * intros k. rewrite in_app_iff, H, Eh. cbn. destruct (Nat.eqb_spec k i) as [->|NE]; cbn; [tauto|]. intuition congruence.
Qed.

Lemma pinv_reach s : star step (pinit n wn d) s -> pinv s.
Proof. intros H. remember (pinit n wn d) as s0 eqn:E0. induction H; subst; [apply pinv_init|]. eapply pinv_step; eauto. Qed.

Definition pmu1 (c : pc) : nat :=
  match c with Test i => 2 * (n + wn - i) + 1 | Body i => 2 * (n + wn - i) | Fin => 0 end.
Definition pmu (s : pstate (T := T)) : nat := list_sum (map pmu1 (pcs s)).

Lemma pstep_mu s t : pinv s -> step s t -> pmu t < pmu s.
Proof.
  intros I St. destruct St as [a p l w i Hw Hi|a p l w i Hw Hi|a p l w i Hw]; unfold pmu; cbn [pcs].
  - pose proof (sum_upd pmu1 p w _ (Body i) Hw). cbn [pmu1] in *. lia.
  - pose proof (sum_upd pmu1 p w _ Fin Hw). cbn [pmu1] in *. lia.
  - pose proof (sum_upd pmu1 p w _ (Test (i + wn)) Hw). destruct (pi_mod _ I _ _ Hw) as [_ Hi]. cbn [pmu1] in *. lia.
Qed.

Lemma progress s : ~ waited s -> exists t, step s t.
Proof.
  destruct s as [a p l]. unfold waited. cbn [pcs]. intros H.
  assert (E : exists w c, nth_error p w = Some c /\ c <> Fin).
  { clear -H. induction p as [|c p IH]; [exfalso; apply H; constructor|]. destruct c as [i|i|].
    - exists 0, (Test i). split; [reflexivity|discriminate].
    - exists 0, (Body i). split; [reflexivity|discriminate].
    - destruct IH as (w & c & Hw & N); [intros F; apply H; constructor; auto|]. exists (S w), c. auto. }
  destruct E as (w & c & Hw & N). destruct c as [i|i|]; [|eexists; eapply ps_body; eauto|congruence].
  destruct (Nat.lt_ge_cases i n); eexists; [eapply ps_enter|eapply ps_exit]; eauto.
Qed.

Lemma waited_result s : pinv s -> waited s -> arr s = map f (seq 0 n) /\ Permutation (log s) (seq 0 n).
Proof.
  intros I W. unfold waited in W. rewrite Forall_forall in W.
  assert (H : forall k, k < n -> has (pcs s) k = true).
  { intros k Hk. unfold has. destruct (nth_error (pcs s) (k mod wn)) as [c|] eqn:E.
    - rewrite (W c) by (eapply nth_error_In; eauto). now apply Nat.ltb_lt.
    - apply nth_error_None in E. rewrite (pi_pcs _ I) in E. pose proof (Nat.mod_upper_bound k wn ltac:(lia)). lia. }
  split.
  - apply nth_ext with d d; [rewrite map_length, seq_length; apply (pi_arr _ I)|]. intros k Hk. rewrite (pi_arr _ I) in Hk.
    pose proof (pi_val _ I k Hk) as V. rewrite (H k Hk) in V. apply nth_error_nth with (d := d) in V. rewrite V.
    rewrite (nth_indep _ d (f 0)) by now rewrite map_length, seq_length. rewrite map_nth, seq_nth by exact Hk. reflexivity.
  - destruct (pi_log _ I) as [N L]. apply NoDup_Permutation; [exact N|apply seq_NoDup|]. intros k. rewrite L, in_seq. split.
    + intros [H1 _]; lia.
    + intros [_ H1]; split; [lia|apply H; lia].
Qed.

(** two workers never write the same index at the same time *)
Lemma no_race s w w' i : pinv s -> nth_error (pcs s) w = Some (Body i) -> nth_error (pcs s) w' = Some (Body i) -> w = w'.
Proof. intros I H H'. destruct (pi_mod _ I _ _ H) as [<- _]. destruct (pi_mod _ I _ _ H') as [<- _]. reflexivity. Qed.
End Strided.

Section Pipeline.
Context {J L : Type}.
Variables (capI capO : nat) (work : J -> L) (jobs : list J).
Let n := length jobs.
Hypothesis capI_n : n <= capI.
Hypothesis capO_n : n <= capO.
Notation step := (qstep capI capO n work).

Definition held (w : wk (J := J) (L := L)) : list L := match w with Busy j => [work j] | Ready l => [l] | _ => [] end.
Definition everything (s : qstate) : list L :=
  map work (todo s) ++ map work (inq s) ++ flat_map held (wks s) ++ outq s ++ got s.

Record qinv (s : qstate) : Prop := {
  qi_all : Permutation (everything s) (map work jobs);
  qi_closed : closed s = true -> todo s = [];
  qi_gone : In Gone (wks s) -> closed s = true /\ inq s = [];
  qi_got : closed s = false -> got s = []
}.

Lemma held_upd ws w c c' : nth_error ws w = Some c ->
  exists a b, flat_map held ws = a ++ held c ++ b /\ flat_map held (upd_at ws w c') = a ++ held c' ++ b.
Proof.
  intros H. destruct (upd_split ws w c c' H) as (x & y & -> & ->). exists (flat_map held x), (flat_map held y).
  rewrite !flat_map_app. cbn [flat_map]. auto.
Qed.
Lemma gone_upd (ws : list (wk (J := J) (L := L))) w c c' : nth_error ws w = Some c -> In Gone (upd_at ws w c') -> In Gone ws \/ c' = Gone.
Proof.
  intros H. destruct (upd_split ws w c c' H) as (x & y & -> & ->). rewrite !in_app_iff. cbn. intuition.
Qed.

Lemma qinv_init wn : qinv (qinit jobs wn).
Proof.
  constructor; cbn [qinit todo closed inq wks outq got]; try discriminate; auto.
  - unfold everything, qinit. cbn [todo inq wks outq got]. rewrite !app_nil_r. cbn [map app].
    assert (E : flat_map held (repeat Idle wn) = []) by (induction wn; auto). rewrite E, app_nil_r. reflexivity.
  - intros H. apply repeat_spec in H. discriminate.
Qed.

Ltac perm := unfold everything in *; cbn [todo inq wks outq got] in *.

Lemma qinv_step s t : qinv s -> step s t -> qinv t.
Proof.
  intros I St. destruct St as [j r iq ws oq g Hc|iq ws oq g|td c j iq ws w oq g Hw|td ws w oq g Hw|td c iq ws w j oq g Hw
    |td c iq ws w l oq g Hw Hc|iq ws l oq g Hg]; destruct I as [I1 I2 I3 I4]; perm; cbn [closed] in *.
  - constructor; perm; cbn [closed]; try discriminate; auto.
    + rewrite <- I1. rewrite map_app. cbn [map]. rewrite <- !app_assoc. cbn [app].
      rewrite !(app_assoc (map work r)). symmetry. apply Permutation_middle.
    + intros H. destruct (I3 H); discriminate.
  - constructor; perm; cbn [closed]; auto. intros H. destruct (I3 H) as [? ?]. auto.
  - destruct (held_upd ws w _ (Busy j) Hw) as (a & b & E1 & E2). constructor; perm; cbn [closed]; auto.
    + rewrite <- I1, E1, E2. cbn [held map]. apply Permutation_app_head. cbn [app]. rewrite <- !app_assoc. cbn [app].
      rewrite (app_assoc (map work iq) a). rewrite (app_assoc (map work iq) a). symmetry. apply Permutation_middle.
    + intros H. destruct (gone_upd _ _ _ _ Hw H) as [K|K]; [|discriminate]. destruct (I3 K); discriminate.
  - destruct (held_upd ws w _ Gone Hw) as (a & b & E1 & E2). constructor; perm; cbn [closed]; auto.
    rewrite E2. rewrite E1 in I1. exact I1.
  - destruct (held_upd ws w _ (Ready (work j)) Hw) as (a & b & E1 & E2). constructor; perm; cbn [closed]; auto.
    + rewrite E2. rewrite E1 in I1. exact I1.
    + intros H. destruct (gone_upd _ _ _ _ Hw H) as [K|K]; [|discriminate]. auto.
  - destruct (held_upd ws w _ Idle Hw) as (a & b & E1 & E2). constructor; perm; cbn [closed]; auto.
    + rewrite <- I1, E1, E2. cbn [held app]. do 2 apply Permutation_app_head. rewrite <- !app_assoc. apply Permutation_app_head. cbn [app].
      rewrite (app_assoc b oq). rewrite (app_assoc b oq). symmetry. apply Permutation_middle.
    + intros H. destruct (gone_upd _ _ _ _ Hw H) as [K|K]; [|discriminate]. auto.
  - constructor; perm; cbn [closed]; auto; try discriminate. rewrite <- I1. do 3 apply Permutation_app_head.
    rewrite app_assoc, <- Permutation_cons_append. reflexivity.
Qed.

Lemma qinv_reach wn s : star step (qinit jobs wn) s -> qinv s.
Proof. intros H. remember (qinit jobs wn) as s0 eqn:E0. induction H; subst; [apply qinv_init|]. eapply qinv_step; eauto. Qed.

Lemma wks_length wn s : star step (qinit jobs wn) s -> length (wks s) = wn.
Proof.
  intros H. remember (qinit jobs wn) as s0 eqn:E0. induction H as [|s t u _ IH St]; subst; [apply repeat_length|].
  specialize (IH eq_refl). destruct St; cbn [wks] in *; auto; rewrite upd_length; auto; eapply nth_lt; eauto.
Qed.

Lemma counts s : qinv s -> length (todo s) + length (inq s) + length (flat_map held (wks s)) + length (outq s) + length (got s) = n.
Proof.
  intros I. pose proof (Permutation_length (qi_all _ I)) as E. unfold everything in E.
  rewrite !app_length, !map_length in E. fold n in E. lia.
Qed.

(** no deadlock *)
Theorem pipeline_progress wn s : 1 <= wn -> star step (qinit jobs wn) s -> ~ collected n s -> exists t, step s t.
Proof.
  intros W H NC. pose proof (qinv_reach wn s H) as I. pose proof (wks_length wn s H) as Lw. pose proof (counts s I) as C.
  destruct s as [td c iq ws oq g]. unfold collected in NC. cbn [closed got todo inq wks outq] in *.
  destruct td as [|j r].
  2:{ destruct c; [pose proof (qi_closed _ I eq_refl); discriminate|]. eexists. apply q_send. cbn [length] in C. lia. }
  destruct c; [|eexists; apply q_close].
  assert (Lg : length g < n).
  { assert (length g <> n) by (intros E; apply NC; auto). cbn [length] in C. lia. }
  destruct oq as [|l oq]; [|eexists; now apply q_recv].
  assert (B : forall w c, nth_error ws w = Some c -> held c <> [] -> exists t, step (QS [] true iq ws [] g) t).
  { intros w c Hw Hh. destruct c as [|j|l|]; try (exfalso; now apply Hh).
    - eexists. eapply q_work; eauto.
    - eexists. eapply q_put; eauto. cbn. lia. }
  destruct iq as [|j iq].
  - (* some worker holds something *)
    cbn [length] in C. assert (Lh : flat_map held ws <> []) by (intros E; rewrite E in C; cbn in C; lia).
    assert (E : exists w c, nth_error ws w = Some c /\ held c <> []).
    { clear -Lh. induction ws as [|c ws IH]; [now cbn in Lh|]. cbn [flat_map] in Lh. destruct (held c) eqn:Ec.
      - destruct (IH Lh) as (w & c' & Hw & N). exists (S w), c'. auto.
      - exists 0, c. split; [reflexivity|congruence]. }
    destruct E as (w & c & Hw & N). eapply B; eauto.
  - destruct ws as [|c ws]; [cbn in Lw; lia|]. destruct c as [|j'|l|] eqn:Ec.
    + eexists. apply (q_take _ _ _ _ _ _ j iq (Idle :: ws) 0). reflexivity.
    + apply (B 0 (Busy j')); [reflexivity|discriminate].
    + apply (B 0 (Ready l)); [reflexivity|discriminate].
    + destruct (qi_gone _ I) as [_ K]; [now left|]. discriminate.
Qed.

(** bounded length *)
Definition wmu (w : wk (J := J) (L := L)) : nat := match w with Idle => 1 | Busy _ => 5 | Ready _ => 4 | Gone => 0 end.
Definition qmu (s : qstate) : nat :=
  6 * length (todo s) + (if closed s then 0 else 1) + 5 * length (inq s) + list_sum (map wmu (wks s)) + 2 * length (outq s) + length (got s).
Lemma qstep_mu s t : step s t -> qmu t < qmu s.
Proof.
  intros St. destruct St as [j r iq ws oq g Hc|iq ws oq g|td c j iq ws w oq g Hw|td ws w oq g Hw|td c iq ws w j oq g Hw
    |td c iq ws w l oq g Hw Hc|iq ws l oq g Hg]; unfold qmu; cbn [todo closed inq wks outq got length];
    rewrite ?app_length; cbn [length].
  - lia.
  - lia.
  - pose proof (sum_upd wmu ws w _ (Busy j) Hw). cbn [wmu] in *. lia.
  - pose proof (sum_upd wmu ws w _ Gone Hw). cbn [wmu] in *. lia.
  - pose proof (sum_upd wmu ws w _ (Ready (work j)) Hw). cbn [wmu] in *. lia.
  - pose proof (sum_upd wmu ws w _ Idle Hw). cbn [wmu] in *. lia.
  - lia.
Qed.
Lemma qmu_init wn : qmu (qinit jobs wn) = 6 * n + 1 + wn.
Proof. unfold qmu, qinit. cbn [todo closed inq wks outq got length]. fold n. assert (E : list_sum (map wmu (repeat Idle wn)) = wn) by (induction wn; cbn in *; auto). rewrite E. lia. Qed.

Theorem pipeline_result wn s : star step (qinit jobs wn) s -> collected n s -> Permutation (got s) (map work jobs).
Proof.
  intros H [Hc Hg]. pose proof (qinv_reach wn s H) as I. pose proof (counts s I) as C. pose proof (qi_all _ I) as P.
  unfold everything in P. rewrite Hg in C.
  assert (todo s = []) as E1 by (apply length_zero_iff_nil; lia). assert (inq s = []) as E2 by (apply length_zero_iff_nil; lia).
  assert (flat_map held (wks s) = []) as E3 by (apply length_zero_iff_nil; lia). assert (outq s = []) as E4 by (apply length_zero_iff_nil; lia).
  rewrite E1, E2, E3, E4 in P. exact P.
Qed.
End Pipeline.
