(** * JoinPaths3, JoinPaths2 (C32-C34) *)
From Coq Require Import ZArith Reals List Bool Permutation Lia PeanoNat.
From Flocq Require Import Core.Raux IEEE754.BinarySingleNaN.
From Verif Require Import Arith ArithR ArithF64 Prim Path PathClaims.
Import ListNotations.
Close Scope R_scope.
Close Scope Z_scope.
Close Scope num_scope.

#[global] Instance EqOK_R : EqOK ArithR.
Proof.
  constructor; cbn; intros; rewrite !Reqb_true in *; congruence.
Qed.

Lemma Beqb_iff (x y : f64) : Beqb x y = true <->
  (is_finite x = true /\ is_finite y = true /\ B2R x = B2R y) \/ (x = y /\ exists s, x = B754_infinity s).
Proof.
  destruct (is_finite x) eqn:Fx, (is_finite y) eqn:Fy.
  - rewrite Beqb_correct by assumption. split.
    + intros H. left. repeat split. revert H. case Req_bool_spec; auto; discriminate.
    + intros [(_ & _ & H)|(_ & s & ->)]; [|discriminate]. now apply Req_bool_true.
  - split.
    + intros H. destruct x as [[]|[]| |[]], y as [[]|[]| |[]]; discriminate.
    + intros [(_ & H & _)|(-> & _)]; congruence.
  - split.
    + intros H. destruct x as [[]|[]| |[]], y as [[]|[]| |[]]; discriminate.
    + intros [(H & _)|(-> & _)]; congruence.
  - split.
    + intros H. right. destruct x as [[]|[]| |[]], y as [[]|[]| |[]]; try discriminate; eauto.
    + intros [(H & _)|(-> & s & ->)]; [congruence|]. now destruct s.
Qed.

#[global] Instance EqOK_F64 E : EqOK (ArithF64 E).
Proof.
  constructor; cbn.
  - intros x y. rewrite !Beqb_iff. intros [(H1 & H2 & H3)|(-> & H)]; [left; auto|right; auto].
  - intros x y z. rewrite !Beqb_iff. intros [(H1 & H2 & H3)|(-> & H)]; [|auto].
    intros [(K1 & K2 & K3)|(<- & s & ->)]; [left; repeat split; congruence|discriminate].
Qed.

Lemma NoDup_app_r {T} (a b : list T) : NoDup (a ++ b) -> NoDup b.
Proof. induction a as [|x a IH]; cbn; [auto|]. intros H. inversion H; auto. Qed.

Section Join3.
Context {A : Arith}.
Notation chain := (chain pt_equal).

Lemma chain_nonnil (touch : point -> point -> bool) q ps : PathClaims.chain touch q ps -> q <> [].
Proof. intros H. destruct H; auto. discriminate. Qed.

Lemma tryJoin_chain p1 p2 ps1 ps2 : chain p1 ps1 -> chain p2 ps2 ->
  match tryJoin p1 p2 with
  | Ok (Some q) => chain q (ps1 ++ ps2) \/ chain q (ps2 ++ ps1)
  | Ok None => True
  | _ => False
  end.
Proof.
  intros H1 H2. pose proof (chain_nonnil _ _ _ H1) as N1. pose proof (chain_nonnil _ _ _ H2) as N2.
  destruct p1 as [|a1 r1]; [congruence|]. destruct p2 as [|a2 r2]; [congruence|]. unfold tryJoin.
  destruct (pt_equal (last (a1 :: r1) a1) a2) eqn:E1; [left; eapply chain_app; eauto|].
  destruct (pt_equal (last (a2 :: r2) a2) a1) eqn:E2; [right; eapply chain_app; eauto|exact I].
Qed.

(** following the parents *)
Inductive steps (w : list nat) : nat -> nat -> nat -> Prop :=
| steps_0 r : nth_error w r = Some r -> steps w 0 r r
| steps_S d j k r : nth_error w j = Some k -> k <> j -> steps w d k r -> steps w (S d) j r.

Lemma find_root_steps w d j r : steps w d j r -> forall fuel, d < fuel -> find_root fuel w j = Ok r.
Proof.
  induction 1 as [r H|d j k r H Hk Hs IH]; intros [|f] Hf; try lia; cbn [find_root]; unfold idx; rewrite H; cbn [rbind].
  - now rewrite Nat.eqb_refl.
  - destruct (Nat.eqb_spec k j); [congruence|]. apply IH. lia.
Qed.

Lemma steps_end w d j r : steps w d j r -> nth_error w r = Some r.
Proof. induction 1; auto. Qed.

Lemma steps_root w d j r : steps w d j r -> nth_error w j = Some j -> r = j.
Proof. intros H Hj. destruct H; [reflexivity|congruence]. Qed.

Lemma nth_error_upd {T} (l : list T) : forall i x j, i < length l ->
  nth_error (upd l i x) j = if Nat.eqb j i then Some x else nth_error l j.
Proof.
  induction l as [|y r IH]; intros i x j Hi; [cbn in Hi; lia|].
  destruct i as [|i]; destruct j as [|j]; cbn; try reflexivity. apply IH. cbn in Hi. lia.
Qed.

Lemma upd_length {T} (l : list T) : forall i x, length (upd l i x) = length l.
Proof. induction l as [|y r IH]; intros [|i] x; cbn; auto. Qed.

Lemma nth_error_lt {T} (l : list T) i x : nth_error l i = Some x -> i < length l.
Proof. intros H. apply nth_error_Some. congruence. Qed.

Lemma steps_keep w d j r j1 j2 : steps w d j r -> r <> j2 -> nth_error w j2 = Some j2 ->
  steps (upd w j2 j1) d j r.
Proof.
  intros H Hr H2. assert (L2 : j2 < length w) by (eapply nth_error_lt; eauto).
  induction H as [r H|d j k r H Hk Hs IH].
  - constructor. rewrite nth_error_upd by exact L2. destruct (Nat.eqb_spec r j2); [contradiction|exact H].
  - apply steps_S with k; auto. rewrite nth_error_upd by exact L2.
    destruct (Nat.eqb_spec j j2) as [->|]; [congruence|exact H].
Qed.

Lemma steps_more w d j j1 j2 : steps w d j j2 -> nth_error w j1 = Some j1 -> j1 <> j2 ->
  steps (upd w j2 j1) (S d) j j1.
Proof.
  intros H H1 Hne.
  assert (L2 : j2 < length w) by (eapply nth_error_lt, steps_end; eauto).
  pose proof (steps_end _ _ _ _ H) as H2.
  remember j2 as r eqn:Er in H. induction H as [r H|d j k r H Hk Hs IH]; subst r.
  - apply steps_S with j1; auto.
    + rewrite nth_error_upd by exact L2. now rewrite Nat.eqb_refl.
    + constructor. rewrite nth_error_upd by exact L2. destruct (Nat.eqb_spec j1 j2); [contradiction|exact H1].
  - apply steps_S with k; auto. rewrite nth_error_upd by exact L2.
    destruct (Nat.eqb_spec j j2) as [->|]; [congruence|exact H].
Qed.

(** A group: its root and its members, in the order of the walk. *)
Definition group_ok (orig ps : list path) (w : list nat) (g : nat * list nat) : Prop :=
  In (fst g) (snd g) /\ nth_error w (fst g) = Some (fst g) /\
  (exists q, nth_error ps (fst g) = Some q /\ chain q (map (fun i => nth i orig []) (snd g))) /\
  Forall (fun j => exists d, d < length (snd g) /\ steps w d j (fst g)) (snd g).

Definition joined (orig : list path) (st : list path * list nat) (G : list (nat * list nat)) : Prop :=
  length (fst st) = length orig /\ length (snd st) = length orig /\
  Permutation (concat (map snd G)) (seq 0 (length orig)) /\
  Forall (group_ok orig (fst st) (snd st)) G.

Lemma concat_perm {T} (a b : list (list T)) : Permutation a b -> Permutation (concat a) (concat b).
Proof.
  induction 1; cbn; auto.
  - now apply Permutation_app_head.
  - rewrite !app_assoc. apply Permutation_app_tail, Permutation_app_comm.
  - etransitivity; eauto.
Qed.

Lemma joined_perm orig st G G' : Permutation G G' -> joined orig st G -> joined orig st G'.
Proof.
  intros P (H1 & H2 & H3 & H4). split; [exact H1|split; [exact H2|split]].
  - rewrite <- H3. apply concat_perm, Permutation_map. now symmetry.
  - now rewrite <- P.
Qed.

Lemma joined_find orig st G i : joined orig st G -> i < length orig ->
  exists g, In g G /\ In i (snd g).
Proof.
  intros (H1 & H2 & H3 & H4) Hi.
  assert (In i (concat (map snd G))) as Hin by (rewrite H3; apply in_seq; lia).
  apply in_concat in Hin. destruct Hin as (ms & Hm & Hi'). apply in_map_iff in Hm. destruct Hm as (g & <- & Hg). eauto.
Qed.

Lemma joined_small orig st G g : joined orig st G -> In g G -> length (snd g) <= length orig.
Proof.
  intros (H1 & H2 & H3 & H4) Hg. apply in_split in Hg. destruct Hg as (l1 & l2 & ->).
  apply Permutation_length in H3. rewrite seq_length, map_app, concat_app, app_length in H3. cbn in H3.
  rewrite app_length in H3. lia.
Qed.

Lemma joined_root orig st G g i : joined orig st G -> In g G -> In i (snd g) ->
  find_root (length (snd st)) (snd st) i = Ok (fst g).
Proof.
  intros J Hg Hi. pose proof (joined_small _ _ _ _ J Hg) as Hs. destruct J as (H1 & H2 & H3 & H4).
  rewrite Forall_forall in H4. destruct (H4 g Hg) as (K1 & K2 & K3 & K4).
  rewrite Forall_forall in K4. destruct (K4 i Hi) as (d & Hd & S). eapply find_root_steps; eauto. lia.
Qed.

Lemma joined_root_lt orig st G g : joined orig st G -> In g G -> fst g < length orig.
Proof.
  intros (H1 & H2 & H3 & H4) Hg. rewrite Forall_forall in H4. destruct (H4 g Hg) as (K1 & K2 & K3 & K4).
  rewrite <- H2. eapply nth_error_lt; eauto.
Qed.

(** two groups with different roots *)
Lemma two_groups {T} (G : list T) g1 g2 : In g1 G -> In g2 G -> g1 <> g2 ->
  exists G0, Permutation G (g1 :: g2 :: G0).
Proof.
  intros H1 H2 Hne. apply in_split in H1. destruct H1 as (l1 & l2 & ->).
  assert (In g2 (l1 ++ l2)) as H.
  { apply in_app_iff in H2. apply in_app_iff. destruct H2 as [|[|]]; auto. congruence. }
  apply in_split in H. destruct H as (m1 & m2 & E). exists (m1 ++ m2).
  rewrite <- Permutation_middle. apply perm_skip. rewrite E. symmetry. apply Permutation_middle.
Qed.

Lemma joined_merge orig ps w j1 m1 j2 m2 G0 q (b : bool) :
  joined orig (ps, w) ((j1, m1) :: (j2, m2) :: G0) -> j1 <> j2 ->
  let m := if b then m1 ++ m2 else m2 ++ m1 in
  chain q (map (fun i => nth i orig []) m) ->
  joined orig (upd ps j1 q, upd w j2 j1) ((j1, m) :: G0).
Proof.
  intros J Hne m Hq.
  assert (Pm : Permutation m (m1 ++ m2)).
  { unfold m. destruct b; [reflexivity|apply Permutation_app_comm]. }
  assert (L1 : j1 < length orig) by (apply (joined_root_lt _ _ _ (j1, m1) J); now left).
  assert (L2 : j2 < length orig) by (apply (joined_root_lt _ _ _ (j2, m2) J); right; now left).
  destruct J as (H1 & H2 & H3 & H4). cbn [fst snd] in *.
  apply Forall_cons_iff in H4. destruct H4 as [G1 H4]. apply Forall_cons_iff in H4. destruct H4 as [G2 H4].
  destruct G1 as (A1 & A2 & A3 & A4), G2 as (B1 & B2 & B3 & B4). cbn [fst snd] in *.
  split; [cbn; rewrite upd_length; exact H1|]. split; [cbn; rewrite upd_length; exact H2|]. split.
  { rewrite <- H3. cbn [map concat snd]. rewrite Pm, app_assoc. reflexivity. }
  assert (ND : NoDup (m1 ++ m2 ++ concat (map snd G0))).
  { eapply Permutation_NoDup; [symmetry; exact H3|apply seq_NoDup]. }
  constructor.
  - unfold group_ok. cbn [fst snd]. split; [rewrite Pm; apply in_or_app; now left|]. split.
    + rewrite nth_error_upd by lia. destruct (Nat.eqb_spec j1 j2); [contradiction|exact A2].
    + split.
      * exists q. split; [|exact Hq]. rewrite nth_error_upd by lia. now rewrite Nat.eqb_refl.
      * apply Forall_forall. intros j Hj. rewrite Pm in Hj. rewrite (Permutation_length Pm), app_length.
        apply in_app_iff in Hj. rewrite Forall_forall in A4, B4. destruct Hj as [Hj|Hj].
        -- destruct (A4 j Hj) as (d & Hd & S). exists d. split; [lia|]. apply steps_keep; auto.
        -- destruct (B4 j Hj) as (d & Hd & St). exists (S d). split.
           ++ assert (0 < length m1) by (destruct m1; [contradiction|cbn; lia]). lia.
           ++ now apply steps_more.
  - apply Forall_forall. intros g Hg. rewrite Forall_forall in H4. destruct (H4 g Hg) as (C1 & C2 & (r & C3 & C3') & C4).
    assert (N1 : fst g <> j1).
    { intros E. rewrite app_assoc in ND.
      assert (In (fst g) (concat (map snd G0))) by (apply in_concat; exists (snd g); split; [now apply in_map|exact C1]).
      apply in_split in A1. destruct A1 as (u & v & ->). rewrite <- app_assoc in ND. rewrite <- !app_assoc in ND.
      cbn in ND. apply NoDup_remove_2 in ND. apply ND. rewrite <- E. rewrite !in_app_iff. auto 6. }
    assert (N2 : fst g <> j2).
    { intros E. apply NoDup_app_r in ND.
      assert (In (fst g) (concat (map snd G0))) by (apply in_concat; exists (snd g); split; [now apply in_map|exact C1]).
      apply in_split in B1. destruct B1 as (u & v & ->). rewrite <- app_assoc in ND.
      cbn in ND. apply NoDup_remove_2 in ND. apply ND. rewrite <- E. rewrite !in_app_iff. auto. }
    split; [exact C1|]. split.
    { cbn. rewrite nth_error_upd by lia. destruct (Nat.eqb_spec (fst g) j2); [contradiction|exact C2]. }
    split.
    { exists r. split; [|exact C3']. cbn. rewrite nth_error_upd by lia. destruct (Nat.eqb_spec (fst g) j1); [contradiction|exact C3]. }
    eapply Forall_impl; [|exact C4]. intros j (d & Hd & S). exists d. split; [exact Hd|]. cbn. now apply steps_keep.
Qed.

Lemma join_step_ok orig st G b c : joined orig st G -> snd b < length orig -> snd c < length orig ->
  exists st' G', join_step st b c = Ok st' /\ joined orig st' G'.
Proof.
  intros J Hb Hc. destruct st as [ps w]. unfold join_step.
  destruct (pt_equal (fst b) (fst c)); [|eauto].
  destruct (joined_find _ _ _ _ J Hb) as ([j1 m1] & G1 & I1). destruct (joined_find _ _ _ _ J Hc) as ([j2 m2] & G2 & I2).
  pose proof (joined_root _ _ _ _ _ J G1 I1) as R1. pose proof (joined_root _ _ _ _ _ J G2 I2) as R2.
  cbn [fst snd] in R1, R2. rewrite R1, R2. cbn [rbind].
  assert (K : forall j m, In (j, m) G -> exists q, nth_error ps j = Some q /\ chain q (map (fun i => nth i orig []) m)).
  { intros j m H. destruct J as (_ & _ & _ & F). rewrite Forall_forall in F. destruct (F _ H) as (_ & _ & F3 & _). exact F3. }
  destruct (K _ _ G1) as (q1 & Q1 & C1). destruct (K _ _ G2) as (q2 & Q2 & C2).
  unfold idx. rewrite Q1. cbn [rbind]. destruct (Nat.eqb_spec j1 j2) as [|Hne]; [eauto|].
  rewrite Q2. cbn [rbind]. pose proof (tryJoin_chain q1 q2 _ _ C1 C2) as TJ.
  destruct (tryJoin q1 q2) as [[q|]| |]; try contradiction; cbn [rbind]; [|eauto].
  destruct (two_groups G (j1, m1) (j2, m2) G1 G2) as (G0 & P); [congruence|].
  apply (joined_perm _ _ _ _ P) in J.
  destruct TJ as [C|C]; rewrite <- map_app in C.
  - exists (upd ps j1 q, upd w j2 j1), ((j1, m1 ++ m2) :: G0). split; [reflexivity|].
    exact (joined_merge orig ps w j1 m1 j2 m2 G0 q true J Hne C).
  - exists (upd ps j1 q, upd w j2 j1), ((j1, m2 ++ m1) :: G0). split; [reflexivity|].
    exact (joined_merge orig ps w j1 m1 j2 m2 G0 q false J Hne C).
Qed.

Lemma join_loop_ok orig a : forall st G, joined orig st G -> Forall (fun b => snd b < length orig) a ->
  exists st' G', join_loop st a = Ok st' /\ joined orig st' G'.
Proof.
  induction a as [|b [|c r] IH]; intros st G J F; try (cbn; eauto; fail).
  apply Forall_cons_iff in F. destruct F as [F1 F2]. pose proof F2 as F2'. apply Forall_cons_iff in F2'. destruct F2' as [F3 _].
  destruct (join_step_ok _ _ _ b c J F1 F3) as (st' & G' & E & J').
  change (join_loop st (b :: c :: r)) with (rbind (join_step st b c) (fun st' => join_loop st' (c :: r))).
  rewrite E. cbn [rbind]. eauto.
Qed.

Lemma endpoints_ok ps : forall i, Forall (fun p : path => p <> []) ps ->
  exists a, endpoints_from i ps = Ok a /\ Forall (fun b => snd b < i + length ps) a.
Proof.
  induction ps as [|[|a p] r IH]; intros i H; [cbn; eauto| |].
  - apply Forall_cons_iff in H. destruct H. congruence.
  - apply Forall_cons_iff in H. destruct H as [_ H]. destruct (IH (S i) H) as (es & E & F).
    cbn [endpoints_from]. rewrite E. cbn [rbind]. eexists. split; [reflexivity|]. cbn [length].
    repeat constructor; cbn; try lia. eapply Forall_impl; [|exact F]. cbn. intros. lia.
Qed.

Lemma endpoints_panic ps : forall i, In [] ps -> endpoints_from i ps = Panic.
Proof.
  induction ps as [|[|a p] r IH]; intros i H; [destruct H|reflexivity|].
  destruct H as [H|H]; [discriminate|]. cbn [endpoints_from]. now rewrite IH.
Qed.

Lemma joined_init (ps : list path) : Forall (fun p : path => p <> []) ps ->
  joined ps (ps, seq 0 (length ps)) (map (fun i => (i, [i])) (seq 0 (length ps))).
Proof.
  intros H. split; [reflexivity|]. split; [apply seq_length|]. split.
  - rewrite map_map. cbn [snd]. enough (E : forall l : list nat, concat (map (fun x => [x]) l) = l) by (rewrite E; reflexivity).
    induction l as [|x l IH]; cbn; congruence.
  - apply Forall_forall. intros g Hg. apply in_map_iff in Hg. destruct Hg as (i & <- & Hi). apply in_seq in Hi. cbn in Hi.
    assert (W : nth_error (seq 0 (length ps)) i = Some i).
    { rewrite nth_error_nth' with (d := 0) by (rewrite seq_length; lia). rewrite seq_nth by lia. reflexivity. }
    unfold group_ok. cbn [fst snd]. split; [now left|]. split; [exact W|]. split.
    + exists (nth i ps []). split; [apply nth_error_nth'; lia|]. constructor.
      rewrite Forall_forall in H. apply H. apply nth_In. lia.
    + constructor; [|constructor]. exists 0. split; [cbn; lia|]. now constructor.
Qed.

(** the paths returned are those of the roots *)
Lemma roots_of_eq ps w : length w = length ps ->
  roots_of (ps, w) = map (fun i => nth i ps []) (filter (fun i => Nat.eqb (nth i w i) i) (seq 0 (length ps))).
Proof.
  unfold roots_of. intros H.
  enough (K : forall (ps : list path) w k, length w = length ps ->
    map snd (filter (fun x : nat * nat * path => Nat.eqb (fst (fst x)) (snd (fst x))) (combine (combine w (seq k (length ps))) ps))
    = map (fun i => nth (i - k) ps []) (filter (fun i => Nat.eqb (nth (i - k) w i) i) (seq k (length ps)))).
  { rewrite (K ps w 0 H).
    assert (E : filter (fun i => nth (i - 0) w i =? i) (seq 0 (length ps)) = filter (fun i => nth i w i =? i) (seq 0 (length ps)))
      by (apply filter_ext; intros; now rewrite Nat.sub_0_r).
    rewrite E. apply map_ext. intros. now rewrite Nat.sub_0_r. }
  clear. induction ps as [|p r IH]; intros [|x w] k H; try discriminate; [reflexivity|].
  cbn [length seq combine filter fst snd]. rewrite Nat.sub_diag. cbn [nth].
  assert (E : map snd (filter (fun x : nat * nat * path => fst (fst x) =? snd (fst x)) (combine (combine w (seq (S k) (length r))) r))
     = map (fun i => nth (i - k) (p :: r) []) (filter (fun i => nth (i - k) (x :: w) i =? i) (seq (S k) (length r)))).
  { rewrite IH by (cbn in H; lia).
    assert (FE : filter (fun i => nth (i - S k) w i =? i) (seq (S k) (length r)) =
                 filter (fun i => nth (i - k) (x :: w) i =? i) (seq (S k) (length r))).
    { apply filter_ext_in. intros i Hi. apply in_seq in Hi. replace (i - k) with (S (i - S k)) by lia. reflexivity. }
    rewrite FE. apply map_ext_in. intros i Hi. apply filter_In in Hi. destruct Hi as [Hi _]. apply in_seq in Hi.
    replace (i - k) with (S (i - S k)) by lia. reflexivity. }
  destruct (Nat.eqb x k); cbn [map snd]; [|exact E]. rewrite Nat.sub_diag. cbn [nth]. now rewrite E.
Qed.

Lemma joined_out orig st G : joined orig st G -> regroups chain orig (roots_of st).
Proof.
  intros J. destruct st as [ps w]. destruct J as (H1 & H2 & H3 & H4). cbn [fst snd] in *.
  rewrite roots_of_eq by congruence.
  assert (ND : NoDup (map fst G)).
  { clear - H3 H4. assert (ND : NoDup (concat (map snd G))) by (eapply Permutation_NoDup; [symmetry; exact H3|apply seq_NoDup]).
    clear H3. induction G as [|g r IH]; [constructor|]. apply Forall_cons_iff in H4. destruct H4 as [(K & _) H4].
    cbn in ND |- *. constructor.
    - intros Hin. apply in_map_iff in Hin. destruct Hin as (g' & E & Hg').
      rewrite Forall_forall in H4. destruct (H4 g' Hg') as (K' & _). apply in_split in K. destruct K as (u & v & Eg).
      rewrite Eg, <- app_assoc in ND. cbn in ND. apply NoDup_remove_2 in ND. apply ND. apply in_or_app. right.
      apply in_or_app. right. apply in_concat. exists (snd g'). split; [now apply in_map|]. now rewrite <- E.
    - apply IH; auto. now apply NoDup_app_r in ND. }
  assert (P : Permutation (filter (fun i => Nat.eqb (nth i w i) i) (seq 0 (length ps))) (map fst G)).
  { apply NoDup_Permutation; [apply NoDup_filter, seq_NoDup|exact ND|]. intros i. rewrite filter_In, in_seq. split.
    - intros [Hi Hw]. apply Nat.eqb_eq in Hw. 
      destruct (joined_find orig (ps, w) G i) as (g & Hg & Hi'); [repeat split; auto|lia|].
      rewrite Forall_forall in H4. destruct (H4 g Hg) as (_ & _ & _ & K). rewrite Forall_forall in K.
      destruct (K i Hi') as (d & _ & S). apply steps_root in S.
      + rewrite <- S. now apply in_map.
      + rewrite nth_error_nth' with (d := i) by lia. now rewrite Hw.
    - intros Hin. apply in_map_iff in Hin. destruct Hin as (g & <- & Hg). rewrite Forall_forall in H4.
      destruct (H4 g Hg) as (_ & W & _). assert (fst g < length w) by (eapply nth_error_lt; eauto). split; [lia|].
      apply nth_error_nth with (d := fst g) in W. rewrite W. apply Nat.eqb_refl. }
  apply Permutation_map_inv in P. destruct P as (G' & -> & P).
  exists (map (fun g => map (fun i => nth i orig []) (snd g)) G'). split.
  - replace (concat (map (fun g => map (fun i => nth i orig []) (snd g)) G'))
      with (map (fun i => nth i orig []) (concat (map snd G'))) by (rewrite concat_map, map_map; reflexivity).
    transitivity (map (fun i => nth i orig []) (seq 0 (length orig))).
    + apply Permutation_map. rewrite <- H3. apply concat_perm, Permutation_map. now symmetry.
    + enough (E : map (fun i => nth i orig []) (seq 0 (length orig)) = orig) by (rewrite E; reflexivity).
      apply nth_ext with (d := []) (d' := []); rewrite map_length, seq_length; [reflexivity|].
      intros n Hn. rewrite nth_indep with (d' := nth 0 orig []) by (rewrite map_length, seq_length; exact Hn).
      change (nth 0 orig []) with ((fun i => nth i orig []) 0). rewrite map_nth, seq_nth by exact Hn. reflexivity.
  - assert (F : Forall (group_ok orig ps w) G') by (rewrite <- P; exact H4). clear - F H1.
    induction F as [|g r (_ & _ & (q & Q & C) & _) F IH]; cbn; constructor; auto.
    erewrite nth_error_nth by exact Q. exact C.
Qed.

Theorem joinPaths3_ok srt (p : list path) : (forall l, Permutation l (srt l)) -> Forall (fun q : path => q <> []) p ->
  exists out, joinPaths3 srt p = Ok out /\ regroups chain p out.
Proof.
  intros Hs Hp. unfold joinPaths3. destruct (endpoints_ok p 0 Hp) as (a & E & F). rewrite E. cbn [rbind].
  destruct (join_loop_ok p (srt a) _ _ (joined_init p Hp)) as (st & G & L & J); [rewrite <- Hs; exact F|].
  rewrite L. cbn [rbind]. eexists. split; [reflexivity|]. eapply joined_out; eauto.
Qed.

Lemma joinPaths3_panic srt p : In [] p -> joinPaths3 srt p = Panic.
Proof. intros H. unfold joinPaths3. now rewrite endpoints_panic. Qed.

End Join3.

Section Join2.
Context {A : Arith} {EQ : EqOK A}.
Notation rchain := (rchain same_key).

Lemma pt_eqb_sym a b : pt_eqb a b = true -> pt_eqb b a = true.
Proof. unfold pt_eqb. rewrite !andb_true_iff. intros [[? ?] ?]. auto using neqb_sym. Qed.
Lemma pt_eqb_trans a b c : pt_eqb a b = true -> pt_eqb b c = true -> pt_eqb a c = true.
Proof. unfold pt_eqb. rewrite !andb_true_iff. intros [[? ?] ?] [[? ?] ?]. repeat split; eapply neqb_trans; eauto. Qed.

Lemma rchain_nonnil q ps : rchain q ps -> q <> [].
Proof.
  induction 1; try discriminate; auto. intros E. apply (f_equal (@rev _)) in E. rewrite rev_involutive in E. auto.
Qed.

(** entries have pairwise different keys, and the key is that of the path's end *)
Definition keyed (m : lookup) : Prop :=
  Forall (fun e => match snd e with [] => False | a :: _ => fst e = mapKey (last (snd e) a) end) m /\
  ForallOrdPairs (fun e e' => pt_eqb (fst e) (fst e') = false) m.

Lemma lk_find_split k m p : keyed m -> lk_find k m = Some p ->
  exists m1 e m2, m = m1 ++ e :: m2 /\ snd e = p /\ pt_eqb (fst e) k = true /\ lk_del k m = m1 ++ m2.
Proof.
  intros [_ U] H. unfold lk_find in H. destruct (find _ m) as [e|] eqn:F; [|discriminate]. injection H as <-.
  revert F U. induction m as [|x r IH]; intros F U; [discriminate|]. inversion U as [|? ? U1 U2]; subst. cbn in F.
  destruct (pt_eqb (fst x) k) eqn:K.
  - injection F as ->. exists [], e, r. repeat split; auto. cbn. rewrite K. cbn.
    assert (N : forall y, In y r -> pt_eqb (fst y) k = false).
    { intros y Hy. rewrite Forall_forall in U1. specialize (U1 y Hy). destruct (pt_eqb (fst y) k) eqn:Q; [|reflexivity].
      apply pt_eqb_sym in Q. rewrite (pt_eqb_trans _ _ _ K Q) in U1. discriminate. }
    clear - N. induction r as [|y r IH]; [reflexivity|]. cbn. rewrite (N y) by now left. cbn. f_equal. apply IH.
    intros z Hz. apply N. now right.
  - destruct (IH F U2) as (m1 & e' & m2 & -> & E1 & E2 & E3). exists (x :: m1), e', m2. repeat split; auto.
    unfold lk_del. cbn. rewrite K. cbn. f_equal. exact E3.
Qed.

Lemma FOP_app {T} (R : T -> T -> Prop) l1 l2 :
  ForallOrdPairs R (l1 ++ l2) <-> ForallOrdPairs R l1 /\ ForallOrdPairs R l2 /\ (forall a b, In a l1 -> In b l2 -> R a b).
Proof.
  induction l1 as [|x r IH]; cbn.
  - split; [intros H; split; [constructor|split; [exact H|intros ? ? []]]|tauto].
  - split.
    + intros H. inversion H as [|? ? H1 H2]; subst. apply IH in H2. destruct H2 as (K1 & K2 & K3).
      apply Forall_app in H1. destruct H1 as [H1 H3]. split; [now constructor|]. split; [exact K2|].
      intros a b [<-|Ha] Hb; auto. rewrite Forall_forall in H3. auto.
    + intros (H1 & H2 & H3). inversion H1 as [|? ? K1 K2]; subst. constructor; [|apply IH; auto].
      apply Forall_app. split; [exact K1|]. apply Forall_forall. auto.
Qed.

Lemma keyed_del m1 e m2 : keyed (m1 ++ e :: m2) -> keyed (m1 ++ m2).
Proof.
  intros [K1 K2]. split.
  - apply Forall_app in K1. destruct K1 as [K1 K3]. apply Forall_cons_iff in K3. apply Forall_app. tauto.
  - apply FOP_app in K2. destruct K2 as (K2 & K3 & K4). inversion K3; subst. apply FOP_app. repeat split; auto.
    intros. apply K4; auto. now right.
Qed.

Lemma keyed_add m k p : keyed m -> lk_find k m = None ->
  match p with [] => False | a :: _ => k = mapKey (last p a) end -> keyed (m ++ [(k, p)]).
Proof.
  intros [K1 K2] F Hp. split.
  - apply Forall_app. split; [exact K1|]. constructor; [|constructor]. exact Hp.
  - apply FOP_app. split; [exact K2|]. split; [repeat constructor|]. intros a b Ha [<-|[]]. cbn.
    unfold lk_find in F. destruct (find (fun e => pt_eqb (fst e) k) m) eqn:Q; [discriminate|].
    eapply find_none in Q; eauto.
Qed.

(** what is left to do and what is stored regroup the input *)
Definition regr (inp : list path) (out : list path) : Prop := regroups rchain inp out.

Lemma regr_perm inp a b : Permutation a b -> regr inp a -> regr inp b.
Proof.
  intros P (parts & H1 & H2). 
  assert (exists parts', Permutation parts parts' /\ Forall2 rchain b parts') as (parts' & Q & F).
  { clear H1. revert parts H2. induction P; intros parts H2.
    - inversion H2; subst. exists []. split; constructor.
    - inversion H2 as [|? ? ? ? R F]; subst. destruct (IHP _ F) as (p' & Q & F'). exists (y :: p'). split; [now constructor|now constructor].
    - inversion H2 as [|? ? ? ? R F]; subst. inversion F as [|? ? ? ? R' F']; subst.
      eexists (_ :: _ :: _). split; [apply perm_swap|]. constructor; [eauto|constructor; eauto].
    - destruct (IHP1 _ H2) as (p1 & Q1 & F1). destruct (IHP2 _ F1) as (p2 & Q2 & F2). exists p2. split; [etransitivity; eauto|exact F2]. }
  exists parts'. split; [|exact F]. rewrite <- H1. apply concat_perm. now symmetry.
Qed.

Lemma regr_merge inp a p b q l : regr inp ((a :: p) :: (b :: q) :: l) -> same_key (last (a :: p) a) b = true ->
  regr inp (((a :: p) ++ q) :: l).
Proof.
  intros (parts & H1 & H2) K. inversion H2 as [|? x ? ? R F]; subst. inversion F as [|? y ? r R' F']; subst.
  exists ((x ++ y) :: r). split.
  - cbn in *. now rewrite <- app_assoc.
  - constructor; [|exact F']. apply rchain_app with b; auto.
Qed.

Lemma regr_rev inp p l : regr inp (p :: l) -> regr inp (rev p :: l).
Proof.
  intros (parts & H1 & H2). inversion H2 as [|? x ? ? R F]; subst. exists (x :: l'). split; [exact H1|].
  constructor; [now constructor|exact F].
Qed.

Lemma regr_nonnil inp l p : regr inp l -> In p l -> p <> [].
Proof.
  intros (parts & _ & F) H. revert p H. induction F as [|? ? ? ? R F IH]; intros p [].
  - subst. eapply rchain_nonnil; eauto.
  - now apply IH.
Qed.

Lemma last_app_tl {T} (p : list T) a q b d : last ((a :: p) ++ q) d = last q (last (a :: p) b).
Proof.
  revert a. induction p as [|x r IH]; intros a.
  - cbn [List.app]. destruct q as [|y q]; [reflexivity|]. change (last (a :: y :: q) d) with (last (y :: q) d).
    revert y. induction q as [|z q IH]; intros y; [reflexivity|]. exact (IH z).
  - change (last ((a :: x :: r) ++ q) d) with (last ((x :: r) ++ q) d). rewrite IH. reflexivity.
Qed.

Lemma rev_cons_inv {T} (a : T) r : exists y l, rev (a :: r) = y :: l /\ y = last (a :: r) a /\ forall d, last (y :: l) d = a.
Proof.
  destruct (rev (a :: r)) as [|y l] eqn:E; [apply (f_equal (@length _)) in E; rewrite rev_length in E; discriminate|].
  exists y, l. split; [reflexivity|].
  assert (a :: r = rev l ++ [y]) as E2 by (rewrite <- (rev_involutive (a :: r)), E; reflexivity).
  split; [rewrite E2, last_last; reflexivity|].
  intros d. rewrite <- E. change (rev (a :: r)) with (rev r ++ [a]). apply last_last.
Qed.

Ltac conj := repeat match goal with |- _ /\ _ => split end.
Ltac plia := unfold path in *; lia.

Lemma pass_ok inp : forall fuel todo m yes,
  3 * length todo + 2 * length m <= fuel ->
  keyed m -> regr inp (todo ++ map snd m) ->
  exists m' yes', join2_pass fuel todo m yes = Ok (m', yes') /\ keyed m' /\ regr inp (map snd m') /\
    length m' <= length todo + length m /\ (yes = true -> yes' = true) /\
    (yes' = true -> yes = true \/ length m' < length todo + length m).
Proof.
  induction fuel as [fuel IH] using lt_wf_ind. intros todo m yes Hf Km Rg.
  destruct todo as [|cur rest].
  { exists m, yes. cbn in *. destruct fuel; cbn; repeat split; auto; apply Km. }
  destruct fuel as [|f]; [cbn in Hf; plia|]. cbn [join2_pass].
  destruct cur as [|a r]; [exfalso; eapply regr_nonnil in Rg; [|left; reflexivity]; congruence|].
  (* a merge with a stored path *)
  assert (Merge : forall f' b q p, f' < S f -> 3 * length ((b :: q) :: rest) + 2 * length m <= f' + 2 ->
     lk_find (mapKey b) m = Some p -> regr inp (((b :: q) :: rest) ++ map snd m) ->
     exists m' yes', join2_pass f' ((p ++ q) :: rest) (lk_del (mapKey b) m) true = Ok (m', yes') /\ keyed m' /\ regr inp (map snd m') /\
       length m' < S (length rest) + length m /\ yes' = true).
  { intros f' b q p Hf' Hl F Rg'. destruct (lk_find_split _ _ _ Km F) as (m1 & e & m2 & -> & <- & Ke & ->).
    pose proof (keyed_del _ _ _ Km) as Kd. destruct Km as [Km1 _]. apply Forall_app in Km1. destruct Km1 as [_ Km1].
    apply Forall_cons_iff in Km1. destruct Km1 as [Ee _]. destruct e as [k pe]. cbn [fst snd] in *.
    destruct pe as [|x pe]; [contradiction|]. subst k.
    rewrite app_length in Hl. cbn [length] in Hl.
    destruct (IH f' Hf' (((x :: pe) ++ q) :: rest) (m1 ++ m2) true) as (m' & yes' & E & K1 & K2 & K3 & K4 & _).
    - change (length (((x :: pe) ++ q) :: rest)) with (S (length rest)). rewrite (app_length m1). plia.
    - exact Kd.
    - change ((((x :: pe) ++ q) :: rest) ++ map snd (m1 ++ m2)) with (((x :: pe) ++ q) :: (rest ++ map snd (m1 ++ m2))).
      apply regr_merge with b; [|exact Ke]. eapply regr_perm; [|exact Rg'].
      rewrite !map_app. cbn [map snd]. rewrite app_assoc, <- Permutation_middle, <- app_assoc. reflexivity.
    - exists m', yes'. rewrite (app_length m1 m2) in K3. change (length (((x :: pe) ++ q) :: rest)) with (S (length rest)) in K3.
      rewrite (app_length m1). cbn [length]. conj; auto; plia. }
  destruct (lk_find (mapKey a) m) as [p|] eqn:F1.
  - destruct (Merge f a r p) as (m' & yes' & E & K1 & K2 & K3 & ->); auto; [cbn in *; plia|].
    exists m', true. cbn [length]. conj; auto; plia.
  - destruct (lk_find (mapKey (last (a :: r) a)) m) as [p|] eqn:F2.
    + (* reversal, followed by a merge *)
      assert (Lm : 1 <= length m).
      { destruct m; [discriminate|cbn; plia]. }
      destruct f as [|f]; [cbn in Hf; plia|].
      destruct (rev_cons_inv a r) as (y & l & Er & Ey & _). unfold path_rev. rewrite Er. cbn [join2_pass]. rewrite Ey, F2.
      destruct (Merge f y l p) as (m' & yes' & E & K1 & K2 & K3 & ->); [plia|cbn in *; plia|now rewrite Ey| |].
      { rewrite <- Er. change ((rev (a :: r) :: rest) ++ map snd m) with (rev (a :: r) :: (rest ++ map snd m)).
        apply regr_rev. exact Rg. }
      rewrite Ey in E. rewrite E. exists m', true. cbn [length]. conj; auto; plia.
    + destruct (IH f (Nat.lt_succ_diag_r f) rest (m ++ [(mapKey (last (a :: r) a), a :: r)]) yes) as (m' & yes' & E & K1 & K2 & K3 & K4 & K5).
      * rewrite app_length. cbn [length] in *. plia.
      * apply keyed_add; auto.
      * eapply regr_perm; [|exact Rg]. rewrite map_app. cbn [map snd List.app].
        rewrite app_assoc. apply Permutation_cons_append.
      * rewrite app_length in *. cbn [length] in *. exists m', yes'. conj; auto; try plia.
        intros H. apply K5 in H. destruct H; [auto|right; plia].
Qed.

(** no two paths end in the same place *)
Definition distinct_ends (ps : list path) : Prop :=
  ForallOrdPairs (fun p q => forall d, same_key (last p d) (last q d) = false) ps.

Lemma keyed_ends m : keyed m -> distinct_ends (map snd m).
Proof.
  intros [K1 K2]. unfold distinct_ends. induction K2 as [|e r H1 H2 IH]; [constructor|]. cbn. apply Forall_cons_iff in K1.
  destruct K1 as [E1 E2]. constructor; [|auto]. apply Forall_forall. intros q Hq. apply in_map_iff in Hq.
  destruct Hq as (e' & <- & He'). intros d. rewrite Forall_forall in H1, E2. specialize (H1 _ He'). specialize (E2 _ He').
  unfold same_key. destruct e as [k p0], e' as [k' q0]. cbn [fst snd] in *. destruct p0 as [|a p], q0 as [|b q]; try contradiction.
  assert (L : forall (l : path) x y z, last (x :: l) y = last (x :: l) z).
  { clear. induction l; intros; [reflexivity|]. cbn [last] in *. apply IHl. }
  rewrite (L p a d a), (L q b d b). subst. exact H1.
Qed.

Lemma FOP_perm {T} (R : T -> T -> Prop) l l' : (forall a b, R a b -> R b a) ->
  Permutation l l' -> ForallOrdPairs R l -> ForallOrdPairs R l'.
Proof.
  intros S P. induction P as [|x l l' P IH|x y l|? ? ? P1 IH1 P2 IH2]; intros H; auto.
  - inversion H; subst. constructor; [now rewrite <- P|auto].
  - inversion H as [|? ? H1 H2]; subst. inversion H2 as [|? ? H3 H4]; subst. apply Forall_cons_iff in H1. destruct H1 as [H1 H5].
    repeat constructor; auto.
Qed.

Lemma distinct_ends_perm l l' : Permutation l l' -> distinct_ends l -> distinct_ends l'.
Proof.
  apply FOP_perm. intros a b H d. specialize (H d). unfold same_key in *.
  destruct (pt_eqb (mapKey (last b d)) (mapKey (last a d))) eqn:E; [|reflexivity]. apply pt_eqb_sym in E. congruence.
Qed.

Lemma rounds_ok inp ord : (forall k l, Permutation l (ord k l)) -> forall fuel k paths,
  length paths < fuel -> regr inp paths ->
  exists out, join2_rounds fuel ord k paths = Ok out /\ regr inp out /\ distinct_ends out.
Proof.
  intros Ho. induction fuel as [|f IH]; intros k paths Hf Rg; [lia|]. cbn [join2_rounds].
  destruct (pass_ok inp (3 * length paths) paths [] false) as (m' & yes' & E & K1 & K2 & K3 & K4 & K5).
  - cbn. lia.
  - split; constructor.
  - cbn. now rewrite app_nil_r.
  - rewrite E. cbn [rbind]. cbn [length] in *.
    assert (R' : regr inp (ord k (map snd m'))) by (eapply regr_perm; [apply Ho|exact K2]).
    destruct yes'.
    + apply IH; [|exact R']. rewrite <- (Permutation_length (Ho k (map snd m'))), map_length.
      destruct (K5 eq_refl); [discriminate|lia].
    + eexists. split; [reflexivity|]. split; [exact R'|]. eapply distinct_ends_perm; [apply Ho|]. now apply keyed_ends.
Qed.

Theorem joinPaths2_ok ord (p : list path) : (forall k l, Permutation l (ord k l)) -> Forall (fun q : path => q <> []) p ->
  exists out, joinPaths2 ord p = Ok out /\ regroups rchain p out /\ distinct_ends out.
Proof.
  intros Ho Hp. unfold joinPaths2. apply rounds_ok; auto.
  exists (map (fun q => [q]) p). split.
  - enough (E : forall l : list path, concat (map (fun x => [x]) l) = l) by (rewrite E; reflexivity).
    induction l as [|x l IH]; cbn; congruence.
  - induction Hp; cbn; constructor; auto. now constructor.
Qed.

End Join2.
