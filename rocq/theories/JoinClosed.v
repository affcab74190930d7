(** * JoinPaths3 closes simple contours (C79) *)
From Coq Require Import ZArith List Bool Permutation Sorted Lia PeanoNat.
From Verif Require Import Arith Prim Path PathClaims JoinProofs.
Import ListNotations.
Close Scope Z_scope.
Close Scope num_scope.

(** ** Lists *)
Lemma map_snoc_last {T U} (f : T -> U) l d : l <> [] -> last (map f l) (f d) = f (last l d).
Proof. induction l as [|x [|y r] IH]; intros H; [congruence|reflexivity|]. cbn [map last] in *. apply IH. discriminate. Qed.
Lemma last_cons_ne {T} (x : T) l d : l <> [] -> last (x :: l) d = last l d.
Proof. destruct l; [congruence|reflexivity]. Qed.
Lemma last_dflt {T} (l : list T) d d' : l <> [] -> last l d = last l d'.
Proof. induction l as [|x [|y r] IH]; intros H; [congruence|reflexivity|]. cbn [last] in *. apply IH. discriminate. Qed.
Lemma last_app_ne {T} (a b : list T) d : b <> [] -> last (a ++ b) d = last b d.
Proof.
  induction a as [|x a IH]; intros H; [reflexivity|]. cbn [app]. rewrite last_cons_ne; [now apply IH|].
  destruct a; [exact H|discriminate].
Qed.
Lemma hd_app_ne {T} (a b : list T) d : a <> [] -> hd d (a ++ b) = hd d a.
Proof. destruct a; [congruence|reflexivity]. Qed.
Lemma last_split {T} (l : list T) d : l <> [] -> exists a, l = a ++ [last l d].
Proof. intros H. exists (removelast l). now apply app_removelast_last. Qed.
Lemma hd_split {T} (l : list T) d : l <> [] -> exists a, l = hd d l :: a.
Proof. destruct l; [congruence|]. eauto. Qed.
Lemma last_in {T} (l : list T) d : l <> [] -> In (last l d) l.
Proof. intros H. destruct (last_split l d H) as (a & E). rewrite E at 2. apply in_or_app. right. now left. Qed.

Section Closed.
Context {A : Arith}.
Variable orig : list path.
Let n := length orig.
Let s (i : nat) : point := hd originPoint (nth i orig []).
Let e (i : nat) : point := last (nth i orig []) originPoint.
(** the path that follows *)
Variable nx : nat -> nat.

Let key := (nat * bool)%type.
Let kpt (k : key) : point := if snd k then e (fst k) else s (fst k).
Let ends (k : key) : sortp := (kpt k, fst k).
Let valid (k : key) := fst k < n.
(** an end and the start of the next path *)
Let partner (i : nat) (x y : key) : Prop := (x = (i, true) /\ y = (nx i, false)) \/ (y = (i, true) /\ x = (nx i, false)).

Hypothesis Len : Forall (fun q : path => 2 <= length q) orig.
Hypothesis NxB : forall i, i < n -> nx i < n.
Hypothesis NxI : forall i j, i < n -> j < n -> nx i = nx j -> i = j.
Hypothesis NxT : forall i, i < n -> pt_equal (e i) (s (nx i)) = true.
Hypothesis NxT' : forall i, i < n -> pt_equal (s (nx i)) (e i) = true.
Hypothesis NxU : forall i j, i < n -> j < n -> pt_equal (e i) (s j) = true -> j = nx i.
Hypothesis Only : forall x y, valid x -> valid y -> x <> y -> pt_equal (kpt x) (kpt y) = true -> exists i, partner i x y.

Notation chain := (chain pt_equal).
Let path_of (i : nat) : path := nth i orig [].

Lemma path_len i : i < n -> 2 <= length (path_of i).
Proof. intros H. rewrite Forall_forall in Len. apply Len. now apply nth_In. Qed.

(** ends of a chain *)
Lemma chain_ends q parts : chain q parts -> Forall (fun p : path => 2 <= length p) parts ->
  parts <> [] /\ 2 <= length q /\ hd originPoint q = hd originPoint (hd [] parts) /\
  last q originPoint = last (last parts []) originPoint.
Proof.
  induction 1 as [p H|a p b q ps qs H1 IH1 H2 IH2 Ht]; intros F.
  - apply Forall_cons_iff in F. destruct F as [F _]. cbn. repeat split; auto; discriminate.
  - apply Forall_app in F. destruct F as [F1 F2]. destruct (IH1 F1) as (N1 & L1 & A1 & B1). destruct (IH2 F2) as (N2 & L2 & A2 & B2).
    split; [destruct ps; [congruence|discriminate]|]. split; [rewrite app_length; cbn [length] in *; lia|]. split.
    + rewrite (hd_app_ne ps) by exact N1. exact A1.
    + rewrite (last_app_ne ps) by exact N2. rewrite <- B2. rewrite last_app_ne.
      * symmetry. apply last_cons_ne. destruct q; [cbn in L2; lia|discriminate].
      * destruct q; [cbn in L2; lia|discriminate].
Qed.

(** consecutive members follow each other *)
Let linked (m : list nat) : Prop := forall a b i j, m = a ++ i :: j :: b -> j = nx i.

Let done (G : list (nat * list nat)) (i : nat) : Prop :=
  exists g, In g G /\ ((exists a b, snd g = a ++ i :: nx i :: b) \/ (last (snd g) 0 = i /\ hd 0 (snd g) = nx i /\ In i (snd g))).

Let inv (D : nat -> Prop) st G : Prop :=
  joined orig st G /\ Forall (fun g => linked (snd g)) G /\ forall i, i < n -> D i -> done G i.

Lemma members st G : joined orig st G -> NoDup (concat (map snd G)) /\ forall i, In i (concat (map snd G)) <-> i < n.
Proof.
  intros (_ & _ & P & _). split.
  - eapply Permutation_NoDup; [symmetry; exact P|apply seq_NoDup].
  - intros i. rewrite P, in_seq. fold n. lia.
Qed.

Lemma one_group st G g g' i : joined orig st G -> In g G -> In g' G -> In i (snd g) -> In i (snd g') -> g = g'.
Proof.
  intros J H H' Hi Hi'. destruct (members _ _ J) as [ND _]. clear J. revert g g' H H' Hi Hi'.
  induction G as [|x G IH]; intros g g' H H' Hi Hi'; [destruct H|]. cbn [map concat] in ND.
  assert (N2 : NoDup (concat (map snd G))) by now apply NoDup_app_r in ND.
  assert (X : forall z, In z G -> In i (snd x) -> In i (snd z) -> False).
  { intros z Hz Hx Hiz. apply in_split in Hx. destruct Hx as (a & b & E). rewrite E, <- app_assoc in ND. cbn in ND.
    apply NoDup_remove_2 in ND. apply ND. rewrite !in_app_iff. right. right. apply in_concat. exists (snd z). split; [now apply in_map|exact Hiz]. }
  destruct H as [<-|H], H' as [<-|H']; auto; exfalso; eauto.
Qed.

Lemma group_members st G g i : joined orig st G -> In g G -> In i (snd g) -> i < n.
Proof.
  intros J Hg Hi. apply (members _ _ J). apply in_concat. exists (snd g). split; [now apply in_map|exact Hi].
Qed.

Lemma group_nodup st G g : joined orig st G -> In g G -> NoDup (snd g).
Proof.
  intros J Hg. destruct (members _ _ J) as [ND _]. apply in_split in Hg. destruct Hg as (a & b & ->).
  rewrite map_app, concat_app in ND. cbn [map concat] in ND. apply NoDup_app_r in ND.
  clear - ND. induction (snd g) as [|x l IH]; [constructor|]. cbn in ND. inversion ND; subst. constructor; auto.
  intros H. apply H1. apply in_or_app. now left.
Qed.

(** the path of a group starts and ends where its first and last members do *)
Lemma group_path st G g : joined orig st G -> In g G ->
  exists q, nth_error (fst st) (fst g) = Some q /\ chain q (map path_of (snd g)) /\ snd g <> [] /\
    2 <= length q /\ hd originPoint q = s (hd 0 (snd g)) /\ last q originPoint = e (last (snd g) 0).
Proof.
  intros J Hg. pose proof J as J'.
  destruct J as (_ & _ & _ & F). rewrite Forall_forall in F. destruct (F g Hg) as (I0 & _ & (q & Q & C) & _).
  assert (NN : snd g <> []) by (intros E; rewrite E in I0; destruct I0).
  assert (FL : Forall (fun p : path => 2 <= length p) (map path_of (snd g))).
  { apply Forall_forall. intros p Hp. apply in_map_iff in Hp. destruct Hp as (i & <- & Hi). apply path_len.
    eapply group_members; eauto. }
  exists q. split; [exact Q|]. split; [exact C|]. split; [exact NN|].
  destruct (chain_ends _ _ C FL) as (_ & L & H1 & H2). split; [exact L|]. split.
  - rewrite H1. destruct (snd g); [congruence|reflexivity].
  - rewrite H2. rewrite (last_dflt _ [] (path_of 0)) by (destruct (snd g); [congruence|discriminate]).
    rewrite map_snoc_last by exact NN. reflexivity.
Qed.

(** a member that is not last is followed by the next path *)
Lemma not_last m i : linked m -> In i m -> last m 0 <> i -> exists a b, m = a ++ i :: nx i :: b.
Proof.
  intros L H N. apply in_split in H. destruct H as (a & b & ->). destruct b as [|j b].
  - exfalso. apply N. now rewrite last_last.
  - exists a, b. now rewrite (L a b i j eq_refl).
Qed.
Lemma not_first m i : linked m -> In i m -> hd 0 m <> i -> exists k a b, m = a ++ k :: i :: b /\ i = nx k.
Proof.
  intros L H N. apply in_split in H. destruct H as (a & b & ->). destruct a as [|x a'] using rev_ind.
  - exfalso. now apply N.
  - clear IHa'. rewrite <- app_assoc in *. cbn in *. exists x, a', b. split; [reflexivity|]. now apply (L a' b).
Qed.

Lemma linked_app m1 m2 : linked m1 -> linked m2 -> m1 <> [] -> m2 <> [] -> hd 0 m2 = nx (last m1 0) -> linked (m1 ++ m2).
Proof.
  intros L1 L2 N1 N2 H a b i j E.
  destruct (Nat.lt_ge_cases (S (length a)) (length m1)) as [Q|Q].
  - (* both in m1 *)
    assert (E1 : m1 = a ++ i :: j :: skipn (2 + length a) m1).
    { rewrite <- (firstn_skipn (2 + length a) m1) at 1.
      assert (F : firstn (2 + length a) (m1 ++ m2) = a ++ [i; j]).
      { rewrite E. rewrite firstn_app, firstn_all2 by lia. f_equal. replace (2 + length a - length a) with 2 by lia. reflexivity. }
      rewrite firstn_app in F. replace (2 + length a - length m1) with 0 in F by lia. rewrite firstn_O, app_nil_r in F.
      rewrite F, <- app_assoc. reflexivity. }
    eapply L1. exact E1.
  - destruct (Nat.eq_dec (S (length a)) (length m1)) as [Q'|Q'].
    + (* the seam *)
      assert (F : firstn (length m1) (m1 ++ m2) = a ++ [i]).
      { rewrite E, <- Q', firstn_app, firstn_all2 by lia. f_equal. replace (S (length a) - length a) with 1 by lia. reflexivity. }
      rewrite firstn_app, Nat.sub_diag, firstn_O, app_nil_r, firstn_all in F.
      assert (F2 : m2 = j :: b).
      { apply (f_equal (skipn (length m1))) in E. rewrite skipn_app, Nat.sub_diag, skipn_all in E. cbn in E. rewrite E, <- Q'.
        change (a ++ i :: j :: b) with (a ++ [i] ++ j :: b). rewrite app_assoc, skipn_app, skipn_all2, app_length by (rewrite app_length; cbn; lia).
        cbn [length]. replace (S (length a) - (length a + 1)) with 0 by lia. reflexivity. }
      subst m2. cbn in H. rewrite H, F, last_last. reflexivity.
    + assert (Q2 : length m1 <= length a) by lia.
      assert (E2 : m2 = skipn (length m1) a ++ i :: j :: b).
      { apply (f_equal (skipn (length m1))) in E. rewrite skipn_app, Nat.sub_diag, skipn_all in E. cbn in E. rewrite E.
        rewrite skipn_app. replace (length m1 - length a) with 0 by lia. reflexivity. }
      eapply L2. exact E2.
Qed.

(** ** One step *)
Lemma merge_done j1 m1 j2 m2 G0 (b : bool) st j :
  let G := (j1, m1) :: (j2, m2) :: G0 in
  let m := if b then m1 ++ m2 else m2 ++ m1 in
  joined orig st G -> m1 <> [] -> m2 <> [] ->
  (if b then hd 0 m2 = nx (last m1 0) else hd 0 m1 = nx (last m2 0)) ->
  forall i, i < n -> done G i -> done ((j, m) :: G0) i.
Proof.
  intros G m J N1 N2 Hs i Hi (g & Hg & D).
  assert (Dis : forall x, In x m1 -> In x m2 -> False).
  { intros x H1 H2. destruct (members _ _ J) as [ND _]. unfold G in ND. cbn [map concat snd] in ND.
    apply in_split in H1. destruct H1 as (u & v & ->). rewrite <- app_assoc in ND. cbn in ND. apply NoDup_remove_2 in ND.
    apply ND. rewrite !in_app_iff. auto. }
  assert (HL : forall l : list nat, l <> [] -> In (hd 0 l) l /\ In (last l 0) l).
  { intros l Hl. split; [destruct l; [congruence|now left]|]. destruct (last_split l 0 Hl) as (a & ->). rewrite last_last. apply in_or_app. right. now left. }
  destruct Hg as [<-|[<-|Hg]]; cbn [snd] in D.
  - exists (j, m). split; [now left|]. cbn [snd]. destruct D as [(a & c & ->)|(E1 & E2 & E3)].
    + left. unfold m. destruct b; [exists a, (c ++ m2); now rewrite <- app_assoc|exists (m2 ++ a), c; now rewrite <- app_assoc].
    + unfold m. destruct b.
      * exfalso. rewrite E1 in Hs. apply (Dis (nx i)); [rewrite <- E2; now apply HL|rewrite <- Hs; now apply HL].
      * exfalso. rewrite E2 in Hs. assert (i = last m2 0).
        { apply NxI; auto. apply (group_members st G (j2, m2)); [exact J|right; now left|]. now apply HL. }
        apply (Dis i); [exact E3|]. rewrite H. now apply HL.
  - exists (j, m). split; [now left|]. cbn [snd]. destruct D as [(a & c & ->)|(E1 & E2 & E3)].
    + left. unfold m. destruct b; [exists (m1 ++ a), c; now rewrite <- app_assoc|exists a, (c ++ m1); now rewrite <- app_assoc].
    + unfold m. destruct b.
      * exfalso. rewrite E2 in Hs. assert (i = last m1 0).
        { apply NxI; auto. apply (group_members st G (j1, m1)); [exact J|now left|]. now apply HL. }
        apply (Dis i); [|exact E3]. rewrite H. now apply HL.
      * exfalso. rewrite E1 in Hs. apply (Dis (nx i)); [rewrite <- Hs; now apply HL|rewrite <- E2; now apply HL].
  - exists g. split; [now right|exact D].
Qed.

Lemma step_inv D st G x y : inv D st G -> valid x -> valid y -> x <> y ->
  exists st' G', join_step st (ends x) (ends y) = Ok st' /\ inv (fun i => D i \/ partner i x y) st' G'.
Proof.
  intros (J & LK & HD) Vx Vy Nxy. destruct st as [ps w]. unfold join_step. cbn [ends fst snd].
  destruct (pt_equal (kpt x) (kpt y)) eqn:PE.
  2:{ exists (ps, w), G. split; [reflexivity|]. split; [exact J|]. split; [exact LK|].
      intros i Hi [Di|Pi]; [now apply HD|]. exfalso.
      destruct Pi as [[-> ->]|[-> ->]]; unfold kpt in PE; cbn [fst snd] in PE; [rewrite NxT in PE by exact Hi|rewrite NxT' in PE by exact Hi]; discriminate. }
  destruct (Only x y Vx Vy Nxy PE) as (i & Pi).
  assert (Hi : i < n) by (destruct Pi as [[-> _]|[-> _]]; [exact Vx|exact Vy]).
  assert (Uniq : forall k, partner k x y -> k = i).
  { intros k Pk. destruct Pk as [[K1 K2]|[K1 K2]], Pi as [[P1 P2]|[P1 P2]]; congruence. }
  destruct (joined_find _ _ _ _ J Vx) as ([j1 m1] & G1 & I1). destruct (joined_find _ _ _ _ J Vy) as ([j2 m2] & G2 & I2).
  pose proof (joined_root _ _ _ _ _ J G1 I1) as R1. pose proof (joined_root _ _ _ _ _ J G2 I2) as R2.
  cbn [fst snd] in R1, R2, I1, I2. rewrite R1, R2. cbn [rbind].
  destruct (group_path _ _ _ J G1) as (q1 & Q1 & C1 & N1 & LQ1 & H1 & T1).
  destruct (group_path _ _ _ J G2) as (q2 & Q2 & C2 & N2 & LQ2 & H2 & T2). cbn [fst snd] in *.
  unfold idx. rewrite Q1. cbn [rbind].
  assert (LK' : forall g, In g G -> linked (snd g)) by now rewrite Forall_forall in LK.
  assert (LK1 : linked m1) by now apply (LK' (j1, m1)). assert (LK2 : linked m2) by now apply (LK' (j2, m2)).
  assert (ND1 : NoDup m1) by now apply (group_nodup _ _ (j1, m1) J).
  assert (ND2 : NoDup m2) by now apply (group_nodup _ _ (j2, m2) J).
  destruct (Nat.eqb_spec j1 j2) as [Ej|Hne].
  { (* the pair is within one group *)
    exists (ps, w), G. split; [reflexivity|]. split; [exact J|]. split; [exact LK|]. intros k Hk [Dk|Pk]; [now apply HD|].
    rewrite (Uniq k Pk) in *. clear k Hk Pk.
    assert (Em : m1 = m2).
    { subst j2. assert (EG : (j1, m1) = (j1, m2)).
      { apply (one_group _ _ _ _ j1 J G1 G2); destruct J as (_ & _ & _ & F); rewrite Forall_forall in F;
          [destruct (F _ G1) as (Z & _)|destruct (F _ G2) as (Z & _)]; exact Z. }
      congruence. }
    subst m2. exists (j1, m1). split; [exact G1|]. cbn [snd].
    assert (Ii : In i m1) by (destruct Pi as [[-> _]|[-> _]]; assumption).
    assert (Ini : In (nx i) m1) by (destruct Pi as [[_ ->]|[_ ->]]; assumption).
    destruct (Nat.eq_dec (last m1 0) i) as [E|E]; [|left; now apply not_last].
    right. split; [exact E|]. split; [|exact Ii].
    destruct (Nat.eq_dec (hd 0 m1) (nx i)) as [E'|E']; [exact E'|]. exfalso.
    destruct (not_first m1 (nx i) LK1 Ini E') as (k & a & b & Em & Ek).
    assert (Hk : k < n) by (apply (group_members (ps, w) G (j1, m1) k J G1); cbn; rewrite Em; apply in_or_app; right; now left).
    assert (k = i) by (symmetry; now apply NxI). subst k. rewrite Em in E, ND1.
    change (a ++ i :: nx i :: b) with (a ++ [i] ++ (nx i :: b)) in E. rewrite app_assoc, last_app_ne in E by discriminate.
    apply NoDup_remove_2 in ND1. apply ND1. apply in_or_app. right.
    destruct (last_split (nx i :: b) 0) as (u & Eu); [discriminate|]. rewrite E in Eu. rewrite Eu. apply in_or_app. right. now left. }
  rewrite Q2. cbn [rbind].
  destruct (two_groups G (j1, m1) (j2, m2) G1 G2) as (G0 & PG); [congruence|].
  pose proof (joined_perm _ _ _ _ PG J) as J'.
  assert (HD' : forall k, k < n -> D k -> done ((j1, m1) :: (j2, m2) :: G0) k).
  { intros k Hk Dk. destruct (HD k Hk Dk) as (g & Hg & Dg). exists g. split; [now rewrite <- PG|exact Dg]. }
  assert (LK0 : Forall (fun g => linked (snd g)) G0).
  { apply Forall_forall. intros g Hg. apply LK'. rewrite PG. right. now right. }
  assert (Dis : forall z, In z m1 -> In z m2 -> False).
  { intros z Z1 Z2. assert (EG : (j1, m1) = (j2, m2)) by now apply (one_group _ _ _ _ z J G1 G2). congruence. }
  assert (HLt : forall l : list nat, l <> [] -> In (last l 0) l).
  { intros l Hl. destruct (last_split l 0 Hl) as (a & ->). rewrite last_last. apply in_or_app. right. now left. }
  assert (HHd : forall l : list nat, l <> [] -> In (hd 0 l) l) by (intros [|? ?] ?; [congruence|now left]).
  assert (M1 : forall z, In z m1 -> z < n) by (intros z Hz; apply (group_members _ _ _ z J G1 Hz)).
  assert (M2 : forall z, In z m2 -> z < n) by (intros z Hz; apply (group_members _ _ _ z J G2 Hz)).
  (* i is the last of its group and nx i the first of the other *)
  assert (Pos : (last m1 0 = i /\ hd 0 m2 = nx i) \/ (last m2 0 = i /\ hd 0 m1 = nx i)).
  { assert (Key : forall ma mb, linked ma -> linked mb -> (forall z, In z mb -> z < n) -> (forall z, In z ma -> In z mb -> False) ->
      In i ma -> In (nx i) mb -> last ma 0 = i /\ hd 0 mb = nx i).
    { intros ma mb La Lb Mb Da Ia Ib. split.
      - destruct (Nat.eq_dec (last ma 0) i) as [|E]; [assumption|exfalso]. destruct (not_last ma i La Ia E) as (a & b & ->).
        apply (Da (nx i)); [|exact Ib]. apply in_or_app. right. right. now left.
      - destruct (Nat.eq_dec (hd 0 mb) (nx i)) as [|E]; [assumption|exfalso].
        destruct (not_first mb (nx i) Lb Ib E) as (k & a & b & -> & Ek).
        assert (Ik : In k (a ++ k :: nx i :: b)) by (apply in_or_app; right; now left).
        assert (k = i) by (symmetry; apply NxI; auto). subst k. now apply (Da i). }
    destruct Pi as [[-> ->]|[-> ->]]; cbn [fst] in I1, I2; [left|right]; apply Key; auto; intros z Z1 Z2; now apply (Dis z). }
  destruct q1 as [|a1 r1]; [cbn in LQ1; lia|]. destruct q2 as [|a2 r2]; [cbn in LQ2; lia|].
  assert (TJ : tryJoin (a1 :: r1) (a2 :: r2) = if pt_equal (e (last m1 0)) (s (hd 0 m2)) then Ok (Some ((a1 :: r1) ++ r2))
               else if pt_equal (e (last m2 0)) (s (hd 0 m1)) then Ok (Some ((a2 :: r2) ++ r1)) else Ok None).
  { cbn [hd] in H1, H2. unfold tryJoin. rewrite <- H1, <- H2, <- T1, <- T2.
    rewrite (last_dflt (a1 :: r1) a1 originPoint), (last_dflt (a2 :: r2) a2 originPoint) by discriminate. reflexivity. }
  assert (Fin : forall (b : bool) q, (if b then hd 0 m2 = nx (last m1 0) else hd 0 m1 = nx (last m2 0)) ->
     chain q (map path_of (if b then m1 ++ m2 else m2 ++ m1)) ->
     exists G', joined orig (upd ps j1 q, upd w j2 j1) G' /\ Forall (fun g => linked (snd g)) G' /\
       forall k, k < n -> D k \/ partner k x y -> done G' k).
  { intros b q Hs Cq. exists ((j1, if b then m1 ++ m2 else m2 ++ m1) :: G0).
    pose proof (joined_merge orig ps w j1 m1 j2 m2 G0 q b J' Hne Cq) as JM. cbv zeta in JM. split; [exact JM|]. split.
    - constructor; [|exact LK0]. cbn [snd]. destruct b; apply linked_app; auto.
    - intros k Hk [Dk|Pk].
      + apply (merge_done j1 m1 j2 m2 G0 b (ps, w) j1); auto.
      + rewrite (Uniq k Pk) in *. exists (j1, if b then m1 ++ m2 else m2 ++ m1). split; [now left|]. cbn [snd].
        destruct b.
        * destruct Pos as [[P1 P2]|[P1 P2]].
          -- left. destruct (last_split m1 0 N1) as (u & Eu). destruct (hd_split m2 0 N2) as (v & Ev).
             rewrite P1 in Eu. rewrite P2 in Ev. exists u, v. rewrite Eu, Ev, <- app_assoc. reflexivity.
          -- right. split; [rewrite last_app_ne by exact N2; exact P1|]. split; [rewrite hd_app_ne by exact N1; exact P2|].
             apply in_or_app. right. rewrite <- P1. now apply HLt.
        * destruct Pos as [[P1 P2]|[P1 P2]].
          -- right. split; [rewrite last_app_ne by exact N1; exact P1|]. split; [rewrite hd_app_ne by exact N2; exact P2|].
             apply in_or_app. right. rewrite <- P1. now apply HLt.
          -- left. destruct (last_split m2 0 N2) as (u & Eu). destruct (hd_split m1 0 N1) as (v & Ev).
             rewrite P1 in Eu. rewrite P2 in Ev. exists u, v. rewrite Eu, Ev, <- app_assoc. reflexivity. }
  rewrite TJ. destruct (pt_equal (e (last m1 0)) (s (hd 0 m2))) eqn:E1.
  - cbn [rbind]. destruct (Fin true ((a1 :: r1) ++ r2)) as (G' & Jn & Ln & Dn).
    + apply NxU; auto.
    + rewrite map_app. eapply chain_app; [exact C1|exact C2|].
      cbn [hd] in H2. rewrite (last_dflt (a1 :: r1) a1 originPoint) by discriminate. rewrite T1, H2. exact E1.
    + exists (upd ps j1 ((a1 :: r1) ++ r2), upd w j2 j1), G'. split; [reflexivity|]. split; [exact Jn|]. split; [exact Ln|exact Dn].
  - destruct (pt_equal (e (last m2 0)) (s (hd 0 m1))) eqn:E2.
    + cbn [rbind]. destruct (Fin false ((a2 :: r2) ++ r1)) as (G' & Jn & Ln & Dn).
      * apply NxU; auto.
      * rewrite map_app. eapply chain_app; [exact C2|exact C1|].
        cbn [hd] in H1. rewrite (last_dflt (a2 :: r2) a2 originPoint) by discriminate. rewrite T2, H1. exact E2.
      * exists (upd ps j1 ((a2 :: r2) ++ r1), upd w j2 j1), G'. split; [reflexivity|]. split; [exact Jn|]. split; [exact Ln|exact Dn].
    + exfalso. destruct Pos as [[P1 P2]|[P1 P2]]; [rewrite P1, P2, NxT in E1 by exact Hi|rewrite P1, P2, NxT in E2 by exact Hi]; discriminate.
Qed.

(** ** The loop *)
Lemma loop_inv : forall l D st G, inv D st G -> Forall valid l -> NoDup l ->
  exists st' G', join_loop st (map ends l) = Ok st' /\
    inv (fun i => D i \/ exists l1 l2 x y, l = l1 ++ x :: y :: l2 /\ partner i x y) st' G'.
Proof.
  induction l as [|x l IH]; intros D st G I F ND.
  - exists st, G. split; [reflexivity|]. destruct I as (I1 & I2 & I3). split; [exact I1|]. split; [exact I2|].
    intros i Hi [Di|(l1 & l2 & x & y & E & _)]; [auto|]. destruct l1; discriminate.
  - destruct l as [|y r].
    + exists st, G. split; [reflexivity|]. destruct I as (I1 & I2 & I3). split; [exact I1|]. split; [exact I2|].
      intros i Hi [Di|(l1 & l2 & u & v & E & _)]; [auto|]. destruct l1 as [|? [|? ?]]; discriminate.
    + apply Forall_cons_iff in F. destruct F as [Vx F]. pose proof F as F'. apply Forall_cons_iff in F'. destruct F' as [Vy _].
      apply NoDup_cons_iff in ND. destruct ND as [Nx ND].
      assert (Nxy : x <> y) by (intros ->; apply Nx; now left).
      destruct (step_inv D st G x y I Vx Vy Nxy) as (st1 & G1 & E1 & I1).
      destruct (IH _ _ _ I1 F ND) as (st2 & G2 & E2 & I2).
      exists st2, G2. split.
      { change (join_loop st (map ends (x :: y :: r))) with (rbind (join_step st (ends x) (ends y)) (fun st' => join_loop st' (map ends (y :: r)))).
        rewrite E1. exact E2. }
      destruct I2 as (K1 & K2 & K3). split; [exact K1|]. split; [exact K2|]. intros i Hi Di. apply K3; [exact Hi|].
      destruct Di as [Di|(l1 & l2 & u & v & E & Pi)]; [left; now left|].
      destruct l1 as [|z l1]; cbn [app] in E.
      * injection E as <- <- <-. left. now right.
      * assert (E' : y :: r = l1 ++ u :: v :: l2) by congruence. clear E; rename E' into E. right. exists l1, l2, u, v. split; [exact E|exact Pi].
Qed.

(** ** The result *)
Definition all_keys : list key := flat_map (fun i => [(i, false); (i, true)]) (seq 0 n).

Lemma keys_in k : In k all_keys <-> valid k.
Proof.
  unfold all_keys. split.
  - intros H. apply in_flat_map in H. destruct H as (i & Hi & [<-|[<-|[]]]); apply in_seq in Hi; unfold valid; cbn; lia.
  - intros V. apply in_flat_map. exists (fst k). split; [apply in_seq; unfold valid in V; lia|]. destruct k as [i []]; cbn; auto.
Qed.
Lemma keys_nodup : NoDup all_keys.
Proof.
  unfold all_keys. generalize (seq_NoDup n 0). generalize (seq 0 n). induction l as [|i l IH]; intros ND; [constructor|].
  apply NoDup_cons_iff in ND. destruct ND as [Ni ND]. cbn.
  assert (K : forall b, ~ In (i, b) (flat_map (fun i => [(i, false); (i, true)]) l)).
  { intros b H. apply in_flat_map in H. destruct H as (j & Hj & [E|[E|[]]]); injection E as -> _; now apply Ni. }
  constructor; [intros [E|H]; [discriminate|now apply (K false)]|]. constructor; [apply K|now apply IH].
Qed.

Lemma endpoints_keys_gen : forall ps k, Forall (fun q : path => 2 <= length q) ps ->
  endpoints_from k ps = Ok (map (fun x : key => ((if snd x then last (nth (fst x) ps []) originPoint else hd originPoint (nth (fst x) ps [])), k + fst x))
                          (flat_map (fun i => [(i, false); (i, true)]) (seq 0 (length ps)))).
Proof.
  induction ps as [|p r IH]; intros k F; [reflexivity|]. apply Forall_cons_iff in F. destruct F as [Lp F].
  destruct p as [|a p]; [cbn in Lp; lia|]. cbn [endpoints_from]. rewrite (IH (S k) F). cbn [rbind length seq flat_map app map fst snd nth hd].
  rewrite Nat.add_0_r. f_equal. f_equal. f_equal.
  - f_equal. apply last_dflt. discriminate.
  - rewrite <- seq_shift. generalize (seq 0 (length r)). induction l as [|i l IHl]; [reflexivity|].
    cbn [flat_map map app fst snd nth]. rewrite IHl. replace (k + S i) with (S k + i) by lia. reflexivity.
Qed.

Lemma joined_closes srt : (forall l, Permutation l (srt l)) ->
  (forall l, Permutation all_keys l -> srt (map ends all_keys) = map ends l ->
     forall i, i < n -> nx i <> i -> exists l1 l2 x y, l = l1 ++ x :: y :: l2 /\ partner i x y) ->
  exists out, joinPaths3 srt orig = Ok out /\ Forall (fun q => 2 <= length q /\ pt_equal (hd originPoint q) (last q originPoint) = true) out.
Proof.
  intros SP Adj. unfold joinPaths3. rewrite (endpoints_keys_gen orig 0 Len). cbn [rbind].
  assert (EK : map (fun x : key => ((if snd x then last (nth (fst x) orig []) originPoint else hd originPoint (nth (fst x) orig [])), 0 + fst x))
                          (flat_map (fun i => [(i, false); (i, true)]) (seq 0 (length orig))) = map ends all_keys) by reflexivity.
  rewrite EK. clear EK.
  destruct (Permutation_map_inv _ _ (Permutation_sym (SP (map ends all_keys)))) as (l & El & Pl).
  assert (Pl' : Permutation all_keys l) by exact Pl.
  assert (I0 : inv (fun _ => False) (orig, seq 0 n) (map (fun i => (i, [i])) (seq 0 n))).
  { split; [|split].
    - apply joined_init. eapply Forall_impl; [|exact Len]. cbn. intros q H ->. cbn in H. lia.
    - apply Forall_forall. intros g Hg. apply in_map_iff in Hg. destruct Hg as (i & <- & _). cbn [snd].
      intros a b x y E. destruct a as [|? [|? ?]]; discriminate.
    - intros i _ []. }
  assert (FV : Forall valid l).
  { apply Forall_forall. intros k Hk. apply keys_in. now rewrite Pl'. }
  assert (NDl : NoDup l) by (eapply Permutation_NoDup; [exact Pl'|apply keys_nodup]).
  destruct (loop_inv l _ _ _ I0 FV NDl) as ([ps w] & G & E & (J & LK & HD)).
  rewrite El. fold n. rewrite E. cbn [rbind].
  eexists. split; [reflexivity|].
  apply Forall_forall. intros q Hq.
  pose proof J as J'. destruct J' as (L1 & L2 & _ & FG). cbn [fst snd] in L1, L2.
  rewrite roots_of_eq in Hq by (transitivity (length orig); [exact L2|symmetry; exact L1]).
  apply in_map_iff in Hq. destruct Hq as (r & <- & Hr). apply filter_In in Hr. destruct Hr as [Hr Er].
  apply in_seq in Hr. assert (Rn : r < length orig) by (pose proof (L1 : length ps = length orig); lia).
  apply Nat.eqb_eq in Er. rewrite (nth_indep _ _ 0) in Er by (pose proof (L2 : length w = length orig); lia).
  assert (Ew : nth_error w r = Some r) by (rewrite (nth_error_nth' w 0) by (pose proof (L2 : length w = length orig); lia); congruence).
  destruct (joined_find _ _ _ _ J Rn) as (g & Hg & Ig).
  assert (Eg : fst g = r).
  { rewrite Forall_forall in FG. destruct (FG g Hg) as (_ & _ & _ & FS). rewrite Forall_forall in FS.
    destruct (FS r Ig) as (d & _ & S). now apply (steps_root _ _ _ _ S). }
  destruct (group_path _ _ _ J Hg) as (q & Q & _ & Nm & LQ & H1 & H2). cbn [fst] in Q. rewrite Eg in Q.
  rewrite (nth_error_nth _ _ _ Q). split; [exact LQ|]. rewrite H1, H2.
  set (m := snd g) in *. set (z := last m 0).
  assert (Iz : In z m) by now apply last_in.
  assert (Zn : z < n) by (eapply group_members; eauto).
  assert (LKm : linked m) by (rewrite Forall_forall in LK; now apply LK).
  assert (NDm : NoDup m) by (eapply group_nodup; eauto).
  assert (Fst : hd 0 m = nx z).
  { destruct (Nat.eq_dec (nx z) z) as [Ez|Ez].
    - rewrite Ez. destruct (Nat.eq_dec (hd 0 m) z) as [|Eh]; [assumption|exfalso].
      destruct (not_first m z LKm Iz Eh) as (k & a & b & Em & Ek).
      assert (Ik : In k m) by (rewrite Em; apply in_or_app; right; now left).
      assert (k = z) by (apply NxI; [eapply group_members; eauto|exact Zn|congruence]). subst k.
      rewrite Em in NDm. apply NoDup_remove_2 in NDm. apply NDm. apply in_or_app. right. now left.
    - destruct (HD z Zn) as (g' & Hg' & Dg).
      { right. now apply (Adj l Pl' El). }
      assert (Ig' : In z (snd g')).
      { destruct Dg as [(a & b & ->)|(_ & _ & K)]; [apply in_or_app; right; now left|exact K]. }
      assert (g' = g) by (eapply one_group; eauto). subst g'. fold m in Dg.
      destruct Dg as [(a & b & Em)|(_ & K & _)]; [exfalso|exact K].
      rewrite Em in NDm. apply NoDup_remove_2 in NDm. apply NDm. apply in_or_app. right.
      assert (El2 : last m 0 = last (nx z :: b) 0).
      { rewrite Em. change (a ++ z :: nx z :: b) with (a ++ [z] ++ (nx z :: b)). rewrite app_assoc. apply last_app_ne. discriminate. }
      fold z in El2. generalize (last_in (nx z :: b) 0). rewrite <- El2. intros K. apply K. discriminate. }
  rewrite Fst. now apply NxT'.
Qed.
End Closed.
