(** * MinimizeLines (C35, C36) *)
From Coq Require Import ZArith Reals Lra List Bool Lia PeanoNat.
From Verif Require Import Arith ArithR Prim Path PathClaims.
Import ListNotations.
Close Scope R_scope.
Close Scope Z_scope.
Close Scope num_scope.

Section Subseq.
Context {T : Type}.
Implicit Types a b : list T.

Lemma subseq_refl a : subseq a a.
Proof. induction a; constructor; auto. Qed.
Lemma subseq_nil a : subseq [] a.
Proof. induction a; constructor; auto. Qed.
Lemma subseq_trans a b c : subseq a b -> subseq b c -> subseq a c.
Proof.
  intros H1 H2. revert a H1. induction H2 as [|x b c H IH|x b c H IH]; intros a H1; auto.
  - inversion H1 as [|? ? ? H0|? ? ? H0]; subst; constructor; auto.
  - constructor. auto.
Qed.
Lemma subseq_app a b c d : subseq a b -> subseq c d -> subseq (a ++ c) (b ++ d).
Proof. intros H1 H2. induction H1; cbn; [exact H2|constructor; auto|constructor; auto]. Qed.
Lemma subseq_incl a b : subseq a b -> incl a b.
Proof.
  induction 1 as [|x a b H IH|x a b H IH]; intros y Hy; auto.
  - destruct Hy as [->|Hy]; [now left|right; auto].
  - right; auto.
Qed.
Lemma subseq_length a b : subseq a b -> length a <= length b.
Proof. induction 1; cbn; lia. Qed.
Lemma subseq_tl a b : subseq a b -> subseq (tl a) b.
Proof.
  intros H. eapply subseq_trans; [|exact H]. destruct a; [constructor|]. constructor. apply subseq_refl.
Qed.
Lemma subseq_removelast a : subseq (removelast a) a.
Proof. induction a as [|x [|y a] IH]; [constructor|repeat constructor|]. change (subseq (x :: removelast (y :: a)) (x :: y :: a)). now constructor. Qed.
End Subseq.

Section Min.
Context {A : Arith}.

Lemma hd_last_rev {T} (l : list T) d : hd d (rev l) = last l d.
Proof.
  induction l as [|x l IH]; [reflexivity|]. cbn [rev]. destruct l as [|y l]; [reflexivity|].
  change (last (x :: y :: l) d) with (last (y :: l) d). rewrite <- IH.
  destruct (rev (y :: l)) eqn:E; [|reflexivity]. apply (f_equal (@length _)) in E. rewrite rev_length in E. discriminate.
Qed.

Lemma min_loop_ok rest : forall x y t l1 d,
  let out := fst (min_loop (x :: y :: t) l1 rest) in
  subseq (rev out) (rev (x :: y :: t) ++ rest) /\
  last out d = last (x :: y :: t) d /\ hd d out = last (x :: rest) d /\
  exists x' y' t', out = x' :: y' :: t'.
Proof.
  induction rest as [|pt r IH]; intros x y t l1 d out; unfold out; cbn [min_loop].
  - cbn [fst]. rewrite app_nil_r. split; [apply subseq_refl|]. split; [reflexivity|]. split; [reflexivity|]. eauto.
  - destruct (isCollinear l1 (L2 (lp2 l1) pt)).
    + cbn [tl]. destruct (IH pt y t (L2 (lp1 l1) pt) d) as (H1 & H2 & H3 & H4).
      split; [|split; [|split; [|exact H4]]].
      * eapply subseq_trans; [exact H1|]. cbn [rev]. rewrite <- !app_assoc. cbn [List.app].
        repeat (apply subseq_app; [apply subseq_refl|]).
        apply sub_keep, sub_drop, subseq_refl.
      * rewrite H2. reflexivity.
      * rewrite H3. reflexivity.
    + destruct (IH pt x (y :: t) (L2 (lp2 l1) pt) d) as (H1 & H2 & H3 & H4).
      split; [|split; [|split; [|exact H4]]].
      * cbn [rev] in *. rewrite <- !app_assoc in *. exact H1.
      * rewrite H2. reflexivity.
      * rewrite H3. reflexivity.
Qed.

(** before the seam is looked at *)
Lemma min_loop_p a b c r d : let p := a :: b :: c :: r in
  let res := rev (fst (min_loop [b; a] (L2 a b) (c :: r))) in
  subseq res p /\ hd d res = a /\ last res d = last p d /\ exists x s z, res = x :: s ++ [z].
Proof.
  intros p res. destruct (min_loop_ok (c :: r) b a [] (L2 a b) d) as (H1 & H2 & H3 & (x & y & t & E)).
  split; [exact H1|]. unfold res. split; [now rewrite hd_last_rev|]. split.
  - rewrite <- hd_last_rev, rev_involutive, H3. reflexivity.
  - rewrite E. cbn [rev]. destruct (rev t ++ [y]) as [|u s] eqn:Q; [destruct (rev t); discriminate|].
    exists u, s, x. cbn. reflexivity.
Qed.

Lemma isClosed_ends p q d : hd d p = hd d q -> last p d = last q d ->
  2 <= length p -> 2 <= length q -> isClosed p = isClosed q.
Proof.
  destruct p as [|a [|b p]], q as [|x [|y q]]; cbn [length]; try lia. intros H1 H2 _ _.
  cbn in H1. subst x. unfold isClosed.
  assert (L : forall (l : path) u v w, last (u :: l) v = last (u :: l) w).
  { clear. induction l; intros; [reflexivity|]. cbn [last] in *. apply IHl. }
  rewrite (L (b :: p) a a d), (L (y :: q) a a d), H2. reflexivity.
Qed.

Lemma seam_ok x s z l1 : let res := x :: s ++ [z] in
  let q := min_seam res l1 in
  q = res \/
  (isClosed res = true /\ exists c, q <> [] /\ hd c q = last q c /\
     (subseq (tl q) res \/ subseq (removelast q) res) /\ incl q res).
Proof.
  intros res q. unfold q. destruct (s ++ [z]) as [|b t] eqn:E; [destruct s; discriminate|].
  change (min_seam res l1) with
    (if isClosed res then
        if isCollinear l1 (L2 x b) then
          if nltb (l_len (L2 x b)) (l_len l1) then tl (removelast res ++ [b])
          else match rev res with _ :: y :: _ => removelast (y :: tl res) | _ => res end
        else res else res).
  assert (Eres : res = x :: s ++ [z]) by (unfold res; now rewrite E). clearbody res. clear q. subst res.
  set (res := x :: s ++ [z]).
  destruct (isClosed res) eqn:C; [|now left].
  destruct (isCollinear l1 (L2 x b)); [|now left]. right. split; [reflexivity|].
  destruct (nltb (l_len (L2 x b)) (l_len l1)).
  - (* drop the first point *)
    assert (Er : removelast res = x :: s) by (unfold res; change (x :: s ++ [z]) with ((x :: s) ++ [z]); apply removelast_last).
    rewrite Er. cbn [List.app tl]. exists b.
    assert (Hs : s ++ [b] = b :: tl (s ++ [b]) \/ s = []).
    { destruct s as [|u s]; [now right|]. left. cbn in E. injection E as -> _. reflexivity. }
    split; [destruct s; discriminate|]. split; [rewrite last_last; destruct s as [|u s]; [reflexivity|cbn in E; injection E as -> _; reflexivity]|].
    split; [right|].
    + rewrite removelast_last. unfold res. apply sub_drop. replace s with (s ++ []) at 1 by apply app_nil_r.
      apply subseq_app; [apply subseq_refl|apply subseq_nil].
    + unfold res. rewrite E. intros y Hy. apply in_app_iff in Hy. right. destruct Hy as [Hy|[<-|[]]]; [|now left].
      rewrite <- E. apply in_or_app. now left.
  - assert (Er : rev res = z :: rev (x :: s)).
    { unfold res. change (x :: s ++ [z]) with ((x :: s) ++ [z]). now rewrite rev_app_distr. }
    rewrite Er. destruct (rev (x :: s)) as [|y u] eqn:E2; [apply (f_equal (@length _)) in E2; rewrite rev_length in E2; discriminate|].
    unfold res. cbn [tl].
    change (y :: s ++ [z]) with ((y :: s) ++ [z]). rewrite removelast_last. exists y.
    assert (Hy : last (x :: s) y = y). { rewrite <- hd_last_rev, E2. reflexivity. }
    split; [discriminate|]. split.
    + cbn [hd]. destruct s as [|v s]; [reflexivity|]. change (last (y :: v :: s) y) with (last (v :: s) y). now rewrite <- Hy at 1.
    + split; [left; cbn [tl]|].
      * apply sub_drop. replace s with (s ++ []) at 1 by apply app_nil_r. apply subseq_app; [apply subseq_refl|apply subseq_nil].
      * intros w [<-|Hw].
        -- assert (In y (x :: s)) as [->|Hi].
           { rewrite in_rev, E2. now left. }
           ++ now left.
           ++ right. apply in_or_app. now left.
        -- right. apply in_or_app. now left.
Qed.

Theorem minimize_ok p d : p <> [] ->
  let q := minimizeLines p in
  q <> [] /\ incl q p /\
  ((subseq q p /\ hd d q = hd d p /\ last q d = last p d) \/
   (isClosed p = true /\ (exists c, hd c q = last q c) /\ (subseq (tl q) p \/ subseq (removelast q) p))).
Proof.
  intros Hp q. destruct p as [|a [|b [|c r]]]; [congruence| | |];
    try (split; [discriminate|]; split; [apply incl_refl|]; left; split; [apply subseq_refl|auto]).
  unfold q, minimizeLines. destruct (min_loop [b; a] (L2 a b) (c :: r)) as [rr l1] eqn:EL.
  pose proof (min_loop_p a b c r d) as H. cbn zeta in H. rewrite EL in H. cbn [fst] in H.
  destruct H as (H1 & H2 & H3 & (x & s & z & E)). rewrite E in *.
  destruct (seam_ok x s z l1) as [->|(C & c' & N & Hl & Hs & Hi)].
  - split; [discriminate|]. split; [now apply subseq_incl|]. left. auto.
  - split; [exact N|]. split; [eapply incl_tran; [exact Hi|now apply subseq_incl]|]. right. split.
    + rewrite <- C. apply isClosed_ends with d; auto; [cbn; lia|cbn; rewrite app_length; cbn; lia].
    + split; [eauto|]. destruct Hs; [left|right]; eapply subseq_trans; eauto.
Qed.

Theorem minimize_open p d : isClosed p = false ->
  subseq (minimizeLines p) p /\ hd d (minimizeLines p) = hd d p /\ last (minimizeLines p) d = last p d.
Proof.
  intros C. destruct (minimize_ok p d) as (_ & _ & [H|(C' & _)]); [intros ->; discriminate|exact H|congruence].
Qed.
End Min.
