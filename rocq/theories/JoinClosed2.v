(** * JoinPaths3 closes simple contours: the order of the end points *)
From Coq Require Import ZArith List Bool Permutation Sorted Lia PeanoNat FinFun.
From Verif Require Import Arith Prim Path PathClaims JoinProofs Properties_Path SlicerClaims ClosedClaims JoinClosed.
Import ListNotations.
Close Scope Z_scope.
Close Scope num_scope.

Section Order.
Context {A : Arith} {OK : OrdOK A}.

Definition same (x y : num) : Prop := nltb x y = false /\ nltb y x = false.
Lemma same_sym x y : same x y -> same y x.
Proof. intros [H1 H2]. now split. Qed.
Lemma lt_le x y : nltb x y = true -> nleb x y = true. Proof. apply ord_lt. Qed.
Lemma le_lt x y : nleb x y = true -> nltb y x = false.
Proof. intros H. destruct (nltb y x) eqn:E; [|reflexivity]. apply ord_asym in E. congruence. Qed.
Lemma lt_irr x : plain x -> nltb x x = false.
Proof. intros H. now apply le_lt. Qed.
Lemma nlt_trans x y z : plain x -> plain y -> plain z -> nltb x y = false -> nltb y z = false -> nltb x z = false.
Proof.
  intros Px Py Pz H1 H2. apply le_lt. apply ord_trans with y; [now apply ord_total|now apply ord_total].
Qed.
Lemma lt_trans x y z : plain x -> plain y -> plain z -> nltb x y = true -> nltb y z = true -> nltb x z = true.
Proof.
  intros Px Py Pz H1 H2. destruct (nltb x z) eqn:E; [reflexivity|].
  apply ord_total in E; [|assumption..]. apply ord_asym in H2.
  assert (nleb z y = true) by (apply ord_trans with x; [exact E|now apply ord_lt]). congruence.
Qed.
Lemma lt_nlt x y z : plain x -> plain y -> plain z -> nltb x y = true -> nltb z y = false -> nltb x z = true.
Proof.
  intros Px Py Pz H1 H2. destruct (nltb x z) eqn:E; [reflexivity|].
  assert (nltb x y = false) by now apply (nlt_trans x z y). congruence.
Qed.
Lemma nlt_lt x y z : plain x -> plain y -> plain z -> nltb y x = false -> nltb y z = true -> nltb x z = true.
Proof.
  intros Px Py Pz H1 H2. destruct (nltb x z) eqn:E; [reflexivity|].
  assert (nltb y z = false) by now apply (nlt_trans y x z). congruence.
Qed.

(** points whose coordinates are pairwise apart *)
Variable S : point -> Prop.
Hypothesis Gx : forall a b, S a -> S b -> plain (px a) /\ (almostZero (nsub (px a) (px b)) = true <-> same (px a) (px b)).
Hypothesis Gy : forall a b, S a -> S b -> plain (py a) /\ (almostZero (nsub (py a) (py b)) = true <-> same (py a) (py b)).
Hypothesis Gz : forall a b, S a -> S b -> plain (pz a) /\ (almostZero (nsub (pz a) (pz b)) = true <-> same (pz a) (pz b)).

Let pl a : S a -> plain (px a) /\ plain (py a) /\ plain (pz a).
Proof. intros H. repeat split; [now apply (Gx a a)|now apply (Gy a a)|now apply (Gz a a)]. Qed.

Lemma equal_same a b : S a -> S b -> pt_equal a b = true <-> same (px a) (px b) /\ same (py a) (py b) /\ same (pz a) (pz b).
Proof.
  intros Ha Hb. unfold pt_equal. rewrite !andb_true_iff.
  rewrite (proj2 (Gx a b Ha Hb)), (proj2 (Gy a b Ha Hb)), (proj2 (Gz a b Ha Hb)). tauto.
Qed.

Lemma less_iff a b : S a -> S b -> sortp_less a b = true <->
  nltb (px a) (px b) = true \/ (same (px a) (px b) /\ nltb (py a) (py b) = true) \/
  (same (px a) (px b) /\ same (py a) (py b) /\ nltb (pz a) (pz b) = true).
Proof.
  intros Ha Hb. unfold sortp_less. rewrite !orb_true_iff, !andb_true_iff.
  rewrite (proj2 (Gx a b Ha Hb)), (proj2 (Gy a b Ha Hb)). tauto.
Qed.

(** three-way comparison of numbers *)
Inductive cmp3 (x y : num) : Prop :=
| c_lt : nltb x y = true -> nltb y x = false -> cmp3 x y
| c_eq : nltb x y = false -> nltb y x = false -> cmp3 x y
| c_gt : nltb x y = false -> nltb y x = true -> cmp3 x y.
Lemma cmp x y : plain x -> plain y -> cmp3 x y.
Proof.
  intros Px Py. destruct (nltb x y) eqn:E1, (nltb y x) eqn:E2; [|now apply c_lt|now apply c_gt|now apply c_eq].
  exfalso. apply ord_asym in E1. apply ord_lt in E2. congruence.
Qed.

Lemma same_trans x y z : plain x -> plain y -> plain z -> same x y -> same y z -> same x z.
Proof. intros Px Py Pz [A1 A2] [B1 B2]. split; [now apply (nlt_trans x y z)|now apply (nlt_trans z y x)]. Qed.
Lemma same_lt x y z : plain x -> plain y -> plain z -> same x y -> nltb y z = true -> nltb x z = true.
Proof. intros Px Py Pz [A1 A2] B. now apply (nlt_lt x y z). Qed.
Lemma lt_same x y z : plain x -> plain y -> plain z -> nltb x y = true -> same y z -> nltb x z = true.
Proof. intros Px Py Pz B [A1 A2]. now apply (lt_nlt x y z). Qed.

Lemma equal_refl a : S a -> pt_equal a a = true.
Proof. intros H. apply equal_same; auto. destruct (pl a H) as (P1 & P2 & P3). repeat split; now apply lt_irr. Qed.
Lemma equal_sym a b : S a -> S b -> pt_equal a b = true -> pt_equal b a = true.
Proof. intros Ha Hb H. apply equal_same in H; auto. apply equal_same; auto. destruct H as (H1 & H2 & H3). auto using same_sym. Qed.
Lemma equal_trans a b c : S a -> S b -> S c -> pt_equal a b = true -> pt_equal b c = true -> pt_equal a c = true.
Proof.
  intros Ha Hb Hc H1 H2. apply equal_same in H1; auto. apply equal_same in H2; auto. apply equal_same; auto.
  destruct (pl a Ha) as (A1 & A2 & A3), (pl b Hb) as (B1 & B2 & B3), (pl c Hc) as (C1 & C2 & C3).
  destruct H1 as (X1 & X2 & X3), H2 as (Y1 & Y2 & Y3).
  split; [now apply (same_trans _ (px b))|split; [now apply (same_trans _ (py b))|now apply (same_trans _ (pz b))]].
Qed.

(** the comparator is a lexicographic order *)
Lemma less_irr a : S a -> sortp_less a a = false.
Proof.
  intros Ha. apply not_true_is_false. intros H. apply less_iff in H; auto. destruct (pl a Ha) as (P1 & P2 & P3).
  rewrite !lt_irr in H by assumption. intuition discriminate.
Qed.
Lemma less_trans a b c : S a -> S b -> S c -> sortp_less a b = true -> sortp_less b c = true -> sortp_less a c = true.
Proof.
  intros Ha Hb Hc H1 H2. apply less_iff in H1; auto. apply less_iff in H2; auto. apply less_iff; auto.
  destruct (pl a Ha) as (A1 & A2 & A3), (pl b Hb) as (B1 & B2 & B3), (pl c Hc) as (C1 & C2 & C3).
  destruct H1 as [H1|[(H1 & H1')|(H1 & H1' & H1'')]], H2 as [H2|[(H2 & H2')|(H2 & H2' & H2'')]].
  - left. now apply (lt_trans _ (px b)).
  - left. now apply (lt_same _ (px b)).
  - left. now apply (lt_same _ (px b)).
  - left. now apply (same_lt _ (px b)).
  - right; left. split; [now apply (same_trans _ (px b))|now apply (lt_trans _ (py b))].
  - right; left. split; [now apply (same_trans _ (px b))|now apply (lt_same _ (py b))].
  - left. now apply (same_lt _ (px b)).
  - right; left. split; [now apply (same_trans _ (px b))|now apply (same_lt _ (py b))].
  - right; right. split; [now apply (same_trans _ (px b))|split; [now apply (same_trans _ (py b))|now apply (lt_trans _ (pz b))]].
Qed.
Lemma less_total a b : S a -> S b -> sortp_less a b = true \/ pt_equal a b = true \/ sortp_less b a = true.
Proof.
  intros Ha Hb. rewrite equal_same, !less_iff by assumption.
  destruct (pl a Ha) as (A1 & A2 & A3), (pl b Hb) as (B1 & B2 & B3).
  destruct (cmp (px a) (px b) A1 B1) as [X X'|X X'|X X']; [now left; left| |now right; right; left].
  assert (SX : same (px a) (px b)) by now split. pose proof (same_sym _ _ SX).
  destruct (cmp (py a) (py b) A2 B2) as [Y Y'|Y Y'|Y Y']; [left; right; left; now split| |right; right; right; left; now split].
  assert (SY : same (py a) (py b)) by now split. pose proof (same_sym _ _ SY).
  destruct (cmp (pz a) (pz b) A3 B3) as [Z Z'|Z Z'|Z Z']; [left; right; right; now auto| |right; right; right; right; now auto].
  right. left. repeat split; assumption.
Qed.
Lemma equal_less a b c : S a -> S b -> S c -> pt_equal a b = true -> sortp_less a c = sortp_less b c.
Proof.
  intros Ha Hb Hc H. apply equal_same in H; auto. destruct H as (H1 & H2 & H3).
  destruct (pl a Ha) as (A1 & A2 & A3), (pl b Hb) as (B1 & B2 & B3), (pl c Hc) as (C1 & C2 & C3).
  assert (K : forall u v, S u -> S v -> plain (px u) -> plain (py u) -> plain (pz u) -> plain (px v) -> plain (py v) -> plain (pz v) ->
     same (px u) (px v) -> same (py u) (py v) -> same (pz u) (pz v) -> sortp_less u c = true -> sortp_less v c = true).
  { intros u v Su Sv U1 U2 U3 V1 V2 V3 E1 E2 E3 L. apply less_iff in L; auto. apply less_iff; auto.
    apply same_sym in E1, E2, E3.
    destruct L as [L|[(L & L')|(L & L' & L'')]].
    - left. now apply (same_lt _ (px u)).
    - right; left. split; [now apply (same_trans _ (px u))|now apply (same_lt _ (py u))].
    - right; right. split; [now apply (same_trans _ (px u))|]. split; [now apply (same_trans _ (py u))|now apply (same_lt _ (pz u))]. }
  destruct (sortp_less a c) eqn:E1', (sortp_less b c) eqn:E2'; try reflexivity; exfalso.
  - assert (sortp_less b c = true) by (apply (K a b); auto). congruence.
  - assert (sortp_less a c = true) by (apply (K b a); auto using same_sym). congruence.
Qed.
Lemma less_negtrans a b c : S a -> S b -> S c -> sortp_less a b = false -> sortp_less b c = false -> sortp_less a c = false.
Proof.
  intros Ha Hb Hc H1 H2. apply not_true_is_false. intros H.
  destruct (less_total b a Hb Ha) as [L|[L|L]].
  - rewrite (less_trans b a c) in H2 by assumption. discriminate.
  - rewrite (equal_less b a c) in H2 by assumption. congruence.
  - congruence.
Qed.
Lemma neither_equal a b : S a -> S b -> sortp_less a b = false -> sortp_less b a = false -> pt_equal a b = true.
Proof. intros Ha Hb H1 H2. destruct (less_total a b Ha Hb) as [L|[L|L]]; congruence. Qed.
Lemma equal_neither a b : S a -> S b -> pt_equal a b = true -> sortp_less a b = false.
Proof. intros Ha Hb H. rewrite (equal_less a b b) by assumption. now apply less_irr. Qed.
End Order.

(** ** Two neighbours in a sorted list *)
Lemma ssorted_app {T} (R : T -> T -> Prop) l1 l2 : StronglySorted R (l1 ++ l2) ->
  StronglySorted R l2 /\ forall x y, In x l1 -> In y l2 -> R x y.
Proof.
  induction l1 as [|a l1 IH]; cbn; intros H; [split; [exact H|intros ? ? []]|].
  inversion H as [|? ? H1 H2]; subst. destruct (IH H1) as [K1 K2]. split; [exact K1|].
  intros x y [<-|Hx] Hy; [|now apply K2]. rewrite Forall_forall in H2. apply H2. apply in_or_app. now right.
Qed.
Lemma two_in {T} (l : list T) x y : In x l -> In y l -> x <> y ->
  exists l1 mid l2, l = l1 ++ x :: mid ++ y :: l2 \/ l = l1 ++ y :: mid ++ x :: l2.
Proof.
  intros Hx Hy N. apply in_split in Hx. destruct Hx as (a & b & ->). apply in_app_or in Hy. destruct Hy as [Hy|[Hy|Hy]].
  - apply in_split in Hy. destruct Hy as (c & d & ->). exists c, d, b. right. now rewrite <- app_assoc.
  - congruence.
  - apply in_split in Hy. destruct Hy as (c & d & ->). exists a, c, d. now left.
Qed.

(** ** The theorem *)
Section Final.
Context {A : Arith} {OK : OrdOK A}.
Variable p : list path.
Variable srt : list sortp -> list sortp.
Hypothesis Len : Forall (fun q : path => 2 <= length q) p.
Hypothesis Con : contours p.
Hypothesis Apt : apart p.
Hypothesis Srt : sorts (fun a b => sortp_less (fst a) (fst b)) srt.

Let n := length p.
Let s (i : nat) : point := hd originPoint (nth i p []).
Let e (i : nat) : point := last (nth i p []) originPoint.
Let S (a : point) : Prop := In a (map from p ++ map upto p).

Let Ss i : i < n -> S (s i).
Proof. intros H. apply in_or_app. left. apply in_map_iff. exists (nth i p []). split; [reflexivity|now apply nth_In]. Qed.
Let Se i : i < n -> S (e i).
Proof. intros H. apply in_or_app. right. apply in_map_iff. exists (nth i p []). split; [reflexivity|now apply nth_In]. Qed.
Let Gx a b : S a -> S b -> plain (px a) /\ (almostZero (nsub (px a) (px b)) = true <-> same (px a) (px b)).
Proof. intros Ha Hb. destruct Apt as (H & _ & _). apply H; now apply in_map. Qed.
Let Gy a b : S a -> S b -> plain (py a) /\ (almostZero (nsub (py a) (py b)) = true <-> same (py a) (py b)).
Proof. intros Ha Hb. destruct Apt as (_ & H & _). apply H; now apply in_map. Qed.
Let Gz a b : S a -> S b -> plain (pz a) /\ (almostZero (nsub (pz a) (pz b)) = true <-> same (pz a) (pz b)).
Proof. intros Ha Hb. destruct Apt as (_ & _ & H). apply H; now apply in_map. Qed.

Let Starts i j : i < n -> j < n -> pt_equal (s i) (s j) = true -> i = j.
Proof.
  destruct Con as [_ F].
  assert (K : forall l, ForallOrdPairs (fun q q' : path => pt_equal (from q) (from q') = false) l ->
    forall i j, i < j -> j < length l -> pt_equal (from (nth i l [])) (from (nth j l [])) = false).
  { induction 1 as [|q l Hq _ IH]; intros i' j' H1 H2; [cbn in H2; lia|].
    destruct j' as [|j']; [lia|]. cbn [length] in H2. destruct i' as [|i'].
    - cbn [nth]. rewrite Forall_forall in Hq. apply Hq. apply nth_In. lia.
    - cbn [nth]. apply IH; lia. }
  intros Hi Hj E. destruct (Nat.lt_trichotomy i j) as [L|[L|L]]; [exfalso|exact L|exfalso].
  - pose proof (K p F i j L Hj) as K'. unfold from in K'. fold (s i) (s j) in K'. congruence.
  - pose proof (K p F j i L Hi) as K'. unfold from in K'. fold (s i) (s j) in K'.
    apply (equal_sym S Gx Gy Gz) in E; auto. congruence.
Qed.

Lemma contours_close : exists out, joinPaths3 srt p = Ok out /\
  Forall (fun q => 2 <= length q /\ pt_equal (hd originPoint q) (last q originPoint) = true) out.
Proof.
  destruct Con as [(p' & PP & F2) _].
  apply Permutation_nth_error in PP. destruct PP as (LL & nx & Inj & Nth).
  assert (NxB : forall i, i < n -> nx i < n).
  { intros i Hi. apply nth_error_Some. rewrite <- Nth. apply nth_error_Some. unfold n in Hi. lia. }
  assert (NxT : forall i, i < n -> pt_equal (e i) (s (nx i)) = true).
  { intros i Hi. assert (K : forall (l l' : list path), Forall2 (fun q q' => pt_equal (upto q) (from q') = true) l l' ->
      forall i, i < length l -> pt_equal (upto (nth i l [])) (from (nth i l' [])) = true).
    { induction 1 as [|q q' l l' H _ IH]; intros k Hk; [cbn in Hk; lia|]. destruct k; [exact H|]. cbn [nth]. apply IH. cbn in Hk. lia. }
    pose proof (K _ _ F2 i Hi) as K1. unfold upto, from in K1. fold (e i) in K1.
    replace (nth i p' []) with (nth (nx i) p []) in K1; [exact K1|].
    pose proof (Nth i) as N1. rewrite (nth_error_nth' p []) in N1 by now apply NxB. now apply nth_error_nth with (d := []) in N1. }
  assert (NxI : forall i j, i < n -> j < n -> nx i = nx j -> i = j) by (intros; now apply Inj).
  assert (NxT' : forall i, i < n -> pt_equal (s (nx i)) (e i) = true) by (intros i Hi; apply (equal_sym S Gx Gy Gz); auto).
  assert (NxU : forall i j, i < n -> j < n -> pt_equal (e i) (s j) = true -> j = nx i).
  { intros i j Hi Hj E. apply Starts; auto. apply (equal_trans S Gx Gy Gz _ (e i)); auto. apply (equal_sym S Gx Gy Gz); auto. }
  assert (EE : forall i j, i < n -> j < n -> pt_equal (e i) (e j) = true -> i = j).
  { intros i j Hi Hj E. apply NxI; auto. apply NxU; auto. apply (equal_trans S Gx Gy Gz _ (e i)); auto. apply (equal_sym S Gx Gy Gz); auto. }
  set (kpt := fun k : nat * bool => if snd k then e (fst k) else s (fst k)).
  assert (Sk : forall k, fst k < n -> S (kpt k)) by (intros [i []] Hk; cbn; auto).
  assert (Only : forall x y : nat * bool, fst x < n -> fst y < n -> x <> y -> pt_equal (kpt x) (kpt y) = true ->
    exists i, (x = (i, true) /\ y = (nx i, false)) \/ (y = (i, true) /\ x = (nx i, false))).
  { intros [i bi] [j bj] Hi Hj N E. unfold kpt in E. cbn [fst snd] in *. destruct bi, bj.
    - exfalso. apply N. f_equal. now apply EE.
    - exists i. left. split; [reflexivity|]. f_equal. now apply NxU.
    - exists j. right. split; [reflexivity|]. f_equal. apply NxU; auto. apply (equal_sym S Gx Gy Gz); auto.
    - exfalso. apply N. f_equal. now apply Starts. }
  destruct Srt as [SP SS].
  apply (joined_closes p nx Len NxI NxT NxT' NxU Only srt SP).
  intros l Pl El i Hi Ni. change (length p) with n in Hi.
  change (srt (map (fun k : nat * bool => (kpt k, fst k)) (all_keys p)) = map (fun k : nat * bool => (kpt k, fst k)) l) in El.
  assert (V : forall k, In k l -> fst k < n).
  { intros k Hk. apply (keys_in p). eapply Permutation_in; [symmetry; exact Pl|exact Hk]. }
  assert (ND : NoDup l) by (eapply Permutation_NoDup; [exact Pl|apply keys_nodup]).
  assert (Sd : StronglySorted (fun a b => sortp_less (kpt b) (kpt a) = false) l).
  { assert (SL : StronglySorted (fun a b : sortp => sortp_less (fst b) (fst a) = false) (map (fun k : nat * bool => (kpt k, fst k)) l)).
    { rewrite <- El. apply SS.
      assert (V2 : forall a : sortp, In a (map (fun k : nat * bool => (kpt k, fst k)) (all_keys p)) -> S (fst a)).
      { intros a Ha. apply in_map_iff in Ha. destruct Ha as (k & <- & Hk). apply Sk. now apply (keys_in p). }
      split; [|split].
      - intros a Ha. apply (less_irr S Gx Gy Gz). now apply V2.
      - intros a b c Ha Hb Hc. apply (less_trans S Gx Gy Gz); now apply V2.
      - intros a b c Ha Hb Hc. apply (less_negtrans S Gx Gy Gz); now apply V2. }
    clear - SL. induction l as [|k l IH]; [constructor|]. cbn in SL. inversion SL as [|? ? H1 H2]; subst. constructor; [now apply IH|].
    rewrite Forall_map in H2. exact H2. }
  set (x := (i, true)). set (y := (nx i, false)).
  assert (Ix : In x l) by (eapply Permutation_in; [exact Pl|]; apply (keys_in p); exact Hi).
  assert (Iy : In y l) by (eapply Permutation_in; [exact Pl|]; apply (keys_in p); cbn; auto).
  assert (Exy : pt_equal (kpt x) (kpt y) = true) by (apply NxT; exact Hi).
  assert (Eyx : pt_equal (kpt y) (kpt x) = true) by (apply NxT'; exact Hi).
  assert (Adj : forall u v l1 mid l2, l = l1 ++ u :: mid ++ v :: l2 -> pt_equal (kpt u) (kpt v) = true -> pt_equal (kpt v) (kpt u) = true ->
    (forall z, In z l -> z <> u -> pt_equal (kpt u) (kpt z) = true -> z = v) -> mid = []).
  { intros u v l1 mid l2 E E1 E2 Un. destruct mid as [|z mid]; [reflexivity|exfalso].
    pose proof Sd as Sd0. rewrite E in Sd0. apply ssorted_app in Sd0. destruct Sd0 as [Sd' _]. cbn [app] in Sd'. apply StronglySorted_inv in Sd'. destruct Sd' as [Sd2 F].
    apply Forall_cons_iff in F. destruct F as [F _].
    apply StronglySorted_inv in Sd2. destruct Sd2 as [_ F3]. rewrite Forall_forall in F3. assert (F4 := F3 v ltac:(apply in_or_app; right; now left)). cbn beta in F4.
    rewrite E in ND.
    assert (Iu : In u l) by (rewrite E; apply in_or_app; right; now left).
    assert (Iz : In z l) by (rewrite E; apply in_or_app; right; right; now left).
    assert (Iv : In v l) by (rewrite E; apply in_or_app; right; right; apply in_or_app; right; now left).
    assert (Nu : z <> u).
    { intros ->. apply NoDup_remove_2 in ND. apply ND. apply in_or_app. right. now left. }
    assert (Nv : z <> v).
    { intros ->. change (u :: (v :: mid) ++ v :: l2) with ([u] ++ v :: mid ++ v :: l2) in ND. rewrite app_assoc in ND.
      apply NoDup_remove_2 in ND. apply ND. apply in_or_app. right. apply in_or_app. right. now left. }
    apply Nv. apply Un; auto. apply (neither_equal S Gx Gy Gz); auto.
    rewrite (equal_less S Gx Gy Gz (kpt u) (kpt v)) by auto. exact F4. }
  assert (Ux : forall z, In z l -> z <> x -> pt_equal (kpt x) (kpt z) = true -> z = y).
  { intros z Hz Nz Ez. destruct (Only x z (V x Ix) (V z Hz)) as (k & [[K1 K2]|[K1 K2]]); auto; unfold x, y in *; congruence. }
  assert (Uy : forall z, In z l -> z <> y -> pt_equal (kpt y) (kpt z) = true -> z = x).
  { intros z Hz Nz Ez. destruct (Only y z (V y Iy) (V z Hz)) as (k & [[K1 K2]|[K1 K2]]); auto; unfold x, y in *; [congruence|].
    injection K2 as K2. rewrite K1. f_equal. symmetry. apply NxI; auto. pose proof (V _ Hz) as Vz. rewrite K1 in Vz. exact Vz. }
  destruct (two_in l x y Ix Iy) as (l1 & mid & l2 & [E|E]); [unfold x, y; congruence| |].
  - pose proof (Adj x y l1 mid l2 E Exy Eyx Ux) as ->. exists l1, l2, x, y. split; [exact E|]. left. split; reflexivity.
  - pose proof (Adj y x l1 mid l2 E Eyx Exy Uy) as ->. exists l1, l2, y, x. split; [exact E|]. right. split; reflexivity.
Qed.
End Final.

(** ** Insertion sort keeps the promise *)
Section Insertion.
Context {A : Arith}.
Let lessk (a b : sortp) := sortp_less (fst a) (fst b).
Lemma go_sort_sorts : sorts lessk go_insertion_sort.
Proof.
  split; [apply go_sort_perm|]. intros l W. unfold go_insertion_sort.
  set (R := fun a b : sortp => lessk b a = false).
  assert (Rev : forall m, StronglySorted (fun a b => R b a) m -> StronglySorted R (rev m)).
  { induction 1 as [|a m H IH F]; [constructor|]. cbn [rev]. clear H. induction (rev m) as [|b r IHr] eqn:Er in m, IH, F |- *.
    - repeat constructor.
    - cbn [app]. inversion IH; subst. constructor.
      + specialize (IHr (rev r)). rewrite rev_involutive in IHr. apply IHr; auto.
        rewrite Forall_forall in *. intros x Hx. apply F. apply in_rev. rewrite Er. right. now apply in_rev.
      + apply Forall_app. split; [assumption|]. constructor; [|constructor]. rewrite Forall_forall in F. apply F.
        apply in_rev. rewrite Er. now left. }
  apply Rev.
  assert (K : forall l' pre, incl l' l -> incl pre l -> StronglySorted (fun a b => R b a) pre ->
    StronglySorted (fun a b => R b a) (fold_left (fun pre x => Properties_Path.ins x pre) l' pre)).
  { destruct W as (W1 & W2 & W3).
    assert (Ins : forall x pre, In x l -> incl pre l -> StronglySorted (fun a b => R b a) pre -> StronglySorted (fun a b => R b a) (Properties_Path.ins x pre)).
    { intros x pre Hx. induction pre as [|y r IH]; intros Hp Sp; [repeat constructor|]. cbn [Properties_Path.ins].
      inversion Sp as [|? ? S1 S2]; subst. assert (Hy : In y l) by (apply Hp; now left). assert (Hr : incl r l) by (intros z Hz; apply Hp; now right).
      fold (lessk x y). destruct (lessk x y) eqn:E.
      - constructor; [now apply IH|]. apply Forall_forall. intros z Hz.
        apply (Permutation_in z (Permutation_sym (Properties_Path.ins_perm x r))) in Hz. destruct Hz as [<-|Hz].
        + unfold R. apply not_true_is_false. intros C. pose proof (W2 x y x Hx Hy Hx E C) as C'. rewrite (W1 x Hx) in C'. discriminate.
        + rewrite Forall_forall in S2. now apply S2.
      - constructor; [exact Sp|]. constructor; [exact E|]. apply Forall_forall. intros z Hz. rewrite Forall_forall in S2.
        specialize (S2 z Hz). unfold R in *. apply (W3 x y z); auto. }
    induction l' as [|x l' IH]; intros pre Hl Hp Sp; [exact Sp|]. cbn [fold_left]. apply IH.
    - intros z Hz. apply Hl. now right.
    - intros z Hz. apply (Permutation_in z (Permutation_sym (Properties_Path.ins_perm x pre))) in Hz. destruct Hz as [<-|Hz]; [apply Hl; now left|now apply Hp].
    - apply Ins; auto. apply Hl. now left. }
  apply K; [apply incl_refl|intros ? []|constructor].
Qed.
End Insertion.
