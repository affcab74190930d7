(** * Proofs about package helpers *)
From Coq Require Import ZArith Reals Lra Lia List Bool Permutation PeanoNat.
From Verif Require Import Arith ArithR Prim Path PathClaims JoinProofs MinProofs GeomSpec GeomProofs Helpers HelperClaims.
Import ListNotations.
Close Scope R_scope.
Close Scope Z_scope.
Close Scope num_scope.

Section Cut.
Context {A : Arith}.

Lemma split_fresh q ln (t : triangle) : forall a b c, splitOnThree q ln t = (a, b, c) ->
  Forall (fun x => exists i j k, x = newTriangle i j k /\
     incl [i; j; k] [t1 t; t2 t; t3 t; lp1 ln; lp2 ln]) [a; b; c].
Proof.
  intros a b c. unfold splitOnThree.
  assert (T : exists x y z, turn_to q t = (x, y, z) /\ incl [x; y; z] [t1 t; t2 t; t3 t]).
  { unfold turn_to. destruct (pt_equal (t2 t) q); [|destruct (pt_equal (t3 t) q)];
      do 3 eexists; (split; [reflexivity|]); intros w; cbn; tauto. }
  destruct T as (x & y & z & -> & I).
  assert (Ix : forall w, In w [x; y; z] -> In w [t1 t; t2 t; t3 t; lp1 ln; lp2 ln]).
  { intros w Hw. apply I in Hw. cbn in *. tauto. }
  assert (H : forall u v, ((u, v) = (lp1 ln, lp2 ln) \/ (u, v) = (lp2 ln, lp1 ln)) ->
     Forall (fun x0 => exists i j k, x0 = newTriangle i j k /\ incl [i; j; k] [t1 t; t2 t; t3 t; lp1 ln; lp2 ln])
        [newTriangle x u v; newTriangle u y z; newTriangle z v u]).
  { intros u v Huv.
    assert (Iu : In u [t1 t; t2 t; t3 t; lp1 ln; lp2 ln]) by (destruct Huv as [[= -> ->]|[= -> ->]]; cbn; tauto).
    assert (Iv : In v [t1 t; t2 t; t3 t; lp1 ln; lp2 ln]) by (destruct Huv as [[= -> ->]|[= -> ->]]; cbn; tauto).
    assert (X1 := Ix x (or_introl eq_refl)). assert (X2 := Ix y (or_intror (or_introl eq_refl))).
    assert (X3 := Ix z (or_intror (or_intror (or_introl eq_refl)))).
    repeat apply Forall_cons; [| | |apply Forall_nil]; do 3 eexists; (split; [reflexivity|]);
      intros w [<-|[<-|[<-|[]]]]; assumption. }
  destruct (almostZero _); intros [= <- <- <-]; apply H; auto.
Qed.

Ltac front := unfold cut_one; cbn [filter];
  repeat match goal with H : pointInFront _ _ = _ |- _ => rewrite H in * end; cbn [filter negb app] in *.

Lemma cut_one_piece p (t : triangle) : piece p t (fst (fst (cut_one p t))) (snd (fst (cut_one p t))).
Proof.
  destruct (pointInFront p (t1 t)) eqn:H1, (pointInFront p (t2 t)) eqn:H2, (pointInFront p (t3 t)) eqn:H3; front.
  1: now apply piece_front.
  7: now apply piece_behind.
  all: destruct (intersectTriangle p t) as [l|] eqn:I; [|apply piece_lost; [intros [? ?]; congruence|exact I]].
  all: match goal with |- context[splitOnThree ?q ?ll ?tt] => destruct (splitOnThree q ll tt) as [[a b] c] eqn:S;
         pose proof (split_fresh q ll tt a b c S) as F end; cbn [fst snd].
  - apply (piece_split p t (t3 t) (t1 t) (t2 t) l a b c); auto; rewrite ?H1, ?H2, ?H3; reflexivity.
  - apply (piece_split p t (t2 t) (t3 t) (t1 t) l a b c); auto; rewrite ?H1, ?H2, ?H3; reflexivity.
  - apply (piece_split p t (t1 t) (t2 t) (t3 t) l a b c); auto; rewrite ?H1, ?H2, ?H3; reflexivity.
  - apply (piece_split p t (t1 t) (t2 t) (t3 t) l a b c); auto; rewrite ?H1, ?H2, ?H3; reflexivity.
  - apply (piece_split p t (t2 t) (t3 t) (t1 t) l a b c); auto; rewrite ?H1, ?H2, ?H3; reflexivity.
  - apply (piece_split p t (t3 t) (t1 t) (t2 t) l a b c); auto; rewrite ?H1, ?H2, ?H3; reflexivity.
Qed.

Lemma cut_one_lines p (t : triangle) : snd (cut_one p t) = section_lines p [t].
Proof.
  unfold section_lines, straddles. cbn [flat_map existsb].
  destruct (pointInFront p (t1 t)) eqn:H1, (pointInFront p (t2 t)) eqn:H2, (pointInFront p (t3 t)) eqn:H3; front;
    cbn [orb andb negb app]; try reflexivity;
  destruct (intersectTriangle p t) as [l|]; try reflexivity;
  match goal with |- context[splitOnThree ?q l t] => destruct (splitOnThree q l t) as [[a b] c] end; reflexivity.
Qed.

Lemma sections_flat p (m : mesh) : flat_map snd (map (cut_one p) m) = section_lines p m.
Proof.
  induction m as [|t m IH]; [reflexivity|]. cbn [map flat_map]. rewrite IH, cut_one_lines.
  unfold section_lines at 1. cbn [flat_map]. rewrite app_nil_r. reflexivity.
Qed.

Lemma pieces_flat p (m : mesh) : pieces p m (flat_map (fun x => fst (fst x)) (map (cut_one p) m))
  (flat_map (fun x => snd (fst x)) (map (cut_one p) m)).
Proof. induction m as [|t m IH]; cbn [map flat_map]; constructor; auto using cut_one_piece. Qed.

Lemma fan_ok p (a : point) rest d : forall pre, nth 0 (pre ++ rest) d = a -> pre <> [] ->
  cap_fan p a rest = map (fun j => cap_pair p a (nth j (pre ++ rest) d) (nth (S j) (pre ++ rest) d))
    (seq (length pre) (length rest - 1)).
Proof.
  induction rest as [|b r IH]; intros pre Ha Np; [reflexivity|].
  destruct r as [|c r]; [reflexivity|].
  change (cap_fan p a (b :: c :: r)) with (cap_pair p a b c :: cap_fan p a (c :: r)).
  replace (length (b :: c :: r) - 1) with (S (length (c :: r) - 1)) by (cbn; lia). cbn [seq map]. f_equal.
  - rewrite !app_nth2 by lia. rewrite Nat.sub_diag. replace (S (length pre) - length pre) with 1 by lia. reflexivity.
  - rewrite (IH (pre ++ [b])).
    + rewrite app_length. cbn [length]. rewrite Nat.add_1_r. rewrite <- app_assoc. reflexivity.
    + rewrite <- app_assoc. exact Ha.
    + destruct pre; discriminate.
Qed.

Lemma cap_path_fan p (pth : path) d : cap_path p pth = map (fun x => cap_pair p (fst (fst x)) (snd (fst x)) (snd x)) (fan pth d).
Proof.
  unfold fan. rewrite map_map. cbn [fst snd]. destruct pth as [|a r]; [reflexivity|].
  cbn [cap_path]. rewrite (fan_ok p a r d [a]); [|reflexivity|discriminate].
  cbn [length app nth]. rewrite <- (Nat.sub_succ (length r) 1). reflexivity.
Qed.

Lemma join_pairs srt (ls : list path) : (forall l, Permutation l (srt l)) -> Forall (fun q : path => q <> []) ls ->
  exists out, joinPaths3AndMinimize srt ls = Ok out.
Proof.
  intros Hs Hl. destruct (joinPaths3_ok srt ls Hs Hl) as (o & E & _). unfold joinPaths3AndMinimize. rewrite E. cbn. eauto.
Qed.

Lemma section_nonempty p m : Forall (fun q : path => q <> []) (section_lines p m).
Proof.
  induction m as [|t m IH]; [constructor|]. unfold section_lines in *. cbn [flat_map]. apply Forall_app. split; [|exact IH].
  destruct (straddles p t); [|constructor]. destruct (intersectTriangle p t); repeat constructor. discriminate.
Qed.

Lemma cutMesh_def srt (m : mesh) p : m <> [] -> cutMesh srt m p =
  rbind (joinPaths3AndMinimize srt (section_lines p m)) (fun joined =>
    let caps := flat_map (cap_path p) joined in
    Ok (flat_map (fun x => fst (fst x)) (map (cut_one p) m) ++ map fst caps,
        flat_map (fun x => snd (fst x)) (map (cut_one p) m) ++ map snd caps)).
Proof. intros H. unfold cutMesh. destruct m; [congruence|]. rewrite sections_flat. reflexivity. Qed.

Lemma join3_nil srt : (forall l, Permutation l (srt l)) -> joinPaths3AndMinimize srt [] = Ok [].
Proof.
  intros H. unfold joinPaths3AndMinimize, joinPaths3. cbn [endpoints_from rbind length seq].
  assert (srt [] = []) as -> by (apply Permutation_nil, H). reflexivity.
Qed.

Theorem cutMesh_ok srt (m : mesh) p : (forall l, Permutation l (srt l)) ->
  exists up down joined us ds,
    cutMesh srt m p = Ok (up, down) /\ joinPaths3AndMinimize srt (section_lines p m) = Ok joined /\
    pieces p m us ds /\
    up = us ++ map fst (flat_map (cap_path p) joined) /\ down = ds ++ map snd (flat_map (cap_path p) joined).
Proof.
  intros Hs. destruct m as [|t m].
  - exists [], [], [], [], []. rewrite (join3_nil srt Hs : joinPaths3AndMinimize srt (section_lines p []) = Ok []).
    repeat split; constructor.
  - destruct (join_pairs srt (section_lines p (t :: m)) Hs (section_nonempty p _)) as (j & J).
    rewrite cutMesh_def by discriminate. rewrite J. cbn [rbind]. cbv zeta.
    do 5 eexists. split; [reflexivity|]. split; [reflexivity|]. split; [apply pieces_flat|]. split; reflexivity.
Qed.
End Cut.

(** ** SimplifyLine *)
Section DP.
Context {A : Arith}.

Lemma far_index p0 pe : forall pts i index dmax, index < i ->
  let '(k, d) := far_scan p0 pe i pts index dmax in
  (k = index /\ d = dmax) \/ (i <= k /\ S k < i + length pts).
Proof.
  induction pts as [|q r IH]; intros i index dmax Hi; cbn [far_scan]; [now left|].
  destruct r as [|q' r]; [now left|]. cbv zeta.
  destruct (nltb dmax (distanceToLine q p0 pe)).
  - specialize (IH (S i) i (distanceToLine q p0 pe) (Nat.lt_succ_diag_r i)).
    destruct (far_scan p0 pe (S i) (q' :: r) i _) as [k d]. cbn [length] in *. right. destruct IH as [[-> ->]|[H1 H2]]; lia.
  - specialize (IH (S i) index dmax (Nat.lt_trans _ _ _ Hi (Nat.lt_succ_diag_r i))).
    destruct (far_scan p0 pe (S i) (q' :: r) index dmax) as [k d]. cbn [length] in *. destruct IH as [H|[H1 H2]]; [now left|right; lia].
Qed.

Variable R : point -> point -> point -> Prop.

Lemma thinned_hd l o : thinned R l o -> exists a l' o', l = a :: l' /\ o = a :: o'.
Proof. destruct 1; eauto. Qed.

Lemma thinned_cat l1 m o1 : forall l2 o2, thinned R (l1 ++ [m]) (o1 ++ [m]) -> thinned R (m :: l2) (m :: o2) ->
  thinned R (l1 ++ m :: l2) (o1 ++ m :: o2).
Proof.
  intros l2 o2 H H2.
  remember (l1 ++ [m]) as l eqn:El. remember (o1 ++ [m]) as o eqn:Eo. revert l1 o1 El Eo.
  induction H as [a|a mid b rest out F T IH]; intros l1 o1 El Eo.
  - destruct l1 as [|? [|]], o1 as [|? [|]]; try discriminate. injection El as <-. exact H2.
  - destruct o1 as [|x o1]; [destruct out; discriminate|]. injection Eo as <- Eo.
    destruct l1 as [|y l1]; [destruct mid; discriminate|]. injection El as <- El.
    (* b :: out = o1 ++ [m], mid ++ b :: rest = l1 ++ [m] *)
    destruct o1 as [|b' o1].
    + (* out = [] and b = m: then rest = [] *)
      cbn in Eo. injection Eo as <- ->.
      assert (rest = []) as ->.
      { inversion T as [q Hq|]; subst; reflexivity. }
      apply app_inj_tail in El. destruct El as [<- _].
      cbn [app]. apply thinned_step; assumption.
    + cbn in Eo. injection Eo as <- Eo.
      destruct rest as [|z rest].
      { exfalso. inversion T as [q Hq|q mid' b' rest' out' F' T' Hq]; subst; [destruct o1; discriminate|].
        destruct mid'; discriminate. }
      assert (exists r', b :: z :: rest = (b :: r') ++ [m] /\ l1 = mid ++ b :: r') as (r' & E1 & E2).
      { destruct (exists_last (l := z :: rest)) as (r' & m' & E); [discriminate|].
        rewrite E in El |- *. exists r'. replace (mid ++ b :: r' ++ [m']) with ((mid ++ b :: r') ++ [m']) in El
          by (rewrite <- app_assoc; reflexivity).
        apply app_inj_tail in El. destruct El as [<- <-]. split; reflexivity. }
      subst l1. cbn [app]. rewrite <- app_assoc. apply thinned_step; [exact F|].
      cbn [app]. apply (IH (b :: r') (b :: o1)); [exact E1|cbn; now rewrite Eo].
Qed.

Lemma thinned_last l o d : thinned R l o -> last l d = last o d /\ o <> [].
Proof.
  induction 1 as [a|a mid b rest out F T [IH _]]; [split; [reflexivity|discriminate]|]. split; [|discriminate].
  change (last (a :: b :: out) d) with (last (b :: out) d). rewrite <- IH.
  change (a :: mid ++ b :: rest) with ((a :: mid) ++ b :: rest). clear.
  induction (a :: mid) as [|x l IHl]; [reflexivity|]. cbn [app]. rewrite <- IHl. destruct (l ++ b :: rest) eqn:E; [destruct l; discriminate|reflexivity].
Qed.

Variable eps : num.
Hypothesis Hneg : nltb eps n0 = false.
Hypothesis leaf : forall p0 pe mid, nltb eps (snd (far_scan p0 pe 1 (mid ++ [pe]) 0 n0)) = false ->
  Forall (fun q => R q p0 pe) mid.

Lemma removelast_snoc {T} (l : list T) x : removelast (l ++ [x]) = l.
Proof. rewrite removelast_app by discriminate. apply app_nil_r. Qed.

Lemma simplify_one f a : simplifyLine (S f) [a] eps = Ok [a; a].
Proof. cbn. now rewrite Hneg. Qed.

Lemma simplify_ok : forall fuel ps, 2 <= length ps <= fuel ->
  exists out, simplifyLine fuel ps eps = Ok out /\ thinned R ps out.
Proof.
  induction fuel as [|f IH]; intros ps [H1 H2]; [lia|].
  destruct ps as [|p0 r]; [cbn in H1; lia|].
  destruct (exists_last (l := r)) as (mid & pe & ->); [destruct r; [cbn in H1; lia|discriminate]|].
  cbn [simplifyLine].
  assert (EL : last (p0 :: mid ++ [pe]) p0 = pe).
  { change (p0 :: mid ++ [pe]) with ((p0 :: mid) ++ [pe]). apply last_last. }
  rewrite EL. pose proof (leaf p0 pe mid) as Lf. pose proof (far_index p0 pe (mid ++ [pe]) 1 0 n0 Nat.lt_0_1) as Fi.
  destruct (far_scan p0 pe 1 (mid ++ [pe]) 0 n0) as [k d]. cbn [snd] in Lf.
  destruct (nltb eps d) eqn:E.
  - destruct Fi as [[-> ->]|[K1 K2]]; [congruence|].
    cbn [length] in H1, H2. rewrite app_length in K2, H1, H2. cbn [length] in K2, H1, H2.
    set (ps := p0 :: mid ++ [pe]) in *.
    assert (Lp : length ps = S (S (length mid))) by (unfold ps; cbn; rewrite app_length; cbn; lia).
    destruct (IH (firstn (S k) ps)) as (o1 & S1 & T1); [rewrite firstn_length; lia|].
    destruct (IH (skipn k ps)) as (o2 & S2 & T2); [rewrite skipn_length; lia|].
    change (p0 :: firstn k (mid ++ [pe])) with (firstn (S k) ps).
    rewrite S1. cbn [rbind]. rewrite S2. cbn [rbind]. eexists. split; [reflexivity|].
    (* the common point *)
    assert (Hk : k < length ps) by lia.
    pose (m := nth k ps p0).
    assert (F1 : firstn (S k) ps = firstn k ps ++ [m]).
    { unfold m. clear -Hk. revert k Hk. induction ps as [|x l IHl]; intros k Hk; [cbn in Hk; lia|].
      destruct k; [reflexivity|]. cbn [firstn nth app]. f_equal. apply IHl. cbn in Hk. lia. }
    assert (F2 : skipn k ps = m :: skipn (S k) ps).
    { unfold m. clear -Hk. revert k Hk. induction ps as [|x l IHl]; intros k Hk; [cbn in Hk; lia|].
      destruct k; [reflexivity|]. cbn [skipn nth]. apply IHl. cbn in Hk. lia. }
    rewrite F1 in T1. rewrite F2 in T2.
    destruct (thinned_last _ _ p0 T1) as [L1 N1]. rewrite last_last in L1.
    destruct (exists_last N1) as (o1' & m' & ->). rewrite last_last in L1. subst m'.
    destruct (thinned_hd _ _ T2) as (a & l' & o2' & E1 & ->). injection E1 as <- _.
    rewrite removelast_snoc. rewrite <- (firstn_skipn k ps), F2. apply thinned_cat; assumption.
  - eexists. split; [reflexivity|].
    change (p0 :: mid ++ [pe]) with (p0 :: mid ++ pe :: []). apply thinned_step; [auto|constructor].
Qed.
End DP.

Lemma thinned_weaken {A : Arith} (R R' : point -> point -> point -> Prop) l o :
  (forall q a b, R q a b -> R' q a b) -> thinned R l o -> thinned R' l o.
Proof.
  intros H. induction 1; constructor; auto. eapply Forall_impl; [|eassumption]. intros; auto.
Qed.

Lemma subseq_nil {T} (l : list T) : subseq [] l.
Proof. induction l; constructor; auto. Qed.
Lemma thinned_subseq {A : Arith} R l o : thinned R l o -> subseq o l.
Proof.
  induction 1 as [a|a mid b rest out F T IH]; [repeat constructor|].
  apply sub_keep. clear F. induction mid as [|x mid IHm]; [exact IH|]. cbn [app]. now apply sub_drop.
Qed.

Local Open Scope R_scope.
Lemma far_max (p0 pe : Rpoint) : forall mid i index (dmax : R),
  let d := snd (far_scan p0 pe i (mid ++ [pe]) index dmax) in
  dmax <= d /\ Forall (fun q => distanceToLine q p0 pe <= d) mid.
Proof.
  induction mid as [|q r IH]; intros i index dmax; cbv zeta.
  - cbn. split; [apply Rle_refl|constructor].
  - assert (E : forall k (dm : R), far_scan (A := ArithR) p0 pe i ((q :: r) ++ [pe]) k dm =
      if @nltb ArithR dm (distanceToLine q p0 pe) then far_scan p0 pe (S i) (r ++ [pe]) i (distanceToLine q p0 pe)
      else far_scan p0 pe (S i) (r ++ [pe]) k dm).
    { intros k dm. cbn [app far_scan]. destruct (r ++ [pe]) eqn:Er; [destruct r; discriminate|reflexivity]. }
    rewrite E. clear E. destruct (@nltb ArithR dmax (distanceToLine q p0 pe)) eqn:L; rcbn; rbool.
    + destruct (IH (S i) i (distanceToLine q p0 pe)) as [H1 H2]. split.
      * eapply Rle_trans; [|exact H1]. lra.
      * constructor; auto.
    + destruct (IH (S i) index dmax) as [H1 H2]. split; [exact H1|]. constructor; auto.
      eapply Rle_trans; [exact L|exact H1].
Qed.

Lemma dist_sq (a b : Rpoint) : distanceTo a b = sqrt (dist2 a b).
Proof. unfold distanceTo, dist2. pt. rcbn. reflexivity. Qed.
Lemma dist2_nonneg a b : 0 <= dist2 a b.
Proof.
  unfold dist2. assert (S : forall x, 0 <= x * x) by (intros x; apply Rle_0_sqr).
  pose proof (S (X a - X b)). pose proof (S (Y a - Y b)). pose proof (S (Z3 a - Z3 b)). lra.
Qed.
Lemma dist2_sym a b : dist2 a b = dist2 b a.
Proof. unfold dist2. ring. Qed.

Lemma sqrt_le_sq x e : 0 <= x -> sqrt x <= e -> x <= e * e.
Proof.
  intros H1 H2. rewrite <- (sqrt_sqrt x H1). pose proof (sqrt_pos x). apply Rmult_le_compat; lra.
Qed.

Lemma project_along (q a b : Rpoint) : exists s, projectOnLine q a b = along a b s.
Proof.
  unfold projectOnLine, normalize, along, pshift, vscale. rcbn.
  destruct (Reqb _ 0); cbn [vx vy vz vectorTo px py pz].
  - exists (dot (vectorTo a q) (vectorTo a b)). pt. f_equal; rcbn; ring.
  - match goal with |- context[dot ?u ?v] => exists (dot u v / vlen (vectorTo a b)) end. pt. f_equal; rcbn; unfold Rdiv; ring.
Qed.

Lemma near_of_distance (q a b : Rpoint) (e : R) : distanceToLine q a b <= e -> near_line e q a b.
Proof.
  unfold distanceToLine. destruct (project_along q a b) as (s & ->). rewrite dist_sq, dist2_sym. intros H. exists s.
  apply sqrt_le_sq; [apply dist2_nonneg|exact H].
Qed.

Theorem simplify_exact (eps : R) ps : 0 <= eps -> (2 <= length ps)%nat ->
  exists out, simplifyLine (A := ArithR) (length ps) ps eps = Ok out /\ thinned (near_line eps) ps out.
Proof.
  intros He Hl. apply simplify_ok; [| |lia].
  - rcbn. apply Rltb_false. exact He.
  - intros p0 pe mid H. rcbn. apply Rltb_false in H.
    destruct (far_max p0 pe mid 1 0 0) as [_ F]. rcbn.
    eapply Forall_impl; [|exact F]. intros q Hq. apply near_of_distance. cbv beta in Hq. eapply Rle_trans; [exact Hq|exact H].
Qed.

(** a negative epsilon never terminates *)
Theorem simplify_negative (eps : R) : eps < 0 -> forall fuel (ps : list Rpoint), ps <> [] ->
  simplifyLine fuel ps eps = Diverge.
Proof.
  intros He. induction fuel as [|f IH]; intros ps Hp; [reflexivity|].
  destruct ps as [|p0 r]; [congruence|]. cbn [simplifyLine].
  assert (D : forall pts i index (dmax : R), 0 <= dmax -> 0 <= snd (far_scan p0 (last (p0 :: r) p0) i pts index dmax)).
  { induction pts as [|q l IHl]; intros i index dmax Hd; [exact Hd|]. cbn [far_scan]. destruct l; [exact Hd|]. cbv zeta.
    destruct (@nltb ArithR dmax _) eqn:E; [|apply IHl; exact Hd]. apply IHl. rcbn. rbool. lra. }
  specialize (D r 1%nat 0%nat (@n0 ArithR)). destruct (far_scan _ _ _ _ _ _) as [k d]. cbn [snd] in D.
  assert (@nltb ArithR eps d = true) as ->. { rcbn. apply Rltb_true. assert (0 <= d) by (apply D; lra). lra. }
  rewrite IH by discriminate. reflexivity.
Qed.
