(** * Even-odd rule of the fill, frame of FillLayers, sparse densities in float64 *)
From Coq Require Import ZArith Reals Lra Lia Psatz List Bool Permutation Sorted PeanoNat.
From Flocq Require Import Core.Raux IEEE754.BinarySingleNaN.
From Verif Require Import Arith ArithR ArithF64 Prim Path Gcode GeomSpec GeomProofs MeshProofs Slicer SlicerClaims SlicerProofs SlicerProofs2
  Properties_Geom Fill FillClaims FillProofs FillProofs2.
Import ListNotations.
Close Scope Z_scope. Close Scope num_scope. Close Scope R_scope.

Section EvenOdd.
Local Open Scope R_scope.

Lemma hits_crossings_path (pl : Rplane) (p : Rpath) : (forall q, In q p -> sd pl q <> 0) ->
  Forall2 (fun ab c => on_seg (fst ab) (snd ab) c /\ sd pl c = 0)
    (filter (fun ab => if Rlt_dec (sd pl (fst ab) * sd pl (snd ab)) 0 then true else false) (sides p)) (hits_path pl p).
Proof.
  induction p as [|a [|b r] IH]; cbn [hits_path sides filter fst snd]; intros G; try constructor.
  specialize (IH (fun q Hq => G q (or_intror Hq))).
  assert (Na := G a (or_introl eq_refl)). assert (Nb := G b (or_intror (or_introl eq_refl))).
  pose proof (C27_segment pl a b) as C. destruct (intersectSegment pl a b) as [c|].
  - destruct C as (_ & C1 & C2 & C3 & _). destruct Rlt_dec as [L|L].
    + cbn [app]. constructor; [cbn [fst snd]; auto|exact IH].
    + exfalso. assert (sd pl a * sd pl b = 0) by lra. apply Rmult_integral in H. tauto.
  - destruct Rlt_dec as [L|L].
    + exfalso. destruct C as [C|C]; [|lra]. rewrite C in L. pose proof (Rle_0_sqr (sd pl b)). unfold Rsqr in *. lra.
    + exact IH.
Qed.

Lemma hits_crossings (pl : Rplane) ps : general_position pl ps -> crossings pl ps (hits pl ps).
Proof.
  intros G. unfold crossings, crossing_sides, hits.
  induction ps as [|p ps IH]; cbn [flat_map]; [constructor|].
  rewrite filter_app. apply Forall2_app.
  - apply hits_crossings_path. intros q. apply G. now left.
  - apply IH. intros p' q H1 H2. apply (G p' q); [now right|assumption].
Qed.

(** a path changes side an even number of times iff its ends are on the same side *)
Lemma parity_path (pl : Rplane) (p : Rpath) a e : (forall q, In q (a :: p) -> sd pl q <> 0) -> last (a :: p) a = e ->
  Nat.even (length (hits_path pl (a :: p))) = true <-> 0 < sd pl a * sd pl e.
Proof.
  revert a. induction p as [|b r IH]; intros a G E.
  - cbn [last] in E. subst e. cbn [hits_path length Nat.even]. split; [|reflexivity]. intros _.
    apply sq_pos_ne. apply G. now left.
  - assert (Na := G a (or_introl eq_refl)). assert (Nb := G b (or_intror (or_introl eq_refl))).
    assert (E' : last (b :: r) b = e).
    { rewrite <- E. clear. cbn [last]. destruct r as [|c r]; [reflexivity|]. revert c.
      induction r as [|d r IH]; intros c; [reflexivity|]. apply IH. }
    assert (Ne : sd pl e <> 0).
    { rewrite <- E'. apply G. right. clear. revert b. induction r as [|d r IH]; intros b; [now left|].
      right. specialize (IH d). cbn [last] in *. destruct r as [|c r]; [now left|].
      replace (last (c :: r) b) with (last (c :: r) d); [exact IH|]. clear. revert c.
      induction r as [|x r IH]; intros c; [reflexivity|apply IH]. }
    specialize (IH b (fun q Hq => G q (or_intror Hq)) E').
    change (hits_path pl (a :: b :: r)) with
      ((match intersectSegment pl a b with Some q => [q] | None => [] end) ++ hits_path pl (b :: r)).
    pose proof (C27_segment pl a b) as C.
    assert (D : match intersectSegment pl a b with Some _ => sd pl a * sd pl b < 0 | None => 0 < sd pl a * sd pl b end).
    { destruct (intersectSegment pl a b).
      - destruct C as (_ & C1 & _). destruct (Rle_lt_or_eq_dec _ _ C1) as [?|Q]; [assumption|].
        apply Rmult_integral in Q. tauto.
      - destruct C as [->|C]; [now apply sq_pos_ne|lra]. }
    clear C G E E'. destruct (intersectSegment pl a b) as [c|]; cbn [app length].
    + rewrite Nat.even_succ, <- Nat.negb_even, negb_true_iff. rewrite <- not_true_iff_false, IH.
      set (x := sd pl a) in *. set (y := sd pl b) in *. set (z := sd pl e) in *. clearbody x y z. clear -D Na Nb Ne.
      split; intros H.
      * assert (y * z < 0) by (destruct (Rtotal_order (y * z) 0) as [?|[Q|?]]; [assumption| |lra];
          apply Rmult_integral in Q; tauto).
        assert (0 < (x * z) * (y * y)).
        { replace (x * z * (y * y)) with ((- (x * y)) * (- (y * z))) by ring. apply Rmult_lt_0_compat; lra. }
        apply sq_pos_ne in Nb. apply Rmult_lt_reg_r with (y * y); [assumption|lra].
      * intros K. assert (0 < - (x * y) * (y * z)) by (apply Rmult_lt_0_compat; lra).
        assert (0 < (x * z) * (y * y)) by (apply Rmult_lt_0_compat; [assumption|now apply sq_pos_ne]). lra.
    + rewrite IH. set (x := sd pl a) in *. set (y := sd pl b) in *. set (z := sd pl e) in *. clearbody x y z. clear -D Na Nb Ne.
      split; intros H.
      * assert (0 < (x * y) * (y * z)) by (apply Rmult_lt_0_compat; lra).
        apply sq_pos_ne in Nb. apply Rmult_lt_reg_r with (y * y); [assumption|lra].
      * assert (0 < (x * y) * (x * z)) by (apply Rmult_lt_0_compat; lra).
        apply sq_pos_ne in Na. apply Rmult_lt_reg_r with (x * x); [assumption|lra].
Qed.

Lemma last_snoc {T} (l : list T) x d : last (l ++ [x]) d = x.
Proof. induction l as [|y l IH]; [reflexivity|]. cbn [app]. rewrite <- IH at 2. destruct l; reflexivity. Qed.

Lemma hits_even (pl : Rplane) ps : Forall closed ps -> general_position pl ps ->
  Nat.even (length (hits pl ps)) = true.
Proof.
  intros C G. induction C as [|p ps (a & m & E) C IH]; [reflexivity|].
  unfold hits. cbn [flat_map]. rewrite app_length, Nat.even_add. fold (hits pl ps).
  rewrite IH by (intros p' q H1 H2; apply (G p' q); [now right|assumption]).
  assert (Q : Nat.even (length (hits_path pl p)) = true); [|now rewrite Q].
  rewrite E. eapply (parity_path pl (m ++ [a]) a a).
  - intros q Hq. apply (G p q); [now left|]. now rewrite E.
  - exact (last_snoc (a :: m) a a).
  - apply sq_pos_ne. apply (G p a); [now left|]. rewrite E. now left.
Qed.

Lemma even_pairs {A : Arith} U pl (ps : list path) : legal U -> Nat.even (length (hits pl ps)) = true ->
  intersectByPlane U ps pl = pairs (sort_hits U pl (hits pl ps)).
Proof.
  intros L E. unfold intersectByPlane.
  pose proof (Permutation_length (sort_hits_perm U pl (hits pl ps) L)) as P.
  destruct (sort_hits U pl (hits pl ps)) as [|a [|b [|c [|d [|e l]]]]]; cbn [length] in P;
    revert E; rewrite P; intros E; first [reflexivity|discriminate E].
Qed.

Lemma pairs_even_odd (f : Rpoint -> R) t : forall n (l : list Rpoint), (length l <= n)%nat -> Nat.even (length l) = true ->
  StronglySorted (fun a b => f a <= f b) l -> (forall c, In c l -> f c <> t) ->
  (exists a b, In [a; b] (pairs l) /\ f a < t < f b) <->
  Nat.odd (length (filter (fun c => if Rlt_dec (f c) t then true else false) l)) = true.
Proof.
  induction n as [n IH] using lt_wf_ind. intros [|a [|b l]] Hn E S N.
  - cbn. split; [intros (? & ? & [] & _)|discriminate].
  - discriminate.
  - cbn [length] in *. inversion S as [|? ? S1 F1]; subst. inversion S1 as [|? ? S2 F2]; subst.
    inversion F1 as [|? ? Fab _]; subst.
    assert (Na := N a (or_introl eq_refl)). assert (Nb := N b (or_intror (or_introl eq_refl))).
    rewrite Nat.even_succ_succ in E.
    specialize (IH (length l) ltac:(lia) l (le_n _) E S2 (fun c Hc => N c (or_intror (or_intror Hc)))).
    cbn [pairs filter]. destruct (Rlt_dec (f a) t) as [La|La]; destruct (Rlt_dec (f b) t) as [Lb|Lb].
    + cbn [length]. rewrite Nat.odd_succ_succ. rewrite <- IH. split.
      * intros (x & y & [H|H] & K); [injection H as <- <-; lra|]. eauto.
      * intros (x & y & H & K). exists x, y. split; [now right|assumption].
    + assert (Z : filter (fun c : Rpoint => if Rlt_dec (f c) t then true else false) l = []).
      { clear - F2 Lb. induction F2 as [|c l Fc _ IHl]; [reflexivity|]. cbn [filter]. destruct Rlt_dec; [lra|]. assumption. }
      cbn [length]. rewrite Z. cbn. split; [reflexivity|]. intros _. exists a, b. split; [now left|]. lra.
    + lra.
    + rewrite <- IH. split.
      * intros (x & y & [H|H] & K); [injection H as <- <-; lra|]. eauto.
      * intros (x & y & H & K). exists x, y. split; [now right|assumption].
Qed.

Lemma before_perm d t cs cs' : Permutation cs cs' -> before d t cs = before d t cs'.
Proof.
  unfold before. induction 1 as [|c l l' _ IH|x y l|]; cbn [filter]; try congruence.
  - destruct Rlt_dec; cbn [length]; congruence.
  - destruct (Rlt_dec (Rdot x d) t), (Rlt_dec (Rdot y d) t); reflexivity.
Qed.

Lemma even_odd U pl ps : legal U -> vz (pl_n pl) = 0%R -> (vx (pl_n pl) : R) <> 0 \/ (vy (pl_n pl) : R) <> 0 ->
  Forall closed ps -> general_position pl ps ->
  forall t, (forall c, In c (hits pl ps) -> Rdot c (heading (pl_n pl)) <> t) ->
  (exists a b, In [a; b] (intersectByPlane U ps pl) /\ Rdot a (heading (pl_n pl)) < t < Rdot b (heading (pl_n pl))) <->
  Nat.odd (before (heading (pl_n pl)) t (hits pl ps)) = true.
Proof.
  intros L Z N C G t T. rewrite (even_pairs U pl ps L (hits_even pl ps C G)).
  pose proof (sort_hits_perm U pl (hits pl ps) L) as P. pose proof (hits_sorted U pl ps L Z N) as S.
  rewrite (before_perm _ t _ _ P). unfold before.
  eapply (pairs_even_odd (fun c => Rdot c (heading (pl_n pl))) t).
  - apply le_n.
  - etransitivity; [exact (f_equal Nat.even (eq_sym (Permutation_length P)))|]. now apply hits_even.
  - exact S.
  - intros c Hc. apply T. eapply Permutation_in; [exact (Permutation_sym P)|exact Hc].
Qed.
End EvenOdd.

(** ** FillLayers *)
Section Frame.
Context {A : Arith} {L : LtOK A}.

Lemma segments_nonempty U (ps : list path) pls : Forall (fun f : path => f <> []) (flat_map (intersectByPlane U ps) pls).
Proof.
  apply Forall_forall. intros f Hf. apply in_flat_map in Hf. destruct Hf as (pl & _ & Hf).
  destruct (segments_of_hits U ps pl) as (F & _). rewrite Forall_forall in F.
  destruct (F f Hf) as (a & b & ->). discriminate.
Qed.

Definition result_of (cuts : list path) (fill : list path) : Prop :=
  length fill = length cuts /\ Forall (fun g => exists f, In f cuts /\ (g = f \/ g = rev f)) fill /\
  (near_ends cuts -> rearranged cuts fill).

Lemma sort_result (cuts : list path) : Forall (fun f : path => f <> []) cuts ->
  exists out, sortFillPathes cuts = Ok out /\ result_of cuts out.
Proof.
  intros F. destruct (sort_total cuts F) as (out & E & H1 & H2). exists out. split; [exact E|].
  split; [exact H2|]. split; [exact H1|]. intros N.
  destruct cuts as [|f0 fs].
  - cbn in E. injection E as <-. exists []. split; constructor.
  - inversion F as [|? ? Nf ?]; subst. destruct (idxl f0 Nf) as (e & r & Ef & _).
    destruct (sort_greedy f0 fs e F N) as (rest & E2 & G); [now exists r|].
    rewrite E in E2. injection E2 as ->. apply greedy_rearranged in G. destruct G as (fs' & P & Q).
    exists (f0 :: fs'). split; [now constructor|]. constructor; [now left|exact Q].
Qed.

Lemma fill_loop_spec U n planes full s : forall ls i, Forall (fun l => Forall (fun f : path => f <> []) (l_fill l)) ls ->
  exists out, fill_loop U n i planes full s ls = Ok out /\ Forall2 same_but_fill ls out /\
    forall j l l', nth_error ls j = Some l -> nth_error out j = Some l' ->
      exists pls, ((i + Z.of_nat j < s_bottomLayers s \/ n - s_topLayers s <= i + Z.of_nat j)%Z -> pls = full) /\
                  ((s_bottomLayers s <= i + Z.of_nat j < n - s_topLayers s)%Z -> pls = planes) /\
                  result_of (l_fill l ++ flat_map (intersectByPlane U (contours l)) pls) (l_fill l').
Proof.
  induction ls as [|l ls IH]; intros i F.
  - exists []. split; [reflexivity|]. split; [constructor|]. intros [|j]; discriminate.
  - inversion F as [|? ? F1 F2]; subst. cbn [fill_loop]. unfold fillLayer at 1.
    fold (contours l). set (pls := if ((i <? s_bottomLayers s) || (n - s_topLayers s <=? i))%Z%bool then full else planes).
    destruct (sort_result (l_fill l ++ flat_map (intersectByPlane U (contours l)) pls)) as (o & E & R).
    { apply Forall_app. split; [exact F1|apply segments_nonempty]. }
    rewrite E. cbn [rbind]. destruct (IH (i + 1)%Z F2) as (out & E2 & S2 & N2). rewrite E2. cbn [rbind].
    eexists. split; [reflexivity|]. split; [constructor; [repeat split|exact S2]|].
    intros [|j] x x' Hx Hx'.
    + cbn [nth_error] in *. injection Hx as <-. injection Hx' as <-. exists pls. cbn [l_fill].
      split; [|split; [|exact R]]; unfold pls; intros H.
      * destruct (Z.ltb_spec i (s_bottomLayers s)); [reflexivity|].
        destruct (Z.leb_spec (n - s_topLayers s) i); [reflexivity|]. lia.
      * destruct (Z.ltb_spec i (s_bottomLayers s)); [lia|].
        destruct (Z.leb_spec (n - s_topLayers s) i); [lia|]. reflexivity.
    + cbn [nth_error] in *. destruct (N2 j x x' Hx Hx') as (pls' & H1 & H2 & H3). exists pls'.
      split; [intros; apply H1; lia|]. split; [intros; apply H2; lia|exact H3].
Qed.
End Frame.

(** ** Step of infinite length in float64 *)
Section Sparse.
Variable E : elem.
Let AE := ArithF64 E.

Lemma inf_step (lw : f64) (B : Bsign lw = false) : is_finite_strict lw = true ->
  f64_mul (f64_div (f64_ofZ 100) (f64_ofZ 0)) lw = B754_infinity false.
Proof.
  intros F. destruct lw as [| | |s m e H]; try discriminate. cbn in B. subst s. reflexivity.
Qed.

Lemma no_planes (m : @mesh AE) axis : @calcFillPlanesCommon AE m axis (B754_infinity false) = [].
Proof.
  unfold calcFillPlanesCommon. set (M := fill_extent m). cbv zeta.
  assert (Q : ntoZ (nceil (ndiv (nsub M (nmul (nfloor (ndiv (nopp M) (B754_infinity false : @num AE))) (B754_infinity false : @num AE))) (B754_infinity false : @num AE))) = (- 2 ^ 63)%Z).
  { clearbody M. destruct M as [s|s| |s m' e' H]; reflexivity. }
  rewrite Q. reflexivity.
Qed.
End Sparse.
