(** * Proofs about the order of fill paths and about FillLayers *)
From Coq Require Import ZArith Reals Lra Lia List Bool Permutation Sorted PeanoNat.
From Flocq Require Import Core IEEE754.BinarySingleNaN.
From Verif Require Import Arith ArithR ArithF64 F64Facts Prim Path Slicer GeomSpec SlicerClaims SlicerProofs Fill FillClaims.
Import ListNotations.
Close Scope R_scope. Close Scope Z_scope. Close Scope num_scope.

#[global] Instance LtOK_R : LtOK ArithR.
Proof.
  constructor; rcbn; intros.
  - apply Rltb_false. lra.
  - rbool. apply Rltb_true. lra.
Qed.

Lemma Bltb_cases (x y : f64) : Bltb x y = true ->
  (is_finite x = true /\ is_finite y = true /\ (B2R x < B2R y)%R) \/
  (x = B754_infinity true /\ (is_finite y = true \/ y = B754_infinity false)) \/
  (is_finite x = true /\ y = B754_infinity false).
Proof.
  intros H. destruct (is_finite x) eqn:Fx, (is_finite y) eqn:Fy.
  - left. rewrite Bltb_correct in H by assumption. split; [reflexivity|]. split; [reflexivity|].
    destruct (Rlt_bool_spec (B2R x) (B2R y)); [assumption|discriminate].
  - right; right. split; [reflexivity|]. destruct x as [[]|[]| |[]], y as [[]|[]| |[]]; try discriminate; reflexivity.
  - right; left. destruct x as [[]|[]| |[]], y as [[]|[]| |[]]; try discriminate; auto.
  - right; left. destruct x as [[]|[]| |[]], y as [[]|[]| |[]]; try discriminate; auto.
Qed.

#[global] Instance LtOK_F64 E : LtOK (ArithF64 E).
Proof.
  constructor; cbn [num nltb ArithF64].
  - intros x. destruct (Bltb x x) eqn:H; [|reflexivity]. exfalso.
    destruct (Bltb_cases _ _ H) as [(_ & _ & L)|[(-> & [F|F])|(F & ->)]]; try discriminate. lra.
  - intros x y z H1 H2.
    destruct (Bltb_cases _ _ H1) as [(F1 & F2 & L)|[(-> & [F|F])|(F & ->)]];
    destruct (Bltb_cases _ _ H2) as [(G1 & G2 & M)|[(-> & [G|G])|(G & Q)]]; try discriminate.
    all: subst; try discriminate.
    all: try (rewrite Bltb_correct by assumption; apply Rlt_bool_true; lra).
    all: try (destruct x as [[]|[]| |[]]; try discriminate; reflexivity).
    all: try (destruct z as [[]|[]| |[]]; try discriminate; reflexivity).
    reflexivity.
Qed.

Section Any.
Context {A : Arith} {L : LtOK A}.

Lemma starts_cons (q : point) r : starts q (q :: r).
Proof. now exists r. Qed.
Lemma idx0 (f : path) : f <> [] -> exists q r, f = q :: r /\ idx f 0 = Ok q.
Proof. destruct f as [|q r]; [easy|]. intros _. exists q, r. auto. Qed.
Lemma idxl (f : path) : f <> [] -> exists q r, f = r ++ [q] /\ idx_last f = Ok q.
Proof.
  intros H. destruct (exists_last H) as (r & q & ->). exists q, r. split; [reflexivity|].
  unfold idx_last. destruct r as [|x r]; [reflexivity|]. cbn [app].
  change (x :: r ++ [q]) with ((x :: r) ++ [q]). now rewrite last_last.
Qed.
Lemma starts_fun (q r : point) f : starts q f -> starts r f -> q = r.
Proof. intros [a ->] [b H]. congruence. Qed.
Lemma finishes_fun (q r : point) f : finishes q f -> finishes r f -> q = r.
Proof. intros [a ->] [b H]. now apply app_inj_tail in H. Qed.

(** paths not yet used *)
Fixpoint unused (us : list bool) (fs : list path) : list path :=
  match us, fs with
  | u :: us, f :: fs => if u then unused us fs else f :: unused us fs
  | _, _ => []
  end.

Lemma unused_in us : forall fs f, In f (unused us fs) -> In f fs.
Proof.
  induction us as [|[] us IH]; intros [|g fs] f H; try destruct H; cbn [unused In] in *; subst; auto.
Qed.

Lemma unused_pick us : forall fs i f, nth_error fs i = Some f -> nth_error us i = Some false ->
  exists l1 l2, unused us fs = l1 ++ f :: l2 /\ unused (set_used i us) fs = l1 ++ l2.
Proof.
  induction us as [|u us IH]; intros [|g fs] [|i] f Hf Hu; try discriminate.
  - injection Hf as ->. injection Hu as ->. exists [], (unused us fs). auto.
  - cbn [nth_error] in *. destruct (IH fs i f Hf Hu) as (l1 & l2 & E1 & E2).
    cbn [unused set_used]. destruct u.
    + exists l1, l2. auto.
    + exists (g :: l1), l2. rewrite E1, E2. auto.
Qed.

Lemma set_used_length i : forall us, length (set_used i us) = length us.
Proof. induction i; intros [|u us]; cbn [set_used length]; auto. Qed.

Lemma lt_neg (x y z : num) : nltb x y = false -> nltb z y = true -> nltb x z = false.
Proof.
  intros H1 H2. destruct (nltb x z) eqn:H; [|reflexivity].
  rewrite (lt_trans _ _ _ H H2) in H1. discriminate.
Qed.

Definition the_end (rv : bool) (f : path) (q : point) : Prop :=
  if rv then finishes q f else starts q f.

Lemma nearest_spec p : forall fs us j d bj br, length us = length fs -> Forall (fun f : path => f <> []) fs ->
  exists d' sj rv, nearest p j us fs (d, bj, br) = Ok (d', sj, rv) /\
    (forall h r, In h (unused us fs) -> is_end r h -> nltb (distanceTo r p) d' = false) /\
    ((d' = d /\ sj = bj /\ rv = br) \/
     (nltb d' d = true /\ exists i f q, nth_error fs i = Some f /\ nth_error us i = Some false /\
        sj = (j + i)%nat /\ the_end rv f q /\ d' = distanceTo q p)).
Proof.
  induction fs as [|f fs IH]; intros [|u us] j d bj br Len F; try discriminate.
  - exists d, bj, br. split; [reflexivity|]. split; [intros h r []|auto].
  - injection Len as Len. inversion F as [|? ? Nf F']; subst. cbn [nearest unused].
    destruct u.
    + destruct (IH us (S j) d bj br Len F') as (d' & sj & rv & E & Q & R).
      exists d', sj, rv. split; [exact E|]. split; [exact Q|].
      destruct R as [R|(R1 & i & g & q & G1 & G2 & G3 & G4)]; [now left|right].
      split; [exact R1|]. exists (S i), g, q. cbn [nth_error]. repeat split; try assumption. lia. apply G4. apply G4.
    + destruct (idx0 f Nf) as (a & ra & Ea & Ia). destruct (idxl f Nf) as (b & rb & Eb & Ib).
      rewrite Ia, Ib. cbn [rbind].
      set (best1 := if nltb (distanceTo a p) (fst (fst (d, bj, br))) then (distanceTo a p, j, false) else (d, bj, br)).
      set (best2 := if nltb (distanceTo b p) (fst (fst best1)) then (distanceTo b p, j, true) else best1).
      assert (B1 : nltb (distanceTo a p) (fst (fst best1)) = false /\
                   (best1 = (d, bj, br) \/ (best1 = (distanceTo a p, j, false) /\ nltb (distanceTo a p) d = true))).
      { unfold best1. cbn [fst]. destruct (nltb (distanceTo a p) d) eqn:H; cbn [fst].
        - split; [apply lt_irrefl|auto]. - auto. }
      assert (B2 : nltb (distanceTo b p) (fst (fst best2)) = false /\
                   (best2 = best1 \/ (best2 = (distanceTo b p, j, true) /\ nltb (distanceTo b p) (fst (fst best1)) = true))).
      { unfold best2. destruct (nltb (distanceTo b p) (fst (fst best1))) eqn:H; cbn [fst].
        - split; [apply lt_irrefl|auto]. - auto. }
      assert (B3 : nltb (distanceTo a p) (fst (fst best2)) = false).
      { destruct B2 as [_ [->|[-> H]]]; [apply B1|]. cbn [fst]. eapply lt_neg; [apply B1|exact H]. }
      assert (B4 : best2 = (d, bj, br) \/ (nltb (fst (fst best2)) d = true /\ exists rv q, best2 = (distanceTo q p, j, rv) /\ the_end rv f q)).
      { destruct B2 as [_ [->|[-> H]]].
        - destruct B1 as [_ [->|[-> H]]]; [now left|right]. cbn [fst]. split; [exact H|].
          exists false, a. split; [reflexivity|]. now exists ra.
        - right. cbn [fst]. split.
          + destruct B1 as [_ [E|[E K]]]; rewrite E in H; cbn [fst] in H; [exact H|]. exact (lt_trans _ _ _ H K).
          + exists true, b. split; [reflexivity|]. now exists rb. }
      destruct B2 as [B2 _]. destruct best2 as [[d2 j2] r2]. cbn [fst] in *.
      destruct (IH us (S j) d2 j2 r2 Len F') as (d' & sj & rv & E & Q & R).
      exists d', sj, rv. split; [exact E|].
      assert (Lt : forall x, nltb x d2 = false -> nltb x d' = false).
      { intros x Hx. destruct R as [(-> & _)|(R1 & _)]; [exact Hx|]. eapply lt_neg; eassumption. }
      split.
      * intros h r [<-|Hh] Hr; [|eapply Q; eassumption].
        apply Lt. destruct Hr as [Hr|Hr].
        -- rewrite (starts_fun r a f Hr) by (now exists ra). exact B3.
        -- rewrite (finishes_fun r b f Hr) by (now exists rb). exact B2.
      * destruct R as [(-> & -> & ->)|(R1 & i & g & q & G1 & G2 & G3 & G4 & G5)].
        -- destruct B4 as [B4|(B4 & rv' & q & E4 & T)].
           ++ injection B4 as -> -> ->. now left.
           ++ right. injection E4 as -> -> ->. split; [exact B4|].
              exists 0%nat, f, q. cbn [nth_error]. repeat split; try assumption. lia.
        -- right. split.
           ++ destruct B4 as [B4|(B4 & _)]; [injection B4 as -> -> ->; exact R1|exact (lt_trans _ _ _ R1 B4)].
           ++ exists (S i), g, q. cbn [nth_error]. repeat split; try assumption. lia.
Qed.

Lemma end_of_nonempty (f : path) : f <> [] -> exists q, is_end q f.
Proof. destruct f as [|q r]; [easy|]. intros _. exists q. left. now exists r. Qed.

Lemma rev_ends (f : path) q : starts q f -> finishes q (rev f).
Proof. intros [r ->]. exists (rev r). reflexivity. Qed.
Lemma rev_ends2 (f : path) q : finishes q f -> starts q (rev f).
Proof. intros [r ->]. exists (rev r). now rewrite rev_app_distr. Qed.

Lemma sort_loop_greedy (f0 : path) (fs : list path) : Forall (fun f : path => f <> []) (f0 :: fs) -> near_ends (f0 :: fs) ->
  forall k us o out e, length us = length fs -> k = length (unused us fs) ->
    finishes e o -> (exists f, In f (f0 :: fs) /\ is_end e f) ->
    exists rest, sort_fill_loop k (f0 :: fs) (o :: out) (true :: us) = Ok (rev (o :: out) ++ rest) /\
      greedy e (unused us fs) rest.
Proof.
  intros F N. inversion F as [|? ? Nf F']; subst.
  induction k as [|k IH]; intros us o out e Len K Fo Ee; cbn [sort_fill_loop].
  - exists []. rewrite app_nil_r. split; [reflexivity|].
    destruct (unused us fs); [constructor|discriminate].
  - cbn [idx nth_error rbind].
    assert (No : o <> []) by (destruct Fo as [r ->]; now destruct r).
    destruct (idxl o No) as (e' & r' & Eo & Io). rewrite Io. cbn [rbind tl].
    assert (e' = e) by (apply (finishes_fun e' e o); [now exists r'|exact Fo]). subst e'.
    destruct (nearest_spec e fs us 1 maxFloat32 0 false Len F') as (d' & sj & rv & E & Q & R).
    rewrite E. cbn [rbind].
    destruct R as [(-> & _)|(R1 & i & f & q & G1 & G2 & -> & G4 & ->)].
    { (* impossible: some unused path is near *)
      exfalso. destruct (unused us fs) as [|h hs] eqn:U; [discriminate|].
      assert (Hh : In h fs) by (apply (unused_in us); rewrite U; now left).
      destruct (end_of_nonempty h) as [r Hr]; [rewrite Forall_forall in F'; auto|].
      specialize (Q h r (or_introl eq_refl) Hr). destruct Ee as (g & Hg & Ge).
      rewrite (N h g r e (or_intror Hh) Hg Hr Ge) in Q. discriminate. }
    change (idx (f0 :: fs) (1 + i)) with (idx fs i). change (set_used (1 + i) (true :: us)) with (true :: set_used i us).
    unfold idx at 1. rewrite G1. cbn [rbind].
    destruct (unused_pick us fs i f G1 G2) as (l1 & l2 & U1 & U2).
    set (g := if rv then rev f else f).
    assert (Nf' : f <> []) by (rewrite Forall_forall in F'; apply F'; eapply nth_error_In; eassumption).
    assert (Sg : starts q g) by (unfold g; destruct rv; [now apply rev_ends2|assumption]).
    assert (Fg : exists e2, finishes e2 g /\ is_end e2 f).
    { unfold g. destruct rv.
      - destruct (idx0 f Nf') as (a & ra & Ea & _). exists a. split; [apply rev_ends|left]; now exists ra.
      - destruct (idxl f Nf') as (a & ra & Ea & _). exists a. split; [|right]; now exists ra. }
    destruct Fg as (e2 & Fg & Ge2).
    destruct (IH (set_used i us) g (o :: out) e2) as (rest & E3 & G3).
    { now rewrite set_used_length. }
    { rewrite U2. rewrite U1 in K. rewrite app_length in *. cbn [length] in K. lia. }
    { exact Fg. }
    { exists f. split; [right; eapply nth_error_In; eassumption|exact Ge2]. }
    exists (g :: rest). split.
    + etransitivity; [exact E3|].  cbn [rev]. rewrite <- !app_assoc. reflexivity.
    + rewrite U1. eapply greedy_step with (q := q) (e := e2); try eassumption.
      * unfold g. destruct rv; auto.
      * intros h r Hh. apply Q. rewrite U1. exact Hh.
      * rewrite U2 in G3. exact G3.
Qed.

Lemma unused_all fs : unused (repeat false (length fs)) fs = fs.
Proof. induction fs as [|f fs IH]; [reflexivity|]. cbn [length repeat unused]. now rewrite IH. Qed.

Lemma sort_greedy (f0 : path) (fs : list path) e : Forall (fun f : path => f <> []) (f0 :: fs) -> near_ends (f0 :: fs) ->
  finishes e f0 ->
  exists rest, sortFillPathes (f0 :: fs) = Ok (f0 :: rest) /\ greedy e fs rest.
Proof.
  intros F N Fe. destruct fs as [|f1 fs].
  - exists []. split; [reflexivity|constructor].
  - unfold sortFillPathes. cbn [length Nat.sub].
    destruct (sort_loop_greedy f0 (f1 :: fs) F N (S (length fs)) (repeat false (S (length fs))) f0 [] e)
      as (rest & E & G).
    + now rewrite repeat_length.
    + change (S (length fs)) with (length (f1 :: fs)). now rewrite unused_all.
    + exact Fe.
    + exists f0. split; [now left|now right].
    + exists rest. split; [exact E|].
      change (S (length fs)) with (length (f1 :: fs)) in G. now rewrite unused_all in G.
Qed.

Lemma greedy_rearranged e fs out : greedy e fs out -> rearranged fs out.
Proof.
  induction 1 as [|p l1 f l2 g q e out H1 H2 H3 H4 G (fs' & P & F)].
  - exists []. split; constructor.
  - exists (f :: fs'). split.
    + etransitivity; [symmetry; apply Permutation_middle|]. now constructor.
    + constructor; assumption.
Qed.

(** without the guard the first path is repeated *)
Lemma nearest_far p : forall fs us j best, length us = length fs -> Forall (fun f : path => f <> []) fs ->
  (forall f q, In f fs -> is_end q f -> nltb (distanceTo q p) (fst (fst best)) = false) ->
  nearest p j us fs best = Ok best.
Proof.
  clear L. induction fs as [|f fs IH]; intros [|u us] j best Len F Q; try discriminate; [reflexivity|].
  injection Len as Len. inversion F as [|? ? Nf F']; subst. cbn [nearest]. destruct u.
  - apply IH; auto. intros; apply (Q f0); [now right|assumption].
  - destruct (idx0 f Nf) as (a & ra & Ea & Ia). destruct (idxl f Nf) as (b & rb & Eb & Ib).
    rewrite Ia, Ib. cbn [rbind].
    rewrite (Q f a (or_introl eq_refl)) by (left; now exists ra).
    rewrite (Q f b (or_introl eq_refl)) by (right; now exists rb).
    apply IH; auto. intros; apply (Q f0); [now right|assumption].
Qed.

Lemma repeat_snoc {T} (x : T) n : x :: repeat x n = repeat x n ++ [x].
Proof. induction n as [|n IH]; [reflexivity|]. cbn [repeat app]. now rewrite <- IH. Qed.
Lemma rev_repeat {T} (x : T) n : rev (repeat x n) = repeat x n.
Proof. induction n as [|n IH]; [reflexivity|]. cbn [repeat rev]. rewrite IH. symmetry. apply repeat_snoc. Qed.

Lemma far_loop (f0 : path) (fs : list path) : Forall (fun f : path => f <> []) (f0 :: fs) -> far_ends f0 fs ->
  forall k us n, length us = length fs ->
    sort_fill_loop k (f0 :: fs) (repeat f0 (S n)) (true :: us) = Ok (repeat f0 (S n + k)).
Proof.
  clear L. intros F N. inversion F as [|? ? Nf F']; subst.
  induction k as [|k IH]; intros us n Len; cbn [sort_fill_loop].
  - rewrite rev_repeat, Nat.add_0_r. reflexivity.
  - change (idx (repeat f0 (S n)) 0) with (@Ok path f0). cbn [rbind].
    destruct (idxl f0 Nf) as (e & r & Eo & Io). rewrite Io. cbn [rbind tl].
    rewrite nearest_far; [|assumption|assumption|].
    + cbn [rbind idx nth_error set_used].
      change (f0 :: repeat f0 (S n)) with (repeat f0 (S (S n))). rewrite IH by assumption.
      f_equal. f_equal. lia.
    + cbn [fst]. intros f q Hf Hq. apply (N f q e); [assumption|assumption|]. now exists r.
Qed.

Lemma sort_far (f0 : path) (fs : list path) : Forall (fun f : path => f <> []) (f0 :: fs) -> far_ends f0 fs ->
  sortFillPathes (f0 :: fs) = Ok (repeat f0 (length (f0 :: fs))).
Proof.
  clear L. intros F N. destruct fs as [|f1 fs]; [reflexivity|].
  unfold sortFillPathes. cbn [length Nat.sub].
  pose proof (far_loop f0 (f1 :: fs) F N (S (length fs)) (repeat false (S (length fs))) 0) as H.
  rewrite repeat_length in H. specialize (H eq_refl). exact H.
Qed.

(** without any guard the function does not panic *)
Lemma sort_total (fs : list path) : Forall (fun f : path => f <> []) fs -> exists out, sortFillPathes fs = Ok out /\
  Forall (fun g => exists f, In f fs /\ (g = f \/ g = rev f)) out /\ length out = length fs.
Proof.
  intros F. destruct fs as [|f0 [|f1 fs]].
  - exists []. repeat split; constructor.
  - exists [f0]. repeat split. constructor; [exists f0; cbn; auto|constructor].
  - unfold sortFillPathes. set (fl := f0 :: f1 :: fs) in *. set (n := (length fl - 1)%nat).
    assert (G : forall k us out, length us = length (f1 :: fs) -> out <> [] ->
       Forall (fun g => exists f, In f fl /\ (g = f \/ g = rev f)) out ->
       exists o, sort_fill_loop k fl out (true :: us) = Ok o /\
         Forall (fun g => exists f, In f fl /\ (g = f \/ g = rev f)) o /\ length o = (length out + k)%nat).
    { induction k as [|k IH]; intros us out Len No Fo; cbn [sort_fill_loop].
      - exists (rev out). split; [reflexivity|]. split; [now apply Forall_rev|]. rewrite rev_length. lia.
      - destruct out as [|o out]; [easy|]. cbn [idx nth_error rbind].
        assert (No' : o <> []).
        { inversion Fo as [|? ? (f & Hf & Hg) ?]; subst. rewrite Forall_forall in F. specialize (F f Hf).
          destruct Hg as [->| ->]; [assumption|]. intros Q. apply F. rewrite <- (rev_involutive f), Q. reflexivity. }
        destruct (idxl o No') as (e & r & Eo & Io). clear Eo. rewrite Io. cbn [rbind tl fl].
        inversion F as [|? ? Nf F']; subst.
        destruct (nearest_spec e (f1 :: fs) us 1 maxFloat32 0 false Len F') as (d' & sj & rv & E & Q & R).
        rewrite E. cbn [rbind].
        assert (J : exists f us', idx fl sj = Ok f /\ set_used sj (true :: us) = true :: us' /\ length us' = length us /\ In f fl).
        { destruct R as [(_ & -> & _)|(_ & i & f & q & G1 & _ & -> & _)].
          - exists f0, us. repeat split. now left.
          - exists f, (set_used i us). cbn [Nat.add idx nth_error fl set_used].
            unfold idx, fl. cbn [nth_error]. rewrite G1. repeat split; [apply set_used_length|].
            right. eapply nth_error_In; eassumption. }
        destruct J as (f & us' & J1 & J2 & J3 & J4). fold fl. rewrite J1. cbn [rbind]. rewrite J2.
        destruct (IH us' ((if rv then rev f else f) :: o :: out)) as (o' & H1 & H2 & H3).
        + congruence. + easy.
        + constructor; [exists f; split; [assumption|destruct rv; auto]|assumption].
        + exists o'. split; [exact H1|]. split; [exact H2|]. rewrite H3. cbn [length]. lia. }
    destruct (G n (repeat false n) [f0]) as (o & H1 & H2 & H3).
    + rewrite repeat_length. unfold n, fl. cbn [length]. lia.
    + easy.
    + constructor; [exists f0; split; [now left|auto]|constructor].
    + exists o. split; [exact H1|]. split; [exact H2|]. rewrite H3. unfold n, fl. cbn [length]. lia.
Qed.
End Any.
