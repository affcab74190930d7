(** * Properties C86, C87: where Analyze cuts, and how it crashes *)
From Coq Require Import String Ascii ZArith Reals Lra Lia List Bool Permutation PeanoNat.
From Verif Require Import Arith ArithR ArithF64 Prim Path Helpers HelperProofs GeomSpec Slicer SlicerClaims SlicerProofs FillClaims FillProofs
  Vip VipProofs VipReal Properties_Vip AnalyzeClaims ElemT.
Import ListNotations.
Close Scope R_scope. Close Scope num_scope. Close Scope string_scope. Close Scope Z_scope.

Section Any.
Context {A : Arith}.

Lemma low_all (t : triangle) : (nltb (pz (t1 t)) (nlit 1 100) && nltb (pz (t2 t)) (nlit 1 100) && nltb (pz (t3 t)) (nlit 1 100))%bool = false <->
  exists q, In q [t1 t; t2 t; t3 t] /\ nltb (pz q) (nlit 1 100) = false.
Proof.
  split.
  - intros H. destruct (nltb (pz (t1 t)) _) eqn:E1; [|exists (t1 t); cbn; auto].
    destruct (nltb (pz (t2 t)) _) eqn:E2; [|exists (t2 t); cbn; auto].
    destruct (nltb (pz (t3 t)) _) eqn:E3; [discriminate|exists (t3 t); cbn; auto].
  - intros (q & [<-|[<-|[<-|[]]]] & ->); cbn; rewrite ?andb_false_r; reflexivity.
Qed.

(** the choice among the triangles of the mesh itself *)
Lemma pick_here {L : LtOK A} (m : mesh) ang v : forall suf pre cur,
  m = pre ++ suf ->
  let ok t := In t m /\ leans ang v t /\ exists q, In q [t1 t; t2 t; t3 t] /\ nltb (pz q) (nlit 1 100) = false in
  (match cur with
   | None => forall u, In u pre -> ~ ok u
   | Some t => ok t /\ forall u, In u pre -> ok u -> nltb (t_minZ u v) (t_minZ t v) = false
   end) ->
  exists o, pick_triangle m v (length pre) (colorizeTriangles suf ang v) cur = Ok o /\
  match o with
  | None => forall u, ~ ok u
  | Some t => ok t /\ forall u, ok u -> nltb (t_minZ u v) (t_minZ t v) = false
  end.
Proof.
  induction suf as [|s suf IH]; intros pre cur Hm ok Hc; cbn [colorizeTriangles map pick_triangle].
  - exists cur. split; [reflexivity|]. rewrite app_nil_r in Hm. subst pre.
    destruct cur as [t|].
    + destruct Hc as [H1 H2]. split; [exact H1|]. intros u Hu. apply H2; [apply Hu|exact Hu].
    + intros u Hu. exact (Hc u (proj1 Hu) Hu).
  - assert (Hs : In s m) by (rewrite Hm; apply in_or_app; right; now left).
    assert (Hm' : m = (pre ++ [s]) ++ suf) by (rewrite <- app_assoc; exact Hm).
    assert (Hl : length (pre ++ [s]) = S (length pre)) by (rewrite app_length; cbn; lia).
    assert (Skip : ~ ok s -> exists o, pick_triangle m v (S (length pre)) (colorizeTriangles suf ang v) cur = Ok o /\
      match o with
      | None => forall u, ~ ok u
      | Some t => ok t /\ forall u, ok u -> nltb (t_minZ u v) (t_minZ t v) = false
      end).
    { intros N. rewrite <- Hl. apply IH; [exact Hm'|]. destruct cur as [t|].
      - destruct Hc as [H1 H2]. split; [exact H1|]. intros u Hu Ou. apply in_app_or in Hu.
        destruct Hu as [Hu|[->|[]]]; [now apply H2|contradiction].
      - intros u Hu Ou. apply in_app_or in Hu. destruct Hu as [Hu|[->|[]]]; [exact (Hc u Hu Ou)|exact (N Ou)]. }
    destruct (nltb (angle (t_n s) (vopp v)) (nsub (nofZ 90) ang)) eqn:F.
    2: { apply Skip. intros (_ & X & _). unfold leans in X. congruence. }
    assert (IX : idx m (length pre) = Ok s).
    { unfold idx. rewrite Hm, nth_error_app2, Nat.sub_diag by lia. reflexivity. }
    rewrite IX. cbn [rbind]. cbv zeta.
    destruct (nltb (pz (t1 s)) (nlit 1 100) && nltb (pz (t2 s)) (nlit 1 100) && nltb (pz (t3 s)) (nlit 1 100))%bool eqn:LW.
    { apply Skip. intros (_ & _ & X). apply low_all in X. congruence. }
    assert (Os : ok s) by (split; [exact Hs|]; split; [exact F|now apply low_all]).
    rewrite <- Hl. apply IH; [exact Hm'|]. destruct cur as [c|].
    + destruct Hc as [H1 H2]. destruct (nltb (t_minZ s v) (t_minZ c v)) eqn:LT.
      * split; [exact Os|]. intros u Hu Ou. apply in_app_or in Hu. destruct Hu as [Hu|[->|[]]]; [|apply lt_irrefl].
        destruct (nltb (t_minZ u v) (t_minZ s v)) eqn:X; [|reflexivity].
        rewrite <- (H2 u Hu Ou). symmetry. eapply lt_trans; eassumption.
      * split; [exact H1|]. intros u Hu Ou. apply in_app_or in Hu. destruct Hu as [Hu|[->|[]]]; [now apply H2|exact LT].
    + split; [exact Os|]. intros u Hu Ou. apply in_app_or in Hu. destruct Hu as [Hu|[->|[]]]; [exfalso; exact (Hc u Hu Ou)|apply lt_irrefl].
Qed.

Lemma lowest_ok {L : LtOK A} (t : triangle) v w : In w [t1 t; t2 t; t3 t] ->
  nltb (dot (p2v w) v) (dot (p2v (lowest_point t v)) v) = false.
Proof.
  assert (T : forall x y z : num, nltb x y = true -> nltb z y = false -> nltb z x = false).
  { intros x y z H1 H2. destruct (nltb z x) eqn:X; [|reflexivity]. rewrite <- H2. symmetry. eapply lt_trans; eassumption. }
  unfold lowest_point. cbv zeta.
  destruct (nltb (dot (p2v (t2 t)) v) (dot (p2v (t1 t)) v)) eqn:E1;
    [destruct (nltb (dot (p2v (t3 t)) v) (dot (p2v (t2 t)) v)) eqn:E2|destruct (nltb (dot (p2v (t3 t)) v) (dot (p2v (t1 t)) v)) eqn:E2];
    intros [<-|[<-|[<-|[]]]]; auto using lt_irrefl.
  - destruct (nltb (dot (p2v (t1 t)) v) (dot (p2v (t3 t)) v)) eqn:X; [|reflexivity].
    pose proof (lt_trans _ _ _ X E2) as Y. pose proof (lt_trans _ _ _ Y E1) as Z. rewrite lt_irrefl in Z. discriminate.
  - destruct (nltb (dot (p2v (t2 t)) v) (dot (p2v (t3 t)) v)) eqn:X; [|reflexivity].
    pose proof (lt_trans _ _ _ X E2) as Y. rewrite lt_irrefl in Y. discriminate.
  - destruct (nltb (dot (p2v (t1 t)) v) (dot (p2v (t2 t)) v)) eqn:X; [|reflexivity].
    pose proof (lt_trans _ _ _ X E1) as Y. rewrite lt_irrefl in Y. discriminate.
  - destruct (nltb (dot (p2v (t1 t)) v) (dot (p2v (t3 t)) v)) eqn:X; [|reflexivity].
    pose proof (lt_trans _ _ _ X E2) as Y. rewrite lt_irrefl in Y. discriminate.
  - destruct (nltb (dot (p2v (t2 t)) v) (dot (p2v (t3 t)) v)) eqn:X; [|reflexivity].
    rewrite <- E1. symmetry. eapply lt_trans; eassumption.
Qed.

Lemma loop_keeps U m ang : forall fuel cur curm ans out, analyze_loop fuel U m ang cur curm ans = Ok out -> exists r, out = ans ++ r.
Proof.
  induction fuel as [|f IH]; intros cur curm ans out; cbn [analyze_loop]; [discriminate|].
  destruct (_ || _)%bool; [intros [= <-]; exists []; now rewrite app_nil_r|].
  destruct (pick_triangle _ _ _ _ _) as [[t|]| |]; cbn [rbind]; try discriminate.
  2: { intros [= <-]. exists []. now rewrite app_nil_r. }
  destruct (cutMesh _ _ _) as [[up down]| |]; cbn [rbind]; try discriminate.
  intros H. apply IH in H. destruct H as (r & ->). rewrite <- app_assoc. eauto.
Qed.

(** ** C87 The first plane *)

(** No plane is suggested exactly if nothing overhangs; the first one is tilted and goes through
    a lowest vertex of a lowest overhang. *)
Theorem C87_first_plane : LtOK A -> forall U (m : mesh) ang fuel ps,
  analyze fuel U m ang = Ok ps ->
  match ps with
  | [] => forall t, ~ overhang m ang t
  | p :: _ => ap_tilted p = true /\ first_plane m ang (ap_plane p)
  end.
Proof.
  intros L U m ang fuel ps. unfold analyze. destruct fuel as [|f]; cbn [analyze_loop]; [discriminate|].
  cbn [length Nat.ltb Nat.leb orb].
  destruct m as [|t0 m0] eqn:EM; [intros [= <-]; intros t [[] _]|]. rewrite <- EM in *.
  change (pl_n (ap_plane (AP planeXY false n0))) with (@axisZ A).
  destruct (pick_here m ang axisZ m [] None eq_refl) as (o & E & H); [intros u []|].
  change (length []) with 0 in E. rewrite E. cbn [rbind].
  destruct o as [t|]; [|intros [= <-]; exact H].
  destruct H as [Ot Ht].
  set (next := next_plane _ _ _).
  destruct (cutMesh _ _ _) as [[up down]| |]; cbn [rbind]; try discriminate.
  intros Q. apply loop_keeps in Q. destruct Q as (r & ->). cbn [app].
  split; [reflexivity|]. exists t, (lowest_point t axisZ).
  split; [exact Ot|]. split; [exact Ht|]. split; [apply lowest_in|]. split; [intros w Hw; now apply lowest_ok|reflexivity].
Qed.

(** ** C86 Crash *)

Lemma pick_panics (m : mesh) v : forall fails i cur j, nth_error fails j = Some true -> length m <= i + j ->
  pick_triangle m v i fails cur = Panic.
Proof.
  induction fails as [|b fails IH]; intros i cur [|j] N G; cbn [nth_error] in N; try discriminate.
  - injection N as ->. cbn [pick_triangle]. unfold idx. rewrite (proj2 (nth_error_None m i)) by lia. reflexivity.
  - cbn [pick_triangle]. assert (K : forall c, pick_triangle m v (S i) fails c = Panic) by (intros c; apply (IH _ _ j N); lia).
    destruct b; [|apply K]. destruct (idx m i) as [tt| |] eqn:X; cbn [rbind]; [|reflexivity|].
    + cbv zeta. destruct (_ && _)%bool; apply K.
    + unfold idx in X. destruct (nth_error m i); discriminate.
Qed.

(** The index of a triangle of the part that is left is used for the whole model: if the part
    above the first plane has a leaning triangle beyond the number of triangles of the model,
    Analyze runs out of range. *)
Theorem C86_crash : LtOK A -> forall U (m : mesh) ang fuel, 2 <= fuel -> (forall l, Permutation l (u_ends U l)) ->
  (exists t, overhang m ang t) ->
  (forall P up down, first_plane m ang P -> cutMesh (u_ends U) m P = Ok (up, down) ->
     exists i t, nth_error up i = Some t /\ length m <= i /\ leans ang (pl_n P) t) ->
  analyze fuel U m ang = Panic.
Proof.
  intros L U m ang fuel F HU (t0 & O) H. unfold analyze.
  destruct fuel as [|[|f]]; try lia. cbn [analyze_loop length Nat.ltb Nat.leb orb].
  destruct m as [|x m0] eqn:EM; [destruct O as [[] _]|]. rewrite <- EM in *.
  change (pl_n (ap_plane (AP planeXY false n0))) with (@axisZ A).
  destruct (pick_here m ang axisZ m [] None eq_refl) as (o & E & HO); [intros u []|].
  change (length []) with 0 in E. rewrite E. cbn [rbind].
  destruct o as [t|]; [|exfalso; exact (HO t0 O)]. destruct HO as [Ot Ht].
  set (next := next_plane _ _ _).
  assert (FP : first_plane m ang (ap_plane next)).
  { exists t, (lowest_point t axisZ). split; [exact Ot|]. split; [exact Ht|]. split; [apply lowest_in|].
    split; [intros w Hw; now apply lowest_ok|reflexivity]. }
  destruct (cutMesh_ok (u_ends U) m (ap_plane next) HU) as (up & down & j & us & ds & Ec & _).
  rewrite Ec. cbn [rbind]. destruct (H _ _ _ FP Ec) as (i & u & N & G & LN).
  cbn [app length Nat.ltb Nat.leb orb].
  destruct up as [|y up0] eqn:EU; [destruct i; discriminate|]. rewrite <- EU in *.
  rewrite (pick_panics m _ _ _ _ i); [reflexivity| |exact G].
  unfold colorizeTriangles. rewrite nth_error_map, N. cbn [option_map]. f_equal. exact LN.
Qed.
End Any.

(** Exactly: the first plane stands at a point of an overhang below which no overhang reaches,
    leaning by 60 degrees to the side to which the normal of that overhang points. *)
Theorem C87_exact : forall U (m : list Rtriangle) (ang : R) fuel p ps,
  analyze (A := ArithR) fuel U m ang = Ok (p :: ps) ->
  exists t q, overhang (A := ArithR) m ang t /\ In q [t1 t; t2 t; t3 t] /\ pl_p (ap_plane p) = q /\
    (forall u w, overhang (A := ArithR) m ang u -> In w [t1 u; t2 u; t3 u] -> (pz q <= pz w)%R) /\
    (let a := vx (t_n t) in let b := vy (t_n t) in (0 < a * a + b * b)%R ->
       pl_n (ap_plane p) = rv (sqrt 3 / 2 * a) (sqrt 3 / 2 * b) (1 / 2 * sqrt (a * a + b * b))).
Proof.
  intros U m ang fuel p ps H. apply (C87_first_plane LtOK_R) in H. destruct H as [_ (t & q & Ot & Mt & Iq & Mq & E)].
  assert (D : forall w : Rpoint, dot (p2v w) axisZ = pz w).
  { intros w. unfold dot, p2v, axisZ. cbn [vx vy vz]. rcbn. ring. }
  exists t, q. split; [exact Ot|]. split; [exact Iq|]. split; [rewrite E; reflexivity|]. split.
  - intros u w Ou Iw. specialize (Mt u Ou). unfold t_minZ in Mt. rewrite !D in Mt.
    assert (Q : (pz q <= Rmin (pz (t1 t)) (Rmin (pz (t2 t)) (pz (t3 t))))%R).
    { assert (K : forall w : Rpoint, In w [t1 t; t2 t; t3 t] -> (pz q <= pz w)%R).
      { intros x Ix. specialize (Mq x Ix). rewrite !D in Mq. revert Mq. rcbn. destruct (Rltb_spec (pz x) (pz q)); [discriminate|intros _; lra]. }
      repeat apply Rmin_glb; apply K; cbn; auto. }
    assert (W : (Rmin (pz (t1 u)) (Rmin (pz (t2 u)) (pz (t3 u))) <= pz w)%R).
    { destruct Iw as [<-|[<-|[<-|[]]]]; [apply Rmin_l| |]; (eapply Rle_trans; [apply Rmin_r|]); [apply Rmin_l|apply Rmin_r]. }
    revert Mt. rcbn. match goal with |- Rltb ?x ?y = _ -> _ => destruct (Rltb_spec x y) as [|N]; [discriminate|intros _] end.
    apply Rnot_lt_le in N. eapply Rle_trans; [exact Q|]. eapply Rle_trans; [exact N|exact W].
  - intros a b Hab. rewrite E. replace (t_n t) with (rv a b (vz (t_n t))).
    + exact (proj1 (analyzer_normal q a b (vz (t_n t)) Hab)).
    + unfold a, b. destruct (t_n t); reflexivity.
Qed.

(** ** Examples *)

(** the planes that meet [first_plane], by enumeration *)
Section Enum.
Context {A : Arith}.
Definition overhangs (m : mesh) ang : mesh :=
  filter (fun t => (nltb (angle (t_n t) (vopp axisZ)) (nsub (nofZ 90) ang) &&
    existsb (fun q => negb (nltb (pz q) (nlit 1 100))) [t1 t; t2 t; t3 t])%bool) m.
Lemma overhangs_in m ang t : In t (overhangs m ang) <-> overhang m ang t.
Proof.
  unfold overhangs, overhang, leans. rewrite filter_In, andb_true_iff, existsb_exists.
  split; intros (H1 & H2 & q & H3 & H4); (split; [exact H1|]; split; [exact H2|]; exists q; split; [exact H3|]).
  - now apply negb_true_iff.
  - now apply negb_true_iff.
Qed.
Definition first_planes (m : mesh) ang : list plane :=
  flat_map (fun t => map (fun q => ap_plane (tilted_plane q (t_n t)))
      (filter (fun q => forallb (fun w => negb (nltb (dot (p2v w) axisZ) (dot (p2v q) axisZ))) [t1 t; t2 t; t3 t]) [t1 t; t2 t; t3 t]))
    (let o := overhangs m ang in filter (fun t => forallb (fun u => negb (nltb (t_minZ u axisZ) (t_minZ t axisZ))) o) o).
Lemma first_planes_in m ang P : first_plane m ang P -> In P (first_planes m ang).
Proof.
  intros (t & q & Ot & Mt & Iq & Mq & ->). unfold first_planes. apply in_flat_map. exists t. split.
  - cbv zeta. apply filter_In. split; [now apply overhangs_in|]. apply forallb_forall. intros u Hu. apply negb_true_iff, Mt. now apply overhangs_in.
  - apply in_map_iff. exists q. split; [reflexivity|]. apply filter_In. split; [exact Iq|].
    apply forallb_forall. intros w Hw. apply negb_true_iff. now apply Mq.
Qed.
Definition leans_beyond srt (m : mesh) ang (P : plane) : bool :=
  match cutMesh srt m P with
  | Ok (up, _) => existsb (fun t => nltb (angle (t_n t) (vopp (pl_n P))) (nsub (nofZ 90) ang)) (skipn (length m) up)
  | _ => true
  end.
Lemma leans_beyond_ok srt m ang P up down : leans_beyond srt m ang P = true -> cutMesh srt m P = Ok (up, down) ->
  exists i t, nth_error up i = Some t /\ length m <= i /\ leans ang (pl_n P) t.
Proof.
  unfold leans_beyond. intros H E. rewrite E in H. apply existsb_exists in H. destruct H as (t & I & H).
  apply In_nth_error in I. destruct I as (k & I). exists (length m + k), t. split; [|split; [lia|exact H]].
  rewrite <- I. clear. revert up. induction (length m) as [|n IH]; intros [|x up]; cbn; auto; destruct k; reflexivity.
Qed.
End Enum.

(** a pillar with a drop beside it, 16 triangles, and an angle of 30 degrees *)
Definition AT := ArithF64 elemT.
Definition ptT (x y z : Z) : @point AT := P3 (A := AT) (f64_ofZ x) (f64_ofZ y) (f64_ofZ z).
Definition quadT (a b c d : @point AT) : list (@triangle AT) := [newTriangle a b c; newTriangle a c d].
Definition tetraT (a b c d : @point AT) : list (@triangle AT) :=
  [newTriangle b c d; newTriangle a c b; newTriangle a d c; newTriangle a b d].
Definition boxT (x y z : Z) : list (@triangle AT) :=
  let p (i j k : bool) := ptT (if i then x else 0%Z) (if j then y else 0%Z) (if k then z else 0%Z) in
  let o := false in let l := true in
  quadT (p o o o) (p o l o) (p l l o) (p l o o) ++ quadT (p o o l) (p l o l) (p l l l) (p o l l) ++
  quadT (p o o o) (p l o o) (p l o l) (p o o l) ++ quadT (p l o o) (p l l o) (p l l l) (p l o l) ++
  quadT (p l l o) (p o l o) (p o l l) (p l l l) ++ quadT (p o l o) (p o o o) (p o o l) (p o l l).
Definition pillar : list (@triangle AT) := boxT 10 10 100 ++ tetraT (ptT 14 5 50) (ptT 12 2 52) (ptT 18 3 53) (ptT 13 9 52).

Definition crash_check srt (m : list (@triangle AT)) ang : bool :=
  (negb (Nat.eqb (length (overhangs m ang)) 0) && forallb (leans_beyond srt m ang) (first_planes m ang))%bool.
Lemma crash_check_ok srt m ang : crash_check srt m ang = true -> (exists t, overhang m ang t) /\
  forall P up down, first_plane m ang P -> cutMesh srt m P = Ok (up, down) ->
     exists i t, nth_error up i = Some t /\ length m <= i /\ leans ang (pl_n P) t.
Proof.
  unfold crash_check. intros H. apply andb_true_iff in H. destruct H as [H1 H2]. split.
  - destruct (overhangs m ang) as [|t l] eqn:Q; [discriminate|]. exists t. apply overhangs_in. rewrite Q. now left.
  - intros P up down HP HC. rewrite forallb_forall in H2. eapply leans_beyond_ok; [|exact HC]. apply H2. now apply first_planes_in.
Qed.
Lemma pillar_check : crash_check (u_ends (env0 (A := AT))) pillar (f64_ofZ 30) = true.
Proof. vm_compute. reflexivity. Qed.

Example C86_hypotheses : (exists t, overhang pillar (f64_ofZ 30) t) /\
  forall P up down, first_plane pillar (f64_ofZ 30) P -> cutMesh (u_ends (env0 (A := AT))) pillar P = Ok (up, down) ->
     exists i t, nth_error up i = Some t /\ length pillar <= i /\ leans (A := AT) (f64_ofZ 30) (pl_n P) t.
Proof. exact (crash_check_ok _ _ _ pillar_check). Qed.

(** the claim "Analyze never crashes" is false in float64 *)
Theorem C86_analyze_total_refuted : exists E (U : @env (ArithF64 E)) m ang, legal U /\ forall fuel, 2 <= fuel -> analyze fuel U m ang = Panic.
Proof.
  exists elemT, (env0 (A := AT)), pillar, (f64_ofZ 30). split; [apply env0_legal|]. intros fuel F.
  destruct C86_hypotheses as [H1 H2].
  apply (C86_crash (A := AT)); [apply LtOK_F64|exact F|apply env0_legal|exact H1|exact H2].
Qed.

(** C87: the drop above a plate on the bed: there is a plane, and it goes through (14, 5, 50) *)
Example ex_first : match analyze (A := AT) 7 env0 (repeat (newTriangle (A := AT) (ptT 0 0 0) (ptT 0 9 0) (ptT 9 0 0)) 20 ++
      tetraT (ptT 14 5 50) (ptT 12 2 52) (ptT 18 3 53) (ptT 13 9 52)) (f64_ofZ 30) with
  | Ok (p :: _) => String.eqb (String.substring 0 24 (ap_string p)) "X14.000 Y5.000 Z50.000 T"
  | _ => false
  end = true.
Proof. vm_compute. reflexivity. Qed.

Print Assumptions C86_crash.
Print Assumptions C86_analyze_total_refuted.
Print Assumptions C87_first_plane.
Print Assumptions C87_exact.
