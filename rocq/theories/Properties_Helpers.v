(** * Properties C37-C44: cutting a mesh, simplifying a line, overhangs, outlines

    Vocabulary: [HelperClaims] (and [GeomSpec], [PathClaims]). *)
From Coq Require Import ZArith Reals Lra Lia List Bool Permutation PeanoNat.
From Flocq Require Import IEEE754.BinarySingleNaN.
From Verif Require Import Arith ArithR ArithF64 Prim Path PathClaims JoinProofs GeomSpec GeomProofs MeshProofs
  Helpers HelperClaims HelperProofs HelperProofs2.
Import ListNotations.
Close Scope R_scope.
Close Scope Z_scope.
Close Scope num_scope.

(** ** C37-C39 CutMesh *)

Section Any.
Context {A : Arith}.

(** Every triangle contributes its own pieces, in order; caps come after. *)
Theorem C37_cut_pieces : forall srt (m : mesh) p, (forall l, Permutation l (srt l)) ->
  exists us ds cu cd, cutMesh srt m p = Ok (us ++ cu, ds ++ cd) /\ pieces p m us ds.
Proof.
  intros srt m p Hs. destruct (cutMesh_ok srt m p Hs) as (up & down & j & us & ds & H1 & _ & H3 & -> & ->).
  do 4 eexists. split; [exact H1|exact H3].
Qed.

Definition wholly (b : bool) (p : plane) (t : triangle) : bool :=
  eqb (pointInFront p (t1 t)) b && eqb (pointInFront p (t2 t)) b && eqb (pointInFront p (t3 t)) b.

(** Whole triangles stay whole, on their side, in their order. *)
Theorem C37_whole_kept : forall srt (m : mesh) p up down, (forall l, Permutation l (srt l)) ->
  cutMesh srt m p = Ok (up, down) ->
  subseq (filter (wholly true p) m) up /\ subseq (filter (wholly false p) m) down.
Proof.
  intros srt m p up down Hs H. destruct (C37_cut_pieces srt m p Hs) as (us & ds & cu & cd & E & P).
  rewrite H in E. injection E as -> ->. clear H.
  assert (N : forall {T} (l : list T), subseq [] l) by (intros T l; apply subseq_nil).
  assert (AP : forall {T} (a b c d : list T), subseq a b -> subseq c d -> subseq (a ++ c) (b ++ d)).
  { intros T a b c d S. induction S; cbn [app]; intros K; auto; constructor; auto. }
  assert (G : subseq (filter (wholly true p) m) us /\ subseq (filter (wholly false p) m) ds).
  { induction P as [|t m u d us ds Q P [IH1 IH2]]; [split; constructor|]. cbn [filter].
    assert (Sp : forall q r s : point, (q, r, s) = (t1 t, t2 t, t3 t) \/ (q, r, s) = (t2 t, t3 t, t1 t) \/ (q, r, s) = (t3 t, t1 t, t2 t) ->
       pointInFront p r = negb (pointInFront p q) -> pointInFront p s = negb (pointInFront p q) ->
       wholly true p t = false /\ wholly false p t = false).
    { unfold wholly. intros q r s [[= -> -> ->]|[[= -> -> ->]|[= -> -> ->]]] -> ->;
        destruct (pointInFront p _); cbn; auto using andb_false_r. }
    destruct Q as [H1 H2 H3|H1 H2 H3|H1 H2|q r s l a b c u d H1 H2 H3 H4 H5 H6].
    - assert (wholly true p t = true /\ wholly false p t = false) as [-> ->] by (unfold wholly; rewrite H1, H2, H3; auto).
      split; [now apply sub_keep|exact IH2].
    - assert (wholly true p t = false /\ wholly false p t = true) as [-> ->] by (unfold wholly; rewrite H1, H2, H3; auto).
      split; [exact IH1|now apply sub_keep].
    - assert (wholly true p t = false /\ wholly false p t = false) as [-> ->].
      { unfold wholly. destruct (pointInFront p (t1 t)), (pointInFront p (t2 t)), (pointInFront p (t3 t)); cbn; auto; exfalso; auto. }
      split; assumption.
    - destruct (Sp q r s H1 H2 H3) as [-> ->]. split.
      + apply (AP _ [] u _ _ (N _ u) IH1).
      + apply (AP _ [] d _ _ (N _ d) IH2). }
  destruct G as [G1 G2]. rewrite <- (app_nil_r (filter _ m)) at 1. rewrite <- (app_nil_r (filter (wholly false p) m)).
  split; apply AP; auto.
Qed.

(** C39: both halves get the fan of every contour of the section, with opposite winding. *)
Theorem C39_caps : forall srt (m : mesh) p d, (forall l, Permutation l (srt l)) ->
  exists us ds cu cd joined,
    cutMesh srt m p = Ok (us ++ cu, ds ++ cd) /\ pieces p m us ds /\
    joinPaths3AndMinimize srt (section_lines p m) = Ok joined /\
    Forall2 (fun f c => let '(x, y, z) := f in
               c = (newTriangle x y z, newTriangle z y x) \/ c = (newTriangle z y x, newTriangle x y z))
            (flat_map (fun c => fan c d) joined) (combine cu cd) /\ length cu = length cd.
Proof.
  intros srt m p d Hs. destruct (cutMesh_ok srt m p Hs) as (up & down & j & us & ds & H1 & H2 & H3 & -> & ->).
  exists us, ds, (map fst (flat_map (cap_path p) j)), (map snd (flat_map (cap_path p) j)), j.
  split; [exact H1|]. split; [exact H3|]. split; [exact H2|]. split; [|now rewrite !map_length].
  assert (C : forall l : list (triangle * triangle), combine (map fst l) (map snd l) = l).
  { induction l as [|[x y] l IH]; cbn; [reflexivity|]. now rewrite IH. }
  rewrite C. clear. induction j as [|c j IH]; cbn [flat_map]; [constructor|].
  apply Forall2_app; [|exact IH]. rewrite (cap_path_fan p c d). induction (fan c d) as [|[[x y] z] l IHl]; cbn [map]; constructor; auto.
  cbn [fst snd]. unfold cap_pair. destruct (codirected _ _); auto.
Qed.

Corollary C39_same_count : forall srt (m : mesh) p, (forall l, Permutation l (srt l)) ->
  exists us ds cu cd joined, cutMesh srt m p = Ok (us ++ cu, ds ++ cd) /\
    joinPaths3AndMinimize srt (section_lines p m) = Ok joined /\
    length cu = list_sum (map (fun c : path => length c - 2) joined) /\ length cd = length cu.
Proof.
  intros srt m p Hs. destruct (C39_caps srt m p originPoint Hs) as (us & ds & cu & cd & j & H1 & _ & H3 & H4 & H5).
  exists us, ds, cu, cd, j. split; [exact H1|]. split; [exact H3|]. split; [|congruence].
  assert (FL : forall {S T} (R : S -> T -> Prop) l l', Forall2 R l l' -> length l = length l') by (induction 1; cbn; congruence).
  apply FL in H4. rewrite combine_length, <- H5, Nat.min_id in H4. rewrite <- H4. clear.
  induction j as [|c j IH]; [reflexivity|]. cbn [flat_map map]. rewrite app_length, IH.
  unfold fan. rewrite map_length, seq_length. reflexivity.
Qed.

Lemma cut_lost p (t : triangle) : straddles p t = true -> intersectTriangle p t = None -> cut_one p t = ([], [], []).
Proof.
  unfold straddles, cut_one. cbn [existsb filter]. intros S I. rewrite I.
  destruct (pointInFront p (t1 t)), (pointInFront p (t2 t)), (pointInFront p (t3 t)); try discriminate; reflexivity.
Qed.

(** C38: a straddling triangle without a section line disappears without trace. *)
Theorem C38_straddling_lost : forall srt (m1 m2 : mesh) p t, (forall l, Permutation l (srt l)) ->
  straddles p t = true -> intersectTriangle p t = None ->
  cutMesh srt (m1 ++ t :: m2) p = cutMesh srt (m1 ++ m2) p.
Proof.
  intros srt m1 m2 p t Hs S I.
  assert (E : forall m : mesh, cutMesh srt m p =
    rbind (joinPaths3AndMinimize srt (flat_map snd (map (cut_one p) m))) (fun joined =>
      let caps := flat_map (cap_path p) joined in
      Ok (flat_map (fun x => fst (fst x)) (map (cut_one p) m) ++ map fst caps,
          flat_map (fun x => snd (fst x)) (map (cut_one p) m) ++ map snd caps))).
  { intros [|x m]; [|reflexivity]. cbn [map flat_map]. rewrite join3_nil by exact Hs. reflexivity. }
  rewrite !E, !map_app, !flat_map_app. cbn [map flat_map]. rewrite (cut_lost p t S I). reflexivity.
Qed.

(** Conversely every other straddling triangle leaves exactly three pieces. *)
Theorem C38_straddling_split : forall p (t : triangle) l, straddles p t = true -> intersectTriangle p t = Some l ->
  exists u d, (length u = 1 /\ length d = 2 \/ length u = 2 /\ length d = 1) /\
  forall srt (m1 m2 : mesh), (forall l, Permutation l (srt l)) ->
    exists u1 u2 d1 d2, cutMesh srt (m1 ++ t :: m2) p = Ok (u1 ++ u ++ u2, d1 ++ d ++ d2) /\
      exists u3 d3, cutMesh srt m1 p = Ok (u1 ++ u3, d1 ++ d3).
Proof.
  intros p t l S I. exists (fst (fst (cut_one p t))), (snd (fst (cut_one p t))). split.
  - pose proof (cut_one_piece p t) as P. unfold straddles in S. cbn [existsb] in S.
    destruct P as [H1 H2 H3|H1 H2 H3|H1 H2|q r s l' a b c u d H1 H2 H3 H4 H5 H6].
    + rewrite H1, H2, H3 in S. discriminate.
    + rewrite H1, H2, H3 in S. discriminate.
    + congruence.
    + destruct (pointInFront p q); injection H6 as -> ->; cbn; auto.
  - intros srt m1 m2 Hs.
    destruct (cutMesh_ok srt (m1 ++ t :: m2) p Hs) as (up & down & j & us & ds & H1 & _ & _ & _ & _).
    destruct (join_pairs srt (section_lines p (m1 ++ t :: m2)) Hs (section_nonempty p _)) as (j1 & J1).
    destruct (join_pairs srt (section_lines p m1) Hs (section_nonempty p _)) as (j2 & J2).
    rewrite cutMesh_def by (destruct m1; discriminate). rewrite J1. cbn [rbind]. cbv zeta.
    rewrite !map_app, !flat_map_app. cbn [map flat_map]. rewrite <- !app_assoc.
    do 4 eexists. split; [reflexivity|]. destruct m1 as [|x m1].
    + exists [], []. reflexivity.
    + rewrite cutMesh_def by discriminate. rewrite J2. cbn [rbind]. cbv zeta. do 2 eexists. reflexivity.
Qed.
End Any.

Local Open Scope R_scope.

(** A corner on the plane and the rest strictly behind: lost, whatever the mesh around it. *)
Theorem C38_touching_lost : forall srt (m1 m2 : Rmesh) (p : Rplane) (t : Rtriangle) a b c,
  (forall l, Permutation l (srt l)) -> corner_of t a b c -> sd p a = 0 -> sd p b < 0 -> sd p c < 0 ->
  cutMesh srt (m1 ++ t :: m2) p = cutMesh srt (m1 ++ m2) p.
Proof.
  intros srt m1 m2 p t a b c Hs Hc Ha Hb Hd. apply C38_straddling_lost; [exact Hs| |].
  - assert (Fa : pointInFront p a = true) by (apply front_R; lra).
    assert (Fb : pointInFront p b = false) by (destruct (pointInFront p b) eqn:E; [apply front_R in E; lra|reflexivity]).
    assert (Fc : pointInFront p c = false) by (destruct (pointInFront p c) eqn:E; [apply front_R in E; lra|reflexivity]).
    unfold straddles. cbn [existsb].
    destruct Hc as [[= -> -> ->]|[[= -> -> ->]|[= -> -> ->]]]; rewrite Fa, Fb, Fc; reflexivity.
  - apply (touching_nil p t a b c Hc Ha). nra.
Qed.

(** A mesh cut for real: one triangle across the plane z = 0, one above, one below. *)
Example C37_example : exists (m : list (@triangle (ArithF64 elem0))) p, (forall l : list (@sortp (ArithF64 elem0)), Permutation l ((fun x => x) l)) /\
  match cutMesh (fun x => x) m p with Ok (u, d) => Nat.eqb (length u) 3 && Nat.eqb (length d) 2 | _ => false end = true.
Proof.
  pose (q := fun x y z => @P3 (ArithF64 elem0) (nofZ x) (nofZ y) (nofZ z)).
  exists [newTriangle (q 0 0 1) (q 1 0 1) (q 0 1 1); newTriangle (q 0 0 (-1)) (q 1 0 1) (q 0 1 1); newTriangle (q 0 0 (-1)) (q 1 0 (-1)) (q 0 1 (-1))]%Z.
  exists (Pl (q 0 0 0)%Z (@V3 (ArithF64 elem0) n0 n0 n1)). split; [intros; apply Permutation_refl|]. vm_compute. reflexivity.
Qed.

Example C38_touching_example : exists (p : Rplane) (t : Rtriangle) a b c,
  corner_of t a b c /\ sd p a = 0 /\ sd p b < 0 /\ sd p c < 0 /\ t_n t <> Vzero.
Proof.
  exists (Pl (P3 (A := ArithR) 0 0 0) (V3 (A := ArithR) 0 0 1)).
  exists (newTriangle (P3 (A := ArithR) 0 0 (-1)%R) (P3 (A := ArithR) 1 0 (-1)%R) (P3 (A := ArithR) 0 0 0)).
  eexists _, _, _. split; [right; right; reflexivity|]. cbn [newTriangle t1 t2 t3 t_n].
  unfold sd; pt; cbn [px py pz pl_p pl_n vx vy vz]. split; [lra|]. split; [lra|]. split; [lra|].
  intros E. apply (f_equal (fun v : Rvector => vy v)) in E. revert E. unfold Vzero, cross, vectorTo. cbn [vx vy vz px py pz]. rcbn. lra.
Qed.

(** The normals of a pair of caps are opposite; the upper one does not point to the front. *)
Theorem C39_cap_normals : forall (p : Rplane) x y z,
  let '(u, d) := cap_pair p x y z in
  t_n u = Vmul (-1) (t_n d) /\ Vdot (t_n u) (pl_n p) <= 0 /\ 0 <= Vdot (t_n d) (pl_n p).
Proof.
  intros p x y z. unfold cap_pair.
  destruct (new_area x y z) as [_ E1]. destruct (new_area z y x) as [_ E2].
  unfold codirected. rewrite E1. change (dot (varea x y z) (pl_n p)) with (Vdot (varea x y z) (pl_n p)).
  assert (M : forall u, Vdot (Vmul (-1) u) (pl_n p) = - Vdot u (pl_n p)) by (intros u; unfold Vdot, Vmul; cbn [vx vy vz]; rcbn; ring).
  assert (K : Vmul (-1) (Vmul (-1) (varea x y z)) = varea x y z) by (apply V_ext; unfold Vmul; cbn [vx vy vz]; rcbn; ring).
  rcbn. destruct (Rleb_spec 0 (Vdot (varea x y z) (pl_n p))); rewrite E1, E2, (area_rev x y z), ?M, ?K; (split; [reflexivity|lra]).
Qed.

(** ** C40 Splitting a triangle *)

(** a, b, c: the vertices from the separated corner on, in cyclic order; the cut
    goes from the point at s on ab to the point at u on ac. *)
Theorem C40_split : forall (t : Rtriangle) a b c s u ln x y z,
  corner_of t a b c -> ~ closer (1 / 10 ^ 6) a b -> ~ closer (1 / 10 ^ 6) a c ->
  0 <= s <= 1 -> 0 <= u <= 1 ->
  ln = L2 (along a c u) (along a b s) \/ (ln = L2 (along a b s) (along a c u) /\ 1 / 10 ^ 6 <= u * Vlen (varea a b c)) ->
  splitOnThree a ln t = (x, y, z) ->
  (exists k1 k2 k3, 0 <= k1 /\ 0 <= k2 /\ 0 <= k3 /\ k1 + k2 + k3 = 1 /\
     tri_area x = Vmul k1 (tri_area t) /\ tri_area y = Vmul k2 (tri_area t) /\ tri_area z = Vmul k3 (tri_area t)) /\
  Vsum [tri_area x; tri_area y; tri_area z] = tri_area t /\
  (* the corner piece is the corner with the two cut points, the others have the far edge *)
  (t1 x, t2 x, t3 x) = (a, along a b s, along a c u) /\ (t1 y, t2 y, t3 y) = (along a b s, b, c) /\
  (t1 z, t2 z, t3 z) = (c, along a c u, along a b s).
Proof.
  intros t a b c s u ln x y z Hc Nb Nc Hs Hu Hl E.
  rewrite (split_ok t a b c s u ln Hc Nb Nc) in E by (rewrite Rabs_pos_eq by lra; exact Hl).
  injection E as <- <- <-.
  assert (T : tri_area t = varea a b c).
  { unfold tri_area. destruct Hc as [[= -> -> ->]|[[= -> -> ->]|[= -> -> ->]]]; [reflexivity| |]; va. }
  rewrite T. unfold tri_area. cbn [newTriangle t1 t2 t3].
  rewrite area_corner, area_quad1, area_quad2. split; [|split; [|auto]].
  - exists (s * u), (1 - s), (s * (1 - u)). repeat split; try lra; apply Rmult_le_pos; lra.
  - apply V_ext; unfold Vsum, fold_right, Vadd, Vmul, Vzero; cbn [vx vy vz]; rcbn; ring.
Qed.

Example C40_example : exists (t : Rtriangle) a b c s u ln,
  corner_of t a b c /\ ~ closer (1 / 10 ^ 6) a b /\ ~ closer (1 / 10 ^ 6) a c /\ 0 <= s <= 1 /\ 0 <= u <= 1 /\
  ln = L2 (along a b s) (along a c u) /\ 1 / 10 ^ 6 <= u * Vlen (varea a b c).
Proof.
  exists (newTriangle (P3 (A := ArithR) 0 0 0) (P3 (A := ArithR) 2 0 0) (P3 (A := ArithR) 0 2 0)).
  eexists _, _, _, (/ 2), (/ 2), _. split; [left; reflexivity|].
  cbn [newTriangle t1 t2 t3]. unfold closer; pt; cbn [px py pz].
  split; [intros (H & _ & _); apply Rabs_def2 in H; lra|]. split; [intros (_ & H & _); apply Rabs_def2 in H; lra|].
  split; [lra|]. split; [lra|]. split; [reflexivity|].
  assert (V : Vlen (varea (P3 (A := ArithR) 0 0 0) (P3 (A := ArithR) 2 0 0) (P3 (A := ArithR) 0 2 0)) = 4).
  { unfold Vlen, Vdot, varea; pt; cbn [px py pz vx vy vz]. rcbn. replace (_ + _) with (4 * 4) by ring. apply sqrt_square. lra. }
  rewrite V. lra.
Qed.

(** Without any assumption on the cut points (they are rounded in practice) the
    three pieces enclose the pentagon a, l1, b, c, l2. *)
Theorem C40_split_any_points : forall (a b c l1 l2 : Rpoint),
  Vsum [tri_area (newTriangle a l1 l2); tri_area (newTriangle l1 b c); tri_area (newTriangle c l2 l1)] =
  Vadd (varea a b c) (Vadd (varea a l1 b) (varea a c l2)).
Proof. intros a b c l1 l2. unfold tri_area. cbn [newTriangle t1 t2 t3]. va. Qed.

(** Below the threshold of AlmostZero the cut points are exchanged: the corner
    piece is turned over and the sum of areas is not that of the triangle. *)
Theorem C40_small_refuted : forall (t : Rtriangle) a b c s u,
  corner_of t a b c -> ~ closer (1 / 10 ^ 6) a b -> ~ closer (1 / 10 ^ 6) a c ->
  0 <= u -> u * Vlen (varea a b c) < 1 / 10 ^ 6 ->
  exists x y z, splitOnThree a (L2 (along a b s) (along a c u)) t = (x, y, z) /\
    tri_area x = Vmul (- (s * u)) (tri_area t) /\
    Vsum [tri_area x; tri_area y; tri_area z] = Vmul (1 - s - u) (tri_area t).
Proof.
  intros t a b c s u Hc Nb Nc Hu Hs. do 3 eexists. split; [apply (split_small t a b c s u Hc Nb Nc Hu Hs)|].
  assert (T : tri_area t = varea a b c).
  { unfold tri_area. destruct Hc as [[= -> -> ->]|[[= -> -> ->]|[= -> -> ->]]]; [reflexivity| |]; va. }
  rewrite T. unfold tri_area. cbn [newTriangle t1 t2 t3]. split; va.
Qed.

Example C40_small_example : exists (t : Rtriangle) a b c s u,
  corner_of t a b c /\ ~ closer (1 / 10 ^ 6) a b /\ ~ closer (1 / 10 ^ 6) a c /\ 0 < s < 1 /\ 0 < u < 1 /\
  u * Vlen (varea a b c) < 1 / 10 ^ 6 /\ varea a b c <> Vzero.
Proof.
  exists (newTriangle (P3 (A := ArithR) 0 0 0) (P3 (A := ArithR) (1 / 10 ^ 4)%R 0 0) (P3 (A := ArithR) 0 (1 / 10 ^ 4)%R 0)).
  eexists _, _, _, (/ 2), (/ 2). split; [left; reflexivity|].
  cbn [newTriangle t1 t2 t3]. unfold closer; pt; cbn [px py pz].
  split; [intros (H & _ & _); apply Rabs_def2 in H; lra|]. split; [intros (_ & H & _); apply Rabs_def2 in H; lra|].
  split; [lra|]. split; [lra|].
  set (d := 1 / 10 ^ 4). assert (D : 0 < d) by (unfold d; lra).
  assert (V : Vlen (varea (P3 (A := ArithR) 0 0 0) (P3 (A := ArithR) d 0 0) (P3 (A := ArithR) 0 d 0)) = d * d).
  { unfold Vlen, Vdot, varea; pt; cbn [px py pz vx vy vz]. rcbn. replace (_ + _) with ((d * d) * (d * d)) by ring.
    apply sqrt_square. apply Rmult_le_pos; lra. }
  rewrite V. split; [unfold d; lra|].
  intros E. apply (f_equal (fun v : Rvector => vz v)) in E. revert E. unfold varea, Vzero; pt; cbn [px py pz vx vy vz]. rcbn.
  intros E. assert (0 < d * d) by (apply Rmult_lt_0_compat; lra). lra.
Qed.

(** ** C41 SimplifyLine *)

(** any arithmetic: ends kept, a subsequence, terminates, provided epsilon is not negative *)
Theorem C41_simplify_any : forall (A : Arith) (eps : num) (ps : list point), nltb eps n0 = false -> (2 <= length ps)%nat ->
  exists out, simplifyLine (length ps) ps eps = Ok out /\ subseq out ps /\
    hd_error out = hd_error ps /\ (forall d, last out d = last ps d).
Proof.
  intros A eps ps He Hl. destruct (simplify_ok (fun _ _ _ => True) eps He) with (fuel := length ps) (ps := ps) as (out & E & T).
  - intros. apply Forall_forall. auto.
  - split; [exact Hl|apply le_n].
  - exists out. split; [exact E|]. split; [eapply thinned_subseq, T|]. split.
    + destruct (thinned_hd _ _ _ T) as (a & l' & o' & -> & ->). reflexivity.
    + intros d. symmetry. apply (thinned_last _ _ _ d T).
Qed.

Theorem C41_simplify : forall (eps : R) (ps : list Rpoint), 0 <= eps -> (2 <= length ps)%nat ->
  exists out, simplifyLine (length ps) ps eps = Ok out /\ thinned (near_line eps) ps out.
Proof. exact simplify_exact. Qed.

(** the corner cases *)
Theorem C41_short : forall (A : Arith) fuel (eps : num) a, nltb eps n0 = false ->
  simplifyLine (S fuel) [] eps = Panic /\ simplifyLine (S fuel) [a] eps = Ok [a; a].
Proof. intros A fuel eps a H. split; [reflexivity|]. now apply simplify_one. Qed.

(** more recursion depth changes nothing *)
Theorem C41_negative_diverges : forall (eps : R) fuel (ps : list Rpoint), eps < 0 -> ps <> [] ->
  simplifyLine fuel ps eps = Diverge.
Proof. intros eps fuel ps H. now apply simplify_negative. Qed.

(** The bound is on the distance to the infinite line: from the kept *segment* a
    dropped point can be arbitrarily far, even with epsilon 0. *)
Theorem C41_segment_refuted : forall K : R, 0 <= K -> exists (a q b : Rpoint),
  simplifyLine 3 [a; q; b] (0 : @num ArithR) = Ok [a; b] /\ forall r, on_seg a b r -> K * K <= dist2 q r.
Proof.
  intros K HK. exists (P3 (A := ArithR) 0 0 0), (P3 (A := ArithR) (K + 1)%R 0 0), (P3 (A := ArithR) 1 0 0). split.
  - cbn [simplifyLine last far_scan firstn skipn].
    assert (D : distanceToLine (P3 (A := ArithR) (K + 1)%R 0 0) (P3 (A := ArithR) 0 0 0) (P3 (A := ArithR) 1 0 0) = 0).
    { unfold distanceToLine. assert (projectOnLine (P3 (A := ArithR) (K + 1)%R 0 0) (P3 (A := ArithR) 0 0 0) (P3 (A := ArithR) 1 0 0) = P3 (A := ArithR) (K + 1)%R 0 0) as ->.
      { unfold projectOnLine, normalize, vlen, vlen2, vectorTo, pshift, vscale, dot. cbn [px py pz vx vy vz]. rcbn.
        replace ((1 - 0) * (1 - 0) + (0 - 0) * (0 - 0) + (0 - 0) * (0 - 0)) with 1 by ring. rewrite sqrt_1.
        assert (Reqb 1 0 = false) as -> by (apply Reqb_false; lra). cbn [vx vy vz]. f_equal; lra. }
      rewrite dist_sq. unfold dist2. replace (_ + _) with 0 by ring. apply sqrt_0. }
    rewrite D. rcbn. assert (Rltb 0 0 = false) as -> by (apply Rltb_false; lra). cbn [fst snd].
    assert (Rltb 0 0 = false) as -> by (apply Rltb_false; lra). reflexivity.
  - intros r (t & Ht & ->). unfold dist2, along; pt; cbn [px py pz]. rcbn.
    replace (_ + _) with ((K + 1 - t) * (K + 1 - t)) by ring. apply Rmult_le_compat; lra.
Qed.

Example C41_example : exists ps : list Rpoint, (2 <= length ps)%nat /\ 0 <= 1.
Proof. exists [P3 (A := ArithR) 0 0 0; P3 (A := ArithR) 1 2 0; P3 (A := ArithR) 3 0 0]. cbn. split; [lia|lra]. Qed.

(** ** C42 Overhangs *)

(** FilterTrianglesByColor returns exactly the flagged triangles, in order *)
Theorem C42_filter : forall (A : Arith) (m : mesh) ang v,
  exists f : triangle -> bool, colorizeTriangles m ang v = map f m /\ filterTrianglesByColor m ang v = filter f m.
Proof.
  intros A m ang v. exists (fun t => nltb (angle (t_n t) (vopp v)) (nsub (nofZ 90) ang)). split; [reflexivity|].
  unfold filterTrianglesByColor, colorizeTriangles. induction m as [|t m IH]; [reflexivity|]. cbn [map combine filter fst].
  destruct (nltb _ _); cbn [map snd]; [f_equal|]; exact IH.
Qed.

(** The flag in terms of dot product and lengths: the normal makes an angle less
    than 90-ang degrees with the direction opposite to v. *)
Theorem C42_colorize : forall (m : Rmesh) (ang : R) (v : Rvector),
  v <> Vzero -> Forall (fun t => t_n t <> Vzero) m -> 0 <= 90 - ang <= 180 ->
  exists f : Rtriangle -> bool,
    Forall (fun t => f t = true <-> Vlen (t_n t) * Vlen v * cos ((90 - ang) * PI / 180) < - Vdot (t_n t) v) m /\
    colorizeTriangles m ang v = map f m /\ filterTrianglesByColor m ang v = filter f m.
Proof.
  intros m ang v Hv Hm Ha. destruct (C42_filter ArithR m ang v) as (f & E1 & E2). exists f.
  split; [|split; assumption]. clear E2.
  unfold colorizeTriangles in E1. induction Hm as [|t m Ht Hm IH]; cbn [map] in E1; constructor; injection E1 as E1 E3; [|exact (IH E3)].
  rewrite <- E1.
  assert (Hn : vopp v <> Vzero).
  { intros E. apply Hv. destruct v as [x y z]. unfold vopp, Vzero in *. cbn [vx vy vz] in *.
    pose proof (f_equal (fun w : Rvector => vx w) E) as F1. pose proof (f_equal (fun w : Rvector => vy w) E) as F2.
    pose proof (f_equal (fun w : Rvector => vz w) E) as F3. cbn [vx vy vz] in *. revert F1 F2 F3. rcbn. intros. f_equal; rcbn; lra. }
  assert (L : Vlen (vopp v) = Vlen v) by (unfold Vlen, Vdot, vopp; cbn [vx vy vz]; rcbn; f_equal; ring).
  assert (D : Vdot (t_n t) (vopp v) = - Vdot (t_n t) v) by (unfold Vdot, vopp; cbn [vx vy vz]; rcbn; ring).
  rewrite <- D, <- L, <- (angle_lt (t_n t) (vopp v) (90 - ang) Ht Hn Ha). rcbn. unfold nofZ. rcbn. apply Rltb_true.
Qed.


Example C42_example : exists (m : Rmesh) (v : Rvector), v <> Vzero /\ Forall (fun t => t_n t <> Vzero) m /\ m <> [] /\ 0 <= 90 - 30 <= 180.
Proof.
  exists [newTriangle (P3 (A := ArithR) 0 0 0) (P3 (A := ArithR) 1 0 0) (P3 (A := ArithR) 0 1 0)], (V3 (A := ArithR) 0 0 1).
  assert (N : forall z, z <> 0 -> forall x y, V3 (A := ArithR) x y z <> Vzero).
  { intros z Hz x y E. apply Hz. apply (f_equal (fun w : Rvector => vz w)) in E. exact E. }
  split; [apply N; lra|]. split; [|split; [discriminate|lra]].
  constructor; [|constructor]. unfold newTriangle, cross, vectorTo. cbn [t_n px py pz vx vy vz]. apply N. rcbn. lra.
Qed.

(** ** C43 Angle *)

Theorem C43_angle_exact : forall u v : Rvector,
  angle u v = angle v u /\ 0 <= angle u v <= 180 /\
  (u <> Vzero -> v <> Vzero -> Vlen u * Vlen v * cos (angle u v * PI / 180) = Vdot u v) /\
  (forall k, u <> Vzero -> 0 < k -> angle u (Vmul (- k) u) = 180).
Proof.
  intros u v. split; [apply angle_sym|]. split; [apply angle_range|]. split; [|intros; now apply angle_opposite].
  intros Hu Hv. rewrite angle_R by assumption. pose proof (cos_range u v Hu Hv) as C. apply Vlen_pos in Hu, Hv.
  replace (acos (Vdot u v / (Vlen u * Vlen v)) * 180 / PI * PI / 180) with (acos (Vdot u v / (Vlen u * Vlen v)))
    by (field; apply PI_neq0).
  rewrite cos_acos by exact C. field. lra.
Qed.

(** In float64, whatever math.Acos is: the angle between (1,1,1) and its exact
    opposite is 0, not 180. *)
Theorem C43_opposite_zero_refuted : forall E, exists v : @vector (ArithF64 E),
  neqb (angle v (vopp v)) n0 = true.
Proof. intros E. exists (@V3 (ArithF64 E) n1 n1 n1). vm_compute. reflexivity. Qed.

(** Hence a triangle facing exactly along the print direction counts as an
    overhang (default angle 30). *)
Theorem C43_facing_up_flagged_refuted : forall E, exists (t : @triangle (ArithF64 E)) v,
  t = newTriangle (t1 t) (t2 t) (t3 t) /\
  pt_eqb (v2p (t_n t)) (v2p v) = true /\ colorizeTriangles [t] (nofZ 30) v = [true].
Proof.
  intros E.
  exists (@newTriangle (ArithF64 E) (P3 n1 n0 n0) (P3 n0 n1 n0) (P3 n0 n0 n1)), (@V3 (ArithF64 E) n1 n1 n1).
  split; [reflexivity|]. split; vm_compute; reflexivity.
Qed.

(** ** C44 Outlines *)

Theorem C44_undoubled : forall (A : Arith), EqOK A -> forall ts : list triangle, Forall self_equal (vertices ts) ->
  makeUndoubledLines ts = filter (fun e => Nat.eqb (occ e (edges ts)) 1) (edges ts).
Proof.
  intros A EQ ts H. unfold makeUndoubledLines. change (flat_map tri_edges ts) with (edges ts).
  apply (undouble_spec (edges ts) []). clear -H. induction ts as [|t ts IH]; [constructor|].
  unfold vertices in H. cbn [flat_map app] in H. inversion H as [|? ? H1 H']; subst. inversion H' as [|? ? H2 H'']; subst. inversion H'' as [|? ? H3 H''']; subst.
  unfold edges. cbn [flat_map app]. repeat apply Forall_cons; cbn [lp1 lp2]; auto.
Qed.

Theorem C44_internal_deleted : forall (A : Arith), EqOK A -> forall ts : list triangle,
  (forall e, occ e (deleteInternalLines ts) = Nat.modulo (occ e (edges ts)) 2) /\ incl (deleteInternalLines ts) (edges ts).
Proof. intros A EQ ts. apply (delete_spec (edges ts)). Qed.

(** On a surface where every edge belongs to one or two triangles both are the border. *)
Corollary C44_manifold_same : forall (A : Arith), EqOK A -> forall ts : list triangle, Forall self_equal (vertices ts) ->
  (forall e, occ e (edges ts) <= 2)%nat ->
  forall e, self_equal (lp1 e) -> self_equal (lp2 e) -> occ e (makeUndoubledLines ts) = occ e (deleteInternalLines ts).
Proof.
  intros A EQ ts Hv Hm e E1 E2. rewrite (proj1 (C44_internal_deleted A EQ ts)), (C44_undoubled A EQ ts Hv).
  assert (G : forall ls, occ e (filter (fun f => Nat.eqb (occ f (edges ts)) 1) ls) = if Nat.eqb (occ e (edges ts)) 1 then occ e ls else 0%nat).
  { induction ls as [|f ls IH]; [destruct (Nat.eqb _ 1); reflexivity|]. cbn [filter].
    assert (C : edge_eq e f = true -> occ f (edges ts) = occ e (edges ts)).
    { intros Hf. clear -Hf EQ. unfold occ. f_equal. apply filter_ext. intros x. rewrite (edge_sym f x), (edge_sym e x).
      symmetry. apply edge_cong. exact Hf. }
    destruct (Nat.eqb (occ f (edges ts)) 1) eqn:F.
    - rewrite !occ_cons, IH. destruct (edge_eq e f) eqn:Ef.
      + rewrite <- (C eq_refl), F. reflexivity.
      + destruct (Nat.eqb (occ e (edges ts)) 1); reflexivity.
    - rewrite IH, occ_cons. destruct (edge_eq e f) eqn:Ef; [|reflexivity].
      rewrite <- (C eq_refl), F. reflexivity. }
  rewrite G. specialize (Hm e). destruct (occ e (edges ts)) as [|[|[|]]]; try reflexivity. exfalso. lia.
Qed.

(** two triangles sharing an edge: the border has four edges *)
Example C44_example : exists ts : list (@triangle (ArithF64 elem0)),
  forallb (fun p => pt_eqb p p) (vertices ts) = true /\ length (edges ts) = 6%nat /\ length (makeUndoubledLines ts) = 4%nat /\
  length (deleteInternalLines ts) = 4%nat.
Proof.
  pose (q := fun x y => @P3 (ArithF64 elem0) (nofZ x) (nofZ y) n0).
  exists [newTriangle (q 0%Z 0%Z) (q 1%Z 0%Z) (q 0%Z 1%Z); newTriangle (q 1%Z 1%Z) (q 0%Z 1%Z) (q 1%Z 0%Z)].
  repeat split; vm_compute; reflexivity.
Qed.

Print Assumptions C37_cut_pieces.
Print Assumptions C37_whole_kept.
Print Assumptions C38_straddling_lost.
Print Assumptions C38_straddling_split.
Print Assumptions C38_touching_lost.
Print Assumptions C39_caps.
Print Assumptions C39_same_count.
Print Assumptions C39_cap_normals.
Print Assumptions C40_split.
Print Assumptions C40_split_any_points.
Print Assumptions C40_small_refuted.
Print Assumptions C41_simplify_any.
Print Assumptions C41_simplify.
Print Assumptions C41_short.
Print Assumptions C41_negative_diverges.
Print Assumptions C41_segment_refuted.
Print Assumptions C42_colorize.
Print Assumptions C42_filter.
Print Assumptions C43_angle_exact.
Print Assumptions C43_opposite_zero_refuted.
Print Assumptions C43_facing_up_flagged_refuted.
Print Assumptions C44_undoubled.
Print Assumptions C44_internal_deleted.
Print Assumptions C44_manifold_same.
